(** Proofs about mhd headers, file type dispatch and whole raw file names. *)
From Coq Require Import Permutation.
From Verif Require Import Base NdArray LoadModel LoadProofs.

(** ** mhd headers *)

(** Specification: a header as the list of its entries, one per line. *)
Definition entry_line (kv : text * text) : text := fst kv ++ lit " = " ++ snd kv.
Definition header_text (es : list (text * text)) : text :=
  flat_map (fun kv => entry_line kv ++ [newline]) es.

Definition free_of (c : ascii) (t : text) : Prop := ~ In c t.
Definition no_assign (t : text) : Prop := forall a b, t <> a ++ lit " = " ++ b.

Definition entry_ok (kv : text * text) : Prop :=
  free_of "=" (fst kv) /\ free_of newline (fst kv) /\
  free_of newline (snd kv) /\ no_assign (snd kv).

(** The value a reader of the file would take: the last one given for the key. *)
Definition last_value (k : text) (es : list (text * text)) : option text :=
  option_map snd (find (fun kv => text_eqb (fst kv) k) (rev es)).

Lemma split_assign_cons c s :
  (forall b, c :: s <> lit " = " ++ b) ->
  split_assign (c :: s) =
  match split_assign s with h :: t => (c :: h) :: t | [] => [[c]] end.
Proof.
  intros H.
  destruct c as [[] [] [] [] [] [] [] []]; try reflexivity.
  destruct s as [|d s]; [reflexivity|].
  destruct d as [[] [] [] [] [] [] [] []]; try reflexivity.
  destruct s as [|e s]; [reflexivity|].
  destruct e as [[] [] [] [] [] [] [] []]; try reflexivity.
  exfalso. apply (H s). reflexivity.
Qed.

Lemma split_assign_none v : no_assign v -> split_assign v = [v].
Proof.
  induction v as [|c v IH]; intros H; [reflexivity|].
  rewrite split_assign_cons.
  - rewrite IH; [reflexivity|]. intros a b E. apply (H (c :: a) b). rewrite E. reflexivity.
  - intros b E. apply (H [] b). exact E.
Qed.

Lemma split_assign_key k v :
  free_of "=" k -> split_assign (k ++ lit " = " ++ v) = k :: split_assign v.
Proof.
  induction k as [|c k IH]; intros H; [reflexivity|].
  cbn [app]. rewrite split_assign_cons.
  - rewrite IH; [reflexivity|]. intros Hin. apply H. right; exact Hin.
  - intros b E. destruct k as [|d k].
    + cbn in E. discriminate E.
    + cbn in E. inversion E; subst. apply H. right; left; reflexivity.
Qed.

Lemma parse_line_ok kv : entry_ok kv -> parse_line (entry_line kv) = Ok kv.
Proof.
  destruct kv as [k v]. intros (H1 & _ & _ & H4). unfold parse_line, entry_line. simpl fst. simpl snd.
  rewrite split_assign_key by exact H1. rewrite split_assign_none by exact H4. reflexivity.
Qed.

Lemma free_forallb c t :
  free_of c t -> forallb (fun d => negb (Ascii.eqb d c)) t = true.
Proof.
  intros H. apply forallb_forall. intros d Hd. apply negb_true_iff, Ascii.eqb_neq.
  intros ->. exact (H Hd).
Qed.

Lemma entry_line_no_newline kv : entry_ok kv -> free_of newline (entry_line kv).
Proof.
  intros (_ & H2 & H3 & _) Hin. unfold entry_line in Hin.
  apply in_app_iff in Hin as [Hin|Hin]; [exact (H2 Hin)|].
  apply in_app_iff in Hin as [Hin|Hin]; [|exact (H3 Hin)].
  simpl in Hin. intuition discriminate.
Qed.

Lemma split_header es tail :
  Forall entry_ok es ->
  split_chr newline (header_text es ++ tail) = map entry_line es ++ split_chr newline tail.
Proof.
  induction es as [|kv es IH]; intros H; [reflexivity|]. inversion H; subst.
  unfold header_text. cbn [flat_map]. fold (header_text es).
  rewrite <- !app_assoc. cbn [app].
  rewrite split_chr_app by (apply free_forallb, entry_line_no_newline; assumption).
  cbn [map app]. rewrite IH by assumption. reflexivity.
Qed.

Lemma mapM_parse_lines es : Forall entry_ok es -> mapM parse_line (map entry_line es) = Ok es.
Proof.
  induction 1 as [|kv es H _ IH]; [reflexivity|]. cbn [map mapM].
  rewrite parse_line_ok by exact H. simpl. rewrite IH. reflexivity.
Qed.

Definition to_dict (es : list (text * text)) : tdict :=
  fold_left (fun d kv => tset d (fst kv) (snd kv)) es [].

Lemma parse_header_ok es tail :
  Forall entry_ok es -> free_of newline tail ->
  parse_header (header_text es ++ tail) = Ok (to_dict es).
Proof.
  intros H Ht. unfold parse_header. rewrite split_header by exact H.
  rewrite split_chr_free by (apply free_forallb; exact Ht).
  rewrite removelast_last, mapM_parse_lines by exact H. reflexivity.
Qed.

Lemma tget_tset d k v k' :
  tget (tset d k v) k' = if text_eqb k k' then Some v else tget d k'.
Proof.
  induction d as [|[k0 v0] d IH]; [reflexivity|]. cbn [tset].
  destruct (text_eqb k0 k) eqn:E0; cbn [tget].
  - apply text_eqb_eq in E0; subst. destruct (text_eqb k k'); reflexivity.
  - destruct (text_eqb k0 k') eqn:E1.
    + apply text_eqb_eq in E1; subst. destruct (text_eqb k k') eqn:E2; [|reflexivity].
      apply text_eqb_eq in E2; subst. apply text_eqb_neq in E0. congruence.
    + exact IH.
Qed.

Lemma find_app_one {A} (f : A -> bool) l x :
  find f (l ++ [x]) = match find f l with Some y => Some y
                      | None => if f x then Some x else None end.
Proof. induction l as [|y l IH]; simpl; [reflexivity|]. destruct (f y); auto. Qed.

Lemma tget_fold es d k :
  tget (fold_left (fun d kv => tset d (fst kv) (snd kv)) es d) k
  = match last_value k es with Some v => Some v | None => tget d k end.
Proof.
  revert d; induction es as [|[k0 v0] es IH]; intros d; [reflexivity|].
  cbn [fold_left]. rewrite IH. unfold last_value. cbn [rev]. rewrite find_app_one.
  destruct (find _ (rev es)) as [[k1 v1]|]; [reflexivity|]. simpl.
  rewrite tget_tset. destruct (text_eqb k0 k); reflexivity.
Qed.

Lemma tget_to_dict es k : tget (to_dict es) k = last_value k es.
Proof. unfold to_dict. rewrite tget_fold. destruct (last_value k es); reflexivity. Qed.

Lemma parse_header_lookup es :
  Forall entry_ok es ->
  exists h, parse_header (header_text es) = Ok h /\ forall k, tget h k = last_value k es.
Proof.
  intros H. exists (to_dict es). split; [|apply tget_to_dict].
  rewrite <- (app_nil_r (header_text es)). apply parse_header_ok; [exact H|intros []].
Qed.

Lemma last_value_in k v es :
  NoDup (map fst es) -> In (k, v) es -> last_value k es = Some v.
Proof.
  intros Hnd Hin. unfold last_value.
  destruct (find (fun kv => text_eqb (fst kv) k) (rev es)) as [[k1 v1]|] eqn:E.
  - apply find_some in E as [H1 H2]. simpl in H2. apply text_eqb_eq in H2; subst k1.
    apply in_rev in H1. simpl. f_equal.
    clear -Hnd H1 Hin. induction es as [|[k0 v0] es IH]; [inversion Hin|].
    simpl in Hnd. inversion Hnd as [|? ? Hx Hnd']; subst.
    destruct H1 as [H1|H1], Hin as [Hin|Hin].
    + congruence.
    + inversion H1; subst. exfalso. apply Hx. apply (in_map fst) in Hin. exact Hin.
    + inversion Hin; subst. exfalso. apply Hx. apply (in_map fst) in H1. exact H1.
    + auto.
  - exfalso. assert (Hin' : In (k, v) (rev es)) by (rewrite <- in_rev; exact Hin).
    specialize (find_none _ _ E _ Hin'). simpl. intros Hf.
    apply text_eqb_neq in Hf. congruence.
Qed.

Lemma last_value_none k es : ~ In k (map fst es) -> last_value k es = None.
Proof.
  intros H. unfold last_value.
  destruct (find (fun kv => text_eqb (fst kv) k) (rev es)) as [[k1 v1]|] eqn:E; [|reflexivity].
  apply find_some in E as [H1 H2]. simpl in H2. apply text_eqb_eq in H2; subst k1.
  apply in_rev in H1. exfalso. apply H. apply (in_map fst) in H1. exact H1.
Qed.

Lemma last_value_perm k es es' :
  NoDup (map fst es) -> Permutation es es' -> last_value k es = last_value k es'.
Proof.
  intros Hnd Hp.
  assert (Hnd' : NoDup (map fst es')).
  { eapply Permutation_NoDup; [apply Permutation_map; exact Hp|exact Hnd]. }
  destruct (in_dec (list_eq_dec ascii_dec) k (map fst es)) as [Hin|Hin].
  - apply in_map_iff in Hin as ([k1 v] & E & Hin). simpl in E; subst.
    rewrite (last_value_in k v es Hnd Hin).
    symmetry. apply last_value_in; [exact Hnd'|]. eapply Permutation_in; eauto.
  - rewrite (last_value_none _ _ Hin). symmetry. apply last_value_none. intros H. apply Hin.
    eapply Permutation_in; [|exact H]. apply Permutation_map, Permutation_sym, Hp.
Qed.

Lemma mhd_info_perm es es' :
  Forall entry_ok es -> NoDup (map fst es) -> Permutation es es' ->
  mhd_info (header_text es) = mhd_info (header_text es').
Proof.
  intros H Hnd Hp.
  assert (H' : Forall entry_ok es').
  { rewrite Forall_forall in *. intros x Hx. apply H.
    eapply Permutation_in; [apply Permutation_sym; exact Hp|exact Hx]. }
  destruct (parse_header_lookup es H) as (h & E & G).
  destruct (parse_header_lookup es' H') as (h' & E' & G').
  unfold mhd_info. rewrite E, E'. simpl. rewrite !G, !G'.
  rewrite !(last_value_perm _ es es' Hnd Hp). reflexivity.
Qed.

(** Blank separated numbers. *)
Lemma words_aux_word cur w s :
  Forall (fun c => is_space c = false) w -> w <> [] ->
  words_aux cur (w ++ " "%char :: s) = (rev cur ++ w) :: words_aux [] s.
Proof.
  revert cur; induction w as [|c w IH]; intros cur H Hn; [congruence|].
  inversion H; subst. cbn [app words_aux]. rewrite H2.
  destruct w as [|d w].
  - cbn [app words_aux]. cbn [rev]. change (is_space " ") with true. cbv iota.
    destruct (rev cur ++ [c]) eqn:E; [destruct (rev cur); discriminate|]. reflexivity.
  - rewrite IH by (auto; discriminate). cbn [rev]. rewrite <- app_assoc. reflexivity.
Qed.

Lemma words_aux_last cur w :
  Forall (fun c => is_space c = false) w -> w <> [] ->
  words_aux cur w = [rev cur ++ w].
Proof.
  revert cur; induction w as [|c w IH]; intros cur H Hn; [congruence|].
  inversion H; subst. cbn [words_aux]. rewrite H2.
  destruct w as [|d w].
  - reflexivity.
  - rewrite IH by (auto; discriminate). cbn [rev]. rewrite <- app_assoc. reflexivity.
Qed.

Lemma digits_no_space t : digits t -> Forall (fun c => is_space c = false) t.
Proof.
  intros [_ H]. apply Forall_forall. intros c Hc. rewrite forallb_forall in H.
  specialize (H c Hc). apply is_digit_cases in H. simpl in H. intuition (subst; reflexivity).
Qed.

Definition dims_text (nx ny nz : nat) : text :=
  dec_text nx ++ " "%char :: dec_text ny ++ " "%char :: dec_text nz.

Lemma words_dims nx ny nz :
  words (dims_text nx ny nz) = [dec_text nx; dec_text ny; dec_text nz].
Proof.
  unfold words, dims_text.
  pose proof (dec_text_digits nx) as Hx. pose proof (dec_text_digits ny) as Hy.
  pose proof (dec_text_digits nz) as Hz.
  rewrite words_aux_word by (try apply digits_no_space; auto; apply Hx).
  rewrite words_aux_word by (try apply digits_no_space; auto; apply Hy).
  rewrite words_aux_last by (try apply digits_no_space; auto; apply Hz).
  reflexivity.
Qed.

(** Specification: the ElementType table of the documentation. *)
Definition element_table : list (string * dtype) :=
  [("MET_UCHAR", UInt 8); ("MET_USHORT", UInt 16); ("MET_UINT", UInt 32);
   ("MET_FLOAT", Float 32); ("MET_DOUBLE", Float 64)]%string.

Lemma element_type_ok n d : In (n, d) element_table -> element_type (lit n) = Ok d.
Proof.
  simpl. intros H. repeat (destruct H as [H|H]; [inversion H; subst; reflexivity|]). destruct H.
Qed.

Lemma mhd_info_ok es file n d nx ny nz :
  Forall entry_ok es -> NoDup (map fst es) ->
  In (lit "ElementDataFile", file) es -> In (lit "ElementType", lit n) es ->
  In (lit "DimSize", dims_text nx ny nz) es -> In (n, d) element_table ->
  mhd_info (header_text es) = Ok (file, d, [Z.of_nat nx; Z.of_nat ny; Z.of_nat nz]).
Proof.
  intros H Hnd Hf He Hd Ht. destruct (parse_header_lookup es H) as (h & E & G).
  unfold mhd_info. rewrite E. cbn [bind from_opt]. rewrite !G.
  rewrite (last_value_in _ _ _ Hnd Hf). cbn [bind from_opt].
  rewrite (last_value_in _ _ _ Hnd Hd). cbn [bind from_opt].
  rewrite words_dims. cbn [mapM]. rewrite !py_int_digits by apply dec_text_digits.
  rewrite !dec_text_val. cbn [bind from_opt].
  rewrite (last_value_in _ _ _ Hnd He). cbn [bind from_opt].
  rewrite (element_type_ok n d Ht). reflexivity.
Qed.

Lemma mhd_lost_last_line es kv :
  Forall entry_ok es -> entry_ok kv ->
  mhd_info (header_text es ++ entry_line kv) = mhd_info (header_text es).
Proof.
  intros H Hk. unfold mhd_info.
  rewrite parse_header_ok by (auto; apply entry_line_no_newline; exact Hk).
  rewrite <- (app_nil_r (header_text es)) at 1.
  rewrite parse_header_ok by (auto; intros []). reflexivity.
Qed.

Lemma mhd_no_data_file es :
  Forall entry_ok es -> ~ In (lit "ElementDataFile") (map fst es) ->
  mhd_info (header_text es) = Err KeyError.
Proof.
  intros H Hn. destruct (parse_header_lookup es H) as (h & E & G).
  unfold mhd_info. rewrite E. cbn [bind from_opt]. rewrite G, (last_value_none _ _ Hn). reflexivity.
Qed.

Lemma load_mhd_roundtrip es file n d nx ny nz v disk :
  Forall entry_ok es -> NoDup (map fst es) ->
  In (lit "ElementDataFile", file) es -> In (lit "ElementType", lit n) es ->
  In (lit "DimSize", dims_text nx ny nz) es -> In (n, d) element_table ->
  (forall x y z, x < nx -> y < ny -> z < nz ->
     (0 <= v x y z < 256 ^ Z.of_nat (itemsize d))%Z) ->
  disk file = volume_bytes (itemsize d) nx ny nz v ->
  exists a, load_mhd disk (header_text es) = Ok (d, a) /\ shp a = [nx; ny; nz] /\
    (forall x y z, x < nx -> y < ny -> z < nz ->
       option_map decode_le (get a [x; y; z]) = Some (v x y z)).
Proof.
  intros H Hnd Hf He Hd Ht Hv Hb. unfold load_mhd.
  rewrite (mhd_info_ok es file n d nx ny nz) by assumption. cbn [bind from_opt]. rewrite Hb.
  assert (Hw : 0 < itemsize d).
  { simpl in Ht. repeat (destruct Ht as [Ht|Ht]; [inversion Ht; subst; simpl; lia|]). destruct Ht. }
  destruct (load_binary_roundtrip d nx ny nz v Hw Hv) as (a & Ha & Hs & Hg).
  rewrite Ha. simpl. eauto.
Qed.

(** ** Extensions and dispatch *)

Lemma split_last_none c s : ~ In c s -> split_last c s = None.
Proof.
  induction s as [|d s IH]; intros H; [reflexivity|]. simpl. rewrite IH.
  - destruct (Ascii.eqb d c) eqn:E; [|reflexivity]. apply Ascii.eqb_eq in E; subst.
    exfalso. apply H. left; reflexivity.
  - intros Hin. apply H. right; exact Hin.
Qed.

Lemma split_last_app c pre post : ~ In c post -> split_last c (pre ++ c :: post) = Some (pre, post).
Proof.
  intros H. induction pre as [|d pre IH]; simpl.
  - rewrite split_last_none by exact H. rewrite Ascii.eqb_refl. reflexivity.
  - rewrite IH. reflexivity.
Qed.

Lemma split_last_some c s pre post :
  split_last c s = Some (pre, post) -> s = pre ++ c :: post /\ ~ In c post.
Proof.
  revert pre post; induction s as [|d s IH]; simpl; intros pre post H; [discriminate|].
  destruct (split_last c s) as [[p q]|] eqn:E.
  - inversion H; subst. destruct (IH p post eq_refl) as [-> Hn]. auto.
  - destruct (Ascii.eqb d c) eqn:Ed; [|discriminate]. inversion H; subst.
    apply Ascii.eqb_eq in Ed; subst. split; [reflexivity|].
    intros Hin. clear -E Hin. induction post as [|e post IH]; [inversion Hin|].
    simpl in E. destruct (split_last c post) as [[? ?]|] eqn:E2; [discriminate|].
    destruct (Ascii.eqb e c) eqn:Ee; [discriminate|].
    destruct Hin as [->|Hin]; [rewrite Ascii.eqb_refl in Ee; discriminate|auto].
Qed.

Lemma existsb_eqb_in c s : existsb (Ascii.eqb c) s = true <-> In c s.
Proof.
  rewrite existsb_exists. split.
  - intros (x & Hx & E). apply Ascii.eqb_eq in E. subst; exact Hx.
  - intros H. exists c. split; [exact H|apply Ascii.eqb_refl].
Qed.

(** A plain file name (no directory part): the extension is what follows the last dot,
    provided something other than dots precedes it. *)
Lemma splitext_ok stem e :
  ~ In "."%char e -> ~ In "/"%char e -> ~ In "/"%char stem ->
  (exists c, In c stem /\ c <> "."%char) ->
  splitext (stem ++ "."%char :: e) = (stem, "."%char :: e).
Proof.
  intros H1 H2 H3 (c & Hc & Hd). unfold splitext. rewrite split_last_app by exact H1.
  destruct (existsb (Ascii.eqb "/") e) eqn:E; [apply existsb_eqb_in in E; contradiction|].
  rewrite split_last_none by exact H3.
  destruct (existsb (fun c => negb (Ascii.eqb c ".")) stem) eqn:E2; [reflexivity|].
  exfalso. assert (Ht : existsb (fun c => negb (Ascii.eqb c ".")) stem = true).
  { apply existsb_exists. exists c. split; [exact Hc|]. apply negb_true_iff, Ascii.eqb_neq, Hd. }
  congruence.
Qed.

Lemma splitext_none name :
  (forall stem e, name = stem ++ "."%char :: e -> ~ In "."%char e ->
     forall c, In c stem -> c = "."%char) ->
  ~ In "/"%char name -> splitext name = (name, []).
Proof.
  intros H Hs. unfold splitext. destruct (split_last "." name) as [[pre post]|] eqn:E; [|reflexivity].
  apply split_last_some in E as [E1 E2].
  destruct (existsb (Ascii.eqb "/") post); [reflexivity|].
  rewrite split_last_none.
  - destruct (existsb (fun c => negb (Ascii.eqb c ".")) pre) eqn:E3; [|reflexivity].
    apply existsb_exists in E3 as (c & Hc & Hn). rewrite (H pre post E1 E2 c Hc) in Hn.
    discriminate.
  - intros Hin. apply Hs. rewrite E1. apply in_app_iff. auto.
Qed.

(** Specification of the dispatch: a table of extensions, and the rule for ".gz". *)
Definition ext_table : list (string * reader) :=
  [("mhd", RdMhd); ("raw", RdRaw); ("nii", RdNifti); ("png", RdImage); ("jpg", RdImage);
   ("jpeg", RdImage); ("bmp", RdImage); ("tiff", RdImage)]%string.

(** Somewhere in the name: any character but newline, then "nii". *)
Definition nii_inside (name : text) : Prop :=
  exists a c b, name = a ++ c :: lit "nii" ++ b /\ c <> newline.

Lemma lang_nii t : lang nii_re t <-> exists c, t = c :: lit "nii" /\ c <> newline.
Proof.
  unfold nii_re, rlit. cbn [lang]. split.
  - intros (t1 & t2 & -> & (c & Hc & ->) & t3 & t4 & -> & (n & Hn & ->) & t5 & t6 & -> &
            (i & Hi & ->) & (j & Hj & ->)).
    unfold is_char in *. apply Ascii.eqb_eq in Hn, Hi, Hj. subst.
    exists c. split; [reflexivity|]. apply negb_true_iff, Ascii.eqb_neq in Hc. exact Hc.
  - intros (c & -> & Hc). exists [c], (lit "nii"). split; [reflexivity|]. split.
    + exists c. split; [|reflexivity]. apply negb_true_iff, Ascii.eqb_neq, Hc.
    + exists (lit "n"), (lit "ii"). repeat split; [exists "n"%char; auto|].
      exists (lit "i"), (lit "i"). repeat split; exists "i"%char; auto.
Qed.

Lemma search_nii name : (exists t, search nii_re name = Some t) <-> nii_inside name.
Proof.
  split.
  - intros [t Ht]. apply search_some in Ht as (a & b & -> & Hl).
    apply lang_nii in Hl as (c & -> & Hc). exists a, c, b. split; [|exact Hc].
    rewrite <- app_comm_cons. reflexivity.
  - intros (a & c & b & -> & Hc). destruct (search nii_re _) as [t|] eqn:E; [eauto|].
    exfalso. apply (proj1 (search_none _ _) E a (c :: lit "nii") b).
    + rewrite <- app_comm_cons. reflexivity.
    + apply lang_nii. eauto.
Qed.

Lemma dispatch_table stem e r :
  ~ In "/"%char stem -> (exists c, In c stem /\ c <> "."%char) -> In (e, r) ext_table ->
  dispatch (stem ++ "."%char :: lit e) = Ok r.
Proof.
  intros H1 H2 H3. unfold dispatch.
  rewrite splitext_ok; auto.
  - simpl in H3. repeat (destruct H3 as [H3|H3]; [inversion H3; subst; reflexivity|]). destruct H3.
  - simpl in H3. repeat (destruct H3 as [H3|H3];
      [inversion H3; subst; simpl; intuition discriminate|]). destruct H3.
  - simpl in H3. repeat (destruct H3 as [H3|H3];
      [inversion H3; subst; simpl; intuition discriminate|]). destruct H3.
Qed.

Lemma dispatch_gz stem :
  ~ In "/"%char stem -> (exists c, In c stem /\ c <> "."%char) ->
  (nii_inside (stem ++ lit ".gz") -> dispatch (stem ++ lit ".gz") = Ok RdNifti) /\
  (~ nii_inside (stem ++ lit ".gz") -> dispatch (stem ++ lit ".gz") = Err ValueError).
Proof.
  intros H1 H2. unfold dispatch.
  change (lit ".gz") with ("."%char :: lit "gz").
  rewrite splitext_ok; auto; try (simpl; intuition discriminate).
  change (snd (stem, "."%char :: lit "gz")) with (lit ".gz").
  change (text_eqb (lit ".gz") (lit ".mhd")) with false.
  change (text_eqb (lit ".gz") (lit ".raw")) with false.
  change (text_eqb (lit ".gz") (lit ".nii")) with false.
  change (text_eqb (lit ".gz") (lit ".gz")) with true. cbv iota.
  split; intros H.
  - apply search_nii in H as [t ->]. reflexivity.
  - destruct (search nii_re _) as [t|] eqn:E; [|reflexivity].
    exfalso. apply H. apply search_nii. eauto.
Qed.

Lemma dispatch_unknown stem e :
  ~ In "."%char e -> ~ In "/"%char e -> ~ In "/"%char stem ->
  (exists c, In c stem /\ c <> "."%char) ->
  (forall n r, In (n, r) ext_table -> e <> lit n) -> e <> lit "gz" ->
  dispatch (stem ++ "."%char :: e) = Err ValueError.
Proof.
  intros H1 H2 H3 H4 H5 H6. unfold dispatch. rewrite splitext_ok by auto. cbn [snd].
  assert (Hn : forall n, e <> lit n -> text_eqb ("."%char :: e) ("."%char :: lit n) = false).
  { intros n Hne. apply text_eqb_neq. congruence. }
  change (lit ".mhd") with ("."%char :: lit "mhd").
  change (lit ".raw") with ("."%char :: lit "raw").
  change (lit ".nii") with ("."%char :: lit "nii").
  change (lit ".gz") with ("."%char :: lit "gz").
  change (lit ".png") with ("."%char :: lit "png").
  change (lit ".jpg") with ("."%char :: lit "jpg").
  change (lit ".jpeg") with ("."%char :: lit "jpeg").
  change (lit ".bmp") with ("."%char :: lit "bmp").
  change (lit ".tiff") with ("."%char :: lit "tiff").
  cbn [existsb]. rewrite !Hn; [reflexivity|..];
    try exact H6; eapply H5; simpl; eauto 12.
Qed.

Lemma dispatch_no_ext name :
  (forall stem e, name = stem ++ "."%char :: e -> ~ In "."%char e ->
     forall c, In c stem -> c = "."%char) ->
  ~ In "/"%char name -> dispatch name = Err ValueError.
Proof.
  intros H1 H2. unfold dispatch. rewrite splitext_none by assumption. reflexivity.
Qed.

(** ** A whole raw file name *)

Definition raw_head (p : text) (nx ny nz : nat) (m : text) (tok : text) (s : text) : text :=
  p ++ dec_text nx ++ "x"%char :: dec_text ny ++ "x"%char :: dec_text nz ++ m ++ tok ++ s.

Lemma clean_app l p q :
  clean_before l p -> clean_before l q -> clean_before l (p ++ q).
Proof.
  induction p as [|c p IH]; intros Hp Hq; [exact Hq|]. destruct Hp as [H1 H2].
  simpl. split; [|auto]. intros Hd. specialize (H1 Hd). destruct p; [contradiction|exact H1].
Qed.

Lemma clean_digits l ds d t :
  (forall c, is_digit c = true -> l c = false) ->
  forallb is_digit ds = true -> is_digit d = false -> l d = false ->
  clean_before l t -> clean_before l (ds ++ d :: t).
Proof.
  intros Hl Hd Hn Hld Ht. induction ds as [|c ds IH]; simpl.
  - split; [congruence|exact Ht].
  - simpl in Hd. apply andb_true_iff in Hd as [Hc Hd]. split; [|auto].
    intros _. destruct ds as [|e ds]; simpl; [exact Hld|].
    apply Hl. simpl in Hd. apply andb_true_iff in Hd. tauto.
Qed.

Definition digit_free (t : text) : Prop := forall c, In c t -> is_digit c = false.

Lemma digit_free_forallb t : digit_free t -> forallb (fun c => negb (is_digit c)) t = true.
Proof. intros H. apply forallb_forall. intros c Hc. rewrite (H c Hc). reflexivity. Qed.

Lemma depth_follow_digit c : is_digit c = true -> depth_follow c = false.
Proof. intros H. apply is_digit_cases in H. simpl in H. intuition (subst; reflexivity). Qed.

Lemma raw_head_dims p nx ny nz m tok s :
  digit_free p -> digit_free m -> m <> [] ->
  raw_dims (raw_head p nx ny nz m tok s) = Ok [Z.of_nat nx; Z.of_nat ny; Z.of_nat nz].
Proof.
  intros Hp Hm Hn. unfold raw_head. rewrite raw_dims_ok.
  - rewrite !dec_text_val. reflexivity.
  - apply clean_digit_free, digit_free_forallb, Hp.
  - apply dec_text_digits.
  - apply dec_text_digits.
  - apply dec_text_digits.
  - destruct m as [|c m]; [congruence|]. simpl. apply Hm. left; reflexivity.
Qed.

Lemma raw_head_dtype p nx ny nz m ds k s :
  digit_free p -> digit_free m ->
  (exists c m', m = c :: m' /\ depth_follow c = false) -> digits ds ->
  raw_dtype (raw_head p nx ny nz m (ds ++ kind_text k ++ lit "bit") s)
  = parse_bitdepth (last2 ds ++ kind_text k ++ lit "bit" ++ opt_s s).
Proof.
  intros Hp Hm (c & m' & -> & Hc) Hd. unfold raw_head.
  assert (E : p ++ dec_text nx ++ "x"%char :: dec_text ny ++ "x"%char :: dec_text nz ++
     (c :: m') ++ (ds ++ kind_text k ++ lit "bit") ++ s =
     (p ++ dec_text nx ++ "x"%char :: dec_text ny ++ "x"%char :: dec_text nz ++ c :: m')
     ++ ds ++ kind_text k ++ lit "bit" ++ s).
  { rewrite <- !app_assoc. do 2 f_equal. cbn [app]. f_equal. rewrite <- !app_assoc. f_equal.
    cbn [app]. f_equal. rewrite <- !app_assoc. reflexivity. }
  rewrite E. apply raw_dtype_ok; [|exact Hd].
  apply clean_app; [apply clean_digit_free, digit_free_forallb, Hp|].
  apply clean_digits; try apply dec_text_digits; auto using depth_follow_digit.
  apply clean_digits; try apply dec_text_digits; auto using depth_follow_digit.
  apply clean_digits; try apply dec_text_digits; auto using depth_follow_digit.
  - apply Hm. left; reflexivity.
  - apply clean_digit_free, digit_free_forallb. intros d Hin. apply Hm. right; exact Hin.
Qed.

Lemma raw_head_splitext p nx ny nz m tok s :
  ~ In "/"%char (raw_head p nx ny nz m tok s) ->
  splitext (raw_head p nx ny nz m tok s ++ lit ".raw") = (raw_head p nx ny nz m tok s, lit ".raw").
Proof.
  intros H. change (lit ".raw") with ("."%char :: lit "raw").
  apply splitext_ok; try exact H; try (simpl; intuition discriminate).
  exists "x"%char. split; [|discriminate]. unfold raw_head.
  apply in_app_iff. right. apply in_app_iff. right. left. reflexivity.
Qed.

Lemma load_raw_roundtrip p nx ny nz m ds k s d v :
  digit_free p -> digit_free m ->
  (exists c m', m = c :: m' /\ depth_follow c = false) -> digits ds ->
  ~ In "/"%char (raw_head p nx ny nz m (ds ++ kind_text k ++ lit "bit") s) ->
  parse_bitdepth (last2 ds ++ kind_text k ++ lit "bit" ++ opt_s s) = Ok d ->
  (forall x y z, x < nx -> y < ny -> z < nz ->
     (0 <= v x y z < 256 ^ Z.of_nat (itemsize d))%Z) ->
  exists a,
    load_raw (raw_head p nx ny nz m (ds ++ kind_text k ++ lit "bit") s ++ lit ".raw")
             (volume_bytes (itemsize d) nx ny nz v) = Ok (d, a) /\
    shp a = [nx; ny; nz] /\
    (forall x y z, x < nx -> y < ny -> z < nz ->
       option_map decode_le (get a [x; y; z]) = Some (v x y z)).
Proof.
  intros Hp Hm Hc Hd Hs Hb Hv. unfold load_raw. rewrite raw_head_splitext by exact Hs.
  cbn [fst]. rewrite raw_head_dims; auto.
  2:{ destruct Hc as (c & m' & -> & _). discriminate. }
  cbn [bind from_opt]. rewrite raw_head_dtype by assumption. rewrite Hb. cbn [bind from_opt].
  assert (Hw : 0 < itemsize d).
  { apply parse_bitdepth_spec in Hb as (n & Hin & _). simpl in Hin.
    repeat (destruct Hin as [Hin|Hin]; [inversion Hin; subst; simpl; lia|]). destruct Hin. }
  destruct (load_binary_roundtrip d nx ny nz v Hw Hv) as (a & Ha & Hsh & Hg).
  rewrite Ha. simpl. eauto.
Qed.

(** ** Rejected names *)

Definition triple_inside (name : text) : Prop :=
  exists a dx dy dz b, name = a ++ dx ++ "x"%char :: dy ++ "x"%char :: dz ++ b /\
    digits dx /\ digits dy /\ digits dz.

Lemma lang_dim t :
  lang dim_re t <->
  exists dx dy dz, t = dx ++ "x"%char :: dy ++ "x"%char :: dz /\
    digits dx /\ digits dy /\ digits dz.
Proof.
  unfold dim_re, rlit. cbn [lang]. split.
  - intros (dx & t2 & -> & Hx & t3 & t4 & -> & (c & Hc & ->) & dy & t6 & -> & Hy & t7 & dz &
            -> & (c' & Hc' & ->) & Hz).
    unfold is_char in *. apply Ascii.eqb_eq in Hc, Hc'. subst.
    exists dx, dy, dz. repeat split; try apply Hx; try apply Hy; try apply Hz.
  - intros (dx & dy & dz & -> & Hx & Hy & Hz).
    exists dx, ("x"%char :: dy ++ "x"%char :: dz). repeat split; try apply Hx.
    exists ["x"%char], (dy ++ "x"%char :: dz). repeat split; [exists "x"%char; split; reflexivity|].
    exists dy, ("x"%char :: dz). repeat split; try apply Hy.
    exists ["x"%char], dz. repeat split; [exists "x"%char; split; reflexivity|apply Hz..].
Qed.

Lemma raw_dims_iff head :
  (triple_inside head -> exists x y z, raw_dims head = Ok [x; y; z]) /\
  (~ triple_inside head -> raw_dims head = Err ValueError).
Proof.
  unfold raw_dims. split.
  - intros (a & dx & dy & dz & b & E & Hx & Hy & Hz).
    destruct (search dim_re head) as [t|] eqn:Es.
    + apply search_some in Es as (a' & b' & _ & Hl).
      apply lang_dim in Hl as (ex & ey & ez & -> & Gx & Gy & Gz). cbn [bind from_opt].
      rewrite split_chr_app by (apply digits_no_x, Gx).
      rewrite split_chr_app by (apply digits_no_x, Gy).
      rewrite split_chr_free by (apply digits_no_x, Gz). cbn [mapM].
      rewrite !py_int_digits by assumption. cbn [bind]. eauto.
    + exfalso. rewrite search_none in Es.
      apply (Es a (dx ++ "x"%char :: dy ++ "x"%char :: dz) b).
      * rewrite E, <- app_assoc. cbn [app]. rewrite <- app_assoc. reflexivity.
      * apply lang_dim. exists dx, dy, dz. auto.
  - intros H. destruct (search dim_re head) as [t|] eqn:Es; [|reflexivity].
    exfalso. apply H. apply search_some in Es as (a & b & -> & Hl).
    apply lang_dim in Hl as (ex & ey & ez & -> & G). exists a, ex, ey, ez, b.
    split; [|exact G]. rewrite <- app_assoc. cbn [app]. rewrite <- app_assoc. reflexivity.
Qed.

Lemma load_raw_no_triple file_name bytes :
  ~ triple_inside (fst (splitext file_name)) -> load_raw file_name bytes = Err ValueError.
Proof. intros H. unfold load_raw. rewrite (proj2 (raw_dims_iff _) H). reflexivity. Qed.

(** The element type can only come from one of the documented tokens standing in the name. *)
Lemma raw_dtype_sound head d :
  raw_dtype head = Ok d -> exists n a b, In (n, d) depth_table /\ head = a ++ lit n ++ b.
Proof.
  unfold raw_dtype. destruct (search depth_re head) as [t|] eqn:E; cbn [bind from_opt]; [|discriminate].
  intros H. apply parse_bitdepth_spec in H as (n & Hin & ->).
  apply search_some in E as (a & b & E & _). eauto.
Qed.

Lemma raw_dtype_err head :
  (exists d, raw_dtype head = Ok d) \/ raw_dtype head = Err ValueError.
Proof.
  unfold raw_dtype. destruct (search depth_re head) as [t|]; cbn [bind from_opt]; [|auto].
  destruct (parse_bitdepth t) as [d|e] eqn:E; [eauto|].
  right. revert E. unfold parse_bitdepth.
  repeat match goal with |- context [if ?b then _ else _] => destruct b end; congruence.
Qed.

Lemma last2_eq ds a b : last2 (ds ++ [a; b]) = [a; b].
Proof.
  unfold last2. rewrite app_length. simpl. replace (length ds + 2 - 2) with (length ds + 0) by lia.
  rewrite skipn_app. rewrite Nat.add_0_r, skipn_all, Nat.sub_diag. reflexivity.
Qed.
