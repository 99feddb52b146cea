(** Proofs about FileModel.v *)
From Coq Require Import Reals Lra Psatz Permutation Ascii.
From Verif Require Import Base NdArray LoadModel LoadProofs LoadTextProofs NormModel NormProofs PairModel PairProofs RealSums
  MetricModel MetricProofs BatchModel ScriptModel ScriptProps FileModel.

(** ** Paths *)

Definition plain_dir (dir : text) : Prop :=
  dir = [] \/ dir = lit "/" \/ exists d c, dir = d ++ [c; "/"%char] /\ c <> "/"%char.

Lemma basename_app dir name : plain_dir dir -> ~ In "/"%char name -> basename (dir ++ name) = name.
Proof.
  intros H N. unfold basename. destruct H as [->|[->|(d & c & -> & _)]].
  - cbn [app]. rewrite split_last_none by exact N. reflexivity.
  - change (lit "/" ++ name) with ([] ++ "/"%char :: name). rewrite split_last_app by exact N. reflexivity.
  - replace ((d ++ [c; "/"%char]) ++ name) with ((d ++ [c]) ++ "/"%char :: name) by (rewrite <- !app_assoc; reflexivity).
    rewrite split_last_app by exact N. reflexivity.
Qed.

Lemma dirname_app dir name : plain_dir dir -> ~ In "/"%char name ->
  dirname (dir ++ name) = match dir with [] => [] | _ => if text_eqb dir (lit "/") then dir else removelast dir end.
Proof.
  intros H N. unfold dirname. destruct H as [->|[->|(d & c & -> & C)]].
  - cbn [app]. rewrite split_last_none by exact N. reflexivity.
  - change (lit "/" ++ name) with ([] ++ "/"%char :: name). rewrite split_last_app by exact N. reflexivity.
  - replace ((d ++ [c; "/"%char]) ++ name) with ((d ++ [c]) ++ "/"%char :: name) by (rewrite <- !app_assoc; reflexivity).
    rewrite split_last_app by exact N. cbv zeta.
    assert (F : forallb (Ascii.eqb "/") ((d ++ [c]) ++ lit "/") = false).
    { rewrite !forallb_app. cbn [forallb]. destruct (Ascii.eqb_spec "/" c); [congruence|]. destruct (forallb _ d); reflexivity. }
    rewrite F, !rev_app_distr. change (rev (lit "/")) with (lit "/"). cbn [app rev lit list_ascii_of_string].
    assert (S : rstrip_slash ("/"%char :: c :: rev d) = c :: rev d).
    { cbn [rstrip_slash]. destruct c as [[] [] [] [] [] [] [] []]; try reflexivity. exfalso. apply C. reflexivity. }
    rewrite S. cbn [rev]. rewrite rev_involutive.
    replace (d ++ [c; "/"%char]) with ((d ++ [c]) ++ ["/"%char]) by (rewrite <- app_assoc; reflexivity).
    rewrite removelast_last.
    destruct (d ++ [c]) as [|x l] eqn:E; [destruct d; discriminate|]. cbn [app].
    unfold text_eqb. destruct (list_eq_dec ascii_dec _ _) as [A|]; [|reflexivity].
    exfalso. injection A as A1 A2. destruct l; discriminate A2.
Qed.

Lemma join_dir dir name file : plain_dir dir -> ~ In "/"%char name ->
  match file with "/"%char :: _ => False | _ => True end ->
  join (dirname (dir ++ name)) file = dir ++ file.
Proof.
  intros H N F. rewrite dirname_app by assumption.
  assert (J : forall a, join a file = match a with [] => file | _ => if Ascii.eqb (last a "/"%char) "/"%char then a ++ file else a ++ "/"%char :: file end).
  { intros a. unfold join. destruct file as [|x f]; [reflexivity|].
    destruct x as [[] [] [] [] [] [] [] []]; try reflexivity. contradiction. }
  rewrite J. destruct H as [->|[->|(d & c & -> & C)]]; [reflexivity|reflexivity|].
  replace (d ++ [c; "/"%char]) with ((d ++ [c]) ++ ["/"%char]) by (rewrite <- app_assoc; reflexivity).
  destruct ((d ++ [c]) ++ ["/"%char]) as [|y l] eqn:E; [destruct (d ++ [c]); discriminate|]. rewrite <- E. clear y l E.
  rewrite removelast_last.
  unfold text_eqb. destruct (list_eq_dec ascii_dec _ _) as [A|_].
  { exfalso. apply (f_equal (@length _)) in A. rewrite !app_length in A. cbn in A. lia. }
  rewrite last_last. destruct (Ascii.eqb_spec c "/"); [contradiction|].
  destruct (d ++ [c]) eqn:E; [destruct d; discriminate|]. rewrite <- E, <- !app_assoc. reflexivity.
Qed.

Lemma no_slash_start (name : text) : ~ In "/"%char name -> match name with "/"%char :: _ => False | _ => True end.
Proof.
  destruct name as [|c l]; intros N; [exact I|]. destruct c as [[] [] [] [] [] [] [] []]; try exact I.
  apply N. left. reflexivity.
Qed.

(** ** Text mode *)

Lemma newlines_plain a b : ~ In (ascii_of_nat 13) a -> newlines (a ++ b) = a ++ newlines b.
Proof.
  induction a as [|c a IH]; intros N; [reflexivity|]. cbn [app newlines].
  destruct (Ascii.eqb_spec c (ascii_of_nat 13)) as [->|]; [exfalso; apply N; left; reflexivity|].
  rewrite IH; [reflexivity|]. intros I. apply N. right. exact I.
Qed.

Definition bytes_of (t : text) : list Z := map (fun c => Z.of_nat (nat_of_ascii c)) t.

Lemma text_bytes t : text_of (bytes_of t) = newlines t.
Proof.
  unfold text_of, bytes_of. rewrite map_map. f_equal. rewrite <- (map_id t) at 2. apply map_ext. intros c.
  rewrite Nat2Z.id. apply ascii_nat_embedding.
Qed.

(** Lines ended by LF, CR LF or CR. *)
Inductive eol := LF | CRLF | CR.
Definition eol_text (e : eol) : text :=
  match e with LF => [newline] | CRLF => [ascii_of_nat 13; newline] | CR => [ascii_of_nat 13] end.
Definition header_file (e : eol) (es : list (text * text)) : text :=
  flat_map (fun kv => entry_line kv ++ eol_text e) es.

Definition no_cr (kv : text * text) : Prop := ~ In (ascii_of_nat 13) (fst kv) /\ ~ In (ascii_of_nat 13) (snd kv).

Lemma newlines_eol e b : (match b with c :: _ => c <> newline | [] => True end) -> newlines (eol_text e ++ b) = newline :: newlines b.
Proof.
  intros H. destruct e; cbn [eol_text app].
  - change (newlines (newline :: b)) with (newline :: newlines b). reflexivity.
  - cbn [newlines]. rewrite !Ascii.eqb_refl. reflexivity.
  - cbn [newlines]. rewrite Ascii.eqb_refl. destruct b as [|c b]; [reflexivity|].
    destruct (Ascii.eqb_spec c newline); [contradiction|]. reflexivity.
Qed.

Lemma header_newlines e es : Forall entry_ok es -> Forall no_cr es -> newlines (header_file e es) = header_text es.
Proof.
  intros H C. induction es as [|kv es IH]; [reflexivity|].
  inversion H as [|? ? H1 H2]; subst. inversion C as [|? ? C1 C2]; subst.
  unfold header_file, header_text. cbn [flat_map]. rewrite <- !app_assoc.
  assert (N : ~ In (ascii_of_nat 13) (entry_line kv)).
  { unfold entry_line. rewrite !in_app_iff. intros [I|[I|I]]; [apply (proj1 C1), I| |apply (proj2 C1), I].
    repeat (destruct I as [I|I]; [discriminate I|]). exact I. }
  rewrite newlines_plain by exact N. f_equal. rewrite newlines_eol.
  - cbn [app]. f_equal. apply IH; assumption.
  - destruct es as [|kv' es']; [exact I|]. cbn [flat_map]. unfold entry_line.
    inversion H2 as [|? ? H3 _]; subst. destruct H3 as (_ & H3 & _). destruct kv' as [k v]. cbn [fst snd] in *.
    destruct k as [|c k]; cbn [app]; [discriminate|]. intros ->. apply H3. left. reflexivity.
Qed.

(** ** Arrays of values *)

Lemma get_amap {A B} (f : A -> B) a idx : get (amap f a) idx = option_map f (get a idx).
Proof. unfold get, amap. cbn [shp dat]. destruct (inb _ _); [|reflexivity]. apply nth_error_map. Qed.

Lemma mapM_option {A B C} (f : B -> C) (g : A -> option B) (h : A -> option C) l :
  (forall a, h a = option_map f (g a)) ->
  mapM (fun a => from_opt IndexError (h a)) l = (let* x := mapM (fun a => from_opt IndexError (g a)) l in Ok (map f x)).
Proof.
  intros H. induction l as [|a l IH]; [reflexivity|]. cbn [mapM]. rewrite H. destruct (g a); cbn [from_opt bind option_map]; [|reflexivity].
  rewrite IH. destruct (mapM (fun a => from_opt IndexError (g a)) l); reflexivity.
Qed.

Lemma reindex_amap {A B} (f : A -> B) a s m : reindex (amap f a) s m = (let* x := reindex a s m in Ok (amap f x)).
Proof.
  unfold reindex. rewrite (mapM_option f (fun idx => get a (m idx))); [|intros idx; apply get_amap].
  destruct (mapM _ _); reflexivity.
Qed.

Lemma flip_amap {A B} (f : A -> B) a ax : flip_ax (amap f a) ax = (let* x := flip_ax a ax in Ok (amap f x)).
Proof. unfold flip_ax. cbn [shp amap]. destruct (_ <=? _); [reflexivity|]. apply (reindex_amap f a). Qed.

Lemma swap_amap {A B} (f : A -> B) a i j : swap_axes (amap f a) i j = (let* x := swap_axes a i j in Ok (amap f x)).
Proof. unfold swap_axes. cbn [shp amap]. apply (reindex_amap f a). Qed.

Lemma rot_amap {A B} (f : A -> B) a i j : rot90 (amap f a) i j = (let* x := rot90 a i j in Ok (amap f x)).
Proof.
  unfold rot90. cbn [shp amap]. destruct (_ || _); [reflexivity|]. change (Arr (shp a) (map f (dat a))) with (amap f a).
  rewrite flip_amap. destruct (flip_ax a j); [|reflexivity]. cbn [bind]. apply swap_amap.
Qed.

Lemma load_items_map {A B} (f : A -> B) items dims :
  load_items (map f items) dims = (let* x := load_items items dims in Ok (amap f x)).
Proof.
  unfold load_items. rewrite map_length. destruct (negb _); [reflexivity|]. unfold reshape. rewrite map_length.
  destruct (_ && _); [|reflexivity]. cbn [bind].
  change (Arr (map Z.to_nat (rev dims)) (map f items)) with (amap f (Arr (map Z.to_nat (rev dims)) items)).
  rewrite rot_amap. destruct (rot90 _ 0 2); [|reflexivity]. cbn [bind]. apply flip_amap.
Qed.

(** ** What a file says *)

(** The [i]-th word of [w] bytes, least significant byte first. *)
Definition word (w : nat) (bytes : list Z) (i : nat) : Z :=
  fold_right Z.add 0%Z (map (fun k => 256 ^ Z.of_nat k * nth (i * w + k) bytes 0)%Z (seq 0 w)).

Definition value (d : dtype) (bytes : list Z) (i : nat) : option R :=
  match d with
  | Float b => float_value b (word (itemsize d) bytes i)
  | _ => Some (IZR (word (itemsize d) bytes i))
  end.

(** A raw file, or an mhd file with its data file in the same directory (or below). *)
Inductive stored (files : text -> option (list Z)) : text -> dtype -> nat -> nat -> nat -> list Z -> Prop :=
| stored_raw dir name d nx ny nz bytes :
    plain_dir dir -> ~ In "/"%char name -> snd (splitext name) = lit ".raw" ->
    raw_dims (fst (splitext name)) = Ok [Z.of_nat nx; Z.of_nat ny; Z.of_nat nz] ->
    raw_dtype (fst (splitext name)) = Ok d ->
    files (dir ++ name) = Some bytes ->
    stored files (dir ++ name) d nx ny nz bytes
| stored_mhd dir name e es file n d nx ny nz bytes :
    plain_dir dir -> ~ In "/"%char name -> snd (splitext name) = lit ".mhd" ->
    Forall entry_ok es -> Forall no_cr es -> NoDup (map fst es) ->
    In (lit "ElementDataFile", file) es -> In (lit "ElementType", lit n) es ->
    In (lit "DimSize", dims_text nx ny nz) es -> In (n, d) element_table ->
    files (dir ++ name) = Some (bytes_of (header_file e es)) ->
    hd "."%char file <> "/"%char -> files (dir ++ file) = Some bytes ->
    stored files (dir ++ name) d nx ny nz bytes.

Lemma decode_sum bs : decode_le bs = fold_right Z.add 0%Z (map (fun k => 256 ^ Z.of_nat k * nth k bs 0)%Z (seq 0 (length bs))).
Proof.
  induction bs as [|b bs IH]; [reflexivity|]. cbn [decode_le length seq map fold_right nth]. rewrite IH, <- seq_shift, map_map.
  change (256 ^ Z.of_nat 0)%Z with 1%Z. rewrite Z.mul_1_l. f_equal.
  generalize (seq 0 (length bs)). intros l. induction l as [|k l IHl]; [reflexivity|]. cbn [map fold_right nth].
  rewrite <- IHl. rewrite Nat2Z.inj_succ, Z.pow_succ_r by lia. ring.
Qed.

Lemma decode_word w bytes i : (i < length bytes / w)%nat -> decode_le (firstn w (skipn (i * w) bytes)) = word w bytes i.
Proof.
  intros H. rewrite decode_sum.
  assert (W : w <> 0%nat) by (intros ->; cbn in H; lia).
  assert (L : (i * w + w <= length bytes)%nat).
  { pose proof (Nat.mul_div_le (length bytes) w W). nia. }
  rewrite firstn_length, skipn_length, Nat.min_l by lia. unfold word. f_equal. apply map_ext_in. intros k Hk. apply in_seq in Hk.
  f_equal. rewrite <- (firstn_skipn (i * w) bytes) at 2. rewrite app_nth2; rewrite firstn_length, Nat.min_l by lia; [|lia].
  replace (i * w + k - i * w)%nat with k by lia.
  rewrite <- (firstn_skipn w (skipn (i * w) bytes)) at 2. rewrite app_nth1; [reflexivity|].
  rewrite firstn_length, skipn_length. lia.
Qed.

Section Disk.
Variable files : text -> option (list Z).
Variable other : reader -> text -> res image.
Variable special : Z -> R.
Notation disk := (disk files other special).
Notation typed := (typed special).

Lemma read_stored p d nx ny nz bytes : stored files p d nx ny nz bytes ->
  disk p = (let* a := load_binary bytes d [Z.of_nat nx; Z.of_nat ny; Z.of_nat nz] in Ok (typed d a)).
Proof.
  intros [dir name d' nx' ny' nz' bytes' H1 H2 H3 H4 H5 H6
         |dir name e es file n d' nx' ny' nz' bytes' H1 H2 H3 H4 H4' H5 H6 H7 H8 H9 H10 H11 H12];
    unfold FileModel.disk, load_from_disk; rewrite basename_app by assumption;
    rewrite (join_dir _ _ name) by (try assumption; apply no_slash_start; assumption).
  - unfold dispatch. rewrite H3. cbn [text_eqb bind]. change (text_eqb (lit ".raw") (lit ".mhd")) with false.
    change (text_eqb (lit ".raw") (lit ".raw")) with true. cbv iota. cbn [bind]. rewrite H4, H5. cbn [bind].
    unfold open_file. rewrite H6. reflexivity.
  - unfold dispatch. rewrite H3. change (text_eqb (lit ".mhd") (lit ".mhd")) with true. cbv iota. cbn [bind].
    unfold open_file at 1. rewrite H10. cbn [from_opt bind]. rewrite text_bytes, header_newlines by assumption.
    rewrite (mhd_info_ok es file n d' nx' ny' nz') by assumption. cbn [bind].
    rewrite join_dir; try assumption.
    + unfold open_file. rewrite H12. reflexivity.
    + destruct file as [|c f]; [exact I|]. cbn [hd] in H11. destruct c as [[] [] [] [] [] [] [] []]; try exact I.
      apply H11. reflexivity.
Qed.

Lemma stored_type p d nx ny nz bytes : stored files p d nx ny nz bytes ->
  d = UInt 8 \/ d = UInt 16 \/ d = UInt 32 \/ d = Float 16 \/ d = Float 32 \/ d = Float 64.
Proof.
  intros [dir name d' nx' ny' nz' bytes' _ _ _ _ H _|dir name e es file n d' nx' ny' nz' bytes' _ _ _ _ _ _ _ _ _ H _ _ _].
  - apply raw_dtype_sound in H as (n & a & b & H & _). cbn in H.
    repeat (destruct H as [H|H]; [injection H as _ <-; tauto|]). contradiction.
  - cbn in H. repeat (destruct H as [H|H]; [injection H as _ <-; tauto|]). contradiction.
Qed.

Lemma image_values bytes d dims a v :
  (forall i, (i < length bytes / itemsize d)%nat -> value d bytes i = Some (v i)) ->
  load_binary bytes d dims = Ok a ->
  load_items (map v (seq 0 (length bytes / itemsize d))) dims = Ok (PairModel.to_float (px (typed d a))).
Proof.
  intros Hv Ha.
  set (num := fun w : list Z => match d with
     | Float b => match float_value b (decode_le w) with Some x => x | None => special (decode_le w) end
     | _ => IZR (decode_le w) end).
  assert (E : map v (seq 0 (length bytes / itemsize d)) = map num (fromfile (itemsize d) bytes)).
  { unfold fromfile. rewrite map_map. apply map_ext_in. intros i Hi. apply in_seq in Hi.
    specialize (Hv i ltac:(lia)). unfold num. rewrite decode_word by lia. unfold value in Hv.
    destruct d; try (injection Hv as <-; reflexivity). rewrite Hv. reflexivity. }
  rewrite E, load_items_map. unfold load_binary in Ha. rewrite Ha. cbn [bind]. f_equal. unfold num, typed.
  destruct d; cbn [px PairModel.to_float]; unfold amap; cbn [shp dat]; rewrite ?map_map; reflexivity.
Qed.

Lemma typed_type d a : dt (typed d a) = d.
Proof. destruct d; reflexivity. Qed.
Lemma typed_shape d a : shape (typed d a) = shp a.
Proof. destruct d; reflexivity. Qed.
End Disk.

(** ** Floating point words *)

Lemma ieee_word e m (s : bool) ex fr : (0 <= ex < 2 ^ Z.of_nat e)%Z -> (0 <= fr < 2 ^ Z.of_nat m)%Z ->
  let w := (Z.b2z s * 2 ^ Z.of_nat (e + m) + ex * 2 ^ Z.of_nat m + fr)%Z in
  let bias := (2 ^ (Z.of_nat e - 1) - 1)%Z in
  let sign := (if s then -1 else 1)%Z in
  (0 <= w < 2 ^ Z.of_nat (1 + e + m))%Z /\
  ieee e m w =
    if (ex =? 2 ^ Z.of_nat e - 1)%Z then None
    else if (ex =? 0)%Z then Some (IZR (sign * fr) * powerRZ 2 (1 - bias - Z.of_nat m))%R
    else Some (IZR (sign * (2 ^ Z.of_nat m + fr)) * powerRZ 2 (ex - bias - Z.of_nat m))%R.
Proof.
  intros He Hf w bias sign.
  assert (P : (0 < 2 ^ Z.of_nat m)%Z) by (apply Z.pow_pos_nonneg; lia).
  assert (Q : (0 < 2 ^ Z.of_nat e)%Z) by (apply Z.pow_pos_nonneg; lia).
  assert (E : (2 ^ Z.of_nat (e + m) = 2 ^ Z.of_nat e * 2 ^ Z.of_nat m)%Z) by (rewrite Nat2Z.inj_add, Z.pow_add_r by lia; reflexivity).
  assert (B : (0 <= ex * 2 ^ Z.of_nat m + fr < 2 ^ Z.of_nat (e + m))%Z) by (rewrite E; nia).
  split.
  { unfold w. replace (1 + e + m)%nat with (S (e + m)) by lia. rewrite Nat2Z.inj_succ, Z.pow_succ_r by lia.
    destruct s; cbn [Z.b2z]; lia. }
  assert (X : (w / 2 ^ Z.of_nat m = Z.b2z s * 2 ^ Z.of_nat e + ex)%Z).
  { unfold w. rewrite E. replace (Z.b2z s * (2 ^ Z.of_nat e * 2 ^ Z.of_nat m) + ex * 2 ^ Z.of_nat m + fr)%Z
      with (fr + (Z.b2z s * 2 ^ Z.of_nat e + ex) * 2 ^ Z.of_nat m)%Z by ring.
    rewrite Z.div_add by lia. rewrite Z.div_small by exact Hf. lia. }
  assert (F : (w mod 2 ^ Z.of_nat m = fr)%Z).
  { unfold w. rewrite E. replace (Z.b2z s * (2 ^ Z.of_nat e * 2 ^ Z.of_nat m) + ex * 2 ^ Z.of_nat m + fr)%Z
      with (fr + (Z.b2z s * 2 ^ Z.of_nat e + ex) * 2 ^ Z.of_nat m)%Z by ring.
    rewrite Z.mod_add by lia. apply Z.mod_small, Hf. }
  assert (T : Z.testbit w (Z.of_nat (e + m)) = s).
  { apply Z.b2z_inj. rewrite Z.testbit_spec' by lia. unfold w.
    replace (Z.b2z s * 2 ^ Z.of_nat (e + m) + ex * 2 ^ Z.of_nat m + fr)%Z
      with ((ex * 2 ^ Z.of_nat m + fr) + Z.b2z s * 2 ^ Z.of_nat (e + m))%Z by ring.
    rewrite Z.div_add by lia. rewrite Z.div_small by exact B. destruct s; reflexivity. }
  unfold ieee. rewrite X, F, T.
  replace ((Z.b2z s * 2 ^ Z.of_nat e + ex) mod 2 ^ Z.of_nat e)%Z with ex; [reflexivity|].
  rewrite Z.add_comm, Z.mod_add by lia. symmetry. apply Z.mod_small, He.
Qed.

Lemma ieee_all e m M k : (1 < e)%nat ->
  let bias := (2 ^ (Z.of_nat e - 1) - 1)%Z in
  (Z.abs M < 2 ^ (Z.of_nat m + 1))%Z -> (1 - bias - Z.of_nat m <= k <= bias - Z.of_nat m)%Z ->
  exists w, (0 <= w < 2 ^ Z.of_nat (1 + e + m))%Z /\ ieee e m w = Some (IZR M * powerRZ 2 k)%R.
Proof.
  intros He bias HM Hk.
  assert (P : (0 < 2 ^ Z.of_nat m)%Z) by (apply Z.pow_pos_nonneg; lia).
  assert (E2 : (2 ^ Z.of_nat e = 2 * (bias + 1))%Z).
  { unfold bias. replace (Z.of_nat e) with (Z.succ (Z.of_nat e - 1)) at 1 by lia. rewrite Z.pow_succ_r by lia. ring. }
  assert (B1 : (1 <= bias)%Z).
  { unfold bias. assert (2 ^ 1 <= 2 ^ (Z.of_nat e - 1))%Z by (apply Z.pow_le_mono_r; lia). lia. }
  set (s := (M <? 0)%Z). set (sign := (if s then -1 else 1)%Z).
  assert (SM : (sign * Z.abs M = M)%Z) by (unfold sign, s; destruct (Z.ltb_spec M 0); lia).
  destruct (Z.eq_dec M 0) as [->|N].
  { destruct (ieee_word e m false 0 0) as [W1 W2]; [lia|lia|]. cbv zeta in *. eexists. split; [exact W1|]. rewrite W2.
    destruct (Z.eqb_spec 0 (2 ^ Z.of_nat e - 1)); [lia|]. rewrite Z.eqb_refl. f_equal. rewrite Z.mul_0_r. rewrite !Rmult_0_l. reflexivity. }
  set (L := Z.log2 (Z.abs M)).
  assert (HL : (2 ^ L <= Z.abs M < 2 ^ (L + 1))%Z) by (unfold L; rewrite Z.add_1_r; apply Z.log2_spec; lia).
  assert (L0 : (0 <= L)%Z) by apply Z.log2_nonneg.
  assert (Lm : (L <= Z.of_nat m)%Z).
  { assert (L < Z.of_nat m + 1)%Z; [|lia]. apply (Z.pow_lt_mono_r_iff 2); lia. }
  set (kmin := (1 - bias - Z.of_nat m)%Z).
  destruct (Z_le_gt_dec (Z.of_nat m - L) (k - kmin)) as [C|C].
  - (* normal *)
    set (t := (Z.of_nat m - L)%Z). set (a := (Z.abs M * 2 ^ t)%Z).
    assert (T : (0 < 2 ^ t)%Z) by (apply Z.pow_pos_nonneg; unfold t; lia).
    assert (A : (2 ^ Z.of_nat m <= a < 2 * 2 ^ Z.of_nat m)%Z).
    { unfold a. replace (Z.of_nat m) with (L + t)%Z by (unfold t; lia). rewrite Z.pow_add_r by (unfold t; lia).
      rewrite Z.pow_add_r in HL by lia. nia. }
    destruct (ieee_word e m s (k - t - kmin + 1) (a - 2 ^ Z.of_nat m)) as [W1 W2]; [unfold kmin, t in *; lia|lia|].
    cbv zeta in *. eexists. split; [exact W1|]. rewrite W2. fold sign bias.
    destruct (Z.eqb_spec (k - t - kmin + 1) (2 ^ Z.of_nat e - 1)); [unfold kmin, t in *; lia|].
    destruct (Z.eqb_spec (k - t - kmin + 1) 0); [unfold kmin, t in *; lia|]. f_equal.
    replace (k - t - kmin + 1 - bias - Z.of_nat m)%Z with (k - t)%Z by (unfold kmin; lia).
    replace (2 ^ Z.of_nat m + (a - 2 ^ Z.of_nat m))%Z with a by ring.
    unfold a. rewrite Z.mul_assoc, SM, mult_IZR.
    replace (IZR (2 ^ t)) with (powerRZ 2 t).
    + rewrite Rmult_assoc, <- powerRZ_add by lra. do 2 f_equal. lia.
    + rewrite <- (Z2Nat.id t) by (unfold t; lia). rewrite <- pow_powerRZ, pow_IZR. reflexivity.
  - (* subnormal *)
    set (t := (k - kmin)%Z). set (a := (Z.abs M * 2 ^ t)%Z).
    assert (T : (0 < 2 ^ t)%Z) by (apply Z.pow_pos_nonneg; unfold t, kmin; lia).
    assert (A : (0 <= a < 2 ^ Z.of_nat m)%Z).
    { unfold a. split; [nia|]. apply Z.lt_le_trans with (2 ^ (L + 1) * 2 ^ t)%Z; [nia|].
      rewrite <- Z.pow_add_r by (unfold t, kmin; lia). apply Z.pow_le_mono_r; unfold t; lia. }
    destruct (ieee_word e m s 0 a) as [W1 W2]; [lia|lia|].
    cbv zeta in *. eexists. split; [exact W1|]. rewrite W2. fold sign bias.
    destruct (Z.eqb_spec 0 (2 ^ Z.of_nat e - 1)); [lia|]. rewrite Z.eqb_refl. f_equal.
    unfold a. rewrite Z.mul_assoc, SM, mult_IZR.
    replace (IZR (2 ^ t)) with (powerRZ 2 t).
    + rewrite Rmult_assoc, <- powerRZ_add by lra. do 2 f_equal. unfold t, kmin. lia.
    + rewrite <- (Z2Nat.id t) by (unfold t, kmin; lia). rewrite <- pow_powerRZ, pow_IZR. reflexivity.
Qed.

Lemma ieee_only e m w x : (1 < e)%nat ->
  let bias := (2 ^ (Z.of_nat e - 1) - 1)%Z in
  ieee e m w = Some x ->
  exists M k, x = (IZR M * powerRZ 2 k)%R /\ (Z.abs M < 2 ^ (Z.of_nat m + 1))%Z /\ (1 - bias - Z.of_nat m <= k <= bias - Z.of_nat m)%Z.
Proof.
  intros He bias. unfold ieee. fold bias.
  assert (P : (0 < 2 ^ Z.of_nat m)%Z) by (apply Z.pow_pos_nonneg; lia).
  assert (E2 : (2 ^ Z.of_nat e = 2 * (bias + 1))%Z).
  { unfold bias. replace (Z.of_nat e) with (Z.succ (Z.of_nat e - 1)) at 1 by lia. rewrite Z.pow_succ_r by lia. ring. }
  assert (B1 : (1 <= bias)%Z).
  { unfold bias. assert (2 ^ 1 <= 2 ^ (Z.of_nat e - 1))%Z by (apply Z.pow_le_mono_r; lia). lia. }
  rewrite Z.pow_add_r by lia. change (2 ^ 1)%Z with 2%Z.
  pose proof (Z.mod_pos_bound w (2 ^ Z.of_nat m) P) as F.
  pose proof (Z.mod_pos_bound (w / 2 ^ Z.of_nat m) (2 ^ Z.of_nat e) ltac:(lia)) as X.
  set (fr := (w mod _)%Z) in *. set (ex := ((w / _) mod _)%Z) in *.
  destruct (Z.eqb_spec ex (2 ^ Z.of_nat e - 1)); [discriminate|].
  destruct (Z.testbit w (Z.of_nat (e + m)));
    (destruct (Z.eqb_spec ex 0); intros H;
     apply (f_equal (fun o => match o with Some y => y | None => 0%R end)) in H; cbv beta iota in H; rewrite <- H;
     do 2 eexists; (split; [reflexivity|]); lia).
Qed.
