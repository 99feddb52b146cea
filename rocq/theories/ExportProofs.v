(** Lemmas about the export functions. *)
From Coq Require Import Reals Lra.
From Verif Require Import Base NdArray LoadModel LoadProofs LoadTextProofs NormModel PairModel PairProofs MetricModel
  SliceModel SliceProps BatchModel ExportModel.

(** ** File names *)

Lemma skipn_app_exact {A} (p s : list A) : skipn (length p) (p ++ s) = s.
Proof. induction p; [reflexivity|exact IHp]. Qed.

Lemma ends_with_iff s suf : ends_with s suf = true <-> exists p, s = p ++ suf.
Proof.
  unfold ends_with. rewrite andb_true_iff, Nat.leb_le, text_eqb_eq. split.
  - intros [H1 H2]. exists (firstn (length s - length suf) s). rewrite <- H2 at 2. symmetry. apply firstn_skipn.
  - intros [p ->]. rewrite app_length. split; [lia|]. rewrite Nat.add_sub. apply skipn_app_exact.
Qed.

Lemma lower_app a b : lower (a ++ b) = lower a ++ lower b.
Proof. apply map_app. Qed.

Lemma map_app_inv {A B} (f : A -> B) l p q :
  map f l = p ++ q -> exists a b, l = a ++ b /\ map f a = p /\ map f b = q.
Proof.
  revert l; induction p as [|x p IH]; intros l H.
  - exists [], l. auto.
  - destruct l as [|y l]; [discriminate|]. inversion H; subst.
    destruct (IH l H2) as (a & b & -> & <- & <-). exists (y :: a), b. auto.
Qed.

(** The last component of a path is [base ++ "." ++ e] with a base that is not empty and not only dots. *)
Definition named (e name : text) : Prop :=
  exists dir base, name = dir ++ base ++ "."%char :: e /\ (dir = [] \/ exists d, dir = d ++ ["/"%char]) /\
    ~ In "/"%char base /\ exists c, In c base /\ c <> "."%char.

Lemma last_component s : exists d f, s = d ++ f /\ (d = [] \/ exists d', d = d' ++ ["/"%char]) /\ ~ In "/"%char f /\
  match split_last "/" s with Some (_, f) => f | None => s end = f.
Proof.
  destruct (split_last "/" s) as [[p q]|] eqn:E.
  - apply split_last_some in E as [-> H]. exists (p ++ ["/"%char]), q. rewrite <- app_assoc.
    repeat split; auto. right. eauto.
  - exists [], s. repeat split; auto. intros Hin. destruct (in_split _ _ Hin) as (a & b & Eq).
    clear -E Hin. revert E. induction s as [|c s IH]; [inversion Hin|]. simpl.
    destruct (split_last "/" s) as [[? ?]|] eqn:E2; [discriminate|].
    destruct (Ascii.eqb c "/") eqn:E3; [discriminate|]. destruct Hin as [->|Hin]; [discriminate|]. auto.
Qed.

Lemma component_unique d f base :
  ~ In "/"%char f -> (d = [] \/ exists d', d = d' ++ ["/"%char]) ->
  forall d2, d ++ f = d2 ++ base -> (d2 = [] \/ exists d', d2 = d' ++ ["/"%char]) -> ~ In "/"%char base -> f = base.
Proof.
  intros Hf Hd d2 Heq Hd2 Hb.
  destruct (app_eq_app d f d2 base Heq) as (l & [[-> ->]|[-> ->]]).
  - destruct l as [|c l] using rev_ind; [reflexivity|].
    exfalso. destruct Hd as [Hd|[d' Hd]].
    + apply app_eq_nil in Hd as [_ Hd]. apply app_eq_nil in Hd as [_ Hd]. discriminate.
    + rewrite app_assoc in Hd. apply app_inj_tail in Hd as [_ ->]. apply Hb. apply in_app_iff. left. apply in_app_iff. right. left. reflexivity.
  - destruct l as [|c l] using rev_ind; [reflexivity|].
    exfalso. destruct Hd2 as [Hd2|[d' Hd2]].
    + apply app_eq_nil in Hd2 as [_ Hd2]. apply app_eq_nil in Hd2 as [_ Hd2]. discriminate.
    + rewrite app_assoc in Hd2. apply app_inj_tail in Hd2 as [_ ->]. apply Hf. apply in_app_iff. left. apply in_app_iff. right. left. reflexivity.
Qed.

Lemma splitext_named e name : ~ In "."%char e -> ~ In "/"%char e ->
  snd (splitext name) = "."%char :: e <-> named e name.
Proof.
  intros He1 He2. unfold splitext. split.
  - destruct (split_last "." name) as [[pre post]|] eqn:E; [|discriminate].
    destruct (existsb (Ascii.eqb "/") post) eqn:E1; [discriminate|].
    cbv zeta. match goal with |- context [if ?b then _ else _] => destruct b eqn:E2 end; cbn [snd]; [|discriminate]. intros H. inversion H; subst post.
    apply split_last_some in E as [-> Hn].
    destruct (last_component pre) as (d & f & -> & Hd & Hf & Hl). rewrite Hl in E2.
    exists d, f. rewrite <- app_assoc. repeat split; auto.
    apply existsb_exists in E2 as (c & Hc & Hne). exists c. split; [exact Hc|].
    apply negb_true_iff, Ascii.eqb_neq in Hne. exact Hne.
  - intros (dir & base & -> & Hd & Hb & c & Hc & Hne). rewrite app_assoc.
    rewrite split_last_app by exact He1.
    destruct (existsb (Ascii.eqb "/") e) eqn:E1; [apply existsb_eqb_in in E1; contradiction|].
    destruct (last_component (dir ++ base)) as (d & f & Heq & Hd' & Hf & Hl). cbv zeta. rewrite Hl.
    assert (f = base) as -> by (eapply component_unique; eauto).
    match goal with |- context [if ?b then _ else _] => destruct b eqn:E2 end; [reflexivity|].
    exfalso. assert (Ht : existsb (fun c => negb (Ascii.eqb c ".")) base = true).
    { apply existsb_exists. exists c. split; [exact Hc|]. apply negb_true_iff, Ascii.eqb_neq, Hne. }
    congruence.
Qed.

(** ** export_results *)

Definition unscored (m : metric) : bool := match m_score m with SNone => true | _ => false end.
Definition mark (m : metric) : metric := if unscored m then set_score m (SStr "n/a") else m.

Lemma mark_mark m : mark (mark m) = mark m.
Proof. destruct m as [c p [| |] n]; reflexivity. Qed.
Lemma mark_scored m : unscored (mark m) = false.
Proof. destruct m as [c p [| |] n]; reflexivity. Qed.
Lemma mark_id m : unscored m = false -> mark m = m.
Proof. unfold mark. intros ->. reflexivity. Qed.

(** Written at position [k]: scored objects and objects met before. *)
Definition written (h : objects) (ids : list nat) (k : nat) : list (option string * score) :=
  let i := nth k ids 0 in
  if negb (unscored (h i)) || existsb (Nat.eqb i) (firstn k ids)
  then [(m_name (h i), m_score (mark (h i)))] else [].

Lemma set_obj_self h i m j : m = h i -> set_obj h i m j = h j.
Proof. intros ->. unfold set_obj. destruct (Nat.eqb_spec j i); subst; reflexivity. Qed.

Lemma flat_map_seq_shift {A} (f : nat -> list A) n : flat_map f (seq 1 n) = flat_map (fun k => f (S k)) (seq 0 n).
Proof. rewrite <- seq_shift. rewrite !flat_map_concat_map, map_map. reflexivity. Qed.

Lemma flat_map_ext_in {A B} (f g : A -> list B) l : (forall x, In x l -> f x = g x) -> flat_map f l = flat_map g l.
Proof.
  induction l as [|x l IH]; intros H; [reflexivity|]. simpl. rewrite (H x (or_introl eq_refl)), IH; [reflexivity|].
  intros y Hy. apply H. right. exact Hy.
Qed.

Definition marked (h : objects) (ids : list nat) : objects := fun j => if existsb (Nat.eqb j) ids then mark (h j) else h j.

Lemma export_loop_spec ids : forall d h rows d' h', export_loop ids d h = (rows, d', h') ->
  rows = flat_map (written h ids) (seq 0 (length ids)) /\
  (forall j, h' j = marked h ids j) /\
  d' = fold_left (fun acc i => rset acc (m_name (h i)) (m_score (mark (h i)))) ids d.
Proof.
  induction ids as [|i ids IH]; intros d h rows d' h' H.
  - inversion H; subst. repeat split.
  - cbn [export_loop] in H. cbv zeta in H.
    assert (G : forall d1 h1 rows1 d1' h1', (forall j, h1 j = if j =? i then mark (h j) else h j) ->
       export_loop ids d1 h1 = (rows1, d1', h1') -> d1 = rset d (m_name (h i)) (m_score (mark (h i))) ->
       rows1 = flat_map (fun k => written h (i :: ids) (S k)) (seq 0 (length ids)) /\
       (forall j, h1' j = marked h (i :: ids) j) /\
       d1' = fold_left (fun acc i => rset acc (m_name (h i)) (m_score (mark (h i)))) (i :: ids) d).
    { intros d1 h1 rows1 d1' h1' Hh E Hd. apply IH in E as (E1 & E2 & E3). split; [|split].
      - rewrite E1. apply flat_map_ext_in. intros k Hk. unfold written. cbn [nth firstn existsb]. rewrite Hh.
        set (j := nth k ids 0).
        destruct (Nat.eqb_spec j i) as [Heq|Hne]; [|reflexivity].
        rewrite mark_scored, mark_mark, orb_true_r.
        replace (m_name (mark (h j))) with (m_name (h j)) by (unfold mark; destruct (unscored _); reflexivity).
        cbn [negb orb]. reflexivity.
      - intros j. rewrite E2. unfold marked. cbn [existsb]. rewrite Hh.
        destruct (j =? i); cbn [orb]; destruct (existsb (Nat.eqb j) ids); rewrite ?mark_mark; reflexivity.
      - rewrite E3. cbn [fold_left]. rewrite <- Hd.
        assert (F : forall l acc, fold_left (fun acc i0 => rset acc (m_name (h1 i0)) (m_score (mark (h1 i0)))) l acc
                  = fold_left (fun acc i0 => rset acc (m_name (h i0)) (m_score (mark (h i0)))) l acc).
        { induction l as [|j l IHl]; intros acc; [reflexivity|]. cbn [fold_left]. rewrite IHl. f_equal.
          rewrite Hh. destruct (j =? i); [|reflexivity]. rewrite mark_mark. f_equal.
          unfold mark; destruct (unscored _); reflexivity. }
        apply F. }
    cbn [length seq flat_map]. rewrite flat_map_seq_shift.
    unfold written at 1. cbn [nth firstn existsb]. rewrite orb_false_r.
    destruct (m_score (h i)) as [|x|s] eqn:E.
    + assert (U : unscored (h i) = true) by (unfold unscored; rewrite E; reflexivity).
      rewrite U. cbn [negb app].
      apply (G _ _ _ _ _) in H; [exact H| |].
      * intros j. unfold set_obj. destruct (Nat.eqb_spec j i); [subst; unfold mark; rewrite U; reflexivity|reflexivity].
      * unfold mark. rewrite U. reflexivity.
    + assert (U : unscored (h i) = false) by (unfold unscored; rewrite E; reflexivity).
      destruct (export_loop ids (rset d (m_name (h i)) (SNum x)) h) as [[rows1 d1'] h1'] eqn:E1. inversion H; subst.
      rewrite U. cbn [negb]. rewrite (mark_id _ U), E.
      destruct (G _ _ _ _ _ ltac:(intros j; destruct (Nat.eqb_spec j i); [subst; rewrite (mark_id _ U); reflexivity|reflexivity]) E1) as (G1 & G2 & G3).
      { rewrite (mark_id _ U), E. reflexivity. }
      rewrite G1. repeat split; assumption.
    + assert (U : unscored (h i) = false) by (unfold unscored; rewrite E; reflexivity).
      destruct (export_loop ids (rset d (m_name (h i)) (SStr s)) h) as [[rows1 d1'] h1'] eqn:E1. inversion H; subst.
      rewrite U. cbn [negb]. rewrite (mark_id _ U), E.
      destruct (G _ _ _ _ _ ltac:(intros j; destruct (Nat.eqb_spec j i); [subst; rewrite (mark_id _ U); reflexivity|reflexivity]) E1) as (G1 & G2 & G3).
      { rewrite (mark_id _ U), E. reflexivity. }
      rewrite G1. repeat split; assumption.
Qed.

(** The rows of a list without repetitions. *)
Lemma written_nodup h ids : NoDup ids ->
  flat_map (written h ids) (seq 0 (length ids)) =
  map (fun i => (m_name (h i), m_score (h i))) (filter (fun i => negb (unscored (h i))) ids).
Proof.
  intros N. enough (G : forall pre ids', NoDup (pre ++ ids') ->
    flat_map (written h (pre ++ ids')) (seq (length pre) (length ids')) =
    map (fun i => (m_name (h i), m_score (h i))) (filter (fun i => negb (unscored (h i))) ids')) by (apply (G [] ids N)).
  intros pre ids'. revert pre. induction ids' as [|i ids' IH]; intros pre Np; [reflexivity|].
  cbn [length seq flat_map filter].
  assert (E : pre ++ i :: ids' = (pre ++ [i]) ++ ids') by (rewrite <- app_assoc; reflexivity).
  assert (T : flat_map (written h (pre ++ i :: ids')) (seq (S (length pre)) (length ids')) =
    map (fun i => (m_name (h i), m_score (h i))) (filter (fun i => negb (unscored (h i))) ids')).
  { rewrite E in *. replace (S (length pre)) with (length (pre ++ [i])) by (rewrite app_length; simpl; lia). apply IH. exact Np. }
  rewrite T. unfold written. rewrite app_nth2, Nat.sub_diag by lia. cbn [nth].
  rewrite firstn_app, Nat.sub_diag, firstn_all. cbn [firstn]. rewrite app_nil_r.
  destruct (existsb (Nat.eqb i) pre) eqn:X.
  - apply existsb_exists in X as (j & Hj & Hij). apply Nat.eqb_eq in Hij. subst j. exfalso.
    apply NoDup_remove_2 in Np. apply Np. apply in_app_iff. auto.
  - rewrite orb_false_r. unfold mark. destruct (unscored (h i)); reflexivity.
Qed.

(** ** Labels *)

Definition at_slot (cols : Z) (p : (nat * nat) * (string * score)) : res label :=
  let '((i, j), (n, v)) := p in
  let* x := label_value v in Ok (Label (column_x cols i) (line_y j) n x).

Lemma skipn_nth {A} (l : list A) c : skipn c l = match nth_error l c with Some e => e :: skipn (S c) l | None => [] end.
Proof.
  revert c; induction l as [|x l IH]; intros [|c]; try reflexivity. cbn [skipn nth_error]. rewrite IH. reflexivity.
Qed.

Lemma fr_labels_mapM cols entries sl c :
  fr_labels cols entries sl c = mapM (at_slot cols) (combine sl (skipn c entries)).
Proof.
  revert c; induction sl as [|[i j] sl IH]; intros c; [reflexivity|]. cbn [fr_labels].
  rewrite (skipn_nth entries c). destruct (nth_error entries c) as [[n v]|] eqn:E.
  - cbn [combine mapM at_slot]. destruct (label_value v) as [x|e]; cbn [bind]; [|reflexivity]. rewrite IH. reflexivity.
  - rewrite IH, (skipn_nth entries c), E. destruct sl; reflexivity.
Qed.

Lemma slots_nth cols k : k < 4 * Z.to_nat cols -> nth_error (slots cols) k = Some (k / 4, k mod 4).
Proof.
  intros H. unfold slots. rewrite (Nat.div_mod k 4) at 1 by lia. rewrite (Nat.mul_comm 4).
  rewrite nth_error_flat_map_seq with (m := 4).
  - rewrite nth_error_map. pose proof (Nat.mod_upper_bound k 4 ltac:(lia)).
    rewrite nth_error_nth' with (d := 0) by (rewrite seq_length; lia). rewrite seq_nth by lia. reflexivity.
  - intros x. reflexivity.
  - apply Nat.div_lt_upper_bound; lia.
  - apply Nat.mod_upper_bound. lia.
Qed.

Lemma slots_length cols : length (slots cols) = 4 * Z.to_nat cols.
Proof.
  unfold slots. generalize (Z.to_nat cols) at 1 2 as n. intros n.
  assert (G : forall k, length (flat_map (fun i => map (fun j => (i, j)) (seq 0 4)) (seq k n)) = 4 * n).
  { induction n as [|n IH]; intros k; [reflexivity|]. cbn [seq flat_map]. rewrite app_length, IH. cbn. lia. }
  apply G.
Qed.

Lemma columns_nat fr nr : columns fr nr = Z.of_nat ((fr + 3) / 4 + (if nr =? 0 then 0 else 1)).
Proof.
  unfold columns. destruct (nr =? 0); rewrite Nat2Z.inj_add, Nat2Z.inj_div, Nat2Z.inj_add by lia;
    replace (Z.of_nat fr + Z.of_nat 3)%Z with (Z.of_nat fr - 1 + 1 * 4)%Z by lia; rewrite Z.div_add by lia; lia.
Qed.

Lemma nth_error_combine {A B} (l : list A) (m : list B) k :
  nth_error (combine l m) k = match nth_error l k, nth_error m k with Some a, Some b => Some (a, b) | _, _ => None end.
Proof.
  revert m k; induction l as [|x l IH]; intros [|y m] [|k]; try reflexivity; cbn [combine nth_error].
  - destruct (nth_error l k); reflexivity.
  - apply IH.
Qed.

(** The entries of a dictionary of numbers, with names. *)
Definition num (kv : string * ext) : string * score := (fst kv, SNum (snd kv)).

Lemma fr_labels_ok cols (fr : list (string * ext)) : length fr <= 4 * Z.to_nat cols ->
  exists l, fr_labels cols (map num fr) (slots cols) 0 = Ok l /\ length l = length fr /\
    forall k n x, nth_error fr k = Some (n, x) ->
      nth_error l k = Some (Label (column_x cols (k / 4)) (line_y (k mod 4)) n x).
Proof.
  intros H. rewrite fr_labels_mapM. cbn [skipn].
  destruct (mapM_ok (at_slot cols) (combine (slots cols) (map num fr))) as [l Hl].
  { intros [[i j] [n v]] Hin. apply in_combine_r in Hin. apply in_map_iff in Hin as ([n' x] & E & _).
    unfold num in E. inversion E; subst. cbn. eauto. }
  exists l. split; [exact Hl|]. split.
  - rewrite (mapM_length _ _ _ Hl), combine_length, slots_length, map_length. lia.
  - intros k n x Hk. assert (Hlt : k < length fr) by (apply nth_error_Some; congruence).
    destruct (mapM_nth _ _ _ k ((k / 4, k mod 4), (n, SNum x)) Hl) as (y & Hy & Ey).
    { rewrite nth_error_combine, slots_nth by lia. rewrite nth_error_map, Hk. reflexivity. }
    cbn in Ey. inversion Ey; subst. exact Hy.
Qed.

Lemma nr_labels_ok cols (nr : list (string * ext)) :
  exists l, nr_labels cols (map num nr) = Ok l /\ length l = length nr /\
    forall k n x, nth_error nr k = Some (n, x) ->
      nth_error l k = Some (Label (1 / (IZR cols + 1) * IZR cols)%R (line_y k) n x).
Proof.
  unfold nr_labels. rewrite map_length.
  match goal with |- exists l, mapM ?f ?L = Ok l /\ _ => destruct (mapM_ok f L) as [l Hl] end.
  { intros [j [n v]] Hin. apply in_combine_r in Hin. apply in_map_iff in Hin as ([n' x] & E & _).
    unfold num in E. inversion E; subst. cbn. eauto. }
  exists l. split; [exact Hl|]. split.
  - rewrite (mapM_length _ _ _ Hl), combine_length, seq_length, map_length. lia.
  - intros k n x Hk. assert (Hlt : k < length nr) by (apply nth_error_Some; congruence).
    destruct (mapM_nth _ _ _ k (k, (n, SNum x)) Hl) as (y & Hy & Ey).
    { rewrite nth_error_combine, nth_error_nth' with (d := 0) by (rewrite seq_length; lia).
      rewrite seq_nth by lia. rewrite nth_error_map, Hk. reflexivity. }
    cbn in Ey. inversion Ey; subst. exact Hy.
Qed.

Lemma filter_map_num (f : string -> bool) (l : list (string * ext)) :
  filter (fun kv : string * score => f (fst kv)) (map num l) = map num (filter (fun kv => f (fst kv)) l).
Proof. induction l as [|[n x] l IH]; [reflexivity|]. cbn. rewrite IH. destruct (f n); reflexivity. Qed.

Definition is_fr (kv : string * ext) : bool := negb (no_ref_name (fst kv)).
Definition is_nr (kv : string * ext) : bool := no_ref_name (fst kv).

Lemma labels_ok (results : dict ext) :
  let fr := filter is_fr results in
  let nr := filter is_nr results in
  let cols := Z.of_nat ((length fr + 3) / 4 + (if length nr =? 0 then 0 else 1)) in
  exists l1 l2, labels (scores results) = Ok (l1 ++ l2) /\ length l1 = length fr /\ length l2 = length nr /\
    (forall k n x, nth_error fr k = Some (n, x) ->
       nth_error l1 k = Some (Label (column_x cols (k / 4)) (line_y (k mod 4)) n x)) /\
    (forall k n x, nth_error nr k = Some (n, x) ->
       nth_error l2 k = Some (Label (1 / (IZR cols + 1) * IZR cols)%R (line_y k) n x)).
Proof.
  cbv zeta. unfold labels, scores.
  assert (E : mapM (fun kv : option string * score => let* n := from_opt AttributeError (fst kv) in Ok (n, snd kv))
     (map (fun kv : string * ext => (Some (fst kv), SNum (snd kv))) results) = Ok (map num results)).
  { induction results as [|[n x] l IH]; [reflexivity|]. cbn [map mapM]. cbn. rewrite IH. reflexivity. }
  rewrite E. cbn [bind].
  rewrite (filter_map_num (fun n => negb (no_ref_name n))), (filter_map_num no_ref_name). rewrite !map_length.
  fold is_fr is_nr. rewrite columns_nat.
  set (fr := filter _ results). set (nr := filter is_nr results).
  set (cols := Z.of_nat _).
  destruct (fr_labels_ok cols fr) as (l1 & H1 & L1 & G1).
  { unfold cols. rewrite Nat2Z.id. pose proof (Nat.div_mod (length fr + 3) 4 ltac:(lia)).
    pose proof (Nat.mod_upper_bound (length fr + 3) 4 ltac:(lia)). lia. }
  destruct (nr_labels_ok cols nr) as (l2 & H2 & L2 & G2).
  exists l1, l2. rewrite H1. cbn [bind]. rewrite H2. cbn [bind]. auto.
Qed.

(** ** Plots *)

Lemma inb_2 a b i j : inb [a; b] [i; j] = true <-> i < a /\ j < b.
Proof. cbn [inb]. rewrite !andb_true_iff, !Nat.ltb_lt. tauto. Qed.

Lemma plot_2d_ok {A} (a : arr A) h w : wf a -> shp a = [h; w] ->
  exists b, plot_2d a = Ok b /\ wf b /\ shp b = [h; w] /\
    forall i j, i < h -> j < w -> get b [i; j] = get a [i; w - 1 - j].
Proof.
  intros W S. destruct (flip_ax_ok a 1 W) as (b & Hb & Sb & Wb & Gb); [rewrite S; cbn; lia|].
  exists b. rewrite S in *. repeat split; auto. intros i j Hi Hj. rewrite Gb by (apply inb_2; auto). reflexivity.
Qed.

Lemma plot_slice_ok {A} ax v (a : arr A) nx ny nz p : wf a -> shp a = [nx; ny; nz] -> ax < 3 ->
  (p = if v <? 0 then v + Z.of_nat (nth ax [nx; ny; nz] 0%nat) else v)%Z ->
  (0 <= p < Z.of_nat (nth ax [nx; ny; nz] 0%nat))%Z ->
  exists b, plot_slice ax v a = Ok b /\ wf b /\
    shp b = match ax with 0 => [nz; ny] | 1 => [nz; nx] | _ => [ny; nx] end /\
    forall i j, inb (shp b) [i; j] = true ->
      get b [i; j] = get a (match ax with 0 => [Z.to_nat p; j; i] | 1 => [j; Z.to_nat p; i] | _ => [j; i; Z.to_nat p] end).
Proof.
  intros W S Hax Hp Hr. unfold plot_slice.
  destruct (take_axis_spec ax v a nx ny nz p W S Hax Hp Hr) as (s & Hs & Ws & Ss & Gs). rewrite Hs. cbn [bind].
  set (h := match ax with 0 => ny | _ => nx end). set (w := match ax with 0 | 1 => nz | _ => ny end).
  assert (Sh : shp s = [h; w]) by (rewrite Ss; destruct ax as [|[|[|]]]; try lia; reflexivity).
  assert (G : exists b, (if ax =? 2 then let* f := flip_ax s 0 in rot90_back f else let* f := flip_ax s 1 in rot90 f 0 1) = Ok b /\
            wf b /\ shp b = [w; h] /\ forall i j, i < w -> j < h -> get b [i; j] = get s [j; i]).
  { destruct (ax =? 2).
    - destruct (flip_ax_ok s 0 Ws) as (f & Hf & Sf & Wf & Gf); [rewrite Sh; cbn; lia|]. rewrite Hf. cbn [bind].
      unfold rot90_back. rewrite Sf, Sh. cbn [length Nat.ltb Nat.leb].
      destruct (swap_axes_ok f 0 1 Wf) as (t & Ht & St & Wt & Gt); [rewrite Sf, Sh; cbn; lia|rewrite Sf, Sh; cbn; lia|].
      rewrite Ht. cbn [bind]. rewrite Sf, Sh in *. cbn [swap_at upd nth] in St.
      destruct (flip_ax_ok t 1 Wt) as (b & Hb & Sb & Wb & Gb); [rewrite St; cbn; lia|].
      exists b. rewrite St in *. repeat split; auto. intros i j Hi Hj.
      rewrite Gb by (apply inb_2; auto). cbn [upd nth]. rewrite Gt by (apply inb_2; cbn; lia). cbn [swap_at upd nth].
      rewrite Gf by (apply inb_2; cbn; lia). cbn [upd nth]. f_equal. f_equal. lia.
    - destruct (flip_ax_ok s 1 Ws) as (f & Hf & Sf & Wf & Gf); [rewrite Sh; cbn; lia|]. rewrite Hf. cbn [bind].
      destruct (rot90_ok f 0 1 Wf) as (b & Hb & Sb & Wb & Gb); [rewrite Sf, Sh; cbn; lia|rewrite Sf, Sh; cbn; lia|lia|].
      exists b. rewrite Sf, Sh in *. cbn [swap_at upd nth] in Sb. repeat split; auto. intros i j Hi Hj.
      rewrite Gb by (apply inb_2; cbn; lia). cbn [swap_at upd nth]. rewrite Gf by (apply inb_2; cbn; lia).
      cbn [upd nth]. f_equal. f_equal. f_equal. lia. }
  destruct G as (b & Hb & Wb & Sb & Gb). exists b. split; [exact Hb|]. split; [exact Wb|]. split.
  - rewrite Sb. unfold h, w. destruct ax as [|[|[|]]]; try lia; reflexivity.
  - intros i j Hin. rewrite Sb in Hin. apply inb_2 in Hin as [Hi Hj]. rewrite Gb by assumption.
    rewrite Gs by (rewrite Sh; apply inb_2; auto). destruct ax as [|[|[|]]]; try lia; reflexivity.
Qed.
