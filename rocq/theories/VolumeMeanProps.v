(** What the score of a volume says about its slices, for the metrics that average slices (MAD and GSM): property C149. *)
From Coq Require Import Reals Lra Psatz.
From Verif Require Import Base NdArray LoadModel LoadProofs NormModel PairModel RealSums MetricModel SsimModel SsimProofs SliceModel SliceProps.

Section Volume.
Context {A : Type}.
Variable g : arr A -> arr A -> res ext.
(** The score of slice k, asked for with im_slice, and the score of the volume. *)
Definition slice_score (d : Z) (r m : arr A) (k : nat) : res ext := own_score g false (DNum d) (SlInt (Z.of_nat k)) r m.
Definition volume_score (d : Z) (r m : arr A) : res ext := own_score g false (DNum d) SlNone r m.
Definition slices (d : Z) (r : arr A) : nat := nth (Z.to_nat d) (shp r) 0.

Lemma volume_unfold d r m : length (shp r) = 3 -> (0 <= d <= 2)%Z ->
  volume_score d r m = (let* scores := mapM (slice_score d r m) (seq 0 (slices d r)) in Ok (mean_ext scores)).
Proof.
  intros L H. unfold volume_score, slice_score, own_score, slices, slice_mean. rewrite L. cbn [Nat.eqb].
  assert (E : axis_of (DNum d) = Ok (Z.to_nat d)) by (assert (d = 0 \/ d = 1 \/ d = 2)%Z as [-> |[-> | ->]] by lia; reflexivity).
  rewrite E. cbn [bind]. reflexivity.
Qed.
End Volume.

Lemma mapM_values {A B} (f : A -> res B) (h : A -> B) l : (forall x, In x l -> f x = Ok (h x)) -> mapM f l = Ok (map h l).
Proof.
  induction l as [|x l IH]; intros H; [reflexivity|]. cbn [mapM map]. rewrite (H x) by (left; reflexivity). cbn [bind].
  rewrite IH by (intros; apply H; right; assumption). reflexivity.
Qed.

Lemma fold_fin (s : nat -> R) l a : fold_left ext_add (map (fun k => Fin (s k)) l) (Fin a) = Fin (a + Sum s l).
Proof.
  revert a. induction l as [|k l IH]; intros a; cbn [map fold_left]; [rewrite Sum_nil, Rplus_0_r; reflexivity|].
  cbn [ext_add]. rewrite IH, Sum_cons. f_equal. ring.
Qed.

Lemma fold_nan l : fold_left ext_add l NaN = NaN.
Proof. induction l as [|x l IH]; [reflexivity|]. cbn [fold_left]. destruct x; exact IH. Qed.

Lemma fold_has_nan l a : In NaN l -> fold_left ext_add l a = NaN.
Proof.
  revert a. induction l as [|x l IH]; intros a; [intros []|]. intros [->|H]; cbn [fold_left].
  - replace (ext_add a NaN) with NaN by (destruct a; reflexivity). apply fold_nan.
  - apply IH, H.
Qed.

Lemma fold_inf l : (forall x, In x l -> x <> NaN /\ x <> NInf) -> fold_left ext_add l PInf = PInf.
Proof.
  induction l as [|x l IH]; intros H; [reflexivity|]. cbn [fold_left]. destruct (H x (or_introl eq_refl)) as [N1 N2].
  destruct x; try congruence; cbn [ext_add]; apply IH; intros; apply H; right; assumption.
Qed.

Lemma fold_has_inf l a : In PInf l -> (forall x, In x l -> x <> NaN /\ x <> NInf) -> fold_left ext_add l (Fin a) = PInf.
Proof.
  revert a. induction l as [|x l IH]; intros a; [intros []|]. intros [->|I] H; cbn [fold_left].
  - apply fold_inf. intros; apply H; right; assumption.
  - destruct (H x (or_introl eq_refl)) as [N1 N2]. destruct x as [x| | |]; try congruence; cbn [ext_add].
    + apply IH; [exact I|intros; apply H; right; assumption].
    + apply fold_inf. intros; apply H; right; assumption.
Qed.

Local Open Scope R_scope.

Lemma mean_nonempty l : l <> [] -> mean_ext l = ext_mul (Fin (/ INR (length l))) (fold_left ext_add l (Fin 0)).
Proof. destruct l; [congruence|reflexivity]. Qed.

Lemma seq_ne n : (0 < n)%nat -> seq 0 n <> [].
Proof. destruct n; [lia|discriminate]. Qed.

(** The score of the volume is the mean of the scores of its slices. *)
Theorem C149_mean : forall {A} (g : arr A -> arr A -> res ext) d r m (s : nat -> R), length (shp r) = 3%nat -> (0 <= d <= 2)%Z ->
  (0 < slices d r)%nat -> (forall k, (k < slices d r)%nat -> slice_score g d r m k = Ok (Fin (s k))) ->
  volume_score g d r m = Ok (Fin (Sum s (seq 0 (slices d r)) / INR (slices d r))).
Proof.
  intros A g d r m s L Hd N H. rewrite volume_unfold by assumption. rewrite (mapM_values _ (fun k => Fin (s k))) by (intros k Hk; apply H; apply in_seq in Hk; lia).
  cbn [bind]. rewrite mean_nonempty by (intros E; apply map_eq_nil in E; apply seq_ne in E; assumption). rewrite map_length, seq_length, fold_fin. cbn [ext_mul].
  do 2 f_equal. unfold Rdiv. ring.
Qed.
Print Assumptions C149_mean.

(** It keeps every lower bound of the scores of the slices, and meets it only if all slices do; likewise upper bounds. *)
Theorem C149_bounds : forall {A} (g : arr A -> arr A -> res ext) d r m (s : nat -> R) v a, length (shp r) = 3%nat -> (0 <= d <= 2)%Z ->
  (0 < slices d r)%nat -> (forall k, (k < slices d r)%nat -> slice_score g d r m k = Ok (Fin (s k))) -> volume_score g d r m = Ok (Fin v) ->
  ((forall k, (k < slices d r)%nat -> a <= s k) -> a <= v /\ (v = a <-> forall k, (k < slices d r)%nat -> s k = a)) /\
  ((forall k, (k < slices d r)%nat -> s k <= a) -> v <= a /\ (v = a <-> forall k, (k < slices d r)%nat -> s k = a)).
Proof.
  intros A g d r m s v a L Hd N H V. rewrite (C149_mean g d r m s) in V by assumption. injection V as <-. set (n := slices d r) in *.
  assert (P : 0 < INR n) by (apply lt_0_INR; exact N).
  assert (G : forall f : nat -> R, (forall k, (k < n)%nat -> 0 <= f k) ->
     0 <= Sum f (seq 0 n) / INR n /\ (Sum f (seq 0 n) / INR n = 0 <-> forall k, (k < n)%nat -> f k = 0)).
  { intros f Hf. assert (F : forall k, In k (seq 0 n) -> 0 <= f k) by (intros k Hk; apply Hf; apply in_seq in Hk; lia).
    split; [apply Rmult_le_pos; [apply Sum_nonneg, F|left; apply Rinv_0_lt_compat, P]|]. split; intros E.
    - assert (Z : Sum f (seq 0 n) = 0) by (apply Rmult_eq_reg_r with (/ INR n); [unfold Rdiv in E; lra|apply Rinv_neq_0_compat; lra]).
      intros k Hk. apply (Sum_zero_inv f (seq 0 n)); [exact F|exact Z|apply in_seq; lia].
    - rewrite (Sum_ext f (fun _ => 0)) by (intros k Hk; apply E; apply in_seq in Hk; lia). rewrite Sum_zero. unfold Rdiv. ring. }
  assert (C : Sum (fun _ : nat => a) (seq 0 n) = INR n * a) by (rewrite Sum_const, seq_length; reflexivity).
  split; intros B.
  - destruct (G (fun k => s k - a)) as [G1 G2]; [intros k Hk; specialize (B k Hk); lra|]. rewrite Sum_minus, C in G1, G2.
    replace ((Sum s (seq 0 n) - INR n * a) / INR n) with (Sum s (seq 0 n) / INR n - a) in G1, G2 by (field; lra).
    split; [lra|]. split; intros E.
    + intros k Hk. enough (s k - a = 0) by lra. apply G2; [lra|exact Hk].
    + enough (Sum s (seq 0 n) / INR n - a = 0) by lra. apply G2. intros k Hk. rewrite (E k Hk). ring.
  - destruct (G (fun k => a - s k)) as [G1 G2]; [intros k Hk; specialize (B k Hk); lra|]. rewrite (Sum_minus (fun _ => a)), C in G1, G2.
    replace ((INR n * a - Sum s (seq 0 n)) / INR n) with (a - Sum s (seq 0 n) / INR n) in G1, G2 by (field; lra).
    split; [lra|]. split; intros E.
    + intros k Hk. enough (a - s k = 0) by lra. apply G2; [lra|exact Hk].
    + enough (a - Sum s (seq 0 n) / INR n = 0) by lra. apply G2. intros k Hk. rewrite (E k Hk). ring.
Qed.
Print Assumptions C149_bounds.

Lemma Sum_except (s s' : nat -> R) j n : (j < n)%nat -> (forall k, (k < n)%nat -> k <> j -> s' k = s k) ->
  Sum s' (seq 0 n) = Sum s (seq 0 n) + (s' j - s j).
Proof.
  intros Hj H. replace (seq 0 n) with (seq 0 j ++ j :: seq (S j) (n - S j)).
  - rewrite !Sum_app, !Sum_cons. rewrite (Sum_ext s' s (seq 0 j)) by (intros k Hk; apply in_seq in Hk; apply H; lia).
    rewrite (Sum_ext s' s (seq (S j) (n - S j))) by (intros k Hk; apply in_seq in Hk; apply H; lia). ring.
  - change (j :: seq (S j) (n - S j)) with (seq j (S (n - S j))). rewrite <- seq_app. f_equal. lia.
Qed.

(** A defect of a single slice is diluted: it changes the score of a volume of n slices by an n-th of the change of the
    score of the slice. *)
Theorem C149_diluted : forall {A} (g : arr A -> arr A -> res ext) d r m m' (s s' : nat -> R) j v v', length (shp r) = 3%nat -> (0 <= d <= 2)%Z ->
  (j < slices d r)%nat -> (forall k, (k < slices d r)%nat -> slice_score g d r m k = Ok (Fin (s k))) -> slice_score g d r m' j = Ok (Fin (s' j)) ->
  (forall k, (k < slices d r)%nat -> k <> j -> take_axis (Z.to_nat d) (Z.of_nat k) m' = take_axis (Z.to_nat d) (Z.of_nat k) m) ->
  volume_score g d r m = Ok (Fin v) -> volume_score g d r m' = Ok (Fin v') ->
  v' - v = (s' j - s j) / INR (slices d r).
Proof.
  intros A g d r m m' s s' j v v' L Hd Hj H H' E V V'.
  assert (AX : axis_of (DNum d) = Ok (Z.to_nat d)) by (assert (d = 0 \/ d = 1 \/ d = 2)%Z as [-> |[-> | ->]] by lia; reflexivity).
  set (t := fun k => if Nat.eqb k j then s' j else s k).
  assert (T : forall k, (k < slices d r)%nat -> slice_score g d r m' k = Ok (Fin (t k))).
  { intros k Hk. unfold t. destruct (Nat.eqb_spec k j) as [->|Ne]; [exact H'|]. rewrite <- (H k Hk). unfold slice_score, own_score. rewrite L. cbn [Nat.eqb].
    rewrite AX. cbn [bind]. rewrite (E k Hk Ne). reflexivity. }
  rewrite (C149_mean g d r m s) in V by (assumption || lia). rewrite (C149_mean g d r m' t) in V' by (assumption || lia).
  injection V as <-. injection V' as <-. rewrite (Sum_except s t j) by (assumption || (intros k Hk Ne; unfold t; destruct (Nat.eqb_spec k j); [contradiction|reflexivity])).
  replace (t j) with (s' j) by (unfold t; rewrite Nat.eqb_refl; reflexivity). unfold Rdiv. ring.
Qed.
Print Assumptions C149_diluted.

(** One slice that is not a number makes the volume not a number, and one infinite slice makes it infinite. *)
Theorem C149_special : forall {A} (g : arr A -> arr A -> res ext) d r m (s : nat -> ext) j, length (shp r) = 3%nat -> (0 <= d <= 2)%Z ->
  (j < slices d r)%nat -> (forall k, (k < slices d r)%nat -> slice_score g d r m k = Ok (s k)) ->
  (s j = NaN -> volume_score g d r m = Ok NaN) /\
  (s j = PInf -> (forall k, (k < slices d r)%nat -> s k <> NaN /\ s k <> NInf) -> volume_score g d r m = Ok PInf).
Proof.
  intros A g d r m s j L Hd Hj H. rewrite volume_unfold by assumption. rewrite (mapM_values _ s) by (intros k Hk; apply H; apply in_seq in Hk; lia).
  cbn [bind]. rewrite mean_nonempty by (intros E; apply map_eq_nil in E; apply seq_ne in E; [assumption|lia]).
  assert (I : In (s j) (map s (seq 0 (slices d r)))) by (apply in_map, in_seq; lia).
  split; intros E; [|intros F]; rewrite E in I.
  - rewrite fold_has_nan by exact I. reflexivity.
  - rewrite fold_has_inf; [|exact I|].
    + rewrite map_length, seq_length. cbn [ext_mul]. unfold Rsgn_ext. destruct (Rlt_dec 0 (/ INR (slices d r))) as [|X]; [reflexivity|].
      destruct X. apply Rinv_0_lt_compat, lt_0_INR. lia.
    + intros x Hx. apply in_map_iff in Hx as (k & <- & Hk). apply in_seq in Hk. apply F. lia.
Qed.
Print Assumptions C149_special.

(** The volume cannot be scored exactly if some slice cannot, and fails with the error of the first such slice. *)
Theorem C149_error : forall {A} (g : arr A -> arr A -> res ext) d r m e, length (shp r) = 3%nat -> (0 <= d <= 2)%Z ->
  (volume_score g d r m = Err e <->
   exists j, (j < slices d r)%nat /\ slice_score g d r m j = Err e /\ forall k, (k < j)%nat -> exists x, slice_score g d r m k = Ok x).
Proof.
  intros A g d r m e L Hd. rewrite volume_unfold by assumption. set (f := slice_score g d r m). generalize (slices d r). intros n.
  assert (G : forall n i, mapM f (seq i n) = Err e <-> exists j, (j < n)%nat /\ f (i + j)%nat = Err e /\ forall k, (k < j)%nat -> exists x, f (i + k)%nat = Ok x).
  { clear n. induction n as [|n IH]; intros i; cbn [seq mapM].
    - split; [discriminate|]. intros (j & Hj & _). lia.
    - destruct (f i) as [x|e'] eqn:Fi; cbn [bind].
      + specialize (IH (S i)). transitivity (mapM f (seq (S i) n) = Err e).
        { destruct (mapM f (seq (S i) n)); cbn [bind]; split; intros X; try discriminate; congruence. }
        rewrite IH. split.
        * intros (j & Hj & Ej & B). exists (S j). split; [lia|]. rewrite <- plus_n_Sm. split; [exact Ej|]. intros [|k] Hk; [rewrite Nat.add_0_r; eauto|].
          rewrite <- plus_n_Sm. apply (B k). lia.
        * intros ([|j] & Hj & Ej & B); [rewrite Nat.add_0_r, Fi in Ej; discriminate|]. exists j. split; [lia|]. rewrite <- plus_n_Sm in Ej. split; [exact Ej|].
          intros k Hk. destruct (B (S k) ltac:(lia)) as [y Y]. rewrite <- plus_n_Sm in Y. exists y. exact Y.
      + split.
        * intros X. exists 0%nat. split; [lia|]. rewrite Nat.add_0_r, Fi. split; [injection X as ->; reflexivity|]. intros k Hk. lia.
        * intros ([|j] & Hj & Ej & B); [rewrite Nat.add_0_r, Fi in Ej; injection Ej as ->; reflexivity|]. destruct (B 0%nat ltac:(lia)) as [y Y]. rewrite Nat.add_0_r, Fi in Y. discriminate. }
  specialize (G n 0%nat). cbn [Nat.add] in G. rewrite <- G. destruct (mapM f (seq 0 n)); cbn [bind]; split; intros X; try discriminate; congruence.
Qed.
Print Assumptions C149_error.

(** A volume without slices is not an error but not a number. *)
Theorem C149_empty : forall {A} (g : arr A -> arr A -> res ext) d r m, length (shp r) = 3%nat -> (0 <= d <= 2)%Z -> slices d r = 0%nat ->
  volume_score g d r m = Ok NaN.
Proof. intros A g d r m L Hd N. rewrite volume_unfold, N by assumption. reflexivity. Qed.
Print Assumptions C149_empty.

(** A volume of two slices along the last axis, scored by the difference of the first pixels. *)
Example C149_example :
  let g (a b : arr R) := Ok (Fin (getd a [0; 0]%nat - getd b [0; 0]%nat)) in
  let r := Arr [1; 1; 2]%nat [5; 7] in let m := Arr [1; 1; 2]%nat [4; 3] in
  slice_score g 2 r m 0 = Ok (Fin 1) /\ slice_score g 2 r m 1 = Ok (Fin 4) /\ volume_score g 2 r m = Ok (Fin (5 / 2)).
Proof.
  intros g r m. assert (A : slice_score g 2 r m 0 = Ok (Fin 1)) by (cbv -[Rminus IZR]; do 2 f_equal; lra).
  assert (B : slice_score g 2 r m 1 = Ok (Fin 4)) by (cbv -[Rminus IZR]; do 2 f_equal; lra).
  split; [exact A|]. split; [exact B|].
  assert (N : slices 2 r = 2%nat) by reflexivity.
  rewrite (C149_mean g 2 r m (fun k => match k with O => 1 | _ => 4 end)); [|reflexivity|lia|rewrite N; lia|].
  - rewrite N. do 2 f_equal. unfold Sum. cbn. lra.
  - rewrite N. intros [|[|k]] Hk; [exact A|exact B|lia].
Qed.
