(** Lemmas about the gradient kernels and GSM. *)
From Coq Require Import Reals Lra Psatz.
From Verif Require Import Base NdArray LoadModel LoadProofs NormModel PairModel RealSums
  MetricModel SsimModel SsimProofs GsmModel.

(** ** Correlation *)

Lemma read_pos_inb m s idx off :
  m <> Constant -> inb s idx = true -> length off = length s ->
  exists p, read_pos m s idx off = Some p /\ inb s p = true.
Proof.
  intros Hm. revert idx off; induction s as [|n s IH]; intros [|i idx] [|o off]; simpl; try discriminate.
  - intros _ _. exists []. split; reflexivity.
  - intros H Hl. apply andb_true_iff in H as [Hi H]. apply Nat.ltb_lt in Hi.
    destruct (IH idx off H) as (p & -> & Hp); [congruence|].
    destruct (pad_pos_some m n (Z.of_nat i + o) Hm) as [q Hq]. rewrite Hq.
    exists (q :: p). split; [reflexivity|]. simpl. rewrite Hp, andb_true_r. apply Nat.ltb_lt.
    apply (pad_pos_lt m n _ q) in Hq; [exact Hq|lia].
Qed.

Lemma koff_length (k : arr Z) kidx : In kidx (indices (shp k)) -> length (koff (shp k) kidx) = length (shp k).
Proof.
  intros H. apply in_indices, inb_length in H. unfold koff. rewrite map_length, combine_length. lia.
Qed.

Definition ksum (k : arr Z) : Z := fold_right Z.add 0%Z (map (kget k) (indices (shp k))).

Lemma IZR_fold {A} (f : A -> Z) l : IZR (fold_right Z.add 0%Z (map f l)) = Sum (fun a => IZR (f a)) l.
Proof.
  induction l as [|a l IH]; simpl; [reflexivity|]. rewrite plus_IZR, IH. reflexivity.
Qed.

(** Adding a constant changes nothing if the kernel sums to zero. *)
Lemma response_shift m cval a b v k idx :
  m <> Constant -> ksum k = 0%Z -> length (shp k) = length (shp a) -> shp b = shp a -> inb (shp a) idx = true ->
  (forall p, inb (shp a) p = true -> getd b p = (getd a p + v)%R) ->
  response m cval b k idx = response m cval a k idx.
Proof.
  intros Hm Hk Hl Hs Hi Hb. unfold response.
  rewrite (Sum_ext _ (fun kidx => IZR (kget k kidx) * read m cval a idx (koff (shp k) kidx)
                                  + v * IZR (kget k kidx))%R).
  - rewrite Sum_plus, Sum_scale, <- IZR_fold. fold (ksum k). rewrite Hk. ring.
  - intros kidx Hin. unfold read. rewrite Hs.
    destruct (read_pos_inb m (shp a) idx (koff (shp k) kidx) Hm Hi) as (p & -> & Hp).
    { rewrite koff_length by exact Hin. exact Hl. }
    rewrite Hb by exact Hp. ring.
Qed.

(** A flat neighbourhood gives no response. *)
Lemma response_flat m cval a v k idx :
  ksum k = 0%Z ->
  (forall kidx, inb (shp k) kidx = true -> kget k kidx <> 0%Z -> read m cval a idx (koff (shp k) kidx) = v) ->
  response m cval a k idx = 0%R.
Proof.
  intros Hk H. unfold response.
  rewrite (Sum_ext _ (fun kidx => v * IZR (kget k kidx))%R).
  - rewrite Sum_scale, <- IZR_fold. fold (ksum k). rewrite Hk. ring.
  - intros kidx Hin. destruct (Z.eq_dec (kget k kidx) 0) as [E|E]; [rewrite E; ring|].
    rewrite H; [ring|apply in_indices, Hin|exact E].
Qed.

(** Antisymmetric kernels. *)
Definition mirror_idx (s idx : list nat) : list nat := map (fun p => fst p - 1 - snd p) (combine s idx).
Definition antisym (k : arr Z) : Prop :=
  forall idx, inb (shp k) idx = true -> kget k (mirror_idx (shp k) idx) = (- kget k idx)%Z.

Lemma kget_flip k idx : inb (shp k) idx = true -> kget (flip_all k) idx = kget k (mirror_idx (shp k) idx).
Proof. intros H. unfold flip_all, kget at 1. rewrite get_tabulate by exact H. reflexivity. Qed.

Lemma response_flip m cval a k idx : antisym k ->
  response m cval a (flip_all k) idx = (- response m cval a k idx)%R.
Proof.
  intros Hk. unfold response. change (shp (flip_all k)) with (shp k).
  rewrite (Sum_ext _ (fun kidx => (-1) * (IZR (kget k kidx) * read m cval a idx (koff (shp k) kidx)))%R).
  - rewrite Sum_scale. ring.
  - intros kidx Hin. apply in_indices in Hin. rewrite kget_flip, Hk, opp_IZR by exact Hin. ring.
Qed.

(** The checks, by computation, for all kernels. *)
Definition kernel_good (k : arr Z) : bool :=
  (ksum k =? 0)%Z &&
  forallb (fun idx => (kget k (mirror_idx (shp k) idx) =? - kget k idx)%Z) (indices (shp k)) &&
  (length (dat k) =? size (shp k)) &&
  forallb (fun n => Nat.odd n) (shp k) &&
  ((length (shp k) =? 2) || (length (shp k) =? 3)).

Lemma kernels_good :
  forallb (fun nk => match snd nk with Ok k => kernel_good k | Err _ => false end) all_kernels = true.
Proof. vm_compute. reflexivity. Qed.

Lemma kernel_facts name k : In (name, k) all_kernels ->
  exists a, k = Ok a /\ wf a /\ ksum a = 0%Z /\ antisym a /\ (forall n, In n (shp a) -> Nat.odd n = true) /\
    (length (shp a) = 2 \/ length (shp a) = 3).
Proof.
  intros H. pose proof kernels_good as G. rewrite forallb_forall in G. specialize (G _ H). simpl in G.
  destruct k as [a|]; [|discriminate]. exists a. split; [reflexivity|].
  unfold kernel_good in G. repeat (apply andb_true_iff in G as [G ?]).
  split; [apply Nat.eqb_eq; assumption|]. split; [apply Z.eqb_eq; exact G|]. split.
  - intros idx Hi. rewrite forallb_forall in H3. apply in_indices in Hi. apply H3 in Hi. apply Z.eqb_eq in Hi. exact Hi.
  - split.
    + rewrite forallb_forall in H1. exact H1.
    + apply orb_true_iff in H0 as [E|E]; apply Nat.eqb_eq in E; auto.
Qed.

(** ** Response to linear ramps *)

(** [sum_j c_j z_j] *)
Definition lin (c : list R) (z : list Z) : R :=
  Sum (fun j => nth j c 0 * IZR (nth j z 0%Z))%R (seq 0 (length c)).

Definition moment (k : arr Z) (j : nat) : Z :=
  fold_right Z.add 0%Z (map (fun kidx => (kget k kidx * nth j (koff (shp k) kidx) 0)%Z) (indices (shp k))).

Lemma Sum_swap {A B} (f : A -> B -> R) l l' :
  Sum (fun a => Sum (f a) l') l = Sum (fun b => Sum (fun a => f a b) l) l'.
Proof.
  induction l as [|a l IH]; simpl.
  - rewrite Sum_nil. symmetry. rewrite (Sum_ext _ (fun _ => 0%R)) by (intros; apply Sum_nil). apply Sum_zero.
  - rewrite Sum_cons, IH, <- Sum_plus. apply Sum_ext. intros b _. rewrite Sum_cons. reflexivity.
Qed.

(** Reading inside the image. *)
Lemma read_inside m s idx off :
  inb s idx = true -> length off = length s ->
  (forall j, j < length s -> (0 <= Z.of_nat (nth j idx 0%nat) + nth j off 0 < Z.of_nat (nth j s 0%nat))%Z) ->
  exists p, read_pos m s idx off = Some p /\ inb s p = true /\
    forall j, j < length s -> Z.of_nat (nth j p 0) = (Z.of_nat (nth j idx 0%nat) + nth j off 0)%Z.
Proof.
  revert idx off; induction s as [|n s IH]; intros [|i idx] [|o off]; simpl; try discriminate.
  - intros _ _ _. exists []. split; [reflexivity|]. split; [reflexivity|]. intros; lia.
  - intros H Hl Hb. apply andb_true_iff in H as [Hi H]. apply Nat.ltb_lt in Hi.
    pose proof (Hb 0 ltac:(lia)) as H0. simpl in H0.
    destruct (IH idx off H) as (p & -> & Hp & Hj); [congruence|intros j Hj; apply (Hb (S j)); lia|].
    rewrite pad_pos_in by exact H0.
    exists (Z.to_nat (Z.of_nat i + o) :: p). split; [reflexivity|]. split.
    + simpl. rewrite Hp, andb_true_r. apply Nat.ltb_lt. lia.
    + intros [|j] Hjl; simpl; [lia|]. apply Hj. lia.
Qed.

Lemma nth_koff s kidx j : length kidx = length s -> j < length s ->
  nth j (koff s kidx) 0%Z = (Z.of_nat (nth j kidx 0%nat) - Z.of_nat (nth j s 0%nat / 2))%Z.
Proof.
  revert kidx j; induction s as [|n s IH]; intros kidx j Hl Hj; [simpl in Hj; lia|].
  destruct kidx as [|i kidx]; [discriminate Hl|]. destruct j as [|j].
  - reflexivity.
  - apply (IH kidx j); simpl in *; lia.
Qed.

Lemma response_ramp m cval a k idx c d :
  length (shp k) = length (shp a) -> length c = length (shp a) -> inb (shp a) idx = true ->
  ksum k = 0%Z ->
  (forall n, In n (shp k) -> Nat.odd n = true) ->
  (forall j, j < length (shp a) -> nth j (shp k) 0 / 2 <= nth j idx 0 /\
                                   nth j idx 0 + nth j (shp k) 0 / 2 < nth j (shp a) 0) ->
  (forall p, inb (shp a) p = true -> getd a p = (lin c (map Z.of_nat p) + d)%R) ->
  response m cval a k idx = Sum (fun j => nth j c 0 * IZR (moment k j))%R (seq 0 (length c)).
Proof.
  intros Hl Hc Hi Hk Hodd Hin Ha. unfold response.
  rewrite (Sum_ext _ (fun kidx =>
    (lin c (map Z.of_nat idx) + d) * IZR (kget k kidx)
    + Sum (fun j => nth j c 0 * IZR (kget k kidx * nth j (koff (shp k) kidx) 0%Z)) (seq 0 (length c)))%R).
  - rewrite Sum_plus, Sum_scale, <- IZR_fold. fold (ksum k). rewrite Hk, Sum_swap.
    rewrite (Sum_ext (fun b => Sum _ (indices (shp k))) (fun j => nth j c 0 * IZR (moment k j))%R); [ring|].
    intros j _. rewrite Sum_scale. unfold moment. rewrite IZR_fold. reflexivity.
  - intros kidx Hkin. apply in_indices in Hkin. pose proof (inb_length _ _ Hkin) as Lk.
    destruct (read_inside m (shp a) idx (koff (shp k) kidx) Hi) as (p & Hp & Hpi & Hpj).
    { rewrite koff_length by (apply in_indices; exact Hkin). exact Hl. }
    { intros j Hj. rewrite nth_koff by lia. destruct (Hin j Hj) as [H1 H2].
      assert (Hjk : nth j kidx 0 < nth j (shp k) 0) by (apply inb_nth; [exact Hkin|lia]).
      assert (Hm : nth j (shp k) 0 = 2 * (nth j (shp k) 0 / 2) + 1).
      { assert (O : Nat.odd (nth j (shp k) 0) = true) by (apply Hodd, nth_In; lia).
        apply Nat.odd_spec in O as [z Ez]. rewrite Ez.
        rewrite (Nat.mul_comm 2 z), Nat.div_add_l by lia. simpl. lia. }
      lia. }
    unfold read. rewrite Hp, Ha by exact Hpi.
    transitivity (IZR (kget k kidx) * (lin c (map Z.of_nat idx) + lin c (koff (shp k) kidx) + d))%R.
    + f_equal. f_equal. unfold lin. rewrite <- Sum_plus. apply Sum_ext. intros j Hj. apply in_seq in Hj.
      replace (nth j (map Z.of_nat p) 0%Z) with (Z.of_nat (nth j p 0)) by (symmetry; apply (map_nth Z.of_nat p 0)).
      replace (nth j (map Z.of_nat idx) 0%Z) with (Z.of_nat (nth j idx 0)) by (symmetry; apply (map_nth Z.of_nat idx 0)).
      rewrite Hpj by lia. rewrite plus_IZR. ring.
    + unfold lin at 2. rewrite (Sum_ext (fun j => nth j c 0 * IZR (kget k kidx * _))%R
        (fun j => IZR (kget k kidx) * (nth j c 0 * IZR (nth j (koff (shp k) kidx) 0%Z)))%R)
        by (intros j _; rewrite mult_IZR; ring).
      rewrite Sum_scale. ring.
Qed.

(** ** GSM pixels *)

Section gsm.
Local Open Scope R_scope.

Lemma Rsgn_0 : Rsgn_ext 0 = NaN.
Proof. unfold Rsgn_ext. destruct (Rlt_dec 0 0); [lra|]. destruct (Rlt_dec 0 0); [lra|reflexivity]. Qed.

Lemma ext_div_fin x y : y <> 0 -> ext_div (Fin x) (Fin y) = Fin (x / y).
Proof. intros H. simpl. destruct (Req_EM_T y 0); [contradiction|reflexivity]. Qed.
Lemma ext_div_0 x : ext_div (Fin x) (Fin 0) = Rsgn_ext x.
Proof. simpl. destruct (Req_EM_T 0 0); [reflexivity|congruence]. Qed.

Lemma Rsgn_cases x : (0 < x /\ Rsgn_ext x = PInf) \/ (x < 0 /\ Rsgn_ext x = NInf) \/ (x = 0 /\ Rsgn_ext x = NaN).
Proof.
  unfold Rsgn_ext. destruct (Rlt_dec 0 x); [tauto|]. destruct (Rlt_dec x 0); [tauto|]. right; right. split; [lra|reflexivity].
Qed.

Lemma sgn_pos x : 0 < x -> Rsgn_ext x = PInf.
Proof. destruct (Rsgn_cases x) as [[]|[[]|[]]]; intros; try lra; assumption. Qed.

Lemma ext_mul_nan_r x : ext_mul x NaN = NaN. Proof. destruct x; reflexivity. Qed.
Lemma ext_add_nan_r x : ext_add x NaN = NaN. Proof. destruct x; reflexivity. Qed.

(** A pixel where the stronger gradient vanishes does not count. *)
Lemma pixel_flat k p dr gr gm diff : gsm_pixel k p dr gr gm 0 diff = NaN.
Proof.
  unfold gsm_pixel. cbv zeta. rewrite ext_div_0.
  assert (E : ext_div (ext_add (ext_mul (Fin 2) (ext_sub (Fin 1) (Rsgn_ext (Rabs (gr - gm))))) k)
     (ext_add (ext_add (Fin 1) (ext_mul (ext_sub (Fin 1) (Rsgn_ext (Rabs (gr - gm))))
         (ext_sub (Fin 1) (Rsgn_ext (Rabs (gr - gm)))))) k) = NaN).
  { destruct (Rsgn_cases (Rabs (gr - gm))) as [[_ ->]|[[H _]|[_ ->]]].
    - cbn [ext_sub ext_neg ext_add ext_mul]. rewrite sgn_pos by lra. cbn [ext_neg].
      destruct k; reflexivity.
    - pose proof (Rabs_pos (gr - gm)). lra.
    - reflexivity. }
  rewrite E. rewrite !ext_mul_nan_r. reflexivity.
Qed.

(** No pixel counts if the maximum gradient is 0. *)
Lemma pixel_no_max c p dr gr gm gx diff : 0 <= c ->
  gsm_pixel (ext_div (Fin c) (Fin 0)) p dr gr gm gx diff = NaN.
Proof.
  intros Hc. destruct (Req_dec gx 0) as [->|Hx]; [apply pixel_flat|].
  unfold gsm_pixel. cbv zeta. rewrite ext_div_0, ext_div_fin by exact Hx.
  destruct (Rsgn_cases c) as [[_ ->]|[[H _]|[_ ->]]]; [|lra|];
    cbn [ext_sub ext_neg ext_add ext_mul]; cbn [ext_div]; rewrite !ext_mul_nan_r; reflexivity.
Qed.

(** The value of a counting pixel. *)
Definition con_sim (k r : R) : R := (2 * (1 - r) + k) / (1 + (1 - r) * (1 - r) + k).
Definition quality (p con lum : R) : R := (1 - p * con) * con + p * con * lum.
Definition lum_sim (diff dr : R) : R := 1 - (diff / dr) * (diff / dr).

Lemma pixel_value k p dr gr gm gx diff :
  gx <> 0 -> dr <> 0 ->
  1 + (1 - Rabs (gr - gm) / gx) * (1 - Rabs (gr - gm) / gx) + k <> 0 ->
  gsm_pixel (Fin k) p dr gr gm gx diff
  = Fin (quality p (con_sim k (Rabs (gr - gm) / gx)) (lum_sim diff dr)).
Proof.
  intros Hx Hd Hden. unfold gsm_pixel. cbv zeta. rewrite ext_div_fin by exact Hx.
  set (r := Rabs (gr - gm) / gx) in *. rewrite (ext_div_fin diff) by exact Hd.
  cbn [ext_sub ext_neg ext_add ext_mul].
  rewrite ext_div_fin.
  - cbn [ext_sub ext_neg ext_add ext_mul]. reflexivity.
  - exact Hden.
Qed.

Lemma con_le k r : 0 <= k -> con_sim k r <= 1 /\ 0 < 1 + (1 - r) * (1 - r) + k.
Proof.
  intros Hk. pose proof (Rle_0_sqr (1 - r)) as H. unfold Rsqr in H.
  assert (D : 0 < 1 + (1 - r) * (1 - r) + k) by lra. split; [|exact D].
  unfold con_sim. apply Rmult_le_reg_r with (1 + (1 - r) * (1 - r) + k); [exact D|].
  unfold Rdiv. rewrite Rmult_assoc, Rinv_l by lra.
  pose proof (Rle_0_sqr r) as H2. unfold Rsqr in H2. lra.
Qed.

Lemma quality_le p con lum : 0 <= p <= 1 -> con <= 1 -> 0 <= lum <= 1 -> quality p con lum <= 1.
Proof.
  intros Hp Hc Hl. unfold quality. destruct (Rle_dec 0 con) as [H|H].
  - assert (con * lum <= con) by nra.
    assert (p * (con * lum) <= p * con) by nra.
    assert ((1 - con) * (p * con) <= (1 - con) * 1) by (apply Rmult_le_compat_l; [lra|nra]). nra.
  - assert (0 <= p * con * con) by nra. assert (p * con * lum <= 0) by nra. nra.
Qed.

Lemma lum_bounds diff dr : 0 < dr -> Rabs diff <= dr -> 0 <= lum_sim diff dr <= 1.
Proof.
  intros Hd Ha. unfold lum_sim.
  assert (H : Rabs (diff / dr) <= 1).
  { unfold Rdiv. rewrite Rabs_mult, Rabs_inv, (Rabs_pos_eq dr) by lra.
    apply Rmult_le_reg_r with dr; [exact Hd|]. rewrite Rmult_assoc, Rinv_l by lra. lra. }
  apply Rabs_le_inv in H. set (q := diff / dr) in *. nra.
Qed.

(** nanmean *)
Lemma nanmean_all l v :
  (forall x, In x l -> x = NaN \/ x = Fin v) -> (exists x, In x l /\ x <> NaN) -> nanmean l = Fin v.
Proof.
  intros H [x [Hx Hn]]. unfold nanmean.
  assert (E : filter not_nan l = map Fin (repeat v (length (filter not_nan l)))).
  { clear x Hx Hn. induction l as [|y l IH]; [reflexivity|]. simpl.
    destruct (H y (or_introl eq_refl)) as [->| ->]; simpl.
    - apply IH. intros; apply H; right; assumption.
    - f_equal. apply IH. intros; apply H; right; assumption. }
  assert (Hin : In x (filter not_nan l)).
  { apply filter_In. split; [exact Hx|]. destruct x; try reflexivity. congruence. }
  set (n := length (filter not_nan l)) in *.
  assert (0 < n)%nat by (unfold n; destruct (filter not_nan l); [destruct Hin|simpl; lia]).
  rewrite E, mean_ext_fin by (destruct n; [lia|discriminate]).
  rewrite repeat_length, rsum_Sum. f_equal.
  rewrite (Sum_ext _ (fun _ => v)) by (intros a Ha; apply repeat_spec in Ha; exact Ha).
  rewrite Sum_const, repeat_length. field. apply not_0_INR. lia.
Qed.

Lemma nanmean_nan l : (forall x, In x l -> x = NaN) -> nanmean l = NaN.
Proof.
  intros H. unfold nanmean. replace (filter not_nan l) with (@nil ext); [reflexivity|].
  induction l as [|x l IH]; [reflexivity|]. simpl. rewrite (H x (or_introl eq_refl)). simpl.
  apply IH. intros; apply H; right; assumption.
Qed.

Lemma nanmean_le l c :
  (forall x, In x l -> x = NaN \/ exists v, x = Fin v /\ v <= c) ->
  nanmean l = NaN \/ exists v, nanmean l = Fin v /\ v <= c.
Proof.
  intros H. unfold nanmean.
  assert (E : exists vs, filter not_nan l = map Fin vs /\ forall v, In v vs -> v <= c).
  { induction l as [|y l IH]; [exists []; split; [reflexivity|intros v []]|].
    destruct IH as (vs & E & B); [intros; apply H; right; assumption|].
    destruct (H y (or_introl eq_refl)) as [->|(v & -> & Hv)]; simpl; rewrite E.
    - exists vs. auto.
    - exists (v :: vs). split; [reflexivity|]. intros w [<-|Hw]; auto. }
  destruct E as (vs & -> & B). destruct vs as [|v vs]; [left; reflexivity|]. right.
  rewrite mean_ext_fin by discriminate. eexists. split; [reflexivity|].
  set (l0 := v :: vs) in *. assert (Hn : 0 < INR (length l0)) by (apply lt_0_INR; simpl; lia).
  apply Rmult_le_reg_r with (INR (length l0)); [exact Hn|].
  unfold Rdiv. rewrite Rmult_assoc, Rinv_l by lra. rewrite rsum_Sum, Rmult_1_r.
  rewrite (Rmult_comm c), <- (Sum_const c l0). apply Sum_le. exact B.
Qed.

(** Maxima *)
Lemma amax_in l : l <> [] -> In (amax l) l.
Proof.
  destruct l as [|x l]; [congruence|]. intros _. simpl.
  revert x; induction l as [|y l IH]; intros x; simpl; [left; reflexivity|].
  destruct (IH (Rmax x y)) as [E|E].
  - rewrite <- E. unfold Rmax. destruct (Rle_dec x y); auto.
  - right; right; exact E.
Qed.
Lemma fold_max_ge l : forall x, x <= fold_left Rmax l x.
Proof.
  induction l as [|y l IH]; intros x; simpl; [lra|].
  eapply Rle_trans; [apply (Rmax_l x y)|apply IH].
Qed.
Lemma amax_ge l x : In x l -> x <= amax l.
Proof.
  destruct l as [|y l]; [intros []|]. simpl. intros [<-|H]; [apply fold_max_ge|].
  revert y; induction l as [|z l IH]; intros y; [destruct H|]. simpl. destruct H as [<-|H].
  - eapply Rle_trans; [apply (Rmax_r y z)|apply fold_max_ge].
  - apply IH, H.
Qed.
End gsm.

(** ** The gradient images *)

Lemma correlate_shape m cval a k g : correlate m cval a k = Ok g -> shp g = shp a /\ wf g.
Proof.
  unfold correlate. destruct (_ =? _); [|discriminate]. intros H. injection H as <-.
  split; [reflexivity|apply wf_tabulate].
Qed.

Definition good_kernels (n : nat) (ks : list (arr Z)) : Prop :=
  ks <> [] /\ forall k, In k ks -> ksum k = 0%Z /\ length (shp k) = n.

Lemma mapM_id_in {A} (l : list (res A)) ys y : mapM (fun k => k) l = Ok ys -> In y ys -> In (Ok y) l.
Proof.
  revert ys; induction l as [|x l IH]; intros ys H Hy; simpl in H.
  - injection H as <-. destruct Hy.
  - destruct x as [a|]; [|discriminate]. simpl in H. destruct (mapM _ l) as [zs|] eqn:E; [|discriminate].
    injection H as <-. destruct Hy as [->|Hy]; [left; reflexivity|right; exact (IH zs eq_refl Hy)].
Qed.

Definition kernels_for (n : nat) : res (list (arr Z)) :=
  if n =? 3 then KERNELS_3D else if n =? 2 then KERNELS_2D else Err ValueError.

Lemma kernels_for_good n : n = 2 \/ n = 3 -> exists ks, kernels_for n = Ok ks /\ good_kernels n ks.
Proof.
  assert (K : forallb (fun k => (ksum k =? 0)%Z && (length (shp k) =? 2))
                (match KERNELS_2D with Ok l => l | Err _ => [Arr [] []] end) = true) by (vm_compute; reflexivity).
  assert (K3 : forallb (fun k => (ksum k =? 0)%Z && (length (shp k) =? 3))
                (match KERNELS_3D with Ok l => l | Err _ => [Arr [] []] end) = true) by (vm_compute; reflexivity).
  assert (L : match KERNELS_2D with Ok l => length l | Err _ => 0 end = 4) by (vm_compute; reflexivity).
  assert (L3 : match KERNELS_3D with Ok l => length l | Err _ => 0 end = 13) by (vm_compute; reflexivity).
  intros [-> | ->]; unfold kernels_for; cbn [Nat.eqb].
  - destruct KERNELS_2D as [ks|]; [|discriminate L]. exists ks. split; [reflexivity|].
    split; [intros ->; discriminate L|]. intros k Hk. rewrite forallb_forall in K. apply K in Hk.
    apply andb_true_iff in Hk as [H1 H2]. apply Z.eqb_eq in H1. apply Nat.eqb_eq in H2. auto.
  - destruct KERNELS_3D as [ks|]; [|discriminate L3]. exists ks. split; [reflexivity|].
    split; [intros ->; discriminate L3|]. intros k Hk. rewrite forallb_forall in K3. apply K3 in Hk.
    apply andb_true_iff in Hk as [H1 H2]. apply Z.eqb_eq in H1. apply Nat.eqb_eq in H2. auto.
Qed.

Lemma mapM_correlate a ks : (forall k, In k ks -> length (shp k) = length (shp a)) ->
  mapM (correlate Reflect 0 a) ks = Ok (map (fun k => tabulate (shp a) (response Reflect 0 a k)) ks).
Proof.
  intros H. apply mapM_map. intros k Hk. unfold correlate. rewrite (H k Hk), Nat.eqb_refl. reflexivity.
Qed.

(** Gradient images of one image. *)
Definition grads (a : arr R) (ks : list (arr Z)) : list (arr R) :=
  map (fun k => tabulate (shp a) (response Reflect 0 a k)) ks.

Lemma strongest_in b l : In (strongest b l) (b :: l).
Proof.
  revert b; induction l as [|g l IH]; intros b; simpl; [left; reflexivity|].
  destruct (Rlt_dec (mean_abs b) (mean_abs g)).
  - right. destruct (IH g) as [E|E]; [left; exact E|right; exact E].
  - destruct (IH b) as [E|E]; [left; exact E|right; right; exact E].
Qed.

Definition best (l : list (arr R)) : arr R := match l with [] => Arr [] [] | g :: l' => strongest g l' end.

(** The float images the gradients are taken of. *)
Definition first_img (g : gpair) : arr R := match g with PF r _ => r | PU _ r _ => amap IZR r end.
Definition second_img (g : gpair) : arr R := match g with PF _ m => m | PU _ _ m => amap IZR m end.
Definition castg (ucast : nat -> R -> Z) (g : gpair) : arr R -> arr R :=
  match g with PF _ _ => fun x => x | PU b _ _ => amap (fun v => IZR (ucast b v)) end.

Definition same_shapes (g : gpair) : Prop := shp (first_img g) = shp (second_img g).

Lemma first_shape g : shp (first_img g) = pair_shape g.
Proof. destruct g; reflexivity. Qed.

Lemma best_gradients_ok ucast g : same_shapes g -> length (pair_shape g) = 2 \/ length (pair_shape g) = 3 ->
  exists ks, good_kernels (length (pair_shape g)) ks /\
    best_gradients ucast g = Ok (best (map (castg ucast g) (grads (first_img g) ks)),
                                 best (map (castg ucast g) (grads (second_img g) ks))).
Proof.
  intros Hs Hn. destruct (kernels_for_good _ Hn) as (ks & Hk & Hg). exists ks. split; [exact Hg|].
  unfold best_gradients. unfold kernels_for in Hk. rewrite Hk. cbn [bind]. destruct Hg as [Hne Hg].
  assert (E1 : mapM (correlate Reflect 0 (first_img g)) ks = Ok (grads (first_img g) ks)).
  { apply mapM_correlate. intros k Hin. rewrite first_shape. apply Hg, Hin. }
  assert (E2 : mapM (correlate Reflect 0 (second_img g)) ks = Ok (grads (second_img g) ks)).
  { apply mapM_correlate. intros k Hin. rewrite <- Hs, first_shape. apply Hg, Hin. }
  destruct ks as [|k ks]; [congruence|].
  destruct g as [r m|b r m]; cbn [first_img second_img] in *; unfold gradients; rewrite E1, E2; cbn [bind].
  - cbn [grads map castg best]. rewrite !map_id. reflexivity.
  - reflexivity.
Qed.

Lemma best_shape ucast g a ks : shp a = pair_shape g -> ks <> [] ->
  shp (best (map (castg ucast g) (grads a ks))) = pair_shape g /\
  wf (best (map (castg ucast g) (grads a ks))).
Proof.
  intros Ha Hk.
  assert (G : forall x, In x (map (castg ucast g) (grads a ks)) -> shp x = pair_shape g /\ wf x).
  { intros x Hx. apply in_map_iff in Hx as (y & <- & Hy). apply in_map_iff in Hy as (k & <- & _).
    destruct g as [r m|b r m]; cbn [castg].
    - split; [exact Ha|apply wf_tabulate].
    - split; [exact Ha|]. unfold wf, amap. cbn [shp dat]. rewrite map_length. apply wf_tabulate. }
  apply G. unfold best. destruct ks as [|k ks]; [congruence|]. cbn [grads map]. apply strongest_in.
Qed.

Lemma getd_in a idx : wf a -> inb (shp a) idx = true -> In (getd a idx) (dat a).
Proof.
  intros Hw Hi. destruct (get_wf_some a idx Hw Hi) as [v Hv]. unfold getd. rewrite Hv.
  unfold get in Hv. rewrite Hi in Hv. eapply nth_error_In. exact Hv.
Qed.

Lemma in_getd a x : wf a -> In x (dat a) -> exists idx, inb (shp a) idx = true /\ getd a idx = x.
Proof.
  intros Hw Hx. destruct (in_dat a x Hw Hx) as (idx & Hi & Hg). exists idx. split; [exact Hi|].
  unfold getd. rewrite Hg. reflexivity.
Qed.

(** The largest gradient value. *)
Definition gmax (br bm : arr R) : R := Rmax (amax (dat br)) (amax (dat bm)).

(** GSM in terms of the two selected gradient images. *)
Lemma gsm_unfold ucast g dr c p : same_shapes g -> length (pair_shape g) = 2 \/ length (pair_shape g) = 3 ->
  0 < size (pair_shape g) ->
  exists br bm, best_gradients ucast g = Ok (br, bm) /\ shp br = pair_shape g /\ shp bm = pair_shape g /\
    wf br /\ wf bm /\
    gradient_similarity ucast g dr c p = Ok (nanmean (map (fun idx =>
      gsm_pixel (ext_div (Fin c) (Fin (gmax br bm))) p dr (getd br idx) (getd bm idx)
        (getd (if Rlt_dec (mean_abs br) (mean_abs bm) then bm else br) idx) (lum_diff g idx))
      (indices (pair_shape g)))).
Proof.
  intros Hs Hn Hpos. destruct (best_gradients_ok ucast g Hs Hn) as (ks & [Hne _] & HB).
  destruct (best_shape ucast g (first_img g) ks (first_shape g) Hne) as [S1 W1].
  destruct (best_shape ucast g (second_img g) ks (eq_trans (eq_sym Hs) (first_shape g)) Hne) as [S2 W2].
  eexists; eexists. split; [exact HB|]. split; [exact S1|]. split; [exact S2|]. split; [exact W1|]. split; [exact W2|].
  unfold gradient_similarity. rewrite HB. cbn [bind].
  destruct (Nat.eqb_spec (size (pair_shape g)) 0); [lia|]. reflexivity.
Qed.

(** ** Two-pixel images, for the counterexamples *)

Definition two (a b : R) : arr R := Arr [1; 2] [a; b].

Lemma strongest_first g l : (forall x, In x l -> (mean_abs x <= mean_abs g)%R) -> strongest g l = g.
Proof.
  induction l as [|x l IH]; intros H; [reflexivity|]. cbn [strongest].
  destruct (Rlt_dec (mean_abs g) (mean_abs x)) as [L|L].
  - specialize (H x (or_introl eq_refl)). lra.
  - apply IH. intros y Hy. apply H. right. exact Hy.
Qed.

Lemma mean_abs_two a b : mean_abs (two a b) = ((Rabs a + Rabs b) / 2)%R.
Proof. unfold mean_abs, two, Sum, rsum. cbn [dat map fold_right length INR]. f_equal; ring. Qed.

Ltac two_response := unfold response, Sum, rsum, two;
  cbv -[IZR Rplus Rmult Ropp Rminus Rdiv Rinv Rabs]; ring.

Lemma grads_two a b ks : KERNELS_2D = Ok ks ->
  grads (two a b) ks =
  [two (16 * (b - a)) (16 * (b - a)); two 0 0; two (5 * (a - b)) (5 * (a - b)); two (5 * (b - a)) (5 * (b - a))].
Proof.
  intros H. assert (E : KERNELS_2D = Ok ks) by exact H.
  unfold KERNELS_2D, gsm_kernel_2d_x, gsm_kernel_2d_y, gsm_kernel_2d_xy, gsm_kernel_2d_yx in E.
  cbn [mapM bind] in E. injection E as <-. unfold grads. cbn [map].
  repeat (match goal with |- _ :: _ = _ :: _ => apply (f_equal2 cons) end);
    try reflexivity; unfold tabulate, two at 2;
    (apply (f_equal2 Arr); [reflexivity|]); cbn [shp two indices flat_map map seq app];
    (apply (f_equal2 cons); [two_response|]); (apply (f_equal2 cons); [two_response|reflexivity]).
Qed.

Lemma best_two ucast a b a' b' :
  best_gradients ucast (PF (two a b) (two a' b'))
  = Ok (two (16 * (b - a)) (16 * (b - a)), two (16 * (b' - a')) (16 * (b' - a'))).
Proof.
  assert (B : forall u v, (strongest (two (16 * (v - u)) (16 * (v - u)))
     [two 0 0; two (5 * (u - v)) (5 * (u - v)); two (5 * (v - u)) (5 * (v - u))]
     = two (16 * (v - u)) (16 * (v - u)))%R).
  { intros u v. apply strongest_first. intros x Hx.
    destruct Hx as [<-|[<-|[<-|[]]]]; rewrite !mean_abs_two, ?Rabs_R0, ?Rabs_mult, ?(Rabs_minus_sym u v),
      ?(Rabs_pos_eq 16), ?(Rabs_pos_eq 5) by lra; pose proof (Rabs_pos (v - u)); lra. }
  assert (K : exists ks, KERNELS_2D = Ok ks /\ length ks = 4 /\ forall k, In k ks -> length (shp k) = 2).
  { destruct (kernels_for_good 2 (or_introl eq_refl)) as (ks & Hk & _ & Hg). exists ks. split; [exact Hk|].
    split; [|intros; apply Hg; assumption].
    assert (L : match KERNELS_2D with Ok l => length l | Err _ => 0 end = 4) by (vm_compute; reflexivity).
    unfold kernels_for in Hk. cbn [Nat.eqb] in Hk. rewrite Hk in L. exact L. }
  destruct K as (ks & Hk & _ & Hl).
  unfold best_gradients. cbn [pair_shape two shp length Nat.eqb]. rewrite Hk. cbn [bind]. unfold gradients.
  rewrite !mapM_correlate by exact Hl. cbn [bind].
  change (map _ ks) with (grads (two a b) ks) at 1. rewrite (grads_two a b ks Hk).
  change (map _ ks) with (grads (two a' b') ks) at 1. rewrite (grads_two a' b' ks Hk).
  rewrite !B. reflexivity.
Qed.

(** Score of a pair of two-pixel images. *)
Lemma gsm_two ucast a b a' b' dr c p :
  let g := (16 * (b - a))%R in let h := (16 * (b' - a'))%R in
  let gx := if Rlt_dec (Rabs g) (Rabs h) then h else g in
  let k := (c / Rmax g h)%R in let r := (Rabs (g - h) / gx)%R in
  gx <> 0%R -> Rmax g h <> 0%R -> dr <> 0%R -> (1 + (1 - r) * (1 - r) + k <> 0)%R ->
  gradient_similarity ucast (PF (two a b) (two a' b')) dr c p
  = Ok (Fin ((quality p (con_sim k r) (lum_sim (a - a') dr) + quality p (con_sim k r) (lum_sim (b - b') dr)) / 2)).
Proof.
  intros g h gx k r Hx Hm Hd Hden. unfold gradient_similarity. rewrite best_two. cbn [bind].
  fold g h. cbn [pair_shape two shp size fold_right Nat.eqb Nat.mul Nat.add].
  cbn [dat two amax fold_left]. rewrite !(Rmax_left _ _ (Rle_refl _)). rewrite ext_div_fin by exact Hm. fold k.
  cbn [indices flat_map map seq app].
  assert (G : forall u v j, (j < 2)%nat -> getd (two u v) [0; j] = if j =? 0 then u else v).
  { intros u v j Hj. destruct j as [|[|]]; [reflexivity|reflexivity|lia]. }
  assert (X : forall j, (j < 2)%nat ->
    getd (if Rlt_dec (mean_abs (two g g)) (mean_abs (two h h)) then two h h else two g g) [0; j] = gx).
  { intros j Hj. unfold gx. rewrite !mean_abs_two.
    destruct (Rlt_dec ((Rabs g + Rabs g) / 2) ((Rabs h + Rabs h) / 2)), (Rlt_dec (Rabs g) (Rabs h)); try lra;
      rewrite G by exact Hj; destruct (j =? 0); reflexivity. }
  rewrite !X, !G by lia. cbn [Nat.eqb lum_diff]. rewrite !G by lia. cbn [Nat.eqb].
  rewrite !pixel_value by assumption. fold r.
  unfold nanmean. cbn [filter not_nan]. rewrite <- (map_cons Fin _ [_]) || idtac.
  match goal with |- Ok (mean_ext [Fin ?x; Fin ?y]) = _ => change [Fin x; Fin y] with (map Fin [x; y]) end.
  rewrite mean_ext_fin by discriminate. unfold rsum. cbn [fold_right length INR]. do 2 f_equal. f_equal; ring.
Qed.

(** ** Identical pairs *)

Definition identical (g : gpair) : Prop :=
  match g with PF r m => r = m | PU _ r m => r = m end.

Lemma identical_shapes g : identical g -> same_shapes g.
Proof. destruct g; cbn; intros ->; reflexivity. Qed.
Lemma identical_imgs g : identical g -> first_img g = second_img g.
Proof. destruct g; cbn; intros ->; reflexivity. Qed.
Lemma identical_diff g idx : identical g -> lum_diff g idx = 0%R.
Proof.
  destruct g as [r m|b r m]; cbn; intros ->; [ring|]. rewrite Z.sub_diag, Z.mod_0_l; [reflexivity|].
  apply Z.pow_nonzero; lia.
Qed.

Lemma size_nonempty {A} (a : arr A) : wf a -> 0 < size (shp a) -> dat a <> [].
Proof. unfold wf. intros W H E. rewrite E in W. simpl in W. lia. Qed.

Lemma pixel_no_max' c p dr gr gm gx diff :
  gsm_pixel (ext_div (Fin c) (Fin 0)) p dr gr gm gx diff = NaN.
Proof.
  destruct (Req_dec gx 0) as [->|Hx]; [apply pixel_flat|].
  unfold gsm_pixel. cbv zeta. rewrite ext_div_0, ext_div_fin by exact Hx.
  destruct (Rsgn_cases c) as [[_ ->]|[[_ ->]|[_ ->]]];
    cbn [ext_sub ext_neg ext_add ext_mul]; cbn [ext_div]; rewrite !ext_mul_nan_r; reflexivity.
Qed.

(** A pixel with equal gradients. *)
Lemma pixel_equal k p dr g diff : g <> 0%R -> dr <> 0%R ->
  gsm_pixel (Fin k) p dr g g g diff
  = if Req_EM_T (2 + k) 0 then NaN else Fin (1 - p * ((diff / dr) * (diff / dr)))%R.
Proof.
  intros Hg Hd. assert (Hr : (Rabs (g - g) / g = 0)%R).
  { replace (g - g)%R with 0%R by ring. rewrite Rabs_R0. unfold Rdiv. ring. }
  destruct (Req_EM_T (2 + k) 0) as [E|E].
  - unfold gsm_pixel. cbv zeta. rewrite ext_div_fin, Hr by exact Hg.
    cbn [ext_sub ext_neg ext_add ext_mul].
    replace (1 + (1 + - 0) * (1 + - 0) + k)%R with 0%R by lra.
    replace (2 * (1 + - 0) + k)%R with 0%R by lra. rewrite ext_div_0, Rsgn_0. rewrite !ext_mul_nan_r. reflexivity.
  - rewrite pixel_value; rewrite ?Hr; try assumption; [|lra]. f_equal.
    unfold quality, con_sim, lum_sim. replace ((2 * (1 - 0) + k) / (1 + (1 - 0) * (1 - 0) + k))%R with 1%R by (field; lra).
    ring.
Qed.

Lemma gsm_same_gradients ucast g dr c p br :
  same_shapes g -> length (pair_shape g) = 2 \/ length (pair_shape g) = 3 -> 0 < size (pair_shape g) ->
  dr <> 0%R -> best_gradients ucast g = Ok (br, br) ->
  forall q, (forall idx, inb (pair_shape g) idx = true -> lum_diff g idx = q) ->
  gradient_similarity ucast g dr c p =
  Ok (if Req_EM_T (amax (dat br)) 0 then NaN
      else if Req_EM_T (c + 2 * amax (dat br)) 0 then NaN else Fin (1 - p * ((q / dr) * (q / dr)))%R).
Proof.
  intros Hs Hn Hpos Hd HB q Hq. destruct (gsm_unfold ucast g dr c p Hs Hn Hpos) as (b1 & b2 & HB' & S1 & _ & W1 & _ & ->).
  rewrite HB in HB'. injection HB' as <- <-. f_equal.
  unfold gmax. rewrite Rmax_left by lra.
  assert (X : (if Rlt_dec (mean_abs br) (mean_abs br) then br else br) = br) by (destruct (Rlt_dec _ _); reflexivity).
  rewrite X. set (M := amax (dat br)) in *.
  destruct (Req_EM_T M 0) as [E|E].
  - rewrite E. apply nanmean_nan. intros x Hx. apply in_map_iff in Hx as (idx & <- & _). apply pixel_no_max'.
  - rewrite ext_div_fin by exact E. destruct (Req_EM_T (c + 2 * M) 0) as [E2|E2].
    + assert (K : (2 + c / M = 0)%R) by (replace (2 + c / M)%R with ((c + 2 * M) / M)%R by (field; exact E);
        rewrite E2; unfold Rdiv; ring).
      apply nanmean_nan. intros x Hx. apply in_map_iff in Hx as (idx & <- & _).
      destruct (Req_dec (getd br idx) 0) as [Z0|NZ]; [rewrite Z0; apply pixel_flat|].
      rewrite pixel_equal by assumption. destruct (Req_EM_T (2 + c / M) 0); [reflexivity|contradiction].
    + assert (K : (2 + c / M <> 0)%R).
      { intros K. apply E2. replace (c + 2 * M)%R with ((2 + c / M) * M)%R by (field; exact E). rewrite K. ring. }
      apply nanmean_all.
      * intros x Hx. apply in_map_iff in Hx as (idx & <- & Hi). apply in_indices in Hi.
        destruct (Req_dec (getd br idx) 0) as [Z0|NZ]; [left; rewrite Z0; apply pixel_flat|right].
        rewrite pixel_equal by assumption. destruct (Req_EM_T (2 + c / M) 0); [contradiction|].
        rewrite Hq by exact Hi. reflexivity.
      * assert (Hin : In M (dat br)) by (apply amax_in, size_nonempty; [exact W1|rewrite S1; exact Hpos]).
        apply in_getd in Hin as (idx & Hi & Hg); [|exact W1]. rewrite S1 in Hi. eexists. split.
        { apply in_map_iff. exists idx. split; [reflexivity|apply in_indices; exact Hi]. }
        rewrite Hg, pixel_equal by assumption. destruct (Req_EM_T (2 + c / M) 0); [contradiction|discriminate].
Qed.

Lemma identical_gradients ucast g : identical g ->
  length (pair_shape g) = 2 \/ length (pair_shape g) = 3 -> exists br, best_gradients ucast g = Ok (br, br).
Proof.
  intros Hi Hn. destruct (best_gradients_ok ucast g (identical_shapes g Hi) Hn) as (ks & _ & HB).
  rewrite <- (identical_imgs g Hi) in HB. eexists. exact HB.
Qed.

(** Images that differ by a constant have the same gradients. *)
Lemma grads_shift a b v ks : good_kernels (length (shp a)) ks -> shp b = shp a ->
  (forall p, inb (shp a) p = true -> getd b p = (getd a p + v)%R) -> grads b ks = grads a ks.
Proof.
  intros [_ Hg] Hs Hb. unfold grads. apply map_ext_in. intros k Hk. destruct (Hg k Hk) as [Z0 Hl].
  rewrite Hs. unfold tabulate. f_equal. apply map_ext_in. intros idx Hi. apply in_indices in Hi. apply (response_shift _ _ _ _ v); auto. discriminate.
Qed.

Lemma shift_gradients ucast g v : same_shapes g -> length (pair_shape g) = 2 \/ length (pair_shape g) = 3 ->
  (forall p, inb (pair_shape g) p = true -> getd (second_img g) p = (getd (first_img g) p + v)%R) ->
  exists br, best_gradients ucast g = Ok (br, br).
Proof.
  intros Hs Hn Hv. destruct (best_gradients_ok ucast g Hs Hn) as (ks & Hk & HB).
  rewrite (grads_shift (first_img g) (second_img g) v) in HB.
  - eexists. exact HB.
  - rewrite first_shape. exact Hk.
  - symmetry. exact Hs.
  - rewrite first_shape. exact Hv.
Qed.

(** Gradients of a constant image vanish. *)
Lemma grads_const a v ks : good_kernels (length (shp a)) ks ->
  (forall p, inb (shp a) p = true -> getd a p = v) ->
  forall g, In g (grads a ks) -> forall x, In x (dat g) -> x = 0%R.
Proof.
  intros [_ Hg] Ha g Hin x Hx. apply in_map_iff in Hin as (k & <- & Hk). destruct (Hg k Hk) as [Z0 Hl].
  unfold tabulate in Hx. cbn [dat] in Hx. apply in_map_iff in Hx as (idx & <- & Hi). apply in_indices in Hi.
  apply (response_flat _ _ _ v); [exact Z0|]. intros kidx Hkin _. unfold read.
  destruct (read_pos_inb Reflect (shp a) idx (koff (shp k) kidx)) as (p & -> & Hp); [discriminate|exact Hi| |].
  - rewrite koff_length by (apply in_indices; exact Hkin). exact Hl.
  - apply Ha, Hp.
Qed.
