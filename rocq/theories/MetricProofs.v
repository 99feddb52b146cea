(** Proofs about metric objects, fusion, RMSE and PSNR. *)
From Coq Require Import Reals Lra Psatz Permutation.
From Verif Require Import Base NdArray LoadModel LoadProofs NormModel NormProofs
  PairModel PairProofs RealSums MetricModel.

(** ** Construction *)

Lemma dget_dupdate {V} (d e : dict V) k :
  NoDup (dkeys e) ->
  dget (dupdate d e) k = match dget e k with Some v => Some v | None => dget d k end.
Proof.
  unfold dupdate. revert d. induction e as [|[k' v] e IH]; intros d Hnd; [reflexivity|].
  cbn [fold_left fst snd dget]. inversion Hnd as [|? ? Hni Hnd']; subst. cbn [dkeys map fst] in *.
  rewrite IH by exact Hnd'. destruct (String.eqb k' k) eqn:E.
  - apply String.eqb_eq in E. subst. rewrite (proj2 (dget_none e k)) by exact Hni.
    apply dget_dset_same.
  - apply String.eqb_neq in E. rewrite dget_dset_other by exact E. reflexivity.
Qed.

Lemma NoDup_class_kwargs c kw : NoDup (dkeys kw) -> NoDup (dkeys (class_kwargs c kw)).
Proof.
  intros H. destruct c; try exact H. unfold class_kwargs.
  destruct (dget kw "name") eqn:E; [exact H|]. constructor; [apply dget_none, E|exact H].
Qed.

Definition default_param (dr nm : pyval) (k : string) : option pyval :=
  if String.eqb k "data_range" then Some dr
  else if String.eqb k "normalize" then Some nm
  else if String.eqb k "chromatic" then Some (PBool false)
  else if String.eqb k "roi" then Some PNone
  else None.

Lemma construct_ok c dr nm kw m :
  NoDup (dkeys kw) -> construct c dr nm kw = Ok m ->
  m_score m = SNone /\ m_class m = c /\
  forall k, (k <> "name"%string \/ c <> CSNR) ->
    dget (m_params m) k = match dget kw k with Some v => Some v | None => default_param dr nm k end.
Proof.
  intros Hnd H. unfold construct in H.
  destruct (needs_range c && _); [discriminate|]. destruct (truthy nm && _); [discriminate|].
  injection H as <-. cbn [m_score m_class m_params]. split; [reflexivity|]. split; [reflexivity|].
  intros k Hk. rewrite dget_dupdate by (apply NoDup_class_kwargs, Hnd).
  replace (dget (class_kwargs c kw) k) with (dget kw k).
  - destruct (dget kw k); [reflexivity|]. unfold default_param, dget.
    rewrite !(String.eqb_sym k). reflexivity.
  - destruct c; try reflexivity. unfold class_kwargs.
    destruct (dget kw "name") eqn:E; [reflexivity|]. cbn [dget].
    destruct (String.eqb_spec "name" k) as [En|]; [subst k; destruct Hk; contradiction|reflexivity].
Qed.

Lemma construct_iff c dr nm kw :
  (exists m, construct c dr nm kw = Ok m) <->
  ~ (needs_range c = true /\ dr = PNone) /\ ~ (truthy nm = true /\ truthy dr = false).
Proof.
  unfold construct.
  assert (D : (match dr with PNone => true | _ => false end) = true <-> dr = PNone).
  { destruct dr; split; intros; try discriminate; reflexivity. }
  destruct (match dr with PNone => true | _ => false end) eqn:Ed.
  - pose proof (proj1 D eq_refl) as ->. destruct (needs_range c) eqn:Ec; cbn [andb truthy negb].
    + split; [intros [m H]; discriminate|]. intros [H _]. exfalso. auto.
    + rewrite andb_true_r. destruct (truthy nm) eqn:En.
      * split; [intros [m H]; discriminate|]. intros [_ H]. exfalso. auto.
      * split; [|eauto]. intros _. split; intros [? ?]; discriminate.
  - assert (Hd : dr <> PNone) by (intros H; apply D in H; discriminate).
    rewrite andb_false_r. destruct (truthy nm) eqn:En, (truthy dr) eqn:Et; cbn [andb negb].
    + split; [|eauto]. intros _. split; intros [? ?]; [contradiction|discriminate].
    + split; [intros [m H]; discriminate|]. intros [_ H]. exfalso. auto.
    + split; [|eauto]. intros _. split; intros [? ?]; [contradiction|discriminate].
    + split; [|eauto]. intros _. split; intros [? ?]; [contradiction|discriminate].
Qed.

Lemma construct_err c dr nm kw e : construct c dr nm kw = Err e -> e = ValueError.
Proof.
  unfold construct. destruct (needs_range c && _); [congruence|].
  destruct (truthy nm && _); [congruence|discriminate].
Qed.

(** ** Order *)

(** Independent order on scores without NaN: NInf < numbers < PInf. *)
Definition elt (x y : ext) : Prop :=
  match x, y with
  | Fin x, Fin y => (x < y)%R
  | NInf, Fin _ | NInf, PInf | Fin _, PInf => True
  | _, _ => False
  end.

Lemma ext_ltb_spec x y : ext_ltb x y = true <-> elt x y.
Proof.
  destruct x, y; simpl; try destruct (Rlt_dec _ _); split; intros; try discriminate; auto; contradiction.
Qed.
Lemma ext_eqb_spec x y : x <> NaN -> (ext_eqb x y = true <-> x = y).
Proof.
  intros Hx. destruct x, y; simpl; try destruct (Req_EM_T _ _); split; intros; try discriminate;
    try reflexivity; try congruence.
Qed.

Lemma elt_irrefl x : ~ elt x x.
Proof. destruct x; simpl; auto. lra. Qed.
Lemma elt_trans x y z : elt x y -> elt y z -> elt x z.
Proof. destruct x, y, z; simpl; auto; try tauto; lra. Qed.
Lemma elt_total x y : x <> NaN -> y <> NaN -> elt x y \/ x = y \/ elt y x.
Proof.
  destruct x as [a| | |], y as [b| | |]; simpl; auto; try congruence.
  intros _ _. destruct (Rtotal_order a b) as [H|[->|H]]; auto.
Qed.

(** ** Fusion *)

Definition fin_score (m : metric) : option R :=
  match m_score m with SNum (Fin x) => Some x | _ => None end.

Lemma fuse_from_fin acc xs ws :
  fuse_from (Fin acc) (map (fun x => SNum (Fin x)) xs) (map Fin ws) =
  if length xs =? length ws
  then Ok (Fin (acc + Sum (fun p => fst p * snd p)%R (combine xs ws)))
  else Err ValueError.
Proof.
  revert acc ws; induction xs as [|x xs IH]; intros acc [|w ws]; cbn [map fuse_from length Nat.eqb combine].
  - rewrite Sum_nil, Rplus_0_r. reflexivity.
  - reflexivity.
  - reflexivity.
  - cbn [ext_mul ext_add]. rewrite IH. destruct (_ =? _); [|reflexivity].
    cbn [combine]. rewrite Sum_cons. cbn [fst snd]. do 2 f_equal. ring.
Qed.

Lemma fuse_fin ms xs ws :
  map m_score ms = map (fun x => SNum (Fin x)) xs ->
  fuse ms (map Fin ws) =
  if length xs =? length ws then Ok (Fin (Sum (fun p => fst p * snd p)%R (combine xs ws)))
  else Err ValueError.
Proof.
  intros H. unfold fuse. rewrite H, fuse_from_fin, Rplus_0_l. reflexivity.
Qed.

Definition fused (xs ws : list R) : R := Sum (fun p => fst p * snd p)%R (combine xs ws).

Lemma fused_add_w xs us vs : length us = length vs ->
  fused xs (map (fun p => fst p + snd p)%R (combine us vs)) = (fused xs us + fused xs vs)%R.
Proof.
  unfold fused. revert us vs; induction xs as [|x xs IH]; intros us vs H; [cbn; lra|].
  destruct us as [|u us], vs as [|v vs]; try discriminate; cbn [combine map fst snd];
    rewrite ?Sum_nil; [lra|]. rewrite !Sum_cons. cbn [fst snd]. injection H as H.
  rewrite (IH us vs H). lra.
Qed.
Lemma fused_scale_w c xs ws : fused xs (map (Rmult c) ws) = (c * fused xs ws)%R.
Proof.
  unfold fused. revert ws; induction xs as [|x xs IH]; intros [|w ws]; cbn [combine map];
    rewrite ?Sum_nil, ?Sum_cons; cbn [fst snd]; rewrite ?IH; lra.
Qed.
Lemma fused_sym xs ws : fused xs ws = fused ws xs.
Proof.
  unfold fused. revert ws; induction xs as [|x xs IH]; intros [|w ws]; cbn [combine];
    rewrite ?Sum_nil, ?Sum_cons; cbn [fst snd]; rewrite ?IH; lra.
Qed.

Lemma fused_convex xs ws lo hi :
  length xs = length ws -> (forall w, In w ws -> 0 <= w)%R -> rsum ws = 1%R ->
  (forall x, In x xs -> lo <= x <= hi)%R -> (lo <= fused xs ws <= hi)%R.
Proof.
  intros Hl Hw H1 Hx.
  assert (E : Sum snd (combine xs ws) = 1%R).
  { rewrite <- H1. unfold rsum, Sum, rsum. f_equal.
    clear -Hl. revert ws Hl; induction xs as [|x xs IH]; intros [|w ws] H; try discriminate; [reflexivity|].
    cbn. f_equal. apply IH. injection H; auto. }
  unfold fused. split.
  - apply Rle_trans with (Sum (fun p => lo * snd p)%R (combine xs ws)).
    + rewrite Sum_scale, E. lra.
    + apply Sum_le. intros [x w] Hp. cbn [fst snd]. apply Rmult_le_compat_r.
      * apply Hw. apply in_combine_r in Hp. exact Hp.
      * apply Hx. apply in_combine_l in Hp. exact Hp.
  - apply Rle_trans with (Sum (fun p => hi * snd p)%R (combine xs ws)).
    + apply Sum_le. intros [x w] Hp. cbn [fst snd]. apply Rmult_le_compat_r.
      * apply Hw. apply in_combine_r in Hp. exact Hp.
      * apply Hx. apply in_combine_l in Hp. exact Hp.
    + rewrite Sum_scale, E. lra.
Qed.

Lemma fused_perm xs ws xs' ws' :
  Permutation (combine xs ws) (combine xs' ws') -> fused xs ws = fused xs' ws'.
Proof. apply Sum_perm. Qed.

(** An unscored (or exported as 'n/a') metric always fails, whatever the weight. *)
Lemma fuse_from_unscored acc ms ws :
  length ms = length ws -> (exists s, In s ms /\ forall x, s <> SNum x) ->
  fuse_from acc ms ws = Err TypeError.
Proof.
  revert acc ws; induction ms as [|m ms IH]; intros acc [|w ws] H (s & Hin & Hs); try discriminate.
  - destruct Hin.
  - injection H as H. destruct m as [|x|t]; cbn [fuse_from]; try reflexivity.
    apply IH; [exact H|]. destruct Hin as [<-|Hin]; [destruct (Hs x); reflexivity|eauto].
Qed.

(** ** RMSE *)

(** Independent reading: root of the mean squared difference over positions. *)
Definition rms (a b : list R) : R :=
  sqrt (Sum (fun p => (fst p - snd p) * (fst p - snd p))%R (combine a b) / INR (length a)).

Lemma sum_sq_diff_Sum a b :
  sum_sq_diff a b = Sum (fun p => (fst p - snd p) * (fst p - snd p))%R (combine a b).
Proof.
  revert b; induction a as [|x a IH]; intros [|y b]; cbn [sum_sq_diff combine];
    rewrite ?Sum_cons, ?Sum_nil; cbn [fst snd]; rewrite ?IH; reflexivity.
Qed.

Lemma rmse_fin a b : a <> [] -> rmse a b = Fin (rms a b).
Proof.
  intros H. unfold rmse, mse, rms. rewrite sum_sq_diff_Sum. destruct a; [contradiction|reflexivity].
Qed.

Lemma INR_len_pos {A} (a : list A) : a <> [] -> (0 < INR (length a))%R.
Proof. destruct a; [contradiction|]. intros _. apply lt_0_INR. simpl. lia. Qed.

Lemma sumsq_nonneg a b : (0 <= Sum (fun p : R * R => (fst p - snd p) * (fst p - snd p)) (combine a b))%R.
Proof. apply Sum_nonneg. intros p _. apply Rle_0_sqr. Qed.

Lemma sumsq_zero a b : length a = length b ->
  Sum (fun p : R * R => (fst p - snd p) * (fst p - snd p))%R (combine a b) = 0%R <-> a = b.
Proof.
  revert b; induction a as [|x a IH]; intros [|y b] Hl; try discriminate; cbn [combine].
  - split; reflexivity.
  - injection Hl as Hl. rewrite Sum_cons. cbn [fst snd].
    pose proof (sumsq_nonneg a b) as N. pose proof (Rle_0_sqr (x - y)) as N2. unfold Rsqr in N2. split.
    + intros H. assert (Hx : ((x - y) * (x - y) = 0)%R) by lra.
      assert (Hr : (Sum (fun p : R * R => (fst p - snd p) * (fst p - snd p)) (combine a b) = 0)%R) by lra.
      apply (IH b Hl) in Hr. apply Rmult_integral in Hx. f_equal; [destruct Hx; lra|exact Hr].
    + intros H. injection H as -> ->. rewrite (proj2 (IH b Hl) eq_refl). ring.
Qed.

Lemma rms_nonneg a b : (0 <= rms a b)%R.
Proof. apply sqrt_pos. Qed.

Lemma rms_zero a b : a <> [] -> length a = length b -> (rms a b = 0%R <-> a = b).
Proof.
  intros Hne Hl. rewrite <- (sumsq_zero a b Hl). unfold rms.
  pose proof (INR_len_pos a Hne) as Hn. pose proof (sumsq_nonneg a b) as N. split.
  - intros H. apply sqrt_eq_0 in H.
    + apply Rmult_eq_reg_r with (/ INR (length a))%R; [|apply Rinv_neq_0_compat; lra].
      unfold Rdiv in H. lra.
    + apply Rmult_le_pos; [exact N|]. left. apply Rinv_0_lt_compat, Hn.
  - intros ->. unfold Rdiv. rewrite Rmult_0_l. apply sqrt_0.
Qed.

Lemma sumsq_sym a b :
  Sum (fun p : R * R => (fst p - snd p) * (fst p - snd p))%R (combine a b)
  = Sum (fun p : R * R => (fst p - snd p) * (fst p - snd p))%R (combine b a).
Proof.
  revert b; induction a as [|x a IH]; intros [|y b]; cbn [combine]; try reflexivity.
  rewrite !Sum_cons, IH. cbn [fst snd]. ring.
Qed.

Lemma rms_sym a b : length a = length b -> rms a b = rms b a.
Proof. intros Hl. unfold rms. rewrite sumsq_sym, Hl. reflexivity. Qed.

(** zip of three lists, as positions *)
Lemma rms_norm2 {P} (l : list P) (f g : P -> R) :
  l <> [] -> rms (map f l) (map g l) = (norm2 (fun _ => 1) (fun p => f p - g p) l / sqrt (INR (length l)))%R.
Proof.
  intros Hne. unfold rms, norm2. rewrite map_length, sqrt_div_alt by (apply INR_len_pos, Hne).
  f_equal. f_equal. induction l as [|p l IH]; [reflexivity|]. cbn [map combine].
  rewrite !Sum_cons. cbn [fst snd]. destruct l as [|q l].
  - cbn [map combine]. rewrite !Sum_nil. ring.
  - rewrite IH by discriminate. ring.
Qed.

Lemma zip3 (a b c : list R) : length a = length b -> length b = length c ->
  exists l : list (R * R * R), a = map (fun p => fst (fst p)) l /\ b = map (fun p => snd (fst p)) l /\
                               c = map snd l.
Proof.
  intros H1 H2. exists (combine (combine a b) c). revert b c H1 H2.
  induction a as [|x a IH]; intros [|y b] [|z c] H1 H2; try discriminate; [auto|].
  injection H1 as H1. injection H2 as H2. destruct (IH b c H1 H2) as (Ea & Eb & Ec).
  cbn. rewrite <- Ea, <- Eb, <- Ec. auto.
Qed.

Lemma rms_triangle a b c : a <> [] -> length a = length b -> length b = length c ->
  (rms a c <= rms a b + rms b c)%R.
Proof.
  intros Hne H1 H2. destruct (zip3 a b c H1 H2) as (l & -> & -> & ->).
  assert (Hl : l <> []) by (intros ->; apply Hne; reflexivity).
  rewrite !rms_norm2 by exact Hl. rewrite <- Rdiv_plus_distr.
  apply Rmult_le_compat_r; [left; apply Rinv_0_lt_compat, sqrt_lt_R0, INR_len_pos, Hl|].
  eapply Rle_trans; [|apply (minkowski (fun _ => 1%R)); intros; lra].
  right. unfold norm2. f_equal. apply Sum_ext. intros p _. ring.
Qed.

Lemma rms_bound a b d : a <> [] -> length a = length b -> (0 <= d)%R ->
  (forall i x y, nth_error a i = Some x -> nth_error b i = Some y -> Rabs (x - y) <= d)%R ->
  (rms a b <= d)%R.
Proof.
  intros Hne Hl Hd H. unfold rms. rewrite <- (sqrt_square d Hd). apply sqrt_le_1_alt.
  pose proof (INR_len_pos a Hne) as Hn.
  apply Rmult_le_reg_r with (INR (length a)); [exact Hn|].
  unfold Rdiv. rewrite Rmult_assoc, Rinv_l, Rmult_1_r by lra.
  apply Rle_trans with (Sum (fun _ => d * d)%R (combine a b)).
  - apply Sum_le. intros p Hp. destruct (in_combine_nth _ _ _ Hp) as (i & H1 & H2).
    specialize (H i _ _ H1 H2). change (Rsqr (fst p - snd p) <= Rsqr d)%R.
    apply Rsqr_le_abs_1. rewrite (Rabs_right d) by lra. exact H.
  - rewrite Sum_const, combine_length, <- Hl, Nat.min_id. lra.
Qed.

Lemma rms_affine s t a b : rms (map (fun x => s * x + t)%R a) (map (fun x => s * x + t)%R b)
  = (Rabs s * rms a b)%R.
Proof.
  unfold rms. rewrite map_length. rewrite <- (sqrt_Rsqr_abs s).
  rewrite <- sqrt_mult_alt by apply Rle_0_sqr. f_equal.
  unfold Rdiv. rewrite <- Rmult_assoc. f_equal. rewrite <- Sum_scale.
  revert b; induction a as [|x a IH]; intros [|y b]; cbn [map combine]; try reflexivity.
  rewrite !Sum_cons, IH. cbn [fst snd]. unfold Rsqr. ring.
Qed.

(** ** PSNR *)

Lemma list_eqbR_eq a b : list_eqbR a b = true <-> a = b.
Proof.
  revert b; induction a as [|x a IH]; intros [|y b]; cbn [list_eqbR]; split; intros H;
    try discriminate; try reflexivity.
  - apply andb_true_iff in H as [H1 H2]. apply IH in H2. destruct (Req_EM_T x y); congruence.
  - injection H as -> ->. apply andb_true_iff. split; [|apply IH; reflexivity].
    destruct (Req_EM_T y y); congruence.
Qed.

Lemma ln10_pos : (0 < ln 10)%R.
Proof. rewrite <- ln_1. apply ln_increasing; lra. Qed.

Lemma psnr_value dr a b : (0 < dr)%R -> a <> [] -> length a = length b -> a <> b ->
  psnr dr a b = Fin (20 * log10 (dr / rms a b)).
Proof.
  intros Hd Hne Hl Hab. unfold psnr.
  destruct (list_eqbR a b) eqn:E; [apply list_eqbR_eq in E; contradiction|].
  unfold mse. destruct a as [|x a0] eqn:Ea; [contradiction|]. rewrite <- Ea in *. clear E.
  destruct (Req_EM_T dr 0); [lra|]. f_equal. rewrite sum_sq_diff_Sum.
  pose proof (rms_nonneg a b) as N. assert (Hz : rms a b <> 0%R).
  { intros Hz. apply (rms_zero a b Hne Hl) in Hz; contradiction. }
  assert (E2 : (Sum (fun p : R * R => (fst p - snd p) * (fst p - snd p)) (combine a b)
                / INR (length a) = rms a b * rms a b)%R).
  { unfold rms. rewrite sqrt_sqrt; [reflexivity|]. apply Rmult_le_pos; [apply sumsq_nonneg|].
    left. apply Rinv_0_lt_compat, INR_len_pos, Hne. }
  rewrite E2. unfold log10.
  replace (dr * dr / (rms a b * rms a b))%R with ((dr / rms a b) * (dr / rms a b))%R by (field; exact Hz).
  assert (0 < dr / rms a b)%R by (apply Rdiv_lt_0_compat; lra).
  rewrite ln_mult by assumption. field. pose proof ln10_pos. lra.
Qed.

Lemma psnr_inf dr a b : (0 < dr)%R -> a <> [] -> length a = length b ->
  (psnr dr a b = PInf <-> a = b).
Proof.
  intros Hd Hne Hl. split.
  - intros H. destruct (list_eqbR a b) eqn:E; [apply list_eqbR_eq, E|].
    assert (Hab : a <> b) by (intros Hab; apply list_eqbR_eq in Hab; congruence).
    rewrite psnr_value in H by assumption. discriminate.
  - intros ->. unfold psnr. rewrite (proj2 (list_eqbR_eq b b) eq_refl). reflexivity.
Qed.

Lemma psnr_sym dr a b : (0 < dr)%R -> a <> [] -> length a = length b -> psnr dr a b = psnr dr b a.
Proof.
  intros Hd Hne Hl. destruct (list_eqbR a b) eqn:E.
  - apply list_eqbR_eq in E. subst. reflexivity.
  - assert (Hab : a <> b) by (intros Hab; apply list_eqbR_eq in Hab; congruence).
    assert (b <> []) by (intros ->; apply Hne; destruct a; [reflexivity|discriminate]).
    rewrite !psnr_value by auto. rewrite (rms_sym a b Hl). reflexivity.
Qed.

Lemma log10_lt x y : (0 < x)%R -> (0 < y)%R -> (log10 x < log10 y <-> x < y)%R.
Proof.
  intros Hx Hy. unfold log10. pose proof ln10_pos as L. split.
  - intros H. apply ln_lt_inv; [assumption..|]. apply Rmult_lt_reg_r with (/ ln 10)%R; [|exact H].
    apply Rinv_0_lt_compat, L.
  - intros H. apply Rmult_lt_compat_r; [apply Rinv_0_lt_compat, L|]. apply ln_increasing; assumption.
Qed.

Lemma log10_1 : log10 1 = 0%R.
Proof. unfold log10. rewrite ln_1. unfold Rdiv. apply Rmult_0_l. Qed.

Lemma psnr_nonneg dr a b : (0 < dr)%R -> a <> [] -> length a = length b -> a <> b ->
  (exists v, psnr dr a b = Fin v /\ (0 <= v <-> rms a b <= dr)%R).
Proof.
  intros Hd Hne Hl Hab. rewrite psnr_value by assumption. eexists. split; [reflexivity|].
  assert (Hr : (0 < rms a b)%R).
  { pose proof (rms_nonneg a b). assert (rms a b <> 0%R) by (intros Hz; apply rms_zero in Hz; auto). lra. }
  assert (Hq : (0 < dr / rms a b)%R) by (apply Rdiv_lt_0_compat; lra).
  assert (K : (log10 (dr / rms a b) < 0 <-> dr / rms a b < 1)%R).
  { rewrite <- log10_1. apply log10_lt; lra. }
  assert (K2 : (dr / rms a b < 1 <-> dr < rms a b)%R).
  { split; intros H.
    - apply Rmult_lt_reg_r with (/ rms a b)%R; [apply Rinv_0_lt_compat, Hr|].
      rewrite Rinv_r by lra. exact H.
    - replace 1%R with (rms a b * / rms a b)%R by (apply Rinv_r; lra).
      apply Rmult_lt_compat_r; [apply Rinv_0_lt_compat, Hr|exact H]. }
  split; intros H.
  - destruct (Rle_dec (rms a b) dr); [assumption|]. assert (dr < rms a b)%R by lra.
    apply K2, K in H0. lra.
  - destruct (Rle_dec 0 (20 * log10 (dr / rms a b))); [assumption|].
    assert (log10 (dr / rms a b) < 0)%R by lra. apply K, K2 in H0. lra.
Qed.

(** Ranking, infinities included. *)
Lemma psnr_rank dr r m1 m2 : (0 < dr)%R -> r <> [] -> length r = length m1 -> length r = length m2 ->
  elt (psnr dr r m1) (psnr dr r m2) <-> (rms r m2 < rms r m1)%R.
Proof.
  intros Hd Hne H1 H2.
  assert (D : forall m, r = m \/ r <> m).
  { intros m. destruct (list_eqbR r m) eqn:E; [left; apply list_eqbR_eq, E|].
    right. intros Hm. apply list_eqbR_eq in Hm. congruence. }
  assert (P : forall m, length r = length m -> r <> m -> (0 < rms r m)%R).
  { intros m Hm Hn. pose proof (rms_nonneg r m).
    assert (rms r m <> 0%R) by (intros Hz; apply rms_zero in Hz; auto). lra. }
  destruct (D m1) as [E1|E1], (D m2) as [E2|E2].
  - subst m1 m2. rewrite (proj2 (psnr_inf dr r r Hd Hne eq_refl)) by reflexivity. simpl. split; [tauto|lra].
  - subst m1. rewrite (proj2 (psnr_inf dr r r Hd Hne eq_refl)) by reflexivity.
    rewrite (psnr_value dr r m2) by assumption. simpl. split; [tauto|].
    rewrite (proj2 (rms_zero r r Hne eq_refl) eq_refl). pose proof (rms_nonneg r m2). lra.
  - subst m2. rewrite (proj2 (psnr_inf dr r r Hd Hne eq_refl)) by reflexivity.
    rewrite (psnr_value dr r m1) by assumption. simpl. split; [|tauto]. intros _.
    rewrite (proj2 (rms_zero r r Hne eq_refl) eq_refl). apply P; assumption.
  - rewrite !psnr_value by assumption. simpl. pose proof (P m1 H1 E1) as P1. pose proof (P m2 H2 E2) as P2.
    assert (Q1 : (0 < dr / rms r m1)%R) by (apply Rdiv_lt_0_compat; lra).
    assert (Q2 : (0 < dr / rms r m2)%R) by (apply Rdiv_lt_0_compat; lra).
    pose proof (log10_lt _ _ Q1 Q2) as K. split; intros H.
    + assert (H' : (dr / rms r m1 < dr / rms r m2)%R) by (apply K; lra).
      unfold Rdiv in H'. apply Rmult_lt_reg_l in H'; [|exact Hd].
      rewrite <- (Rinv_inv (rms r m1)), <- (Rinv_inv (rms r m2)).
      apply Rinv_lt_contravar; [|exact H']. apply Rmult_lt_0_compat; apply Rinv_0_lt_compat; assumption.
    + assert (H' : (log10 (dr / rms r m1) < log10 (dr / rms r m2))%R); [|lra].
      apply K. apply Rmult_lt_compat_l; [exact Hd|]. apply Rinv_lt_contravar; [|exact H].
      apply Rmult_lt_0_compat; assumption.
Qed.

Lemma psnr_shift d1 d2 a b : (0 < d1)%R -> (0 < d2)%R -> a <> [] -> length a = length b -> a <> b ->
  exists v, psnr d1 a b = Fin v /\ psnr d2 a b = Fin (v + 20 * log10 (d2 / d1)).
Proof.
  intros H1 H2 Hne Hl Hab. rewrite !psnr_value by assumption. eexists. split; [reflexivity|].
  f_equal. assert (Hr : (0 < rms a b)%R).
  { pose proof (rms_nonneg a b). assert (rms a b <> 0%R) by (intros Hz; apply rms_zero in Hz; auto). lra. }
  assert (0 < d1 / rms a b)%R by (apply Rdiv_lt_0_compat; lra).
  assert (0 < d2 / d1)%R by (apply Rdiv_lt_0_compat; lra).
  unfold log10. pose proof ln10_pos.
  replace (d2 / rms a b)%R with ((d1 / rms a b) * (d2 / d1))%R by (field; lra).
  rewrite ln_mult by assumption. field. lra.
Qed.

(** ** From images to scores *)

(** Options under which the loader hands the pixels through unchanged. *)
Definition plain (m : metric) : Prop :=
  flag_of (dget (m_params m) "normalize") = false /\
  roi_of (dget (m_params m) "roi") = [] /\
  flag_of (dget (m_params m) "chromatic") = false.

Lemma load_images_plain disk ident ub m ra ma :
  plain m -> dt ra = dt ma -> shape ra = shape ma -> dims_ok (shape ra) -> last (shape ra) 0 <> 3 ->
  load_images disk ident ub m (InArray ra) (InArray ma) = Ok (NImg ra, NImg ma).
Proof.
  intros (Hn & Hr & Hc) Ht Hs Hd Hl. unfold load_images, check_imgs. rewrite Hn, Hr, Hc.
  rewrite !load_data_passthrough, <- Hs.
  assert (E : (length (shape ra) =? 2) || (length (shape ra) =? 3) = true).
  { destruct Hd as [-> | ->]; reflexivity. }
  rewrite E. cbn [bind check_loaded o_type o_shape]. rewrite <- Ht, <- Hs.
  rewrite (proj2 (dtype_eqb_eq _ _) eq_refl), (proj2 (shape_eqb_eq _ _) eq_refl).
  cbn [negb andb]. destruct (Nat.eqb_spec (last (shape ra) 0) 3); [contradiction|]. reflexivity.
Qed.

Definition pixel_list (im : image) : list R := dat (to_float (px im)).

Lemma rmse_score_plain disk ident ub u m ra ma :
  plain m -> dt ra = dt ma -> shape ra = shape ma -> dims_ok (shape ra) -> last (shape ra) 0 <> 3 ->
  pixel_list ra <> [] ->
  rmse_score disk ident ub u m (InArray ra) (InArray ma)
  = Ok (Fin (rms (pixel_list ra) (pixel_list ma)),
        set_score m (SNum (Fin (rms (pixel_list ra) (pixel_list ma))))).
Proof.
  intros Hp Ht Hs Hd Hl Hne. unfold rmse_score. rewrite load_images_plain by assumption.
  cbn [bind on_pixels]. fold (pixel_list ra) (pixel_list ma). rewrite rmse_fin by exact Hne. reflexivity.
Qed.

Lemma psnr_score_plain disk ident ub u m ra ma d :
  plain m -> dget (m_params m) "data_range" = Some (PInt d) ->
  dt ra = dt ma -> shape ra = shape ma -> dims_ok (shape ra) -> last (shape ra) 0 <> 3 ->
  psnr_score disk ident ub u m (InArray ra) (InArray ma)
  = Ok (psnr (IZR d) (pixel_list ra) (pixel_list ma),
        set_score m (SNum (psnr (IZR d) (pixel_list ra) (pixel_list ma)))).
Proof.
  intros Hp Hr Ht Hs Hd Hl. unfold psnr_score. rewrite load_images_plain by assumption.
  cbn [bind]. rewrite Hr. reflexivity.
Qed.

Lemma pixel_list_inj ra ma :
  (match px ra, px ma with PI _, PI _ | PF _, PF _ => True | _, _ => False end) ->
  dt ra = dt ma -> shape ra = shape ma -> pixel_list ra = pixel_list ma -> ra = ma.
Proof.
  destruct ra as [d1 [a|a]], ma as [d2 [b|b]]; simpl; try contradiction; intros _ Ht Hs Hp; subst;
    unfold shape in Hs; unfold pixel_list in Hp; simpl in Hs, Hp; destruct a as [s l], b as [s' l'];
    simpl in *; subst; do 3 f_equal; try exact Hp.
  revert l' Hp; induction l as [|x l IH]; intros [|y l'] H; try discriminate; [reflexivity|].
  injection H as H1 H2. apply eq_IZR in H1. f_equal; auto.
Qed.
