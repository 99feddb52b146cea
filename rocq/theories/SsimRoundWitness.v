(** Single images evaluated in single precision, for the counterexamples of SsimRoundProps. *)
From Coq Require Import Reals Lra Psatz.
From Verif Require Import Base NdArray LoadModel LoadProofs NormModel NormProofs PairModel PairProofs RealSums
  MetricModel SsimModel SsimProofs SsimProps SsimRoundModel RoundProofs SsimRoundProofs.
Local Open Scope R_scope.

(** ** Evaluation of roundings *)

Lemma float32_near x m e : (2 ^ 23 < m < 2 ^ 24)%Z -> Rabs (x - IZR m * pow2 e) < pow2 e / 2 ->
  float32 x = IZR m * pow2 e.
Proof.
  intros Hm H. replace e with ((e + 23) - (24 - 1))%Z by lia. apply round_at; [lia| |].
  - pose proof (pow2_pos e) as Pe. apply Rabs_def2 in H.
    assert (M1 : 8388609 <= IZR m) by (apply IZR_le; lia). assert (M2 : IZR m <= 16777215) by (apply IZR_le; lia).
    rewrite !pow2_plus. rewrite (pow2_Z 23), (pow2_Z 1) by lia. change (IZR (2 ^ 23)) with 8388608. change (IZR (2 ^ 1)) with 2.
    assert (8388609 * pow2 e <= IZR m * pow2 e) by (apply Rmult_le_compat_r; lra).
    assert (IZR m * pow2 e <= 16777215 * pow2 e) by (apply Rmult_le_compat_r; lra).
    rewrite Rabs_right by lra. lra.
  - replace (e + 23 - (24 - 1))%Z with e by lia. replace (e + 23 - 24)%Z with (e - 1)%Z by lia.
    rewrite pow2_minus. rewrite (pow2_Z 1) by lia. change (IZR (2 ^ 1)) with 2. exact H.
Qed.

(** Result m / 2^n *)
Lemma float32_frac x m n : (2 ^ 23 < m < 2 ^ 24)%Z -> (0 <= n)%Z ->
  IZR m - 1 / 2 < x * IZR (2 ^ n) < IZR m + 1 / 2 -> float32 x = IZR m / IZR (2 ^ n).
Proof.
  intros Hm Hn H. unfold Rdiv. rewrite <- pow2_Z, <- pow2_opp by exact Hn. apply float32_near; [exact Hm|].
  rewrite pow2_opp, pow2_Z by exact Hn. assert (T : 0 < IZR (2 ^ n)) by (apply IZR_lt, Z.pow_pos_nonneg; lia).
  apply Rabs_def1; apply Rmult_lt_reg_r with (IZR (2 ^ n)); try exact T; field_simplify; lra.
Qed.

(** Result m * 2^n *)
Lemma float32_mult x m n : (2 ^ 23 < m < 2 ^ 24)%Z -> (0 <= n)%Z ->
  (IZR m - 1 / 2) * IZR (2 ^ n) < x < (IZR m + 1 / 2) * IZR (2 ^ n) -> float32 x = IZR m * IZR (2 ^ n).
Proof.
  intros Hm Hn H. rewrite <- pow2_Z by exact Hn. apply float32_near; [exact Hm|].
  rewrite pow2_Z by exact Hn. apply Rabs_def1; lra.
Qed.

Lemma float32_tie x m n : (2 ^ 23 <= m < 2 ^ 24)%Z -> (0 <= n)%Z ->
  x * IZR (2 ^ n) = IZR m + 1 / 2 -> float32 x = IZR (if Z.even m then m else m + 1) / IZR (2 ^ n).
Proof.
  intros Hm Hn H. assert (T : 0 < IZR (2 ^ n)) by (apply IZR_lt, Z.pow_pos_nonneg; lia).
  assert (E : x = (IZR m + 1 / 2) * pow2 (- n)).
  { rewrite pow2_opp, pow2_Z by exact Hn. rewrite <- H. field. lra. }
  unfold Rdiv. rewrite <- pow2_Z, <- pow2_opp by exact Hn.
  replace (- n)%Z with ((23 - n) - (24 - 1))%Z in * by lia. apply round_tie; [lia| |exact E].
  assert (M1 : 8388608 <= IZR m) by (apply IZR_le; lia). assert (M2 : IZR m <= 16777215) by (apply IZR_le; lia).
  replace (23 - n - (24 - 1))%Z with (- n)%Z in E by lia. pose proof (pow2_pos (- n)) as Pe. rewrite E.
  rewrite Rabs_right by nra. replace (23 - n)%Z with (- n + 23)%Z by lia. rewrite !pow2_plus.
  rewrite (pow2_Z 23), (pow2_Z 1) by lia. change (IZR (2 ^ 23)) with 8388608. change (IZR (2 ^ 1)) with 2. nra.
Qed.

Lemma sqrt_between a b v : 0 <= a -> 0 <= b -> a * a < v < b * b -> a < sqrt v < b.
Proof.
  intros Ha Hb [H1 H2]. assert (V : 0 <= v) by nra. split.
  - rewrite <- (sqrt_square a Ha). apply sqrt_lt_1; nra.
  - rewrite <- (sqrt_square b Hb). apply sqrt_lt_1; nra.
Qed.

(** ** Images whose pixels depend on the row only *)

Definition rows (n p : nat) (f : nat -> R) : arr R := tabulate [n; p] (fun idx => f (nth 0 idx 0%nat)).

Lemma getd_rows n p f i j : (i < n)%nat -> (j < p)%nat -> getd (rows n p f) [i; j] = f i.
Proof.
  intros Hi Hj. unfold rows. rewrite getd_tab; [reflexivity|]. cbn [inb]. apply andb_true_intro. split; [apply Nat.ltb_lt, Hi|].
  apply andb_true_intro. split; [apply Nat.ltb_lt, Hj|reflexivity].
Qed.

Lemma rows_ext n p f g : (forall i, (i < n)%nat -> f i = g i) -> rows n p f = rows n p g.
Proof.
  intros H. unfold rows, tabulate. f_equal. apply map_ext_in. intros idx Hi. apply in_indices in Hi. apply H.
  destruct idx as [|i idx]; [discriminate|]. cbn [inb] in Hi. apply andb_true_iff in Hi as [Hi _]. apply Nat.ltb_lt in Hi. exact Hi.
Qed.

Lemma amap_rows F n p f : amap F (rows n p f) = rows n p (fun i => F (f i)).
Proof. unfold amap, rows, tabulate. cbn [shp dat]. f_equal. rewrite map_map. reflexivity. Qed.

Lemma inb2 n p idx : inb [n; p] idx = true -> exists i j, idx = [i; j] /\ (i < n)%nat /\ (j < p)%nat.
Proof.
  intros H. destruct idx as [|i [|j [|? ?]]]; cbn [inb] in H; try discriminate.
  - rewrite andb_false_r in H. discriminate.
  - apply andb_true_iff in H as [H1 H2]. apply andb_true_iff in H2 as [H2 _].
    apply Nat.ltb_lt in H1. apply Nat.ltb_lt in H2. eauto.
  - rewrite !andb_false_r in H. discriminate.
Qed.

Lemma amul_rows rnd n p f g : amul_r rnd (rows n p f) (rows n p g) = rows n p (fun i => rnd (f i * g i)).
Proof.
  unfold amul_r. change (shp (rows n p f)) with [n; p]. unfold rows at 3, tabulate. f_equal. apply map_ext_in. intros idx Hi.
  apply in_indices in Hi. destruct (inb2 _ _ _ Hi) as (i & j & -> & Hi' & Hj'). rewrite !getd_rows by assumption. reflexivity.
Qed.

(** Filtering such an image: sums over rows, rounded once. *)
Lemma filter_rows rnd ws md c n p f i j : Sum snd ws = 1 -> md <> Constant -> (forall x, rnd (rnd x) = rnd x) ->
  (i < n)%nat -> (j < p)%nat ->
  (forall ow, In ow ws -> (0 <= Z.of_nat i + fst ow < Z.of_nat n)%Z) ->
  getd (filter_nd_r rnd ws md c (rows n p f)) [i; j] = rnd (Sum (fun ow => snd ow * f (Z.to_nat (Z.of_nat i + fst ow))) ws).
Proof.
  intros Hw Hm Hid Hi Hj Hin. unfold filter_nd_r. change (shp (rows n p f)) with [n; p]. cbn [length seq fold_left].
  set (g := fun k => rnd (Sum (fun ow => snd ow * sample md c (rows n p f) 0 [k; 0%nat] (fst ow)) ws)).
  assert (E : filter_axis_r rnd ws md c (rows n p f) 0 = rows n p g).
  { unfold filter_axis_r. change (shp (rows n p f)) with [n; p]. unfold rows at 2, tabulate. f_equal. apply map_ext_in. intros idx Hx.
    apply in_indices in Hx. destruct (inb2 _ _ _ Hx) as (k & l & -> & Hk & Hl). unfold g. f_equal. apply Sum_ext. intros ow _. f_equal.
    unfold sample. cbn [nth]. change (shp (rows n p f)) with [n; p]. cbn [nth].
    destruct (pad_pos_some md n (Z.of_nat k + fst ow) Hm) as [q Hq]. rewrite Hq. cbn [upd].
    assert (q < n)%nat by (eapply pad_pos_lt; [|exact Hq]; lia). rewrite !getd_rows by lia. reflexivity. }
  rewrite E. unfold filter_axis_r. change (shp (rows n p g)) with [n; p].
  rewrite getd_tab by (cbn [inb]; apply andb_true_intro; split; [apply Nat.ltb_lt, Hi|];
                       apply andb_true_intro; split; [apply Nat.ltb_lt, Hj|reflexivity]).
  rewrite (Sum_ext _ (fun ow => g i * snd ow)).
  - rewrite Sum_scale, Hw, Rmult_1_r. unfold g. rewrite Hid. f_equal. apply Sum_ext. intros ow How. f_equal.
    unfold sample. cbn [nth]. change (shp (rows n p f)) with [n; p]. cbn [nth].
    rewrite pad_pos_in by (apply Hin, How). cbn [upd]. apply getd_rows; [|lia]. specialize (Hin ow How). lia.
  - intros ow _. unfold sample. cbn [nth]. change (shp (rows n p g)) with [n; p]. cbn [nth].
    destruct (pad_pos_some md p (Z.of_nat j + fst ow) Hm) as [q Hq]. rewrite Hq. cbn [upd].
    assert (q < p)%nat by (eapply pad_pos_lt; [|exact Hq]; lia). rewrite getd_rows by lia. ring.
Qed.

(** The score of an image that is as large as the window is its middle pixel. *)
Lemma centre_score rnd big r m kw P h : (0 < h)%nat -> shp r = [2 * h + 1; 2 * h + 1]%nat ->
  ssim_setup (shp r) kw = Ok P -> p_pad P = Z.of_nat h ->
  (forall w, dget kw "win_size" = Some (KInt w) -> (0 < w)%Z) ->
  structural_similarity_r rnd big r m kw =
  Ok (Fin (getd (ssim_map_r rnd big P (amap rnd r) (amap rnd m)) [h; h])).
Proof.
  intros Hh Hs HP Hp Hw. destruct (returns_r rnd big r m kw P HP) as [e He].
  destruct (values_r _ _ _ _ _ _ He Hw) as (P' & l & HP' & -> & Hl & Hx). rewrite HP in HP'. injection HP' as <-.
  set (c := getd (ssim_map_r rnd big P (amap rnd r) (amap rnd m)) [h; h]).
  destruct (mean_within l c c Hl) as (v & Hv & B).
  - intros x Hin. destruct (Hx x Hin) as (idx & Hi & -> & Hb). rewrite Hs in Hi, Hb.
    destruct (inb2 _ _ _ Hi) as (i & j & -> & Hi' & Hj'). rewrite Hp, Nat2Z.id in Hb.
    pose proof (Hb 0%nat ltac:(cbn; lia)) as B0. pose proof (Hb 1%nat ltac:(cbn; lia)) as B1. cbn [nth] in B0, B1.
    assert (i = h) by lia. assert (j = h) by lia. subst i j. unfold c. lra.
  - rewrite He, Hv. do 2 f_equal. lra.
Qed.

(** ** The default window: Gaussian, sigma 1.5, 11 pixels *)

Definition P11 (dr : R) : ssim_params :=
  SsimParams (gaussian_weights (15 / 10) 5) Reflect 0 5 1 (1 / 100 * dr * (1 / 100 * dr)) (3 / 100 * dr * (3 / 100 * dr)) 1 1 1.

Lemma radius_default : gauss_radius (15 / 10) = 5%nat.
Proof.
  unfold gauss_radius. replace (35 / 10 * (15 / 10) + 5 / 10) with (IZR 23 / IZR 4) by lra.
  rewrite Rtrunc_div by lia. reflexivity.
Qed.

Lemma trunc_1 : Rtrunc 1 = 1%Z.
Proof. change 1 with (IZR 1). apply Rtrunc_IZR. lia. Qed.

Lemma default_setup dr : ssim_setup [11; 11]%nat (default_opts dr) = Ok (P11 dr).
Proof.
  unfold default_opts. rewrite setup_opts by lra. cbv zeta. rewrite default_window.
  change (existsb (fun n => (Z.of_nat n <? 11)%Z) [11; 11]%nat) with false. change (Z.even 11) with false.
  cbv iota. cbn [andb bind]. destruct (Rlt_dec (1 / 10 ^ 15) (15 / 10)) as [_|C]; [|exfalso; apply C; simpl; lra].
  change (mode_of "reflect") with (Some Reflect). cbn [from_opt bind]. rewrite trunc_1, radius_default. reflexivity.
Qed.

(** exp (-2/9), from (1 - 1/288)^64 <= it <= (1 + 1/288)^-64 *)
Lemma exp_29 : 8003 / 10000 < exp (- (2 / 9)) < 8011 / 10000.
Proof.
  set (b := exp (- (1 / 288))). assert (B0 : 0 < b) by apply exp_pos.
  assert (L : 287 / 288 <= b).
  { pose proof (exp_ineq1_le (- (1 / 288))). unfold b. lra. }
  assert (U : b <= 288 / 289).
  { pose proof (exp_ineq1_le (1 / 288)) as T. assert (E : exp (1 / 288) = / b).
    { unfold b. rewrite exp_Ropp. rewrite Rinv_inv. reflexivity. }
    rewrite E in T. apply Rmult_le_reg_r with (/ b); [apply Rinv_0_lt_compat, B0|]. rewrite Rinv_r by lra. lra. }
  assert (E : forall x, exp (x + x) = exp x * exp x) by (intros; apply exp_plus).
  assert (S : forall x y l u l' u', y = x + x -> 0 <= l -> l <= exp x <= u -> l' <= l * l -> u * u <= u' -> l' <= exp y <= u').
  { intros x y l u l' u' -> Hl [H1 H2] H3 H4. rewrite E. split; [apply Rle_trans with (l * l); [exact H3|]|apply Rle_trans with (u * u); [|exact H4]];
      apply Rmult_le_compat; lra. }
  assert (T0 : 996527 / 1000000 <= exp (- (1 / 288)) <= 996540 / 1000000) by (fold b; lra).
  assert (T1 : 993066 / 1000000 <= exp (- (1 / 144)) <= 993092 / 1000000) by (refine (S _ _ _ _ _ _ _ _ T0 _ _); lra).
  assert (T2 : 986180 / 1000000 <= exp (- (1 / 72)) <= 986232 / 1000000) by (refine (S _ _ _ _ _ _ _ _ T1 _ _); lra).
  assert (T3 : 972550 / 1000000 <= exp (- (1 / 36)) <= 972654 / 1000000) by (refine (S _ _ _ _ _ _ _ _ T2 _ _); lra).
  assert (T4 : 945853 / 1000000 <= exp (- (1 / 18)) <= 946056 / 1000000) by (refine (S _ _ _ _ _ _ _ _ T3 _ _); lra).
  assert (T5 : 894637 / 1000000 <= exp (- (1 / 9)) <= 895022 / 1000000) by (refine (S _ _ _ _ _ _ _ _ T4 _ _); lra).
  assert (T6 : 800370 / 1000000 <= exp (- (2 / 9)) <= 801065 / 1000000) by (refine (S _ _ _ _ _ _ _ _ T5 _ _); lra).
  lra.
Qed.

Lemma default_weights : exists w0 w1 w2 w3 w4 w5,
  gaussian_weights (15 / 10) 5 = [(-5, w5); (-4, w4); (-3, w3); (-2, w2); (-1, w1); (0, w0); (1, w1); (2, w2); (3, w3); (4, w4); (5, w5)]%Z /\
  w0 + 2 * (w1 + w2 + w3 + w4 + w5) = 1 /\ 10100 / 10000000 < w5 < 10450 / 10000000 /\
  0 < w0 /\ 0 < w1 /\ 0 < w2 /\ 0 < w3 /\ 0 < w4 /\ 49 / 100 < 2 * (w1 + w3 + w5) < 51 / 100.
Proof.
  pose proof exp_29 as A. set (a := exp (- (2 / 9))) in *.
  assert (G : forall k, gauss (15 / 10) k = a ^ Z.to_nat (k * k)).
  { intros k. unfold gauss, a. assert (Hk : (0 <= k * k)%Z) by nia. remember (Z.to_nat (k * k)) as n.
    assert (E : IZR k * IZR k = INR n) by (subst n; rewrite INR_IZR_INZ, Z2Nat.id, mult_IZR by lia; reflexivity).
    rewrite E. clear. induction n as [|n IH].
    - simpl INR. replace (- 0 / (2 * (15 / 10 * (15 / 10)))) with 0 by lra. apply exp_0.
    - rewrite S_INR. cbn [pow]. rewrite <- IH, <- exp_plus. f_equal. lra. }
  set (t := Sum (gauss (15 / 10)) (offsets 5)).
  exists (1 / t), (a / t), (a ^ 4 / t), (a ^ 9 / t), (a ^ 16 / t), (a ^ 25 / t).
  assert (Et : t = 1 + 2 * (a + a ^ 4 + a ^ 9 + a ^ 16 + a ^ 25)).
  { unfold t. change (offsets 5) with [-5; -4; -3; -2; -1; 0; 1; 2; 3; 4; 5]%Z. unfold Sum, rsum. cbn [map fold_right].
    rewrite !G. change (Z.to_nat (-5 * -5)) with 25%nat. change (Z.to_nat (-4 * -4)) with 16%nat. change (Z.to_nat (-3 * -3)) with 9%nat. change (Z.to_nat (-2 * -2)) with 4%nat. change (Z.to_nat (-1 * -1)) with 1%nat. change (Z.to_nat (0 * 0)) with 0%nat. change (Z.to_nat (1 * 1)) with 1%nat. change (Z.to_nat (2 * 2)) with 4%nat. change (Z.to_nat (3 * 3)) with 9%nat. change (Z.to_nat (4 * 4)) with 16%nat. change (Z.to_nat (5 * 5)) with 25%nat. ring. }
  assert (P2 : 6404 / 10000 < a ^ 2 < 6418 / 10000) by (cbn [pow]; split; nra).
  assert (P4 : 4101 / 10000 < a ^ 4 < 4120 / 10000).
  { replace (a ^ 4) with (a ^ 2 * a ^ 2) by ring. set (y := a ^ 2) in *. split; nra. }
  assert (P8 : 16818 / 100000 < a ^ 8 < 16975 / 100000).
  { replace (a ^ 8) with (a ^ 4 * a ^ 4) by ring. set (y := a ^ 4) in *. split; nra. }
  assert (P9 : 13459 / 100000 < a ^ 9 < 13600 / 100000).
  { replace (a ^ 9) with (a ^ 8 * a) by ring. set (y := a ^ 8) in *. split; nra. }
  assert (P16 : 2828 / 100000 < a ^ 16 < 2882 / 100000).
  { replace (a ^ 16) with (a ^ 8 * a ^ 8) by ring. set (y := a ^ 8) in *. split; nra. }
  assert (P25 : 38060 / 10000000 < a ^ 25 < 39196 / 10000000).
  { replace (a ^ 25) with (a ^ 16 * a ^ 9) by ring. set (y := a ^ 16) in *. set (z := a ^ 9) in *. split; nra. }
  set (a4 := a ^ 4) in *. set (a9 := a ^ 9) in *. set (a16 := a ^ 16) in *. set (a25 := a ^ 25) in *. clear P2 P8.
  assert (T : 0 < t) by lra. assert (I : 0 < / t) by (apply Rinv_0_lt_compat, T).
  assert (Q : forall x y, x < y * t -> x / t < y).
  { intros x y H. apply Rmult_lt_reg_r with t; [exact T|]. unfold Rdiv. rewrite Rmult_assoc, Rinv_l by lra. lra. }
  assert (Q' : forall x y, y * t < x -> y < x / t).
  { intros x y H. apply Rmult_lt_reg_r with t; [exact T|]. unfold Rdiv. rewrite Rmult_assoc, Rinv_l by lra. lra. }
  split; [|split; [|split; [|repeat split]]].
  - unfold gaussian_weights. fold t. change (offsets 5) with [-5; -4; -3; -2; -1; 0; 1; 2; 3; 4; 5]%Z. cbn [map].
    rewrite !G. change (Z.to_nat (-5 * -5)) with 25%nat. change (Z.to_nat (-4 * -4)) with 16%nat. change (Z.to_nat (-3 * -3)) with 9%nat. change (Z.to_nat (-2 * -2)) with 4%nat. change (Z.to_nat (-1 * -1)) with 1%nat. change (Z.to_nat (0 * 0)) with 0%nat. change (Z.to_nat (1 * 1)) with 1%nat. change (Z.to_nat (2 * 2)) with 4%nat. change (Z.to_nat (3 * 3)) with 9%nat. change (Z.to_nat (4 * 4)) with 16%nat. change (Z.to_nat (5 * 5)) with 25%nat.
    fold a4 a9 a16 a25. rewrite pow_1, pow_O. reflexivity.
  - replace (1 / t + 2 * (a / t + a4 / t + a9 / t + a16 / t + a25 / t)) with ((1 + 2 * (a + a4 + a9 + a16 + a25)) / t) by (field; lra).
    rewrite <- Et. field. lra.
  - split; [apply Q'|apply Q]; lra.
  - apply Q'; lra.
  - apply Q'; lra.
  - apply Q'; lra.
  - apply Q'; lra.
  - apply Q'; lra.
  - replace (2 * (a / t + a9 / t + a25 / t)) with (2 * (a + a9 + a25) / t) by (field; lra). apply Q'. lra.
  - replace (2 * (a / t + a9 / t + a25 / t)) with (2 * (a + a9 + a25) / t) by (field; lra). apply Q. lra.
Qed.

Lemma filter_11 : exists w0 w1 w2 w3 w4 w5,
  w0 + 2 * (w1 + w2 + w3 + w4 + w5) = 1 /\ 10100 / 10000000 < w5 < 10450 / 10000000 /\
  0 < w0 /\ 0 < w1 /\ 0 < w2 /\ 0 < w3 /\ 0 < w4 /\ 49 / 100 < 2 * (w1 + w3 + w5) < 51 / 100 /\
  forall rnd f, (forall x, rnd (rnd x) = rnd x) ->
    getd (filter_nd_r rnd (gaussian_weights (15 / 10) 5) Reflect 0 (rows 11 11 f)) [5; 5]%nat =
    rnd (w0 * f 5%nat + w1 * (f 4%nat + f 6%nat) + w2 * (f 3%nat + f 7%nat) + w3 * (f 2%nat + f 8%nat)
         + w4 * (f 1%nat + f 9%nat) + w5 * (f 0%nat + f 10%nat)).
Proof.
  destruct default_weights as (w0 & w1 & w2 & w3 & w4 & w5 & E & S & W5 & P0 & P1 & P2 & P3 & P4 & Q).
  exists w0, w1, w2, w3, w4, w5. repeat (split; [assumption|]). intros rnd f Hid. rewrite E.
  rewrite filter_rows; [| | |exact Hid| | |]; try lia; try discriminate.
  - f_equal. unfold Sum, rsum. cbn [map fold_right fst snd].
    change (Z.to_nat (Z.of_nat 5 + -5)) with 0%nat. change (Z.to_nat (Z.of_nat 5 + -4)) with 1%nat.
    change (Z.to_nat (Z.of_nat 5 + -3)) with 2%nat. change (Z.to_nat (Z.of_nat 5 + -2)) with 3%nat.
    change (Z.to_nat (Z.of_nat 5 + -1)) with 4%nat. change (Z.to_nat (Z.of_nat 5 + 0)) with 5%nat.
    change (Z.to_nat (Z.of_nat 5 + 1)) with 6%nat. change (Z.to_nat (Z.of_nat 5 + 2)) with 7%nat.
    change (Z.to_nat (Z.of_nat 5 + 3)) with 8%nat. change (Z.to_nat (Z.of_nat 5 + 4)) with 9%nat.
    change (Z.to_nat (Z.of_nat 5 + 5)) with 10%nat. ring.
  - unfold Sum, rsum. cbn [map fold_right snd]. lra.
  - intros ow [<-|[<-|[<-|[<-|[<-|[<-|[<-|[<-|[<-|[<-|[<-|[]]]]]]]]]]]]; cbn [fst]; lia.
Qed.

Lemma score_11 rnd big f g dr : (forall x, rnd (rnd x) = rnd x) ->
  structural_similarity_r rnd big (rows 11 11 f) (rows 11 11 g) (default_opts dr) =
  Ok (Fin (let F a := getd (filter_nd_r rnd (gaussian_weights (15 / 10) 5) Reflect 0 (rows 11 11 a)) [5; 5]%nat in
           let f' i := rnd (f i) in let g' i := rnd (g i) in
           ssim_pixel_r rnd big (P11 dr) (F f') (F g') (F (fun i => rnd (f' i * f' i))) (F (fun i => rnd (g' i * g' i)))
             (F (fun i => rnd (f' i * g' i))))).
Proof.
  intros Hid. rewrite (centre_score rnd big _ _ _ (P11 dr) 5); [|lia|reflexivity|apply default_setup|reflexivity|].
  - rewrite !amap_rows. unfold ssim_map_r. change (shp (rows 11 11 (fun i => rnd (f i)))) with [11; 11]%nat.
    rewrite getd_tab by reflexivity. rewrite !amul_rows. reflexivity.
  - discriminate.
Qed.

(** ** A reference with a computed variance below zero *)

Definition faint (i : nat) : R := if (i =? 10)%nat then 65023 else 65024.
Definition stripes (i : nat) : R := if Nat.even i then 65024 else 30000.

Lemma faint_values i : faint i = 65023 \/ faint i = 65024.
Proof. unfold faint. destruct (i =? 10)%nat; auto. Qed.
Lemma stripes_values i : stripes i = 65024 \/ stripes i = 30000.
Proof. unfold stripes. destruct (Nat.even i); auto. Qed.

Lemma hidden_exact big : exists v,
  structural_similarity big (rows 11 11 faint) (rows 11 11 stripes) (default_opts 65535) = Ok (Fin v) /\ v < 1 / 50.
Proof.
  rewrite <- ssim_id, score_11 by reflexivity. eexists. split; [reflexivity|]. cbv zeta.
  destruct filter_11 as (w0 & w1 & w2 & w3 & w4 & w5 & S & W5 & Q0 & Q1 & Q2 & Q3 & Q4 & Q & F).
  rewrite !F by reflexivity. clear F. unfold faint, stripes. cbn [Nat.eqb Nat.even]. rewrite pixel_id.
  set (q := 2 * (w1 + w3 + w5)) in *.
  assert (E0 : w0 = 1 - 2 * (w1 + w2 + w3 + w4 + w5)) by lra.
  match goal with |- ssim_pixel _ _ ?a ?b ?c ?d ?e < _ =>
    replace a with (65024 - w5) by (rewrite E0; ring); replace b with (30000 + 35024 * q) by (unfold q; rewrite E0; ring);
    replace c with (65024 * 65024 - w5 * 130047) by (rewrite E0; ring);
    replace d with (30000 * 30000 + q * 3328120576) by (unfold q; rewrite E0; ring);
    replace e with (65024 * 30000 + q * 2277400576 - w5 * 65024) by (unfold q; rewrite E0; ring) end.
  unfold ssim_pixel, P11. cbn [p_cov p_c1 p_c2 p_al p_be p_ga].
  assert (Z1 : forall x, zpow x 1 = x) by (intros x; unfold zpow; simpl; ring). rewrite !Z1.
  set (vx := 1 * (65024 * 65024 - w5 * 130047 - (65024 - w5) * (65024 - w5))).
  set (vy := 1 * (30000 * 30000 + q * 3328120576 - (30000 + 35024 * q) * (30000 + 35024 * q))).
  set (vxy := 1 * (65024 * 30000 + q * 2277400576 - w5 * 65024 - (65024 - w5) * (30000 + 35024 * q))).
  assert (Ex : vx = w5 * (1 - w5)) by (unfold vx; ring).
  assert (Ey : vy = 35024 * 35024 * (q * (1 - q))) by (unfold vy; ring).
  assert (Exy : vxy = - (35024 * (w5 * (1 - q)))) by (unfold vxy; ring).
  assert (Vx : 0 < vx) by (rewrite Ex; nra).
  assert (Vy : 294000000 < vy) by (rewrite Ey; nra).
  assert (Vxy : -20 < vxy < 0) by (rewrite Exy; nra).
  clearbody vx vy vxy. clear Ex Ey Exy.
  set (c2 := 3 / 100 * 65535 * (3 / 100 * 65535)). assert (C2 : 3865352 < c2 < 3865353) by (unfold c2; lra). clearbody c2.
  unfold osqrt. destruct (Rlt_dec vx 0) as [?|_]; [lra|]. destruct (Rlt_dec vy 0) as [?|_]; [lra|].
  pose proof (sqrt_lt_R0 vx Vx) as Sx. pose proof (sqrt_lt_R0 vy ltac:(lra)) as Sy. set (sx := sqrt vx) in *. set (sy := sqrt vy) in *.
  assert (SS : 0 < sx * sy) by (apply Rmult_lt_0_compat; assumption).
  set (c1 := 1 / 100 * 65535 * (1 / 100 * 65535)). assert (C1 : 0 < c1) by (unfold c1; lra). clearbody c1.
  set (ux := 65024 - w5). set (uy := 30000 + 35024 * q). assert (Ux : 0 < ux) by (unfold ux; lra). assert (Uy : 0 < uy) by (unfold uy; lra).
  clearbody ux uy. unfold nan1.
  assert (UU : 0 < ux * uy) by (apply Rmult_lt_0_compat; assumption).
  assert (UM : 2 * ux * uy <= ux * ux + uy * uy) by (pose proof (Rle_0_sqr (ux - uy)); unfold Rsqr in *; lra).
  destruct (Req_EM_T (ux * ux + uy * uy + c1) 0) as [?|_]; [nra|].
  destruct (Req_EM_T (vx + vy + c2) 0) as [?|_]; [lra|]. destruct (Req_EM_T (sx * sy + c2 / 2) 0) as [?|_]; [lra|].
  set (L := (2 * ux * uy + c1) / (ux * ux + uy * uy + c1)).
  assert (L1 : 0 < L <= 1).
  { unfold L. split; [apply Rdiv_lt_0_compat; lra|]. apply Rdiv_le_of; lra. }
  clearbody L.
  replace (L * ((2 * sx * sy + c2) / (vx + vy + c2)) * ((vxy + c2 / 2) / (sx * sy + c2 / 2)))
    with (L * ((2 * vxy + c2) / (vx + vy + c2))) by (field; lra).
  assert (R : 0 < (2 * vxy + c2) / (vx + vy + c2)) by (apply Rdiv_lt_0_compat; lra).
  assert (R2 : (2 * vxy + c2) / (vx + vy + c2) <= 15 / 1000) by (apply Rdiv_le_of; lra).
  nra.
Qed.

Lemma Rle_div_of a b c : 0 < b -> c * b <= a -> c <= a / b.
Proof. intros Hb H. apply Rmult_le_reg_r with b; [exact Hb|]. unfold Rdiv. rewrite Rmult_assoc, Rinv_l, Rmult_1_r by lra. exact H. Qed.

Lemma lum_value big P ux uy : 0 < p_c1 P -> lum_r float32 big P ux uy =
  float32 (float32 (float32 (float32 (2 * ux) * uy) + float32 (p_c1 P)) /
           float32 (float32 (float32 (ux * ux) + float32 (uy * uy)) + float32 (p_c1 P))).
Proof.
  intros H. unfold lum_r, nan1_r. cbv zeta. destruct (Req_EM_T _ 0) as [E|_]; [|reflexivity]. exfalso.
  apply f32_zero in E. pose proof (rnd_gt0 eps32 _ float32_rounding _ H).
  assert (N : forall x, 0 <= x -> 0 <= float32 x).
  { intros x Hx. pose proof (f32_nonneg x Hx). unfold eps32 in *. lra. }
  assert (0 <= float32 (float32 (ux * ux) + float32 (uy * uy))); [|lra].
  apply N. assert (0 <= float32 (ux * ux)) by (apply N; nra). assert (0 <= float32 (uy * uy)) by (apply N; nra). lra.
Qed.

Lemma hidden_rounded big : exists v,
  structural_similarity_r float32 big (rows 11 11 faint) (rows 11 11 stripes) (default_opts 65535) = Ok (Fin v) /\ 9 / 10 < v.
Proof.
  rewrite score_11 by apply float32_idem. eexists. split; [reflexivity|]. cbv zeta.
  destruct filter_11 as (w0 & w1 & w2 & w3 & w4 & w5 & S & W5 & Q0 & Q1 & Q2 & Q3 & Q4 & Q & F).
  rewrite !F by apply float32_idem. clear F. unfold faint, stripes. cbn [Nat.eqb Nat.even].
  set (q := 2 * (w1 + w3 + w5)) in *.
  assert (E0 : w0 = 1 - 2 * (w1 + w2 + w3 + w4 + w5)) by lra.
  rewrite (float32_small 65024), (float32_small 65023), (float32_small 30000) by lia.
  assert (X2 : float32 (65024 * 65024) = 65024 * 65024).
  { replace (65024 * 65024) with (IZR 16129 * pow2 18) by (rewrite pow2_Z by lia; change (2 ^ 18)%Z with 262144%Z; lra).
    apply float32_exact. lia. }
  assert (Y2 : float32 (65023 * 65023) = 65024 * 65024 - 130048).
  { rewrite (float32_mult _ 16515588 8); [|lia|lia|]; change (2 ^ 8)%Z with 256%Z; lra. }
  rewrite X2, Y2.
  match goal with |- _ < ssim_pixel_r _ _ _ ?a ?b ?c ?d ?e =>
    assert (Ux : a = 65024);
    [|assert (Uxx : c = 65024 * 65024 - 256);
      [|assert (Uy : exists y, 47161 < y < 47863 /\ b = float32 y); [|rewrite Ux, Uxx; destruct Uy as (y & Hy & ->); set (uyy := d); set (uxy := e)]]] end.
  - match goal with |- float32 ?x = _ => replace x with (65024 - w5) by (rewrite E0; ring) end.
    rewrite (float32_frac _ 16646144 8); [|lia|lia|]; change (2 ^ 8)%Z with 256%Z; lra.
  - match goal with |- float32 ?x = _ => replace x with (65024 * 65024 - w5 * 130048) by (rewrite E0; ring) end.
    rewrite (float32_mult _ 16516095 8); [|lia|lia|]; change (2 ^ 8)%Z with 256%Z; lra.
  - eexists. split; [|reflexivity].
    match goal with |- _ < ?x < _ => replace x with (30000 + 35024 * q) by (unfold q; rewrite E0; ring) end. lra.
  - rewrite pixel_hidden; [|apply float32_1|apply float32_idem|left].
    2:{ unfold variance_r, P11. cbn [p_cov]. rewrite float32_1, X2.
        replace (65024 * 65024 - 256 - 65024 * 65024) with (IZR (-256)) by lra.
        rewrite (float32_small (-256)) by lia. rewrite Rmult_1_l. rewrite (float32_small (-256)) by lia. lra. }
    unfold P11 at 2. cbn [p_al].
    assert (Z1 : forall x, zpow x 1 = x) by (intros x; unfold zpow; simpl; ring). rewrite !Z1.
    rewrite lum_value by (unfold P11; cbn [p_c1]; lra).
    set (u := float32 y). assert (U : 47160 < u < 47864).
    { pose proof (f32_nonneg y ltac:(lra)). unfold u. unfold eps32 in *. lra. }
    clearbody u. clear -U.
    set (c1 := float32 (p_c1 (P11 65535))). assert (C1 : 429000 < c1 < 430000).
    { pose proof (f32_nonneg (p_c1 (P11 65535)) ltac:(unfold P11; cbn [p_c1]; lra)) as B. fold c1 in B.
      unfold P11 in B. cbn [p_c1] in B. unfold eps32 in B. lra. }
    clearbody c1. rewrite (float32_double 65024), (float32_small 65024) by lia.
    set (A := float32 (2 * 65024 * u)). pose proof (f32_nonneg (2 * 65024 * u) ltac:(lra)) as HA. fold A in HA.
    set (N := float32 (A + c1)). pose proof (f32_nonneg (A + c1) ltac:(unfold eps32 in HA; lra)) as HN. fold N in HN.
    set (B := float32 (u * u)). pose proof (f32_nonneg (u * u) ltac:(nra)) as HB. fold B in HB.
    pose proof (f32_nonneg (65024 * 65024) ltac:(lra)) as HX. set (X := float32 (65024 * 65024)) in *.
    assert (B1 : 0 <= B) by (unfold eps32 in HB; nra).
    set (C := float32 (X + B)). pose proof (f32_nonneg (X + B) ltac:(unfold eps32 in HX; lra)) as HC. fold C in HC.
    set (D := float32 (C + c1)). pose proof (f32_nonneg (C + c1) ltac:(unfold eps32 in HX, HC; lra)) as HD. fold D in HD.
    assert (UU : u * u <= 95024 * u - 47160 * 47864) by nra.
    assert (Dp : 0 < D) by (unfold eps32 in HX, HC, HD; lra).
    assert (K : 94 / 100 <= N / D).
    { apply Rle_div_of; [exact Dp|]. unfold eps32 in *. lra. }
    pose proof (f32_nonneg (N / D) ltac:(lra)) as HQ. set (Q := float32 (N / D)) in *.
    pose proof (f32_nonneg Q ltac:(unfold eps32 in HQ; lra)) as HR. unfold eps32 in HQ, HR. lra.
Qed.

(** ** A score above 1 *)

Definition bright (i : nat) : R := 50607.
Definition edge (i : nat) : R := if (i =? 10)%nat then 50610 else 50607.

Lemma lum_below big P ux uy : 0 < p_c1 P -> float32 ux = ux -> 0 < ux -> 0 < uy ->
  (ux * ux + uy * uy) * (1 - eps32) <= 2 * ux * uy -> 1 - 8 * eps32 <= lum_r float32 big P ux uy.
Proof.
  intros Hc Hux Px Py Hd. rewrite lum_value by exact Hc. rewrite float32_double, Hux.
  pose proof (rnd_gt0 eps32 _ float32_rounding _ Hc) as C. set (c := float32 (p_c1 P)) in *. clearbody c.
  assert (E : eps32 = 1 / 16777216) by reflexivity.
  assert (T : 0 < 2 * ux * uy) by (rewrite Rmult_assoc; apply Rmult_lt_0_compat; [lra|apply Rmult_lt_0_compat; assumption]).
  set (t := 2 * ux * uy) in *.
  assert (X2 : 0 < ux * ux) by (apply Rmult_lt_0_compat; assumption). assert (Y2 : 0 < uy * uy) by (apply Rmult_lt_0_compat; assumption).
  pose proof (f32_nonneg t ltac:(lra)) as HA. set (A := float32 t) in *.
  pose proof (f32_nonneg (A + c) ltac:(rewrite E in HA; lra)) as HN. set (N := float32 (A + c)) in *.
  pose proof (f32_nonneg (ux * ux) ltac:(lra)) as HX. set (X := float32 (ux * ux)) in *.
  pose proof (f32_nonneg (uy * uy) ltac:(lra)) as HY. set (Y := float32 (uy * uy)) in *.
  assert (X0 : 0 <= X) by (rewrite E in HX; lra). assert (Y0 : 0 <= Y) by (rewrite E in HY; lra).
  pose proof (f32_nonneg (X + Y) ltac:(lra)) as HS. set (S := float32 (X + Y)) in *.
  assert (S0 : 0 <= S) by (rewrite E in HS; lra).
  pose proof (f32_nonneg (S + c) ltac:(lra)) as HD. set (D := float32 (S + c)) in *.
  assert (D0 : 0 < D) by (rewrite E in HD; lra).
  set (xx := ux * ux) in *. set (yy := uy * uy) in *. clearbody t xx yy A N X Y S D.
  assert (K : 1 - 13 / 2 * eps32 <= N / D) by (apply Rle_div_of; [exact D0|]; rewrite E in *; lra).
  pose proof (f32_nonneg (N / D) ltac:(rewrite E in K; lra)) as HQ. rewrite E in *. lra.
Qed.

Lemma above_one big dr : 0 < dr -> exists v,
  structural_similarity_r float32 big (rows 11 11 bright) (rows 11 11 edge) (default_opts dr) = Ok (Fin v) /\
  (1 - 20 * eps32) * (1 + 512 / (3 / 100 * dr * (3 / 100 * dr))) <= v.
Proof.
  intros Hdr. rewrite score_11 by apply float32_idem. eexists. split; [reflexivity|]. cbv zeta.
  destruct filter_11 as (w0 & w1 & w2 & w3 & w4 & w5 & S & W5 & Q0 & Q1 & Q2 & Q3 & Q4 & Q & F).
  rewrite !F by apply float32_idem. clear F. unfold bright, edge. cbn [Nat.eqb].
  assert (E0 : w0 = 1 - 2 * (w1 + w2 + w3 + w4 + w5)) by lra.
  rewrite (float32_small 50607), (float32_small 50610) by lia.
  assert (X2 : float32 (50607 * 50607) = 2561068544) by (rewrite (float32_mult _ 10004174 8); [|lia|lia|]; change (2 ^ 8)%Z with 256%Z; lra).
  assert (Y2 : float32 (50610 * 50610) = 2561372160) by (rewrite (float32_mult _ 10005360 8); [|lia|lia|]; change (2 ^ 8)%Z with 256%Z; lra).
  assert (XY : float32 (50607 * 50610) = 2561220352) by (rewrite (float32_mult _ 10004767 8); [|lia|lia|]; change (2 ^ 8)%Z with 256%Z; lra).
  rewrite X2, Y2, XY.
  match goal with |- _ <= ssim_pixel_r _ _ _ ?a ?b ?c ?d ?e =>
    assert (U1 : a = 50607); [|assert (U2 : b = 12955393 / 256); [|assert (U3 : c = 2561068544);
      [|assert (U4 : d = 2561068800); [|assert (U5 : e = 2561068800); [|rewrite U1, U2, U3, U4, U5; clear U1 U2 U3 U4 U5]]]]] end.
  - match goal with |- float32 ?x = _ => replace x with 50607 by (rewrite E0; ring) end. apply (float32_small 50607). lia.
  - match goal with |- float32 ?x = _ => replace x with (50607 + w5 * 3) by (rewrite E0; ring) end.
    rewrite (float32_frac _ 12955393 8); [|lia|lia|]; change (2 ^ 8)%Z with 256%Z; lra.
  - match goal with |- float32 ?x = _ => replace x with 2561068544 by (rewrite E0; ring) end.
    rewrite (float32_mult _ 10004174 8); [|lia|lia|]; change (2 ^ 8)%Z with 256%Z; lra.
  - match goal with |- float32 ?x = _ => replace x with (2561068544 + w5 * 303616) by (rewrite E0; ring) end.
    rewrite (float32_mult _ 10004175 8); [|lia|lia|]; change (2 ^ 8)%Z with 256%Z; lra.
  - match goal with |- float32 ?x = _ => replace x with (2561068544 + w5 * 151808) by (rewrite E0; ring) end.
    rewrite (float32_mult _ 10004175 8); [|lia|lia|]; change (2 ^ 8)%Z with 256%Z; lra.
  - unfold ssim_pixel_r. cbv zeta.
    assert (Cov : p_cov (P11 dr) = 1) by reflexivity.
    assert (V1 : variance_r float32 (P11 dr) 2561068544 50607 50607 = 0).
    { unfold variance_r. rewrite X2, Cov, float32_1. replace (2561068544 - 2561068544) with 0 by ring. rewrite f32_0, Rmult_0_r. apply f32_0. }
    assert (V2 : variance_r float32 (P11 dr) 2561068800 (12955393 / 256) (12955393 / 256) = 0).
    { unfold variance_r. rewrite (float32_mult (12955393 / 256 * (12955393 / 256)) 10004175 8); [|lia|lia|]; change (2 ^ 8)%Z with 256%Z; [|lra].
      rewrite Cov, float32_1. replace (2561068800 - 10004175 * 256) with 0 by ring. rewrite f32_0, Rmult_0_r. apply f32_0. }
    assert (V3 : variance_r float32 (P11 dr) 2561068800 50607 (12955393 / 256) = 256).
    { unfold variance_r. rewrite (float32_mult (50607 * (12955393 / 256)) 10004174 8); [|lia|lia|]; change (2 ^ 8)%Z with 256%Z; [|lra].
      rewrite Cov, float32_1. replace (2561068800 - 10004174 * 256) with 256 by ring. rewrite (float32_small 256), Rmult_1_l by lia.
      apply (float32_small 256). lia. }
    rewrite V1, V2, V3. unfold P11 at 2 4 6. cbn [p_al p_be p_ga].
    assert (Z1 : forall x, zpow x 1 = x) by (intros x; unfold zpow; simpl; ring). rewrite !Z1.
    assert (P1 : 0 < p_c1 (P11 dr)) by (unfold P11; cbn [p_c1]; nra).
    assert (P2 : 0 < p_c2 (P11 dr)) by (unfold P11; cbn [p_c2]; nra).
    pose proof (lum_below big (P11 dr) 50607 (12955393 / 256) P1 (float32_small 50607 ltac:(lia)) ltac:(lra) ltac:(lra)
                  ltac:(unfold eps32; lra)) as L.
    set (l := lum_r float32 big (P11 dr) 50607 (12955393 / 256)) in *.
    assert (C : con_r float32 big (P11 dr) 0 0 = 1).
    { unfold con_r, sqrt_r, osqrt. cbv zeta. destruct (Rlt_dec 0 0) as [?|_]; [lra|]. cbn [option_map].
      rewrite sqrt_0, f32_0, !Rmult_0_r, f32_0, !Rplus_0_l, f32_0, !Rplus_0_l, float32_idem.
      pose proof (rnd_gt0 eps32 _ float32_rounding _ P2) as G. unfold nan1_r. destruct (Req_EM_T _ 0) as [?|_]; [lra|].
      unfold Rdiv. rewrite Rinv_r by lra. apply float32_1. }
    rewrite C, float32_1, Rmult_1_r.
    unfold stru_r, sqrt_r, osqrt. cbv zeta. destruct (Rlt_dec 0 0) as [?|_]; [lra|]. cbn [option_map].
    rewrite sqrt_0, f32_0, Rmult_0_r, f32_0, !Rplus_0_l, !float32_idem.
    pose proof (f32_nonneg (p_c2 (P11 dr) / 2) ltac:(lra)) as G.
    change (3 / 100 * dr * (3 / 100 * dr)) with (p_c2 (P11 dr)). set (c2 := p_c2 (P11 dr)) in *. set (c3 := float32 (c2 / 2)) in *.
    assert (C3 : 0 < c3) by (unfold eps32 in G; lra).
    unfold nan1_r. destruct (Req_EM_T c3 0) as [?|_]; [lra|]. rewrite ?float32_idem.
    pose proof (f32_nonneg (256 + c3) ltac:(lra)) as HN. set (N := float32 (256 + c3)) in *.
    assert (K : (1 - eps32) * (1 - eps32) * (1 + 512 / c2) <= N / c3).
    { apply Rle_div_of; [exact C3|]. apply Rle_trans with ((256 + c3) * (1 - eps32)); [|lra].
      assert (T : 512 / c2 * c3 <= 256 * (1 + eps32)).
      { apply Rle_trans with (512 / c2 * (c2 / 2 * (1 + eps32))); [|right; field; lra].
        apply Rmult_le_compat_l; [|lra]. left. apply Rdiv_lt_0_compat; lra. }
      replace ((1 - eps32) * (1 - eps32) * (1 + 512 / c2) * c3) with ((1 - eps32) * (1 - eps32) * (c3 + 512 / c2 * c3)) by ring.
      unfold eps32 in *. lra. }
    assert (H1 : 1 <= 1 + 512 / c2) by (assert (0 < 512 / c2) by (apply Rdiv_lt_0_compat; lra); lra).
    set (X := 1 + 512 / c2) in *. clearbody X N c3 l.
    set (y := N / c3) in *. clearbody y.
    assert (Y0 : 0 <= y) by (unfold eps32 in K; lra).
    pose proof (f32_nonneg y Y0) as F1. set (y1 := float32 y) in *.
    assert (Y1 : 0 <= y1) by (unfold eps32 in F1; lra).
    pose proof (f32_nonneg l ltac:(unfold eps32 in L; lra)) as F3. set (l1 := float32 l) in *.
    assert (Y2' : (1 - 5 * eps32) * X <= y1) by (unfold eps32 in *; lra).
    assert (L2 : 1 - 11 * eps32 <= l1) by (unfold eps32 in *; lra).
    assert (M : (1 - 11 * eps32) * ((1 - 5 * eps32) * X) <= l1 * y1).
    { apply Rmult_le_compat; try assumption; [unfold eps32; lra|]. apply Rmult_le_pos; [unfold eps32; lra|lra]. }
    pose proof (f32_nonneg (l1 * y1) ltac:(unfold eps32 in M; lra)) as F5. unfold eps32 in *. lra.
Qed.

(** ** Identical images with a score below 1 *)

Definition uniform_opts (dr : R) := opts (1 / 100) (3 / 100) (15 / 10) None false "reflect" 0 1 1 1 dr.
Definition P7 (dr : R) : ssim_params :=
  SsimParams (uniform_weights 7) Reflect 0 3 (49 / 48) (1 / 100 * dr * (1 / 100 * dr)) (3 / 100 * dr * (3 / 100 * dr)) 1 1 1.

Lemma uniform_setup dr : ssim_setup [7; 7]%nat (uniform_opts dr) = Ok (P7 dr).
Proof.
  unfold uniform_opts. rewrite setup_opts by lra. cbv zeta. cbn [window].
  change (existsb (fun n => (Z.of_nat n <? 7)%Z) [7; 7]%nat) with false. change (Z.even 7) with false.
  cbv iota. cbn [andb bind length]. change (7 ^ Z.of_nat 2)%Z with 49%Z. change (49 =? 1)%Z with false. cbv iota.
  change (1 <? 7)%Z with true. cbv iota.
  change (mode_of "reflect") with (Some Reflect). cbn [from_opt bind]. rewrite trunc_1. reflexivity.
Qed.

Lemma filter_7 rnd f : (forall x, rnd (rnd x) = rnd x) ->
  getd (filter_nd_r rnd (uniform_weights 7) Reflect 0 (rows 7 7 f)) [3; 3]%nat =
  rnd ((f 0%nat + f 1%nat + f 2%nat + f 3%nat + f 4%nat + f 5%nat + f 6%nat) / 7).
Proof.
  intros Hid. change (uniform_weights 7) with (map (fun k => (k, / 7)) [-3; -2; -1; 0; 1; 2; 3]%Z).
  cbn [map]. rewrite filter_rows; [| | |exact Hid| | |]; try lia; try discriminate.
  - f_equal. unfold Sum, rsum. cbn [map fold_right fst snd].
    change (Z.to_nat (Z.of_nat 3 + -3)) with 0%nat. change (Z.to_nat (Z.of_nat 3 + -2)) with 1%nat.
    change (Z.to_nat (Z.of_nat 3 + -1)) with 2%nat. change (Z.to_nat (Z.of_nat 3 + 0)) with 3%nat.
    change (Z.to_nat (Z.of_nat 3 + 1)) with 4%nat. change (Z.to_nat (Z.of_nat 3 + 2)) with 5%nat.
    change (Z.to_nat (Z.of_nat 3 + 3)) with 6%nat. field.
  - unfold Sum, rsum. cbn [map fold_right snd]. lra.
  - intros ow [<-|[<-|[<-|[<-|[<-|[<-|[<-|[]]]]]]]]; cbn [fst]; lia.
Qed.

Definition two_rows (i : nat) : R := if (5 <=? i)%nat then 18 else 0.

Lemma below_one big :
  structural_similarity_r float32 big (rows 7 7 two_rows) (rows 7 7 two_rows) (uniform_opts 255) = Ok (Fin (16777215 / 16777216)).
Proof.
  rewrite (centre_score float32 big _ _ _ (P7 255) 3); [|lia|reflexivity|apply uniform_setup|reflexivity|discriminate].
  do 2 f_equal. rewrite !amap_rows. unfold ssim_map_r. change (shp (rows 7 7 (fun i => float32 (two_rows i)))) with [7; 7]%nat.
  rewrite getd_tab by reflexivity. rewrite !amul_rows. change (p_ws (P7 255)) with (uniform_weights 7).
  change (p_mode (P7 255)) with Reflect. change (p_cval (P7 255)) with 0. rewrite !filter_7 by apply float32_idem.
  unfold two_rows. cbn [Nat.leb]. rewrite f32_0, Rmult_0_l, f32_0. rewrite (float32_small 18) by lia.
  replace (18 * 18) with 324 by ring. rewrite (float32_small 324) by lia.
  replace ((0 + 0 + 0 + 0 + 0 + 18 + 18) / 7) with (36 / 7) by lra. replace ((0 + 0 + 0 + 0 + 0 + 324 + 324) / 7) with (648 / 7) by lra.
  rewrite (float32_frac (36 / 7) 10785353 21); [|lia|lia|change (2 ^ 21)%Z with 2097152%Z; lra].
  rewrite (float32_frac (648 / 7) 12133522 17); [|lia|lia|change (2 ^ 17)%Z with 131072%Z; lra].
  change (2 ^ 21)%Z with 2097152%Z. change (2 ^ 17)%Z with 131072%Z. set (u := 10785353 / 2097152).
  assert (Hu : float32 u = u).
  { unfold u. rewrite (float32_frac (10785353 / 2097152) 10785353 21); [reflexivity|lia|lia|change (2 ^ 21)%Z with 2097152%Z; lra]. }
  assert (V : variance_r float32 (P7 255) (12133522 / 131072) u u = 8847361 / 131072).
  { unfold variance_r, P7. cbn [p_cov].
    rewrite (float32_frac (49 / 48) 8563371 23); [|lia|lia|change (2 ^ 23)%Z with 8388608%Z; lra].
    rewrite (float32_frac (u * u) 13866882 19); [|lia|lia|change (2 ^ 19)%Z with 524288%Z; unfold u; lra].
    rewrite (float32_tie (12133522 / 131072 - 13866882 / IZR (2 ^ 19)) 8666801 17);
      [|lia|lia|change (2 ^ 17)%Z with 131072%Z; change (2 ^ 19)%Z with 524288%Z; lra].
    change (if Z.even 8666801 then 8666801%Z else (8666801 + 1)%Z) with 8666802%Z.
    rewrite (float32_frac (8563371 / IZR (2 ^ 23) * (8666802 / IZR (2 ^ 17))) 8847361 17); [reflexivity|lia|lia|].
    change (2 ^ 17)%Z with 131072%Z. change (2 ^ 23)%Z with 8388608%Z. lra. }
  unfold ssim_pixel_r. cbv zeta. rewrite V, lum_same by exact Hu. unfold P7 at 1 3 5. cbn [p_al p_be p_ga].
  rewrite zpow_1, float32_1, Rmult_1_l.
  assert (Z1 : forall x, zpow x 1 = x) by (intros x; unfold zpow; simpl; ring). rewrite !Z1.
  unfold con_r, stru_r, sqrt_r, osqrt. cbv zeta. destruct (Rlt_dec _ 0) as [?|_]; [lra|]. cbn [option_map].
  pose proof (sqrt_between ((8614931 - 1 / 2) / 1048576) ((8614931 + 1 / 2) / 1048576) (8847361 / 131072) ltac:(lra) ltac:(lra) ltac:(lra)) as Sq.
  rewrite (float32_frac (sqrt (8847361 / 131072)) 8614931 20); [|lia|lia|change (2 ^ 20)%Z with 1048576%Z; lra].
  change (2 ^ 20)%Z with 1048576%Z. set (s := 8614931 / 1048576).
  assert (Hs : float32 s = s).
  { unfold s. rewrite (float32_frac (8614931 / 1048576) 8614931 20); [reflexivity|lia|lia|change (2 ^ 20)%Z with 1048576%Z; lra]. }
  rewrite (con_numerator s s _ Hs). change (p_c2 (P7 255)) with (3 / 100 * 255 * (3 / 100 * 255)).
  replace (float32 (3 / 100 * 255 * (3 / 100 * 255))) with (2 * float32 (3 / 100 * 255 * (3 / 100 * 255) / 2))
    by (rewrite <- float32_double; f_equal; lra).
  rewrite (float32_frac (3 / 100 * 255 * (3 / 100 * 255) / 2) 15341322 19); [|lia|lia|change (2 ^ 19)%Z with 524288%Z; lra].
  change (2 ^ 19)%Z with 524288%Z.
  replace (8847361 / 131072 + 8847361 / 131072) with (2 * (8847361 / 131072)) by ring. rewrite float32_double.
  rewrite (float32_frac (8847361 / 131072) 8847361 17); [|lia|lia|change (2 ^ 17)%Z with 131072%Z; lra].
  change (2 ^ 17)%Z with 131072%Z. rewrite <- Rmult_plus_distr_l, float32_double.
  rewrite (float32_frac (s * s) 8847360 17); [|lia|lia|change (2 ^ 17)%Z with 131072%Z; unfold s; lra]. change (2 ^ 17)%Z with 131072%Z.
  rewrite (float32_tie (8847360 / 131072 + 15341322 / 524288) 12682690 17); [|lia|lia|change (2 ^ 17)%Z with 131072%Z; lra].
  rewrite (float32_tie (8847361 / 131072 + 15341322 / 524288) 12682691 17); [|lia|lia|change (2 ^ 17)%Z with 131072%Z; lra].
  change (2 ^ 17)%Z with 131072%Z.
  change (if Z.even 12682690 then 12682690%Z else (12682690 + 1)%Z) with 12682690%Z.
  change (if Z.even 12682691 then 12682691%Z else (12682691 + 1)%Z) with 12682692%Z.
  unfold nan1_r. destruct (Req_EM_T _ 0) as [?|_]; [lra|]. destruct (Req_EM_T _ 0) as [?|_]; [lra|]. rewrite !float32_idem.
  rewrite (float32_frac (2 * (12682690 / 131072) / (2 * (12682692 / 131072))) 16777213 24); [|lia|lia|change (2 ^ 24)%Z with 16777216%Z; lra].
  rewrite (float32_frac (12682692 / 131072 / (12682690 / 131072)) 8388609 23); [|lia|lia|change (2 ^ 23)%Z with 8388608%Z; lra].
  rewrite (float32_frac _ 16777215 24); [reflexivity|lia|lia|].
  change (2 ^ 24)%Z with 16777216%Z. change (2 ^ 23)%Z with 8388608%Z. lra.
Qed.
