(** arctan2, its sine and cosine, and elementary bounds for the filters. *)
From Coq Require Import Reals Lra Lia Psatz.
From Verif Require Import Base NdArray PairModel RealSums MetricModel SsimModel GsmModel MadModel FreqModel FreqProofs.

Local Open Scope R_scope.

Lemma sqrt_hyp x y : x <> 0 -> sqrt (1 + (y / x) ^ 2) = sqrt (x * x + y * y) / Rabs x.
Proof.
  intros Hx. apply Rsqr_inj.
  - apply sqrt_pos.
  - apply Rmult_le_pos; [apply sqrt_pos|]. left. apply Rinv_0_lt_compat, Rabs_pos_lt, Hx.
  - rewrite Rsqr_div'. rewrite <- Rsqr_abs. unfold Rsqr.
    assert (0 <= (y / x) ^ 2) by (apply pow2_ge_0).
    rewrite !sqrt_sqrt by nra. field. exact Hx.
Qed.

Lemma hyp_pos x y : x <> 0 \/ y <> 0 -> 0 < sqrt (x * x + y * y).
Proof.
  intros H. apply sqrt_lt_R0. destruct H.
  - assert (0 < x * x) by (apply Rsqr_pos_lt; assumption). nra.
  - assert (0 < y * y) by (apply Rsqr_pos_lt; assumption). nra.
Qed.

Lemma arctan2_polar y x : x <> 0 \/ y <> 0 ->
  cos (arctan2 y x) = x / sqrt (x * x + y * y) /\ sin (arctan2 y x) = y / sqrt (x * x + y * y).
Proof.
  intros H. assert (Hp := hyp_pos x y H). unfold arctan2.
  assert (A : x <> 0 -> cos (atan (y / x)) = Rabs x / sqrt (x * x + y * y) /\ sin (atan (y / x)) = y / x * (Rabs x / sqrt (x * x + y * y))).
  { intros Hx. assert (0 < Rabs x) by (apply Rabs_pos_lt, Hx). rewrite cos_atan, sin_atan.
    replace (1 + (y / x)²) with (1 + (y / x) ^ 2) by (unfold Rsqr; ring). rewrite sqrt_hyp by exact Hx. split; field; lra. }
  destruct (Rlt_dec 0 x) as [P|P]; [|destruct (Rlt_dec x 0) as [Q|Q]].
  - destruct (A ltac:(lra)) as [-> ->]. rewrite Rabs_pos_eq by lra. split; field; lra.
  - destruct (A ltac:(lra)) as [C S]. rewrite Rabs_left in C, S by lra.
    destruct (Rle_dec 0 y).
    + rewrite neg_cos, neg_sin, C, S. split; field; lra.
    + replace (atan (y / x) - PI) with (- (PI - atan (y / x))) by ring. rewrite cos_neg, sin_neg, Rtrigo_facts.cos_pi_minus, Rtrigo_facts.sin_pi_minus, C, S.
      split; field; lra.
  - assert (x = 0) by lra. subst x. replace (0 * 0 + y * y) with (Rsqr y) in * by (unfold Rsqr; ring).
    rewrite sqrt_Rsqr_abs in *.
    destruct (Rlt_dec 0 y); [|destruct (Rlt_dec y 0)].
    + rewrite cos_PI2, sin_PI2, Rabs_pos_eq by lra. split; field; lra.
    + replace (- PI / 2) with (- (PI / 2)) by field. rewrite cos_neg, sin_neg, cos_PI2, sin_PI2, Rabs_left by lra. split; field; lra.
    + destruct H; lra.
Qed.

(** cos of four times the angle, without the angle. *)
Lemma cos_four t : cos (4 * t) = cos t ^ 4 - 6 * cos t ^ 2 * sin t ^ 2 + sin t ^ 4.
Proof. replace (4 * t) with (2 * (2 * t)) by ring. rewrite cos_2a, sin_2a, cos_2a. ring. Qed.

Lemma cos_four_angle x y : x <> 0 \/ y <> 0 ->
  cos (4 * arctan2 y x) = (x ^ 4 - 6 * x ^ 2 * y ^ 2 + y ^ 4) / (x ^ 2 + y ^ 2) ^ 2.
Proof.
  intros H. destruct (arctan2_polar y x H) as [C S]. rewrite cos_four, C, S. assert (Hp := hyp_pos x y H).
  set (r := sqrt (x * x + y * y)) in *.
  assert (E : x ^ 2 + y ^ 2 = r ^ 2). { unfold r. rewrite pow2_sqrt by nra. ring. }
  rewrite E. field. lra.
Qed.

Lemma arctan2_zero : arctan2 0 0 = 0.
Proof.
  unfold arctan2. destruct (Rlt_dec 0 0); [lra|]. reflexivity.
Qed.

(** An angle is the one found from its cosine and sine, up to the sign at half a turn. *)
Lemma arctan2_bound y x : - PI <= arctan2 y x <= PI.
Proof.
  assert (B := atan_bound (y / x)). assert (P := PI_RGT_0). unfold arctan2.
  destruct (Rlt_dec 0 x); [lra|]. destruct (Rlt_dec x 0).
  - destruct (Rle_dec 0 y) as [Hy|Hy].
    + assert (atan (y / x) <= 0).
      { rewrite <- atan_0. destruct (Req_dec y 0) as [->|]; [unfold Rdiv; rewrite Rmult_0_l; lra|].
        left. apply atan_increasing. assert (0 < y / - x) by (apply Rdiv_lt_0_compat; lra).
        replace (y / x) with (- (y / - x)) by (field; lra). lra. }
      lra.
    + assert (0 < atan (y / x)).
      { rewrite <- atan_0. apply atan_increasing. assert (0 < - y / - x) by (apply Rdiv_lt_0_compat; lra).
        replace (y / x) with (- y / - x) by (field; lra). lra. }
      lra.
  - destruct (Rlt_dec 0 y); [lra|]. destruct (Rlt_dec y 0); lra.
Qed.

Lemma cos_inj_abs s t : - PI <= s <= PI -> - PI <= t <= PI -> cos s = cos t -> Rabs s = Rabs t.
Proof.
  intros Hs Ht E.
  assert (C : forall u, cos (Rabs u) = cos u) by (intros u; unfold Rabs; destruct (Rcase_abs u); [apply cos_neg|reflexivity]).
  apply cos_inj.
  - split; [apply Rabs_pos|apply Rabs_le; lra].
  - split; [apply Rabs_pos|apply Rabs_le; lra].
  - rewrite !C. exact E.
Qed.

Lemma arctan2_angle d : - PI <= d <= PI -> Rabs (arctan2 (sin d) (cos d)) = Rabs d.
Proof.
  intros Hd. apply cos_inj_abs; [apply arctan2_bound|exact Hd|].
  assert (H : cos d <> 0 \/ sin d <> 0).
  { destruct (Req_dec (cos d) 0) as [E|]; [right|left; assumption]. intros E'. assert (X := sin2_cos2 d). rewrite E, E' in X. unfold Rsqr in X. lra. }
  destruct (arctan2_polar (sin d) (cos d) H) as [-> _].
  assert (X := sin2_cos2 d). unfold Rsqr in X. replace (cos d * cos d + sin d * sin d) with 1 by lra. rewrite sqrt_1. field.
Qed.

(** ** Powers *)

Lemma rpow_le_one x y : 0 <= x <= 1 -> 0 < y -> rpow x y <= 1.
Proof.
  intros Hx Hy. unfold rpow. destruct (Req_EM_T x 0); [lra|].
  unfold Rpower. rewrite <- exp_0. destruct (Req_dec x 1) as [->|]; [rewrite ln_1, Rmult_0_r; lra|].
  left. apply exp_increasing. assert (ln x < 0) by (rewrite <- ln_1; apply ln_increasing; lra). nra.
Qed.
Lemma rpow_ge_self x y : 1 <= x -> 1 <= y -> x <= rpow x y.
Proof.
  intros Hx Hy. unfold rpow. destruct (Req_EM_T x 0); [lra|].
  unfold Rpower. rewrite <- (exp_ln x) at 1 by lra. destruct (Req_dec x 1) as [->|]; [rewrite ln_1, Rmult_0_r; lra|].
  assert (0 < ln x) by (rewrite <- ln_1; apply ln_increasing; lra).
  destruct (Req_dec y 1) as [->|]; [rewrite Rmult_1_l; lra|]. left. apply exp_increasing. nra.
Qed.
