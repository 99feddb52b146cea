(** Facts about rounding to [p] binary digits (SsimRoundModel.round_to). *)
From Coq Require Import Reals Lra Psatz.
From Verif Require Import Base NdArray SsimRoundModel.
Local Open Scope R_scope.

Lemma pow2_pos z : 0 < pow2 z. Proof. apply powerRZ_lt. lra. Qed.

Lemma pow2_plus a b : pow2 (a + b) = pow2 a * pow2 b.
Proof. apply powerRZ_add. lra. Qed.

Lemma abs_between x c : Rabs x <= c -> - c <= x <= c.
Proof. intros H. unfold Rabs in H. destruct (Rcase_abs x); lra. Qed.

Lemma pow2_0 : pow2 0 = 1. Proof. reflexivity. Qed.

Lemma pow2_opp z : pow2 (- z) = / pow2 z.
Proof.
  pose proof (pow2_pos z). apply Rmult_eq_reg_r with (pow2 z); [|lra].
  rewrite <- pow2_plus, Z.add_opp_diag_l, pow2_0. field. lra.
Qed.

Lemma pow2_minus a b : pow2 (a - b) = pow2 a / pow2 b.
Proof. unfold Zminus. rewrite pow2_plus, pow2_opp. reflexivity. Qed.

Lemma pow2_nat n : pow2 (Z.of_nat n) = IZR (2 ^ Z.of_nat n).
Proof.
  induction n as [|n IH]; [reflexivity|]. rewrite Nat2Z.inj_succ. unfold Z.succ. rewrite pow2_plus, IH.
  rewrite Z.pow_add_r by lia. rewrite mult_IZR. change (pow2 1) with (2 * 1). rewrite Rmult_1_r. reflexivity.
Qed.

Lemma pow2_Z z : (0 <= z)%Z -> pow2 z = IZR (2 ^ z).
Proof. intros H. rewrite <- (Z2Nat.id z H). apply pow2_nat. Qed.

Lemma pow2_le a b : (a <= b)%Z -> pow2 a <= pow2 b.
Proof.
  intros H. replace b with (a + (b - a))%Z by lia. rewrite pow2_plus.
  assert (1 <= pow2 (b - a)).
  { rewrite pow2_Z by lia. apply IZR_le. pose proof (Z.pow_pos_nonneg 2 (b - a)). lia. }
  pose proof (pow2_pos a). nra.
Qed.

Lemma pow2_lt_inv a b : pow2 a < pow2 b -> (a < b)%Z.
Proof. intros H. destruct (Z_lt_le_dec a b) as [|C]; [assumption|]. apply pow2_le in C. lra. Qed.

Lemma Rpower2 z : exp (IZR z * ln 2) = pow2 z.
Proof. unfold pow2. rewrite powerRZ_Rpower by lra. reflexivity. Qed.

Lemma ln2_pos : 0 < ln 2. Proof. rewrite <- ln_1. apply ln_increasing; lra. Qed.

Lemma exponent_spec x : x <> 0 -> pow2 (exponent x) <= Rabs x < pow2 (exponent x + 1).
Proof.
  intros H. assert (Ha : 0 < Rabs x) by (apply Rabs_pos_lt, H). unfold exponent.
  pose proof (base_Int_part (ln (Rabs x) / ln 2)) as [B1 B2]. set (k := Int_part _) in *.
  pose proof ln2_pos as L.
  assert (E : ln (Rabs x) = ln (Rabs x) / ln 2 * ln 2) by (field; lra).
  rewrite <- (exp_ln (Rabs x)) by exact Ha. rewrite <- !Rpower2, plus_IZR. split.
  - assert (IZR k * ln 2 <= ln (Rabs x)) by (rewrite E; apply Rmult_le_compat_r; lra).
    destruct H0 as [H0|H0]; [left; apply exp_increasing, H0|rewrite H0; lra].
  - apply exp_increasing. rewrite E. apply Rmult_lt_compat_r; lra.
Qed.

Lemma exponent_unique x k : x <> 0 -> pow2 k <= Rabs x < pow2 (k + 1) -> exponent x = k.
Proof.
  intros Hx [H1 H2]. destruct (exponent_spec x Hx) as [H3 H4].
  assert (k < exponent x + 1)%Z by (apply pow2_lt_inv; lra).
  assert (exponent x < k + 1)%Z by (apply pow2_lt_inv; lra). lia.
Qed.

(** ** nearest_even *)

Lemma nearest_dist x : Rabs (IZR (nearest_even x) - x) <= 1 / 2.
Proof.
  unfold nearest_even. pose proof (base_Int_part x) as [B1 B2]. set (n := Int_part x) in *.
  destruct (Rlt_dec _ _); [apply Rabs_le; lra|]. destruct (Rlt_dec _ _).
  { rewrite plus_IZR. apply Rabs_le; lra. }
  destruct (Z.even n); [|rewrite plus_IZR]; apply Rabs_le; lra.
Qed.

Lemma nearest_unique x n : Rabs (x - IZR n) < 1 / 2 -> nearest_even x = n.
Proof.
  intros H. pose proof (nearest_dist x) as D. apply Rabs_def2 in H.
  assert (D' : - (1 / 2) <= IZR (nearest_even x) - x <= 1 / 2).
  { split; [|eapply Rle_trans; [apply Rle_abs|exact D]].
    apply abs_between in D. lra. } 
  assert (IZR (nearest_even x) < IZR (n + 1)) by (rewrite plus_IZR; lra).
  assert (IZR (n - 1) < IZR (nearest_even x)) by (rewrite minus_IZR; lra).
  apply lt_IZR in H0. apply lt_IZR in H1. lia.
Qed.

Lemma nearest_IZR n : nearest_even (IZR n) = n.
Proof. apply nearest_unique. rewrite Rminus_diag_eq, Rabs_R0 by reflexivity. lra. Qed.

Lemma nearest_ge x n : IZR n <= x -> (n <= nearest_even x)%Z.
Proof.
  intros H. pose proof (nearest_dist x) as D. apply abs_between in D.
  assert (IZR (n - 1) < IZR (nearest_even x)) by (rewrite minus_IZR; lra). apply lt_IZR in H0. lia.
Qed.

Lemma nearest_le x n : x <= IZR n -> (nearest_even x <= n)%Z.
Proof.
  intros H. pose proof (nearest_dist x) as D. apply abs_between in D.
  assert (IZR (nearest_even x) < IZR (n + 1)) by (rewrite plus_IZR; lra). apply lt_IZR in H0. lia.
Qed.

(** ** round_to *)

(** Half a unit in the last place. *)
Lemma round_err p x : x <> 0 -> Rabs (round_to p x - x) <= pow2 (exponent x - p).
Proof.
  intros H. unfold round_to. destruct (Req_EM_T x 0) as [|_]; [contradiction|]. cbv zeta.
  set (u := pow2 (exponent x - (p - 1))). pose proof (pow2_pos (exponent x - (p - 1))) as U. fold u in U.
  replace (IZR (nearest_even (x / u)) * u - x) with ((IZR (nearest_even (x / u)) - x / u) * u) by (field; lra).
  rewrite Rabs_mult, (Rabs_right u) by lra.
  replace (pow2 (exponent x - p)) with (1 / 2 * u).
  - apply Rmult_le_compat_r; [lra|apply nearest_dist].
  - unfold u. replace (exponent x - (p - 1))%Z with (exponent x - p + 1)%Z by lia. rewrite pow2_plus.
    change (pow2 1) with (2 * 1). lra.
Qed.

Lemma round_rel p x : Rabs (round_to p x - x) <= pow2 (- p) * Rabs x.
Proof.
  destruct (Req_EM_T x 0) as [->|H].
  { unfold round_to. destruct (Req_EM_T 0 0); [|contradiction]. rewrite Rminus_diag_eq, Rabs_R0 by reflexivity. lra. }
  eapply Rle_trans; [apply round_err, H|]. unfold Zminus. rewrite pow2_plus, Rmult_comm.
  apply Rmult_le_compat_l; [left; apply pow2_pos|]. apply exponent_spec, H.
Qed.

Lemma round_0 p : round_to p 0 = 0.
Proof. unfold round_to. destruct (Req_EM_T 0 0); [reflexivity|contradiction]. Qed.

(** Numbers of [p] binary digits are kept. *)
Lemma round_exact p m e : (Z.abs m < 2 ^ p)%Z -> (0 < p)%Z -> round_to p (IZR m * pow2 e) = IZR m * pow2 e.
Proof.
  intros Hm Hp. set (x := IZR m * pow2 e).
  destruct (Req_EM_T x 0) as [E|H]; [rewrite E; apply round_0|].
  destruct (exponent_spec x H) as [H1 H2]. unfold round_to. destruct (Req_EM_T x 0) as [|_]; [contradiction|]. cbv zeta.
  set (k := exponent x) in *. set (u := pow2 (k - (p - 1))). pose proof (pow2_pos (k - (p - 1))) as U. fold u in U.
  assert (Hk : (k < p + e)%Z).
  { apply pow2_lt_inv. eapply Rle_lt_trans; [exact H1|]. unfold x.
    rewrite Rabs_mult, (Rabs_right (pow2 e)) by (left; apply pow2_pos). rewrite pow2_plus.
    apply Rmult_lt_compat_r; [apply pow2_pos|]. rewrite pow2_Z by lia. rewrite <- abs_IZR. apply IZR_lt, Hm. }
  assert (E : x / u = IZR (m * 2 ^ (e - (k - (p - 1))))).
  { rewrite mult_IZR, <- pow2_Z by lia. rewrite (pow2_minus e). fold u. unfold x. field. lra. }
  rewrite E, nearest_IZR, <- E. field. lra.
Qed.

(** Every rounded number has at most [p] binary digits. *)
Lemma round_form p x : (0 < p)%Z -> exists m e, (Z.abs m < 2 ^ p)%Z /\ round_to p x = IZR m * pow2 e.
Proof.
  intros Hp. destruct (Req_EM_T x 0) as [->|H].
  { exists 0%Z, 0%Z. split; [simpl; apply Z.pow_pos_nonneg; lia|rewrite round_0; lra]. }
  destruct (exponent_spec x H) as [H1 H2]. unfold round_to. destruct (Req_EM_T x 0) as [|_]; [contradiction|]. cbv zeta.
  set (k := exponent x) in *. set (u := pow2 (k - (p - 1))). pose proof (pow2_pos (k - (p - 1))) as U. fold u in U.
  set (n := nearest_even (x / u)).
  assert (B : Rabs (x / u) <= IZR (2 ^ p)).
  { rewrite <- pow2_Z by lia. unfold Rdiv. rewrite Rabs_mult, (Rabs_right (/ u)) by (left; apply Rinv_0_lt_compat, U).
    apply Rmult_le_reg_r with u; [exact U|]. rewrite Rmult_assoc, Rinv_l, Rmult_1_r by lra.
    unfold u. rewrite <- pow2_plus. replace (p + (k - (p - 1)))%Z with (k + 1)%Z by lia. lra. }
  apply abs_between in B.
  assert (N1 : (n <= 2 ^ p)%Z) by (apply nearest_le; lra).
  assert (N2 : (- 2 ^ p <= n)%Z) by (apply nearest_ge; rewrite opp_IZR; lra).
  assert (P2 : (1 < 2 ^ p)%Z) by (apply Z.pow_gt_1; lia).
  destruct (Z.eq_dec (Z.abs n) (2 ^ p)) as [E|E].
  - assert (Es : IZR n * u = IZR (Z.sgn n) * pow2 (p + (k - (p - 1)))).
    { rewrite pow2_plus, <- Rmult_assoc. fold u. f_equal. rewrite pow2_Z by lia. rewrite <- mult_IZR. f_equal.
      rewrite <- E. rewrite Z.mul_comm. symmetry. apply Z.abs_sgn. }
    exists (Z.sgn n), (p + (k - (p - 1)))%Z. split; [|exact Es]. destruct n; simpl; lia.
  - exists n, (k - (p - 1))%Z. split; [lia|reflexivity].
Qed.

Lemma round_idem p x : (0 < p)%Z -> round_to p (round_to p x) = round_to p x.
Proof. intros Hp. destruct (round_form p x Hp) as (m & e & Hm & ->). apply round_exact; assumption. Qed.

(** To evaluate a rounding. *)
Lemma round_at p x k m : (0 < p)%Z -> pow2 k <= Rabs x < pow2 (k + 1) ->
  Rabs (x - IZR m * pow2 (k - (p - 1))) < pow2 (k - p) ->
  round_to p x = IZR m * pow2 (k - (p - 1)).
Proof.
  intros Hp H D. assert (Hx : x <> 0).
  { intros ->. rewrite Rabs_R0 in H. pose proof (pow2_pos k). lra. }
  unfold round_to. destruct (Req_EM_T x 0) as [|_]; [contradiction|]. cbv zeta.
  rewrite (exponent_unique x k Hx H). set (u := pow2 (k - (p - 1))) in *.
  pose proof (pow2_pos (k - (p - 1))) as U. fold u in U.
  assert (E : pow2 (k - p) = 1 / 2 * u).
  { unfold u. replace (k - (p - 1))%Z with (k - p + 1)%Z by lia. rewrite pow2_plus. change (pow2 1) with (2 * 1). lra. }
  rewrite (nearest_unique (x / u) m); [reflexivity|].
  replace (x / u - IZR m) with ((x - IZR m * u) / u) by (field; lra).
  unfold Rdiv. rewrite Rabs_mult, (Rabs_right (/ u)) by (left; apply Rinv_0_lt_compat, U).
  apply Rmult_lt_reg_r with u; [exact U|]. rewrite Rmult_assoc, Rinv_l, Rmult_1_r by lra. lra.
Qed.

Lemma nearest_tie m : nearest_even (IZR m + 1 / 2) = if Z.even m then m else (m + 1)%Z.
Proof.
  unfold nearest_even. assert (E : Int_part (IZR m + 1 / 2) = m).
  { pose proof (base_Int_part (IZR m + 1 / 2)) as [B1 B2]. set (n := Int_part _) in *.
    assert (IZR n < IZR (m + 1)) by (rewrite plus_IZR; lra). assert (IZR m < IZR (n + 1)) by (rewrite plus_IZR; lra).
    apply lt_IZR in H. apply lt_IZR in H0. lia. }
  rewrite E. destruct (Rlt_dec _ _); [lra|]. destruct (Rlt_dec _ _); [lra|]. reflexivity.
Qed.

(** A tie goes to the even neighbour. *)
Lemma round_tie p x k m : (0 < p)%Z -> pow2 k <= Rabs x < pow2 (k + 1) ->
  x = (IZR m + 1 / 2) * pow2 (k - (p - 1)) ->
  round_to p x = IZR (if Z.even m then m else m + 1) * pow2 (k - (p - 1)).
Proof.
  intros Hp H D. assert (Hx : x <> 0).
  { intros ->. rewrite Rabs_R0 in H. pose proof (pow2_pos k). lra. }
  unfold round_to. destruct (Req_EM_T x 0) as [|_]; [contradiction|]. cbv zeta.
  rewrite (exponent_unique x k Hx H). pose proof (pow2_pos (k - (p - 1))) as U.
  replace (x / pow2 (k - (p - 1))) with (IZR m + 1 / 2) by (rewrite D; field; lra). rewrite nearest_tie. reflexivity.
Qed.

(** Rounding commutes with powers of two. *)
Lemma exponent_scale x k : x <> 0 -> exponent (x * pow2 k) = (exponent x + k)%Z.
Proof.
  intros H. pose proof (pow2_pos k). apply exponent_unique.
  - apply Rmult_integral_contrapositive. lra.
  - rewrite Rabs_mult, (Rabs_right (pow2 k)) by lra. destruct (exponent_spec x H).
    replace (exponent x + k + 1)%Z with (exponent x + 1 + k)%Z by lia. rewrite !pow2_plus in *. nra.
Qed.

Lemma round_scale p x k : round_to p (x * pow2 k) = round_to p x * pow2 k.
Proof.
  destruct (Req_EM_T x 0) as [->|H]; [rewrite Rmult_0_l, round_0; lra|].
  pose proof (pow2_pos k) as K. assert (x * pow2 k <> 0) by (apply Rmult_integral_contrapositive; lra).
  unfold round_to. destruct (Req_EM_T x 0) as [|_]; [contradiction|]. destruct (Req_EM_T _ 0) as [|_]; [contradiction|]. cbv zeta.
  rewrite exponent_scale by assumption.
  replace (exponent x + k - (p - 1))%Z with (exponent x - (p - 1) + k)%Z by lia. rewrite pow2_plus.
  set (u := pow2 (exponent x - (p - 1))). assert (U : 0 < u) by apply pow2_pos.
  replace (x * pow2 k / (u * pow2 k)) with (x / u) by (field; lra). ring.
Qed.

Lemma round_double p x : round_to p (2 * x) = 2 * round_to p x.
Proof. replace (2 * x) with (x * pow2 1) by (change (pow2 1) with (2 * 1); ring). rewrite round_scale. change (pow2 1) with (2 * 1). ring. Qed.
