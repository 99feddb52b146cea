(** C131: error of PSNR in floating point arithmetic. *)
From Coq Require Import Reals Lra Lia Psatz Permutation.
From Verif Require Import Base LoadModel RealSums MetricModel MetricProofs SsimRoundModel RoundProofs
  RmseRoundModel RmseRoundProofs RmseExactProofs.
Open Scope R_scope.

(** ** Logarithms of close numbers *)
Lemma ln10_ge_2 : 2 <= ln 10.
Proof.
  rewrite <- (ln_exp 2). apply Rlt_le, ln_increasing; [apply exp_pos|]. replace 2 with (1 + 1) by ring. rewrite exp_plus.
  pose proof exp_le_3. pose proof (exp_pos 1). nra.
Qed.

Lemma ln_le_sub x : 0 < x -> ln x <= x - 1.
Proof.
  intros H. destruct (Req_dec x 1) as [->|N]; [rewrite ln_1; lra|].
  pose proof (exp_ineq1 (x - 1) ltac:(lra)) as E. apply Rlt_le. rewrite <- (ln_exp (x - 1)). apply ln_increasing; lra.
Qed.

Lemma ln_close x y e : 0 < x -> 0 <= e <= 1 / 2 -> Rabs (y - x) <= e * x -> 0 < y /\ Rabs (ln y - ln x) <= 2 * e.
Proof.
  intros X E H. apply abs_between in H. assert (HX : e * x <= 1 / 2 * x) by (apply Rmult_le_compat_r; lra). assert (Y : 0 < y) by lra.
  split; [exact Y|].
  assert (D : forall a b, 0 < a -> 0 < b -> ln b - ln a <= (b - a) / a).
  { intros a b A B. pose proof (ln_le_sub (b / a)) as L. unfold Rdiv in L at 1 2.
    rewrite ln_mult, ln_Rinv in L by (try apply Rinv_0_lt_compat; assumption).
    assert (P : 0 < b * / a) by (apply Rmult_lt_0_compat; [exact B|apply Rinv_0_lt_compat, A]). specialize (L P).
    replace ((b - a) / a) with (b / a - 1) by (field; lra). lra. }
  pose proof (D x y X Y) as D1. pose proof (D y x Y X) as D2. apply Rabs_le. split.
  - assert ((x - y) / y <= 2 * e); [|lra]. apply Rmult_le_reg_r with y; [exact Y|]. unfold Rdiv. rewrite Rmult_assoc, Rinv_l, Rmult_1_r by lra.
    assert (e * (1 / 2 * x) <= e * y) by (apply Rmult_le_compat_l; lra). lra.
  - assert ((y - x) / x <= e); [|lra]. apply Rmult_le_reg_r with x; [exact X|]. unfold Rdiv. rewrite Rmult_assoc, Rinv_l, Rmult_1_r by lra. lra.
Qed.

Lemma decibel_close dr x y e : dr <> 0 -> 0 < x -> 0 <= e <= 1 / 2 -> Rabs (y - x) <= e * x ->
  0 < y /\ Rabs (10 * log10 (dr * dr / y) - 10 * log10 (dr * dr / x)) <= 10 * e.
Proof.
  intros D X E H. destruct (ln_close x y e X E H) as [Y L]. split; [exact Y|]. pose proof ln10_ge_2 as T.
  assert (DD : 0 < dr * dr) by (apply Rsqr_pos_lt, D). unfold log10, Rdiv. rewrite (ln_mult _ (/ y)), (ln_mult _ (/ x)), !ln_Rinv by (try apply Rinv_0_lt_compat; assumption).
  match goal with |- Rabs ?g <= _ => replace g with (- ((ln y - ln x) * (10 * / ln 10))) by (field; lra) end.
  rewrite Rabs_Ropp, Rabs_mult. assert (I : 0 < / ln 10 <= / 2) by (split; [apply Rinv_0_lt_compat; lra|apply Rinv_le_contravar; lra]).
  rewrite (Rabs_right (10 * / ln 10)) by lra. replace (10 * e) with (2 * e * (10 * / 2)) by field. apply Rmult_le_compat; try lra. apply Rabs_pos.
Qed.

(** ** The two scores *)
Lemma mse_adds t a b : adds t a b -> mse a b = Fin (Rsum (map sq (leaves t)) / INR (length (leaves t))).
Proof.
  intros H. pose proof (adds_length _ _ _ H) as L. pose proof (leaves_pos t) as P. unfold mse.
  destruct a as [|x a]; [simpl in L; lia|]. rewrite <- L, <- Rsum_sq. destruct H as [_ H].
  rewrite (Rsum_perm _ _ (Permutation_map sq H)). reflexivity.
Qed.

Lemma psnr_fin dr t a b f P p : adds t a b -> dr <> 0 -> psnr dr a b = Fin P -> psnr_r dr f t = Fin p ->
  exists e m, mse a b = Fin e /\ mse_r f t = Fin m /\ P = 10 * log10 (dr * dr / e) /\ p = 10 * log10 (dr * dr / m) /\ m <> 0.
Proof.
  intros H D H1 H2. unfold psnr in H1. destruct (list_eqbR a b); [discriminate|]. rewrite (mse_adds t a b H) in *.
  destruct (Req_EM_T dr 0); [contradiction|]. injection H1 as <-. unfold psnr_r in H2. destruct (forallb _ _); [discriminate|].
  destruct (mse_r f t) as [m| | |]; try discriminate. destruct (Req_EM_T dr 0); [contradiction|]. destruct (Req_EM_T m 0) as [|M]; [discriminate|]. injection H2 as <-.
  eexists. exists m. repeat split; assumption || reflexivity.
Qed.

(** ** Error of PSNR *)

(** Every element type, every order of the additions, every data range: with mean squared error e, PSNR is off by at most
    10 (4 u + 4 (D + 1) v + 3/2 eta / e) decibels, as long as the bracket is at most one half. *)
Theorem C131_psnr_error d t a b dr e P p : let f := work_format d in
  let bound := 4 * pow2 (- prec f) + 4 * (INR (depth t + 1) * pow2 (- 53)) + 3 / 2 * (pow2 (emin f) / e) in
  adds t a b -> (forall x, In x a \/ In x b -> store f x = Fin x) -> INR (depth t + 1) <= pow2 51 -> dr <> 0 ->
  mse a b = Fin e -> 0 < e -> bound <= 1 / 2 -> psnr dr a b = Fin P -> psnr_r dr f t = Fin p ->
  Rabs (p - P) <= 10 * bound.
Proof.
  intros f bound H G D DR E E0 B1 HP Hp.
  assert (W : wide f).
  { unfold f, work_format. destruct d as [w|w|w|]; try apply wide64; repeat (destruct w as [|w]; try apply wide64; try apply wide32). }
  destruct W as (Wp & We & Wx & _). destruct (psnr_fin dr t a b f P p H DR HP Hp) as (e' & m & E' & Hm & -> & -> & _).
  rewrite E in E'. injection E' as <-. rewrite (mse_adds t a b H) in E. injection E as E.
  destruct (mse_bounds f t m ltac:(lia) ltac:(lia)) as (_ & M0 & U & V & Mhi & Mlo); [|exact D|exact Hm|].
  { intros [x y] Hq. destruct H as [_ H]. apply (Permutation_in _ H) in Hq. split; apply G; [left; apply (in_combine_l _ _ _ _ Hq)|right; apply (in_combine_r _ _ _ _ Hq)]. }
  rewrite E in Mhi, Mlo. pose proof v64_small as V64.
  set (u := pow2 (- prec f)) in *. set (w := INR (depth t + 1) * pow2 (- 53)) in *. set (h := pow2 (emin f)) in *.
  assert (H0 : 0 < h) by apply pow2_pos. assert (HE : h / e * e = h) by (field; lra).
  assert (HE0 : 0 <= h / e) by (apply Rmult_le_pos; [lra|left; apply Rinv_0_lt_compat, E0]).
  apply decibel_close; [exact DR|exact E0|unfold bound in *; lra|]. unfold bound.
  replace ((4 * u + 4 * w + 3 / 2 * (h / e)) * e) with (4 * u * e + 4 * w * e + 3 / 2 * (h / e * e)) by ring. rewrite HE.
  assert (0 <= u * e) by (apply Rmult_le_pos; lra). assert (0 <= w * e) by (apply Rmult_le_pos; lra).
  apply Rabs_le. split; lra.
Qed.
Print Assumptions C131_psnr_error.

(** Single precision, chains of fewer than 2^25 additions, mean squared error at least 10^-30: three millionths of a decibel. *)
Theorem C131_psnr_digits t a b dr e P p :
  adds t a b -> (forall x, In x a \/ In x b -> store binary32 x = Fin x) -> (Z.of_nat (depth t) < 2 ^ 25)%Z -> dr <> 0 ->
  mse a b = Fin e -> / IZR (10 ^ 30) <= e -> psnr dr a b = Fin P -> psnr_r dr binary32 t = Fin p ->
  Rabs (p - P) <= 3 * / IZR (10 ^ 6).
Proof.
  intros H G D DR E E0 HP Hp. change (10 ^ 30)%Z with 1000000000000000000000000000000%Z in E0.
  assert (D' : INR (depth t + 1) <= pow2 25).
  { rewrite INR_IZR_INZ, pow2_Z by lia. apply IZR_le. lia. }
  assert (L : pow2 25 <= pow2 51) by (apply pow2_le; lia). assert (e0 : 0 < e) by lra.
  assert (K1 : INR (depth t + 1) * pow2 (- 53) <= pow2 (- 28)).
  { change (- 28)%Z with (25 + - 53)%Z. rewrite pow2_plus. apply Rmult_le_compat_r; [left; apply pow2_pos|exact D']. }
  change (- 28)%Z with (Z.opp 28) in K1. rewrite (pow2_opp 28), (pow2_Z 28) in K1 by lia. change (2 ^ 28)%Z with 268435456%Z in K1.
  assert (K2 : pow2 (-149) / e <= / 268435456).
  { apply Rmult_le_reg_r with e; [exact e0|]. unfold Rdiv. rewrite Rmult_assoc, Rinv_l, Rmult_1_r by lra.
    change (-149)%Z with (Z.opp 149). rewrite pow2_opp, pow2_Z by lia. change (2 ^ 149)%Z with 713623846352979940529142984724747568191373312%Z. lra. }
  assert (K3 : pow2 (- (24)) = / 16777216) by (rewrite pow2_opp, pow2_Z by lia; reflexivity).
  pose proof (C131_psnr_error (Float 32) t a b dr e P p H G (Rle_trans _ _ _ D' L) DR E e0) as B. cbn [work_format prec emin binary32] in B. cbv zeta in B. rewrite K3 in B.
  change (10 ^ 6)%Z with 1000000%Z. specialize (B ltac:(lra) HP Hp). lra.
Qed.
Print Assumptions C131_psnr_digits.

(** 8-bit images of up to 2^37 voxels that differ: PSNR is finite, does not depend on the order of the additions and is off by
    at most 2^-49 decibels. *)
Theorem C131_psnr_8_bit t a b dr :
  adds t a b -> (Z.of_nat (length a) <= 2 ^ 37)%Z -> dr <> 0 -> a <> b ->
  Forall2 (fun x y => exists i j, x = IZR i /\ y = IZR j /\ (-128 <= i < 256 /\ -128 <= j < 256 /\ Z.abs (i - j) < 256)%Z) a b ->
  exists p P, psnr_r dr binary32 t = Fin p /\ psnr dr a b = Fin P /\ Rabs (p - P) <= pow2 (- 49) /\
    forall t', adds t' a b -> psnr_r dr binary32 t' = Fin p.
Proof.
  intros H N DR NE F.
  assert (K : forall t', adds t' a b -> exists s, total binary32 t' = Fin (IZR s) /\ (0 <= s <= 2 ^ 53)%Z /\ IZR s = Rsum (map sq (leaves t'))).
  { intros t' H'. apply (total_close binary32 65025); [apply wide32|cbn; lia|rewrite (adds_length _ _ _ H'); lia|].
    apply (adds_in t' a b (close binary32 65025) H'). clear - F. induction F as [|x y a b (i & j & -> & -> & I & J & D) _ IH]; constructor; [|exact IH].
    exists i, j. cbn [prec binary32]. split; [reflexivity|]. split; [reflexivity|]. repeat split; lia || nia. }
  destruct (K t H) as (s & Es & Bs & Vs). set (n := INR (length a)). pose proof (adds_length _ _ _ H) as Lt.
  assert (N0 : 1 <= n) by (unfold n; rewrite <- Lt; apply (le_INR 1), leaves_pos).
  assert (LN : n <= pow2 53) by (unfold n; rewrite INR_IZR_INZ, pow2_Z by lia; apply IZR_le; lia).
  assert (E : mse a b = Fin (IZR s / n)) by (rewrite (mse_adds t a b H), <- Vs, Lt; reflexivity).
  assert (S1 : (1 <= s)%Z).
  { destruct (Z_lt_le_dec 0 s) as [|C]; [lia|]. exfalso. assert (s = 0%Z) as -> by lia. apply NE, (adds_equal t a b H). intros p Hp.
    symmetry in Vs. assert (SQ : sq p = 0).
    { clear - Vs Hp. revert Vs Hp. generalize (leaves t). intros l. induction l as [|q l IH]; intros V Hq; [destruct Hq|]. unfold Rsum in *. cbn [map fold_right] in V.
      assert (0 <= fold_right Rplus 0 (map sq l)) by (apply (Rsum_nonneg (map sq l)); intros z Hz; apply in_map_iff in Hz as (w & <- & _); apply sq_nonneg).
      pose proof (sq_nonneg q). destruct Hq as [->|Hq]; [lra|]. apply IH; [lra|exact Hq]. }
    unfold sq in SQ. apply Rmult_integral in SQ as [SQ|SQ]; lra. }
  assert (S0 : 1 <= IZR s) by (apply (IZR_le 1), S1). assert (S53 : IZR s <= pow2 53) by (rewrite pow2_Z by lia; apply IZR_le; lia).
  set (x := IZR s / n) in *.
  assert (X1 : pow2 (- 53) <= x).
  { change (- 53)%Z with (Z.opp 53). rewrite pow2_opp. unfold x, Rdiv. rewrite <- (Rmult_1_l (/ pow2 53)). apply Rmult_le_compat; try lra; [left; apply Rinv_0_lt_compat, pow2_pos|].
    apply Rinv_le_contravar; lra. }
  assert (X2 : x <= pow2 53).
  { apply Rmult_le_reg_r with n; [lra|]. unfold x, Rdiv. rewrite Rmult_assoc, Rinv_l, Rmult_1_r by lra. pose proof (pow2_pos 53). nra. }
  pose proof (pow2_pos (- 53)) as P53. assert (L200 : pow2 53 <= pow2 200) by (apply pow2_le; lia).
  assert (M : Rabs (round_f binary64 x - x) <= v64 * x) by (apply round_64_rel; apply Rle_trans with (pow2 (- 53)); [apply pow2_le; lia|exact X1]).
  pose proof v64_small as V.
  destruct (decibel_close dr x (round_f binary64 x) v64 DR ltac:(lra) ltac:(lra) M) as [Y B].
  assert (R1 : forall t', adds t' a b -> psnr_r dr binary32 t' = Fin (10 * log10 (dr * dr / round_f binary64 x))).
  { intros t' H'. destruct (K t' H') as (s' & Es' & Bs' & Vs'). assert (s' = s) as ->.
    { apply eq_IZR. rewrite Vs, Vs'. apply Rsum_perm, Permutation_map. destruct H as [_ H], H' as [_ H'].
      eapply Permutation_trans; [exact H'|apply Permutation_sym, H]. }
    unfold psnr_r. replace (forallb _ (leaves t')) with false.
    - unfold mse_r. rewrite Es', (adds_length _ _ _ H'). fold n. fold x. rewrite (store_64 x (round_f binary64 x)) by (lra || reflexivity).
      destruct (Req_EM_T dr 0); [contradiction|]. destruct (Req_EM_T (round_f binary64 x) 0); [lra|]. reflexivity.
    - symmetry. apply not_true_iff_false. intros C. rewrite forallb_forall in C. apply NE, (adds_equal t' a b H'). intros p Hp. specialize (C p Hp).
      destruct (Req_EM_T (fst p) (snd p)); [assumption|discriminate]. }
  exists (10 * log10 (dr * dr / round_f binary64 x)), (10 * log10 (dr * dr / x)). split; [apply R1, H|]. split; [|split; [|exact R1]].
  - unfold psnr. rewrite E. replace (list_eqbR a b) with false.
    + destruct (Req_EM_T dr 0); [contradiction|reflexivity].
    + symmetry. apply not_true_iff_false. intros C. apply NE, list_eqbR_eq, C.
  - eapply Rle_trans; [exact B|]. replace (pow2 (- 49)) with (16 * v64); [lra|]. unfold v64. change (- 49)%Z with (4 + - 53)%Z. rewrite pow2_plus.
    change (pow2 4) with (2 * (2 * (2 * (2 * 1)))). ring.
Qed.
Print Assumptions C131_psnr_8_bit.

(** The bound applies: two voxels, difference 1. *)
Example C131_example_psnr : exists p P, psnr_r 255 binary32 (Node (Leaf (10, 11)) (Leaf (20, 20))) = Fin p /\
  psnr 255 [10; 20] [11; 20] = Fin P /\ Rabs (p - P) <= pow2 (- 49).
Proof.
  destruct (C131_psnr_8_bit (Node (Leaf (10, 11)) (Leaf (20, 20))) [10; 20] [11; 20] 255) as (p & P & H1 & H2 & H3 & _).
  - split; [reflexivity|]. cbn. apply Permutation_refl.
  - cbn. lia.
  - lra.
  - intros C. injection C as C. lra.
  - constructor; [exists 10%Z, 11%Z; repeat split; lia|]. constructor; [exists 20%Z, 20%Z; repeat split; lia|constructor].
  - eauto.
Qed.
