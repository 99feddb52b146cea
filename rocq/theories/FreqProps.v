(** C108-C111: the frequency domain filters of MAD. *)
From Coq Require Import Reals Lra Lia Psatz.
From Verif Require Import Base NdArray PairModel RealSums MetricModel SsimModel SsimProofs GsmModel GsmProofs MadModel
  MadLoopProofs MadProofs MadProps FreqModel FreqProofs FreqAngleProofs.

Local Open Scope R_scope.

(** ** C108: the contrast sensitivity filter *)

(** The signed frequency of bin k of a transform of length n. *)
Definition frequency (n k : nat) : R := if (2 * k <? n)%nat then INR k else INR k - INR n.
(** Half a bin for even lengths. *)
Definition half_bin (n : nat) : R := if Nat.even n then 1/2 else 0.
(** Sensitivity along the diagonals is that of a frequency 1/0.7 times as high. *)
Definition direction (x y : R) : R :=
  if Req_EM_T (x ^ 2 + y ^ 2) 0 then 1
  else 85/100 + 15/100 * ((x ^ 4 - 6 * x ^ 2 * y ^ 2 + y ^ 4) / (x ^ 2 + y ^ 2) ^ 2).
Definition sensitivity (lambda f_peak f : R) : R :=
  if Rlt_dec f f_peak then 9809/10000
  else 26/10 * (192/10000 + lambda * f) * exp (- rpow (lambda * f) (11/10)).
(** Both frequencies are divided by the number of columns. *)
Definition csf_spec (m n : nat) (nfreq lambda f_peak : R) (k l : nat) : R :=
  let x := 2 * nfreq * (frequency n l + half_bin n) / INR n in
  let y := 2 * nfreq * (frequency m k + half_bin m) / INR n in
  sensitivity lambda f_peak (sqrt (x ^ 2 + y ^ 2) / direction x y).

Lemma direction_eq x y : (1 - 7/10) / 2 * cos (4 * arctan2 y x) + (1 + 7/10) / 2 = direction x y.
Proof.
  unfold direction. destruct (Req_EM_T (x ^ 2 + y ^ 2) 0) as [E|E].
  - assert (x = 0) by nra. assert (y = 0) by nra. subst. rewrite arctan2_zero, Rmult_0_r, cos_0. field.
  - rewrite cos_four_angle; [field; exact E|]. destruct (Req_dec x 0) as [->|]; [right|left; assumption]. intros ->. apply E. ring.
Qed.

Lemma direction_range x y : 7/10 <= direction x y <= 1.
Proof.
  rewrite <- direction_eq. assert (B := COS_bound (4 * arctan2 y x)). lra.
Qed.

Lemma coord_frequency n k : (k < n)%nat -> csf_coord n ((k + n / 2) mod n) = frequency n k + half_bin n.
Proof.
  intros Hk. unfold csf_coord, frequency, half_bin.
  destruct (Nat.even n) eqn:En.
  - apply Nat.even_spec in En as [q Hq]. subst n. assert (D : (2 * q / 2 = q)%nat) by (rewrite Nat.mul_comm; apply Nat.div_mul; lia).
    rewrite D. destruct (Nat.ltb_spec (2 * k) (2 * q)).
    + rewrite Nat.mod_small by lia. rewrite plus_INR, mult_INR. change (INR 2) with 2. field.
    + replace (k + q)%nat with (k - q + 1 * (2 * q))%nat by lia. rewrite Nat.mod_add, Nat.mod_small by lia.
      rewrite minus_INR, mult_INR by lia. change (INR 2) with 2. field.
  - assert (On : Nat.odd n = true) by (rewrite <- Nat.negb_even, En; reflexivity).
    apply Nat.odd_spec in On as [q Hq]. subst n.
    assert (D : ((2 * q + 1) / 2 = q)%nat) by (symmetry; apply (Nat.div_unique _ 2 q 1); lia). rewrite D.
    destruct (Nat.ltb_spec (2 * k) (2 * q + 1)).
    + rewrite Nat.mod_small by lia. rewrite !plus_INR, mult_INR. change (INR 2) with 2. change (INR 1) with 1. field.
    + replace (k + q)%nat with (k - q - 1 + 1 * (2 * q + 1))%nat by lia. rewrite Nat.mod_add, Nat.mod_small by lia.
      rewrite !minus_INR, plus_INR, mult_INR by lia. change (INR 2) with 2. change (INR 1) with 1. field.
Qed.

Lemma csf_weight_eq lambda f_peak x y :
  csf_weight lambda f_peak x y = sensitivity lambda f_peak (sqrt (x ^ 2 + y ^ 2) / direction x y).
Proof.
  unfold csf_weight, sensitivity, cabs. cbn [fst snd]. rewrite direction_eq.
  replace (x * x + y * y) with (x ^ 2 + y ^ 2) by ring. reflexivity.
Qed.

Lemma csf_shifted m n nfreq lambda f_peak k l : (k < m)%nat -> (l < n)%nat ->
  ifftshift m n (csf m n nfreq lambda f_peak) k l = csf_spec m n nfreq lambda f_peak k l.
Proof.
  intros Hk Hl. unfold ifftshift, csf, csf_spec. rewrite csf_weight_eq, !coord_frequency by assumption. cbv zeta.
  assert (Hn := INR_pos n ltac:(lia)).
  replace ((frequency n l + half_bin n) * 2 * nfreq / INR n) with (2 * nfreq * (frequency n l + half_bin n) / INR n) by (field; lra).
  replace ((frequency m k + half_bin m) * 2 * nfreq / INR n) with (2 * nfreq * (frequency m k + half_bin m) / INR n) by (field; lra).
  reflexivity.
Qed.

Lemma getd_tabulate m n f x y : (x < m)%nat -> (y < n)%nat -> getd (tabulate [m; n] f) [x; y] = f [x; y].
Proof.
  intros Hx Hy. unfold getd. rewrite get_tabulate; [reflexivity|]. cbn [inb].
  destruct (Nat.ltb_spec x m), (Nat.ltb_spec y n); try lia; reflexivity.
Qed.

Lemma csf_filter_dims nfreq lambda f_peak lum m n : shp lum = [m; n] ->
  csf_filter nfreq lambda f_peak lum = parts m n (weighted m n (csf m n nfreq lambda f_peak) (pixels lum)).
Proof. intros H. unfold csf_filter, dim0, dim1. rewrite H. reflexivity. Qed.

Lemma csf_filter_value nfreq lambda f_peak lum m n x y : shp lum = [m; n] -> (x < m)%nat -> (y < n)%nat ->
  let v := idft m n (fun k l => cmul (creal (csf_spec m n nfreq lambda f_peak k l)) (dft m n (pixels lum) k l)) x y in
  getd (fst (csf_filter nfreq lambda f_peak lum)) [x; y] = fst v /\ getd (snd (csf_filter nfreq lambda f_peak lum)) [x; y] = snd v.
Proof.
  intros Hs Hx Hy v. rewrite (csf_filter_dims _ _ _ _ m n Hs). unfold parts. cbn [fst snd].
  rewrite !getd_tabulate by assumption. cbn [nth]. rewrite weighted_eq.
  assert (E : idft m n (fun k l => cmul (creal (ifftshift m n (csf m n nfreq lambda f_peak) k l)) (dft m n (pixels lum) k l)) x y = v).
  { unfold v. apply idft_ext. intros k l Hk Hl. rewrite csf_shifted by assumption. reflexivity. }
  rewrite E. split; reflexivity.
Qed.

(** The two shifts cancel: _ifft undoes _fft and the other way round, for every size. *)
Theorem C108_round_trip : forall m n a x y, (x < m)%nat -> (y < n)%nat ->
  ifft_ m n (fft_ m n a) x y = a x y /\ fft_ m n (ifft_ m n a) x y = a x y.
Proof.
  intros m n a x y Hx Hy. split.
  - transitivity (weighted m n (fun _ _ => 1) a x y).
    + unfold weighted, ifft_. apply idft_ext. intros k l _ _. unfold ifftshift. rewrite creal_1. ring.
    + rewrite weighted_eq. rewrite (idft_ext m n _ (dft m n a)); [apply idft_dft; assumption|].
      intros k l _ _. unfold ifftshift. rewrite creal_1. ring.
  - unfold fft_, ifft_, fftshift. rewrite dft_idft by (apply Nat.mod_upper_bound; lia). unfold ifftshift.
    assert (B : forall n i, (i < n)%nat -> (((i + (n - n / 2)) mod n + n / 2) mod n = i)%nat).
    { clear. intros n i H. rewrite Nat.add_mod_idemp_l by lia. assert (n / 2 <= n)%nat by (apply Nat.div_le_upper_bound; lia).
      replace (i + (n - n / 2) + n / 2)%nat with (i + 1 * n)%nat by lia. rewrite Nat.mod_add by lia. apply Nat.mod_small. exact H. }
    rewrite !B by assumption. reflexivity.
Qed.
Print Assumptions C108_round_trip.

(** Which weight every frequency gets: that of the frequency itself for odd sizes, that of the frequency
    half a bin further along for even sizes; rows count as columns. *)
Theorem C108_weights : forall nfreq lambda f_peak lum m n x y, shp lum = [m; n] -> (x < m)%nat -> (y < n)%nat ->
  let v := idft m n (fun k l => cmul (creal (csf_spec m n nfreq lambda f_peak k l)) (dft m n (pixels lum) k l)) x y in
  getd (fst (csf_filter nfreq lambda f_peak lum)) [x; y] = fst v /\ getd (snd (csf_filter nfreq lambda f_peak lum)) [x; y] = snd v.
Proof. exact csf_filter_value. Qed.
Print Assumptions C108_weights.

Lemma direction_opp x y : direction (- x) (- y) = direction x y.
Proof.
  unfold direction. replace ((- x) ^ 2) with (x ^ 2) by ring. replace ((- y) ^ 2) with (y ^ 2) by ring.
  replace ((- x) ^ 4) with (x ^ 4) by ring. replace ((- y) ^ 4) with (y ^ 4) by ring. reflexivity.
Qed.

Lemma frequency_neg n k : (k < n)%nat -> Nat.even n = false -> frequency n (neg_mod n k) = - frequency n k.
Proof.
  intros Hk En. assert (On : Nat.odd n = true) by (rewrite <- Nat.negb_even, En; reflexivity).
  apply Nat.odd_spec in On as [q Hq]. unfold neg_mod, frequency. destruct (Nat.eq_dec k 0) as [->|H0].
  - rewrite Nat.sub_0_r, Nat.mod_same by lia. destruct (Nat.ltb_spec (2 * 0) n); [|lia]. change (INR 0) with 0. ring.
  - rewrite Nat.mod_small by lia. destruct (Nat.ltb_spec (2 * (n - k)) n), (Nat.ltb_spec (2 * k) n); try lia; rewrite minus_INR by lia; ring.
Qed.

(** Odd sizes: the filtered image is real. *)
Theorem C108_odd_real : forall nfreq lambda f_peak lum m n x y, shp lum = [m; n] -> (x < m)%nat -> (y < n)%nat ->
  Nat.odd m = true -> Nat.odd n = true ->
  getd (snd (csf_filter nfreq lambda f_peak lum)) [x; y] = 0.
Proof.
  intros nfreq lambda f_peak lum m n x y Hs Hx Hy Om On.
  assert (Em : Nat.even m = false) by (rewrite <- Nat.negb_odd, Om; reflexivity).
  assert (En : Nat.even n = false) by (rewrite <- Nat.negb_odd, On; reflexivity).
  destruct (csf_filter_value nfreq lambda f_peak lum m n x y Hs Hx Hy) as [_ ->].
  apply even_filter_real; try lia; [intros; unfold pixels; apply conj_real|].
  intros k l Hk Hl. unfold csf_spec. cbv zeta. rewrite !frequency_neg by assumption. unfold half_bin. rewrite Em, En, !Rplus_0_r.
  set (u := frequency m k). set (v := frequency n l). assert (Hn := INR_pos n ltac:(lia)).
  replace (2 * nfreq * - v / INR n) with (- (2 * nfreq * v / INR n)) by (field; lra).
  replace (2 * nfreq * - u / INR n) with (- (2 * nfreq * u / INR n)) by (field; lra).
  rewrite direction_opp. f_equal. f_equal. f_equal. ring.
Qed.
Print Assumptions C108_odd_real.

(** Even sizes: it need not be, with the default parameters. *)
Definition impulse : arr R := Arr [1%nat; 4%nat] [1; 0; 0; 0].
Lemma dft_impulse k l : dft 1 4 (pixels impulse) k l = c1.
Proof.
  unfold dft. cbn [csum]. unfold pixels, impulse, getd, get. cbn. unfold phase. cbn [INR].
  replace (- (2 * PI * (INR k * 0 / 1 + INR l * 0 / (1 + 1 + 1 + 1)))) with 0 by (field; lra). rewrite cis_0, creal_0, creal_1. ring.
Qed.

Lemma sensitivity_low : sensitivity (114/1000) (78909/10000) 8 > 8/10.
Proof.
  unfold sensitivity. destruct (Rlt_dec 8 (78909/10000)); [lra|].
  set (t := rpow (114 / 1000 * 8) (11 / 10)). assert (Ht : t <= 1) by (apply rpow_le_one; lra).
  assert (E : / 3 <= exp (- t)).
  { rewrite exp_Ropp. apply Rinv_le_contravar; [apply exp_pos|]. assert (exp t <= exp 1).
    { destruct Ht as [Ht| ->]; [left; apply exp_increasing, Ht|lra]. }
    assert (X := exp_le_3). lra. }
  nra.
Qed.
Lemma sensitivity_high : sensitivity (114/1000) (78909/10000) 24 < 7/10.
Proof.
  unfold sensitivity. destruct (Rlt_dec 24 (78909/10000)); [lra|].
  set (t := rpow (114 / 1000 * 24) (11 / 10)). assert (Ht : 114/1000 * 24 <= t) by (apply rpow_ge_self; lra).
  assert (E : exp (- t) <= / (1342/1000) ^ 8).
  { rewrite exp_Ropp. apply Rinv_le_contravar; [nra|].
    assert (A : exp (114/1000 * 24) <= exp t) by (destruct Ht as [Ht| ->]; [left; apply exp_increasing, Ht|lra]).
    assert (B : exp (114/1000 * 24) = exp (342/1000) ^ 8).
    { replace (114/1000 * 24) with (342/1000 + 342/1000 + 342/1000 + 342/1000 + 342/1000 + 342/1000 + 342/1000 + 342/1000) by lra.
      rewrite !exp_plus. ring. }
    assert (D := exp_ineq1_le (342/1000)). rewrite B in A. eapply Rle_trans; [|exact A]. apply pow_incr. lra. }
  assert (P := exp_pos (- t)). nra.
Qed.

Theorem C108_even_real_refuted : exists lum m n x y, shp lum = [m; n] /\ (x < m)%nat /\ (y < n)%nat /\
  getd (snd (csf_filter 32 (114/1000) (78909/10000) lum)) [x; y] <> 0.
Proof.
  exists impulse, 1%nat, 4%nat, 0%nat, 1%nat. split; [reflexivity|]. split; [lia|]. split; [lia|].
  destruct (csf_filter_value 32 (114/1000) (78909/10000) impulse 1 4 0 1 eq_refl ltac:(lia) ltac:(lia)) as [_ ->].
  unfold idft. cbn [csum]. rewrite !dft_impulse.
  assert (W : forall l, csf_spec 1 4 32 (114/1000) (78909/10000) 0 l = sensitivity (114/1000) (78909/10000) (Rabs (16 * (frequency 4 l + 1/2)))).
  { intros l. unfold csf_spec. cbv zeta. unfold frequency at 2 4, half_bin. cbn [Nat.ltb Nat.leb Nat.mul Nat.add Nat.even]. change (INR 0) with 0.
    replace (INR 4) with 4 by (cbn; ring). set (f := frequency 4 l).
    replace (2 * 32 * (f + 1 / 2) / 4) with (16 * (f + 1/2)) by field. replace (2 * 32 * (0 + 0) / 4) with 0 by field.
    set (x := 16 * (f + 1/2)). replace (direction x 0) with 1.
    2:{ unfold direction. destruct (Req_EM_T _ 0); [reflexivity|]. field. intros E. apply n. nra. }
    replace (x ^ 2 + 0 ^ 2) with (Rsqr x) by (unfold Rsqr; ring). rewrite sqrt_Rsqr_abs. f_equal. field. }
  rewrite !W.
  assert (F0 : frequency 4 0 = 0) by reflexivity.
  assert (F1 : frequency 4 1 = 1) by reflexivity.
  assert (F2 : frequency 4 2 = -2) by (unfold frequency; cbn; lra).
  assert (F3 : frequency 4 3 = -1) by (unfold frequency; cbn; lra).
  rewrite F0, F1, F2, F3.
  replace (Rabs (16 * (0 + 1/2))) with 8 by (rewrite Rabs_pos_eq; lra).
  replace (Rabs (16 * (1 + 1/2))) with 24 by (rewrite Rabs_pos_eq; lra).
  replace (Rabs (16 * (-2 + 1/2))) with 24 by (rewrite Rabs_left; lra).
  replace (Rabs (16 * (-1 + 1/2))) with 8 by (rewrite Rabs_left; lra).
  assert (A := sensitivity_low). assert (B := sensitivity_high).
  set (s8 := sensitivity _ _ 8) in *. set (s24 := sensitivity _ _ 24) in *.
  unfold phase. cbn [INR Nat.mul Nat.add].
  replace (2 * PI * (0 * 0 / 1 + 0 * 1 / (1 + 1 + 1 + 1))) with 0 by field.
  replace (2 * PI * (0 * 0 / 1 + 1 * 1 / (1 + 1 + 1 + 1))) with (PI / 2) by field.
  replace (2 * PI * (0 * 0 / 1 + (1 + 1) * 1 / (1 + 1 + 1 + 1))) with PI by field.
  replace (2 * PI * (0 * 0 / 1 + (1 + 1 + 1) * 1 / (1 + 1 + 1 + 1))) with (3 * (PI / 2)) by field.
  unfold c1, c0, cis. cbn [cmul cadd creal fst snd]. rewrite sin_0, sin_PI2, sin_PI, sin_3PI2.
  intros E. lra.
Qed.
Print Assumptions C108_even_real_refuted.

(** A constant image only gets the weight of frequency 0. *)
Theorem C108_constant : forall nfreq lambda f_peak lum m n c x y, shp lum = [m; n] -> (x < m)%nat -> (y < n)%nat ->
  (forall x y, (x < m)%nat -> (y < n)%nat -> getd lum [x; y] = c) ->
  getd (fst (csf_filter nfreq lambda f_peak lum)) [x; y] = csf_spec m n nfreq lambda f_peak 0 0 * c /\
  getd (snd (csf_filter nfreq lambda f_peak lum)) [x; y] = 0.
Proof.
  intros nfreq lambda f_peak lum m n c x y Hs Hx Hy Hc.
  destruct (csf_filter_value nfreq lambda f_peak lum m n x y Hs Hx Hy) as [-> ->]. set (w := csf_spec m n nfreq lambda f_peak).
  assert (E : idft m n (fun k l => cmul (creal (w k l)) (dft m n (pixels lum) k l)) x y = creal (w 0%nat 0%nat * c)).
  { rewrite (idft_ext m n _ (fun k l => cmul (creal (w 0%nat 0%nat)) (dft m n (fun _ _ => creal c) k l))).
    - rewrite idft_scale, idft_dft by assumption. symmetry. apply creal_mul.
    - intros k l Hk Hl. rewrite (dft_ext m n (pixels lum) (fun _ _ => creal c)).
      2:{ intros x' y' Hx' Hy'. unfold pixels. rewrite Hc by assumption. reflexivity. }
      rewrite dft_const by assumption. destruct (Nat.eqb_spec k 0) as [->|]; [|cbn [andb]; ring].
      destruct (Nat.eqb_spec l 0) as [->|]; cbn [andb]; ring. }
  rewrite E. split; reflexivity.
Qed.
Print Assumptions C108_constant.

Lemma frequency_abs n k : (k < n)%nat -> Rabs (frequency n k + half_bin n) <= INR n / 2.
Proof.
  intros Hk. rewrite <- coord_frequency by exact Hk. unfold csf_coord.
  assert (B : ((k + n / 2) mod n < n)%nat) by (apply Nat.mod_upper_bound; lia).
  set (i := ((k + n / 2) mod n)%nat) in *. assert (0 <= INR i) by apply pos_INR.
  assert (INR i + 1 <= INR n) by (rewrite <- S_INR; apply le_INR; lia). apply Rabs_le. lra.
Qed.

(** Where all frequencies lie below the peak the filter is a factor 0.9809. *)
Theorem C108_below_peak : forall nfreq lambda f_peak lum m n x y, shp lum = [m; n] -> (x < m)%nat -> (y < n)%nat ->
  0 <= nfreq -> nfreq * (1 + INR m / INR n) < 7/10 * f_peak ->
  getd (fst (csf_filter nfreq lambda f_peak lum)) [x; y] = 9809/10000 * getd lum [x; y] /\
  getd (snd (csf_filter nfreq lambda f_peak lum)) [x; y] = 0.
Proof.
  intros nfreq lambda f_peak lum m n x y Hs Hx Hy Hf Hp.
  destruct (csf_filter_value nfreq lambda f_peak lum m n x y Hs Hx Hy) as [-> ->].
  assert (Hn := INR_pos n ltac:(lia)). assert (Hm := INR_pos m ltac:(lia)).
  assert (E : idft m n (fun k l => cmul (creal (csf_spec m n nfreq lambda f_peak k l)) (dft m n (pixels lum) k l)) x y
              = creal (9809/10000 * getd lum [x; y])).
  { rewrite (idft_ext m n _ (fun k l => cmul (creal (9809/10000)) (dft m n (pixels lum) k l))).
    - rewrite idft_scale, idft_dft by assumption. symmetry. apply creal_mul.
    - intros k l Hk Hl. f_equal. f_equal. unfold csf_spec. cbv zeta.
      assert (Bu := frequency_abs m k Hk). assert (Bv := frequency_abs n l Hl).
      set (u := frequency m k + half_bin m) in *. set (v := frequency n l + half_bin n) in *.
      set (X := 2 * nfreq * v / INR n). set (Y := 2 * nfreq * u / INR n).
      assert (BX : Rabs X <= nfreq).
      { unfold X. replace (2 * nfreq * v / INR n) with (nfreq * (2 * v / INR n)) by (field; lra). rewrite Rabs_mult, (Rabs_pos_eq nfreq) by lra.
        assert (Rabs (2 * v / INR n) <= 1); [|nra]. unfold Rdiv. rewrite !Rabs_mult, (Rabs_pos_eq 2), (Rabs_pos_eq (/ INR n)) by (try lra; left; apply Rinv_0_lt_compat; lra).
        apply (Rmult_le_reg_r (INR n)); [lra|]. rewrite Rmult_assoc, Rinv_l by lra. lra. }
      assert (BY : Rabs Y <= nfreq * (INR m / INR n)).
      { unfold Y. replace (2 * nfreq * u / INR n) with (nfreq * (2 * u / INR n)) by (field; lra). rewrite Rabs_mult, (Rabs_pos_eq nfreq) by lra.
        apply Rmult_le_compat_l; [lra|]. unfold Rdiv. rewrite !Rabs_mult, (Rabs_pos_eq 2), (Rabs_pos_eq (/ INR n)) by (try lra; left; apply Rinv_0_lt_compat; lra).
        apply Rmult_le_compat_r; [left; apply Rinv_0_lt_compat; lra|]. lra. }
      assert (D := direction_range X Y).
      assert (S : sqrt (X ^ 2 + Y ^ 2) <= Rabs X + Rabs Y).
      { apply Rsqr_incr_0_var; [|assert (A1 := Rabs_pos X); assert (A2 := Rabs_pos Y); lra].
        unfold Rsqr. rewrite sqrt_sqrt by nra. assert (A1 := Rabs_pos X). assert (A2 := Rabs_pos Y).
        assert (Q1 : Rabs X * Rabs X = X ^ 2) by (rewrite <- Rabs_mult, Rabs_pos_eq; [ring|nra]).
        assert (Q2 : Rabs Y * Rabs Y = Y ^ 2) by (rewrite <- Rabs_mult, Rabs_pos_eq; [ring|nra]). nra. }
      unfold sensitivity. destruct (Rlt_dec _ f_peak) as [|N]; [reflexivity|]. exfalso. apply N.
      apply (Rmult_lt_reg_r (direction X Y)); [lra|]. unfold Rdiv at 1. rewrite Rmult_assoc, Rinv_l by lra.
      assert (T : sqrt (X ^ 2 + Y ^ 2) * 1 <= nfreq * (1 + INR m / INR n)) by lra.
      assert (0 <= sqrt (X ^ 2 + Y ^ 2)) by apply sqrt_pos.
      assert (7/10 * f_peak <= f_peak * direction X Y) by nra. lra. }
  rewrite E. split; reflexivity.
Qed.
Print Assumptions C108_below_peak.

Lemma sensitivity_pos lambda f_peak f : 0 <= lambda -> 0 <= f -> 0 < sensitivity lambda f_peak f.
Proof.
  intros Hl Hf. unfold sensitivity. destruct (Rlt_dec f f_peak); [lra|]. apply Rmult_lt_0_compat; [nra|apply exp_pos].
Qed.

(** Every weight is positive, so different images have different filtered images. *)
Theorem C108_injective : forall nfreq lambda f_peak a b m n, shp a = [m; n] -> shp b = [m; n] -> 0 <= lambda ->
  csf_filter nfreq lambda f_peak a = csf_filter nfreq lambda f_peak b ->
  forall x y, (x < m)%nat -> (y < n)%nat -> getd a [x; y] = getd b [x; y].
Proof.
  intros nfreq lambda f_peak a b m n Ha Hb Hl E x y Hx Hy.
  set (G := fun (i : arr R) k l => cmul (creal (csf_spec m n nfreq lambda f_peak k l)) (dft m n (pixels i) k l)).
  assert (E1 : forall u v, (u < m)%nat -> (v < n)%nat -> idft m n (G a) u v = idft m n (G b) u v).
  { intros u v Hu Hv. destruct (csf_filter_value nfreq lambda f_peak a m n u v Ha Hu Hv) as [A1 A2].
    destruct (csf_filter_value nfreq lambda f_peak b m n u v Hb Hu Hv) as [B1 B2]. fold (G a) in A1, A2. fold (G b) in B1, B2.
    apply cplx_eq; [rewrite <- A1, <- B1, E|rewrite <- A2, <- B2, E]; reflexivity. }
  assert (E2 : forall k l, (k < m)%nat -> (l < n)%nat -> G a k l = G b k l).
  { intros k l Hk Hl'. rewrite <- (dft_idft m n (G a) k l), <- (dft_idft m n (G b) k l) by assumption. apply dft_ext. exact E1. }
  assert (E3 : forall k l, (k < m)%nat -> (l < n)%nat -> dft m n (pixels a) k l = dft m n (pixels b) k l).
  { intros k l Hk Hl'. specialize (E2 k l Hk Hl'). unfold G in E2. set (w := csf_spec m n nfreq lambda f_peak k l) in *.
    assert (Hw : 0 < w).
    { unfold w, csf_spec. cbv zeta. apply sensitivity_pos; [exact Hl|]. apply Rmult_le_pos; [apply sqrt_pos|].
      left. apply Rinv_0_lt_compat. match goal with |- 0 < direction ?p ?q => assert (D := direction_range p q) end. lra. }
    assert (Z0 : csub (dft m n (pixels a) k l) (dft m n (pixels b) k l) = c0).
    { apply (cmul_cancel (creal w)); [intros C; apply (f_equal fst) in C; cbn [fst creal c0] in C; lra|].
      transitivity (csub (cmul (creal w) (dft m n (pixels a) k l)) (cmul (creal w) (dft m n (pixels b) k l))); [ring|]. rewrite E2. ring. }
    transitivity (cadd (csub (dft m n (pixels a) k l) (dft m n (pixels b) k l)) (dft m n (pixels b) k l)); [ring|]. rewrite Z0. ring. }
  assert (E4 : pixels a x y = pixels b x y).
  { rewrite <- (idft_dft m n (pixels a) x y), <- (idft_dft m n (pixels b) x y) by assumption. apply idft_ext. exact E3. }
  apply (f_equal fst) in E4. exact E4.
Qed.
Print Assumptions C108_injective.

(** The weights of the transposed image are not the transposed weights unless the image is square. *)
Lemma sensitivity_higher : sensitivity (114/1000) (78909/10000) 32 < 7/10.
Proof.
  unfold sensitivity. destruct (Rlt_dec 32 (78909/10000)); [lra|].
  set (t := rpow (114 / 1000 * 32) (11 / 10)). assert (Ht : 114/1000 * 32 <= t) by (apply rpow_ge_self; lra).
  assert (E : exp (- t) <= / (1456/1000) ^ 8).
  { rewrite exp_Ropp. apply Rinv_le_contravar; [nra|].
    assert (A : exp (114/1000 * 32) <= exp t) by (destruct Ht as [Ht| ->]; [left; apply exp_increasing, Ht|lra]).
    assert (B : exp (114/1000 * 32) = exp (456/1000) ^ 8).
    { replace (114/1000 * 32) with (456/1000 + 456/1000 + 456/1000 + 456/1000 + 456/1000 + 456/1000 + 456/1000 + 456/1000) by lra.
      rewrite !exp_plus. ring. }
    assert (D := exp_ineq1_le (456/1000)). rewrite B in A. eapply Rle_trans; [|exact A]. apply pow_incr. lra. }
  assert (P := exp_pos (- t)). nra.
Qed.

Theorem C108_square : forall n nfreq lambda f_peak i j, csf n n nfreq lambda f_peak i j = csf n n nfreq lambda f_peak j i.
Proof.
  intros n nfreq lambda f_peak i j. unfold csf. rewrite !csf_weight_eq. set (u := _ / INR n). set (v := csf_coord n i * _ * _ / _).
  f_equal. assert (D : direction u v = direction v u).
  { unfold direction. replace (v ^ 2 + u ^ 2) with (u ^ 2 + v ^ 2) by ring.
    replace (v ^ 4 - 6 * v ^ 2 * u ^ 2 + u ^ 4) with (u ^ 4 - 6 * u ^ 2 * v ^ 2 + v ^ 4) by ring. reflexivity. }
  rewrite D. f_equal. f_equal. ring.
Qed.
Print Assumptions C108_square.

Theorem C108_transposed_refuted : exists m n i j, (i < m)%nat /\ (j < n)%nat /\
  csf m n 32 (114/1000) (78909/10000) i j <> csf n m 32 (114/1000) (78909/10000) j i.
Proof.
  exists 1%nat, 4%nat, 0%nat, 2%nat. split; [lia|]. split; [lia|]. unfold csf. rewrite !csf_weight_eq. unfold csf_coord. cbn [INR].
  replace ((- (1 + 1 + 1 + 1) / 2 + 1 / 2 + (1 + 1)) * 2 * 32 / (1 + 1 + 1 + 1)) with 8 by field.
  replace ((- (1) / 2 + 1 / 2 + 0) * 2 * 32 / (1 + 1 + 1 + 1)) with 0 by field.
  replace ((- (1) / 2 + 1 / 2 + 0) * 2 * 32 / 1) with 0 by field.
  replace ((- (1 + 1 + 1 + 1) / 2 + 1 / 2 + (1 + 1)) * 2 * 32 / 1) with 32 by field.
  assert (D1 : direction 8 0 = 1) by (unfold direction; destruct (Req_EM_T _ 0); field).
  assert (D2 : direction 0 32 = 1) by (unfold direction; destruct (Req_EM_T _ 0); field).
  rewrite D1, D2.
  replace (sqrt (8 ^ 2 + 0 ^ 2) / 1) with 8 by (replace (8 ^ 2 + 0 ^ 2) with (Rsqr 8) by (unfold Rsqr; ring); rewrite sqrt_Rsqr by lra; field).
  replace (sqrt (0 ^ 2 + 32 ^ 2) / 1) with 32 by (replace (0 ^ 2 + 32 ^ 2) with (Rsqr 32) by (unfold Rsqr; ring); rewrite sqrt_Rsqr by lra; field).
  assert (A := sensitivity_low). assert (B := sensitivity_higher). lra.
Qed.
Print Assumptions C108_transposed_refuted.

(** Accounting for the monitor: a frequency in cycles per pixel is seen as that many cycles per degree as one degree
    covers pixels, and leaving the monitor out means 64 pixels per degree. *)
Theorem C108_monitor : forall resolution distance m n lambda f_peak k l, (0 < n)%nat ->
  (let pixels_per_degree := resolution * (distance * tan (PI / 180)) in
   let x := pixels_per_degree * ((frequency n l + half_bin n) / INR n) in
   let y := pixels_per_degree * ((frequency m k + half_bin m) / INR n) in
   csf_spec m n (cycles_per_degree (Some (resolution, distance))) lambda f_peak k l =
   sensitivity lambda f_peak (sqrt (x ^ 2 + y ^ 2) / direction x y)) /\
  (resolution * (distance * tan (PI / 180)) = 64 ->
   csf_filter (cycles_per_degree (Some (resolution, distance))) = csf_filter (cycles_per_degree None)).
Proof.
  intros r d m n lambda f_peak k l Hn. assert (P := INR_pos n Hn). split.
  - cbv zeta. unfold csf_spec, cycles_per_degree. cbv zeta.
    replace (2 * (r * d * tan (PI / 180) / 2) * (frequency n l + half_bin n) / INR n)
      with (r * (d * tan (PI / 180)) * ((frequency n l + half_bin n) / INR n)) by (field; lra).
    replace (2 * (r * d * tan (PI / 180) / 2) * (frequency m k + half_bin m) / INR n)
      with (r * (d * tan (PI / 180)) * ((frequency m k + half_bin m) / INR n)) by (field; lra). reflexivity.
  - intros E. unfold cycles_per_degree. f_equal. rewrite <- Rmult_assoc in E. rewrite E. field.
Qed.
Print Assumptions C108_monitor.

(** The conditions can be met: a 9 x 9 image of ones, default parameters. *)
Example C108_example :
  getd (fst (csf_filter 32 (114/1000) (78909/10000) (tabulate [9; 9]%nat (fun _ => 1)))) [4; 4]%nat = 9809/10000.
Proof.
  destruct (C108_constant 32 (114/1000) (78909/10000) (tabulate [9; 9]%nat (fun _ => 1)) 9 9 1 4 4) as [-> _];
    [reflexivity|lia|lia|intros; apply getd_tabulate; assumption|].
  unfold csf_spec, frequency, half_bin. cbn [Nat.ltb Nat.leb Nat.mul Nat.add Nat.even]. change (INR 0) with 0. rewrite Rplus_0_r, Rmult_0_r.
  unfold Rdiv at 3 4 5 6. rewrite !Rmult_0_l.
  replace (0 ^ 2 + 0 ^ 2) with 0 by ring. rewrite sqrt_0. unfold Rdiv at 3. rewrite Rmult_0_l.
  unfold sensitivity. destruct (Rlt_dec 0 _) as [|N]; [ring|exfalso; apply N; lra].
Qed.

(** ** C109: log-Gabor responses *)

Lemma gabor_convolve_ok o scales orients img m n g : shp img = [m; n] -> gabor_convolve o scales orients img = Ok g ->
  g = gabor_response o orients m n (pixels img) /\ (0 < orients)%nat.
Proof.
  intros Hs H. unfold gabor_convolve in H. unfold dim0, dim1 in H. rewrite Hs in H. cbn [length Nat.eqb negb nth] in H.
  destruct (Nat.eqb_spec orients 0); [discriminate|]. injection H as <-. split; [reflexivity|lia].
Qed.

Lemma filter_dc o orients m n s d : gabor_filter o orients m n s d 0 0 = 0.
Proof. reflexivity. Qed.

Lemma response_affine o orients m n s d a b c (u v : cplx) (w : cplx) x y :
  (forall x y, (x < m)%nat -> (y < n)%nat -> c x y = cadd (cadd (cmul u (a x y)) (cmul v (b x y))) w) ->
  gabor_response o orients m n c s d x y =
  cadd (cmul u (gabor_response o orients m n a s d x y)) (cmul v (gabor_response o orients m n b s d x y)).
Proof.
  intros Hc. unfold gabor_response. rewrite <- !idft_scale, <- idft_add. apply idft_ext. intros k l Hk Hl.
  rewrite (dft_ext m n c _ Hc), dft_add, dft_add, !dft_scale, dft_const by assumption.
  destruct (Nat.eqb_spec k 0) as [->|]; [destruct (Nat.eqb_spec l 0) as [->|]|]; cbn [andb]; try ring.
  rewrite filter_dc, creal_0. ring.
Qed.

(** The responses are linear and do not see a constant. *)
Theorem C109_affine : forall o scales orients a b c m n (u v w : R) ga gb gc, shp a = [m; n] -> shp b = [m; n] -> shp c = [m; n] ->
  (forall x y, (x < m)%nat -> (y < n)%nat -> getd c [x; y] = u * getd a [x; y] + v * getd b [x; y] + w) ->
  gabor_convolve o scales orients a = Ok ga -> gabor_convolve o scales orients b = Ok gb -> gabor_convolve o scales orients c = Ok gc ->
  forall s d x y, gc s d x y = (u * fst (ga s d x y) + v * fst (gb s d x y), u * snd (ga s d x y) + v * snd (gb s d x y)).
Proof.
  intros o scales orients a b c m n u v w ga gb gc Ha Hb Hc H Ea Eb Ec s d x y.
  apply (gabor_convolve_ok _ _ _ _ m n) in Ea as [-> _]; [|exact Ha]. apply (gabor_convolve_ok _ _ _ _ m n) in Eb as [-> _]; [|exact Hb].
  apply (gabor_convolve_ok _ _ _ _ m n) in Ec as [-> _]; [|exact Hc].
  rewrite (response_affine o orients m n s d (pixels a) (pixels b) (pixels c) (creal u) (creal v) (creal w)).
  - cx.
  - intros x' y' Hx Hy. unfold pixels. rewrite H by assumption. cx.
Qed.
Print Assumptions C109_affine.

(** Responses to a constant image vanish. *)
Theorem C109_constant : forall o scales orients a m n c g, shp a = [m; n] ->
  (forall x y, (x < m)%nat -> (y < n)%nat -> getd a [x; y] = c) -> gabor_convolve o scales orients a = Ok g ->
  forall s d x y, g s d x y = (0, 0).
Proof.
  intros o scales orients a m n c g Ha Hc Hg s d x y.
  rewrite (C109_affine o scales orients a a a m n 0 0 c g g g Ha Ha Ha) by (try assumption; intros; rewrite Hc by assumption; ring).
  f_equal; ring.
Qed.
Print Assumptions C109_constant.

(** Every response has mean 0. *)
Theorem C109_mean : forall o scales orients a m n g, shp a = [m; n] -> (0 < m)%nat -> (0 < n)%nat -> gabor_convolve o scales orients a = Ok g ->
  forall s d, csum (fun x => csum (fun y => g s d x y) n) m = (0, 0).
Proof.
  intros o scales orients a m n g Ha Hm Hn Hg s d. apply (gabor_convolve_ok _ _ _ _ m n) in Hg as [-> _]; [|exact Ha].
  transitivity (dft m n (gabor_response o orients m n (pixels a) s d) 0 0).
  - unfold dft. apply csum_ext. intros x _. apply csum_ext. intros y _. rewrite phase_turn. unfold turn. change (INR 0) with 0.
    rewrite !Rmult_0_l. unfold Rdiv. rewrite !Rmult_0_l, Rmult_0_r, Rplus_0_l, Ropp_0, cis_0. ring.
  - unfold gabor_response. rewrite dft_idft by assumption. rewrite filter_dc. cx.
Qed.
Print Assumptions C109_mean.

(** Without orientations, or for images that are not 2D, nothing is computed. *)
Theorem C109_errors : forall o scales orients a,
  (forall g, gabor_convolve o scales orients a = Ok g -> length (shp a) = 2%nat /\ (0 < orients)%nat) /\
  (length (shp a) <> 2%nat -> gabor_convolve o scales orients a = Err ValueError) /\
  (length (shp a) = 2%nat -> orients = 0%nat -> gabor_convolve o scales orients a = Err ZeroDivisionError) /\
  (length (shp a) = 2%nat -> (0 < orients)%nat -> exists g, gabor_convolve o scales orients a = Ok g).
Proof.
  intros o scales orients a. unfold gabor_convolve. destruct (Nat.eqb_spec (length (shp a)) 2); cbn [negb]; [destruct (Nat.eqb_spec orients 0)|].
  all: split; [intros g E; try discriminate; lia|]; split; [intros; try contradiction; try reflexivity|]; split; intros; try contradiction; try lia; eauto.
Qed.
Print Assumptions C109_errors.

(** A constant image of any size: five scales and four orientations of nothing. *)
Example C109_example : exists g, gabor_convolve mad_gabor 5 4 (tabulate [6; 7]%nat (fun _ => 100)) = Ok g /\ forall s d x y, g s d x y = (0, 0).
Proof.
  destruct (proj2 (proj2 (proj2 (C109_errors mad_gabor 5 4 (tabulate [6; 7]%nat (fun _ => 100))))) eq_refl ltac:(lia)) as [g Hg].
  exists g. split; [exact Hg|]. apply (C109_constant mad_gabor 5 4 (tabulate [6; 7]%nat (fun _ => 100)) 6 7 100 g eq_refl); [|exact Hg].
  intros x y Hx Hy. apply getd_tabulate; assumption.
Qed.

(** ** C110: which frequencies a log-Gabor filter lets through *)

(** The frequency (as a fraction of half the sampling rate) that bin k is treated as. For odd sizes the next one. *)
Definition gabor_coord (n k : nat) : R :=
  if Nat.even n then 2 * frequency n k / INR n
  else 2 * (if (2 * k + 1 <? n)%nat then INR k + 1 else INR k + 1 - INR n) / (INR n - 1).

Lemma get_range_eq n q i : (0 < q)%nat -> n = (2 * q)%nat \/ n = (2 * q + 1)%nat -> get_range n i = (INR i - INR q) / INR q.
Proof.
  intros Hq H. assert (P := INR_pos q Hq). assert (1 <= INR q) by (change 1 with (INR 1); apply le_INR; lia).
  unfold get_range, linspace. destruct (Nat.eqb_spec n 1); [lia|]. destruct H as [-> | ->].
  - rewrite Nat.even_mul. cbn [Nat.even orb]. rewrite minus_INR, mult_INR by lia. change (INR 2) with 2. change (INR 1) with 1. field. lra.
  - rewrite Nat.even_add, Nat.even_mul. cbn [Nat.even orb Bool.eqb]. replace (2 * q + 1 - 1)%nat with (2 * q)%nat by lia.
    rewrite plus_INR, mult_INR. change (INR 2) with 2. change (INR 1) with 1. field. lra.
Qed.

Lemma get_range_coord n k : (k < n)%nat -> (1 < n)%nat -> get_range n ((k + (n - n / 2)) mod n) = gabor_coord n k.
Proof.
  intros Hk Hn1. unfold gabor_coord. destruct (Nat.even n) eqn:En.
  - apply Nat.even_spec in En as [q Hq]. assert (D : (n / 2 = q)%nat) by (subst; rewrite Nat.mul_comm; apply Nat.div_mul; lia).
    assert (P := INR_pos q ltac:(lia)).
    rewrite (get_range_eq n q) by lia. rewrite D. replace (n - q)%nat with q by lia. replace (INR n) with (2 * INR q) by (subst n; rewrite mult_INR; reflexivity).
    unfold frequency. destruct (Nat.ltb_spec (2 * k) n).
    + rewrite Nat.mod_small by lia. rewrite plus_INR. field. lra.
    + replace (k + q)%nat with (k - q + 1 * n)%nat by lia. rewrite Nat.mod_add, Nat.mod_small by lia.
      rewrite minus_INR by lia. subst n. rewrite mult_INR. change (INR 2) with 2. field. lra.
  - assert (On : Nat.odd n = true) by (rewrite <- Nat.negb_even, En; reflexivity).
    apply Nat.odd_spec in On as [q Hq]. assert (D : (n / 2 = q)%nat) by (symmetry; apply (Nat.div_unique _ 2 q 1); lia).
    assert (P := INR_pos q ltac:(lia)).
    rewrite (get_range_eq n q) by lia. rewrite D. replace (n - q)%nat with (q + 1)%nat by lia.
    replace (INR n) with (2 * INR q + 1) by (subst n; rewrite plus_INR, mult_INR; reflexivity).
    destruct (Nat.ltb_spec (2 * k + 1) n).
    + rewrite Nat.mod_small by lia. rewrite !plus_INR. change (INR 1) with 1. field. lra.
    + replace (k + (q + 1))%nat with (k - q + 1 * n)%nat by lia. rewrite Nat.mod_add, Nat.mod_small by lia.
      rewrite minus_INR by lia. field. lra.
Qed.

(** The coordinate is 0 exactly where the centre of the grid ends up. *)
Lemma gabor_coord_centre n k : (k < n)%nat -> (1 < n)%nat -> ((k + (n - n / 2)) mod n = n / 2)%nat <-> gabor_coord n k = 0.
Proof.
  intros Hk Hn1. rewrite <- get_range_coord by assumption.
  assert (Q : (exists q, 0 < q /\ n / 2 = q /\ (n = 2 * q \/ n = 2 * q + 1))%nat).
  { exists (n / 2)%nat. pose proof (Nat.div_mod n 2 ltac:(lia)). pose proof (Nat.mod_upper_bound n 2 ltac:(lia)). lia. }
  destruct Q as (q & Hq & D & Hn). assert (P := INR_pos q Hq). rewrite (get_range_eq n q) by assumption. rewrite D.
  set (i := ((k + (n - q)) mod n)%nat). split.
  - intros ->. field. lra.
  - intros E. apply INR_eq. assert (INR i - INR q = 0); [|lra].
    replace (INR i - INR q) with ((INR i - INR q) / INR q * INR q) by (field; lra). rewrite E. ring.
Qed.

(** Centre frequency of a scale (as a fraction of half the sampling rate), width and direction of an orientation. *)
Definition centre_frequency (o : gabor_opts) (s : nat) : R := 2 / (g_min o * g_scaling o ^ s).
Definition radial_gain (o : gabor_opts) (s : nat) (r : R) : R :=
  exp (- (ln (r / centre_frequency o s)) ^ 2 / (2 * ln (g_bandwidth o) ^ 2)).
Definition angular_gain (o : gabor_opts) (orients : nat) (d : R) : R :=
  exp (- d ^ 2 / (2 * (PI / (INR orients * g_dtheta o)) ^ 2)).

Lemma response_spectrum o orients m n a s d k l : (k < m)%nat -> (l < n)%nat ->
  dft m n (gabor_response o orients m n a s d) k l = cmul (dft m n a k l) (creal (gabor_filter o orients m n s d k l)).
Proof. intros Hk Hl. unfold gabor_response. rewrite dft_idft by assumption. reflexivity. Qed.

Lemma spread_eq o orients d x y r phi : 0 < r -> (0 < orients)%nat -> g_dtheta o <> 0 -> x = r * cos phi -> - y = r * sin phi ->
  Rabs (phi - INR d * PI / INR orients) <= PI ->
  gabor_spread o orients d x y = angular_gain o orients (phi - INR d * PI / INR orients).
Proof.
  intros Hr Ho Hd Hx Hy Hphi. unfold gabor_spread, angular_gain. cbv zeta. assert (Hn := INR_pos orients Ho). rewrite Hy. subst x.
  set (an := INR d * PI / INR orients) in *.
  assert (Tr := sin2_cos2 phi). unfold Rsqr in Tr.
  assert (H : r * cos phi <> 0 \/ r * sin phi <> 0).
  { destruct (Req_dec (cos phi) 0) as [E|E]; [|left; apply Rmult_integral_contrapositive_currified; lra].
    right. apply Rmult_integral_contrapositive_currified; [lra|]. intros E'. rewrite E, E' in Tr. lra. }
  destruct (arctan2_polar (r * sin phi) (r * cos phi) H) as [C S].
  replace (r * cos phi * (r * cos phi) + r * sin phi * (r * sin phi)) with (Rsqr r) in C, S
    by (unfold Rsqr; transitivity (r * r * (sin phi * sin phi + cos phi * cos phi)); [rewrite Tr; ring|ring]).
  rewrite sqrt_Rsqr in C, S by lra. rewrite C, S.
  replace (r * sin phi / r * cos an - r * cos phi / r * sin an) with (sin (phi - an)) by (rewrite sin_minus; field; lra).
  replace (r * cos phi / r * cos an + r * sin phi / r * sin an) with (cos (phi - an)) by (rewrite cos_minus; field; lra).
  assert (B : - PI <= phi - an <= PI) by (revert Hphi; unfold Rabs; destruct (Rcase_abs (phi - an)); lra).
  rewrite arctan2_angle by exact B. f_equal. replace (PI / INR orients / g_dtheta o) with (PI / (INR orients * g_dtheta o)) by (field; lra).
  f_equal. f_equal. rewrite <- !Rsqr_pow2. symmetry. apply Rsqr_abs.
Qed.

Lemma log_gabor_eq o s r : 0 < r -> 0 < g_min o -> 0 < g_scaling o -> ln (g_bandwidth o) <> 0 ->
  log_gabor o s r = radial_gain o s r.
Proof.
  intros Hr Hm Hs Hb. unfold log_gabor, radial_gain. cbv zeta. assert (P : 0 < g_scaling o ^ s) by (apply pow_lt, Hs).
  assert (Q : 0 < g_min o * g_scaling o ^ s) by nra.
  assert (E : 1 / (g_min o * g_scaling o ^ s) / (1/2) = centre_frequency o s) by (unfold centre_frequency; field; lra).
  rewrite E. assert (C : 0 < centre_frequency o s) by (unfold centre_frequency; apply Rdiv_lt_0_compat; lra).
  assert (L : ln (r / centre_frequency o s) = ln r - ln (centre_frequency o s)).
  { unfold Rdiv. rewrite ln_mult, ln_Rinv by (try lra; apply Rinv_0_lt_compat; lra). ring. }
  rewrite L. f_equal. field. exact Hb.
Qed.

(** The spectrum of a response: the spectrum of the image times the two gains, at the frequency the bin is
    treated as. *)
Theorem C110_gain : forall o scales orients a m n g s d k l r phi, shp a = [m; n] -> gabor_convolve o scales orients a = Ok g ->
  (1 < m)%nat -> (1 < n)%nat -> (k < m)%nat -> (l < n)%nat -> (k, l) <> (0, 0)%nat ->
  0 < g_min o -> 0 < g_scaling o -> ln (g_bandwidth o) <> 0 -> g_dtheta o <> 0 ->
  0 < r -> gabor_coord n l = r * cos phi -> - gabor_coord m k = r * sin phi ->
  Rabs (phi - INR d * PI / INR orients) <= PI ->
  dft m n (g s d) k l = cmul (dft m n (pixels a) k l)
    (radial_gain o s r * angular_gain o orients (phi - INR d * PI / INR orients), 0).
Proof.
  intros o scales orients a m n g s d k l r phi Ha Hg Hm Hn Hk Hl Hkl P1 P2 P3 P4 Hr Hx Hy Hphi.
  apply (gabor_convolve_ok _ _ _ _ m n) in Hg as [-> Ho]; [|exact Ha]. rewrite response_spectrum by assumption. f_equal.
  unfold creal. f_equal. unfold gabor_filter.
  assert (B : ((k =? 0) && (l =? 0) = false)%nat).
  { destruct (Nat.eqb_spec k 0), (Nat.eqb_spec l 0); try reflexivity. subst. contradiction. }
  rewrite B. unfold fftshift, gabor_centred. cbv zeta. rewrite !get_range_coord by assumption.
  assert (Tr := sin2_cos2 phi). unfold Rsqr in Tr.
  assert (R2 : gabor_coord n l ^ 2 + gabor_coord m k ^ 2 = Rsqr r).
  { replace (gabor_coord m k ^ 2) with ((- gabor_coord m k) ^ 2) by ring. rewrite Hx, Hy. unfold Rsqr.
    transitivity (r * r * (sin phi * sin phi + cos phi * cos phi)); [ring|rewrite Tr; ring]. }
  destruct (Nat.eqb_spec ((k + (m - m / 2)) mod m)%nat (m / 2)) as [E1|E1];
    [destruct (Nat.eqb_spec ((l + (n - n / 2)) mod n)%nat (n / 2)) as [E2|E2]|]; cbn [andb].
  - apply (gabor_coord_centre m k Hk Hm) in E1. apply (gabor_coord_centre n l Hl Hn) in E2. rewrite E1, E2 in R2. unfold Rsqr in R2. nra.
  - rewrite (spread_eq o orients d _ _ r phi) by assumption. f_equal. unfold gabor_radius. rewrite R2, sqrt_Rsqr by lra. cbv zeta.
    destruct (Req_EM_T r 0); [lra|]. apply log_gabor_eq; assumption.
  - rewrite (spread_eq o orients d _ _ r phi) by assumption. f_equal. unfold gabor_radius. rewrite R2, sqrt_Rsqr by lra. cbv zeta.
    destruct (Req_EM_T r 0); [lra|]. apply log_gabor_eq; assumption.
Qed.
Print Assumptions C110_gain.

(** Two bins are blocked: frequency 0, and the one that is treated as frequency 0. *)
Theorem C110_blocked : forall o scales orients a m n g s d k l, shp a = [m; n] -> gabor_convolve o scales orients a = Ok g ->
  (1 < m)%nat -> (1 < n)%nat -> (k < m)%nat -> (l < n)%nat ->
  k = 0%nat /\ l = 0%nat \/ gabor_coord m k = 0 /\ gabor_coord n l = 0 -> dft m n (g s d) k l = (0, 0).
Proof.
  intros o scales orients a m n g s d k l Ha Hg Hm Hn Hk Hl H.
  apply (gabor_convolve_ok _ _ _ _ m n) in Hg as [-> Ho]; [|exact Ha]. rewrite response_spectrum by assumption.
  assert (E : gabor_filter o orients m n s d k l = 0); [|rewrite E; cx].
  unfold gabor_filter. destruct ((k =? 0)%nat && (l =? 0)%nat) eqn:B; [reflexivity|]. destruct H as [[-> ->]|[E1 E2]]; [discriminate|].
  apply (gabor_coord_centre m k Hk Hm) in E1. apply (gabor_coord_centre n l Hl Hn) in E2.
  unfold fftshift, gabor_centred. rewrite E1, E2, !Nat.eqb_refl. cbn [andb]. ring.
Qed.
Print Assumptions C110_blocked.

(** For even sizes the bins are treated as what they are, and the two blocked bins are the same. *)
Theorem C110_even : forall n k, Nat.even n = true -> (k < n)%nat ->
  gabor_coord n k = 2 * frequency n k / INR n /\ (gabor_coord n k = 0 <-> k = 0%nat).
Proof.
  intros n k En Hk. unfold gabor_coord. rewrite En. split; [reflexivity|]. assert (P := INR_pos n ltac:(lia)). split.
  - intros E. assert (F : frequency n k = 0).
    { replace (frequency n k) with (2 * frequency n k / INR n * INR n / 2) by (field; lra). rewrite E. field. }
    unfold frequency in F. destruct (Nat.ltb_spec (2 * k) n); [apply INR_eq; exact F|].
    assert (INR k < INR n) by (apply lt_INR; exact Hk). lra.
  - intros ->. unfold frequency. destruct (Nat.ltb_spec (2 * 0) n); [|lia]. change (INR 0) with 0. field. lra.
Qed.
Print Assumptions C110_even.

(** For odd sizes they are treated as the next bin: the lowest negative frequencies are blocked. *)
Theorem C110_odd : forall n k, Nat.odd n = true -> (1 < n)%nat -> (k < n)%nat ->
  gabor_coord n k = 2 * frequency n ((k + 1) mod n) / (INR n - 1) /\
  (gabor_coord n k = 0 <-> k = (n - 1)%nat).
Proof.
  intros n k On Hn Hk. assert (En : Nat.even n = false) by (rewrite <- Nat.negb_odd, On; reflexivity). unfold gabor_coord. rewrite En.
  apply Nat.odd_spec in On as [q Hq]. assert (P := INR_pos q ltac:(lia)).
  assert (Pn : INR n = 2 * INR q + 1) by (subst n; rewrite plus_INR, mult_INR; reflexivity).
  split.
  - unfold frequency. f_equal. f_equal.
    destruct (Nat.eq_dec k (n - 1)) as [->|Hk'].
    all: try (replace (n - 1 + 1)%nat with n by lia; rewrite Nat.mod_same by lia; destruct (Nat.ltb_spec (2 * (n - 1) + 1) n); [lia|];
      destruct (Nat.ltb_spec (2 * 0) n); [|lia]; rewrite minus_INR by lia; change (INR 0) with 0; change (INR 1) with 1; ring).
    all: rewrite Nat.mod_small by lia; rewrite plus_INR; change (INR 1) with 1;
      destruct (Nat.ltb_spec (2 * k + 1) n), (Nat.ltb_spec (2 * (k + 1)) n); try lia; try reflexivity.
  - split.
    + intros E. set (j := if (2 * k + 1 <? n)%nat then INR k + 1 else INR k + 1 - INR n) in *.
      assert (F : j = 0). { replace j with (2 * j / (INR n - 1) * (INR n - 1) / 2) by (field; lra). rewrite E. field. }
      unfold j in F. assert (0 <= INR k) by apply pos_INR. destruct (Nat.ltb_spec (2 * k + 1) n); [lra|].
      assert (S k = n); [apply INR_eq; rewrite S_INR; lra|lia].
    + intros ->. destruct (Nat.ltb_spec (2 * (n - 1) + 1) n); [lia|]. rewrite minus_INR by lia. change (INR 1) with 1. field. lra.
Qed.
Print Assumptions C110_odd.

(** "Every bin gets the gain of its own frequency" fails for odd sizes. *)
Definition impulse3 : arr R := Arr [3; 3]%nat [1; 0; 0; 0; 0; 0; 0; 0; 0].
Lemma dft_impulse3 k l : dft 3 3 (pixels impulse3) k l = c1.
Proof.
  unfold dft. cbn [csum]. unfold pixels, impulse3, getd, get. cbn. unfold phase. cbn [INR].
  replace (- (2 * PI * (INR k * 0 / (1 + 1 + 1) + INR l * 0 / (1 + 1 + 1)))) with 0 by (field; lra). rewrite cis_0, creal_0, creal_1. ring.
Qed.

Theorem C110_odd_refuted : exists a m n g s d k l r phi, shp a = [m; n] /\ gabor_convolve mad_gabor 5 4 a = Ok g /\
  (1 < m)%nat /\ (1 < n)%nat /\ (k < m)%nat /\ (l < n)%nat /\ (k, l) <> (0, 0)%nat /\ 0 < r /\
  2 * frequency n l / INR n = r * cos phi /\ - (2 * frequency m k / INR m) = r * sin phi /\ Rabs (phi - INR d * PI / INR 4) <= PI /\
  dft m n (g s d) k l <> cmul (dft m n (pixels a) k l)
    (radial_gain mad_gabor s r * angular_gain mad_gabor 4 (phi - INR d * PI / INR 4), 0).
Proof.
  destruct (proj2 (proj2 (proj2 (C109_errors mad_gabor 5 4 impulse3))) eq_refl ltac:(lia)) as [g Hg].
  assert (F : frequency 3 2 = -1) by (unfold frequency; cbn; lra).
  exists impulse3, 3%nat, 3%nat, g, 0%nat, 0%nat, 2%nat, 2%nat, (2/3 * sqrt 2), (3 * (PI / 4)).
  assert (S2 : 0 < sqrt 2) by (apply sqrt_lt_R0; lra). assert (Sq : sqrt 2 * sqrt 2 = 2) by (apply sqrt_sqrt; lra).
  assert (CS : cos (3 * (PI / 4)) = - (1 / sqrt 2) /\ sin (3 * (PI / 4)) = 1 / sqrt 2).
  { replace (3 * (PI / 4)) with (PI - PI / 4) by field. rewrite Rtrigo_facts.cos_pi_minus, Rtrigo_facts.sin_pi_minus, cos_PI4, sin_PI4. split; reflexivity. }
  destruct CS as [C S]. assert (Hpi := PI_RGT_0). rewrite F.
  split; [reflexivity|]. split; [exact Hg|]. repeat (split; [lia || lra || (cbn; congruence)|]).
  split; [rewrite C; cbn [INR]; field; lra|]. split; [rewrite S; cbn [INR]; field; lra|].
  split; [apply Rabs_le; cbn [INR]; lra|].
  rewrite (C110_blocked mad_gabor 5 4 impulse3 3 3 g 0 0 2 2 eq_refl Hg); try lia.
  - rewrite dft_impulse3. intros E. apply (f_equal fst) in E. unfold c1 in E. cbn [fst snd cmul] in E.
    match type of E with 0 = 1 * (?u * ?v) - 0 * 0 => assert (0 < u) by apply exp_pos; assert (0 < v) by apply exp_pos end. nra.
  - right. assert (O : Nat.odd 3 = true) by reflexivity.
    split; apply (proj2 (C110_odd 3 2 O ltac:(lia) ltac:(lia))); reflexivity.
Qed.
Print Assumptions C110_odd_refuted.

(** No frequency is amplified, and none is shifted in phase. *)
Theorem C110_range : forall o scales orients a m n g s d k l, shp a = [m; n] -> gabor_convolve o scales orients a = Ok g ->
  (k < m)%nat -> (l < n)%nat -> ln (g_bandwidth o) <> 0 -> g_dtheta o <> 0 ->
  exists v, 0 <= v <= 1 /\ dft m n (g s d) k l = cmul (v, 0) (dft m n (pixels a) k l).
Proof.
  intros o scales orients a m n g s d k l Ha Hg Hk Hl Hb Hd.
  apply (gabor_convolve_ok _ _ _ _ m n) in Hg as [-> Ho]; [|exact Ha]. exists (gabor_filter o orients m n s d k l).
  split; [|rewrite response_spectrum by assumption; change (gabor_filter o orients m n s d k l, 0) with (creal (gabor_filter o orients m n s d k l)); ring].
  assert (X : forall t, t <= 0 -> 0 <= exp t <= 1).
  { intros t Ht. split; [left; apply exp_pos|]. rewrite <- exp_0. destruct Ht as [Ht| ->]; [left; apply exp_increasing, Ht|lra]. }
  unfold gabor_filter. destruct (_ && _); [lra|]. unfold fftshift, gabor_centred. cbv zeta.
  match goal with |- 0 <= ?u * ?v <= 1 => assert (U : 0 <= u <= 1); [|assert (V : 0 <= v <= 1); [|nra]] end.
  - destruct (_ && _); [lra|]. unfold log_gabor. cbv zeta. apply X. match goal with |- ?p ^ 2 / - (2 * ?q ^ 2) <= 0 => set (P := p); set (Q := q) in * end.
    assert (0 < Q ^ 2) by (rewrite <- Rsqr_pow2; apply Rsqr_pos_lt; exact Hb). assert (0 <= P ^ 2) by apply pow2_ge_0.
    replace (P ^ 2 / - (2 * Q ^ 2)) with (- (P ^ 2 / (2 * Q ^ 2))) by (field; exact Hb).
    assert (0 <= P ^ 2 / (2 * Q ^ 2)); [|lra]. apply Rmult_le_pos; [assumption|]. left. apply Rinv_0_lt_compat. lra.
  - unfold gabor_spread. cbv zeta. apply X. match goal with |- - ?p ^ 2 / (2 * ?q ^ 2) <= 0 => set (P := p); set (Q := q) end.
    assert (Hn := INR_pos orients Ho). assert (Hpi := PI_RGT_0).
    assert (HQ : Q <> 0). { unfold Q. unfold Rdiv. apply Rmult_integral_contrapositive_currified; [|apply Rinv_neq_0_compat; exact Hd].
      apply Rmult_integral_contrapositive_currified; [lra|apply Rinv_neq_0_compat; lra]. }
    assert (0 < Q ^ 2) by (rewrite <- Rsqr_pow2; apply Rsqr_pos_lt; exact HQ). assert (0 <= P ^ 2) by apply pow2_ge_0.
    replace (- P ^ 2 / (2 * Q ^ 2)) with (- (P ^ 2 / (2 * Q ^ 2))) by (field; exact HQ).
    assert (0 <= P ^ 2 / (2 * Q ^ 2)); [|lra]. apply Rmult_le_pos; [assumption|]. left. apply Rinv_0_lt_compat. lra.
Qed.
Print Assumptions C110_range.

(** ** C111: what the appearance index does not see *)

Lemma gabor_abs_same orients a b m n (u w : R) : shp a = [m; n] -> shp b = [m; n] -> u = 1 \/ u = -1 ->
  (forall x y, (x < m)%nat -> (y < n)%nat -> getd b [x; y] = u * getd a [x; y] + w) ->
  forall s d, gabor_abs orients b s d = gabor_abs orients a s d.
Proof.
  intros Ha Hb Hu H s d. unfold gabor_abs, dim0, dim1. rewrite Ha, Hb. cbn [nth]. unfold tabulate. f_equal. apply map_ext. intros idx.
  set (x := nth 0 idx 0%nat). set (y := nth 1 idx 0%nat).
  rewrite (response_affine mad_gabor orients m n s d (pixels a) (pixels a) (pixels b) (creal u) c0 (creal w)).
  - transitivity (cabs (cmul (creal u) (gabor_response mad_gabor orients m n (pixels a) s d x y))); [f_equal; ring|].
    rewrite cabs_mul_real. replace (Rabs u) with 1; [ring|]. destruct Hu as [-> | ->]; [rewrite Rabs_R1; reflexivity|rewrite Rabs_left by lra; ring].
  - intros x' y' Hx Hy. unfold pixels. rewrite H by assumption. cx.
Qed.

(** Adding a constant to an image, or turning it into its negative, leaves the appearance index as it is:
    for either image, every size, all parameters, and also when an error is raised. *)
Theorem C111_appearance : forall junk3 o b s r m r' m' M N (u w u' w' : R),
  shp (mvals r) = [M; N] -> shp (mvals m) = [M; N] -> shp (mvals r') = [M; N] -> shp (mvals m') = [M; N] ->
  u = 1 \/ u = -1 -> u' = 1 \/ u' = -1 ->
  (forall x y, (x < M)%nat -> (y < N)%nat -> getd (mvals r') [x; y] = u * getd (mvals r) [x; y] + w) ->
  (forall x y, (x < M)%nat -> (y < N)%nat -> getd (mvals m') [x; y] = u' * getd (mvals m) [x; y] + w') ->
  low_quality (gabor_abs (l_orient o)) junk3 o b s r' m' = low_quality (gabor_abs (l_orient o)) junk3 o b s r m.
Proof.
  intros junk3 o b s r m r' m' M N u w u' w' Hr Hm Hr' Hm' Hu Hu' Er Em. unfold low_quality. cbv zeta.
  assert (D : dim0 (mvals r') = dim0 (mvals r) /\ dim1 (mvals r') = dim1 (mvals r)) by (unfold dim0, dim1; rewrite Hr, Hr'; split; reflexivity).
  destruct D as [-> ->]. destruct (negb _); [reflexivity|]. destruct (l_orient o =? 0)%nat; [reflexivity|].
  match goal with |- bind (mapM ?f ?l) _ = bind (mapM ?g ?l) _ => assert (E : mapM f l = mapM g l) end.
  { apply mapM_ext_all. intros so.
    rewrite (gabor_abs_same (l_orient o) (mvals m) (mvals m') M N u' w'), (gabor_abs_same (l_orient o) (mvals r) (mvals r') M N u w) by assumption. reflexivity. }
  rewrite E. reflexivity.
Qed.
Print Assumptions C111_appearance.

Lemma combine_no_appearance b1 b2 d : 0 < b1 -> 0 < b2 -> 0 <= d -> combine_indices b1 b2 (Fin d) (Fin 0) = Fin 0.
Proof.
  intros H1 H2 Hd. destruct (C35_between b1 b2 d 0 H1 H2 Hd ltac:(lra)) as (x & E & B). rewrite E. f_equal.
  destruct (Req_dec d 0) as [->|].
  - rewrite Rmin_left, Rmax_left in B by lra. lra.
  - rewrite C35_weighting in E by assumption. 
    assert (W : 0 < weight b1 b2 d < 1).
    { pose proof (weight_pos b1 b2 d H1) as [P _]. split; [exact P|]. unfold weight, rpow in *.
      destruct (Req_EM_T d 0); [contradiction|]. assert (0 < b1 * Rpower d b2) by (apply Rmult_lt_0_compat; [lra|apply exp_pos]).
      apply (Rmult_lt_reg_r (1 + b1 * Rpower d b2)); [lra|]. unfold Rdiv. rewrite Rmult_assoc, Rinv_l by lra. lra. }
    set (v := weight b1 b2 d) in *. unfold ext_pow in E. destruct (Req_EM_T v 0); [lra|]. destruct (Req_EM_T d 0); [lra|].
    destruct (Rlt_dec d 0); [lra|]. destruct (Req_EM_T (1 - v) 0); [lra|]. destruct (Req_EM_T 0 0); [|lra]. destruct (Rlt_dec 0 (1 - v)); [|lra].
    cbn [ext_mul] in E. injection E as E. rewrite <- E. ring.
Qed.

(** Hence the appearance index of an image and a brighter, darker or inverted copy of it is 0. *)
Theorem C111_copy : forall junk3 o b s r m N (u w : R), (0 < s)%nat -> (s <= b)%nat -> (2 <= b)%nat -> (2 * b < N)%nat ->
  shp (mvals r) = [N; N] -> shp (mvals m) = [N; N] -> length (l_weights o) = l_scales o -> (0 < l_orient o)%nat ->
  Sum (fun x => x) (l_weights o) <> 0 -> u = 1 \/ u = -1 ->
  (forall x y, (x < N)%nat -> (y < N)%nat -> getd (mvals m) [x; y] = u * getd (mvals r) [x; y] + w) ->
  low_quality (gabor_abs (l_orient o)) junk3 o b s r m = Ok (Fin 0).
Proof.
  intros junk3 o b s r m N u w Hs Hb H2 HN Hr Hm Hw Ho Hsum Hu E.
  rewrite (C111_appearance junk3 o b s r r r m N N 1 0 u w) by (auto; intros; ring).
  apply (C36_appearance _ junk3 o b s r N); assumption.
Qed.
Print Assumptions C111_copy.

Lemma sqrt_shape x : ext_sqrt x = NaN \/ ext_sqrt x = PInf \/ exists y, 0 <= y /\ ext_sqrt x = Fin y.
Proof.
  destruct x as [x| | |]; cbn [ext_sqrt]; auto. destruct (Rlt_dec x 0); [auto|]. right; right. exists (sqrt x). split; [apply sqrt_pos|reflexivity].
Qed.

Lemma high_quality_shape filt junk o dr b s r m d : (0 < b)%nat -> (2 * b < dim0 (mvals r))%nat -> (2 * b < dim1 (mvals r))%nat ->
  high_quality filt junk o dr b s r m = Ok d -> d = NaN \/ d = PInf \/ exists y, 0 <= y /\ d = Fin y.
Proof.
  intros Hb H0 H1 H. unfold high_quality in H. cbv zeta in H.
  destruct (lightness _ _ _ _ r); [|discriminate]. cbn [bind] in H. destruct (lightness _ _ _ _ m); [|discriminate]. cbn [bind] in H.
  destruct (extract_blocks _ _ _); [|discriminate]. cbn [bind] in H. destruct (extract_blocks _ _ _); [|discriminate]. cbn [bind] in H.
  destruct (minstd _ _ _ _ _ _ _); [|discriminate]. cbn [bind] in H. destruct (assign_blocks _ _ _ _ _); [|discriminate]. cbn [bind] in H.
  injection H as <-. match goal with |- context[rms ?l0] => set (l := l0) end.
  assert (L : (0 < length l)%nat).
  { unfold l. rewrite map_length, kept_length by lia. nia. }
  assert (P : 0 < sqrt (INR (length l))) by (apply sqrt_lt_R0, INR_pos, L).
  unfold rms. destruct (sqrt_shape (fold_left ext_add (map (fun x => ext_mul x x) l) (Fin 0))) as [-> | [-> | (y & Hy & ->)]].
  - left. reflexivity.
  - right; left. unfold ext_div. destruct (Rlt_dec (sqrt (INR (length l))) 0); [lra|].
    unfold ext_mul, Rsgn_ext. destruct (Rlt_dec 0 200); [reflexivity|lra].
  - right; right. rewrite ext_div_fin by lra. cbn [ext_mul]. eexists. split; [|reflexivity].
    assert (0 <= y / sqrt (INR (length l))) by (apply Rmult_le_pos; [exact Hy|left; apply Rinv_0_lt_compat; exact P]). lra.
Qed.

(** And with it MAD, whatever the detection index says: it is not a number if the detection index is not one, and
    0 otherwise. *)
Theorem C111_mad : forall filt junk junk3 ho lo dr bs ov beta_1 beta_2 t1 t2 r m N b s d (u w : R),
  shp (mvals r) = [N; N] -> shp (mvals m) = [N; N] -> stride_of N N bs ov = Ok (b, s) -> (2 <= b)%nat -> (2 * b < N)%nat ->
  length (l_weights lo) = l_scales lo -> (0 < l_orient lo)%nat -> Sum (fun x => x) (l_weights lo) <> 0 ->
  0 < fst (betas beta_1 beta_2 t1 t2) -> 0 < snd (betas beta_1 beta_2 t1 t2) ->
  u = 1 \/ u = -1 -> (forall x y, (x < N)%nat -> (y < N)%nat -> getd (mvals m) [x; y] = u * getd (mvals r) [x; y] + w) ->
  high_quality filt junk ho dr b s r m = Ok d ->
  most_apparent_distortion filt (gabor_abs (l_orient lo)) junk junk3 ho lo dr bs ov beta_1 beta_2 t1 t2 r m =
  Ok (match d with NaN => NaN | _ => Fin 0 end).
Proof.
  intros filt junk junk3 ho lo dr bs ov beta_1 beta_2 t1 t2 r m N b s d u w Hr Hm Hst Hb2 HN Hw Ho Hsum B1 B2 Hu E Hd.
  assert (D0 : dim0 (mvals r) = N) by (unfold dim0; rewrite Hr; reflexivity).
  assert (D1 : dim1 (mvals r) = N) by (unfold dim1; rewrite Hr; reflexivity).
  unfold most_apparent_distortion. rewrite D0, D1, Hr. cbn [length Nat.eqb negb]. rewrite Hst. cbn [bind fst snd]. rewrite Hd. cbn [bind].
  apply C38_stride in Hst as [_ Hs]. apply high_quality_shape in Hd; try lia.
  rewrite (C111_copy junk3 lo b s r m N u w) by (auto; lia). cbn [bind]. f_equal.
  set (b1 := fst (betas beta_1 beta_2 t1 t2)) in *. set (b2 := snd (betas beta_1 beta_2 t1 t2)) in *.
  destruct Hd as [-> | [-> | (y & Hy & ->)]].
  - unfold combine_indices, ext_pow. destruct (Req_EM_T b2 0); [lra|]. reflexivity.
  - unfold combine_indices.
    assert (P : ext_pow PInf (Fin b2) = PInf) by (unfold ext_pow; destruct (Req_EM_T b2 0); [lra|]; destruct (Rlt_dec 0 b2); [reflexivity|lra]).
    rewrite P. assert (A : ext_div (Fin 1) (ext_add (Fin 1) (ext_mul (Fin b1) PInf)) = Fin 0).
    { unfold ext_mul, Rsgn_ext. destruct (Rlt_dec 0 b1); [reflexivity|lra]. }
    rewrite A. unfold ext_pow at 1. destruct (Req_EM_T 0 0); [|lra]. cbn [ext_sub ext_neg ext_add].
    unfold ext_pow. destruct (Req_EM_T (1 + - 0) 0); [lra|]. destruct (Req_EM_T 0 0); [|lra]. destruct (Rlt_dec 0 (1 + - 0)); [|lra].
    cbn [ext_mul]. f_equal. ring.
  - apply combine_no_appearance; assumption.
Qed.
Print Assumptions C111_mad.

(** A brighter-or-darker and inverted copy of an 8-bit ramp. *)
Example C111_example : forall junk3,
  let ramp := tabulate [9; 9]%nat (fun idx => Z.of_nat (nth 0%nat idx 0%nat)) in
  let negative := amap (fun v => (255 - v)%Z) ramp in
  low_quality (gabor_abs 4) junk3 {| l_orient := 4; l_scales := 5; l_weights := [1/2; 3/4; 1; 5; 6] |} 4 1 (MInt ramp) (MInt negative) = Ok (Fin 0).
Proof.
  intros junk3 ramp negative.
  apply (C111_copy junk3 {| l_orient := 4; l_scales := 5; l_weights := [1/2; 3/4; 1; 5; 6] |} 4 1 (MInt ramp) (MInt negative) 9 (-1) 255);
    try lia; try reflexivity; try (cbn; lia).
  - unfold Sum, rsum. cbn. lra.
  - right. reflexivity.
  - intros x y Hx Hy. cbn [mvals]. unfold negative, getd. rewrite !get_amap. unfold ramp. rewrite get_tabulate.
    + cbn [option_map nth]. rewrite minus_IZR. ring.
    + cbn [inb]. destruct (Nat.ltb_spec x 9), (Nat.ltb_spec y 9); try lia; reflexivity.
Qed.

(** The filters of MAD for images with even sides: a wave of f cycles per pixel in direction phi. The wavelengths of the
    scales are 3, 9, 27, 81 and 243 pixels, the widths ln 0.55 and 30 degrees. *)
Theorem C110_mad : forall a m n g s d k l f phi x y, shp a = [m; n] -> gabor_convolve mad_gabor 5 4 a = Ok g ->
  Nat.even m = true -> Nat.even n = true -> (k < m)%nat -> (l < n)%nat -> (x < m)%nat -> (y < n)%nat ->
  0 < f -> frequency n l / INR n = f * cos phi -> - (frequency m k / INR m) = f * sin phi -> Rabs (phi - INR d * (PI / 4)) <= PI ->
  dft m n (g s d) k l = cmul (dft m n (pixels a) k l)
    (exp (- (ln (f * 3 ^ (s + 1)) / ln (55/100)) ^ 2 / 2) * exp (- ((phi - INR d * (PI / 4)) / (PI / 6)) ^ 2 / 2), 0) /\
  getd (gabor_abs 4 a s d) [x; y] = cabs (g s d x y).
Proof.
  intros a m n g s d k l f phi x y Ha Hg Em En Hk Hl Hx Hy Hf H1 H2 H3.
  assert (B : ln (55/100) <> 0) by (rewrite <- ln_1; intros E; apply ln_inv in E; lra).
  assert (Pm := INR_pos m ltac:(lia)). assert (Pn := INR_pos n ltac:(lia)).
  assert (Qm : (1 < m)%nat) by (destruct m as [|[|m]]; [lia|discriminate|lia]).
  assert (Qn : (1 < n)%nat) by (destruct n as [|[|n]]; [lia|discriminate|lia]).
  assert (Hpi := PI_RGT_0).
  assert (I4 : INR d * PI / INR 4 = INR d * (PI / 4)) by (cbn [INR]; field; lra).
  split.
  - rewrite (C110_gain mad_gabor 5 4 a m n g s d k l (2 * f) phi Ha Hg); try assumption; try (cbn; lra).
    + rewrite I4. f_equal. f_equal. unfold radial_gain, angular_gain, centre_frequency. cbn [g_min g_scaling g_bandwidth g_dtheta mad_gabor].
      assert (P3 : 0 < 3 ^ s) by (apply pow_lt; lra). f_equal; f_equal.
      * replace (2 * f / (2 / (3 * 3 ^ s))) with (f * 3 ^ (s + 1)) by (rewrite pow_add; field; lra). field. exact B.
      * cbn [INR]. field. lra.
    + intros [= -> ->]. assert (F0 : forall q, frequency q 0 = 0).
      { intros q. unfold frequency. destruct (Nat.ltb_spec (2 * 0) q); [reflexivity|]. destruct q; [cbn; ring|lia]. }
      rewrite F0 in H1, H2. assert (T := sin2_cos2 phi). unfold Rsqr in T. unfold Rdiv in H1, H2. rewrite Rmult_0_l in H1, H2.
      assert (f * f * (sin phi * sin phi + cos phi * cos phi) = 0) by (replace (f * f * (sin phi * sin phi + cos phi * cos phi)) with ((f * sin phi) * (f * sin phi) + (f * cos phi) * (f * cos phi)) by ring; rewrite <- H1, <- H2; ring).
      rewrite T in *. nra.
    + rewrite (proj1 (C110_even n l En Hl)). replace (2 * frequency n l / INR n) with (2 * (frequency n l / INR n)) by (field; lra). rewrite H1. ring.
    + rewrite (proj1 (C110_even m k Em Hk)). replace (- (2 * frequency m k / INR m)) with (2 * - (frequency m k / INR m)) by (field; lra). rewrite H2. ring.
    + rewrite I4. exact H3.
  - apply (gabor_convolve_ok _ _ _ _ m n) in Hg as [-> _]; [|exact Ha]. unfold gabor_abs, getd, dim0, dim1. rewrite Ha. cbn [nth].
    rewrite get_tabulate; [reflexivity|]. cbn [inb]. destruct (Nat.ltb_spec x m), (Nat.ltb_spec y n); try lia; reflexivity.
Qed.
Print Assumptions C110_mad.

(** The horizontal frequency 1 of a 4 x 4 image and the first filter of MAD. *)
Example C110_example : forall a g, shp a = [4; 4]%nat -> gabor_convolve mad_gabor 5 4 a = Ok g ->
  dft 4 4 (g 0%nat 0%nat) 0 1 = cmul (dft 4 4 (pixels a) 0 1) (exp (- ln (3/4) ^ 2 / (2 * ln (55/100) ^ 2)), 0).
Proof.
  intros a g Ha Hg.
  assert (B : ln (55/100) <> 0) by (rewrite <- ln_1; intros E; apply ln_inv in E; lra).
  rewrite (C110_gain mad_gabor 5 4 a 4 4 g 0 0 0 1 (1/2) 0 Ha Hg); try lia; try (cbn; lra); try exact B; try congruence.
  - f_equal. f_equal. unfold radial_gain, angular_gain, centre_frequency. cbn [g_min g_scaling g_bandwidth g_dtheta mad_gabor pow INR].
    replace (1 / 2 / (2 / (3 * 1))) with (3/4) by field. replace (0 - 0 * PI / (1 + 1 + 1 + 1)) with 0 by (field; lra).
    replace (- (0 * (0 * 1)) / _) with 0 by (unfold Rdiv; ring). rewrite exp_0, Rmult_1_r. reflexivity.
  - unfold gabor_coord, frequency. rewrite cos_0. cbn. field.
  - unfold gabor_coord, frequency. rewrite sin_0. cbn. field.
  - assert (P := PI_RGT_0). cbn [INR]. replace (0 - 0 * PI / (1 + 1 + 1 + 1)) with 0 by (field; lra). rewrite Rabs_R0. lra.
Qed.

(** ** C78, with the contrast sensitivity filter of the package: a uniform reference image has deviation 0 in every
    block, minstd reports a positive one. *)
Theorem C78_uniform_reference : forall nfreq lambda f_peak lum N b s c tmp0 out0, shp lum = [N; N] -> 0 <= lambda -> c <> 0 ->
  (forall x y, (x < N)%nat -> (y < N)%nat -> getd lum [x; y] = c) ->
  (0 < s)%nat -> (s <= b)%nat -> (2 <= b)%nat -> (2 * b <= N)%nat ->
  let re := fst (csf_filter nfreq lambda f_peak lum) in let im := snd (csf_filter nfreq lambda f_peak lum) in
  forall x y, (x + b <= N)%nat -> (y + b <= N)%nat ->
  std1 (block_values N b (fun q => nth q (dat re) 0) (x / s * s, y / s * s)%nat) = Fin 0 /\
  exists o z, minstd N N b s (interleave re im) tmp0 out0 = Ok o /\ o (x * N + y)%nat = Fin z /\ 0 < z.
Proof.
  intros nfreq lambda f_peak lum N b s c tmp0 out0 Hs Hl Hc Hlum H1 H2 H3 H4 re im x y Hx Hy.
  set (w := csf_spec N N nfreq lambda f_peak 0 0).
  assert (Hw : 0 < w).
  { unfold w, csf_spec. cbv zeta. apply sensitivity_pos; [exact Hl|]. apply Rmult_le_pos; [apply sqrt_pos|].
    left. apply Rinv_0_lt_compat. match goal with |- 0 < direction ?p ?q => assert (D := direction_range p q) end. lra. }
  assert (V : forall p, (p < N * N)%nat -> nth p (dat re) 0 = w * c /\ nth p (dat im) 0 = 0).
  { intros p Hp. set (u := (p / N)%nat). set (v := (p mod N)%nat).
    assert (HN : (N <> 0)%nat) by lia. assert (Hv : (v < N)%nat) by (apply Nat.mod_upper_bound, HN).
    assert (Hu : (u < N)%nat) by (apply Nat.div_lt_upper_bound; lia).
    assert (Ep : p = (u * N + v)%nat) by (unfold u, v; rewrite (Nat.div_mod p N HN) at 1; lia).
    destruct (C108_constant nfreq lambda f_peak lum N N c u v Hs Hu Hv Hlum) as [A B].
    assert (G : forall a, shp a = [N; N] -> getd a [u; v] = nth p (dat a) 0).
    { intros a Ha. unfold getd, get. rewrite Ha. cbn [inb].
      destruct (Nat.ltb_spec u N), (Nat.ltb_spec v N); try lia. cbn [andb].
      match goal with |- match nth_error _ ?q with _ => _ end = _ => replace q with p by (rewrite Ep; cbn; lia) end.
      destruct (nth_error (dat a) p) eqn:E; [symmetry; apply nth_error_nth, E|].
      apply nth_error_None in E. symmetry. apply nth_overflow, E. }
    assert (S1 : shp re = [N; N]) by (unfold re; rewrite (csf_filter_dims nfreq lambda f_peak lum N N Hs); reflexivity).
    assert (S2 : shp im = [N; N]) by (unfold im; rewrite (csf_filter_dims nfreq lambda f_peak lum N N Hs); reflexivity).
    rewrite <- (G re S1), <- (G im S2). split; assumption. }
  apply (C78_constant_deviates N b s (w * c) re im tmp0 out0); try assumption.
  - nra.
  - intros p Hp. apply V, Hp.
  - intros p Hp. apply V, Hp.
Qed.
Print Assumptions C78_uniform_reference.
