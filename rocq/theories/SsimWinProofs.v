(** The windows of SSIM: with the exponents 1 and positive constants the score is the mean of the formula of
    Wang et al. over windows that depend on the shape and the settings only. *)
From Coq Require Import Reals Lra Psatz.
From Verif Require Import Base NdArray LoadModel LoadProofs NormModel NormProofs PairModel PairProofs RealSums
  MetricModel SsimModel SsimProofs SsimProps SsimExpProps.
Local Open Scope R_scope.

(** A window: pixels with their weights. *)
Definition window_of := list (R * list nat).
Definition wavg (K : window_of) (a : arr R) : R := Sum (fun k => fst k * getd a (snd k)) K.
Definition wcov (K : window_of) (a b : arr R) : R :=
  Sum (fun k => fst k * (getd a (snd k) - wavg K a) * (getd b (snd k) - wavg K b)) K.
Definition formula (cov c1 c2 : R) (K : window_of) (r m : arr R) : R :=
  (2 * (wavg K r * wavg K m) + c1) * (2 * (cov * wcov K r m) + c2)
  / ((wavg K r * wavg K r + wavg K m * wavg K m + c1) * (cov * wcov K r r + cov * wcov K m m + c2)).

Lemma pixel_formula big ws mo cv pad cov c1 c2 ux uy uxx uyy uxy : 0 < c1 -> 0 < c2 ->
  0 <= cov * (uxx - ux * ux) -> 0 <= cov * (uyy - uy * uy) ->
  ssim_pixel big (SsimParams ws mo cv pad cov c1 c2 1 1 1) ux uy uxx uyy uxy
  = (2 * (ux * uy) + c1) * (2 * (cov * (uxy - ux * uy)) + c2)
    / ((ux * ux + uy * uy + c1) * (cov * (uxx - ux * ux) + cov * (uyy - uy * uy) + c2)).
Proof.
  intros H1 H2 Hx Hy. unfold ssim_pixel. cbn [p_cov p_c1 p_c2 p_al p_be p_ga]. cbv zeta.
  set (vx := cov * (uxx - ux * ux)) in *. set (vy := cov * (uyy - uy * uy)) in *. set (vxy := cov * (uxy - ux * uy)).
  unfold osqrt. destruct (Rlt_dec vx 0); [lra|]. destruct (Rlt_dec vy 0); [lra|].
  pose proof (sqrt_pos vx). pose proof (sqrt_pos vy). set (sx := sqrt vx) in *. set (sy := sqrt vy) in *.
  assert (0 <= sx * sy) by (apply Rmult_le_pos; assumption).
  assert (0 <= ux * ux + uy * uy) by (pose proof (Rle_0_sqr ux); pose proof (Rle_0_sqr uy); unfold Rsqr in *; lra).
  unfold nan1. destruct (Req_EM_T _ 0) as [E|_]; [exfalso; lra|]. destruct (Req_EM_T _ 0) as [E|_]; [exfalso; lra|].
  destruct (Req_EM_T _ 0) as [E|_]; [exfalso; lra|].
  unfold zpow. cbn [Z.leb Z.compare]. change (Z.to_nat 1) with 1%nat. rewrite !pow_1.
  field. repeat split; apply Rgt_not_eq; lra.
Qed.

Lemma mean_of_map {A} (h : A -> R) l : l <> [] -> mean_of (map h l) = Fin (Sum h l / INR (length l)).
Proof.
  intros H. unfold Sum. rewrite <- (map_length h l). destruct l as [|a l]; [congruence|]. reflexivity.
Qed.

(** Accepted settings, apart from the constants *)
Definition accepted_window (s : list nat) (sigma : R) (win : option Z) (g : bool) (mode : string) : Prop :=
  0 <= sigma /\ Z.Odd (window sigma win g) /\
  (forall n, In n s -> (window sigma win g <= Z.of_nat n)%Z) /\ In mode border_modes /\ s <> [] /\
  ((1 < window sigma win g)%Z \/ (win = None /\ g = true)).

Lemma all_windows s sigma win g mode : accepted_window s sigma win g mode ->
  exists (Ks : list window_of) cov, Ks <> [] /\ 1 <= cov <= 3 / 2 /\
    (forall K, In K Ks -> convex fst K /\ forall k, In k K -> inb s (snd k) = true) /\
    forall big r m k1 k2 cval dr, shp r = s -> shp m = s -> 0 < k1 -> 0 < k2 -> dr <> 0 ->
      structural_similarity big r m (opts k1 k2 sigma win g mode cval 1 1 1 dr)
      = Ok (Fin (Sum (fun K => formula cov ((k1 * dr) * (k1 * dr)) ((k2 * dr) * (k2 * dr)) K r m) Ks / INR (length Ks))).
Proof.
  intros (H3 & Hodd & Hext & Hm & Hs & Hw). destruct (border_mode mode Hm) as (md & Hmd & Hnc).
  set (W := window sigma win g) in *.
  assert (Hpos : (0 < W)%Z).
  { destruct Hw as [Hw|[-> ->]]; [lia|]. unfold W, window. rewrite <- radius_spec by exact H3. lia. }
  assert (HP : exists ws mo cov, convex snd ws /\ (exists rad, near rad ws) /\ mo <> Constant /\ 1 <= cov <= 3 / 2 /\
    forall k1 k2 cval dr, 0 <= k1 -> 0 <= k2 -> ssim_setup s (opts k1 k2 sigma win g mode cval 1 1 1 dr)
      = Ok (SsimParams ws mo cval ((W - 1) / 2)%Z cov ((k1 * dr) * (k1 * dr)) ((k2 * dr) * (k2 * dr)) 1 1 1)).
  { assert (Hc : exists cov, 1 <= cov <= 3 / 2 /\ (if g && match win with None => true | Some _ => false end then Ok 1
       else if (W ^ Z.of_nat (length s) =? 1)%Z then Err ZeroDivisionError
            else Ok (IZR (W ^ Z.of_nat (length s)) / IZR (W ^ Z.of_nat (length s) - 1))) = Ok cov).
    { destruct Hw as [Hw|[-> ->]]; [|exists 1; split; [lra|reflexivity]]. destruct (g && _); [exists 1; split; [lra|reflexivity]|].
      assert (3 <= W)%Z by (destruct Hodd as [h Hh]; lia).
      assert (3 <= W ^ Z.of_nat (length s))%Z.
      { destruct s as [|n0 s']; [congruence|]. cbn [length]. rewrite Nat2Z.inj_succ, Z.pow_succ_r by lia.
        assert (1 <= W ^ Z.of_nat (length s'))%Z by (apply Z.pow_le_mono_r with (b := 0%Z) (c := Z.of_nat (length s')) in Hpos; [exact Hpos|lia]). nia. }
      set (N := (W ^ Z.of_nat (length s))%Z) in *.
      destruct (Z.eqb_spec N 1) as [E1|E1]; [lia|]. eexists. split; [|reflexivity].
      rewrite minus_IZR. assert (3 <= IZR N) by (apply IZR_le; lia).
      assert (E : IZR N / (IZR N - 1) * (IZR N - 1) = IZR N) by (field; lra).
      set (q := IZR N / (IZR N - 1)) in *. split; nra. }
    destruct Hc as (cov & Hcov & Ec).
    exists (if g then gaussian_weights sigma (gauss_radius sigma) else uniform_weights W),
      (if (if g then (if Rlt_dec (1 / 10 ^ 15) sigma then true else false) else (1 <? W)%Z) then md else Reflect), cov.
    assert (Hws : convex snd (if g then gaussian_weights sigma (gauss_radius sigma) else uniform_weights W) /\
                  exists rad, near rad (if g then gaussian_weights sigma (gauss_radius sigma) else uniform_weights W)).
    { destruct g; [pose proof (gaussian_convex sigma (gauss_radius sigma)) as [? ?]; eauto|].
      destruct (uniform_convex W) as [? ?]; [|eauto]. rewrite Zmod_odd. apply Z.odd_spec in Hodd. rewrite Hodd. reflexivity. }
    split; [apply Hws|]. split; [apply Hws|]. split; [match goal with |- (if ?b then _ else _) <> _ => destruct b end; [exact Hnc|discriminate]|]. split; [exact Hcov|].
    intros k1 k2 cval dr H1 H2. rewrite setup_opts by assumption. cbv zeta. fold W.
    destruct (existsb _ s) eqn:E.
    { apply existsb_exists in E as (n & Hn & E). apply Z.ltb_lt in E. specialize (Hext n Hn). lia. }
    pose proof (proj2 (Z.odd_spec W) Hodd) as Ho. rewrite <- Z.negb_odd, Ho. cbn [negb]. rewrite Ec. cbn [bind]. rewrite Hmd. cbn [from_opt].
    assert (T1 : Rtrunc 1 = 1%Z) by (apply (Rtrunc_IZR 1); lia). rewrite T1.
    match goal with |- context [if ?b then md else Reflect] => destruct b end; reflexivity. }
  destruct HP as (ws & mo & cov & Hcv & (rad & Hnear) & Hmo & Hcov & HP).
  set (pad := ((W - 1) / 2)%Z) in *.
  destruct (positions s pad) as (pos & Hin & Hsl).
  destruct (choice_list (fun idx (K : window_of) => (convex fst K /\ forall k, In k K -> inb s (snd k) = true) /\
      forall cval a, shp a = s -> getd (filter_nd ws mo cval a) idx = Sum (fun k => fst k * getd a (snd k)) K)
    pos [] (list_eq_dec Nat.eq_dec)) as (f & Hf).
  { intros idx Hi. apply Hin in Hi.
    destruct (axes_seq (length s)) as [Hnd Hlt].
    destruct (filter_kernel ws mo s rad Hcv Hnear _ Hnd Hlt idx Hi) as (K & HK & Kin & K1 & _ & K3).
    exists (map (fun k => (fst k, match snd k with Some i => i | None => [] end)) K).
    assert (Kval : forall (w : R * option (list nat)), In w K -> exists i, snd w = Some i /\ inb s i = true).
    { intros [w [i|]] Hk; [exists i; split; [reflexivity|exact (Kin _ _ Hk)]|]. destruct (K1 Hmo _ Hk). }
    split; [split|].
    - destruct HK as [HK0 HK1]. split.
      + intros k Hk. apply in_map_iff in Hk as (k0 & <- & Hk). apply HK0, Hk.
      + rewrite Sum_map. exact HK1.
    - intros k Hk. apply in_map_iff in Hk as (k0 & <- & Hk). destruct (Kval _ Hk) as (i & E & Hii). cbn [snd]. rewrite E. exact Hii.
    - intros cval a Ha. unfold filter_nd. rewrite Ha, K3 by exact Ha. rewrite Sum_map. apply Sum_ext. intros k Hk.
      destruct (Kval _ Hk) as (i & E & Hii). cbn [fst snd]. rewrite E. reflexivity. }
  assert (Heq : forall big r m k1 k2 cval dr, shp r = s -> shp m = s -> 0 < k1 -> 0 < k2 -> dr <> 0 ->
    structural_similarity big r m (opts k1 k2 sigma win g mode cval 1 1 1 dr)
      = Ok (mean_of (map (fun K => formula cov ((k1 * dr) * (k1 * dr)) ((k2 * dr) * (k2 * dr)) K r m) (map f pos)))).
  { intros big r m k1 k2 cval dr Er Em H1 H2 Hd. unfold structural_similarity. rewrite Er, HP by lra. cbn [bind p_pad].
    set (c1 := (k1 * dr) * (k1 * dr)) in *. set (c2 := (k2 * dr) * (k2 * dr)) in *.
    assert (C1 : 0 < c1) by (apply (Rsqr_pos_lt (k1 * dr)), Rmult_integral_contrapositive; split; lra).
    assert (C2 : 0 < c2) by (apply (Rsqr_pos_lt (k2 * dr)), Rmult_integral_contrapositive; split; lra).
    set (P := SsimParams ws mo cval pad cov c1 c2 1 1 1).
    destruct (Hsl (fun idx => getd (ssim_map big P r m) idx)) as (c & Hc & Ed).
    assert (Et : tabulate s (fun idx => getd (ssim_map big P r m) idx) = ssim_map big P r m).
    { unfold ssim_map at 2, tabulate. rewrite Er. f_equal. apply map_ext_in. intros idx Hi. apply in_indices in Hi.
      unfold ssim_map. rewrite Er, getd_tab by exact Hi. reflexivity. }
    rewrite Et in Hc. rewrite Hc. cbn [bind]. do 2 f_equal. rewrite Ed, map_map. apply map_ext_in. intros idx Hi.
    pose proof (Hin idx Hi) as Hi'. destruct (Hf idx Hi) as ((HK & HKi) & HF). set (K := f idx) in *.
    unfold ssim_map. rewrite Er, getd_tab by exact Hi'. change (p_ws P) with ws. change (p_mode P) with mo. change (p_cval P) with cval.
    assert (Hsh : forall a b : arr R, shp (amul a b) = shp a) by reflexivity.
    rewrite !HF by (rewrite ?Hsh; assumption).
    assert (Hprod : forall a b : arr R, shp a = s ->
       Sum (fun k => fst k * getd (amul a b) (snd k)) K = Sum (fun k => fst k * (getd a (snd k) * getd b (snd k))) K).
    { intros a b Ea. apply Sum_ext. intros k Hk. f_equal. apply getd_amul. rewrite Ea. apply HKi, Hk. }
    rewrite !Hprod by assumption.
    assert (V : forall a b : arr R, Sum (fun k => fst k * (getd a (snd k) * getd b (snd k))) K
       - Sum (fun k => fst k * getd a (snd k)) K * Sum (fun k => fst k * getd b (snd k)) K = wcov K a b).
    { intros a b. rewrite (variance fst (fun k => getd a (snd k)) (fun k => getd b (snd k)) K HK). reflexivity. }
    assert (N : forall a : arr R, 0 <= wcov K a a).
    { intros a. apply (sq_sum_nonneg fst (fun k => getd a (snd k) - wavg K a) K). apply HK. }
    unfold P. rewrite pixel_formula; [|exact C1|exact C2|rewrite V; apply Rmult_le_pos; [lra|apply N]|rewrite V; apply Rmult_le_pos; [lra|apply N]].
    rewrite !V. reflexivity. }
  exists (map f pos), cov.
  assert (Hne : map f pos <> []).
  { intros E. specialize (Heq 0 (tabulate s (fun _ => 0)) (tabulate s (fun _ => 0)) 1 1 0 1 eq_refl eq_refl).
    rewrite E in Heq. cbn in Heq.
    destruct (C28_accepted 0 (tabulate s (fun _ => 0)) (tabulate s (fun _ => 0)) 1 1 sigma win g mode 0 1 1 1 1) as [v Hv];
      try lra; try assumption; [apply mode_known; eauto|]. rewrite Heq in Hv by lra. discriminate Hv. }
  split; [exact Hne|]. split; [exact Hcov|]. split.
  { intros K HK. apply in_map_iff in HK as (idx & <- & Hi). apply Hf, Hi. }
  intros big r m k1 k2 cval dr Er Em H1 H2 Hd. rewrite Heq by assumption. f_equal. apply mean_of_map, Hne.
Qed.

(** ** Sums over windows *)

Lemma windows_le (f g : window_of -> R) Ks : Ks <> [] -> (forall K, In K Ks -> f K <= g K) ->
  Sum f Ks / INR (length Ks) <= Sum g Ks / INR (length Ks).
Proof.
  intros Hne H. apply Rmult_le_compat_r; [|apply Sum_le, H].
  left. apply Rinv_0_lt_compat, lt_0_INR. destruct Ks; [congruence|simpl; lia].
Qed.

Lemma windows_lt (f g : window_of -> R) Ks : Ks <> [] -> (forall K, In K Ks -> f K < g K) ->
  Sum f Ks / INR (length Ks) < Sum g Ks / INR (length Ks).
Proof.
  intros Hne H. apply Rmult_lt_compat_r; [apply Rinv_0_lt_compat, lt_0_INR; destruct Ks; [congruence|simpl; lia]|].
  destruct Ks as [|K Ks]; [congruence|]. rewrite !Sum_cons.
  assert (f K < g K) by (apply H; left; reflexivity).
  assert (Sum f Ks <= Sum g Ks) by (apply Sum_le; intros k Hk; left; apply H; right; exact Hk). lra.
Qed.

Section window.
Variables (K : window_of) (s : list nat).
Hypothesis HK : convex fst K.
Hypothesis Kin : forall k, In k K -> inb s (snd k) = true.

Lemma wavg_nonneg a : (forall i, inb s i = true -> 0 <= getd a i) -> 0 <= wavg K a.
Proof. intros H. apply Sum_nonneg. intros k Hk. apply Rmult_le_pos; [apply HK, Hk|apply H, Kin, Hk]. Qed.

Lemma wavg_affine a b p q : (forall i, inb s i = true -> getd b i = p * getd a i + q) -> wavg K b = p * wavg K a + q.
Proof.
  intros H. unfold wavg. rewrite (Sum_ext _ (fun k => p * (fst k * getd a (snd k)) + q * fst k)).
  - rewrite Sum_plus, !Sum_scale, (proj2 HK). ring.
  - intros k Hk. rewrite H by (apply Kin, Hk). ring.
Qed.

Lemma wcov_affine a b b' p q : (forall i, inb s i = true -> getd b' i = p * getd b i + q) -> wcov K a b' = p * wcov K a b.
Proof.
  intros H. unfold wcov. rewrite (wavg_affine b b' p q H), <- Sum_scale. apply Sum_ext. intros k Hk.
  rewrite H by (apply Kin, Hk). ring.
Qed.

Lemma wcov_sym a b : wcov K a b = wcov K b a.
Proof. apply Sum_ext. intros. ring. Qed.

Lemma wcov_nonneg a : 0 <= wcov K a a.
Proof. apply (sq_sum_nonneg fst (fun k => getd a (snd k) - wavg K a) K). apply HK. Qed.

Lemma wcov_value a b : wcov K a b = Sum (fun k => fst k * (getd a (snd k) * getd b (snd k))) K - wavg K a * wavg K b.
Proof. symmetry. apply (variance fst (fun k => getd a (snd k)) (fun k => getd b (snd k)) K HK). Qed.

(** For images without negative values the covariance is at least minus the product of the means. *)
Lemma wcov_low a b : (forall i, inb s i = true -> 0 <= getd a i) -> (forall i, inb s i = true -> 0 <= getd b i) ->
  - (wavg K a * wavg K b) <= wcov K a b.
Proof.
  intros Ha Hb. rewrite wcov_value.
  assert (0 <= Sum (fun k => fst k * (getd a (snd k) * getd b (snd k))) K); [|lra].
  apply Sum_nonneg. intros k Hk. apply Rmult_le_pos; [apply HK, Hk|]. apply Rmult_le_pos; [apply Ha|apply Hb]; apply Kin, Hk.
Qed.

(** vx + vy - 2 vxy is the variance of the difference. *)
Lemma wcov_diff a b : 0 <= wcov K a a + wcov K b b - 2 * wcov K a b.
Proof.
  replace (wcov K a a + wcov K b b - 2 * wcov K a b)
    with (Sum (fun k => fst k * ((getd a (snd k) - wavg K a) - (getd b (snd k) - wavg K b))
                          * ((getd a (snd k) - wavg K a) - (getd b (snd k) - wavg K b))) K).
  - apply (sq_sum_nonneg fst (fun k => (getd a (snd k) - wavg K a) - (getd b (snd k) - wavg K b)) K). apply HK.
  - unfold wcov. rewrite <- Sum_scale. rewrite <- Sum_plus.
    replace (Sum (fun x => fst x * (getd a (snd x) - wavg K a) * (getd a (snd x) - wavg K a)
      + fst x * (getd b (snd x) - wavg K b) * (getd b (snd x) - wavg K b)) K - Sum (fun x => 2 * (fst x * (getd a (snd x) - wavg K a) * (getd b (snd x) - wavg K b))) K)
      with (Sum (fun x => fst x * (getd a (snd x) - wavg K a) * (getd a (snd x) - wavg K a)
      + fst x * (getd b (snd x) - wavg K b) * (getd b (snd x) - wavg K b)) K + (-1) * Sum (fun x => 2 * (fst x * (getd a (snd x) - wavg K a) * (getd b (snd x) - wavg K b))) K) by ring.
    rewrite <- Sum_scale, <- Sum_plus. apply Sum_ext. intros. ring.
Qed.

(** If the images differ by at most [d] the means do, and the variance of the difference is at most d^2. *)
Lemma wavg_close a b d : (forall i, inb s i = true -> Rabs (getd a i - getd b i) <= d) -> Rabs (wavg K a - wavg K b) <= d.
Proof.
  intros H. assert (E : wavg K a - wavg K b = Sum (fun k => fst k * (getd a (snd k) - getd b (snd k))) K).
  { unfold wavg. replace (Sum (fun k => fst k * getd a (snd k)) K - Sum (fun k => fst k * getd b (snd k)) K)
      with (Sum (fun k => fst k * getd a (snd k)) K + (-1) * Sum (fun k => fst k * getd b (snd k)) K) by ring.
    rewrite <- Sum_scale, <- Sum_plus. apply Sum_ext. intros. ring. }
  rewrite E. assert (B : forall t, In t K -> - d <= getd a (snd t) - getd b (snd t) <= d).
  { intros k Hk. apply Rabs_le_inv, H, Kin, Hk. }
  assert (Q : Sum (fun k => d * fst k) K = d) by (rewrite Sum_scale, (proj2 HK); ring).
  assert (Q' : Sum (fun k => (- d) * fst k) K = - d) by (rewrite Sum_scale, (proj2 HK); ring).
  assert (U : Sum (fun k => fst k * (getd a (snd k) - getd b (snd k))) K <= Sum (fun k => d * fst k) K)
    by (apply Sum_le; intros k Hk; specialize (B k Hk); pose proof (proj1 HK k Hk); nra).
  assert (L : Sum (fun k => (- d) * fst k) K <= Sum (fun k => fst k * (getd a (snd k) - getd b (snd k))) K)
    by (apply Sum_le; intros k Hk; specialize (B k Hk); pose proof (proj1 HK k Hk); nra).
  apply Rabs_le. lra.
Qed.

Lemma wcov_close a b d : 0 <= d -> (forall i, inb s i = true -> Rabs (getd a i - getd b i) <= d) ->
  wcov K a a + wcov K b b - 2 * wcov K a b + (wavg K a - wavg K b) * (wavg K a - wavg K b) <= d * d.
Proof.
  intros Hd H. rewrite !wcov_value.
  assert (E : Sum (fun k => fst k * (getd a (snd k) * getd a (snd k))) K + Sum (fun k => fst k * (getd b (snd k) * getd b (snd k))) K
    + (-2) * Sum (fun k => fst k * (getd a (snd k) * getd b (snd k))) K
    = Sum (fun k => fst k * ((getd a (snd k) - getd b (snd k)) * (getd a (snd k) - getd b (snd k)))) K).
  { rewrite <- Sum_scale, <- !Sum_plus. apply Sum_ext. intros. ring. }
  assert (B : Sum (fun k => fst k * ((getd a (snd k) - getd b (snd k)) * (getd a (snd k) - getd b (snd k)))) K <= d * d).
  { replace (d * d) with (Sum (fun k => (d * d) * fst k) K) by (rewrite Sum_scale, (proj2 HK); ring).
    apply Sum_le. intros k Hk. specialize (H (snd k) (Kin k Hk)). apply Rabs_le_inv in H. pose proof (proj1 HK k Hk).
    assert ((getd a (snd k) - getd b (snd k)) * (getd a (snd k) - getd b (snd k)) <= d * d) by nra. nra. }
  lra.
Qed.
End window.
