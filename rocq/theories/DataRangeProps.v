(** What the parameter data_range does to SSIM and UQI: property C141. *)
From Coq Require Import Reals Lra Psatz.
From Verif Require Import Base NdArray LoadModel LoadProofs NormModel NormProofs PairModel PairProofs RealSums
  MetricModel MetricProofs SsimModel SsimProofs SsimProps SsimExpProps SsimSymProps SsimWinProofs DistortProps.
Local Open Scope R_scope.

(** ** One window *)

Lemma div_le a b c d : 0 < b -> 0 < d -> a * d <= c * b -> a / b <= c / d.
Proof.
  intros Hb Hd H. apply Rmult_le_reg_r with b; [exact Hb|]. apply Rmult_le_reg_r with d; [exact Hd|].
  replace (a / b * b * d) with (a * d) by (field; lra). replace (c / d * b * d) with (c * b) by (field; lra). exact H.
Qed.

(** A larger constant raises a ratio that is at most 1. *)
Lemma ratio_up n d c c' : n <= d -> 0 < c <= c' -> 0 <= d -> (n + c) / (d + c) <= (n + c') / (d + c').
Proof. intros H Hc Hd. apply div_le; try lra. nra. Qed.

Lemma product_up N D M E a a' b b' : 0 <= N -> N <= D -> M <= E -> 0 <= E -> 0 < a <= a' -> 0 < b <= b' ->
  0 <= b * N + a * M ->  b * a' = b' * a ->
  (N + a) * (M + b) / ((D + a) * (E + b)) <= (N + a') * (M + b') / ((D + a') * (E + b')).
Proof.
  intros HN HD HM HE Ha Hb Hneg Hprop.
  assert (F : forall x y, 0 < x -> 0 < y -> (N + x) * (M + y) / ((D + x) * (E + y)) = (N + x) / (D + x) * ((M + y) / (E + y))).
  { intros x y Hx Hy. field. split; lra. }
  destruct (Rle_dec 0 (M + b)) as [P|P].
  - rewrite !F by lra. apply Rmult_le_compat.
    + apply Rmult_le_pos; [lra|left; apply Rinv_0_lt_compat; lra].
    + apply Rmult_le_pos; [lra|left; apply Rinv_0_lt_compat; lra].
    + apply ratio_up; lra.
    + apply ratio_up; lra.
  - apply Rnot_le_lt in P. destruct (Rle_dec 0 (M + b')) as [P'|P'].
    + apply Rle_trans with 0.
      * rewrite F by lra. assert (0 <= (N + a) / (D + a)) by (apply Rmult_le_pos; [lra|left; apply Rinv_0_lt_compat; lra]).
        assert ((M + b) / (E + b) <= 0).
        { assert (0 < / (E + b)) by (apply Rinv_0_lt_compat; lra). unfold Rdiv. nra. }
        nra.
      * rewrite F by lra. apply Rmult_le_pos; (apply Rmult_le_pos; [lra|left; apply Rinv_0_lt_compat; lra]).
    + apply Rnot_le_lt in P'.
      (* numerators: (N+a)(M+b) <= (N+a')(M+b'), denominators grow *)
      set (X := (D + a) * (E + b)). set (X' := (D + a') * (E + b')).
      assert (HX : 0 < X) by (apply Rmult_lt_0_compat; lra).
      assert (HX' : X <= X') by (apply Rmult_le_compat; lra).
      assert (Y : (N + a) * (M + b) <= (N + a') * (M + b')).
      { (* a ((N+a')(M+b') - (N+a)(M+b)) = (a'-a)(b N + a M + b (a + a')) *)
        assert (E1 : a * ((N + a') * (M + b') - (N + a) * (M + b)) = (a' - a) * (b * N + a * M + b * (a + a'))
                     + (b' * a - b * a') * (N + a')) by ring.
        replace (b' * a - b * a') with 0 in E1 by lra. rewrite Rmult_0_l, Rplus_0_r in E1.
        assert (0 <= b * (a + a')) by (apply Rmult_le_pos; lra).
        assert (0 <= (a' - a) * (b * N + a * M + b * (a + a'))) by (apply Rmult_le_pos; lra). nra. }
      assert (Z' : (N + a') * (M + b') <= 0) by nra.
      set (y := (N + a) * (M + b)) in *. set (y' := (N + a') * (M + b')) in *.
      apply Rle_trans with (y' / X).
      * apply Rmult_le_compat_r; [left; apply Rinv_0_lt_compat; lra|exact Y].
      * apply div_le; try lra. nra.
Qed.

(** ** Raising data_range *)

Definition scaled (k d : R) : R := (k * d) * (k * d).

Lemma scaled_pos k d : 0 < k -> d <> 0 -> 0 < scaled k d.
Proof. intros. apply (Rsqr_pos_lt (k * d)), Rmult_integral_contrapositive; split; lra. Qed.

(** No settings of the usual kind let SSIM fall if the data range is raised. *)
Theorem C141_raises big r m k1 k2 sigma win g mode cval d d' :
  accepted_window (shp r) sigma win g mode -> shp m = shp r -> image_nonneg r -> image_nonneg m ->
  0 < k1 -> 0 < k2 -> 3 / 2 * (k1 * k1) <= k2 * k2 -> 0 < d <= d' ->
  exists v v', structural_similarity big r m (opts k1 k2 sigma win g mode cval 1 1 1 d) = Ok (Fin v) /\
    structural_similarity big r m (opts k1 k2 sigma win g mode cval 1 1 1 d') = Ok (Fin v') /\ v <= v'.
Proof.
  intros Ha Es Nr Nm H1 H2 H12 Hd. destruct (all_windows _ _ _ _ _ Ha) as (Ks & cov & Hne & Hcov & HK & E).
  do 2 eexists. split; [apply E; auto; lra|]. split; [apply E; auto; lra|].
  fold (scaled k1 d) (scaled k1 d') (scaled k2 d) (scaled k2 d').
  assert (P1 : 0 < scaled k1 d) by (apply scaled_pos; lra). assert (P2 : 0 < scaled k2 d) by (apply scaled_pos; lra).
  assert (Hdd : 0 < d * d <= d' * d') by (split; nra).
  assert (L : forall k, scaled k d = (k * k) * (d * d)) by (intros; unfold scaled; ring).
  assert (L' : forall k, scaled k d' = (k * k) * (d' * d')) by (intros; unfold scaled; ring).
  apply windows_le; [exact Hne|]. intros K Hin. destruct (HK K Hin) as [Hc Kin]. unfold formula.
  assert (Hu : 0 <= wavg K r) by (apply (wavg_nonneg K _ Hc Kin), Nr).
  assert (Hu' : 0 <= wavg K m) by (apply (wavg_nonneg K _ Hc Kin); rewrite <- Es; exact Nm).
  assert (Huu : 0 <= wavg K r * wavg K m) by (apply Rmult_le_pos; assumption).
  pose proof (wcov_low K _ Hc Kin r m Nr ltac:(rewrite <- Es; exact Nm)) as Lo.
  pose proof (wcov_diff K Hc r m) as Df. pose proof (wcov_nonneg K Hc r) as Vr. pose proof (wcov_nonneg K Hc m) as Vm.
  assert (Q : 0 < k1 * k1) by nra.
  apply product_up.
  - lra.
  - pose proof (Rle_0_sqr (wavg K r - wavg K m)). unfold Rsqr in *. lra.
  - assert (0 <= cov * (wcov K r r + wcov K m m - 2 * wcov K r m)) by (apply Rmult_le_pos; lra). lra.
  - assert (0 <= cov * wcov K r r) by (apply Rmult_le_pos; lra). assert (0 <= cov * wcov K m m) by (apply Rmult_le_pos; lra). lra.
  - split; [exact P1|]. rewrite L, L'. apply Rmult_le_compat_l; lra.
  - split; [exact P2|]. rewrite L, L'. assert (0 <= k2 * k2) by nra. apply Rmult_le_compat_l; lra.
  - rewrite !L. set (u := wavg K r * wavg K m) in *. set (w := wcov K r m) in *. set (D := d * d) in *.
    assert (B : cov * (k1 * k1) <= k2 * k2).
    { apply Rle_trans with (3 / 2 * (k1 * k1)); [apply Rmult_le_compat_r; lra|exact H12]. }
    assert (0 <= (cov * (k1 * k1)) * (w + u)) by (apply Rmult_le_pos; [apply Rmult_le_pos; lra|lra]).
    assert (cov * (k1 * k1) * u <= k2 * k2 * u) by (apply Rmult_le_compat_r; assumption).
    assert (0 <= D * (k2 * k2 * u + cov * (k1 * k1) * w)); [apply Rmult_le_pos; lra|]. lra.
  - rewrite !L, !L'. ring.
Qed.
Print Assumptions C141_raises.

Theorem C141_scores_raise : forall big r m d d', shp r <> [] -> shp m = shp r -> image_nonneg r -> image_nonneg m -> (0 < d <= d')%Z ->
  ((forall n, In n (shp r) -> (11 <= n)%nat) -> exists v v', ssim_score big (KInt d) false r m None [] = Ok (Fin v) /\
     ssim_score big (KInt d') false r m None [] = Ok (Fin v') /\ v <= v') /\
  ((forall n, In n (shp r) -> (7 <= n)%nat) -> exists v v', uqi_score big (KInt d) r m [] = Ok (Fin v) /\
     uqi_score big (KInt d') r m [] = Ok (Fin v') /\ v <= v').
Proof.
  intros big r m d d' Hs Es Nr Nm Hd.
  assert (0 < IZR d <= IZR d') by (split; [apply IZR_lt|apply IZR_le]; lia).
  split; intros Hn; rewrite ?ssim_score_default, ?uqi_score_default; apply C141_raises;
    auto using ssim_settings, uqi_settings; lra.
Qed.
Print Assumptions C141_scores_raise.

(** ** How low the score can be *)

Lemma formula_close cov c1 c2 K s r m D : convex fst K -> (forall k, In k K -> inb s (snd k) = true) -> 1 <= cov -> 0 < c1 ->
  cov * c1 <= c2 -> 0 <= D -> (forall i, inb s i = true -> Rabs (getd r i - getd m i) <= D) ->
  1 - D * D / c1 <= formula cov c1 c2 K r m.
Proof.
  intros HK Kin Hcov H1 H2 HD Hc. unfold formula.
  pose proof (wcov_close K s HK Kin r m D HD Hc) as B. pose proof (wcov_diff K HK r m) as Df.
  pose proof (wcov_nonneg K HK r) as Vr. pose proof (wcov_nonneg K HK m) as Vm.
  set (u := wavg K r) in *. set (w := wavg K m) in *. set (x := wcov K r r) in *. set (y := wcov K m m) in *. set (z := wcov K r m) in *.
  assert (c1 <= cov * c1) by (rewrite <- (Rmult_1_l c1) at 1; apply Rmult_le_compat_r; lra).
  assert (U : 0 < u * u + w * w + c1) by (pose proof (Rle_0_sqr u); pose proof (Rle_0_sqr w); unfold Rsqr in *; lra).
  assert (0 <= cov * x) by (apply Rmult_le_pos; lra). assert (0 <= cov * y) by (apply Rmult_le_pos; lra).
  assert (0 <= cov * (x + y - 2 * z)) by (apply Rmult_le_pos; lra).
  assert (W : 0 < cov * x + cov * y + c2) by lra.
  set (p := (u - w) * (u - w) / (u * u + w * w + c1)). set (q := cov * (x + y - 2 * z) / (cov * x + cov * y + c2)).
  replace ((2 * (u * w) + c1) * (2 * (cov * z) + c2) / ((u * u + w * w + c1) * (cov * x + cov * y + c2)))
    with ((1 - p) * (1 - q)) by (unfold p, q; field; split; lra).
  assert (Sq : 0 <= (u - w) * (u - w)) by apply Rle_0_sqr.
  assert (P : 0 <= p <= (u - w) * (u - w) / c1).
  { split; [apply Rmult_le_pos; [exact Sq|left; apply Rinv_0_lt_compat, U]|].
    apply Rmult_le_compat_l; [exact Sq|]. apply Rinv_le_contravar; [exact H1|].
    pose proof (Rle_0_sqr u); pose proof (Rle_0_sqr w); unfold Rsqr in *; lra. }
  assert (Q : 0 <= q <= (x + y - 2 * z) / c1).
  { split; [apply Rmult_le_pos; [assumption|left; apply Rinv_0_lt_compat, W]|].
    apply div_le; [exact W|exact H1|].
    assert (cov * c1 * (x + y - 2 * z) <= c2 * (x + y - 2 * z)) by (apply Rmult_le_compat_r; assumption).
    assert (0 <= (x + y - 2 * z) * (cov * x + cov * y)) by (apply Rmult_le_pos; lra). lra. }
  assert (T : (u - w) * (u - w) / c1 + (x + y - 2 * z) / c1 <= D * D / c1).
  { unfold Rdiv. rewrite <- Rmult_plus_distr_r. apply Rmult_le_compat_r; [left; apply Rinv_0_lt_compat, H1|lra]. }
  assert (0 <= p * q) by (apply Rmult_le_pos; lra). lra.
Qed.

(** If no two pixels differ by more than D the score is at least 1 - (D / (K1 data_range))^2. *)
Theorem C141_close big r m k1 k2 sigma win g mode cval d D :
  accepted_window (shp r) sigma win g mode -> shp m = shp r -> 0 < k1 -> 0 < k2 -> 3 / 2 * (k1 * k1) <= k2 * k2 -> d <> 0 ->
  0 <= D -> (forall i, inb (shp r) i = true -> Rabs (getd r i - getd m i) <= D) ->
  exists v, structural_similarity big r m (opts k1 k2 sigma win g mode cval 1 1 1 d) = Ok (Fin v) /\
    1 - (D / (k1 * d)) * (D / (k1 * d)) <= v.
Proof.
  intros Ha Es H1 H2 H12 Hd HD Hc. destruct (all_windows _ _ _ _ _ Ha) as (Ks & cov & Hne & Hcov & HK & E).
  eexists. split; [apply E; auto|]. fold (scaled k1 d) (scaled k2 d).
  assert (P1 : 0 < scaled k1 d) by (apply scaled_pos; lra).
  replace (D / (k1 * d) * (D / (k1 * d))) with (D * D / scaled k1 d) by (unfold scaled; field; split; lra).
  apply Rle_trans with (Sum (fun _ => 1 - D * D / scaled k1 d) Ks / INR (length Ks)).
  - right. rewrite Sum_const. field. split; [lra|]. apply not_0_INR. destruct Ks; [congruence|discriminate].
  - apply windows_le; [exact Hne|]. intros K Hin. destruct (HK K Hin) as [Hcv Kin].
    apply (formula_close cov _ _ K (shp r)); auto; [lra|].
    unfold scaled. assert (0 < d * d) by nra. assert (0 < k1 * k1) by nra.
    assert (cov * (k1 * k1) <= k2 * k2) by (apply Rle_trans with (3 / 2 * (k1 * k1)); [apply Rmult_le_compat_r; lra|exact H12]).
    assert (cov * (k1 * k1) * (d * d) <= k2 * k2 * (d * d)) by (apply Rmult_le_compat_r; lra). lra.
Qed.
Print Assumptions C141_close.

Theorem C141_scores_close : forall big r m d D, shp r <> [] -> shp m = shp r -> d <> 0%Z -> 0 <= D ->
  (forall i, inb (shp r) i = true -> Rabs (getd r i - getd m i) <= D) ->
  ((forall n, In n (shp r) -> (11 <= n)%nat) -> exists v, ssim_score big (KInt d) false r m None [] = Ok (Fin v) /\
     1 - (100 * D / IZR d) * (100 * D / IZR d) <= v) /\
  ((forall n, In n (shp r) -> (7 <= n)%nat) -> exists v, uqi_score big (KInt d) r m [] = Ok (Fin v) /\
     1 - (100 * D / IZR d) * (100 * D / IZR d) <= v).
Proof.
  intros big r m d D Hs Es Hd HD Hc. apply not_0_IZR in Hd.
  replace (100 * D / IZR d) with (D / (1 / 100 * IZR d)) by (field; exact Hd).
  split; intros Hn; rewrite ?ssim_score_default, ?uqi_score_default;
    apply (C141_close big r m (1 / 100) (3 / 100)); auto using ssim_settings, uqi_settings; lra.
Qed.
Print Assumptions C141_scores_close.

(** The bound cannot be improved much: black against a grey of D. *)
Theorem C141_close_sharp : forall big s d D, s <> [] -> (forall n, In n s -> (11 <= n)%nat) -> (0 < d)%Z ->
  ssim_score big (KInt d) false (tabulate s (fun _ => 0)) (tabulate s (fun _ => D)) None []
  = Ok (Fin (1 - D * D / (D * D + (IZR d / 100) * (IZR d / 100)))).
Proof.
  intros big s d D Hs Hn Hd. rewrite ssim_score_default.
  destruct (all_windows s _ _ _ _ (ssim_settings s Hs Hn)) as (Ks & cov & Hne & Hcov & HK & E).
  assert (Hd' : 0 < IZR d) by (apply IZR_lt; lia).
  rewrite E by (reflexivity || lra). do 2 f_equal.
  set (c1 := 1 / 100 * IZR d * (1 / 100 * IZR d)). set (c2 := 3 / 100 * IZR d * (3 / 100 * IZR d)).
  assert (C1 : 0 < c1) by (unfold c1; apply Rmult_lt_0_compat; lra). assert (C2 : 0 < c2) by (unfold c2; apply Rmult_lt_0_compat; lra).
  pose proof (Rle_0_sqr D) as HD. unfold Rsqr in HD.
  replace (IZR d / 100 * (IZR d / 100)) with c1 by (unfold c1; field).
  rewrite (Sum_ext _ (fun _ => 1 - D * D / (D * D + c1))).
  - rewrite Sum_const. field. split; [lra|]. apply not_0_INR. destruct Ks; [congruence|discriminate].
  - intros K Hin. destruct (HK K Hin) as [Hcv Kin].
    rewrite (formula_shift cov c1 c2 K s _ _ D Hcv Kin ltac:(lra) C1 C2)
      by (intros i Hi; rewrite !getd_tab by exact Hi; ring).
    assert (W : wavg K (tabulate s (fun _ => 0)) = 0).
    { rewrite (wavg_affine K s Hcv Kin (tabulate s (fun _ => 0)) (tabulate s (fun _ => 0)) 0 0); [ring|].
      intros i Hi. rewrite getd_tab by exact Hi. ring. }
    rewrite W. field. lra.
Qed.
Print Assumptions C141_close_sharp.

(** Any two images score almost 1 if the data range is large enough. *)
Theorem C141_limit : forall r m eps, shp r <> [] -> shp m = shp r -> (forall n, In n (shp r) -> (11 <= n)%nat) -> 0 < eps ->
  exists d0, forall d, (d0 <= d)%Z -> forall big, exists v, ssim_score big (KInt d) false r m None [] = Ok (Fin v) /\ 1 - eps < v.
Proof.
  intros r m eps Hs Es Hn He.
  set (D := Sum (fun i => Rabs (getd r i - getd m i)) (indices (shp r))).
  assert (HD : forall i, inb (shp r) i = true -> Rabs (getd r i - getd m i) <= D).
  { intros i Hi. apply in_indices in Hi. unfold D. revert Hi. generalize (indices (shp r)) as l.
    induction l as [|j l IH]; [intros []|]. rewrite Sum_cons.
    assert (0 <= Sum (fun i => Rabs (getd r i - getd m i)) l) by (apply Sum_nonneg; intros; apply Rabs_pos).
    intros [->|Hi]; [lra|]. specialize (IH Hi). pose proof (Rabs_pos (getd r j - getd m j)). lra. }
  assert (D0 : 0 <= D) by (apply Sum_nonneg; intros; apply Rabs_pos).
  set (x := (100 * D + 1) * (1 + / eps)).
  exists (up x). intros d Hd big.
  assert (0 < / eps) by (apply Rinv_0_lt_compat, He).
  assert (X : x < IZR d) by (apply Rlt_le_trans with (IZR (up x)); [apply archimed|apply IZR_le, Hd]).
  assert (X0 : 1 <= x) by (unfold x; nra).
  assert (Hd0 : d <> 0%Z) by (intros ->; lra).
  destruct (C141_scores_close big r m d D Hs Es Hd0 D0 HD) as [C _]. destruct (C Hn) as (v & Ev & Hv).
  exists v. split; [exact Ev|]. apply Rlt_le_trans with (2 := Hv).
  set (q := 100 * D / IZR d) in *.
  assert (Q : q * IZR d = 100 * D) by (unfold q; field; lra).
  assert (q0 : 0 <= q) by (unfold q; apply Rmult_le_pos; [lra|left; apply Rinv_0_lt_compat; lra]).
  assert (q1 : q < 1) by (assert (100 * D < IZR d) by (unfold x in X; nra); nra).
  assert (qe : q < eps).
  { assert (E : 100 * D * (1 + / eps) <= x) by (unfold x; nra).
    assert (F : 100 * D * / eps <= x) by nra.
    destruct (Req_dec D 0) as [Z0|Z0].
    - assert (q = 0) by (unfold q; rewrite Z0; field; lra). lra.
    - assert (Dp : 0 < 100 * D) by lra. assert (G : 100 * D * / eps < IZR d) by lra.
      assert (100 * D < eps * IZR d).
      { replace (100 * D) with (eps * (100 * D * / eps)) by (field; lra). apply Rmult_lt_compat_l; assumption. }
      nra. }
  assert (q * q <= q * 1) by (apply Rmult_le_compat_l; lra). lra.
Qed.
Print Assumptions C141_limit.

(** 8-bit images scored with the data range of 16 bit: never below 0.84, whatever they show. *)
Theorem C141_16_for_8 : forall big r m, shp r <> [] -> shp m = shp r -> (forall n, In n (shp r) -> (11 <= n)%nat) ->
  (forall i, inb (shp r) i = true -> 0 <= getd r i <= 255 /\ 0 <= getd m i <= 255) ->
  exists v, ssim_score big (KInt 65535) false r m None [] = Ok (Fin v) /\ 84 / 100 < v.
Proof.
  intros big r m Hs Es Hn Hv. destruct (C141_scores_close big r m 65535 255 Hs Es ltac:(lia) ltac:(lra)) as [C _].
  { intros i Hi. destruct (Hv i Hi). apply Rabs_le. lra. }
  destruct (C Hn) as (v & Ev & B). exists v. split; [exact Ev|]. lra.
Qed.
Print Assumptions C141_16_for_8.

(** ** Where these fail *)

(** With the two constants exchanged a larger data range can lower the score. *)
Theorem C141_raises_refuted : exists r m, image_nonneg r /\ image_nonneg m /\ shp m = shp r /\
  accepted_window (shp r) (15 / 10) (Some 3%Z) false "reflect" /\
  forall big, exists v v', structural_similarity big r m (opts (3 / 100) (1 / 100) (15 / 10) (Some 3%Z) false "reflect" 0 1 1 1 1) = Ok (Fin v) /\
    structural_similarity big r m (opts (3 / 100) (1 / 100) (15 / 10) (Some 3%Z) false "reflect" 0 1 1 1 255) = Ok (Fin v') /\ v' < v.
Proof.
  exists (pair9 255 0), (pair9 0 255).
  assert (N : forall c o, 0 <= c -> 0 <= o -> image_nonneg (pair9 c o)).
  { intros c o Hc Ho i Hi. unfold pair9. rewrite getd_tab by exact Hi.
    repeat match goal with |- context [match ?x with _ => _ end] => destruct x end; assumption. }
  split; [apply N; lra|]. split; [apply N; lra|]. split; [reflexivity|]. split.
  { repeat split; try lra; [exists 1%Z; reflexivity| |left; reflexivity|discriminate|left; unfold window; lia].
    intros n [<-|[<-|[]]]; unfold window; lia. }
  intros big. do 2 eexists. rewrite !pair9_score by lra. split; [reflexivity|]. split; [reflexivity|].
  apply Rlt_trans with (-2464 / 10000); [apply below_div|apply above_div]; lra.
Qed.
Print Assumptions C141_raises_refuted.

(** The order of two distorted images can depend on the data range; that of PSNR does not (C24). *)
Theorem C141_ranking_refuted : exists r m1 m2, image_nonneg r /\ image_nonneg m1 /\ image_nonneg m2 /\
  forall big, exists v1 v2 w1 w2,
    structural_similarity big r m1 (opts (1 / 100) (3 / 100) (15 / 10) (Some 3%Z) false "reflect" 0 1 1 1 255) = Ok (Fin v1) /\
    structural_similarity big r m2 (opts (1 / 100) (3 / 100) (15 / 10) (Some 3%Z) false "reflect" 0 1 1 1 255) = Ok (Fin v2) /\
    structural_similarity big r m1 (opts (1 / 100) (3 / 100) (15 / 10) (Some 3%Z) false "reflect" 0 1 1 1 65535) = Ok (Fin w1) /\
    structural_similarity big r m2 (opts (1 / 100) (3 / 100) (15 / 10) (Some 3%Z) false "reflect" 0 1 1 1 65535) = Ok (Fin w2) /\
    v2 < v1 /\ w1 < w2.
Proof.
  exists (pair9 132 96), (pair9 152 116), (pair9 140 95).
  assert (N : forall c o, 0 <= c -> 0 <= o -> image_nonneg (pair9 c o)).
  { intros c o Hc Ho i Hi. unfold pair9. rewrite getd_tab by exact Hi.
    repeat match goal with |- context [match ?x with _ => _ end] => destruct x end; assumption. }
  split; [apply N; lra|]. split; [apply N; lra|]. split; [apply N; lra|].
  intros big. do 4 eexists. rewrite !pair9_score by lra.
  split; [reflexivity|]. split; [reflexivity|]. split; [reflexivity|]. split; [reflexivity|]. split.
  - apply Rlt_trans with (98 / 100); [apply below_div|apply above_div]; lra.
  - apply Rlt_trans with (9995 / 10000); [apply below_div|apply above_div]; lra.
Qed.
Print Assumptions C141_ranking_refuted.

(** ** Examples *)

Example C141_values_ex : forall i, inb [11; 11]%nat i = true ->
  0 <= getd (tabulate [11; 11]%nat (fun _ => 0)) i <= 255 /\ 0 <= getd (tabulate [11; 11]%nat (fun _ => 255)) i <= 255.
Proof. intros i Hi. rewrite !getd_tab by exact Hi. lra. Qed.

Example C141_constants_ex : 3 / 2 * (1 / 100 * (1 / 100)) <= 3 / 100 * (3 / 100).
Proof. lra. Qed.
