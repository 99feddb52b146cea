(** Stronger distortions: property C140. *)
From Coq Require Import Reals Lra Psatz.
From Verif Require Import Base NdArray LoadModel LoadProofs NormModel NormProofs PairModel PairProofs RealSums
  MetricModel MetricProofs SsimModel SsimProofs SsimProps SsimExpProps SsimSymProps SsimWinProofs.
Local Open Scope R_scope.

(** ** RMSE and PSNR: pixels with the change of each pixel, and the change applied [t] times *)

Definition before (l : list (R * R)) : list R := map fst l.
Definition after (t : R) (l : list (R * R)) : list R := map (fun p => fst p + t * snd p) l.

Lemma rms_line l t : MetricProofs.rms (before l) (after t l) = Rabs t * MetricProofs.rms (before l) (after 1 l).
Proof.
  unfold MetricProofs.rms, before, after. rewrite map_length, <- (sqrt_Rsqr_abs t), <- sqrt_mult_alt by apply Rle_0_sqr. f_equal.
  unfold Rdiv. rewrite <- Rmult_assoc. f_equal. rewrite <- Sum_scale.
  induction l as [|p l IH]; cbn [map combine]; [reflexivity|]. rewrite !Sum_cons, IH. cbn [fst snd]. unfold Rsqr. ring.
Qed.

Theorem C140_rmse : forall l t, l <> [] ->
  exists x, rmse (before l) (after 1 l) = Fin x /\ rmse (before l) (after t l) = Fin (Rabs t * x).
Proof.
  intros l t H. assert (before l <> []) by (destruct l; [congruence|discriminate]).
  rewrite !rmse_fin by assumption. eexists. split; [reflexivity|]. f_equal. apply rms_line.
Qed.
Print Assumptions C140_rmse.

Lemma line_differs l t : t <> 0 -> (exists p, In p l /\ snd p <> 0) -> before l <> after t l.
Proof.
  intros Ht (p & Hp & Hd) E. unfold before, after in E. induction l as [|q l IH]; [destruct Hp|].
  cbn [map] in E. injection E as E1 E2. destruct Hp as [->|Hp]; [|exact (IH Hp E2)].
  assert (t * snd p <> 0) by (apply Rmult_integral_contrapositive; auto). lra.
Qed.

Theorem C140_psnr : forall dr l t, 0 < dr -> t <> 0 -> (exists p, In p l /\ snd p <> 0) ->
  exists v, psnr dr (before l) (after 1 l) = Fin v /\ psnr dr (before l) (after t l) = Fin (v - 20 * log10 (Rabs t)).
Proof.
  intros dr l t Hd Ht He. assert (Hne : before l <> []) by (destruct He as (p & Hp & _); destruct l; [destruct Hp|discriminate]).
  assert (Hl : forall t, length (before l) = length (after t l)) by (intros; unfold before, after; rewrite !map_length; reflexivity).
  assert (H1 : 1 <> 0) by lra.
  rewrite !psnr_value; auto using line_differs. eexists. split; [reflexivity|]. f_equal. rewrite (rms_line l t).
  pose proof (Rabs_pos_lt t Ht) as Ha. pose proof ln10_pos.
  assert (Hr : 0 < MetricProofs.rms (before l) (after 1 l)).
  { pose proof (rms_nonneg (before l) (after 1 l)). assert (MetricProofs.rms (before l) (after 1 l) <> 0); [|lra].
    intros Hz. apply rms_zero in Hz; auto. exact (line_differs l 1 H1 He Hz). }
  set (x := MetricProofs.rms (before l) (after 1 l)) in *. unfold log10.
  replace (dr / x) with (dr / (Rabs t * x) * Rabs t) by (field; lra).
  rewrite ln_mult; [field; lra| |exact Ha]. apply Rdiv_lt_0_compat; [exact Hd|]. apply Rmult_lt_0_compat; assumption.
Qed.
Print Assumptions C140_psnr.

(** More of the same change is always worse. *)
Theorem C140_ranked : forall dr l t t', 0 < dr -> 0 < t < t' -> (exists p, In p l /\ snd p <> 0) ->
  exists x x' v v', rmse (before l) (after t l) = Fin x /\ rmse (before l) (after t' l) = Fin x' /\ x < x' /\
    psnr dr (before l) (after t l) = Fin v /\ psnr dr (before l) (after t' l) = Fin v' /\ v' < v.
Proof.
  intros dr l t t' Hd Ht He. assert (Hne : l <> []) by (destruct He as (p & Hp & _); intros ->; destruct Hp).
  destruct (C140_rmse l t Hne) as (x & E1 & Ex). destruct (C140_rmse l t' Hne) as (x2 & E2 & Ex').
  assert (x2 = x) by congruence. subst x2.
  destruct (C140_psnr dr l t Hd) as (v & F1 & Fv); [lra|exact He|].
  destruct (C140_psnr dr l t' Hd) as (v2 & F2 & Fv'); [lra|exact He|]. assert (v2 = v) by congruence. subst v2.
  rewrite Rabs_pos_eq in * by lra. do 4 eexists. split; [exact Ex|]. split; [exact Ex'|]. split.
  - assert (0 < x); [|nra]. assert (Hb : before l <> []) by (destruct l; [congruence|discriminate]).
    rewrite rmse_fin in E1 by exact Hb. injection E1 as <-.
    pose proof (rms_nonneg (before l) (after 1 l)). assert (MetricProofs.rms (before l) (after 1 l) <> 0); [|lra].
    intros Hz. apply rms_zero in Hz; [|exact Hb|unfold before, after; rewrite !map_length; reflexivity].
    assert (1 <> 0) by lra. exact (line_differs l 1 H0 He Hz).
  - split; [exact Fv|]. split; [exact Fv'|]. assert (log10 t < log10 t') by (apply log10_lt; lra). lra.
Qed.
Print Assumptions C140_ranked.

(** ** SSIM: the same amount added to all pixels, all pixels multiplied *)

Definition changed (p q : R) (r m : arr R) : Prop :=
  shp m = shp r /\ forall i, inb (shp r) i = true -> getd m i = p * getd r i + q.

(** The luminance term of a mean u against u + t. *)
Lemma luminance_step u t t' c : 0 < c -> 0 <= u -> 0 <= u + t' -> 0 <= t < t' \/ t' < t <= 0 ->
  (2 * (u * (u + t')) + c) / (u * u + (u + t') * (u + t') + c) < (2 * (u * (u + t)) + c) / (u * u + (u + t) * (u + t) + c).
Proof.
  intros Hc Hu Hut Ht.
  assert (D : forall z, 0 < u * u + (u + z) * (u + z) + c).
  { intros z. pose proof (Rle_0_sqr u). pose proof (Rle_0_sqr (u + z)). unfold Rsqr in *. lra. }
  apply Rmult_lt_reg_r with (u * u + (u + t') * (u + t') + c); [apply D|].
  apply Rmult_lt_reg_r with (u * u + (u + t) * (u + t) + c); [apply D|].
  replace ((2 * (u * (u + t')) + c) / (u * u + (u + t') * (u + t') + c) * (u * u + (u + t') * (u + t') + c) * (u * u + (u + t) * (u + t) + c))
    with ((2 * (u * (u + t')) + c) * (u * u + (u + t) * (u + t) + c)) by (field; apply Rgt_not_eq, D).
  replace ((2 * (u * (u + t)) + c) / (u * u + (u + t) * (u + t) + c) * (u * u + (u + t') * (u + t') + c) * (u * u + (u + t) * (u + t) + c))
    with ((2 * (u * (u + t)) + c) * (u * u + (u + t') * (u + t') + c)) by (field; apply Rgt_not_eq, D).
  (* difference: (t'^2 - t^2)(2u^2 + c) + 2 u t t' (t' - t) *)
  assert (E : (2 * (u * (u + t)) + c) * (u * u + (u + t') * (u + t') + c) - (2 * (u * (u + t')) + c) * (u * u + (u + t) * (u + t) + c)
    = (t' - t) * ((t' + t) * (2 * (u * u) + c) + 2 * u * (t * t'))) by ring.
  assert (0 < (t' - t) * ((t' + t) * (2 * (u * u) + c) + 2 * u * (t * t'))); [|lra].
  pose proof (Rle_0_sqr u) as Hu2. unfold Rsqr in Hu2. destruct Ht as [Ht|Ht].
  - assert (0 <= t * t') by nra. assert (0 <= u * (t * t')) by (apply Rmult_le_pos; assumption).
    assert (0 < (t' + t) * (2 * (u * u) + c)) by (apply Rmult_lt_0_compat; lra). apply Rmult_lt_0_compat; lra.
  - (* t' < t <= 0, -t' <= u *)
    assert (0 <= u * - t' <= u * u) by (split; [apply Rmult_le_pos; lra|apply Rmult_le_compat_l; lra]).
    assert (2 * u * (t * t') <= - t * (2 * (u * u))) by nra.
    assert ((t' + t) * (2 * (u * u) + c) + 2 * u * (t * t') < 0); [|nra].
    assert (0 < (- t' - t) * (2 * (u * u) + c)) by (apply Rmult_lt_0_compat; lra).
    assert (0 < - t' * (2 * (u * u) + c)) by (apply Rmult_lt_0_compat; lra). nra.
Qed.

Lemma formula_shift cov c1 c2 K s r m t : convex fst K -> (forall k, In k K -> inb s (snd k) = true) -> 0 < cov -> 0 < c1 -> 0 < c2 ->
  (forall i, inb s i = true -> getd m i = 1 * getd r i + t) ->
  formula cov c1 c2 K r m = (2 * (wavg K r * (wavg K r + t)) + c1) / (wavg K r * wavg K r + (wavg K r + t) * (wavg K r + t) + c1).
Proof.
  intros HK Kin Hcov H1 H2 Hm. unfold formula.
  rewrite (wavg_affine K s HK Kin r m 1 t Hm), (wcov_affine K s HK Kin r r m 1 t Hm), (wcov_affine K s HK Kin m r m 1 t Hm).
  rewrite (wcov_sym K m r), (wcov_affine K s HK Kin r r m 1 t Hm). rewrite !Rmult_1_l.
  pose proof (wcov_nonneg K HK r) as Hv. set (v := wcov K r r) in *. set (u := wavg K r).
  assert (0 <= cov * v) by (apply Rmult_le_pos; lra).
  assert (0 < u * u + (u + t) * (u + t) + c1).
  { pose proof (Rle_0_sqr u). pose proof (Rle_0_sqr (u + t)). unfold Rsqr in *. lra. }
  field. split; apply Rgt_not_eq; lra.
Qed.

(** Brighter and brighter, darker and darker: every step lowers SSIM, as long as no pixel is negative. *)
Theorem C140_brightness big r m m' k1 k2 sigma win g mode cval dr t t' :
  accepted_window (shp r) sigma win g mode -> 0 < k1 -> 0 < k2 -> dr <> 0 ->
  changed 1 t r m -> changed 1 t' r m' -> image_nonneg r -> image_nonneg m' -> 0 <= t < t' \/ t' < t <= 0 ->
  exists v v', structural_similarity big r m (opts k1 k2 sigma win g mode cval 1 1 1 dr) = Ok (Fin v) /\
    structural_similarity big r m' (opts k1 k2 sigma win g mode cval 1 1 1 dr) = Ok (Fin v') /\ v' < v.
Proof.
  intros Ha H1 H2 Hd [Es Hm] [Es' Hm'] Nr Nm Ht. destruct (all_windows _ _ _ _ _ Ha) as (Ks & cov & Hne & Hcov & HK & E).
  do 2 eexists. split; [apply E; auto|]. split; [apply E; auto|].
  set (c1 := (k1 * dr) * (k1 * dr)) in *. set (c2 := (k2 * dr) * (k2 * dr)) in *.
  assert (C1 : 0 < c1) by (apply (Rsqr_pos_lt (k1 * dr)), Rmult_integral_contrapositive; split; lra).
  assert (C2 : 0 < c2) by (apply (Rsqr_pos_lt (k2 * dr)), Rmult_integral_contrapositive; split; lra).
  apply windows_lt; [exact Hne|]. intros K Hin. destruct (HK K Hin) as [Hc Kin].
  rewrite (formula_shift cov c1 c2 K _ r m t Hc Kin ltac:(lra) C1 C2 Hm), (formula_shift cov c1 c2 K _ r m' t' Hc Kin ltac:(lra) C1 C2 Hm').
  assert (Hu : 0 <= wavg K r) by (apply (wavg_nonneg K _ Hc Kin), Nr).
  assert (Hu' : 0 <= wavg K m') by (apply (wavg_nonneg K _ Hc Kin); rewrite <- Es'; exact Nm).
  rewrite (wavg_affine K _ Hc Kin r m' 1 t' Hm'), Rmult_1_l in Hu'. apply luminance_step; assumption.
Qed.
Print Assumptions C140_brightness.

(** The terms of a quantity q (squared mean or variance) against its s-fold. *)
Lemma gain_step q s s' c : 0 < c -> 0 <= q -> 1 <= s <= s' \/ (0 <= s' <= s /\ s <= 1) ->
  0 <= (2 * (s' * q) + c) / (q + s' * s' * q + c) <= (2 * (s * q) + c) / (q + s * s * q + c).
Proof.
  intros Hc Hq Hs.
  assert (D : forall z, 0 < q + z * z * q + c).
  { intros z. pose proof (Rle_0_sqr z). unfold Rsqr in *. assert (0 <= z * z * q) by (apply Rmult_le_pos; lra). lra. }
  assert (N : 0 <= s' * q) by (apply Rmult_le_pos; lra).
  split; [apply Rmult_le_pos; [lra|left; apply Rinv_0_lt_compat, D]|].
  apply Rmult_le_reg_r with (q + s' * s' * q + c); [apply D|].
  apply Rmult_le_reg_r with (q + s * s * q + c); [apply D|].
  replace ((2 * (s' * q) + c) / (q + s' * s' * q + c) * (q + s' * s' * q + c) * (q + s * s * q + c))
    with ((2 * (s' * q) + c) * (q + s * s * q + c)) by (field; apply Rgt_not_eq, D).
  replace ((2 * (s * q) + c) / (q + s * s * q + c) * (q + s' * s' * q + c) * (q + s * s * q + c))
    with ((2 * (s * q) + c) * (q + s' * s' * q + c)) by (field; apply Rgt_not_eq, D).
  assert (E : (2 * (s * q) + c) * (q + s' * s' * q + c) - (2 * (s' * q) + c) * (q + s * s * q + c)
    = q * ((s' - s) * (2 * q * (s * s' - 1) + c * (s + s' - 2)))) by ring.
  assert (0 <= q * ((s' - s) * (2 * q * (s * s' - 1) + c * (s + s' - 2)))); [|lra].
  apply Rmult_le_pos; [exact Hq|]. destruct Hs as [Hs|Hs].
  - assert (0 <= s * s' - 1) by nra. assert (0 <= q * (s * s' - 1)) by (apply Rmult_le_pos; lra).
    assert (0 <= c * (s + s' - 2)) by (apply Rmult_le_pos; lra). apply Rmult_le_pos; lra.
  - assert (0 <= 1 - s * s') by nra. assert (0 <= q * (1 - s * s')) by (apply Rmult_le_pos; lra).
    assert (0 <= c * (2 - s - s')) by (apply Rmult_le_pos; lra).
    replace ((s' - s) * (2 * q * (s * s' - 1) + c * (s + s' - 2))) with ((s - s') * (2 * (q * (1 - s * s')) + c * (2 - s - s'))) by ring.
    apply Rmult_le_pos; lra.
Qed.

Lemma formula_gain cov c1 c2 K s r m p : convex fst K -> (forall k, In k K -> inb s (snd k) = true) -> 0 < cov -> 0 < c1 -> 0 < c2 ->
  (forall i, inb s i = true -> getd m i = p * getd r i + 0) ->
  let u := wavg K r * wavg K r in let v := cov * wcov K r r in
  formula cov c1 c2 K r m = (2 * (p * u) + c1) / (u + p * p * u + c1) * ((2 * (p * v) + c2) / (v + p * p * v + c2)).
Proof.
  intros HK Kin Hcov H1 H2 Hm u v. unfold formula.
  rewrite (wavg_affine K s HK Kin r m p 0 Hm), (wcov_affine K s HK Kin r r m p 0 Hm), (wcov_affine K s HK Kin m r m p 0 Hm).
  rewrite (wcov_sym K m r), (wcov_affine K s HK Kin r r m p 0 Hm).
  pose proof (wcov_nonneg K HK r) as Hv. assert (0 <= v) by (apply Rmult_le_pos; lra).
  assert (Hu : 0 <= u) by apply Rle_0_sqr.
  assert (0 <= p * p) by apply Rle_0_sqr. assert (0 <= p * p * u) by (apply Rmult_le_pos; assumption).
  assert (0 <= p * p * v) by (apply Rmult_le_pos; assumption).
  unfold u, v in *. field. repeat split; apply Rgt_not_eq; lra.
Qed.

(** More and more, less and less gain: SSIM never rises. *)
Theorem C140_gain big r m m' k1 k2 sigma win g mode cval dr s s' :
  accepted_window (shp r) sigma win g mode -> 0 < k1 -> 0 < k2 -> dr <> 0 ->
  changed s 0 r m -> changed s' 0 r m' -> 1 <= s <= s' \/ (0 <= s' <= s /\ s <= 1) ->
  exists v v', structural_similarity big r m (opts k1 k2 sigma win g mode cval 1 1 1 dr) = Ok (Fin v) /\
    structural_similarity big r m' (opts k1 k2 sigma win g mode cval 1 1 1 dr) = Ok (Fin v') /\ v' <= v.
Proof.
  intros Ha H1 H2 Hd [Es Hm] [Es' Hm'] Ht. destruct (all_windows _ _ _ _ _ Ha) as (Ks & cov & Hne & Hcov & HK & E).
  do 2 eexists. split; [apply E; auto|]. split; [apply E; auto|].
  set (c1 := (k1 * dr) * (k1 * dr)) in *. set (c2 := (k2 * dr) * (k2 * dr)) in *.
  assert (C1 : 0 < c1) by (apply (Rsqr_pos_lt (k1 * dr)), Rmult_integral_contrapositive; split; lra).
  assert (C2 : 0 < c2) by (apply (Rsqr_pos_lt (k2 * dr)), Rmult_integral_contrapositive; split; lra).
  apply windows_le; [exact Hne|]. intros K Hin. destruct (HK K Hin) as [Hc Kin].
  rewrite (formula_gain cov c1 c2 K _ r m s Hc Kin ltac:(lra) C1 C2 Hm), (formula_gain cov c1 c2 K _ r m' s' Hc Kin ltac:(lra) C1 C2 Hm').
  pose proof (wcov_nonneg K Hc r) as Hv. assert (0 <= cov * wcov K r r) by (apply Rmult_le_pos; lra).
  assert (Hu : 0 <= wavg K r * wavg K r) by apply Rle_0_sqr.
  pose proof (gain_step _ s s' c1 C1 Hu Ht) as [G1 G2]. pose proof (gain_step _ s s' c2 C2 H Ht) as [G3 G4].
  apply Rmult_le_compat; assumption.
Qed.
Print Assumptions C140_gain.

(** ** SSIM.score and UQI.score with their default settings *)

Lemma ssim_settings s : s <> [] -> (forall n, In n s -> (11 <= n)%nat) -> accepted_window s (15 / 10) None true "reflect".
Proof.
  intros Hs H. repeat split; try lra; rewrite ?default_window; [exists 5%Z; reflexivity| |left; reflexivity|exact Hs|right; auto].
  intros n Hn. specialize (H n Hn). lia.
Qed.
Lemma uqi_settings s : s <> [] -> (forall n, In n s -> (7 <= n)%nat) -> accepted_window s (15 / 10) None false "reflect".
Proof.
  intros Hs H. repeat split; try lra; [exists 3%Z; reflexivity| |left; reflexivity|exact Hs|left; unfold window; lia].
  intros n Hn. specialize (H n Hn). unfold window. lia.
Qed.
Lemma ssim_score_default big d r m : ssim_score big (KInt d) false r m None []
  = structural_similarity big r m (opts (1 / 100) (3 / 100) (15 / 10) None true "reflect" 0 1 1 1 (IZR d)).
Proof. reflexivity. Qed.
Lemma uqi_score_default big d r m : uqi_score big (KInt d) r m []
  = structural_similarity big r m (opts (1 / 100) (3 / 100) (15 / 10) None false "reflect" 0 1 1 1 (IZR d)).
Proof. reflexivity. Qed.

Theorem C140_scores : forall big d r m m' (score : arr R -> arr R -> res ext),
  score = (fun a b => ssim_score big (KInt d) false a b None []) /\ (forall n, In n (shp r) -> (11 <= n)%nat) \/
  score = (fun a b => uqi_score big (KInt d) a b []) /\ (forall n, In n (shp r) -> (7 <= n)%nat) ->
  shp r <> [] -> d <> 0%Z ->
  (forall t t', changed 1 t r m -> changed 1 t' r m' -> image_nonneg r -> image_nonneg m' -> 0 <= t < t' \/ t' < t <= 0 ->
     exists v v', score r m = Ok (Fin v) /\ score r m' = Ok (Fin v') /\ v' < v) /\
  (forall s s', changed s 0 r m -> changed s' 0 r m' -> 1 <= s <= s' \/ (0 <= s' <= s /\ s <= 1) ->
     exists v v', score r m = Ok (Fin v) /\ score r m' = Ok (Fin v') /\ v' <= v).
Proof.
  intros big d r m m' score [[-> Hn]|[-> Hn]] Hs Hd; rewrite ?ssim_score_default, ?uqi_score_default;
    (split; [intros t t' Hm Hm' Nr Nm Ht; apply (C140_brightness _ _ _ _ _ _ _ _ _ _ _ _ t t')
            |intros s s' Hm Hm' Ht; apply (C140_gain _ _ _ _ _ _ _ _ _ _ _ _ s s')]);
    auto using ssim_settings, uqi_settings, not_0_IZR; lra.
Qed.
Print Assumptions C140_scores.

(** ** Other distortions *)

Definition pair9 (c o : R) : arr R := tabulate [3; 3]%nat (fun i => match i with [1; 1]%nat => c | _ => o end).

Lemma pair9_score big c o c' o' k1 k2 d : 0 < k1 -> 0 < k2 -> d <> 0 ->
  structural_similarity big (pair9 c o) (pair9 c' o') (opts k1 k2 (15 / 10) (Some 3%Z) false "reflect" 0 1 1 1 d)
  = Ok (Fin ((2 * ((c + 8 * o) / 9 * ((c' + 8 * o') / 9)) + (k1 * d) * (k1 * d))
             * (2 * ((c - o) * (c' - o') / 9) + (k2 * d) * (k2 * d))
             / (((c + 8 * o) / 9 * ((c + 8 * o) / 9) + (c' + 8 * o') / 9 * ((c' + 8 * o') / 9) + (k1 * d) * (k1 * d))
                * ((c - o) * (c - o) / 9 + (c' - o') * (c' - o') / 9 + (k2 * d) * (k2 * d))))).
Proof.
  intros H1 H2 Hd.
  assert (C1 : 0 < (k1 * d) * (k1 * d)) by (apply (Rsqr_pos_lt (k1 * d)), Rmult_integral_contrapositive; split; lra).
  assert (C2 : 0 < (k2 * d) * (k2 * d)) by (apply (Rsqr_pos_lt (k2 * d)), Rmult_integral_contrapositive; split; lra).
  unfold structural_similarity. rewrite setup_opts by lra. cbv zeta. cbn [window]. change (shp (pair9 c o)) with [3; 3]%nat.
  change (existsb (fun n => (Z.of_nat n <? 3)%Z) [3; 3]%nat) with false. change (Z.even 3) with false.
  cbv iota. cbn [andb length]. change (3 ^ Z.of_nat 2)%Z with 9%Z. change (9 =? 1)%Z with false. cbv iota. cbn [bind].
  change (1 <? 3)%Z with true. cbv iota. change (mode_of "reflect") with (Some Reflect). cbn [from_opt bind].
  change ((3 - 1) / 2)%Z with 1%Z. change (9 - 1)%Z with 8%Z.
  assert (T1 : Rtrunc 1 = 1%Z) by (apply (Rtrunc_IZR 1); lia). rewrite T1.
  set (P := SsimParams _ _ _ _ _ _ _ _ _ _). change (p_pad P) with 1%Z.
  assert (Hc : slice (ssim_map big P (pair9 c o) (pair9 c' o')) (map (fun n => (1, Z.of_nat n - 1)%Z) [3; 3]%nat)
            = Ok (Arr [1; 1]%nat [getd (ssim_map big P (pair9 c o) (pair9 c' o')) [1; 1]%nat])) by reflexivity.
  rewrite Hc. cbn [bind dat mean_of rsum fold_right length INR]. do 2 f_equal.
  rewrite Rplus_0_r. unfold Rdiv at 1. rewrite Rinv_1, Rmult_1_r.
  unfold ssim_map. change (shp (pair9 c o)) with [3; 3]%nat. rewrite getd_tab by reflexivity.
  change (p_ws P) with (uniform_weights 3). change (p_mode P) with Reflect. change (p_cval P) with 0.
  unfold amul. change (shp (pair9 c o)) with [3; 3]%nat. change (shp (pair9 c' o')) with [3; 3]%nat.
  unfold pair9 at 1 2. rewrite !mean_filtered.
  assert (V : forall x y, getd (pair9 x y) [0; 0]%nat = y /\ getd (pair9 x y) [0; 1]%nat = y /\ getd (pair9 x y) [0; 2]%nat = y /\
    getd (pair9 x y) [1; 0]%nat = y /\ getd (pair9 x y) [1; 1]%nat = x /\ getd (pair9 x y) [1; 2]%nat = y /\
    getd (pair9 x y) [2; 0]%nat = y /\ getd (pair9 x y) [2; 1]%nat = y /\ getd (pair9 x y) [2; 2]%nat = y) by (repeat split; reflexivity).
  destruct (V c o) as (-> & -> & -> & -> & -> & -> & -> & -> & ->).
  destruct (V c' o') as (-> & -> & -> & -> & -> & -> & -> & -> & ->).
  unfold P.
  assert (S1 : forall z, 0 <= z * z) by (intros z; apply Rle_0_sqr).
  rewrite pixel_formula; [|exact C1|exact C2| |].
  - f_equal; [f_equal|f_equal]; field.
  - replace (IZR 9 / IZR 8 * ((o * o + o * o + o * o + o * o + c * c + o * o + o * o + o * o + o * o) / 9
       - (o + o + o + o + c + o + o + o + o) / 9 * ((o + o + o + o + c + o + o + o + o) / 9)))
      with ((c - o) * (c - o) / 9) by field. specialize (S1 (c - o)). lra.
  - replace (IZR 9 / IZR 8 * ((o' * o' + o' * o' + o' * o' + o' * o' + c' * c' + o' * o' + o' * o' + o' * o' + o' * o') / 9
       - (o' + o' + o' + o' + c' + o' + o' + o' + o') / 9 * ((o' + o' + o' + o' + c' + o' + o' + o' + o') / 9)))
      with ((c' - o') * (c' - o') / 9) by field. specialize (S1 (c' - o')). lra.
Qed.

Lemma below_div n d x : 0 < d -> n < x * d -> n / d < x.
Proof. intros Hd H. apply Rmult_lt_reg_r with d; [exact Hd|]. unfold Rdiv. rewrite Rmult_assoc, Rinv_l by lra. lra. Qed.
Lemma above_div n d x : 0 < d -> x * d < n -> x < n / d.
Proof. intros Hd H. apply Rmult_lt_reg_r with d; [exact Hd|]. unfold Rdiv. rewrite Rmult_assoc, Rinv_l by lra. lra. Qed.

(** A change applied seven times scores higher than the same change applied four times. All grey values are
    integers between 4 and 116; the constants and the data range are the usual ones. *)
Theorem C140_ssim_refuted : exists r m m' (d : list nat -> R),
  shp r = [3; 3]%nat /\ shp m = [3; 3]%nat /\ shp m' = [3; 3]%nat /\
  (forall i, inb [3; 3]%nat i = true -> getd m i = getd r i + 4 * d i /\ getd m' i = getd r i + 7 * d i /\
     4 <= getd r i <= 116 /\ 4 <= getd m i <= 116 /\ 4 <= getd m' i <= 116) /\
  forall big, exists v v', structural_similarity big r m (opts (1 / 100) (3 / 100) (15 / 10) (Some 3%Z) false "reflect" 0 1 1 1 255) = Ok (Fin v) /\
    structural_similarity big r m' (opts (1 / 100) (3 / 100) (15 / 10) (Some 3%Z) false "reflect" 0 1 1 1 255) = Ok (Fin v') /\ v < v'.
Proof.
  exists (pair9 116 98), (pair9 52 106), (pair9 4 112), (fun i => match i with [1; 1]%nat => -16 | _ => 2 end).
  split; [reflexivity|]. split; [reflexivity|]. split; [reflexivity|]. split.
  - intros i Hi. unfold pair9. rewrite !getd_tab by exact Hi.
    repeat match goal with |- context [match ?x with _ => _ end] => destruct x end; lra.
  - intros big. do 2 eexists. rewrite !pair9_score by lra. split; [reflexivity|]. split; [reflexivity|].
    apply Rlt_trans with (-3 / 10); [apply below_div|apply above_div]; lra.
Qed.
Print Assumptions C140_ssim_refuted.

(** ** Examples *)

Example C140_ranked_ex : exists p, In p [(0, 0); (10, 3)] /\ snd p <> 0.
Proof. exists (10, 3). simpl. split; [tauto|lra]. Qed.

Example C140_changed_ex : changed 1 (-3) (tabulate [11; 12]%nat (fun i => INR (nth 0 i 0%nat) + 5)) (tabulate [11; 12]%nat (fun i => INR (nth 0 i 0%nat) + 2)) /\
  image_nonneg (tabulate [11; 12]%nat (fun i => INR (nth 0 i 0%nat) + 2)).
Proof.
  split; [split; [reflexivity|]|]; intros i Hi; cbn [tabulate shp] in Hi; rewrite !getd_tab by exact Hi; [ring|].
  pose proof (pos_INR (nth 0 i 0%nat)). lra.
Qed.
