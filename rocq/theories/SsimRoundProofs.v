(** Lemmas about SSIM in single precision (SsimRoundModel). *)
From Coq Require Import Reals Lra Psatz.
From Verif Require Import Base NdArray LoadModel LoadProofs NormModel PairModel PairProofs RealSums
  MetricModel SsimModel SsimProofs SsimRoundModel RoundProofs.
Local Open Scope R_scope.

(** A rounding with relative error [eps]. *)
Definition rounding (eps : R) (rnd : R -> R) : Prop :=
  0 <= eps < 1 /\ forall x, Rabs (rnd x - x) <= eps * Rabs x.

Definition eps32 : R := 1 / 16777216.

Lemma float32_rounding : rounding eps32 float32.
Proof.
  split; [unfold eps32; lra|]. intros x. eapply Rle_trans; [apply round_rel|].
  rewrite pow2_opp, pow2_Z by lia. unfold eps32. simpl IZR. right. f_equal. lra.
Qed.

Lemma float32_exact m e : (Z.abs m < 2 ^ 24)%Z -> float32 (IZR m * pow2 e) = IZR m * pow2 e.
Proof. intros H. apply round_exact; [exact H|lia]. Qed.

Lemma float32_small m : (Z.abs m < 2 ^ 24)%Z -> float32 (IZR m) = IZR m.
Proof. intros H. rewrite <- (Rmult_1_r (IZR m)), <- pow2_0. apply float32_exact, H. Qed.

Lemma float32_idem x : float32 (float32 x) = float32 x.
Proof. apply round_idem. lia. Qed.

Lemma float32_double x : float32 (2 * x) = 2 * float32 x.
Proof. apply round_double. Qed.

Section Rnd.
Variables (eps : R) (rnd : R -> R).
Hypothesis Hr : rounding eps rnd.

Lemma rnd_0 : rnd 0 = 0.
Proof.
  destruct Hr as [_ H]. specialize (H 0). rewrite Rabs_R0, Rmult_0_r, Rminus_0_r in H.
  destruct (Req_dec (rnd 0) 0) as [|C]; [assumption|]. pose proof (Rabs_pos_lt _ C). lra.
Qed.

Lemma rnd_between x : Rabs x * (1 - eps) <= Rabs (rnd x) <= Rabs x * (1 + eps).
Proof.
  destruct Hr as [He H]. specialize (H x). split.
  - pose proof (Rabs_triang_inv x (x - rnd x)) as T. replace (x - (x - rnd x)) with (rnd x) in T by ring.
    rewrite (Rabs_minus_sym x (rnd x)) in T. lra.
  - pose proof (Rabs_triang x (rnd x - x)) as T. replace (x + (rnd x - x)) with (rnd x) in T by ring. lra.
Qed.

Lemma rnd_pos x : 0 < x -> x * (1 - eps) <= rnd x <= x * (1 + eps).
Proof.
  destruct Hr as [He H]. specialize (H x). intros Hx. rewrite (Rabs_right x) in H by lra.
  apply abs_between in H. lra.
Qed.

Lemma rnd_gt0 x : 0 < x -> 0 < rnd x.
Proof. intros Hx. pose proof (rnd_pos x Hx). destruct Hr as [He _]. assert (0 < x * (1 - eps)) by (apply Rmult_lt_0_compat; lra). lra. Qed.

Lemma rnd_nonneg x : 0 <= x -> x * (1 - eps) <= rnd x <= x * (1 + eps).
Proof. intros [Hx| <-]; [apply rnd_pos, Hx|]. rewrite rnd_0. lra. Qed.

Lemma rnd_neg x : x < 0 -> rnd x < 0.
Proof.
  destruct Hr as [He H]. specialize (H x). intros Hx. rewrite (Rabs_left x) in H by lra.
  apply abs_between in H. nra.
Qed.

(** An approximation of a number of size at most [B] after [k] roundings. *)
Definition approx (B : R) (k : nat) (x' x : R) : Prop :=
  Rabs x' <= B * (1 + eps) ^ k /\ Rabs (x' - x) <= B * ((1 + eps) ^ k - 1).

Lemma approx_rnd B k x' x : 0 <= B -> approx B k x' x -> approx B (S k) (rnd x') x.
Proof.
  intros HB [H1 H2]. destruct Hr as [He H]. specialize (H x'). unfold approx. cbn [pow]. set (E := (1 + eps) ^ k) in *.
  assert (HeE : eps * Rabs x' <= eps * (B * E)) by (apply Rmult_le_compat_l; lra).
  split.
  - pose proof (rnd_between x') as [_ T]. eapply Rle_trans; [exact T|].
    replace (B * ((1 + eps) * E)) with (B * E * (1 + eps)) by ring. apply Rmult_le_compat_r; lra.
  - replace (rnd x' - x) with ((rnd x' - x') + (x' - x)) by ring.
    eapply Rle_trans; [apply Rabs_triang|]. lra.
Qed.

Lemma approx_mult B k x' x y' y : 0 <= B -> approx B k x' x -> approx B k y' y -> Rabs x <= B -> Rabs y <= B ->
  approx (B * B) (k + k) (x' * y') (x * y).
Proof.
  intros HB [H1 H2] [H3 H4] Hx Hy. unfold approx. rewrite pow_add. set (E := (1 + eps) ^ k) in *. split.
  - rewrite Rabs_mult. replace (B * B * (E * E)) with ((B * E) * (B * E)) by ring.
    apply Rmult_le_compat; try apply Rabs_pos; assumption.
  - replace (x' * y' - x * y) with (x' * (y' - y) + (x' - x) * y) by ring.
    eapply Rle_trans; [apply Rabs_triang|]. rewrite !Rabs_mult.
    pose proof (Rabs_pos x'). pose proof (Rabs_pos (y' - y)). pose proof (Rabs_pos (x' - x)). pose proof (Rabs_pos y).
    assert (Rabs x' * Rabs (y' - y) <= (B * E) * (B * (E - 1))) by (apply Rmult_le_compat; assumption).
    assert (Rabs (x' - x) * Rabs y <= (B * (E - 1)) * B) by (apply Rmult_le_compat; assumption). lra.
Qed.

Lemma approx_refl B x : Rabs x <= B -> approx B 0 x x.
Proof. intros H. split; cbn [pow]; [lra|]. rewrite Rminus_diag_eq, Rabs_R0 by reflexivity. lra. Qed.

(** ** Filters *)

Lemma convex_abs {A} (w f : A -> R) l c : convex w l -> (forall a, In a l -> Rabs (f a) <= c) ->
  Rabs (Sum (fun a => w a * f a) l) <= c.
Proof.
  intros [H0 H1] H. apply Rabs_le. split.
  - replace (- c) with (Sum (fun a => (- c) * w a) l) by (rewrite Sum_scale, H1; ring).
    apply Sum_le. intros a Ha. specialize (H a Ha). specialize (H0 a Ha). apply abs_between in H. nra.
  - replace c with (Sum (fun a => c * w a) l) by (rewrite Sum_scale, H1; ring).
    apply Sum_le. intros a Ha. specialize (H a Ha). specialize (H0 a Ha). apply abs_between in H. nra.
Qed.

Lemma convex_approx {A} (w f' f : A -> R) l B k : convex w l ->
  (forall a, In a l -> approx B k (f' a) (f a)) -> approx B k (Sum (fun a => w a * f' a) l) (Sum (fun a => w a * f a) l).
Proof.
  intros Hc H. split.
  - apply convex_abs; [exact Hc|]. intros a Ha. apply H, Ha.
  - rewrite <- Sum_minus. rewrite (Sum_ext _ (fun a => w a * (f' a - f a))) by (intros; ring).
    apply convex_abs; [exact Hc|]. intros a Ha. apply H, Ha.
Qed.

Lemma sample_approx m cval a' a ax idx o B k : shp a' = shp a -> inb (shp a) idx = true ->
  (ax < length (shp a))%nat -> 0 <= B -> (m = Constant -> Rabs cval <= B) ->
  (forall idx, inb (shp a) idx = true -> approx B k (getd a' idx) (getd a idx)) ->
  approx B k (sample m cval a' ax idx o) (sample m cval a ax idx o).
Proof.
  intros Hs Hi Hax HB Hc H. unfold sample. rewrite Hs. destruct (pad_pos _ _ _) as [q|] eqn:E.
  - apply H. apply SsimProofs.inb_upd; [exact Hi|]. eapply pad_pos_lt; [|exact E].
    pose proof (SsimProofs.inb_nth _ _ _ Hi Hax). lia.
  - assert (m = Constant) as Em by (destruct m; try discriminate; [unfold pad_pos in E; destruct (_ =? 1); discriminate|reflexivity]).
    specialize (Hc Em). assert (E1 : 1 <= (1 + eps) ^ k) by (apply pow_R1_Rle; destruct Hr; lra).
    split; [nra|]. rewrite Rminus_diag_eq, Rabs_R0 by reflexivity. apply Rmult_le_pos; lra.
Qed.

Lemma shp_fold_r ws m cval axes : forall a, shp (fold_left (filter_axis_r rnd ws m cval) axes a) = shp a.
Proof. induction axes as [|ax axes IH]; intros a; simpl; [reflexivity|]. rewrite IH. reflexivity. Qed.

Lemma fold_approx ws m cval B axes : convex snd ws -> 0 <= B -> (m = Constant -> Rabs cval <= B) ->
  forall k a' a, shp a' = shp a -> (forall ax, In ax axes -> (ax < length (shp a))%nat) ->
  (forall idx, inb (shp a) idx = true -> approx B k (getd a' idx) (getd a idx)) ->
  forall idx, inb (shp a) idx = true ->
  approx B (length axes + k) (getd (fold_left (filter_axis_r rnd ws m cval) axes a') idx)
                             (getd (fold_left (filter_axis ws m cval) axes a) idx).
Proof.
  intros Hcv HB Hc. induction axes as [|ax axes IH]; intros k a' a Hs Hax H idx Hi; [apply H, Hi|].
  cbn [fold_left length]. rewrite Nat.add_succ_comm. apply IH.
  - exact Hs.
  - intros ax' Hin. apply Hax. right. exact Hin.
  - intros j Hj. change (shp (filter_axis ws m cval a ax)) with (shp a) in Hj.
    unfold filter_axis_r, filter_axis. rewrite Hs. rewrite !getd_tab by exact Hj.
    apply approx_rnd; [exact HB|].
    apply (convex_approx snd (fun ow => sample m cval a' ax j (fst ow)) (fun ow => sample m cval a ax j (fst ow)));
      [exact Hcv|]. intros ow _.
    apply sample_approx; try assumption. apply Hax. left. reflexivity.
  - exact Hi.
Qed.

Lemma filter_approx ws m cval B k a' a idx : convex snd ws -> 0 <= B -> (m = Constant -> Rabs cval <= B) ->
  shp a' = shp a -> (forall idx, inb (shp a) idx = true -> approx B k (getd a' idx) (getd a idx)) ->
  inb (shp a) idx = true ->
  approx B (length (shp a) + k) (getd (filter_nd_r rnd ws m cval a') idx) (getd (filter_nd ws m cval a) idx).
Proof.
  intros Hcv HB Hc Hs H Hi. unfold filter_nd_r, filter_nd. rewrite Hs.
  rewrite <- (seq_length (length (shp a)) 0) at 1.
  apply fold_approx; try assumption. intros ax Hax. apply in_seq in Hax. lia.
Qed.

Lemma fold_bound ws m cval B axes : convex snd ws -> (m = Constant -> Rabs cval <= B) ->
  forall a, (forall ax, In ax axes -> (ax < length (shp a))%nat) ->
  (forall idx, inb (shp a) idx = true -> Rabs (getd a idx) <= B) ->
  forall idx, inb (shp a) idx = true -> Rabs (getd (fold_left (filter_axis ws m cval) axes a) idx) <= B.
Proof.
  intros Hcv Hc. induction axes as [|ax axes IH]; intros a Hax H idx Hi; [apply H, Hi|].
  cbn [fold_left]. apply IH.
  - intros ax' Hin. apply Hax. right. exact Hin.
  - intros j Hj. change (shp (filter_axis ws m cval a ax)) with (shp a) in Hj.
    unfold filter_axis. rewrite getd_tab by exact Hj. apply (convex_abs snd (fun ow => sample m cval a ax j (fst ow)) ws); [exact Hcv|].
    intros ow _. unfold sample. destruct (pad_pos _ _ _) as [q|] eqn:E.
    + apply H. apply SsimProofs.inb_upd; [exact Hj|]. eapply pad_pos_lt; [|exact E].
      pose proof (SsimProofs.inb_nth _ _ _ Hj (Hax ax (or_introl eq_refl))). lia.
    + apply Hc. destruct m; try discriminate; [unfold pad_pos in E; destruct (_ =? 1); discriminate|reflexivity].
  - exact Hi.
Qed.

Lemma filter_bound ws m cval B a idx : convex snd ws -> (m = Constant -> Rabs cval <= B) ->
  (forall idx, inb (shp a) idx = true -> Rabs (getd a idx) <= B) -> inb (shp a) idx = true ->
  Rabs (getd (filter_nd ws m cval a) idx) <= B.
Proof.
  intros Hcv Hc H Hi. apply fold_bound; try assumption. intros ax Hax. apply in_seq in Hax. lia.
Qed.

(** ** Moments *)

Definition bounded (B : R) (a : arr R) : Prop := forall idx, inb (shp a) idx = true -> Rabs (getd a idx) <= B.

Lemma amul_approx B r m idx : 0 <= B -> shp m = shp r -> bounded B r -> bounded B m -> inb (shp r) idx = true ->
  approx (B * B) 1 (getd (amul_r rnd r m) idx) (getd (amul r m) idx).
Proof.
  intros HB Hs Hbr Hbm Hi. unfold amul_r, amul. rewrite !getd_tab by exact Hi.
  apply approx_rnd; [nra|]. apply approx_refl. rewrite Rabs_mult.
  apply Rmult_le_compat; try apply Rabs_pos; [apply Hbr, Hi|apply Hbm; rewrite Hs; exact Hi].
Qed.

Lemma covariance_approx ws md r m B idx : convex snd ws -> 0 <= B -> shp m = shp r -> bounded B r -> bounded B m ->
  inb (shp r) idx = true ->
  let f := filter_nd ws md 0 in let f' := filter_nd_r rnd ws md 0 in let d := length (shp r) in
  Rabs ((getd (f' (amul_r rnd r m)) idx - rnd (getd (f' r) idx * getd (f' m) idx))
        - (getd (f (amul r m)) idx - getd (f r) idx * getd (f m) idx))
  <= B * B * ((1 + eps) ^ (d + 1) + (1 + eps) ^ (2 * d + 1) - 2).
Proof.
  intros Hcv HB Hs Hbr Hbm Hi f f' d.
  assert (Z0 : forall C, 0 <= C -> md = Constant -> Rabs 0 <= C) by (intros C HC _; rewrite Rabs_R0; exact HC).
  assert (BB : 0 <= B * B) by nra.
  assert (A1 : approx (B * B) (d + 1) (getd (f' (amul_r rnd r m)) idx) (getd (f (amul r m)) idx)).
  { apply (filter_approx ws md 0 (B * B) 1 (amul_r rnd r m) (amul r m)); try assumption; [apply Z0, BB|reflexivity|].
    intros j Hj. apply amul_approx; assumption. }
  assert (A2 : approx B d (getd (f' r) idx) (getd (f r) idx)).
  { unfold d. rewrite <- (Nat.add_0_r (length (shp r))). apply filter_approx; try assumption; [apply Z0, HB|reflexivity|].
    intros j Hj. apply approx_refl, Hbr, Hj. }
  assert (A3 : approx B d (getd (f' m) idx) (getd (f m) idx)).
  { unfold d. rewrite <- (Nat.add_0_r (length (shp r))), <- Hs. apply filter_approx; try assumption; [apply Z0, HB|reflexivity| |rewrite Hs; exact Hi].
    intros j Hj. apply approx_refl, Hbm, Hj. }
  assert (A4 : approx (B * B) (S (d + d)) (rnd (getd (f' r) idx * getd (f' m) idx)) (getd (f r) idx * getd (f m) idx)).
  { apply approx_rnd; [exact BB|]. apply approx_mult; try assumption.
    - apply filter_bound; try assumption. apply Z0, HB.
    - apply filter_bound; try assumption; [apply Z0, HB|rewrite Hs; exact Hi]. }
  destruct A1 as [_ A1]. destruct A4 as [_ A4].
  replace (2 * d + 1)%nat with (S (d + d)) by lia.
  match goal with |- Rabs ((?a - ?b) - (?c - ?e)) <= _ => replace ((a - b) - (c - e)) with ((a - c) + - (b - e)) by ring end.
  eapply Rle_trans; [apply Rabs_triang|]. rewrite Rabs_Ropp. lra.
Qed.

End Rnd.

(** ** Without rounding the model is SsimModel's *)

Lemma pixel_id big P ux uy uxx uyy uxy : ssim_pixel_r (fun x => x) big P ux uy uxx uyy uxy = ssim_pixel big P ux uy uxx uyy uxy.
Proof.
  assert (N : forall n d, nan1_r (fun x => x) big n d = nan1 big n d).
  { intros n d. unfold nan1_r, nan1. destruct (Req_EM_T d 0); reflexivity. }
  unfold ssim_pixel_r, ssim_pixel, lum_r, con_r, stru_r, variance_r, sqrt_r. cbv zeta beta.
  destruct (osqrt _), (osqrt _); cbn [option_map]; rewrite ?N; reflexivity.
Qed.

Lemma amap_id (a : arr R) : amap (fun x => x) a = a.
Proof. unfold amap. rewrite map_id. destruct a; reflexivity. Qed.

Lemma ssim_id big r m kw : structural_similarity_r (fun x => x) big r m kw = structural_similarity big r m kw.
Proof.
  unfold structural_similarity_r, structural_similarity. rewrite !amap_id. destruct (ssim_setup _ _) as [P|e]; [|reflexivity].
  cbn [bind]. assert (E : ssim_map_r (fun x => x) big P r m = ssim_map big P r m); [|rewrite E; reflexivity].
  unfold ssim_map_r, ssim_map, tabulate. f_equal. apply map_ext. intros idx. apply pixel_id.
Qed.

(** ** The averaged values *)

Lemma values_r rnd big r m kw e :
  structural_similarity_r rnd big r m kw = Ok e ->
  (forall w, dget kw "win_size" = Some (KInt w) -> (0 < w)%Z) ->
  exists P l, ssim_setup (shp r) kw = Ok P /\ e = mean_of l /\ l <> [] /\
    forall x, In x l -> exists idx, inb (shp r) idx = true /\
      x = getd (ssim_map_r rnd big P (amap rnd r) (amap rnd m)) idx /\
      forall ax, (ax < length (shp r))%nat -> (Z.to_nat (p_pad P) <= nth ax idx 0 /\
                                        nth ax idx 0 + Z.to_nat (p_pad P) < nth ax (shp r) 0)%nat.
Proof.
  unfold structural_similarity_r. intros H Hw. apply bind_ok in H as (P & HP & H).
  apply bind_ok in H as (c & Hc & H). injection H as <-.
  exists P, (dat c). split; [exact HP|]. split; [reflexivity|].
  destruct (setup_ok _ _ _ HP) as (rad & win & _ & _ & _ & _ & _ & Hpad & Hodd & Hext & Hpos & _).
  specialize (Hpos Hw).
  assert (Hp0 : (0 <= p_pad P)%Z) by (rewrite Hpad; apply Z.div_pos; lia).
  assert (Hp2 : (2 * p_pad P < win)%Z).
  { rewrite Hpad. pose proof (Z.mul_div_le (win - 1) 2 ltac:(lia)). lia. }
  destruct (slice_ok (ssim_map_r rnd big P (amap rnd r) (amap rnd m)) (map (fun n => (p_pad P, Z.of_nat n - p_pad P)%Z) (shp r)))
    as (c' & Hc' & Hs & Hwf & Hg).
  { apply wf_tabulate. } { rewrite map_length. simpl. lia. }
  rewrite Hc' in Hc. injection Hc as ->. cbn [ssim_map_r tabulate shp amap] in Hs. split.
  - intros E. unfold wf in Hwf. rewrite E, Hs in Hwf. simpl in Hwf.
    pose proof (slice_size (shp r) (p_pad P)) as K.
    assert (0 < size (slice_shape (shp r) (map (fun n => (p_pad P, Z.of_nat n - p_pad P)%Z) (shp r))))%nat; [|lia].
    apply K; [|exact Hp0]. intros n Hn. specialize (Hext n Hn). lia.
  - intros x Hx. destruct (in_dat c x Hwf Hx) as (idx & Hi & Hgx).
    rewrite (Hg idx Hi) in Hgx. cbn [ssim_map_r tabulate shp amap] in Hgx. rewrite Hs in Hi.
    destruct (slice_border (shp r) (p_pad P) idx Hp0 Hi) as [Ha Hb].
    exists (slice_index (shp r) (map (fun n => (p_pad P, Z.of_nat n - p_pad P)%Z) (shp r)) idx).
    split; [exact Ha|]. split; [|exact Hb]. unfold getd. rewrite Hgx. reflexivity.
Qed.

Lemma mean_within (l : list R) c d : l <> [] -> (forall x, In x l -> (c <= x <= d)) -> exists v, mean_of l = Fin v /\ c <= v <= d.
Proof.
  intros Hl H. exists (rsum l / INR (length l)). split; [unfold mean_of; destruct l; [congruence|reflexivity]|].
  assert (Hn : 0 < INR (length l)) by (apply lt_0_INR; destruct l; [congruence|simpl; lia]).
  rewrite rsum_Sum. split.
  - apply Rmult_le_reg_r with (INR (length l)); [exact Hn|]. unfold Rdiv. rewrite Rmult_assoc, Rinv_l, Rmult_1_r by lra.
    rewrite Rmult_comm, <- Sum_const. apply Sum_le. intros a Ha. apply H, Ha.
  - apply Rmult_le_reg_r with (INR (length l)); [exact Hn|]. unfold Rdiv. rewrite Rmult_assoc, Rinv_l, Rmult_1_r by lra.
    rewrite (Rmult_comm d), <- Sum_const. apply Sum_le. intros a Ha. apply H, Ha.
Qed.

(** ** Negative variances *)

Lemma pixel_hidden rnd big P ux uy uxx uyy uxy : rnd 1 = 1 -> (forall x, rnd (rnd x) = rnd x) ->
  variance_r rnd P uxx ux ux < 0 \/ variance_r rnd P uyy uy uy < 0 ->
  ssim_pixel_r rnd big P ux uy uxx uyy uxy = rnd (zpow (lum_r rnd big P ux uy) (p_al P)).
Proof.
  intros H1 Hi Hv. unfold ssim_pixel_r. cbv zeta.
  assert (E : forall vx vy vxy, vx < 0 \/ vy < 0 -> stru_r rnd big P vx vy vxy = 1 /\ con_r rnd big P vx vy = 1).
  { intros vx vy vxy Hn. unfold stru_r, con_r, sqrt_r, osqrt. cbv zeta.
    destruct (Rlt_dec vx 0) as [|Cx]; [split; reflexivity|]. destruct (Rlt_dec vy 0) as [|Cy]; [split; reflexivity|].
    exfalso. lra. }
  destruct (E _ _ (variance_r rnd P uxy ux uy) Hv) as [-> ->]. rewrite !zpow_1, H1, !Rmult_1_r, !Hi. reflexivity.
Qed.

Lemma float32_1 : float32 1 = 1.
Proof. apply (float32_small 1). lia. Qed.

(** ** Flat images *)

Lemma filter_flat_r rnd ws m cval s c : Sum snd ws = 1 -> m <> Constant -> rnd c = c ->
  forall idx, inb s idx = true -> getd (filter_nd_r rnd ws m cval (const_img s c)) idx = c.
Proof.
  intros Hw Hm Hc.
  assert (G : forall axes a, shp a = s -> (forall ax, In ax axes -> (ax < length s)%nat) ->
     (forall idx, inb s idx = true -> getd a idx = c) ->
     forall idx, inb s idx = true -> getd (fold_left (filter_axis_r rnd ws m cval) axes a) idx = c).
  { induction axes as [|ax axes IH]; intros a Hs Hax Ha idx Hi; [apply Ha, Hi|].
    cbn [fold_left]. apply IH; try assumption.
    - intros ax' Hin. apply Hax. right. exact Hin.
    - intros j Hj. unfold filter_axis_r. rewrite Hs, getd_tab by exact Hj.
      rewrite (Sum_ext _ (fun ow => c * snd ow)).
      + rewrite Sum_scale, Hw, Rmult_1_r. exact Hc.
      + intros ow _. unfold sample. rewrite Hs.
        destruct (pad_pos_some m (nth ax s 0%nat) (Z.of_nat (nth ax j 0%nat) + fst ow) Hm) as [q Hq]. rewrite Hq.
        rewrite Ha; [ring|]. apply SsimProofs.inb_upd; [exact Hj|]. eapply pad_pos_lt; [|exact Hq].
        pose proof (SsimProofs.inb_nth _ _ _ Hj (Hax ax (or_introl eq_refl))). lia. }
  intros idx Hi. unfold filter_nd_r. apply G; try assumption; [reflexivity| |].
  - intros ax Hax. apply in_seq in Hax. cbn in Hax. lia.
  - intros j Hj. apply getd_tab, Hj.
Qed.

Lemma amul_flat_r rnd s c : amul_r rnd (const_img s c) (const_img s c) = const_img s (rnd (c * c)).
Proof.
  unfold amul_r. change (shp (const_img s c)) with s. unfold const_img at 3, tabulate. f_equal. apply map_ext_in.
  intros idx Hi. apply in_indices in Hi. unfold const_img. rewrite !getd_tab by exact Hi. reflexivity.
Qed.

Lemma amap_flat f s c : amap f (const_img s c) = const_img s (f c).
Proof. unfold amap, const_img, tabulate. cbn [shp dat]. f_equal. rewrite map_map. reflexivity. Qed.

(** ** Local variances *)

(** The filtered values of the exact model as weighted means: covariances are bounded by the variances. *)
Lemma cov_le_var ws md s rad r m idx : convex snd ws -> near rad ws -> shp r = s -> shp m = s -> inb s idx = true ->
  let f := filter_nd ws md 0 in
  let D a b := getd (f (amul a b)) idx - getd (f a) idx * getd (f b) idx in
  0 <= D r r /\ 0 <= D m m /\ 2 * Rabs (D r m) <= D r r + D m m.
Proof.
  intros Hcv Hn Hr Hm Hi f D. destruct (axes_seq (length s)) as [Hnd Hlt].
  destruct (filter_kernel ws md s rad Hcv Hn _ Hnd Hlt idx Hi) as (K & HK & Kin & _ & _ & K3).
  assert (E : forall a b, shp a = s -> shp b = s ->
     D a b = Sum (fun k => fst k * (val 0 a (snd k) - Sum (fun k => fst k * val 0 a (snd k)) K)
                                 * (val 0 b (snd k) - Sum (fun k => fst k * val 0 b (snd k)) K)) K).
  { intros a b Ha Hb. rewrite <- (variance fst (fun k => val 0 a (snd k)) (fun k => val 0 b (snd k)) K HK).
    unfold D, f, filter_nd. change (shp (amul a b)) with (shp a). rewrite Ha, Hb. rewrite !K3 by assumption.
    f_equal. apply Sum_ext. intros [w [i|]] Hk; cbn [fst snd val].
    - rewrite getd_amul by (rewrite Ha; exact (Kin _ _ Hk)). reflexivity.
    - ring. }
  rewrite !E by assumption.
  set (U := Sum (fun k => fst k * val 0 r (snd k)) K). set (V := Sum (fun k => fst k * val 0 m (snd k)) K).
  assert (S1 : 0 <= Sum (fun k => fst k * (val 0 r (snd k) - U) * (val 0 r (snd k) - U)) K) by (apply sq_sum_nonneg, (proj1 HK)).
  assert (S2 : 0 <= Sum (fun k => fst k * (val 0 m (snd k) - V) * (val 0 m (snd k) - V)) K) by (apply sq_sum_nonneg, (proj1 HK)).
  split; [exact S1|]. split; [exact S2|].
  assert (S3 : forall t, 0 <= Sum (fun k => fst k * ((val 0 r (snd k) - U) + t * (val 0 m (snd k) - V)) *
                                                ((val 0 r (snd k) - U) + t * (val 0 m (snd k) - V))) K)
    by (intros t; apply sq_sum_nonneg, (proj1 HK)).
  assert (S4 : forall t, Sum (fun k => fst k * ((val 0 r (snd k) - U) + t * (val 0 m (snd k) - V)) *
                                                ((val 0 r (snd k) - U) + t * (val 0 m (snd k) - V))) K
     = Sum (fun k => fst k * (val 0 r (snd k) - U) * (val 0 r (snd k) - U)) K
       + (2 * t) * Sum (fun k => fst k * (val 0 r (snd k) - U) * (val 0 m (snd k) - V)) K
       + (t * t) * Sum (fun k => fst k * (val 0 m (snd k) - V) * (val 0 m (snd k) - V)) K).
  { intros t. rewrite <- !Sum_scale, <- !Sum_plus. apply Sum_ext. intros; ring. }
  pose proof (S3 1) as A1. pose proof (S3 (-1)) as A2. rewrite S4 in A1, A2.
  set (X := Sum (fun k => fst k * (val 0 r (snd k) - U) * (val 0 m (snd k) - V)) K) in *.
  unfold Rabs. destruct (Rcase_abs X); lra.
Qed.

Lemma growth d : (d <= 3)%nat -> (1 + eps32) ^ (d + 1) + (1 + eps32) ^ (2 * d + 1) - 2 <= 12 * eps32.
Proof. intros H. unfold eps32. destruct d as [|[|[|[|]]]]; [| | | |lia]; cbn [Nat.add Nat.mul pow]; lra. Qed.

(** Error of a variance or covariance before the factor cov_norm. *)
Lemma covariance_err ws md r m B idx : convex snd ws -> 0 <= B -> shp m = shp r -> bounded B r -> bounded B m ->
  inb (shp r) idx = true -> (length (shp r) <= 3)%nat ->
  let f := filter_nd ws md 0 in let f' := filter_nd_r float32 ws md 0 in
  Rabs ((getd (f' (amul_r float32 r m)) idx - float32 (getd (f' r) idx * getd (f' m) idx))
        - (getd (f (amul r m)) idx - getd (f r) idx * getd (f m) idx)) <= 12 * eps32 * (B * B).
Proof.
  intros Hcv HB Hs H1 H2 Hi Hd f f'. eapply Rle_trans.
  - apply (covariance_approx eps32 float32 float32_rounding ws md r m B idx); assumption.
  - pose proof (growth _ Hd). assert (0 <= B * B) by nra. nra.
Qed.

Lemma variance_pos ws md P r B idx : convex snd ws -> 0 <= B -> bounded B r -> inb (shp r) idx = true ->
  (length (shp r) <= 3)%nat -> 0 < p_cov P ->
  let f := filter_nd ws md 0 in let f' := filter_nd_r float32 ws md 0 in
  12 * eps32 * (B * B) < getd (f (amul r r)) idx - getd (f r) idx * getd (f r) idx ->
  0 < variance_r float32 P (getd (f' (amul_r float32 r r)) idx) (getd (f' r) idx) (getd (f' r) idx).
Proof.
  intros Hcv HB Hb Hi Hd Hcov f f' HD. unfold variance_r.
  pose proof (covariance_err ws md r r B idx Hcv HB eq_refl Hb Hb Hi Hd) as E. cbv zeta in E. fold f f' in E.
  apply abs_between in E. pose proof float32_rounding as FR.
  apply (rnd_gt0 eps32 _ FR). apply Rmult_lt_0_compat; apply (rnd_gt0 eps32 _ FR); lra.
Qed.

(** ** Range *)

Lemma setup_cov s kw P : ssim_setup s kw = Ok P ->
  (forall w, dget kw "win_size" = Some (KInt w) -> (0 < w)%Z) -> 1 <= p_cov P <= 3 / 2.
Proof.
  unfold ssim_setup. intros H Hw.
  apply bind_ok in H as (k1 & _ & H). destruct (Rlt_dec k1 0) as [?|Hk1]; [discriminate|].
  apply bind_ok in H as (k2 & _ & H). destruct (Rlt_dec k2 0) as [?|Hk2]; [discriminate|].
  apply bind_ok in H as (sigma & _ & H). destruct (Rlt_dec sigma 0) as [?|Hsg]; [discriminate|].
  apply bind_ok in H as (given & Hgiven & H).
  set (g := flag (dget kw "gaussian_weights") true) in *.
  set (r := gauss_radius sigma) in *. cbv zeta in H.
  set (win := match given with Some w => w | None => if g then (2 * Z.of_nat r + 1)%Z else 7%Z end) in *.
  destruct (existsb _ s) eqn:Eext; [discriminate|].
  destruct (win mod 2 =? 1)%Z eqn:Eodd; cbn [negb] in H; [|discriminate]. apply Z.eqb_eq in Eodd.
  apply bind_ok in H as (al & Hal & H). apply bind_ok in H as (be & Hbe & H).
  apply bind_ok in H as (ga & Hga & H). apply bind_ok in H as (cov & Hcov & H).
  apply bind_ok in H as (md & Hmd & H). apply bind_ok in H as (cval & Hcval & H). apply bind_ok in H as (dr & _ & H).
  apply (f_equal (fun x => match x with Ok y => y | Err _ => P end)) in H. cbv beta iota in H. subst P.
  cbn [p_cov].
  destruct (g && _); [injection Hcov as <-; lra|].
  assert (Hwin : (0 < win)%Z).
  { unfold win. destruct (dget kw "win_size") as [[|b|z|x|t]|]; simpl in Hgiven;
      try discriminate; injection Hgiven as <-; try (destruct g; lia).
    - destruct b; [lia|]. exfalso. unfold win in Eodd. discriminate Eodd.
    - apply Hw. reflexivity. }
  set (nw := (win ^ Z.of_nat (length s))%Z) in *.
  destruct (Z.eqb_spec (nw - 1) 0) as [E|E]; [discriminate|]. injection Hcov as <-.
  assert (Hnw : (3 <= nw)%Z).
  { assert (0 < nw)%Z by (apply Z.pow_pos_nonneg; lia).
    assert (nw mod 2 = 1)%Z.
    { unfold nw. clear -Eodd. induction (length s) as [|k IH]; [reflexivity|].
      rewrite Nat2Z.inj_succ, Z.pow_succ_r by lia. rewrite Z.mul_mod, Eodd, IH by lia. reflexivity. }
    destruct (Z.eq_dec nw 2) as [E2|]; [rewrite E2 in *; discriminate|]. lia. }
  apply IZR_le in Hnw. rewrite minus_IZR. split.
  - apply Rmult_le_reg_r with (IZR nw - 1); [lra|]. unfold Rdiv. rewrite Rmult_assoc, Rinv_l by lra. lra.
  - apply Rmult_le_reg_r with (IZR nw - 1); [lra|]. unfold Rdiv at 1. rewrite Rmult_assoc, Rinv_l by lra. lra.
Qed.

Lemma Rdiv_le_of a b c : 0 < b -> a <= c * b -> a / b <= c.
Proof. intros Hb H. apply Rmult_le_reg_r with b; [exact Hb|]. unfold Rdiv. rewrite Rmult_assoc, Rinv_l, Rmult_1_r by lra. exact H. Qed.

Lemma abs_div a b : 0 < b -> Rabs (a / b) = Rabs a / b.
Proof. intros H. unfold Rdiv. rewrite Rabs_mult, (Rabs_right (/ b)) by (left; apply Rinv_0_lt_compat, H). reflexivity. Qed.

Lemma f32_abs x : Rabs (float32 x) <= Rabs x * (1 + eps32).
Proof. apply (rnd_between eps32 _ float32_rounding). Qed.
Lemma f32_nonneg x : 0 <= x -> x * (1 - eps32) <= float32 x <= x * (1 + eps32).
Proof. apply (rnd_nonneg eps32 _ float32_rounding). Qed.
Lemma f32_0 : float32 0 = 0. Proof. apply (rnd_0 eps32 _ float32_rounding). Qed.
Lemma f32_zero x : float32 x = 0 -> x = 0.
Proof.
  intros H. pose proof (rnd_between eps32 _ float32_rounding x) as [B _]. rewrite H, Rabs_R0 in B.
  destruct (Req_dec x 0) as [|C]; [assumption|]. apply Rabs_pos_lt in C. unfold eps32 in B. lra.
Qed.

Lemma lum_bound big P ux uy : 0 <= p_c1 P -> Rabs (lum_r float32 big P ux uy) <= 1 + 8 * eps32.
Proof.
  intros Hc. unfold lum_r, nan1_r. cbv zeta. set (c := float32 (p_c1 P)).
  assert (C0 : 0 <= c) by (pose proof (f32_nonneg _ Hc); unfold c; unfold eps32 in *; nra).
  set (p := float32 (ux * ux)). set (q := float32 (uy * uy)).
  assert (P0 : ux * ux * (1 - eps32) <= p) by (apply f32_nonneg; nra).
  assert (Q0 : uy * uy * (1 - eps32) <= q) by (apply f32_nonneg; nra).
  assert (E0 : 0 < 1 - eps32) by (unfold eps32; lra).
  assert (P1 : 0 <= p) by (assert (0 <= ux * ux) by nra; assert (0 <= ux * ux * (1 - eps32)) by (apply Rmult_le_pos; lra); lra).
  assert (Q1 : 0 <= q) by (assert (0 <= uy * uy) by nra; assert (0 <= uy * uy * (1 - eps32)) by (apply Rmult_le_pos; lra); lra).
  set (pq := float32 (p + q)). assert (PQ : (p + q) * (1 - eps32) <= pq) by (apply f32_nonneg; lra).
  assert (PQ0 : 0 <= pq) by (assert (0 <= (p + q) * (1 - eps32)) by (apply Rmult_le_pos; lra); lra).
  set (den := float32 (pq + c)). assert (D : (pq + c) * (1 - eps32) <= den) by (apply f32_nonneg; lra).
  set (n2 := float32 (float32 (2 * ux) * uy)). set (num := float32 (n2 + c)).
  assert (N2 : Rabs n2 <= Rabs (2 * ux * uy) * ((1 + eps32) * (1 + eps32))).
  { unfold n2. eapply Rle_trans; [apply f32_abs|]. rewrite !Rabs_mult.
    pose proof (f32_abs (2 * ux)) as T. rewrite Rabs_mult in T. pose proof (Rabs_pos uy). unfold eps32 in *. nra. }
  assert (AM : Rabs (2 * ux * uy) <= ux * ux + uy * uy).
  { pose proof (Rle_0_sqr (ux + uy)). pose proof (Rle_0_sqr (ux - uy)). unfold Rsqr in *. apply Rabs_le. split; lra. }
  assert (N : Rabs num <= (ux * ux + uy * uy + c) * ((1 + eps32) * (1 + eps32) * (1 + eps32))).
  { unfold num. eapply Rle_trans; [apply f32_abs|]. rewrite <- Rmult_assoc. apply Rmult_le_compat_r; [unfold eps32; lra|].
    eapply Rle_trans; [apply Rabs_triang|]. rewrite (Rabs_right c) by lra.
    assert (c <= c * ((1 + eps32) * (1 + eps32))) by (unfold eps32; nra).
    assert (Rabs (2 * ux * uy) * ((1 + eps32) * (1 + eps32)) <= (ux * ux + uy * uy) * ((1 + eps32) * (1 + eps32))).
    { apply Rmult_le_compat_r; [unfold eps32; lra|exact AM]. }
    lra. }
  set (S := ux * ux + uy * uy + c) in *.
  assert (S0 : 0 <= S) by (unfold S; nra).
  assert (D2 : S * ((1 - eps32) * (1 - eps32) * (1 - eps32)) <= den).
  { assert ((ux * ux + uy * uy) * (1 - eps32) <= p + q) by lra.
    assert ((ux * ux + uy * uy) * (1 - eps32) * (1 - eps32) <= pq).
    { eapply Rle_trans; [|exact PQ]. apply Rmult_le_compat_r; lra. }
    assert (c * (1 - eps32) * (1 - eps32) <= c) by (unfold eps32; nra).
    assert (S * ((1 - eps32) * (1 - eps32)) <= pq + c) by (unfold S; lra).
    eapply Rle_trans; [|exact D]. rewrite <- (Rmult_assoc S). apply Rmult_le_compat_r; lra. }
  destruct (Req_EM_T den 0) as [E|E].
  - assert (S = 0).
    { rewrite E in D2. assert (0 < (1 - eps32) * (1 - eps32) * (1 - eps32)) by (unfold eps32; lra). nra. }
    assert (num = 0).
    { rewrite H, Rmult_0_l in N. destruct (Req_dec num 0) as [|C]; [assumption|]. apply Rabs_pos_lt in C. lra. }
    rewrite H0, E, nan1_same, Rabs_R1. unfold eps32. lra.
  - assert (Dp : 0 < den).
    { assert (0 <= S * ((1 - eps32) * (1 - eps32) * (1 - eps32))) by (apply Rmult_le_pos; [exact S0|unfold eps32; lra]). lra. }
    eapply Rle_trans; [apply f32_abs|]. rewrite abs_div by exact Dp.
    assert (Rabs num / den <= (1 + 13 / 2 * eps32)).
    { apply Rdiv_le_of; [exact Dp|]. eapply Rle_trans; [exact N|].
      eapply Rle_trans; [|apply Rmult_le_compat_l; [unfold eps32; lra|exact D2]].
      replace ((1 + 13 / 2 * eps32) * (S * ((1 - eps32) * (1 - eps32) * (1 - eps32))))
        with (S * ((1 + 13 / 2 * eps32) * ((1 - eps32) * (1 - eps32) * (1 - eps32)))) by ring.
      apply Rmult_le_compat_l; [exact S0|]. unfold eps32. lra. }
    apply Rle_trans with ((1 + 13 / 2 * eps32) * (1 + eps32)).
    { apply Rmult_le_compat_r; [unfold eps32; lra|exact H]. }
    unfold eps32. lra.
Qed.

(** The numerator of the contrast is twice the denominator of the structure. *)
Lemma con_numerator sx sy c2 : float32 sx = sx ->
  float32 (float32 (float32 (2 * sx) * sy) + float32 c2) = 2 * float32 (float32 (sx * sy) + float32 (c2 / 2)).
Proof.
  intros H. rewrite (float32_double sx), H. rewrite Rmult_assoc, float32_double.
  replace (float32 c2) with (2 * float32 (c2 / 2)) by (rewrite <- float32_double; f_equal; lra).
  rewrite <- Rmult_plus_distr_l, float32_double. reflexivity.
Qed.

Lemma sqrt_r_cases x : x < 0 /\ sqrt_r float32 x = None \/
  0 <= x /\ exists s, sqrt_r float32 x = Some s /\ s = float32 (sqrt x) /\ 0 <= s.
Proof.
  unfold sqrt_r, osqrt. destruct (Rlt_dec x 0) as [H|H]; [left; auto|right]. split; [lra|].
  exists (float32 (sqrt x)). split; [reflexivity|]. split; [reflexivity|].
  pose proof (f32_nonneg _ (sqrt_pos x)) as [A _]. eapply Rle_trans; [|exact A].
  apply Rmult_le_pos; [apply sqrt_pos|unfold eps32; lra].
Qed.

Lemma f32_le a b : Rabs a <= b -> Rabs (float32 a) <= b * (1 + eps32).
Proof. intros H. eapply Rle_trans; [apply f32_abs|]. apply Rmult_le_compat_r; [unfold eps32; lra|exact H]. Qed.

Lemma con_stru_bound big P vx vy vxy d : 0 < p_c2 P -> 0 <= d -> 2 * Rabs vxy <= vx + vy + d ->
  Rabs (con_r float32 big P vx vy) * Rabs (stru_r float32 big P vx vy vxy) <= (1 + 6 * eps32) * (1 + d / (p_c2 P * (1 - eps32))).
Proof.
  intros Hc Hd Hv.
  assert (T : 0 <= d / (p_c2 P * (1 - eps32))).
  { apply Rmult_le_pos; [exact Hd|]. left. apply Rinv_0_lt_compat, Rmult_lt_0_compat; [exact Hc|unfold eps32; lra]. }
  assert (One : 1 * 1 <= (1 + 6 * eps32) * (1 + d / (p_c2 P * (1 - eps32)))).
  { apply Rmult_le_compat; unfold eps32 in *; lra. }
  unfold con_r, stru_r. cbv zeta.
  destruct (sqrt_r_cases vx) as [[_ ->]|(Hx & sx & -> & Esx & Hsx)]; [rewrite Rabs_R1; exact One|].
  destruct (sqrt_r_cases vy) as [[_ ->]|(Hy & sy & -> & Esy & Hsy)]; [rewrite Rabs_R1; exact One|].
  rewrite con_numerator by (rewrite Esx; apply float32_idem).
  set (c3 := float32 (p_c2 P / 2)).
  assert (C3 : p_c2 P * (1 - eps32) <= 2 * c3) by (pose proof (f32_nonneg (p_c2 P / 2) ltac:(lra)); unfold c3; lra).
  assert (C3p : 0 < c3) by (unfold eps32 in C3; lra).
  replace (float32 (p_c2 P)) with (2 * c3) by (unfold c3; rewrite <- float32_double; f_equal; lra).
  assert (Hss : 0 <= sx * sy) by (apply Rmult_le_pos; assumption).
  set (g := float32 (sx * sy)). assert (G : 0 <= g).
  { pose proof (f32_nonneg _ Hss). unfold g. assert (0 <= sx * sy * (1 - eps32)) by (apply Rmult_le_pos; [exact Hss|unfold eps32; lra]). lra. }
  set (b := float32 (g + c3)). assert (Bp : 0 < b) by (apply (rnd_gt0 eps32 _ float32_rounding); lra).
  set (w := float32 (vx + vy)). assert (W : (vx + vy) * (1 - eps32) <= w) by (apply f32_nonneg; lra).
  assert (W0 : 0 <= w) by (assert (0 <= (vx + vy) * (1 - eps32)) by (apply Rmult_le_pos; [lra|unfold eps32; lra]); lra).
  set (dc := float32 (w + 2 * c3)). assert (DC : (w + 2 * c3) * (1 - eps32) <= dc) by (apply f32_nonneg; lra).
  assert (DCp : 0 < dc) by (apply (rnd_gt0 eps32 _ float32_rounding); lra).
  set (ns := float32 (vxy + c3)).
  assert (NS : Rabs ns <= (Rabs vxy + c3) * (1 + eps32)).
  { apply f32_le. eapply Rle_trans; [apply Rabs_triang|]. rewrite (Rabs_right c3) by lra. lra. }
  unfold nan1_r. destruct (Req_EM_T dc 0) as [?|_]; [lra|]. destruct (Req_EM_T b 0) as [?|_]; [lra|].
  assert (K1 : Rabs (float32 (2 * b / dc)) <= 2 * b / dc * (1 + eps32)).
  { apply f32_le. rewrite abs_div, Rabs_right by lra. lra. }
  assert (K2 : Rabs (float32 (ns / b)) <= Rabs ns / b * (1 + eps32)) by (apply f32_le; rewrite abs_div by lra; lra).
  apply Rle_trans with ((2 * b / dc * (1 + eps32)) * (Rabs ns / b * (1 + eps32))).
  { apply Rmult_le_compat; try apply Rabs_pos; assumption. }
  replace ((2 * b / dc * (1 + eps32)) * (Rabs ns / b * (1 + eps32))) with (2 * Rabs ns * ((1 + eps32) * (1 + eps32)) / dc) by (field; lra).
  apply Rdiv_le_of; [exact DCp|].
  set (V := vx + vy + 2 * c3). assert (VD : V * ((1 - eps32) * (1 - eps32)) <= dc).
  { eapply Rle_trans; [|exact DC]. rewrite <- Rmult_assoc. apply Rmult_le_compat_r; [unfold eps32; lra|].
    unfold V. assert (2 * c3 * (1 - eps32) <= 2 * c3) by (unfold eps32; lra). lra. }
  assert (V0 : 0 < V) by (unfold V; lra).
  assert (Q : d <= V * (d / (p_c2 P * (1 - eps32)))).
  { set (y := p_c2 P * (1 - eps32)) in *. assert (Y : 0 < y) by (unfold y; apply Rmult_lt_0_compat; [exact Hc|unfold eps32; lra]).
    replace d with (y * (d / y)) at 1 by (field; lra). apply Rmult_le_compat_r; [exact T|]. unfold V. lra. }
  set (X := 1 + d / (p_c2 P * (1 - eps32))) in *.
  assert (M : 2 * Rabs ns <= V * X * (1 + eps32)).
  { apply Rle_trans with ((2 * Rabs vxy + 2 * c3) * (1 + eps32)); [lra|]. apply Rmult_le_compat_r; [unfold eps32; lra|].
    unfold X. rewrite Rmult_plus_distr_l, Rmult_1_r. unfold V at 1. lra. }
  apply Rle_trans with (V * X * (1 + eps32) * ((1 + eps32) * (1 + eps32))).
  { apply Rmult_le_compat_r; [unfold eps32; lra|exact M]. }
  assert (X1 : 1 <= X) by (unfold X; lra).
  apply Rle_trans with ((1 + 6 * eps32) * X * (V * ((1 - eps32) * (1 - eps32)))).
  - replace ((1 + 6 * eps32) * X * (V * ((1 - eps32) * (1 - eps32)))) with (V * X * ((1 + 6 * eps32) * ((1 - eps32) * (1 - eps32)))) by ring.
    rewrite (Rmult_assoc (V * X)). apply Rmult_le_compat_l; [apply Rmult_le_pos; lra|]. unfold eps32. lra.
  - apply Rmult_le_compat_l; [|exact VD]. apply Rmult_le_pos; [unfold eps32; lra|lra].
Qed.

Lemma pixel_range big P ux uy uxx uyy uxy d : 0 <= p_c1 P -> 0 < p_c2 P -> 0 <= d ->
  p_al P = 1%Z -> p_be P = 1%Z -> p_ga P = 1%Z ->
  2 * Rabs (variance_r float32 P uxy ux uy) <= variance_r float32 P uxx ux ux + variance_r float32 P uyy uy uy + d ->
  Rabs (ssim_pixel_r float32 big P ux uy uxx uyy uxy) <= (1 + 20 * eps32) * (1 + d / (p_c2 P * (1 - eps32))).
Proof.
  intros H1 H2 Hd Ea Eb Eg Hv. unfold ssim_pixel_r. cbv zeta. rewrite Ea, Eb, Eg.
  assert (Z1 : forall x, zpow x 1 = x) by (intros x; unfold zpow; simpl; ring). rewrite !Z1.
  pose proof (lum_bound big P ux uy H1) as L. pose proof (con_stru_bound big P _ _ _ d H2 Hd Hv) as C.
  set (l := lum_r float32 big P ux uy) in *.
  set (c := con_r float32 big P _ _) in *. set (s := stru_r float32 big P _ _ _) in *.
  set (X := 1 + d / (p_c2 P * (1 - eps32))) in *.
  assert (X0 : 0 <= X).
  { unfold X. assert (0 <= d / (p_c2 P * (1 - eps32))); [|lra].
    apply Rmult_le_pos; [exact Hd|]. left. apply Rinv_0_lt_compat, Rmult_lt_0_compat; [exact H2|unfold eps32; lra]. }
  assert (E1 : 0 <= 1 + eps32) by (unfold eps32; lra).
  eapply Rle_trans; [apply f32_abs|]. rewrite Rabs_mult.
  apply Rle_trans with (((Rabs l * (1 + eps32)) * (Rabs c * (1 + eps32)) * (1 + eps32)) * (Rabs s * (1 + eps32)) * (1 + eps32)).
  { apply Rmult_le_compat_r; [exact E1|]. apply Rmult_le_compat; try apply Rabs_pos; [|apply f32_abs].
    eapply Rle_trans; [apply f32_abs|]. apply Rmult_le_compat_r; [exact E1|]. rewrite Rabs_mult.
    apply Rmult_le_compat; try apply Rabs_pos; apply f32_abs. }
  replace ((Rabs l * (1 + eps32)) * (Rabs c * (1 + eps32)) * (1 + eps32) * (Rabs s * (1 + eps32)) * (1 + eps32))
    with (Rabs l * (Rabs c * Rabs s) * (1 + eps32) ^ 5) by ring.
  apply Rle_trans with ((1 + 8 * eps32) * ((1 + 6 * eps32) * X) * (1 + eps32) ^ 5).
  { apply Rmult_le_compat_r; [apply pow_le, E1|]. apply Rmult_le_compat; try assumption; [apply Rabs_pos|].
    apply Rmult_le_pos; apply Rabs_pos. }
  replace ((1 + 8 * eps32) * ((1 + 6 * eps32) * X) * (1 + eps32) ^ 5) with ((1 + 8 * eps32) * (1 + 6 * eps32) * (1 + eps32) ^ 5 * X) by ring.
  apply Rmult_le_compat_r; [exact X0|]. unfold eps32. cbn [pow]. lra.
Qed.

Lemma variance_err P E D B : 0 <= B -> 1 <= p_cov P <= 3 / 2 -> Rabs (E - D) <= 12 * eps32 * B -> Rabs D <= B ->
  Rabs (float32 (float32 (p_cov P) * float32 E) - p_cov P * D) <= 24 * eps32 * B.
Proof.
  intros HB Hcov HE HD. set (c := p_cov P) in *.
  assert (E1 : 0 <= 1 + eps32) by (unfold eps32; lra).
  assert (AE : Rabs E <= B * (1 + 12 * eps32)).
  { replace E with (D + (E - D)) by ring. eapply Rle_trans; [apply Rabs_triang|]. lra. }
  pose proof (proj1 float32_rounding) as R0.
  assert (R : forall x, Rabs (float32 x - x) <= eps32 * Rabs x) by (intros x; apply (proj2 float32_rounding)).
  pose proof (R c) as Rc. pose proof (R E) as RE. pose proof (R (float32 c * float32 E)) as Rp.
  pose proof (f32_abs c) as Fc. pose proof (f32_abs E) as FE. rewrite (Rabs_right c) in * by lra.
  assert (Fm : Rabs (float32 c * float32 E) <= 3 / 2 * (1 + eps32) * (Rabs E * (1 + eps32))).
  { rewrite Rabs_mult. apply Rmult_le_compat; try apply Rabs_pos; [|exact FE]. unfold eps32 in *; lra. }
  assert (P1 : Rabs (float32 c * float32 E - c * E) <= 3 / 2 * (eps32 * Rabs E) + eps32 * (3 / 2) * (Rabs E * (1 + eps32))).
  { replace (float32 c * float32 E - c * E) with (c * (float32 E - E) + (float32 c - c) * float32 E) by ring.
    eapply Rle_trans; [apply Rabs_triang|]. rewrite !Rabs_mult, (Rabs_right c) by lra. apply Rplus_le_compat.
    - apply Rmult_le_compat; [lra|apply Rabs_pos|lra|exact RE].
    - apply Rmult_le_compat; try apply Rabs_pos; [|exact FE]. unfold eps32 in *; lra. }
  assert (P2 : Rabs (c * E - c * D) <= 3 / 2 * (12 * eps32 * B)).
  { rewrite <- Rmult_minus_distr_l, Rabs_mult, (Rabs_right c) by lra. apply Rmult_le_compat; [lra|apply Rabs_pos|lra|exact HE]. }
  replace (float32 (float32 c * float32 E) - c * D) with
    ((float32 (float32 c * float32 E) - float32 c * float32 E) + ((float32 c * float32 E - c * E) + (c * E - c * D))) by ring.
  eapply Rle_trans; [apply Rabs_triang|].
  eapply Rle_trans; [apply Rplus_le_compat_l, Rabs_triang|].
  assert (Rp' : Rabs (float32 (float32 c * float32 E) - float32 c * float32 E) <= eps32 * (3 / 2 * (1 + eps32) * (Rabs E * (1 + eps32)))).
  { eapply Rle_trans; [exact Rp|]. apply Rmult_le_compat_l; [unfold eps32; lra|exact Fm]. }
  unfold eps32 in *. lra.
Qed.

Lemma sample_cval m c c' a ax idx o : m <> Constant -> sample m c a ax idx o = sample m c' a ax idx o.
Proof.
  intros Hm. unfold sample. destruct (pad_pos_some m (nth ax (shp a) 0%nat) (Z.of_nat (nth ax idx 0%nat) + o) Hm) as [q ->]. reflexivity.
Qed.

Lemma filter_cval_r rnd ws m c c' a : m <> Constant -> filter_nd_r rnd ws m c a = filter_nd_r rnd ws m c' a.
Proof.
  intros Hm. unfold filter_nd_r. generalize (seq 0 (length (shp a))). intros l. revert a.
  induction l as [|ax l IH]; intros a; [reflexivity|]. cbn [fold_left].
  assert (E : filter_axis_r rnd ws m c a ax = filter_axis_r rnd ws m c' a ax).
  { unfold filter_axis_r, tabulate. f_equal. apply map_ext. intros idx. f_equal. apply Sum_ext. intros ow _. f_equal.
    apply sample_cval, Hm. }
  rewrite E. apply IH.
Qed.

Lemma getd_amap f a idx : f 0 = 0 -> getd (amap f a) idx = f (getd a idx).
Proof.
  intros H. unfold getd, get, amap. cbn [shp dat]. destruct (inb (shp a) idx); [|symmetry; exact H].
  rewrite nth_error_map. destruct (nth_error (dat a) _); [reflexivity|symmetry; exact H].
Qed.

Lemma bounded_amap B r : 0 <= B -> bounded B r -> bounded (B * (1 + eps32)) (amap float32 r).
Proof.
  intros HB Hb idx Hi. rewrite getd_amap by apply f32_0. apply f32_le, Hb, Hi.
Qed.

Lemma abs_near a c D t : 0 <= c -> Rabs (a - c * D) <= t -> Rabs a <= c * Rabs D + t.
Proof.
  intros Hc H. replace (c * Rabs D) with (Rabs (c * D)) by (rewrite Rabs_mult, (Rabs_right c) by lra; reflexivity).
  replace a with (c * D + (a - c * D)) at 1 by ring. eapply Rle_trans; [apply Rabs_triang|]. lra.
Qed.

Lemma score_range big r m kw e B :
  structural_similarity_r float32 big r m kw = Ok e ->
  (forall w, dget kw "win_size" = Some (KInt w) -> (0 < w)%Z) ->
  shp m = shp r -> (length (shp r) <= 3)%nat -> 0 <= B -> bounded B r -> bounded B m ->
  (forall P, ssim_setup (shp r) kw = Ok P -> (p_mode P <> Constant \/ p_cval P = 0) /\ 0 < p_c2 P /\
     p_al P = 1%Z /\ p_be P = 1%Z /\ p_ga P = 1%Z) ->
  exists P v, ssim_setup (shp r) kw = Ok P /\ e = Fin v /\ Rabs v <= 1 + 1 / 100000 * (1 + B * B / p_c2 P).
Proof.
  intros H Hw Hs Hd HB Hbr Hbm HP'. destruct (values_r _ _ _ _ _ _ H Hw) as (P & l & HP & -> & Hl & Hx).
  destruct (HP' P HP) as (Hborder & Hc2 & Ea & Eb & Eg). clear HP'.
  destruct (setup_ok _ _ _ HP) as (rad & win & Hcv & Hnear & _ & Hc1 & _).
  pose proof (setup_cov _ _ _ HP Hw) as Hcov.
  set (X := 1 + 1 / 100000 * (1 + B * B / p_c2 P)).
  assert (BX : forall x, In x l -> - X <= x <= X).
  { intros x Hin. destruct (Hx x Hin) as (idx & Hi & -> & _). apply Rabs_le_inv.
    unfold ssim_map_r. change (shp (amap float32 r)) with (shp r). rewrite getd_tab by exact Hi.
    set (r' := amap float32 r). set (m' := amap float32 m).
    set (B' := B * (1 + eps32)).
    assert (HB' : 0 <= B') by (unfold B', eps32; lra).
    assert (Hr' : bounded B' r') by (apply bounded_amap; assumption).
    assert (Hm' : bounded B' m') by (apply bounded_amap; assumption).
    assert (Hs' : shp m' = shp r') by exact Hs. assert (Hi' : inb (shp r') idx = true) by exact Hi.
    assert (Ec : forall a, filter_nd_r float32 (p_ws P) (p_mode P) (p_cval P) a = filter_nd_r float32 (p_ws P) (p_mode P) 0 a).
    { intros a. destruct Hborder as [Hb| ->]; [apply filter_cval_r, Hb|reflexivity]. }
    rewrite !Ec.
    pose proof (cov_le_var (p_ws P) (p_mode P) (shp r) rad r' m' idx Hcv Hnear eq_refl Hs Hi) as CV. cbv zeta in CV.
    destruct CV as (V1 & V2 & V3).
    assert (Q : forall a, shp a = shp r -> bounded B' a ->
       getd (filter_nd (p_ws P) (p_mode P) 0 (amul a a)) idx - getd (filter_nd (p_ws P) (p_mode P) 0 a) idx * getd (filter_nd (p_ws P) (p_mode P) 0 a) idx <= B' * B').
    { intros a Ha Hba. assert (G : Rabs (getd (filter_nd (p_ws P) (p_mode P) 0 (amul a a)) idx) <= B' * B').
      { apply filter_bound; [exact Hcv| | |change (shp (amul a a)) with (shp a); rewrite Ha; exact Hi].
        - intros _. rewrite Rabs_R0. nra.
        - intros j Hj. change (shp (amul a a)) with (shp a) in Hj. rewrite getd_amul by exact Hj. rewrite Rabs_mult. specialize (Hba j Hj).
          pose proof (Rabs_pos (getd a j)). nra. }
      apply Rabs_le_inv in G. pose proof (Rle_0_sqr (getd (filter_nd (p_ws P) (p_mode P) 0 a) idx)). unfold Rsqr in *. lra. }
    pose proof (Q r' eq_refl Hr') as Q1. pose proof (Q m' Hs Hm') as Q2. clear Q.
    pose proof (covariance_err (p_ws P) (p_mode P) r' r' B' idx Hcv HB' eq_refl Hr' Hr' Hi' Hd) as E1.
    pose proof (covariance_err (p_ws P) (p_mode P) m' m' B' idx Hcv HB' eq_refl Hm' Hm' ltac:(rewrite Hs'; exact Hi') ltac:(rewrite Hs'; exact Hd)) as E2.
    pose proof (covariance_err (p_ws P) (p_mode P) r' m' B' idx Hcv HB' Hs' Hr' Hm' Hi' Hd) as E3.
    cbv zeta in E1, E2, E3. assert (BB' : 0 <= B' * B') by nra.
    assert (F1 := fun h => variance_err P _ _ _ BB' Hcov E1 h). specialize (F1 ltac:(rewrite Rabs_right by lra; exact Q1)).
    assert (F2 := fun h => variance_err P _ _ _ BB' Hcov E2 h). specialize (F2 ltac:(rewrite Rabs_right by lra; exact Q2)).
    assert (F3 := fun h => variance_err P _ _ _ BB' Hcov E3 h). specialize (F3 ltac:(lra)).
    eapply Rle_trans.
    - apply (pixel_range big P _ _ _ _ _ (96 * eps32 * (B' * B'))); try assumption.
      + unfold eps32; nra.
      + unfold variance_r.
        apply Rabs_le_inv in F1. apply Rabs_le_inv in F2.
        apply abs_near in F3; [|lra].
        match type of V3 with 2 * ?d <= ?p => assert (V3' : p_cov P * (2 * d) <= p_cov P * p) by (apply Rmult_le_compat_l; lra) end.
        lra.
    - unfold X, B'. set (y := p_c2 P) in *.
      assert (Y : 0 <= B * B / y) by (apply Rmult_le_pos; [nra|left; apply Rinv_0_lt_compat, Hc2]).
      replace (96 * eps32 * (B * (1 + eps32) * (B * (1 + eps32))) / (y * (1 - eps32)))
        with (B * B / y * (96 * eps32 * (1 + eps32) * (1 + eps32) / (1 - eps32))) by (field; split; [unfold eps32; lra|lra]).
      set (z := B * B / y) in *.
      assert (96 * eps32 * (1 + eps32) * (1 + eps32) / (1 - eps32) <= 97 * eps32) by (unfold eps32; lra).
      apply Rle_trans with ((1 + 20 * eps32) * (1 + z * (97 * eps32))).
      + apply Rmult_le_compat_l; [unfold eps32; lra|]. apply Rplus_le_compat_l, Rmult_le_compat_l; assumption.
      + unfold eps32. lra. }
  destruct (mean_within l (- X) X Hl BX) as (v & -> & Hv). exists P, v. split; [exact HP|]. split; [reflexivity|]. apply Rabs_le. exact Hv.
Qed.

(** ** Symmetry and identical images *)

Lemma amul_r_comm rnd a b : shp a = shp b -> amul_r rnd a b = amul_r rnd b a.
Proof. intros H. unfold amul_r. rewrite H. unfold tabulate. f_equal. apply map_ext. intros i. f_equal. ring. Qed.

Lemma variance_r_comm P uab ua ub : variance_r float32 P uab ua ub = variance_r float32 P uab ub ua.
Proof. unfold variance_r. rewrite (Rmult_comm ua ub). reflexivity. Qed.

Lemma double_product x y : float32 x = x -> float32 y = y ->
  float32 (float32 (2 * x) * y) = float32 (float32 (2 * y) * x).
Proof. intros Hx Hy. rewrite !float32_double, Hx, Hy. f_equal. ring. Qed.

Lemma pixel_sym big P ux uy uxx uyy uxy : float32 ux = ux -> float32 uy = uy ->
  ssim_pixel_r float32 big P ux uy uxx uyy uxy = ssim_pixel_r float32 big P uy ux uyy uxx uxy.
Proof.
  intros Hx Hy. unfold ssim_pixel_r. cbv zeta. rewrite (variance_r_comm P uxy ux uy).
  set (vx := variance_r float32 P uxx ux ux). set (vy := variance_r float32 P uyy uy uy). set (vxy := variance_r float32 P uxy uy ux).
  assert (L : lum_r float32 big P ux uy = lum_r float32 big P uy ux).
  { unfold lum_r. cbv zeta. rewrite (double_product ux uy Hx Hy), (Rplus_comm (float32 (ux * ux))). reflexivity. }
  assert (C : con_r float32 big P vx vy = con_r float32 big P vy vx).
  { unfold con_r, sqrt_r, osqrt. cbv zeta.
    destruct (Rlt_dec vx 0) as [|], (Rlt_dec vy 0) as [|]; cbn [option_map]; try reflexivity.
    rewrite (double_product (float32 (sqrt vx)) (float32 (sqrt vy))) by apply float32_idem.
    rewrite (Rplus_comm vx vy). reflexivity. }
  assert (S : stru_r float32 big P vx vy vxy = stru_r float32 big P vy vx vxy).
  { unfold stru_r, sqrt_r, osqrt. cbv zeta.
    destruct (Rlt_dec vx 0) as [|], (Rlt_dec vy 0) as [|]; cbn [option_map]; try reflexivity.
    rewrite (Rmult_comm (float32 (sqrt vx))). reflexivity. }
  rewrite L, C, S. reflexivity.
Qed.

(** What a filter stores is in single precision. *)
Lemma filter_stored ws m c a idx : (forall j, inb (shp a) j = true -> float32 (getd a j) = getd a j) ->
  inb (shp a) idx = true -> float32 (getd (filter_nd_r float32 ws m c a) idx) = getd (filter_nd_r float32 ws m c a) idx.
Proof.
  unfold filter_nd_r. generalize (seq 0 (length (shp a))). intros l. revert a.
  induction l as [|ax l IH]; intros a Ha Hi; [apply Ha, Hi|]. cbn [fold_left]. apply IH; [|exact Hi].
  intros j Hj. unfold filter_axis_r in *. cbn [tabulate shp] in Hj. rewrite getd_tab by exact Hj. apply float32_idem.
Qed.

Lemma stored_amap a j : float32 (getd (amap float32 a) j) = getd (amap float32 a) j.
Proof. rewrite getd_amap by apply f32_0. apply float32_idem. Qed.

Lemma ssim_sym big r m kw : shp m = shp r ->
  structural_similarity_r float32 big r m kw = structural_similarity_r float32 big m r kw.
Proof.
  intros Hs. unfold structural_similarity_r. rewrite Hs. destruct (ssim_setup (shp r) kw) as [P|e]; [|reflexivity]. cbn [bind].
  assert (E : ssim_map_r float32 big P (amap float32 r) (amap float32 m) = ssim_map_r float32 big P (amap float32 m) (amap float32 r)).
  { unfold ssim_map_r. change (shp (amap float32 m)) with (shp m). change (shp (amap float32 r)) with (shp r). rewrite Hs.
    unfold tabulate. f_equal. apply map_ext_in. intros idx Hi. apply in_indices in Hi.
    rewrite (amul_r_comm float32 (amap float32 r) (amap float32 m)) by (symmetry; exact Hs).
    apply pixel_sym; apply filter_stored.
    - intros j _. apply stored_amap.
    - exact Hi.
    - intros j _. apply stored_amap.
    - change (shp (amap float32 m)) with (shp m). rewrite Hs. exact Hi. }
  rewrite E. reflexivity.
Qed.

Lemma returns_r rnd big r m kw P :
  ssim_setup (shp r) kw = Ok P -> exists e, structural_similarity_r rnd big r m kw = Ok e.
Proof.
  intros HP. unfold structural_similarity_r. rewrite HP. cbn [bind].
  destruct (slice_always (ssim_map_r rnd big P (amap rnd r) (amap rnd m)) (p_pad P)) as [c Hc]; [apply wf_tabulate|].
  change (shp (ssim_map_r rnd big P (amap rnd r) (amap rnd m))) with (shp r) in Hc. rewrite Hc. simpl. eauto.
Qed.

Lemma lum_same big P u : float32 u = u -> lum_r float32 big P u u = 1.
Proof.
  intros Hu. unfold lum_r. cbv zeta. rewrite float32_double, Hu, Rmult_assoc, float32_double.
  replace (float32 (u * u) + float32 (u * u)) with (2 * float32 (u * u)) by ring.
  rewrite float32_double, float32_idem. unfold nan1_r. destruct (Req_EM_T _ 0) as [E|E].
  - rewrite E. apply nan1_same.
  - unfold Rdiv. rewrite Rinv_r by exact E. apply float32_1.
Qed.

Lemma pixel_same big P u uu : float32 u = u -> 0 <= p_c2 P -> p_be P = 1%Z -> p_ga P = 1%Z ->
  Rabs (ssim_pixel_r float32 big P u u uu uu uu - 1) <= 4 * eps32 /\
  (variance_r float32 P uu u u <= 0 -> ssim_pixel_r float32 big P u u uu uu uu = 1).
Proof.
  intros Hu Hc Eb Eg. set (v := variance_r float32 P uu u u).
  assert (Hv : float32 v = v) by apply float32_idem.
  assert (D0 : Rabs (1 - 1) <= 4 * eps32) by (replace (1 - 1) with 0 by ring; rewrite Rabs_R0; unfold eps32; lra).
  destruct (Rlt_dec v 0) as [Hn|Hn].
  { rewrite pixel_hidden; [|apply float32_1|apply float32_idem|left; exact Hn]. rewrite lum_same by exact Hu.
    rewrite zpow_1, float32_1. split; [exact D0|reflexivity]. }
  unfold ssim_pixel_r. cbv zeta. fold v. rewrite lum_same by exact Hu. rewrite Eb, Eg, zpow_1, float32_1, Rmult_1_l.
  assert (Z1 : forall x, zpow x 1 = x) by (intros x; unfold zpow; simpl; ring). rewrite !Z1.
  unfold con_r, stru_r, sqrt_r, osqrt. cbv zeta. destruct (Rlt_dec v 0) as [|_]; [contradiction|]. cbn [option_map].
  set (s := float32 (sqrt v)). assert (Hs : float32 s = s) by apply float32_idem.
  rewrite (con_numerator s s (p_c2 P) Hs).
  set (c3 := float32 (p_c2 P / 2)).
  assert (C3 : 0 <= c3).
  { pose proof (f32_nonneg (p_c2 P / 2) ltac:(lra)) as [A _]. unfold c3. unfold eps32 in A. lra. }
  replace (float32 (p_c2 P)) with (2 * c3) by (unfold c3; rewrite <- float32_double; f_equal; lra).
  replace (v + v) with (2 * v) by ring. rewrite float32_double, Hv, <- Rmult_plus_distr_l, float32_double.
  set (g := float32 (s * s)). set (b := float32 (g + c3)). set (a := float32 (v + c3)).
  assert (S0 : 0 <= s).
  { pose proof (f32_nonneg _ (sqrt_pos v)) as [A _]. fold s in A. pose proof (sqrt_pos v). unfold eps32 in A. lra. }
  assert (SS : 0 <= s * s) by (apply Rmult_le_pos; exact S0).
  assert (G0 : 0 <= g) by (pose proof (f32_nonneg _ SS) as [A _]; fold g in A; unfold eps32 in A; lra).
  assert (B0 : 0 <= b) by (pose proof (f32_nonneg (g + c3) ltac:(lra)) as [A _]; fold b in A; unfold eps32 in A; lra).
  assert (A0 : 0 <= a) by (pose proof (f32_nonneg (v + c3) ltac:(lra)) as [A _]; fold a in A; unfold eps32 in A; lra).
  assert (V : v = 0 -> g = 0).
  { intros E. unfold g, s. rewrite E, sqrt_0, f32_0, Rmult_0_l. apply f32_0. }
  assert (V' : g = 0 -> v = 0).
  { intros E. apply f32_zero in E. assert (Es : s = 0) by nra. apply f32_zero in Es. apply sqrt_eq_0 in Es; lra. }
  assert (AB : a = 0 <-> b = 0).
  { split; intros E; apply f32_zero in E.
    - assert (v = 0) by lra. unfold b. rewrite (V H). replace (0 + c3) with 0 by lra. apply f32_0.
    - assert (g = 0) by lra. unfold a. rewrite (V' H). replace (0 + c3) with 0 by lra. apply f32_0. }
  unfold nan1_r.
  destruct (Req_EM_T (2 * a) 0) as [Ea|Ea].
  { assert (a = 0) by lra. assert (b = 0) by (apply AB; assumption). rewrite H, H0, Rmult_0_r, nan1_same.
    destruct (Req_EM_T 0 0) as [_|]; [|contradiction]. rewrite !float32_1, Rmult_1_l, float32_1. split; [exact D0|reflexivity]. }
  assert (Ap : 0 < a) by lra. destruct (Req_EM_T b 0) as [Eb'|Eb']; [apply AB in Eb'; lra|]. assert (Bp : 0 < b) by lra. rewrite !float32_idem.
  replace (2 * b / (2 * a)) with (b / a) by (field; lra).
  assert (P1 : 0 < b / a) by (apply Rdiv_lt_0_compat; assumption). assert (P2 : 0 < a / b) by (apply Rdiv_lt_0_compat; assumption).
  assert (PP : (b / a) * (a / b) = 1) by (field; lra).
  set (q := b / a) in *. set (q' := a / b) in *.
  pose proof (f32_nonneg q ltac:(lra)) as [L1 U1]. pose proof (f32_nonneg q' ltac:(lra)) as [L2 U2].
  set (x := float32 q) in *. set (y := float32 q') in *.
  assert (Lxy : (1 - eps32) * (1 - eps32) <= x * y).
  { replace ((1 - eps32) * (1 - eps32)) with ((q * (1 - eps32)) * (q' * (1 - eps32))).
    - apply Rmult_le_compat; try assumption; apply Rmult_le_pos; unfold eps32; lra.
    - transitivity (q * q' * ((1 - eps32) * (1 - eps32))); [ring|]. rewrite PP. ring. }
  assert (Uxy : x * y <= (1 + eps32) * (1 + eps32)).
  { replace ((1 + eps32) * (1 + eps32)) with ((q * (1 + eps32)) * (q' * (1 + eps32))).
    - assert (0 <= x) by (eapply Rle_trans; [|exact L1]; apply Rmult_le_pos; unfold eps32; lra).
      assert (0 <= y) by (eapply Rle_trans; [|exact L2]; apply Rmult_le_pos; unfold eps32; lra).
      apply Rmult_le_compat; assumption.
    - transitivity (q * q' * ((1 + eps32) * (1 + eps32))); [ring|]. rewrite PP. ring. }
  assert (XY : 0 <= x * y) by (eapply Rle_trans; [|exact Lxy]; unfold eps32; lra).
  pose proof (f32_nonneg _ XY) as [L3 U3]. split.
  - apply Rabs_le. unfold eps32 in *. lra.
  - intros Hv0. assert (Ev : v = 0) by lra. assert (Hba : b = a) by (unfold a, b; rewrite (V Ev), Ev; reflexivity).
    unfold x, y, q, q'. rewrite Hba. unfold Rdiv. rewrite Rinv_r by lra. rewrite !float32_1, Rmult_1_l. apply float32_1.
Qed.

Lemma same_score big r kw e :
  structural_similarity_r float32 big r r kw = Ok e ->
  (forall w, dget kw "win_size" = Some (KInt w) -> (0 < w)%Z) ->
  (forall P, ssim_setup (shp r) kw = Ok P -> p_be P = 1%Z /\ p_ga P = 1%Z) ->
  exists v, e = Fin v /\ Rabs (v - 1) <= 4 * eps32.
Proof.
  intros H Hw HP'. destruct (values_r _ _ _ _ _ _ H Hw) as (P & l & HP & -> & Hl & Hx).
  destruct (HP' P HP) as (Eb & Eg). destruct (setup_ok _ _ _ HP) as (rad & win & _ & _ & _ & _ & Hc2 & _).
  destruct (mean_within l (1 - 4 * eps32) (1 + 4 * eps32) Hl) as (v & -> & Hv).
  - intros x Hin. destruct (Hx x Hin) as (idx & Hi & -> & _).
    unfold ssim_map_r. change (shp (amap float32 r)) with (shp r). rewrite getd_tab by exact Hi.
    assert (St : float32 (getd (filter_nd_r float32 (p_ws P) (p_mode P) (p_cval P) (amap float32 r)) idx) =
                 getd (filter_nd_r float32 (p_ws P) (p_mode P) (p_cval P) (amap float32 r)) idx).
    { apply filter_stored; [intros j _; apply stored_amap|exact Hi]. }
    destruct (pixel_same big P _ (getd (filter_nd_r float32 (p_ws P) (p_mode P) (p_cval P) (amul_r float32 (amap float32 r) (amap float32 r))) idx) St Hc2 Eb Eg) as [D _].
    apply Rabs_le_inv in D. lra.
  - exists v. split; [reflexivity|]. apply Rabs_le. lra.
Qed.
