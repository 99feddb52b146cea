(** SSIM in single precision: C123 - C125. *)
From Coq Require Import Reals Lra Psatz.
From Verif Require Import Base NdArray LoadModel LoadProofs NormModel NormProofs PairModel PairProofs RealSums
  MetricModel SsimModel SsimProofs SsimProps SsimRoundModel RoundProofs SsimRoundProofs SsimRoundWitness.
Local Open Scope R_scope.

(** ** C123: rounding can hide distortions *)

(** With operations that do not round the model is the exact one. *)
Theorem C123_exact big r m kw :
  structural_similarity_r (fun x => x) big r m kw = structural_similarity big r m kw.
Proof. apply ssim_id. Qed.
Print Assumptions C123_exact.

(** The rounding has relative error 2^-24, and numbers with 24 binary digits are kept. *)
Theorem C123_rounding x : Rabs (float32 x - x) <= Rabs x / 2 ^ 24.
Proof. pose proof (proj2 float32_rounding x) as H. unfold eps32 in H. simpl. lra. Qed.
Print Assumptions C123_rounding.

Theorem C123_representable m e : (Z.abs m < 2 ^ 24)%Z -> float32 (IZR m * powerRZ 2 e) = IZR m * powerRZ 2 e.
Proof. apply float32_exact. Qed.
Print Assumptions C123_representable.

(** The result is a nearest such number. *)
Theorem C123_nearest x m : x <> 0 -> let u := powerRZ 2 (exponent x - 23) in Rabs (float32 x - x) <= Rabs (IZR m * u - x).
Proof.
  intros Hx u. unfold float32, round_to. destruct (Req_EM_T x 0) as [|_]; [contradiction|]. cbv zeta.
  change (24 - 1)%Z with 23%Z. change (pow2 (exponent x - 23)) with u.
  assert (U : 0 < u) by apply pow2_pos.
  replace (IZR (nearest_even (x / u)) * u - x) with ((IZR (nearest_even (x / u)) - x / u) * u) by (field; lra).
  replace (IZR m * u - x) with ((IZR m - x / u) * u) by (field; lra).
  rewrite !Rabs_mult. apply Rmult_le_compat_r; [apply Rabs_pos|].
  set (y := x / u). pose proof (nearest_dist y) as D. apply abs_between in D. set (n := nearest_even y) in *.
  destruct (Z.lt_trichotomy m n) as [L|[->|L]].
  - assert (IZR (m + 1) <= IZR n) by (apply IZR_le; lia). rewrite plus_IZR in H.
    unfold Rabs. destruct (Rcase_abs (IZR n - y)), (Rcase_abs (IZR m - y)); lra.
  - right. reflexivity.
  - assert (IZR (n + 1) <= IZR m) by (apply IZR_le; lia). rewrite plus_IZR in H.
    unfold Rabs. destruct (Rcase_abs (IZR n - y)), (Rcase_abs (IZR m - y)); lra.
Qed.
Print Assumptions C123_nearest.

(** Where the computed variance of either image is below zero only the luminance is left. *)
Theorem C123_hidden_pixel big P ux uy uxx uyy uxy :
  variance_r float32 P uxx ux ux < 0 \/ variance_r float32 P uyy uy uy < 0 ->
  ssim_pixel_r float32 big P ux uy uxx uyy uxy = float32 (zpow (lum_r float32 big P ux uy) (p_al P)).
Proof. apply pixel_hidden; [apply float32_1|apply float32_idem]. Qed.
Print Assumptions C123_hidden_pixel.

(** If that happens at all pixels of the reference, modified images with the same local means have the same score. *)
Theorem C123_hidden_score big r m m' kw :
  shp m = shp r -> shp m' = shp r -> positive_window kw ->
  (forall P idx, ssim_setup (shp r) kw = Ok P -> inb (shp r) idx = true ->
     let f a := getd (filter_nd_r float32 (p_ws P) (p_mode P) (p_cval P) a) idx in
     let x := amap float32 r in
     variance_r float32 P (f (amul_r float32 x x)) (f x) (f x) < 0 /\
     f (amap float32 m) = f (amap float32 m')) ->
  structural_similarity_r float32 big r m kw = structural_similarity_r float32 big r m' kw.
Proof.
  intros Hm Hm' Hw H. unfold structural_similarity_r. destruct (ssim_setup (shp r) kw) as [P|e] eqn:HP; [|reflexivity]. cbn [bind].
  assert (E : ssim_map_r float32 big P (amap float32 r) (amap float32 m) = ssim_map_r float32 big P (amap float32 r) (amap float32 m')).
  { unfold ssim_map_r. change (shp (amap float32 r)) with (shp r). unfold tabulate. f_equal. apply map_ext_in. intros idx Hi.
    apply in_indices in Hi. destruct (H P idx eq_refl Hi) as [Hv Hf]. cbv zeta in Hv, Hf.
    rewrite !C123_hidden_pixel by (left; exact Hv). rewrite Hf. reflexivity. }
  rewrite E. reflexivity.
Qed.
Print Assumptions C123_hidden_score.

(** 16-bit images, default settings: the score should be below 1/50, the computed one is above 9/10. *)
Definition image_16bit (a : arr R) : Prop :=
  forall idx, inb (shp a) idx = true -> exists z, (0 <= z <= 65535)%Z /\ getd a idx = IZR z.

Lemma rows_16bit n p f : (forall i, exists z, (0 <= z <= 65535)%Z /\ f i = IZR z) -> image_16bit (rows n p f).
Proof. intros H idx Hi. change (shp (rows n p f)) with [n; p] in Hi. destruct (inb2 _ _ _ Hi) as (i & j & -> & Hi' & Hj'). rewrite getd_rows by assumption. apply H. Qed.

Theorem C123_distortion_seen_refuted : exists r m,
  shp r = [11; 11]%nat /\ shp m = [11; 11]%nat /\ image_16bit r /\ image_16bit m /\ forall big, exists v v',
  structural_similarity big r m (default_opts 65535) = Ok (Fin v) /\ v < 1 / 50 /\
  structural_similarity_r float32 big r m (default_opts 65535) = Ok (Fin v') /\ 9 / 10 < v'.
Proof.
  exists (rows 11 11 faint), (rows 11 11 stripes). split; [reflexivity|]. split; [reflexivity|].
  split; [apply rows_16bit; intros i; destruct (faint_values i) as [-> | ->]; [exists 65023%Z|exists 65024%Z]; split; (lia || reflexivity)|].
  split; [apply rows_16bit; intros i; destruct (stripes_values i) as [-> | ->]; [exists 65024%Z|exists 30000%Z]; split; (lia || reflexivity)|].
  intros big. destruct (hidden_exact big) as (v & H1 & H2). destruct (hidden_rounded big) as (v' & H3 & H4). exists v, v'. auto.
Qed.
Print Assumptions C123_distortion_seen_refuted.

(** Enough local contrast excludes it: up to three axes, values up to B, a local variance above 12 B^2 / 2^24
    (a standard deviation of B / 1000 is enough). *)
Theorem C123_contrast r B kw P idx :
  ssim_setup (shp r) kw = Ok P -> p_cval P = 0 \/ p_mode P <> Constant ->
  (length (shp r) <= 3)%nat -> inb (shp r) idx = true -> 0 <= B ->
  (forall i, inb (shp r) i = true -> Rabs (getd r i) <= B /\ float32 (getd r i) = getd r i) ->
  let exact a := getd (filter_nd (p_ws P) (p_mode P) 0 a) idx in
  let f a := getd (filter_nd_r float32 (p_ws P) (p_mode P) (p_cval P) a) idx in
  B / 1000 * (B / 1000) < exact (amul r r) - exact r * exact r ->
  let x := amap float32 r in
  0 < variance_r float32 P (f (amul_r float32 x x)) (f x) (f x).
Proof.
  intros HP Hbd Hd Hi HB Hr exact f Hv x.
  destruct (setup_ok _ _ _ HP) as (rad & win & Hcv & Hnear & Hcov & _).
  assert (Ec : forall a, filter_nd_r float32 (p_ws P) (p_mode P) (p_cval P) a = filter_nd_r float32 (p_ws P) (p_mode P) 0 a).
  { intros a. destruct Hbd as [-> |Hb]; [reflexivity|apply filter_cval_r, Hb]. }
  assert (Eg : forall i, inb (shp r) i = true -> getd x i = getd r i).
  { intros i Hi'. unfold x. rewrite getd_amap by apply f32_0. apply Hr, Hi'. }
  assert (Hcong : forall a b, shp a = shp b -> (forall i, inb (shp b) i = true -> getd a i = getd b i) ->
    (forall i, inb (shp b) i = true -> getd (filter_nd (p_ws P) (p_mode P) 0 a) i = getd (filter_nd (p_ws P) (p_mode P) 0 b) i)).
  { intros a b Es Eq i Hi'. destruct (axes_seq (length (shp b))) as [Hnd Hlt].
    destruct (filter_kernel (p_ws P) (p_mode P) (shp b) rad Hcv Hnear _ Hnd Hlt i Hi') as (K & _ & Kin & _ & _ & K3).
    unfold filter_nd. rewrite Es. rewrite !K3 by congruence. apply Sum_ext. intros [w [j|]] Hk; cbn [fst snd val]; [|reflexivity].
    rewrite Eq by exact (Kin _ _ Hk). reflexivity. }
  unfold f. rewrite !Ec. apply (variance_pos (p_ws P) (p_mode P) P x B idx Hcv HB); try assumption.
  - intros i Hi'. rewrite Eg by exact Hi'. apply Hr, Hi'.
  - rewrite (Hcong (amul x x) (amul r r)); [|reflexivity| |exact Hi].
    + rewrite (Hcong x r); [|reflexivity|exact Eg|exact Hi]. fold (exact (amul r r)) (exact r). eapply Rle_lt_trans; [|exact Hv].
      unfold eps32. nra.
    + intros i Hi'. change (shp (amul r r)) with (shp r) in Hi'. rewrite !getd_amul by exact Hi'. rewrite Eg by exact Hi'. reflexivity.
Qed.
Print Assumptions C123_contrast.

(** A reference with one value only: the computed variance is exactly zero. *)
Theorem C123_flat s c kw P idx :
  ssim_setup s kw = Ok P -> p_mode P <> Constant -> inb s idx = true ->
  let x := amap float32 (const_img s c) in
  let f a := getd (filter_nd_r float32 (p_ws P) (p_mode P) (p_cval P) a) idx in
  variance_r float32 P (f (amul_r float32 x x)) (f x) (f x) = 0.
Proof.
  intros HP Hm Hi x f. destruct (setup_ok _ _ _ HP) as (rad & win & [_ Hw] & _).
  unfold x, f. rewrite amap_flat, amul_flat_r.
  rewrite !filter_flat_r; try assumption; try apply float32_idem.
  unfold variance_r. match goal with |- float32 (_ * float32 (?a - ?a)) = 0 => replace (a - a) with 0 by ring end.
  rewrite f32_0, Rmult_0_r. apply f32_0.
Qed.
Print Assumptions C123_flat.

(** What single precision cannot tell apart cannot be told apart by the score. *)
Theorem C123_cast big r m kw :
  structural_similarity_r float32 big (amap float32 r) (amap float32 m) kw = structural_similarity_r float32 big r m kw.
Proof.
  unfold structural_similarity_r. change (shp (amap float32 r)) with (shp r).
  assert (E : forall a, amap float32 (amap float32 a) = amap float32 a).
  { intros a. unfold amap. cbn [shp dat]. f_equal. rewrite map_map. apply map_ext. intros x. apply float32_idem. }
  rewrite !E. reflexivity.
Qed.
Print Assumptions C123_cast.

(** ** C124: identical images, exchanged images *)

Lemma window_given k1 k2 sigma win g mode cval al be ga dr : (forall w, win = Some w -> (0 < w)%Z) ->
  positive_window (opts k1 k2 sigma win g mode cval al be ga dr).
Proof.
  intros Hw w E. unfold opts in E. cbn [dget String.eqb Ascii.eqb Bool.eqb] in E. destruct win as [z|]; [|discriminate].
  injection E as <-. apply Hw. reflexivity.
Qed.

Lemma setup_opts_inv s k1 k2 sigma win g mode cval al be ga dr P :
  ssim_setup s (opts k1 k2 sigma win g mode cval al be ga dr) = Ok P ->
  p_c2 P = k2 * dr * (k2 * dr) /\ p_cval P = cval /\ p_al P = Rtrunc al /\ p_be P = Rtrunc be /\ p_ga P = Rtrunc ga /\
  (mode_of mode <> Some Constant -> p_mode P <> Constant).
Proof.
  intros HP. assert (HP' := HP). unfold ssim_setup, opts in HP'. cbn [dget String.eqb Ascii.eqb Bool.eqb as_num flag bind] in HP'.
  destruct (Rlt_dec k1 0) as [|K1]; [discriminate|]. destruct (Rlt_dec k2 0) as [|K2]; [discriminate|].
  destruct (Rlt_dec sigma 0) as [|K3]; [discriminate|]. clear HP'.
  rewrite setup_opts in HP by lra. cbv zeta in HP.
  destruct (existsb _ _); [discriminate|]. destruct (Z.even _); [discriminate|].
  apply bind_ok in HP as (cov & _ & HP). apply bind_ok in HP as (md & Hmd & HP). injection HP as <-.
  cbn [p_c2 p_cval p_al p_be p_ga p_mode]. repeat (split; [reflexivity|]).
  intros Hm. destruct (if g then _ else _) in Hmd.
  - destruct (mode_of mode) as [x|]; [|discriminate]. injection Hmd as <-. congruence.
  - injection Hmd as <-. discriminate.
Qed.

Theorem C124_identical big r k1 k2 sigma win g mode cval al dr e :
  structural_similarity_r float32 big r r (opts k1 k2 sigma win g mode cval al 1 1 dr) = Ok e ->
  (forall w, win = Some w -> (0 < w)%Z) ->
  exists v, e = Fin v /\ Rabs (v - 1) <= 1 / 2 ^ 22.
Proof.
  intros H Hw. destruct (same_score big r _ e H) as (v & -> & Hv).
  - exact (window_given _ _ _ _ _ _ _ _ _ _ _ Hw).
  - intros P HP. apply setup_opts_inv in HP as (_ & _ & _ & -> & -> & _). split; apply trunc_1.
  - exists v. split; [reflexivity|]. eapply Rle_trans; [exact Hv|]. unfold eps32. simpl. lra.
Qed.
Print Assumptions C124_identical.

Theorem C124_symmetric big r m kw : shp m = shp r ->
  structural_similarity_r float32 big r m kw = structural_similarity_r float32 big m r kw.
Proof. apply ssim_sym. Qed.
Print Assumptions C124_symmetric.

(** An 8-bit image compared with itself, uniform window: 1 - 2^-24. *)
Theorem C124_exactly_one_refuted : exists r, shp r = [7; 7]%nat /\
  (forall idx, inb (shp r) idx = true -> getd r idx = 0 \/ getd r idx = 18) /\
  forall big, structural_similarity_r float32 big r r (uniform_opts 255) = Ok (Fin (1 - 1 / 2 ^ 24)).
Proof.
  exists (rows 7 7 two_rows). split; [reflexivity|]. split.
  - intros idx Hi. change (shp (rows 7 7 two_rows)) with [7; 7]%nat in Hi. destruct (inb2 _ _ _ Hi) as (i & j & -> & Hi' & Hj').
    rewrite getd_rows by assumption. unfold two_rows. destruct (5 <=? i)%nat; auto.
  - intros big. rewrite below_one. do 2 f_equal. simpl. lra.
Qed.
Print Assumptions C124_exactly_one_refuted.

(** Flat images score exactly 1. *)
Theorem C124_flat big s c kw e :
  structural_similarity_r float32 big (const_img s c) (const_img s c) kw = Ok e -> positive_window kw ->
  (forall P, ssim_setup s kw = Ok P -> p_mode P <> Constant /\ p_be P = 1%Z /\ p_ga P = 1%Z) -> e = Fin 1.
Proof.
  intros H Hw HP'. destruct (values_r _ _ _ _ _ _ H Hw) as (P & l & HP & -> & Hl & Hx).
  change (shp (const_img s c)) with s in *. destruct (HP' P HP) as (Hm & Eb & Eg).
  destruct (setup_ok _ _ _ HP) as (rad & win & _ & _ & _ & _ & Hc2 & _).
  destruct (mean_within l 1 1 Hl) as (v & -> & Hv); [|f_equal; lra].
  intros x Hin. destruct (Hx x Hin) as (idx & Hi & -> & _).
  unfold ssim_map_r. change (shp (amap float32 (const_img s c))) with s. rewrite getd_tab by exact Hi.
  destruct (pixel_same big P (getd (filter_nd_r float32 (p_ws P) (p_mode P) (p_cval P) (amap float32 (const_img s c))) idx)
     (getd (filter_nd_r float32 (p_ws P) (p_mode P) (p_cval P) (amul_r float32 (amap float32 (const_img s c)) (amap float32 (const_img s c)))) idx))
    as [_ E]; try assumption.
  - apply filter_stored; [intros j _; apply stored_amap|exact Hi].
  - rewrite E; [lra|]. right. apply (C123_flat s c kw P idx HP Hm Hi).
Qed.
Print Assumptions C124_flat.

(** So images that differ by less than the precision look identical: 2^24 and 2^24 + 1. *)
Theorem C123_one_only_if_equal_refuted : exists r m,
  shp r = [11; 11]%nat /\ shp m = [11; 11]%nat /\ (forall idx, inb [11; 11]%nat idx = true -> getd r idx <> getd m idx) /\
  forall big, structural_similarity_r float32 big r m (default_opts 65535) = Ok (Fin 1).
Proof.
  exists (const_img [11; 11]%nat 16777216), (const_img [11; 11]%nat 16777217).
  split; [reflexivity|]. split; [reflexivity|]. split.
  { intros idx Hi. unfold const_img. rewrite !getd_tab by exact Hi. lra. }
  intros big.
  assert (E : float32 16777217 = 16777216).
  { rewrite <- (Rmult_1_r 16777217). replace (16777217 * 1) with ((IZR 8388608 + 1 / 2) * pow2 (24 - (24 - 1))).
    - unfold float32. rewrite (round_tie 24 _ 24 8388608); [|lia| |reflexivity].
      + change (Z.even 8388608) with true. cbv iota. change (24 - (24 - 1))%Z with 1%Z. rewrite pow2_Z by lia. change (2 ^ 1)%Z with 2%Z. lra.
      + change (24 - (24 - 1))%Z with 1%Z. rewrite !pow2_Z by lia. change (2 ^ 1)%Z with 2%Z. change (2 ^ 24)%Z with 16777216%Z.
        change (2 ^ (24 + 1))%Z with 33554432%Z. rewrite Rabs_right; lra.
    - change (24 - (24 - 1))%Z with 1%Z. rewrite pow2_Z by lia. change (2 ^ 1)%Z with 2%Z. lra. }
  assert (E' : float32 16777216 = 16777216).
  { replace 16777216 with (IZR 1 * pow2 24) by (rewrite pow2_Z by lia; change (2 ^ 24)%Z with 16777216%Z; lra). apply float32_exact. lia. }
  rewrite <- C123_cast, !amap_flat, E, E'.
  destruct (returns_r float32 big (const_img [11; 11]%nat 16777216) (const_img [11; 11]%nat 16777216) (default_opts 65535) (P11 65535)) as [e He].
  { apply default_setup. }
  rewrite He. f_equal. apply (C124_flat _ _ _ _ _ He).
  - intros w; discriminate.
  - intros P HP. change (shp (const_img [11; 11]%nat 16777216)) with [11; 11]%nat in HP. rewrite default_setup in HP. injection HP as <-. split; [discriminate|split; reflexivity].
Qed.
Print Assumptions C123_one_only_if_equal_refuted.

(** ** C125: the range *)

Theorem C125_range big r m k1 k2 sigma win g mode cval dr e B :
  structural_similarity_r float32 big r m (opts k1 k2 sigma win g mode cval 1 1 1 dr) = Ok e ->
  (forall w, win = Some w -> (0 < w)%Z) -> cval = 0 \/ mode_of mode <> Some Constant -> k2 * dr <> 0 ->
  shp m = shp r -> (length (shp r) <= 3)%nat ->
  (forall idx, inb (shp r) idx = true -> Rabs (getd r idx) <= B /\ Rabs (getd m idx) <= B) ->
  exists v, e = Fin v /\ Rabs v <= 1 + (1 + (B / (k2 * dr)) ^ 2) / 10 ^ 5.
Proof.
  intros H Hw Hb Hk Hs Hd HB.
  assert (Hpw := window_given k1 k2 sigma win g mode cval 1 1 1 dr Hw).
  assert (B0 : 0 <= B).
  { destruct (values_r _ _ _ _ _ _ H Hpw) as (P & [|x l] & _ & _ & Hl & Hx); [congruence|].
    destruct (Hx x (or_introl eq_refl)) as (idx & Hi & _). eapply Rle_trans; [apply Rabs_pos|apply (proj1 (HB idx Hi))]. }
  destruct (score_range big r m _ e B H Hpw Hs Hd B0) as (P & v & HP & -> & Hv).
  - intros idx Hi. apply HB, Hi.
  - intros idx Hi. rewrite Hs in Hi. apply HB, Hi.
  - intros P HP. apply setup_opts_inv in HP as (-> & -> & -> & -> & -> & Hm). rewrite trunc_1. repeat split.
    + destruct Hb as [->|Hb]; [right; reflexivity|left; apply Hm, Hb].
    + nra.
  - apply setup_opts_inv in HP as (E & _). exists v. split; [reflexivity|]. rewrite E in Hv.
    replace ((B / (k2 * dr)) ^ 2) with (B * B / (k2 * dr * (k2 * dr))); [lra|].
    assert (k2 <> 0) by (intros C; apply Hk; rewrite C; ring). assert (dr <> 0) by (intros C; apply Hk; rewrite C; ring).
    field. split; assumption.
Qed.
Print Assumptions C125_range.

(** Values within the data range, default constants: at most 1.012. *)
Theorem C125_default big r m dr e :
  structural_similarity_r float32 big r m (default_opts dr) = Ok e -> 0 < dr ->
  shp m = shp r -> (length (shp r) <= 3)%nat ->
  (forall idx, inb (shp r) idx = true -> Rabs (getd r idx) <= dr /\ Rabs (getd m idx) <= dr) ->
  exists v, e = Fin v /\ Rabs v <= 1012 / 1000.
Proof.
  intros H Hdr Hs Hd HB. destruct (C125_range big r m (1 / 100) (3 / 100) (15 / 10) None true "reflect" 0 dr e dr H) as (v & -> & Hv); try assumption.
  - discriminate.
  - left. reflexivity.
  - lra.
  - exists v. split; [reflexivity|]. eapply Rle_trans; [exact Hv|].
    replace (dr / (3 / 100 * dr)) with (100 / 3) by (field; lra). lra.
Qed.
Print Assumptions C125_default.

(** 16-bit images and data range, default settings: more than 1. *)
Theorem C125_at_most_one_refuted : exists r m,
  shp r = [11; 11]%nat /\ shp m = [11; 11]%nat /\ image_16bit r /\ image_16bit m /\ forall big, exists v,
  structural_similarity_r float32 big r m (default_opts 65535) = Ok (Fin v) /\ 1 + 1 / 10 ^ 4 < v.
Proof.
  exists (rows 11 11 bright), (rows 11 11 edge). split; [reflexivity|]. split; [reflexivity|].
  split; [apply rows_16bit; intros i; exists 50607%Z; split; [lia|reflexivity]|].
  split; [apply rows_16bit; intros i; unfold edge; destruct (i =? 10)%nat; [exists 50610%Z|exists 50607%Z]; split; (lia || reflexivity)|].
  intros big. destruct (above_one big 65535 ltac:(lra)) as (v & H & Hv). exists v. split; [exact H|].
  unfold eps32 in Hv. lra.
Qed.
Print Assumptions C125_at_most_one_refuted.

(** The same images with the data range left at 255: more than 9. *)
Theorem C125_near_one_refuted : exists r m,
  shp r = [11; 11]%nat /\ shp m = [11; 11]%nat /\ image_16bit r /\ image_16bit m /\ forall big, exists v,
  structural_similarity_r float32 big r m (default_opts 255) = Ok (Fin v) /\ 9 < v.
Proof.
  exists (rows 11 11 bright), (rows 11 11 edge). split; [reflexivity|]. split; [reflexivity|].
  split; [apply rows_16bit; intros i; exists 50607%Z; split; [lia|reflexivity]|].
  split; [apply rows_16bit; intros i; unfold edge; destruct (i =? 10)%nat; [exists 50610%Z|exists 50607%Z]; split; (lia || reflexivity)|].
  intros big. destruct (above_one big 255 ltac:(lra)) as (v & H & Hv). exists v. split; [exact H|].
  unfold eps32 in Hv. lra.
Qed.
Print Assumptions C125_near_one_refuted.

(** ** Examples *)

(** The settings are accepted for images with 20 times 30 pixels. *)
Lemma accepted_20_30 big r m dr : shp r = [20; 30]%nat ->
  exists e, structural_similarity_r float32 big r m (default_opts dr) = Ok e.
Proof.
  intros Hs. destruct (C28_accepted big r m (1 / 100) (3 / 100) (15 / 10) None true "reflect" 0 1 1 1 dr) as [v Hv]; try lra.
  - rewrite default_window. exists 5%Z. reflexivity.
  - rewrite default_window, Hs. intros n [<-|[<-|[]]]; lia.
  - left; reflexivity.
  - rewrite Hs; discriminate.
  - right; auto.
  - unfold structural_similarity in Hv. apply bind_ok in Hv as (P & HP & _). exact (returns_r float32 big r m _ P HP).
Qed.

Example C124_example big r : shp r = [20; 30]%nat -> exists v,
  structural_similarity_r float32 big r r (default_opts 255) = Ok (Fin v) /\ Rabs (v - 1) <= 1 / 2 ^ 22.
Proof.
  intros Hs. destruct (accepted_20_30 big r r 255 Hs) as [e He].
  destruct (C124_identical big r (1 / 100) (3 / 100) (15 / 10) None true "reflect" 0 1 255 e He ltac:(discriminate)) as (v & -> & Hv). exists v. auto.
Qed.

Example C125_example big : exists v, structural_similarity_r float32 big
  (const_img [20; 30]%nat 200) (const_img [20; 30]%nat 100) (default_opts 255) = Ok (Fin v) /\ Rabs v <= 1012 / 1000.
Proof.
  destruct (accepted_20_30 big (const_img [20; 30]%nat 200) (const_img [20; 30]%nat 100) 255 eq_refl) as [e He].
  destruct (C125_default _ _ _ _ _ He ltac:(lra) eq_refl ltac:(cbn; lia)) as (v & -> & Hv); [|exists v; auto].
  intros idx Hi. change (shp (const_img [20; 30]%nat 200)) with [20; 30]%nat in Hi. unfold const_img. rewrite !getd_tab by exact Hi.
  split; rewrite Rabs_right; lra.
Qed.

(** 0.1 in single precision is 13421773 / 2^27. *)
Example C123_example : float32 (1 / 10) = 13421773 / 134217728.
Proof. rewrite (float32_frac (1 / 10) 13421773 27); [reflexivity|lia|lia|change (2 ^ 27)%Z with 134217728%Z; lra]. Qed.

(** The hypotheses of C123_hidden_pixel can be met: 65024^2 - 256 against 65024^2. *)
Example C123_hidden_example : variance_r float32 (P11 65535) (65024 * 65024 - 256) 65024 65024 < 0.
Proof.
  unfold variance_r, P11. cbn [p_cov].
  replace (65024 * 65024) with (IZR 16129 * pow2 18) by (rewrite pow2_Z by lia; change (2 ^ 18)%Z with 262144%Z; lra).
  rewrite (float32_exact 16129 18) by lia.
  rewrite float32_1. replace (16129 * pow2 18 - 256 - 16129 * pow2 18) with (IZR (-256)) by lra.
  rewrite (float32_small (-256)), Rmult_1_l, (float32_small (-256)) by lia. lra.
Qed.

(** The hypotheses of C123_contrast can be met: stripes. *)
Example C123_contrast_example :
  let x := amap float32 (rows 11 11 stripes) in
  let f a := getd (filter_nd_r float32 (p_ws (P11 65535)) (p_mode (P11 65535)) (p_cval (P11 65535)) a) [5; 5]%nat in
  0 < variance_r float32 (P11 65535) (f (amul_r float32 x x)) (f x) (f x).
Proof.
  apply (C123_contrast (rows 11 11 stripes) 65024 (default_opts 65535)); [apply default_setup|left; reflexivity|cbn; lia|reflexivity|lra| |].
  - intros i Hi. change (shp (rows 11 11 stripes)) with [11; 11]%nat in Hi. destruct (inb2 _ _ _ Hi) as (a & b & -> & Ha & Hb).
    rewrite getd_rows by assumption.
    destruct (stripes_values a) as [-> | ->]; (split; [rewrite Rabs_right; lra|apply float32_small; lia]).
  - destruct filter_11 as (w0 & w1 & w2 & w3 & w4 & w5 & S & W5 & Q0 & Q1 & Q2 & Q3 & Q4 & Q & F).
    pose proof (fun f => F (fun x => x) f (fun _ => eq_refl)) as F'. clear F.
    assert (E : forall f, getd (filter_nd (p_ws (P11 65535)) (p_mode (P11 65535)) 0 (rows 11 11 f)) [5; 5]%nat = _) by exact F'.
    assert (A : amul (rows 11 11 stripes) (rows 11 11 stripes) = rows 11 11 (fun i => stripes i * stripes i)).
    { exact (amul_rows (fun x => x) 11 11 stripes stripes). }
    rewrite A, !E. unfold stripes. cbn [Nat.even]. set (q := 2 * (w1 + w3 + w5)) in *.
    assert (E0 : w0 = 1 - 2 * (w1 + w2 + w3 + w4 + w5)) by lra.
    match goal with |- _ < ?a - ?b * ?b =>
      replace a with (30000 * 30000 + q * 3328120576) by (unfold q; rewrite E0; ring);
      replace b with (30000 + 35024 * q) by (unfold q; rewrite E0; ring) end.
    nra.
Qed.
