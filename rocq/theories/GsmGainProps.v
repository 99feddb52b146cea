(** GSM and changes of contrast (floating point images): property C146. *)
From Coq Require Import Reals Lra Psatz.
From Verif Require Import Base NdArray LoadModel LoadProofs NormModel NormProofs PairModel PairProofs RealSums
  MetricModel MetricProofs SsimModel SsimProofs SsimProps SsimSymProofs GsmModel GsmProofs UnitProps.
Local Open Scope R_scope.

(** ** One pixel *)

Lemma con_form k d : 0 <= k -> con_sim k d = 1 - d * d / (1 + (1 - d) * (1 - d) + k).
Proof. intros H. unfold con_sim. field. pose proof (Rle_0_sqr (1 - d)) as X. unfold Rsqr in X. lra. Qed.

Lemma frac_le a b a' b' : 0 <= a <= a' -> 0 < b' <= b -> a / b <= a' / b'.
Proof.
  intros [A1 A2] [B1 B2]. apply Rmult_le_reg_r with (b * b'); [nra|].
  replace (a / b * (b * b')) with (a * b') by (field; lra). replace (a' / b' * (b * b')) with (a' * b) by (field; lra). nra.
Qed.

(** Larger gradient changes and larger maxima make the contrast term smaller, for both signs of the gradient. *)
Lemma con_mono_pos k k' d d' : 0 <= k' <= k -> 0 <= d <= d' -> d' <= 1 -> 0 <= con_sim k' d' <= con_sim k d.
Proof.
  intros K D E. split.
  - unfold con_sim. apply Rmult_le_pos; [lra|]. left. apply Rinv_0_lt_compat. pose proof (Rle_0_sqr (1 - d')) as X. unfold Rsqr in X. lra.
  - rewrite !con_form by lra.
    assert (d * d / (1 + (1 - d) * (1 - d) + k) <= d' * d' / (1 + (1 - d') * (1 - d') + k')); [|lra].
    apply frac_le; [split; nra|]. split; nra.
Qed.

Lemma con_mono_neg k k' d d' : 0 <= k' <= k -> 0 <= d <= d' -> 0 <= con_sim k' (- d') <= con_sim k (- d).
Proof.
  intros K D. split.
  - unfold con_sim. apply Rmult_le_pos; [lra|]. left. apply Rinv_0_lt_compat. pose proof (Rle_0_sqr (1 - - d')) as X. unfold Rsqr in X. lra.
  - rewrite !con_form by lra.
    assert (- d * - d / (1 + (1 - - d) * (1 - - d) + k) <= - d' * - d' / (1 + (1 - - d') * (1 - - d') + k')); [|lra].
    assert (P : 0 < 1 + (1 - - d) * (1 - - d) + k) by nra. assert (P' : 0 < 1 + (1 - - d') * (1 - - d') + k') by nra.
    apply Rmult_le_reg_r with ((1 + (1 - - d) * (1 - - d) + k) * (1 + (1 - - d') * (1 - - d') + k')); [nra|].
    replace (- d * - d / (1 + (1 - - d) * (1 - - d) + k) * ((1 + (1 - - d) * (1 - - d) + k) * (1 + (1 - - d') * (1 - - d') + k')))
      with (d * d * (1 + (1 + d') * (1 + d') + k')) by (field; lra).
    replace (- d' * - d' / (1 + (1 - - d') * (1 - - d') + k') * ((1 + (1 - - d) * (1 - - d) + k) * (1 + (1 - - d') * (1 - - d') + k')))
      with (d' * d' * (1 + (1 + d) * (1 + d) + k)) by (field; lra).
    assert (Q : d * d <= d' * d') by nra.
    assert (A : d * d * (1 + k') <= d' * d' * (1 + k)) by nra.
    assert (B : (d * (1 + d')) * (d * (1 + d')) <= (d' * (1 + d)) * (d' * (1 + d))).
    { apply Rmult_le_compat; nra. }
    nra.
Qed.

Lemma quality_mono p con con' lum lum' : 0 <= p <= 1 / 2 -> 0 <= con' <= con -> con <= 1 -> 0 <= lum' <= lum -> lum <= 1 ->
  quality p con' lum' <= quality p con lum.
Proof.
  intros P C C1 L L1. unfold quality.
  assert (A : 0 <= (con - con') * (1 - p * (con + con') + p * lum)).
  { apply Rmult_le_pos; [lra|]. assert (p * (con + con') <= 1 / 2 * 2) by (apply Rmult_le_compat; lra).
    assert (0 <= p * lum) by (apply Rmult_le_pos; lra). lra. }
  assert (B : 0 <= p * con' * (lum - lum')) by (apply Rmult_le_pos; [apply Rmult_le_pos; lra|lra]).
  nra.
Qed.

Lemma lum_mono x y dr : 0 < dr -> Rabs x <= Rabs y -> Rabs y <= dr -> 0 <= lum_sim y dr <= lum_sim x dr /\ lum_sim x dr <= 1.
Proof.
  intros D H1 H2. destruct (lum_bounds y dr D H2) as [A _]. destruct (lum_bounds x dr D (Rle_trans _ _ _ H1 H2)) as [_ B].
  split; [|exact B]. split; [exact A|]. unfold lum_sim.
  assert (S : forall z, z / dr * (z / dr) = Rabs z * Rabs z * (/ dr * / dr)).
  { intros z. replace (Rabs z * Rabs z) with (z * z) by (rewrite <- Rabs_mult, Rabs_pos_eq; [reflexivity|exact (Rle_0_sqr z)]). unfold Rdiv. ring. }
  rewrite !S. assert (0 < / dr) by (apply Rinv_0_lt_compat; exact D). pose proof (Rabs_pos x).
  assert (Rabs x * Rabs x <= Rabs y * Rabs y) by nra. assert (0 < / dr * / dr) by nra. nra.
Qed.

(** The pixel of an image and a multiple of it, as a function of the sign of the gradient: [d] is the share of the
    larger gradient that is lost or gained. *)
Definition pixel_of (k p dr d g diff : R) : R :=
  quality p (con_sim k (if Rlt_dec 0 g then d else - d)) (lum_sim diff dr).

Lemma pixel_mono k k' p dr d d' g x x' : 0 <= p <= 1 / 2 -> 0 <= k' <= k -> 0 <= d <= d' -> d' <= 1 -> 0 < dr ->
  Rabs x <= Rabs x' -> Rabs x' <= dr -> pixel_of k' p dr d' g x' <= pixel_of k p dr d g x.
Proof.
  intros P K D D1 R X X1. unfold pixel_of. destruct (lum_mono x x' dr R X X1) as (L & L1).
  apply quality_mono; try assumption; destruct (Rlt_dec 0 g).
  - apply con_mono_pos; assumption.
  - apply con_mono_neg; assumption.
  - apply con_le. lra.
  - apply con_le. lra.
Qed.

(** ** The mean *)

Lemma nanmean_counted {A} (f : A -> ext) (h : A -> R) (b : A -> bool) l :
  (forall x, In x l -> f x = if b x then Fin (h x) else NaN) -> (exists x, In x l /\ b x = true) ->
  nanmean (map f l) = Fin (Sum h (filter b l) / INR (length (filter b l))) /\ (0 < length (filter b l))%nat.
Proof.
  intros H (x & Hx & Bx). assert (E : filter not_nan (map f l) = map Fin (map h (filter b l))).
  { clear x Hx Bx. induction l as [|y l IH]; [reflexivity|]. cbn [map filter]. rewrite (H y (or_introl eq_refl)).
    destruct (b y); cbn [not_nan map]; [f_equal|]; apply IH; intros z Hz; apply H; right; exact Hz. }
  assert (P : (0 < length (filter b l))%nat).
  { assert (X : In x (filter b l)) by (apply filter_In; split; assumption). destruct (filter b l); [destruct X|cbn; lia]. }
  split; [|exact P]. unfold nanmean. rewrite E, mean_ext_fin.
  - rewrite map_length, rsum_Sum, Sum_map. reflexivity.
  - destruct (filter b l); [cbn in P; lia|discriminate].
Qed.

Lemma best_scaled ucast r s br b2 : 0 < s -> best_gradients ucast (PF r r) = Ok (br, b2) ->
  b2 = br /\ best_gradients ucast (PF r (scale s r)) = Ok (br, scale s br).
Proof.
  intros Hs H. unfold best_gradients in *. cbn [pair_shape gradients] in *.
  destruct (if (length (shp r) =? 3)%nat then KERNELS_3D else if (length (shp r) =? 2)%nat then KERNELS_2D else Err ValueError)
    as [ks|]; [|discriminate H]. cbn [bind] in *. rewrite mapM_scale.
  destruct (mapM (correlate Reflect 0 r) ks) as [[|g gs]|]; cbn [bind map] in *; try discriminate H.
  injection H as H1 H2. split; [congruence|]. rewrite strongest_scale by exact Hs. congruence.
Qed.

(** The score of an image [r] and [s * r]. *)
Lemma gsm_gain ucast r dr c p s br b2 :
  length (shp r) = 2%nat \/ length (shp r) = 3%nat -> (0 < size (shp r))%nat -> 0 < s -> 0 < dr -> 0 <= c ->
  best_gradients ucast (PF r r) = Ok (br, b2) -> 0 < amax (dat br) ->
  let L := filter (fun idx => if Req_EM_T (getd br idx) 0 then false else true) (indices (shp r)) in
  let k := c / (amax (dat br) * Rmax 1 s) in
  let d := if Rlt_dec 1 s then 1 - / s else 1 - s in
  (0 < length L)%nat /\
  gradient_similarity ucast (PF r (scale s r)) dr c p
  = Ok (Fin (Sum (fun idx => pixel_of k p dr d (getd br idx) (getd r idx - s * getd r idx)) L / INR (length L))).
Proof.
  intros Hn Hpos Hs Hd Hc HB HM L k d.
  destruct (best_scaled ucast r s br b2 Hs HB) as (_ & HB2).
  assert (SS : same_shapes (PF r (scale s r))) by reflexivity.
  destruct (gsm_unfold ucast (PF r (scale s r)) dr c p SS Hn Hpos) as (b1 & b3 & HB' & S1 & _ & W1 & _ & ->).
  rewrite HB2 in HB'. injection HB' as <- <-. cbn [pair_shape] in *.
  assert (NE : dat br <> []) by (apply size_nonempty; [exact W1|rewrite S1; exact Hpos]).
  assert (GM : gmax br (scale s br) = amax (dat br) * Rmax 1 s).
  { unfold gmax. change (dat (scale s br)) with (map (Rmult s) (dat br)). rewrite amax_scale by assumption.
    rewrite <- (Rmult_1_r (amax (dat br))) at 1. rewrite (Rmult_comm s). apply RmaxRmult. lra. }
  assert (MM : 0 < amax (dat br) * Rmax 1 s) by (pose proof (Rmax_l 1 s); nra).
  assert (K0 : 0 <= k) by (unfold k, Rdiv; apply Rmult_le_pos; [exact Hc|left; apply Rinv_0_lt_compat; exact MM]).
  assert (MA : 0 < GsmModel.mean_abs br).
  { unfold GsmModel.mean_abs. apply Rmult_lt_0_compat.
    - pose proof (amax_in _ NE) as I. clear -I HM. set (M := amax (dat br)) in *. clearbody M. apply in_split in I as (l1 & l2 & E). rewrite E, Sum_app, Sum_cons.
      assert (0 <= Sum Rabs l1) by (apply Sum_nonneg; intros; apply Rabs_pos).
      assert (0 <= Sum Rabs l2) by (apply Sum_nonneg; intros; apply Rabs_pos).
      rewrite (Rabs_pos_eq M) by lra. lra.
    - apply Rinv_0_lt_compat, lt_0_INR. destruct (dat br); [congruence|cbn; lia]. }
  rewrite mean_abs_scale by exact Hs. rewrite GM, ext_div_fin by lra. fold k.
  destruct (nanmean_counted
    (fun idx => gsm_pixel (Fin k) p dr (getd br idx) (getd (scale s br) idx)
        (getd (if Rlt_dec (GsmModel.mean_abs br) (s * GsmModel.mean_abs br) then scale s br else br) idx) (lum_diff (PF r (scale s r)) idx))
    (fun idx => pixel_of k p dr d (getd br idx) (getd r idx - s * getd r idx))
    (fun idx => if Req_EM_T (getd br idx) 0 then false else true) (indices (shp r))) as (E & P).
  - intros idx Hi. cbn [lum_diff]. rewrite !getd_scale.
    assert (GX : getd (if Rlt_dec (GsmModel.mean_abs br) (s * GsmModel.mean_abs br) then scale s br else br) idx = Rmax 1 s * getd br idx).
    { destruct (Rlt_dec (GsmModel.mean_abs br) (s * GsmModel.mean_abs br)) as [X|X].
      - rewrite getd_scale, Rmax_right by nra. reflexivity.
      - rewrite Rmax_left by nra. ring. }
    rewrite GX. destruct (Req_EM_T (getd br idx) 0) as [Z0|NZ]; [rewrite Z0, !Rmult_0_r; apply pixel_flat|].
    assert (Rm : 1 <= Rmax 1 s) by apply Rmax_l.
    assert (Q : Rabs (getd br idx - s * getd br idx) / (Rmax 1 s * getd br idx) = if Rlt_dec 0 (getd br idx) then d else - d).
    { replace (getd br idx - s * getd br idx) with ((1 - s) * getd br idx) by ring. rewrite Rabs_mult. unfold d.
      destruct (Rlt_dec 1 s) as [S|S].
      - rewrite (Rmax_right 1 s) by lra. rewrite (Rabs_left1 (1 - s)) by lra.
        destruct (Rlt_dec 0 (getd br idx)); [rewrite (Rabs_pos_eq (getd br idx)) by lra|rewrite (Rabs_left1 (getd br idx)) by lra]; field; lra.
      - rewrite (Rmax_left 1 s) by lra. rewrite (Rabs_pos_eq (1 - s)) by lra.
        destruct (Rlt_dec 0 (getd br idx)); [rewrite (Rabs_pos_eq (getd br idx)) by lra|rewrite (Rabs_left1 (getd br idx)) by lra]; field; lra. }
    rewrite pixel_value.
    + unfold pixel_of. rewrite Q. reflexivity.
    + apply Rmult_integral_contrapositive_currified; [lra|exact NZ].
    + lra.
    + pose proof (proj2 (con_le k (Rabs (getd br idx - s * getd br idx) / (Rmax 1 s * getd br idx)) K0)). lra.
  - destruct (in_getd br (amax (dat br)) W1 (amax_in _ NE)) as (idx & Hi & Ei). exists idx. split.
    + apply in_indices. rewrite <- S1. exact Hi.
    + rewrite Ei. destruct (Req_EM_T (amax (dat br)) 0); [lra|reflexivity].
  - split; [exact P|]. f_equal. exact E.
Qed.

(** The stronger the contrast of the second image is lowered (or raised) the lower GSM is, if some gradient value is
    positive and the factor p of the weights is at most 1/2 (the default is 0.1). *)
Theorem C146_lowered : forall ucast r dr c p s s' br b2,
  length (shp r) = 2%nat \/ length (shp r) = 3%nat -> (0 < size (shp r))%nat -> wf r ->
  0 < dr -> 0 <= c -> 0 <= p <= 1 / 2 -> (forall x, In x (dat r) -> Rabs x <= dr) ->
  best_gradients ucast (PF r r) = Ok (br, b2) -> 0 < amax (dat br) -> 0 < s' <= s -> s <= 1 ->
  exists v v', gradient_similarity ucast (PF r (amap (Rmult s) r)) dr c p = Ok (Fin v) /\
    gradient_similarity ucast (PF r (amap (Rmult s') r)) dr c p = Ok (Fin v') /\ v' <= v.
Proof.
  intros ucast r dr c p s s' br b2 Hn Hpos W Hd Hc Hp Hr HB HM Hs H1.
  destruct (gsm_gain ucast r dr c p s br b2 Hn Hpos ltac:(lra) Hd Hc HB HM) as (P & E).
  destruct (gsm_gain ucast r dr c p s' br b2 Hn Hpos ltac:(lra) Hd Hc HB HM) as (P' & E').
  eexists. eexists. split; [exact E|]. split; [exact E'|].
  apply Rmult_le_compat_r; [left; apply Rinv_0_lt_compat, lt_0_INR; exact P|]. apply Sum_le. intros idx Hi.
  apply filter_In in Hi as [Hi _]. apply in_indices in Hi.
  assert (X : Rabs (getd r idx) <= dr) by (apply Hr, getd_in; assumption).
  destruct (Rlt_dec 1 s) as [?|_]; [lra|]. destruct (Rlt_dec 1 s') as [?|_]; [lra|]. rewrite !Rmax_left by lra.
  pose proof (Rabs_pos (getd r idx)) as Y.
  assert (F : forall t, 0 <= t <= 1 -> Rabs (getd r idx - t * getd r idx) = (1 - t) * Rabs (getd r idx)).
  { intros t Ht. replace (getd r idx - t * getd r idx) with ((1 - t) * getd r idx) by ring. rewrite Rabs_mult, (Rabs_pos_eq (1 - t)) by lra. reflexivity. }
  apply pixel_mono; try assumption; try lra.
  - split; [|lra]. unfold Rdiv. apply Rmult_le_pos; [exact Hc|]. left. apply Rinv_0_lt_compat. lra.
  - rewrite !F by lra. nra.
  - rewrite F by lra. nra.
Qed.
Print Assumptions C146_lowered.

Theorem C146_raised : forall ucast r dr c p s s' br b2,
  length (shp r) = 2%nat \/ length (shp r) = 3%nat -> (0 < size (shp r))%nat -> wf r ->
  0 < dr -> 0 <= c -> 0 <= p <= 1 / 2 -> (forall x, In x (dat r) -> Rabs ((s' - 1) * x) <= dr) ->
  best_gradients ucast (PF r r) = Ok (br, b2) -> 0 < amax (dat br) -> 1 <= s -> s <= s' ->
  exists v v', gradient_similarity ucast (PF r (amap (Rmult s) r)) dr c p = Ok (Fin v) /\
    gradient_similarity ucast (PF r (amap (Rmult s') r)) dr c p = Ok (Fin v') /\ v' <= v.
Proof.
  intros ucast r dr c p s s' br b2 Hn Hpos W Hd Hc Hp Hr HB HM Hs H1.
  destruct (gsm_gain ucast r dr c p s br b2 Hn Hpos ltac:(lra) Hd Hc HB HM) as (P & E).
  destruct (gsm_gain ucast r dr c p s' br b2 Hn Hpos ltac:(lra) Hd Hc HB HM) as (P' & E').
  eexists. eexists. split; [exact E|]. split; [exact E'|].
  apply Rmult_le_compat_r; [left; apply Rinv_0_lt_compat, lt_0_INR; exact P|]. apply Sum_le. intros idx Hi.
  apply filter_In in Hi as [Hi _]. apply in_indices in Hi.
  assert (X : Rabs ((s' - 1) * getd r idx) <= dr) by (apply Hr, getd_in; assumption).
  assert (G : forall t, 1 <= t -> (if Rlt_dec 1 t then 1 - / t else 1 - t) = 1 - / t).
  { intros t Ht. destruct (Rlt_dec 1 t); [reflexivity|]. assert (t = 1) by lra. subst. field. }
  rewrite !G by lra. rewrite !Rmax_right by lra. clear G.
  assert (F : forall t, 1 <= t -> Rabs (getd r idx - t * getd r idx) = (t - 1) * Rabs (getd r idx)).
  { intros t Ht. replace (getd r idx - t * getd r idx) with (- ((t - 1) * getd r idx)) by ring.
    rewrite Rabs_Ropp, Rabs_mult, (Rabs_pos_eq (t - 1)) by lra. reflexivity. }
  pose proof (Rabs_pos (getd r idx)) as Y. rewrite Rabs_mult, (Rabs_pos_eq (s' - 1)) in X by lra.
  assert (I : forall t, 1 <= t -> 0 < / t <= 1).
  { intros t Ht. split; [apply Rinv_0_lt_compat; lra|]. assert (X1 : / t <= / 1) by (apply Rinv_le_contravar; lra). rewrite Rinv_1 in X1. exact X1. }
  assert (I2 : / s' <= / s) by (apply Rinv_le_contravar; lra).
  apply pixel_mono; try assumption.
  - split.
    + unfold Rdiv. apply Rmult_le_pos; [exact Hc|]. left. apply Rinv_0_lt_compat. nra.
    + unfold Rdiv. apply Rmult_le_compat_l; [exact Hc|]. apply Rinv_le_contravar; nra.
  - pose proof (I s Hs). lra.
  - pose proof (I s' ltac:(lra)). lra.
  - rewrite !F by lra. nra.
  - rewrite F by lra. exact X.
Qed.
Print Assumptions C146_raised.

(** The unchanged image has the score 1, so both kinds of change stay at or below it. *)
Theorem C146_at_most_one : forall ucast r dr c p s br b2,
  length (shp r) = 2%nat \/ length (shp r) = 3%nat -> (0 < size (shp r))%nat -> wf r ->
  0 < dr -> 0 <= c -> 0 <= p <= 1 / 2 -> (forall x, In x (dat r) -> Rabs ((s - 1) * x) <= dr /\ Rabs x <= dr) ->
  best_gradients ucast (PF r r) = Ok (br, b2) -> 0 < amax (dat br) -> 0 < s ->
  exists v, gradient_similarity ucast (PF r (amap (Rmult s) r)) dr c p = Ok (Fin v) /\ v <= 1.
Proof.
  intros ucast r dr c p s br b2 Hn Hpos W Hd Hc Hp Hr HB HM Hs.
  assert (One : gradient_similarity ucast (PF r (amap (Rmult 1) r)) dr c p = Ok (Fin 1)).
  { destruct (gsm_gain ucast r dr c p 1 br b2 Hn Hpos ltac:(lra) Hd Hc HB HM) as (P & E). change (amap (Rmult 1) r) with (scale 1 r).
    rewrite E. do 2 f_equal. rewrite (Sum_ext _ (fun _ => 1)).
    - rewrite Sum_const. field. apply not_0_INR. lia.
    - intros idx _. destruct (Rlt_dec 1 1) as [?|_]; [lra|]. unfold pixel_of. rewrite con_form.
      + unfold quality, lum_sim. replace (getd r idx - 1 * getd r idx) with 0 by ring.
        replace (if Rlt_dec 0 (getd br idx) then 1 - 1 else - (1 - 1)) with 0 by (destruct (Rlt_dec 0 (getd br idx)); ring).
        unfold Rdiv. ring.
      + unfold Rdiv. apply Rmult_le_pos; [exact Hc|]. left. apply Rinv_0_lt_compat. rewrite Rmax_left by lra. lra. }
  destruct (Rle_lt_dec s 1) as [S|S].
  - destruct (C146_lowered ucast r dr c p 1 s br b2 Hn Hpos W Hd Hc Hp (fun x Hx => proj2 (Hr x Hx)) HB HM ltac:(lra) ltac:(lra)) as (v & v' & E & E' & L).
    exists v'. split; [exact E'|]. rewrite One in E. injection E as <-. exact L.
  - destruct (C146_raised ucast r dr c p 1 s br b2 Hn Hpos W Hd Hc Hp (fun x Hx => proj1 (Hr x Hx)) HB HM ltac:(lra) ltac:(lra)) as (v & v' & E & E' & L).
    exists v'. split; [exact E'|]. rewrite One in E. injection E as <-. exact L.
Qed.
Print Assumptions C146_at_most_one.

Lemma signs k p dr d g g' diff : 0 <= k -> 0 < dr -> 0 <= p <= 1 / 2 -> Rabs diff <= dr -> 0 < d <= 1 -> 0 < g -> g' < 0 ->
  pixel_of k p dr d g diff < pixel_of k p dr d g' diff.
Proof.
  intros K D P X Hd Hg Hg'. unfold pixel_of. destruct (Rlt_dec 0 g) as [_|?]; [|lra]. destruct (Rlt_dec 0 g') as [?|_]; [lra|].
  destruct (lum_bounds diff dr D X) as [L0 L1].
  assert (C0 : 0 <= con_sim k d) by (apply (con_mono_pos k k d d); lra).
  assert (C1 : con_sim k (- d) <= 1) by (apply con_le; exact K).
  assert (C : con_sim k d < con_sim k (- d)).
  { rewrite !con_form by exact K.
    assert (- d * - d / (1 + (1 - - d) * (1 - - d) + k) < d * d / (1 + (1 - d) * (1 - d) + k)); [|lra].
    replace (- d * - d) with (d * d) by ring. apply Rmult_lt_compat_l; [nra|]. apply Rinv_lt_contravar; [|nra]. apply Rmult_lt_0_compat; nra. }
  unfold quality. set (u := con_sim k d) in *. set (v := con_sim k (- d)) in *. set (l := lum_sim diff dr) in *.
  assert (A : 0 < (v - u) * (1 - p * (u + v) + p * l)).
  { apply Rmult_lt_0_compat; [lra|]. assert (p * (u + v) <= 1 / 2 * (u + v)) by (apply Rmult_le_compat_r; lra).
    assert (0 <= p * l) by (apply Rmult_le_pos; lra). lra. }
  nra.
Qed.
(** Rising and falling grey values are treated differently: where the gradient is negative the same loss of contrast
    counts less. *)
Theorem C146_signs : forall k p dr s g g' diff, 0 <= k -> 0 < dr -> 0 <= p <= 1 / 2 -> Rabs diff <= dr -> 0 <= s < 1 -> 0 < g -> g' < 0 ->
  exists v v', gsm_pixel (Fin k) p dr g (s * g) g diff = Fin v /\ gsm_pixel (Fin k) p dr g' (s * g') g' diff = Fin v' /\ v < v'.
Proof.
  intros k p dr s g g' diff K D P X Hs Hg Hg'.
  exists (pixel_of k p dr (1 - s) g diff), (pixel_of k p dr (1 - s) g' diff). split; [|split; [|apply signs; try assumption; lra]].
  - rewrite pixel_value; [|lra|lra|pose proof (proj2 (con_le k (Rabs (g - s * g) / g) K)); lra].
    unfold pixel_of. destruct (Rlt_dec 0 g) as [_|?]; [|lra].
    replace (Rabs (g - s * g) / g) with (1 - s); [reflexivity|]. rewrite Rabs_pos_eq by nra. field. lra.
  - rewrite pixel_value; [|lra|lra|pose proof (proj2 (con_le k (Rabs (g' - s * g') / g') K)); lra].
    unfold pixel_of. destruct (Rlt_dec 0 g') as [?|_]; [lra|].
    replace (Rabs (g' - s * g') / g') with (- (1 - s)); [reflexivity|]. rewrite Rabs_left1 by nra. field. lra.
Qed.
Print Assumptions C146_signs.

(** So turning both images upside down in grey value (255 - x) changes the score, with the default parameters. *)
Theorem C146_inverted_refuted : exists r m, forall ucast,
  gradient_similarity ucast (PF r m) 255 200 (1 / 10)
  <> gradient_similarity ucast (PF (amap (fun x => 255 - x) r) (amap (fun x => 255 - x) m)) 255 200 (1 / 10).
Proof.
  exists (two 0 200), (two 0 100). intros ucast.
  change (amap (fun x => 255 - x) (two 0 200)) with (two (255 - 0) (255 - 200)).
  change (amap (fun x => 255 - x) (two 0 100)) with (two (255 - 0) (255 - 100)).
  pose proof (gsm_two ucast 0 200 0 100 255 200 (1 / 10)) as H. cbv zeta in H.
  pose proof (gsm_two ucast (255 - 0) (255 - 200) (255 - 0) (255 - 100) 255 200 (1 / 10)) as H2. cbv zeta in H2.
  replace (16 * (200 - 0)) with 3200 in H by lra. replace (16 * (100 - 0)) with 1600 in H by lra.
  replace (16 * (255 - 200 - (255 - 0))) with (-3200) in H2 by lra. replace (16 * (255 - 100 - (255 - 0))) with (-1600) in H2 by lra.
  rewrite (Rabs_pos_eq 3200), (Rabs_pos_eq 1600) in H by lra. rewrite (Rabs_left1 (-3200)), (Rabs_left1 (-1600)) in H2 by lra.
  destruct (Rlt_dec 3200 1600) as [?|_]; [lra|]. destruct (Rlt_dec (- -3200) (- -1600)) as [?|_]; [lra|].
  rewrite Rmax_left in H by lra. rewrite Rmax_right in H2 by lra.
  replace (Rabs (3200 - 1600)) with 1600 in H by (rewrite Rabs_pos_eq; lra).
  replace (Rabs (-3200 - -1600)) with 1600 in H2 by (rewrite Rabs_left1; lra).
  rewrite H, H2 by lra. intros E. injection E as E. unfold quality, con_sim, lum_sim in E. lra.
Qed.
Print Assumptions C146_inverted_refuted.

(** Without a positive gradient value lowering the contrast can raise the score, above that of the unchanged image:
    [1, 0] against [1/3, 0]. *)
Theorem C146_falling_refuted : exists r s, 0 < s < 1 /\ forall ucast, exists v,
  gradient_similarity ucast (PF r r) 255 200 (1 / 10) = Ok (Fin 1) /\
  gradient_similarity ucast (PF r (amap (Rmult s) r)) 255 200 (1 / 10) = Ok (Fin v) /\ 1 < v.
Proof.
  exists (two 1 0), (1 / 3). split; [lra|]. intros ucast. change (amap (Rmult (1 / 3)) (two 1 0)) with (two (1 / 3 * 1) (1 / 3 * 0)).
  pose proof (gsm_two ucast 1 0 1 0 255 200 (1 / 10)) as H. cbv zeta in H.
  pose proof (gsm_two ucast 1 0 (1 / 3 * 1) (1 / 3 * 0) 255 200 (1 / 10)) as H2. cbv zeta in H2.
  replace (16 * (0 - 1)) with (-16) in H, H2 by lra. replace (16 * (1 / 3 * 0 - 1 / 3 * 1)) with (-16 / 3) in H2 by lra.
  rewrite (Rabs_left1 (-16)) in H, H2 by lra. rewrite (Rabs_left1 (-16 / 3)) in H2 by lra.
  destruct (Rlt_dec (- -16) (- -16)) as [?|_]; [lra|]. destruct (Rlt_dec (- -16) (- (-16 / 3))) as [?|_]; [lra|].
  rewrite Rmax_left in H by lra. rewrite Rmax_right in H2 by lra.
  replace (Rabs (-16 - -16)) with 0 in H by (rewrite Rabs_pos_eq; lra).
  replace (Rabs (-16 - -16 / 3)) with (32 / 3) in H2 by (rewrite Rabs_left1; lra).
  eexists. split; [|split; [apply H2; lra|]].
  - rewrite H by lra. do 2 f_equal. unfold quality, con_sim, lum_sim. field.
  - unfold quality, con_sim, lum_sim. lra.
Qed.
Print Assumptions C146_falling_refuted.

(** The step from 0 to 200: its score with half and with a quarter of the contrast. *)
Example C146_example : forall ucast, exists v v',
  gradient_similarity ucast (PF (two 0 200) (amap (Rmult (1 / 2)) (two 0 200))) 255 200 (1 / 10) = Ok (Fin v) /\
  gradient_similarity ucast (PF (two 0 200) (amap (Rmult (1 / 4)) (two 0 200))) 255 200 (1 / 10) = Ok (Fin v') /\ v' <= v.
Proof.
  intros ucast. eapply (C146_lowered ucast (two 0 200) 255 200 (1 / 10) (1 / 2) (1 / 4)); try lra; [left; reflexivity|cbn; lia|reflexivity| |apply best_two|].
  - cbn. intros x [<-|[<-|[]]]; rewrite Rabs_pos_eq; lra.
  - cbn [two dat amax fold_left]. rewrite Rmax_left; lra.
Qed.
