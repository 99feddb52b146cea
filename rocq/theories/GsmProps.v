(** C31-C34 and C77: GSM and the gradient kernels. *)
From Coq Require Import Reals Lra Psatz.
From Verif Require Import Base NdArray LoadModel LoadProofs NormModel PairModel RealSums
  MetricModel SsimModel SsimProofs GsmModel GsmProofs.
Local Open Scope R_scope.

(** ** C31 *)

(** Two identical images are compared through one and the same gradient image [b]. With [M] its
    maximum, GSM is 1, except that it is not a number when M = 0 or c = -2 M. *)
Theorem C31_identical : forall ucast g dr c p,
  match g with PF r m => r = m | PU _ r m => r = m end ->
  length (pair_shape g) = 2%nat \/ length (pair_shape g) = 3%nat -> (0 < size (pair_shape g))%nat -> dr <> 0 ->
  exists b, best_gradients ucast g = Ok (b, b) /\
    (amax (dat b) <> 0 -> c <> -2 * amax (dat b) -> gradient_similarity ucast g dr c p = Ok (Fin 1)) /\
    (amax (dat b) = 0 \/ c = -2 * amax (dat b) -> gradient_similarity ucast g dr c p = Ok NaN).
Proof.
  intros ucast g dr c p Hid Hn Hpos Hd. destruct (identical_gradients ucast g Hid Hn) as [b HB]. exists b.
  split; [exact HB|].
  rewrite (gsm_same_gradients ucast g dr c p b (identical_shapes g Hid) Hn Hpos Hd HB 0)
    by (intros; apply identical_diff, Hid).
  split.
  - intros H1 H2. destruct (Req_EM_T (amax (dat b)) 0); [contradiction|].
    destruct (Req_EM_T (c + 2 * amax (dat b)) 0); [lra|]. f_equal. f_equal. unfold Rdiv. ring.
  - intros H. destruct (Req_EM_T (amax (dat b)) 0); [reflexivity|].
    destruct (Req_EM_T (c + 2 * amax (dat b)) 0); [reflexivity|]. destruct H; [contradiction|lra].
Qed.
Print Assumptions C31_identical.

(** [b] is one of the gradient images, and its maximum is attained and is an upper bound. *)
Theorem C31_maximum : forall l, l <> [] -> In (amax l) l /\ forall x, In x l -> x <= amax l.
Proof. intros l H. split; [apply amax_in, H|apply amax_ge]. Qed.
Print Assumptions C31_maximum.

(** Constant images. *)
Theorem C31_constant : forall ucast r v dr c p,
  length (shp r) = 2%nat \/ length (shp r) = 3%nat -> (0 < size (shp r))%nat -> dr <> 0 ->
  (forall idx, inb (shp r) idx = true -> getd r idx = v) ->
  gradient_similarity ucast (PF r r) dr c p = Ok NaN.
Proof.
  intros ucast r v dr c p Hn Hpos Hd Hc.
  destruct (C31_identical ucast (PF r r) dr c p eq_refl Hn Hpos Hd) as (b & HB & _ & H2). apply H2. left.
  destruct (best_gradients_ok ucast (PF r r) eq_refl Hn) as (ks & Hk & HB'). rewrite HB in HB'.
  injection HB' as -> _. cbn [castg first_img pair_shape] in *.
  assert (Hin : In (amax (dat (best (map (fun x => x) (grads r ks)))))
                   (dat (best (map (fun x => x) (grads r ks))))).
  { destruct (best_shape ucast (PF r r) r ks eq_refl (proj1 Hk)) as [S W]. cbn [castg pair_shape] in S, W.
    apply amax_in, size_nonempty; [exact W|rewrite S; exact Hpos]. }
  apply (grads_const r v ks Hk Hc (best (map (fun x => x) (grads r ks)))); [|exact Hin].
  rewrite map_id. destruct ks as [|k ks]; [destruct Hk; congruence|]. unfold best. cbn [grads map]. apply strongest_in.
Qed.
Print Assumptions C31_constant.

Example C31_ex : forall ucast,
  gradient_similarity ucast (PF (two 3 250) (two 3 250)) 255 200 (1/10) = Ok (Fin 1).
Proof.
  intros. destruct (C31_identical ucast (PF (two 3 250) (two 3 250)) 255 200 (1/10) eq_refl) as (b & HB & H & _);
    [left; reflexivity|cbn; lia|lra|].
  rewrite best_two in HB. injection HB as HB _. subst b. cbn [dat two amax fold_left] in H.
  rewrite Rmax_left in H by lra. apply H; lra.
Qed.

(** ** C32 *)

Theorem C32_at_most_one : forall ucast g dr c p br bm,
  shp (first_img g) = shp (second_img g) ->
  length (pair_shape g) = 2%nat \/ length (pair_shape g) = 3%nat -> (0 < size (pair_shape g))%nat ->
  0 < dr -> 0 <= c -> 0 <= p <= 1 ->
  best_gradients ucast g = Ok (br, bm) -> 0 < Rmax (amax (dat br)) (amax (dat bm)) ->
  (forall idx, inb (pair_shape g) idx = true -> Rabs (lum_diff g idx) <= dr) ->
  gradient_similarity ucast g dr c p = Ok NaN \/
  exists v, gradient_similarity ucast g dr c p = Ok (Fin v) /\ v <= 1.
Proof.
  intros ucast g dr c p br bm Hs Hn Hpos Hd Hc Hp HB HM Hl.
  destruct (gsm_unfold ucast g dr c p Hs Hn Hpos) as (b1 & b2 & HB' & _ & _ & _ & _ & ->).
  rewrite HB in HB'. injection HB' as <- <-. unfold gmax. rewrite ext_div_fin by lra.
  set (gx := if Rlt_dec (mean_abs br) (mean_abs bm) then bm else br).
  assert (Hk : 0 <= c / Rmax (amax (dat br)) (amax (dat bm))).
  { unfold Rdiv. apply Rmult_le_pos; [exact Hc|left; apply Rinv_0_lt_compat, HM]. }
  match goal with |- Ok (nanmean ?l) = _ \/ _ => destruct (nanmean_le l 1) as [E|(v & E & Hv)] end.
  - intros x Hx. apply in_map_iff in Hx as (idx & <- & Hi). apply in_indices in Hi.
    destruct (Req_dec (getd gx idx) 0) as [Z0|NZ]; [left; rewrite Z0; apply pixel_flat|right].
    set (k := c / _) in *. destruct (con_le k (Rabs (getd br idx - getd bm idx) / getd gx idx) Hk) as [C1 C2].
    rewrite pixel_value by (try assumption; lra). eexists. split; [reflexivity|].
    apply quality_le; [exact Hp|exact C1|]. apply lum_bounds; [exact Hd|]. apply Hl, Hi.
  - left. rewrite E. reflexivity.
  - right. exists v. rewrite E. auto.
Qed.
Print Assumptions C32_at_most_one.

Lemma sq_div_neg x y : ext_mul (ext_div (Fin (- x)) (Fin y)) (ext_div (Fin (- x)) (Fin y))
  = ext_mul (ext_div (Fin x) (Fin y)) (ext_div (Fin x) (Fin y)).
Proof.
  destruct (Req_dec y 0) as [->|H].
  - rewrite !ext_div_0. destruct (Rsgn_cases x) as [[Hx E1]|[[Hx E1]|[Hx E1]]];
      destruct (Rsgn_cases (- x)) as [[Hy E2]|[[Hy E2]|[Hy E2]]]; rewrite E1, E2; try lra; reflexivity.
  - rewrite !ext_div_fin by exact H. cbn [ext_mul]. f_equal. field. exact H.
Qed.

(** Float images: symmetric, unless two different gradient images have equal mean magnitude. *)
Theorem C32_symmetric : forall ucast r m dr c p br bm,
  shp r = shp m -> length (shp r) = 2%nat \/ length (shp r) = 3%nat -> (0 < size (shp r))%nat ->
  best_gradients ucast (PF r m) = Ok (br, bm) -> (mean_abs br <> mean_abs bm \/ br = bm) ->
  gradient_similarity ucast (PF m r) dr c p = gradient_similarity ucast (PF r m) dr c p.
Proof.
  intros ucast r m dr c p br bm Hs Hn Hpos HB Hne.
  destruct (gsm_unfold ucast (PF r m) dr c p Hs Hn Hpos) as (b1 & b2 & HB1 & _ & _ & _ & _ & ->).
  rewrite HB in HB1. injection HB1 as <- <-.
  destruct (gsm_unfold ucast (PF m r) dr c p) as (c1 & c2 & HB2 & _ & _ & _ & _ & ->).
  - symmetry; exact Hs.
  - cbn [pair_shape]. rewrite <- Hs. exact Hn.
  - cbn [pair_shape]. rewrite <- Hs. exact Hpos.
  - assert (E : c1 = bm /\ c2 = br).
    { revert HB HB2. unfold best_gradients. cbn [pair_shape]. rewrite <- Hs.
      destruct (if (length (shp r) =? 3)%nat then _ else _) as [kk|]; [|discriminate]. cbn [bind].
      unfold gradients. destruct (mapM (correlate Reflect 0 r) kk) as [l1|], (mapM (correlate Reflect 0 m) kk) as [l2|];
        cbn [bind]; try discriminate. destruct l1, l2; try discriminate.
      intros H1 H2. injection H1 as <- <-. injection H2 as <- <-. split; reflexivity. }
    destruct E as [-> ->]. f_equal. cbn [pair_shape]. rewrite <- Hs. f_equal. apply map_ext. intros idx.
    assert (X : (if Rlt_dec (mean_abs bm) (mean_abs br) then br else bm)
              = (if Rlt_dec (mean_abs br) (mean_abs bm) then bm else br)).
    { destruct Hne as [Hne| ->]; [|destruct (Rlt_dec _ _); reflexivity].
      destruct (Rlt_dec (mean_abs bm) (mean_abs br)), (Rlt_dec (mean_abs br) (mean_abs bm)); try reflexivity; lra. }
    rewrite X. unfold gmax. rewrite (Rmax_comm (amax (dat bm))). unfold gsm_pixel. cbv zeta.
    rewrite (Rabs_minus_sym (getd bm idx)). cbn [lum_diff].
    replace (getd m idx - getd r idx) with (- (getd r idx - getd m idx)) by ring. rewrite sq_div_neg. reflexivity.
Qed.
Print Assumptions C32_symmetric.

Ltac two_setup := repeat (destruct (Rlt_dec _ _) as [?L|?L]);
  repeat match goal with
  | H : context [Rabs ?x] |- _ => first [rewrite (Rabs_pos_eq x) in H by lra | rewrite (Rabs_left1 x) in H by lra]
  end; try lra.

(** The value of the pair ([0, 255], [255, 0]) in both orders. *)
Lemma opposite_steps ucast :
  gradient_similarity ucast (PF (two 0 255) (two 255 0)) 255 200 (1/10)
    = Ok (Fin (quality (1/10) (con_sim (200/4080) 2) 0)) /\
  gradient_similarity ucast (PF (two 255 0) (two 0 255)) 255 200 (1/10)
    = Ok (Fin (quality (1/10) (con_sim (200/4080) (-2)) 0)).
Proof.
  assert (A1 : Rabs (16 * (255 - 0)) = 4080) by (rewrite Rabs_pos_eq; lra).
  assert (A2 : Rabs (16 * (0 - 255)) = 4080) by (rewrite Rabs_left1; lra).
  split.
  - pose proof (gsm_two ucast 0 255 255 0 255 200 (1/10)) as H. cbv zeta in H. rewrite A1, A2 in H.
    destruct (Rlt_dec 4080 4080); [lra|].
    replace (Rabs (16 * (255 - 0) - 16 * (0 - 255))) with 8160 in H by (rewrite Rabs_pos_eq; lra).
    rewrite Rmax_left in H by lra.
    replace (16 * (255 - 0)) with 4080 in H by lra. replace (8160 / 4080) with 2 in H by field.
    rewrite H by lra. do 2 f_equal. unfold quality, lum_sim, con_sim. field.
  - pose proof (gsm_two ucast 255 0 0 255 255 200 (1/10)) as H. cbv zeta in H. rewrite A1, A2 in H.
    destruct (Rlt_dec 4080 4080); [lra|].
    replace (Rabs (16 * (0 - 255) - 16 * (255 - 0))) with 8160 in H by (rewrite Rabs_left1; lra).
    rewrite Rmax_right in H by lra.
    replace (16 * (0 - 255)) with (-4080) in H by lra. replace (16 * (255 - 0)) with 4080 in H by lra.
    replace (8160 / -4080) with (-2) in H by field.
    rewrite H by lra. do 2 f_equal. unfold quality, lum_sim, con_sim. field.
Qed.

(** The documented range [0, 1] does not hold below: with the default parameters the images
    [0, 255] and [255, 0] score less than -1. *)
Theorem C32_lower_bound_refuted : exists r m,
  forall ucast, exists v, gradient_similarity ucast (PF r m) 255 200 (1/10) = Ok (Fin v) /\ v < -1.
Proof.
  exists (two 0 255), (two 255 0). intros ucast. destruct (opposite_steps ucast) as [-> _].
  eexists. split; [reflexivity|]. unfold quality, con_sim. lra.
Qed.
Print Assumptions C32_lower_bound_refuted.

(** ... nor above: when every gradient value is negative (grey values falling along the axis) the
    constant is subtracted. [1, 0] against [3, 0]: *)
Theorem C32_upper_bound_refuted : exists r m,
  forall ucast, exists v, gradient_similarity ucast (PF r m) 255 200 (1/10) = Ok (Fin v) /\ 1 < v.
Proof.
  exists (two 1 0), (two 3 0). intros ucast.
  pose proof (gsm_two ucast 1 0 3 0 255 200 (1/10)) as H. cbv zeta in H.
  replace (16 * (0 - 1)) with (-16) in H by lra. replace (16 * (0 - 3)) with (-48) in H by lra.
  rewrite (Rabs_left1 (-16)), (Rabs_left1 (-48)) in H by lra.
  destruct (Rlt_dec (- -16) (- -48)); [|lra]. rewrite Rmax_left in H by lra.
  replace (Rabs (-16 - -48)) with 32 in H by (rewrite Rabs_pos_eq; lra).
  eexists. split; [apply H; lra|]. unfold quality, con_sim, lum_sim. lra.
Qed.
Print Assumptions C32_upper_bound_refuted.

(** The order of the images matters in a tie. *)
Theorem C32_symmetry_refuted : exists r m,
  forall ucast, gradient_similarity ucast (PF r m) 255 200 (1/10) <> gradient_similarity ucast (PF m r) 255 200 (1/10).
Proof.
  exists (two 0 255), (two 255 0). intros ucast. destruct (opposite_steps ucast) as [-> ->].
  intros H. apply (f_equal (fun o => match o with Ok (Fin v) => v | _ => 0 end)) in H. cbv beta iota in H.
  unfold quality, con_sim in H. lra.
Qed.
Print Assumptions C32_symmetry_refuted.

(** Grey values 0, 4 against 0, 2: at most 1, in both orders. *)
Example C32_example : forall ucast, exists v, gradient_similarity ucast (PF (two 0 4) (two 0 2)) 255 200 (1/10) = Ok (Fin v) /\
  gradient_similarity ucast (PF (two 0 2) (two 0 4)) 255 200 (1/10) = Ok (Fin v) /\ v <= 1.
Proof.
  intros ucast. pose proof (gsm_two ucast 0 4 0 2 255 200 (1/10)) as H. cbv zeta in H.
  replace (16 * (4 - 0)) with 64 in H by lra. replace (16 * (2 - 0)) with 32 in H by lra.
  rewrite (Rabs_pos_eq 64), (Rabs_pos_eq 32), (Rabs_pos_eq (64 - 32)) in H by lra.
  destruct (Rlt_dec 64 32); [lra|]. rewrite Rmax_left in H by lra. eexists. split; [apply H; lra|]. split.
  - rewrite <- H by lra. apply (C32_symmetric ucast (two 0 4) (two 0 2) 255 200 (1/10) _ _ eq_refl (or_introl eq_refl) ltac:(cbn; lia) (best_two ucast 0 4 0 2)).
    left. rewrite !mean_abs_two, !Rabs_pos_eq by lra. lra.
  - unfold quality, con_sim, lum_sim. lra.
Qed.

(** ** C33 *)

(** The difference of unsigned pixels. *)
Theorem C33_difference_wraps : forall b r m idx,
  (0 <= kget r idx < 2 ^ Z.of_nat b)%Z -> (0 <= kget m idx < 2 ^ Z.of_nat b)%Z ->
  lum_diff (PU b r m) idx =
  IZR (if (kget m idx <=? kget r idx)%Z then kget r idx - kget m idx else kget r idx - kget m idx + 2 ^ Z.of_nat b).
Proof.
  intros b r m idx Hr Hm. cbn [lum_diff]. f_equal. destruct (Z.leb_spec (kget m idx) (kget r idx)).
  - apply Z.mod_small. lia.
  - rewrite <- (Z.mod_small (kget r idx - kget m idx + 2 ^ Z.of_nat b) (2 ^ Z.of_nat b)) by lia.
    rewrite <- (Z.mul_1_l (2 ^ Z.of_nat b)) at 2. rewrite Z_mod_plus_full. reflexivity.
Qed.
Print Assumptions C33_difference_wraps.

(** The luminance term of float images: same for both orders, falling with the difference. *)
Theorem C33_float_luminance : forall r m idx dr, 0 < dr ->
  lum_diff (PF m r) idx = - lum_diff (PF r m) idx /\
  lum_sim (- lum_diff (PF r m) idx) dr = lum_sim (lum_diff (PF r m) idx) dr /\
  forall d d', Rabs d < Rabs d' -> lum_sim d' dr < lum_sim d dr.
Proof.
  intros r m idx dr Hd. split; [cbn; ring|]. split; [unfold lum_sim; field; lra|].
  intros d d' H. unfold lum_sim.
  replace (d / dr * (d / dr)) with (Rabs d * Rabs d / (dr * dr)) by (rewrite <- Rabs_mult, (Rabs_pos_eq (d*d)) by nra; field; lra).
  replace (d' / dr * (d' / dr)) with (Rabs d' * Rabs d' / (dr * dr)) by (rewrite <- Rabs_mult, (Rabs_pos_eq (d'*d')) by nra; field; lra).
  assert (P : 0 < / (dr * dr)) by (apply Rinv_0_lt_compat; nra).
  pose proof (Rabs_pos d). assert (Rabs d * Rabs d < Rabs d' * Rabs d') by nra.
  unfold Rdiv. nra.
Qed.
Print Assumptions C33_float_luminance.

Lemma amap_getd (a : arr Z) idx : wf a -> inb (shp a) idx = true -> getd (amap IZR a) idx = IZR (kget a idx).
Proof.
  intros W H. destruct (get_wf_some a idx W H) as [v Hv]. unfold getd, kget. rewrite Hv.
  unfold get, amap in *. cbn [shp dat]. rewrite H in *. rewrite nth_error_map, Hv. reflexivity.
Qed.

(** A modified image brighter by [d] grey levels everywhere (no pixel overflows): whenever the two
    scores are numbers, the score is that of a difference of 2^bits - d in one order and of d in the
    other. *)
Theorem C33_brighter : forall ucast b r m d dr c p,
  wf r -> wf m -> shp r = shp m -> length (shp r) = 2%nat \/ length (shp r) = 3%nat -> (0 < size (shp r))%nat -> dr <> 0 ->
  (0 < d < 2 ^ Z.of_nat b)%Z ->
  (forall idx, inb (shp r) idx = true -> kget m idx = (kget r idx + d)%Z) ->
  (gradient_similarity ucast (PU b r m) dr c p = Ok NaN /\ gradient_similarity ucast (PU b m r) dr c p = Ok NaN) \/
  (gradient_similarity ucast (PU b r m) dr c p
     = Ok (Fin (1 - p * ((IZR (2 ^ Z.of_nat b - d) / dr) * (IZR (2 ^ Z.of_nat b - d) / dr)))) /\
   gradient_similarity ucast (PU b m r) dr c p = Ok (Fin (1 - p * ((IZR d / dr) * (IZR d / dr))))).
Proof.
  intros ucast b r m d dr c p Wr Wm Hs Hn Hpos Hdr Hd Hm.
  assert (Hv : forall q, inb (shp r) q = true -> getd (amap IZR m) q = getd (amap IZR r) q + IZR d).
  { intros q Hq. rewrite !amap_getd by (try assumption; rewrite <- Hs; assumption). rewrite Hm by exact Hq. apply plus_IZR. }
  assert (B : exists br, best_gradients ucast (PU b r m) = Ok (br, br) /\ best_gradients ucast (PU b m r) = Ok (br, br)).
  { destruct (shift_gradients ucast (PU b r m) (IZR d) Hs Hn Hv) as [br HB]. exists br. split; [exact HB|].
    destruct (shift_gradients ucast (PU b m r) (- IZR d) (eq_sym Hs)) as [br' HB'].
    { cbn [pair_shape]. rewrite <- Hs. exact Hn. }
    { cbn [pair_shape first_img second_img]. rewrite <- Hs. intros q Hq. rewrite (Hv q Hq). ring. }
    rewrite HB'. revert HB HB'. unfold best_gradients. cbn [pair_shape]. rewrite <- Hs.
    destruct (if (length (shp r) =? 3)%nat then _ else _) as [kk|]; [|discriminate]. cbn [bind].
    unfold gradients. destruct (mapM (correlate Reflect 0 (amap IZR r)) kk) as [l1|],
      (mapM (correlate Reflect 0 (amap IZR m)) kk) as [l2|]; cbn [bind]; try discriminate.
    destruct l1, l2; try discriminate. cbn [map]. intros H1 H2. injection H1 as H1 H1'. injection H2 as H2 H2'.
    congruence. }
  destruct B as (br & B1 & B2).
  assert (L1 : forall idx, inb (pair_shape (PU b r m)) idx = true -> lum_diff (PU b r m) idx = IZR (2 ^ Z.of_nat b - d)).
  { intros idx Hi. cbn [lum_diff]. rewrite (Hm idx Hi). f_equal.
    replace (kget r idx - (kget r idx + d))%Z with (- d)%Z by lia. rewrite Z_mod_nz_opp_full; rewrite Z.mod_small; lia. }
  assert (L2 : forall idx, inb (pair_shape (PU b m r)) idx = true -> lum_diff (PU b m r) idx = IZR d).
  { intros idx Hi. cbn [lum_diff pair_shape] in *. rewrite <- Hs in Hi. rewrite (Hm idx Hi). f_equal.
    replace (kget r idx + d - kget r idx)%Z with d by lia. apply Z.mod_small. lia. }
  rewrite (gsm_same_gradients ucast (PU b r m) dr c p br Hs Hn Hpos Hdr B1 _ L1).
  rewrite (fun a b' c' => gsm_same_gradients ucast (PU b m r) dr c p br a b' c' Hdr B2 _ L2);
    [|symmetry; exact Hs|cbn [pair_shape]; rewrite <- Hs; exact Hn|cbn [pair_shape]; rewrite <- Hs; exact Hpos].
  destruct (Req_EM_T (amax (dat br)) 0); [left; split; reflexivity|].
  destruct (Req_EM_T (c + 2 * amax (dat br)) 0); [left; split; reflexivity|]. right; split; reflexivity.
Qed.
Print Assumptions C33_brighter.

(** The same for float images: the order does not matter. *)
Theorem C33_float_brighter : forall ucast r m d dr c p,
  shp r = shp m -> length (shp r) = 2%nat \/ length (shp r) = 3%nat -> (0 < size (shp r))%nat -> dr <> 0 ->
  (forall idx, inb (shp r) idx = true -> getd m idx = getd r idx + d) ->
  gradient_similarity ucast (PF r m) dr c p = Ok NaN \/
  gradient_similarity ucast (PF r m) dr c p = Ok (Fin (1 - p * ((d / dr) * (d / dr)))).
Proof.
  intros ucast r m d dr c p Hs Hn Hpos Hdr Hm.
  destruct (shift_gradients ucast (PF r m) d Hs Hn Hm) as [br HB].
  rewrite (gsm_same_gradients ucast (PF r m) dr c p br Hs Hn Hpos Hdr HB (- d)).
  - destruct (Req_EM_T _ _); [left; reflexivity|]. destruct (Req_EM_T _ _); [left; reflexivity|]. right.
    do 2 f_equal. field. exact Hdr.
  - intros idx Hi. cbn [lum_diff]. rewrite (Hm idx Hi). ring.
Qed.
Print Assumptions C33_float_brighter.

(** One grey level brighter costs the whole luminance share p; one level darker costs p / 65025. *)
Example C33_ex : IZR (2 ^ Z.of_nat 8 - 1) / 255 = 1 /\
  lum_diff (PU 8 (Arr [1; 1]%nat [7%Z]) (Arr [1; 1]%nat [8%Z])) [0; 0]%nat = 255 /\
  lum_diff (PU 8 (Arr [1; 1]%nat [8%Z]) (Arr [1; 1]%nat [7%Z])) [0; 0]%nat = 1.
Proof. split; [|split]; [cbn; lra|reflexivity|reflexivity]. Qed.

(** ** C34 *)

(** All 32 kernels exist; each kernel's entries sum to zero. *)
Theorem C34_sum_zero : forall name k, In (name, k) all_kernels ->
  exists a, k = Ok a /\ wf a /\ fold_right Z.add 0%Z (dat a) = 0%Z.
Proof.
  assert (G : forallb (fun nk => match snd nk with Ok k => (length (dat k) =? size (shp k))%nat &&
     (fold_right Z.add 0 (dat k) =? 0)%Z | Err _ => false end) all_kernels = true) by (vm_compute; reflexivity).
  intros name k H. rewrite forallb_forall in G. specialize (G _ H). cbn [snd] in G.
  destruct k as [a|]; [|discriminate]. apply andb_true_iff in G as [G1 G2].
  exists a. split; [reflexivity|]. split; [apply Nat.eqb_eq, G1|apply Z.eqb_eq, G2].
Qed.
Print Assumptions C34_sum_zero.

(** Adding a constant to the image changes no response (border modes that repeat image values). *)
Theorem C34_shift_invariant : forall name k mode cval a b v,
  In (name, Ok k) all_kernels -> mode <> Constant -> shp b = shp a ->
  (forall p, inb (shp a) p = true -> getd b p = getd a p + v) ->
  correlate mode cval b k = correlate mode cval a k.
Proof.
  intros name k mode cval a b v H Hm Hs Hb. destruct (kernel_facts name _ H) as (k' & E & _ & Z0 & _). injection E as <-.
  unfold correlate. rewrite Hs. destruct (Nat.eqb_spec (length (shp k)) (length (shp a))) as [Hl|]; [|reflexivity].
  f_equal. unfold tabulate. f_equal. apply map_ext_in. intros idx Hi. apply in_indices in Hi.
  apply (response_shift _ _ _ _ v); auto.
Qed.
Print Assumptions C34_shift_invariant.

(** Wherever the window of a pixel is flat, the response is 0. *)
Theorem C34_flat_window : forall name k mode cval a v idx,
  In (name, Ok k) all_kernels ->
  (forall kidx, inb (shp k) kidx = true -> read mode cval a idx (koff (shp k) kidx) = v) ->
  response mode cval a k idx = 0.
Proof.
  intros name k mode cval a v idx H Hf. destruct (kernel_facts name _ H) as (k' & E & _ & Z0 & _). injection E as <-.
  apply (response_flat mode cval a v); [exact Z0|]. intros kidx Hk _. apply Hf, Hk.
Qed.
Print Assumptions C34_flat_window.

(** Convolution is correlation with the opposite sign. *)
Theorem C34_convolve_negates : forall name k mode cval a c,
  In (name, Ok k) all_kernels -> correlate mode cval a k = Ok c ->
  convolve mode cval a k = Ok (amap Ropp c).
Proof.
  intros name k mode cval a c H Hc. destruct (kernel_facts name _ H) as (k' & E & _ & _ & An & _). injection E as <-.
  unfold convolve, correlate in *. change (shp (flip_all k)) with (shp k).
  destruct (length (shp k) =? length (shp a))%nat; [|discriminate]. injection Hc as <-. f_equal.
  unfold tabulate, amap. cbn [shp dat]. f_equal. rewrite map_map. apply map_ext. intros idx. apply response_flip, An.
Qed.
Print Assumptions C34_convolve_negates.

(** With zero fill at the border, a constant does change the response. *)
Theorem C34_constant_fill_refuted : exists k a b v,
  In ("sobel_kernel_2d_x"%string, Ok k) all_kernels /\ (forall p, inb (shp a) p = true -> getd b p = getd a p + v) /\
  correlate Constant 0 b k <> correlate Constant 0 a k.
Proof.
  destruct (kernel_facts "sobel_kernel_2d_x" sobel_kernel_2d_x) as (k & E & _).
  { unfold all_kernels. cbn [In]. do 24 right. left. reflexivity. }
  exists k, (two 0 0), (two 1 1), 1. split; [|split].
  - rewrite <- E. unfold all_kernels. cbn [In]. do 24 right. left. reflexivity.
  - intros p Hp. apply in_indices in Hp. cbn in Hp. destruct Hp as [<-|[<-|[]]]; cbv -[IZR Rplus]; ring.
  - assert (E' : sobel_kernel_2d_x = Ok k) by exact E. unfold sobel_kernel_2d_x in E'. injection E' as <-.
    unfold correlate. cbn [shp two length Nat.eqb]. intros H. injection H as H _. revert H.
    unfold response, Sum, rsum, two. cbv -[IZR Rplus Rmult Ropp Rminus Rdiv Rinv Rabs not]. lra.
Qed.
Print Assumptions C34_constant_fill_refuted.

Example C34_ex : length all_kernels = 32%nat.
Proof. reflexivity. Qed.

(** ** C77 *)

(** Gain of each kernel along the image axes, axis 0 first. *)
Definition kernel_gain : list (string * list Z) :=
  [("gsm_kernel_z", [0; 0; 56]); ("gsm_kernel_y", [0; 56; 0]); ("gsm_kernel_x", [56; 0; 0]);
   ("gsm_kernel_yz1", [0; 46; 46]); ("gsm_kernel_yz2", [0; 46; -46]);
   ("gsm_kernel_xz1", [46; 0; 46]); ("gsm_kernel_xz2", [-46; 0; 46]);
   ("gsm_kernel_xy1", [46; 46; 0]); ("gsm_kernel_xy2", [-46; 46; 0]);
   ("gsm_kernel_xyz1", [0; 40; -40]); ("gsm_kernel_xyz2", [0; 40; 40]);
   ("gsm_kernel_xyz3", [-40; 0; -40]); ("gsm_kernel_xyz4", [40; 40; 0]);
   ("sobel_kernel_z", [0; 0; 12]); ("sobel_kernel_y", [0; 12; 0]); ("sobel_kernel_x", [12; 0; 0]);
   ("prewitt_kernel_z", [0; 0; 6]); ("prewitt_kernel_y", [0; 6; 0]); ("prewitt_kernel_x", [6; 0; 0]);
   ("scharr_kernel_z", [0; 0; 700]); ("scharr_kernel_y", [0; 700; 0]); ("scharr_kernel_x", [700; 0; 0]);
   ("prewitt_kernel_2d_x", [0; -6]); ("prewitt_kernel_2d_y", [-6; 0]);
   ("sobel_kernel_2d_x", [0; -8]); ("sobel_kernel_2d_y", [-8; 0]);
   ("scharr_kernel_2d_x", [0; -32]); ("scharr_kernel_2d_y", [-32; 0]);
   ("gsm_kernel_2d_y", [32; 0]); ("gsm_kernel_2d_x", [0; 32]);
   ("gsm_kernel_2d_xy", [26; -6]); ("gsm_kernel_2d_yx", [26; 6])]%Z%string.

(** The moment of a kernel is computed once for all kernels. *)
Lemma gains_ok : forallb (fun ng => existsb (fun nk => String.eqb (fst nk) (fst ng) && match snd nk with
    | Ok k => (length (snd ng) =? length (shp k))%nat &&
              forallb (fun j => (moment k j =? nth j (snd ng) 0)%Z) (seq 0 (length (shp k)))
    | Err _ => false end) all_kernels) kernel_gain = true.
Proof. vm_compute. reflexivity. Qed.

(** On an image that is a linear ramp with slopes [c] (one per axis), at every pixel whose window
    lies inside the image, the response of the named kernel is the inner product of the slopes with
    the kernel's gain. *)
Theorem C77_ramp_response : forall name gain, In (name, gain) kernel_gain ->
  exists k, In (name, Ok k) all_kernels /\ length (shp k) = length gain /\
  forall mode cval a c d idx,
    length (shp a) = length gain -> length c = length gain -> inb (shp a) idx = true ->
    (forall j, (j < length gain)%nat -> (nth j (shp k) 0 / 2 <= nth j idx 0)%nat /\
                                   (nth j idx 0 + nth j (shp k) 0 / 2 < nth j (shp a) 0)%nat) ->
    (forall p, inb (shp a) p = true ->
       getd a p = Sum (fun j => nth j c 0 * INR (nth j p 0%nat)) (seq 0 (length gain)) + d) ->
    response mode cval a k idx = Sum (fun j => nth j c 0 * IZR (nth j gain 0%Z)) (seq 0 (length gain)).
Proof.
  intros name gain Hin. pose proof gains_ok as G. rewrite forallb_forall in G. specialize (G _ Hin).
  apply existsb_exists in G as ([n' k] & Hk & G). cbn [fst snd] in G. apply andb_true_iff in G as [En G].
  apply String.eqb_eq in En. subst n'. destruct k as [k|]; [|discriminate]. apply andb_true_iff in G as [El G].
  apply Nat.eqb_eq in El. exists k. split; [exact Hk|]. split; [symmetry; exact El|].
  intros mode cval a c d idx La Lc Hi Hwin Ha.
  destruct (kernel_facts name _ Hk) as (k' & E & _ & Z0 & _ & Odd & _). injection E as <-.
  rewrite (response_ramp mode cval a k idx c d); try assumption; try congruence.
  - rewrite Lc. apply Sum_ext. intros j Hj. rewrite forallb_forall in G. rewrite El in Hj. apply G in Hj.
    apply Z.eqb_eq in Hj. rewrite Hj. reflexivity.
  - intros j Hj. apply Hwin. lia.
  - intros p Hp. rewrite Ha by exact Hp. f_equal. unfold lin. rewrite Lc. apply Sum_ext. intros j _.
    replace (nth j (map Z.of_nat p) 0%Z) with (Z.of_nat (nth j p 0%nat)) by (symmetry; apply (map_nth Z.of_nat p 0%nat)).
    rewrite INR_IZR_INZ. reflexivity.
Qed.
Print Assumptions C77_ramp_response.

Theorem C77_all_kernels : map fst kernel_gain = map fst all_kernels.
Proof. reflexivity. Qed.
Print Assumptions C77_all_kernels.

(** What the gains say. The "xyz" kernels ignore one axis each and none of them has gain along all
    three; the 2D "diagonal" GSM kernels have unequal gains along the two axes. *)
Theorem C77_xyz_blind : forall name gain, In (name, gain) kernel_gain ->
  In 0%Z gain \/ name = "gsm_kernel_2d_xy"%string \/ name = "gsm_kernel_2d_yx"%string.
Proof.
  intros name gain H. unfold kernel_gain in H. cbn [In] in H.
  repeat (destruct H as [H|H]; [injection H as <- <-; cbn [In]; tauto|]). destruct H.
Qed.
Print Assumptions C77_xyz_blind.

Theorem C77_diagonal_refuted : exists gain, In ("gsm_kernel_2d_xy"%string, gain) kernel_gain /\
  Z.abs (nth 0 gain 0%Z) <> Z.abs (nth 1 gain 0%Z).
Proof. exists [26; -6]%Z. split; [unfold kernel_gain; cbn [In]; tauto|discriminate]. Qed.
Print Assumptions C77_diagonal_refuted.

(** A ramp of slope 3 along axis 1 under the 2D x kernel of GSM: 96 at the centre of a 5 x 5 image. *)
Example C77_ex : exists k, In ("gsm_kernel_2d_x"%string, Ok k) all_kernels /\
  response Reflect 0 (tabulate [5; 5]%nat (fun p => 3 * INR (nth 1 p 0%nat) + 7)) k [2; 2]%nat = 96.
Proof.
  destruct (C77_ramp_response "gsm_kernel_2d_x" [0; 32]%Z) as (k & Hk & Hl & H).
  { unfold kernel_gain. cbn [In]. tauto. }
  exists k. split; [exact Hk|].
  assert (Es : shp k = [5; 5]%nat).
  { unfold all_kernels in Hk. cbn [In] in Hk.
    repeat (destruct Hk as [Hk|Hk]; [first [discriminate Hk|injection Hk as Hk; subst k; reflexivity]|]). destruct Hk. }
  rewrite (H Reflect 0 _ [0; 3] 7); try reflexivity.
  - cbn [length seq]. unfold Sum, rsum. cbn [map fold_right nth]. ring.
  - intros j Hj. rewrite Es. cbn [shp tabulate length] in *. destruct j as [|[|]]; cbn; lia.
  - intros p Hp. cbn [shp tabulate] in Hp. rewrite getd_tab by exact Hp. unfold Sum, rsum. cbn [length seq map fold_right nth]. ring.
Qed.
