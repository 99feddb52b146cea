(** C121: scores do not depend on the unit of the grey values. *)
From Coq Require Import Reals Lra Psatz.
From Verif Require Import Base NdArray LoadModel LoadProofs NormModel NormProofs PairModel PairProofs RealSums
  MetricModel MetricProofs SsimModel SsimProofs SsimProps SsimSymProofs GsmModel GsmProofs.
Local Open Scope R_scope.

(** ** SSIM and UQI *)

Lemma setup_scale s kw c dr dr' d : dget kw "cval" = None ->
  as_num (Some dr) 0 = Ok d -> as_num (Some dr') 0 = Ok (c * d) ->
  ssim_setup s (("data_range", dr') :: kw)%string
  = match ssim_setup s (("data_range", dr) :: kw)%string with Ok P => Ok (scale_params c P) | Err e => Err e end /\
  forall P, ssim_setup s (("data_range", dr) :: kw)%string = Ok P -> p_cval P = 0.
Proof.
  intros Hc Hd Hd'. unfold ssim_setup. cbn [dget String.eqb Ascii.eqb Bool.eqb]. rewrite Hc, Hd, Hd'. cbn [as_num bind].
  split.
  - repeat (cbv zeta; match goal with
      | |- bind ?x _ = match bind ?x _ with _ => _ end => destruct x; [cbn [bind]|reflexivity]
      | |- (if ?x then _ else _) = match (if ?x then _ else _) with _ => _ end => destruct x; [reflexivity|]
      end).
    unfold scale_params. cbn [p_ws p_mode p_cval p_pad p_cov p_c1 p_c2 p_al p_be p_ga]. f_equal. f_equal; ring.
  - intros P H.
    repeat (match type of H with
      | bind ?x _ = _ => destruct x; [cbn [bind] in H|discriminate]
      | (if ?x then _ else _) = _ => destruct x; [discriminate|]
      | (let _ := _ in _) = _ => cbv zeta in H
      end).
    apply (f_equal (fun x => match x with Ok y => y | Err _ => P end)) in H. cbv beta iota in H. subst P. reflexivity.
Qed.

(** C121: multiplying both images and the data range by the same number (also a negative one) changes
    nothing, with any settings but a border value ("cval"). *)
Theorem C121_structural_similarity big r m kw c dr dr' d :
  c <> 0 -> dget kw "cval" = None -> as_num (Some dr) 0 = Ok d -> as_num (Some dr') 0 = Ok (c * d) ->
  structural_similarity big (amap (Rmult c) r) (amap (Rmult c) m) (("data_range", dr') :: kw)%string
  = structural_similarity big r m (("data_range", dr) :: kw)%string.
Proof.
  intros Hc Hv Hd Hd'. destruct (setup_scale (shp r) kw c dr dr' d Hv Hd Hd') as [E Hp].
  unfold structural_similarity. change (shp (amap (Rmult c) r)) with (shp r). rewrite E.
  destruct (ssim_setup (shp r) (("data_range", dr) :: kw)%string) as [P|]; [|reflexivity]. cbn [bind].
  change (amap (Rmult c)) with (scale c). rewrite map_scale; [reflexivity|exact Hc|apply Hp; reflexivity].
Qed.
Print Assumptions C121_structural_similarity.

Lemma merge_cons k v v' l kw : merge_kwargs ((k, v') :: l) kw
  = match merge_kwargs ((k, v) :: l) kw with Ok _ => Ok ((k, v') :: l ++ kw) | Err e => Err e end.
Proof.
  unfold merge_kwargs. cbn [dkeys map fst]. destruct (existsb _ (dkeys kw)); reflexivity.
Qed.

Lemma merge_value k v l kw x : merge_kwargs ((k, v) :: l) kw = Ok x -> x = (k, v) :: l ++ kw.
Proof. unfold merge_kwargs. destruct (existsb _ _); [discriminate|]. intros H. injection H as <-. reflexivity. Qed.

Lemma channel_scale c a k : channel (amap (Rmult c) a) k = amap (Rmult c) (channel a k).
Proof.
  change (Arr (removelast (shp a)) (map (fun idx => getd (scale c a) (idx ++ [k])) (indices (removelast (shp a))))
    = Arr (removelast (shp a)) (map (Rmult c) (map (fun idx => getd a (idx ++ [k])) (indices (removelast (shp a)))))).
  f_equal. rewrite map_map. apply map_ext. intros idx. apply getd_scale.
Qed.

(** SSIM.score (grey and colour) and UQI.score. *)
Theorem C121_scores big r m kw c dr dr' d chromatic w :
  c <> 0 -> dget kw "cval" = None -> as_num (Some dr) 0 = Ok d -> as_num (Some dr') 0 = Ok (c * d) ->
  ssim_score big dr' chromatic (amap (Rmult c) r) (amap (Rmult c) m) w kw = ssim_score big dr chromatic r m w kw /\
  uqi_score big dr' (amap (Rmult c) r) (amap (Rmult c) m) kw = uqi_score big dr r m kw.
Proof.
  intros Hc Hv Hd Hd'.
  assert (K : forall (X : dict kwval -> res ext) l,
     (let* kw' := merge_kwargs (("data_range", dr')%string :: l) kw in X kw')
     = match merge_kwargs (("data_range", dr)%string :: l) kw with
       | Ok _ => X (("data_range", dr') :: l ++ kw)%string | Err e => Err e end).
  { intros X l. rewrite (merge_cons "data_range" dr dr'). destruct (merge_kwargs (("data_range", dr)%string :: l) kw); reflexivity. }
  split.
  - unfold ssim_score. change (shp (amap (Rmult c) r)) with (shp r).
    assert (E : forall a b, (let* kw' := merge_kwargs [("data_range", dr')]%string kw in
                  structural_similarity big (amap (Rmult c) a) (amap (Rmult c) b) kw')
              = (let* kw' := merge_kwargs [("data_range", dr)]%string kw in structural_similarity big a b kw')).
    { intros a b. rewrite K. destruct (merge_kwargs [("data_range", dr)]%string kw) as [x|] eqn:Ex; [|reflexivity].
      apply merge_value in Ex. subst x. cbn [bind app]. apply (C121_structural_similarity big a b kw c dr dr' d); assumption. }
    destruct chromatic; [|apply E]. destruct w as [w|]; [|reflexivity].
    assert (L : forall l, mapM (fun k => let* kw' := merge_kwargs [("data_range", dr')]%string kw in
         structural_similarity big (channel (amap (Rmult c) r) k) (channel (amap (Rmult c) m) k) kw') l
       = mapM (fun k => let* kw' := merge_kwargs [("data_range", dr)]%string kw in
         structural_similarity big (channel r k) (channel m k) kw') l).
    { induction l as [|k l IH]; [reflexivity|]. cbn [mapM]. rewrite !channel_scale, E, IH. reflexivity. }
    rewrite L. reflexivity.
  - unfold uqi_score. rewrite K.
    set (l := [("k_1", KInt 0); ("k_2", KInt 0); ("alpha", KInt 1); ("beta", KInt 1); ("gamma", KInt 1);
      ("gaussian_weights", KBool false)]%string).
    destruct (merge_kwargs (("data_range", dr)%string :: l) kw) as [x|] eqn:Ex; [|reflexivity].
    apply merge_value in Ex. subst x. cbn [bind].
    apply (C121_structural_similarity big r m (l ++ kw) c dr dr' d); try assumption.
Qed.
Print Assumptions C121_scores.

(** 8-bit images stretched to 16 bits (255 * 257 = 65535). *)
Example C121_bits big r m w : forall chromatic,
  ssim_score big (KInt 65535) chromatic (amap (Rmult 257) r) (amap (Rmult 257) m) w []
  = ssim_score big (KInt 255) chromatic r m w [].
Proof.
  intros chromatic. apply (C121_scores big r m [] 257 (KInt 255) (KInt 65535) 255); [lra|reflexivity|reflexivity|].
  cbn [as_num]. f_equal. lra.
Qed.

(** ** RMSE and PSNR *)

(** Offsets cancel here; RMSE has the unit of the grey values. *)
Theorem C121_rmse_psnr s t dr a b : s <> 0 -> 0 < dr -> a <> [] -> length a = length b ->
  let f := fun x => s * x + t in
  rms (map f a) (map f b) = Rabs s * rms a b /\ psnr (Rabs s * dr) (map f a) (map f b) = psnr dr a b.
Proof.
  intros Hs Hd Hne Hl f. assert (Hr : rms (map f a) (map f b) = Rabs s * rms a b) by apply rms_affine.
  split; [exact Hr|]. assert (Ha : 0 < Rabs s) by (apply Rabs_pos_lt; exact Hs).
  assert (Hd' : 0 < Rabs s * dr) by (apply Rmult_lt_0_compat; assumption).
  assert (Hne' : map f a <> []) by (destruct a; [congruence|discriminate]).
  assert (Hl' : length (map f a) = length (map f b)) by (rewrite !map_length; exact Hl).
  destruct (list_eqbR a b) eqn:E.
  - apply list_eqbR_eq in E. subst b. rewrite (proj2 (psnr_inf (Rabs s * dr) _ _ Hd' Hne' Hl') eq_refl).
    symmetry. apply (psnr_inf dr a a); auto.
  - assert (Hab : a <> b) by (intros K; apply list_eqbR_eq in K; congruence).
    assert (Hab' : map f a <> map f b).
    { intros K. apply Hab. revert K. clear - Hs. revert b. induction a as [|x a IH]; intros [|y b]; simpl; try discriminate; [reflexivity|].
      intros K. injection K as K1 K2. f_equal; [|apply IH, K2]. unfold f in K1. apply (Rmult_eq_reg_l s); [lra|exact Hs]. }
    rewrite !psnr_value, Hr by assumption. do 2 f_equal.
    assert (Hz : rms a b <> 0) by (intros K; apply Hab, (rms_zero a b Hne Hl), K).
    f_equal. field. split; [exact Hz|lra].
Qed.
Print Assumptions C121_rmse_psnr.

(** ** GSM (float images) *)

Lemma response_scale md s a k idx : response md 0 (scale s a) k idx = s * response md 0 a k idx.
Proof.
  unfold response. rewrite <- Sum_scale. apply Sum_ext. intros kidx _. unfold read.
  change (shp (scale s a)) with (shp a). destruct (read_pos md (shp a) idx (koff (shp k) kidx)); [rewrite getd_scale|]; ring.
Qed.

Lemma correlate_scale md s a k : correlate md 0 (scale s a) k
  = match correlate md 0 a k with Ok g => Ok (scale s g) | Err e => Err e end.
Proof.
  unfold correlate. change (shp (scale s a)) with (shp a). destruct (_ =? _)%nat; [|reflexivity].
  unfold scale at 2, amap, tabulate. cbn [shp dat]. do 2 f_equal. rewrite map_map. apply map_ext. intros idx.
  apply response_scale.
Qed.

Lemma mapM_scale s a ks : mapM (correlate Reflect 0 (scale s a)) ks
  = match mapM (correlate Reflect 0 a) ks with Ok l => Ok (map (scale s) l) | Err e => Err e end.
Proof.
  induction ks as [|k ks IH]; [reflexivity|]. cbn [mapM]. rewrite correlate_scale, IH.
  destruct (correlate Reflect 0 a k); [cbn [bind]|reflexivity]. destruct (mapM (correlate Reflect 0 a) ks); reflexivity.
Qed.

Lemma mean_abs_scale s g : 0 < s -> GsmModel.mean_abs (scale s g) = s * GsmModel.mean_abs g.
Proof.
  intros Hs. unfold GsmModel.mean_abs, scale, amap. cbn [dat]. rewrite map_length, Sum_map.
  rewrite (Sum_ext _ (fun x => s * Rabs x)) by (intros x _; rewrite Rabs_mult, (Rabs_pos_eq s) by lra; reflexivity).
  rewrite Sum_scale. unfold Rdiv. ring.
Qed.

Lemma if_scale s x y (A : Type) (u v : A) : 0 < s ->
  (if Rlt_dec (s * x) (s * y) then u else v) = (if Rlt_dec x y then u else v).
Proof.
  intros Hs. destruct (Rlt_dec (s * x) (s * y)), (Rlt_dec x y); try reflexivity; exfalso; nra.
Qed.

Lemma strongest_scale s : 0 < s -> forall l g, strongest (scale s g) (map (scale s) l) = scale s (strongest g l).
Proof.
  intros Hs. induction l as [|h l IH]; intros g; simpl; [reflexivity|]. rewrite !mean_abs_scale, if_scale by exact Hs.
  rewrite <- IH. f_equal. destruct (Rlt_dec _ _); reflexivity.
Qed.

Lemma amax_scale s l : 0 < s -> l <> [] -> amax (map (Rmult s) l) = s * amax l.
Proof.
  intros Hs. destruct l as [|x l]; [congruence|]. intros _. simpl. revert x. induction l as [|y l IH]; intros x; simpl; [reflexivity|].
  rewrite <- IH. f_equal. apply RmaxRmult. lra.
Qed.

Lemma ext_div_scale s x y : 0 < s -> ext_div (Fin (s * x)) (Fin (s * y)) = ext_div (Fin x) (Fin y).
Proof.
  intros Hs. simpl. destruct (Req_EM_T y 0) as [->|Hy].
  - rewrite Rmult_0_r. destruct (Req_EM_T 0 0); [|congruence]. unfold Rsgn_ext.
    destruct (Rlt_dec 0 (s * x)), (Rlt_dec 0 x); try reflexivity; try (exfalso; nra).
    destruct (Rlt_dec (s * x) 0), (Rlt_dec x 0); try reflexivity; exfalso; nra.
  - destruct (Req_EM_T (s * y) 0) as [E|_]; [exfalso; apply Rmult_integral in E; lra|]. f_equal. field. lra.
Qed.

(** The constant [c] has the unit of the grey values: it has to be scaled as well. *)
Theorem C121_gsm ucast r m dr c p s : 0 < s -> wf r -> wf m -> shp r = shp m ->
  gradient_similarity ucast (PF (amap (Rmult s) r) (amap (Rmult s) m)) (s * dr) (s * c) p
  = gradient_similarity ucast (PF r m) dr c p.
Proof.
  intros Hs Wr Wm Es. change (amap (Rmult s)) with (scale s). unfold gradient_similarity.
  assert (B : best_gradients ucast (PF (scale s r) (scale s m))
     = match best_gradients ucast (PF r m) with Ok (x, y) => Ok (scale s x, scale s y) | Err e => Err e end).
  { unfold best_gradients. cbn [pair_shape]. change (shp (scale s r)) with (shp r).
    destruct (if (length (shp r) =? 3)%nat then KERNELS_3D else if (length (shp r) =? 2)%nat then KERNELS_2D else Err ValueError)
      as [ks|]; [|reflexivity]. cbn [bind gradients]. rewrite !mapM_scale.
    destruct (mapM (correlate Reflect 0 r) ks) as [[|g gs]|]; [| |reflexivity]; cbn [bind];
      destruct (mapM (correlate Reflect 0 m) ks) as [[|h hs]|]; try reflexivity.
    cbn [bind map]. rewrite !strongest_scale by exact Hs. reflexivity. }
  rewrite B. cbn [pair_shape]. change (shp (scale s r)) with (shp r).
  destruct (best_gradients ucast (PF r m)) as [[br bm]|] eqn:HB; [|reflexivity]. cbn [bind].
  destruct (size (shp r) =? 0)%nat eqn:Hz; [reflexivity|]. apply Nat.eqb_neq in Hz.
  assert (Hdat : dat br <> [] /\ dat bm <> []).
  { assert (Hl : length (shp r) = 2%nat \/ length (shp r) = 3%nat).
    { unfold best_gradients in HB. cbn [pair_shape] in HB. destruct (Nat.eqb_spec (length (shp r)) 3); [right; assumption|].
      destruct (Nat.eqb_spec (length (shp r)) 2); [left; assumption|discriminate]. }
    destruct (best_gradients_ok ucast (PF r m) Es Hl) as (ks & Hk & HB'). rewrite HB in HB'. injection HB' as -> ->.
    destruct (best_shape ucast (PF r m) r ks eq_refl (proj1 Hk)) as [S1 W1].
    destruct (best_shape ucast (PF r m) m ks (eq_sym Es) (proj1 Hk)) as [S2 W2].
    cbn [pair_shape first_img second_img] in *.
    split; (eapply size_nonempty; [eassumption|]); [replace (shp _) with (shp r) by (symmetry; exact S1)|replace (shp _) with (shp r) by (symmetry; exact S2)]; lia. }
  change (dat (scale s br)) with (map (Rmult s) (dat br)). change (dat (scale s bm)) with (map (Rmult s) (dat bm)).
  rewrite !amax_scale, RmaxRmult, ext_div_scale by (try lra; apply Hdat). rewrite !mean_abs_scale, if_scale by exact Hs.
  f_equal. f_equal. apply map_ext. intros idx. cbn [lum_diff]. rewrite !getd_scale.
  assert (Ex : getd (if Rlt_dec (GsmModel.mean_abs br) (GsmModel.mean_abs bm) then scale s bm else scale s br) idx
     = s * getd (if Rlt_dec (GsmModel.mean_abs br) (GsmModel.mean_abs bm) then bm else br) idx)
    by (destruct (Rlt_dec _ _); apply getd_scale).
  rewrite Ex. unfold gsm_pixel. cbv zeta. rewrite <- !Rmult_minus_distr_l, Rabs_mult, (Rabs_pos_eq s), !ext_div_scale by lra.
  reflexivity.
Qed.
Print Assumptions C121_gsm.

(** With the default constant 200 the score depends on the unit. *)
Theorem C121_gsm_refuted : exists r m, forall ucast,
  gradient_similarity ucast (PF (amap (Rmult 2) r) (amap (Rmult 2) m)) (2 * 255) 200 (1 / 10)
  <> gradient_similarity ucast (PF r m) 255 200 (1 / 10).
Proof.
  exists (two 0 1), (two 0 2). intros ucast.
  change (amap (Rmult 2) (two 0 1)) with (two (2 * 0) (2 * 1)). change (amap (Rmult 2) (two 0 2)) with (two (2 * 0) (2 * 2)).
  replace (2 * 0) with 0 by lra. replace (2 * 1) with 2 by lra. replace (2 * 2) with 4 by lra. replace (2 * 255) with 510 by lra.
  pose proof (gsm_two ucast 0 1 0 2 255 200 (1/10)) as H1. cbv zeta in H1.
  pose proof (gsm_two ucast 0 2 0 4 510 200 (1/10)) as H2. cbv zeta in H2.
  replace (16 * (1 - 0)) with 16 in H1 by lra. replace (16 * (2 - 0)) with 32 in H1, H2 by lra. replace (16 * (4 - 0)) with 64 in H2 by lra.
  rewrite (Rabs_pos_eq 16), (Rabs_pos_eq 32) in H1 by lra. rewrite (Rabs_pos_eq 32), (Rabs_pos_eq 64) in H2 by lra.
  destruct (Rlt_dec 16 32) in H1; [|lra]. destruct (Rlt_dec 32 64) in H2; [|lra].
  rewrite Rmax_right in H1 by lra. rewrite Rmax_right in H2 by lra.
  replace (Rabs (16 - 32)) with 16 in H1 by (rewrite Rabs_left1; lra). replace (Rabs (32 - 64)) with 32 in H2 by (rewrite Rabs_left1; lra).
  rewrite H1, H2 by lra. intros E. apply (f_equal (fun o => match o with Ok (Fin v) => v | _ => 0 end)) in E. cbv beta iota in E.
  unfold quality, con_sim, lum_sim in E. lra.
Qed.
Print Assumptions C121_gsm_refuted.

(** A common offset is not ignored by SSIM: constant images 0 and 100, and 100 and 200. *)
Theorem C121_offset_refuted : exists r m, forall big,
  ssim_score big (KInt 255) false (amap (Rplus 100) r) (amap (Rplus 100) m) None []
  <> ssim_score big (KInt 255) false r m None [].
Proof.
  exists (const_img [11; 11]%nat 0), (const_img [11; 11]%nat 100). intros big.
  assert (A : forall v, amap (Rplus 100) (const_img [11; 11]%nat v) = const_img [11; 11]%nat (100 + v)).
  { intros v. reflexivity. }
  rewrite !A.
  assert (V : forall a b, ssim_score big (KInt 255) false (const_img [11; 11]%nat a) (const_img [11; 11]%nat b) None []
     = Ok (Fin ((2 * a * b + (255 / 100) * (255 / 100)) / (a * a + b * b + (255 / 100) * (255 / 100))))).
  { intros a b. unfold ssim_score, merge_kwargs. cbn [dkeys map existsb bind app].
    destruct (C28_accepted big (const_img [11; 11]%nat a) (const_img [11; 11]%nat b)
      (1 / 100) (3 / 100) (15 / 10) None true "reflect" 0 1 1 1 255) as [v Hv]; try lra.
    { rewrite default_window. exists 5%Z. reflexivity. }
    { rewrite default_window. intros n [<-|[<-|[]]]; lia. }
    { left; reflexivity. } { discriminate. } { right; auto. }
    assert (Hv' : structural_similarity big (const_img [11; 11]%nat a) (const_img [11; 11]%nat b)
      [("data_range", KInt 255)]%string = Ok (Fin v)) by exact Hv.
    rewrite Hv'. f_equal. destruct (ssim_const _ _ _ _ _ _ Hv') as (P & HP & ->); [discriminate|reflexivity|].
    change (ssim_setup [11; 11]%nat (opts (1 / 100) (3 / 100) (15 / 10) None true "reflect" 0 1 1 1 255) = Ok P) in HP.
    rewrite setup_opts in HP by lra. cbv zeta in HP. rewrite default_window in HP.
    change (existsb (fun n => (Z.of_nat n <? 11)%Z) [11; 11]%nat) with false in HP.
    change (Z.even 11) with false in HP. cbv iota in HP. cbn [andb bind] in HP.
    apply bind_ok in HP as (md & _ & HP). injection HP as <-. cbn [p_al p_c1].
    change 1 with (IZR 1). rewrite Rtrunc_IZR by lia. unfold zpow. change (0 <=? 1)%Z with true. cbv iota.
    change (Z.to_nat 1) with 1%nat. rewrite pow_1. f_equal. unfold nan1.
    destruct (Req_EM_T _ 0) as [E|_]; [exfalso; nra|]. f_equal; lra. }
  rewrite !V. intros E. apply (f_equal (fun o => match o with Ok (Fin v) => v | _ => 0 end)) in E. cbv beta iota in E. lra.
Qed.
Print Assumptions C121_offset_refuted.
