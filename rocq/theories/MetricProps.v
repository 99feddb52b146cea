(** Properties C19-C24: metric objects, fusion, RMSE and PSNR. *)
From Coq Require Import Reals Lra Permutation.
From Verif Require Import Base NdArray LoadModel NormModel PairModel PairProofs RealSums
  MetricModel MetricProofs.

(** C19 *)
Theorem C19_construction_succeeds_iff : forall c dr nm kw,
  (exists m, construct c dr nm kw = Ok m) <->
  ~ (needs_range c = true /\ dr = PNone) /\ ~ (truthy nm = true /\ truthy dr = false).
Proof. exact construct_iff. Qed.
Print Assumptions C19_construction_succeeds_iff.

Theorem C19_only_value_errors : forall c dr nm kw e, construct c dr nm kw = Err e -> e = ValueError.
Proof. exact construct_err. Qed.
Print Assumptions C19_only_value_errors.

Theorem C19_options : forall c dr nm kw m,
  NoDup (dkeys kw) -> construct c dr nm kw = Ok m ->
  m_score m = SNone /\ m_class m = c /\
  forall k, (k <> "name"%string \/ c <> CSNR) ->
    dget (m_params m) k = match dget kw k with Some v => Some v | None => default_param dr nm k end.
Proof. exact construct_ok. Qed.
Print Assumptions C19_options.

Theorem C19_which_need_a_range : forall c,
  needs_range c = true <-> In c [CPSNR; CSSIM; CUQI; CMSSSIM; CFSIM; CVIFp; CVSI; CMAD; CGSM].
Proof. intros []; simpl; intuition discriminate. Qed.
Print Assumptions C19_which_need_a_range.

(** The name; RMSE, PSNR and FSIM add a c for chromatic metrics, SNR has none. *)
Theorem C19_names : forall c dr nm kw m, NoDup (dkeys kw) -> construct c dr nm kw = Ok m ->
  let chromatic := match dget kw "chromatic" with Some v => truthy v | None => false end in
  m_name m = match c with CSNR => None | _ => Some (
    match c with
    | CRMSE => "RMSE" | CPSNR => "PSNR" | CFSIM => "FSIM" | CSSIM => "SSIM" | CUQI => "UQI" | CMSSSIM => "MS-SSIM" | CVIFp => "VIFp"
    | CVSI => "VSI" | CMAD => "MAD" | CGSM => "GSM" | CCNR => "CNR" | _ => "Q-Measure"
    end ++ (if chromatic && match c with CRMSE | CPSNR | CFSIM => true | _ => false end then "c" else ""))%string end.
Proof.
  intros c dr nm kw m Hn H chromatic. destruct (construct_ok c dr nm kw m Hn H) as (_ & _ & P).
  assert (Hne : "chromatic"%string <> "name"%string) by discriminate. specialize (P "chromatic"%string (or_introl Hne)).
  assert (E : m_name m = name_of c (match dget (m_params m) "chromatic" with Some v => truthy v | None => false end)).
  { unfold construct in H. destruct (needs_range c && _); [discriminate|]. destruct (truthy nm && _); [discriminate|]. injection H as <-. reflexivity. }
  rewrite E, P. assert (T : match match dget kw "chromatic" with Some v => Some v | None => default_param dr nm "chromatic" end with Some v => truthy v | None => false end = chromatic).
  { unfold chromatic. destruct (dget kw "chromatic"); reflexivity. }
  rewrite T. clearbody chromatic. clear. destruct c, chromatic; reflexivity.
Qed.
Print Assumptions C19_names.

(** SNR hands its parameter name, "SNR" if not given, on to the stored parameters. *)
Theorem C19_snr_parameter : forall dr nm kw m, NoDup (dkeys kw) -> construct CSNR dr nm kw = Ok m ->
  dget (m_params m) "name" = Some (match dget kw "name" with Some v => v | None => PText "SNR" end).
Proof.
  intros dr nm kw m Hn H. unfold construct in H. destruct (needs_range CSNR && _); [discriminate|]. destruct (truthy nm && _); [discriminate|].
  injection H as <-. cbn [m_params]. rewrite dget_dupdate by exact (NoDup_class_kwargs CSNR kw Hn). unfold class_kwargs.
  destruct (dget kw "name") eqn:E; [rewrite E; reflexivity|reflexivity].
Qed.
Print Assumptions C19_snr_parameter.

Example C19_example :
  construct CPSNR PNone (PBool false) [] = Err ValueError /\
  construct CRMSE (PInt 0) (PBool true) [] = Err ValueError /\
  match construct CPSNR (PInt 255) (PBool false) [("chromatic", PBool true)]%string with
  | Ok m => m_name m = Some "PSNRc"%string /\ dget (m_params m) "chromatic" = Some (PBool true) /\
            dget (m_params m) "roi" = Some PNone
  | Err _ => False
  end.
Proof. repeat split. Qed.

(** C20. [elt] is the order of the extended reals. *)
Theorem C20_operators_follow_scores : forall m o x y,
  m_score m = SNum x -> value_of o = SNum y -> x <> NaN -> y <> NaN ->
  (op_eq m o = true <-> x = y) /\ (op_ne m o = true <-> x <> y) /\
  (exists b, op_lt m o = Ok b /\ (b = true <-> elt x y)) /\
  (exists b, op_gt m o = Ok b /\ (b = true <-> elt y x)) /\
  (exists b, op_le m o = Ok b /\ (b = true <-> elt x y \/ x = y)) /\
  (exists b, op_ge m o = Ok b /\ (b = true <-> elt y x \/ x = y)).
Proof.
  intros m o x y Hm Ho Hx Hy. unfold op_eq, op_ne, op_lt, op_gt, op_le, op_ge. rewrite Hm, Ho.
  cbn [score_eq score_lt score_le]. split; [apply ext_eqb_spec, Hx|]. split.
  { rewrite negb_true_iff, <- not_true_iff_false, ext_eqb_spec by exact Hx. reflexivity. }
  split; [eexists; split; [reflexivity|apply ext_ltb_spec]|].
  split; [eexists; split; [reflexivity|apply ext_ltb_spec]|].
  split; (eexists; split; [reflexivity|]); rewrite orb_true_iff, ext_ltb_spec, ext_eqb_spec by assumption;
    [reflexivity|]. split; intros [H|H]; auto.
Qed.
Print Assumptions C20_operators_follow_scores.

Theorem C20_order_laws : forall x y z,
  ~ elt x x /\ (elt x y -> elt y z -> elt x z) /\
  (x <> NaN -> y <> NaN -> elt x y \/ x = y \/ elt y x).
Proof. intros x y z. split; [apply elt_irrefl|]. split; [apply elt_trans|apply elt_total]. Qed.
Print Assumptions C20_order_laws.

Theorem C20_unscored : forall m o,
  m_score m = SNone ->
  op_lt m o = Err TypeError /\ op_gt m o = Err TypeError /\
  op_le m o = Err TypeError /\ op_ge m o = Err TypeError /\
  (op_eq m o = true <-> value_of o = SNone) /\ op_ne m o = negb (op_eq m o).
Proof.
  intros m o Hm. unfold op_lt, op_gt, op_le, op_ge, op_eq, op_ne. rewrite Hm.
  destruct (value_of o); repeat split; try reflexivity; intros H; try discriminate; try reflexivity.
Qed.
Print Assumptions C20_unscored.

(** Equality ignores what the metric is. *)
Theorem C20_equality_ignores_class : forall m m',
  m_score m = m_score m' -> m_score m <> SNum NaN -> op_eq m (OMetric m') = true.
Proof.
  intros m m' H Hn. unfold op_eq. cbn [value_of]. rewrite <- H. destruct (m_score m) as [|x|s]; cbn [score_eq].
  - reflexivity.
  - apply ext_eqb_spec; [congruence|reflexivity].
  - apply String.eqb_refl.
Qed.
Print Assumptions C20_equality_ignores_class.

(** With a NaN score (which GSM, MAD and batch runs can produce) a metric is not even equal
    to itself and is not ordered. *)
Theorem C20_nan_refuted : exists m,
  op_eq m (OMetric m) = false /\ op_lt m (OMetric m) = Ok false /\ op_ge m (OMetric m) = Ok false.
Proof. exists (Metric CGSM [] (SNum NaN) None). repeat split. Qed.
Print Assumptions C20_nan_refuted.

Example C20_example :
  let p := Metric CPSNR [] (SNum PInf) None in let s := Metric CSSIM [] (SNum (Fin 1)) None in
  op_gt p (OMetric s) = Ok true /\ op_lt s (OValue SNone) = Err TypeError.
Proof. repeat split. Qed.

(** C21 *)
Theorem C21_weighted_sum : forall ms xs ws,
  map m_score ms = map (fun x => SNum (Fin x)) xs ->
  fuse ms (map Fin ws) =
  if length xs =? length ws then Ok (Fin (Sum (fun p => fst p * snd p)%R (combine xs ws)))
  else Err ValueError.
Proof. exact fuse_fin. Qed.
Print Assumptions C21_weighted_sum.

Theorem C21_bilinear : forall c xs us vs, length us = length vs ->
  fused xs (map (fun p => fst p + snd p)%R (combine us vs)) = (fused xs us + fused xs vs)%R /\
  fused xs (map (Rmult c) us) = (c * fused xs us)%R /\
  fused (map (fun p => fst p + snd p)%R (combine us vs)) xs = (fused us xs + fused vs xs)%R /\
  fused (map (Rmult c) us) xs = (c * fused us xs)%R.
Proof.
  intros c xs us vs H. rewrite !(fused_sym _ xs).
  split; [apply fused_add_w, H|]. split; [apply fused_scale_w|]. split; [apply fused_add_w, H|apply fused_scale_w].
Qed.
Print Assumptions C21_bilinear.

Theorem C21_permutation : forall xs ws xs' ws',
  Permutation (combine xs ws) (combine xs' ws') -> fused xs ws = fused xs' ws'.
Proof. exact fused_perm. Qed.
Print Assumptions C21_permutation.

Theorem C21_convex : forall xs ws lo hi,
  length xs = length ws -> (forall w, In w ws -> 0 <= w)%R -> rsum ws = 1%R ->
  (forall x, In x xs -> lo <= x <= hi)%R -> (lo <= fused xs ws <= hi)%R.
Proof. exact fused_convex. Qed.
Print Assumptions C21_convex.

Theorem C21_unscored : forall ms ws,
  length ms = length ws -> (exists m, In m ms /\ forall x, m_score m <> SNum x) ->
  fuse ms ws = Err TypeError.
Proof.
  intros ms ws Hl (m & Hin & Hm). apply fuse_from_unscored; [rewrite map_length; exact Hl|].
  exists (m_score m). split; [apply in_map, Hin|exact Hm].
Qed.
Print Assumptions C21_unscored.

(** An infinite PSNR with weight 0 does not drop out: the fused score is not a number. *)
Theorem C21_zero_weight_refuted : exists ms ws,
  length ms = length ws /\ nth_error ws 0 = Some (Fin 0) /\ fuse ms ws = Ok NaN.
Proof.
  exists [Metric CPSNR [] (SNum PInf) None; Metric CSSIM [] (SNum (Fin 1)) None], [Fin 0; Fin 1].
  split; [reflexivity|]. split; [reflexivity|]. cbn. unfold Rsgn_ext.
  destruct (Rlt_dec 0 0); [lra|]. destruct (Rlt_dec 0 0); [lra|]. reflexivity.
Qed.
Print Assumptions C21_zero_weight_refuted.

Example C21_example :
  fused [20; 1 / 2]%R [1 / 2; 1 / 2]%R = (10 + 1 / 4)%R /\
  fuse [Metric CPSNR [] (SNum (Fin 20)) None] (map Fin [1; 2]%R) = Err ValueError.
Proof. split; [unfold fused, Sum, rsum; cbn; lra|reflexivity]. Qed.

(** C22. [rms a b] = sqrt (sum of squared differences / number of pixels). *)
Theorem C22_score_is_rms : forall disk ident ub u m ra ma,
  plain m -> dt ra = dt ma -> shape ra = shape ma -> dims_ok (shape ra) -> last (shape ra) 0 <> 3 ->
  pixel_list ra <> [] ->
  rmse_score disk ident ub u m (InArray ra) (InArray ma)
  = Ok (Fin (rms (pixel_list ra) (pixel_list ma)),
        set_score m (SNum (Fin (rms (pixel_list ra) (pixel_list ma))))).
Proof. exact rmse_score_plain. Qed.
Print Assumptions C22_score_is_rms.

Theorem C22_metric : forall a b c,
  a <> [] -> length a = length b -> length b = length c ->
  (0 <= rms a b)%R /\ (rms a b = 0%R <-> a = b) /\ rms a b = rms b a /\
  (rms a c <= rms a b + rms b c)%R.
Proof.
  intros a b c Hne H1 H2. split; [apply rms_nonneg|]. split; [apply rms_zero; assumption|].
  split; [apply rms_sym, H1|apply rms_triangle; assumption].
Qed.
Print Assumptions C22_metric.

Theorem C22_bounded : forall a b d, a <> [] -> length a = length b -> (0 <= d)%R ->
  (forall i x y, nth_error a i = Some x -> nth_error b i = Some y -> Rabs (x - y) <= d)%R ->
  (rms a b <= d)%R.
Proof. exact rms_bound. Qed.
Print Assumptions C22_bounded.

Theorem C22_affine : forall s t a b,
  rms (map (fun x => s * x + t)%R a) (map (fun x => s * x + t)%R b) = (Rabs s * rms a b)%R.
Proof. exact rms_affine. Qed.
Print Assumptions C22_affine.

(** Zero score means identical images, also for integer types (no overflow). *)
Theorem C22_zero_iff_identical_images : forall ra ma,
  (match px ra, px ma with PI _, PI _ | PF _, PF _ => True | _, _ => False end) ->
  dt ra = dt ma -> shape ra = shape ma -> pixel_list ra <> [] ->
  length (pixel_list ra) = length (pixel_list ma) ->
  (rms (pixel_list ra) (pixel_list ma) = 0%R <-> ra = ma).
Proof.
  intros ra ma Hk Ht Hs Hne Hl. rewrite rms_zero by assumption. split.
  - apply pixel_list_inj; assumption.
  - intros ->. reflexivity.
Qed.
Print Assumptions C22_zero_iff_identical_images.

Example C22_example :
  rms [0; 0; 0; 0]%R [2; 2; 2; 2]%R = 2%R /\
  plain (Metric CRMSE [("data_range", PNone); ("normalize", PBool false);
                       ("chromatic", PBool false); ("roi", PNone)]%string SNone None).
Proof.
  split; [|repeat split]. unfold rms, Sum, rsum. cbn [combine map fold_right fst snd length INR].
  replace (_ / _)%R with (2 * 2)%R by field. apply sqrt_square. lra.
Qed.

(** C23 *)
Theorem C23_score_is_psnr : forall disk ident ub u m ra ma d,
  plain m -> dget (m_params m) "data_range" = Some (PInt d) ->
  dt ra = dt ma -> shape ra = shape ma -> dims_ok (shape ra) -> last (shape ra) 0 <> 3 ->
  psnr_score disk ident ub u m (InArray ra) (InArray ma)
  = Ok (psnr (IZR d) (pixel_list ra) (pixel_list ma),
        set_score m (SNum (psnr (IZR d) (pixel_list ra) (pixel_list ma)))).
Proof. exact psnr_score_plain. Qed.
Print Assumptions C23_score_is_psnr.

Theorem C23_infinite_iff_identical : forall dr a b,
  (0 < dr)%R -> a <> [] -> length a = length b -> (psnr dr a b = PInf <-> a = b).
Proof. exact psnr_inf. Qed.
Print Assumptions C23_infinite_iff_identical.

Theorem C23_value : forall dr a b,
  (0 < dr)%R -> a <> [] -> length a = length b -> a <> b ->
  psnr dr a b = Fin (20 * log10 (dr / rms a b)).
Proof. exact psnr_value. Qed.
Print Assumptions C23_value.

Theorem C23_symmetric : forall dr a b,
  (0 < dr)%R -> a <> [] -> length a = length b -> psnr dr a b = psnr dr b a.
Proof. exact psnr_sym. Qed.
Print Assumptions C23_symmetric.

Theorem C23_nonnegative_iff : forall dr a b,
  (0 < dr)%R -> a <> [] -> length a = length b -> a <> b ->
  exists v, psnr dr a b = Fin v /\ (0 <= v <-> rms a b <= dr)%R.
Proof. exact psnr_nonneg. Qed.
Print Assumptions C23_nonnegative_iff.

(** The documented range [0, inf) is left by 16-bit data with the default data range. *)
Theorem C23_lower_bound_refuted : exists a b v,
  (forall x, In x (a ++ b) -> 0 <= x <= 65535)%R /\ psnr 255 a b = Fin v /\ (v < 0)%R.
Proof.
  exists [0]%R, [1000]%R.
  assert (Hr : rms [0]%R [1000]%R = 1000%R).
  { unfold rms, Sum, rsum. cbn [combine map fold_right fst snd length INR].
    replace (_ / _)%R with (1000 * 1000)%R by field. apply sqrt_square. lra. }
  destruct (psnr_nonneg 255 [0]%R [1000]%R) as (v & Hv & Hi);
    [lra|discriminate|reflexivity|intros H; injection H as H; lra|].
  exists v. split; [|split; [exact Hv|]].
  - intros x [<-|[<-|[]]]; lra.
  - rewrite Hr in Hi. destruct (Rle_dec 0 v) as [H|H]; [apply Hi in H; lra|lra].
Qed.
Print Assumptions C23_lower_bound_refuted.

Example C23_example : psnr 255 [0; 0]%R [3; 3]%R = Fin (20 * log10 85) /\ psnr 255 [1; 2]%R [1; 2]%R = PInf.
Proof.
  split.
  - rewrite C23_value; [|lra|discriminate|reflexivity|intros H; injection H as H _; lra].
    replace (rms [0; 0]%R [3; 3]%R) with 3%R; [do 3 f_equal; field|].
    unfold rms, Sum, rsum. cbn [combine map fold_right fst snd length INR]. replace (_ / _)%R with (3 * 3)%R by field. symmetry. apply sqrt_square. lra.
  - apply C23_infinite_iff_identical; [lra|discriminate|reflexivity|reflexivity].
Qed.

(** C24 *)
Theorem C24_same_ranking : forall dr r m1 m2,
  (0 < dr)%R -> r <> [] -> length r = length m1 -> length r = length m2 ->
  elt (psnr dr r m1) (psnr dr r m2) <-> (rms r m2 < rms r m1)%R.
Proof. exact psnr_rank. Qed.
Print Assumptions C24_same_ranking.

Theorem C24_data_range_shifts : forall d1 d2 a b,
  (0 < d1)%R -> (0 < d2)%R -> a <> [] -> length a = length b -> a <> b ->
  exists v, psnr d1 a b = Fin v /\ psnr d2 a b = Fin (v + 20 * log10 (d2 / d1)).
Proof. exact psnr_shift. Qed.
Print Assumptions C24_data_range_shifts.

Theorem C24_ranking_independent_of_range : forall d1 d2 r m1 m2,
  (0 < d1)%R -> (0 < d2)%R -> r <> [] -> length r = length m1 -> length r = length m2 ->
  elt (psnr d1 r m1) (psnr d1 r m2) <-> elt (psnr d2 r m1) (psnr d2 r m2).
Proof. intros. rewrite !psnr_rank by assumption. reflexivity. Qed.
Print Assumptions C24_ranking_independent_of_range.

Example C24_example : elt (psnr 255 [0; 0]%R [3; 3]%R) (psnr 255 [0; 0]%R [1; 1]%R).
Proof.
  apply psnr_rank; [lra|discriminate|reflexivity|reflexivity|].
  unfold rms, Sum, rsum. cbn [combine map fold_right fst snd length INR].
  apply sqrt_lt_1_alt. split; lra.
Qed.
