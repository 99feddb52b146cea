(** C135: the ranges of the scores given in the table of README.md (lines 77-89), for PSNR, RMSE, MAD,
    CNR and SNR. SSIM, UQI and GSM: C27, C32, C134. *)
From Coq Require Import Reals Lra Lia.
From Verif Require Import Base NdArray LoadModel NormModel PairModel PairProofs RealSums MetricModel MetricProofs MetricProps
  SsimModel GsmModel MadModel MadProofs RegionModel RegionProofs RegionProps NrModel NrProofs NrProps.

Local Open Scope R_scope.

Notation rmsd := MetricProofs.rms.

(** ** PSNR and RMSE *)

Definition within (d : R) (l : list R) : Prop := forall x, In x l -> 0 <= x <= d.
(** Black where the other image is white and vice versa. *)
Definition opposite (d : R) (a b : list R) : Prop :=
  forall i x y, nth_error a i = Some x -> nth_error b i = Some y -> Rabs (x - y) = d.

Lemma within_diff d a b i x y : within d a -> within d b ->
  nth_error a i = Some x -> nth_error b i = Some y -> Rabs (x - y) <= d.
Proof.
  intros Ha Hb Hx Hy. pose proof (Ha _ (nth_error_In _ _ Hx)). pose proof (Hb _ (nth_error_In _ _ Hy)).
  apply Rabs_le. lra.
Qed.

Lemma rmsd_le d a b : 0 <= d -> a <> [] -> length a = length b -> within d a -> within d b -> rmsd a b <= d.
Proof. intros Hd Hne Hl Ha Hb. apply rms_bound; try assumption. intros i x y. apply within_diff; assumption. Qed.

Lemma rmsd_sq a b : a <> [] ->
  rmsd a b * rmsd a b = Sum (fun p : R * R => (fst p - snd p) * (fst p - snd p)) (combine a b) / INR (length a).
Proof.
  intros Hne. unfold MetricProofs.rms. apply sqrt_sqrt. pose proof (sumsq_nonneg a b).
  apply Rmult_le_pos; [assumption|]. left. apply Rinv_0_lt_compat, MetricProofs.INR_len_pos, Hne.
Qed.

Lemma rmsd_eq d a b : 0 <= d -> a <> [] -> length a = length b -> within d a -> within d b ->
  (rmsd a b = d <-> opposite d a b).
Proof.
  intros Hd Hne Hl Ha Hb. pose proof (MetricProofs.INR_len_pos a Hne) as Hn.
  assert (Lc : length (combine a b) = length a) by (rewrite combine_length, <- Hl; apply Nat.min_id).
  assert (E : Sum (fun p : R * R => d * d - (fst p - snd p) * (fst p - snd p)) (combine a b) =
              INR (length a) * (d * d - rmsd a b * rmsd a b)).
  { rewrite Sum_minus, Sum_const, Lc, (rmsd_sq a b Hne). field. lra. }
  assert (P : forall p : R * R, In p (combine a b) -> 0 <= d * d - (fst p - snd p) * (fst p - snd p)).
  { intros p Hp. destruct (in_combine_nth _ _ _ Hp) as (i & H1 & H2).
    pose proof (within_diff d a b i _ _ Ha Hb H1 H2) as H.
    assert (Rsqr (fst p - snd p) <= Rsqr d) by (apply Rsqr_le_abs_1; rewrite (Rabs_right d) by lra; exact H).
    unfold Rsqr in *. lra. }
  split.
  - intros H i x y Hx Hy. rewrite H in E. replace (INR (length a) * (d * d - d * d)) with 0 in E by ring.
    assert (Hin : In (x, y) (combine a b)).
    { clear - Hx Hy. revert a b Hx Hy. induction i as [|i IH]; intros [|u a] [|v b]; cbn; intros Hx Hy; try discriminate.
      - injection Hx as ->. injection Hy as ->. left. reflexivity.
      - right. apply IH; assumption. }
    pose proof (Sum_zero_inv _ _ P E (x, y) Hin) as Z. cbn [fst snd] in Z.
    assert (Q : Rsqr (x - y) = Rsqr d) by (unfold Rsqr; lra). apply Rsqr_eq_abs_0 in Q. rewrite Q. apply Rabs_right. lra.
  - intros H. assert (Z : Sum (fun p : R * R => d * d - (fst p - snd p) * (fst p - snd p)) (combine a b) = 0).
    { rewrite (Sum_ext _ (fun _ => 0)); [apply Sum_zero|]. intros p Hp. destruct (in_combine_nth _ _ _ Hp) as (i & H1 & H2).
      specialize (H i _ _ H1 H2). assert (Q : Rsqr (fst p - snd p) = Rsqr d).
      { rewrite (Rsqr_abs (fst p - snd p)), H. reflexivity. }
      unfold Rsqr in Q. lra. }
    rewrite Z in E. assert (D : d * d - rmsd a b * rmsd a b = 0).
    { apply (Rmult_eq_reg_l (INR (length a))); lra. }
    pose proof (rms_nonneg a b). apply Rsqr_inj; unfold Rsqr; lra.
Qed.

(** RMSE of images with grey values between 0 and [d] is between 0 and [d]; [d] is reached exactly when
    every pixel is black in one image and white in the other. *)
Theorem C135_rmse : forall disk ident ub u m ra ma d,
  plain m -> dt ra = dt ma -> shape ra = shape ma -> dims_ok (shape ra) -> last (shape ra) 0%nat <> 3%nat ->
  pixel_list ra <> [] -> length (pixel_list ra) = length (pixel_list ma) ->
  0 <= d -> within d (pixel_list ra) -> within d (pixel_list ma) ->
  exists v, rmse_score disk ident ub u m (InArray ra) (InArray ma) = Ok (Fin v, set_score m (SNum (Fin v))) /\
    0 <= v <= d /\ (v = d <-> opposite d (pixel_list ra) (pixel_list ma)).
Proof.
  intros disk ident ub u m ra ma d Hp Ht Hs Hd Hl Hne Hlen H0 Ha Hb. eexists.
  split; [apply C22_score_is_rms; assumption|]. split.
  - split; [apply rms_nonneg|apply rmsd_le; assumption].
  - apply rmsd_eq; assumption.
Qed.
Print Assumptions C135_rmse.

(** PSNR of two such images with the data range [d] is not negative; it is 0 exactly in that case. *)
Theorem C135_psnr : forall disk ident ub u m ra ma d,
  plain m -> dget (m_params m) "data_range" = Some (PInt d) -> (0 < d)%Z ->
  dt ra = dt ma -> shape ra = shape ma -> dims_ok (shape ra) -> last (shape ra) 0%nat <> 3%nat ->
  pixel_list ra <> [] -> length (pixel_list ra) = length (pixel_list ma) ->
  within (IZR d) (pixel_list ra) -> within (IZR d) (pixel_list ma) ->
  exists s, psnr_score disk ident ub u m (InArray ra) (InArray ma) = Ok (s, set_score m (SNum s)) /\
    (s = PInf <-> pixel_list ra = pixel_list ma) /\
    (s = PInf \/ exists v, s = Fin v /\ 0 <= v /\ (v = 0 <-> opposite (IZR d) (pixel_list ra) (pixel_list ma))).
Proof.
  intros disk ident ub u m ra ma d Hp Hr Hd Ht Hs Hdim Hl Hne Hlen Ha Hb. apply IZR_lt in Hd.
  eexists. split; [apply (C23_score_is_psnr disk ident ub u m ra ma d); assumption|]. set (a := pixel_list ra) in *. set (b := pixel_list ma) in *.
  pose proof (C23_infinite_iff_identical (IZR d) a b Hd Hne Hlen) as HI. split; [exact HI|].
  destruct (list_eqbR a b) eqn:E; [left; apply HI, list_eqbR_eq, E|right].
  assert (N : a <> b) by (intros H; apply list_eqbR_eq in H; congruence).
  rewrite (psnr_value (IZR d) a b) by assumption. eexists. split; [reflexivity|].
  assert (R0 : 0 < rmsd a b).
  { pose proof (rms_nonneg a b). assert (rmsd a b <> 0) by (intros Z; apply MetricProofs.rms_zero in Z; auto). lra. }
  pose proof (rmsd_le (IZR d) a b ltac:(lra) Hne Hlen Ha Hb) as R1.
  assert (Q : 1 <= IZR d / rmsd a b).
  { apply (Rmult_le_reg_r (rmsd a b)); [exact R0|]. unfold Rdiv. rewrite Rmult_assoc, Rinv_l by lra. lra. }
  rewrite <- (rmsd_eq (IZR d) a b) by (assumption || lra).
  assert (L : 0 <= log10 (IZR d / rmsd a b)).
  { rewrite <- log10_1. destruct (Req_dec (IZR d / rmsd a b) 1) as [-> |H]; [lra|]. left. apply log10_lt; lra. }
  split; [lra|]. split; intros H.
  - assert (Z : ~ 1 < IZR d / rmsd a b).
    { intros G. apply log10_lt in G; [|lra..]. rewrite log10_1 in G. lra. }
    assert (F : IZR d / rmsd a b = 1) by lra. apply (f_equal (fun x => x * rmsd a b)) in F. unfold Rdiv in F.
    rewrite Rmult_assoc, Rinv_l in F by lra. lra.
  - rewrite H. unfold Rdiv. rewrite Rinv_r, log10_1 by lra. ring.
Qed.
Print Assumptions C135_psnr.

(** Different images with integer grey values: PSNR does not exceed 20 log10 d + 10 log10 n for n pixels.
    The bound is attained by images that differ by 1 in one pixel. *)
Lemma rmsd_integer a b : a <> [] -> length a = length b -> map IZR a <> map IZR b ->
  1 <= rmsd (map IZR a) (map IZR b) * rmsd (map IZR a) (map IZR b) * INR (length a).
Proof.
  intros Hne Hl Hab. assert (Hm : map IZR a <> []) by (destruct a; [contradiction|discriminate]).
  pose proof (MetricProofs.INR_len_pos _ Hm) as Hn. rewrite rmsd_sq by exact Hm. rewrite map_length in *.
  replace (_ / INR (length a) * INR (length a)) with
    (Sum (fun p : R * R => (fst p - snd p) * (fst p - snd p)) (combine (map IZR a) (map IZR b))) by (field; lra).
  clear Hn Hm Hne. revert b Hl Hab. induction a as [|x a IH]; intros [|y b] Hl Hab; try discriminate; [contradiction|].
  injection Hl as Hl. cbn [map combine]. rewrite Sum_cons. cbn [fst snd].
  pose proof (sumsq_nonneg (map IZR a) (map IZR b)) as P. destruct (Z.eq_dec x y) as [->|D].
  - assert (map IZR a <> map IZR b) by (intros H; apply Hab; cbn [map]; rewrite H; reflexivity).
    specialize (IH b Hl H). nra.
  - rewrite <- minus_IZR, <- mult_IZR. assert (1 <= (x - y) * (x - y))%Z by nia. apply IZR_le in H. lra.
Qed.

Theorem C135_psnr_integer : forall d a b, (0 < d)%Z -> a <> [] -> length a = length b -> a <> b ->
  exists v, psnr (IZR d) (map IZR a) (map IZR b) = Fin v /\ v <= 20 * log10 (IZR d) + 10 * log10 (INR (length a)) /\
    (forall i l1 l2 x y, a = l1 ++ x :: l2 -> b = l1 ++ y :: l2 -> length l1 = i -> (Z.abs (x - y) = 1)%Z ->
       v = 20 * log10 (IZR d) + 10 * log10 (INR (length a))).
Proof.
  intros d a b Hd Hne Hl Hab. apply IZR_lt in Hd.
  assert (Hm : map IZR a <> []) by (destruct a; [contradiction|discriminate]).
  assert (Hm2 : map IZR a <> map IZR b).
  { intros H. apply Hab. clear - H. revert b H. induction a as [|x a IH]; intros [|y b] H; try discriminate; [reflexivity|].
    injection H as H1 H2. apply eq_IZR in H1. f_equal; auto. }
  assert (Hl2 : length (map IZR a) = length (map IZR b)) by (rewrite !map_length; exact Hl).
  rewrite psnr_value by assumption. eexists. split; [reflexivity|].
  set (r := rmsd (map IZR a) (map IZR b)) in *. assert (R0 : 0 < r).
  { pose proof (rms_nonneg (map IZR a) (map IZR b)). assert (r <> 0) by (intros Z; apply MetricProofs.rms_zero in Z; auto). fold r in H. lra. }
  pose proof (MetricProofs.INR_len_pos a Hne) as Hn. pose proof (rmsd_integer a b Hne Hl Hm2) as K. fold r in K.
  assert (E : 20 * log10 (IZR d / r) = 20 * log10 (IZR d) + 10 * log10 (INR (length a)) - 10 * log10 (r * r * INR (length a))).
  { unfold log10. pose proof ln10_pos. assert (0 < r * r) by (apply Rmult_lt_0_compat; assumption).
    unfold Rdiv at 2. rewrite (ln_mult (IZR d) (/ r)), ln_Rinv by (assumption || (apply Rinv_0_lt_compat; assumption)).
    rewrite (ln_mult (r * r) _), (ln_mult r r) by assumption. field. lra. }
  rewrite E. split.
  - assert (0 <= log10 (r * r * INR (length a))); [|lra]. rewrite <- log10_1.
    destruct (Req_dec (r * r * INR (length a)) 1) as [-> |H]; [lra|]. left. apply log10_lt; lra.
  - intros i l1 l2 x y Ea Eb _ Hxy. assert (S1 : r * r * INR (length a) = 1); [|rewrite S1, log10_1; lra].
    unfold r. rewrite rmsd_sq by exact Hm. rewrite map_length.
    replace (_ / INR (length a) * INR (length a)) with
      (Sum (fun p : R * R => (fst p - snd p) * (fst p - snd p)) (combine (map IZR a) (map IZR b))) by (field; lra).
    rewrite Ea, Eb. clear - Hxy. assert (Z : forall l : list Z, Sum (fun p : R * R => (fst p - snd p) * (fst p - snd p)) (combine (map IZR l) (map IZR l)) = 0).
    { induction l as [|z l IH]; [reflexivity|]. cbn [map combine]. rewrite Sum_cons, IH. cbn [fst snd]. ring. }
    induction l1 as [|z l1 IH]; cbn [app map combine]; rewrite Sum_cons; cbn [fst snd].
    + rewrite Z, <- minus_IZR, <- mult_IZR. replace ((x - y) * (x - y))%Z with 1%Z by nia. lra.
    + rewrite IH. ring.
Qed.
Print Assumptions C135_psnr_integer.

(** With real grey values there is no largest finite score. *)
Theorem C135_psnr_unbounded : forall d V, 0 < d -> exists x v, 0 < x <= d /\ psnr d [0] [x] = Fin v /\ V < v.
Proof.
  intros d V Hd. set (W := Rmax 0 V + 1). assert (HW : 0 < W /\ V < W) by (unfold W; pose proof (Rmax_l 0 V); pose proof (Rmax_r 0 V); lra).
  set (x := d * exp (- (W * ln 10 / 20))). pose proof (exp_pos (- (W * ln 10 / 20))) as He. pose proof ln10_pos as L.
  assert (H1 : exp (- (W * ln 10 / 20)) <= 1).
  { rewrite <- exp_0. left. apply exp_increasing. assert (0 < W * ln 10 / 20); [|lra]. apply Rdiv_lt_0_compat; [apply Rmult_lt_0_compat|]; lra. }
  assert (Hx : 0 < x <= d) by (unfold x; split; [apply Rmult_lt_0_compat; assumption|]; nra).
  assert (Hr : rmsd [0] [x] = x).
  { unfold MetricProofs.rms, Sum, rsum. cbn [combine map fold_right fst snd length INR].
    replace (_ / _) with (x * x) by field. apply sqrt_square. lra. }
  exists x, (20 * log10 (d / x)). split; [exact Hx|]. split.
  - rewrite psnr_value; [rewrite Hr; reflexivity|exact Hd|discriminate|reflexivity|]. intros H. injection H as H. lra.
  - unfold log10. replace (d / x) with (/ exp (- (W * ln 10 / 20))) by (unfold x; field; lra).
    rewrite ln_Rinv, ln_exp by exact He. replace (20 * (- - (W * ln 10 / 20) / ln 10)) with W by (field; lra). lra.
Qed.
Print Assumptions C135_psnr_unbounded.

Example C135_psnr_ex : psnr 255 [0; 255] [255; 0] = Fin 0 /\
  psnr 255 (map IZR [7; 7; 7; 7]%Z) (map IZR [7; 7; 8; 7]%Z) = Fin (20 * log10 255 + 10 * log10 4).
Proof.
  split.
  - rewrite psnr_value; [|lra|discriminate|reflexivity|intros H; injection H as H _; lra].
    assert (Hr : rmsd [0; 255] [255; 0] = 255).
    { unfold MetricProofs.rms, Sum, rsum. cbn [combine map fold_right fst snd length INR].
      replace (_ / _) with (255 * 255) by field. apply sqrt_square. lra. }
    rewrite Hr. unfold Rdiv. rewrite Rinv_r, log10_1 by lra. f_equal. ring.
  - destruct (C135_psnr_integer 255 [7; 7; 7; 7]%Z [7; 7; 8; 7]%Z) as (v & E & _ & H); [lia|discriminate|reflexivity|discriminate|].
    rewrite E. f_equal. rewrite (H 2%nat [7; 7]%Z [7]%Z 7%Z 8%Z) by reflexivity. cbn [length INR]. do 2 f_equal. f_equal. ring.
Qed.

(** ** MAD *)

Definition nonneg (x : ext) : Prop := match x with Fin v => 0 <= v | PInf | NaN => True | NInf => False end.

Lemma nonneg_pow x y : nonneg (ext_pow x y).
Proof.
  unfold ext_pow. destruct x as [x| | |], y as [y| | |]; cbn [nonneg]; auto;
    repeat match goal with |- context [Req_EM_T ?a ?b] => destruct (Req_EM_T a b) | |- context [Rlt_dec ?a ?b] => destruct (Rlt_dec a b) end;
    cbn [nonneg]; auto; try lra. unfold Rpower. left. apply exp_pos.
Qed.
Lemma nonneg_mul x y : nonneg x -> nonneg y -> nonneg (ext_mul x y).
Proof.
  destruct x as [x| | |], y as [y| | |]; cbn [nonneg ext_mul]; auto; intros; unfold Rsgn_ext;
    repeat match goal with |- context [Rlt_dec ?a ?b] => destruct (Rlt_dec a b) end; cbn [nonneg]; auto; try lra.
  apply Rmult_le_pos; assumption.
Qed.
Lemma nonneg_rms l : nonneg (MadModel.rms l).
Proof.
  unfold MadModel.rms. set (e := ext_sqrt _). assert (He : nonneg e).
  { unfold e, ext_sqrt. destruct (fold_left _ _ _) as [x| | |]; cbn [nonneg]; auto. destruct (Rlt_dec x 0); cbn [nonneg]; auto. apply sqrt_pos. }
  pose proof (sqrt_pos (INR (length l))) as Hs. set (s := sqrt (INR (length l))) in *. clearbody s e.
  destruct e as [x| | |]; cbn [nonneg] in He; try contradiction; unfold ext_div, Rsgn_ext;
    repeat match goal with |- context [Req_EM_T ?a ?b] => destruct (Req_EM_T a b) | |- context [Rlt_dec ?a ?b] => destruct (Rlt_dec a b) end;
    cbn [nonneg]; auto; try lra.
  apply Rmult_le_pos; [assumption|]. left. apply Rinv_0_lt_compat. lra.
Qed.

(** Whatever the images, the two filters, the contents of new memory and the parameters: the indices and
    MAD are not negative, or not a number. *)
Theorem C135_mad : forall filt gabor junk junk3 ho lo dr bs ov beta_1 beta_2 t1 t2 r m s,
  most_apparent_distortion filt gabor junk junk3 ho lo dr bs ov beta_1 beta_2 t1 t2 r m = Ok s -> nonneg s.
Proof.
  intros until s. unfold most_apparent_distortion. destruct (negb _); [discriminate|].
  destruct (stride_of _ _ _ _) as [[b st]|]; cbn [bind]; [|discriminate].
  destruct (high_quality _ _ _ _ _ _ _ _) as [x|]; cbn [bind]; [|discriminate].
  destruct (low_quality _ _ _ _ _ _ _) as [y|]; cbn [bind]; [|discriminate].
  intros H. injection H as <-. unfold MadModel.combine_indices. apply nonneg_mul; apply nonneg_pow.
Qed.
Print Assumptions C135_mad.

Theorem C135_mad_indices : forall filt gabor junk junk3 ho lo dr b s r m x,
  (high_quality filt junk ho dr b s r m = Ok x -> nonneg x) /\
  (low_quality gabor junk3 lo b s r m = Ok x -> nonneg x).
Proof.
  intros filt gabor junk junk3 ho lo dr b s r m x. split.
  - unfold high_quality. cbv zeta. intros H.
    repeat match type of H with context [bind ?u _] => destruct u; cbn [bind] in H; [|discriminate] end.
    injection H as <-. apply nonneg_mul; [apply nonneg_rms|]. cbn [nonneg]. lra.
  - unfold low_quality. cbv zeta. intros H. destruct (negb _); [discriminate|]. destruct (_ =? 0)%nat; [discriminate|].
    match type of H with context [bind ?u _] => destruct u; cbn [bind] in H; [|discriminate] end.
    injection H as <-. apply nonneg_rms.
Qed.
Print Assumptions C135_mad_indices.

(** ** CNR and SNR *)

(** CNR is positive exactly when the signal region is brighter on average than the background region. *)
Theorem C135_cnr : forall mk nobg img bc sc r kind it, wf img -> grey (shp img) ->
  length bc = length (shp img) -> length sc = length (shp img) -> (0 < r)%Z ->
  Forall (fun z => r <= Z.abs z)%Z bc -> Forall (fun z => r <= Z.abs z)%Z sc -> kind <> KUnknown ->
  exists sg bg, selected img (in_region kind (shp img) sc r) sg /\ selected img (in_region kind (shp img) bc r) bg /\
    (sg <> [] -> bg <> [] -> deviation bg <> 0 ->
     exists v, cnr mk nobg img (map CInt bc) (map CInt sc) (RInt r) kind false it = Ok (Fin v) /\
       (0 < v <-> mean bg < mean sg) /\ (v < 0 <-> mean sg < mean bg)).
Proof.
  intros mk nobg img bc sc r kind it Hwf Hg Lb Ls Hr Hb Hs Hk.
  destruct (C45_value mk nobg img bc sc r kind it) as (sg & bg & S1 & S2 & _ & H); try assumption.
  exists sg, bg. split; [exact S1|]. split; [exact S2|]. intros N1 N2 D. exists ((mean sg - mean bg) / deviation bg).
  split; [apply H; assumption|].
  assert (P : 0 < deviation bg) by (pose proof (std0_nonneg bg) as P; rewrite deviation_eq in P; lra).
  pose proof (Rinv_0_lt_compat _ P) as P2. unfold Rdiv.
  split; split; intros Q.
  - destruct (Rlt_dec (mean bg) (mean sg)); [assumption|]. exfalso. assert (mean sg - mean bg <= 0) by lra. nra.
  - apply Rmult_lt_0_compat; lra.
  - destruct (Rlt_dec (mean sg) (mean bg)); [assumption|]. exfalso. assert (0 <= mean sg - mean bg) by lra. nra.
  - nra.
Qed.
Print Assumptions C135_cnr.

(** The documented lower bound 0 fails for a signal darker than the background. *)
Theorem C135_cnr_refuted : exists img bc sc r v, (forall x, In x (dat img) -> 0 <= x <= 255) /\ wf img /\ grey (shp img) /\
  v < 0 /\ forall mk nobg it, cnr mk nobg img bc sc (RInt r) KCubic false it = Ok (Fin v).
Proof.
  exists demo, [CInt 1; CInt 3], [CInt 1; CInt 1], 1%Z, (-4). split; [|split; [|split; [|split]]].
  - intros x H. cbn in H. repeat (destruct H as [<-|H]; [lra|]). contradiction.
  - reflexivity.
  - left. reflexivity.
  - lra.
  - intros mk nobg it. rewrite cnr_eq.
    assert (E : cnr_regions nobg demo [CInt 1; CInt 3] [CInt 1; CInt 1] (RInt 1) KCubic false it =
      Ok (Masked (Arr [2; 4]%nat [Some 1; Some 3; None; None; Some 1; Some 3; None; None]),
          Masked (Arr [2; 4]%nat [None; None; Some 5; Some 7; None; None; Some 5; Some 7]))) by reflexivity.
    rewrite E. unfold cnr_value. cbn [values somes dat flat_map app].
    assert (M1 : lmean [1; 3; 1; 3] = 2) by (unfold lmean, Sum; cbn; lra).
    assert (M2 : lmean [5; 7; 5; 7] = 6) by (unfold lmean, Sum; cbn; lra).
    assert (S : std0 [5; 7; 5; 7] = 1).
    { unfold std0, dev. rewrite M2. unfold Sum. cbn. replace (_ / _) with (1 * 1) by field. apply sqrt_square. lra. }
    rewrite S, M1, M2. destruct (is_zero 1) eqn:Z; [apply is_zero_iff in Z; lra|]. do 2 f_equal. lra.
Qed.
Print Assumptions C135_cnr_refuted.

Lemma masked_values (img : arr R) f x : In x (somes (dat (masked img f))) -> In x (dat img).
Proof.
  unfold masked. cbn [dat]. rewrite somes_map. intros H. apply in_flat_map in H as (p & Hp & Hx).
  destruct (f (fst p)); [|contradiction]. destruct Hx as [<-|[]]. destruct p as [i v]. eapply in_combine_r. exact Hp.
Qed.
Lemma region_values kind img c r g x : make_region kind img c r = Ok g -> In x (values g) -> In x (dat img).
Proof.
  destruct kind; cbn [make_region]; intros E Hx; try discriminate.
  - injection E as <-. exact Hx.
  - injection E as <-. exact Hx.
  - destruct (to_cubic img c r) as [a|] eqn:E2; cbn [bind] in E; [|discriminate]. injection E as <-. cbn [values] in Hx.
    unfold to_cubic in E2. repeat match type of E2 with context [if ?b then _ else _] => destruct b; try discriminate end;
      injection E2 as <-; eapply masked_values; exact Hx.
  - destruct (to_spherical img c r) as [a|] eqn:E2; cbn [bind] in E; [|discriminate]. injection E as <-. cbn [values] in Hx.
    unfold to_spherical in E2. repeat match type of E2 with context [if ?b then _ else _] => destruct b; try discriminate end;
      injection E2 as <-; eapply masked_values; exact Hx.
Qed.
Lemma auto_values kind img m g x : auto_region kind img m = Ok (Some g) -> In x (values g) -> In x (dat img).
Proof.
  assert (M : forall h, masked_by img m = Ok h -> In x (values h) -> In x (dat img)).
  { intros h E Hx. unfold masked_by in E. destruct (_ =? _)%nat; [|discriminate]. injection E as <-. eapply masked_values. exact Hx. }
  destruct kind; cbn [auto_region]; intros E Hx; try discriminate;
    try (destruct (masked_by img m) as [h|]; cbn [bind] in E; [|discriminate]; injection E as <-; apply (M h eq_refl Hx)).
  injection E as <-. exact Hx.
Qed.

(** SNR of an image without negative grey values is not negative, whatever region is used and however
    it is found. *)
Theorem C135_snr : forall nobg img sc r kind au it lo hi yuv v ks, is_colour (shp img) = false ->
  (forall x, In x (dat img) -> 0 <= x) ->
  snr NaN nobg img sc r kind au it lo hi yuv = Ok (SGrey (Fin v) ks) -> 0 <= v.
Proof.
  intros nobg img sc r kind au it lo hi yuv v ks Hc Hpos H. rewrite snr_eq in H by exact Hc.
  destruct (snr_region nobg img sc r kind au it lo hi) as [s|e] eqn:E; [|discriminate]. injection H as H _.
  assert (V : forall x, In x (values s) -> In x (dat img)).
  { intros x Hx. unfold snr_region in E. destruct (snr_select _ _ _ _ _ _ _ _ _) as [[[sc' r'] o]|] eqn:E2; cbn [bind] in E; [|discriminate].
    destruct (check_border sc' r'); cbn [bind] in E; [|discriminate]. destruct (check_radius r'); cbn [bind] in E; [|discriminate].
    destruct (snr_dims img _); cbn [bind] in E; [|discriminate]. destruct o as [g|].
    - injection E as <-. unfold snr_select in E2. destruct au; [|discriminate].
      destruct (get_binary img lo hi) as [fg|]; cbn [bind] in E2; [|discriminate].
      destruct (find_largest_region nobg fg it kind) as [[[cc rr] mm]|]; cbn [bind] in E2; [|discriminate].
      destruct (auto_region kind img mm) as [o'|] eqn:E3; cbn [bind] in E2; [|discriminate].
      injection E2 as _ _ ->. eapply auto_values; [exact E3|exact Hx].
    - eapply region_values; [exact E|exact Hx]. }
  apply snr_value_fin in H as (N & [[_ ->]|(D & ->)]); [lra|].
  pose proof (std0_nonneg (values s)) as P. apply Rmult_le_pos.
  - unfold lmean. apply Rmult_le_pos; [apply Sum_nonneg; intros x Hx; apply Hpos, V, Hx|].
    left. apply Rinv_0_lt_compat, NrProofs.INR_len_pos, N.
  - left. apply Rinv_0_lt_compat. lra.
Qed.
Print Assumptions C135_snr.

(** A grey image with negative values, and a green colour image: the documented lower bound 0 fails. *)
Theorem C135_snr_refuted : exists img sc r v, wf img /\ grey (shp img) /\ v < 0 /\ forall mk nobg it lo hi yuv,
  snr mk nobg img sc (RInt r) KFull false it lo hi yuv = Ok (SGrey (Fin v) (snr_keys KFull false)).
Proof.
  exists (Arr [2; 2]%nat [-3; -1; -3; -1]), [CInt 1; CInt 1], 1%Z, (-2).
  split; [reflexivity|]. split; [left; reflexivity|]. split; [lra|]. intros mk nobg it lo hi yuv.
  rewrite snr_eq by reflexivity.
  assert (E : snr_region nobg (Arr [2; 2]%nat [-3; -1; -3; -1]) [CInt 1; CInt 1] (RInt 1) KFull false it lo hi =
    Ok (Whole (Arr [2; 2]%nat [-3; -1; -3; -1]))) by reflexivity.
  rewrite E. do 2 f_equal. unfold snr_value. cbn [values dat].
  assert (M : lmean [-3; -1; -3; -1] = -2) by (unfold lmean, Sum; cbn; lra).
  assert (S : std0 [-3; -1; -3; -1] = 1).
  { unfold std0, dev. rewrite M. unfold Sum. cbn. replace (_ / _) with (1 * 1) by field. apply sqrt_square. lra. }
  rewrite S, M. destruct (is_zero 1) eqn:Z; [apply is_zero_iff in Z; lra|]. f_equal. lra.
Qed.
Print Assumptions C135_snr_refuted.

Definition green : arr R := Arr [1; 2; 3]%nat [0; 100; 0; 0; 200; 0].
Lemma std0_pair a : std0 [100 * a; 200 * a] = 50 * Rabs a.
Proof.
  unfold std0, dev. replace (lmean [100 * a; 200 * a]) with (150 * a) by (unfold lmean, Sum; cbn; field).
  unfold Sum. cbn. replace (_ / _) with (Rsqr (50 * a)) by (unfold Rsqr; field).
  rewrite sqrt_Rsqr_abs, Rabs_mult. f_equal. apply Rabs_right. lra.
Qed.
Lemma channel_pair s a b : b <> 0 -> channel_snr s [100 * a; 200 * a] [100 * b; 200 * b] = Fin (3 * a / Rabs b).
Proof.
  intros Hb. pose proof (Rabs_pos_lt b Hb) as P. unfold channel_snr. rewrite std0_pair.
  destruct (is_zero (50 * Rabs b)) eqn:Z; [apply is_zero_iff in Z; lra|].
  replace (lmean [100 * a; 200 * a]) with (150 * a) by (unfold lmean, Sum; cbn; field). f_equal. field. lra.
Qed.

Theorem C135_snr_colour_refuted : exists y u v, y < 0 /\ u < 0 /\ v < 0 /\ forall mk nobg it lo hi,
  snr mk nobg green [CInt 1; CInt 1] (RInt 1) KFull false it lo hi true = Ok (SColour (Fin y) (Fin u) (Fin v)).
Proof.
  set (a := - (9991 / 100000)). set (b := - (33609 / 100000)). set (c := 436 / 1000).
  assert (Ha : a < 0) by (unfold a; lra). assert (Hb : b <> 0) by (unfold b; lra). assert (Hc : c <> 0) by (unfold c; lra).
  assert (D : forall x, x <> 0 -> 3 * a / Rabs x < 0).
  { intros x Hx. pose proof (Rinv_0_lt_compat _ (Rabs_pos_lt x Hx)). unfold Rdiv. assert (3 * a < 0) by lra. nra. }
  exists (3 * a / Rabs a), (3 * a / Rabs b), (3 * a / Rabs c).
  split; [apply D; lra|]. split; [apply D, Hb|]. split; [apply D, Hc|]. intros mk nobg it lo hi.
  assert (Hy : rgb_to_yuv green = Ok (Arr [1; 2; 3]%nat [100 * a; 100 * b; 100 * c; 200 * a; 200 * b; 200 * c])).
  { transitivity (@Ok (arr R) (Arr [1; 2; 3]%nat
      [0 * weight 0 0 + 100 * weight 1 0 + 0 * weight 2 0; 0 * weight 0 1 + 100 * weight 1 1 + 0 * weight 2 1;
       0 * weight 0 2 + 100 * weight 1 2 + 0 * weight 2 2; 0 * weight 0 0 + 200 * weight 1 0 + 0 * weight 2 0;
       0 * weight 0 1 + 200 * weight 1 1 + 0 * weight 2 1; 0 * weight 0 2 + 200 * weight 1 2 + 0 * weight 2 2])); [reflexivity|].
    unfold weight, yuv_weights. cbn [nth]. unfold a, b, c. do 2 f_equal. repeat (f_equal; try lra). }
  set (t := Arr [1; 2; 3]%nat [100 * a; 100 * b; 100 * c; 200 * a; 200 * b; 200 * c]) in *.
  assert (S : snr mk nobg green [CInt 1; CInt 1] (RInt 1) KFull false it lo hi true =
    let* img := rgb_to_yuv green in let* signal := Ok (Whole img) in
    Ok (SColour (channel_snr signal (channel_region signal 0) (channel_region signal 0))
                (channel_snr signal (channel_region signal 0) (channel_region signal 1))
                (channel_snr signal (channel_region signal 0) (channel_region signal 2)))) by reflexivity.
  rewrite S, Hy. cbn [bind].
  assert (C0 : channel_region (Whole t) 0 = [100 * a; 200 * a]) by reflexivity.
  assert (C1 : channel_region (Whole t) 1 = [100 * b; 200 * b]) by reflexivity.
  assert (C2 : channel_region (Whole t) 2 = [100 * c; 200 * c]) by reflexivity.
  rewrite C0, C1, C2.
  rewrite !channel_pair by (assumption || lra). reflexivity.
Qed.
Print Assumptions C135_snr_colour_refuted.

Example C135_snr_ex : exists v, (forall mk nobg it lo hi yuv,
  snr mk nobg (Arr [2; 2]%nat [3; 1; 3; 1]) [CInt 1; CInt 1] (RInt 1) KFull false it lo hi yuv = Ok (SGrey (Fin v) (snr_keys KFull false))) /\ v = 2.
Proof.
  exists 2. split; [|reflexivity]. intros mk nobg it lo hi yuv. rewrite snr_eq by reflexivity.
  assert (E : snr_region nobg (Arr [2; 2]%nat [3; 1; 3; 1]) [CInt 1; CInt 1] (RInt 1) KFull false it lo hi =
    Ok (Whole (Arr [2; 2]%nat [3; 1; 3; 1]))) by reflexivity.
  rewrite E. do 2 f_equal. unfold snr_value. cbn [values dat].
  assert (M : lmean [3; 1; 3; 1] = 2) by (unfold lmean, Sum; cbn; lra).
  assert (S : std0 [3; 1; 3; 1] = 1).
  { unfold std0, dev. rewrite M. unfold Sum. cbn. replace (_ / _) with (1 * 1) by field. apply sqrt_square. lra. }
  rewrite S, M. destruct (is_zero 1) eqn:Z; [apply is_zero_iff in Z; lra|]. f_equal. lra.
Qed.

(** Both indices of MAD equal to 4: MAD is 4, whatever the weight. *)
Example C135_mad_ex : nonneg (MadModel.combine_indices 1 1 (Fin 4) (Fin 4)) /\ ~ nonneg NInf /\ ~ nonneg (Fin (-1)).
Proof. split; [apply nonneg_mul; apply nonneg_pow|]. split; cbn [nonneg]; [tauto|lra]. Qed.
