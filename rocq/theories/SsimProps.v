(** SSIM and UQI: C25 - C30, border modes: C101. *)
From Coq Require Import Reals Lra Psatz.
From Verif Require Import Base NdArray LoadModel LoadProofs NormModel NormProofs PairModel PairProofs RealSums
  MetricModel SsimModel SsimProofs.
Local Open Scope R_scope.

(** A window size, if given as an integer, is positive. *)
Definition positive_window (kw : dict kwval) : Prop :=
  forall w, dget kw "win_size" = Some (KInt w) -> (0 < w)%Z.

(** All parameters spelled out. *)
Definition opts (k1 k2 sigma : R) (win : option Z) (g : bool) (mode : string) (cval al be ga dr : R)
  : dict kwval :=
  [("K1", KReal k1); ("K2", KReal k2); ("sigma", KReal sigma);
   ("win_size", match win with Some w => KInt w | None => KNone end);
   ("gaussian_weights", KBool g); ("mode", KText mode); ("cval", KReal cval);
   ("alpha", KReal al); ("beta", KReal be); ("gamma", KReal ga); ("data_range", KReal dr)]%string.

(** The window that is used: given, 7 (uniform), or 2 floor(3.5 sigma + 0.5) + 1 (Gaussian). *)
Definition window (sigma : R) (win : option Z) (g : bool) : Z :=
  match win with
  | Some w => w
  | None => if g then (2 * Int_part (7 / 2 * sigma + 1 / 2) + 1)%Z else 7%Z
  end.

(** The border modes scipy knows. *)
Definition scipy_modes : list string :=
  ["reflect"; "grid-mirror"; "mirror"; "nearest"; "wrap"; "grid-wrap"; "constant"; "grid-constant"]%string.

Lemma mode_known t : In t scipy_modes <-> exists m, mode_of t = Some m.
Proof.
  unfold scipy_modes, mode_of. split.
  - simpl. intuition subst; simpl; eauto.
  - intros [m H].
    repeat match goal with
    | H : context [String.eqb t ?k] |- _ =>
        destruct (String.eqb_spec t k); [subst; simpl; tauto|simpl in H]
    end.
    discriminate.
Qed.

Lemma radius_spec sigma : 0 <= sigma -> Z.of_nat (gauss_radius sigma) = Int_part (7 / 2 * sigma + 1 / 2).
Proof.
  intros H. unfold gauss_radius. replace (35 / 10 * sigma + 5 / 10) with (7 / 2 * sigma + 1 / 2) by lra.
  unfold Rtrunc. destruct (Rle_dec 0 (7 / 2 * sigma + 1 / 2)) as [_|C]; [|lra].
  assert (Hp : (0 <= Int_part (7 / 2 * sigma + 1 / 2))%Z).
  { pose proof (base_Int_part (7 / 2 * sigma + 1 / 2)) as [_ B].
    apply le_IZR. apply Rnot_lt_le. intros C.
    assert (Int_part (7 / 2 * sigma + 1 / 2) + 1 <= 0)%Z.
    { assert (Int_part (7 / 2 * sigma + 1 / 2) < 0)%Z by (apply lt_IZR; exact C). lia. }
    apply IZR_le in H0. rewrite plus_IZR in H0. simpl in H0. lra. }
  lia.
Qed.

Lemma setup_opts s k1 k2 sigma win g mode cval al be ga dr :
  0 <= k1 -> 0 <= k2 -> 0 <= sigma ->
  ssim_setup s (opts k1 k2 sigma win g mode cval al be ga dr) =
  (let w := window sigma win g in
   if existsb (fun n => (Z.of_nat n <? w)%Z) s then Err ValueError
   else if Z.even w then Err ValueError
   else
     let n := (w ^ Z.of_nat (length s))%Z in
     let* cov := if g && match win with None => true | Some _ => false end then Ok 1
                 else if (n =? 1)%Z then Err ZeroDivisionError else Ok (IZR n / IZR (n - 1)) in
     let* md := if (if g then (if Rlt_dec (1 / 10 ^ 15) sigma then true else false) else (1 <? w)%Z)
                then from_opt RuntimeError (mode_of mode) else Ok Reflect in
     Ok (SsimParams (if g then gaussian_weights sigma (gauss_radius sigma) else uniform_weights w)
           md cval ((w - 1) / 2)%Z cov ((k1 * dr) * (k1 * dr)) ((k2 * dr) * (k2 * dr))
           (Rtrunc al) (Rtrunc be) (Rtrunc ga))).
Proof.
  intros H1 H2 H3. unfold ssim_setup, opts.
  cbn [dget String.eqb Ascii.eqb Bool.eqb as_num flag bind].
  destruct (Rlt_dec k1 0); [lra|]. destruct (Rlt_dec k2 0); [lra|]. destruct (Rlt_dec sigma 0); [lra|].
  assert (Eg : win_arg (Some (match win with Some w => KInt w | None => KNone end)) = Ok win)
    by (destruct win; reflexivity).
  rewrite Eg. cbn [bind]. cbv zeta.
  assert (Ew : match win with Some w => w | None => if g then (2 * Z.of_nat (gauss_radius sigma) + 1)%Z else 7%Z end
               = window sigma win g).
  { unfold window. rewrite radius_spec by exact H3. reflexivity. }
  rewrite Ew. set (w := window sigma win g).
  assert (E1 : existsb (fun n => (Z.of_nat n - w <? 0)%Z) s = existsb (fun n => (Z.of_nat n <? w)%Z) s).
  { clear. induction s as [|n s IH]; simpl; [reflexivity|]. rewrite IH. f_equal.
    destruct (Z.ltb_spec (Z.of_nat n - w) 0), (Z.ltb_spec (Z.of_nat n) w); lia. }
  rewrite E1; clear E1. destruct (existsb _ s); [reflexivity|].
  assert (E2 : negb (w mod 2 =? 1)%Z = Z.even w).
  { rewrite Zmod_odd, <- Z.negb_odd. destruct (Z.odd w); reflexivity. }
  rewrite E2; clear E2. destruct (Z.even w); [reflexivity|].
  assert (E3 : forall n, (n - 1 =? 0)%Z = (n =? 1)%Z).
  { intros x. destruct (Z.eqb_spec (x - 1) 0), (Z.eqb_spec x 1); lia. }
  rewrite E3. reflexivity.
Qed.

(** C25: identical images score 1, whatever the (accepted) parameters. *)
Theorem C25_identical_images big r kw e :
  structural_similarity big r r kw = Ok e -> positive_window kw -> e = Fin 1.
Proof. apply ssim_identical. Qed.
Print Assumptions C25_identical_images.

Theorem C25_score big dr r kwargs e :
  ssim_score big dr false r r None kwargs = Ok e -> positive_window kwargs -> e = Fin 1.
Proof.
  unfold ssim_score. intros H Hw. apply bind_ok in H as (kw & Hkw & H).
  apply (ssim_identical big r kw e H).
  unfold merge_kwargs in Hkw. destruct (existsb _ _); [discriminate|]. injection Hkw as <-.
  intros w. simpl. apply Hw.
Qed.
Print Assumptions C25_score.

(** C26 *)
Theorem C26_symmetric big r m kw :
  shp r = shp m -> structural_similarity big r m kw = structural_similarity big m r kw.
Proof. apply ssim_symmetric. Qed.
Print Assumptions C26_symmetric.

(** C27: in [-1, 1] for all non-negative exponents, for both covariance normalisations. The fill
    value only matters for mode "constant" with a Gaussian window and an explicit win_size. *)
Definition nonneg_exponents (kw : dict kwval) : Prop :=
  forall k, In k ["alpha"; "beta"; "gamma"]%string ->
    match dget kw k with Some (KInt z) => (0 <= z)%Z | Some (KReal x) => 0 <= x
    | Some (KText t) => forall z, py_int (list_ascii_of_string t) = Ok z -> (0 <= z)%Z | _ => True end.

Definition harmless_border (kw : dict kwval) : Prop :=
  dget kw "mode" = None \/ dget kw "cval" = None \/
  (exists t, dget kw "mode" = Some (KText t) /\
             In t ["reflect"; "grid-mirror"; "mirror"; "nearest"; "wrap"; "grid-wrap"]%string) \/
  (forall w, dget kw "win_size" <> Some (KInt w)) \/
  dget kw "gaussian_weights" = Some (KBool false).

Theorem C27_range big r m kw e :
  shp r = shp m -> structural_similarity big r m kw = Ok e ->
  positive_window kw -> nonneg_exponents kw -> harmless_border kw ->
  exists v, e = Fin v /\ -1 <= v <= 1.
Proof.
  intros Es H Hw He Hb. apply (ssim_range big r m kw e Es H Hw He).
  destruct Hb as [F|[F|[(t & F1 & F2)|F]]]; auto 6.
  right; right; left. exists t. unfold mode_of. simpl in F2.
  intuition subst; simpl; eexists; (split; [exact F1|split; [reflexivity|discriminate]]).
Qed.
Print Assumptions C27_range.

(** Without that condition the range is left: a Gaussian window larger than [win_size] reads the
    fill value, which is not squared in the second moments. *)
Lemma centre_filtered w0 w1 w2 c cval :
  getd (filter_nd [(-2, w2); (-1, w1); (0, w0); (1, w1); (2, w2)]%Z Constant cval (const_img [3; 3]%nat c)) [1; 1]%nat
  = (w0 + 2 * w1) * ((w0 + 2 * w1) * c + 2 * w2 * cval) + 2 * w2 * cval.
Proof.
  unfold filter_nd. cbn [const_img tabulate shp length seq fold_left].
  change (getd (filter_axis [(-2, w2); (-1, w1); (0, w0); (1, w1); (2, w2)]%Z Constant cval
      (filter_axis [(-2, w2); (-1, w1); (0, w0); (1, w1); (2, w2)]%Z Constant cval (const_img [3; 3]%nat c) 0) 1)
      [1; 1]%nat = (w0 + 2 * w1) * ((w0 + 2 * w1) * c + 2 * w2 * cval) + 2 * w2 * cval).
  assert (B : forall j, (j < 3)%nat ->
    getd (filter_axis [(-2, w2); (-1, w1); (0, w0); (1, w1); (2, w2)]%Z Constant cval (const_img [3; 3]%nat c) 0) [1; j]%nat
    = (w0 + 2 * w1) * c + 2 * w2 * cval).
  { intros j Hj. unfold filter_axis. change (shp (const_img [3; 3]%nat c)) with [3; 3]%nat.
    rewrite getd_tab by (destruct j as [|[|[|]]]; try reflexivity; lia).
    unfold Sum, rsum, sample. change (shp (const_img [3; 3]%nat c)) with [3; 3]%nat.
    cbn [map fold_right fst snd nth Z.of_nat Pos.of_succ_nat Z.add Pos.succ Z.pos_sub Pos.add Pos.pred_double].
    unfold pad_pos. cbn [Z.leb Z.ltb Z.compare Pos.compare Pos.compare_cont Z.of_nat Pos.of_succ_nat Pos.succ andb Z.to_nat Pos.to_nat Pos.iter_op Nat.add upd].
    unfold const_img. rewrite !getd_tab by (destruct j as [|[|[|]]]; try reflexivity; lia). ring. }
  unfold filter_axis at 1. change (shp (filter_axis _ _ _ _ _)) with [3; 3]%nat. rewrite getd_tab by reflexivity.
  unfold Sum, rsum, sample. change (shp (filter_axis _ _ _ _ _)) with [3; 3]%nat.
  cbn [map fold_right fst snd nth Z.of_nat Pos.of_succ_nat Z.add Pos.succ Z.pos_sub Pos.add Pos.pred_double].
  unfold pad_pos. cbn [Z.leb Z.ltb Z.compare Pos.compare Pos.compare_cont Z.of_nat Pos.of_succ_nat Pos.succ andb Z.to_nat Pos.to_nat Pos.iter_op Nat.add upd].
  rewrite !B by lia. ring.
Qed.

Theorem C27_fill_value_refuted : exists r m kw v,
  shp r = shp m /\ positive_window kw /\ nonneg_exponents kw /\
  (forall big, structural_similarity big r m kw = Ok (Fin v)) /\ v < -1.
Proof.
  set (kw := opts 0 0 (1 / 2) (Some 3%Z) true "constant" (-1) 0 1 1 255).
  set (g0 := gauss (1 / 2) 0). set (g1 := gauss (1 / 2) 1). set (g2 := gauss (1 / 2) 2).
  assert (P0 : 0 < g0) by apply exp_pos. assert (P1 : 0 < g1) by apply exp_pos.
  assert (P2 : 0 < g2) by apply exp_pos.
  assert (L1 : g1 < g0) by (apply exp_increasing; lra).
  assert (L2 : g2 < g1) by (apply exp_increasing; lra).
  set (t := g0 + 2 * g1 + 2 * g2).
  assert (Ht : 0 < t) by (unfold t; lra).
  set (w0 := g0 / t). set (w1 := g1 / t). set (w2 := g2 / t).
  assert (Hr : gauss_radius (1 / 2) = 2%nat).
  { unfold gauss_radius. replace (35 / 10 * (1 / 2) + 5 / 10) with (IZR 9 / IZR 4) by lra.
    rewrite Rtrunc_div by lia. reflexivity. }
  assert (Hws : gaussian_weights (1 / 2) (gauss_radius (1 / 2))
                = [(-2, w2); (-1, w1); (0, w0); (1, w1); (2, w2)]%Z).
  { rewrite Hr. unfold gaussian_weights.
    change (offsets 2) with [-2; -1; 0; 1; 2]%Z. unfold Sum, rsum. cbn [map fold_right].
    assert (E1 : gauss (1 / 2) (-1) = g1) by (unfold g1, gauss; f_equal; lra).
    assert (E2 : gauss (1 / 2) (-2) = g2) by (unfold g2, gauss; f_equal; lra).
    fold g0 g1 g2. rewrite E1, E2.
    replace (g2 + (g1 + (g0 + (g1 + (g2 + 0))))) with t by (unfold t; ring). reflexivity. }
  assert (W1 : w0 + 2 * w1 + 2 * w2 = 1).
  { unfold w0, w1, w2. replace (g0 / t + 2 * (g1 / t) + 2 * (g2 / t)) with ((g0 + 2 * g1 + 2 * g2) / t) by (field; lra).
    fold t. field. lra. }
  assert (W2 : 0 < w2) by (apply Rdiv_lt_0_compat; assumption).
  assert (W12 : w2 < w1) by (apply Rmult_lt_compat_r; [apply Rinv_0_lt_compat|]; assumption).
  assert (W01 : w1 < w0) by (apply Rmult_lt_compat_r; [apply Rinv_0_lt_compat|]; assumption).
  set (mm := w0 + 2 * w1). assert (M1 : 3 / 5 < mm < 1) by (unfold mm; lra).
  set (p := mm * mm). assert (Hp : 9 / 25 < p < 1) by (unfold p; nra). set (q := 1 - p).
  assert (Hf : forall c, getd (filter_nd (gaussian_weights (1 / 2) (gauss_radius (1 / 2))) Constant (-1)
             (const_img [3; 3]%nat c)) [1; 1]%nat = p * c - q).
  { intros c. rewrite Hws, centre_filtered. fold mm. replace (2 * w2) with (1 - mm) by (unfold mm; lra).
    unfold q, p. ring. }
  exists (const_img [3; 3]%nat 10), (const_img [3; 3]%nat (-10)), kw, (- (100 * p + 1 + q) / (100 * p - 1 - q)).
  split; [reflexivity|]. split; [intros w E; unfold kw, opts in E; cbn in E; injection E as <-; lia|].
  split; [intros k Hk; simpl in Hk; destruct Hk as [<-|[<-|[<-|[]]]]; unfold kw, opts;
          cbn [dget String.eqb Ascii.eqb Bool.eqb]; lra|]. split.
  - intros big. unfold structural_similarity, kw. rewrite setup_opts by lra. cbv zeta.
    cbn [window]. change (shp (const_img [3; 3]%nat 10)) with [3; 3]%nat.
    change (existsb (fun n => (Z.of_nat n <? 3)%Z) [3; 3]%nat) with false. change (Z.even 3) with false.
    cbv iota. cbn [andb length]. change (3 ^ Z.of_nat 2)%Z with 9%Z. change (9 =? 1)%Z with false. cbv iota. cbn [bind].
    destruct (Rlt_dec (1 / 10 ^ 15) (1 / 2)) as [_|C]; [|exfalso; apply C; simpl; lra].
    change (mode_of "constant") with (Some Constant). cbn [from_opt bind].
    change ((3 - 1) / 2)%Z with 1%Z. change (9 - 1)%Z with 8%Z.
    set (P := SsimParams _ _ _ _ _ _ _ _ _ _). change (p_pad P) with 1%Z.
    assert (Hc : slice (ssim_map big P (const_img [3; 3]%nat 10) (const_img [3; 3]%nat (-10)))
              (map (fun n => (1, Z.of_nat n - 1)%Z) [3; 3]%nat)
            = Ok (Arr [1; 1]%nat [getd (ssim_map big P (const_img [3; 3]%nat 10) (const_img [3; 3]%nat (-10))) [1; 1]%nat])).
    { reflexivity. }
    rewrite Hc. cbn [bind dat mean_of rsum fold_right length INR]. do 2 f_equal.
    unfold ssim_map. change (shp (const_img [3; 3]%nat 10)) with [3; 3]%nat. rewrite getd_tab by reflexivity.
    rewrite !amul_const. change (p_ws P) with (gaussian_weights (1 / 2) (gauss_radius (1 / 2))).
    change (p_mode P) with Constant. change (p_cval P) with (-1). rewrite !Hf.
    unfold ssim_pixel. cbv zeta. change (p_cov P) with (9 / 8). change (p_c1 P) with (0 * 255 * (0 * 255)).
    change (p_c2 P) with (0 * 255 * (0 * 255)).
    change (p_al P) with (Rtrunc (IZR 0)). change (p_be P) with (Rtrunc (IZR 1)). change (p_ga P) with (Rtrunc (IZR 1)).
    rewrite !Rtrunc_IZR by lia. unfold zpow. cbn [Z.leb Z.compare Z.to_nat Pos.to_nat Pos.iter_op pow].
    set (vx := 9 / 8 * (p * (10 * 10) - q - (p * 10 - q) * (p * 10 - q))).
    set (vy := 9 / 8 * (p * (-10 * -10) - q - (p * -10 - q) * (p * -10 - q))).
    set (vxy := 9 / 8 * (p * (10 * -10) - q - (p * 10 - q) * (p * -10 - q))).
    assert (Q : 0 < q) by (unfold q; lra).
    assert (Ex : vx = 9 / 8 * (q * (120 * p - 1 - q))) by (unfold vx, q; ring).
    assert (Ey : vy = 9 / 8 * (q * (80 * p - 1 - q))) by (unfold vy, q; ring).
    assert (Exy : vxy = - (9 / 8 * (q * (100 * p + 1 + q)))) by (unfold vxy, q; ring).
    assert (Vx : 0 < vx) by (rewrite Ex; apply Rmult_lt_0_compat; [lra|apply Rmult_lt_0_compat; unfold q; lra]).
    assert (Vy : 0 < vy) by (rewrite Ey; apply Rmult_lt_0_compat; [lra|apply Rmult_lt_0_compat; unfold q; lra]).
    unfold osqrt. destruct (Rlt_dec vx 0); [lra|]. destruct (Rlt_dec vy 0); [lra|].
    pose proof (sqrt_lt_R0 vx Vx) as Sx. pose proof (sqrt_lt_R0 vy Vy) as Sy.
    set (sx := sqrt vx) in *. set (sy := sqrt vy) in *.
    assert (0 < sx * sy) by (apply Rmult_lt_0_compat; assumption).
    replace (0 * 255 * (0 * 255)) with 0 by ring. replace (0 / 2) with 0 by lra. rewrite !Rplus_0_r.
    unfold nan1. destruct (Req_EM_T (vx + vy) 0); [lra|]. destruct (Req_EM_T (sx * sy) 0); [lra|].
    transitivity (2 * vxy / (vx + vy)).
    + change (Pos.to_nat 1) with 1%nat. rewrite !pow_1. field. repeat split; lra.
    + rewrite Ex, Ey, Exy.
      replace (9 / 8 * (q * (120 * p - 1 - q)) + 9 / 8 * (q * (80 * p - 1 - q))) with (9 / 4 * q * (100 * p - 1 - q)) by field.
      field. unfold q. split; lra.
  - assert (0 < 100 * p - 1 - q) by (unfold q; lra).
    apply Rmult_lt_reg_r with (100 * p - 1 - q); [assumption|]. unfold Rdiv. rewrite Rmult_assoc, Rinv_l by lra.
    unfold q. lra.
Qed.
Print Assumptions C27_fill_value_refuted.

(** C28: the checks. *)
Theorem C28_negative_constants big r m k1 k2 sigma win g mode cval al be ga dr :
  k1 < 0 \/ k2 < 0 \/ sigma < 0 ->
  structural_similarity big r m (opts k1 k2 sigma win g mode cval al be ga dr) = Err ValueError.
Proof.
  intros H. unfold structural_similarity, ssim_setup, opts.
  cbn [dget String.eqb Ascii.eqb Bool.eqb as_num flag bind].
  destruct (Rlt_dec k1 0); [reflexivity|]. destruct (Rlt_dec k2 0); [reflexivity|].
  destruct (Rlt_dec sigma 0); [reflexivity|]. lra.
Qed.
Print Assumptions C28_negative_constants.

Theorem C28_bad_window big r m k1 k2 sigma win g mode cval al be ga dr :
  Z.Even (window sigma win g) \/ (exists n, In n (shp r) /\ (Z.of_nat n < window sigma win g)%Z) ->
  structural_similarity big r m (opts k1 k2 sigma win g mode cval al be ga dr) = Err ValueError.
Proof.
  intros H. destruct (Rlt_dec k1 0); [apply C28_negative_constants; tauto|].
  destruct (Rlt_dec k2 0); [apply C28_negative_constants; tauto|].
  destruct (Rlt_dec sigma 0); [apply C28_negative_constants; tauto|].
  unfold structural_similarity. rewrite setup_opts by lra. cbv zeta.
  destruct (existsb _ (shp r)) eqn:E; [reflexivity|]. destruct (Z.even _) eqn:Ev; [reflexivity|].
  exfalso. destruct H as [H|(nn & Hn & Hlt)].
  - apply Z.even_spec in H. congruence.
  - assert (existsb (fun n => (Z.of_nat n <? window sigma win g)%Z) (shp r) = true); [|congruence].
    apply existsb_exists. exists nn. split; [exact Hn|apply Z.ltb_lt, Hlt].
Qed.
Print Assumptions C28_bad_window.

(** Everything else is accepted, except windows with a single pixel and unknown border modes. *)
Theorem C28_accepted big r m k1 k2 sigma win g mode cval al be ga dr :
  0 <= k1 -> 0 <= k2 -> 0 <= sigma -> Z.Odd (window sigma win g) ->
  (forall n, In n (shp r) -> (window sigma win g <= Z.of_nat n)%Z) ->
  In mode scipy_modes -> shp r <> [] ->
  (1 < window sigma win g)%Z \/ (win = None /\ g = true) ->
  exists v, structural_similarity big r m (opts k1 k2 sigma win g mode cval al be ga dr) = Ok (Fin v).
Proof.
  intros H1 H2 H3 Hodd Hext Hm Hs Hw. apply mode_known in Hm as [md Hmd].
  assert (Hpos : (0 < window sigma win g)%Z).
  { destruct Hw as [Hw|[-> ->]]; [lia|]. unfold window. rewrite <- radius_spec by exact H3. lia. }
  set (kw := opts k1 k2 sigma win g mode cval al be ga dr).
  assert (HP : exists P, ssim_setup (shp r) kw = Ok P).
  { unfold kw. rewrite setup_opts by assumption. cbv zeta.
    destruct (existsb _ (shp r)) eqn:E.
    { apply existsb_exists in E as (n & Hn & E). apply Z.ltb_lt in E. specialize (Hext n Hn). lia. }
    apply Z.odd_spec in Hodd. rewrite <- Z.negb_odd, Hodd. cbn [negb].
    assert (Hcov : exists c, (if g && match win with None => true | Some _ => false end then Ok 1
       else if (window sigma win g ^ Z.of_nat (length (shp r)) =? 1)%Z then Err ZeroDivisionError
            else Ok (IZR (window sigma win g ^ Z.of_nat (length (shp r))) /
                     IZR (window sigma win g ^ Z.of_nat (length (shp r)) - 1))) = Ok c).
    { destruct Hw as [Hw|[-> ->]]; [|simpl; eauto]. destruct (g && _); [eauto|].
      destruct (Z.eqb_spec (window sigma win g ^ Z.of_nat (length (shp r))) 1) as [E1|E1]; [|eauto].
      exfalso. assert (1 < window sigma win g ^ Z.of_nat (length (shp r)))%Z; [|lia].
      apply Z.pow_gt_1; [exact Hw|]. destruct (shp r); [congruence|simpl; lia]. }
    destruct Hcov as [c ->]. cbn [bind]. rewrite Hmd. cbn [from_opt].
    destruct (if g then _ else _); cbn [bind]; eauto. }
  destruct HP as [P HP]. destruct (ssim_returns big r m kw P HP) as [e He].
  destruct (ssim_values big r m kw e He) as (P' & l & _ & -> & Hl & _).
  { intros w Ew. unfold kw, opts in Ew. cbn [dget String.eqb Ascii.eqb Bool.eqb] in Ew.
    destruct win as [w'|]; [|discriminate]. injection Ew as <-. exact Hpos. }
  rewrite He. unfold mean_of. destruct l; [congruence|]. eauto.
Qed.
Print Assumptions C28_accepted.

(** "accepts all other combinations" fails for windows of one pixel ... *)
Theorem C28_unit_window_refuted big r m k1 k2 sigma g mode cval al be ga dr :
  0 <= k1 -> 0 <= k2 -> 0 <= sigma -> (forall n, In n (shp r) -> (1 <= n)%nat) ->
  structural_similarity big r m (opts k1 k2 sigma (Some 1%Z) g mode cval al be ga dr) = Err ZeroDivisionError.
Proof.
  intros H1 H2 H3 Hs. unfold structural_similarity. rewrite setup_opts by assumption. cbv zeta.
  cbn [window]. destruct (existsb _ (shp r)) eqn:E.
  { apply existsb_exists in E as (n & Hn & E). apply Z.ltb_lt in E. specialize (Hs n Hn). lia. }
  change (Z.even 1) with false. cbv iota. rewrite andb_false_r, Z.pow_1_l by lia. reflexivity.
Qed.
Print Assumptions C28_unit_window_refuted.

(** ... and for border modes scipy does not know, among them the documented "edge" and
    "symmetric". *)
Theorem C28_unknown_mode_refuted big r m k1 k2 sigma win g mode cval al be ga dr :
  0 <= k1 -> 0 <= k2 -> 0 <= sigma -> Z.Odd (window sigma win g) ->
  (forall n, In n (shp r) -> (window sigma win g <= Z.of_nat n)%Z) ->
  ~ In mode scipy_modes -> shp r <> [] ->
  (1 < window sigma win g)%Z ->
  structural_similarity big r m (opts k1 k2 sigma win g mode cval al be ga dr) = Err RuntimeError \/
  (g = true /\ sigma <= 1 / 10 ^ 15).
Proof.
  intros H1 H2 H3 Hodd Hext Hm Hs Hw. unfold structural_similarity. rewrite setup_opts by assumption. cbv zeta.
  destruct (existsb _ (shp r)) eqn:E.
  { apply existsb_exists in E as (n & Hn & E). apply Z.ltb_lt in E. specialize (Hext n Hn). lia. }
  apply Z.odd_spec in Hodd. rewrite <- Z.negb_odd, Hodd. cbn [negb].
  assert (Hmn : mode_of mode = None).
  { destruct (mode_of mode) as [m0|] eqn:Em; [|reflexivity]. destruct Hm. apply mode_known. eauto. }
  rewrite Hmn. cbn [from_opt].
  assert (1 < window sigma win g ^ Z.of_nat (length (shp r)))%Z.
  { apply Z.pow_gt_1; [exact Hw|]. destruct (shp r); [congruence|simpl; lia]. }
  destruct (Z.eqb_spec (window sigma win g ^ Z.of_nat (length (shp r))) 1) as [E1|E1]; [lia|].
  destruct g.
  - destruct (Rlt_dec (1 / 10 ^ 15) sigma); [left|right; split; [reflexivity|lra]].
    destruct (true && _); reflexivity.
  - left. destruct (Z.ltb_spec 1 (window sigma win false)); [reflexivity|lia].
Qed.
Print Assumptions C28_unknown_mode_refuted.

(** Exponents are truncated to integers. *)
Theorem C28_exponents_truncated big r m k1 k2 sigma win g mode cval al be ga dr (a b c : Z) :
  (0 <= a)%Z -> (0 <= b)%Z -> (0 <= c)%Z ->
  IZR a <= al < IZR a + 1 -> IZR b <= be < IZR b + 1 -> IZR c <= ga < IZR c + 1 ->
  structural_similarity big r m (opts k1 k2 sigma win g mode cval al be ga dr)
  = structural_similarity big r m (opts k1 k2 sigma win g mode cval (IZR a) (IZR b) (IZR c) dr).
Proof.
  intros Ha Hb Hc Hal Hbe Hga. unfold structural_similarity.
  assert (T : forall z x, (0 <= z)%Z -> IZR z <= x < IZR z + 1 -> Rtrunc x = Rtrunc (IZR z)).
  { intros z x Hz Hx. rewrite Rtrunc_IZR by exact Hz. unfold Rtrunc.
    assert (0 <= IZR z) by (apply (IZR_le 0); exact Hz).
    destruct (Rle_dec 0 x); [|lra].
    pose proof (base_Int_part x) as [B1 B2].
    assert (IZR (Int_part x) < IZR (z + 1)) by (rewrite plus_IZR; simpl; lra).
    assert (IZR z < IZR (Int_part x + 1)) by (rewrite plus_IZR; simpl; lra).
    apply lt_IZR in H0, H1. lia. }
  rewrite (setup_exponents (shp r) _ (opts k1 k2 sigma win g mode cval (IZR a) (IZR b) (IZR c) dr)).
  - reflexivity.
  - intros k Hk. simpl in Hk. intuition subst; reflexivity.
  - intros k Hk. simpl in Hk. destruct Hk as [<-|[<-|[<-|[]]]];
      (eexists; eexists; split; [reflexivity|split; [reflexivity|apply T; assumption]]).
Qed.
Print Assumptions C28_exponents_truncated.

(** The structure term disappears for gamma = 1/2: the result is that of gamma = 0. *)
Theorem C28_half_gamma_ignored big r m k1 k2 sigma win g mode cval dr :
  structural_similarity big r m (opts k1 k2 sigma win g mode cval 1 1 (1 / 2) dr)
  = structural_similarity big r m (opts k1 k2 sigma win g mode cval 1 1 0 dr).
Proof.
  apply (C28_exponents_truncated big r m k1 k2 sigma win g mode cval 1 1 (1 / 2) dr 1 1 0);
    simpl; try lia; lra.
Qed.
Print Assumptions C28_half_gamma_ignored.

(** None and texts as K1, K2 or sigma: a TypeError, after the checks of the numbers before. *)
Definition no_number (v : option kwval) : Prop := v = Some KNone \/ exists t, v = Some (KText t).

Theorem C28_types : forall big r m kw k1 k2,
  (no_number (dget kw "K1") -> structural_similarity big r m kw = Err TypeError) /\
  (dget kw "K1" = Some (KReal k1) -> no_number (dget kw "K2") ->
     structural_similarity big r m kw = Err (if Rlt_dec k1 0 then ValueError else TypeError)) /\
  (dget kw "K1" = Some (KReal k1) -> dget kw "K2" = Some (KReal k2) -> no_number (dget kw "sigma") ->
     structural_similarity big r m kw = Err (if Rlt_dec k1 0 then ValueError else if Rlt_dec k2 0 then ValueError else TypeError)).
Proof.
  intros big r m kw k1 k2. unfold structural_similarity, ssim_setup.
  assert (N : forall v d, no_number v -> as_num v d = Err TypeError) by (intros v d [->|(t & ->)]; reflexivity).
  split; [|split].
  - intros H. rewrite (N _ _ H). reflexivity.
  - intros E H. rewrite E. cbn [as_num bind]. destruct (Rlt_dec k1 0); [reflexivity|]. rewrite (N _ _ H). reflexivity.
  - intros E E2 H. rewrite E, E2. cbn [as_num bind]. destruct (Rlt_dec k1 0); [reflexivity|]. destruct (Rlt_dec k2 0); [reflexivity|].
    rewrite (N _ _ H). reflexivity.
Qed.
Print Assumptions C28_types.

(** Texts as exponents: those of integers stand for the integers; all others are a ValueError where numbers are accepted. *)
Theorem C28_text_exponents : forall big r m kw name t, In name ["alpha"; "beta"; "gamma"]%string -> dget kw name = Some (KText t) ->
  (forall z, py_int (list_ascii_of_string t) = Ok z ->
     structural_similarity big r m kw = structural_similarity big r m ((name, KInt z) :: kw)) /\
  ((forall z, py_int (list_ascii_of_string t) <> Ok z) ->
     forall x v, structural_similarity big r m ((name, KReal x) :: kw) = Ok v -> structural_similarity big r m kw = Err ValueError).
Proof.
  intros big r m kw name t Hn Ht. assert (A : forall v, dget ((name, v) :: kw) name = Some v) by (intros v; cbn [dget]; rewrite String.eqb_refl; reflexivity).
  assert (D : forall v k, k <> name -> dget ((name, v) :: kw) k = dget kw k).
  { intros v k Hk. cbn [dget]. destruct (String.eqb_spec name k); [congruence|reflexivity]. }
  unfold structural_similarity, ssim_setup. split.
  - intros z Hz. simpl in Hn. destruct Hn as [<-|[<-|[<-|[]]]]; rewrite A, !D by discriminate; rewrite Ht; cbn [as_exp as_num]; rewrite Hz; reflexivity.
  - intros Hz x v H. assert (Hz' : py_int (list_ascii_of_string t) = Err ValueError).
    { destruct (py_int (list_ascii_of_string t)) as [z|e] eqn:E; [destruct (Hz z eq_refl)|]. f_equal. clear -E. unfold py_int in E.
      assert (P : forall ds e, (match ds with [] => Err ValueError | _ => if forallb is_digit ds then Ok (dec_val ds) else Err ValueError end) = Err e -> e = ValueError).
      { intros [|c ds] e' X; [congruence|]. destruct (forallb is_digit (c :: ds)); congruence. }
      repeat match type of E with
             | bind ?b _ = _ => let X := fresh "X" in destruct b as [?|?] eqn:X; cbn [bind] in E; [discriminate|injection E as ->; eapply P; exact X]
             | (match ?l with [] => _ | _ :: _ => _ end) = Err _ => first [eapply P; exact E|destruct l]
             | (match ?a with Ascii _ _ _ _ _ _ _ _ => _ end) = _ => destruct a
             | (if ?b then _ else _) = _ => first [eapply P; exact E|destruct b]
             end; try (eapply P; exact E); try congruence. }
    simpl in Hn. destruct Hn as [<-|[<-|[<-|[]]]]; rewrite A, !D in H by discriminate; rewrite Ht; cbn [as_exp as_num] in *; rewrite Hz';
    apply bind_ok in H as (P & H & _);
    (match goal with |- bind ?s _ = _ => assert (X : s = Err ValueError); [|rewrite X; reflexivity] end); cbv zeta in *;
    repeat match type of H with
           | bind ?b _ = Ok _ => let E := fresh "E" in destruct b eqn:E; cbn [bind] in H |- *; [|discriminate H]
           | (if ?b then _ else _) = Ok _ => destruct b; try discriminate H
           end; reflexivity.
Qed.
Print Assumptions C28_text_exponents.

Example C28_text_example : py_int (list_ascii_of_string "-12") = Ok (-12)%Z /\ py_int (list_ascii_of_string "1.5") = Err ValueError.
Proof. split; reflexivity. Qed.

(** Booleans as windows are the integers 0 and 1. *)
Theorem C28_bool_window : forall big r m kw b, dget kw "win_size" = Some (KBool b) ->
  structural_similarity big r m kw = structural_similarity big r m (("win_size"%string, KInt (if b then 1 else 0)) :: kw).
Proof.
  intros big r m kw b H. assert (A : forall v, dget (("win_size"%string, v) :: kw) "win_size" = Some v) by reflexivity.
  assert (D : forall v k, k <> "win_size"%string -> dget (("win_size"%string, v) :: kw) k = dget kw k).
  { intros v k Hk. cbn [dget]. destruct (String.eqb_spec "win_size" k); [congruence|reflexivity]. }
  unfold structural_similarity, ssim_setup. rewrite A, !D by discriminate. rewrite H. reflexivity.
Qed.
Print Assumptions C28_bool_window.

(** Without anything to filter (a gaussian whose deviation is at most 10^-15) mode and cval are not looked at:
    even wrong ones change nothing. *)
Theorem C28_border_unused : forall big r m kw sigma md cv,
  dget kw "sigma" = Some (KReal sigma) -> sigma <= 1 / 10 ^ 15 -> dget kw "gaussian_weights" = Some (KBool true) ->
  structural_similarity big r m (("mode"%string, md) :: ("cval"%string, cv) :: kw) = structural_similarity big r m kw.
Proof.
  intros big r m kw sigma md cv Hs Hl Hg. set (kw' := ("mode"%string, md) :: ("cval"%string, cv) :: kw).
  assert (D : forall k, k <> "mode"%string -> k <> "cval"%string -> dget kw' k = dget kw k).
  { intros k A B. unfold kw'. cbn [dget]. destruct (String.eqb_spec "mode" k); [congruence|].
    destruct (String.eqb_spec "cval" k); [congruence|reflexivity]. }
  unfold structural_similarity, ssim_setup. rewrite (D "K1"%string), (D "K2"%string), (D "sigma"%string), (D "gaussian_weights"%string), (D "win_size"%string), (D "alpha"%string),
    (D "beta"%string), (D "gamma"%string), (D "data_range"%string) by discriminate. rewrite Hs, Hg. cbn [flag]. cbv zeta.
  destruct (as_num (dget kw "K1") (1 / 100)) as [k1|]; [cbn [bind]|reflexivity]. destruct (Rlt_dec k1 0); [reflexivity|].
  destruct (as_num (dget kw "K2") (3 / 100)) as [k2|]; [cbn [bind]|reflexivity]. destruct (Rlt_dec k2 0); [reflexivity|].
  cbn [as_num bind]. destruct (Rlt_dec sigma 0); [reflexivity|].
  destruct (Rlt_dec (1 / 10 ^ 15) sigma) as [X|_]; [exfalso; lra|].
  destruct (win_arg (dget kw "win_size")); [cbn [bind]|reflexivity].
  destruct (existsb _ (shp r)); [reflexivity|].
  match goal with |- context [if ?b then Err ValueError else _] => destruct b; [reflexivity|] end.
  destruct (as_exp (dget kw "alpha")); [cbn [bind]|reflexivity]. destruct (as_exp (dget kw "beta")); [cbn [bind]|reflexivity].
  destruct (as_exp (dget kw "gamma")); [cbn [bind]|reflexivity].
  match goal with |- context [bind ?b _] => destruct b; [cbn [bind]|reflexivity] end.
  set (dr := as_num (match dget kw "data_range" with None => Some KNone | v => v end) 0).
  destruct (as_num (dget kw' "cval") 0); destruct (as_num (dget kw "cval") 0); cbn [bind];
    (destruct dr; [cbn [bind]; reflexivity|reflexivity]).
Qed.
Print Assumptions C28_border_unused.

(** Where the default mode is accepted and there is something to filter, a mode that is no text is a RuntimeError. *)
Theorem C28_mode_types : forall big r m kw sigma md v,
  dget kw "sigma" = Some (KReal sigma) -> 1 / 10 ^ 15 < sigma -> dget kw "gaussian_weights" = Some (KBool true) ->
  (forall t, md <> KText t) -> dget kw "mode" = None -> structural_similarity big r m kw = Ok v ->
  structural_similarity big r m (("mode"%string, md) :: kw) = Err RuntimeError.
Proof.
  intros big r m kw sigma md v Hs Hl Hg Hm Hd H. set (kw' := ("mode"%string, md) :: kw).
  assert (D : forall k, k <> "mode"%string -> dget kw' k = dget kw k).
  { intros k A. unfold kw'. cbn [dget]. destruct (String.eqb_spec "mode" k); [congruence|reflexivity]. }
  assert (M : dget kw' "mode" = Some md) by reflexivity.
  unfold structural_similarity, ssim_setup in *. rewrite (D "K1"%string), (D "K2"%string), (D "sigma"%string), (D "gaussian_weights"%string), (D "win_size"%string), (D "alpha"%string),
    (D "beta"%string), (D "gamma"%string), (D "cval"%string), (D "data_range"%string) by discriminate. rewrite M. rewrite Hs, Hg in *. rewrite Hd in H.
  cbn [flag] in *. cbv zeta in *. apply bind_ok in H as (P & H & _).
  (match goal with |- bind ?s _ = _ => assert (X : s = Err RuntimeError); [|rewrite X; reflexivity] end).
  repeat match type of H with
         | bind (as_num (Some (KReal _)) _) _ = Ok _ => cbn [as_num bind] in H |- *
         | bind (if if Rlt_dec _ _ then true else false then _ else _) _ = Ok _ => fail 1
         | bind ?b _ = Ok _ => let E := fresh "E" in destruct b eqn:E; cbn [bind] in H |- *; [|discriminate H]
         | (if ?b then _ else _) = Ok _ => destruct b; try discriminate H
         end.
  destruct (Rlt_dec (1 / 10 ^ 15) sigma) as [_|X]; [|exfalso; lra].
  destruct md; try reflexivity; destruct (Hm s eq_refl).
Qed.
Print Assumptions C28_mode_types.

Example C28_unused_example : forall big r m,
  structural_similarity big r m [("mode", KInt 3); ("cval", KNone); ("sigma", KReal 0); ("gaussian_weights", KBool true)]%string
  = structural_similarity big r m [("sigma", KReal 0); ("gaussian_weights", KBool true)]%string.
Proof. intros big r m. apply (C28_border_unused big r m _ 0); [reflexivity| |reflexivity]. nra. Qed.

(** C29: UQI is SSIM with a uniform window and the default constants. *)
Lemma setup_same s kw kw' :
  (forall k, In k ["gaussian_weights"; "win_size"; "mode"; "data_range"]%string -> dget kw k = dget kw' k) ->
  (forall k d, In (k, d) [("K1", 1 / 100); ("K2", 3 / 100); ("sigma", 15 / 10); ("cval", 0)]%string ->
     as_num (dget kw k) d = as_num (dget kw' k) d) ->
  (forall k, In k ["alpha"; "beta"; "gamma"]%string -> as_exp (dget kw k) = as_exp (dget kw' k)) ->
  ssim_setup s kw = ssim_setup s kw'.
Proof.
  intros H Hn He. unfold ssim_setup.
  rewrite (H "gaussian_weights"%string), (H "win_size"%string), (H "mode"%string), (H "data_range"%string)
    by (simpl; tauto).
  rewrite (Hn "K1"%string (1 / 100)), (Hn "K2"%string (3 / 100)), (Hn "sigma"%string (15 / 10)),
    (Hn "cval"%string 0), (He "alpha"%string), (He "beta"%string), (He "gamma"%string) by (simpl; tauto).
  reflexivity.
Qed.

(** Keywords that UQI.score sets itself. *)
Definition uqi_keys : list string :=
  ["data_range"; "k_1"; "k_2"; "alpha"; "beta"; "gamma"; "gaussian_weights"]%string.

Theorem C29_uqi_is_ssim big dr r m kwargs :
  (forall k, In k (uqi_keys ++ ["K1"; "K2"]%string) -> dget kwargs k = None) ->
  uqi_score big dr r m kwargs
  = ssim_score big dr false r m None
      (("gaussian_weights", KBool false) :: ("K1", KReal (1 / 100)) :: ("K2", KReal (3 / 100)) :: kwargs)%string.
Proof.
  intros H. unfold uqi_score, ssim_score.
  assert (Hn : forall k, In k (uqi_keys ++ ["K1"; "K2"]%string) -> ~ In k (dkeys kwargs))
    by (intros k Hk; apply dget_none, H, Hk).
  unfold uqi_keys in *. cbn [app] in *.
  rewrite !merge_disjoint.
  - cbn [bind app]. unfold structural_similarity.
    erewrite setup_same; [reflexivity| | |].
    + intros k Hk. simpl in Hk. intuition subst; reflexivity.
    + intros k d Hk. simpl in Hk.
      assert (HK : forall k, In k ["K1"; "K2"]%string -> dget kwargs k = None)
        by (intros k0 Hk0; apply H; simpl in Hk0 |- *; tauto).
      decompose [or] Hk; try contradiction;
        match goal with E : (_, _) = (k, d) |- _ => injection E as <- <- end;
        cbn [dget String.eqb Ascii.eqb Bool.eqb];
        try (rewrite HK by (simpl; tauto)); reflexivity.
    + assert (HA : forall k, In k ["alpha"; "beta"; "gamma"]%string -> dget kwargs k = None)
        by (intros k0 Hk0; apply H; simpl in Hk0 |- *; tauto).
      intros k Hk. simpl in Hk. destruct Hk as [<-|[<-|[<-|[]]]]; cbn [dget String.eqb Ascii.eqb Bool.eqb];
        rewrite HA by (simpl; tauto); reflexivity.
  - intros k Hk. simpl in Hk. intros [E|[E|[E|E]]]; simpl in E.
    1-3: subst k; decompose [or] Hk; try discriminate; contradiction.
    apply (Hn k); [simpl; tauto|exact E].
  - intros k Hk. apply Hn. simpl in Hk |- *. tauto.
Qed.
Print Assumptions C29_uqi_is_ssim.

(** The two zero constants have no effect at all: any other values give the same score. *)
Theorem C29_constants_unused big r m kw v1 v2 :
  structural_similarity big r m (("k_1", v1) :: ("k_2", v2) :: kw)%string = structural_similarity big r m kw.
Proof.
  unfold structural_similarity.
  rewrite (setup_ext (shp r) (("k_1", v1) :: ("k_2", v2) :: kw)%string kw); [reflexivity|].
  intros k Hk. unfold ssim_keys in Hk. simpl in Hk. intuition subst; reflexivity.
Qed.
Print Assumptions C29_constants_unused.

(** On constant images the index is the luminance term with c_1 = (data_range / 100)^2. *)
Theorem C29_constant_images big s a b dr :
  s <> [] -> (forall n, In n s -> (7 <= n)%nat) -> a <> 0 ->
  uqi_score big (KReal dr) (tabulate s (fun _ => a)) (tabulate s (fun _ => b)) []
  = Ok (Fin ((2 * a * b + (dr / 100) * (dr / 100)) / (a * a + b * b + (dr / 100) * (dr / 100)))).
Proof.
  intros Hs H7 Ha. unfold uqi_score. rewrite merge_disjoint by (intros k _ []). cbn [bind app].
  set (kw := [("data_range", KReal dr); _; _; _; _; _; _]%string).
  change (tabulate s (fun _ => a)) with (const_img s a). change (tabulate s (fun _ => b)) with (const_img s b).
  assert (HP : exists P, ssim_setup s kw = Ok P /\ p_c1 P = (1 / 100 * dr) * (1 / 100 * dr) /\ p_al P = Rtrunc (IZR 1)).
  { unfold ssim_setup, kw. cbn [dget String.eqb Ascii.eqb Bool.eqb as_num flag win_arg bind].
    destruct (Rlt_dec (1 / 100) 0); [lra|]. destruct (Rlt_dec (3 / 100) 0); [lra|].
    destruct (Rlt_dec (15 / 10) 0); [lra|].
    destruct (existsb _ s) eqn:E.
    { apply existsb_exists in E as (k & Hk & E). apply Z.ltb_lt in E. specialize (H7 k Hk). lia. }
    change (7 mod 2 =? 1)%Z with true. cbn [negb andb].
    assert (1 < 7 ^ Z.of_nat (length s))%Z.
    { apply Z.pow_gt_1; [lia|]. destruct s; [congruence|simpl; lia]. }
    destruct (Z.eqb_spec (7 ^ Z.of_nat (length s) - 1) 0); [lia|].
    change (1 <? 7)%Z with true. change (mode_of "reflect") with (Some Reflect). cbn [bind from_opt].
    eexists. split; [reflexivity|]. split; reflexivity. }
  destruct HP as (P & HP & Hc1 & Hal).
  destruct (ssim_returns big (const_img s a) (const_img s b) kw P HP) as [e He].
  destruct (ssim_const big s a b kw e He) as (P' & HP' & ->); [discriminate|reflexivity|].
  rewrite He. rewrite HP in HP'. injection HP' as <-. rewrite Hc1, Hal, Rtrunc_IZR by lia.
  do 2 f_equal. unfold zpow, nan1. change (0 <=? 1)%Z with true. cbv iota. change (Z.to_nat 1) with 1%nat.
  replace (1 / 100 * dr) with (dr / 100) by lra. set (c := dr / 100).
  assert (0 < a * a) by (apply Rsqr_pos_lt; exact Ha).
  assert (0 <= b * b) by apply Rle_0_sqr. assert (0 <= c * c) by apply Rle_0_sqr.
  destruct (Req_EM_T (a * a + b * b + c * c) 0); [lra|]. ring.
Qed.
Print Assumptions C29_constant_images.

(** The documented index (zero constants) gives 2ab/(a^2+b^2) there, independently of the data
    range and of a common scaling of the images; UQI depends on both. *)
Theorem C29_scale_invariance_refuted : exists r m r2 m2 dr v v2,
  (forall idx, getd r2 idx = 2 * getd r idx /\ getd m2 idx = 2 * getd m idx) /\
  (forall big, uqi_score big (KReal dr) r m [] = Ok (Fin v)) /\
  (forall big, uqi_score big (KReal dr) r2 m2 [] = Ok (Fin v2)) /\ v <> v2.
Proof.
  exists (tabulate [7; 7]%nat (fun _ => 1)), (tabulate [7; 7]%nat (fun _ => 3)),
    (tabulate [7; 7]%nat (fun _ => 2)), (tabulate [7; 7]%nat (fun _ => 6)), 100.
  eexists; eexists. split; [|split; [|split]].
  - intros idx. unfold getd, get, tabulate. cbn [shp dat]. destruct (inb [7; 7]%nat idx) eqn:E.
    + rewrite !nth_error_map, (nth_error_indices _ _ E). simpl. split; ring.
    + split; ring.
  - intros big. apply C29_constant_images; [discriminate| |lra]. intros n [<-|[<-|[]]]; lia.
  - intros big. apply C29_constant_images; [discriminate| |lra]. intros n [<-|[<-|[]]]; lia.
  - intros H. lra.
Qed.
Print Assumptions C29_scale_invariance_refuted.

Theorem C29_range_independence_refuted : exists r m dr dr2 v v2,
  (forall big, uqi_score big (KReal dr) r m [] = Ok (Fin v)) /\
  (forall big, uqi_score big (KReal dr2) r m [] = Ok (Fin v2)) /\ v <> v2.
Proof.
  exists (tabulate [7; 7]%nat (fun _ => 1)), (tabulate [7; 7]%nat (fun _ => 3)), 100, 200.
  eexists; eexists. split; [|split].
  - intros big. apply C29_constant_images; [discriminate| |lra]. intros n [<-|[<-|[]]]; lia.
  - intros big. apply C29_constant_images; [discriminate| |lra]. intros n [<-|[<-|[]]]; lia.
  - intros H. lra.
Qed.
Print Assumptions C29_range_independence_refuted.

(** A keyword that UQI.score sets itself cannot be given. *)
Theorem C29_keyword_clash big dr r m kwargs k :
  In k uqi_keys -> In k (dkeys kwargs) -> uqi_score big dr r m kwargs = Err TypeError.
Proof.
  intros Hk Hin. unfold uqi_score. rewrite (merge_clash k); [reflexivity| |exact Hin]. exact Hk.
Qed.
Print Assumptions C29_keyword_clash.

(** C30 *)
Definition plain_mean (w l : list R) : R := rsum (map (fun p => fst p * snd p) (combine w l)) / INR (length l).

Theorem C30_mean_of_weighted_channels big dr r m w kwargs e :
  ssim_score big dr true r m (Some w) kwargs = Ok e ->
  positive_window kwargs -> length w = last (shp r) 0%nat -> (0 < length w)%nat ->
  exists scores, length scores = length w /\
    (forall c v, nth_error scores c = Some v ->
       ssim_score big dr false (channel r c) (channel m c) None kwargs = Ok (Fin v)) /\
    e = Fin (plain_mean w scores).
Proof.
  intros H Hw Hlen Hpos. unfold ssim_score in H. apply bind_ok in H as (sc & Hsc & H).
  apply bind_ok in H as (p & Hp & H). injection H as <-.
  assert (Hl : length sc = length w) by (rewrite (mapM_length _ _ _ Hsc), seq_length; congruence).
  assert (Hfin : exists l, sc = map Fin l).
  { assert (K : forall x, In x sc -> exists v, x = Fin v).
    { intros x Hx. apply In_nth_error in Hx as [i Hi].
      assert (i < length sc)%nat by (apply nth_error_Some; congruence).
      destruct (mapM_nth _ _ _ i i Hsc) as (y & Hy & Hf).
      { rewrite nth_error_nth' with (d := 0%nat); [rewrite seq_nth by (rewrite <- Hlen, <- Hl; assumption); f_equal; lia|].
        rewrite seq_length, <- Hlen, <- Hl. assumption. }
      rewrite Hi in Hy. injection Hy as <-.
      apply bind_ok in Hf as (kw & Hkw & Hf).
      destruct (ssim_values big _ _ kw x Hf) as (P & l & _ & -> & Hne & _).
      { unfold merge_kwargs in Hkw. destruct (existsb _ _); [discriminate|]. injection Hkw as <-.
        intros w0. simpl. apply Hw. }
      unfold mean_of. destruct l; [congruence|]. eauto. }
    clear -K. induction sc as [|x sc IH]; [exists []; reflexivity|].
    destruct IH as [l ->]; [intros; apply K; right; assumption|].
    destruct (K x (or_introl eq_refl)) as [v ->]. exists (v :: l). reflexivity. }
  destruct Hfin as [l ->]. rewrite map_length in Hl. exists l. split; [exact Hl|]. split.
  - intros c v Hc. assert (c < length l)%nat by (apply nth_error_Some; congruence).
    destruct (mapM_nth _ _ _ c c Hsc) as (y & Hy & Hf).
    { rewrite nth_error_nth' with (d := 0%nat); [rewrite seq_nth by (rewrite <- Hlen, <- Hl; assumption); f_equal; lia|].
      rewrite seq_length, <- Hlen, <- Hl. assumption. }
    rewrite nth_error_map, Hc in Hy. injection Hy as <-. exact Hf.
  - rewrite broadcast_fin in Hp by congruence. injection Hp as <-.
    rewrite mean_ext_fin.
    + rewrite map_length, combine_length, Hl, Nat.min_id. unfold plain_mean. rewrite Hl. reflexivity.
    + intros E. apply (f_equal (@length R)) in E. rewrite map_length, combine_length in E. simpl in E. lia.
Qed.
Print Assumptions C30_mean_of_weighted_channels.

(** Identical images: the mean of the weights. *)
Theorem C30_identical_images big dr r w kwargs e :
  ssim_score big dr true r r (Some w) kwargs = Ok e ->
  positive_window kwargs -> length w = last (shp r) 0%nat -> (0 < length w)%nat ->
  e = Fin (rsum w / INR (length w)).
Proof.
  intros H Hw Hlen Hpos.
  destruct (C30_mean_of_weighted_channels big dr r r w kwargs e H Hw Hlen Hpos) as (l & Hl & Hc & ->).
  f_equal. unfold plain_mean. rewrite Hl. f_equal.
  assert (K : forall v, In v l -> v = 1).
  { intros v Hv. apply In_nth_error in Hv as [c Hv]. apply Hc in Hv.
    apply C25_score in Hv; [congruence|exact Hw]. }
  clear -Hl K. revert w Hl; induction l as [|x l IH]; intros [|y w] Hl; simpl in *; try discriminate; [reflexivity|].
  rewrite IH; [|intros; apply K; right; assumption|lia]. rewrite (K x) by (left; reflexivity). ring.
Qed.
Print Assumptions C30_identical_images.

Theorem C30_weights_adding_to_one big dr r w kwargs e :
  ssim_score big dr true r r (Some w) kwargs = Ok e ->
  positive_window kwargs -> length w = 3%nat -> last (shp r) 0%nat = 3%nat ->
  (rsum w = 1 -> e = Fin (1 / 3)) /\ (e = Fin 1 <-> rsum w = 3).
Proof.
  intros H Hw H3 Hs. rewrite (C30_identical_images big dr r w kwargs e H Hw) by lia. rewrite H3.
  replace (INR 3) with 3 by (simpl; ring). split.
  - intros ->. reflexivity.
  - split; intros E.
    + injection E as E. lra.
    + rewrite E. f_equal. lra.
Qed.
Print Assumptions C30_weights_adding_to_one.

Theorem C30_weights_required big dr r m kwargs :
  ssim_score big dr true r m None kwargs = Err ValueError.
Proof. reflexivity. Qed.
Print Assumptions C30_weights_required.

(** A negative odd window is not rejected. *)
Theorem C28_negative_window_refuted big r m k1 k2 sigma w g mode cval al be ga dr :
  0 <= k1 -> 0 <= k2 -> 0 <= sigma -> Z.Odd w -> (w <= -3)%Z -> shp r <> [] -> In mode scipy_modes ->
  exists e, structural_similarity big r m (opts k1 k2 sigma (Some w) g mode cval al be ga dr) = Ok e.
Proof.
  intros H1 H2 H3 Hodd Hw Hs Hm. apply mode_known in Hm as [md Hmd].
  assert (HP : exists P, ssim_setup (shp r) (opts k1 k2 sigma (Some w) g mode cval al be ga dr) = Ok P).
  { rewrite setup_opts by assumption. cbv zeta. cbn [window].
    destruct (existsb _ (shp r)) eqn:E.
    { apply existsb_exists in E as (n & Hn & E). apply Z.ltb_lt in E. lia. }
    apply Z.odd_spec in Hodd. rewrite <- Z.negb_odd, Hodd. cbn [negb]. rewrite andb_false_r.
    destruct (Z.eqb_spec (w ^ Z.of_nat (length (shp r))) 1) as [E1|E1].
    - exfalso. assert (K : (Z.abs w ^ Z.of_nat (length (shp r)) = 1)%Z)
        by (rewrite <- Z.abs_pow, E1; reflexivity).
      assert (1 < Z.abs w ^ Z.of_nat (length (shp r)))%Z; [|lia].
      apply Z.pow_gt_1; [lia|]. destruct (shp r); [congruence|simpl; lia].
    - cbn [bind]. rewrite Hmd. cbn [from_opt]. destruct (if g then _ else _); cbn [bind]; eauto. }
  destruct HP as [P HP]. exact (ssim_returns big r m _ P HP).
Qed.
Print Assumptions C28_negative_window_refuted.

(** Examples: the hypotheses can be met. *)
Definition default_opts (dr : R) := opts (1 / 100) (3 / 100) (15 / 10) None true "reflect" 0 1 1 1 dr.

Lemma default_window : window (15 / 10) None true = 11%Z.
Proof.
  unfold window. rewrite <- radius_spec by lra. unfold gauss_radius.
  replace (35 / 10 * (15 / 10) + 5 / 10) with (IZR 23 / IZR 4) by lra.
  rewrite Rtrunc_div by lia. reflexivity.
Qed.

Example C25_example big r dr :
  shp r = [20; 30]%nat -> structural_similarity big r r (default_opts dr) = Ok (Fin 1).
Proof.
  intros Hs. destruct (C28_accepted big r r (1 / 100) (3 / 100) (15 / 10) None true "reflect" 0 1 1 1 dr) as [v Hv];
    try lra.
  - rewrite default_window. exists 5%Z. reflexivity.
  - rewrite default_window, Hs. intros n [<-|[<-|[]]]; lia.
  - left; reflexivity.
  - rewrite Hs; discriminate.
  - right; auto.
  - unfold default_opts. rewrite Hv. f_equal. apply (C25_identical_images _ _ _ _ Hv). discriminate.
Qed.

Example C27_example big r m dr :
  shp r = [20; 30]%nat -> shp m = [20; 30]%nat ->
  exists v, structural_similarity big r m (default_opts dr) = Ok (Fin v) /\ -1 <= v <= 1.
Proof.
  intros Hs Hm. destruct (C28_accepted big r m (1 / 100) (3 / 100) (15 / 10) None true "reflect" 0 1 1 1 dr) as [v Hv];
    try lra.
  - rewrite default_window. exists 5%Z. reflexivity.
  - rewrite default_window, Hs. intros n [<-|[<-|[]]]; lia.
  - left; reflexivity.
  - rewrite Hs; discriminate.
  - right; auto.
  - exists v. split; [exact Hv|].
    destruct (C27_range big r m _ _ (eq_trans Hs (eq_sym Hm)) Hv) as (v' & E & B).
    + discriminate.
    + intros k Hk. simpl in Hk. destruct Hk as [<-|[<-|[<-|[]]]]; cbn; lra.
    + right; right; left. exists "reflect"%string. split; [reflexivity|left; reflexivity].
    + injection E as ->. exact B.
Qed.

Example C29_example big : exists v,
  uqi_score big (KReal 255) (tabulate [7; 9]%nat (fun _ => 1)) (tabulate [7; 9]%nat (fun _ => 2)) [] = Ok (Fin v).
Proof.
  eexists. apply C29_constant_images; [discriminate| |lra]. intros n [<-|[<-|[]]]; lia.
Qed.

(** A colour image, weights 0.299, 0.587, 0.114 as for luma. *)
Example C30_example big r dr : shp r = [20; 30; 3]%nat ->
  ssim_score big (KReal dr) true r r (Some [0.299; 0.587; 0.114]) [] = Ok (Fin (1 / 3)).
Proof.
  intros Hs.
  assert (HP : forall c, exists v, structural_similarity big (channel r c) (channel r c) [("data_range", KReal dr)]%string = Ok v).
  { intros c.
    assert (Es : shp (channel r c) = [20; 30]%nat) by (unfold channel, tabulate; cbn [shp]; rewrite Hs; reflexivity).
    destruct (C28_accepted big (channel r c) (channel r c) (1 / 100) (3 / 100) (15 / 10) None true "reflect" 0 1 1 1 dr)
      as [v Hv]; try lra.
    - rewrite default_window. exists 5%Z. reflexivity.
    - rewrite default_window, Es. intros n [<-|[<-|[]]]; lia.
    - left; reflexivity.
    - rewrite Es; discriminate.
    - right; auto.
    - exists (Fin v). rewrite <- Hv. unfold structural_similarity. reflexivity. }
  assert (He : exists e, ssim_score big (KReal dr) true r r (Some [0.299; 0.587; 0.114]) [] = Ok e).
  { unfold ssim_score. rewrite Hs. cbn [last seq mapM]. unfold merge_kwargs. cbn [dkeys map existsb].
    cbn [bind app].
    destruct (HP 0%nat) as [v0 ->]. destruct (HP 1%nat) as [v1 ->]. destruct (HP 2%nat) as [v2 ->].
    cbn [bind]. eexists. reflexivity. }
  destruct He as [e He]. rewrite He. f_equal.
  apply (C30_weights_adding_to_one big (KReal dr) r _ [] e He); [discriminate|reflexivity|rewrite Hs; reflexivity|].
  unfold rsum. cbn [fold_right]. lra.
Qed.

Local Close Scope R_scope.

(** ** C101: border modes. These laws determine the pixel read for every position. *)

Theorem C101_inside : forall name m n p, mode_of name = Some m -> p < n -> pad_pos m n (Z.of_nat p) = Some p.
Proof.
  intros name m n p _ H. unfold pad_pos. destruct m.
  - rewrite Z.mod_small by lia. destruct (Z.ltb_spec (Z.of_nat p) (Z.of_nat n)); [|lia]. rewrite Nat2Z.id. reflexivity.
  - destruct (Nat.eqb_spec n 1); [f_equal; lia|]. rewrite Z.mod_small by lia.
    destruct (Z.ltb_spec (Z.of_nat p) (Z.of_nat n)); [|lia]. rewrite Nat2Z.id. reflexivity.
  - f_equal. lia.
  - rewrite Z.mod_small by lia. rewrite Nat2Z.id. reflexivity.
  - destruct (Z.leb_spec 0 (Z.of_nat p)); [|lia]. destruct (Z.ltb_spec (Z.of_nat p) (Z.of_nat n)); [|lia]. cbn [andb]. rewrite Nat2Z.id. reflexivity.
Qed.
Print Assumptions C101_inside.

(** 'reflect' repeats the edge pixel: (d c b a | a b c d | d c b a). *)
Theorem C101_reflect : forall name m n p, In name ["reflect"; "grid-mirror"]%string -> mode_of name = Some m -> 0 < n ->
  pad_pos m n (- 1 - p) = pad_pos m n p /\ pad_pos m n (p + 2 * Z.of_nat n) = pad_pos m n p.
Proof.
  intros name m n p Hn Hm H. assert (m = Reflect) as -> by (destruct Hn as [<-|[<-|[]]]; injection Hm as <-; reflexivity). unfold pad_pos. split.
  - pose proof (Z.mod_pos_bound p (2 * Z.of_nat n) ltac:(lia)) as B. pose proof (Z.div_mod p (2 * Z.of_nat n) ltac:(lia)) as D.
    set (q := (p mod (2 * Z.of_nat n))%Z) in *.
    assert (E : ((- 1 - p) mod (2 * Z.of_nat n) = 2 * Z.of_nat n - 1 - q)%Z).
    { symmetry. apply (Z.mod_unique_pos _ _ (- (p / (2 * Z.of_nat n)) - 1)); lia. }
    rewrite E. destruct (Z.ltb_spec (2 * Z.of_nat n - 1 - q) (Z.of_nat n)), (Z.ltb_spec q (Z.of_nat n)); f_equal; f_equal; lia.
  - replace (p + 2 * Z.of_nat n)%Z with (p + 1 * (2 * Z.of_nat n))%Z by ring. rewrite Z_mod_plus_full. reflexivity.
Qed.
Print Assumptions C101_reflect.

(** 'mirror' does not repeat it: (d c b | a b c d | c b a). *)
Theorem C101_mirror : forall m n p, mode_of "mirror" = Some m -> 2 <= n ->
  pad_pos m n (- p) = pad_pos m n p /\ pad_pos m n (p + (2 * Z.of_nat n - 2)) = pad_pos m n p.
Proof.
  intros m n p Hm H. injection Hm as <-. unfold pad_pos. destruct (Nat.eqb_spec n 1); [lia|]. split.
  - pose proof (Z.mod_pos_bound p (2 * Z.of_nat n - 2) ltac:(lia)) as B. pose proof (Z.div_mod p (2 * Z.of_nat n - 2) ltac:(lia)) as D.
    set (q := (p mod (2 * Z.of_nat n - 2))%Z) in *.
    assert (E : ((- p) mod (2 * Z.of_nat n - 2) = if q =? 0 then 0 else 2 * Z.of_nat n - 2 - q)%Z).
    { symmetry. destruct (Z.eqb_spec q 0).
      - apply (Z.mod_unique_pos _ _ (- (p / (2 * Z.of_nat n - 2)))); lia.
      - apply (Z.mod_unique_pos _ _ (- (p / (2 * Z.of_nat n - 2)) - 1)); lia. }
    rewrite E. destruct (Z.eqb_spec q 0).
    + rewrite e. reflexivity.
    + destruct (Z.ltb_spec (2 * Z.of_nat n - 2 - q) (Z.of_nat n)), (Z.ltb_spec q (Z.of_nat n)); f_equal; f_equal; lia.
  - replace (p + (2 * Z.of_nat n - 2))%Z with (p + 1 * (2 * Z.of_nat n - 2))%Z by ring. rewrite Z_mod_plus_full. reflexivity.
Qed.
Print Assumptions C101_mirror.

Theorem C101_nearest : forall m n p, mode_of "nearest" = Some m -> 0 < n ->
  ((p < 0)%Z -> pad_pos m n p = Some 0) /\ ((Z.of_nat n <= p)%Z -> pad_pos m n p = Some (n - 1)).
Proof. intros m n p Hm H. injection Hm as <-. unfold pad_pos. split; intros; f_equal; lia. Qed.
Print Assumptions C101_nearest.

Theorem C101_wrap : forall name m n p, In name ["wrap"; "grid-wrap"]%string -> mode_of name = Some m -> 0 < n ->
  pad_pos m n (p + Z.of_nat n) = pad_pos m n p.
Proof.
  intros name m n p Hn Hm H. assert (m = Wrap) as -> by (destruct Hn as [<-|[<-|[]]]; injection Hm as <-; reflexivity). unfold pad_pos.
  replace (p + Z.of_nat n)%Z with (p + 1 * Z.of_nat n)%Z by ring. rewrite Z_mod_plus_full. reflexivity.
Qed.
Print Assumptions C101_wrap.

(** The fill value outside *)
Theorem C101_constant : forall name m n p, In name ["constant"; "grid-constant"]%string -> mode_of name = Some m ->
  (p < 0 \/ Z.of_nat n <= p)%Z -> pad_pos m n p = None.
Proof.
  intros name m n p Hn Hm H. assert (m = Constant) as -> by (destruct Hn as [<-|[<-|[]]]; injection Hm as <-; reflexivity). unfold pad_pos.
  destruct (Z.leb_spec 0 p), (Z.ltb_spec p (Z.of_nat n)); try reflexivity. lia.
Qed.
Print Assumptions C101_constant.

(** Other names are not known. *)
Theorem C101_unknown : forall name, mode_of name = None <->
  ~ In name ["reflect"; "grid-mirror"; "mirror"; "nearest"; "wrap"; "grid-wrap"; "constant"; "grid-constant"]%string.
Proof.
  intros name. unfold mode_of. repeat match goal with |- context [String.eqb name ?x] => destruct (String.eqb_spec name x) as [->|] end; cbn [orb In]; split; intros H; try discriminate; try reflexivity; try (exfalso; apply H; tauto).
  intros X. repeat destruct X as [X|X]; congruence.
Qed.
Print Assumptions C101_unknown.

Example C101_ex : map (pad_pos Reflect 3) [-3; -2; -1; 0; 1; 2; 3; 4]%Z = map Some [2; 1; 0; 0; 1; 2; 2; 1] /\
  map (pad_pos Mirror 3) [-2; -1; 0; 1; 2; 3; 4]%Z = map Some [2; 1; 0; 1; 2; 1; 0].
Proof. split; reflexivity. Qed.

(** Default options and 20 x 30 pixels. *)
Example C26_example big r m dr : shp r = [20; 30]%nat -> shp m = [20; 30]%nat ->
  exists v, structural_similarity big r m (default_opts dr) = Ok (Fin v) /\ structural_similarity big m r (default_opts dr) = Ok (Fin v).
Proof.
  intros Hr Hm. destruct (C27_example big r m dr Hr Hm) as (v & Hv & _). exists v. split; [exact Hv|].
  rewrite <- Hv. symmetry. apply C26_symmetric. congruence.
Qed.

(** An even window is refused, a window of 11 pixels accepted. *)
Example C28_example big r m dr : shp r = [20; 30]%nat ->
  structural_similarity big r m (opts (1 / 100) (3 / 100) (15 / 10) (Some 8%Z) false "reflect" 0 1 1 1 dr) = Err ValueError /\
  exists v, structural_similarity big r m (opts (1 / 100) (3 / 100) (15 / 10) (Some 11%Z) false "reflect" 0 1 1 1 dr) = Ok (Fin v).
Proof.
  intros Hr. split.
  - apply C28_bad_window. left. exists 4%Z. reflexivity.
  - apply C28_accepted; try lra.
    + exists 5%Z. reflexivity.
    + rewrite Hr. intros n [<-|[<-|[]]]; cbn; lia.
    + left. reflexivity.
    + rewrite Hr. discriminate.
    + left. cbn. lia.
Qed.
