(** SSIM and UQI: when a score of 1 means identical images (C120). *)
From Coq Require Import Reals Lra Psatz Permutation.
From Verif Require Import Base NdArray LoadModel LoadProofs NormModel NormProofs PairModel PairProofs RealSums
  MetricModel SsimModel SsimProofs SsimProps SsimSymProofs.
Local Open Scope R_scope.

(** ** C120 *)

Lemma Rtrunc_ge1 x : 1 <= x -> (1 <= Rtrunc x)%Z.
Proof. intros H. rewrite <- (Rtrunc_IZR 1) by lia. apply Rtrunc_le; lra. Qed.

(** C120: with positive constants and exponents of at least one the score is 1 for identical images
    only, for both kinds of windows (a Gaussian one without explicit size) and all borders. *)
Theorem C120_only_identical big r m k1 k2 sigma win g mode cval al be ga dr :
  wf r -> wf m -> shp r = shp m -> 0 < k1 -> 0 < k2 -> 0 <= sigma -> dr <> 0 ->
  1 <= al -> 1 <= be -> 1 <= ga ->
  win = None \/ (g = false /\ forall w, win = Some w -> (0 < w)%Z) ->
  structural_similarity big r m (opts k1 k2 sigma win g mode cval al be ga dr) = Ok (Fin 1) -> r = m.
Proof.
  intros Wr Wm Es H1 H2 H3 Hdr Ha Hb Hg Hwin H.
  assert (Hpw : forall w, dget (opts k1 k2 sigma win g mode cval al be ga dr) "win_size" = Some (KInt w) -> (0 < w)%Z).
  { intros w. simpl. destruct win as [w'|]; [|discriminate]. intros E. injection E as <-.
    destruct Hwin as [|[_ Hw]]; [discriminate|]. apply Hw. reflexivity. }
  pose proof H as H0.
  destruct (ssim_all_values big r m _ _ H Hpw) as (P & l & HP & El & Hl).
  destruct (setup_ok _ _ _ HP) as (rad & w & Hcv & Hnear & Hcov & _ & _ & Hpad & Hodd & Hext & Hpos & Hrad & _).
  specialize (Hpos Hpw).
  assert (Hr : rad = Z.to_nat (p_pad P)).
  { apply Hrad. simpl. destruct Hwin as [->|[-> _]]; [left; intros w'; discriminate|right; reflexivity]. }
  subst rad.
  pose proof HP as HP'. rewrite setup_opts in HP' by lra. cbv zeta in HP'.
  destruct (existsb _ _); [discriminate|]. destruct (Z.even (window sigma win g)); [discriminate|].
  apply bind_ok in HP' as (cov & _ & HP'). apply bind_ok in HP' as (md & _ & HP').
  apply (f_equal (fun x => match x with Ok y => y | Err _ => P end)) in HP'. cbv beta iota in HP'.
  assert (Hc : covers (Z.to_nat (p_pad P)) (p_ws P)).
  { rewrite <- HP'. cbn [p_ws p_pad]. destruct g.
    - destruct Hwin as [->|[E _]]; [|discriminate]. unfold window. rewrite <- radius_spec by exact H3.
      replace (2 * Z.of_nat (gauss_radius sigma) + 1 - 1)%Z with (Z.of_nat (gauss_radius sigma) * 2)%Z by lia.
      rewrite Z.div_mul, Nat2Z.id by lia. apply gaussian_covers.
    - apply uniform_covers. unfold window. destruct win as [w'|]; [|lia].
      destruct Hwin as [E|[_ Hw]]; [discriminate|]. apply Hw. reflexivity. }
  assert (Hk : forall k, 0 < k -> 0 < (k * dr) * (k * dr)).
  { intros k Hk. apply Rsqr_pos_lt. apply Rmult_integral_contrapositive_currified; lra. }
  apply (ssim_one big P r m); try assumption.
  - symmetry; exact Es.
  - rewrite <- HP'. apply Hk, H1.
  - rewrite <- HP'. apply Hk, H2.
  - rewrite <- HP'. apply Rtrunc_ge1, Ha.
  - rewrite <- HP'. apply Rtrunc_ge1, Hb.
  - rewrite <- HP'. apply Rtrunc_ge1, Hg.
  - intros n Hn. specialize (Hext n Hn). rewrite Hpad.
    pose proof (Z.mul_div_le (w - 1) 2 ltac:(lia)). pose proof (Z.div_pos (w - 1) 2 ltac:(lia) ltac:(lia)). lia.
  - intros idx Hi Hin. apply (mean_one l).
    + intros x Hx. apply Hl in Hx as (i & I1 & -> & I2).
      (* every counted value is at most one: C27 for one pixel *)
      unfold ssim_map. rewrite getd_tab by exact I1.
      destruct (axes_seq (length (shp r))) as [Hnd Hlt].
      destruct (filter_kernel (p_ws P) (p_mode P) (shp r) _ Hcv Hnear _ Hnd Hlt i I1) as (K & HK & Kin & _ & K2 & K3).
      specialize (K2 (fun ax Hax => I2 ax (Hlt ax Hax))).
      assert (Fm : forall a b, shp a = shp r -> shp b = shp r ->
         getd (filter_nd (p_ws P) (p_mode P) (p_cval P) (amul a b)) i
         = Sum (fun k => fst k * (val (p_cval P) a (snd k) * val (p_cval P) b (snd k))) K).
      { intros a b Ea Eb. unfold filter_nd. change (shp (amul a b)) with (shp a). rewrite Ea, K3 by exact Ea.
        apply Sum_ext. intros [wt p] Hk'. cbn [fst snd].
        destruct p as [q|]; [|exfalso; exact (K2 _ Hk')]. cbn [val]. rewrite getd_amul; [reflexivity|].
        rewrite Ea. exact (Kin _ _ Hk'). }
      rewrite !Fm by congruence. unfold filter_nd. rewrite <- Es, !K3 by congruence.
      eapply Rle_trans; [apply Rle_abs|].
      apply (pixel_bound big P (fun k => fst k) (fun k => val (p_cval P) r (snd k))
           (fun k => val (p_cval P) m (snd k)) K); try assumption.
      * left. rewrite <- HP'. apply Hk, H1.
      * left. rewrite <- HP'. apply Hk, H2.
      * rewrite <- HP'. pose proof (Rtrunc_ge1 _ Ha). cbn [p_al]. lia.
      * rewrite <- HP'. pose proof (Rtrunc_ge1 _ Hb). cbn [p_be]. lia.
      * rewrite <- HP'. pose proof (Rtrunc_ge1 _ Hg). cbn [p_ga]. lia.
    + symmetry; exact El.
    + apply Hl. exists idx. split; [exact Hi|]. split; [reflexivity|].
      intros ax Hax. apply Hin. apply in_seq. lia.
Qed.
Print Assumptions C120_only_identical.

Lemma ssim_default big r m d :
  structural_similarity big r m [("data_range", KInt d)]%string
  = structural_similarity big r m (default_opts (IZR d)).
Proof. reflexivity. Qed.

(** SSIM.score and UQI.score with their default settings. *)
Theorem C120_ssim big r m d :
  wf r -> wf m -> shp r = shp m -> shp r <> [] -> (forall n, In n (shp r) -> (11 <= n)%nat) -> d <> 0%Z ->
  ssim_score big (KInt d) false r m None [] = Ok (Fin 1) <-> r = m.
Proof.
  intros Wr Wm Es Hne H11 Hd. unfold ssim_score. rewrite merge_disjoint by (intros k _ []). cbn [bind app].
  rewrite ssim_default. split.
  - intros H. apply (C120_only_identical big r m _ _ _ _ _ _ _ _ _ _ _ Wr Wm Es) in H; try lra; auto.
    apply not_0_IZR, Hd.
  - intros <-.
    destruct (C28_accepted big r r (1 / 100) (3 / 100) (15 / 10) None true "reflect" 0 1 1 1 (IZR d)) as [v Hv]; try lra.
    + rewrite default_window. exists 5%Z. reflexivity.
    + rewrite default_window. intros n Hn. specialize (H11 n Hn). lia.
    + left; reflexivity.
    + exact Hne.
    + right; auto.
    + unfold default_opts. rewrite Hv. f_equal. apply (C25_identical_images _ _ _ _ Hv). discriminate.
Qed.
Print Assumptions C120_ssim.

Theorem C120_uqi big r m d :
  wf r -> wf m -> shp r = shp m -> shp r <> [] -> (forall n, In n (shp r) -> (7 <= n)%nat) -> d <> 0%Z ->
  uqi_score big (KInt d) r m [] = Ok (Fin 1) <-> r = m.
Proof.
  intros Wr Wm Es Hne H7 Hd. unfold uqi_score. rewrite merge_disjoint by (intros k _ []). cbn [bind app].
  assert (E : forall a b, structural_similarity big a b
     [("data_range", KInt d); ("k_1", KInt 0); ("k_2", KInt 0); ("alpha", KInt 1); ("beta", KInt 1); ("gamma", KInt 1);
      ("gaussian_weights", KBool false)]%string
     = structural_similarity big a b (opts (1 / 100) (3 / 100) (15 / 10) None false "reflect" 0 1 1 1 (IZR d)))
    by reflexivity.
  rewrite E. split.
  - intros H. apply (C120_only_identical big r m _ _ _ _ _ _ _ _ _ _ _ Wr Wm Es) in H; try lra; auto.
    apply not_0_IZR, Hd.
  - intros <-.
    destruct (C28_accepted big r r (1 / 100) (3 / 100) (15 / 10) None false "reflect" 0 1 1 1 (IZR d)) as [v Hv]; try lra.
    + exists 3%Z. reflexivity.
    + intros n Hn. specialize (H7 n Hn). unfold window. lia.
    + left; reflexivity.
    + exact Hne.
    + left; unfold window; lia.
    + rewrite Hv. f_equal. apply (C25_identical_images _ _ _ _ Hv). discriminate.
Qed.
Print Assumptions C120_uqi.

(** An exponent below one is cut to 0: the luminance is then not compared. *)
Theorem C120_exponent_refuted : exists r m kw,
  wf r /\ wf m /\ shp r = shp m /\ r <> m /\ dget kw "alpha" = Some (KReal (1 / 2)) /\
  forall big, structural_similarity big r m kw = Ok (Fin 1).
Proof.
  exists (const_img [11; 11]%nat 0), (const_img [11; 11]%nat 255),
    [("alpha", KReal (1 / 2)); ("data_range", KReal 255)]%string.
  split; [apply wf_tabulate|]. split; [apply wf_tabulate|]. split; [reflexivity|]. split.
  { intros E. apply (f_equal (fun a => getd a [0; 0]%nat)) in E. unfold const_img in E.
    rewrite !getd_tab in E by reflexivity. lra. }
  split; [reflexivity|]. intros big.
  set (kw := [("alpha", KReal (1 / 2)); ("data_range", KReal 255)]%string).
  assert (E : ssim_setup [11; 11]%nat kw
     = ssim_setup [11; 11]%nat (opts (1 / 100) (3 / 100) (15 / 10) None true "reflect" 0 (1 / 2) 1 1 255)) by reflexivity.
  destruct (C28_accepted big (const_img [11; 11]%nat 0) (const_img [11; 11]%nat 255)
    (1 / 100) (3 / 100) (15 / 10) None true "reflect" 0 (1 / 2) 1 1 255) as [v Hv]; try lra.
  { rewrite default_window. exists 5%Z. reflexivity. }
  { rewrite default_window. intros n [<-|[<-|[]]]; lia. }
  { left; reflexivity. } { discriminate. } { right; auto. }
  assert (Hv' : structural_similarity big (const_img [11; 11]%nat 0) (const_img [11; 11]%nat 255) kw = Ok (Fin v))
    by exact Hv.
  rewrite Hv'. f_equal.
  destruct (ssim_const _ _ _ _ _ _ Hv') as (P & HP & ->); [discriminate|reflexivity|].
  rewrite E, setup_opts in HP by lra. cbv zeta in HP. rewrite default_window in HP.
  change (existsb (fun n => (Z.of_nat n <? 11)%Z) [11; 11]%nat) with false in HP.
  change (Z.even 11) with false in HP. cbv iota in HP. cbn [andb bind] in HP.
  apply bind_ok in HP as (md & _ & HP). injection HP as <-. cbn [p_al].
  replace (Rtrunc (1 / 2)) with 0%Z; [reflexivity|].
  replace (1 / 2) with (IZR 1 / IZR 2) by lra. rewrite Rtrunc_div by lia. reflexivity.
Qed.
Print Assumptions C120_exponent_refuted.

Lemma filter_identity m cval axes : forall a, (forall ax, In ax axes -> (ax < length (shp a))%nat) ->
  forall idx, inb (shp a) idx = true -> getd (fold_left (filter_axis [(0%Z, 1)] m cval) axes a) idx = getd a idx.
Proof.
  induction axes as [|ax axes IH]; intros a Hax idx Hi; simpl; [reflexivity|].
  rewrite IH; [|intros x Hx; apply Hax; right; exact Hx|exact Hi].
  unfold filter_axis. rewrite getd_tab by exact Hi. rewrite Sum_cons, Sum_nil. cbn [fst snd].
  pose proof (SsimProofs.inb_nth _ _ ax Hi (Hax ax (or_introl eq_refl))) as L.
  unfold sample. rewrite pad_pos_in by lia. rewrite Z.add_0_r, Nat2Z.id.
  rewrite (upd_same idx ax _ 0%nat eq_refl). ring.
Qed.

(** With a Gaussian narrower than an explicit window size the border is not looked at. *)
Theorem C120_window_refuted : exists r m kw,
  wf r /\ wf m /\ shp r = shp m /\ r <> m /\ positive_window kw /\
  kw = opts (1 / 100) (3 / 100) (1 / 10) (Some 3%Z) true "reflect" 0 1 1 1 255 /\
  forall big, structural_similarity big r m kw = Ok (Fin 1).
Proof.
  set (r := Arr [3; 3]%nat [0; 0; 0; 0; 0; 0; 0; 0; 0]). set (m := Arr [3; 3]%nat [255; 0; 0; 0; 0; 0; 0; 0; 0]).
  exists r, m. eexists. split; [reflexivity|]. split; [reflexivity|]. split; [reflexivity|]. split.
  { intros E. assert (0 = 255) by (unfold r, m in E; injection E; auto). lra. }
  split; [|split; [reflexivity|]].
  { intros w. simpl. intros E. injection E as <-. lia. }
  intros big. set (kw := opts _ _ _ _ _ _ _ _ _ _ _).
  assert (Hr : gauss_radius (1 / 10) = 0%nat).
  { unfold gauss_radius. replace (35 / 10 * (1 / 10) + 5 / 10) with (IZR 17 / IZR 20) by lra.
    rewrite Rtrunc_div by lia. reflexivity. }
  assert (Hws : gaussian_weights (1 / 10) 0 = [(0%Z, 1)]).
  { unfold gaussian_weights, offsets. cbn [Nat.mul Nat.add seq map]. change (Z.of_nat 0 - Z.of_nat 0)%Z with 0%Z.
    rewrite Sum_cons, Sum_nil. f_equal. f_equal. pose proof (gauss_pos (1 / 10) 0). field. lra. }
  destruct (C28_accepted big r m (1 / 100) (3 / 100) (1 / 10) (Some 3%Z) true "reflect" 0 1 1 1 255) as [v Hv]; try lra.
  { exists 1%Z. reflexivity. }
  { intros n [<-|[<-|[]]]; unfold window; lia. }
  { left; reflexivity. } { discriminate. } { left; unfold window; lia. }
  fold kw in Hv. rewrite Hv. f_equal.
  destruct (ssim_values big r m kw _ Hv) as (P & l & HP & El & Hne & Hl).
  { intros w. simpl. intros E. injection E as <-. lia. }
  rewrite El. apply mean_all; [exact Hne|]. intros x Hx. destruct (Hl x Hx) as (idx & Hi & -> & Hb).
  unfold kw in HP. change (shp r) with [3; 3]%nat in *. rewrite setup_opts in HP by lra. cbv zeta in HP.
  change (window (1 / 10) (Some 3%Z) true) with 3%Z in HP.
  change (existsb (fun n => (Z.of_nat n <? 3)%Z) [3; 3]%nat) with false in HP.
  change (Z.even 3) with false in HP. cbv iota in HP.
  apply bind_ok in HP as (cov & _ & HP). apply bind_ok in HP as (md & _ & HP).
  apply (f_equal (fun x => match x with Ok y => y | Err _ => P end)) in HP. cbv beta iota in HP.
  rewrite Hr, Hws in HP.
  assert (Hidx : idx = [1; 1]%nat).
  { rewrite <- HP in Hb. cbn [p_pad] in Hb. change (Z.to_nat ((3 - 1) / 2)) with 1%nat in Hb. cbn [length] in Hb.
    pose proof (Hb 0%nat ltac:(lia)) as B0. pose proof (Hb 1%nat ltac:(lia)) as B1.
    pose proof (inb_length _ _ Hi) as L. destruct idx as [|i [|j [|]]]; try discriminate L. simpl in B0, B1.
    replace i with 1%nat by lia. replace j with 1%nat by lia. reflexivity. }
  subst idx. unfold ssim_map. change (shp r) with [3; 3]%nat. rewrite getd_tab by reflexivity.
  rewrite <- HP at 2 3 4 5 6 7 8 9 10 11 12 13 14 15 16. cbn [p_ws p_mode p_cval].
  assert (F : forall a, shp a = [3; 3]%nat -> getd (filter_nd [(0%Z, 1)] md 0 a) [1; 1]%nat = getd a [1; 1]%nat).
  { intros a Ea. unfold filter_nd. apply filter_identity; rewrite Ea; [|reflexivity].
    intros ax Hax. apply in_seq in Hax. lia. }
  rewrite !F by reflexivity. rewrite !getd_amul by reflexivity.
  change (getd m [1; 1]%nat) with (getd r [1; 1]%nat). apply pixel_same.
Qed.
Print Assumptions C120_window_refuted.

(** A 3x3 image with one bright pixel in the middle. *)
Definition spot (z : R) : arr R := Arr [3; 3]%nat [0; 0; 0; 0; z; 0; 0; 0; 0].

Lemma spot_mul u w : amul (spot u) (spot w) = spot (u * w).
Proof.
  unfold amul, spot, tabulate. cbn [shp]. f_equal. cbn [indices flat_map map seq app].
  change (getd (Arr [3; 3]%nat [0; 0; 0; 0; u; 0; 0; 0; 0]) [1; 1]%nat) with u.
  change (getd (Arr [3; 3]%nat [0; 0; 0; 0; w; 0; 0; 0; 0]) [1; 1]%nat) with w.
  repeat match goal with |- context [getd (Arr ?s ?l) ?i] => change (getd (Arr s l) i) with 0 end.
  rewrite !Rmult_0_l. reflexivity.
Qed.

Lemma spot_filtered md z :
  getd (filter_nd [((-1)%Z, / 3); (0%Z, / 3); (1%Z, / 3)] md 0 (spot z)) [1; 1]%nat = z / 9.
Proof.
  assert (S : forall a ax idx o, (0 <= Z.of_nat (nth ax idx 0%nat) + o < Z.of_nat (nth ax (shp a) 0%nat))%Z ->
    sample md 0 a ax idx o = getd a (upd idx ax (Z.to_nat (Z.of_nat (nth ax idx 0%nat) + o)))).
  { intros a ax idx o H. unfold sample. rewrite pad_pos_in by lia. reflexivity. }
  unfold filter_nd. cbn [spot shp length seq fold_left]. set (ws := [((-1)%Z, / 3); (0%Z, / 3); (1%Z, / 3)]).
  set (b := filter_axis ws md 0 _ 0).
  assert (B : forall j, (j < 3)%nat -> getd b [1; j]%nat = (if (j =? 1)%nat then z else 0) / 3).
  { intros j Hj. unfold b, filter_axis. change (shp _) with [3; 3]%nat.
    rewrite getd_tab by (destruct j as [|[|[|]]]; try reflexivity; lia). unfold ws.
    rewrite !Sum_cons, Sum_nil. cbn [fst snd]. rewrite !S by (simpl; lia). simpl nth.
    destruct j as [|[|[|]]]; try lia;
      repeat match goal with |- context [getd (spot z) ?i] => first [change (getd (spot z) i) with 0 | change (getd (spot z) i) with z] end;
      cbn [Nat.eqb]; lra. }
  unfold filter_axis. change (shp b) with [3; 3]%nat. rewrite getd_tab by reflexivity. unfold ws at 1.
  rewrite !Sum_cons, Sum_nil. cbn [fst snd]. rewrite !S by (simpl; lia).
  change (upd [1; 1]%nat 1 (Z.to_nat (Z.of_nat (nth 1 [1; 1]%nat 0%nat) + -1))) with [1; 0]%nat.
  change (upd [1; 1]%nat 1 (Z.to_nat (Z.of_nat (nth 1 [1; 1]%nat 0%nat) + 0))) with [1; 1]%nat.
  change (upd [1; 1]%nat 1 (Z.to_nat (Z.of_nat (nth 1 [1; 1]%nat 0%nat) + 1))) with [1; 2]%nat.
  rewrite !B by lia. simpl. lra.
Qed.

(** With K1 = K2 = 0 (UQI as published; UQI.score passes k_1 and k_2, which are ignored) the negative
    of an image scores 1: the signs of luminance and structure cancel. *)
Theorem C120_negative_refuted : exists r m kw,
  wf r /\ wf m /\ shp r = shp m /\ r <> m /\
  kw = opts 0 0 (15 / 10) (Some 3%Z) false "reflect" 0 1 1 1 255 /\
  forall big, structural_similarity big r m kw = Ok (Fin 1).
Proof.
  set (r := spot 9). set (m := spot (-9)).
  exists r, m. eexists. split; [reflexivity|]. split; [reflexivity|]. split; [reflexivity|]. split.
  { intros E. assert (9 = -9) by (unfold r, m, spot in E; injection E; auto). lra. }
  split; [reflexivity|]. intros big. set (kw := opts _ _ _ _ _ _ _ _ _ _ _).
  destruct (C28_accepted big r m 0 0 (15 / 10) (Some 3%Z) false "reflect" 0 1 1 1 255) as [v Hv]; try lra.
  { exists 1%Z. reflexivity. }
  { intros n [<-|[<-|[]]]; unfold window; lia. }
  { left; reflexivity. } { discriminate. } { left; unfold window; lia. }
  fold kw in Hv. rewrite Hv. f_equal.
  destruct (ssim_values big r m kw _ Hv) as (P & l & HP & El & Hne & Hl).
  { intros w. simpl. intros E. injection E as <-. lia. }
  rewrite El. apply mean_all; [exact Hne|]. intros x Hx. destruct (Hl x Hx) as (idx & Hi & -> & Hb).
  unfold kw in HP. change (shp r) with [3; 3]%nat in *. rewrite setup_opts in HP by lra. cbv zeta in HP.
  change (window (15 / 10) (Some 3%Z) false) with 3%Z in HP.
  change (existsb (fun n => (Z.of_nat n <? 3)%Z) [3; 3]%nat) with false in HP.
  change (Z.even 3) with false in HP. cbv iota in HP.
  change (3 ^ Z.of_nat (length [3; 3]%nat) =? 1)%Z with false in HP. cbn [andb] in HP. cbv iota in HP.
  apply bind_ok in HP as (cov & Hcov & HP). apply bind_ok in HP as (md & _ & HP).
  apply (f_equal (fun x => match x with Ok y => y | Err _ => 0 end)) in Hcov. cbv beta iota in Hcov.
  apply (f_equal (fun x => match x with Ok y => y | Err _ => P end)) in HP. cbv beta iota in HP.
  change (uniform_weights 3) with [((-1)%Z, / 3); (0%Z, / 3); (1%Z, / 3)] in HP.
  assert (Hidx : idx = [1; 1]%nat).
  { rewrite <- HP in Hb. cbn [p_pad] in Hb. change (Z.to_nat ((3 - 1) / 2)) with 1%nat in Hb. cbn [length] in Hb.
    pose proof (Hb 0%nat ltac:(lia)) as B0. pose proof (Hb 1%nat ltac:(lia)) as B1.
    pose proof (inb_length _ _ Hi) as L. destruct idx as [|i [|j [|]]]; try discriminate L. simpl in B0, B1.
    replace i with 1%nat by lia. replace j with 1%nat by lia. reflexivity. }
  subst idx. unfold ssim_map. change (shp r) with [3; 3]%nat. rewrite getd_tab by reflexivity.
  set (ws := [((-1)%Z, / 3); (0%Z, / 3); (1%Z, / 3)]) in *.
  assert (Ews : p_ws P = ws) by (rewrite <- HP; reflexivity). assert (Ecv : p_cval P = 0) by (rewrite <- HP; reflexivity).
  rewrite Ews, Ecv. clear Hb Hl Hx El.
  change r with (spot 9). change m with (spot (-9)). rewrite !spot_mul, !spot_filtered.
  rewrite <- HP. unfold ssim_pixel. cbn [p_cov p_c1 p_c2 p_al p_be p_ga]. cbv zeta.
  rewrite <- Hcov. change (3 ^ Z.of_nat (length [3; 3]%nat))%Z with 9%Z. change (9 - 1)%Z with 8%Z.
  change 1 with (IZR 1). rewrite !Rtrunc_IZR by lia.
  replace (IZR 9 / IZR 8 * (9 * 9 / 9 - 9 / 9 * (9 / 9))) with (3 * 3) by field.
  replace (IZR 9 / IZR 8 * (-9 * -9 / 9 - -9 / 9 * (-9 / 9))) with (3 * 3) by field.
  unfold osqrt. destruct (Rlt_dec (3 * 3) 0); [lra|]. rewrite sqrt_square by lra.
  unfold nan1.
  destruct (Req_EM_T (9 / 9 * (9 / 9) + -9 / 9 * (-9 / 9) + 0 * 255 * (0 * 255)) 0); [lra|].
  destruct (Req_EM_T (3 * 3 + 3 * 3 + 0 * 255 * (0 * 255)) 0); [lra|].
  destruct (Req_EM_T (3 * 3 + 0 * 255 * (0 * 255) / 2) 0); [lra|].
  unfold zpow. change (0 <=? 1)%Z with true. cbv iota. change (Z.to_nat 1) with 1%nat. rewrite !pow_1. field.
Qed.
Print Assumptions C120_negative_refuted.

(** Images that differ in one pixel of the border do not score 1. *)
Example C120_example big :
  ssim_score big (KInt 255) false (const_img [11; 12]%nat 7)
    (tabulate [11; 12]%nat (fun idx => match idx with [0; 0]%nat => 8 | _ => 7 end)) None [] <> Ok (Fin 1).
Proof.
  intros H. apply C120_ssim in H; try (apply wf_tabulate); try reflexivity; try discriminate.
  - apply (f_equal (fun a => getd a [0; 0]%nat)) in H. unfold const_img in H. rewrite !getd_tab in H by reflexivity. lra.
  - intros n [<-|[<-|[]]]; lia.
Qed.
