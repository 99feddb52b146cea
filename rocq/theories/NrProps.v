(** Properties C45, C46, C49, C50, C52, C82, C83, C85, C86: no-reference metrics. *)
From Coq Require Import Reals Psatz Sorting.Sorted.
From Verif Require Import Base NdArray LoadModel LoadProofs NormModel NormProofs PairModel RealSums MetricModel
  MetricProofs SsimProofs MadModel RegionModel NrModel RegionProofs RegionFindProofs RegionProps NrProofs.

Local Open Scope R_scope.

(** ** Specification vocabulary *)

Definition mean (l : list R) : R := fold_right Rplus 0 l / INR (length l).
Definition deviation (l : list R) : R := sqrt (mean (map (fun x => (x - mean l) * (x - mean l)) l)).

Lemma mean_eq l : lmean l = mean l.
Proof. unfold lmean, mean. f_equal. induction l as [|x l IH]; [reflexivity|]. rewrite Sum_cons, IH. reflexivity. Qed.
Lemma deviation_eq l : std0 l = deviation l.
Proof.
  unfold std0, deviation. unfold mean at 1. rewrite map_length. rewrite <- mean_eq. unfold dev. do 2 f_equal.
  generalize (lmean l) as c. intros c. induction l as [|y k IHk]; [reflexivity|].
  rewrite Sum_cons, IHk. cbn [map fold_right]. ring.
Qed.

(** The pixels of an image at the positions with [P], row by row. *)
Definition selected (img : arr R) (P : list nat -> Prop) (l : list R) : Prop :=
  exists at_, StronglySorted (fun i j => (ravel (shp img) i < ravel (shp img) j)%nat) at_ /\
    (forall i, In i at_ <-> inb (shp img) i = true /\ P i) /\ map (get img) at_ = map Some l.

Definition in_region (kind : rkind) (s : list nat) (c : list Z) (r : Z) (idx : list nat) : Prop :=
  match kind with
  | KCubic => covers_all s c r idx
  | KSpherical => (sqdist idx c <= r * r)%Z
  | KFull | KOriginal => True
  | KUnknown => False
  end.

Lemma sorted_indices s : StronglySorted (fun i j => (ravel s i < ravel s j)%nat) (indices s).
Proof.
  assert (G : forall n l, (forall k x, nth_error l k = Some x -> ravel s x = n + k)%nat -> StronglySorted (fun i j => (ravel s i < ravel s j)%nat) l).
  { intros n l. revert n. induction l as [|x l IH]; intros n H; constructor.
    - apply (IH (S n)). intros k y Hk. rewrite (H (S k) y Hk). lia.
    - apply Forall_forall. intros y Hy. apply In_nth_error in Hy as [k Hk]. rewrite (H 0%nat x eq_refl), (H (S k) y Hk). lia. }
  apply (G 0%nat). intros k x Hk. assert (Hin : inb s x = true) by (apply in_indices; eapply nth_error_In; exact Hk).
  assert (K : (k < size s)%nat) by (rewrite <- length_indices; apply nth_error_Some; congruence).
  destruct (ravel_surj s k K) as (i & Hi & Ri). pose proof (nth_error_indices s i Hi) as N. rewrite Ri, Hk in N. injection N as ->. lia.
Qed.

Lemma sorted_filter {A} (P : A -> A -> Prop) f l : StronglySorted P l -> StronglySorted P (filter f l).
Proof.
  induction 1 as [|x l H IH Hx]; cbn [filter]; [constructor|]. destruct (f x); [|exact IH]. constructor; [exact IH|].
  apply Forall_forall. intros y Hy. apply filter_In in Hy as [Hy _]. rewrite Forall_forall in Hx. apply Hx. exact Hy.
Qed.

Lemma selected_masked img m P : wf img -> (forall idx, inb (shp img) idx = true -> (m idx = true <-> P idx)) ->
  selected img P (somes (dat (masked img m))).
Proof.
  intros Hwf HP. exists (filter m (indices (shp img))). split; [apply sorted_filter, sorted_indices|]. split.
  - intros i. rewrite filter_In, in_indices. split; intros [H1 H2]; (split; [exact H1|apply HP; assumption]).
  - rewrite somes_masked by exact Hwf.
    assert (G : forall p, In p (combine (indices (shp img)) (dat img)) -> get img (fst p) = Some (snd p)).
    { intros [i v] Hp. apply In_nth_error in Hp as [k Hk].
      assert (A : nth_error (indices (shp img)) k = Some i /\ nth_error (dat img) k = Some v).
      { revert Hk. generalize (indices (shp img)) (dat img). intros l l'. revert l' k. induction l as [|x l IH]; intros [|y l'] [|k] H; cbn in H |- *; try discriminate.
        - injection H as <- <-. split; reflexivity.
        - apply IH. exact H. }
      destruct A as [A1 A2]. assert (Hin : inb (shp img) i = true) by (apply in_indices; eapply nth_error_In; exact A1).
      cbn [fst snd]. unfold get. rewrite Hin.
      assert (K : (k < size (shp img))%nat) by (rewrite <- length_indices; apply nth_error_Some; congruence).
      destruct (ravel_surj _ k K) as (j & Hj & Rj). pose proof (nth_error_indices _ j Hj) as N. rewrite Rj, A1 in N. injection N as ->. rewrite Rj. exact A2. }
    rewrite <- (filter_fst m (indices (shp img)) (dat img)) by (rewrite length_indices; symmetry; exact Hwf).
    rewrite !map_map. apply map_ext_in. intros p Hp. apply filter_In in Hp as [Hp _]. apply G. exact Hp.
Qed.

Lemma selected_all img : wf img -> selected img (fun _ => True) (dat img).
Proof.
  intros Hwf. pose proof (selected_masked img (fun _ => true) (fun _ => True) Hwf ltac:(tauto)) as H.
  replace (somes (dat (masked img (fun _ => true)))) with (dat img) in H; [exact H|].
  rewrite somes_masked by exact Hwf. rewrite filter_const_true.
  assert (L : length (indices (shp img)) = length (dat img)) by (rewrite length_indices; symmetry; exact Hwf).
  revert L. generalize (indices (shp img)) (dat img). induction l as [|i l IH]; intros [|x l'] L; try discriminate; [reflexivity|].
  cbn [combine map snd]. rewrite <- IH by (injection L as L; exact L). reflexivity.
Qed.

(** Regions around accepted centres of greyscale images. *)
Lemma region_spec kind img c r : wf img -> grey (shp img) -> length c = length (shp img) -> (0 < r)%Z ->
  Forall (fun z => r <= Z.abs z)%Z c -> kind <> KUnknown ->
  exists g, make_region kind img c r = Ok g /\ selected img (in_region kind (shp img) c r) (values g).
Proof.
  intros Hwf Hg Hl Hr Hc Hk. destruct kind; try contradiction; cbn [make_region].
  - exists (Whole img). split; [reflexivity|]. apply selected_all. exact Hwf.
  - exists (Whole img). split; [reflexivity|]. apply selected_all. exact Hwf.
  - rewrite to_cubic_grey by assumption. eexists. split; [reflexivity|]. cbn [values].
    apply selected_masked; [exact Hwf|]. intros idx Hin. cbn [in_region]. apply in_box_covers; try assumption. lia.
  - rewrite to_spherical_grey by assumption. eexists. split; [reflexivity|]. cbn [values].
    apply selected_masked; [exact Hwf|]. intros idx Hin. cbn [in_region]. rewrite dist_sq_eq, Z.leb_le.
    replace (r ^ 2)%Z with (r * r)%Z by ring. reflexivity.
Qed.

(** ** C45 *)

Theorem C45_value : forall mk nobg img bc sc r kind it, wf img -> grey (shp img) ->
  length bc = length (shp img) -> length sc = length (shp img) -> (0 < r)%Z ->
  Forall (fun z => r <= Z.abs z)%Z bc -> Forall (fun z => r <= Z.abs z)%Z sc -> kind <> KUnknown ->
  exists sg bg, selected img (in_region kind (shp img) sc r) sg /\ selected img (in_region kind (shp img) bc r) bg /\
    (bg <> [] -> deviation bg = 0 ->
       cnr mk nobg img (map CInt bc) (map CInt sc) (RInt r) kind false it = Ok (Fin 0)) /\
    (bg <> [] -> sg <> [] -> deviation bg <> 0 ->
       cnr mk nobg img (map CInt bc) (map CInt sc) (RInt r) kind false it = Ok (Fin ((mean sg - mean bg) / deviation bg))).
Proof.
  intros mk nobg img bc sc r kind it Hwf Hg Lb Ls Hr Hb Hs Hk.
  destruct (region_spec kind img sc r Hwf Hg Ls Hr Hs Hk) as (S & ES & SS).
  destruct (region_spec kind img bc r Hwf Hg Lb Hr Hb Hk) as (B & EB & SB).
  exists (values S), (values B). split; [exact SS|]. split; [exact SB|].
  assert (E : cnr_regions nobg img (map CInt bc) (map CInt sc) (RInt r) kind false it = Ok (S, B)).
  { unfold cnr_regions, cnr_select. cbn [bind].
    destruct (C48_check sc r) as [[_ ->]|[F _]]; [|contradiction]. cbn [bind].
    destruct (C48_check bc r) as [[_ ->]|[F _]]; [|contradiction]. cbn [bind check_radius].
    destruct (Z.leb_spec r 0); [lia|]. cbn [bind]. rewrite Lb, Ls, Nat.eqb_refl. cbn [negb orb].
    rewrite ES, EB. reflexivity. }
  rewrite cnr_eq, E. split; intros N.
  - intros D. rewrite cnr_value_nonempty by exact N. rewrite deviation_eq, D.
    assert (Z : is_zero 0 = true) by (apply is_zero_iff; reflexivity). rewrite Z. reflexivity.
  - intros M D. rewrite cnr_value_nonempty by exact N. rewrite deviation_eq. apply is_zero_false in D. rewrite D.
    destruct (values S) eqn:EV; [contradiction|]. rewrite <- EV. rewrite !mean_eq. reflexivity.
Qed.
Print Assumptions C45_value.

(** Positive scaling and offsets: no difference, for all kinds of regions, given or found. *)
Theorem C45_affine : forall mk nobg img bc sc r kind au it (a b : R),
  0 < a -> is_colour (shp img) = false ->
  cnr mk nobg (amap (fun x => a * x + b) img) bc sc r kind au it = cnr mk nobg img bc sc r kind au it.
Proof.
  intros mk nobg img bc sc r kind au it a b Ha Hc. rewrite !cnr_eq.
  rewrite (cnr_regions_map nobg (fun x => a * x + b) img) by (right; split; [exact Hc|exists a, b; split; [exact Ha|reflexivity]]).
  destruct (cnr_regions nobg img bc sc r kind au it) as [[s g]|e]; [|reflexivity]. rewrite cnr_value_affine by exact Ha. reflexivity.
Qed.
Print Assumptions C45_affine.

(** Negation changes the sign. The hypothesis uses NaN for the unspecified value of an empty
    region: the result is a number because both regions have pixels. *)
Theorem C45_negation : forall nobg img bc sc r kind it v, 
  cnr NaN nobg img bc sc r kind false it = Ok (Fin v) ->
  forall mk, cnr mk nobg img bc sc r kind false it = Ok (Fin v) /\
             cnr mk nobg (amap Ropp img) bc sc r kind false it = Ok (Fin (- v)).
Proof.
  intros nobg img bc sc r kind it v H mk. rewrite cnr_eq in H. rewrite !cnr_eq.
  rewrite (cnr_regions_map nobg Ropp img) by (left; reflexivity).
  destruct (cnr_regions nobg img bc sc r kind false it) as [[s g]|e]; [|discriminate].
  injection H as H. apply cnr_value_fin in H as (N & H).
  assert (E : forall l, map Ropp l = map (fun x => -1 * x + 0) l) by (intros l; apply map_ext; intros x; ring).
  rewrite !cnr_value_nonempty by (rewrite ?values_rmap, ?map_nil_iff; exact N). rewrite !values_rmap, !E.
  rewrite std0_affine by exact N. replace (Rabs (-1)) with 1 by (rewrite Rabs_left; lra). rewrite Rmult_1_l.
  destruct H as [[D ->]|(D & M & ->)].
  - apply is_zero_iff in D. rewrite D. split; do 2 f_equal. ring.
  - apply is_zero_false in D. rewrite D. apply is_zero_false in D.
    destruct (values s) as [|y t] eqn:Es; [contradiction|]. rewrite <- Es in *.
    destruct (map (fun x => -1 * x + 0) (values s)) eqn:Em; [apply map_nil_iff in Em; contradiction|]. rewrite <- Em.
    rewrite !lmean_affine by assumption. split; [reflexivity|]. do 2 f_equal. field. exact D.
Qed.
Print Assumptions C45_negation.

(** The same region twice. *)
Theorem C45_coincide : forall nobg img c r kind it v,
  cnr NaN nobg img c c r kind false it = Ok (Fin v) -> v = 0.
Proof.
  intros nobg img c r kind it v H. rewrite cnr_eq in H.
  assert (E : exists g, cnr_regions nobg img c c r kind false it = Ok (g, g)).
  { destruct (cnr_regions nobg img c c r kind false it) as [[s g]|e] eqn:E; [|discriminate]. exists g. f_equal. f_equal.
    unfold cnr_regions, cnr_select in E. cbn [bind] in E. destruct (check_border c r) as [z|]; [|discriminate]. cbn [bind] in E.
    destruct (check_radius r) as [r'|]; [|discriminate]. cbn [bind] in E. destruct (_ || _); [discriminate|].
    destruct (make_region kind img z r') as [x|]; [|discriminate]. cbn [bind] in E. injection E as <- <-. reflexivity. }
  destruct E as [g E]. rewrite E in H. injection H as H. apply cnr_value_fin in H as (N & [[_ H]|(D & _ & H)]); [exact H|].
  rewrite H. unfold Rminus, Rdiv. rewrite Rplus_opp_r, Rmult_0_l. reflexivity.
Qed.
Print Assumptions C45_coincide.

(** Full regions: signal and background are the whole image, so the value is always 0. *)
Theorem C45_full : forall nobg img bc sc r kind it v, kind = KFull \/ kind = KOriginal ->
  cnr NaN nobg img bc sc r kind false it = Ok (Fin v) -> v = 0.
Proof.
  intros nobg img bc sc r kind it v Hk H. rewrite cnr_eq in H.
  assert (E : forall s g, cnr_regions nobg img bc sc r kind false it = Ok (s, g) -> s = Whole img /\ g = Whole img).
  { intros s g E. unfold cnr_regions, cnr_select in E. cbn [bind] in E. destruct (check_border sc r) as [z|]; [|discriminate]. cbn [bind] in E.
    destruct (check_border bc r) as [z'|]; [|discriminate]. cbn [bind] in E.
    destruct (check_radius r) as [r'|]; [|discriminate]. cbn [bind] in E. destruct (_ || _); [discriminate|].
    destruct Hk as [-> | ->]; cbn in E; injection E as <- <-; split; reflexivity. }
  destruct (cnr_regions nobg img bc sc r kind false it) as [[s g]|e]; [|discriminate]. destruct (E s g eq_refl) as [-> ->].
  injection H as H. apply cnr_value_fin in H as (N & [[_ H]|(D & _ & H)]); [exact H|].
  rewrite H. unfold Rminus, Rdiv. rewrite Rplus_opp_r, Rmult_0_l. reflexivity.
Qed.
Print Assumptions C45_full.

Definition demo : arr R := Arr [2; 4]%nat [1; 3; 5; 7; 1; 3; 5; 7].
Example C45_ex : cnr NaN (fun _ _ => 0%nat) demo [CInt 1; CInt 1] [CInt 1; CInt 3] (RInt 1) KCubic false 1 = Ok (Fin 4).
Proof.
  rewrite cnr_eq.
  assert (E : cnr_regions (fun _ _ => 0%nat) demo [CInt 1; CInt 1] [CInt 1; CInt 3] (RInt 1) KCubic false 1 =
    Ok (Masked (Arr [2; 4]%nat [None; None; Some 5; Some 7; None; None; Some 5; Some 7]),
        Masked (Arr [2; 4]%nat [Some 1; Some 3; None; None; Some 1; Some 3; None; None]))) by reflexivity.
  rewrite E. unfold cnr_value. cbn [values somes dat flat_map app].
  assert (M1 : lmean [1; 3; 1; 3] = 2) by (unfold lmean, Sum; cbn; lra).
  assert (M2 : lmean [5; 7; 5; 7] = 6) by (unfold lmean, Sum; cbn; lra).
  assert (D : std0 [1; 3; 1; 3] = 1).
  { unfold std0, dev. rewrite M1. unfold Sum. cbn. replace (_ / _) with (1 * 1) by field. apply sqrt_square. lra. }
  rewrite M1, M2, D. destruct (is_zero 1) eqn:Z; [apply is_zero_iff in Z; lra|]. do 2 f_equal. lra.
Qed.

(** ** C46 *)

(** Without the image-width trap (C82). *)
Theorem C46_value : forall mk nobg img sc r kind it lo hi yuv, wf img -> grey (shp img) -> last (shp img) 0%nat <> 3%nat ->
  length sc = length (shp img) -> (0 < r)%Z -> Forall (fun z => r <= Z.abs z)%Z sc -> kind <> KUnknown ->
  exists sg, selected img (in_region kind (shp img) sc r) sg /\
    (sg <> [] -> deviation sg = 0 ->
       snr mk nobg img (map CInt sc) (RInt r) kind false it lo hi yuv = Ok (SGrey (Fin 0) (snr_keys kind false))) /\
    (sg <> [] -> deviation sg <> 0 ->
       snr mk nobg img (map CInt sc) (RInt r) kind false it lo hi yuv = Ok (SGrey (Fin (mean sg / deviation sg)) (snr_keys kind false))).
Proof.
  intros mk nobg img sc r kind it lo hi yuv Hwf Hg H3 Ls Hr Hs Hk.
  destruct (region_spec kind img sc r Hwf Hg Ls Hr Hs Hk) as (S & ES & SS). exists (values S). split; [exact SS|].
  destruct (grey_flags _ Hg) as [Hc _].
  assert (E : snr_region nobg img (map CInt sc) (RInt r) kind false it lo hi = Ok S).
  { unfold snr_region, snr_select. cbn [bind]. destruct (C48_check sc r) as [[_ ->]|[F _]]; [|contradiction]. cbn [bind check_radius].
    destruct (Z.leb_spec r 0); [lia|]. cbn [bind]. unfold snr_dims. destruct (shp img) as [|d s] eqn:Es; [destruct Hg as [G|[G _]]; discriminate|].
    rewrite <- Es in *. apply Nat.eqb_neq in H3. rewrite H3, Ls, Nat.add_0_r, Nat.eqb_refl. cbn [negb raise_if bind]. exact ES. }
  rewrite snr_eq, E by exact Hc. split; intros N D; rewrite snr_value_nonempty by exact N; rewrite deviation_eq.
  - assert (Z : is_zero (deviation (values S)) = true) by (apply is_zero_iff; exact D). rewrite Z. reflexivity.
  - apply is_zero_false in D. rewrite D, mean_eq. reflexivity.
Qed.
Print Assumptions C46_value.

Theorem C46_scaling : forall mk nobg img sc r kind au it lo hi yuv (a : R), 0 < a -> is_colour (shp img) = false ->
  snr mk nobg (amap (fun x => a * x) img) sc r kind au it lo hi yuv = snr mk nobg img sc r kind au it lo hi yuv.
Proof.
  intros mk nobg img sc r kind au it lo hi yuv a Ha Hc. rewrite !snr_eq by exact Hc.
  rewrite (snr_region_map nobg (fun x => a * x) img) by (right; split; [exact Hc|exists a, 0; split; [exact Ha|intros x; ring]]).
  destruct (snr_region nobg img sc r kind au it lo hi) as [s|e]; cbn [rmapM]; [|reflexivity]. do 2 f_equal.
  destruct (values s) as [|x l] eqn:Es.
  - unfold snr_value. rewrite values_rmap, Es. cbn [map]. apply on_empty_rmap.
  - assert (N : values s <> []) by (rewrite Es; discriminate).
    rewrite !snr_value_nonempty by (rewrite ?values_rmap, ?map_nil_iff; exact N). rewrite !values_rmap.
    replace (map (fun x => a * x) (values s)) with (map (fun x => a * x + 0) (values s)) by (apply map_ext; intros; ring).
    rewrite std0_affine, lmean_affine by exact N. rewrite Rabs_pos_eq by lra.
    destruct (is_zero (std0 (values s))) eqn:D.
    + apply is_zero_iff in D. rewrite D, Rmult_0_r. assert (Z : is_zero 0 = true) by (apply is_zero_iff; reflexivity). rewrite Z. reflexivity.
    + apply is_zero_false in D. assert (Z : is_zero (a * std0 (values s)) = false) by (apply is_zero_false; apply Rmult_integral_contrapositive_currified; lra).
      rewrite Z. f_equal. field. split; lra.
Qed.
Print Assumptions C46_scaling.

(** Adding a positive constant: a region with noise gets a larger value; a constant region stays 0. *)
Theorem C46_offset : forall nobg img sc r kind au it lo hi yuv b v ks, 0 < b -> is_colour (shp img) = false ->
  snr NaN nobg img sc r kind au it lo hi yuv = Ok (SGrey (Fin v) ks) ->
  forall mk, exists v', snr mk nobg (amap (fun x => x + b) img) sc r kind au it lo hi yuv = Ok (SGrey (Fin v') ks) /\
    ((v = 0 /\ v' = 0) \/ v < v').
Proof.
  intros nobg img sc r kind au it lo hi yuv b v ks Hb Hc H mk. rewrite snr_eq in H |- * by exact Hc.
  rewrite (snr_region_map nobg (fun x => x + b) img) by (right; split; [exact Hc|exists 1, b; split; [lra|intros x; ring]]).
  destruct (snr_region nobg img sc r kind au it lo hi) as [s|e]; cbn [rmapM]; [|discriminate]. injection H as H <-.
  apply snr_value_fin in H as (N & H). rewrite snr_value_nonempty by (rewrite ?values_rmap, ?map_nil_iff; exact N). rewrite values_rmap.
  replace (map (fun x => x + b) (values s)) with (map (fun x => 1 * x + b) (values s)) by (apply map_ext; intros; ring).
  rewrite std0_affine, lmean_affine by exact N. rewrite Rabs_pos_eq by lra. rewrite !Rmult_1_l. destruct H as [[D ->]|[D ->]].
  - apply is_zero_iff in D. rewrite D. exists 0. split; [reflexivity|]. left. split; reflexivity.
  - pose proof (std0_nonneg (values s)). apply is_zero_false in D. rewrite D. apply is_zero_false in D. eexists. split; [reflexivity|]. right.
    unfold Rdiv. apply Rmult_lt_compat_r; [apply Rinv_0_lt_compat; lra|lra].
Qed.
Print Assumptions C46_offset.

(** With two different pixels in the region it does get larger. *)
Theorem C46_noise : forall mk nobg img sc r kind it lo hi yuv b i j x y, wf img -> grey (shp img) -> last (shp img) 0%nat <> 3%nat ->
  length sc = length (shp img) -> (0 < r)%Z -> Forall (fun z => r <= Z.abs z)%Z sc -> kind <> KUnknown -> 0 < b ->
  get img i = Some x -> get img j = Some y -> x <> y -> in_region kind (shp img) sc r i -> in_region kind (shp img) sc r j ->
  exists v v', snr mk nobg img (map CInt sc) (RInt r) kind false it lo hi yuv = Ok (SGrey (Fin v) (snr_keys kind false)) /\
    snr mk nobg (amap (fun x => x + b) img) (map CInt sc) (RInt r) kind false it lo hi yuv = Ok (SGrey (Fin v') (snr_keys kind false)) /\ v < v'.
Proof.
  intros mk nobg img sc r kind it lo hi yuv b i j x y Hwf Hg H3 Ls Hr Hs Hk Hb Hi Hj Hne Ri Rj.
  destruct (region_spec kind img sc r Hwf Hg Ls Hr Hs Hk) as (S & ES & (at2 & _ & Hat2 & Hmap2)).
  destruct (grey_flags _ Hg) as [Hc _].
  assert (E : snr_region nobg img (map CInt sc) (RInt r) kind false it lo hi = Ok S).
  { unfold snr_region, snr_select. cbn [bind]. destruct (C48_check sc r) as [[_ ->]|[F _]]; [|contradiction]. cbn [bind check_radius].
    destruct (Z.leb_spec r 0); [lia|]. cbn [bind]. unfold snr_dims. destruct (shp img) as [|d s] eqn:Es; [destruct Hg as [G|[G _]]; discriminate|].
    rewrite <- Es in *. apply Nat.eqb_neq in H3. rewrite H3, Ls, Nat.add_0_r, Nat.eqb_refl. cbn [negb raise_if bind]. exact ES. }
  assert (IN : forall k z, get img k = Some z -> in_region kind (shp img) sc r k -> In z (values S)).
  { intros k z Hz Rk. assert (In k at2) by (apply Hat2; split; [eapply get_inb; exact Hz|exact Rk]).
    assert (X : In (Some z) (map Some (values S))) by (rewrite <- Hmap2, <- Hz; apply in_map; assumption).
    apply in_map_iff in X as (w & Ew & X). injection Ew as ->. exact X. }
  pose proof (IN i x Hi Ri) as Ix. pose proof (IN j y Hj Rj) as Iy.
  assert (N : values S <> []) by (destruct (values S); [destruct Ix|discriminate]).
  assert (D : std0 (values S) <> 0).
  { intros D0. pose proof (proj1 (std0_zero _ N) D0) as D. apply Hne. rewrite (D x Ix), (D y Iy). reflexivity. }
  rewrite !snr_eq by exact Hc. rewrite (snr_region_map nobg (fun x => x + b) img) by (left; reflexivity). rewrite E. cbn [rmapM].
  rewrite !snr_value_nonempty by (rewrite ?values_rmap, ?map_nil_iff; exact N). rewrite !values_rmap.
  replace (map (fun x => x + b) (values S)) with (map (fun x => 1 * x + b) (values S)) by (apply map_ext; intros; ring).
  rewrite std0_affine, lmean_affine by exact N. rewrite Rabs_pos_eq by lra. rewrite !Rmult_1_l.
  pose proof (std0_nonneg (values S)). apply is_zero_false in D. rewrite D. apply is_zero_false in D.
  eexists. eexists. split; [reflexivity|]. split; [reflexivity|].
  unfold Rdiv. apply Rmult_lt_compat_r; [apply Rinv_0_lt_compat; lra|lra].
Qed.
Print Assumptions C46_noise.

(** Grey values 5 and 7 next to each other: adding 1 makes the score larger. *)
Example C46_ex : exists v v', snr NaN (fun _ _ => 0%nat) demo [CInt 1; CInt 3] (RInt 1) KCubic false 1 0 100 false = Ok (SGrey (Fin v) (snr_keys KCubic false)) /\
  snr NaN (fun _ _ => 0%nat) (amap (fun x => x + 1) demo) [CInt 1; CInt 3] (RInt 1) KCubic false 1 0 100 false = Ok (SGrey (Fin v') (snr_keys KCubic false)) /\ v < v'.
Proof.
  apply (C46_noise NaN (fun _ _ => 0%nat) demo [1; 3]%Z 1 KCubic 1 0 100 false 1 [0; 2]%nat [0; 3]%nat 5 7); try reflexivity; try discriminate; try lra; try lia.
  - left. reflexivity.
  - repeat constructor; lia.
  - apply cov_cons; [left; lia|apply cov_cons; [left; lia|apply cov_nil]].
  - apply cov_cons; [left; lia|apply cov_cons; [left; lia|apply cov_nil]].
Qed.

(** ** C49 *)

(** Colour images with given centres: cubic and spherical regions never work, whatever the centres. *)
Theorem C49_given : forall mk nobg img H W bc sc r kind it, shp img = [H; W; 3]%nat -> (0 < r)%Z ->
  kind <> KFull -> kind <> KOriginal ->
  cnr mk nobg img (map CInt bc) (map CInt sc) (RInt r) kind false it = Err ValueError.
Proof.
  intros mk nobg img H W bc sc r kind it Hs Hr K1 K2. rewrite cnr_eq. unfold cnr_regions, cnr_select. cbn [bind].
  destruct (C48_check sc r) as [[_ ->]|[_ ->]]; cbn [bind]; [|reflexivity].
  destruct (C48_check bc r) as [[_ ->]|[_ ->]]; cbn [bind check_radius]; [|reflexivity].
  destruct (Z.leb_spec r 0); [lia|]. cbn [bind].
  destruct (Nat.eqb_spec (length (shp img)) (length sc)) as [L1|L1]; [|reflexivity].
  destruct (Nat.eqb_spec (length (shp img)) (length bc)) as [L2|L2]; [|reflexivity]. cbn [negb orb].
  rewrite Hs in L1. cbn [length] in L1. destruct kind; try contradiction; cbn [make_region].
  - unfold to_cubic. rewrite Hs, <- L1. reflexivity.
  - unfold to_spherical. rewrite Hs, <- L1. reflexivity.
  - reflexivity.
Qed.
Print Assumptions C49_given.

Lemma check_border_length c r z : check_border c r = Ok z -> length z = length c.
Proof.
  revert z. induction c as [|x c IH]; intros z H; cbn [check_border] in H; [injection H as <-; reflexivity|].
  destruct x as [k|]; [|discriminate]. destruct (match r with RInt _ => _ | RReal _ => _ | ROther => _ end) as [[]|]; [|discriminate].
  cbn [bind] in H. destruct (check_border c r) as [zs|]; [|discriminate]. cbn [bind] in H. injection H as <-. cbn. rewrite (IH zs); reflexivity.
Qed.

(** Not even with arguments of other types or automatic centres. *)
Theorem C49_never : forall mk nobg img H W bc sc r kind au it v, wf img -> shp img = [H; W; 3]%nat ->
  kind = KCubic \/ kind = KSpherical -> cnr mk nobg img bc sc r kind au it <> Ok v.
Proof.
  intros mk nobg img H W bc sc r kind au it v Hwf Hs Hk E. rewrite cnr_eq in E. unfold cnr_regions in E.
  destruct (cnr_select nobg img bc sc r kind au it) as [[[[[s1 b1] rad] sreg] breg]|e] eqn:Es; [|discriminate]. cbn [bind] in E.
  destruct (check_border s1 rad) as [sz|] eqn:E1; [|discriminate]. cbn [bind] in E.
  destruct (check_border b1 rad) as [bz|] eqn:E2; [|discriminate]. cbn [bind] in E.
  destruct (check_radius rad) as [r'|]; [|discriminate]. cbn [bind] in E.
  destruct (Nat.eqb_spec (length (shp img)) (length sz)) as [L1|L1]; [|discriminate].
  rewrite Hs in L1. cbn [length] in L1. cbn [negb orb] in E. destruct (negb _); [discriminate|].
  assert (N : sreg = None).
  { unfold cnr_select in Es. destruct au; [|injection Es as _ _ _ <- _; reflexivity].
    destruct (get_binary img 90 100) as [fg|]; [|discriminate]. cbn [bind] in Es.
    destruct (get_binary img 0 90) as [bg|]; [|discriminate]. cbn [bind] in Es.
    destruct (find_largest_region nobg fg it kind) as [[[c1 r1] m1]|]; [|discriminate]. cbn [bind] in Es.
    destruct (find_largest_region nobg bg it kind) as [[[c2 r2] m2]|]; [|discriminate]. cbn [bind] in Es.
    destruct Hk as [-> | ->]; cbn in Es; injection Es as _ _ _ <- _; reflexivity. }
  subst sreg. destruct Hk as [-> | ->]; cbn [make_region] in E.
  - unfold to_cubic in E. rewrite Hs, <- L1 in E. discriminate.
  - unfold to_spherical in E. rewrite Hs, <- L1 in E. discriminate.
Qed.
Print Assumptions C49_never.

(** "full" and "original" do compute, with three coordinates, and give 0 (C45_full). *)
Theorem C49_full : forall mk nobg img H W bc sc r kind it, shp img = [H; W; 3]%nat -> dat img <> [] -> (0 < r)%Z ->
  length bc = 3%nat -> length sc = 3%nat -> Forall (fun z => r <= Z.abs z)%Z bc -> Forall (fun z => r <= Z.abs z)%Z sc ->
  kind = KFull \/ kind = KOriginal ->
  cnr mk nobg img (map CInt bc) (map CInt sc) (RInt r) kind false it = Ok (Fin 0).
Proof.
  intros mk nobg img H W bc sc r kind it Hs Hn Hr Lb Ls Fb Fs Hk. rewrite cnr_eq. unfold cnr_regions, cnr_select. cbn [bind].
  destruct (C48_check sc r) as [[_ ->]|[F _]]; [|contradiction]. cbn [bind].
  destruct (C48_check bc r) as [[_ ->]|[F _]]; [|contradiction]. cbn [bind check_radius].
  destruct (Z.leb_spec r 0); [lia|]. cbn [bind]. rewrite Hs, Lb, Ls. cbn [length Nat.eqb negb orb].
  assert (G : cnr_value mk (Whole img) (Whole img) = Fin 0).
  { rewrite cnr_value_nonempty by exact Hn. destruct (is_zero _); [reflexivity|]. cbn [values].
    destruct (dat img) eqn:Ed; [contradiction|]. rewrite <- Ed. f_equal. unfold Rminus, Rdiv. rewrite Rplus_opp_r. ring. }
  destruct Hk as [-> | ->]; cbn [make_region bind]; rewrite G; reflexivity.
Qed.
Print Assumptions C49_full.

Example C49_ex : cnr NaN (fun _ _ => 0%nat) (Arr [4; 4; 3]%nat (repeat 1 48)) [CInt 1; CInt 1] [CInt 2; CInt 2] (RInt 1) KCubic false 1 = Err ValueError.
Proof. reflexivity. Qed.

(** ** C50 *)

Lemma has_all_iff {V} keys (d : dict V) : has_all keys d = true <-> forall k, In k keys -> dget d k <> None.
Proof.
  unfold has_all. rewrite forallb_forall. split; intros H k Hk; specialize (H k Hk); destruct (dget d k); congruence.
Qed.

Lemma take_stored_get {V} keys : forall (params kw : dict V) k, 
  dget (take_stored keys params kw) k =
  if existsb (String.eqb k) keys then match dget params k with Some v => Some v | None => dget kw k end else dget kw k.
Proof.
  unfold take_stored. induction keys as [|k0 keys IH]; intros params kw k; [reflexivity|]. cbn [fold_left existsb]. rewrite IH.
  destruct (String.eqb_spec k k0) as [->|Hne]; cbn [orb].
  - destruct (dget params k0) as [v|] eqn:E.
    + rewrite dget_dset_same. destruct (existsb _ keys); reflexivity.
    + destruct (existsb _ keys); reflexivity.
  - assert (X : dget (match dget params k0 with Some v => dset kw k0 v | None => kw end) k = dget kw k).
    { destruct (dget params k0); [apply dget_dset_other; congruence|reflexivity]. }
    rewrite X. reflexivity.
Qed.

Lemma take_stored_nodup {V} keys : forall (params kw : dict V), NoDup (dkeys kw) -> NoDup (dkeys (take_stored keys params kw)).
Proof.
  unfold take_stored. induction keys as [|k keys IH]; intros params kw H; [exact H|]. cbn [fold_left]. apply IH.
  destruct (dget params k) as [v|]; [|exact H]. rewrite dkeys_dset. destruct (existsb _ (dkeys kw)) eqn:E0; [exact H|].
  assert (E : ~ In k (dkeys kw)).
  { intros Hin. assert (T : existsb (fun x => String.eqb x k) (dkeys kw) = true) by (apply existsb_exists; exists k; split; [exact Hin|apply String.eqb_refl]). congruence. }
  clear - H E. induction H as [|x l Hx Hl IHl]; cbn.
  - constructor; [intros []|constructor].
  - constructor; [|apply IHl; intros Hin; apply E; right; exact Hin].
    intros Hin. apply in_app_iff in Hin as [Hin|[->|[]]]; [contradiction|]. apply E. left. reflexivity.
Qed.

Section stored.
Context {V I X : Type}.
Variable load : dict V -> res I.
Variable compute : I -> dict V -> res X.

(** All keys given: they are used as given and stored, whatever was stored before. *)
Theorem C50_given : forall keys params kwargs img, load params = Ok img -> NoDup (dkeys kwargs) ->
  (forall k, In k keys -> dget kwargs k <> None) ->
  fst (nr_score load compute keys params kwargs) = compute img kwargs /\
  forall k, dget (snd (nr_score load compute keys params kwargs)) k =
    match dget kwargs k with Some v => Some v | None => dget params k end.
Proof.
  intros keys params kwargs img Hl Hnd H. unfold nr_score. rewrite Hl. apply has_all_iff in H. rewrite H. cbn [fst snd].
  split; [reflexivity|]. intros k. apply dget_dupdate. exact Hnd.
Qed.

(** One key missing and all stored: all of them are taken from the stored parameters; the given
    ones are discarded. *)
Theorem C50_stored : forall keys params kwargs img k0, load params = Ok img -> NoDup (dkeys kwargs) ->
  In k0 keys -> dget kwargs k0 = None -> (forall k, In k keys -> dget params k <> None) ->
  exists used, fst (nr_score load compute keys params kwargs) = compute img used /\
    (forall k, In k keys -> dget used k = dget params k) /\
    (forall k, ~ In k keys -> dget used k = dget kwargs k) /\
    (forall k, In k keys -> dget (snd (nr_score load compute keys params kwargs)) k = dget params k) /\
    (forall k, ~ In k keys -> dget (snd (nr_score load compute keys params kwargs)) k =
       match dget kwargs k with Some v => Some v | None => dget params k end).
Proof.
  intros keys params kwargs img k0 Hl Hnd Hin Hmiss Hst. unfold nr_score. rewrite Hl.
  assert (A : has_all keys kwargs = false).
  { destruct (has_all keys kwargs) eqn:E; [|reflexivity]. rewrite has_all_iff in E. exfalso. exact (E k0 Hin Hmiss). }
  assert (B : has_all keys params = true) by (apply has_all_iff; exact Hst).
  rewrite A, B. cbn [fst snd]. exists (take_stored keys params kwargs). split; [reflexivity|].
  assert (U1 : forall k, In k keys -> dget (take_stored keys params kwargs) k = dget params k).
  { intros k Hk. rewrite take_stored_get. assert (E : existsb (String.eqb k) keys = true) by (apply existsb_exists; exists k; split; [exact Hk|apply String.eqb_refl]).
    rewrite E. specialize (Hst k Hk). destruct (dget params k); [reflexivity|contradiction]. }
  assert (U2 : forall k, ~ In k keys -> dget (take_stored keys params kwargs) k = dget kwargs k).
  { intros k Hk. rewrite take_stored_get. destruct (existsb (String.eqb k) keys) eqn:E; [|reflexivity].
    apply existsb_exists in E as (k' & Hk' & E). apply String.eqb_eq in E. subst. contradiction. }
  split; [exact U1|]. split; [exact U2|]. pose proof (take_stored_nodup keys params kwargs Hnd) as ND. split; intros k Hk.
  - rewrite dget_dupdate, U1 by assumption. destruct (dget params k); reflexivity.
  - rewrite dget_dupdate, U2 by assumption. reflexivity.
Qed.

(** Nothing complete given or stored: ValueError, and nothing is stored. *)
Theorem C50_missing : forall keys params kwargs img k0 k1, load params = Ok img ->
  In k0 keys -> dget kwargs k0 = None -> In k1 keys -> dget params k1 = None ->
  nr_score load compute keys params kwargs = (Err ValueError, params).
Proof.
  intros keys params kwargs img k0 k1 Hl H0 M0 H1 M1. unfold nr_score. rewrite Hl.
  assert (A : forall d k, In k keys -> dget d k = None -> @has_all V keys d = false).
  { intros d k Hk M. destruct (has_all keys d) eqn:E; [|reflexivity]. rewrite has_all_iff in E. exfalso. exact (E k Hk M). }
  rewrite (A _ _ H0 M0), (A _ _ H1 M1). reflexivity.
Qed.

(** A call with everything given followed by a call without centres: the second one uses the
    values of the first, even if the first one raised. *)
Theorem C50_reuse : forall keys params kw1 kw2 img1 img2, load params = Ok img1 -> NoDup (dkeys kw1) -> NoDup (dkeys kw2) ->
  keys <> [] -> (forall k, In k keys -> dget kw1 k <> None) -> (forall k, In k keys -> dget kw2 k = None) ->
  let p1 := snd (nr_score load compute keys params kw1) in load p1 = Ok img2 ->
  exists used, fst (nr_score load compute keys p1 kw2) = compute img2 used /\
    (forall k, In k keys -> dget used k = dget kw1 k) /\ (forall k, ~ In k keys -> dget used k = dget kw2 k).
Proof.
  intros keys params kw1 kw2 img1 img2 L1 N1 N2 Hne G1 G2 p1 L2.
  destruct (C50_given keys params kw1 img1 L1 N1 G1) as [_ P]. fold p1 in P.
  destruct keys as [|k0 ks] eqn:Ek; [contradiction|]. rewrite <- Ek in *.
  assert (K0 : In k0 keys) by (rewrite Ek; left; reflexivity).
  assert (PK : forall k, In k keys -> dget p1 k = dget kw1 k).
  { intros k Hk. rewrite P. specialize (G1 k Hk). destruct (dget kw1 k); [reflexivity|contradiction]. }
  destruct (C50_stored keys p1 kw2 img2 k0 L2 N2 K0 (G2 k0 K0)) as (used & U1 & U2 & U3 & _).
  { intros k Hk. rewrite PK by exact Hk. apply G1. exact Hk. }
  exists used. split; [exact U1|]. split; [|exact U3]. intros k Hk. rewrite U2 by exact Hk. apply PK. exact Hk.
Qed.
End stored.
Print Assumptions C50_given.
Print Assumptions C50_stored.
Print Assumptions C50_missing.
Print Assumptions C50_reuse.

(** Automatic centres still need stored or given ones when called through the metric object. *)
Example C50_ex_auto : nr_score (fun _ => Ok tt) (fun _ _ => Ok tt) cnr_required [] [("auto_center"%string, 1%nat)]
  = (Err ValueError, []).
Proof. reflexivity. Qed.
(** A radius alone is discarded in favour of the stored one. *)
Example C50_ex_discard : nr_score (fun _ => Ok tt) (fun _ kw => Ok (dget kw "radius")) snr_required
  [("signal_center", 7); ("radius", 5)]%string%nat [("radius", 1)]%string%nat
  = (Ok (Some 5), [("signal_center", 7); ("radius", 5)]%string)%nat.
Proof. reflexivity. Qed.

(** ** C83 *)

(** Every keyword of a scoring call, the region of interest for example, is stored and therefore
    seen by the loading step of all later calls. *)
Theorem C83_leak : forall (V I X : Type) (load : dict V -> res I) (compute : I -> dict V -> res X) keys params kwargs img k v,
  load params = Ok img -> NoDup (dkeys kwargs) -> dget kwargs k = Some v -> ~ In k keys ->
  ((forall k, In k keys -> dget kwargs k <> None) \/ (forall k, In k keys -> dget params k <> None)) ->
  dget (snd (nr_score load compute keys params kwargs)) k = Some v.
Proof.
  intros V I X load compute keys params kwargs img k v Hl Hnd Hk Hn H.
  destruct (has_all keys kwargs) eqn:A.
  - rewrite has_all_iff in A. destruct (C50_given load compute keys params kwargs img Hl Hnd A) as [_ P]. rewrite P, Hk. reflexivity.
  - assert (B : exists k0, In k0 keys /\ dget kwargs k0 = None).
    { unfold has_all in A. clear - A. induction keys as [|x keys IH]; [discriminate|]. cbn [forallb] in A.
      destruct (dget kwargs x) eqn:E; [|exists x; split; [left; reflexivity|exact E]].
      destruct (IH A) as (k0 & H0 & E0). exists k0. split; [right; exact H0|exact E0]. }
    destruct B as (k0 & H0 & M0). destruct H as [H|H]; [exfalso; exact (H k0 H0 M0)|].
    destruct (C50_stored load compute keys params kwargs img k0 Hl Hnd H0 M0 H) as (_ & _ & _ & _ & _ & P). rewrite P, Hk by exact Hn. reflexivity.
Qed.
Print Assumptions C83_leak.

Example C83_ex : let load (p : dict nat) : res nat := Ok (match dget p "roi" with Some n => n | None => 0 end)%nat in
  let p1 := snd (nr_score load (fun i _ => Ok i) snr_required [] [("signal_center", 1); ("radius", 2); ("roi", 9)]%string%nat) in
  fst (nr_score load (fun i _ => Ok i) snr_required p1 [("signal_center", 1); ("radius", 2)]%string%nat) = Ok 9%nat.
Proof. reflexivity. Qed.

(** ** C52 *)

Lemma Rtrunc_pos x : 0 <= x -> IZR (Rtrunc x) <= x < IZR (Rtrunc x) + 1.
Proof. intros H. unfold Rtrunc. destruct (Rle_dec 0 x) as [K|K]; [|lra]. pose proof (base_Int_part x). lra. Qed.
Lemma Rtrunc_neg x : x <= 0 -> IZR (Rtrunc x) - 1 < x <= IZR (Rtrunc x).
Proof.
  intros H. unfold Rtrunc. destruct (Rle_dec 0 x) as [K|K].
  - assert (x = 0) by lra. subst x. rewrite (Int_part_unique 0 0) by lra. lra.
  - rewrite opp_IZR. pose proof (base_Int_part (- x)). lra.
Qed.
Lemma Rtrunc_int z : Rtrunc (IZR z) = z.
Proof.
  destruct (Z_le_gt_dec 0 z) as [H|H]; [apply Rtrunc_IZR; exact H|].
  unfold Rtrunc. destruct (Rle_dec 0 (IZR z)) as [K|K]; [apply le_IZR in K; lia|].
  rewrite (Int_part_unique _ (- z)) by (rewrite opp_IZR; lra). lia.
Qed.

(** What the kernel is given. *)
Record qm_args := { qm_buffer : list word; qm_dims : list nat; qm_low : Z; qm_high : Z }.
Definition qm (o : mem_order) (d : dtype) (img : arr R) (bins peaks : Z) : res qm_args :=
  qmeasure (fun w s lo hi _ _ => {| qm_buffer := w; qm_dims := s; qm_low := lo; qm_high := hi |}) o d img bins peaks.

Lemma size_app s t : size (s ++ t) = (size s * size t)%nat.
Proof. induction s as [|n s IH]; cbn [app size]; [lia|]. rewrite IH. lia. Qed.
Lemma size_rev s : size (rev s) = size s.
Proof. induction s as [|n s IH]; [reflexivity|]. cbn [rev]. rewrite size_app, IH. cbn [size]. lia. Qed.

Lemma in_memory_ok {A} o (a : arr A) : wf a -> exists l, in_memory o a = Ok l /\ length l = length (dat a).
Proof.
  intros Hwf. destruct o; cbn [in_memory]; [exists (dat a); split; reflexivity|].
  assert (IR : forall s idx, inb (rev s) idx = true -> inb s (rev idx) = true).
  { intros s. induction s as [|n s IH]; intros idx H.
    - destruct idx; [reflexivity|discriminate].
    - cbn [rev] in H. assert (Hne : idx <> []). { intros ->. apply inb_length in H. rewrite app_length in H. cbn in H. lia. }
      rewrite (snoc_inv idx Hne) in *. assert (L : length (rev s) = length (removelast idx)).
      { apply inb_length in H. rewrite !app_length in H. cbn in H. lia. }
      rewrite inb_snoc in H by exact L. apply andb_true_iff in H as [H1 H2]. rewrite rev_app_distr. cbn [rev app inb].
      rewrite H2, IH by exact H1. reflexivity. }
  destruct (reindex_ok a (rev (shp a)) (@rev nat) Hwf) as [b Hb]; [intros idx; apply IR|].
  rewrite Hb. cbn [bind]. exists (dat b). split; [reflexivity|]. apply reindex_spec in Hb as (S & W & _).
  unfold wf in W. rewrite W, S, Hwf. apply size_rev.
Qed.

Lemma qm_ok o d img bins peaks : wf img -> dat img <> [] -> (3 <= length (shp img))%nat ->
  exists a mn mx, qm o d img bins peaks = Ok a /\ is_rmin mn (dat img) /\ is_rmax mx (dat img) /\
    qm_low a = Rtrunc mn /\ qm_high a = Rtrunc mx.
Proof.
  intros Hwf Hn H3. unfold qm, qmeasure. destruct (Nat.ltb_spec (length (shp img)) 3); [lia|].
  destruct (dat img) as [|x l] eqn:E; [contradiction|].
  pose proof (fold_rmin l x) as M1. pose proof (fold_rmax l x) as M2.
  rewrite (rmin_is _ _ M1), (rmax_is _ _ M2). cbn [bind]. destruct (in_memory_ok o img Hwf) as (w & Hw & _). rewrite Hw. cbn [bind].
  eexists. exists (fold_left Rmin l x), (fold_left Rmax l x). split; [reflexivity|]. split; [exact M1|]. split; [exact M2|]. split; reflexivity.
Qed.

(** The range: extremes of the image, cut towards zero. *)
Theorem C52_range : forall o d img bins peaks, wf img -> dat img <> [] -> (3 <= length (shp img))%nat ->
  exists a mn mx, qm o d img bins peaks = Ok a /\
    In mn (dat img) /\ In mx (dat img) /\ (forall x, In x (dat img) -> mn <= x <= mx) /\
    (0 <= mn -> IZR (qm_low a) <= mn < IZR (qm_low a) + 1) /\ (mn <= 0 -> IZR (qm_low a) - 1 < mn <= IZR (qm_low a)) /\
    (0 <= mx -> IZR (qm_high a) <= mx < IZR (qm_high a) + 1) /\ (mx <= 0 -> IZR (qm_high a) - 1 < mx <= IZR (qm_high a)).
Proof.
  intros o d img bins peaks Hwf Hn H3. destruct (qm_ok o d img bins peaks Hwf Hn H3) as (a & mn & mx & E & [I1 M1] & [I2 M2] & L & Hh).
  exists a, mn, mx. rewrite L, Hh. split; [exact E|]. split; [exact I1|]. split; [exact I2|]. split; [intros x Hx; split; [apply M1|apply M2]; exact Hx|].
  split; [apply Rtrunc_pos|]. split; [apply Rtrunc_neg|]. split; [apply Rtrunc_pos|apply Rtrunc_neg].
Qed.
Print Assumptions C52_range.

Theorem C52_integer : forall o d img bins peaks a, wf img -> (forall x, In x (dat img) -> exists z, x = IZR z) ->
  qm o d img bins peaks = Ok a -> forall x, In x (dat img) -> IZR (qm_low a) <= x <= IZR (qm_high a).
Proof.
  intros o d img bins peaks a Hwf Hz E x Hx.
  assert (Hn : dat img <> []) by (destruct (dat img); [destruct Hx|discriminate]).
  assert (H3 : (3 <= length (shp img))%nat). { unfold qm, qmeasure in E. destruct (Nat.ltb_spec (length (shp img)) 3); [discriminate|lia]. }
  destruct (qm_ok o d img bins peaks Hwf Hn H3) as (a' & mn & mx & E' & [I1 M1] & [I2 M2] & L & Hh). rewrite E in E'. injection E' as <-.
  destruct (Hz mn I1) as [zn ->]. destruct (Hz mx I2) as [zx ->]. rewrite L, Hh, !Rtrunc_int. split; [apply M1|apply M2]; exact Hx.
Qed.
Print Assumptions C52_integer.

(** Images with values in 0..1: (0, 1) if the value 1 occurs, otherwise (0, 0); (1, 1) if there is
    nothing else. *)
Theorem C52_unit : forall o d img bins peaks a, wf img -> dat img <> [] -> (forall x, In x (dat img) -> 0 <= x <= 1) ->
  qm o d img bins peaks = Ok a ->
  (In 1 (dat img) -> (exists x, In x (dat img) /\ x < 1) -> qm_low a = 0%Z /\ qm_high a = 1%Z) /\
  (~ In 1 (dat img) -> qm_low a = 0%Z /\ qm_high a = 0%Z) /\
  ((forall x, In x (dat img) -> x = 1) -> qm_low a = 1%Z /\ qm_high a = 1%Z).
Proof.
  intros o d img bins peaks a Hwf Hn H01 E.
  assert (H3 : (3 <= length (shp img))%nat). { unfold qm, qmeasure in E. destruct (Nat.ltb_spec (length (shp img)) 3); [discriminate|lia]. }
  destruct (qm_ok o d img bins peaks Hwf Hn H3) as (a' & mn & mx & E' & [I1 M1] & [I2 M2] & L & Hh). rewrite E in E'. injection E' as <-.
  rewrite L, Hh. pose proof (H01 mn I1). pose proof (H01 mx I2).
  assert (T0 : forall x, 0 <= x < 1 -> Rtrunc x = 0%Z).
  { intros x Hx. unfold Rtrunc. destruct (Rle_dec 0 x) as [K|K]; [|lra]. apply Int_part_unique. lra. }
  split; [|split].
  - intros H1 (x & Hx & Hlt). pose proof (M1 x Hx). pose proof (M2 1 H1). split; [apply T0; lra|].
    replace mx with 1 by lra. apply (Rtrunc_int 1).
  - intros H1. assert (mx <> 1) by (intros ->; contradiction). assert (mn <> 1) by (intros ->; contradiction). split; apply T0; lra.
  - intros H1. rewrite (H1 mn I1), (H1 mx I2). split; apply (Rtrunc_int 1).
Qed.
Print Assumptions C52_unit.

(** Fractional extremes: some pixel lies outside the range. *)
Theorem C52_outside : forall o d img bins peaks a, wf img -> qm o d img bins peaks = Ok a ->
  (forall mx, is_rmax mx (dat img) -> 0 < mx -> (forall z, mx <> IZR z) -> IZR (qm_high a) < mx) /\
  (forall mn, is_rmin mn (dat img) -> mn < 0 -> (forall z, mn <> IZR z) -> mn < IZR (qm_low a)).
Proof.
  intros o d img bins peaks a Hwf E.
  assert (H3 : (3 <= length (shp img))%nat). { unfold qm, qmeasure in E. destruct (Nat.ltb_spec (length (shp img)) 3); [discriminate|lia]. }
  split.
  - intros mx [I M] Hp Hz. assert (Hn : dat img <> []) by (destruct (dat img); [destruct I|discriminate]).
    destruct (qm_ok o d img bins peaks Hwf Hn H3) as (a' & mn & mx' & E' & _ & [I2 M2] & _ & Hh). rewrite E in E'. injection E' as <-.
    replace mx' with mx in Hh by (apply Rle_antisym; [apply M2; exact I|apply M; exact I2]). rewrite Hh.
    pose proof (Rtrunc_pos mx ltac:(lra)). pose proof (Hz (Rtrunc mx)). lra.
  - intros mn [I M] Hp Hz. assert (Hn : dat img <> []) by (destruct (dat img); [destruct I|discriminate]).
    destruct (qm_ok o d img bins peaks Hwf Hn H3) as (a' & mn' & mx & E' & [I2 M2] & _ & L & _). rewrite E in E'. injection E' as <-.
    replace mn' with mn in L by (apply Rle_antisym; [apply M; exact I2|apply M2; exact I]). rewrite L.
    pose proof (Rtrunc_neg mn ltac:(lra)). pose proof (Hz (Rtrunc mn)). lra.
Qed.
Print Assumptions C52_outside.

Theorem C52_dims : forall o d img bins peaks, (length (shp img) < 3)%nat -> qm o d img bins peaks = Err ValueError.
Proof. intros o d img bins peaks H. unfold qm, qmeasure. apply Nat.ltb_lt in H. rewrite H. reflexivity. Qed.
Print Assumptions C52_dims.

Example C52_ex : match qm LastFastest (Float 32) (Arr [1; 1; 2]%nat [0; 1/2]) 256 5 with
  | Ok a => qm_low a = 0%Z /\ qm_high a = 0%Z | Err _ => False end.
Proof.
  destruct (qm_ok LastFastest (Float 32) (Arr [1; 1; 2]%nat [0; 1/2]) 256 5) as (a & _ & _ & E & _); [reflexivity|discriminate|cbn; lia|].
  rewrite E. apply (C52_unit LastFastest (Float 32) (Arr [1; 1; 2]%nat [0; 1/2]) 256 5 a); [reflexivity|discriminate| |exact E|].
  - intros x [<-|[<-|[]]]; lra.
  - intros [H|[H|[]]]; lra.
Qed.

(** ** C86 *)

(** Which voxel is at which place of the buffer: row-major for images made by numpy, column-major
    for volumes loaded from .raw files (transposed views). The kernel cannot tell the difference. *)
Theorem C86_order : forall (A : Type) (a : arr A) idx v, wf a -> get a idx = Some v ->
  (exists l, in_memory LastFastest a = Ok l /\ nth_error l (ravel (shp a) idx) = Some v) /\
  (exists l, in_memory FirstFastest a = Ok l /\ nth_error l (ravel (rev (shp a)) (rev idx)) = Some v).
Proof.
  intros A a idx v Hwf Hv. pose proof (get_inb _ _ _ Hv) as Hin. split.
  - exists (dat a). split; [reflexivity|]. unfold get in Hv. rewrite Hin in Hv. exact Hv.
  - destruct (in_memory_ok FirstFastest a Hwf) as (l & El & _). exists l. split; [exact El|]. cbn [in_memory] in El.
    destruct (reindex a (rev (shp a)) (@rev nat)) as [b|] eqn:Eb; [|discriminate]. cbn [bind] in El. injection El as <-.
    apply reindex_spec in Eb as (S & W & G).
    assert (IR : forall s i, inb s i = true -> inb (rev s) (rev i) = true).
    { induction s as [|n s IH]; intros [|i idx'] H; try discriminate; [reflexivity|]. cbn [inb] in H. apply andb_true_iff in H as [H1 H2].
      cbn [rev]. rewrite inb_snoc by (rewrite !rev_length; symmetry; apply inb_length; exact H2). rewrite (IH idx' H2), H1. reflexivity. }
    specialize (G (rev idx) (IR _ _ Hin)). rewrite rev_involutive, Hv in G. pose proof (IR _ _ Hin) as Hr.
    unfold get in G. rewrite S, Hr in G. exact G.
Qed.
Print Assumptions C86_order.

(** The result depends on the layout: the same image, two different buffers. *)
Theorem C86_layout_refuted : exists img, wf img /\
  ~ (forall d bins peaks, qm LastFastest d img bins peaks = qm FirstFastest d img bins peaks).
Proof.
  exists (Arr [1; 2; 2]%nat [0; 1; 2; 3]). split; [reflexivity|]. intros H. specialize (H (Float 32) 256%Z 5%Z).
  unfold qm, qmeasure in H. cbn [shp length Nat.ltb Nat.leb dat] in H.
  destruct (rmin [0; 1; 2; 3]) as [mn|] eqn:E1; [|discriminate E1]. destruct (rmax [0; 1; 2; 3]) as [mx|] eqn:E2; [|discriminate E2]. cbn in H.
  injection H as H1 H2. lra.
Qed.
Print Assumptions C86_layout_refuted.

(** Double-precision volumes: the buffer is read as single precision, so only the first half of the
    voxels is looked at, as halves of their bit patterns. *)
Theorem C86_double : forall o img bins peaks a l, wf img -> qm o (Float 64) img bins peaks = Ok a -> length (shp img) = 3%nat ->
  in_memory o img = Ok l ->
  qm_buffer a = firstn (length l) (flat_map (fun x => [WHalf false x; WHalf true x]) l) /\
  forall img' l' a', wf img' -> shp img' = shp img -> in_memory o img' = Ok l' ->
    qm o (Float 64) img' bins peaks = Ok a' ->
    firstn ((length l + 1) / 2) l' = firstn ((length l + 1) / 2) l -> qm_buffer a' = qm_buffer a.
Proof.
  intros o img bins peaks a l Hwf E H3 El.
  assert (G : forall im k x, wf im -> length (shp im) = 3%nat -> in_memory o im = Ok k -> qm o (Float 64) im bins peaks = Ok x ->
    qm_buffer x = firstn (length k) (flat_map (fun x => [WHalf false x; WHalf true x]) k)).
  { intros im k x W L Ek Ex. unfold qm, qmeasure in Ex. rewrite L in Ex. cbn [Nat.ltb Nat.leb] in Ex.
    destruct (rmin (dat im)) as [mn|]; [|discriminate]. destruct (rmax (dat im)) as [mx|]; [|discriminate]. cbn [bind] in Ex. rewrite Ek in Ex. cbn [bind] in Ex.
    assert (Lk : size (firstn 3 (shp im)) = length k).
    { destruct (in_memory_ok o im W) as (k' & Ek' & Lk). rewrite Ek in Ek'. injection Ek' as <-. rewrite Lk, W, firstn_all2 by lia. reflexivity. }
    rewrite Lk in Ex. injection Ex as <-. reflexivity. }
  split; [apply G with img; assumption|]. intros img' l' a' W' S' El' E' Hf.
  rewrite (G img l a Hwf H3 El E), (G img' l' a' W' ltac:(congruence) El' E').
  assert (LL : length l' = length l).
  { destruct (in_memory_ok o img Hwf) as (k & Ek & Lk). rewrite El in Ek. injection Ek as <-.
    destruct (in_memory_ok o img' W') as (k' & Ek' & Lk'). rewrite El' in Ek'. injection Ek' as <-.
    rewrite Lk, Lk'. unfold wf in *. congruence. }
  rewrite LL.
  assert (F : forall n (k : list R), firstn n (flat_map (fun x => [WHalf false x; WHalf true x]) k) =
     firstn n (flat_map (fun x => [WHalf false x; WHalf true x]) (firstn ((n + 1) / 2) k))).
  { assert (P : forall m n (k : list R), (n <= 2 * m)%nat -> firstn n (flat_map (fun x => [WHalf false x; WHalf true x]) k) =
       firstn n (flat_map (fun x => [WHalf false x; WHalf true x]) (firstn m k))).
    { induction m as [|m IH]; intros n k Hn; [replace n with 0%nat by lia; reflexivity|].
      destruct k as [|x k]; [reflexivity|]. cbn [firstn flat_map app]. destruct n as [|[|n]]; try reflexivity. cbn [firstn].
      rewrite IH by lia. reflexivity. }
    intros n k. apply P. pose proof (Nat.div_mod (n + 1) 2 ltac:(lia)). pose proof (Nat.mod_upper_bound (n + 1) 2 ltac:(lia)). lia. }
  rewrite (F _ l'), (F _ l), Hf. reflexivity.
Qed.
Print Assumptions C86_double.

(** 1 x 2 x 2 voxels in both layouts. *)
Example C86_ex : in_memory LastFastest (Arr [1; 2; 2]%nat [0; 1; 2; 3]) = Ok [0; 1; 2; 3] /\
  in_memory FirstFastest (Arr [1; 2; 2]%nat [0; 1; 2; 3]) = Ok [0; 2; 1; 3].
Proof. split; reflexivity. Qed.

(** ** C82 *)

(** Colour images and the default region type: numpy refuses the mask. *)
Theorem C82_cubic : forall mk nobg img H W y x r it lo hi yuv, wf img -> shp img = [H; W; 3]%nat -> (0 < H * W)%nat ->
  (0 < r <= Z.abs y)%Z -> (r <= Z.abs x)%Z ->
  snr mk nobg img [CInt y; CInt x] (RInt r) KCubic false it lo hi yuv = Err MaskError.
Proof.
  intros mk nobg img H W y x r it lo hi yuv Hwf Hs Hn Hy Hx. unfold snr. cbn [bind].
  change [CInt y; CInt x] with (map CInt [y; x]). destruct (C48_check [y; x] r) as [[_ ->]|[F _]]; [|exfalso; apply F; repeat constructor; lia].
  cbn [bind check_radius]. destruct (Z.leb_spec r 0); [lia|]. cbn [bind]. unfold snr_dims. rewrite Hs. cbn.
  assert (M : forall i : arr R, shp i = [H; W; 3]%nat -> to_cubic i [y; x] r = Err MaskError).
  { intros i Hi. unfold to_cubic. rewrite Hi. cbn [length Nat.eqb is_colour last andb orb negb].
    destruct (Nat.eqb_spec (size [H; W; 3]%nat) 0) as [E|E]; [cbn [size] in E; nia|reflexivity]. }
  destruct yuv.
  - destruct (C69_transposed img [H; W]%nat Hwf Hs) as (yv & E & S & _). rewrite E. cbn [bind]. rewrite M by congruence. reflexivity.
  - cbn [bind]. rewrite M by exact Hs. reflexivity.
Qed.
Print Assumptions C82_cubic.

(** Colour images without the YUV transform: every call fails. *)
Theorem C82_rgb : forall mk nobg img sc r kind au it lo hi v, is_colour (shp img) = true ->
  snr mk nobg img sc r kind au it lo hi false <> Ok v.
Proof.
  intros mk nobg img sc r kind au it lo hi v Hc E. unfold snr in E. rewrite Hc in E.
  match type of E with (let* _ := ?x in _) = _ => destruct x as [[[s1 rad] sreg]|e]; cbn [bind] in E; [|discriminate] end.
  destruct (check_border s1 rad) as [sz|e]; cbn [bind] in E; [|discriminate].
  destruct (check_radius rad) as [r'|e]; cbn [bind] in E; [|discriminate].
  destruct (snr_dims img sz) as [[]|e]; cbn [bind] in E; [|discriminate].
  destruct (match sreg with Some x => Ok x | None => make_region kind img sz r' end) as [s|e]; cbn [bind] in E; [|discriminate].
  destruct (to_grayscale img) as [g|e]; cbn [bind] in E; [|discriminate].
  destruct (snr_dims g sz) as [[]|e]; cbn [bind] in E; [|discriminate].
  destruct (snr_grey mk g sz r' kind false None) as [o|e]; cbn [bind] in E; discriminate.
Qed.
Print Assumptions C82_rgb.

(** Colour images with the YUV transform: the mean of the first channel over the spread of each channel. *)
Lemma selected_channel img f P : wf img -> (forall idx, inb (shp img) idx = true -> (f idx = true <-> P idx)) ->
  selected img P (flat_map (fun idx => if f idx then match get img idx with Some x => [x] | None => [] end else []) (indices (shp img))).
Proof.
  intros Hwf HP. exists (filter f (indices (shp img))). split; [apply sorted_filter, sorted_indices|]. split.
  - intros i. rewrite filter_In, in_indices. split; intros [H1 H2]; (split; [exact H1|apply HP; assumption]).
  - assert (G : forall idx, In idx (indices (shp img)) -> exists v, get img idx = Some v).
    { intros idx Hi. apply in_indices in Hi. apply get_wf_some; assumption. }
    revert G. generalize (indices (shp img)). intros l. induction l as [|i l IH]; intros G; [reflexivity|].
    cbn [filter flat_map]. destruct (G i (or_introl eq_refl)) as [v Hv]. destruct (f i).
    + rewrite Hv. cbn [map app]. rewrite Hv. f_equal. apply IH. intros j Hj. apply G. right. exact Hj.
    + apply IH. intros j Hj. apply G. right. exact Hj.
Qed.

Theorem C82_yuv : forall mk nobg img H W y x r kind it lo hi, wf img -> shp img = [H; W; 3]%nat -> (0 < H * W)%nat ->
  (0 < r <= Z.abs y)%Z -> (r <= Z.abs x)%Z -> kind = KFull \/ kind = KOriginal \/ kind = KSpherical ->
  exists yv ch0 ch1 ch2,
    (forall p red green blue, get img (p ++ [0%nat]) = Some red -> get img (p ++ [1%nat]) = Some green -> get img (p ++ [2%nat]) = Some blue ->
       get yv (p ++ [0%nat]) = Some (0.2126 * red - 0.09991 * green + 0.615 * blue) /\
       get yv (p ++ [1%nat]) = Some (0.7152 * red - 0.33609 * green - 0.55861 * blue) /\
       get yv (p ++ [2%nat]) = Some (0.0722 * red + 0.436 * green - 0.05639 * blue)) /\
    shp yv = shp img /\
    selected yv (fun i => last i 0%nat = 0%nat /\ in_region kind [H; W] [y; x] r (firstn 2 i)) ch0 /\
    selected yv (fun i => last i 0%nat = 1%nat /\ in_region kind [H; W] [y; x] r (firstn 2 i)) ch1 /\
    selected yv (fun i => last i 0%nat = 2%nat /\ in_region kind [H; W] [y; x] r (firstn 2 i)) ch2 /\
    exists v0 v1 v2, snr mk nobg img [CInt y; CInt x] (RInt r) kind false it lo hi true = Ok (SColour v0 v1 v2) /\
      forall ch v, In (ch, v) [(ch0, v0); (ch1, v1); (ch2, v2)] ->
        (ch = [] \/ deviation ch = 0 -> v = Fin 0) /\ (ch <> [] -> deviation ch <> 0 -> v = Fin (mean ch0 / deviation ch)).
Proof.
  intros mk nobg img H W y x r kind it lo hi Hwf Hs Hn Hy Hx Hk.
  destruct (yuv_get img [H; W]%nat Hwf Hs) as (yv & Ey & Sy & Wy & _). destruct (C69_transposed img [H; W]%nat Hwf Hs) as (yv' & Ey' & _ & Gy).
  rewrite Ey in Ey'. injection Ey' as <-. rewrite Hs in Sy.
  assert (E : exists sg, make_region kind yv [y; x] r = Ok sg /\
    (forall c, (c < 3)%nat -> selected yv (fun i => last i 0%nat = c /\ in_region kind [H; W]%nat [y; x] r (firstn 2 i)) (channel_region sg c)) /\
    (kind <> KSpherical -> forall c, (c < 3)%nat -> channel_region sg c <> []) /\ (kind = KSpherical -> exists m, sg = Masked m)).
  { assert (E1 : kind = KFull \/ kind = KOriginal -> exists sg, make_region kind yv [y; x] r = Ok sg /\
      (forall c, (c < 3)%nat -> selected yv (fun i => last i 0%nat = c /\ in_region kind [H; W]%nat [y; x] r (firstn 2 i)) (channel_region sg c)) /\
      (kind <> KSpherical -> forall c, (c < 3)%nat -> channel_region sg c <> []) /\ (kind = KSpherical -> exists m, sg = Masked m)).
    { intros K. exists (Whole yv).
      assert (S : forall c, (c < 3)%nat -> selected yv (fun i => last i 0%nat = c /\ in_region kind [H; W]%nat [y; x] r (firstn 2 i)) (channel_region (Whole yv) c)).
      { intros c _. apply selected_channel; [exact Wy|]. intros idx _. rewrite Nat.eqb_eq. destruct K as [-> | ->]; cbn [in_region]; tauto. }
      split; [destruct K as [-> | ->]; reflexivity|]. split; [exact S|]. split; [|intros ->; destruct K; discriminate].
      intros _ c Hc E0. destruct (S c Hc) as (ats & _ & A & M). rewrite E0 in M. destruct ats; [|discriminate].
      apply (A [0; 0; c]%nat). rewrite Sy. destruct H as [|H]; [cbn in Hn; lia|]. destruct W as [|W]; [lia|].
      split; [cbn; destruct c as [|[|[|c]]]; try reflexivity; lia|]. split; [reflexivity|]. destruct K as [-> | ->]; exact I. }
    destruct Hk as [K|[K|K]]; [apply E1; left; exact K|apply E1; right; exact K|]. clear E1. subst kind.
    cbn [make_region]. unfold to_spherical. rewrite Sy. cbn [length Nat.eqb is_colour last andb orb negb bind].
    eexists. split; [reflexivity|]. split; [|split; [congruence|intros _; eexists; reflexivity]].
    intros c Hc. cbn [channel_region shp masked]. rewrite Sy.
    set (m := fun idx : list nat => (dist_sq [y; x] (firstn 2 idx) <=? r ^ 2)%Z).
    assert (X : flat_map (fun idx => if last idx 0%nat =? c then match get (masked yv m) idx with Some (Some x) => [x] | _ => [] end else []) (indices (shp yv))
              = flat_map (fun idx => if (last idx 0%nat =? c) && m idx then match get yv idx with Some x => [x] | None => [] end else []) (indices (shp yv))).
    { apply flat_map_ext. intros idx. destruct (last idx 0%nat =? c)%nat; cbn [andb]; [|reflexivity].
      destruct (masked_spec yv m Wy) as (_ & _ & G). rewrite G. destruct (get yv idx) as [v|]; [destruct (m idx); reflexivity|destruct (m idx); reflexivity]. }
    rewrite Sy in X. change (shp (masked yv m)) with (shp yv). rewrite ?Sy, X, <- Sy. apply (selected_channel yv (fun idx => (last idx 0%nat =? c)%nat && m idx)); [exact Wy|].
    intros idx _. rewrite andb_true_iff, Nat.eqb_eq. unfold m. cbn [in_region]. rewrite dist_sq_eq, Z.leb_le.
    replace (r ^ 2)%Z with (r * r)%Z by ring. reflexivity. }
  destruct E as (sg & Em & Sel & Ne & Ma). exists yv, (channel_region sg 0), (channel_region sg 1), (channel_region sg 2).
  split; [exact Gy|]. split; [congruence|]. split; [apply Sel; lia|]. split; [apply Sel; lia|]. split; [apply Sel; lia|].
  exists (channel_snr sg (channel_region sg 0) (channel_region sg 0)), (channel_snr sg (channel_region sg 0) (channel_region sg 1)),
    (channel_snr sg (channel_region sg 0) (channel_region sg 2)).
  split.
  - unfold snr. cbn [bind]. change [CInt y; CInt x] with (map CInt [y; x]).
    destruct (C48_check [y; x] r) as [[_ ->]|[F _]]; [|exfalso; apply F; repeat constructor; lia].
    cbn [bind check_radius]. destruct (Z.leb_spec r 0); [lia|]. cbn [bind]. unfold snr_dims. rewrite Hs.
    cbn [length last Nat.eqb Nat.add negb raise_if bind is_colour andb]. rewrite Ey. cbn [bind]. rewrite Em. reflexivity.
  - assert (K : forall c, (c < 3)%nat -> channel_region sg c = [] -> exists m, sg = Masked m).
    { intros c Hc E0. destruct Hk as [K|[K|K]]; [| |apply Ma; exact K]; (exfalso; apply (Ne ltac:(rewrite K; discriminate) c Hc E0)). }
    assert (V : forall c, (c < 3)%nat -> let ch := channel_region sg c in let v := channel_snr sg (channel_region sg 0) ch in
      (ch = [] \/ deviation ch = 0 -> v = Fin 0) /\ (ch <> [] -> deviation ch <> 0 -> v = Fin (mean (channel_region sg 0) / deviation ch))).
    { intros c Hc. cbv zeta. specialize (K c Hc). unfold channel_snr. rewrite !deviation_eq, ?mean_eq. split.
      - intros [E0|D].
        + destruct (K E0) as [m ->]. rewrite E0. reflexivity.
        + destruct (channel_region sg c) as [|z l] eqn:Ec; [destruct (K eq_refl) as [m ->]; reflexivity|].
          apply is_zero_iff in D. rewrite D. reflexivity.
      - intros N D. destruct (channel_region sg c) as [|z l] eqn:Ec; [contradiction|]. apply is_zero_false in D. rewrite D. reflexivity. }
    intros ch v [I|[I|[I|[]]]]; injection I as <- <-; [apply (V 0%nat)|apply (V 1%nat)|apply (V 2%nat)]; lia.
Qed.
Print Assumptions C82_yuv.

(** Two-dimensional images with three columns are taken for colour images by the dimension check
    only: no region type that needs a centre works, neither given nor found. *)
Theorem C82_columns : forall mk nobg img H sc r kind au it lo hi yuv v, shp img = [H; 3]%nat ->
  (au = true \/ (kind <> KFull /\ kind <> KOriginal)) ->
  snr mk nobg img sc r kind au it lo hi yuv <> Ok v.
Proof.
  intros mk nobg img H sc r kind au it lo hi yuv v Hs Hk E. rewrite snr_eq in E by (rewrite Hs; reflexivity). unfold snr_region in E.
  destruct (snr_select nobg img sc r kind au it lo hi) as [[[s1 rad] sreg]|e] eqn:Es; cbn [bind] in E; [|discriminate].
  destruct (check_border s1 rad) as [sz|e] eqn:Eb; cbn [bind] in E; [|discriminate].
  destruct (check_radius rad) as [r'|e]; cbn [bind] in E; [|discriminate].
  unfold snr_dims in E. rewrite Hs in E. change (last [H; 3]%nat 0%nat =? 3)%nat with true in E. change (length [H; 3]%nat) with 2%nat in E. cbv iota in E.
  destruct (Nat.eqb_spec 2 (length sz + 1)) as [L|L]; cbn [negb raise_if bind] in E; [|discriminate].
  apply check_border_length in Eb. unfold snr_select in Es. destruct au.
  - destruct (get_binary img lo hi) as [fg|e] eqn:Eg; cbn [bind] in Es; [|discriminate].
    destruct (find_largest_region nobg fg it kind) as [[[c1 r1] m1]|e] eqn:Ef; cbn [bind] in Es; [|discriminate].
    destruct (auto_region kind img m1) as [o|e]; cbn [bind] in Es; [|discriminate]. injection Es as <- _ _. rewrite map_length in Eb.
    assert (Sf : shp fg = [H; 3]%nat).
    { destruct (get_binary_grey img lo hi fg ltac:(rewrite Hs; reflexivity) Eg) as (_ & _ & _ & _ & S & _). congruence. }
    assert (L2 : length c1 = 2%nat).
    { unfold find_largest_region in Ef. destruct (negb _); [discriminate|]. rewrite Sf in Ef. cbn [is_colour length Nat.eqb andb orb] in Ef.
      destruct (argmax_idx _ _) as [c|] eqn:Ea; [|discriminate]. assert (c = c1).
      { destruct kind; cbn [bind] in Ef; try (injection Ef as <- _ _; reflexivity).
        - destruct (to_cubic _ _ _); cbn [bind] in Ef; [injection Ef as <- _ _; reflexivity|discriminate].
        - destruct (to_spherical _ _ _); cbn [bind] in Ef; [injection Ef as <- _ _; reflexivity|discriminate]. }
      subst c. apply argmax_first in Ea as (I & _). apply inb_length in I. rewrite shp_cleaned, Sf in I. exact I. }
    lia.
  - injection Es as <- _ <-. destruct Hk as [Hk|[K1 K2]]; [discriminate|].
    destruct kind; try contradiction; cbn [make_region] in E; [| |discriminate].
    + unfold to_cubic in E. rewrite Hs in E. cbn [length Nat.eqb orb] in E. destruct (Nat.eqb_spec (length sz) 2); [lia|]. discriminate.
    + unfold to_spherical in E. rewrite Hs in E. cbn [length Nat.eqb orb] in E. destruct (Nat.eqb_spec (length sz) 2); [lia|]. discriminate.
Qed.
Print Assumptions C82_columns.

Example C82_ex : snr NaN (fun _ _ => 0%nat) (Arr [4; 4; 3]%nat (repeat 1 48)) [CInt 1; CInt 1] (RInt 1) KCubic false 1 0 100 true = Err MaskError.
Proof. apply C82_cubic with (H := 4%nat) (W := 4%nat); reflexivity || lia. Qed.
Example C82_ex_columns : snr NaN (fun _ _ => 0%nat) (Arr [4; 3]%nat (repeat 1 12)) [CInt 1; CInt 1] (RInt 1) KCubic false 1 0 100 true = Err ValueError.
Proof. reflexivity. Qed.

(** ** C85 *)

Lemma find_unknown nobg m it : find_largest_region nobg m it KUnknown = find_largest_region nobg m it KFull.
Proof. unfold find_largest_region. destruct (negb _); [reflexivity|]. destruct (is_colour _); [reflexivity|]. destruct (_ || _); reflexivity. Qed.

(** With automatic centres a misspelled region type is silently the region type "full". *)
Theorem C85_alias : forall mk nobg img bc sc r it,
  cnr mk nobg img bc sc r KUnknown true it = cnr mk nobg img bc sc r KFull true it.
Proof.
  intros mk nobg img bc sc r it. unfold cnr.
  destruct (get_binary img 90 100) as [fg|e]; cbn [bind]; [|reflexivity].
  destruct (get_binary img 0 90) as [bg|e]; cbn [bind]; [|reflexivity]. rewrite !find_unknown.
  destruct (find_largest_region nobg fg it KFull) as [[[c1 r1] m1]|e]; cbn [bind]; [|reflexivity].
  destruct (find_largest_region nobg bg it KFull) as [[[c2 r2] m2]|e]; cbn [bind]; [|reflexivity].
  cbn [auto_region]. destruct (masked_by img m1) as [s|e]; cbn [bind]; [|reflexivity].
  destruct (masked_by img m2) as [b|e]; cbn [bind]; reflexivity.
Qed.
Print Assumptions C85_alias.

Theorem C85_given : forall mk nobg img bc sc r it v, cnr mk nobg img bc sc r KUnknown false it <> Ok v.
Proof.
  intros mk nobg img bc sc r it v E. unfold cnr in E. cbn [bind] in E.
  destruct (check_border sc r) as [sz|e]; cbn [bind] in E; [|discriminate].
  destruct (check_border bc r) as [bz|e]; cbn [bind] in E; [|discriminate].
  destruct (check_radius r) as [r'|e]; cbn [bind] in E; [|discriminate].
  destruct (_ || _); [discriminate|]. cbn in E. discriminate.
Qed.
Print Assumptions C85_given.

(** The region of the type "full": the cleaned binary image, without the two further erosions that
    are computed for it. *)
Theorem C85_full : forall nobg img bc sc r it v, wf img -> is_colour (shp img) = false ->
  cnr NaN nobg img bc sc r KFull true it = Ok (Fin v) ->
  exists fg bgm sg bg, get_binary img 90 100 = Ok fg /\ get_binary img 0 90 = Ok bgm /\
    selected img (fun i => get (cleaned it fg) i = Some true) sg /\
    selected img (fun i => get (cleaned it bgm) i = Some true) bg /\
    bg <> [] /\ ((deviation bg = 0 /\ v = 0) \/ (deviation bg <> 0 /\ sg <> [] /\ v = (mean sg - mean bg) / deviation bg)).
Proof.
  intros nobg img bc sc r it v Hwf Hc H. rewrite cnr_eq in H. unfold cnr_regions, cnr_select in H.
  destruct (get_binary img 90 100) as [fg|e] eqn:E1; cbn [bind] in H; [|discriminate].
  destruct (get_binary img 0 90) as [bgm|e] eqn:E2; cbn [bind] in H; [|discriminate].
  destruct (find_largest_region nobg fg it KFull) as [[[c1 r1] m1]|e] eqn:F1; cbn [bind] in H; [|discriminate].
  destruct (find_largest_region nobg bgm it KFull) as [[[c2 r2] m2]|e] eqn:F2; cbn [bind] in H; [|discriminate].
  cbn [auto_region] in H.
  destruct (masked_by img m1) as [s|e] eqn:M1; cbn [bind] in H; [|discriminate].
  destruct (masked_by img m2) as [b|e] eqn:M2; cbn [bind] in H; [|discriminate].
  destruct (check_border _ _) as [sz|e]; cbn [bind] in H; [|discriminate].
  destruct (check_border _ _) as [bz|e]; cbn [bind] in H; [|discriminate].
  destruct (check_radius _) as [r'|e]; cbn [bind] in H; [|discriminate].
  destruct (_ || _); [discriminate|]. cbn [bind] in H. injection H as H.
  assert (W : forall lo hi f, get_binary img lo hi = Ok f -> wf f /\ shp f = shp img).
  { intros lo hi f Ef. destruct (get_binary_grey img lo hi f Hc Ef) as (_ & _ & _ & _ & S & _). split; [|exact S].
    unfold get_binary in Ef. rewrite Hc in Ef. cbn [bind] in Ef. destruct (percentile (dat img) lo); [|discriminate]. cbn [bind] in Ef.
    destruct (percentile (dat img) hi); [|discriminate]. cbn [bind] in Ef. injection Ef as <-. apply wf_amap. exact Hwf. }
  destruct (W _ _ _ E1) as [W1 S1]. destruct (W _ _ _ E2) as [W2 S2].
  destruct (C68_region _ _ _ _ _ _ _ W1 F1) as [[K _]|[_ ->]]; [discriminate|].
  destruct (C68_region _ _ _ _ _ _ _ W2 F2) as [[K _]|[_ ->]]; [discriminate|].
  unfold masked_by in M1, M2. destruct (_ =? _)%nat in M1; [|discriminate]. destruct (_ =? _)%nat in M2; [|discriminate].
  injection M1 as <-. injection M2 as <-. apply cnr_value_fin in H as (N & H). cbn [values] in N, H.
  assert (A : forall m i, at_ m i = true <-> get m i = Some true).
  { intros m i. unfold at_. destruct (get m i) as [[|]|]; split; congruence. }
  exists fg, bgm, (somes (dat (masked img (at_ (cleaned it fg))))), (somes (dat (masked img (at_ (cleaned it bgm))))).
  split; [reflexivity|]. split; [reflexivity|].
  split; [apply selected_masked; [exact Hwf|intros; apply A]|]. split; [apply selected_masked; [exact Hwf|intros; apply A]|].
  split; [exact N|]. rewrite !deviation_eq, !mean_eq in H. exact H.
Qed.
Print Assumptions C85_full.

Example C85_ex_names : map region_kind ["cubic"; "cube"; "square"; "spherical"; "sphere"; "circle"; "full"; "original"; "Full"]%string
  = [KCubic; KCubic; KCubic; KSpherical; KSpherical; KSpherical; KFull; KOriginal; KUnknown].
Proof. reflexivity. Qed.

(** ** C84, consequences for the metrics *)

(** Automatic centres fail with TypeError if cleaning the foreground or the background leaves
    nothing, in particular (C84_small) if an axis is shorter than 2 * iterations + 3. *)
Theorem C84_type_error : forall mk nobg img fg bgm bc sc r it kind, wf img -> grey (shp img) ->
  get_binary img 90 100 = Ok fg -> get_binary img 0 90 = Ok bgm ->
  (exists i, get fg i = Some true) -> (exists i, get fg i = Some false) ->
  (exists i, get bgm i = Some true) -> (exists i, get bgm i = Some false) ->
  ((forall i, get (cleaned it fg) i <> Some true) \/ (forall i, get (cleaned it bgm) i <> Some true)) ->
  cnr mk nobg img bc sc r kind true it = Err TypeError.
Proof.
  intros mk nobg img fg bgm bc sc r it kind Hwf Hg E1 E2 T1 F1 T2 F2 HE. destruct (grey_flags _ Hg) as [Hc _].
  assert (W : forall lo hi f, get_binary img lo hi = Ok f -> wf f /\ shp f = shp img).
  { intros lo hi f Ef. destruct (get_binary_grey img lo hi f Hc Ef) as (_ & _ & _ & _ & S & _). split; [|exact S].
    unfold get_binary in Ef. rewrite Hc in Ef. cbn [bind] in Ef. destruct (percentile (dat img) lo); [|discriminate]. cbn [bind] in Ef.
    destruct (percentile (dat img) hi); [|discriminate]. cbn [bind] in Ef. injection Ef as <-. apply wf_amap. exact Hwf. }
  destruct (W _ _ _ E1) as [W1 S1]. destruct (W _ _ _ E2) as [W2 S2].
  assert (D1 : exists x, find_largest_region nobg fg it kind = Ok x) by (apply C68_defined; [exact W1|rewrite S1; split; [exact Hg|split; assumption]]).
  assert (D2 : exists x, find_largest_region nobg bgm it kind = Ok x) by (apply C68_defined; [exact W2|rewrite S2; split; [exact Hg|split; assumption]]).
  destruct D1 as [[[c1 r1] m1] D1]. destruct D2 as [[[c2 r2] m2] D2].
  assert (Sh : shp m1 = shp img /\ shp m2 = shp img).
  { destruct (C68_region _ _ _ _ _ _ _ W1 D1) as [[_ ->]|[_ ->]]; destruct (C68_region _ _ _ _ _ _ _ W2 D2) as [[_ ->]|[_ ->]]; rewrite ?shp_cleaned; split; assumption. }
  assert (AR : forall m, shp m = shp img -> exists o, auto_region kind img m = Ok o).
  { intros m Sm. destruct kind; cbn [auto_region]; try (eexists; reflexivity); unfold masked_by; rewrite Sm, Nat.eqb_refl; eexists; reflexivity. }
  destruct (AR m1 (proj1 Sh)) as [o1 A1]. destruct (AR m2 (proj2 Sh)) as [o2 A2].
  assert (R0 : Nat.min r1 r2 = 0%nat).
  { destruct HE as [HE|HE].
    - pose proof (proj2 (C84_radius _ _ _ _ _ _ _ W1 D1) HE). lia.
    - pose proof (proj2 (C84_radius _ _ _ _ _ _ _ W2 D2) HE). lia. }
  destruct (C84_inside _ _ _ _ _ _ _ W1 D1) as [_ B1]. destruct (C84_inside _ _ _ _ _ _ _ W2 D2) as [_ B2].
  unfold cnr. rewrite E1, E2. cbn [bind]. rewrite D1. cbn [bind]. rewrite D2. cbn [bind]. rewrite A1. cbn [bind]. rewrite A2. cbn [bind].
  rewrite (B1 (Nat.min r1 r2)) by lia. cbn [bind]. rewrite (B2 (Nat.min r1 r2)) by lia. cbn [bind]. rewrite R0. reflexivity.
Qed.
Print Assumptions C84_type_error.
