(** Lemmas about CNR, SNR and the statistics of regions. *)
From Coq Require Import Reals Psatz.
From Verif Require Import Base NdArray LoadModel LoadProofs NormModel NormProofs PairModel RealSums MetricModel
  MetricProofs MadModel RegionModel NrModel RegionProofs.

(** ** Mean and deviation under affine maps *)

Local Open Scope R_scope.
Lemma INR_len_pos {A} (l : list A) : l <> [] -> 0 < INR (length l).
Proof. destruct l as [|x l]; [contradiction|]. intros _. apply lt_0_INR. cbn. lia. Qed.

Lemma lmean_affine a b l : l <> [] -> lmean (map (fun x => a * x + b) l) = a * lmean l + b.
Proof.
  intros H. apply INR_len_pos in H. unfold lmean. rewrite map_length, Sum_map, Sum_plus, Sum_scale, Sum_const. field. lra.
Qed.

Lemma dev_affine a b l : l <> [] -> dev 2 (map (fun x => a * x + b) l) = a ^ 2 * dev 2 l.
Proof.
  intros H. unfold dev. rewrite lmean_affine by exact H. rewrite Sum_map, <- Sum_scale. apply Sum_ext. intros x _. ring.
Qed.

Lemma dev2_nonneg l : 0 <= dev 2 l.
Proof. unfold dev. apply Sum_nonneg. intros x _. apply pow2_ge_0. Qed.

Lemma std0_affine a b l : l <> [] -> std0 (map (fun x => a * x + b) l) = Rabs a * std0 l.
Proof.
  intros H. unfold std0. rewrite dev_affine, map_length by exact H. pose proof (INR_len_pos l H).
  replace (a ^ 2 * dev 2 l / INR (length l)) with (a ^ 2 * (dev 2 l / INR (length l))) by (field; lra).
  rewrite sqrt_mult; [|apply pow2_ge_0|apply Rmult_le_pos; [apply dev2_nonneg|left; apply Rinv_0_lt_compat; assumption]].
  f_equal. rewrite <- Rsqr_pow2. apply sqrt_Rsqr_abs.
Qed.

Lemma std0_nonneg l : 0 <= std0 l. Proof. apply sqrt_pos. Qed.

Lemma std0_zero l : l <> [] -> (std0 l = 0 <-> forall x, In x l -> x = lmean l).
Proof.
  intros H. pose proof (INR_len_pos l H) as P. unfold std0. split.
  - intros E x Hx. apply sqrt_eq_0 in E; [|apply Rmult_le_pos; [apply dev2_nonneg|left; apply Rinv_0_lt_compat; exact P]].
    assert (D : dev 2 l = 0).
    { apply (Rmult_eq_compat_r (INR (length l))) in E. rewrite Rmult_0_l in E. rewrite <- E. field. lra. }
    unfold dev in D. assert (G := Sum_zero_inv _ l (fun a _ => pow2_ge_0 (a - lmean l)) D x Hx).
    cbv beta in G. rewrite <- Rsqr_pow2 in G. apply Rsqr_0_uniq in G. lra.
  - intros E. assert (D : dev 2 l = 0).
    { unfold dev. rewrite (Sum_ext _ (fun _ => 0)); [apply Sum_zero|]. intros x Hx. rewrite (E x Hx). ring_simplify. reflexivity. }
    rewrite D. unfold Rdiv. rewrite Rmult_0_l. apply sqrt_0.
Qed.

Lemma is_zero_iff x : is_zero x = true <-> x = 0.
Proof. unfold is_zero. destruct (Req_EM_T x 0) as [E|E]; split; congruence. Qed.
Lemma is_zero_false x : is_zero x = false <-> x <> 0.
Proof. unfold is_zero. destruct (Req_EM_T x 0) as [E|E]; split; congruence. Qed.

(** ** Regions of a transformed image *)

Definition rmap (f : R -> R) (r : region) : region :=
  match r with Whole a => Whole (amap f a) | Masked a => Masked (amap (option_map f) a) end.

Lemma values_rmap f r : values (rmap f r) = map f (values r).
Proof. destruct r as [a|a]; cbn [rmap values amap dat]; [reflexivity|apply somes_option_map]. Qed.

Definition rmapM (f : R -> R) (r : res region) : res region := match r with Ok x => Ok (rmap f x) | Err e => Err e end.

Lemma to_cubic_map {A B} (f : A -> B) (a : arr A) c r : to_cubic (amap f a) c r =
  match to_cubic a c r with Ok m => Ok (amap (option_map f) m) | Err e => Err e end.
Proof.
  unfold to_cubic. cbn [amap shp]. destruct (_ || _).
  - destruct (negb _); [reflexivity|]. destruct (_ && _); [reflexivity|]. rewrite masked_map. reflexivity.
  - destruct (grey3 _); [|reflexivity]. destruct (negb _); [reflexivity|]. rewrite masked_map. reflexivity.
Qed.
Lemma to_spherical_map {A B} (f : A -> B) (a : arr A) c r : to_spherical (amap f a) c r =
  match to_spherical a c r with Ok m => Ok (amap (option_map f) m) | Err e => Err e end.
Proof.
  unfold to_spherical. cbn [amap shp]. destruct (_ || _).
  - destruct (negb _); [reflexivity|]. rewrite masked_map. reflexivity.
  - destruct (grey3 _); [|reflexivity]. destruct (negb _); [reflexivity|]. rewrite masked_map. reflexivity.
Qed.

Lemma make_region_map f kind img c r : make_region kind (amap f img) c r = rmapM f (make_region kind img c r).
Proof.
  destruct kind; cbn [make_region]; try reflexivity.
  - rewrite to_cubic_map. destruct (to_cubic img c r); reflexivity.
  - rewrite to_spherical_map. destruct (to_spherical img c r); reflexivity.
Qed.

Lemma masked_by_map f img m : masked_by (amap f img) m = rmapM f (masked_by img m).
Proof. unfold masked_by. cbn [amap shp]. destruct (_ =? _)%nat; [|reflexivity]. cbn [rmapM rmap]. rewrite masked_map. reflexivity. Qed.

Definition orm (f : R -> R) (r : res (option region)) : res (option region) :=
  match r with Ok o => Ok (option_map (rmap f) o) | Err e => Err e end.
Lemma auto_region_map f kind img m : auto_region kind (amap f img) m = orm f (auto_region kind img m).
Proof.
  destruct kind; cbn [auto_region]; try reflexivity; rewrite masked_by_map; destruct (masked_by img m); reflexivity.
Qed.

(** ** The two computations as region selection and a value *)

Section pipelines.
Variable nobg : arr bool -> list nat -> nat.

Definition cnr_select (img : arr R) (background_center signal_center : list cval) (radius : rval)
    (kind : rkind) (auto_center : bool) (iterations : Z)
    : res (list cval * list cval * rval * option region * option region) :=
  if auto_center then
    let* fg := get_binary img 90 100 in
    let* bg := get_binary img 0 90 in
    let* (sc, sr, sm) := find_largest_region nobg fg iterations kind in
    let* (bc, br, bm) := find_largest_region nobg bg iterations kind in
    let* sreg := auto_region kind img sm in
    let* breg := auto_region kind img bm in
    Ok (map (fun n => CInt (Z.of_nat n)) sc, map (fun n => CInt (Z.of_nat n)) bc,
        RInt (Z.of_nat (Nat.min sr br)), sreg, breg)
  else Ok (signal_center, background_center, radius, None, None).
Definition cnr_regions (img : arr R) (background_center signal_center : list cval) (radius : rval)
    (kind : rkind) (auto_center : bool) (iterations : Z) : res (region * region) :=
  let* (sc, bc, rad, sreg, breg) := cnr_select img background_center signal_center radius kind auto_center iterations in
  let* sz := check_border sc rad in
  let* bz := check_border bc rad in
  let* r := check_radius rad in
  if negb (length (shp img) =? length sz)%nat || negb (length (shp img) =? length bz)%nat then Err ValueError
  else
    let* signal := match sreg with Some x => Ok x | None => make_region kind img sz r end in
    let* background := match breg with Some x => Ok x | None => make_region kind img bz r end in
    Ok (signal, background).

Lemma cnr_eq mk img bc sc r kind au it :
  cnr mk nobg img bc sc r kind au it =
  match cnr_regions img bc sc r kind au it with Ok (s, b) => Ok (cnr_value mk s b) | Err e => Err e end.
Proof.
  unfold cnr, cnr_regions. fold (cnr_select img bc sc r kind au it).
  match goal with |- (let* _ := ?x in _) = _ => destruct x as [[[[[s1 b1] rad] sreg] breg]|e]; cbn [bind]; [|reflexivity] end.
  destruct (check_border s1 rad) as [sz|e]; cbn [bind]; [|reflexivity].
  destruct (check_border b1 rad) as [bz|e]; cbn [bind]; [|reflexivity].
  destruct (check_radius rad) as [r'|e]; cbn [bind]; [|reflexivity].
  destruct (_ || _); [reflexivity|].
  destruct (match sreg with Some x => Ok x | None => make_region kind img sz r' end) as [s|e]; cbn [bind]; [|reflexivity].
  destruct (match breg with Some x => Ok x | None => make_region kind img bz r' end) as [b|e]; cbn [bind]; reflexivity.
Qed.

(** Any map without automatic regions; increasing affine maps of greyscale images with them. *)
Definition compatible (f : R -> R) (img : arr R) (au : bool) : Prop :=
  au = false \/ (is_colour (shp img) = false /\ exists a b, 0 < a /\ forall x, f x = a * x + b).

Lemma amap_ext {A B} (f g : A -> B) a : (forall x, f x = g x) -> amap f a = amap g a.
Proof. intros H. unfold amap. f_equal. apply map_ext. exact H. Qed.

Lemma binary_compatible f img lo hi : is_colour (shp img) = false -> (exists a b, 0 < a /\ forall x, f x = a * x + b) ->
  get_binary (amap f img) lo hi = get_binary img lo hi.
Proof.
  intros Hc (a & b & Ha & Hf). rewrite (amap_ext f (fun x => a * x + b) img Hf). apply get_binary_affine; assumption.
Qed.

Lemma cnr_regions_map f img bc sc r kind au it : compatible f img au ->
  cnr_regions (amap f img) bc sc r kind au it =
  match cnr_regions img bc sc r kind au it with Ok (s, b) => Ok (rmap f s, rmap f b) | Err e => Err e end.
Proof.
  intros HC. unfold cnr_regions.
  assert (X : cnr_select (amap f img) bc sc r kind au it = match cnr_select img bc sc r kind au it with
     | Ok (s, b, rad, sreg, breg) => Ok (s, b, rad, option_map (rmap f) sreg, option_map (rmap f) breg) | Err e => Err e end).
  { unfold cnr_select. destruct au; [|reflexivity]. destruct HC as [HC|[Hc Hf]]; [discriminate|].
    rewrite !(binary_compatible f img) by assumption.
    destruct (get_binary img 90 100) as [fg|e]; cbn [bind]; [|reflexivity].
    destruct (get_binary img 0 90) as [bg|e]; cbn [bind]; [|reflexivity].
    destruct (find_largest_region nobg fg it kind) as [[[c1 r1] m1]|e]; cbn [bind]; [|reflexivity].
    destruct (find_largest_region nobg bg it kind) as [[[c2 r2] m2]|e]; cbn [bind]; [|reflexivity].
    rewrite !auto_region_map.
    destruct (auto_region kind img m1) as [g1|e]; cbn [bind orm]; [|reflexivity].
    destruct (auto_region kind img m2) as [g2|e]; cbn [bind orm]; [|reflexivity]. reflexivity. }
  rewrite X. clear X.
  match goal with |- (let* _ := match ?x with Ok _ => _ | Err _ => _ end in _) = _ => destruct x as [[[[[s1 b1] rad] sreg] breg]|e]; cbn [bind]; [|reflexivity] end.
  destruct (check_border s1 rad) as [sz|e]; cbn [bind]; [|reflexivity].
  destruct (check_border b1 rad) as [bz|e]; cbn [bind]; [|reflexivity].
  destruct (check_radius rad) as [r'|e]; cbn [bind]; [|reflexivity].
  cbn [amap shp]. destruct (_ || _); [reflexivity|]. fold (amap f img).
  assert (G : forall o z, match option_map (rmap f) o with Some x => Ok x | None => make_region kind (amap f img) z r' end =
                rmapM f (match o with Some x => Ok x | None => make_region kind img z r' end)).
  { intros [o|] z; [reflexivity|]. apply make_region_map. }
  rewrite !G.
  destruct (match sreg with Some x => Ok x | None => make_region kind img sz r' end) as [s|e]; cbn [bind rmapM]; [|reflexivity].
  destruct (match breg with Some x => Ok x | None => make_region kind img bz r' end) as [b|e]; cbn [bind rmapM]; reflexivity.
Qed.

Definition snr_select (img : arr R) (signal_center : list cval) (radius : rval) (kind : rkind)
    (auto_center : bool) (iterations : Z) (lower upper : R) : res (list cval * rval * option region) :=
  if auto_center then
    let* fg := get_binary img lower upper in
    let* (sc, sr, sm) := find_largest_region nobg fg iterations kind in
    let* sreg := auto_region kind img sm in
    Ok (map (fun n => CInt (Z.of_nat n)) sc, RInt (Z.of_nat sr), sreg)
  else Ok (signal_center, radius, None).
Definition snr_region (img : arr R) (signal_center : list cval) (radius : rval) (kind : rkind)
    (auto_center : bool) (iterations : Z) (lower upper : R) : res region :=
  let* (sc, rad, sreg) := snr_select img signal_center radius kind auto_center iterations lower upper in
  let* sz := check_border sc rad in
  let* r := check_radius rad in
  let* _ := snr_dims img sz in
  match sreg with Some x => Ok x | None => make_region kind img sz r end.

Lemma snr_eq mk img sc r kind au it lo hi yuv : is_colour (shp img) = false ->
  snr mk nobg img sc r kind au it lo hi yuv =
  match snr_region img sc r kind au it lo hi with Ok s => Ok (SGrey (snr_value mk s) (snr_keys kind au)) | Err e => Err e end.
Proof.
  intros Hc. unfold snr, snr_region. fold (snr_select img sc r kind au it lo hi). rewrite Hc.
  match goal with |- (let* _ := ?x in _) = _ => destruct x as [[[s1 rad] sreg]|e]; cbn [bind]; [|reflexivity] end.
  destruct (check_border s1 rad) as [sz|e]; cbn [bind]; [|reflexivity].
  destruct (check_radius rad) as [r'|e]; cbn [bind]; [|reflexivity].
  destruct (snr_dims img sz) as [[]|e]; cbn [bind]; [|reflexivity].
  unfold snr_grey. destruct (match sreg with Some x => Ok x | None => make_region kind img sz r' end) as [s|e]; reflexivity.
Qed.

Lemma snr_region_map f img sc r kind au it lo hi : compatible f img au ->
  snr_region (amap f img) sc r kind au it lo hi = rmapM f (snr_region img sc r kind au it lo hi).
Proof.
  intros HC. unfold snr_region.
  assert (X : snr_select (amap f img) sc r kind au it lo hi = match snr_select img sc r kind au it lo hi with
     | Ok (s, rad, sreg) => Ok (s, rad, option_map (rmap f) sreg) | Err e => Err e end).
  { unfold snr_select. destruct au; [|reflexivity]. destruct HC as [HC|[Hc Hf]]; [discriminate|].
    rewrite !(binary_compatible f img) by assumption.
    destruct (get_binary img lo hi) as [fg|e]; cbn [bind]; [|reflexivity].
    destruct (find_largest_region nobg fg it kind) as [[[c1 r1] m1]|e]; cbn [bind]; [|reflexivity].
    rewrite !auto_region_map.
    destruct (auto_region kind img m1) as [g1|e]; cbn [bind orm]; [|reflexivity]. reflexivity. }
  rewrite X. clear X.
  match goal with |- (let* _ := match ?x with Ok _ => _ | Err _ => _ end in _) = _ => destruct x as [[[s1 rad] sreg]|e]; cbn [bind]; [|reflexivity] end.
  destruct (check_border s1 rad) as [sz|e]; cbn [bind]; [|reflexivity].
  destruct (check_radius rad) as [r'|e]; cbn [bind]; [|reflexivity].
  change (snr_dims (amap f img) sz) with (snr_dims img sz). destruct (snr_dims img sz) as [[]|e]; cbn [bind]; [|reflexivity].
  destruct sreg as [x|]; [reflexivity|]. apply make_region_map.
Qed.
End pipelines.

(** ** Values *)

Lemma map_nil_iff {A B} (f : A -> B) l : map f l = [] <-> l = [].
Proof. split; [apply map_eq_nil|intros ->; reflexivity]. Qed.

Lemma on_empty_rmap mk f r : on_empty mk (rmap f r) = on_empty mk r.
Proof. destruct r; reflexivity. Qed.

Lemma cnr_value_nonempty mk s b : values b <> [] -> cnr_value mk s b =
  if is_zero (std0 (values b)) then Fin 0 else match values s with [] => on_empty mk s | _ => Fin ((lmean (values s) - lmean (values b)) / std0 (values b)) end.
Proof. intros H. unfold cnr_value. destruct (values b); [contradiction|]. destruct (is_zero _); [reflexivity|]. destruct (values s); reflexivity. Qed.

Lemma snr_value_nonempty mk s : values s <> [] -> snr_value mk s =
  if is_zero (std0 (values s)) then Fin 0 else Fin (lmean (values s) / std0 (values s)).
Proof. intros H. unfold snr_value. destruct (values s); [contradiction|]. reflexivity. Qed.

Lemma cnr_value_affine mk a b s g : 0 < a -> cnr_value mk (rmap (fun x => a * x + b) s) (rmap (fun x => a * x + b) g) = cnr_value mk s g.
Proof.
  intros Ha. set (f := fun x => a * x + b). destruct (values g) as [|x0 l0] eqn:Eg.
  - unfold cnr_value. rewrite values_rmap, Eg. cbn [map]. apply on_empty_rmap.
  - assert (N : values g <> []) by (rewrite Eg; discriminate).
    rewrite !cnr_value_nonempty by (rewrite ?values_rmap, ?map_nil_iff; exact N). rewrite !values_rmap.
    unfold f. rewrite std0_affine by exact N. rewrite Rabs_pos_eq by lra.
    assert (Z : is_zero (a * std0 (values g)) = is_zero (std0 (values g))).
    { destruct (is_zero (std0 (values g))) eqn:E.
      - apply is_zero_iff in E. rewrite E, Rmult_0_r. apply is_zero_iff. reflexivity.
      - apply is_zero_false in E. apply is_zero_false. apply Rmult_integral_contrapositive_currified; lra. }
    rewrite Z. destruct (is_zero (std0 (values g))) eqn:E; [reflexivity|]. apply is_zero_false in E.
    destruct (values s) as [|y0 s0] eqn:Es.
    + cbn [map]. apply on_empty_rmap.
    + assert (M : values s <> []) by (rewrite Es; discriminate). rewrite <- Es. destruct (map (fun x => a * x + b) (values s)) eqn:Em; [apply map_nil_iff in Em; contradiction|].
      rewrite <- Em. rewrite !lmean_affine by assumption. f_equal. field. lra.
Qed.

(** np.float64(masked) replaced by NaN: a number comes out only if no region was empty. *)
Lemma cnr_value_fin s g v : cnr_value NaN s g = Fin v ->
  values g <> [] /\ ((std0 (values g) = 0 /\ v = 0) \/
   (std0 (values g) <> 0 /\ values s <> [] /\ v = (lmean (values s) - lmean (values g)) / std0 (values g))).
Proof.
  unfold cnr_value. destruct (values g) as [|x l] eqn:Eg.
  - destruct g; discriminate.
  - destruct (is_zero (std0 (x :: l))) eqn:E.
    + intros H. injection H as <-. apply is_zero_iff in E. split; [discriminate|left; split; [exact E|reflexivity]].
    + apply is_zero_false in E. destruct (values s) as [|y t] eqn:Es; [destruct s; discriminate|].
      intros H. injection H as <-. split; [discriminate|]. right. split; [exact E|]. split; [discriminate|reflexivity].
Qed.
Lemma snr_value_fin s v : snr_value NaN s = Fin v ->
  values s <> [] /\ ((std0 (values s) = 0 /\ v = 0) \/ (std0 (values s) <> 0 /\ v = lmean (values s) / std0 (values s))).
Proof.
  unfold snr_value. destruct (values s) as [|x l] eqn:Eg.
  - destruct s; discriminate.
  - destruct (is_zero (std0 (x :: l))) eqn:E; intros H; injection H as <-; (split; [discriminate|]).
    + apply is_zero_iff in E. left. split; [exact E|reflexivity].
    + apply is_zero_false in E. right. split; [exact E|reflexivity].
Qed.
