(** Pictures of slices and regions: properties C64, C65, C94-C97. *)
From Coq Require Import Reals Lra Psatz.
From Verif Require Import Base NdArray LoadModel LoadProofs NormModel NormProofs PairModel PairProofs MetricModel SliceModel SliceProps
  RegionModel NrModel RegionProofs RegionProps NrProps ExportModel ExportProofs VisModel.

(** ** Cells of a panel *)

(** Voxel shown in row [i], column [j] of the picture of slice [p] along axis [ax]. *)
Definition voxel (ax p i j : nat) : list nat :=
  match ax with 0 => [p; j; i] | 1 => [j; p; i] | _ => [j; i; p] end.
Definition extent (ax nx ny nz : nat) : list nat :=
  match ax with 0 => [nz; ny] | 1 => [nz; nx] | _ => [ny; nx] end.

(** The index of an axis of length [n] meant by [v] (negative: from the end). *)
Definition meant (n : nat) (v : Z) (p : nat) : Prop :=
  ((0 <= v < Z.of_nat n)%Z /\ p = Z.to_nat v) \/ ((- Z.of_nat n <= v < 0)%Z /\ p = Z.to_nat (v + Z.of_nat n)).

Lemma slice_shown {A} ax v (a : arr A) nx ny nz p : wf a -> shp a = [nx; ny; nz] -> ax < 3 ->
  meant (nth ax [nx; ny; nz] 0) v p ->
  exists b, plot_slice ax v a = Ok b /\ shp b = extent ax nx ny nz /\
    forall i j, inb (extent ax nx ny nz) [i; j] = true -> get b [i; j] = get a (voxel ax p i j).
Proof.
  intros W S Hax Hp. set (n := nth ax [nx; ny; nz] 0) in *.
  destruct (plot_slice_ok ax v a nx ny nz (if (v <? 0)%Z then v + Z.of_nat n else v)%Z W S Hax eq_refl) as (b & Hb & _ & Sb & Gb).
  - fold n. destruct Hp as [[? _]|[? _]]; destruct (Z.ltb_spec v 0); lia.
  - exists b. split; [exact Hb|]. split; [exact Sb|]. intros i j Hi. rewrite Gb by (rewrite Sb; exact Hi).
    replace (Z.to_nat (if (v <? 0)%Z then v + Z.of_nat n else v)%Z) with p; [reflexivity|].
    destruct Hp as [[? ->]|[? ->]]; destruct (Z.ltb_spec v 0); lia.
Qed.

Lemma slice_outside {A} ax v (a : arr A) nx ny nz : shp a = [nx; ny; nz] -> ax < 3 ->
  (forall p, ~ meant (nth ax [nx; ny; nz] 0) v p) -> plot_slice ax v a = Err IndexError.
Proof.
  intros S Hax Hp. unfold plot_slice, take_axis. rewrite S. set (n := nth ax [nx; ny; nz] 0) in *.
  match goal with |- context [if ?b then _ else _] => replace b with true; [reflexivity|] end. symmetry.
  rewrite !orb_true_iff. destruct (Z.ltb_spec v 0) as [H|H].
  - destruct (Z.ltb_spec (v + Z.of_nat n) 0); [left; right; reflexivity|].
    exfalso. apply (Hp (Z.to_nat (v + Z.of_nat n))). right. lia.
  - destruct (Z.leb_spec (Z.of_nat n) v); [right; reflexivity|]. exfalso. apply (Hp (Z.to_nat v)). left. lia.
Qed.

Lemma meant_dec n v : {p | meant n v p} + {forall p, ~ meant n v p}.
Proof.
  destruct (Z_lt_dec v 0).
  - destruct (Z_le_dec (- Z.of_nat n) v); [left; eexists; right; split; [lia|reflexivity]|right]. intros p [[? _]|[? _]]; lia.
  - destruct (Z_lt_dec v (Z.of_nat n)); [left; eexists; left; split; [lia|reflexivity]|right]. intros p [[? _]|[? _]]; lia.
Qed.

(** ** C64 *)

Section C64.
Context {A : Type}.
Variables (img : arr A) (nx ny nz : nat).
Hypothesis W : wf img.
Hypothesis S : shp img = [nx; ny; nz].

Definition within (n : nat) (v : Z) : Prop := (- Z.of_nat n <= v <= Z.of_nat n)%Z.

Lemma visualize_3d_eq x y z : visualize_3d img [PInt x; PInt y; PInt z] =
  if negb ((- Z.of_nat nx <=? x) && (x <=? Z.of_nat nx) && ((- Z.of_nat ny <=? y) && (y <=? Z.of_nat ny)) && ((- Z.of_nat nz <=? z) && (z <=? Z.of_nat nz)))%Z
  then Err ValueError
  else let* a := plot_slice 0 x img in let* b := plot_slice 1 y img in let* c := plot_slice 2 z img in
       Ok [Panel a None (Some y) (Some z) None; Panel b None (Some x) (Some z) None; Panel c None (Some x) (Some y) None].
Proof. unfold visualize_3d. cbn [int_value slice_picture]. rewrite S. reflexivity. Qed.

(** Accepted exactly if every index exists. *)
Theorem C64_accepted : forall x y z,
  (exists ps, visualize_3d img [PInt x; PInt y; PInt z] = Ok ps) <->
  (- Z.of_nat nx <= x < Z.of_nat nx /\ - Z.of_nat ny <= y < Z.of_nat ny /\ - Z.of_nat nz <= z < Z.of_nat nz)%Z.
Proof.
  intros x y z. rewrite visualize_3d_eq. split.
  - intros [ps H]. match type of H with (if ?b then _ else _) = _ => destruct b eqn:E; [discriminate|] end.
    apply bind_ok in H as (a & Ha & H). apply bind_ok in H as (b & Hb & H). apply bind_ok in H as (c & Hc & _).
    assert (G : forall ax v b, ax < 3 -> plot_slice ax v img = Ok b -> (- Z.of_nat (nth ax [nx; ny; nz] 0%nat) <= v < Z.of_nat (nth ax [nx; ny; nz] 0%nat))%Z).
    { intros ax v b0 Hax Hb0. destruct (meant_dec (nth ax [nx; ny; nz] 0) v) as [[p [Hp|Hp]]|Hn]; [lia..|].
      rewrite (slice_outside ax v img nx ny nz S Hax Hn) in Hb0. discriminate. }
    split; [exact (G 0 x a ltac:(lia) Ha)|]. split; [exact (G 1 y b ltac:(lia) Hb)|exact (G 2 z c ltac:(lia) Hc)].
  - intros (Hx & Hy & Hz). match goal with |- context [if ?b then _ else _] => replace b with false by lia end.
    assert (G : forall ax v, ax < 3 -> (- Z.of_nat (nth ax [nx; ny; nz] 0%nat) <= v < Z.of_nat (nth ax [nx; ny; nz] 0%nat))%Z -> exists b, plot_slice ax v img = Ok b).
    { intros ax v Hax Hv. destruct (meant_dec (nth ax [nx; ny; nz] 0) v) as [[p Hp]|Hn].
      - destruct (slice_shown ax v img nx ny nz p W S Hax Hp) as (b & Hb & _). eauto.
      - exfalso. destruct (Z_lt_dec v 0); [eapply Hn; right|eapply Hn; left]; (split; [lia|reflexivity]). }
    destruct (G 0 x ltac:(lia) Hx) as [a ->]. destruct (G 1 y ltac:(lia) Hy) as [b ->]. destruct (G 2 z ltac:(lia) Hz) as [c ->].
    eexists. reflexivity.
Qed.

(** Outside [-n, n]: ValueError. *)
Theorem C64_rejected : forall x y z, ~ (within nx x /\ within ny y /\ within nz z) ->
  visualize_3d img [PInt x; PInt y; PInt z] = Err ValueError.
Proof.
  intros x y z H. rewrite visualize_3d_eq. match goal with |- context [if ?b then _ else _] => destruct b eqn:E end; [reflexivity|].
  exfalso. apply H. unfold within. lia.
Qed.

(** The index n passes the check and fails afterwards. *)
Theorem C64_index_n : forall x y z, within nx x -> within ny y -> within nz z ->
  x = Z.of_nat nx \/ y = Z.of_nat ny \/ z = Z.of_nat nz ->
  visualize_3d img [PInt x; PInt y; PInt z] = Err IndexError.
Proof.
  intros x y z Hx Hy Hz H. rewrite visualize_3d_eq. unfold within in *.
  match goal with |- context [if ?b then _ else _] => replace b with false by lia end.
  assert (G : forall ax v, ax < 3 -> (exists b, plot_slice ax v img = Ok b) \/ plot_slice ax v img = Err IndexError).
  { intros ax v Hax. destruct (meant_dec (nth ax [nx; ny; nz] 0) v) as [[p Hp]|Hn].
    - left. destruct (slice_shown ax v img nx ny nz p W S Hax Hp) as (b & Hb & _). eauto.
    - right. apply (slice_outside ax v img nx ny nz S Hax Hn). }
  assert (E : forall ax, ax < 3 -> plot_slice ax (Z.of_nat (nth ax [nx; ny; nz] 0)) img = Err IndexError).
  { intros ax Hax. apply (slice_outside ax _ img nx ny nz S Hax). intros p [[? _]|[? _]]; lia. }
  destruct (G 0 x ltac:(lia)) as [[a Ha]|Ha]; rewrite Ha; [|reflexivity]. cbn [bind].
  destruct (G 1 y ltac:(lia)) as [[b Hb]|Hb]; rewrite Hb; [|reflexivity]. cbn [bind].
  destruct (G 2 z ltac:(lia)) as [[c Hc]|Hc]; rewrite Hc; [|reflexivity]. exfalso.
  destruct H as [->|[->| ->]].
  - pose proof (E 0 ltac:(lia)) as E0. cbn [nth] in E0. congruence.
  - pose proof (E 1 ltac:(lia)) as E0. cbn [nth] in E0. congruence.
  - pose proof (E 2 ltac:(lia)) as E0. cbn [nth] in E0. congruence.
Qed.

(** ** C94: the lines cross at the chosen voxel *)

Theorem C94_crosshair : forall x y z, x < nx -> y < ny -> z < nz ->
  exists p0 p1 p2,
    visualize_3d img [PInt (Z.of_nat x); PInt (Z.of_nat y); PInt (Z.of_nat z)] = Ok [p0; p1; p2] /\
    (forall i j, i < nz -> j < ny -> get (pl_img p0) [i; j] = get img [x; j; i]) /\
    (forall i j, i < nz -> j < nx -> get (pl_img p1) [i; j] = get img [j; y; i]) /\
    (forall i j, i < ny -> j < nx -> get (pl_img p2) [i; j] = get img [j; i; z]) /\
    Forall (fun p => exists h v, pl_h p = Some (Z.of_nat h) /\ pl_v p = Some (Z.of_nat v) /\ get (pl_img p) [h; v] = get img [x; y; z]) [p0; p1; p2].
Proof.
  intros x y z Hx Hy Hz. rewrite visualize_3d_eq. match goal with |- context [if ?b then _ else _] => replace b with false by lia end.
  assert (M : forall n k, k < n -> meant n (Z.of_nat k) k) by (intros n k H; left; lia).
  destruct (slice_shown 0 (Z.of_nat x) img nx ny nz x W S ltac:(lia) (M _ _ Hx)) as (a & -> & _ & Ga).
  destruct (slice_shown 1 (Z.of_nat y) img nx ny nz y W S ltac:(lia) (M _ _ Hy)) as (b & -> & _ & Gb).
  destruct (slice_shown 2 (Z.of_nat z) img nx ny nz z W S ltac:(lia) (M _ _ Hz)) as (c & -> & _ & Gc).
  cbn [bind extent voxel] in *.
  assert (G0 : forall i j, i < nz -> j < ny -> get a [i; j] = get img [x; j; i]) by (intros; apply Ga, inb_2; auto).
  assert (G1 : forall i j, i < nz -> j < nx -> get b [i; j] = get img [j; y; i]) by (intros; apply Gb, inb_2; auto).
  assert (G2 : forall i j, i < ny -> j < nx -> get c [i; j] = get img [j; i; z]) by (intros; apply Gc, inb_2; auto).
  do 3 eexists. split; [reflexivity|]. cbn [pl_img]. split; [exact G0|]. split; [exact G1|]. split; [exact G2|].
  repeat constructor; cbn [pl_img pl_h pl_v].
  - exists z, y. auto.
  - exists z, x. auto.
  - exists y, x. auto.
Qed.

(** Negative indices choose the right slice, but the lines lie outside the pictures. *)
Theorem C94_negative : forall x y z,
  (- Z.of_nat nx <= x < 0)%Z -> (- Z.of_nat ny <= y < 0)%Z -> (- Z.of_nat nz <= z < 0)%Z ->
  exists p0 p1 p2,
    visualize_3d img [PInt x; PInt y; PInt z] = Ok [p0; p1; p2] /\
    (forall i j, i < nz -> j < ny -> get (pl_img p0) [i; j] = get img [Z.to_nat (Z.of_nat nx + x); j; i]) /\
    (forall i j, i < nz -> j < nx -> get (pl_img p1) [i; j] = get img [j; Z.to_nat (Z.of_nat ny + y); i]) /\
    (forall i j, i < ny -> j < nx -> get (pl_img p2) [i; j] = get img [j; i; Z.to_nat (Z.of_nat nz + z)]) /\
    Forall (fun p => exists h v, pl_h p = Some h /\ pl_v p = Some v /\ (h < 0 /\ v < 0)%Z) [p0; p1; p2].
Proof.
  intros x y z Hx Hy Hz. rewrite visualize_3d_eq. match goal with |- context [if ?b then _ else _] => replace b with false by lia end.
  assert (M : forall n v, (- Z.of_nat n <= v < 0)%Z -> meant n v (Z.to_nat (Z.of_nat n + v))) by (intros n v H; right; lia).
  destruct (slice_shown 0 x img nx ny nz _ W S ltac:(lia) (M _ _ Hx)) as (a & -> & _ & Ga).
  destruct (slice_shown 1 y img nx ny nz _ W S ltac:(lia) (M _ _ Hy)) as (b & -> & _ & Gb).
  destruct (slice_shown 2 z img nx ny nz _ W S ltac:(lia) (M _ _ Hz)) as (c & -> & _ & Gc).
  cbn [bind extent voxel] in *.
  do 3 eexists. split; [reflexivity|]. cbn [pl_img].
  split; [intros; apply Ga, inb_2; auto|]. split; [intros; apply Gb, inb_2; auto|]. split; [intros; apply Gc, inb_2; auto|].
  repeat constructor; cbn [pl_img pl_h pl_v]; do 2 eexists; (split; [reflexivity|]); (split; [reflexivity|lia]).
Qed.
End C64.

Definition integer (v : pyval) : Prop := match v with PInt _ | PBool _ => True | _ => False end.

(** Wrong arguments. True and False count as integers, but never give a figure. *)
Theorem C64_arguments : forall A (img : arr A) slices,
  (length slices <> 3 -> visualize_3d img slices = Err ValueError) /\
  (length slices = 3 -> (exists v, In v slices /\ ~ integer v) -> visualize_3d img slices = Err ValueError) /\
  (length (shp img) <> 3 -> visualize_3d img slices = Err ValueError) /\
  (forall b ps, In (PBool b) slices -> visualize_3d img slices <> Ok ps).
Proof.
  intros A img slices. unfold visualize_3d. split; [|split; [|split]].
  - intros H. destruct slices as [|? [|? [|? [|]]]]; try reflexivity. cbn in H. lia.
  - intros H (v & Hv & Hi). assert (Hi' : int_value v = None) by (destruct v; try reflexivity; exfalso; apply Hi; exact I). clear Hi. rename Hi' into Hi.
    destruct slices as [|a [|b [|c [|]]]]; try discriminate. cbn in Hv.
    destruct Hv as [->|[->|[->|[]]]]; rewrite Hi; [reflexivity| |]; destruct (int_value a); try reflexivity; destruct (int_value b); reflexivity.
  - intros H. destruct slices as [|a [|b [|c [|]]]]; try reflexivity.
    destruct (int_value a), (int_value b), (int_value c); try reflexivity.
    apply Nat.eqb_neq in H. rewrite H. reflexivity.
  - intros b ps Hb. destruct slices as [|sa [|sb [|sc [|]]]]; try discriminate.
    destruct (int_value sa), (int_value sb), (int_value sc); try discriminate.
    destruct (negb _); [discriminate|]. cbv zeta. match goal with |- context [if ?b then _ else _] => destruct b end; [discriminate|].
    intros H. apply bind_ok in H as (x & Hx & H). apply bind_ok in H as (y & Hy & H). apply bind_ok in H as (w & Hw & _).
    cbn in Hb. destruct Hb as [->|[->|[->|[]]]]; discriminate.
Qed.
Print Assumptions C64_accepted.
Print Assumptions C64_rejected.
Print Assumptions C64_index_n.
Print Assumptions C64_arguments.
Print Assumptions C94_crosshair.
Print Assumptions C94_negative.

Definition vol222 : arr nat := Arr [2; 2; 2] [0; 1; 2; 3; 4; 5; 6; 7].
Example C64_ex : visualize_3d vol222 [PInt 1; PInt 2; PInt 0] = Err IndexError /\ visualize_3d vol222 [PInt 1; PInt 3; PInt 0] = Err ValueError.
Proof. split; reflexivity. Qed.
Example C94_ex : exists p1 p2, visualize_3d vol222 [PInt 1; PInt 0; PInt (-1)] =
  Ok [Panel (Arr [2; 2] [4; 6; 5; 7]) None (Some 0%Z) (Some (-1)%Z) None; p1; p2].
Proof. do 2 eexists. reflexivity. Qed.

(** ** C65 *)

(** Without the keyword region_type there is never a figure ... *)
Theorem C65_never : forall img params sc bc r subplots ps, cnr_visualize img params sc bc r None subplots <> Ok ps.
Proof.
  intros img params sc bc r subplots ps H. unfold cnr_visualize in H.
  apply bind_ok in H as ([[sc' bc'] r'] & _ & H). apply bind_ok in H as (sl & _ & H). apply bind_ok in H as (? & _ & H).
  apply bind_ok in H as (bl & _ & H). apply bind_ok in H as (? & _ & H). apply bind_ok in H as (? & _ & H).
  apply bind_ok in H as (? & _ & H). apply bind_ok in H as (? & _ & H).
  destruct (_ && _); [discriminate|]. destruct (_ =? 3); [apply bind_ok in H as (g & _ & H); discriminate|].
  destruct (_ =? 2); discriminate.
Qed.

(** Arguments that pass the checks: one integer coordinate per axis (not counting colour), no closer
    to 0 than the radius. *)
Definition fits (s : list nat) (c : list Z) (r : Z) : Prop :=
  c <> [] /\ length s = length c + (if last s 0 =? 3 then 1 else 0) /\ Forall (fun z => r <= Z.abs z)%Z c.
Definition picture_shape (s : list nat) : Prop := length s = 2 \/ length s = 3.

Lemma cnr_checked img params sc bc r k subplots : picture_shape (shp img) -> wf img -> (0 < r)%Z -> fits (shp img) sc r -> fits (shp img) bc r ->
  cnr_visualize img params (Some (map CInt sc)) (Some (map CInt bc)) (Some (RInt r)) k subplots =
  match k with
  | None => Err TypeError
  | Some t =>
      if is_colour (shp img) then let* g := to_grayscale img in cnr_2d g (map CInt sc) (map CInt bc) (RInt r) (kind_of_val t)
      else if length (shp img) =? 3 then cnr_3d subplots img (map CInt sc) (map CInt bc) (RInt r) (kind_of_val t)
      else cnr_2d img (map CInt sc) (map CInt bc) (RInt r) (kind_of_val t)
  end.
Proof.
  intros Hs Hw Hr (S1 & S2 & S3) (B1 & B2 & B3). unfold cnr_visualize.
  destruct sc as [|s0 sc]; [contradiction|]. destruct bc as [|b0 bc]; [contradiction|].
  replace (no_center _ || no_center _ || no_radius _) with false.
  2:{ cbn [map no_center no_radius orb]. destruct (Z.eqb_spec r 0); [lia|reflexivity]. }
  cbn [bind rad_of len_of from_opt]. rewrite !map_length. rewrite <- S2, <- B2, Nat.eqb_refl. cbn [negb raise_if bind].
  assert (E1 : check_border (map CInt (s0 :: sc)) (RInt r) = Ok (s0 :: sc)) by (destruct (C48_check (s0 :: sc) r) as [[_ E]|[F _]]; [exact E|contradiction]).
  assert (E2 : check_border (map CInt (b0 :: bc)) (RInt r) = Ok (b0 :: bc)) by (destruct (C48_check (b0 :: bc) r) as [[_ E]|[F _]]; [exact E|contradiction]).
  cbn [check_radius]. destruct (Z.leb_spec r 0); [lia|]. cbn [bind]. rewrite E1. cbn [bind]. rewrite E2. cbn [bind].
  unfold is_colour. destruct Hs as [Hs|Hs]; rewrite Hs; cbn [Nat.eqb andb].
  - destruct k; reflexivity.
  - destruct (last (shp img) 0 =? 3) eqn:E; cbn [negb].
    + destruct (to_grayscale img) as [g|e] eqn:G; [destruct k; reflexivity|]. exfalso.
      apply Nat.eqb_eq in E. destruct (to_grayscale_ok img (removelast (shp img)) Hw) as (g & G' & _); [|congruence].
      rewrite <- E. apply app_removelast_last. intros N. rewrite N in Hs. discriminate.
    + destruct k; reflexivity.
Qed.

(** ... and arguments that pass the checks give TypeError. *)
Theorem C65_type_error : forall img params sc bc r subplots,
  picture_shape (shp img) -> wf img -> (0 < r)%Z -> fits (shp img) sc r -> fits (shp img) bc r ->
  cnr_visualize img params (Some (map CInt sc)) (Some (map CInt bc)) (Some (RInt r)) None subplots = Err TypeError.
Proof. intros. rewrite cnr_checked by assumption. reflexivity. Qed.

(** Outside IPython set_centers turns this into ImportError. *)
Theorem C65_set_centers : forall img params sc bc r subplots,
  not_interactive (cnr_visualize img params sc bc r None subplots) = Err ImportError.
Proof.
  intros. destruct (cnr_visualize img params sc bc r None subplots) eqn:E; [|reflexivity]. exfalso. eapply C65_never. exact E.
Qed.

(** Given as an extra keyword the region type is used; other types than cubic and spherical ones end in
    UnboundLocalError. *)
Theorem C65_keyword : forall img params sc bc r t h w,
  wf img -> shp img = [h; w] -> w <> 3 -> (0 < r)%Z -> fits [h; w] sc r -> fits [h; w] bc r ->
  forall subplots,
  (region_kind t = KCubic \/ region_kind t = KSpherical ->
   exists ps, cnr_visualize img params (Some (map CInt sc)) (Some (map CInt bc)) (Some (RInt r)) (Some (PText t)) subplots = Ok ps /\ length ps = 2) /\
  (region_kind t <> KCubic -> region_kind t <> KSpherical ->
   cnr_visualize img params (Some (map CInt sc)) (Some (map CInt bc)) (Some (RInt r)) (Some (PText t)) subplots = Err UnboundLocalError).
Proof.
  intros img params sc bc r t h w W S H3 Hr Fs Fb subplots.
  rewrite cnr_checked by (rewrite ?S; (assumption || (left; reflexivity))). rewrite S. cbn [is_colour length Nat.eqb andb kind_of_val].
  destruct Fs as (_ & Ls & _). destruct Fb as (_ & Lb & _). cbn [length last] in Ls, Lb. destruct (Nat.eqb_spec w 3); [contradiction|].
  destruct sc as [|s0 [|s1 [|]]]; try (cbn in Ls; lia). destruct bc as [|b0 [|b1 [|]]]; try (cbn in Lb; lia).
  unfold cnr_2d. cbn [map coord nth_error]. destruct (flip_ax_ok img 1 W) as (m & Hm & _); [rewrite S; cbn; lia|].
  rewrite S. cbn [length Nat.sub]. rewrite Hm. split.
  - intros [-> | ->]; cbn; eexists; split; reflexivity.
  - intros N1 N2. destruct (region_kind t); try contradiction; reflexivity.
Qed.

(** If a centre or the radius is missing, all three stored values are used, each in its role. *)
Theorem C65_stored : forall img s b r k0 sc bc rad region_type subplots params,
  s <> [] -> b <> [] -> r <> 0%Z ->
  sc = None \/ sc = Some [] \/ bc = None \/ bc = Some [] \/ rad = None \/ rad = Some (RInt 0) ->
  cnr_visualize img (Stored (Some (Some (map CInt s))) (Some (Some (map CInt b))) (Some (Some (RInt r))) k0) sc bc rad region_type subplots =
  cnr_visualize img params (Some (map CInt s)) (Some (map CInt b)) (Some (RInt r)) region_type subplots.
Proof.
  intros img s b r k0 sc bc rad k subplots params Hs Hb Hr H. unfold cnr_visualize.
  replace (no_center sc || no_center bc || no_radius rad) with true.
  2:{ symmetry. rewrite !orb_true_iff. destruct H as [->|[->|[->|[->|[->| ->]]]]]; cbn; auto. }
  replace (no_center (Some (map CInt s)) || no_center (Some (map CInt b)) || no_radius (Some (RInt r))) with false.
  2:{ destruct s; [contradiction|]. destruct b; [contradiction|]. cbn. destruct (Z.eqb_spec r 0); [contradiction|reflexivity]. }
  cbn [st_signal st_background st_radius bind rad_of]. reflexivity.
Qed.

(** Nothing stored (or not all three): ValueError. *)
Theorem C65_nothing : forall img params sc bc rad region_type subplots,
  st_signal params = None \/ st_background params = None \/ st_radius params = None ->
  sc = None \/ sc = Some [] \/ bc = None \/ bc = Some [] \/ rad = None \/ rad = Some (RInt 0) ->
  cnr_visualize img params sc bc rad region_type subplots = Err ValueError.
Proof.
  intros img params sc bc rad k subplots Hp H. unfold cnr_visualize.
  replace (no_center sc || no_center bc || no_radius rad) with true.
  2:{ symmetry. rewrite !orb_true_iff. destruct H as [->|[->|[->|[->|[->| ->]]]]]; cbn; auto. }
  destruct Hp as [E|[E|E]]; rewrite E; [reflexivity|destruct (st_signal params); reflexivity|].
  destruct (st_signal params); [|reflexivity]. destruct (st_background params); reflexivity.
Qed.

(** Volumes hand the remaining keywords to matplotlib, whose errors come through; planes do not. *)
Theorem C65_subplots : forall img params sc bc r t e,
  wf img -> (0 < r)%Z -> fits (shp img) sc r -> fits (shp img) bc r ->
  (length (shp img) = 3 -> last (shp img) 0 <> 3 ->
   cnr_visualize img params (Some (map CInt sc)) (Some (map CInt bc)) (Some (RInt r)) (Some t) (Err e) = Err e) /\
  (length (shp img) = 2 \/ length (shp img) = 3 /\ last (shp img) 0 = 3 ->
   cnr_visualize img params (Some (map CInt sc)) (Some (map CInt bc)) (Some (RInt r)) (Some t) (Err e) =
   cnr_visualize img params (Some (map CInt sc)) (Some (map CInt bc)) (Some (RInt r)) (Some t) (Ok tt)).
Proof.
  intros img params sc bc r t e W Hr Fs Fb. split.
  - intros L N. rewrite cnr_checked by (assumption || (right; exact L)). unfold is_colour. rewrite L. cbn [Nat.eqb andb].
    apply Nat.eqb_neq in N. rewrite N. reflexivity.
  - intros H. assert (P : picture_shape (shp img)) by (destruct H as [H|[H _]]; [left|right]; exact H).
    rewrite !cnr_checked by assumption. unfold is_colour. destruct H as [H|[H H3]]; rewrite H; cbn [Nat.eqb andb]; [reflexivity|].
    rewrite H3. reflexivity.
Qed.
Print Assumptions C65_never.
Print Assumptions C65_type_error.
Print Assumptions C65_set_centers.
Print Assumptions C65_keyword.
Print Assumptions C65_stored.
Print Assumptions C65_nothing.
Print Assumptions C65_subplots.

Definition nothing : stored := Stored None None None None.
Definition img44 : arr R := tabulate [4; 4] (fun idx => INR (ravel [4; 4] idx)).
Example C65_ex : cnr_visualize img44 nothing (Some [CInt 1; CInt 2]) (Some [CInt 2; CInt 2]) (Some (RInt 1)) None (Ok tt) = Err TypeError.
Proof. reflexivity. Qed.

(** ** C95: do the drawn regions agree with the scored ones? *)

(** The centre of the cell in row [i], column [j] lies in the patch. *)
Definition inside (pt : patch) (x y : R) : Prop :=
  match pt with
  | Rect x0 y0 w h => (x0 <= x <= x0 + w /\ y0 <= y <= y0 + h)%R
  | Circle x0 y0 r => ((x - x0) * (x - x0) + (y - y0) * (y - y0) <= r * r)%R
  end.
Definition marked {A B} (p : panel A B) (i j : nat) : Prop :=
  exists pt, pl_patch p = Some pt /\ inside pt (INR j) (INR i).

(** Integer description of the two patches *)
Definition drawn (kind : rkind) (x y r : Z) (i j : nat) : Prop :=
  match kind with
  | KCubic => (x - r <= Z.of_nat j <= x + r /\ y - r <= Z.of_nat i <= y + r)%Z
  | _ => ((Z.of_nat j - x) * (Z.of_nat j - x) + (Z.of_nat i - y) * (Z.of_nat i - y) <= r * r)%Z
  end.

Lemma draw_patch_ok kind x y r : kind = KCubic \/ kind = KSpherical ->
  exists pt, draw_patch kind x y (RInt r) = Ok (Some pt) /\ forall i j, inside pt (INR j) (INR i) <-> drawn kind x y r i j.
Proof.
  intros [-> | ->]; (eexists; split; [reflexivity|]); intros i j; cbn [inside drawn]; rewrite !INR_IZR_INZ.
  - rewrite !minus_IZR, !mult_IZR. split.
    + intros [[H1 H2] [H3 H4]].
      repeat split; apply le_IZR; rewrite ?minus_IZR, ?plus_IZR; lra.
    + intros [[H1 H2] [H3 H4]]. apply IZR_le in H1, H2, H3, H4. rewrite ?minus_IZR, ?plus_IZR in *. lra.
  - rewrite <- !minus_IZR, <- !mult_IZR, <- plus_IZR. split; [apply le_IZR|apply IZR_le].
Qed.

(** The region that is scored, as in make_region. *)
Definition scored_region {A} (kind : rkind) (a : arr A) (c : list Z) (r : Z) : res (arr (option A)) :=
  match kind with KCubic => to_cubic a c r | _ => to_spherical a c r end.

(** Panels [p] of an image that agree with the scored region: every cell shows the voxel [f i j] and is
    marked if that voxel is scored; marked cells that are not scored lie on the far edges of the box. *)
Definition agrees {A B} (kind : rkind) (img : arr A) (c : list Z) (r : Z) (p : panel A B) (f : nat -> nat -> list nat) (x y : Z) : Prop :=
  exists m, scored_region kind img c r = Ok m /\
  forall i j v, get (pl_img p) [i; j] = Some v ->
    get img (f i j) = Some v /\
    (get m (f i j) = Some (Some v) -> marked p i j) /\
    (marked p i j -> get m (f i j) = Some (Some v) \/ kind = KCubic /\ (Z.of_nat j = x + r \/ Z.of_nat i = y + r)%Z).

Section C95.
Context {A B : Type}.
Variables (img : arr A) (nx ny nz : nat) (c0 c1 c2 r : Z) (kind : rkind).
Hypothesis W : wf img.
Hypothesis S : shp img = [nx; ny; nz].
Hypothesis Hz : 3 < nz.
Hypothesis Hr : (0 < r)%Z.
Hypothesis H0 : (r <= c0 <= Z.of_nat nx - r)%Z.
Hypothesis H1 : (r <= c1 <= Z.of_nat ny - r)%Z.
Hypothesis H2 : (r <= c2 <= Z.of_nat nz - r)%Z.
Hypothesis Hk : kind = KCubic \/ kind = KSpherical.

Lemma region_voxels : exists m, scored_region kind img [c0; c1; c2] r = Ok m /\
  forall i j k v, get img [i; j; k] = Some v ->
    (get m [i; j; k] = Some (Some v) <->
     match kind with
     | KCubic => (c0 - r <= Z.of_nat i < c0 + r /\ c1 - r <= Z.of_nat j < c1 + r /\ c2 - r <= Z.of_nat k < c2 + r)%Z
     | _ => ((Z.of_nat i - c0) * (Z.of_nat i - c0) + (Z.of_nat j - c1) * (Z.of_nat j - c1) + (Z.of_nat k - c2) * (Z.of_nat k - c2) <= r * r)%Z
     end).
Proof.
  assert (G : grey (shp img)) by (right; rewrite S; cbn; lia).
  destruct Hk as [-> | ->]; cbn [scored_region].
  - destruct (C47_cubic A img [c0; c1; c2] r W G ltac:(lia)) as (m & Hm & _ & M & _).
    { rewrite S. repeat constructor; lia. }
    exists m. split; [exact Hm|]. intros i j k v Hv. destruct (M _ _ Hv) as [[F E]|[F E]]; rewrite E.
    + split; [intros _|reflexivity]. inversion F as [|? ? ? ? A1 F1]; subst. inversion F1 as [|? ? ? ? A2 F2]; subst. inversion F2 as [|? ? ? ? A3 F3]; subst. auto.
    + split; [discriminate|]. intros (A1 & A2 & A3). exfalso. apply F. repeat apply Forall2_cons; auto.
  - destruct (C47_spherical A img [c0; c1; c2] r W G) as (m & Hm & _ & M); [rewrite S; reflexivity|].
    exists m. split; [exact Hm|]. intros i j k v Hv.
    assert (Q : sqdist [i; j; k] [c0; c1; c2] = ((Z.of_nat i - c0) * (Z.of_nat i - c0) + (Z.of_nat j - c1) * (Z.of_nat j - c1) + (Z.of_nat k - c2) * (Z.of_nat k - c2))%Z)
      by (unfold sqdist; cbn; ring).
    destruct (M _ _ Hv) as [[F E]|[F E]]; rewrite E, <- Q.
    + split; [intros _; exact F|reflexivity].
    + split; [discriminate|lia].
Qed.

Lemma three_panels_agree : forall (patch_of : Z -> Z -> res (option patch)),
  (forall x y, patch_of x y = draw_patch kind x y (RInt r)) ->
  exists p0 p1 p2, three_panels (B:=B) patch_of img None c0 c1 c2 = Ok [p0; p1; p2] /\
    agrees kind img [c0; c1; c2] r p0 (voxel 0 (Z.to_nat c0)) c1 c2 /\
    agrees kind img [c0; c1; c2] r p1 (voxel 1 (Z.to_nat c1)) c0 c2 /\
    agrees kind img [c0; c1; c2] r p2 (voxel 2 (Z.to_nat c2)) c0 c1.
Proof.
  intros patch_of Hp. unfold three_panels. cbn [bind].
  destruct (slice_shown 0 c0 img nx ny nz (Z.to_nat c0) W S ltac:(lia)) as (a & Ha & Sa & Ga); [left; cbn; lia|].
  destruct (slice_shown 1 c1 img nx ny nz (Z.to_nat c1) W S ltac:(lia)) as (b & Hb & Sb & Gb); [left; cbn; lia|].
  destruct (slice_shown 2 c2 img nx ny nz (Z.to_nat c2) W S ltac:(lia)) as (c & Hc & Sc & Gc); [left; cbn; lia|].
  destruct (draw_patch_ok kind c1 c2 r Hk) as (q0 & E0 & D0). destruct (draw_patch_ok kind c0 c2 r Hk) as (q1 & E1 & D1).
  destruct (draw_patch_ok kind c0 c1 r Hk) as (q2 & E2 & D2).
  rewrite Ha. cbn [bind]. rewrite Hp, E0. cbn [bind]. rewrite Hb. cbn [bind]. rewrite Hp, E1. cbn [bind]. rewrite Hc. cbn [bind].
  rewrite Hp, E2. cbn [bind]. do 3 eexists. split; [reflexivity|].
  destruct region_voxels as (m & Hm & M).
  assert (MK : forall (p : panel A B) q x y i j, pl_patch p = Some q -> (forall i j, inside q (INR j) (INR i) <-> drawn kind x y r i j) ->
             (marked p i j <-> drawn kind x y r i j)).
  { intros p q x y i j Eq D. unfold marked. rewrite <- D. split; [intros (pt & E & I); rewrite Eq in E; injection E as <-; exact I|eauto]. }
  split; [|split]; exists m; (split; [exact Hm|]); intros i j v Hv; cbn [pl_img] in Hv;
    (assert (Hin := get_inb _ _ _ Hv); rewrite ?Sa, ?Sb, ?Sc in Hin).
  - rewrite Ga in Hv by exact Hin. split; [exact Hv|].
    match goal with |- context [marked ?p _ _] => rewrite (MK p q0 c1 c2 i j eq_refl D0) end. cbn [voxel] in *. rewrite (M _ _ _ _ Hv).
    destruct Hk as [-> | ->]; cbn [drawn]; rewrite Z2Nat.id by lia; (split; [lia|]); intros.
    + destruct (Z.eq_dec (Z.of_nat j) (c1 + r)), (Z.eq_dec (Z.of_nat i) (c2 + r)); auto. left. lia.
    + left. lia.
  - rewrite Gb in Hv by exact Hin. split; [exact Hv|].
    match goal with |- context [marked ?p _ _] => rewrite (MK p q1 c0 c2 i j eq_refl D1) end. cbn [voxel] in *. rewrite (M _ _ _ _ Hv).
    destruct Hk as [-> | ->]; cbn [drawn]; rewrite Z2Nat.id by lia; (split; [lia|]); intros.
    + destruct (Z.eq_dec (Z.of_nat j) (c0 + r)), (Z.eq_dec (Z.of_nat i) (c2 + r)); auto. left. lia.
    + left. lia.
  - rewrite Gc in Hv by exact Hin. split; [exact Hv|].
    match goal with |- context [marked ?p _ _] => rewrite (MK p q2 c0 c1 i j eq_refl D2) end. cbn [voxel] in *. rewrite (M _ _ _ _ Hv).
    destruct Hk as [-> | ->]; cbn [drawn]; rewrite Z2Nat.id by lia; (split; [lia|]); intros.
    + destruct (Z.eq_dec (Z.of_nat j) (c0 + r)), (Z.eq_dec (Z.of_nat i) (c1 + r)); auto. left. lia.
    + left. lia.
Qed.
End C95.

(** Panels of a volume: the regions drawn are the scored ones (up to the far edges of a box). *)
Theorem C95_volume : forall B (single : arr B -> bool) img params nx ny nz c0 c1 c2 r t subplots,
  wf img -> shp img = [nx; ny; nz] -> 3 < nz -> (0 < r)%Z ->
  (r <= c0 <= Z.of_nat nx - r)%Z -> (r <= c1 <= Z.of_nat ny - r)%Z -> (r <= c2 <= Z.of_nat nz - r)%Z ->
  region_kind t = KCubic \/ region_kind t = KSpherical ->
  let c := [c0; c1; c2] in let k := region_kind t in
  let good (p0 p1 p2 : panel R B) :=
    agrees k img c r p0 (voxel 0 (Z.to_nat c0)) c1 c2 /\ agrees k img c r p1 (voxel 1 (Z.to_nat c1)) c0 c2 /\
    agrees k img c r p2 (voxel 2 (Z.to_nat c2)) c0 c1 in
  (exists p0 p1 p2, snr_visualize single img params None (Some (map CInt c)) (Some (RInt r)) (Some (PText t)) None = Ok [p0; p1; p2] /\ good p0 p1 p2) /\
  (forall b0 b1 b2,
   (r <= b0 <= Z.of_nat nx - r)%Z -> (r <= b1 <= Z.of_nat ny - r)%Z -> (r <= b2 <= Z.of_nat nz - r)%Z ->
   subplots = Ok tt ->
   exists q0 q1 q2 p0 p1 p2,
     cnr_visualize img params (Some (map CInt c)) (Some (map CInt [b0; b1; b2])) (Some (RInt r)) (Some (PText t)) subplots = Ok [q0; q1; q2; p0; p1; p2] /\
     (agrees k img [b0; b1; b2] r q0 (voxel 0 (Z.to_nat b0)) b1 b2 /\ agrees k img [b0; b1; b2] r q1 (voxel 1 (Z.to_nat b1)) b0 b2 /\
      agrees k img [b0; b1; b2] r q2 (voxel 2 (Z.to_nat b2)) b0 b1) /\
     agrees k img c r p0 (voxel 0 (Z.to_nat c0)) c1 c2 /\ agrees k img c r p1 (voxel 1 (Z.to_nat c1)) c0 c2 /\
     agrees k img c r p2 (voxel 2 (Z.to_nat c2)) c0 c1).
Proof.
  intros B single img params nx ny nz c0 c1 c2 r t subplots W S Hz Hr H0 H1 H2 Hk c k good. split.
  - destruct (three_panels_agree (B:=B) img nx ny nz c0 c1 c2 r k W S Hz Hr H0 H1 H2 Hk (fun x y => draw_patch k x y (RInt r)) (fun _ _ => eq_refl))
      as (p0 & p1 & p2 & E & G).
    exists p0, p1, p2. split; [|exact G].
    unfold snr_visualize. assert (NT : no_kind (Some (PText t)) = false /\ whole_kind (PText t) = false).
    { unfold no_kind, whole_kind. destruct (String.eqb_spec t ""); [subst; destruct Hk; discriminate|].
      destruct (String.eqb_spec t "full"); [subst; destruct Hk; discriminate|].
      destruct (String.eqb_spec t "original"); [subst; destruct Hk; discriminate|].
      split; [|reflexivity]. cbn. destruct t; [contradiction|reflexivity]. }
    destruct NT as [-> NW]. cbn [bind hashable negb]. rewrite NW, S. cbn [no_center map c no_radius].
    destruct (Z.eqb_spec r 0); [lia|]. cbn [from_opt bind length last].
    destruct (Nat.eqb_spec nz 3); [lia|]. cbn [Nat.add Nat.eqb negb raise_if bind check_radius].
    destruct (Z.leb_spec r 0); [lia|]. cbn [bind].
    change [CInt c0; CInt c1; CInt c2] with (map CInt [c0; c1; c2]).
    destruct (C48_check [c0; c1; c2] r) as [[_ ->]|[F _]]; [|exfalso; apply F; repeat constructor; lia].
    cbn [bind andb kind_of_val]. unfold snr_3d. fold k.
    replace (snr_kind img k (@None (arr B))) with (Ok k) by (destruct Hk as [Ek|Ek]; unfold k; rewrite Ek; reflexivity).
    cbn [map coord nth_error bind]. replace (overlay k (@None (arr B))) with (@None (arr B)) by (destruct k; reflexivity). exact E.
  - intros b0 b1 b2 B0 B1 B2 ->.
    assert (PE : forall x y, cnr_patch k (Ok x) (Ok y) (RInt r) = draw_patch k x y (RInt r)) by (intros x y; destruct Hk as [Ek|Ek]; unfold k; rewrite Ek; reflexivity).
    destruct (three_panels_agree (B:=unit) img nx ny nz c0 c1 c2 r k W S Hz Hr H0 H1 H2 Hk _ PE) as (p0 & p1 & p2 & E & G).
    destruct (three_panels_agree (B:=unit) img nx ny nz b0 b1 b2 r k W S Hz Hr B0 B1 B2 Hk _ PE) as (q0 & q1 & q2 & E' & G').
    exists q0, q1, q2, p0, p1, p2. split; [|split; [exact G'|exact G]].
    assert (F : forall x y z, (r <= x)%Z -> (r <= y)%Z -> (r <= z)%Z -> fits (shp img) [x; y; z] r).
    { intros x y z X Y Z'. split; [discriminate|]. rewrite S. cbn [length last]. destruct (Nat.eqb_spec nz 3); [lia|]. split; [reflexivity|]. repeat constructor; lia. }
    rewrite cnr_checked; [|right; rewrite S; reflexivity|exact W|exact Hr|apply F; lia|apply F; lia].
    unfold is_colour. rewrite S. cbn [length last Nat.eqb andb]. destruct (Nat.eqb_spec nz 3); [lia|]. cbn [kind_of_val]. fold k.
    unfold cnr_3d. cbn [map c coord nth_error bind]. rewrite E'. cbn [bind]. rewrite E. reflexivity.
Qed.

(** Panels of a plane: rows and columns of the region are exchanged, and the pictures of SNR and of the
    signal region of CNR are mirrored under the region. *)
Theorem C95_plane : forall B (single : arr B -> bool) img params h w c0 c1 r t subplots,
  wf img -> shp img = [h; w] -> w <> 3 -> (0 < r)%Z -> (r <= Z.abs c0)%Z -> (r <= Z.abs c1)%Z ->
  region_kind t = KCubic \/ region_kind t = KSpherical ->
  let k := region_kind t in
  (exists p, snr_visualize single img params None (Some [CInt c0; CInt c1]) (Some (RInt r)) (Some (PText t)) None = Ok [p] /\
     forall i j, i < h -> j < w -> get (pl_img p) [i; j] = get img [i; w - 1 - j] /\ (marked p i j <-> drawn k c0 c1 r i j)) /\
  (forall b0 b1, (r <= Z.abs b0)%Z -> (r <= Z.abs b1)%Z ->
   exists q p, cnr_visualize img params (Some [CInt c0; CInt c1]) (Some [CInt b0; CInt b1]) (Some (RInt r)) (Some (PText t)) subplots = Ok [q; p] /\
     (forall i j, i < h -> j < w -> get (pl_img q) [i; j] = get img [i; j] /\ (marked q i j <-> drawn k b0 b1 r i j)) /\
     (forall i j, i < h -> j < w -> get (pl_img p) [i; j] = get img [i; w - 1 - j] /\ (marked p i j <-> drawn k c0 c1 r i j))).
Proof.
  intros B single img params h w c0 c1 r t subplots W S H3 Hr H0 H1 Hk k.
  destruct (flip_ax_ok img 1 W) as (m & Hm & _ & _ & Gm); [rewrite S; cbn; lia|].
  destruct (draw_patch_ok k c0 c1 r Hk) as (pt & Ept & D).
  assert (G : forall i j, i < h -> j < w -> get m [i; j] = get img [i; w - 1 - j]).
  { intros i j Hi Hj. rewrite Gm by (rewrite S; apply inb_2; auto). rewrite S. cbn [upd nth]. reflexivity. }
  assert (MK : forall C (p : panel R C) q x y i j, pl_patch p = Some q -> (forall i j, inside q (INR j) (INR i) <-> drawn k x y r i j) ->
             (marked p i j <-> drawn k x y r i j)).
  { intros C p q x y i j Eq D'. unfold marked. rewrite <- D'. split; [intros (pt' & E & I); rewrite Eq in E; injection E as <-; exact I|eauto]. }
  split.
  - exists (Panel m None None None (Some pt)). split.
    + unfold snr_visualize. assert (NT : no_kind (Some (PText t)) = false /\ whole_kind (PText t) = false).
      { unfold no_kind, whole_kind. destruct (String.eqb_spec t ""); [subst; destruct Hk; discriminate|].
        destruct (String.eqb_spec t "full"); [subst; destruct Hk; discriminate|].
        destruct (String.eqb_spec t "original"); [subst; destruct Hk; discriminate|].
        split; [|reflexivity]. cbn. destruct t; [contradiction|reflexivity]. }
      destruct NT as [-> NW]. cbn [bind hashable negb]. rewrite NW, S. cbn [no_center no_radius].
      destruct (Z.eqb_spec r 0); [lia|]. cbn [from_opt bind length last].
      destruct (Nat.eqb_spec w 3); [contradiction|]. cbn [Nat.add Nat.eqb negb raise_if bind check_radius].
      destruct (Z.leb_spec r 0); [lia|]. cbn [bind].
      change [CInt c0; CInt c1] with (map CInt [c0; c1]).
      destruct (C48_check [c0; c1] r) as [[_ ->]|[F _]]; [|exfalso; apply F; repeat constructor; lia].
      cbn [bind andb kind_of_val]. unfold snr_2d. fold k.
      replace (snr_kind img k (@None (arr B))) with (Ok k) by (destruct Hk as [Ek|Ek]; unfold k; rewrite Ek; reflexivity).
      rewrite S. cbn [length Nat.sub bind]. rewrite Hm. cbn [map coord nth_error bind]. rewrite Ept.
      destruct Hk as [Ek|Ek]; unfold k; rewrite Ek; reflexivity.
    + intros i j Hi Hj. split; [apply G; assumption|]. apply (MK _ _ pt); [reflexivity|exact D].
  - intros b0 b1 B0 B1. destruct (draw_patch_ok k b0 b1 r Hk) as (qt & Eqt & D').
    exists (Panel img None None None (Some qt)), (Panel m None None None (Some pt)). split; [|split].
    + change [CInt c0; CInt c1] with (map CInt [c0; c1]). change [CInt b0; CInt b1] with (map CInt [b0; b1]).
      assert (F : forall x y, (r <= Z.abs x)%Z -> (r <= Z.abs y)%Z -> fits (shp img) [x; y] r).
      { intros x y X Y. split; [discriminate|]. rewrite S. cbn [length last]. destruct (Nat.eqb_spec w 3); [contradiction|]. split; [reflexivity|]. repeat constructor; lia. }
      rewrite cnr_checked; [|left; rewrite S; reflexivity|exact W|exact Hr|apply F; lia|apply F; lia].
      rewrite S. cbn [is_colour length Nat.eqb andb kind_of_val]. fold k. unfold cnr_2d. rewrite S. cbn [length Nat.sub].
      rewrite Hm. cbn [map coord nth_error bind].
      assert (PE : forall x y, cnr_patch k (Ok x) (Ok y) (RInt r) = draw_patch k x y (RInt r)) by (intros x y; destruct Hk as [Ek|Ek]; unfold k; rewrite Ek; reflexivity).
      rewrite !PE, Eqt. cbn [bind]. rewrite Ept. reflexivity.
    + intros i j Hi Hj. split; [reflexivity|]. apply (MK _ _ qt); [reflexivity|exact D'].
    + intros i j Hi Hj. split; [apply G; assumption|]. apply (MK _ _ pt); [reflexivity|exact D].
Qed.

(** So the drawn region need not contain a single scored pixel. *)
Theorem C95_plane_refuted : exists (img : arr R) (c : list Z) (r : Z) (m : arr (option R)),
  to_cubic img c r = Ok m /\ (exists idx v, get m idx = Some (Some v)) /\
  (exists p : panel R R,
     snr_visualize (fun _ => true) img (Stored None None None None) None (Some (map CInt c)) (Some (RInt r)) (Some (PText "cubic")) None = Ok [p] /\
     (exists i j v, marked p i j /\ get (pl_img p) [i; j] = Some v) /\
     forall i j v, marked p i j -> get (pl_img p) [i; j] = Some v -> forall idx, get m idx <> Some (Some v)) /\
  (exists q p,
     cnr_visualize img (Stored None None None None) (Some (map CInt c)) (Some (map CInt c)) (Some (RInt r)) (Some (PText "cubic")) (Ok tt) = Ok [q; p] /\
     (forall i j v, marked q i j -> get (pl_img q) [i; j] = Some v -> forall idx, get m idx <> Some (Some v)) /\
     (forall i j v, marked p i j -> get (pl_img p) [i; j] = Some v -> forall idx, get m idx <> Some (Some v))).
Proof.
  pose (img := tabulate [8; 8] (fun idx => INR (8 * nth 0 idx 0 + nth 1 idx 0))).
  assert (W : wf img) by apply wf_tabulate. assert (S : shp img = [8; 8]) by reflexivity.
  assert (G : forall i j, i < 8 -> j < 8 -> get img [i; j] = Some (INR (8 * i + j))).
  { intros i j Hi Hj. unfold img. rewrite get_tabulate by (apply inb_2; auto). reflexivity. }
  destruct (C47_cubic R img [2; 5]%Z 1%Z W) as (m & Hm & _ & M & M'); [left; rewrite S; reflexivity|lia|rewrite S; repeat constructor; cbn; lia|].
  assert (Sc : forall idx v, get m idx = Some (Some v) -> exists a b, a < 8 /\ b < 8 /\ 1 <= a <= 2 /\ 4 <= b <= 5 /\ v = INR (8 * a + b)).
  { intros idx v Hv. destruct (get img idx) as [x|] eqn:E.
    - destruct (M _ _ E) as [[F E']|[F E']]; rewrite E' in Hv; [|discriminate]. injection Hv as <-.
      inversion F as [|? a ? ? A1 F1]; subst. inversion F1 as [|? b ? ? A2 F2]; subst. inversion F2; subst.
      exists a, b. assert (I : inb [8; 8] [a; b] = true) by (rewrite <- S; apply (get_inb _ _ _ E)). apply inb_2 in I.
      rewrite G in E by lia. injection E as <-. repeat split; lia.
    - exfalso. assert (I := get_inb _ _ _ Hv). pose proof Hm as Hm'. unfold to_cubic in Hm'. rewrite S in Hm'. cbn in Hm'. injection Hm' as <-.
      change (inb (shp img) idx = true) in I. destruct (get_wf_some img idx W I). congruence. }
  exists img, [2; 5]%Z, 1%Z, m. split; [exact Hm|]. split.
  - exists [1; 4], (INR 12). destruct (M [1; 4] (INR 12)) as [[_ E]|[F _]]; [rewrite G by lia; reflexivity|exact E|].
    exfalso. apply F. repeat apply Forall2_cons; try apply Forall2_nil; cbn; lia.
  - destruct (C95_plane R (fun _ => true) img (Stored None None None None) 8 8 2 5 1 "cubic" (Ok tt) W S ltac:(lia) ltac:(lia) ltac:(lia) ltac:(lia) (or_introl eq_refl))
      as [(p & Ep & Gp) C]. destruct (C 2%Z 5%Z ltac:(lia) ltac:(lia)) as (q & p' & Eq & Gq & Gp').
    assert (In : forall C (p : panel R C), (exists a, pl_img p = a /\ shp a = [8; 8]) -> forall i j v, get (pl_img p) [i; j] = Some v -> i < 8 /\ j < 8).
    { intros C0 p0 (a & <- & Sa) i j v Hv. apply get_inb in Hv. rewrite Sa in Hv. apply inb_2 in Hv. exact Hv. }
    assert (Mir : forall C (p : panel R C), (exists a, pl_img p = a /\ shp a = [8; 8]) ->
              (forall i j, i < 8 -> j < 8 -> get (pl_img p) [i; j] = get img [i; 8 - 1 - j] /\ (marked p i j <-> drawn KCubic 2 5 1 i j)) ->
              forall i j v, marked p i j -> get (pl_img p) [i; j] = Some v -> forall idx, get m idx <> Some (Some v)).
    { intros C0 p0 Sh Gp0 i j v Mk Hv idx Hidx. destruct (In C0 p0 Sh i j v Hv) as [Hi Hj]. destruct (Gp0 i j Hi Hj) as [E K].
      apply K in Mk. cbn [drawn] in Mk. rewrite E, G in Hv by lia. injection Hv as <-.
      destruct (Sc _ _ Hidx) as (a & b & Ha & Hb & Ra & Rb & Ev). apply INR_eq in Ev. lia. }
    assert (Sp : exists a, pl_img p = a /\ shp a = [8; 8]).
    { eexists. split; [reflexivity|]. cbn in Ep. injection Ep as <-. reflexivity. }
    assert (Sp' : (exists a, pl_img q = a /\ shp a = [8; 8]) /\ exists a, pl_img p' = a /\ shp a = [8; 8]).
    { cbn in Eq. injection Eq as <- <-. split; eexists; split; reflexivity. }
    split; [|].
    + exists p. split; [exact Ep|]. split; [|exact (Mir _ p Sp Gp)].
      exists 5, 2, (INR 45). destruct (Gp 5 2 ltac:(lia) ltac:(lia)) as [E K]. split; [apply K; change (drawn KCubic 2 5 1 5 2); unfold drawn; lia|]. rewrite E, G by lia. reflexivity.
    + exists q, p'. split; [exact Eq|]. split; [|exact (Mir _ p' (proj2 Sp') Gp')].
      intros i j v Mk Hv idx Hidx. destruct (In _ q (proj1 Sp') i j v Hv) as [Hi Hj]. destruct (Gq i j Hi Hj) as [E K].
      apply K in Mk. change (drawn KCubic 2 5 1 i j) in Mk. cbn [drawn] in Mk. rewrite E, G in Hv by lia. injection Hv as <-.
      destruct (Sc _ _ Hidx) as (a & b & Ha & Hb & Ra & Rb & Ev). apply INR_eq in Ev. lia.
Qed.
Print Assumptions C95_volume.
Print Assumptions C95_plane.
Print Assumptions C95_plane_refuted.

Example C95_ex : drawn KCubic 2 5 1 5 2 /\ ~ drawn KCubic 2 5 1 2 5.
Proof. unfold drawn. lia. Qed.

(** ** C96: SNR.visualize_centers *)

(** A signal region handed over explicitly is never drawn. *)
Theorem C96_explicit : forall B (single : arr B -> bool) img params region c r k a,
  2 <= size (shp a) -> snr_visualize single img params region c r k (Some a) = Err ValueError.
Proof.
  intros B single img params region c r k a H. unfold snr_visualize, array_truth.
  destruct (Nat.eqb_spec (size (shp a)) 0); [lia|]. destruct (Nat.eqb_spec (size (shp a)) 1); [lia|].
  destruct (no_kind k); [destruct (st_kind params)|]; reflexivity.
Qed.

(** Once a region has been computed, the stored centre and radius are not looked at ... *)
Theorem C96_stored_ignored : forall B (single : arr B -> bool) img params params' reg c r k,
  st_kind params = st_kind params' ->
  snr_visualize single img params (Some reg) c r k None = snr_visualize single img params' (Some reg) c r k None.
Proof. intros B single img params params' reg c r k H. unfold snr_visualize. rewrite H. reflexivity. Qed.

(** ... so boxes and balls need the radius again. *)
Theorem C96_radius : forall B (single : arr B -> bool) img params reg c t,
  wf img -> (exists h w, shp img = [h; w] /\ w <> 3) \/ (exists nx ny nz, shp img = [nx; ny; nz] /\ 0 < nx /\ 0 < ny /\ 3 < nz) ->
  region_kind t = KCubic \/ region_kind t = KSpherical -> c = None \/ c = Some [] ->
  snr_visualize single img params (Some reg) c None (Some (PText t)) None = Err TypeError.
Proof.
  intros B single img params reg c t W Hs Hk Hc.
  assert (NT : no_kind (Some (PText t)) = false).
  { unfold no_kind. destruct t; [destruct Hk; discriminate|reflexivity]. }
  unfold snr_visualize. rewrite NT. cbn [bind rad_of kind_of_val].
  replace (no_center c) with true by (destruct Hc as [-> | ->]; reflexivity).
  assert (SK : forall A (a : arr A), snr_kind a (region_kind t) (Some reg) = Ok (region_kind t)) by (intros A a; destruct Hk as [-> | ->]; reflexivity).
  destruct Hs as [(h & w & S & H3)|(nx & ny & nz & S & H0 & H1 & H2)]; rewrite S.
  - cbn [length Nat.eqb andb]. unfold snr_2d. rewrite SK. cbn [bind].
    destruct (flip_ax_ok img 1 W) as (m & Hm & _); [rewrite S; cbn; lia|]. rewrite S. cbn [length Nat.sub]. rewrite Hm.
    cbn [bind map coord nth_error]. destruct Hk as [-> | ->]; reflexivity.
  - cbn [length Nat.eqb andb last]. destruct (Nat.eqb_spec nz 3); [lia|]. cbn [negb]. unfold snr_3d. rewrite SK.
    cbn [bind map coord nth_error]. unfold three_panels.
    destruct (slice_shown 0 (Z.of_nat (nx / 2)) img nx ny nz (nx / 2) W S ltac:(lia)) as (b & Hb & _).
    { left. cbn [nth]. split; [|lia]. split; [lia|]. apply Nat2Z.inj_lt, Nat.div_lt; lia. }
    rewrite Hb. cbn [bind]. destruct Hk as [-> | ->]; reflexivity.
Qed.

(** Regions of type "full": in a plane the picture is mirrored and the region on top of it is not; in a
    volume both are shown alike. *)
Theorem C96_full : forall B (single : arr B -> bool) img params reg c r,
  wf img -> wf reg -> shp reg = shp img ->
  (forall h w, shp img = [h; w] ->
   exists p o, snr_visualize single img params (Some reg) c r (Some (PText "full")) None = Ok [p] /\ pl_over p = Some o /\
     forall i j, i < h -> j < w -> get (pl_img p) [i; j] = get img [i; w - 1 - j] /\ get o [i; j] = get reg [i; j]) /\
  (forall nx ny nz x y z, shp img = [nx; ny; nz] -> nz <> 3 -> x < nx -> y < ny -> z < nz ->
   c = Some [CInt (Z.of_nat x); CInt (Z.of_nat y); CInt (Z.of_nat z)] ->
   exists ps, snr_visualize single img params (Some reg) c r (Some (PText "full")) None = Ok ps /\ length ps = 3 /\
     forall ax p, nth_error ps ax = Some p -> exists o, pl_over p = Some o /\ shp o = shp (pl_img p) /\
       forall i j, inb (shp (pl_img p)) [i; j] = true ->
         get (pl_img p) [i; j] = get img (voxel ax (nth ax [x; y; z] 0) i j) /\
         get o [i; j] = get reg (voxel ax (nth ax [x; y; z] 0) i j)).
Proof.
  intros B single img params reg c r W Wr Sr. unfold snr_visualize.
  change (no_kind (Some (PText "full"))) with false. cbn [bind]. change (kind_of_val (PText "full")) with KFull.
  assert (SK : snr_kind img KFull (Some reg) = Ok KFull) by (unfold snr_kind, same_shape; rewrite Sr; rewrite (proj2 (shape_eqb_eq _ _) eq_refl); reflexivity).
  split.
  - intros h w S. rewrite S. cbn [length Nat.eqb andb]. unfold snr_2d. rewrite SK. cbn [bind overlay].
    destruct (flip_ax_ok img 1 W) as (m & Hm & _ & _ & Gm); [rewrite S; cbn; lia|]. rewrite S. cbn [length Nat.sub]. rewrite Hm. cbn [bind].
    do 2 eexists. split; [reflexivity|]. split; [reflexivity|]. intros i j Hi Hj. cbn [pl_img]. split; [|reflexivity].
    rewrite Gm by (rewrite S; apply inb_2; auto). rewrite S. reflexivity.
  - intros nx ny nz x y z S H3 Hx Hy Hz ->. rewrite S. cbn [length Nat.eqb andb last]. destruct (Nat.eqb_spec nz 3); [contradiction|].
    cbn [negb no_center]. unfold snr_3d. rewrite SK. cbn [bind coord nth_error overlay].
    unfold three_panels. cbn [draw_patch].
    assert (M : forall n k, k < n -> meant n (Z.of_nat k) k) by (intros n' k H; left; lia). rewrite S in Sr.
    destruct (slice_shown 0 (Z.of_nat x) img nx ny nz x W S ltac:(lia) (M _ _ Hx)) as (a0 & -> & S0 & G0).
    destruct (slice_shown 0 (Z.of_nat x) reg nx ny nz x Wr Sr ltac:(lia) (M _ _ Hx)) as (b0 & -> & T0 & K0). cbn [bind].
    destruct (slice_shown 1 (Z.of_nat y) img nx ny nz y W S ltac:(lia) (M _ _ Hy)) as (a1 & -> & S1 & G1).
    destruct (slice_shown 1 (Z.of_nat y) reg nx ny nz y Wr Sr ltac:(lia) (M _ _ Hy)) as (b1 & -> & T1 & K1). cbn [bind].
    destruct (slice_shown 2 (Z.of_nat z) img nx ny nz z W S ltac:(lia) (M _ _ Hz)) as (a2 & -> & S2 & G2).
    destruct (slice_shown 2 (Z.of_nat z) reg nx ny nz z Wr Sr ltac:(lia) (M _ _ Hz)) as (b2 & -> & T2 & K2). cbn [bind].
    eexists. split; [reflexivity|]. split; [reflexivity|]. intros ax p Hp.
    destruct ax as [|[|[|ax]]]; cbn [nth_error] in Hp; [| | |destruct ax; discriminate];
      injection Hp as <-; cbn [pl_img pl_over]; eexists; (split; [reflexivity|]); (split; [congruence|]); intros i j Hi; cbn [nth].
    + rewrite S0 in Hi. auto.
    + rewrite S1 in Hi. auto.
    + rewrite S2 in Hi. auto.
Qed.

(** Without a computed region "full" and "original" show the image alone: a plane mirrored, a volume cut
    through the middle unless a centre is given. *)
Theorem C96_whole : forall B (single : arr B -> bool) img params r t,
  wf img -> t = "full"%string \/ t = "original"%string ->
  (forall c h w, shp img = [h; w] ->
   exists p, snr_visualize single img params None c r (Some (PText t)) None = Ok [p] /\ pl_over p = None /\ pl_patch p = None /\
     forall i j, i < h -> j < w -> get (pl_img p) [i; j] = get img [i; w - 1 - j]) /\
  (forall c nx ny nz, shp img = [nx; ny; nz] -> nz <> 3 -> 0 < nx -> 0 < ny -> 0 < nz -> c = None \/ c = Some [] ->
   exists ps, snr_visualize single img params None c r (Some (PText t)) None = Ok ps /\ length ps = 3 /\
     forall ax p, nth_error ps ax = Some p -> pl_over p = None /\ pl_patch p = None /\
       shp (pl_img p) = extent ax nx ny nz /\
       forall i j, inb (extent ax nx ny nz) [i; j] = true ->
         get (pl_img p) [i; j] = get img (voxel ax (nth ax [nx / 2; ny / 2; nz / 2] 0) i j)).
Proof.
  intros B single img params r t W Ht.
  assert (NT : no_kind (Some (PText t)) = false) by (destruct Ht as [-> | ->]; reflexivity).
  assert (WK : whole_kind (PText t) = true) by (destruct Ht as [-> | ->]; reflexivity).
  assert (SK : snr_kind img (kind_of_val (PText t)) (@None (arr B)) = Ok KOriginal) by (destruct Ht as [-> | ->]; reflexivity).
  unfold snr_visualize. rewrite NT. cbn [bind hashable negb]. rewrite WK. cbn [bind]. split.
  - intros c h w S. rewrite S. cbn [length Nat.eqb andb]. unfold snr_2d. rewrite SK. cbn [bind overlay].
    destruct (flip_ax_ok img 1 W) as (m & Hm & _ & _ & Gm); [rewrite S; cbn; lia|]. rewrite S. cbn [length Nat.sub]. rewrite Hm. cbn [bind].
    eexists. split; [reflexivity|]. split; [reflexivity|]. split; [reflexivity|]. intros i j Hi Hj. cbn [pl_img].
    rewrite Gm by (rewrite S; apply inb_2; auto). rewrite S. reflexivity.
  - intros c nx ny nz S H3 H0 H1 H2 Hc. rewrite S. cbn [length Nat.eqb andb last]. destruct (Nat.eqb_spec nz 3); [contradiction|].
    replace (no_center c) with true by (destruct Hc as [-> | ->]; reflexivity).
    cbn [negb]. unfold snr_3d. rewrite SK. cbn [bind map coord nth_error overlay]. unfold three_panels. cbn [draw_patch].
    assert (M : forall n, 0 < n -> meant n (Z.of_nat (n / 2)) (n / 2)).
    { intros n' H. left. split; [|lia]. split; [lia|]. apply Nat2Z.inj_lt, Nat.div_lt; lia. }
    destruct (slice_shown 0 (Z.of_nat (nx / 2)) img nx ny nz (nx / 2) W S ltac:(lia) (M _ H0)) as (a0 & -> & S0 & G0). cbn [bind].
    destruct (slice_shown 1 (Z.of_nat (ny / 2)) img nx ny nz (ny / 2) W S ltac:(lia) (M _ H1)) as (a1 & -> & S1 & G1). cbn [bind].
    destruct (slice_shown 2 (Z.of_nat (nz / 2)) img nx ny nz (nz / 2) W S ltac:(lia) (M _ H2)) as (a2 & -> & S2 & G2). cbn [bind].
    eexists. split; [reflexivity|]. split; [reflexivity|]. intros ax p Hp.
    destruct ax as [|[|[|ax]]]; cbn [nth_error] in Hp; [| | |destruct ax; discriminate];
      injection Hp as <-; cbn [pl_img pl_over pl_patch nth]; (split; [reflexivity|]); (split; [reflexivity|]); split; assumption.
Qed.

(** A region type that is a list cannot be looked up. *)
Theorem C96_unhashable : forall B (single : arr B -> bool) img params c r ab l,
  snr_visualize single img params None c r (Some (PRoi (ab :: l))) None = Err TypeError.
Proof. intros. reflexivity. Qed.

(** Explicit signal arrays of less than two elements: an empty one, or one holding a zero, counts as not given. *)
Theorem C96_small : forall B (single : arr B -> bool) img params region c r k a,
  (size (shp a) = 0 \/ (size (shp a) = 1 /\ single a = false) ->
   snr_visualize single img params region c r k (Some a) = snr_visualize single img params region c r k None) /\
  (size (shp a) = 1 -> single a = true ->
   snr_visualize single img params region c r k (Some a) = snr_visualize single img params (Some a) c r k None).
Proof.
  intros B single img params region c r k a. unfold snr_visualize, array_truth. split.
  - intros [H|[H E]]; rewrite H; cbn [Nat.eqb bind]; [reflexivity|]. rewrite E. reflexivity.
  - intros H E. rewrite H. cbn [Nat.eqb bind]. rewrite E. reflexivity.
Qed.

(** Without a computed region a missing centre and a missing radius are each taken from the stored ones. *)
Theorem C96_fallback : forall B (single : arr B -> bool) img s bg rs k0 params c rad t,
  s <> [] -> rs <> 0%Z -> ~ In t [""; "full"; "original"]%string -> (forall x, rad <> Some (RReal x)) ->
  snr_visualize single img (Stored (Some (Some (map CInt s))) bg (Some (Some (RInt rs))) k0) None c rad (Some (PText t)) None =
  snr_visualize single img params None (match c with None | Some [] => Some (map CInt s) | _ => c end)
    (match rad with None | Some (RInt 0) => Some (RInt rs) | _ => rad end) (Some (PText t)) None.
Proof.
  intros B single img s bg rs k0 params c rad t Hs Hr Ht Hx.
  assert (WK : whole_kind (PText t) = false).
  { cbn. apply orb_false_iff. split; apply String.eqb_neq; intros ->; apply Ht; cbn; auto. }
  assert (NT : no_kind (Some (PText t)) = false).
  { cbn. rewrite negb_involutive. apply String.eqb_neq. intros ->. apply Ht. left. reflexivity. }
  unfold snr_visualize. rewrite NT. cbn [bind hashable negb st_signal st_radius from_opt]. rewrite WK.
  assert (C : forall p : option center, (if no_center (match c with None | Some [] => Some (map CInt s) | _ => c end) then let* p := from_opt ValueError p in from_opt ValueError p
               else from_opt ValueError (match c with None | Some [] => Some (map CInt s) | _ => c end)) =
              (if no_center c then Ok (map CInt s) else from_opt ValueError c)).
  { intros p. destruct c as [[|x l]|]; cbn [no_center]; try reflexivity; (destruct s; [contradiction|reflexivity]). }
  assert (Q : forall q : option (option rval), (if no_radius (match rad with None | Some (RInt 0) => Some (RInt rs) | _ => rad end) then let* q := from_opt ValueError q in from_opt ValueError q
               else from_opt ValueError (match rad with None | Some (RInt 0) => Some (RInt rs) | _ => rad end)) =
              (if no_radius rad then (match rad with Some (RReal _) => let* q := from_opt ValueError q in from_opt ValueError q | _ => Ok (RInt rs) end) else from_opt ValueError rad)).
  { intros q. destruct rad as [[[| |]| |]|]; cbn [no_radius Z.eqb]; try reflexivity; (destruct (Z.eqb_spec rs 0); [contradiction|reflexivity]). }
  rewrite C, Q. destruct rad as [[z|x|]|]; try reflexivity. exfalso. apply (Hx x). reflexivity.
Qed.

(** With a computed region the centre is not checked: too short a centre ends in IndexError. *)
Theorem C96_short : forall B (single : arr B -> bool) img params reg x r t h w,
  wf img -> shp img = [h; w] -> region_kind t = KCubic \/ region_kind t = KSpherical ->
  snr_visualize single img params (Some reg) (Some [CInt x]) r (Some (PText t)) None = Err IndexError.
Proof.
  intros B single img params reg x r t h w W S Hk.
  assert (NT : no_kind (Some (PText t)) = false).
  { unfold no_kind. destruct t; [destruct Hk; discriminate|reflexivity]. }
  unfold snr_visualize. rewrite NT. cbn [bind rad_of kind_of_val no_center].
  assert (SK : forall A (a : arr A), snr_kind a (region_kind t) (Some reg) = Ok (region_kind t)) by (intros A a; destruct Hk as [-> | ->]; reflexivity).
  rewrite S. cbn [length Nat.eqb andb]. unfold snr_2d. rewrite SK. cbn [bind].
  destruct (flip_ax_ok img 1 W) as (m & Hm & _); [rewrite S; cbn; lia|]. rewrite S. cbn [length Nat.sub]. rewrite Hm.
  cbn [bind map coord nth_error]. destruct Hk as [-> | ->]; reflexivity.
Qed.
Print Assumptions C96_explicit.
Print Assumptions C96_stored_ignored.
Print Assumptions C96_radius.
Print Assumptions C96_full.
Print Assumptions C96_whole.
Print Assumptions C96_unhashable.
Print Assumptions C96_small.
Print Assumptions C96_fallback.
Print Assumptions C96_short.

Example C96_ex : snr_visualize (fun _ => true) img44 (Stored (Some (Some [CInt 2; CInt 2])) None (Some (Some (RInt 1))) (Some (PText "cubic"))) (Some img44) None None None None
  = Err TypeError.
Proof. reflexivity. Qed.

(** ** C97: start of set_centers *)

Definition middle_of (shape : list nat) : list cval := map (fun n => CInt (Z.of_nat (n / 2))) shape.
Definition or_else {X} (o : option X) (d : X) : X := match o with Some x => x | None => d end.

(** The checks at the start: one coordinate per axis, a positive int radius, no coordinate closer to 0. *)
Definition startable (shape : list nat) (c : center) (r : option rval) : Prop :=
  exists l z, c = Some l /\ r = Some (RInt z) /\ length l = length shape /\ (0 < z)%Z /\
    Forall (fun x => exists y, x = CInt y /\ (z <= Z.abs y)%Z) l.

Lemma check_border_iff l z : (exists zs, check_border l (RInt z) = Ok zs) <-> Forall (fun x => exists y, x = CInt y /\ (z <= Z.abs y)%Z) l.
Proof.
  induction l as [|x l IH]; cbn [check_border]; [split; intros _; [constructor|eexists; reflexivity]|]. split.
  - intros [zs H]. destruct x as [y|]; [|discriminate]. apply bind_ok in H as ([] & E & H). apply bind_ok in H as (zs' & E' & _).
    constructor; [|apply IH; eauto]. exists y. split; [reflexivity|]. destruct (Z.ltb_spec (Z.abs y - z) 0); [discriminate|lia].
  - intros F. inversion F as [|? ? (y & -> & Hy) F']; subst. destruct (proj2 IH F') as [zs E].
    destruct (Z.ltb_spec (Z.abs y - z) 0); [lia|]. cbn [raise_if bind]. rewrite E. eexists. reflexivity.
Qed.

(** Stored parameters win over the keywords, and what the method starts with is written to the
    parameters at once, before anything is shown. *)
Definition cnr_values (shape : list nat) (params : stored) (s b : option center) (r : option (option rval)) : center * center * option rval :=
  match st_signal params, st_background params, st_radius params with
  | Some s0, Some b0, Some r0 => (s0, b0, r0)
  | _, _, _ => (or_else s (Some (middle_of shape)), or_else b (Some (middle_of shape)), or_else r (Some (RInt 1)))
  end.

Lemma cnr_start_eq shape params s b r :
  cnr_start shape params s b r =
  let '(sc, bc, rad) := cnr_values shape params s b r in
  let rad := rad_of rad in
  let* sl := len_of sc in
  let* _ := raise_if (negb (length shape =? length sl)) ValueError in
  let* bl := len_of bc in
  let* _ := raise_if (negb (length shape =? length bl)) ValueError in
  let* _ := check_radius rad in
  let* _ := check_border sl rad in
  let* _ := check_border bl rad in
  Ok (Stored (Some sc) (Some bc) (Some (Some rad)) (st_kind params)).
Proof.
  unfold cnr_start, cnr_values. destruct (st_signal params), (st_background params), (st_radius params); try reflexivity;
  destruct s, b, r; reflexivity.
Qed.

Theorem C97_cnr : forall shape params s b r st,
  cnr_start shape params s b r = Ok st <->
  let '(sc, bc, rad) := cnr_values shape params s b r in
  startable shape sc rad /\ startable shape bc rad /\ st = Stored (Some sc) (Some bc) (Some rad) (st_kind params).
Proof.
  intros shape params s b r st. rewrite cnr_start_eq. destruct (cnr_values shape params s b r) as [[sc bc] rad]. cbv zeta. split.
  - intros H. apply bind_ok in H as (sl & E1 & H). apply bind_ok in H as ([] & E2 & H). apply bind_ok in H as (bl & E3 & H).
    apply bind_ok in H as ([] & E4 & H). apply bind_ok in H as (z & E5 & H). apply bind_ok in H as (? & E6 & H). apply bind_ok in H as (? & E7 & H).
    destruct sc; [|discriminate]. destruct bc; [|discriminate]. cbn in E1, E3. injection E1 as ->. injection E3 as ->.
    destruct (Nat.eqb_spec (length shape) (length sl)); [|discriminate]. destruct (Nat.eqb_spec (length shape) (length bl)); [|discriminate].
    destruct rad as [[q| |]|]; try discriminate. cbn [rad_of] in *. cbn in E5. destruct (Z.leb_spec q 0); [discriminate|].
    injection H as <-. split; [|split; [|reflexivity]].
    + exists sl, q. repeat split; auto; try lia. apply check_border_iff. eauto.
    + exists bl, q. repeat split; auto; try lia. apply check_border_iff. eauto.
  - intros ((sl & z & -> & -> & L1 & Hz & F1) & (bl & z' & -> & Ez & L2 & _ & F2) & ->). injection Ez as <-.
    cbn [rad_of len_of from_opt bind check_radius]. rewrite L1, L2, Nat.eqb_refl. cbn [negb raise_if bind].
    destruct (Z.leb_spec z 0); [lia|]. cbn [bind]. destruct (proj2 (check_border_iff _ _) F1) as [? ->]. destruct (proj2 (check_border_iff _ _) F2) as [? ->]. reflexivity.
Qed.

(** Later calls start from there, whatever keywords they have. *)
Theorem C97_cnr_again : forall shape params s b r st, cnr_start shape params s b r = Ok st ->
  forall s' b' r', cnr_start shape st s' b' r' = Ok st.
Proof.
  intros shape params s b r st H s' b' r'. apply C97_cnr in H. apply C97_cnr.
  destruct (cnr_values shape params s b r) as [[sc bc] rad]. destruct H as (H1 & H2 & ->). cbn. auto.
Qed.

(** SNR: keywords win over stored parameters, those over the defaults. *)
Theorem C97_snr : forall shape params s r k st,
  snr_start shape params s r k = Ok st <->
  let c := or_else s (or_else (st_signal params) (Some (middle_of shape))) in
  let rad := or_else r (or_else (st_radius params) (Some (RInt 1))) in
  let kind := or_else k (or_else (st_kind params) (PText "cubic")) in
  startable shape c rad /\
  ((kind = PText "cubic" \/ kind = PText "spherical") /\ st = Stored (Some c) (st_background params) (Some rad) (Some kind) \/
   (kind = PText "full" \/ kind = PText "original") /\ st = Stored (Some None) (st_background params) (Some None) (Some kind)).
Proof.
  intros shape params s r k st.
  assert (EQ : snr_start shape params s r k =
    let c := or_else s (or_else (st_signal params) (Some (middle_of shape))) in
    let rad := rad_of (or_else r (or_else (st_radius params) (Some (RInt 1)))) in
    let kind := or_else k (or_else (st_kind params) (PText "cubic")) in
    let* l := len_of c in
    let* _ := raise_if (negb (length shape =? length l)) ValueError in
    let* _ := check_radius rad in
    let* _ := raise_if (negb (hashable kind)) TypeError in
    let* _ := raise_if (negb (valid_start kind)) ValueError in
    let* _ := check_border l rad in
    Ok (snr_saved params kind c rad)).
  { unfold snr_start. destruct s, r, k, (st_signal params), (st_radius params), (st_kind params); reflexivity. }
  rewrite EQ. clear EQ. cbv zeta. set (c := or_else s _). set (rad := or_else r _). set (kind := or_else k _). clearbody c rad kind. split.
  - intros H. apply bind_ok in H as (sl & E1 & H). apply bind_ok in H as ([] & E2 & H). apply bind_ok in H as (z & E3 & H).
    apply bind_ok in H as ([] & E4 & H). apply bind_ok in H as ([] & E5 & H). apply bind_ok in H as (? & E6 & H).
    destruct c; [|discriminate]. injection E1 as ->. destruct (Nat.eqb_spec (length shape) (length sl)); [|discriminate].
    destruct rad as [[q| |]|]; try discriminate. cbn [rad_of] in *. cbn in E3. destruct (Z.leb_spec q 0); [discriminate|].
    injection H as <-. split.
    + exists sl, q. repeat split; auto; try lia. apply check_border_iff. eauto.
    + destruct kind as [| | |t|]; try discriminate. unfold valid_start in E5. cbn [existsb] in E5. unfold snr_saved.
      destruct (String.eqb_spec t "full"); [subst; right; split; [left|]; reflexivity|].
      destruct (String.eqb_spec t "original"); [subst; right; split; [right|]; reflexivity|].
      destruct (String.eqb_spec t "cubic"); [subst; left; split; [left|]; reflexivity|].
      destruct (String.eqb_spec t "spherical"); [subst; left; split; [right|]; reflexivity|]. discriminate.
  - intros ((sl & z & -> & -> & L1 & Hz & F1) & K).
    cbn [rad_of len_of from_opt bind check_radius]. rewrite L1, Nat.eqb_refl. cbn [negb raise_if bind].
    destruct (Z.leb_spec z 0); [lia|]. cbn [bind]. destruct (proj2 (check_border_iff _ _) F1) as [? ->].
    destruct K as [[[-> | ->] ->]|[[-> | ->] ->]]; reflexivity.
Qed.

(** After a start with "full" or "original" the stored centre and radius are None: set_centers fails
    until both are given again. *)
Theorem C97_snr_none : forall shape params s r k st,
  snr_start shape params s r k = Ok st -> (st_kind st = Some (PText "full") \/ st_kind st = Some (PText "original")) ->
  (forall r' k', snr_start shape st None r' k' = Err TypeError) /\
  (forall c k', length c = length shape -> snr_start shape st (Some (Some c)) None k' = Err TypeError).
Proof.
  intros shape params s r k st H K. apply C97_snr in H. cbv zeta in H. destruct H as [_ [[Hk ->]|[_ ->]]].
  - cbn in K. exfalso. destruct Hk as [E|E], K as [K|K]; rewrite E in K; discriminate.
  - split; [reflexivity|]. intros c k' L. unfold snr_start. cbn [len_of from_opt bind st_signal st_radius rad_of check_radius].
    rewrite L, Nat.eqb_refl. reflexivity.
Qed.

(** score only takes centre and radius from the stored parameters: the stored region type, which
    visualize_centers and set_centers use, makes no difference to the score. *)
Theorem C97_score_kind : forall V I X (load : dict V -> res I) (compute : I -> dict V -> res X) params kwargs v,
  load (dset params "region_type" v) = load params ->
  fst (nr_score load compute snr_required (dset params "region_type" v) kwargs) = fst (nr_score load compute snr_required params kwargs).
Proof.
  intros V I X load compute params kwargs v HL. unfold nr_score. rewrite HL. destruct (load params) as [img|]; [|reflexivity].
  destruct (has_all snr_required kwargs); [reflexivity|].
  unfold has_all, take_stored, snr_required. cbn [forallb fold_left]. rewrite !dget_dset_other by discriminate.
  destruct (dget params "signal_center"), (dget params "radius"); reflexivity.
Qed.
Print Assumptions C97_cnr.
Print Assumptions C97_cnr_again.
Print Assumptions C97_snr.
Print Assumptions C97_snr_none.
Print Assumptions C97_score_kind.

Example C97_ex : cnr_start [8; 8] (Stored (Some (Some [CInt 3; CInt 3])) None None None) None None None =
  Ok (Stored (Some (Some [CInt 4; CInt 4])) (Some (Some [CInt 4; CInt 4])) (Some (Some (RInt 1))) None).
Proof. reflexivity. Qed.
Example C97_snr_ex : snr_start [8; 8] (Stored None None None None) None None (Some (PText "full")) = Ok (Stored (Some None) None (Some None) (Some (PText "full"))).
Proof. reflexivity. Qed.
