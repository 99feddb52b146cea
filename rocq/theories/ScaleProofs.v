(** Lemmas for C130: normalised scores of files. *)
From Coq Require Import Reals Lra Psatz.
From Verif Require Import Base NdArray LoadModel LoadProofs NormModel NormProofs PairModel RealSums
  MetricModel MetricProofs SsimSymProofs TurnProps FileModel FileProofs FileProps.

(** ** The voxels of the image are the words of the file *)

Lemma items_in {A} (items : list A) nx ny nz a : length items = nx * ny * nz ->
  load_items items [Z.of_nat nx; Z.of_nat ny; Z.of_nat nz] = Ok a -> forall y, In y (dat a) <-> In y items.
Proof.
  intros L E. destruct (load_items_3d items nx ny nz L) as (a' & E' & Sa & Wa & Ga). rewrite E in E'. injection E' as <-.
  assert (K : forall x y z, x < nx -> y < ny -> z < nz -> nth_error (dat a) (x * (ny * nz) + (y * nz + z)) = nth_error items (x + nx * (y + ny * z))).
  { intros x y z Hx Hy Hz. rewrite <- Ga by assumption. unfold get. rewrite Sa.
    assert (B : inb [nx; ny; nz] [x; y; z] = true).
    { cbn [inb]. rewrite (proj2 (Nat.ltb_lt x nx)), (proj2 (Nat.ltb_lt y ny)), (proj2 (Nat.ltb_lt z nz)) by assumption. reflexivity. }
    rewrite B. f_equal. cbn [ravel size]. lia. }
  unfold wf in Wa. rewrite Sa in Wa. cbn [size] in Wa.
  intros v. split; intros Hv; apply In_nth_error in Hv as (i & Hi).
  - assert (Li : i < nx * (ny * (nz * 1))) by (rewrite <- Wa; apply nth_error_Some; rewrite Hi; discriminate).
    assert (Nz : nz <> 0) by (intros ->; lia). assert (Ny : ny <> 0) by (intros ->; lia).
    pose proof (Nat.div_mod i (ny * nz) ltac:(nia)) as D. pose proof (Nat.mod_upper_bound i (ny * nz) ltac:(nia)) as U.
    set (r := i mod (ny * nz)) in *. set (x := i / (ny * nz)) in *.
    pose proof (Nat.div_mod r nz Nz) as D2. pose proof (Nat.mod_upper_bound r nz Nz) as U2.
    assert (Y : r / nz < ny) by (apply Nat.div_lt_upper_bound; lia).
    assert (X : x < nx) by (apply Nat.div_lt_upper_bound; nia).
    eapply nth_error_In. rewrite <- (K x (r / nz) (r mod nz)), <- Hi by assumption. f_equal. lia.
  - assert (Li : i < nx * ny * nz) by (rewrite <- L; apply nth_error_Some; rewrite Hi; discriminate).
    assert (Nx : nx <> 0) by (intros ->; lia). assert (Ny : ny <> 0) by (intros ->; lia).
    pose proof (Nat.div_mod i nx Nx) as D. pose proof (Nat.mod_upper_bound i nx Nx) as U.
    set (q := i / nx) in *.
    pose proof (Nat.div_mod q ny Ny) as D2. pose proof (Nat.mod_upper_bound q ny Ny) as U2.
    assert (Q : q < ny * nz) by (apply Nat.div_lt_upper_bound; lia).
    assert (Y : q / ny < nz) by (apply Nat.div_lt_upper_bound; lia).
    eapply nth_error_In. rewrite (K (i mod nx) (q mod ny) (q / ny)), <- Hi by assumption. f_equal. nia.
Qed.

Definition bytes_ok (bytes : list Z) : Prop := Forall (fun b => 0 <= b < 256)%Z bytes.

Lemma word_range w bytes i : bytes_ok bytes -> (0 <= word w bytes i < 256 ^ Z.of_nat w)%Z.
Proof.
  intros B. unfold word.
  assert (N : forall k, (0 <= nth k bytes 0 < 256)%Z).
  { intros k. destruct (Nat.lt_ge_cases k (length bytes)) as [H|H].
    - unfold bytes_ok in B. rewrite Forall_forall in B. apply B, nth_In, H.
    - rewrite nth_overflow by exact H. lia. }
  assert (K : forall w o, (0 <= fold_right Z.add 0 (map (fun k => 256 ^ Z.of_nat k * nth (i * w + k) bytes 0) (seq 0 o)) < 256 ^ Z.of_nat o)%Z).
  { intros v o. induction o as [|o IH]; [cbn; lia|].
    rewrite seq_S, map_app. cbn [map Nat.add].
    assert (A : forall l x, fold_right Z.add 0%Z (l ++ [x]) = (fold_right Z.add 0 l + x)%Z).
    { intros l x. induction l as [|y l IHl]; cbn [app fold_right]; [lia|rewrite IHl; lia]. }
    rewrite A, Nat2Z.inj_succ, Z.pow_succ_r by lia. specialize (N (i * v + o)%nat). nia. }
  apply K.
Qed.

(** ** One file *)
Section One.
Variable files : text -> option (list Z).
Variable other : reader -> text -> res image.
Variable special : Z -> R.
Variable ident : identity.
Variable ub : R -> Z.

(** The image of the file, in two readings: integers, reals. *)
Lemma read_values p d nx ny nz bytes v :
  stored files p d nx ny nz bytes -> length bytes / itemsize d = nx * ny * nz ->
  (forall i, i < nx * ny * nz -> value d bytes i = Some (v i)) ->
  exists im, disk files other special p = Ok im /\ dt im = d /\ shape im = [nx; ny; nz] /\
    load_items (map v (seq 0 (nx * ny * nz))) [Z.of_nat nx; Z.of_nat ny; Z.of_nat nz] = Ok (PairModel.to_float (px im)) /\
    match d with
    | Float _ => px im = PF (PairModel.to_float (px im))
    | _ => exists z, px im = PI z /\ load_items (map (word (itemsize d) bytes) (seq 0 (nx * ny * nz))) [Z.of_nat nx; Z.of_nat ny; Z.of_nat nz] = Ok z
    end.
Proof.
  intros S L V. rewrite (read_stored _ _ _ _ _ _ _ _ _ S).
  destruct (load_items_3d (fromfile (itemsize d) bytes) nx ny nz) as (a & Ea & Sa & _); [rewrite length_fromfile; exact L|].
  unfold load_binary. rewrite Ea. cbn [bind]. exists (typed special d a).
  split; [reflexivity|]. split; [apply typed_type|]. split; [rewrite typed_shape; exact Sa|]. split.
  { rewrite <- L. apply image_values; [rewrite L; exact V|]. unfold load_binary. exact Ea. }
  assert (W : load_items (map (word (itemsize d) bytes) (seq 0 (nx * ny * nz))) [Z.of_nat nx; Z.of_nat ny; Z.of_nat nz] = Ok (amap decode_le a)).
  { replace (map (word (itemsize d) bytes) (seq 0 (nx * ny * nz))) with (map decode_le (fromfile (itemsize d) bytes)).
    - rewrite load_items_map, Ea. reflexivity.
    - unfold fromfile. rewrite map_map, L. apply map_ext_in. intros i Hi. apply in_seq in Hi. apply decode_word. lia. }
  destruct d; cbn [typed px PairModel.to_float]; [eauto|eauto|reflexivity|eauto].
Qed.

(** Normalising moves along with the order of the voxels. *)
Lemma load_with g hi p d nx ny nz bytes v im t q : (hi <> 0)%Z ->
  disk files other special p = Ok im -> shape im = [nx; ny; nz] ->
  load_items (map v (seq 0 (nx * ny * nz))) [Z.of_nat nx; Z.of_nat ny; Z.of_nat nz] = Ok (PairModel.to_float (px im)) ->
  stored files p d nx ny nz bytes ->
  normalize_data ident ub im 0 hi None = Ok (NImg (Img t q)) -> px_shape q = [nx; ny; nz] ->
  PairModel.to_float q = amap g (PairModel.to_float (px im)) ->
  load_data (disk files other special) ident ub (InPath p) (Some hi) true false [] = Ok (LOne (NImg (Img t q))) /\
  moved [Turn 0 2; Mirror 0] (Arr [nz; ny; nx] (map (fun i => g (v i)) (seq 0 (nx * ny * nz)))) = Ok (PairModel.to_float q).
Proof.
  intros H0 D Sh L S N Sq Q. split.
  - unfold load_data. cbn [andb]. rewrite D. cbn [bind]. rewrite Sh. cbn [check_dims length Nat.ltb Nat.leb orb raise_if bind].
    unfold prepare. destruct (Z.eqb_spec hi 0); [contradiction|]. cbn [negb andb]. rewrite N. reflexivity.
  - apply plain_moved; [rewrite map_length, seq_length; reflexivity|].
    rewrite <- (map_map v g), load_items_map, L. cbn [bind]. rewrite Q. reflexivity.
Qed.

Lemma to_float_shape q : shp (PairModel.to_float q) = px_shape q.
Proof. destruct q; reflexivity. Qed.

Lemma and_middle (A B C : Prop) : B -> A /\ C -> A /\ B /\ C.
Proof. tauto. Qed.

(** Limits of an integer file as integers *)
Lemma limits_int p d nx ny nz bytes v : stored files p d nx ny nz bytes ->
  (forall i, i < nx * ny * nz -> value d bytes i = Some (v i)) -> (match d with Float _ => False | _ => True end) ->
  forall mn mx, is_rmin mn (map v (seq 0 (nx * ny * nz))) -> is_rmax mx (map v (seq 0 (nx * ny * nz))) ->
  exists zn zx, mn = IZR zn /\ mx = IZR zx /\
    is_min zn (map (word (itemsize d) bytes) (seq 0 (nx * ny * nz))) /\ is_max zx (map (word (itemsize d) bytes) (seq 0 (nx * ny * nz))).
Proof.
  intros S V Hd mn mx [I1 M1] [I2 M2].
  assert (E : forall i, i < nx * ny * nz -> v i = IZR (word (itemsize d) bytes i)).
  { intros i Hi. specialize (V i Hi). unfold value in V. destruct d; try contradiction; injection V as <-; reflexivity. }
  apply in_map_iff in I1 as (i & E1 & H1). apply in_map_iff in I2 as (j & E2 & H2). apply in_seq in H1, H2.
  exists (word (itemsize d) bytes i), (word (itemsize d) bytes j).
  split; [rewrite <- E1; apply E; lia|]. split; [rewrite <- E2; apply E; lia|].
  split; (split; [apply in_map, in_seq; lia|]); intros x Hx; apply in_map_iff in Hx as (k & <- & Hk); apply le_IZR;
    rewrite <- !E by (apply in_seq in Hk; lia); [rewrite E1; apply M1|rewrite E2; apply M2]; apply in_map, Hk.
Qed.

Lemma word_limits d bytes n i b : bytes_ok bytes -> d = UInt b -> std_width b -> In i (map (word (itemsize d) bytes) (seq 0 n)) -> (0 <= i < 2 ^ Z.of_nat b)%Z.
Proof.
  intros B -> Hb H. apply in_map_iff in H as (k & <- & _). pose proof (word_range (itemsize (UInt b)) bytes k B) as W.
  destruct Hb as [->|[->| ->]]; cbn in W |- *; lia.
Qed.

Lemma stored_width p b nx ny nz bytes : stored files p (UInt b) nx ny nz bytes -> std_width b.
Proof. intros S. destruct (stored_type _ _ _ _ _ _ _ S) as [E|[E|[E|[E|[E|E]]]]]; try discriminate; injection E as ->; unfold std_width; tauto. Qed.

Lemma stored_kind p d nx ny nz bytes : stored files p d nx ny nz bytes -> exists b, d = UInt b \/ d = Float b.
Proof. intros S. destruct (stored_type _ _ _ _ _ _ _ S) as [E|[E|[E|[E|[E|E]]]]]; subst d; eauto. Qed.

(** data_range 1, any type *)
Lemma load_unit p d nx ny nz bytes v mn mx : cpython_identity ident ->
  stored files p d nx ny nz bytes -> length bytes / itemsize d = nx * ny * nz -> bytes_ok bytes ->
  (forall i, i < nx * ny * nz -> value d bytes i = Some (v i)) ->
  is_rmin mn (map v (seq 0 (nx * ny * nz))) -> is_rmax mx (map v (seq 0 (nx * ny * nz))) -> (mn < mx)%R ->
  exists q, load_data (disk files other special) ident ub (InPath p) (Some 1%Z) true false [] = Ok (LOne (NImg (Img (Float 32) q))) /\
    px_shape q = [nx; ny; nz] /\
    moved [Turn 0 2; Mirror 0] (Arr [nz; ny; nx] (map (fun i => (v i - mn) / (mx - mn))%R (seq 0 (nx * ny * nz)))) = Ok (PairModel.to_float q).
Proof.
  intros Hid S L B V Hn Hx Hlt. destruct (stored_kind _ _ _ _ _ _ S) as (b & Hd).
  destruct (read_values p d nx ny nz bytes v S L V) as (im & D & T & Sh & E & K).
  assert (In_ : forall x, In x (dat (PairModel.to_float (px im))) <-> In x (map v (seq 0 (nx * ny * nz)))).
  { apply (items_in _ nx ny nz); [rewrite map_length, seq_length; reflexivity|exact E]. }
  destruct Hd as [Hd|Hd]; rewrite Hd in *; clear d Hd; cbv iota in K.
  - destruct K as (z & Pz & Ez). pose proof (stored_width _ _ _ _ _ _ S) as Hw.
    assert (Iz : forall x, In x (dat z) <-> In x (map (word (itemsize (UInt b)) bytes) (seq 0 (nx * ny * nz)))).
    { apply (items_in _ nx ny nz); [rewrite map_length, seq_length; reflexivity|exact Ez]. }
    destruct (limits_int _ _ _ _ _ _ _ S V I mn mx Hn Hx) as (zn & zx & -> & -> & Mn & Mx). apply lt_IZR in Hlt.
    assert (N : normalize_data ident ub im 0 1 None = Ok (NImg (Img (Float 32) (PF (amap (fun v => IZR (v - zn) / IZR (zx - zn))%R z))))).
    { destruct im as [d' x]. cbn [dt px] in *. subst d' x. apply normalize_uint_unit; try assumption.
      - intros x Hx'. apply (word_limits (UInt b) bytes (nx * ny * nz)); try assumption; [reflexivity|apply Iz, Hx'].
      - split; [apply Iz, Mn|intros x Hx'; apply Mn, Iz, Hx'].
      - split; [apply Iz, Mx|intros x Hx'; apply Mx, Iz, Hx']. }
    assert (Sq : px_shape (PF (amap (fun v => IZR (v - zn) / IZR (zx - zn))%R z)) = [nx; ny; nz]).
    { cbn. rewrite <- Sh. unfold shape. rewrite Pz. reflexivity. }
    eexists. apply and_middle; [exact Sq|].
    apply (load_with (fun x => (x - IZR zn) / (IZR zx - IZR zn))%R 1 p (UInt b) nx ny nz bytes v im); try assumption; [lia|].
    rewrite Pz. cbn [PairModel.to_float]. unfold amap. cbn [shp dat]. f_equal. rewrite map_map. apply map_ext. intros x. rewrite !minus_IZR. reflexivity.
  - assert (N : normalize_data ident ub im 0 1 None = Ok (NImg (Img (Float 32) (PF (amap (linear 1 mn mx) (PairModel.to_float (px im))))))).
    { destruct im as [d' x]. cbn [dt px] in *. subst d'. rewrite K at 1. apply normalize_real_unit; [| |exact Hlt].
      - split; [apply In_, Hn|intros x' Hx'; apply Hn, In_, Hx'].
      - split; [apply In_, Hx|intros x' Hx'; apply Hx, In_, Hx']. }
    assert (Sq : px_shape (PF (amap (linear 1 mn mx) (PairModel.to_float (px im)))) = [nx; ny; nz]).
    { cbn [px_shape amap shp]. rewrite to_float_shape. exact Sh. }
    eexists. apply and_middle; [exact Sq|].
    apply (load_with (fun x => (x - mn) / (mx - mn))%R 1 p (Float b) nx ny nz bytes v im); try assumption; [lia|].
    cbn [PairModel.to_float]. unfold amap. f_equal. apply map_ext. intros x. unfold linear. rewrite Rmult_1_r. reflexivity.
Qed.

(** data_range 255 and 65535, floating point files *)
Lemma load_float hi p b nx ny nz bytes v mn mx : hi = 255%Z \/ hi = 65535%Z ->
  stored files p (Float b) nx ny nz bytes -> length bytes / itemsize (Float b) = nx * ny * nz ->
  (forall i, i < nx * ny * nz -> value (Float b) bytes i = Some (v i)) ->
  is_rmin mn (map v (seq 0 (nx * ny * nz))) -> is_rmax mx (map v (seq 0 (nx * ny * nz))) -> (mn < mx)%R ->
  exists q, load_data (disk files other special) ident ub (InPath p) (Some hi) true false [] = Ok (LOne (NImg (Img (UInt (out_bits hi)) q))) /\
    px_shape q = [nx; ny; nz] /\
    moved [Turn 0 2; Mirror 0] (Arr [nz; ny; nx] (map (fun i => IZR (Int_part ((v i - mn) * IZR hi / (mx - mn)))) (seq 0 (nx * ny * nz)))) = Ok (PairModel.to_float q).
Proof.
  intros Hh S L V Hn Hx Hlt. destruct (read_values p (Float b) nx ny nz bytes v S L V) as (im & D & T & Sh & E & K).
  assert (In_ : forall x, In x (dat (PairModel.to_float (px im))) <-> In x (map v (seq 0 (nx * ny * nz)))).
  { apply (items_in _ nx ny nz); [rewrite map_length, seq_length; reflexivity|exact E]. }
  set (q := PI (amap (fun v => Rtrunc (linear hi mn mx v)) (PairModel.to_float (px im)))).
  assert (N : normalize_data ident ub im 0 hi None = Ok (NImg (Img (UInt (out_bits hi)) q))).
  { destruct im as [d' x]. cbn [dt px] in *. subst d'. rewrite K at 1. apply normalize_real_int; [exact Hh| | |exact Hlt].
    - split; [apply In_, Hn|intros x' Hx'; apply Hn, In_, Hx'].
    - split; [apply In_, Hx|intros x' Hx'; apply Hx, In_, Hx']. }
  assert (Sq : px_shape q = [nx; ny; nz]).
  { unfold q. cbn [px_shape amap shp]. rewrite to_float_shape. exact Sh. }
  exists q. apply and_middle; [exact Sq|].
  destruct (load_with (fun x => IZR (Rtrunc (linear hi mn mx x))) hi p (Float b) nx ny nz bytes v im (UInt (out_bits hi)) q) as [E1 E2]; try assumption; [lia| |].
  { unfold q. cbn [PairModel.to_float]. unfold amap. cbn [shp dat]. f_equal. rewrite map_map. reflexivity. }
  split; [exact E1|]. rewrite <- E2. f_equal. f_equal. apply map_ext_in. intros i Hi. f_equal. unfold Rtrunc.
  assert (P : (0 <= linear hi mn mx (v i))%R).
  { apply (linear_range hi); [lia|exact Hlt|]. split; [apply Hn|apply Hx]; apply in_map, Hi. }
  destruct (Rle_dec 0 _); [reflexivity|contradiction].
Qed.

(** The same for unsigned files; the product is reduced to the width of the type. *)
Lemma load_uint hi p b nx ny nz bytes v zn zx : hi = 255%Z \/ hi = 65535%Z ->
  stored files p (UInt b) nx ny nz bytes -> length bytes / itemsize (UInt b) = nx * ny * nz -> bytes_ok bytes ->
  (forall i, i < nx * ny * nz -> value (UInt b) bytes i = Some (IZR (v i))) ->
  is_min zn (map v (seq 0 (nx * ny * nz))) -> is_max zx (map v (seq 0 (nx * ny * nz))) -> (zn < zx)%Z ->
  already_normalised ident (UInt b) 0 hi = false ->
  exists q, load_data (disk files other special) ident ub (InPath p) (Some hi) true false [] = Ok (LOne (NImg (Img (UInt (out_bits hi)) q))) /\
    px_shape q = [nx; ny; nz] /\
    moved [Turn 0 2; Mirror 0] (Arr [nz; ny; nx] (map (fun i => IZR (wrapped_stretch b hi zn zx (v i))) (seq 0 (nx * ny * nz)))) = Ok (PairModel.to_float q).
Proof.
  intros Hh S L B V Hn Hx Hlt Hid. destruct (read_values p (UInt b) nx ny nz bytes (fun i => IZR (v i)) S L V) as (im & D & T & Sh & E & z & Pz & Ez).
  pose proof (stored_width _ _ _ _ _ _ S) as Hw.
  assert (Ew : map (word (itemsize (UInt b)) bytes) (seq 0 (nx * ny * nz)) = map v (seq 0 (nx * ny * nz))).
  { apply map_ext_in. intros i Hi. apply in_seq in Hi. specialize (V i ltac:(lia)). apply eq_IZR. injection V as <-. reflexivity. }
  rewrite Ew in Ez.
  assert (Iz : forall x, In x (dat z) <-> In x (map v (seq 0 (nx * ny * nz)))).
  { apply (items_in _ nx ny nz); [rewrite map_length, seq_length; reflexivity|exact Ez]. }
  set (q := PI (amap (wrapped_stretch b hi zn zx) z)).
  assert (N : normalize_data ident ub im 0 hi None = Ok (NImg (Img (UInt (out_bits hi)) q))).
  { destruct im as [d' x]. cbn [dt px] in *. subst d' x. apply normalize_uint; try assumption.
    - intros x Hx'. apply (word_limits (UInt b) bytes (nx * ny * nz)); try assumption; [reflexivity|rewrite Ew; apply Iz, Hx'].
    - split; [apply Iz, Hn|intros x Hx'; apply Hn, Iz, Hx'].
    - split; [apply Iz, Hx|intros x Hx'; apply Hx, Iz, Hx']. }
  assert (Sq : px_shape q = [nx; ny; nz]).
  { cbn. rewrite <- Sh. unfold shape. rewrite Pz. reflexivity. }
  exists q. split; [|split; [exact Sq|]].
  - unfold load_data. cbn [andb]. rewrite D. cbn [bind]. rewrite Sh. cbn [check_dims length Nat.ltb Nat.leb orb raise_if bind].
    unfold prepare. destruct (Z.eqb_spec hi 0); [lia|]. cbn [negb andb]. rewrite N. reflexivity.
  - apply plain_moved; [rewrite map_length, seq_length; reflexivity|].
    rewrite <- (map_map v (fun x => IZR (wrapped_stretch b hi zn zx x))), load_items_map, Ez. cbn [bind].
    unfold q. cbn [PairModel.to_float]. unfold amap. cbn [shp dat]. rewrite map_map. reflexivity.
Qed.

(** Files that are left alone: 8 bits, data_range 255 *)
Lemma load_8_bit p nx ny nz bytes v : cpython_identity ident ->
  stored files p (UInt 8) nx ny nz bytes -> length bytes / itemsize (UInt 8) = nx * ny * nz ->
  (forall i, i < nx * ny * nz -> value (UInt 8) bytes i = Some (v i)) ->
  exists q, load_data (disk files other special) ident ub (InPath p) (Some 255%Z) true false [] = Ok (LOne (NImg (Img (UInt 8) q))) /\
    px_shape q = [nx; ny; nz] /\
    moved [Turn 0 2; Mirror 0] (Arr [nz; ny; nx] (map v (seq 0 (nx * ny * nz)))) = Ok (PairModel.to_float q).
Proof.
  intros [_ Hid] S L V. destruct (read_values p (UInt 8) nx ny nz bytes v S L V) as (im & D & T & Sh & E & z & Pz & Ez).
  destruct im as [d' x]. cbn [dt px] in *. subst d'.
  exists x. split; [|split; [exact Sh|]].
  - unfold load_data. cbn [andb]. rewrite D. cbn [bind]. rewrite Sh. cbn [check_dims length Nat.ltb Nat.leb orb raise_if bind].
    unfold prepare. cbn [Z.eqb negb andb]. unfold normalize_data. cbn [dt].
    unfold already_normalised. change (imax (UInt 8)) with 255%Z. change (imin (UInt 8)) with 0%Z. rewrite !Hid by lia. reflexivity.
  - apply plain_moved; [rewrite map_length, seq_length; reflexivity|exact E].
Qed.

(** ** Two files *)

Definition normalising (m : metric) (hi : Z) : Prop :=
  dget (m_params m) "data_range" = Some (PInt hi) /\ flag_of (dget (m_params m) "normalize") = true /\
  roi_of (dget (m_params m) "roi") = [] /\ flag_of (dget (m_params m) "chromatic") = false.

Variable unspec : ext.

Lemma pair_scores m hi pr pm t qr qm nx ny nz vr vm : normalising m hi -> (0 < hi)%Z ->
  load_data (disk files other special) ident ub (InPath pr) (Some hi) true false [] = Ok (LOne (NImg (Img t qr))) ->
  load_data (disk files other special) ident ub (InPath pm) (Some hi) true false [] = Ok (LOne (NImg (Img t qm))) ->
  px_shape qr = [nx; ny; nz] -> px_shape qm = [nx; ny; nz] ->
  moved [Turn 0 2; Mirror 0] (Arr [nz; ny; nx] (map vr (seq 0 (nx * ny * nz)))) = Ok (PairModel.to_float qr) ->
  moved [Turn 0 2; Mirror 0] (Arr [nz; ny; nx] (map vm (seq 0 (nx * ny * nz)))) = Ok (PairModel.to_float qm) ->
  nz <> 3 -> 0 < nx * ny * nz ->
  let e := (Sum (fun i => (vr i - vm i) * (vr i - vm i))%R (seq 0 (nx * ny * nz)) / INR (nx * ny * nz))%R in
  rmse_score (disk files other special) ident ub unspec m (InPath pr) (InPath pm) = Ok (Fin (sqrt e), set_score m (SNum (Fin (sqrt e)))) /\
  exists v, psnr_score (disk files other special) ident ub unspec m (InPath pr) (InPath pm) = Ok (v, set_score m (SNum v)) /\
    ((forall i, i < nx * ny * nz -> vr i = vm i) -> v = PInf) /\
    ((exists i, i < nx * ny * nz /\ vr i <> vm i) -> v = Fin (10 * (ln (IZR hi * IZR hi / e) / ln 10))).
Proof.
  intros (Pd & Pn & Pr & Pc) Hh Er Em Sr Sm Mr Mm H3 Hn e.
  assert (E : load_images (disk files other special) ident ub m (InPath pr) (InPath pm) = Ok (NImg (Img t qr), NImg (Img t qm))).
  { unfold load_images, check_imgs. rewrite Pd, Pn, Pr, Pc. cbn [int_of]. rewrite Er, Em. cbn [bind check_loaded o_type o_shape dt]. unfold shape. cbn [px]. rewrite Sr, Sm.
    assert (Et : dtype_eqb t t = true) by (destruct t; cbn; rewrite ?Nat.eqb_refl; reflexivity). rewrite Et.
    unfold shape_eqb. destruct (list_eq_dec _ _ _) as [_|N]; [|contradiction N; reflexivity]. cbn [negb last andb].
    destruct (Nat.eqb_spec nz 3); [contradiction|reflexivity]. }
  assert (Wr : wf (Arr [nz; ny; nx] (map vr (seq 0 (nx * ny * nz))))) by (unfold wf; cbn [dat shp size]; rewrite map_length, seq_length; lia).
  assert (Wm : wf (Arr [nz; ny; nx] (map vm (seq 0 (nx * ny * nz))))) by (unfold wf; cbn [dat shp size]; rewrite map_length, seq_length; lia).
  destruct (C122_moved_pixels _ _ _ _ _ (IZR hi) Wr Wm eq_refl Mr Mm) as [R1 R2]. cbn [dat] in R1, R2.
  set (n := nx * ny * nz) in *.
  assert (Em' : forall k l, mse (map vr (seq k (S l))) (map vm (seq k (S l))) = Fin (Sum (fun i => (vr i - vm i) * (vr i - vm i))%R (seq k (S l)) / INR (S l))).
  { intros k l. unfold mse. rewrite sumsq_seq, map_length, seq_length. reflexivity. }
  split.
  - unfold rmse_score. rewrite E. cbn [bind on_pixels px]. rewrite R1. unfold rmse.
    unfold e. destruct n as [|n']; [lia|]. rewrite Em'. reflexivity.
  - unfold psnr_score. rewrite E, Pd. cbn [bind int_of from_opt on_pixels px]. eexists. split; [reflexivity|]. rewrite R2.
    assert (Q : forall k l, list_eqbR (map vr (seq k l)) (map vm (seq k l)) = true <-> forall i, k <= i < k + l -> vr i = vm i).
    { intros k l. revert k. induction l as [|l IH]; intros k; cbn [seq map list_eqbR]; [split; [intros _ i Hi; lia|reflexivity]|].
      rewrite andb_true_iff, IH. destruct (Req_EM_T (vr k) (vm k)) as [Q|Q].
      - split; [intros [_ A] i Hi|intros A; split; [reflexivity|intros i Hi; apply A; lia]].
        destruct (Nat.eq_dec i k) as [->|]; [exact Q|apply A; lia].
      - split; [intros [A _]; discriminate|intros A]. exfalso. apply Q, A. lia. }
    unfold psnr. destruct (list_eqbR _ _) eqn:B.
    + split; [reflexivity|]. intros (i & Hi & N). apply Q with (i := i) in B; [contradiction|lia].
    + split.
      * intros A. exfalso. rewrite (proj2 (Q 0 n)) in B; [discriminate|]. intros i Hi. apply A. lia.
      * intros _. unfold e. destruct n as [|n']; [lia|]. rewrite Em'. cbn [seq map].
        destruct (Req_EM_T (IZR hi) 0) as [A|_]; [exfalso; apply eq_IZR in A; lia|]. reflexivity.
Qed.
End One.
