(** C126: scores of files. C127: what the mhd reader does not look at. *)
From Coq Require Import Reals Lra Psatz Permutation Ascii.
From Verif Require Import Base NdArray LoadModel LoadProofs LoadTextProofs NormModel NormProofs PairModel PairProofs RealSums
  MetricModel MetricProofs BatchModel ScriptModel ScriptProps SsimModel SsimProofs SsimProps SsimSymProofs TurnProps FileModel FileProofs.

(** ** C126 *)

(** From the path to the volume: the voxel (x, y, z) is the word x + nx (y + ny z) of the data file. *)
Theorem C126_read files other special p d nx ny nz bytes :
  stored files p d nx ny nz bytes -> length bytes / itemsize d = nx * ny * nz ->
  exists im, disk files other special p = Ok im /\ dt im = d /\ shape im = [nx; ny; nz] /\
    forall x y z v, x < nx -> y < ny -> z < nz -> value d bytes (x + nx * (y + ny * z)) = Some v ->
      get (PairModel.to_float (px im)) [x; y; z] = Some v.
Proof.
  intros S L. rewrite (read_stored _ _ _ _ _ _ _ _ _ S).
  destruct (load_items_3d (fromfile (itemsize d) bytes) nx ny nz) as (a & Ea & Sa & Wa & Ga); [rewrite length_fromfile; exact L|].
  unfold load_binary. rewrite Ea. cbn [bind]. exists (typed special d a). split; [reflexivity|].
  split; [apply typed_type|]. split; [rewrite typed_shape; exact Sa|].
  intros x y z v Hx Hy Hz Hv. specialize (Ga x y z Hx Hy Hz).
  set (i := x + nx * (y + ny * z)) in *.
  assert (Hi : i < length bytes / itemsize d).
  { rewrite L. unfold i. assert (y + ny * z + 1 <= ny * nz) by nia.
    assert (nx * (y + ny * z + 1) <= nx * (ny * nz)) by (apply Nat.mul_le_mono_l; assumption). lia. }
  assert (E : nth_error (fromfile (itemsize d) bytes) i = Some (firstn (itemsize d) (skipn (i * itemsize d) bytes))).
  { unfold fromfile. rewrite nth_error_map. rewrite (nth_error_nth' _ 0); [|rewrite seq_length; exact Hi].
    rewrite seq_nth by exact Hi. reflexivity. }
  rewrite E in Ga. unfold value in Hv. rewrite <- decode_word in Hv by exact Hi.
  destruct d; cbn [typed px PairModel.to_float]; rewrite !get_amap, Ga; cbn [option_map]; try exact Hv.
  rewrite Hv. reflexivity.
Qed.
Print Assumptions C126_read.

(** Files of another size are refused; missing files too. *)
Theorem C126_size files other special p d nx ny nz bytes :
  stored files p d nx ny nz bytes -> length bytes / itemsize d <> nx * ny * nz ->
  disk files other special p = Err ValueError.
Proof.
  intros S L. rewrite (read_stored _ _ _ _ _ _ _ _ _ S). unfold load_binary. rewrite load_items_mismatch; [reflexivity|].
  rewrite length_fromfile, prodZ_nat3. lia.
Qed.
Print Assumptions C126_size.

Theorem C126_missing files other special p d nx ny nz bytes files' :
  stored files p d nx ny nz bytes -> (forall q, files' q = None) -> disk files' other special p = Err FileNotFoundError.
Proof.
  intros S N. destruct S as [dir name d nx ny nz bytes H1 H2 H3 H4 H5 H6
         |dir name e es file n d nx ny nz bytes H1 H2 H3 H4 H4' H5 H6 H7 H8 H9 H10 H11 H12];
    unfold disk, load_from_disk, dispatch; rewrite basename_app by assumption; rewrite H3.
  - change (text_eqb (lit ".raw") (lit ".mhd")) with false. change (text_eqb (lit ".raw") (lit ".raw")) with true. cbv iota. cbn [bind].
    rewrite H4, H5. cbn [bind]. unfold open_file. rewrite N. reflexivity.
  - change (text_eqb (lit ".mhd") (lit ".mhd")) with true. cbv iota. cbn [bind]. unfold open_file. rewrite N. reflexivity.
Qed.
Print Assumptions C126_missing.

(** The turn and the flip of the reader are common moves of both images: the image in the order of the file,
    with shape (nz, ny, nx), before them. *)
Lemma plain_moved vals nx ny nz a : length vals = nx * ny * nz ->
  load_items vals [Z.of_nat nx; Z.of_nat ny; Z.of_nat nz] = Ok a ->
  moved [Turn 0 2; Mirror 0] (Arr [nz; ny; nx] vals) = Ok a.
Proof.
  intros L. unfold load_items. rewrite L, prodZ_nat3, Z.eqb_refl. cbn [negb rev app].
  unfold reshape. cbn [forallb]. rewrite L.
  destruct (Z.leb_spec 0 (Z.of_nat nz)); [|lia]. destruct (Z.leb_spec 0 (Z.of_nat ny)); [|lia].
  destruct (Z.leb_spec 0 (Z.of_nat nx)); [|lia].
  replace (prodZ [Z.of_nat nz; Z.of_nat ny; Z.of_nat nx]) with (Z.of_nat (nx * ny * nz)) by (rewrite prodZ_nat3; f_equal; lia).
  rewrite Z.eqb_refl. cbn [andb bind map]. rewrite !Nat2Z.id. intros Hl. cbn [moved moved1].
  destruct (rot90 _ 0 2); [|discriminate]. cbn [bind] in *. rewrite Hl. reflexivity.
Qed.

Definition plain (m : metric) : Prop :=
  flag_of (dget (m_params m) "normalize") = false /\ roi_of (dget (m_params m) "roi") = [] /\
  flag_of (dget (m_params m) "chromatic") = false.

Section Pair.
Variable files : text -> option (list Z).
Variable other : reader -> text -> res image.
Variable special : Z -> R.
Variable ident : identity.
Variable ub : R -> Z.

Lemma load_pair m pr pm d nx ny nz br bm vr vm :
  plain m -> stored files pr d nx ny nz br -> stored files pm d nx ny nz bm ->
  length br / itemsize d = nx * ny * nz -> length bm / itemsize d = nx * ny * nz ->
  (forall i, i < nx * ny * nz -> value d br i = Some (vr i)) ->
  (forall i, i < nx * ny * nz -> value d bm i = Some (vm i)) -> nz <> 3 ->
  exists r m', load_images (disk files other special) ident ub m (InPath pr) (InPath pm) = Ok (NImg r, NImg m') /\
    let plain_r := Arr [nz; ny; nx] (map vr (seq 0 (nx * ny * nz))) in
    let plain_m := Arr [nz; ny; nx] (map vm (seq 0 (nx * ny * nz))) in
    moved [Turn 0 2; Mirror 0] plain_r = Ok (PairModel.to_float (px r)) /\
    moved [Turn 0 2; Mirror 0] plain_m = Ok (PairModel.to_float (px m')) /\ wf plain_r /\ wf plain_m.
Proof.
  intros (Pn & Pr & Pc) Sr Sm Lr Lm Vr Vm H3.
  assert (K : forall p b v, stored files p d nx ny nz b -> length b / itemsize d = nx * ny * nz ->
     (forall i, i < nx * ny * nz -> value d b i = Some (v i)) ->
     exists im, load_data (disk files other special) ident ub (InPath p) (int_of (dget (m_params m) "data_range")) false false [] = Ok (LOne (NImg im)) /\
       dt im = d /\ shape im = [nx; ny; nz] /\
       moved [Turn 0 2; Mirror 0] (Arr [nz; ny; nx] (map v (seq 0 (nx * ny * nz)))) = Ok (PairModel.to_float (px im)) /\
       wf (Arr [nz; ny; nx] (map v (seq 0 (nx * ny * nz))))).
  { intros p b v S L V. unfold load_data. cbn [andb]. rewrite (read_stored _ _ _ _ _ _ _ _ _ S).
    destruct (load_items_3d (fromfile (itemsize d) b) nx ny nz) as (a & Ea & Sa & _); [rewrite length_fromfile; exact L|].
    unfold load_binary. rewrite Ea. cbn [bind]. rewrite typed_shape, Sa. cbn [check_dims length Nat.ltb Nat.leb orb raise_if bind].
    unfold prepare. exists (typed special d a). split.
    { destruct (int_of _); reflexivity. }
    split; [apply typed_type|]. split; [rewrite typed_shape; exact Sa|]. split.
    - apply plain_moved; [rewrite map_length, seq_length; reflexivity|].
      rewrite <- L. apply image_values; [rewrite L; exact V|]. unfold load_binary. exact Ea.
    - unfold wf. cbn [dat shp size]. rewrite map_length, seq_length. lia. }
  destruct (K pr br vr Sr Lr Vr) as (r & Er & Tr & Hr & Mr & Wr). destruct (K pm bm vm Sm Lm Vm) as (m' & Em & Tm & Hm & Mm & Wm).
  exists r, m'. split; [|auto].
  unfold load_images, check_imgs. rewrite Pn, Pr, Pc, Er, Em. cbn [bind check_loaded o_type o_shape].
  rewrite Tr, Tm, Hr, Hm.
  assert (Et : dtype_eqb d d = true) by (destruct d; cbn; rewrite ?Nat.eqb_refl; reflexivity). rewrite Et.
  unfold shape_eqb. destruct (list_eq_dec _ _ _) as [_|N]; [|contradiction N; reflexivity]. cbn [negb last andb].
  destruct (Nat.eqb_spec nz 3); [contradiction|reflexivity].
Qed.
End Pair.

Lemma sumsq_seq f g n k : sum_sq_diff (map f (seq k n)) (map g (seq k n)) = Sum (fun i => (f i - g i) * (f i - g i))%R (seq k n).
Proof. revert k. induction n as [|n IH]; intros k; [reflexivity|]. cbn [seq map sum_sq_diff]. rewrite Sum_cons, IH. reflexivity. Qed.

(** RMSE of two files (raw or mhd) of the same type and size: the root of the mean squared difference of their words.
    The dimensions only matter through their product. *)
Theorem C126_rmse files other special ident ub unspec m pr pm d nx ny nz br bm vr vm :
  plain m -> stored files pr d nx ny nz br -> stored files pm d nx ny nz bm ->
  let n := nx * ny * nz in length br / itemsize d = n -> length bm / itemsize d = n ->
  (forall i, i < n -> value d br i = Some (vr i)) -> (forall i, i < n -> value d bm i = Some (vm i)) -> nz <> 3 -> 0 < n ->
  exists s, rmse_score (disk files other special) ident ub unspec m (InPath pr) (InPath pm) =
    Ok (Fin (sqrt (Sum (fun i => (vr i - vm i) * (vr i - vm i))%R (seq 0 n) / INR n)), s).
Proof.
  intros Hm Sr Sm n Lr Lm Vr Vm H3 Hn.
  destruct (load_pair files other special ident ub m pr pm d nx ny nz br bm vr vm) as (r & m' & E & Mr & Mm & Wr & Wm); try assumption.
  cbv zeta in *. unfold rmse_score. rewrite E. cbn [bind on_pixels]. eexists. f_equal. f_equal.
  destruct (C122_moved_pixels _ _ _ _ _ 0 Wr Wm eq_refl Mr Mm) as [-> _]. cbn [dat].
  unfold rmse, mse. fold n. rewrite sumsq_seq, map_length, seq_length.
  destruct n as [|n']; [lia|]. reflexivity.
Qed.
Print Assumptions C126_rmse.

(** PSNR likewise. *)
Theorem C126_psnr files other special ident ub unspec m pr pm d nx ny nz br bm vr vm dr :
  plain m -> dget (m_params m) "data_range" = Some (PInt dr) -> dr <> 0%Z ->
  stored files pr d nx ny nz br -> stored files pm d nx ny nz bm ->
  let n := nx * ny * nz in length br / itemsize d = n -> length bm / itemsize d = n ->
  (forall i, i < n -> value d br i = Some (vr i)) -> (forall i, i < n -> value d bm i = Some (vm i)) -> nz <> 3 -> 0 < n ->
  exists v s, psnr_score (disk files other special) ident ub unspec m (InPath pr) (InPath pm) = Ok (v, s) /\
    ((forall i, i < n -> vr i = vm i) -> v = PInf) /\
    ((exists i, i < n /\ vr i <> vm i) ->
       v = Fin (10 * (ln (IZR dr * IZR dr / (Sum (fun i => (vr i - vm i) * (vr i - vm i))%R (seq 0 n) / INR n)) / ln 10))).
Proof.
  intros Hm Hd H0 Sr Sm n Lr Lm Vr Vm H3 Hn.
  destruct (load_pair files other special ident ub m pr pm d nx ny nz br bm vr vm) as (r & m' & E & Mr & Mm & Wr & Wm); try assumption.
  cbv zeta in *. unfold psnr_score. rewrite E, Hd. cbn [bind int_of from_opt on_pixels]. do 2 eexists. split; [reflexivity|].
  destruct (C122_moved_pixels _ _ _ _ _ (IZR dr) Wr Wm eq_refl Mr Mm) as [_ ->]. cbn [dat]. fold n.
  assert (Q : forall k l, list_eqbR (map vr (seq k l)) (map vm (seq k l)) = true <-> forall i, k <= i < k + l -> vr i = vm i).
  { intros k l. revert k. induction l as [|l IH]; intros k; cbn [seq map list_eqbR]; [split; [intros _ i Hi; lia|reflexivity]|].
    rewrite andb_true_iff, IH. destruct (Req_EM_T (vr k) (vm k)) as [Q|Q].
    - split; [intros [_ A] i Hi|intros A; split; [reflexivity|intros i Hi; apply A; lia]].
      destruct (Nat.eq_dec i k) as [->|]; [exact Q|apply A; lia].
    - split; [intros [A _]; discriminate|intros A]. exfalso. apply Q, A. lia. }
  unfold psnr. destruct (list_eqbR _ _) eqn:B.
  - split; [reflexivity|]. intros (i & Hi & N). apply Q with (i := i) in B; [contradiction|lia].
  - split.
    + intros A. exfalso. rewrite (proj2 (Q 0 n)) in B; [discriminate|]. intros i Hi. apply A. lia.
    + intros _. unfold mse. rewrite sumsq_seq, map_length, seq_length. destruct n as [|n']; [lia|]. cbn [seq map].
      destruct (Req_EM_T (IZR dr) 0) as [A|_]; [exfalso; apply H0, eq_IZR, A|]. reflexivity.
Qed.
Print Assumptions C126_psnr.

(** SSIM and UQI are those of the volumes in the order of the files. *)
Theorem C126_ssim files other special ident ub m pr pm d nx ny nz br bm vr vm :
  plain m -> stored files pr d nx ny nz br -> stored files pm d nx ny nz bm ->
  let n := nx * ny * nz in length br / itemsize d = n -> length bm / itemsize d = n ->
  (forall i, i < n -> value d br i = Some (vr i)) -> (forall i, i < n -> value d bm i = Some (vm i)) -> nz <> 3 ->
  exists r m', load_images (disk files other special) ident ub m (InPath pr) (InPath pm) = Ok (NImg r, NImg m') /\
    forall big dr w kw, positive_window kw ->
      let a := PairModel.to_float (px r) in let b := PairModel.to_float (px m') in
      let a' := Arr [nz; ny; nx] (map vr (seq 0 n)) in let b' := Arr [nz; ny; nx] (map vm (seq 0 n)) in
      ssim_score big dr false a b w kw = ssim_score big dr false a' b' w kw /\
      uqi_score big dr a b kw = uqi_score big dr a' b' kw.
Proof.
  intros Hm Sr Sm n Lr Lm Vr Vm H3.
  destruct (load_pair files other special ident ub m pr pm d nx ny nz br bm vr vm) as (r & m' & E & Mr & Mm & Wr & Wm); try assumption.
  cbv zeta in *. exists r, m'. split; [exact E|]. intros big dr w kw Hw.
  apply (C122_scores big [Turn 0 2; Mirror 0]); auto.
Qed.
Print Assumptions C126_ssim.

(** The readers of raw and mhd files agree. *)
Theorem C126_same_content files other special p q d nx ny nz bytes :
  stored files p d nx ny nz bytes -> stored files q d nx ny nz bytes ->
  disk files other special p = disk files other special q.
Proof. intros Sp Sq. rewrite (read_stored _ _ _ _ _ _ _ _ _ Sp), (read_stored _ _ _ _ _ _ _ _ _ Sq). reflexivity. Qed.
Print Assumptions C126_same_content.

(** Wrong dimensions with the right product are not noticed by RMSE. *)
Theorem C126_dims_unseen files other special ident ub unspec m pr pm qr qm d nx ny nz nx' ny' nz' br bm vr vm :
  plain m -> stored files pr d nx ny nz br -> stored files pm d nx ny nz bm ->
  stored files qr d nx' ny' nz' br -> stored files qm d nx' ny' nz' bm ->
  let n := nx * ny * nz in nx' * ny' * nz' = n -> length br / itemsize d = n -> length bm / itemsize d = n ->
  (forall i, i < n -> value d br i = Some (vr i)) -> (forall i, i < n -> value d bm i = Some (vm i)) ->
  nz <> 3 -> nz' <> 3 -> 0 < n ->
  rmse_score (disk files other special) ident ub unspec m (InPath qr) (InPath qm) =
  rmse_score (disk files other special) ident ub unspec m (InPath pr) (InPath pm).
Proof.
  intros Hm S1 S2 S3 S4 n En Lr Lm Vr Vm H3 H3' Hn.
  assert (U : forall a b v s, rmse_score (disk files other special) ident ub unspec m a b = Ok (v, s) -> s = set_score m (SNum v)).
  { intros a b v s E. unfold rmse_score in E. destruct (load_images _ _ _ _ _ _); [|discriminate]. cbn [bind] in E. injection E as <- <-. reflexivity. }
  destruct (C126_rmse files other special ident ub unspec m pr pm d nx ny nz br bm vr vm) as (s & E); try assumption.
  destruct (C126_rmse files other special ident ub unspec m qr qm d nx' ny' nz' br bm vr vm) as (s' & E'); try assumption; rewrite ?En; try assumption.
  rewrite En in E'. fold n in E.
  pose proof (U _ _ _ _ E) as U1. pose proof (U _ _ _ _ E') as U2. rewrite E, E', U1, U2. reflexivity.
Qed.
Print Assumptions C126_dims_unseen.

(** Volumes with three slices are taken for colour images, and grey values above 255 are cut off:
    all pairs of bright files have RMSE 0. *)
Theorem C126_three_slices files other special ident ub unspec m pr pm d nx ny br bm :
  plain m -> stored files pr d nx ny 3 br -> stored files pm d nx ny 3 bm ->
  length br / itemsize d = nx * ny * 3 -> length bm / itemsize d = nx * ny * 3 -> 0 < nx * ny ->
  (forall i, i < nx * ny * 3 -> exists v w, value d br i = Some v /\ value d bm i = Some w /\ (255 <= v)%R /\ (255 <= w)%R) ->
  exists s, rmse_score (disk files other special) ident ub unspec m (InPath pr) (InPath pm) = Ok (Fin 0, s).
Proof.
  intros (Pn & Pr & Pc) Sr Sm Lr Lm Hn Hb.
  assert (K : forall p b, stored files p d nx ny 3 b -> length b / itemsize d = nx * ny * 3 ->
     (forall i, i < nx * ny * 3 -> exists v, value d b i = Some v /\ (255 <= v)%R) ->
     exists im g, load_data (disk files other special) ident ub (InPath p) (int_of (dget (m_params m) "data_range")) false false [] = Ok (LOne (NImg im)) /\
       dt im = d /\ shape im = [nx; ny; 3] /\ gray_out (NImg im) = Ok (NImg (Img (float_type d) (PF g))) /\
       dat g = repeat 255%R (nx * ny)).
  { intros p b S L V. destruct (C126_read files other special p d nx ny 3 b S L) as (im & E & T & Hs & G).
    assert (W : wf (PairModel.to_float (px im))).
    { rewrite (read_stored _ _ _ _ _ _ _ _ _ S) in E.
      destruct (load_items_3d (fromfile (itemsize d) b) nx ny 3) as (a & Ea & Sa & Wa & _); [rewrite length_fromfile; exact L|].
      unfold load_binary in E. rewrite Ea in E. cbn [bind] in E. injection E as <-.
      destruct d; cbn [typed px PairModel.to_float]; unfold wf, amap in *; cbn [shp dat]; rewrite ?map_length; exact Wa. }
    destruct (to_grayscale_ok (PairModel.to_float (px im)) [nx; ny] W) as (g & Eg & Wg & Sg & Gg).
    { rewrite to_float_shape. exact Hs. }
    exists im, g. split.
    { unfold load_data. cbn [andb]. rewrite E. cbn [bind]. rewrite Hs. cbn [check_dims length Nat.ltb Nat.leb orb raise_if bind].
      unfold prepare. destruct (int_of _); reflexivity. }
    split; [exact T|]. split; [exact Hs|]. split.
    { cbn [gray_out]. rewrite Eg. cbn [bind]. rewrite T. reflexivity. }
    assert (A : forall x, In x (dat g) -> x = 255%R).
    { intros x Hx. apply In_nth_error in Hx as [k Hk].
      assert (Lk : k < nx * ny).
      { assert (nth_error (dat g) k <> None) by congruence. apply nth_error_Some in H. unfold wf in Wg. rewrite Wg, Sg in H. cbn [size] in H. lia. }
      assert (Hny : ny <> 0) by lia.
      assert (I : inb [nx; ny] [k / ny; k mod ny] = true).
      { cbn [inb]. rewrite !andb_true_iff, !Nat.ltb_lt. split; [apply Nat.div_lt_upper_bound; [exact Hny|lia]|]. split; [apply Nat.mod_upper_bound; exact Hny|reflexivity]. }
      destruct (Gg _ I) as (r & gg & bb & G1 & G2 & G3 & G4).
      assert (Ex : get g [k / ny; k mod ny] = Some x).
      { unfold get. rewrite Sg, I. cbn [ravel size]. rewrite <- Hk. f_equal.
        pose proof (Nat.div_mod k ny Hny). nia. }
      rewrite Ex in G4. injection G4 as ->.
      cbn [inb] in I. rewrite !andb_true_iff, !Nat.ltb_lt in I. destruct I as (I1 & I2 & _).
      assert (P : forall z u, z < 3 -> get (PairModel.to_float (px im)) [k / ny; k mod ny; z] = Some u -> (255 <= u)%R).
      { intros z u Hz Hu. destruct (V (k / ny + nx * (k mod ny + ny * z))) as (v & V1 & V2).
        { assert (k mod ny + ny * z + 1 <= ny * 3) by nia.
          assert (nx * (k mod ny + ny * z + 1) <= nx * (ny * 3)) by (apply Nat.mul_le_mono_l; assumption). lia. }
        rewrite (G _ _ _ _ I1 I2 Hz V1) in Hu. injection Hu as <-. exact V2. }
      cbn [app] in G1, G2, G3. apply P in G1; [|lia]. apply P in G2; [|lia]. apply P in G3; [|lia].
      unfold clip255, luma. destruct (Rlt_dec _ _); lra. }
    unfold wf in Wg. rewrite Sg in Wg. cbn [size] in Wg. replace (nx * ny) with (length (dat g)) by lia.
    clear - A. induction (dat g) as [|x l IH]; [reflexivity|]. cbn [length repeat]. rewrite (A x (or_introl eq_refl)). f_equal. apply IH.
    intros y Hy. apply A. right. exact Hy. }
  destruct (K pr br Sr Lr) as (r & gr & Er & Tr & Hr & Gr & Dr).
  { intros i Hi. destruct (Hb i Hi) as (v & w & V & _ & B & _). exists v. auto. }
  destruct (K pm bm Sm Lm) as (m' & gm & Em & Tm & Hm & Gm & Dm).
  { intros i Hi. destruct (Hb i Hi) as (v & w & _ & V & _ & B). exists w. auto. }
  unfold rmse_score, load_images, check_imgs. rewrite Pn, Pr, Pc, Er, Em. cbn [bind check_loaded o_type o_shape].
  rewrite Tr, Tm, Hr, Hm, (proj2 (dtype_eqb_eq d d) eq_refl), (proj2 (shape_eqb_eq _ _) eq_refl).
  cbn [negb last andb Nat.eqb]. rewrite Gr, Gm. cbn [bind on_pixels px PairModel.to_float dat]. rewrite Dr, Dm. eexists. f_equal. f_equal.
  assert (Z0 : forall k, sum_sq_diff (repeat 255%R k) (repeat 255%R k) = 0%R).
  { induction k as [|k IH]; [reflexivity|]. cbn [repeat sum_sq_diff]. rewrite IH. lra. }
  unfold rmse, mse. rewrite Z0. destruct (nx * ny); [lia|]. cbn [repeat]. f_equal. unfold Rdiv. rewrite Rmult_0_l. apply sqrt_0.
Qed.
Print Assumptions C126_three_slices.

(** The floating point words stand for the numbers of the format and for no others. *)
Theorem C126_float_words bits prec kmin kmax :
  In (bits, prec, kmin, kmax) [(16%nat, 11, -24, 5); (32%nat, 24, -149, 104); (64%nat, 53, -1074, 971)]%Z ->
  (forall M k, Z.abs M < 2 ^ prec -> kmin <= k <= kmax ->
     exists w, 0 <= w < 2 ^ Z.of_nat bits /\ float_value bits w = Some (IZR M * powerRZ 2 k)%R)%Z /\
  (forall w x, float_value bits w = Some x ->
     exists M k, x = (IZR M * powerRZ 2 k)%R /\ Z.abs M < 2 ^ prec /\ kmin <= k <= kmax)%Z.
Proof.
  cbn [In]. intros [E|[E|[E|[]]]]; injection E as <- <- <- <-.
  - split; [intros M k H1 H2; exact (ieee_all 5 10 M k ltac:(lia) H1 H2)|intros w x H; exact (ieee_only 5 10 w x ltac:(lia) H)].
  - split; [intros M k H1 H2; exact (ieee_all 8 23 M k ltac:(lia) H1 H2)|intros w x H; exact (ieee_only 8 23 w x ltac:(lia) H)].
  - split; [intros M k H1 H2; exact (ieee_all 11 52 M k ltac:(lia) H1 H2)|intros w x H; exact (ieee_only 11 52 w x ltac:(lia) H)].
Qed.
Print Assumptions C126_float_words.

(** ** C127: mhd headers *)

(** Only three fields count: two headers with the same data file, size and type are read alike. *)
Theorem C127_three_fields files files' other special dir name e e' es es' :
  plain_dir dir -> ~ In "/"%char name -> snd (splitext name) = lit ".mhd" ->
  Forall entry_ok es -> Forall no_cr es -> Forall entry_ok es' -> Forall no_cr es' ->
  (forall k, In k [lit "ElementDataFile"; lit "DimSize"; lit "ElementType"] -> last_value k es = last_value k es') ->
  files (dir ++ name) = Some (bytes_of (header_file e es)) -> files' (dir ++ name) = Some (bytes_of (header_file e' es')) ->
  (forall q, q <> dir ++ name -> files q = files' q) ->
  last_value (lit "ElementDataFile") es <> Some name ->
  hd "."%char (match last_value (lit "ElementDataFile") es with Some f => f | None => [] end) <> "/"%char ->
  disk files other special (dir ++ name) = disk files' other special (dir ++ name).
Proof.
  intros H1 H2 H3 H4 H5 H6 H7 H8 F F' O N S.
  destruct (parse_header_lookup es H4) as (h & Eh & Gh). destruct (parse_header_lookup es' H6) as (h' & Eh' & Gh').
  unfold disk, load_from_disk. rewrite basename_app by assumption. rewrite (join_dir _ _ name) by (try assumption; apply no_slash_start; assumption).
  unfold dispatch. rewrite H3. change (text_eqb (lit ".mhd") (lit ".mhd")) with true. cbv iota. cbn [bind].
  unfold open_file. rewrite F, F'. cbn [from_opt bind]. rewrite !text_bytes, !header_newlines by assumption.
  unfold mhd_info. rewrite Eh, Eh'. cbn [bind]. rewrite !Gh, !Gh'.
  rewrite <- (H8 (lit "ElementDataFile")), <- (H8 (lit "DimSize")), <- (H8 (lit "ElementType")) by (cbn [In]; auto).
  clear H8. destruct (last_value (lit "ElementDataFile") es) as [f|] eqn:V; [|reflexivity]. cbn [from_opt bind].
  destruct (last_value (lit "DimSize") es) as [dt|]; [|reflexivity]. cbn [from_opt bind].
  destruct (mapM py_int (words dt)) as [dims|]; [|reflexivity]. cbn [bind].
  destruct (last_value (lit "ElementType") es) as [ty|]; [|reflexivity]. cbn [from_opt bind].
  destruct (element_type ty) as [d|]; [|reflexivity]. cbn [bind].
  rewrite join_dir; try assumption.
  - rewrite (O (dir ++ f)); [reflexivity|]. intros E. apply app_inv_head in E. apply N. rewrite E. reflexivity.
  - destruct f as [|c f]; [exact I|]. cbn [hd] in S. destruct c as [[] [] [] [] [] [] [] []]; try exact I. apply S. reflexivity.
Qed.
Print Assumptions C127_three_fields.

(** So the byte order is not looked at: 16-bit data written with the most significant byte first is read with
    exchanged bytes, whatever the header says. *)
Theorem C127_byte_order files other special p nx ny nz vals :
  let bytes := flat_map (fun v => [v / 256; v mod 256]%Z) vals in
  stored files p (UInt 16) nx ny nz bytes -> length vals = nx * ny * nz ->
  exists im, disk files other special p = Ok im /\
    forall x y z v, x < nx -> y < ny -> z < nz -> nth_error vals (x + nx * (y + ny * z)) = Some v ->
      get (PairModel.to_float (px im)) [x; y; z] = Some (IZR (v / 256 + 256 * (v mod 256))).
Proof.
  intros bytes S L.
  assert (B : length bytes = (2 * length vals)%nat).
  { unfold bytes. clear. induction vals as [|v l IH]; [reflexivity|]. cbn [flat_map app length]. lia. }
  destruct (C126_read files other special p (UInt 16) nx ny nz bytes S) as (im & E & _ & _ & G).
  { change (itemsize (UInt 16)) with 2. rewrite B, Nat.mul_comm, Nat.div_mul by lia. exact L. }
  exists im. split; [exact E|]. intros x y z v Hx Hy Hz Hv. apply G; try assumption.
  unfold value, word. change (itemsize (UInt 16)) with 2. cbn [seq map fold_right]. do 2 f_equal.
  set (i := x + nx * (y + ny * z)) in *.
  assert (N : nth (i * 2 + 0) bytes 0%Z = (v / 256)%Z /\ nth (i * 2 + 1) bytes 0%Z = (v mod 256)%Z).
  { unfold bytes. clearbody i. clear - Hv. revert i Hv. induction vals as [|u l IH]; intros i Hv; [destruct i; discriminate|].
    destruct i as [|i]; [injection Hv as ->; split; reflexivity|]. cbn [nth_error] in Hv. apply IH in Hv.
    cbn [flat_map app Nat.mul Nat.add nth]. exact Hv. }
  destruct N as [-> ->]. change (256 ^ Z.of_nat 0)%Z with 1%Z. change (256 ^ Z.of_nat 1)%Z with 256%Z. ring.
Qed.
Print Assumptions C127_byte_order.

(** Images with two dimensions cannot be read. *)
Theorem C127_two_dims files other special dir name content file d dims bytes :
  plain_dir dir -> ~ In "/"%char name -> snd (splitext name) = lit ".mhd" ->
  files (dir ++ name) = Some content -> mhd_info (text_of content) = Ok (file, d, dims) -> length dims < 3 ->
  files (join (dirname (dir ++ name)) file) = Some bytes ->
  disk files other special (dir ++ name) = Err ValueError.
Proof.
  intros H1 H2 H3 F M L D.
  unfold disk, load_from_disk. rewrite basename_app by assumption. rewrite (join_dir _ _ name) by (try assumption; apply no_slash_start; assumption).
  unfold dispatch. rewrite H3. change (text_eqb (lit ".mhd") (lit ".mhd")) with true. cbv iota. cbn [bind].
  unfold open_file. rewrite F. cbn [from_opt bind]. rewrite M. cbn [bind]. rewrite D. cbn [from_opt bind].
  unfold load_binary. rewrite load_items_short_dims by exact L. reflexivity.
Qed.
Print Assumptions C127_two_dims.

(** [ElementDataFile = LOCAL] (data in the same file) is taken for a file name. *)
Theorem C127_local files other special dir name e es :
  plain_dir dir -> ~ In "/"%char name -> snd (splitext name) = lit ".mhd" ->
  Forall entry_ok es -> Forall no_cr es -> last_value (lit "ElementDataFile") es = Some (lit "LOCAL") ->
  files (dir ++ name) = Some (bytes_of (header_file e es)) -> files (dir ++ lit "LOCAL") = None ->
  exists x, disk files other special (dir ++ name) = Err x /\
    (forall d dims, mhd_info (header_text es) = Ok (lit "LOCAL", d, dims) -> x = FileNotFoundError).
Proof.
  intros H1 H2 H3 H4 H5 H6 F N.
  unfold disk, load_from_disk. rewrite basename_app by assumption. rewrite (join_dir _ _ name) by (try assumption; apply no_slash_start; assumption).
  unfold dispatch. rewrite H3. change (text_eqb (lit ".mhd") (lit ".mhd")) with true. cbv iota. cbn [bind].
  unfold open_file. rewrite F. cbn [from_opt bind]. rewrite text_bytes, header_newlines by assumption.
  destruct (mhd_info (header_text es)) as [[[f d] dims]|x] eqn:M; cbn [bind].
  - assert (f = lit "LOCAL") as ->.
    { destruct (parse_header_lookup es H4) as (h & Eh & Gh). unfold mhd_info in M. rewrite Eh in M. cbn [bind] in M. rewrite Gh, H6 in M.
      cbn [from_opt bind] in M. destruct (from_opt _ _); [|discriminate]. cbn [bind] in M. destruct (mapM _ _); [|discriminate].
      cbn [bind] in M. destruct (from_opt _ _); [|discriminate]. cbn [bind] in M. destruct (element_type _); [|discriminate].
      cbn [bind] in M. congruence. }
    rewrite join_dir; try assumption; [|exact I]. rewrite N. cbn [from_opt bind]. eexists. split; [reflexivity|reflexivity].
  - eexists. split; [reflexivity|]. discriminate.
Qed.
Print Assumptions C127_local.

(** ** Examples *)

(** A machine with a raw file, an mhd header (CR LF line ends, byte order field) and its data file. *)
Definition header_example : list (text * text) :=
  [(lit "ObjectType", lit "Image"); (lit "NDims", lit "3"); (lit "BinaryDataByteOrderMSB", lit "True");
   (lit "DimSize", lit "2 1 1"); (lit "ElementType", lit "MET_USHORT"); (lit "ElementDataFile", lit "b.raw")].
Definition machine (p : text) : option (list Z) :=
  if text_eqb p (lit "scans/a_2x1x1_16bit.raw") then Some [1; 0; 44; 1]%Z
  else if text_eqb p (lit "scans/b.mhd") then Some (bytes_of (header_file CRLF header_example))
  else if text_eqb p (lit "scans/b.raw") then Some [0; 1; 44; 1]%Z else None.

Lemma machine_raw : stored machine (lit "scans/a_2x1x1_16bit.raw") (UInt 16) 2 1 1 [1; 0; 44; 1]%Z.
Proof.
  change (lit "scans/a_2x1x1_16bit.raw") with (lit "scans/" ++ lit "a_2x1x1_16bit.raw").
  apply stored_raw; try reflexivity.
  - right. right. exists (lit "scan"), "s"%char. split; [reflexivity|discriminate].
  - cbn. intuition discriminate.
Qed.
Lemma machine_mhd : stored machine (lit "scans/b.mhd") (UInt 16) 2 1 1 [0; 1; 44; 1]%Z.
Proof.
  change (lit "scans/b.mhd") with (lit "scans/" ++ lit "b.mhd").
  apply (stored_mhd machine (lit "scans/") (lit "b.mhd") CRLF header_example (lit "b.raw") "MET_USHORT"); try reflexivity.
  - right. right. exists (lit "scan"), "s"%char. split; [reflexivity|discriminate].
  - cbn. intuition discriminate.
  - assert (K : forall a b, existsb (Ascii.eqb "=") a = false -> existsb (Ascii.eqb newline) (a ++ b) = false ->
      existsb (Ascii.eqb "=") b = false -> entry_ok (a, b)).
    { intros a b A B C. repeat split; cbn [fst snd].
      - intros I. rewrite (proj2 (existsb_exists _ _)) in A; [discriminate|]. exists "="%char. split; [exact I|reflexivity].
      - intros I. rewrite (proj2 (existsb_exists _ _)) in B; [discriminate|]. exists newline. split; [apply in_or_app; left; exact I|apply Ascii.eqb_refl].
      - intros I. rewrite (proj2 (existsb_exists _ _)) in B; [discriminate|]. exists newline. split; [apply in_or_app; right; exact I|apply Ascii.eqb_refl].
      - intros u v E. rewrite (proj2 (existsb_exists _ _)) in C; [discriminate|]. exists "="%char. split; [|reflexivity].
        rewrite E. apply in_or_app. right. cbn. tauto. }
    repeat constructor; apply K; reflexivity.
  - repeat constructor; intros I; cbn in I; intuition discriminate.
  - repeat constructor; cbn; intros I; repeat (destruct I as [I|I]; [discriminate I|]); exact I.
  - cbn. tauto.
  - cbn. tauto.
  - cbn. tauto.
  - cbn. tauto.
  - discriminate.
Qed.

(** Values 1, 300 against 256 (1 with exchanged bytes), 300. *)
Example C126_example other special ident ub unspec : exists m s,
  construct CRMSE PNone (PBool false) [] = Ok m /\
  rmse_score (disk machine other special) ident ub unspec m (InPath (lit "scans/a_2x1x1_16bit.raw")) (InPath (lit "scans/b.mhd")) =
  Ok (Fin (sqrt (255 * 255 / 2)), s).
Proof.
  set (m := Metric CRMSE [("data_range", PNone); ("normalize", PBool false); ("chromatic", PBool false); ("roi", PNone)]%string SNone (Some "RMSE"%string)).
  exists m. set (vr := fun i : nat => match i with 0 => 1 | _ => 300 end%R). set (vm := fun i : nat => match i with 0 => 256 | _ => 300 end%R).
  destruct (C126_rmse machine other special ident ub unspec m (lit "scans/a_2x1x1_16bit.raw") (lit "scans/b.mhd") (UInt 16) 2 1 1 [1; 0; 44; 1]%Z [0; 1; 44; 1]%Z vr vm) as (s & E).
  - repeat split.
  - apply machine_raw.
  - apply machine_mhd.
  - reflexivity.
  - reflexivity.
  - intros [|[|i]] Hi; try reflexivity. cbn in Hi. lia.
  - intros [|[|i]] Hi; try reflexivity. cbn in Hi. lia.
  - discriminate.
  - cbn. lia.
  - exists s. split; [reflexivity|]. rewrite E. do 3 f_equal. unfold Sum, vr, vm. cbn. f_equal. lra.
Qed.

Example C127_example other special : exists im,
  disk machine other special (lit "scans/b.mhd") = Ok im /\ In (lit "BinaryDataByteOrderMSB", lit "True") header_example /\
  get (PairModel.to_float (px im)) [0; 0; 0] = Some 256%R.
Proof.
  destruct (C127_byte_order machine other special (lit "scans/b.mhd") 2 1 1 [1; 11265]%Z) as (im & E & G).
  - exact machine_mhd.
  - reflexivity.
  - exists im. split; [exact E|]. split; [cbn; tauto|]. rewrite (G 0 0 0 1%Z); [reflexivity|lia|lia|lia|reflexivity].
Qed.
