(** Stored statistics and display of images: properties C71 and C98. *)
From Coq Require Import Reals Lra.
From Verif Require Import Base NdArray LoadModel LoadProofs PairModel PairProofs MetricModel SliceModel BatchModel ExportModel MadModel VisModel VisProps StatModel.

Section C71.
Context {D V H : Type}.
Variable integer : D -> bool.
Variables f_mean f_median f_var f_std f_skew f_kurt f_min f_max : D -> res V.
Variable f_hist : D -> res H.

Notation run := (run integer f_mean f_median f_var f_std f_skew f_kurt f_min f_max f_hist).
Notation calculate := (calculate integer f_mean f_median f_var f_std f_skew f_kurt f_min f_max f_hist).

(** Slices, copies, casts, assignments and in-place arithmetic *)
Definition keeps (o : @op D) : Prop := match o with Derived _ | Changed _ => True | _ => False end.

Lemma keeps_attrs ops : Forall keeps ops -> forall img, im_attrs (run img ops) = im_attrs img.
Proof.
  induction 1 as [|o ops K F IH]; intros img; [reflexivity|]. unfold StatModel.run in *. cbn [fold_left]. rewrite IH.
  destruct o; try contradiction; reflexivity.
Qed.

(** What is reported never changes by them, whatever the new data are. *)
Theorem C71_inherited : forall img ops, Forall keeps ops -> describe (run img ops) = describe img.
Proof. intros img ops F. unfold describe. rewrite (keeps_attrs ops F). reflexivity. Qed.

(** [v] is the complete list of statistics of data [d]. *)
Definition statistics (d : D) (v : dict (option V)) : Prop :=
  exists m me va s sk k mi ma,
    f_mean d = Ok m /\ f_median d = Ok me /\ f_var d = Ok va /\ f_std d = Ok s /\ f_skew d = Ok sk /\ f_kurt d = Ok k /\
    f_min d = Ok mi /\ f_max d = Ok ma /\
    v = [("mean", Some m); ("median", Some me); ("variance", Some va); ("standarddev", Some s); ("skewness", Some sk);
         ("kurtosis", Some k); ("minimum", Some mi); ("maximum", Some ma)]%string.

(** After a successful calculation the report describes the data of that moment, as long as only such
    operations follow: it is right for the unchanged image and stale for crops. *)
Theorem C71_history : forall img pre suf,
  fst (calculate (run img pre)) = Ok tt -> Forall keeps suf ->
  statistics (im_data (run img pre)) (describe (run img (pre ++ Calculated :: suf))).
Proof.
  intros img pre suf HC F.
  assert (E : run img (pre ++ Calculated :: suf) = run (snd (calculate (run img pre))) suf).
  { unfold StatModel.run. rewrite fold_left_app. reflexivity. }
  rewrite E. unfold describe. rewrite (keeps_attrs suf F). clear E.
  set (i := run img pre) in *. clearbody i. unfold StatModel.calculate in *. cbn [fst snd im_attrs] in *. 
  destruct (f_mean (im_data i)) as [v1|] eqn:E1; [|exfalso; clear - HC; cbn in HC; destruct (integer (im_data i)); discriminate].
  destruct (f_median (im_data i)) as [v2|] eqn:E2; [|exfalso; clear - HC; cbn in HC; destruct (integer (im_data i)); discriminate].
  destruct (f_var (im_data i)) as [v3|] eqn:E3; [|exfalso; clear - HC; cbn in HC; destruct (integer (im_data i)); discriminate].
  destruct (f_std (im_data i)) as [v4|] eqn:E4; [|exfalso; clear - HC; cbn in HC; destruct (integer (im_data i)); discriminate].
  destruct (f_skew (im_data i)) as [v5|] eqn:E5; [|exfalso; clear - HC; cbn in HC; destruct (integer (im_data i)); discriminate].
  destruct (f_kurt (im_data i)) as [v6|] eqn:E6; [|exfalso; clear - HC; cbn in HC; destruct (integer (im_data i)); discriminate].
  destruct (f_hist (im_data i)) as [v7|] eqn:E7; [|exfalso; clear - HC; cbn in HC; destruct (integer (im_data i)); discriminate].
  destruct (f_min (im_data i)) as [v8|] eqn:E8; [|exfalso; clear - HC; cbn in HC; destruct (integer (im_data i)); discriminate].
  destruct (f_max (im_data i)) as [v9|] eqn:E9; [|exfalso; clear - HC; cbn in HC; destruct (integer (im_data i)); discriminate].
  exists v1, v2, v3, v4, v5, v6, v8, v9. rewrite E1, E2, E3, E4, E5, E6, E8, E9. repeat (split; [reflexivity|]).
  destruct (integer (im_data i)); reflexivity.
Qed.

(** Arithmetic and ImageArray(..) start without statistics. *)
Theorem C71_reset : forall img pre o suf, (exists d, o = Arith d) \/ o = Wrapped -> Forall keeps suf ->
  im_attrs (run img (pre ++ o :: suf)) = unset /\ Forall (fun kv => snd kv = None) (describe (run img (pre ++ o :: suf))).
Proof.
  intros img pre o suf Ho F.
  assert (E : im_attrs (run img (pre ++ o :: suf)) = unset).
  { unfold StatModel.run. rewrite fold_left_app. cbn [fold_left]. pose proof (keeps_attrs suf F) as K. unfold StatModel.run in K. rewrite K.
    destruct Ho as [[d ->]| ->]; reflexivity. }
  split; [exact E|]. unfold describe. rewrite E. repeat constructor.
Qed.

(** The histogram of integer images is never stored. *)
Definition integer_op (o : @op D) : Prop := match o with Derived d | Changed d | Arith d => integer d = true | _ => True end.
Theorem C71_histogram : forall d ops, integer d = true -> Forall integer_op ops -> a_hist (im_attrs (run (new d) ops)) = None.
Proof.
  intros d ops Hd F.
  assert (G : forall img, integer (im_data img) = true -> a_hist (im_attrs img) = None -> a_hist (im_attrs (run img ops)) = None).
  { clear d Hd. induction F as [|o ops K F IH]; intros img Hi Ha; [exact Ha|]. unfold StatModel.run in *. cbn [fold_left]. apply IH.
    - destruct o; cbn; auto.
    - destruct o; try exact Ha; try reflexivity. cbn [step]. unfold StatModel.calculate. rewrite Hi. cbn [snd im_attrs].
      destruct (f_mean (im_data img)), (f_median (im_data img)), (f_var (im_data img)), (f_std (im_data img)), (f_skew (im_data img)), (f_kurt (im_data img)); try exact Ha.
      destruct (f_hist (im_data img)); try exact Ha. destruct (f_min (im_data img)); try exact Ha. destruct (f_max (im_data img)); exact Ha. }
  apply G; [exact Hd|reflexivity].
Qed.

(** For other images it is. *)
Theorem C71_float : forall img h, integer (im_data img) = false -> fst (calculate img) = Ok tt -> f_hist (im_data img) = Ok h ->
  a_hist (im_attrs (snd (calculate img))) = Some h.
Proof.
  intros img h Hi HC Hh. unfold StatModel.calculate in *. rewrite Hi, Hh in *. cbn [fst snd im_attrs] in *.
  destruct (f_mean (im_data img)), (f_median (im_data img)), (f_var (im_data img)), (f_std (im_data img)), (f_skew (im_data img)), (f_kurt (im_data img)); try discriminate.
  destruct (f_min (im_data img)); try discriminate. destruct (f_max (im_data img)); [reflexivity|discriminate].
Qed.

(** If the histogram cannot be made (its number of bins is the largest value of the element type), the
    report mixes new values with the old minimum and maximum. *)
Theorem C71_mixed : forall img m me va s sk k e,
  let d := im_data img in
  f_mean d = Ok m -> f_median d = Ok me -> f_var d = Ok va -> f_std d = Ok s -> f_skew d = Ok sk -> f_kurt d = Ok k ->
  f_hist d = Err e ->
  calculate img = (Err e, Image d (Attrs (Some m) (Some me) (Some va) (Some s) (Some sk) (Some k)
                                         (a_hist (im_attrs img)) (a_min (im_attrs img)) (a_max (im_attrs img)))).
Proof.
  intros img m me va s sk k e d E1 E2 E3 E4 E5 E6 E7. unfold StatModel.calculate. fold d. rewrite E1, E2, E3, E4, E5, E6, E7.
  destruct (integer d); reflexivity.
Qed.

(** The file written by describe: only with path and name; its name ends in .csv; the histogram is not in it. *)
Theorem C71_file : forall (img : @image D V H) path filename,
  (forall p f, path = Some p -> filename = Some f -> p <> [] -> f <> [] ->
     exists name, describe_file img path filename = Some (join p name, dkeys (describe img), dvals (describe img)) /\
       (name = f \/ name = f ++ lit ".csv") /\ ends_with (lower name) (lit ".csv") = true) /\
  (path = None \/ path = Some [] \/ filename = None \/ filename = Some [] -> describe_file img path filename = None) /\
  ~ In "histogram"%string (dkeys (describe img)).
Proof.
  intros img path filename. split; [|split].
  - intros p f -> -> Hp Hf. destruct p as [|a p]; [contradiction|]. destruct f as [|b f]; [contradiction|].
    exists (csv_name (b :: f)). split. { reflexivity. } unfold csv_name.
    destruct (ends_with (lower (b :: f)) (lit ".csv")) eqn:E; [auto|]. split; [auto|].
    unfold ends_with, lower. rewrite map_app, app_length, !map_length. cbn [length lit map].
    assert (L : length (lit ".csv") = 4) by reflexivity. 
    replace (length (map lower_chr (lit ".csv"))) with 4 by reflexivity.
    apply andb_true_iff. split; [apply Nat.leb_le; rewrite L; lia|].
    apply text_eqb_eq. rewrite L. rewrite skipn_app.
    rewrite skipn_all2 by (cbn [length]; rewrite map_length; lia).
    replace (_ - length _) with 0 by (cbn [length]; rewrite map_length; lia). reflexivity.
  - intros [->|[->|[->| ->]]]; [reflexivity|reflexivity| |]; destruct path as [[|]|]; reflexivity.
  - cbn. intros E. repeat destruct E as [E|E]; try discriminate. contradiction.
Qed.
End C71.

(** The report of a crop is not about the crop. *)
Theorem C71_stale_refuted : exists (integer : list R -> bool) (img : @image (list R) R unit) (crop : list R) m,
  let ok f := fun d : list R => Ok (f d) in
  let r := run integer (ok lmean) (ok lmean) (ok lmean) (ok lmean) (ok lmean) (ok lmean) (ok lmean) (ok lmean) (fun _ => Ok tt)
             img [Calculated; Derived crop] in
  (exists a b, im_data img = a ++ crop ++ b) /\ im_data r = crop /\ dget (describe r) "mean" = Some (Some m) /\ m <> lmean crop.
Proof.
  exists (fun _ => false), (new [0; 2]%R), [2%R], 1%R. cbv zeta. split; [exists [0%R], []; reflexivity|]. split; [reflexivity|]. split.
  - cbn. do 2 f_equal. unfold lmean, RealSums.Sum. cbn. lra.
  - unfold lmean, RealSums.Sum. cbn. lra.
Qed.
Print Assumptions C71_inherited.
Print Assumptions C71_history.
Print Assumptions C71_reset.
Print Assumptions C71_histogram.
Print Assumptions C71_float.
Print Assumptions C71_mixed.
Print Assumptions C71_file.
Print Assumptions C71_stale_refuted.

Example C71_ex : let f := fun d : nat => Ok d in
  describe (run (H:=unit) (fun _ => true) f f f f f f f f (fun _ => Ok tt) (new 5) [Calculated; Derived 6; Changed 7])
  = [("mean", Some 5); ("median", Some 5); ("variance", Some 5); ("standarddev", Some 5); ("skewness", Some 5);
     ("kurtosis", Some 5); ("minimum", Some 5); ("maximum", Some 5)]%string.
Proof. reflexivity. Qed.

(** ** C98: ImageArray.visualize *)

(** Colour images are handed to a function that refuses them. *)
Theorem C98_colour : forall A (img : arr A) h w slices, shp img = [h; w; 3] -> image_visualize img slices = Err ValueError.
Proof. intros A img h w slices S. unfold image_visualize, visualize_2d. rewrite S. reflexivity. Qed.

(** Planes are shown whatever slices are given; volumes need slices; everything else is refused. *)
Theorem C98_grey : forall A (img : arr A),
  (length (shp img) = 2 -> forall slices, image_visualize img slices = Ok [Panel img None None None None]) /\
  (length (shp img) = 3 -> last (shp img) 0 <> 3 ->
     image_visualize img None = Err ValueError /\ image_visualize img (Some []) = Err ValueError /\
     forall slices, slices <> [] -> image_visualize img (Some slices) = visualize_3d img slices) /\
  (length (shp img) <> 2 -> length (shp img) <> 3 -> forall slices, image_visualize img slices = Err ValueError).
Proof.
  intros A img. unfold image_visualize, visualize_2d. split; [|split].
  - intros L slices. rewrite L. reflexivity.
  - intros L N. rewrite L. apply Nat.eqb_neq in N. rewrite N. cbn [Nat.eqb andb negb]. split; [reflexivity|]. split; [reflexivity|].
    intros [|s l] E; [contradiction|reflexivity].
  - intros L2 L3 slices. apply Nat.eqb_neq in L2, L3. rewrite L2, L3. reflexivity.
Qed.

(** With valid slices a volume is shown, with the chosen voxel under the lines of all three panels. *)
Theorem C98_volume : forall A (img : arr A) nx ny nz x y z, wf img -> shp img = [nx; ny; nz] -> nz <> 3 ->
  x < nx -> y < ny -> z < nz ->
  exists ps, image_visualize img (Some [PInt (Z.of_nat x); PInt (Z.of_nat y); PInt (Z.of_nat z)]) = Ok ps /\ length ps = 3 /\
    Forall (fun p => exists h v, pl_h p = Some (Z.of_nat h) /\ pl_v p = Some (Z.of_nat v) /\ get (pl_img p) [h; v] = get img [x; y; z]) ps.
Proof.
  intros A img nx ny nz x y z W S N Hx Hy Hz. destruct (C98_grey A img) as (_ & G & _).
  destruct G as (_ & _ & G); [rewrite S; reflexivity|rewrite S; exact N|]. rewrite G by discriminate.
  destruct (C94_crosshair img nx ny nz W S x y z Hx Hy Hz) as (p0 & p1 & p2 & E & _ & _ & _ & F).
  exists [p0; p1; p2]. auto.
Qed.
Print Assumptions C98_colour.
Print Assumptions C98_grey.
Print Assumptions C98_volume.

Example C98_ex : image_visualize (Arr [1; 2; 3] [1; 2; 3; 4; 5; 6]) None = Err ValueError
  /\ image_visualize (Arr [2; 3] [1; 2; 3; 4; 5; 6]) None = Ok [Panel (Arr [2; 3] [1; 2; 3; 4; 5; 6]) None None None None].
Proof. split; reflexivity. Qed.
