(** Properties C08 and C14-C18: loading, cropping and pairing of images. *)
From Coq Require Import Reals Lra.
From Verif Require Import Base NdArray LoadModel LoadProofs NormModel NormProofs PairModel PairProofs.

(** C08 *)
Theorem C08_two_or_three_dims : forall disk ident ub img dr normalize batch roi out,
  load_data disk ident ub img dr normalize batch roi = Ok out ->
  outs out <> [] /\ forall o, In o (outs out) -> length (o_shape o) = 2 \/ length (o_shape o) = 3.
Proof. exact load_data_dims. Qed.
Print Assumptions C08_two_or_three_dims.

Theorem C08_passthrough : forall disk ident ub im dr,
  load_data disk ident ub (InArray im) dr false false [] =
  if (length (shape im) =? 2) || (length (shape im) =? 3) then Ok (LOne (NImg im))
  else Err ValueError.
Proof. exact load_data_passthrough. Qed.
Print Assumptions C08_passthrough.

Theorem C08_rejections : forall disk ident ub img dr normalize roi,
  load_data disk ident ub img dr normalize true roi = Err DeprecationError /\
  load_data disk ident ub img None true false roi = Err ValueError /\
  load_data disk ident ub InOther dr normalize false roi = Err ValueError /\
  (forall l, length l <> 1 ->
     load_data disk ident ub (InList l) dr normalize false roi = Err ValueError) /\
  (forall im, length (shape im) <> 2 -> length (shape im) <> 3 ->
     load_data disk ident ub (InArray im) dr normalize false roi = Err ValueError).
Proof.
  intros. split; [reflexivity|]. split; [reflexivity|].
  split; [unfold load_data; destruct normalize, dr; reflexivity|]. split.
  - intros l Hl. unfold load_data. destruct (normalize && _); [reflexivity|].
    destruct l as [|x [|y l]]; try reflexivity. contradiction.
  - intros im H2 H3. unfold load_data. destruct (normalize && _); [reflexivity|].
    rewrite check_dims_err by (unfold dims_ok; tauto). reflexivity.
Qed.
Print Assumptions C08_rejections.

(** data_range = 0 with normalize = True silently loads the image unnormalised. *)
Theorem C08_zero_range : forall disk ident ub im,
  length (shape im) = 2 \/ length (shape im) = 3 ->
  load_data disk ident ub (InArray im) (Some 0%Z) true false [] = Ok (LOne (NImg im)).
Proof.
  intros disk ident ub im H. unfold load_data. cbn [andb].
  rewrite (proj2 (check_dims_ok _) H). reflexivity.
Qed.
Print Assumptions C08_zero_range.

Theorem C08_normalise_before_crop : forall disk ident ub im hi roi,
  length (shape im) = 2 \/ length (shape im) = 3 -> (hi <> 0)%Z -> roi <> [] ->
  load_data disk ident ub (InArray im) (Some hi) true false roi =
  let* whole := normalize_data ident ub im 0 hi None in
  let* o := crop_roi whole roi in Ok (LOne o).
Proof. exact load_data_roi. Qed.
Print Assumptions C08_normalise_before_crop.

Theorem C08_roi_uses_whole_range : forall disk ident ub b a h w mn mx x0 x1 y0 y1,
  wf a -> shp a = [h; w] -> is_rmin mn (dat a) -> is_rmax mx (dat a) -> (mn < mx)%R ->
  x0 <= x1 -> y0 <= y1 -> x1 - x0 < h -> y1 - y0 < w ->
  exists c,
    load_data disk ident ub (InArray (Img (Float b) (PF a))) (Some 1%Z) true false
      [(Z.of_nat x0, Z.of_nat x1); (Z.of_nat y0, Z.of_nat y1)]
    = Ok (LOne (NImg (Img (Float 32) (PF c)))) /\
    forall i j v, get c [i; j] = Some v ->
      exists v0, get a [x0 + i; y0 + j] = Some v0 /\ v = ((v0 - mn) / (mx - mn))%R.
Proof. exact load_data_roi_pixels. Qed.
Print Assumptions C08_roi_uses_whole_range.

(** Hence loading with a ROI is not the same as loading the cropped image. *)
Theorem C08_crop_first_refuted : exists a roi cropped,
  crop_roi (NImg (Img (Float 64) (PF a))) roi = Ok (NImg cropped) /\
  forall disk ident ub,
    load_data disk ident ub (InArray (Img (Float 64) (PF a))) (Some 1%Z) true false roi
    <> load_data disk ident ub (InArray cropped) (Some 1%Z) true false [].
Proof.
  pose (a := Arr [3; 2] [0; 1; 2; 3; 4; 5]%R).
  exists a, [(1, 3); (0, 1)]%Z.
  assert (Hmin : is_rmin 0 (dat a)). { split; [simpl; auto|]. intros x H. simpl in H. intuition lra. }
  assert (Hmax : is_rmax 5 (dat a)).
  { split; [simpl; auto 10|]. intros x H. simpl in H. intuition lra. }
  eexists. split; [reflexivity|]. intros disk ident ub.
  rewrite load_data_roi; [|left; reflexivity|lia|discriminate].
  rewrite (normalize_real_unit ident ub 64 a 0 5) by (try assumption; lra).
  unfold load_data, prepare. cbn [shape px px_shape shp check_dims raise_if length Nat.ltb Nat.leb orb bind andb
                        negb Z.eqb].
  rewrite (normalize_real_unit ident ub 64 _ 2 4).
  - intros H. injection H as H1 _. unfold linear in H1. simpl in H1. lra.
  - split; [simpl; auto|]. intros x H. simpl in H. intuition lra.
  - split; [simpl; auto|]. intros x H. simpl in H. intuition lra.
  - lra.
Qed.
Print Assumptions C08_crop_first_refuted.

Example C08_example :
  load_data (fun _ => Err ValueError) Z.eqb (fun _ => 0%Z)
    (InArray (Img (UInt 8) (PI (Arr [3; 3] [1; 2; 3; 4; 5; 6; 7; 8; 9]%Z)))) None false false
    [(0, 2); (1, 3)]%Z
  = Ok (LOne (NImg (Img (UInt 8) (PI (Arr [2; 2] [2; 3; 5; 6]%Z))))).
Proof. reflexivity. Qed.

(** C14 *)
Theorem C14_contents_2d : forall A (a : arr A) h w x0 x1 y0 y1 z,
  wf a -> shp a = [h; w] -> x0 <= x1 <= h -> y0 <= y1 <= w -> x1 - x0 < h -> y1 - y0 < w ->
  exists c,
    crop_image a (Z.of_nat x0, Z.of_nat x1) (Z.of_nat y0, Z.of_nat y1) z = Ok c /\ wf c /\
    shp c = [x1 - x0; y1 - y0] /\
    forall i j, i < x1 - x0 -> j < y1 - y0 -> get c [i; j] = get a [x0 + i; y0 + j].
Proof.
  intros A a h w x0 x1 y0 y1 z Hwf Hs Hx Hy Lx Ly.
  destruct (crop_2d a h w x0 x1 y0 y1 z) as (c & Hc & Hw & Hsc & Hg); try assumption; try lia.
  rewrite !Nat.min_l in Hsc by lia. exists c. do 3 (split; [assumption|]).
  intros i j Hi Hj. apply Hg. rewrite Hsc. inb_goal.
Qed.
Print Assumptions C14_contents_2d.

Theorem C14_contents_3d : forall A (a : arr A) h w d x0 x1 y0 y1 z0 z1,
  wf a -> shp a = [h; w; d] -> d <> 3 -> x0 <= x1 <= h -> y0 <= y1 <= w -> z0 <= z1 <= d ->
  x1 - x0 < h -> y1 - y0 < w -> z1 - z0 < d ->
  exists c,
    crop_image a (Z.of_nat x0, Z.of_nat x1) (Z.of_nat y0, Z.of_nat y1)
               (Some (Z.of_nat z0, Z.of_nat z1)) = Ok c /\ wf c /\
    shp c = [x1 - x0; y1 - y0; z1 - z0] /\
    forall i j k, i < x1 - x0 -> j < y1 - y0 -> k < z1 - z0 ->
      get c [i; j; k] = get a [x0 + i; y0 + j; z0 + k].
Proof.
  intros A a h w d x0 x1 y0 y1 z0 z1 Hwf Hs Hd Hx Hy Hz Lx Ly Lz.
  destruct (crop_3d a h w d x0 x1 y0 y1 z0 z1) as (c & Hc & Hw & Hsc & Hg); try assumption; try lia.
  rewrite !Nat.min_l in Hsc by lia. exists c. do 3 (split; [assumption|]).
  intros i j k Hi Hj Hk. apply Hg. rewrite Hsc. inb_goal.
Qed.
Print Assumptions C14_contents_3d.

(** Bounds beyond the image are clipped, without an error. *)
Theorem C14_clipping_2d : forall A (a : arr A) h w x0 x1 y0 y1 z,
  wf a -> shp a = [h; w] -> x0 <= x1 -> y0 <= y1 -> x1 - x0 < h -> y1 - y0 < w ->
  exists c,
    crop_image a (Z.of_nat x0, Z.of_nat x1) (Z.of_nat y0, Z.of_nat y1) z = Ok c /\ wf c /\
    shp c = [Nat.min x1 h - Nat.min x0 h; Nat.min y1 w - Nat.min y0 w] /\
    forall i j, inb (shp c) [i; j] = true -> get c [i; j] = get a [x0 + i; y0 + j].
Proof. exact @crop_2d. Qed.
Print Assumptions C14_clipping_2d.

Theorem C14_clipping_3d : forall A (a : arr A) h w d x0 x1 y0 y1 z0 z1,
  wf a -> shp a = [h; w; d] -> d <> 3 -> x0 <= x1 -> y0 <= y1 -> z0 <= z1 ->
  x1 - x0 < h -> y1 - y0 < w -> z1 - z0 < d ->
  exists c,
    crop_image a (Z.of_nat x0, Z.of_nat x1) (Z.of_nat y0, Z.of_nat y1)
               (Some (Z.of_nat z0, Z.of_nat z1)) = Ok c /\ wf c /\
    shp c = [Nat.min x1 h - Nat.min x0 h; Nat.min y1 w - Nat.min y0 w; Nat.min z1 d - Nat.min z0 d] /\
    forall i j k, inb (shp c) [i; j; k] = true -> get c [i; j; k] = get a [x0 + i; y0 + j; z0 + k].
Proof. exact @crop_3d. Qed.
Print Assumptions C14_clipping_3d.

(** Negative bounds count from the end. *)
Theorem C14_from_the_end_2d : forall A (a : arr A) h w x0 x1 y0 y1 z,
  wf a -> shp a = [h; w] -> 0 < x1 <= x0 -> x0 <= h -> 0 < y1 <= y0 -> y0 <= w ->
  exists c,
    crop_image a (- Z.of_nat x0, - Z.of_nat x1)%Z (- Z.of_nat y0, - Z.of_nat y1)%Z z = Ok c /\ wf c /\
    shp c = [x0 - x1; y0 - y1] /\
    forall i j, i < x0 - x1 -> j < y0 - y1 -> get c [i; j] = get a [h - x0 + i; w - y0 + j].
Proof.
  intros A a h w x0 x1 y0 y1 z Hwf Hs Hx Lx Hy Ly.
  destruct (crop_smaller a (- Z.of_nat x0, - Z.of_nat x1)%Z (- Z.of_nat y0, - Z.of_nat y1)%Z z
             [(- Z.of_nat x0, - Z.of_nat x1); (- Z.of_nat y0, - Z.of_nat y1)]%Z Hwf) as (c & Hc & Hw & Hc' & Hg).
  - unfold ranges. rewrite Hs. reflexivity.
  - rewrite Hs. unfold smaller, extent. repeat constructor; simpl; lia.
  - rewrite Hs in *. exists c. cbn [slice_shape fst snd] in Hc'. rewrite !clip_neg in Hc' by lia.
    assert (E : shp c = [x0 - x1; y0 - y1]) by (rewrite Hc'; f_equal; [lia|f_equal; lia]).
    split; [exact Hc|]. split; [exact Hw|]. split; [exact E|].
    intros i j Hi Hj. rewrite Hg.
    + cbn [slice_index fst snd]. rewrite !clip_neg by lia. f_equal. f_equal; [lia|f_equal; lia].
    + rewrite E. cbn [inb]. rewrite !(proj2 (Nat.ltb_lt _ _)) by assumption. reflexivity.
Qed.
Print Assumptions C14_from_the_end_2d.

Theorem C14_from_the_end_3d : forall A (a : arr A) h w d x0 x1 y0 y1 z0 z1,
  wf a -> shp a = [h; w; d] -> d <> 3 -> 0 < x1 <= x0 -> x0 <= h -> 0 < y1 <= y0 -> y0 <= w -> 0 < z1 <= z0 -> z0 <= d ->
  exists c,
    crop_image a (- Z.of_nat x0, - Z.of_nat x1)%Z (- Z.of_nat y0, - Z.of_nat y1)%Z (Some (- Z.of_nat z0, - Z.of_nat z1)%Z) = Ok c /\ wf c /\
    shp c = [x0 - x1; y0 - y1; z0 - z1] /\
    forall i j k, i < x0 - x1 -> j < y0 - y1 -> k < z0 - z1 -> get c [i; j; k] = get a [h - x0 + i; w - y0 + j; d - z0 + k].
Proof.
  intros A a h w d x0 x1 y0 y1 z0 z1 Hwf Hs Hd Hx Lx Hy Ly Hz Lz.
  destruct (crop_smaller a (- Z.of_nat x0, - Z.of_nat x1)%Z (- Z.of_nat y0, - Z.of_nat y1)%Z (Some (- Z.of_nat z0, - Z.of_nat z1)%Z)
             [(- Z.of_nat x0, - Z.of_nat x1); (- Z.of_nat y0, - Z.of_nat y1); (- Z.of_nat z0, - Z.of_nat z1)]%Z Hwf) as (c & Hc & Hw & Hc' & Hg).
  - unfold ranges, is_colour. rewrite Hs. cbn [length Nat.eqb last orb andb]. destruct (Nat.eqb_spec d 3); [contradiction|reflexivity].
  - rewrite Hs. unfold smaller, extent. repeat constructor; simpl; lia.
  - rewrite Hs in *. exists c. cbn [slice_shape fst snd] in Hc'. rewrite !clip_neg in Hc' by lia.
    assert (E : shp c = [x0 - x1; y0 - y1; z0 - z1]) by (rewrite Hc'; f_equal; [lia|f_equal; [lia|f_equal; lia]]).
    split; [exact Hc|]. split; [exact Hw|]. split; [exact E|].
    intros i j k Hi Hj Hk. rewrite Hg.
    + cbn [slice_index fst snd]. rewrite !clip_neg by lia. f_equal. f_equal; [lia|f_equal; [lia|f_equal; lia]].
    + rewrite E. cbn [inb]. rewrite !(proj2 (Nat.ltb_lt _ _)) by assumption. reflexivity.
Qed.
Print Assumptions C14_from_the_end_3d.

(** The same box when a volume is loaded with a region of interest. *)
Theorem C14_loaded_3d : forall disk ident ub dr (dt : dtype) (a : arr Z) h w d x0 x1 y0 y1 z0 z1,
  wf a -> shp a = [h; w; d] -> d <> 3 -> x0 <= x1 <= h -> y0 <= y1 <= w -> z0 <= z1 <= d ->
  x1 - x0 < h -> y1 - y0 < w -> z1 - z0 < d ->
  exists c,
    load_data disk ident ub (InArray (Img dt (PI a))) dr false false
      [(Z.of_nat x0, Z.of_nat x1); (Z.of_nat y0, Z.of_nat y1); (Z.of_nat z0, Z.of_nat z1)] = Ok (LOne (NImg (Img dt (PI c)))) /\
    shp c = [x1 - x0; y1 - y0; z1 - z0] /\
    forall i j k, i < x1 - x0 -> j < y1 - y0 -> k < z1 - z0 -> get c [i; j; k] = get a [x0 + i; y0 + j; z0 + k].
Proof.
  intros disk ident ub dr dt a h w d x0 x1 y0 y1 z0 z1 Hwf Hs Hd Hx Hy Hz Lx Ly Lz.
  destruct (C14_contents_3d Z a h w d x0 x1 y0 y1 z0 z1 Hwf Hs Hd Hx Hy Hz Lx Ly Lz) as (c & Hc & _ & Sc & Gc).
  exists c. split; [|split; [exact Sc|exact Gc]]. unfold load_data. cbn [andb shape px px_shape]. unfold check_dims. rewrite Hs. cbn [length Nat.ltb Nat.leb orb raise_if bind].
  unfold prepare. cbn [andb]. assert (E : match dr with Some _ => Ok (NImg (Img dt (PI a))) | None => Ok (NImg (Img dt (PI a))) end = Ok (NImg (Img dt (PI a)))) by (destruct dr; reflexivity).
  rewrite E. cbn [bind crop_roi crop_out]. rewrite Hc. reflexivity.
Qed.
Print Assumptions C14_loaded_3d.


Example C14_example :
  crop_image (Arr [3; 4] [1; 2; 3; 4; 5; 6; 7; 8; 9; 10; 11; 12]) (1, 3)%Z (3, 6)%Z None
  = Ok (Arr [2; 1] [8; 12]) /\
  crop_image (Arr [3; 4] [1; 2; 3; 4; 5; 6; 7; 8; 9; 10; 11; 12]) (7, 8)%Z (0, 2)%Z None
  = Ok (Arr [0; 2] []).
Proof. split; reflexivity. Qed.

(** C15. [smaller]/[same_extent] compare the extents x1-x0, ... with the image axis by axis. *)
Theorem C15_acceptance : forall A (a : arr A) x y z r,
  wf a -> ranges (shp a) x y z = Some r ->
  ((exists c, crop_image a x y z = Ok c) <-> smaller (shp a) r \/ same_extent (shp a) r) /\
  (~ smaller (shp a) r -> ~ same_extent (shp a) r -> crop_image a x y z = Err ValueError).
Proof.
  intros A a x y z r Hwf Hr. split; [split|].
  - intros [c Hc].
    destruct (crop_image_cases a x y z r Hr) as [[H _]|[(_ & H & _)|(_ & _ & E)]]; auto.
    rewrite E in Hc. discriminate.
  - intros [H|H].
    + destruct (crop_smaller a x y z r Hwf Hr H) as (c & Hc & _). eauto.
    + destruct (crop_image_cases a x y z r Hr) as [[Hs E]|[(_ & _ & E)|(_ & Hn & _)]].
      * destruct (crop_smaller a x y z r Hwf Hr Hs) as (c & Hc & _). eauto.
      * eauto.
      * contradiction.
  - intros H1 H2.
    destruct (crop_image_cases a x y z r Hr) as [[H _]|[(_ & H & _)|(_ & _ & E)]]; auto; contradiction.
Qed.
Print Assumptions C15_acceptance.

Theorem C15_keeping_an_axis_rejected : forall A (a : arr A) h w x y z,
  shp a = [h; w] ->
  (extent x = Z.of_nat h /\ extent y < Z.of_nat w \/
   extent x < Z.of_nat h /\ extent y = Z.of_nat w)%Z ->
  crop_image a x y z = Err ValueError.
Proof.
  intros A a h w x y z Hs H.
  destruct (crop_image_cases a x y z [x; y]) as [[H1 _]|[(_ & H1 & _)|(_ & _ & E)]];
    [unfold ranges; rewrite Hs; reflexivity| | |exact E]; rewrite Hs in H1;
    inversion H1 as [|? ? ? ? Hx H2]; subst; inversion H2 as [|? ? ? ? Hy]; subst; lia.
Qed.
Print Assumptions C15_keeping_an_axis_rejected.

Theorem C15_offsets_ignored : forall A (a : arr A) x y z r,
  ranges (shp a) x y z = Some r -> same_extent (shp a) r ->
  crop_image a x y z = Ok a.
Proof.
  intros A a x y z r Hr He.
  destruct (crop_image_cases a x y z r Hr) as [[H _]|[(_ & _ & E)|(_ & H & _)]];
    [|exact E|contradiction].
  exfalso. destruct (crop_ranges a x y z r Hr) as [_ Hl].
  destruct He; [|inversion H; subst; lia]. unfold ranges in Hr. inversion H; subst.
  destruct z; discriminate.
Qed.
Print Assumptions C15_offsets_ignored.

(** A crop request whose region lies outside the image returns the whole image. *)
Example C15_example :
  let a := Arr [2; 3] [1; 2; 3; 4; 5; 6] in
  crop_image a (10, 12)%Z (20, 23)%Z None = Ok a /\
  crop_image a (0, 2)%Z (0, 2)%Z None = Err ValueError /\
  crop_image a (0, 1)%Z (0, 2)%Z None = Ok (Arr [1; 2] [1; 2]).
Proof. repeat split. Qed.

(** C16 *)
Theorem C16_colour_crop_fails : forall A (a : arr A) h w x y z,
  shp a = [h; w; 3] -> crop_image a x y z = Err ValueError.
Proof.
  intros A a h w x y z Hs. apply crop_no_ranges. unfold ranges. rewrite Hs. destruct z; reflexivity.
Qed.
Print Assumptions C16_colour_crop_fails.

Example C16_example :
  crop_image (tabulate [4; 4; 3] (fun _ => 7)) (0, 2)%Z (0, 2)%Z (Some (0, 2)%Z) = Err ValueError /\
  is_ok (crop_image (tabulate [4; 4; 4] (fun _ => 7)) (0, 2)%Z (0, 2)%Z (Some (0, 2)%Z)) = true.
Proof. split; reflexivity. Qed.

(** C17 *)
Theorem C17_agreement : forall disk ident ub img_r img_m dr normalize roi chromatic r m,
  check_imgs disk ident ub img_r img_m dr normalize roi chromatic = Ok (r, m) ->
  o_type r = o_type m /\ o_shape r = o_shape m.
Proof.
  intros disk ident ub img_r img_m dr normalize roi chromatic r m H. unfold check_imgs in H.
  apply bind_ok in H as (lr & _ & H). apply bind_ok in H as (lm & _ & H).
  apply (check_agree _ _ _ _ _ H).
Qed.
Print Assumptions C17_agreement.

Theorem C17_mismatch_rejected : forall disk ident ub img_r img_m dr normalize roi chromatic r m,
  load_data disk ident ub img_r dr normalize false roi = Ok (LOne r) ->
  load_data disk ident ub img_m dr normalize false roi = Ok (LOne m) ->
  o_type r <> o_type m \/ o_shape r <> o_shape m ->
  check_imgs disk ident ub img_r img_m dr normalize roi chromatic = Err ValueError.
Proof.
  intros disk ident ub img_r img_m dr normalize roi chromatic r m Hr Hm H. unfold check_imgs.
  rewrite Hr, Hm. cbn [bind check_loaded].
  destruct (dtype_eqb _ _) eqn:Et; [|reflexivity]. destruct (shape_eqb _ _) eqn:Es; [|reflexivity].
  apply dtype_eqb_eq in Et. apply shape_eqb_eq in Es. tauto.
Qed.
Print Assumptions C17_mismatch_rejected.

Theorem C17_lists_rejected : forall disk ident ub l img dr normalize roi chromatic r m,
  check_imgs disk ident ub (InList l) img dr normalize roi chromatic <> Ok (r, m) /\
  check_imgs disk ident ub img (InList l) dr normalize roi chromatic <> Ok (r, m).
Proof.
  intros disk ident ub l img dr normalize roi chromatic r m.
  assert (K : forall out, load_data disk ident ub (InList l) dr normalize false roi = Ok out ->
              exists os, out = LMany os).
  { intros out H. unfold load_data in H. destruct (normalize && _); [discriminate|].
    destruct l as [|im [|im' l]]; try discriminate.
    apply bind_ok in H as (? & _ & H). apply bind_ok in H as (o & _ & H). injection H as <-. eauto. }
  split; intros H; unfold check_imgs in H; apply bind_ok in H as (lr & Hr & H);
    apply bind_ok in H as (lm & Hm & H); apply check_loaded_ok in H as (r0 & m0 & E1 & E2 & _).
  - destruct (K _ Hr) as [os E]. congruence.
  - destruct (K _ Hm) as [os E]. congruence.
Qed.
Print Assumptions C17_lists_rejected.

Theorem C17_chromatic : forall disk ident ub img_r img_m dr normalize roi r m,
  check_imgs disk ident ub img_r img_m dr normalize roi true = Ok (r, m) ->
  last (o_shape r) 0 = 3 /\
  load_data disk ident ub img_r dr normalize false roi = Ok (LOne r) /\
  load_data disk ident ub img_m dr normalize false roi = Ok (LOne m).
Proof.
  intros disk ident ub img_r img_m dr normalize roi r m H. unfold check_imgs in H.
  apply bind_ok in H as (lr & Hr & H). apply bind_ok in H as (lm & Hm & H).
  apply check_loaded_ok in H as (r0 & m0 & -> & -> & _ & _ & [(H & _)|(H & -> & ->)]); [discriminate|].
  split; [apply H; reflexivity|auto].
Qed.
Print Assumptions C17_chromatic.

Example C17_example :
  let im v := Img (UInt 8) (PI (Arr [2; 2] [v; 2; 3; 4]%Z)) in
  check_imgs (fun _ => Err ValueError) Z.eqb (fun _ => 0%Z) (InArray (im 1%Z)) (InArray (im 9%Z))
    None false [] false = Ok (NImg (im 1%Z), NImg (im 9%Z)) /\
  check_imgs (fun _ => Err ValueError) Z.eqb (fun _ => 0%Z) (InArray (im 1%Z)) (InArray (im 9%Z))
    None false [] true = Err ValueError /\
  check_imgs (fun _ => Err ValueError) Z.eqb (fun _ => 0%Z) (InList [im 1%Z]) (InList [im 1%Z])
    None false [] false = Err ValueError.
Proof. repeat split. Qed.

(** C18 *)
Theorem C18_last_axis_dropped : forall disk ident ub ra ma d s dr,
  wf (to_float (px ra)) -> wf (to_float (px ma)) ->
  dt ra = d -> dt ma = d -> shape ra = s ++ [3] -> shape ma = s ++ [3] ->
  length s = 1 \/ length s = 2 ->
  exists gr gm,
    check_imgs disk ident ub (InArray ra) (InArray ma) dr false [] false
    = Ok (NImg (Img (float_type d) (PF gr)), NImg (Img (float_type d) (PF gm))) /\
    shp gr = s /\ shp gm = s /\
    forall idx, inb s idx = true ->
      (exists r g b, get (to_float (px ra)) (idx ++ [0]) = Some r /\
                     get (to_float (px ra)) (idx ++ [1]) = Some g /\
                     get (to_float (px ra)) (idx ++ [2]) = Some b /\
                     get gr idx = Some (clip255 (luma r g b))) /\
      (exists r g b, get (to_float (px ma)) (idx ++ [0]) = Some r /\
                     get (to_float (px ma)) (idx ++ [1]) = Some g /\
                     get (to_float (px ma)) (idx ++ [2]) = Some b /\
                     get gm idx = Some (clip255 (luma r g b))).
Proof.
  intros disk ident ub ra ma d s dr Wr Wm Tr Tm Sr Sm Hl.
  assert (D : dims_ok (s ++ [3])) by (unfold dims_ok; rewrite app_length; simpl; lia).
  unfold check_imgs. rewrite !load_data_passthrough, Sr, Sm.
  assert (E : (length (s ++ [3]) =? 2) || (length (s ++ [3]) =? 3) = true).
  { destruct D as [-> | ->]; reflexivity. }
  rewrite E. cbn [bind check_loaded o_type o_shape]. rewrite Tr, Tm, Sr, Sm.
  rewrite (proj2 (dtype_eqb_eq d d) eq_refl), (proj2 (shape_eqb_eq _ _) eq_refl), last_last.
  cbn [negb andb Nat.eqb gray_out].
  destruct (to_grayscale_ok (to_float (px ra)) s Wr) as (gr & -> & _ & Hsr & Hgr);
    [rewrite to_float_shape; exact Sr|].
  destruct (to_grayscale_ok (to_float (px ma)) s Wm) as (gm & -> & _ & Hsm & Hgm);
    [rewrite to_float_shape; exact Sm|].
  cbn [bind]. rewrite Tr, Tm. exists gr, gm. auto 6.
Qed.
Print Assumptions C18_last_axis_dropped.

Theorem C18_gray_value : forall r g b,
  (Rmin r (Rmin g b) <= luma r g b <= Rmax r (Rmax g b))%R /\
  luma r r r = r /\
  (luma r g b <= 255 -> clip255 (luma r g b) = luma r g b)%R /\
  (255 < luma r g b -> clip255 (luma r g b) = 255)%R.
Proof.
  intros r g b. split; [apply luma_between|]. split; [apply luma_grey|]. apply clip255_spec.
Qed.
Print Assumptions C18_gray_value.

(** A genuine volume of depth 3 becomes a 2D image; 16-bit colour saturates. *)
Example C18_example : exists g,
  check_imgs (fun _ => Err ValueError) Z.eqb (fun _ => 0%Z)
    (InArray (Img (UInt 16) (PI (Arr [1; 2; 3] [1000; 1000; 1000; 7; 7; 7]%Z))))
    (InArray (Img (UInt 16) (PI (Arr [1; 2; 3] [1000; 1000; 1000; 7; 7; 7]%Z))))
    None false [] false = Ok (g, g) /\
  g = NImg (Img (Float 64) (PF (Arr [1; 2] [255; 7]%R))).
Proof.
  eexists. split; [|reflexivity].
  unfold check_imgs. rewrite load_data_passthrough.
  cbn [shape px px_shape shp length Nat.eqb orb bind check_loaded o_type o_shape dt dtype_eqb negb].
  replace (shape_eqb [1; 2; 3] [1; 2; 3]) with true by reflexivity.
  cbn [negb andb last Nat.eqb gray_out px to_float dt float_type].
  unfold to_grayscale, amap.
  cbn [shp dat removelast indices seq flat_map map app mapM get inb ravel size from_opt bind
       Nat.ltb Nat.leb andb Nat.mul Nat.add nth_error].
  rewrite !luma_grey. unfold clip255.
  destruct (Rlt_dec 255 1000); [|lra]. destruct (Rlt_dec 255 7); [lra|]. reflexivity.
Qed.
