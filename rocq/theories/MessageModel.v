(** Model of the texts of the exceptions: load_data, normalize_data, crop_image and _check_imgs
    (src/viqa/utils/loading.py), the constructors, the start of the score methods of the slice-wise
    metrics, the checks of structural_similarity (ssim.py 303-341), most_apparent_distortion
    (mad.py 493-506) and its two indices (mad.py 573-577, 742-745), contrast_to_noise_ratio
    (cnr.py 796-835) and signal_to_noise_ratio (snr.py 1019-1095). No proofs here.

    The text is None for exceptions raised by a library or by functions not named above. *)
From Coq Require Import Reals String.
From Verif Require Import Base NdArray LoadModel NormModel PairModel MetricModel SliceModel SsimModel
  MadModel RegionModel NrModel PrintModel BatchModel WarnModel.

Inductive said (A : Type) := Good (a : A) | Fail (e : exn) (msg : option string).
Arguments Good {A} a.
Arguments Fail {A} e msg.

Definition sbind {A B} (m : said A) (k : A -> said B) : said B :=
  match m with Good a => k a | Fail e t => Fail e t end.
Notation "'let+' x ':=' m 'in' k" := (sbind m (fun x => k))
  (at level 200, x pattern, m at level 100, k at level 200).
(** The exception class alone. *)
Definition unsaid {A} (m : said A) : res A := match m with Good a => Ok a | Fail e _ => Err e end.
Definition lift {A} (r : res A) : said A := match r with Ok a => Good a | Err e => Fail e None end.
Definition fail_if (b : bool) (e : exn) (t : string) : said unit := if b then Fail e (Some t) else Good tt.

(** ** loading.py *)

Definition msg_batch : string := "Batch loading is deprecated and will be removed in vIQA 4.0.x.".
Definition msg_range : string := "Parameter data_range must be set if normalize is True.".
Definition msg_input : string := "Input type not supported".
Definition msg_type : string := "Data type not supported".
Definition msg_auto : string := "If automatic_data_range is False, data_range_input must be set.".
Definition msg_output : string :=
  "Data range not supported. Please use (0, 1), (0, 255) or (0, 65535) as data_range_output.".
Definition msg_crop : string := "Cropped image shape must be smaller than original image.".
Definition msg_crop_ndim : string := "Image must be 2D or 3D.".
Definition msg_types : string := "Image types do not match".
Definition msg_shapes : string := "Image shapes do not match".
(** Lines 978-982 and 986-989: the f in front of the text is missing. *)
Definition msg_kinds : string :=
  "Image types do not match. img_r is of type {type(img_r_loaded)} and img_m is of type {type(img_m_loaded)}".
Definition msg_numbers : string :=
  "Number of images do not match. img_r has {len(img_r_loaded)} images and img_m has {len(img_m_loaded)} images".
Definition msg_grey : string := "Images are not chromatic.".

(** Lines 751-755, and 744-749 for the images of a list. *)
Definition dims_text (n : nat) : string :=
  ("Number of dimensions of input image should be 2 or 3, got " ++ show n)%string.
Definition check_dims_m (s : list nat) : said unit :=
  fail_if ((3 <? length s) || (length s <? 2)) ValueError (dims_text (length s) ++ ".").
Definition check_dims_list_m (k : nat) (s : list nat) : said unit :=
  fail_if ((3 <? length s) || (length s <? 2)) ValueError
    (dims_text (length s) ++ " for image number " ++ show k ++ " in img_arr.").

(** normalize_data, 842-889 *)
Definition known_range (lo hi : Z) : bool :=
  (lo =? 0)%Z && ((hi =? 255) || (hi =? 65535) || (hi =? 1))%Z.
Definition finish_m (lo hi : Z) (o : res norm_out) : said norm_out :=
  if known_range lo hi then lift o else Fail ValueError (Some msg_output).
Definition normalize_m (ident : identity) (ub : R -> Z) (im : image) (lo hi : Z)
    (auto : option (option (Z * Z))) : said norm_out :=
  match dt im with
  | OtherType => Fail ValueError (Some msg_type)
  | d =>
    if already_normalised ident d lo hi then Good (NImg im)
    else
      match px im with
      | PI a =>
          let+ (mn, span) :=
            match auto with
            | None => lift (let* mn := zmin (dat a) in let* mx := zmax (dat a) in
                            Ok (mn, wrap d (mx - mn)))
            | Some None => Fail ValueError (Some msg_auto)
            | Some (Some r) => Good (fst r, snd r - fst r)%Z
            end in
          finish_m lo hi
            (if (span =? 0)%Z then finish_nan lo hi (shp a)
             else finish ub lo hi (shp a) (map (stretch_int d lo hi mn span) (dat a)))
      | PF a =>
          let+ (mn, mx) :=
            match auto with
            | None => lift (let* mn := rmin (dat a) in let* mx := rmax (dat a) in Ok (mn, mx))
            | Some None => Fail ValueError (Some msg_auto)
            | Some (Some r) => Good (IZR (fst r), IZR (snd r))
            end in
          finish_m lo hi
            (if Req_EM_T mx mn then finish_nan lo hi (shp a)
             else finish ub lo hi (shp a) (map (stretch_real lo hi mn mx) (dat a)))
      end
  end.

(** crop_image, 928-955 *)
Definition crop_checked_m {A} (a : arr A) (r : list (Z * Z)) : said (arr A) :=
  let cs := map extent r in
  let s := map Z.of_nat (shp a) in
  let+ lt := lift (vec_all Z.ltb cs s) in
  if lt then lift (slice a r)
  else
    let+ eq := lift (vec_all Z.eqb cs s) in
    if eq then Good a else Fail ValueError (Some msg_crop).
Definition crop_image_m {A} (a : arr A) (x y : Z * Z) (z : option (Z * Z)) : said (arr A) :=
  if (length (shp a) =? 2) || is_colour (shp a) then crop_checked_m a [x; y]
  else if length (shp a) =? 3 then
    match z with
    | Some z => crop_checked_m a [x; y; z]
    | None => Fail ValueError (Some msg_crop_ndim)
    end
  else Fail ValueError (Some msg_crop_ndim).
Definition crop_out_m (o : norm_out) (x y : Z * Z) (z : option (Z * Z)) : said norm_out :=
  match o with
  | NImg (Img d (PI a)) => let+ c := crop_image_m a x y z in Good (NImg (Img d (PI c)))
  | NImg (Img d (PF a)) => let+ c := crop_image_m a x y z in Good (NImg (Img d (PF c)))
  | NNan d s => let+ c := crop_image_m (tabulate s (fun _ => tt)) x y z in Good (NNan d (shp c))
  end.
Definition crop_roi_m (o : norm_out) (roi : list (Z * Z)) : said norm_out :=
  match roi with
  | [x; y] => crop_out_m o x y None
  | [x; y; z] => crop_out_m o x y (Some z)
  | _ => Fail TypeError None
  end.

(** load_data, 688-785 *)
Definition prepare_m (ident : identity) (ub : R -> Z) (normalize : bool) (data_range : option Z)
    (roi : list (Z * Z)) (im : image) : said norm_out :=
  let+ o :=
    match data_range with
    | Some hi => if normalize && negb (hi =? 0)%Z
                 then normalize_m ident ub im 0 hi None else Good (NImg im)
    | None => Good (NImg im)
    end in
  match roi with [] => Good o | _ => crop_roi_m o roi end.

Definition load_data_m (disk : text -> said image) (ident : identity) (ub : R -> Z) (img : input)
    (data_range : option Z) (normalize batch : bool) (roi : list (Z * Z)) : said loaded :=
  if batch then Fail DeprecationError (Some msg_batch)
  else if normalize && match data_range with None => true | _ => false end
  then Fail ValueError (Some msg_range)
  else
    match img with
    | InPath name =>
        let+ im := disk name in
        let+ _ := check_dims_m (shape im) in
        let+ o := prepare_m ident ub normalize data_range roi im in Good (LOne o)
    | InArray im =>
        let+ _ := check_dims_m (shape im) in
        let+ o := prepare_m ident ub normalize data_range roi im in Good (LOne o)
    | InList [im] =>
        let+ _ := check_dims_list_m 0 (shape im) in
        let+ o := prepare_m ident ub normalize data_range roi im in Good (LMany [o])
    | _ => Fail ValueError (Some msg_input)
    end.

(** _check_imgs, 958-1011. Lines 990-997: the loop over the pairs stops at the first pair, because an
    element type never equals a shape; load_data gives no empty lists. *)
Definition check_loaded_m (r m : loaded) (chromatic : bool) : said (norm_out * norm_out) :=
  match r, m with
  | LOne r, LOne m =>
      if negb (dtype_eqb (o_type r) (o_type m)) then Fail ValueError (Some msg_types)
      else if negb (shape_eqb (o_shape r) (o_shape m)) then Fail ValueError (Some msg_shapes)
      else if negb chromatic && (last (o_shape r) 0 =? 3) then
        lift (let* r' := gray_out r in let* m' := gray_out m in Ok (r', m'))
      else if chromatic && negb (last (o_shape r) 0 =? 3) then Fail ValueError (Some msg_grey)
      else Good (r, m)
  | LMany lr, LMany lm =>
      if negb (length lr =? length lm) then Fail ValueError (Some msg_numbers)
      else match lr, lm with
           | a :: _, b :: _ => Fail ValueError (Some (if dtype_eqb (o_type a) (o_type b) then msg_shapes else msg_types))
           | _, _ => Fail ValueError None
           end
  | _, _ => Fail ValueError (Some msg_kinds)
  end.

Definition check_imgs_m disk ident ub (img_r img_m : input) (data_range : option Z)
    (normalize : bool) (roi : list (Z * Z)) (chromatic : bool) : said (norm_out * norm_out) :=
  let+ r := load_data_m disk ident ub img_r data_range normalize false roi in
  let+ m := load_data_m disk ident ub img_m data_range normalize false roi in
  check_loaded_m r m chromatic.

(** ** The score methods up to the choice of the slice: msssim.py 188-283, fsim.py 184-281,
    vif.py 163-256, vsi.py 182-277, mad.py 178-246, gsm.py 191-255 *)
Definition score_start (k : slice_metric) disk ident ub (img_r img_m : input) (data_range : option Z)
    (normalize : bool) (roi : list (Z * Z)) (chromatic : bool) (d : dim_arg) (s : slice_arg)
    : said (norm_out * norm_out * choice) :=
  let+ rm := check_imgs_m disk ident ub img_r img_m data_range normalize roi chromatic in
  match snd (choose k (o_shape (fst rm)) d s) with
  | Refused t => Fail ValueError (Some t)
  | c => Good (rm, c)
  end.

(** ** Constructors: _metrics.py 37-38 and the subclasses, e.g. psnr.py 91-92 *)
Definition msg_construct : string := "Parameter data_range must be set.".
Definition msg_specified : string := "If normalize is True, data_range must be specified".
Definition construct_m (c : mclass) (data_range normalize : pyval) (kwargs : dict pyval) : said metric :=
  if needs_range c && match data_range with PNone => true | _ => false end
  then Fail ValueError (Some msg_construct)
  else if truthy normalize && negb (truthy data_range) then Fail ValueError (Some msg_specified)
  else lift (construct c data_range normalize kwargs).

(** ** structural_similarity, ssim.py 303-341 *)
Definition msg_k1 : string := "K1 must be positive".
Definition msg_k2 : string := "K2 must be positive".
Definition msg_sigma : string := "sigma must be positive".
Definition msg_extent : string :=
  "win_size exceeds image extent. Either ensure that your images are at least 7x7; or pass win_size explicitly in the function call, with an odd value less than or equal to the smaller side of your images.".
Definition msg_odd : string := "win_size must be odd.".

Definition ssim_setup_m (shape : list nat) (kw : dict kwval) : said ssim_params :=
  let+ k1 := lift (as_num (dget kw "K1") (1 / 100)) in
  if Rlt_dec k1 0 then Fail ValueError (Some msg_k1) else
  let+ k2 := lift (as_num (dget kw "K2") (3 / 100)) in
  if Rlt_dec k2 0 then Fail ValueError (Some msg_k2) else
  let+ sigma := lift (as_num (dget kw "sigma") (15 / 10)) in
  if Rlt_dec sigma 0 then Fail ValueError (Some msg_sigma) else
  let+ given := lift (win_arg (dget kw "win_size")) in
  let win := match given with
             | Some w => w
             | None => if flag (dget kw "gaussian_weights") true
                       then (2 * Z.of_nat (gauss_radius sigma) + 1)%Z else 7%Z
             end in
  if existsb (fun n => (Z.of_nat n - win <? 0)%Z) shape then Fail ValueError (Some msg_extent)
  else if negb (win mod 2 =? 1)%Z then Fail ValueError (Some msg_odd)
  else lift (ssim_setup shape kw).

(** ** most_apparent_distortion, mad.py 493-506 *)
Definition msg_block : string := "block_size must be smaller than the image dimensions.".
Definition msg_overlap : string := "block_overlap must be between 0 and smaller than 1.".
Definition msg_positive : string := "block_size must be positive.".
Definition stride_m (m n : nat) (bs : Z) (ov : R) : said (nat * nat) :=
  if (Z.of_nat m <? bs)%Z || (Z.of_nat n <? bs)%Z then Fail ValueError (Some msg_block)
  else if (0 <? bs)%Z then
    if Rle_dec 1 ov then Fail ValueError (Some msg_overlap)
    else if Rlt_dec ov 0 then Fail ValueError (Some msg_overlap)
    else Good (Z.to_nat bs, Z.to_nat (bs - Int_part (ov * IZR bs)))
  else Fail ValueError (Some msg_positive).

(** _high_quality 575-577 *)
Definition msg_display : string := "If account_monitor is True, display_function must be given.".
Definition monitor_m (account_monitor display_given : bool) : said unit :=
  fail_if (account_monitor && negb display_given) ValueError msg_display.
(** _low_quality 744-745 *)
Definition weights_m (weights : list R) (scales : nat) : said unit :=
  fail_if (negb (length weights =? scales)) ValueError
    ("weights must be of length scales_num (" ++ show scales ++ ").").

(** ** contrast_to_noise_ratio and signal_to_noise_ratio *)
Definition msg_integers (name : string) : string := (name ++ " has to be a tuple of integers.")%string.
Definition msg_border (name : string) : string :=
  (name ++ " has to be at least the radius away from the border.")%string.
Definition msg_radius_cnr : string := "Radius has to be an integer.".
Definition msg_radius_snr : string := "Radius has to be a positive integer.".
Definition msg_centers : string := "Centers have to be in the same dimension as img.".
Definition msg_center : string := "Center has to be in the same dimension as img.".
Definition msg_region : string := "Region type not valid.".

(** The loops 798-804 and 806-812 of cnr.py, 1020-1026 of snr.py. *)
Fixpoint check_border_m (name : string) (center : list cval) (radius : rval) : said (list Z) :=
  match center with
  | [] => Good []
  | COther :: _ => Fail TypeError (Some (msg_integers name))
  | CInt z :: c' =>
      let+ _ := match radius with
                | RInt r => fail_if (Z.abs z - r <? 0)%Z ValueError (msg_border name)
                | RReal x => fail_if (if Rlt_dec (IZR (Z.abs z) - x) 0 then true else false) ValueError (msg_border name)
                | ROther => Fail TypeError None
                end in
      let+ zs := check_border_m name c' radius in Good (z :: zs)
  end.
Definition check_radius_m (t : string) (radius : rval) : said Z :=
  match radius with
  | RInt r => if (r <=? 0)%Z then Fail TypeError (Some t) else Good r
  | _ => Fail TypeError (Some t)
  end.
Definition make_region_m (kind : rkind) (img : arr R) (center : list Z) (radius : Z) : said region :=
  match kind with
  | KUnknown => Fail ValueError (Some msg_region)
  | _ => lift (make_region kind img center radius)
  end.

Section nr.
Variable mk : ext.

(** Given centres (auto_center False). *)
Definition cnr_m (img : arr R) (background_center signal_center : list cval) (radius : rval)
    (kind : rkind) : said ext :=
  let+ sz := check_border_m "Signal center" signal_center radius in
  let+ bz := check_border_m "Background center" background_center radius in
  let+ r := check_radius_m msg_radius_cnr radius in
  if negb (length (shp img) =? length sz) || negb (length (shp img) =? length bz)
  then Fail ValueError (Some msg_centers)
  else
    let+ signal := make_region_m kind img sz r in
    let+ background := make_region_m kind img bz r in
    Good (cnr_value mk signal background).

(** An image that is not (H, W, 3); signal_to_noise_ratio of a grey image. *)
Definition snr_m (img : arr R) (signal_center : list cval) (radius : rval) (kind : rkind) : said snr_out :=
  let+ sz := check_border_m "Center" signal_center radius in
  let+ r := check_radius_m msg_radius_snr radius in
  match shp img with
  | [] => Fail IndexError None
  | s => if negb (length s =? length sz + (if last s 0 =? 3 then 1 else 0)) then Fail ValueError (Some msg_center)
         else
           let+ signal := make_region_m kind img sz r in
           Good (SGrey (snr_value mk signal) (snr_keys kind false))
  end.

End nr.

(** CNR.score and SNR.score: load_images comes first (cnr.py 124, snr.py 129). *)
Definition nr_score_m {X} disk ident ub (img : input) (data_range : option Z) (normalize : bool)
    (roi : list (Z * Z)) (rest : loaded -> said X) : said X :=
  let+ l := load_data_m disk ident ub img data_range normalize false roi in rest l.
