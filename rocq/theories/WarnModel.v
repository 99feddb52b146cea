(** Model of the warnings and of the error messages: normalize_data, crop_image, load_data and
    _check_imgs (src/viqa/utils/loading.py), the choice of the slice in the score methods
    (fr_metrics/msssim.py, fsim.py, vif.py, vsi.py, mad.py, gsm.py), the thresholds of MAD, the
    exponents of SSIM. No proofs here.

    A call of warn is an element of the list in front of the result, in the order of the calls.
    Which of them python shows is a matter of its filters. *)
From Coq Require Import Reals String.
From Verif Require Import Base NdArray LoadModel NormModel PairModel MetricModel SliceModel SsimModel MadModel PrintModel.

Definition out (A : Type) : Type := list effect * res A.
Definition obind {A B} (m : out A) (k : A -> out B) : out B :=
  match m with
  | (es, Ok a) => let (es', r) := k a in (es ++ es', r)
  | (es, Err e) => (es, Err e)
  end.
Definition quiet {A} (r : res A) : out A := ([], r).

(** ** loading.py *)

Definition w_range : effect :=
  Warned RuntimeWarning "Parameter data_range is set but normalize is False. Parameter data_range will be ignored.".
Definition w_normalised : effect := Warned RuntimeWarning "Data is already normalized.".
Definition w_z : effect := Warned RuntimeWarning "Image is 2D. Parameter z will be ignored.".
Definition w_cropped : effect := Warned RuntimeWarning "Image is already cropped.".
Definition w_gray : effect := Warned UserWarning "Images are chromatic. Converting to grayscale.".

(** normalize_data, 842-891 *)
Definition normalize_w (ident : identity) (ub : R -> Z) (im : image) (lo hi : Z)
    (auto : option (option (Z * Z))) : out norm_out :=
  match dt im with
  | OtherType => quiet (Err ValueError)
  | d => if already_normalised ident d lo hi then ([w_normalised], Ok (NImg im))
         else quiet (normalize_data ident ub im lo hi auto)
  end.

(** crop_image, 928-955. [z] only matters for the warning of planes. *)
Definition crop_checked_w {A} (a : arr A) (r : list (Z * Z)) (small : list effect) : out (arr A) :=
  let cs := map extent r in
  let s := map Z.of_nat (shp a) in
  match vec_all Z.ltb cs s with
  | Err e => quiet (Err e)
  | Ok true => (small, slice a r)
  | Ok false => match vec_all Z.eqb cs s with
                | Err e => quiet (Err e)
                | Ok true => ([w_cropped], Ok a)
                | Ok false => quiet (Err ValueError)
                end
  end.

Definition crop_image_w {A} (a : arr A) (x y : Z * Z) (z : option (Z * Z)) : out (arr A) :=
  if (length (shp a) =? 2) || is_colour (shp a) then
    crop_checked_w a [x; y] (match z with Some _ => [w_z] | None => [] end)
  else if length (shp a) =? 3 then
    match z with
    | Some z => crop_checked_w a [x; y; z] []
    | None => quiet (Err ValueError)
    end
  else quiet (Err ValueError).

Definition crop_out_w (o : norm_out) (x y : Z * Z) (z : option (Z * Z)) : out norm_out :=
  match o with
  | NImg (Img d (PI a)) => obind (crop_image_w a x y z) (fun c => quiet (Ok (NImg (Img d (PI c)))))
  | NImg (Img d (PF a)) => obind (crop_image_w a x y z) (fun c => quiet (Ok (NImg (Img d (PF c)))))
  | NNan d s => obind (crop_image_w (tabulate s (fun _ => tt)) x y z) (fun c => quiet (Ok (NNan d (shp c))))
  end.

Definition crop_roi_w (o : norm_out) (roi : list (Z * Z)) : out norm_out :=
  match roi with
  | [x; y] => crop_out_w o x y None
  | [x; y; z] => crop_out_w o x y (Some z)
  | _ => quiet (Err TypeError)
  end.

(** load_data, 688-785 *)
Definition prepare_w (ident : identity) (ub : R -> Z) (normalize : bool) (data_range : option Z)
    (roi : list (Z * Z)) (im : image) : out norm_out :=
  obind
    match data_range with
    | Some hi => if normalize && negb (hi =? 0)%Z
                 then normalize_w ident ub im 0 hi None else quiet (Ok (NImg im))
    | None => quiet (Ok (NImg im))
    end
    (fun o => match roi with [] => quiet (Ok o) | _ => crop_roi_w o roi end).

Definition load_data_w (disk : text -> res image) (ident : identity) (ub : R -> Z) (img : input)
    (data_range : option Z) (normalize batch : bool) (roi : list (Z * Z)) : out loaded :=
  if batch then quiet (Err DeprecationError)
  else if normalize && match data_range with None => true | _ => false end
  then quiet (Err ValueError)
  else
    obind (if negb normalize && match data_range with None => false | _ => true end
           then [w_range] else [], Ok tt)                                    (* 696-701 *)
      (fun _ =>
         match img with
         | InPath name =>
             obind (quiet (disk name)) (fun im =>
             obind (quiet (check_dims (shape im))) (fun _ =>
             obind (prepare_w ident ub normalize data_range roi im) (fun o => quiet (Ok (LOne o)))))
         | InArray im =>
             obind (quiet (check_dims (shape im))) (fun _ =>
             obind (prepare_w ident ub normalize data_range roi im) (fun o => quiet (Ok (LOne o))))
         | InList [im] =>
             obind (quiet (check_dims (shape im))) (fun _ =>
             obind (prepare_w ident ub normalize data_range roi im) (fun o => quiet (Ok (LMany [o]))))
         | _ => quiet (Err ValueError)
         end).

(** _check_imgs, 958-1011 *)
Definition check_loaded_w (r m : loaded) (chromatic : bool) : out (norm_out * norm_out) :=
  match r, m with
  | LOne r, LOne m =>
      if negb (dtype_eqb (o_type r) (o_type m)) then quiet (Err ValueError)
      else if negb (shape_eqb (o_shape r) (o_shape m)) then quiet (Err ValueError)
      else if negb chromatic && (last (o_shape r) 0 =? 3) then
        ([w_gray], let* r' := gray_out r in let* m' := gray_out m in Ok (r', m'))
      else if chromatic && negb (last (o_shape r) 0 =? 3) then quiet (Err ValueError)
      else quiet (Ok (r, m))
  | _, _ => quiet (Err ValueError)
  end.

Definition check_imgs_w disk ident ub (img_r img_m : input) (data_range : option Z)
    (normalize : bool) (roi : list (Z * Z)) (chromatic : bool) : out (norm_out * norm_out) :=
  obind (load_data_w disk ident ub img_r data_range normalize false roi) (fun r =>
  obind (load_data_w disk ident ub img_m data_range normalize false roi) (fun m =>
  check_loaded_w r m chromatic)).

(** ** The arguments dim and im_slice of the score methods

    Of other values only the truth value matters. *)
Inductive dim_arg := DANone | DANum (z : Z) | DAOther (true_value : bool).
Inductive slice_arg := SANone | SAInt (s : Z) | SAOther (true_value : bool).

Definition dim_truth (d : dim_arg) : bool :=
  match d with DANone => false | DANum z => negb (z =? 0)%Z | DAOther b => b end.
Definition slice_truth (s : slice_arg) : bool :=
  match s with SANone => false | SAInt z => negb (z =? 0)%Z | SAOther b => b end.

Inductive slice_metric := WMSSSIM | WFSIM | WVIFp | WVSI | WMAD | WGSM.

Definition slice_class (k : slice_metric) : mclass :=
  match k with
  | WMSSSIM => CMSSSIM | WFSIM => CFSIM | WVIFp => CVIFp | WVSI => CVSI | WMAD => CMAD | WGSM => CGSM
  end.

Definition w_full (k : slice_metric) : effect :=
  Warned RuntimeWarning ("im_slice is not given. Calculating " ++ printed_name (slice_class k) ++ " for full volume.").
Definition w_ignored : effect := Warned RuntimeWarning "dim and im_slice are ignored for 2D images.".

Definition msg_dim : string := "Invalid dim value. Must be integer of 0, 1 or 2.".
Definition msg_slice : string := "im_slice must be an integer.".
Definition msg_slice_none : string := "im_slice must be an integer or None.".
Definition msg_both : string := "If images are 3D, dim and im_slice (optional) must be given.".
Definition msg_ndim : string := "Images must be 2D or 3D.".

(** What a score method does: a slice along an axis, the whole volume, the image as a plane,
    or ValueError with a message. *)
Inductive choice := OneSlice (ax : nat) (s : Z) | WholeVolume | Plane | Refused (message : string).

(** The last branch for volumes. [type(im_slice) is not int or None] is
    [(type(im_slice) is not int) or None] (msssim.py 260, vif.py 233, vsi.py 254, gsm.py 240);
    fsim.py 258 has [and im_slice is not None]; mad.py 226-231 asks for
    [... or type(im_slice) is not None], which is always true. *)
Definition refusal (k : slice_metric) (s : slice_arg) : string :=
  match k with
  | WFSIM => match s with SAOther _ => msg_slice | _ => msg_both end
  | WMAD => msg_slice_none
  | _ => match s with SAInt _ => msg_both | _ => msg_slice end
  end.

(** msssim.py 191-283, fsim.py 187-281, vif.py 166-256, vsi.py 185-277, mad.py 181-246,
    gsm.py 194-255. VSI, MAD and GSM do not exempt colour images from the first branch. *)
Definition colour_aware (k : slice_metric) : bool :=
  match k with WMSSSIM | WFSIM | WVIFp => true | _ => false end.

Definition choose (k : slice_metric) (shape : list nat) (d : dim_arg) (s : slice_arg) : list effect * choice :=
  let rgb := (length shape =? 3) && (last shape 0 =? 3) in
  if (length shape =? 3) && negb (colour_aware k && rgb) then
    match d, s with
    | DANone, _ => ([], Refused (refusal k s))
    | DANum 0, SAInt i => ([], OneSlice 0 i)
    | DANum 1, SAInt i => ([], OneSlice 1 i)
    | DANum 2, SAInt i => ([], OneSlice 2 i)
    | _, SAInt _ => ([], Refused msg_dim)
    | _, SANone => ([w_full k], WholeVolume)
    | _, SAOther _ => ([], Refused (refusal k s))
    end
  else if (length shape =? 2) || (colour_aware k && rgb) then
    (if dim_truth d || slice_truth s then [w_ignored] else [], Plane)
  else ([], Refused msg_ndim).

(** ** most_apparent_distortion, mad.py 510-524 *)

Definition w_together : effect :=
  Warned RuntimeWarning "thresh_1 and thresh_2 must be given together. Using default values for beta_1 and beta_2.".
Definition w_betas : effect :=
  Warned RuntimeWarning "thresh_1 and thresh_2 are given. Ignoring beta_1 and beta_2.".

(** [beta_1 or beta_2] is asked after both were overwritten. *)
Definition mad_betas (beta_1 beta_2 : R) (t1 t2 : option R) : list effect * (R * R) :=
  match given t1, given t2 with
  | Some a, Some b =>
      let b1 := exp (- a / b) in
      let b2 := (1 / (ln 10 * b))%R in
      (if Req_EM_T b1 0 then (if Req_EM_T b2 0 then [] else [w_betas]) else [w_betas], (b1, b2))
  | None, None => ([], (beta_1, beta_2))
  | _, _ => ([w_together], (beta_1, beta_2))
  end.

(** ** structural_similarity, ssim.py 355-363 *)

Definition w_cast (name : string) : effect :=
  Warned RuntimeWarning (name ++ " is not an integer. Cast to int.").
(** [isinstance(alpha, int)]: booleans are integers. A failing conversion ends the function, so
    that [rest], the warnings about the other exponents, is not reached. *)
Definition cast_w (name : string) (kw : dict kwval) (rest : list effect) : list effect :=
  match dget kw name with
  | Some (KReal _) => w_cast name :: rest
  | Some (KText t) => match py_int (list_ascii_of_string t) with Ok _ => w_cast name :: rest | Err _ => [] end
  | Some KNone => []
  | _ => rest
  end.
Definition ssim_casts (kw : dict kwval) : list effect :=
  cast_w "alpha" kw (cast_w "beta" kw (cast_w "gamma" kw [])).
