(** Model of load_data, crop_image, _check_imgs (src/viqa/utils/loading.py) and
    _to_grayscale (src/viqa/utils/misc.py). No proofs here. *)
From Coq Require Import Reals.
From Verif Require Import Base NdArray LoadModel NormModel.

(** ** Basic slicing *)

(** Bound of [a:b] along an axis of length [n]: negative counts from the end, then clipped
    (python's slice.indices with step 1). *)
Definition clip (n : nat) (b : Z) : nat :=
  let b' := if (b <? 0)%Z then (b + Z.of_nat n)%Z else b in
  Z.to_nat (Z.min (Z.of_nat n) (Z.max 0 b')).

(** [img[r0[0]:r0[1], r1[0]:r1[1], ...]]; missing ranges keep the axis whole. *)
Fixpoint slice_shape (s : list nat) (r : list (Z * Z)) : list nat :=
  match s, r with
  | n :: s', b :: r' => (clip n (snd b) - clip n (fst b)) :: slice_shape s' r'
  | _, _ => s
  end.
Fixpoint slice_index (s : list nat) (r : list (Z * Z)) (idx : list nat) : list nat :=
  match s, r, idx with
  | n :: s', b :: r', i :: idx' => (clip n (fst b) + i) :: slice_index s' r' idx'
  | _, _, _ => idx
  end.
(** More ranges than axes raise IndexError. *)
Definition slice {A} (a : arr A) (r : list (Z * Z)) : res (arr A) :=
  if length (shp a) <? length r then Err IndexError
  else reindex a (slice_shape (shp a) r) (slice_index (shp a) r).

(** ** crop_image, loading.py lines 894-955 *)

(** [(u < v).all()] and [(u == v).all()] of two integer vectors; different lengths (none of
    them 1) cannot be broadcast: ValueError. *)
Definition vec_all (f : Z -> Z -> bool) (u v : list Z) : res bool :=
  if length u =? length v then Ok (forallb (fun p => f (fst p) (snd p)) (combine u v))
  else Err ValueError.

Definition extent (r : Z * Z) : Z := (snd r - fst r)%Z.

Definition is_colour (s : list nat) : bool := (length s =? 3) && (last s 0 =? 3).

(** Lines 931-954. *)
Definition crop_checked {A} (a : arr A) (r : list (Z * Z)) : res (arr A) :=
  let cs := map extent r in
  let s := map Z.of_nat (shp a) in
  let* lt := vec_all Z.ltb cs s in
  if lt then slice a r
  else
    let* eq := vec_all Z.eqb cs s in
    if eq then Ok a else Err ValueError.

Definition crop_image {A} (a : arr A) (x y : Z * Z) (z : option (Z * Z)) : res (arr A) :=
  if (length (shp a) =? 2) || is_colour (shp a) then crop_checked a [x; y]    (* 930 *)
  else if length (shp a) =? 3 then
    match z with
    | Some z => crop_checked a [x; y; z]                                      (* 942 *)
    | None => Err ValueError
    end
  else Err ValueError.                                                        (* 953 *)

(** The same for whole images; an image with unspecified pixels only has a shape. *)
Definition crop_out (o : norm_out) (x y : Z * Z) (z : option (Z * Z)) : res norm_out :=
  match o with
  | NImg (Img d (PI a)) => let* c := crop_image a x y z in Ok (NImg (Img d (PI c)))
  | NImg (Img d (PF a)) => let* c := crop_image a x y z in Ok (NImg (Img d (PF c)))
  | NNan d s => let* c := crop_image (tabulate s (fun _ => tt)) x y z in Ok (NNan d (shp c))
  end.

(** [crop_image(img, *roi)]: a wrong number of ranges is a TypeError. *)
Definition crop_roi (o : norm_out) (roi : list (Z * Z)) : res norm_out :=
  match roi with
  | [x; y] => crop_out o x y None
  | [x; y; z] => crop_out o x y (Some z)
  | _ => Err TypeError
  end.

(** ** load_data, loading.py lines 615-785 *)

(** [match img] lines 707-741. Arrays, ImageArrays and tensors carry the same pixels.
    Only lists are modelled as sequences. *)
Inductive input :=
| InPath (name : text)
| InArray (im : image)
| InList (l : list image)
| InOther.

Inductive loaded := LOne (o : norm_out) | LMany (l : list norm_out).

Definition check_dims (s : list nat) : res unit :=
  raise_if ((3 <? length s) || (length s <? 2)) ValueError.

(** Lines 760-777 for one image. [data_range] None/0 is falsy. *)
Definition prepare (ident : identity) (ub : R -> Z) (normalize : bool) (data_range : option Z)
    (roi : list (Z * Z)) (im : image) : res norm_out :=
  let* o :=
    match data_range with
    | Some hi => if normalize && negb (hi =? 0)%Z
                 then normalize_data ident ub im 0 hi None else Ok (NImg im)
    | None => Ok (NImg im)
    end in
  match roi with [] => Ok o | _ => crop_roi o roi end.

Definition load_data (disk : text -> res image) (ident : identity) (ub : R -> Z) (img : input)
    (data_range : option Z) (normalize batch : bool) (roi : list (Z * Z)) : res loaded :=
  if batch then Err DeprecationError                                         (* 688-692 *)
  else if normalize && match data_range with None => true | _ => false end
  then Err ValueError                                                        (* 694 *)
  else
    match img with
    | InPath name =>
        let* im := disk name in
        let* _ := check_dims (shape im) in
        let* o := prepare ident ub normalize data_range roi im in Ok (LOne o)
    | InArray im =>
        let* _ := check_dims (shape im) in
        let* o := prepare ident ub normalize data_range roi im in Ok (LOne o)
    | InList [im] =>                                                         (* 736 *)
        let* _ := check_dims (shape im) in
        let* o := prepare ident ub normalize data_range roi im in Ok (LMany [o])
    | _ => Err ValueError                                                    (* 740 *)
    end.

(** ** _to_grayscale, misc.py lines 32-37 *)

(** skimage.color.rgb2gray *)
Definition luma (r g b : R) : R := (2125 / 10000 * r + 7154 / 10000 * g + 721 / 10000 * b)%R.
Definition clip255 (x : R) : R := if Rlt_dec 255 x then 255%R else x.

Definition to_grayscale (a : arr R) : res (arr R) :=
  let s := removelast (shp a) in
  let* l := mapM (fun idx =>
    let* r := from_opt IndexError (get a (idx ++ [0])) in
    let* g := from_opt IndexError (get a (idx ++ [1])) in
    let* b := from_opt IndexError (get a (idx ++ [2])) in
    Ok (clip255 (luma r g b))) (indices s) in
  Ok (Arr s l).

(** _to_float, misc.py lines 53-59 *)
Definition float_type (d : dtype) : dtype :=
  match d with Float 32 => Float 32 | Float 64 => Float 64 | _ => Float 64 end.
Definition to_float (p : pixels) : arr R :=
  match p with PI a => amap IZR a | PF a => a end.

Definition gray_out (o : norm_out) : res norm_out :=
  match o with
  | NImg im => let* g := to_grayscale (to_float (px im)) in
               Ok (NImg (Img (float_type (dt im)) (PF g)))
  | NNan d s => Ok (NNan (float_type d) (removelast s))
  end.

(** ** _check_imgs, loading.py lines 958-1011 *)

Definition dtype_eqb (a b : dtype) : bool :=
  match a, b with
  | UInt m, UInt n | SInt m, SInt n | Float m, Float n => m =? n
  | OtherType, OtherType => true
  | _, _ => false
  end.
Definition shape_eqb (a b : list nat) : bool := if list_eq_dec Nat.eq_dec a b then true else false.

Definition o_type (o : norm_out) : dtype := match o with NImg im => dt im | NNan d _ => d end.
Definition o_shape (o : norm_out) : list nat := match o with NImg im => shape im | NNan _ s => s end.

(** [chromatic] is compared with [is False] / [is True]. For lists the shape test compares
    an element type with a shape (line 993), which are never equal. *)
Definition check_loaded (r m : loaded) (chromatic : bool) : res (norm_out * norm_out) :=
  match r, m with
  | LOne r, LOne m =>
      if negb (dtype_eqb (o_type r) (o_type m)) then Err ValueError
      else if negb (shape_eqb (o_shape r) (o_shape m)) then Err ValueError
      else if negb chromatic && (last (o_shape r) 0 =? 3) then
        let* r' := gray_out r in let* m' := gray_out m in Ok (r', m')
      else if chromatic && negb (last (o_shape r) 0 =? 3) then Err ValueError
      else Ok (r, m)
  | _, _ => Err ValueError
  end.

Definition check_imgs disk ident ub (img_r img_m : input) (data_range : option Z)
    (normalize : bool) (roi : list (Z * Z)) (chromatic : bool) : res (norm_out * norm_out) :=
  let* r := load_data disk ident ub img_r data_range normalize false roi in
  let* m := load_data disk ident ub img_m data_range normalize false roi in
  check_loaded r m chromatic.
