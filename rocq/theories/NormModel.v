(** Model of normalize_data, src/viqa/utils/loading.py lines 788-891. No proofs here.

    Pixels of integer images are integers, pixels of floating-point images exact real
    numbers (rounding: see the last section). numpy 1.x casting rules. *)
From Coq Require Import Reals SpecFloat.
From Verif Require Import Base NdArray LoadModel.

Inductive pixels := PI (a : arr Z) | PF (a : arr R).

Record image := Img { dt : dtype; px : pixels }.

Definition px_shape (p : pixels) : list nat :=
  match p with PI a => shp a | PF a => shp a end.
Definition shape (im : image) : list nat := px_shape (px im).

(** ** Integer types *)

(** np.iinfo(dtype).min/.max *)
Definition imin (d : dtype) : Z := match d with SInt b => - 2 ^ (Z.of_nat b - 1) | _ => 0 end.
Definition imax (d : dtype) : Z :=
  match d with UInt b => 2 ^ Z.of_nat b - 1 | SInt b => 2 ^ (Z.of_nat b - 1) - 1 | _ => 0 end%Z.

(** Result of an operation stored in an integer type: reduced into its range. *)
Definition wrap (d : dtype) (v : Z) : Z :=
  match d with
  | UInt b => v mod 2 ^ Z.of_nat b
  | SInt b => (v + 2 ^ (Z.of_nat b - 1)) mod 2 ^ Z.of_nat b - 2 ^ (Z.of_nat b - 1)
  | _ => v
  end%Z.

(** Type of array-of-[d] times the python integer [hi >= 0]: numpy 1.x looks at the value;
    the array type unless [hi] needs a wider one of the same kind. *)
Definition mul_type (d : dtype) (hi : Z) : dtype :=
  match d with
  | UInt b => if (hi <? 2 ^ Z.of_nat b)%Z then UInt b
              else if (hi <? 2 ^ 16)%Z then UInt 16
              else if (hi <? 2 ^ 32)%Z then UInt 32 else UInt 64
  | SInt b => if (hi <? 2 ^ (Z.of_nat b - 1))%Z then SInt b
              else if (hi <? 2 ^ 15)%Z then SInt 16
              else if (hi <? 2 ^ 31)%Z then SInt 32 else SInt 64
  | _ => d
  end.

(** ** Object identity

    [info.max is not data_range_output[1]] compares objects, not values (line 853). The two
    operands are python integers; [ident a b] says whether they are the same object.
    np.finfo limits are numpy objects, hence never identical to an integer. *)
Definition identity := Z -> Z -> bool.

(** What CPython guarantees: identical objects are equal, and equal integers in -5..256
    are identical. *)
Definition cpython_identity (ident : identity) : Prop :=
  (forall a b, ident a b = true -> a = b) /\
  (forall a, (-5 <= a <= 256)%Z -> ident a a = true).

Definition already_normalised (ident : identity) (d : dtype) (lo hi : Z) : bool :=
  match d with
  | UInt _ | SInt _ => ident (imax d) hi && ident (imin d) lo
  | _ => false
  end.

(** ** Casts *)

(** Truncation towards zero. *)
Definition Rtrunc (x : R) : Z :=
  if Rle_dec 0 x then Int_part x else (- Int_part (- x))%Z.

(** [astype(np.uintB)] of a float: truncation; out of range the C conversion is undefined
    ([ub] is arbitrary). *)
Definition cast_u (ub : R -> Z) (b : nat) (x : R) : Z :=
  let q := Rtrunc x in
  if (0 <=? q)%Z && (q <? 2 ^ Z.of_nat b)%Z then q else ub x.

(** Minimum and maximum of a non-empty image; np.min of an empty one raises ValueError. *)
Definition zmin (l : list Z) : res Z :=
  match l with [] => Err ValueError | x :: l' => Ok (fold_left Z.min l' x) end.
Definition zmax (l : list Z) : res Z :=
  match l with [] => Err ValueError | x :: l' => Ok (fold_left Z.max l' x) end.
Definition rmin (l : list R) : res R :=
  match l with [] => Err ValueError | x :: l' => Ok (fold_left Rmin l' x) end.
Definition rmax (l : list R) : res R :=
  match l with [] => Err ValueError | x :: l' => Ok (fold_left Rmax l' x) end.

(** Result: an image, or, when the input range is degenerate (max = min), an image of the
    given type whose pixels are 0/0 or x/0 (not numbers). *)
Inductive norm_out := NImg (im : image) | NNan (d : dtype) (s : list nat).

(** Lines 875-888: the type follows from the output range. *)
Definition finish (ub : R -> Z) (lo hi : Z) (s : list nat) (l : list R) : res norm_out :=
  if (hi =? 2 ^ 8 - 1)%Z && (lo =? 0)%Z then
    Ok (NImg (Img (UInt 8) (PI (Arr s (map (cast_u ub 8) l)))))
  else if (hi =? 2 ^ 16 - 1)%Z && (lo =? 0)%Z then
    Ok (NImg (Img (UInt 16) (PI (Arr s (map (cast_u ub 16) l)))))
  else if (hi =? 1)%Z && (lo =? 0)%Z then
    Ok (NImg (Img (Float 32) (PF (Arr s l))))
  else Err ValueError.

Definition finish_nan (lo hi : Z) (s : list nat) : res norm_out :=
  if (hi =? 2 ^ 8 - 1)%Z && (lo =? 0)%Z then Ok (NNan (UInt 8) s)
  else if (hi =? 2 ^ 16 - 1)%Z && (lo =? 0)%Z then Ok (NNan (UInt 16) s)
  else if (hi =? 1)%Z && (lo =? 0)%Z then Ok (NNan (Float 32) s)
  else Err ValueError.

(** Lines 869-873, integer image: subtraction and product in integer types, division in
    float64 (exact here). *)
Definition stretch_int (d : dtype) (lo hi mn span v : Z) : R :=
  (IZR (wrap (mul_type d (hi - lo)) (wrap d (v - mn) * (hi - lo)))
   / IZR span + IZR lo)%R.

(** Lines 869-873, floating-point image *)
Definition stretch_real (lo hi : Z) (mn mx v : R) : R :=
  ((v - mn) * IZR (hi - lo) / (mx - mn) + IZR lo)%R.

(** [auto]: None = automatic_data_range True; Some r = False with data_range_input = r.
    The extrema found automatically are scalars of the image type, so their difference is
    taken in that type; given limits are python integers. Simplified: subtracting a given
    lower limit is done in the image type (numpy would widen the type if the limit does not
    fit it). *)
Definition normalize_data (ident : identity) (ub : R -> Z) (im : image) (lo hi : Z)
    (auto : option (option (Z * Z))) : res norm_out :=
  match dt im with
  | OtherType => Err ValueError                                    (* 850 *)
  | d =>
    if already_normalised ident d lo hi then Ok (NImg im)          (* 853, 889 *)
    else
      match px im with
      | PI a =>
          let* (mn, span) :=
            match auto with
            | None => let* mn := zmin (dat a) in let* mx := zmax (dat a) in
                      Ok (mn, wrap d (mx - mn))
            | Some None => Err ValueError                          (* 860-862 *)
            | Some (Some r) => Ok (fst r, snd r - fst r)%Z
            end in
          if (span =? 0)%Z then finish_nan lo hi (shp a)
          else finish ub lo hi (shp a) (map (stretch_int d lo hi mn span) (dat a))
      | PF a =>
          let* (mn, mx) :=
            match auto with
            | None => let* mn := rmin (dat a) in let* mx := rmax (dat a) in Ok (mn, mx)
            | Some None => Err ValueError
            | Some (Some r) => Ok (IZR (fst r), IZR (snd r))
            end in
          if Req_EM_T mx mn then finish_nan lo hi (shp a)
          else finish ub lo hi (shp a) (map (stretch_real lo hi mn mx) (dat a))
      end
  end.

(** ** IEEE-754 version of one pixel of a floating-point image

    [prec], [emax]: (24, 128) for float32, (53, 1024) for float64; numpy 1.x keeps the
    image type when multiplying by a python integer. *)
Section Rounded.
Variables prec emax : Z.

Definition sf_of_Z (z : Z) : spec_float := binary_normalize prec emax z 0 false.

Definition stretch_sf (hi : Z) (mn mx v : spec_float) : spec_float :=
  SFadd prec emax
    (SFdiv prec emax
       (SFmul prec emax (SFsub prec emax v mn) (sf_of_Z hi))
       (SFsub prec emax mx mn))
    (S754_zero false).

(** Truncation of a finite non-negative number (the cast to an unsigned type). *)
Definition sf_trunc (x : spec_float) : option Z :=
  match x with
  | S754_zero _ => Some 0%Z
  | S754_finite false m e => Some (Z.shiftl (Zpos m) e)
  | _ => None
  end.
End Rounded.
