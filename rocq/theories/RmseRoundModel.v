(** Model of RMSE.score and PSNR.score (src/viqa/fr_metrics/rmse.py lines 106-112, psnr.py lines 119-128)
    with the floating point numbers of the machine. No proofs here.

    MetricModel.rmse and psnr compute with exact real numbers. The code calls
    skimage.metrics.mean_squared_error, which is
    [np.mean((image0 - image1) ** 2, dtype=np.float64)] on images converted to
    [np.result_type(image0.dtype, image1.dtype, np.float32)], and np.sqrt of it. Every operation is
    rounded to nearest, ties to even, with gradual underflow and overflow to infinity (IEEE 754).
    The order in which np.mean adds the squares is left open: any tree of additions. The number of
    voxels is below 2^53. Quotient and logarithm in PSNR are taken as exact. *)
From Coq Require Import Reals.
From Verif Require Import Base LoadModel RealSums MetricModel SsimRoundModel.

(** ** Floating point formats: precision, exponent of the smallest positive number, of the overflow limit *)
Record format := Fmt { prec : Z; emin : Z; emax : Z }.
Definition binary32 := Fmt 24 (-149) 128.
Definition binary64 := Fmt 53 (-1074) 1024.

(** Distance of the numbers around x *)
Definition spacing (f : format) (x : R) : R := pow2 (Z.max (exponent x - (prec f - 1)) (emin f)).
Definition round_f (f : format) (x : R) : R :=
  if Req_EM_T x 0 then 0%R else (IZR (nearest_even (x / spacing f x)) * spacing f x)%R.

Definition store (f : format) (x : R) : ext :=
  let y := round_f f x in
  if Rlt_dec (Rabs y) (pow2 (emax f)) then Fin y else if Rlt_dec 0 y then PInf else NInf.

(** np.result_type(dtype, np.float32) *)
Definition work_format (d : dtype) : format :=
  match d with
  | UInt 8 | UInt 16 | SInt 8 | SInt 16 | Float 16 | Float 32 => binary32
  | _ => binary64
  end.

(** [(image0 - image1) ** 2], one voxel *)
Definition square_diff (f : format) (x y : R) : ext :=
  match store f x, store f y with
  | Fin x, Fin y => match store f (x - y) with Fin d => store f (d * d) | _ => PInf end
  | _, _ => NaN
  end.

(** ** np.mean(..., dtype=np.float64) *)

Inductive tree := Leaf (p : R * R) | Node (l r : tree).
Fixpoint leaves (t : tree) : list (R * R) :=
  match t with Leaf p => [p] | Node l r => leaves l ++ leaves r end.

Definition add64 (x y : ext) : ext :=
  match x, y with
  | Fin x, Fin y => store binary64 (x + y)
  | NaN, _ | _, NaN => NaN
  | PInf, NInf | NInf, PInf => NaN
  | Fin _, z => z
  | z, _ => z
  end.

Fixpoint total (f : format) (t : tree) : ext :=
  match t with
  | Leaf (x, y) => square_diff f x y
  | Node l r => add64 (total f l) (total f r)
  end.

Definition mse_r (f : format) (t : tree) : ext :=
  match total f t with
  | Fin s => store binary64 (s / INR (length (leaves t)))
  | e => e
  end.

(** rmse.py 110 *)
Definition rmse_r (f : format) (t : tree) : ext :=
  match mse_r f t with
  | Fin s => store binary64 (sqrt s)
  | e => e
  end.

(** psnr.py 121-127 *)
Definition psnr_r (dr : R) (f : format) (t : tree) : ext :=
  if forallb (fun p => if Req_EM_T (fst p) (snd p) then true else false) (leaves t) then PInf
  else match mse_r f t with
       | Fin e => if Req_EM_T dr 0 then (if Req_EM_T e 0 then NaN else NInf)
                  else if Req_EM_T e 0 then PInf
                  else Fin (10 * log10 (dr * dr / e))
       | PInf => NInf
       | e => e
       end.
