(** Model of src/viqa/kernels.py and of GSM (src/viqa/fr_metrics/gsm.py). No proofs here. *)
From Coq Require Import Reals.
From Verif Require Import Base NdArray LoadModel NormModel PairModel RealSums MetricModel SsimModel.

(** ** Kernels *)

(** kernels.py lines 21-61 *)
Definition gsm_kernel_z : res (arr Z) := Ok (Arr [5; 5; 5] [
    0; 0; 0; 0; 0;
    0; 0; 0; 0; 0;
    0; -1; 0; 1; 0;
    0; 0; 0; 0; 0;
    0; 0; 0; 0; 0;

    0; 0; 0; 0; 0;
    0; -1; 0; 1; 0;
    0; -3; 0; 3; 0;
    0; -1; 0; 1; 0;
    0; 0; 0; 0; 0;

    0; -1; 0; 1; 0;
    0; -3; 0; 3; 0;
    0; -8; 0; 8; 0;
    0; -3; 0; 3; 0;
    0; -1; 0; 1; 0;

    0; 0; 0; 0; 0;
    0; -1; 0; 1; 0;
    0; -3; 0; 3; 0;
    0; -1; 0; 1; 0;
    0; 0; 0; 0; 0;

    0; 0; 0; 0; 0;
    0; 0; 0; 0; 0;
    0; -1; 0; 1; 0;
    0; 0; 0; 0; 0;
    0; 0; 0; 0; 0]%Z).

(** kernels.py lines 64-66 *)
Definition gsm_kernel_y : res (arr Z) := let* k := gsm_kernel_z in rot90 k 2 1.

(** kernels.py lines 69-71 *)
Definition gsm_kernel_x : res (arr Z) := let* k := gsm_kernel_z in rot90 k 2 0.

(** kernels.py lines 74-114 *)
Definition gsm_kernel_yz1 : res (arr Z) := Ok (Arr [5; 5; 5] [
    0; 0; 0; 0; 0;
    0; -1; 0; 0; 0;
    0; 0; 0; 0; 0;
    0; 0; 0; 1; 0;
    0; 0; 0; 0; 0;

    0; 0; 0; 0; 0;
    0; -3; -1; 0; 0;
    0; -1; 0; 1; 0;
    0; 0; 1; 3; 0;
    0; 0; 0; 0; 0;

    0; 0; -1; 0; 0;
    0; -8; -3; 0; 0;
    -1; -3; 0; 3; 1;
    0; 0; 3; 8; 0;
    0; 0; 1; 0; 0;

    0; 0; 0; 0; 0;
    0; -3; -1; 0; 0;
    0; -1; 0; 1; 0;
    0; 0; 1; 3; 0;
    0; 0; 0; 0; 0;

    0; 0; 0; 0; 0;
    0; -1; 0; 0; 0;
    0; 0; 0; 0; 0;
    0; 0; 0; 1; 0;
    0; 0; 0; 0; 0]%Z).

(** kernels.py lines 117-119 *)
Definition gsm_kernel_yz2 : res (arr Z) := let* k := gsm_kernel_yz1 in rot90 k 2 1.

(** kernels.py lines 122-124 *)
Definition gsm_kernel_xz1 : res (arr Z) := let* k := gsm_kernel_yz1 in rot90 k 1 0.

(** kernels.py lines 127-129 *)
Definition gsm_kernel_xz2 : res (arr Z) := let* k := gsm_kernel_yz1 in rot90 k 0 1.

(** kernels.py lines 132-134 *)
Definition gsm_kernel_xy1 : res (arr Z) := let* k := gsm_kernel_yz1 in rot90 k 2 0.

(** kernels.py lines 137-139 *)
Definition gsm_kernel_xy2 : res (arr Z) := let* k := gsm_kernel_yz1 in rot90 k 0 2.

(** kernels.py lines 142-182 *)
Definition gsm_kernel_xyz1 : res (arr Z) := Ok (Arr [5; 5; 5] [
    0; -1; 0; 0; 0;
    1; 0; 0; -1; 0;
    0; 0; 0; 0; 0;
    0; 1; 0; 0; -1;
    0; 0; 0; 1; 0;

    0; 0; 0; 0; 0;
    0; 0; -3; 0; 0;
    0; 3; 0; -3; 0;
    0; 0; 3; 0; 0;
    0; 0; 0; 0; 0;

    0; 0; -1; 0; 0;
    0; 0; 0; -8; 0;
    1; 0; 0; 0; -1;
    0; 8; 0; 0; 0;
    0; 0; 1; 0; 0;

    0; 0; 0; 0; 0;
    0; 0; -3; 0; 0;
    0; 3; 0; -3; 0;
    0; 0; 3; 0; 0;
    0; 0; 0; 0; 0;

    0; -1; 0; 0; 0;
    1; 0; 0; -1; 0;
    0; 0; 0; 0; 0;
    0; 1; 0; 0; -1;
    0; 0; 0; 1; 0]%Z).

(** kernels.py lines 185-187 *)
Definition gsm_kernel_xyz2 : res (arr Z) := let* k := gsm_kernel_xyz1 in rot90 k 1 2.

(** kernels.py lines 190-192 *)
Definition gsm_kernel_xyz3 : res (arr Z) := let* k := gsm_kernel_xyz1 in rot90 k 0 1.

(** kernels.py lines 195-197 *)
Definition gsm_kernel_xyz4 : res (arr Z) := let* k := gsm_kernel_xyz1 in rot90 k 0 2.

(** kernels.py lines 200-220 *)
Definition sobel_kernel_z : res (arr Z) := Ok (Arr [3; 3; 3] [
    0; 0; 0;
    -1; 0; 1;
    0; 0; 0;

    -1; 0; 1;
    -2; 0; 2;
    -1; 0; 1;

    0; 0; 0;
    -1; 0; 1;
    0; 0; 0]%Z).

(** kernels.py lines 223-225 *)
Definition sobel_kernel_y : res (arr Z) := let* k := sobel_kernel_z in rot90 k 2 1.

(** kernels.py lines 228-230 *)
Definition sobel_kernel_x : res (arr Z) := let* k := sobel_kernel_z in rot90 k 2 0.

(** kernels.py lines 233-253 *)
Definition prewitt_kernel_z : res (arr Z) := Ok (Arr [3; 3; 3] [
    0; 0; 0;
    0; 0; 0;
    0; 0; 0;

    -1; 0; 1;
    -1; 0; 1;
    -1; 0; 1;

    0; 0; 0;
    0; 0; 0;
    0; 0; 0]%Z).

(** kernels.py lines 256-258 *)
Definition prewitt_kernel_y : res (arr Z) := let* k := prewitt_kernel_z in rot90 k 2 1.

(** kernels.py lines 261-263 *)
Definition prewitt_kernel_x : res (arr Z) := let* k := prewitt_kernel_z in rot90 k 2 0.

(** kernels.py lines 266-286 *)
Definition scharr_kernel_z : res (arr Z) := Ok (Arr [3; 3; 3] [
    0; 0; 0;
    -47; 0; 47;
    0; 0; 0;

    -47; 0; 47;
    -162; 0; 162;
    -47; 0; 47;

    0; 0; 0;
    -47; 0; 47;
    0; 0; 0]%Z).

(** kernels.py lines 289-291 *)
Definition scharr_kernel_y : res (arr Z) := let* k := scharr_kernel_z in rot90 k 2 1.

(** kernels.py lines 294-296 *)
Definition scharr_kernel_x : res (arr Z) := let* k := scharr_kernel_z in rot90 k 2 0.

(** kernels.py lines 301-309 *)
Definition prewitt_kernel_2d_x : res (arr Z) := Ok (Arr [3; 3] [
    1; 0; -1;
    1; 0; -1;
    1; 0; -1]%Z).

(** kernels.py lines 312-320 *)
Definition prewitt_kernel_2d_y : res (arr Z) := Ok (Arr [3; 3] [
    1; 1; 1;
    0; 0; 0;
    -1; -1; -1]%Z).

(** kernels.py lines 323-331 *)
Definition sobel_kernel_2d_x : res (arr Z) := Ok (Arr [3; 3] [
    1; 0; -1;
    2; 0; -2;
    1; 0; -1]%Z).

(** kernels.py lines 334-342 *)
Definition sobel_kernel_2d_y : res (arr Z) := Ok (Arr [3; 3] [
    1; 2; 1;
    0; 0; 0;
    -1; -2; -1]%Z).

(** kernels.py lines 345-353 *)
Definition scharr_kernel_2d_x : res (arr Z) := Ok (Arr [3; 3] [
    3; 0; -3;
    10; 0; -10;
    3; 0; -3]%Z).

(** kernels.py lines 356-364 *)
Definition scharr_kernel_2d_y : res (arr Z) := Ok (Arr [3; 3] [
    3; 10; 3;
    0; 0; 0;
    -3; -10; -3]%Z).

(** kernels.py lines 367-377 *)
Definition gsm_kernel_2d_y : res (arr Z) := Ok (Arr [5; 5] [
    0; 0; 0; 0; 0;
    -1; -3; -8; -3; -1;
    0; 0; 0; 0; 0;
    1; 3; 8; 3; 1;
    0; 0; 0; 0; 0]%Z).

(** kernels.py lines 380-390 *)
Definition gsm_kernel_2d_x : res (arr Z) := Ok (Arr [5; 5] [
    0; -1; 0; 1; 0;
    0; -3; 0; 3; 0;
    0; -8; 0; 8; 0;
    0; -3; 0; 3; 0;
    0; -1; 0; 1; 0]%Z).

(** kernels.py lines 393-403 *)
Definition gsm_kernel_2d_xy : res (arr Z) := Ok (Arr [5; 5] [
    0; 0; -1; 0; 0;
    0; 0; -3; -8; 0;
    -1; -3; 0; 3; 1;
    0; 8; 3; 0; 0;
    0; 0; 1; 0; 0]%Z).

(** kernels.py lines 406-416 *)
Definition gsm_kernel_2d_yx : res (arr Z) := Ok (Arr [5; 5] [
    0; 0; -1; 0; 0;
    0; -8; -3; 0; 0;
    1; 3; 0; -3; -1;
    0; 0; 3; 8; 0;
    0; 0; 1; 0; 0]%Z).

Definition all_kernels : list (string * res (arr Z)) :=
  [("gsm_kernel_z", gsm_kernel_z); ("gsm_kernel_y", gsm_kernel_y); ("gsm_kernel_x", gsm_kernel_x);
   ("gsm_kernel_yz1", gsm_kernel_yz1); ("gsm_kernel_yz2", gsm_kernel_yz2);
   ("gsm_kernel_xz1", gsm_kernel_xz1); ("gsm_kernel_xz2", gsm_kernel_xz2);
   ("gsm_kernel_xy1", gsm_kernel_xy1); ("gsm_kernel_xy2", gsm_kernel_xy2);
   ("gsm_kernel_xyz1", gsm_kernel_xyz1); ("gsm_kernel_xyz2", gsm_kernel_xyz2);
   ("gsm_kernel_xyz3", gsm_kernel_xyz3); ("gsm_kernel_xyz4", gsm_kernel_xyz4);
   ("sobel_kernel_z", sobel_kernel_z); ("sobel_kernel_y", sobel_kernel_y); ("sobel_kernel_x", sobel_kernel_x);
   ("prewitt_kernel_z", prewitt_kernel_z); ("prewitt_kernel_y", prewitt_kernel_y);
   ("prewitt_kernel_x", prewitt_kernel_x);
   ("scharr_kernel_z", scharr_kernel_z); ("scharr_kernel_y", scharr_kernel_y); ("scharr_kernel_x", scharr_kernel_x);
   ("prewitt_kernel_2d_x", prewitt_kernel_2d_x); ("prewitt_kernel_2d_y", prewitt_kernel_2d_y);
   ("sobel_kernel_2d_x", sobel_kernel_2d_x); ("sobel_kernel_2d_y", sobel_kernel_2d_y);
   ("scharr_kernel_2d_x", scharr_kernel_2d_x); ("scharr_kernel_2d_y", scharr_kernel_2d_y);
   ("gsm_kernel_2d_y", gsm_kernel_2d_y); ("gsm_kernel_2d_x", gsm_kernel_2d_x);
   ("gsm_kernel_2d_xy", gsm_kernel_2d_xy); ("gsm_kernel_2d_yx", gsm_kernel_2d_yx)]%string.

(** gsm.py lines 42-63 *)
Definition KERNELS_3D : res (list (arr Z)) := mapM (fun k => k)
  [gsm_kernel_x; gsm_kernel_y; gsm_kernel_z; gsm_kernel_xy1; gsm_kernel_xy2; gsm_kernel_yz1;
   gsm_kernel_yz2; gsm_kernel_xz1; gsm_kernel_xz2; gsm_kernel_xyz1; gsm_kernel_xyz2; gsm_kernel_xyz3;
   gsm_kernel_xyz4].
Definition KERNELS_2D : res (list (arr Z)) := mapM (fun k => k)
  [gsm_kernel_2d_x; gsm_kernel_2d_y; gsm_kernel_2d_xy; gsm_kernel_2d_yx].

(** ** scipy.ndimage.correlate / convolve *)

(** Element of a kernel at an index in range. *)
Definition kget (k : arr Z) (idx : list nat) : Z :=
  match get k idx with Some v => v | None => 0%Z end.

(** The pixel read at offset [off] from [idx]; None for the fill value. *)
Fixpoint read_pos (m : pmode) (s idx : list nat) (off : list Z) : option (list nat) :=
  match s, idx, off with
  | n :: s', i :: idx', o :: off' =>
      match pad_pos m n (Z.of_nat i + o), read_pos m s' idx' off' with
      | Some q, Some l => Some (q :: l)
      | _, _ => None
      end
  | _, _, _ => Some []
  end.

(** Offset of a kernel element from the kernel centre (size // 2). *)
Definition koff (ks kidx : list nat) : list Z :=
  map (fun p => (Z.of_nat (snd p) - Z.of_nat (fst p / 2))%Z) (combine ks kidx).

Definition read (m : pmode) (cval : R) (a : arr R) (idx : list nat) (off : list Z) : R :=
  match read_pos m (shp a) idx off with Some p => getd a p | None => cval end.

Definition response (m : pmode) (cval : R) (a : arr R) (k : arr Z) (idx : list nat) : R :=
  Sum (fun kidx => IZR (kget k kidx) * read m cval a idx (koff (shp k) kidx))%R (indices (shp k)).

(** Default mode is "reflect"; a kernel with another number of dimensions raises. *)
Definition correlate (m : pmode) (cval : R) (a : arr R) (k : arr Z) : res (arr R) :=
  if length (shp k) =? length (shp a) then Ok (tabulate (shp a) (response m cval a k))
  else Err RuntimeError.

(** [np.flip(kernel)] and convolution (odd kernels). *)
Definition flip_all (k : arr Z) : arr Z :=
  tabulate (shp k) (fun idx => kget k (map (fun p => fst p - 1 - snd p) (combine (shp k) idx))).
Definition convolve (m : pmode) (cval : R) (a : arr R) (k : arr Z) : res (arr R) :=
  correlate m cval a (flip_all k).

(** ** gradient_similarity, gsm.py lines 361-441 *)

Definition ext_div (x y : ext) : ext :=
  match x, y with
  | NaN, _ | _, NaN => NaN
  | Fin x, Fin y => if Req_EM_T y 0 then Rsgn_ext x else Fin (x / y)
  | Fin _, _ => Fin 0
  | PInf, Fin y => if Rlt_dec y 0 then NInf else PInf
  | NInf, Fin y => if Rlt_dec y 0 then PInf else NInf
  | _, _ => NaN
  end.
Definition ext_sub (x y : ext) : ext := ext_add x (ext_neg y).

(** A pair of images as load_images returns it: both of the same type and shape. *)
Inductive gpair :=
| PF (r m : arr R)                       (* float *)
| PU (bits : nat) (r m : arr Z).         (* unsigned integers *)

(** ndi.correlate returns the element type of the image: for unsigned images the sum is converted
    by [ucast] (negative sums and overflow: whatever the C conversion gives). _to_float changes
    nothing else. Lines 418-420 and 429-430. *)
Definition gradients (ucast : nat -> R -> Z) (kernels : list (arr Z)) (g : gpair)
  : res (list (arr R) * list (arr R)) :=
  match g with
  | PF r m =>
      let* gr := mapM (correlate Reflect 0 r) kernels in
      let* gm := mapM (correlate Reflect 0 m) kernels in
      Ok (gr, gm)
  | PU b r m =>
      let cast x := amap (fun v => IZR (ucast b v)) x in
      let* gr := mapM (correlate Reflect 0 (amap IZR r)) kernels in
      let* gm := mapM (correlate Reflect 0 (amap IZR m)) kernels in
      Ok (map cast gr, map cast gm)
  end.

(** [np.mean(np.abs(x))] of a non-empty array *)
Definition mean_abs (g : arr R) : R := (Sum Rabs (dat g) / INR (length (dat g)))%R.

(** [sorted(l, key=mean_abs, reverse=True)[0]]: the first of the largest. *)
Fixpoint strongest (best : arr R) (l : list (arr R)) : arr R :=
  match l with
  | [] => best
  | g :: l' => strongest (if Rlt_dec (mean_abs best) (mean_abs g) then g else best) l'
  end.

(** [np.max] of a non-empty array *)
Definition amax (l : list R) : R := match l with [] => 0%R | x :: l' => fold_left Rmax l' x end.

(** [(img_r - img_m)[idx]]: unsigned subtraction wraps. *)
Definition lum_diff (g : gpair) (idx : list nat) : R :=
  match g with
  | PF r m => (getd r idx - getd m idx)%R
  | PU b r m => IZR ((kget r idx - kget m idx) mod 2 ^ Z.of_nat b)
  end.

Definition pair_shape (g : gpair) : list nat := match g with PF r _ => shp r | PU _ r _ => shp r end.

(** Lines 431-440, one pixel: [gr], [gm] the gradients, [gx] the one with the larger mean. *)
Definition gsm_pixel (k : ext) (p dr gr gm gx diff : R) : ext :=
  let r := ext_div (Fin (Rabs (gr - gm))) (Fin gx) in
  let t := ext_sub (Fin 1) r in
  let con := ext_div (ext_add (ext_mul (Fin 2) t) k) (ext_add (ext_add (Fin 1) (ext_mul t t)) k) in
  let q := ext_div (Fin diff) (Fin dr) in
  let lum := ext_sub (Fin 1) (ext_mul q q) in
  let w := ext_mul (Fin p) con in
  ext_add (ext_mul (ext_sub (Fin 1) w) con) (ext_mul w lum).

Definition not_nan (x : ext) : bool := match x with NaN => false | _ => true end.
(** np.nanmean *)
Definition nanmean (l : list ext) : ext := mean_ext (filter not_nan l).

(** The gradient images that are compared: lines 426-427; images neither 2D nor 3D raise. *)
Definition best_gradients (ucast : nat -> R -> Z) (g : gpair) : res (arr R * arr R) :=
  let* kernels := if length (pair_shape g) =? 3 then KERNELS_3D
                  else if length (pair_shape g) =? 2 then KERNELS_2D else Err ValueError in
  let* gs := gradients ucast kernels g in
  let (grs, gms) := gs in
  match grs, gms with
  | gr0 :: grs', gm0 :: gms' => Ok (strongest gr0 grs', strongest gm0 gms')
  | _, _ => Err IndexError
  end.

Definition gradient_similarity (ucast : nat -> R -> Z) (g : gpair) (dr c p : R) : res ext :=
  let* bs := best_gradients ucast g in
  let (br, bm) := bs in
  if size (pair_shape g) =? 0 then Err ValueError       (* np.max of an empty array *)
  else
    let k := ext_div (Fin c) (Fin (Rmax (amax (dat br)) (amax (dat bm)))) in
    let gx := if Rlt_dec (mean_abs br) (mean_abs bm) then bm else br in
    Ok (nanmean (map (fun idx =>
          gsm_pixel k p dr (getd br idx) (getd bm idx) (getd gx idx) (lum_diff g idx))
        (indices (pair_shape g)))).
