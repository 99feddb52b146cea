(** Model of structural_similarity (src/viqa/fr_metrics/ssim.py lines 365-421) with the rounding of
    single precision numbers. No proofs here.

    SsimModel.structural_similarity computes with exact real numbers. The code converts both images to
    np.float32 (lines 366-367), so every array operation from there on is rounded to single precision; the
    python constants (cov_norm, c_1, c_2, c_3) are rounded when they meet an array (numpy 1.x). The
    filters of scipy sum up in double precision and store single precision after each axis; the sums
    and the final mean in double precision are taken as exact. Overflow and numbers below 2^-126 are
    not modelled. *)
From Coq Require Import Reals.
From Verif Require Import Base NdArray LoadModel NormModel PairModel RealSums MetricModel SsimModel.

(** ** Rounding to [p] significant binary digits, to nearest, ties to even *)

(** 2 ^ z *)
Definition pow2 (z : Z) : R := powerRZ 2 z.

(** floor (log2 |x|), x <> 0 *)
Definition exponent (x : R) : Z := Int_part (ln (Rabs x) / ln 2).

Definition nearest_even (x : R) : Z :=
  let n := Int_part x in
  if Rlt_dec (x - IZR n) (1 / 2) then n
  else if Rlt_dec (1 / 2) (x - IZR n) then (n + 1)%Z
  else if Z.even n then n else (n + 1)%Z.

Definition round_to (p : Z) (x : R) : R :=
  if Req_EM_T x 0 then 0%R
  else (let u := pow2 (exponent x - (p - 1)) in IZR (nearest_even (x / u)) * u)%R.

Definition float32 (x : R) : R := round_to 24 x.

(** ** Filters: each axis is stored in single precision *)

Section Rounding.

(** The rounding of one operation. *)
Variable rnd : R -> R.

Definition filter_axis_r (ws : list (Z * R)) (m : pmode) (cval : R) (a : arr R) (ax : nat) : arr R :=
  tabulate (shp a) (fun idx => rnd (Sum (fun ow => snd ow * sample m cval a ax idx (fst ow))%R ws)).
Definition filter_nd_r (ws : list (Z * R)) (m : pmode) (cval : R) (a : arr R) : arr R :=
  fold_left (filter_axis_r ws m cval) (seq 0 (length (shp a))) a.

(** ** Lines 384-412, one pixel *)

(** Division of arrays followed by np.nan_to_num(..., nan=1.0) *)
Definition nan1_r (big num den : R) : R :=
  if Req_EM_T den 0 then nan1 big num den else rnd (num / den).

(** [cov_norm * (uab - ua * ub)], lines 384-391 *)
Definition variance_r (P : ssim_params) (uab ua ub : R) : R :=
  rnd (rnd (p_cov P) * rnd (uab - rnd (ua * ub))).

(** np.sqrt of a single precision number; NaN (None) if it is negative *)
Definition sqrt_r (x : R) : option R := option_map rnd (osqrt x).

(** lines 395-400 *)
Definition stru_r (big : R) (P : ssim_params) (vx vy vxy : R) : R :=
  let c3 := rnd (p_c2 P / 2) in
  match sqrt_r vx, sqrt_r vy with
  | Some sx, Some sy => nan1_r big (rnd (vxy + c3)) (rnd (rnd (sx * sy) + c3))
  | _, _ => 1%R
  end.

(** lines 402-405 *)
Definition con_r (big : R) (P : ssim_params) (vx vy : R) : R :=
  let c2 := rnd (p_c2 P) in
  match sqrt_r vx, sqrt_r vy with
  | Some sx, Some sy => nan1_r big (rnd (rnd (rnd (2 * sx) * sy) + c2)) (rnd (rnd (vx + vy) + c2))
  | _, _ => 1%R
  end.

(** lines 407-410 *)
Definition lum_r (big : R) (P : ssim_params) (ux uy : R) : R :=
  let c1 := rnd (p_c1 P) in
  nan1_r big (rnd (rnd (rnd (2 * ux) * uy) + c1)) (rnd (rnd (rnd (ux * ux) + rnd (uy * uy)) + c1)).

Definition ssim_pixel_r (big : R) (P : ssim_params) (ux uy uxx uyy uxy : R) : R :=
  let vx := variance_r P uxx ux ux in
  let vy := variance_r P uyy uy uy in
  let vxy := variance_r P uxy ux uy in
  rnd (rnd (rnd (zpow (lum_r big P ux uy) (p_al P)) * rnd (zpow (con_r big P vx vy) (p_be P)))
       * rnd (zpow (stru_r big P vx vy vxy) (p_ga P))).

(** Lines 373-380: products and filters. [r], [m] are already single precision. *)
Definition amul_r (a b : arr R) : arr R :=
  tabulate (shp a) (fun idx => rnd (getd a idx * getd b idx)).

Definition ssim_map_r (big : R) (P : ssim_params) (r m : arr R) : arr R :=
  let f := filter_nd_r (p_ws P) (p_mode P) (p_cval P) in
  let ux := f r in let uy := f m in
  let uxx := f (amul_r r r) in let uyy := f (amul_r m m) in let uxy := f (amul_r r m) in
  tabulate (shp r) (fun idx =>
    ssim_pixel_r big P (getd ux idx) (getd uy idx) (getd uxx idx) (getd uyy idx) (getd uxy idx)).

Definition structural_similarity_r (big : R) (r m : arr R) (kw : dict kwval) : res ext :=
  let* P := ssim_setup (shp r) kw in
  let s := ssim_map_r big P (amap rnd r) (amap rnd m) in                      (* 366-367 *)
  let* c := slice s (map (fun n => (p_pad P, Z.of_nat n - p_pad P)%Z) (shp r)) in
  Ok (mean_of (dat c)).

End Rounding.
