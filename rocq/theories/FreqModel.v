(** Model of the frequency domain part of MAD: _fft and _ifft (utils/misc.py lines 195-202),
    gabor_convolve (utils/misc.py lines 210-417) and _contrast_sensitivity_function
    (fr_metrics/mad.py lines 849-911) with its use in _high_quality (lines 572-612).

    fftn and ifftn of scipy are written out as the finite sums they compute, fftshift and ifftshift as
    rolls of the indices. Numbers are exact; complex numbers are pairs. *)
From Coq Require Import Reals.
From Verif Require Import Base NdArray PairModel RealSums MetricModel SsimModel GsmModel MadModel.

Local Open Scope R_scope.

(** ** Complex numbers *)

Definition cplx : Type := R * R.
Definition c0 : cplx := (0, 0).
Definition c1 : cplx := (1, 0).
Definition creal (x : R) : cplx := (x, 0).
Definition cadd (a b : cplx) : cplx := (fst a + fst b, snd a + snd b).
Definition cmul (a b : cplx) : cplx := (fst a * fst b - snd a * snd b, fst a * snd b + snd a * fst b).
Definition copp (a : cplx) : cplx := (- fst a, - snd a).
Definition csub (a b : cplx) : cplx := (fst a - fst b, snd a - snd b).
Definition cabs (a : cplx) : R := sqrt (fst a * fst a + snd a * snd a).
(** exp (i t) *)
Definition cis (t : R) : cplx := (cos t, sin t).
Fixpoint csum (f : nat -> cplx) (n : nat) : cplx :=
  match n with O => c0 | S k => cadd (csum f k) (f k) end.

(** ** Transforms of an m x n array *)

Definition phase (m n k l x y : nat) : R := 2 * PI * (INR k * INR x / INR m + INR l * INR y / INR n).
(** fftn *)
Definition dft (m n : nat) (a : nat -> nat -> cplx) (k l : nat) : cplx :=
  csum (fun x => csum (fun y => cmul (a x y) (cis (- phase m n k l x y))) n) m.
(** ifftn *)
Definition idft (m n : nat) (a : nat -> nat -> cplx) (x y : nat) : cplx :=
  cmul (creal (/ INR (m * n)))
    (csum (fun k => csum (fun l => cmul (a k l) (cis (phase m n k l x y))) n) m).
(** np.roll by n // 2 along both axes, and back. *)
Definition fftshift {A} (m n : nat) (a : nat -> nat -> A) (i j : nat) : A :=
  a ((i + (m - m / 2)) mod m)%nat ((j + (n - n / 2)) mod n)%nat.
Definition ifftshift {A} (m n : nat) (a : nat -> nat -> A) (i j : nat) : A :=
  a ((i + m / 2) mod m)%nat ((j + n / 2) mod n)%nat.

(** misc.py lines 195-202 *)
Definition fft_ (m n : nat) (a : nat -> nat -> cplx) : nat -> nat -> cplx := fftshift m n (dft m n a).
Definition ifft_ (m n : nat) (a : nat -> nat -> cplx) : nat -> nat -> cplx := idft m n (ifftshift m n a).

(** np.arctan2; the sign of a zero does not matter here, see the uses. *)
Definition arctan2 (y x : R) : R :=
  if Rlt_dec 0 x then atan (y / x)
  else if Rlt_dec x 0 then (if Rle_dec 0 y then atan (y / x) + PI else atan (y / x) - PI)
  else if Rlt_dec 0 y then PI / 2 else if Rlt_dec y 0 then - PI / 2 else 0.

(** ** Contrast sensitivity function, mad.py lines 849-911 *)

(** [np.arange(-n / 2 + 0.5, n / 2 + 0.5)] *)
Definition csf_coord (n i : nat) : R := - INR n / 2 + 1/2 + INR i.
(** Weight of one point of the plane, lines 890-910. *)
Definition csf_weight (lambda f_peak : R) (px py : R) : R :=
  let w := 7/10 in
  let rad := cabs (px, py) in
  let s := (1 - w) / 2 * cos (4 * arctan2 py px) + (1 + w) / 2 in
  let rad := rad / s in
  if Rlt_dec rad f_peak then 9809/10000
  else 26/10 * (192/10000 + lambda * rad) * exp (- rpow (lambda * rad) (11/10)).
Definition csf (m n : nat) (nfreq lambda f_peak : R) (i j : nat) : R :=
  csf_weight lambda f_peak (csf_coord n j * 2 * nfreq / INR n) (csf_coord m i * 2 * nfreq / INR n).

(** mad.py lines 572-586: None is account_monitor=False. *)
Definition cycles_per_degree (monitor : option (R * R)) : R :=
  match monitor with
  | Some (disp_res, view_dis) => disp_res * view_dis * tan (PI / 180) / 2
  | None => 32
  end.

(** ** The filter of the high-quality index, mad.py lines 606-610 *)

Definition pixels (a : arr R) (x y : nat) : cplx := creal (getd a [x; y]).
Definition weighted (m n : nat) (w : nat -> nat -> R) (a : nat -> nat -> cplx) : nat -> nat -> cplx :=
  ifft_ m n (fun i j => cmul (creal (w i j)) (fft_ m n a i j)).
Definition parts (m n : nat) (a : nat -> nat -> cplx) : arr R * arr R :=
  (tabulate [m; n] (fun idx => fst (a (nth 0%nat idx 0%nat) (nth 1%nat idx 0%nat))),
   tabulate [m; n] (fun idx => snd (a (nth 0%nat idx 0%nat) (nth 1%nat idx 0%nat)))).
(** Real and imaginary part of [_ifft(csf * _fft(lum))]: the argument [filt] of MadModel. *)
Definition csf_filter (nfreq lambda f_peak : R) (lum : arr R) : arr R * arr R :=
  let m := dim0 lum in let n := dim1 lum in
  parts m n (weighted m n (csf m n nfreq lambda f_peak) (pixels lum)).

(** ** gabor_convolve, misc.py lines 210-417 *)

(** np.linspace *)
Definition linspace (a b : R) (n i : nat) : R :=
  if (n =? 1)%nat then a else a + INR i * ((b - a) / INR (n - 1)).
(** _get_range, lines 339-348 *)
Definition get_range (n i : nat) : R :=
  (if Nat.even n then linspace (- INR n / 2) ((INR n - 2) / 2) n i
   else linspace (- INR n / 2) (INR n / 2) n i) / (INR n / 2).

Record gabor_opts := { g_min : R; g_scaling : R; g_bandwidth : R; g_dtheta : R }.
(** The values used by mad.py, lines 748-765. *)
Definition mad_gabor : gabor_opts := {| g_min := 3; g_scaling := 3; g_bandwidth := 55/100; g_dtheta := 3/2 |}.

(** Lines 359-360 *)
Definition gabor_radius (x y : R) : R :=
  let r := sqrt (x ^ 2 + y ^ 2) in if Req_EM_T r 0 then 1 else r.
(** Lines 373-379 *)
Definition log_gabor (o : gabor_opts) (scale : nat) (radius : R) : R :=
  let centre := 1 / (g_min o * g_scaling o ^ scale) / (1/2) in
  exp ((ln radius - ln centre) ^ 2 / - (2 * ln (g_bandwidth o) ^ 2)).
(** Lines 363-365, 368 and 394-406. *)
Definition gabor_spread (o : gabor_opts) (orients orient : nat) (x y : R) : R :=
  let theta := arctan2 (- y) x in
  let sigma := PI / INR orients / g_dtheta o in
  let angle := INR orient * PI / INR orients in
  let diff_sin := sin theta * cos angle - cos theta * sin angle in
  let diff_cos := cos theta * cos angle + sin theta * sin angle in
  let d := Rabs (arctan2 diff_sin diff_cos) in
  exp (- d ^ 2 / (2 * sigma ^ 2)).

(** Lines 380 and 411: the product for row i and column j of the centred grid. *)
Definition gabor_centred (o : gabor_opts) (orients m n scale orient i j : nat) : R :=
  let x := get_range n j in let y := get_range m i in
  (if (i =? m / 2)%nat && (j =? n / 2)%nat then 0 else log_gabor o scale (gabor_radius x y))
  * gabor_spread o orients orient x y.
(** Lines 411-412 *)
Definition gabor_filter (o : gabor_opts) (orients m n scale orient k l : nat) : R :=
  if (k =? 0)%nat && (l =? 0)%nat then 0
  else fftshift m n (gabor_centred o orients m n scale orient) k l.
(** Line 415 *)
Definition gabor_response (o : gabor_opts) (orients m n : nat) (a : nat -> nat -> cplx) (scale orient : nat)
  : nat -> nat -> cplx :=
  idft m n (fun k l => cmul (dft m n a k l) (creal (gabor_filter o orients m n scale orient k l))).

(** Line 324: two dimensions. Line 368: np.pi / orientations_num. The other parameters are those of
    mad.py and do not divide by zero. *)
Definition gabor_convolve (o : gabor_opts) (scales orients : nat) (img : arr R)
  : res (nat -> nat -> nat -> nat -> cplx) :=
  if negb (length (shp img) =? 2)%nat then Err ValueError
  else if (orients =? 0)%nat then Err ZeroDivisionError
  else Ok (gabor_response o orients (dim0 img) (dim1 img) (pixels img)).

(** [np.abs(gabor_convolve(img, ...)[scale, orientation])] as mad.py calls it: the argument [gabor]
    of MadModel. *)
Definition gabor_abs (orients : nat) (img : arr R) (scale orient : nat) : arr R :=
  tabulate [dim0 img; dim1 img]
    (fun idx => cabs (gabor_response mad_gabor orients (dim0 img) (dim1 img) (pixels img) scale orient
                        (nth 0%nat idx 0%nat) (nth 1%nat idx 0%nat))).
