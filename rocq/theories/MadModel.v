(** Model of fr_metrics/mad.py, of fr_metrics/stat_utils/statisticsmodule.c and of
    _extract_blocks (utils/misc.py).

    The image that comes out of the contrast sensitivity filter (mad.py lines 575-611) and the
    log-Gabor responses (misc.py gabor_convolve) are arbitrary functions of the input image here;
    FreqModel.v defines the two functions of the package. Grey values are finite reals (floats: non-negative, otherwise the
    lightness is not a number); integer overflow of the C counters is not modelled. *)
From Coq Require Import Reals.
From Verif Require Import Base NdArray LoadModel NormModel PairModel RealSums MetricModel SsimModel GsmModel.

(** ** Loops *)

Fixpoint foldM {S A} (f : S -> A -> res S) (l : list A) (st : S) : res S :=
  match l with [] => Ok st | x :: l' => let* st' := f st x in foldM f l' st' end.

(** [range(0, stop, s)] for s >= 1; also the C loop [for (i = 0; i < stop; i += s)]. *)
Definition steps (stop s : nat) : list nat := map (fun k => k * s) (seq 0 ((stop + s - 1) / s)).
Definition grid (rows cols : list nat) : list (nat * nat) :=
  flat_map (fun i => map (fun j => (i, j)) cols) rows.
(** The cells of a b x b window at (i, j), row by row. *)
Definition window (i j b : nat) : list (nat * nat) := grid (seq i b) (seq j b).

(** ** _extract_blocks, utils/misc.py lines 169-192 *)

Definition dim0 {A} (a : arr A) : nat := nth 0 (shp a) 0.
Definition dim1 {A} (a : arr A) : nat := nth 1 (shp a) 0.

(** Positions of the blocks. *)
Definition block_grid (m n b s : nat) : list (nat * nat) :=
  grid (steps (m - (b - 1)) s) (steps (n - (b - 1)) s).

(** A slice [img[i:i+b, j:j+b]] of a 2D image (slices stop at the border). *)
Definition block (img : arr R) (b : nat) (p : nat * nat) : arr R :=
  tabulate [Nat.min (fst p + b) (dim0 img) - fst p; Nat.min (snd p + b) (dim1 img) - snd p]
    (fun idx => getd img [fst p + nth 0 idx 0; snd p + nth 1 idx 0]).

(** 2D images only: [m, n = img.shape]. The boxes all have the same shape, so np.array stacks them. *)
Definition extract_blocks (img : arr R) (b s : nat) : res (list (arr R)) :=
  if length (shp img) =? 2 then Ok (map (block img b) (block_grid (dim0 img) (dim1 img) b s))
  else Err ValueError.

(** ** Statistics of a list of values *)

Local Open Scope R_scope.
Definition lmean (l : list R) : R := Sum (fun x => x) l / INR (length l).
Definition dev (k : nat) (l : list R) : R := Sum (fun x => (x - lmean l) ^ k) l.
(** with ddof = 1: 0/0 for a single value *)
Definition std1 (l : list R) : ext :=
  if (length l =? 1)%nat then NaN else Fin (sqrt (dev 2 l / INR (length l - 1))).
Definition std0 (l : list R) : R := sqrt (dev 2 l / INR (length l)).
Definition skew (l : list R) : R :=
  if Req_EM_T (std0 l) 0 then 0 else dev 3 l / (INR (length l) * std0 l ^ 3).
Definition kurt (l : list R) : R :=
  if Req_EM_T (std0 l) 0 then 0 else dev 4 l / (INR (length l) * std0 l ^ 4).
Local Close Scope R_scope.

(** ** statisticsmodule.c

    An n x m array is a buffer of n * m doubles and n row pointers into it (pymatrix_to_Carrayptrs,
    lines 238-252): [c[u][v]] is the flat element u * m + v, provided u < n and the element lies in
    the buffer. Anything else is a MemoryFault. A buffer is a function from flat positions; the
    output buffers start with whatever the allocation contained. *)

Definition cell (n m : nat) (uv : nat * nat) : option nat :=
  if (fst uv <? n) && (fst uv * m + snd uv <? n * m) then Some (fst uv * m + snd uv) else None.
Definition cread {A} (n m : nat) (buf : nat -> A) (uv : nat * nat) : res A :=
  let* p := from_opt MemoryFault (cell n m uv) in Ok (buf p).
Definition cwrite {A} (n m : nat) (v : A) (buf : nat -> A) (uv : nat * nat) : res (nat -> A) :=
  let* p := from_opt MemoryFault (cell n m uv) in
  Ok (fun q => if q =? p then v else buf q).

(** The loops over i and j: i (a row) is bounded by the number of columns and j (a column) by the
    number of rows. Lines 78-79, 110-111, 171-172. *)
Definition c_tiles (n m b s : nat) : list (nat * nat) :=
  grid (steps (m - (b - 1)) s) (steps (n - (b - 1)) s).

(** minstd, lines 77-107: block deviations into both arrays. *)
Definition minstd_pass1 (n m b s : nat) (buf : nat -> R) (st : (nat -> ext) * (nat -> ext)) (t : nat * nat)
  : res ((nat -> ext) * (nat -> ext)) :=
  let* vals := mapM (cread n m buf) (window (fst t) (snd t) b) in
  let* tmp := foldM (cwrite n m (std1 vals)) (window (fst t) (snd t) s) (fst st) in
  let* out := foldM (cwrite n m (std1 vals)) (window (fst t) (snd t) s) (snd st) in
  Ok (tmp, out).

(** [for (u = i; u < b/2; u += s+1)] *)
Definition search (i b s : nat) : list nat := map (fun k => i + k * (s + 1)) (seq 0 ((b / 2 - i + s) / (s + 1))).

(** Lines 109-130. *)
Definition minstd_pass2 (n m b s : nat) (tmp : nat -> ext) (out : nat -> ext) (t : nat * nat) : res (nat -> ext) :=
  let* v0 := cread n m tmp t in
  let* val := foldM (fun val uv => let* x := cread n m tmp uv in Ok (if ext_ltb x val then x else val))
                (grid (search (fst t) b s) (search (snd t) b s)) v0 in
  foldM (cwrite n m val) (window (fst t) (snd t) s) out.

Definition minstd (n m b s : nat) (buf : nat -> R) (tmp0 out0 : nat -> ext) : res (nat -> ext) :=
  let* st := foldM (minstd_pass1 n m b s buf) (c_tiles n m b s) (tmp0, out0) in
  foldM (minstd_pass2 n m b s (fst st)) (c_tiles n m b s) (snd st).

(** getstatistics, lines 170-221; the three output arrays are written at the same positions. *)
Definition stat3 : Type := ext * ext * ext.
Definition getstat_tile (n m b s : nat) (buf : nat -> R) (out : nat -> stat3) (t : nat * nat) : res (nat -> stat3) :=
  let* vals := mapM (cread n m buf) (window (fst t) (snd t) b) in
  foldM (cwrite n m (std1 vals, Fin (skew vals), Fin (kurt vals))) (window (fst t) (snd t) s) out.
Definition getstatistics (n m b s : nat) (buf : nat -> R) (out0 : nat -> stat3) : res (nat -> stat3) :=
  foldM (getstat_tile n m b s buf) (c_tiles n m b s) out0.

(** ** Lightness, mad.py lines 808-846 *)

Inductive mimg := MFloat (a : arr R) | MInt (a : arr Z).
Definition mvals (i : mimg) : arr R := match i with MFloat a => a | MInt a => amap IZR a end.

Local Open Scope R_scope.
(** x ** y for x >= 0 and y > 0 *)
Definition rpow (x y : R) : R := if Req_EM_T x 0 then 0 else Rpower x y.

Definition lut (b k gamma : R) (dr : Z) : list R :=
  map (fun v => b + k * rpow (INR v) (gamma / 3)) (seq 0 (Z.to_nat (dr + 1))).
(** Indexing a list with a python integer. *)
Definition pyindex {A} (l : list A) (v : Z) : res A :=
  let n := Z.of_nat (length l) in
  from_opt IndexError
    (if (0 <=? v)%Z then nth_error l (Z.to_nat v)
     else if (0 <=? n + v)%Z then nth_error l (Z.to_nat (n + v)) else None).

Definition lightness (b k gamma : R) (dr : Z) (i : mimg) : res (arr R) :=
  match i with
  | MInt a => let* l := mapM (pyindex (lut b k gamma dr)) (dat a) in Ok (Arr (shp a) l)
  | MFloat a => Ok (amap (fun x => b + k * rpow x (gamma / 3)) a)
  end.

(** ** Helpers on extended numbers *)

Definition ext_ln (x : ext) : ext :=
  match x with
  | Fin x => if Rlt_dec 0 x then Fin (ln x) else if Req_EM_T x 0 then NInf else NaN
  | PInf => PInf
  | _ => NaN
  end.
Definition ext_sqrt (x : ext) : ext :=
  match x with
  | Fin x => if Rlt_dec x 0 then NaN else Fin (sqrt x)
  | PInf => PInf
  | _ => NaN
  end.
Definition ext_abs (x : ext) : ext :=
  match x with Fin x => Fin (Rabs x) | PInf | NInf => PInf | NaN => NaN end.
Definition ext_leb (x y : ext) : bool := ext_ltb x y || ext_eqb x y.

(** C pow for a base that is not negative. *)
Definition ext_pow (x y : ext) : ext :=
  match x, y with
  | _, Fin y0 =>
      if Req_EM_T y0 0 then Fin 1 else
      match x with
      | Fin x => if Req_EM_T x 0 then (if Rlt_dec 0 y0 then Fin 0 else PInf)
                 else if Rlt_dec x 0 then NaN else Fin (Rpower x y0)
      | PInf => if Rlt_dec 0 y0 then PInf else Fin 0
      | _ => NaN
      end
  | Fin x, _ =>
      if Req_EM_T x 1 then Fin 1 else
      match y with
      | PInf => if Rlt_dec 1 x then PInf else Fin 0
      | NInf => if Rlt_dec 1 x then Fin 0 else PInf
      | _ => NaN
      end
  | PInf, PInf => PInf
  | PInf, NInf => Fin 0
  | _, _ => NaN
  end.

(** ** _high_quality, mad.py lines 537-702 *)

(** Lines 634-643: tiles get the statistics of the block with the same running number. *)
Definition hq_tiles (m n s : nat) : list (nat * nat) := grid (steps (m - s * 3) s) (steps (n - s * 3) s).
Definition in_tile (s : nat) (t : nat * nat) (x y : nat) : bool :=
  ((fst t <=? x) && (x <? fst t + s) && (snd t <=? y) && (y <? snd t + s))%nat.
Definition assign_blocks {A} (m n s : nat) (ps : list A) (init : nat -> nat -> A) : res (nat -> nat -> A) :=
  foldM (fun (f : nat -> nat -> A) kt => let* p := from_opt IndexError (nth_error ps (fst kt)) in
           Ok (fun x y => if in_tile s (snd kt) x y then p else f x y))
    (combine (seq 0 (length (hq_tiles m n s))) (hq_tiles m n s)) init.

(** Lines 645-683, one pixel: deviation of the reference, mean of the reference and deviation of the
    error. *)
Definition hq_mask (ms : R) (std_org : ext) (mu : R) (std_err : ext) : ext :=
  let c_org := ext_div std_org (Fin mu) in
  let c_err := if Rlt_dec (1/2) mu then ext_div std_err (Fin mu) else Fin 0 in
  let ci_org := ext_ln c_org in
  let ci_err := ext_ln c_err in
  let tmp := ext_add (ext_mul (Fin 1) (ext_sub ci_org (Fin (-5)))) (Fin (-5)) in
  let cond_1 := ext_ltb tmp ci_err && ext_ltb (Fin (-5)) ci_org in
  let cond_2 := ext_ltb (Fin (-5)) ci_err && ext_leb ci_org (Fin (-5)) in
  let msk := if cond_2 then ext_sub ci_err (Fin (-5)) else if cond_1 then ext_sub ci_err tmp else Fin 0 in
  ext_div msk (Fin ms).

(** Lines 685-687: scipy convolve with a b x b box; element k of the kernel meets the pixel at
    distance b // 2 - k. *)
Definition lum_mse (r m : arr R) (b : nat) (x y : nat) : R :=
  Sum (fun kl => 1 / INR b ^ 2 *
        (read Reflect 0 r [x; y] [Z.of_nat (b / 2) - Z.of_nat (fst kl); Z.of_nat (b / 2) - Z.of_nat (snd kl)]%Z
       - read Reflect 0 m [x; y] [Z.of_nat (b / 2) - Z.of_nat (fst kl); Z.of_nat (b / 2) - Z.of_nat (snd kl)]%Z) ^ 2)
    (window 0 0 b).

(** The cells kept by [bs:-bs, bs:-bs], lines 691 and 801. *)
Definition inner (n b : nat) : list nat :=
  seq (clip n (Z.of_nat b)) (clip n (- Z.of_nat b) - clip n (Z.of_nat b)).
Definition kept (m n b : nat) : list (nat * nat) := grid (inner m b) (inner n b).

(** [np.linalg.norm(x) / np.sqrt(np.prod(x.shape))] *)
Definition rms (l : list ext) : ext :=
  ext_div (ext_sqrt (fold_left ext_add (map (fun x => ext_mul x x) l) (Fin 0))) (Fin (sqrt (INR (length l)))).

(** np.real of a complex array is a view into it: minstd, which ignores strides, reads real and
    imaginary parts alternately. *)
Definition interleave (re im : arr R) (p : nat) : R :=
  if Nat.even p then nth (p / 2) (dat re) 0 else nth (p / 2) (dat im) 0.

(** Parameters of the high-quality index: lightness, mask scale. *)
Record hq_opts := { h_b : R; h_k : R; h_gamma : R; h_ms : R }.
(** Parameters of the low-quality index. *)
Record lq_opts := { l_orient : nat; l_scales : nat; l_weights : list R }.

Section mad.
(** Real and imaginary part of [_ifft(csf * _fft(lum))]. *)
Variable filt : arr R -> arr R * arr R.
(** [np.abs(gabor_convolve(img, ...)[scale, orientation])] *)
Variable gabor : arr R -> nat -> nat -> arr R.
(** Contents of freshly allocated output buffers, per call. *)
Variable junk : nat -> nat -> ext.
Variable junk3 : nat -> nat -> stat3.

Definition high_quality (o : hq_opts) (dr : Z) (b s : nat) (r m : mimg) : res ext :=
  let M := dim0 (mvals r) in let N := dim1 (mvals r) in
  let* lum_r := lightness (h_b o) (h_k o) (h_gamma o) dr r in
  let* lum_m := lightness (h_b o) (h_k o) (h_gamma o) dr m in
  let i_org := fst (filt lum_r) in
  let i_dst := fst (filt lum_m) in
  let i_err := tabulate [M; N] (fun idx => getd i_dst idx - getd i_org idx) in
  let* org_blocks := extract_blocks i_org b s in
  let* err_blocks := extract_blocks i_err b s in
  let ps := combine (map (fun x => lmean (dat x)) org_blocks) (map (fun x => std1 (dat x)) err_blocks) in
  let* std_org := minstd M N b s (interleave i_org (snd (filt lum_r))) (junk 0%nat) (junk 1%nat) in
  let* loc := assign_blocks M N s ps (fun _ _ => (0, Fin 0)) in
  let mp xy := ext_mul (hq_mask (h_ms o) (std_org (fst xy * N + snd xy)%nat)
                          (fst (loc (fst xy) (snd xy))) (snd (loc (fst xy) (snd xy))))
                       (Fin (lum_mse (mvals r) (mvals m) b (fst xy) (snd xy))) in
  Ok (ext_mul (rms (map mp (kept M N b))) (Fin 200)).

(** ** _low_quality, mad.py lines 705-805 *)

Definition stat_diff (w : ext) (p q : stat3) : ext :=
  let '(s1, k1, u1) := p in
  let '(s2, k2, u2) := q in
  ext_mul w (ext_add (ext_add (ext_abs (ext_sub s1 s2)) (ext_mul (Fin 2) (ext_abs (ext_sub k1 k2))))
                     (ext_abs (ext_sub u1 u2))).

Definition low_quality (o : lq_opts) (b s : nat) (r m : mimg) : res ext :=
  let M := dim0 (mvals r) in let N := dim1 (mvals r) in
  let ws := map (fun w => ext_div (Fin w) (Fin (Sum (fun x => x) (l_weights o)))) (l_weights o) in
  if negb (length ws =? l_scales o)%nat then Err ValueError
  else if (l_orient o =? 0)%nat then Err ZeroDivisionError  (* misc.py line 368: np.pi / orientations_num *)
  else
  let bands := grid (seq 0 (l_scales o)) (seq 0 (l_orient o)) in
  let* stats := mapM (fun so =>
      let num := (2 * (fst so * l_orient o + snd so))%nat in
      let* p := getstatistics M N b s (fun q => nth q (dat (gabor (mvals m) (fst so) (snd so))) 0) (junk3 num) in
      let* q := getstatistics M N b s (fun q => nth q (dat (gabor (mvals r) (fst so) (snd so))) 0) (junk3 (S num)) in
      Ok (nth (fst so) ws NaN, p, q)) bands in
  let pix xy := fold_left (fun acc wpq => let '(w, p, q) := wpq in
                   ext_add acc (stat_diff w (p (fst xy * N + snd xy)%nat) (q (fst xy * N + snd xy)%nat)))
                 stats (Fin 0) in
  Ok (rms (map pix (kept M N b))).

(** ** most_apparent_distortion, mad.py lines 341-534 *)

Definition given (t : option R) : option R :=
  match t with Some x => if Req_EM_T x 0 then None else Some x | None => None end.

(** Lines 508-521. *)
Definition betas (beta_1 beta_2 : R) (t1 t2 : option R) : R * R :=
  match given t1, given t2 with
  | Some a, Some b => (exp (- a / b), 1 / (ln 10 * b))
  | _, _ => (beta_1, beta_2)
  end.

(** Lines 528-530. *)
Definition combine_indices (beta_1 beta_2 : R) (d a : ext) : ext :=
  let alpha := ext_div (Fin 1) (ext_add (Fin 1) (ext_mul (Fin beta_1) (ext_pow d (Fin beta_2)))) in
  ext_mul (ext_pow d alpha) (ext_pow a (ext_sub (Fin 1) alpha)).

(** Lines 491-506: the block size must be positive and not larger than a side, the overlap in [0, 1). *)
Definition stride_of (m n : nat) (bs : Z) (ov : R) : res (nat * nat) :=
  if (Z.of_nat m <? bs)%Z || (Z.of_nat n <? bs)%Z then Err ValueError
  else if (0 <? bs)%Z then
    if Rle_dec 1 ov then Err ValueError else if Rlt_dec ov 0 then Err ValueError else
    Ok (Z.to_nat bs, Z.to_nat (bs - Int_part (ov * IZR bs)))
  else Err ValueError.

Definition most_apparent_distortion (ho : hq_opts) (lo : lq_opts) (dr bs : Z) (ov beta_1 beta_2 : R)
    (t1 t2 : option R) (r m : mimg) : res ext :=
  if negb (length (shp (mvals r)) =? 2)%nat then Err ValueError else
  let* st := stride_of (dim0 (mvals r)) (dim1 (mvals r)) bs ov in
  let* d := high_quality ho dr (fst st) (snd st) r m in
  let* a := low_quality lo (fst st) (snd st) r m in
  Ok (combine_indices (fst (betas beta_1 beta_2 t1 t2)) (snd (betas beta_1 beta_2 t1 t2)) d a).
End mad.
