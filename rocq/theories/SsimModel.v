(** Model of structural_similarity, SSIM.score (src/viqa/fr_metrics/ssim.py) and UQI.score
    (src/viqa/fr_metrics/uqi.py). No proofs here. Exact real arithmetic. *)
From Coq Require Import Reals.
From Verif Require Import Base NdArray LoadModel NormModel PairModel RealSums MetricModel.

(** ** Filters (scipy.ndimage) *)

(** Border handling along one axis of length [n >= 1]: the pixel read for position [p];
    None stands for the fill value. *)
Inductive pmode := Reflect | Mirror | Nearest | Wrap | Constant.

Definition mode_of (s : string) : option pmode :=
  (if String.eqb s "reflect" || String.eqb s "grid-mirror" then Some Reflect
   else if String.eqb s "mirror" then Some Mirror
   else if String.eqb s "nearest" then Some Nearest
   else if String.eqb s "wrap" || String.eqb s "grid-wrap" then Some Wrap
   else if String.eqb s "constant" || String.eqb s "grid-constant" then Some Constant
   else None)%string.

Definition pad_pos (m : pmode) (n : nat) (p : Z) : option nat :=
  let n' := Z.of_nat n in
  match m with
  | Reflect => let q := (p mod (2 * n'))%Z in
               Some (Z.to_nat (if q <? n' then q else 2 * n' - 1 - q)%Z)
  | Mirror => if n =? 1 then Some 0
              else let q := (p mod (2 * n' - 2))%Z in
                   Some (Z.to_nat (if q <? n' then q else 2 * n' - 2 - q)%Z)
  | Nearest => Some (Z.to_nat (Z.min (n' - 1) (Z.max 0 p)))
  | Wrap => Some (Z.to_nat (p mod n'))
  | Constant => if ((0 <=? p) && (p <? n'))%Z then Some (Z.to_nat p) else None
  end.

(** Element of an array at an index known to be in range (the default is never used, see
    SsimProofs.filter_kernel). *)
Definition getd (a : arr R) (idx : list nat) : R :=
  match get a idx with Some v => v | None => 0%R end.

(** 1-D filter along axis [ax]: weights [ws] with their offsets. *)
Definition sample (m : pmode) (cval : R) (a : arr R) (ax : nat) (idx : list nat) (o : Z) : R :=
  match pad_pos m (nth ax (shp a) 0) (Z.of_nat (nth ax idx 0) + o) with
  | Some q => getd a (upd idx ax q)
  | None => cval
  end.
Definition filter_axis (ws : list (Z * R)) (m : pmode) (cval : R) (a : arr R) (ax : nat) : arr R :=
  tabulate (shp a) (fun idx => Sum (fun ow => snd ow * sample m cval a ax idx (fst ow))%R ws).
(** All axes one after the other. *)
Definition filter_nd (ws : list (Z * R)) (m : pmode) (cval : R) (a : arr R) : arr R :=
  fold_left (filter_axis ws m cval) (seq 0 (length (shp a))) a.

(** Offsets -r..r *)
Definition offsets (r : nat) : list Z := map (fun i => (Z.of_nat i - Z.of_nat r)%Z) (seq 0 (2 * r + 1)).

(** gaussian_filter: weights exp(-k^2/(2 sigma^2)) over -r..r, normalised. *)
Definition gauss (sigma : R) (k : Z) : R := exp (- (IZR k * IZR k) / (2 * (sigma * sigma))).
Definition gaussian_weights (sigma : R) (r : nat) : list (Z * R) :=
  let t := Sum (gauss sigma) (offsets r) in
  map (fun k => (k, gauss sigma k / t)%R) (offsets r).

(** uniform_filter of odd [size]; axes with size <= 1 are skipped. *)
Definition uniform_weights (size : Z) : list (Z * R) :=
  if (size <=? 1)%Z then [(0%Z, 1%R)]
  else map (fun k => (k, / IZR size)%R) (offsets (Z.to_nat ((size - 1) / 2))).

(** ** Keyword arguments *)

Inductive kwval := KNone | KBool (b : bool) | KInt (z : Z) | KReal (x : R) | KText (s : string).

Definition as_num (v : option kwval) (dflt : R) : res R :=
  match v with
  | None => Ok dflt
  | Some (KInt z) => Ok (IZR z)
  | Some (KReal x) => Ok x
  | Some (KBool b) => Ok (if b then 1%R else 0%R)
  | _ => Err TypeError
  end.

(** [f( **explicit, **user)]: a keyword given twice is a TypeError. *)
Definition merge_kwargs (explicit user : dict kwval) : res (dict kwval) :=
  if existsb (fun k => existsb (String.eqb k) (dkeys explicit)) (dkeys user) then Err TypeError
  else Ok (explicit ++ user).

(** ** structural_similarity, ssim.py lines 200-421 *)

(** The parameters after lines 296-356. *)
Record ssim_params := SsimParams {
  p_ws : list (Z * R); p_mode : pmode; p_cval : R;      (* filter *)
  p_pad : Z;                                            (* cropped border *)
  p_cov : R;                                            (* cov_norm *)
  p_c1 : R; p_c2 : R;
  p_al : Z; p_be : Z; p_ga : Z;
}.

(** [int(truncate * sigma + 0.5)] with truncate = 3.5 *)
Definition gauss_radius (sigma : R) : nat := Z.to_nat (Rtrunc (35 / 10 * sigma + 5 / 10)).

Definition flag (v : option kwval) (dflt : bool) : bool :=
  match v with
  | None => dflt
  | Some (KBool b) => b
  | Some (KInt z) => negb (z =? 0)%Z
  | Some KNone => false
  | Some (KReal x) => if Req_EM_T x 0 then false else true
  | Some (KText s) => negb (String.eqb s "")
  end.

(** [win_size] of a call; floating-point numbers are not modelled (a TypeError in the end, but a ValueError
    of lines 328-341 comes first). *)
Definition win_arg (v : option kwval) : res (option Z) :=
  match v with
  | None | Some KNone => Ok None
  | Some (KInt z) => Ok (Some z)
  | Some (KBool b) => Ok (Some (if b then 1 else 0)%Z)
  | _ => Err TypeError
  end.

(** [int(alpha)] of a call, lines 355-363: texts are read as numbers. *)
Definition as_exp (v : option kwval) : res R :=
  match v with
  | Some (KText s) => let* z := py_int (list_ascii_of_string s) in Ok (IZR z)
  | _ => as_num v 1
  end.

Definition ssim_setup (shape : list nat) (kw : dict kwval) : res ssim_params :=
  let* k1 := as_num (dget kw "K1") (1 / 100) in                               (* 306-314 *)
  if Rlt_dec k1 0 then Err ValueError else
  let* k2 := as_num (dget kw "K2") (3 / 100) in
  if Rlt_dec k2 0 then Err ValueError else
  let* sigma := as_num (dget kw "sigma") (15 / 10) in
  if Rlt_dec sigma 0 then Err ValueError else
  let gaussian := flag (dget kw "gaussian_weights") true in
  let* given := win_arg (dget kw "win_size") in
  let r := gauss_radius sigma in
  let win := match given with                                                 (* 321-328 *)
             | Some w => w
             | None => if gaussian then (2 * Z.of_nat r + 1)%Z else 7%Z
             end in
  if existsb (fun n => (Z.of_nat n - win <? 0)%Z) shape then Err ValueError   (* 330 *)
  else if negb (win mod 2 =? 1)%Z then Err ValueError                         (* 340 *)
  else
    let* al := as_exp (dget kw "alpha") in                                    (* 355-363 *)
    let* be := as_exp (dget kw "beta") in
    let* ga := as_exp (dget kw "gamma") in
    let n := (win ^ Z.of_nat (length shape))%Z in                             (* 369-371 *)
    let pop := gaussian && match given with None => true | Some _ => false end in
    let* cov := if pop then Ok 1%R
                else if (n - 1 =? 0)%Z then Err ZeroDivisionError
                else Ok (IZR n / IZR (n - 1))%R in
    (* scipy looks at mode and cval, in this order, only if there is something to filter *)
    let filters := if gaussian then (if Rlt_dec (1 / 10 ^ 15) sigma then true else false)
                   else (1 <? win)%Z in
    let* mode := if filters
                 then match dget kw "mode" with
                      | None => Ok Reflect
                      | Some (KText s) => from_opt RuntimeError (mode_of s)
                      | Some _ => Err RuntimeError
                      end
                 else Ok Reflect in
    let* cval := match as_num (dget kw "cval") 0 with
                 | Err e => if filters then Err e else Ok 0%R
                 | v => v
                 end in
    let* dr := as_num (match dget kw "data_range" with None => Some KNone | v => v end) 0 in
    Ok {| p_ws := if gaussian then gaussian_weights sigma r else uniform_weights win;
          p_mode := mode; p_cval := cval;
          p_pad := ((win - 1) / 2)%Z;
          p_cov := cov;
          (* 395-396 *)
          p_c1 := ((k1 * dr) * (k1 * dr))%R; p_c2 := ((k2 * dr) * (k2 * dr))%R;
          p_al := Rtrunc al; p_be := Rtrunc be; p_ga := Rtrunc ga |}.

(** np.sqrt: NaN (None) for negative numbers. *)
Definition osqrt (x : R) : option R := if Rlt_dec x 0 then None else Some (sqrt x).

(** [np.nan_to_num(num / den, nan=1.0)]; [big] is the largest float, used for infinities. *)
Definition nan1 (big num den : R) : R :=
  if Req_EM_T den 0
  then if Rlt_dec 0 num then big else if Rlt_dec num 0 then (- big)%R else 1%R
  else (num / den)%R.

(** [x ** e] with an integer exponent (0 ** negative is simplified). *)
Definition zpow (x : R) (e : Z) : R :=
  if (0 <=? e)%Z then pow x (Z.to_nat e) else (/ pow x (Z.to_nat (- e)))%R.

(** One pixel, lines 375-407. *)
Definition ssim_pixel (big : R) (P : ssim_params) (ux uy uxx uyy uxy : R) : R :=
  let vx := (p_cov P * (uxx - ux * ux))%R in
  let vy := (p_cov P * (uyy - uy * uy))%R in
  let vxy := (p_cov P * (uxy - ux * uy))%R in
  let c3 := (p_c2 P / 2)%R in
  let stru := match osqrt vx, osqrt vy with
              | Some sx, Some sy => nan1 big (vxy + c3) (sx * sy + c3)
              | _, _ => 1%R
              end in
  let con := match osqrt vx, osqrt vy with
             | Some sx, Some sy => nan1 big (2 * sx * sy + p_c2 P) (vx + vy + p_c2 P)
             | _, _ => 1%R
             end in
  let lum := nan1 big (2 * ux * uy + p_c1 P) (ux * ux + uy * uy + p_c1 P) in
  (zpow lum (p_al P) * zpow con (p_be P) * zpow stru (p_ga P))%R.

Definition amul (a b : arr R) : arr R :=
  tabulate (shp a) (fun idx => getd a idx * getd b idx)%R.

Definition ssim_map (big : R) (P : ssim_params) (r m : arr R) : arr R :=
  let f := filter_nd (p_ws P) (p_mode P) (p_cval P) in
  let ux := f r in let uy := f m in
  let uxx := f (amul r r) in let uyy := f (amul m m) in let uxy := f (amul r m) in
  tabulate (shp r) (fun idx =>
    ssim_pixel big P (getd ux idx) (getd uy idx) (getd uxx idx) (getd uyy idx) (getd uxy idx)).

(** Mean of an array; NaN if it is empty. *)
Definition mean_of (l : list R) : ext :=
  match l with [] => NaN | _ => Fin (rsum l / INR (length l)) end.

(** skimage.util.crop(ssim, pad): slice(pad, n - pad) per axis; lines 409-419. *)
Definition structural_similarity (big : R) (r m : arr R) (kw : dict kwval) : res ext :=
  let* P := ssim_setup (shp r) kw in
  let s := ssim_map big P r m in
  let* c := slice s (map (fun n => (p_pad P, Z.of_nat n - p_pad P)%Z) (shp r)) in
  Ok (mean_of (dat c)).

(** ** SSIM.score, ssim.py lines 127-179, after loading the images *)

(** [img[..., c]] *)
Definition channel (a : arr R) (c : nat) : arr R :=
  tabulate (removelast (shp a)) (fun idx => getd a (idx ++ [c])).

Definition mean_ext (l : list ext) : ext :=
  match l with
  | [] => NaN
  | _ => ext_mul (Fin (/ INR (length l))) (fold_left ext_add l (Fin 0))
  end.

(** [color_weights * np.array(scores)]: equal lengths, or one of them 1. *)
Definition broadcast_mul (w : list R) (l : list ext) : res (list ext) :=
  if length w =? length l then Ok (map (fun p => ext_mul (Fin (fst p)) (snd p)) (combine w l))
  else match w, l with
       | [w0], _ => Ok (map (ext_mul (Fin w0)) l)
       | _, [l0] => Ok (map (fun w0 => ext_mul (Fin w0) l0) w)
       | _, _ => Err ValueError
       end.

Definition ssim_score (big : R) (dr : kwval) (chromatic : bool) (r m : arr R)
    (color_weights : option (list R)) (kwargs : dict kwval) : res ext :=
  if chromatic then
    match color_weights with
    | None => Err ValueError                                                  (* 161 *)
    | Some w =>
        let* scores := mapM (fun c =>
          let* kw := merge_kwargs [("data_range", dr)]%string kwargs in
          structural_similarity big (channel r c) (channel m c) kw) (seq 0 (last (shp r) 0)) in
        let* p := broadcast_mul w scores in
        Ok (mean_ext p)                                                       (* 172 *)
    end
  else
    let* kw := merge_kwargs [("data_range", dr)]%string kwargs in
    structural_similarity big r m kw.

(** ** UQI.score, uqi.py lines 151-167 *)
Definition uqi_score (big : R) (dr : kwval) (r m : arr R) (kwargs : dict kwval) : res ext :=
  let* kw := merge_kwargs
    [("data_range", dr); ("k_1", KInt 0); ("k_2", KInt 0); ("alpha", KInt 1); ("beta", KInt 1);
     ("gamma", KInt 1); ("gaussian_weights", KBool false)]%string kwargs in
  structural_similarity big r m kw.
