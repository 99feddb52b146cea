(** Model of the metric base class (src/viqa/_metrics.py), the metric constructors,
    src/viqa/fusion.py, and RMSE/PSNR (src/viqa/fr_metrics). No proofs here. *)
From Coq Require Import Reals.
From Verif Require Import Base NdArray LoadModel NormModel PairModel.

(** ** Numbers as computed by float arithmetic, without rounding *)

Inductive ext := Fin (x : R) | PInf | NInf | NaN.

Definition Rsgn_ext (x : R) : ext :=         (* x * inf *)
  if Rlt_dec 0 x then PInf else if Rlt_dec x 0 then NInf else NaN.
Definition ext_neg (x : ext) : ext :=
  match x with Fin x => Fin (- x) | PInf => NInf | NInf => PInf | NaN => NaN end.
Definition ext_mul (x y : ext) : ext :=
  match x, y with
  | NaN, _ | _, NaN => NaN
  | Fin x, Fin y => Fin (x * y)
  | Fin x, PInf | PInf, Fin x => Rsgn_ext x
  | Fin x, NInf | NInf, Fin x => ext_neg (Rsgn_ext x)
  | PInf, PInf | NInf, NInf => PInf
  | PInf, NInf | NInf, PInf => NInf
  end.
Definition ext_add (x y : ext) : ext :=
  match x, y with
  | NaN, _ | _, NaN => NaN
  | Fin x, Fin y => Fin (x + y)
  | PInf, NInf | NInf, PInf => NaN
  | PInf, _ | _, PInf => PInf
  | NInf, _ | _, NInf => NInf
  end.
(** Comparisons with NaN are false. *)
Definition ext_ltb (x y : ext) : bool :=
  match x, y with
  | Fin x, Fin y => if Rlt_dec x y then true else false
  | Fin _, PInf | NInf, Fin _ | NInf, PInf => true
  | _, _ => false
  end.
Definition ext_eqb (x y : ext) : bool :=
  match x, y with
  | Fin x, Fin y => if Req_EM_T x y then true else false
  | PInf, PInf | NInf, NInf => true
  | _, _ => false
  end.

(** ** Metric objects *)

(** Values of constructor options; only truth value and identity with None matter. *)
Inductive pyval := PNone | PBool (b : bool) | PInt (z : Z) | PText (s : string) | PRoi (r : list (Z * Z)).

Definition truthy (v : pyval) : bool :=
  match v with
  | PNone => false
  | PBool b => b
  | PInt z => negb (z =? 0)%Z
  | PText s => negb (String.eqb s "")
  | PRoi r => match r with [] => false | _ => true end
  end.

(** Metric.score_val: None, a number, or the text export_results stores. *)
Inductive score := SNone | SNum (x : ext) | SStr (s : string).

Inductive mclass :=
| CRMSE | CPSNR | CSSIM | CUQI | CMSSSIM | CFSIM | CVIFp | CVSI | CMAD | CGSM
| CCNR | CSNR | CQMeasure.

Record metric := Metric {
  m_class : mclass;
  m_params : dict pyval;
  m_score : score;
  m_name : option string;
}.

(** [if data_range is None: raise ValueError] in the constructors: psnr.py 97, ssim.py 122,
    uqi.py 124, msssim.py 106, fsim.py 94, vif.py 99, vsi.py 98, mad.py 122, gsm.py 125;
    absent in rmse.py 84, cnr.py 101, snr.py 104, qmeasure.py 92. *)
Definition needs_range (c : mclass) : bool :=
  match c with CRMSE | CCNR | CSNR | CQMeasure => false | _ => true end.

(** [_name] set after construction; psnr.py 100-103, rmse.py 87-90, fsim.py 97-100 depend on
    chromatic; snr.py 104-108 never sets it. *)
Definition name_of (c : mclass) (chromatic : bool) : option string :=
  match c with
  | CRMSE => Some (if chromatic then "RMSEc" else "RMSE")
  | CPSNR => Some (if chromatic then "PSNRc" else "PSNR")
  | CFSIM => Some (if chromatic then "FSIMc" else "FSIM")
  | CSSIM => Some "SSIM" | CUQI => Some "UQI" | CMSSSIM => Some "MS-SSIM"
  | CVIFp => Some "VIFp" | CVSI => Some "VSI" | CMAD => Some "MAD" | CGSM => Some "GSM"
  | CCNR => Some "CNR" | CQMeasure => Some "Q-Measure"
  | CSNR => None
  end%string.

(** SNR(name="SNR", **kwargs) hands [name] on as the first keyword (snr.py 104-108). *)
Definition class_kwargs (c : mclass) (kwargs : dict pyval) : dict pyval :=
  match c with
  | CSNR => match dget kwargs "name" with
            | Some _ => kwargs
            | None => ("name", PText "SNR") :: kwargs
            end
  | _ => kwargs
  end%string.

(** Metric.__init__, _metrics.py 29-40, and the subclass constructors. [kwargs] does not
    contain data_range or normalize (python binds those to the named parameters). *)
Definition construct (c : mclass) (data_range normalize : pyval) (kwargs : dict pyval) : res metric :=
  if needs_range c && match data_range with PNone => true | _ => false end then Err ValueError
  else
    let params :=
      dupdate [("data_range", data_range); ("normalize", normalize);
               ("chromatic", PBool false); ("roi", PNone)]%string
              (class_kwargs c kwargs) in
    if truthy normalize && negb (truthy data_range) then Err ValueError
    else
      let chromatic := match dget params "chromatic" with Some v => truthy v | None => false end in
      Ok (Metric c params SNone (name_of c chromatic)).

(** ** Comparison operators, _metrics.py 69-103 *)

(** [a == b] of python values. *)
Definition score_eq (a b : score) : bool :=
  match a, b with
  | SNone, SNone => true
  | SNum x, SNum y => ext_eqb x y
  | SStr s, SStr t => String.eqb s t
  | _, _ => false
  end.

(** [a < b], [a <= b]: numbers with numbers, texts with texts, otherwise TypeError. *)
Definition score_lt (a b : score) : res bool :=
  match a, b with
  | SNum x, SNum y => Ok (ext_ltb x y)
  | SStr s, SStr t => Ok (match String.compare s t with Lt => true | _ => false end)
  | _, _ => Err TypeError
  end.
Definition score_le (a b : score) : res bool :=
  match a, b with
  | SNum x, SNum y => Ok (ext_ltb x y || ext_eqb x y)
  | SStr s, SStr t => Ok (match String.compare s t with Gt => false | _ => true end)
  | _, _ => Err TypeError
  end.

(** The other operand: a metric or a plain value. *)
Inductive operand := OMetric (m : metric) | OValue (v : score).
Definition value_of (o : operand) : score := match o with OMetric m => m_score m | OValue v => v end.

Definition op_eq (m : metric) (o : operand) : bool := score_eq (m_score m) (value_of o).
Definition op_ne (m : metric) (o : operand) : bool := negb (score_eq (m_score m) (value_of o)).
Definition op_lt (m : metric) (o : operand) : res bool := score_lt (m_score m) (value_of o).
Definition op_gt (m : metric) (o : operand) : res bool := score_lt (value_of o) (m_score m).
Definition op_le (m : metric) (o : operand) : res bool := score_le (m_score m) (value_of o).
Definition op_ge (m : metric) (o : operand) : res bool := score_le (value_of o) (m_score m).

(** ** fusion.py: sum(m.score_val * w for m, w in zip(metrics, weights, strict=True)) *)

(** The generator is consumed pair by pair; [None * w] raises, [text * w] raises or gives a
    text that cannot be added to a number: TypeError. Unequal lengths raise ValueError when
    the shorter list is exhausted. *)
Fixpoint fuse_from (acc : ext) (ms : list score) (ws : list ext) : res ext :=
  match ms, ws with
  | [], [] => Ok acc
  | SNum x :: ms', w :: ws' => fuse_from (ext_add acc (ext_mul x w)) ms' ws'
  | _ :: _, _ :: _ => Err TypeError
  | _, _ => Err ValueError
  end.
Definition fuse (ms : list metric) (ws : list ext) : res ext :=
  fuse_from (Fin 0) (map m_score ms) ws.

(** ** RMSE and PSNR *)

Fixpoint sum_sq_diff (a b : list R) : R :=
  match a, b with
  | x :: a', y :: b' => ((x - y) * (x - y) + sum_sq_diff a' b')%R
  | _, _ => 0%R
  end.

(** skimage.metrics.mean_squared_error: mean of the squared differences, in floating point;
    the mean of an empty array is NaN. *)
Definition mse (a b : list R) : ext :=
  match a with [] => NaN | _ => Fin (sum_sq_diff a b / INR (length a)) end.

(** RMSE.score, rmse.py lines 92-112: np.sqrt of it *)
Definition rmse (a b : list R) : ext :=
  match mse a b with Fin x => Fin (sqrt x) | e => e end.

Definition log10 (x : R) : R := (ln x / ln 10)%R.

Fixpoint list_eqbR (a b : list R) : bool :=
  match a, b with
  | [], [] => true
  | x :: a', y :: b' => (if Req_EM_T x y then true else false) && list_eqbR a' b'
  | _, _ => false
  end.

(** PSNR.score, psnr.py lines 105-129; skimage: 10 * log10(data_range^2 / mse). *)
Definition psnr (dr : R) (a b : list R) : ext :=
  if list_eqbR a b then PInf                                   (* 122 *)
  else
    match mse a b with
    | Fin e => if Req_EM_T dr 0 then NInf                      (* log10(0) *)
               else Fin (10 * log10 (dr * dr / e))
    | x => x
    end.

(** Scores of the images the pair loader returns (Metric.load_images, _metrics.py 114-138).
    Unspecified pixels (normalised constant images) give an unspecified score: [unspec]. *)
Section Score.
Variable disk : text -> res image.
Variable ident : identity.
Variable ub : R -> Z.
Variable unspec : ext.

Definition roi_of (v : option pyval) : list (Z * Z) :=
  match v with Some (PRoi r) => r | _ => [] end.
Definition int_of (v : option pyval) : option Z :=
  match v with Some (PInt z) => Some z | _ => None end.
Definition flag_of (v : option pyval) : bool :=
  match v with Some v => truthy v | None => false end.

Definition load_images (m : metric) (img_r img_m : input) : res (norm_out * norm_out) :=
  check_imgs disk ident ub img_r img_m
    (int_of (dget (m_params m) "data_range")) (flag_of (dget (m_params m) "normalize"))
    (roi_of (dget (m_params m) "roi")) (flag_of (dget (m_params m) "chromatic")).

Definition on_pixels (f : list R -> list R -> ext) (p : norm_out * norm_out) : ext :=
  match p with
  | (NImg r, NImg m) => f (dat (to_float (px r))) (dat (to_float (px m)))
  | _ => unspec
  end.

Definition set_score (m : metric) (s : score) : metric :=
  Metric (m_class m) (m_params m) s (m_name m).

Definition rmse_score (m : metric) (img_r img_m : input) : res (ext * metric) :=
  let* p := load_images m img_r img_m in
  let v := on_pixels rmse p in
  Ok (v, set_score m (SNum v)).

Definition psnr_score (m : metric) (img_r img_m : input) : res (ext * metric) :=
  let* p := load_images m img_r img_m in
  let* dr := from_opt TypeError (int_of (dget (m_params m) "data_range")) in
  let v := on_pixels (psnr (IZR dr)) p in
  Ok (v, set_score m (SNum v)).
End Score.
