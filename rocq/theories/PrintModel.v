(** Model of what is printed: print_score of the metrics (line numbers below) and
    MultipleMetrics.print_values, src/viqa/multiple.py lines 613-622. No proofs here.

    A call leaves a list of effects (lines printed and warnings) and a result. Numbers are
    exact reals, so there is no negative zero. *)
From Coq Require Import Reals String.
From Verif Require Import Base MetricModel BatchModel.

Inductive category := RuntimeWarning | UserWarning.
Inductive effect := Printed (line : string) | Warned (c : category) (message : string).

(** ** np.round *)

(** Nearest integer, in the middle the even one (np.rint). *)
Definition rint (y : R) : Z :=
  let k := Int_part y in
  if Rlt_dec (y - IZR k) (1 / 2) then k
  else if Rlt_dec (1 / 2) (y - IZR k) then (k + 1)%Z
  else if Z.even k then k else (k + 1)%Z.

(** np.round(x, decimals): multiply, np.rint, divide; negative decimals the other way. *)
Definition np_round (decimals : Z) (x : R) : R :=
  if (0 <=? decimals)%Z
  then (IZR (rint (x * 10 ^ Z.to_nat decimals)) / 10 ^ Z.to_nat decimals)%R
  else (IZR (rint (x / 10 ^ Z.to_nat (- decimals))) * 10 ^ Z.to_nat (- decimals))%R.

Definition np_round_ext (decimals : Z) (x : ext) : ext :=
  match x with Fin x => Fin (np_round decimals x) | _ => x end.

(** ** print_score *)

(** The names in front of the values: rmse.py 128, psnr.py 145, ssim.py 195, uqi.py 183,
    msssim.py 300, fsim.py 299, vif.py 273, vsi.py 294, mad.py 263, gsm.py 272, cnr.py 158,
    snr.py 164, qmeasure.py 170. They do not depend on the parameters of the metric. *)
Definition printed_name (c : mclass) : string :=
  match c with
  | CRMSE => "RMSE" | CPSNR => "PSNR" | CSSIM => "SSIM" | CUQI => "UQI" | CMSSSIM => "MS-SSIM"
  | CFSIM => "FSIM" | CVIFp => "VIFp" | CVSI => "VSI" | CMAD => "MAD" | CGSM => "GSM"
  | CCNR => "CNR" | CSNR => "SNR" | CQMeasure => "Q-Measure"
  end%string.

Definition missing_message (c : mclass) : string :=
  ("No score value for " ++ printed_name c ++ ". Run score() first.")%string.

(** Without a score: [warn(..., RuntimeWarning)], but [print] in msssim.py 302, vif.py 275
    and vsi.py 296. *)
Definition missing (c : mclass) : effect :=
  match c with
  | CMSSSIM | CVIFp | CVSI => Printed (missing_message c)
  | _ => Warned RuntimeWarning (missing_message c)
  end.

Section print.
(** Text of a numpy number. *)
Variable str_num : ext -> string.

(** The text stored by export_results cannot be rounded (numpy raises a TypeError). *)
Definition print_score (m : metric) (decimals : Z) : list effect * res unit :=
  match m_score m with
  | SNone => ([missing (m_class m)], Ok tt)
  | SNum x => ([Printed (printed_name (m_class m) ++ ": " ++ str_num (np_round_ext decimals x))], Ok tt)
  | SStr _ => ([], Err TypeError)
  end%string.
End print.

(** ** print_values *)

(** The last [w] decimal digits of [k], with leading zeros. *)
Fixpoint pad (w k : nat) : string :=
  match w with
  | 0 => ""
  | S w' => pad w' (k / 10) ++ show (k mod 10)
  end%string.

(** [f"{x:.{d}f}"] of a finite number: exact value rounded to [d] digits, in the middle to
    the even last digit; the sign is that of the number. *)
Definition fixed (d : nat) (x : R) : string :=
  let n := Z.to_nat (Z.abs (rint (x * 10 ^ d))) in
  ((if Rlt_dec x 0 then "-" else "") ++ show (n / 10 ^ d) ++
   match d with 0 => "" | _ => "." ++ pad d n end)%string.

Definition fixed_ext (d : nat) (x : ext) : string :=
  match x with Fin x => fixed d x | PInf => "inf" | NInf => "-inf" | NaN => "nan" end.

(** Negative decimals make the format text invalid: ValueError at the first value, nothing is
    printed; without values no text is formatted. *)
Definition print_values (results : dict ext) (decimals : Z) : list effect * res unit :=
  if (0 <=? decimals)%Z
  then (map (fun kv => Printed (fst kv ++ ": " ++ fixed_ext (Z.to_nat decimals) (snd kv))) results, Ok tt)
  else match results with [] => ([], Ok tt) | _ => ([], Err ValueError) end%string.
