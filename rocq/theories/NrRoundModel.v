(** Model of the last lines of contrast_to_noise_ratio and signal_to_noise_ratio (src/viqa/nr_metrics/cnr.py
    lines 837-842, snr.py lines 1096-1099 and 1124) with the floating point numbers of the machine.
    No proofs here.

    NrModel.cnr_value and snr_value compute with exact real numbers. numpy computes np.mean as the sum divided
    by the number of values, np.std as the root of the mean of [x * x] with [x = arr - mean], and rounds every
    operation: integers and double precision images in double precision, single precision images in single
    precision. Not modelled: half precision, and cubic or spherical (masked) regions of single precision images. The order of
    the additions is left open and may differ between the sums. The number of values is at most 2^24 in
    single and 2^53 in double precision, so that it is a number of the format. *)
From Coq Require Import Reals.
From Verif Require Import Base LoadModel MetricModel GsmModel MadModel SsimRoundModel RmseRoundModel.

(** ** Rounded operations *)
Definition rnd (f : format) (e : ext) : ext := match e with Fin x => store f x | e => e end.

Definition stat_format (d : dtype) : format := match d with Float 32 => binary32 | _ => binary64 end.

(** ** Sums in any order *)
Inductive order := Value (x : R) | Plus (l r : order).
Fixpoint summands (t : order) : list R := match t with Value x => [x] | Plus l r => summands l ++ summands r end.

Fixpoint add_up (f : format) (g : R -> ext) (t : order) : ext :=
  match t with
  | Value x => g x
  | Plus l r => rnd f (ext_add (add_up f g l) (add_up f g r))
  end.

Definition average (f : format) (g : R -> ext) (t : order) : ext :=
  rnd f (ext_div (add_up f g t) (Fin (INR (length (summands t))))).

(** np.mean *)
Definition mean_r (f : format) (t : order) : ext := average f (fun x => Fin x) t.

(** np.std: its mean in the order [t], the sum of squares in the order [t'] *)
Definition square_dev (f : format) (m : ext) (x : R) : ext :=
  let d := rnd f (ext_sub (Fin x) m) in rnd f (ext_mul d d).
Definition std_r (f : format) (t t' : order) : ext :=
  rnd f (ext_sqrt (average f (square_dev f (mean_r f t)) t')).

(** snr.py 1096-1099: np.mean in the order [tm] *)
Definition snr_r (f : format) (tm t t' : order) : ext :=
  let s := std_r f t t' in
  if ext_eqb s (Fin 0) then Fin 0 else rnd f (ext_div (mean_r f tm) s).

(** cnr.py 837-840: [ts] the signal, [tm], [t] and [t'] the background *)
Definition cnr_r (f : format) (ts tm t t' : order) : ext :=
  let s := std_r f t t' in
  if ext_eqb s (Fin 0) then Fin 0
  else rnd f (ext_div (rnd f (ext_sub (mean_r f ts) (mean_r f tm))) s).
