(** Model of correlate_convolve_abs (src/viqa/utils/misc.py 62-166) and of src/viqa/utils/_module.py
    (24-95). No proofs here. Exact real arithmetic. *)
From Coq Require Import Reals.
From Verif Require Import Base NdArray NormModel MetricModel RealSums SsimModel.

(** ** numpy broadcasting *)

(** Shapes are aligned at the end; an extent 1 is stretched. Arguments reversed. *)
Fixpoint bcast_rev (a b : list nat) : option (list nat) :=
  match a, b with
  | [], _ => Some b
  | _, [] => Some a
  | x :: a', y :: b' =>
      match bcast_rev a' b' with
      | None => None
      | Some r => if x =? y then Some (x :: r) else if x =? 1 then Some (y :: r)
                  else if y =? 1 then Some (x :: r) else None
      end
  end.
Definition bcast (a b : list nat) : option (list nat) := option_map (@rev nat) (bcast_rev (rev a) (rev b)).
(** Index of an operand of shape [s] for index [idx] of the result *)
Definition bidx (s idx : list nat) : list nat :=
  rev (map (fun p => if fst p =? 1 then 0 else snd p) (combine (rev s) (rev idx))).

(** ** Padding (np.pad) *)

(** numpy's "reflect" does not repeat the border pixel, "symmetric" does; scipy (SsimModel.pad_pos)
    calls them "mirror" and "reflect". *)
Definition np_mode (border : string) : option pmode :=
  (if String.eqb border "constant" then Some Constant
   else if String.eqb border "reflect" then Some Mirror
   else if String.eqb border "nearest" then Some Nearest
   else if String.eqb border "mirror" then Some Reflect
   else if String.eqb border "wrap" then Some Wrap
   else None)%string.

Section cc.
(** More than one image size beyond the border, the result of np.pad depends on the numpy version
    (reflect, symmetric, wrap); it is always some pixel of the axis. *)
Variable far : pmode -> nat -> nat -> Z -> nat.

Definition near_border (m : pmode) (n : nat) (p : Z) : bool :=
  let n' := Z.of_nat n in
  match m with
  | Constant | Nearest => true
  | Reflect | Wrap => ((- n' <=? p) && (p <? 2 * n'))%Z
  | Mirror => (n =? 1) || ((- (n' - 1) <=? p) && (p <=? 2 * (n' - 1)))%Z
  end.
Definition np_pad_pos (m : pmode) (ks n : nat) (p : Z) : option nat :=
  if near_border m n p then pad_pos m n p else Some (far m ks n p mod n).
Fixpoint origin_pos (m : pmode) (ks : nat) (s : list nat) (z : list Z) : option (list nat) :=
  match s, z with
  | n :: s', p :: z' =>
      match np_pad_pos m ks n p, origin_pos m ks s' z' with Some q, Some l => Some (q :: l) | _, _ => None end
  | _, _ => Some []
  end.
(** The padded image at image coordinates [z] *)
Definition origin (m : pmode) (value : R) (ks : nat) (img : arr R) (z : list Z) : R :=
  match origin_pos m ks (shp img) z with Some p => getd img p | None => value end.

(** origin[k : k + kernel_size, ...] starts [ks] pixels before the pixel in image coordinates. *)
Definition window_pos (ks : nat) (idx off : list nat) : list Z :=
  map (fun p => (Z.of_nat (fst p) + Z.of_nat (snd p) - Z.of_nat ks)%Z) (combine idx off).

Definition np_mean (l : list R) : ext :=
  match l with [] => NaN | _ => Fin (Sum (fun x => x) l / INR (length l)) end.

Definition cc_pixel (m : pmode) (value : R) (ks : nat) (img kernel : arr R) (idx : list nat) : res ext :=
  let ws := map (fun _ => ks) (shp img) in
  let* s := from_opt ValueError (bcast (shp kernel) ws) in
  Ok (np_mean (map (fun i => Rabs (getd kernel (bidx (shp kernel) i) *
                                   origin m value ks img (window_pos ks idx (bidx ws i)))) (indices s))).

(** np.flip over all axes *)
Definition flip_every (k : arr R) : arr R :=
  tabulate (shp k) (fun idx => getd k (map (fun p => fst p - 1 - snd p) (combine (shp k) idx))).

Definition correlate_convolve_abs (img kernel : arr R) (mode border : string) (value : R) : res (arr ext) :=
  let kernel := if String.eqb mode "convolve" then flip_every kernel else kernel in
  let* ks := from_opt IndexError (hd_error (shp kernel)) in
  let* m := from_opt ValueError (np_mode border) in
  let* _ := raise_if (match m with Constant => false | _ => (0 <? ks) && existsb (Nat.eqb 0) (shp img) end) ValueError in
  match shp img with
  | [] => Err IndexError
  | [n] => if n =? 0 then Ok (Arr [n] []) else Err IndexError
  | [_; _] | [_; _; _] =>
      let* l := mapM (cc_pixel m value ks img kernel) (indices (shp img)) in Ok (Arr (shp img) l)
  | n0 :: n1 :: _ => if (n0 =? 0) || (n1 =? 0) then Ok (Arr (shp img) []) else Err ValueError
  end.
End cc.

(** ** _module.py *)

Section module.
Context {M : Type}.
(** importlib.import_module and getattr; ModuleNotFoundError is an ImportError. *)
Variable import_module : string -> res M.
Variable getattr : M -> string -> res M.

(** 24-56: the result and the number of warnings *)
Definition try_import (module : string) (name : option string) : res (option M * bool) * nat :=
  let body :=
    let* m := import_module module in
    match name with
    | Some n => if String.eqb n "" then Ok m else getattr m n
    | None => Ok m
    end in
  match body with
  | Ok m => (Ok (Some m, true), 0)
  | Err ImportError => (Ok (None, false), 1)
  | Err e => (Err e, 0)
  end.
End module.

(** 73-95: None, or the message of the ImportError *)
Definition check_deps (has_ipywidgets has_ipython : bool) : option string :=
  (if negb has_ipywidgets && negb has_ipython
   then Some "ipywidgets and IPython are not installed. Please install them to use this method."
   else if negb has_ipywidgets then Some "ipywidgets is not installed. Please install it to use this method."
   else if negb has_ipython then Some "IPython is not installed. Please install it to use this method."
   else None)%string.
