(** Model of the module variables M, N, BLOCK_SIZE and STRIDE of src/viqa/fr_metrics/mad.py (lines 56-60):
    most_apparent_distortion sets them (489-506), _high_quality (572-702) and _low_quality (739-805) read
    them. Also the argument weights of _low_quality (741-745), which may be changed in place.
    No proofs here. *)
From Coq Require Import Reals.
From Verif Require Import Base NdArray PairModel RealSums MetricModel SsimModel GsmModel MadModel FreqModel.

Record mad_state := State { s_m : nat; s_n : nat; s_block : nat; s_stride : nat }.
(** Lines 57-60 *)
Definition initial : mad_state := State 0 0 0 0.

(** Lines 489-506. A shape without two sides cannot be unpacked. *)
Definition set_state (st : mad_state) (shape : list nat) (bs : Z) (ov : R) : res unit * mad_state :=
  match shape with
  | [m; n] =>
      let st1 := State m n (s_block st) (s_stride st) in
      if (Z.of_nat m <? bs)%Z || (Z.of_nat n <? bs)%Z then (Err ValueError, st1)
      else if (0 <? bs)%Z then
        let st2 := State m n (Z.to_nat bs) (s_stride st) in
        if Rle_dec 1 ov then (Err ValueError, st2) else if Rlt_dec ov 0 then (Err ValueError, st2)
        else (Ok tt, State m n (Z.to_nat bs) (Z.to_nat (bs - Int_part (ov * IZR bs))))
      else (Err ValueError, st1)
  | _ => (Err ValueError, st)
  end.

(** numpy broadcasting of two sides *)
Definition fits (a b : nat) : bool := (a =? b) || (a =? 1) || (b =? 1).

Section mad.
Variable filt : arr R -> arr R * arr R.
Variable gabor : arr R -> nat -> nat -> arr R.
Variable junk : nat -> nat -> ext.
Variable junk3 : nat -> nat -> stat3.
(** _high_quality if the sides differ but can be broadcast (a side of length 1): not modelled. *)
Variable strange : mad_state -> mimg -> mimg -> res ext.

(** _high_quality: the filter has M x N elements and is multiplied with the transforms of the images
    (606-611). Blocks and strides are the module variables. *)
Definition high_in (st : mad_state) (o : hq_opts) (dr : Z) (r m : mimg) : res ext :=
  if (dim0 (mvals r) =? s_m st) && (dim1 (mvals r) =? s_n st)
  then high_quality filt junk o dr (s_block st) (s_stride st) r m
  else
    let* _ := lightness (h_b o) (h_k o) (h_gamma o) dr r in
    let* _ := lightness (h_b o) (h_k o) (h_gamma o) dr m in
    if fits (s_m st) (dim0 (mvals r)) && fits (s_n st) (dim1 (mvals r)) then strange st r m else Err ValueError.

(** _low_quality: the statistics have the size of the images and are added to M x N zeros (769-798);
    adding in place cannot enlarge the zeros. *)
Definition low_in (st : mad_state) (o : lq_opts) (r m : mimg) : res ext :=
  let M := dim0 (mvals r) in let N := dim1 (mvals r) in
  let b := s_block st in let s := s_stride st in
  let ws := map (fun w => ext_div (Fin w) (Fin (Sum (fun x => x) (l_weights o)))) (l_weights o) in
  if negb (length ws =? l_scales o) then Err ValueError
  else if l_orient o =? 0 then Err ZeroDivisionError
  else
  let bands := grid (seq 0 (l_scales o)) (seq 0 (l_orient o)) in
  let* stats := mapM (fun so =>
      let num := 2 * (fst so * l_orient o + snd so) in
      let* p := getstatistics M N b s (fun q => nth q (dat (gabor (mvals m) (fst so) (snd so))) 0%R) (junk3 num) in
      let* q := getstatistics M N b s (fun q => nth q (dat (gabor (mvals r) (fst so) (snd so))) 0%R) (junk3 (S num)) in
      if ((M =? s_m st) || (M =? 1)) && ((N =? s_n st) || (N =? 1))
      then Ok (nth (fst so) ws NaN, p, q) else Err ValueError) bands in
  let at_ xy := (if M =? 1 then 0 else fst xy) * N + (if N =? 1 then 0 else snd xy) in
  let pix xy := fold_left (fun acc wpq => let '(w, p, q) := wpq in ext_add acc (stat_diff w (p (at_ xy)) (q (at_ xy)))) stats (Fin 0) in
  Ok (rms (map pix (kept (s_m st) (s_n st) b))).

(** Lines 508-534 with the module variables as they are when _high_quality ([st1]) and _low_quality
    ([st2]) run; without other threads these are the same. *)
Definition mad_rest (st1 st2 : mad_state) (ho : hq_opts) (lo : lq_opts) (dr : Z) (beta_1 beta_2 : R)
    (t1 t2 : option R) (r m : mimg) : res ext :=
  let* d := high_in st1 ho dr r m in
  let* a := low_in st2 lo r m in
  Ok (combine_indices (fst (betas beta_1 beta_2 t1 t2)) (snd (betas beta_1 beta_2 t1 t2)) d a).

Record mad_args := Args {
  a_high : hq_opts; a_low : lq_opts; a_range : Z; a_block : Z; a_overlap : R;
  a_beta1 : R; a_beta2 : R; a_thresh1 : option R; a_thresh2 : option R; a_ref : mimg; a_mod : mimg }.

Definition mad_call (st : mad_state) (a : mad_args) : res ext * mad_state :=
  match set_state st (shp (mvals (a_ref a))) (a_block a) (a_overlap a) with
  | (Err e, st') => (Err e, st')
  | (Ok _, st') =>
      (mad_rest st' st' (a_high a) (a_low a) (a_range a) (a_beta1 a) (a_beta2 a) (a_thresh1 a) (a_thresh2 a)
         (a_ref a) (a_mod a), st')
  end.

(** Calls one after the other; an exception does not end the program. *)
Fixpoint mad_calls (st : mad_state) (l : list mad_args) : list (res ext) * mad_state :=
  match l with
  | [] => ([], st)
  | a :: l' => let (x, st1) := mad_call st a in let (xs, st2) := mad_calls st1 l' in (x :: xs, st2)
  end.
End mad.

(** ** The argument weights, lines 741-745 *)

(** A list or tuple, an array of floats, an array of integers; [/=] makes a new array for the first,
    changes the second and refuses the third. *)
Inductive warg := WSeq (l : list R) | WFloats (l : list R) | WInts (l : list Z).
Definition by_sum (l : list R) : list ext :=
  map (fun w => ext_div (Fin w) (Fin (Sum (fun x => x) l))) l.
(** The weights, and what the object of the caller contains afterwards; None stands for a value that
    is no finite number (the sum was 0). *)
Definition finite (x : ext) : option R := match x with Fin x => Some x | _ => None end.
Definition divide_weights (w : warg) : res (list ext) * list (option R) :=
  match w with
  | WSeq l => (Ok (by_sum l), map Some l)
  | WFloats l => (Ok (by_sum l), map finite (by_sum l))
  | WInts l => (Err TypeError, map (fun z => Some (IZR z)) l)
  end.
