(** Model of SNR objects after SNR.score (src/viqa/nr_metrics/snr.py 110-148): score_val is the tuple
    signal_to_noise_ratio returns (snr.py 1064, 1124). The dictionary in it, print_score (snr.py 163-166),
    the operators of Metric (_metrics.py 68-103) and fusion.py with such objects. No proofs here. *)
From Coq Require Import Reals String.
From Verif Require Import Base NdArray LoadModel NormModel PairModel MetricModel SliceModel RegionModel
  NrModel BatchModel PrintModel.

(** ** signal_to_noise_ratio of an image that is not (H, W, 3), with the dictionary (1101-1124) *)

Inductive dval := DInts (l : list Z) | DInt (z : Z) | DReal (x : R) | DText (s : string) | DArray (a : region).

(** [name] is the text of the region type, [kind] what it means. Lines 1109-1110: "full" without
    auto_center is reported as "original". *)
Definition snr_info (name : string) (kind : rkind) (auto_center : bool) (iterations : Z) (lower upper : R)
    (center : list Z) (radius : Z) (signal : region) : dict dval :=
  (app match kind with
   | KFull => if auto_center then [("iterations", DInt iterations); ("lower_threshold", DReal lower);
                                   ("upper_threshold", DReal upper)] else []
   | KOriginal => []
   | _ => [("signal_center", DInts center); ("radius", DInt radius)]
   end
   [("region_type", DText (match kind with KFull => if auto_center then name else "original" | _ => name end));
    ("signal", DArray signal)])%string.

Section pair.
Variable mk : ext.
Variable nobg : arr bool -> list nat -> nat.

Definition snr_pair (name : string) (img : arr R) (signal_center : list cval) (radius : rval) (kind : rkind)
    (auto_center : bool) (iterations : Z) (lower upper : R) : res (ext * dict dval) :=
  let* (sc, rad, sreg) :=
    if auto_center then
      let* fg := get_binary img lower upper in
      let* (sc, sr, sm) := find_largest_region nobg fg iterations kind in
      let* sreg := auto_region kind img sm in
      Ok (map (fun n => CInt (Z.of_nat n)) sc, RInt (Z.of_nat sr), sreg)
    else Ok (signal_center, radius, None) in
  let* sz := check_border sc rad in
  let* r := check_radius rad in
  let* _ := snr_dims img sz in
  let* signal := match sreg with Some x => Ok x | None => make_region kind img sz r end in
  Ok (snr_value mk signal, snr_info name kind auto_center iterations lower upper sz r signal).
End pair.

(** ** Values of score_val *)

(** Numbers are python or numpy numbers; tuples have an identity: [id] differs for the tuples of
    different calls of score. A triple is the result for (H, W, 3) images with yuv. *)
Inductive held :=
| HNone | HText (s : string) | HNum (numpy : bool) (x : ext)
| HPair (id : nat) (v : ext) (d : dict dval) | HTriple (id : nat) (y u v : ext).

(** A comparison with a numpy number is one with an array. *)
Inductive answer := ABool (b : bool) | AArray (l : list bool).
(** bool(answer), e.g. in [if] or [assert]. *)
Definition truth (a : answer) : res bool :=
  match a with ABool b => Ok b | AArray [b] => Ok b | AArray _ => Err ValueError end.

(** Two arrays compared inside a dictionary: the truth value of the array of comparisons. The data of
    the comparison is true for pixels masked in both and false for those masked in one array; the truth
    value is that of the data. Arrays of one element are the only ones with a truth value (empty ones:
    as in numpy 2.2). *)
Definition cells (r : region) : list (option R) := match r with Whole a => map Some (dat a) | Masked a => dat a end.
Definition arrays_eq (a b : region) : res bool :=
  match cells a, cells b with
  | [Some x], [Some y] => Ok (if Req_EM_T x y then true else false)
  | [None], [None] => Ok true
  | [_], [_] => Ok false
  | _, _ => Err ValueError
  end.

Fixpoint ints_eqb (a b : list Z) : bool :=
  match a, b with
  | [], [] => true
  | x :: a', y :: b' => (x =? y)%Z && ints_eqb a' b'
  | _, _ => false
  end.
Definition dval_eq (a b : dval) : res bool :=
  match a, b with
  | DInts l, DInts k => Ok (ints_eqb l k)
  | DInt x, DInt y => Ok (x =? y)%Z
  | DReal x, DReal y => Ok (if Req_EM_T x y then true else false)
  | DText s, DText t => Ok (String.eqb s t)
  | DArray a, DArray b => arrays_eq a b
  | _, _ => Ok false
  end.

(** Equality of dictionaries: the numbers of entries, then entry by entry in the order of the first. *)
Fixpoint entries_eq (d d' : dict dval) : res bool :=
  match d with
  | [] => Ok true
  | (k, v) :: d1 =>
      match dget d' k with
      | None => Ok false
      | Some w => let* b := dval_eq v w in if b then entries_eq d1 d' else Ok false
      end
  end.
Definition dict_eq (d d' : dict dval) : res bool :=
  if length d =? length d' then entries_eq d d' else Ok false.

(** [a == b]. Tuples are equal to themselves; otherwise their members are compared in order. *)
Definition held_eq (a b : held) : res answer :=
  match a, b with
  | HNone, HNone => Ok (ABool true)
  | HText s, HText t => Ok (ABool (String.eqb s t))
  | HNum _ x, HNum _ y => Ok (ABool (ext_eqb x y))
  | HPair i v d, HPair j v' d' =>
      if i =? j then Ok (ABool true)
      else if ext_eqb v v' then let* b := dict_eq d d' in Ok (ABool b)
      else Ok (ABool false)
  | HTriple i y u v, HTriple j y' u' v' =>
      Ok (ABool ((i =? j) || ext_eqb y y' && ext_eqb u u' && ext_eqb v v'))
  | HPair _ v _, HNum true x => Ok (AArray [ext_eqb v x; false])
  | HNum true x, HPair _ v _ => Ok (AArray [ext_eqb x v; false])
  | HTriple _ y u v, HNum true x => Ok (AArray [ext_eqb y x; ext_eqb u x; ext_eqb v x])
  | HNum true x, HTriple _ y u v => Ok (AArray [ext_eqb x y; ext_eqb x u; ext_eqb x v])
  | _, _ => Ok (ABool false)
  end.
Definition answer_not (a : answer) : answer :=
  match a with ABool b => ABool (negb b) | AArray l => AArray (map negb l) end.
(** [a != b] *)
Definition held_ne (a b : held) : res answer := let* x := held_eq a b in Ok (answer_not x).

(** [a < b], [a <= b], [a > b], [a >= b] *)
Inductive order := OLt | OLe | OGt | OGe.
Definition ext_order (o : order) (x y : ext) : bool :=
  match o with
  | OLt => ext_ltb x y | OLe => ext_ltb x y || ext_eqb x y
  | OGt => ext_ltb y x | OGe => ext_ltb y x || ext_eqb x y
  end.
Definition reflexive (o : order) : bool := match o with OLe | OGe => true | _ => false end.
Definition text_order (o : order) (s t : string) : bool :=
  match o, String.compare s t with
  | OLt, Lt | OGt, Gt => true
  | OLe, Gt | OGe, Lt => false
  | OLe, _ | OGe, _ => true
  | _, _ => false
  end.

(** Tuples: the first members that differ decide; dictionaries have no order. *)
Definition held_order (o : order) (a b : held) : res answer :=
  match a, b with
  | HText s, HText t => Ok (ABool (text_order o s t))
  | HNum _ x, HNum _ y => Ok (ABool (ext_order o x y))
  | HPair i v d, HPair j v' d' =>
      if i =? j then Ok (ABool (reflexive o))
      else if ext_eqb v v' then
        let* b := dict_eq d d' in if b then Ok (ABool (reflexive o)) else Err TypeError
      else Ok (ABool (ext_order o v v'))
  | HTriple i y u v, HTriple j y' u' v' =>
      Ok (ABool (if (i =? j) || ext_eqb y y' && ext_eqb u u' && ext_eqb v v' then reflexive o
                 else if negb (ext_eqb y y') then ext_order o y y'
                 else if negb (ext_eqb u u') then ext_order o u u'
                 else ext_order o v v'))
  | HPair _ v _, HTriple _ y _ _ => if ext_eqb v y then Err TypeError else Ok (ABool (ext_order o v y))
  | HTriple _ y _ _, HPair _ v _ => if ext_eqb y v then Err TypeError else Ok (ABool (ext_order o y v))
  | HTriple _ y u v, HNum true x => Ok (AArray [ext_order o y x; ext_order o u x; ext_order o v x])
  | HNum true x, HTriple _ y u v => Ok (AArray [ext_order o x y; ext_order o x u; ext_order o x v])
  | _, _ => Err TypeError
  end.

(** ** print_score: np.round of a tuple makes an array of it; multiplying or rounding its dictionary
    is a TypeError *)
Section print.
Variable str_num : ext -> string.
Variable str_array : list ext -> string.

Definition print_held (c : mclass) (h : held) (decimals : Z) : list effect * res unit :=
  match h with
  | HNone => ([missing c], Ok tt)
  | HNum _ x => ([Printed (printed_name c ++ ": " ++ str_num (np_round_ext decimals x))], Ok tt)
  | HTriple _ y u v => ([Printed (printed_name c ++ ": " ++ str_array (map (np_round_ext decimals) [y; u; v]))], Ok tt)
  | HText _ | HPair _ _ _ => ([], Err TypeError)
  end%string.
End print.

(** ** fusion.py, with weights that are python floats: a tuple times a float is a TypeError *)
Fixpoint fuse_held (acc : ext) (hs : list held) (ws : list ext) : res ext :=
  match hs, ws with
  | [], [] => Ok acc
  | HNum _ x :: hs', w :: ws' => fuse_held (ext_add acc (ext_mul x w)) hs' ws'
  | _ :: _, _ :: _ => Err TypeError
  | _, _ => Err ValueError
  end.
