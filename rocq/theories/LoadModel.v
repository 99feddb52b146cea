(** Model of volume loading: src/viqa/utils/loading.py lines 341-612 and 1024-1043.
    No proofs here.

    Text is a list of ASCII characters (python strings are unicode; non-ASCII digits,
    which [\d] and [int] also accept, are not modelled). *)
From Verif Require Import Base NdArray.

Definition text := list ascii.
Definition lit (s : string) : text := list_ascii_of_string s.

(** ** Array operations used by the loader (numpy) *)

Fixpoint upd {A} (l : list A) (n : nat) (v : A) : list A :=
  match l, n with
  | [], _ => []
  | _ :: l', 0 => v :: l'
  | x :: l', S n' => x :: upd l' n' v
  end.

Definition swap_at (l : list nat) (i j : nat) : list nat :=
  upd (upd l i (nth j l 0)) j (nth i l 0).

(** [np.flip(m, ax)] *)
Definition flip_ax {A} (a : arr A) (ax : nat) : res (arr A) :=
  if length (shp a) <=? ax then Err ValueError
  else reindex a (shp a) (fun idx => upd idx ax (nth ax (shp a) 0 - 1 - nth ax idx 0)).

(** [np.transpose] exchanging two axes *)
Definition swap_axes {A} (a : arr A) (i j : nat) : res (arr A) :=
  reindex a (swap_at (shp a) i j) (fun idx => swap_at idx i j).

(** [np.rot90(m, k=1, axes=(a0, a1))] = transpose(flip(m, a1)); axes out of range raise
    ValueError (numpy, lib/function_base.py). *)
Definition rot90 {A} (a : arr A) (a0 a1 : nat) : res (arr A) :=
  if (length (shp a) <=? a0) || (length (shp a) <=? a1) then Err ValueError
  else let* f := flip_ax a a1 in swap_axes f a0 a1.

(** [np.prod] of the dimensions (int64; overflow is not modelled). *)
Definition prodZ (l : list Z) : Z := fold_right Z.mul 1%Z l.

(** [reshape]: negative entries raise here: one -1 would be inferred, but then the size
    check before has already failed. *)
Definition reshape {A} (l : list A) (dims : list Z) : res (arr A) :=
  if forallb (fun d => (0 <=? d)%Z) dims && (prodZ dims =? Z.of_nat (length l))%Z
  then Ok (Arr (map Z.to_nat dims) l) else Err ValueError.

(** [np.fromfile(f, dtype)] with items of [w] bytes: as many whole items as the file
    holds; an item is its list of bytes. *)
Definition fromfile (w : nat) (bytes : list Z) : list (list Z) :=
  map (fun i => firstn w (skipn (i * w) bytes)) (seq 0 (length bytes / w)).

(** _load_binary, loading.py:592-612, after reading the items. *)
Definition load_items {A} (items : list A) (dims : list Z) : res (arr A) :=
  if negb (Z.of_nat (length items) =? prodZ dims)%Z then Err ValueError     (* 599-606 *)
  else let* a := reshape items (rev dims) in                                (* 608 *)
       let* r := rot90 a 0 2 in                                             (* 610 *)
       flip_ax r 0.                                                         (* 611 *)

(** Element types (numpy dtypes); the number is the width in bits. *)
Inductive dtype := UInt (bits : nat) | SInt (bits : nat) | Float (bits : nat) | OtherType.

Definition itemsize (d : dtype) : nat :=
  match d with UInt b | SInt b | Float b => b / 8 | OtherType => 1 end.

Definition load_binary (bytes : list Z) (d : dtype) (dims : list Z) : res (arr (list Z)) :=
  load_items (fromfile (itemsize d) bytes) dims.

(** Value of an unsigned little-endian item (native order on the supported platforms). *)
Fixpoint decode_le (bs : list Z) : Z :=
  match bs with [] => 0 | b :: bs' => b + 256 * decode_le bs' end%Z.

(** ** Regular expressions

    Python's [re] engine for the operators used here: all ways to match a prefix, in the
    order backtracking tries them; each is represented by the remaining text. *)
Inductive re :=
| RChr (p : ascii -> bool)          (* one character of a class *)
| RSeq (r1 r2 : re)
| ROpt (r : re)                     (* r? greedy *)
| RPlus (p : ascii -> bool).        (* class+ greedy *)

Fixpoint star (p : ascii -> bool) (s : text) : list text :=
  match s with
  | c :: s' => if p c then star p s' ++ [s] else [s]
  | [] => [[]]
  end.

Fixpoint matches (r : re) (s : text) : list text :=
  match r with
  | RChr p => match s with c :: s' => if p c then [s'] else [] | [] => [] end
  | RSeq r1 r2 => flat_map (matches r2) (matches r1 s)
  | ROpt r1 => matches r1 s ++ [s]
  | RPlus p => match s with c :: s' => if p c then star p s' else [] | [] => [] end
  end.

(** [re.search(r, s).group()]: leftmost start, first match in priority order. *)
Fixpoint search (r : re) (s : text) : option text :=
  match matches r s with
  | rest :: _ => Some (firstn (length s - length rest) s)
  | [] => match s with [] => None | _ :: s' => search r s' end
  end.

Definition is_digit (c : ascii) : bool :=
  let n := nat_of_ascii c in (48 <=? n) && (n <=? 57).
Definition is_char (c0 c : ascii) : bool := Ascii.eqb c0 c.
Definition any_of (l : text) (c : ascii) : bool := existsb (Ascii.eqb c) l.

Definition rlit (c : ascii) : re := RChr (is_char c).

(** [r"(\d+(x)\d+(x)\d+)"], loading.py:530 *)
Definition dim_re : re :=
  RSeq (RPlus is_digit) (RSeq (rlit "x") (RSeq (RPlus is_digit)
    (RSeq (rlit "x") (RPlus is_digit)))).

(** [r"(\d{1,2}[fu]?(bit[s]?))"], loading.py:545 *)
Definition depth_re : re :=
  RSeq (RChr is_digit) (RSeq (ROpt (RChr is_digit)) (RSeq (ROpt (RChr (any_of (lit "fu"))))
    (RSeq (rlit "b") (RSeq (rlit "i") (RSeq (rlit "t") (ROpt (rlit "s"))))))).

(** ** Text functions *)

(** [str.split(c)] for a one-character separator. *)
Fixpoint split_chr (c : ascii) (s : text) : list text :=
  match s with
  | [] => [[]]
  | d :: s' =>
      if Ascii.eqb d c then [] :: split_chr c s'
      else match split_chr c s' with h :: t => (d :: h) :: t | [] => [[d]] end
  end.

(** [str.split(" = ")] *)
Fixpoint split_assign (s : text) : list text :=
  match s with
  | " "%char :: "="%char :: " "%char :: s' => [] :: split_assign s'
  | c :: s' => match split_assign s' with h :: t => (c :: h) :: t | [] => [[c]] end
  | [] => [[]]
  end.

Definition is_space (c : ascii) : bool :=
  let n := nat_of_ascii c in
  (n =? 32) || ((9 <=? n) && (n <=? 13)) || ((28 <=? n) && (n <=? 31)).

(** [str.split()]: runs of whitespace separate, no empty pieces. *)
Fixpoint words_aux (cur : text) (s : text) : list text :=
  match s with
  | [] => if match cur with [] => true | _ => false end then [] else [rev cur]
  | c :: s' =>
      if is_space c
      then if match cur with [] => true | _ => false end then words_aux [] s'
           else rev cur :: words_aux [] s'
      else words_aux (c :: cur) s'
  end.
Definition words (s : text) : list text := words_aux [] s.

Definition digit_val (c : ascii) : Z := Z.of_nat (nat_of_ascii c) - 48.
Definition dec_val (ds : text) : Z :=
  fold_left (fun acc c => acc * 10 + digit_val c)%Z ds 0%Z.

(** [int(s)]: an optional sign and decimal digits. Underscores between digits and
    surrounding blanks, which python also accepts, are not modelled (blanks cannot occur
    after [split()]). *)
Definition py_int (s : text) : res Z :=
  let parse ds := match ds with
                  | [] => Err ValueError
                  | _ => if forallb is_digit ds then Ok (dec_val ds) else Err ValueError
                  end in
  match s with
  | "-"%char :: ds => let* v := parse ds in Ok (- v)%Z
  | "+"%char :: ds => parse ds
  | ds => parse ds
  end.

(** Split at the last occurrence of a character. *)
Fixpoint split_last (c : ascii) (s : text) : option (text * text) :=
  match s with
  | [] => None
  | d :: s' =>
      match split_last c s' with
      | Some (pre, post) => Some (d :: pre, post)
      | None => if Ascii.eqb d c then Some ([], s') else None
      end
  end.

(** [os.path.splitext] (posix, genericpath._splitext): last dot of the last path
    component, unless only dots precede it there. *)
Definition splitext (s : text) : text * text :=
  match split_last "." s with
  | None => (s, [])
  | Some (pre, post) =>
      if existsb (Ascii.eqb "/") post then (s, [])
      else
        let fname := match split_last "/" pre with Some (_, f) => f | None => pre end in
        if existsb (fun c => negb (Ascii.eqb c ".")) fname then (pre, "."%char :: post)
        else (s, [])
  end.

Definition text_eqb (a b : text) : bool := if list_eq_dec ascii_dec a b then true else false.

(** ** load_raw, loading.py:474-561 *)

(** _parse_bitdepth, loading.py:1024-1043 *)
Definition parse_bitdepth (t : text) : res dtype :=
  if text_eqb t (lit "8ubit") || text_eqb t (lit "8bit") then Ok (UInt 8)
  else if text_eqb t (lit "16ubit") || text_eqb t (lit "16bit") then Ok (UInt 16)
  else if text_eqb t (lit "32ubit") || text_eqb t (lit "32bit") then Ok (UInt 32)
  else if text_eqb t (lit "16fbit") then Ok (Float 16)
  else if text_eqb t (lit "32fbit") then Ok (Float 32)
  else if text_eqb t (lit "64fbit") then Ok (Float 64)
  else Err ValueError.

(** Lines 528-541 *)
Definition raw_dims (head : text) : res (list Z) :=
  let* t := from_opt ValueError (search dim_re head) in
  mapM py_int (split_chr "x" t).

(** Lines 543-556 *)
Definition raw_dtype (head : text) : res dtype :=
  let* t := from_opt ValueError (search depth_re head) in
  parse_bitdepth t.

(** The file content is passed as its bytes. *)
Definition load_raw (file_name : text) (bytes : list Z) : res (dtype * arr (list Z)) :=
  let head := fst (splitext file_name) in
  let* dims := raw_dims head in
  let* d := raw_dtype head in
  let* a := load_binary bytes d dims in
  Ok (d, a).

(** ** load_mhd, loading.py:395-471 *)

Definition tdict := list (text * text).

Fixpoint tget (d : tdict) (k : text) : option text :=
  match d with
  | [] => None
  | (k', v) :: d' => if text_eqb k' k then Some v else tget d' k
  end.

Fixpoint tset (d : tdict) (k v : text) : tdict :=
  match d with
  | [] => [(k, v)]
  | (k', v') :: d' => if text_eqb k' k then (k', v) :: d' else (k', v') :: tset d' k v
  end.

Definition newline : ascii := Ascii.ascii_of_nat 10.

(** Lines 434-440: the last piece after splitting at newlines is dropped; a line that
    does not split into exactly two parts raises ValueError (tuple unpacking). *)
Definition parse_line (l : text) : res (text * text) :=
  match split_assign l with [k; v] => Ok (k, v) | _ => Err ValueError end.

Definition parse_header (content : text) : res tdict :=
  let* kvs := mapM parse_line (removelast (split_chr newline content)) in
  Ok (fold_left (fun d kv => tset d (fst kv) (snd kv)) kvs []).

(** Lines 451-468 *)
Definition element_type (t : text) : res dtype :=
  if text_eqb t (lit "MET_UCHAR") then Ok (UInt 8)
  else if text_eqb t (lit "MET_USHORT") then Ok (UInt 16)
  else if text_eqb t (lit "MET_UINT") then Ok (UInt 32)
  else if text_eqb t (lit "MET_FLOAT") then Ok (Float 32)
  else if text_eqb t (lit "MET_DOUBLE") then Ok (Float 64)
  else Err ValueError.

(** Result: data file name, element type, dimensions; lines 442-470. *)
Definition mhd_info (content : text) : res (text * dtype * list Z) :=
  let* h := parse_header content in
  let* file := from_opt KeyError (tget h (lit "ElementDataFile")) in
  let* dims_txt := from_opt KeyError (tget h (lit "DimSize")) in
  let* dims := mapM py_int (words dims_txt) in
  let* bd := from_opt KeyError (tget h (lit "ElementType")) in
  let* d := element_type bd in
  Ok (file, d, dims).

(** [disk] gives the bytes of a file of the same directory (a missing file is not
    modelled). *)
Definition load_mhd (disk : text -> list Z) (content : text) : res (dtype * arr (list Z)) :=
  let* (file, d, dims) := mhd_info content in
  let* a := load_binary (disk file) d dims in
  Ok (d, a).

(** ** _load_data_from_disk, loading.py:341-392: which reader handles a file name *)

Inductive reader := RdMhd | RdRaw | RdNifti | RdImage.

(** [re.search(".nii", name)]: the dot matches any character but newline. *)
Definition nii_re : re :=
  RSeq (RChr (fun c => negb (Ascii.eqb c newline)))
    (RSeq (rlit "n") (RSeq (rlit "i") (rlit "i"))).

Definition dispatch (file_name : text) : res reader :=
  let ext := snd (splitext file_name) in
  if text_eqb ext (lit ".mhd") then Ok RdMhd
  else if text_eqb ext (lit ".raw") then Ok RdRaw
  else if text_eqb ext (lit ".nii") then Ok RdNifti
  else if text_eqb ext (lit ".gz") then
    match search nii_re file_name with Some _ => Ok RdNifti | None => Err ValueError end
  else if existsb (text_eqb ext)
            [lit ".png"; lit ".jpg"; lit ".jpeg"; lit ".bmp"; lit ".tiff"] then Ok RdImage
  else Err ValueError.
