(** Model of the command line scripts in src/scripts: reduce_projections.py, crop_image.py,
    combine_stack.py, write_to_csv.py, write_to_mat.py. No proofs here.

    [argv] is sys.argv including the script name; a wrong number of arguments prints the usage and
    exits (SystemExit). A volume element is the list of its bytes, as in LoadModel; [astype] to the
    type just read is the identity, [tofile] writes the elements in C order. [read] gives the bytes of a
    file or FileNotFoundError. *)
From Coq Require Import Reals.
From Verif Require Import Base NdArray LoadModel NormModel PairModel BatchModel.

(** ** Text *)

(** str(n) *)
Fixpoint str_fuel (fuel n : nat) : text :=
  match fuel with
  | 0 => []
  | S f => (if n <? 10 then [] else str_fuel f (n / 10)) ++ [ascii_of_nat (48 + n mod 10)]
  end.
Definition str_nat (n : nat) : text := str_fuel (S n) n.

(** [re.sub(r, repl, s)] for an expression without empty matches and a replacement without
    backslashes: matches from left to right, not overlapping. *)
Fixpoint sub_fuel (fuel : nat) (r : re) (repl s : text) : text :=
  match fuel with
  | 0 => s
  | S f => match matches r s with
           | rest :: _ => repl ++ sub_fuel f r repl rest
           | [] => match s with [] => [] | c :: s' => c :: sub_fuel f r repl s' end
           end
  end.
Definition sub (r : re) (repl s : text) : text := sub_fuel (S (length s)) r repl s.

(** os.path.basename, os.path.dirname (posixpath) *)
Definition basename (p : text) : text := match split_last "/" p with Some (_, b) => b | None => p end.
Fixpoint rstrip_slash (rp : text) : text :=                    (* of the reversed text *)
  match rp with "/"%char :: rp' => rstrip_slash rp' | _ => rp end.
Definition dirname (p : text) : text :=
  match split_last "/" p with
  | None => []
  | Some (h, _) =>
      let head := h ++ lit "/" in
      if forallb (Ascii.eqb "/") head then head else rev (rstrip_slash (rev head))
  end.

(** [if not os.path.exists(d): os.makedirs(d)]: the empty name never exists and cannot be made. Other
    reasons for failure are not modelled. *)
Definition ensure_dir (d : text) : res unit := match d with [] => Err FileNotFoundError | _ => Ok tt end.

(** ** Slices of a binary file *)

(** [l[a:b]] *)
Definition pyslice {A} (l : list A) (a b : Z) : list A :=
  let n := length l in firstn (clip n b - clip n a) (skipn (clip n a) l).

(** reduce_projections.py 27-50 and crop_image.py 28-51 (without the final stack) after reading *)
Definition planes {A} (items : list A) (s0 s1 s2 : Z) : res (list (arr A)) :=
  if negb (Z.of_nat (length items) =? prodZ [s0; s1; s2])%Z then Err ValueError
  else mapM (fun k => let i := Z.of_nat k in reshape (pyslice items (i * s0 * s1) ((i + 1) * s0 * s1)) [s0; s1])
            (seq 0 (Z.to_nat s2)).

(** np.stack(l, axis=0) *)
Definition stack {A} (l : list (arr A)) : res (arr A) :=
  match l with
  | [] => Err ValueError
  | a :: _ => if forallb (fun b => if list_eq_dec Nat.eq_dec (shp b) (shp a) then true else false) l
              then Ok (Arr (length l :: shp a) (flat_map dat l)) else Err ValueError
  end.

(** [l[::f]] *)
Definition every {A} (f : Z) (l : list A) : res (list A) :=
  if (f =? 0)%Z then Err ValueError
  else
    let m := Z.abs_nat f in
    let k := (length l + m - 1) / m in
    Ok (flat_map (fun i => match nth_error l (if (0 <? f)%Z then i * m else length l - 1 - i * m) with
                           | Some x => [x] | None => [] end) (seq 0 k)).

(** ** reduce_projections.py *)

(** 53-60 *)
Definition get_n_projections {A} (slices : list (arr A)) (factor : Z) : res (arr A) :=
  if (factor =? 1)%Z then Err ValueError
  else let* l := every factor slices in stack l.

Section main.
Variable read : text -> res (list Z).

(** 28-33; [size], [bitdepth] and the file *)
Definition load_planes (file : text) (s0 s1 s2 : Z) (bitdepth : text) : res (dtype * list (arr (list Z))) :=
  let* d := parse_bitdepth bitdepth in
  let* bytes := read file in
  let* l := planes (fromfile (itemsize d) bytes) s0 s1 s2 in
  Ok (d, l).

(** 74-88: the file written and its bytes *)
Definition reduce_main (argv : list text) : res (text * list Z) :=
  match argv with
  | [_; input; output; x; y; z; bitdepth; f] =>
      let* s0 := py_int x in let* s1 := py_int y in let* s2 := py_int z in
      let* factor := py_int f in
      let* (d, l) := load_planes input s0 s1 s2 bitdepth in
      let* v := get_n_projections l factor in
      let* _ := ensure_dir (dirname output) in
      Ok (output, concat (dat v))
  | _ => Err SystemExit
  end.

(** ** crop_image.py *)

(** 54-66 *)
Definition crop_range (factor : Z) (n : nat) : Z * Z :=
  let c := (Z.of_nat n / 2)%Z in
  let h := (Z.of_nat n / factor / 2)%Z in
  (c - h, c + h)%Z.
Definition crop {A} (v : arr A) (factor : Z) : res (arr A) :=
  if (factor =? 1)%Z then Err ValueError
  else if (factor =? 0)%Z then Err ZeroDivisionError
  else slice v (map (crop_range factor) (firstn 3 (shp v))).

Definition dims_name (s : list nat) : text :=
  str_nat (nth 2 s 0) ++ "x"%char :: str_nat (nth 1 s 0) ++ "x"%char :: str_nat (nth 0 s 0).

(** 69-82 *)
Definition crop_name (s : list nat) (file_name : text) : text := lit "crop_" ++ sub dim_re (dims_name s) file_name.

(** 85-106 *)
Definition crop_main (argv : list text) : res (text * list Z) :=
  match argv with
  | [_; input; output; x; y; z; bitdepth; f] =>
      let* s0 := py_int x in let* s1 := py_int y in let* s2 := py_int z in
      let* factor := py_int f in
      let* (d, l) := load_planes input s0 s1 s2 bitdepth in
      let* v := stack l in
      let* c := crop v factor in
      let* _ := ensure_dir output in
      Ok (join output (crop_name (shp c) (basename input)), concat (dat c))
  | _ => Err SystemExit
  end.

(** ** combine_stack.py; [glob] lists the matching files in the order of the operating system. *)
Variable glob : text -> list text.

(** 27-38; [None] without files *)
Definition combine_image_stack (input : text) (size : list Z) (bitdepth file_type : text) : res (option (arr (list Z))) :=
  let files := glob (join input (lit "*." ++ file_type)) in
  let* d := parse_bitdepth bitdepth in
  match files with
  | [] => Ok None
  | _ => let* vols := mapM (fun f => let* bytes := read f in load_binary bytes d size) files in
         let* v := stack vols in Ok (Some v)                    (* np.array of arrays of equal shape *)
  end.

(** 41-54 *)
Definition volume_name (s : list nat) (bitdepth file_type : text) : text :=
  lit "volume_" ++ dims_name s ++ lit "_" ++ bitdepth ++ lit "." ++ file_type.

(** 57-72 *)
Definition combine_main (argv : list text) : res (text * list Z) :=
  match argv with
  | [_; input; output; x; y; z; bitdepth; ft_in; ft_out] =>
      let* s0 := py_int x in let* s1 := py_int y in let* s2 := py_int z in
      let* v := combine_image_stack input [s0; s1; s2] bitdepth ft_in in
      let* _ := ensure_dir output in
      match v with
      | None => Err AttributeError                              (* None.shape *)
      | Some v => Ok (join output (volume_name (shp v) bitdepth ft_out), concat (dat v))
      end
  | _ => Err SystemExit
  end.
End main.

(** ** write_to_csv.py *)

Section csv.
Context {C : Type}.
(** Content of a file of the two input folders; None for a directory *)
Variable content : text -> option C.
(** Files in the folder "images", by name; None if there is no such folder. Directories in it are not
    modelled. *)
Definition folder := option (list (text * C)).
Fixpoint lookup (d : list (text * C)) (k : text) : option C :=
  match d with [] => None | (k', c) :: d' => if text_eqb k' k then Some c else lookup d' k end.

(** 55-58; shutil.copyfile opens the origin first *)
Definition copy_file (images : folder) (origin name : text) : res folder :=
  match images with
  | Some d => match lookup d name with
              | Some _ => Ok images
              | None => match content origin with
                        | Some c => Ok (Some (d ++ [(name, c)]))
                        | None => Err IsADirectoryError
                        end
              end
  | None => match content origin with Some _ => Err FileNotFoundError | None => Err IsADirectoryError end
  end.

Definition row := (text * text)%type.
(** 36-52: the rows written, the folder afterwards, and how the loop ended *)
Fixpoint pairs_loop (copy : bool) (l : list (text * text)) (images : folder) : list row * folder * res unit :=
  match l with
  | [] => ([], images, Ok tt)
  | (r, m) :: l' =>
      let rn := basename r in
      let mn := basename m in
      if text_eqb (hd [] (split_chr "." rn)) (firstn 3 mn) then
        let here := if copy then let* i := copy_file images r rn in
                                 match copy_file i m mn with Ok j => Ok (j, Ok tt) | Err e => Ok (i, Err e) end
                    else Ok (images, Ok tt) in
        match here with
        | Err e => ([(rn, mn)], images, Err e)
        | Ok (i, Err e) => ([(rn, mn)], i, Err e)
        | Ok (i, Ok _) => let '(rows, j, x) := pairs_loop copy l' i in ((rn, mn) :: rows, j, x)
        end
      else pairs_loop copy l' images
  end.

(** 26-52. [existed]: path_csv exists; [old]: its folder "images" before. Result: the rows of pairs.csv
    (None: not written), the folder "images" afterwards, how the function ended. The files found by
    glob are assumed not to change during the run. *)
Definition write_to_csv (mods refs : list text) (path_csv : text) (existed : bool) (old : folder) (copy : bool)
    : option (list row) * folder * res unit :=
  match path_csv with
  | [] => (None, old, Err FileNotFoundError)
  | _ =>
      let images := if existed then old else if copy then Some [] else None in
      let '(rows, i, x) := pairs_loop copy (flat_map (fun r => map (fun m => (r, m)) mods) refs) images in
      (Some ((lit "reference_image", lit "modified_image") :: rows), i, x)
  end.

(** 61-83 *)
Definition csv_main (glob : text -> list text) (existed : bool) (old : folder) (argv : list text)
    : option (list row) * folder * res unit :=
  match argv with
  | _ :: m :: r :: p :: rest =>
      match rest with
      | [] => (None, old, Err IndexError)
      | a :: _ => write_to_csv (glob (join m (lit "*"))) (glob (join r (lit "*"))) p existed old (text_eqb a (lit "copy"))
      end
  | _ => (None, old, Err SystemExit)
  end.
End csv.

(** ** write_to_mat.py; [load] stands for viqa.load_data of a path without normalisation. *)
Section mat.
Variable ident : identity.
Variable ub : R -> Z.
Variable load : text -> res image.

(** 31-49: the files written with the stored image, and how the loop ended; the folders are those
    found by glob. *)
Fixpoint write_to_mat (folders : list text) (filename : text) : list (text * norm_out) * res unit :=
  match folders with
  | [] => ([], Ok tt)
  | f :: fs =>
      match (let* img := load (join f filename) in normalize_data ident ub img 0 1 None) with
      | Err e => ([], Err e)
      | Ok n => let (l, x) := write_to_mat fs filename in ((join f (lit "image.mat"), n) :: l, x)
      end
  end.
Definition mat_main (glob : text -> list text) (argv : list text) : list (text * norm_out) * res unit :=
  match argv with
  | _ :: d :: rest => write_to_mat (glob (join d (lit "*"))) (hd (lit "volume.mhd") rest)
  | _ => ([], Err SystemExit)
  end.
End mat.
