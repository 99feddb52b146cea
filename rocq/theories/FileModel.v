(** Model of reading images from files: load_data for paths (src/viqa/utils/loading.py lines 721-726),
    _load_data_from_disk (341-392), load_mhd (395-471), load_raw (474-561) and _load_binary (592-612),
    from the path and the bytes of the files to the array. No proofs here.

    LoadModel.v has the parts (names, headers, bytes and order of the voxels); the array there holds the
    bytes of each voxel, here it holds numbers. *)
From Coq Require Import Reals Ascii.
From Verif Require Import Base NdArray LoadModel NormModel PairModel BatchModel ScriptModel.

(** ** Values of voxels *)

(** IEEE 754 binary formats: sign, [e] bits of exponent, [m] bits of mantissa. Infinities and NaN are no
    real numbers (None). *)
Definition ieee (e m : nat) (w : Z) : option R :=
  let ex := ((w / 2 ^ Z.of_nat m) mod 2 ^ Z.of_nat e)%Z in
  let fr := (w mod 2 ^ Z.of_nat m)%Z in
  let bias := (2 ^ (Z.of_nat e - 1) - 1)%Z in
  let sign := (if Z.testbit w (Z.of_nat (e + m)) then -1 else 1)%Z in
  if (ex =? 2 ^ Z.of_nat e - 1)%Z then None
  else if (ex =? 0)%Z then Some (IZR (sign * fr) * powerRZ 2 (1 - bias - Z.of_nat m))%R
  else Some (IZR (sign * (2 ^ Z.of_nat m + fr)) * powerRZ 2 (ex - bias - Z.of_nat m))%R.

Definition float_value (bits : nat) (w : Z) : option R :=
  match bits with
  | 16 => ieee 5 10 w
  | 32 => ieee 8 23 w
  | 64 => ieee 11 52 w
  | _ => None
  end.

Section Files.

(** The bytes of the files of the machine. *)
Variable files : text -> option (list Z).
(** nibabel and skimage for the other formats. *)
Variable other : reader -> text -> res image.
(** Infinities and NaN in floating point files have no counterpart in [image]; they become this number. *)
Variable special : Z -> R.

(** [open]: a missing file raises FileNotFoundError *)
Definition open_file (p : text) : res (list Z) := from_opt FileNotFoundError (files p).

(** Text mode: universal newlines. The bytes are taken as ASCII. *)
Fixpoint newlines (t : text) : text :=
  match t with
  | [] => []
  | c :: t' =>
      if Ascii.eqb c (ascii_of_nat 13) then
        match t' with
        | d :: t'' => if Ascii.eqb d newline then newline :: newlines t'' else newline :: newlines t'
        | [] => [newline]
        end
      else c :: newlines t'
  end.
Definition text_of (bytes : list Z) : text := newlines (map (fun b => ascii_of_nat (Z.to_nat b)) bytes).

(** np.fromfile has the type [d]: the numbers of an array of items. *)
Definition typed (d : dtype) (a : arr (list Z)) : image :=
  match d with
  | Float b => Img d (PF (amap (fun w => match float_value b (decode_le w) with
                                         | Some x => x | None => special (decode_le w) end) a))
  | _ => Img d (PI (amap decode_le a))
  end.

(** _load_data_from_disk, 341-392. For raw files the name is inspected before the file is opened. *)
Definition load_from_disk (dir name : text) : res image :=
  let path := join dir name in
  let* r := dispatch name in
  match r with
  | RdMhd =>                                                                  (* 395-471 *)
      let* content := open_file path in
      let* (file, d, dims) := mhd_info (text_of content) in
      let* bytes := open_file (join dir file) in
      let* a := load_binary bytes d dims in Ok (typed d a)
  | RdRaw =>                                                                  (* 474-561 *)
      let head := fst (splitext name) in
      let* dims := raw_dims head in
      let* d := raw_dtype head in
      let* bytes := open_file path in
      let* a := load_binary bytes d dims in Ok (typed d a)
  | _ => other r path
  end.

(** load_data, 721-726 *)
Definition disk (p : text) : res image := load_from_disk (dirname p) (basename p).

End Files.
