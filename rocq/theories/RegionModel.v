(** Model of the region helpers in src/viqa/utils/misc.py: _rgb_to_yuv (40-50),
    _check_border_too_close (442-449), _get_binary (452-490, without plotting),
    find_largest_region (493-584), _to_spherical (587-612), _to_cubic (615-639). No proofs here. *)
From Coq Require Import Reals.
From Verif Require Import Base NdArray LoadModel NormModel PairModel RealSums.

(** ** Arguments *)

(** A coordinate: an int (also a bool), or something else. *)
Inductive cval := CInt (z : Z) | COther.
(** radius: an int, another real number, or something that cannot be subtracted from an int. *)
Inductive rval := RInt (r : Z) | RReal (x : R) | ROther.

(** misc.py 442-449; the same loop is written out in cnr.py 798-812 and snr.py 1021-1027. *)
Fixpoint check_border (center : list cval) (radius : rval) : res (list Z) :=
  match center with
  | [] => Ok []
  | COther :: _ => Err TypeError
  | CInt z :: c' =>
      let* _ := match radius with
                | RInt r => raise_if (Z.abs z - r <? 0)%Z ValueError
                | RReal x => raise_if (if Rlt_dec (IZR (Z.abs z) - x) 0 then true else false) ValueError
                | ROther => Err TypeError
                end in
      let* zs := check_border c' radius in Ok (z :: zs)
  end.

(** [not isinstance(radius, int) or radius <= 0] *)
Definition check_radius (radius : rval) : res Z :=
  match radius with RInt r => if (r <=? 0)%Z then Err TypeError else Ok r | _ => Err TypeError end.

(** ** Masks *)

(** Is index [i] inside [c - r : c + r] on an axis of length [n]? *)
Definition in_slice (n : nat) (c r : Z) (i : nat) : bool :=
  (clip n (c - r) <=? i) && (i <? clip n (c + r)).
Fixpoint in_box (s : list nat) (c : list Z) (r : Z) (idx : list nat) : bool :=
  match s, c, idx with
  | n :: s', z :: c', i :: idx' => in_slice n z r i && in_box s' c' r idx'
  | _, _, _ => true
  end.
(** np.ogrid[-c : n - c] has the value i - c at position i. *)
Fixpoint dist_sq (c : list Z) (idx : list nat) : Z :=
  match c, idx with
  | z :: c', i :: idx' => ((Z.of_nat i - z) ^ 2 + dist_sq c' idx')%Z
  | _, _ => 0%Z
  end.

(** np.ma.array(img, mask=~mask): masked elements are None. *)
Definition masked {A} (a : arr A) (m : list nat -> bool) : arr (option A) :=
  Arr (shp a) (map (fun p => if m (fst p) then Some (snd p) else None) (combine (indices (shp a)) (dat a))).

Definition grey3 (s : list nat) : bool := (length s =? 3) && (3 <? last s 0).

(** For colour images [mask] is already (H, W, 3) and becomes (H, W, 3, 3): np.ma.array refuses it
    unless both are empty. *)
Definition to_cubic {A} (a : arr A) (c : list Z) (r : Z) : res (arr (option A)) :=
  let s := shp a in
  if (length s =? 2) || is_colour s then
    if negb (length c =? 2) then Err ValueError
    else if is_colour s && negb (size s =? 0) then Err MaskError
    else Ok (masked a (in_box s c r))
  else if grey3 s then
    if negb (length c =? 3) then Err ValueError else Ok (masked a (in_box s c r))
  else Err ValueError.

Definition to_spherical {A} (a : arr A) (c : list Z) (r : Z) : res (arr (option A)) :=
  let s := shp a in
  if (length s =? 2) || is_colour s then
    if negb (length c =? 2) then Err ValueError
    else Ok (masked a (fun idx => (dist_sq c (firstn 2 idx) <=? r ^ 2)%Z))
  else if grey3 s then
    if negb (length c =? 3) then Err ValueError
    else Ok (masked a (fun idx => (dist_sq c idx <=? r ^ 2)%Z))
  else Err ValueError.

(** ** _get_binary *)

Fixpoint insertR (x : R) (l : list R) : list R :=
  match l with [] => [x] | y :: l' => if Rle_dec x y then x :: l else y :: insertR x l' end.
Definition sortR (l : list R) : list R := fold_right insertR [] l.

(** np.percentile(a, q), linear interpolation; an empty array is an IndexError. *)
Definition percentile (l : list R) (q : R) : res R :=
  if Rlt_dec q 0 then Err ValueError
  else if Rlt_dec 100 q then Err ValueError
  else match l with
  | [] => Err IndexError
  | _ =>
      let s := sortR l in
      let v := (q / 100 * INR (length l - 1))%R in
      let i := Z.to_nat (Int_part v) in
      let x := nth i s 0%R in
      let y := nth (S i) s x in                     (* the last element has no successor *)
      Ok (x + (v - INR i) * (y - x))%R
  end.

Definition get_binary (img : arr R) (lower upper : R) : res (arr bool) :=
  let* img := if is_colour (shp img) then to_grayscale img else Ok img in
  let* lo := percentile (dat img) lower in
  let* hi := percentile (dat img) upper in
  Ok (amap (fun x => (if Rlt_dec lo x then true else false) && (if Rle_dec x hi then true else false)) img).

(** ** find_largest_region *)

(** Value of a binary image, False outside (scipy's border_value = 0). *)
Definition at_ (m : arr bool) (idx : list nat) : bool := match get m idx with Some b => b | None => false end.

(** The 2D and 3D structuring elements are a voxel and its direct neighbours. *)
Definition before (m : arr bool) (idx : list nat) (k : nat) : bool :=
  (0 <? nth k idx 0) && at_ m (upd idx k (nth k idx 0 - 1)).
Definition after (m : arr bool) (idx : list nat) (k : nat) : bool := at_ m (upd idx k (nth k idx 0 + 1)).
Definition axes (m : arr bool) : list nat := seq 0 (length (shp m)).

Definition dilate1 (m : arr bool) : arr bool :=
  tabulate (shp m) (fun idx => at_ m idx || existsb (fun k => before m idx k || after m idx k) (axes m)).
Definition erode1 (m : arr bool) : arr bool :=
  tabulate (shp m) (fun idx => at_ m idx && forallb (fun k => before m idx k && after m idx k) (axes m)).

(** scipy repeats the operation [iterations] times; less than 1 means until nothing changes, which
    takes at most as many steps as there are voxels. *)
Definition repeats (m : arr bool) (iterations : Z) : nat :=
  if (iterations <? 1)%Z then size (shp m) else Z.to_nat iterations.
Definition dilation (iterations : Z) (m : arr bool) : arr bool := Nat.iter (repeats m iterations) dilate1 m.
Definition erosion (iterations : Z) (m : arr bool) : arr bool := Nat.iter (repeats m iterations) erode1 m.

Fixpoint gap_sq (a b : list nat) : nat :=
  match a, b with
  | i :: a', j :: b' => (if i <=? j then (j - i) * (j - i) else (i - j) * (i - j)) + gap_sq a' b'
  | _, _ => 0
  end.
Definition background (m : arr bool) : list (list nat) := filter (fun j => negb (at_ m j)) (indices (shp m)).
(** Square of scipy.ndimage.distance_transform_edt: exact distance to the nearest False voxel; the
    value without any False voxel is unspecified ([nobg]). *)
Definition edt_sq (nobg : arr bool -> list nat -> nat) (m : arr bool) (idx : list nat) : nat :=
  match map (gap_sq idx) (background m) with
  | [] => nobg m idx
  | d :: l => fold_left Nat.min l d
  end.

(** np.unravel_index(np.argmax(..)): the first index of the largest value, row-major *)
Definition argmax_step (f : list nat -> nat) (best idx : list nat) : list nat :=
  if f best <? f idx then idx else best.
Definition argmax_idx (f : list nat -> nat) (l : list (list nat)) : option (list nat) :=
  match l with [] => None | x :: l' => Some (fold_left (argmax_step f) l' x) end.

Inductive rkind := KFull | KOriginal | KCubic | KSpherical | KUnknown.
Definition region_kind (s : string) : rkind :=
  (if existsb (String.eqb s) ["cubic"; "cube"; "square"] then KCubic
  else if existsb (String.eqb s) ["spherical"; "sphere"; "circle"] then KSpherical
  else if String.eqb s "full" then KFull
  else if String.eqb s "original" then KOriginal
  else KUnknown)%string.

(** The binary image after dilation and erosion *)
Definition cleaned (iterations : Z) (m : arr bool) : arr bool :=
  erosion (iterations + 1) (dilation iterations m).

(** Returns centre, radius and the data of the region array. The region is a masked array for
    "full", "cubic" and "spherical"; its mask is not part of the result here, because the callers
    only use [np.ma.array(img, mask=~region)], which reads the data of [~region] (numpy drops the
    mask of a mask). int(sqrt(d)) is the integer square root. *)
Definition find_largest_region (nobg : arr bool -> list nat -> nat) (m : arr bool) (iterations : Z) (kind : rkind)
    : res (list nat * nat * arr bool) :=
  if negb (existsb (fun b => b) (dat m) && existsb negb (dat m)) then Err ValueError     (* 538-540 *)
  else if is_colour (shp m) then Err RuntimeError          (* structure of the wrong dimension *)
  else if (length (shp m) =? 2) || grey3 (shp m) then
    let c := cleaned iterations m in
    match argmax_idx (edt_sq nobg c) (indices (shp c)) with
    | None => Err ValueError
    | Some centre =>
        let radius := Nat.sqrt (edt_sq nobg c centre) in
        let z := map Z.of_nat centre in
        let* _ := match kind with                                                          (* 571-574 *)
                  | KCubic => let* _ := to_cubic c z (Z.of_nat radius) in Ok tt
                  | KSpherical => let* _ := to_spherical c z (Z.of_nat radius) in Ok tt
                  | _ => Ok tt
                  end in
        Ok (centre, radius, match kind with KOriginal => m | _ => c end)
    end
  else Err ValueError.

(** ** _rgb_to_yuv: [img @ weights] *)
Definition yuv_weights : list (list R) :=
  [[2126 / 10000; 7152 / 10000; 722 / 10000];
   [- (9991 / 100000); - (33609 / 100000); 436 / 1000];
   [615 / 1000; - (55861 / 100000); - (5639 / 100000)]]%R.
Definition weight (k c : nat) : R := nth c (nth k yuv_weights []) 0%R.

Definition rgb_to_yuv (a : arr R) : res (arr R) :=
  if last (shp a) 0 =? 3 then
    let* l := mapM (fun idx =>
      let p := removelast idx in
      let c := last idx 0 in
      let* r := from_opt IndexError (get a (p ++ [0])) in
      let* g := from_opt IndexError (get a (p ++ [1])) in
      let* b := from_opt IndexError (get a (p ++ [2])) in
      Ok (r * weight 0 c + g * weight 1 c + b * weight 2 c)%R) (indices (shp a)) in
    Ok (Arr (shp a) l)
  else Err ValueError.
