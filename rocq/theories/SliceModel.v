(** Model of the score methods that work slice by slice: MSSSIM (msssim.py 177-283), FSIM
    (fsim.py 181-281), VIFp (vif.py 168-256), VSI (vsi.py 183-275), MAD (mad.py 176-248 and
    most_apparent_distortion_3d 311-338) and GSM (gsm.py 183-253 and gradient_similarity_3d
    328-359), from the point where both images are loaded, and of _check_chromatic
    (utils/misc.py 420-439).

    The 2D metrics themselves are arbitrary functions: of two 4D tensors for the four metrics that
    call piq, of two images for MAD and GSM. Keyword arguments and the data range are part of these
    functions. The conversion to float32 (misc.py 422-423) is part of the loaded images. *)
From Coq Require Import Reals.
From Verif Require Import Base NdArray LoadModel NormModel PairModel RealSums MetricModel SsimModel.

(** ** Array and tensor operations *)

(** [img[s, :, :]], [img[:, s, :]], [img[:, :, s]]: an integer index along axis [ax]. *)
Definition drop_ax (ax : nat) (l : list nat) : list nat := firstn ax l ++ skipn (S ax) l.
Definition insert_ax (ax v : nat) (l : list nat) : list nat := firstn ax l ++ v :: skipn ax l.
Definition take_axis {A} (ax : nat) (s : Z) (a : arr A) : res (arr A) :=
  let n := Z.of_nat (nth ax (shp a) 0) in
  let p := (if s <? 0 then s + n else s)%Z in
  if (length (shp a) <=? ax) || (p <? 0)%Z || (n <=? p)%Z then Err IndexError
  else reindex a (drop_ax ax (shp a)) (insert_ax ax (Z.to_nat p)).

(** torch: [t.unsqueeze(0)] *)
Definition unsqueeze0 {A} (a : arr A) : res (arr A) := reindex a (1 :: shp a) (@tl nat).

(** torch: [t.permute(p0, p1, ...)]: axis j of the result is axis pj of t; a wrong number of axes
    is a RuntimeError. *)
Fixpoint position (x : nat) (l : list nat) : nat :=
  match l with [] => 0 | y :: l' => if y =? x then 0 else S (position x l') end.
Definition permute {A} (p : list nat) (a : arr A) : res (arr A) :=
  if length p =? length (shp a)
  then reindex a (map (fun j => nth j (shp a) 0) p)
         (fun idx => map (fun j => nth (position j p) idx 0) (seq 0 (length p)))
  else Err RuntimeError.

(** ** _check_chromatic, misc.py 420-439, for one of the two images *)
Definition to_tensor {A} (chromatic : bool) (a : arr A) : res (arr A) :=
  if chromatic then let* t := permute [2; 0; 1] a in unsqueeze0 t
  else if length (shp a) =? 3 then let* t := unsqueeze0 a in permute [3; 0; 1; 2] t
  else if length (shp a) =? 2 then let* t := unsqueeze0 a in unsqueeze0 t
  else Err ValueError.

(** ** Arguments dim and im_slice *)

(** dim: None, something equal to an integer (0, 0.0, False, ...), anything else. *)
Inductive dimval := DNone | DNum (z : Z) | DOther.
(** im_slice: None, an int, anything else (also a bool or a numpy integer). *)
Inductive slval := SlNone | SlInt (s : Z) | SlOther.

(** [match dim: case 0 | 1 | 2 | _] *)
Definition axis_of (d : dimval) : res nat :=
  match d with
  | DNum 0 => Ok 0 | DNum 1 => Ok 1 | DNum 2 => Ok 2
  | _ => Err ValueError
  end.

(** ** MS-SSIM, FSIM, VIFp and VSI *)

(** The first three ask for [img_r.ndim == 3 and img_r.shape[-1] != 3], VSI for [img_r.ndim == 3]. *)
Inductive piq_kind := KMSSSIM | KFSIM | KVIFp | KVSI.
Definition rgb_aware (k : piq_kind) : bool := match k with KVSI => false | _ => true end.

Section piq.
Context {A : Type}.
Variable f : arr A -> arr A -> res ext.

Definition piq_pair (chromatic : bool) (r m : arr A) : res ext :=
  let* tr := to_tensor chromatic r in
  let* tm := to_tensor chromatic m in
  f tr tm.

Definition piq_score (k : piq_kind) (chromatic : bool) (dim : dimval) (sl : slval) (r m : arr A) : res ext :=
  let rgb := (length (shp r) =? 3) && (last (shp r) 0 =? 3) in
  if (length (shp r) =? 3) && negb (rgb_aware k && rgb) then
    match dim, sl with
    | DNone, _ => Err ValueError
    | _, SlInt s =>
        let* ax := axis_of dim in
        let* rs := take_axis ax s r in
        let* ms := take_axis ax s m in
        piq_pair chromatic rs ms
    | _, SlNone => piq_pair chromatic r m
    | _, SlOther => Err ValueError
    end
  else if (length (shp r) =? 2) || (rgb_aware k && rgb) then piq_pair chromatic r m
  else Err ValueError.
End piq.

(** ** MAD and GSM *)

Section own.
Context {A : Type}.
Variable g : arr A -> arr A -> res ext.

(** most_apparent_distortion_3d, gradient_similarity_3d without [experimental] *)
Definition slice_mean (dim : dimval) (r m : arr A) : res ext :=
  let* ax := axis_of dim in
  let* scores := mapM (fun k => let* rs := take_axis ax (Z.of_nat k) r in
                                let* ms := take_axis ax (Z.of_nat k) m in g rs ms)
                      (seq 0 (nth ax (shp r) 0)) in
  Ok (mean_ext scores).

(** [experimental] exists for GSM only: the 3D kernels on the whole volume. *)
Definition own_score (experimental : bool) (dim : dimval) (sl : slval) (r m : arr A) : res ext :=
  if length (shp r) =? 3 then
    match dim, sl with
    | DNone, _ => Err ValueError
    | _, SlInt s =>
        let* ax := axis_of dim in
        let* rs := take_axis ax s r in
        let* ms := take_axis ax s m in
        g rs ms
    | _, SlNone => if experimental then g r m else slice_mean dim r m
    | _, SlOther => Err ValueError
    end
  else if length (shp r) =? 2 then g r m
  else Err ValueError.
End own.
