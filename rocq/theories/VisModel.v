(** Model of src/viqa/utils/visualization.py, of CNR.visualize_centers (nr_metrics/cnr.py 162-272),
    SNR.visualize_centers (nr_metrics/snr.py 167-305) and of the start of the two set_centers
    methods (cnr.py 316-449, snr.py 369-609), up to the creation of the widgets. No proofs here.

    A figure is a list of panels; what matplotlib puts on the screen is described in data
    coordinates: x counts the columns and y the rows of the array handed to imshow. Sizes, colours,
    titles, showing and saving are left out. *)
From Coq Require Import Reals.
From Verif Require Import Base NdArray LoadModel NormModel PairModel MetricModel SliceModel RegionModel ExportModel.

Inductive patch :=
| Rect (x y w h : R)         (* lower corner in data coordinates, width, height *)
| Circle (x y r : R).

Record panel (A B : Type) := Panel {
  pl_img : arr A;
  pl_over : option (arr B);                 (* drawn on top, half transparent *)
  pl_v : option Z; pl_h : option Z;         (* vertical and horizontal line *)
  pl_patch : option patch }.
Arguments Panel {A B}. Arguments pl_img {A B}. Arguments pl_over {A B}.
Arguments pl_v {A B}. Arguments pl_h {A B}. Arguments pl_patch {A B}.

(** ** visualize_2d (594-636), visualize_3d (639-716) *)

Definition visualize_2d {A} (img : arr A) : res (list (panel A unit)) :=
  if negb (length (shp img) =? 2) then Err ValueError
  else Ok [Panel img None None None None].

(** isinstance(v, int): bool is a subclass of int. *)
Definition int_value (v : pyval) : option Z :=
  match v with PInt z => Some z | PBool b => Some (if b then 1 else 0)%Z | _ => None end.

(** np.rot90(img[x, :, ::-1]) etc. An index True or False adds an axis, and imshow refuses the
    four-dimensional array. *)
Definition slice_picture {A} (ax : nat) (v : pyval) (a : arr A) : res (arr A) :=
  match v with PInt z => plot_slice ax z a | _ => Err TypeError end.

Definition visualize_3d {A} (img : arr A) (slices : list pyval) : res (list (panel A unit)) :=
  match slices with
  | [sx; sy; sz] =>
      match int_value sx, int_value sy, int_value sz with
      | Some x, Some y, Some z =>
          if negb (length (shp img) =? 3) then Err ValueError
          else
            let fits i v := let n := Z.of_nat (nth i (shp img) 0%nat) in ((- n <=? v) && (v <=? n))%Z in
            if negb (fits 0 x && fits 1 y && fits 2 z) then Err ValueError
            else
              let* a := slice_picture 0 sx img in
              let* b := slice_picture 1 sy img in
              let* c := slice_picture 2 sz img in
              Ok [Panel a None (Some y) (Some z) None;
                  Panel b None (Some x) (Some z) None;
                  Panel c None (Some x) (Some y) None]
      | _, _, _ => Err ValueError
      end
  | _ => Err ValueError
  end.

(** ** Patches *)

(** The rectangle and circle calls; [None] as kind result: no patch. *)
Definition draw_patch (kind : rkind) (x y : Z) (radius : rval) : res (option patch) :=
  match kind with
  | KCubic =>
      match radius with
      | RInt r => Ok (Some (Rect (IZR (x - r)) (IZR (y - r)) (IZR (r * 2)) (IZR (r * 2))))
      | RReal r => Ok (Some (Rect (IZR x - r) (IZR y - r) (r * 2) (r * 2)))
      | ROther => Err TypeError
      end
  | KSpherical =>
      match radius with
      | RInt r => Ok (Some (Circle (IZR x) (IZR y) (IZR r)))
      | RReal r => Ok (Some (Circle (IZR x) (IZR y) r))
      | ROther => Err TypeError
      end
  | _ => Ok None
  end.

(** center[k]; coordinates that are not integers cannot be subtracted from (texts, None; floats are
    not modelled). *)
Definition coord (center : list cval) (k : nat) : res Z :=
  match nth_error center k with
  | None => Err IndexError
  | Some (CInt z) => Ok z
  | Some COther => Err TypeError
  end.

(** In the CNR functions no variable is assigned for other region types. *)
Definition cnr_patch (kind : rkind) (x y : res Z) (radius : rval) : res (option patch) :=
  match kind with
  | KCubic | KSpherical => let* x := x in let* y := y in draw_patch kind x y radius
  | _ => Err UnboundLocalError
  end.

(** ** _visualize_cnr_2d (44-122) and _visualize_cnr_3d (125-339) *)

Definition cnr_2d {A} (img : arr A) (sc bc : list cval) (radius : rval) (kind : rkind)
    : res (list (panel A unit)) :=
  let* p1 := cnr_patch kind (coord bc 0) (coord bc 1) radius in
  let* mirrored := flip_ax img (length (shp img) - 1) in
  let* p2 := cnr_patch kind (coord sc 0) (coord sc 1) radius in
  Ok [Panel img None None None p1; Panel mirrored None None None p2].

(** The three panels around a centre *)
Definition three_panels {A B} (patch_of : Z -> Z -> res (option patch)) (img : arr A) (over : option (arr B))
    (c0 c1 c2 : Z) : res (list (panel A B)) :=
  let lay ax v := match over with Some o => let* p := plot_slice ax v o in Ok (Some p) | None => Ok None end in
  let* i0 := plot_slice 0 c0 img in
  let* o0 := lay 0 c0 in
  let* p0 := patch_of c1 c2 in
  let* i1 := plot_slice 1 c1 img in
  let* o1 := lay 1 c1 in
  let* p1 := patch_of c0 c2 in
  let* i2 := plot_slice 2 c2 img in
  let* o2 := lay 2 c2 in
  let* p2 := patch_of c0 c1 in
  Ok [Panel i0 o0 (Some c1) (Some c2) p0; Panel i1 o1 (Some c0) (Some c2) p1; Panel i2 o2 (Some c0) (Some c1) p2].

(** [subplots]: plt.subplots with the remaining keywords (3D only) *)
Definition cnr_3d {A} (subplots : res unit) (img : arr A) (sc bc : list cval) (radius : rval) (kind : rkind)
    : res (list (panel A unit)) :=
  let* _ := subplots in
  let* b0 := coord bc 0 in let* b1 := coord bc 1 in let* b2 := coord bc 2 in
  let* bg := three_panels (fun x y => cnr_patch kind (Ok x) (Ok y) radius) img None b0 b1 b2 in
  let* s0 := coord sc 0 in let* s1 := coord sc 1 in let* s2 := coord sc 2 in
  let* sg := three_panels (fun x y => cnr_patch kind (Ok x) (Ok y) radius) img None s0 s1 s2 in
  Ok (bg ++ sg).

(** ** CNR.visualize_centers *)

(** Stored parameters: is the key there, and its value (which can be None). *)
Definition center := option (list cval).
Record stored := Stored {
  st_signal : option center; st_background : option center; st_radius : option (option rval);
  st_kind : option pyval }.

(** [not center], [not radius] *)
Definition no_center (c : center) : bool := match c with None | Some [] => true | _ => false end.
Definition no_radius (r : option rval) : bool :=
  match r with
  | None => true
  | Some (RInt z) => (z =? 0)%Z
  | Some (RReal x) => if Req_EM_T x 0 then true else false
  | Some ROther => false
  end.
(** A radius None is not an int. *)
Definition rad_of (r : option rval) : rval := match r with Some r => r | None => ROther end.
Definition len_of (c : center) : res (list cval) := from_opt TypeError c.     (* len(None) *)

(** The region type as a keyword value *)
Definition kind_of_val (v : pyval) : rkind := match v with PText s => region_kind s | _ => KUnknown end.

(** [**kwargs] of the call: the keyword region_type, if given, and the behaviour of plt.subplots with
    the others. *)
Definition cnr_visualize (img : arr R) (params : stored) (signal background : center)
    (radius : option rval) (region_type : option pyval) (subplots : res unit)
    : res (list (panel R unit)) :=
  let* (sc, bc, rad) :=
    if no_center signal || no_center background || no_radius radius then
      match st_signal params, st_background params, st_radius params with
      | Some s, Some b, Some r => Ok (s, b, rad_of r)
      | _, _, _ => Err ValueError
      end
    else Ok (signal, background, rad_of radius) in
  let s := shp img in
  let extra := if last s 0 =? 3 then 1 else 0 in
  let* sl := len_of sc in
  let* _ := raise_if (negb (length s =? length sl + extra)) ValueError in
  let* bl := len_of bc in
  let* _ := raise_if (negb (length s =? length bl + extra)) ValueError in
  let* _ := check_radius rad in
  let* _ := check_border sl rad in
  let* _ := check_border bl rad in
  let call (draw : rkind -> res (list (panel R unit))) :=
    match region_type with None => Err TypeError | Some k => draw (kind_of_val k) end in
  if (length s =? 3) && negb (last s 0 =? 3) then call (cnr_3d subplots img sl bl rad)
  else if length s =? 3 then
    let* g := to_grayscale img in call (cnr_2d g sl bl rad)
  else if length s =? 2 then call (cnr_2d img sl bl rad)
  else Err ValueError.

(** set_centers outside IPython (316-326) *)
Definition not_interactive {X} (r : res X) : res X := match r with Ok x => Ok x | Err _ => Err ImportError end.

(** ** _visualize_snr_2d (342-413), _visualize_snr_3d (416-572) *)

Section snr.
Context {B : Type}.                        (* elements of the signal region (a masked array) *)
Definition same_shape {A} (a : arr A) (b : arr B) : bool := shape_eqb (shp b) (shp a).

(** 352-368, 426-442: the kind used for drawing *)
Definition snr_kind {A} (img : arr A) (kind : rkind) (signal : option (arr B)) : res rkind :=
  match kind, signal with
  | KUnknown, _ => Err ValueError
  | KFull, None => Ok KOriginal
  | KFull, Some s => if same_shape img s then Ok KFull else Err ValueError
  | k, _ => Ok k
  end.

Definition overlay (kind : rkind) (signal : option (arr B)) : option (arr B) :=
  match kind with KFull => signal | _ => None end.

Definition snr_2d {A} (img : arr A) (c : list cval) (radius : rval) (kind : rkind) (signal : option (arr B))
    : res (list (panel A B)) :=
  let* kind := snr_kind img kind signal in
  let* mirrored := flip_ax img (length (shp img) - 1) in
  let* p := match kind with
            | KCubic | KSpherical => let* x := coord c 0 in let* y := coord c 1 in draw_patch kind x y radius
            | _ => Ok None
            end in
  Ok [Panel mirrored (overlay kind signal) None None p].

Definition snr_3d {A} (img : arr A) (c : list cval) (radius : rval) (kind : rkind) (signal : option (arr B))
    : res (list (panel A B)) :=
  let* kind := snr_kind img kind signal in
  let* c0 := coord c 0 in let* c1 := coord c 1 in let* c2 := coord c 2 in
  three_panels (fun x y => draw_patch kind x y radius) img (overlay kind signal) c0 c1 c2.

(** ** SNR.visualize_centers *)

(** Truth value of an array: ambiguous for more than one element, False for none. *)
Variable single : arr B -> bool.
Definition array_truth (a : arr B) : res bool :=
  if size (shp a) =? 0 then Ok false else if size (shp a) =? 1 then Ok (single a) else Err ValueError.

(** [not region_type] *)
Definition no_kind (v : option pyval) : bool := match v with None => true | Some v => negb (truthy v) end.
Definition whole_kind (v : pyval) : bool :=
  match v with PText s => String.eqb s "full" || String.eqb s "original" | _ => false end.

(** Members of a set must be hashable (lists are not). *)
Definition hashable (v : pyval) : bool := match v with PRoi _ => false | _ => true end.

(** [region]: the attribute _region, if it exists *)
Definition snr_visualize (img : arr R) (params : stored) (region : option (arr B)) (signal_center : center)
    (radius : option rval) (region_type : option pyval) (signal : option (arr B))
    : res (list (panel R B)) :=
  let s := shp img in
  let* kind := if no_kind region_type then from_opt ValueError (st_kind params)
               else Ok (match region_type with Some k => k | None => PNone end) in
  let* sig := match signal with
              | None => Ok region
              | Some a => let* t := array_truth a in Ok (if t then Some a else region)
              end in
  let* (c, rad) :=
    match sig with
    | None =>
        if negb (hashable kind) then Err TypeError
        else if whole_kind kind then
          Ok (if no_center signal_center then map (fun n => CInt (Z.of_nat (n / 2))) s
              else match signal_center with Some l => l | None => [] end,
              rad_of radius)
        else
          let* c := if no_center signal_center
                    then let* p := from_opt ValueError (st_signal params) in from_opt ValueError p
                    else from_opt ValueError signal_center in
          let* r := if no_radius radius then let* q := from_opt ValueError (st_radius params) in from_opt ValueError q
                    else from_opt ValueError radius in
          let* _ := raise_if (negb (length s =? length c + (if last s 0 =? 3 then 1 else 0))) ValueError in
          let* _ := check_radius r in
          let* _ := check_border c r in
          Ok (c, r)
    | Some _ =>
        Ok (if no_center signal_center then map (fun n => CInt (Z.of_nat (n / 2))) s
            else match signal_center with Some l => l | None => [] end,
            rad_of radius)
    end in
  let k := kind_of_val kind in
  if (length s =? 3) && negb (last s 0 =? 3) then snr_3d img c rad k sig
  else if length s =? 3 then let* g := to_grayscale img in snr_2d g c rad k sig
  else if length s =? 2 then snr_2d img c rad k sig
  else Err ValueError.
End snr.

(** ** set_centers in IPython: the values written to the parameters before any widget is made *)

(** cnr.py 417-449. [given] are the keywords; the image is grey here (418-419). *)
Definition cnr_start (shape : list nat) (params : stored) (signal background : option center)
    (radius : option (option rval)) : res stored :=
  let middle : center := Some (map (fun n => CInt (Z.of_nat (n / 2))) shape) in
  let '(sc, bc, rad) :=
    match st_signal params, st_background params, st_radius params with
    | Some s, Some b, Some r => (s, b, rad_of r)
    | _, _, _ =>
        (match signal with Some c => c | None => middle end,
         match background with Some c => c | None => middle end,
         match radius with Some r => rad_of r | None => RInt 1 end)
    end in
  let* sl := len_of sc in
  let* _ := raise_if (negb (length shape =? length sl)) ValueError in
  let* bl := len_of bc in
  let* _ := raise_if (negb (length shape =? length bl)) ValueError in
  let* _ := check_radius rad in
  let* _ := check_border sl rad in
  let* _ := check_border bl rad in
  Ok (Stored (Some sc) (Some bc) (Some (Some rad)) (st_kind params)).

(** snr.py 541-609; None values of signal_center and radius are stored for the other region types.
    The thresholds and iterations are left out. *)
Definition valid_start (v : pyval) : bool :=
  match v with PText s => existsb (String.eqb s) ["full"; "original"; "cubic"; "spherical"]%string | _ => false end.

Definition snr_saved (params : stored) (kind : pyval) (c : center) (r : rval) : stored :=
  match kind with
  | PText s =>
      if String.eqb s "cubic" || String.eqb s "spherical" then Stored (Some c) (st_background params) (Some (Some r)) (Some kind)
      else Stored (Some None) (st_background params) (Some None) (Some kind)
  | _ => Stored (Some None) (st_background params) (Some None) (Some kind)
  end.

Definition snr_start (shape : list nat) (params : stored) (signal : option center) (radius : option (option rval))
    (region_type : option pyval) : res stored :=
  let middle : center := Some (map (fun n => CInt (Z.of_nat (n / 2))) shape) in
  let or_stored {X} (a b : option X) (d : X) := match a with Some x => x | None => match b with Some x => x | None => d end end in
  let c := or_stored signal (st_signal params) middle in
  let r := rad_of (or_stored radius (st_radius params) (Some (RInt 1))) in
  let k := or_stored region_type (st_kind params) (PText "cubic") in
  let* l := len_of c in
  let* _ := raise_if (negb (length shape =? length l)) ValueError in
  let* _ := check_radius r in
  let* _ := raise_if (negb (hashable k)) TypeError in
  let* _ := raise_if (negb (valid_start k)) ValueError in
  let* _ := check_border l r in
  Ok (snr_saved params k c r).
