(** Model of the class ImageArray (src/viqa/utils/loading.py 63-338). No proofs here.

    An object is its data and its attributes. Data are arbitrary values; sharing of memory between
    views is not modelled (assignments are operations of the history, see [op]). *)
From Verif Require Import Base NdArray LoadModel PairModel MetricModel SliceModel BatchModel ExportModel VisModel.

Section stat.
Context {D V H : Type}.                     (* image data with its element type, values, histograms *)
Variable integer : D -> bool.               (* dtype.kind in ["u", "i"] *)
(** numpy and scipy functions; each can raise (for example for an empty image). *)
Variables f_mean f_median f_var f_std f_skew f_kurt f_min f_max : D -> res V.
Variable f_hist : D -> res H.               (* with the number of bins chosen by the code *)

(** None: "Not set. Run calculate_statistics() first." *)
Record attrs := Attrs {
  a_mean : option V; a_median : option V; a_var : option V; a_std : option V;
  a_skew : option V; a_kurt : option V; a_hist : option H; a_min : option V; a_max : option V }.
Definition unset : attrs := Attrs None None None None None None None None None.
Record image := Image { im_data : D; im_attrs : attrs }.

(** 104-105: np.asarray makes a plain array of an ImageArray, so the attributes are lost. *)
Definition new (d : D) : image := Image d unset.
(** 107-145 with the object the new one is made from: slices, views, copies, casts, transposes ... *)
Definition derive (img : image) (d : D) : image := Image d (im_attrs img).
(** 147-184: results of arithmetic are views of plain arrays; with out= (also for +=) the given object is
    returned, its data changed. *)
Definition ufunc_new (d : D) : image := Image d unset.
Definition ufunc_out (out : image) (d : D) : image := Image d (im_attrs out).

(** 186-217: attributes are set one after the other; what was set before an exception stays. The
    histogram of integer images is stored on a temporary view. *)
Definition set_mean v a := Attrs (Some v) (a_median a) (a_var a) (a_std a) (a_skew a) (a_kurt a) (a_hist a) (a_min a) (a_max a).
Definition set_median v a := Attrs (a_mean a) (Some v) (a_var a) (a_std a) (a_skew a) (a_kurt a) (a_hist a) (a_min a) (a_max a).
Definition set_var v a := Attrs (a_mean a) (a_median a) (Some v) (a_std a) (a_skew a) (a_kurt a) (a_hist a) (a_min a) (a_max a).
Definition set_std v a := Attrs (a_mean a) (a_median a) (a_var a) (Some v) (a_skew a) (a_kurt a) (a_hist a) (a_min a) (a_max a).
Definition set_skew v a := Attrs (a_mean a) (a_median a) (a_var a) (a_std a) (Some v) (a_kurt a) (a_hist a) (a_min a) (a_max a).
Definition set_kurt v a := Attrs (a_mean a) (a_median a) (a_var a) (a_std a) (a_skew a) (Some v) (a_hist a) (a_min a) (a_max a).
Definition set_hist v a := Attrs (a_mean a) (a_median a) (a_var a) (a_std a) (a_skew a) (a_kurt a) (Some v) (a_min a) (a_max a).
Definition set_min v a := Attrs (a_mean a) (a_median a) (a_var a) (a_std a) (a_skew a) (a_kurt a) (a_hist a) (Some v) (a_max a).
Definition set_max v a := Attrs (a_mean a) (a_median a) (a_var a) (a_std a) (a_skew a) (a_kurt a) (a_hist a) (a_min a) (Some v).

Definition assign {X} (r : res X) (set : X -> attrs -> attrs) (s : res unit * attrs) : res unit * attrs :=
  match s with
  | (Ok _, a) => match r with Ok v => (Ok tt, set v a) | Err e => (Err e, a) end
  | _ => s
  end.
Definition calculate (img : image) : res unit * image :=
  let d := im_data img in
  let s := (Ok tt, im_attrs img) in
  let s := assign (f_mean d) set_mean s in
  let s := assign (f_median d) set_median s in
  let s := assign (f_var d) set_var s in
  let s := assign (f_std d) set_std s in
  let s := assign (f_skew d) set_skew s in
  let s := assign (f_kurt d) set_kurt s in
  let s := if integer d then assign (f_hist d) (fun _ a => a) s else assign (f_hist d) set_hist s in
  let s := assign (f_min d) set_min s in
  let s := assign (f_max d) set_max s in
  (fst s, Image d (snd s)).

(** 253-279: the dictionary, and the file with its rows if path and filename are given *)
Definition describe (img : image) : dict (option V) :=
  let a := im_attrs img in
  [("mean", a_mean a); ("median", a_median a); ("variance", a_var a); ("standarddev", a_std a);
   ("skewness", a_skew a); ("kurtosis", a_kurt a); ("minimum", a_min a); ("maximum", a_max a)]%string.
Definition describe_file (img : image) (path filename : option text) : option (text * list string * list (option V)) :=
  match path, filename with
  | Some ((_ :: _) as p), Some ((_ :: _) as f) => Some (join p (csv_name f), dkeys (describe img), dvals (describe img))
  | _, _ => None
  end.

(** What can happen to an image between two looks at it *)
Inductive op :=
| Derived (d : D)       (* img = img[...], img.copy(), img.astype(..), img.reshape(..) *)
| Changed (d : D)       (* img[...] = .., img += .., np.f(.., out=img) *)
| Arith (d : D)         (* img = img + .., np.f(img) *)
| Wrapped               (* img = ImageArray(img) *)
| Calculated.           (* img.calculate_statistics() *)
Definition step (img : image) (o : op) : image :=
  match o with
  | Derived d => derive img d
  | Changed d => ufunc_out img d
  | Arith d => ufunc_new d
  | Wrapped => new (im_data img)
  | Calculated => snd (calculate img)
  end.
Definition run (img : image) (ops : list op) : image := fold_left step ops img.
End stat.

(** ** visualize (281-338) *)

(** [not slices]: None or an empty tuple *)
Definition image_visualize {A} (img : arr A) (slices : option (list pyval)) : res (list (panel A unit)) :=
  let s := shp img in
  if (length s =? 3) && negb (last s 0 =? 3) then
    match slices with
    | None | Some [] => Err ValueError
    | Some l => visualize_3d img l
    end
  else if (length s =? 2) || ((length s =? 3) && (last s 0 =? 3)) then visualize_2d img
  else Err ValueError.
