(** Model of the no-reference metrics: contrast_to_noise_ratio (nr_metrics/cnr.py 678-842),
    signal_to_noise_ratio (nr_metrics/snr.py 862-1124), the score methods of CNR (cnr.py 106-142),
    SNR (snr.py 110-148) and QMeasure (qmeasure.py 97-154) with the C++ wrapper
    (qmeasure_utils/qmeasurecalcmodule.cpp 47-85). No proofs here.

    Images are loaded images with exact real pixels. The second load_data call inside the two
    functions (cnr.py 757, snr.py 986) is the identity without further keywords. *)
From Coq Require Import Reals.
From Verif Require Import Base NdArray LoadModel NormModel PairModel RealSums MetricModel MadModel RegionModel.

(** ** Regions and their statistics *)

Inductive region := Whole (a : arr R) | Masked (a : arr (option R)).

Definition somes {A} (l : list (option A)) : list A :=
  flat_map (fun o => match o with Some x => [x] | None => [] end) l.
Definition values (r : region) : list R := match r with Whole a => dat a | Masked a => somes (dat a) end.

Section nr.
(** [np.float64(np.ma.masked)]: what a computation with an empty masked region ends in; unspecified. *)
Variable mk : ext.
Variable nobg : arr bool -> list nat -> nat.

Definition on_empty (r : region) : ext := match r with Whole _ => NaN | Masked _ => mk end.

Definition is_zero (x : R) : bool := if Req_EM_T x 0 then true else false.

(** cnr.py 837-840 *)
Definition cnr_value (signal background : region) : ext :=
  match values background with
  | [] => on_empty background
  | bg =>
      if is_zero (std0 bg) then Fin 0
      else match values signal with
           | [] => on_empty signal
           | sg => Fin ((lmean sg - lmean bg) / std0 bg)
           end
  end.

(** snr.py 1096-1099 *)
Definition snr_value (signal : region) : ext :=
  match values signal with
  | [] => on_empty signal
  | sg => if is_zero (std0 sg) then Fin 0 else Fin (lmean sg / std0 sg)
  end.

(** np.ma.array(img, mask=~region) with a binary region of the shape of the image (any other
    number of elements is a MaskError; a single element cannot be a binary image). *)
Definition masked_by (img : arr R) (m : arr bool) : res region :=
  if size (shp m) =? size (shp img) then Ok (Masked (masked img (at_ m))) else Err MaskError.

(** ** contrast_to_noise_ratio *)

(** cnr.py 822-834: signal or background region *)
Definition make_region (kind : rkind) (img : arr R) (center : list Z) (radius : Z) : res region :=
  match kind with
  | KFull | KOriginal => Ok (Whole img)
  | KCubic => let* m := to_cubic img center radius in Ok (Masked m)
  | KSpherical => let* m := to_spherical img center radius in Ok (Masked m)
  | KUnknown => Err ValueError
  end.

(** cnr.py 759-794: the regions found automatically; [None] if they are still to be made *)
Definition auto_region (kind : rkind) (img : arr R) (m : arr bool) : res (option region) :=
  match kind with
  | KFull | KUnknown => let* r := masked_by img m in Ok (Some r)
  | KOriginal => Ok (Some (Whole img))
  | KCubic | KSpherical => Ok None
  end.

Definition cnr (img : arr R) (background_center signal_center : list cval) (radius : rval)
    (kind : rkind) (auto_center : bool) (iterations : Z) : res ext :=
  let* (sc, bc, rad, sreg, breg) :=
    if auto_center then
      let* fg := get_binary img 90 100 in
      let* bg := get_binary img 0 90 in
      let* (sc, sr, sm) := find_largest_region nobg fg iterations kind in
      let* (bc, br, bm) := find_largest_region nobg bg iterations kind in
      let* sreg := auto_region kind img sm in
      let* breg := auto_region kind img bm in
      Ok (map (fun n => CInt (Z.of_nat n)) sc, map (fun n => CInt (Z.of_nat n)) bc,
          RInt (Z.of_nat (Nat.min sr br)), sreg, breg)
    else Ok (signal_center, background_center, radius, None, None) in
  let* sz := check_border sc rad in                                           (* 798-804 *)
  let* bz := check_border bc rad in                                           (* 806-812 *)
  let* r := check_radius rad in                                               (* 814 *)
  if negb (length (shp img) =? length sz) || negb (length (shp img) =? length bz)
  then Err ValueError                                                         (* 818 *)
  else
    let* signal := match sreg with Some x => Ok x | None => make_region kind img sz r end in
    let* background := match breg with Some x => Ok x | None => make_region kind img bz r end in
    Ok (cnr_value signal background).

(** ** signal_to_noise_ratio *)

(** Grey images: the value and the keys of the parameter dictionary returned with it (1101-1124);
    colour images: three values. *)
Inductive snr_out := SGrey (v : ext) (keys : list string) | SColour (y u v : ext).

Definition snr_keys (kind : rkind) (auto_center : bool) : list string :=
  match kind with
  | KFull => if auto_center then ["iterations"; "lower_threshold"; "upper_threshold"]%string else []
  | KOriginal => []
  | _ => ["signal_center"; "radius"]%string
  end ++ ["region_type"; "signal"]%string.

(** signal[..., c] *)
Definition channel_region (r : region) (c : nat) : list R :=
  match r with
  | Whole a => flat_map (fun idx => if last idx 0 =? c then match get a idx with Some x => [x] | None => [] end else [])
                 (indices (shp a))
  | Masked a => flat_map (fun idx => if last idx 0 =? c then match get a idx with Some (Some x) => [x] | _ => [] end else [])
                 (indices (shp a))
  end.

(** One entry of snr_val; a fully masked channel has [sdev[i] != 0] masked, hence falsy. *)
Definition channel_snr (signal : region) (means : list R) (sd : list R) : ext :=
  match sd with
  | [] => match signal with Whole _ => NaN | Masked _ => Fin 0 end
  | _ => if is_zero (std0 sd) then Fin 0 else Fin (lmean means / std0 sd)
  end.

(** snr.py 1083-1124 for an image that is not (H, W, 3); also the inner call 1066 *)
Definition snr_grey (img : arr R) (sz : list Z) (r : Z) (kind : rkind) (auto_center : bool)
    (sreg : option region) : res snr_out :=
  let* signal := match sreg with Some x => Ok x | None => make_region kind img sz r end in
  Ok (SGrey (snr_value signal) (snr_keys kind auto_center)).

(** [img.shape[-1] == 3] asks for one coordinate less, also for a 2D image with three columns. *)
Definition snr_dims (img : arr R) (sz : list Z) : res unit :=
  match shp img with
  | [] => Err IndexError
  | s => raise_if (negb (length s =? length sz + (if last s 0 =? 3 then 1 else 0))) ValueError
  end.

Definition snr (img : arr R) (signal_center : list cval) (radius : rval) (kind : rkind)
    (auto_center : bool) (iterations : Z) (lower upper : R) (yuv : bool) : res snr_out :=
  let* (sc, rad, sreg) :=
    if auto_center then
      let* fg := get_binary img lower upper in
      let* (sc, sr, sm) := find_largest_region nobg fg iterations kind in
      let* sreg := auto_region kind img sm in
      Ok (map (fun n => CInt (Z.of_nat n)) sc, RInt (Z.of_nat sr), sreg)
    else Ok (signal_center, radius, None) in
  let* sz := check_border sc rad in
  let* r := check_radius rad in
  let* _ := snr_dims img sz in
  if is_colour (shp img) then
    let* img' := if yuv then rgb_to_yuv img else Ok img in
    let* signal := match sreg with Some x => Ok x | None => make_region kind img' sz r end in
    if yuv then
      Ok (SColour (channel_snr signal (channel_region signal 0) (channel_region signal 0))
                  (channel_snr signal (channel_region signal 0) (channel_region signal 1))
                  (channel_snr signal (channel_region signal 0) (channel_region signal 2)))
    else
      let* g := to_grayscale img in
      let* _ := snr_dims g sz in
      let* _ := snr_grey g sz r kind false None in
      Err TypeError                                   (* np.float64 of (value, dictionary) *)
  else snr_grey img sz r kind auto_center sreg.
End nr.

(** ** CNR.score and SNR.score: the stored parameters *)

Section score.
Context {V I X : Type}.
(** load_images, depending on the stored parameters; contrast_to_noise_ratio or signal_to_noise_ratio
    of the loaded image with the keywords. *)
Variable load : dict V -> res I.
Variable compute : I -> dict V -> res X.

Definition has_all (keys : list string) (d : dict V) : bool :=
  forallb (fun k => match dget d k with Some _ => true | None => false end) keys.
(** [kwargs[k] = self.parameters[k]] for each key *)
Definition take_stored (keys : list string) (params kwargs : dict V) : dict V :=
  fold_left (fun kw k => match dget params k with Some v => dset kw k v | None => kw end) keys kwargs.

(** Result and the parameters afterwards *)
Definition nr_score (keys : list string) (params kwargs : dict V) : res X * dict V :=
  match load params with
  | Err e => (Err e, params)
  | Ok img =>
      if has_all keys kwargs then (compute img kwargs, dupdate params kwargs)
      else if has_all keys params then
        let kw := take_stored keys params kwargs in (compute img kw, dupdate params kw)
      else (Err ValueError, params)
  end.
End score.
Definition cnr_required : list string := ["signal_center"; "background_center"; "radius"]%string.
Definition snr_required : list string := ["signal_center"; "radius"]%string.

(** ** Q-Measure *)

(** The image in memory: element type, shape, and the elements in memory order ([mem_order] says
    whether the last or the first axis runs fastest; numpy keeps the order in casts). *)
Inductive mem_order := LastFastest | FirstFastest.
Definition in_memory {A} (o : mem_order) (a : arr A) : res (list A) :=
  match o with
  | LastFastest => Ok (dat a)
  | FirstFastest => let* t := reindex a (rev (shp a)) (@rev nat) in Ok (dat t)
  end.

(** 32-bit words of the buffer: a float32, or one half of a float64 *)
Inductive word := W32 (x : R) | WHalf (high : bool) (x : R).
(** _to_float(img, np.float32), misc.py 53-59: float32 and float64 images are left as they are. *)
Definition qm_words (d : dtype) (l : list R) : list word :=
  match d with
  | Float 64 => flat_map (fun x => [WHalf false x; WHalf true x]) l
  | _ => map W32 l
  end.

(** QMeasure.score and the C++ wrapper: the kernel (external code) gets the first
    dims[0]*dims[1]*dims[2] words of the buffer as float numbers. *)
Definition qmeasure {X} (kernel : list word -> list nat -> Z -> Z -> Z -> Z -> X)
    (o : mem_order) (d : dtype) (img : arr R) (hist_bins num_peaks : Z) : res X :=
  if length (shp img) <? 3 then Err ValueError
  else
    let* mn := rmin (dat img) in
    let* mx := rmax (dat img) in
    let* l := in_memory o img in
    let dims := firstn 3 (shp img) in
    Ok (kernel (firstn (size dims) (qm_words d l)) dims (Rtrunc mn) (Rtrunc mx) hist_bins num_peaks).
