(** Model of src/viqa/multiple.py (BatchMetrics, MultipleMetrics, _read_pairs, _calc) and
    _resize_image (utils/loading.py 1014-1021). No proofs here. Progress bars and warnings are left
    out. *)
From Coq Require Import Reals DecimalString DecimalNat.
From Verif Require Import Base NdArray LoadModel NormModel PairModel MetricModel NrModel.

(** ** Numbers as dictionary keys: str(n) and int(s) *)

Definition show (n : nat) : string := NilEmpty.string_of_uint (Nat.to_uint n).
Definition read_nat (s : string) : res nat :=
  from_opt ValueError (option_map Nat.of_uint (NilEmpty.uint_of_string s)).

(** ** os.path.join(a, b), posix *)
Definition join (a b : text) : text :=
  match b with
  | "/"%char :: _ => b
  | _ => match a with
         | [] => b
         | _ => if Ascii.eqb (last a "/"%char) "/"%char then a ++ b else a ++ "/"%char :: b
         end
  end.

(** ** _read_pairs, 653-666

    The csv module (dialect detection, splitting into cells) is external: the table is given as its
    field names and its rows of cells. A row is a dictionary of the field names; a missing cell is
    None, empty rows are skipped. *)
Record pair := Pair { p_ref : option text; p_mod : option text }.

Fixpoint zip_row (fields : list string) (row : list text) : list (string * option text) :=
  match fields, row with
  | [], _ => []
  | f :: fields', [] => (f, None) :: zip_row fields' []
  | f :: fields', c :: row' => (f, Some c) :: zip_row fields' row'
  end.
Definition dict_row (fields : list string) (row : list text) : dict (option text) :=
  dupdate [] (zip_row fields row).

Definition cell_of (d : dict (option text)) (k : string) : option text :=
  match dget d k with Some c => c | None => None end.

Definition has_field (fields : list string) (k : string) : bool := existsb (fun f => String.eqb f k) fields.

Definition read_pairs (fields : list string) (rows : list (list text)) : res (list pair) :=
  if negb (has_field fields "reference_image") || negb (has_field fields "modified_image")
  then Err ValueError
  else Ok (map (fun row => let d := dict_row fields row in
                 Pair (cell_of d "reference_image") (cell_of d "modified_image"))
               (filter (fun row => match row with [] => false | _ => true end) rows)).

(** ** Metrics

    The objects live in a store (a metric may occur twice in the list of metrics, and scoring may
    change the object, e.g. the stored parameters of CNR). [X] is what score() returns, [F] a python
    float, [P] a dictionary of keywords. *)
Inductive mkind := FullRef | NoRef | OtherKind.

Section batch.
Context {M P X F : Type}.
Variable kind_of : M -> mkind.                                  (* metric.type *)
Variable name_of : M -> option string.                          (* metric._name *)
Variable score_fr : M -> P -> norm_out -> norm_out -> res X * M.   (* result and the object afterwards *)
Variable score_nr : M -> P -> norm_out -> res X * M.
Variable to_f : X -> res F.                                     (* float(...) *)

Variable disk : text -> res image.
Variable ident : identity.
Variable ub : R -> Z.
(** skimage.transform.resize(img, shape, preserve_range=True, order) cast to the type of the
    reference *)
Variable resize : norm_out -> list nat -> dtype -> Z -> res norm_out.

Definition store := nat -> M.
Definition store_set (h : store) (i : nat) (m : M) : store := fun j => if j =? i then m else h j.

(** _MultipleInterface.__init__, 66-78: an entry that is not a metric (not a dictionary) is None. *)
Definition multi_init (metrics : list (option nat)) (params : list (option P)) : res (list (nat * P)) :=
  if negb (length metrics =? length params) then Err ValueError
  else
    let* ms := mapM (from_opt ValueError) metrics in
    let* ps := mapM (from_opt ValueError) params in
    Ok (combine ms ps).

(** BatchMetrics.__init__, 201-213; [rois] None or a list with one entry per pair *)
Definition roi_t := list (Z * Z).
Definition batch_init (metrics : list (option nat)) (params : list (option P)) (pairs : res (list pair))
    (rois : option (list (option roi_t))) : res (list (nat * P) * list pair) :=
  let* ms := multi_init metrics params in
  let* ps := pairs in
  match rois with
  | Some (r0 :: r) => if negb (length ps =? length (r0 :: r)) then Err ValueError else Ok (ms, ps)
  | _ => Ok (ms, ps)
  end.

(** Keywords of calculate() that reach load_data; [k_chromatic] says whether chromatic= is among
    them, which load_data does not know (TypeError). *)
Record kwargs := Kw { k_range : option Z; k_norm : bool; k_chromatic : bool }.

Definition one (l : loaded) : res norm_out := match l with LOne o => Ok o | LMany _ => Err AttributeError end.

Definition load_in (kw : kwargs) (i : input) : res norm_out :=
  if k_chromatic kw then Err TypeError
  else let* l := load_data disk ident ub i (k_range kw) (k_norm kw) false [] in one l.

(** load_data of an image that is already loaded. Pixels that are not numbers stay so. *)
Definition reload (kw : kwargs) (o : norm_out) : res norm_out :=
  match o with
  | NImg im => load_in kw (InArray im)
  | NNan d s =>
      if k_chromatic kw then Err TypeError
      else
        match k_range kw with
        | None => if k_norm kw then Err ValueError else let* _ := check_dims s in Ok o
        | Some hi =>
            let* _ := check_dims s in
            if k_norm kw && negb (hi =? 0)%Z then
              if already_normalised ident d 0 hi then Ok o else finish_nan 0 hi s
            else Ok o
        end
  end.

(** _resize_image, loading.py 1014-1021 *)
Definition resize_image (r m : norm_out) (order : Z) : res norm_out :=
  if shape_eqb (o_shape r) (o_shape m) then Ok m else resize m (o_shape r) (o_type r) order.

Definition crop_opt (roi : option roi_t) (o : norm_out) : res norm_out :=
  match roi with None => Ok o | Some r => crop_roi o r end.

(** _calc 676-686, after the two images are loaded *)
Definition prepare_pair (kw : kwargs) (order : Z) (roi : option roi_t) (r m : norm_out)
    : res (norm_out * norm_out) :=
  let* m1 := resize_image r m order in
  let* r2 := crop_opt roi r in
  let* m2 := crop_opt roi m1 in
  let* r3 := reload kw r2 in
  let* m3 := reload kw m2 in
  check_loaded (LOne r3) (LOne m3) false.

(** _calc 692-706, one of the two images of a no-reference metric; [prev] are the results of the
    previous pair if the image is the same. [metric_results[name] = prev[name := ...]] evaluates the
    right-hand side first. *)
Definition nr_side (suffix : string) (prev : option (dict F)) (id : nat) (p : P) (img : norm_out)
    (acc : dict F) (h : store) : res (dict F) * store :=
  match prev with
  | Some d =>
      (let* n := from_opt TypeError (name_of (h id)) in
       let* v := from_opt KeyError (dget d (n ++ suffix)) in
       Ok (dset acc (n ++ suffix) v), h)
  | None =>
      let (r, m') := score_nr (h id) p img in
      let h' := store_set h id m' in
      (let* x := r in
       let* v := to_f x in
       let* n := from_opt TypeError (name_of m') in
       Ok (dset acc (n ++ suffix) v), h')
  end%string.

(** _calc 688-711 *)
Definition metric_step (prev_r prev_m : option (dict F)) (r m : norm_out) (id : nat) (p : P)
    (acc : dict F) (h : store) : res (dict F) * store :=
  match kind_of (h id) with
  | NoRef =>
      match nr_side "_r" prev_r id p r acc h with
      | (Ok acc', h') => nr_side "_m" prev_m id p m acc' h'
      | e => e
      end
  | FullRef =>
      let (x, m') := score_fr (h id) p r m in
      let h' := store_set h id m' in
      (let* x := x in
       let* v := to_f x in
       (* a missing name is the key None; no metric of the package that compares two images lacks one *)
       let* n := from_opt TypeError (name_of m') in
       Ok (dset acc n v), h')
  | OtherKind => (Ok acc, h)
  end.

Fixpoint run_metrics (prev_r prev_m : option (dict F)) (r m : norm_out) (ms : list (nat * P))
    (acc : dict F) (h : store) : res (dict F) * store :=
  match ms with
  | [] => (Ok acc, h)
  | (id, p) :: ms' =>
      match metric_step prev_r prev_m r m id p acc h with
      | (Ok acc', h') => run_metrics prev_r prev_m r m ms' acc' h'
      | e => e
      end
  end.

Definition calc (kw : kwargs) (order : Z) (roi : option roi_t) (prev_r prev_m : option (dict F))
    (r m : res norm_out) (ms : list (nat * P)) (h : store) : res (dict F) * store :=
  match (let* r := r in let* m := m in prepare_pair kw order roi r m) with
  | Err e => (Err e, h)
  | Ok (r, m) => run_metrics prev_r prev_m r m ms [] h
  end.

(** ** MultipleMetrics.calculate, 485-517 *)
Definition multi_calculate (kw : kwargs) (order : Z) (roi : option roi_t) (img_r img_m : input)
    (ms : list (nat * P)) (h : store) : res (dict F) * store :=
  calc kw order roi None None (load_in kw img_r) (load_in kw img_m) ms h.

(** ** BatchMetrics.calculate, 215-292 *)

(** The variables kept from one pair to the next (set together by the first pair): paths, loaded
    images and results. *)
Record cache := Cache {
  c_rpath : text; c_ref : norm_out; c_mpath : text; c_mod : norm_out; c_last : dict F }.

Definition same (c : option cache) (f : cache -> text) (path : text) : option cache :=
  match c with Some c => if text_eqb path (f c) then Some c else None | None => None end.

Definition pair_roi (rois : option (list (option roi_t))) (global : option roi_t) (n : nat)
    : res (option roi_t) :=
  match global, rois with
  | None, Some l => from_opt IndexError (nth_error l n)                      (* 275-276 *)
  | g, _ => Ok g
  end.

Definition batch_step (kw : kwargs) (order : Z) (dir : text) (rois : option (list (option roi_t)))
    (global : option roi_t) (ms : list (nat * P)) (n : nat) (pr : pair) (c : option cache) (h : store)
    : res cache * store :=
  match (let* rn := from_opt TypeError (p_ref pr) in
         let* mn := from_opt TypeError (p_mod pr) in Ok (join dir rn, join dir mn)) with
  | Err e => (Err e, h)
  | Ok (rp, mp) =>
      match same c c_rpath rp, same c c_mpath mp with
      | Some c, Some _ => (Ok c, h)                                          (* 258-261 *)
      | cr, cm =>
          match (let* r := match cr with Some c => Ok (c_ref c) | None => load_in kw (InPath rp) end in
                 let* m := match cm with Some c => Ok (c_mod c) | None => load_in kw (InPath mp) end in
                 let* roi := pair_roi rois global n in Ok (r, m, roi)) with
          | Err e => (Err e, h)
          | Ok (r, m, roi) =>
              match calc kw order roi (option_map c_last cr) (option_map c_last cm)
                      (reload kw r) (reload kw m) ms h with
              | (Err e, h') => (Err e, h')
              | (Ok d, h') => (Ok (Cache rp r mp m d), h')
              end
          end
      end
  end.

(** Outcome, the results dictionary (kept when a pair fails) and the metric objects *)
Fixpoint batch_loop (kw : kwargs) (order : Z) (dir : text) (rois : option (list (option roi_t)))
    (global : option roi_t) (ms : list (nat * P)) (n : nat) (pairs : list pair) (c : option cache)
    (results : dict (dict F)) (h : store) : res unit * dict (dict F) * store :=
  match pairs with
  | [] => (Ok tt, results, h)
  | pr :: pairs' =>
      match batch_step kw order dir rois global ms n pr c h with
      | (Err e, h') => (Err e, results, h')
      | (Ok c', h') =>
          batch_loop kw order dir rois global ms (S n) pairs' (Some c')
            (dset results (show n) (c_last c')) h'
      end
  end.

Definition batch_calculate (kw : kwargs) (order : Z) (dir : text) (rois : option (list (option roi_t)))
    (global : option roi_t) (ms : list (nat * P)) (pairs : list pair) (results : dict (dict F)) (h : store)
    : res unit * dict (dict F) * store :=
  batch_loop kw order dir rois global ms 0 pairs None results h.

(** ** export_results, 382-416 and 627-650

    The written file as rows of cells; None if it was not opened. Opening empties it. *)
Inductive cell := CText (s : string) | CFile (t : option text) | CNum (x : F).

Fixpoint export_rows (pairs : list pair) (results : dict (dict F)) : list (list cell) * res unit :=
  match results with
  | [] => ([], Ok tt)
  | (k, d) :: results' =>
      match (let* n := read_nat k in from_opt IndexError (nth_error pairs n)) with
      | Err e => ([], Err e)
      | Ok pr =>
          let (rows, e) := export_rows pairs results' in
          ((CText k :: CFile (p_ref pr) :: CFile (p_mod pr) :: map CNum (dvals d)) :: rows, e)
      end
  end.

Definition batch_export (file_name : text) (pairs : list pair) (results : dict (dict F))
    : option (list (list cell)) * res unit :=
  if negb (text_eqb (snd (splitext file_name)) (lit ".csv")) then (None, Err ValueError)
  else
    match dget results (show 0) with
    | None => (Some [], Err KeyError)
    | Some d0 =>
        let header := map CText (["pair_num"; "reference_image"; "modified_image"]%string ++ dkeys d0) in
        let (rows, e) := export_rows pairs results in (Some (header :: rows), e)
    end.

Definition multi_export (file_name : text) (results : dict F) : option (list (list cell)) * res unit :=
  if negb (text_eqb (snd (splitext file_name)) (lit ".csv")) then (None, Err ValueError)
  else (Some [map CText (dkeys results); map CNum (dvals results)], Ok tt).
End batch.

(** ** The metrics of the package as such objects

    _metrics.py 107-110 and 145-148 (type), 128-134 and 160-166 (load_images), the score methods.
    Full-reference metrics only set score_val, which nothing reads here; CNR and SNR also store the
    keywords (NrModel.nr_score). A score method called with the wrong number of images is a TypeError. *)
Definition class_kind (c : mclass) : mkind := match c with CCNR | CSNR | CQMeasure => NoRef | _ => FullRef end.
Definition obj_kind (m : metric) : mkind := class_kind (m_class m).

(** What score() returns: a number, or a tuple, which float() does not accept. signal_to_noise_ratio
    returns (value, dictionary) or three numbers (snr.py 1064, 1124). *)
Inductive returned := RNum (x : ext) | RTuple (length : nat).
Definition to_float (r : returned) : res ext := match r with RNum x => Ok x | RTuple _ => Err TypeError end.
Definition snr_returned (o : snr_out) : returned :=
  match o with SGrey _ _ => RTuple 2 | SColour _ _ _ => RTuple 3 end.

Section package.
Context {I : Type}.
Notation X := returned.
(** load_data with the stored data_range, normalize and roi *)
Variable load : option pyval -> option pyval -> option pyval -> norm_out -> res I.
Variable fr_value : metric -> dict pyval -> norm_out -> norm_out -> res X.
Variable cnr_of : I -> dict pyval -> res ext.
Variable snr_of : I -> dict pyval -> res snr_out.
Variable qm_of : I -> dict pyval -> res ext.
Definition nr_value (c : mclass) (i : I) (kwargs : dict pyval) : res X :=
  match c with
  | CCNR => let* x := cnr_of i kwargs in Ok (RNum x)
  | CSNR => let* o := snr_of i kwargs in Ok (snr_returned o)
  | _ => let* x := qm_of i kwargs in Ok (RNum x)
  end.

Definition load_stored (img : norm_out) (ps : dict pyval) : res I :=
  load (dget ps "data_range") (dget ps "normalize") (dget ps "roi") img.

Definition obj_score_fr (m : metric) (kwargs : dict pyval) (r o : norm_out) : res X * metric :=
  match obj_kind m with FullRef => (fr_value m kwargs r o, m) | _ => (Err TypeError, m) end.

Definition obj_score_nr (m : metric) (kwargs : dict pyval) (img : norm_out) : res X * metric :=
  let storing keys :=
    let (x, ps) := nr_score (load_stored img) (nr_value (m_class m)) keys (m_params m) kwargs in
    (x, Metric (m_class m) ps (m_score m) (m_name m)) in
  match m_class m with
  | CCNR => storing cnr_required
  | CSNR => storing snr_required
  | CQMeasure => ((let* i := load_stored img (m_params m) in nr_value CQMeasure i kwargs), m)
  | _ => (Err TypeError, m)
  end.
End package.
