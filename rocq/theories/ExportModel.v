(** Model of src/viqa/utils/export.py and of the report methods of src/viqa/multiple.py. No proofs
    here. Warnings and the printing of values on the console are left out; opening a file succeeds. *)
From Coq Require Import Reals.
From Verif Require Import Base NdArray LoadModel NormModel PairModel MetricModel SliceModel BatchModel.

(** ** Text *)

(** str.lower (ASCII) *)
Definition lower_chr (c : ascii) : ascii :=
  let n := nat_of_ascii c in if (65 <=? n) && (n <=? 90) then ascii_of_nat (n + 32) else c.
Definition lower (s : text) : text := map lower_chr s.

(** str.endswith *)
Definition ends_with (s suf : text) : bool :=
  (length suf <=? length s) && text_eqb (skipn (length s - length suf) s) suf.

(** ** export_results, lines 53-103 *)

(** Lines 88-89 *)
Definition csv_name (file_name : text) : text :=
  if ends_with (lower file_name) (lit ".csv") then file_name else file_name ++ lit ".csv".

(** results_dict[metric._name] = ...; the name of an SNR object is None. *)
Fixpoint rset (d : list (option string * score)) (k : option string) (v : score)
    : list (option string * score) :=
  match d with
  | [] => [(k, v)]
  | (k', v') :: d' =>
      if (match k', k with
          | Some a, Some b => String.eqb a b | None, None => true | _, _ => false end)
      then (k', v) :: d' else (k', v') :: rset d' k v
  end.

(** Lines 93-101: the objects live in a store (a list may hold an object twice). Result: the rows
    below the header, the dictionary and the objects afterwards. score_val is a number or a text;
    the tuples that SNR.score stores are not modelled. *)
Definition objects := nat -> metric.
Definition set_obj (h : objects) (i : nat) (m : metric) : objects := fun j => if j =? i then m else h j.

Fixpoint export_loop (ids : list nat) (d : list (option string * score)) (h : objects)
    : list (option string * score) * list (option string * score) * objects :=
  match ids with
  | [] => ([], d, h)
  | i :: ids' =>
      let m := h i in
      match m_score m with
      | SNone =>
          let m' := set_score m (SStr "n/a") in
          export_loop ids' (rset d (m_name m) (SStr "n/a")) (set_obj h i m')
      | v =>
          let '(rows, d', h') := export_loop ids' (rset d (m_name m) v) h in
          ((m_name m, v) :: rows, d', h')
      end
  end.

Record exported := Exported {
  e_path : text;                                    (* the file, overwritten *)
  e_header : string * string;
  e_rows : list (option string * score);
  e_dict : option (list (option string * score)) }. (* returned *)

Definition export_results (ids : list nat) (output_path file_name : text) (return_dict : bool)
    (h : objects) : exported * objects :=
  let '(rows, d, h') := export_loop ids [] h in
  (Exported (join output_path (csv_name file_name)) ("Metric", "Value")%string rows
            (if return_dict then Some d else None), h').

(** ** export_metadata, lines 106-149 *)

Definition class_name (c : mclass) : text :=
  lit match c with
      | CRMSE => "RMSE" | CPSNR => "PSNR" | CSSIM => "SSIM" | CUQI => "UQI" | CMSSSIM => "MSSSIM"
      | CFSIM => "FSIM" | CVIFp => "VIFp" | CVSI => "VSI" | CMAD => "MAD" | CGSM => "GSM"
      | CCNR => "CNR" | CSNR => "SNR" | CQMeasure => "QMeasure"
      end.

Section metadata.
Variable show_val : pyval -> text.        (* str(value) *)
Variable show_score : score -> text.
Variable stamp : text * text.             (* package version and time *)

(** Metric.__repr__, _metrics.py 102-103 *)
Definition metric_str (m : metric) : text :=
  class_name (m_class m) ++ lit "(result=" ++ show_score (m_score m) ++ lit ")".

(** Lines 139-149 for one metric: the text written and the outcome *)
Definition metadata_entry (m : metric) (params : option (dict pyval)) : text * res unit :=
  let name := hd [] (split_chr "(" (metric_str m)) in
  let nl := [newline] in
  let top := name ++ nl ++ map (fun _ => "-"%char) name ++ nl in
  match dget (m_params m) "data_range" with
  | None => (top, Err KeyError)
  | Some r =>
      let top := top ++ lit "data_range: " ++ show_val r ++ nl in
      match params with
      | None => (top, Err IndexError)
      | Some ps =>
          (top ++ flat_map (fun kv => lit (fst kv) ++ lit ": " ++ show_val (snd kv) ++ nl) ps ++ nl, Ok tt)
      end
  end.

Fixpoint metadata_loop (ms : list metric) (params : list (dict pyval)) (n : nat) : text * res unit :=
  match ms with
  | [] => ([], Ok tt)
  | m :: ms' =>
      match metadata_entry m (nth_error params n) with
      | (t, Ok _) => let (t', e) := metadata_loop ms' params (S n) in (t ++ t', e)
      | p => p
      end
  end.

Definition metadata_head : text :=
  lit "vIQA_version: " ++ fst stamp ++ [newline] ++ lit "Time: " ++ snd stamp ++ [newline; newline]
  ++ lit "custom metric parameters: " ++ [newline] ++ lit "========================= " ++ [newline].

(** The path and the content of the file, None if it is not opened. *)
Definition export_metadata (ms : list metric) (params : list (dict pyval)) (file_path file_name : text)
    : option (text * text) * res unit :=
  if negb (text_eqb (snd (splitext file_name)) (lit ".txt")) then (None, Err ValueError)
  else let (t, e) := metadata_loop ms params 0 in
       (Some (join file_path file_name, metadata_head ++ t), e).
End metadata.

(** ** export_image, lines 152-318 *)

(** The same array operation on the pixels of any type. *)
Definition on_out (f : forall A, arr A -> res (arr A)) (o : norm_out) : res norm_out :=
  match o with
  | NImg (Img d (PI a)) => let* b := f Z a in Ok (NImg (Img d (PI b)))
  | NImg (Img d (PF a)) => let* b := f R a in Ok (NImg (Img d (PF b)))
  | NNan d s => let* b := f unit (tabulate s (fun _ => tt)) in Ok (NNan d (shp b))
  end.

(** np.rot90(m, -1): transpose, then flip along the second axis *)
Definition rot90_back {A} (a : arr A) : res (arr A) :=
  if length (shp a) <? 2 then Err ValueError else let* t := swap_axes a 0 1 in flip_ax t 1.

(** Lines 229-261. The sets compare values: [{x, y, z} - {None}]. *)
Definition given (x y z : option Z) : list Z :=
  nodup Z.eq_dec (flat_map (fun o => match o with Some v => [v] | None => [] end) [x; y; z]).

Definition axis_choice (x y z : option Z) : res (nat * Z) :=
  match given x y z with
  | [] => Err ValueError
  | [_] => match x, y, z with
           | Some v, _, _ => Ok (0, v)
           | None, Some v, _ => Ok (1, v)
           | None, None, Some v => Ok (2, v)
           | None, None, None => Err ValueError
           end
  | _ => Err ValueError
  end.

Definition plot_2d {A} (a : arr A) : res (arr A) := flip_ax a 1.
Definition plot_slice (ax : nat) (v : Z) {A} (a : arr A) : res (arr A) :=
  let* s := take_axis ax v a in
  if ax =? 2 then let* f := flip_ax s 0 in rot90_back f
  else let* f := flip_ax s 1 in rot90 f 0 1.

Definition plotted (x y z : option Z) (r m : norm_out) : res (norm_out * norm_out) :=
  let both f := let* r' := on_out f r in let* m' := on_out f m in Ok (r', m') in
  if (length (o_shape r) =? 2) || is_colour (o_shape r) then both (@plot_2d)
  else if length (o_shape r) =? 3 then
    let* (ax, v) := axis_choice x y z in both (@plot_slice ax v)
  else Err ValueError.

(** Lines 263-303: the labels. [f"{result:.2f}"] fails for text and None. *)
Record label := Label { l_x : R; l_y : R; l_name : string; l_value : ext }.

Definition no_ref_name (n : string) : bool :=
  let t := list_ascii_of_string n in ends_with t (lit "_r") || ends_with t (lit "_m").

Definition label_value (v : score) : res ext :=
  match v with SNum x => Ok x | SStr _ => Err ValueError | SNone => Err TypeError end.

Definition columns (fr nr : nat) : Z :=
  ((Z.of_nat fr - 1) / 4 + 1 + (if (nr =? 0)%nat then 0 else 1))%Z.

Definition slots (cols : Z) : list (nat * nat) :=
  flat_map (fun i => map (fun j => (i, j)) (seq 0 4)) (seq 0 (Z.to_nat cols)).
Definition column_x (cols : Z) (i : nat) : R := (1 / (IZR cols + 1) * (INR i + 1))%R.
Definition line_y (j : nat) : R := (9 / 100 - 3 / 100 * INR j)%R.

Fixpoint fr_labels (cols : Z) (entries : list (string * score)) (sl : list (nat * nat)) (counter : nat)
    : res (list label) :=
  match sl with
  | [] => Ok []
  | (i, j) :: sl' =>
      match nth_error entries counter with
      | Some (n, v) =>
          let* x := label_value v in
          let* l := fr_labels cols entries sl' (S counter) in
          Ok (Label (column_x cols i) (line_y j) n x :: l)
      | None => fr_labels cols entries sl' counter
      end
  end.

Definition nr_labels (cols : Z) (entries : list (string * score)) : res (list label) :=
  mapM (fun p => let '(j, (n, v)) := p in
          let* x := label_value v in
          Ok (Label (1 / (IZR cols + 1) * IZR cols)%R (line_y j) n x))
       (combine (seq 0 (length entries)) entries).

Definition labels (results : list (option string * score)) : res (list label) :=
  let* named := mapM (fun kv => let* n := from_opt AttributeError (fst kv) in Ok (n, snd kv)) results in
  let fr := filter (fun kv => negb (no_ref_name (fst kv))) named in
  let nr := filter (fun kv => no_ref_name (fst kv)) named in
  let cols := columns (length fr) (length nr) in
  let* l1 := fr_labels cols fr (slots cols) 0 in
  let* l2 := nr_labels cols nr in
  Ok (l1 ++ l2).

Record figure := Figure {
  f_ref : norm_out; f_mod : norm_out; f_labels : list label; f_saved : option text; f_shown : bool }.

(** axs.invert_yaxis() after imshow: array row 0 is drawn at the bottom, column 0 at the left. The
    array index shown in row [p] from the top and column [q] of a picture of height [h]. *)
Definition screen (h p q : nat) : list nat := [h - 1 - p; q].

Section image.
Variable disk : text -> res image.
Variable ident : identity.
Variable ub : R -> Z.
Variable resize : norm_out -> list nat -> dtype -> Z -> res norm_out.

Definition kw0 : kwargs := Kw None false false.

(** Lines 213-226 *)
Definition picture_pair (img_r img_m : input) (roi : option roi_t) (order : Z)
    : res (norm_out * norm_out) :=
  let* r := load_in disk ident ub kw0 img_r in
  let* m := load_in disk ident ub kw0 img_m in
  if negb (length (o_shape r) =? length (o_shape m)) then Err ValueError
  else prepare_pair disk ident ub resize kw0 order roi r m.

Definition export_image (results : list (option string * score)) (img_r img_m : input)
    (x y z : option Z) (file_path : option text) (file_name : text) (show_image : bool)
    (roi : option roi_t) (order : Z) : res figure :=
  let* (r, m) := picture_pair img_r img_m roi order in
  let* (r', m') := plotted x y z r m in
  let* ls := labels results in
  if negb (text_eqb (snd (splitext file_name)) (lit ".png")) then Err ValueError
  else
    match file_path with
    | Some (c :: p) => Ok (Figure r' m' ls (Some (join (c :: p) file_name)) show_image)
    | _ => Ok (Figure r' m' ls None true)
    end.

(** ** The report methods, multiple.py 297-377 and 508-608 *)

Inductive artefact :=
| ACsv (path : text) (rows : list (list (@cell ext)))
| AMeta (path : text) (content : text)
| AFig (f : figure).

(** The steps done one after the other; what was written before a failure stays. *)
Definition then_ (a b : list artefact * res unit) : list artefact * res unit :=
  match snd a with Ok _ => (fst a ++ fst b, snd b) | Err _ => a end.
Definition when (c : bool) (a : list artefact * res unit) : list artefact * res unit :=
  if c then a else ([], Ok tt).

Definition file_of (project : option text) (suffix : text) : text :=
  match project with None => suffix | Some p => p ++ "_"%char :: suffix end.

Definition csv_step (file_path name : text) (o : option (list (list (@cell ext))) * res unit) :=
  (match fst o with Some rows => [ACsv (join file_path name) rows] | None => [] end, snd o).
Definition meta_step (o : option (text * text) * res unit) :=
  (match fst o with Some (p, t) => [AMeta p t] | None => [] end, snd o).
Definition fig_step (o : res figure) : list artefact * res unit :=
  match o with Ok f => ([AFig f], Ok tt) | Err e => ([], Err e) end.

Definition scores (d : dict ext) : list (option string * score) :=
  map (fun kv => (Some (fst kv), SNum (snd kv))) d.

Variable show_val : pyval -> text.
Variable show_score : score -> text.
Variable stamp : text * text.

(** [global] is None before calculate() was called (attribute global_roi missing). *)
Fixpoint figures_loop (dir file_path : text) (project : option text) (x y z : option Z)
    (rois : option (list (option roi_t))) (global : option roi_t) (results : dict (dict ext))
    (pairs : list pair) (n : nat) : list artefact * res unit :=
  match pairs with
  | [] => ([], Ok tt)
  | pr :: pairs' =>
      then_ (fig_step
               (let* rn := from_opt TypeError (p_ref pr) in
                let* mn := from_opt TypeError (p_mod pr) in
                let* roi := pair_roi rois global n in
                let* d := from_opt KeyError (dget results (show n)) in
                export_image (scores d) (InPath (join dir rn)) (InPath (join dir mn)) x y z
                  (Some file_path)
                  (file_of project (lit "image_comparison_" ++ lit (show n) ++ lit ".png"))
                  false roi 1))
            (figures_loop dir file_path project x y z rois global results pairs' (S n))
  end.

Definition batch_report (csv metadata image : bool) (file_path : text) (project : option text)
    (x y z : option Z) (dir : text) (rois : option (list (option roi_t)))
    (global : option (option roi_t)) (ms : list metric) (params : list (dict pyval))
    (pairs : list pair) (results : dict (dict ext)) : list artefact * res unit :=
  let csv_file := file_of project (lit "results.csv") in
  then_ (when csv (csv_step file_path csv_file (batch_export csv_file pairs results)))
  (then_ (when metadata
            (meta_step (export_metadata show_val show_score stamp ms params file_path
                          (file_of project (lit "metadata.txt")))))
         (when image
            match global with
            | None => ([], Err AttributeError)
            | Some g => figures_loop dir file_path project x y z rois g results pairs 0
            end)).

(** MultipleMetrics.report; [export] is the keyword export_image. *)
Definition multi_report (csv metadata image export : bool) (file_path : text) (project : option text)
    (img_r img_m : option input) (x y z : option Z) (show_image : bool) (roi : option roi_t)
    (order : Z) (ms : list metric) (params : list (dict pyval)) (results : dict ext)
    : list artefact * res unit :=
  let csv_file := file_of project (lit "results.csv") in
  then_ (when image
           match img_r, img_m with
           | Some r, Some m =>
               fig_step (export_image (scores results) r m x y z
                           (if export then Some file_path else None)
                           (file_of project (lit "image_comparison.png")) show_image roi order)
           | _, _ => ([], Err ValueError)
           end)
  (then_ (when csv (csv_step file_path csv_file (multi_export csv_file results)))
         (when metadata
            (meta_step (export_metadata show_val show_score stamp ms params file_path
                          (file_of project (lit "metadata.txt")))))).
End image.
