(** Model of a whole batch run as in the example of BatchMetrics (src/viqa/multiple.py lines 180-192): the pairs file
    is read (201-213, 653-666), the images are read and scored (215-292, 669-711) and results.csv is written
    (382-421), from the files of the machine to the files of the machine. No proofs here.

    The parts are those of BatchModel.v, CsvModel.v, FileModel.v and MetricModel.v. A path is looked up as it is
    written; directories exist. Text files hold ASCII characters. *)
From Coq Require Import Reals Ascii.
From Verif Require Import Base NdArray LoadModel NormModel PairModel MetricModel NrModel BatchModel ScriptModel CsvModel FileModel.

Definition machine_files := text -> option (list Z).

(** open(path, newline=""): no character is translated *)
Definition chars_of (bytes : list Z) : text := map (fun b => ascii_of_nat (Z.to_nat b)) bytes.
Definition bytes_of_chars (t : text) : list Z := map (fun c => Z.of_nat (nat_of_ascii c)) t.

(** _read_pairs opens [pairs_file] as it was given, whatever [file_dir] is (206-207, 654). *)
Definition read_pairs_at (dialects : text -> res dialect) (files : machine_files) (path : text) : res (list pair) :=
  let* bytes := open_file files path in read_pairs_file dialects (chars_of bytes).

Section Run.
Variable files : machine_files.
Variable other : reader -> text -> res image.
Variable special : Z -> R.
Variable ident : identity.
Variable ub : R -> Z.
Variable unspec : ext.
Variable resize : norm_out -> list nat -> dtype -> Z -> res norm_out.
Variable dialects : text -> res dialect.
(** All metrics but RMSE and PSNR *)
Variable others : metric -> dict pyval -> norm_out -> norm_out -> res returned.
Context {I : Type}.
Variable load : option pyval -> option pyval -> option pyval -> norm_out -> res I.
Variable cnr_of : I -> dict pyval -> res ext.
Variable snr_of : I -> dict pyval -> res snr_out.
Variable qm_of : I -> dict pyval -> res ext.
(** str() of a score *)
Variable repr : ext -> text.

(** RMSE.score and PSNR.score of the images handed over by _calc; keywords are not looked at
    (rmse.py 92-112 and psnr.py 105-129 have none). *)
Definition score_images (m : metric) (kwargs : dict pyval) (r o : norm_out) : res returned :=
  match m_class m, kwargs, r, o with
  | CRMSE, [], NImg a, NImg b =>
      let* (v, _) := rmse_score (disk files other special) ident ub unspec m (InArray a) (InArray b) in Ok (RNum v)
  | CPSNR, [], NImg a, NImg b =>
      let* (v, _) := psnr_score (disk files other special) ident ub unspec m (InArray a) (InArray b) in Ok (RNum v)
  | _, _, _, _ => others m kwargs r o
  end.

Definition calculate (kw : kwargs) (order : Z) (dir : text) (rois : option (list (option roi_t))) (global : option roi_t)
    (ms : list (nat * dict pyval)) (pairs : list pair) (h : @store metric)
    : res unit * dict (dict ext) * @store metric :=
  batch_calculate obj_kind m_name (obj_score_fr score_images) (obj_score_nr load cnr_of snr_of qm_of) to_float
    (disk files other special) ident ub resize kw order dir rois global ms pairs [] h.

(** csv.writer: texts as they are, None as an empty text, numbers by str() *)
Definition cell_text (c : @cell ext) : text :=
  match c with
  | CText s => list_ascii_of_string s
  | CFile (Some t) => t
  | CFile None => []
  | CNum x => repr x
  end.

(** open(path, mode="w") and the rows: the files afterwards *)
Definition export (pairs : list pair) (results : dict (dict ext)) (out_dir out_name : text) : machine_files * res unit :=
  match batch_export out_name pairs results with
  | (None, e) => (files, e)
  | (Some rows, e) =>
      let path := join out_dir out_name in
      let bytes := bytes_of_chars (write_rows (map (map cell_text) rows)) in
      (fun p => if text_eqb p path then Some bytes else files p, e)
  end.

(** BatchMetrics(...), calculate(...), export_results(...) *)
Definition run_batch (metrics : list (option nat)) (params : list (option (dict pyval))) (pairs_path dir : text)
    (rois : option (list (option roi_t))) (kw : kwargs) (order : Z) (global : option roi_t) (out_dir out_name : text)
    (h : @store metric) : machine_files * res unit :=
  match batch_init metrics params (read_pairs_at dialects files pairs_path) rois with
  | Err e => (files, Err e)
  | Ok (ms, pairs) =>
      match calculate kw order dir rois global ms pairs h with
      | (Err e, _, _) => (files, Err e)
      | (Ok _, results, _) => export pairs results out_dir out_name
      end
  end.
End Run.
