(** Model of the notebooks that README.md 228 recommends: notebooks/Image_Comparison.ipynb
    and notebooks/Image_Comparison_batch.ipynb. No proofs here. Cell numbers count from 0. Cells that only
    print are left out; a cell that fails ends the run. *)
From Coq Require Import Reals.
From Verif Require Import Base NdArray LoadModel NormModel PairModel MetricModel NrModel BatchModel RegionModel
  VisModel ExportModel.

(** ** Cell 4 of both: the variables calc_... *)
Record switches := Switches {
  s_psnr : bool; s_rmse : bool; s_ssim : bool; s_msssim : bool; s_fsim : bool; s_vif : bool; s_vsi : bool;
  s_mad : bool; s_gsm : bool; s_cnr : bool; s_snr : bool; s_qmeasure : bool }.

(** As the notebooks are delivered *)
Definition delivered : switches :=
  Switches true true true false true false false false false true true true.

Definition chosen (l : list (bool * mclass)) : list mclass := map snd (filter fst l).

(** Image_Comparison, cell 43 *)
Definition single_classes (s : switches) : list mclass :=
  chosen [(s_psnr s, CPSNR); (s_rmse s, CRMSE); (s_ssim s, CSSIM); (s_msssim s, CMSSSIM); (s_fsim s, CFSIM);
          (s_vif s, CVIFp); (s_vsi s, CVSI); (s_mad s, CMAD); (s_gsm s, CGSM); (s_cnr s, CCNR);
          (s_snr s, CSNR); (s_qmeasure s, CQMeasure)].

(** Image_Comparison_batch, cells 12, 17, 20, 23, ..., 47 *)
Definition batch_classes (s : switches) : list mclass :=
  chosen [(s_cnr s, CCNR); (s_snr s, CSNR); (s_psnr s, CPSNR); (s_rmse s, CRMSE); (s_ssim s, CSSIM);
          (s_msssim s, CMSSSIM); (s_fsim s, CFSIM); (s_vif s, CVIFp); (s_vsi s, CVSI); (s_mad s, CMAD);
          (s_gsm s, CGSM); (s_qmeasure s, CQMeasure)].

(** Every metric class is called with data_range, normalize=False and chromatic=False. *)
Definition make (dr : Z) (c : mclass) : res metric :=
  construct c (PInt dr) (PBool false) [("chromatic"%string, PBool false)].

(** Cell 23 of the batch notebook: viqa.RMSE() without them *)
Definition make_batch (dr : Z) (c : mclass) : res metric :=
  match c with CRMSE => construct CRMSE PNone (PBool false) [] | _ => make dr c end.

Definition no_metric : metric := Metric CQMeasure [] SNone None.
Definition store_of (objs : list metric) : @store metric := fun i => nth i objs no_metric.

(** Values that set_centers left in the parameters of an object *)
Definition with_saved (saved : dict pyval) (m : metric) : metric :=
  Metric (m_class m) (dupdate (m_params m) saved) (m_score m) (m_name m).

Section notebooks.
Context {I : Type}.
Variable load : option pyval -> option pyval -> option pyval -> norm_out -> res I.
Variable fr_value : metric -> dict pyval -> norm_out -> norm_out -> res returned.
Variable cnr_of : I -> dict pyval -> res ext.
Variable snr_of : I -> dict pyval -> res snr_out.
Variable qm_of : I -> dict pyval -> res ext.
Variable disk : text -> res image.
Variable ident : identity.
Variable ub : R -> Z.
Variable resize : norm_out -> list nat -> dtype -> Z -> res norm_out.
Variable show_val : pyval -> text.
Variable show_score : score -> text.
Variable stamp : text * text.
(** calculate_statistics() and describe() of an ImageArray *)
Variable statistics : image -> res unit.
(** What a call of set_centers for an object of the class, and the user, leave in its parameters *)
Variable widgets : mclass -> image -> res (dict pyval).

Notation score_fr := (obj_score_fr fr_value).
Notation score_nr := (obj_score_nr load cnr_of snr_of qm_of).

(** load_data(path, data_range=data_range, normalize=False); never unspecified without normalisation *)
Definition read_image (dr : Z) (path : text) : res image :=
  let* l := load_data disk ident ub (InPath path) (Some dr) false false [] in
  let* o := one l in
  match o with NImg im => Ok im | NNan _ _ => Err ValueError end.

(** Cells 8 to 13: skt.resize returns a plain array, which has no calculate_statistics() *)
Definition described (r m : image) : res unit :=
  if shape_eqb (shape r) (shape m) then let* _ := statistics r in statistics m
  else
    let* _ := resize (NImg m) (shape r) (dt r) 1 in
    let* _ := statistics r in Err AttributeError.

(** Cells 17 to 21: the two metrics with widgets *)
Definition saved_for (on : bool) (c : mclass) (m : image) : res (dict pyval) := if on then widgets c m else Ok [].

Definition single_object (dr : Z) (cnr snr : dict pyval) (c : mclass) : res metric :=
  let* o := make dr c in
  Ok (match c with CCNR => with_saved cnr o | CSNR => with_saved snr o | _ => o end).

(** Image_Comparison.ipynb, cells 6 to 44: images, objects and their keywords [params] *)
Definition single_setup (s : switches) (dr : Z) (params : mclass -> dict pyval) (path_r path_m : text)
    : res (image * image * list metric * list (nat * dict pyval)) :=
  let* r := read_image dr path_r in
  let* m := read_image dr path_m in
  let* _ := described r m in
  let* cnr := saved_for (s_cnr s) CCNR m in
  let* snr := saved_for (s_snr s) CSNR m in
  let* objs := mapM (single_object dr cnr snr) (single_classes s) in
  let* ms := multi_init (map Some (seq 0 (length objs))) (map (fun c => Some (params c)) (single_classes s)) in
  Ok (r, m, objs, ms).

Definition single_calculate (s : switches) (dr : Z) (params : mclass -> dict pyval) (path_r path_m : text)
    : res (image * image * list metric * dict ext) :=
  let* (r, m, objs, ms) := single_setup s dr params path_r path_m in
  let (out, h) := multi_calculate obj_kind m_name score_fr score_nr to_float disk ident ub resize
                    kw0 1 None (InArray r) (InArray m) ms (store_of objs) in
  let* d := out in
  Ok (r, m, map h (seq 0 (length objs)), d).

(** ... and cell 46, the report *)
Definition single_notebook (s : switches) (dr : Z) (params : mclass -> dict pyval) (path_r path_m : text)
    (results_path project : text) (x : Z) : list artefact * res unit :=
  match single_calculate s dr params path_r path_m with
  | Err e => ([], Err e)
  | Ok (r, m, objs, d) =>
      multi_report disk ident ub resize show_val show_score stamp true true true true results_path (Some project)
        (Some (InArray r)) (Some (InArray m)) (Some x) None None true None 1 objs (map params (single_classes s)) d
  end.

(** ** Image_Comparison_batch.ipynb *)

Variable pixels : image -> arr R.
Variable subplots : res unit.
Definition unstored : stored := Stored None None None None.

(** Cells 6 to 16: the pictures of the regions, asked for without a region type *)
Definition pictures (s : switches) (dr : Z) (path : text) (cnr_s cnr_b snr_s : list Z) (cnr_r snr_r : Z) : res unit :=
  if s_cnr s || s_snr s then
    let* img := read_image dr path in
    let* _ :=
      if s_cnr s then
        let* _ := make_batch dr CCNR in
        let* _ := cnr_visualize (pixels img) unstored (Some (map CInt cnr_s)) (Some (map CInt cnr_b))
                    (Some (RInt cnr_r)) None subplots in Ok tt
      else Ok tt in
    if s_snr s then
      let* _ := make_batch dr CSNR in
      let* _ := snr_visualize (B := bool) (fun _ => true) (pixels img) unstored None (Some (map CInt snr_s))
                  (Some (RInt snr_r)) None None in Ok tt
    else Ok tt
  else Ok tt.

(** Cells 19 to 49; [pairs] is the pairs file as read *)
Definition batch_run (s : switches) (dr : Z) (params : mclass -> dict pyval) (dir : text) (pairs : res (list pair))
    : res (list metric * list pair * dict (dict ext)) :=
  let* objs := mapM (make_batch dr) (batch_classes s) in
  let* (ms, ps) := batch_init (map Some (seq 0 (length objs))) (map (fun c => Some (params c)) (batch_classes s))
                     pairs None in
  let '(out, results, h) :=
    batch_calculate obj_kind m_name score_fr score_nr to_float disk ident ub resize kw0 1 dir None None ms ps []
      (store_of objs) in
  let* _ := out in
  Ok (map h (seq 0 (length objs)), ps, results).

(** ... and cell 51 *)
Definition batch_notebook (s : switches) (dr : Z) (params : mclass -> dict pyval) (path : text)
    (cnr_s cnr_b snr_s : list Z) (cnr_r snr_r : Z) (dir : text) (pairs : res (list pair))
    (results_path project : text) (x : Z) : list artefact * res unit :=
  match (let* _ := pictures s dr path cnr_s cnr_b snr_s cnr_r snr_r in batch_run s dr params dir pairs) with
  | Err e => ([], Err e)
  | Ok (objs, ps, results) =>
      batch_report disk ident ub resize show_val show_score stamp true true true results_path (Some project)
        (Some x) None None dir None (Some None) objs (map params (batch_classes s)) ps results
  end.
End notebooks.
