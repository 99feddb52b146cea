(** The recommended notebooks: property C133. *)
From Coq Require Import Reals.
From Verif Require Import Base NdArray LoadModel LoadProofs NormModel NormProofs PairModel PairProofs MetricModel NrModel
  NrProps BatchModel BatchProofs BatchLoopProofs BatchTraceProofs BatchProps RegionModel VisModel VisProps ExportModel ExportProofs
  ExportProps ExportReportProps NotebookModel.

(** The columns of a metric in the reports *)
Definition reported (c : mclass) : list string :=
  match c with
  | CPSNR => ["PSNR"] | CRMSE => ["RMSE"] | CSSIM => ["SSIM"] | CUQI => ["UQI"] | CMSSSIM => ["MS-SSIM"] | CFSIM => ["FSIM"]
  | CVIFp => ["VIFp"] | CVSI => ["VSI"] | CMAD => ["MAD"] | CGSM => ["GSM"]
  | CCNR => ["CNR_r"; "CNR_m"] | CQMeasure => ["Q-Measure_r"; "Q-Measure_m"] | CSNR => []
  end%string.

(** ** Objects *)

Definition made (dr : pyval) (c : mclass) (o : metric) : Prop :=
  m_class o = c /\ m_name o = name_of c false /\ m_score o = SNone /\
  dget (m_params o) "data_range" = Some dr /\ dget (m_params o) "normalize" = Some (PBool false) /\
  dget (m_params o) "roi" = Some PNone.

Lemma make_made dr c : exists o, make dr c = Ok o /\ made (PInt dr) c o.
Proof. destruct c; (eexists; split; [reflexivity|]); repeat split; reflexivity. Qed.

Lemma make_batch_made dr c : exists o, make_batch dr c = Ok o /\ made (match c with CRMSE => PNone | _ => PInt dr end) c o.
Proof. destruct c; (eexists; split; [reflexivity|]); repeat split; reflexivity. Qed.

Lemma chosen_in l c : In c (chosen l) <-> In (true, c) l.
Proof.
  unfold chosen. rewrite in_map_iff. split.
  - intros ([b x] & <- & H). apply filter_In in H as [H E]. cbn in E. subst b. exact H.
  - intros H. exists (true, c). split; [reflexivity|]. apply filter_In. auto.
Qed.

Lemma snr_in_single s : s_snr s = true -> In CSNR (single_classes s).
Proof. intros H. apply chosen_in. rewrite H. cbn. tauto. Qed.
Lemma snr_not_single s : s_snr s = false -> ~ In CSNR (single_classes s).
Proof. intros H Hi. apply chosen_in in Hi. rewrite H in Hi. cbn in Hi. intuition discriminate. Qed.
Lemma snr_not_batch s : s_snr s = false -> ~ In CSNR (batch_classes s).
Proof. intros H Hi. apply chosen_in in Hi. rewrite H in Hi. cbn in Hi. intuition discriminate. Qed.
Lemma cnr_not_batch s : s_cnr s = false -> ~ In CCNR (batch_classes s).
Proof. intros H Hi. apply chosen_in in Hi. rewrite H in Hi. cbn in Hi. intuition discriminate. Qed.

Lemma NoDup_chosen l : NoDup (map snd l) -> NoDup (chosen l).
Proof.
  unfold chosen. induction l as [|[b c] l IH]; intros H; [constructor|]. inversion H; subst. cbn [filter fst].
  destruct b; [|auto]. cbn. constructor; [|auto]. intros Hi. apply in_map_iff in Hi as ([b' c'] & E & Hi). cbn in E. subst.
  apply filter_In in Hi as [Hi _]. apply H2. apply in_map_iff. exists (b', c). auto.
Qed.

Lemma reported_apart c c' k : In k (reported c) -> In k (reported c') -> c = c'.
Proof.
  destruct c; cbn; intros H; repeat (destruct H as [<-|H]; [destruct c'; cbn; intuition discriminate|]); destruct H.
Qed.

Lemma NoDup_app {A} (l l' : list A) : NoDup l -> NoDup l' -> (forall x, In x l -> ~ In x l') -> NoDup (l ++ l').
Proof.
  induction 1 as [|x l Hx _ IH]; intros H' D; [exact H'|]. cbn. constructor.
  - intros Hi. apply in_app_iff in Hi as [Hi|Hi]; [contradiction|]. apply (D x); [left; reflexivity|exact Hi].
  - apply IH; [exact H'|]. intros y Hy. apply D. right. exact Hy.
Qed.

Lemma NoDup_reported l : NoDup l -> NoDup (flat_map reported l).
Proof.
  induction 1 as [|c l Hc _ IH]; [constructor|]. cbn [flat_map]. apply NoDup_app; [|exact IH|].
  - destruct c; cbn; repeat constructor; cbn; intuition discriminate.
  - intros k Hk Hi. apply in_flat_map in Hi as (c' & Hc' & Hk'). rewrite (reported_apart c c' k Hk Hk') in Hc. contradiction.
Qed.

Lemma NoDup_single s : NoDup (single_classes s).
Proof. apply NoDup_chosen. cbn. repeat constructor; cbn; intuition discriminate. Qed.
Lemma NoDup_batch s : NoDup (batch_classes s).
Proof. apply NoDup_chosen. cbn. repeat constructor; cbn; intuition discriminate. Qed.

(** The list handed to MultipleMetrics and BatchMetrics *)
Lemma mapM_somes {A} (l : list A) : mapM (from_opt ValueError) (map Some l) = Ok l.
Proof. induction l as [|x l IH]; [reflexivity|]. cbn. rewrite IH. reflexivity. Qed.

Lemma init_ok {A} n (ps : list A) : length ps = n ->
  multi_init (map Some (seq 0 n)) (map Some ps) = Ok (combine (seq 0 n) ps).
Proof.
  intros L. unfold multi_init. rewrite !map_length, seq_length, L, Nat.eqb_refl. cbn [negb].
  rewrite !mapM_somes. reflexivity.
Qed.

(** Objects, classes and keywords go together. *)
Definition matched (cs : list mclass) (h : @store metric) (ms : list (nat * dict pyval)) (params : mclass -> dict pyval)
    (Q : mclass -> metric -> Prop) : Prop :=
  length ms = length cs /\
  forall i c, nth_error cs i = Some c -> nth_error ms i = Some (i, params c) /\ Q c (h i).

Lemma matched_in cs h ms params Q id p : matched cs h ms params Q -> In (id, p) ms ->
  exists c, In c cs /\ p = params c /\ Q c (h id).
Proof.
  intros [L M] Hi. apply In_nth_error in Hi as (i & Hi).
  assert (Lt : i < length cs) by (rewrite <- L; apply nth_error_Some; congruence).
  destruct (nth_error cs i) as [c|] eqn:E; [|apply nth_error_None in E; lia].
  destruct (M i c E) as [A B]. rewrite Hi in A. injection A as -> ->.
  exists c. split; [eapply nth_error_In; exact E|]. auto.
Qed.

Lemma matched_of cs h ms params Q c : matched cs h ms params Q -> In c cs -> exists id, In (id, params c) ms /\ Q c (h id).
Proof.
  intros [L M] Hi. apply In_nth_error in Hi as (i & Hi). destruct (M i c Hi) as [A B]. exists i.
  split; [eapply nth_error_In; exact A|exact B].
Qed.

Lemma matched_store cs objs params (Q : mclass -> metric -> Prop) f :
  mapM f cs = Ok objs -> (forall c o, In c cs -> f c = Ok o -> Q c o) ->
  matched cs (store_of objs) (combine (seq 0 (length objs)) (map params cs)) params Q.
Proof.
  intros H HQ. destruct (mapM_nth _ _ _ H) as [L N]. rewrite L. split.
  - rewrite combine_length, seq_length, map_length. lia.
  - intros i c Hc. destruct (N i c Hc) as (o & Ho & Ef).
    assert (Lt : i < length cs) by (apply nth_error_Some; congruence). split.
    + rewrite combine_nth_error by (rewrite seq_length, map_length; reflexivity).
      rewrite nth_error_nth' with (d := 0) by (rewrite seq_length; exact Lt). rewrite seq_nth by exact Lt.
      rewrite nth_error_map, Hc. reflexivity.
    + unfold store_of. rewrite (nth_error_nth _ _ _ Ho). apply HQ; [eapply nth_error_In; exact Hc|exact Ef].
Qed.

(** An object of the class with its name *)
Definition named_as (c : mclass) (o : metric) : Prop := m_class o = c /\ m_name o = name_of c false.

Lemma columns_matched cs h params (Q : mclass -> metric -> Prop) : (forall c o, Q c o -> named_as c o) -> ~ In CSNR cs ->
  forall ms, matched cs h ms params Q -> BatchProps.columns obj_kind m_name h ms = flat_map reported cs.
Proof.
  intros HQ Hs.
  assert (G : forall cs ms n, ~ In CSNR cs -> length ms = length cs ->
    (forall i c, nth_error cs i = Some c -> nth_error ms i = Some (n + i, params c) /\ Q c (h (n + i))) ->
    BatchProps.columns obj_kind m_name h ms = flat_map reported cs).
  { clear cs Hs. induction cs as [|c cs IH]; intros [|[i p] ms] n Hs L M; try discriminate L; [reflexivity|].
    destruct (M 0 c eq_refl) as [A B]. rewrite Nat.add_0_r in *. cbn in A. injection A as -> ->.
    destruct (HQ _ _ B) as [Hc Hn].
    transitivity ((match m_name (h n) with Some k => columns_of (obj_kind (h n)) k | None => [] end) ++
                  BatchProps.columns obj_kind m_name h ms); [reflexivity|].
    rewrite Hn. unfold obj_kind at 1. rewrite Hc. rewrite (IH ms (S n)).
    - destruct c; try reflexivity.
    - intros Hi. apply Hs. right. exact Hi.
    - cbn in L. congruence.
    - intros i c' Hi. specialize (M (S i) c' Hi). rewrite Nat.add_succ_r in M. exact M. }
  intros ms [L M]. apply (G cs ms 0 Hs L M).
Qed.

Section props.
Context {I : Type}.
Variable load : option pyval -> option pyval -> option pyval -> norm_out -> res I.
Variable fr_value : metric -> dict pyval -> norm_out -> norm_out -> res returned.
Variable cnr_of : I -> dict pyval -> res ext.
Variable snr_of : I -> dict pyval -> res snr_out.
Variable qm_of : I -> dict pyval -> res ext.
Variable disk : text -> res image.
Variable ident : identity.
Variable ub : R -> Z.
Variable resize : norm_out -> list nat -> dtype -> Z -> res norm_out.
Variable show_val : pyval -> text.
Variable show_score : score -> text.
Variable stamp : text * text.
Variable statistics : image -> res unit.

Notation score_fr := (obj_score_fr fr_value).
Notation score_nr := (obj_score_nr load cnr_of snr_of qm_of).
Notation read_image := (read_image disk ident ub).
Notation single_setup := (single_setup disk ident ub resize statistics).
Notation single_calculate := (single_calculate load fr_value cnr_of snr_of qm_of disk ident ub resize statistics).
Notation single_notebook :=
  (single_notebook load fr_value cnr_of snr_of qm_of disk ident ub resize show_val show_score stamp statistics).
Notation run_metrics := (run_metrics obj_kind m_name score_fr score_nr to_float).
Notation multi_calculate := (multi_calculate obj_kind m_name score_fr score_nr to_float disk ident ub resize).

(** *** Preparation *)

Lemma read_image_ok dr path im : read_image dr path = Ok im <-> disk path = Ok im /\ dims_ok (shape im).
Proof.
  unfold NotebookModel.read_image, load_data. cbn [andb]. split.
  - intros H. apply bind_ok in H as (l & H & Ho). apply bind_ok in H as (im' & Hd & H). apply bind_ok in H as ([] & Hc & H).
    cbn in H. injection H as <-. cbn in Ho. injection Ho as ->. apply check_dims_ok in Hc. auto.
  - intros [-> Hd]. apply check_dims_ok in Hd. cbn [bind]. rewrite Hd. reflexivity.
Qed.

Definition saves (c : mclass) (cnr snr : dict pyval) : dict pyval := match c with CCNR => cnr | CSNR => snr | _ => [] end.

Lemma single_object_ok dr cnr snr c : exists o, single_object dr cnr snr c = Ok o /\ named_as c o /\ m_score o = SNone.
Proof.
  destruct (make_made dr c) as (o & E & (A & B & C & _)). unfold single_object. rewrite E. cbn [bind]. eexists. split; [reflexivity|].
  destruct c; (split; [split|]; assumption).
Qed.

Lemma mapM_total {A B} (f : A -> res B) l : (forall x, exists y, f x = Ok y) -> exists l', mapM f l = Ok l'.
Proof.
  intros H. induction l as [|x l (l' & IH)]; [exists []; reflexivity|]. destruct (H x) as (y & E). cbn. rewrite E, IH. eexists. reflexivity.
Qed.

Lemma setup_inv widgets s dr params pr pm r m objs ms :
  single_setup widgets s dr params pr pm = Ok (r, m, objs, ms) ->
  read_image dr pr = Ok r /\ read_image dr pm = Ok m /\ shape r = shape m /\
  exists cnr snr, saved_for widgets (s_cnr s) CCNR m = Ok cnr /\ saved_for widgets (s_snr s) CSNR m = Ok snr /\
    mapM (single_object dr cnr snr) (single_classes s) = Ok objs /\
    ms = combine (seq 0 (length objs)) (map params (single_classes s)).
Proof.
  unfold NotebookModel.single_setup. intros H. apply bind_ok in H as (r' & Hr & H). apply bind_ok in H as (m' & Hm & H).
  apply bind_ok in H as ([] & Hd & H). apply bind_ok in H as (cnr & Hc & H). apply bind_ok in H as (snr & Hs & H).
  apply bind_ok in H as (objs' & Ho & H). apply bind_ok in H as (ms' & Hi & H). injection H as -> -> -> ->.
  split; [exact Hr|]. split; [exact Hm|]. split.
  { unfold described in Hd. destruct (shape_eqb (shape r) (shape m)) eqn:E; [apply shape_eqb_eq, E|].
    apply bind_ok in Hd as (? & _ & Hd). apply bind_ok in Hd as (? & _ & Hd). discriminate Hd. }
  exists cnr, snr. split; [exact Hc|]. split; [exact Hs|]. split; [exact Ho|].
  rewrite <- (map_map params Some) in Hi. rewrite init_ok in Hi; [congruence|].
  rewrite map_length. symmetry. apply (mapM_nth _ _ _ Ho).
Qed.

Lemma setup_matched cnr snr dr s params objs :
  mapM (single_object dr cnr snr) (single_classes s) = Ok objs ->
  matched (single_classes s) (store_of objs) (combine (seq 0 (length objs)) (map params (single_classes s))) params
    (fun c o => single_object dr cnr snr c = Ok o).
Proof. intros H. eapply matched_store; [exact H|]. auto. Qed.

Lemma object_named dr cnr snr c o : single_object dr cnr snr c = Ok o -> named_as c o.
Proof. intros H. destruct (single_object_ok dr cnr snr c) as (o' & E & N & _). rewrite H in E. injection E as ->. exact N. Qed.

(** *** SNR *)

(** With calc_snr no scores are ever calculated and nothing is written. *)
Lemma snr_calculate widgets s dr params pr pm x : s_snr s = true -> single_calculate widgets s dr params pr pm <> Ok x.
Proof.
  intros Hs H. unfold NotebookModel.single_calculate in H. apply bind_ok in H as ([[[r m] objs] ms] & Hu & H).
  apply setup_inv in Hu as (_ & _ & _ & cnr & snr & _ & _ & Ho & ->).
  pose proof (setup_matched cnr snr dr s params objs Ho) as M.
  destruct (matched_of _ _ _ _ _ _ M (snr_in_single s Hs)) as (id & Hin & Hid). destruct (object_named _ _ _ _ _ Hid) as [Hc Hn].
  destruct (multi_calculate _ _ _ _ _ _ _) as [[d|e] h'] eqn:E; [|discriminate H].
  unfold BatchModel.multi_calculate, calc in E.
  destruct (let* r := _ in let* m := _ in _) as [[a b]|e]; [|discriminate E].
  eapply no_name_run in E; try eassumption; [apply package_stable|]. unfold obj_kind. rewrite Hc. reflexivity.
Qed.

Theorem C133_snr : forall widgets s dr params pr pm path project x, s_snr s = true ->
  exists e, single_notebook widgets s dr params pr pm path project x = ([], Err e).
Proof.
  intros widgets s dr params pr pm path project x Hs. unfold NotebookModel.single_notebook.
  destruct (single_calculate widgets s dr params pr pm) as [y|e] eqn:E; [|eauto]. exfalso. eapply snr_calculate; eassumption.
Qed.

Theorem C133_delivered : forall widgets dr params pr pm path project x,
  exists e, single_notebook widgets delivered dr params pr pm path project x = ([], Err e).
Proof. intros. apply C133_snr. reflexivity. Qed.

(** *** Images of different shapes: they are resized, and the next cell fails. *)
Theorem C133_shapes : forall widgets s dr params pr pm path project x r m,
  disk pr = Ok r -> disk pm = Ok m -> shape r <> shape m ->
  (exists e, single_notebook widgets s dr params pr pm path project x = ([], Err e)) /\
  (dims_ok (shape r) -> dims_ok (shape m) -> (exists o, resize (NImg m) (shape r) (dt r) 1 = Ok o) -> statistics r = Ok tt ->
   single_notebook widgets s dr params pr pm path project x = ([], Err AttributeError)).
Proof.
  intros widgets s dr params pr pm path project x r m Hr Hm Hs. split.
  - unfold NotebookModel.single_notebook, NotebookModel.single_calculate.
    destruct (single_setup widgets s dr params pr pm) as [[[[r' m'] objs] ms]|e] eqn:E; [|cbn; eauto].
    apply setup_inv in E as (A & B & C & _). apply read_image_ok in A as [A _]. apply read_image_ok in B as [B _]. congruence.
  - intros Dr Dm (o & Ho) Hst. unfold NotebookModel.single_notebook, NotebookModel.single_calculate, NotebookModel.single_setup.
    rewrite (proj2 (read_image_ok dr pr r) (conj Hr Dr)), (proj2 (read_image_ok dr pm m) (conj Hm Dm)). cbn [bind].
    unfold described. destruct (shape_eqb (shape r) (shape m)) eqn:E; [apply shape_eqb_eq in E; contradiction|].
    rewrite Ho. cbn [bind]. rewrite Hst. reflexivity.
Qed.

(** *** The scores of the notebook *)

Lemma calculate_inv widgets s dr params pr pm r m objs d :
  single_calculate widgets s dr params pr pm = Ok (r, m, objs, d) ->
  exists objs0 cnr snr h' a b, read_image dr pr = Ok r /\ read_image dr pm = Ok m /\ shape r = shape m /\
    saved_for widgets (s_cnr s) CCNR m = Ok cnr /\ saved_for widgets (s_snr s) CSNR m = Ok snr /\
    mapM (single_object dr cnr snr) (single_classes s) = Ok objs0 /\
    prepare_pair disk ident ub resize kw0 1 None (NImg r) (NImg m) = Ok (a, b) /\
    run_metrics None None a b (combine (seq 0 (length objs0)) (map params (single_classes s))) [] (store_of objs0) = (Ok d, h') /\
    objs = map h' (seq 0 (length objs0)).
Proof.
  intros H. unfold NotebookModel.single_calculate in H. apply bind_ok in H as ([[[r' m'] objs0] ms] & Hu & H).
  apply setup_inv in Hu as (Hr & Hm & Hsh & cnr & snr & Hc & Hs & Ho & ->).
  destruct (multi_calculate _ _ _ _ _ _ _) as [[d'|e] h'] eqn:E; [|discriminate H]. injection H as -> -> <- ->.
  unfold BatchModel.multi_calculate, calc in E.
  destruct (let* r := load_in disk ident ub kw0 (InArray r) in let* m := _ in _) as [[a b]|e] eqn:EP; [|discriminate E].
  apply bind_ok in EP as (r1 & L1 & EP). apply bind_ok in EP as (m1 & L2 & EP).
  assert (G : forall im o, load_in disk ident ub kw0 (InArray im) = Ok o -> o = NImg im).
  { intros im o Hl. unfold load_in, load_data in Hl. cbn in Hl. apply bind_ok in Hl as (l & Hl & Ho').
    apply bind_ok in Hl as (? & _ & Hl). injection Hl as <-. cbn in Ho'. congruence. }
  rewrite (G _ _ L1), (G _ _ L2) in EP.
  exists objs0, cnr, snr, h', a, b. repeat split; assumption.
Qed.

(** Columns: the chosen metrics in order, all of them different *)
Theorem C133_columns : forall widgets s dr params pr pm r m objs d, s_snr s = false ->
  single_calculate widgets s dr params pr pm = Ok (r, m, objs, d) ->
  dkeys d = flat_map reported (single_classes s) /\ NoDup (dkeys d).
Proof.
  intros widgets s dr params pr pm r m objs d Hs H.
  apply calculate_inv in H as (objs0 & cnr & snr & h' & a & b & _ & _ & _ & _ & _ & Ho & _ & Hrun & _).
  pose proof (setup_matched cnr snr dr s params objs0 Ho) as M.
  apply C58_columns in Hrun; [|apply package_stable].
  rewrite (columns_matched _ _ _ _ (object_named dr cnr snr) (snr_not_single s Hs) _ M) in Hrun.
  pose proof (NoDup_reported _ (NoDup_single s)) as N. rewrite firsts_NoDup in Hrun by exact N. rewrite Hrun. auto.
Qed.

Definition given_all (d : dict pyval) : Prop :=
  forall k, In k ["signal_center"; "background_center"; "radius"]%string -> dget d k <> None.
Definition no_loading (d : dict pyval) : Prop := forall k, In k loading_options -> dget d k = None.

Lemma free_run cs h ms params (Q : mclass -> metric -> Prop) : matched cs h ms params Q ->
  (forall c o, Q c o -> named_as c o) -> ~ In CSNR cs ->
  (In CCNR cs -> given_all (params CCNR) /\ no_loading (params CCNR)) ->
  history_free obj_kind m_name score_fr score_nr h ms.
Proof.
  intros M HQ Hs Hc. apply C53_history. intros id kw Hin Hcl. destruct (matched_in _ _ _ _ _ _ _ M Hin) as (c & Hi & -> & Hq).
  destruct (HQ _ _ Hq) as [E _]. rewrite E in *. destruct Hcl as [-> | ->]; [|contradiction]. apply Hc, Hi.
Qed.

Lemma prepared_pair r m a b : shape r = shape m -> last (shape r) 0 <> 3 ->
  prepare_pair disk ident ub resize kw0 1 None (NImg r) (NImg m) = Ok (a, b) -> a = NImg r /\ b = NImg m.
Proof.
  intros Hsh H3 H. unfold prepare_pair in H. rewrite resize_none in H by exact Hsh. cbn [bind crop_opt] in H.
  apply bind_ok in H as (r3 & Hr & H). apply bind_ok in H as (m3 & Hm & H).
  assert (G : forall im o, reload disk ident ub kw0 (NImg im) = Ok o -> o = NImg im).
  { intros im o Hl. cbn in Hl. apply bind_ok in Hl as (l & Hl & Ho').
    apply bind_ok in Hl as (? & _ & Hl). injection Hl as <-. cbn in Ho'. congruence. }
  apply G in Hr as ->. apply G in Hm as ->. unfold check_loaded in H.
  destruct (negb _); [discriminate H|]. destruct (negb _); [discriminate H|]. cbn [negb andb o_shape] in H.
  destruct (Nat.eqb_spec (last (shape r) 0) 3); [contradiction|]. injection H as <- <-. auto.
Qed.

(** Values: every score is that of a newly made object for the two images, with the keywords of the notebook, whatever
    was chosen in the widgets. *)
Definition one_score (score : I -> dict pyval -> res ext) (kw : dict pyval) (dr : Z) (d : dict ext) (img : image) (key : string)
    : Prop :=
  exists i v, load (Some (PInt dr)) (Some (PBool false)) (Some PNone) (NImg img) = Ok i /\ score i kw = Ok v /\ dget d key = Some v.

Theorem C133_scores : forall widgets s dr params pr pm r m objs d, s_snr s = false ->
  (s_cnr s = true -> given_all (params CCNR) /\ no_loading (params CCNR)) ->
  (forall saved, widgets CCNR m = Ok saved -> no_loading saved) ->
  last (shape r) 0 <> 3 ->
  single_calculate widgets s dr params pr pm = Ok (r, m, objs, d) ->
  forall c, In c (single_classes s) ->
  match c with
  | CCNR => one_score cnr_of (params c) dr d r "CNR_r" /\ one_score cnr_of (params c) dr d m "CNR_m"
  | CQMeasure => one_score qm_of (params c) dr d r "Q-Measure_r" /\ one_score qm_of (params c) dr d m "Q-Measure_m"
  | CSNR => False
  | _ => exists o v n, make dr c = Ok o /\ reported c = [n] /\
           fr_value o (params c) (NImg r) (NImg m) = Ok (RNum v) /\ dget d n = Some v
  end.
Proof.
  intros widgets s dr params pr pm r m objs d Hs Hcnr Hsave H3 H c Hc.
  apply calculate_inv in H as (objs0 & cnr & snr & h' & a & b & _ & _ & Hsh & Hsc & _ & Ho & Hp & Hrun & _).
  apply (prepared_pair _ _ _ _ Hsh H3) in Hp as [-> ->].
  pose proof (setup_matched cnr snr dr s params objs0 Ho) as M.
  assert (Hcs : In CCNR (single_classes s) -> s_cnr s = true).
  { intros Hi. apply chosen_in in Hi. cbn in Hi. repeat (destruct Hi as [Hi|Hi]; [try discriminate Hi; congruence|]). destruct Hi. }
  pose proof (free_run _ _ _ _ _ M (object_named dr cnr snr) (snr_not_single s Hs) (fun Hi => Hcnr (Hcs Hi))) as HF.
  assert (Hnl : In CCNR (single_classes s) -> no_loading cnr).
  { intros Hi. rewrite (Hcs Hi) in Hsc. apply Hsave, Hsc. }
  apply (C58_distinct obj_kind m_name score_fr score_nr to_float _ _ _ _ _ _ HF) in Hrun as [_ Hv].
  2:{ rewrite (columns_matched _ _ _ _ (object_named dr cnr snr) (snr_not_single s Hs) _ M). apply NoDup_reported, NoDup_single. }
  destruct (matched_of _ _ _ _ _ _ M Hc) as (id & Hin & Hid). destruct (Hv _ _ Hin) as [Hfr Hnr].
  destruct (object_named _ _ _ _ _ Hid) as [Ec En]. unfold obj_kind in Hfr, Hnr. rewrite Ec in Hfr, Hnr.
  assert (FR : forall n, class_kind c = FullRef -> name_of c false = Some n ->
     exists o v, make dr c = Ok o /\ fr_value o (params c) (NImg r) (NImg m) = Ok (RNum v) /\ dget d n = Some v).
  { intros n K N. destruct (Hfr n K ltac:(congruence)) as (x & v & A & B & C).
    exists (store_of objs0 id), v. split.
    - unfold single_object in Hid. destruct (make dr c) as [o|e]; [|discriminate Hid]. cbn [bind] in Hid.
      destruct c; try discriminate K; congruence.
    - split; [|exact C]. unfold obj_score_fr, obj_kind in A. rewrite Ec, K in A. cbn [fst] in A.
      destruct x as [v'|]; [|discriminate B]. cbn in B. congruence. }
  assert (Hop : no_loading (saves c cnr snr) -> forall img, load_stored load img (m_params (store_of objs0 id)) =
     load (Some (PInt dr)) (Some (PBool false)) (Some PNone) img).
  { intros Hl img. destruct (make_made dr c) as (o & Eo & (_ & _ & _ & P1 & P2 & P3)). unfold single_object in Hid. rewrite Eo in Hid. cbn [bind] in Hid.
    assert (G : forall k, In k loading_options -> dget (m_params (store_of objs0 id)) k = dget (m_params o) k).
    { intros k Hk. injection Hid as <-. destruct c; try reflexivity; cbn [with_saved m_params]; cbn [saves] in Hl;
        apply dget_dupdate_other, dget_none, Hl, Hk. }
    unfold load_stored. rewrite !G by (unfold loading_options; cbn; tauto). rewrite P1, P2, P3. reflexivity. }
  destruct c; try (destruct (FR _ eq_refl eq_refl) as (o & v & A & B & C); exists o, v; eexists; split; [exact A|]; split; [reflexivity|]; split; [exact B|exact C]).
  - (* CNR *)
    destruct (Hnr _ eq_refl En) as [(x & v & A & B & C) (x' & v' & A' & B' & C')].
    destruct (Hcnr (Hcs Hc)) as [Hall _]. specialize (Hop (Hnl Hc)).
    assert (G : forall img x v, fst (score_nr (store_of objs0 id) (params CCNR) img) = Ok x -> to_float x = Ok v ->
      exists i, load (Some (PInt dr)) (Some (PBool false)) (Some PNone) img = Ok i /\ cnr_of i (params CCNR) = Ok v).
    { clear -Ec Hall Hop. intros img x v A B. unfold obj_score_nr in A. rewrite Ec in A. unfold nr_score, cnr_required in A. rewrite Hop in A.
      destruct (load _ _ _ img) as [i|e]; [|discriminate A]. rewrite (proj2 (has_all_iff _ _) Hall) in A. cbn in A.
      apply bind_ok in A as (y & A & E). injection E as <-. cbn in B. injection B as ->. eauto. }
    destruct (G _ _ _ A B) as (i & L & S). destruct (G _ _ _ A' B') as (i' & L' & S').
    split; [exists i, v|exists i', v']; auto.
  - exfalso. exact (snr_not_single s Hs Hc).
  - (* Q-Measure *)
    destruct (Hnr _ eq_refl En) as [(x & v & A & B & C) (x' & v' & A' & B' & C')].
    specialize (Hop (fun k _ => eq_refl)).
    assert (G : forall img x v, fst (score_nr (store_of objs0 id) (params CQMeasure) img) = Ok x -> to_float x = Ok v ->
      exists i, load (Some (PInt dr)) (Some (PBool false)) (Some PNone) img = Ok i /\ qm_of i (params CQMeasure) = Ok v).
    { clear -Ec Hop. intros img x v A B. unfold obj_score_nr in A. rewrite Ec in A. cbn [fst] in A. rewrite Hop in A.
      destruct (load _ _ _ img) as [i|e]; [|discriminate A]. cbn in A.
      apply bind_ok in A as (y & A & E). injection E as <-. cbn in B. injection B as ->. eauto. }
    destruct (G _ _ _ A B) as (i & L & S). destruct (G _ _ _ A' B') as (i' & L' & S').
    split; [exists i, v|exists i', v']; auto.
Qed.

(** *** What is chosen in the widgets has no effect *)

Definition same_object (a b : metric) : Prop :=
  m_class a = m_class b /\ m_name a = m_name b /\ m_score a = m_score b /\
  (forall k, In k loading_options -> dget (m_params a) k = dget (m_params b) k) /\
  (m_class a <> CCNR -> a = b).
Definition same_store (h g : @store metric) : Prop := forall i, same_object (h i) (g i).

Lemma dget_dupdate_same (e : dict pyval) : forall d d' k, dget d k = dget d' k -> dget (dupdate d e) k = dget (dupdate d' e) k.
Proof.
  unfold dupdate. induction e as [|[k0 v] e IH]; intros d d' k H; [exact H|]. cbn. apply IH.
  destruct (String.string_dec k0 k) as [->|N]; [rewrite !dget_dset_same; reflexivity|].
  rewrite !dget_dset_other by exact N. exact H.
Qed.

Lemma same_load a b img : same_object a b -> load_stored load img (m_params a) = load_stored load img (m_params b).
Proof. intros (_ & _ & _ & H & _). unfold load_stored. rewrite !H by (unfold loading_options; cbn; tauto). reflexivity. Qed.

Lemma same_set h g id a b : same_store h g -> same_object a b -> same_store (store_set h id a) (store_set g id b).
Proof. intros H Hab i. unfold store_set. destruct (i =? id); [exact Hab|apply H]. Qed.

Lemma same_fr a b kw r m : same_object a b ->
  fst (score_fr a kw r m) = fst (score_fr b kw r m) /\ same_object (snd (score_fr a kw r m)) (snd (score_fr b kw r m)).
Proof.
  intros H. pose proof H as (Hc & _ & _ & _ & Hs). unfold obj_score_fr, obj_kind. rewrite <- Hc.
  destruct (m_class a) eqn:E; cbn [class_kind]; (split; [|exact H]); try reflexivity;
    cbn [fst]; rewrite Hs by discriminate; reflexivity.
Qed.

Lemma same_nr a b kw img : same_object a b -> (m_class a = CCNR -> given_all kw) ->
  fst (score_nr a kw img) = fst (score_nr b kw img) /\ same_object (snd (score_nr a kw img)) (snd (score_nr b kw img)).
Proof.
  intros H Hk. pose proof H as (Hc & Hn & Hm & Ho & Hs). destruct (m_class a) eqn:E.
  11:{ specialize (Hk eq_refl). unfold obj_score_nr. rewrite <- Hc, E. unfold nr_score, cnr_required. rewrite (same_load a b img H).
       destruct (load_stored load img (m_params b)) as [i|e].
       - rewrite (proj2 (has_all_iff _ kw) Hk). cbn [fst snd]. split; [reflexivity|]. repeat split; cbn; try assumption; try congruence.
         intros k Hin. apply dget_dupdate_same, Ho, Hin.
       - cbn [fst snd]. split; [reflexivity|]. repeat split; cbn; try assumption; congruence. }
  all: rewrite (Hs ltac:(discriminate)); (split; [reflexivity|]); repeat split; reflexivity.
Qed.

Lemma same_step id kw r m acc h g : same_store h g -> (m_class (h id) = CCNR -> given_all kw) ->
  let step := metric_step obj_kind m_name score_fr score_nr to_float None None r m id kw acc in
  fst (step h) = fst (step g) /\ same_store (snd (step h)) (snd (step g)).
Proof.
  intros H Hk step. subst step. unfold metric_step. pose proof (H id) as Hid.
  assert (Ek : obj_kind (h id) = obj_kind (g id)) by (unfold obj_kind; rewrite (proj1 Hid); reflexivity). rewrite <- Ek.
  destruct (obj_kind (h id)); [| |split; [reflexivity|exact H]].
  - destruct (same_fr _ _ kw r m Hid) as [E S]. destruct (score_fr (h id) kw r m) as [x a], (score_fr (g id) kw r m) as [y b].
    cbn [fst snd] in *. subst y. rewrite (proj1 (proj2 S)). split; [reflexivity|]. apply same_set; assumption.
  - unfold nr_side. destruct (same_nr _ _ kw r Hid Hk) as [E S]. pose proof (proj1 (nr_keeps load cnr_of snr_of qm_of (h id) kw r)) as Ka.
    destruct (score_nr (h id) kw r) as [x a], (score_nr (g id) kw r) as [y b].
    cbn [fst snd] in *. subst y. rewrite (proj1 (proj2 S)).
    pose proof (same_set h g id a b H S) as HS.
    match goal with |- context [match ?t with Ok _ => _ | Err _ => (_, store_set h id a) end] => destruct t as [acc'|e] end;
      [|split; [reflexivity|exact HS]].
    assert (Ea : store_set h id a id = a) by (unfold store_set; rewrite Nat.eqb_refl; reflexivity).
    assert (Eb : store_set g id b id = b) by (unfold store_set; rewrite Nat.eqb_refl; reflexivity).
    rewrite Ea, Eb.
    assert (Hka : m_class a = CCNR -> given_all kw) by (intros Ha; apply Hk; congruence).
    destruct (same_nr _ _ kw m S Hka) as [E' S'].
    destruct (score_nr a kw m) as [x' a'], (score_nr b kw m) as [y' b'].
    cbn [fst snd] in *. subst y'. rewrite (proj1 (proj2 S')). split; [reflexivity|]. apply same_set; assumption.
Qed.

Lemma step_class id kw r m acc h i :
  m_class (snd (metric_step obj_kind m_name score_fr score_nr to_float None None r m id kw acc h) i) = m_class (h i).
Proof.
  unfold metric_step. destruct (obj_kind (h id)); [| |reflexivity].
  - pose proof (fr_keeps fr_value (h id) kw r m) as K. destruct (score_fr (h id) kw r m) as [x a]. cbn [snd] in *. subst a.
    unfold store_set. destruct (Nat.eqb_spec i id); subst; reflexivity.
  - unfold nr_side. pose proof (proj1 (nr_keeps load cnr_of snr_of qm_of (h id) kw r)) as K. destruct (score_nr (h id) kw r) as [x a].
    cbn [snd] in K. assert (G : forall j, m_class (store_set h id a j) = m_class (h j)).
    { intros j. unfold store_set. destruct (Nat.eqb_spec j id); subst; congruence. }
    match goal with |- context [match ?t with Ok _ => _ | Err _ => (_, store_set h id a) end] => destruct t as [acc'|e] end; [|apply G].
    pose proof (proj1 (nr_keeps load cnr_of snr_of qm_of (store_set h id a id) kw m)) as K'.
    destruct (score_nr (store_set h id a id) kw m) as [x' a']. cbn [snd] in *.
    unfold store_set at 1. destruct (Nat.eqb_spec i id); subst; [|apply G]. rewrite K'. apply G.
Qed.

Lemma same_run r m : forall ms acc h g, same_store h g ->
  (forall id kw, In (id, kw) ms -> m_class (h id) = CCNR -> given_all kw) ->
  fst (run_metrics None None r m ms acc h) = fst (run_metrics None None r m ms acc g) /\
  same_store (snd (run_metrics None None r m ms acc h)) (snd (run_metrics None None r m ms acc g)).
Proof.
  induction ms as [|[id kw] ms IH]; intros acc h g H Hk; [split; [reflexivity|exact H]|]. cbn [BatchModel.run_metrics].
  destruct (same_step id kw r m acc h g H (Hk id kw (or_introl eq_refl))) as [E S].
  pose proof (step_class id kw r m acc h) as HC.
  destruct (metric_step _ _ _ _ _ _ _ _ _ _ _ _ h) as [x h1], (metric_step _ _ _ _ _ _ _ _ _ _ _ _ g) as [y g1].
  cbn [fst snd] in *. subst y. destruct x as [acc'|e]; [|split; [reflexivity|exact S]].
  apply IH; [exact S|]. intros i k Hi Hc. apply (Hk i k); [right; exact Hi|]. rewrite <- HC. exact Hc.
Qed.

Lemma same_metadata path file : forall l l' ps, Forall2 same_object l l' ->
  export_metadata show_val show_score stamp l ps path file = export_metadata show_val show_score stamp l' ps path file.
Proof.
  assert (G : forall l l' ps n, Forall2 same_object l l' ->
    metadata_loop show_val show_score l ps n = metadata_loop show_val show_score l' ps n).
  { intros l l' ps n H. revert n. induction H as [|a b l l' Hab _ IH]; intros n; [reflexivity|]. cbn [metadata_loop].
    assert (E : metadata_entry show_val show_score a (nth_error ps n) = metadata_entry show_val show_score b (nth_error ps n)).
    { destruct Hab as (Hc & _ & Hs & Ho & _). unfold metadata_entry, metric_str. rewrite Hc, Hs, Ho by (left; reflexivity). reflexivity. }
    rewrite E, IH. reflexivity. }
  intros l l' ps H. unfold export_metadata. rewrite (G _ _ ps 0 H). reflexivity.
Qed.

(** Two ways to use the widgets of CNR, both without an error, give the same scores and the same files. *)
Theorem C133_widgets : forall w w' s dr params pr pm path project x,
  s_snr s = false -> given_all (params CCNR) ->
  (forall m, exists saved, w CCNR m = Ok saved /\ no_loading saved) ->
  (forall m, exists saved, w' CCNR m = Ok saved /\ no_loading saved) ->
  single_notebook w s dr params pr pm path project x = single_notebook w' s dr params pr pm path project x.
Proof.
  intros w w' s dr params pr pm path project x Hs Hall Hw Hw'.
  unfold NotebookModel.single_notebook, NotebookModel.single_calculate, NotebookModel.single_setup.
  destruct (read_image dr pr) as [r|e]; [|reflexivity]. cbn [bind]. destruct (read_image dr pm) as [m|e]; [|reflexivity]. cbn [bind].
  destruct (described resize statistics r m) as [[]|e]; [|reflexivity]. cbn [bind]. rewrite Hs. cbn [saved_for].
  assert (Hsv : forall w, (forall m, exists saved, w CCNR m = Ok saved /\ no_loading saved) ->
     exists saved, saved_for w (s_cnr s) CCNR m = Ok saved /\ no_loading saved).
  { intros w0 H0. unfold saved_for. destruct (s_cnr s); [apply H0|]. exists []. split; [reflexivity|]. intros k _. reflexivity. }
  destruct (Hsv w Hw) as (c1 & -> & N1). destruct (Hsv w' Hw') as (c2 & -> & N2). cbn [bind].
  assert (Hobj : forall cs, exists o1 o2, mapM (single_object dr c1 []) cs = Ok o1 /\ mapM (single_object dr c2 []) cs = Ok o2 /\ Forall2 same_object o1 o2).
  { induction cs as [|c cs (o1 & o2 & E1 & E2 & F)]; [exists [], []; repeat split; constructor|].
    destruct (make_made dr c) as (o & Eo & _). cbn [mapM]. unfold single_object at 1 3. rewrite Eo. cbn [bind]. rewrite E1, E2. cbn [bind].
    do 2 eexists. split; [reflexivity|]. split; [reflexivity|]. constructor; [|exact F].
    destruct (make_made dr c) as (o' & Eo' & Hm). rewrite Eo in Eo'. injection Eo' as <-. destruct Hm as (Hc & _).
    destruct c; try (repeat split; reflexivity). repeat split; cbn; try congruence.
    intros k Hk. rewrite !dget_dupdate_other by (apply dget_none; (apply N1 || apply N2); exact Hk). reflexivity. }
  destruct (Hobj (single_classes s)) as (o1 & o2 & E1 & E2 & F). rewrite E1, E2. cbn [bind].
  assert (L : length o1 = length o2) by (clear -F; induction F; cbn; congruence). rewrite <- L.
  assert (Ei : multi_init (map Some (seq 0 (length o1))) (map (fun c => Some (params c)) (single_classes s)) =
            Ok (combine (seq 0 (length o1)) (map params (single_classes s)))).
  { rewrite <- (map_map params Some). apply init_ok. rewrite map_length. symmetry. apply (mapM_nth _ _ _ E1). }
  rewrite Ei. cbn [bind].
  assert (HS : same_store (store_of o1) (store_of o2)).
  { intros i. unfold store_of. clear -F. revert i. induction F as [|a b l l' H _ IH]; intros [|i]; cbn; try exact H; try apply IH; repeat split; reflexivity. }
  pose proof (setup_matched c1 [] dr s params o1 E1) as M.
  assert (HK : forall id kw, In (id, kw) (combine (seq 0 (length o1)) (map params (single_classes s))) -> m_class (store_of o1 id) = CCNR -> given_all kw).
  { intros id kw Hi Hc. destruct (matched_in _ _ _ _ _ _ _ M Hi) as (c & _ & -> & Ho). destruct (object_named _ _ _ _ _ Ho) as [Ec _]. rewrite Ec in Hc. subst c. exact Hall. }
  unfold BatchModel.multi_calculate, calc.
  destruct (let* r := load_in disk ident ub kw0 (InArray r) in let* m := _ in _) as [[a b]|e]; [|reflexivity].
  destruct (same_run a b _ [] _ _ HS HK) as [ER SR].
  destruct (BatchModel.run_metrics _ _ _ _ _ _ _ _ _ _ _ (store_of o1)) as [x1 h1], (BatchModel.run_metrics _ _ _ _ _ _ _ _ _ _ _ (store_of o2)) as [x2 h2].
  cbn [fst snd] in ER, SR. subst x2. destruct x1 as [d|e]; [|reflexivity]. cbn [bind]. rewrite <- L. unfold multi_report.
  rewrite (same_metadata path (file_of (Some project) (lit "metadata.txt")) (map h1 (seq 0 (length o1))) (map h2 (seq 0 (length o1)))); [reflexivity|].
  clear -SR. induction (seq 0 (length o1)) as [|i l IH]; constructor; [apply SR|exact IH].
Qed.

(** *** What is written *)

(** A run without an error: a figure, the table of the scores and the metadata *)
Theorem C133_files : forall w s dr params pr pm c path (project : text) x arts,
  ~ In "/"%char project ->
  single_notebook w s dr params pr pm (c :: path) project x = (arts, Ok tt) ->
  exists r m objs d f content,
    single_calculate w s dr params pr pm = Ok (r, m, objs, d) /\
    arts = [AFig f;
            ACsv (join (c :: path) (project ++ lit "_results.csv")) [map CText (dkeys d); map CNum (dvals d)];
            AMeta (join (c :: path) (project ++ lit "_metadata.txt")) content] /\
    f_saved f = Some (join (c :: path) (project ++ lit "_image_comparison.png")) /\ f_shown f = true /\
    labels (scores d) = Ok (f_labels f).
Proof.
  intros w s dr params pr pm c path project x arts Hp H. unfold NotebookModel.single_notebook in H.
  destruct (single_calculate w s dr params pr pm) as [[[[r m] objs] d]|e]; [|discriminate H].
  unfold multi_report, when, then_, fig_step in H.
  destruct (export_image _ _ _ _ _ _ _ _ _ _ _ _ _ _ _) as [f|e] eqn:E; cbn [fst snd] in H; [|discriminate H].
  unfold csv_step, multi_export in H. rewrite (proj2 (text_eqb_eq _ _) (csv_named disk stamp (Some project) Hp)) in H. cbn [negb fst snd] in H.
  unfold export_metadata in H. pose proof (meta_named disk stamp (Some project) Hp) as Hn. apply splitext_named in Hn; [|cbn; intuition discriminate..].
  rewrite (proj2 (text_eqb_eq (snd (splitext _)) (lit ".txt")) Hn) in H. cbn [negb] in H.
  destruct (metadata_loop _ _ _ _ _) as [t [[]|e]]; cbn [meta_step fst snd app] in H; [|discriminate H].
  injection H as <-. unfold export_image in E. apply bind_ok in E as ([a b] & _ & E). apply bind_ok in E as ([a' b'] & _ & E).
  apply bind_ok in E as (ls & Hl & E). destruct (negb _); [discriminate E|]. injection E as <-.
  exists r, m, objs, d. do 2 eexists. split; [reflexivity|]. split; [reflexivity|]. cbn. auto.
Qed.

(** The slice of the figure must exist, otherwise the scores are calculated and not written. *)
Theorem C133_slice : forall w s dr params pr pm path project x r m objs d nx ny nz,
  single_calculate w s dr params pr pm = Ok (r, m, objs, d) ->
  shape r = [nx; ny; nz] -> nz <> 3 -> complete (NImg r) -> (x < - Z.of_nat nx \/ Z.of_nat nx <= x)%Z ->
  single_notebook w s dr params pr pm path project x = ([], Err IndexError).
Proof.
  intros w s dr params pr pm path project x r m objs d nx ny nz H Hsh H3 Hw Hx. unfold NotebookModel.single_notebook. rewrite H.
  apply calculate_inv in H as (objs0 & cnr & snr & h' & a & b & Hr & Hm & He & _ & _ & _ & Hp & _ & _).
  assert (L3 : last (shape r) 0 <> 3) by (rewrite Hsh; exact H3).
  destruct (prepared_pair _ _ _ _ He L3 Hp) as [-> ->].
  unfold multi_report, when, then_, fig_step, export_image, picture_pair.
  apply read_image_ok in Hr as [_ Dr]. apply read_image_ok in Hm as [_ Dm].
  assert (G : forall im, dims_ok (shape im) -> load_in disk ident ub kw0 (InArray im) = Ok (NImg im)).
  { intros im Hd. apply check_dims_ok in Hd. unfold load_in, load_data. cbn. rewrite Hd. reflexivity. }
  rewrite (G r Dr), (G m Dm). cbn [bind o_shape]. rewrite He, Nat.eqb_refl. cbn [negb]. rewrite Hp. cbn [bind].
  rewrite (C62_outside (Some x) None None (NImg r) (NImg m) nx ny nz 0 x Hw Hsh H3 eq_refl); [reflexivity|]. exact Hx.
Qed.

(** *** The batch notebook *)

Variable pixels : image -> arr R.
Variable subplots : res unit.
Notation pictures := (pictures disk ident ub pixels subplots).
Notation batch_run := (batch_run load fr_value cnr_of snr_of qm_of disk ident ub resize).
Notation batch_notebook :=
  (batch_notebook load fr_value cnr_of snr_of qm_of disk ident ub resize show_val show_score stamp pixels subplots).

Lemma snr_no_kind img sc r : snr_visualize (B := bool) (fun _ => true) img unstored None sc r None None = Err ValueError.
Proof. reflexivity. Qed.

(** The pictures of the regions are asked for without a region type: with calc_cnr or calc_snr, as delivered, nothing is
    calculated. *)
Theorem C133_batch_pictures : forall s dr params img sc bc ss r rs dir pairs path project x,
  s_cnr s = true \/ s_snr s = true ->
  exists e, batch_notebook s dr params img sc bc ss r rs dir pairs path project x = ([], Err e).
Proof.
  intros s dr params img sc bc ss r rs dir pairs path project x Hs. unfold NotebookModel.batch_notebook.
  destruct (pictures s dr img sc bc ss r rs) as [[]|e] eqn:E; [|cbn; eauto]. exfalso.
  unfold NotebookModel.pictures in E. replace (s_cnr s || s_snr s) with true in E by (destruct Hs as [-> | ->]; [|rewrite orb_true_r]; reflexivity).
  apply bind_ok in E as (im & _ & E). apply bind_ok in E as (? & Hc & E). destruct (s_cnr s).
  - apply bind_ok in Hc as (? & _ & Hc). apply bind_ok in Hc as (ps & Hc & _). eapply C65_never; exact Hc.
  - destruct Hs as [Hs|Hs]; [discriminate Hs|]. rewrite Hs in E. apply bind_ok in E as (? & _ & E). rewrite snr_no_kind in E. discriminate E.
Qed.

Theorem C133_batch_delivered : forall dr params img sc bc ss r rs dir pairs path project x,
  exists e, batch_notebook delivered dr params img sc bc ss r rs dir pairs path project x = ([], Err e).
Proof. intros. apply C133_batch_pictures. left. reflexivity. Qed.

(** Which error it is, for an image that is there and regions that fit into it *)
Theorem C133_batch_errors : forall s dr params img im sc bc ss r rs dir pairs path project x,
  disk img = Ok im -> dims_ok (shape im) ->
  (s_cnr s = true -> picture_shape (shp (pixels im)) -> wf (pixels im) -> (0 < r)%Z ->
   fits (shp (pixels im)) sc r -> fits (shp (pixels im)) bc r ->
   batch_notebook s dr params img sc bc ss r rs dir pairs path project x = ([], Err TypeError)) /\
  (s_cnr s = false -> s_snr s = true ->
   batch_notebook s dr params img sc bc ss r rs dir pairs path project x = ([], Err ValueError)).
Proof.
  intros s dr params img im sc bc ss r rs dir pairs path project x Hd Hi.
  pose proof (proj2 (read_image_ok dr img im) (conj Hd Hi)) as Hr.
  unfold NotebookModel.batch_notebook, NotebookModel.pictures. split.
  - intros Hs P W R0 F1 F2. rewrite Hs. cbn [orb]. rewrite Hr. cbn [bind].
    destruct (make_batch_made dr CCNR) as (o & -> & _). cbn [bind]. rewrite C65_type_error by assumption. reflexivity.
  - intros Hc Hs. rewrite Hc, Hs. cbn [orb]. rewrite Hr. cbn [bind].
    destruct (make_batch_made dr CSNR) as (o & -> & _). cbn [bind]. rewrite snr_no_kind. reflexivity.
Qed.

Lemma batch_object_named dr c o : make_batch dr c = Ok o -> named_as c o.
Proof. intros H. destruct (make_batch_made dr c) as (o' & E & (A & B & _)). rewrite H in E. injection E as ->. split; assumption. Qed.

Lemma batch_run_inv s dr params dir pairs objs ps results : batch_run s dr params dir pairs = Ok (objs, ps, results) ->
  exists objs0 h', pairs = Ok ps /\ mapM (make_batch dr) (batch_classes s) = Ok objs0 /\
    batch_calculate obj_kind m_name score_fr score_nr to_float disk ident ub resize kw0 1 dir None None
      (combine (seq 0 (length objs0)) (map params (batch_classes s))) ps [] (store_of objs0) = (Ok tt, results, h') /\
    objs = map h' (seq 0 (length objs0)).
Proof.
  unfold NotebookModel.batch_run. intros H. apply bind_ok in H as (objs0 & Ho & H). apply bind_ok in H as ([ms ps'] & Hi & H).
  unfold batch_init in Hi. apply bind_ok in Hi as (ms' & Hm & Hi). apply bind_ok in Hi as (ps'' & Hp & Hi). injection Hi as -> ->.
  rewrite <- (map_map params Some) in Hm. rewrite init_ok in Hm by (rewrite map_length; symmetry; apply (mapM_nth _ _ _ Ho)).
  injection Hm as <-. destruct (batch_calculate _ _ _ _ _ _ _ _ _ _ _ _ _ _ _ _ _ _) as [[[[]|e] res] h'] eqn:E; [|discriminate H].
  injection H as <- -> ->. exists objs0, h'. auto.
Qed.

(** A run without an error, calc_cnr and calc_snr being off: the table with one row per pair and a column for every score,
    the metadata, and one figure per pair *)
Theorem C133_batch_files : forall s dr params img sc bc ss r rs dir pairs c path (project : text) x arts,
  s_snr s = false -> ~ In "/"%char project ->
  batch_notebook s dr params img sc bc ss r rs dir pairs (c :: path) project x = (arts, Ok tt) ->
  exists objs ps results rows content figs,
    pairs = Ok ps /\ ps <> [] /\ batch_run s dr params dir pairs = Ok (objs, ps, results) /\
    arts = ACsv (join (c :: path) (project ++ lit "_results.csv"))
             (map CText (["pair_num"; "reference_image"; "modified_image"]%string ++ flat_map reported (batch_classes s)) :: rows)
           :: AMeta (join (c :: path) (project ++ lit "_metadata.txt")) content :: figs /\
    length rows = length ps /\ length figs = length ps /\
    (forall n pr, nth_error ps n = Some pr -> exists d vals, dget results (show n) = Some d /\
       nth_error rows n = Some (CText (show n) :: CFile (p_ref pr) :: CFile (p_mod pr) :: map CNum vals) /\
       length vals = length (flat_map reported (batch_classes s)) /\
       forall j k, nth_error (flat_map reported (batch_classes s)) j = Some k -> exists v, nth_error vals j = Some v /\ dget d k = Some v) /\
    (forall n a, nth_error figs n = Some a -> exists f, a = AFig f /\ f_shown f = false /\
       f_saved f = Some (join (c :: path) (project ++ lit "_image_comparison_" ++ lit (show n) ++ lit ".png"))).
Proof.
  intros s dr params img sc bc ss r rs dir pairs c path project x arts Hs Hp H. unfold NotebookModel.batch_notebook in H.
  destruct (pictures s dr img sc bc ss r rs) as [[]|e]; cbn [bind] in H; [|discriminate H].
  destruct (batch_run s dr params dir pairs) as [[[objs ps] results]|e] eqn:E; [|discriminate H].
  pose proof E as E'. apply batch_run_inv in E' as (objs0 & h' & Hps & Ho & Hb & ->).
  assert (Hne : ps <> []).
  { intros ->. cbn in Hb. injection Hb as <- _. unfold batch_report, when, then_, csv_step in H.
    rewrite C57_before in H by (apply (csv_named disk stamp (Some project) Hp)). discriminate H. }
  pose proof (matched_store _ _ params _ _ Ho (fun c o _ E => E)) as M.
  destruct (C57_rows _ _ _ _ _ _ _ _ _ _ _ _ _ _ _ _ _ _ _ (file_of (Some project) (lit "results.csv"))
     (package_stable load fr_value cnr_of snr_of qm_of _ _) Hb Hne (csv_named disk stamp (Some project) Hp))
    as (cols & rows & Ex & Hcols & Lr & Hrows).
  rewrite (columns_matched _ _ _ _ (batch_object_named dr) (snr_not_batch s Hs) _ M) in Hcols.
  rewrite firsts_NoDup in Hcols by apply NoDup_reported, NoDup_batch. subst cols.
  unfold batch_report, when in H. unfold csv_step in H. rewrite Ex in H. unfold then_ in H at 1. cbn [fst snd] in H.
  unfold export_metadata in H. pose proof (meta_named disk stamp (Some project) Hp) as Hn. apply splitext_named in Hn; [|cbn; intuition discriminate..].
  rewrite (proj2 (text_eqb_eq (snd (splitext _)) (lit ".txt")) Hn) in H. cbn [negb] in H.
  destruct (metadata_loop _ _ _ _ _) as [t [[]|e]]; unfold then_ in H; cbn [meta_step fst snd app] in H; [|discriminate H].
  destruct (figures_loop _ _ _ _ _ _ _ _ _ _ _ _ _ _ _) as [figs e] eqn:EF. cbn [fst snd] in H. injection H as <- ->.
  destruct (C92_figures _ _ _ _ _ _ _ _ _ _ _ _ _ _ _ _ EF) as [Lf Hf].
  eexists _, ps, results, rows, _, figs. split; [exact Hps|]. split; [exact Hne|]. split; [reflexivity|]. split; [reflexivity|].
  split; [exact Lr|]. split; [exact Lf|]. split; [exact Hrows|]. exact Hf.
Qed.

(** Without pairs the table is emptied and nothing else written. *)
Theorem C133_no_pairs : forall s dr params img sc bc ss r rs dir path (project : text) x,
  s_cnr s = false -> s_snr s = false -> ~ In "/"%char project ->
  batch_notebook s dr params img sc bc ss r rs dir (Ok []) path project x =
  ([ACsv (join path (project ++ lit "_results.csv")) []], Err KeyError).
Proof.
  intros s dr params img sc bc ss r rs dir path project x Hc Hs Hp. unfold NotebookModel.batch_notebook, NotebookModel.pictures, NotebookModel.batch_run.
  rewrite Hc, Hs. cbn [orb bind].
  destruct (mapM_total (make_batch dr) (batch_classes s)) as (objs & Ho).
  { intros c. destruct (make_batch_made dr c) as (o & E & _). eauto. }
  rewrite Ho. cbn [bind]. unfold batch_init. rewrite <- (map_map params Some), init_ok by (rewrite map_length; symmetry; apply (mapM_nth _ _ _ Ho)).
  cbn [bind]. unfold batch_calculate. cbn [batch_loop bind]. unfold batch_report, when, then_, csv_step.
  rewrite C57_before by (apply (csv_named disk stamp (Some project) Hp)). reflexivity.
Qed.

(** *** Both notebooks give the same scores *)

(** What a metric reports for two images *)
Definition reports (c : mclass) (o : metric) (kw : dict pyval) (a b : norm_out) : list (string * res ext) :=
  let side img := let* x := fst (score_nr o kw img) in to_float x in
  match name_of c false, class_kind c with
  | Some n, FullRef => [(n, let* x := fst (score_fr o kw a b) in to_float x)]
  | Some n, NoRef => [((n ++ "_r")%string, side a); ((n ++ "_m")%string, side b)]
  | _, _ => []
  end.

Lemma reports_keys c o kw a b : map fst (reports c o kw a b) = reported c.
Proof. destruct c; reflexivity. Qed.

Lemma run_reports cs h ms params (Q : mclass -> metric -> Prop) a b d h' c : matched cs h ms params Q ->
  (forall c o, Q c o -> named_as c o) -> ~ In CSNR cs -> NoDup cs -> history_free obj_kind m_name score_fr score_nr h ms ->
  run_metrics None None a b ms [] h = (Ok d, h') -> In c cs ->
  exists o, Q c o /\ Forall (fun kv => exists v, snd kv = Ok v /\ dget d (fst kv) = Some v) (reports c o (params c) a b).
Proof.
  intros M HQ Hs Hnd HF Hrun Hc.
  apply (C58_distinct obj_kind m_name score_fr score_nr to_float _ _ _ _ _ _ HF) in Hrun as [_ Hv].
  2:{ rewrite (columns_matched _ _ _ _ HQ Hs _ M). apply NoDup_reported, Hnd. }
  destruct (matched_of _ _ _ _ _ _ M Hc) as (id & Hin & Hid). destruct (Hv _ _ Hin) as [Hfr Hnr].
  destruct (HQ _ _ Hid) as [Ec En]. exists (h id). split; [exact Hid|]. unfold obj_kind in Hfr, Hnr. rewrite Ec, En in Hfr, Hnr.
  unfold reports. destruct (name_of c false) as [n|]; [|constructor]. destruct (class_kind c); [| |constructor].
  - destruct (Hfr n eq_refl eq_refl) as (x & v & A & B & C). constructor; [|constructor]. exists v. cbn [fst snd]. rewrite A. auto.
  - destruct (Hnr n eq_refl eq_refl) as [(x & v & A & B & C) (x' & v' & A' & B' & C')].
    constructor; [|constructor; [|constructor]]; cbn [fst snd]; [exists v; rewrite A|exists v'; rewrite A']; auto.
Qed.

(** A pair of grey images of one shape is scored by the batch notebook as by the other one; the objects for RMSE differ in the
    stored data range. *)
Theorem C133_same : forall w s dr params dir pairs objs ps results n pr rp mp r m objs1 d1,
  s_cnr s = false -> s_snr s = false ->
  batch_run s dr params dir pairs = Ok (objs, ps, results) -> equal_shapes disk dir ps ->
  nth_error ps n = Some pr -> files dir pr rp mp ->
  single_calculate w s dr params rp mp = Ok (r, m, objs1, d1) -> last (shape r) 0 <> 3 ->
  exists d, dget results (show n) = Some d /\
    forall c k, In c (batch_classes s) -> c <> CRMSE -> In k (reported c) -> dget d k = dget d1 k /\ dget d k <> None.
Proof.
  intros w s dr params dir pairs objs ps results n pr rp mp r m objs1 d1 Hc Hs HB He Hn Hf HS H3.
  apply batch_run_inv in HB as (objs0 & h' & _ & Ho & Hb & _).
  pose proof (matched_store _ _ params _ _ Ho (fun c o _ E => E)) as M.
  pose proof (free_run _ _ _ _ _ M (batch_object_named dr) (snr_not_batch s Hs) (fun Hi => False_ind _ (cnr_not_batch s Hc Hi))) as HF.
  set (ms := combine (seq 0 (length objs0)) (map params (batch_classes s))) in *.
  pose proof (C53_single obj_kind m_name score_fr score_nr to_float disk ident ub resize kw0 1 dir None ms (store_of objs0) ps HF He) as H53.
  rewrite Hb in H53. unfold outcome in H53. cbn [fst snd bind] in H53.
  destruct (mapM (single _ _ _ _ _ _ _ _ _ _ _ _ _ _ _) ps) as [ds|e] eqn:Em; [|discriminate H53]. cbn [bind] in H53. injection H53 as ->.
  destruct (proj2 (mapM_nth _ _ _ Em) n pr Hn) as (d & Hd & Hsing).
  exists d. split.
  { unfold numbered. pose proof (proj1 (mapM_nth _ _ _ Em)) as Ld. apply dget_nth with (i := n).
    - unfold dkeys. assert (G : forall (l : list string) (ds : list (dict ext)), length l = length ds -> map fst (combine l ds) = l).
      { clear. induction l as [|y l IH]; intros [|z ds] L; try discriminate L; [reflexivity|]. cbn. rewrite IH by (cbn in L; congruence). reflexivity. }
      rewrite G by (rewrite map_length, seq_length; reflexivity). apply NoDup_shows.
    - assert (Lt : n < length ds) by (apply nth_error_Some; congruence).
      rewrite combine_nth_error by (rewrite map_length, seq_length; reflexivity).
      rewrite nth_error_map, nth_error_nth' with (d := 0) by (rewrite seq_length; exact Lt).
      rewrite seq_nth by exact Lt. cbn. rewrite Hd. reflexivity. }
  rewrite (C53_multiple obj_kind m_name score_fr score_nr to_float disk ident ub resize kw0 1 dir None ms (store_of objs0) pr rp mp HF eq_refl eq_refl Hf) in Hsing.
  apply calculate_inv in HS as (objs2 & cnr & snr & h2 & a & b & Hr & Hm & Hsh & _ & _ & Ho2 & Hp & Hrun & _).
  destruct (prepared_pair _ _ _ _ Hsh H3 Hp) as [-> ->].
  apply read_image_ok in Hr as [Dr Ir]. apply read_image_ok in Hm as [Dm Im].
  unfold BatchModel.multi_calculate, calc in Hsing.
  assert (G : forall path im, disk path = Ok im -> dims_ok (shape im) -> load_in disk ident ub kw0 (InPath path) = Ok (NImg im)).
  { intros p im E Hdm. apply check_dims_ok in Hdm. unfold load_in, load_data. cbn. rewrite E. cbn. rewrite Hdm. reflexivity. }
  rewrite (G _ _ Dr Ir), (G _ _ Dm Im) in Hsing. cbn [bind] in Hsing. rewrite Hp in Hsing.
  destruct (run_metrics None None (NImg r) (NImg m) ms [] (store_of objs0)) as [x h3] eqn:Er. cbn [fst] in Hsing. subst x.
  pose proof (setup_matched cnr snr dr s params objs2 Ho2) as M2.
  assert (Hcs : ~ In CCNR (single_classes s)).
  { intros Hi. apply chosen_in in Hi. rewrite Hc in Hi. cbn in Hi. intuition discriminate. }
  pose proof (free_run _ _ _ _ _ M2 (object_named dr cnr snr) (snr_not_single s Hs) (fun Hi => False_ind _ (Hcs Hi))) as HF2.
  intros c k Hi Hne Hk.
  assert (Hi2 : In c (single_classes s)).
  { apply chosen_in in Hi. apply chosen_in. cbn in *. tauto. }
  destruct (run_reports _ _ _ _ _ _ _ _ _ c M (batch_object_named dr) (snr_not_batch s Hs) (NoDup_batch s) HF Er Hi) as (o & Eo & F).
  destruct (run_reports _ _ _ _ _ _ _ _ _ c M2 (object_named dr cnr snr) (snr_not_single s Hs) (NoDup_single s) HF2 Hrun Hi2) as (o2 & Eo2 & F2).
  assert (o2 = o).
  { unfold single_object in Eo2. unfold make_batch in Eo. cbn beta in *. destruct c; try contradiction; try (rewrite Eo in Eo2; cbn in Eo2; congruence);
      exfalso; (apply Hcs, Hi2 || exact (snr_not_single s Hs Hi2)). }
  subst o2. rewrite <- (reports_keys c o (params c) (NImg r) (NImg m)) in Hk. apply in_map_iff in Hk as (kv & <- & Hkv).
  rewrite Forall_forall in F, F2. destruct (F kv Hkv) as (v & V1 & V2). destruct (F2 kv Hkv) as (v' & V1' & V2'). split; congruence.
Qed.
End props.
Print Assumptions C133_snr.
Print Assumptions C133_delivered.
Print Assumptions C133_shapes.
Print Assumptions C133_columns.
Print Assumptions C133_scores.
Print Assumptions C133_widgets.
Print Assumptions C133_files.
Print Assumptions C133_slice.
Print Assumptions C133_batch_pictures.
Print Assumptions C133_batch_delivered.
Print Assumptions C133_batch_errors.
Print Assumptions C133_batch_files.
Print Assumptions C133_no_pairs.
Print Assumptions C133_same.

(** ** Runs of both notebooks *)
Definition nb_im (k : Z) : image := Img (UInt 8) (PI (tabulate [2; 2; 2] (fun i => Z.add k (Z.of_nat (nth 0 i 0))))).
Definition nb_flat : image := Img (UInt 8) (PI (Arr [2; 2] (repeat 0%Z 4))).
Definition nb_disk (t : text) : res image :=
  if text_eqb t (lit "d/a.raw") then Ok (nb_im 1) else if text_eqb t (lit "d/b.raw") then Ok (nb_im 5)
  else if text_eqb t (lit "d/c.raw") then Ok nb_flat else Err FileNotFoundError.
Definition nb_first (o : norm_out) : ext := match o with NImg (Img _ (PI (Arr _ (v :: _)))) => Fin (IZR v) | _ => NaN end.
Definition nb_load (_ _ _ : option pyval) (o : norm_out) : res norm_out := Ok o.
Definition nb_fr (_ : metric) (_ : dict pyval) (r m : norm_out) : res returned := Ok (RNum (nb_first m)).
Definition nb_nr (o : norm_out) (_ : dict pyval) : res ext := Ok (nb_first o).
Definition nb_snr (o : norm_out) (_ : dict pyval) : res snr_out := Ok (SGrey (nb_first o) []).
Definition nb_resize (o : norm_out) (_ : list nat) (_ : dtype) (_ : Z) : res norm_out := Ok o.
Definition nb_values (im : image) : arr R := match im with Img _ (PI a) => Arr (shp a) (map IZR (dat a)) | Img _ (PF a) => Arr (shp a) (repeat 0%R (length (dat a))) end.
Definition nb_three : switches := Switches true false false false false false false false false true false true.
Definition nb_two : switches := Switches true false false false false false false false false false false true.
Definition nb_keywords (c : mclass) : dict pyval :=
  match c with CCNR | CSNR => [("signal_center", PInt 0); ("background_center", PInt 1); ("radius", PInt 1)]%string | _ => [] end.
Definition nb_widgets (_ : mclass) (_ : image) : res (dict pyval) := Ok [("radius"%string, PInt 7)].

Definition nb_run (s : switches) (m : string) (x : Z) :=
  single_notebook nb_load nb_fr nb_nr nb_snr nb_nr nb_disk Z.eqb (fun _ => 0%Z) nb_resize (fun _ => []) (fun _ => []) ([], []) (fun _ => Ok tt) nb_widgets
    s 255 nb_keywords (lit "d/a.raw") (lit m) (lit "out") (lit "p") x.
Definition nb_run_batch (s : switches) (pairs : list pair) :=
  batch_notebook nb_load nb_fr nb_nr nb_snr nb_nr nb_disk Z.eqb (fun _ => 0%Z) nb_resize (fun _ => []) (fun _ => []) ([], []) nb_values (Ok tt)
    s 255 nb_keywords (lit "d/a.raw") [1; 1; 1]%Z [1; 1; 1]%Z [1; 1; 1]%Z 1 1 (lit "d") (Ok pairs) (lit "out") (lit "p") 1.

(** SNR switched off, the slice inside the images *)
Example C133_ex : exists f content,
  nb_run nb_three "d/b.raw" 1 =
  ([AFig f;
    ACsv (lit "out/p_results.csv")
      [map CText ["PSNR"; "CNR_r"; "CNR_m"; "Q-Measure_r"; "Q-Measure_m"]%string;
       [CNum (Fin 5); CNum (Fin 1); CNum (Fin 5); CNum (Fin 1); CNum (Fin 5)]];
    AMeta (lit "out/p_metadata.txt") content], Ok tt) /\
  f_saved f = Some (lit "out/p_image_comparison.png") /\
  given_all (nb_keywords CCNR) /\ no_loading (nb_keywords CCNR) /\ no_loading [("radius"%string, PInt 7)].
Proof.
  eexists. eexists. split; [vm_compute; reflexivity|]. split; [reflexivity|].
  split; [|split]; intros k Hk; cbn in Hk; repeat (destruct Hk as [<-|Hk]; [cbn; congruence|]); destruct Hk.
Qed.

(** As delivered, with a slice that is not there, and with images of different shapes *)
Example C133_delivered_ex : nb_run delivered "d/b.raw" 1 = ([], Err TypeError).
Proof. reflexivity. Qed.
Example C133_slice_ex : nb_run nb_three "d/b.raw" 100 = ([], Err IndexError).
Proof. reflexivity. Qed.
Example C133_shapes_ex : nb_run nb_three "d/c.raw" 1 = ([], Err AttributeError).
Proof. reflexivity. Qed.

Example C133_batch_ex : exists f content,
  nb_run_batch nb_two [Pair (Some (lit "a.raw")) (Some (lit "b.raw"))] =
  ([ACsv (lit "out/p_results.csv")
      [map CText ["pair_num"; "reference_image"; "modified_image"; "PSNR"; "Q-Measure_r"; "Q-Measure_m"]%string;
       [CText "0"; CFile (Some (lit "a.raw")); CFile (Some (lit "b.raw")); CNum (Fin 5); CNum (Fin 1); CNum (Fin 5)]];
    AMeta (lit "out/p_metadata.txt") content; AFig f], Ok tt) /\
  f_saved f = Some (lit "out/p_image_comparison_0.png").
Proof. eexists. eexists. split; [vm_compute; reflexivity|reflexivity]. Qed.
