(** Proofs about whole batch runs (RunModel.v). *)
From Coq Require Import Reals Lra Ascii.
From Verif Require Import Base NdArray LoadModel LoadProofs LoadTextProofs NormModel NormProofs PairModel PairProofs RealSums
  MetricModel MetricProofs NrModel BatchModel BatchProofs BatchLoopProofs BatchTraceProofs BatchProps ScriptModel
  SsimModel SsimProofs FileModel FileProofs FileProps CsvModel CsvProofs CsvProps RunModel.

(** ** Text files *)

Lemma chars_bytes t : chars_of (bytes_of_chars t) = t.
Proof.
  unfold chars_of, bytes_of_chars. rewrite map_map. rewrite <- (map_id t) at 2. apply map_ext. intros c.
  rewrite Nat2Z.id. apply ascii_nat_embedding.
Qed.

Lemma dtype_eqb_refl d : dtype_eqb d d = true.
Proof. destruct d; cbn; rewrite ?Nat.eqb_refl; reflexivity. Qed.
Lemma shape_eqb_refl s : shape_eqb s s = true.
Proof. unfold shape_eqb. destruct (list_eq_dec Nat.eq_dec s s); [reflexivity|contradiction]. Qed.

(** ** A pair of files and its scores *)

(** The mean squared difference of the words of the two files of a pair, same type and size. *)
Definition measured (files : text -> option (list Z)) (dir : text) (p : text * text) (e : R) : Prop :=
  exists d nx ny nz br bm vr vm,
    stored files (join dir (fst p)) d nx ny nz br /\ stored files (join dir (snd p)) d nx ny nz bm /\
    let n := nx * ny * nz in
    length br / itemsize d = n /\ length bm / itemsize d = n /\
    (forall i, i < n -> value d br i = Some (vr i)) /\ (forall i, i < n -> value d bm i = Some (vm i)) /\
    nz <> 3 /\ 0 < n /\ e = (Sum (fun i => (vr i - vm i) * (vr i - vm i)) (seq 0 n) / INR n)%R.

(** PSNR from the mean squared difference *)
Definition psnr_of (dr : Z) (e : R) : ext :=
  if Req_EM_T e 0 then PInf else Fin (10 * (ln (IZR dr * IZR dr / e) / ln 10))%R.

Section Files.
Variable files : machine_files.
Variable other : reader -> text -> res image.
Variable special : Z -> R.
Variable ident : identity.
Variable ub : R -> Z.
Variable unspec : ext.
Variable resize : norm_out -> list nat -> dtype -> Z -> res norm_out.
Variable others : metric -> dict pyval -> norm_out -> norm_out -> res returned.
Context {I : Type}.
Variable load : option pyval -> option pyval -> option pyval -> norm_out -> res I.
Variable cnr_of : I -> dict pyval -> res ext.
Variable snr_of : I -> dict pyval -> res snr_out.
Variable qm_of : I -> dict pyval -> res ext.

Notation disk := (disk files other special).
Notation score_images := (score_images files other special ident ub unspec others).
Notation score_fr := (obj_score_fr score_images).
Notation score_nr := (obj_score_nr load cnr_of snr_of qm_of).

Lemma load_same p im dr nrm b roi : disk p = Ok im ->
  load_data disk ident ub (InPath p) dr nrm b roi = load_data disk ident ub (InArray im) dr nrm b roi.
Proof. intros E. unfold load_data. rewrite E. reflexivity. Qed.

Lemma load_images_same m pr pm ir im : disk pr = Ok ir -> disk pm = Ok im ->
  load_images disk ident ub m (InPath pr) (InPath pm) = load_images disk ident ub m (InArray ir) (InArray im).
Proof. intros E1 E2. unfold load_images, check_imgs. rewrite (load_same _ _ _ _ _ _ E1), (load_same _ _ _ _ _ _ E2). reflexivity. Qed.

Lemma measured_read dir p e : measured files dir p e ->
  exists ir im, disk (join dir (fst p)) = Ok ir /\ disk (join dir (snd p)) = Ok im /\
    dt ir = dt im /\ shape ir = shape im /\ length (shape ir) = 3 /\ last (shape ir) 0 <> 3.
Proof.
  intros (d & nx & ny & nz & br & bm & vr & vm & Sr & Sm & Lr & Lm & Vr & Vm & H3 & Hn & ->).
  destruct (C126_read files other special _ d nx ny nz br Sr Lr) as (ir & Er & Tr & Hr & _).
  destruct (C126_read files other special _ d nx ny nz bm Sm Lm) as (im & Em & Tm & Hm & _).
  exists ir, im. rewrite Tr, Tm, Hr, Hm. auto 8.
Qed.

Lemma measured_rmse dir p e m ir im : measured files dir p e -> plain m -> m_class m = CRMSE ->
  disk (join dir (fst p)) = Ok ir -> disk (join dir (snd p)) = Ok im ->
  score_images m [] (NImg ir) (NImg im) = Ok (RNum (Fin (sqrt e))).
Proof.
  intros (d & nx & ny & nz & br & bm & vr & vm & Sr & Sm & Lr & Lm & Vr & Vm & H3 & Hn & ->) Pm C Er Em.
  unfold RunModel.score_images. rewrite C. unfold rmse_score. rewrite <- (load_images_same m _ _ _ _ Er Em).
  destruct (C126_rmse files other special ident ub unspec m _ _ d nx ny nz br bm vr vm Pm Sr Sm Lr Lm Vr Vm H3 Hn) as (s & E).
  unfold rmse_score in E. destruct (load_images _ _ _ _ _ _); [|discriminate]. cbn [bind] in *.
  f_equal. f_equal. injection E as E _. exact E.
Qed.

Lemma sum_sq_zero f n k : (Sum (fun i : nat => f i * f i) (seq k n) = 0 <-> forall i, (k <= i < k + n)%nat -> f i = 0)%R.
Proof.
  revert k. induction n as [|n IH]; intros k; cbn [seq]; [split; [intros _ i Hi; lia|reflexivity]|]. rewrite Sum_cons.
  assert (P : (0 <= Sum (fun i : nat => f i * f i) (seq (S k) n))%R).
  { generalize (seq (S k) n). intros l. induction l as [|x l IHl]; [apply Rle_refl|]. rewrite Sum_cons. pose proof (Rle_0_sqr (f x)) as Q. unfold Rsqr in Q. lra. }
  pose proof (Rle_0_sqr (f k)) as Q. unfold Rsqr in Q. split.
  - intros E i Hi. assert (f k * f k = 0)%R as A by lra. assert (B : (Sum (fun i : nat => f i * f i) (seq (S k) n) = 0)%R) by lra.
    destruct (Nat.eq_dec i k) as [->|N]; [apply Rmult_integral in A as [A|A]; exact A|]. apply (proj1 (IH (S k)) B). lia.
  - intros A. rewrite (A k ltac:(lia)), (proj2 (IH (S k))); [lra|]. intros i Hi. apply A. lia.
Qed.

Lemma measured_psnr dir p e m dr ir im : measured files dir p e -> plain m -> m_class m = CPSNR ->
  dget (m_params m) "data_range" = Some (PInt dr) -> dr <> 0%Z ->
  disk (join dir (fst p)) = Ok ir -> disk (join dir (snd p)) = Ok im ->
  score_images m [] (NImg ir) (NImg im) = Ok (RNum (psnr_of dr e)).
Proof.
  intros (d & nx & ny & nz & br & bm & vr & vm & Sr & Sm & Lr & Lm & Vr & Vm & H3 & Hn & ->) Pm C Hd H0 Er Em.
  unfold RunModel.score_images. rewrite C. unfold psnr_score. rewrite <- (load_images_same m _ _ _ _ Er Em).
  destruct (C126_psnr files other special ident ub unspec m _ _ d nx ny nz br bm vr vm dr Pm Hd H0 Sr Sm Lr Lm Vr Vm H3 Hn) as (v & s & E & E1 & E2).
  unfold psnr_score in E. destruct (load_images _ _ _ _ _ _); [|discriminate]. cbn [bind] in *.
  rewrite Hd in *. cbn [int_of from_opt bind] in *. f_equal. f_equal. injection E as E _. rewrite E. clear E s.
  set (n := nx * ny * nz) in *. assert (HnR : (INR n <> 0)%R) by (apply not_0_INR; lia).
  pose proof (sum_sq_zero (fun i => (vr i - vm i)%R) n 0) as Q. unfold psnr_of.
  destruct (Req_EM_T _ 0) as [Z0|Z0].
  - apply E1. intros i Hi. assert (A : (Sum (fun i : nat => (vr i - vm i) * (vr i - vm i)) (seq 0 n) = 0)%R).
    { apply Rmult_eq_reg_r with (/ INR n)%R; [|apply Rinv_neq_0_compat, HnR]. rewrite Rmult_0_l. exact Z0. }
    pose proof (proj1 Q A i ltac:(lia)) as B. cbv beta in B. lra.
  - apply E2. destruct (existsb (fun i => if Req_EM_T (vr i) (vm i) then false else true) (seq 0 n)) eqn:X.
    + apply existsb_exists in X as (i & Hi & X). apply in_seq in Hi. exists i. split; [lia|]. destruct (Req_EM_T (vr i) (vm i)); [discriminate|assumption].
    + exfalso. apply Z0. rewrite (proj2 Q); [unfold Rdiv; ring|]. intros i Hi. cbv beta.
      destruct (Req_EM_T (vr i) (vm i)) as [->|N]; [ring|]. exfalso.
      assert (Y : existsb (fun i => if Req_EM_T (vr i) (vm i) then false else true) (seq 0 n) = true).
      { apply existsb_exists. exists i. split; [apply in_seq; lia|]. destruct (Req_EM_T (vr i) (vm i)); [contradiction|reflexivity]. }
      congruence.
Qed.

(** ** One pair of a batch run *)

Definition no_options (kw : kwargs) : Prop := k_norm kw = false /\ k_chromatic kw = false.

Lemma load_in_plain kw p im : no_options kw -> disk p = Ok im -> length (shape im) = 3 ->
  load_in disk ident ub kw (InPath p) = Ok (NImg im) /\ reload disk ident ub kw (NImg im) = Ok (NImg im).
Proof.
  intros (N & C) E L. unfold reload, load_in. rewrite C. rewrite (load_same _ _ _ _ _ _ E). unfold load_data. rewrite N. cbn [andb].
  assert (D : check_dims (shape im) = Ok tt) by (unfold check_dims; rewrite L; reflexivity). rewrite D. cbn [bind].
  unfold prepare. destruct (k_range kw); cbn [bind andb one]; auto.
Qed.

Definition ms2 : list (nat * dict pyval) := [(0, []); (1, [])].

Definition two (h : @store metric) (dr : Z) : Prop :=
  plain (h 0) /\ m_class (h 0) = CRMSE /\ m_name (h 0) = Some "RMSE"%string /\
  plain (h 1) /\ m_class (h 1) = CPSNR /\ m_name (h 1) = Some "PSNR"%string /\
  dget (m_params (h 1)) "data_range" = Some (PInt dr) /\ dr <> 0%Z.

Definition scores (dr : Z) (e : R) : dict ext := [("RMSE"%string, Fin (sqrt e)); ("PSNR"%string, psnr_of dr e)].

Lemma alone_measured kw order dir p e h dr : no_options kw -> measured files dir p e -> two h dr ->
  alone obj_kind m_name score_fr score_nr to_float disk ident ub resize kw order dir ms2 h (Ok None) (as_pair p) = Ok (scores dr e).
Proof.
  intros K M (P0 & C0 & N0 & P1 & C1 & N1 & D1 & Z1).
  destruct (measured_read _ _ _ M) as (ir & im & Er & Em & T & S & L & L3).
  destruct (load_in_plain kw _ _ K Er L) as [Lr Rr]. destruct (load_in_plain kw _ _ K Em ltac:(congruence)) as [Lm Rm].
  unfold alone, paths, as_pair. cbn [p_ref p_mod from_opt bind]. rewrite Lr, Lm. cbn [bind]. rewrite Rr, Rm. cbn [bind].
  unfold prepare_pair, resize_image. cbn [o_shape o_type]. rewrite S, shape_eqb_refl. cbn [bind crop_opt]. rewrite Rr, Rm. cbn [bind check_loaded o_type o_shape].
  rewrite T, S, dtype_eqb_refl, shape_eqb_refl. cbn [negb andb]. rewrite S in L3. apply Nat.eqb_neq in L3. rewrite L3. cbn [bind].
  unfold pure_run, slots, ms2. cbn [flat_map]. unfold slots_of at 1 2. cbn [fst]. unfold obj_kind at 1 2. rewrite C0, C1. cbn [class_kind app mapM].
  unfold entry, val_of, key_of. cbn [fst snd]. rewrite N0, N1. unfold obj_score_fr, obj_kind. rewrite C0, C1. cbn [class_kind fst].
  rewrite (measured_rmse dir p e _ ir im M P0 C0 Er Em), (measured_psnr dir p e _ dr ir im M P1 C1 D1 Z1 Er Em). reflexivity.
Qed.

(** A run that fails does not look at later pairs. *)
Lemma loop_fail {M P X F : Type} kind name fr nr (to_f : X -> res F) dsk idt u rsz kw order dir rois global (ms : list (nat * P)) n :
  forall pairs rest c results h e out (h' : @store M),
  batch_loop kind name fr nr to_f dsk idt u rsz kw order dir rois global ms n pairs c results h = (Err e, out, h') ->
  batch_loop kind name fr nr to_f dsk idt u rsz kw order dir rois global ms n (pairs ++ rest) c results h = (Err e, out, h').
Proof.
  intros pairs rest. revert n. induction pairs as [|pr pairs IH]; intros n c results h e out h' H; [discriminate H|].
  cbn [app batch_loop] in *. destruct (batch_step _ _ _ _ _ _ _ _ _ _ _ _ _ _ _ _ _ _ _) as [[c'|e'] h1]; [apply IH, H|exact H].
Qed.

Lemma ploop_prefix {F} (f : nat -> pair -> res (dict F)) good bad ds e : forall n results,
  (forall k, In k (dkeys results) -> exists i, i < n /\ k = show i) ->
  length ds = length good -> (forall i pr d, nth_error good i = Some pr -> nth_error ds i = Some d -> f (n + i) pr = Ok d) ->
  f (n + length good) bad = Err e ->
  ploop f n (good ++ [bad]) results = (Err e, results ++ combine (map show (seq n (length ds))) ds).
Proof.
  revert ds. induction good as [|pr good IH]; intros [|d ds] n results Hk L H B; try discriminate L.
  - cbn [app ploop length] in *. rewrite Nat.add_0_r in B. rewrite B, app_nil_r. reflexivity.
  - cbn [app ploop length seq map combine] in *. pose proof (H 0 pr d eq_refl eq_refl) as E. rewrite Nat.add_0_r in E. rewrite E.
    assert (Hf : ~ In (show n) (dkeys results)).
    { intros Hin. destruct (Hk _ Hin) as (i & Hi & Ei). apply show_inj in Ei. lia. }
    rewrite (IH ds).
    + rewrite dset_fresh by exact Hf. rewrite <- app_assoc. reflexivity.
    + intros k. rewrite dset_fresh by exact Hf. unfold dkeys. rewrite map_app, in_app_iff. simpl.
      intros [Hin|[<-|[]]]; [|exists n; split; [lia|reflexivity]]. destruct (Hk _ Hin) as (i & ? & ?). exists i. split; [lia|assumption].
    + congruence.
    + intros i q d' Hq Hd. specialize (H (S i) q d' Hq Hd). rewrite Nat.add_succ_r in H. exact H.
    + rewrite <- B. f_equal. lia.
Qed.

Lemma history h dr : two h dr -> history_free obj_kind m_name score_fr score_nr h ms2.
Proof.
  intros (_ & C0 & _ & _ & C1 & _). apply C53_history. intros id kw [E|[E|[]]] [H|H]; injection E as <- <-; congruence.
Qed.

Definition measured_all (dir : text) (ps : list (text * text)) (es : list R) : Prop := Forall2 (measured files dir) ps es.

Lemma measured_nth dir ps es : measured_all dir ps es -> length ps = length es /\
  forall i p e, nth_error ps i = Some p -> nth_error es i = Some e -> measured files dir p e.
Proof.
  induction 1 as [|p e ps es H _ [L IH]]; [split; [reflexivity|intros [|i]; discriminate]|]. split; [cbn; congruence|].
  intros [|i] p' e' Hp He; [injection Hp as <-; injection He as <-; exact H|exact (IH i p' e' Hp He)].
Qed.

Lemma measured_shapes dir ps es rest : measured_all dir ps es ->
  (forall pr rp mp, In pr rest -> BatchProps.files dir pr rp mp -> exists x, disk rp = Err x \/ disk mp = Err x) ->
  equal_shapes disk dir (map as_pair ps ++ rest).
Proof.
  intros M R pr rp mp ir im Hin Hf Dr Dm. apply in_app_or in Hin as [Hin|Hin].
  - apply in_map_iff in Hin as (p & <- & Hp). destruct Hf as (rn & mn & A & B & -> & ->). cbn in A, B. injection A as <-. injection B as <-.
    apply In_nth_error in Hp as (i & Hi). destruct (measured_nth _ _ _ M) as [L G].
    destruct (nth_error es i) as [e|] eqn:Ee; [|apply nth_error_None in Ee; assert (i < length ps) by (apply nth_error_Some; congruence); lia].
    destruct (measured_read _ _ _ (G i p e Hi Ee)) as (ir' & im' & Er & Em & _ & S & _). congruence.
  - destruct (R pr rp mp Hin Hf) as (x & [E|E]); congruence.
Qed.

Lemma calculate_measured kw order dir ps es h dr : no_options kw -> measured_all dir ps es -> two h dr ->
  outcome (calculate files other special ident ub unspec resize others load cnr_of snr_of qm_of kw order dir None None ms2 (map as_pair ps) h)
  = Ok (numbered (map (scores dr) es)).
Proof.
  intros K M T. unfold calculate. rewrite C53_single.
  - assert (E : mapM (single obj_kind m_name score_fr score_nr to_float disk ident ub resize kw order dir None ms2 h) (map as_pair ps) = Ok (map (scores dr) es)).
    { induction M as [|p e ps es H _ IH]; [reflexivity|]. cbn [map mapM]. rewrite single_alone by (eapply history; exact T).
      rewrite (alone_measured kw order dir p e h dr K H T). cbn [bind]. rewrite IH. reflexivity. }
    rewrite E. reflexivity.
  - eapply history. exact T.
  - rewrite <- (app_nil_r (map as_pair ps)). eapply measured_shapes; [exact M|]. intros pr rp mp [].
Qed.

Lemma calculate_missing kw order dir ps es p rest h dr : no_options kw -> measured_all dir ps es -> two h dr ->
  disk (join dir (fst p)) = Err FileNotFoundError ->
  exists h', calculate files other special ident ub unspec resize others load cnr_of snr_of qm_of kw order dir None None ms2 (map as_pair ps ++ as_pair p :: rest) h
  = (Err FileNotFoundError, numbered (map (scores dr) es), h').
Proof.
  intros K M T E. unfold calculate, batch_calculate.
  destruct (batch_alone obj_kind m_name score_fr score_nr to_float disk ident ub resize kw order dir None None ms2 h (map as_pair ps ++ [as_pair p])) as (h' & H).
  - eapply history. exact T.
  - apply roi_global.
  - apply equal_shapes_size. eapply measured_shapes; [exact M|]. intros pr rp mp [<-|[]] (rn & mn & A & B & -> & ->).
    cbn in A, B. injection A as <-. injection B as <-. exists FileNotFoundError. left. exact E.
  - exists h'. unfold batch_calculate in H.
    replace (map as_pair ps ++ as_pair p :: rest) with ((map as_pair ps ++ [as_pair p]) ++ rest) by (rewrite <- app_assoc; reflexivity).
    apply loop_fail. rewrite H.
    destruct (measured_nth _ _ _ M) as [L G].
    rewrite (ploop_prefix _ (map as_pair ps) (as_pair p) (map (scores dr) es) FileNotFoundError 0 []).
    + reflexivity.
    + intros k [].
    + rewrite !map_length. symmetry. exact L.
    + intros i pr d Hp Hd. rewrite nth_error_map in Hp, Hd. destruct (nth_error ps i) as [q|] eqn:Eq; [|discriminate]. injection Hp as <-.
      destruct (nth_error es i) as [e|] eqn:Ee; [|discriminate]. injection Hd as <-. unfold roi_at, pair_roi.
      apply alone_measured; [exact K|eapply G; eassumption|exact T].
    + unfold alone, paths, as_pair. cbn [p_ref p_mod from_opt bind]. unfold load_in. destruct K as [Kn Kc]. rewrite Kc, Kn. unfold load_data. cbn [andb].
      rewrite E. reflexivity.
Qed.
End Files.

(** ** The table *)
Section Table.
Variable repr : ext -> text.

Definition table_row (dr : Z) (n : nat) (p : text * text) (e : R) : list text :=
  [list_ascii_of_string (show n); fst p; snd p; repr (Fin (sqrt e)); repr (psnr_of dr e)].
Definition table_head : list text := map lit ["pair_num"; "reference_image"; "modified_image"; "RMSE"; "PSNR"]%string.
Fixpoint table_rows (dr : Z) (n : nat) (ps : list (text * text)) (es : list R) : list (list text) :=
  match ps, es with
  | p :: ps', e :: es' => table_row dr n p e :: table_rows dr (S n) ps' es'
  | _, _ => []
  end.
Definition table (dr : Z) (ps : list (text * text)) (es : list R) : list (list text) := table_head :: table_rows dr 0 ps es.

Lemma table_rows_nth dr ps es n i p e : nth_error ps i = Some p -> nth_error es i = Some e ->
  nth_error (table_rows dr n ps es) i = Some (table_row dr (n + i) p e).
Proof.
  revert ps es n. induction i as [|i IH]; intros [|q ps] [|x es] n Hp He; try discriminate.
  - injection Hp as <-. injection He as <-. rewrite Nat.add_0_r. reflexivity.
  - cbn [table_rows nth_error] in *. rewrite (IH ps es (S n) Hp He). do 2 f_equal. lia.
Qed.

Lemma table_rows_in dr ps es n row : In row (table_rows dr n ps es) -> exists i p e, In p ps /\ row = table_row dr i p e.
Proof.
  revert es n. induction ps as [|q ps IH]; intros [|x es] n Hin; try contradiction. destruct Hin as [<-|Hin].
  - exists n, q, x. cbn. auto.
  - destruct (IH _ _ Hin) as (i & p & e & A & B). exists i, p, e. cbn. auto.
Qed.

Lemma export_cells dr all ps es : forall n pre, all = pre ++ ps -> length pre = n -> length ps = length es -> forall tail,
  exists rows, export_rows (map as_pair all ++ tail) (combine (map show (seq n (length es))) (map (scores dr) es)) = (rows, Ok tt) /\
    map (map (cell_text repr)) rows = table_rows dr n ps es.
Proof.
  revert es. induction ps as [|p ps IH]; intros [|e es] n pre Ha Hl L tail; try discriminate L; [exists []; split; reflexivity|].
  cbn [length seq map combine export_rows table_rows]. rewrite read_show. cbn [bind].
  assert (N : nth_error (map as_pair all ++ tail) n = Some (as_pair p)).
  { rewrite nth_error_app1, nth_error_map.
    - rewrite Ha, nth_error_app2, Hl, Nat.sub_diag by lia. reflexivity.
    - rewrite map_length, Ha, app_length. cbn [length]. lia. }
  rewrite N. cbn [from_opt].
  destruct (IH es (S n) (pre ++ [p])) with (tail := tail) as (rows & E & H).
  - rewrite <- app_assoc. exact Ha.
  - rewrite app_length. cbn. lia.
  - cbn in L. congruence.
  - rewrite E. eexists. split; [reflexivity|]. cbn [map]. rewrite H. reflexivity.
Qed.
End Table.
