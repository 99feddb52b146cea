(** C129: whole batch runs, from pairs file and images to results.csv. *)
From Coq Require Import Reals Lra Ascii.
From Verif Require Import Base NdArray LoadModel LoadProofs LoadTextProofs NormModel NormProofs PairModel PairProofs RealSums
  MetricModel MetricProofs NrModel BatchModel BatchProofs BatchLoopProofs BatchTraceProofs BatchProps ScriptModel
  SsimModel SsimProofs FileModel FileProofs FileProps CsvModel CsvProofs CsvProps RunModel RunProofs.

Definition short (t : text) : Prop := (Z.of_nat (length t) <= 131072)%Z.

Section Props.
Variable other : reader -> text -> res image.
Variable special : Z -> R.
Variable ident : identity.
Variable ub : R -> Z.
Variable unspec : ext.
Variable resize : norm_out -> list nat -> dtype -> Z -> res norm_out.
Variable dialects : text -> res dialect.
Variable others : metric -> dict pyval -> norm_out -> norm_out -> res returned.
Context {I : Type}.
Variable load : option pyval -> option pyval -> option pyval -> norm_out -> res I.
Variable cnr_of : I -> dict pyval -> res ext.
Variable snr_of : I -> dict pyval -> res snr_out.
Variable qm_of : I -> dict pyval -> res ext.
Variable repr : ext -> text.

Notation run_batch f := (run_batch f other special ident ub unspec resize dialects others load cnr_of snr_of qm_of repr).
Notation calculate f := (calculate f other special ident ub unspec resize others load cnr_of snr_of qm_of).

Definition metrics2 : list (option nat) := [Some 0; Some 1].
Definition params2 : list (option (dict pyval)) := [Some []; Some []].

Lemma show_text n : length (list_ascii_of_string (show n)) = String.length (show n).
Proof. generalize (show n). intros s. induction s as [|c s IH]; [reflexivity|]. cbn. rewrite IH. reflexivity. Qed.

Lemma table_short dr ps es row f : (forall x, short (repr x)) ->
  (forall p, In p ps -> short (fst p) /\ short (snd p)) -> (forall i, i < length ps -> (Z.of_nat (String.length (show i)) <= 131072)%Z) ->
  In row (table repr dr ps es) -> In f row -> short f.
Proof.
  intros Hr Hp Hn [<-|Hin] Hf.
  - cbn in Hf. unfold short. intuition (subst f; apply Z.leb_le; reflexivity).
  - assert (G : forall n ps es, (forall p, In p ps -> short (fst p) /\ short (snd p)) ->
      (forall i, i < length ps -> (Z.of_nat (String.length (show (n + i))) <= 131072)%Z) -> In row (table_rows repr dr n ps es) -> short f).
    { clear - Hr Hf. intros n ps. revert n. induction ps as [|p ps IH]; intros n [|e es] Hp Hn Hin; try contradiction. destruct Hin as [<-|Hin].
      - cbn in Hf. destruct (Hp p (or_introl eq_refl)). destruct Hf as [<-|[<-|[<-|[<-|[<-|[]]]]]]; try assumption; try apply Hr.
        unfold short. rewrite show_text. rewrite <- (Nat.add_0_r n). apply Hn. cbn. lia.
      - apply (IH (S n) es); [intros q Hq; apply Hp; right; exact Hq| |exact Hin]. intros i Hi. replace (S n + i) with (n + S i) by lia. apply Hn. cbn. lia. }
    exact (G 0 ps es Hp Hn Hin).
Qed.

Lemma export_table files dr ps es tail out_dir out_name : length ps = length es -> es <> [] -> snd (splitext out_name) = lit ".csv" ->
  let bytes := bytes_of_chars (write_rows (table repr dr ps es)) in
  export files repr (map as_pair ps ++ tail) (numbered (map (scores dr) es)) out_dir out_name
  = (fun p => if text_eqb p (join out_dir out_name) then Some bytes else files p, Ok tt).
Proof.
  intros L Hne He bytes. unfold export, batch_export. rewrite He. rewrite (proj2 (text_eqb_eq _ _) eq_refl). cbn [negb].
  destruct (export_cells repr dr ps ps es 0 [] eq_refl eq_refl L tail) as (rows & E & H).
  unfold numbered. rewrite map_length. destruct es as [|e es]; [contradiction|].
  assert (G : dget (combine (map show (seq 0 (length (e :: es)))) (map (scores dr) (e :: es))) (show 0) = Some (scores dr e)) by reflexivity.
  rewrite G. rewrite E. cbn [fst snd]. unfold bytes, table. rewrite <- H. reflexivity.
Qed.

Lemma init_pairs files path ps : files path = Some (bytes_of_chars (pairs_file (header :: ps))) ->
  (forall p, In p ps -> short (fst p) /\ short (snd p)) -> (forall p, In p ps -> ~ In QUOTE (fst p) /\ ~ In QUOTE (snd p)) ->
  read_pairs_at dialects files path = Ok (map as_pair ps).
Proof.
  intros F L Q. unfold read_pairs_at, open_file. rewrite F. cbn [from_opt bind]. rewrite chars_bytes. apply (proj2 (C115_pairs dialects ps L) Q).
Qed.

Lemma run_measured files kw order dir path ps es h dr out_dir out_name :
  read_pairs_at dialects files path = Ok (map as_pair ps) ->
  no_options kw -> measured_all files dir ps es -> two h dr -> ps <> [] -> snd (splitext out_name) = lit ".csv" ->
  run_batch files metrics2 params2 path dir None kw order None out_dir out_name h
  = (fun p => if text_eqb p (join out_dir out_name) then Some (bytes_of_chars (write_rows (table repr dr ps es))) else files p, Ok tt).
Proof.
  intros F K M T Hne He. unfold RunModel.run_batch, batch_init, multi_init. cbn [metrics2 params2 length Nat.eqb negb mapM from_opt bind combine].
  rewrite F. cbn [bind]. change [(0, []); (1, [])] with ms2.
  pose proof (calculate_measured files other special ident ub unspec resize others load cnr_of snr_of qm_of kw order dir ps es h dr K M T) as C.
  destruct (RunModel.calculate _ _ _ _ _ _ _ _ _ _ _ _ _ _ _ _ _ _ _ _) as [[r results] h']. unfold outcome in C. cbn [fst snd] in C.
  destruct r as [[]|x]; [|discriminate C]. cbn [bind] in C. injection C as ->.
  destruct (measured_nth _ _ _ _ M) as [L _].
  rewrite <- (app_nil_r (map as_pair ps)). apply export_table; try assumption.
  intros ->. destruct ps; [contradiction|discriminate L].
Qed.

(** The whole run: pairs.csv as written by write_to_csv.py, image files of any types and sizes, any options of loading
    except normalisation and chromatic. The table in the new file, read by csv.reader, has one row per pair with the
    scores computed from the words of the two files; no other file changes. *)
Theorem C129_table files kw order dir path ps es h dr out_dir out_name :
  files path = Some (bytes_of_chars (pairs_file (header :: ps))) ->
  (forall p, In p ps -> short (fst p) /\ short (snd p)) -> (forall p, In p ps -> ~ In QUOTE (fst p) /\ ~ In QUOTE (snd p)) ->
  (forall x, short (repr x)) -> (forall i, i < length ps -> (Z.of_nat (String.length (show i)) <= 131072)%Z) ->
  k_norm kw = false -> k_chromatic kw = false -> Forall2 (measured files dir) ps es -> two h dr ->
  ps <> [] -> snd (splitext out_name) = lit ".csv" ->
  exists files' bytes head rows,
    run_batch files metrics2 params2 path dir None kw order None out_dir out_name h = (files', Ok tt) /\
    files' (join out_dir out_name) = Some bytes /\ (forall p, p <> join out_dir out_name -> files' p = files p) /\
    read_rows excel (chars_of bytes) = (head :: rows, None) /\
    head = map lit ["pair_num"; "reference_image"; "modified_image"; "RMSE"; "PSNR"]%string /\ length rows = length ps /\
    forall i p e, nth_error ps i = Some p -> nth_error es i = Some e ->
      nth_error rows i = Some [list_ascii_of_string (show i); fst p; snd p; repr (Fin (sqrt e)); repr (psnr_of dr e)].
Proof.
  intros F L Q Hr Hn Kn Kc M T Hne He.
  rewrite (run_measured files kw order dir path ps es h dr out_dir out_name (init_pairs _ _ _ F L Q) (conj Kn Kc) M T Hne He).
  eexists _, _, _, _. split; [reflexivity|]. split; [cbv beta; rewrite (proj2 (text_eqb_eq _ _) eq_refl); reflexivity|]. split.
  { intros p Np. cbv beta. destruct (text_eqb p _) eqn:E; [apply text_eqb_eq in E; contradiction|reflexivity]. }
  rewrite chars_bytes, C114_round_trip.
  - split; [reflexivity|]. split; [reflexivity|]. destruct (measured_nth _ _ _ _ M) as [Le _]. split.
    + clear - Le. generalize 0 as n. revert es Le. induction ps as [|p ps IH]; intros [|e es] Le n; try discriminate Le; [reflexivity|].
      cbn [table_rows length]. rewrite IH; [reflexivity|cbn in Le; congruence].
    + intros i p e Hp Hes. apply (table_rows_nth repr dr ps es 0 i p e Hp Hes).
  - intros row f Hin Hf. exact (table_short dr ps es row f Hr L Hn Hin Hf).
Qed.

(** The results file is itself a pairs file for the same pairs ... *)
Theorem C129_results_are_pairs files path dr ps es :
  files path = Some (bytes_of_chars (write_rows (table repr dr ps es))) -> length ps = length es ->
  (forall p, In p ps -> short (fst p) /\ short (snd p)) -> (forall p, In p ps -> ~ In QUOTE (fst p) /\ ~ In QUOTE (snd p)) ->
  (forall x, short (repr x) /\ ~ In QUOTE (repr x)) -> (forall i, i < length ps -> (Z.of_nat (String.length (show i)) <= 131072)%Z) ->
  read_pairs_at dialects files path = Ok (map (fun p => Pair (Some (fst p)) (Some (snd p))) ps).
Proof.
  intros F Le L Q Hr Hn. unfold read_pairs_at, open_file. rewrite F. cbn [from_opt bind]. rewrite chars_bytes.
  unfold read_pairs_file.
  assert (S : sniff dialects (first_line (write_rows (table repr dr ps es))) = Ok sniffed) by reflexivity.
  rewrite S. cbn [bind]. rewrite <- (app_nil_r (write_rows _)). rewrite reads_table.
  - cbn [tokens run fresh p_field p_state fst snd]. rewrite app_nil_r. unfold table. cbv iota beta.
    set (names := map string_of_list_ascii table_head). vm_compute in names. subst names. unfold read_pairs.
    cbn [has_field existsb String.eqb Ascii.eqb Bool.eqb orb negb]. cbn [bind]. f_equal.
    clear - Le. generalize 0 as n. revert es Le. induction ps as [|p ps IH]; intros [|e es] Le n; try discriminate Le; [reflexivity|].
    cbn [table_rows filter table_row map]. rewrite IH; [reflexivity|cbn in Le; congruence].
  - exact (doublequote_off_sane false).
  - reflexivity.
  - reflexivity.
  - intros row f Hin Hf. split; [|exact (table_short dr ps es row f (fun x => proj1 (Hr x)) L Hn Hin Hf)]. right.
    destruct Hin as [<-|Hin].
    + cbn in Hf. intros J. apply any_of_In in J. destruct Hf as [<-|[<-|[<-|[<-|[<-|[]]]]]]; vm_compute in J; discriminate.
    + apply table_rows_in in Hin as (i & p & e & Hp & ->). cbn in Hf. destruct (Q p Hp).
      destruct Hf as [<-|[<-|[<-|[<-|[<-|[]]]]]]; try assumption; try apply Hr.
      clear. unfold show. intros J. set (u := Nat.to_uint i) in *. clearbody u. induction u; cbn in J; try (destruct J as [J|J]; [discriminate J|]); try exact (IHu J); exact J.
Qed.

(** ... so that a second run with results.csv as its pairs file writes the same results.csv. *)
Theorem C129_again files files' kw order dir path ps es h dr out_dir out_name :
  read_pairs_at dialects files path = Ok (map (fun p => Pair (Some (fst p)) (Some (snd p))) ps) ->
  (forall p, In p ps -> short (fst p) /\ short (snd p)) -> (forall p, In p ps -> ~ In QUOTE (fst p) /\ ~ In QUOTE (snd p)) ->
  (forall x, short (repr x) /\ ~ In QUOTE (repr x)) -> (forall i, i < length ps -> (Z.of_nat (String.length (show i)) <= 131072)%Z) ->
  k_norm kw = false -> k_chromatic kw = false -> Forall2 (measured files dir) ps es -> two h dr ->
  ps <> [] -> snd (splitext out_name) = lit ".csv" ->
  run_batch files metrics2 params2 path dir None kw order None out_dir out_name h = (files', Ok tt) ->
  Forall2 (measured files' dir) ps es ->
  exists files'', run_batch files' metrics2 params2 (join out_dir out_name) dir None kw order None out_dir out_name h = (files'', Ok tt) /\
    forall p, files'' p = files' p.
Proof.
  intros F L Q Hr Hn Kn Kc M T Hne He R M'. rewrite (run_measured files kw order dir path ps es h dr out_dir out_name F (conj Kn Kc) M T Hne He) in R.
  apply (f_equal fst) in R. cbn [fst] in R. subst files'. set (files' := fun p => if text_eqb p (join out_dir out_name) then _ else _) in *.
  destruct (measured_nth _ _ _ _ M) as [Le _].
  assert (F' : files' (join out_dir out_name) = Some (bytes_of_chars (write_rows (table repr dr ps es)))).
  { unfold files'. rewrite (proj2 (text_eqb_eq _ _) eq_refl). reflexivity. }
  pose proof (C129_results_are_pairs files' _ dr ps es F' Le L Q Hr Hn) as P.
  rewrite (run_measured files' kw order dir _ ps es h dr out_dir out_name P (conj Kn Kc) M' T Hne He).
  eexists. split; [reflexivity|]. intros p. unfold files'. destruct (text_eqb p (join out_dir out_name)); reflexivity.
Qed.

(** A missing image stops the run, but the pairs before it are kept and exported without any sign of the others. *)
Theorem C129_truncated files kw order dir ps es p rest h dr out_dir out_name :
  k_norm kw = false -> k_chromatic kw = false -> Forall2 (measured files dir) ps es -> two h dr ->
  disk files other special (join dir (fst p)) = Err FileNotFoundError ->
  ps <> [] -> snd (splitext out_name) = lit ".csv" ->
  let pairs := map (fun q => Pair (Some (fst q)) (Some (snd q))) (ps ++ p :: rest) in
  exists results h', calculate files kw order dir None None [(0, []); (1, [])] pairs h = (Err FileNotFoundError, results, h') /\
  exists files', export files repr pairs results out_dir out_name = (files', Ok tt) /\
    files' (join out_dir out_name) = Some (bytes_of_chars (write_rows (table repr dr ps es))).
Proof.
  intros Kn Kc M T E Hne He pairs.
  assert (Ep : pairs = map as_pair ps ++ as_pair p :: map as_pair rest) by (unfold pairs; rewrite map_app; reflexivity).
  destruct (calculate_missing files other special ident ub unspec resize others load cnr_of snr_of qm_of kw order dir ps es p
    (map as_pair rest) h dr (conj Kn Kc) M T E) as (h' & C).
  exists (numbered (map (scores dr) es)), h'. split; [rewrite Ep; exact C|].
  destruct (measured_nth _ _ _ _ M) as [Le _].
  rewrite Ep, export_table; try assumption.
  - eexists. split; [reflexivity|]. cbv beta. rewrite (proj2 (text_eqb_eq _ _) eq_refl). reflexivity.
  - intros ->. destruct ps; [contradiction|discriminate Le].
Qed.

(** In one go nothing is written then. *)
Theorem C129_stopped files kw order dir path ps es p rest h dr out_dir out_name :
  files path = Some (bytes_of_chars (pairs_file (header :: ps ++ p :: rest))) ->
  (forall q, In q (ps ++ p :: rest) -> short (fst q) /\ short (snd q)) ->
  (forall q, In q (ps ++ p :: rest) -> ~ In QUOTE (fst q) /\ ~ In QUOTE (snd q)) ->
  k_norm kw = false -> k_chromatic kw = false -> Forall2 (measured files dir) ps es -> two h dr ->
  disk files other special (join dir (fst p)) = Err FileNotFoundError ->
  run_batch files metrics2 params2 path dir None kw order None out_dir out_name h = (files, Err FileNotFoundError).
Proof.
  intros F L Q Kn Kc M T E. unfold RunModel.run_batch, batch_init, multi_init. cbn [metrics2 params2 length Nat.eqb negb mapM from_opt bind combine].
  rewrite (init_pairs files path (ps ++ p :: rest) F L Q). cbn [bind]. change [(0, []); (1, [])] with ms2.
  destruct (calculate_missing files other special ident ub unspec resize others load cnr_of snr_of qm_of kw order dir ps es p
    (map as_pair rest) h dr (conj Kn Kc) M T E) as (h' & C).
  rewrite map_app. cbn [map]. rewrite C. reflexivity.
Qed.

(** Without any pair the old results are destroyed and KeyError is raised. *)
Theorem C129_no_pairs files kw order dir path h out_dir out_name :
  files path = Some (bytes_of_chars (pairs_file [header])) -> snd (splitext out_name) = lit ".csv" ->
  exists files', run_batch files metrics2 params2 path dir None kw order None out_dir out_name h = (files', Err KeyError) /\
    files' (join out_dir out_name) = Some [].
Proof.
  intros F He. unfold RunModel.run_batch, batch_init, multi_init. cbn [metrics2 params2 length Nat.eqb negb mapM from_opt bind combine].
  rewrite (init_pairs files path []); [|exact F|intros p []|intros p []]. cbn [bind map].
  unfold RunModel.calculate, batch_calculate. cbn [batch_loop]. unfold export. rewrite C57_before by exact He.
  eexists. split; [reflexivity|]. cbv beta. rewrite (proj2 (text_eqb_eq _ _) eq_refl). reflexivity.
Qed.

(** The pairs file is looked up as given: where [file_dir] points does not matter. *)
Theorem C129_pairs_path files metrics params ms path dir dir' rois kw order global out_dir out_name h :
  multi_init metrics params = Ok ms -> files path = None ->
  run_batch files metrics params path dir rois kw order global out_dir out_name h = (files, Err FileNotFoundError) /\
  run_batch files metrics params path dir' rois kw order global out_dir out_name h = (files, Err FileNotFoundError).
Proof.
  intros Em F. unfold RunModel.run_batch, batch_init, read_pairs_at, open_file. rewrite Em, F. split; reflexivity.
Qed.

(** Documented: [pairs_file] is relative to [file_dir]. *)
Theorem C129_relative_refuted : exists files dir path ps, ps <> [] /\
  files (join dir path) = Some (bytes_of_chars (pairs_file (header :: ps))) /\
  forall kw order out_dir out_name h, run_batch files metrics2 params2 path dir None kw order None out_dir out_name h = (files, Err FileNotFoundError).
Proof.
  exists (fun p => if text_eqb p (lit "scans/pairs.csv") then Some (bytes_of_chars (pairs_file [header; (lit "a.raw", lit "b.raw")])) else None).
  exists (lit "scans"), (lit "pairs.csv"), [(lit "a.raw", lit "b.raw")]. split; [discriminate|]. split; [reflexivity|].
  intros kw order out_dir out_name h. eapply (C129_pairs_path _ metrics2 params2 _ _ (lit "scans") (lit "scans")); reflexivity.
Qed.
End Props.
Print Assumptions C129_table.
Print Assumptions C129_results_are_pairs.
Print Assumptions C129_again.
Print Assumptions C129_truncated.
Print Assumptions C129_stopped.
Print Assumptions C129_no_pairs.
Print Assumptions C129_pairs_path.
Print Assumptions C129_relative_refuted.

(** ** Example *)

Lemma stored_more files files' p d nx ny nz b : (forall q x, files q = Some x -> files' q = Some x) ->
  stored files p d nx ny nz b -> stored files' p d nx ny nz b.
Proof.
  intros H [dir name d' x y z b' H1 H2 H3 H4 H5 H6|dir name e es file n d' x y z b' H1 H2 H3 H4 H5 H6 H7 H8 H9 H10 H11 H12 H13].
  - apply stored_raw; auto.
  - apply (stored_mhd files' dir name e es file n); auto.
Qed.

Definition pairs_example : list (text * text) := [(lit "a_2x1x1_16bit.raw", lit "b.mhd"); (lit "b.mhd", lit "b.mhd")].
Definition machine2 (p : text) : option (list Z) :=
  if text_eqb p (lit "pairs.csv") then Some (bytes_of_chars (pairs_file (header :: pairs_example))) else machine p.

Lemma machine2_stored p d nx ny nz b : stored machine p d nx ny nz b -> stored machine2 p d nx ny nz b.
Proof.
  apply stored_more. intros q x. unfold machine2. destruct (text_eqb q (lit "pairs.csv")) eqn:E; [|auto].
  apply text_eqb_eq in E. subst q. discriminate.
Qed.

Lemma machine2_measured : Forall2 (measured machine2 (lit "scans")) pairs_example [(255 * 255 / 2)%R; 0%R].
Proof.
  constructor; [|constructor; [|constructor]].
  - exists (UInt 16), 2, 1, 1, [1; 0; 44; 1]%Z, [0; 1; 44; 1]%Z, (fun i : nat => match i with 0 => 1 | _ => 300 end%R), (fun i : nat => match i with 0 => 256 | _ => 300 end%R).
    split; [apply machine2_stored, machine_raw|]. split; [apply machine2_stored, machine_mhd|]. cbv zeta. repeat split; try discriminate.
    + intros [|[|i]] Hi; try reflexivity. cbn in Hi. lia.
    + intros [|[|i]] Hi; try reflexivity. cbn in Hi. lia.
    + cbn. lia.
    + unfold Sum. cbn. lra.
  - exists (UInt 16), 2, 1, 1, [0; 1; 44; 1]%Z, [0; 1; 44; 1]%Z, (fun i : nat => match i with 0 => 256 | _ => 300 end%R), (fun i : nat => match i with 0 => 256 | _ => 300 end%R).
    split; [apply machine2_stored, machine_mhd|]. split; [apply machine2_stored, machine_mhd|]. cbv zeta. repeat split; try discriminate.
    + intros [|[|i]] Hi; try reflexivity. cbn in Hi. lia.
    + intros [|[|i]] Hi; try reflexivity. cbn in Hi. lia.
    + cbn. lia.
    + unfold Sum. cbn. lra.
Qed.

Definition store2 (i : nat) : metric :=
  match i with
  | 0 => Metric CRMSE [("data_range", PNone); ("normalize", PBool false); ("chromatic", PBool false); ("roi", PNone)]%string SNone (Some "RMSE"%string)
  | _ => Metric CPSNR [("data_range", PInt 255); ("normalize", PBool false); ("chromatic", PBool false); ("roi", PNone)]%string SNone (Some "PSNR"%string)
  end.

Example C129_example other special ident ub unspec resize dialects others (I : Type) load cnr_of snr_of qm_of :
  construct CRMSE PNone (PBool false) [] = Ok (store2 0) /\ construct CPSNR (PInt 255) (PBool false) [] = Ok (store2 1) /\
  let repr x := match x with PInf => lit "inf" | _ => lit "1.5" end in
  exists files' bytes,
    @run_batch machine2 other special ident ub unspec resize dialects others I load cnr_of snr_of qm_of repr
      metrics2 params2 (lit "pairs.csv") (lit "scans") None (Kw None false false) 1 None (lit "out") (lit "results.csv") store2 = (files', Ok tt) /\
    files' (lit "out/results.csv") = Some bytes /\
    let nl := String CR (String LF EmptyString) in
    string_of_list_ascii (chars_of bytes) =
      ("pair_num,reference_image,modified_image,RMSE,PSNR" ++ nl ++ "0,a_2x1x1_16bit.raw,b.mhd,1.5,1.5" ++ nl ++ "1,b.mhd,b.mhd,1.5,inf" ++ nl)%string.
Proof.
  split; [reflexivity|]. split; [reflexivity|]. intros repr.
  assert (P : read_pairs_at dialects machine2 (lit "pairs.csv") = Ok (map as_pair pairs_example)).
  { apply init_pairs; [reflexivity| |].
    - intros p [<-|[<-|[]]]; split; apply Z.leb_le; vm_compute; reflexivity.
    - intros p [<-|[<-|[]]]; split; intros J; apply any_of_In in J; vm_compute in J; discriminate. }
  rewrite (run_measured other special ident ub unspec resize dialects others load cnr_of snr_of qm_of repr machine2 (Kw None false false) 1
    (lit "scans") (lit "pairs.csv") pairs_example [(255 * 255 / 2)%R; 0%R] store2 255 (lit "out") (lit "results.csv") P).
  - do 2 eexists. split; [reflexivity|]. split; [reflexivity|]. cbv zeta. rewrite chars_bytes.
    assert (E : psnr_of 255 0 = PInf) by (unfold psnr_of; destruct (Req_EM_T 0 0); [reflexivity|contradiction]).
    assert (E' : exists x, psnr_of 255 (255 * 255 / 2) = Fin x).
    { unfold psnr_of. destruct (Req_EM_T (255 * 255 / 2) 0); [exfalso; lra|eexists; reflexivity]. }
    destruct E' as (x & E'). unfold table, pairs_example. cbn [table_rows]. unfold table_row. rewrite E, E'. vm_compute. reflexivity.
  - split; reflexivity.
  - exact machine2_measured.
  - repeat split; discriminate.
  - discriminate.
  - reflexivity.
Qed.
