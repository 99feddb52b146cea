(** The csv files: properties C114-C116. *)
From Coq Require Import Reals.
From Verif Require Import Base NdArray LoadModel LoadProofs NormModel PairModel BatchModel ScriptModel ScriptProps CsvModel CsvProofs.
Local Open Scope nat_scope.

(** ** C114: exported tables *)

Lemma excel_sane : sane excel.
Proof. repeat split; discriminate. Qed.

Lemma doublequote_off_sane b : sane {| d_delim := COMMA; d_quote := QUOTE; d_double := false; d_skip := b |}.
Proof. repeat split; discriminate. Qed.

Lemma any_of_In l (c : ascii) : any_of l c = true <-> In c l.
Proof.
  unfold any_of. rewrite existsb_exists. split.
  - intros [x [A B]]. apply Ascii.eqb_eq in B as <-. exact A.
  - intros H. exists c. split; [exact H|apply Ascii.eqb_refl].
Qed.

(** How a row is written: its fields, separated *)
Definition encoded (fs : list text) : list text := match fs with [[]] => [quoted []] | _ => map write_field fs end.

Lemma write_fields_sep fs : write_fields fs = sep_by COMMA (map write_field fs).
Proof.
  induction fs as [|f fs IH]; [reflexivity|]. destruct fs as [|f' fs]; [reflexivity|].
  change (write_fields (f :: f' :: fs)) with (write_field f ++ COMMA :: write_fields (f' :: fs)). rewrite IH. reflexivity.
Qed.

Lemma write_row_sep fs : write_row fs = sep_by COMMA (encoded fs) ++ [CR; LF].
Proof.
  unfold write_row, encoded. destruct fs as [|[|c f] [|f' fs]]; try reflexivity; rewrite write_fields_sep; reflexivity.
Qed.

Lemma write_rows_sep rows : write_rows rows = flat_map (fun es => sep_by COMMA es ++ [CR; LF]) (map encoded rows).
Proof. unfold write_rows. induction rows as [|r rows IH]; [reflexivity|]. cbn [flat_map map]. rewrite write_row_sep, IH. reflexivity. Qed.

Lemma reads_field d f : sane d -> d_delim d = COMMA -> d_skip d = false -> (d_double d = true \/ ~ In QUOTE f) -> fits f ->
  reads d (write_field f) f.
Proof.
  intros S C K D F. unfold write_field. destruct (existsb needs_quotes f) eqn:E.
  - apply reads_quoted; assumption.
  - assert (N : forall c, In c f -> ~ In c [COMMA; QUOTE; CR; LF]).
    { intros c I J. assert (existsb needs_quotes f = true) by (apply existsb_exists; exists c; split; [exact I|apply any_of_In; exact J]). congruence. }
    apply reads_bare; [exact S| | |congruence|exact F].
    + apply Forall_forall. intros c I. specialize (N c I). unfold bare. rewrite C. cbn [In] in N. repeat split; intros ->; tauto.
    + destruct f as [|c f]; [discriminate|]. cbn [hd]. intros ->. apply (N QUOTE); [left; reflexivity|cbn [In]; auto].
Qed.

Lemma reads_row d row : sane d -> d_delim d = COMMA -> d_skip d = false -> (forall f, In f row -> (d_double d = true \/ ~ In QUOTE f) /\ fits f) ->
  Forall2 (reads d) (encoded row) row /\ encoded row <> [[]].
Proof.
  intros S C K H. unfold encoded.
  assert (G : Forall2 (reads d) (map write_field row) row).
  { induction row as [|f row IH]; [constructor|]. cbn [map]. constructor; [|apply IH; intros g I; apply H; right; exact I].
    destruct (H f (or_introl eq_refl)). apply reads_field; assumption. }
  destruct row as [|[|c f] [|f' row]].
  - split; [constructor|discriminate].
  - split; [|discriminate]. constructor; [|constructor]. apply reads_quoted; [exact S|right; intros []|]. unfold fits. cbn [length]. unfold field_limit. lia.
  - split; [exact G|discriminate].
  - split; [exact G|]. cbn [map]. unfold write_field, quoted. destruct (existsb needs_quotes (c :: f)); discriminate.
  - split; [exact G|discriminate].
Qed.

Lemma reads_table d rows rest : sane d -> d_delim d = COMMA -> d_skip d = false ->
  (forall row f, In row rows -> In f row -> (d_double d = true \/ ~ In QUOTE f) /\ fits f) ->
  read_rows d (write_rows rows ++ rest) =
  (rows ++ fst (run d (tokens rest false) fresh), snd (run d (tokens rest false) fresh)).
Proof.
  intros S C K H. unfold read_rows. rewrite write_rows_sep, <- C.
  apply run_rows; [exact S|right; left; reflexivity| |discriminate|discriminate].
  induction rows as [|row rows IH]; [constructor|]. cbn [map]. constructor; [|apply IH; intros r f I; apply H; right; exact I].
  apply reads_row; try assumption. intros f I. apply (H row); [left; reflexivity|exact I].
Qed.

(** Every table of texts is read back as it was written: commas, quotation marks, line ends and empty texts, empty
    rows and rows of different lengths are kept. *)
Theorem C114_round_trip : forall rows,
  (forall row f, In row rows -> In f row -> (Z.of_nat (length f) <= 131072)%Z) ->
  read_rows excel (write_rows rows) = (rows, None).
Proof.
  intros rows H. rewrite <- (app_nil_r (write_rows rows)). rewrite reads_table.
  - cbn [tokens run fresh p_field p_state fst snd]. rewrite app_nil_r. reflexivity.
  - exact excel_sane.
  - reflexivity.
  - reflexivity.
  - intros row f I J. split; [left; reflexivity|]. exact (H row f I J).
Qed.
Print Assumptions C114_round_trip.

(** Different tables give different files. *)
Theorem C114_injective : forall a b,
  (forall row f, In row (a ++ b) -> In f row -> (Z.of_nat (length f) <= 131072)%Z) ->
  write_rows a = write_rows b -> a = b.
Proof.
  intros a b H E. assert (A := C114_round_trip a). assert (B := C114_round_trip b).
  rewrite E in A. rewrite B in A.
  - symmetry. assert (X : (b, @None exn) = (a, None)) by (apply A; intros row f I; apply H, in_or_app; left; exact I). congruence.
  - intros row f I. apply H, in_or_app. right. exact I.
Qed.
Print Assumptions C114_injective.

(** Longer texts are written but cannot be read. *)
Theorem C114_long_refuted : forall n, (131072 < Z.of_nat n)%Z ->
  read_rows excel (write_rows [[repeat "x"%char n]]) = ([], Some CsvError).
Proof.
  intros n H. set (k := Z.to_nat 131072). assert (Ek : Z.of_nat k = 131072%Z) by (unfold k; apply Z2Nat.id; lia). clearbody k.
  replace n with (1 + ((k - 1) + (1 + (n - k - 1)))) by lia.
  set (m := n - k - 1). clearbody m.
  assert (NE : forall j, existsb needs_quotes (repeat "x"%char j) = false) by (induction j as [|j IH]; [reflexivity|exact IH]).
  unfold write_rows, write_row. cbn [flat_map]. rewrite app_nil_r.
  change (repeat "x"%char (1 + (k - 1 + (1 + m)))) with ("x"%char :: repeat "x"%char (k - 1 + (1 + m))).
  cbv iota. cbn [write_fields]. unfold write_field.
  change ("x"%char :: repeat "x"%char (k - 1 + (1 + m))) with (repeat "x"%char (1 + (k - 1 + (1 + m)))) at 1. rewrite NE.
  rewrite repeat_app. cbn [app]. rewrite <- app_assoc. unfold read_rows.
  rewrite tokens_plain by discriminate.
  rewrite (run_step excel _ _ _ (Parser InField ["x"%char] [])); [|reflexivity|reflexivity].
  change (repeat "x"%char (1 + m)) with ("x"%char :: repeat "x"%char m). cbn [app]. rewrite run_bare; [| | |].
  - rewrite tokens_plain by discriminate. cbn [run step p_state]. change (newline "x") with false.
    change (Ascii.eqb "x" (d_delim excel)) with false. cbv iota. unfold add_char. cbn [p_field].
    replace (field_limit <=? Z.of_nat (length (["x"%char] ++ repeat "x"%char (k - 1))))%Z with true; [reflexivity|].
    symmetry. apply Z.leb_le. rewrite app_length, repeat_length. cbn [length]. unfold field_limit. lia.
  - apply Forall_forall. intros c I. apply repeat_spec in I as ->. repeat split; discriminate.
  - unfold fits. rewrite app_length, repeat_length. cbn [length]. unfold field_limit. lia.
  - cbn [repeat app]. discriminate.
Qed.
Print Assumptions C114_long_refuted.

Example C114_example :
  let q := String QUOTE EmptyString in let nl := String CR (String LF EmptyString) in
  map (string_of_list_ascii) [write_rows [[lit "Metric"; lit "Value"]; [lit "a,b"; lit ("say " ++ q ++ "hi" ++ q); []]; [[]]; []]] =
  [("Metric,Value" ++ nl ++ q ++ "a,b" ++ q ++ "," ++ q ++ "say " ++ q ++ q ++ "hi" ++ q ++ q ++ q ++ "," ++ nl ++ q ++ q ++ nl ++ nl)%string].
Proof. vm_compute. reflexivity. Qed.

(** ** C115: pairs.csv of write_to_csv.py in batch mode *)

(** The file, from its rows *)
Definition pairs_file (rows : list (text * text)) : text := write_rows (map (fun p => [fst p; snd p]) rows).
Definition header : text * text := (lit "reference_image", lit "modified_image").

Definition sniffed : dialect := {| d_delim := COMMA; d_quote := QUOTE; d_double := false; d_skip := false |}.

Lemma sniff_header other rows : sniff other (first_line (pairs_file (header :: rows))) = Ok sniffed.
Proof. unfold pairs_file. cbn [map]. unfold write_rows. cbn [flat_map]. reflexivity. Qed.

Definition as_pair (p : text * text) : pair := Pair (Some (fst p)) (Some (snd p)).

Definition row_pair (row : list text) : pair :=
  Pair (cell_of (dict_row ["reference_image"; "modified_image"]%string row) "reference_image")
       (cell_of (dict_row ["reference_image"; "modified_image"]%string row) "modified_image").
Definition filled (row : list text) : bool := match row with [] => false | _ => true end.

Lemma read_pairs_two rows : read_pairs ["reference_image"; "modified_image"]%string rows = Ok (map row_pair (filter filled rows)).
Proof. reflexivity. Qed.

Lemma row_pairs rows : map row_pair (filter filled (map (fun p => [fst p; snd p]) rows)) = map as_pair rows.
Proof. induction rows as [|[r m] rows IH]; [reflexivity|]. cbn [map filter filled]. rewrite IH. reflexivity. Qed.

Lemma read_pairs_rows rows : read_pairs ["reference_image"; "modified_image"]%string (map (fun p => [fst p; snd p]) rows) = Ok (map as_pair rows).
Proof. rewrite read_pairs_two, row_pairs. reflexivity. Qed.

Lemma double_no f : ~ In QUOTE f -> doubled f = f.
Proof.
  induction f as [|c f IH]; [reflexivity|]. intros H. cbn [doubled flat_map]. fold (doubled f).
  rewrite (eqb_no c QUOTE) by (intros ->; apply H; left; reflexivity). cbn [app]. rewrite IH; [reflexivity|]. intros I. apply H. right. exact I.
Qed.

Lemma doubled_In f (c : ascii) : In c (doubled f) <-> In c f.
Proof.
  unfold doubled. rewrite in_flat_map. split.
  - intros [x [I J]]. destruct (Ascii.eqb_spec x QUOTE) as [->|]; cbn [In] in J; intuition congruence.
  - intros I. exists c. split; [exact I|]. destruct (Ascii.eqb_spec c QUOTE) as [->|]; cbn [In]; auto.
Qed.

Lemma doubled_length f : length f <= length (doubled f).
Proof. induction f as [|c f IH]; [reflexivity|]. cbn [doubled flat_map]. fold (doubled f). destruct (Ascii.eqb c QUOTE); cbn [app length]; lia. Qed.

(** The first delimiter or line end of a text *)
Definition stop (c : ascii) : Prop := c = COMMA \/ c = CR \/ c = LF.
Lemma stop_dec c : {stop c} + {~ stop c}.
Proof. unfold stop. destruct (ascii_dec c COMMA); [left; auto|]. destruct (ascii_dec c CR); [left; auto|]. destruct (ascii_dec c LF); [left; auto|]. right. tauto. Qed.

Lemma first_stop (s : text) (c : ascii) t : stop c -> exists f x r, s ++ c :: t = f ++ x :: r /\ stop x /\ Forall (fun y => ~ stop y) f /\
  (f = s \/ exists u, s = f ++ x :: u).
Proof.
  intros C. induction s as [|y s IH].
  - exists [], c, t. repeat split; auto.
  - destruct (stop_dec y) as [Y|Y].
    + exists [], y, (s ++ c :: t). repeat split; auto. right. exists s. reflexivity.
    + destruct IH as [f [x [r [E [X [F U]]]]]]. exists (y :: f), x, r. cbn [app]. rewrite E. repeat split; auto.
      destruct U as [->|[u ->]]; [left; reflexivity|right; exists u; reflexivity].
Qed.

Lemma first_quote (f : text) : In QUOTE f -> exists a b, f = a ++ QUOTE :: b /\ ~ In QUOTE a.
Proof.
  induction f as [|c f IH]; [intros []|]. intros H. destruct (ascii_dec c QUOTE) as [->|N].
  - exists [], f. split; [reflexivity|intros []].
  - destruct H as [->|H]; [contradiction|]. destruct (IH H) as [a [b [-> A]]]. exists (c :: a), b. split; [reflexivity|]. intros [X|X]; [contradiction|auto].
Qed.

(** A name with a quotation mark is read as something else. *)
Lemma run_bad f S gs (c : ascii) rest st : ready S -> In QUOTE f -> fits f -> stop c ->
  let r := fst (run sniffed (tokens (write_field f ++ c :: rest) st) (Parser S [] gs)) in
  r = [] \/ exists g more rows, g <> f /\ r = (gs ++ g :: more) :: rows.
Proof.
  intros HS I F C. cbv zeta. assert (SN := doublequote_off_sane false : sane sniffed).
  destruct (first_quote f I) as [a [b [-> A]]].
  assert (RUN : run sniffed (tokens (write_field (a ++ QUOTE :: b) ++ c :: rest) st) (Parser S [] gs) =
                run sniffed (tokens ((QUOTE :: doubled b ++ [QUOTE]) ++ c :: rest) true) (Parser InField a gs)).
  { assert (E : existsb needs_quotes (a ++ QUOTE :: b) = true).
    { apply existsb_exists. exists QUOTE. split; [exact I|reflexivity]. }
    unfold write_field. rewrite E. unfold quoted, doubled. rewrite flat_map_app. fold (doubled a). cbn [flat_map]. fold (doubled b).
    change (Ascii.eqb QUOTE QUOTE) with true. cbv iota. cbn [app]. rewrite <- !app_assoc. cbn [app]. rewrite tokens_quote.
    rewrite (run_step sniffed _ _ _ (Parser InQuoted [] gs)); [| |reflexivity].
    2: { rewrite start_step; [reflexivity|exact HS|intros x [= <-]; split; discriminate|discriminate]. }
    rewrite (run_inquoted sniffed SN a [] gs (QUOTE :: doubled b ++ QUOTE :: c :: rest) true); [|right; exact A| |discriminate].
    - reflexivity.
    - unfold fits in *. rewrite app_length in F. cbn [app length] in *. lia. }
  rewrite RUN. clear RUN.
  destruct (first_stop (QUOTE :: doubled b ++ [QUOTE]) c rest C) as [g [x [r [E' [X [G U]]]]]].
  rewrite E'.
  destruct (run_prefix sniffed SN g a gs x r true) as [Y|[more [rows Y]]].
  - apply Forall_forall. intros y J. rewrite Forall_forall in G. specialize (G y J). unfold stop in G. repeat split; intros Z0; apply G; auto.
  - exact X.
  - left. exact Y.
  - right. exists (a ++ g), more, rows. split; [|exact Y].
    intros E2. apply app_inv_head in E2. destruct U as [U|[u U]].
    + rewrite U in E2. injection E2 as E2. apply (f_equal (@length ascii)) in E2. rewrite app_length in E2. cbn [length] in E2.
      assert (L := doubled_length b). lia.
    + destruct g as [|y g]; [cbn [app] in U; injection U as <- _; destruct X as [X|[X|X]]; discriminate|].
      injection E2 as -> E2. cbn [app] in U. injection U as U.
      assert (J : In x (doubled b)).
      { assert (J : In x (doubled b ++ [QUOTE])) by (rewrite U; apply in_or_app; right; left; reflexivity).
        apply in_app_or in J as [J|[J|[]]]; [exact J|]. subst x. destruct X as [X|[X|X]]; discriminate. }
      apply (proj1 (doubled_In b x)) in J. rewrite <- E2 in J. rewrite Forall_forall in G. apply (G x); [right; exact J|exact X].
Qed.

Definition quiet (p : text * text) : Prop := ~ In QUOTE (fst p) /\ ~ In QUOTE (snd p).
Lemma quiet_dec p : {quiet p} + {~ quiet p}.
Proof.
  unfold quiet. destruct (in_dec ascii_dec QUOTE (fst p)); [right; tauto|]. destruct (in_dec ascii_dec QUOTE (snd p)); [right; tauto|left; tauto].
Qed.

Lemma first_bad (rows : list (text * text)) : Forall quiet rows \/ exists a p b, rows = a ++ p :: b /\ Forall quiet a /\ ~ quiet p.
Proof.
  induction rows as [|p rows IH]; [left; constructor|]. destruct (quiet_dec p) as [Q|Q].
  - destruct IH as [F|[a [x [b [-> [A X]]]]]]; [left; constructor; assumption|].
    right. exists (p :: a), x, b. repeat split; [constructor; assumption|exact X].
  - right. exists [], p, rows. repeat split; [constructor|exact Q].
Qed.

(** A written row whose name is damaged comes back different. *)
Lemma run_bad_row p rest : ~ quiet p -> fits (fst p) -> fits (snd p) ->
  let r := fst (run sniffed (tokens (write_row [fst p; snd p] ++ rest) false) fresh) in
  r = [] \/ exists row rows, r = row :: rows /\ firstn 2 row <> [fst p; snd p] /\ row <> [].
Proof.
  intros N F1 F2. cbv zeta. assert (SN := doublequote_off_sane false : sane sniffed).
  destruct p as [x y]. cbn [fst snd] in *. unfold quiet in N. cbn [fst snd] in N.
  assert (E : write_row [x; y] ++ rest = write_field x ++ COMMA :: (write_field y ++ CR :: LF :: rest)).
  { unfold write_row. destruct x; cbn [write_fields]; rewrite <- !app_assoc; cbn [app]; rewrite <- ?app_assoc; reflexivity. }
  rewrite E. clear E.
  destruct (in_dec ascii_dec QUOTE x) as [X|X].
  - destruct (run_bad x StartRecord [] COMMA (write_field y ++ CR :: LF :: rest) false (or_introl eq_refl) X F1 (or_introl eq_refl)) as [Y|[g [more [rows [G Y]]]]].
    + left. exact Y.
    + right. exists (g :: more), rows. split; [exact Y|]. split; [|discriminate]. cbn [firstn]. intros [= ? _]. contradiction.
  - destruct (in_dec ascii_dec QUOTE y) as [Y|Y]; [|tauto].
    assert (RX := reads_field sniffed x SN eq_refl eq_refl (or_intror X) F1 StartRecord [] (COMMA :: write_field y ++ CR :: LF :: rest) false (or_introl eq_refl) ltac:(discriminate)).
    destruct RX as [Q [RX HQ]]. unfold fresh. rewrite RX. rewrite tokens_plain by discriminate.
    rewrite (run_step sniffed _ _ _ (Parser StartField [] [x])); [| |reflexivity].
    2: { apply (end_delim sniffed SN Q x []). unfold ended. destruct HQ as [->|[->|[->|[-> [_ [_ ->]]]]]]; auto 8. }
    destruct (run_bad y StartField [x] CR (LF :: rest) true (or_intror eq_refl) Y F2 (or_intror (or_introl eq_refl))) as [Z0|[g [more [rows [G Z0]]]]].
    + left. exact Z0.
    + right. exists (x :: g :: more), rows. split; [exact Z0|]. split; [|discriminate]. cbn [firstn]. intros [= ?]. contradiction.
Qed.

(** Batch mode reads the pairs that were written exactly if no name contains a quotation mark: what the detection
    finds in the first line does not know that quotation marks were doubled. *)
Theorem C115_pairs : forall other rows,
  (forall p, In p rows -> (Z.of_nat (length (fst p)) <= 131072)%Z /\ (Z.of_nat (length (snd p)) <= 131072)%Z) ->
  (read_pairs_file other (pairs_file (header :: rows)) = Ok (map (fun p => Pair (Some (fst p)) (Some (snd p))) rows) <->
   forall p, In p rows -> ~ In QUOTE (fst p) /\ ~ In QUOTE (snd p)).
Proof.
  intros other rows L. unfold read_pairs_file. rewrite sniff_header. cbn [bind].
  assert (SN := doublequote_off_sane false : sane sniffed).
  assert (FH : fits (fst header) /\ fits (snd header)) by (split; apply Z.leb_le; vm_compute; reflexivity).
  assert (QH : quiet header).
  { split; intros H; apply any_of_In in H; vm_compute in H; discriminate. }
  assert (good : forall rs rest, Forall quiet rs -> (forall p, In p rs -> fits (fst p) /\ fits (snd p)) ->
    read_rows sniffed (pairs_file rs ++ rest) = (map (fun p => [fst p; snd p]) rs ++ fst (run sniffed (tokens rest false) fresh), snd (run sniffed (tokens rest false) fresh))).
  { intros rs rest Q F. unfold pairs_file. apply reads_table; [exact SN|reflexivity|reflexivity|].
    intros row f I J. apply in_map_iff in I as [p [<- I]]. rewrite Forall_forall in Q. destruct (Q p I), (F p I).
    cbn [In] in J. destruct J as [<-|[<-|[]]]; auto. }
  split.
  - intros E. destruct (first_bad rows) as [F|[a [p [b [-> [A N]]]]]]; [rewrite Forall_forall in F; exact F|exfalso].
    assert (FP : fits (fst p) /\ fits (snd p)) by (apply L, in_or_app; right; left; reflexivity).
    replace (pairs_file (header :: a ++ p :: b)) with (pairs_file (header :: a) ++ pairs_file (p :: b)) in E.
    2: { unfold pairs_file. rewrite app_comm_cons, map_app. unfold write_rows. rewrite flat_map_app. reflexivity. }
    rewrite good in E.
    2: { constructor; assumption. }
    2: { intros q [<-|I]; [exact FH|]. apply L, in_or_app. left. exact I. }
    cbn [map app] in E. unfold pairs_file in E. cbn [map] in E. unfold write_rows in E. cbn [flat_map] in E.
    change (string_of_list_ascii (fst header)) with "reference_image"%string in E. change (string_of_list_ascii (snd header)) with "modified_image"%string in E.
    fold (write_rows (map (fun p => [fst p; snd p]) b)) in E.
    assert (B := run_bad_row p (write_rows (map (fun p => [fst p; snd p]) b)) N (proj1 FP) (proj2 FP)). cbv zeta in B.
    set (r := run sniffed _ fresh) in *. clearbody r.
    rewrite read_pairs_two in E. cbn [bind] in E.
    destruct (snd r); [discriminate|]. injection E as E. rewrite filter_app, !map_app, row_pairs in E. apply app_inv_head in E.
    destruct B as [B|[row [rs [B [D NE]]]]]; rewrite B in E; [discriminate|].
    destruct row as [|x row]; [contradiction|]. cbn [filter filled map] in E. injection E as E1 E2 _.
    destruct row as [|y row]; [discriminate|]. injection E1 as ->. injection E2 as ->. apply D. reflexivity.
  - intros H. rewrite <- (app_nil_r (pairs_file _)), good.
    + cbn [tokens run fresh p_field p_state fst snd]. rewrite app_nil_r. cbn [map].
      change (string_of_list_ascii (fst header)) with "reference_image"%string. change (string_of_list_ascii (snd header)) with "modified_image"%string.
      rewrite read_pairs_rows. reflexivity.
    + constructor; [exact QH|]. apply Forall_forall. exact H.
    + intros p [<-|I]; [exact FH|]. apply L. exact I.
Qed.
Print Assumptions C115_pairs.

(** The pairs chosen by the script (C75) reach batch mode. *)
Theorem C115_script : forall (C : Type) (content : text -> option C) keep glob s dirm mods dirr refs path a existed old other,
  listed keep -> holds glob dirm mods -> holds glob dirr refs -> path <> [] -> a <> lit "copy" ->
  (forall n, In n (mods ++ refs) -> (Z.of_nat (length n) <= 131072)%Z) ->
  exists rows i, csv_main content glob existed old [s; dirm; dirr; path; a] = (Some rows, i, Ok tt) /\
  (read_pairs_file other (pairs_file rows) = Ok (map (fun p => Pair (Some (fst p)) (Some (snd p))) (filter keep (list_prod refs mods))) <->
   forall r m, In (r, m) (filter keep (list_prod refs mods)) -> ~ In QUOTE r /\ ~ In QUOTE m).
Proof.
  intros C content keep glob s dirm mods dirr refs path a existed old other K Hm Hr Hp Ha L.
  exists (header :: filter keep (list_prod refs mods)), (if existed then old else None). split; [apply (C75_rows content keep K); assumption|].
  rewrite C115_pairs.
  - split; [intros H r m I; exact (H (r, m) I)|intros H [r m] I; exact (H r m I)].
  - intros [r m] I. apply filter_In in I as [I _]. apply in_prod_iff in I as [A B]. cbn [fst snd]. split; apply L, in_or_app; auto.
Qed.
Print Assumptions C115_script.

Definition test_name : text := lit "001" ++ QUOTE :: lit ".mhd".
Example C115_example : forall other,
  let nl := String CR (String LF EmptyString) in
  string_of_list_ascii (pairs_file [header; (lit "001.mhd", lit "001_a,b.mhd")]) =
    ("reference_image,modified_image" ++ nl ++ "001.mhd," ++ String QUOTE "001_a,b.mhd" ++ String QUOTE nl)%string /\
  read_pairs_file other (pairs_file [header; (lit "001.mhd", lit "001_a,b.mhd")]) = Ok [Pair (Some (lit "001.mhd")) (Some (lit "001_a,b.mhd"))] /\
  read_pairs_file other (pairs_file [header; (test_name, lit "b")]) =
    Ok [Pair (Some (lit "001" ++ QUOTE :: lit ".mhd" ++ [QUOTE])) (Some (lit "b"))].
Proof. intros other. vm_compute. repeat split. Qed.

(** ** C116: files made by other programs *)

Definition delims : list ascii := [COMMA; TAB; SEMICOLON].
(** Rows of cells, separated by a character, every row followed by a line end *)
Definition plain_file (c : ascii) (eol : text) (rows : list (list text)) : text := flat_map (fun r => sep_by c r ++ eol) rows.
(** Without blanks in front *)
Fixpoint trimmed (f : text) : text := match f with c :: f' => if Ascii.eqb c SPACE then trimmed f' else f | [] => [] end.

Lemma sep_chars c (rows : list text) (x : ascii) : In x (sep_by c rows) -> x = c \/ exists f, In f rows /\ In x f.
Proof.
  induction rows as [|f rows IH]; [intros []|]. destruct rows as [|f' rows].
  - cbn [sep_by]. intros H. right. exists f. split; [left; reflexivity|exact H].
  - change (sep_by c (f :: f' :: rows)) with (f ++ c :: sep_by c (f' :: rows)). intros H. apply in_app_or in H as [H|[->|H]].
    + right. exists f. split; [left; reflexivity|exact H].
    + left. reflexivity.
    + destruct (IH H) as [->|[g [A B]]]; [left; reflexivity|right; exists g; split; [right; exact A|exact B]].
Qed.

Lemma first_line_app s eol rest : (forall c, In c s -> c <> CR /\ c <> LF) -> In eol eols -> (eol = [CR] -> hd COMMA rest <> LF) ->
  first_line (s ++ eol ++ rest) = s ++ eol.
Proof.
  intros H E R. induction s as [|c s IH].
  - cbn [app]. destruct E as [<-|[<-|[<-|[]]]]; try reflexivity. destruct rest as [|x rest]; [reflexivity|].
    specialize (R eq_refl). cbn [hd] in R. cbn [app first_line]. rewrite (eqb_no _ _ R). reflexivity.
  - destruct (H c (or_introl eq_refl)) as [A B]. cbn [app first_line]. rewrite (eqb_no _ _ A), (eqb_no _ _ B), IH; [reflexivity|].
    intros x I. apply H. right. exact I.
Qed.

Lemma count_app c s t : count c (s ++ t) = count c s + count c t.
Proof. unfold count. rewrite filter_app, app_length. reflexivity. Qed.
Lemma count_none c s : ~ In c s -> count c s = 0.
Proof.
  unfold count. induction s as [|x s IH]; [reflexivity|]. intros H. cbn [filter]. rewrite (eqb_no c x) by (intros ->; apply H; left; reflexivity).
  apply IH. intros I. apply H. right. exact I.
Qed.

Lemma count_spaced_none c s t : ~ In c s -> count_spaced c (s ++ t) = count_spaced c t.
Proof.
  induction s as [|x s IH]; [reflexivity|]. intros H. cbn [app].
  assert (N : x <> c) by (intros ->; apply H; left; reflexivity).
  rewrite <- IH by (intros I; apply H; right; exact I). cbn [count_spaced]. destruct (s ++ t) as [|y u]; [reflexivity|]. rewrite (eqb_no x c N). reflexivity.
Qed.

Definition blank (f : text) : bool := Ascii.eqb (hd COMMA f) SPACE.

(** Delimiters in the first line, and delimiters followed by a blank *)
Lemma counts c names eol : In c delims -> (forall n x, In n names -> In x n -> ~ In x delims) -> In eol eols -> names <> [] ->
  count c (sep_by c names ++ eol) = length (tl names) /\ count_spaced c (sep_by c names ++ eol) = length (filter blank (tl names)).
Proof.
  intros D H E NE.
  assert (Ce : ~ In c eol).
  { intros I. apply (eols_chars eol c E) in I. cbn [delims In] in D. destruct I as [->| ->]; intuition discriminate. }
  assert (Cs : c <> SPACE) by (intros ->; cbn [delims In] in D; intuition discriminate).
  induction names as [|n names IH]; [contradiction|].
  assert (N : ~ In c n) by (intros I; exact (H n c (or_introl eq_refl) I D)).
  destruct names as [|n' names].
  - cbn [sep_by tl length filter]. rewrite count_app, !count_none by assumption. rewrite count_spaced_none by assumption.
    split; [reflexivity|]. rewrite <- (app_nil_r eol), count_spaced_none by assumption. reflexivity.
  - change (sep_by c (n :: n' :: names)) with (n ++ c :: sep_by c (n' :: names)). rewrite <- app_assoc. cbn [app].
    destruct IH as [A B]; [intros m x I; apply H; right; exact I|discriminate|].
    rewrite count_app, (count_none c n), count_spaced_none by assumption. cbn [tl] in *.
    split.
    + unfold count in *. cbn [filter]. rewrite Ascii.eqb_refl. cbn [length]. rewrite A. reflexivity.
    + cbn [filter].
      assert (HB : (match sep_by c (n' :: names) ++ eol with y :: _ => Ascii.eqb y SPACE | [] => false end) = blank n').
      { unfold blank. destruct n' as [|y n'].
        - destruct names as [|n2 names]; cbn [sep_by app hd].
          + destruct E as [<-|[<-|[<-|[]]]]; reflexivity.
          + rewrite (eqb_no _ _ Cs). reflexivity.
        - destruct names as [|n2 names]; reflexivity. }
      destruct (sep_by c (n' :: names) ++ eol) as [|y u] eqn:EU.
      * rewrite <- HB. cbn [count_spaced] in *. exact B.
      * change (count_spaced c (c :: y :: u)) with ((if Ascii.eqb c c && Ascii.eqb y SPACE then 1 else 0) + count_spaced c (y :: u)).
        rewrite B, Ascii.eqb_refl, HB. cbn [andb]. destruct (blank n'); reflexivity.
Qed.

Lemma sniff_plain other c names eol : In c delims -> In eol eols -> 2 <= length names ->
  (forall n x, In n names -> In x n -> ~ In x [COMMA; TAB; SEMICOLON; QUOTE; APOSTROPHE; CR; LF]) ->
  sniff other (sep_by c names ++ eol) = Ok {| d_delim := c; d_quote := QUOTE; d_double := false; d_skip := forallb blank (tl names) |}.
Proof.
  intros D E L H.
  assert (H' : forall n x, In n names -> In x n -> ~ In x delims).
  { intros n x I J K. apply (H n x I J). cbn [delims In] in *. tauto. }
  assert (NE : names <> []) by (intros ->; cbn in L; lia).
  assert (X : forall x, In x (sep_by c names ++ eol) -> x = c \/ (exists n, In n names /\ In x n) \/ x = CR \/ x = LF).
  { intros x I. apply in_app_or in I as [I|I]; [|right; right; apply (eols_chars eol); assumption].
    apply sep_chars in I as [->|I]; auto. }
  unfold sniff. replace (existsb (any_of [QUOTE; APOSTROPHE]) (sep_by c names ++ eol)) with false.
  2: { symmetry. apply not_true_is_false. intros T. apply existsb_exists in T as [x [I J]]. apply any_of_In in J.
       destruct (X x I) as [->|[[n [A B]]|[->| ->]]]; [|apply (H n x A B)| |]; cbn [delims In] in *; intuition (try discriminate); subst; discriminate. }
  assert (A : any_of (sep_by c names ++ eol) c = true).
  { apply any_of_In. apply in_or_app. left. destruct names as [|n [|n' names]]; [cbn in L; lia|cbn in L; lia|].
    change (sep_by c (n :: n' :: names)) with (n ++ c :: sep_by c (n' :: names)). apply in_or_app. right. left. reflexivity. }
  assert (B : forall x, In x delims -> x <> c -> any_of (sep_by c names ++ eol) x = false).
  { intros x I N. apply not_true_is_false. intros T. apply any_of_In in T.
    destruct (X x T) as [->|[[n [U V]]|[->| ->]]]; [contradiction|exact (H' n x U V I)| |]; cbn [delims In] in I; intuition discriminate. }
  assert (F : filter (fun x => any_of (sep_by c names ++ eol) x) [COMMA; TAB; SEMICOLON] = [c]).
  { cbn [filter]. cbn [delims In] in D. destruct D as [<-|[<-|[<-|[]]]]; rewrite A, !B; try reflexivity; try discriminate; cbn [delims In]; auto. }
  rewrite F. do 2 f_equal. destruct (counts c names eol D H' E NE) as [-> ->].
  generalize (tl names). intros l. clear.
  destruct (forallb blank l) eqn:E.
  - apply Nat.eqb_eq. rewrite forallb_forall in E. f_equal. induction l as [|x l IH]; [reflexivity|]. cbn [filter]. rewrite (E x (or_introl eq_refl)).
    f_equal. apply IH. intros y I. apply E. right. exact I.
  - apply Nat.eqb_neq. intros Q.
    assert (G : forall k : list text, length (filter blank k) <= length k).
    { induction k as [|x k IH]; [reflexivity|]. cbn [filter]. destruct (blank x); cbn [length]; lia. }
    induction l as [|x l IH]; [discriminate|]. cbn [forallb filter length] in *. destruct (blank x).
    + apply IH; [exact E|]. cbn [length] in Q. lia.
    + assert (G' := G l). rewrite <- Q in G'. exact (Nat.nle_succ_diag_l _ G').
Qed.

Lemma plain_sane c b : In c delims -> sane {| d_delim := c; d_quote := QUOTE; d_double := false; d_skip := b |}.
Proof. intros [<-|[<-|[<-|[]]]]; repeat split; discriminate. Qed.

Lemma reads_trimmed d f : sane d -> d_skip d = true -> Forall (bare d) f -> hd COMMA (trimmed f) <> QUOTE -> fits f -> reads d f (trimmed f).
Proof.
  intros S K. induction f as [|c f IH]; intros B Q F.
  - apply reads_bare; try assumption. discriminate.
  - cbn [trimmed] in *. destruct (Ascii.eqb_spec c SPACE) as [->|N].
    + apply reads_space; [exact S|exact K|]. apply IH; [inversion B; assumption|exact Q|]. unfold fits in *. cbn [length] in F. lia.
    + apply reads_bare; try assumption. intros _. exact N.
Qed.

Definition clean (b : bool) (f : text) : text := if b then trimmed f else f.

Lemma plain_read other c eol names rows : let b := forallb blank (tl names) in
  In c delims -> In eol eols -> 2 <= length names ->
  (forall n x, In n names -> In x n -> ~ In x [COMMA; TAB; SEMICOLON; QUOTE; APOSTROPHE; CR; LF]) ->
  (forall n, In n names -> fits n) ->
  (forall row f, In row rows -> In f row -> Forall (fun x => x <> c /\ x <> CR /\ x <> LF) f /\ hd COMMA (clean b f) <> QUOTE /\ fits f) ->
  ~ In [[]] rows ->
  read_pairs_file other (plain_file c eol (names :: rows)) =
  read_pairs (map string_of_list_ascii (map (clean b) names)) (map (map (clean b)) rows).
Proof.
  intros b D E L H HF R NE.
  assert (CN : c <> CR /\ c <> LF) by (cbn [delims In] in D; destruct D as [<-|[<-|[<-|[]]]]; split; discriminate).
  assert (HR : eol = [CR] -> forall es, In es (names :: rows) -> hd COMMA (sep_by c es) <> LF).
  { intros _ es I J. assert (K : In LF (sep_by c es)).
    { destruct (sep_by c es) as [|x u]; [discriminate|]. cbn [hd] in J. left. exact J. }
    apply sep_chars in K as [K|[f [A B]]]; [destruct CN; congruence|]. destruct I as [<-|I].
    - apply (H f LF A B). cbn [In]. auto 8.
    - destruct (R es f I A) as [Q _]. rewrite Forall_forall in Q. destruct (Q LF B) as [_ [_ X]]. apply X. reflexivity. }
  unfold read_pairs_file, plain_file. cbn [flat_map]. rewrite <- app_assoc. rewrite first_line_app; [|..].
  - rewrite sniff_plain by assumption. cbn [bind]. fold b. rewrite app_assoc.
    set (d := {| d_delim := c; d_quote := QUOTE; d_double := false; d_skip := b |}).
    assert (S : sane d) by (apply plain_sane; exact D).
    assert (one : forall f, Forall (fun x => x <> c /\ x <> CR /\ x <> LF) f -> hd COMMA (clean b f) <> QUOTE -> fits f -> reads d f (clean b f)).
    { intros f A B F. unfold clean in *. destruct b eqn:EB.
      - apply reads_trimmed; try assumption. reflexivity.
      - apply reads_bare; try assumption. discriminate. }
    assert (all : forall l : list text, (forall f, In f l -> reads d f (clean b f)) -> Forall2 (reads d) l (map (clean b) l)).
    { induction l as [|f l IH]; intros G; [constructor|]. cbn [map]. constructor; [apply G; left; reflexivity|apply IH; intros g I; apply G; right; exact I]. }
    change ((sep_by c names ++ eol) ++ flat_map (fun r => sep_by c r ++ eol) rows) with (flat_map (fun es => sep_by (d_delim d) es ++ eol) (names :: rows)).
    rewrite <- (app_nil_r (flat_map _ (names :: rows))). unfold read_rows.
    rewrite (run_rows d S eol E (names :: rows) (map (map (clean b)) (names :: rows))).
    + cbn [tokens run fresh p_field p_state fst snd map app]. rewrite app_nil_r. destruct (read_pairs _ _); reflexivity.
    + cbn [map]. constructor.
      * split; [|intros ->; cbn [length] in L; lia]. apply all. intros n I. apply one; [| |apply HF; exact I].
        -- apply Forall_forall. intros x J. specialize (H n x I J). cbn [delims In] in *. repeat split; intros ->; intuition.
        -- intros J. assert (K : In QUOTE n).
           { assert (T : forall f : text, hd COMMA (trimmed f) = QUOTE -> In QUOTE f).
             { induction f as [|x f IH]; [discriminate|]. cbn [trimmed]. destruct (Ascii.eqb x SPACE); [intros X; right; apply IH; exact X|]. intros X. left. exact X. }
             unfold clean in J. destruct b; [apply T; exact J|]. destruct n as [|x n]; [discriminate|left; exact J]. }
           apply (H n QUOTE I K). cbn [In]. auto.
      * clear HR. induction rows as [|row rows IH]; [constructor|]. cbn [map]. constructor.
        -- split; [|intros ->; apply NE; left; reflexivity]. apply all. intros f I. destruct (R row f (or_introl eq_refl) I) as [A [B F]]. apply one; assumption.
        -- apply IH; [intros r f I; apply R; right; exact I|intros I; apply NE; right; exact I].
    + exact HR.
    + discriminate.
  - intros x I. apply sep_chars in I as [->|[n [A B]]]; [exact CN|]. specialize (H n x A B). cbn [In] in H. split; intros ->; apply H; auto 8.
  - exact E.
  - intros Ee. destruct rows as [|row rows]; [discriminate|]. cbn [flat_map].
    specialize (HR Ee row (or_intror (or_introl eq_refl))). subst eol. destruct (sep_by c row); [discriminate|exact HR].
Qed.

(** Files with commas, tabs or semicolons between the cells are read cell by cell, whatever the line ends are: the
    names of the columns are those of the first line and the rows those of the other lines. *)
Theorem C116_plain : forall other c eol (names : list text) (rows : list (list text)),
  In c [","; ascii_of_nat 9; ";"]%char -> In eol [[LF]; [CR; LF]; [CR]] -> 2 <= length names ->
  (forall n x, In n names -> In x n -> ~ In x [","; ascii_of_nat 9; ";"; ascii_of_nat 34; "'"; CR; LF]%char) ->
  (exists n, In n (tl names) /\ hd ","%char n <> " "%char) ->
  (forall row f, In row rows -> In f row -> Forall (fun x => x <> c /\ x <> CR /\ x <> LF) f /\ hd ","%char f <> QUOTE) ->
  (forall row f, In row (names :: rows) -> In f row -> (Z.of_nat (length f) <= 131072)%Z) -> ~ In [[]] rows ->
  read_pairs_file other (plain_file c eol (names :: rows)) = read_pairs (map string_of_list_ascii names) rows.
Proof.
  intros other c eol names rows D E L H [n0 [I0 N0]] R F NE.
  assert (B : forallb blank (tl names) = false).
  { apply not_true_is_false. intros T. rewrite forallb_forall in T. specialize (T n0 I0). unfold blank in T. apply Ascii.eqb_eq in T. contradiction. }
  assert (P := plain_read other c eol names rows D E L H). cbv zeta in P. rewrite B in P. cbn [clean] in P.
  rewrite map_id in P. rewrite (map_ext (map (clean false)) (fun r => r)) in P by (intros r; apply map_id). rewrite map_id in P. apply P.
  - intros n I. exact (F names n (or_introl eq_refl) I).
  - intros row f I J. destruct (R row f I J) as [X Y]. repeat split; [exact X|exact Y|exact (F row f (or_intror I) J)].
  - exact NE.
Qed.
Print Assumptions C116_plain.

(** If every name after a separator starts with a blank, blanks in front of cells are left out. *)
Theorem C116_blanks : forall other c eol (names : list text) (rows : list (list text)),
  In c [","; ascii_of_nat 9; ";"]%char -> In eol [[LF]; [CR; LF]; [CR]] -> 2 <= length names ->
  (forall n x, In n names -> In x n -> ~ In x [","; ascii_of_nat 9; ";"; ascii_of_nat 34; "'"; CR; LF]%char) ->
  (forall n, In n (tl names) -> hd ","%char n = " "%char) ->
  (forall row f, In row rows -> In f row -> Forall (fun x => x <> c /\ x <> CR /\ x <> LF) f /\ hd ","%char (trimmed f) <> QUOTE) ->
  (forall row f, In row (names :: rows) -> In f row -> (Z.of_nat (length f) <= 131072)%Z) -> ~ In [[]] rows ->
  read_pairs_file other (plain_file c eol (names :: rows)) =
  read_pairs (map string_of_list_ascii (map trimmed names)) (map (map trimmed) rows).
Proof.
  intros other c eol names rows D E L H A R F NE.
  assert (B : forallb blank (tl names) = true).
  { apply forallb_forall. intros n I. unfold blank. apply Ascii.eqb_eq. exact (A n I). }
  assert (P := plain_read other c eol names rows D E L H). cbv zeta in P. rewrite B in P. cbn [clean] in P. apply P.
  - intros n I. exact (F names n (or_introl eq_refl) I).
  - intros row f I J. destruct (R row f I J) as [X Y]. repeat split; [exact X|exact Y|exact (F row f (or_intror I) J)].
  - exact NE.
Qed.
Print Assumptions C116_blanks.

(** A file whose first line has no separator (one column, an empty file) raises the exception of the csv module, not
    the announced ValueError. *)
Theorem C116_one_column : forall other line rest,
  (forall x, In x line -> ~ In x [","; ascii_of_nat 9; ";"; ascii_of_nat 34; "'"; CR; LF]%char) ->
  read_pairs_file other line = Err CsvError /\ read_pairs_file other (line ++ LF :: rest) = Err CsvError.
Proof.
  intros other line rest H.
  assert (S : forall u, (u = [] \/ u = [LF]) -> sniff other (line ++ u) = Err CsvError).
  { intros u U. unfold sniff.
    assert (X : forall x, In x (line ++ u) -> ~ In x [COMMA; TAB; SEMICOLON; QUOTE; APOSTROPHE]).
    { intros x I J. apply in_app_or in I as [I|I].
      - apply (H x I). cbn [In] in *. tauto.
      - destruct U as [->| ->]; [destruct I|]. destruct I as [<-|[]]. cbn [In] in J. intuition discriminate. }
    replace (existsb (any_of [QUOTE; APOSTROPHE]) (line ++ u)) with false.
    2: { symmetry. apply not_true_is_false. intros T. apply existsb_exists in T as [x [I J]]. apply any_of_In in J. apply (X x I). cbn [In] in *. tauto. }
    assert (Y : forall x, In x [COMMA; TAB; SEMICOLON] -> any_of (line ++ u) x = false).
    { intros x I. apply not_true_is_false. intros T. apply any_of_In in T. apply (X x T). cbn [In] in *. tauto. }
    cbn [filter]. rewrite !Y by (cbn [In]; auto). reflexivity. }
  assert (FL : first_line line = line).
  { clear S. induction line as [|x line IH]; [reflexivity|]. cbn [first_line].
    assert (N := H x (or_introl eq_refl)). rewrite (eqb_no x LF), (eqb_no x CR) by (intros ->; apply N; cbn [In]; auto 8).
    rewrite IH; [reflexivity|]. intros y I. apply H. right. exact I. }
  repeat split.
  - unfold read_pairs_file. rewrite FL, <- (app_nil_r line), S by auto. reflexivity.
  - unfold read_pairs_file. change (LF :: rest) with ([LF] ++ rest). rewrite first_line_app.
    + rewrite S by auto. reflexivity.
    + intros x I. assert (N := H x I). split; intros ->; apply N; cbn [In]; auto 8.
    + left. reflexivity.
    + discriminate.
Qed.
Print Assumptions C116_one_column.

Theorem C116_value_error_refuted : exists content, forall other,
  (~ exists pairs, read_pairs_file other content = Ok pairs) /\ read_pairs_file other content <> Err ValueError.
Proof.
  exists (lit "reference_image"). intros other.
  destruct (C116_one_column other (lit "reference_image") []) as [E _].
  - intros x I. apply any_of_In in I. intros J. cbn [In] in J. repeat destruct J as [<-|J]; try (vm_compute in I; discriminate). exact J.
  - rewrite E. split; [intros [p X]; discriminate|discriminate].
Qed.
Print Assumptions C116_value_error_refuted.

Example C116_example : forall other,
  read_pairs_file other (lit "nr;reference_image;modified_image" ++ [LF] ++ lit "1;a.raw;b,c.raw" ++ [LF] ++ lit "2;d.raw" ++ [LF]) =
    Ok [Pair (Some (lit "a.raw")) (Some (lit "b,c.raw")); Pair (Some (lit "d.raw")) None] /\
  read_pairs_file other (lit "reference_image, modified_image" ++ [LF] ++ lit "a.raw,   b.raw" ++ [LF]) =
    Ok [Pair (Some (lit "a.raw")) (Some (lit "b.raw"))] /\
  read_pairs_file other (lit "reference_image;modified_image;a,b" ++ [LF]) = Err ValueError.
Proof. intros other. vm_compute. repeat split. Qed.
