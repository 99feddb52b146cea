(** Lemmas about the csv files of CsvModel: what the reader makes of a written table. *)
From Coq Require Import Reals.
From Verif Require Import Base LoadModel BatchModel CsvModel.
Local Open Scope nat_scope.

Lemma eqb_no (a b : ascii) : a <> b -> Ascii.eqb a b = false.
Proof. apply Ascii.eqb_neq. Qed.

Lemma tokens_started (s : text) a b : s <> [] -> tokens s a = tokens s b.
Proof. destruct s; [contradiction|reflexivity]. Qed.

Lemma tokens_plain (c : ascii) s b : c <> CR -> c <> LF -> tokens (c :: s) b = Ch c :: tokens s true.
Proof. intros A B. cbn [tokens]. rewrite (eqb_no _ _ A), (eqb_no _ _ B). reflexivity. Qed.

(** *** Dialects as they occur: the delimiter is an ordinary character *)
Definition sane (d : dialect) : Prop :=
  d_quote d = QUOTE /\ d_delim d <> QUOTE /\ d_delim d <> CR /\ d_delim d <> LF /\ d_delim d <> SPACE.

Definition fits (f : text) : Prop := (Z.of_nat (length f) <= field_limit)%Z.

Lemma add_fits S g fs (c : ascii) (f : text) st : fits (g ++ c :: f) ->
  add_char (Parser S g fs) c st = Ok (Parser st (g ++ [c]) fs).
Proof. unfold fits, add_char. cbn [p_field p_fields]. rewrite app_length. cbn [length]. intros H. destruct (Z.leb_spec field_limit (Z.of_nat (length g))); [lia|reflexivity]. Qed.

Section dialect.
Variable d : dialect.
Hypothesis Hd : sane d.

Lemma newline_no (c : ascii) : c <> CR -> c <> LF -> newline c = false.
Proof. intros A B. unfold newline. rewrite (eqb_no _ _ A), (eqb_no _ _ B). reflexivity. Qed.

Lemma run_step t ts p p' : step d p t = Ok p' -> record_done p' t = false -> run d (t :: ts) p = run d ts p'.
Proof. intros A B. cbn [run]. rewrite A, B. reflexivity. Qed.

Lemma run_done ts p p' : step d p Eol = Ok p' -> p_state p' = StartRecord ->
  run d (Eol :: ts) p = (p_fields p' :: fst (run d ts fresh), snd (run d ts fresh)).
Proof. intros A B. cbn [run]. rewrite A. unfold record_done. rewrite B. destruct (run d ts fresh). reflexivity. Qed.

(** Characters of an unquoted field *)
Definition bare (c : ascii) : Prop := c <> d_delim d /\ c <> CR /\ c <> LF.

Lemma run_bare f : forall g fs rest st, Forall bare f -> fits (g ++ f) -> rest <> [] ->
  run d (tokens (f ++ rest) st) (Parser InField g fs) = run d (tokens rest st) (Parser InField (g ++ f) fs).
Proof.
  induction f as [|c f IH]; intros g fs rest st Hf Hg Hr.
  - cbn [app]. rewrite app_nil_r. reflexivity.
  - inversion Hf as [|? ? [A [B C]] Hf']; subst. cbn [app]. rewrite tokens_plain by assumption.
    rewrite (run_step _ _ _ (Parser InField (g ++ [c]) fs)); [|cbn [step p_state]; rewrite newline_no, (eqb_no _ _ A) by assumption; apply (add_fits _ _ _ c f); exact Hg|reflexivity].
    rewrite IH; [|assumption|rewrite <- app_assoc; exact Hg|exact Hr].
    rewrite <- app_assoc. cbn [app]. f_equal. apply tokens_started. exact Hr.
Qed.

(** Characters inside quotation marks; line ends are of no importance there. *)
Lemma run_inquoted_char (c : ascii) s g fs st : c <> QUOTE -> fits (g ++ [c]) -> s <> [] ->
  run d (tokens (c :: s) st) (Parser InQuoted g fs) = run d (tokens s st) (Parser InQuoted (g ++ [c]) fs).
Proof.
  intros A F Hs. destruct Hd as [Q _].
  assert (S1 : step d (Parser InQuoted g fs) (Ch c) = Ok (Parser InQuoted (g ++ [c]) fs)).
  { cbn [step p_state]. rewrite Q, (eqb_no _ _ A). apply (add_fits _ _ _ c []). exact F. }
  assert (S2 : forall ts, run d (Eol :: ts) (Parser InQuoted (g ++ [c]) fs) = run d ts (Parser InQuoted (g ++ [c]) fs)).
  { intros ts. apply run_step; reflexivity. }
  cbn [tokens]. destruct (Ascii.eqb_spec c LF) as [->|NL].
  - rewrite (run_step _ _ _ _ S1) by reflexivity. rewrite S2. f_equal. apply tokens_started. exact Hs.
  - destruct (Ascii.eqb_spec c CR) as [->|NC].
    + destruct s as [|c' s']; [contradiction|]. destruct (Ascii.eqb_spec c' LF) as [->|N'].
      * rewrite (run_step _ _ _ _ S1) by reflexivity. reflexivity.
      * rewrite (run_step _ _ _ _ S1) by reflexivity. rewrite S2. f_equal.
    + rewrite (run_step _ _ _ _ S1) by reflexivity. f_equal. apply tokens_started. exact Hs.
Qed.

Lemma tokens_quote s st : tokens (QUOTE :: s) st = Ch QUOTE :: tokens s true.
Proof. reflexivity. Qed.

Lemma run_inquoted f : forall g fs rest st, (d_double d = true \/ ~ In QUOTE f) -> fits (g ++ f) -> rest <> [] ->
  run d (tokens (doubled f ++ QUOTE :: rest) st) (Parser InQuoted g fs) =
  run d (tokens rest st) (Parser (if d_double d then QuoteInQuoted else InField) (g ++ f) fs).
Proof.
  destruct Hd as [Q _]. induction f as [|c f IH]; intros g fs rest st D F Hr.
  - cbn [doubled flat_map app]. rewrite tokens_quote, app_nil_r.
    rewrite (run_step _ _ _ (Parser (if d_double d then QuoteInQuoted else InField) g fs));
      [|cbn [step p_state]; rewrite Q, Ascii.eqb_refl; reflexivity|reflexivity].
    f_equal. apply tokens_started. exact Hr.
  - cbn [doubled flat_map]. fold (doubled f).
    assert (F1 : fits (g ++ [c])).
    { unfold fits in *. rewrite app_length in *. cbn [length] in *. lia. }
    assert (F2 : fits ((g ++ [c]) ++ f)) by (rewrite <- app_assoc; exact F).
    assert (D' : d_double d = true \/ ~ In QUOTE f) by (destruct D as [D|D]; [left; exact D|right; intros I; apply D; right; exact I]).
    replace (g ++ c :: f) with ((g ++ [c]) ++ f) by (rewrite <- app_assoc; reflexivity).
    destruct (Ascii.eqb_spec c QUOTE) as [->|N].
    + destruct D as [D|D]; [|exfalso; apply D; left; reflexivity].
      cbn [app]. rewrite !tokens_quote.
      rewrite (run_step _ _ _ (Parser QuoteInQuoted g fs)); [|cbn [step p_state]; rewrite Q, Ascii.eqb_refl, D; reflexivity|reflexivity].
      rewrite (run_step _ _ _ (Parser InQuoted (g ++ [QUOTE]) fs)); [|cbn [step p_state]; rewrite Q, Ascii.eqb_refl; apply (add_fits _ _ _ QUOTE []); exact F1|reflexivity].
      rewrite (tokens_started _ true st) by (destruct (doubled f); discriminate).
      apply IH; assumption.
    + cbn [app]. rewrite run_inquoted_char; [|exact N|exact F1|destruct (doubled f); discriminate].
      apply IH; assumption.
Qed.

(** *** What a piece of the file is read as *)
Definition ready (S : pstate) : Prop := S = StartRecord \/ S = StartField.
Definition reads (enc f : text) : Prop := forall S fs rest st, ready S -> rest <> [] ->
  exists Q, run d (tokens (enc ++ rest) st) (Parser S [] fs) = run d (tokens rest st) (Parser Q f fs) /\
            (Q = StartField \/ Q = InField \/ Q = QuoteInQuoted \/ (Q = StartRecord /\ S = StartRecord /\ enc = [] /\ f = [])).

Lemma start_step S t fs : ready S -> (forall c, t = Ch c -> c <> CR /\ c <> LF) -> t <> Eol ->
  step d (Parser S [] fs) t = start_field d (Parser S [] fs) t.
Proof.
  intros [->| ->] H E; [|reflexivity]. destruct t as [c|]; [|contradiction]. destruct (H c eq_refl) as [A B].
  cbn [step p_state]. rewrite newline_no by assumption. reflexivity.
Qed.

Lemma reads_quoted f : (d_double d = true \/ ~ In QUOTE f) -> fits f -> reads (quoted f) f.
Proof.
  intros D F S fs rest st HS Hr. exists (if d_double d then QuoteInQuoted else InField). split.
  - unfold quoted. cbn [app]. rewrite tokens_quote.
    rewrite (run_step _ _ _ (Parser InQuoted [] fs)).
    + rewrite <- app_assoc. cbn [app]. rewrite run_inquoted; [|exact D|exact F|exact Hr]. cbn [app]. f_equal. apply tokens_started. exact Hr.
    + rewrite start_step; [|exact HS|intros c [= <-]; split; discriminate|discriminate].
      cbn [start_field]. destruct Hd as [Q _]. rewrite Q. reflexivity.
    + reflexivity.
  - destruct (d_double d); auto.
Qed.

Lemma reads_bare f : Forall bare f -> hd COMMA f <> QUOTE -> (d_skip d = true -> hd COMMA f <> SPACE) -> fits f -> reads f f.
Proof.
  intros B Hq Hs F S fs rest st HS Hr. destruct f as [|c f].
  - exists S. split; [reflexivity|]. destruct HS as [->| ->]; auto 8.
  - exists InField. split; [|auto]. inversion B as [|? ? [A [B1 B2]] B']; subst. cbn [hd] in *. cbn [app]. rewrite tokens_plain by assumption.
    rewrite (run_step _ _ _ (Parser InField [c] fs)).
    + rewrite run_bare; [|exact B'|exact F|exact Hr]. cbn [app]. f_equal. apply tokens_started. exact Hr.
    + rewrite start_step; [|exact HS|intros x [= <-]; split; assumption|discriminate].
      cbn [start_field]. destruct Hd as [Q _]. rewrite Q, newline_no, (eqb_no _ _ Hq), (eqb_no _ _ A) by assumption.
      replace (Ascii.eqb c SPACE && d_skip d)%bool with false; [apply (add_fits S [] fs c f InField); exact F|].
      symmetry. destruct (d_skip d); [|apply andb_false_r]. rewrite (eqb_no c SPACE) by (apply Hs; reflexivity). reflexivity.
    + reflexivity.
Qed.

Lemma reads_space enc f : d_skip d = true -> reads enc f -> reads (SPACE :: enc) f.
Proof.
  intros K H S fs rest st HS Hr. cbn [app].
  destruct (H StartField fs rest true (or_intror eq_refl) Hr) as [Q [E HQ]]. exists Q. split.
  - rewrite tokens_plain by discriminate. rewrite (run_step _ _ _ (Parser StartField [] fs)).
    + rewrite E. f_equal. apply tokens_started. exact Hr.
    + rewrite start_step; [|exact HS|intros x [= <-]; split; discriminate|discriminate].
      cbn [start_field]. destruct Hd as [Q' _]. rewrite Q', K. reflexivity.
    + reflexivity.
  - destruct HQ as [->|[->|[->|[_ [X _]]]]]; auto. discriminate.
Qed.

(** *** Rows *)
Fixpoint sep_by (c : ascii) (fs : list text) : text :=
  match fs with
  | [] => []
  | [f] => f
  | f :: fs' => f ++ c :: sep_by c fs'
  end.

Definition ended (Q : pstate) (f : text) : Prop :=
  Q = StartField \/ Q = InField \/ Q = QuoteInQuoted \/ (Q = StartRecord /\ f = []).

Lemma end_delim Q f fs : ended Q f -> step d (Parser Q f fs) (Ch (d_delim d)) = Ok (Parser StartField [] (fs ++ [f])).
Proof.
  destruct Hd as [H0 [H1 [H2 [H3 H4]]]].
  assert (SF : forall S, start_field d (Parser S f fs) (Ch (d_delim d)) = Ok (Parser StartField [] (fs ++ [f]))).
  { intros S. cbn [start_field]. rewrite newline_no, H0, (eqb_no _ _ H1), (eqb_no _ _ H4), Ascii.eqb_refl by assumption. reflexivity. }
  intros [->|[->|[->|[-> _]]]].
  - apply SF.
  - cbn [step p_state]. rewrite newline_no, Ascii.eqb_refl by assumption. reflexivity.
  - cbn [step p_state]. rewrite H0, (eqb_no _ _ H1), Ascii.eqb_refl. reflexivity.
  - cbn [step p_state]. rewrite newline_no by assumption. apply SF.
Qed.

Definition eols : list text := [[LF]; [CR; LF]; [CR]].

Lemma tokens_eol eol rest st : In eol eols -> (eol = [CR] -> hd COMMA rest <> LF) ->
  tokens (eol ++ rest) st = map Ch eol ++ Eol :: tokens rest false.
Proof.
  intros [<-|[<-|[<-|[]]]] H.
  - reflexivity.
  - reflexivity.
  - destruct rest as [|c rest]; [reflexivity|]. specialize (H eq_refl). cbn [hd] in H.
    cbn [app tokens map]. rewrite (eqb_no _ _ H). reflexivity.
Qed.

Lemma newline_step Q f fs (c : ascii) : c = CR \/ c = LF -> Q = StartField \/ Q = InField \/ Q = QuoteInQuoted ->
  step d (Parser Q f fs) (Ch c) = Ok (Parser EatNewline [] (fs ++ [f])).
Proof.
  destruct Hd as [H0 [H1 [H2 [H3 H4]]]]. intros C [->|[->| ->]].
  - destruct C as [->| ->]; reflexivity.
  - destruct C as [->| ->]; reflexivity.
  - cbn [step p_state]. rewrite H0. rewrite (eqb_no c QUOTE) by (destruct C as [->| ->]; discriminate).
    rewrite (eqb_no c (d_delim d)) by (destruct C as [->| ->]; congruence). destruct C as [->| ->]; reflexivity.
Qed.

Lemma eat_eol eol ts fs f : (forall c, In c eol -> c = CR \/ c = LF) ->
  run d (map Ch eol ++ Eol :: ts) (Parser EatNewline f fs) = (fs :: fst (run d ts fresh), snd (run d ts fresh)).
Proof.
  induction eol as [|c eol IH]; intros H.
  - cbn [map app]. rewrite (run_done _ _ (Parser StartRecord f fs)) by reflexivity. reflexivity.
  - cbn [map app]. rewrite (run_step _ _ _ (Parser EatNewline f fs)); [apply IH; intros x X; apply H; right; exact X| |reflexivity].
    cbn [step p_state]. destruct (H c (or_introl eq_refl)) as [->| ->]; reflexivity.
Qed.

Lemma eols_chars eol c : In eol eols -> In c eol -> c = CR \/ c = LF.
Proof. intros [<-|[<-|[<-|[]]]]; cbn [In]; intuition. Qed.

Lemma end_eol Q f fs eol rest st : In eol eols -> (eol = [CR] -> hd COMMA rest <> LF) ->
  Q = StartField \/ Q = InField \/ Q = QuoteInQuoted ->
  run d (tokens (eol ++ rest) st) (Parser Q f fs) =
  ((fs ++ [f]) :: fst (run d (tokens rest false) fresh), snd (run d (tokens rest false) fresh)).
Proof.
  intros E H HQ. rewrite tokens_eol by assumption. assert (HC := fun c => eols_chars eol c E).
  destruct eol as [|c eol]; [destruct E as [E|[E|[E|[]]]]; discriminate|]. cbn [map app].
  rewrite (run_step _ _ _ (Parser EatNewline [] (fs ++ [f]))); [|apply newline_step; [apply HC; left; reflexivity|exact HQ]|reflexivity].
  apply eat_eol. intros x X. apply HC. right. exact X.
Qed.

Lemma empty_eol fs eol rest st : In eol eols -> (eol = [CR] -> hd COMMA rest <> LF) ->
  run d (tokens (eol ++ rest) st) (Parser StartRecord [] fs) =
  (fs :: fst (run d (tokens rest false) fresh), snd (run d (tokens rest false) fresh)).
Proof.
  intros E H. rewrite tokens_eol by assumption. assert (HC := fun c => eols_chars eol c E).
  destruct eol as [|c eol]; [destruct E as [E|[E|[E|[]]]]; discriminate|]. cbn [map app].
  rewrite (run_step _ _ _ (Parser EatNewline [] fs)); [| |reflexivity].
  - apply eat_eol. intros x X. apply HC. right. exact X.
  - destruct (HC c (or_introl eq_refl)) as [->| ->]; reflexivity.
Qed.

Lemma run_fields eol rest : In eol eols -> (eol = [CR] -> hd COMMA rest <> LF) ->
  forall encs fs, Forall2 reads encs fs -> forall S gs st, ready S -> encs <> [] -> (S = StartRecord -> encs <> [[]]) ->
  run d (tokens (sep_by (d_delim d) encs ++ eol ++ rest) st) (Parser S [] gs) =
  ((gs ++ fs) :: fst (run d (tokens rest false) fresh), snd (run d (tokens rest false) fresh)).
Proof.
  intros E H.
  assert (NE : eol ++ rest <> []) by (destruct E as [<-|[<-|[<-|[]]]]; discriminate).
  induction 1 as [|enc f encs fs Hf HF IH]; intros S gs st HS N1 N2; [contradiction|].
  destruct encs as [|enc' encs].
  - inversion HF; subst. cbn [sep_by]. destruct (Hf S gs (eol ++ rest) st HS NE) as [Q [-> HQ]].
    destruct HQ as [->|[->|[->|[_ [X [-> _]]]]]]; try (apply end_eol; auto; fail). exfalso. apply N2; [exact X|reflexivity].
  - change (sep_by (d_delim d) (enc :: enc' :: encs)) with (enc ++ d_delim d :: sep_by (d_delim d) (enc' :: encs)).
    rewrite <- app_assoc. cbn [app].
    destruct (Hf S gs (d_delim d :: sep_by (d_delim d) (enc' :: encs) ++ eol ++ rest) st HS ltac:(discriminate)) as [Q [-> HQ]].
    destruct Hd as [H0 [H1 [H2 [H3 H4]]]]. rewrite tokens_plain by assumption.
    rewrite (run_step _ _ _ (Parser StartField [] (gs ++ [f]))); [| |reflexivity].
    + rewrite IH; [rewrite <- app_assoc; reflexivity|right; reflexivity|discriminate|discriminate].
    + apply end_delim. unfold ended. destruct HQ as [->|[->|[->|[-> [_ [_ ->]]]]]]; auto 8.
Qed.

(** A table: rows with what they are written as *)
Lemma run_rows eol : In eol eols ->
  forall encs rows, Forall2 (fun es fs => Forall2 reads es fs /\ es <> [[]]) encs rows ->
  forall rest, (eol = [CR] -> forall es, In es encs -> hd COMMA (sep_by (d_delim d) es) <> LF) -> (eol = [CR] -> hd COMMA rest <> LF) ->
  run d (tokens (flat_map (fun es => sep_by (d_delim d) es ++ eol) encs ++ rest) false) fresh =
  (rows ++ fst (run d (tokens rest false) fresh), snd (run d (tokens rest false) fresh)).
Proof.
  intros E. induction 1 as [|es fs encs rows [Hf N] HF IH]; intros rest H HR.
  - cbn [flat_map app]. destruct (run d (tokens rest false) fresh). reflexivity.
  - cbn [flat_map]. rewrite <- !app_assoc.
    specialize (IH rest (fun X es' I => H X es' (or_intror I)) HR).
    set (tail := flat_map (fun es0 => sep_by (d_delim d) es0 ++ eol) encs ++ rest) in *.
    assert (HT : eol = [CR] -> hd COMMA tail <> LF).
    { intros X. unfold tail. destruct encs as [|es' encs']; [apply HR; exact X|]. cbn [flat_map]. subst eol.
      specialize (H eq_refl es' (or_intror (or_introl eq_refl))). destruct (sep_by (d_delim d) es') as [|c s]; [discriminate|exact H]. }
    clearbody tail. destruct es as [|e es].
    + inversion Hf; subst. cbn [sep_by app]. unfold fresh at 1. rewrite empty_eol, IH by assumption. reflexivity.
    + unfold fresh at 1. rewrite (run_fields eol tail E HT (e :: es) fs Hf); [|left; reflexivity|discriminate|intros _; exact N].
      rewrite IH. reflexivity.
Qed.

(** What was read of a row stays. *)
Lemma run_extends ts : forall p, fst (run d ts p) = [] \/ exists more rows, fst (run d ts p) = (p_fields p ++ more) :: rows.
Proof.
  assert (add_fields : forall p (c : ascii) st p', add_char p c st = Ok p' -> exists more, p_fields p' = p_fields p ++ more).
  { intros p c st p'. unfold add_char. destruct (field_limit <=? _)%Z; [discriminate|]. intros [= <-]. exists []. symmetry. apply app_nil_r. }
  assert (save_fields : forall p st, exists more, p_fields (save_field p st) = p_fields p ++ more).
  { intros p st. eexists. reflexivity. }
  assert (same : forall (p p' : parser), p_fields p' = p_fields p -> exists more, p_fields p' = p_fields p ++ more).
  { intros p p' E. exists []. rewrite app_nil_r. exact E. }
  assert (S0 : forall p t p', start_field d p t = Ok p' -> exists more, p_fields p' = p_fields p ++ more).
  { intros p [c|] p'; cbn [start_field]; repeat match goal with |- context [if ?b then _ else _] => destruct b end;
      intros X; try (injection X as <-); eauto. }
  assert (S : forall p t p', step d p t = Ok p' -> exists more, p_fields p' = p_fields p ++ more).
  { intros p t p'. unfold step. destruct (p_state p); destruct t as [c|];
      repeat match goal with |- context [if ?b then _ else _] => destruct b end; intros X; try discriminate; try (injection X as <-); eauto. }
  induction ts as [|t ts IH]; intros p.
  - cbn [run fst]. destruct (p_field p); [destruct (p_state p)|]; auto; right; do 2 eexists; reflexivity.
  - cbn [run]. destruct (step d p t) as [p'|e] eqn:E; [|left; reflexivity].
    destruct (S _ _ _ E) as [m Hm]. destruct (record_done p' t).
    + destruct (run d ts fresh). right. exists m, l. cbn [fst]. rewrite Hm. reflexivity.
    + destruct (IH p') as [X|[m' [rows X]]]; [left; exact X|]. right. exists (m ++ m'), rows. rewrite X, Hm, app_assoc. reflexivity.
Qed.

(** An unquoted field ends at the first delimiter or line end. *)
Lemma run_prefix f : forall g fs (c : ascii) rest st, Forall bare f -> c = d_delim d \/ c = CR \/ c = LF ->
  let r := fst (run d (tokens (f ++ c :: rest) st) (Parser InField g fs)) in
  r = [] \/ exists more rows, r = (fs ++ (g ++ f) :: more) :: rows.
Proof.
  destruct Hd as [H0 [H1 [H2 [H3 H4]]]].
  induction f as [|x f IH]; intros g fs c rest st Hf Hc r.
  - rewrite app_nil_r. cbn [app] in r.
    assert (exists ts st', tokens (c :: rest) st = Ch c :: ts /\ step d (Parser InField g fs) (Ch c) = Ok (Parser st' [] (fs ++ [g]))) as [ts [st' [A B]]].
    { destruct Hc as [->|[->| ->]].
      - rewrite tokens_plain by assumption. eexists _, _. split; [reflexivity|]. cbn [step p_state]. rewrite newline_no, Ascii.eqb_refl by assumption. reflexivity.
      - destruct rest as [|c' rest].
        + eexists _, _. split; reflexivity.
        + cbn [tokens]. change (Ascii.eqb CR LF) with false. change (Ascii.eqb CR CR) with true. cbv iota.
          destruct (Ascii.eqb c' LF); eexists _, _; split; reflexivity.
      - eexists _, _. split; reflexivity. }
    unfold r. rewrite A. rewrite (run_step _ _ _ _ B) by reflexivity.
    destruct (run_extends ts (Parser st' [] (fs ++ [g]))) as [X|[more [rows X]]]; [left; exact X|].
    right. exists more, rows. rewrite X. cbn [p_fields]. rewrite <- app_assoc. reflexivity.
  - inversion Hf as [|? ? [A [B C]] Hf']; subst. cbn [app] in r. unfold r. rewrite tokens_plain by assumption.
    cbn [run step p_state]. rewrite newline_no, (eqb_no _ _ A) by assumption. unfold add_char. cbn [p_field p_fields].
    destruct (field_limit <=? _)%Z; [left; reflexivity|]. cbn [record_done].
    specialize (IH (g ++ [x]) fs c rest true Hf' Hc). cbv zeta in IH. rewrite <- app_assoc in IH. exact IH.
Qed.
End dialect.
