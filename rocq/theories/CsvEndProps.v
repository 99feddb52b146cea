(** Lists of pairs with mixed line ends, without a last line end and with a quotation that is not closed: property
    C116, continued. *)
From Coq Require Import Reals.
From Verif Require Import Base NdArray LoadModel LoadProofs NormModel PairModel BatchModel ScriptModel ScriptProps CsvModel CsvProofs
  CsvProps.
Local Open Scope nat_scope.

(** ** Line ends *)

(** Every line end as one "\n" *)
Fixpoint unix (s : text) : text :=
  match s with
  | [] => []
  | c :: s' =>
      if Ascii.eqb c CR then LF :: match s' with
                                   | c' :: s'' => if Ascii.eqb c' LF then unix s'' else unix s'
                                   | [] => []
                                   end
      else c :: unix s'
  end.

(** States outside quotations, between characters of a line *)
Definition outside (p : parser) : Prop :=
  p_state p = StartRecord \/ p_state p = StartField \/ p_state p = InField.

Section outside.
Variable d : dialect.
Hypothesis Hq : d_quote d = QUOTE.

Lemma step_outside p (c : ascii) : outside p -> c <> QUOTE -> c <> CR -> c <> LF ->
  (exists e, step d p (Ch c) = Err e) \/ (exists p', step d p (Ch c) = Ok p' /\ outside p').
Proof.
  intros O Q A B.
  assert (AC : forall p0, (exists e, add_char p0 c InField = Err e) \/ (exists p', add_char p0 c InField = Ok p' /\ outside p')).
  { intros p0. unfold add_char. destruct (_ <=? _)%Z; [left; eexists; reflexivity|right]. eexists. split; [reflexivity|]. right. right. reflexivity. }
  assert (SF : forall p0, (exists e, start_field d p0 (Ch c) = Err e) \/ (exists p', start_field d p0 (Ch c) = Ok p' /\ outside p')).
  { intros p0. cbn [start_field]. rewrite newline_no, Hq, (eqb_no _ _ Q) by assumption.
    destruct (Ascii.eqb c SPACE && d_skip d); [right; eexists; split; [reflexivity|right; left; reflexivity]|].
    destruct (Ascii.eqb c (d_delim d)); [right; eexists; split; [reflexivity|right; left; reflexivity]|]. apply AC. }
  unfold step. destruct O as [->|[->| ->]].
  - rewrite newline_no by assumption. apply SF.
  - apply SF.
  - rewrite newline_no by assumption. destruct (Ascii.eqb c (d_delim d)); [right; eexists; split; [reflexivity|right; left; reflexivity]|]. apply AC.
Qed.

(** One line end, whatever it is made of *)
Lemma run_newline p ts eol : outside p -> eol <> [] -> (forall c, In c eol -> c = CR \/ c = LF) ->
  exists fs, forall ts', run d (map Ch eol ++ Eol :: ts') p = (fs :: fst (run d ts' fresh), snd (run d ts' fresh)) /\
    run d (Ch LF :: Eol :: ts) p = (fs :: fst (run d ts fresh), snd (run d ts fresh)) /\
    run d [Eol] p = ([fs], None).
Proof.
  intros O NE C. destruct eol as [|c eol]; [contradiction|]. clear NE.
  assert (Q : exists fs f, (forall x, x = CR \/ x = LF -> step d p (Ch x) = Ok (Parser EatNewline f fs)) /\
              exists p', step d p Eol = Ok p' /\ p_state p' = StartRecord /\ p_fields p' = fs).
  { unfold step. destruct O as [O|[O|O]]; rewrite O.
    - exists (p_fields p), (p_field p). split; [intros x [->| ->]; reflexivity|]. exists p. auto.
    - exists (p_fields p ++ [p_field p]), []. split; [intros x [->| ->]; reflexivity|]. eexists. split; [reflexivity|]. split; reflexivity.
    - exists (p_fields p ++ [p_field p]), []. split; [intros x [->| ->]; reflexivity|]. eexists. split; [reflexivity|]. split; reflexivity. }
  destruct Q as (fs & f & Q & p' & E1 & E2 & E3). exists fs. intros ts'. split; [|split].
  - cbn [map app]. rewrite (run_step d _ _ _ (Parser EatNewline f fs)); [|apply Q, C; left; reflexivity|reflexivity].
    apply eat_eol. intros x X. apply C. right. exact X.
  - rewrite (run_step d _ _ _ (Parser EatNewline f fs)); [|apply Q; right; reflexivity|reflexivity].
    apply (eat_eol d [] ts fs f). intros x [].
  - rewrite (run_done d _ _ p') by assumption. rewrite E3. reflexivity.
Qed.

Lemma run_unix : forall n s st p, length s <= n -> ~ In QUOTE s -> outside p -> (p_state p = StartRecord -> st = false -> p = fresh) ->
  run d (tokens s st) p = run d (tokens (unix s) st) p.
Proof.
  induction n as [|n IH]; intros s st p L NQ O F; [destruct s; [reflexivity|cbn in L; lia]|].
  destruct s as [|c s]; [reflexivity|]. cbn [length] in L.
  assert (NQ' : ~ In QUOTE s) by (intros I; apply NQ; right; exact I).
  assert (FR : outside fresh) by (left; reflexivity).
  cbn [unix]. destruct (Ascii.eqb_spec c CR) as [->|NC].
  - assert (T1 : forall t, tokens (LF :: t) st = Ch LF :: Eol :: tokens t false) by reflexivity.
    destruct s as [|c' s].
    + rewrite T1. change (tokens [CR] st) with (map Ch [CR] ++ Eol :: tokens [] false).
      destruct (run_newline p (tokens [] false) [CR] O ltac:(discriminate)) as (fs & R); [intros x [<-|[]]; auto|].
      destruct (R (tokens [] false)) as (-> & -> & _). reflexivity.
    + destruct (Ascii.eqb_spec c' LF) as [->|NL].
      * rewrite T1. change (tokens (CR :: LF :: s) st) with (map Ch [CR; LF] ++ Eol :: tokens s false).
        destruct (run_newline p (tokens (unix s) false) [CR; LF] O ltac:(discriminate)) as (fs & R); [intros x [<-|[<-|[]]]; auto|].
        destruct (R (tokens s false)) as (-> & -> & _). cbn [length] in L. rewrite (IH s false fresh); auto; [lia|].
        intros I. apply NQ'. right. exact I.
      * rewrite T1. replace (tokens (CR :: c' :: s) st) with (map Ch [CR] ++ Eol :: tokens (c' :: s) false).
        2: { cbn [tokens map app]. change (Ascii.eqb CR LF) with false. change (Ascii.eqb CR CR) with true. cbv iota.
             rewrite (eqb_no c' LF NL). reflexivity. }
        destruct (run_newline p (tokens (unix (c' :: s)) false) [CR] O ltac:(discriminate)) as (fs & R); [intros x [<-|[]]; auto|].
        destruct (R (tokens (c' :: s) false)) as (-> & -> & _). rewrite (IH (c' :: s) false fresh); auto. cbn [length] in *. lia.
  - destruct (Ascii.eqb_spec c LF) as [->|NL].
    + change (tokens (LF :: s) st) with (map Ch [LF] ++ Eol :: tokens s false).
      change (tokens (LF :: unix s) st) with (Ch LF :: Eol :: tokens (unix s) false).
      destruct (run_newline p (tokens (unix s) false) [LF] O ltac:(discriminate)) as (fs & R); [intros x [<-|[]]; auto|].
      destruct (R (tokens s false)) as (-> & -> & _). rewrite (IH s false fresh); auto. lia.
    + rewrite !tokens_plain by assumption.
      assert (NQc : c <> QUOTE) by (intros ->; apply NQ; left; reflexivity).
      destruct (step_outside p c O NQc NC NL) as [(e & E)|(p' & E & O')].
      * cbn [run]. rewrite E. reflexivity.
      * rewrite !(run_step d _ _ _ p') by (exact E || reflexivity). apply IH; auto; [lia|discriminate].
Qed.

(** The last line end *)
Lemma run_final : forall n s st p, length s <= n -> ~ In QUOTE s -> outside p -> (s = [] -> st = true) ->
  (s <> [] -> last s COMMA <> CR /\ last s COMMA <> LF) ->
  run d (tokens (s ++ [LF]) st) p = run d (tokens s st) p.
Proof.
  induction n as [|n IH]; intros s st p L NQ O S0 La.
  - destruct s; [|cbn in L; lia]. rewrite (S0 eq_refl). cbn [app].
    change (tokens [LF] true) with (Ch LF :: Eol :: tokens [] false). change (tokens [] true) with [Eol].
    destruct (run_newline p (tokens [] false) [LF] O ltac:(discriminate)) as (fs & R); [intros x [<-|[]]; auto|].
    destruct (R []) as (_ & -> & ->). reflexivity.
  - destruct s as [|c s]; [apply (IH []); auto; cbn; lia|]. cbn [length] in L.
    assert (NQ' : ~ In QUOTE s) by (intros I; apply NQ; right; exact I).
    assert (FR : outside fresh) by (left; reflexivity).
    destruct (La ltac:(discriminate)) as [L1 L2].
    assert (Las : s <> [] -> last s COMMA <> CR /\ last s COMMA <> LF).
    { intros Ns. destruct s; [contradiction|]. split; assumption. }
    cbn [app]. destruct (Ascii.eqb_spec c LF) as [->|NL].
    + destruct s as [|c1 s1]; [cbn in L2; congruence|]. set (s := c1 :: s1) in *.
      change (tokens (LF :: s ++ [LF]) st) with (map Ch [LF] ++ Eol :: tokens (s ++ [LF]) false).
      change (tokens (LF :: s) st) with (Ch LF :: Eol :: tokens s false).
      destruct (run_newline p (tokens s false) [LF] O ltac:(discriminate)) as (fs & R); [intros x [<-|[]]; auto|].
      destruct (R (tokens (s ++ [LF]) false)) as (-> & -> & _). rewrite (IH s false fresh); auto; [lia|discriminate].
    + destruct (Ascii.eqb_spec c CR) as [->|NC].
      * destruct s as [|c1 s1]; [cbn in L1; congruence|]. destruct (Ascii.eqb_spec c1 LF) as [->|NL1].
        -- destruct s1 as [|c2 s2]; [cbn in L2; congruence|]. set (s := c2 :: s2) in *.
           change (tokens (CR :: (LF :: s) ++ [LF]) st) with (map Ch [CR; LF] ++ Eol :: tokens (s ++ [LF]) false).
           change (tokens (CR :: LF :: s) st) with (map Ch [CR; LF] ++ Eol :: tokens s false).
           destruct (run_newline p (tokens s false) [CR; LF] O ltac:(discriminate)) as (fs & R); [intros x [<-|[<-|[]]]; auto|].
           destruct (R (tokens (s ++ [LF]) false)) as (-> & _ & _). destruct (R (tokens s false)) as (-> & _ & _).
           rewrite (IH s false fresh); auto; [cbn [length] in *; lia|intros I; apply NQ'; right; exact I|discriminate].
        -- set (s := c1 :: s1) in *.
           assert (T : forall t, tokens (CR :: c1 :: t) st = map Ch [CR] ++ Eol :: tokens (c1 :: t) false).
           { intros t. cbn [tokens map app]. change (Ascii.eqb CR LF) with false. change (Ascii.eqb CR CR) with true. cbv iota.
             rewrite (eqb_no c1 LF NL1). reflexivity. }
           assert (T1 := T (s1 ++ [LF])). assert (T2 := T s1). change (c1 :: s1 ++ [LF]) with (s ++ [LF]) in T1. fold s in T2.
           rewrite T1, T2.
           destruct (run_newline p (tokens s false) [CR] O ltac:(discriminate)) as (fs & R); [intros x [<-|[]]; auto|].
           destruct (R (tokens (s ++ [LF]) false)) as (-> & _ & _). destruct (R (tokens s false)) as (-> & _ & _).
           rewrite (IH s false fresh); auto; [lia|discriminate].
      * rewrite !tokens_plain by assumption.
        assert (NQc : c <> QUOTE) by (intros ->; apply NQ; left; reflexivity).
        destruct (step_outside p c O NQc NC NL) as [(e & E)|(p' & E & O')].
        -- cbn [run]. rewrite E. reflexivity.
        -- rewrite !(run_step d _ _ _ p') by (exact E || reflexivity). apply IH; auto. lia.
Qed.
End outside.

(** The first line without its end *)
Fixpoint head_line (s : text) : text :=
  match s with [] => [] | c :: s' => if newline c then [] else c :: head_line s' end.

Lemma first_line_split s : exists e, first_line s = head_line s ++ e /\ (e = [] \/ In e eols).
Proof.
  induction s as [|c s [e [IH He]]]; [exists []; auto|]. cbn [first_line head_line]. unfold newline.
  destruct (Ascii.eqb_spec c LF) as [->|N1]; [exists [LF]; cbn; auto 9|].
  destruct (Ascii.eqb_spec c CR) as [->|N2]; cbn [orb].
  - destruct s as [|c' s]; [exists [CR]; cbn; auto 9|]. destruct (Ascii.eqb_spec c' LF) as [->|N3]; [exists [CR; LF]; cbn; auto 9|exists [CR]; cbn; auto 9].
  - exists e. rewrite IH. split; [reflexivity|exact He].
Qed.

Lemma sniff_end other l e : (e = [] \/ In e eols) -> ~ In QUOTE l -> ~ In APOSTROPHE l -> sniff other (l ++ e) = sniff other l.
Proof.
  intros He Q A.
  assert (C : forall x, In x e -> x = CR \/ x = LF) by (destruct He as [->|He]; [intros x []|intros x; apply eols_chars; exact He]).
  unfold sniff.
  assert (E1 : forall u, (forall x, In x u -> In x l \/ x = CR \/ x = LF) -> existsb (any_of [QUOTE; APOSTROPHE]) u = false).
  { intros u U. apply not_true_is_false. intros T. apply existsb_exists in T as [x [I J]]. apply any_of_In in J. cbn [In] in J.
    destruct (U x I) as [K|[->| ->]]; destruct J as [J|[J|[]]]; try discriminate; subst x; contradiction. }
  rewrite !E1 by (intros x I; try apply in_app_or in I as [I|I]; auto).
  assert (F : forall x, In x delims -> any_of (l ++ e) x = any_of l x).
  { intros x D. destruct (any_of l x) eqn:E; [apply any_of_In; apply any_of_In in E; apply in_or_app; auto|].
    apply not_true_is_false. intros T. apply any_of_In in T. apply in_app_or in T as [T|T].
    - apply any_of_In in T. congruence.
    - destruct (C x T) as [->| ->]; cbn [delims In] in D; intuition discriminate. }
  cbn [filter]. rewrite !F by (cbn [delims In]; auto).
  assert (G : forall x, In x delims -> (count x (l ++ e) =? count_spaced x (l ++ e)) = (count x l =? count_spaced x l)).
  { intros x D. assert (Nx : ~ In x e) by (intros I; destruct (C x I) as [->| ->]; cbn [delims In] in D; intuition discriminate).
    rewrite count_app, (count_none x e Nx), Nat.add_0_r. f_equal.
    assert (Se : count_spaced x e = 0) by (rewrite <- (app_nil_r e), count_spaced_none by exact Nx; reflexivity).
    clear Q A E1 F. induction l as [|a l IH]; [exact Se|]. destruct l as [|b l].
    - cbn [app]. destruct e as [|y e]; [reflexivity|]. change (count_spaced x (a :: y :: e)) with ((if Ascii.eqb a x && Ascii.eqb y SPACE then 1 else 0) + count_spaced x (y :: e)).
      rewrite Se. assert (y <> SPACE) by (destruct (C y (or_introl eq_refl)) as [->| ->]; discriminate).
      rewrite (eqb_no y SPACE) by assumption. rewrite andb_false_r. reflexivity.
    - cbn [app] in *. change (count_spaced x (a :: b :: l ++ e)) with ((if Ascii.eqb a x && Ascii.eqb b SPACE then 1 else 0) + count_spaced x (b :: l ++ e)).
      rewrite IH. reflexivity. }
  destruct (any_of l COMMA); [rewrite G by (cbn [delims In]; auto); reflexivity|].
  destruct (any_of l TAB); [rewrite G by (cbn [delims In]; auto); reflexivity|].
  destruct (any_of l SEMICOLON); [rewrite G by (cbn [delims In]; auto); reflexivity|]. reflexivity.
Qed.

Lemma sniff_first other s : ~ In QUOTE (head_line s) -> ~ In APOSTROPHE (head_line s) ->
  sniff other (first_line s) = sniff other (head_line s).
Proof. intros Q A. destruct (first_line_split s) as (e & -> & He). apply sniff_end; assumption. Qed.

Lemma sniff_quote other l d : ~ In QUOTE l -> ~ In APOSTROPHE l -> sniff other l = Ok d -> d_quote d = QUOTE.
Proof.
  intros Q A. unfold sniff. destruct (existsb _ l) eqn:E.
  { apply existsb_exists in E as [x [I J]]. apply any_of_In in J. cbn [In] in J. destruct J as [<-|[<-|[]]]; contradiction. }
  destruct (filter _ _) as [|c u]; [discriminate|]. intros X. injection X as <-. reflexivity.
Qed.

Lemma head_line_in s x : In x (head_line s) -> In x s.
Proof.
  induction s as [|c s IH]; [intros []|]. cbn [head_line]. destruct (newline c); [intros []|]. intros [->|I]; [left; reflexivity|right; auto].
Qed.

Lemma head_line_unix s : head_line (unix s) = head_line s.
Proof.
  induction s as [|c s IH]; [reflexivity|]. cbn [unix head_line]. destruct (Ascii.eqb_spec c CR) as [->|N]; [reflexivity|].
  cbn [head_line]. destruct (newline c); [reflexivity|]. rewrite IH. reflexivity.
Qed.

Lemma head_line_end s : head_line (s ++ [LF]) = head_line s.
Proof. induction s as [|c s IH]; [reflexivity|]. cbn [app head_line]. destruct (newline c); [reflexivity|]. rewrite IH. reflexivity. Qed.

Lemma read_same other s t : head_line t = head_line s -> ~ In QUOTE s -> ~ In APOSTROPHE (head_line s) ->
  (forall d, d_quote d = QUOTE -> read_rows d t = read_rows d s) -> read_pairs_file other t = read_pairs_file other s.
Proof.
  intros H Q A R. unfold read_pairs_file.
  assert (Q' : ~ In QUOTE (head_line s)) by (intros I; exact (Q (head_line_in _ _ I))).
  rewrite !sniff_first, H by (rewrite ?H; assumption).
  destruct (sniff other (head_line s)) as [d|e] eqn:E; [|reflexivity]. cbn [bind].
  rewrite (R d (sniff_quote _ _ _ Q' A E)). reflexivity.
Qed.

(** Without quotation marks only the lines count: "\n", "\r\n" and "\r" may be mixed, and the last line may have no
    line end. *)
Theorem C116_line_ends : forall other s, ~ In QUOTE s -> ~ In "'"%char (head_line s) ->
  read_pairs_file other (unix s) = read_pairs_file other s.
Proof.
  intros other s Q A. apply read_same; auto using head_line_unix. intros d Hd. unfold read_rows. symmetry.
  apply (run_unix d Hd (length s)); auto. left. reflexivity.
Qed.
Print Assumptions C116_line_ends.

Theorem C116_last_line_end : forall other s, s <> [] -> last s ","%char <> CR -> last s ","%char <> LF ->
  ~ In QUOTE s -> ~ In "'"%char (head_line s) ->
  read_pairs_file other (s ++ [LF]) = read_pairs_file other s.
Proof.
  intros other s N L1 L2 Q A. apply read_same; auto using head_line_end. intros d Hd. unfold read_rows.
  apply (run_final d Hd (length s)); auto; left; reflexivity.
Qed.
Print Assumptions C116_last_line_end.

(** ** A quotation that is not closed *)

Section open.
Variable d : dialect.
Hypothesis Hd : sane d.

Lemma run_open u : forall g fs st, ~ In QUOTE u -> fits (g ++ u) -> run d (tokens u st) (Parser InQuoted g fs) = ([fs ++ [g ++ u]], None).
Proof.
  assert (E0 : forall g fs, run d [] (Parser InQuoted g fs) = ([fs ++ [g]], None)) by (intros [|x g] fs; reflexivity).
  assert (E1 : forall g fs, run d [Eol] (Parser InQuoted g fs) = ([fs ++ [g]], None)).
  { intros g fs. rewrite (run_step d _ _ _ (Parser InQuoted g fs)) by reflexivity. apply E0. }
  assert (L : forall g c v, fits (g ++ c :: v) -> fits (g ++ [c])).
  { intros g c v F. unfold fits in *. rewrite app_length in *. cbn [length] in *. lia. }
  induction u as [|c u IH]; intros g fs st Q F.
  - rewrite app_nil_r. cbn [tokens]. destruct st; [apply E1|apply E0].
  - assert (Nc : c <> QUOTE) by (intros ->; apply Q; left; reflexivity).
    destruct u as [|c' u].
    + assert (S1 : step d (Parser InQuoted g fs) (Ch c) = Ok (Parser InQuoted (g ++ [c]) fs)).
      { destruct Hd as [Hq _]. cbn [step p_state]. rewrite Hq, (eqb_no _ _ Nc). apply (add_fits _ _ _ c []). exact F. }
      assert (T : tokens [c] st = [Ch c; Eol]).
      { cbn [tokens]. destruct (Ascii.eqb c LF); [reflexivity|]. destruct (Ascii.eqb c CR); reflexivity. }
      rewrite T, (run_step d _ _ _ (Parser InQuoted (g ++ [c]) fs)) by (exact S1 || reflexivity). apply E1.
    + rewrite (run_inquoted_char d Hd c (c' :: u) g fs st Nc (L _ _ _ F) ltac:(discriminate)).
      rewrite IH; [rewrite <- app_assoc; reflexivity|intros I; apply Q; right; exact I|rewrite <- app_assoc; exact F].
Qed.

Lemma run_cells row fs : Forall2 (reads d) row fs -> forall S gs rest st, ready S -> rest <> [] ->
  exists S' st', ready S' /\
    run d (tokens (flat_map (fun f => f ++ [d_delim d]) row ++ rest) st) (Parser S [] gs) = run d (tokens rest st') (Parser S' [] (gs ++ fs)).
Proof.
  induction 1 as [|enc f row fs Hf HF IH]; intros S gs rest st HS HR.
  - exists S, st. cbn [flat_map app]. rewrite app_nil_r. auto.
  - cbn [flat_map]. rewrite <- !app_assoc. cbn [app].
    destruct (Hf S gs (d_delim d :: flat_map (fun f => f ++ [d_delim d]) row ++ rest) st HS ltac:(discriminate)) as (Q & -> & HQ).
    pose proof Hd as [H0 [H1 [H2 [H3 H4]]]]. rewrite tokens_plain by assumption.
    rewrite (run_step d _ _ _ (Parser StartField [] (gs ++ [f]))); [| |reflexivity].
    + destruct (IH StartField (gs ++ [f]) rest true ltac:(right; reflexivity) HR) as (S' & st' & HS' & ->).
      exists S', st'. split; [exact HS'|]. rewrite <- app_assoc. reflexivity.
    + apply end_delim; [exact Hd|]. unfold ended. destruct HQ as [->|[->|[->|[-> [_ [_ ->]]]]]]; auto 8.
Qed.
End open.

(** A cell that begins with a quotation mark which is never closed takes everything up to the end of the file,
    line ends and all: the later lines give no pairs, and nothing is reported. *)
Theorem C116_open_quotation : forall other c eol (names : list text) (rows : list (list text)) (row : list text) (u : text),
  In c [","; ascii_of_nat 9; ";"]%char -> In eol [[LF]; [CR; LF]; [CR]] -> 2 <= length names ->
  (forall n x, In n names -> In x n -> ~ In x [","; ascii_of_nat 9; ";"; ascii_of_nat 34; "'"; CR; LF]%char) ->
  (exists n, In n (tl names) /\ hd ","%char n <> " "%char) ->
  (forall row' f, In row' (row :: rows) -> In f row' -> Forall (fun x => x <> c /\ x <> CR /\ x <> LF) f /\ hd ","%char f <> QUOTE) ->
  (forall row' f, In row' (names :: row :: rows) -> In f row' -> (Z.of_nat (length f) <= 131072)%Z) -> ~ In [[]] rows ->
  ~ In QUOTE u -> (Z.of_nat (length u) <= 131072)%Z ->
  read_pairs_file other (plain_file c eol (names :: rows) ++ flat_map (fun f => f ++ [c]) row ++ QUOTE :: u) =
  read_pairs (map string_of_list_ascii names) (rows ++ [row ++ [u]]).
Proof.
  intros other c eol names rows row u D E L H [n0 [I0 N0]] R F NE Qu Fu.
  change (In c delims) in D. change (In eol eols) in E.
  assert (CN : c <> CR /\ c <> LF) by (cbn [delims In] in D; destruct D as [<-|[<-|[<-|[]]]]; split; discriminate).
  assert (B : forallb blank (tl names) = false).
  { apply not_true_is_false. intros T. rewrite forallb_forall in T. specialize (T n0 I0). unfold blank in T. apply Ascii.eqb_eq in T. contradiction. }
  assert (noLF : forall es, In es (names :: row :: rows) -> forall f, In f es -> ~ In LF f).
  { intros es I f A K. destruct I as [<-|I].
    - apply (H f LF A K). cbn [In]. auto 8.
    - destruct (R es f I A) as [Q _]. rewrite Forall_forall in Q. destruct (Q LF K) as [_ [_ X]]. apply X. reflexivity. }
  assert (HR : forall es, In es (names :: rows) -> hd COMMA (sep_by c es) <> LF).
  { intros es I J. assert (K : In LF (sep_by c es)).
    { destruct (sep_by c es) as [|x v]; [discriminate|]. cbn [hd] in J. left. exact J. }
    apply sep_chars in K as [K|[f [A K]]]; [destruct CN; congruence|]. apply (noLF es) with (f := f); auto. cbn [In] in *. tauto. }
  set (rest := flat_map (fun f => f ++ [c]) row ++ QUOTE :: u).
  assert (HRest : hd COMMA rest <> LF).
  { unfold rest. destruct row as [|f row']; [discriminate|]. cbn [flat_map]. rewrite <- !app_assoc. destruct f as [|x f]; [exact (proj2 CN)|].
    cbn [app hd]. intros ->. apply (noLF ((LF :: f) :: row') ltac:(cbn [In]; auto) (LF :: f)); left; reflexivity. }
  unfold read_pairs_file, plain_file. cbn [flat_map]. rewrite <- !app_assoc. rewrite first_line_app.
  - rewrite (eq_trans (sniff_plain other c names eol D E L H) (f_equal (fun b => Ok (Dialect c QUOTE false b)) B)). cbn [bind].
    set (d := {| d_delim := c; d_quote := QUOTE; d_double := false; d_skip := false |}).
    assert (S : sane d) by (apply plain_sane; exact D).
    assert (one : forall f, Forall (fun x => x <> c /\ x <> CR /\ x <> LF) f -> hd COMMA f <> QUOTE -> fits f -> reads d f f).
    { intros f A Bq Ff. apply reads_bare; try assumption. discriminate. }
    assert (all : forall l : list text, (forall f, In f l -> reads d f f) -> Forall2 (reads d) l l).
    { induction l as [|f l IH]; intros G; [constructor|]. constructor; [apply G; left; reflexivity|apply IH; intros g I; apply G; right; exact I]. }
    assert (cells : forall r, In r (row :: rows) -> Forall2 (reads d) r r).
    { intros r I. apply all. intros f J. destruct (R r f I J) as [A1 A2]. apply one; auto. apply (F r f); [right; exact I|exact J]. }
    replace (sep_by c names ++ eol ++ flat_map (fun r => sep_by c r ++ eol) rows ++ rest)
      with (flat_map (fun es => sep_by (d_delim d) es ++ eol) (names :: rows) ++ rest) by (cbn [flat_map]; rewrite <- !app_assoc; reflexivity).
    unfold read_rows. rewrite (run_rows d S eol E (names :: rows) (names :: rows)); auto.
    + destruct (run_cells d S row row (cells row (or_introl eq_refl)) StartRecord [] (QUOTE :: u) false ltac:(left; reflexivity) ltac:(discriminate)) as (S' & st' & HS' & RC).
      change (flat_map (fun f => f ++ [d_delim d]) row ++ QUOTE :: u) with rest in RC. change (Parser StartRecord [] []) with fresh in RC.
      rewrite RC. cbn [app]. rewrite tokens_quote.
      rewrite (run_step d _ _ _ (Parser InQuoted [] row)); [| |reflexivity].
      * rewrite run_open by assumption. cbn [fst snd app]. destruct (read_pairs _ _); reflexivity.
      * rewrite start_step; [reflexivity|exact HS'| |discriminate]. intros x X. injection X as <-. split; discriminate.
    + constructor.
      * split; [|intros ->; cbn [length] in L; lia]. apply all. intros n I. apply one; [| |apply (F names n); [left; reflexivity|exact I]].
        -- apply Forall_forall. intros x J. specialize (H n x I J). cbn [delims In] in *. repeat split; intros ->; intuition.
        -- intros J. destruct n as [|x n]; [discriminate|]. cbn [hd] in J. apply (H (x :: n) x I (or_introl eq_refl)). subst x. cbn [In]. auto.
      * assert (G : forall l, incl l rows -> Forall2 (fun es fs => Forall2 (reads d) es fs /\ es <> [[]]) l l).
        { induction l as [|r l IH]; intros G; [constructor|]. constructor; [|apply IH; intros x I; apply G; right; exact I].
          assert (Ir : In r rows) by (apply G; left; reflexivity).
          split; [apply cells; right; exact Ir|intros ->; exact (NE Ir)]. }
        apply G. intros x I. exact I.
  - intros x I. apply sep_chars in I as [->|[n [A K]]]; [exact CN|]. specialize (H n x A K). cbn [In] in H. split; intros ->; apply H; auto 8.
  - exact E.
  - intros Ee. destruct rows as [|row1 rows]; [exact HRest|]. cbn [flat_map]. rewrite <- !app_assoc.
    specialize (HR row1 (or_intror (or_introl eq_refl))). subst eol. destruct (sep_by c row1); [discriminate|exact HR].
Qed.
Print Assumptions C116_open_quotation.

(** With quotations a missing last line end does make a difference, as do the line ends inside them. *)
Theorem C116_line_ends_refuted : exists s t, (forall other, read_pairs_file other (s ++ [LF]) <> read_pairs_file other s) /\
  forall other, read_pairs_file other (unix t) <> read_pairs_file other t.
Proof.
  exists (lit "reference_image;modified_image" ++ [LF] ++ lit "a;" ++ [QUOTE] ++ lit "b"),
    (lit "reference_image;modified_image" ++ [LF] ++ lit "a;" ++ [QUOTE] ++ lit "b" ++ [CR] ++ lit "c" ++ [QUOTE]).
  split; intros other; vm_compute; discriminate.
Qed.
Print Assumptions C116_line_ends_refuted.

(** The second pair is lost, the path in the first one is not that of a file. *)
Example C116_open_example : forall other,
  read_pairs_file other (lit "reference_image;modified_image" ++ [LF] ++ lit "a.raw;" ++ [QUOTE] ++ lit "b.raw" ++ [LF] ++ lit "c.raw;d.raw" ++ [LF]) =
    Ok [Pair (Some (lit "a.raw")) (Some (lit "b.raw" ++ [LF] ++ lit "c.raw;d.raw" ++ [LF]))].
Proof. intros other. vm_compute. reflexivity. Qed.

Example C116_mixed_example : forall other,
  read_pairs_file other (lit "reference_image;modified_image" ++ [CR; LF] ++ lit "a.raw;b.raw" ++ [LF] ++ lit "c.raw;d.raw") =
    Ok [Pair (Some (lit "a.raw")) (Some (lit "b.raw")); Pair (Some (lit "c.raw")) (Some (lit "d.raw"))].
Proof. intros other. vm_compute. reflexivity. Qed.
