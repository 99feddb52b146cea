(** The version found by the build and by the documentation, and the generated requirement files: property C145. *)
From Verif Require Import Base LoadModel LoadProofs LoadTextProofs BuildModel.

(** ** Lines *)

Lemma readlines_line l s : free_of newline l -> readlines (l ++ newline :: s) = (l ++ [newline]) :: readlines s.
Proof.
  induction l as [|c l IH]; intros H; [reflexivity|]. cbn [app readlines].
  destruct (Ascii.eqb_spec c newline) as [->|_]; [destruct (H (or_introl eq_refl))|].
  rewrite IH; [reflexivity|]. intros X. apply H. right. exact X.
Qed.

Definition lines_text (ls : list text) : text := flat_map (fun l => l ++ [newline]) ls.

Lemma readlines_text ls s : Forall (free_of newline) ls ->
  readlines (lines_text ls ++ s) = map (fun l => l ++ [newline]) ls ++ readlines s.
Proof.
  induction 1 as [|l ls H _ IH]; [reflexivity|]. cbn [lines_text flat_map map app]. rewrite <- !app_assoc. cbn [app].
  rewrite readlines_line by exact H. f_equal. exact IH.
Qed.

Definition marked (l : text) : Prop := exists x, l = lit "__version__" ++ x.

Lemma starts_marked l : free_of newline l -> startswith (lit "__version__") (l ++ [newline]) = true <-> marked l.
Proof.
  intros F. unfold startswith, text_eqb. split.
  - destruct (list_eq_dec ascii_dec _ _) as [E|]; [|discriminate]. intros _.
    assert (L : length (lit "__version__") <= length l).
    { destruct (le_lt_dec (length (lit "__version__")) (length l)) as [Y|Y]; [exact Y|]. exfalso.
      assert (X : In newline (lit "__version__")).
      { rewrite <- E. rewrite firstn_all2; [apply in_or_app; right; left; reflexivity|].
        rewrite app_length. cbn [length] in *. simpl in Y |- *. lia. }
      simpl in X. intuition discriminate. }
    rewrite firstn_app in E. replace (length (lit "__version__") - length l) with 0 in E by lia.
    rewrite firstn_O, app_nil_r in E. exists (skipn (length (lit "__version__")) l). rewrite <- E at 1. symmetry. apply firstn_skipn.
  - intros (x & ->). destruct (list_eq_dec ascii_dec _ _) as [E|N]; [reflexivity|]. destruct N. reflexivity.
Qed.

(** The line a script takes: the first one that starts with the name. *)
Lemma find_line before l after : Forall (free_of newline) before -> Forall (fun x => ~ marked x) before -> free_of newline l -> marked l ->
  find (startswith (lit "__version__")) (readlines (lines_text before ++ l ++ newline :: after)) = Some (l ++ [newline]).
Proof.
  intros F N Fl M. rewrite readlines_text by exact F. rewrite readlines_line by exact Fl.
  induction before as [|b before IH]; cbn [map app find].
  - rewrite (proj2 (starts_marked l Fl) M). reflexivity.
  - inversion F; inversion N; subst. destruct (startswith (lit "__version__") (b ++ [newline])) eqn:E.
    + apply starts_marked in E; [contradiction|assumption].
    + apply IH; assumption.
Qed.

Lemma lstrip_blanks b s : forallb is_space b = true -> lstrip (b ++ s) = lstrip s.
Proof. induction b as [|c b IH]; intros H; [reflexivity|]. cbn [forallb] in H. apply andb_true_iff in H as [A B]. cbn [app lstrip]. rewrite A. exact (IH B). Qed.

Lemma strip_line x s y b : is_space x = false -> is_space y = false -> forallb is_space b = true ->
  strip ((x :: s ++ [y]) ++ b) = x :: s ++ [y].
Proof.
  intros A B C. unfold strip. cbn [app lstrip]. rewrite A. rewrite app_comm_cons, app_comm_cons, rev_app_distr.
  assert (C' : forallb is_space (rev b) = true).
  { apply forallb_forall. intros c Hc. apply in_rev in Hc. rewrite forallb_forall in C. exact (C c Hc). }
  rewrite lstrip_blanks by exact C'. rewrite rev_app_distr. cbn [rev app lstrip]. rewrite B.
  change (y :: rev s ++ [x]) with ([y] ++ rev s ++ [x]). rewrite !rev_app_distr, rev_involutive. reflexivity.
Qed.

Lemma filter_free c s : free_of c s -> filter (fun d => negb (Ascii.eqb d c)) s = s.
Proof.
  induction s as [|d s IH]; intros H; [reflexivity|]. cbn [filter].
  destruct (Ascii.eqb_spec d c) as [->|_]; [destruct (H (or_introl eq_refl))|]. cbn [negb]. f_equal. apply IH.
  intros X. apply H. right. exact X.
Qed.

Lemma no_assign_free s : free_of "=" s -> no_assign s.
Proof. intros H a b E. apply H. rewrite E. apply in_or_app. right. right. left. reflexivity. Qed.

(** A version: neither line ends nor equality signs nor quotation marks. *)
Definition version_ok (v : text) : Prop := free_of newline v /\ free_of "=" v /\ free_of dq v /\ free_of sq v.
(** Blanks at the end of a line *)
Definition blanks (b : text) : Prop := forallb is_space b = true /\ free_of newline b.

Lemma free_app c a b : free_of c a -> free_of c b -> free_of c (a ++ b).
Proof. intros A B X. apply in_app_or in X as [X|X]; [exact (A X)|exact (B X)]. Qed.
Lemma free_cons c d a : d <> c -> free_of c a -> free_of c (d :: a).
Proof. intros A B [X|X]; [exact (A X)|exact (B X)]. Qed.
Lemma free_nil c : free_of c [].
Proof. intros []. Qed.
Lemma blanks_free c b : blanks b -> is_space c = false -> free_of c b.
Proof. intros [A _] H X. rewrite forallb_forall in A. rewrite (A c X) in H. discriminate. Qed.

(** ** The version *)

(** What both readers make of the line [k = "v"c], [c] being what follows the quotation marks ([q]: either kind). *)
Lemma build_of before k q v y c after b :
  Forall (free_of newline) before -> Forall (fun x => ~ marked x) before ->
  marked k -> free_of newline k -> free_of "=" k -> version_ok v -> q = dq \/ q = sq ->
  free_of newline c -> free_of "=" c -> free_of dq c -> free_of sq c -> blanks b ->
  (c = [] /\ y = q \/ exists c', c = c' ++ [y] /\ is_space y = false) ->
  build_version (lines_text before ++ (k ++ lit " = " ++ q :: v ++ q :: c ++ b) ++ newline :: after) = Version (v ++ c).
Proof.
  intros F N M Fk Ek (V1 & V2 & V3 & V4) Q C1 C2 C3 C4 B Y. unfold build_version.
  assert (QN : q <> newline /\ q <> "="%char /\ is_space q = false) by (destruct Q as [-> | ->]; repeat split; discriminate).
  destruct QN as (Q1 & Q2 & Q3).
  rewrite find_line; [|exact F|exact N| |].
  2:{ apply free_app; [exact Fk|]. apply free_app; [intros X; simpl in X; intuition discriminate|].
      apply free_cons; [exact Q1|]. apply free_app; [exact V1|]. apply free_cons; [exact Q1|]. apply free_app; [exact C1|exact (proj2 B)]. }
  2:{ destruct M as (x & ->). exists (x ++ lit " = " ++ q :: v ++ q :: c ++ b). rewrite <- app_assoc. reflexivity. }
  assert (S : strip ((k ++ lit " = " ++ q :: v ++ q :: c ++ b) ++ [newline]) = k ++ lit " = " ++ q :: v ++ q :: c).
  { destruct M as (x & ->).
    assert (Hb : forallb is_space (b ++ [newline]) = true) by (rewrite forallb_app, (proj1 B); reflexivity).
    assert (E : exists s z, (lit "__version__" ++ x) ++ lit " = " ++ q :: v ++ q :: c = "_"%char :: s ++ [z] /\ is_space z = false).
    { destruct Y as [(-> & ->)|(c' & -> & Hy)].
      - exists (lit "_version__" ++ x ++ lit " = " ++ q :: v), q. split; [|exact Q3]. cbn. rewrite <- !app_assoc. reflexivity.
      - exists (lit "_version__" ++ x ++ lit " = " ++ q :: v ++ q :: c'), y. split; [|exact Hy]. cbn. repeat (rewrite <- !app_assoc; cbn [app]). reflexivity. }
    destruct E as (s & z & E & Hz).
    replace (((lit "__version__" ++ x) ++ lit " = " ++ q :: v ++ q :: c ++ b) ++ [newline])
      with (((lit "__version__" ++ x) ++ lit " = " ++ q :: v ++ q :: c) ++ (b ++ [newline])).
    - rewrite E. apply strip_line; [reflexivity|exact Hz|exact Hb].
    - cbn. repeat (rewrite <- !app_assoc; cbn [app]). reflexivity. }
  rewrite S. rewrite split_assign_key by exact Ek. rewrite split_assign_none.
  2:{ apply no_assign_free. apply free_cons; [exact Q2|]. apply free_app; [exact V2|]. apply free_cons; [exact Q2|exact C2]. }
  f_equal. change (q :: v ++ q :: c) with ([q] ++ v ++ [q] ++ c).
  rewrite !filter_app, (filter_free dq v V3), (filter_free dq c C3), (filter_free sq v V4), (filter_free sq c C4).
  replace (filter (fun x => negb (x =? sq)%char) (filter (fun x => negb (x =? dq)%char) [q])) with (@nil ascii); [reflexivity|].
  destruct Q as [-> | ->]; reflexivity.
Qed.

Lemma split_dq a v c : free_of dq a -> free_of dq v -> split_chr dq (a ++ dq :: v ++ dq :: c) = a :: v :: split_chr dq c.
Proof. intros A B. rewrite split_chr_app by (apply free_forallb; exact A). rewrite split_chr_app by (apply free_forallb; exact B). reflexivity. Qed.

(** Without a comment behind it, a version in double quotation marks is found by both, whatever stands before the
    equality sign (an annotation), in earlier lines and in later lines. *)
Theorem C145_agree : forall before k v b after,
  Forall (free_of newline) before -> Forall (fun x => ~ marked x) before ->
  marked k -> free_of newline k -> free_of "=" k -> free_of dq k -> version_ok v -> blanks b ->
  let init := lines_text before ++ (k ++ lit " = " ++ dq :: v ++ dq :: b) ++ newline :: after in
  build_version init = Version v /\ docs_version init = Version v.
Proof.
  intros before k v b after F N M Fk Ek Dk V B init. split; unfold init.
  - rewrite <- (app_nil_r v) at 2.
    apply (build_of before k dq v dq [] after b); try assumption; try (left; reflexivity); try apply free_nil.
    left. split; reflexivity.
  - destruct V as (V1 & V2 & V3 & V4). unfold docs_version. rewrite find_line; [|exact F|exact N| |].
    + replace ((k ++ lit " = " ++ dq :: v ++ dq :: b) ++ [newline]) with ((k ++ lit " = ") ++ dq :: v ++ dq :: b ++ [newline])
        by (repeat (rewrite <- !app_assoc; cbn [app]); reflexivity).
      rewrite split_dq; [reflexivity| |exact V3]. apply free_app; [exact Dk|]. intros X; simpl in X; intuition discriminate.
    + apply free_app; [exact Fk|]. apply free_app; [intros X; simpl in X; intuition discriminate|].
      apply free_cons; [discriminate|]. apply free_app; [exact V1|]. apply free_cons; [discriminate|exact (proj2 B)].
    + destruct M as (x & ->). exists (x ++ lit " = " ++ dq :: v ++ dq :: b). rewrite <- app_assoc. reflexivity.
Qed.
Print Assumptions C145_agree.

(** A comment in the line becomes part of the version of the package, but not of that of the documentation. *)
Theorem C145_comment : forall before k v c y b after,
  Forall (free_of newline) before -> Forall (fun x => ~ marked x) before ->
  marked k -> free_of newline k -> free_of "=" k -> free_of dq k -> version_ok v -> version_ok (c ++ [y]) -> is_space y = false -> blanks b ->
  let init := lines_text before ++ (k ++ lit " = " ++ dq :: v ++ dq :: (c ++ [y]) ++ b) ++ newline :: after in
  build_version init = Version (v ++ c ++ [y]) /\ docs_version init = Version v.
Proof.
  intros before k v c y b after F N M Fk Ek Dk V (C1 & C2 & C3 & C4) Y B init. split; unfold init.
  - apply (build_of before k dq v y (c ++ [y]) after b); try assumption; try (left; reflexivity).
    right. exists c. split; [reflexivity|exact Y].
  - destruct V as (V1 & V2 & V3 & V4). unfold docs_version. rewrite find_line; [|exact F|exact N| |].
    + replace ((k ++ lit " = " ++ dq :: v ++ dq :: (c ++ [y]) ++ b) ++ [newline]) with ((k ++ lit " = ") ++ dq :: v ++ dq :: (c ++ [y]) ++ b ++ [newline])
        by (repeat (rewrite <- !app_assoc; cbn [app]); reflexivity).
      rewrite split_dq; [reflexivity| |exact V3]. apply free_app; [exact Dk|]. intros X; simpl in X; intuition discriminate.
    + apply free_app; [exact Fk|]. apply free_app; [intros X; simpl in X; intuition discriminate|].
      apply free_cons; [discriminate|]. apply free_app; [exact V1|]. apply free_cons; [discriminate|].
      apply free_app; [exact C1|exact (proj2 B)].
    + destruct M as (x & ->). exists (x ++ lit " = " ++ dq :: v ++ dq :: (c ++ [y]) ++ b). rewrite <- app_assoc. reflexivity.
Qed.
Print Assumptions C145_comment.

(** Single quotation marks suit the build only: building the documentation ends with an IndexError. *)
Theorem C145_single : forall before k v b after,
  Forall (free_of newline) before -> Forall (fun x => ~ marked x) before ->
  marked k -> free_of newline k -> free_of "=" k -> free_of dq k -> version_ok v -> blanks b ->
  let init := lines_text before ++ (k ++ lit " = " ++ sq :: v ++ sq :: b) ++ newline :: after in
  build_version init = Version v /\ docs_version init = NoItem.
Proof.
  intros before k v b after F N M Fk Ek Dk V B init. split; unfold init.
  - rewrite <- (app_nil_r v) at 2.
    apply (build_of before k sq v sq [] after b); try assumption; try (right; reflexivity); try apply free_nil.
    left. split; reflexivity.
  - destruct V as (V1 & V2 & V3 & V4). unfold docs_version. rewrite find_line; [|exact F|exact N| |].
    + rewrite split_chr_free; [reflexivity|]. apply free_forallb. apply free_app; [|intros [X|[]]; discriminate].
      apply free_app; [exact Dk|]. apply free_app; [intros X; simpl in X; intuition discriminate|].
      apply free_cons; [discriminate|]. apply free_app; [exact V3|]. apply free_cons; [discriminate|].
      exact (blanks_free dq b B eq_refl).
    + apply free_app; [exact Fk|]. apply free_app; [intros X; simpl in X; intuition discriminate|].
      apply free_cons; [discriminate|]. apply free_app; [exact V1|]. apply free_cons; [discriminate|exact (proj2 B)].
    + destruct M as (x & ->). exists (x ++ lit " = " ++ sq :: v ++ sq :: b). rewrite <- app_assoc. reflexivity.
Qed.
Print Assumptions C145_single.

(** No blanks around the equality sign: the build ends with an IndexError, the documentation finds the version. *)
Theorem C145_tight : forall before v after,
  Forall (free_of newline) before -> Forall (fun x => ~ marked x) before -> version_ok v ->
  let init := lines_text before ++ (lit "__version__=" ++ dq :: v ++ [dq]) ++ newline :: after in
  build_version init = NoItem /\ docs_version init = Version v.
Proof.
  intros before v after F N (V1 & V2 & V3 & V4) init.
  assert (FL : free_of newline (lit "__version__=" ++ dq :: v ++ [dq])).
  { apply free_app; [intros X; simpl in X; intuition discriminate|]. apply free_cons; [discriminate|].
    apply free_app; [exact V1|]. intros [X|[]]; discriminate. }
  assert (ML : marked (lit "__version__=" ++ dq :: v ++ [dq])) by (exists ("="%char :: dq :: v ++ [dq]); reflexivity).
  unfold init, build_version, docs_version. rewrite find_line by assumption. split.
  - assert (S : strip ((lit "__version__=" ++ dq :: v ++ [dq]) ++ [newline]) = lit "__version__=" ++ dq :: v ++ [dq]).
    { pose proof (strip_line "_" (lit "_version__=" ++ dq :: v) dq [newline] eq_refl eq_refl eq_refl) as H.
      replace ("_"%char :: (lit "_version__=" ++ dq :: v) ++ [dq]) with (lit "__version__=" ++ dq :: v ++ [dq]) in H; [exact H|].
      cbn. rewrite <- ?app_assoc. reflexivity. }
    rewrite S. rewrite split_assign_none; [reflexivity|].
    intros a b E. assert (X : In "="%char a \/ (a = lit "__version__" /\ False)).
    { left. assert (L : 12 <= length a \/ length a < 12) by lia. destruct L as [L|L].
      - assert (P : firstn 12 (lit "__version__=" ++ dq :: v ++ [dq]) = firstn 12 a).
        { rewrite E. rewrite firstn_app. replace (12 - length a) with 0 by lia. rewrite firstn_O, app_nil_r. reflexivity. }
        rewrite <- (firstn_skipn 12 a), <- P. apply in_or_app. left. cbn. tauto.
      - exfalso. assert (P : nth (length a) (lit "__version__=" ++ dq :: v ++ [dq]) "x"%char = " "%char).
        { rewrite E. rewrite app_nth2 by lia. rewrite Nat.sub_diag. reflexivity. }
        do 12 (destruct a as [|? a]; [cbn in P; discriminate P|cbn [length] in *]). lia. }
    destruct X as [X|[_ []]].
    assert (Y : count_occ ascii_dec (lit "__version__=" ++ dq :: v ++ [dq]) "="%char = 1).
    { rewrite count_occ_app. cbn [count_occ]. rewrite count_occ_app.
      rewrite (proj1 (count_occ_not_In ascii_dec v "="%char) V2). reflexivity. }
    rewrite E, count_occ_app in Y. apply (count_occ_In ascii_dec) in X.
    assert (Z1 : 1 <= count_occ ascii_dec (lit " = " ++ b) "="%char).
    { apply (count_occ_In ascii_dec). right. left. reflexivity. }
    lia.
  - replace ((lit "__version__=" ++ dq :: v ++ [dq]) ++ [newline]) with (lit "__version__=" ++ dq :: v ++ dq :: [newline])
      by (cbn; rewrite <- ?app_assoc; reflexivity).
    rewrite split_dq; [reflexivity| |exact V3]. intros X; simpl in X; intuition discriminate.
Qed.
Print Assumptions C145_tight.

(** No such line: the build stops, the documentation gets a placeholder. *)
Theorem C145_missing : forall ls, Forall (free_of newline) ls -> Forall (fun x => ~ marked x) ls ->
  build_version (lines_text ls) = StopIteration /\ docs_version (lines_text ls) = Version (lit "vUndefined").
Proof.
  intros ls F N. assert (X : find (startswith (lit "__version__")) (readlines (lines_text ls)) = None).
  { rewrite <- (app_nil_r (lines_text ls)), readlines_text by exact F. cbn [readlines]. rewrite app_nil_r.
    induction ls as [|l ls IH]; [reflexivity|]. inversion F; inversion N; subst. cbn [map find].
    destruct (startswith (lit "__version__") (l ++ [newline])) eqn:E; [apply starts_marked in E; [contradiction|assumption]|].
    apply IH; assumption. }
  unfold build_version, docs_version. rewrite X. split; reflexivity.
Qed.
Print Assumptions C145_missing.

(** The last line of the file needs no line end. *)
Theorem C145_last : forall before l, Forall (free_of newline) before -> free_of newline l ->
  build_version (lines_text before ++ l) = build_version (lines_text before ++ l ++ [newline]) /\
  (forall a v c, l = a ++ dq :: v ++ dq :: c -> free_of dq a -> free_of dq v ->
     docs_version (lines_text before ++ l) = docs_version (lines_text before ++ l ++ [newline])).
Proof.
  intros before l F Fl. unfold build_version, docs_version. rewrite (readlines_text before l F), (readlines_text before (l ++ [newline]) F).
  rewrite readlines_line by exact Fl. cbn [readlines].
  destruct l as [|x l].
  { split.
    - induction (map (fun l => l ++ [newline]) before) as [|y ys IH]; [reflexivity|]. cbn [app find readlines].
      destruct (startswith (lit "__version__") y); [reflexivity|exact IH].
    - intros [|? ?] v c X; discriminate. }
  assert (E : readlines (x :: l) = [x :: l]).
  { clear F. revert x Fl. induction l as [|y l IH]; intros x Fl; cbn [readlines].
    - destruct (Ascii.eqb_spec x newline) as [->|_]; [destruct (Fl (or_introl eq_refl))|reflexivity].
    - destruct (Ascii.eqb_spec x newline) as [->|_]; [destruct (Fl (or_introl eq_refl))|].
      cbn [readlines] in IH. rewrite (IH y); [reflexivity|]. intros X. apply Fl. right. exact X. }
  rewrite E. clear E.
  assert (S : startswith (lit "__version__") (x :: l) = startswith (lit "__version__") ((x :: l) ++ [newline])).
  { destruct (startswith (lit "__version__") ((x :: l) ++ [newline])) eqn:E.
    - apply starts_marked in E as (y & ->); [|exact Fl]. unfold startswith, text_eqb.
      destruct (list_eq_dec ascii_dec _ _) as [X|N]; [reflexivity|]. destruct N. reflexivity.
    - destruct (startswith (lit "__version__") (x :: l)) eqn:G; [|reflexivity]. exfalso.
      unfold startswith, text_eqb in G. destruct (list_eq_dec ascii_dec _ _) as [X|]; [|discriminate G].
      assert (M : marked (x :: l)).
      { exists (skipn (length (lit "__version__")) (x :: l)). rewrite <- X at 1. symmetry. apply firstn_skipn. }
      apply (starts_marked (x :: l) Fl) in M. congruence. }
  assert (G : forall {A} (f : option text -> A), (f (Some (x :: l)) = f (Some ((x :: l) ++ [newline])) \/ startswith (lit "__version__") (x :: l) = false) ->
    f (find (startswith (lit "__version__")) (map (fun l => l ++ [newline]) before ++ [x :: l]))
    = f (find (startswith (lit "__version__")) (map (fun l => l ++ [newline]) before ++ [(x :: l) ++ [newline]]))).
  { intros A f H. induction (map (fun l => l ++ [newline]) before) as [|y ys IH]; cbn [app find].
    - change (x :: l ++ [newline]) with ((x :: l) ++ [newline]). rewrite <- S. destruct (startswith (lit "__version__") (x :: l)); [|reflexivity]. destruct H as [H|H]; [exact H|discriminate].
    - destruct (startswith (lit "__version__") y); [reflexivity|exact IH]. }
  split.
  - apply (G _ (fun o => match o with None => _ | Some l => _ end)).
    destruct (startswith (lit "__version__") (x :: l)) eqn:Q; [left|right; reflexivity].
    symmetry in S. apply starts_marked in S as (y & X); [|exact Fl]. rewrite X.
    replace (strip ((lit "__version__" ++ y) ++ [newline])) with (strip (lit "__version__" ++ y)); [reflexivity|].
    change (strip (lit "__version__" ++ y)) with (rev (lstrip (rev (lit "__version__" ++ y)))).
    change (strip ((lit "__version__" ++ y) ++ [newline])) with (rev (lstrip (rev ((lit "__version__" ++ y) ++ [newline])))).
    rewrite (rev_app_distr (lit "__version__" ++ y) [newline]). reflexivity.
  - intros a v c X A B. apply (G _ (fun o => match o with None => _ | Some l => _ end)). left. rewrite X, split_dq by assumption.
    rewrite <- app_assoc. cbn [app]. rewrite <- app_assoc. cbn [app]. rewrite split_dq by assumption. reflexivity.
Qed.
Print Assumptions C145_last.

(** Line 8 of the file as it is. *)
Example C145_version_example :
  let init := lines_text [lit "import os"; lit "__version__ = ""2.2.4"""; lit "__version__ = ""3.0.0"""] in
  build_version init = Version (lit "2.2.4") /\ docs_version init = Version (lit "2.2.4").
Proof. split; reflexivity. Qed.
Example C145_comment_example :
  let init := lines_text [lit "__version__ = ""2.2.4""  # next: 3"] in
  build_version init = Version (lit "2.2.4  # next: 3") /\ docs_version init = Version (lit "2.2.4").
Proof. split; reflexivity. Qed.

(** ** The requirement files *)

Lemma join_lines ls : ls <> [] -> join_nl ls ++ [newline] = lines_text ls.
Proof.
  induction ls as [|x ls IH]; intros H; [destruct (H eq_refl)|]. destruct ls as [|y ls].
  - cbn. rewrite app_nil_r. reflexivity.
  - change (join_nl (x :: y :: ls)) with (x ++ newline :: join_nl (y :: ls)).
    change (lines_text (x :: y :: ls)) with ((x ++ [newline]) ++ lines_text (y :: ls)).
    rewrite <- IH by discriminate. rewrite <- !app_assoc. reflexivity.
Qed.

(** A file has the two lines of the header and then one line per requirement, in order. *)
Theorem C145_lines : forall reqs, Forall (free_of newline) reqs ->
  readlines (req_text reqs)
  = [lit "# Generated via tools/generate_requirements.py and pre-commit hook." ++ [newline];
     lit "# Do not edit this file; modify pyproject.toml instead." ++ [newline]] ++ map (fun l => l ++ [newline]) reqs.
Proof.
  intros reqs H. unfold req_text. rewrite join_lines by discriminate. rewrite <- (app_nil_r (lines_text _)), readlines_text.
  - rewrite map_app. cbn [readlines]. rewrite app_nil_r. reflexivity.
  - apply Forall_app. split; [|exact H].
    repeat apply Forall_cons; try apply Forall_nil; intros X; simpl in X; intuition discriminate.
Qed.
Print Assumptions C145_lines.

(** Different lists give different files. *)
Theorem C145_injective : forall a b, Forall (free_of newline) a -> Forall (free_of newline) b -> req_text a = req_text b -> a = b.
Proof.
  intros a b Ha Hb E. pose proof (C145_lines a Ha) as X. rewrite E, (C145_lines b Hb) in X. apply app_inv_head in X.
  clear -X. revert b X. induction a as [|x a IH]; intros [|y b] X; try discriminate; [reflexivity|]. injection X as X1 X2.
  apply app_inj_tail in X1 as [-> _]. f_equal. apply IH. exact X2.
Qed.
Print Assumptions C145_injective.

(** One file per group; the file of the dependencies has the name default, which a group of this name takes over. *)
Theorem C145_files : forall deps optional, NoDup (map fst optional) ->
  (forall k reqs, In (k, reqs) optional -> tget (req_files deps optional) k = Some (req_text reqs)) /\
  (~ In (lit "default") (map fst optional) -> tget (req_files deps optional) (lit "default") = Some (req_text deps)) /\
  (forall k, ~ In k (map fst optional) -> k <> lit "default" -> tget (req_files deps optional) k = None).
Proof.
  intros deps optional ND.
  assert (G : forall l d, NoDup (map fst l) -> let d' := fold_left (fun d kv => tset d (fst kv) (req_text (snd kv))) l d in
    (forall k reqs, In (k, reqs) l -> tget d' k = Some (req_text reqs)) /\ (forall k, ~ In k (map fst l) -> tget d' k = tget d k)).
  { intros l. induction l as [|[k0 r0] l IH]; intros d H; [split; [intros k reqs []|reflexivity]|]. cbn [map fst] in H. inversion H as [|? ? H1 H2]; subst.
    cbn [fold_left fst snd]. destruct (IH (tset d k0 (req_text r0)) H2) as (A & B). split.
    - intros k reqs [X|X]; [injection X as <- <-|exact (A k reqs X)]. rewrite B by exact H1. rewrite tget_tset.
      rewrite (proj2 (text_eqb_eq k0 k0) eq_refl). reflexivity.
    - intros k X. cbn [map fst] in X. rewrite B by (intros Y; apply X; right; exact Y). rewrite tget_tset.
      destruct (text_eqb k0 k) eqn:E; [apply text_eqb_eq in E; destruct X; left; exact E|reflexivity]. }
  destruct (G optional (tset [] (lit "default") (req_text deps)) ND) as (A & B). split; [exact A|]. split.
  - intros H. unfold req_files. rewrite B by exact H. reflexivity.
  - intros k H K. unfold req_files. rewrite B by exact H. rewrite tget_tset.
    destruct (text_eqb (lit "default") k) eqn:E; [apply text_eqb_eq in E; congruence|reflexivity].
Qed.
Print Assumptions C145_files.

Example C145_files_example :
  let fs := req_files [lit "numpy"] [(lit "dev", [lit "ruff"]); (lit "default", [lit "tox"])] in
  tget fs (lit "default") = Some (req_text [lit "tox"]) /\ tget fs (lit "dev") = Some (req_text [lit "ruff"]).
Proof. split; reflexivity. Qed.
