(** Exporting results, metadata and comparison images: properties C60-C63. *)
From Coq Require Import Reals Lra.
From Verif Require Import Base NdArray LoadModel LoadProofs LoadTextProofs NormModel NormProofs PairModel PairProofs MetricModel
  MetricProofs SliceModel SliceProps BatchModel BatchProofs BatchLoadProps ExportModel ExportProofs.

(** ** C60 *)

Definition scored (m : metric) : bool := match m_score m with SNone => false | _ => true end.
Definition row (m : metric) : option string * score := (m_name m, m_score m).

Lemma scored_unscored m : scored m = negb (unscored m).
Proof. unfold scored, unscored. destruct (m_score m); reflexivity. Qed.

Lemma export_results_spec ids path file rd h e h' : export_results ids path file rd h = (e, h') ->
  e_rows e = flat_map (written h ids) (seq 0 (length ids)) /\ (forall j, h' j = marked h ids j) /\
  e_path e = join path (csv_name file) /\ e_header e = ("Metric", "Value")%string /\
  e_dict e = if rd then Some (fold_left (fun acc i => rset acc (m_name (h i)) (m_score (mark (h i)))) ids []) else None.
Proof.
  unfold export_results. destruct (export_loop ids [] h) as [[rows d] h1] eqn:E. intros H. injection H as <- <-.
  apply export_loop_spec in E as (-> & Hh & ->). auto.
Qed.

Theorem C60_rows : forall ids path file rd h e h',
  NoDup ids -> export_results ids path file rd h = (e, h') ->
  e_header e = ("Metric", "Value")%string /\
  e_rows e = map (fun i => row (h i)) (filter (fun i => scored (h i)) ids).
Proof.
  intros ids path file rd h e h' N H. apply export_results_spec in H as (-> & _ & _ & Hh & _).
  split; [exact Hh|]. rewrite written_nodup by exact N. f_equal. apply filter_ext. intros i. symmetry. apply scored_unscored.
Qed.
Print Assumptions C60_rows.

(** Where the file lies: below the folder, with or without a slash at its end, except for absolute names and no
    folder. *)
Theorem C60_path : forall ids path file rd h,
  let at_ p := e_path (fst (export_results ids p file rd h)) in
  (forall rest, csv_name file = "/"%char :: rest -> at_ path = csv_name file) /\
  at_ [] = csv_name file /\
  ((forall rest, csv_name file <> "/"%char :: rest) -> path <> [] -> (forall pre, path <> pre ++ ["/"%char]) ->
   at_ path = path ++ ["/"%char] ++ csv_name file /\ at_ (path ++ ["/"%char]) = at_ path).
Proof.
  intros ids path file rd h. cbv beta zeta.
  assert (E : forall p, e_path (fst (export_results ids p file rd h)) = join p (csv_name file)).
  { intros p. destruct (export_results ids p file rd h) as [e h'] eqn:X. apply export_results_spec in X. cbn [fst]. tauto. }
  rewrite !E. generalize (csv_name file). intros n. clear E. split; [|split].
  - intros rest ->. reflexivity.
  - unfold join. destruct n as [|[[] [] [] [] [] [] [] []] n]; reflexivity.
  - intros A P L.
    assert (J : forall p, p <> [] -> join p n = if Ascii.eqb (last p "/"%char) "/"%char then p ++ n else p ++ "/"%char :: n).
    { intros p Hp. unfold join. destruct p as [|c p]; [congruence|].
      destruct n as [|[[] [] [] [] [] [] [] []] n]; try reflexivity. exfalso. eapply A. reflexivity. }
    rewrite !J by (destruct path; [congruence|discriminate]). rewrite last_last, Ascii.eqb_refl.
    destruct (Ascii.eqb_spec (last path "/"%char) "/"%char) as [X|X].
    + exfalso. apply (L (removelast path)). rewrite <- X at 1. apply app_removelast_last. exact P.
    + rewrite <- app_assoc. split; reflexivity.
Qed.
Print Assumptions C60_path.

(** Objects listed without a score get the text "n/a" as score; nothing else changes. *)
Theorem C60_objects : forall ids path file rd h e h',
  export_results ids path file rd h = (e, h') ->
  forall i, (In i ids -> m_score (h i) = SNone -> h' i = set_score (h i) (SStr "n/a")) /\
            (~ In i ids \/ m_score (h i) <> SNone -> h' i = h i).
Proof.
  intros ids path file rd h e h' H i. apply export_results_spec in H as (_ & Hh & _). rewrite Hh. unfold marked, mark, unscored.
  destruct (existsb (Nat.eqb i) ids) eqn:E.
  - split; [intros _ ->; reflexivity|]. intros [Hn|Hn].
    + exfalso. apply Hn. apply existsb_exists in E as (j & Hj & Hij). apply Nat.eqb_eq in Hij. subst. exact Hj.
    + destruct (m_score (h i)); congruence.
  - split; [|reflexivity]. intros Hin. exfalso. assert (X : existsb (Nat.eqb i) ids = true).
    { apply existsb_exists. exists i. split; [exact Hin|apply Nat.eqb_refl]. } congruence.
Qed.
Print Assumptions C60_objects.

(** A second export of the same list writes a row for every metric. *)
Theorem C60_second : forall ids path file rd h e1 h1 path2 file2 rd2 e2 h2,
  NoDup ids -> export_results ids path file rd h = (e1, h1) -> export_results ids path2 file2 rd2 h1 = (e2, h2) ->
  e_rows e2 = map (fun i => (m_name (h i), match m_score (h i) with SNone => SStr "n/a" | v => v end)) ids /\
  forall i, h2 i = h1 i.
Proof.
  intros ids path file rd h e1 h1 path2 file2 rd2 e2 h2 N H1 H2.
  apply export_results_spec in H1 as (_ & Hh1 & _). apply export_results_spec in H2 as (-> & Hh2 & _).
  assert (M : forall i, In i ids -> h1 i = mark (h i)).
  { intros i Hi. rewrite Hh1. unfold marked. destruct (existsb (Nat.eqb i) ids) eqn:E; [reflexivity|].
    exfalso. assert (X : existsb (Nat.eqb i) ids = true).
    { apply existsb_exists. exists i. split; [exact Hi|apply Nat.eqb_refl]. } congruence. }
  split.
  - rewrite written_nodup by exact N.
    assert (F : filter (fun i => negb (unscored (h1 i))) ids = ids).
    { clear -M. induction ids as [|i ids IH]; [reflexivity|]. cbn [filter]. rewrite (M i (or_introl eq_refl)), mark_scored.
      cbn [negb]. rewrite IH; [reflexivity|]. intros j Hj. apply M. right. exact Hj. }
    rewrite F. apply map_ext_in. intros i Hi. rewrite (M i Hi). unfold mark, unscored.
    destruct (m_score (h i)) eqn:E; [reflexivity| |]; rewrite E; reflexivity.
  - intros i. rewrite Hh2. unfold marked. destruct (existsb (Nat.eqb i) ids) eqn:E; [|reflexivity].
    rewrite Hh1. unfold marked. rewrite E. apply mark_mark.
Qed.
Print Assumptions C60_second.

(** Lists of scored metrics (also with repetitions): one row per entry, nothing changes, exporting
    again writes the same. *)
Theorem C60_idempotent : forall ids path file rd h e1 h1 e2 h2,
  (forall i, In i ids -> m_score (h i) <> SNone) ->
  export_results ids path file rd h = (e1, h1) -> export_results ids path file rd h1 = (e2, h2) ->
  e_rows e1 = map (fun i => row (h i)) ids /\ (forall i, h1 i = h i) /\ e2 = e1 /\ (forall i, h2 i = h i).
Proof.
  intros ids path file rd h e1 h1 e2 h2 S H1 H2.
  assert (E1 := H1). assert (E2 := H2).
  apply export_results_spec in E1 as (R1 & M1 & P1 & D1 & T1). apply export_results_spec in E2 as (R2 & M2 & P2 & D2 & T2).
  assert (I1 : forall i, h1 i = h i).
  { intros i. destruct (in_dec Nat.eq_dec i ids) as [Hi|Hi]; apply (C60_objects _ _ _ _ _ _ _ H1); auto. }
  assert (I2 : forall i, h2 i = h i).
  { intros i. rewrite <- I1. destruct (in_dec Nat.eq_dec i ids) as [Hi|Hi]; apply (C60_objects _ _ _ _ _ _ _ H2); auto.
    right. rewrite I1. auto. }
  assert (W : forall g, (forall i, g i = h i) -> flat_map (written g ids) (seq 0 (length ids)) = map (fun i => row (h i)) ids).
  { intros g Hg. enough (G : forall pre ids', (forall i, In i ids' -> m_score (h i) <> SNone) ->
        flat_map (written g (pre ++ ids')) (seq (length pre) (length ids')) = map (fun i => row (h i)) ids') by (apply (G [] ids S)).
    intros pre ids'. revert pre. induction ids' as [|i ids' IH]; intros pre Hs; [reflexivity|].
    cbn [length seq flat_map map].
    replace (pre ++ i :: ids') with ((pre ++ [i]) ++ ids') by (rewrite <- app_assoc; reflexivity).
    replace (Datatypes.S (length pre)) with (length (pre ++ [i])) by (rewrite app_length; simpl; lia).
    rewrite IH by (intros j Hj; apply Hs; right; exact Hj).
    unfold written. rewrite <- app_assoc. rewrite app_nth2, Nat.sub_diag by lia. cbn [nth app]. rewrite !Hg.
    specialize (Hs i (or_introl eq_refl)). unfold mark, unscored, row. destruct (m_score (h i)) eqn:E; try congruence; rewrite ?E; reflexivity. }
  split; [rewrite R1; apply W; reflexivity|]. split; [exact I1|]. split; [|exact I2].
  destruct e1 as [p1 d1 r1 t1], e2 as [p2 d2 r2 t2]. cbn in *. subst. f_equal.
  - rewrite !W by auto. reflexivity.
  - destruct rd; [|reflexivity]. f_equal.
    assert (F : forall l acc, fold_left (fun acc i => rset acc (m_name (h1 i)) (m_score (mark (h1 i)))) l acc
                            = fold_left (fun acc i => rset acc (m_name (h i)) (m_score (mark (h i)))) l acc).
    { induction l as [|i l IHl]; intros acc; [reflexivity|]. cbn [fold_left]. rewrite I1. apply IHl. }
    apply F.
Qed.
Print Assumptions C60_idempotent.

(** An unscored object listed twice is written by its second occurrence in the same export. *)
Theorem C60_repeated : forall l1 i l2 l3 path file rd h e h',
  m_score (h i) = SNone -> export_results (l1 ++ i :: l2 ++ i :: l3) path file rd h = (e, h') ->
  In (m_name (h i), SStr "n/a") (e_rows e).
Proof.
  intros l1 i l2 l3 path file rd h e h' U H. apply export_results_spec in H as (-> & _).
  apply in_flat_map. exists (length (l1 ++ i :: l2)). split.
  - apply in_seq. rewrite !app_length. cbn [length]. rewrite app_length. cbn [length]. lia.
  - replace (l1 ++ i :: l2 ++ i :: l3) with ((l1 ++ i :: l2) ++ i :: l3) by (rewrite <- app_assoc; reflexivity).
    unfold written. rewrite app_nth2, Nat.sub_diag by lia. cbn [nth].
    rewrite firstn_app, Nat.sub_diag, firstn_all. cbn [firstn]. rewrite app_nil_r.
    assert (X : existsb (Nat.eqb i) (l1 ++ i :: l2) = true).
    { apply existsb_exists. exists i. split; [apply in_app_iff; right; left; reflexivity|apply Nat.eqb_refl]. }
    rewrite X, orb_true_r. left. f_equal. unfold mark, unscored. rewrite U. reflexivity.
Qed.
Print Assumptions C60_repeated.

(** After the export the former unscored metric is a text: it cannot be compared with numbers or
    fused; two of them compare as equal, which raised TypeError before. *)
Theorem C60_compare : forall ids path file rd h e h' i j,
  export_results ids path file rd h = (e, h') -> In i ids -> In j ids ->
  m_score (h i) = SNone -> m_score (h j) = SNone ->
  (forall x, let o := OValue (SNum x) in
     op_lt (h' i) o = Err TypeError /\ op_gt (h' i) o = Err TypeError /\
     op_le (h' i) o = Err TypeError /\ op_ge (h' i) o = Err TypeError /\ op_eq (h' i) o = false) /\
  (forall l1 l2 ws, length ws = length (l1 ++ h' i :: l2) -> fuse (l1 ++ h' i :: l2) ws = Err TypeError) /\
  op_le (h i) (OMetric (h j)) = Err TypeError /\
  op_le (h' i) (OMetric (h' j)) = Ok true /\ op_lt (h' i) (OMetric (h' j)) = Ok false /\ op_eq (h' i) (OMetric (h' j)) = true.
Proof.
  intros ids path file rd h e h' i j H Hi Hj Ui Uj.
  rewrite (proj1 (C60_objects _ _ _ _ _ _ _ H i) Hi Ui), (proj1 (C60_objects _ _ _ _ _ _ _ H j) Hj Uj).
  split; [|split].
  - intros x. repeat split.
  - intros l1 l2 ws. unfold fuse. generalize (Fin 0). revert ws. induction l1 as [|m l1 IH]; intros [|w ws] acc Hl; try discriminate.
    + reflexivity.
    + cbn [app map fuse_from]. destruct (m_score m); try reflexivity. apply IH. cbn in Hl. lia.
  - unfold op_le at 1. cbn [value_of]. rewrite Ui, Uj. repeat split.
Qed.
Print Assumptions C60_compare.

(** The returned dictionary, for metrics with different names. *)
Theorem C60_dict : forall ids path file h e h',
  NoDup (map (fun i => m_name (h i)) ids) -> export_results ids path file true h = (e, h') ->
  e_dict e = Some (map (fun i => (m_name (h i), match m_score (h i) with SNone => SStr "n/a" | v => v end)) ids).
Proof.
  intros ids path file h e h' N H. apply export_results_spec in H as (_ & _ & _ & _ & ->). f_equal.
  assert (R : forall d k v, ~ In k (map fst d) -> rset d k v = d ++ [(k, v)]).
  { induction d as [|[k' v'] d IH]; intros k v Hn; [reflexivity|]. cbn [rset].
    destruct k' as [a|], k as [b|].
    - destruct (String.eqb_spec a b) as [->|]; [exfalso; apply Hn; left; reflexivity|].
      rewrite IH; [reflexivity|]. intros X; apply Hn; right; exact X.
    - rewrite IH; [reflexivity|]. intros X; apply Hn; right; exact X.
    - rewrite IH; [reflexivity|]. intros X; apply Hn; right; exact X.
    - exfalso. apply Hn. left. reflexivity. }
  enough (G : forall l d, NoDup (map fst d ++ map (fun i => m_name (h i)) l) ->
    fold_left (fun acc i => rset acc (m_name (h i)) (m_score (mark (h i)))) l d =
    d ++ map (fun i => (m_name (h i), match m_score (h i) with SNone => SStr "n/a" | v => v end)) l) by (apply (G ids [] N)).
  induction l as [|i l IH]; intros d Nd; [rewrite app_nil_r; reflexivity|]. cbn [fold_left map].
  assert (E : m_score (mark (h i)) = match m_score (h i) with SNone => SStr "n/a" | v => v end).
  { unfold mark, unscored. destruct (m_score (h i)) eqn:E; [reflexivity| |]; exact E. }
  cbn [map] in Nd. rewrite R.
  - rewrite IH, <- app_assoc, E; [reflexivity|]. rewrite map_app, <- app_assoc. exact Nd.
  - apply NoDup_remove_2 in Nd. intros X. apply Nd. apply in_app_iff. auto.
Qed.
Print Assumptions C60_dict.

(** Metrics with equal names: the dictionary has the entry of the last one. *)
Lemma rset_same d k v : In (k, v) (rset d k v).
Proof.
  induction d as [|[k' v'] d IH]; [left; reflexivity|]. cbn [rset]. destruct k' as [a|], k as [b|]; try (right; exact IH).
  - destruct (String.eqb_spec a b) as [->|]; [left; reflexivity|right; exact IH].
  - left. reflexivity.
Qed.
Lemma rset_other d k v k0 v0 : k0 <> k -> In (k0, v0) d -> In (k0, v0) (rset d k v).
Proof.
  intros N. induction d as [|[k' v'] d IH]; [intros []|]. intros [H|H].
  - injection H as -> ->. cbn [rset]. destruct k0 as [a|], k as [b|]; try (left; reflexivity); [|congruence].
    destruct (String.eqb_spec a b) as [->|]; [congruence|left; reflexivity].
  - cbn [rset]. destruct (match k' with Some a => match k with Some b => (a =? b)%string | None => false end | None => match k with Some _ => false | None => true end end);
      right; [exact H|apply IH; exact H].
Qed.
Lemma rset_keys d k v x : In x (map fst (rset d k v)) -> x = k \/ In x (map fst d).
Proof.
  induction d as [|[k' v'] d IH]; cbn [rset map fst]; [intros [<-|[]]; left; reflexivity|].
  destruct (match k' with Some a => match k with Some b => (a =? b)%string | None => false end | None => match k with Some _ => false | None => true end end);
    cbn [map fst]; intros [H|H]; [right; left; exact H|right; right; exact H|right; left; exact H|].
  destruct (IH H) as [H'|H']; [left; exact H'|right; right; exact H'].
Qed.
Lemma rset_nodup d k v : NoDup (map fst d) -> NoDup (map fst (rset d k v)).
Proof.
  induction d as [|[k' v'] d IH]; intros N; cbn [rset map fst]; [constructor; [intros []|constructor]|].
  inversion N as [|? ? N1 N2]; subst.
  destruct (match k' with Some a => match k with Some b => (a =? b)%string | None => false end | None => match k with Some _ => false | None => true end end) eqn:E;
    cbn [map fst]; constructor; auto.
  intros X. apply rset_keys in X as [->|X]; [|contradiction]. destruct k as [a|]; [rewrite String.eqb_refl in E|]; discriminate.
Qed.

Theorem C60_replaced : forall l1 i l2 path file h e h',
  (forall j, In j l2 -> m_name (h j) <> m_name (h i)) -> export_results (l1 ++ i :: l2) path file true h = (e, h') ->
  exists d, e_dict e = Some d /\ NoDup (map fst d) /\
    In (m_name (h i), match m_score (h i) with SNone => SStr "n/a" | v => v end) d.
Proof.
  intros l1 i l2 path file h e h' N H. apply export_results_spec in H as (_ & _ & _ & _ & ->). eexists. split; [reflexivity|].
  assert (K : forall l d, NoDup (map fst d) -> NoDup (map fst (fold_left (fun acc i => rset acc (m_name (h i)) (m_score (mark (h i)))) l d))).
  { induction l as [|j l IH]; intros d Nd; [exact Nd|]. cbn [fold_left]. apply IH, rset_nodup, Nd. }
  split; [apply K; constructor|]. rewrite fold_left_app. cbn [fold_left].
  generalize (fold_left (fun acc i => rset acc (m_name (h i)) (m_score (mark (h i)))) l1 []). intros d.
  assert (E : m_score (mark (h i)) = match m_score (h i) with SNone => SStr "n/a" | v => v end).
  { unfold mark, unscored. destruct (m_score (h i)) eqn:E; [reflexivity| |]; exact E. }
  rewrite <- E. pose proof (rset_same d (m_name (h i)) (m_score (mark (h i)))) as B. revert B.
  generalize (rset d (m_name (h i)) (m_score (mark (h i)))). clear d K E. revert N. generalize (m_score (mark (h i))). intros v N.
  induction l2 as [|j l2 IH]; intros d B; [exact B|]. cbn [fold_left]. apply IH; [intros k Hk; apply N; right; exact Hk|].
  apply rset_other; [|exact B]. intros X. apply (N j (or_introl eq_refl)). symmetry. exact X.
Qed.
Print Assumptions C60_replaced.

Definition ex_objects : objects :=
  fun i => Metric CPSNR [] (if i =? 0 then SNum (Fin 30) else SNone) (Some (if i =? 0 then "PSNR"%string else "SSIM"%string)).
Example C60_ex :
  let '(e1, h1) := export_results [0; 1] (lit "out") (lit "r") true ex_objects in
  let '(e2, _) := export_results [0; 1] (lit "out") (lit "r.CSV") true h1 in
  e_path e1 = lit "out/r.csv" /\ e_rows e1 = [(Some "PSNR", SNum (Fin 30))]%string /\
  e_path e2 = lit "out/r.CSV" /\ e_rows e2 = [(Some "PSNR", SNum (Fin 30)); (Some "SSIM", SStr "n/a")]%string.
Proof. repeat split. Qed.

(** ** C63 *)

Theorem C63_written : forall name, exists pre ext,
  csv_name name = pre ++ ext /\ lower ext = lit ".csv" /\ (csv_name name = name \/ csv_name name = name ++ lit ".csv").
Proof.
  intros name. unfold csv_name. destruct (ends_with (lower name) (lit ".csv")) eqn:E.
  - apply ends_with_iff in E as [p E]. apply map_app_inv in E as (a & b & -> & _ & Hb). exists a, b. auto.
  - exists name, (lit ".csv"). auto.
Qed.
Print Assumptions C63_written.

Theorem C63_kept : forall name,
  csv_name name = name <-> exists pre ext, name = pre ++ ext /\ lower ext = lit ".csv".
Proof.
  intros name. split.
  - intros H. destruct (C63_written name) as (pre & ext & E & L & _). rewrite H in E. eauto.
  - intros (pre & ext & -> & L). unfold csv_name.
    rewrite (proj2 (ends_with_iff _ _)); [reflexivity|]. exists (lower pre). rewrite lower_app, L. reflexivity.
Qed.
Print Assumptions C63_kept.

(** Spelled out: the name ends in one of the eight spellings of ".csv". *)
Theorem C63_letters : forall name,
  csv_name name = name <-> exists pre c s v, name = pre ++ ["."; c; s; v]%char /\
    (c = "c" \/ c = "C")%char /\ (s = "s" \/ s = "S")%char /\ (v = "v" \/ v = "V")%char.
Proof.
  assert (L : forall a, (lower_chr a = "." <-> a = ".")%char /\ (lower_chr a = "c" <-> a = "c" \/ a = "C")%char /\
    (lower_chr a = "s" <-> a = "s" \/ a = "S")%char /\ (lower_chr a = "v" <-> a = "v" \/ a = "V")%char).
  { intros [[|] [|] [|] [|] [|] [|] [|] [|]]; vm_compute; repeat split; intuition discriminate. }
  intros name. rewrite C63_kept. split.
  - intros (pre & e & -> & E). exists pre. unfold lower, lit in E. cbn in E.
    destruct e as [|a [|c [|s [|v [|]]]]]; try discriminate. cbn in E. injection E as E1 E2 E3 E4.
    apply (proj1 (proj1 (L a))) in E1. apply (proj1 (proj1 (proj2 (L c)))) in E2. apply (proj1 (proj1 (proj2 (proj2 (L s))))) in E3.
    apply (proj1 (proj2 (proj2 (proj2 (L v))))) in E4. subst a. exists c, s, v. auto.
  - intros (pre & c & s & v & -> & H1 & H2 & H3). exists pre, ["."; c; s; v]%char. split; [reflexivity|].
    apply (proj2 (proj1 (proj2 (L c)))) in H1. apply (proj2 (proj1 (proj2 (proj2 (L s))))) in H2. apply (proj2 (proj2 (proj2 (proj2 (L v))))) in H3. unfold lower, lit. cbn [map list_ascii_of_string].
    rewrite H1, H2, H3. reflexivity.
Qed.
Print Assumptions C63_letters.

Theorem C63_batch : forall F file pairs (results : dict (dict F)),
  (named (lit "csv") file -> fst (batch_export file pairs results) <> None) /\
  (~ named (lit "csv") file -> batch_export file pairs results = (None, Err ValueError)).
Proof.
  intros F file pairs results. unfold batch_export.
  assert (S : snd (splitext file) = lit ".csv" <-> named (lit "csv") file) by (apply splitext_named; cbn; intuition discriminate).
  destruct (text_eqb (snd (splitext file)) (lit ".csv")) eqn:E; cbn [negb].
  - apply text_eqb_eq in E. split; [|intros Hn; exfalso; tauto]. intros _.
    destruct (dget results (show 0)); [|discriminate]. destruct (export_rows pairs results). discriminate.
  - apply text_eqb_neq in E. split; [intros Hn; exfalso; tauto|reflexivity].
Qed.
Print Assumptions C63_batch.

Theorem C63_multiple : forall F file (results : dict F),
  (named (lit "csv") file -> snd (multi_export file results) = Ok tt) /\
  (~ named (lit "csv") file -> multi_export file results = (None, Err ValueError)).
Proof.
  intros F file results. unfold multi_export.
  assert (S : snd (splitext file) = lit ".csv" <-> named (lit "csv") file) by (apply splitext_named; cbn; intuition discriminate).
  destruct (text_eqb (snd (splitext file)) (lit ".csv")) eqn:E; cbn [negb].
  - apply text_eqb_eq in E. split; [reflexivity|intros Hn; exfalso; tauto].
  - apply text_eqb_neq in E. split; [intros Hn; exfalso; tauto|reflexivity].
Qed.
Print Assumptions C63_multiple.

Theorem C63_metadata : forall show_val show_score stamp ms params path file,
  (named (lit "txt") file -> fst (export_metadata show_val show_score stamp ms params path file) <> None) /\
  (~ named (lit "txt") file -> export_metadata show_val show_score stamp ms params path file = (None, Err ValueError)).
Proof.
  intros. unfold export_metadata.
  assert (S : snd (splitext file) = lit ".txt" <-> named (lit "txt") file) by (apply splitext_named; cbn; intuition discriminate).
  destruct (text_eqb (snd (splitext file)) (lit ".txt")) eqn:E; cbn [negb].
  - apply text_eqb_eq in E. split; [|intros Hn; exfalso; tauto]. intros _. destruct (metadata_loop _ _ _ _ _). discriminate.
  - apply text_eqb_neq in E. split; [intros Hn; exfalso; tauto|reflexivity].
Qed.
Print Assumptions C63_metadata.

(** export_image checks the extension only after plotting. *)
Theorem C63_image : forall disk ident ub resize results img_r img_m x y z path file sh roi order f,
  export_image disk ident ub resize results img_r img_m x y z path file sh roi order = Ok f -> named (lit "png") file.
Proof.
  intros disk ident ub resize results img_r img_m x y z path file sh roi order f H. unfold export_image in H.
  apply bind_ok in H as ([r m] & _ & H). apply bind_ok in H as ([r' m'] & _ & H). apply bind_ok in H as (ls & _ & H).
  destruct (text_eqb (snd (splitext file)) (lit ".png")) eqn:E; [|discriminate].
  apply text_eqb_eq in E. apply splitext_named in E; [exact E| |]; cbn; intuition discriminate.
Qed.
Print Assumptions C63_image.

(** Upper-case extensions and names without a stem are not accepted. *)
Theorem C63_upper_case : forall base e, lower e = e -> e <> [] -> forall u, lower u = e -> u <> e ->
  ~ named e (base ++ "."%char :: u).
Proof.
  intros base e He Hne u Hu Hd (dir & b & E & _). rewrite app_assoc in E.
  assert (L : length u = length e) by (rewrite <- Hu; unfold lower; rewrite map_length; reflexivity).
  apply Hd. apply (f_equal (@rev ascii)) in E. rewrite !rev_app_distr in E. cbn [rev] in E. rewrite <- !app_assoc in E.
  assert (R : rev u = rev e).
  { apply (f_equal (firstn (length e))) in E. rewrite !firstn_app, !rev_length, L, Nat.sub_diag in E. cbn [firstn] in E.
    rewrite !app_nil_r in E. rewrite !firstn_all2 in E by (rewrite rev_length; lia). exact E. }
  apply (f_equal (@rev ascii)) in R. rewrite !rev_involutive in R. exact R.
Qed.
Print Assumptions C63_upper_case.

Theorem C63_no_stem : forall e dir, ~ In "/"%char e -> ~ In "."%char e -> (dir = [] \/ exists d, dir = d ++ ["/"%char]) ->
  ~ named e (dir ++ "."%char :: e).
Proof.
  intros e dir He1 He2 Hd (d & b & E & Hd2 & Hb & c & Hc & Hn).
  rewrite app_assoc in E. apply app_inv_tail in E. rewrite <- (app_nil_r dir) in E.
  apply (component_unique dir [] b) in E; auto. subst b. inversion Hc.
Qed.
Print Assumptions C63_no_stem.

Example C63_ex :
  csv_name (lit "a.CSV") = lit "a.CSV" /\ csv_name (lit "a") = lit "a.csv" /\ csv_name (lit "a.txt") = lit "a.txt.csv" /\
  @multi_export ext (lit "a.CSV") [] = (None, Err ValueError) /\ @multi_export ext (lit ".csv") [] = (None, Err ValueError) /\
  fst (@multi_export ext (lit "d/a.csv") []) <> None.
Proof. repeat split. discriminate. Qed.

(** ** C61 *)

Definition suffixed (n : string) : Prop := exists p, n = (p ++ "_r")%string \/ n = (p ++ "_m")%string.

Lemma list_ascii_app a b : list_ascii_of_string (a ++ b) = list_ascii_of_string a ++ list_ascii_of_string b.
Proof. induction a; cbn; [reflexivity|f_equal; exact IHa]. Qed.

Lemma no_ref_name_iff n : no_ref_name n = true <-> suffixed n.
Proof.
  unfold no_ref_name, suffixed. rewrite orb_true_iff, !ends_with_iff. split.
  - intros [[p E]|[p E]]; exists (string_of_list_ascii p); [left|right];
      rewrite <- (string_of_list_ascii_of_string n), E; clear E; induction p; cbn; [reflexivity|f_equal; exact IHp|reflexivity|f_equal; exact IHp].
  - intros [p [-> | ->]]; [left|right]; exists (list_ascii_of_string p); apply list_ascii_app.
Qed.

Lemma pair_inj {A B} (a c : A) (b d : B) : (a, b) = (c, d) -> a = c /\ b = d.
Proof. intros H. split; congruence. Qed.

Definition printed (l : label) : string * ext := (l_name l, l_value l).
Definition position (l : label) : R * R := (l_x l, l_y l).
Definition full_ref (results : dict ext) := filter (fun kv => negb (no_ref_name (fst kv))) results.
Definition no_ref (results : dict ext) := filter (fun kv => no_ref_name (fst kv)) results.
(** Columns of four lines for the full-reference metrics, one more if there are others. *)
Definition used_columns (results : dict ext) : nat :=
  (length (full_ref results) + 3) / 4 + match no_ref results with [] => 0 | _ => 1 end.

Lemma printed_ext (l : list label) (es : list (string * ext)) : length l = length es ->
  (forall k n x, nth_error es k = Some (n, x) -> exists a b, nth_error l k = Some (Label a b n x)) -> map printed l = es.
Proof.
  intros Hl H. apply nth_error_ext. intros k. rewrite nth_error_map.
  destruct (nth_error es k) as [[n x]|] eqn:E.
  - destruct (H k n x E) as (a & b & ->). reflexivity.
  - apply nth_error_None in E. rewrite <- Hl in E. apply nth_error_None in E. rewrite E. reflexivity.
Qed.

Lemma labels_pos (results : dict ext) : exists l1 l2, labels (scores results) = Ok (l1 ++ l2) /\
  map printed l1 = full_ref results /\ map printed l2 = no_ref results /\
  (forall k b, nth_error l1 k = Some b ->
     position b = ((INR (k / 4) + 1) / (INR (used_columns results) + 1), 9 / 100 - 3 / 100 * INR (k mod 4))%R) /\
  (forall k b, nth_error l2 k = Some b ->
     position b = (INR (used_columns results) / (INR (used_columns results) + 1), 9 / 100 - 3 / 100 * INR k)%R).
Proof.
  destruct (labels_ok results) as (l1 & l2 & H & L1 & L2 & G1 & G2). fold (full_ref results) in *. fold (no_ref results) in *.
  assert (U : (length (full_ref results) + 3) / 4 + (if length (no_ref results) =? 0 then 0 else 1) = used_columns results).
  { unfold used_columns. destruct (no_ref results); reflexivity. }
  fold (is_fr) in *. change (filter is_fr results) with (full_ref results) in *. change (filter is_nr results) with (no_ref results) in *.
  rewrite U in *.
  assert (P : (0 < INR (used_columns results) + 1)%R) by (pose proof (pos_INR (used_columns results)); lra).
  exists l1, l2. split; [exact H|].
  split; [apply printed_ext; [exact L1|]; intros k n x E; rewrite (G1 _ _ _ E); eauto|].
  split; [apply printed_ext; [exact L2|]; intros k n x E; rewrite (G2 _ _ _ E); eauto|].
  split; intros k b Hb.
  - assert (Hlt : k < length (full_ref results)) by (rewrite <- L1; apply nth_error_Some; congruence).
    destruct (nth_error (full_ref results) k) as [[n x]|] eqn:E; [|apply nth_error_None in E; lia].
    rewrite (G1 _ _ _ E) in Hb. match type of Hb with Some ?t = Some ?u => assert (Eb : t = u) by congruence; rewrite <- Eb; clear Eb end. unfold position, column_x, line_y. cbn [l_x l_y]. rewrite <- INR_IZR_INZ. apply f_equal2; [field; lra|reflexivity].
  - assert (Hlt : k < length (no_ref results)) by (rewrite <- L2; apply nth_error_Some; congruence).
    destruct (nth_error (no_ref results) k) as [[n x]|] eqn:E; [|apply nth_error_None in E; lia].
    rewrite (G2 _ _ _ E) in Hb. match type of Hb with Some ?t = Some ?u => assert (Eb : t = u) by congruence; rewrite <- Eb; clear Eb end. unfold position, line_y. cbn [l_x l_y]. rewrite <- INR_IZR_INZ. apply f_equal2; [field; lra|reflexivity].
Qed.

(** Every result is printed exactly once: first the full-reference ones, then the others, each in order. *)
Theorem C61_once : forall results, exists l,
  labels (scores results) = Ok l /\ map printed l = full_ref results ++ no_ref results /\
  (forall kv, In kv (full_ref results) <-> In kv results /\ ~ suffixed (fst kv)) /\
  (forall kv, In kv (no_ref results) <-> In kv results /\ suffixed (fst kv)).
Proof.
  intros results. destruct (labels_pos results) as (l1 & l2 & H & P1 & P2 & _). exists (l1 ++ l2). split; [exact H|].
  split; [rewrite map_app, P1, P2; reflexivity|]. split; intros kv; unfold full_ref, no_ref; rewrite filter_In, <- no_ref_name_iff.
  - rewrite negb_true_iff, not_true_iff_false. tauto.
  - tauto.
Qed.
Print Assumptions C61_once.

(** Four full-reference metrics per column; the others below each other in the last column. *)
Theorem C61_positions : forall results l, labels (scores results) = Ok l ->
  (forall k b, k < length (full_ref results) -> nth_error l k = Some b ->
     position b = ((INR (k / 4) + 1) / (INR (used_columns results) + 1), 9 / 100 - 3 / 100 * INR (k mod 4))%R) /\
  (forall k b, nth_error l (length (full_ref results) + k) = Some b ->
     position b = (INR (used_columns results) / (INR (used_columns results) + 1), 9 / 100 - 3 / 100 * INR k)%R).
Proof.
  intros results l H. destruct (labels_pos results) as (l1 & l2 & H' & P1 & P2 & G1 & G2). rewrite H in H'. injection H' as ->.
  assert (L1 : length l1 = length (full_ref results)) by (rewrite <- P1, map_length; reflexivity).
  split; intros k b.
  - intros Hk. rewrite nth_error_app1 by lia. apply G1.
  - rewrite nth_error_app2 by lia. replace (length (full_ref results) + k - length l1) with k by lia. apply G2.
Qed.
Print Assumptions C61_positions.

(** No two labels share a position. *)
Theorem C61_distinct : forall results l, labels (scores results) = Ok l -> NoDup (map position l).
Proof.
  intros results l H. destruct (C61_positions _ _ H) as [G1 G2].
  assert (L : length l = length (full_ref results) + length (no_ref results)).
  { destruct (C61_once results) as (l' & H' & P & _). rewrite H in H'. injection H' as <-.
    rewrite <- app_length, <- P, map_length. reflexivity. }
  set (nf := length (full_ref results)) in *. set (c := used_columns results) in *.
  assert (P : (0 < INR c + 1)%R) by (pose proof (pos_INR c); lra).
  assert (D : forall a b : R, (a / (INR c + 1) = b / (INR c + 1) -> a = b)%R).
  { intros a b E. apply (f_equal (fun t => (t * (INR c + 1))%R)) in E. field_simplify in E; lra. }
  assert (Hcol : forall k, k < nf -> nf < length l -> S (k / 4) < c).
  { intros k Hk Hn. unfold c, used_columns. fold nf. destruct (no_ref results); [cbn in L; lia|].
    assert (k / 4 < (nf + 3) / 4); [|lia]. apply Nat.div_lt_upper_bound; [lia|].
    pose proof (Nat.div_mod (nf + 3) 4 ltac:(lia)). pose proof (Nat.mod_upper_bound (nf + 3) 4 ltac:(lia)). lia. }
  apply NoDup_nth_error. rewrite map_length. intros i j Hi E. rewrite !nth_error_map in E.
  destruct (nth_error l i) as [bi|] eqn:Ei; [|apply nth_error_None in Ei; lia].
  destruct (nth_error l j) as [bj|] eqn:Ej; [|discriminate]. cbn [option_map] in E. injection E as Ex Ey.
  assert (Hj : j < length l) by (apply nth_error_Some; congruence).
  assert (Epos : position bi = position bj) by (unfold position; congruence). clear Ex Ey.
  destruct (Nat.lt_ge_cases i nf) as [Ci|Ci], (Nat.lt_ge_cases j nf) as [Cj|Cj].
  - rewrite (G1 _ _ Ci Ei), (G1 _ _ Cj Ej) in Epos. apply pair_inj in Epos as [Ex Ey]. apply D in Ex.
    assert (Q1 : i / 4 = j / 4) by (apply INR_eq; lra). assert (Q2 : i mod 4 = j mod 4) by (apply INR_eq; lra).
    rewrite (Nat.div_mod i 4), (Nat.div_mod j 4) by lia. congruence.
  - replace j with (nf + (j - nf)) in Ej by lia. rewrite (G1 _ _ Ci Ei), (G2 _ _ Ej) in Epos. apply pair_inj in Epos as [Ex _]. apply D in Ex.
    exfalso. specialize (Hcol i Ci ltac:(lia)). apply lt_INR in Hcol. rewrite S_INR in Hcol. lra.
  - replace i with (nf + (i - nf)) in Ei by lia. rewrite (G1 _ _ Cj Ej), (G2 _ _ Ei) in Epos. apply pair_inj in Epos as [Ex _]. apply D in Ex.
    exfalso. specialize (Hcol j Cj ltac:(lia)). apply lt_INR in Hcol. rewrite S_INR in Hcol. lra.
  - replace i with (nf + (i - nf)) in Ei by lia. replace j with (nf + (j - nf)) in Ej by lia.
    rewrite (G2 _ _ Ei), (G2 _ _ Ej) in Epos. apply pair_inj in Epos as [_ Ey].
    assert (Q : i - nf = j - nf) by (apply INR_eq; lra). lia.
Qed.
Print Assumptions C61_distinct.

(** Full-reference metrics and the first four others lie in the figure, further ones below it. *)
Theorem C61_below : forall results l k b, labels (scores results) = Ok l -> nth_error l k = Some b ->
  (0 <= l_x b < 1)%R /\ ((l_y b < 0)%R <-> length (full_ref results) + 4 <= k).
Proof.
  intros results l k b H Hb. destruct (C61_positions _ _ H) as [G1 G2].
  set (nf := length (full_ref results)) in *. set (c := used_columns results) in *.
  assert (P0 := pos_INR c).
  destruct (Nat.lt_ge_cases k nf) as [C|C].
  - specialize (G1 k b C Hb). apply pair_inj in G1 as [Ex Ey]. rewrite Ex, Ey.
    assert (M := Nat.mod_upper_bound k 4 ltac:(lia)).
    assert (Q : k / 4 < c).
    { unfold c, used_columns. fold nf. assert (k / 4 < (nf + 3) / 4); [|lia]. apply Nat.div_lt_upper_bound; [lia|].
      pose proof (Nat.div_mod (nf + 3) 4 ltac:(lia)). pose proof (Nat.mod_upper_bound (nf + 3) 4 ltac:(lia)). lia. }
    apply lt_INR in Q. split.
    + pose proof (pos_INR (k / 4)). split; [apply Rmult_le_pos; [lra|apply Rlt_le, Rinv_0_lt_compat; lra]|].
      apply (Rmult_lt_reg_r (INR c + 1)); [lra|]. unfold Rdiv. rewrite Rmult_assoc, Rinv_l by lra. lra.
    + split; [|lia]. intros Hy. exfalso. assert (M3 : k mod 4 <= 3) by lia. apply le_INR in M3. replace (INR 3) with 3%R in M3 by (cbn; lra). lra.
  - replace k with (nf + (k - nf)) in Hb by lia. specialize (G2 _ _ Hb). apply pair_inj in G2 as [Ex Ey]. rewrite Ex, Ey. split.
    + split; [apply Rmult_le_pos; [lra|apply Rlt_le, Rinv_0_lt_compat; lra]|].
      apply (Rmult_lt_reg_r (INR c + 1)); [lra|]. unfold Rdiv. rewrite Rmult_assoc, Rinv_l by lra. lra.
    + split; intros Q.
      * destruct (Nat.lt_ge_cases (k - nf) 4) as [D|D]; [|lia]. exfalso.
        assert (M3 : k - nf <= 3) by lia. apply le_INR in M3. replace (INR 3) with 3%R in M3 by (cbn; lra). lra.
      * assert (M4 : 4 <= k - nf) by lia. apply le_INR in M4. replace (INR 4) with 4%R in M4 by (cbn; lra). lra.
Qed.
Print Assumptions C61_below.

(** The names of the package's metrics are classified correctly; a full-reference metric with a
    name ending in _r or _m would not be. *)
Theorem C61_package : forall c chromatic n, name_of c chromatic = Some n ->
  ~ suffixed n /\ suffixed (n ++ "_r") /\ suffixed (n ++ "_m").
Proof.
  intros c chromatic n H. split; [|split; exists n; auto].
  rewrite <- no_ref_name_iff. destruct c, chromatic; cbn in H; try discriminate; injection H as <-; discriminate.
Qed.
Print Assumptions C61_package.

Example C61_ex : exists b1 b2 b3, labels (scores [("SSIM", Fin 1); ("CNR_m", Fin 2); ("custom_r", Fin 3)]%string) = Ok [b1; b2; b3] /\
  map printed [b1; b2; b3] = [("SSIM", Fin 1); ("CNR_m", Fin 2); ("custom_r", Fin 3)]%string /\
  l_x b1 = (1 / 3)%R /\ l_x b2 = (2 / 3)%R /\ l_x b3 = (2 / 3)%R /\ l_y b3 = (6 / 100)%R.
Proof.
  do 3 eexists. split; [reflexivity|]. cbn [map printed l_name l_value l_x l_y]. split; [reflexivity|].
  unfold column_x, line_y, columns. cbn. repeat split; lra.
Qed.

(** ** C62 *)

Theorem C62_accepted : forall x y z,
  (exists ax v, axis_choice x y z = Ok (ax, v)) <->
  (exists v, In (Some v) [x; y; z] /\ forall w, In (Some w) [x; y; z] -> w = v).
Proof.
  intros x y z. split.
  - intros (ax & v & H). exists v. unfold axis_choice, given in H.
    destruct x as [a|], y as [b|], z as [c|]; cbn [flat_map app nodup in_dec] in H; cbn [nodup] in H;
      repeat (match type of H with context [in_dec Z.eq_dec ?p ?q] => destruct (in_dec Z.eq_dec p q) as [?I|?I] end; cbn [nodup] in H);
      try discriminate; injection H as <- <-; cbn [In] in *; (split; [tauto|]); intros w [E|[E|[E|[]]]]; try discriminate; injection E as <-; intuition congruence.
  - intros (v & Hv & Hw). unfold axis_choice, given.
    destruct x as [a|], y as [b|], z as [c|]; cbn [In] in *;
      try (assert (a = v) by (apply Hw; auto)); try (assert (b = v) by (apply Hw; auto)); try (assert (c = v) by (apply Hw; auto)); subst;
      cbn [flat_map app nodup];
      repeat (match goal with |- context [in_dec Z.eq_dec ?p ?q] => destruct (in_dec Z.eq_dec p q) as [?I|?I] end; cbn [In] in *; try tauto);
      cbn [nodup]; eauto; intuition discriminate.
Qed.
Print Assumptions C62_accepted.

Theorem C62_axis : forall x y z ax v, axis_choice x y z = Ok (ax, v) ->
  (ax = 0 /\ x = Some v) \/ (ax = 1 /\ x = None /\ y = Some v) \/ (ax = 2 /\ x = None /\ y = None /\ z = Some v).
Proof.
  intros x y z ax v H. unfold axis_choice in H. destruct (given x y z) as [|a [|b l]]; try discriminate.
  destruct x, y, z; try discriminate; injection H as <- <-; auto 6.
Qed.
Print Assumptions C62_axis.

Theorem C62_rejected : forall x y z,
  ~ (exists v, In (Some v) [x; y; z] /\ forall w, In (Some w) [x; y; z] -> w = v) -> axis_choice x y z = Err ValueError.
Proof.
  intros x y z H. rewrite <- C62_accepted in H. destruct (axis_choice x y z) as [[ax v]|e] eqn:E; [exfalso; eauto|].
  unfold axis_choice in E. destruct (given x y z) as [|a [|b l]]; try congruence. destruct x, y, z; congruence.
Qed.
Print Assumptions C62_rejected.

(** Claim "exactly one of the arguments is given": two axes with the same index pass. *)
Theorem C62_refuted : exists x y v, axis_choice (Some x) (Some y) None = Ok (0, v) /\ y = v.
Proof. exists 5%Z, 5%Z, 5%Z. split; reflexivity. Qed.
Print Assumptions C62_refuted.

(** A pixel of an image, whatever its element type. *)
Definition pixel (o : norm_out) (idx : list nat) : option (Z + R) :=
  match o with
  | NImg (Img _ (PI a)) => option_map inl (get a idx)
  | NImg (Img _ (PF a)) => option_map inr (get a idx)
  | NNan _ _ => None
  end.
Definition complete (o : norm_out) : Prop :=
  match o with NImg (Img _ (PI a)) => wf a | NImg (Img _ (PF a)) => wf a | NNan _ _ => True end.

Lemma on_out_ok (f : forall A, arr A -> res (arr A)) o s s' g : complete o -> o_shape o = s ->
  (forall A (a : arr A), wf a -> shp a = s -> exists b, f A a = Ok b /\ wf b /\ shp b = s' /\
     forall i j, inb s' [i; j] = true -> get b [i; j] = get a (g i j)) ->
  exists o', on_out f o = Ok o' /\ o_shape o' = s' /\ o_type o' = o_type o /\ complete o' /\
    forall i j, inb s' [i; j] = true -> pixel o' [i; j] = pixel o (g i j).
Proof.
  intros C S H. destruct o as [[d [a|a]]|d t]; cbn in *.
  - destruct (H Z a C S) as (b & Hb & Wb & Sb & Gb). rewrite Hb. cbn [bind]. eexists. split; [reflexivity|]. cbn.
    repeat split; auto. intros i j Hi. rewrite (Gb _ _ Hi). reflexivity.
  - destruct (H R a C S) as (b & Hb & Wb & Sb & Gb). rewrite Hb. cbn [bind]. eexists. split; [reflexivity|]. cbn.
    repeat split; auto. intros i j Hi. rewrite (Gb _ _ Hi). reflexivity.
  - subst t. destruct (H unit (tabulate s (fun _ => tt)) (wf_tabulate _ _) eq_refl) as (b & Hb & Wb & Sb & Gb).
    cbv beta in Hb. unfold on_out. rewrite Hb. cbn [bind]. eexists. split; [reflexivity|]. cbn. auto.
Qed.

(** For volumes: row [i], column [j] of the plotted array is voxel ([j], [i]) of the chosen slice, in
    both images alike. *)
Definition in_slice (ax p i j : nat) : list nat :=
  match ax with 0 => [p; j; i] | 1 => [j; p; i] | _ => [j; i; p] end.

Theorem C62_slice : forall x y z r m nx ny nz ax v p,
  complete r -> complete m -> o_shape r = [nx; ny; nz] -> o_shape m = [nx; ny; nz] -> nz <> 3 ->
  axis_choice x y z = Ok (ax, v) ->
  (0 <= v < Z.of_nat (nth ax [nx; ny; nz] 0%nat) /\ p = Z.to_nat v \/
   - Z.of_nat (nth ax [nx; ny; nz] 0%nat) <= v < 0 /\ p = Z.to_nat (v + Z.of_nat (nth ax [nx; ny; nz] 0%nat)))%Z ->
  exists r' m', plotted x y z r m = Ok (r', m') /\
    let s := match ax with 0 => [nz; ny] | 1 => [nz; nx] | _ => [ny; nx] end in
    o_shape r' = s /\ o_shape m' = s /\
    forall i j, inb s [i; j] = true ->
      pixel r' [i; j] = pixel r (in_slice ax p i j) /\ pixel m' [i; j] = pixel m (in_slice ax p i j).
Proof.
  intros x y z r m nx ny nz ax v p Cr Cm Sr Sm Hnz Hc Hp.
  assert (Hax : ax < 3) by (apply C62_axis in Hc as [[-> _]|[[-> _]|[-> _]]]; lia).
  set (n := Z.of_nat (nth ax [nx; ny; nz] 0%nat)) in *.
  set (q := (if v <? 0 then v + n else v)%Z).
  assert (Hq : (0 <= q < n)%Z /\ p = Z.to_nat q) by (unfold q; destruct (Z.ltb_spec v 0); destruct Hp as [[? ->]|[? ->]]; lia).
  destruct Hq as [Hq ->].
  unfold plotted. rewrite Sr. cbn [length Nat.eqb orb].
  unfold is_colour. cbn [length last Nat.eqb andb].
  destruct (Nat.eqb_spec nz 3); [contradiction|]. rewrite Hc. cbn [bind].
  destruct (on_out_ok (@plot_slice ax v) r [nx; ny; nz] (match ax with 0 => [nz; ny] | 1 => [nz; nx] | _ => [ny; nx] end)
              (in_slice ax (Z.to_nat q)) Cr Sr) as (r' & Hr & Sr' & _ & _ & Gr).
  { intros A a Wa Sa. destruct (plot_slice_ok ax v a nx ny nz q Wa Sa Hax eq_refl Hq) as (b & Hb & Wb & Sb & Gb).
    exists b. split; [exact Hb|]. split; [exact Wb|]. split; [exact Sb|]. intros i j Hi. rewrite Gb by (rewrite Sb; exact Hi).
    unfold in_slice. destruct ax as [|[|[|]]]; reflexivity. }
  destruct (on_out_ok (@plot_slice ax v) m [nx; ny; nz] (match ax with 0 => [nz; ny] | 1 => [nz; nx] | _ => [ny; nx] end)
              (in_slice ax (Z.to_nat q)) Cm Sm) as (m' & Hm & Sm' & _ & _ & Gm).
  { intros A a Wa Sa. destruct (plot_slice_ok ax v a nx ny nz q Wa Sa Hax eq_refl Hq) as (b & Hb & Wb & Sb & Gb).
    exists b. split; [exact Hb|]. split; [exact Wb|]. split; [exact Sb|]. intros i j Hi. rewrite Gb by (rewrite Sb; exact Hi).
    unfold in_slice. destruct ax as [|[|[|]]]; reflexivity. }
  exists r', m'. rewrite Hr. cbn [bind]. rewrite Hm. cbn [bind]. split; [reflexivity|]. cbv zeta. auto.
Qed.
Print Assumptions C62_slice.

(** Slices outside the volume: IndexError. *)
Theorem C62_outside : forall x y z r m nx ny nz ax v,
  complete r -> o_shape r = [nx; ny; nz] -> nz <> 3 -> axis_choice x y z = Ok (ax, v) ->
  (v < - Z.of_nat (nth ax [nx; ny; nz] 0%nat) \/ Z.of_nat (nth ax [nx; ny; nz] 0%nat) <= v)%Z ->
  plotted x y z r m = Err IndexError.
Proof.
  intros x y z r m nx ny nz ax v Cr Sr Hnz Hc Hv.
  assert (Hax : ax < 3) by (apply C62_axis in Hc as [[-> _]|[[-> _]|[-> _]]]; lia).
  unfold plotted. rewrite Sr. cbn [length Nat.eqb orb]. unfold is_colour. cbn [length last Nat.eqb andb].
  destruct (Nat.eqb_spec nz 3); [contradiction|]. rewrite Hc. cbn [bind].
  assert (T : forall A (a : arr A), shp a = [nx; ny; nz] -> plot_slice ax v a = Err IndexError).
  { intros A a Sa. unfold plot_slice. rewrite (take_axis_out ax v a nx ny nz Sa Hax Hv). reflexivity. }
  destruct r as [[d [a|a]]|d t]; cbn in Sr; unfold on_out.
  - rewrite (T _ _ Sr). reflexivity.
  - rewrite (T _ _ Sr). reflexivity.
  - subst t. rewrite (T _ (tabulate [nx; ny; nz] (fun _ => tt)) eq_refl). reflexivity.
Qed.
Print Assumptions C62_outside.

Example C62_ex : exists r m,
  plotted None (Some 1%Z) None (NImg (Img (UInt 8) (PI (tabulate [2; 2; 2] (fun i => Z.of_nat (nth 0 i 0 * 100 + nth 1 i 0 * 10 + nth 2 i 0))))))
    (NImg (Img (UInt 8) (PI (Arr [2; 2; 2] (repeat 0%Z 8))))) = Ok (r, m) /\
  r = NImg (Img (UInt 8) (PI (Arr [2; 2] [10; 110; 11; 111]%Z))).
Proof. do 2 eexists. split; reflexivity. Qed.
