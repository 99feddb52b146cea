(** Lemmas about the batch model. *)
From Coq Require Import Reals DecimalString DecimalNat.
From Verif Require Import Base NdArray LoadModel NormModel PairModel BatchModel.

(** ** Numbers as keys *)

Lemma read_show n : read_nat (show n) = Ok n.
Proof.
  unfold read_nat, show. rewrite NilEmpty.usu. simpl. rewrite Unsigned.of_to. reflexivity.
Qed.

Lemma show_inj a b : show a = show b -> a = b.
Proof. intros H. pose proof (read_show a) as A. rewrite H, read_show in A. congruence. Qed.

(** ** Dictionaries built by a list of assignments *)

Lemma NoDup_dset {V} (d : dict V) k v : NoDup (dkeys d) -> NoDup (dkeys (dset d k v)).
Proof.
  intros H. rewrite dkeys_dset.
  destruct (existsb (fun x => String.eqb x k) (dkeys d)) eqn:E; [exact H|].
  assert (N : ~ In k (dkeys d)).
  { intros I. assert (existsb (fun x => String.eqb x k) (dkeys d) = true)
      by (apply existsb_exists; exists k; split; [exact I|apply String.eqb_refl]). congruence. }
  clear E. induction (dkeys d) as [|x l IH]; simpl; [constructor; [tauto|constructor]|].
  apply NoDup_cons_iff in H as [H1 H2]. constructor.
  - rewrite in_app_iff. simpl. intros [I|[I|[]]]; [auto|subst; apply N; left; reflexivity].
  - apply IH; [exact H2|]. intros I. apply N. right. exact I.
Qed.

Lemma NoDup_dupdate {V} (e d : dict V) : NoDup (dkeys d) -> NoDup (dkeys (dupdate d e)).
Proof.
  unfold dupdate. revert d. induction e as [|[k v] e IH]; intros d H; simpl; [exact H|].
  apply IH, NoDup_dset, H.
Qed.

Lemma dkeys_dupdate_same {V} : forall (e e' d d' : dict V),
  dkeys e = dkeys e' -> dkeys d = dkeys d' -> dkeys (dupdate d e) = dkeys (dupdate d' e').
Proof.
  unfold dupdate. induction e as [|[k v] e IH]; intros [|[k' v'] e'] d d' He Hd; try discriminate He;
    [exact Hd|].
  simpl in *. injection He as -> He. apply IH; [exact He|]. simpl. rewrite !dkeys_dset, Hd. reflexivity.
Qed.

Lemma dupdate_app {V} (d e e' : dict V) : dupdate d (e ++ e') = dupdate (dupdate d e) e'.
Proof. unfold dupdate. apply fold_left_app. Qed.

Lemma dict_ext {V} (d d' : dict V) :
  NoDup (dkeys d) -> dkeys d = dkeys d' -> (forall k, dget d k = dget d' k) -> d = d'.
Proof.
  revert d'. induction d as [|[k v] d IH]; intros [|[k' v'] d'] N K G; try discriminate K; [reflexivity|].
  simpl in K. injection K as -> K. simpl in N. apply NoDup_cons_iff in N as [N1 N2].
  pose proof (G k') as G0. simpl in G0. rewrite String.eqb_refl in G0. injection G0 as ->.
  f_equal. apply IH; [exact N2|exact K|]. intros k.
  destruct (String.eqb k' k) eqn:E.
  - apply String.eqb_eq in E as <-.
    rewrite (proj2 (dget_none d k') N1). symmetry. apply dget_none. unfold dkeys in *. rewrite <- K. exact N1.
  - specialize (G k). simpl in G. rewrite E in G. exact G.
Qed.

(** The position of the last assignment to a key decides its value. *)
Lemma last_pos {V} (K : list string) : forall k, In k K ->
  exists i, nth_error K i = Some k /\
    forall L : dict V, dkeys L = K -> exists v, nth_error L i = Some (k, v) /\ dget (dupdate [] L) k = Some v.
Proof.
  induction K as [|x K IH] using rev_ind; intros k Hk; [destruct Hk|].
  destruct (string_dec x k) as [->|Hx].
  - exists (length K). split.
    + rewrite nth_error_app2, Nat.sub_diag by lia. reflexivity.
    + intros L HL. assert (LK : length L = length K + 1).
      { pose proof (f_equal (@length _) HL) as LK. unfold dkeys in LK.
        rewrite map_length, app_length in LK. exact LK. }
      destruct L as [|y L0] using rev_ind; [simpl in LK; lia|]. clear IHL0.
      unfold dkeys in HL. rewrite map_app in HL. simpl in HL.
      apply app_inj_tail in HL as [HL Hy]. destruct y as [ky v]. simpl in Hy. subst ky.
      exists v. split.
      * rewrite nth_error_app2 by (rewrite <- HL, map_length; lia).
        rewrite <- HL, map_length, Nat.sub_diag. reflexivity.
      * rewrite dupdate_app. unfold dupdate at 1. simpl. apply dget_dset_same.
  - apply in_app_iff in Hk as [Hk|[Hk|[]]]; [|congruence].
    destruct (IH k Hk) as (i & Hi & Hl). exists i. split.
    + rewrite nth_error_app1; [exact Hi|]. apply nth_error_Some. congruence.
    + intros L HL. assert (LK : length L = length K + 1).
      { pose proof (f_equal (@length _) HL) as LK. unfold dkeys in LK.
        rewrite map_length, app_length in LK. exact LK. }
      destruct L as [|y L0] using rev_ind; [simpl in LK; lia|]. clear IHL0.
      unfold dkeys in HL. rewrite map_app in HL. simpl in HL.
      apply app_inj_tail in HL as [HL Hy]. destruct y as [ky w]. simpl in Hy. subst ky.
      destruct (Hl L0 HL) as (v & Hv & Hd). exists v. split.
      * rewrite nth_error_app1; [exact Hv|]. apply nth_error_Some. congruence.
      * rewrite dupdate_app. unfold dupdate at 1. simpl. rewrite dget_dset_other by exact Hx. exact Hd.
Qed.

Lemma dget_dupdate_nil {V} (L : dict V) k : ~ In k (dkeys L) -> dget (dupdate [] L) k = None.
Proof.
  intros H. induction L as [|[k' v] L IH] using rev_ind; [reflexivity|].
  unfold dkeys in H. rewrite map_app, in_app_iff in H. simpl in H.
  rewrite dupdate_app. unfold dupdate at 1. simpl. rewrite dget_dset_other by tauto. apply IH. tauto.
Qed.

Lemma dupdate_keys_in {V} (L : dict V) k : In k (dkeys (dupdate [] L)) <-> In k (dkeys L).
Proof.
  destruct (in_dec string_dec k (dkeys L)) as [I|N].
  - split; [auto|]. intros _. destruct (last_pos (V:=V) (dkeys L) k I) as (i & _ & H).
    destruct (H L eq_refl) as (v & _ & G). destruct (in_dec string_dec k (dkeys (dupdate [] L))) as [J|J]; [exact J|].
    apply dget_none in J. congruence.
  - split; [|contradiction]. intros I. apply dget_dupdate_nil, dget_none in N. contradiction.
Qed.

(** ** Scoring without memory

    What scoring a metric of the list gives, if it does not depend on earlier calls. *)
Section pure.
Context {M P X F : Type}.
Variable kind_of : M -> mkind.
Variable name_of : M -> option string.
Variable score_fr : M -> P -> norm_out -> norm_out -> res X * M.
Variable score_nr : M -> P -> norm_out -> res X * M.
Variable to_f : X -> res F.

Notation store := (@store M).

(** Scoring the metrics of [ms], in any order and number, starting from [h0], never changes the kind
    and name of a metric nor the result of a later call. *)
Definition history_free (h0 : store) (ms : list (nat * P)) : Prop :=
  exists Inv : store -> Prop, Inv h0 /\
    forall h id p, Inv h -> In (id, p) ms ->
      kind_of (h id) = kind_of (h0 id) /\ name_of (h id) = name_of (h0 id) /\
      (forall a b, fst (score_fr (h id) p a b) = fst (score_fr (h0 id) p a b) /\
                   name_of (snd (score_fr (h id) p a b)) = name_of (h0 id) /\
                   Inv (store_set h id (snd (score_fr (h id) p a b)))) /\
      (forall a, fst (score_nr (h id) p a) = fst (score_nr (h0 id) p a) /\
                 name_of (snd (score_nr (h id) p a)) = name_of (h0 id) /\
                 Inv (store_set h id (snd (score_nr (h id) p a)))).

Inductive side := SideR | SideM | SideF.
Definition slot : Type := side * (nat * P).

Variable h0 : store.

Definition slots_of (e : nat * P) : list slot :=
  match kind_of (h0 (fst e)) with
  | NoRef => [(SideR, e); (SideM, e)]
  | FullRef => [(SideF, e)]
  | OtherKind => []
  end.
Definition slots (ms : list (nat * P)) : list slot := flat_map slots_of ms.

Definition suffix_of (s : side) : string := match s with SideR => "_r" | SideM => "_m" | SideF => "" end.
Definition key_of (s : slot) : res string :=
  let* n := from_opt TypeError (name_of (h0 (fst (snd s)))) in
  Ok (match fst s with SideF => n | _ => n ++ suffix_of (fst s) end)%string.
Definition val_of (r m : norm_out) (s : slot) : res F :=
  let (id, p) := snd s in
  let* x := match fst s with
            | SideR => fst (score_nr (h0 id) p r)
            | SideM => fst (score_nr (h0 id) p m)
            | SideF => fst (score_fr (h0 id) p r m)
            end in to_f x.

Definition entry (r m : norm_out) (s : slot) : res (string * F) :=
  let* v := val_of r m s in let* k := key_of s in Ok (k, v).
Definition cached (d : dict F) (s : slot) : res (string * F) :=
  let* k := key_of s in let* v := from_opt KeyError (dget d k) in Ok (k, v).

Definition prev_of (prev_r prev_m : option (dict F)) (s : slot) : option (dict F) :=
  match fst s with SideR => prev_r | SideM => prev_m | SideF => None end.
Definition entry_c (prev_r prev_m : option (dict F)) (r m : norm_out) (s : slot) : res (string * F) :=
  match prev_of prev_r prev_m s with Some d => cached d s | None => entry r m s end.

Definition pure_run (ms : list (nat * P)) (r m : norm_out) : res (dict F) :=
  let* l := mapM (entry r m) (slots ms) in Ok (dupdate [] l).

Lemma mapM_app {A B} (f : A -> res B) l l' :
  mapM f (l ++ l') = (let* a := mapM f l in let* b := mapM f l' in Ok (a ++ b)).
Proof.
  induction l as [|x l IH]; simpl.
  - destruct (mapM f l'); reflexivity.
  - destruct (f x) as [y|e]; simpl; [|reflexivity]. rewrite IH.
    destruct (mapM f l) as [a|e]; simpl; [|reflexivity]. destruct (mapM f l'); reflexivity.
Qed.

Section runs.
Variable ms0 : list (nat * P).
Variable Inv : store -> Prop.
Hypothesis step_ok : forall h id p, Inv h -> In (id, p) ms0 ->
      kind_of (h id) = kind_of (h0 id) /\ name_of (h id) = name_of (h0 id) /\
      (forall a b, fst (score_fr (h id) p a b) = fst (score_fr (h0 id) p a b) /\
                   name_of (snd (score_fr (h id) p a b)) = name_of (h0 id) /\
                   Inv (store_set h id (snd (score_fr (h id) p a b)))) /\
      (forall a, fst (score_nr (h id) p a) = fst (score_nr (h0 id) p a) /\
                 name_of (snd (score_nr (h id) p a)) = name_of (h0 id) /\
                 Inv (store_set h id (snd (score_nr (h id) p a)))).

Notation nr_side := (nr_side name_of score_nr to_f).
Notation metric_step := (metric_step kind_of name_of score_fr score_nr to_f).
Notation run_metrics := (run_metrics kind_of name_of score_fr score_nr to_f).

Lemma nr_side_pure s prev id p img other acc h :
  Inv h -> In (id, p) ms0 -> s = SideR \/ s = SideM ->
  exists h', Inv h' /\
    nr_side (suffix_of s) prev id p img acc h
    = ((let* kv := match prev with
                   | Some d => cached d (s, (id, p))
                   | None => entry (match s with SideR => img | _ => other end)
                                   (match s with SideR => other | _ => img end) (s, (id, p))
                   end in Ok (dset acc (fst kv) (snd kv))), h').
Proof.
  intros Hi Hin Hs. destruct (step_ok h id p Hi Hin) as (_ & Hn & _ & Hnr).
  unfold BatchModel.nr_side. destruct prev as [d|].
  - exists h. split; [exact Hi|]. rewrite Hn. unfold cached, key_of. simpl.
    destruct (name_of (h0 id)) as [n|]; simpl; [|reflexivity].
    destruct Hs as [->| ->]; simpl; destruct (dget d _); reflexivity.
  - destruct (Hnr img) as (Hr & Hm & HI). destruct (score_nr (h id) p img) as [x m'] eqn:E.
    simpl in Hr, Hm, HI. exists (store_set h id m'). split; [exact HI|]. rewrite Hm.
    unfold entry, val_of, key_of. simpl.
    destruct Hs as [->| ->]; simpl; rewrite <- Hr;
      (destruct x as [x|e]; simpl; [|reflexivity]; destruct (to_f x) as [v|e]; simpl; [|reflexivity];
       destruct (name_of (h0 id)); reflexivity).
Qed.

Lemma metric_step_pure prev_r prev_m r m id p acc h :
  Inv h -> In (id, p) ms0 ->
  exists h', Inv h' /\
    metric_step prev_r prev_m r m id p acc h
    = ((let* l := mapM (entry_c prev_r prev_m r m) (slots_of (id, p)) in Ok (dupdate acc l)), h').
Proof.
  intros Hi Hin. pose proof (step_ok h id p Hi Hin) as (Hk & Hn & Hfr & _).
  unfold BatchModel.metric_step, slots_of. rewrite Hk. simpl fst. destruct (kind_of (h0 id)).
  - destruct (Hfr r m) as (Hr & Hm & HI). destruct (score_fr (h id) p r m) as [x m'].
    simpl in Hr, Hm, HI. exists (store_set h id m'). split; [exact HI|]. rewrite Hm.
    cbn [mapM]. unfold entry_c, entry, prev_of, val_of, key_of. simpl. rewrite <- Hr.
    destruct x as [x|e]; simpl; [|reflexivity]. destruct (to_f x); simpl; [|reflexivity].
    destruct (name_of (h0 id)); reflexivity.
  - destruct (nr_side_pure SideR prev_r id p r m acc h Hi Hin (or_introl eq_refl)) as (h1 & I1 & E1).
    simpl suffix_of in E1. rewrite E1. cbn [mapM]. unfold entry_c at 1. cbn [prev_of fst].
    destruct (match prev_r with Some d => cached d (SideR, (id, p)) | None => entry r m (SideR, (id, p)) end)
      as [kv|e] eqn:Ekv.
    + cbn [bind].
      destruct (nr_side_pure SideM prev_m id p m r (dset acc (fst kv) (snd kv)) h1 I1 Hin (or_intror eq_refl))
        as (h2 & I2 & E2).
      simpl suffix_of in E2. rewrite E2. exists h2. split; [exact I2|].
      unfold entry_c. cbn [prev_of fst].
      destruct (match prev_m with Some d => cached d (SideM, (id, p)) | None => entry r m (SideM, (id, p)) end)
        as [kv'|e']; reflexivity.
    + exists h1. split; [exact I1|]. reflexivity.
  - exists h. split; [exact Hi|]. reflexivity.
Qed.

Lemma run_metrics_pure prev_r prev_m r m ms : forall acc h,
  Inv h -> incl ms ms0 ->
  exists h', Inv h' /\
    run_metrics prev_r prev_m r m ms acc h
    = ((let* l := mapM (entry_c prev_r prev_m r m) (slots ms) in Ok (dupdate acc l)), h').
Proof.
  induction ms as [|[id p] ms IH]; intros acc h Hi Hin; simpl; [exists h; auto|].
  destruct (metric_step_pure prev_r prev_m r m id p acc h Hi (Hin _ (or_introl eq_refl))) as (h1 & I1 & E1).
  rewrite E1, mapM_app.
  destruct (mapM (entry_c prev_r prev_m r m) (slots_of (id, p))) as [l1|e]; simpl.
  - destruct (IH (dupdate acc l1) h1 I1) as (h2 & I2 & E2); [intros x Hx; apply Hin; right; exact Hx|].
    exists h2. split; [exact I2|]. rewrite E2.
    destruct (mapM (entry_c prev_r prev_m r m) (slots ms)) as [l2|e]; simpl; [|reflexivity].
    rewrite dupdate_app. reflexivity.
  - exists h1. auto.
Qed.
End runs.

(** ** The results of the previous pair may be used for an unchanged image *)

Lemma val_r_only r m m' id_p : val_of r m (SideR, id_p) = val_of r m' (SideR, id_p).
Proof. reflexivity. Qed.
Lemma val_m_only r r' m id_p : val_of r m (SideM, id_p) = val_of r' m (SideM, id_p).
Proof. reflexivity. Qed.

Lemma mapM_nth {A B} (f : A -> res B) l l' : mapM f l = Ok l' ->
  length l' = length l /\ forall i x, nth_error l i = Some x -> exists y, nth_error l' i = Some y /\ f x = Ok y.
Proof.
  revert l'. induction l as [|x l IH]; intros l' H; simpl in H.
  - injection H as <-. split; [reflexivity|]. intros [|i] x; discriminate.
  - destruct (f x) as [y|] eqn:E; [|discriminate H]. simpl in H.
    destruct (mapM f l) as [ys|]; [|discriminate H]. injection H as <-.
    destruct (IH ys eq_refl) as [L N]. split; [simpl; congruence|].
    intros [|i] z Hz; simpl in *; [injection Hz as <-; eauto|apply N, Hz].
Qed.

Lemma mapM_keys r m l L : mapM (entry r m) l = Ok L -> mapM key_of l = Ok (dkeys L).
Proof.
  revert L. induction l as [|s l IH]; intros L H; simpl in H; [injection H as <-; reflexivity|].
  unfold entry at 1 in H. destruct (val_of r m s) as [v|]; [|discriminate H]. simpl in H.
  destruct (key_of s) as [k|] eqn:Ek; [|discriminate H]. simpl in H.
  destruct (mapM (entry r m) l) as [L'|]; [|discriminate H]. injection H as <-.
  simpl. rewrite Ek. simpl. rewrite (IH L' eq_refl). reflexivity.
Qed.

(** A cache is consistent if it holds the results of a pair with the same reference (modified) image. *)
Definition good_r ms (prev : option (dict F)) (r : norm_out) : Prop :=
  match prev with Some d => exists m, pure_run ms r m = Ok d | None => True end.
Definition good_m ms (prev : option (dict F)) (m : norm_out) : Prop :=
  match prev with Some d => exists r, pure_run ms r m = Ok d | None => True end.

Lemma pure_run_inv ms r m d : pure_run ms r m = Ok d ->
  exists L, mapM (entry r m) (slots ms) = Ok L /\ d = dupdate [] L.
Proof.
  unfold pure_run. destruct (mapM (entry r m) (slots ms)) as [L|]; [|discriminate].
  intros H. injection H as <-. eauto.
Qed.

Lemma mapM_rel {A B} (Q : nat -> A -> B -> B -> Prop) (f g : A -> res B) l : forall off,
  (forall i x, nth_error l i = Some x ->
     (exists a b, f x = Ok a /\ g x = Ok b /\ Q (off + i) x a b) \/ (exists e, f x = Err e /\ g x = Err e)) ->
  (exists la lb, mapM f l = Ok la /\ mapM g l = Ok lb /\ length la = length l /\ length lb = length l /\
     forall i x, nth_error l i = Some x ->
       exists a b, nth_error la i = Some a /\ nth_error lb i = Some b /\ Q (off + i) x a b)
  \/ (exists e, mapM f l = Err e /\ mapM g l = Err e).
Proof.
  induction l as [|x l IH]; intros off H.
  - left. exists [], []. repeat split. intros [|i] x; discriminate.
  - simpl. destruct (H 0 x eq_refl) as [(a & b & Ea & Eb & Hq)|(e & Ea & Eb)]; rewrite Ea, Eb; simpl.
    + destruct (IH (S off)) as [(la & lb & HA & HB & L1 & L2 & N)|(e & HA & HB)].
      * intros i y Hy. specialize (H (S i) y Hy). rewrite Nat.add_succ_r in H. exact H.
      * rewrite HA, HB. left. exists (a :: la), (b :: lb). simpl. repeat split; try congruence.
        intros [|i] y Hy; simpl in Hy.
        -- injection Hy as <-. exists a, b. rewrite Nat.add_0_r in Hq |- *. auto.
        -- destruct (N i y Hy) as (a' & b' & ? & ? & ?). exists a', b'. rewrite Nat.add_succ_r. auto.
      * rewrite HA, HB. right. exists e. split; reflexivity.
    + right. exists e. split; reflexivity.
Qed.

Lemma cached_run ms prev_r prev_m r m :
  good_r ms prev_r r -> good_m ms prev_m m ->
  (let* l := mapM (entry_c prev_r prev_m r m) (slots ms) in Ok (dupdate [] l)) = pure_run ms r m.
Proof.
  intros Hr Hm. unfold pure_run.
  (* per slot: the cached entry has the key of the fresh one; its value may differ only if the slot is
     not the last one with that key *)
  set (Q := fun (i : nat) (s : slot) (a b : string * F) =>
        fst a = fst b /\ key_of s = Ok (fst a) /\
        (snd a = snd b \/ exists d L, prev_of prev_r prev_m s = Some d /\ d = dupdate [] L /\
           mapM key_of (slots ms) = Ok (dkeys L) /\ dget d (fst a) = Some (snd a) /\
           nth_error L i = Some (fst a, snd b))).
  destruct (mapM_rel Q (entry_c prev_r prev_m r m) (entry r m) (slots ms) 0) as
    [(la & lb & A & B & L1 & L2 & N)|(e & A & B)].
  - intros i s Hs. unfold entry_c.
    destruct (prev_of prev_r prev_m s) as [d|] eqn:Ep.
    + left.
      assert (E : exists r1 m1 L, mapM (entry r1 m1) (slots ms) = Ok L /\ d = dupdate [] L /\
                    entry r m s = entry r1 m1 s).
      { destruct s as [[| |] e]; cbn [prev_of fst] in Ep; [| |discriminate Ep]; subst.
        - destruct Hr as (m1 & Hd). apply pure_run_inv in Hd as (L & HL & ->).
          exists r, m1, L. auto.
        - destruct Hm as (r1 & Hd). apply pure_run_inv in Hd as (L & HL & ->).
          exists r1, m, L. auto. }
      destruct E as (r1 & m1 & L & HL & -> & He).
      destruct (mapM_nth _ _ _ HL) as [_ NL]. destruct (NL i s Hs) as ([k v] & Hi & Hv).
      assert (Hk : key_of s = Ok k).
      { unfold entry in Hv. destruct (val_of r1 m1 s); [|discriminate Hv]. simpl in Hv.
        destruct (key_of s); [|discriminate Hv]. simpl in Hv. congruence. }
      assert (Hin : In k (dkeys L)).
      { apply in_map_iff. exists (k, v). split; [reflexivity|]. eapply nth_error_In, Hi. }
      destruct (last_pos (V:=F) (dkeys L) k Hin) as (j & _ & Hj).
      destruct (Hj L eq_refl) as (w & _ & Hw).
      exists (k, w), (k, v). split; [|split].
      * unfold cached. rewrite Hk. simpl. rewrite Hw. reflexivity.
      * rewrite He. exact Hv.
      * unfold Q. simpl. split; [reflexivity|]. split; [exact Hk|]. right.
        exists (dupdate [] L), L. repeat split; try assumption. eapply mapM_keys, HL.
    + destruct (entry r m s) as [[k v]|e] eqn:Ee; [left|right; eauto].
      exists (k, v), (k, v). repeat split; [|left; reflexivity].
      simpl. unfold entry in Ee. destruct (val_of r m s); [|discriminate Ee]. simpl in Ee.
      destruct (key_of s); [|discriminate Ee]. simpl in Ee. congruence.
  - rewrite A, B. simpl. f_equal.
    assert (K : dkeys la = dkeys lb).
    { apply nth_error_ext. intros i. unfold dkeys. rewrite !nth_error_map.
      destruct (nth_error (slots ms) i) as [s|] eqn:Es.
      - destruct (N i s Es) as (a & b & -> & -> & Hq & _). simpl. congruence.
      - apply nth_error_None in Es. rewrite (proj2 (nth_error_None la i)), (proj2 (nth_error_None lb i)) by lia.
        reflexivity. }
    apply dict_ext.
    + apply NoDup_dupdate. constructor.
    + apply dkeys_dupdate_same; [exact K|reflexivity].
    + intros k. destruct (in_dec string_dec k (dkeys la)) as [Hk|Hk].
      * destruct (last_pos (V:=F) (dkeys la) k Hk) as (j & Hj & Hl).
        destruct (Hl la eq_refl) as (v & Ha & Ga). destruct (Hl lb (eq_sym K)) as (w & Hb & Gb).
        rewrite Ga, Gb. f_equal.
        destruct (nth_error (slots ms) j) as [s|] eqn:Es.
        2:{ apply nth_error_None in Es. assert (j < length la) by (apply nth_error_Some; congruence). lia. }
        destruct (N j s Es) as (a & b & Ea & Eb & _ & Hks & Hq). rewrite Ha in Ea. rewrite Hb in Eb.
        injection Ea as <-. injection Eb as <-. simpl in Hq, Hks.
        destruct Hq as [Hq|(d & L & _ & -> & HL & Hd & HLj)]; [exact Hq|].
        assert (KL : dkeys L = dkeys la).
        { pose proof (mapM_keys _ _ _ _ B) as KB. rewrite HL in KB. injection KB as ->. congruence. }
        destruct (Hl L KL) as (u & Hu & Gu). rewrite Hd in Gu. rewrite HLj in Hu. congruence.
      * rewrite !dget_dupdate_nil; [reflexivity| |exact Hk]. rewrite <- K. exact Hk.
  - rewrite A, B. reflexivity.
Qed.
End pure.
