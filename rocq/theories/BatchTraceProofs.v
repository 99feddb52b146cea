(** What every successful batch run looks like, and the loop without memory. *)
From Coq Require Import Reals FinFun.
From Verif Require Import Base NdArray LoadModel LoadProofs NormModel NormProofs PairModel PairProofs BatchModel
  BatchProofs BatchLoopProofs.

Lemma dset_fresh {V} (d : dict V) k v : ~ In k (dkeys d) -> dset d k v = d ++ [(k, v)].
Proof.
  induction d as [|[k' v'] d IH]; simpl; intros H; [reflexivity|].
  destruct (String.eqb k' k) eqn:E; [apply String.eqb_eq in E; tauto|]. rewrite IH by tauto. reflexivity.
Qed.

Lemma dupdate_fresh {V} (L : dict V) : forall d, NoDup (dkeys L) -> (forall k, In k (dkeys L) -> ~ In k (dkeys d)) ->
  dupdate d L = d ++ L.
Proof.
  unfold dupdate. induction L as [|[k v] L IH]; intros d N H; simpl; [rewrite app_nil_r; reflexivity|].
  simpl in N. apply NoDup_cons_iff in N as [N1 N2].
  rewrite dset_fresh by (apply H; left; reflexivity). rewrite IH; [rewrite <- app_assoc; reflexivity|exact N2|].
  intros k' Hk' Hin. unfold dkeys in Hin. rewrite map_app, in_app_iff in Hin. simpl in Hin.
  destruct Hin as [Hin|[<-|[]]]; [|contradiction]. apply (H k'); [right; exact Hk'|exact Hin].
Qed.

Lemma combine_nth_error {A B} (la : list A) (lb : list B) i :
  length la = length lb ->
  nth_error (combine la lb) i
  = match nth_error la i, nth_error lb i with Some a, Some b => Some (a, b) | _, _ => None end.
Proof.
  revert lb i. induction la as [|a la IH]; intros [|b lb] [|i] H; simpl in *; try discriminate H; try reflexivity.
  apply IH. congruence.
Qed.

Lemma dget_nth {V} (d : dict V) k v i : NoDup (dkeys d) -> nth_error d i = Some (k, v) -> dget d k = Some v.
Proof.
  revert i. induction d as [|[k' v'] d IH]; intros [|i] N H; try discriminate H; simpl in *.
  - injection H as -> ->. rewrite String.eqb_refl. reflexivity.
  - apply NoDup_cons_iff in N as [N1 N2]. destruct (String.eqb k' k) eqn:E; [|apply (IH i N2 H)].
    apply String.eqb_eq in E as ->. exfalso. apply N1. apply in_map_iff. exists (k, v). split; [reflexivity|].
    eapply nth_error_In, H.
Qed.

Lemma NoDup_shows n len : NoDup (map show (seq n len)).
Proof. apply FinFun.Injective_map_NoDup; [intros a b; apply show_inj|apply seq_NoDup]. Qed.

Section trace.
Context {M P X F : Type}.
Variable kind_of : M -> mkind.
Variable name_of : M -> option string.
Variable score_fr : M -> P -> norm_out -> norm_out -> res X * M.
Variable score_nr : M -> P -> norm_out -> res X * M.
Variable to_f : X -> res F.
Variable disk : text -> res image.
Variable ident : identity.
Variable ub : R -> Z.
Variable resize : norm_out -> list nat -> dtype -> Z -> res norm_out.

(** Scoring never changes the kind or the name of a metric of the list. *)
Definition stable (h0 : @store M) (ms : list (nat * P)) : Prop :=
  exists Inv : @store M -> Prop, Inv h0 /\
    forall h id p, Inv h -> In (id, p) ms ->
      kind_of (h id) = kind_of (h0 id) /\ name_of (h id) = name_of (h0 id) /\
      (forall a b, name_of (snd (score_fr (h id) p a b)) = name_of (h0 id) /\
                   Inv (store_set h id (snd (score_fr (h id) p a b)))) /\
      (forall a, name_of (snd (score_nr (h id) p a)) = name_of (h0 id) /\
                 Inv (store_set h id (snd (score_nr (h id) p a)))).

Lemma history_free_stable h0 ms : history_free kind_of name_of score_fr score_nr h0 ms -> stable h0 ms.
Proof.
  intros (Inv & H0 & H). exists Inv. split; [exact H0|]. intros h id p Hi Hin.
  destruct (H h id p Hi Hin) as (H1 & H2 & H3 & H4). split; [exact H1|]. split; [exact H2|]. split.
  - intros a b. destruct (H3 a b) as (_ & ? & ?). auto.
  - intros a. destruct (H4 a) as (_ & ? & ?). auto.
Qed.

Variable h0 : @store M.
Variable ms0 : list (nat * P).
Variable Inv : @store M -> Prop.
Hypothesis step_ok : forall h id p, Inv h -> In (id, p) ms0 ->
      kind_of (h id) = kind_of (h0 id) /\ name_of (h id) = name_of (h0 id) /\
      (forall a b, name_of (snd (score_fr (h id) p a b)) = name_of (h0 id) /\
                   Inv (store_set h id (snd (score_fr (h id) p a b)))) /\
      (forall a, name_of (snd (score_nr (h id) p a)) = name_of (h0 id) /\
                 Inv (store_set h id (snd (score_nr (h id) p a)))).

Notation slots_of := (slots_of (P:=P) kind_of h0).
Notation slots := (slots (P:=P) kind_of h0).
Notation key_of := (key_of (P:=P) name_of h0).
Notation nr_side := (nr_side name_of score_nr to_f).
Notation metric_step := (metric_step kind_of name_of score_fr score_nr to_f).
Notation run_metrics := (run_metrics kind_of name_of score_fr score_nr to_f).
Notation calc := (calc kind_of name_of score_fr score_nr to_f disk ident ub resize).
Notation batch_step := (batch_step kind_of name_of score_fr score_nr to_f disk ident ub resize).
Notation batch_loop := (batch_loop kind_of name_of score_fr score_nr to_f disk ident ub resize).
Notation cache := (@cache F).

(** Assignments made for a list of slots: keys as expected, cached values taken from the caches. *)
Definition written (prev_r prev_m : option (dict F)) (sl : list (@slot P)) (L : dict F) : Prop :=
  Forall2 (fun s kv => key_of s = Ok (fst kv) /\
             forall d, prev_of prev_r prev_m s = Some d -> dget d (fst kv) = Some (snd kv)) sl L.

Lemma nr_side_written s prev_r prev_m id p img acc h d h' :
  Inv h -> In (id, p) ms0 -> s = SideR \/ s = SideM ->
  nr_side (suffix_of s) (prev_of prev_r prev_m (s, (id, p))) id p img acc h = (d, h') ->
  Inv h' /\ forall d', d = Ok d' -> exists kv, written prev_r prev_m [(s, (id, p))] [kv] /\ d' = dupdate acc [kv].
Proof.
  intros Hi Hin Hs H. destruct (step_ok h id p Hi Hin) as (_ & Hn & _ & Hnr).
  unfold BatchModel.nr_side in H.
  destruct (prev_of prev_r prev_m (s, (id, p))) as [dd|] eqn:Ep.
  - injection H as <- <-. split; [exact Hi|]. intros d' E. rewrite Hn in E.
    destruct (name_of (h0 id)) as [nm|] eqn:En; [|discriminate E]. cbn [from_opt bind] in E.
    destruct (dget dd (nm ++ suffix_of s)%string) as [v|] eqn:Ev; [|discriminate E]. injection E as <-.
    exists ((nm ++ suffix_of s)%string, v). split; [|reflexivity]. constructor; [|constructor].
    split.
    + unfold BatchProofs.key_of. cbn [fst snd]. rewrite En. cbn [from_opt bind].
      destruct Hs as [->| ->]; reflexivity.
    + intros d1 E1. cbn [fst snd]. rewrite Ep in E1. injection E1 as <-. exact Ev.
  - destruct (Hnr img) as (Hm & HI). destruct (score_nr (h id) p img) as [x m'].
    simpl in Hm, HI. injection H as <- <-. split; [exact HI|]. intros d' E.
    apply bind_ok in E as (x' & _ & E). apply bind_ok in E as (v & _ & E). apply bind_ok in E as (nm & En & E).
    rewrite Hm in En. injection E as <-. exists ((nm ++ suffix_of s)%string, v). split; [|reflexivity].
    constructor; [|constructor]. split; [|intros d1 E1; rewrite Ep in E1; discriminate E1].
    unfold BatchProofs.key_of. cbn [fst snd]. rewrite En. cbn [bind].
    destruct Hs as [->| ->]; reflexivity.
Qed.

Lemma metric_step_written prev_r prev_m r m id p acc h d h' :
  Inv h -> In (id, p) ms0 -> metric_step prev_r prev_m r m id p acc h = (d, h') ->
  Inv h' /\ forall d', d = Ok d' -> exists L, written prev_r prev_m (slots_of (id, p)) L /\ d' = dupdate acc L.
Proof.
  intros Hi Hin H. pose proof (step_ok h id p Hi Hin) as (Hk & Hn & Hfr & _).
  unfold BatchModel.metric_step in H. unfold BatchProofs.slots_of. rewrite Hk in H. cbn [fst].
  destruct (kind_of (h0 id)).
  - destruct (Hfr r m) as (Hm & HI). destruct (score_fr (h id) p r m) as [x m'].
    simpl in Hm, HI. injection H as <- <-. split; [exact HI|]. intros d' E.
    apply bind_ok in E as (x' & _ & E). apply bind_ok in E as (v & _ & E). apply bind_ok in E as (nm & En & E).
    rewrite Hm in En. injection E as <-. exists [(nm, v)]. split; [|reflexivity].
    constructor; [|constructor]. split; [|intros d1 E1; discriminate E1].
    unfold BatchProofs.key_of. cbn [fst snd]. rewrite En. reflexivity.
  - destruct (nr_side "_r" prev_r id p r acc h) as [d1 h1] eqn:E1.
    apply (nr_side_written SideR prev_r prev_m id p r acc h d1 h1 Hi Hin (or_introl eq_refl)) in E1 as [I1 W1].
    destruct d1 as [a1|e]; [|injection H as <- <-; split; [exact I1|intros; discriminate]].
    apply (nr_side_written SideM prev_r prev_m id p m a1 h1 d h' I1 Hin (or_intror eq_refl)) in H as [I2 W2].
    split; [exact I2|]. intros d' ->. destruct (W1 a1 eq_refl) as (kv1 & F1 & ->).
    destruct (W2 d' eq_refl) as (kv2 & F2 & ->). exists [kv1; kv2]. split; [|reflexivity].
    inversion F1; subst. constructor; assumption.
  - injection H as <- <-. split; [exact Hi|]. intros d' E. injection E as <-. exists []. split; [constructor|reflexivity].
Qed.

Lemma run_metrics_written prev_r prev_m r m ms : forall acc h d h',
  Inv h -> incl ms ms0 -> run_metrics prev_r prev_m r m ms acc h = (d, h') ->
  Inv h' /\ forall d', d = Ok d' -> exists L, written prev_r prev_m (slots ms) L /\ d' = dupdate acc L.
Proof.
  induction ms as [|[id p] ms IH]; intros acc h d h' Hi Hin H; simpl in H.
  - injection H as <- <-. split; [exact Hi|]. intros d' E. injection E as <-. exists []. split; [constructor|reflexivity].
  - destruct (metric_step prev_r prev_m r m id p acc h) as [d1 h1] eqn:E1.
    apply metric_step_written in E1 as [I1 W1]; [|exact Hi|apply Hin; left; reflexivity].
    destruct d1 as [a1|e]; [|injection H as <- <-; split; [exact I1|intros; discriminate]].
    apply IH in H as [I2 W2]; [|exact I1|intros x Hx; apply Hin; right; exact Hx].
    split; [exact I2|]. intros d' ->. destruct (W1 a1 eq_refl) as (L1 & F1 & ->).
    destruct (W2 d' eq_refl) as (L2 & F2 & ->). exists (L1 ++ L2). split.
    + simpl. apply Forall2_app; assumption.
    + rewrite dupdate_app. reflexivity.
Qed.

Lemma written_keys prev_r prev_m sl L : written prev_r prev_m sl L -> mapM key_of sl = Ok (dkeys L).
Proof.
  induction 1 as [|s kv sl L (Hk & _) _ IH]; simpl; [reflexivity|]. rewrite Hk. simpl. rewrite IH. reflexivity.
Qed.

Lemma calc_written kw order roi prev_r prev_m r m ms h d h' :
  Inv h -> incl ms ms0 -> calc kw order roi prev_r prev_m r m ms h = (d, h') ->
  Inv h' /\ forall d', d = Ok d' -> exists L, written prev_r prev_m (slots ms) L /\ d' = dupdate [] L.
Proof.
  intros Hi Hin H. unfold BatchModel.calc in H.
  destruct (let* r := r in let* m := m in prepare_pair disk ident ub resize kw order roi r m) as [[a b]|e].
  - eapply run_metrics_written; eassumption.
  - injection H as <- <-. split; [exact Hi|]. intros; discriminate.
Qed.

Variables (kw : kwargs) (order : Z) (dir : text) (rois : option (list (option roi_t))) (global : option roi_t).

Definition last_of (c : option cache) : option (dict F) := option_map c_last c.

(** One step: paths recorded; results written from the caches of unchanged paths, or kept if both
    paths are unchanged. *)
Definition step_spec (pr : pair) (c : option cache) (c' : cache) : Prop :=
  paths dir pr = Ok (c_rpath c', c_mpath c') /\
  ((exists c0, c = Some c0 /\ c_rpath c0 = c_rpath c' /\ c_mpath c0 = c_mpath c' /\ c_last c' = c_last c0) \/
   (forall c0, c = Some c0 -> c_rpath c0 = c_rpath c' -> c_mpath c0 <> c_mpath c') /\
   exists L, written (last_of (same c c_rpath (c_rpath c'))) (last_of (same c c_mpath (c_mpath c'))) (slots ms0) L /\
     c_last c' = dupdate [] L).

Lemma batch_step_spec n pr c h d h' :
  Inv h -> batch_step kw order dir rois global ms0 n pr c h = (d, h') ->
  Inv h' /\ forall c', d = Ok c' -> step_spec pr c c'.
Proof.
  intros Hi H. unfold BatchModel.batch_step in H. fold (paths dir pr) in H.
  destruct (paths dir pr) as [[rp mp]|e] eqn:Ep; [|injection H as <- <-; split; [exact Hi|intros; discriminate]].
  assert (G : forall cr cm, cr = same c c_rpath rp -> cm = same c c_mpath mp -> cr = None \/ cm = None ->
    match (let* r := match cr with Some c => Ok (c_ref c) | None => load_in disk ident ub kw (InPath rp) end in
           let* m := match cm with Some c => Ok (c_mod c) | None => load_in disk ident ub kw (InPath mp) end in
           let* roi := pair_roi rois global n in Ok (r, m, roi)) with
    | Err e => (Err e, h)
    | Ok (r, m, roi) =>
        match calc kw order roi (option_map c_last cr) (option_map c_last cm)
                (reload disk ident ub kw r) (reload disk ident ub kw m) ms0 h with
        | (Err e, h') => (Err e, h')
        | (Ok d, h') => (Ok (Cache rp r mp m d), h')
        end
    end = (d, h') -> Inv h' /\ forall c', d = Ok c' -> step_spec pr c c').
  { clear H. intros cr cm Ecr Ecm Hnone H.
    destruct (let* r := _ in let* m := _ in let* roi := _ in Ok (r, m, roi)) as [[[r m] roi]|e];
      [|injection H as <- <-; split; [exact Hi|intros; discriminate]].
    destruct (calc kw order roi (option_map c_last cr) (option_map c_last cm)
                (reload disk ident ub kw r) (reload disk ident ub kw m) ms0 h) as [d1 h1] eqn:Ec.
    apply calc_written in Ec as [I1 W]; [|exact Hi|apply incl_refl].
    destruct d1 as [d1|e]; injection H as <- <-; (split; [exact I1|]); [|intros; discriminate].
    intros c' E. injection E as <-. split; [exact Ep|]. right. cbn [c_rpath c_mpath c_last].
    split; [|rewrite <- Ecr, <- Ecm; apply W; reflexivity].
    intros c0 -> E1 E2. unfold same in Ecr, Ecm. subst rp mp.
    rewrite (proj2 (text_eqb_eq _ _) eq_refl) in Ecr. rewrite (proj2 (text_eqb_eq _ _) eq_refl) in Ecm. destruct Hnone; congruence. }
  destruct (same c c_rpath rp) as [cr|] eqn:Er.
  - destruct (same c c_mpath mp) as [cm|] eqn:Em; [|apply (G _ _ eq_refl eq_refl (or_intror eq_refl) H)].
    injection H as <- <-. split; [exact Hi|]. intros c' E. injection E as <-.
    unfold same in Er, Em. destruct c as [c|]; [|discriminate Er].
    destruct (text_eqb rp (c_rpath c)) eqn:T1; [|discriminate Er]. injection Er as <-.
    destruct (text_eqb mp (c_mpath c)) eqn:T2; [|discriminate Em].
    apply text_eqb_eq in T1 as ->. apply text_eqb_eq in T2 as ->. split; [exact Ep|]. left. exists c. auto.
  - apply (G _ _ eq_refl eq_refl (or_introl eq_refl) H).
Qed.

(** Successful runs: one result per pair, each made from the one before. *)
Fixpoint linked (c : option cache) (pairs : list pair) (cs : list cache) : Prop :=
  match pairs, cs with
  | [], [] => True
  | pr :: pairs', c' :: cs' => step_spec pr c c' /\ linked (Some c') pairs' cs'
  | _, _ => False
  end.

Lemma batch_loop_trace pairs : forall n c results h out h',
  Inv h -> batch_loop kw order dir rois global ms0 n pairs c results h = (Ok tt, out, h') ->
  exists cs, linked c pairs cs /\ length cs = length pairs /\
    out = dupdate results (combine (map show (seq n (length pairs))) (map c_last cs)).
Proof.
  induction pairs as [|pr pairs IH]; intros n c results h out h' Hi H; simpl in H.
  - injection H as <- <-. exists []. simpl. auto.
  - destruct (batch_step kw order dir rois global ms0 n pr c h) as [d h1] eqn:E.
    apply batch_step_spec in E as [I1 S]; [|exact Hi].
    destruct d as [c'|e]; [|discriminate H]. apply IH in H as (cs & Hl & Hlen & ->); [|exact I1].
    exists (c' :: cs). simpl. split; [split; [apply S; reflexivity|exact Hl]|]. split; [congruence|reflexivity].
Qed.

Lemma linked_nth pairs : forall c cs n pr pr' , linked c pairs cs ->
  nth_error pairs n = Some pr -> nth_error pairs (S n) = Some pr' ->
  exists c1 c2, nth_error cs n = Some c1 /\ nth_error cs (S n) = Some c2 /\
    paths dir pr = Ok (c_rpath c1, c_mpath c1) /\ step_spec pr' (Some c1) c2.
Proof.
  induction pairs as [|q pairs IH]; intros c cs n pr pr' Hl Hn Hn'; [destruct n; discriminate Hn|].
  destruct cs as [|c1 cs]; [destruct Hl|]. destruct Hl as [Hs Hl].
  destruct n as [|n].
  - simpl in Hn. injection Hn as <-. simpl in Hn'. destruct pairs as [|q' pairs]; [discriminate Hn'|].
    injection Hn' as <-. destruct cs as [|c2 cs]; [destruct Hl|]. destruct Hl as [Hs' _].
    exists c1, c2. split; [reflexivity|]. split; [reflexivity|]. split; [apply Hs|exact Hs'].
  - apply (IH (Some c1) cs n pr pr' Hl Hn Hn').
Qed.
End trace.

(** ** Results of the loop without memory *)
Section pure_results.
Context {F : Type}.
Variable alone_at : nat -> pair -> res (dict F).

Fixpoint ploop (n : nat) (pairs : list pair) (results : dict (dict F)) : res unit * dict (dict F) :=
  match pairs with
  | [] => (Ok tt, results)
  | pr :: pairs' =>
      match alone_at n pr with
      | Err e => (Err e, results)
      | Ok d => ploop (S n) pairs' (dset results (show n) d)
      end
  end.

Lemma ploop_ok pairs : forall n results,
  (forall k, In k (dkeys results) -> exists i, i < n /\ k = show i) ->
  match ploop n pairs results with
  | (Ok _, out) => exists ds, length ds = length pairs /\
      out = results ++ combine (map show (seq n (length pairs))) ds /\
      forall i pr, nth_error pairs i = Some pr -> exists d, nth_error ds i = Some d /\ alone_at (n + i) pr = Ok d
  | (Err e, _) => exists i pr, nth_error pairs i = Some pr /\ alone_at (n + i) pr = Err e /\
      forall j q, j < i -> nth_error pairs j = Some q -> exists d, alone_at (n + j) q = Ok d
  end.
Proof.
  induction pairs as [|pr pairs IH]; intros n results Hk; simpl.
  - exists []. split; [reflexivity|]. split; [rewrite app_nil_r; reflexivity|]. intros [|i] pr; discriminate.
  - destruct (alone_at n pr) as [d|e] eqn:Ea.
    + assert (Hf : ~ In (show n) (dkeys results)).
      { intros H. destruct (Hk _ H) as (i & Hi & E). apply show_inj in E. lia. }
      specialize (IH (S n) (dset results (show n) d)).
      assert (Hk' : forall k, In k (dkeys (dset results (show n) d)) -> exists i, i < S n /\ k = show i).
      { intros k. rewrite dset_fresh by exact Hf. unfold dkeys. rewrite map_app, in_app_iff. simpl.
        intros [H|[<-|[]]]; [|exists n; split; [lia|reflexivity]]. destruct (Hk _ H) as (i & ? & ?). exists i. split; [lia|assumption]. }
      specialize (IH Hk'). destruct (ploop (S n) pairs (dset results (show n) d)) as [[[]|e] out].
      * destruct IH as (ds & Hlen & -> & H). exists (d :: ds). split; [simpl; congruence|]. split.
        -- rewrite dset_fresh by exact Hf. rewrite <- app_assoc. reflexivity.
        -- intros [|i] q Hq; simpl in *.
           ++ injection Hq as <-. exists d. rewrite Nat.add_0_r. auto.
           ++ destruct (H i q Hq) as (d' & ? & ?). exists d'. rewrite Nat.add_succ_r. auto.
      * destruct IH as (i & q & Hq & He & Hb). exists (S i), q. split; [exact Hq|].
        rewrite Nat.add_succ_r. split; [exact He|]. intros [|j] q' Hj Hq'; simpl in *.
        -- injection Hq' as <-. rewrite Nat.add_0_r. eauto.
        -- rewrite Nat.add_succ_r. apply (Hb j); [lia|exact Hq'].
    + exists 0, pr. split; [reflexivity|]. rewrite Nat.add_0_r. split; [exact Ea|]. intros; lia.
Qed.
End pure_results.
