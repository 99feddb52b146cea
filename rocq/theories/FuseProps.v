(** fusion.py with scores and weights that are infinite or not numbers: property C21. *)
From Coq Require Import Reals Lra.
From Verif Require Import Base NdArray LoadModel NormModel PairModel RealSums MetricModel MetricProofs.
Local Open Scope R_scope.

Definition infinite (x : ext) : Prop := x = PInf \/ x = NInf.
Definition positive (x : ext) : Prop := x = PInf \/ exists r, x = Fin r /\ 0 < r.
Definition negative (x : ext) : Prop := x = NInf \/ exists r, x = Fin r /\ r < 0.

(** A term (score, weight) that is not a number, is infinite upwards or downwards. *)
Definition bad (t : ext * ext) : Prop :=
  fst t = NaN \/ snd t = NaN \/ infinite (fst t) /\ snd t = Fin 0 \/ infinite (snd t) /\ fst t = Fin 0.
Definition up (t : ext * ext) : Prop :=
  (infinite (fst t) \/ infinite (snd t)) /\ (positive (fst t) /\ positive (snd t) \/ negative (fst t) /\ negative (snd t)).
Definition down (t : ext * ext) : Prop :=
  (infinite (fst t) \/ infinite (snd t)) /\ (positive (fst t) /\ negative (snd t) \/ negative (fst t) /\ positive (snd t)).

Lemma not_both x : positive x -> negative x -> False.
Proof. intros [->|(r & -> & H)] [E|(s & E & K)]; try discriminate. injection E as <-. lra. Qed.

Lemma zero_or x : x = 0 \/ 0 < x \/ x < 0.
Proof. lra. Qed.

Lemma product t : (bad t -> ext_mul (fst t) (snd t) = NaN) /\ (up t -> ext_mul (fst t) (snd t) = PInf) /\
  (down t -> ext_mul (fst t) (snd t) = NInf) /\
  (~ bad t -> ~ up t -> ~ down t -> exists x w, t = (Fin x, Fin w) /\ ext_mul (fst t) (snd t) = Fin (x * w)).
Proof.
  assert (S : forall x, (x = 0 -> Rsgn_ext x = NaN) /\ (0 < x -> Rsgn_ext x = PInf) /\ (x < 0 -> Rsgn_ext x = NInf)).
  { intros x. unfold Rsgn_ext. destruct (Rlt_dec 0 x), (Rlt_dec x 0); repeat split; intros; try reflexivity; lra. }
  destruct t as [a w]; cbn [fst snd]. unfold bad, up, down, infinite, positive, negative; cbn [fst snd].
  destruct a as [a| | |], w as [w| | |]; cbn [ext_mul];
    try (destruct (S a) as (S0 & S1 & S2); destruct (zero_or a) as [Z|[Z|Z]]; [rewrite (S0 Z)|rewrite (S1 Z)|rewrite (S2 Z)]);
    try (destruct (S w) as (S0' & S1' & S2'); destruct (zero_or w) as [Z'|[Z'|Z']]; [try rewrite (S0' Z')|try rewrite (S1' Z')|try rewrite (S2' Z')]);
    cbn [ext_neg];
    (split; [|split; [|split]]); intros;
    repeat match goal with
    | H : _ \/ _ |- _ => destruct H
    | H : _ /\ _ |- _ => destruct H
    | H : exists _, _ |- _ => destruct H as (? & ? & ?)
    | H : Fin _ = Fin _ |- _ => injection H as H; subst
    end; try discriminate; try reflexivity; try lra; try (eexists; eexists; split; reflexivity);
    exfalso; subst;
    match goal with N1 : ~ _, N2 : ~ _, N3 : ~ _ |- _ =>
      first [ apply N1; solve [intuition auto] | apply N2; solve [intuition eauto 6] | apply N3; solve [intuition eauto 6] ] end.
Qed.

Lemma total l : forall acc, let all := acc :: l in
  (In NaN all -> fold_left ext_add l acc = NaN) /\
  (In PInf all -> In NInf all -> fold_left ext_add l acc = NaN) /\
  (~ In NaN all -> In PInf all -> ~ In NInf all -> fold_left ext_add l acc = PInf) /\
  (~ In NaN all -> In NInf all -> ~ In PInf all -> fold_left ext_add l acc = NInf).
Proof.
  induction l as [|x l IH]; intros acc all; unfold all; cbn [fold_left].
  - repeat split; intros; cbn [In] in *; repeat match goal with H : _ \/ False |- _ => destruct H as [H|[]] end; subst; try reflexivity; discriminate.
  - destruct (IH (ext_add acc x)) as (A & B & C & D).
    assert (N : In NaN (acc :: x :: l) -> In NaN (ext_add acc x :: l)).
    { intros [->|[->|H]]; [left; reflexivity|left; destruct acc; reflexivity|right; exact H]. }
    assert (M : forall y z, (y = PInf /\ z = NInf) \/ (y = NInf /\ z = PInf) -> In y (acc :: x :: l) -> In y (ext_add acc x :: l) \/ In NaN (ext_add acc x :: l)).
    { intros y z K [->|[->|H]]; [| |left; right; exact H].
      - destruct K as [[-> ->]|[-> ->]]; destruct x; cbn [ext_add]; auto using in_eq.
      - destruct K as [[-> ->]|[-> ->]]; destruct acc; cbn [ext_add]; auto using in_eq. }
    assert (N' : ~ In NaN (acc :: x :: l) -> ~ (In PInf (acc :: x :: l) /\ In NInf (acc :: x :: l)) -> ~ In NaN (ext_add acc x :: l)).
    { intros H K [E|E]; [|apply H; right; right; exact E].
      destruct acc, x; cbn [ext_add] in E; try discriminate; try (apply H; cbn [In]; auto; fail); apply K; cbn [In]; auto. }
    assert (P' : forall y, infinite y -> ~ In y (acc :: x :: l) -> ~ In y (ext_add acc x :: l)).
    { intros y Y H [E|E]; [|apply H; right; right; exact E].
      destruct Y as [->| ->]; destruct acc, x; cbn [ext_add] in E; try discriminate; apply H; cbn [In]; auto. }
    split; [auto|]. split; [|split].
    + intros H1 H2. destruct (M PInf NInf ltac:(auto) H1) as [K1|K1]; [|auto]. destruct (M NInf PInf ltac:(auto) H2) as [K2|K2]; auto.
    + intros H1 H2 H3. assert (Z : ~ In NaN (ext_add acc x :: l)) by (apply N'; tauto).
      destruct (M PInf NInf ltac:(auto) H2) as [K|K]; [|contradiction]. apply C; auto. apply P'; [right; reflexivity|exact H3].
    + intros H1 H2 H3. assert (Z : ~ In NaN (ext_add acc x :: l)) by (apply N'; tauto).
      destruct (M NInf PInf ltac:(auto) H2) as [K|K]; [|contradiction]. apply D; auto. apply P'; [left; reflexivity|exact H3].
Qed.

Definition terms (l : list (ext * ext)) : list ext := map (fun t => ext_mul (fst t) (snd t)) l.

Lemma fuse_terms xs ws : length xs = length ws -> forall acc, fuse_from acc (map SNum xs) ws = Ok (fold_left ext_add (terms (combine xs ws)) acc).
Proof.
  revert ws. induction xs as [|x xs IH]; intros [|w ws] L acc; try discriminate; [reflexivity|].
  cbn [map fuse_from combine terms fold_left fst snd]. apply IH. injection L as L. exact L.
Qed.

Lemma sides t : bad t \/ up t \/ down t \/ (exists x w, t = (Fin x, Fin w)).
Proof.
  destruct t as [a w]. unfold bad, up, down, infinite, positive, negative; cbn [fst snd].
  destruct a as [a| | |], w as [w| | |]; try (right; right; right; eauto; fail);
    try (destruct (zero_or a) as [Z|[Z|Z]]); try (destruct (zero_or w) as [Z'|[Z'|Z']]); subst;
    first [ left; solve [intuition eauto] | right; left; solve [intuition eauto 6] | right; right; left; solve [intuition eauto 6] ].
Qed.

Lemma terms_in l y : In y (terms l) -> (y = NaN -> exists t, In t l /\ bad t) /\ (y = PInf -> exists t, In t l /\ up t) /\ (y = NInf -> exists t, In t l /\ down t).
Proof.
  intros H. apply in_map_iff in H. destruct H as (t & <- & I). destruct (product t) as (A & B & C & D).
  destruct (sides t) as [K|[K|[K|(x & w & ->)]]].
  - rewrite (A K). repeat split; intros; try discriminate. exists t; auto.
  - rewrite (B K). repeat split; intros; try discriminate. exists t; auto.
  - rewrite (C K). repeat split; intros; try discriminate. exists t; auto.
  - cbn [fst snd ext_mul]. repeat split; intros; discriminate.
Qed.


Lemma terms_out l t : In t l -> (bad t -> In NaN (terms l)) /\ (up t -> In PInf (terms l)) /\ (down t -> In NInf (terms l)).
Proof.
  intros H. destruct (product t) as (A & B & C & _).
  repeat split; intros K; [rewrite <- (A K)|rewrite <- (B K)|rewrite <- (C K)]; apply (in_map (fun t => ext_mul (fst t) (snd t))), H.
Qed.

(** For all scores and weights, infinite ones and NaN included: the fused score is not a number exactly if a term is
    not one (a score or weight that is not, or infinity times 0) or if terms are infinite in both directions; it is
    infinite exactly if terms are infinite in that direction only. *)
Theorem C21_extended : forall ms xs ws, map m_score ms = map SNum xs -> length xs = length ws ->
  let l := combine xs ws in
  exists v, fuse ms ws = Ok v /\
  (v = NaN <-> (exists t, In t l /\ bad t) \/ (exists t, In t l /\ up t) /\ (exists t, In t l /\ down t)) /\
  (v = PInf <-> (exists t, In t l /\ up t) /\ (forall t, In t l -> ~ bad t /\ ~ down t)) /\
  (v = NInf <-> (exists t, In t l /\ down t) /\ (forall t, In t l -> ~ bad t /\ ~ up t)).
Proof.
  intros ms xs ws E L l. unfold fuse. rewrite E, fuse_terms by exact L. fold l.
  exists (fold_left ext_add (terms l) (Fin 0)). split; [reflexivity|].
  destruct (total (terms l) (Fin 0)) as (A & B & C & D).
  set (b := exists t, In t l /\ bad t). set (u := exists t, In t l /\ up t). set (d := exists t, In t l /\ down t).
  assert (Ib : In NaN (Fin 0 :: terms l) <-> b).
  { split; [intros [H|H]; [discriminate|exact (proj1 (terms_in l NaN H) eq_refl)]|intros (t & I & K); right; exact (proj1 (terms_out l t I) K)]. }
  assert (Iu : In PInf (Fin 0 :: terms l) <-> u).
  { split; [intros [H|H]; [discriminate|exact (proj1 (proj2 (terms_in l PInf H)) eq_refl)]|intros (t & I & K); right; exact (proj1 (proj2 (terms_out l t I)) K)]. }
  assert (Id : In NInf (Fin 0 :: terms l) <-> d).
  { split; [intros [H|H]; [discriminate|exact (proj2 (proj2 (terms_in l NInf H)) eq_refl)]|intros (t & I & K); right; exact (proj2 (proj2 (terms_out l t I)) K)]. }
  assert (Q : forall P1 P2 : ext * ext -> Prop, (forall t, In t l -> ~ P1 t /\ ~ P2 t) <-> ~ (exists t, In t l /\ P1 t) /\ ~ (exists t, In t l /\ P2 t)).
  { intros P1 P2. split; [intros H; split; intros (t & I & K); destruct (H t I); auto|]. intros [H1 H2] t I. split; intros K; [apply H1|apply H2]; exists t; auto. }
  rewrite !Q. fold b u d.
  assert (dec : forall y, (y = NaN \/ infinite y) -> In y (Fin 0 :: terms l) \/ ~ In y (Fin 0 :: terms l)).
  { intros y Hy. generalize (Fin 0 :: terms l) as L0. induction L0 as [|z L0 IH]; [right; intros []|]. destruct IH as [IH|IH]; [left; right; exact IH|].
    destruct Hy as [->|[->| ->]]; destruct z; try (left; left; reflexivity); right; intros [X|X]; try discriminate X; contradiction. }
  destruct (dec NaN ltac:(auto)) as [Db|Db], (dec PInf ltac:(unfold infinite; auto)) as [Du|Du], (dec NInf ltac:(unfold infinite; auto)) as [Dd|Dd];
    rewrite <- ?Ib, <- ?Iu, <- ?Id.
  1-4: rewrite A by assumption; intuition discriminate.
  1: rewrite B by assumption; intuition discriminate.
  1: rewrite C by assumption; intuition discriminate.
  1: rewrite D by assumption; intuition discriminate.
  assert (F : exists x, fold_left ext_add (terms l) (Fin 0) = Fin x).
  { assert (G : forall L0 a, ~ In NaN L0 -> ~ In PInf L0 -> ~ In NInf L0 -> exists x, fold_left ext_add L0 (Fin a) = Fin x).
    { induction L0 as [|y L0 IH]; intros a H1 H2 H3; [eexists; reflexivity|]. cbn [fold_left].
      destruct y as [y| | |]; [|destruct H2; left; reflexivity|destruct H3; left; reflexivity|destruct H1; left; reflexivity].
      cbn [ext_add]. apply IH; intros X; [apply H1|apply H2|apply H3]; right; exact X. }
    apply G; intros X; [apply Db|apply Du|apply Dd]; right; exact X. }
  destruct F as [x ->]. intuition discriminate.
Qed.
Print Assumptions C21_extended.

(** An infinite PSNR (identical images) with a positive weight makes the fused score infinite, with a negative one
    minus infinity, if the other scores and weights are finite; with 0 it is not a number. *)
Theorem C21_one_infinite : forall ms ms' m xs xs' ws ws' w, m_score m = SNum PInf ->
  map m_score ms = map (fun x => SNum (Fin x)) xs -> map m_score ms' = map (fun x => SNum (Fin x)) xs' ->
  length xs = length ws -> length xs' = length ws' ->
  fuse (ms ++ m :: ms') (map Fin ws ++ Fin w :: map Fin ws') =
  Ok (if Rlt_dec 0 w then PInf else if Rlt_dec w 0 then NInf else NaN).
Proof.
  intros ms ms' m xs xs' ws ws' w Em E E' L L'.
  destruct (C21_extended (ms ++ m :: ms') (map Fin xs ++ PInf :: map Fin xs') (map Fin ws ++ Fin w :: map Fin ws')) as (v & -> & Hn & Hp & Hm).
  { rewrite !map_app. cbn [map]. rewrite E, E', Em, !map_map. reflexivity. }
  { rewrite !app_length. cbn [length]. rewrite !map_length. lia. }
  assert (EL : combine (map Fin xs ++ PInf :: map Fin xs') (map Fin ws ++ Fin w :: map Fin ws')
             = combine (map Fin xs) (map Fin ws) ++ (PInf, Fin w) :: combine (map Fin xs') (map Fin ws')).
  { clear -L. revert ws L. induction xs as [|x xs IH]; intros [|y ws] L; try discriminate; [reflexivity|]. cbn [map app combine].
    f_equal. apply IH. injection L as L. exact L. }
  rewrite EL in *.
  assert (O : forall a b t, In t (combine (map Fin a) (map Fin b)) -> ~ bad t /\ ~ up t /\ ~ down t).
  { intros a b [y z] I. pose proof (in_combine_l _ _ _ _ I) as I1. pose proof (in_combine_r _ _ _ _ I) as I2.
    apply in_map_iff in I1, I2. destruct I1 as (y0 & <- & _), I2 as (z0 & <- & _). unfold bad, up, down, infinite; cbn [fst snd].
    repeat split; intros K; intuition discriminate. }
  assert (O' : forall t, In t (combine (map Fin xs) (map Fin ws) ++ (PInf, Fin w) :: combine (map Fin xs') (map Fin ws')) ->
    t = (PInf, Fin w) \/ ~ bad t /\ ~ up t /\ ~ down t).
  { intros t I. apply in_app_or in I. destruct I as [I|[I|I]]; [right; apply (O xs ws t I)|left; congruence|right; apply (O xs' ws' t I)]. }
  assert (I0 : In (PInf, Fin w) (combine (map Fin xs) (map Fin ws) ++ (PInf, Fin w) :: combine (map Fin xs') (map Fin ws'))) by (apply in_elt).
  assert (NB : w <> 0 -> ~ bad (PInf, Fin w)).
  { intros W. unfold bad, infinite; cbn [fst snd]. intros [K|[K|[[_ K]|[[K|K] _]]]]; try discriminate. injection K as K. contradiction. }
  assert (NN : ~ negative PInf) by (intros [K|(r & K & _)]; discriminate).
  f_equal. destruct (Rlt_dec 0 w) as [W|W].
  - apply Hp. split.
    + exists (PInf, Fin w). split; [exact I0|]. split; [left; left; reflexivity|]. left. split; [left; reflexivity|]. right. exists w. auto.
    + intros t It. destruct (O' t It) as [->|(K1 & _ & K2)]; [|auto]. split; [apply NB; lra|]. intros [_ [[_ K]|[K _]]]; [|apply NN, K].
      cbn [snd] in K. destruct K as [K|(r & K & Hr)]; [discriminate|]. injection K as <-. lra.
  - destruct (Rlt_dec w 0) as [W'|W'].
    + apply Hm. split.
      * exists (PInf, Fin w). split; [exact I0|]. split; [left; left; reflexivity|]. left. split; [left; reflexivity|]. right. exists w. auto.
      * intros t It. destruct (O' t It) as [->|(K1 & K2 & _)]; [|auto]. split; [apply NB; lra|]. intros [_ [[_ K]|[K _]]]; [|apply NN, K].
        cbn [snd] in K. destruct K as [K|(r & K & Hr)]; [discriminate|]. injection K as <-. lra.
    + apply Hn. left. exists (PInf, Fin w). split; [exact I0|]. right; right; left. cbn [fst snd]. split; [left; reflexivity|]. f_equal. lra.
Qed.
Print Assumptions C21_one_infinite.

Example C21_extended_ex : fuse [Metric CPSNR [] (SNum PInf) None; Metric CSSIM [] (SNum (Fin 1)) None] [Fin (1 / 2); Fin (1 / 2)] = Ok PInf.
Proof.
  pose proof (C21_one_infinite [] [Metric CSSIM [] (SNum (Fin 1)) None] (Metric CPSNR [] (SNum PInf) None) [] [1] [] [1 / 2] (1 / 2) eq_refl eq_refl eq_refl eq_refl eq_refl) as H.
  cbn [app map] in H. rewrite H. destruct (Rlt_dec 0 (1 / 2)); [reflexivity|lra].
Qed.
