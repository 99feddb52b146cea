(** Lemmas about the widgets of set_centers. *)
From Coq Require Import Reals Psatz.
From Verif Require Import Base NdArray LoadModel LoadProofs NormModel PairModel MetricModel RegionModel NrModel VisModel VisProps InteractModel.
Open Scope Z_scope.

(** ** Sliders *)

(** The limits of a coordinate slider fit the radius [r] and its value lies between them. *)
Definition tuned_axis (r : Z) (a : axis) : Prop :=
  s_min (snd a) = r + 1 /\ s_max (snd a) = Z.of_nat (fst a) - (r + 1) /\ s_min (snd a) <= s_val (snd a) <= s_max (snd a).
Definition tuned (rs : slider) (rmax : Z) (axes : list axis) : Prop :=
  s_min rs = 1 /\ s_max rs = rmax /\ 1 <= s_val rs <= rmax /\ Forall (tuned_axis (s_val rs)) axes.

Lemma clamp_range lo hi v : lo <= hi -> lo <= clamp lo hi v <= hi.
Proof. unfold clamp. lia. Qed.
Lemma clamp_id lo hi v : lo <= v <= hi -> clamp lo hi v = v.
Proof. unfold clamp. lia. Qed.

Lemma set_value_tuned rs rmax v : s_min rs = 1 -> s_max rs = rmax -> 1 <= s_val rs <= rmax -> 1 <= s_val (set_value rs v) <= rmax.
Proof. intros H1 H2 H3. unfold set_value, clamp. cbn. lia. Qed.

Section update.
Context {G : Type} (draw : list axis -> G -> G).
Lemma update_fails r : forall todo done g, Exists (fun a => Z.of_nat (fst a) < 2 * r + 2) todo ->
  snd (update_axes draw r done todo g) = Err TraitError.
Proof.
  induction todo as [|[n s] todo IH]; intros done g X; [inversion X|].
  cbn [update_axes]. unfold set_min at 1. destruct (s_max s <? r + 1); [reflexivity|].
  unfold set_max at 1. cbn [s_min s_max s_val]. destruct (Z.ltb_spec (Z.of_nat n - (r + 1)) (r + 1)) as [|L]; [reflexivity|].
  apply IH. inversion X; subst; [cbn [fst] in *; lia|assumption].
Qed.
Hypothesis draw_again : forall a b g, draw a (draw b g) = draw a g.
Hypothesis draw_shown : forall a b g, shown a = shown b -> draw a g = draw b g.

(** The sliders after the update *)
Definition refit (r : Z) (a : axis) : axis :=
  let n := Z.of_nat (fst a) in (fst a, Slider (r + 1) (n - (r + 1)) (clamp (r + 1) (n - (r + 1)) (s_val (snd a)))).

Lemma refit_tuned r a : 2 * r + 2 <= Z.of_nat (fst a) -> tuned_axis r (refit r a).
Proof. intros H. unfold tuned_axis, refit, clamp. cbn. lia. Qed.

Lemma refit_same r a : tuned_axis r a -> refit r a = a.
Proof.
  destruct a as [n [lo hi v]]. unfold tuned_axis, refit. cbn. intros (-> & -> & H). rewrite clamp_id by lia. reflexivity.
Qed.

Lemma shown_app a b : shown (a ++ b) = shown a ++ shown b.
Proof. apply map_app. Qed.

Lemma shown_eq_val done n s s' todo : s_val s = s_val s' -> shown (done ++ (n, s) :: todo) = shown (done ++ (n, s') :: todo).
Proof. intros H. rewrite !shown_app. cbn. rewrite H. reflexivity. Qed.

Lemma announce_eq s s' axes g : announce draw s s' axes g = if s_val s' =? s_val s then g else draw axes g.
Proof. reflexivity. Qed.

Lemma update_ok r r0 : forall todo done g,
  Forall (tuned_axis r0) todo -> Forall (fun a => 2 * r + 2 <= Z.of_nat (fst a)) todo ->
  let l := done ++ map (refit r) todo in
  update_axes draw r done todo g =
    (l, (if list_eq_dec Z.eq_dec (map (fun a => s_val (snd a)) (map (refit r) todo)) (map (fun a => s_val (snd a)) todo)
         then g else draw l g), Ok tt).
Proof.
  induction todo as [|[n s] todo IH]; intros done g T F; cbv zeta.
  - cbn. rewrite app_nil_r. reflexivity.
  - inversion T as [|? ? Ta T']; subst. inversion F as [|? ? Fa F']; subst. cbn [fst] in Fa.
    destruct Ta as (E1 & E2 & E3). cbn [fst snd] in E1, E2, E3.
    cbn [update_axes]. unfold set_min at 1. destruct (Z.ltb_spec (s_max s) (r + 1)) as [|L1]; [lia|].
    unfold set_max at 1. cbn [s_min s_max s_val]. destruct (Z.ltb_spec (Z.of_nat n - (r + 1)) (r + 1)) as [|L2]; [lia|].
    set (v1 := s_val (if s_val s <? r + 1 then set_value s (r + 1) else s)).
    set (s1 := Slider (r + 1) (s_max s) v1).
    set (s2 := Slider (r + 1) (Z.of_nat n - (r + 1)) (s_val (if Z.of_nat n - (r + 1) <? v1 then set_value s1 (Z.of_nat n - (r + 1)) else s1))).
    assert (V1 : v1 = Z.max (s_val s) (r + 1)).
    { subst v1. unfold set_value, clamp. destruct (Z.ltb_spec (s_val s) (r + 1)); cbn; lia. }
    assert (V2 : s2 = snd (refit r (n, s))).
    { subst s2 s1. unfold refit. cbn [fst snd]. f_equal. unfold set_value, clamp. cbn [s_min s_max s_val].
      destruct (Z.ltb_spec (Z.of_nat n - (r + 1)) v1); cbn [s_val]; lia. }
    rewrite IH by assumption. cbv zeta.
    assert (A1 : (done ++ [(n, s2)]) ++ map (refit r) todo = done ++ map (refit r) ((n, s) :: todo)).
    { rewrite <- app_assoc. cbn [map app]. rewrite V2. reflexivity. }
    rewrite A1. f_equal. f_equal. cbn [map]. change (refit r (n, s)) with (n, snd (refit r (n, s))). rewrite <- V2. cbn [snd].
    set (L := map (fun a => s_val (snd a)) (map (refit r) todo)). set (M := map (fun a => s_val (snd a)) todo).
    destruct (list_eq_dec Z.eq_dec L M) as [EL|NL].
    + assert (S : forall x, shown (done ++ (n, x) :: todo) = shown (done ++ (n, x) :: map (refit r) todo)).
      { intros x. rewrite !shown_app. cbn [shown map]. f_equal. f_equal.
        unfold L, M in EL. unfold shown. apply (f_equal (map CInt)) in EL. rewrite !map_map in EL. rewrite !map_map. symmetry. exact EL. }
      rewrite !announce_eq. destruct (Z.eqb_spec (s_val s2) (s_val s1)) as [E|N].
      * rewrite (draw_shown _ (done ++ (n, s2) :: map (refit r) todo)) by (rewrite <- S; apply shown_eq_val; rewrite E; reflexivity).
        destruct (Z.eqb_spec (s_val s1) (s_val s)) as [E'|N'].
        -- destruct (list_eq_dec Z.eq_dec (s_val s2 :: L) (s_val s :: M)) as [_|X]; [reflexivity|]. exfalso. apply X. congruence.
        -- destruct (list_eq_dec Z.eq_dec (s_val s2 :: L) (s_val s :: M)) as [X|_]; [exfalso; injection X; congruence|reflexivity].
      * assert (NV : s_val s2 <> s_val s).
        { intros X. apply N. subst s2 s1. cbn [s_val] in *. unfold set_value, clamp in *. cbn [s_min s_max s_val] in *.
          destruct (Z.ltb_spec (Z.of_nat n - (r + 1)) v1); cbn [s_val] in *; lia. }
        destruct (list_eq_dec Z.eq_dec (s_val s2 :: L) (s_val s :: M)) as [X|_]; [exfalso; injection X; congruence|].
        rewrite (draw_shown _ (done ++ (n, s2) :: map (refit r) todo)) by apply S.
        destruct (s_val s1 =? s_val s); [reflexivity|apply draw_again].
    + destruct (list_eq_dec Z.eq_dec (s_val s2 :: L) (s_val s :: M)) as [X|_]; [exfalso; injection X; congruence|].
      rewrite !announce_eq. destruct (s_val s2 =? s_val s1), (s_val s1 =? s_val s); rewrite ?draw_again; reflexivity.
Qed.

End update.

Lemma tuned_update rs rmax v axes : tuned rs rmax axes -> Forall (fun a => 2 * s_val (set_value rs v) + 2 <= Z.of_nat (fst a)) axes ->
  tuned (set_value rs v) rmax (map (refit (s_val (set_value rs v))) axes).
Proof.
  intros (H1 & H2 & H3 & H4) F. unfold tuned. split; [exact H1|]. split; [exact H2|].
  split; [apply set_value_tuned; assumption|]. apply Forall_map. rewrite Forall_forall in F |- *. intros a Ha. apply refit_tuned. apply F, Ha.
Qed.

Lemma Forall_upd {A} (P : A -> Prop) : forall l k x, Forall P l -> P x -> Forall P (upd l k x).
Proof.
  induction l as [|y l IH]; intros k x F Px; [constructor|]. inversion F; subst. destruct k; cbn; constructor; auto.
Qed.
Lemma map_upd {A B} (f : A -> B) : forall l k x, map f (upd l k x) = upd (map f l) k (f x).
Proof. induction l as [|y l IH]; intros k x; [reflexivity|]. destruct k; cbn; [reflexivity|f_equal; apply IH]. Qed.
Lemma upd_same {A} : forall (l : list A) k x, nth_error l k = Some x -> upd l k x = l.
Proof. induction l as [|y l IH]; intros [|k] x H; cbn in *; try discriminate; [congruence|f_equal; auto]. Qed.
Lemma nth_error_upd_eq {A} : forall (l : list A) k x, (k < length l)%nat -> nth_error (upd l k x) k = Some x.
Proof. induction l as [|y l IH]; intros [|k] x H; cbn in *; try lia; [reflexivity|apply IH; lia]. Qed.
Lemma nth_error_upd_neq {A} : forall (l : list A) k j x, k <> j -> nth_error (upd l k x) j = nth_error l j.
Proof. induction l as [|y l IH]; intros [|k] [|j] x H; cbn in *; try congruence; apply IH; lia. Qed.

Lemma move_axis_some axes k v l : move_axis axes k v = Some l ->
  exists n s, nth_error axes k = Some (n, s) /\ l = upd axes k (n, set_value s v) /\ s_val (set_value s v) <> s_val s.
Proof.
  unfold move_axis. destruct (nth_error axes k) as [[n s]|]; [|discriminate].
  destruct (Z.eqb_spec (s_val (set_value s v)) (s_val s)); [discriminate|]. intros H. exists n, s. repeat split; congruence.
Qed.

Lemma tuned_move rs rmax axes k v l : tuned rs rmax axes -> move_axis axes k v = Some l -> tuned rs rmax l /\ map fst l = map fst axes.
Proof.
  intros (H1 & H2 & H3 & H4) M. destruct (move_axis_some _ _ _ _ M) as (n & s & E & -> & _). split.
  - split; [exact H1|]. split; [exact H2|]. split; [exact H3|]. apply Forall_upd; [exact H4|].
    rewrite Forall_forall in H4. destruct (H4 _ (nth_error_In _ _ E)) as (A & B & C). cbn [fst snd] in *.
    unfold tuned_axis, set_value. cbn [fst snd s_min s_max s_val]. split; [exact A|]. split; [exact B|]. apply clamp_range. lia.
  - rewrite map_upd. apply upd_same. apply (map_nth_error fst _ _ E).
Qed.

(** ** The smallest axis *)

Lemma fold_min_spec l : forall n, (fold_left Nat.min l n <= n)%nat /\ Forall (fun m => (fold_left Nat.min l n <= m)%nat) l /\ (fold_left Nat.min l n = n \/ In (fold_left Nat.min l n) l).
Proof.
  induction l as [|m l IH]; intros n; cbn [fold_left]; [repeat split; auto|].
  destruct (IH (Nat.min n m)) as (A & B & C). split; [lia|]. split.
  - constructor; [lia|exact B].
  - destruct C as [C|C]; [|right; right; exact C]. destruct (Nat.min_spec n m) as [[_ E]|[_ E]]; [left; congruence|right; left; congruence].
Qed.

Lemma least_spec shape : shape <> [] -> In (least shape) shape /\ Forall (fun m => (least shape <= m)%nat) shape.
Proof.
  destruct shape as [|n l]; [congruence|]. intros _. cbn [least]. destruct (fold_min_spec l n) as (A & B & C). split.
  - destruct C as [C|C]; [left; symmetry; exact C|right; exact C].
  - constructor; assumption.
Qed.

Lemma least_fits shape r : shape <> [] -> (Forall (fun n => 2 * r + 2 <= Z.of_nat n) shape <-> 2 * r + 2 <= Z.of_nat (least shape)).
Proof.
  intros H. destruct (least_spec shape H) as [I F]. split.
  - intros G. rewrite Forall_forall in G. apply G, I.
  - intros G. rewrite Forall_forall in F |- *. intros n Hn. specialize (F n Hn). lia.
Qed.

Lemma half_fits (m : nat) (r : Z) : 2 * r + 2 <= Z.of_nat m <-> r < Z.of_nat (m / 2)%nat.
Proof. pose proof (Nat.div_mod m 2 ltac:(lia)). pose proof (Nat.mod_upper_bound m 2 ltac:(lia)). lia. Qed.

(** ** Drawing *)

Lemma shown_length a b : shown a = shown b -> length a = length b.
Proof. intros H. apply (f_equal (@length _)) in H. unfold shown in H. rewrite !map_length in H. exact H. Qed.

Lemma cnr_draw_shown rs a b g : shown a = shown b -> cnr_draw rs a g = cnr_draw rs b g.
Proof.
  intros H. unfold cnr_draw.
  assert (S : shown (signal_axes a) = shown (signal_axes b) /\ shown (background_axes a) = shown (background_axes b)).
  { pose proof (shown_length _ _ H) as L.
    do 7 (destruct a as [|? a]; [destruct b as [|? b]; [unfold shown; cbn; split; congruence|cbn in L; lia]
          |destruct b as [|? b]; [cbn in L; lia|]; cbn in H; try (injection H as ?H H)
          || idtac]).
    split; reflexivity. }
  destruct S as [-> ->]. reflexivity.
Qed.
Lemma cnr_draw_again rs a b g : cnr_draw rs a (cnr_draw rs b g) = cnr_draw rs a g.
Proof. reflexivity. Qed.
Lemma snr_draw_shown rs k a b g : shown a = shown b -> snr_draw rs k a g = snr_draw rs k b g.
Proof. intros H. unfold snr_draw. rewrite H. reflexivity. Qed.
Lemma snr_draw_again rs k a b g : snr_draw rs k a (snr_draw rs k b g) = snr_draw rs k a g.
Proof. reflexivity. Qed.
