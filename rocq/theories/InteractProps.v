(** The widgets of set_centers: properties C102-C107. *)
From Coq Require Import Reals Psatz.
From Verif Require Import Base NdArray LoadModel LoadProofs NormModel PairModel MetricModel RegionModel RegionProofs RegionFindProofs NrModel VisModel VisProps InteractModel InteractProofs.
Open Scope Z_scope.

(** ** Specification *)

(** The cube around [c], lower limits included and upper limits excluded, lies in the image. *)
Definition cube_inside (shape : list nat) (c : list cval) (r : Z) : Prop :=
  Forall2 (fun n x => exists z, x = CInt z /\ 0 <= z - r /\ z + r <= Z.of_nat n) shape c.

Notation cnr_book := (@book cnr_ui stored cnr_glob).
Notation cnr_args := (list nat * cnr_kw)%type.
Notation cnr_act := (@act cnr_args cnr_event).
Definition cnr_run : cnr_book -> list cnr_act -> cnr_book * list (res unit) :=
  run (fun a => cnr_open (fst a) (snd a)) cnr_step.

Notation snr_args := (arr R * snr_kw)%type.
Notation snr_book := (@book snr_ui snr_params snr_glob).
Notation snr_act := (@act snr_args snr_event).
Definition snr_run nobg : snr_book -> list snr_act -> snr_book * list (res unit) :=
  run (fun a => snr_open (fst a) (snd a)) (snr_step nobg).

Definition fine (r : res unit) : Prop := r = Ok tt.

(** ** CNR *)

(** A user interface for an image of the given shape, all limits as they should be *)
Definition cnr_order (shape : list nat) : list nat :=
  match shape with [a; b] => [a; b; a; b] | [a; b; c] => [a; b; a; b; c; c] | _ => [] end.
Definition cnr_good (shape : list nat) (ui : cnr_ui) : Prop :=
  (length shape = 2%nat \/ length shape = 3%nat) /\ map fst (cu_axes ui) = cnr_order shape /\
  tuned (cu_radius ui) (Z.of_nat (least shape / 2)%nat) (cu_axes ui).

Lemma order_forall (P : nat -> Prop) shape : length shape = 2%nat \/ length shape = 3%nat -> (Forall P (cnr_order shape) <-> Forall P shape).
Proof.
  intros [L|L]; destruct shape as [|a [|b [|c [|d l]]]]; try discriminate; cbn; rewrite !Forall_forall; cbn; firstorder (subst; auto).
Qed.

Lemma axes_fit (P : nat -> Prop) shape (axes : list axis) : map fst axes = shape -> (Forall (fun a : axis => P (fst a)) axes <-> Forall P shape).
Proof. intros <-. rewrite Forall_map. reflexivity. Qed.

Lemma cnr_axes_fit shape ui r : cnr_good shape ui ->
  (Forall (fun a : axis => 2 * r + 2 <= Z.of_nat (fst a)) (cu_axes ui) <-> r < Z.of_nat (least shape / 2)%nat).
Proof.
  intros (L & M & _). rewrite (axes_fit (fun n => 2 * r + 2 <= Z.of_nat n) _ _ M), order_forall by exact L.
  rewrite least_fits by (intros ->; destruct L; discriminate). apply half_fits.
Qed.

Lemma not_forall_exists {A} (P Q : A -> Prop) l : (forall x, P x \/ Q x) -> ~ Forall P l -> Exists Q l.
Proof.
  intros D. induction l as [|x l IH]; intros N; [exfalso; apply N; constructor|].
  destruct (D x) as [Px|Qx]; [|left; exact Qx]. right. apply IH. intros F. apply N. constructor; assumption.
Qed.

Lemma cnr_radius_ok shape ui p g v : cnr_good shape ui -> s_val (set_value (cu_radius ui) v) <> s_val (cu_radius ui) ->
  let rs := set_value (cu_radius ui) v in
  (s_val rs < Z.of_nat (least shape / 2)%nat ->
   let l := map (refit (s_val rs)) (cu_axes ui) in
   cnr_step ui p g (CRadius v) = (CnrUi rs l, p, cnr_draw rs l g, Ok tt)) /\
  (Z.of_nat (least shape / 2)%nat <= s_val rs -> snd (cnr_step ui p g (CRadius v)) = Err TraitError).
Proof.
  intros GD N rs. subst rs. cbn [cnr_step]. rewrite (proj2 (Z.eqb_neq _ _) N). pose proof (cnr_axes_fit shape ui (s_val (set_value (cu_radius ui) v)) GD) as FI. split.
  - intros L. destruct GD as (_ & _ & _ & _ & _ & T).
    rewrite (update_ok (cnr_draw (set_value (cu_radius ui) v)) (cnr_draw_again _) (cnr_draw_shown _) _ _ _ [] g T (proj2 FI L)).
    cbn [app]. reflexivity.
  - intros L. assert (X : Exists (fun a : axis => Z.of_nat (fst a) < 2 * s_val (set_value (cu_radius ui) v) + 2) (cu_axes ui)).
    { apply (not_forall_exists (fun a : axis => 2 * s_val (set_value (cu_radius ui) v) + 2 <= Z.of_nat (fst a))); [intros; lia|]. rewrite FI. lia. }
    apply (update_fails (cnr_draw (set_value (cu_radius ui) v)) _ _ [] g) in X.
    destruct (update_axes _ _ _ _ _) as [[l g'] [u|e]]; cbn in X |- *; congruence.
Qed.

Lemma cnr_step_good shape ui p g e : cnr_good shape ui -> snd (cnr_step ui p g e) = Ok tt ->
  cnr_good shape (fst (fst (fst (cnr_step ui p g e)))) /\
  (g = cnr_draw (cu_radius ui) (cu_axes ui) g -> forall g0, snd (fst (cnr_step ui p g e)) =
    cnr_draw (cu_radius (fst (fst (fst (cnr_step ui p g e))))) (cu_axes (fst (fst (fst (cnr_step ui p g e))))) g0).
Proof.
  intros GD. destruct e as [k v|v|].
  - intros _. cbn [cnr_step]. destruct (move_axis (cu_axes ui) k v) as [l|] eqn:M; cbn [fst snd]; [|split; [exact GD|intros H g0; rewrite H; reflexivity]].
    split; [|reflexivity]. destruct GD as (L & F & T). destruct (tuned_move _ _ _ _ _ _ T M) as [T' F'].
    split; [exact L|]. cbn [cu_axes cu_radius]. split; [congruence|exact T'].
  - destruct (Z.eq_dec (s_val (set_value (cu_radius ui) v)) (s_val (cu_radius ui))) as [E|N].
    + intros _. cbn [cnr_step]. rewrite (proj2 (Z.eqb_eq _ _) E). cbn. split; [exact GD|intros H g0; rewrite H; reflexivity].
    + destruct (cnr_radius_ok shape ui p g v GD N) as [A B].
      destruct (Z_lt_le_dec (s_val (set_value (cu_radius ui) v)) (Z.of_nat (least shape / 2)%nat)) as [X|X]; [|rewrite (B X); discriminate].
      rewrite (A X). intros _. cbn [fst snd cu_radius cu_axes]. split; [|reflexivity].
      pose proof (proj2 (cnr_axes_fit shape ui _ GD) X) as FI. destruct GD as (L & F & T). split; [exact L|]. cbn [cu_radius cu_axes]. split.
      * rewrite map_map. rewrite <- F. apply map_ext. reflexivity.
      * apply tuned_update; assumption.
  - intros _. cbn. split; [exact GD|intros H g0; rewrite H; reflexivity].
Qed.

Lemma make_axis_ok n r v a : make_axis n r v = Ok a -> fst a = n /\ tuned_axis r a /\ 2 * r + 2 <= Z.of_nat n.
Proof.
  unfold make_axis, make_slider. destruct (Z.ltb_spec (Z.of_nat n - (r + 1)) (r + 1)) as [|L]; [discriminate|].
  cbn [bind]. intros H. injection H as <-. split; [reflexivity|]. split; [|lia]. split; [reflexivity|]. split; [reflexivity|].
  cbn [snd s_min s_max s_val]. apply clamp_range. lia.
Qed.

Lemma cnr_open_good shape kw p g ui p' g' : cnr_open shape kw p g = (Ok ui, p', g') -> cnr_good shape ui /\ forall g0, g' = cnr_draw (cu_radius ui) (cu_axes ui) g0.
Proof.
  unfold cnr_open. destruct (cnr_start _ _ _ _ _) as [st|]; [|discriminate].
  destruct (bind _ _) as [u|] eqn:E; [|discriminate]. intros H. assert (u = ui) by congruence. subst u.
  assert (Hg : g' = cnr_draw (cu_radius ui) (cu_axes ui) (cnr_first shape p kw)) by congruence. clear H.
  split; [|intros g0; rewrite Hg; reflexivity].
  apply bind_ok in E as (sl & _ & E). apply bind_ok in E as (bl & _ & E). unfold cnr_widgets in E.
  apply bind_ok in E as (r & _ & E). apply bind_ok in E as (rs & E1 & E).
  assert (R : s_min rs = 1 /\ s_max rs = Z.of_nat (least shape / 2)%nat /\ 1 <= s_val rs <= Z.of_nat (least shape / 2)%nat).
  { unfold radius_slider, make_slider in E1. destruct (Z.ltb_spec (Z.of_nat (least shape / 2)%nat) 1); [discriminate|].
    injection E1 as <-. cbn [s_min s_max s_val]. split; [reflexivity|]. split; [reflexivity|]. apply clamp_range. lia. }
  assert (AX : forall n l k a, (let* v := coord l k in make_axis n (s_val rs) v) = Ok a -> fst a = n /\ tuned_axis (s_val rs) a).
  { intros n l k a Ha. apply bind_ok in Ha as (v & _ & Ha). apply make_axis_ok in Ha. tauto. }
  destruct shape as [|n0 [|n1 [|n2 [|n3 rest]]]]; try discriminate.
  - apply bind_ok in E as (a1 & H1 & E). apply bind_ok in E as (a2 & H2 & E). apply bind_ok in E as (a3 & H3 & E). apply bind_ok in E as (a4 & H4 & E).
    injection E as <-. apply AX in H1, H2, H3, H4. split; [left; reflexivity|]. cbn [cu_axes cu_radius map cnr_order]. split.
    + destruct H1 as [-> _], H2 as [-> _], H3 as [-> _], H4 as [-> _]. reflexivity.
    + split; [apply R|]. split; [apply R|]. split; [apply R|]. repeat (apply Forall_cons; [tauto|]); apply Forall_nil.
  - apply bind_ok in E as (a1 & H1 & E). apply bind_ok in E as (a2 & H2 & E). apply bind_ok in E as (a3 & H3 & E). apply bind_ok in E as (a4 & H4 & E).
    apply bind_ok in E as (a5 & H5 & E). apply bind_ok in E as (a6 & H6 & E).
    injection E as <-. apply AX in H1, H2, H3, H4, H5, H6. split; [right; reflexivity|]. cbn [cu_axes cu_radius map cnr_order]. split.
    + destruct H1 as [-> _], H2 as [-> _], H3 as [-> _], H4 as [-> _], H5 as [-> _], H6 as [-> _]. reflexivity.
    + split; [apply R|]. split; [apply R|]. split; [apply R|]. repeat (apply Forall_cons; [tauto|]); apply Forall_nil.
Qed.

(** *** One call of set_centers and then events in its user interface, none of them failing *)

Definition only (o : nat) (x : cnr_args) (evs : list cnr_event) : list cnr_act := Open o x :: map (On 0) evs.

Lemma run_app {U P G A E} (op : A -> P -> G -> res U * P * G) (st : U -> P -> G -> E -> U * P * G * res unit) l : forall b l',
  run op st b (l ++ l') = (fst (run op st (fst (run op st b l)) l'), snd (run op st b l) ++ snd (run op st (fst (run op st b l)) l')).
Proof.
  induction l as [|a l IH]; intros b l'; cbn [run app fst snd]; [destruct (run op st b l'); reflexivity|].
  destruct (act_step op st b a) as [b' r]. rewrite IH. destruct (run op st b' l) as [b'' rs]. cbn [fst snd].
  destruct (run op st b'' l') as [b3 rs']. reflexivity.
Qed.

Lemma cnr_events_good shape o : forall evs b ui,
  b_open b = [(o, ui)] -> cnr_good shape ui -> (forall g0, b_glob b = cnr_draw (cu_radius ui) (cu_axes ui) g0) ->
  Forall fine (snd (cnr_run b (map (On 0) evs))) ->
  exists ui', b_open (fst (cnr_run b (map (On 0) evs))) = [(o, ui')] /\ cnr_good shape ui' /\
    forall g0, b_glob (fst (cnr_run b (map (On 0) evs))) = cnr_draw (cu_radius ui') (cu_axes ui') g0.
Proof.
  induction evs as [|e evs IH]; intros b ui HO GD HG F; [exists ui; auto|].
  cbn [map] in *. unfold cnr_run in *. cbn [run] in *. unfold act_step in *. rewrite HO in *. cbn [nth_error upd] in *.
  pose proof (cnr_step_good shape ui (b_objects b o) (b_glob b) e GD) as SG.
  destruct (cnr_step ui (b_objects b o) (b_glob b) e) as [[[ui1 p1] g1] r1] eqn:ES. cbn [fst snd] in SG.
  set (b1 := Book (put (b_objects b) o p1) [(o, ui1)] g1) in *.
  destruct (run _ _ b1 (map (On 0) evs)) as [b2 rs] eqn:ER. cbn [fst snd] in F |- *.
  inversion F as [|? ? F1 F2]; subst. destruct (SG F1) as [GD1 HG1].
  specialize (IH b1 ui1 eq_refl GD1). rewrite ER in IH. cbn [fst snd] in IH. apply IH; [|exact F2].
  intros g0. apply HG1. apply HG.
Qed.

Lemma cnr_only_good b o shape kw evs : b_open b = [] ->
  Forall fine (snd (cnr_run b (only o (shape, kw) evs))) ->
  exists ui, b_open (fst (cnr_run b (only o (shape, kw) evs))) = [(o, ui)] /\ cnr_good shape ui /\
    forall g0, b_glob (fst (cnr_run b (only o (shape, kw) evs))) = cnr_draw (cu_radius ui) (cu_axes ui) g0.
Proof.
  intros HO F. unfold only, cnr_run in *. cbn [run act_step fst snd] in *.
  destruct (cnr_open shape kw (b_objects b o) (b_glob b)) as [[[ui|e] p1] g1] eqn:EO.
  - rewrite HO in *. cbn [app] in *. set (b1 := Book (put (b_objects b) o p1) [(o, ui)] g1) in *.
    pose proof (cnr_open_good _ _ _ _ _ _ _ EO) as [GD HG].
    pose proof (cnr_events_good shape o evs b1 ui eq_refl GD HG) as H. unfold cnr_run in H.
    destruct (run _ _ b1 (map (On 0) evs)) as [b2 rs]. cbn [fst snd] in *. inversion F; subst. apply H. assumption.
  - destruct (run _ _ _ _) as [b2 rs]. cbn [snd] in F. inversion F; subst. discriminate.
Qed.

Lemma good_inside shape ui : cnr_good shape ui ->
  cube_inside shape (shown (signal_axes (cu_axes ui))) (s_val (cu_radius ui)) /\
  cube_inside shape (shown (background_axes (cu_axes ui))) (s_val (cu_radius ui)).
Proof.
  intros (L & M & _ & _ & R & T).
  assert (A : forall a : axis, tuned_axis (s_val (cu_radius ui)) a -> exists z, CInt (s_val (snd a)) = CInt z /\ 0 <= z - s_val (cu_radius ui) /\ z + s_val (cu_radius ui) <= Z.of_nat (fst a)).
  { intros a (E1 & E2 & E3). exists (s_val (snd a)). split; [reflexivity|]. lia. }
  destruct L as [L|L]; destruct shape as [|n0 [|n1 [|n2 [|n3 rest]]]]; try discriminate; cbn [cnr_order] in M.
  - destruct (cu_axes ui) as [|a1 [|a2 [|a3 [|a4 [|]]]]]; try discriminate. injection M as <- <- ? ?.
    repeat match goal with H : Forall _ (_ :: _) |- _ => inversion H; clear H; subst end. cbn. unfold cube_inside.
    split; repeat (apply Forall2_cons; [|]); try apply Forall2_nil; try (apply A; assumption);
    match goal with H : fst ?a = fst ?b |- exists z, CInt (s_val (snd ?a)) = _ /\ _ => rewrite <- H; apply A; assumption end.
  - destruct (cu_axes ui) as [|a1 [|a2 [|a3 [|a4 [|a5 [|a6 [|]]]]]]]; try discriminate. injection M as <- <- ? ? <- ?.
    repeat match goal with H : Forall _ (_ :: _) |- _ => inversion H; clear H; subst end. cbn. unfold cube_inside.
    split; repeat (apply Forall2_cons; [|]); try apply Forall2_nil; try (apply A; assumption);
    match goal with H : fst ?a = fst ?b |- exists z, CInt (s_val (snd ?a)) = _ /\ _ => rewrite <- H; apply A; assumption end.
Qed.

(** C102: as long as nothing failed, "Save" stores the centres and the radius the sliders show, and
    both regions lie inside the image. *)
Theorem C102_saved : forall b o shape kw evs, b_open b = [] ->
  Forall fine (snd (cnr_run b (only o (shape, kw) evs))) ->
  let b' := fst (cnr_run b (only o (shape, kw) (evs ++ [CSave]))) in
  exists ui, b_open b' = [(o, ui)] /\
    let sc := shown (signal_axes (cu_axes ui)) in
    let bc := shown (background_axes (cu_axes ui)) in
    let r := s_val (cu_radius ui) in
    st_signal (b_objects b' o) = Some (Some sc) /\ st_background (b_objects b' o) = Some (Some bc) /\
    st_radius (b_objects b' o) = Some (Some (RInt r)) /\
    0 < r /\ cube_inside shape sc r /\ cube_inside shape bc r.
Proof.
  intros b o shape kw evs HO F. cbv zeta. destruct (cnr_only_good b o shape kw evs HO F) as (ui & H1 & GD & HG). exists ui.
  assert (EQ : fst (cnr_run b (only o (shape, kw) (evs ++ [CSave]))) =
    Book (put (b_objects (fst (cnr_run b (only o (shape, kw) evs)))) o
            (cnr_save (b_glob (fst (cnr_run b (only o (shape, kw) evs)))) (b_objects (fst (cnr_run b (only o (shape, kw) evs))) o)))
         [(o, ui)] (b_glob (fst (cnr_run b (only o (shape, kw) evs))))).
  { unfold only, cnr_run in *. rewrite map_app. rewrite app_comm_cons. rewrite run_app. cbn [fst map].
    set (b1 := fst (run _ _ b _)) in *. cbn [run act_step]. rewrite H1. cbn [nth_error cnr_step upd fst]. reflexivity. }
  rewrite EQ. cbn [b_open b_objects]. split; [reflexivity|]. unfold put. rewrite Nat.eqb_refl.
  rewrite (HG (CnrGlob None None ROther)). cbn [cnr_save cnr_draw st_signal st_background st_radius cg_signal cg_background cg_radius].
  destruct (good_inside shape ui GD) as [I1 I2]. split; [reflexivity|]. split; [reflexivity|]. split; [reflexivity|]. split; [|split; assumption].
  destruct GD as (_ & _ & _ & _ & R & _). lia.
Qed.
Print Assumptions C102_saved.

(** Which slider stands for which coordinate: the first four are background x, y, signal x, y, then come background z
    and signal z. *)
Definition slider_of (signal : bool) (d : nat) : nat :=
  nth d (if signal then [2; 3; 5] else [0; 1; 4])%nat 0%nat.
Definition centre_of (signal : bool) (p : stored) : option center := if signal then st_signal p else st_background p.

Lemma cnr_save_eq b o shape kw evs ui : b_open (fst (cnr_run b (only o (shape, kw) evs))) = [(o, ui)] ->
  fst (cnr_run b (only o (shape, kw) (evs ++ [CSave]))) =
    Book (put (b_objects (fst (cnr_run b (only o (shape, kw) evs)))) o
            (cnr_save (b_glob (fst (cnr_run b (only o (shape, kw) evs)))) (b_objects (fst (cnr_run b (only o (shape, kw) evs))) o)))
         [(o, ui)] (b_glob (fst (cnr_run b (only o (shape, kw) evs)))).
Proof.
  intros H1. unfold only, cnr_run in *. rewrite map_app. rewrite app_comm_cons. rewrite run_app. cbn [fst map].
  set (b1 := fst (run _ _ b _)) in *. cbn [run act_step]. rewrite H1. cbn [nth_error cnr_step upd fst]. reflexivity.
Qed.

Lemma upd_same {A} (l : list A) : forall k x, nth_error l k = Some x -> upd l k x = l.
Proof. induction l as [|y l IH]; intros [|k] x H; cbn in *; try discriminate; [congruence|]. rewrite (IH _ _ H). reflexivity. Qed.

Lemma moved_shown shape ui (signal : bool) d v n : cnr_good shape ui -> nth_error shape d = Some n ->
  let r := s_val (cu_radius ui) in
  let l := match move_axis (cu_axes ui) (slider_of signal d) v with Some l => l | None => cu_axes ui end in
  shown (if signal then signal_axes l else background_axes l) =
    upd (shown (if signal then signal_axes (cu_axes ui) else background_axes (cu_axes ui))) d
        (CInt (Z.min (Z.max v (r + 1)) (Z.of_nat n - (r + 1)))) /\
  shown (if signal then background_axes l else signal_axes l) =
    shown (if signal then background_axes (cu_axes ui) else signal_axes (cu_axes ui)).
Proof.
  intros (L & M & _ & _ & _ & T) N. cbv zeta. destruct ui as [rs axes]. cbn [cu_axes cu_radius] in *.
  assert (A : forall a : axis, tuned_axis (s_val rs) a -> s_val (set_value (snd a) v) = Z.min (Z.max v (s_val rs + 1)) (Z.of_nat (fst a) - (s_val rs + 1))).
  { intros a (E1 & E2 & _). unfold set_value, clamp. cbn [s_val]. rewrite E1, E2. reflexivity. }
  destruct L as [L|L]; destruct shape as [|n0 [|n1 [|n2 [|n3 rest]]]]; try discriminate; cbn [cnr_order] in M.
  - destruct axes as [|a1 [|a2 [|a3 [|a4 [|]]]]]; try discriminate. injection M as M1 M2 M3 M4.
    repeat match goal with H : Forall _ (_ :: _) |- _ => inversion H; clear H; subst end.
    repeat match goal with H : tuned_axis _ _ |- _ => apply A in H end.
    destruct a1 as [m1 s1], a2 as [m2 s2], a3 as [m3 s3], a4 as [m4 s4]. cbn [fst snd] in *. subst.
    destruct d as [|[|[|]]]; try discriminate; injection N as <-; destruct signal; unfold slider_of, move_axis; cbn [nth nth_error];
    match goal with |- context [s_val (set_value ?s v) =? s_val ?s] => destruct (Z.eqb_spec (s_val (set_value s v)) (s_val s)) as [E|E] end;
    cbn [upd shown signal_axes background_axes map snd]; split; congruence.
  - destruct axes as [|a1 [|a2 [|a3 [|a4 [|a5 [|a6 [|]]]]]]]; try discriminate. injection M as M1 M2 M3 M4 M5 M6.
    repeat match goal with H : Forall _ (_ :: _) |- _ => inversion H; clear H; subst end.
    repeat match goal with H : tuned_axis _ _ |- _ => apply A in H end.
    destruct a1 as [m1 s1], a2 as [m2 s2], a3 as [m3 s3], a4 as [m4 s4], a5 as [m5 s5], a6 as [m6 s6]. cbn [fst snd] in *. subst.
    destruct d as [|[|[|d]]]; [| | |destruct d; discriminate]; injection N as <-; destruct signal; unfold slider_of, move_axis; cbn [nth nth_error];
    match goal with |- context [s_val (set_value ?s v) =? s_val ?s] => destruct (Z.eqb_spec (s_val (set_value s v)) (s_val s)) as [E|E] end;
    cbn [upd shown signal_axes background_axes map snd]; split; congruence.
Qed.

(** A slider changes its own coordinate of its own centre, and nothing else that is saved. *)
Theorem C102_moved : forall b o shape kw evs (signal : bool) d n v, b_open b = [] ->
  Forall fine (snd (cnr_run b (only o (shape, kw) evs))) -> nth_error shape d = Some n ->
  let p1 := b_objects (fst (cnr_run b (only o (shape, kw) (evs ++ [CSave])))) o in
  let p2 := b_objects (fst (cnr_run b (only o (shape, kw) (evs ++ [CMove (slider_of signal d) v; CSave])))) o in
  exists l r, centre_of signal p1 = Some (Some l) /\ st_radius p1 = Some (Some (RInt r)) /\
    centre_of signal p2 = Some (Some (upd l d (CInt (Z.min (Z.max v (r + 1)) (Z.of_nat n - (r + 1)))))) /\
    centre_of (negb signal) p2 = centre_of (negb signal) p1 /\ st_radius p2 = Some (Some (RInt r)).
Proof.
  intros b o shape kw evs signal d n v HO F N. cbv zeta.
  destruct (cnr_only_good b o shape kw evs HO F) as (ui & H1 & GD & HG).
  rewrite (cnr_save_eq _ _ _ _ _ _ H1). cbn [b_objects]. unfold put at 1 2 3. rewrite Nat.eqb_refl.
  rewrite (HG (CnrGlob None None ROther)).
  set (k := slider_of signal d).
  set (l' := match move_axis (cu_axes ui) k v with Some l => l | None => cu_axes ui end).
  assert (E2 : b_objects (fst (cnr_run b (only o (shape, kw) (evs ++ [CMove k v; CSave])))) o =
    cnr_save (cnr_draw (cu_radius ui) l' (CnrGlob None None ROther)) (b_objects (fst (cnr_run b (only o (shape, kw) evs))) o)).
  { unfold only, cnr_run in *. rewrite map_app. rewrite app_comm_cons. rewrite run_app. cbn [fst map].
    set (b1 := fst (run _ _ b _)) in *. cbn [run act_step]. rewrite H1. cbn [nth_error cnr_step].
    unfold l'. destruct (move_axis (cu_axes ui) k v) as [l|]; cbn [upd b_open b_objects b_glob nth_error cnr_step fst];
    unfold put; rewrite !Nat.eqb_refl; [reflexivity|]. rewrite (HG (CnrGlob None None ROther)). reflexivity. }
  rewrite E2. destruct (moved_shown shape ui signal d v n GD N) as [A B]. fold k in A, B. fold l' in A, B.
  exists (shown (if signal then signal_axes (cu_axes ui) else background_axes (cu_axes ui))), (s_val (cu_radius ui)).
  unfold centre_of, cnr_save, cnr_draw. cbn [st_signal st_background st_radius cg_signal cg_background cg_radius].
  destruct signal; cbn [negb]; rewrite A, B; auto 6.
Qed.
Print Assumptions C102_moved.

(** The radius slider offers 1 .. m/2, m the length of the shortest axis. Only radii below m/2 work: the
    limits of the other sliders cannot be set for m/2. *)
Theorem C102_radius : forall b o shape kw evs v, b_open b = [] ->
  Forall fine (snd (cnr_run b (only o (shape, kw) evs))) ->
  let b1 := fst (cnr_run b (only o (shape, kw) evs)) in
  let half := Z.of_nat (least shape / 2)%nat in
  exists ui, b_open b1 = [(o, ui)] /\
    let old := s_val (cu_radius ui) in
    let new := Z.min (Z.max v 1) half in
    snd (cnr_run b1 [On 0 (CRadius v)]) = [if (new =? old) || (new <? half) then Ok tt else Err TraitError].
Proof.
  intros b o shape kw evs v HO F. cbv zeta. destruct (cnr_only_good b o shape kw evs HO F) as (ui & H1 & GD & _). exists ui.
  split; [exact H1|]. set (b1 := fst _) in *. unfold cnr_run. cbn [run act_step]. rewrite H1. cbn [nth_error].
  assert (EV : s_val (set_value (cu_radius ui) v) = Z.min (Z.max v 1) (Z.of_nat (least shape / 2)%nat)).
  { destruct GD as (_ & _ & A & B & _). unfold set_value, clamp. cbn. rewrite A, B. reflexivity. }
  rewrite <- EV. destruct (Z.eqb_spec (s_val (set_value (cu_radius ui) v)) (s_val (cu_radius ui))) as [E|N].
  - cbn [orb]. cbn [cnr_step]. rewrite (proj2 (Z.eqb_eq _ _) E). reflexivity.
  - destruct (cnr_radius_ok shape ui (b_objects b1 o) (b_glob b1) v GD N) as [A B].
    destruct (Z.ltb_spec (s_val (set_value (cu_radius ui) v)) (Z.of_nat (least shape / 2)%nat)) as [X|X]; cbn [orb].
    + rewrite (A X). reflexivity.
    + specialize (B X). destruct (cnr_step _ _ _ _) as [[[u p] g] r]. cbn in B |- *. congruence.
Qed.
Print Assumptions C102_radius.

(** After such a failure a region that leaves the image can be saved. *)
Theorem C102_refuted : exists b o shape kw evs ui sc r,
  let b' := fst (cnr_run b (only o (shape, kw) (evs ++ [CSave]))) in
  b_open b = [] /\ b_open b' = [(o, ui)] /\ snd (cnr_run b (only o (shape, kw) evs)) = [Ok tt; Err TraitError] /\
  st_background (b_objects b' o) = Some (Some sc) /\ st_radius (b_objects b' o) = Some (Some (RInt r)) /\
  ~ cube_inside shape sc r.
Proof.
  exists (Book (fun _ => Stored None None None None) [] (CnrGlob None None ROther)), 0%nat, [10; 10]%nat, (CnrKw None None None), [CRadius 5],
    (CnrUi (Slider 1 5 5) [(10%nat, Slider 6 8 6); (10%nat, Slider 2 8 5); (10%nat, Slider 2 8 5); (10%nat, Slider 2 8 5)]), [CInt 6; CInt 5], 5.
  cbv zeta. split; [reflexivity|]. split; [vm_compute; reflexivity|]. split; [vm_compute; reflexivity|]. split; [vm_compute; reflexivity|]. split; [vm_compute; reflexivity|].
  intros F. inversion F as [|? ? ? ? (z & E & _ & H)]; subst. injection E as <-. cbn in H. lia.
Qed.
Print Assumptions C102_refuted.

Example C102_ex :
  let b := Book (fun _ => Stored None None None None) [] (CnrGlob None None ROther) in
  let '(b', rs) := cnr_run b (only 7 ([12; 20; 16]%nat, CnrKw None None None) [CMove 2 3; CRadius 5; CMove 5 100; CSave]) in
  rs = [Ok tt; Ok tt; Ok tt; Ok tt; Ok tt] /\
  b_objects b' 7%nat = Stored (Some (Some [CInt 6; CInt 10; CInt 10])) (Some (Some [CInt 6; CInt 10; CInt 8])) (Some (Some (RInt 5))) None.
Proof. vm_compute. split; reflexivity. Qed.

(** C103: the values shown last are module variables, shared by all CNR objects and all open user
    interfaces: "Save" in one of them stores what was set last in another one. *)
Theorem C103_shared : forall b i j oi oj ui uj k v l,
  nth_error (b_open b) i = Some (oi, ui) -> nth_error (b_open b) j = Some (oj, uj) ->
  move_axis (cu_axes uj) k v = Some l ->
  let b' := fst (cnr_run b [On j (CMove k v); On i CSave]) in
  st_signal (b_objects b' oi) = Some (Some (shown (signal_axes l))) /\
  st_background (b_objects b' oi) = Some (Some (shown (background_axes l))) /\
  st_radius (b_objects b' oi) = Some (Some (RInt (s_val (cu_radius uj)))).
Proof.
  intros b i j oi oj ui uj k v l Hi Hj M. cbv zeta. unfold cnr_run. cbn [run act_step]. rewrite Hj. cbn [cnr_step]. rewrite M.
  cbn [b_open]. assert (X : exists u, nth_error (upd (b_open b) j (oj, CnrUi (cu_radius uj) l)) i = Some (oi, u)).
  { destruct (Nat.eq_dec j i) as [->|N].
    - rewrite nth_error_upd_eq by (apply nth_error_Some; congruence). eexists. f_equal. f_equal. congruence.
    - rewrite nth_error_upd_neq by exact N. eauto. }
  destruct X as [u X]. rewrite X. cbn [cnr_step b_glob b_objects cnr_draw fst]. unfold put. rewrite Nat.eqb_refl. cbn [cnr_save st_signal st_background st_radius cg_signal cg_background cg_radius]. auto.
Qed.
Print Assumptions C103_shared.

(** A call of set_centers alone is enough, also if it fails: the start values replace the module variables. *)
Theorem C103_open : forall b i oi ui o x,
  nth_error (b_open b) i = Some (oi, ui) ->
  let '(ou, p, g) := cnr_open (fst x) (snd x) (b_objects b o) (b_glob b) in
  let b' := fst (cnr_run b [Open o x; On i CSave]) in
  st_signal (b_objects b' oi) = Some (cg_signal g) /\ st_radius (b_objects b' oi) = Some (Some (cg_radius g)) /\
  g = match ou with
      | Ok u => cnr_draw (cu_radius u) (cu_axes u) g
      | Err _ => cnr_first (fst x) (b_objects b o) (snd x)
      end.
Proof.
  intros b i oi ui o x Hi. destruct (cnr_open (fst x) (snd x) (b_objects b o) (b_glob b)) as [[ou p] g] eqn:E.
  assert (Hg : g = match ou with Ok u => cnr_draw (cu_radius u) (cu_axes u) g | Err _ => cnr_first (fst x) (b_objects b o) (snd x) end).
  { unfold cnr_open in E. destruct (cnr_start _ _ _ _ _); [|injection E as <- _ <-; reflexivity].
    destruct (bind _ _) as [u|]; injection E as <- _ <-; reflexivity. }
  unfold cnr_run. cbn [run act_step]. rewrite E. destruct ou as [u|e]; cbn [b_open].
  - rewrite nth_error_app1 by (apply nth_error_Some; congruence). rewrite Hi. cbn [cnr_step b_glob b_objects fst]. unfold put. rewrite Nat.eqb_refl. cbn [cnr_save st_signal st_radius]. auto.
  - rewrite Hi. cbn [cnr_step b_glob b_objects fst]. unfold put. rewrite Nat.eqb_refl. cbn [cnr_save st_signal st_radius]. auto.
Qed.
Print Assumptions C103_open.

(** A region that is not in the image of the object, not even of its dimension, gets stored. *)
Example C103_ex :
  let b := Book (fun _ => Stored None None None None) [] (CnrGlob None None ROther) in
  let '(b', _) := cnr_run b [Open 0 ([10; 10]%nat, CnrKw None None None); Open 1 ([40; 40; 40]%nat, CnrKw None None None); On 0 CSave] in
  st_signal (b_objects b' 0%nat) = Some (Some [CInt 20; CInt 20; CInt 20]).
Proof. vm_compute. reflexivity. Qed.

(** C104: after the checks at the start (C97) the values are stored; then the sliders may still refuse them. *)
Definition axis_for (n : nat) (r z : Z) : axis := (n, Slider (r + 1) (Z.of_nat n - (r + 1)) (clamp (r + 1) (Z.of_nat n - (r + 1)) z)).

Lemma make_axis_eq n r z : make_axis n r z = if Z.of_nat n <? 2 * r + 2 then Err TraitError else Ok (axis_for n r z).
Proof.
  unfold make_axis, make_slider, axis_for.
  destruct (Z.ltb_spec (Z.of_nat n - (r + 1)) (r + 1)), (Z.ltb_spec (Z.of_nat n) (2 * r + 2)); try lia; reflexivity.
Qed.

Lemma ints_of (shape : list nat) (l : list cval) (r : Z) : length l = length shape -> Forall (fun x => exists y, x = CInt y /\ r <= Z.abs y) l ->
  exists zs, l = map CInt zs /\ length zs = length shape.
Proof.
  intros L F. assert (X : exists zs, l = map CInt zs).
  { clear L. induction F as [|x l (y & -> & _) F [zs ->]]; [exists []; reflexivity|exists (y :: zs); reflexivity]. }
  destruct X as [zs ->]. exists zs. rewrite map_length in L. auto.
Qed.

Lemma cnr_widgets_eq (shape : list nat) (sl bl : list Z) (r : Z) : length shape = 2%nat \/ length shape = 3%nat -> length sl = length shape -> length bl = length shape -> 0 < r ->
  (2 * r + 2 <= Z.of_nat (least shape) -> exists ui, cnr_widgets shape (map CInt sl) (map CInt bl) (RInt r) = Ok ui /\ s_val (cu_radius ui) = r) /\
  (Z.of_nat (least shape) < 2 * r + 2 -> cnr_widgets shape (map CInt sl) (map CInt bl) (RInt r) = Err TraitError).
Proof.
  intros L Ls Lb Hr. unfold cnr_widgets. cbn [check_radius]. destruct (Z.leb_spec r 0); [lia|]. cbn [bind]. unfold radius_slider, make_slider.
  pose proof (half_fits (least shape) r) as HF. pose proof (half_fits (least shape) 0) as H0.
  assert (NE : shape <> []) by (intros ->; destruct L; discriminate).
  destruct (Z.ltb_spec (Z.of_nat (least shape / 2)%nat) 1) as [B|B]; [cbn [bind]; split; [lia|reflexivity]|].
  cbn [bind s_val]. set (rv := clamp 1 (Z.of_nat (least shape / 2)%nat) r).
  pose proof (least_fits shape rv NE) as LF. pose proof (half_fits (least shape) rv) as HV.
  assert (R1 : 2 * r + 2 <= Z.of_nat (least shape) -> rv = r) by (unfold rv, clamp; lia).
  assert (R2 : Z.of_nat (least shape) < 2 * r + 2 -> rv = Z.of_nat (least shape / 2)%nat) by (unfold rv, clamp; lia).
  clearbody rv. split; intros X.
  - pose proof (R1 X) as ER. rewrite <- ER in X. apply LF in X.
    destruct L as [L|L]; destruct shape as [|n0 [|n1 [|n2 [|n3 rest]]]]; try discriminate;
    destruct sl as [|s0 [|s1 [|s2 [|]]]]; try discriminate; destruct bl as [|b0 [|b1 [|b2 [|]]]]; try discriminate;
    rewrite !Forall_cons_iff in X; cbn [map coord nth_error bind]; rewrite !make_axis_eq;
    repeat match goal with |- context [Z.of_nat ?n <? 2 * rv + 2] => rewrite (proj2 (Z.ltb_ge (Z.of_nat n) (2 * rv + 2))) by tauto end;
    cbn [bind]; eexists; (split; [reflexivity|exact ER]).
  - assert (NF : ~ Forall (fun n => 2 * rv + 2 <= Z.of_nat n) shape) by (rewrite LF, HV, (R2 X); lia). clear X LF HV R1 R2 HF H0 B.
    destruct L as [L|L]; destruct shape as [|n0 [|n1 [|n2 [|n3 rest]]]]; try discriminate;
    destruct sl as [|s0 [|s1 [|s2 [|]]]]; try discriminate; destruct bl as [|b0 [|b1 [|b2 [|]]]]; try discriminate;
    rewrite !Forall_cons_iff in NF; cbn [map coord nth_error bind]; rewrite !make_axis_eq.
    + destruct (Z.ltb_spec (Z.of_nat n0) (2 * rv + 2)); [reflexivity|]. destruct (Z.ltb_spec (Z.of_nat n1) (2 * rv + 2)); [reflexivity|].
      exfalso. apply NF. repeat split; auto.
    + destruct (Z.ltb_spec (Z.of_nat n0) (2 * rv + 2)); [reflexivity|]. destruct (Z.ltb_spec (Z.of_nat n1) (2 * rv + 2)); [reflexivity|].
      destruct (Z.ltb_spec (Z.of_nat n2) (2 * rv + 2)); [reflexivity|]. exfalso. apply NF. repeat split; auto.
Qed.

Theorem C104_cnr : forall shape kw p g st, length shape = 2%nat \/ length shape = 3%nat ->
  cnr_start shape p (ck_signal kw) (ck_background kw) (ck_radius kw) = Ok st ->
  exists r ou g', st_radius st = Some (Some (RInt r)) /\ cnr_open shape kw p g = (ou, st, g') /\
    (2 * r + 2 <= Z.of_nat (least shape) -> exists ui, ou = Ok ui /\ s_val (cu_radius ui) = r) /\
    (Z.of_nat (least shape) < 2 * r + 2 -> ou = Err TraitError).
Proof.
  intros shape kw p g st L HS. pose proof (proj1 (C97_cnr _ _ _ _ _ _) HS) as HV.
  assert (CF : cnr_first shape p kw = let '(sc, bc, rad) := cnr_values shape p (ck_signal kw) (ck_background kw) (ck_radius kw) in CnrGlob sc bc (rad_of rad)).
  { unfold cnr_first, cnr_values. destruct (st_signal p), (st_background p), (st_radius p); try reflexivity; destruct (ck_signal kw), (ck_background kw), (ck_radius kw); reflexivity. }
  destruct (cnr_values shape p (ck_signal kw) (ck_background kw) (ck_radius kw)) as [[sc bc] rad].
  destruct HV as ((sl & r & -> & -> & L1 & Hr & F1) & (bl & r' & -> & E & L2 & _ & F2) & Est). injection E as <-. cbn [rad_of] in CF.
  exists r. unfold cnr_open. rewrite HS, CF. cbn [cg_signal cg_background cg_radius len_of from_opt bind].
  destruct (ints_of _ _ _ L1 F1) as (zs & -> & Lz). destruct (ints_of _ _ _ L2 F2) as (zb & -> & Lb).
  destruct (cnr_widgets_eq shape zs zb r L Lz Lb Hr) as [A B].
  destruct (Z_lt_le_dec (Z.of_nat (least shape)) (2 * r + 2)) as [X|X].
  - rewrite (B X). eexists _, _. split; [rewrite Est; reflexivity|]. split; [reflexivity|]. split; [lia|reflexivity].
  - destruct (A X) as (ui & EU & ER). rewrite EU. eexists _, _. split; [rewrite Est; reflexivity|]. split; [reflexivity|]. split; [eauto|lia].
Qed.
Print Assumptions C104_cnr.

(** C102: saving without touching a slider stores the start values, moved at least one pixel further than the radius
    away from the border. *)
Lemma cnr_widgets_shown (shape : list nat) (sl bl : list Z) (r : Z) ui : length sl = length shape -> length bl = length shape ->
  cnr_widgets shape (map CInt sl) (map CInt bl) (RInt r) = Ok ui -> s_val (cu_radius ui) = r ->
  let inner l := map (fun '(n, z) => CInt (Z.min (Z.max z (r + 1)) (Z.of_nat n - (r + 1)))) (combine shape l) in
  shown (signal_axes (cu_axes ui)) = inner sl /\ shown (background_axes (cu_axes ui)) = inner bl.
Proof.
  intros Ls Lb H R. unfold cnr_widgets in H. apply bind_ok in H as (r' & _ & H). apply bind_ok in H as (rs & _ & H).
  destruct shape as [|n0 [|n1 [|n2 [|n3 rest]]]]; try discriminate;
  destruct sl as [|s0 [|s1 [|s2 [|]]]]; try discriminate; destruct bl as [|b0 [|b1 [|b2 [|]]]]; try discriminate;
  cbn [map coord nth_error bind] in H; rewrite !make_axis_eq in H;
  repeat (destruct (_ <? _) in H; cbn [bind] in H; [discriminate|]); injection H as <-; cbn [cu_radius] in R; subst r;
  split; reflexivity.
Qed.

Theorem C102_untouched : forall b o shape kw st sz bz r, b_open b = [] -> length shape = 2%nat \/ length shape = 3%nat ->
  cnr_start shape (b_objects b o) (ck_signal kw) (ck_background kw) (ck_radius kw) = Ok st ->
  st_signal st = Some (Some (map CInt sz)) -> st_background st = Some (Some (map CInt bz)) -> st_radius st = Some (Some (RInt r)) ->
  2 * r + 2 <= Z.of_nat (least shape) ->
  let inner l := map (fun '(n, z) => CInt (Z.min (Z.max z (r + 1)) (Z.of_nat n - (r + 1)))) (combine shape l) in
  b_objects (fst (cnr_run b (only o (shape, kw) [CSave]))) o =
    Stored (Some (Some (inner sz))) (Some (Some (inner bz))) (Some (Some (RInt r))) (st_kind (b_objects b o)).
Proof.
  intros b o shape kw st sz bz r HO L HS S1 S2 S3 X. cbv zeta.
  unfold only, cnr_run. cbn [map run act_step fst snd]. unfold cnr_open. rewrite HS.
  apply C97_cnr in HS. set (p := b_objects b o) in *.
  assert (CF : cnr_first shape p kw = let '(sc, bc, rad) := cnr_values shape p (ck_signal kw) (ck_background kw) (ck_radius kw) in CnrGlob sc bc (rad_of rad)).
  { unfold cnr_first, cnr_values. destruct (st_signal p), (st_background p), (st_radius p); try reflexivity; destruct (ck_signal kw), (ck_background kw), (ck_radius kw); reflexivity. }
  destruct (cnr_values shape p (ck_signal kw) (ck_background kw) (ck_radius kw)) as [[sc bc] rad].
  destruct HS as ((sl & r' & -> & -> & L1 & Hr & F1) & (bl & r'' & -> & E & L2 & _ & F2) & ->).
  cbn [st_signal st_background st_radius] in S1, S2, S3. injection S1 as ->. injection S2 as ->. injection S3 as ->. clear E. cbn [rad_of] in CF.
  rewrite CF. cbn [cg_signal cg_background cg_radius len_of from_opt bind].
  rewrite map_length in L1, L2.
  destruct (cnr_widgets_eq shape sz bz r L L1 L2 Hr) as [A _]. destruct (A X) as (ui & EU & ER). rewrite EU.
  destruct (cnr_widgets_shown shape sz bz r ui L1 L2 EU ER) as [W1 W2]. rewrite HO. cbn [app b_open nth_error cnr_step].
  cbn [b_objects b_glob upd fst]. unfold put. rewrite !Nat.eqb_refl.
  unfold cnr_save, cnr_draw. cbn [cg_signal cg_background cg_radius st_kind]. rewrite W1, W2, ER. reflexivity.
Qed.
Print Assumptions C102_untouched.


Example C104_cnr_ex :
  let '(ou, p, _) := cnr_open [10; 10]%nat (CnrKw None None (Some (Some (RInt 5)))) (Stored None None None None) (CnrGlob None None ROther) in
  ou = Err TraitError /\ st_radius p = Some (Some (RInt 5)).
Proof. vm_compute. split; reflexivity. Qed.

(** ** SNR *)

Section snr_proofs.
Variable nobg : arr bool -> list nat -> nat.

Definition pct (s : slider) : Prop := s_min s = 0 /\ s_max s = 100 /\ 0 <= s_val s <= 100.
Lemma pct_set s v : pct s -> pct (set_value s v).
Proof. intros (A & B & _). unfold pct, set_value. cbn [s_min s_max s_val]. rewrite A, B. split; [reflexivity|]. split; [reflexivity|]. apply clamp_range. lia. Qed.

Definition snr_good (img : arr R) (ui : snr_ui) : Prop :=
  su_img ui = img /\ (length (shp img) = 2%nat \/ length (shp img) = 3%nat) /\ map fst (su_axes ui) = shp img /\
  tuned (su_radius ui) (Z.of_nat (least (shp img) / 2)%nat) (su_axes ui) /\ valid_start (su_kind ui) = true /\
  pct (su_lower ui) /\ pct (su_upper ui).

Lemma snr_axes_fit img ui r : snr_good img ui ->
  (Forall (fun a : axis => 2 * r + 2 <= Z.of_nat (fst a)) (su_axes ui) <-> r < Z.of_nat (least (shp img) / 2)%nat).
Proof.
  intros (_ & L & M & _). rewrite (axes_fit (fun n => 2 * r + 2 <= Z.of_nat n) _ _ M).
  rewrite least_fits by (intros E; rewrite E in L; destruct L; discriminate). apply half_fits.
Qed.

(** New radius, below the largest one the slider offers *)
Lemma snr_radius_ok img ui p g v : snr_good img ui -> s_val (set_value (su_radius ui) v) <> s_val (su_radius ui) ->
  let rs := set_value (su_radius ui) v in
  (s_val rs < Z.of_nat (least (shp img) / 2)%nat ->
   let l := map (refit (s_val rs)) (su_axes ui) in
   let ui' := with_axes ui rs l in
   snr_good img ui' /\
   snr_step nobg ui p g (SRadius v) =
     if (length (shp img) =? 2)%nat then
       (ui', p, (if list_eq_dec Z.eq_dec (map (fun a => s_val (snd a)) l) (map (fun a => s_val (snd a)) (su_axes ui)) then g else ui_draw ui' g), Err AttributeError)
     else (ui', p, ui_draw ui' g, Ok tt)) /\
  (Z.of_nat (least (shp img) / 2)%nat <= s_val rs -> snd (snr_step nobg ui p g (SRadius v)) = Err TraitError).
Proof.
  intros GD N rs. subst rs. pose proof (snr_axes_fit img ui (s_val (set_value (su_radius ui) v)) GD) as FI. split.
  - intros L. pose proof GD as (E & LL & M & T & K). split.
    + split; [exact E|]. split; [exact LL|]. unfold with_axes. cbn [su_axes su_radius su_kind su_lower su_upper]. split; [|split; [|exact K]].
      * rewrite map_map, <- M. apply map_ext. reflexivity.
      * apply tuned_update; [exact T|]. apply FI, L.
    + cbn [snr_step]. rewrite (proj2 (Z.eqb_neq _ _) N). destruct T as (_ & _ & _ & T).
      rewrite (update_ok (snr_draw (set_value (su_radius ui) v) (su_kind ui)) (snr_draw_again _ _) (snr_draw_shown _ _) _ _ _ [] g T (proj2 FI L)).
      cbn [app]. rewrite map_length. rewrite <- M, map_length.
      change (@length axis (su_axes ui)) with (@length (nat * slider) (su_axes ui)).
      destruct (@length (nat * slider) (su_axes ui) =? 2)%nat; [reflexivity|]. f_equal. f_equal. unfold ui_draw, with_axes. cbn [su_radius su_kind su_axes].
      match goal with |- context [list_eq_dec ?a ?b ?c] => destruct (list_eq_dec a b c) end; reflexivity.
  - intros L. cbn [snr_step]. rewrite (proj2 (Z.eqb_neq _ _) N).
    assert (X : Exists (fun a : axis => Z.of_nat (fst a) < 2 * s_val (set_value (su_radius ui) v) + 2) (su_axes ui)).
    { apply (not_forall_exists (fun a : axis => 2 * s_val (set_value (su_radius ui) v) + 2 <= Z.of_nat (fst a))); [intros; lia|]. rewrite FI. lia. }
    apply (update_fails (snr_draw (set_value (su_radius ui) v) (su_kind ui)) _ _ [] g) in X.
    destruct (update_axes _ _ _ _ _) as [[l g'] [u|e]]; cbn in X |- *; congruence.
Qed.

(** The module variables hold what the user interface shows. *)
Definition synced (ui : snr_ui) (g : snr_glob) : Prop :=
  sg_center g = Some (shown (su_axes ui)) /\ sg_radius g = RInt (s_val (su_radius ui)) /\ sg_kind g = su_kind ui.
Lemma draw_synced ui g : synced ui (ui_draw ui g).
Proof. repeat split. Qed.

Lemma choose_good img ui k g : snr_good img ui -> synced ui g ->
  let '(ui', g', x) := choose ui k g in snr_good img ui' /\ synced ui' g'.
Proof.
  intros GD SY. unfold choose. destruct (valid_start k) eqn:V; cbn [negb]; [|split; assumption].
  assert (GK : snr_good img (with_kind ui k)).
  { destruct GD as (A & B & C & D & _ & F1 & F2). unfold snr_good, with_kind. cbn [su_img su_axes su_radius su_kind su_lower su_upper]. tauto. }
  destruct (su_kind ui) as [] eqn:SK, k as []; try (split; [exact GK|apply draw_synced]).
  destruct (String.eqb _ _); [split; assumption|split; [exact GK|apply draw_synced]].
Qed.

Lemma snr_step_good img ui p g e : snr_good img ui -> synced ui g -> snd (snr_step nobg ui p g e) = Ok tt ->
  snr_good img (fst (fst (fst (snr_step nobg ui p g e)))) /\ synced (fst (fst (fst (snr_step nobg ui p g e)))) (snd (fst (snr_step nobg ui p g e))).
Proof.
  intros GD SY. destruct e as [k v|v|k|v|v|v| |]; try (intros _; cbn; split; assumption);
    try (intros _; cbn [snr_step fst snd]; split; [|exact SY]; destruct GD as (A & B & C & T & E & F1 & F2); unfold snr_good;
      cbn [su_img su_axes su_radius su_kind su_lower su_upper]; pose proof (pct_set _ v F1); pose proof (pct_set _ v F2); tauto).
  - intros _. cbn [snr_step]. destruct (move_axis (su_axes ui) k v) as [l|] eqn:M; [|split; assumption]. cbn [fst snd].
    split; [|apply draw_synced]. destruct GD as (A & B & C & T & E). destruct (tuned_move _ _ _ _ _ _ T M) as [T' F'].
    unfold snr_good, with_axes. cbn [su_img su_axes su_radius su_kind su_lower su_upper]. split; [exact A|]. split; [exact B|]. split; [congruence|]. split; assumption.
  - destruct (Z.eq_dec (s_val (set_value (su_radius ui) v)) (s_val (su_radius ui))) as [E|N].
    + intros _. cbn [snr_step]. rewrite (proj2 (Z.eqb_eq _ _) E). split; assumption.
    + destruct (snr_radius_ok img ui p g v GD N) as [A B].
      destruct (Z_lt_le_dec (s_val (set_value (su_radius ui) v)) (Z.of_nat (least (shp img) / 2)%nat)) as [X|X]; [|rewrite (B X); discriminate].
      destruct (A X) as [G' EQ]. rewrite EQ. destruct (length (shp img) =? 2)%nat; [discriminate|]. intros _. split; [exact G'|apply draw_synced].
  - intros _. cbn [snr_step]. pose proof (choose_good img ui k g GD SY) as H. destruct (choose ui k g) as [[u' g'] x]. exact H.
  - cbn [snr_step]. destruct (full_region nobg _ _ _ _ _) as [r|]; [|discriminate].
    match goal with |- context [choose ui ?a ?b] => pose proof (choose_good img ui a b GD) as H; destruct (choose ui a b) as [[u' g'] x] end.
    intros _. apply H. exact SY.
Qed.

Lemma snr_widgets_good img c rad kind it lo hi ui : valid_start kind = true -> snr_widgets img c rad kind it lo hi = Ok ui ->
  snr_good img ui /\ su_kind ui = kind /\
  s_val (su_iterations ui) = clamp 1 10 (or_else it 0) /\ s_val (su_lower ui) = clamp 0 100 (or_else lo 0) /\ s_val (su_upper ui) = clamp 0 100 (or_else hi 0).
Proof.
  intros V E. unfold snr_widgets in E. apply bind_ok in E as (r & _ & E). apply bind_ok in E as (rs & E1 & E).
  apply bind_ok in E as (axes & E2 & E). cbn [make_slider Z.ltb Z.compare bind] in E. injection E as <-.
  cbn [su_kind su_iterations su_lower su_upper s_val]. split; [|repeat split].
  assert (R : s_min rs = 1 /\ s_max rs = Z.of_nat (least (shp img) / 2)%nat /\ 1 <= s_val rs <= Z.of_nat (least (shp img) / 2)%nat).
  { unfold radius_slider, make_slider in E1. destruct (Z.ltb_spec (Z.of_nat (least (shp img) / 2)%nat) 1); [discriminate|].
    injection E1 as <-. cbn [s_min s_max s_val]. split; [reflexivity|]. split; [reflexivity|]. apply clamp_range. lia. }
  assert (AX : forall n k a, (let* v := coord c k in make_axis n (s_val rs) v) = Ok a -> fst a = n /\ tuned_axis (s_val rs) a).
  { intros n k a Ha. apply bind_ok in Ha as (v & _ & Ha). apply make_axis_ok in Ha. tauto. }
  assert (V' : valid_start kind = true /\ pct (Slider 0 100 (clamp 0 100 (or_else lo 0))) /\ pct (Slider 0 100 (clamp 0 100 (or_else hi 0)))).
  { split; [exact V|]. split; (split; [reflexivity|]; split; [reflexivity|]; apply clamp_range; lia). }
  unfold snr_good. cbn [su_img su_axes su_radius su_kind su_lower su_upper]. split; [reflexivity|].
  destruct (shp img) as [|n0 [|n1 [|n2 [|n3 rest]]]]; try discriminate.
  - apply bind_ok in E2 as (a1 & H1 & E). apply bind_ok in E as (a2 & H2 & E). injection E as <-. apply AX in H1, H2.
    split; [left; reflexivity|]. split; [cbn; destruct H1 as [-> _], H2 as [-> _]; reflexivity|]. split; [|exact V'].
    split; [apply R|]. split; [apply R|]. split; [apply R|]. repeat (apply Forall_cons; [tauto|]); apply Forall_nil.
  - apply bind_ok in E2 as (a1 & H1 & E). apply bind_ok in E as (a2 & H2 & E). apply bind_ok in E as (a3 & H3 & E). injection E as <-. apply AX in H1, H2, H3.
    split; [right; reflexivity|]. split; [cbn; destruct H1 as [-> _], H2 as [-> _], H3 as [-> _]; reflexivity|]. split; [|exact V'].
    split; [apply R|]. split; [apply R|]. split; [apply R|]. repeat (apply Forall_cons; [tauto|]); apply Forall_nil.
Qed.

Lemma snr_start_valid shape p c r k st : snr_start shape p c r k = Ok st -> valid_start (first_of k (st_kind p) (PText "cubic")) = true.
Proof.
  unfold snr_start. intros H. apply bind_ok in H as (l & _ & H). apply bind_ok in H as ([] & _ & H). apply bind_ok in H as (z & _ & H).
  apply bind_ok in H as ([] & _ & H). apply bind_ok in H as ([] & E & _). unfold first_of.
  destruct (valid_start _); [reflexivity|discriminate].
Qed.

Lemma snr_open_good img kw p g ui p' g' : snr_open img kw p g = (Ok ui, p', g') ->
  snr_good img ui /\ synced ui g' /\
  s_val (su_iterations ui) = clamp 1 10 (or_else (first_of (sk_iterations kw) (q_iterations p) (Some 2)) 0) /\
  s_val (su_lower ui) = clamp 0 100 (or_else (first_of (sk_lower kw) (q_lower p) (Some 90)) 0) /\
  s_val (su_upper ui) = clamp 0 100 (or_else (first_of (sk_upper kw) (q_upper p) (Some 99)) 0).
Proof.
  unfold snr_open. destruct (snr_start _ _ _ _ _) as [st|] eqn:ES; [|discriminate].
  destruct (bind _ _) as [u|] eqn:E; [|discriminate]. intros H. assert (u = ui) by congruence. subst u.
  assert (Hg : g' = ui_draw ui (snr_first (shp img) kw p g)) by (unfold ui_draw; congruence). clear H.
  apply bind_ok in E as (c & _ & E). apply snr_start_valid in ES. apply snr_widgets_good in E; [|exact ES].
  split; [apply E|]. split; [rewrite Hg; apply draw_synced|]. tauto.
Qed.

Definition snr_only (o : nat) (x : snr_args) (evs : list snr_event) : list snr_act := Open o x :: map (On 0) evs.

Lemma snr_events_good img o : forall evs b ui,
  b_open b = [(o, ui)] -> snr_good img ui -> synced ui (b_glob b) ->
  Forall fine (snd (snr_run nobg b (map (On 0) evs))) ->
  exists ui', b_open (fst (snr_run nobg b (map (On 0) evs))) = [(o, ui')] /\ snr_good img ui' /\
    synced ui' (b_glob (fst (snr_run nobg b (map (On 0) evs)))).
Proof.
  induction evs as [|e evs IH]; intros b ui HO GD HG F; [exists ui; auto|].
  cbn [map] in *. unfold snr_run in *. cbn [run] in *. unfold act_step in *. rewrite HO in *. cbn [nth_error upd] in *.
  pose proof (snr_step_good img ui (b_objects b o) (b_glob b) e GD HG) as SG.
  destruct (snr_step nobg ui (b_objects b o) (b_glob b) e) as [[[ui1 p1] g1] r1] eqn:ES. cbn [fst snd] in SG.
  set (b1 := Book (put (b_objects b) o p1) [(o, ui1)] g1) in *.
  destruct (run _ _ b1 (map (On 0) evs)) as [b2 rs] eqn:ER. cbn [fst snd] in F |- *.
  inversion F as [|? ? F1 F2]; subst. destruct (SG F1) as [GD1 HG1].
  specialize (IH b1 ui1 eq_refl GD1). rewrite ER in IH. cbn [fst snd] in IH. apply IH; [exact HG1|exact F2].
Qed.

Lemma snr_only_good b o img kw evs : b_open b = [] ->
  Forall fine (snd (snr_run nobg b (snr_only o (img, kw) evs))) ->
  exists ui, b_open (fst (snr_run nobg b (snr_only o (img, kw) evs))) = [(o, ui)] /\ snr_good img ui /\
    synced ui (b_glob (fst (snr_run nobg b (snr_only o (img, kw) evs)))).
Proof.
  intros HO F. unfold snr_only, snr_run in *. cbn [run act_step fst snd] in *.
  destruct (snr_open img kw (b_objects b o) (b_glob b)) as [[[ui|e] p1] g1] eqn:EO.
  - rewrite HO in *. cbn [app] in *. set (b1 := Book (put (b_objects b) o p1) [(o, ui)] g1) in *.
    pose proof (snr_open_good _ _ _ _ _ _ _ EO) as (GD & HG & _).
    pose proof (snr_events_good img o evs b1 ui eq_refl GD HG) as H. unfold snr_run in H.
    destruct (run _ _ b1 (map (On 0) evs)) as [b2 rs]. cbn [fst snd] in *. inversion F; subst. apply H. assumption.
  - destruct (run _ _ _ _) as [b2 rs]. cbn [snd] in F. inversion F; subst. discriminate.
Qed.

Lemma snr_inside img ui : snr_good img ui -> cube_inside (shp img) (shown (su_axes ui)) (s_val (su_radius ui)).
Proof.
  intros (_ & _ & M & (_ & _ & R & T) & _). unfold cube_inside, shown. rewrite <- M. clear M.
  induction T as [|a l Ta T IH]; [constructor|]. cbn [map]. apply Forall2_cons; [|exact IH].
  exists (s_val (snd a)). split; [reflexivity|]. destruct Ta as (E1 & E2 & E3). lia.
Qed.
End snr_proofs.

Lemma snr_widgets_eq (img : arr R) (zs : list Z) (r : Z) kind it lo hi : length (shp img) = 2%nat \/ length (shp img) = 3%nat -> length zs = length (shp img) -> 0 < r ->
  (2 * r + 2 <= Z.of_nat (least (shp img)) -> exists ui, snr_widgets img (map CInt zs) (RInt r) kind it lo hi = Ok ui /\ s_val (su_radius ui) = r) /\
  (Z.of_nat (least (shp img)) < 2 * r + 2 -> snr_widgets img (map CInt zs) (RInt r) kind it lo hi = Err TraitError).
Proof.
  intros L Lz Hr. unfold snr_widgets. cbn [check_radius]. destruct (Z.leb_spec r 0); [lia|]. cbn [bind]. unfold radius_slider, make_slider.
  set (shape := shp img) in *.
  pose proof (half_fits (least shape) r) as HF. pose proof (half_fits (least shape) 0) as H0.
  assert (NE : shape <> []) by (intros E; rewrite E in L; destruct L; discriminate).
  destruct (Z.ltb_spec (Z.of_nat (least shape / 2)%nat) 1) as [B|B]; [cbn [bind]; split; [lia|reflexivity]|].
  cbn [bind s_val Z.ltb Z.compare]. set (rv := clamp 1 (Z.of_nat (least shape / 2)%nat) r).
  pose proof (least_fits shape rv NE) as LF. pose proof (half_fits (least shape) rv) as HV.
  assert (R1 : 2 * r + 2 <= Z.of_nat (least shape) -> rv = r) by (unfold rv, clamp; lia).
  assert (R2 : Z.of_nat (least shape) < 2 * r + 2 -> rv = Z.of_nat (least shape / 2)%nat) by (unfold rv, clamp; lia).
  clearbody rv shape. split; intros X.
  - pose proof (R1 X) as ER. rewrite <- ER in X. apply LF in X.
    destruct L as [L|L]; destruct shape as [|n0 [|n1 [|n2 [|n3 rest]]]]; try discriminate;
    destruct zs as [|s0 [|s1 [|s2 [|]]]]; try discriminate;
    rewrite !Forall_cons_iff in X; cbn [map coord nth_error bind]; rewrite !make_axis_eq;
    repeat match goal with |- context [Z.of_nat ?n <? 2 * rv + 2] => rewrite (proj2 (Z.ltb_ge (Z.of_nat n) (2 * rv + 2))) by tauto end;
    cbn [bind]; eexists; (split; [reflexivity|exact ER]).
  - assert (NF : ~ Forall (fun n => 2 * rv + 2 <= Z.of_nat n) shape) by (rewrite LF, HV, (R2 X); lia). clear X LF HV R1 R2 HF H0 B.
    destruct L as [L|L]; destruct shape as [|n0 [|n1 [|n2 [|n3 rest]]]]; try discriminate;
    destruct zs as [|s0 [|s1 [|s2 [|]]]]; try discriminate;
    rewrite !Forall_cons_iff in NF; cbn [map coord nth_error bind]; rewrite !make_axis_eq.
    + destruct (Z.ltb_spec (Z.of_nat n0) (2 * rv + 2)); [reflexivity|]. destruct (Z.ltb_spec (Z.of_nat n1) (2 * rv + 2)); [reflexivity|].
      exfalso. apply NF. repeat split; auto.
    + destruct (Z.ltb_spec (Z.of_nat n0) (2 * rv + 2)); [reflexivity|]. destruct (Z.ltb_spec (Z.of_nat n1) (2 * rv + 2)); [reflexivity|].
      destruct (Z.ltb_spec (Z.of_nat n2) (2 * rv + 2)); [reflexivity|]. exfalso. apply NF. repeat split; auto.
Qed.

Theorem C104_snr : forall img kw p g st, length (shp img) = 2%nat \/ length (shp img) = 3%nat ->
  snr_start (shp img) (q_stored p) (sk_center kw) (sk_radius kw) (sk_kind kw) = Ok st ->
  exists r ou p' g', or_else (sk_radius kw) (or_else (st_radius (q_stored p)) (Some (RInt 1))) = Some (RInt r) /\
    snr_open img kw p g = (ou, p', g') /\ q_stored p' = st /\
    (2 * r + 2 <= Z.of_nat (least (shp img)) -> exists ui, ou = Ok ui /\ s_val (su_radius ui) = r) /\
    (Z.of_nat (least (shp img)) < 2 * r + 2 -> ou = Err TraitError).
Proof.
  intros img kw p g st L HS. pose proof (proj1 (C97_snr _ _ _ _ _ _) HS) as HV. cbv zeta in HV.
  destruct HV as ((l & r & Ec & Er & L1 & Hr & F1) & Est).
  assert (C : sg_center (snr_first (shp img) kw p g) = Some l).
  { rewrite <- Ec. unfold snr_first, first_of, middle_of. cbn [sg_center]. destruct (sk_center kw), (st_signal (q_stored p)); reflexivity. }
  assert (R : sg_radius (snr_first (shp img) kw p g) = RInt r).
  { unfold snr_first, first_of. cbn [sg_radius]. destruct (sk_radius kw), (st_radius (q_stored p)); cbn in Er |- *; subst; try injection Er as <-; reflexivity. }
  assert (K : sg_kind (snr_first (shp img) kw p g) = or_else (sk_kind kw) (or_else (st_kind (q_stored p)) (PText "cubic"))).
  { unfold snr_first, first_of. cbn [sg_kind]. destruct (sk_kind kw), (st_kind (q_stored p)); reflexivity. }
  destruct (ints_of _ _ _ L1 F1) as (zs & -> & Lz).
  assert (S : q_stored (snr_save (snr_first (shp img) kw p g) p) = st).
  { unfold snr_save. rewrite C, R, K. rewrite Ec, Er in Est.
    destruct Est as [[[Ek|Ek] ->]|[[Ek|Ek] ->]]; rewrite Ek; reflexivity. }
  exists r. unfold snr_open. rewrite HS, C, R. cbn [len_of from_opt bind].
  destruct (snr_widgets_eq img zs r (sg_kind (snr_first (shp img) kw p g)) (first_of (sk_iterations kw) (q_iterations p) (Some 2))
              (first_of (sk_lower kw) (q_lower p) (Some 90)) (first_of (sk_upper kw) (q_upper p) (Some 99)) L Lz Hr) as [A B].
  destruct (Z_lt_le_dec (Z.of_nat (least (shp img))) (2 * r + 2)) as [X|X].
  - rewrite (B X). eexists _, _, _. split; [exact Er|]. split; [reflexivity|]. split; [exact S|]. split; [lia|reflexivity].
  - destruct (A X) as (ui & EU & ER). rewrite EU. eexists _, _, _. split; [exact Er|]. split; [reflexivity|]. split; [exact S|]. split; [eauto|lia].
Qed.
Print Assumptions C104_snr.

Definition blank (n m : nat) : arr R := Arr [n; m] (repeat 0%R (n * m)).
Definition no_snr : snr_params := SnrParams (Stored None None None None) None None None None None.
Definition no_glob : snr_glob := SnrGlob None ROther PNone None None None None.

Example C104_snr_ex :
  let '(ou, p, _) := snr_open (blank 10 10) (SnrKw None (Some (Some (RInt 5))) None None None None) no_snr no_glob in
  ou = Err TraitError /\ st_radius (q_stored p) = Some (Some (RInt 5)).
Proof. vm_compute. split; reflexivity. Qed.

(** C105: as long as nothing failed, "Save" stores what is shown. *)
Lemma snr_saving nobg b o ui : b_open b = [(o, ui)] ->
  snr_run nobg b [On 0 SSave] = (Book (put (b_objects b) o (snr_save (b_glob b) (b_objects b o))) [(o, ui)] (b_glob b), [Ok tt]).
Proof. intros H. unfold snr_run. cbn [run act_step]. rewrite H. reflexivity. Qed.

Lemma kinds k : valid_start k = true ->
  (k = PText "cubic" \/ k = PText "spherical") \/ k = PText "full" \/ k = PText "original".
Proof.
  destruct k as [| | |s|]; try discriminate. cbn. rewrite !orb_true_iff, !String.eqb_eq. intuition congruence.
Qed.

Theorem C105_saved : forall nobg b o img kw evs, b_open b = [] ->
  Forall fine (snd (snr_run nobg b (snr_only o (img, kw) evs))) ->
  let b' := fst (snr_run nobg b (snr_only o (img, kw) (evs ++ [SSave]))) in
  exists ui, b_open b' = [(o, ui)] /\
    let c := shown (su_axes ui) in
    let r := s_val (su_radius ui) in
    let st := q_stored (b_objects b' o) in
    0 < r /\ cube_inside (shp img) c r /\ st_kind st = Some (su_kind ui) /\
    ((su_kind ui = PText "cubic" \/ su_kind ui = PText "spherical") /\
       st_signal st = Some (Some c) /\ st_radius st = Some (Some (RInt r)) \/
     (su_kind ui = PText "full" \/ su_kind ui = PText "original") /\
       st_signal st = Some None /\ st_radius st = Some None) /\
    q_auto (b_objects b' o) = Some (is_full (su_kind ui)).
Proof.
  intros nobg b o img kw evs HO F. cbv zeta. destruct (snr_only_good nobg b o img kw evs HO F) as (ui & H1 & GD & HG). exists ui.
  assert (EQ : fst (snr_run nobg b (snr_only o (img, kw) (evs ++ [SSave]))) = fst (snr_run nobg (fst (snr_run nobg b (snr_only o (img, kw) evs))) [On 0 SSave])).
  { unfold snr_only, snr_run. rewrite map_app, app_comm_cons, run_app. reflexivity. }
  rewrite EQ, (snr_saving _ _ _ _ H1). cbn [fst b_open b_objects]. split; [reflexivity|]. unfold put. rewrite Nat.eqb_refl.
  destruct HG as (G1 & G2 & G3). pose proof (snr_inside _ _ GD) as I. destruct GD as (_ & _ & _ & (_ & _ & R & _) & K & _).
  split; [lia|]. split; [exact I|]. unfold snr_save. rewrite G1, G2, G3.
  destruct (kinds _ K) as [[E|E]|[E|E]]; rewrite E; cbn; tauto.
Qed.
Print Assumptions C105_saved.

(** The radius: only radii below half of the shortest axis work, and for images with two axes none works. *)
Theorem C105_radius : forall nobg b o img kw evs v, b_open b = [] ->
  Forall fine (snd (snr_run nobg b (snr_only o (img, kw) evs))) ->
  let b1 := fst (snr_run nobg b (snr_only o (img, kw) evs)) in
  let half := Z.of_nat (least (shp img) / 2)%nat in
  exists ui, b_open b1 = [(o, ui)] /\
    let old := s_val (su_radius ui) in
    let new := Z.min (Z.max v 1) half in
    snd (snr_run nobg b1 [On 0 (SRadius v)]) =
      [if new =? old then Ok tt else if half <=? new then Err TraitError
       else if (length (shp img) =? 2)%nat then Err AttributeError else Ok tt].
Proof.
  intros nobg b o img kw evs v HO F. cbv zeta. destruct (snr_only_good nobg b o img kw evs HO F) as (ui & H1 & GD & _). exists ui.
  split; [exact H1|]. set (b1 := fst _) in *. unfold snr_run. cbn [run act_step]. rewrite H1. cbn [nth_error].
  assert (EV : s_val (set_value (su_radius ui) v) = Z.min (Z.max v 1) (Z.of_nat (least (shp img) / 2)%nat)).
  { destruct GD as (_ & _ & _ & (A & B & _) & _). unfold set_value, clamp. cbn. rewrite A, B. reflexivity. }
  rewrite <- EV. destruct (Z.eqb_spec (s_val (set_value (su_radius ui) v)) (s_val (su_radius ui))) as [E|N].
  - cbn [snr_step]. rewrite (proj2 (Z.eqb_eq _ _) E). reflexivity.
  - destruct (snr_radius_ok nobg img ui (b_objects b1 o) (b_glob b1) v GD N) as [A B].
    destruct (Z.leb_spec (Z.of_nat (least (shp img) / 2)%nat) (s_val (set_value (su_radius ui) v))) as [X|X].
    + specialize (B X). destruct (snr_step _ _ _ _ _) as [[[u p] g] r]. cbn in B |- *. congruence.
    + destruct (A X) as [_ ->]. destruct (length (shp img) =? 2)%nat; reflexivity.
Qed.
Print Assumptions C105_radius.

(** In the 2D case the slider has moved nevertheless. "Save" then stores the radius from before, unless
    the new limits have moved a coordinate of the centre. *)
Lemma refit_all r l : Forall (fun a : axis => r + 1 <= s_val (snd a) <= Z.of_nat (fst a) - (r + 1)) l ->
  map (fun a : axis => s_val (snd a)) (map (refit r) l) = map (fun a : axis => s_val (snd a)) l.
Proof.
  intros F. rewrite map_map. apply map_ext_in. intros a Ha. rewrite Forall_forall in F. specialize (F a Ha).
  unfold refit. cbn [snd s_val]. unfold clamp. lia.
Qed.
Lemma refit_all_conv r l : map (fun a : axis => s_val (snd a)) (map (refit r) l) = map (fun a : axis => s_val (snd a)) l ->
  Forall (fun a : axis => 2 * r + 2 <= Z.of_nat (fst a)) l -> Forall (fun a : axis => r + 1 <= s_val (snd a) <= Z.of_nat (fst a) - (r + 1)) l.
Proof.
  intros E F. induction F as [|a l Fa F IH]; [constructor|]. cbn [map] in E. injection E as E1 E2. constructor; [|exact (IH E2)].
  unfold clamp in E1. lia.
Qed.

Theorem C105_radius_2d : forall nobg b o img kw evs v, b_open b = [] -> length (shp img) = 2%nat ->
  Forall fine (snd (snr_run nobg b (snr_only o (img, kw) evs))) ->
  let b1 := fst (snr_run nobg b (snr_only o (img, kw) evs)) in
  let b2 := fst (snr_run nobg b1 [On 0 (SRadius v); On 0 SSave]) in
  exists ui ui', b_open b1 = [(o, ui)] /\ b_open b2 = [(o, ui')] /\
    let old := s_val (su_radius ui) in
    let new := s_val (su_radius ui') in
    new = Z.min (Z.max v 1) (Z.of_nat (least (shp img) / 2)%nat) /\
    (new <> old -> new < Z.of_nat (least (shp img) / 2)%nat -> su_kind ui = PText "cubic" \/ su_kind ui = PText "spherical" ->
     let inside := Forall (fun a : axis => new + 1 <= s_val (snd a) <= Z.of_nat (fst a) - (new + 1)) (su_axes ui) in
     (inside -> st_radius (q_stored (b_objects b2 o)) = Some (Some (RInt old))) /\
     (~ inside -> st_radius (q_stored (b_objects b2 o)) = Some (Some (RInt new)))).
Proof.
  intros nobg b o img kw evs v HO L2 F. cbv zeta. destruct (snr_only_good nobg b o img kw evs HO F) as (ui & H1 & GD & HG). exists ui.
  set (b1 := fst (snr_run nobg b _)) in *.
  assert (EV : s_val (set_value (su_radius ui) v) = Z.min (Z.max v 1) (Z.of_nat (least (shp img) / 2)%nat)).
  { destruct GD as (_ & _ & _ & (A & B & _) & _). unfold set_value, clamp. cbn. rewrite A, B. reflexivity. }
  change [On 0 (SRadius v); On 0 SSave] with ([On 0 (SRadius v)] ++ [On 0 SSave] : list snr_act). unfold snr_run. rewrite run_app. cbn [fst].
  fold (snr_run nobg b1 [On 0 (SRadius v)]). set (bm := fst (snr_run nobg b1 [On 0 (SRadius v)])).
  assert (EM : bm = let '(ui', p, g, _) := snr_step nobg ui (b_objects b1 o) (b_glob b1) (SRadius v) in Book (put (b_objects b1) o p) [(o, ui')] g).
  { unfold bm, snr_run. cbn [run act_step]. rewrite H1. cbn [nth_error upd]. destruct (snr_step _ _ _ _ _) as [[[u p] g] x]. reflexivity. }
  destruct (snr_step nobg ui (b_objects b1 o) (b_glob b1) (SRadius v)) as [[[ui' p] g] x] eqn:ES.
  exists ui'. split; [exact H1|].
  assert (HM : b_open bm = [(o, ui')]) by (rewrite EM; reflexivity).
  fold (snr_run nobg bm [On 0 SSave]). rewrite (snr_saving _ _ _ _ HM). cbn [fst b_open b_objects]. split; [reflexivity|].
  assert (EU : su_radius ui' = set_value (su_radius ui) v).
  { revert ES. cbn [snr_step]. destruct (Z.eqb_spec (s_val (set_value (su_radius ui) v)) (s_val (su_radius ui))) as [E|N].
    - intros H. assert (ui' = ui) by congruence. subst ui'. destruct (su_radius ui) as [lo hi w]. unfold set_value in E |- *. cbn in E |- *. congruence.
    - destruct (update_axes _ _ _ _ _) as [[l g'] [[]|e]]; [|intros H; injection H as <- _ _ _; reflexivity].
      destruct (length l =? 2)%nat; intros H; injection H as <- _ _ _; reflexivity. }
  rewrite EU. split; [exact EV|]. intros N X K.
  destruct (snr_radius_ok nobg img ui (b_objects b1 o) (b_glob b1) v GD N) as [A _]. destruct (A X) as [_ EQ]. rewrite L2 in EQ. cbn [Nat.eqb] in EQ.
  assert (G : g = if list_eq_dec Z.eq_dec (map (fun a => s_val (snd a)) (map (refit (s_val (set_value (su_radius ui) v))) (su_axes ui))) (map (fun a => s_val (snd a)) (su_axes ui))
                  then b_glob b1 else ui_draw (with_axes ui (set_value (su_radius ui) v) (map (refit (s_val (set_value (su_radius ui) v))) (su_axes ui))) (b_glob b1)) by congruence.
  rewrite EM. cbn [b_glob b_objects]. unfold put. rewrite !Nat.eqb_refl. destruct HG as (G1 & G2 & G3). split; intros I.
  - apply refit_all in I. destruct (list_eq_dec Z.eq_dec _ _) as [_|NE] in G; [|contradiction NE; exact I]. subst g.
    unfold snr_save. rewrite G1, G2, G3. destruct K as [-> | ->]; reflexivity.
  - destruct (list_eq_dec Z.eq_dec _ _) as [E|_] in G.
    + exfalso. apply I. apply (refit_all_conv _ _ E). apply (snr_axes_fit img ui _ GD). exact X.
    + subst g. unfold snr_save, ui_draw, with_axes, snr_draw. cbn [sg_kind sg_center sg_radius su_kind su_radius su_axes]. destruct K as [-> | ->]; reflexivity.
Qed.
Print Assumptions C105_radius_2d.

(** Sliders show radius 2, radius 1 is stored. *)
Theorem C105_refuted : exists nobg b o img kw evs ui,
  let b' := fst (snr_run nobg b (snr_only o (img, kw) (evs ++ [SSave]))) in
  b_open b = [] /\ snd (snr_run nobg b (snr_only o (img, kw) evs)) = [Ok tt; Err AttributeError] /\
  b_open b' = [(o, ui)] /\ su_kind ui = PText "cubic" /\ s_val (su_radius ui) = 2 /\
  st_radius (q_stored (b_objects b' o)) = Some (Some (RInt 1)).
Proof.
  exists (fun _ _ => 0%nat), (Book (fun _ => no_snr) [] no_glob), 0%nat, (blank 10 10), (SnrKw None None None None None None), [SRadius 2].
  exists (SnrUi (blank 10 10) (Slider 1 5 2) [(10%nat, Slider 3 7 5); (10%nat, Slider 3 7 5)] (PText "cubic") (Slider 1 10 2) (Slider 0 100 90) (Slider 0 100 99)).
  cbv zeta. split; [reflexivity|]. split; [vm_compute; reflexivity|]. split; [vm_compute; reflexivity|]. split; [reflexivity|]. split; [reflexivity|]. vm_compute. reflexivity.
Qed.
Print Assumptions C105_refuted.

Example C105_ex :
  let img := Arr [8; 9; 10]%nat (repeat 0%R 720) in
  let '(b', rs) := snr_run (fun _ _ => 0%nat) (Book (fun _ => no_snr) [] no_glob)
     (snr_only 3 (img, SnrKw None None None None None None) [SRadius 3; SMove 1 100; SKind (PText "spherical"); SSave]) in
  rs = [Ok tt; Ok tt; Ok tt; Ok tt; Ok tt] /\
  q_stored (b_objects b' 3%nat) = Stored (Some (Some [CInt 4; CInt 5; CInt 5])) None (Some (Some (RInt 3))) (Some (PText "spherical")).
Proof. vm_compute. split; reflexivity. Qed.

(** C106: "Calculate Full Region" needs a lower threshold below the upper one; else there is no foreground. *)
Lemma size_pos s r : 0 <= r -> Forall (fun n => 2 * r + 2 <= Z.of_nat n) s -> (0 < size s)%nat.
Proof. intros Hr F. induction F as [|n l Hn F IH]; [cbn; lia|]. change (0 < n * size l)%nat. apply Nat.mul_pos_pos; [lia|exact IH]. Qed.

Lemma good_data img ui : wf img -> snr_good img ui -> dat img <> [].
Proof.
  intros W (_ & L & _ & (_ & _ & R & _) & _) E. unfold wf in W. rewrite E in W.
  assert (H0 : 0 < Z.of_nat (least (shp img) / 2)%nat) by lia. apply half_fits in H0.
  apply (least_fits (shp img) 0) in H0; [|intros X; rewrite X in L; destruct L; discriminate].
  apply size_pos in H0; [cbn in W; lia|lia].
Qed.

Lemma no_foreground nobg img ui p g : wf img -> is_colour (shp img) = false -> snr_good img ui ->
  s_val (su_upper ui) <= s_val (su_lower ui) ->
  snr_step nobg ui p g SCalculate = (ui, p, g, Err ValueError).
Proof.
  intros W C GD LE. pose proof (good_data _ _ W GD) as NE. destruct GD as (EI & _ & _ & _ & _ & (_ & _ & P1) & (_ & _ & P2)).
  cbn [snr_step]. rewrite EI. unfold full_region, get_binary. rewrite C. cbn [bind].
  assert (I1 : (0 <= IZR (s_val (su_lower ui)) <= 100)%R) by (split; [apply (IZR_le 0)|apply (IZR_le _ 100)]; lia).
  assert (I2 : (0 <= IZR (s_val (su_upper ui)) <= 100)%R) by (split; [apply (IZR_le 0)|apply (IZR_le _ 100)]; lia).
  destruct (percentile (dat img) (IZR (s_val (su_lower ui)))) as [lo|] eqn:E1; [|rewrite percentile_eq in E1 by assumption; discriminate].
  destruct (percentile (dat img) (IZR (s_val (su_upper ui)))) as [hi|] eqn:E2; [|rewrite percentile_eq in E2 by assumption; discriminate].
  assert (HL : (hi <= lo)%R) by (apply (percentile_mono (dat img) _ _ _ _ (IZR_le _ _ LE) E2 E1)).
  cbn [bind]. unfold find_largest_region. match goal with |- context [existsb (fun b => b) (dat ?m)] => assert (X : existsb (fun b => b) (dat m) = false) end.
  { unfold amap. cbn [dat]. apply not_true_iff_false. rewrite existsb_exists. intros (b & Hb & ->). apply in_map_iff in Hb as (x & Hx & _).
    destruct (Rlt_dec lo x), (Rle_dec x hi); cbn in Hx; try discriminate. lra. }
  rewrite X. reflexivity.
Qed.

Theorem C106_thresholds : forall nobg b o img kw evs, b_open b = [] -> wf img -> is_colour (shp img) = false ->
  Forall fine (snd (snr_run nobg b (snr_only o (img, kw) evs))) ->
  let b1 := fst (snr_run nobg b (snr_only o (img, kw) evs)) in
  exists ui, b_open b1 = [(o, ui)] /\ 0 <= s_val (su_lower ui) <= 100 /\ 0 <= s_val (su_upper ui) <= 100 /\
    (s_val (su_upper ui) <= s_val (su_lower ui) -> snd (snr_run nobg b1 [On 0 SCalculate]) = [Err ValueError]).
Proof.
  intros nobg b o img kw evs HO W C F. cbv zeta. destruct (snr_only_good nobg b o img kw evs HO F) as (ui & H1 & GD & _). exists ui.
  split; [exact H1|]. pose proof GD as (_ & _ & _ & _ & _ & (_ & _ & P1) & (_ & _ & P2)). split; [exact P1|]. split; [exact P2|]. intros LE.
  unfold snr_run at 1. cbn [run act_step]. rewrite H1. cbn [nth_error]. rewrite (no_foreground nobg img ui _ _ W C GD LE). reflexivity.
Qed.
Print Assumptions C106_thresholds.

(** With the thresholds 0 and 100 it works for every image that is not constant. *)
Theorem C106_possible : forall nobg img it kind x y, wf img -> length (shp img) = 2%nat \/ grey3 (shp img) = true ->
  In x (dat img) -> In y (dat img) -> x <> y -> kind = KFull \/ kind = KOriginal ->
  exists r, full_region nobg img 0 100 it kind = Ok r.
Proof.
  intros nobg img it kind x y W G Hx Hy N K. assert (NE : dat img <> []) by (destruct (dat img); [contradiction|discriminate]).
  assert (C : is_colour (shp img) = false).
  { unfold is_colour. destruct G as [->|G]; [reflexivity|]. unfold grey3 in G. apply andb_true_iff in G as [_ G]. apply Nat.ltb_lt in G.
    destruct (Nat.eqb_spec (last (shp img) 0%nat) 3); [lia|]. apply andb_false_r. }
  unfold full_region, get_binary. rewrite C. cbn [bind].
  destruct (percentile (dat img) 0) as [lo|] eqn:E1; [|rewrite percentile_eq in E1 by (assumption || lra); discriminate].
  destruct (percentile (dat img) 100) as [hi|] eqn:E2; [|rewrite percentile_eq in E2 by (assumption || lra); discriminate].
  apply percentile_0 in E1 as [I1 M1]. apply percentile_100 in E2 as [I2 M2].
  assert (LT : (lo < hi)%R).
  { pose proof (M1 x Hx). pose proof (M1 y Hy). pose proof (M2 x Hx). pose proof (M2 y Hy). destruct (Rtotal_order x y) as [?|[?|?]]; [lra|contradiction|lra]. }
  cbn [bind]. set (m := amap _ img). assert (Sm : shp m = shp img) by reflexivity.
  assert (T : existsb (fun b => b) (dat m) = true).
  { apply existsb_exists. exists true. split; [|reflexivity]. unfold m, amap. cbn [dat]. apply in_map_iff. exists hi. split; [|exact I2].
    destruct (Rlt_dec lo hi), (Rle_dec hi hi); cbn; try reflexivity; lra. }
  assert (B : existsb negb (dat m) = true).
  { apply existsb_exists. exists false. split; [|reflexivity]. unfold m, amap. cbn [dat]. apply in_map_iff. exists lo. split; [|exact I1].
    destruct (Rlt_dec lo lo); [lra|reflexivity]. }
  clearbody m. unfold find_largest_region. rewrite T, B, Sm, C. cbn [andb negb].
  assert (GB : ((length (shp img) =? 2)%nat || grey3 (shp img)) = true) by (destruct G as [->| ->]; [reflexivity|apply orb_true_r]).
  rewrite GB. assert (Sc : shp (cleaned it m) = shp img) by (rewrite shp_cleaned; exact Sm).
  destruct (argmax_idx _ (indices (shp (cleaned it m)))) as [ce|] eqn:EA.
  2:{ exfalso. unfold argmax_idx in EA. destruct (indices (shp (cleaned it m))) eqn:EI; [|discriminate].
      rewrite Sc in EI. pose proof (length_indices (shp img)) as IL. rewrite EI in IL. unfold wf in W. rewrite <- IL in W. destruct (dat img); [contradiction|discriminate]. }
  destruct K as [-> | ->]; cbn [bind]; unfold masked_by; [rewrite Sc|rewrite Sm]; rewrite Nat.eqb_refl; eauto.
Qed.
Print Assumptions C106_possible.

(** set_centers stores None for iterations and thresholds (unless the region type is "full"). When it is
    called again, these are taken, not the documented defaults: the sliders then stand at 1, 0 and 0, and
    "Calculate Full Region" fails. *)
Theorem C106_reopened : forall nobg b o img kw img2 kw2 b',
  snr_run nobg b [Open o (img, kw); Open o (img2, kw2)] = (b', [Ok tt; Ok tt]) ->
  or_else (sk_kind kw) (or_else (st_kind (q_stored (b_objects b o))) (PText "cubic")) <> PText "full" ->
  sk_iterations kw2 = None -> sk_lower kw2 = None -> sk_upper kw2 = None ->
  exists u1 u2, b_open b' = b_open b ++ [(o, u1); (o, u2)] /\
    s_val (su_iterations u2) = 1 /\ s_val (su_lower u2) = 0 /\ s_val (su_upper u2) = 0 /\
    (wf img2 -> is_colour (shp img2) = false ->
     snd (snr_run nobg b' [On (length (b_open b) + 1) SCalculate]) = [Err ValueError]).
Proof.
  intros nobg b o img kw img2 kw2 b' HR K Ki Kl Ku. unfold snr_run in HR. cbn [run act_step fst snd] in HR.
  destruct (snr_open img kw (b_objects b o) (b_glob b)) as [[[u1|e1] p1] g1] eqn:E1.
  2:{ cbn [b_objects] in HR. destruct (snr_open img2 kw2 _ _) as [[[?|?] ?] ?]; discriminate. }
  cbn [b_objects b_glob b_open] in HR. unfold put at 1 in HR. rewrite Nat.eqb_refl in HR.
  destruct (snr_open img2 kw2 p1 g1) as [[[u2|e2] p2] g2] eqn:E2; [|discriminate].
  assert (EB : b' = Book (put (put (b_objects b) o p1) o p2) ((b_open b ++ [(o, u1)]) ++ [(o, u2)]) g2) by congruence. clear HR.
  assert (P1 : q_iterations p1 = Some None /\ q_lower p1 = Some None /\ q_upper p1 = Some None).
  { unfold snr_open in E1. destruct (snr_start _ _ _ _ _) as [st|] eqn:ES; [|discriminate]. destruct (bind _ _); [|discriminate].
    assert (p1 = snr_save (snr_first (shp img) kw (b_objects b o) (b_glob b)) (b_objects b o)) as -> by congruence.
    pose proof (snr_start_valid _ _ _ _ _ _ ES) as V. apply kinds in V.
    assert (EK : or_else (sk_kind kw) (or_else (st_kind (q_stored (b_objects b o))) (PText "cubic")) = first_of (sk_kind kw) (st_kind (q_stored (b_objects b o))) (PText "cubic")).
    { unfold first_of. destruct (sk_kind kw), (st_kind (q_stored (b_objects b o))); reflexivity. }
    rewrite EK in K. unfold snr_save. cbn [snr_first sg_kind].
    destruct V as [[V|V]|[V|V]]; rewrite V in K |- *; try (contradiction K; reflexivity); cbn; auto. }
  destruct P1 as (Q1 & Q2 & Q3).
  pose proof (snr_open_good _ _ _ _ _ _ _ E2) as (GD & _ & V1 & V2 & V3). rewrite Ki, Q1 in V1. rewrite Kl, Q2 in V2. rewrite Ku, Q3 in V3.
  change (s_val (su_iterations u2) = 1) in V1. change (s_val (su_lower u2) = 0) in V2. change (s_val (su_upper u2) = 0) in V3.
  exists u1, u2. rewrite EB. cbn [b_open]. rewrite <- app_assoc. split; [reflexivity|]. split; [exact V1|]. split; [exact V2|]. split; [exact V3|].
  intros W C. unfold snr_run. cbn [run act_step b_open].
  rewrite nth_error_app2 by lia. replace (length (b_open b) + 1 - length (b_open b))%nat with 1%nat by lia. cbn [app nth_error].
  rewrite (no_foreground nobg img2 u2 _ _ W C GD) by lia. reflexivity.
Qed.
Print Assumptions C106_reopened.

Example C106_ex :
  let kw := SnrKw None None None None None None in
  let '(b', rs) := snr_run (fun _ _ => 0%nat) (Book (fun _ => no_snr) [] no_glob) [Open 0 (blank 10 10, kw); Open 0 (blank 10 10, kw)] in
  rs = [Ok tt; Ok tt] /\
  map (fun u : nat * snr_ui => (s_val (su_iterations (snd u)), s_val (su_lower (snd u)), s_val (su_upper (snd u)))) (b_open b') = [(2, 90, 99); (1, 0, 0)].
Proof. vm_compute. split; reflexivity. Qed.

(** C107: saving "full" stores the region calculated last in any user interface, of whatever image. *)
Theorem C107_stale : forall nobg b i oi ui, nth_error (b_open b) i = Some (oi, ui) ->
  su_kind ui <> PText "full" -> valid_start (su_kind ui) = true ->
  let b' := fst (snr_run nobg b [On i (SKind (PText "full")); On i SSave]) in
  let p := b_objects b' oi in
  let g := b_glob b in
  q_region p = sg_signal g /\ q_iterations p = Some (sg_iterations g) /\ q_lower p = Some (sg_lower g) /\
  q_upper p = Some (sg_upper g) /\ q_auto p = Some true /\
  st_signal (q_stored p) = Some None /\ st_radius (q_stored p) = Some None /\ st_kind (q_stored p) = Some (PText "full").
Proof.
  intros nobg b i oi ui Hi K V. cbv zeta. unfold snr_run. cbn [run act_step]. rewrite Hi. cbn [snr_step].
  assert (EC : choose ui (PText "full") (b_glob b) = (with_kind ui (PText "full"), ui_draw (with_kind ui (PText "full")) (b_glob b), Ok tt)).
  { unfold choose. cbn [valid_start negb existsb]. apply kinds in V. destruct V as [[E|E]|[E|E]]; rewrite E in K |- *; try reflexivity. contradiction K; reflexivity. }
  rewrite EC. cbn [b_open]. rewrite nth_error_upd_eq by (apply nth_error_Some; congruence). cbn [snr_step fst b_objects b_glob]. unfold put. rewrite Nat.eqb_refl.
  unfold snr_save, ui_draw, with_kind, snr_draw. cbn. tauto.
Qed.
Print Assumptions C107_stale.

(** Calculated in j, saved in i: the object of i gets the region of the image of j. *)
Theorem C107_other : forall nobg b i j oi oj ui uj, i <> j ->
  nth_error (b_open b) i = Some (oi, ui) -> nth_error (b_open b) j = Some (oj, uj) ->
  su_kind ui <> PText "full" -> valid_start (su_kind ui) = true ->
  snd (snr_run nobg b [On j SCalculate]) = [Ok tt] ->
  let b' := fst (snr_run nobg b [On j SCalculate; On i (SKind (PText "full")); On i SSave]) in
  exists r, full_region nobg (su_img uj) (s_val (su_lower uj)) (s_val (su_upper uj)) (s_val (su_iterations uj)) (kind_of_val (sg_kind (b_glob b))) = Ok r /\
    q_region (b_objects b' oi) = Some r /\ q_iterations (b_objects b' oi) = Some (Some (s_val (su_iterations uj))) /\
    q_lower (b_objects b' oi) = Some (Some (s_val (su_lower uj))) /\ q_upper (b_objects b' oi) = Some (Some (s_val (su_upper uj))).
Proof.
  intros nobg b i j oi oj ui uj N Hi Hj K V HC. cbv zeta.
  change [On j SCalculate; On i (SKind (PText "full")); On i SSave] with ([On j SCalculate] ++ [On i (SKind (PText "full")); On i SSave] : list snr_act).
  assert (RA : fst (snr_run nobg b ([On j SCalculate] ++ [On i (SKind (PText "full")); On i SSave])) =
               fst (snr_run nobg (fst (snr_run nobg b [On j SCalculate])) [On i (SKind (PText "full")); On i SSave])).
  { unfold snr_run. rewrite run_app. reflexivity. }
  rewrite RA. clear RA.
  assert (ST : exists r uj' p' , full_region nobg (su_img uj) (s_val (su_lower uj)) (s_val (su_upper uj)) (s_val (su_iterations uj)) (kind_of_val (sg_kind (b_glob b))) = Ok r /\
     b_open (fst (snr_run nobg b [On j SCalculate])) = upd (b_open b) j (oj, uj') /\ p' = b_glob (fst (snr_run nobg b [On j SCalculate])) /\
     sg_signal p' = Some r /\ sg_iterations p' = Some (s_val (su_iterations uj)) /\ sg_lower p' = Some (s_val (su_lower uj)) /\ sg_upper p' = Some (s_val (su_upper uj))).
  { unfold snr_run in *. cbn [run act_step] in *. rewrite Hj in *. cbn [snr_step] in *.
    destruct (full_region nobg _ _ _ _ _) as [r|e]; [|discriminate]. exists r.
    unfold choose in *. cbn [valid_start negb existsb orb String.eqb Ascii.eqb Bool.eqb] in *.
    destruct (su_kind uj) as [| | |s|]; try (eexists _, _; cbn; repeat split; reflexivity).
    destruct (String.eqb s "full"); eexists _, _; cbn; repeat split; reflexivity. }
  destruct ST as (r & uj' & g' & FR & HO & Eg & S1 & S2 & S3 & S4). exists r. split; [exact FR|].
  set (b1 := fst (snr_run nobg b [On j SCalculate])) in *.
  assert (Hi' : nth_error (b_open b1) i = Some (oi, ui)) by (rewrite HO, nth_error_upd_neq by congruence; exact Hi).
  destruct (C107_stale nobg b1 i oi ui Hi' K V) as (A1 & A2 & A3 & A4 & _). rewrite A1, A2, A3, A4, <- Eg, S1, S2, S3, S4. auto.
Qed.
Print Assumptions C107_other.

(** What is calculated depends on the region type chosen at that moment: for "original" the binary image
    is not cleaned. The dropdown changes to "full" then, so a second click may give another region. *)
Theorem C107_kind : forall nobg img lo hi it kind r, is_colour (shp img) = false ->
  full_region nobg img lo hi it kind = Ok r ->
  exists m, get_binary img (IZR lo) (IZR hi) = Ok m /\
    r = Masked (masked img (at_ (match kind with KOriginal => m | _ => cleaned it m end))).
Proof.
  intros nobg img lo hi it kind r C H. unfold full_region in H. apply bind_ok in H as (m & Em & H). exists m. split; [exact Em|].
  apply bind_ok in H as ([[c rad] m'] & Ef & H). unfold find_largest_region in Ef.
  destruct (negb _); [discriminate|]. destruct (is_colour (shp m)); [discriminate|]. destruct (_ || _); [|discriminate].
  destruct (argmax_idx _ _) as [ce|]; [|discriminate]. apply bind_ok in Ef as (u & _ & Ef). injection Ef as _ _ <-.
  unfold masked_by in H. destruct (_ =? _)%nat; [|discriminate]. injection H as <-. destruct kind; reflexivity.
Qed.
Print Assumptions C107_kind.

Theorem C107_twice : forall nobg b j oj uj, nth_error (b_open b) j = Some (oj, uj) -> su_kind uj = PText "original" -> synced uj (b_glob b) ->
  is_colour (shp (su_img uj)) = false -> 
  snd (snr_run nobg b [On j SCalculate; On j SCalculate]) = [Ok tt; Ok tt] ->
  exists m, get_binary (su_img uj) (IZR (s_val (su_lower uj))) (IZR (s_val (su_upper uj))) = Ok m /\
    sg_signal (b_glob (fst (snr_run nobg b [On j SCalculate]))) = Some (Masked (masked (su_img uj) (at_ m))) /\
    sg_signal (b_glob (fst (snr_run nobg b [On j SCalculate; On j SCalculate]))) =
      Some (Masked (masked (su_img uj) (at_ (cleaned (s_val (su_iterations uj)) m)))).
Proof.
  intros nobg b j oj uj Hj K (_ & _ & SK) C HR.
  assert (H1 : snd (snr_run nobg b [On j SCalculate]) = snd (snr_run nobg b [On j SCalculate]) -> snd (snr_run nobg b [On j SCalculate]) = [Ok tt]).
  { intros _. change [On j SCalculate; On j SCalculate] with ([On j SCalculate] ++ [On j SCalculate] : list snr_act) in HR. unfold snr_run in HR |- *.
    rewrite run_app in HR. cbn [snd] in HR. cbn [run] in HR |- *. destruct (act_step _ _ b (On j SCalculate)) as [b1 r1].
    destruct (act_step _ _ _ _) as [b2 r2] in HR. cbn in HR |- *. congruence. }
  unfold snr_run in *. cbn [run act_step] in *. rewrite Hj in *. cbn [snr_step] in *.
  rewrite SK, K in *. change (kind_of_val (PText "original")) with KOriginal in *.
  destruct (full_region nobg _ _ _ _ KOriginal) as [r|] eqn:F1; [|discriminate (H1 eq_refl)].
  apply C107_kind in F1 as (m & Em & ->); [|exact C]. exists m. split; [exact Em|].
  unfold choose in *. rewrite K in *. cbn [valid_start negb existsb orb String.eqb Ascii.eqb Bool.eqb] in *.
  cbn [b_open] in *. rewrite nth_error_upd_eq in * by (apply nth_error_Some; congruence). cbn [fst b_glob]. split; [reflexivity|].
  cbn [snr_step with_kind su_img su_lower su_upper su_iterations b_glob ui_draw snr_draw sg_kind su_kind] in *. change (kind_of_val (PText "full")) with KFull in *.
  destruct (full_region nobg _ _ _ _ KFull) as [r|] eqn:F2; [|discriminate].
  apply C107_kind in F2 as (m' & Em' & ->); [|exact C]. assert (m' = m) by congruence. subst m'. reflexivity.
Qed.
Print Assumptions C107_twice.

Example C107_ex :
  let kw := SnrKw None None None None None None in
  let other := Some (Whole (blank 4 4)) in
  let '(b', rs) := snr_run (fun _ _ => 0%nat) (Book (fun _ => no_snr) [] (SnrGlob None ROther PNone (Some 2) (Some 90) (Some 99) other))
                     [Open 0 (blank 10 10, kw); On 0 (SKind (PText "full")); On 0 SSave] in
  rs = [Ok tt; Ok tt; Ok tt] /\ q_region (b_objects b' 0%nat) = other.
Proof. vm_compute. split; reflexivity. Qed.
