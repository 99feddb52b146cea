(** C122: scores of images that are mirrored, transposed or rotated together. *)
From Coq Require Import Reals Lra Psatz Permutation.
From Verif Require Import Base NdArray LoadModel LoadProofs NormModel NormProofs PairModel PairProofs RealSums
  MetricModel MetricProofs SsimModel SsimProofs SsimProps SsimSymProofs GsmModel GsmProofs.
Local Open Scope R_scope.

(** np.flip(m, ax), np.swapaxes(m, i, j) and np.rot90(m, axes=(i, j)); every transposition and rotation
    by right angles is a sequence of these. *)
Inductive move := Mirror (ax : nat) | Exchange (i j : nat) | Turn (i j : nat).

Definition moved1 (o : move) (a : arr R) : res (arr R) :=
  match o with
  | Mirror ax => flip_ax a ax
  | Exchange i j => if (length (shp a) <=? i)%nat || (length (shp a) <=? j)%nat then Err ValueError else swap_axes a i j
  | Turn i j => rot90 a i j
  end.

Fixpoint moved (l : list move) (a : arr R) : res (arr R) :=
  match l with [] => Ok a | o :: l' => let* b := moved1 o a in moved l' b end.

(** What a function of two images has to satisfy for each move. *)
Lemma moved_invariant {X} (F : arr R -> arr R -> X) :
  (forall r m r' m' ax, wf r -> wf m -> shp m = shp r -> (ax < length (shp r))%nat ->
     flip_ax r ax = Ok r' -> flip_ax m ax = Ok m' -> F r' m' = F r m) ->
  (forall r m r' m' i j, wf r -> wf m -> shp m = shp r -> (i < length (shp r))%nat -> (j < length (shp r))%nat ->
     swap_axes r i j = Ok r' -> swap_axes m i j = Ok m' -> F r' m' = F r m) ->
  forall l r m r' m', wf r -> wf m -> shp m = shp r -> moved l r = Ok r' -> moved l m = Ok m' ->
    F r' m' = F r m /\ wf r' /\ wf m' /\ shp m' = shp r'.
Proof.
  intros Hf Hs.
  assert (Kf : forall r m r' m' ax, wf r -> wf m -> shp m = shp r -> flip_ax r ax = Ok r' -> flip_ax m ax = Ok m' ->
     F r' m' = F r m /\ wf r' /\ wf m' /\ shp m' = shp r' /\ shp r' = shp r).
  { intros r m r' m' ax Wr Wm Es Er Em.
    assert (Hax : (ax < length (shp r))%nat).
    { unfold flip_ax in Er. destruct (Nat.leb_spec (length (shp r)) ax); [discriminate|assumption]. }
    destruct (flip_related r r' ax Wr Hax Er) as [(S1 & _) W1].
    destruct (flip_related m m' ax Wm) as [(S2 & _) W2]; [rewrite Es; exact Hax|exact Em|].
    split; [apply (Hf r m r' m' ax); assumption|]. rewrite S1, S2. auto. }
  assert (Ks : forall r m r' m' i j, wf r -> wf m -> shp m = shp r -> (i < length (shp r))%nat -> (j < length (shp r))%nat ->
     swap_axes r i j = Ok r' -> swap_axes m i j = Ok m' -> F r' m' = F r m /\ wf r' /\ wf m' /\ shp m' = shp r').
  { intros r m r' m' i j Wr Wm Es Hi Hj Er Em.
    destruct (swap_related r r' i j Wr Hi Hj Er) as [(S1 & _) W1].
    destruct (swap_related m m' i j Wm) as [(S2 & _) W2]; try (rewrite Es; assumption); [exact Em|].
    split; [apply (Hs r m r' m' i j); assumption|]. rewrite S1, S2, Es. auto. }
  induction l as [|o l IH]; intros r m r' m' Wr Wm Es Er Em; simpl in Er, Em.
  - injection Er as <-. injection Em as <-. auto.
  - apply bind_ok in Er as (r1 & E1 & Er). apply bind_ok in Em as (m1 & F1 & Em).
    assert (K : F r1 m1 = F r m /\ wf r1 /\ wf m1 /\ shp m1 = shp r1).
    { destruct o as [ax|i j|i j]; cbn [moved1] in E1, F1.
      - destruct (Kf r m r1 m1 ax) as (A & B & C & D & _); auto.
      - rewrite Es in F1. destruct (Nat.leb_spec (length (shp r)) i); [discriminate|].
        destruct (Nat.leb_spec (length (shp r)) j); [discriminate|]. cbn [orb] in E1, F1. apply (Ks r m r1 m1 i j); assumption.
      - unfold rot90 in E1, F1. rewrite Es in F1. destruct (Nat.leb_spec (length (shp r)) i); [discriminate|].
        destruct (Nat.leb_spec (length (shp r)) j); [discriminate|]. cbn [orb] in E1, F1.
        apply bind_ok in E1 as (r2 & E2 & E1). apply bind_ok in F1 as (m2 & F2 & F1).
        destruct (Kf r m r2 m2 j) as (A & B & C & D & S); auto.
        destruct (Ks r2 m2 r1 m1 i j) as (A' & B' & C' & D'); try assumption; try (rewrite S; assumption).
        split; [congruence|]. auto. }
    destruct K as (A & B & C & D). destruct (IH r1 m1 r' m' B C D Er Em) as (A' & B' & C' & D').
    split; [congruence|]. auto.
Qed.

(** C122: SSIM with all settings (a given window size is positive), including its errors. *)
Theorem C122_structural_similarity big l r m r' m' kw :
  positive_window kw -> wf r -> wf m -> shp m = shp r -> moved l r = Ok r' -> moved l m = Ok m' ->
  structural_similarity big r' m' kw = structural_similarity big r m kw.
Proof.
  intros Hw Wr Wm Es Er Em.
  apply (moved_invariant (fun a b => structural_similarity big a b kw)) with (l := l); try assumption.
  - intros a b a' b' ax Wa Wb E Hax Ea Eb. apply (ssim_flip big a a' b b' ax kw); assumption.
  - intros a b a' b' i j Wa Wb E Hi Hj Ea Eb. apply (ssim_swap big a a' b b' i j kw); assumption.
Qed.
Print Assumptions C122_structural_similarity.

(** SSIM.score of grey images and UQI.score. *)
Theorem C122_scores big l r m r' m' dr w kw :
  positive_window kw -> wf r -> wf m -> shp m = shp r -> moved l r = Ok r' -> moved l m = Ok m' ->
  ssim_score big dr false r' m' w kw = ssim_score big dr false r m w kw /\
  uqi_score big dr r' m' kw = uqi_score big dr r m kw.
Proof.
  intros Hw Wr Wm Es Er Em. unfold ssim_score, uqi_score. split.
  - destruct (merge_kwargs [("data_range", dr)]%string kw) as [x|] eqn:E; [|reflexivity]. cbn [bind].
    apply (C122_structural_similarity big l); try assumption. unfold merge_kwargs in E. destruct (existsb _ _); [discriminate|].
    injection E as <-. exact Hw.
  - match goal with |- context [merge_kwargs ?y kw] => destruct (merge_kwargs y kw) as [x|] eqn:E end; [|reflexivity]. cbn [bind].
    apply (C122_structural_similarity big l); try assumption. unfold merge_kwargs in E. destruct (existsb _ _); [discriminate|].
    injection E as <-. exact Hw.
Qed.
Print Assumptions C122_scores.

(** *** RMSE and PSNR: any common rearrangement of the pixels *)

Lemma sumsq_combine a b : sum_sq_diff a b = Sum (fun p => (fst p - snd p) * (fst p - snd p)) (combine a b).
Proof.
  revert b. induction a as [|x a IH]; intros [|y b]; simpl; try (rewrite Sum_nil; reflexivity).
  rewrite Sum_cons, IH. reflexivity.
Qed.

Lemma eqb_combine a b : length a = length b ->
  list_eqbR a b = forallb (fun p => if Req_EM_T (fst p) (snd p) then true else false) (combine a b).
Proof.
  revert b. induction a as [|x a IH]; intros [|y b] H; simpl in *; try discriminate; [reflexivity|].
  rewrite IH by lia. reflexivity.
Qed.

Theorem C122_pixels a b a' b' dr : length a = length b -> length a' = length b' ->
  Permutation (combine a b) (combine a' b') -> rmse a' b' = rmse a b /\ psnr dr a' b' = psnr dr a b.
Proof.
  intros Hl Hl' Hp. pose proof (Permutation_length Hp) as L. rewrite !combine_length, <- Hl, <- Hl', !Nat.min_id in L.
  assert (M : mse a' b' = mse a b).
  { unfold mse. rewrite !sumsq_combine, (Sum_perm _ _ _ Hp), L.
    destruct a, a'; try discriminate; reflexivity. }
  unfold rmse, psnr. rewrite M. split; [reflexivity|].
  assert (E : list_eqbR a' b' = list_eqbR a b).
  { rewrite !eqb_combine by assumption. apply Bool.eq_iff_eq_true. rewrite !forallb_forall.
    split; intros H x Hx; apply H; [apply (Permutation_in _ Hp)|apply (Permutation_in _ (Permutation_sym Hp))]; exact Hx. }
  rewrite E. reflexivity.
Qed.
Print Assumptions C122_pixels.

Lemma combine_map {A} (f g : A -> R) l : combine (map f l) (map g l) = map (fun x => (f x, g x)) l.
Proof. induction l as [|x l IH]; simpl; [reflexivity|]. rewrite IH. reflexivity. Qed.

Lemma pixels_related f g s' s r r' m m' : reorients f g s' s -> wf r -> wf m -> wf r' -> wf m' ->
  related f s' s r' r -> related f s' s m' m -> Permutation (combine (dat r) (dat m)) (combine (dat r') (dat m')).
Proof.
  intros Ho Wr Wm Wr' Wm' (R1 & R2 & R3) (M1 & M2 & M3).
  rewrite (dat_getd r), (dat_getd m), (dat_getd r'), (dat_getd m'), R1, R2, M1, M2, !combine_map by assumption.
  rewrite (map_ext_in _ (fun i => (getd r (f i), getd m (f i))) (indices s')).
  2:{ intros i Hi. apply in_indices in Hi. rewrite R3, M3 by exact Hi. reflexivity. }
  rewrite <- (map_map f (fun i => (getd r i, getd m i))). apply Permutation_map, Permutation_sym, (reorients_perm f g), Ho.
Qed.

(** The moves above rearrange the pixels. *)
Theorem C122_moved_pixels l r m r' m' dr :
  wf r -> wf m -> shp m = shp r -> moved l r = Ok r' -> moved l m = Ok m' ->
  rmse (dat r') (dat m') = rmse (dat r) (dat m) /\ psnr dr (dat r') (dat m') = psnr dr (dat r) (dat m).
Proof.
  intros Wr Wm Es Er Em.
  assert (L : forall a b : arr R, wf a -> wf b -> shp b = shp a -> length (dat a) = length (dat b)).
  { unfold wf. intros a b Wa Wb E. rewrite Wa, Wb, E. reflexivity. }
  assert (K : (rmse (dat r') (dat m'), psnr dr (dat r') (dat m')) = (rmse (dat r) (dat m), psnr dr (dat r) (dat m))).
  { apply (moved_invariant (fun a b => (rmse (dat a) (dat b), psnr dr (dat a) (dat b)))) with (l := l); try assumption; clear.
    - assert (L : forall a b : arr R, wf a -> wf b -> shp b = shp a -> length (dat a) = length (dat b)).
      { unfold wf. intros a b Wa Wb E. rewrite Wa, Wb, E. reflexivity. }
      intros r m r' m' ax Wr Wm Es Hax Er Em. destruct (flip_related r r' ax Wr Hax Er) as [R1 W1].
      destruct (flip_related m m' ax Wm) as [R2 W2]; [rewrite Es; exact Hax|exact Em|]. rewrite Es in R2.
      destruct (C122_pixels (dat r) (dat m) (dat r') (dat m') dr) as [-> ->]; [auto| |eapply pixels_related; try eassumption|reflexivity].
      + destruct R1 as (S1 & _), R2 as (S2 & _). apply L; congruence.
      + apply mirror_reorients, Hax.
    - assert (L : forall a b : arr R, wf a -> wf b -> shp b = shp a -> length (dat a) = length (dat b)).
      { unfold wf. intros a b Wa Wb E. rewrite Wa, Wb, E. reflexivity. }
      intros r m r' m' i j Wr Wm Es Hi Hj Er Em. destruct (swap_related r r' i j Wr Hi Hj Er) as [R1 W1].
      destruct (swap_related m m' i j Wm) as [R2 W2]; try (rewrite Es; assumption); [exact Em|]. rewrite Es in R2.
      destruct (C122_pixels (dat r) (dat m) (dat r') (dat m') dr) as [-> ->]; [auto| |eapply pixels_related; try eassumption|reflexivity].
      + destruct R1 as (S1 & _), R2 as (S2 & _). apply L; congruence.
      + apply swap_reorients; assumption. }
  injection K as K1 K2. split; assumption.
Qed.
Print Assumptions C122_moved_pixels.

(** *** GSM depends on the orientation *)

(** [0, 1] against [0, 2] and the mirrored pair: the gradients change their sign. *)
Theorem C122_gsm_refuted : exists r m r' m', flip_ax r 1 = Ok r' /\ flip_ax m 1 = Ok m' /\
  forall ucast, gradient_similarity ucast (PF r' m') 255 200 (1 / 10) <> gradient_similarity ucast (PF r m) 255 200 (1 / 10).
Proof.
  exists (two 0 1), (two 0 2), (two 1 0), (two 2 0). split; [reflexivity|]. split; [reflexivity|]. intros ucast.
  pose proof (gsm_two ucast 0 1 0 2 255 200 (1/10)) as H1. cbv zeta in H1.
  pose proof (gsm_two ucast 1 0 2 0 255 200 (1/10)) as H2. cbv zeta in H2.
  replace (16 * (1 - 0)) with 16 in H1 by lra. replace (16 * (2 - 0)) with 32 in H1 by lra.
  replace (16 * (0 - 1)) with (-16) in H2 by lra. replace (16 * (0 - 2)) with (-32) in H2 by lra.
  rewrite (Rabs_pos_eq 16), (Rabs_pos_eq 32) in H1 by lra. rewrite (Rabs_left1 (-16)), (Rabs_left1 (-32)) in H2 by lra.
  destruct (Rlt_dec 16 32) in H1; [|lra]. destruct (Rlt_dec (- -16) (- -32)) in H2; [|lra].
  rewrite Rmax_right in H1 by lra. rewrite Rmax_left in H2 by lra.
  replace (Rabs (16 - 32)) with 16 in H1 by (rewrite Rabs_left1; lra).
  replace (Rabs (-16 - -32)) with 16 in H2 by (rewrite Rabs_pos_eq; lra).
  rewrite H1, H2 by lra. intros E. apply (f_equal (fun o => match o with Ok (Fin v) => v | _ => 0 end)) in E. cbv beta iota in E.
  unfold quality, con_sim, lum_sim in E. lra.
Qed.
Print Assumptions C122_gsm_refuted.

(** A volume rotated about one axis and mirrored along another. *)
Example C122_example big dr : let r := tabulate [11; 12; 13]%nat (fun idx => INR (nth 2 idx 0%nat)) in
  let m := tabulate [11; 12; 13]%nat (fun idx => INR (nth 1 idx 0%nat)) in
  exists r' m', moved [Turn 0 2; Mirror 1] r = Ok r' /\ moved [Turn 0 2; Mirror 1] m = Ok m' /\
    shp r' = [13; 12; 11]%nat /\
    ssim_score big dr false r' m' None [] = ssim_score big dr false r m None [].
Proof.
  intros r m.
  assert (G : forall f, exists a, moved [Turn 0 2; Mirror 1] (tabulate [11; 12; 13]%nat f) = Ok a /\ shp a = [13; 12; 11]%nat).
  { intros f. cbn [moved moved1].
    destruct (rot90_ok (tabulate [11; 12; 13]%nat f) 0 2) as (b & Hb & Sb & Wb & _);
      [apply wf_tabulate|cbn; lia|cbn; lia|lia|].
    rewrite Hb. cbn [bind]. destruct (flip_ax_ok b 1 Wb) as (c & Hc & Sc & _); [rewrite Sb; cbn; lia|].
    rewrite Hc. cbn [bind]. exists c. split; [reflexivity|]. rewrite Sc, Sb. reflexivity. }
  destruct (G (fun idx => INR (nth 2 idx 0%nat))) as (r' & Hr & Sr). destruct (G (fun idx => INR (nth 1 idx 0%nat))) as (m' & Hm & Sm).
  exists r', m'. split; [exact Hr|]. split; [exact Hm|]. split; [exact Sr|].
  refine (proj1 (C122_scores big [Turn 0 2; Mirror 1] r m r' m' dr None [] _ _ _ _ Hr Hm)).
  - intros w. discriminate.
  - apply wf_tabulate.
  - apply wf_tabulate.
  - reflexivity.
Qed.
