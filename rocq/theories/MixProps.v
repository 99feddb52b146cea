(** Averaging distorted images: property C152. *)
From Coq Require Import Reals Lra Psatz.
From Verif Require Import Base NdArray LoadModel NormModel PairModel RealSums MetricModel MetricProofs MetricProps PartsProps GsmProofs.
Local Open Scope R_scope.

(** The pixels of [t * a + (1 - t) * b]; for t = 1/2 the average of the images. *)
Definition mix (t : R) (a b : list R) : list R := map (fun p => t * fst p + (1 - t) * snd p) (combine a b).

Lemma mix_length t a b : length a = length b -> length (mix t a b) = length a.
Proof. intros H. unfold mix. rewrite map_length, combine_length, H, Nat.min_id. reflexivity. Qed.

Lemma sq_mix t r a b : length r = length a -> length r = length b ->
  sum_sq_diff r (mix t a b) = t * sum_sq_diff r a + (1 - t) * sum_sq_diff r b - t * (1 - t) * sum_sq_diff a b.
Proof.
  revert a b; induction r as [|x r IH]; intros [|y a] [|z b] Ha Hb; try discriminate; [cbn; ring|].
  unfold mix. cbn [combine map sum_sq_diff fst snd]. fold (mix t a b). rewrite IH by (injection Ha as Ha; injection Hb as Hb; assumption). ring.
Qed.

Lemma rms_square a b : a <> [] -> MetricProofs.rms a b ^ 2 = sum_sq_diff a b / INR (length a).
Proof.
  intros N. unfold MetricProofs.rms. rewrite <- sum_sq_diff_Sum, <- Rsqr_pow2. apply Rsqr_sqrt.
  apply Rmult_le_pos; [rewrite sum_sq_diff_Sum; apply Sum_nonneg; intros; apply Rle_0_sqr|].
  left. apply Rinv_0_lt_compat, lt_0_INR. destruct a; [contradiction|cbn; lia].
Qed.

Lemma rms_mix t r a b : r <> [] -> length r = length a -> length r = length b ->
  MetricProofs.rms r (mix t a b) ^ 2 = t * MetricProofs.rms r a ^ 2 + (1 - t) * MetricProofs.rms r b ^ 2 - t * (1 - t) * MetricProofs.rms a b ^ 2.
Proof.
  intros N A B. assert (NA : a <> []) by (destruct r, a; try discriminate; contradiction).
  rewrite !rms_square, sq_mix by assumption. rewrite <- A. unfold Rdiv. ring.
Qed.

(** RMSE of a mixture follows from those of the two images and that between them. *)
Theorem C152_exact : forall t r a b, r <> [] -> length r = length a -> length r = length b ->
  exists v ea eb d, rmse r (mix t a b) = Fin v /\ rmse r a = Fin ea /\ rmse r b = Fin eb /\ rmse a b = Fin d /\
    v ^ 2 = t * ea ^ 2 + (1 - t) * eb ^ 2 - t * (1 - t) * d ^ 2.
Proof.
  intros t r a b N A B. assert (NA : a <> []) by (destruct r, a; try discriminate; contradiction).
  exists (MetricProofs.rms r (mix t a b)), (MetricProofs.rms r a), (MetricProofs.rms r b), (MetricProofs.rms a b).
  repeat (split; [apply rmse_fin; assumption|]). apply rms_mix; assumption.
Qed.
Print Assumptions C152_exact.

(** It is at most the mixture of the scores, so averaging never hurts more than the worse of the images. *)
Theorem C152_convex : forall t r a b, 0 <= t <= 1 -> r <> [] -> length r = length a -> length r = length b ->
  exists v ea eb, rmse r (mix t a b) = Fin v /\ rmse r a = Fin ea /\ rmse r b = Fin eb /\
    v <= t * ea + (1 - t) * eb /\ v <= Rmax ea eb /\ (0 < t < 1 -> ea = eb -> a <> b -> v < ea).
Proof.
  intros t r a b Ht N A B. assert (NA : a <> []) by (destruct r, a; try discriminate; contradiction). assert (AB : length a = length b) by congruence.
  exists (MetricProofs.rms r (mix t a b)), (MetricProofs.rms r a), (MetricProofs.rms r b). repeat (split; [apply rmse_fin; assumption|]).
  pose proof (rms_mix t r a b N A B) as E. pose proof (rms_nonneg r (mix t a b)) as V. pose proof (rms_nonneg r a) as P. pose proof (rms_nonneg r b) as Q.
  pose proof (rms_nonneg a b) as D.
  assert (T1 : MetricProofs.rms r a <= MetricProofs.rms r b + MetricProofs.rms a b) by (rewrite (rms_sym a b AB); apply rms_triangle; [exact N|exact B|congruence]).
  assert (T2 : MetricProofs.rms r b <= MetricProofs.rms r a + MetricProofs.rms a b) by (apply rms_triangle; assumption).
  assert (Z : a <> b -> 0 < MetricProofs.rms a b).
  { intros H. destruct D as [D|D]; [exact D|]. exfalso. apply H. apply (rms_zero a b NA AB). symmetry. exact D. }
  set (v := MetricProofs.rms r (mix t a b)) in *. set (x := MetricProofs.rms r a) in *. set (y := MetricProofs.rms r b) in *. set (d := MetricProofs.rms a b) in *.
  assert (X : v <= t * x + (1 - t) * y).
  { assert (S : (x - y) ^ 2 <= d ^ 2) by (destruct (Rle_dec x y); nra).
    assert (W : 0 <= t * (1 - t)) by nra. apply Rsqr_incr_0_var; [|nra]. rewrite !Rsqr_pow2, E.
    pose proof (Rmult_le_compat_l _ _ _ W S). lra. }
  split; [exact X|]. split.
  - pose proof (Rmax_l x y). pose proof (Rmax_r x y). nra.
  - intros Ht' Exy Hab. specialize (Z Hab). rewrite <- Exy in E.
    assert (W : 0 < t * (1 - t)) by nra. assert (F : 0 < d ^ 2) by nra. pose proof (Rmult_lt_0_compat _ _ W F).
    apply Rsqr_incrst_0; [|exact V|exact P]. rewrite !Rsqr_pow2. lra.
Qed.
Print Assumptions C152_convex.

(** PSNR of a mixture is not below both of the scores. *)
Theorem C152_psnr : forall dr t r a b, 0 < dr -> 0 <= t <= 1 -> r <> [] -> length r = length a -> length r = length b ->
  ~ (elt (psnr dr r (mix t a b)) (psnr dr r a) /\ elt (psnr dr r (mix t a b)) (psnr dr r b)).
Proof.
  intros dr t r a b Hd Ht N A B. assert (AB : length a = length b) by congruence.
  assert (L : length r = length (mix t a b)) by (rewrite mix_length; assumption).
  rewrite !psnr_rank by assumption. intros [H1 H2].
  destruct (C152_convex t r a b Ht N A B) as (v & x & y & E & Ex & Ey & _ & M & _). rewrite rmse_fin in E, Ex, Ey by exact N.
  injection E as E. injection Ex as Ex. injection Ey as Ey. unfold Rmax in M. destruct (Rle_dec x y); lra.
Qed.
Print Assumptions C152_psnr.

(** The average of two images: errors orthogonal to each other leave a quarter of the sum of the squares, and the average is
    better than the first image exactly if the second is not too much worse. Opposite errors vanish. *)
Theorem C152_average : forall r a b, r <> [] -> length r = length a -> length r = length b ->
  exists v ea eb d, rmse r (mix (1 / 2) a b) = Fin v /\ rmse r a = Fin ea /\ rmse r b = Fin eb /\ rmse a b = Fin d /\
    (d ^ 2 = ea ^ 2 + eb ^ 2 -> v ^ 2 = (ea ^ 2 + eb ^ 2) / 4) /\
    (v < ea <-> eb ^ 2 - ea ^ 2 < d ^ 2 / 2) /\
    (v = 0 <-> mix (1 / 2) a b = r) /\
    (d ^ 2 = 2 * (ea ^ 2 + eb ^ 2) <-> v = 0).
Proof.
  intros r a b N A B. assert (AB : length a = length b) by congruence.
  destruct (C152_exact (1 / 2) r a b N A B) as (v & x & y & d & E & Ex & Ey & Ed & F). exists v, x, y, d.
  do 4 (split; [assumption|]).
  assert (V : 0 <= v) by (rewrite rmse_fin in E by exact N; injection E as <-; apply rms_nonneg).
  assert (X : 0 <= x) by (rewrite rmse_fin in Ex by exact N; injection Ex as <-; apply rms_nonneg).
  split; [intros H; rewrite F, H; field|]. split; [|split].
  - split; intros H.
    + assert (v ^ 2 < x ^ 2) by (rewrite <- !Rsqr_pow2; apply Rsqr_incrst_1; assumption). lra.
    + apply Rsqr_incrst_0; [|exact V|exact X]. rewrite !Rsqr_pow2. lra.
  - rewrite rmse_fin in E by exact N. injection E as <-. rewrite rms_zero by (assumption || (rewrite mix_length; assumption)). split; congruence.
  - split; intros H.
    + assert (Z : v ^ 2 = 0) by lra. rewrite <- Rsqr_pow2 in Z. apply Rsqr_0_uniq, Z.
    + rewrite H in F. replace (0 ^ 2) with 0 in F by ring. lra.
Qed.
Print Assumptions C152_average.

(** ** Averages of any number of images *)

(** The images are given by functions on the positions [l]. *)
Definition average {P I} (is : list I) (m : I -> P -> R) (p : P) : R := Sum (fun i => m i p) is / INR (length is).

Lemma sq_map {P} (f g : P -> R) l : sum_sq_diff (map f l) (map g l) = Sum (fun p => (f p - g p) * (f p - g p)) l.
Proof. induction l as [|x l IH]; [reflexivity|]. cbn [map sum_sq_diff]. rewrite Sum_cons, IH. reflexivity. Qed.

Lemma sum_orthogonal {P I} (l : list P) (is : list I) (e : I -> P -> R) : NoDup is ->
  (forall i j, In i is -> In j is -> i <> j -> Sum (fun p => e i p * e j p) l = 0) ->
  Sum (fun p => Sum (fun i => e i p) is * Sum (fun i => e i p) is) l = Sum (fun i => Sum (fun p => e i p * e i p) l) is.
Proof.
  intros N. induction N as [|a is Ha N IH]; intros H.
  - rewrite (Sum_ext _ (fun _ => 0)) by (intros; rewrite Sum_nil; ring). rewrite Sum_zero. reflexivity.
  - rewrite Sum_cons, <- IH by (intros; apply H; [right; assumption|right; assumption|assumption]).
    rewrite (Sum_ext _ (fun p => e a p * e a p + (2 * Sum (fun i => e a p * e i p) is + Sum (fun i => e i p) is * Sum (fun i => e i p) is)))
      by (intros p _; rewrite Sum_cons, Sum_scale; ring).
    rewrite !Sum_plus, Sum_scale, (Sum_swap (fun p i => e a p * e i p) l is).
    rewrite (Sum_ext (fun b => Sum (fun p => e a p * e b p) l) (fun _ => 0)).
    + rewrite Sum_zero. ring.
    + intros b Hb. apply H; [left; reflexivity|right; exact Hb|]. intros ->. contradiction.
Qed.

Lemma rms_map {P} (f g : P -> R) l : l <> [] -> MetricProofs.rms (map f l) (map g l) ^ 2 = Sum (fun p => (f p - g p) * (f p - g p)) l / INR (length l).
Proof. intros N. rewrite rms_square, sq_map, map_length by (destruct l; [contradiction|discriminate]). reflexivity. Qed.

Lemma average_error {P I} (is : list I) (m : I -> P -> R) (r : P -> R) p : is <> [] ->
  r p - average is m p = Sum (fun i => r p - m i p) is / INR (length is).
Proof.
  intros N. assert (H : 0 < INR (length is)) by (apply lt_0_INR; destruct is; [contradiction|cbn; lia]).
  unfold average. rewrite Sum_minus, Sum_const. field. lra.
Qed.

(** The mean square of the errors of the images exceeds the squared error of their average by their own spread. *)
Theorem C152_many : forall P I (l : list P) (is : list I) (r : P -> R) (m : I -> P -> R), l <> [] -> is <> [] ->
  exists v e d, rmse (map r l) (map (average is m) l) = Fin v /\
    (forall i, rmse (map r l) (map (m i) l) = Fin (e i)) /\ (forall i, rmse (map (average is m) l) (map (m i) l) = Fin (d i)) /\
    v ^ 2 = Sum (fun i => e i ^ 2) is / INR (length is) - Sum (fun i => d i ^ 2) is / INR (length is).
Proof.
  intros P I l is r m Nl Ni. assert (M : forall f : P -> R, map f l <> []) by (intros f; destruct l; [contradiction|discriminate]).
  exists (MetricProofs.rms (map r l) (map (average is m) l)), (fun i => MetricProofs.rms (map r l) (map (m i) l)),
    (fun i => MetricProofs.rms (map (average is m) l) (map (m i) l)).
  split; [apply rmse_fin, M|]. split; [intros; apply rmse_fin, M|]. split; [intros; apply rmse_fin, M|].
  assert (H : 0 < INR (length is)) by (apply lt_0_INR; destruct is; [contradiction|cbn; lia]).
  assert (Hl : 0 < INR (length l)) by (apply lt_0_INR; destruct l; [contradiction|cbn; lia]).
  rewrite rms_map by exact Nl.
  rewrite (Sum_ext (fun i => MetricProofs.rms (map r l) (map (m i) l) ^ 2) (fun i => / INR (length l) * Sum (fun p => (r p - m i p) * (r p - m i p)) l))
    by (intros; rewrite rms_map by exact Nl; unfold Rdiv; ring).
  rewrite (Sum_ext (fun i => MetricProofs.rms (map (average is m) l) (map (m i) l) ^ 2)
    (fun i => / INR (length l) * Sum (fun p => (average is m p - m i p) * (average is m p - m i p)) l))
    by (intros; rewrite rms_map by exact Nl; unfold Rdiv; ring).
  rewrite !Sum_scale, <- (Sum_swap (fun p i => (r p - m i p) * (r p - m i p)) l is), <- (Sum_swap (fun p i => (average is m p - m i p) * (average is m p - m i p)) l is).
  assert (K : Sum (fun p => Sum (fun i => (r p - m i p) * (r p - m i p)) is) l - Sum (fun p => Sum (fun i => (average is m p - m i p) * (average is m p - m i p)) is) l
    = INR (length is) * Sum (fun p => (r p - average is m p) * (r p - average is m p)) l).
  { rewrite <- Sum_minus, <- Sum_scale. apply Sum_ext. intros p _. rewrite <- Sum_minus.
    rewrite (Sum_ext _ (fun i => (r p - average is m p) * ((r p + average is m p) - 2 * m i p))) by (intros; ring).
    rewrite Sum_scale, (Sum_minus (fun _ => r p + average is m p)), Sum_const, Sum_scale.
    assert (A : Sum (fun i => m i p) is = INR (length is) * average is m p) by (unfold average; field; lra). rewrite A. ring. }
  set (u := Sum (fun p => Sum (fun i => (r p - m i p) * (r p - m i p)) is) l) in *.
  set (w := Sum (fun p => Sum (fun i => (average is m p - m i p) * (average is m p - m i p)) is) l) in *.
  set (z := Sum (fun p => (r p - average is m p) * (r p - average is m p)) l) in *.
  assert (u = INR (length is) * z + w) as -> by lra. field. lra.
Qed.
Print Assumptions C152_many.

(** So the square of RMSE of the average is at most the mean of the squares. *)
Theorem C152_many_bound : forall P I (l : list P) (is : list I) (r : P -> R) (m : I -> P -> R) E, l <> [] -> is <> [] ->
  (forall i, In i is -> exists e, rmse (map r l) (map (m i) l) = Fin e /\ e <= E) ->
  exists v, rmse (map r l) (map (average is m) l) = Fin v /\ v <= E.
Proof.
  intros P I l is r m E Nl Ni He. destruct (C152_many P I l is r m Nl Ni) as (v & e & d & V & Ev & _ & F). exists v. split; [exact V|].
  assert (M : forall f : P -> R, map f l <> []) by (intros f; destruct l; [contradiction|discriminate]).
  assert (Pe : forall i, 0 <= e i) by (intros i; specialize (Ev i); rewrite rmse_fin in Ev by apply M; injection Ev as <-; apply rms_nonneg).
  assert (B : forall i, In i is -> e i <= E) by (intros i Hi; destruct (He i Hi) as (x & X & L); rewrite Ev in X; injection X as ->; exact L).
  assert (PE : 0 <= E) by (destruct is as [|i is]; [contradiction|]; specialize (B i (or_introl eq_refl)); specialize (Pe i); lra).
  assert (H : 0 < INR (length is)) by (apply lt_0_INR; destruct is; [contradiction|cbn; lia]).
  assert (S : Sum (fun i => e i ^ 2) is <= INR (length is) * E ^ 2).
  { rewrite <- (Sum_const (E ^ 2) is). apply Sum_le. intros i Hi. apply (pow_incr _ _ 2). split; [apply Pe|apply B, Hi]. }
  assert (D : 0 <= Sum (fun i => d i ^ 2) is) by (apply Sum_nonneg; intros; apply pow2_ge_0).
  apply Rsqr_incr_0_var; [|exact PE]. rewrite !Rsqr_pow2, F.
  apply Rmult_le_reg_r with (INR (length is)); [exact H|]. unfold Rdiv. rewrite Rmult_minus_distr_r, !Rmult_assoc, !Rinv_l by lra. lra.
Qed.
Print Assumptions C152_many_bound.

(** Errors orthogonal to each other, like independent noise: the squares add up and are divided by the square of the
    number n of images, so that n images of RMSE e average to RMSE e / sqrt n. *)
Theorem C152_noise : forall P I (l : list P) (is : list I) (r : P -> R) (m : I -> P -> R), l <> [] -> is <> [] -> NoDup is ->
  (forall i j, In i is -> In j is -> i <> j -> Sum (fun p => (r p - m i p) * (r p - m j p)) l = 0) ->
  exists v e, rmse (map r l) (map (average is m) l) = Fin v /\ (forall i, rmse (map r l) (map (m i) l) = Fin (e i)) /\
    v ^ 2 = Sum (fun i => e i ^ 2) is / INR (length is) ^ 2 /\
    (forall s, (forall i, In i is -> e i = s) -> v = s / sqrt (INR (length is))).
Proof.
  intros P I l is r m Nl Ni Nd O. assert (M : forall f : P -> R, map f l <> []) by (intros f; destruct l; [contradiction|discriminate]).
  exists (MetricProofs.rms (map r l) (map (average is m) l)), (fun i => MetricProofs.rms (map r l) (map (m i) l)).
  split; [apply rmse_fin, M|]. split; [intros; apply rmse_fin, M|].
  assert (H : 0 < INR (length is)) by (apply lt_0_INR; destruct is; [contradiction|cbn; lia]).
  assert (Hl : 0 < INR (length l)) by (apply lt_0_INR; destruct l; [contradiction|cbn; lia]).
  assert (F : MetricProofs.rms (map r l) (map (average is m) l) ^ 2 = Sum (fun i => MetricProofs.rms (map r l) (map (m i) l) ^ 2) is / INR (length is) ^ 2).
  { rewrite rms_map by exact Nl.
    rewrite (Sum_ext (fun i => MetricProofs.rms (map r l) (map (m i) l) ^ 2) (fun i => / INR (length l) * Sum (fun p => (r p - m i p) * (r p - m i p)) l))
      by (intros; rewrite rms_map by exact Nl; unfold Rdiv; ring).
    rewrite Sum_scale, <- (sum_orthogonal l is (fun i p => r p - m i p) Nd O).
    rewrite (Sum_ext _ (fun p => / INR (length is) ^ 2 * (Sum (fun i => r p - m i p) is * Sum (fun i => r p - m i p) is)))
      by (intros p _; rewrite average_error by exact Ni; field; lra).
    rewrite Sum_scale. field. lra. }
  split; [exact F|]. intros s Hs.
  assert (S : 0 < sqrt (INR (length is))) by (apply sqrt_lt_R0, H).
  assert (Ps : 0 <= s) by (destruct is as [|i is]; [contradiction|]; rewrite <- (Hs i (or_introl eq_refl)); apply rms_nonneg).
  apply Rsqr_inj; [apply rms_nonneg|apply Rmult_le_pos; [exact Ps|left; apply Rinv_0_lt_compat, S]|].
  rewrite !Rsqr_pow2, F. rewrite (Sum_ext _ (fun _ => s ^ 2)) by (intros i Hi; rewrite (Hs i Hi); reflexivity).
  rewrite Sum_const. assert (Q : INR (length is) = sqrt (INR (length is)) ^ 2) by (rewrite <- Rsqr_pow2; symmetry; apply Rsqr_sqrt; lra).
  set (q := sqrt (INR (length is))) in *. rewrite Q. field. lra.
Qed.
Print Assumptions C152_noise.

(** Two noisy images of [2; 4]: errors (1, 0) and (0, 1) average to half of each; errors (1, 0) and (-1, 0) cancel. *)
Example C152_example : mix (1 / 2) [3; 4] [2; 5] = [5 / 2; 9 / 2] /\ rmse [2; 4] [5 / 2; 9 / 2] = Fin (1 / 2) /\
  mix (1 / 2) [3; 4] [1; 4] = [2; 4] /\ rmse [2; 4] (mix (1 / 2) [3; 4] [1; 4]) = Fin 0.
Proof.
  assert (M : mix (1 / 2) [3; 4] [1; 4] = [2; 4]) by (unfold mix; cbn; repeat (apply (f_equal2 cons); [lra|]); reflexivity).
  split; [unfold mix; cbn; repeat (apply (f_equal2 cons); [lra|]); reflexivity|]. split.
  - rewrite rmse_fin by discriminate. f_equal. unfold MetricProofs.rms, Sum. cbn. replace (_ / _) with (1 / 2 * (1 / 2)) by lra. apply sqrt_square. lra.
  - split; [exact M|]. rewrite M, rmse_fin by discriminate. f_equal. apply rms_zero; [discriminate|reflexivity|reflexivity].
Qed.

(** Averaging with a much worse image does not help: errors 1 and 5 in one pixel give 3. *)
Example C152_ex_worse : rmse [0] [1] = Fin 1 /\ rmse [0] (mix (1 / 2) [1] [5]) = Fin 3.
Proof.
  assert (K : forall x y, 0 <= x -> y = x * x -> sqrt y = x) by (intros x y H ->; apply sqrt_square, H).
  split; rewrite rmse_fin by discriminate; f_equal; unfold MetricProofs.rms, Sum; cbn; apply K; lra.
Qed.

(** The two noisy images of the first example as functions of the position: their errors are orthogonal. *)
Example C152_ex_noise : exists v e, rmse [2; 4] (map (average [true; false] (fun i p => if i then (if p : bool then 3 else 4) else (if p then 2 else 5))) [true; false]) = Fin v /\
  e = 1 / sqrt 2 /\ v = e / sqrt 2 /\ v = 1 / 2.
Proof.
  set (m := fun (i p : bool) => if i then (if p then 3 else 4) else (if p then 2 else 5)).
  assert (Q : sqrt 2 * sqrt 2 = 2) by (apply sqrt_sqrt; lra). assert (S : 0 < sqrt 2) by (apply sqrt_lt_R0; lra).
  destruct (C152_noise bool bool [true; false] [true; false] (fun p => if p : bool then 2 else 4) m) as (v & e & V & Ev & _ & F); try discriminate.
  - repeat constructor; cbn; intuition discriminate.
  - intros i j Hi Hj D. unfold Sum, m. destruct i, j; try congruence; cbn; ring.
  - assert (K : forall i, e i = 1 / sqrt 2).
    { intros i. specialize (Ev i). rewrite rmse_fin in Ev by discriminate. injection Ev as <-.
      unfold MetricProofs.rms, Sum. apply Rsqr_inj; [apply sqrt_pos|apply Rlt_le, Rdiv_lt_0_compat; lra|].
      rewrite Rsqr_sqrt; unfold m, Rsqr; destruct i; cbn; try lra; replace (1 / sqrt 2 * (1 / sqrt 2)) with (1 / (sqrt 2 * sqrt 2)) by (field; lra); rewrite Q; lra. }
    specialize (F (1 / sqrt 2) (fun i _ => K i)). cbn [length INR] in F. replace (1 + 1) with 2 in F by ring.
    exists v, (1 / sqrt 2). split; [exact V|]. split; [reflexivity|]. split; [exact F|]. rewrite F.
    replace (1 / sqrt 2 / sqrt 2) with (1 / (sqrt 2 * sqrt 2)) by (field; lra). rewrite Q. reflexivity.
Qed.
