(** The appearance index of MAD and changes of contrast: property C147. *)
From Coq Require Import Reals Lra Psatz.
From Verif Require Import Base NdArray PairModel RealSums MetricModel SsimModel GsmModel MadModel MadProps FreqModel FreqProofs FreqProps.
Local Open Scope R_scope.

(** ** Statistics of multiples *)

Lemma avg_scale c l : avg (map (Rmult c) l) = c * avg l.
Proof. unfold avg. rewrite Sum_map, map_length, Sum_scale. unfold Rdiv. ring. Qed.

Lemma central_scale c k l : Sum (fun x => (x - avg (map (Rmult c) l)) ^ k) (map (Rmult c) l) = c ^ k * Sum (fun x => (x - avg l) ^ k) l.
Proof.
  rewrite Sum_map, avg_scale, <- Sum_scale. apply Sum_ext. intros x _. rewrite <- Rpow_mult_distr. f_equal. ring.
Qed.

Lemma moment_scale c k l : moment k (map (Rmult c) l) = c ^ k * moment k l.
Proof. unfold moment. rewrite central_scale, map_length. unfold Rdiv. ring. Qed.

Lemma deviation_scale c l : 0 <= c -> deviation (map (Rmult c) l) = c * deviation l.
Proof.
  intros H. unfold deviation. rewrite central_scale, map_length.
  replace (c ^ 2 * Sum (fun x => (x - avg l) ^ 2) l / (INR (length l) - 1)) with (c ^ 2 * (Sum (fun x => (x - avg l) ^ 2) l / (INR (length l) - 1)))
    by (unfold Rdiv; ring).
  rewrite sqrt_mult_alt by (apply pow2_ge_0). rewrite sqrt_pow2 by exact H. reflexivity.
Qed.

Lemma skewness_scale c l : 0 < c -> skewness (map (Rmult c) l) = skewness l.
Proof.
  intros H. unfold skewness. rewrite !moment_scale. destruct (Req_EM_T (moment 2 l) 0) as [E|E].
  - rewrite E, Rmult_0_r. destruct (Req_EM_T 0 0); [reflexivity|lra].
  - destruct (Req_EM_T (c ^ 2 * moment 2 l) 0) as [X|_].
    + apply Rmult_integral in X as [X|X]; [nra|contradiction].
    + rewrite sqrt_mult_alt by (apply pow2_ge_0). rewrite sqrt_pow2 by lra. pose proof (moment2_nonneg l) as P.
      assert (0 < sqrt (moment 2 l)) by (apply sqrt_lt_R0; lra). field. lra.
Qed.

Lemma kurtosis_scale c l : 0 < c -> kurtosis (map (Rmult c) l) = kurtosis l.
Proof.
  intros H. unfold kurtosis. rewrite !moment_scale. destruct (Req_EM_T (moment 2 l) 0) as [E|E].
  - rewrite E, Rmult_0_r. destruct (Req_EM_T 0 0); [reflexivity|lra].
  - destruct (Req_EM_T (c ^ 2 * moment 2 l) 0) as [X|_].
    + apply Rmult_integral in X as [X|X]; [nra|contradiction].
    + field. split; [exact E|lra].
Qed.

Lemma deviation_nonneg l : 0 <= deviation l.
Proof. apply sqrt_pos. Qed.

Lemma difference_scale c l : 0 < c -> difference (map (Rmult c) l) l = Rabs (c - 1) * deviation l.
Proof.
  intros H. unfold difference. rewrite deviation_scale, skewness_scale, kurtosis_scale by lra.
  replace (c * deviation l - deviation l) with ((c - 1) * deviation l) by ring. rewrite Rabs_mult, (Rabs_pos_eq (deviation l)) by apply deviation_nonneg.
  replace (skewness l - skewness l) with 0 by ring. replace (kurtosis l - kurtosis l) with 0 by ring. rewrite Rabs_R0. ring.
Qed.

Lemma difference_zero c l : (forall x, In x c -> x = 0) -> difference c l = deviation l + 2 * Rabs (skewness l) + Rabs (kurtosis l).
Proof.
  intros H. assert (A : avg c = 0).
  { unfold avg. rewrite (Sum_ext _ (fun _ => 0)) by (intros x Hx; apply H; exact Hx). rewrite Sum_const. unfold Rdiv. ring. }
  assert (M : Sum (fun x => (x - avg c) ^ 2) c = 0).
  { rewrite (Sum_ext _ (fun _ => 0)); [rewrite Sum_const; ring|]. intros x Hx. rewrite A, (H x Hx). ring. }
  assert (M2 : moment 2 c = 0) by (unfold moment; rewrite M; unfold Rdiv; ring).
  unfold difference. assert (D : deviation c = 0) by (unfold deviation; rewrite M; unfold Rdiv; rewrite Rmult_0_l; apply sqrt_0).
  assert (S : skewness c = 0) by (unfold skewness; destruct (Req_EM_T (moment 2 c) 0); [reflexivity|contradiction]).
  assert (K : kurtosis c = 0) by (unfold kurtosis; destruct (Req_EM_T (moment 2 c) 0); [reflexivity|contradiction]).
  rewrite D, S, K. unfold Rminus. rewrite !Rplus_0_l, !Rabs_Ropp, (Rabs_pos_eq (deviation l)) by apply deviation_nonneg. reflexivity.
Qed.

(** ** Filtered multiples *)

Lemma gabor_abs_gain orients a b m n (u w : R) : shp a = [m; n] -> shp b = [m; n] ->
  (forall x y, (x < m)%nat -> (y < n)%nat -> getd b [x; y] = u * getd a [x; y] + w) ->
  forall s d, gabor_abs orients b s d = amap (Rmult (Rabs u)) (gabor_abs orients a s d).
Proof.
  intros Ha Hb H s d. unfold gabor_abs, dim0, dim1. rewrite Ha, Hb. cbn [nth]. unfold tabulate, amap. cbn [shp dat]. f_equal.
  rewrite map_map. apply map_ext. intros idx.
  set (x := nth 0 idx 0%nat). set (y := nth 1 idx 0%nat).
  rewrite (response_affine mad_gabor orients m n s d (pixels a) (pixels a) (pixels b) (creal u) c0 (creal w)).
  - transitivity (cabs (cmul (creal u) (gabor_response mad_gabor orients m n (pixels a) s d x y))); [f_equal; ring|].
    apply cabs_mul_real.
  - intros x' y' Hx Hy. unfold pixels. rewrite H by assumption. cx.
Qed.

Lemma block_scale c a N b s x y : block_of (amap (Rmult c) a) N b s x y = map (Rmult c) (block_of a N b s x y).
Proof.
  unfold block_of. rewrite !flat_map_concat_map, concat_map, !map_map. f_equal. apply map_ext. intros i. rewrite map_map. apply map_ext. intros j.
  unfold amap. cbn [dat]. rewrite <- (Rmult_0_r c) at 1. apply map_nth.
Qed.

(** The appearance index of an image and u times the image plus w, for every u other than 0: the share of contrast lost
    or gained times a number of the image alone, made of the deviations of its filtered blocks. *)
Definition texture (o : lq_opts) (b s N : nat) (a : arr R) : R :=
  let inside := seq b (N - 2 * b) in
  let total x y := Sum (fun sc => nth sc (l_weights o) 0 / Sum (fun x => x) (l_weights o) *
      Sum (fun ori => deviation (block_of (gabor_abs (l_orient o) a sc ori) N b s x y)) (seq 0 (l_orient o))) (seq 0 (l_scales o)) in
  sqrt (Sum (fun x => Sum (fun y => total x y ^ 2) inside) inside / INR ((N - 2 * b) ^ 2)).

Theorem C147_gain : forall junk3 o b s r m N (u w : R), (0 < s)%nat -> (s <= b)%nat -> (2 <= b)%nat -> (2 * b < N)%nat ->
  shp (mvals r) = [N; N] -> shp (mvals m) = [N; N] -> length (l_weights o) = l_scales o -> (0 < l_orient o)%nat ->
  Sum (fun x => x) (l_weights o) <> 0 -> u <> 0 ->
  (forall x y, (x < N)%nat -> (y < N)%nat -> getd (mvals m) [x; y] = u * getd (mvals r) [x; y] + w) ->
  low_quality (gabor_abs (l_orient o)) junk3 o b s r m = Ok (Fin (Rabs (Rabs u - 1) * texture o b s N (mvals r))).
Proof.
  intros junk3 o b s r m N u w Hs Hb H2 HN Hr Hm Hw Ho Hsum Hu E. rewrite (C80_value _ junk3 o b s r m N) by assumption. cbv zeta.
  do 2 f_equal. unfold texture. cbv zeta. set (g := Rabs (Rabs u - 1)). assert (G : 0 <= g) by apply Rabs_pos.
  assert (U : 0 < Rabs u) by (apply Rabs_pos_lt; exact Hu).
  rewrite <- (sqrt_pow2 g G) at 1. rewrite <- sqrt_mult_alt by apply pow2_ge_0. f_equal.
  match goal with |- ?A / ?n = g ^ 2 * (?B / ?n) => assert (X : A = g ^ 2 * B); [|rewrite X; unfold Rdiv; ring] end.
  rewrite <- Sum_scale. apply Sum_ext. intros x _. rewrite <- Sum_scale. apply Sum_ext. intros y _. rewrite <- Rpow_mult_distr. f_equal.
  rewrite <- Sum_scale. apply Sum_ext. intros sc _.
  match goal with |- ?c * ?A = g * (?c * ?B) => assert (X : A = g * B); [|rewrite X; ring] end.
  rewrite <- Sum_scale. apply Sum_ext. intros ori _.
  rewrite (gabor_abs_gain (l_orient o) (mvals r) (mvals m) N N u w) by assumption. rewrite block_scale. apply difference_scale. exact U.
Qed.
Print Assumptions C147_gain.

Lemma texture_nonneg o b s N a : 0 <= texture o b s N a.
Proof. apply sqrt_pos. Qed.

(** Of two copies the one whose contrast is farther from that of the image never scores better, whatever the offsets. *)
Theorem C147_monotone : forall junk3 o b s r m m' N (u w u' w' v v' : R), (0 < s)%nat -> (s <= b)%nat -> (2 <= b)%nat -> (2 * b < N)%nat ->
  shp (mvals r) = [N; N] -> shp (mvals m) = [N; N] -> shp (mvals m') = [N; N] -> length (l_weights o) = l_scales o -> (0 < l_orient o)%nat ->
  Sum (fun x => x) (l_weights o) <> 0 -> u <> 0 -> u' <> 0 -> Rabs (Rabs u - 1) <= Rabs (Rabs u' - 1) ->
  (forall x y, (x < N)%nat -> (y < N)%nat -> getd (mvals m) [x; y] = u * getd (mvals r) [x; y] + w) ->
  (forall x y, (x < N)%nat -> (y < N)%nat -> getd (mvals m') [x; y] = u' * getd (mvals r) [x; y] + w') ->
  low_quality (gabor_abs (l_orient o)) junk3 o b s r m = Ok (Fin v) -> low_quality (gabor_abs (l_orient o)) junk3 o b s r m' = Ok (Fin v') ->
  0 <= v <= v' /\ v * Rabs (Rabs u' - 1) = v' * Rabs (Rabs u - 1).
Proof.
  intros junk3 o b s r m m' N u w u' w' v v' Hs Hb H2 HN Hr Hm Hm' Hw Ho Hsum Hu Hu' L E E' V V'.
  rewrite (C147_gain junk3 o b s r m N u w) in V by assumption. rewrite (C147_gain junk3 o b s r m' N u' w') in V' by assumption.
  injection V as <-. injection V' as <-. pose proof (texture_nonneg o b s N (mvals r)) as T. pose proof (Rabs_pos (Rabs u - 1)).
  split; [split|ring]; [apply Rmult_le_pos; assumption|apply Rmult_le_compat_r; assumption].
Qed.
Print Assumptions C147_monotone.

(** An image without any contrast is compared with all three statistics of the blocks, not with the deviations alone. *)
Theorem C147_flat : forall junk3 o b s r m N (w : R), (0 < s)%nat -> (s <= b)%nat -> (2 <= b)%nat -> (2 * b < N)%nat ->
  shp (mvals r) = [N; N] -> shp (mvals m) = [N; N] -> length (l_weights o) = l_scales o -> (0 < l_orient o)%nat ->
  Sum (fun x => x) (l_weights o) <> 0 -> (forall x y, (x < N)%nat -> (y < N)%nat -> getd (mvals m) [x; y] = w) ->
  let inside := seq b (N - 2 * b) in
  let stats sc ori x y := let l := block_of (gabor_abs (l_orient o) (mvals r) sc ori) N b s x y in
    deviation l + 2 * Rabs (skewness l) + Rabs (kurtosis l) in
  let total x y := Sum (fun sc => nth sc (l_weights o) 0 / Sum (fun x => x) (l_weights o) *
      Sum (fun ori => stats sc ori x y) (seq 0 (l_orient o))) (seq 0 (l_scales o)) in
  low_quality (gabor_abs (l_orient o)) junk3 o b s r m =
    Ok (Fin (sqrt (Sum (fun x => Sum (fun y => total x y ^ 2) inside) inside / INR ((N - 2 * b) ^ 2)))).
Proof.
  intros junk3 o b s r m N w Hs Hb H2 HN Hr Hm Hw Ho Hsum E. cbv zeta. rewrite (C80_value _ junk3 o b s r m N) by assumption. cbv zeta.
  do 4 f_equal. apply Sum_ext. intros x _. apply Sum_ext. intros y _. f_equal. apply Sum_ext. intros sc _. f_equal. apply Sum_ext. intros ori _.
  apply difference_zero. intros z Hz. rewrite (gabor_abs_gain (l_orient o) (mvals r) (mvals m) N N 0 w) in Hz.
  - rewrite block_scale, Rabs_R0 in Hz. apply in_map_iff in Hz as (q & <- & _). ring.
  - assumption.
  - assumption.
  - intros x' y' Hx Hy. rewrite E by assumption. ring.
Qed.
Print Assumptions C147_flat.

(** With weights that are not negative it therefore never scores better than any copy of up to twice the contrast,
    however weak: fading the contrast out towards a flat image never lands above the index of the flat image itself. *)
Theorem C147_flat_worst : forall junk3 o b s r m m' N (w u w' v v' : R), (0 < s)%nat -> (s <= b)%nat -> (2 <= b)%nat -> (2 * b < N)%nat ->
  shp (mvals r) = [N; N] -> shp (mvals m) = [N; N] -> shp (mvals m') = [N; N] -> length (l_weights o) = l_scales o -> (0 < l_orient o)%nat ->
  (forall q, In q (l_weights o) -> 0 <= q) -> Sum (fun x => x) (l_weights o) <> 0 -> 0 < Rabs u <= 2 ->
  (forall x y, (x < N)%nat -> (y < N)%nat -> getd (mvals m) [x; y] = w) ->
  (forall x y, (x < N)%nat -> (y < N)%nat -> getd (mvals m') [x; y] = u * getd (mvals r) [x; y] + w') ->
  low_quality (gabor_abs (l_orient o)) junk3 o b s r m = Ok (Fin v) -> low_quality (gabor_abs (l_orient o)) junk3 o b s r m' = Ok (Fin v') ->
  v' <= v.
Proof.
  intros junk3 o b s r m m' N w u w' v v' Hs Hb H2 HN Hr Hm Hm' Hw Ho Hpos Hsum Hu E E' V V'.
  assert (Hu0 : u <> 0) by (intros ->; rewrite Rabs_R0 in Hu; lra).
  rewrite (C147_flat junk3 o b s r m N w) in V by assumption. cbv zeta in V.
  rewrite (C147_gain junk3 o b s r m' N u w') in V' by assumption. injection V as <-. injection V' as <-.
  assert (Hn : 0 < INR ((N - 2 * b) ^ 2)) by (apply lt_0_INR; apply Nat.neq_0_lt_0, Nat.pow_nonzero; lia).
  assert (W : 0 < Sum (fun x => x) (l_weights o)).
  { assert (0 <= Sum (fun x => x) (l_weights o)) by (apply Sum_nonneg; exact Hpos). lra. }
  assert (Wn : forall sc, 0 <= nth sc (l_weights o) 0 / Sum (fun x => x) (l_weights o)).
  { intros sc. apply Rmult_le_pos; [|left; apply Rinv_0_lt_compat; exact W].
    destruct (Nat.lt_ge_cases sc (length (l_weights o))) as [I|I]; [apply Hpos, nth_In, I|rewrite nth_overflow by exact I; lra]. }
  apply Rle_trans with (texture o b s N (mvals r)).
  - pose proof (texture_nonneg o b s N (mvals r)). assert (Rabs (Rabs u - 1) <= 1) by (apply Rabs_le; lra). nra.
  - unfold texture. cbv zeta. apply sqrt_le_1_alt. apply Rmult_le_compat_r; [left; apply Rinv_0_lt_compat; exact Hn|].
    apply Sum_le. intros x _. apply Sum_le. intros y _. apply (pow_incr _ _ 2). split.
    + apply Sum_nonneg. intros sc _. apply Rmult_le_pos; [apply Wn|]. apply Sum_nonneg. intros ori _. apply deviation_nonneg.
    + apply Sum_le. intros sc _. apply Rmult_le_compat_l; [apply Wn|]. apply Sum_le. intros ori _.
      set (l := block_of _ _ _ _ _ _). pose proof (Rabs_pos (skewness l)). pose proof (Rabs_pos (kurtosis l)). lra.
Qed.
Print Assumptions C147_flat_worst.

(** Three times the contrast costs twice as much as twice the contrast. *)
Example C147_example : forall junk3,
  let o := {| l_orient := 4; l_scales := 5; l_weights := [1/2; 3/4; 1; 5; 6] |} in
  let ramp := tabulate [9; 9]%nat (fun idx => Z.of_nat (nth 0%nat idx 0%nat * nth 1%nat idx 0%nat)) in
  let copy k := MInt (amap (fun v => (k * v + 5)%Z) ramp) in
  exists v, low_quality (gabor_abs 4) junk3 o 4 1 (MInt ramp) (copy 2%Z) = Ok (Fin v) /\
            low_quality (gabor_abs 4) junk3 o 4 1 (MInt ramp) (copy 3%Z) = Ok (Fin (2 * v)).
Proof.
  intros junk3 o ramp copy. exists (texture o 4 1 9 (mvals (MInt ramp))).
  assert (G : forall k : Z, (1 < k)%Z -> low_quality (gabor_abs 4) junk3 o 4 1 (MInt ramp) (copy k) =
              Ok (Fin (Rabs (Rabs (IZR k) - 1) * texture o 4 1 9 (mvals (MInt ramp))))).
  { intros k Hk. apply (C147_gain junk3 o 4 1 (MInt ramp) (copy k) 9 (IZR k) 5); try lia; try reflexivity; try (cbn; lia).
    - unfold Sum, rsum. cbn. lra.
    - apply (IZR_lt 1) in Hk. lra.
    - intros x y Hx Hy. unfold copy. cbn [mvals]. unfold getd. rewrite !get_amap. unfold ramp. rewrite get_tabulate.
      + cbn [option_map nth]. rewrite plus_IZR, mult_IZR. ring.
      + cbn [inb]. destruct (Nat.ltb_spec x 9), (Nat.ltb_spec y 9); try lia; reflexivity. }
  rewrite !G by lia. rewrite (Rabs_pos_eq 2), (Rabs_pos_eq 3) by lra.
  replace (2 - 1) with 1 by ring. replace (3 - 1) with 2 by ring. rewrite (Rabs_pos_eq 1), (Rabs_pos_eq 2) by lra. rewrite Rmult_1_l. split; reflexivity.
Qed.
