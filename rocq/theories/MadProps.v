(** C35-C41 and C78-C80: the most apparent distortion and its C kernels. *)
From Coq Require Import Reals Lra Psatz.
From Verif Require Import Base NdArray LoadModel LoadProofs NormModel PairModel RealSums
  MetricModel SsimModel SsimProofs GsmModel GsmProofs MadModel MadLoopProofs MadProofs.

(** ** C35 *)
Section C35.
Local Open Scope R_scope.

(** The weight of the detection index. *)
Definition weight (beta_1 beta_2 d : R) : R := 1 / (1 + beta_1 * rpow d beta_2).

Lemma rpow_nonneg x y : 0 <= rpow x y.
Proof. unfold rpow. destruct (Req_EM_T x 0); [lra|]. left. apply exp_pos. Qed.

Lemma weight_pos b1 b2 d : 0 < b1 -> 0 < weight b1 b2 d <= 1.
Proof.
  intros H1. unfold weight. pose proof (rpow_nonneg d b2) as P. assert (0 <= b1 * rpow d b2) by nra.
  split; [apply Rdiv_lt_0_compat; lra|]. apply (Rmult_le_reg_r (1 + b1 * rpow d b2)); [lra|].
  unfold Rdiv. rewrite Rmult_assoc, Rinv_l by lra. lra.
Qed.

(** MAD is d^w * a^(1-w) with this weight. *)
Theorem C35_weighting : forall b1 b2 d a, 0 < b1 -> 0 < b2 -> 0 <= d ->
  combine_indices b1 b2 (Fin d) a =
  ext_mul (ext_pow (Fin d) (Fin (weight b1 b2 d))) (ext_pow a (Fin (1 - weight b1 b2 d))).
Proof.
  intros b1 b2 d a H1 H2 Hd. unfold combine_indices.
  assert (E : ext_pow (Fin d) (Fin b2) = Fin (rpow d b2)).
  { unfold ext_pow, rpow. destruct (Req_EM_T b2 0); [lra|]. destruct (Req_EM_T d 0).
    - destruct (Rlt_dec 0 b2); [reflexivity|lra].
    - destruct (Rlt_dec d 0); [lra|reflexivity]. }
  rewrite E. cbn [ext_mul ext_add]. pose proof (rpow_nonneg d b2).
  rewrite ext_div_fin by nra. reflexivity.
Qed.
Print Assumptions C35_weighting.

Lemma Rpower_mono x y z : 0 < x -> x <= y -> 0 <= z -> Rpower x z <= Rpower y z.
Proof. intros Hx Hxy Hz. destruct (Req_EM_T z 0) as [->|]; [rewrite !Rpower_O by lra; lra|]. apply Rle_Rpower_l; lra. Qed.

Theorem C35_between : forall b1 b2 d a, 0 < b1 -> 0 < b2 -> 0 <= d -> 0 <= a ->
  exists x, combine_indices b1 b2 (Fin d) (Fin a) = Fin x /\ Rmin d a <= x <= Rmax d a.
Proof.
  intros b1 b2 d a H1 H2 Hd Ha. rewrite C35_weighting by assumption.
  destruct (Req_EM_T d 0) as [E|E].
  - subst d. assert (W : weight b1 b2 0 = 1).
    { unfold weight, rpow. destruct (Req_EM_T 0 0); [|lra]. field_simplify; lra. }
    rewrite W. exists 0. split.
    + unfold ext_pow at 1. destruct (Req_EM_T 1 0); [lra|]. destruct (Req_EM_T 0 0); [|lra]. destruct (Rlt_dec 0 1); [|lra].
      replace (1 - 1) with 0 by ring. unfold ext_pow. destruct (Req_EM_T 0 0); [|lra]. cbn [ext_mul]. f_equal. ring.
    + split; [rewrite Rmin_left by lra; lra|rewrite Rmax_right by lra; lra].
  - assert (Hd' : 0 < d) by lra.
    assert (W : 0 < weight b1 b2 d < 1).
    { pose proof (weight_pos b1 b2 d H1) as [P _]. split; [exact P|]. unfold weight, rpow in *.
      destruct (Req_EM_T d 0); [contradiction|]. assert (0 < b1 * Rpower d b2) by (apply Rmult_lt_0_compat; [lra|apply exp_pos]).
      apply (Rmult_lt_reg_r (1 + b1 * Rpower d b2)); [lra|]. unfold Rdiv. rewrite Rmult_assoc, Rinv_l by lra. lra. }
    set (w := weight b1 b2 d) in *.
    assert (P1 : ext_pow (Fin d) (Fin w) = Fin (Rpower d w)).
    { unfold ext_pow. destruct (Req_EM_T w 0); [lra|]. destruct (Req_EM_T d 0); [lra|]. destruct (Rlt_dec d 0); [lra|reflexivity]. }
    rewrite P1. destruct (Req_EM_T a 0) as [Ea|Ea].
    + subst a. exists 0. split.
      * unfold ext_pow. destruct (Req_EM_T (1 - w) 0); [lra|]. destruct (Req_EM_T 0 0); [|lra]. destruct (Rlt_dec 0 (1 - w)); [|lra].
        cbn [ext_mul]. f_equal. ring.
      * rewrite Rmin_right, Rmax_left by lra. lra.
    + exists (Rpower d w * Rpower a (1 - w)). split.
      * unfold ext_pow. destruct (Req_EM_T (1 - w) 0); [lra|]. destruct (Req_EM_T a 0); [lra|]. destruct (Rlt_dec a 0); [lra|reflexivity].
      * assert (S : forall x, 0 < x -> x = Rpower x w * Rpower x (1 - w)).
        { intros x Hx. rewrite <- Rpower_plus. replace (w + (1 - w)) with 1 by ring. symmetry. apply Rpower_1, Hx. }
        assert (Q : forall x, 0 < Rpower x w) by (intros; apply exp_pos).
        assert (Q' : forall x, 0 < Rpower x (1 - w)) by (intros; apply exp_pos).
        unfold Rmin, Rmax. destruct (Rle_dec d a).
        { split.
          - rewrite (S d) at 1 by exact Hd'. apply Rmult_le_compat_l; [left; apply Q|apply Rpower_mono; lra].
          - rewrite (S a) at 2 by lra. apply Rmult_le_compat_r; [left; apply Q'|apply Rpower_mono; lra]. }
        { split.
          - rewrite (S a) at 1 by lra. apply Rmult_le_compat_r; [left; apply Q'|apply Rpower_mono; lra].
          - rewrite (S d) at 2 by exact Hd'. apply Rmult_le_compat_l; [left; apply Q|apply Rpower_mono; lra]. }
Qed.
Print Assumptions C35_between.

(** No detectable distortion: 0 whatever the appearance index, even if that is not a number. *)
Theorem C35_zero : forall b1 b2 a, 0 < b2 -> combine_indices b1 b2 (Fin 0) a = Fin 0.
Proof.
  intros b1 b2 a H2. unfold combine_indices.
  assert (E : ext_pow (Fin 0) (Fin b2) = Fin 0).
  { unfold ext_pow. destruct (Req_EM_T b2 0); [lra|]. destruct (Req_EM_T 0 0); [|lra]. destruct (Rlt_dec 0 b2); [reflexivity|lra]. }
  rewrite E. cbn [ext_mul ext_add]. replace (1 + b1 * 0) with 1 by ring. rewrite ext_div_fin by lra.
  replace (1 / 1) with 1 by field. cbn [ext_sub ext_neg ext_add]. replace (1 + - (1)) with 0 by ring.
  unfold ext_pow. destruct (Req_EM_T 1 0); [lra|]. destruct (Req_EM_T 0 0); [|lra]. destruct (Rlt_dec 0 1); [|lra].
  destruct a; cbn [ext_mul]; f_equal; ring.
Qed.
Print Assumptions C35_zero.

Theorem C35_weight_decreases : forall b1 b2, 0 < b1 -> 0 < b2 ->
  weight b1 b2 0 = 1 /\
  (forall d d', 0 <= d -> d < d' -> 0 < weight b1 b2 d' < weight b1 b2 d) /\
  (forall eps, 0 < eps -> exists D, 0 < D /\ forall d, D <= d -> weight b1 b2 d < eps).
Proof.
  intros b1 b2 H1 H2. split; [|split].
  - unfold weight, rpow. destruct (Req_EM_T 0 0); [|lra]. field_simplify; lra.
  - intros d d' Hd Hlt. split; [apply weight_pos, H1|]. unfold weight.
    assert (L : rpow d b2 < rpow d' b2).
    { unfold rpow. destruct (Req_EM_T d' 0); [lra|]. destruct (Req_EM_T d 0); [apply exp_pos|].
      apply Rlt_Rpower_l; lra. }
    pose proof (rpow_nonneg d b2). unfold Rdiv. rewrite !Rmult_1_l. apply Rinv_lt_contravar; [|nra].
    apply Rmult_lt_0_compat; nra.
  - intros eps He. exists (Rpower (1 / (b1 * eps)) (1 / b2)). split; [apply exp_pos|].
    intros d Hd. assert (P : 0 < Rpower (1 / (b1 * eps)) (1 / b2)) by apply exp_pos.
    assert (B : 0 < b1 * eps) by nra.
    assert (L : 1 / (b1 * eps) <= rpow d b2).
    { unfold rpow. destruct (Req_EM_T d 0); [lra|].
      apply Rle_trans with (Rpower (Rpower (1 / (b1 * eps)) (1 / b2)) b2); [|apply Rpower_mono; lra].
      rewrite Rpower_mult. replace (1 / b2 * b2) with 1 by (field; lra).
      rewrite Rpower_1 by (apply Rdiv_lt_0_compat; lra). lra. }
    unfold weight. assert (L2 : 1 / eps <= b1 * rpow d b2).
    { replace (1 / eps) with (b1 * (1 / (b1 * eps))) by (field; lra). apply Rmult_le_compat_l; lra. }
    assert (P1 : 0 < 1 / eps) by (apply Rdiv_lt_0_compat; lra).
    apply (Rmult_lt_reg_r (1 + b1 * rpow d b2)); [lra|]. unfold Rdiv at 1. rewrite Rmult_assoc, Rinv_l by lra.
    assert (eps * (1 / eps) = 1) by (field; lra). nra.
Qed.
Print Assumptions C35_weight_decreases.

(** Two thresholds that are not 0 replace the parameters so that the weight is a logistic function of
    log10 d: it is 1/2 at d = 10^thresh_1. *)
Theorem C35_thresholds : forall beta_1 beta_2 t1 t2 d, t1 <> 0 -> t2 <> 0 -> 0 < d ->
  let b := betas beta_1 beta_2 (Some t1) (Some t2) in
  0 < fst b /\ (0 < t2 -> 0 < snd b) /\
  weight (fst b) (snd b) d = 1 / (1 + exp ((ln d / ln 10 - t1) / t2)) /\
  (weight (fst b) (snd b) d = 1 / 2 <-> d = Rpower 10 t1).
Proof.
  intros beta_1 beta_2 t1 t2 d Ht1 Ht2 Hd b.
  assert (L : 0 < ln 10) by (rewrite <- ln_1; apply ln_increasing; lra).
  assert (E : b = (exp (- t1 / t2), 1 / (ln 10 * t2))).
  { unfold b, betas, given. destruct (Req_EM_T t1 0); [contradiction|]. destruct (Req_EM_T t2 0); [contradiction|]. reflexivity. }
  rewrite E. cbn [fst snd]. split; [apply exp_pos|]. split; [intros; apply Rdiv_lt_0_compat; [lra|nra]|].
  assert (W : weight (exp (- t1 / t2)) (1 / (ln 10 * t2)) d = 1 / (1 + exp ((ln d / ln 10 - t1) / t2))).
  { unfold weight, rpow. destruct (Req_EM_T d 0); [lra|]. f_equal. f_equal. unfold Rpower. rewrite <- exp_plus. f_equal. field. lra. }
  split; [exact W|]. rewrite W. clear W E b.
  set (e := (ln d / ln 10 - t1) / t2). pose proof (exp_pos e).
  assert (Q : 1 / (1 + exp e) = 1 / 2 <-> e = 0).
  { split; intros HE.
    - apply exp_inv. rewrite exp_0. assert ((1 + exp e) * (1 / (1 + exp e)) = 1) by (field; lra). rewrite HE in *. lra.
    - rewrite HE, exp_0. lra. }
  rewrite Q. unfold e. split; intros HE.
  - assert (ln d = t1 * ln 10).
    { assert (X : (ln d / ln 10 - t1) / t2 * t2 = 0) by (rewrite HE; ring).
      assert (Y : ln d / ln 10 - t1 = 0) by (rewrite <- X; field; split; lra).
      replace (ln d) with (ln d / ln 10 * ln 10) by (field; lra). replace (ln d / ln 10) with t1 by lra. ring. }
    unfold Rpower. rewrite <- H0. symmetry. apply exp_ln, Hd.
  - subst d. unfold Rpower. rewrite ln_exp. field. lra.
Qed.
Print Assumptions C35_thresholds.

(** A threshold that is missing, or 0, switches both off. *)
Theorem C35_threshold_zero : forall beta_1 beta_2 t,
  betas beta_1 beta_2 (Some 0) t = (beta_1, beta_2) /\ betas beta_1 beta_2 t (Some 0) = (beta_1, beta_2) /\
  betas beta_1 beta_2 None t = (beta_1, beta_2) /\ betas beta_1 beta_2 t None = (beta_1, beta_2).
Proof.
  intros beta_1 beta_2 t. unfold betas, given. destruct (Req_EM_T 0 0); [|lra].
  repeat split; destruct t as [x|]; try reflexivity; destruct (Req_EM_T x 0); reflexivity.
Qed.
Print Assumptions C35_threshold_zero.

(** Equal indices stay as they are. *)
Example C35_example : exists x, combine_indices (467/1000) (130/1000) (Fin 3) (Fin 3) = Fin x /\ x = 3.
Proof.
  destruct (C35_between (467/1000) (130/1000) 3 3) as (x & E & B); try lra.
  exists x. split; [exact E|]. rewrite Rmin_left, Rmax_left in B by lra. lra.
Qed.
End C35.

(** ** C36 *)

(** Detection index: any shape, any filter, any contents of the freshly allocated buffers. *)
Theorem C36_detection : forall filt junk o dr b s r d,
  0 < b -> 2 * b < dim0 (mvals r) -> 2 * b < dim1 (mvals r) -> h_ms o <> 0%R ->
  high_quality filt junk o dr b s r r = Ok d -> d = Fin 0.
Proof.
  intros filt junk o dr b s r d Hb H0 H1 Hms H. apply high_quality_identical in H; try lia; [|exact Hms].
  destruct (Nat.leb_spec (dim0 (mvals r)) (2 * b)); [lia|]. destruct (Nat.leb_spec (dim1 (mvals r)) (2 * b)); [lia|].
  exact H.
Qed.
Print Assumptions C36_detection.

Theorem C36_appearance : forall gabor junk3 o b s r N,
  0 < s -> s <= b -> 2 <= b -> 2 * b < N -> shp (mvals r) = [N; N] ->
  length (l_weights o) = l_scales o -> 0 < l_orient o -> Sum (fun x => x) (l_weights o) <> 0%R ->
  low_quality gabor junk3 o b s r r = Ok (Fin 0).
Proof. exact low_quality_identical. Qed.
Print Assumptions C36_appearance.

Lemma Int_part_eq x z : (IZR z <= x < IZR z + 1)%R -> Int_part x = z.
Proof.
  intros H. unfold Int_part. assert (E : (z + 1)%Z = up x); [|lia].
  apply tech_up; rewrite plus_IZR; lra.
Qed.

Lemma stride_default m n s : 0 < s -> 4 * s <= m -> 4 * s <= n ->
  stride_of m n (Z.of_nat (4 * s)) (3 / 4) = Ok (4 * s, s).
Proof.
  intros Hs Hm Hn. unfold stride_of.
  destruct (Z.ltb_spec (Z.of_nat m) (Z.of_nat (4 * s))); [lia|].
  destruct (Z.ltb_spec (Z.of_nat n) (Z.of_nat (4 * s))); [lia|]. cbn [orb].
  destruct (Z.ltb_spec 0 (Z.of_nat (4 * s))); [|lia].
  destruct (Rle_dec 1 (3 / 4)); [lra|]. destruct (Rlt_dec (3 / 4) 0); [lra|].
  assert (E : Int_part (3 / 4 * IZR (Z.of_nat (4 * s))) = Z.of_nat (3 * s)).
  { apply Int_part_eq. rewrite !Nat2Z.inj_mul, !mult_IZR. cbn [Z.of_nat Pos.of_succ_nat Pos.succ]. lra. }
  rewrite E. f_equal. f_equal; lia.
Qed.

(** The whole metric with the default overlap, for square images whose side is a multiple of the stride. *)
Theorem C36_mad : forall filt gabor junk junk3 ho lo dr s beta_1 beta_2 t1 t2 r N l,
  0 < s -> shp (mvals r) = [N; N] -> N mod s = 0 -> 8 * s < N ->
  lightness (h_b ho) (h_k ho) (h_gamma ho) dr r = Ok l -> shp (fst (filt l)) = [N; N] -> h_ms ho <> 0%R ->
  length (l_weights lo) = l_scales lo -> 0 < l_orient lo -> Sum (fun x => x) (l_weights lo) <> 0%R ->
  (0 < snd (betas beta_1 beta_2 t1 t2))%R ->
  most_apparent_distortion filt gabor junk junk3 ho lo dr (Z.of_nat (4 * s)) (3 / 4) beta_1 beta_2 t1 t2 r r = Ok (Fin 0).
Proof.
  intros filt gabor junk junk3 ho lo dr s beta_1 beta_2 t1 t2 r N l Hs Hr Hmod HN Hl Hf Hms Hw Ho Hsum Hb.
  unfold most_apparent_distortion. rewrite Hr. cbn [length Nat.eqb negb].
  assert (D0 : dim0 (mvals r) = N) by (unfold dim0; rewrite Hr; reflexivity).
  assert (D1 : dim1 (mvals r) = N) by (unfold dim1; rewrite Hr; reflexivity).
  rewrite D0, D1, stride_default by lia. cbn [bind fst snd].
  destruct (high_quality_ok filt junk ho dr s r r N l l Hs Hr ltac:(lia) Hmod Hl Hl Hf) as [d Hd].
  rewrite Hd. apply C36_detection in Hd; try lia; [|exact Hms]. subst d. cbn [bind].
  rewrite (low_quality_identical gabor junk3 lo (4 * s) s r N) by (auto; lia). cbn [bind].
  rewrite C35_zero by exact Hb. reflexivity.
Qed.
Print Assumptions C36_mad.

(** The conditions can be met. *)
Example C36_example :
  let r := MFloat (tabulate [9; 9] (fun _ => 1%R)) in
  most_apparent_distortion (fun a => (a, a)) (fun a _ _ => a) (fun _ _ => NaN) (fun _ _ => (NaN, NaN, NaN))
    {| h_b := 0; h_k := 1; h_gamma := 3; h_ms := 1 |} {| l_orient := 1; l_scales := 1; l_weights := [1%R] |}
    255 4 (3 / 4) (467/1000) (130/1000) None None r r = Ok (Fin 0).
Proof.
  intros r. apply (C36_mad (fun a => (a, a)) (fun a _ _ => a) _ _
    {| h_b := 0; h_k := 1; h_gamma := 3; h_ms := 1 |} {| l_orient := 1; l_scales := 1; l_weights := [1%R] |} 255 1 _ _ None None r 9
    (amap (fun x => 0 + 1 * rpow x (3 / 3))%R (tabulate [9; 9] (fun _ => 1%R)))); try reflexivity; try lia; cbn; try lia; try lra.
Qed.

(** ** C37 *)

(** [f] is any statistic of a block. With block size 4 s and stride s: *)
Theorem C37_assignment : forall {A} m n s (f : nat * nat -> A) init,
  0 < s -> 4 * s <= m -> 4 * s <= n ->
  (m mod s = 0 /\ n mod s = 0 ->
     exists loc, assign_blocks m n s (map f (block_grid m n (4 * s) s)) init = Ok loc /\
       forall x y, x < m -> y < n ->
         (x / s * s + 4 * s <= m -> y / s * s + 4 * s <= n -> loc x y = f (x / s * s, y / s * s)) /\
         (m < x / s * s + 4 * s \/ n < y / s * s + 4 * s -> loc x y = init x y)) /\
  (m mod s <> 0 \/ n mod s <> 0 ->
     assign_blocks m n s (map f (block_grid m n (4 * s) s)) init = Err IndexError).
Proof.
  intros A m n s f init Hs Hm Hn. split.
  - intros [Em En]. destruct (assign_spec m n s f (map f (block_grid m n (4 * s) s)) init Hs) as (loc & Hl & H1 & H2).
    { intros j t Hj. rewrite hq_tiles_blocks in Hj by assumption. rewrite nth_error_map, Hj. reflexivity. }
    exists loc. split; [exact Hl|].
    assert (G : forall a x, 4 * s <= a -> a mod s = 0 -> (x / s * s + 3 * s < a <-> x / s * s + 4 * s <= a)).
    { intros a x Ha Ea. pose proof (Nat.div_mod a s ltac:(lia)) as D. rewrite Ea in D.
      split; [|lia]. intros L. set (q := a / s) in *. set (k := x / s) in *.
      assert (k + 3 < q) by nia. nia. }
    intros x y Hx Hy. split.
    + intros Lx Ly. apply H1; apply G; assumption.
    + intros N. apply H2. intros [N1 N2]. apply G in N1; [|assumption|assumption]. apply G in N2; [|assumption|assumption]. lia.
  - intros E. unfold assign_blocks. apply assign_short; [lia|]. rewrite map_length. apply hq_tiles_more; assumption.
Qed.
Print Assumptions C37_assignment.

(** The statistic of block (i s, j s) goes to the tile at the same position. *)
Theorem C37_blocks : forall img b s m n k l, shp img = [m; n] -> 0 < s -> 0 < b -> k * s + b <= m -> l * s + b <= n ->
  exists blocks, extract_blocks img b s = Ok blocks /\
    length blocks = length (block_grid m n b s) /\
    (forall j p, nth_error (block_grid m n b s) j = Some p ->
       exists bl, nth_error blocks j = Some bl /\ shp bl = [b; b] /\
         forall u v, u < b -> v < b -> getd bl [u; v] = getd img [fst p + u; snd p + v]) /\
    In (k * s, l * s) (block_grid m n b s).
Proof.
  intros img b s m n k l Hsh Hs Hb Hk Hl. unfold extract_blocks. rewrite Hsh. cbn [length Nat.eqb].
  unfold dim0, dim1. rewrite Hsh. cbn [nth]. eexists. split; [reflexivity|].
  split; [apply map_length|]. split.
  - intros j p Hj. rewrite nth_error_map, Hj. cbn [option_map]. eexists. split; [reflexivity|].
    assert (Hp : fst p + b <= m /\ snd p + b <= n).
    { apply nth_error_In in Hj. unfold block_grid in Hj. apply in_grid in Hj as [P1 P2].
      apply in_steps in P1 as (k1 & E1 & L1); [|exact Hs]. apply in_steps in P2 as (k2 & E2 & L2); [|exact Hs]. lia. }
    assert (Hbl : shp (block img b p) = [b; b]).
    { unfold block, dim0, dim1. rewrite Hsh. cbn [tabulate shp nth]. f_equal; [lia|]. f_equal. lia. }
    split; [exact Hbl|]. intros u v Hu Hv. unfold block in *. rewrite getd_tab; [reflexivity|].
    cbn [tabulate shp] in Hbl. rewrite Hbl. cbn [inb]. destruct (Nat.ltb_spec u b); [|lia]. destruct (Nat.ltb_spec v b); [|lia]. reflexivity.
  - unfold block_grid. apply in_grid. cbn [fst snd]. split; apply in_steps; try exact Hs; [exists k|exists l]; lia.
Qed.
Print Assumptions C37_blocks.

(** The whole detection index on square images. *)
Theorem C37_square : forall filt junk o dr s r m N lr lm,
  0 < s -> shp (mvals r) = [N; N] -> 4 * s <= N ->
  lightness (h_b o) (h_k o) (h_gamma o) dr r = Ok lr -> lightness (h_b o) (h_k o) (h_gamma o) dr m = Ok lm ->
  shp (fst (filt lr)) = [N; N] ->
  (N mod s = 0 <-> exists d, high_quality filt junk o dr (4 * s) s r m = Ok d) /\
  (N mod s <> 0 <-> high_quality filt junk o dr (4 * s) s r m = Err IndexError).
Proof.
  intros filt junk o dr s r m N lr lm Hs Hr H4 Er Em Hf.
  pose proof (high_quality_ok filt junk o dr s r m N lr lm Hs Hr H4) as HO.
  pose proof (high_quality_index_error filt junk o dr s r m N lr lm Hs Hr H4) as HE.
  split; split.
  - intros E. apply HO; assumption.
  - intros [d E]. destruct (Nat.eq_dec (N mod s) 0) as [Z0|Z0]; [exact Z0|]. rewrite HE in E by assumption. discriminate.
  - intros E. apply HE; assumption.
  - intros E Z0. destruct (HO Z0 Er Em Hf) as [d Hd]. congruence.
Qed.
Print Assumptions C37_square.

(** With another overlap the running numbers no longer correspond: at 50 % overlap the tile below the
    upper left one gets the statistics of a block near the right border. *)
Theorem C37_half_overlap : forall {A} s q (f : nat * nat -> A) init, 0 < s -> 5 <= q ->
  exists loc, assign_blocks (q * s) (q * s) s (map f (block_grid (q * s) (q * s) (2 * s) s)) init = Ok loc /\
    loc s 0 = f (0, (q - 3) * s).
Proof.
  intros A s q f init Hs Hq.
  set (G := block_grid (q * s) (q * s) (2 * s) s). set (T := hq_tiles (q * s) (q * s) s).
  assert (LT : length (steps (q * s - s * 3) s) = q - 3).
  { rewrite steps_count. symmetry. apply (Nat.div_unique _ _ _ (s - 1)); [lia|]. nia. }
  assert (LG : length (steps (q * s - (2 * s - 1)) s) = q - 1).
  { rewrite steps_count. symmetry. apply (Nat.div_unique _ _ _ 0); [lia|]. nia. }
  assert (LL : length T <= length G).
  { unfold T, G, hq_tiles, block_grid. rewrite !grid_length, LT, LG. apply Nat.mul_le_mono; lia. }
  (* split the tiles at the one of interest *)
  set (g := fun t => match nth_error (map f G) (fst t / s * (q - 3) + snd t / s) with Some v => v | None => f (0, 0) end).
  destruct (assign_spec (q * s) (q * s) s g (map f G) init Hs) as (loc & Hl & H1 & _).
  { intros j t Hj. fold T in Hj.
    assert (Lj : j < length T) by (apply nth_error_Some; congruence).
    assert (D := Nat.div_mod j (q - 3) ltac:(lia)). assert (Hr := Nat.mod_upper_bound j (q - 3) ltac:(lia)).
    set (i := j / (q - 3)) in *. set (k := j mod (q - 3)) in *.
    assert (Li : i < q - 3).
    { unfold T, hq_tiles in Lj. rewrite grid_length, LT in Lj. nia. }
    assert (Ht : t = (i * s, k * s)).
    { assert (E : nth_error T (i * length (steps (q * s - s * 3) s) + k) = Some (i * s, k * s)).
      { unfold T, hq_tiles. apply nth_grid; apply nth_steps; try exact Hs; nia. }
      rewrite LT in E. replace (i * (q - 3) + k) with j in E by nia. congruence. }
    subst t. unfold g. cbn [fst snd]. rewrite !Nat.div_mul by lia. replace (i * (q - 3) + k) with j by nia.
    destruct (nth_error (map f G) j) as [v|] eqn:E; [reflexivity|].
    apply nth_error_None in E. rewrite map_length in E. lia. }
  exists loc. split; [exact Hl|].
  assert (Ds : s / s = 1) by (apply Nat.div_same; lia).
  rewrite H1; rewrite ?Ds, ?Nat.div_0_l by lia; [|nia|nia].
  unfold g. cbn [fst snd]. rewrite Nat.mul_1_l, Ds. rewrite Nat.mul_0_l, Nat.div_0_l by lia.
  assert (E : nth_error G (0 * length (steps (q * s - (2 * s - 1)) s) + (q - 3)) = Some (0 * s, (q - 3) * s)).
  { unfold G, block_grid. apply nth_grid; apply nth_steps; try exact Hs; nia. }
  rewrite Nat.mul_0_l, Nat.add_0_l in E. rewrite nth_error_map. replace (1 * (q - 3) + 0) with (q - 3) by lia. rewrite E. reflexivity.
Qed.
Print Assumptions C37_half_overlap.

(** So "the block at the tile's own position" is false for other overlaps. *)
Theorem C37_other_overlap_refuted : exists b s m n loc, 0 < s <= b /\ b <= m /\ b <= n /\ m mod s = 0 /\ n mod s = 0 /\
  assign_blocks m n s (map (fun p => p) (block_grid m n b s)) (fun _ _ => (0, 0)) = Ok loc /\
  loc s 0 = (0, 24) /\ loc s 0 <> (s, 0).
Proof.
  destruct (C37_half_overlap 8 6 (fun p => p) (fun _ _ => (0, 0))) as (loc & H & E); try lia.
  exists 16, 8, 48, 48, loc. repeat split; try lia; try exact H; rewrite E; [reflexivity|discriminate].
Qed.
Print Assumptions C37_other_overlap_refuted.

(** Blocks of 4 pixels with stride 1 in 5 x 5 pixels: four tiles get their block; 5 x 5 with stride 2 runs out of blocks. *)
Example C37_example :
  match assign_blocks 5 5 1 (map (fun p => p) (block_grid 5 5 4 1)) (fun _ _ => (9, 9)) with
  | Ok loc => loc 0 0 = (0, 0) /\ loc 0 1 = (0, 1) /\ loc 1 0 = (1, 0) /\ loc 1 1 = (1, 1) /\ loc 2 2 = (9, 9)
  | Err _ => False
  end /\
  match assign_blocks 9 9 2 (map (fun p => p) (block_grid 9 9 8 2)) (fun _ _ => (9, 9)) with Ok _ => False | Err e => e = IndexError end.
Proof. vm_compute. repeat split; reflexivity. Qed.

(** ** C38 *)

Theorem C38_area : forall m n b, 0 < b -> b <= m -> b <= n ->
  (forall x y, In (x, y) (kept m n b) <-> b <= x < m - b /\ b <= y < n - b) /\
  length (kept m n b) = (m - 2 * b) * (n - 2 * b).
Proof.
  intros m n b Hb Hm Hn. split; [|apply kept_length; assumption].
  intros x y. rewrite in_kept by assumption. reflexivity.
Qed.
Print Assumptions C38_area.

Theorem C38_block_size_check : forall m n bs ov,
  (exists st, stride_of m n bs ov = Ok st) <-> (0 < bs <= Z.of_nat m /\ bs <= Z.of_nat n)%Z /\ (0 <= ov < 1)%R.
Proof.
  intros m n bs ov. unfold stride_of.
  destruct (Z.ltb_spec (Z.of_nat m) bs); cbn [orb]; [split; [intros [st E]; discriminate|lia]|].
  destruct (Z.ltb_spec (Z.of_nat n) bs); cbn [orb]; [split; [intros [st E]; discriminate|lia]|].
  destruct (Z.ltb_spec 0 bs); [|split; [intros [st E]; discriminate|lia]].
  destruct (Rle_dec 1 ov); [split; [intros [st E]; discriminate|intros [_ E]; lra]|].
  destruct (Rlt_dec ov 0); [split; [intros [st E]; discriminate|intros [_ E]; lra]|].
  split; [intros _; split; [lia|lra]|eauto].
Qed.
Print Assumptions C38_block_size_check.

(** Stride: at least 1, at most the block size. *)
Theorem C38_stride : forall m n bs ov b s, stride_of m n bs ov = Ok (b, s) -> Z.of_nat b = bs /\ 1 <= s <= b.
Proof.
  intros m n bs ov b s. unfold stride_of.
  destruct (_ || _); [discriminate|]. destruct (Z.ltb_spec 0 bs) as [Hb|]; [|discriminate].
  destruct (Rle_dec 1 ov) as [|H1]; [discriminate|]. destruct (Rlt_dec ov 0) as [|H0]; [discriminate|].
  intros E. injection E as <- <-.
  assert (Hp : (0 < IZR bs)%R) by (apply IZR_lt; exact Hb).
  destruct (base_Int_part (ov * IZR bs)) as [B1 B2].
  assert (L : (Int_part (ov * IZR bs) < bs)%Z) by (apply lt_IZR; nra).
  assert (G : (-1 < Int_part (ov * IZR bs))%Z) by (apply lt_IZR; nra).
  split; lia.
Qed.
Print Assumptions C38_stride.

(** A side between the block size and twice the block size leaves nothing to average: whatever is
    returned is not a number. *)
Theorem C38_nan : forall filt gabor junk junk3 ho lo dr bs ov beta_1 beta_2 t1 t2 r m x,
  (Z.of_nat (dim0 (mvals r)) <= 2 * bs \/ Z.of_nat (dim1 (mvals r)) <= 2 * bs)%Z ->
  snd (betas beta_1 beta_2 t1 t2) <> 0%R ->
  most_apparent_distortion filt gabor junk junk3 ho lo dr bs ov beta_1 beta_2 t1 t2 r m = Ok x -> x = NaN.
Proof.
  intros filt gabor junk junk3 ho lo dr bs ov beta_1 beta_2 t1 t2 r m x Hs Hb H.
  unfold most_apparent_distortion in H. destruct (negb _); [discriminate|].
  destruct (stride_of _ _ bs ov) as [[b s]|] eqn:Es; [|discriminate]. cbn [bind fst snd] in H.
  pose proof (C38_stride _ _ _ _ _ _ Es) as [Eb Hbs].
  assert (Hc : (exists st, stride_of (dim0 (mvals r)) (dim1 (mvals r)) bs ov = Ok st)) by eauto.
  apply C38_block_size_check in Hc as [Hc _].
  destruct (high_quality _ _ _ _ _ _ _ _) as [d|] eqn:Ed; [|discriminate]. cbn [bind] in H.
  destruct (low_quality _ _ _ _ _ _ _) as [a|] eqn:Ea; [|discriminate]. cbn [bind] in H.
  apply high_quality_empty in Ed; try lia. apply low_quality_empty in Ea; try lia. subst d a.
  injection H as <-. unfold combine_indices, ext_pow. destruct (Req_EM_T _ 0); [contradiction|]. reflexivity.
Qed.
Print Assumptions C38_nan.

(** And it is returned, without an error, for every square image with such a side. *)
Theorem C38_nan_returned : forall filt gabor junk junk3 ho lo dr s beta_1 beta_2 t1 t2 r m N lr lm,
  0 < s -> shp (mvals r) = [N; N] -> N mod s = 0 -> 4 * s <= N <= 8 * s ->
  lightness (h_b ho) (h_k ho) (h_gamma ho) dr r = Ok lr -> lightness (h_b ho) (h_k ho) (h_gamma ho) dr m = Ok lm ->
  shp (fst (filt lr)) = [N; N] -> length (l_weights lo) = l_scales lo -> 0 < l_orient lo -> snd (betas beta_1 beta_2 t1 t2) <> 0%R ->
  most_apparent_distortion filt gabor junk junk3 ho lo dr (Z.of_nat (4 * s)) (3 / 4) beta_1 beta_2 t1 t2 r m = Ok NaN.
Proof.
  intros filt gabor junk junk3 ho lo dr s beta_1 beta_2 t1 t2 r m N lr lm Hs Hr Hmod HN Er Em Hf Hw Ho Hb.
  assert (D0 : dim0 (mvals r) = N) by (unfold dim0; rewrite Hr; reflexivity).
  assert (D1 : dim1 (mvals r) = N) by (unfold dim1; rewrite Hr; reflexivity).
  assert (E : exists x, most_apparent_distortion filt gabor junk junk3 ho lo dr (Z.of_nat (4 * s)) (3 / 4) beta_1 beta_2 t1 t2 r m = Ok x).
  { unfold most_apparent_distortion. rewrite D0, D1. rewrite Hr. cbn [length Nat.eqb negb].
    rewrite stride_default by lia. cbn [bind fst snd].
    destruct (high_quality_ok filt junk ho dr s r m N lr lm Hs Hr ltac:(lia) Hmod Er Em Hf) as [d ->]. cbn [bind].
    rewrite (low_quality_square gabor junk3 lo (4 * s) s r m N) by (auto; lia). cbn [bind]. eauto. }
  destruct E as [x E]. rewrite E. f_equal. apply C38_nan in E; [exact E| |exact Hb]. rewrite D0. lia.
Qed.
Print Assumptions C38_nan_returned.

(** 9 x 9 pixels with blocks of 4 leave the centre; 8 x 8 pixels nothing. *)
Example C38_example : kept 9 9 4 = [(4, 4)] /\ kept 8 8 4 = [] /\ exists st, stride_of 8 8 4 (3 / 4) = Ok st.
Proof. split; [reflexivity|]. split; [reflexivity|]. apply C38_block_size_check. split; [lia|lra]. Qed.

(** ** C39 *)

(** An access outside the buffers (MemoryFault) happens exactly when some block starting row lies
    inside the number of columns but reaches beyond the number of rows. n rows, m columns. *)
Theorem C39_fault_iff : forall n m b s buf (tmp0 out0 : nat -> ext) (out3 : nat -> stat3),
  0 < s -> s <= b -> b <= n -> b <= m ->
  (minstd n m b s buf tmp0 out0 = Err MemoryFault <-> exists k, n < k * s + b /\ k * s + b <= m) /\
  (getstatistics n m b s buf out3 = Err MemoryFault <-> exists k, n < k * s + b /\ k * s + b <= m).
Proof.
  intros n m b s buf tmp0 out0 out3 Hs Hb Hn Hm.
  assert (Dec : (exists k, n < k * s + b /\ k * s + b <= m) \/ ~ (exists k, n < k * s + b /\ k * s + b <= m)).
  { set (k := (n - b) / s + 1).
    assert (D := Nat.div_mod (n - b) s ltac:(lia)). pose proof (Nat.mod_upper_bound (n - b) s ltac:(lia)).
    destruct (Nat.le_gt_cases (k * s + b) m) as [H1|H1].
    - left. exists k. split; [|exact H1]. unfold k. nia.
    - right. intros (k' & L1 & L2). assert (k <= k'); [|nia]. unfold k.
      assert ((n - b) / s < k'); [|lia]. apply Nat.div_lt_upper_bound; lia. }
  destruct Dec as [H|H].
  - split; (split; [intros _; exact H|intros _]); destruct H as (k & L1 & L2);
      [eapply minstd_fault|eapply getstatistics_fault]; eauto; lia.
  - split; split; try contradiction; intros E.
    + destruct (minstd_ok n m b s buf tmp0 out0 Hs Hb Hn Hm H) as (out & Ho & _). congruence.
    + destruct (getstatistics_ok n m b s buf out3 Hs Hb Hn Hm H) as (out & Ho & _). congruence.
Qed.
Print Assumptions C39_fault_iff.

(** In particular: never if there are at least as many rows as columns, always if there are at least
    a stride more columns than rows. *)
Theorem C39_shapes : forall n m b s, 0 < s -> s <= b -> b <= n ->
  (m <= n -> ~ exists k, n < k * s + b /\ k * s + b <= m) /\
  (n + s <= m -> exists k, n < k * s + b /\ k * s + b <= m).
Proof.
  intros n m b s Hs Hb Hn. split; [intros H (k & L1 & L2); lia|].
  intros H. exists ((n - b) / s + 1). assert (D := Nat.div_mod (n - b) s ltac:(lia)).
  pose proof (Nat.mod_upper_bound (n - b) s ltac:(lia)). nia.
Qed.
Print Assumptions C39_shapes.

(** Square images: every pixel MAD uses has been written, i.e. does not depend on what the freshly
    allocated buffers contained. *)
Theorem C39_square_initialised : forall N b s buf (t0 t0' o0 o0' : nat -> ext) (p0 p0' : nat -> stat3),
  0 < s -> s <= b -> b <= N ->
  exists o o' p p',
    minstd N N b s buf t0 o0 = Ok o /\ minstd N N b s buf t0' o0' = Ok o' /\
    getstatistics N N b s buf p0 = Ok p /\ getstatistics N N b s buf p0' = Ok p' /\
    forall x y, In (x, y) (kept N N b) -> o (x * N + y) = o' (x * N + y) /\ p (x * N + y) = p' (x * N + y).
Proof.
  intros N b s buf t0 t0' o0 o0' p0 p0' Hs Hb HN.
  destruct (minstd_square N b s buf t0 o0 Hs Hb HN) as (t & o & Ho & T1 & _ & O1 & _).
  destruct (minstd_square N b s buf t0' o0' Hs Hb HN) as (t' & o' & Ho' & T1' & _ & O1' & _).
  destruct (getstatistics_square N b s buf p0 Hs Hb HN) as (p & Hp & P1 & _).
  destruct (getstatistics_square N b s buf p0' Hs Hb HN) as (p' & Hp' & P1' & _).
  exists o, o', p, p'. repeat (split; [assumption|]).
  intros x y Hxy. apply in_kept in Hxy; try lia. cbn [fst snd] in Hxy.
  assert (Cx : covered N b s x) by (apply covered_inner; lia).
  assert (Cy : covered N b s y) by (apply covered_inner; lia).
  split; [|rewrite P1, P1' by (auto; lia); reflexivity].
  rewrite O1, O1' by (auto; lia). unfold search_min.
  assert (E : forall uv, fst uv < N - b -> snd uv < N - b -> t (fst uv * N + snd uv) = t' (fst uv * N + snd uv)).
  { intros uv H1 H2. rewrite T1, T1' by (try apply covered_inner; lia). reflexivity. }
  pose proof (tile_of x s Hs). pose proof (tile_of y s Hs).
  rewrite E by (cbn [fst snd]; lia).
  assert (Hbh : b / 2 <= b) by (apply Nat.div_le_upper_bound; lia).
  assert (G : forall l v, (forall uv, In uv l -> fst uv < N - b /\ snd uv < N - b) ->
    fold_left (fun val uv => if ext_ltb (t (fst uv * N + snd uv)) val then t (fst uv * N + snd uv) else val) l v =
    fold_left (fun val uv => if ext_ltb (t' (fst uv * N + snd uv)) val then t' (fst uv * N + snd uv) else val) l v).
  { induction l as [|uv l IH]; intros v Hl; [reflexivity|]. cbn [fold_left].
    rewrite E by (apply Hl; left; reflexivity). apply IH. intros; apply Hl; right; assumption. }
  apply G. intros uv Huv. apply in_grid in Huv as [H1 H2].
  apply in_search in H1 as (k1 & E1 & B1). apply in_search in H2 as (k2 & E2 & B2). lia.
Qed.
Print Assumptions C39_square_initialised.

(** With many more rows than columns, a pixel inside the kept area still has the value the buffer
    happened to contain. *)
Theorem C39_tall_uninitialised : forall n m b s buf tmp0 out0 (out3 : nat -> stat3),
  0 < s -> s <= b -> 2 * b < m -> m + s + 2 <= n ->
  In (n - b - 1, b) (kept n m b) /\
  (exists o, minstd n m b s buf tmp0 out0 = Ok o /\ o ((n - b - 1) * m + b) = out0 ((n - b - 1) * m + b)) /\
  (exists p, getstatistics n m b s buf out3 = Ok p /\ p ((n - b - 1) * m + b) = out3 ((n - b - 1) * m + b)).
Proof.
  intros n m b s buf tmp0 out0 out3 Hs Hb Hm Hn. split; [apply in_kept; cbn [fst snd]; lia|].
  assert (Hno : ~ exists k, n < k * s + b /\ k * s + b <= m) by (intros (k & ? & ?); lia).
  pose proof (tall_unwritten n m b s Hs Hb Hm Hn) as U. split.
  - destruct (minstd_ok n m b s buf tmp0 out0) as (o & Ho & H); try lia; auto. exists o. auto.
  - destruct (getstatistics_ok n m b s buf out3) as (p & Hp & H); try lia; auto. exists p. auto.
Qed.
Print Assumptions C39_tall_uninitialised.

Example C39_example : minstd 4 8 2 1 (fun _ => 0%R) (fun _ => NaN) (fun _ => NaN) = Err MemoryFault.
Proof. apply (C39_fault_iff 4 8 2 1 _ _ _ (fun _ => (NaN, NaN, NaN))); try lia. exists 5. lia. Qed.

(** ** C40 *)

(** The values of the b x b block at t of an N x N buffer. *)
Definition block_values (N b : nat) (buf : nat -> R) (t : nat * nat) : list R :=
  map (fun uv => buf (fst uv * N + snd uv)) (window (fst t) (snd t) b).

(** i, j: upper left corner of the tile of pixel (x, y). *)
Theorem C40_plain : forall N b s buf tmp0 out0 x y,
  0 < s -> s <= b -> x + b <= N -> y + b <= N ->
  b / 2 <= x / s * s \/ b / 2 <= y / s * s ->
  exists o, minstd N N b s buf tmp0 out0 = Ok o /\
    o (x * N + y) = std1 (block_values N b buf (x / s * s, y / s * s)).
Proof.
  intros N b s buf tmp0 out0 x y Hs Hb Hx Hy H.
  destruct (minstd_square N b s buf tmp0 out0 Hs Hb ltac:(lia)) as (t & o & Ho & T1 & _ & O1 & _).
  exists o. split; [exact Ho|].
  assert (Cx : covered N b s x) by (apply covered_inner; lia).
  assert (Cy : covered N b s y) by (apply covered_inner; lia).
  rewrite O1 by (auto; lia). unfold search_min.
  assert (E : grid (search (x / s * s) b s) (search (y / s * s) b s) = []).
  { destruct H as [H|H]; rewrite (search_empty _ _ _ H); [reflexivity|]. unfold grid.
    induction (search (x / s * s) b s) as [|z l IH]; [reflexivity|]. cbn [flat_map map app]. exact IH. }
  cbn [fst snd]. rewrite E. cbn [fold_left].
  pose proof (tile_of x s Hs). pose proof (tile_of y s Hs).
  rewrite T1 by (try apply covered_inner; lia). unfold block_std, tile_vals, block_values.
  rewrite !Nat.div_mul by lia. reflexivity.
Qed.
Print Assumptions C40_plain.

(** Otherwise the smallest deviation of the block itself and of the blocks searched: those that
    contain the positions (i + k (s+1), j + l (s+1)) below half the block size. *)
Theorem C40_minimum : forall N b s buf tmp0 out0 x y,
  0 < s -> s <= b -> 2 <= b -> 2 * b <= N -> x + b <= N -> y + b <= N ->
  let i := x / s * s in let j := y / s * s in
  let searched u v := exists k l, u = i + k * (s + 1) /\ v = j + l * (s + 1) /\ u < b / 2 /\ v < b / 2 in
  let deviation u v := std_of (block_values N b buf (u / s * s, v / s * s)) in
  exists o z, minstd N N b s buf tmp0 out0 = Ok o /\ o (x * N + y) = Fin z /\
    (z = deviation i j \/ exists u v, searched u v /\ z = deviation u v) /\
    (z <= deviation i j)%R /\ (forall u v, searched u v -> (z <= deviation u v)%R).
Proof.
  intros N b s buf tmp0 out0 x y Hs Hb H2 HN Hx Hy i j searched deviation.
  destruct (minstd_square N b s buf tmp0 out0 Hs Hb ltac:(lia)) as (t & o & Ho & T1 & _ & O1 & _).
  assert (Cx : covered N b s x) by (apply covered_inner; lia).
  assert (Cy : covered N b s y) by (apply covered_inner; lia).
  pose proof (tile_of x s Hs) as Tx. pose proof (tile_of y s Hs) as Ty. fold i in Tx. fold j in Ty.
  assert (Hbh : b / 2 <= b) by (apply Nat.div_le_upper_bound; lia).
  assert (TF : forall uv, fst uv + b <= N -> snd uv + b <= N -> t (fst uv * N + snd uv) = Fin (deviation (fst uv) (snd uv))).
  { intros uv L1 L2. rewrite T1 by (try apply covered_inner; lia). rewrite block_std_fin by exact H2. reflexivity. }
  assert (SE : forall uv, In uv (grid (search i b s) (search j b s)) <-> searched (fst uv) (snd uv)).
  { intros uv. rewrite in_grid, !in_search. unfold searched. split.
    - intros [(k & E1 & B1) (l & E2 & B2)]. exists k, l. auto.
    - intros (k & l & E1 & E2 & B1 & B2). split; [exists k|exists l]; auto. }
  destruct (search_min_spec (fun uv => deviation (fst uv) (snd uv)) (fun uv => t (fst uv * N + snd uv)) b s (i, j))
    as (z & uv & E & E1 & I & B1 & B2).
  - apply TF; cbn [fst snd]; lia.
  - intros uv Huv. apply SE in Huv as (k & l & _ & _ & L1 & L2). apply TF; lia.
  - cbn [fst snd] in *. exists o, z. split; [exact Ho|]. split; [rewrite O1 by (auto; lia); exact E|].
    split; [|split; [exact B1|]].
    + destruct I as [->|I]; [left; exact E1|right]. exists (fst uv), (snd uv). split; [apply SE, I|exact E1].
    + intros u v Hs'. apply (B2 (u, v)). apply SE. exact Hs'.
Qed.
Print Assumptions C40_minimum.

(** A constant buffer: pixel (2, 2) belongs to a tile outside the searched area. *)
Example C40_example : exists o, minstd 4 4 2 1 (fun _ => 1%R) (fun _ => NaN) (fun _ => NaN) = Ok o /\
  o 10 = std1 (block_values 4 2 (fun _ => 1%R) (2, 2)).
Proof. apply (C40_plain 4 2 1 (fun _ => 1%R) (fun _ => NaN) (fun _ => NaN) 2 2); cbn; lia. Qed.

(** ** C41 *)
Section C41.
Local Open Scope R_scope.

Lemma lut_length b k g dr : length (lut b k g dr) = Z.to_nat (dr + 1).
Proof. unfold lut. rewrite map_length, seq_length. reflexivity. Qed.

Lemma lut_nth b k g dr n : (n < Z.to_nat (dr + 1))%nat -> nth_error (lut b k g dr) n = Some (b + k * rpow (INR n) (g / 3)).
Proof.
  intros H. unfold lut. rewrite nth_error_map, (nth_error_nth' _ 0%nat) by (rewrite seq_length; exact H).
  rewrite seq_nth by exact H. reflexivity.
Qed.

Theorem C41_in_range : forall b k g dr a, (0 <= dr)%Z -> (forall v, In v (dat a) -> (0 <= v <= dr)%Z) ->
  lightness b k g dr (MInt a) = lightness b k g dr (MFloat (amap IZR a)).
Proof.
  intros b k g dr a Hdr H. unfold lightness, amap. cbn [shp dat]. rewrite map_map.
  rewrite (mapM_map _ (fun v => b + k * rpow (IZR v) (g / 3))); [reflexivity|].
  intros v Hv. specialize (H v Hv). unfold pyindex. destruct (Z.leb_spec 0 v); [|lia].
  rewrite lut_nth by lia. cbn [from_opt]. rewrite INR_IZR_INZ, Z2Nat.id by lia. reflexivity.
Qed.
Print Assumptions C41_in_range.

(** One pixel value anywhere. *)
Theorem C41_pixel : forall b k g dr v, (0 <= dr)%Z ->
  ((dr < v)%Z -> pyindex (lut b k g dr) v = Err IndexError) /\
  ((- (dr + 1) <= v < 0)%Z -> pyindex (lut b k g dr) v = Ok (b + k * rpow (IZR (dr + 1 + v)) (g / 3))) /\
  ((v < - (dr + 1))%Z -> pyindex (lut b k g dr) v = Err IndexError).
Proof.
  intros b k g dr v Hdr. unfold pyindex. rewrite lut_length. rewrite Z2Nat.id by lia. split; [|split]; intros H.
  - destruct (Z.leb_spec 0 v); [|lia].
    assert (E : nth_error (lut b k g dr) (Z.to_nat v) = None) by (apply nth_error_None; rewrite lut_length; lia).
    rewrite E. reflexivity.
  - destruct (Z.leb_spec 0 v); [lia|]. destruct (Z.leb_spec 0 (dr + 1 + v)); [|lia].
    rewrite lut_nth by lia. cbn [from_opt]. rewrite INR_IZR_INZ, Z2Nat.id by lia. reflexivity.
  - destruct (Z.leb_spec 0 v); [lia|]. destruct (Z.leb_spec 0 (dr + 1 + v)); [lia|]. reflexivity.
Qed.
Print Assumptions C41_pixel.

(** One such pixel makes the whole image fail. *)
Theorem C41_above : forall b k g dr a v, (0 <= dr)%Z -> In v (dat a) -> (dr < v \/ v < - (dr + 1))%Z ->
  lightness b k g dr (MInt a) = Err IndexError.
Proof.
  intros b k g dr a v Hdr Hin Hv. unfold lightness.
  rewrite (mapM_fails _ IndexError _ v Hin); [reflexivity| |].
  - destruct (C41_pixel b k g dr v Hdr) as (H1 & _ & H3). destruct Hv; auto.
  - intros x e _ E. unfold pyindex in E.
    match type of E with from_opt _ ?o = _ => destruct o; cbn [from_opt] in E; congruence end.
Qed.
Print Assumptions C41_above.

(** The value -1 is as bright as the brightest pixel. *)
Example C41_example : forall b k g, pyindex (lut b k g 255) (-1) = pyindex (lut b k g 255) 255.
Proof.
  intros b k g. destruct (C41_pixel b k g 255 (-1)) as (_ & H & _); [lia|]. rewrite H by lia.
  unfold pyindex. cbn [Z.leb Z.compare]. rewrite lut_nth by lia. cbn [from_opt]. rewrite INR_IZR_INZ, Z2Nat.id by lia. reflexivity.
Qed.
End C41.

(** ** C78: the real part handed to minstd is a strided view *)

(** minstd sees only the first half of the filtered image. *)
Theorem C78_first_half : forall n m b s re im re' im' tmp0 out0,
  (forall p, 2 * p < n * m -> nth p (dat re) 0%R = nth p (dat re') 0%R) ->
  (forall p, 2 * p < n * m -> nth p (dat im) 0%R = nth p (dat im') 0%R) ->
  minstd n m b s (interleave re im) tmp0 out0 = minstd n m b s (interleave re' im') tmp0 out0.
Proof.
  intros n m b s re im re' im' tmp0 out0 H1 H2. apply minstd_buf_ext. intros q Hq. unfold interleave.
  pose proof (Nat.div_mod q 2 ltac:(lia)).
  destruct (Nat.even q) eqn:E; [apply H1|apply H2]; lia.
Qed.
Print Assumptions C78_first_half.

(** A real part that is constant has deviation 0 in every block, but with a vanishing imaginary part
    minstd returns a positive deviation at every pixel MAD uses. *)
Theorem C78_constant_deviates : forall N b s c re im tmp0 out0,
  0 < s -> s <= b -> 2 <= b -> 2 * b <= N -> c <> 0%R ->
  (forall p, p < N * N -> nth p (dat re) 0%R = c) -> (forall p, p < N * N -> nth p (dat im) 0%R = 0%R) ->
  forall x y, x + b <= N -> y + b <= N ->
  std1 (block_values N b (fun q => nth q (dat re) 0%R) (x / s * s, y / s * s)) = Fin 0 /\
  exists o z, minstd N N b s (interleave re im) tmp0 out0 = Ok o /\ o (x * N + y) = Fin z /\ (0 < z)%R.
Proof.
  intros N b s c re im tmp0 out0 Hs Hb H2 HN Hc Hre Him x y Hx Hy.
  pose proof (tile_of x s Hs). pose proof (tile_of y s Hs). split.
  - destruct (std1_const c (block_values N b (fun q => nth q (dat re) 0%R) (x / s * s, y / s * s))) as [E|E]; [|exact E|].
    + intros v Hv. apply in_map_iff in Hv as (uv & <- & Hin). apply in_window in Hin. cbn [fst snd] in Hin.
      apply Hre. nia.
    + exfalso. unfold std1 in E. destruct (Nat.eqb_spec (length (block_values N b (fun q => nth q (dat re) 0%R) (x / s * s, y / s * s))) 1) as [E1|E1]; [|discriminate].
      unfold block_values in E1. rewrite map_length, window_length in E1. nia.
  - assert (P : forall u v, u + b <= N -> v + b <= N -> (0 < std_of (block_values N b (interleave re im) (u, v)))%R).
    { intros u v Hu Hv. unfold std_of. apply sqrt_lt_R0. apply Rdiv_lt_0_compat.
      - set (p := u * N + v). assert (Lp : p + 1 < N * N) by (unfold p; nia).
        assert (I : forall k, k < 2 -> In (interleave re im (p + k)) (block_values N b (interleave re im) (u, v))).
        { intros k Hk. unfold block_values. apply in_map_iff. exists (u, v + k). cbn [fst snd]. split; [f_equal; unfold p; lia|].
          apply in_window. cbn [fst snd]. lia. }
        assert (D : interleave re im p <> interleave re im (p + 1)).
        { unfold interleave. replace (p + 1) with (S p) by lia. rewrite Nat.even_succ, <- Nat.negb_even.
          pose proof (Nat.div_mod p 2 ltac:(lia)). pose proof (Nat.div_mod (S p) 2 ltac:(lia)).
          destruct (Nat.even p); cbn [negb]; rewrite Hre, Him by lia; auto. }
        apply (dev2_pos _ (interleave re im p) (interleave re im (p + 1))).
        + rewrite <- (Nat.add_0_r p) at 1. apply I. lia.
        + apply I. lia.
        + exact D.
      - apply lt_0_INR. unfold block_values. rewrite map_length, window_length. nia. }
    destruct (C40_minimum N b s (interleave re im) tmp0 out0 x y) as (o & z & Ho & Ez & I & _); try assumption.
    exists o, z. split; [exact Ho|]. split; [exact Ez|].
    assert (Hbh : b / 2 <= b) by (apply Nat.div_le_upper_bound; lia).
    destruct I as [->|(u & v & (k & l & _ & _ & B1 & B2) & ->)].
    + rewrite !Nat.div_mul by lia. apply P; lia.
    + pose proof (tile_of u s Hs). pose proof (tile_of v s Hs). apply P; lia.
Qed.
Print Assumptions C78_constant_deviates.

(** An image with constant real part 1. *)
Example C78_example : exists o z, minstd 4 4 2 1 (interleave (tabulate [4; 4] (fun _ => 1%R)) (tabulate [4; 4] (fun _ => 0%R))) (fun _ => NaN) (fun _ => NaN) = Ok o /\
  o 10 = Fin z /\ (0 < z)%R.
Proof.
  refine (proj2 (C78_constant_deviates 4 2 1 1 _ _ _ _ _ _ _ _ _ _ _ 2 2 _ _)); try lia; try lra;
    intros p Hp; do 16 (destruct p as [|p]; [reflexivity|]); lia.
Qed.

(** ** C79: block size 1 *)

Lemma single_std : forall x, std1 [x] = NaN.
Proof. reflexivity. Qed.

Lemma block_one img p : length (dat (block img 1 p)) <= 1.
Proof.
  unfold block. cbn [tabulate dat]. rewrite map_length, length_indices. cbn [size].
  assert (Nat.min (fst p + 1) (dim0 img) - fst p <= 1) by lia.
  assert (Nat.min (snd p + 1) (dim1 img) - snd p <= 1) by lia. nia.
Qed.

Lemma std1_short l : length l <= 1 -> std1 l = Fin 0 \/ std1 l = NaN.
Proof. destruct l as [|x [|y l]]; cbn [length]; intros H; [apply (std1_const 0); intros x []|right; reflexivity|lia]. Qed.

Lemma stride_one m n ov : 1 <= m -> 1 <= n -> (0 <= ov < 1)%R -> stride_of m n 1 ov = Ok (1, 1).
Proof.
  intros Hm Hn Hov. unfold stride_of. destruct (Z.ltb_spec (Z.of_nat m) 1); [lia|]. destruct (Z.ltb_spec (Z.of_nat n) 1); [lia|].
  cbn [orb Z.ltb Z.compare]. destruct (Rle_dec 1 ov); [lra|]. destruct (Rlt_dec ov 0); [lra|].
  assert (E : Int_part (ov * 1) = 0%Z). { apply Int_part_eq. simpl. lra. }
  rewrite E. reflexivity.
Qed.

(** "Use 1 for no blocks": the detection index is 0 for every pair of images, however different. *)
Theorem C79_detection : forall filt junk o dr r m n k lr lm,
  shp (mvals r) = [n; k] -> k <= n -> 3 <= k -> h_ms o <> 0%R ->
  lightness (h_b o) (h_k o) (h_gamma o) dr r = Ok lr -> lightness (h_b o) (h_k o) (h_gamma o) dr m = Ok lm ->
  shp (fst (filt lr)) = [n; k] ->
  high_quality filt junk o dr 1 1 r m = Ok (Fin 0).
Proof.
  intros filt junk o dr r m n k lr lm Hr Hkn Hk Hms Er Em Hf. unfold high_quality. cbv zeta.
  assert (D0 : dim0 (mvals r) = n) by (unfold dim0; rewrite Hr; reflexivity).
  assert (D1 : dim1 (mvals r) = k) by (unfold dim1; rewrite Hr; reflexivity).
  rewrite D0, D1, Er, Em. cbn [bind]. unfold extract_blocks at 1. rewrite Hf. cbn [length Nat.eqb bind].
  set (err := tabulate [n; k] _). unfold extract_blocks. change (shp err) with [n; k]. cbn [length Nat.eqb bind].
  destruct (minstd_ok n k 1 1 (interleave (fst (filt lr)) (snd (filt lr))) (junk 0) (junk 1)) as (so & -> & _); try lia.
  { intros (j & ? & ?). lia. }
  cbn [bind].
  match goal with |- bind (assign_blocks n k 1 ?ps ?init) _ = _ => set (P := ps); set (I := init) end.
  destruct (assign_ok 1 P (hq_tiles n k 1) 0 I) as [loc Hl].
  { unfold P. rewrite combine_length, !map_length. unfold dim0, dim1. rewrite Hf. change (shp err) with [n; k]. cbn [nth].
    rewrite Nat.min_id. unfold block_grid, hq_tiles. rewrite !grid_length, !steps_count, !Nat.div_1_r.
    apply Nat.mul_le_mono; lia. }
  change (assign_blocks n k 1 P I = Ok loc) in Hl. rewrite Hl. cbn [bind].
  assert (S : forall x y, snd (loc x y) = Fin 0 \/ snd (loc x y) = NaN).
  { apply (assign_inv (fun p => snd p = Fin 0 \/ snd p = NaN)) with (2 := fun _ _ => or_introl eq_refl) (3 := Hl).
    intros [u v] Hin. apply in_combine_r in Hin. cbn [snd]. apply in_map_iff in Hin as (bl & <- & Hbl).
    apply in_map_iff in Hbl as (p & <- & _). apply std1_short, block_one. }
  rewrite rms_zero.
  - cbn [ext_mul]. f_equal. f_equal. ring.
  - intros C. apply map_eq_nil in C. assert (L := kept_length n k 1 ltac:(lia) ltac:(lia) ltac:(lia)). rewrite C in L. simpl in L. nia.
  - intros x Hx. apply in_map_iff in Hx as (xy & <- & _). rewrite mask_no_error by (auto; apply S).
    cbn [ext_mul]. f_equal. ring.
Qed.
Print Assumptions C79_detection.

Lemma low_quality_ok gabor junk3 o b s r m n k : 0 < s -> s <= b -> b <= k -> k <= n -> shp (mvals r) = [n; k] ->
  length (l_weights o) = l_scales o -> 0 < l_orient o -> exists a, low_quality gabor junk3 o b s r m = Ok a.
Proof.
  intros Hs Hb Hbk Hkn Hr Hw Ho. unfold low_quality. cbv zeta.
  assert (D0 : dim0 (mvals r) = n) by (unfold dim0; rewrite Hr; reflexivity).
  assert (D1 : dim1 (mvals r) = k) by (unfold dim1; rewrite Hr; reflexivity).
  rewrite D0, D1, map_length, Hw, Nat.eqb_refl. cbn [negb].
  destruct (Nat.eqb_spec (l_orient o) 0) as [E0|_]; [lia|].
  match goal with |- exists a, (let* stats := mapM ?f ?l in _) = _ => assert (E : exists st, mapM f l = Ok st) end.
  { induction (grid (seq 0 (l_scales o)) (seq 0 (l_orient o))) as [|so l [st IH]]; [eexists; reflexivity|].
    cbn [mapM]. 
    destruct (getstatistics_ok n k b s (fun q => nth q (dat (gabor (mvals m) (fst so) (snd so))) 0%R)
      (junk3 (2 * (fst so * l_orient o + snd so)))) as (p & -> & _); try lia; [intros (j & ? & ?); lia|]. cbn [bind].
    destruct (getstatistics_ok n k b s (fun q => nth q (dat (gabor (mvals r) (fst so) (snd so))) 0%R)
      (junk3 (S (2 * (fst so * l_orient o + snd so))))) as (q & -> & _); try lia; [intros (j & ? & ?); lia|]. cbn [bind].
    rewrite IH. cbn [bind]. eauto. }
  destruct E as [st ->]. cbn [bind]. eauto.
Qed.

(** Hence MAD is 0 for every pair of images with at least as many rows as columns. *)
Theorem C79_mad : forall filt gabor junk junk3 ho lo dr ov beta_1 beta_2 t1 t2 r m n k lr lm,
  shp (mvals r) = [n; k] -> k <= n -> 3 <= k -> (0 <= ov < 1)%R -> h_ms ho <> 0%R ->
  lightness (h_b ho) (h_k ho) (h_gamma ho) dr r = Ok lr -> lightness (h_b ho) (h_k ho) (h_gamma ho) dr m = Ok lm ->
  shp (fst (filt lr)) = [n; k] -> length (l_weights lo) = l_scales lo -> 0 < l_orient lo -> (0 < snd (betas beta_1 beta_2 t1 t2))%R ->
  most_apparent_distortion filt gabor junk junk3 ho lo dr 1 ov beta_1 beta_2 t1 t2 r m = Ok (Fin 0).
Proof.
  intros filt gabor junk junk3 ho lo dr ov beta_1 beta_2 t1 t2 r m n k lr lm Hr Hkn Hk Hov Hms Er Em Hf Hw Ho Hb.
  unfold most_apparent_distortion.
  assert (D0 : dim0 (mvals r) = n) by (unfold dim0; rewrite Hr; reflexivity).
  assert (D1 : dim1 (mvals r) = k) by (unfold dim1; rewrite Hr; reflexivity).
  rewrite D0, D1, Hr. cbn [length Nat.eqb negb]. rewrite stride_one by (auto; lia). cbn [bind fst snd].
  rewrite (C79_detection filt junk ho dr r m n k lr lm) by assumption. cbn [bind].
  destruct (low_quality_ok gabor junk3 lo 1 1 r m n k) as [a ->]; auto; try lia. cbn [bind].
  rewrite C35_zero by exact Hb. reflexivity.
Qed.
Print Assumptions C79_mad.

(** The appearance index itself is not a number. *)
Theorem C79_appearance : forall gabor junk3 o r m N,
  shp (mvals r) = [N; N] -> 1 <= N -> length (l_weights o) = l_scales o -> 0 < l_scales o -> 0 < l_orient o ->
  low_quality gabor junk3 o 1 1 r m = Ok NaN.
Proof.
  intros gabor junk3 o r m N Hr HN Hw Hsc Ho. rewrite (low_quality_square gabor junk3 o 1 1 r m N) by (auto; lia). f_equal.
  assert (Hb : forall xy, fold_left (fun acc so => ext_add acc
        (stat_diff (nth (fst so) (norm_weights (l_weights o)) NaN)
           (square_stats gabor N 1 1 m so xy) (square_stats gabor N 1 1 r so xy)))
        (grid (seq 0 (l_scales o)) (seq 0 (l_orient o))) (Fin 0) = NaN).
  { intros xy.
    assert (SN : forall i so, exists u v, square_stats gabor N 1 1 i so xy = (NaN, u, v)).
    { intros i so. unfold square_stats, block_stats. eexists. eexists. reflexivity. }
    assert (DN : forall w so, stat_diff w (square_stats gabor N 1 1 m so xy) (square_stats gabor N 1 1 r so xy) = NaN).
    { intros w so. destruct (SN m so) as (u & v & ->). destruct (SN r so) as (u' & v' & ->).
      unfold stat_diff. cbn [ext_sub ext_neg ext_add ext_abs]. apply ext_mul_nan_r. }
    destruct (l_scales o) as [|a]; [lia|]. destruct (l_orient o) as [|c]; [lia|].
    cbn [seq grid flat_map map app fold_left]. rewrite DN. cbn [ext_add].
    match goal with |- fold_left _ ?l0 NaN = NaN => induction l0 as [|so l1 IH]; [reflexivity|] end.
    cbn [fold_left ext_add]. exact IH. }
  rewrite (map_ext _ (fun _ => NaN) Hb). destruct (kept N N 1) as [|p l]; [apply rms_nil|apply rms_nan; left; reflexivity].
Qed.
Print Assumptions C79_appearance.

(** Black against white, no blocks: MAD is 0. *)
Example C79_example :
  most_apparent_distortion (fun a => (a, a)) (fun a _ _ => a) (fun _ _ => NaN) (fun _ _ => (NaN, NaN, NaN))
    {| h_b := 0; h_k := 1; h_gamma := 3; h_ms := 1 |} {| l_orient := 1; l_scales := 1; l_weights := [1%R] |}
    255 1 (3 / 4) (467/1000) (130/1000) None None (MFloat (tabulate [3; 3] (fun _ => 0%R))) (MFloat (tabulate [3; 3] (fun _ => 255%R))) = Ok (Fin 0).
Proof. eapply C79_mad with (n := 3) (k := 3); try reflexivity; try lia; try lra; cbn; [intros H; lra|lia|lra]. Qed.

(** ** C80: the appearance index is symmetric *)

Lemma ext_absdiff_sym x y : ext_abs (ext_sub x y) = ext_abs (ext_sub y x).
Proof.
  destruct x, y; try reflexivity. cbn [ext_sub ext_neg ext_add ext_abs]. f_equal.
  rewrite <- Rabs_Ropp. f_equal. ring.
Qed.

Lemma stat_diff_sym w p q : stat_diff w p q = stat_diff w q p.
Proof.
  destruct p as [[a b] c], q as [[a' b'] c']. unfold stat_diff.
  rewrite (ext_absdiff_sym a a'), (ext_absdiff_sym b b'), (ext_absdiff_sym c c'). reflexivity.
Qed.

Theorem C80_symmetric : forall gabor junk3 junk3' o b s r m N,
  0 < s -> s <= b -> b <= N -> shp (mvals r) = [N; N] -> shp (mvals m) = [N; N] -> length (l_weights o) = l_scales o -> 0 < l_orient o ->
  low_quality gabor junk3 o b s r m = low_quality gabor junk3' o b s m r.
Proof.
  intros gabor junk3 junk3' o b s r m N Hs Hb HN Hr Hm Hw Ho.
  rewrite (low_quality_square gabor junk3 o b s r m N), (low_quality_square gabor junk3' o b s m r N) by assumption.
  f_equal. f_equal. apply map_ext. intros xy. generalize (Fin 0). induction (grid _ _) as [|so l IH]; intros acc; [reflexivity|].
  cbn [fold_left]. rewrite stat_diff_sym. apply IH.
Qed.
Print Assumptions C80_symmetric.

(** A wrong number of weights is refused before anything is computed. *)
Theorem C80_weights : forall gabor junk3 o b s r m, length (l_weights o) <> l_scales o ->
  low_quality gabor junk3 o b s r m = Err ValueError.
Proof.
  intros gabor junk3 o b s r m H. unfold low_quality. cbv zeta. rewrite map_length.
  destruct (Nat.eqb_spec (length (l_weights o)) (l_scales o)); [contradiction|reflexivity].
Qed.
Print Assumptions C80_weights.

(** And without any orientation there is no angular interval. *)
Theorem C80_no_orientation : forall gabor junk3 o b s r m, length (l_weights o) = l_scales o -> l_orient o = 0 ->
  low_quality gabor junk3 o b s r m = Err ZeroDivisionError.
Proof.
  intros gabor junk3 o b s r m H H0. unfold low_quality. cbv zeta. rewrite map_length, H, Nat.eqb_refl, H0. reflexivity.
Qed.
Print Assumptions C80_no_orientation.

(** The index written out: block statistics of the filtered images (deviation with n - 1, skewness, kurtosis),
    differences weighted 1, 2, 1 and by scale, root mean square over the pixels not removed at the border. *)
Local Open Scope R_scope.
Definition avg (l : list R) : R := Sum (fun x => x) l / INR (length l).
Definition moment (k : nat) (l : list R) : R := Sum (fun x => (x - avg l) ^ k) l / INR (length l).
Definition deviation (l : list R) : R := sqrt (Sum (fun x => (x - avg l) ^ 2) l / (INR (length l) - 1)).
Definition skewness (l : list R) : R := if Req_EM_T (moment 2 l) 0 then 0 else moment 3 l / sqrt (moment 2 l) ^ 3.
Definition kurtosis (l : list R) : R := if Req_EM_T (moment 2 l) 0 then 0 else moment 4 l / moment 2 l ^ 2.
(** The block that pixel (x, y) belongs to: it starts at the multiples of the stride below x and y. *)
Definition block_of (a : arr R) (N b s x y : nat) : list R :=
  flat_map (fun i => map (fun j => nth ((x / s * s + i) * N + (y / s * s + j)) (dat a) 0) (seq 0 b)) (seq 0 b).
Definition difference (p q : list R) : R :=
  Rabs (deviation p - deviation q) + 2 * Rabs (skewness p - skewness q) + Rabs (kurtosis p - kurtosis q).

Lemma moment_dev k l : moment k l = dev k l / INR (length l).
Proof. reflexivity. Qed.

Lemma moment2_nonneg l : 0 <= moment 2 l.
Proof.
  rewrite moment_dev. unfold dev. destruct l as [|v l]; [unfold Rdiv; cbn; rewrite Rmult_0_l; lra|].
  apply Rmult_le_pos; [apply Sum_nonneg; intros; apply pow2_ge_0|]. apply Rlt_le, Rinv_0_lt_compat, lt_0_INR. cbn [length]. lia.
Qed.

Lemma std0_moment l : std0 l = sqrt (moment 2 l).
Proof. reflexivity. Qed.

Lemma skew_eq l : skew l = skewness l.
Proof.
  unfold skew, skewness. rewrite std0_moment. pose proof (moment2_nonneg l) as P.
  destruct (Req_EM_T (moment 2 l) 0) as [E|E], (Req_EM_T (sqrt (moment 2 l)) 0) as [E'|E'].
  - reflexivity.
  - rewrite E, sqrt_0 in E'. contradiction.
  - apply sqrt_eq_0 in E'; [contradiction|exact P].
  - rewrite (moment_dev 3). unfold Rdiv. rewrite Rinv_mult. ring.
Qed.

Lemma kurt_eq l : kurt l = kurtosis l.
Proof.
  unfold kurt, kurtosis. rewrite std0_moment. pose proof (moment2_nonneg l) as P.
  destruct (Req_EM_T (moment 2 l) 0) as [E|E], (Req_EM_T (sqrt (moment 2 l)) 0) as [E'|E'].
  - reflexivity.
  - rewrite E, sqrt_0 in E'. contradiction.
  - apply sqrt_eq_0 in E'; [contradiction|exact P].
  - rewrite (moment_dev 4). replace (sqrt (moment 2 l) ^ 4) with (moment 2 l ^ 2).
    + unfold Rdiv. rewrite Rinv_mult. ring.
    + replace (sqrt (moment 2 l) ^ 4) with ((sqrt (moment 2 l) * sqrt (moment 2 l)) ^ 2) by ring. rewrite sqrt_sqrt by exact P. reflexivity.
Qed.

Lemma tile_block (a : arr R) N b s x y : tile_vals N b (fun q => nth q (dat a) 0) (x / s * s, y / s * s)%nat = block_of a N b s x y.
Proof.
  unfold tile_vals, window, grid, block_of. cbn [fst snd]. generalize (x / s * s)%nat (y / s * s)%nat. intros i j.
  rewrite flat_map_concat_map, concat_map, map_map, flat_map_concat_map.
  assert (E : forall k n, seq k n = map (Nat.add k) (seq 0 n)).
  { intros k n. revert k. induction n as [|n IH]; intros k; [reflexivity|]. cbn [seq map]. f_equal; [lia|]. rewrite (IH (S k)), (IH 1%nat), map_map. apply map_ext. intros; lia. }
  rewrite (E i), map_map. f_equal. apply map_ext. intros u. rewrite map_map, (E j), map_map. reflexivity.
Qed.

Theorem C80_value : forall gabor junk3 o b s r m N,
  (0 < s)%nat -> (s <= b)%nat -> (2 <= b)%nat -> (2 * b < N)%nat -> shp (mvals r) = [N; N] -> length (l_weights o) = l_scales o -> (0 < l_orient o)%nat ->
  Sum (fun x => x) (l_weights o) <> 0 ->
  let inside := seq b (N - 2 * b) in
  let total x y := Sum (fun sc => nth sc (l_weights o) 0 / Sum (fun x => x) (l_weights o) *
      Sum (fun ori => difference (block_of (gabor (mvals m) sc ori) N b s x y) (block_of (gabor (mvals r) sc ori) N b s x y)) (seq 0 (l_orient o)))
      (seq 0 (l_scales o)) in
  low_quality gabor junk3 o b s r m =
  Ok (Fin (sqrt (Sum (fun x => Sum (fun y => total x y ^ 2) inside) inside / INR ((N - 2 * b) ^ 2)))).
Proof.
  intros gabor junk3 o b s r m N Hs Hb H2 HN Hr Hw Ho Hsum inside total.
  rewrite (low_quality_square gabor junk3 o b s r m N) by (auto; lia). f_equal.
  set (W := Sum (fun x => x) (l_weights o)) in *.
  assert (G : forall f rows cols, Sum f (grid rows cols) = Sum (fun i => Sum (fun j => f (i, j)) cols) rows).
  { intros f rows cols. induction rows as [|i rows IH]; [reflexivity|]. unfold grid in *. cbn [flat_map]. rewrite Sum_app, Sum_map, IH. reflexivity. }
  assert (E : forall xy, fold_left (fun acc so => ext_add acc
        (stat_diff (nth (fst so) (norm_weights (l_weights o)) NaN) (square_stats gabor N b s m so xy) (square_stats gabor N b s r so xy)))
        (grid (seq 0 (l_scales o)) (seq 0 (l_orient o))) (Fin 0) = Fin (total (fst xy) (snd xy))).
  { intros [x y]. cbn [fst snd].
    assert (T : total x y = Sum (fun so => nth (fst so) (l_weights o) 0 / W *
       difference (block_of (gabor (mvals m) (fst so) (snd so)) N b s x y) (block_of (gabor (mvals r) (fst so) (snd so)) N b s x y)) (grid (seq 0 (l_scales o)) (seq 0 (l_orient o)))).
    { rewrite G. unfold total. apply Sum_ext. intros sc _. cbn [fst snd]. rewrite Sum_scale. reflexivity. }
    rewrite T. clear T.
    assert (Hin : forall so, In so (grid (seq 0 (l_scales o)) (seq 0 (l_orient o))) -> (fst so < length (l_weights o))%nat).
    { intros so H. apply in_grid in H as [H _]. apply in_seq in H. lia. }
    match goal with |- fold_left ?g ?l0 _ = Fin (Sum ?h _) => enough (A : forall l c, (forall so, In so l -> (fst so < length (l_weights o))%nat) -> fold_left g l (Fin c) = Fin (c + Sum h l)) end.
    { rewrite A by exact Hin. rewrite Rplus_0_l. reflexivity. }
    clear Hin. induction l as [|so l IH]; intros c Hin; [cbn [fold_left]; rewrite Sum_nil, Rplus_0_r; reflexivity|].
    cbn [fold_left]. rewrite Sum_cons.
    assert (Q : stat_diff (nth (fst so) (norm_weights (l_weights o)) NaN) (square_stats gabor N b s m so (x, y)) (square_stats gabor N b s r so (x, y)) =
       Fin (nth (fst so) (l_weights o) 0 / W * difference (block_of (gabor (mvals m) (fst so) (snd so)) N b s x y) (block_of (gabor (mvals r) (fst so) (snd so)) N b s x y))).
    { assert (Wt : nth (fst so) (norm_weights (l_weights o)) NaN = Fin (nth (fst so) (l_weights o) 0 / W)).
      { unfold norm_weights. rewrite (nth_indep _ NaN (ext_div (Fin 0) (Fin W))) by (rewrite map_length; apply Hin; left; reflexivity).
        rewrite (map_nth (fun w => ext_div (Fin w) (Fin W)) (l_weights o) 0). apply ext_div_fin. exact Hsum. }
      assert (St : forall i, square_stats gabor N b s i so (x, y) =
        let l := block_of (gabor (mvals i) (fst so) (snd so)) N b s x y in (Fin (deviation l), Fin (skewness l), Fin (kurtosis l))).
      { intros i. unfold square_stats, block_stats. cbn [fst snd]. rewrite tile_block. cbv zeta.
        set (bl := block_of _ _ _ _ _ _). assert (L : length bl = (b * b)%nat).
        { unfold bl. rewrite <- tile_block. unfold tile_vals. rewrite map_length, window_length. reflexivity. }
        rewrite skew_eq, kurt_eq. f_equal. f_equal. unfold std1. destruct (Nat.eqb_spec (length bl) 1); [nia|].
        unfold deviation. rewrite minus_INR by nia. reflexivity. }
      rewrite Wt, !St. cbv zeta. unfold stat_diff, difference. cbn [ext_sub ext_neg ext_add ext_abs ext_mul]. reflexivity. }
    rewrite Q. cbn [ext_add]. rewrite IH by (intros; apply Hin; right; assumption). f_equal. ring. }
  rewrite (map_ext _ _ E). unfold rms. rewrite map_map, map_length. cbn [ext_mul].
  assert (F : forall l c, fold_left ext_add (map (fun xy => Fin (total (fst xy) (snd xy) * total (fst xy) (snd xy))) l) (Fin c) =
     Fin (c + Sum (fun xy => total (fst xy) (snd xy) ^ 2) l)).
  { induction l as [|xy l IH]; intros c; [cbn [map fold_left]; rewrite Sum_nil, Rplus_0_r; reflexivity|].
    cbn [map fold_left ext_add]. rewrite IH, Sum_cons. f_equal. ring. }
  rewrite F, Rplus_0_l. assert (K : kept N N b = grid inside inside) by (unfold kept, inside; rewrite inner_eq by lia; reflexivity).
  assert (KL : length (kept N N b) = ((N - 2 * b) ^ 2)%nat) by (rewrite kept_length by lia; cbn [Nat.pow]; nia).
  rewrite KL, K, G. cbn [fst snd]. set (S := Sum _ _). assert (SP : 0 <= S) by (unfold S; apply Sum_nonneg; intros x _; apply Sum_nonneg; intros; apply pow2_ge_0).
  assert (NP : 0 < INR ((N - 2 * b) ^ 2)) by (apply lt_0_INR; cbn [Nat.pow]; nia).
  cbn [ext_sqrt]. destruct (Rlt_dec S 0); [lra|]. rewrite ext_div_fin by (apply Rgt_not_eq, sqrt_lt_R0; exact NP). f_equal. symmetry. apply sqrt_div_alt. exact NP.
Qed.
Print Assumptions C80_value.

(** One scale and one orientation, 5 x 5 pixels, blocks of 2. *)
Example C80_example r m : shp (mvals r) = [5; 5]%nat -> shp (mvals m) = [5; 5]%nat ->
  let o := {| l_orient := 1%nat; l_scales := 1%nat; l_weights := [1%R] |} in
  exists v, low_quality (fun a _ _ => a) (fun _ _ => (NaN, NaN, NaN)) o 2%nat 1%nat r m = Ok (Fin v) /\
            low_quality (fun a _ _ => a) (fun _ _ => (NaN, NaN, NaN)) o 2%nat 1%nat m r = Ok (Fin v).
Proof.
  intros Hr Hm o.
  assert (E : exists v, low_quality (fun a _ _ => a) (fun _ _ => (NaN, NaN, NaN)) o 2%nat 1%nat r m = Ok (Fin v)).
  { eexists. apply (C80_value _ _ o 2%nat 1%nat r m 5%nat); try lia; try reflexivity; try exact Hr; cbn; try lia. intros H. unfold Sum in H. cbn in H. lra. }
  destruct E as [v E]. exists v. split; [exact E|].
  rewrite (C80_symmetric _ _ (fun _ _ => (NaN, NaN, NaN)) o 2%nat 1%nat m r 5%nat) by (lia || reflexivity || assumption || (cbn; lia)).
  exact E.
Qed.
Local Close Scope R_scope.

