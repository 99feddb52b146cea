(** The smallest and largest scores of images with integer grey values, and what is left after printing: property C144. *)
From Coq Require Import Reals Lra Psatz.
From Verif Require Import Base NdArray LoadModel NormModel NormProofs PairModel RealSums MetricModel MetricProofs SsimModel GsmModel MadModel
  RegionModel RegionProofs RegionFindProofs RegionProps NrModel NrProofs NrProps PrintModel PrintProofs.
Local Open Scope R_scope.

(** ** RMSE and PSNR *)

Fixpoint squares (a b : list Z) : Z :=
  match a, b with x :: a', y :: b' => ((x - y) * (x - y) + squares a' b')%Z | _, _ => 0%Z end.

Lemma squares_R a b : Sum (fun p => (fst p - snd p) * (fst p - snd p)) (combine (map IZR a) (map IZR b)) = IZR (squares a b).
Proof.
  revert b. induction a as [|x a IH]; intros [|y b]; try reflexivity. cbn [map combine squares]. rewrite Sum_cons, IH. cbn [fst snd].
  rewrite plus_IZR, mult_IZR, minus_IZR. reflexivity.
Qed.

Lemma squares_nonneg a b : (0 <= squares a b)%Z.
Proof. revert b. induction a as [|x a IH]; intros [|y b]; cbn [squares]; try lia. specialize (IH b). pose proof (Z.square_nonneg (x - y)). lia. Qed.

Lemma sq_0 d : (d * d <= 0 -> d = 0)%Z.
Proof. intros H. destruct (Z.eq_dec d 0) as [E|E]; [exact E|]. assert (1 <= d \/ d <= -1)%Z by lia. nia. Qed.

Lemma sq_1 d : (d * d = 1 -> d = 1 \/ d = -1)%Z.
Proof. intros H. assert (-1 <= d <= 1)%Z by nia. assert (d = -1 \/ d = 0 \/ d = 1)%Z by lia. intuition; subst; discriminate. Qed.

Lemma squares_0 a b : length a = length b -> squares a b = 0%Z -> a = b.
Proof.
  revert b. induction a as [|x a IH]; intros [|y b] L H; cbn [squares] in *; try discriminate; [reflexivity|].
  pose proof (squares_nonneg a b). pose proof (Z.square_nonneg (x - y)). injection L as L.
  f_equal; [pose proof (sq_0 (x - y)); lia|apply IH; [exact L|lia]].
Qed.

Lemma squares_same a : squares a a = 0%Z.
Proof. induction a as [|x a IH]; cbn [squares]; [reflexivity|]. rewrite IH. lia. Qed.

Definition one_step (a b : list Z) : Prop := exists u x y v, a = u ++ x :: v /\ b = u ++ y :: v /\ (x = y + 1 \/ y = x + 1)%Z.

Lemma squares_1 a b : length a = length b -> (squares a b = 1%Z <-> one_step a b).
Proof.
  revert b. induction a as [|x a IH]; intros [|y b] L; cbn [squares] in *; try discriminate.
  - split; [discriminate|]. intros (u & x & y & v & H & _). destruct u; discriminate.
  - injection L as L. pose proof (squares_nonneg a b) as N. pose proof (Z.square_nonneg (x - y)) as Sq. split.
    + intros H. destruct (Z.eq_dec (squares a b) 0) as [E|E].
      * exists [], x, y, b. apply squares_0 in E; [subst b|exact L]. repeat split. rewrite squares_same in H. pose proof (sq_1 (x - y)). lia.
      * assert (x = y) as -> by (pose proof (sq_0 (x - y)); lia). assert (E1 : squares a b = 1%Z) by lia. apply IH in E1; [|exact L].
        destruct E1 as (u & x & z & v & -> & -> & S). exists (y :: u), x, z, v. repeat split. exact S.
    + intros ([|u0 u] & x' & y' & v & Ea & Eb & S); cbn [app] in *.
      * injection Ea as -> ->. injection Eb as -> ->. rewrite squares_same. destruct S as [-> | ->]; ring.
      * injection Ea as -> ->. injection Eb as -> ->. assert (squares (u ++ x' :: v) (u ++ y' :: v) = 1%Z).
        { apply IH; [exact L|]. exists u, x', y', v. auto. } lia.
Qed.

Lemma rms_squares a b : MetricProofs.rms (map IZR a) (map IZR b) = sqrt (IZR (squares a b) / INR (length a)).
Proof. unfold MetricProofs.rms. rewrite squares_R, map_length. reflexivity. Qed.

(** Different images of n pixels have an RMSE of at least 1 / sqrt n; it is this exactly if one pixel differs by one. *)
Theorem C144_rmse : forall a b, a <> b -> length a = length b ->
  exists v, rmse (map IZR a) (map IZR b) = Fin v /\ 1 / sqrt (INR (length a)) <= v /\ (v = 1 / sqrt (INR (length a)) <-> one_step a b).
Proof.
  intros a b Ne L. assert (Na : a <> []) by (intros ->; destruct b; [contradiction|discriminate]).
  exists (MetricProofs.rms (map IZR a) (map IZR b)). split; [apply rmse_fin; destruct a; [contradiction|discriminate]|].
  rewrite rms_squares. assert (P : 0 < INR (length a)) by (apply INR_len_pos, Na).
  assert (S1 : (1 <= squares a b)%Z).
  { pose proof (squares_nonneg a b). destruct (Z.eq_dec (squares a b) 0) as [E|E]; [apply squares_0 in E; [contradiction|exact L]|lia]. }
  assert (E : forall z, (0 <= z)%Z -> sqrt (IZR z / INR (length a)) = sqrt (IZR z) / sqrt (INR (length a))).
  { intros z Hz. apply sqrt_div; [apply IZR_le, Hz|exact P]. }
  rewrite E by lia. assert (Q : 0 < / sqrt (INR (length a))) by (apply Rinv_0_lt_compat, sqrt_lt_R0, P). split.
  - apply Rmult_le_compat_r; [lra|]. rewrite <- sqrt_1 at 1. apply sqrt_le_1_alt. apply (IZR_le 1), S1.
  - rewrite <- squares_1 by exact L. split; intros H.
    + assert (K : sqrt (IZR (squares a b)) = 1).
      { unfold Rdiv in H. apply Rmult_eq_reg_r in H; [exact H|lra]. }
      apply (f_equal (fun t => t * t)) in K. rewrite sqrt_sqrt in K by (apply (IZR_le 0); lia). apply eq_IZR. lra.
    + rewrite H, sqrt_1. reflexivity.
Qed.
Print Assumptions C144_rmse.

(** So the finite PSNR of images with integer grey values from 0 to D lies between 0 and 20 log10 (D sqrt n). The
    upper bound is reached exactly if one pixel differs by one, 0 exactly if every pixel differs by D. *)
Theorem C144_psnr : forall D a b, (0 < D)%Z -> a <> b -> length a = length b ->
  (forall z, In z a \/ In z b -> (0 <= z <= D)%Z) ->
  exists p, psnr (IZR D) (map IZR a) (map IZR b) = Fin p /\ 0 <= p <= 20 * log10 (IZR D * sqrt (INR (length a))) /\
    (p = 20 * log10 (IZR D * sqrt (INR (length a))) <-> one_step a b) /\
    (p = 0 <-> forall x y, In (x, y) (combine a b) -> (Z.abs (x - y) = D)%Z).
Proof.
  intros D a b HD Ne L B. assert (Na : a <> []) by (intros ->; destruct b; [contradiction|discriminate]).
  assert (HD' : 0 < IZR D) by (apply (IZR_lt 0), HD).
  assert (P : 0 < INR (length a)) by (apply INR_len_pos, Na).
  set (v := MetricProofs.rms (map IZR a) (map IZR b)).
  destruct (C144_rmse a b Ne L) as (v' & Ev & Lo & Eq). rewrite rmse_fin in Ev by (destruct a; [contradiction|discriminate]).
  injection Ev as Ev. fold v in Ev. subst v'.
  assert (Sq : 0 < sqrt (INR (length a))) by (apply sqrt_lt_R0, P).
  assert (V0 : 0 < v) by (apply Rlt_le_trans with (1 / sqrt (INR (length a))); [apply Rdiv_lt_0_compat; lra|exact Lo]).
  exists (20 * log10 (IZR D / v)). split.
  { apply psnr_value; [exact HD'|destruct a; [contradiction|discriminate]|rewrite !map_length; exact L|].
    intros X. apply Ne. clear -X. revert b X. induction a as [|x a IH]; intros [|y b] X; try discriminate; [reflexivity|].
    injection X as X1 X2. apply eq_IZR in X1. subst. f_equal. apply IH, X2. }
  assert (Z2 : (squares a b <= Z.of_nat (length a) * (D * D))%Z /\
    (squares a b = (Z.of_nat (length a) * (D * D))%Z <-> forall x y, In (x, y) (combine a b) -> (Z.abs (x - y) = D)%Z)).
  { clear -B L HD. revert b L B. induction a as [|x a IH]; intros [|y b] L B; try discriminate.
    - split; [cbn; lia|]. split; [intros _ x y []|reflexivity].
    - injection L as L. destruct (IH b L) as [I1 I2]; [intros z [Hz|Hz]; apply B; [left|right]; right; exact Hz|].
      assert (Bx := B x (or_introl (or_introl eq_refl))). assert (By := B y (or_intror (or_introl eq_refl))).
      cbn [squares length combine]. rewrite Nat2Z.inj_succ.
      assert (Q : ((x - y) * (x - y) <= D * D)%Z) by (assert (- D <= x - y <= D)%Z by lia; nia).
      split; [lia|]. split.
      + intros H. assert (H1 : squares a b = (Z.of_nat (length a) * (D * D))%Z) by lia. assert (H2 : ((x - y) * (x - y) = D * D)%Z) by lia.
        intros x0 y0 [E|E]; [injection E as <- <-|apply I2; assumption]. nia.
      + intros H. assert (H1 := H x y (or_introl eq_refl)). rewrite (proj2 I2) by (intros x0 y0 E; apply H; right; exact E).
        assert ((x - y) * (x - y) = D * D)%Z by nia. lia. }
  assert (V2 : v * v = IZR (squares a b) / INR (length a)).
  { unfold v. rewrite rms_squares. apply sqrt_sqrt. apply Rmult_le_pos; [apply (IZR_le 0), squares_nonneg|left; apply Rinv_0_lt_compat, P]. }
  assert (IN : INR (length a) = IZR (Z.of_nat (length a))) by apply INR_IZR_INZ.
  assert (VD : v * v <= IZR D * IZR D /\ (v * v = IZR D * IZR D <-> squares a b = (Z.of_nat (length a) * (D * D))%Z)).
  { destruct Z2 as [Z2 _]. apply IZR_le in Z2. rewrite !mult_IZR, <- IN in Z2. rewrite V2. split.
    - apply Rmult_le_reg_r with (INR (length a)); [exact P|]. unfold Rdiv. rewrite Rmult_assoc, Rinv_l by lra. lra.
    - split; intros H.
      + apply eq_IZR. rewrite !mult_IZR, <- IN, <- H. field. lra.
      + rewrite H, !mult_IZR, <- IN. field. lra. }
  destruct VD as [VD VDe].
  assert (vD : v <= IZR D) by nra.
  assert (One : 1 <= IZR D / v).
  { apply Rmult_le_reg_r with v; [exact V0|]. unfold Rdiv. rewrite Rmult_assoc, Rinv_l by lra. lra. }
  assert (Le : IZR D / v <= IZR D * sqrt (INR (length a))).
  { apply Rmult_le_compat_l; [lra|]. rewrite <- (Rinv_inv (sqrt (INR (length a)))). apply Rinv_le_contravar; [apply Rinv_0_lt_compat, Sq|]. lra. }
  assert (LL : forall x y, 0 < x -> x <= y -> log10 x <= log10 y /\ (log10 x = log10 y -> x = y)).
  { intros x y Hx Hxy. destruct Hxy as [Hxy| ->]; [|split; [lra|reflexivity]]. apply (log10_lt x y) in Hxy; [|lra|lra]. split; [lra|intros; lra]. }
  destruct (LL 1 (IZR D / v) ltac:(lra) One) as [L1 L1e]. rewrite log10_1 in L1, L1e.
  destruct (LL (IZR D / v) (IZR D * sqrt (INR (length a))) ltac:(lra) Le) as [L2 L2e].
  split; [lra|]. split.
  - rewrite <- Eq. split; intros H.
    + assert (E : IZR D / v = IZR D * sqrt (INR (length a))) by (apply L2e; lra).
      assert (E2 : / v = sqrt (INR (length a))) by (apply Rmult_eq_reg_l with (IZR D); [exact E|lra]).
      rewrite <- E2. field. lra.
    + rewrite H. do 2 f_equal. field. lra.
  - destruct Z2 as [_ Z2]. rewrite <- Z2, <- VDe. split; intros H.
    + assert (E : 1 = IZR D / v) by (apply L1e; lra). assert (E2 : v = IZR D) by (apply Rmult_eq_reg_r with (/ v); [rewrite Rinv_r by lra; exact E|apply Rinv_neq_0_compat; lra]).
      rewrite E2. reflexivity.
    + assert (E2 : v = IZR D) by nra. rewrite E2. unfold Rdiv. rewrite Rinv_r, log10_1 by lra. lra.
Qed.
Print Assumptions C144_psnr.

(** ** Printing *)

(** RMSE is printed as 0 with d decimals (2 by default) exactly if it is at most half a unit of the last digit. *)
Theorem C144_printed : forall d a b, (0 <= d)%Z -> a <> [] -> length a = length b ->
  exists v, rmse a b = Fin v /\
    (np_round d v = 0 <-> 4 * 100 ^ Z.to_nat d * Sum (fun p => (fst p - snd p) * (fst p - snd p)) (combine a b) <= INR (length a)).
Proof.
  intros d a b Hd Na L. exists (MetricProofs.rms a b). split; [apply rmse_fin, Na|]. set (v := MetricProofs.rms a b).
  assert (V : 0 <= v) by apply rms_nonneg. assert (P : 0 < INR (length a)) by (apply INR_len_pos, Na).
  set (s := Sum _ _). assert (S0 : 0 <= s) by apply sumsq_nonneg.
  assert (V2 : v * v * INR (length a) = s).
  { unfold v, MetricProofs.rms. fold s. rewrite sqrt_sqrt; [field; lra|]. apply Rmult_le_pos; [exact S0|left; apply Rinv_0_lt_compat, P]. }
  set (t := 10 ^ Z.to_nat d). assert (T : 0 < t) by (apply pow_lt; lra).
  assert (T2 : 100 ^ Z.to_nat d = t * t) by (unfold t; rewrite <- Rpow_mult_distr; f_equal; lra).
  unfold np_round. destruct (Z.leb_spec 0 d) as [_|X]; [|lia]. fold t.
  assert (R0 : IZR (rint (v * t)) / t = 0 <-> rint (v * t) = 0%Z).
  { split; intros H; [|rewrite H; unfold Rdiv; ring]. apply eq_IZR. apply Rmult_eq_reg_r with (/ t); [|apply Rinv_neq_0_compat; lra]. unfold Rdiv in H. lra. }
  rewrite R0, T2, <- V2.
  assert (VT : 0 <= v * t) by nra.
  assert (H1 : rint (v * t) = 0%Z <-> v * t <= 1 / 2).
  { split; intros H.
    - pose proof (rint_nearest (v * t)) as K. unfold nearest in K. rewrite H in K.
      assert (K' : Rabs (IZR 0 - v * t) <= 1 / 2) by (destruct K as [K|[K _]]; lra). apply Rabs_le_inv in K'. lra.
    - apply rint_unique. unfold nearest. replace (IZR 0 - v * t) with (- (v * t)) by ring. rewrite Rabs_Ropp, Rabs_pos_eq by exact VT.
      destruct H as [H|H]; [left; lra|right; split; [lra|reflexivity]]. }
  rewrite H1. split; intros H.
  - replace (4 * (t * t) * (v * v * INR (length a))) with (4 * ((v * t) * (v * t)) * INR (length a)) by ring.
    assert (4 * ((v * t) * (v * t)) <= 1) by nra. nra.
  - apply Rnot_lt_le. intros K. assert (1 < 4 * ((v * t) * (v * t))) by nra. nra.
Qed.
Print Assumptions C144_printed.

(** An image of at least 40000 pixels can be changed without the printed RMSE telling: in one pixel, by one. *)
Theorem C144_invisible : forall a : list Z, (40000 <= Z.of_nat (length a))%Z ->
  exists b v, length b = length a /\ b <> a /\ rmse (map IZR a) (map IZR b) = Fin v /\ np_round 2 v = 0.
Proof.
  intros [|x a] H; [cbn in H; lia|].
  destruct (C144_printed 2 (map IZR (x :: a)) (map IZR ((x + 1)%Z :: a)) ltac:(lia) ltac:(discriminate) ltac:(rewrite !map_length; reflexivity)) as (v & E & K).
  exists ((x + 1)%Z :: a), v. split; [reflexivity|]. split; [intros X; injection X; lia|]. split; [exact E|]. apply K.
  rewrite squares_R. assert (S1 : squares (x :: a) ((x + 1)%Z :: a) = 1%Z).
  { cbn [squares]. rewrite squares_same. lia. }
  rewrite S1, map_length, INR_IZR_INZ. apply IZR_le in H. change (Z.to_nat 2) with 2%nat. cbn [pow]. lra.
Qed.
Print Assumptions C144_invisible.

(** ** SNR and CNR *)

Fixpoint zsum (l : list Z) : Z := match l with [] => 0%Z | x :: l' => (x + zsum l')%Z end.
Fixpoint zsum2 (l : list Z) : Z := match l with [] => 0%Z | x :: l' => (x * x + zsum2 l')%Z end.

Definition spread (x : Z) (l : list Z) : Z := (Z.of_nat (length l) * (x * x) - 2 * (x * zsum l) + zsum2 l)%Z.

Lemma spread_cons x y l : spread x (y :: l) = ((x - y) * (x - y) + spread x l)%Z.
Proof. unfold spread. cbn [length zsum zsum2]. rewrite Nat2Z.inj_succ. ring. Qed.

Lemma spread_nil x : spread x [] = 0%Z.
Proof. unfold spread. cbn [length zsum zsum2]. lia. Qed.

Lemma spread_nonneg x l : (0 <= spread x l)%Z.
Proof. induction l as [|y l IH]; [rewrite spread_nil; cbn [length]; lia|]. rewrite spread_cons. pose proof (Z.square_nonneg (x - y)). lia. Qed.

Lemma sq_pos d : (d <> 0 -> 1 <= d * d)%Z.
Proof. intros H. destruct (Z_lt_le_dec 0 (d * d)) as [K|K]; [lia|]. apply sq_0 in K. contradiction. Qed.

Lemma spread_pos x y l : In y l -> x <> y -> (1 <= spread x l)%Z.
Proof.
  induction l as [|z l IH]; intros H N; [destruct H|]. rewrite spread_cons. pose proof (spread_nonneg x l). pose proof (Z.square_nonneg (x - z)).
  destruct H as [->|H]; [assert (1 <= (x - y) * (x - y))%Z by (apply sq_pos; lia); lia|specialize (IH H N); lia].
Qed.

Lemma spread_const x c l : (forall y, In y l -> y = c) -> x <> c -> (Z.of_nat (length l) <= spread x l)%Z.
Proof.
  induction l as [|z l IH]; intros H N; [rewrite spread_nil; cbn [length]; lia|]. rewrite spread_cons. rewrite (H z (or_introl eq_refl)).
  assert (IH' := IH (fun y h => H y (or_intror h)) N). assert (1 <= (x - c) * (x - c))%Z by (apply sq_pos; lia). cbn [length]. rewrite Nat2Z.inj_succ. lia.
Qed.

Definition pairs (l : list Z) : Z := (Z.of_nat (length l) * zsum2 l - zsum l * zsum l)%Z.

Lemma pairs_cons x l : pairs (x :: l) = (spread x l + pairs l)%Z.
Proof. unfold pairs, spread. cbn [length zsum zsum2]. rewrite Nat2Z.inj_succ. ring. Qed.

Lemma pairs_lower l x y : In x l -> In y l -> x <> y -> (Z.of_nat (length l) - 1 <= pairs l)%Z.
Proof.
  revert x y. induction l as [|z l IH]; intros x y Hx Hy N; [destruct Hx|]. rewrite pairs_cons. cbn [length]. rewrite Nat2Z.inj_succ.
  assert (P0 : (0 <= pairs l)%Z).
  { clear. induction l as [|z l IH]; [unfold pairs; cbn; lia|]. rewrite pairs_cons. pose proof (spread_nonneg z l). lia. }
  destruct (list_eq_dec Z.eq_dec l (repeat (hd 0%Z l) (length l))) as [C|C].
  - assert (A : forall w, In w l -> w = hd 0%Z l) by (intros w Hw; rewrite C in Hw; apply repeat_spec in Hw; exact Hw).
    assert (Nz : z <> hd 0%Z l).
    { intros E. apply N. transitivity (hd 0%Z l); [|symmetry]; [destruct Hx as [<-|Hx]|destruct Hy as [<-|Hy]]; auto. }
    pose proof (spread_const z (hd 0%Z l) l A Nz). lia.
  - assert (exists u, In u l /\ u <> hd 0%Z l) as (u & Hu & Nu).
    { destruct l as [|w l]; [exfalso; apply C; reflexivity|]. cbn [hd] in *. clear -C.
      destruct (Forall_Exists_dec (fun u => u = w) (fun u => Z.eq_dec u w) (w :: l)) as [F|F].
      - exfalso. apply C. cbn [length repeat]. f_equal. inversion F as [|? ? _ F']; subst. clear -F'. induction F' as [|u l -> F IH]; [reflexivity|]. cbn [length repeat]. f_equal. exact IH.
      - apply Exists_exists in F as (u & Hu & Nu). exists u. auto. }
    assert (Hh : In (hd 0%Z l) l) by (destruct l; [destruct Hu|left; reflexivity]).
    pose proof (IH u _ Hu Hh Nu). assert (1 <= spread z l)%Z.
    { destruct (Z.eq_dec z u) as [->|E]; [apply (spread_pos u _ l Hh Nu)|apply (spread_pos z u l Hu E)]. } lia.
Qed.

Lemma sum_dev c (l : list R) : fold_right Rplus 0 (map (fun x => (x - c) * (x - c)) l) =
  fold_right Rplus 0 (map (fun x => x * x) l) - 2 * c * fold_right Rplus 0 l + INR (length l) * (c * c).
Proof. induction l as [|x l IH]; [cbn; ring|]. cbn [map fold_right]. rewrite IH. cbn [length]. rewrite S_INR. ring. Qed.

Lemma deviation_sq (l : list R) : l <> [] ->
  deviation l * deviation l = fold_right Rplus 0 (map (fun x => x * x) l) / INR (length l) - mean l * mean l.
Proof.
  intros N. pose proof (INR_len_pos l N) as P. unfold deviation.
  assert (E : mean (map (fun x => (x - mean l) * (x - mean l)) l) = fold_right Rplus 0 (map (fun x => x * x) l) / INR (length l) - mean l * mean l).
  { unfold mean at 1. rewrite map_length, sum_dev. unfold mean. field. lra. }
  rewrite <- E. apply sqrt_sqrt. unfold mean at 1. apply Rmult_le_pos; [|left; apply Rinv_0_lt_compat; rewrite map_length; exact P].
  generalize (mean l). intros c. clear. induction l as [|x l IH]; cbn [map fold_right]; [apply Rle_refl|]. apply Rplus_le_le_0_compat; [apply Rle_0_sqr|exact IH].
Qed.

Lemma deviation_int (l : list Z) : l <> [] -> deviation (map IZR l) * INR (length l) = sqrt (IZR (pairs l)).
Proof.
  intros N. pose proof (INR_len_pos l N) as P. assert (N' : map IZR l <> []) by (destruct l; [contradiction|discriminate]).
  assert (D0 : 0 <= deviation (map IZR l)) by apply sqrt_pos.
  assert (E : IZR (pairs l) = (deviation (map IZR l) * INR (length l)) * (deviation (map IZR l) * INR (length l))).
  { replace (deviation (map IZR l) * INR (length l) * (deviation (map IZR l) * INR (length l)))
      with (deviation (map IZR l) * deviation (map IZR l) * (INR (length l) * INR (length l))) by ring.
    rewrite deviation_sq by exact N'. unfold mean. rewrite map_length.
    assert (S1 : fold_right Rplus 0 (map IZR l) = IZR (zsum l)).
    { clear. induction l as [|x l IH]; [reflexivity|]. cbn [map fold_right zsum]. rewrite IH, plus_IZR. reflexivity. }
    assert (S2 : fold_right Rplus 0 (map (fun x => x * x) (map IZR l)) = IZR (zsum2 l)).
    { clear. induction l as [|x l IH]; [reflexivity|]. cbn [map fold_right zsum2]. rewrite IH, plus_IZR, mult_IZR. reflexivity. }
    rewrite S1, S2. unfold pairs. rewrite minus_IZR, !mult_IZR, <- INR_IZR_INZ. field. lra. }
  rewrite E, sqrt_square; [reflexivity|]. nra.
Qed.

Lemma mean_int (l : list Z) : l <> [] -> mean (map IZR l) * INR (length l) = IZR (zsum l).
Proof.
  intros N. pose proof (INR_len_pos l N) as P. unfold mean. rewrite map_length.
  assert (S1 : fold_right Rplus 0 (map IZR l) = IZR (zsum l)).
  { clear. induction l as [|x l IH]; [reflexivity|]. cbn [map fold_right zsum]. rewrite IH, plus_IZR. reflexivity. }
  rewrite S1. field. lra.
Qed.

Lemma selected_In img P l x : selected img P l -> In x l -> In x (dat img).
Proof.
  intros (at_ & _ & _ & E) H. assert (K : In (Some x) (map (get img) at_)) by (rewrite E; apply in_map, H).
  apply in_map_iff in K as (i & G & _). unfold get in G. destruct (inb (shp img) i); [|discriminate]. apply nth_error_In in G. exact G.
Qed.

Lemma deviation_pos l : 0 <= deviation l.
Proof. apply sqrt_pos. Qed.

Lemma mean_bounds l a b : l <> [] -> (forall x, In x l -> a <= x <= b) -> a <= mean l <= b.
Proof.
  intros N H. pose proof (INR_len_pos l N) as P. unfold mean.
  assert (S : INR (length l) * a <= fold_right Rplus 0 l <= INR (length l) * b).
  { clear N P. induction l as [|x l IH]; [cbn; lra|]. cbn [fold_right length]. rewrite S_INR.
    assert (B := H x (or_introl eq_refl)). assert (IH' := IH (fun y h => H y (or_intror h))). lra. }
  assert (Q : 0 < / INR (length l)) by (apply Rinv_0_lt_compat, P).
  assert (E : INR (length l) * / INR (length l) = 1) by (apply Rinv_r; lra). unfold Rdiv. split.
  - apply Rle_trans with (INR (length l) * a * / INR (length l)); [right; rewrite Rmult_comm, <- Rmult_assoc, (Rmult_comm (/ _)), E; ring|].
    apply Rmult_le_compat_r; lra.
  - apply Rle_trans with (INR (length l) * b * / INR (length l)); [apply Rmult_le_compat_r; lra|].
    right. rewrite Rmult_comm, <- Rmult_assoc, (Rmult_comm (/ _)), E. ring.
Qed.

Lemma deviation_bound l a b : l <> [] -> (forall x, In x l -> a <= x <= b) ->
  deviation l * deviation l <= (a + b) * mean l - a * b - mean l * mean l.
Proof.
  intros N H. rewrite deviation_sq by exact N. pose proof (INR_len_pos l N) as P.
  assert (S : fold_right Rplus 0 (map (fun x => x * x) l) <= (a + b) * fold_right Rplus 0 l - INR (length l) * (a * b)).
  { clear N P. induction l as [|x l IH]; [cbn; lra|]. cbn [fold_right map length]. rewrite S_INR.
    assert (B := H x (or_introl eq_refl)). assert (IH' := IH (fun y h => H y (or_intror h))).
    assert (0 <= (x - a) * (b - x)) by (apply Rmult_le_pos; lra). lra. }
  assert (Q : 0 < / INR (length l)) by (apply Rinv_0_lt_compat, P).
  assert (K : fold_right Rplus 0 (map (fun x => x * x) l) / INR (length l) <= (a + b) * mean l - a * b).
  { apply Rle_trans with (((a + b) * fold_right Rplus 0 l - INR (length l) * (a * b)) / INR (length l)).
    - apply Rmult_le_compat_r; lra.
    - right. unfold mean. field. lra. }
  lra.
Qed.

Lemma ratio_lower l a b : 0 < a -> a < b -> l <> [] -> deviation l <> 0 -> (forall x, In x l -> a <= x <= b) ->
  2 * sqrt (a * b) / (b - a) <= mean l / deviation l.
Proof.
  intros Ha Hab N D H. pose proof (deviation_pos l). pose proof (deviation_bound l a b N H) as B. pose proof (mean_bounds l a b N H) as M.
  set (m := mean l) in *. set (s := deviation l) in *. assert (S : 0 < s) by lra.
  assert (AB : 0 < a * b) by (apply Rmult_lt_0_compat; lra). assert (R2 : sqrt (a * b) * sqrt (a * b) = a * b) by (apply sqrt_sqrt; lra).
  assert (R0 : 0 < sqrt (a * b)) by (apply sqrt_lt_R0, AB). set (r := sqrt (a * b)) in *.
  assert (K : 2 * r * s <= m * (b - a)).
  { apply Rsqr_incr_0_var; [|apply Rmult_le_pos; lra]. unfold Rsqr.
    assert (Sq : 0 <= ((a + b) * m - 2 * (a * b)) * ((a + b) * m - 2 * (a * b))) by apply Rle_0_sqr.
    replace (2 * r * s * (2 * r * s)) with (4 * (r * r) * (s * s)) by ring. rewrite R2.
    apply Rle_trans with (4 * (a * b) * ((a + b) * m - a * b - m * m)); [apply Rmult_le_compat_l; lra|]. lra. }
  apply Rmult_le_reg_r with (s * (b - a)); [apply Rmult_lt_0_compat; lra|].
  replace (2 * r / (b - a) * (s * (b - a))) with (2 * r * s) by (field; lra).
  replace (m / s * (s * (b - a))) with (m * (b - a)) by (field; lra). exact K.
Qed.

Lemma mean_nil : deviation [] = 0.
Proof. unfold deviation, mean. cbn. unfold Rdiv. rewrite Rmult_0_l. apply sqrt_0. Qed.

(** With grey values from a > 0 to b the SNR of a region with noise is at least 2 sqrt (a b) / (b - a). *)
Theorem C144_snr_lower : forall mk nobg img sc r kind it lo hi yuv a b, wf img -> grey (shp img) -> last (shp img) 0%nat <> 3%nat ->
  length sc = length (shp img) -> (0 < r)%Z -> Forall (fun z => r <= Z.abs z)%Z sc -> kind <> KUnknown ->
  0 < a -> a < b -> (forall x, In x (dat img) -> a <= x <= b) ->
  exists sg, selected img (in_region kind (shp img) sc r) sg /\ (deviation sg <> 0 ->
    exists v, snr mk nobg img (map CInt sc) (RInt r) kind false it lo hi yuv = Ok (SGrey (Fin v) (snr_keys kind false)) /\
      2 * sqrt (a * b) / (b - a) <= v).
Proof.
  intros mk nobg img sc r kind it lo hi yuv a b W G L3 Ls Hr Hc Hk Ha Hab H.
  destruct (C46_value mk nobg img sc r kind it lo hi yuv W G L3 Ls Hr Hc Hk) as (sg & S & _ & V). exists sg. split; [exact S|]. intros D.
  assert (N : sg <> []) by (intros ->; apply D, mean_nil). eexists. split; [apply V; assumption|].
  apply ratio_lower; try assumption. intros x Hx. apply H. eapply selected_In; eassumption.
Qed.
Print Assumptions C144_snr_lower.

Lemma int_list (D : Z) (l : list R) : (forall x, In x l -> exists z, x = IZR z /\ (0 <= z <= D)%Z) ->
  exists zs, l = map IZR zs /\ forall z, In z zs -> (0 <= z <= D)%Z.
Proof.
  induction l as [|x l IH]; intros H; [exists []; split; [reflexivity|intros z []]|].
  destruct (H x (or_introl eq_refl)) as (z & -> & B). destruct (IH (fun y h => H y (or_intror h))) as (zs & -> & Bs).
  exists (z :: zs). split; [reflexivity|]. intros y [<-|Hy]; auto.
Qed.

Lemma zsum_range D l : (forall z, In z l -> (0 <= z <= D)%Z) -> (0 <= zsum l <= Z.of_nat (length l) * D)%Z.
Proof.
  induction l as [|x l IH]; intros H; [cbn; lia|]. cbn [zsum length]. rewrite Nat2Z.inj_succ.
  assert (B := H x (or_introl eq_refl)). assert (IH' := IH (fun y h => H y (or_intror h))). lia.
Qed.

Lemma zsum_proper D l x y : (forall z, In z l -> (0 <= z <= D)%Z) -> In x l -> In y l -> x <> y ->
  (1 <= zsum l <= Z.of_nat (length l) * D - 1)%Z.
Proof.
  intros H Hx Hy N. assert (G : forall u, In u l -> (u <= zsum l)%Z /\ (zsum l <= Z.of_nat (length l) * D - D + u)%Z).
  { clear -H. induction l as [|w l IH]; intros u Hu; [destruct Hu|]. cbn [zsum length]. rewrite Nat2Z.inj_succ.
    assert (B := H w (or_introl eq_refl)). assert (H' := fun y h => H y (or_intror h)). pose proof (zsum_range D l H') as Z.
    destruct Hu as [->|Hu]; [lia|]. specialize (IH H' u Hu). lia. }
  pose proof (G x Hx). pose proof (G y Hy). pose proof (H x Hx). pose proof (H y Hy). lia.
Qed.

Lemma different_ints (zs : list Z) : deviation (map IZR zs) <> 0 -> exists x y, In x zs /\ In y zs /\ x <> y.
Proof.
  intros D. destruct zs as [|x l]; [exfalso; apply D, mean_nil|].
  destruct (Forall_Exists_dec (fun u => u = x) (fun u => Z.eq_dec u x) l) as [F|F].
  - exfalso. apply D. assert (P := INR_len_pos (x :: l) ltac:(discriminate)).
    apply Rmult_eq_reg_r with (INR (length (x :: l))); [|lra]. rewrite deviation_int by discriminate. rewrite Rmult_0_l.
    assert (E : pairs (x :: l) = 0%Z).
    { assert (K : zsum l = (Z.of_nat (length l) * x)%Z /\ zsum2 l = (Z.of_nat (length l) * (x * x))%Z).
      { clear -F. induction F as [|u l -> F [I1 I2]]; [split; reflexivity|]. cbn [zsum zsum2 length]. rewrite Nat2Z.inj_succ, I1, I2. split; ring. }
      destruct K as [K1 K2]. unfold pairs. cbn [zsum zsum2 length]. rewrite K1, K2, Nat2Z.inj_succ. ring. }
    rewrite E. apply sqrt_0.
  - apply Exists_exists in F as (u & Hu & Nu). exists x, u. split; [left; reflexivity|]. split; [right; exact Hu|auto].
Qed.

Lemma deviation_lower zs : deviation (map IZR zs) <> 0 ->
  (2 <= length zs)%nat /\ sqrt (INR (length zs) - 1) <= deviation (map IZR zs) * INR (length zs).
Proof.
  intros D. destruct (different_ints zs D) as (x & y & Hx & Hy & N). assert (Nz : zs <> []) by (intros ->; destruct Hx). split.
  - destruct zs as [|u [|w zs]]; [contradiction| |cbn; lia]. destruct Hx as [<-|[]], Hy as [<-|[]]. contradiction.
  - rewrite deviation_int by exact Nz. apply sqrt_le_1_alt. pose proof (pairs_lower zs x y Hx Hy N) as P. apply IZR_le in P.
    rewrite minus_IZR, <- INR_IZR_INZ in P. exact P.
Qed.

Lemma ratio_upper zs (m q : R) : deviation (map IZR zs) <> 0 -> Rabs m * INR (length zs) <= q ->
  Rabs (m / deviation (map IZR zs)) <= q / sqrt (INR (length zs) - 1).
Proof.
  intros D Q. destruct (deviation_lower zs D) as [L K]. pose proof (deviation_pos (map IZR zs)). set (s := deviation _) in *.
  apply le_INR in L. cbn [INR] in L. set (n := INR (length zs)) in *. assert (S : 0 < sqrt (n - 1)) by (apply sqrt_lt_R0; lra).
  unfold Rdiv. rewrite Rabs_mult, Rabs_inv, (Rabs_pos_eq s) by lra. pose proof (Rabs_pos m).
  apply Rmult_le_reg_r with (s * n); [apply Rmult_lt_0_compat; lra|].
  replace (Rabs m * / s * (s * n)) with (Rabs m * n) by (field; lra).
  apply Rle_trans with q; [exact Q|]. replace q with (q * / sqrt (n - 1) * sqrt (n - 1)) at 1 by (field; lra).
  apply Rmult_le_compat_l; [|exact K]. apply Rmult_le_pos; [|left; apply Rinv_0_lt_compat, S].
  apply Rle_trans with (Rabs m * n); [apply Rmult_le_pos; lra|exact Q].
Qed.

(** With integer grey values from 0 to D the SNR of a region of n pixels is at most (n D - 1) / sqrt (n - 1). *)
Theorem C144_snr_upper : forall mk nobg img sc r kind it lo hi yuv D, wf img -> grey (shp img) -> last (shp img) 0%nat <> 3%nat ->
  length sc = length (shp img) -> (0 < r)%Z -> Forall (fun z => r <= Z.abs z)%Z sc -> kind <> KUnknown ->
  (forall x, In x (dat img) -> exists z, x = IZR z /\ (0 <= z <= D)%Z) ->
  exists sg, selected img (in_region kind (shp img) sc r) sg /\ (deviation sg <> 0 ->
    exists v, snr mk nobg img (map CInt sc) (RInt r) kind false it lo hi yuv = Ok (SGrey (Fin v) (snr_keys kind false)) /\
      0 < v <= (INR (length sg) * IZR D - 1) / sqrt (INR (length sg) - 1)).
Proof.
  intros mk nobg img sc r kind it lo hi yuv D W G L3 Ls Hr Hc Hk H.
  destruct (C46_value mk nobg img sc r kind it lo hi yuv W G L3 Ls Hr Hc Hk) as (sg & S & _ & V). exists sg. split; [exact S|]. intros Dv.
  assert (N : sg <> []) by (intros ->; apply Dv, mean_nil). eexists. split; [apply V; assumption|].
  destruct (int_list D sg) as (zs & -> & B); [intros x Hx; apply H; eapply selected_In; eassumption|].
  destruct (different_ints zs Dv) as (x & y & Hx & Hy & Ne). pose proof (zsum_proper D zs x y B Hx Hy Ne) as [Z1 Z2].
  assert (Nz : zs <> []) by (intros ->; destruct Hx). pose proof (mean_int zs Nz) as M. pose proof (INR_len_pos zs Nz) as P.
  apply IZR_le in Z1. apply IZR_le in Z2. rewrite minus_IZR, mult_IZR, <- INR_IZR_INZ in Z2.
  assert (M0 : 0 < mean (map IZR zs)) by (apply Rmult_lt_reg_r with (INR (length zs)); lra).
  pose proof (deviation_pos (map IZR zs)). assert (P0 : 0 < mean (map IZR zs) / deviation (map IZR zs)) by (apply Rdiv_lt_0_compat; lra).
  split; [exact P0|]. rewrite map_length. rewrite <- (Rabs_pos_eq (mean _ / _)) by lra. apply ratio_upper; [exact Dv|]. rewrite Rabs_pos_eq by lra. lra.
Qed.
Print Assumptions C144_snr_upper.

(** The CNR lies within the same bound, n being the number of pixels of the background. *)
Theorem C144_cnr : forall mk nobg img bc sc r kind it D, wf img -> grey (shp img) ->
  length bc = length (shp img) -> length sc = length (shp img) -> (0 < r)%Z ->
  Forall (fun z => r <= Z.abs z)%Z bc -> Forall (fun z => r <= Z.abs z)%Z sc -> kind <> KUnknown ->
  (forall x, In x (dat img) -> exists z, x = IZR z /\ (0 <= z <= D)%Z) ->
  exists sg bg, selected img (in_region kind (shp img) sc r) sg /\ selected img (in_region kind (shp img) bc r) bg /\
    (sg <> [] -> deviation bg <> 0 ->
       exists v, cnr mk nobg img (map CInt bc) (map CInt sc) (RInt r) kind false it = Ok (Fin v) /\
         Rabs v <= (INR (length bg) * IZR D - 1) / sqrt (INR (length bg) - 1)).
Proof.
  intros mk nobg img bc sc r kind it D W G Lb Ls Hr Hb Hs Hk H.
  destruct (C45_value mk nobg img bc sc r kind it W G Lb Ls Hr Hb Hs Hk) as (sg & bg & S & B & _ & V). exists sg, bg. split; [exact S|]. split; [exact B|].
  intros Ns Dv. assert (Nb : bg <> []) by (intros ->; apply Dv, mean_nil). eexists. split; [apply V; assumption|].
  assert (Ms : 0 <= mean sg <= IZR D).
  { apply mean_bounds; [exact Ns|]. intros x Hx. destruct (H x) as (z & -> & [z1 z2]); [exact (selected_In _ _ _ _ S Hx)|]. split; [apply (IZR_le 0), z1|apply IZR_le, z2]. }
  destruct (int_list D bg) as (zs & -> & Bz); [intros x Hx; apply H; exact (selected_In _ _ _ _ B Hx)|].
  destruct (different_ints zs Dv) as (x & y & Hx & Hy & Ne). pose proof (zsum_proper D zs x y Bz Hx Hy Ne) as [Z1 Z2].
  assert (Nz : zs <> []) by (intros ->; destruct Hx). pose proof (mean_int zs Nz) as M. pose proof (INR_len_pos zs Nz) as P.
  apply IZR_le in Z1. apply IZR_le in Z2. rewrite minus_IZR, mult_IZR, <- INR_IZR_INZ in Z2. rewrite map_length.
  apply ratio_upper; [exact Dv|].
  rewrite <- (Rabs_pos_eq (INR (length zs))) at 1 by lra. rewrite <- Rabs_mult, Rmult_minus_distr_r, M.
  apply Rabs_le. assert (0 <= mean sg * INR (length zs) <= IZR D * INR (length zs)) by (split; [apply Rmult_le_pos; lra|apply Rmult_le_compat_r; lra]). lra.
Qed.
Print Assumptions C144_cnr.

(** ** Examples *)

Example C144_rmse_example : rmse [1; 2; 3; 4] [1; 2; 4; 4] = Fin (1 / 2).
Proof.
  destruct (C144_rmse [1; 2; 3; 4]%Z [1; 2; 4; 4]%Z ltac:(discriminate) eq_refl) as (v & E & _ & K). cbn [map] in E. rewrite E. f_equal.
  rewrite (proj2 K); [|exists [1; 2]%Z, 3%Z, 4%Z, [4%Z]; repeat split; lia]. cbn [length INR].
  replace (1 + 1 + 1 + 1) with (2 * 2) by ring. rewrite sqrt_square; lra.
Qed.

Example C144_psnr_example : psnr 255 [0; 255] [255; 0] = Fin 0.
Proof.
  destruct (C144_psnr 255 [0; 255]%Z [255; 0]%Z ltac:(lia) ltac:(discriminate) eq_refl) as (p & E & _ & _ & K).
  { intros z [[<-|[<-|[]]]|[<-|[<-|[]]]]; lia. }
  cbn [map] in E. rewrite E. f_equal. apply K. intros x y [X|[X|[]]]; injection X as <- <-; reflexivity.
Qed.

(** The bounds of SNR are reached: 1, 1, 2 with a = 1, b = 2, and 2, 2, 2, 2, 1 with D = 2. *)
Example C144_lower_reached : mean [1; 1; 2] / deviation [1; 1; 2] = 2 * sqrt (1 * 2) / (2 - 1).
Proof.
  assert (M : mean [1; 1; 2] = 4 / 3) by (unfold mean; cbn; field). assert (D0 := deviation_pos [1; 1; 2]).
  assert (D : deviation [1; 1; 2] * deviation [1; 1; 2] = 2 / 9) by (rewrite deviation_sq by discriminate; rewrite M; cbn; field).
  assert (R2 : sqrt (1 * 2) * sqrt (1 * 2) = 2) by (rewrite sqrt_sqrt; lra). assert (R0 := sqrt_pos (1 * 2)).
  assert (E : deviation [1; 1; 2] = sqrt (1 * 2) / 3) by nra. rewrite M, E.
  assert (P : sqrt (1 * 2) <> 0) by (intros X; rewrite X in R2; lra). replace 4 with (2 * (sqrt (1 * 2) * sqrt (1 * 2))) by (rewrite R2; ring). field. exact P.
Qed.

Example C144_upper_reached : mean [2; 2; 2; 2; 1] / deviation [2; 2; 2; 2; 1] = (5 * 2 - 1) / sqrt (5 - 1).
Proof.
  assert (M : mean [2; 2; 2; 2; 1] = 9 / 5) by (unfold mean; cbn; field). assert (D0 := deviation_pos [2; 2; 2; 2; 1]).
  assert (D : deviation [2; 2; 2; 2; 1] * deviation [2; 2; 2; 2; 1] = 4 / 25) by (rewrite deviation_sq by discriminate; rewrite M; cbn; field).
  assert (E : deviation [2; 2; 2; 2; 1] = 2 / 5) by nra. rewrite M, E. replace (5 - 1) with (2 * 2) by ring. rewrite sqrt_square by lra. field.
Qed.
