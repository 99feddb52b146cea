(** Proofs about NrRoundModel: regions whose sums are exact, and a constant region whose sum is not. *)
From Coq Require Import Reals Lra Lia Psatz Permutation.
From Verif Require Import Base LoadModel RealSums MetricModel GsmModel MadModel SsimRoundModel RoundProofs
  RmseRoundModel RmseRoundProofs RmseExactProofs NrRoundModel NrRoundProofs.
Open Scope R_scope.

Lemma store_exact f k e : wide f -> (Z.abs k <= 2 ^ prec f)%Z -> (emin f <= e)%Z -> (prec f + e < emax f)%Z ->
  store f (IZR k * pow2 e) = Fin (IZR k * pow2 e).
Proof.
  intros (Wp & _) Hk He Hx. apply store_fin. rewrite round_f_exact by (lia || assumption). split; [reflexivity|].
  rewrite Rabs_mult, (Rabs_right (pow2 e)) by (left; apply pow2_pos). rewrite <- abs_IZR.
  apply Rle_lt_trans with (IZR (2 ^ prec f) * pow2 e).
  - apply Rmult_le_compat_r; [left; apply pow2_pos|apply IZR_le, Hk].
  - rewrite <- pow2_Z, <- pow2_plus by lia. assert (L : pow2 (prec f + e) <= pow2 (emax f - 1)) by (apply pow2_le; lia).
    rewrite pow2_minus in L. change (pow2 1) with (2 * 1) in L. pose proof (pow2_pos (emax f)). lra.
Qed.

Lemma store_0 f : store f 0 = Fin 0.
Proof. apply store_fin. rewrite round_f_0, Rabs_R0. split; [reflexivity|apply pow2_pos]. Qed.

Lemma Zsum_abs (z : R -> Z) q : (Z.abs (Zsum (map z q)) <= Zsum (map (fun x => Z.abs (z x)) q))%Z.
Proof. unfold Zsum. induction q as [|x q IH]; cbn [map fold_right]; [reflexivity|lia]. Qed.

(** Sums of multiples of a power of two *)
Lemma add_up_exact f g (z : R -> Z) e t : wide f -> (emin f <= e)%Z -> (prec f + e < emax f)%Z ->
  (forall x, In x (summands t) -> g x = Fin (IZR (z x) * pow2 e)) -> (Zsum (map (fun x => Z.abs (z x)) (summands t)) <= 2 ^ prec f)%Z ->
  add_up f g t = Fin (IZR (Zsum (map z (summands t))) * pow2 e).
Proof.
  intros W He Hx. induction t as [x|l IHl r IHr]; intros G S; cbn [add_up summands] in *.
  - rewrite (G x) by (left; reflexivity). cbn. rewrite Z.add_0_r. reflexivity.
  - rewrite map_app, Zsum_app in S.
    assert (P : forall q, (0 <= Zsum (map (fun x => Z.abs (z x)) q))%Z).
    { intros q. apply Zsum_nonneg. intros y Hy. apply in_map_iff in Hy as (x & <- & _). apply Z.abs_nonneg. }
    pose proof (P (summands l)). pose proof (P (summands r)).
    rewrite IHl, IHr by (try (intros; apply G, in_or_app; auto); lia). cbn [ext_add rnd]. rewrite <- Rmult_plus_distr_r, <- plus_IZR.
    rewrite map_app, Zsum_app. apply store_exact; try assumption.
    pose proof (Zsum_abs z (summands l)). pose proof (Zsum_abs z (summands r)). lia.
Qed.

Lemma Zsum_const (z : R -> Z) k q : (forall x, In x q -> z x = k) -> Zsum (map z q) = (Z.of_nat (length q) * k)%Z.
Proof.
  intros H. induction q as [|x q IH]; [reflexivity|]. cbn [map length]. unfold Zsum in *. cbn [fold_right].
  rewrite IH, (H x) by (try (left; reflexivity); intros; apply H; right; assumption). lia.
Qed.

(** ** Constant regions *)
Definition constant (l : list R) (c : R) : Prop := forall x, In x l -> x = c.

Lemma mean_constant f t k e : wide f -> (emin f <= e)%Z -> (prec f + e < emax f)%Z -> constant (summands t) (IZR k * pow2 e) ->
  (Z.of_nat (length (summands t)) * Z.abs k <= 2 ^ prec f)%Z -> mean_r f t = Fin (IZR k * pow2 e).
Proof.
  intros W He Hx C S. pose proof (summands_pos t) as N. unfold mean_r, average.
  rewrite (add_up_exact f _ (fun _ => k) e t W He Hx).
  - rewrite (Zsum_const _ k) by reflexivity. cbn [ext_div].
    assert (N0 : 1 <= INR (length (summands t))) by (apply (le_INR 1), N). destruct (Req_EM_T _ 0); [lra|]. cbn [rnd].
    replace (IZR (Z.of_nat (length (summands t)) * k) * pow2 e / INR (length (summands t))) with (IZR k * pow2 e).
    + apply store_exact; try assumption. nia.
    + rewrite mult_IZR, <- INR_IZR_INZ. field. lra.
  - intros x Hx'. rewrite (C x Hx'). reflexivity.
  - rewrite (Zsum_const _ (Z.abs k)) by reflexivity. exact S.
Qed.

Lemma average_zero f g t : (forall x, In x (summands t) -> g x = Fin 0) -> average f g t = Fin 0.
Proof.
  intros G. assert (A : add_up f g t = Fin 0).
  { induction t as [x|l IHl r IHr]; cbn [add_up summands] in *; [apply G; left; reflexivity|].
    rewrite IHl, IHr by (intros; apply G, in_or_app; auto). cbn [ext_add rnd]. rewrite Rplus_0_r. apply store_0. }
  unfold average. rewrite A. cbn [ext_div]. assert (N0 : 1 <= INR (length (summands t))) by (apply (le_INR 1), summands_pos).
  destruct (Req_EM_T _ 0); [lra|]. cbn [rnd]. unfold Rdiv. rewrite Rmult_0_l. apply store_0.
Qed.

Lemma square_dev_same f c : square_dev f (Fin c) c = Fin 0.
Proof.
  unfold square_dev. cbn [ext_sub ext_add ext_neg rnd]. rewrite Rplus_opp_r, store_0. cbn [ext_mul rnd]. rewrite Rmult_0_r. apply store_0.
Qed.

Lemma std_same f t t' c : mean_r f t = Fin c -> constant (summands t') c -> std_r f t t' = Fin 0.
Proof.
  intros M C. unfold std_r. rewrite M, average_zero by (intros x Hx; rewrite (C x Hx); apply square_dev_same).
  cbn [ext_sqrt]. destruct (Rlt_dec 0 0); [lra|]. cbn [rnd]. rewrite sqrt_0. apply store_0.
Qed.

(** ** Whole numbers *)
Definition wholes (l : list R) : Prop := forall x, In x l -> exists k, x = IZR k.
Definition total_abs (l : list R) : R := Rsum (map Rabs l).

Lemma IZR_Zsum (z : R -> Z) (v : R -> R) q : (forall x, In x q -> IZR (z x) = v x) -> IZR (Zsum (map z q)) = Rsum (map v q).
Proof.
  intros H. induction q as [|x q IH]; [reflexivity|]. unfold Zsum, Rsum in *. cbn [map fold_right].
  rewrite plus_IZR, (H x), IH by (try (left; reflexivity); intros; apply H; right; assumption). reflexivity.
Qed.

Lemma wholes_mean f t : fine f -> wholes (summands t) -> total_abs (summands t) <= pow2 (prec f) -> exists m, mean_r f t = Fin m.
Proof.
  intros Hf H S. pose proof (proj1 Hf) as W. pose proof W as (Wp & We & Wx & _).
  assert (Z1 : forall x, In x (summands t) -> IZR (Int_part x) = x) by (intros x Hx; destruct (H x Hx) as (k & ->); rewrite Int_part_IZR; reflexivity).
  unfold mean_r, average. rewrite (add_up_exact f _ Int_part 0 t W); try lia.
  - cbn [ext_div]. assert (N0 : 1 <= INR (length (summands t))) by (apply (le_INR 1), summands_pos).
    destruct (Req_EM_T _ 0); [lra|]. cbn [rnd]. rewrite pow2_0, Rmult_1_r, (IZR_Zsum Int_part (fun x => x)), map_id by exact Z1.
    eexists. apply (store_below f _ (pow2 (prec f)) Hf).
    + pose proof (Rsum_abs (fun x => x) (summands t)) as T. rewrite map_id in T.
      unfold Rdiv. rewrite Rabs_mult, (Rabs_right (/ _)) by (left; apply Rinv_0_lt_compat; lra).
      apply Rmult_le_reg_r with (INR (length (summands t))); [lra|]. rewrite Rmult_assoc, Rinv_l, Rmult_1_r by lra.
      pose proof (pow2_pos (prec f)). assert (pow2 (prec f) <= pow2 (prec f) * INR (length (summands t))) by (rewrite <- (Rmult_1_r (pow2 (prec f))) at 1; apply Rmult_le_compat_l; lra).
      unfold total_abs in S. change (map Rabs (summands t)) with (map (fun x => Rabs x) (summands t)) in S. lra.
    + assert (L : pow2 (prec f + 2) <= pow2 (emax f)) by (apply pow2_le; destruct Hf; lia). rewrite pow2_plus in L.
      change (pow2 2) with (2 * (2 * 1)) in L. assert (1 < pow2 (prec f)) by (rewrite pow2_Z by lia; apply IZR_lt; apply Z.pow_gt_1; lia). lra.
  - intros x Hx. rewrite Z1, pow2_0, Rmult_1_r by exact Hx. reflexivity.
  - apply le_IZR. rewrite (IZR_Zsum _ (fun x => Rabs x)) by (intros x Hx; rewrite abs_IZR, Z1 by exact Hx; reflexivity).
    rewrite <- pow2_Z by lia. exact S.
Qed.

(** One of two different whole numbers is at least one half away from any number. *)
Lemma far_value l m a b : wholes l -> In a l -> In b l -> a <> b -> exists x, In x l /\ 1 / 2 <= Rabs (x - m).
Proof.
  intros H Ha Hb N. destruct (H a Ha) as (i & ->). destruct (H b Hb) as (j & ->).
  assert (D : 1 <= Rabs (IZR i - IZR j)).
  { rewrite <- minus_IZR, <- abs_IZR. apply (IZR_le 1). assert (i <> j) by (intros ->; apply N; reflexivity). lia. }
  destruct (Rle_lt_dec (1 / 2) (Rabs (IZR i - m))) as [L|L]; [eauto|]. exists (IZR j). split; [exact Hb|].
  replace (IZR i - IZR j) with ((IZR i - m) - (IZR j - m)) in D by ring. unfold Rminus at 1 in D.
  pose proof (Rabs_triang (IZR i - m) (- (IZR j - m))) as T. rewrite Rabs_Ropp in T. unfold Rminus in *. lra.
Qed.

Lemma add_up_ge f g t k : (0 < prec f)%Z -> (emin f <= k)%Z ->
  (forall x y, In x (summands t) -> g x = Fin y -> 0 <= y) -> (exists x, In x (summands t) /\ forall y, g x = Fin y -> pow2 k <= y) ->
  forall s, add_up f g t = Fin s -> pow2 k <= s.
Proof.
  intros Hp Hk. assert (NN : forall t s, (forall x y, In x (summands t) -> g x = Fin y -> 0 <= y) -> add_up f g t = Fin s -> 0 <= s).
  { clear t. induction t as [x|l IHl r IHr]; intros s G H; cbn [add_up summands] in *; [apply (G x); [left; reflexivity|exact H]|].
    apply rnd_fin in H as (w & Hw & E). apply ext_add_fin in Hw as (p & q & Hp' & Hq & ->). apply store_fin in E as [-> _]. apply round_f_nonneg.
    pose proof (IHl p ltac:(intros; eapply G; [apply in_or_app; eauto|eassumption]) Hp'). pose proof (IHr q ltac:(intros; eapply G; [apply in_or_app; eauto|eassumption]) Hq). lra. }
  induction t as [x|l IHl r IHr]; intros G (x0 & Hx0 & L) s H; cbn [add_up summands] in *.
  - destruct Hx0 as [<-|[]]. apply L, H.
  - apply rnd_fin in H as (w & Hw & E). apply ext_add_fin in Hw as (p & q & Hp' & Hq & ->). apply store_fin in E as [-> _]. apply round_f_ge; try assumption.
    assert (Gl : forall x y, In x (summands l) -> g x = Fin y -> 0 <= y) by (intros; eapply G; [apply in_or_app; eauto|eassumption]).
    assert (Gr : forall x y, In x (summands r) -> g x = Fin y -> 0 <= y) by (intros; eapply G; [apply in_or_app; eauto|eassumption]).
    pose proof (NN l p Gl Hp'). pose proof (NN r q Gr Hq). apply in_app_or in Hx0 as [I|I].
    + pose proof (IHl Gl (ex_intro _ x0 (conj I L)) p Hp'). lra.
    + pose proof (IHr Gr (ex_intro _ x0 (conj I L)) q Hq). lra.
Qed.

Lemma square_dev_ge f m x q : (0 < prec f)%Z -> (emin f <= - 2)%Z -> 1 / 2 <= Rabs (x - m) -> square_dev f (Fin m) x = Fin q -> pow2 (- 2) <= q.
Proof.
  intros Hp He D H. unfold square_dev in H. cbn [ext_sub ext_add ext_neg rnd] in H. replace (x + - m) with (x - m) in H by ring.
  destruct (store f (x - m)) as [d| | |] eqn:Sd; cbn [ext_mul rnd] in H; try discriminate. apply store_fin in Sd as [-> _]. apply store_fin in H as [-> _].
  assert (A : pow2 (- 1) <= Rabs (round_f f (x - m))).
  { assert (HP : pow2 (- 1) = 1 / 2) by (change (- 1)%Z with (Z.opp 1); rewrite pow2_opp; change (pow2 1) with (2 * 1); field). destruct (Rle_lt_dec 0 (x - m)) as [L|L].
    - rewrite (Rabs_right (x - m)) in D by lra. pose proof (round_f_ge f (x - m) (- 1) Hp ltac:(lia) ltac:(lra)). rewrite Rabs_right; lra.
    - rewrite (Rabs_left (x - m)) in D by lra. pose proof (round_f_ge f (- (x - m)) (- 1) Hp ltac:(lia) ltac:(lra)) as K.
      rewrite round_f_opp in K. rewrite <- Rabs_Ropp. rewrite Rabs_right; lra. }
  set (d := round_f f (x - m)) in *. apply round_f_ge; try assumption. change (- 2)%Z with (- 1 + - 1)%Z. rewrite pow2_plus.
  replace (d * d) with (Rabs d * Rabs d) by (rewrite <- Rabs_mult; apply Rabs_right, Rle_ge, Rle_0_sqr).
  apply Rmult_le_compat; try assumption; left; apply pow2_pos.
Qed.

Lemma square_dev_nonneg f e x q : square_dev f e x = Fin q -> 0 <= q.
Proof.
  intros H. pose proof (square_dev_fin _ _ _ _ H) as (m & ->). unfold square_dev in H. apply rnd_fin in H as (w & Hw & E).
  destruct (rnd f (ext_sub (Fin x) (Fin m))) as [d| | |]; cbn [ext_mul] in Hw; try discriminate. injection Hw as <-.
  apply store_fin in E as [-> _]. apply round_f_nonneg, Rle_0_sqr.
Qed.

Lemma std_nonconstant f t t' m a b : fine f -> wholes (summands t') -> In a (summands t') -> In b (summands t') -> a <> b ->
  (Z.of_nat (length (summands t')) <= 2 ^ prec f)%Z -> (emin f + prec f <= - 2)%Z -> mean_r f t = Fin m -> std_r f t t' <> Fin 0.
Proof.
  intros Hf H Ha Hb N L He M S. pose proof (proj1 Hf) as (Wp & We & Wx & _). unfold std_r in S. rewrite M in S.
  apply rnd_fin in S as (y & Hy & Sy). destruct (average f (square_dev f (Fin m)) t') as [V| | |] eqn:A; cbn [ext_sqrt] in Hy; try discriminate.
  destruct (Rlt_dec V 0); [discriminate|]. injection Hy as <-.
  apply average_fin in A as (s & Hs & A). apply store_fin in A as [-> _].
  destruct (far_value _ m a b H Ha Hb N) as (x & Hx & D).
  assert (Sg : pow2 (- 2) <= s).
  { apply (add_up_ge f (square_dev f (Fin m)) t' (- 2)); [lia|lia| | |exact Hs].
    - intros z w _ E. apply (square_dev_nonneg _ _ _ _ E).
    - exists x. split; [exact Hx|]. intros w E. apply (square_dev_ge f m x w); [lia|lia|exact D|exact E]. }
  set (nn := INR (length (summands t'))) in *. assert (N0 : 1 <= nn) by (apply (le_INR 1), summands_pos).
  assert (NB : nn <= pow2 (prec f)) by (unfold nn; rewrite INR_IZR_INZ, pow2_Z by lia; apply IZR_le, L).
  assert (Q : pow2 (- 2 - prec f) <= s / nn).
  { rewrite pow2_minus. unfold Rdiv. apply Rmult_le_compat; [left; apply pow2_pos|left; apply Rinv_0_lt_compat, pow2_pos|exact Sg|].
    apply Rinv_le_contravar; lra. }
  pose proof (round_f_ge f (s / nn) (- 2 - prec f) ltac:(lia) ltac:(lia) Q) as V1. set (V := round_f f (s / nn)) in *.
  assert (W : pow2 (- 2 - prec f) <= sqrt V).
  { rewrite <- (sqrt_square (pow2 (- 2 - prec f))) by (left; apply pow2_pos). apply sqrt_le_1_alt.
    assert (pow2 (- 2 - prec f) <= 1) by (rewrite <- pow2_0; apply pow2_le; lia). pose proof (pow2_pos (- 2 - prec f)).
    assert (pow2 (- 2 - prec f) * pow2 (- 2 - prec f) <= pow2 (- 2 - prec f) * 1) by (apply Rmult_le_compat_l; lra). lra. }
  pose proof (store_pos_ge f (sqrt V) (- 2 - prec f) 0 ltac:(lia) ltac:(lia) W Sy) as Z0. pose proof (pow2_pos (- 2 - prec f)). lra.
Qed.

(** ** Three equal values *)
Lemma three t c : summands t = [c; c; c] ->
  t = Plus (Value c) (Plus (Value c) (Value c)) \/ t = Plus (Plus (Value c) (Value c)) (Value c).
Proof.
  assert (ONE : forall t x, summands t = [x] -> t = Value x).
  { intros [y|l r] x H; cbn in H; [injection H as ->; reflexivity|]. pose proof (summands_pos l). pose proof (summands_pos r).
    apply (f_equal (@length R)) in H. rewrite app_length in H. cbn in H. lia. }
  assert (TWO : forall t x y, summands t = [x; y] -> t = Plus (Value x) (Value y)).
  { intros [z|l r] x y H; cbn in H; [discriminate|]. pose proof (summands_pos l) as A. pose proof (summands_pos r) as B.
    destruct (summands l) as [|u [|v k]] eqn:El; [cbn in A; lia| |].
    - cbn in H. injection H as -> Er. rewrite (ONE _ _ El), (ONE _ _ Er). reflexivity.
    - apply (f_equal (@length R)) in H. rewrite app_length in H. cbn in H. lia. }
  destruct t as [x|l r]; intros H; cbn in H; [discriminate|]. pose proof (summands_pos l) as A. pose proof (summands_pos r) as B.
  destruct (summands l) as [|u [|v [|w k]]] eqn:El; [cbn in A; lia| | |].
  - cbn in H. injection H as -> Er. left. rewrite (ONE _ _ El), (TWO _ _ _ Er). reflexivity.
  - cbn in H. injection H as -> -> Er. right. rewrite (TWO _ _ _ El), (ONE _ _ Er). reflexivity.
  - apply (f_equal (@length R)) in H. rewrite app_length in H. cbn in H. lia.
Qed.

(** A number c = M 2^e of full precision whose threefold sum is rounded up *)
Definition awkward (f : format) (M e : Z) : Prop :=
  (M mod 8 = 2 /\ 2 ^ (prec f + 1) < 3 * M /\ M < 2 ^ prec f /\ emin f <= 2 * e /\ emin f <= e /\ e + prec f + 3 < emax f /\ 2 * e + prec f + 3 < emax f)%Z.

Lemma mean_three f M e t : fine f -> awkward f M e -> summands t = [IZR M * pow2 e; IZR M * pow2 e; IZR M * pow2 e] ->
  mean_r f t = Fin (IZR (M + 1) * pow2 e).
Proof.
  intros Hf (M8 & M3 & Mp & E2 & E1 & X1 & X2) T. pose proof (proj1 Hf) as W. pose proof W as (Wp & We & Wx & _).
  set (c := IZR M * pow2 e) in *. pose proof (pow2_pos e) as PE.
  assert (PP : (2 ^ (prec f + 1) = 2 * 2 ^ prec f)%Z) by (rewrite Z.pow_add_r by lia; reflexivity || lia).
  assert (P2 : (2 ^ (prec f + 2) = 4 * 2 ^ prec f)%Z) by (rewrite Z.pow_add_r by lia; lia).
  assert (PM : (2 ^ prec f = 2 * 2 ^ (prec f - 1))%Z) by (apply pow_half, W).
  assert (M0 : (0 < M)%Z) by lia.
  assert (S2 : store f (c + c) = Fin (IZR M * pow2 (e + 1))).
  { replace (c + c) with (IZR M * pow2 (e + 1)) by (rewrite pow2_plus; change (pow2 1) with (2 * 1); unfold c; ring).
    apply store_exact; try assumption; lia. }
  destruct (Z_div_mod_eq_full M 8) as []. set (i := (M / 8)%Z).
  assert (Mi : M = (8 * i + 2)%Z) by (unfold i; lia).
  assert (S3 : store f (3 * c) = Fin (IZR (3 * M + 2) * pow2 e)).
  { apply store_fin. assert (RT : round_f f (3 * c) = IZR (3 * M + 2) * pow2 e).
    { assert (A : Rabs (3 * c) = IZR (3 * M) * pow2 e).
      { rewrite Rabs_right by (unfold c; assert (0 <= IZR M * pow2 e) by (apply Rmult_le_pos; [apply (IZR_le 0); lia|lra]); lra). unfold c. rewrite mult_IZR. ring. }
      assert (KB : pow2 (prec f + 1 + e) <= Rabs (3 * c) < pow2 (prec f + 1 + e + 1)).
      { rewrite A. replace (prec f + 1 + e + 1)%Z with (prec f + 2 + e)%Z by lia. rewrite !(pow2_plus _ e), (pow2_Z (prec f + 1)), (pow2_Z (prec f + 2)) by lia. split.
        - apply Rmult_le_compat_r; [lra|apply IZR_le; lia].
        - apply Rmult_lt_compat_r; [lra|apply IZR_lt; lia]. }
      assert (NZ : 3 * c <> 0) by (intros E; rewrite E, Rabs_R0 in KB; pose proof (pow2_pos (prec f + 1 + e)); lra).
      rewrite round_f_normal by (rewrite (exponent_unique _ _ NZ KB); lia).
      rewrite (round_tie (prec f) (3 * c) (prec f + 1 + e) (6 * i + 1) ltac:(lia) KB).
      - replace (Z.even (6 * i + 1)) with false.
        + replace (prec f + 1 + e - (prec f - 1))%Z with (2 + e)%Z by lia. rewrite pow2_plus. change (pow2 2) with (2 * (2 * 1)).
          replace (3 * M + 2)%Z with (4 * (6 * i + 1 + 1))%Z by lia. rewrite (mult_IZR 4). ring.
        + symmetry. rewrite <- Z.negb_odd. replace (6 * i + 1)%Z with (1 + 2 * (3 * i))%Z by lia. rewrite Z.odd_add_mul_2. reflexivity.
      - replace (prec f + 1 + e - (prec f - 1))%Z with (2 + e)%Z by lia. rewrite pow2_plus. change (pow2 2) with (2 * (2 * 1)).
        unfold c. rewrite Mi at 1. rewrite !plus_IZR, !mult_IZR. lra. }
    rewrite RT. split; [reflexivity|]. rewrite Rabs_right by (apply Rle_ge, Rmult_le_pos; [apply (IZR_le 0); lia|lra]).
    apply Rle_lt_trans with (IZR (2 ^ (prec f + 2)) * pow2 e); [apply Rmult_le_compat_r; [lra|apply IZR_le; lia]|].
    rewrite <- pow2_Z, <- pow2_plus by lia. assert (L : pow2 (prec f + 2 + e) <= pow2 (emax f - 1)) by (apply pow2_le; lia).
    rewrite pow2_minus in L. change (pow2 1) with (2 * 1) in L. pose proof (pow2_pos (emax f)). lra. }
  assert (AU : add_up f (fun x => Fin x) t = Fin (IZR (3 * M + 2) * pow2 e)).
  { assert (C3 : c + IZR M * pow2 (e + 1) = 3 * c) by (rewrite pow2_plus; change (pow2 1) with (2 * 1); unfold c; ring).
    destruct (three t c T) as [->| ->]; cbn [add_up ext_add rnd]; rewrite S2; cbn [ext_add rnd]; [|rewrite Rplus_comm]; rewrite C3; exact S3. }
  unfold mean_r, average. rewrite AU, T. cbn [length ext_div]. assert (I3 : INR 3 = 3) by (cbn; lra). rewrite I3.
  destruct (Req_EM_T 3 0); [lra|]. cbn [rnd].
  assert (Q : IZR (3 * M + 2) * pow2 e / 3 = (IZR M + 2 / 3) * pow2 e) by (rewrite plus_IZR, mult_IZR; field). rewrite Q.
  assert (MB : (2 ^ (prec f - 1) <= M)%Z) by lia. apply IZR_le in MB. rewrite <- pow2_Z in MB by lia.
  assert (MB' : (M + 1 <= 2 ^ prec f)%Z) by lia. apply IZR_le in MB'. rewrite <- pow2_Z, plus_IZR in MB' by lia.
  assert (Pm : 0 < pow2 (prec f - 1)) by apply pow2_pos.
  apply store_fin. assert (RQ : round_f f ((IZR M + 2 / 3) * pow2 e) = IZR (M + 1) * pow2 e).
  { assert (KB : pow2 (prec f - 1 + e) <= Rabs ((IZR M + 2 / 3) * pow2 e) < pow2 (prec f - 1 + e + 1)).
    { rewrite Rabs_right by (apply Rle_ge, Rmult_le_pos; lra). replace (prec f - 1 + e + 1)%Z with (prec f + e)%Z by lia. rewrite !(pow2_plus _ e). split.
      - apply Rmult_le_compat_r; lra.
      - apply Rmult_lt_compat_r; lra. }
    assert (NZ : (IZR M + 2 / 3) * pow2 e <> 0) by (intros E; rewrite E, Rabs_R0 in KB; pose proof (pow2_pos (prec f - 1 + e)); lra).
    rewrite round_f_normal by (rewrite (exponent_unique _ _ NZ KB); lia).
    assert (K1 : (prec f - 1 + e - (prec f - 1) = e)%Z) by lia.
    rewrite <- K1 at 2. apply (round_at (prec f) _ (prec f - 1 + e) (M + 1)); [lia|exact KB|]. rewrite K1.
    replace (prec f - 1 + e - prec f)%Z with (e - 1)%Z by lia. rewrite pow2_minus. change (pow2 1) with (2 * 1).
    replace ((IZR M + 2 / 3) * pow2 e - IZR (M + 1) * pow2 e) with (- (1 / 3 * pow2 e)) by (rewrite plus_IZR; field).
    rewrite Rabs_Ropp, Rabs_right by lra. lra. }
  rewrite RQ. split; [reflexivity|]. pose proof (store_exact f (M + 1) e W ltac:(lia) E1 ltac:(lia)) as K. apply store_fin in K as [K1 K2]. rewrite <- K1 in K2. exact K2.
Qed.

Lemma std_three f M e t t' : fine f -> awkward f M e -> let c := IZR M * pow2 e in
  summands t = [c; c; c] -> summands t' = [c; c; c] -> std_r f t t' = Fin (pow2 e).
Proof.
  intros Hf A c T T'. pose proof (proj1 Hf) as W. pose proof W as (Wp & We & Wx & _). pose proof (mean_three f M e t Hf A T) as HM.
  destruct A as (M8 & M3 & Mp & E2 & E1 & X1 & X2). unfold std_r. rewrite HM. pose proof (pow2_pos e) as PE.
  assert (P4 : (4 <= 2 ^ prec f)%Z) by (apply (Z.pow_le_mono_r 2 2); lia).
  assert (SD : square_dev f (Fin (IZR (M + 1) * pow2 e)) c = Fin (IZR 1 * pow2 (2 * e))).
  { unfold square_dev. cbn [ext_sub ext_add ext_neg rnd].
    replace (c + - (IZR (M + 1) * pow2 e)) with (IZR (- 1) * pow2 e) by (unfold c; rewrite plus_IZR; ring).
    rewrite store_exact by (try assumption; lia). cbn [ext_mul rnd].
    replace (IZR (- 1) * pow2 e * (IZR (- 1) * pow2 e)) with (IZR 1 * pow2 (2 * e)) by (replace (2 * e)%Z with (e + e)%Z by lia; rewrite pow2_plus; change (IZR (- 1)) with (- (1)); ring).
    apply store_exact; try assumption; lia. }
  assert (AV : average f (square_dev f (Fin (IZR (M + 1) * pow2 e))) t' = Fin (pow2 (2 * e))).
  { unfold average. rewrite (add_up_exact f _ (fun _ => 1%Z) (2 * e) t' W).
    - rewrite T'. cbn [length map]. change (Zsum [1; 1; 1]%Z) with 3%Z. cbn [ext_div]. assert (I3 : INR 3 = 3) by (cbn; lra). rewrite I3.
      destruct (Req_EM_T 3 0); [lra|]. cbn [rnd]. replace (3 * pow2 (2 * e) / 3) with (IZR 1 * pow2 (2 * e)) by field.
      rewrite store_exact by (try assumption; lia). f_equal. ring.
    - exact E2.
    - lia.
    - rewrite T'. intros x [<-|[<-|[<-|[]]]]; exact SD.
    - rewrite T'. cbn. lia. }
  rewrite AV. cbn [ext_sqrt]. pose proof (pow2_pos (2 * e)). destruct (Rlt_dec _ 0); [lra|]. cbn [rnd].
  replace (2 * e)%Z with (e + e)%Z by lia. rewrite pow2_plus, sqrt_square by lra. replace (pow2 e) with (IZR 1 * pow2 e) by ring.
  rewrite store_exact by (try assumption; lia). reflexivity.
Qed.

Lemma snr_three f M e tm t t' : fine f -> awkward f M e -> let c := IZR M * pow2 e in
  summands tm = [c; c; c] -> summands t = [c; c; c] -> summands t' = [c; c; c] -> snr_r f tm t t' = Fin (IZR (M + 1)).
Proof.
  intros Hf A c Tm T T'. pose proof (proj1 Hf) as W. pose proof W as (Wp & We & Wx & _). unfold snr_r.
  rewrite (std_three f M e t t' Hf A T T'), (mean_three f M e tm Hf A Tm). pose proof (pow2_pos e) as PE.
  cbn [ext_eqb ext_div]. destruct (Req_EM_T (pow2 e) 0); [lra|]. cbn [rnd]. replace (IZR (M + 1) * pow2 e / pow2 e) with (IZR (M + 1)) by (field; lra).
  destruct A as (M8 & M3 & Mp & _). apply store_int; lia.
Qed.

Lemma cnr_three f M e k ts tm t t' : fine f -> awkward f M e -> let c := IZR M * pow2 e in
  constant (summands ts) (IZR k * pow2 e) -> (Z.of_nat (length (summands ts)) * Z.abs k <= 2 ^ prec f)%Z -> (Z.abs (k - M - 1) <= 2 ^ prec f)%Z ->
  summands tm = [c; c; c] -> summands t = [c; c; c] -> summands t' = [c; c; c] -> cnr_r f ts tm t t' = Fin (IZR (k - M - 1)).
Proof.
  intros Hf A c C L K Tm T T'. pose proof (proj1 Hf) as W. pose proof W as (Wp & We & Wx & _). unfold cnr_r.
  rewrite (std_three f M e t t' Hf A T T'), (mean_three f M e tm Hf A Tm). pose proof (pow2_pos e) as PE. destruct A as (M8 & M3 & Mp & E2 & E1 & X1 & X2).
  rewrite (mean_constant f ts k e W E1 ltac:(lia) C L). cbn [ext_eqb ext_sub ext_neg ext_add rnd]. destruct (Req_EM_T (pow2 e) 0); [lra|].
  replace (IZR k * pow2 e + - (IZR (M + 1) * pow2 e)) with (IZR (k - M - 1) * pow2 e) by (rewrite !minus_IZR, plus_IZR; ring).
  rewrite store_exact by (try assumption; lia). cbn [ext_div]. destruct (Req_EM_T (pow2 e) 0); [lra|]. cbn [rnd].
  replace (IZR (k - M - 1) * pow2 e / pow2 e) with (IZR (k - M - 1)) by (field; lra). apply store_int; lia.
Qed.

(** ** Deviation of whole numbers *)
Lemma levels_lt t : (levels t < length (summands t))%nat.
Proof. induction t; cbn [levels summands length]; [lia|]. rewrite app_length. pose proof (summands_pos t1). pose proof (summands_pos t2). lia. Qed.

Lemma constant_or l : (exists c, constant l c) \/ exists a b, In a l /\ In b l /\ a <> b.
Proof.
  destruct l as [|a l]; [left; exists 0; intros x []|]. induction l as [|b l IH].
  - left. exists a. intros x [<-|[]]. reflexivity.
  - destruct (Req_EM_T a b) as [->|N]; [|right; exists a, b; cbn; auto].
    destruct IH as [(c & C)|(x & y & Hx & Hy & N)].
    + left. exists c. intros x [<-|[<-|H]]; apply C; cbn; auto.
    + right. exists x, y. split; [|split; [|exact N]]; [destruct Hx|destruct Hy]; cbn; auto.
Qed.

Lemma std0_ge l a b : wholes l -> In a l -> In b l -> a <> b -> 1 / 4 <= INR (length l) * (std0 l * std0 l).
Proof.
  intros H Ha Hb N. destruct (far_value l (lmean l) a b H Ha Hb N) as (x & Hx & D).
  assert (NE : l <> []) by (intros ->; destruct Ha). assert (N0 : 0 < INR (length l)) by (apply lt_0_INR; destruct l; [contradiction|cbn; lia]).
  pose proof (about_mean (lmean l) l NE) as A. rewrite Rminus_diag_eq, Rmult_0_r, Rplus_0_r in A by reflexivity. rewrite <- A. unfold about.
  replace (INR (length l) * (Rsum (map (fun x => sq (x, lmean l)) l) / INR (length l))) with (Rsum (map (fun x => sq (x, lmean l)) l)) by (field; lra).
  apply Rle_trans with (sq (x, lmean l)).
  - unfold sq. cbn [fst snd]. set (d := x - lmean l) in *. replace (d * d) with (Rabs d * Rabs d) by (rewrite <- Rabs_mult; apply Rabs_right, Rle_ge, Rle_0_sqr).
    replace (1 / 4) with (1 / 2 * (1 / 2)) by lra. apply Rmult_le_compat; lra.
  - clear - Hx. revert Hx. generalize (lmean l) as c. intros c Hx. induction l as [|y l IH]; [destruct Hx|]. unfold Rsum in *. cbn [map fold_right].
    assert (0 <= fold_right Rplus 0 (map (fun x => sq (x, c)) l)).
    { apply (Rsum_nonneg (map (fun x => sq (x, c)) l)). intros z Hz. apply in_map_iff in Hz as (w & <- & _). apply sq_nonneg. }
    pose proof (sq_nonneg (y, c)). destruct Hx as [->|Hx]; [lra|]. specialize (IH Hx). lra.
Qed.

Lemma std0_constant l c : constant l c -> l <> [] -> lmean l = c /\ std0 l = 0.
Proof.
  intros C N. assert (N0 : 0 < INR (length l)) by (apply lt_0_INR; destruct l; [contradiction|cbn; lia]).
  assert (M : lmean l = c).
  { rewrite <- Rsum_lmean. assert (S : Rsum l = INR (length l) * c).
    { clear - C. induction l as [|x l IH]; [cbn; ring|]. cbn [length]. rewrite S_INR. unfold Rsum in *. cbn [fold_right].
      rewrite IH, (C x) by (try (left; reflexivity); intros y Hy; apply C; right; exact Hy). ring. }
    rewrite S. field. lra. }
  split; [exact M|]. pose proof (about_mean c l N) as A. rewrite M, Rminus_diag_eq, Rmult_0_r, Rplus_0_r in A by reflexivity.
  assert (Z : about c l = 0).
  { unfold about. assert (S : Rsum (map (fun x => sq (x, c)) l) = 0).
    { clear - C. induction l as [|x l IH]; [reflexivity|]. unfold Rsum in *. cbn [map fold_right].
      rewrite IH by (intros y Hy; apply C; right; exact Hy). rewrite (C x) by (left; reflexivity). unfold sq. cbn [fst snd]. ring. }
    rewrite S. unfold Rdiv. ring. }
  rewrite Z in A. symmetry in A. apply Rmult_integral in A as [A|A]; exact A.
Qed.
