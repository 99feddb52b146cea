(** Complex sums, the discrete Fourier transform and its inverse. *)
From Coq Require Import Reals Lra Lia Psatz Ring.
From Verif Require Import Base NdArray PairModel RealSums MetricModel SsimModel GsmModel MadModel FreqModel.

Local Open Scope R_scope.

(** ** The field of complex numbers, as far as it is needed *)

Lemma cplx_eq (a b : cplx) : fst a = fst b -> snd a = snd b -> a = b.
Proof. destruct a, b; cbn [fst snd]. intros -> ->. reflexivity. Qed.

Ltac cx := repeat match goal with a : cplx |- _ => destruct a end;
  apply cplx_eq; cbn [fst snd cadd cmul copp csub c0 c1 creal cis]; try ring.

Lemma cring : ring_theory c0 c1 cadd cmul csub copp eq.
Proof. constructor; intros; cx. Qed.
Add Ring complex_ring : cring.

Definition conj (a : cplx) : cplx := (fst a, - snd a).
Lemma conj_add a b : conj (cadd a b) = cadd (conj a) (conj b). Proof. unfold conj; cx. Qed.
Lemma conj_mul a b : conj (cmul a b) = cmul (conj a) (conj b). Proof. unfold conj; cx. Qed.
Lemma conj_real x : conj (creal x) = creal x. Proof. unfold conj; cx. Qed.
Lemma conj_cis t : conj (cis t) = cis (- t).
Proof. unfold conj; apply cplx_eq; cbn [fst snd cis]; [rewrite cos_neg|rewrite sin_neg]; reflexivity. Qed.
Lemma conj_fixed a : conj a = a -> snd a = 0.
Proof. destruct a as [x y]. unfold conj; cbn [fst snd]. intros H. apply (f_equal snd) in H. cbn [snd] in H. lra. Qed.

Lemma cis_add s t : cis (s + t) = cmul (cis s) (cis t).
Proof. apply cplx_eq; cbn [fst snd cis cmul]; [rewrite cos_plus|rewrite sin_plus]; ring. Qed.
Lemma cis_0 : cis 0 = c1.
Proof. apply cplx_eq; cbn [fst snd cis c1]; [apply cos_0|apply sin_0]. Qed.
Lemma cis_period t (k : nat) : cis (t + 2 * INR k * PI) = cis t.
Proof. apply cplx_eq; cbn [fst snd cis]; [apply cos_period|apply sin_period]. Qed.
Lemma cis_turns (k : nat) : cis (2 * PI * INR k) = c1.
Proof. replace (2 * PI * INR k) with (0 + 2 * INR k * PI) by ring. rewrite cis_period. apply cis_0. Qed.
Lemma cis_neg_turns (k : nat) : cis (- (2 * PI * INR k)) = c1.
Proof. rewrite <- conj_cis, cis_turns. unfold conj; cx. Qed.

Lemma creal_mul x y : creal (x * y) = cmul (creal x) (creal y). Proof. cx. Qed.
Lemma creal_add x y : creal (x + y) = cadd (creal x) (creal y). Proof. cx. Qed.
Lemma creal_0 : creal 0 = c0. Proof. reflexivity. Qed.
Lemma creal_1 : creal 1 = c1. Proof. reflexivity. Qed.

Lemma cmul_cancel a b : a <> c0 -> cmul a b = c0 -> b = c0.
Proof.
  intros Ha H. destruct a as [x y], b as [u v].
  assert (N : x * x + y * y <> 0).
  { intros E. apply Ha. assert (x = 0) by nra. assert (y = 0) by nra. subst. reflexivity. }
  pose proof (f_equal fst H) as H1. pose proof (f_equal snd H) as H2. cbn [fst snd cmul c0] in H1, H2.
  apply cplx_eq; cbn [fst snd c0].
  - apply (Rmult_eq_reg_l (x * x + y * y)); [|exact N]. rewrite Rmult_0_r.
    replace ((x * x + y * y) * u) with (x * (x * u - y * v) + y * (x * v + y * u)) by ring. rewrite H1, H2. ring.
  - apply (Rmult_eq_reg_l (x * x + y * y)); [|exact N]. rewrite Rmult_0_r.
    replace ((x * x + y * y) * v) with (x * (x * v + y * u) - y * (x * u - y * v)) by ring. rewrite H1, H2. ring.
Qed.

Lemma cabs_nonneg a : 0 <= cabs a. Proof. apply sqrt_pos. Qed.
Lemma cabs_mul_real x a : cabs (cmul (creal x) a) = Rabs x * cabs a.
Proof.
  unfold cabs. cbn [fst snd cmul creal].
  replace ((x * fst a - 0 * snd a) * (x * fst a - 0 * snd a) + (x * snd a + 0 * fst a) * (x * snd a + 0 * fst a))
    with (Rsqr x * (fst a * fst a + snd a * snd a)) by (unfold Rsqr; ring).
  rewrite sqrt_mult; [|apply Rle_0_sqr|nra]. rewrite sqrt_Rsqr_abs. reflexivity.
Qed.
Lemma cabs_0 : cabs c0 = 0.
Proof. unfold cabs, c0. cbn [fst snd]. rewrite Rmult_0_l, Rplus_0_l. apply sqrt_0. Qed.

(** ** Sums *)

Lemma csum_ext f g n : (forall i, (i < n)%nat -> f i = g i) -> csum f n = csum g n.
Proof. induction n as [|n IH]; intros H; cbn [csum]; [reflexivity|]. rewrite IH, H; auto. Qed.
Lemma csum_add f g n : csum (fun i => cadd (f i) (g i)) n = cadd (csum f n) (csum g n).
Proof. induction n as [|n IH]; cbn [csum]; [cx|]. rewrite IH. ring. Qed.
Lemma csum_mul_l c f n : csum (fun i => cmul c (f i)) n = cmul c (csum f n).
Proof. induction n as [|n IH]; cbn [csum]; [cx|]. rewrite IH. ring. Qed.
Lemma csum_mul_r c f n : csum (fun i => cmul (f i) c) n = cmul (csum f n) c.
Proof. induction n as [|n IH]; cbn [csum]; [cx|]. rewrite IH. ring. Qed.
Lemma csum_0 n : csum (fun _ => c0) n = c0.
Proof. induction n as [|n IH]; cbn [csum]; [reflexivity|]. rewrite IH. cx. Qed.
Lemma csum_const c n : csum (fun _ => c) n = cmul (creal (INR n)) c.
Proof.
  induction n as [|n IH]; [cbn [csum]; change (INR 0) with 0; cx|].
  cbn [csum]. rewrite IH, S_INR, creal_add, creal_1. ring.
Qed.
Lemma csum_swap (f : nat -> nat -> cplx) m n :
  csum (fun i => csum (fun j => f i j) n) m = csum (fun j => csum (fun i => f i j) m) n.
Proof.
  induction m as [|m IH]; cbn [csum]; [symmetry; apply csum_0|]. rewrite IH, <- csum_add. reflexivity.
Qed.
Lemma csum_conj f n : conj (csum f n) = csum (fun i => conj (f i)) n.
Proof. induction n as [|n IH]; cbn [csum]; [unfold conj; cx|]. rewrite conj_add, IH. reflexivity. Qed.
Lemma csum_single f n k : (k < n)%nat -> (forall i, (i < n)%nat -> i <> k -> f i = c0) -> csum f n = f k.
Proof.
  induction n as [|n IH]; intros Hk H; [lia|]. cbn [csum]. destruct (Nat.eq_dec k n) as [->|Hn].
  - rewrite (csum_ext f (fun _ => c0)) by (intros; apply H; lia). rewrite csum_0. ring.
  - rewrite (H n) by lia. rewrite IH; [ring|lia|intros; apply H; lia].
Qed.
Lemma csum_first f n : csum f (S n) = cadd (f 0%nat) (csum (fun i => f (S i)) n).
Proof.
  induction n as [|n IH]; [cbn [csum]; ring|].
  cbn [csum] in *. rewrite IH. ring.
Qed.
Lemma csum_split f m n : csum f (m + n) = cadd (csum f m) (csum (fun i => f (m + i)%nat) n).
Proof.
  induction n as [|n IH]; [rewrite Nat.add_0_r; cbn [csum]; ring|].
  rewrite Nat.add_succ_r. cbn [csum]. rewrite IH. ring.
Qed.
(** Rolling does not change a sum over a whole period. *)
Lemma csum_roll f n d : (0 < n)%nat -> csum (fun i => f ((i + d) mod n)%nat) n = csum f n.
Proof.
  intros Hn. set (e := (d mod n)%nat).
  assert (He : (e < n)%nat) by (apply Nat.mod_upper_bound; lia).
  rewrite (csum_ext _ (fun i => f ((i + e) mod n)%nat)).
  2:{ intros i _. f_equal. unfold e. rewrite Nat.add_mod_idemp_r by lia. reflexivity. }
  assert (E1 : forall g, csum g n = csum g (n - e + e)) by (intros; f_equal; lia).
  assert (E2 : forall g, csum g n = csum g (e + (n - e))) by (intros; f_equal; lia).
  rewrite E1, csum_split.
  rewrite (csum_ext (fun i => f ((i + e) mod n)%nat) (fun i => f (e + i)%nat) (n - e)).
  2:{ intros i Hi. f_equal. rewrite Nat.mod_small by lia. lia. }
  rewrite (csum_ext (fun i => f ((n - e + i + e) mod n)%nat) f e).
  2:{ intros i Hi. f_equal. replace (n - e + i + e)%nat with (i + 1 * n)%nat by lia. rewrite Nat.mod_add by lia. apply Nat.mod_small. lia. }
  rewrite (E2 f), csum_split. ring.
Qed.
(** And neither does reversing it. *)
Lemma csum_rev f n : csum (fun i => f (n - 1 - i)%nat) n = csum f n.
Proof.
  induction n as [|n IH]; [reflexivity|]. rewrite csum_first. cbn [csum].
  rewrite (csum_ext (fun i => f (S n - 1 - S i)%nat) (fun i => f (n - 1 - i)%nat)) by (intros; f_equal; lia).
  rewrite IH. replace (S n - 1 - 0)%nat with n by lia. ring.
Qed.
Lemma csum_negate f n : (0 < n)%nat -> csum (fun i => f ((n - i) mod n)%nat) n = csum f n.
Proof.
  intros Hn. rewrite <- (csum_rev f), <- (csum_roll (fun i => f (n - 1 - i)%nat) n (n - 1) Hn).
  apply csum_ext. intros i Hi. f_equal. destruct (Nat.eq_dec i 0) as [->|Hi0].
  - rewrite Nat.sub_0_r, Nat.mod_same by lia. rewrite Nat.mod_small by lia. lia.
  - rewrite Nat.mod_small by lia. replace (i + (n - 1))%nat with (i - 1 + 1 * n)%nat by lia.
    rewrite Nat.mod_add by lia. rewrite Nat.mod_small by lia. lia.
Qed.

(** ** Sums of roots of unity *)

Definition turn (n : nat) (k x : nat) : R := 2 * PI * (INR k * INR x / INR n).

Lemma INR_pos n : (0 < n)%nat -> 0 < INR n.
Proof. intros H. apply lt_0_INR. exact H. Qed.

Lemma cis_not_one t : 0 < t < 2 * PI -> cis t <> c1.
Proof.
  intros Ht E. apply (f_equal fst) in E. cbn [fst cis c1] in E.
  replace t with (2 * (t / 2)) in E by field. rewrite cos_2a_sin in E.
  assert (0 < sin (t / 2)) by (apply sin_gt_0; lra). nra.
Qed.

Lemma root_sum n d : (0 < d < n)%nat -> csum (fun x => cis (turn n d x)) n = c0.
Proof.
  intros Hd. assert (Hn := INR_pos n ltac:(lia)).
  set (w := cis (2 * PI * (INR d / INR n))). set (S0 := csum _ n).
  assert (E : cmul w S0 = S0).
  { unfold S0. rewrite <- csum_mul_l.
    rewrite (csum_ext _ (fun x => cis (turn n d ((x + 1) mod n)))).
    2:{ intros x Hx. unfold w. rewrite <- cis_add. unfold turn. destruct (Nat.eq_dec x (n - 1)) as [->|Hx'].
        - replace (n - 1 + 1)%nat with n by lia. rewrite Nat.mod_same by lia. change (INR 0) with 0.
          replace (2 * PI * (INR d * 0 / INR n)) with 0 by (field; lra). rewrite cis_0.
          rewrite minus_INR by lia. change (INR 1) with 1.
          replace (2 * PI * (INR d / INR n) + 2 * PI * (INR d * (INR n - 1) / INR n)) with (2 * PI * INR d) by (field; lra).
          apply cis_turns.
        - rewrite Nat.mod_small by lia. rewrite plus_INR. change (INR 1) with 1. f_equal. field. lra. }
    rewrite (csum_roll (fun x => cis (turn n d x)) n 1) by lia. reflexivity. }
  assert (W : csub w c1 <> c0).
  { intros E0. apply (cis_not_one (2 * PI * (INR d / INR n))).
    - assert (0 < INR d) by (apply INR_pos; lia). assert (INR d < INR n) by (apply lt_INR; lia).
      assert (0 < INR d / INR n < 1).
      { split; [apply Rdiv_lt_0_compat; lra|]. apply (Rmult_lt_reg_r (INR n)); [lra|]. unfold Rdiv. rewrite Rmult_assoc, Rinv_l by lra. lra. }
      assert (0 < PI) by apply PI_RGT_0. split; nra.
    - fold w. replace w with (cadd (csub w c1) c1) by ring. rewrite E0. ring. }
  apply (cmul_cancel _ _ W). replace (cmul (csub w c1) S0) with (csub (cmul w S0) S0) by ring. rewrite E. ring.
Qed.

(** Orthogonality of two frequencies. *)
Lemma root_orthogonal n k l : (k < n)%nat -> (l < n)%nat ->
  csum (fun x => cmul (cis (turn n k x)) (cis (- turn n l x))) n = if (k =? l)%nat then creal (INR n) else c0.
Proof.
  intros Hk Hl. assert (Hn := INR_pos n ltac:(lia)). destruct (Nat.eqb_spec k l) as [->|Hkl].
  - rewrite (csum_ext _ (fun _ => c1)).
    + rewrite csum_const. ring.
    + intros x _. rewrite <- cis_add, Rplus_opp_r. apply cis_0.
  - destruct (Nat.lt_ge_cases l k) as [H|H].
    + rewrite (csum_ext _ (fun x => cis (turn n (k - l) x))); [apply root_sum; lia|].
      intros x _. rewrite <- cis_add. f_equal. unfold turn. rewrite minus_INR by lia. field. lra.
    + assert (E := csum_conj (fun x => cis (turn n (l - k) x)) n). rewrite root_sum in E by lia.
      rewrite (csum_ext _ (fun x => conj (cis (turn n (l - k) x)))).
      * rewrite <- E. unfold conj; cx.
      * intros x _. rewrite <- cis_add, conj_cis. f_equal. unfold turn. rewrite minus_INR by lia. field. lra.
Qed.

(** ** The transform *)

Lemma phase_turn m n k l x y : phase m n k l x y = turn m k x + turn n l y.
Proof. unfold phase, turn. ring. Qed.

Lemma turn_sym n k x : turn n k x = turn n x k.
Proof. unfold turn. rewrite (Rmult_comm (INR k)). reflexivity. Qed.

Lemma dft_ext m n a b : (forall x y, (x < m)%nat -> (y < n)%nat -> a x y = b x y) -> forall k l, dft m n a k l = dft m n b k l.
Proof. intros H k l. apply csum_ext. intros x Hx. apply csum_ext. intros y Hy. rewrite H by assumption. reflexivity. Qed.
Lemma idft_ext m n a b : (forall x y, (x < m)%nat -> (y < n)%nat -> a x y = b x y) -> forall k l, idft m n a k l = idft m n b k l.
Proof. intros H k l. unfold idft. f_equal. apply csum_ext. intros x Hx. apply csum_ext. intros y Hy. rewrite H by assumption. reflexivity. Qed.
Lemma dft_add m n a b k l : dft m n (fun x y => cadd (a x y) (b x y)) k l = cadd (dft m n a k l) (dft m n b k l).
Proof.
  unfold dft. rewrite <- csum_add. apply csum_ext. intros x _. rewrite <- csum_add. apply csum_ext. intros y _. ring.
Qed.
Lemma dft_scale m n c a k l : dft m n (fun x y => cmul c (a x y)) k l = cmul c (dft m n a k l).
Proof.
  unfold dft. rewrite <- csum_mul_l. apply csum_ext. intros x _. rewrite <- csum_mul_l. apply csum_ext. intros y _. ring.
Qed.
Lemma idft_add m n a b k l : idft m n (fun x y => cadd (a x y) (b x y)) k l = cadd (idft m n a k l) (idft m n b k l).
Proof.
  unfold idft. transitivity (cmul (creal (/ INR (m * n))) (cadd
    (csum (fun k0 => csum (fun l0 => cmul (a k0 l0) (cis (phase m n k0 l0 k l))) n) m)
    (csum (fun k0 => csum (fun l0 => cmul (b k0 l0) (cis (phase m n k0 l0 k l))) n) m))); [|ring].
  f_equal. rewrite <- csum_add. apply csum_ext. intros x _. rewrite <- csum_add. apply csum_ext. intros y _. ring.
Qed.
Lemma idft_scale m n c a k l : idft m n (fun x y => cmul c (a x y)) k l = cmul c (idft m n a k l).
Proof.
  unfold idft. transitivity (cmul (creal (/ INR (m * n))) (cmul c
    (csum (fun k0 => csum (fun l0 => cmul (a k0 l0) (cis (phase m n k0 l0 k l))) n) m))); [|ring].
  f_equal. rewrite <- csum_mul_l. apply csum_ext. intros x _. rewrite <- csum_mul_l. apply csum_ext. intros y _. ring.
Qed.

Lemma cmul_inv_nat k : (0 < k)%nat -> cmul (creal (/ INR k)) (creal (INR k)) = c1.
Proof. intros H. rewrite <- creal_mul, Rinv_l; [reflexivity|]. assert (Hn := INR_pos k H). lra. Qed.

(** Both compositions are the identity. *)
Lemma idft_dft m n a x y : (x < m)%nat -> (y < n)%nat -> idft m n (dft m n a) x y = a x y.
Proof.
  intros Hx Hy. unfold idft, dft.
  transitivity (cmul (creal (/ INR (m * n))) (csum (fun x' => csum (fun y' => cmul (a x' y')
     (cmul (csum (fun k => cmul (cis (turn m x k)) (cis (- turn m x' k))) m)
           (csum (fun l => cmul (cis (turn n y l)) (cis (- turn n y' l))) n))) n) m)).
  - f_equal.
    transitivity (csum (fun k => csum (fun l => csum (fun x' => csum (fun y' =>
       cmul (a x' y') (cmul (cmul (cis (turn m x k)) (cis (- turn m x' k))) (cmul (cis (turn n y l)) (cis (- turn n y' l))))) n) m) n) m).
    { apply csum_ext. intros k _. apply csum_ext. intros l _. rewrite <- csum_mul_r. apply csum_ext. intros x' _.
      rewrite <- csum_mul_r. apply csum_ext. intros y' _. rewrite !phase_turn, Ropp_plus_distr, !cis_add, (turn_sym m x k), (turn_sym m x' k), (turn_sym n y l), (turn_sym n y' l). ring. }
    transitivity (csum (fun k => csum (fun x' => csum (fun l => csum (fun y' =>
       cmul (a x' y') (cmul (cmul (cis (turn m x k)) (cis (- turn m x' k))) (cmul (cis (turn n y l)) (cis (- turn n y' l))))) n) n) m) m).
    { apply csum_ext. intros k _. apply csum_swap. }
    rewrite csum_swap. apply csum_ext. intros x' _.
    transitivity (csum (fun k => csum (fun y' => csum (fun l => 
       cmul (a x' y') (cmul (cmul (cis (turn m x k)) (cis (- turn m x' k))) (cmul (cis (turn n y l)) (cis (- turn n y' l))))) n) n) m).
    { apply csum_ext. intros k _. apply csum_swap. }
    rewrite csum_swap. apply csum_ext. intros y' _. rewrite <- csum_mul_r, <- csum_mul_l. apply csum_ext. intros k _.
    rewrite csum_mul_l, <- csum_mul_l. rewrite csum_mul_l. f_equal. rewrite csum_mul_l. reflexivity.
  - rewrite (csum_single _ m x Hx).
    + rewrite (csum_single _ n y Hy).
      * rewrite !root_orthogonal, !Nat.eqb_refl by assumption. rewrite <- creal_mul, <- mult_INR.
        transitivity (cmul (a x y) (cmul (creal (/ INR (m * n))) (creal (INR (m * n))))); [ring|]. rewrite cmul_inv_nat by nia. ring.
      * intros j Hj Hne. rewrite (root_orthogonal n y j) by assumption. destruct (Nat.eqb_spec y j); [congruence|]. ring.
    + intros i Hi Hne. rewrite (csum_ext _ (fun _ => c0)); [apply csum_0|]. intros j Hj.
      rewrite (root_orthogonal m x i) by assumption. destruct (Nat.eqb_spec x i); [congruence|]. ring.
Qed.

(** The other way round follows by conjugation. *)
Lemma conj_conj a : conj (conj a) = a. Proof. unfold conj; cx. Qed.
Lemma dft_as_idft m n a k l : (0 < m)%nat -> (0 < n)%nat ->
  dft m n a k l = cmul (creal (INR (m * n))) (conj (idft m n (fun x y => conj (a x y)) k l)).
Proof.
  intros Hm Hn. unfold idft. rewrite conj_mul, conj_real, csum_conj.
  match goal with |- _ = cmul ?u (cmul ?v ?w) => transitivity (cmul (cmul v u) w); [|ring] end.
  rewrite cmul_inv_nat by nia.
  match goal with |- _ = cmul _ ?w => transitivity w; [|ring] end.
  unfold dft. apply csum_ext. intros x _. rewrite csum_conj. apply csum_ext. intros y _.
  rewrite conj_mul, conj_conj, conj_cis. f_equal. f_equal. rewrite !phase_turn, (turn_sym m k x), (turn_sym n l y). reflexivity.
Qed.
Lemma dft_idft m n a k l : (k < m)%nat -> (l < n)%nat -> dft m n (idft m n a) k l = a k l.
Proof.
  intros Hk Hl. rewrite dft_as_idft by lia.
  rewrite (idft_ext m n _ (fun x y => cmul (creal (/ INR (m * n))) (dft m n (fun k l => conj (a k l)) x y))).
  - rewrite idft_scale, idft_dft by assumption. rewrite conj_mul, conj_real, conj_conj.
    match goal with |- cmul ?u (cmul ?v ?w) = _ => transitivity (cmul (cmul v u) w); [ring|] end.
    rewrite cmul_inv_nat by nia. ring.
  - intros x y Hx Hy. rewrite dft_as_idft by lia.
    match goal with |- _ = cmul ?u (cmul ?v ?w) => transitivity (cmul (cmul u v) w); [|ring] end.
    rewrite cmul_inv_nat by nia. transitivity (conj (idft m n a x y)); [reflexivity|].
    rewrite (idft_ext m n (fun x0 y0 => conj (conj (a x0 y0))) a) by (intros; apply conj_conj). ring.
Qed.

(** Transform of a constant. *)
Lemma dft_const m n c k l : (k < m)%nat -> (l < n)%nat ->
  dft m n (fun _ _ => c) k l = if (k =? 0)%nat && (l =? 0)%nat then cmul (creal (INR (m * n))) c else c0.
Proof.
  intros Hk Hl. unfold dft.
  transitivity (cmul c (cmul (csum (fun x => cmul (cis (turn m 0 x)) (cis (- turn m k x))) m)
                             (csum (fun y => cmul (cis (turn n 0 y)) (cis (- turn n l y))) n))).
  - rewrite <- csum_mul_r, <- csum_mul_l. apply csum_ext. intros x _. rewrite csum_mul_l.
    match goal with |- _ = cmul c (cmul ?u ?v) => transitivity (cmul c (cmul v u)); [|ring] end. f_equal.
    rewrite <- csum_mul_r. apply csum_ext. intros y _. rewrite phase_turn, Ropp_plus_distr, cis_add.
    unfold turn at 3 5. change (INR 0) with 0. rewrite !Rmult_0_l. unfold Rdiv. rewrite !Rmult_0_l, !Rmult_0_r, !cis_0. ring.
  - rewrite !root_orthogonal by lia. rewrite (Nat.eqb_sym k), (Nat.eqb_sym l).
    destruct (0 =? k)%nat, (0 =? l)%nat; cbn [andb]; rewrite ?mult_INR, ?creal_mul; ring.
Qed.

(** Spectrum of a real image. *)
Definition neg_mod (n k : nat) : nat := ((n - k) mod n)%nat.
Lemma neg_mod_lt n k : (0 < n)%nat -> (neg_mod n k < n)%nat.
Proof. intros H. apply Nat.mod_upper_bound. lia. Qed.
Lemma cis_neg_mod n k x : (k < n)%nat -> cis (turn n (neg_mod n k) x) = cis (- turn n k x).
Proof.
  intros Hk. assert (Hn := INR_pos n ltac:(lia)). unfold neg_mod. destruct (Nat.eq_dec k 0) as [->|H0].
  - rewrite Nat.sub_0_r, Nat.mod_same by lia. f_equal. unfold turn. change (INR 0) with 0. field. lra.
  - rewrite Nat.mod_small by lia. unfold turn. rewrite minus_INR by lia.
    replace (2 * PI * ((INR n - INR k) * INR x / INR n)) with (- (2 * PI * (INR k * INR x / INR n)) + 2 * INR x * PI) by (field; lra).
    apply cis_period.
Qed.
Lemma cis_neg_mod' n k x : (k < n)%nat -> cis (- turn n (neg_mod n k) x) = cis (turn n k x).
Proof. intros Hk. rewrite <- conj_cis, cis_neg_mod, conj_cis by assumption. f_equal. ring. Qed.

Lemma dft_hermitian m n a k l : (k < m)%nat -> (l < n)%nat -> (forall x y, conj (a x y) = a x y) ->
  conj (dft m n a k l) = dft m n a (neg_mod m k) (neg_mod n l).
Proof.
  intros Hk Hl Ha. unfold dft. rewrite csum_conj. apply csum_ext. intros x _. rewrite csum_conj. apply csum_ext. intros y _.
  rewrite conj_mul, Ha, conj_cis. f_equal. rewrite !phase_turn, !Ropp_plus_distr, !Ropp_involutive, !cis_add, !cis_neg_mod' by assumption. reflexivity.
Qed.

(** A filter whose weights are even keeps a real image real. *)
Lemma even_filter_real m n a (w : nat -> nat -> R) x y : (0 < m)%nat -> (0 < n)%nat -> (forall x y, conj (a x y) = a x y) ->
  (forall k l, (k < m)%nat -> (l < n)%nat -> w (neg_mod m k) (neg_mod n l) = w k l) ->
  snd (idft m n (fun k l => cmul (creal (w k l)) (dft m n a k l)) x y) = 0.
Proof.
  intros Hm Hn Ha Hw. apply conj_fixed. unfold idft. rewrite conj_mul, conj_real. f_equal. rewrite csum_conj.
  rewrite <- (csum_negate (fun k => csum (fun l => cmul (cmul (creal (w k l)) (dft m n a k l)) (cis (phase m n k l x y))) n) m Hm).
  apply csum_ext. intros k Hk. rewrite csum_conj.
  match goal with |- _ = csum ?g n => rewrite <- (csum_negate g n Hn) end.
  apply csum_ext. intros l Hl. fold (neg_mod m k) (neg_mod n l).
  rewrite !conj_mul, conj_real, conj_cis, dft_hermitian, Hw by assumption. f_equal.
  rewrite !phase_turn, Ropp_plus_distr, !cis_add, !cis_neg_mod by assumption. reflexivity.
Qed.

(** ** Rolls *)

Lemma roll_back n i : (i < n)%nat -> (((i + n / 2) mod n + (n - n / 2)) mod n = i)%nat.
Proof.
  intros H. rewrite Nat.add_mod_idemp_l by lia. assert (n / 2 <= n)%nat by (apply Nat.div_le_upper_bound; lia).
  replace (i + n / 2 + (n - n / 2))%nat with (i + 1 * n)%nat by lia. rewrite Nat.mod_add by lia. apply Nat.mod_small. exact H.
Qed.

(** The filter of _high_quality in the order of the transform. *)
Lemma weighted_eq m n w a x y :
  weighted m n w a x y = idft m n (fun k l => cmul (creal (ifftshift m n w k l)) (dft m n a k l)) x y.
Proof.
  unfold weighted, ifft_. apply idft_ext. intros k l Hk Hl. unfold ifftshift. f_equal.
  unfold fft_, fftshift. rewrite !roll_back by assumption. reflexivity.
Qed.
