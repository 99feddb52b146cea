(** Proofs about RmseRoundModel. *)
From Coq Require Import Reals Lra Lia Psatz.
From Verif Require Import Base LoadModel RealSums MetricModel SsimRoundModel RoundProofs RmseRoundModel.
Open Scope R_scope.

(** ** Multiples of a power of two *)
Definition multiple (e : Z) (x : R) : Prop := exists m, x = IZR m * pow2 e.

Lemma multiple_0 e : multiple e 0. Proof. exists 0%Z. lra. Qed.
Lemma multiple_IZR m : multiple 0 (IZR m). Proof. exists m. rewrite pow2_0. lra. Qed.
Lemma multiple_weaken e e' x : (e' <= e)%Z -> multiple e x -> multiple e' x.
Proof.
  intros H [m ->]. exists (m * 2 ^ (e - e'))%Z. rewrite mult_IZR, <- pow2_Z by lia.
  rewrite Rmult_assoc, <- pow2_plus. do 2 f_equal. lia.
Qed.
Lemma multiple_plus e x y : multiple e x -> multiple e y -> multiple e (x + y).
Proof. intros [m ->] [n ->]. exists (m + n)%Z. rewrite plus_IZR. ring. Qed.
Lemma multiple_minus e x y : multiple e x -> multiple e y -> multiple e (x - y).
Proof. intros [m ->] [n ->]. exists (m - n)%Z. rewrite minus_IZR. ring. Qed.

(** ** round_f *)
Lemma spacing_pos f x : 0 < spacing f x. Proof. apply pow2_pos. Qed.

Lemma round_f_0 f : round_f f 0 = 0.
Proof. unfold round_f. destruct (Req_EM_T 0 0); [reflexivity|contradiction]. Qed.

Lemma round_f_normal f x : (emin f <= exponent x - (prec f - 1))%Z -> round_f f x = round_to (prec f) x.
Proof. intros H. unfold round_f, round_to, spacing. rewrite Z.max_l by lia. reflexivity. Qed.

Lemma round_f_sub f x : (exponent x - (prec f - 1) < emin f)%Z ->
  round_f f x = IZR (nearest_even (x / pow2 (emin f))) * pow2 (emin f).
Proof.
  intros H. unfold round_f, spacing. rewrite Z.max_r by lia. destruct (Req_EM_T x 0) as [->|_]; [|reflexivity].
  replace (0 / pow2 (emin f)) with (IZR 0) by (unfold Rdiv; lra). rewrite nearest_IZR. lra.
Qed.

Lemma round_f_multiple f x : multiple (emin f) (round_f f x).
Proof.
  unfold round_f. destruct (Req_EM_T x 0); [apply multiple_0|].
  apply multiple_weaken with (Z.max (exponent x - (prec f - 1)) (emin f)); [lia|]. eexists. reflexivity.
Qed.

Lemma round_f_err f x : Rabs (round_f f x - x) <= pow2 (- prec f) * Rabs x + pow2 (emin f - 1).
Proof.
  pose proof (pow2_pos (emin f - 1)) as P. pose proof (pow2_pos (- prec f)) as Q. pose proof (Rabs_pos x) as A.
  destruct (Z_lt_le_dec (exponent x - (prec f - 1)) (emin f)) as [H|H].
  - rewrite round_f_sub by exact H. set (u := pow2 (emin f)). pose proof (pow2_pos (emin f)) as U. fold u in U.
    replace (IZR (nearest_even (x / u)) * u - x) with ((IZR (nearest_even (x / u)) - x / u) * u) by (field; lra).
    rewrite Rabs_mult, (Rabs_right u) by lra. pose proof (nearest_dist (x / u)) as D.
    assert (E : pow2 (emin f - 1) = u / 2) by (unfold u; rewrite pow2_minus; change (pow2 1) with (2 * 1); field).
    rewrite E. nra.
  - rewrite round_f_normal by exact H. pose proof (round_rel (prec f) x). nra.
Qed.

(** Numbers on the grid have no underflow. *)
Lemma round_f_rel f x : multiple (emin f) x -> Rabs (round_f f x - x) <= pow2 (- prec f) * Rabs x.
Proof.
  intros [m E]. pose proof (pow2_pos (- prec f)) as Q. pose proof (Rabs_pos x) as A.
  destruct (Z_lt_le_dec (exponent x - (prec f - 1)) (emin f)) as [H|H].
  - rewrite round_f_sub by exact H. pose proof (pow2_pos (emin f)) as U.
    replace (x / pow2 (emin f)) with (IZR m) by (rewrite E; field; lra).
    rewrite nearest_IZR, <- E, Rminus_diag_eq, Rabs_R0 by reflexivity. nra.
  - rewrite round_f_normal by exact H. apply round_rel.
Qed.

Lemma round_f_exact f m e : (0 < prec f)%Z -> (Z.abs m <= 2 ^ prec f)%Z -> (emin f <= e)%Z ->
  round_f f (IZR m * pow2 e) = IZR m * pow2 e.
Proof.
  intros Hp Hm He. assert (Hx : multiple (emin f) (IZR m * pow2 e)).
  { apply multiple_weaken with e; [lia|]. exists m. reflexivity. }
  destruct (Z_lt_le_dec (exponent (IZR m * pow2 e) - (prec f - 1)) (emin f)) as [H|H].
  - rewrite round_f_sub by exact H. destruct Hx as [n E]. rewrite E at 1. pose proof (pow2_pos (emin f)).
    replace (IZR n * pow2 (emin f) / pow2 (emin f)) with (IZR n) by (field; lra). rewrite nearest_IZR. symmetry. exact E.
  - rewrite round_f_normal by exact H. destruct (Z_lt_le_dec (Z.abs m) (2 ^ prec f)) as [L|L]; [apply round_exact; assumption|].
    assert (EP : (2 ^ prec f = 2 * 2 ^ (prec f - 1))%Z).
    { replace (prec f) with (1 + (prec f - 1))%Z at 1 by lia. rewrite Z.pow_add_r by lia. reflexivity. }
    assert (P1 : (0 < 2 ^ (prec f - 1))%Z) by (apply Z.pow_pos_nonneg; lia).
    assert (exists m', m = (2 * m')%Z /\ (Z.abs m' < 2 ^ prec f)%Z) as (m' & -> & L').
    { destruct (Z_lt_le_dec m 0); [exists (- 2 ^ (prec f - 1))%Z|exists (2 ^ (prec f - 1))%Z]; split; lia. }
    replace (IZR (2 * m') * pow2 e) with (IZR m' * pow2 (e + 1)).
    { apply round_exact; assumption. }
    rewrite pow2_plus, mult_IZR. change (pow2 1) with (2 * 1). ring.
Qed.

Lemma round_f_int f m : (0 < prec f)%Z -> (Z.abs m <= 2 ^ prec f)%Z -> (emin f <= 0)%Z -> round_f f (IZR m) = IZR m.
Proof. intros. replace (IZR m) with (IZR m * pow2 0) by (rewrite pow2_0; lra). apply round_f_exact; assumption. Qed.

Lemma nearest_opp x : nearest_even (- x) = (- nearest_even x)%Z.
Proof.
  pose proof (base_Int_part x) as [B1 B2]. set (n := Int_part x) in *.
  destruct (Rtotal_order (x - IZR n) (1 / 2)) as [L|[E|G]].
  - rewrite (nearest_unique x n) by (apply Rabs_def1; lra). apply nearest_unique. rewrite opp_IZR. apply Rabs_def1; lra.
  - replace x with (IZR n + 1 / 2) by lra. rewrite nearest_tie.
    replace (- (IZR n + 1 / 2)) with (IZR (- n - 1) + 1 / 2) by (rewrite minus_IZR, opp_IZR; lra). rewrite nearest_tie.
    replace (- n - 1)%Z with (- (n + 1))%Z by lia. rewrite Z.even_opp, Z.even_add. simpl. destruct (Z.even n); simpl; lia.
  - rewrite (nearest_unique x (n + 1)) by (rewrite plus_IZR; apply Rabs_def1; lra).
    apply nearest_unique. rewrite opp_IZR, plus_IZR. apply Rabs_def1; lra.
Qed.

Lemma exponent_opp x : exponent (- x) = exponent x.
Proof. unfold exponent. rewrite Rabs_Ropp. reflexivity. Qed.

Lemma round_f_opp f x : round_f f (- x) = - round_f f x.
Proof.
  unfold round_f, spacing. rewrite exponent_opp. destruct (Req_EM_T (- x) 0), (Req_EM_T x 0); try lra.
  set (u := pow2 _). replace (- x / u) with (- (x / u)) by (unfold Rdiv; ring). rewrite nearest_opp, opp_IZR. ring.
Qed.

Lemma round_f_nonneg f x : 0 <= x -> 0 <= round_f f x.
Proof.
  intros H. unfold round_f. destruct (Req_EM_T x 0); [lra|]. pose proof (spacing_pos f x) as S.
  apply Rmult_le_pos; [|lra]. apply (IZR_le 0). apply nearest_ge. apply Rmult_le_pos; [lra|]. left. apply Rinv_0_lt_compat, S.
Qed.

(** ** store *)
Lemma store_fin f x y : store f x = Fin y <-> y = round_f f x /\ Rabs (round_f f x) < pow2 (emax f).
Proof.
  unfold store. cbv zeta. destruct (Rlt_dec _ _) as [L|L].
  - split; [intros E; injection E as <-; auto|intros [-> _]; reflexivity].
  - split; [destruct (Rlt_dec _ _); discriminate|intros [_ ?]; contradiction].
Qed.

Lemma store_nonneg f x : 0 <= x -> store f x = Fin (round_f f x) \/ store f x = PInf.
Proof.
  intros H. apply (round_f_nonneg f) in H. unfold store. cbv zeta. destruct (Rlt_dec _ _) as [|L]; [left; reflexivity|right].
  pose proof (pow2_pos (emax f)). rewrite Rabs_right in L by lra. destruct (Rlt_dec _ _); [reflexivity|lra].
Qed.

Lemma store_int f m : (0 < prec f)%Z -> (Z.abs m <= 2 ^ prec f)%Z -> (emin f <= 0)%Z -> (prec f < emax f)%Z ->
  store f (IZR m) = Fin (IZR m).
Proof.
  intros Hp Hm He Hx. apply store_fin. rewrite round_f_int by assumption. split; [reflexivity|].
  rewrite <- abs_IZR, pow2_Z by lia. apply IZR_lt. pose proof (Z.pow_lt_mono_r 2 (prec f) (emax f)). lia.
Qed.

(** A value of the format *)
Definition fits (f : format) (x : R) : Prop := store f x = Fin x.

Lemma fits_multiple f x : fits f x -> multiple (emin f) x.
Proof. intros H. apply store_fin in H as [-> _]. apply round_f_multiple. Qed.

(** ** Lower bounds survive rounding *)
Lemma round_f_ge f x k : (0 < prec f)%Z -> (emin f <= k)%Z -> pow2 k <= x -> pow2 k <= round_f f x.
Proof.
  intros Hp Hk H. pose proof (pow2_pos k) as K. assert (Hx : x <> 0) by lra.
  destruct (exponent_spec x Hx) as [_ E2]. rewrite Rabs_right in E2 by lra.
  assert (L : (k < exponent x + 1)%Z) by (apply pow2_lt_inv; lra).
  unfold round_f, spacing. destruct (Req_EM_T x 0) as [|_]; [contradiction|].
  set (e := Z.max (exponent x - (prec f - 1)) (emin f)). pose proof (pow2_pos e) as U.
  assert (exists j, (0 <= j)%Z /\ (k = e + j)%Z \/ (k < e)%Z /\ j = 0%Z) as [j [[Hj J]|[C _]]].
  { destruct (Z_lt_le_dec k e); [exists 0%Z; right; lia|exists (k - e)%Z; left; lia]. }
  - rewrite J, pow2_plus, (Rmult_comm (pow2 e)). apply Rmult_le_compat_r; [lra|]. rewrite pow2_Z by exact Hj.
    apply IZR_le, nearest_ge. rewrite <- pow2_Z by exact Hj. apply Rmult_le_reg_r with (pow2 e); [exact U|].
    replace (x / pow2 e * pow2 e) with x by (field; lra). rewrite <- pow2_plus. replace (j + e)%Z with k by lia. exact H.
  - assert (E : (e <= exponent x)%Z) by (unfold e in *; lia).
    assert (H1 : pow2 e <= x).
    { destruct (exponent_spec x Hx) as [E1 _]. rewrite Rabs_right in E1 by lra. pose proof (pow2_le _ _ E). lra. }
    assert (H2 : (1 <= nearest_even (x / pow2 e))%Z).
    { apply nearest_ge. apply Rmult_le_reg_r with (pow2 e); [exact U|]. replace (x / pow2 e * pow2 e) with x by (field; lra). lra. }
    apply IZR_le in H2. pose proof (pow2_le k e). assert (pow2 k <= pow2 e) by (apply pow2_le; lia). nra.
Qed.

(** ** Sums *)
Definition Rsum (l : list R) : R := fold_right Rplus 0 l.
Lemma Rsum_app l l' : Rsum (l ++ l') = Rsum l + Rsum l'.
Proof. unfold Rsum. induction l; simpl; lra. Qed.
Lemma Rsum_nonneg l : (forall x, In x l -> 0 <= x) -> 0 <= Rsum l.
Proof. induction l; simpl; intros H; [lra|]. pose proof (H a (or_introl eq_refl)). assert (0 <= Rsum l) by auto. lra. Qed.

Fixpoint depth (t : tree) : nat := match t with Leaf _ => 0 | Node l r => S (Nat.max (depth l) (depth r)) end.

Lemma leaves_pos t : (0 < length (leaves t))%nat.
Proof. induction t; simpl; [lia|]. rewrite app_length. lia. Qed.

Lemma depth_le t : (depth t < length (leaves t))%nat.
Proof. induction t; simpl; [lia|]. rewrite app_length. pose proof (leaves_pos t1). pose proof (leaves_pos t2). lia. Qed.

(** Finite or infinite, never NaN: values of the format *)
Definition good (f : format) (t : tree) : Prop := forall p, In p (leaves t) -> fits f (fst p) /\ fits f (snd p).

Lemma good_node f l r : good f (Node l r) <-> good f l /\ good f r.
Proof.
  unfold good. simpl. split; [intros H; split; intros; apply H; apply in_or_app; auto|].
  intros [H1 H2] p Hp. apply in_app_or in Hp as [?|?]; auto.
Qed.

Definition sq (p : R * R) : R := (fst p - snd p) * (fst p - snd p).
Lemma sq_nonneg p : 0 <= sq p. Proof. unfold sq. apply Rle_0_sqr. Qed.

(** One square *)
Lemma square_bounds f x y q : (3 <= prec f)%Z -> fits f x -> fits f y -> square_diff f x y = Fin q ->
  let u := pow2 (- prec f) in
  0 <= q /\ multiple (emin f) q /\
  (1 - 3 * u) * sq (x, y) - pow2 (emin f - 1) <= q <= (1 + 4 * u) * sq (x, y) + pow2 (emin f - 1).
Proof.
  intros Hp Fx Fy H u. unfold square_diff in H. rewrite Fx, Fy in H.
  destruct (store f (x - y)) as [d| | |] eqn:D; try discriminate.
  apply store_fin in D as [D _]. apply store_fin in H as [-> _].
  assert (U : 0 < u <= 1 / 8).
  { split; [apply pow2_pos|]. replace (1 / 8) with (pow2 (- 3)) by (unfold pow2; simpl; lra). apply pow2_le. lia. }
  pose proof (round_f_rel f (x - y) (multiple_minus _ _ _ (fits_multiple _ _ Fx) (fits_multiple _ _ Fy))) as R. rewrite <- D in R. fold u in R.
  pose proof (round_f_err f (d * d)) as Q. fold u in Q.
  assert (DD : 0 <= d * d) by apply Rle_0_sqr. rewrite (Rabs_right (d * d)) in Q by lra.
  split; [apply round_f_nonneg, DD|]. split; [apply round_f_multiple|].
  unfold sq. simpl fst. simpl snd. set (w := x - y) in *. set (a := Rabs w) in *. assert (A0 : 0 <= a) by apply Rabs_pos.
  assert (W : w * w = a * a) by (unfold a; rewrite <- Rabs_mult, Rabs_right; [reflexivity|apply Rle_ge, Rle_0_sqr]).
  set (b := Rabs d) in *. assert (B0 : 0 <= b) by apply Rabs_pos.
  assert (V : d * d = b * b) by (unfold b; rewrite <- Rabs_mult, Rabs_right; [reflexivity|apply Rle_ge, Rle_0_sqr]).
  assert (B : (1 - u) * a <= b <= (1 + u) * a).
  { pose proof (Rabs_triang_inv d w) as T1. pose proof (Rabs_triang_inv w d) as T2. rewrite (Rabs_minus_sym w d) in T2.
    fold a in T1, T2. fold b in T1, T2. lra. }
  assert (Bhi : b * b <= (1 + u) * a * ((1 + u) * a)) by (apply Rmult_le_compat; lra).
  assert (Blo : (1 - u) * a * ((1 - u) * a) <= b * b).
  { apply Rmult_le_compat; try lra; apply Rmult_le_pos; lra. }
  apply abs_between in Q. rewrite V in *. rewrite W. set (q := round_f f (b * b)) in *. set (h := pow2 (emin f - 1)) in *.
  assert (AA : 0 <= a * a) by nra. split.
  - assert ((1 - 3 * u) * (a * a) <= (1 - u) * (b * b)); [|nra].
    apply Rle_trans with ((1 - u) * ((1 - u) * a * ((1 - u) * a))); [|apply Rmult_le_compat_l; lra].
    replace ((1 - u) * ((1 - u) * a * ((1 - u) * a))) with ((1 - 3 * u + u * u * (3 - u)) * (a * a)) by ring.
    apply Rmult_le_compat_r; [exact AA|]. nra.
  - assert ((1 + u) * (b * b) <= (1 + 4 * u) * (a * a)); [|nra].
    apply Rle_trans with ((1 + u) * ((1 + u) * a * ((1 + u) * a))); [apply Rmult_le_compat_l; lra|].
    replace ((1 + u) * ((1 + u) * a * ((1 + u) * a))) with ((1 + 3 * u + u * (3 * u + u * u)) * (a * a)) by ring.
    apply Rmult_le_compat_r; [exact AA|]. nra.
Qed.

(** Sum of the squares: relative error per level *)
Lemma add64_fin a b s : add64 a b = Fin s -> exists x y, a = Fin x /\ b = Fin y /\ store binary64 (x + y) = Fin s.
Proof. destruct a, b; simpl; try discriminate. eauto. Qed.

Definition v64 : R := pow2 (- 53).
Lemma v64_small : 0 < v64 <= 1 / 1000.
Proof. split; [apply pow2_pos|]. unfold v64. change (- 53)%Z with (Z.opp 53). rewrite pow2_opp, pow2_Z by lia.
  change (2 ^ 53)%Z with 9007199254740992%Z. lra. Qed.

Lemma total_bounds f t s : (3 <= prec f)%Z -> (-1074 <= emin f)%Z -> good f t -> total f t = Fin s ->
  let u := pow2 (- prec f) in let T := Rsum (map sq (leaves t)) in let n := INR (length (leaves t)) in
  0 <= s /\ multiple (-1074) s /\
  (1 - v64) ^ depth t * ((1 - 3 * u) * T - n * pow2 (emin f - 1)) <= s
  <= (1 + v64) ^ depth t * ((1 + 4 * u) * T + n * pow2 (emin f - 1)).
Proof.
  intros Hp He. pose proof v64_small as V.
  assert (U : 0 < pow2 (- prec f) <= 1 / 8).
  { split; [apply pow2_pos|]. replace (1 / 8) with (pow2 (- 3)) by (unfold pow2; simpl; lra). apply pow2_le. lia. }
  pose proof (pow2_pos (emin f - 1)) as H0.
  revert s. induction t as [[x y]|l IHl r IHr]; intros s G H; cbv zeta.
  - destruct (G (x, y)) as [Gx Gy]; [left; reflexivity|]. simpl in Gx, Gy, H.
    destruct (square_bounds f x y s Hp Gx Gy H) as (S0 & SM & S1 & S2). split; [exact S0|].
    split; [apply multiple_weaken with (emin f); assumption|]. cbn [leaves map length depth]. unfold Rsum. cbn [fold_right pow INR].
    rewrite !Rplus_0_r. lra.
  - apply good_node in G as [Gl Gr]. cbn [total] in H. apply add64_fin in H as (a & b & Ha & Hb & H).
    specialize (IHl a Gl Ha) as (A0 & AM & A1 & A2). specialize (IHr b Gr Hb) as (B0 & BM & B1 & B2).
    apply store_fin in H as [-> _]. pose proof (round_f_rel binary64 (a + b) (multiple_plus _ _ _ AM BM)) as RR.
    change (pow2 (- prec binary64)) with v64 in RR. rewrite (Rabs_right (a + b)) in RR by lra. apply abs_between in RR.
    split; [apply round_f_nonneg; lra|]. split; [apply (round_f_multiple binary64)|].
    cbn [leaves depth]. rewrite map_app, Rsum_app, app_length, plus_INR.
    set (u := pow2 (- prec f)) in *. set (h := pow2 (emin f - 1)) in *.
    assert (P : forall t', 0 <= Rsum (map sq (leaves t'))).
    { intros t'. apply Rsum_nonneg. intros z Hz. apply in_map_iff in Hz as (p & <- & _). apply sq_nonneg. }
    pose proof (P l) as Pl. pose proof (P r) as Pr.
    pose proof (pos_INR (length (leaves l))) as Nl. pose proof (pos_INR (length (leaves r))) as Nr.
    set (Tl := Rsum (map sq (leaves l))) in *. set (Tr := Rsum (map sq (leaves r))) in *.
    set (nl := INR (length (leaves l))) in *. set (nr := INR (length (leaves r))) in *.
    set (D := Nat.max (depth l) (depth r)).
    assert (up : forall k Y, (k <= D)%nat -> 0 <= Y -> (1 + v64) ^ k * Y <= (1 + v64) ^ D * Y).
    { intros k Y Hk HY. apply Rmult_le_compat_r; [exact HY|]. apply Rle_pow; [lra|exact Hk]. }
    assert (dn : forall k Y, (k <= D)%nat -> 0 <= Y -> (1 - v64) ^ D * Y <= (1 - v64) ^ k * Y).
    { intros k Y Hk HY. apply Rmult_le_compat_r; [exact HY|]. replace D with (k + (D - k))%nat by lia. rewrite pow_add.
      assert (0 < (1 - v64) ^ k) by (apply pow_lt; lra). assert ((1 - v64) ^ (D - k) <= 1).
      { pose proof (pow_incr (1 - v64) 1 (D - k)) as I. rewrite pow1 in I. apply I. lra. } nra. }
    assert (PD : 0 < (1 - v64) ^ D) by (apply pow_lt; lra).
    split.
    + assert (L1 : (1 - v64) ^ D * ((1 - 3 * u) * Tl - nl * h) <= a).
      { destruct (Rle_lt_dec 0 ((1 - 3 * u) * Tl - nl * h)) as [Y|Y]; [|nra].
        eapply Rle_trans; [apply (dn (depth l)); [unfold D; lia|exact Y]|exact A1]. }
      assert (L2 : (1 - v64) ^ D * ((1 - 3 * u) * Tr - nr * h) <= b).
      { destruct (Rle_lt_dec 0 ((1 - 3 * u) * Tr - nr * h)) as [Y|Y]; [|nra].
        eapply Rle_trans; [apply (dn (depth r)); [unfold D; lia|exact Y]|exact B1]. }
      cbn [pow]. apply Rle_trans with ((1 - v64) * (a + b)); [|lra].
      rewrite Rmult_assoc. apply Rmult_le_compat_l; [lra|]. lra.
    + assert (L1 : a <= (1 + v64) ^ D * ((1 + 4 * u) * Tl + nl * h)).
      { eapply Rle_trans; [exact A2|]. apply up; [unfold D; lia|]. nra. }
      assert (L2 : b <= (1 + v64) ^ D * ((1 + 4 * u) * Tr + nr * h)).
      { eapply Rle_trans; [exact B2|]. apply up; [unfold D; lia|]. nra. }
      cbn [pow]. apply Rle_trans with ((1 + v64) * (a + b)); [lra|].
      rewrite Rmult_assoc. apply Rmult_le_compat_l; [lra|]. lra.
Qed.

(** ** The score *)
Lemma pow_up x k : 0 <= x -> INR k * x <= 1 / 2 -> (1 + x) ^ k <= 1 + 2 * (INR k * x).
Proof.
  intros Hx. induction k as [|k IH]; intros H; [cbn; lra|]. rewrite S_INR in *.
  replace ((INR k + 1) * x) with (INR k * x + x) in * by ring.
  assert (K := pos_INR k). assert (Hk : 0 <= INR k * x) by (apply Rmult_le_pos; assumption).
  assert (I : (1 + x) ^ k <= 1 + 2 * (INR k * x)) by (apply IH; lra).
  cbn [pow]. apply Rle_trans with ((1 + x) * (1 + 2 * (INR k * x))); [apply Rmult_le_compat_l; lra|].
  set (y := INR k * x) in *. assert (y * x <= 1 / 2 * x) by (apply Rmult_le_compat_r; lra). lra.
Qed.

Lemma pow_down x k : 0 <= x <= 1 -> 1 - INR k * x <= (1 - x) ^ k.
Proof.
  intros Hx. induction k as [|k IH]; [cbn; lra|]. rewrite S_INR. replace ((INR k + 1) * x) with (INR k * x + x) by ring. cbn [pow]. pose proof (pos_INR k) as K.
  assert (0 <= INR k * x) by (apply Rmult_le_pos; lra).
  destruct (Rle_lt_dec 0 (1 - INR k * x)) as [Y|Y].
  - apply Rle_trans with ((1 - x) * (1 - INR k * x)); [|apply Rmult_le_compat_l; lra].
    set (y := INR k * x) in *. assert (0 <= y * x) by (apply Rmult_le_pos; lra). lra.
  - assert (0 <= (1 - x) * (1 - x) ^ k) by (apply Rmult_le_pos; [lra|apply pow_le; lra]). lra.
Qed.

Lemma sqrt_sum a b : 0 <= a -> 0 <= b -> sqrt (a + b) <= sqrt a + sqrt b.
Proof.
  intros Ha Hb. pose proof (sqrt_pos a). pose proof (sqrt_pos b).
  rewrite <- (sqrt_square (sqrt a + sqrt b)) by lra. apply sqrt_le_1_alt.
  pose proof (sqrt_sqrt a Ha). pose proof (sqrt_sqrt b Hb). nra.
Qed.

(** General error bound: [R] the score, [E] the exact one *)
Lemma mse_bounds f t m : (3 <= prec f)%Z -> (-1074 <= emin f <= 0)%Z -> good f t ->
  INR (depth t + 1) <= pow2 51 -> mse_r f t = Fin m ->
  let e2 := Rsum (map sq (leaves t)) / INR (length (leaves t)) in let u := pow2 (- prec f) in let w := INR (depth t + 1) * pow2 (- 53) in
  0 <= e2 /\ 0 <= m /\ 0 < u <= 1 / 8 /\ v64 <= w <= 1 / 4 /\
  m <= (1 + 4 * u + 4 * w) * e2 + 3 / 2 * pow2 (emin f) /\ (1 - 3 * u - w) * e2 - pow2 (emin f) <= m.
Proof.
  intros Hp He G HD H e2' u' w'. subst e2' u' w'. cbv zeta. change (pow2 (- 53)) with v64. pose proof v64_small as V.
  set (u := pow2 (- prec f)). assert (U : 0 < u <= 1 / 8).
  { split; [apply pow2_pos|]. replace (1 / 8) with (pow2 (- 3)) by (unfold pow2; simpl; lra). apply pow2_le. lia. }
  unfold mse_r in H. destruct (total f t) as [s| | |] eqn:Es; try discriminate. apply store_fin in H as [-> _].
  destruct (total_bounds f t s Hp (proj1 He) G Es) as (S0 & SM & S1 & S2). cbv zeta in S1, S2. fold u in S1, S2.
  set (T := Rsum (map sq (leaves t))) in *. set (n := INR (length (leaves t))) in *.
  assert (T0 : 0 <= T).
  { apply Rsum_nonneg. intros z Hz. apply in_map_iff in Hz as (p & <- & _). apply sq_nonneg. }
  assert (N0 : 1 <= n) by (apply (le_INR 1), leaves_pos).
  set (h := pow2 (emin f)). assert (H0 : 0 < h <= 1) by (split; [apply pow2_pos|rewrite <- pow2_0; apply pow2_le; lia]).
  assert (Hh : pow2 (emin f - 1) = h / 2) by (unfold h; rewrite pow2_minus; change (pow2 1) with (2 * 1); field).
  rewrite Hh in *.
  set (w := INR (depth t + 1) * v64).
  assert (W : 0 <= w <= 1 / 4).
  { split; [apply Rmult_le_pos; [apply pos_INR|lra]|]. apply Rle_trans with (pow2 51 * v64); [apply Rmult_le_compat_r; lra|].
    unfold v64. rewrite <- pow2_plus. change (51 + -53)%Z with (- (2))%Z. unfold pow2. simpl. lra. }
  assert (W1 : v64 <= w).
  { unfold w. rewrite <- (Rmult_1_l v64) at 1. apply Rmult_le_compat_r; [lra|]. rewrite plus_INR. pose proof (pos_INR (depth t)). cbn; lra. }
  set (x := s / n) in *. assert (X0 : 0 <= x) by (apply Rmult_le_pos; [exact S0|left; apply Rinv_0_lt_compat; lra]).
  set (e2 := T / n). assert (E20 : 0 <= e2) by (apply Rmult_le_pos; [exact T0|left; apply Rinv_0_lt_compat; lra]).
  assert (Xn : x * n = s) by (unfold x; field; lra). assert (En : e2 * n = T) by (unfold e2; field; lra).
  assert (X1 : x <= (1 + v64) ^ depth t * ((1 + 4 * u) * e2 + h / 2)).
  { apply Rmult_le_reg_r with n; [lra|]. rewrite Xn. eapply Rle_trans; [exact S2|]. rewrite <- En. right. ring. }
  assert (X2 : (1 - v64) ^ depth t * ((1 - 3 * u) * e2 - h / 2) <= x).
  { apply Rmult_le_reg_r with n; [lra|]. rewrite Xn. eapply Rle_trans; [|exact S1]. rewrite <- En. right. ring. }
  assert (h64 : pow2 (-1074 - 1) <= h / 2) by (rewrite <- Hh; apply pow2_le; lia).
  pose proof (round_f_err binary64 x) as M. change (- prec binary64)%Z with (- 53)%Z in M. change (pow2 (- 53)) with v64 in M.
  change (emin binary64) with (-1074)%Z in M. rewrite (Rabs_right x) in M by lra. apply abs_between in M.
  pose proof (round_f_nonneg binary64 x X0) as M0. set (m := round_f binary64 x) in *.
  (* the mean *)
  assert (PU : (1 + v64) * (1 + v64) ^ depth t <= 1 + 2 * w).
  { change ((1 + v64) ^ S (depth t) <= 1 + 2 * w). unfold w. replace (depth t + 1)%nat with (S (depth t)) by lia.
    apply pow_up; [lra|]. replace (S (depth t)) with (depth t + 1)%nat by lia. fold w. lra. }
  assert (PD : 1 - w <= (1 - v64) * (1 - v64) ^ depth t).
  { change (1 - w <= (1 - v64) ^ S (depth t)). unfold w. replace (depth t + 1)%nat with (S (depth t)) by lia. apply pow_down. lra. }
  assert (Mhi : m <= (1 + 4 * u + 4 * w) * e2 + 3 / 2 * h).
  { apply Rle_trans with ((1 + v64) * x + h / 2); [lra|].
    assert ((1 + v64) * x <= (1 + 2 * w) * ((1 + 4 * u) * e2 + h / 2)).
    { eapply Rle_trans; [apply Rmult_le_compat_l; [lra|exact X1]|]. rewrite <- Rmult_assoc. apply Rmult_le_compat_r; [|exact PU].
      assert (0 <= (1 + 4 * u) * e2) by (apply Rmult_le_pos; lra). lra. }
    assert (w * u <= w * (1 / 8)) by (apply Rmult_le_compat_l; lra).
    assert ((1 + 2 * w) * (1 + 4 * u) <= 1 + 4 * u + 4 * w) by nra.
    assert ((1 + 2 * w) * (1 + 4 * u) * e2 <= (1 + 4 * u + 4 * w) * e2) by (apply Rmult_le_compat_r; assumption).
    assert (w * h <= 1 / 4 * h) by (apply Rmult_le_compat_r; lra). nra. }
  assert (Mlo : (1 - 3 * u - w) * e2 - h <= m).
  { apply Rle_trans with ((1 - v64) * x - h / 2); [|lra].
    assert (Q : (1 - v64) * ((1 - v64) ^ depth t * ((1 - 3 * u) * e2 - h / 2)) <= (1 - v64) * x) by (apply Rmult_le_compat_l; lra).
    rewrite <- Rmult_assoc in Q. set (P := (1 - v64) * (1 - v64) ^ depth t) in *.
    assert (P1 : P <= 1).
    { pose proof (pow_incr (1 - v64) 1 (S (depth t))) as I. rewrite pow1 in I. apply I. lra. }
    assert (0 <= u * w) by (apply Rmult_le_pos; lra).
    assert ((1 - 3 * u - w) <= (1 - w) * (1 - 3 * u)) by nra.
    assert ((1 - w) * (1 - 3 * u) <= P * (1 - 3 * u)) by (apply Rmult_le_compat_r; lra).
    assert ((1 - 3 * u - w) * e2 <= P * (1 - 3 * u) * e2) by (apply Rmult_le_compat_r; lra).
    assert (P * (h / 2) <= 1 * (h / 2)) by (apply Rmult_le_compat_r; lra). lra. }
  repeat split; try assumption; try apply U; try apply W; lra.
Qed.

Lemma rmse_bounds f t r : (3 <= prec f)%Z -> (-1074 <= emin f <= 0)%Z -> good f t ->
  INR (depth t + 1) <= pow2 51 -> rmse_r f t = Fin r ->
  let E := sqrt (Rsum (map sq (leaves t)) / INR (length (leaves t))) in
  Rabs (r - E) <= 4 * (pow2 (- prec f) + INR (depth t + 1) * pow2 (- 53)) * E + 2 * sqrt (pow2 (emin f)).
Proof.
  intros Hp He G HD H E. pose proof v64_small as V. unfold rmse_r in H. destruct (mse_r f t) as [m| | |] eqn:Em; try discriminate.
  apply store_fin in H as [-> _]. destruct (mse_bounds f t m Hp He G HD Em) as (E20 & M0 & U & (W1 & W) & Mhi & Mlo).
  set (e2 := Rsum (map sq (leaves t)) / INR (length (leaves t))) in *. set (u := pow2 (- prec f)) in *. set (w := INR (depth t + 1) * pow2 (- 53)) in *.
  set (h := pow2 (emin f)) in *. assert (H0 : 0 < h <= 1) by (split; [apply pow2_pos|rewrite <- pow2_0; apply pow2_le; lia]).
  assert (Hh : pow2 (emin f - 1) = h / 2) by (unfold h; rewrite pow2_minus; change (pow2 1) with (2 * 1); field).
  assert (h64 : pow2 (-1074 - 1) <= h / 2) by (rewrite <- Hh; apply pow2_le; lia).
  (* the root *)
  assert (EE : E * E = e2) by (unfold E; apply sqrt_sqrt; exact E20).
  assert (E0 : 0 <= E) by apply sqrt_pos. clearbody E.
  set (g := sqrt h). assert (GG : g * g = h) by (apply sqrt_sqrt; lra). assert (G0 : 0 <= g) by apply sqrt_pos.
  assert (G1 : h <= g) by (assert (g <= 1) by (unfold g; rewrite <- sqrt_1; apply sqrt_le_1_alt; lra); nra).
  set (y := sqrt m). assert (YY : y * y = m) by (apply sqrt_sqrt; exact M0). assert (Y0 : 0 <= y) by apply sqrt_pos. clearbody y g.
  pose proof (round_f_err binary64 y) as B. change (- prec binary64)%Z with (- 53)%Z in B. change (pow2 (- 53)) with v64 in B.
  change (emin binary64) with (-1074)%Z in B. rewrite (Rabs_right y) in B by lra. apply abs_between in B.
  set (r := round_f binary64 y) in *.
  set (q := u + w). assert (Q : 0 <= q <= 3 / 8) by (unfold q; lra).
  assert (Yhi : y <= (1 + 2 * q) * E + 5 / 4 * g).
  { apply Rsqr_incr_0_var; [|assert (0 <= (1 + 2 * q) * E) by (apply Rmult_le_pos; lra); lra]. unfold Rsqr. rewrite YY.
    eapply Rle_trans; [exact Mhi|]. rewrite <- EE, <- GG. replace (1 + 4 * u + 4 * w) with (1 + 4 * q) by (unfold q; ring).
    assert (0 <= q * q * (E * E)) by (apply Rmult_le_pos; nra). assert (0 <= (1 + 2 * q) * E * g) by (apply Rmult_le_pos; [apply Rmult_le_pos|]; lra).
    assert (0 <= g * g) by nra. lra. }
  assert (Ylo : (1 - 3 * q) * E - g <= y).
  { destruct (Rle_lt_dec ((1 - 3 * q) * E - g) 0) as [L|L]; [lra|].
    apply Rsqr_incr_0_var; [|exact Y0]. unfold Rsqr. rewrite YY. eapply Rle_trans; [|exact Mlo]. rewrite <- EE, <- GG.
    assert (K1 : 1 - 3 * q <= 1 - 3 * u - w) by (unfold q; lra).
    set (c := 1 - 3 * q) in *. assert (g <= c * E) by lra.
    destruct (Rle_lt_dec c 0) as [C|C]; [nra|].
    assert (C1 : c <= 1) by (unfold c; lra).
    assert (c * c * (E * E) <= (1 - 3 * u - w) * (E * E)) by (apply Rmult_le_compat_r; nra).
    assert (g * g <= c * E * g) by (apply Rmult_le_compat_r; lra). lra. }
  assert (V8 : v64 * (2 * q) <= v64 * (3 / 4)) by (apply Rmult_le_compat_l; lra).
  assert (Q1 : v64 <= q) by (unfold q; lra).
  change (Rabs (r - E) <= 4 * q * E + 2 * g). apply Rabs_le. split.
  - assert (v64 * y <= v64 * ((1 + 2 * q) * E + 5 / 4 * g)) by (apply Rmult_le_compat_l; lra).
    assert ((1 - v64) * ((1 - 3 * q) * E - g) <= (1 - v64) * y) by (apply Rmult_le_compat_l; lra).
    assert (K : (1 - 4 * q) * E <= (1 - v64) * (1 - 3 * q) * E) by (apply Rmult_le_compat_r; [exact E0|nra]).
    assert (0 <= v64 * g) by (apply Rmult_le_pos; lra). nra.
  - assert (S : (1 + v64) * y <= (1 + v64) * ((1 + 2 * q) * E + 5 / 4 * g)) by (apply Rmult_le_compat_l; lra).
    assert (K : (1 + v64) * (1 + 2 * q) * E <= (1 + 4 * q) * E) by (apply Rmult_le_compat_r; [exact E0|nra]).
    assert (v64 * g <= 1 / 1000 * g) by (apply Rmult_le_compat_r; lra). nra.
Qed.
