(** Finite sums of real numbers; Cauchy-Schwarz. *)
From Coq Require Import Reals Lra Psatz Permutation.
From Verif Require Import Base.
Local Open Scope R_scope.

Definition rsum (l : list R) : R := fold_right Rplus 0 l.
Definition Sum {A} (f : A -> R) (l : list A) : R := rsum (map f l).

Section Sums.
Context {A : Type}.
Implicit Types (f g w : A -> R) (l : list A).

Lemma Sum_nil f : Sum f [] = 0. Proof. reflexivity. Qed.
Lemma Sum_cons f a l : Sum f (a :: l) = f a + Sum f l. Proof. reflexivity. Qed.

Lemma Sum_ext f g l : (forall a, In a l -> f a = g a) -> Sum f l = Sum g l.
Proof.
  intros H. unfold Sum. f_equal. apply map_ext_in. exact H.
Qed.
Lemma Sum_app f l l' : Sum f (l ++ l') = Sum f l + Sum f l'.
Proof. induction l as [|a l IH]; simpl; rewrite ?Sum_cons, ?Sum_nil; [|rewrite IH]; lra. Qed.
Lemma Sum_plus f g l : Sum (fun a => f a + g a) l = Sum f l + Sum g l.
Proof. induction l as [|a l IH]; rewrite ?Sum_cons, ?Sum_nil; [|rewrite IH]; lra. Qed.
Lemma Sum_minus f g l : Sum (fun a => f a - g a) l = Sum f l - Sum g l.
Proof. induction l as [|a l IH]; rewrite ?Sum_cons, ?Sum_nil; [|rewrite IH]; lra. Qed.
Lemma Sum_scale c f l : Sum (fun a => c * f a) l = c * Sum f l.
Proof. induction l as [|a l IH]; rewrite ?Sum_cons, ?Sum_nil; [|rewrite IH]; lra. Qed.
Lemma Sum_zero l : Sum (fun _ => 0) l = 0.
Proof. induction l as [|a l IH]; rewrite ?Sum_cons, ?Sum_nil; lra. Qed.
Lemma Sum_const c l : Sum (fun _ => c) l = INR (length l) * c.
Proof.
  induction l as [|a l IH]; rewrite ?Sum_cons, ?Sum_nil; [simpl; lra|].
  rewrite IH. cbn [length]. rewrite S_INR. lra.
Qed.
Lemma Sum_nonneg f l : (forall a, In a l -> 0 <= f a) -> 0 <= Sum f l.
Proof.
  induction l as [|a l IH]; intros H; rewrite ?Sum_cons, ?Sum_nil; [lra|].
  assert (0 <= f a) by (apply H; left; reflexivity).
  assert (0 <= Sum f l) by (apply IH; intros; apply H; right; assumption). lra.
Qed.
Lemma Sum_le f g l : (forall a, In a l -> f a <= g a) -> Sum f l <= Sum g l.
Proof.
  induction l as [|a l IH]; intros H; rewrite ?Sum_cons, ?Sum_nil; [lra|].
  assert (f a <= g a) by (apply H; left; reflexivity).
  assert (Sum f l <= Sum g l) by (apply IH; intros; apply H; right; assumption). lra.
Qed.
Lemma Sum_zero_inv f l :
  (forall a, In a l -> 0 <= f a) -> Sum f l = 0 -> forall a, In a l -> f a = 0.
Proof.
  induction l as [|b l IH]; intros H E a [].
  - subst b. rewrite Sum_cons in E. assert (0 <= f a) by (apply H; left; reflexivity).
    assert (0 <= Sum f l) by (apply Sum_nonneg; intros; apply H; right; assumption). lra.
  - rewrite Sum_cons in E. assert (0 <= f b) by (apply H; left; reflexivity).
    assert (0 <= Sum f l) by (apply Sum_nonneg; intros; apply H; right; assumption).
    apply IH; [intros; apply H; right; assumption|lra|assumption].
Qed.
Lemma Sum_perm f l l' : Permutation l l' -> Sum f l = Sum f l'.
Proof.
  induction 1; rewrite ?Sum_cons; try lra.
Qed.
Lemma Sum_single f l a : In a l -> (forall b, In b l -> 0 <= f b) -> f a <= Sum f l.
Proof.
  induction l as [|b l IH]; intros Hin H; [destruct Hin|]. rewrite Sum_cons.
  assert (0 <= f b) by (apply H; left; reflexivity).
  assert (0 <= Sum f l) by (apply Sum_nonneg; intros; apply H; right; assumption).
  destruct Hin as [<-|Hin]; [lra|].
  assert (f a <= Sum f l) by (apply IH; [exact Hin|intros; apply H; right; assumption]). lra.
Qed.

(** Weighted Cauchy-Schwarz. *)
Lemma cauchy_schwarz w f g l :
  (forall a, In a l -> 0 <= w a) ->
  (Sum (fun a => w a * f a * g a) l) * (Sum (fun a => w a * f a * g a) l)
  <= Sum (fun a => w a * f a * f a) l * Sum (fun a => w a * g a * g a) l.
Proof.
  intros Hw.
  set (A0 := Sum (fun a => w a * f a * f a) l). set (B0 := Sum (fun a => w a * f a * g a) l).
  set (C0 := Sum (fun a => w a * g a * g a) l).
  assert (HC : 0 <= C0).
  { apply Sum_nonneg. intros a Ha. specialize (Hw a Ha).
    replace (w a * g a * g a) with (w a * (g a * g a)) by ring.
    apply Rmult_le_pos; [exact Hw|]. apply Rle_0_sqr. }
  destruct (Req_dec C0 0) as [E|E].
  - assert (B0 = 0) as ->.
    { unfold B0. rewrite <- (Sum_zero l). apply Sum_ext. intros a Ha.
      assert (K : w a * g a * g a = 0).
      { apply (Sum_zero_inv (fun a => w a * g a * g a) l); [|exact E|exact Ha].
        intros b Hb. specialize (Hw b Hb).
        replace (w b * g b * g b) with (w b * (g b * g b)) by ring.
        apply Rmult_le_pos; [exact Hw|]. apply Rle_0_sqr. }
      apply Rmult_integral in K as [K|K].
      - replace (w a * f a * g a) with (w a * g a * f a) by ring. rewrite K. ring.
      - rewrite K. ring. }
    assert (0 <= A0).
    { apply Sum_nonneg. intros a Ha. specialize (Hw a Ha).
      replace (w a * f a * f a) with (w a * (f a * f a)) by ring.
      apply Rmult_le_pos; [exact Hw|]. apply Rle_0_sqr. }
    rewrite E. lra.
  - assert (K : 0 <= Sum (fun a => w a * ((C0 * f a - B0 * g a) * (C0 * f a - B0 * g a))) l).
    { apply Sum_nonneg. intros a Ha. apply Rmult_le_pos; [apply Hw, Ha|apply Rle_0_sqr]. }
    assert (K2 : Sum (fun a => w a * ((C0 * f a - B0 * g a) * (C0 * f a - B0 * g a))) l
                 = C0 * (C0 * A0 - B0 * B0)).
    { rewrite (Sum_ext _ (fun a => C0 * C0 * (w a * f a * f a)
                 + (- (2 * C0 * B0)) * (w a * f a * g a) + B0 * B0 * (w a * g a * g a)))
        by (intros; ring).
      rewrite !Sum_plus, !Sum_scale. fold A0 B0 C0. ring. }
    rewrite K2 in K. assert (0 < C0) by lra.
    assert (0 <= C0 * A0 - B0 * B0).
    { apply Rmult_le_reg_l with C0; [assumption|]. lra. }
    lra.
Qed.

(** Minkowski for the weighted 2-norm. *)
Definition norm2 w f l := sqrt (Sum (fun a => w a * f a * f a) l).

Lemma sq_sum_nonneg w f l :
  (forall a, In a l -> 0 <= w a) -> 0 <= Sum (fun a => w a * f a * f a) l.
Proof.
  intros Hw. apply Sum_nonneg. intros a Ha.
  replace (w a * f a * f a) with (w a * (f a * f a)) by ring.
  apply Rmult_le_pos; [apply Hw, Ha|apply Rle_0_sqr].
Qed.

Lemma minkowski w f g l :
  (forall a, In a l -> 0 <= w a) ->
  norm2 w (fun a => f a + g a) l <= norm2 w f l + norm2 w g l.
Proof.
  intros Hw. unfold norm2.
  set (a0 := Sum (fun a => w a * f a * f a) l). set (c0 := Sum (fun a => w a * g a * g a) l).
  set (b0 := Sum (fun a => w a * f a * g a) l).
  assert (Ha : 0 <= a0) by (apply sq_sum_nonneg, Hw).
  assert (Hc : 0 <= c0) by (apply sq_sum_nonneg, Hw).
  assert (E : Sum (fun a => w a * (f a + g a) * (f a + g a)) l = a0 + 2 * b0 + c0).
  { rewrite (Sum_ext _ (fun a => w a * f a * f a + 2 * (w a * f a * g a) + w a * g a * g a))
      by (intros; ring).
    rewrite !Sum_plus, Sum_scale. reflexivity. }
  rewrite E.
  assert (CS := cauchy_schwarz w f g l Hw). fold a0 b0 c0 in CS.
  assert (Sa := sqrt_pos a0). assert (Sc := sqrt_pos c0).
  assert (Ea := sqrt_sqrt a0 Ha). assert (Ec := sqrt_sqrt c0 Hc).
  assert (Hb : b0 <= sqrt a0 * sqrt c0).
  { apply Rsqr_incr_0_var; [|apply Rmult_le_pos; assumption]. unfold Rsqr.
    replace (sqrt a0 * sqrt c0 * (sqrt a0 * sqrt c0))
      with ((sqrt a0 * sqrt a0) * (sqrt c0 * sqrt c0)) by ring.
    rewrite Ea, Ec. exact CS. }
  apply Rle_trans with (sqrt ((sqrt a0 + sqrt c0) * (sqrt a0 + sqrt c0))).
  - apply sqrt_le_1_alt.
    replace ((sqrt a0 + sqrt c0) * (sqrt a0 + sqrt c0))
      with (sqrt a0 * sqrt a0 + 2 * (sqrt a0 * sqrt c0) + sqrt c0 * sqrt c0) by ring. lra.
  - rewrite sqrt_square by lra. lra.
Qed.
End Sums.

Lemma rsum_Sum l : rsum l = Sum (fun x => x) l.
Proof. unfold Sum. rewrite map_id. reflexivity. Qed.

Lemma Sum_map {A B} (f : B -> R) (g : A -> B) l : Sum f (map g l) = Sum (fun a => f (g a)) l.
Proof. unfold Sum. rewrite map_map. reflexivity. Qed.

Lemma in_combine_nth {A B} (l : list A) (l' : list B) p :
  In p (combine l l') -> exists i, nth_error l i = Some (fst p) /\ nth_error l' i = Some (snd p).
Proof.
  revert l'; induction l as [|x l IH]; intros [|y l'] H; try destruct H.
  - subst p. exists 0%nat. split; reflexivity.
  - destruct (IH _ H) as (i & H1 & H2). exists (S i). split; assumption.
Qed.
