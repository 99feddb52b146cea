(** Lemmas on rounding and on decimal texts. *)
From Coq Require Import Reals String Ascii Lra Lia.
From Verif Require Import Base MetricModel BatchModel PrintModel.
From Coq Require Import DecimalString DecimalNat Decimal DecimalFacts.
Open Scope R_scope.

(** ** Nearest integer *)

Definition nearest (n : Z) (y : R) : Prop :=
  Rabs (IZR n - y) < 1 / 2 \/ (Rabs (IZR n - y) = 1 / 2 /\ Z.even n = true).

Lemma rint_nearest y : nearest (rint y) y.
Proof.
  unfold nearest, rint. destruct (base_Int_part y) as [A B]. set (k := Int_part y) in *. clearbody k.
  destruct (Rlt_dec (y - IZR k) (1 / 2)).
  - left. apply Rabs_def1; lra.
  - destruct (Rlt_dec (1 / 2) (y - IZR k)).
    + left. rewrite plus_IZR. apply Rabs_def1; lra.
    + assert (E : y = IZR k + 1 / 2) by lra. right. destruct (Z.even k) eqn:Ek.
      * split; [|exact Ek]. rewrite E, Rabs_left; lra.
      * split; [|rewrite Z.even_add, Ek; reflexivity]. rewrite plus_IZR, E, Rabs_right; lra.
Qed.

Lemma IZR_sep a b : (a < b)%Z -> IZR a + 1 <= IZR b.
Proof. intros H. rewrite <- (plus_IZR a 1). apply IZR_le. lia. Qed.

Lemma nearest_half n y : nearest n y -> Rabs (IZR n - y) <= 1 / 2.
Proof. intros [H|[H _]]; lra. Qed.

Lemma nearest_unique a b y : nearest a y -> nearest b y -> a = b.
Proof.
  intros Ha Hb. pose proof (nearest_half _ _ Ha) as La. pose proof (nearest_half _ _ Hb) as Lb.
  destruct (Z.lt_trichotomy a b) as [L|[E|L]]; [|exact E|]; exfalso.
  - pose proof (IZR_sep _ _ L) as S.
    assert (Ya : IZR a - y = - (1 / 2)) by (unfold Rabs in *; destruct (Rcase_abs _), (Rcase_abs _); lra).
    assert (Yb : IZR b - y = 1 / 2) by (unfold Rabs in *; destruct (Rcase_abs _), (Rcase_abs _); lra).
    assert (E : b = (a + 1)%Z) by (apply eq_IZR; rewrite plus_IZR; lra).
    destruct Ha as [Ha|[_ Ha]]; [rewrite Ya, Rabs_left in Ha; lra|].
    destruct Hb as [Hb|[_ Hb]]; [rewrite Yb, Rabs_right in Hb; lra|].
    rewrite E, Z.even_add, Ha in Hb. discriminate.
  - pose proof (IZR_sep _ _ L) as S.
    assert (Ya : IZR a - y = 1 / 2) by (unfold Rabs in *; destruct (Rcase_abs _), (Rcase_abs _); lra).
    assert (Yb : IZR b - y = - (1 / 2)) by (unfold Rabs in *; destruct (Rcase_abs _), (Rcase_abs _); lra).
    assert (E : a = (b + 1)%Z) by (apply eq_IZR; rewrite plus_IZR; lra).
    destruct Ha as [Ha|[_ Ha]]; [rewrite Ya, Rabs_right in Ha; lra|].
    destruct Hb as [Hb|[_ Hb]]; [rewrite Yb, Rabs_left in Hb; lra|].
    rewrite E, Z.even_add, Hb in Ha. discriminate.
Qed.

Lemma rint_unique n y : nearest n y -> rint y = n.
Proof. intros H. exact (nearest_unique _ _ y (rint_nearest y) H). Qed.

Lemma rint_half y : Rabs (IZR (rint y) - y) <= 1 / 2.
Proof. apply nearest_half, rint_nearest. Qed.

Lemma rint_IZR k : rint (IZR k) = k.
Proof. apply rint_unique. left. rewrite Rminus_diag_eq, Rabs_R0 by reflexivity. lra. Qed.

Lemma rint_opp y : rint (- y) = (- rint y)%Z.
Proof.
  apply rint_unique. destruct (rint_nearest y) as [H|[H E]]; [left|right].
  - rewrite opp_IZR. replace (- IZR (rint y) - - y) with (- (IZR (rint y) - y)) by ring. rewrite Rabs_Ropp. exact H.
  - rewrite opp_IZR. replace (- IZR (rint y) - - y) with (- (IZR (rint y) - y)) by ring. rewrite Rabs_Ropp.
    split; [exact H|]. rewrite Z.even_opp. exact E.
Qed.

Lemma Rabs_le_inv x a : Rabs x <= a -> - a <= x <= a.
Proof. unfold Rabs. destruct (Rcase_abs x); lra. Qed.

Lemma rint_mono x y : x <= y -> (rint x <= rint y)%Z.
Proof.
  intros H. destruct (Z.le_gt_cases (rint x) (rint y)) as [L|L]; [exact L|].
  pose proof (IZR_sep _ _ L). pose proof (Rabs_le_inv _ _ (rint_half x)). pose proof (Rabs_le_inv _ _ (rint_half y)).
  assert (x = y) by lra. subst. lia.
Qed.

Lemma rint_nonneg y : 0 <= y -> (0 <= rint y)%Z.
Proof. intros H. rewrite <- (rint_IZR 0). apply rint_mono. exact H. Qed.

(** No integer is nearer. *)
Lemma rint_best y n : Rabs (IZR (rint y) - y) <= Rabs (IZR n - y).
Proof.
  pose proof (rint_half y) as H. destruct (Z.eq_dec n (rint y)) as [->|N]; [lra|].
  apply Rle_trans with (1 / 2); [exact H|]. apply Rabs_le_inv in H.
  destruct (Z.lt_ge_cases n (rint y)) as [L|L].
  - pose proof (IZR_sep _ _ L). rewrite Rabs_left1; lra.
  - assert (L' : (rint y < n)%Z) by lia. pose proof (IZR_sep _ _ L'). rewrite Rabs_right; lra.
Qed.

(** ** Units of the last place *)

(** [unit d]: 10^-d *)
Definition unit (d : Z) : R := powerRZ 10 (- d).

Lemma unit_pos d : 0 < unit d.
Proof. apply powerRZ_lt. lra. Qed.

Lemma pow10_pos n : 0 < 10 ^ n.
Proof. apply pow_lt. lra. Qed.

Lemma unit_nonneg d : (0 <= d)%Z -> unit d = / 10 ^ Z.to_nat d.
Proof.
  intros H. unfold unit. rewrite powerRZ_neg'. f_equal.
  rewrite <- (Z2Nat.id d) at 1 by exact H. rewrite <- pow_powerRZ. reflexivity.
Qed.
Lemma unit_neg d : (d < 0)%Z -> unit d = 10 ^ Z.to_nat (- d).
Proof.
  intros H. unfold unit. rewrite <- (Z2Nat.id (- d)) at 1 by lia. rewrite <- pow_powerRZ. reflexivity.
Qed.

Lemma np_round_unit d x : np_round d x = IZR (rint (x / unit d)) * unit d.
Proof.
  unfold np_round. destruct (Z.leb_spec 0 d) as [H|H].
  - rewrite unit_nonneg by exact H. pose proof (pow10_pos (Z.to_nat d)).
    replace (x / / 10 ^ Z.to_nat d) with (x * 10 ^ Z.to_nat d) by (field; lra). reflexivity.
  - rewrite unit_neg by exact H. reflexivity.
Qed.

(** ** Decimal texts *)

Definition digit (c : ascii) : option nat :=
  let k := nat_of_ascii c in
  if ((48 <=? k) && (k <=? 57))%nat then Some (k - 48)%nat else None.

(** Reading a text like -12.345 *)
Fixpoint read_frac (s : string) (acc scale : R) : option R :=
  match s with
  | EmptyString => Some acc
  | String c s' => match digit c with
                   | Some k => read_frac s' (acc + INR k * (scale / 10)) (scale / 10)
                   | None => None
                   end
  end.
Fixpoint read_int (s : string) (acc : R) : option R :=
  match s with
  | EmptyString => Some acc
  | String c s' => if Ascii.eqb c "." then read_frac s' acc 1
                   else match digit c with
                        | Some k => read_int s' (10 * acc + INR k)
                        | None => None
                        end
  end.
Definition read_num (s : string) : option R :=
  match s with
  | String c s' => if Ascii.eqb c "-" then option_map Ropp (read_int s' 0) else read_int s 0
  | EmptyString => None
  end.

Lemma read_int_uint u : forall rest acc,
  read_int (NilEmpty.string_of_uint u ++ rest) (INR acc) = read_int rest (INR (Nat.of_uint_acc u acc)).
Proof.
  induction u as [|u IH|u IH|u IH|u IH|u IH|u IH|u IH|u IH|u IH|u IH]; intros rest acc; [reflexivity|..];
    cbn [NilEmpty.string_of_uint String.append read_int Nat.of_uint_acc];
    match goal with |- context [Ascii.eqb ?a ?b] => change (Ascii.eqb a b) with false end; cbv iota;
    match goal with |- context [digit ?a] => let v := eval cbv in (digit a) in change (digit a) with v end; cbv iota;
    rewrite <- IH; f_equal; rewrite Nat.tail_mul_spec; rewrite ?S_INR, ?mult_INR; cbn [INR]; ring.
Qed.

Lemma read_int_show n rest : read_int (show n ++ rest) 0 = read_int rest (INR n).
Proof.
  unfold show. change 0 with (INR 0). rewrite read_int_uint. do 2 f_equal.
  change (Nat.of_uint_acc (Nat.to_uint n) 0) with (Nat.of_uint (Nat.to_uint n)). apply Unsigned.of_to.
Qed.

Lemma show_digit k : (k < 10)%nat -> exists c, show k = String c "" /\ digit c = Some k /\ c <> "."%char /\ c <> "-"%char.
Proof.
  intros H. do 10 (destruct k as [|k]; [eexists; split; [reflexivity|]; split; [reflexivity|]; split; discriminate|]). lia.
Qed.

Lemma app_assoc_s (a b c : string) : ((a ++ b) ++ c = a ++ (b ++ c))%string.
Proof. induction a as [|x a IH]; [reflexivity|]. cbn. rewrite IH. reflexivity. Qed.

Lemma read_frac_pad w : forall k rest acc s,
  read_frac (pad w k ++ rest) acc s = read_frac rest (acc + INR (k mod 10 ^ w) * (s / 10 ^ w)) (s / 10 ^ w).
Proof.
  induction w as [|w IH]; intros k rest acc s.
  - cbn [pad pow String.append]. change (10 ^ 0)%nat with 1%nat. rewrite Nat.mod_1_r. cbn [INR]. f_equal; field.
  - cbn [pad]. rewrite app_assoc_s, IH.
    destruct (show_digit (k mod 10)) as (c & E & D & _); [apply Nat.mod_upper_bound; lia|].
    rewrite E. cbn [String.append read_frac]. rewrite D.
    assert (M : (k mod 10 ^ S w = 10 * ((k / 10) mod 10 ^ w) + k mod 10)%nat).
    { cbn [Nat.pow]. rewrite Nat.mod_mul_r by (try lia; apply Nat.pow_nonzero; lia). lia. }
    rewrite M, plus_INR, mult_INR. pose proof (pow10_pos w).
    f_equal; cbn [pow INR]; field; lra.
Qed.

Lemma show_head n : exists c s, show n = String c s /\ c <> "-"%char.
Proof.
  unfold show. destruct (Nat.to_uint n) eqn:E; cbn; try (eexists _, _; split; [reflexivity|discriminate]).
  exfalso. assert (H := Unsigned.of_to n). rewrite E in H. cbn in H. subst n. discriminate E.
Qed.
