(** Scores along a chain of processing steps: property C153. *)
From Coq Require Import Reals Lra Psatz.
From Verif Require Import Base NdArray LoadModel NormModel PairModel RealSums MetricModel MetricProofs MetricProps PartsProps.
Local Open Scope R_scope.

(** The steps from the image [m0] through the images [ms]: each image with the next one. *)
Fixpoint steps (m0 : list R) (ms : list (list R)) : list (list R * list R) :=
  match ms with [] => [] | m :: ms' => (m0, m) :: steps m ms' end.

Lemma steps_length m0 ms : length (steps m0 ms) = length ms.
Proof. revert m0; induction ms as [|m ms IH]; intros m0; [reflexivity|]. cbn [steps length]. rewrite IH. reflexivity. Qed.

Lemma steps_in m0 ms s : In s (steps m0 ms) -> (fst s = m0 \/ In (fst s) ms) /\ In (snd s) ms.
Proof.
  revert m0; induction ms as [|m ms IH]; intros m0 H; [destruct H|]. destruct H as [<-|H].
  - split; left; reflexivity.
  - apply IH in H as [[->|H] H']; (split; [right; cbn; auto|right; exact H']).
Qed.

Lemma last_default {A} (l : list A) d d' : l <> [] -> last l d = last l d'.
Proof. induction l as [|x l IH]; intros H; [contradiction|]. destruct l as [|y l]; [reflexivity|]. change (last (y :: l) d = last (y :: l) d'). apply IH. discriminate. Qed.

Lemma last_cons (m m0 : list R) ms : last (m :: ms) m0 = last ms m.
Proof. destruct ms as [|x ms]; [reflexivity|]. change (last (x :: ms) m0 = last (x :: ms) m). apply last_default. discriminate. Qed.

Lemma last_length (m0 : list R) ms : (forall m, In m ms -> length m = length m0) -> length (last ms m0) = length m0.
Proof.
  revert m0; induction ms as [|m ms IH]; intros m0 H; [reflexivity|]. rewrite last_cons, IH; [apply H; left; reflexivity|].
  intros x Hx. rewrite (H m (or_introl eq_refl)). apply H. right. exact Hx.
Qed.

Notation dist := MetricProofs.rms.

Lemma chain_upper m0 ms : m0 <> [] -> (forall m, In m ms -> length m = length m0) ->
  dist m0 (last ms m0) <= Sum (fun s => dist (fst s) (snd s)) (steps m0 ms).
Proof.
  revert m0; induction ms as [|m ms IH]; intros m0 N H.
  - cbn [last steps]. rewrite Sum_nil. right. apply (rms_zero m0 m0 N eq_refl). reflexivity.
  - assert (L : length m = length m0) by (apply H; left; reflexivity). rewrite last_cons. cbn [steps]. rewrite Sum_cons. cbn [fst snd].
    assert (Hm : forall x, In x ms -> length x = length m) by (intros; rewrite L; apply H; right; assumption).
    assert (Nm : m <> []) by (intros ->; destruct m0; [contradiction|discriminate]).
    apply Rle_trans with (dist m0 m + dist m (last ms m)).
    + apply rms_triangle; [exact N|congruence|symmetry; apply last_length, Hm].
    + apply Rplus_le_compat_l, IH; assumption.
Qed.

(** RMSE between the first and the last image is at most the sum over the steps, and no step is larger than it and all
    the other steps together. *)
Theorem C153_rmse : forall (m0 : list R) ms, m0 <> [] -> (forall m, In m ms -> length m = length m0) ->
  exists v e, rmse m0 (last ms m0) = Fin v /\ (forall s, In s (steps m0 ms) -> rmse (fst s) (snd s) = Fin (e s)) /\
    v <= Sum e (steps m0 ms) /\ (forall s, In s (steps m0 ms) -> 2 * e s <= v + Sum e (steps m0 ms)).
Proof.
  intros m0 ms N H. exists (dist m0 (last ms m0)), (fun s => dist (fst s) (snd s)).
  split; [apply rmse_fin, N|]. split.
  { intros s Hs. apply rmse_fin. apply steps_in in Hs as [[->|Hs] _]; [exact N|]. apply H in Hs. intros E. rewrite E in Hs. destruct m0; [contradiction|discriminate]. }
  split; [apply chain_upper; assumption|].
  revert m0 N H; induction ms as [|m ms IH]; intros m0 N H s Hs; [destruct Hs|].
  assert (L : length m = length m0) by (apply H; left; reflexivity). rewrite last_cons. cbn [steps]. rewrite Sum_cons. cbn [fst snd].
  assert (Hm : forall x, In x ms -> length x = length m) by (intros; rewrite L; apply H; right; assumption).
  assert (Nm : m <> []) by (intros ->; destruct m0; [contradiction|discriminate]).
  pose proof (last_length m ms Hm) as Ll.
  destruct Hs as [<-|Hs]; cbn [fst snd].
  - assert (dist m0 m <= dist m0 (last ms m) + dist (last ms m) m) by (apply rms_triangle; [exact N|congruence|congruence]).
    rewrite (rms_sym (last ms m) m) in * by congruence. pose proof (chain_upper m ms Nm Hm). lra.
  - specialize (IH m Nm Hm s Hs).
    assert (dist m (last ms m) <= dist m m0 + dist m0 (last ms m)) by (apply rms_triangle; [exact Nm|congruence|congruence]).
    rewrite (rms_sym m m0) in * by congruence. lra.
Qed.
Print Assumptions C153_rmse.

(** ** PSNR *)

Lemma ln10_pos : 0 < ln 10.
Proof. rewrite <- ln_1. apply ln_increasing; lra. Qed.

(** The largest RMSE that gives PSNR q. *)
Definition error_of (dr q : R) : R := dr * exp (- q * ln 10 / 20).

Lemma psnr_at_least dr a b q : 0 < dr -> a <> [] -> length a = length b -> (~ elt (psnr dr a b) (Fin q) <-> dist a b <= error_of dr q).
Proof.
  intros Hd N L. pose proof ln10_pos as T. assert (Ep : 0 < error_of dr q) by (apply Rmult_lt_0_compat; [exact Hd|apply exp_pos]).
  pose proof (rms_nonneg a b) as [P|Z].
  - assert (D : a <> b) by (intros E; apply (rms_zero a b N L) in E; lra). rewrite C23_value by assumption. cbn [elt].
    assert (Q : 20 * log10 (dr / dist a b) < q <-> error_of dr q < dist a b).
    { unfold log10, error_of. unfold Rdiv at 2. rewrite ln_mult, ln_Rinv by (try apply Rinv_0_lt_compat; assumption).
      rewrite <- (exp_ln (dist a b) P) at 2. rewrite <- (exp_ln dr Hd) at 2. rewrite <- exp_plus.
      set (x := ln (dist a b)). set (y := ln dr). set (t := ln 10) in *.
      assert (W : 20 * ((y + - x) / t) < q <-> y + - q * t / 20 < x).
      { split; intros H.
        - apply Rmult_lt_compat_r with (r := t) in H; [|exact T]. replace (20 * ((y + - x) / t) * t) with (20 * (y - x)) in H by (field; lra). lra.
        - apply Rmult_lt_reg_r with t; [exact T|]. replace (20 * ((y + - x) / t) * t) with (20 * (y - x)) by (field; lra). lra. }
      rewrite W. split; [apply exp_increasing|apply exp_lt_inv]. }
    rewrite Q. split; intros H; lra.
  - assert (E : a = b) by (apply (rms_zero a b N L); symmetry; exact Z). rewrite <- Z.
    assert (psnr dr a b = PInf) as -> by (apply C23_infinite_iff_identical; assumption). cbn [elt]. split; [lra|tauto].
Qed.

(** n steps of at least q dB each leave at least q - 20 log10 n dB. *)
Theorem C153_psnr : forall dr q m0 ms, 0 < dr -> m0 <> [] -> ms <> [] -> (forall m, In m ms -> length m = length m0) ->
  (forall s, In s (steps m0 ms) -> ~ elt (psnr dr (fst s) (snd s)) (Fin q)) ->
  ~ elt (psnr dr m0 (last ms m0)) (Fin (q - 20 * log10 (INR (length ms)))).
Proof.
  intros dr q m0 ms Hd N Nm H Hq. pose proof ln10_pos as T. assert (Ln : 0 < INR (length ms)) by (apply lt_0_INR; destruct ms; [contradiction|cbn; lia]).
  apply psnr_at_least; [exact Hd|exact N|symmetry; apply last_length, H|].
  apply Rle_trans with (INR (length ms) * error_of dr q).
  - apply Rle_trans with (1 := chain_upper m0 ms N H). rewrite <- (steps_length m0 ms), <- (Sum_const (error_of dr q)). apply Sum_le.
    intros s Hs. specialize (Hq s Hs). pose proof (steps_in m0 ms s Hs) as [A B].
    assert (L : length (fst s) = length m0) by (destruct A as [->|A]; [reflexivity|apply H, A]).
    apply (psnr_at_least dr (fst s) (snd s) q Hd); [intros E; rewrite E in L; destruct m0; [contradiction|discriminate]|rewrite L; symmetry; apply H, B|exact Hq].
  - right. unfold error_of, log10. replace (- (q - 20 * (ln (INR (length ms)) / ln 10)) * ln 10 / 20) with (ln (INR (length ms)) + - q * ln 10 / 20) by (field; lra).
    rewrite exp_plus, exp_ln by exact Ln. ring.
Qed.
Print Assumptions C153_psnr.

(** ** Both bounds are reached *)

(** A pixel that grows by t in every step *)
Definition ramp (t : R) (k n : nat) : list (list R) := map (fun i => [t * INR i]) (seq k n).

Lemma ramp_last t k n : last (ramp t (S k) n) [t * INR k] = [t * INR (k + n)].
Proof.
  revert k; induction n as [|n IH]; intros k; [rewrite Nat.add_0_r; reflexivity|]. unfold ramp. cbn [seq map]. rewrite last_cons.
  change (last (ramp t (S (S k)) n) [t * INR (S k)] = [t * INR (k + S n)]). rewrite IH. do 3 f_equal. lia.
Qed.

Lemma rmse_pixel x y : rmse [x] [y] = Fin (Rabs (x - y)).
Proof.
  rewrite rmse_fin by discriminate. f_equal. unfold MetricProofs.rms, Sum, rsum. cbn [combine map fold_right fst snd length INR].
  replace (_ / _) with (Rsqr (x - y)) by (unfold Rsqr; field). apply sqrt_Rsqr_abs.
Qed.

Lemma ramp_steps t k n s : 0 <= t -> In s (steps [t * INR k] (ramp t (S k) n)) -> rmse (fst s) (snd s) = Fin t.
Proof.
  intros Ht. revert k; induction n as [|n IH]; intros k H; [destruct H|]. destruct H as [<-|H]; [|apply (IH (S k)), H].
  cbn [fst snd]. rewrite rmse_pixel, S_INR. f_equal. replace (t * INR k - t * (INR k + 1)) with (- t) by ring. rewrite Rabs_Ropp. apply Rabs_pos_eq, Ht.
Qed.

Theorem C153_sharp : forall t n dr, 0 < t -> (0 < n)%nat -> 0 < dr -> exists m0 ms, length ms = n /\ m0 <> [] /\
  (forall m, In m ms -> length m = length m0) /\
  (forall s, In s (steps m0 ms) -> rmse (fst s) (snd s) = Fin t /\ psnr dr (fst s) (snd s) = Fin (20 * log10 (dr / t))) /\
  rmse m0 (last ms m0) = Fin (INR n * t) /\ psnr dr m0 (last ms m0) = Fin (20 * log10 (dr / t) - 20 * log10 (INR n)).
Proof.
  intros t n dr Ht Hn Hd. exists [t * INR 0], (ramp t 1 n). assert (Pn : 0 < INR n) by (apply lt_0_INR, Hn).
  split; [unfold ramp; rewrite map_length, seq_length; reflexivity|]. split; [discriminate|].
  assert (P : forall a b x, a <> [] -> length a = length b -> 0 < x -> rmse a b = Fin x -> psnr dr a b = Fin (20 * log10 (dr / x))).
  { intros a b x N L Hx E. rewrite rmse_fin in E by exact N. injection E as <-. apply C23_value; [exact Hd|exact N|exact L|].
    intros E. apply (rms_zero a b N L) in E. lra. }
  assert (One : forall m, In m (ramp t 1 n) -> length m = 1%nat) by (intros m Hm; apply in_map_iff in Hm as (i & <- & _); reflexivity).
  split; [exact One|]. split.
  - intros s Hs. assert (E : rmse (fst s) (snd s) = Fin t) by (apply (ramp_steps t 0 n); [lra|exact Hs]). split; [exact E|].
    pose proof (steps_in _ _ s Hs) as [A B]. assert (L : length (fst s) = 1%nat) by (destruct A as [->|A]; [reflexivity|apply One, A]).
    apply P; [intros F; rewrite F in L; discriminate|rewrite L; symmetry; apply One, B|exact Ht|exact E].
  - rewrite (ramp_last t 0 n), Nat.add_0_l. assert (E : rmse [t * INR 0] [t * INR n] = Fin (INR n * t)).
    { rewrite rmse_pixel. f_equal. cbn [INR]. replace (t * 0 - t * INR n) with (- (INR n * t)) by ring. rewrite Rabs_Ropp. apply Rabs_pos_eq. apply Rmult_le_pos; lra. }
    split; [exact E|]. rewrite (P _ _ (INR n * t)); [|discriminate|reflexivity|apply Rmult_lt_0_compat; assumption|exact E].
    f_equal. pose proof ln10_pos. unfold log10. rewrite <- Rmult_minus_distr_l. f_equal. unfold Rdiv. rewrite !ln_mult, !ln_Rinv, ln_mult by (try apply Rinv_0_lt_compat; try apply Rmult_lt_0_compat; assumption).
    field. lra.
Qed.
Print Assumptions C153_sharp.

(** Ten steps of 40 dB each leave at least 20 dB. *)
Example C153_example : forall dr m0 ms, 0 < dr -> m0 <> [] -> length ms = 10%nat -> (forall m, In m ms -> length m = length m0) ->
  (forall s, In s (steps m0 ms) -> ~ elt (psnr dr (fst s) (snd s)) (Fin 40)) -> ~ elt (psnr dr m0 (last ms m0)) (Fin 20).
Proof.
  intros dr m0 ms Hd N L H Hq. assert (E : 40 - 20 * log10 (INR (length ms)) = 20).
  { rewrite L. replace (INR 10) with 10 by (cbn; lra). unfold log10. field. pose proof ln10_pos. lra. }
  rewrite <- E. apply C153_psnr; try assumption. intros ->. discriminate.
Qed.
