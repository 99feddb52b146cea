(** The assertions of the test suite for all images: properties C139. *)
From Coq Require Import Reals Lra Lia String DecimalNat DecimalString.
From Verif Require Import Base NdArray LoadModel NormModel NormProofs PairModel RealSums MetricModel SliceModel MetricProofs MetricProps SsimModel SsimProofs SsimProps GsmModel
  MadModel FreqModel MadDetectProps RegionModel NrModel NrProofs NrExactProofs BatchModel BatchProofs PrintModel PrintProofs WarnModel WarnProps TupleModel TupleProps
  MessageModel MessageProps SuiteModel.
Local Open Scope nat_scope.

(** ** Finding a text *)

Lemma found_refl p : found p p.
Proof. exists ""%string, ""%string. cbn. induction p as [|c p IH]; cbn; congruence. Qed.
Lemma raises_same {A} (m : said A) e t : m = Fail e (Some t) -> raises m e t.
Proof. intros H. exists t. split; [exact H|apply found_refl]. Qed.

Fixpoint has (c : Ascii.ascii) (t : string) : bool :=
  match t with EmptyString => false | String d t => Ascii.eqb c d || has c t end.
Lemma has_app c a b : has c (a ++ b)%string = has c a || has c b.
Proof. induction a as [|d a IH]; cbn; [reflexivity|]. rewrite IH. apply orb_assoc. Qed.
Lemma found_has c p t : found p t -> has c p = true -> has c t = true.
Proof. intros (a & b & ->) H. rewrite !has_app, H. destruct (has c a); reflexivity. Qed.

(** The digits of a number. *)
Lemma uint_has u : has "I" (NilEmpty.string_of_uint u) = false.
Proof. induction u; cbn; auto. Qed.
Lemma show_has n : has "I" (show n) = false.
Proof. apply uint_has. Qed.

(** ** Constructors *)

Theorem C139_construct : forall c normalize kwargs, In c [CMAD; CFSIM; CPSNR; CSSIM] ->
  raises (construct_m c PNone normalize kwargs) ValueError "Parameter data_range must be set.".
Proof.
  intros c normalize kwargs H. apply raises_same. simpl in H. unfold construct_m.
  decompose [or] H; try contradiction; subst c; reflexivity.
Qed.
Print Assumptions C139_construct.

(** ** Images with four axes, or any number other than two and three *)

Lemma dims_texts disk ident ub im dr norm roi e t : length (shape im) <> 2 -> length (shape im) <> 3 ->
  load_data_m disk ident ub (InArray im) dr norm false roi = Fail e (Some t) -> has "I" t = false.
Proof.
  intros H2 H3 H. destruct (norm && match dr with None => true | _ => false end) eqn:E.
  - unfold load_data_m in H. rewrite E in H. injection H as _ <-. reflexivity.
  - assert (Hn : norm = true -> dr <> None) by (intros -> ->; discriminate E).
    destruct (C136_dims disk ident ub im dr norm roi Hn H2 H3) as [L _]. rewrite L in H.
    match type of H with Fail _ (Some ?x) = _ => assert (Q : t = x) by congruence end.
    rewrite Q, has_app, has_app, show_has. reflexivity.
Qed.
Lemma dims_fail disk ident ub im dr norm roi : length (shape im) <> 2 -> length (shape im) <> 3 ->
  exists e t, load_data_m disk ident ub (InArray im) dr norm false roi = Fail e (Some t).
Proof.
  intros H2 H3. destruct (norm && match dr with None => true | _ => false end) eqn:E.
  - unfold load_data_m. rewrite E. eauto.
  - assert (Hn : norm = true -> dr <> None) by (intros -> ->; discriminate E).
    destruct (C136_dims disk ident ub im dr norm roi Hn H2 H3) as [L _]. eauto.
Qed.

(** test_mad_score_with_random_data_4d and test_fsim_with_random_data_4d fail for all images, and with them every
    such test of the six metrics that score slices. *)
Theorem C139_axes : forall k disk ident ub im m dr norm roi chromatic d s,
  length (shape im) <> 2 -> length (shape im) <> 3 ->
  ~ raises (score_start k disk ident ub (InArray im) m dr norm roi chromatic d s) ValueError "Images must be 2D or 3D.".
Proof.
  intros k disk ident ub im m dr norm roi chromatic d s H2 H3 (t & H & F).
  destruct (dims_fail disk ident ub im dr norm roi H2 H3) as (e' & t' & L).
  unfold score_start, check_imgs_m in H. rewrite L in H. cbn [sbind] in H. injection H as -> ->.
  apply dims_texts in L; [|assumption..]. apply (found_has "I") in F; [congruence|reflexivity].
Qed.
Print Assumptions C139_axes.

(** test_cnr_not_2d_or_3d and test_snr_not_2d_or_3d fail too: the text does not exist. *)
Theorem C139_axes_nr : forall X disk ident ub im dr norm roi (rest : loaded -> said X),
  length (shape im) <> 2 -> length (shape im) <> 3 ->
  ~ raises (nr_score_m disk ident ub (InArray im) dr norm roi rest) ValueError "Image has to be either 2D or 3D." /\
  (norm = false \/ dr <> None ->
   raises (nr_score_m disk ident ub (InArray im) dr norm roi rest) ValueError
     ("Number of dimensions of input image should be 2 or 3, got " ++ show (length (shape im)) ++ ".")).
Proof.
  intros X disk ident ub im dr norm roi rest H2 H3. split.
  - intros (t & H & F). destruct (dims_fail disk ident ub im dr norm roi H2 H3) as (e' & t' & L).
    unfold nr_score_m in H. rewrite L in H. cbn [sbind] in H. injection H as -> ->.
    apply dims_texts in L; [|assumption..]. apply (found_has "I") in F; [congruence|reflexivity].
  - intros Hn. apply raises_same. unfold nr_score_m.
    destruct (C136_dims disk ident ub im dr norm roi) as [-> _]; try assumption; [|reflexivity].
    intros ->. destruct Hn; [discriminate|assumption].
Qed.
Print Assumptions C139_axes_nr.

(** ** Volumes *)

Lemma start_refused k disk ident ub r m dr norm roi chromatic d s r0 m0 t :
  check_imgs_m disk ident ub r m dr norm roi chromatic = Good (r0, m0) -> snd (choose k (o_shape r0) d s) = Refused t ->
  score_start k disk ident ub r m dr norm roi chromatic d s = Fail ValueError (Some t).
Proof. intros E C. unfold score_start. rewrite E. cbn [sbind fst]. rewrite C. reflexivity. Qed.

(** Neither dim nor im_slice: test_fsim_3d passes, test_mad_score_3d fails, for all volumes. *)
Theorem C139_no_dim : forall disk ident ub r m dr norm roi chromatic r0 m0 a b c,
  check_imgs_m disk ident ub r m dr norm roi chromatic = Good (r0, m0) -> o_shape r0 = [a; b; c] -> c <> 3 ->
  raises (score_start WFSIM disk ident ub r m dr norm roi chromatic DANone SANone) ValueError
    "If images are 3D, dim and im_slice (optional) must be given." /\
  ~ raises (score_start WMAD disk ident ub r m dr norm roi chromatic DANone SANone) ValueError
      "If images are 3D, dim and im_slice (optional) must be given.".
Proof.
  intros disk ident ub r m dr norm roi chromatic r0 m0 a b c E Es Hc.
  assert (C : forall k, snd (choose k (o_shape r0) DANone SANone) = Refused (refusal k SANone)).
  { intros k. rewrite Es. unfold choose. cbn [length last Nat.eqb andb]. apply Nat.eqb_neq in Hc. rewrite Hc, andb_false_r. reflexivity. }
  split.
  - apply raises_same. apply (start_refused _ _ _ _ _ _ _ _ _ _ _ _ _ _ _ E). apply C.
  - intros (t & H & F). rewrite (start_refused _ _ _ _ _ _ _ _ _ _ _ _ _ _ _ E (C WMAD)) in H. injection H as <-.
    apply (found_has "(") in F; [discriminate F|reflexivity].
Qed.
Print Assumptions C139_no_dim.

(** An axis other than 0, 1, 2 with a slice: test_mad_score_3d_dim3_slice64, test_fsim_3d_dim3_slice64. *)
Theorem C139_dim : forall k disk ident ub r m dr norm roi chromatic r0 m0 a b c z i,
  check_imgs_m disk ident ub r m dr norm roi chromatic = Good (r0, m0) -> o_shape r0 = [a; b; c] -> c <> 3 ->
  (z < 0 \/ 2 < z)%Z ->
  raises (score_start k disk ident ub r m dr norm roi chromatic (DANum z) (SAInt i)) ValueError
    "Invalid dim value. Must be integer of 0, 1 or 2.".
Proof.
  intros k disk ident ub r m dr norm roi chromatic r0 m0 a b c z i E Es Hc Hz. apply raises_same.
  apply (start_refused _ _ _ _ _ _ _ _ _ _ _ _ _ _ _ E). rewrite Es. unfold choose. cbn [length last Nat.eqb andb].
  apply Nat.eqb_neq in Hc. rewrite Hc, andb_false_r. cbn [negb].
  destruct z as [|[p|p|]|p]; try reflexivity; try lia. destruct p; try reflexivity; lia.
Qed.
Print Assumptions C139_dim.

(** The warning for planes: any slice other than 0, whatever the axis. *)
Theorem C139_ignored : forall k a b d i, i <> 0%Z -> fst (choose k [a; b] d (SAInt i)) = [w_ignored].
Proof.
  intros k a b d i H. unfold choose. cbn [length Nat.eqb andb orb]. cbn [slice_truth].
  destruct (Z.eqb_spec i 0); [contradiction|]. cbn [negb]. rewrite orb_true_r. reflexivity.
Qed.
Print Assumptions C139_ignored.

(** ** Centres and radii *)

Theorem C139_centers : forall mk img kind (x : R) sc bc rest,
  Forall (away x) sc -> Forall (away x) bc ->
  (* a coordinate that is no integer, in the first place or after good ones *)
  (forall rad, radius_of rad = Some x ->
     raises (cnr_m mk img (bc ++ COther :: rest) sc rad kind) TypeError "Background center has to be a tuple of integers." /\
     raises (cnr_m mk img bc (sc ++ COther :: rest) rad kind) TypeError "Signal center has to be a tuple of integers." /\
     raises (snr_m mk img (sc ++ COther :: rest) rad kind) TypeError "Center has to be a tuple of integers." /\
     (* too close *)
     (forall z, (IZR (Z.abs z) < x)%R ->
        raises (cnr_m mk img (bc ++ CInt z :: rest) sc rad kind) ValueError
          "Background center has to be at least the radius away from the border." /\
        raises (cnr_m mk img bc (sc ++ CInt z :: rest) rad kind) ValueError
          "Signal center has to be at least the radius away from the border." /\
        raises (snr_m mk img (sc ++ CInt z :: rest) rad kind) ValueError
          "Center has to be at least the radius away from the border.")) /\
  (* a radius that is no integer *)
  raises (cnr_m mk img bc sc (RReal x) kind) TypeError "Radius has to be an integer." /\
  raises (snr_m mk img sc (RReal x) kind) TypeError "Radius has to be a positive integer.".
Proof.
  intros mk img kind x sc bc rest Hs Hb. split; [|split].
  - intros rad Hr. pose proof (C136_cnr mk img sc (bc ++ COther :: rest) rad kind x Hr) as (_ & _ & A & _).
    pose proof (C136_cnr mk img (sc ++ COther :: rest) bc rad kind x Hr) as (B & _).
    pose proof (C136_snr mk img (sc ++ COther :: rest) rad kind x Hr) as (C & _).
    split; [apply raises_same; eapply A; eauto|]. split; [apply raises_same; eapply B; eauto|].
    split; [apply raises_same; eapply C; eauto|]. intros z Hz.
    pose proof (C136_cnr mk img sc (bc ++ CInt z :: rest) rad kind x Hr) as (_ & _ & _ & A' & _).
    pose proof (C136_cnr mk img (sc ++ CInt z :: rest) bc rad kind x Hr) as (_ & B' & _).
    pose proof (C136_snr mk img (sc ++ CInt z :: rest) rad kind x Hr) as (_ & C' & _).
    split; [apply raises_same; eapply A'; eauto|]. split; [apply raises_same; eapply B'; eauto|].
    apply raises_same; eapply C'; eauto.
  - apply raises_same. apply (C136_cnr mk img sc bc (RReal x) kind x eq_refl); [assumption..|]. intros r H. discriminate H.
  - apply raises_same. apply (C136_snr mk img sc (RReal x) kind x eq_refl); [assumption..|]. intros r H. discriminate H.
Qed.
Print Assumptions C139_centers.

(** ** Regions *)

(** Signal and background in the same place: CNR 0. So test_cnr_with_different_regions_2d only asks whether the first
    score is other than 0. *)
Theorem C139_same_region : forall mk r, values r <> [] -> cnr_value mk r r = Fin 0.
Proof.
  intros mk r H. unfold cnr_value. destruct (values r) as [|v l]; [contradiction|].
  destruct (is_zero _); [reflexivity|]. f_equal. unfold Rdiv. rewrite Rminus_diag_eq by reflexivity. apply Rmult_0_l.
Qed.
Print Assumptions C139_same_region.

(** A constant background, e.g. an image of zeros: CNR 0, SNR 0. *)
Theorem C139_flat : forall mk s b c, values b <> [] -> (forall x, In x (values b) -> x = c) ->
  cnr_value mk s b = Fin 0 /\ snr_value mk b = Fin 0.
Proof.
  intros mk s b c H Hc. unfold cnr_value, snr_value. destruct (values b) as [|v l]; [contradiction|].
  assert (Z : is_zero (std0 (v :: l)) = true).
  { apply is_zero_iff. apply (std0_constant (v :: l) c); [exact Hc|discriminate]. }
  rewrite Z. split; reflexivity.
Qed.
Print Assumptions C139_flat.

(** ** Printing *)

Lemma length_app a b : String.length (a ++ b) = String.length a + String.length b.
Proof. induction a as [|c a IH]; cbn; [reflexivity|]. rewrite IH. reflexivity. Qed.

Lemma uint_length u : String.length (NilEmpty.string_of_uint u) = Decimal.nb_digits u.
Proof. induction u; cbn; congruence. Qed.
Lemma show_small : forall n, n < 100 -> String.length (show n) = if n <? 10 then 1 else 2.
Proof.
  assert (H : forallb (fun n => String.length (show n) =? (if n <? 10 then 1 else 2)) (seq 0 100) = true) by (vm_compute; reflexivity).
  intros n Hn. rewrite forallb_forall in H. apply Nat.eqb_eq. apply H. apply in_seq. lia.
Qed.
Lemma of_uint_small u : Decimal.nb_digits u <= 2 -> Nat.of_uint u < 100.
Proof.
  intros H. destruct u as [|u|u|u|u|u|u|u|u|u|u]; cbn in H; try (cbn; lia);
    destruct u as [|u|u|u|u|u|u|u|u|u|u]; cbn in H; try (cbn; lia); destruct u; cbn in H; try lia; cbn; lia.
Qed.
Lemma show_large n : 100 <= n -> 3 <= String.length (show n).
Proof.
  intros H. destruct (le_lt_dec 3 (String.length (show n))) as [L|L]; [exact L|exfalso].
  unfold show in L. rewrite uint_length in L. assert (Q := of_uint_small (Nat.to_uint n) ltac:(lia)).
  rewrite DecimalNat.Unsigned.of_to in Q. lia.
Qed.

Lemma hundredths_length k : String.length (hundredths k) = 4 <->
  (k / 100 < 10 /\ k mod 10 <> 0) \/ (10 <= k / 100 < 100 /\ k mod 10 = 0).
Proof.
  unfold hundredths. rewrite !length_app. cbn [String.length].
  assert (M : k mod 100 < 100) by (apply Nat.mod_upper_bound; lia).
  assert (D : String.length (if k mod 10 =? 0 then show (k mod 100 / 10) else pad 2 (k mod 100)) = if k mod 10 =? 0 then 1 else 2).
  { destruct (k mod 10 =? 0).
    - assert (k mod 100 / 10 < 10) by (apply Nat.div_lt_upper_bound; lia). rewrite show_small by lia.
      destruct (Nat.ltb_spec (k mod 100 / 10) 10); [reflexivity|lia].
    - cbn [pad]. rewrite !length_app. cbn [String.length].
      assert (A : forall j, String.length (show (j mod 10)) = 1).
      { intros j. assert (j mod 10 < 10) by (apply Nat.mod_upper_bound; lia). rewrite show_small by lia.
        destruct (Nat.ltb_spec (j mod 10) 10); [reflexivity|lia]. }
      rewrite !A. reflexivity. }
  rewrite D. clear D.
  destruct (le_lt_dec 100 (k / 100)) as [L|L].
  - pose proof (show_large _ L). split; intros Q; [destruct (k mod 10 =? 0); lia|lia].
  - rewrite show_small by exact L. destruct (Nat.ltb_spec (k / 100) 10); destruct (Nat.eqb_spec (k mod 10) 0); split; lia.
Qed.

(** The line printed with two decimals has four characters after the name (as in 0.58 or 12.5) exactly for these scores. *)
Theorem C139_length : forall str_num c ps nm v, python_text str_num -> (0 <= v < 10 ^ 12)%R ->
  let out := captured (fst (print_score str_num (Metric c ps (SNum (Fin v)) nm) 2)) in
  let k := rint (v * 100) in
  String.length out = String.length (printed_name c) + 7 <->
  ((k < 1000 /\ k mod 10 <> 0) \/ (1000 <= k < 10000 /\ k mod 10 = 0))%Z.
Proof.
  intros str_num c ps nm v [Ht _] Hv. cbn zeta. unfold print_score. cbn [m_score m_class fst captured map].
  unfold captured. cbn [map String.concat]. set (k := rint (v * 100)).
  assert (K0 : (0 <= k)%Z) by (apply rint_nonneg; lra).
  assert (K1 : (k < 10 ^ 15)%Z).
  { apply lt_IZR. pose proof (rint_half (v * 100)) as Q. fold k in Q. apply Rabs_le_inv in Q.
    assert (X : (IZR (10 ^ 15) = 1000 * 10 ^ 12)%R) by (cbn; lra). rewrite X. lra. }
  assert (E : np_round_ext 2 (Fin v) = Fin (INR (Z.to_nat k) / 100)).
  { cbn [np_round_ext]. unfold np_round. cbn [Z.leb Z.compare]. change (Z.to_nat 2) with 2. cbn [pow].
    replace (v * (10 * (10 * 1)))%R with (v * 100)%R by lra. fold k. rewrite INR_IZR_INZ, Z2Nat.id by exact K0. f_equal. lra. }
  rewrite E, Ht by (rewrite Z2Nat.id; assumption).
  rewrite !length_app. change (String.length ": ") with 2. change (String.length newline) with 1.
  assert (H := hundredths_length (Z.to_nat k)).
  assert (M : Z.to_nat k mod 10 = Z.to_nat (k mod 10)%Z).
  { apply Nat2Z.inj. rewrite Nat2Z.inj_mod, !Z2Nat.id; [reflexivity| |assumption]. apply Z.mod_pos_bound. lia. }
  assert (D : Z.to_nat k / 100 = Z.to_nat (k / 100)%Z).
  { apply Nat2Z.inj. rewrite Nat2Z.inj_div, !Z2Nat.id; [reflexivity| |assumption]. apply Z.div_pos; lia. }
  rewrite M, D in H. assert (B := Z.mod_pos_bound k 10 ltac:(lia)).
  assert (DM := Z.div_mod k 100 ltac:(lia)). assert (B2 := Z.mod_pos_bound k 100 ltac:(lia)).
  split; intros Q.
  - assert (Q4 : String.length (hundredths (Z.to_nat k)) = 4) by lia. apply H in Q4. lia.
  - assert (Q4 : String.length (hundredths (Z.to_nat k)) = 4) by (apply H; lia). lia.
Qed.
Print Assumptions C139_length.

(** 'CNR: 0' is not what is printed for a score 0, but 'CNR: 0.0' (test_cnr_print_score_with_calculating_score fails);
    'MAD: 0.0', 'RMSE: 0.0' are right; 'PSNR: inf' too. *)
Theorem C139_zero : forall str_num c ps nm, python_text str_num ->
  captured (fst (print_score str_num (Metric c ps (SNum (Fin 0)) nm) 2)) = (printed_name c ++ ": 0.0" ++ newline)%string /\
  captured (fst (print_score str_num (Metric c ps (SNum (Fin 0)) nm) 2)) <> (printed_name c ++ ": 0" ++ newline)%string /\
  captured (fst (print_score str_num (Metric c ps (SNum PInf) nm) 2)) = (printed_name c ++ ": inf" ++ newline)%string.
Proof.
  intros str_num c ps nm [Ht Hi].
  assert (E : np_round_ext 2 (Fin 0) = Fin (INR 0 / 100)).
  { cbn [np_round_ext]. unfold np_round. cbn [Z.leb Z.compare]. rewrite Rmult_0_l, (rint_IZR 0). f_equal. cbn [INR]. unfold Rdiv. lra. }
  assert (P : forall a b d : string, ((a ++ b) ++ d = a ++ (b ++ d))%string).
  { intros a b d. induction a as [|x a IH]; cbn; congruence. }
  split; [|split].
  - unfold print_score. cbn [m_score m_class fst]. rewrite E, Ht by reflexivity. destruct c; reflexivity.
  - unfold print_score. cbn [m_score m_class fst]. rewrite E, Ht by reflexivity. destruct c; vm_compute; discriminate.
  - unfold print_score. cbn [m_score m_class fst np_round_ext]. rewrite Hi. destruct c; reflexivity.
Qed.
Print Assumptions C139_zero.

(** 'SNR: 0' is not printed for any image: [C137_print]. The comparison [score == 0.0] of the tests is false for every
    grey image, so that the test on zeros fails, and [score != 0] is true for every one, so that those tests check nothing. *)
Theorem C139_snr : forall i v d x,
  (let* a := held_eq (HPair i v d) (HNum false x) in truth a) = Ok false /\
  (let* a := held_ne (HPair i v d) (HNum false x) in truth a) = Ok true.
Proof. intros i v d x. destruct (C137_number i v d x OLt) as (-> & _ & -> & _). split; reflexivity. Qed.
Print Assumptions C139_snr.

(** ** Values *)

Lemma rms_const (a b : R) n : 0 < n -> MetricProofs.rms (repeat a n) (repeat b n) = Rabs (a - b).
Proof.
  intros H. unfold MetricProofs.rms. rewrite repeat_length.
  assert (S : Sum (fun p => (fst p - snd p) * (fst p - snd p))%R (combine (repeat a n) (repeat b n)) = (INR n * ((a - b) * (a - b)))%R).
  { clear H. induction n as [|n IH]; [unfold Sum; cbn; lra|]. rewrite S_INR. unfold Sum, rsum in *. cbn [repeat combine map fold_right fst snd] in *. rewrite IH. lra. }
  rewrite S. replace (INR n * ((a - b) * (a - b)) / INR n)%R with ((a - b) * (a - b))%R by (field; apply not_0_INR; lia).
  apply sqrt_Rsqr_abs.
Qed.
Lemma repeat_ne (a b : R) n : 0 < n -> a <> b -> repeat a n <> repeat b n.
Proof. intros H N. destruct n as [|n]; [lia|]. cbn. congruence. Qed.

(** PSNR of any image and itself is infinite; of zeros and ones it is 20 log10 of the data range, so 0 for 1. *)
Theorem C139_psnr : forall (d : R) n l, (0 < d)%R -> 0 < n -> l <> [] ->
  psnr d l l = PInf /\ psnr d (repeat 0%R n) (repeat 1%R n) = Fin (20 * log10 d) /\ psnr 1 (repeat 0%R n) (repeat 1%R n) = Fin 0.
Proof.
  intros d n l Hd Hn Hl. split; [apply C23_infinite_iff_identical; auto|].
  assert (V : forall e : R, (0 < e)%R -> psnr e (repeat 0%R n) (repeat 1%R n) = Fin (20 * log10 e)).
  { intros e He. rewrite C23_value; [|exact He|destruct n; [lia|discriminate]|rewrite !repeat_length; reflexivity|apply repeat_ne; [exact Hn|lra]].
    rewrite rms_const by exact Hn. rewrite Rabs_left by lra. do 3 f_equal. field. }
  split; [apply V, Hd|]. rewrite V by lra. rewrite log10_1. f_equal. lra.
Qed.
Print Assumptions C139_psnr.

Lemma psnr_255 : (48125 / 1000 < 20 * log10 255 < 48134 / 1000)%R.
Proof.
  assert (L10 := ln10_pos). unfold log10.
  assert (A : (77 * ln 10 < 16 * ln 65025)%R).
  { replace 77%R with (INR 77) by (rewrite INR_IZR_INZ; reflexivity). replace 16%R with (INR 16) by (rewrite INR_IZR_INZ; reflexivity).
    rewrite <- !ln_pow by lra. apply ln_increasing; [apply pow_lt; lra|].
    rewrite !pow_IZR. apply IZR_lt. vm_compute. reflexivity. }
  assert (B : (75 * ln 65025 < 361 * ln 10)%R).
  { replace 361%R with (INR 361) by (rewrite INR_IZR_INZ; reflexivity). replace 75%R with (INR 75) by (rewrite INR_IZR_INZ; reflexivity).
    rewrite <- !ln_pow by lra. apply ln_increasing; [apply pow_lt; lra|].
    rewrite !pow_IZR. apply IZR_lt. vm_compute. reflexivity. }
  assert (E : (ln 65025 = 2 * ln 255)%R).
  { replace 65025%R with (255 * 255)%R by lra. rewrite ln_mult by lra. lra. }
  rewrite E in A, B. split.
  - apply Rmult_lt_reg_r with (ln 10); [exact L10|]. unfold Rdiv. replace (20 * (ln 255 * / ln 10) * ln 10)%R with (20 * ln 255)%R by (field; lra). lra.
  - apply Rmult_lt_reg_r with (ln 10); [exact L10|]. unfold Rdiv. replace (20 * (ln 255 * / ln 10) * ln 10)%R with (20 * ln 255)%R by (field; lra). lra.
Qed.

(** With the default data range 255 the line has the 12 characters the test asks for. *)
Theorem C139_psnr_line : forall str_num n ps nm, python_text str_num -> 0 < n ->
  captured (fst (print_score str_num (Metric CPSNR ps (SNum (psnr 255 (repeat 0%R n) (repeat 1%R n))) nm) 2))
  = ("PSNR: 48.13" ++ newline)%string.
Proof.
  intros str_num n ps nm [Ht _] Hn. destruct (C139_psnr 255 n [0%R] ltac:(lra) Hn ltac:(discriminate)) as (_ & -> & _).
  assert (K : rint (20 * log10 255 * 100) = 4813%Z).
  { apply rint_unique. left. pose proof psnr_255. apply Rabs_def1; lra. }
  assert (E : np_round_ext 2 (Fin (20 * log10 255)) = Fin (INR 4813 / 100)).
  { cbn [np_round_ext]. unfold np_round. cbn [Z.leb Z.compare]. change (Z.to_nat 2) with 2. cbn [pow].
    replace (20 * log10 255 * (10 * (10 * 1)))%R with (20 * log10 255 * 100)%R by lra. rewrite K. rewrite (INR_IZR_INZ 4813).
    change (Z.of_nat 4813) with 4813%Z. f_equal. lra. }
  unfold print_score. cbn [m_score m_class fst]. rewrite E, Ht by (vm_compute; reflexivity). vm_compute. reflexivity.
Qed.
Print Assumptions C139_psnr_line.

(** RMSE of images with values from 0 to 1 is in [0, 1]; of constant images it is the difference. *)
Theorem C139_rmse : forall a b, a <> [] -> length a = length b ->
  (forall x, In x a -> 0 <= x <= 1)%R -> (forall x, In x b -> 0 <= x <= 1)%R ->
  exists v, rmse a b = Fin v /\ (0 <= v <= 1)%R.
Proof.
  intros a b Hn Hl Ha Hb. exists (MetricProofs.rms a b). split; [apply rmse_fin; assumption|]. split; [apply rms_nonneg|].
  apply C22_bounded; [assumption|assumption|lra|]. intros i x y Hx Hy. apply nth_error_In in Hx, Hy.
  specialize (Ha x Hx). specialize (Hb y Hy). apply Rabs_le. lra.
Qed.
Print Assumptions C139_rmse.

(** test_print_score_with_different_decimals of RMSE: the 11 characters depend on the random image. *)
Theorem C139_rmse_line_refuted : exists b, (forall x, In x b -> 0 <= x < 1)%R /\ b <> [] /\
  forall str_num ps nm, python_text str_num ->
  String.length (captured (fst (print_score str_num (Metric CRMSE ps (SNum (rmse (repeat 0%R (length b)) b)) nm) 2))) <> 11.
Proof.
  exists (repeat (1 / 2)%R 4). split; [|split; [discriminate|]].
  { intros x H. apply repeat_spec in H. lra. }
  intros str_num ps nm Ht. rewrite repeat_length.
  rewrite rmse_fin by discriminate. rewrite rms_const by lia.
  assert (V : Rabs (0 - 1 / 2) = (1 / 2)%R) by (rewrite Rabs_left; lra). rewrite V.
  intros L. apply (C139_length str_num CRMSE ps nm (1 / 2) Ht ltac:(lra)) in L.
  assert (K : rint (1 / 2 * 100) = 50%Z) by (replace (1 / 2 * 100)%R with (IZR 50) by lra; apply rint_IZR).
  rewrite K in L. vm_compute in L. intuition discriminate.
Qed.
Print Assumptions C139_rmse_line_refuted.

(** ** SSIM *)

(** Constant images of 0 and 1 with the default parameters, sides of at least 11: c / (1 + c) with c = (d / 100)^2. *)
Theorem C139_ssim : forall big s (d : R), s <> [] -> (forall n, In n s -> 11 <= n) -> 
  ssim_score big (KReal d) false (const_img s 0) (const_img s 1) None []
  = Ok (Fin (((d / 100) * (d / 100)) / (1 + (d / 100) * (d / 100)))).
Proof.
  intros big s d Hs H11. unfold ssim_score. rewrite merge_disjoint by (intros k _ []). cbn [bind app].
  set (kw := [("data_range", KReal d)]%string).
  assert (G : gauss_radius (15 / 10) = 5).
  { apply Nat2Z.inj. rewrite radius_spec by lra. replace (7 / 2 * (15 / 10) + 1 / 2)%R with (23 / 4)%R by lra.
    change (Z.of_nat 5) with 5%Z. apply NormProofs.Int_part_unique; lra. }
  assert (HP : exists P, ssim_setup s kw = Ok P /\ p_c1 P = ((1 / 100 * d) * (1 / 100 * d))%R /\ p_al P = Rtrunc 1).
  { unfold ssim_setup, kw. cbn [dget String.eqb Ascii.eqb Bool.eqb as_num flag win_arg bind].
    destruct (Rlt_dec (1 / 100) 0); [lra|]. destruct (Rlt_dec (3 / 100) 0); [lra|].
    destruct (Rlt_dec (15 / 10) 0); [lra|]. rewrite G.
    destruct (existsb _ s) eqn:E.
    { apply existsb_exists in E as (k & Hk & E). apply Z.ltb_lt in E. specialize (H11 k Hk). lia. }
    change ((2 * Z.of_nat 5 + 1) mod 2 =? 1)%Z with true. cbn [negb andb bind].
    change (mode_of "reflect") with (Some Reflect). cbn [bind from_opt].
    match goal with |- context [if ?c then Ok Reflect else Ok Reflect] => destruct c end; cbn [bind];
    eexists; (split; [reflexivity|]; split; reflexivity). }
  destruct HP as (P & HP & Hc1 & Hal).
  destruct (ssim_returns big (const_img s 0) (const_img s 1) kw P HP) as [e He].
  destruct (ssim_const big s 0 1 kw e He) as (P' & HP' & ->); [discriminate|reflexivity|].
  rewrite He. rewrite HP in HP'. injection HP' as <-. rewrite Hc1, Hal. change 1%R with (IZR 1) at 4. rewrite Rtrunc_IZR by lia.
  do 2 f_equal. unfold zpow, nan1. change (0 <=? 1)%Z with true. cbv iota. change (Z.to_nat 1) with 1%nat.
  replace (1 / 100 * d)%R with (d / 100)%R by lra. set (c := (d / 100)%R).
  assert (0 <= c * c)%R by apply Rle_0_sqr.
  destruct (Req_EM_T _ 0); [lra|]. cbn [pow]. field. lra.
Qed.
Print Assumptions C139_ssim.

(** ** MAD *)

(** Values from 0 to 1 and data range 1: MAD of two 128 x 128 images is 0, so that the tests with random images pass
    without testing anything. *)
Theorem C139_mad : forall monitor gabor junk junk3 ms lo beta_1 beta_2 t1 t2 r m, ms <> 0%R ->
  shp r = [128; 128] -> shp m = [128; 128] -> Forall (fun x => 0 <= x <= 1)%R (dat r) ->
  length (l_weights lo) = l_scales lo -> 0 < l_orient lo -> (0 < snd (betas beta_1 beta_2 t1 t2))%R ->
  most_apparent_distortion (csf_filter (cycles_per_degree monitor) (114/1000) (78909/10000)) gabor junk junk3 (package_lightness ms) lo 1
    16 (3 / 4) beta_1 beta_2 t1 t2 (MFloat r) (MFloat m) = Ok (Fin 0).
Proof.
  intros monitor gabor junk junk3 ms lo beta_1 beta_2 t1 t2 r m Hms Hr Hm Hu Hw Ho Hb.
  change 16%Z with (Z.of_nat (4 * 4)).
  eapply (C113_blind monitor gabor junk junk3 ms lo 4 beta_1 beta_2 t1 t2 (MFloat r) (MFloat m) 128); try assumption; try lia; try reflexivity.
Qed.
Print Assumptions C139_mad.

(** ** Examples *)

(** test_ssim_with_completely_different_images: within 1e-4 of 0. *)
Example ssim_zeros_ones : forall big, exists v,
  ssim_score big (KReal 1) false (const_img [256; 256] 0) (const_img [256; 256] 1) None [] = Ok (Fin v) /\ (Rabs v <= 1 / 10000)%R.
Proof.
  intros big. eexists. split; [apply C139_ssim; [discriminate|]|].
  - intros n [<-|[<-|[]]]; apply Nat.leb_le; vm_compute; reflexivity.
  - rewrite Rabs_right; lra.
Qed.
(** A volume of 2 x 2 x 2 zeros for MAD and FSIM. *)
Example no_dim_example : forall disk ident ub,
  let v := InArray (Img (Float 64) (NormModel.PF (Arr [2; 2; 2] (repeat 0%R 8)))) in
  score_start WMAD disk ident ub v v (Some 1%Z) false [] false DANone SANone
  = Fail ValueError (Some msg_slice_none).
Proof. reflexivity. Qed.
Example hundredths_example : hundredths 58 = "0.58"%string /\ hundredths 50 = "0.5"%string /\ hundredths 4813 = "48.13"%string /\
  hundredths 7 = "0.07"%string /\ hundredths 1200 = "12.0"%string.
Proof. vm_compute. repeat split. Qed.
(** The text 'Images must be 2D or 3D.' is found in itself, so that the refused tests are no accident of [found]. *)
Example found_example : found "2D or 3D." "Images must be 2D or 3D." /\ ~ found "2D or 3D." "got 4.".
Proof.
  split; [exists "Images must be "%string, ""%string; reflexivity|].
  intros F. apply (found_has "D") in F; [discriminate F|reflexivity].
Qed.
