(** C132: CNR and SNR in floating point arithmetic. *)
From Coq Require Import Reals Lra Lia Psatz Permutation.
From Verif Require Import Base NdArray LoadModel RealSums MetricModel GsmModel MadModel NrModel SsimRoundModel RoundProofs
  RmseRoundModel RmseRoundProofs RmseExactProofs NrRoundModel NrRoundProofs NrExactProofs NrProofs NrProps.
Open Scope R_scope.

(** ** Vocabulary *)

(** [t] adds the values of [l] in some order, in chains of at most [D] additions. *)
Definition adds_up (D : nat) (t : order) (l : list R) : Prop := Permutation (summands t) l /\ (levels t <= D)%nat.

(** D + 2 units of the last place *)
Definition units (f : format) (D : nat) : R := INR (D + 2) * pow2 (- prec f).

(** Numbers of the format whose squares do not overflow when they are added up *)
Definition no_overflow (f : format) (l : list R) : Prop :=
  (forall x, In x l -> store f x = Fin x) /\
  exists B, 1 <= B /\ (forall x, In x l -> Rabs x <= B) /\ 128 * (INR (length l) * (B * B)) < pow2 (emax f).
(** and whose deviation is large against the square root of the smallest number *)
Definition no_underflow (f : format) (D : nat) (l : list R) : Prop := 3 * sqrt (pow2 (emin f)) <= units f D * deviation l.

Lemma mean_abs l : lmean_abs l = mean (map Rabs l).
Proof. unfold lmean_abs. apply mean_eq. Qed.

Lemma snr_value_eq mk r v : values r <> [] -> deviation (values r) <> 0 -> snr_value mk r = Fin v -> v = mean (values r) / deviation (values r).
Proof.
  rewrite <- deviation_eq, <- mean_eq. unfold snr_value. destruct (values r) as [|x l]; [contradiction|]. intros _ D H.
  unfold is_zero in H. destruct (Req_EM_T _ 0); [contradiction|]. injection H as <-. reflexivity.
Qed.

Lemma cnr_value_eq mk s b v : values s <> [] -> values b <> [] -> deviation (values b) <> 0 -> cnr_value mk s b = Fin v ->
  v = (mean (values s) - mean (values b)) / deviation (values b).
Proof.
  rewrite <- deviation_eq, <- !mean_eq. unfold cnr_value. destruct (values b) as [|x l]; [contradiction|]. intros Ns _ D H.
  unfold is_zero in H. destruct (Req_EM_T _ 0); [contradiction|]. destruct (values s) as [|y q]; [contradiction|]. injection H as <-. reflexivity.
Qed.

Lemma adds_nonempty D t l : adds_up D t l -> l <> [].
Proof. intros [P _] ->. pose proof (summands_pos t) as N. rewrite (Permutation_length P) in N. cbn in N. lia. Qed.

(** ** Error *)

(** Every element type (see NrRoundModel for the exceptions), every region and every order of the additions (the three sums may use different ones): with
    K = mean |x| / deviation the score is finite and off by at most 16 (D + 2) units times (1 + K)^2. *)
Theorem C132_snr_error d mk r D tm t t' v : let f := stat_format d in let l := values r in let K := mean (map Rabs l) / deviation l in
  adds_up D tm l -> adds_up D t l -> adds_up D t' l -> no_overflow f l -> no_underflow f D l -> deviation l <> 0 ->
  12 * units f D * (1 + K) <= 1 -> snr_value mk r = Fin v ->
  exists w, snr_r f tm t t' = Fin w /\ Rabs (w - v) <= 16 * units f D * (1 + K) ^ 2.
Proof.
  intros f l K Om Ot Ot' [F (B & HB)] U Z C V. pose proof (snr_value_eq mk r v (adds_nonempty _ _ _ Om) Z V) as ->.
  fold l. rewrite <- deviation_eq in *. rewrite <- mean_eq. unfold K in *. rewrite <- mean_abs in *. rewrite <- ?deviation_eq in *.
  assert (Z0 : 0 < std0 l) by (pose proof (std0_nonneg l); lra).
  unfold no_underflow in U. rewrite <- deviation_eq in U.
  destruct (snr_close f D tm t t' l (fine_stat d) Om Ot Ot') as (w & Hw & E); [|exact Z0|exact C|].
  - split; [exact F|]. split; [exact U|]. exists B. exact HB.
  - exists w. split; [exact Hw|]. eapply Rle_trans; [exact E|]. apply Req_le. unfold units, noise, unit. ring.
Qed.
Print Assumptions C132_snr_error.

(** The same for CNR with K = (mean |signal| + mean |background|) / deviation. *)
Theorem C132_cnr_error d mk s b D ts tm t t' v : let f := stat_format d in let sg := values s in let bg := values b in
  let K := (mean (map Rabs sg) + mean (map Rabs bg)) / deviation bg in
  adds_up D ts sg -> adds_up D tm bg -> adds_up D t bg -> adds_up D t' bg -> no_overflow f sg -> no_overflow f bg -> no_underflow f D bg ->
  deviation bg <> 0 -> 12 * units f D * (1 + K) <= 1 -> cnr_value mk s b = Fin v ->
  exists w, cnr_r f ts tm t t' = Fin w /\ Rabs (w - v) <= 16 * units f D * (1 + K) ^ 2.
Proof.
  intros f sg bg K Os Om Ot Ot' Fs [F (B & HB)] U Z C V.
  pose proof (cnr_value_eq mk s b v (adds_nonempty _ _ _ Os) (adds_nonempty _ _ _ Om) Z V) as ->.
  fold sg bg. unfold no_underflow in U. rewrite <- deviation_eq in Z, U. unfold K in *. rewrite <- deviation_eq in C. rewrite <- !mean_abs in *. rewrite <- ?mean_eq, <- ?deviation_eq.
  assert (Z0 : 0 < std0 bg) by (pose proof (std0_nonneg bg); lra).
  destruct (cnr_close f D ts tm t t' sg bg (fine_stat d) Os Om Ot Ot') as (w & Hw & E); [|exact Fs|exact Z0|exact C|].
  - split; [exact F|]. split; [exact U|]. exists B. exact HB.
  - exists w. split; [exact Hw|]. eapply Rle_trans; [exact E|]. apply Req_le. unfold units, noise, unit. ring.
Qed.
Print Assumptions C132_cnr_error.

(** ** The test [np.std(...) == 0] *)

(** A constant region of the value k 2^e is recognised as constant when n |k| has at most as many digits as the type. *)
Theorem C132_constant d k e ts tm t t' : let f := stat_format d in
  (emin f <= e)%Z -> (prec f + e < emax f)%Z ->
  (forall x, In x (summands t) -> x = IZR k * pow2 e) -> (forall x, In x (summands t') -> x = IZR k * pow2 e) ->
  (Z.of_nat (length (summands t)) * Z.abs k <= 2 ^ prec f)%Z ->
  std_r f t t' = Fin 0 /\ snr_r f tm t t' = Fin 0 /\ cnr_r f ts tm t t' = Fin 0.
Proof.
  intros f He Hx C C' S. pose proof (fine_stat d) as [W _]. fold f in W.
  assert (E : std_r f t t' = Fin 0) by (apply (std_same f t t' (IZR k * pow2 e)); [apply mean_constant; assumption|exact C']).
  split; [exact E|]. unfold snr_r, cnr_r. rewrite E. cbn [ext_eqb]. destruct (Req_EM_T 0 0); [auto|contradiction].
Qed.
Print Assumptions C132_constant.

(** Integer images and double precision images of whole numbers with a total of at most 2^53: the test succeeds exactly for
    constant regions, as with exact numbers. *)
Theorem C132_test d D t t' l : stat_format d = binary64 -> adds_up D t l -> adds_up D t' l ->
  (forall x, In x l -> exists k, x = IZR k) -> fold_right Rplus 0 (map Rabs l) <= pow2 53 -> (Z.of_nat (length l) <= 2 ^ 53)%Z ->
  std_r (stat_format d) t t' = Fin 0 <-> deviation l = 0.
Proof.
  intros -> [P _] [P' _] H S L. rewrite <- deviation_eq. pose proof fine64 as Hf.
  assert (NE : l <> []) by (intros ->; pose proof (summands_pos t) as N; rewrite (Permutation_length P) in N; cbn in N; lia).
  assert (N0 : 1 <= INR (length l)) by (apply (le_INR 1); destruct l; [contradiction|cbn; lia]).
  destruct (constant_or l) as [(c & C)|(a & b & Ha & Hb & N)].
  - split; [intros _; apply (std0_constant l c C NE)|]. intros _. assert (exists x, In x l) as (x & Hx) by (destruct l; [contradiction|eexists; left; reflexivity]).
    destruct (H x Hx) as (k & E). rewrite (C x Hx) in E. subst c.
    assert (CP : forall q, Permutation q l -> constant q (IZR k * pow2 0)) by (intros q Hq y Hy; rewrite pow2_0, Rmult_1_r; apply C, (Permutation_in _ Hq), Hy).
    apply (std_same _ t t' (IZR k * pow2 0)); [|apply CP, P']. apply mean_constant; [apply wide64|cbn; lia|cbn; lia|apply CP, P|].
    rewrite (Permutation_length P). apply le_IZR. rewrite mult_IZR, <- INR_IZR_INZ, abs_IZR. cbn [prec binary64]. rewrite <- pow2_Z by lia.
    eapply Rle_trans; [|exact S]. apply Req_le. clear - C. induction l as [|y l IH]; [cbn; ring|]. cbn [map fold_right length]. rewrite S_INR.
    rewrite <- IH by (intros z Hz; apply C; right; exact Hz). rewrite (C y) by (left; reflexivity). ring.
  - split.
    + intros E. exfalso. destruct (wholes_mean binary64 t Hf) as (m & Hm).
      * intros x Hx. apply H, (Permutation_in _ P), Hx.
      * unfold total_abs. rewrite (Rsum_perm _ _ (Permutation_map Rabs P)). exact S.
      * revert E. apply (std_nonconstant binary64 t t' m a b Hf); try assumption.
        -- intros x Hx. apply H, (Permutation_in _ P'), Hx.
        -- apply (Permutation_in _ (Permutation_sym P')), Ha.
        -- apply (Permutation_in _ (Permutation_sym P')), Hb.
        -- rewrite (Permutation_length P'). exact L.
        -- cbn. lia.
    + intros E. pose proof (std0_ge l a b H Ha Hb N) as G. rewrite E, !Rmult_0_r in G. lra.
Qed.
Print Assumptions C132_test.

(** ** 16-bit images *)
Definition pixels16 (l : list R) : Prop := forall x, In x l -> exists k, x = IZR k /\ (0 <= k < 2 ^ 16)%Z.

Lemma pow2_val z k : (0 <= z)%Z -> (2 ^ z)%Z = k -> pow2 z = IZR k.
Proof. intros H <-. apply pow2_Z, H. Qed.
Lemma pow2_neg z k : (0 <= z)%Z -> (2 ^ z)%Z = k -> pow2 (- z) = / IZR k.
Proof. intros H <-. rewrite pow2_opp, pow2_Z by exact H. reflexivity. Qed.

Lemma pow2_lit p k : (2 ^ Z.pos p)%Z = k -> pow2 (Z.neg p) = / IZR k.
Proof. intros <-. change (Z.neg p) with (Z.opp (Z.pos p)). apply pow2_neg; [lia|reflexivity]. Qed.

Lemma pixels16_abs l : pixels16 l -> mean (map Rabs l) = mean l.
Proof.
  intros H. f_equal. rewrite <- (map_id l) at 2. apply map_ext_in. intros x Hx. destruct (H x Hx) as (k & -> & K). apply Rabs_right, Rle_ge, (IZR_le 0). lia.
Qed.

Lemma pixels16_mean l : pixels16 l -> l <> [] -> 0 <= mean l <= 65536.
Proof.
  intros H N. assert (N0 : 0 < INR (length l)) by (apply lt_0_INR; destruct l; [contradiction|cbn; lia]). rewrite <- mean_eq, <- Rsum_lmean.
  assert (B : forall x, In x l -> 0 <= x <= 65536) by (intros x Hx; destruct (H x Hx) as (k & -> & K); split; [apply (IZR_le 0)|apply IZR_le]; lia).
  split.
  - apply Rmult_le_pos; [apply Rsum_nonneg; intros x Hx; apply B, Hx|left; apply Rinv_0_lt_compat, N0].
  - apply Rmult_le_reg_r with (INR (length l)); [exact N0|]. unfold Rdiv. rewrite Rmult_assoc, Rinv_l, Rmult_1_r by lra.
    pose proof (Rsum_le_n (fun x => x) 65536 l (fun x Hx => proj2 (B x Hx))) as S. rewrite map_id in S. lra.
Qed.

Lemma pixels16_fits l : pixels16 l -> (Z.of_nat (length l) <= 2 ^ 20)%Z -> no_overflow binary64 l.
Proof.
  intros H L. split.
  - intros x Hx. destruct (H x Hx) as (k & -> & K). apply store_int; cbn [prec emin emax binary64]; lia.
  - exists 65536. split; [lra|]. split.
    + intros x Hx. destruct (H x Hx) as (k & -> & K). rewrite <- abs_IZR. apply IZR_le. lia.
    + apply IZR_le in L. rewrite <- INR_IZR_INZ in L. change (2 ^ 20)%Z with 1048576%Z in L. cbn [emax binary64].
      apply Rlt_le_trans with (pow2 60); [|apply pow2_le; lia]. rewrite (pow2_val 60 1152921504606846976) by (lia || reflexivity). lra.
Qed.

Lemma pixels16_deviation l : pixels16 l -> (Z.of_nat (length l) <= 2 ^ 20)%Z -> deviation l <> 0 -> / 2048 <= deviation l.
Proof.
  intros H L Z. rewrite <- deviation_eq in *. destruct (constant_or l) as [(c & C)|(a & b & Ha & Hb & N)].
  - exfalso. destruct l as [|x l]; [|apply Z, (std0_constant _ c C); discriminate].
    apply Z. unfold std0, dev, Sum. cbn. unfold Rdiv. rewrite Rmult_0_l. apply sqrt_0.
  - assert (W : wholes l) by (intros x Hx; destruct (H x Hx) as (k & E & _); eauto). pose proof (std0_ge l a b W Ha Hb N) as G.
    apply IZR_le in L. rewrite <- INR_IZR_INZ in L. change (2 ^ 20)%Z with 1048576%Z in L. pose proof (std0_nonneg l) as S0.
    destruct (Rle_lt_dec (/ 2048) (std0 l)) as [|C]; [assumption|]. exfalso.
    assert (Q : std0 l * std0 l <= / 2048 * std0 l) by (apply Rmult_le_compat_r; lra).
    assert (Q2 : INR (length l) * (std0 l * std0 l) <= 1048576 * (std0 l * std0 l)) by (apply Rmult_le_compat_r; [apply Rmult_le_pos|]; lra).
    assert (/ 2048 * std0 l < / 2048 * / 2048) by (apply Rmult_lt_compat_l; lra). lra.
Qed.

Lemma pixels16_underflow D l : pixels16 l -> (Z.of_nat (length l) <= 2 ^ 20)%Z -> deviation l <> 0 -> no_underflow binary64 D l.
Proof.
  intros H L Z. pose proof (pixels16_deviation l H L Z) as S. unfold no_underflow, units. cbn [prec emin binary64].
  assert (S1 : sqrt (pow2 (-1074)) <= pow2 (- 100)).
  { rewrite <- (sqrt_square (pow2 (- 100))) by (left; apply pow2_pos). apply sqrt_le_1_alt. rewrite <- pow2_plus. apply pow2_le. lia. }
  assert (S2 : pow2 (- 100) <= pow2 (- 70)) by (apply pow2_le; lia). rewrite (pow2_lit 70 1180591620717411303424) in S2 by (lia || reflexivity).
  rewrite (pow2_neg 53 9007199254740992) by (lia || reflexivity).
  assert (I : 2 <= INR (D + 2)) by (apply (le_INR 2); lia).
  apply Rle_trans with (2 * / 9007199254740992 * / 2048); [lra|]. apply Rmult_le_compat; try lra.
Qed.

(** Regions of up to 2^20 voxels of an unsigned 8 or 16-bit image, any order of the additions: SNR is finite and its error
    is at most (n + 2) 2^-49 (1 + SNR)^2; no other assumption. *)
Theorem C132_16_bit_snr d mk r tm t t' : let l := values r in
  stat_format d = binary64 -> pixels16 l -> (Z.of_nat (length l) <= 2 ^ 20)%Z ->
  Permutation (summands tm) l -> Permutation (summands t) l -> Permutation (summands t') l ->
  exists v w, snr_value mk r = Fin v /\ snr_r (stat_format d) tm t t' = Fin w /\ 0 <= v /\
    Rabs (w - v) <= INR (length l + 2) * pow2 (- 49) * (1 + v) ^ 2.
Proof.
  intros l Hd H L Pm P P'.
  assert (O : forall q, Permutation (summands q) l -> adds_up (length l) q l).
  { intros q Hq. split; [exact Hq|]. rewrite <- (Permutation_length Hq). pose proof (levels_lt q). lia. }
  pose proof (adds_nonempty _ _ _ (O t P)) as NE. pose proof (pixels16_mean l H NE) as M.
  assert (LR : INR (length l) <= 1048576) by (apply IZR_le in L; rewrite <- INR_IZR_INZ in L; exact L). pose proof (pos_INR (length l)) as L0.
  destruct (Req_EM_T (deviation l) 0) as [Z|Z].
  - exists 0, 0. assert (V : snr_value mk r = Fin 0).
    { unfold snr_value. fold l. rewrite <- deviation_eq in Z. destruct l as [|x q]; [contradiction|]. unfold is_zero. destruct (Req_EM_T _ 0); [reflexivity|contradiction]. }
    split; [exact V|]. assert (S : std_r (stat_format d) t t' = Fin 0).
    { apply (C132_test d (length l) t t' l Hd (O t P) (O t' P')); [| |lia|exact Z].
      - intros x Hx. destruct (H x Hx) as (k & E & _). eauto.
      - pose proof (Rsum_le_n Rabs 65536 l) as B. unfold Rsum in B. rewrite (pow2_val 53 9007199254740992) by (lia || reflexivity).
        eapply Rle_trans; [apply B|lra]. intros x Hx. destruct (H x Hx) as (k & -> & K). rewrite <- abs_IZR. apply IZR_le. lia. }
    split; [unfold snr_r; rewrite S; cbn [ext_eqb]; destruct (Req_EM_T 0 0); [reflexivity|contradiction]|]. split; [lra|].
    rewrite Rminus_0_r, Rabs_R0. apply Rmult_le_pos; [apply Rmult_le_pos; [apply pos_INR|left; apply pow2_pos]|]. rewrite Rplus_0_r, pow1. lra.
  - pose proof (pixels16_deviation l H L Z) as S.
    assert (V : snr_value mk r = Fin (mean l / deviation l)).
    { unfold snr_value. fold l. rewrite <- deviation_eq, <- mean_eq in *. destruct l as [|x q]; [contradiction|]. unfold is_zero. destruct (Req_EM_T _ 0); [contradiction|reflexivity]. }
    assert (K0 : 0 <= mean l / deviation l) by (apply Rmult_le_pos; [lra|left; apply Rinv_0_lt_compat; lra]).
    assert (K1 : mean l / deviation l <= 134217728).
    { apply Rmult_le_reg_r with (deviation l); [lra|]. unfold Rdiv. rewrite Rmult_assoc, Rinv_l, Rmult_1_r by lra. lra. }
    destruct (C132_snr_error d mk r (length l) tm t t' (mean l / deviation l)) as (w & Hw & E); try (apply O; assumption).
    + rewrite Hd. apply pixels16_fits; assumption.
    + rewrite Hd. apply pixels16_underflow; assumption.
    + exact Z.
    + fold l. rewrite (pixels16_abs l H), Hd. unfold units. cbn [prec binary64]. rewrite (pow2_neg 53 9007199254740992) by (lia || reflexivity).
      rewrite plus_INR. change (INR 2) with (1 + 1).
      apply Rle_trans with (12 * ((1048576 + (1 + 1)) * / 9007199254740992) * (1 + 134217728)); [|lra].
      apply Rmult_le_compat; lra.
    + exact V.
    + exists (mean l / deviation l), w. split; [exact V|]. split; [exact Hw|]. split; [exact K0|]. eapply Rle_trans; [exact E|].
      fold l. rewrite (pixels16_abs l H), Hd. unfold units. cbn [prec binary64]. apply Req_le.
      rewrite (pow2_neg 53 9007199254740992), (pow2_lit 49 562949953421312) by (lia || reflexivity). field. lra.
Qed.
Print Assumptions C132_16_bit_snr.

(** CNR, regions of up to N <= 2^20 voxels, background not constant *)
Theorem C132_16_bit_cnr d mk s b N ts tm t t' : let sg := values s in let bg := values b in
  stat_format d = binary64 -> pixels16 sg -> pixels16 bg -> (length sg <= N)%nat -> (length bg <= N)%nat -> (Z.of_nat N <= 2 ^ 20)%Z ->
  Permutation (summands ts) sg -> Permutation (summands tm) bg -> Permutation (summands t) bg -> Permutation (summands t') bg ->
  deviation bg <> 0 -> let K := (mean sg + mean bg) / deviation bg in
  exists v w, cnr_value mk s b = Fin v /\ cnr_r (stat_format d) ts tm t t' = Fin w /\
    Rabs (w - v) <= INR (N + 2) * pow2 (- 49) * (1 + K) ^ 2.
Proof.
  intros sg bg Hd Hs Hb Ls Lb LN Ps Pm P P' Z K.
  assert (O : forall q k, (length k <= N)%nat -> Permutation (summands q) k -> adds_up N q k).
  { intros q k Lk Hq. split; [exact Hq|]. pose proof (levels_lt q) as LL. rewrite (Permutation_length Hq) in LL. lia. }
  pose proof (adds_nonempty _ _ _ (O t bg Lb P)) as NB. pose proof (adds_nonempty _ _ _ (O ts sg Ls Ps)) as NS.
  pose proof (pixels16_mean bg Hb NB) as MB. pose proof (pixels16_mean sg Hs NS) as MS.
  assert (LR : INR N <= 1048576) by (apply IZR_le in LN; rewrite <- INR_IZR_INZ in LN; exact LN). pose proof (pos_INR N) as L0.
  pose proof (pixels16_deviation bg Hb ltac:(lia) Z) as S.
  assert (V : cnr_value mk s b = Fin ((mean sg - mean bg) / deviation bg)).
  { unfold cnr_value. fold sg bg. rewrite <- deviation_eq, <- !mean_eq in *. destruct bg as [|x q]; [contradiction|]. unfold is_zero. destruct (Req_EM_T _ 0); [contradiction|].
    destruct sg; [contradiction|reflexivity]. }
  assert (K0 : 0 <= K) by (apply Rmult_le_pos; [lra|left; apply Rinv_0_lt_compat; lra]).
  assert (K1 : K <= 268435456).
  { apply Rmult_le_reg_r with (deviation bg); [lra|]. unfold K, Rdiv. rewrite Rmult_assoc, Rinv_l, Rmult_1_r by lra. lra. }
  destruct (C132_cnr_error d mk s b N ts tm t t' ((mean sg - mean bg) / deviation bg)) as (w & Hw & E); try (apply O; assumption).
  - rewrite Hd. apply pixels16_fits; [exact Hs|]. change (values s) with sg. lia.
  - rewrite Hd. apply pixels16_fits; [exact Hb|]. change (values b) with bg. lia.
  - rewrite Hd. apply pixels16_underflow; [exact Hb| |exact Z]. change (values b) with bg. lia.
  - exact Z.
  - fold sg bg. rewrite (pixels16_abs sg Hs), (pixels16_abs bg Hb), Hd. fold K. unfold units. cbn [prec binary64]. rewrite (pow2_neg 53 9007199254740992) by (lia || reflexivity).
    rewrite plus_INR. change (INR 2) with (1 + 1).
    apply Rle_trans with (12 * ((1048576 + (1 + 1)) * / 9007199254740992) * (1 + 268435456)); [|lra].
    apply Rmult_le_compat; lra.
  - exact V.
  - exists ((mean sg - mean bg) / deviation bg), w. split; [exact V|]. split; [exact Hw|]. eapply Rle_trans; [exact E|].
    fold sg bg. rewrite (pixels16_abs sg Hs), (pixels16_abs bg Hb), Hd. fold K. unfold units. cbn [prec binary64]. apply Req_le.
    rewrite (pow2_neg 53 9007199254740992), (pow2_lit 49 562949953421312) by (lia || reflexivity). field.
Qed.
Print Assumptions C132_16_bit_cnr.

(** ** Constant float regions *)

(** Three voxels of the value M 2^e with M of full precision, M = 2 mod 8 and above two thirds of the largest: the mean is
    rounded to the next number, the deviation is one unit instead of 0, and SNR is M + 1 whatever the order of the additions. *)
Theorem C132_three_voxels d M e tm t t' : let f := stat_format d in let c := IZR M * pow2 e in
  (M mod 8 = 2)%Z -> (2 ^ (prec f + 1) < 3 * M)%Z -> (M < 2 ^ prec f)%Z ->
  (emin f <= e)%Z -> (emin f <= 2 * e)%Z -> (e + prec f + 3 < emax f)%Z -> (2 * e + prec f + 3 < emax f)%Z ->
  summands tm = [c; c; c] -> summands t = [c; c; c] -> summands t' = [c; c; c] ->
  store f c = Fin c /\ std_r f t t' = Fin (pow2 e) /\ snr_r f tm t t' = Fin (IZR (M + 1)).
Proof.
  intros f c M8 M3 Mp E1 E2 X1 X2 Tm T T'. pose proof (fine_stat d) as Hf. fold f in Hf.
  assert (A : awkward f M e) by (repeat split; assumption). pose proof (proj1 Hf) as W. pose proof W as (Wp & _).
  assert (0 < 2 ^ (prec f + 1))%Z by (apply Z.pow_pos_nonneg; lia).
  split; [apply store_exact; [exact W|lia|exact E1|lia]|]. split; [apply (std_three f M e); assumption|apply (snr_three f M e); assumption].
Qed.
Print Assumptions C132_three_voxels.

(** 0.1 in double precision *)
Definition tenth : R := IZR 7205759403792794 * pow2 (- 56).

(** A constant region of an image in double precision: SNR is 0 with exact numbers, and 7205759403792795 on the machine. *)
Theorem C132_constant_float_refuted : exists r c, (forall x, In x (values r) -> x = c) /\ store binary64 c = Fin c /\
  forall mk, snr_value mk r = Fin 0 /\
    forall tm t t', Permutation (summands tm) (values r) -> Permutation (summands t) (values r) -> Permutation (summands t') (values r) ->
      snr_r (stat_format (Float 64)) tm t t' = Fin (IZR 7205759403792795).
Proof.
  exists (Whole (Arr [3; 1]%nat [tenth; tenth; tenth])), tenth.
  assert (C : forall x, In x [tenth; tenth; tenth] -> x = tenth) by (intros x [<-|[<-|[<-|[]]]]; reflexivity).
  split; [exact C|]. split; [apply store_exact; [apply wide64|cbn; lia|cbn; lia|cbn; lia]|]. intros mk. split.
  - unfold snr_value. cbn [values dat]. unfold is_zero. destruct (Req_EM_T _ 0) as [|N]; [reflexivity|]. exfalso. apply N.
    apply (std0_constant _ tenth C). discriminate.
  - cbn [values dat]. intros tm t t' Pm P P'.
    assert (PE : forall q, Permutation (summands q) [tenth; tenth; tenth] -> summands q = [tenth; tenth; tenth]).
    { intros q Hq. pose proof (Permutation_length Hq) as L. assert (I : forall x, In x (summands q) -> x = tenth) by (intros x Hx; apply C, (Permutation_in _ Hq), Hx).
      destruct (summands q) as [|x [|y [|z [|]]]]; cbn in L; try lia. rewrite (I x), (I y), (I z) by (cbn; auto). reflexivity. }
    apply (C132_three_voxels (Float 64) 7205759403792794 (- 56)); cbn [stat_format prec emin emax binary64]; try (apply PE; assumption); try lia; try reflexivity.
Qed.
Print Assumptions C132_constant_float_refuted.

(** CNR with such a background and a signal of k 2^e in any number of voxels: k - M - 1 instead of 0, even for k = M. *)
Theorem C132_three_voxels_cnr d M e k ts tm t t' : let f := stat_format d in let c := IZR M * pow2 e in
  (M mod 8 = 2)%Z -> (2 ^ (prec f + 1) < 3 * M)%Z -> (M < 2 ^ prec f)%Z ->
  (emin f <= e)%Z -> (emin f <= 2 * e)%Z -> (e + prec f + 3 < emax f)%Z -> (2 * e + prec f + 3 < emax f)%Z ->
  (forall x, In x (summands ts) -> x = IZR k * pow2 e) -> (Z.of_nat (length (summands ts)) * Z.abs k <= 2 ^ prec f)%Z -> (0 <= k)%Z ->
  summands tm = [c; c; c] -> summands t = [c; c; c] -> summands t' = [c; c; c] ->
  cnr_r f ts tm t t' = Fin (IZR (k - M - 1)).
Proof.
  intros f c M8 M3 Mp E1 E2 X1 X2 Hs L K0 Tm T T'. pose proof (fine_stat d) as Hf. fold f in Hf.
  assert (A : awkward f M e) by (repeat split; assumption). pose proof (proj1 Hf) as W. pose proof W as (Wp & _). pose proof (summands_pos ts) as NS.
  assert (0 < 2 ^ (prec f + 1))%Z by (apply Z.pow_pos_nonneg; lia).
  apply (cnr_three f M e k ts tm t t'); try assumption. nia.
Qed.
Print Assumptions C132_three_voxels_cnr.

(** ** Examples *)

(** C132_16_bit_snr applies: the region 1, 3 has SNR 2. *)
Example C132_example_snr mk : exists w, snr_value mk (Whole (Arr [2]%nat [1; 3])) = Fin 2 /\
  snr_r binary64 (Plus (Value 1) (Value 3)) (Plus (Value 3) (Value 1)) (Plus (Value 1) (Value 3)) = Fin w /\ Rabs (w - 2) <= 36 * pow2 (- 49).
Proof.
  destruct (C132_16_bit_snr (UInt 16) mk (Whole (Arr [2]%nat [1; 3])) (Plus (Value 1) (Value 3)) (Plus (Value 3) (Value 1)) (Plus (Value 1) (Value 3)))
    as (v & w & V & Hw & _ & E); cbn [values dat summands app length]; try reflexivity; try apply perm_swap.
  - intros x [<-|[<-|[]]]; [exists 1%Z|exists 3%Z]; split; try reflexivity; lia.
  - lia.
  - assert (V2 : snr_value mk (Whole (Arr [2]%nat [1; 3])) = Fin 2).
    { unfold snr_value. cbn [values dat]. assert (M : lmean [1; 3] = 2) by (unfold lmean, Sum; cbn; lra).
      assert (S : std0 [1; 3] = 1).
      { unfold std0, dev. rewrite M. unfold Sum. cbn [map rsum fold_right length]. cbn [INR]. replace (_ / _) with (1 * 1) by (cbn; field). apply sqrt_square. lra. }
      rewrite M, S. unfold is_zero. destruct (Req_EM_T 1 0); [lra|]. f_equal. field. }
    exists w. split; [exact V2|]. split; [exact Hw|]. rewrite V2 in V. injection V as <-. cbn [values dat length] in E.
    eapply Rle_trans; [exact E|]. cbn. lra.
Qed.

(** A constant 16-bit region of any size up to 2^37 voxels is recognised. *)
Example C132_example_constant t : (forall x, In x (summands t) -> x = 65535) -> (Z.of_nat (length (summands t)) <= 2 ^ 37)%Z ->
  snr_r (stat_format (UInt 16)) t t t = Fin 0.
Proof.
  intros H L. apply (C132_constant (UInt 16) 65535 0 t t t t); cbn [stat_format prec emin emax binary64]; try lia;
    intros x Hx; rewrite (H x Hx), pow2_0; ring.
Qed.

(** Single precision: 12582914 2^-27 = 0.09375001..., three voxels. *)
Example C132_example_single : let c := 12582914 * pow2 (- 27) in let t := Plus (Plus (Value c) (Value c)) (Value c) in
  snr_r (stat_format (Float 32)) t t t = Fin 12582915.
Proof.
  intros c t. apply (C132_three_voxels (Float 32) 12582914 (- 27) t t t); cbn [stat_format prec emin emax binary32]; try lia; try reflexivity.
Qed.

(** Identical signal and background of the same value, one and three voxels: CNR -1. *)
Example C132_example_cnr : let t := Plus (Plus (Value tenth) (Value tenth)) (Value tenth) in
  cnr_r (stat_format (Float 64)) (Value tenth) t t t = Fin (-1).
Proof.
  intros t. apply (C132_three_voxels_cnr (Float 64) 7205759403792794 (- 56) 7205759403792794 (Value tenth) t t t);
    cbn [stat_format prec emin emax binary64 summands length]; try lia; try reflexivity.
  intros x [<-|[]]. reflexivity.
Qed.
