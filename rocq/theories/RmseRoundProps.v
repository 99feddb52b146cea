(** C131: RMSE and PSNR in floating point arithmetic. *)
From Coq Require Import Reals Lra Lia Psatz Permutation.
From Verif Require Import Base LoadModel RealSums NormModel PairModel MetricModel SsimRoundModel RoundProofs
  RmseRoundModel RmseRoundProofs RmseExactProofs FileModel FileProofs FileProps ScaleProofs ScaleProps.
Open Scope R_scope.

(** [adds t a b]: the additions of the tree [t] run over the pairs of pixels of [a] and [b], in any order.
    [depth t]: the longest chain of additions, at most the number of pixels. *)

(** ** Error of the score *)

(** Every image of finite numbers, every order of the additions: the relative error is at most four units of the type the
    differences are taken in and four double precision units for each addition of the chain; underflow of squares adds
    a constant. *)
Theorem C131_error d t a b r E : let f := work_format d in
  adds t a b -> (forall x, In x a \/ In x b -> store f x = Fin x) -> INR (depth t + 1) <= pow2 51 ->
  rmse_r f t = Fin r -> rmse a b = Fin E ->
  Rabs (r - E) <= 4 * (pow2 (- prec f) + INR (depth t + 1) * pow2 (- 53)) * E + 2 * sqrt (pow2 (emin f)).
Proof.
  intros f H G D R1 R2. rewrite (adds_rmse t a b H) in R2. injection R2 as <-.
  assert (W : wide f).
  { unfold f, work_format. destruct d as [w|w|w|]; try apply wide64; repeat (destruct w as [|w]; try apply wide64; try apply wide32). }
  destruct W as (Wp & We & Wx & _). apply rmse_bounds; try assumption; [lia|].
  intros [x y] Hp. destruct H as [_ H]. apply (Permutation_in _ H) in Hp. split; apply G; [left; apply (in_combine_l _ _ _ _ Hp)|right; apply (in_combine_r _ _ _ _ Hp)].
Qed.
Print Assumptions C131_error.

(** Single precision, chains of fewer than 2^25 additions: six significant digits. *)
Theorem C131_six_digits t a b r E :
  adds t a b -> (forall x, In x a \/ In x b -> store binary32 x = Fin x) -> (Z.of_nat (depth t) < 2 ^ 25)%Z ->
  rmse_r binary32 t = Fin r -> rmse a b = Fin E ->
  Rabs (r - E) <= / IZR (10 ^ 6) * E + / IZR (10 ^ 21).
Proof.
  intros H G D R1 R2.
  assert (D' : INR (depth t + 1) <= pow2 25).
  { rewrite INR_IZR_INZ, pow2_Z by lia. apply IZR_le. lia. }
  assert (L : pow2 25 <= pow2 51) by (apply pow2_le; lia).
  pose proof (C131_error (Float 32) t a b r E H G (Rle_trans _ _ _ D' L) R1 R2) as B. cbn [work_format prec emin binary32] in B.
  assert (E0 : 0 <= E) by (rewrite (adds_rmse t a b H) in R2; injection R2 as <-; apply sqrt_pos).
  eapply Rle_trans; [exact B|]. apply Rplus_le_compat.
  - apply Rmult_le_compat_r; [exact E0|].
    assert (INR (depth t + 1) * pow2 (- 53) <= pow2 (- 28)).
    { change (- 28)%Z with (25 + - 53)%Z. rewrite pow2_plus. apply Rmult_le_compat_r; [left; apply pow2_pos|exact D']. }
    change (Z.opp 24) with (- (24))%Z in *. rewrite (pow2_opp 24). rewrite (pow2_Z 24) by lia.
    change (- 28)%Z with (Z.opp 28) in H0. rewrite (pow2_opp 28), (pow2_Z 28) in H0 by lia.
    change (2 ^ 24)%Z with 16777216%Z. change (2 ^ 28)%Z with 268435456%Z in H0. change (10 ^ 6)%Z with 1000000%Z. lra.
  - assert (S : sqrt (pow2 (-149)) <= pow2 (- 74)).
    { rewrite <- (sqrt_square (pow2 (- 74))) by (left; apply pow2_pos). apply sqrt_le_1_alt. rewrite <- pow2_plus. apply pow2_le. lia. }
    change (- 74)%Z with (Z.opp 74) in S. rewrite (pow2_opp 74), (pow2_Z 74) in S by lia.
    change (2 ^ 74)%Z with 18889465931478580854784%Z in S. change (10 ^ 21)%Z with 1000000000000000000000%Z. lra.
Qed.
Print Assumptions C131_six_digits.

(** 8-bit images (signed or not) of up to 2^37 voxels: the score does not depend on the order of the additions, it is finite,
    and its relative error is at most 2^-52. *)
Theorem C131_8_bit t a b :
  adds t a b -> (Z.of_nat (length a) <= 2 ^ 37)%Z ->
  Forall2 (fun x y => exists i j, x = IZR i /\ y = IZR j /\ (-128 <= i < 256 /\ -128 <= j < 256 /\ Z.abs (i - j) < 256)%Z) a b ->
  exists r E, rmse_r binary32 t = Fin r /\ rmse a b = Fin E /\ Rabs (r - E) <= pow2 (- 52) * E /\
    forall t', adds t' a b -> rmse_r binary32 t' = Fin r.
Proof.
  intros H N F. pose proof (adds_length _ _ _ H) as Lt.
  assert (K : forall t', adds t' a b -> exists s, total binary32 t' = Fin (IZR s) /\ (0 <= s <= 2 ^ 53)%Z /\ IZR s = Rsum (map sq (leaves t'))).
  { intros t' H'. apply (total_close binary32 65025); [apply wide32|cbn; lia|rewrite (adds_length _ _ _ H'); lia|].
    apply (adds_in t' a b (close binary32 65025) H'). clear - F. induction F as [|x y a b (i & j & -> & -> & I & J & D) _ IH]; constructor; [|exact IH].
    exists i, j. cbn [prec binary32]. split; [reflexivity|]. split; [reflexivity|]. repeat split; lia || nia. }
  assert (LN : INR (length a) <= pow2 53).
  { rewrite INR_IZR_INZ, pow2_Z by lia. apply IZR_le. lia. }
  destruct (K t H) as (s & Es & Bs & Vs).
  destruct (rmse_of_total binary32 t s Es Bs) as [R1 R2]; [rewrite Lt; exact LN|].
  eexists. eexists. split; [exact R1|]. split; [rewrite (adds_rmse t a b H), <- Vs; reflexivity|]. split; [exact R2|].
  intros t' H'. destruct (K t' H') as (s' & Es' & Bs' & Vs'). assert (s' = s) as ->.
  { apply eq_IZR. rewrite Vs, Vs'. apply Rsum_perm, Permutation_map. destruct H as [_ H], H' as [_ H'].
    eapply Permutation_trans; [exact H'|apply Permutation_sym, H]. }
  destruct (rmse_of_total binary32 t' s Es' Bs') as [-> _]; [rewrite (adds_length _ _ _ H'); exact LN|].
  rewrite Lt, (adds_length _ _ _ H'). reflexivity.
Qed.
Print Assumptions C131_8_bit.

(** Whole numbers with the same difference [c] everywhere, at most 4096: the score is exactly |c|. *)
Theorem C131_constant t a b c :
  adds t a b -> (Z.abs c <= 4096)%Z -> (Z.of_nat (length a) <= 2 ^ 29)%Z ->
  Forall2 (fun x y => exists i, x = IZR i /\ y = IZR (i + c) /\ (Z.abs i <= 65535)%Z) a b ->
  rmse_r binary32 t = Fin (IZR (Z.abs c)).
Proof.
  intros H C N F. pose proof (adds_length _ _ _ H) as Lt.
  assert (CC : (0 <= c * c <= 2 ^ 24)%Z) by (change (2 ^ 24)%Z with (4096 * 4096)%Z; nia).
  assert (P : forall p, In p (leaves t) -> close binary32 (c * c) (fst p) (snd p) /\ sq p = IZR (c * c)).
  { intros p Hp. apply (adds_in t a b _ H) with (p := p) in F; [|exact Hp]. destruct p as [x y]. destruct F as (i & Ex & Ey & I). cbn [fst snd] in *. subst x y. split.
    - exists i, (i + c)%Z. cbn [prec binary32]. split; [reflexivity|]. split; [reflexivity|]. repeat split; lia || nia.
    - unfold sq. cbn [fst snd]. rewrite <- minus_IZR, <- mult_IZR. f_equal. ring. }
  destruct (total_close binary32 (c * c) t wide32) as (s & Es & Bs & Vs); [cbn [prec binary32]; lia|rewrite Lt; nia|intros; apply P; assumption|].
  assert (N0 : 1 <= INR (length (leaves t))) by (apply (le_INR 1), leaves_pos).
  assert (V : IZR s / INR (length (leaves t)) = IZR (c * c)).
  { rewrite Vs. assert (Q : forall l, (forall p, In p l -> sq p = IZR (c * c)) -> Rsum (map sq l) = INR (length l) * IZR (c * c)).
    { induction l as [|p l IH]; intros Q; [unfold Rsum; simpl; ring|]. cbn [map length]. rewrite S_INR. unfold Rsum in *. cbn [fold_right].
      rewrite IH, Q; [ring|left; reflexivity|intros; apply Q; right; assumption]. }
    rewrite Q by (intros; apply P; assumption). field. lra. }
  assert (LN : INR (length (leaves t)) <= pow2 53) by (rewrite Lt, INR_IZR_INZ, pow2_Z by lia; apply IZR_le; lia).
  destruct (rmse_of_total binary32 t s Es Bs LN) as [-> _]. rewrite V. f_equal.
  rewrite (round_f_int binary64) by (cbn [prec emin binary64]; lia).
  replace (IZR (c * c)) with (IZR (Z.abs c) * IZR (Z.abs c)) by (rewrite <- mult_IZR; f_equal; lia).
  rewrite sqrt_square by (apply (IZR_le 0); lia). apply round_f_int; cbn [prec emin binary64]; lia.
Qed.
Print Assumptions C131_constant.

(** ** Which images have score 0 *)

(** 8 and 16-bit integers, and integers up to 2^52 in double precision: exactly the identical ones. PSNR is infinite exactly there. *)
Theorem C131_zero d t a b dr : let f := work_format d in
  adds t a b -> (Z.of_nat (length a) <= 2 ^ 53)%Z -> 0 < dr ->
  (forall x, In x a \/ In x b -> exists k, x = IZR k /\ (Z.abs k <= 2 ^ (prec f - 1))%Z) ->
  (rmse_r f t = Fin 0 <-> a = b) /\ (psnr_r dr f t = PInf <-> a = b).
Proof.
  intros f H N Hd G.
  assert (W : wide f).
  { unfold f, work_format. destruct d as [w|w|w|]; try apply wide64; repeat (destruct w as [|w]; try apply wide64; try apply wide32). }
  assert (K : forall p, In p (leaves t) -> whole f (fst p) /\ whole f (snd p)).
  { intros [x y] Hp. destruct H as [_ H]. apply (Permutation_in _ H) in Hp.
    split; apply G; [left; apply (in_combine_l _ _ _ _ Hp)|right; apply (in_combine_r _ _ _ _ Hp)]. }
  assert (Gd : good f t) by (intros p Hp; destruct (K p Hp); split; apply whole_fits; assumption).
  assert (LN : INR (length (leaves t)) <= pow2 53).
  { rewrite (adds_length _ _ _ H), INR_IZR_INZ, pow2_Z by lia. apply IZR_le. lia. }
  pose proof (adds_equal t a b H) as Q.
  set (e := fun p : R * R => if Req_EM_T (fst p) (snd p) then true else false).
  assert (D : a = b \/ exists p, In p (leaves t) /\ fst p <> snd p).
  { destruct (forallb e (leaves t)) eqn:A.
    - left. apply Q. intros p Hp. rewrite forallb_forall in A. specialize (A p Hp). unfold e in A. destruct (Req_EM_T _ _); [assumption|discriminate].
    - right. destruct (existsb (fun p => negb (e p)) (leaves t)) eqn:B.
      + apply existsb_exists in B as (p & Hp & B). exists p. split; [exact Hp|]. unfold e in B. destruct (Req_EM_T _ _); [discriminate|assumption].
      + exfalso. assert (forallb e (leaves t) = true); [|congruence]. apply forallb_forall. intros p Hp.
        destruct (e p) eqn:Ep; [reflexivity|]. assert (existsb (fun p => negb (e p)) (leaves t) = true); [|congruence].
        apply existsb_exists. exists p. split; [exact Hp|]. rewrite Ep. reflexivity. }
  destruct D as [E|X].
  - pose proof (proj2 Q E) as S. split; split; intros _; try exact E.
    + unfold rmse_r. rewrite mse_same by assumption. rewrite sqrt_0. apply store64_0.
    + unfold psnr_r. replace (forallb _ (leaves t)) with true; [reflexivity|]. symmetry. apply forallb_forall. intros p Hp.
      destruct (Req_EM_T _ _) as [_|C]; [reflexivity|]. exfalso. apply C, S, Hp.
  - assert (NE : a <> b) by (intros E; destruct X as (p & Hp & C); apply C, (proj2 Q E), Hp).
    split; split; intros C; try contradiction; exfalso.
    + unfold rmse_r in C. destruct (mse_r f t) as [q| | |] eqn:M; try discriminate.
      pose proof (mse_pos f t q W K LN X M) as P. apply (store_pos_ge binary64 (sqrt q) (- 27) 0) in C; cbn [prec emin binary64]; try lia.
      * pose proof (pow2_pos (- 27)). lra.
      * rewrite <- (sqrt_square (pow2 (- 27))) by (left; apply pow2_pos). apply sqrt_le_1_alt. rewrite <- pow2_plus.
        eapply Rle_trans; [|exact P]. apply pow2_le. lia.
    + unfold psnr_r in C. fold e in C. replace (forallb e (leaves t)) with false in C.
      * destruct (mse_r f t) as [q| | |] eqn:M; try discriminate.
        -- pose proof (mse_pos f t q W K LN X M) as P. pose proof (pow2_pos (- 53)). destruct (Req_EM_T dr 0); [lra|]. destruct (Req_EM_T q 0); [lra|discriminate].
      * symmetry. destruct (forallb e (leaves t)) eqn:A; [|reflexivity]. destruct X as (p & Hp & C'). rewrite forallb_forall in A.
        specialize (A p Hp). unfold e in A. destruct (Req_EM_T _ _); [contradiction|discriminate].
Qed.
Print Assumptions C131_zero.

(** Float images: differences of up to 2^-75 = 2.6e-23 are lost. The score is 0 and PSNR infinite, although the images differ. *)
Theorem C131_underflow t a b dr : adds t a b -> 0 < dr ->
  (forall x, In x a \/ In x b -> store binary32 x = Fin x) -> Forall2 (fun x y => Rabs (x - y) <= pow2 (- 75)) a b ->
  rmse_r binary32 t = Fin 0 /\ psnr_r dr binary32 t = PInf.
Proof.
  intros H Hd G F.
  assert (M : mse_r binary32 t = Fin 0).
  { unfold mse_r. rewrite total_zeros; [unfold Rdiv; rewrite Rmult_0_l; apply store64_0|]. intros p Hp.
    pose proof (adds_in t a b _ H F p Hp) as D. destruct p as [x y]. destruct H as [_ H]. apply (Permutation_in _ H) in Hp.
    apply (square_diff_tiny binary32 (- 75)); [apply wide32| | |cbn; lia|cbn; lia|exact D]; apply G;
      [left; apply (in_combine_l _ _ _ _ Hp)|right; apply (in_combine_r _ _ _ _ Hp)]. }
  unfold rmse_r, psnr_r. rewrite M. split; [rewrite sqrt_0; apply store64_0|].
  destruct (forallb _ _); [reflexivity|]. destruct (Req_EM_T dr 0); [lra|]. destruct (Req_EM_T 0 0); [reflexivity|contradiction].
Qed.
Print Assumptions C131_underflow.

(** One difference of 2^64 = 1.8e19 or more makes the score infinite. *)
Theorem C131_overflow t a b : adds t a b -> (forall x, In x a \/ In x b -> store binary32 x = Fin x) ->
  (exists p, In p (combine a b) /\ pow2 64 <= Rabs (fst p - snd p)) -> rmse_r binary32 t = PInf.
Proof.
  intros [L H] G (p & Hp & D). unfold rmse_r, mse_r. rewrite total_huge; [reflexivity| |].
  - intros [x y] Hq. apply (Permutation_in _ H) in Hq. split; apply G; [left; apply (in_combine_l _ _ _ _ Hq)|right; apply (in_combine_r _ _ _ _ Hq)].
  - exists p. split; [apply (Permutation_in _ (Permutation_sym H)), Hp|]. destruct p as [x y].
    apply (square_diff_huge binary32 64); [apply wide32| | |cbn; lia|cbn; lia|exact D]; apply G;
      [left; apply (in_combine_l _ _ _ _ Hp)|right; apply (in_combine_r _ _ _ _ Hp)].
Qed.
Print Assumptions C131_overflow.

Lemma fits_power k : (-149 <= k < 128)%Z -> store binary32 (pow2 k) = Fin (pow2 k).
Proof.
  intros H. replace (pow2 k) with (IZR 1 * pow2 k) by ring. apply store_fin.
  rewrite (round_f_exact binary32 1 k); [|cbn; lia|cbn; lia|cbn [emin binary32]; lia]. split; [reflexivity|].
  rewrite Rmult_1_l, Rabs_right by (left; apply pow2_pos). cbn [emax binary32]. apply Rlt_le_trans with (pow2 (k + 1)); [|apply pow2_le; lia].
  rewrite pow2_plus. change (pow2 1) with (2 * 1). pose proof (pow2_pos k). lra.
Qed.
Lemma fits_0 f : store f 0 = Fin 0.
Proof. apply store_fin. rewrite round_f_0, Rabs_R0. split; [reflexivity|apply pow2_pos]. Qed.

(** So in float images score 0 does not mean identical, and a finite exact score may become infinite. *)
Theorem C131_zero_float_refuted : exists a b, a <> b /\ (forall x, In x a \/ In x b -> store binary32 x = Fin x) /\
  forall t, adds t a b -> rmse_r binary32 t = Fin 0 /\ psnr_r 255 binary32 t = PInf.
Proof.
  exists [0; 0], [0; pow2 (- 75)]. pose proof (pow2_pos (- 75)) as P. split; [intros E; injection E as E; lra|].
  assert (G : forall x, In x [0; 0] \/ In x [0; pow2 (- 75)] -> store binary32 x = Fin x).
  { intros x [[<-|[<-|[]]]|[<-|[<-|[]]]]; try apply fits_0. apply fits_power. lia. }
  split; [exact G|]. intros t H. apply (C131_underflow t _ _ 255 H); [lra|exact G|].
  constructor; [rewrite Rminus_diag_eq, Rabs_R0 by reflexivity; lra|]. constructor; [|constructor]. rewrite Rminus_0_l, Rabs_Ropp, Rabs_right; lra.
Qed.
Print Assumptions C131_zero_float_refuted.

Theorem C131_finite_refuted : exists a b E, rmse a b = Fin E /\ (forall x, In x a \/ In x b -> store binary32 x = Fin x) /\
  forall t, adds t a b -> rmse_r binary32 t = PInf.
Proof.
  exists [0], [pow2 64]. eexists. pose proof (pow2_pos 64) as P. split; [reflexivity|].
  assert (G : forall x, In x [0] \/ In x [pow2 64] -> store binary32 x = Fin x).
  { intros x [[<-|[]]|[<-|[]]]; [apply fits_0|apply fits_power; lia]. }
  split; [exact G|]. intros t H. apply (C131_overflow t _ _ H G). exists (0, pow2 64). split; [left; reflexivity|].
  cbn [fst snd]. rewrite Rminus_0_l, Rabs_Ropp, Rabs_right; lra.
Qed.
Print Assumptions C131_finite_refuted.

(** 16-bit images: squares have up to 32 digits and are rounded to 24. A constant difference of 4097 does not give 4097,
    whatever the image and the order. *)
Theorem C131_constant_16_bit_refuted : exists c, (0 < c < 65536)%Z /\ forall t a b,
  adds t a b -> (Z.of_nat (length a) <= 2 ^ 28)%Z ->
  Forall2 (fun x y => exists i, x = IZR i /\ y = IZR (i + c) /\ (0 <= i /\ i + c < 65536)%Z) a b ->
  exists r, rmse_r binary32 t = Fin r /\ r < IZR c - 1 / 10000.
Proof.
  exists 4097%Z. split; [lia|]. intros t a b H N F. pose proof (adds_length _ _ _ H) as Lt.
  assert (P : forall p, In p (leaves t) -> square_diff binary32 (fst p) (snd p) = Fin (IZR 16785408)).
  { intros p Hp. apply (adds_in t a b _ H) with (p := p) in F; [|exact Hp]. destruct p as [x y]. destruct F as (i & Ex & Ey & I). cbn [fst snd] in *. subst x y.
    rewrite square_diff_int by (try apply wide32; cbn [prec binary32]; lia). replace ((i - (i + 4097)) * (i - (i + 4097)))%Z with 16785409%Z by ring.
    apply square_4097. }
  assert (Z1 : Zsum (map (fun _ => 16785408%Z) (leaves t)) = (Z.of_nat (length (leaves t)) * 16785408)%Z).
  { clear. induction (leaves t) as [|p l IH]; [reflexivity|]. cbn [map length]. unfold Zsum in *. cbn [fold_right]. rewrite Nat2Z.inj_succ. lia. }
  assert (T : total binary32 t = Fin (IZR (Z.of_nat (length (leaves t)) * 16785408))).
  { rewrite <- Z1. apply total_int; [intros p Hp; split; [lia|apply P, Hp]|]. rewrite Z1, Lt. lia. }
  assert (N0 : 1 <= INR (length (leaves t))) by (apply (le_INR 1), leaves_pos).
  destruct (rmse_of_total binary32 t _ T) as [R1 R2]; [lia| |].
  { rewrite Lt, INR_IZR_INZ, pow2_Z by lia. apply IZR_le. lia. }
  eexists. split; [exact R1|].
  assert (V : IZR (Z.of_nat (length (leaves t)) * 16785408) / INR (length (leaves t)) = 16785408).
  { rewrite mult_IZR, <- INR_IZR_INZ. field. lra. }
  rewrite V in *. set (r := round_f _ _) in *. set (E := sqrt 16785408) in *.
  assert (E0 : 0 <= E) by apply sqrt_pos. assert (EE : E * E = 16785408) by (apply sqrt_sqrt; lra).
  assert (E1 : E <= 4097 - 12 / 100000) by nra.
  apply abs_between in R2. change (- 52)%Z with (Z.opp 52) in R2. rewrite pow2_opp, pow2_Z in R2 by lia.
  change (2 ^ 52)%Z with 4503599627370496%Z in R2. assert (E / 4503599627370496 <= 4097 / 4503599627370496) by lra. lra.
Qed.
Print Assumptions C131_constant_16_bit_refuted.

(** ** Symmetry and sign *)

(** Exchanging the images does not change the score, down to the last digit. *)
Theorem C131_symmetric f t a b : adds t a b -> exists t', adds t' b a /\ rmse_r f t' = rmse_r f t /\ depth t' = depth t.
Proof.
  intros [L H]. exists (exchange t). split; [|split; [apply rmse_exchange|]].
  - split; [symmetry; exact L|]. rewrite leaves_exchange. eapply Permutation_trans; [apply Permutation_map, H|].
    replace (map (fun p : R * R => (snd p, fst p)) (combine a b)) with (combine b a); [apply Permutation_refl|].
    clear. revert b. induction a as [|x a IH]; intros [|y b]; try reflexivity. cbn [combine map fst snd]. rewrite IH. reflexivity.
  - clear. induction t as [[x y]|l IHl r IHr]; [reflexivity|]. cbn [exchange depth]. rewrite IHl, IHr. reflexivity.
Qed.
Print Assumptions C131_symmetric.

(** Never NaN, never negative. *)
Theorem C131_sign f t a b : adds t a b -> (forall x, In x a \/ In x b -> store f x = Fin x) ->
  rmse_r f t = PInf \/ exists r, rmse_r f t = Fin r /\ 0 <= r.
Proof.
  intros [_ H] G. apply rmse_sign. intros [x y] Hp. apply (Permutation_in _ H) in Hp.
  split; apply G; [left; apply (in_combine_l _ _ _ _ Hp)|right; apply (in_combine_r _ _ _ _ Hp)].
Qed.
Print Assumptions C131_sign.

(** ** Files *)

Lemma file_fits d bytes i x : In d [UInt 8; UInt 16; Float 16; Float 32] -> bytes_ok bytes -> value d bytes i = Some x -> store binary32 x = Fin x.
Proof.
  intros Hd B V.
  assert (I : forall w, In w [1; 2]%nat -> Some (IZR (word w bytes i)) = Some x -> store binary32 x = Fin x).
  { intros w Hw E. injection E as <-. pose proof (word_range w bytes i B). assert (256 ^ Z.of_nat w <= 65536)%Z by (destruct Hw as [<-|[<-|[]]]; cbn; lia).
    apply store_int; cbn [prec emin emax binary32]; lia. }
  assert (Fl : forall bits p kmin kmax, In (bits, p, kmin, kmax) [(16%nat, 11, -24, 5); (32%nat, 24, -149, 104); (64%nat, 53, -1074, 971)]%Z ->
     (p <= 24 /\ -149 <= kmin /\ kmax <= 104)%Z -> forall w, float_value bits w = Some x -> store binary32 x = Fin x).
  { intros bits p kmin kmax Hin (Hp & H1 & H2) w E. destruct (C126_float_words bits p kmin kmax Hin) as [_ Q].
    destruct (Q w x E) as (M & k & -> & HM & Hk). change (powerRZ 2 k) with (pow2 k).
    assert (P24 : (2 ^ p <= 2 ^ 24)%Z) by (apply Z.pow_le_mono_r; lia).
    apply store_fin. rewrite round_f_exact; [|cbn; lia|cbn [prec binary32]; lia|cbn [emin binary32]; lia]. split; [reflexivity|].
    rewrite Rabs_mult, (Rabs_right (pow2 k)) by (left; apply pow2_pos). rewrite <- abs_IZR. cbn [emax binary32].
    change 128%Z with (24 + 104)%Z. rewrite pow2_plus. apply Rlt_le_trans with (pow2 24 * pow2 k).
    - apply Rmult_lt_compat_r; [apply pow2_pos|]. rewrite pow2_Z by lia. apply IZR_lt. lia.
    - apply Rmult_le_compat_l; [left; apply pow2_pos|apply pow2_le; lia]. }
  destruct Hd as [<-|[<-|[<-|[<-|[]]]]].
  - apply (I 1%nat); [cbn; tauto|exact V].
  - apply (I 2%nat); [cbn; tauto|exact V].
  - apply (Fl 16%nat 11%Z (-24)%Z 5%Z) with (w := word 2 bytes i); [cbn; tauto|lia|exact V].
  - apply (Fl 32%nat 24%Z (-149)%Z 104%Z) with (w := word 4 bytes i); [cbn; tauto|lia|exact V].
Qed.

Lemma combine_seq (f g : nat -> R) n : combine (map f (seq 0 n)) (map g (seq 0 n)) = map (fun i => (f i, g i)) (seq 0 n).
Proof. induction (seq 0 n) as [|i l IH]; [reflexivity|]. cbn [map combine]. rewrite IH. reflexivity. Qed.

(** Two raw or mhd files of 8 or 16-bit integers or of half or single precision floats: the computed score, if it is finite,
    agrees with the score of RMSE.score in exact arithmetic to six digits. [t] adds the squares in any order. *)
Theorem C131_files files other special ident ub unspec m pr pm d nx ny nz br bm vr vm t r :
  In d [UInt 8; UInt 16; Float 16; Float 32] ->
  plain m -> let n := (nx * ny * nz)%nat in nz <> 3%nat -> (0 < n)%nat ->
  holds files pr d nx ny nz br vr -> holds files pm d nx ny nz bm vm ->
  Permutation (leaves t) (map (fun i => (vr i, vm i)) (seq 0 n)) -> (Z.of_nat (depth t) < 2 ^ 25)%Z ->
  rmse_r (work_format d) t = Fin r ->
  exists E s, rmse_score (disk files other special) ident ub unspec m (InPath pr) (InPath pm) = Ok (Fin E, s) /\
    Rabs (r - E) <= / IZR (10 ^ 6) * E + / IZR (10 ^ 21).
Proof.
  intros Hd Hm n H3 Hn (S & L & B & V) (S' & L' & B' & V') P D Hr.
  destruct (C126_rmse files other special ident ub unspec m pr pm d nx ny nz br bm vr vm Hm S S' L L' V V' H3 Hn) as (s & E).
  eexists. exists s. split; [exact E|]. fold n.
  assert (A : adds t (map vr (seq 0 n)) (map vm (seq 0 n))).
  { split; [rewrite !map_length; reflexivity|rewrite combine_seq; exact P]. }
  assert (Hf : work_format d = binary32) by (destruct Hd as [<-|[<-|[<-|[<-|[]]]]]; reflexivity). rewrite Hf in Hr.
  apply (C131_six_digits t _ _ r _ A); [|exact D|exact Hr|].
  - intros x [Hx|Hx]; apply in_map_iff in Hx as (i & <- & Hi); apply in_seq in Hi.
    + apply (file_fits d br i); try assumption. apply V. unfold n in Hi. lia.
    + apply (file_fits d bm i); try assumption. apply V'. unfold n in Hi. lia.
  - unfold rmse, mse. rewrite sumsq_seq, map_length, seq_length. clearbody n. destruct n as [|n']; [lia|]. reflexivity.
Qed.
Print Assumptions C131_files.

(** ** Examples *)

(** Two voxels, two orders of addition *)
Example C131_example_8_bit : exists r, rmse_r binary32 (Node (Leaf (7, 3)) (Leaf (255, 255))) = Fin r /\
  rmse_r binary32 (Node (Leaf (255, 255)) (Leaf (7, 3))) = Fin r /\ Rabs (r - sqrt 8) <= pow2 (- 52) * sqrt 8.
Proof.
  destruct (C131_8_bit (Node (Leaf (7, 3)) (Leaf (255, 255))) [7; 255] [3; 255]) as (r & E & R1 & R2 & R3 & R4).
  - split; [reflexivity|apply Permutation_refl].
  - cbn. lia.
  - constructor; [exists 7%Z, 3%Z; repeat split; lia|]. constructor; [exists 255%Z, 255%Z; repeat split; lia|constructor].
  - exists r. split; [exact R1|]. split; [apply R4; split; [reflexivity|apply perm_swap]|].
    unfold rmse, mse in R2. cbn [sum_sq_diff length INR] in R2. replace ((7 - 3) * (7 - 3) + ((255 - 255) * (255 - 255) + 0)) with 16 in R2 by ring.
    replace (16 / (1 + 1)) with 8 in R2 by field. injection R2 as <-. exact R3.
Qed.

Example C131_example_constant : rmse_r binary32 (Node (Leaf (0, 4096)) (Leaf (100, 4196))) = Fin 4096.
Proof.
  apply (C131_constant _ [0; 100] [4096; 4196] 4096); [split; [reflexivity|apply Permutation_refl]|lia|cbn; lia|].
  constructor; [exists 0%Z; repeat split; lia|]. constructor; [exists 100%Z; repeat split; lia|constructor].
Qed.

Example C131_example_zero : rmse_r (work_format (UInt 16)) (Leaf (65535, 65534)) <> Fin 0 /\ psnr_r 65535 (work_format (UInt 16)) (Leaf (65535, 65534)) <> PInf.
Proof.
  destruct (C131_zero (UInt 16) (Leaf (65535, 65534)) [65535] [65534] 65535) as [H1 H2].
  - split; [reflexivity|apply Permutation_refl].
  - cbn. lia.
  - lra.
  - intros x [[<-|[]]|[<-|[]]]; eexists; (split; [reflexivity|cbn; lia]).
  - split; [rewrite H1|rewrite H2]; intros E; injection E as E; lra.
Qed.
