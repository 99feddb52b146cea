(** SNR and CNR of averaged images: property C154. *)
From Coq Require Import Reals Lra Psatz Sorted.
From Verif Require Import Base NdArray LoadModel NormModel PairModel RealSums MetricModel MetricProofs SsimModel GsmModel MadModel
  RegionModel RegionProofs RegionFindProofs RegionProps NrModel NrProofs NrProps PartsProps MixProps.
Local Open Scope R_scope.

(** The image [t * a + (1 - t) * b] *)
Definition mixed (t : R) (a b : arr R) : arr R := Arr (shp a) (mix t (dat a) (dat b)).

Lemma wf_mixed t a b : wf a -> wf b -> shp b = shp a -> wf (mixed t a b).
Proof. unfold wf. intros A B E. cbn [mixed shp dat]. rewrite mix_length; [exact A|]. rewrite A, B, E. reflexivity. Qed.

Lemma nth_mix t a b k x y : nth_error a k = Some x -> nth_error b k = Some y -> nth_error (mix t a b) k = Some (t * x + (1 - t) * y).
Proof.
  revert b k; induction a as [|u a IH]; intros [|w b] [|k] A B; try discriminate.
  - injection A as ->. injection B as ->. reflexivity.
  - cbn in A, B. unfold mix. cbn [combine map nth_error]. apply IH; assumption.
Qed.

Lemma get_mixed t a b i x y : shp b = shp a -> get a i = Some x -> get b i = Some y -> get (mixed t a b) i = Some (t * x + (1 - t) * y).
Proof.
  unfold get. intros E A B. rewrite E in B. cbn [mixed shp dat]. destruct (inb (shp a) i); [|discriminate]. apply nth_mix; assumption.
Qed.

(** The values of a region of the mixture are the mixtures of the values. *)
Lemma selected_mixed t a b P la lb : shp b = shp a -> selected a P la -> selected b P lb ->
  selected (mixed t a b) P (mix t la lb) /\ length la = length lb.
Proof.
  intros E (p & S & I & M) (p' & S' & I' & M'). rewrite E in S', I'.
  assert (p = p') as <- by (eapply sorted_same; [exact S|exact S'|intros x; rewrite I, I'; reflexivity]).
  assert (L : length la = length lb) by (apply (f_equal (@length _)) in M, M'; rewrite !map_length in M, M'; congruence).
  split; [|exact L]. exists p. split; [exact S|]. split; [exact I|]. clear S S' I I'.
  revert la lb M M' L. induction p as [|i p IH]; intros [|x la] [|y lb] M M' L; try discriminate; [reflexivity|].
  cbn [map] in M, M'. injection M as M0 M. injection M' as M0' M'. unfold mix. cbn [combine map fst snd]. f_equal; [apply get_mixed; assumption|].
  apply IH; [exact M|exact M'|injection L as L; exact L].
Qed.

Lemma mean_mix t a b : a <> [] -> length a = length b -> mean (mix t a b) = t * mean a + (1 - t) * mean b.
Proof.
  intros N L. pose proof (INR_len_pos a N). unfold mix. rewrite mean_map, combine_len, !mean_Sum, <- L by exact L.
  rewrite (Sum_fst (fun x => x) a b L), (Sum_snd (fun x => x) a b L).
  rewrite (Sum_plus (fun p : R * R => t * fst p) (fun p => (1 - t) * snd p)), !Sum_scale. cbv beta.
  set (u := Sum (fun p : R * R => fst p) (combine a b)). set (w := Sum (fun p : R * R => snd p) (combine a b)). unfold Rdiv. ring.
Qed.

Lemma deviation_mix t a b : a <> [] -> length a = length b ->
  deviation (mix t a b) ^ 2 = t ^ 2 * deviation a ^ 2 + (1 - t) ^ 2 * deviation b ^ 2 + 2 * t * (1 - t) * covariance a b.
Proof.
  intros N L. pose proof (INR_len_pos a N). rewrite (deviation_sq (mix t a b)), mean_mix, mix_length by assumption.
  unfold mix. rewrite Sum_map. rewrite !deviation_sq. unfold covariance. rewrite mean_map, combine_len, <- L by exact L.
  rewrite (Sum_fst (fun x => (x - mean a) ^ 2) a b L), (Sum_snd (fun x => (x - mean b) ^ 2) a b L).
  rewrite (Sum_ext _ (fun p : R * R => t ^ 2 * (fst p - mean a) ^ 2 + ((1 - t) ^ 2 * (snd p - mean b) ^ 2 + 2 * t * (1 - t) * ((fst p - mean a) * (snd p - mean b))))) by (intros; ring).
  rewrite !Sum_plus, !Sum_scale. unfold Rdiv. ring.
Qed.

Lemma deviation_mix_le t a b : 0 <= t <= 1 -> a <> [] -> length a = length b ->
  deviation (mix t a b) <= t * deviation a + (1 - t) * deviation b.
Proof.
  intros Ht N L. pose proof (deviation_pos a). pose proof (deviation_pos b). pose proof (cov_bound a b N L) as [_ C].
  apply Rsqr_incr_0_var; [|nra]. rewrite !Rsqr_pow2, deviation_mix by assumption.
  assert (W : 0 <= 2 * t * (1 - t)) by nra. pose proof (Rmult_le_compat_l _ _ _ W C). lra.
Qed.

Lemma mix_nonempty t a b : a <> [] -> length a = length b -> mix t a b <> [].
Proof. intros N L E. apply (f_equal (@length _)) in E. rewrite mix_length in E by exact L. destruct a; [contradiction|discriminate]. Qed.

Lemma selected_nonempty img P l i : selected img P l -> inb (shp img) i = true -> P i -> l <> [].
Proof. intros (p & _ & I & M) Hi Hp ->. assert (X : In i p) by (apply I; split; assumption). destruct p; [destruct X|discriminate]. Qed.

Lemma ratio_ge q m d : 0 < d -> (q <= m / d <-> q * d <= m).
Proof.
  intros Hd. split; intros H.
  - apply Rmult_le_compat_r with (r := d) in H; [|lra]. unfold Rdiv in H. rewrite Rmult_assoc, Rinv_l in H by lra. lra.
  - apply Rmult_le_reg_r with d; [exact Hd|]. unfold Rdiv. rewrite Rmult_assoc, Rinv_l by lra. lra.
Qed.

Lemma ratio_mix q t ma mb da db d : 0 < q -> 0 <= t <= 1 -> 0 < da -> 0 < db -> 0 < d -> d <= t * da + (1 - t) * db ->
  q <= ma / da -> q <= mb / db -> q <= (t * ma + (1 - t) * mb) / d.
Proof.
  intros Hq Ht Ha Hb Hd D A B. rewrite ratio_ge in A, B |- * by assumption.
  assert (q * d <= q * (t * da + (1 - t) * db)) by (apply Rmult_le_compat_l; lra).
  assert (t * (q * da) <= t * ma) by (apply Rmult_le_compat_l; lra). assert ((1 - t) * (q * db) <= (1 - t) * mb) by (apply Rmult_le_compat_l; lra). lra.
Qed.

(** Two images with SNR of at least q > 0 in a region: so has every mixture, unless it has no noise at all there. *)
Theorem C154_snr : forall mk nobg a b t sc r kind it lo hi yuv q i, 0 <= t <= 1 -> wf a -> wf b -> shp b = shp a ->
  grey (shp a) -> last (shp a) 0%nat <> 3%nat -> length sc = length (shp a) -> (0 < r)%Z -> Forall (fun z => r <= Z.abs z)%Z sc -> kind <> KUnknown ->
  inb (shp a) i = true -> in_region kind (shp a) sc r i -> 0 < q ->
  (forall img, img = a \/ img = b -> exists v, snr mk nobg img (map CInt sc) (RInt r) kind false it lo hi yuv = Ok (SGrey (Fin v) (snr_keys kind false)) /\ q <= v) ->
  exists v, snr mk nobg (mixed t a b) (map CInt sc) (RInt r) kind false it lo hi yuv = Ok (SGrey (Fin v) (snr_keys kind false)) /\
    (q <= v \/ v = 0 /\ exists l, selected (mixed t a b) (in_region kind (shp a) sc r) l /\ deviation l = 0).
Proof.
  intros mk nobg a b t sc r kind it lo hi yuv q i Ht Wa Wb E G H3 Ls Hr Fs Hk Hi Ri Hq H.
  destruct (C46_value mk nobg a sc r kind it lo hi yuv) as (la & Sa & Za & Va); try assumption.
  destruct (C46_value mk nobg b sc r kind it lo hi yuv) as (lb & Sb & Zb & Vb); try (rewrite E; assumption); try assumption. rewrite E in Sb.
  destruct (C46_value mk nobg (mixed t a b) sc r kind it lo hi yuv) as (l & S & Z & V); try assumption; [apply wf_mixed; assumption|].
  change (shp (mixed t a b)) with (shp a) in S. destruct (selected_mixed t a b _ la lb E Sa Sb) as [S' L].
  assert (l = mix t la lb) as -> by (eapply selected_unique; eassumption).
  pose proof (selected_nonempty a _ la i Sa Hi Ri) as Na. assert (Nb : lb <> []) by (intros F; rewrite F in L; destruct la; [contradiction|discriminate]).
  pose proof (mix_nonempty t la lb Na L) as N.
  assert (Pa : 0 < deviation la /\ q <= mean la / deviation la).
  { destruct (H a (or_introl eq_refl)) as (v & Ev & Hv). destruct (deviation_pos la) as [P|P].
    - split; [exact P|]. rewrite Va in Ev by (assumption || lra). injection Ev as <-. exact Hv.
    - rewrite Za in Ev by (assumption || lra). injection Ev as <-. lra. }
  assert (Pb : 0 < deviation lb /\ q <= mean lb / deviation lb).
  { destruct (H b (or_intror eq_refl)) as (v & Ev & Hv). destruct (deviation_pos lb) as [P|P].
    - split; [exact P|]. rewrite Vb in Ev by (assumption || lra). injection Ev as <-. exact Hv.
    - rewrite Zb in Ev by (assumption || lra). injection Ev as <-. lra. }
  destruct (deviation_pos (mix t la lb)) as [P|P].
  - exists (mean (mix t la lb) / deviation (mix t la lb)). split; [apply V; [exact N|lra]|]. left. rewrite mean_mix by assumption.
    apply (ratio_mix q t _ _ (deviation la) (deviation lb)); try tauto. apply deviation_mix_le; assumption.
  - exists 0. split; [apply Z; [exact N|lra]|]. right. split; [reflexivity|]. exists (mix t la lb). split; [exact S'|lra].
Qed.
Print Assumptions C154_snr.

(** The same for CNR. *)
Theorem C154_cnr : forall mk nobg a b t bc sc r kind it q i j, 0 <= t <= 1 -> wf a -> wf b -> shp b = shp a ->
  grey (shp a) -> length bc = length (shp a) -> length sc = length (shp a) -> (0 < r)%Z ->
  Forall (fun z => r <= Z.abs z)%Z bc -> Forall (fun z => r <= Z.abs z)%Z sc -> kind <> KUnknown ->
  inb (shp a) i = true -> in_region kind (shp a) sc r i -> inb (shp a) j = true -> in_region kind (shp a) bc r j -> 0 < q ->
  (forall img, img = a \/ img = b -> exists v, cnr mk nobg img (map CInt bc) (map CInt sc) (RInt r) kind false it = Ok (Fin v) /\ q <= v) ->
  exists v, cnr mk nobg (mixed t a b) (map CInt bc) (map CInt sc) (RInt r) kind false it = Ok (Fin v) /\
    (q <= v \/ v = 0 /\ exists l, selected (mixed t a b) (in_region kind (shp a) bc r) l /\ deviation l = 0).
Proof.
  intros mk nobg a b t bc sc r kind it q i j Ht Wa Wb E G Lb Ls Hr Fb Fs Hk Hi Ri Hj Rj Hq H.
  destruct (C45_value mk nobg a bc sc r kind it) as (sa & ga & Sa & Ga & Za & Va); try assumption.
  destruct (C45_value mk nobg b bc sc r kind it) as (sb & gb & Sb & Gb & Zb & Vb); try (rewrite E; assumption); try assumption. rewrite E in Sb, Gb.
  destruct (C45_value mk nobg (mixed t a b) bc sc r kind it) as (s & g & S & K & Z & V); try assumption; [apply wf_mixed; assumption|].
  change (shp (mixed t a b)) with (shp a) in S, K.
  destruct (selected_mixed t a b _ sa sb E Sa Sb) as [S' Ll]. destruct (selected_mixed t a b _ ga gb E Ga Gb) as [K' Lg].
  assert (s = mix t sa sb) as -> by (eapply selected_unique; eassumption). assert (g = mix t ga gb) as -> by (eapply selected_unique; eassumption).
  pose proof (selected_nonempty a _ sa i Sa Hi Ri) as Nsa. pose proof (selected_nonempty a _ ga j Ga Hj Rj) as Nga.
  assert (Nsb : sb <> []) by (intros F; rewrite F in Ll; destruct sa; [contradiction|discriminate]).
  assert (Ngb : gb <> []) by (intros F; rewrite F in Lg; destruct ga; [contradiction|discriminate]).
  pose proof (mix_nonempty t sa sb Nsa Ll) as Ns. pose proof (mix_nonempty t ga gb Nga Lg) as Ng.
  assert (Pa : 0 < deviation ga /\ q <= (mean sa - mean ga) / deviation ga).
  { destruct (H a (or_introl eq_refl)) as (v & Ev & Hv). destruct (deviation_pos ga) as [P|P].
    - split; [exact P|]. rewrite Va in Ev by (assumption || lra). injection Ev as <-. exact Hv.
    - rewrite Za in Ev by (assumption || lra). injection Ev as <-. lra. }
  assert (Pb : 0 < deviation gb /\ q <= (mean sb - mean gb) / deviation gb).
  { destruct (H b (or_intror eq_refl)) as (v & Ev & Hv). destruct (deviation_pos gb) as [P|P].
    - split; [exact P|]. rewrite Vb in Ev by (assumption || lra). injection Ev as <-. exact Hv.
    - rewrite Zb in Ev by (assumption || lra). injection Ev as <-. lra. }
  destruct (deviation_pos (mix t ga gb)) as [P|P].
  - exists ((mean (mix t sa sb) - mean (mix t ga gb)) / deviation (mix t ga gb)). split; [apply V; [exact Ng|exact Ns|lra]|]. left. rewrite !mean_mix by assumption.
    replace (t * mean sa + (1 - t) * mean sb - (t * mean ga + (1 - t) * mean gb)) with (t * (mean sa - mean ga) + (1 - t) * (mean sb - mean gb)) by ring.
    apply (ratio_mix q t _ _ (deviation ga) (deviation gb)); try tauto. apply deviation_mix_le; assumption.
  - exists 0. split; [apply Z; [exact Ng|lra]|]. right. split; [reflexivity|]. exists (mix t ga gb). split; [exact K'|lra].
Qed.
Print Assumptions C154_cnr.

(** Uncorrelated noise of the same strength around the same mean: averaging two images raises SNR by the root of 2. *)
Theorem C154_noise : forall mk nobg a b sc r kind it lo hi yuv la lb, wf a -> wf b -> shp b = shp a ->
  grey (shp a) -> last (shp a) 0%nat <> 3%nat -> length sc = length (shp a) -> (0 < r)%Z -> Forall (fun z => r <= Z.abs z)%Z sc -> kind <> KUnknown ->
  selected a (in_region kind (shp a) sc r) la -> selected b (in_region kind (shp a) sc r) lb -> la <> [] ->
  mean la = mean lb -> deviation la = deviation lb -> deviation la <> 0 -> covariance la lb = 0 ->
  exists v, snr mk nobg a (map CInt sc) (RInt r) kind false it lo hi yuv = Ok (SGrey (Fin v) (snr_keys kind false)) /\
    snr mk nobg b (map CInt sc) (RInt r) kind false it lo hi yuv = Ok (SGrey (Fin v) (snr_keys kind false)) /\
    snr mk nobg (mixed (1 / 2) a b) (map CInt sc) (RInt r) kind false it lo hi yuv = Ok (SGrey (Fin (sqrt 2 * v)) (snr_keys kind false)).
Proof.
  intros mk nobg a b sc r kind it lo hi yuv la lb Wa Wb E G H3 Ls Hr Fs Hk Sa Sb Na M D Dn C.
  destruct (C46_value mk nobg a sc r kind it lo hi yuv) as (la' & Sa' & _ & Va); try assumption. assert (la' = la) as -> by (eapply selected_unique; eassumption).
  destruct (C46_value mk nobg b sc r kind it lo hi yuv) as (lb' & Sb' & _ & Vb); try (rewrite E; assumption); try assumption. rewrite E in Sb'.
  assert (lb' = lb) as -> by (eapply selected_unique; eassumption).
  destruct (C46_value mk nobg (mixed (1 / 2) a b) sc r kind it lo hi yuv) as (l & S & _ & V); try assumption; [apply wf_mixed; assumption|].
  change (shp (mixed (1 / 2) a b)) with (shp a) in S. destruct (selected_mixed (1 / 2) a b _ la lb E Sa Sb) as [S' L].
  assert (l = mix (1 / 2) la lb) as -> by (eapply selected_unique; eassumption).
  assert (Nb : lb <> []) by (intros F; rewrite F in L; destruct la; [contradiction|discriminate]).
  pose proof (mix_nonempty (1 / 2) la lb Na L) as N.
  assert (Q : 0 < sqrt 2) by (apply sqrt_lt_R0; lra). assert (QQ : sqrt 2 ^ 2 = 2) by (rewrite <- Rsqr_pow2; apply Rsqr_sqrt; lra).
  assert (P : 0 < deviation la) by (pose proof (deviation_pos la); lra).
  assert (X : deviation (mix (1 / 2) la lb) = deviation la / sqrt 2).
  { apply Rsqr_inj; [apply deviation_pos|apply Rlt_le, Rdiv_lt_0_compat; assumption|]. rewrite !Rsqr_pow2, deviation_mix, C, <- D by assumption.
    replace ((deviation la / sqrt 2) ^ 2) with (deviation la ^ 2 / sqrt 2 ^ 2) by (field; lra). rewrite QQ. field. }
  exists (mean la / deviation la). split; [apply Va; assumption|]. split; [rewrite M, D; apply Vb; [assumption|congruence]|].
  rewrite V; [|exact N|rewrite X; apply Rgt_not_eq, Rdiv_lt_0_compat; assumption].
  do 3 f_equal. rewrite X, mean_mix, <- M by assumption. field_simplify_eq; [|split; lra]. rewrite ?QQ. ring.
Qed.
Print Assumptions C154_noise.

(** Noise that cancels: two images of SNR 2 average to an image without noise, which gets SNR 0, the worst score. *)
Definition stripes : arr R := Arr [2; 2]%nat [1; 3; 1; 3].
Definition counter : arr R := Arr [2; 2]%nat [3; 1; 3; 1].

Lemma snr_full img x y : img = Arr [2; 2]%nat [x; y; x; y] -> x + y = 4 -> (x - 2) ^ 2 = (y - 2) ^ 2 ->
  forall mk nobg it, snr mk nobg img [CInt 1; CInt 1] (RInt 1) KFull false it 0 100 false =
  Ok (SGrey (Fin (if Req_EM_T x 2 then 0 else 2 / Rabs (x - 2))) (snr_keys KFull false)).
Proof.
  intros -> Hs Hq mk nobg it. rewrite snr_eq by reflexivity. change (snr_region nobg _ _ _ _ _ _ _ _) with (@Ok (region) (Whole (Arr [2; 2]%nat [x; y; x; y]))).
  cbn [rmapM]. rewrite snr_value_nonempty by discriminate. cbn [values dat].
  assert (Mn : lmean [x; y; x; y] = 2) by (unfold lmean, Sum; cbn; lra).
  assert (D : std0 [x; y; x; y] = Rabs (x - 2)).
  { unfold std0, dev. rewrite Mn. unfold Sum. cbn. rewrite <- sqrt_Rsqr_abs. f_equal. unfold Rsqr. nra. }
  rewrite Mn, D. destruct (Req_EM_T x 2) as [->|Hx].
  - replace (2 - 2) with 0 by ring. rewrite Rabs_R0. assert (Z : is_zero 0 = true) by (apply is_zero_iff; reflexivity). rewrite Z. reflexivity.
  - assert (Z : is_zero (Rabs (x - 2)) = false) by (apply is_zero_false, Rabs_no_R0; lra). rewrite Z. reflexivity.
Qed.

Theorem C154_cancel_refuted : exists a b, wf a /\ wf b /\ shp b = shp a /\ forall mk nobg it,
  snr mk nobg a [CInt 1; CInt 1] (RInt 1) KFull false it 0 100 false = Ok (SGrey (Fin 2) (snr_keys KFull false)) /\
  snr mk nobg b [CInt 1; CInt 1] (RInt 1) KFull false it 0 100 false = Ok (SGrey (Fin 2) (snr_keys KFull false)) /\
  snr mk nobg (mixed (1 / 2) a b) [CInt 1; CInt 1] (RInt 1) KFull false it 0 100 false = Ok (SGrey (Fin 0) (snr_keys KFull false)).
Proof.
  exists stripes, counter. split; [reflexivity|]. split; [reflexivity|]. split; [reflexivity|]. intros mk nobg it.
  split; [|split].
  - rewrite (snr_full stripes 1 3) by (reflexivity || lra). destruct (Req_EM_T 1 2); [lra|]. do 3 f_equal. rewrite Rabs_left1 by lra. replace (- (1 - 2)) with 1 by ring. lra.
  - rewrite (snr_full counter 3 1) by (reflexivity || lra). destruct (Req_EM_T 3 2); [lra|]. do 3 f_equal. rewrite Rabs_pos_eq by lra. replace (3 - 2) with 1 by ring. lra.
  - rewrite (snr_full (mixed (1 / 2) stripes counter) 2 2); [destruct (Req_EM_T 2 2); [reflexivity|lra]| |reflexivity || lra|reflexivity || lra].
    unfold mixed, mix, stripes, counter. cbn. f_equal. repeat (apply (f_equal2 cons); [lra|]). reflexivity.
Qed.
Print Assumptions C154_cancel_refuted.

(** The noise of the upper and of the lower row is uncorrelated with that of the columns: SNR rises from 2 to 2 sqrt 2. *)
Example C154_example : mean [1; 3; 1; 3] = mean [1; 1; 3; 3] /\ deviation [1; 3; 1; 3] = 1 /\ deviation [1; 1; 3; 3] = 1 /\
  covariance [1; 3; 1; 3] [1; 1; 3; 3] = 0.
Proof.
  assert (M : mean [1; 3; 1; 3] = 2) by (unfold mean; cbn; lra). assert (M' : mean [1; 1; 3; 3] = 2) by (unfold mean; cbn; lra).
  assert (S1 : sqrt 1 = 1) by apply sqrt_1.
  split; [lra|]. split; [|split].
  - unfold deviation. rewrite M. unfold mean. cbn. match goal with |- sqrt ?x = 1 => replace x with 1 by lra end. exact S1.
  - unfold deviation. rewrite M'. unfold mean. cbn. match goal with |- sqrt ?x = 1 => replace x with 1 by lra end. exact S1.
  - unfold covariance. rewrite M, M'. unfold mean. cbn. lra.
Qed.
