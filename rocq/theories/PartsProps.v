(** What RMSE and PSNR say about brightness and contrast, and how SNR, CNR and RMSE are related: property C148. *)
From Coq Require Import Reals Lra Psatz Sorted.
From Verif Require Import Base NdArray LoadModel NormModel PairModel RealSums MetricModel MetricProofs SsimModel GsmModel MadModel
  RegionModel RegionProofs RegionFindProofs RegionProps NrModel NrProofs NrProps.
Local Open Scope R_scope.

(** The mean of the products of the distances to the means. *)
Definition covariance (a b : list R) : R := mean (map (fun p => (fst p - mean a) * (snd p - mean b)) (combine a b)).

Lemma mean_Sum l : mean l = Sum (fun x => x) l / INR (length l).
Proof. rewrite <- mean_eq. reflexivity. Qed.

Lemma mean_map {A} (f : A -> R) (l : list A) : mean (map f l) = Sum f l / INR (length l).
Proof. rewrite mean_Sum, Sum_map, map_length. reflexivity. Qed.

Lemma Sum_fst (f : R -> R) (a b : list R) : length a = length b -> Sum f a = Sum (fun p : R * R => f (fst p)) (combine a b).
Proof. revert b. induction a as [|x a IH]; intros [|y b] L; try discriminate; [reflexivity|]. injection L as L. cbn [combine]. rewrite !Sum_cons, (IH b L). reflexivity. Qed.
Lemma Sum_snd (f : R -> R) (a b : list R) : length a = length b -> Sum f b = Sum (fun p : R * R => f (snd p)) (combine a b).
Proof. revert b. induction a as [|x a IH]; intros [|y b] L; try discriminate; [reflexivity|]. injection L as L. cbn [combine]. rewrite !Sum_cons, (IH b L). reflexivity. Qed.

Lemma deviation_sq l : deviation l ^ 2 = Sum (fun x => (x - mean l) ^ 2) l / INR (length l).
Proof.
  unfold deviation. rewrite mean_map. rewrite pow2_sqrt.
  - f_equal. apply Sum_ext. intros x _. ring.
  - destruct l as [|x l]; [unfold Sum, Rdiv; cbn; lra|]. apply Rmult_le_pos; [apply Sum_nonneg; intros; apply Rle_0_sqr|]. left. apply Rinv_0_lt_compat, INR_len_pos. discriminate.
Qed.

Lemma deviation_pos l : 0 <= deviation l.
Proof. apply sqrt_pos. Qed.

Lemma combine_len (a b : list R) : length a = length b -> length (combine a b) = length a.
Proof. intros L. rewrite combine_length, L, Nat.min_id. reflexivity. Qed.

Lemma rms_sq a b : a <> [] -> MetricProofs.rms a b ^ 2 = Sum (fun p => (fst p - snd p) ^ 2) (combine a b) / INR (length a).
Proof.
  intros N. unfold MetricProofs.rms. rewrite pow2_sqrt.
  - f_equal. apply Sum_ext. intros p _. ring.
  - apply Rmult_le_pos; [apply Sum_nonneg; intros; apply Rle_0_sqr|]. left. apply Rinv_0_lt_compat, INR_len_pos, N.
Qed.

Lemma rms_parts a b : a <> [] -> length a = length b ->
  MetricProofs.rms a b ^ 2 = (mean a - mean b) ^ 2 + deviation a ^ 2 + deviation b ^ 2 - 2 * covariance a b.
Proof.
  intros N L. pose proof (INR_len_pos a N) as P. rewrite rms_sq, !deviation_sq by exact N. unfold covariance. rewrite mean_map, combine_len, <- L by exact L.
  rewrite (Sum_fst (fun x => (x - mean a) ^ 2) a b L), (Sum_snd (fun x => (x - mean b) ^ 2) a b L).
  assert (A : Sum (fun p : R * R => fst p) (combine a b) = INR (length a) * mean a).
  { rewrite <- (Sum_fst (fun x => x) a b L), mean_Sum. field. lra. }
  assert (B : Sum (fun p : R * R => snd p) (combine a b) = INR (length a) * mean b).
  { rewrite <- (Sum_snd (fun x => x) a b L), mean_Sum, <- L. field. lra. }
  set (u := mean a) in *. set (w := mean b) in *. set (l := combine a b) in *. set (n := INR (length a)) in *.
  assert (Ln : INR (length l) = n) by (unfold l, n; rewrite combine_len by exact L; reflexivity).
  assert (E : Sum (fun p : R * R => (fst p - snd p) ^ 2) l =
    Sum (fun p : R * R => (fst p - u) ^ 2) l + Sum (fun p : R * R => (snd p - w) ^ 2) l
    - 2 * Sum (fun p : R * R => (fst p - u) * (snd p - w)) l + 2 * (u - w) * (Sum (fun p : R * R => fst p) l - Sum (fun p : R * R => snd p) l)
    - n * (u - w) ^ 2).
  { rewrite <- Ln, <- !Sum_scale. rewrite <- (Sum_minus (fun p : R * R => fst p)), <- !Sum_scale, <- Sum_const, <- Sum_plus, <- Sum_minus, <- Sum_plus, <- Sum_minus.
    apply Sum_ext. intros p _. ring. }
  rewrite E, A, B. field. lra.
Qed.

Lemma cov_bound a b : a <> [] -> length a = length b -> - (deviation a * deviation b) <= covariance a b <= deviation a * deviation b.
Proof.
  intros N L. pose proof (INR_len_pos a N) as P.
  assert (C : covariance a b ^ 2 <= (deviation a * deviation b) ^ 2).
  { rewrite Rpow_mult_distr, !deviation_sq. unfold covariance. rewrite mean_map, combine_len, <- L by exact L.
    rewrite (Sum_fst (fun x => (x - mean a) ^ 2) a b L), (Sum_snd (fun x => (x - mean b) ^ 2) a b L).
    assert (CS := cauchy_schwarz (fun _ : R * R => 1) (fun p => fst p - mean a) (fun p => snd p - mean b) (combine a b) ltac:(intros; lra)).
    rewrite (Sum_ext (fun p : R * R => 1 * (fst p - mean a) * (snd p - mean b)) (fun p => (fst p - mean a) * (snd p - mean b))) in CS by (intros; ring).
    rewrite (Sum_ext (fun p : R * R => 1 * (fst p - mean a) * (fst p - mean a)) (fun p => (fst p - mean a) ^ 2)) in CS by (intros; ring).
    rewrite (Sum_ext (fun p : R * R => 1 * (snd p - mean b) * (snd p - mean b)) (fun p => (snd p - mean b) ^ 2)) in CS by (intros; ring).
    set (s := Sum _ _) in CS |- *. set (q := Sum _ _) in CS |- *. set (t := Sum _ _) in CS |- *. set (n := INR (length a)) in *.
    replace ((s / n) ^ 2) with (s * s * (/ n) ^ 2) by (field; lra). replace (q / n * (t / n)) with (q * t * (/ n) ^ 2) by (field; lra).
    apply Rmult_le_compat_r; [apply pow2_ge_0|exact CS]. }
  pose proof (deviation_pos a). pose proof (deviation_pos b). assert (D : 0 <= deviation a * deviation b) by nra.
  rewrite <- !Rsqr_pow2 in C. apply Rsqr_le_abs_0 in C. rewrite (Rabs_pos_eq _ D) in C. split; [|apply (Rle_trans _ _ _ (Rle_abs _) C)].
  pose proof (Rle_abs (- covariance a b)) as X. rewrite Rabs_Ropp in X. lra.
Qed.

(** The square of RMSE is made of the difference of the means, the difference of the standard deviations and a rest that
    is never negative: what the images do not have in common besides brightness and contrast. *)
Theorem C148_parts : forall a b, a <> [] -> length a = length b ->
  exists v, rmse a b = Fin v /\ v ^ 2 = (mean a - mean b) ^ 2 + (deviation a - deviation b) ^ 2 + 2 * (deviation a * deviation b - covariance a b) /\
    0 <= deviation a * deviation b - covariance a b.
Proof.
  intros a b N L. exists (MetricProofs.rms a b). split; [apply rmse_fin, N|]. rewrite rms_parts by assumption. pose proof (cov_bound a b N L). split; [ring|lra].
Qed.
Print Assumptions C148_parts.

(** So RMSE is never less than the difference of the means or of the standard deviations, nor more than the sum of all. *)
Theorem C148_bounds : forall a b, a <> [] -> length a = length b ->
  exists v, rmse a b = Fin v /\ Rabs (mean a - mean b) <= v /\ Rabs (deviation a - deviation b) <= v /\
    v <= Rabs (mean a - mean b) + deviation a + deviation b.
Proof.
  intros a b N L. exists (MetricProofs.rms a b). split; [apply rmse_fin, N|]. pose proof (rms_parts a b N L) as E. pose proof (cov_bound a b N L) as C.
  pose proof (rms_nonneg a b) as V. pose proof (deviation_pos a) as Da. pose proof (deviation_pos b) as Db.
  set (v := MetricProofs.rms a b) in *. set (x := mean a - mean b) in *. set (p := deviation a) in *. set (q := deviation b) in *.
  pose proof (pow2_ge_0 x). pose proof (pow2_ge_0 (p - q)).
  assert (K : forall y, y ^ 2 <= v ^ 2 -> Rabs y <= v).
  { intros y Hy. rewrite <- (Rabs_pos_eq v V). apply Rsqr_le_abs_0. rewrite !Rsqr_pow2. exact Hy. }
  split; [apply K; nra|]. split; [apply K; nra|].
  pose proof (Rabs_pos x) as Ax. assert (A2 : Rabs x ^ 2 = x ^ 2) by (rewrite <- !Rsqr_pow2; symmetry; apply Rsqr_abs).
  apply Rsqr_incr_0_var; [|lra]. rewrite !Rsqr_pow2. nra.
Qed.
Print Assumptions C148_bounds.

(** PSNR of images whose means or standard deviations differ by d is at most 20 log10 (data_range / d). *)
Theorem C148_psnr : forall dr d a b, 0 < dr -> 0 < d -> a <> [] -> length a = length b ->
  d <= Rabs (mean a - mean b) \/ d <= Rabs (deviation a - deviation b) ->
  exists p, psnr dr a b = Fin p /\ p <= 20 * log10 (dr / d).
Proof.
  intros dr d a b Hr Hd N L H. destruct (C148_bounds a b N L) as (v & E & B1 & B2 & _). rewrite rmse_fin in E by exact N. injection E as <-.
  assert (V : d <= MetricProofs.rms a b) by (destruct H; lra).
  exists (20 * log10 (dr / MetricProofs.rms a b)). split.
  - apply psnr_value; try assumption. intros ->. assert (Z : MetricProofs.rms b b = 0) by (apply MetricProofs.rms_zero; [exact N|reflexivity|reflexivity]). lra.
  - destruct V as [V|V]; [|rewrite <- V; lra]. assert (I : dr / MetricProofs.rms a b < dr / d).
    { apply Rmult_lt_compat_l; [exact Hr|]. apply Rinv_lt_contravar; [nra|exact V]. }
    assert (0 < dr / MetricProofs.rms a b) by (apply Rdiv_lt_0_compat; lra).
    apply (log10_lt _ _) in I; lra.
Qed.
Print Assumptions C148_psnr.

Lemma mean_shift t b : b <> [] -> mean (map (fun x => x + t) b) = mean b + t.
Proof.
  intros N. pose proof (INR_len_pos b N). rewrite mean_map, mean_Sum, (Sum_plus (fun x => x) (fun _ => t)), Sum_const. field. lra.
Qed.

Lemma combine_shift t (a b : list R) : combine a (map (fun x => x + t) b) = map (fun p => (fst p, snd p + t)) (combine a b).
Proof. revert b. induction a as [|x a IH]; intros [|y b]; try reflexivity. cbn [map combine fst snd]. rewrite IH. reflexivity. Qed.

Lemma deviation_shift t b : b <> [] -> deviation (map (fun x => x + t) b) = deviation b.
Proof.
  intros N. unfold deviation. rewrite mean_shift by exact N. rewrite map_map. f_equal. f_equal. apply map_ext. intros x. ring.
Qed.

Lemma covariance_shift t a b : b <> [] -> covariance a (map (fun x => x + t) b) = covariance a b.
Proof.
  intros N. unfold covariance. rewrite mean_shift by exact N. rewrite combine_shift, map_map. f_equal. apply map_ext. intros p. cbn [fst snd]. ring.
Qed.

(** Of all changes of brightness of the second image the one that makes the means equal gives the least RMSE, and only this one. *)
Theorem C148_shift : forall a b t, a <> [] -> length a = length b ->
  exists v w, rmse a (map (fun x => x + (mean a - mean b)) b) = Fin v /\ rmse a (map (fun x => x + t) b) = Fin w /\
    v ^ 2 = deviation a ^ 2 + deviation b ^ 2 - 2 * covariance a b /\ w ^ 2 = v ^ 2 + (mean a - mean b - t) ^ 2 /\
    v <= w /\ (v = w <-> t = mean a - mean b).
Proof.
  intros a b t N L. assert (Nb : b <> []) by (intros ->; destruct a; [contradiction|discriminate]).
  set (u := mean a - mean b). exists (MetricProofs.rms a (map (fun x => x + u) b)), (MetricProofs.rms a (map (fun x => x + t) b)).
  split; [apply rmse_fin, N|]. split; [apply rmse_fin, N|].
  assert (E : forall t, MetricProofs.rms a (map (fun x => x + t) b) ^ 2 = (u - t) ^ 2 + deviation a ^ 2 + deviation b ^ 2 - 2 * covariance a b).
  { intros t'. rewrite rms_parts by (try rewrite map_length; assumption). rewrite mean_shift, deviation_shift, covariance_shift by exact Nb. unfold u. ring. }
  pose proof (E u) as Eu. pose proof (E t) as Et. clear E. pose proof (rms_nonneg a (map (fun x => x + u) b)) as V. pose proof (rms_nonneg a (map (fun x => x + t) b)) as W.
  set (v := MetricProofs.rms a (map (fun x => x + u) b)) in *. set (w := MetricProofs.rms a (map (fun x => x + t) b)) in *.
  assert (Q : w ^ 2 = v ^ 2 + (u - t) ^ 2) by (rewrite Eu, Et; ring). pose proof (pow2_ge_0 (u - t)) as P.
  split; [rewrite Eu; ring|]. split; [exact Q|]. split; [apply Rsqr_incr_0_var; [rewrite !Rsqr_pow2; lra|exact W]|].
  split; intros H.
  - rewrite H in Q. assert (Z : (u - t) ^ 2 = 0) by lra. destruct (Req_dec (u - t) 0) as [X|X]; [lra|]. apply (pow_nonzero _ 2) in X. contradiction.
  - subst t. reflexivity.
Qed.
Print Assumptions C148_shift.

Lemma combine_const (k : R) (a : list R) : combine a (map (fun _ => k) a) = map (fun x => (x, k)) a.
Proof. induction a as [|x a IH]; [reflexivity|]. cbn [map combine]. rewrite IH. reflexivity. Qed.

(** RMSE against an image of a single grey value k; with the mean as value it is the standard deviation, the least possible. *)
Theorem C148_constant : forall a k, a <> [] ->
  rmse a (map (fun _ => k) a) = Fin (sqrt (deviation a ^ 2 + (mean a - k) ^ 2)) /\ rmse a (map (fun _ => mean a) a) = Fin (deviation a).
Proof.
  intros a k N. assert (G : forall k, rmse a (map (fun _ => k) a) = Fin (sqrt (deviation a ^ 2 + (mean a - k) ^ 2))).
  { clear k. intros k. rewrite rmse_fin by exact N. f_equal. pose proof (INR_len_pos a N) as P.
    rewrite <- (sqrt_pow2 (MetricProofs.rms a (map (fun _ => k) a)) (rms_nonneg _ _)). f_equal.
    rewrite rms_sq by exact N. rewrite combine_const, Sum_map, deviation_sq. cbn [fst snd].
    assert (A : Sum (fun x => x) a = INR (length a) * mean a) by (rewrite mean_Sum; field; lra). set (u := mean a) in *.
    assert (E : Sum (fun x => (x - k) ^ 2) a = Sum (fun x => (x - u) ^ 2) a + 2 * (u - k) * Sum (fun x => x) a + INR (length a) * (k ^ 2 - u ^ 2)).
    { rewrite <- Sum_scale, <- Sum_const, <- !Sum_plus. apply Sum_ext. intros x _. ring. }
    rewrite E, A. field. lra. }
  split; [apply G|]. rewrite G. f_equal. replace (deviation a ^ 2 + (mean a - mean a) ^ 2) with (deviation a ^ 2) by ring. apply sqrt_pow2, deviation_pos.
Qed.
Print Assumptions C148_constant.

Lemma sorted_same {A} (f : A -> nat) (l l' : list A) : StronglySorted (fun i j => (f i < f j)%nat) l -> StronglySorted (fun i j => (f i < f j)%nat) l' ->
  (forall x, In x l <-> In x l') -> l = l'.
Proof.
  revert l'. induction l as [|x l IH]; intros [|y l'] H H' E.
  - reflexivity.
  - destruct (proj2 (E y) (or_introl eq_refl)).
  - destruct (proj1 (E x) (or_introl eq_refl)).
  - apply StronglySorted_inv in H as [H F]. apply StronglySorted_inv in H' as [H' F']. rewrite Forall_forall in F, F'.
    assert (x = y) as ->.
    { destruct (proj1 (E x) (or_introl eq_refl)) as [X|X]; [congruence|]. destruct (proj2 (E y) (or_introl eq_refl)) as [Y|Y]; [congruence|].
      specialize (F y Y). specialize (F' x X). lia. }
    f_equal. apply IH; [exact H|exact H'|]. intros z. split; intros Hz.
    + destruct (proj1 (E z) (or_intror Hz)) as [<-|]; [|assumption]. specialize (F y Hz). lia.
    + destruct (proj2 (E z) (or_intror Hz)) as [<-|]; [|assumption]. specialize (F' y Hz). lia.
Qed.

Lemma selected_unique img P l l' : selected img P l -> selected img P l' -> l = l'.
Proof.
  intros (t & S & I & M) (t' & S' & I' & M'). assert (t = t') as <- by (eapply sorted_same; [exact S|exact S'|intros x; rewrite I, I'; reflexivity]).
  rewrite M in M'. clear -M'. revert l' M'. induction l as [|x l IH]; intros [|y l'] H; try discriminate; [reflexivity|]. injection H as -> H. f_equal. apply IH, H.
Qed.

(** CNR and SNR of one image and region size: CNR is SNR of the background region times the relative contrast of the
    regions. *)
Theorem C148_cnr_snr : forall mk nobg img bc sc r kind it lo hi yuv, wf img -> grey (shp img) -> last (shp img) 0%nat <> 3%nat ->
  length bc = length (shp img) -> length sc = length (shp img) -> (0 < r)%Z ->
  Forall (fun z => r <= Z.abs z)%Z bc -> Forall (fun z => r <= Z.abs z)%Z sc -> kind <> KUnknown ->
  exists sg bg, selected img (in_region kind (shp img) sc r) sg /\ selected img (in_region kind (shp img) bc r) bg /\
    (sg <> [] -> bg <> [] -> mean bg <> 0 ->
     exists c s, cnr mk nobg img (map CInt bc) (map CInt sc) (RInt r) kind false it = Ok (Fin c) /\
       snr mk nobg img (map CInt bc) (RInt r) kind false it lo hi yuv = Ok (SGrey (Fin s) (snr_keys kind false)) /\
       c = (mean sg / mean bg - 1) * s).
Proof.
  intros mk nobg img bc sc r kind it lo hi yuv Hw Hg H3 Lb Ls Hr Fb Fs Hk.
  destruct (C45_value mk nobg img bc sc r kind it) as (sg & bg & S1 & S2 & C0 & C1); try assumption.
  destruct (C46_value mk nobg img bc r kind it lo hi yuv) as (bg' & S3 & D0 & D1); try assumption.
  assert (bg' = bg) as -> by (eapply selected_unique; eassumption).
  exists sg, bg. split; [exact S1|]. split; [exact S2|]. intros Ns Nb M. destruct (Req_dec (deviation bg) 0) as [Z|Z].
  - exists 0, 0. split; [apply C0; assumption|]. split; [apply D0; assumption|]. ring.
  - exists ((mean sg - mean bg) / deviation bg), (mean bg / deviation bg). split; [apply C1; assumption|]. split; [apply D1; assumption|]. field. split; assumption.
Qed.
Print Assumptions C148_cnr_snr.

(** Two images with the same brightness and contrast whose RMSE is all structure, and one that is a brighter copy. *)
Example C148_example : mean [1; 3] = 2 /\ deviation [1; 3] = 1 /\ covariance [1; 3] [3; 1] = -1 /\ covariance [1; 3] [5; 7] = 1 /\
  rmse [1; 3] [3; 1] = Fin 2 /\ rmse [1; 3] [5; 7] = Fin 4 /\ rmse [1; 3] (map (fun x => x + (mean [1; 3] - mean [5; 7])) [5; 7]) = Fin 0 /\
  rmse [1; 3] [2; 2] = Fin 1.
Proof.
  assert (M : mean [1; 3] = 2) by (unfold mean; cbn; lra). assert (M' : mean [3; 1] = 2) by (unfold mean; cbn; lra).
  assert (M2 : mean [5; 7] = 6) by (unfold mean; cbn; lra). assert (S1 : sqrt 1 = 1) by apply sqrt_1.
  assert (D : deviation [1; 3] = 1). { unfold deviation. rewrite M. unfold mean. cbn. match goal with |- sqrt ?x = 1 => replace x with 1 by lra end. exact S1. }
  split; [exact M|]. split; [exact D|].
  split; [unfold covariance; rewrite M, M'; unfold mean; cbn; lra|]. split; [unfold covariance; rewrite M, M2; unfold mean; cbn; lra|].
  split; [|split; [|split]].
  - rewrite rmse_fin by discriminate. f_equal. unfold MetricProofs.rms, Sum. cbn. replace (_ / _) with (2 * 2) by lra. apply sqrt_square. lra.
  - rewrite rmse_fin by discriminate. f_equal. unfold MetricProofs.rms, Sum. cbn. replace (_ / _) with (4 * 4) by lra. apply sqrt_square. lra.
  - rewrite M, M2, rmse_fin by discriminate. f_equal. unfold MetricProofs.rms, Sum. cbn. replace (_ / _) with 0 by lra. apply sqrt_0.
  - destruct (C148_constant [1; 3] 0 ltac:(discriminate)) as [_ E]. rewrite M, D in E. exact E.
Qed.

(** The image of C45_ex: CNR 4 is SNR 2 of the background times the relative contrast 6 / 2 - 1. *)
Example C148_ex_regions : exists c s, cnr NaN (fun _ _ => 0%nat) demo [CInt 1; CInt 1] [CInt 1; CInt 3] (RInt 1) KCubic false 1 = Ok (Fin c) /\
  snr NaN (fun _ _ => 0%nat) demo [CInt 1; CInt 1] (RInt 1) KCubic false 1 0 100 false = Ok (SGrey (Fin s) (snr_keys KCubic false)) /\ c = 4 /\ s = 2.
Proof.
  exists 4, 2. split; [exact C45_ex|]. split; [|split; reflexivity]. rewrite snr_eq by reflexivity.
  assert (E : snr_region (fun _ _ => 0%nat) demo [CInt 1; CInt 1] (RInt 1) KCubic false 1 0 100 =
    Ok (Masked (Arr [2; 4]%nat [Some 1; Some 3; None; None; Some 1; Some 3; None; None]))) by reflexivity.
  rewrite E. cbn [rmapM bind]. unfold snr_value. cbn [values somes dat flat_map app].
  assert (M1 : lmean [1; 3; 1; 3] = 2) by (unfold lmean, Sum; cbn; lra).
  assert (D : std0 [1; 3; 1; 3] = 1).
  { unfold std0, dev. rewrite M1. unfold Sum. cbn. replace (_ / _) with (1 * 1) by field. apply sqrt_square. lra. }
  rewrite M1, D. destruct (is_zero 1) eqn:Z; [apply is_zero_iff in Z; lra|]. do 2 f_equal. f_equal. lra.
Qed.
