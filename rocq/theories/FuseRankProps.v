(** Ranking images with fused scores: property C151. *)
From Coq Require Import Reals Lra Psatz.
From Verif Require Import Base NdArray LoadModel NormModel PairModel RealSums MetricModel MetricProofs MetricProps PartsProps.
Local Open Scope R_scope.

(** The metric objects [ms] hold the finite scores [xs]. *)
Definition holding (ms : list metric) (xs : list R) : Prop := map m_score ms = map (fun x => SNum (Fin x)) xs.

Lemma fuse_holding ms xs ws : holding ms xs -> length xs = length ws -> fuse ms (map Fin ws) = Ok (Fin (fused xs ws)).
Proof. intros H L. rewrite (C21_weighted_sum ms xs ws H), L, Nat.eqb_refl. reflexivity. Qed.

Lemma fused_cons x xs w ws : fused (x :: xs) (w :: ws) = x * w + fused xs ws.
Proof. unfold fused. cbn [combine]. rewrite Sum_cons. reflexivity. Qed.

Lemma fused_triples (l : list (R * R * R)) :
  (forall x y w, In (x, y, w) l -> 0 <= w /\ x <= y \/ w <= 0 /\ y <= x) ->
  fused (map (fun t => fst (fst t)) l) (map snd l) <= fused (map (fun t => snd (fst t)) l) (map snd l) /\
  (fused (map (fun t => fst (fst t)) l) (map snd l) = fused (map (fun t => snd (fst t)) l) (map snd l) <->
   forall x y w, In (x, y, w) l -> w = 0 \/ x = y).
Proof.
  induction l as [|[[x y] w] l IH]; intros H.
  - split; [apply Rle_refl|]. split; [intros _ ? ? ? []|reflexivity].
  - cbn [map fst snd]. rewrite !fused_cons. destruct IH as [IH E]; [intros; apply H; right; assumption|].
    set (u := fused (map (fun t => fst (fst t)) l) (map snd l)) in *. set (v := fused (map (fun t => snd (fst t)) l) (map snd l)) in *.
    assert (A : x * w <= y * w /\ (x * w = y * w -> w = 0 \/ x = y)).
    { split; [destruct (H x y w (or_introl eq_refl)) as [[? ?]|[? ?]]; nra|]. intros F.
      destruct (Req_dec w 0) as [Z|Z]; [left; exact Z|right]. apply Rmult_eq_reg_r with w; assumption. }
    destruct A as [A B]. split; [lra|]. split.
    + intros F x' y' w' [G|G]; [injection G as <- <- <-; apply B; lra|]. revert x' y' w' G. apply E. lra.
    + intros F. assert (u = v) as -> by (apply E; intros; apply F; right; assumption).
      destruct (F x y w (or_introl eq_refl)) as [-> | ->]; ring.
Qed.

(** If for every metric the second score is at least the first (or at most, where the weight is negative), then so is the
    fused score; the fused scores are equal only if all scores with weights other than 0 are. *)
Theorem C151_monotone : forall (l : list (R * R * R)) ms ms',
  holding ms (map (fun t => fst (fst t)) l) -> holding ms' (map (fun t => snd (fst t)) l) ->
  (forall x y w, In (x, y, w) l -> 0 <= w /\ x <= y \/ w <= 0 /\ y <= x) ->
  exists a b, fuse ms (map Fin (map snd l)) = Ok (Fin a) /\ fuse ms' (map Fin (map snd l)) = Ok (Fin b) /\
    a <= b /\ (a = b <-> forall x y w, In (x, y, w) l -> w = 0 \/ x = y).
Proof.
  intros l ms ms' H H' S. do 2 eexists. split; [apply fuse_holding; [exact H|rewrite !map_length; reflexivity]|].
  split; [apply fuse_holding; [exact H'|rewrite !map_length; reflexivity]|]. apply fused_triples, S.
Qed.
Print Assumptions C151_monotone.

Definition unscored : metric := Metric CPSNR [] SNone None.

Lemma holding_exists xs : exists ms, holding ms xs.
Proof.
  exists (map (fun x => set_score unscored (SNum (Fin x))) xs). unfold holding. rewrite map_map. apply map_ext. reflexivity.
Qed.

Lemma fused_zero xs ws : (forall x, In x xs -> x = 0) -> fused xs ws = 0.
Proof.
  revert ws; induction xs as [|x xs IH]; intros ws H; [reflexivity|]. destruct ws as [|w ws]; [reflexivity|].
  rewrite fused_cons, IH by (intros; apply H; right; assumption). rewrite (H x (or_introl eq_refl)). ring.
Qed.

Lemma fused_app xs xs' ws ws' : length xs = length ws -> fused (xs ++ xs') (ws ++ ws') = fused xs ws + fused xs' ws'.
Proof.
  revert ws; induction xs as [|x xs IH]; intros [|w ws] H; try discriminate; [unfold fused; cbn [app combine]; rewrite Sum_nil; ring|].
  cbn [app]. rewrite !fused_cons, IH by (injection H as H; exact H). ring.
Qed.

(** Higher scores in every metric give a higher fused score exactly for weights that are not negative. *)
Theorem C151_unanimous : forall ws,
  (forall ms ms' xs ys a b, holding ms xs -> holding ms' ys -> length xs = length ws -> Forall2 Rle xs ys ->
     fuse ms (map Fin ws) = Ok (Fin a) -> fuse ms' (map Fin ws) = Ok (Fin b) -> a <= b) <->
  (forall w, In w ws -> 0 <= w).
Proof.
  intros ws. split.
  - intros H w Hw. apply in_split in Hw as (u & v & ->).
    set (z := repeat 0 (length u)). set (z' := repeat 0 (length v)).
    destruct (holding_exists (z ++ 0 :: z')) as [ms M]. destruct (holding_exists (z ++ 1 :: z')) as [ms' M'].
    assert (L : forall t : R, length (z ++ t :: z') = length (u ++ w :: v)).
    { intros t. unfold z, z'. rewrite !app_length. cbn [length]. rewrite !repeat_length. reflexivity. }
    assert (F : forall t, fused (z ++ t :: z') (u ++ w :: v) = t * w).
    { intros t. rewrite fused_app by (unfold z; apply repeat_length). rewrite fused_cons, !fused_zero; [ring| |];
      intros x Hx; apply repeat_spec in Hx; exact Hx. }
    assert (G : 0 * w <= 1 * w); [|lra]. rewrite <- !F.
    apply (H ms ms' (z ++ 0 :: z') (z ++ 1 :: z')); [exact M|exact M'|apply L| |apply fuse_holding; [exact M|apply L]|apply fuse_holding; [exact M'|apply L]].
    apply Forall2_app; [|constructor; [lra|]]; [generalize z|generalize z']; intros q; induction q; constructor; (assumption || apply Rle_refl).
  - intros H ms ms' xs ys a b M M' L F A B. rewrite (fuse_holding ms xs ws M L) in A.
    assert (L' : length ys = length ws) by (rewrite <- L; symmetry; clear -F; induction F; cbn; congruence).
    rewrite (fuse_holding ms' ys ws M' L') in B. injection A as <-. injection B as <-. clear M M'.
    revert ws H L L'. induction F as [|x y xs ys Hxy F IH]; intros ws H L L'; [apply Rle_refl|].
    destruct ws as [|w ws]; [discriminate|]. rewrite !fused_cons. apply Rplus_le_compat.
    + apply Rmult_le_compat_r; [apply H; left; reflexivity|exact Hxy].
    + apply IH; [intros; apply H; right; assumption|injection L as L; exact L|injection L' as L'; exact L'].
Qed.
Print Assumptions C151_unanimous.

(** PSNR with a positive weight and RMSE with a negative one (or 0): the fused score ranks like either of them. *)
Theorem C151_psnr_rmse : forall dr wp wr r m1 m2 p1 p2 e1 e2 ms1 ms2 f1 f2, 0 < dr -> 0 < wp -> wr <= 0 ->
  r <> [] -> length r = length m1 -> length r = length m2 ->
  psnr dr r m1 = Fin p1 -> psnr dr r m2 = Fin p2 -> rmse r m1 = Fin e1 -> rmse r m2 = Fin e2 ->
  holding ms1 [p1; e1] -> holding ms2 [p2; e2] -> fuse ms1 [Fin wp; Fin wr] = Ok (Fin f1) -> fuse ms2 [Fin wp; Fin wr] = Ok (Fin f2) ->
  f1 < f2 <-> e2 < e1.
Proof.
  intros dr wp wr r m1 m2 p1 p2 e1 e2 ms1 ms2 f1 f2 Hd Hp Hr N L1 L2 P1 P2 E1 E2 M1 M2 F1 F2.
  change [Fin wp; Fin wr] with (map Fin [wp; wr]) in F1, F2. rewrite (fuse_holding _ _ [wp; wr] M1 eq_refl) in F1. rewrite (fuse_holding _ _ [wp; wr] M2 eq_refl) in F2.
  injection F1 as <-. injection F2 as <-. unfold fused, Sum, rsum. cbn [combine map fst snd fold_right].
  pose proof (C24_same_ranking dr r m1 m2 Hd N L1 L2) as K. pose proof (C24_same_ranking dr r m2 m1 Hd N L2 L1) as K'.
  rewrite rmse_fin in E1, E2 by exact N. injection E1 as E1. injection E2 as E2. rewrite P1, P2, E1, E2 in K, K'. cbn [elt] in K, K'.
  split; intros H.
  - destruct (Rlt_le_dec e2 e1) as [G|G]; [exact G|]. assert (p2 <= p1) by (destruct (Rle_lt_dec p2 p1) as [Q|Q]; [exact Q|apply K in Q; lra]). nra.
  - assert (p1 < p2) by (apply K; exact H). nra.
Qed.
Print Assumptions C151_psnr_rmse.

Lemma rmse_one x : 0 <= x -> rmse [0] [x] = Fin x.
Proof.
  intros H. rewrite rmse_fin by discriminate. f_equal. unfold MetricProofs.rms, Sum, rsum. cbn [combine map fold_right fst snd length INR].
  replace (_ / _) with (x * x) by field. apply sqrt_square, H.
Qed.

(** With both weights positive it does not, unless the weight of RMSE is tiny: of two images inside the data range the
    one with the lower PSNR and the higher RMSE gets the higher fused score. *)
Theorem C151_both_positive_refuted : forall dr wp wr, 0 < dr -> 0 < wp -> 40 * wp * log10 2 < wr * dr ->
  exists r m1 m2 p1 p2 e1 e2, (forall x, In x (r ++ m1 ++ m2) -> 0 <= x <= dr) /\
    psnr dr r m1 = Fin p1 /\ psnr dr r m2 = Fin p2 /\ rmse r m1 = Fin e1 /\ rmse r m2 = Fin e2 /\ p2 < p1 /\ e1 < e2 /\
    forall ms1 ms2, holding ms1 [p1; e1] -> holding ms2 [p2; e2] ->
    exists f1 f2, fuse ms1 [Fin wp; Fin wr] = Ok (Fin f1) /\ fuse ms2 [Fin wp; Fin wr] = Ok (Fin f2) /\ f1 < f2.
Proof.
  intros dr wp wr Hd Hp H.
  assert (R1 : rmse [0] [dr / 2] = Fin (dr / 2)) by (apply rmse_one; lra). assert (R2 : rmse [0] [dr] = Fin dr) by (apply rmse_one; lra).
  assert (P1 : psnr dr [0] [dr / 2] = Fin (20 * log10 2)).
  { rewrite C23_value; [|exact Hd|discriminate|reflexivity|intros E; injection E; lra].
    rewrite rmse_fin in R1 by discriminate. injection R1 as ->. do 3 f_equal. field. lra. }
  assert (P2 : psnr dr [0] [dr] = Fin 0).
  { rewrite C23_value; [|exact Hd|discriminate|reflexivity|intros E; injection E; lra].
    rewrite rmse_fin in R2 by discriminate. injection R2 as ->. f_equal. unfold Rdiv. rewrite Rinv_r by lra. unfold log10. rewrite ln_1. unfold Rdiv. ring. }
  assert (T : 0 < log10 2).
  { unfold log10. apply Rmult_lt_0_compat; [rewrite <- ln_1; apply ln_increasing; lra|]. apply Rinv_0_lt_compat. rewrite <- ln_1. apply ln_increasing; lra. }
  exists [0], [dr / 2], [dr], (20 * log10 2), 0, (dr / 2), dr. repeat (split; [first [assumption | lra | cbn; intros x [<-|[<-|[<-|[]]]]; lra]|]).
  intros ms1 ms2 M1 M2. change [Fin wp; Fin wr] with (map Fin [wp; wr]). do 2 eexists.
  split; [apply (fuse_holding _ _ [wp; wr] M1 eq_refl)|]. split; [apply (fuse_holding _ _ [wp; wr] M2 eq_refl)|].
  unfold fused, Sum, rsum. cbn [combine map fst snd fold_right]. lra.
Qed.
Print Assumptions C151_both_positive_refuted.

(** Equal weights with 8-bit images: the assumption holds, 20 log10 2 being about 6. *)
Example C151_example : 40 * (1 / 2) * log10 2 < 1 / 2 * 255.
Proof.
  assert (log10 2 < 1); [|lra]. unfold log10. assert (A : 0 < ln 10) by (rewrite <- ln_1; apply ln_increasing; lra).
  apply Rmult_lt_reg_r with (ln 10); [exact A|]. unfold Rdiv. rewrite Rmult_assoc, Rinv_l by lra. rewrite Rmult_1_r, Rmult_1_l. apply ln_increasing; lra.
Qed.

(** SSIM 0.5 against 0.9 and RMSE 8 against 6, with weights 1 and -1/10: -0.3 against 0.3. *)
Example C151_ex_monotone : forall ms ms', holding ms [5 / 10; 8] -> holding ms' [9 / 10; 6] ->
  fuse ms [Fin 1; Fin (- (1 / 10))] = Ok (Fin (-3 / 10)) /\ fuse ms' [Fin 1; Fin (- (1 / 10))] = Ok (Fin (3 / 10)).
Proof.
  intros ms ms' H H'. change [Fin 1; Fin (- (1 / 10))] with (map Fin [1; - (1 / 10)]).
  rewrite (fuse_holding _ _ [1; - (1 / 10)] H eq_refl), (fuse_holding _ _ [1; - (1 / 10)] H' eq_refl). unfold fused, Sum, rsum. cbn [combine map fst snd fold_right].
  split; do 2 f_equal; lra.
Qed.
