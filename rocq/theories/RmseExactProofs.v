From Coq Require Import Reals Lra Lia Psatz Permutation.
From Verif Require Import Base LoadModel RealSums MetricModel SsimRoundModel RoundProofs RmseRoundModel RmseRoundProofs.
Open Scope R_scope.

(** ** Whole numbers *)
Definition wide (f : format) : Prop := (3 <= prec f <= 53 /\ -1074 <= emin f <= 0 /\ prec f < emax f /\ prec f <= - emin f)%Z.
Lemma wide32 : wide binary32. Proof. repeat split; simpl; lia. Qed.
Lemma wide64 : wide binary64. Proof. repeat split; simpl; lia. Qed.

Definition Zsum (l : list Z) : Z := fold_right Z.add 0%Z l.
Lemma Zsum_app l l' : Zsum (l ++ l') = (Zsum l + Zsum l')%Z.
Proof. unfold Zsum. induction l; simpl; lia. Qed.
Lemma Zsum_perm l l' : Permutation l l' -> Zsum l = Zsum l'.
Proof. induction 1; simpl; lia. Qed.
Lemma Zsum_nonneg l : (forall x, In x l -> (0 <= x)%Z) -> (0 <= Zsum l)%Z.
Proof. induction l; simpl; intros H; [lia|]. pose proof (H a (or_introl eq_refl)). assert (0 <= Zsum l)%Z by auto. lia. Qed.

(** Sums of whole numbers up to 2^53 are exact in every order. *)
Lemma total_int f t (g : R * R -> Z) :
  (forall p, In p (leaves t) -> (0 <= g p)%Z /\ square_diff f (fst p) (snd p) = Fin (IZR (g p))) ->
  (Zsum (map g (leaves t)) <= 2 ^ 53)%Z -> total f t = Fin (IZR (Zsum (map g (leaves t)))).
Proof.
  induction t as [[x y]|l IHl r IHr]; intros H HS.
  - destruct (H (x, y)) as [_ E]; [left; reflexivity|]. simpl in *. rewrite Z.add_0_r. exact E.
  - cbn [leaves] in *. rewrite map_app, Zsum_app in *.
    assert (P : forall t' : tree, (forall p, In p (leaves t') -> In p (leaves l ++ leaves r)) -> (0 <= Zsum (map g (leaves t')))%Z).
    { intros t' I. apply Zsum_nonneg. intros z Hz. apply in_map_iff in Hz as (p & <- & Hp). apply H, I, Hp. }
    assert (Pl := P l (fun p i => in_or_app _ _ _ (or_introl i))). assert (Pr := P r (fun p i => in_or_app _ _ _ (or_intror i))).
    cbn [total]. rewrite IHl, IHr; [|intros; apply H, in_or_app; auto|lia|intros; apply H, in_or_app; auto|lia].
    cbn [add64]. rewrite <- plus_IZR. apply store_int; cbn [prec emin emax binary64]; lia.
Qed.

Lemma square_diff_int f a b : wide f -> (Z.abs a <= 2 ^ prec f)%Z -> (Z.abs b <= 2 ^ prec f)%Z ->
  (Z.abs (a - b) <= 2 ^ prec f)%Z ->
  square_diff f (IZR a) (IZR b) = store f (IZR ((a - b) * (a - b))).
Proof.
  intros (Wp & We & Wx & _) Ha Hb Hd. unfold square_diff. rewrite !store_int by lia. rewrite <- minus_IZR, store_int by lia.
  rewrite mult_IZR. reflexivity.
Qed.

Lemma square_diff_int_exact f a b : wide f -> (Z.abs a <= 2 ^ prec f)%Z -> (Z.abs b <= 2 ^ prec f)%Z ->
  ((a - b) * (a - b) <= 2 ^ prec f)%Z ->
  square_diff f (IZR a) (IZR b) = Fin (IZR ((a - b) * (a - b))).
Proof.
  intros W Ha Hb Hd. set (d := (a - b)%Z) in *.
  assert (D : (0 <= d * d)%Z) by apply Z.square_nonneg.
  assert (A : (Z.abs d <= d * d)%Z) by (destruct (Z.abs_spec d) as [[? ->]|[? ->]]; nia).
  rewrite square_diff_int by (try assumption; fold d; lia). fold d. destruct W as (Wp & We & Wx & _).
  apply store_int; rewrite ?(Z.abs_eq (d * d)) by exact D; lia.
Qed.

(** ** Score of an exact sum *)
Lemma round_64_rel x : pow2 (- 1000) <= x -> Rabs (round_f binary64 x - x) <= v64 * x.
Proof.
  intros H. pose proof (pow2_pos (- 1000)) as P. assert (X : x <> 0) by lra.
  destruct (exponent_spec x X) as [_ E]. rewrite Rabs_right in E by lra.
  assert (-1000 < exponent x + 1)%Z by (apply pow2_lt_inv; lra).
  rewrite round_f_normal by (cbn [prec emin binary64]; lia). cbn [prec binary64]. pose proof (round_rel 53 x) as R53.
  rewrite (Rabs_right x) in R53 by lra. exact R53.
Qed.

Lemma store_64 x y : 0 <= x <= pow2 200 -> y = round_f binary64 x -> store binary64 x = Fin y.
Proof.
  intros H ->. apply store_fin. split; [reflexivity|]. pose proof (round_f_err binary64 x) as E. cbn [prec emin emax binary64] in *.
  change (pow2 (Z.opp 53)) with v64 in E. pose proof v64_small as V. rewrite (Rabs_right x) in E by lra.
  assert (S : pow2 (-1074 - 1) <= 1) by (rewrite <- pow2_0; apply pow2_le; lia).
  assert (B : 1 <= pow2 200) by (rewrite <- pow2_0; apply pow2_le; lia).
  assert (L : pow2 202 <= pow2 1024) by (apply pow2_le; lia).
  assert (Q : pow2 202 = 4 * pow2 200) by (change 202%Z with (200 + 2)%Z; rewrite pow2_plus; unfold pow2 at 2; simpl; ring).
  pose proof (round_f_nonneg binary64 x (proj1 H)). rewrite Rabs_right by lra. apply abs_between in E.
  assert (v64 * x <= 1 / 1000 * x) by (apply Rmult_le_compat_r; lra). lra.
Qed.

Definition mean (s : Z) (n : nat) : R := IZR s / INR n.

(** np.sqrt(np.mean(...)) of a sum that is known *)
Lemma rmse_of_total f t s : total f t = Fin (IZR s) -> (0 <= s <= 2 ^ 53)%Z -> INR (length (leaves t)) <= pow2 53 ->
  let E := sqrt (IZR s / INR (length (leaves t))) in
  let r := round_f binary64 (sqrt (round_f binary64 (IZR s / INR (length (leaves t))))) in
  rmse_r f t = Fin r /\ Rabs (r - E) <= pow2 (- 52) * E.
Proof.
  intros H Hs Hn E r. unfold rmse_r, mse_r. rewrite H.
  assert (N0 : 1 <= INR (length (leaves t))) by (apply (le_INR 1), leaves_pos).
  set (n := INR (length (leaves t))) in *. set (x := IZR s / n) in *.
  assert (S0 : 0 <= IZR s) by (apply (IZR_le 0); lia).
  assert (S53 : IZR s <= pow2 53) by (rewrite pow2_Z by lia; apply IZR_le; lia).
  assert (I : 0 < / n <= 1).
  { split; [apply Rinv_0_lt_compat; lra|]. rewrite <- Rinv_1. apply Rinv_le_contravar; lra. }
  assert (X0 : 0 <= x <= pow2 53) by (unfold x, Rdiv; split; nra).
  assert (L200 : forall k, (k <= 200)%Z -> pow2 k <= pow2 200) by (intros; apply pow2_le; lia).
  rewrite (store_64 x (round_f binary64 x)); [|pose proof (L200 53%Z ltac:(lia)); lra|reflexivity].
  pose proof v64_small as V.
  assert (C52 : pow2 (- 52) = 2 * v64).
  { unfold v64. change (- 52)%Z with (1 + - 53)%Z. rewrite pow2_plus. change (pow2 1) with (2 * 1). ring. }
  assert (X1000 : x = 0 \/ pow2 (- 53) <= x).
  { destruct (Z.eq_dec s 0) as [->|]; [left; unfold x, Rdiv; ring|right]. unfold x, Rdiv.
    assert (1 <= IZR s) by (apply (IZR_le 1); lia).
    assert (pow2 (- 53) <= / n) by (change (- 53)%Z with (Z.opp 53); rewrite pow2_opp; apply Rinv_le_contravar; lra).
    nra. }
  assert (SM : pow2 (- 1000) <= pow2 (- 53) / 4).
  { apply Rle_trans with (pow2 (- 55)); [apply pow2_le; lia|]. right. change (- 53)%Z with (- 55 + 2)%Z. rewrite pow2_plus. unfold pow2 at 3. simpl. field. }
  assert (M : Rabs (round_f binary64 x - x) <= v64 * x).
  { destruct X1000 as [->|X1]; [rewrite round_f_0, Rminus_diag_eq, Rabs_R0 by reflexivity; lra|].
    apply round_64_rel. pose proof (pow2_pos (- 53)). lra. }
  apply abs_between in M. assert (M0 := round_f_nonneg binary64 x (proj1 X0)). unfold r.
  set (m := round_f binary64 x) in *. set (y := sqrt m) in *.
  assert (Y0 : 0 <= y) by apply sqrt_pos. assert (YY : y * y = m) by (apply sqrt_sqrt; exact M0).
  assert (E0 : 0 <= E) by apply sqrt_pos. assert (EE : E * E = x) by (apply sqrt_sqrt; lra).
  assert (M54 : m <= pow2 54).
  { change 54%Z with (1 + 53)%Z. rewrite pow2_plus. change (pow2 1) with (2 * 1). pose proof (pow2_pos 53). nra. }
  assert (Y54 : y <= pow2 54).
  { assert (1 <= pow2 54) by (rewrite <- pow2_0; apply pow2_le; lia). destruct (Rle_lt_dec y 1); [lra|]. nra. }
  split.
  { apply store_64; [|reflexivity]. pose proof (L200 54%Z ltac:(lia)). lra. }
  assert (Yh : y <= (1 + v64 / 2) * E).
  { apply Rsqr_incr_0_var; [|apply Rmult_le_pos; lra]. unfold Rsqr. rewrite YY. assert (0 <= v64 * v64 * x) by (apply Rmult_le_pos; nra).
    replace ((1 + v64 / 2) * E * ((1 + v64 / 2) * E)) with ((1 + v64 + v64 * v64 / 4) * (E * E)) by field. rewrite EE. nra. }
  assert (Yl : (1 - v64) * E <= y).
  { apply Rsqr_incr_0_var; [|exact Y0]. unfold Rsqr. rewrite YY.
    replace ((1 - v64) * E * ((1 - v64) * E)) with ((1 - v64) * (1 - v64) * (E * E)) by ring. rewrite EE. nra. }
  assert (B : Rabs (round_f binary64 y - y) <= v64 * y).
  { destruct X1000 as [X1|X1].
    - assert (m = 0) by (unfold m; rewrite X1; apply round_f_0). assert (y = 0) by (unfold y; rewrite H0; apply sqrt_0).
      rewrite H1, round_f_0, Rminus_diag_eq, Rabs_R0 by reflexivity. lra.
    - apply round_64_rel. pose proof (pow2_pos (- 53)) as P53. assert (L : pow2 (- 53) / 4 <= m) by nra.
      destruct (Rle_lt_dec 1 y) as [Y1|Y1].
      + assert (pow2 (- 53) <= 1) by (rewrite <- pow2_0; apply pow2_le; lia). lra.
      + nra. }
  apply abs_between in B. rewrite C52. apply Rabs_le. nra.
Qed.

(** ** Zero, symmetry, sign *)
Lemma store_pos_ge f x k y : (0 < prec f)%Z -> (emin f <= k)%Z -> pow2 k <= x -> store f x = Fin y -> pow2 k <= y.
Proof. intros Hp Hk H E. apply store_fin in E as [-> _]. apply round_f_ge; assumption. Qed.

Lemma square_diff_sign f x y : fits f x -> fits f y ->
  square_diff f x y = PInf \/ exists q, square_diff f x y = Fin q /\ 0 <= q.
Proof.
  intros Hx Hy. assert (E : square_diff f x y = match store f (x - y) with Fin d => store f (d * d) | _ => PInf end).
  { unfold square_diff. rewrite Hx, Hy. reflexivity. }
  rewrite E. destruct (store f (x - y)) as [d| | |]; auto.
  destruct (store_nonneg f (d * d)) as [->| ->]; [apply Rle_0_sqr| |auto]. right. eexists. split; [reflexivity|].
  apply round_f_nonneg, Rle_0_sqr.
Qed.

Lemma total_sign f t : good f t -> total f t = PInf \/ exists q, total f t = Fin q /\ 0 <= q.
Proof.
  induction t as [[x y]|l IHl r IHr]; intros G.
  - destruct (G (x, y)) as [Gx Gy]; [left; reflexivity|]. apply square_diff_sign; assumption.
  - apply good_node in G as [Gl Gr]. cbn [total]. destruct (IHl Gl) as [->|(a & -> & A)], (IHr Gr) as [->|(b & -> & B)]; cbn [add64]; auto.
    destruct (store_nonneg binary64 (a + b)) as [->| ->]; [lra| |auto]. right. eexists. split; [reflexivity|]. apply round_f_nonneg. lra.
Qed.

Lemma mse_sign f t : good f t -> mse_r f t = PInf \/ exists q, mse_r f t = Fin q /\ 0 <= q.
Proof.
  intros G. unfold mse_r. destruct (total_sign f t G) as [->|(s & -> & S0)]; [auto|].
  assert (N0 : 1 <= INR (length (leaves t))) by (apply (le_INR 1), leaves_pos).
  assert (X : 0 <= s / INR (length (leaves t))) by (apply Rmult_le_pos; [exact S0|left; apply Rinv_0_lt_compat; lra]).
  destruct (store_nonneg binary64 _ X) as [->| ->]; [right|auto]. eexists. split; [reflexivity|]. apply round_f_nonneg, X.
Qed.

Lemma rmse_sign f t : good f t -> rmse_r f t = PInf \/ exists r, rmse_r f t = Fin r /\ 0 <= r.
Proof.
  intros G. unfold rmse_r. destruct (mse_sign f t G) as [->|(s & -> & S0)]; [auto|].
  destruct (store_nonneg binary64 (sqrt s) (sqrt_pos s)) as [->| ->]; [right|auto]. eexists. split; [reflexivity|].
  apply round_f_nonneg, sqrt_pos.
Qed.

Lemma square_diff_same f x : wide f -> fits f x -> square_diff f x x = Fin 0.
Proof.
  intros (Wp & We & Wx & _) H. unfold square_diff. unfold fits in H. rewrite !H. rewrite Rminus_diag_eq by reflexivity.
  assert (Z0 : store f 0 = Fin 0).
  { apply store_fin. rewrite round_f_0, Rabs_R0. split; [reflexivity|apply pow2_pos]. }
  rewrite Z0, Rmult_0_l. exact Z0.
Qed.

Lemma total_same f t : wide f -> good f t -> (forall p, In p (leaves t) -> fst p = snd p) -> total f t = Fin 0.
Proof.
  intros W. induction t as [[x y]|l IHl r IHr]; intros G H.
  - destruct (G (x, y)) as [Gx Gy]; [left; reflexivity|]. specialize (H (x, y) (or_introl eq_refl)). simpl in *. subst y.
    apply square_diff_same; assumption.
  - apply good_node in G as [Gl Gr]. cbn [total leaves] in *. rewrite IHl, IHr; try assumption; try (intros; apply H, in_or_app; auto).
    cbn [add64]. rewrite Rplus_0_r. apply store_fin. rewrite round_f_0, Rabs_R0. split; [reflexivity|apply pow2_pos].
Qed.

Lemma store64_0 : store binary64 0 = Fin 0.
Proof. apply store_fin. rewrite round_f_0, Rabs_R0. split; [reflexivity|apply pow2_pos]. Qed.

Lemma mse_same f t : wide f -> good f t -> (forall p, In p (leaves t) -> fst p = snd p) -> mse_r f t = Fin 0.
Proof.
  intros W G H. unfold mse_r. rewrite total_same by assumption. unfold Rdiv. rewrite Rmult_0_l. apply store64_0.
Qed.

(** Whole numbers of half the precision *)
Definition whole (f : format) (x : R) : Prop := exists k, x = IZR k /\ (Z.abs k <= 2 ^ (prec f - 1))%Z.

Lemma pow_half f : wide f -> (2 ^ prec f = 2 * 2 ^ (prec f - 1))%Z.
Proof. intros (Wp & _). replace (prec f) with (1 + (prec f - 1))%Z at 1 by lia. rewrite Z.pow_add_r by lia. reflexivity. Qed.

Lemma whole_fits f x : wide f -> whole f x -> fits f x.
Proof.
  intros W (k & -> & Hk). pose proof (pow_half f W). destruct W as (Wp & We & Wx & _).
  assert (0 < 2 ^ (prec f - 1))%Z by (apply Z.pow_pos_nonneg; lia). apply store_int; lia.
Qed.

Lemma square_diff_ge_1 f x y q : wide f -> whole f x -> whole f y -> x <> y -> square_diff f x y = Fin q -> 1 <= q.
Proof.
  intros W (a & -> & Ha) (b & -> & Hb) N. pose proof (pow_half f W) as P.
  assert (0 < 2 ^ (prec f - 1))%Z by (destruct W as (Wp & _); apply Z.pow_pos_nonneg; lia).
  rewrite square_diff_int by (try exact W; lia). intros E. rewrite <- pow2_0. destruct W as (Wp & We & Wx & _).
  apply (store_pos_ge f (IZR ((a - b) * (a - b))) 0 q); try lia; [|exact E]. rewrite pow2_0. apply (IZR_le 1).
  assert (a <> b) by (intros ->; contradiction N; reflexivity). nia.
Qed.

Lemma total_ge_1 f t q : wide f -> (forall p, In p (leaves t) -> whole f (fst p) /\ whole f (snd p)) ->
  (exists p, In p (leaves t) /\ fst p <> snd p) -> total f t = Fin q -> 1 <= q.
Proof.
  intros W. revert q. induction t as [[x y]|l IHl r IHr]; intros q H (p & Hp & N) E.
  - destruct Hp as [<-|[]]. destruct (H (x, y)) as [Hx Hy]; [left; reflexivity|]. apply (square_diff_ge_1 f x y q W Hx Hy N E).
  - cbn [total leaves] in *. apply add64_fin in E as (a & b & Ea & Eb & E).
    assert (Hl : forall p, In p (leaves l) -> whole f (fst p) /\ whole f (snd p)) by (intros; apply H, in_or_app; auto).
    assert (Hr : forall p, In p (leaves r) -> whole f (fst p) /\ whole f (snd p)) by (intros; apply H, in_or_app; auto).
    assert (P : forall t' c, (forall p, In p (leaves t') -> whole f (fst p) /\ whole f (snd p)) -> total f t' = Fin c -> 0 <= c).
    { intros t' c K T. destruct (total_sign f t') as [S|(z & S & S0)].
      - intros p' Hp'. destruct (K p' Hp'). split; apply whole_fits; assumption.
      - congruence.
      - rewrite T in S. injection S as ->. exact S0. }
    pose proof (P l a Hl Ea). pose proof (P r b Hr Eb).
    assert (1 <= a + b).
    { apply in_app_or in Hp as [Hp|Hp].
      - assert (1 <= a) by (apply (IHl a Hl); [exists p; auto|exact Ea]). lra.
      - assert (1 <= b) by (apply (IHr b Hr); [exists p; auto|exact Eb]). lra. }
    rewrite <- pow2_0 in *. eapply (store_pos_ge binary64); [| |eassumption|exact E]; cbn [prec emin binary64]; lia.
Qed.

Lemma mse_pos f t q : wide f -> (forall p, In p (leaves t) -> whole f (fst p) /\ whole f (snd p)) ->
  INR (length (leaves t)) <= pow2 53 ->
  (exists p, In p (leaves t) /\ fst p <> snd p) -> mse_r f t = Fin q -> pow2 (- 53) <= q.
Proof.
  intros W H Hn N E. unfold mse_r in E. destruct (total f t) as [s| | |] eqn:Es; try discriminate.
  pose proof (total_ge_1 f t s W H N Es) as S1.
  eapply (store_pos_ge binary64); [| | |exact E]; [cbn [prec binary64]; lia|cbn [emin binary64]; lia|].
  assert (N0 : 1 <= INR (length (leaves t))) by (apply (le_INR 1), leaves_pos).
  change (- 53)%Z with (Z.opp 53). rewrite pow2_opp. unfold Rdiv.
  assert (I : / pow2 53 <= / INR (length (leaves t))) by (apply Rinv_le_contravar; lra).
  assert (0 < / INR (length (leaves t))) by (apply Rinv_0_lt_compat; lra). nra.
Qed.

(** ** Exchange of the images *)
Fixpoint exchange (t : tree) : tree :=
  match t with Leaf (x, y) => Leaf (y, x) | Node l r => Node (exchange l) (exchange r) end.

Lemma square_diff_sym f x y : square_diff f x y = square_diff f y x.
Proof.
  unfold square_diff. destruct (store f x) as [a| | |], (store f y) as [b| | |]; try reflexivity.
  replace (b - a) with (- (a - b)) by ring. unfold store at 1 3. cbv zeta. rewrite round_f_opp, Rabs_Ropp.
  set (d := round_f f (a - b)). destruct (Rlt_dec (Rabs d) (pow2 (emax f))).
  - replace (- d * - d) with (d * d) by ring. reflexivity.
  - destruct (Rlt_dec 0 d), (Rlt_dec 0 (- d)); reflexivity.
Qed.

Lemma total_exchange f t : total f (exchange t) = total f t.
Proof. induction t as [[x y]|l IHl r IHr]; cbn [exchange total]; [apply square_diff_sym|rewrite IHl, IHr; reflexivity]. Qed.

Lemma leaves_exchange t : leaves (exchange t) = map (fun p => (snd p, fst p)) (leaves t).
Proof. induction t as [[x y]|l IHl r IHr]; [reflexivity|]. cbn [exchange leaves]. rewrite IHl, IHr, map_app. reflexivity. Qed.

Lemma rmse_exchange f t : rmse_r f (exchange t) = rmse_r f t.
Proof. unfold rmse_r, mse_r. rewrite total_exchange, leaves_exchange, map_length. reflexivity. Qed.

(** ** The exact score of the same pixels *)
Lemma Rsum_perm l l' : Permutation l l' -> Rsum l = Rsum l'.
Proof. unfold Rsum. induction 1; simpl; lra. Qed.

Lemma Rsum_sq a b : Rsum (map sq (combine a b)) = sum_sq_diff a b.
Proof. revert b. induction a as [|x a IH]; intros [|y b]; try reflexivity. cbn [combine map sum_sq_diff]. rewrite <- IH. reflexivity. Qed.

Definition adds (t : tree) (a b : list R) : Prop := length a = length b /\ Permutation (leaves t) (combine a b).

Lemma adds_length t a b : adds t a b -> length (leaves t) = length a.
Proof. intros [L P]. rewrite (Permutation_length P), combine_length. lia. Qed.

Lemma adds_rmse t a b : adds t a b -> rmse a b = Fin (sqrt (Rsum (map sq (leaves t)) / INR (length (leaves t)))).
Proof.
  intros H. pose proof (adds_length _ _ _ H) as L. pose proof (leaves_pos t) as P. unfold rmse, mse.
  destruct a as [|x a]; [simpl in L; lia|]. rewrite <- L, <- Rsum_sq. destruct H as [_ H].
  rewrite (Rsum_perm _ _ (Permutation_map sq H)). reflexivity.
Qed.

Lemma adds_in t a b (P : R -> R -> Prop) : adds t a b -> Forall2 P a b -> forall p, In p (leaves t) -> P (fst p) (snd p).
Proof.
  intros [_ H] F p Hp. apply (Permutation_in _ H) in Hp. clear H. revert p Hp. induction F as [|x y a b Hxy _ IH]; intros p Hp; [destruct Hp|].
  destruct Hp as [<-|Hp]; [exact Hxy|auto].
Qed.

Lemma adds_equal t a b : adds t a b -> (forall p, In p (leaves t) -> fst p = snd p) <-> a = b.
Proof.
  intros [L H]. split.
  - intros E. assert (E' : forall p, In p (combine a b) -> fst p = snd p) by (intros p Hp; apply E, (Permutation_in _ (Permutation_sym H)), Hp).
    clear H E. revert b L E'. induction a as [|x a IH]; intros [|y b] L E'; try discriminate; [reflexivity|].
    f_equal; [exact (E' (x, y) (or_introl eq_refl))|]. apply IH; [simpl in L; lia|]. intros p Hp. apply E'. right. exact Hp.
  - intros -> p Hp. apply (Permutation_in _ H) in Hp. clear H L. induction b as [|y b IH]; [destruct Hp|].
    destruct Hp as [<-|Hp]; [reflexivity|auto].
Qed.

(** ** Whole numbers with small differences: the sum *)
Definition zsq (p : R * R) : Z := let d := Int_part (fst p - snd p) in (d * d)%Z.

Lemma Int_part_IZR k : Int_part (IZR k) = k.
Proof. pose proof (base_Int_part (IZR k)) as [B1 B2]. apply le_IZR in B1. rewrite <- minus_IZR in B2. apply (lt_IZR (-1)) in B2. lia. Qed.

Lemma zsq_sq a b : IZR (zsq (IZR a, IZR b)) = sq (IZR a, IZR b).
Proof. unfold zsq, sq. cbn [fst snd]. rewrite <- minus_IZR, Int_part_IZR, mult_IZR. reflexivity. Qed.

(** Pixels: whole numbers, squared difference at most [c] *)
Definition close (f : format) (c : Z) (x y : R) : Prop :=
  exists a b, x = IZR a /\ y = IZR b /\ (Z.abs a <= 2 ^ prec f)%Z /\ (Z.abs b <= 2 ^ prec f)%Z /\ ((a - b) * (a - b) <= c)%Z.

Lemma total_close f c t : wide f -> (c <= 2 ^ prec f)%Z -> (Z.of_nat (length (leaves t)) * c <= 2 ^ 53)%Z ->
  (forall p, In p (leaves t) -> close f c (fst p) (snd p)) ->
  exists s, total f t = Fin (IZR s) /\ (0 <= s <= 2 ^ 53)%Z /\ IZR s = Rsum (map sq (leaves t)).
Proof.
  intros W Hc Hn H. exists (Zsum (map zsq (leaves t))).
  assert (K : forall p, In p (leaves t) -> (0 <= zsq p <= c)%Z /\ IZR (zsq p) = sq p /\ square_diff f (fst p) (snd p) = Fin (IZR (zsq p))).
  { intros [x y] Hp. destruct (H _ Hp) as (a & b & Ea & Eb & Ha & Hb & Hd). simpl in Ea, Eb. subst x y.
    assert (Z1 : zsq (IZR a, IZR b) = ((a - b) * (a - b))%Z) by (unfold zsq; cbn [fst snd]; rewrite <- minus_IZR, Int_part_IZR; reflexivity).
    split; [rewrite Z1; split; [apply Z.square_nonneg|exact Hd]|]. split; [apply zsq_sq|]. rewrite Z1. cbn [fst snd].
    apply square_diff_int_exact; try assumption. lia. }
  assert (B : forall l : list (R * R), (forall p, In p l -> (0 <= zsq p <= c)%Z) -> (0 <= Zsum (map zsq l) <= Z.of_nat (length l) * c)%Z).
  { induction l as [|p l IH]; intros Hl; [simpl; lia|]. specialize (Hl p (or_introl eq_refl)) as Hp.
    assert (I : (0 <= Zsum (map zsq l) <= Z.of_nat (length l) * c)%Z) by (apply IH; intros; apply Hl; right; assumption).
    cbn [map length]. unfold Zsum in *. cbn [fold_right]. rewrite Nat2Z.inj_succ. lia. }
  specialize (B (leaves t) (fun p Hp => proj1 (K p Hp))).
  split; [apply total_int; [intros p Hp; destruct (K p Hp) as (? & ? & ?); split; [lia|assumption]|lia]|].
  split; [lia|].
  assert (E : forall l : list (R * R), (forall p, In p l -> IZR (zsq p) = sq p) -> IZR (Zsum (map zsq l)) = Rsum (map sq l)).
  { induction l as [|p l IH]; intros Hl; [reflexivity|]. unfold Zsum, Rsum in *. cbn [map fold_right]. rewrite plus_IZR, IH, Hl; auto.
    - left; reflexivity.
    - intros; apply Hl; right; assumption. }
  apply E. intros p Hp. apply (K p Hp).
Qed.

(** ** Underflow and overflow *)
Lemma round_f_le f x k : (0 < prec f)%Z -> (emin f <= k)%Z -> Rabs x <= pow2 k -> Rabs (round_f f x) <= pow2 k.
Proof.
  intros Hp Hk. assert (P : forall y, 0 <= y <= pow2 k -> round_f f y <= pow2 k).
  { intros y Hy. destruct (Req_EM_T y 0) as [->|Y]; [rewrite round_f_0; left; apply pow2_pos|].
    destruct (exponent_spec y Y) as [E1 _]. rewrite Rabs_right in E1 by lra.
    assert (L : (exponent y < k + 1)%Z).
    { apply pow2_lt_inv. apply Rle_lt_trans with (pow2 k); [lra|]. rewrite pow2_plus. change (pow2 1) with (2 * 1). pose proof (pow2_pos k). lra. }
    unfold round_f, spacing. destruct (Req_EM_T y 0) as [|_]; [contradiction|].
    set (e := Z.max (exponent y - (prec f - 1)) (emin f)). pose proof (pow2_pos e) as U.
    assert (K : (0 <= k - e)%Z) by (unfold e; lia). replace k with ((k - e) + e)%Z at 1 by lia. rewrite pow2_plus.
    apply Rmult_le_compat_r; [lra|]. rewrite (pow2_Z (k - e)) by exact K. apply IZR_le, nearest_le. rewrite <- (pow2_Z (k - e)) by exact K.
    apply Rmult_le_reg_r with (pow2 e); [exact U|]. rewrite <- pow2_plus. replace (k - e + e)%Z with k by lia.
    replace (y / pow2 e * pow2 e) with y by (field; lra). lra. }
  intros H. destruct (Rle_lt_dec 0 x) as [X|X].
  - rewrite Rabs_right in H by lra. rewrite Rabs_right by (apply Rle_ge, round_f_nonneg, X). apply P. lra.
  - rewrite Rabs_left in H by lra. replace x with (- - x) by ring. rewrite round_f_opp, Rabs_Ropp.
    rewrite Rabs_right by (apply Rle_ge, round_f_nonneg; lra). apply P. lra.
Qed.

(** Half the smallest number or less becomes 0. *)
Lemma round_f_tiny f x : (0 < prec f)%Z -> 0 <= x <= pow2 (emin f - 1) -> round_f f x = 0.
Proof.
  intros Hp H. destruct (Req_EM_T x 0) as [->|X]; [apply round_f_0|].
  destruct (exponent_spec x X) as [E1 _]. rewrite Rabs_right in E1 by lra.
  assert (L : (exponent x < emin f)%Z).
  { apply pow2_lt_inv. pose proof (pow2_pos (emin f - 1)). replace (emin f) with ((emin f - 1) + 1)%Z by lia. rewrite pow2_plus. change (pow2 1) with (2 * 1). lra. }
  rewrite round_f_sub by lia. pose proof (pow2_pos (emin f)) as U.
  rewrite pow2_minus in H. change (pow2 1) with (2 * 1) in H.
  assert (Q : 0 <= x / pow2 (emin f) <= 1 / 2).
  { assert (x / pow2 (emin f) * pow2 (emin f) = x) by (field; lra). set (q := x / pow2 (emin f)) in *. split; nra. }
  assert (N : nearest_even (x / pow2 (emin f)) = 0%Z).
  { destruct (Req_EM_T (x / pow2 (emin f)) (1 / 2)) as [E|E].
    - rewrite E. replace (1 / 2) with (IZR 0 + 1 / 2) by lra. rewrite nearest_tie. reflexivity.
    - apply nearest_unique. apply Rabs_def1; simpl; lra. }
  rewrite N. ring.
Qed.

Lemma square_diff_tiny f k x y : wide f -> fits f x -> fits f y -> (emin f <= k)%Z -> (2 * k < emin f)%Z -> Rabs (x - y) <= pow2 k ->
  square_diff f x y = Fin 0.
Proof.
  intros (Wp & We & Wx & _) Fx Fy Hk K H. unfold square_diff. rewrite Fx, Fy. pose proof (round_f_le f (x - y) k ltac:(lia) Hk H) as D.
  set (d := round_f f (x - y)) in *. assert (Sd : store f (x - y) = Fin d).
  { apply store_fin. split; [reflexivity|]. eapply Rle_lt_trans; [exact D|]. apply Rle_lt_trans with (pow2 0); [apply pow2_le; lia|].
    apply Rlt_le_trans with (pow2 1); [rewrite pow2_0; change (pow2 1) with (2 * 1); lra|apply pow2_le; lia]. }
  rewrite Sd. apply store_fin. assert (T : round_f f (d * d) = 0).
  { apply round_f_tiny; [lia|]. split; [apply Rle_0_sqr|]. apply Rle_trans with (pow2 (k + k)); [|apply pow2_le; lia]. rewrite pow2_plus.
    pose proof (abs_between d (pow2 k) D) as A. pose proof (pow2_pos k). nra. }
  rewrite T, Rabs_R0. split; [reflexivity|apply pow2_pos].
Qed.

Lemma total_zeros f t : (forall p, In p (leaves t) -> square_diff f (fst p) (snd p) = Fin 0) -> total f t = Fin 0.
Proof.
  induction t as [[x y]|l IHl r IHr]; intros H; [apply (H (x, y)); left; reflexivity|].
  cbn [total leaves] in *. rewrite IHl, IHr by (intros; apply H, in_or_app; auto). cbn [add64]. rewrite Rplus_0_r. apply store64_0.
Qed.

Lemma square_diff_huge f k x y : wide f -> fits f x -> fits f y -> (emin f <= k)%Z -> (emax f <= 2 * k)%Z -> pow2 k <= Rabs (x - y) ->
  square_diff f x y = PInf.
Proof.
  intros (Wp & We & Wx & _) Fx Fy Hk K H. unfold square_diff. rewrite Fx, Fy. destruct (store f (x - y)) as [d| | |] eqn:Sd; try reflexivity.
  apply store_fin in Sd as [Sd _].
  assert (D : pow2 k <= Rabs d).
  { rewrite Sd. destruct (Rle_lt_dec 0 (x - y)) as [X|X].
    - rewrite Rabs_right in H by lra. eapply Rle_trans; [apply (round_f_ge f (x - y) k); try lia; exact H|apply Rle_abs].
    - rewrite Rabs_left in H by lra. replace (x - y) with (- - (x - y)) by ring. rewrite round_f_opp, Rabs_Ropp.
      eapply Rle_trans; [apply (round_f_ge f (- (x - y)) k); try lia; exact H|apply Rle_abs]. }
  assert (Q : pow2 (2 * k) <= d * d).
  { replace (2 * k)%Z with (k + k)%Z by lia. rewrite pow2_plus. pose proof (pow2_pos k).
    replace (d * d) with (Rabs d * Rabs d) by (rewrite <- Rabs_mult; apply Rabs_right, Rle_ge, Rle_0_sqr). nra. }
  destruct (store_nonneg f (d * d) (Rle_0_sqr d)) as [E|E]; [exfalso|exact E]. apply store_fin in E as [_ E].
  rewrite Rabs_right in E by (apply Rle_ge, round_f_nonneg, Rle_0_sqr).
  pose proof (round_f_ge f (d * d) (emax f) ltac:(lia) ltac:(lia)) as G. pose proof (pow2_le (emax f) (2 * k) K). lra.
Qed.

Lemma total_huge f t : good f t -> (exists p, In p (leaves t) /\ square_diff f (fst p) (snd p) = PInf) -> total f t = PInf.
Proof.
  induction t as [[x y]|l IHl r IHr]; intros G (p & Hp & E).
  - destruct Hp as [<-|[]]. exact E.
  - apply good_node in G as [Gl Gr]. cbn [total leaves] in *. apply in_app_or in Hp as [Hp|Hp].
    + rewrite IHl by (try exact Gl; exists p; auto). destruct (total_sign f r Gr) as [->|(q & -> & _)]; reflexivity.
    + rewrite IHr by (try exact Gr; exists p; auto). destruct (total_sign f l Gl) as [->|(q & -> & _)]; reflexivity.
Qed.

(** 4097 * 4097 in single precision *)
Lemma square_4097 : store binary32 (IZR 16785409) = Fin (IZR 16785408).
Proof.
  assert (P24 : pow2 24 = IZR 16777216) by (rewrite pow2_Z by lia; reflexivity).
  assert (P25 : pow2 (24 + 1) = IZR 33554432) by (rewrite pow2_Z by lia; reflexivity).
  assert (X : pow2 24 <= Rabs (IZR 16785409) < pow2 (24 + 1)) by (rewrite P24, P25, Rabs_right; lra).
  assert (E : exponent (IZR 16785409) = 24%Z) by (apply exponent_unique; [lra|exact X]).
  assert (T : round_f binary32 (IZR 16785409) = IZR 16785408).
  { rewrite round_f_normal by (rewrite E; cbn; lia). cbn [prec binary32].
    rewrite (round_tie 24 _ 24 8392704); [|lia|exact X|].
    - change (Z.even 8392704) with true. cbv iota. change (24 - (24 - 1))%Z with 1%Z. change (pow2 1) with (2 * 1). lra.
    - change (24 - (24 - 1))%Z with 1%Z. change (pow2 1) with (2 * 1). lra. }
  apply store_fin. rewrite T. split; [reflexivity|]. rewrite Rabs_right by lra. cbn [emax binary32].
  apply Rlt_le_trans with (pow2 (24 + 1)); [rewrite P25; lra|apply pow2_le; lia].
Qed.
