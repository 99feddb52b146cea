(** Proofs about NrRoundModel. *)
From Coq Require Import Reals Lra Lia Psatz Permutation.
From Verif Require Import Base LoadModel RealSums MetricModel GsmModel MadModel SsimRoundModel RoundProofs
  RmseRoundModel RmseRoundProofs RmseExactProofs NrRoundModel.
Open Scope R_scope.

Definition fine (f : format) : Prop := wide f /\ (10 <= prec f /\ prec f + 2 <= emax f)%Z.
Lemma fine32 : fine binary32. Proof. split; [apply wide32|cbn; lia]. Qed.
Lemma fine64 : fine binary64. Proof. split; [apply wide64|cbn; lia]. Qed.
Lemma fine_stat d : fine (stat_format d).
Proof. destruct d as [w|w|w|]; cbn; try apply fine64. repeat (destruct w as [|w]; try apply fine64; try apply fine32). Qed.

Definition unit (f : format) : R := pow2 (- prec f).
Lemma unit_small f : fine f -> 0 < unit f <= 1 / 1000.
Proof.
  intros [_ H]. split; [apply pow2_pos|]. apply Rle_trans with (pow2 (- 10)); [apply pow2_le; lia|].
  change (- 10)%Z with (Z.opp 10). rewrite pow2_opp, pow2_Z by lia. change (2 ^ 10)%Z with 1024%Z. lra.
Qed.
Lemma tiny_small f : fine f -> 0 < pow2 (emin f) <= 1.
Proof. intros [(_ & We & _) _]. split; [apply pow2_pos|]. rewrite <- pow2_0. apply pow2_le. lia. Qed.
Lemma half_tiny f : pow2 (emin f - 1) = pow2 (emin f) / 2.
Proof. rewrite pow2_minus. change (pow2 1) with (2 * 1). field. Qed.

Fixpoint levels (t : order) : nat := match t with Value _ => 0 | Plus l r => S (Nat.max (levels l) (levels r)) end.

Lemma summands_pos t : (0 < length (summands t))%nat.
Proof. induction t; simpl; [lia|]. rewrite app_length. lia. Qed.

Lemma rnd_fin f e y : rnd f e = Fin y -> exists x, e = Fin x /\ store f x = Fin y.
Proof. destruct e; simpl; try discriminate. eauto. Qed.
Lemma ext_add_fin a b s : ext_add a b = Fin s -> exists x y, a = Fin x /\ b = Fin y /\ s = x + y.
Proof. destruct a, b; simpl; try discriminate. intros E. injection E as <-. eauto. Qed.

Lemma Rsum_abs (val : R -> R) q : Rabs (Rsum (map val q)) <= Rsum (map (fun x => Rabs (val x)) q).
Proof.
  induction q as [|x q IH]; unfold Rsum in *; cbn [map fold_right]; [rewrite Rabs_R0; lra|].
  eapply Rle_trans; [apply Rabs_triang|]. apply Rplus_le_compat_l. exact IH.
Qed.

(** ** Sums *)
Lemma add_up_bounds f g t s : fine f -> (forall x y, In x (summands t) -> g x = Fin y -> multiple (emin f) y) -> add_up f g t = Fin s ->
  exists val, (forall x, In x (summands t) -> g x = Fin (val x)) /\ multiple (emin f) s /\
    Rabs (s - Rsum (map val (summands t))) <= ((1 + unit f) ^ levels t - 1) * Rsum (map (fun x => Rabs (val x)) (summands t)).
Proof.
  intros Hf. pose proof (unit_small f Hf) as U.
  set (val := fun x => match g x with Fin y => y | _ => 0 end).
  intros G H. exists val. revert s H. induction t as [x|l IHl r IHr]; intros s H.
  - cbn [add_up summands] in *. split; [intros y [<-|[]]; unfold val; rewrite H; reflexivity|]. split; [apply (G x s); [left; reflexivity|exact H]|].
    unfold Rsum. cbn [map fold_right levels pow]. unfold val at 1. rewrite H. rewrite Rminus_diag_eq, Rabs_R0 by ring. lra.
  - cbn [add_up summands levels] in *. apply rnd_fin in H as (w & H & E). apply ext_add_fin in H as (a & b & Ha & Hb & ->).
    destruct (IHl ltac:(intros x y Hx; apply G, in_or_app; auto) a Ha) as (Vl & Ml & Bl).
    destruct (IHr ltac:(intros x y Hx; apply G, in_or_app; auto) b Hb) as (Vr & Mr & Br).
    split; [intros x Hx; apply in_app_or in Hx as [Hx|Hx]; auto|]. apply store_fin in E as [-> _].
    split; [apply round_f_multiple|].
    pose proof (round_f_rel f (a + b) (multiple_plus _ _ _ Ml Mr)) as E. fold (unit f) in E.
    rewrite !map_app, !Rsum_app.
    assert (P : forall q, 0 <= Rsum (map (fun x => Rabs (val x)) q)).
    { intros q. apply Rsum_nonneg. intros z Hz. apply in_map_iff in Hz as (x & <- & _). apply Rabs_pos. }
    assert (T := Rsum_abs val).
    pose proof (P (summands l)) as Pl. pose proof (P (summands r)) as Pr. pose proof (T (summands l)) as Tl. pose proof (T (summands r)) as Tr.
    set (A := Rsum (map val (summands l))) in *. set (B := Rsum (map val (summands r))) in *.
    set (A' := Rsum (map (fun x => Rabs (val x)) (summands l))) in *. set (B' := Rsum (map (fun x => Rabs (val x)) (summands r))) in *.
    set (D := Nat.max (levels l) (levels r)). set (u := unit f) in *.
    assert (K : forall k X, (k <= D)%nat -> 0 <= X -> ((1 + u) ^ k - 1) * X <= ((1 + u) ^ D - 1) * X).
    { intros k X Hk HX. apply Rmult_le_compat_r; [exact HX|]. assert ((1 + u) ^ k <= (1 + u) ^ D) by (apply Rle_pow; [lra|exact Hk]). lra. }
    assert (Bl' : Rabs (a - A) <= ((1 + u) ^ D - 1) * A') by (eapply Rle_trans; [exact Bl|apply K; [unfold D; lia|exact Pl]]).
    assert (Br' : Rabs (b - B) <= ((1 + u) ^ D - 1) * B') by (eapply Rle_trans; [exact Br|apply K; [unfold D; lia|exact Pr]]).
    set (z := (1 + u) ^ D) in *.
    assert (AB : Rabs (a + b) <= z * (A' + B')).
    { replace (a + b) with ((a - A) + (b - B) + (A + B)) by ring. eapply Rle_trans; [apply Rabs_triang|].
      pose proof (Rabs_triang (a - A) (b - B)). pose proof (Rabs_triang A B). lra. }
    replace (round_f f (a + b) - (A + B)) with ((round_f f (a + b) - (a + b)) + (a - A) + (b - B)) by ring.
    eapply Rle_trans; [apply Rabs_triang|]. pose proof (Rabs_triang (round_f f (a + b) - (a + b)) (a - A)).
    assert (u * Rabs (a + b) <= u * (z * (A' + B'))) by (apply Rmult_le_compat_l; lra). cbn [pow]. fold z. lra.
Qed.

(** The mean of a sum *)
Lemma average_fin f g t m : average f g t = Fin m ->
  exists s, add_up f g t = Fin s /\ store f (s / INR (length (summands t))) = Fin m.
Proof.
  unfold average. intros H. apply rnd_fin in H as (x & H & E).
  assert (N0 : 1 <= INR (length (summands t))) by (apply (le_INR 1), summands_pos).
  destruct (add_up f g t) as [s| | |]; cbn [ext_div] in H; try discriminate.
  - destruct (Req_EM_T _ 0); [lra|]. injection H as <-. eauto.
  - destruct (Rlt_dec _ 0); discriminate.
  - destruct (Rlt_dec _ 0); discriminate.
Qed.

Lemma average_bounds f g t m : fine f -> (forall x y, In x (summands t) -> g x = Fin y -> multiple (emin f) y) -> average f g t = Fin m ->
  INR (levels t) * unit f <= 1 / 4 ->
  exists val, (forall x, In x (summands t) -> g x = Fin (val x)) /\ multiple (emin f) m /\
    let n := INR (length (summands t)) in
    Rabs (m - Rsum (map val (summands t)) / n) <= 2 * INR (levels t + 1) * unit f * (Rsum (map (fun x => Rabs (val x)) (summands t)) / n) + pow2 (emin f) / 2.
Proof.
  intros Hf G H D. pose proof (unit_small f Hf) as U. apply average_fin in H as (s & Hs & H).
  destruct (add_up_bounds f g t s Hf G Hs) as (val & V & M & B). exists val. split; [exact V|].
  apply store_fin in H as [-> _]. split; [apply round_f_multiple|]. cbv zeta.
  assert (N0 : 1 <= INR (length (summands t))) by (apply (le_INR 1), summands_pos).
  set (n := INR (length (summands t))) in *. set (A := Rsum (map val (summands t))) in *. set (A' := Rsum (map (fun x => Rabs (val x)) (summands t))) in *.
  assert (T : Rabs A <= A') by apply Rsum_abs.
  assert (A0 : 0 <= A') by (pose proof (Rabs_pos A); lra).
  pose proof (round_f_err f (s / n)) as E. fold (unit f) in E. rewrite half_tiny in E. set (h := pow2 (emin f) / 2) in *. set (u := unit f) in *.
  pose proof (pow_up u (levels t) ltac:(lra) ltac:(lra)) as P. set (z := (1 + u) ^ levels t) in *. set (k := INR (levels t)) in *.
  assert (K0 : 0 <= k) by apply pos_INR.
  assert (I : 0 < / n) by (apply Rinv_0_lt_compat; lra).
  assert (B1 : Rabs (s / n - A / n) <= 2 * (k * u) * (A' / n)).
  { replace (s / n - A / n) with ((s - A) * / n) by (unfold Rdiv; ring). rewrite Rabs_mult, (Rabs_right (/ n)) by lra.
    replace (2 * (k * u) * (A' / n)) with (2 * (k * u) * A' * / n) by (unfold Rdiv; ring). apply Rmult_le_compat_r; [lra|].
    eapply Rle_trans; [exact B|]. apply Rmult_le_compat_r; lra. }
  assert (a0 : 0 <= A' / n) by (apply Rmult_le_pos; lra).
  assert (T1 : Rabs (A / n) <= A' / n).
  { unfold Rdiv. rewrite Rabs_mult, (Rabs_right (/ n)) by lra. apply Rmult_le_compat_r; lra. }
  set (x := s / n) in *. set (y := A / n) in *. set (a := A' / n) in *.
  assert (X : Rabs x <= a + 2 * (k * u) * a).
  { replace x with ((x - y) + y) by ring. eapply Rle_trans; [apply Rabs_triang|]. lra. }
  assert (X2 : Rabs x <= 2 * a) by (assert (k * u * a <= 1 / 4 * a) by (apply Rmult_le_compat_r; lra); lra).
  replace (round_f f x - y) with ((round_f f x - x) + (x - y)) by ring. eapply Rle_trans; [apply Rabs_triang|].
  rewrite plus_INR. fold k. change (INR 1) with 1. assert (u * Rabs x <= u * (2 * a)) by (apply Rmult_le_compat_l; lra). lra.
Qed.

(** ** The root, as in rmse_bounds *)
Lemma root_bounds u w v e2 h m r : 0 < u <= 1 / 8 -> 0 <= w <= 1 / 4 -> 0 < v <= 1 / 1000 -> v <= w -> 0 < h <= 1 -> 0 <= e2 -> 0 <= m ->
  m <= (1 + 4 * u + 4 * w) * e2 + 3 / 2 * h -> (1 - 3 * u - 3 * w) * e2 - h <= m -> Rabs (r - sqrt m) <= v * sqrt m + h / 2 ->
  Rabs (r - sqrt e2) <= 4 * (u + w) * sqrt e2 + 2 * sqrt h.
Proof.
  intros U W V W1 H0 E20 M0 Mhi Mlo B.
  assert (EE : sqrt e2 * sqrt e2 = e2) by (apply sqrt_sqrt; exact E20). assert (E0 : 0 <= sqrt e2) by apply sqrt_pos.
  assert (GG : sqrt h * sqrt h = h) by (apply sqrt_sqrt; lra). assert (G0 : 0 <= sqrt h) by apply sqrt_pos.
  assert (G1 : h <= sqrt h) by (assert (sqrt h <= 1) by (rewrite <- sqrt_1; apply sqrt_le_1_alt; lra); nra).
  assert (YY : sqrt m * sqrt m = m) by (apply sqrt_sqrt; exact M0). assert (Y0 : 0 <= sqrt m) by apply sqrt_pos.
  set (E := sqrt e2) in *. set (g := sqrt h) in *. set (y := sqrt m) in *. clearbody E g y. apply abs_between in B.
  set (q := u + w). assert (Q : 0 <= q <= 3 / 8) by (unfold q; lra).
  assert (Yhi : y <= (1 + 2 * q) * E + 5 / 4 * g).
  { apply Rsqr_incr_0_var; [|assert (0 <= (1 + 2 * q) * E) by (apply Rmult_le_pos; lra); lra]. unfold Rsqr. rewrite YY.
    eapply Rle_trans; [exact Mhi|]. rewrite <- EE, <- GG. replace (1 + 4 * u + 4 * w) with (1 + 4 * q) by (unfold q; ring).
    assert (0 <= q * q * (E * E)) by (apply Rmult_le_pos; nra). assert (0 <= (1 + 2 * q) * E * g) by (apply Rmult_le_pos; [apply Rmult_le_pos|]; lra).
    assert (0 <= g * g) by nra. lra. }
  assert (Ylo : (1 - 3 * q) * E - g <= y).
  { destruct (Rle_lt_dec ((1 - 3 * q) * E - g) 0) as [L|L]; [lra|].
    apply Rsqr_incr_0_var; [|exact Y0]. unfold Rsqr. rewrite YY. eapply Rle_trans; [|exact Mlo]. rewrite <- EE, <- GG.
    assert (K1 : 1 - 3 * q = 1 - 3 * u - 3 * w) by (unfold q; ring). rewrite <- K1.
    set (c := 1 - 3 * q) in *. assert (g <= c * E) by lra.
    destruct (Rle_lt_dec c 0) as [C|C]; [nra|].
    assert (C1 : c <= 1) by (unfold c; lra).
    assert (c * c * (E * E) <= c * (E * E)) by (apply Rmult_le_compat_r; nra).
    assert (g * g <= c * E * g) by (apply Rmult_le_compat_r; lra). lra. }
  assert (V8 : v * (2 * q) <= v * (3 / 4)) by (apply Rmult_le_compat_l; lra).
  assert (Q1 : v <= q) by (unfold q; lra).
  change (Rabs (r - E) <= 4 * q * E + 2 * g). apply Rabs_le. split.
  - assert (v * y <= v * ((1 + 2 * q) * E + 5 / 4 * g)) by (apply Rmult_le_compat_l; lra).
    assert ((1 - v) * ((1 - 3 * q) * E - g) <= (1 - v) * y) by (apply Rmult_le_compat_l; lra).
    assert (0 <= v * q * E) by (repeat apply Rmult_le_pos; lra).
    assert (v * E <= q * E) by (apply Rmult_le_compat_r; lra).
    assert (0 <= v * g) by (apply Rmult_le_pos; lra). lra.
  - assert (S : (1 + v) * y <= (1 + v) * ((1 + 2 * q) * E + 5 / 4 * g)) by (apply Rmult_le_compat_l; lra).
    assert (v * (2 * q) * E <= v * (3 / 4) * E) by (apply Rmult_le_compat_r; lra).
    assert (v * E <= q * E) by (apply Rmult_le_compat_r; lra).
    assert (v * g <= 1 / 1000 * g) by (apply Rmult_le_compat_r; lra). lra.
Qed.

(** ** Numbers of the format *)
Lemma round_f_idem f x : wide f -> round_f f (round_f f x) = round_f f x.
Proof.
  intros (Wp & _). destruct (Req_EM_T x 0) as [->|X]; [rewrite !round_f_0; reflexivity|].
  pose proof (exponent_spec x X) as [_ E]. set (k := Z.max (exponent x - (prec f - 1)) (emin f)).
  assert (F : round_f f x = IZR (nearest_even (x / pow2 k)) * pow2 k).
  { unfold round_f, spacing. fold k. destruct (Req_EM_T x 0); [contradiction|reflexivity]. }
  rewrite F. apply round_f_exact; [lia| |unfold k; lia].
  pose proof (pow2_pos k) as K.
  assert (B : Rabs (x / pow2 k) <= IZR (2 ^ prec f)).
  { unfold Rdiv. rewrite Rabs_mult, (Rabs_right (/ pow2 k)) by (left; apply Rinv_0_lt_compat, K).
    apply Rmult_le_reg_r with (pow2 k); [exact K|]. rewrite Rmult_assoc, Rinv_l, Rmult_1_r by lra.
    rewrite <- pow2_Z, <- pow2_plus by lia. eapply Rle_trans; [left; exact E|]. apply pow2_le. unfold k. lia. }
  apply abs_between in B. rewrite <- opp_IZR in B. destruct B as [B1 B2]. apply nearest_ge in B1. apply nearest_le in B2. lia.
Qed.

Lemma store_fits f x y : wide f -> store f x = Fin y -> fits f y.
Proof.
  intros W H. apply store_fin in H as [-> H]. unfold fits. apply store_fin. rewrite round_f_idem by exact W. auto.
Qed.

Lemma average_fits f g t m : wide f -> average f g t = Fin m -> fits f m.
Proof. intros W H. apply average_fin in H as (s & _ & H). apply (store_fits _ _ _ W H). Qed.

(** ** Deviations *)
Lemma square_dev_fin f e x q : square_dev f e x = Fin q -> exists m, e = Fin m.
Proof.
  unfold square_dev. destruct e as [m| | |]; [eauto| | |]; cbn; discriminate.
Qed.

Lemma square_dev_diff f m x q : fits f m -> fits f x -> square_dev f (Fin m) x = Fin q -> square_diff f x m = Fin q.
Proof.
  unfold fits, square_dev, square_diff. intros -> ->. cbn [ext_sub ext_add ext_neg rnd].
  destruct (store f (x - m)) as [d| | |] eqn:D; replace (x + - m) with (x - m) by ring; rewrite D; cbn; auto; discriminate.
Qed.

Definition fitting (f : format) (l : list R) : Prop := forall x, In x l -> fits f x.
Definition lmean_abs (l : list R) : R := lmean (map Rabs l).

Lemma Rsum_sum l : Rsum l = Sum (fun x => x) l.
Proof. unfold Sum. rewrite map_id. unfold Rsum. induction l; cbn; [reflexivity|rewrite IHl; reflexivity]. Qed.
Lemma Rsum_lmean l : Rsum l / INR (length l) = lmean l.
Proof. unfold lmean. rewrite Rsum_sum. reflexivity. Qed.

Lemma add_up_first f g t s : add_up f g t = Fin s -> forall x, In x (summands t) -> exists y, g x = Fin y.
Proof.
  revert s. induction t as [x|l IHl r IHr]; intros s H y Hy; cbn [add_up summands] in *.
  - destruct Hy as [<-|[]]. eauto.
  - apply rnd_fin in H as (w & H & _). apply ext_add_fin in H as (a & b & Ha & Hb & _). apply in_app_or in Hy as [Hy|Hy]; eauto.
Qed.

Lemma mean_bounds f t l m : fine f -> Permutation (summands t) l -> fitting f l -> INR (levels t + 1) * unit f <= 1 / 4 -> mean_r f t = Fin m ->
  fits f m /\ Rabs (m - lmean l) <= 2 * INR (levels t + 1) * unit f * lmean_abs l + pow2 (emin f) / 2.
Proof.
  intros Hf P F D H. pose proof (unit_small f Hf) as U. split; [apply (average_fits _ _ _ _ (proj1 Hf) H)|].
  destruct (average_bounds f (fun x => Fin x) t m Hf) as (val & V & _ & B).
  - intros x y Hx E. injection E as <-. apply fits_multiple, F, (Permutation_in _ P), Hx.
  - exact H.
  - rewrite plus_INR in D. change (INR 1) with 1 in D. lra.
  - cbv zeta in B. rewrite (map_ext_in val (fun x => x)), map_id in B by (intros x Hx; specialize (V x Hx); injection V; auto).
    rewrite (map_ext_in (fun x => Rabs (val x)) Rabs) in B by (intros x Hx; specialize (V x Hx); injection V as <-; reflexivity).
    rewrite (Rsum_perm _ _ P), (Rsum_perm _ _ (Permutation_map Rabs P)), (Permutation_length P) in B. rewrite Rsum_lmean in B.
    unfold lmean_abs. rewrite <- (Rsum_lmean (map Rabs l)), map_length. exact B.
Qed.

(** ** Mean square about another point *)
Definition about (m : R) (l : list R) : R := Rsum (map (fun x => sq (x, m)) l) / INR (length l).

Lemma about_mean m l : l <> [] -> about m l = std0 l * std0 l + (m - lmean l) * (m - lmean l).
Proof.
  intros N. assert (N0 : 0 < INR (length l)) by (apply lt_0_INR; destruct l; [contradiction|cbn; lia]).
  assert (G : forall c q, Rsum (map (fun x => sq (x, c)) q) = Rsum (map (fun x => sq (x, 0)) q) - 2 * c * Rsum q + INR (length q) * (c * c)).
  { intros c q. induction q as [|x q IH]; [cbn; ring|]. cbn [map length]. rewrite S_INR. unfold Rsum in *. cbn [fold_right]. rewrite IH. unfold sq. cbn [fst snd]. ring. }
  assert (SS : std0 l * std0 l = about (lmean l) l).
  { unfold std0. assert (E : dev 2 l / INR (length l) = about (lmean l) l).
    { unfold about, dev. f_equal. rewrite Rsum_sum. unfold Sum. rewrite map_map. f_equal. apply map_ext. intros x. unfold sq. cbn [fst snd]. ring. }
    rewrite E. apply sqrt_sqrt. unfold about. apply Rmult_le_pos; [|left; apply Rinv_0_lt_compat, N0].
    apply Rsum_nonneg. intros z Hz. apply in_map_iff in Hz as (x & <- & _). apply sq_nonneg. }
  rewrite SS. unfold about. rewrite (G m), (G (lmean l)). rewrite <- Rsum_lmean. field. lra.
Qed.

Lemma std_bounds f t t' l s : fine f -> Permutation (summands t) l -> Permutation (summands t') l -> fitting f l ->
  INR (levels t + 1) * unit f <= 1 / 4 -> INR (levels t' + 1) * unit f <= 1 / 4 -> std_r f t t' = Fin s ->
  exists m, mean_r f t = Fin m /\
    Rabs (s - sqrt (about m l)) <= 4 * (INR (levels t' + 2) * unit f) * sqrt (about m l) + 2 * sqrt (pow2 (emin f)).
Proof.
  intros Hf P P' F D D' H. pose proof (unit_small f Hf) as U. pose proof (tiny_small f Hf) as HT.
  unfold std_r in H. apply rnd_fin in H as (y & H & Hs).
  destruct (average f (square_dev f (mean_r f t)) t') as [V| | |] eqn:A; cbn [ext_sqrt] in H; try discriminate.
  destruct (Rlt_dec V 0) as [|V0]; [discriminate|]. injection H as <-. apply store_fin in Hs as [-> _].
  assert (exists m, mean_r f t = Fin m) as (m & Hm).
  { pose proof (average_fin _ _ _ _ A) as (S & HS & _). pose proof (summands_pos t') as N. destruct (summands t') as [|x q] eqn:E; [cbn in N; lia|].
    destruct (add_up_first _ _ _ _ HS x) as (w & Hw); [rewrite E; left; reflexivity|]. apply (square_dev_fin _ _ _ _ Hw). }
  exists m. split; [exact Hm|]. rewrite Hm in A. destruct (mean_bounds f t l m Hf P F D Hm) as [Fm _].
  assert (D2 : INR (levels t') * unit f <= 1 / 4) by (rewrite plus_INR in D'; change (INR 1) with 1 in D'; lra).
  assert (SB : forall x q, In x (summands t') -> square_dev f (Fin m) x = Fin q -> 0 <= q /\ multiple (emin f) q /\
    (1 - 3 * unit f) * sq (x, m) - pow2 (emin f) / 2 <= q <= (1 + 4 * unit f) * sq (x, m) + pow2 (emin f) / 2).
  { intros x q Hx E. rewrite <- half_tiny. apply square_bounds; [destruct Hf; lia| |exact Fm|].
    - apply F, (Permutation_in _ P'), Hx.
    - apply square_dev_diff; [exact Fm| |exact E]. apply F, (Permutation_in _ P'), Hx. }
  destruct (average_bounds f (square_dev f (Fin m)) t' V Hf) as (val & Hv & _ & B); [intros x q Hx E; apply (SB x q Hx E)|exact A|exact D2|].
  cbv zeta in B. assert (N0 : 1 <= INR (length (summands t'))) by (apply (le_INR 1), summands_pos).
  assert (AB : about m l = Rsum (map (fun x => sq (x, m)) (summands t')) / INR (length (summands t'))).
  { unfold about. rewrite (Permutation_length P'), (Rsum_perm _ _ (Permutation_map (fun x => sq (x, m)) P')). reflexivity. }
  rewrite (map_ext_in (fun x => Rabs (val x)) val) in B by (intros x Hx; rewrite Rabs_right; [reflexivity|apply Rle_ge, (SB x _ Hx (Hv x Hx))]).
  assert (R1 : Rsum (map val (summands t')) <= (1 + 4 * unit f) * Rsum (map (fun x => sq (x, m)) (summands t')) + INR (length (summands t')) * (pow2 (emin f) / 2)
     /\ (1 - 3 * unit f) * Rsum (map (fun x => sq (x, m)) (summands t')) - INR (length (summands t')) * (pow2 (emin f) / 2) <= Rsum (map val (summands t'))).
  { assert (I : forall x, In x (summands t') -> (1 - 3 * unit f) * sq (x, m) - pow2 (emin f) / 2 <= val x <= (1 + 4 * unit f) * sq (x, m) + pow2 (emin f) / 2)
      by (intros x Hx; apply (SB x _ Hx (Hv x Hx))).
    clear - I. induction (summands t') as [|x q IH]; [cbn; lra|]. cbn [map length]. rewrite S_INR. unfold Rsum in *. cbn [fold_right].
    specialize (IH ltac:(intros; apply I; right; assumption)). pose proof (I x (or_introl eq_refl)). lra. }
  assert (Q0 : 0 <= Rsum (map val (summands t'))).
  { apply Rsum_nonneg. intros z Hz. apply in_map_iff in Hz as (x & <- & Hx). apply (SB x _ Hx (Hv x Hx)). }
  assert (E0 : 0 <= about m l).
  { rewrite AB. apply Rmult_le_pos; [|left; apply Rinv_0_lt_compat; lra]. apply Rsum_nonneg. intros z Hz. apply in_map_iff in Hz as (x & <- & _). apply sq_nonneg. }
  set (n := INR (length (summands t'))) in *. set (T := Rsum (map (fun x => sq (x, m)) (summands t'))) in *. set (Q := Rsum (map val (summands t'))) in *.
  set (h := pow2 (emin f)) in *. set (u := unit f) in *.
  assert (I : 0 < / n) by (apply Rinv_0_lt_compat; lra).
  assert (q0 : 0 <= Q / n) by (apply Rmult_le_pos; lra).
  assert (R2 : (1 - 3 * u) * about m l - h / 2 <= Q / n <= (1 + 4 * u) * about m l + h / 2).
  { rewrite AB. replace (h / 2) with (n * (h / 2) * / n) by (field; lra). unfold Rdiv at 1 3 5 6. rewrite <- !Rmult_assoc.
    rewrite <- Rmult_minus_distr_r, <- Rmult_plus_distr_r. split; apply Rmult_le_compat_r; lra. }
  apply abs_between in B. set (e2 := about m l) in *. set (q := Q / n) in *. set (c := INR (levels t' + 1)) in *.
  assert (c1 : 1 <= c) by (apply (le_INR 1); lia).
  assert (cu : u <= c * u) by (rewrite <- (Rmult_1_l u) at 1; apply Rmult_le_compat_r; lra).
  replace (INR (levels t' + 2)) with (c + 1) by (unfold c; rewrite !plus_INR; cbn; ring).
  replace ((c + 1) * u) with (u + 3 * (c * u) - 2 * (c * u)) by ring.
  assert (CORE : Rabs (round_f f (sqrt V) - sqrt e2) <= 4 * (u + c * u) * sqrt e2 + 2 * sqrt h).
  2: { eapply Rle_trans; [exact CORE|]. apply Req_le. ring. }
  pose proof (round_f_err f (sqrt V)) as RR. fold (unit f) in RR. fold u in RR. rewrite half_tiny, (Rabs_right (sqrt V)) in RR by apply Rle_ge, sqrt_pos. fold h in RR.
  set (w := c * u) in *.
  assert (B' : - (2 * w * q + h / 2) <= V - q <= 2 * w * q + h / 2) by (replace (2 * w * q) with (2 * c * u * q) by (unfold w; ring); exact B).
  assert (W4 : w <= 1 / 4) by exact D'.
  apply (root_bounds u w u e2 h V); try lra.
  - assert ((1 + 2 * w) * q <= (1 + 2 * w) * ((1 + 4 * u) * e2 + h / 2)) by (apply Rmult_le_compat_l; lra).
    assert (0 <= w * e2) by (apply Rmult_le_pos; lra). assert (u * (w * e2) <= 1 / 8 * (w * e2)) by (apply Rmult_le_compat_r; lra).
    assert (w * h <= 1 / 4 * h) by (apply Rmult_le_compat_r; lra). lra.
  - assert ((1 - 2 * w) * ((1 - 3 * u) * e2 - h / 2) <= (1 - 2 * w) * q) by (apply Rmult_le_compat_l; lra).
    assert (0 <= w * e2) by (apply Rmult_le_pos; lra). assert (0 <= u * (w * e2)) by (apply Rmult_le_pos; lra).
    assert (0 <= w * h) by (apply Rmult_le_pos; lra). lra.
Qed.

(** ** No overflow *)
Lemma store_small f x : fine f -> multiple (emin f) x -> 2 * Rabs x < pow2 (emax f) -> store f x = Fin (round_f f x).
Proof.
  intros Hf M H. pose proof (unit_small f Hf) as U. apply store_fin. split; [reflexivity|].
  pose proof (round_f_rel f x M) as E. fold (unit f) in E. pose proof (Rabs_pos x) as P.
  assert (unit f * Rabs x <= 1 / 1000 * Rabs x) by (apply Rmult_le_compat_r; lra).
  replace (round_f f x) with ((round_f f x - x) + x) by ring. eapply Rle_lt_trans; [apply Rabs_triang|]. lra.
Qed.

Lemma add_up_finite f (g : R -> ext) val t : fine f -> (forall x, In x (summands t) -> g x = Fin (val x) /\ multiple (emin f) (val x)) ->
  INR (levels t) * unit f <= 1 / 4 -> 4 * Rsum (map (fun x => Rabs (val x)) (summands t)) < pow2 (emax f) ->
  exists s, add_up f g t = Fin s.
Proof.
  intros Hf. pose proof (unit_small f Hf) as U. induction t as [x|l IHl r IHr]; intros G D B.
  - exists (val x). apply G. left. reflexivity.
  - cbn [add_up summands levels] in *. rewrite map_app, Rsum_app in B. rewrite S_INR in D.
    assert (P : forall q, 0 <= Rsum (map (fun x => Rabs (val x)) q)).
    { intros q. apply Rsum_nonneg. intros z Hz. apply in_map_iff in Hz as (x & <- & _). apply Rabs_pos. }
    pose proof (P (summands l)) as Pl. pose proof (P (summands r)) as Pr.
    assert (D' : INR (Nat.max (levels l) (levels r)) * unit f <= 1 / 4) by lra.
    assert (Dl : INR (levels l) * unit f <= 1 / 4).
    { eapply Rle_trans; [|exact D']. apply Rmult_le_compat_r; [lra|]. apply le_INR. lia. }
    assert (Dr : INR (levels r) * unit f <= 1 / 4).
    { eapply Rle_trans; [|exact D']. apply Rmult_le_compat_r; [lra|]. apply le_INR. lia. }
    assert (Gl : forall x, In x (summands l) -> g x = Fin (val x) /\ multiple (emin f) (val x)) by (intros; apply G, in_or_app; auto).
    assert (Gr : forall x, In x (summands r) -> g x = Fin (val x) /\ multiple (emin f) (val x)) by (intros; apply G, in_or_app; auto).
    destruct (IHl Gl Dl ltac:(lra)) as (a & Ha). destruct (IHr Gr Dr ltac:(lra)) as (b & Hb). rewrite Ha, Hb. cbn [ext_add rnd].
    assert (K : forall t s, (forall x, In x (summands t) -> g x = Fin (val x) /\ multiple (emin f) (val x)) -> INR (levels t) * unit f <= 1 / 4 ->
       add_up f g t = Fin s -> multiple (emin f) s /\ Rabs s <= 3 / 2 * Rsum (map (fun x => Rabs (val x)) (summands t))).
    { clear - Hf U P. intros t s G D H. destruct (add_up_bounds f g t s Hf) as (v & V & M & B).
      - intros x y Hx E. destruct (G x Hx) as [E' M]. rewrite E in E'. injection E' as ->. exact M.
      - exact H.
      - split; [exact M|]. rewrite (map_ext_in v val) in B by (intros x Hx; destruct (G x Hx) as [E _]; rewrite (V x Hx) in E; injection E; auto).
        rewrite (map_ext_in (fun x => Rabs (v x)) (fun x => Rabs (val x))) in B by (intros x Hx; destruct (G x Hx) as [E _]; rewrite (V x Hx) in E; injection E as ->; reflexivity).
        pose proof (pow_up (unit f) (levels t) ltac:(lra) ltac:(lra)) as Z1. pose proof (P (summands t)) as Pt. pose proof (Rsum_abs val (summands t)) as T.
        set (A' := Rsum (map (fun x => Rabs (val x)) (summands t))) in *. set (A := Rsum (map val (summands t))) in *.
        assert (((1 + unit f) ^ levels t - 1) * A' <= 1 / 2 * A') by (apply Rmult_le_compat_r; lra).
        replace s with ((s - A) + A) by ring. eapply Rle_trans; [apply Rabs_triang|]. lra. }
    destruct (K l a Gl Dl Ha) as [Ma Ba]. destruct (K r b Gr Dr Hb) as [Mb Bb].
    eexists. apply (store_small f (a + b) Hf); [apply multiple_plus; assumption|]. pose proof (Rabs_triang a b). lra.
Qed.

Lemma Rsum_le_n (val : R -> R) B q : (forall x, In x q -> val x <= B) -> Rsum (map val q) <= INR (length q) * B.
Proof.
  intros H. induction q as [|x q IH]; [cbn; lra|]. cbn [map length]. rewrite S_INR. unfold Rsum in *. cbn [fold_right].
  specialize (IH ltac:(intros; apply H; right; assumption)). pose proof (H x (or_introl eq_refl)). lra.
Qed.

Lemma store_below f x B : fine f -> Rabs x <= B -> 2 * B + 1 < pow2 (emax f) -> store f x = Fin (round_f f x) /\ Rabs (round_f f x) <= (1 + unit f) * B + pow2 (emin f) / 2.
Proof.
  intros Hf H L. pose proof (unit_small f Hf) as U. pose proof (tiny_small f Hf) as HT.
  pose proof (round_f_err f x) as E. fold (unit f) in E. rewrite half_tiny in E. pose proof (Rabs_pos x) as P.
  assert (unit f * Rabs x <= unit f * B) by (apply Rmult_le_compat_l; lra).
  assert (unit f * B <= 1 / 1000 * B) by (apply Rmult_le_compat_r; lra).
  assert (K : Rabs (round_f f x) <= (1 + unit f) * B + pow2 (emin f) / 2).
  { replace (round_f f x) with ((round_f f x - x) + x) by ring. eapply Rle_trans; [apply Rabs_triang|]. lra. }
  split; [|exact K]. apply store_fin. split; [reflexivity|]. lra.
Qed.

Lemma average_finite f (g : R -> ext) val t B : fine f -> (forall x, In x (summands t) -> g x = Fin (val x) /\ multiple (emin f) (val x) /\ Rabs (val x) <= B) ->
  INR (levels t + 1) * unit f <= 1 / 4 -> 4 * (INR (length (summands t)) * B) + 1 < pow2 (emax f) ->
  exists m, average f g t = Fin m /\ Rabs m <= 2 * B + pow2 (emin f) / 2.
Proof.
  intros Hf G D L. pose proof (unit_small f Hf) as U. pose proof (tiny_small f Hf) as HT.
  assert (N0 : 1 <= INR (length (summands t))) by (apply (le_INR 1), summands_pos).
  assert (B0 : 0 <= B).
  { pose proof (summands_pos t) as N. destruct (summands t) as [|x q]; [cbn in N; lia|]. destruct (G x (or_introl eq_refl)) as (_ & _ & H). pose proof (Rabs_pos (val x)). lra. }
  assert (D2 : INR (levels t) * unit f <= 1 / 4) by (rewrite plus_INR in D; change (INR 1) with 1 in D; lra).
  assert (S : Rsum (map (fun x => Rabs (val x)) (summands t)) <= INR (length (summands t)) * B) by (apply (Rsum_le_n (fun x => Rabs (val x))); intros x Hx; apply G, Hx).
  destruct (add_up_finite f g val t Hf) as (s & Hs); [intros x Hx; split; apply G, Hx|exact D2|lra|].
  destruct (add_up_bounds f g t s Hf) as (v & V & M & E).
  { intros x y Hx E. destruct (G x Hx) as (E' & M & _). rewrite E in E'. injection E' as ->. exact M. }
  { exact Hs. }
  rewrite (map_ext_in v val) in E by (intros x Hx; destruct (G x Hx) as (E' & _); rewrite (V x Hx) in E'; injection E'; auto).
  rewrite (map_ext_in (fun x => Rabs (v x)) (fun x => Rabs (val x))) in E by (intros x Hx; destruct (G x Hx) as (E' & _); rewrite (V x Hx) in E'; injection E' as ->; reflexivity).
  pose proof (pow_up (unit f) (levels t) ltac:(lra) ltac:(lra)) as Z1. pose proof (Rsum_abs val (summands t)) as T.
  set (A' := Rsum (map (fun x => Rabs (val x)) (summands t))) in *. set (A := Rsum (map val (summands t))) in *.
  assert (A0 : 0 <= A') by (pose proof (Rabs_pos A); lra).
  assert (((1 + unit f) ^ levels t - 1) * A' <= 1 / 2 * A') by (apply Rmult_le_compat_r; lra).
  assert (SB : Rabs s <= 3 / 2 * (INR (length (summands t)) * B)).
  { replace s with ((s - A) + A) by ring. eapply Rle_trans; [apply Rabs_triang|]. lra. }
  set (n := INR (length (summands t))) in *.
  assert (SN : Rabs (s / n) <= 3 / 2 * B).
  { unfold Rdiv. rewrite Rabs_mult, (Rabs_right (/ n)) by (left; apply Rinv_0_lt_compat; lra).
    apply Rmult_le_reg_r with n; [lra|]. rewrite Rmult_assoc, Rinv_l, Rmult_1_r by lra. lra. }
  assert (B <= n * B) by (rewrite <- (Rmult_1_l B) at 1; apply Rmult_le_compat_r; lra).
  destruct (store_below f (s / n) (3 / 2 * B) Hf SN ltac:(lra)) as [E1 E2].
  exists (round_f f (s / n)). split.
  - unfold average. rewrite Hs. fold n. cbn [ext_div]. destruct (Req_EM_T n 0); [lra|]. exact E1.
  - assert (unit f * B <= 1 / 1000 * B) by (apply Rmult_le_compat_r; lra). lra.
Qed.

(** The deviation of values of at most [B] *)
Lemma std_finite f t t' l B : fine f -> Permutation (summands t) l -> Permutation (summands t') l -> fitting f l ->
  INR (levels t + 1) * unit f <= 1 / 4 -> INR (levels t' + 1) * unit f <= 1 / 4 -> (forall x, In x l -> Rabs x <= B) -> 1 <= B ->
  128 * (INR (length l) * (B * B)) < pow2 (emax f) ->
  exists m s, mean_r f t = Fin m /\ Rabs m <= 3 * B /\ std_r f t t' = Fin s.
Proof.
  intros Hf P P' F D D' HB B1 L. pose proof (unit_small f Hf) as U. pose proof (tiny_small f Hf) as HT.
  assert (N0 : 1 <= INR (length l)) by (rewrite <- (Permutation_length P); apply (le_INR 1), summands_pos).
  assert (BB : B <= B * B) by (rewrite <- (Rmult_1_l B) at 1; apply Rmult_le_compat_r; lra).
  assert (NB : B * B <= INR (length l) * (B * B)) by (rewrite <- (Rmult_1_l (B * B)) at 1; apply Rmult_le_compat_r; lra).
  assert (NB' : INR (length l) * B <= INR (length l) * (B * B)) by (apply Rmult_le_compat_l; lra).
  destruct (average_finite f (fun x => Fin x) (fun x => x) t B Hf) as (m & Hm & Bm).
  { intros x Hx. apply (Permutation_in _ P) in Hx. split; [reflexivity|]. split; [apply fits_multiple, F, Hx|apply HB, Hx]. }
  { exact D. }
  { rewrite (Permutation_length P). lra. }
  fold (mean_r f t) in Hm. pose proof (average_fits _ _ _ _ (proj1 Hf) Hm) as Fm.
  set (val := fun x => round_f f (round_f f (x - m) * round_f f (x - m))).
  assert (G : forall x, In x (summands t') -> square_dev f (Fin m) x = Fin (val x) /\ multiple (emin f) (val x) /\ Rabs (val x) <= 24 * (B * B)).
  { intros x Hx. apply (Permutation_in _ P') in Hx. pose proof (HB x Hx) as Bx.
    assert (DB : Rabs (x - m) <= 7 / 2 * B + 1 / 2).
    { unfold Rminus. eapply Rle_trans; [apply Rabs_triang|]. rewrite Rabs_Ropp. lra. }
    assert (DB' : Rabs (x - m) <= 4 * B) by lra.
    destruct (store_below f (x - m) (4 * B) Hf DB' ltac:(lra)) as [E1 E2].
    pose proof (round_f_rel f (x - m) (multiple_minus _ _ _ (fits_multiple _ _ (F x Hx)) (fits_multiple _ _ Fm))) as RR. fold (unit f) in RR.
    assert (DD : Rabs (round_f f (x - m)) <= 4.5 * B).
    { replace (round_f f (x - m)) with ((round_f f (x - m) - (x - m)) + (x - m)) by ring. eapply Rle_trans; [apply Rabs_triang|].
      assert (unit f * Rabs (x - m) <= 1 / 1000 * (4 * B)) by (apply Rmult_le_compat; try lra; apply Rabs_pos). lra. }
    set (d := round_f f (x - m)) in *.
    assert (D2 : Rabs (d * d) <= 20.25 * (B * B)).
    { rewrite Rabs_mult. replace (20.25 * (B * B)) with (4.5 * B * (4.5 * B)) by lra. apply Rmult_le_compat; try lra; apply Rabs_pos. }
    destruct (store_below f (d * d) (20.25 * (B * B)) Hf D2 ltac:(lra)) as [E3 E4].
    split; [|split].
    - unfold square_dev. cbn [ext_sub ext_add ext_neg rnd]. replace (x + - m) with (x - m) by ring. rewrite E1. cbn [ext_mul rnd]. exact E3.
    - apply round_f_multiple.
    - change (Rabs (round_f f (d * d)) <= 24 * (B * B)). assert (unit f * (20.25 * (B * B)) <= 1 / 1000 * (20.25 * (B * B))) by (apply Rmult_le_compat_r; lra). lra. }
  destruct (average_finite f (square_dev f (Fin m)) val t' (24 * (B * B)) Hf G D') as (V & HV & BV).
  { rewrite (Permutation_length P'). lra. }
  assert (V0 : 0 <= V).
  { pose proof (average_fin _ _ _ _ HV) as (s & Hs & HV'). apply store_fin in HV' as [-> _]. apply round_f_nonneg.
    assert (N1 : 1 <= INR (length (summands t'))) by (apply (le_INR 1), summands_pos).
    apply Rmult_le_pos; [|left; apply Rinv_0_lt_compat; lra].
    assert (G0 : forall x, In x (summands t') -> exists y, square_dev f (Fin m) x = Fin y /\ 0 <= y).
    { intros x Hx. exists (val x). split; [apply G, Hx|]. apply round_f_nonneg, Rle_0_sqr. }
    clear - Hs G0. revert s Hs. induction t' as [x|a IHa b IHb]; intros s Hs.
    - destruct (G0 x (or_introl eq_refl)) as (y & Hy & Y). cbn in Hs. rewrite Hy in Hs. injection Hs as <-. exact Y.
    - cbn [add_up summands] in *. apply rnd_fin in Hs as (w & Hw & E). apply ext_add_fin in Hw as (p & q & Hp & Hq & ->). apply store_fin in E as [-> _].
      apply round_f_nonneg. pose proof (IHa ltac:(intros; apply G0, in_or_app; auto) p Hp). pose proof (IHb ltac:(intros; apply G0, in_or_app; auto) q Hq). lra. }
  assert (SV : Rabs (sqrt V) <= 8 * B).
  { rewrite Rabs_right by apply Rle_ge, sqrt_pos. rewrite <- (sqrt_square (8 * B)) by lra. apply sqrt_le_1_alt. rewrite Rabs_right in BV by lra. lra. }
  destruct (store_below f (sqrt V) (8 * B) Hf SV ltac:(lra)) as [E5 _].
  exists m, (round_f f (sqrt V)). split; [exact Hm|]. split; [lra|].
  unfold std_r. rewrite Hm, HV. cbn [ext_sqrt]. destruct (Rlt_dec V 0); [lra|]. exact E5.
Qed.

(** ** Mean and deviation of a region *)
Definition noise (f : format) (D : nat) : R := INR (D + 2) * unit f.

Lemma abs_lmean l : l <> [] -> Rabs (lmean l) <= lmean_abs l.
Proof.
  intros N. assert (N0 : 0 < INR (length l)) by (apply lt_0_INR; destruct l; [contradiction|cbn; lia]).
  unfold lmean_abs. rewrite <- !Rsum_lmean, map_length. unfold Rdiv. rewrite Rabs_mult, (Rabs_right (/ _)) by (left; apply Rinv_0_lt_compat, N0).
  apply Rmult_le_compat_r; [left; apply Rinv_0_lt_compat, N0|]. pose proof (Rsum_abs (fun x => x) l) as T. rewrite map_id in T. exact T.
Qed.

Lemma levels_noise f t D : fine f -> (levels t <= D)%nat -> noise f D <= 1 / 4 ->
  INR (levels t + 1) * unit f <= noise f D /\ INR (levels t + 2) * unit f <= noise f D.
Proof.
  intros Hf H _. pose proof (unit_small f Hf) as U. unfold noise. split; (apply Rmult_le_compat_r; [lra|apply le_INR; lia]).
Qed.

Lemma mean_close f t l D m : fine f -> Permutation (summands t) l -> fitting f l -> (levels t <= D)%nat -> noise f D <= 1 / 4 -> mean_r f t = Fin m ->
  fits f m /\ Rabs (m - lmean l) <= 2 * noise f D * lmean_abs l + pow2 (emin f) / 2.
Proof.
  intros Hf P F L D4 H. destruct (levels_noise f t D Hf L D4) as [K _]. destruct (mean_bounds f t l m Hf P F ltac:(lra) H) as [Fm B]. split; [exact Fm|].
  assert (N : l <> []) by (pose proof (summands_pos t) as N; rewrite (Permutation_length P) in N; destruct l; [cbn in N; lia|discriminate]).
  pose proof (abs_lmean l N) as A. pose proof (Rabs_pos (lmean l)).
  assert (INR (levels t + 1) * unit f * lmean_abs l <= noise f D * lmean_abs l) by (apply Rmult_le_compat_r; lra). lra.
Qed.

Lemma std_close f t t' l D s : fine f -> Permutation (summands t) l -> Permutation (summands t') l -> fitting f l ->
  (levels t <= D)%nat -> (levels t' <= D)%nat -> noise f D <= 1 / 4 -> std_r f t t' = Fin s ->
  Rabs (s - std0 l) <= 4 * noise f D * (std0 l + lmean_abs l) + 3 * sqrt (pow2 (emin f)).
Proof.
  intros Hf P P' F L L' D4 H. destruct (levels_noise f t D Hf L D4) as [K _]. destruct (levels_noise f t' D Hf L' D4) as [K1 K2].
  destruct (std_bounds f t t' l s Hf P P' F ltac:(lra) ltac:(lra) H) as (m & Hm & B).
  destruct (mean_close f t l D m Hf P F L D4 Hm) as [_ M].
  assert (N : l <> []) by (pose proof (summands_pos t) as N; rewrite (Permutation_length P) in N; destruct l; [cbn in N; lia|discriminate]).
  pose proof (about_mean m l N) as A. pose proof (sqrt_pos (dev 2 l / INR (length l))) as S0. fold (std0 l) in S0.
  pose proof (tiny_small f Hf) as HT. assert (G0 : 0 <= sqrt (pow2 (emin f))) by apply sqrt_pos.
  assert (GG : sqrt (pow2 (emin f)) * sqrt (pow2 (emin f)) = pow2 (emin f)) by (apply sqrt_sqrt; lra).
  assert (G1 : sqrt (pow2 (emin f)) <= 1) by (rewrite <- sqrt_1; apply sqrt_le_1_alt; lra).
  set (g := sqrt (pow2 (emin f))) in *. set (h := pow2 (emin f)) in *.
  assert (G2 : h <= g) by (rewrite <- GG; rewrite <- (Rmult_1_r g) at 3; apply Rmult_le_compat_l; lra).
  set (d := Rabs (m - lmean l)) in *. assert (D0 : 0 <= d) by apply Rabs_pos.
  assert (DD : (m - lmean l) * (m - lmean l) = d * d) by (unfold d; rewrite <- Rabs_mult, Rabs_right; [reflexivity|apply Rle_ge, Rle_0_sqr]).
  rewrite DD in A. set (z := std0 l) in *.
  assert (R1 : z <= sqrt (about m l)) by (rewrite A, <- (sqrt_square z) at 1 by exact S0; apply sqrt_le_1_alt; assert (0 <= d * d) by (apply Rmult_le_pos; lra); lra).
  assert (R2 : sqrt (about m l) <= z + d).
  { rewrite A, <- (sqrt_square (z + d)) by lra. apply sqrt_le_1_alt. assert (0 <= z * d) by (apply Rmult_le_pos; lra). lra. }
  set (r := sqrt (about m l)) in *. set (p := noise f D) in *. pose proof (unit_small f Hf) as U.
  assert (P0 : 0 <= p) by (apply Rmult_le_pos; [apply pos_INR|lra]).
  assert (B2 : 4 * (INR (levels t' + 2) * unit f) * r <= 4 * p * (z + d)) by (apply Rmult_le_compat; try lra; apply Rmult_le_pos; try lra; apply Rmult_le_pos; [apply pos_INR|lra]).
  replace (s - z) with ((s - r) + (r - z)) by ring. eapply Rle_trans; [apply Rabs_triang|]. rewrite (Rabs_right (r - z)) by lra.
  assert (4 * p * d <= 1 * d) by (apply Rmult_le_compat_r; lra). lra.
Qed.

(** ** Quotients *)
Lemma ratio_close p K z N d s r : 0 < p -> 0 <= K -> 0 < z -> 12 * p * (1 + K) <= 1 -> Rabs N <= K * z ->
  Rabs (d - N) <= (4 * p * K + p) * z -> Rabs (s - z) <= 6 * p * (1 + K) * z -> Rabs (r - d / s) <= p / 2 * Rabs (d / s) + p ->
  z / 2 <= s /\ Rabs (d / s) <= 2 * (1 + K) /\ Rabs (r - N / z) <= 16 * p * ((1 + K) * (1 + K)).
Proof.
  intros P0 K0 Z0 C HN Hd Hs Hr.
  assert (S : z / 2 <= s).
  { apply abs_between in Hs. assert (6 * p * (1 + K) * z <= 1 / 2 * z) by (apply Rmult_le_compat_r; lra). lra. }
  set (k := 1 + K) in *. assert (K1 : 1 <= k) by (unfold k; lra).
  assert (PK : 0 <= p * k) by (apply Rmult_le_pos; lra). assert (KK : k <= k * k) by (rewrite <- (Rmult_1_l k) at 1; apply Rmult_le_compat_r; lra).
  assert (E : Rabs (d / s - N / z) <= 12 * p * (k * k)).
  { replace (d / s - N / z) with (((d - N) * z - N * (s - z)) * / (s * z)) by (field; lra).
    assert (SZ : 0 < s * z) by (apply Rmult_lt_0_compat; lra).
    rewrite Rabs_mult, (Rabs_right (/ _)) by (left; apply Rinv_0_lt_compat, SZ).
    apply Rmult_le_reg_r with (s * z); [exact SZ|]. rewrite Rmult_assoc, Rinv_l, Rmult_1_r by lra.
    apply Rle_trans with (6 * p * (k * k) * (z * z)).
    2: { assert (0 <= p * (k * k)) by (apply Rmult_le_pos; [lra|]; apply Rmult_le_pos; lra).
         assert (p * (k * k) * (z / 2 * z) <= p * (k * k) * (s * z)) by (apply Rmult_le_compat_l; [assumption|]; apply Rmult_le_compat_r; lra). lra. }
    eapply Rle_trans; [apply Rabs_triang|]. rewrite Rabs_Ropp, !Rabs_mult, (Rabs_right z) by lra.
    assert (T1 : Rabs (d - N) * z <= (4 * p * K + p) * z * z) by (apply Rmult_le_compat_r; lra).
    assert (T2 : Rabs N * Rabs (s - z) <= K * z * (6 * p * k * z)) by (apply Rmult_le_compat; try apply Rabs_pos; assumption).
    assert (T3 : (4 * p * K + p) + K * (6 * p * k) <= 6 * p * (k * k)).
    { replace (6 * p * (k * k)) with (6 * p * k + K * (6 * p * k)) by (unfold k; ring).
      assert (0 <= p * K) by (apply Rmult_le_pos; lra). unfold k. lra. }
    assert (((4 * p * K + p) + K * (6 * p * k)) * (z * z) <= 6 * p * (k * k) * (z * z)) by (apply Rmult_le_compat_r; [apply Rmult_le_pos; lra|exact T3]). lra. }
  assert (Q : Rabs (N / z) <= K).
  { unfold Rdiv. rewrite Rabs_mult, (Rabs_right (/ z)) by (left; apply Rinv_0_lt_compat, Z0).
    apply Rmult_le_reg_r with z; [exact Z0|]. rewrite Rmult_assoc, Rinv_l, Rmult_1_r by lra. exact HN. }
  assert (E1 : 12 * p * (k * k) <= k).
  { replace (12 * p * (k * k)) with (12 * p * k * k) by ring. rewrite <- (Rmult_1_l k) at 3. apply Rmult_le_compat_r; lra. }
  assert (X : Rabs (d / s) <= 2 * k).
  { replace (d / s) with ((d / s - N / z) + N / z) by ring. eapply Rle_trans; [apply Rabs_triang|]. unfold k in *. lra. }
  split; [exact S|]. split; [exact X|].
  replace (r - N / z) with ((r - d / s) + (d / s - N / z)) by ring. eapply Rle_trans; [apply Rabs_triang|].
  assert (p / 2 * Rabs (d / s) <= p / 2 * (2 * k)) by (apply Rmult_le_compat_l; lra).
  assert (p * k <= p * (k * k)) by (apply Rmult_le_compat_l; lra). assert (p <= p * k) by (rewrite <- (Rmult_1_r p) at 1; apply Rmult_le_compat_l; lra). lra.
Qed.

(** ** SNR and CNR *)
Lemma tiny_unit f : fine f -> pow2 (emin f) <= unit f.
Proof. intros [(_ & _ & _ & W) _]. apply pow2_le. lia. Qed.
Lemma unit_noise f D : fine f -> 2 * unit f <= noise f D.
Proof. intros Hf. pose proof (unit_small f Hf) as U. unfold noise. apply Rmult_le_compat_r; [lra|]. apply (le_INR 2). lia. Qed.

Lemma quotient_close f D K z N d s : fine f -> 0 <= K -> 0 < z -> 12 * noise f D * (1 + K) <= 1 -> Rabs N <= K * z ->
  Rabs (d - N) <= (4 * noise f D * K + noise f D) * z -> Rabs (s - z) <= 6 * noise f D * (1 + K) * z ->
  exists r, s <> 0 /\ store f (d / s) = Fin r /\ Rabs (r - N / z) <= 16 * noise f D * ((1 + K) * (1 + K)).
Proof.
  intros Hf K0 Z0 C HN Hd Hs. pose proof (unit_small f Hf) as U. pose proof (tiny_unit f Hf) as T. pose proof (unit_noise f D Hf) as W.
  pose proof (tiny_small f Hf) as HT. pose proof (round_f_err f (d / s)) as E. fold (unit f) in E. rewrite half_tiny in E.
  set (p := noise f D) in *.
  assert (E' : Rabs (round_f f (d / s) - d / s) <= p / 2 * Rabs (d / s) + p).
  { eapply Rle_trans; [exact E|]. assert (unit f * Rabs (d / s) <= p / 2 * Rabs (d / s)) by (apply Rmult_le_compat_r; [apply Rabs_pos|lra]). lra. }
  destruct (ratio_close p K z N d s _ ltac:(lra) K0 Z0 C HN Hd Hs E') as (S & X & B).
  exists (round_f f (d / s)). split; [lra|]. split; [|exact B].
  assert (PU : 12 * (2 * unit f) * (1 + K) <= 1).
  { eapply Rle_trans; [|exact C]. apply Rmult_le_compat_r; lra. }
  assert (KU : 2 * (1 + K) <= pow2 (prec f) / 12).
  { unfold unit in PU. rewrite pow2_opp in PU. pose proof (pow2_pos (prec f)) as PP. apply Rmult_le_reg_r with (12 * / pow2 (prec f)); [apply Rmult_lt_0_compat; [lra|apply Rinv_0_lt_compat, PP]|].
    replace (pow2 (prec f) / 12 * (12 * / pow2 (prec f))) with 1 by (field; lra). lra. }
  assert (PE : pow2 (prec f) <= pow2 (emax f)) by (apply pow2_le; destruct Hf as [(_ & _ & W1 & _) _]; lia).
  assert (P10 : 1024 <= pow2 (prec f)).
  { apply Rle_trans with (pow2 10); [rewrite pow2_Z by lia; apply IZR_le; cbn; lia|apply pow2_le; destruct Hf; lia]. }
  apply (store_below f (d / s) (2 * (1 + K)) Hf X). lra.
Qed.

(** Regions that neither overflow nor underflow: [n * B^2] and the deviation [z] *)
Definition in_range (f : format) (D : nat) (l : list R) : Prop :=
  fitting f l /\ 3 * sqrt (pow2 (emin f)) <= noise f D * std0 l /\
  exists B, 1 <= B /\ (forall x, In x l -> Rabs x <= B) /\ 128 * (INR (length l) * (B * B)) < pow2 (emax f).

Definition order_of (D : nat) (t : order) (l : list R) : Prop := Permutation (summands t) l /\ (levels t <= D)%nat.

Lemma mean_finite f t l D B : fine f -> order_of D t l -> fitting f l -> noise f D <= 1 / 4 -> 1 <= B -> (forall x, In x l -> Rabs x <= B) ->
  128 * (INR (length l) * (B * B)) < pow2 (emax f) -> exists m, mean_r f t = Fin m /\ Rabs m <= 3 * B.
Proof.
  intros Hf [P L] F D4 B1 HB O. destruct (levels_noise f t D Hf L D4) as [K _].
  destruct (std_finite f t t l B Hf P P F ltac:(lra) ltac:(lra) HB B1 O) as (m & _ & H & H' & _). eauto.
Qed.

Lemma snr_close f D tm t t' l : fine f -> order_of D tm l -> order_of D t l -> order_of D t' l -> in_range f D l -> 0 < std0 l ->
  12 * noise f D * (1 + lmean_abs l / std0 l) <= 1 ->
  exists r, snr_r f tm t t' = Fin r /\
    Rabs (r - lmean l / std0 l) <= 16 * noise f D * ((1 + lmean_abs l / std0 l) * (1 + lmean_abs l / std0 l)).
Proof.
  intros Hf Om [P L] [P' L'] (F & HU & B & B1 & HB & O) Z0 C.
  assert (N : l <> []) by (pose proof (summands_pos t) as N; rewrite (Permutation_length P) in N; destruct l; [cbn in N; lia|discriminate]).
  pose proof (abs_lmean l N) as A. pose proof (Rabs_pos (lmean l)) as A1. pose proof (unit_noise f D Hf) as W. pose proof (unit_small f Hf) as U.
  pose proof (tiny_small f Hf) as HT.
  assert (K0 : 0 <= lmean_abs l / std0 l) by (apply Rmult_le_pos; [lra|left; apply Rinv_0_lt_compat, Z0]).
  assert (KZ : lmean_abs l / std0 l * std0 l = lmean_abs l) by (field; lra). set (K := lmean_abs l / std0 l) in *.
  assert (D4 : noise f D <= 1 / 4).
  { assert (0 <= noise f D * K) by (apply Rmult_le_pos; lra). lra. }
  destruct (levels_noise f t D Hf L D4) as [Lt _]. destruct (levels_noise f t' D Hf L' D4) as [Lt' _].
  destruct (std_finite f t t' l B Hf P P' F ltac:(lra) ltac:(lra) HB B1 O) as (_ & s & _ & _ & Hs).
  destruct (mean_finite f tm l D B Hf Om F D4 B1 HB O) as (m & Hm & _).
  pose proof (std_close f t t' l D s Hf P P' F L L' D4 Hs) as Bs.
  destruct (mean_close f tm l D m Hf (proj1 Om) F (proj2 Om) D4 Hm) as [_ Bm].
  assert (G1 : pow2 (emin f) <= sqrt (pow2 (emin f))).
  { assert (GG : sqrt (pow2 (emin f)) * sqrt (pow2 (emin f)) = pow2 (emin f)) by (apply sqrt_sqrt; lra).
    assert (0 <= sqrt (pow2 (emin f))) by apply sqrt_pos. assert (sqrt (pow2 (emin f)) <= 1) by (rewrite <- sqrt_1; apply sqrt_le_1_alt; lra).
    rewrite <- GG at 1. rewrite <- (Rmult_1_r (sqrt _)) at 3. apply Rmult_le_compat_l; lra. }
  set (p := noise f D) in *. set (z := std0 l) in *.
  assert (PK : 0 <= p * K * z) by (apply Rmult_le_pos; [apply Rmult_le_pos|]; lra). assert (PZ : 0 <= p * z) by (apply Rmult_le_pos; lra).
  destruct (quotient_close f D K z (lmean l) m s Hf K0 Z0 C) as (r & S0 & Hr & Br).
  - rewrite KZ. exact A.
  - fold p. eapply Rle_trans; [exact Bm|]. rewrite <- KZ. lra.
  - fold p. eapply Rle_trans; [exact Bs|]. rewrite <- KZ. lra.
  - exists r. split; [|exact Br]. unfold snr_r. rewrite Hs, Hm. cbn [ext_eqb ext_div rnd]. destruct (Req_EM_T s 0); [contradiction|]. exact Hr.
Qed.

Lemma cnr_close f D ts tm t t' sg bg : fine f -> order_of D ts sg -> order_of D tm bg -> order_of D t bg -> order_of D t' bg ->
  in_range f D bg -> (fitting f sg /\ exists B, 1 <= B /\ (forall x, In x sg -> Rabs x <= B) /\ 128 * (INR (length sg) * (B * B)) < pow2 (emax f)) ->
  0 < std0 bg -> let K := (lmean_abs sg + lmean_abs bg) / std0 bg in 12 * noise f D * (1 + K) <= 1 ->
  exists r, cnr_r f ts tm t t' = Fin r /\
    Rabs (r - (lmean sg - lmean bg) / std0 bg) <= 16 * noise f D * ((1 + K) * (1 + K)).
Proof.
  intros Hf Os Om [P L] [P' L'] (F & HU & B & B1 & HB & O) (Fs & Bs' & B1s & HBs & Osg) Z0 K C.
  assert (N : bg <> []) by (pose proof (summands_pos t) as N; rewrite (Permutation_length P) in N; destruct bg; [cbn in N; lia|discriminate]).
  assert (Ns : sg <> []) by (pose proof (summands_pos ts) as M; rewrite (Permutation_length (proj1 Os)) in M; destruct sg; [cbn in M; lia|discriminate]).
  pose proof (abs_lmean bg N) as A. pose proof (Rabs_pos (lmean bg)) as A1. pose proof (abs_lmean sg Ns) as As. pose proof (Rabs_pos (lmean sg)) as A1s.
  pose proof (unit_noise f D Hf) as W. pose proof (unit_small f Hf) as U. pose proof (tiny_small f Hf) as HT.
  assert (K0 : 0 <= K) by (apply Rmult_le_pos; [lra|left; apply Rinv_0_lt_compat, Z0]).
  assert (KZ : K * std0 bg = lmean_abs sg + lmean_abs bg) by (unfold K; field; lra). clearbody K.
  assert (D4 : noise f D <= 1 / 4).
  { assert (0 <= noise f D * K) by (apply Rmult_le_pos; lra). lra. }
  destruct (levels_noise f t D Hf L D4) as [Lt _]. destruct (levels_noise f t' D Hf L' D4) as [Lt' _].
  destruct (std_finite f t t' bg B Hf P P' F ltac:(lra) ltac:(lra) HB B1 O) as (_ & s & _ & _ & Hs).
  destruct (mean_finite f tm bg D B Hf Om F D4 B1 HB O) as (m & Hm & Cm).
  destruct (mean_finite f ts sg D Bs' Hf Os Fs D4 B1s HBs Osg) as (a & Ha & Ca).
  pose proof (std_close f t t' bg D s Hf P P' F L L' D4 Hs) as Bs.
  destruct (mean_close f tm bg D m Hf (proj1 Om) F (proj2 Om) D4 Hm) as [Fm Bm].
  destruct (mean_close f ts sg D a Hf (proj1 Os) Fs (proj2 Os) D4 Ha) as [Fa Ba].
  assert (G1 : pow2 (emin f) <= sqrt (pow2 (emin f))).
  { assert (GG : sqrt (pow2 (emin f)) * sqrt (pow2 (emin f)) = pow2 (emin f)) by (apply sqrt_sqrt; lra).
    assert (0 <= sqrt (pow2 (emin f))) by apply sqrt_pos. assert (sqrt (pow2 (emin f)) <= 1) by (rewrite <- sqrt_1; apply sqrt_le_1_alt; lra).
    rewrite <- GG at 1. rewrite <- (Rmult_1_r (sqrt _)) at 3. apply Rmult_le_compat_l; lra. }
  assert (X : 2 * Rabs (a - m) < pow2 (emax f)).
  { assert (I : forall (q : list R) b, q <> [] -> 1 <= b -> b <= INR (length q) * (b * b)).
    { intros q b Hq Hb. assert (1 <= INR (length q)) by (apply (le_INR 1); destruct q; [contradiction|cbn; lia]).
      assert (b <= b * b) by (rewrite <- (Rmult_1_l b) at 1; apply Rmult_le_compat_r; lra).
      assert (b * b <= INR (length q) * (b * b)) by (rewrite <- (Rmult_1_l (b * b)) at 1; apply Rmult_le_compat_r; lra). lra. }
    pose proof (I bg B N B1). pose proof (I sg Bs' Ns B1s).
    assert (Rabs (a - m) <= Rabs a + Rabs m) by (unfold Rminus; eapply Rle_trans; [apply Rabs_triang|]; rewrite Rabs_Ropp; lra). lra. }
  pose proof (multiple_minus _ _ _ (fits_multiple _ _ Fa) (fits_multiple _ _ Fm)) as M.
  pose proof (store_small f (a - m) Hf M X) as Hd. pose proof (round_f_rel f (a - m) M) as Rd. fold (unit f) in Rd.
  set (p := noise f D) in *. set (z := std0 bg) in *.
  assert (PK : 0 <= p * K * z) by (apply Rmult_le_pos; [apply Rmult_le_pos|]; lra). assert (PZ : 0 <= p * z) by (apply Rmult_le_pos; lra).
  assert (HN : Rabs (lmean sg - lmean bg) <= K * z).
  { rewrite KZ. unfold Rminus. eapply Rle_trans; [apply Rabs_triang|]. rewrite Rabs_Ropp. lra. }
  destruct (quotient_close f D K z (lmean sg - lmean bg) (round_f f (a - m)) s Hf K0 Z0 C) as (r & S0 & Hr & Br).
  - exact HN.
  - fold p. assert (E1 : Rabs ((a - m) - (lmean sg - lmean bg)) <= 2 * p * (K * z) + pow2 (emin f)).
    { replace ((a - m) - (lmean sg - lmean bg)) with ((a - lmean sg) - (m - lmean bg)) by ring. unfold Rminus at 1. eapply Rle_trans; [apply Rabs_triang|].
      rewrite Rabs_Ropp, KZ. lra. }
    assert (E2 : Rabs (a - m) <= K * z + (2 * p * (K * z) + pow2 (emin f))).
    { replace (a - m) with (((a - m) - (lmean sg - lmean bg)) + (lmean sg - lmean bg)) by ring. eapply Rle_trans; [apply Rabs_triang|]. lra. }
    assert (E3 : unit f * Rabs (a - m) <= p / 2 * (K * z + (2 * p * (K * z) + pow2 (emin f)))) by (apply Rmult_le_compat; try lra; apply Rabs_pos).
    replace (round_f f (a - m) - (lmean sg - lmean bg)) with ((round_f f (a - m) - (a - m)) + ((a - m) - (lmean sg - lmean bg))) by ring.
    eapply Rle_trans; [apply Rabs_triang|].
    assert (p * (p * K * z) <= 1 / 4 * (p * K * z)) by (apply Rmult_le_compat_r; lra).
    assert (p * pow2 (emin f) <= 1 / 4 * pow2 (emin f)) by (apply Rmult_le_compat_r; lra). lra.
  - fold p. eapply Rle_trans; [exact Bs|]. pose proof (Rmult_le_compat_l p (lmean_abs bg) (K * z) ltac:(lra) ltac:(lra)). lra.
  - exists r. split; [|exact Br]. unfold cnr_r. rewrite Hs, Hm, Ha. cbn [ext_eqb ext_sub ext_neg ext_add]. destruct (Req_EM_T s 0); [contradiction|].
    cbn [rnd]. replace (a + - m) with (a - m) by ring. rewrite Hd. cbn [ext_div]. destruct (Req_EM_T s 0); [contradiction|]. exact Hr.
Qed.
