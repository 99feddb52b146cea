(** C112 and C113: the value of the detection index of MAD, and the references for which MAD sees nothing. *)
From Coq Require Import Reals Lra Lia Psatz.
From Verif Require Import Base NdArray PairModel RealSums MetricModel SsimModel SsimProofs GsmModel GsmProofs MadModel
  MadLoopProofs MadProofs MadProps FreqModel FreqProofs FreqAngleProofs FreqProps SliceModel SliceProps.

Local Open Scope R_scope.

(** ** C112: the detection index written out *)

(** Contrast is deviation over mean lightness. The distortion is visible in a block whose mean lightness is above 1/2
    where the contrast of the error exceeds that of the reference and e^-5; it counts with the logarithm of the ratio. *)
Definition visibility (deviation_org mean_org deviation_err : R) : R :=
  if Rlt_dec (1/2) mean_org then
    let masking := Rmax (deviation_org / mean_org) (exp (-5)) in
    if Rlt_dec masking (deviation_err / mean_org) then ln (deviation_err / mean_org / masking) else 0
  else 0.

(** Blocks of 4 s x 4 s pixels; the one of pixel (x, y) starts at the multiples of s below x and y. *)
Definition block_at (f : nat -> nat -> R) (s x y : nat) : list R :=
  flat_map (fun i => map (fun j => f (x / s * s + i) (y / s * s + j))%nat (seq 0 (4 * s))) (seq 0 (4 * s)).
(** What is found at a pixel in a memory block of real and imaginary parts in turn. *)
Definition alternating (re im : arr R) (N x y : nat) : R :=
  nth ((x * N + y) / 2) (dat (if Nat.even (x * N + y) then re else im)) 0.
(** Mean squared difference of the grey values around a pixel. *)
Definition local_mse (r m : arr R) (s x y : nat) : R :=
  Sum (fun i => Sum (fun j => (getd r [x + 2 * s - i; y + 2 * s - j]%nat - getd m [x + 2 * s - i; y + 2 * s - j]%nat) ^ 2)
                  (seq 0 (4 * s))) (seq 0 (4 * s)) / INR (4 * s) ^ 2.

Lemma ln_quot x y : 0 < x -> 0 < y -> ln (x / y) = ln x - ln y.
Proof. intros Hx Hy. unfold Rdiv. rewrite ln_mult by (try apply Rinv_0_lt_compat; assumption). rewrite ln_Rinv by exact Hy. ring. Qed.

Lemma hq_mask_eq ms so mu se : ms <> 0 -> 0 <= so -> 0 <= se -> hq_mask ms (Fin so) mu (Fin se) = Fin (visibility so mu se / ms).
Proof.
  intros Hms Hso Hse. unfold hq_mask, visibility. cbv zeta.
  assert (G : forall t, ext_ltb t NInf = false) by (intros []; reflexivity).
  destruct (Rlt_dec (1/2) mu) as [Hmu|Hmu].
  - assert (M0 : mu <> 0) by lra. rewrite !ext_div_fin by exact M0.
    set (a := so / mu). set (e := se / mu).
    assert (A0 : 0 <= a) by (unfold a; apply Rmult_le_pos; [exact Hso|apply Rlt_le, Rinv_0_lt_compat; lra]).
    assert (E0 : 0 <= e) by (unfold e; apply Rmult_le_pos; [exact Hse|apply Rlt_le, Rinv_0_lt_compat; lra]).
    clearbody a e. assert (X0 := exp_pos (-5)).
    assert (LT : forall x y, 0 < x -> 0 < y -> (ln x < ln y <-> x < y)).
    { intros x y Hx Hy. split; [intros; apply ln_lt_inv; assumption|intros; apply ln_increasing; assumption]. }
    assert (LX : forall x, 0 < x -> (-5 < ln x <-> exp (-5) < x)).
    { intros x Hx. rewrite <- (ln_exp (-5)) at 1. apply LT; assumption. }
    unfold ext_ln. destruct (Rlt_dec 0 e) as [E1|E1].
    + destruct (Rlt_dec 0 a) as [A1|A1].
      * unfold ext_sub, ext_leb. cbn [ext_neg ext_add ext_mul ext_ltb ext_eqb].
        replace (1 * (ln a + - -5) + -5) with (ln a) by ring.
        destruct (Rlt_dec (ln a) (ln e)) as [L1|L1]; destruct (Rlt_dec (-5) (ln a)) as [L2|L2];
        destruct (Rlt_dec (-5) (ln e)) as [L3|L3]; destruct (Rlt_dec (ln a) (-5)) as [L4|L4];
        destruct (Req_EM_T (ln a) (-5)) as [L5|L5]; cbn [andb orb]; try lra;
        pose proof L1 as L1'; pose proof L2 as L2'; pose proof L3 as L3';
        rewrite (LT a e) in L1' by assumption; rewrite (LX a) in L2' by assumption; rewrite (LX e) in L3' by assumption;
        rewrite ext_div_fin by exact Hms; f_equal; f_equal; unfold Rmax; destruct (Rle_dec a (exp (-5))); try lra;
        match goal with |- context [Rlt_dec ?p ?q] => destruct (Rlt_dec p q) end; try lra;
        rewrite ?ln_quot by (assumption || apply exp_pos); rewrite ?ln_exp; lra.
      * assert (A2 : a = 0) by lra. destruct (Req_EM_T a 0); [|lra].
        unfold ext_sub, ext_leb. cbn [ext_neg ext_add ext_ltb ext_eqb orb]. rewrite !andb_true_r, !andb_false_r.
        rewrite Rmax_right by lra.
        destruct (Rlt_dec (-5) (ln e)) as [L3|L3]; rewrite (LX e) in L3 by assumption.
        -- cbn [andb]. rewrite ext_div_fin by exact Hms. destruct (Rlt_dec (exp (-5)) e); [|lra]. f_equal. f_equal.
           rewrite ln_quot by assumption. rewrite ln_exp. ring.
        -- cbn [andb]. rewrite ext_div_fin by exact Hms. destruct (Rlt_dec (exp (-5)) e); [lra|]. reflexivity.
    + assert (E2 : e = 0) by lra. destruct (Req_EM_T e 0); [|lra].
      destruct (Rlt_dec (Rmax a (exp (-5))) e) as [L|L].
      { exfalso. pose proof (Rmax_r a (exp (-5))). lra. }
      rewrite <- (ext_div_fin 0 ms Hms). f_equal.
      rewrite !G. cbn [andb]. reflexivity.
  - rewrite <- (ext_div_fin 0 ms Hms). f_equal.
    assert (E : ext_ln (Fin 0) = NInf).
    { unfold ext_ln. destruct (Rlt_dec 0 0); [lra|]. destruct (Req_EM_T 0 0); [reflexivity|lra]. }
    rewrite !E.
    rewrite !G. cbn [andb]. reflexivity.
Qed.

Lemma seq_from k n : seq k n = map (Nat.add k) (seq 0 n).
Proof.
  revert k. induction n as [|n IH]; intros k; [reflexivity|]. cbn [seq map]. f_equal; [lia|].
  rewrite (IH (S k)), (IH 1%nat), map_map. apply map_ext. intros; lia.
Qed.

Lemma map_flat_map {A B C} (f : B -> C) (g : A -> list B) l : map f (flat_map g l) = flat_map (fun x => map f (g x)) l.
Proof. induction l as [|x l IH]; [reflexivity|]. cbn [flat_map]. rewrite map_app, IH. reflexivity. Qed.

Lemma flat_map_ext_in {A B} (f g : A -> list B) l : (forall x, In x l -> f x = g x) -> flat_map f l = flat_map g l.
Proof. induction l as [|x l IH]; intros H; [reflexivity|]. cbn [flat_map]. rewrite (H x (or_introl eq_refl)), IH; [reflexivity|]. intros; apply H; right; assumption. Qed.

Lemma tile_values N b buf i j : tile_vals N b buf (i, j) =
  flat_map (fun u => map (fun v => buf ((i + u) * N + (j + v))%nat) (seq 0 b)) (seq 0 b).
Proof.
  unfold tile_vals, window, grid. cbn [fst snd]. rewrite map_flat_map.
  rewrite (seq_from i b), flat_map_concat_map, map_map, <- flat_map_concat_map. apply flat_map_ext_in. intros u _.
  rewrite map_map, (seq_from j b), map_map. reflexivity.
Qed.

Lemma dat_square b (f : list nat -> R) : dat (tabulate [b; b] f) = flat_map (fun u => map (fun v => f [u; v]) (seq 0 b)) (seq 0 b).
Proof.
  unfold tabulate. cbn [dat indices]. rewrite map_flat_map. apply flat_map_ext_in. intros u _.
  rewrite map_map, map_flat_map. cbn [map]. rewrite flat_map_concat_map.
  generalize (seq 0 b). intros l. induction l as [|v l IH]; [reflexivity|]. cbn [map concat app]. f_equal. exact IH.
Qed.

Lemma block_values_at a N b i j : shp a = [N; N] -> (i + b <= N)%nat -> (j + b <= N)%nat ->
  dat (block a b (i, j)) = flat_map (fun u => map (fun v => getd a [i + u; j + v]%nat) (seq 0 b)) (seq 0 b).
Proof.
  intros Hs Hi Hj. unfold block, dim0, dim1. rewrite Hs. cbn [nth fst snd].
  replace (Nat.min (i + b) N - i)%nat with b by lia. replace (Nat.min (j + b) N - j)%nat with b by lia.
  rewrite dat_square. reflexivity.
Qed.

Lemma block_length (f : nat -> nat -> R) s x y : length (block_at f s x y) = (4 * s * (4 * s))%nat.
Proof.
  unfold block_at. generalize (seq_length (4 * s) 0). generalize (seq 0 (4 * s)) at 1 3. intros l L.
  transitivity (length l * (4 * s))%nat; [|rewrite L; reflexivity]. clear L.
  induction l as [|i l IH]; [reflexivity|]. cbn [flat_map length]. rewrite app_length, IH, map_length, seq_length. reflexivity.
Qed.

Lemma std1_deviation l : length l <> 1%nat -> length l <> 0%nat -> std1 l = Fin (deviation l).
Proof.
  intros H1 H0. unfold std1. destruct (Nat.eqb_spec (length l) 1); [contradiction|]. unfold deviation.
  rewrite minus_INR by lia. reflexivity.
Qed.

Lemma deviation_nonneg l : 0 <= deviation l. Proof. apply sqrt_pos. Qed.

Lemma lum_mse_eq r m s N x y : (0 < s)%nat -> shp r = [N; N] -> shp m = [N; N] -> (4 * s <= x < N - 4 * s)%nat -> (4 * s <= y < N - 4 * s)%nat ->
  lum_mse r m (4 * s) x y = local_mse r m s x y.
Proof.
  intros Hs Hr Hm Hx Hy. unfold lum_mse, local_mse, window.
  assert (H2 : (4 * s / 2 = 2 * s)%nat) by (replace (4 * s)%nat with (2 * s * 2)%nat by lia; apply Nat.div_mul; lia). rewrite H2.
  assert (RD : forall a i j, shp a = [N; N] -> (i < 4 * s)%nat -> (j < 4 * s)%nat ->
    read Reflect 0 a [x; y] [Z.of_nat (2 * s) - Z.of_nat i; Z.of_nat (2 * s) - Z.of_nat j]%Z = getd a [x + 2 * s - i; y + 2 * s - j]%nat).
  { intros a i j Ha Hi Hj. unfold read. rewrite Ha. cbn [read_pos]. rewrite !pad_pos_in by lia. f_equal. f_equal; [lia|]. f_equal. lia. }
  assert (G : forall f rows cols, Sum f (grid rows cols) = Sum (fun i => Sum (fun j => f (i, j)) cols) rows).
  { intros f rows cols. induction rows as [|i rows IH]; [reflexivity|]. unfold grid in *. cbn [flat_map]. rewrite Sum_app, Sum_map, IH. reflexivity. }
  rewrite G. cbn [fst snd]. unfold Rdiv at 2. rewrite (Rmult_comm (Sum _ _) (/ _)). rewrite <- Sum_scale. apply Sum_ext. intros i Hi. apply in_seq in Hi.
  rewrite <- Sum_scale. apply Sum_ext. intros j Hj. apply in_seq in Hj.
  rewrite !RD by (assumption || lia). unfold Rdiv. rewrite Rmult_1_l. reflexivity.
Qed.

(** Blocks of 4 s pixels that overlap by three quarters, as by default. *)
Theorem C112_value : forall filt junk o dr s r m N lr lm, (0 < s)%nat -> shp (mvals r) = [N; N] -> shp (mvals m) = [N; N] ->
  (N mod s = 0)%nat -> (8 * s < N)%nat -> h_ms o <> 0 ->
  lightness (h_b o) (h_k o) (h_gamma o) dr r = Ok lr -> lightness (h_b o) (h_k o) (h_gamma o) dr m = Ok lm ->
  shp (fst (filt lr)) = [N; N] ->
  let org x y := getd (fst (filt lr)) [x; y] in
  let err x y := getd (fst (filt lm)) [x; y] - getd (fst (filt lr)) [x; y] in
  let seen x y := visibility (deviation (block_at (alternating (fst (filt lr)) (snd (filt lr)) N) s x y))
                    (avg (block_at org s x y)) (deviation (block_at err s x y)) / h_ms o in
  let inside := seq (4 * s) (N - 8 * s) in
  high_quality filt junk o dr (4 * s) s r m =
  Ok (Fin (200 * sqrt (Sum (fun x => Sum (fun y => (seen x y * local_mse (mvals r) (mvals m) s x y) ^ 2) inside) inside / INR ((N - 8 * s) ^ 2)))).
Proof.
  intros filt junk o dr s r m N lr lm Hs Hr Hm Hmod HN Hms Er Em Hf org err seen inside. unfold high_quality. cbv zeta.
  assert (D0 : dim0 (mvals r) = N) by (unfold dim0; rewrite Hr; reflexivity).
  assert (D1 : dim1 (mvals r) = N) by (unfold dim1; rewrite Hr; reflexivity).
  rewrite D0, D1, Er, Em. cbn [bind]. unfold extract_blocks. rewrite Hf. cbn [length Nat.eqb tabulate shp bind].
  destruct (minstd_square N (4 * s) s (interleave (fst (filt lr)) (snd (filt lr))) (junk 0%nat) (junk 1%nat) Hs) as (tmp & so & E & _); try lia.
  assert (MS : forall x y, (4 * s <= x < N - 4 * s)%nat -> (4 * s <= y < N - 4 * s)%nat ->
    so (x * N + y)%nat = Fin (deviation (block_at (alternating (fst (filt lr)) (snd (filt lr)) N) s x y))).
  { intros x y Hx Hy. destruct (C40_plain N (4 * s) s (interleave (fst (filt lr)) (snd (filt lr))) (junk 0%nat) (junk 1%nat) x y) as (so' & E' & V); try lia.
    - rewrite E in E'. injection E' as <-. rewrite V. fold (tile_vals N (4 * s) (interleave (fst (filt lr)) (snd (filt lr))) (x / s * s, y / s * s)%nat).
      change (block_values N (4 * s)) with (tile_vals N (4 * s)). rewrite tile_values.
      assert (B : flat_map (fun u => map (fun v => interleave (fst (filt lr)) (snd (filt lr)) ((x / s * s + u) * N + (y / s * s + v))%nat) (seq 0 (4 * s))) (seq 0 (4 * s)) =
        block_at (alternating (fst (filt lr)) (snd (filt lr)) N) s x y).
      { unfold block_at. apply flat_map_ext_in. intros u _. apply map_ext. intros v. unfold interleave, alternating. destruct (Nat.even _); reflexivity. }
      rewrite B. apply std1_deviation; rewrite block_length; nia. }
  rewrite E. cbn [bind]. unfold dim0, dim1. rewrite Hf. cbn [nth shp tabulate].
  set (G := block_grid N N (4 * s) s).
  match goal with |- bind (assign_blocks _ _ _ (combine (map ?u (map ?v G)) (map ?w (map ?z G))) _) _ = _ =>
    destruct (assign_spec N N s (fun t => (u (v t), w (z t)))
      (combine (map u (map v G)) (map w (map z G))) (fun _ _ => (0%R, Fin 0)) Hs) as (loc & -> & A1 & _) end.
  { rewrite hq_tiles_blocks by (assumption || lia). fold G. intros j t Hj.
    apply nth_error_combine; rewrite !nth_error_map, Hj; reflexivity. }
  cbn [bind].
  assert (LC : forall x y, (4 * s <= x < N - 4 * s)%nat -> (4 * s <= y < N - 4 * s)%nat ->
    loc x y = (avg (block_at org s x y), Fin (deviation (block_at err s x y)))).
  { intros x y Hx Hy. pose proof (Nat.div_mod x s ltac:(lia)). pose proof (Nat.mod_upper_bound x s ltac:(lia)).
    pose proof (Nat.div_mod y s ltac:(lia)). pose proof (Nat.mod_upper_bound y s ltac:(lia)).
    rewrite A1 by lia.
    rewrite (block_values_at _ N) by (assumption || lia). rewrite (block_values_at _ N) by (reflexivity || lia).
    f_equal. rewrite <- std1_deviation by (rewrite block_length; nia). f_equal. unfold block_at.
    apply flat_map_ext_in. intros u Hu. apply in_seq in Hu. apply map_ext_in. intros v Hv. apply in_seq in Hv.
    rewrite getd_tabulate by lia. reflexivity. }
  assert (PX : forall xy, In xy (kept N N (4 * s)) ->
    ext_mul (hq_mask (h_ms o) (so (fst xy * N + snd xy)%nat) (fst (loc (fst xy) (snd xy))) (snd (loc (fst xy) (snd xy))))
      (Fin (lum_mse (mvals r) (mvals m) (4 * s) (fst xy) (snd xy))) =
    Fin (seen (fst xy) (snd xy) * local_mse (mvals r) (mvals m) s (fst xy) (snd xy))).
  { intros [x y] Hin. apply in_kept in Hin; try lia. cbn [fst snd] in *. rewrite MS, LC by lia. cbn [fst snd].
    rewrite hq_mask_eq by (assumption || apply deviation_nonneg). rewrite (lum_mse_eq _ _ s N) by (assumption || lia). reflexivity. }
  rewrite (map_ext_in _ _ _ PX). unfold rms. rewrite map_map, map_length. cbn [ext_mul].
  assert (F : forall (g : nat -> nat -> R) l c, fold_left ext_add (map (fun xy => Fin (g (fst xy) (snd xy) * g (fst xy) (snd xy))) l) (Fin c) =
     Fin (c + Sum (fun xy => g (fst xy) (snd xy) ^ 2) l)).
  { intros g. induction l as [|xy l IH]; intros c; [cbn [map fold_left]; rewrite Sum_nil, Rplus_0_r; reflexivity|].
    cbn [map fold_left ext_add]. rewrite IH, Sum_cons. f_equal. ring. }
  rewrite (F (fun x y => seen x y * local_mse (mvals r) (mvals m) s x y)), Rplus_0_l.
  assert (K : kept N N (4 * s) = grid inside inside).
  { unfold kept, inside. rewrite inner_eq by lia. replace (N - 2 * (4 * s))%nat with (N - 8 * s)%nat by lia. reflexivity. }
  assert (KL : length (kept N N (4 * s)) = ((N - 8 * s) ^ 2)%nat) by (rewrite kept_length by lia; cbn [Nat.pow]; nia).
  assert (GS : forall f rows cols, Sum f (grid rows cols) = Sum (fun i => Sum (fun j => f (i, j)) cols) rows).
  { intros f rows cols. induction rows as [|i rows IH]; [reflexivity|]. unfold grid in *. cbn [flat_map]. rewrite Sum_app, Sum_map, IH. reflexivity. }
  rewrite KL, K, GS. cbn [fst snd]. set (S := Sum _ _). assert (SP : 0 <= S) by (unfold S; apply Sum_nonneg; intros x _; apply Sum_nonneg; intros; apply pow2_ge_0).
  assert (NP : 0 < INR ((N - 8 * s) ^ 2)) by (apply lt_0_INR; cbn [Nat.pow]; nia).
  cbn [ext_sqrt]. destruct (Rlt_dec S 0); [lra|]. rewrite ext_div_fin by (apply Rgt_not_eq, sqrt_lt_R0; exact NP). cbn [ext_mul]. f_equal. f_equal.
  rewrite Rmult_comm. f_equal. symmetry. apply sqrt_div_alt. exact NP.
Qed.
Print Assumptions C112_value.

(** A reference whose filtered lightness nowhere exceeds 1/2 on average over a block hides every distortion: MAD is 0
    whatever the modified image. *)
Theorem C112_dark : forall filt gabor junk junk3 ho lo dr s beta_1 beta_2 t1 t2 r m N lr lm, (0 < s)%nat ->
  shp (mvals r) = [N; N] -> shp (mvals m) = [N; N] -> (N mod s = 0)%nat -> (8 * s < N)%nat -> h_ms ho <> 0 ->
  lightness (h_b ho) (h_k ho) (h_gamma ho) dr r = Ok lr -> lightness (h_b ho) (h_k ho) (h_gamma ho) dr m = Ok lm ->
  shp (fst (filt lr)) = [N; N] -> length (l_weights lo) = l_scales lo -> (0 < l_orient lo)%nat -> 0 < snd (betas beta_1 beta_2 t1 t2) ->
  (forall x y, (x + 4 * s <= N)%nat -> (y + 4 * s <= N)%nat -> avg (block_at (fun x y => getd (fst (filt lr)) [x; y]) s x y) <= 1/2) ->
  high_quality filt junk ho dr (4 * s) s r m = Ok (Fin 0) /\
  most_apparent_distortion filt gabor junk junk3 ho lo dr (Z.of_nat (4 * s)) (3 / 4) beta_1 beta_2 t1 t2 r m = Ok (Fin 0).
Proof.
  intros filt gabor junk junk3 ho lo dr s beta_1 beta_2 t1 t2 r m N lr lm Hs Hr Hm Hmod HN Hms Er Em Hf Hw Ho Hb Hd.
  assert (H : high_quality filt junk ho dr (4 * s) s r m = Ok (Fin 0)).
  { rewrite (C112_value filt junk ho dr s r m N lr lm) by assumption. f_equal. f_equal.
    match goal with |- 200 * sqrt (?u / _) = 0 => assert (E : u = 0) end.
    { rewrite <- (Sum_zero (seq (4 * s) (N - 8 * s))). apply Sum_ext. intros x Hx. apply in_seq in Hx.
      rewrite <- (Sum_zero (seq (4 * s) (N - 8 * s))). apply Sum_ext. intros y Hy. apply in_seq in Hy.
      unfold visibility. specialize (Hd x y ltac:(lia) ltac:(lia)).
      match goal with |- context [Rlt_dec (1/2) ?v] => destruct (Rlt_dec (1/2) v) as [L|_]; [exfalso; lra|] end.
      unfold Rdiv. ring. }
    rewrite E. unfold Rdiv. rewrite Rmult_0_l, sqrt_0. ring. }
  split; [exact H|]. unfold most_apparent_distortion. rewrite Hr. cbn [length Nat.eqb negb].
  assert (D0 : dim0 (mvals r) = N) by (unfold dim0; rewrite Hr; reflexivity).
  assert (D1 : dim1 (mvals r) = N) by (unfold dim1; rewrite Hr; reflexivity).
  rewrite D0, D1, stride_default by lia. cbn [bind fst snd]. rewrite H. cbn [bind].
  rewrite (low_quality_square gabor junk3 lo (4 * s) s r m N) by (auto; lia). cbn [bind].
  rewrite C35_zero by exact Hb. reflexivity.
Qed.
Print Assumptions C112_dark.

(** ** The weights of the package lie between 0 and 1 *)

Lemma exp_1_lower : 27/10 <= exp 1.
Proof.
  assert (H : forall x, 0 <= x -> forall y, 0 <= y -> y <= exp x -> y * y <= exp (2 * x)).
  { intros x _ y Hy H. replace (2 * x) with (x + x) by ring. rewrite exp_plus. apply Rmult_le_compat; assumption. }
  assert (H0 : 129/128 <= exp (1/128)) by (left; replace (129/128) with (1 + 1/128) by field; apply exp_ineq1; lra).
  assert (S : forall x y z, 0 <= x -> 0 <= z -> 0 <= y -> y <= exp x -> z <= y * y -> z <= exp (2 * x)).
  { intros x y z Hx Hz Hy Hxy Hzy. apply Rle_trans with (y * y); [exact Hzy|]. apply H; assumption. }
  assert (H1 : 101568/100000 <= exp (2 * (1/128))) by (apply S with (129/128); lra).
  assert (H2 : 103160/100000 <= exp (2 * (2 * (1/128)))) by (apply S with (101568/100000); lra).
  assert (H3 : 106419/100000 <= exp (2 * (2 * (2 * (1/128))))) by (apply S with (103160/100000); lra).
  assert (H4 : 113250/100000 <= exp (2 * (2 * (2 * (2 * (1/128)))))) by (apply S with (106419/100000); lra).
  assert (H5 : 128255/100000 <= exp (2 * (2 * (2 * (2 * (2 * (1/128))))))) by (apply S with (113250/100000); lra).
  assert (H6 : 164493/100000 <= exp (2 * (2 * (2 * (2 * (2 * (2 * (1/128)))))))) by (apply S with (128255/100000); lra).
  assert (H7 : 27/10 <= exp (2 * (2 * (2 * (2 * (2 * (2 * (2 * (1/128))))))))) by (apply S with (164493/100000); lra).
  replace 1 with (2 * (2 * (2 * (2 * (2 * (2 * (2 * (1/128)))))))) by field. exact H7.
Qed.

Lemma rpow_tangent u : 0 < u -> 11/10 * u - 1/10 <= rpow u (11/10).
Proof.
  intros Hu. unfold rpow. destruct (Req_EM_T u 0); [lra|]. set (a := exp (ln u / 10)).
  assert (Ha : 0 < a) by apply exp_pos.
  assert (P : forall k, exp (INR k * (ln u / 10)) = a ^ k).
  { induction k as [|k IH]; [cbn [INR pow]; rewrite Rmult_0_l; apply exp_0|]. rewrite S_INR.
    replace ((INR k + 1) * (ln u / 10)) with (INR k * (ln u / 10) + ln u / 10) by ring. rewrite exp_plus, IH. fold a. cbn [pow]. ring. }
  assert (E10 : u = a ^ 10). { rewrite <- P. replace (INR 10 * (ln u / 10)) with (ln u) by (cbn [INR]; field). symmetry. apply exp_ln, Hu. }
  assert (E11 : Rpower u (11/10) = a ^ 11). { rewrite <- P. unfold Rpower. f_equal. cbn [INR]. field. }
  rewrite E11, E10. clearbody a. clear P E10 E11.
  assert (I : 10 * a ^ 11 - 11 * a ^ 10 + 1 =
    (a - 1) ^ 2 * (10 * a ^ 9 + 9 * a ^ 8 + 8 * a ^ 7 + 7 * a ^ 6 + 6 * a ^ 5 + 5 * a ^ 4 + 4 * a ^ 3 + 3 * a ^ 2 + 2 * a + 1)) by ring.
  assert (Q : 0 <= (a - 1) ^ 2 * (10 * a ^ 9 + 9 * a ^ 8 + 8 * a ^ 7 + 7 * a ^ 6 + 6 * a ^ 5 + 5 * a ^ 4 + 4 * a ^ 3 + 3 * a ^ 2 + 2 * a + 1)).
  { apply Rmult_le_pos; [apply pow2_ge_0|]. assert (PP : forall k, 0 < a ^ k) by (intros; apply pow_lt; exact Ha).
    pose proof (PP 9%nat). pose proof (PP 8%nat). pose proof (PP 7%nat). pose proof (PP 6%nat). pose proof (PP 5%nat).
    pose proof (PP 4%nat). pose proof (PP 3%nat). pose proof (PP 2%nat). lra. }
  rewrite <- I in Q. lra.
Qed.

Lemma sensitivity_le_one f : sensitivity (114/1000) (78909/10000) f <= 1.
Proof.
  unfold sensitivity. destruct (Rlt_dec f (78909/10000)) as [|H]; [lra|]. set (u := 114/1000 * f). assert (Hu : 8995/10000 <= u) by (unfold u; lra).
  assert (T := rpow_tangent u ltac:(lra)). assert (E := exp_1_lower).
  assert (B : 26/10 * (192/10000 + u) <= exp (rpow u (11/10))).
  { apply Rle_trans with (exp 1 * (11/10 * u - 1/10)); [nra|].
    apply Rle_trans with (exp (11/10 * u - 1/10)).
    - replace (11/10 * u - 1/10) with (1 + (11/10 * u - 11/10)) at 2 by field. rewrite exp_plus. apply Rmult_le_compat_l; [lra|].
      destruct (Req_dec (11/10 * u - 11/10) 0) as [Z|Z]; [rewrite Z, exp_0; lra|]. left. pose proof (exp_ineq1 (11/10 * u - 11/10) Z). lra.
    - destruct T as [T|T]; [left; apply exp_increasing, T|rewrite T; lra]. }
  rewrite exp_Ropp. assert (P := exp_pos (rpow u (11/10))).
  apply Rmult_le_reg_r with (exp (rpow u (11/10))); [exact P|]. rewrite Rmult_assoc, Rinv_l by lra. lra.
Qed.

Lemma csf_spec_range m n nfreq k l : 0 <= csf_spec m n nfreq (114/1000) (78909/10000) k l <= 1.
Proof.
  unfold csf_spec. cbv zeta. split; [|apply sensitivity_le_one]. left. apply sensitivity_pos; [lra|].
  apply Rmult_le_pos; [apply sqrt_pos|]. left. apply Rinv_0_lt_compat.
  match goal with |- 0 < direction ?p ?q => assert (D := direction_range p q) end. lra.
Qed.

(** ** Parseval's theorem for the transforms *)

Lemma csum_fst f n : fst (csum f n) = Sum (fun i => fst (f i)) (seq 0 n).
Proof. induction n as [|n IH]; [reflexivity|]. rewrite seq_S, Sum_app. cbn [csum cadd fst Nat.add]. rewrite IH, Sum_cons, Sum_nil. ring. Qed.

Lemma inner_idft m n G b :
  csum (fun x => csum (fun y => cmul (idft m n G x y) (conj (b x y))) n) m =
  cmul (creal (/ INR (m * n))) (csum (fun k => csum (fun l => cmul (G k l) (conj (dft m n b k l))) n) m).
Proof.
  transitivity (csum (fun x => csum (fun y => csum (fun k => csum (fun l =>
     cmul (creal (/ INR (m * n))) (cmul (cmul (G k l) (cis (phase m n k l x y))) (conj (b x y)))) n) m) n) m).
  { apply csum_ext. intros x _. apply csum_ext. intros y _. unfold idft.
    rewrite <- !csum_mul_l, <- csum_mul_r. apply csum_ext. intros k _. rewrite <- csum_mul_l, <- csum_mul_r. apply csum_ext. intros l _. ring. }
  transitivity (csum (fun k => csum (fun l => csum (fun x => csum (fun y =>
     cmul (creal (/ INR (m * n))) (cmul (cmul (G k l) (cis (phase m n k l x y))) (conj (b x y)))) n) m) n) m).
  { transitivity (csum (fun x => csum (fun k => csum (fun y => csum (fun l =>
     cmul (creal (/ INR (m * n))) (cmul (cmul (G k l) (cis (phase m n k l x y))) (conj (b x y)))) n) n) m) m).
    { apply csum_ext. intros x _. apply csum_swap. }
    rewrite csum_swap. apply csum_ext. intros k _.
    transitivity (csum (fun x => csum (fun l => csum (fun y =>
     cmul (creal (/ INR (m * n))) (cmul (cmul (G k l) (cis (phase m n k l x y))) (conj (b x y)))) n) n) m).
    { apply csum_ext. intros x _. apply csum_swap. }
    apply csum_swap. }
  rewrite <- csum_mul_l. apply csum_ext. intros k _. rewrite <- csum_mul_l. apply csum_ext. intros l _.
  unfold dft. rewrite csum_conj, <- !csum_mul_l. apply csum_ext. intros x _. rewrite csum_conj, <- !csum_mul_l. apply csum_ext. intros y _.
  rewrite conj_mul, conj_cis, Ropp_involutive. ring.
Qed.

Definition energy (m n : nat) (a : nat -> nat -> cplx) : R :=
  Sum (fun x => Sum (fun y => fst (a x y) ^ 2 + snd (a x y) ^ 2) (seq 0 n)) (seq 0 m).

Lemma energy_csum m n a : energy m n a = fst (csum (fun x => csum (fun y => cmul (a x y) (conj (a x y))) n) m).
Proof.
  rewrite csum_fst. apply Sum_ext. intros x _. rewrite csum_fst. apply Sum_ext. intros y _. unfold conj, cmul. cbn [fst snd]. ring.
Qed.

Lemma parseval m n G : energy m n (idft m n G) = / INR (m * n) * energy m n G.
Proof.
  rewrite !energy_csum, inner_idft.
  assert (E : csum (fun k => csum (fun l => cmul (G k l) (conj (dft m n (idft m n G) k l))) n) m = csum (fun k => csum (fun l => cmul (G k l) (conj (G k l))) n) m).
  { apply csum_ext. intros k Hk. apply csum_ext. intros l Hl. rewrite dft_idft by assumption. reflexivity. }
  rewrite E. unfold cmul at 1, creal. cbn [fst snd]. ring.
Qed.

Lemma filter_energy m n (w : nat -> nat -> R) a : (forall k l, 0 <= w k l <= 1) ->
  energy m n (idft m n (fun k l => cmul (creal (w k l)) (dft m n a k l))) <= energy m n a.
Proof.
  intros Hw. rewrite parseval.
  assert (A : energy m n a = / INR (m * n) * energy m n (dft m n a)).
  { rewrite <- parseval. unfold energy. apply Sum_ext. intros x Hx. apply in_seq in Hx. apply Sum_ext. intros y Hy. apply in_seq in Hy.
    rewrite idft_dft by lia. reflexivity. }
  rewrite A. apply Rmult_le_compat_l.
  - destruct (Nat.eq_dec (m * n) 0) as [->|H]; [cbn [INR]; rewrite Rinv_0; lra|]. left. apply Rinv_0_lt_compat, INR_pos. lia.
  - unfold energy. apply Sum_le. intros k _. apply Sum_le. intros l _. unfold cmul, creal. cbn [fst snd].
    specialize (Hw k l). set (u := fst (dft m n a k l)). set (v := snd (dft m n a k l)).
    assert (w k l ^ 2 <= 1) by nra. assert (0 <= u ^ 2) by apply pow2_ge_0. assert (0 <= v ^ 2) by apply pow2_ge_0.
    replace ((w k l * u - 0 * v) ^ 2 + (w k l * v + 0 * u) ^ 2) with (w k l ^ 2 * (u ^ 2 + v ^ 2)) by ring. nra.
Qed.

(** ** Lightness of dark images *)

Lemma lightness_int b k g dr (a : arr Z) l : lightness b k g dr (MInt a) = Ok l ->
  shp l = shp a /\ length (dat l) = length (dat a) /\
  forall y, In y (dat l) -> exists v n, In v (dat a) /\ y = b + k * rpow (INR n) (g / 3) /\ (Z.of_nat n <= dr)%Z /\ ((0 <= v)%Z -> v = Z.of_nat n).
Proof.
  unfold lightness. destruct (mapM _ _) as [ys|] eqn:E; [|discriminate]. intros H. injection H as <-. cbn [shp dat]. split; [reflexivity|].
  split; [apply mapM_length in E; exact E|].
  assert (L := mapM_length _ _ _ E). intros y Hy. apply In_nth_error in Hy as [i Hi].
  destruct (nth_error (dat a) i) as [v|] eqn:Ev; [|apply nth_error_None in Ev; assert (i < length ys)%nat by (apply nth_error_Some; congruence); lia].
  destruct (NdArray.mapM_nth _ _ _ _ _ E Ev) as (y' & Ey & Hf). rewrite Hi in Ey. injection Ey as <-.
  assert (C : forall j, nth_error (lut b k g dr) j = Some y -> y = b + k * rpow (INR j) (g / 3) /\ (Z.of_nat j <= dr)%Z).
  { intros j Hj. assert (Hl : (j < length (lut b k g dr))%nat) by (apply nth_error_Some; congruence). unfold lut in *.
    rewrite map_length, seq_length in Hl. rewrite nth_error_map, (nth_error_nth' _ 0%nat) in Hj by (rewrite seq_length; exact Hl).
    rewrite seq_nth in Hj by exact Hl. cbn [option_map Nat.add] in Hj. injection Hj as <-. split; [reflexivity|lia]. }
  unfold pyindex in Hf. apply nth_error_In in Ev. destruct (Z.leb_spec 0 v).
  - destruct (nth_error (lut b k g dr) (Z.to_nat v)) as [z|] eqn:Ez; [|discriminate]. cbn [from_opt] in Hf. injection Hf as <-.
    destruct (C _ Ez). exists v, (Z.to_nat v). repeat split; try assumption. lia.
  - destruct (Z.leb_spec 0 (Z.of_nat (length (lut b k g dr)) + v)); [|discriminate].
    destruct (nth_error (lut b k g dr) _) as [z|] eqn:Ez; [|discriminate]. cbn [from_opt] in Hf. injection Hf as <-.
    destruct (C _ Ez). eexists v, _. repeat split; try eassumption. lia.
Qed.

Lemma lightness_shp b k g dr i l : lightness b k g dr i = Ok l -> shp l = shp (mvals i) /\ length (dat l) = length (dat (mvals i)).
Proof.
  destruct i as [a|a]; intros H.
  - injection H as <-. split; [reflexivity|]. unfold amap. cbn [dat]. apply map_length.
  - apply lightness_int in H as (A & B & _). unfold mvals, amap. cbn [shp dat]. rewrite map_length. split; assumption.
Qed.

(** Grey values between 0 and 1; integers outside are read from the table of two entries or rejected. *)
Definition unit_values (i : mimg) : Prop := match i with MFloat a => Forall (fun x => 0 <= x <= 1) (dat a) | MInt _ => True end.

Lemma rpow_unit x y : 0 <= x <= 1 -> 0 < y -> 0 <= rpow x y <= 1.
Proof.
  intros Hx Hy. split; [|apply rpow_le_one; assumption]. unfold rpow. destruct (Req_EM_T x 0); [lra|]. left. apply exp_pos.
Qed.

Lemma lightness_unit k g i l : 0 <= k -> 0 < g -> unit_values i -> lightness 0 k g 1 i = Ok l -> forall y, In y (dat l) -> 0 <= y <= k.
Proof.
  intros Hk Hg Hu Hl y Hy. assert (X : exists x, 0 <= x <= 1 /\ y = k * rpow x (g / 3)).
  { destruct i as [a|a].
    - injection Hl as <-. unfold amap in Hy. cbn [dat] in Hy. apply in_map_iff in Hy as (x & <- & Hx). exists x.
      cbn [unit_values] in Hu. rewrite Forall_forall in Hu. split; [apply Hu, Hx|ring].
    - apply lightness_int in Hl as (_ & _ & H). destruct (H y Hy) as (v & n & _ & -> & Hn & _). exists (INR n). split; [|ring].
      split; [apply pos_INR|]. change 1 with (INR 1). apply le_INR. lia. }
  destruct X as (x & Hx & ->). assert (R := rpow_unit x (g / 3) Hx ltac:(lra)). nra.
Qed.

Lemma lightness_uniform k g dr i l v : lightness 0 k g dr i = Ok l -> 0 <= v -> Forall (eq v) (dat (mvals i)) ->
  forall y, In y (dat l) -> y = k * rpow v (g / 3).
Proof.
  intros Hl Hv Hu y Hy. rewrite Forall_forall in Hu. destruct i as [a|a].
  - injection Hl as <-. unfold amap in Hy. cbn [dat] in Hy. apply in_map_iff in Hy as (x & <- & Hx). rewrite <- (Hu x Hx). ring.
  - apply lightness_int in Hl as (_ & _ & H). destruct (H y Hy) as (z & n & Hz & -> & Hn & Hp).
    assert (E : v = IZR z) by (apply Hu; unfold mvals, amap; cbn [dat]; apply in_map; exact Hz).
    assert (0 <= z)%Z by (apply le_IZR; rewrite <- E; exact Hv). rewrite E, (Hp H0), <- INR_IZR_INZ. ring.
Qed.

Lemma getd_cases (a : arr R) idx : getd a idx = 0 \/ In (getd a idx) (dat a).
Proof. unfold getd, get. destruct (inb _ _); [|left; reflexivity]. destruct (nth_error _ _) eqn:E; [right; apply nth_error_In in E; exact E|left; reflexivity]. Qed.

Lemma Sum_part f a b N : (forall i, 0 <= f i) -> (a + b <= N)%nat -> Sum f (seq a b) <= Sum f (seq 0 N).
Proof.
  intros Hf H. replace N with (a + (b + (N - a - b)))%nat by lia. rewrite !seq_app, !Sum_app. cbn [Nat.add].
  assert (0 <= Sum f (seq 0 a)) by (apply Sum_nonneg; auto). assert (0 <= Sum f (seq (a + b) (N - a - b))) by (apply Sum_nonneg; auto). lra.
Qed.

Lemma Sum_block f g s x y : Sum g (block_at f s x y) =
  Sum (fun i => Sum (fun j => g (f i j)) (seq (y / s * s) (4 * s))) (seq (x / s * s) (4 * s)).
Proof.
  unfold block_at. rewrite (seq_from (x / s * s)), Sum_map. generalize (seq 0 (4 * s)) at 2 3. intros l.
  induction l as [|i l IH]; [reflexivity|]. cbn [flat_map]. rewrite Sum_app, IH, Sum_cons. f_equal.
  rewrite Sum_map, (seq_from (y / s * s)), Sum_map. reflexivity.
Qed.

(** A block of 4 s x 4 s pixels with mean above 1/2 has energy above 4 s^2. *)
Lemma bright_block f s x y N : (0 < s)%nat -> (x + 4 * s <= N)%nat -> (y + 4 * s <= N)%nat ->
  Sum (fun i => Sum (fun j => f i j ^ 2) (seq 0 N)) (seq 0 N) <= 4 * INR s ^ 2 -> avg (block_at f s x y) <= 1/2.
Proof.
  intros Hs Hx Hy H. apply Rnot_lt_le. intros A. set (l := block_at f s x y) in *.
  assert (HL : INR (length l) = 16 * INR s ^ 2) by (unfold l; rewrite block_length, !mult_INR; cbn [INR]; ring).
  assert (Ps := INR_pos s Hs).
  assert (S1 : INR (length l) * (1/2) < Sum (fun v => v) l).
  { unfold avg in A. apply Rmult_lt_compat_l with (r := INR (length l)) in A; [|rewrite HL; nra].
    replace (INR (length l) * (Sum (fun v => v) l / INR (length l))) with (Sum (fun v => v) l) in A; [exact A|]. field. rewrite HL. nra. }
  assert (S2 : 0 <= Sum (fun v => (v - 1/2) ^ 2) l) by (apply Sum_nonneg; intros; apply pow2_ge_0).
  assert (S3 : Sum (fun v => (v - 1/2) ^ 2) l = Sum (fun v => v ^ 2) l - Sum (fun v => v) l + INR (length l) * (1/4)).
  { rewrite <- Sum_const, <- Sum_minus, <- Sum_plus. apply Sum_ext. intros v _. field. }
  assert (S4 : Sum (fun v => v ^ 2) l <= 4 * INR s ^ 2).
  { apply Rle_trans with (2 := H). unfold l. rewrite Sum_block.
    pose proof (Nat.div_mod x s ltac:(lia)). pose proof (Nat.div_mod y s ltac:(lia)).
    apply Rle_trans with (Sum (fun i => Sum (fun j => f i j ^ 2) (seq 0 N)) (seq (x / s * s) (4 * s))).
    - apply Sum_le. intros i _. apply Sum_part; [intros; apply pow2_ge_0|lia].
    - apply (Sum_part (fun i => Sum (fun j => f i j ^ 2) (seq 0 N))); [intros; apply Sum_nonneg; intros; apply pow2_ge_0|lia]. }
  lra.
Qed.

(** ** Uniform references: with the parameters of the package, MAD is 0 for every modified image if the grey value
    of the reference is at most 50. *)

Definition package_lightness (ms : R) : hq_opts := {| h_b := 0; h_k := 2874/100000; h_gamma := 22/10; h_ms := ms |}.
Definition package_filter : arr R -> arr R * arr R := csf_filter (cycles_per_degree None) (114/1000) (78909/10000).

Lemma grey_50 v : 0 <= v <= 50 -> 2874/100000 * rpow v (22/10/3) <= 1773/100000 * 2874/100.
Proof.
  intros Hv. assert (P : rpow v (22/10/3) <= 1773/100); [|lra].
  unfold rpow. destruct (Req_EM_T v 0); [lra|].
  apply Rle_trans with (Rpower 50 (22/10/3)); [apply Rle_Rpower_l; lra|].
  unfold Rpower. rewrite <- (exp_ln (1773/100)) by lra.
  assert (L : 11 * ln 50 <= 15 * ln (1773/100)).
  { assert (Q : forall k x, 0 < x -> ln (x ^ k) = INR k * ln x).
    { intros k x Hx. induction k as [|k IH]; [cbn [pow INR]; rewrite ln_1; ring|]. cbn [pow]. rewrite ln_mult, IH, S_INR by (try apply pow_lt; exact Hx). ring. }
    replace 11 with (INR 11) by (cbn [INR]; ring). replace 15 with (INR 15) by (cbn [INR]; ring). rewrite <- !Q by lra.
    left. apply ln_increasing; [apply pow_lt; lra|]. cbn [pow]. lra. }
  assert (M : 22/10/3 * ln 50 <= ln (1773/100)) by lra.
  destruct M as [M|M]; [left; apply exp_increasing, M|rewrite M; lra].
Qed.

Lemma dc_weight N : (9 <= N)%nat -> csf_spec N N 32 (114/1000) (78909/10000) 0 0 = 9809/10000.
Proof.
  intros HN. assert (P : 9 <= INR N) by (replace 9 with (INR 9) by (cbn [INR]; ring); apply le_INR; exact HN).
  unfold csf_spec. cbv zeta. unfold frequency. destruct (Nat.ltb_spec (2 * 0) N); [|lia]. change (INR 0) with 0. rewrite Rplus_0_l.
  set (x := 2 * 32 * half_bin N / INR N).
  assert (Hx : 0 <= x <= 32/9).
  { unfold x, half_bin. assert (I : 0 < / INR N <= / 9) by (split; [apply Rinv_0_lt_compat; lra|apply Rinv_le_contravar; lra]).
    destruct (Nat.even N); unfold Rdiv; nra. }
  assert (D := direction_range x x). unfold sensitivity.
  match goal with |- context [Rlt_dec ?u ?v] => destruct (Rlt_dec u v) as [|F]; [reflexivity|exfalso; apply F] end.
  assert (S : sqrt (x ^ 2 + x ^ 2) <= 505/100).
  { apply Rsqr_incr_0_var; [|lra]. rewrite Rsqr_sqrt by nra. unfold Rsqr. nra. }
  apply Rle_lt_trans with (505/100 / (7/10)); [|lra]. unfold Rdiv. assert (SP := sqrt_pos (x ^ 2 + x ^ 2)).
  apply Rmult_le_compat; try lra; [left; apply Rinv_0_lt_compat; lra|apply Rinv_le_contravar; lra].
Qed.

Theorem C112_uniform : forall gabor junk junk3 ms lo dr s beta_1 beta_2 t1 t2 r m N v lr lm, (0 < s)%nat ->
  wf (mvals r) -> shp (mvals r) = [N; N] -> shp (mvals m) = [N; N] -> (N mod s = 0)%nat -> (8 * s < N)%nat -> ms <> 0 ->
  0 <= v <= 50 -> Forall (eq v) (dat (mvals r)) ->
  lightness 0 (2874/100000) (22/10) dr r = Ok lr -> lightness 0 (2874/100000) (22/10) dr m = Ok lm ->
  length (l_weights lo) = l_scales lo -> (0 < l_orient lo)%nat -> 0 < snd (betas beta_1 beta_2 t1 t2) ->
  most_apparent_distortion package_filter gabor junk junk3 (package_lightness ms) lo dr (Z.of_nat (4 * s)) (3 / 4) beta_1 beta_2 t1 t2 r m = Ok (Fin 0).
Proof.
  intros gabor junk junk3 ms lo dr s beta_1 beta_2 t1 t2 r m N v lr lm Hs Wr Hr Hm Hmod HN Hms Hv Hu Er Em Hw Ho Hb.
  destruct (lightness_shp _ _ _ _ _ _ Er) as [Sr Lr]. assert (Slr : shp lr = [N; N]) by congruence.
  assert (Wl : wf lr) by (unfold wf in *; rewrite Lr, Sr; exact Wr).
  assert (Hc : forall x y, (x < N)%nat -> (y < N)%nat -> getd lr [x; y] = 2874/100000 * rpow v (22/10/3)).
  { intros x y Hx Hy. apply (lightness_uniform _ _ _ _ _ _ Er (proj1 Hv) Hu). apply getd_in; [exact Wl|]. rewrite Slr. cbn [inb].
    destruct (Nat.ltb_spec x N), (Nat.ltb_spec y N); try lia; reflexivity. }
  apply (C112_dark package_filter gabor junk junk3 (package_lightness ms) lo dr s beta_1 beta_2 t1 t2 r m N lr lm); try assumption.
  - unfold package_filter. rewrite (csf_filter_dims _ _ _ _ N N Slr). reflexivity.
  - intros x y Hx Hy. unfold avg.
    assert (B : block_at (fun x y => getd (fst (package_filter lr)) [x; y]) s x y =
                block_at (fun _ _ => 9809/10000 * (2874/100000 * rpow v (22/10/3))) s x y).
    { unfold block_at. pose proof (Nat.div_mod x s ltac:(lia)). pose proof (Nat.div_mod y s ltac:(lia)).
      apply flat_map_ext_in. intros i Hi. apply in_seq in Hi. apply map_ext_in. intros j Hj. apply in_seq in Hj.
      unfold package_filter, cycles_per_degree. destruct (C108_constant 32 (114/1000) (78909/10000) lr N N _ (x / s * s + i) (y / s * s + j) Slr ltac:(lia) ltac:(lia) Hc) as [-> _].
      rewrite dc_weight by lia. reflexivity. }
    rewrite B, block_length, Sum_block. rewrite (Sum_ext _ (fun _ => INR (4 * s) * (9809/10000 * (2874/100000 * rpow v (22/10/3))))).
    2: { intros i _. rewrite Sum_const, seq_length. reflexivity. }
    rewrite Sum_const, seq_length, (mult_INR (4 * s) (4 * s)). assert (Ps := INR_pos (4 * s) ltac:(lia)). assert (G := grey_50 v Hv).
    replace (INR (4 * s) * (INR (4 * s) * (9809 / 10000 * (2874 / 100000 * rpow v (22/10/3)))) / (INR (4 * s) * INR (4 * s)))
      with (9809 / 10000 * (2874 / 100000 * rpow v (22/10/3))) by (field; lra). lra.
Qed.
Print Assumptions C112_uniform.

(** ** C113: data range 1 *)

(** Images with grey values from 0 to 1 are so dark for the lightness scale of the package that MAD is 0 for every pair of
    square images whose side is at most 17 times the block size, whatever the monitor. *)
Theorem C113_blind : forall monitor gabor junk junk3 ms lo s beta_1 beta_2 t1 t2 r m N lr lm, (0 < s)%nat ->
  shp (mvals r) = [N; N] -> shp (mvals m) = [N; N] -> (N mod s = 0)%nat -> (8 * s < N <= 17 * (4 * s))%nat -> ms <> 0 ->
  unit_values r -> lightness 0 (2874/100000) (22/10) 1 r = Ok lr -> lightness 0 (2874/100000) (22/10) 1 m = Ok lm ->
  length (l_weights lo) = l_scales lo -> (0 < l_orient lo)%nat -> 0 < snd (betas beta_1 beta_2 t1 t2) ->
  most_apparent_distortion (csf_filter (cycles_per_degree monitor) (114/1000) (78909/10000)) gabor junk junk3 (package_lightness ms) lo 1
    (Z.of_nat (4 * s)) (3 / 4) beta_1 beta_2 t1 t2 r m = Ok (Fin 0).
Proof.
  intros monitor gabor junk junk3 ms lo s beta_1 beta_2 t1 t2 r m N lr lm Hs Hr Hm Hmod HN Hms Hu Er Em Hw Ho Hb.
  destruct (lightness_shp _ _ _ _ _ _ Er) as [Sr _]. assert (Slr : shp lr = [N; N]) by congruence.
  set (F := csf_filter (cycles_per_degree monitor) (114/1000) (78909/10000)).
  apply (C112_dark F gabor junk junk3 (package_lightness ms) lo 1 s beta_1 beta_2 t1 t2 r m N lr lm); try assumption; try lia.
  - unfold F. rewrite (csf_filter_dims _ _ _ _ N N Slr). reflexivity.
  - intros x y Hx Hy. apply (bright_block _ _ _ _ N); try assumption.
    set (w := csf_spec N N (cycles_per_degree monitor) (114/1000) (78909/10000)).
    set (V := idft N N (fun k l => cmul (creal (w k l)) (dft N N (pixels lr) k l))).
    apply Rle_trans with (energy N N V).
    { unfold energy. apply Sum_le. intros i Hi. apply in_seq in Hi. apply Sum_le. intros j Hj. apply in_seq in Hj.
      destruct (csf_filter_value (cycles_per_degree monitor) (114/1000) (78909/10000) lr N N i j Slr ltac:(lia) ltac:(lia)) as [E _].
      fold F in E. rewrite E. fold w. fold V. assert (0 <= snd (V i j) ^ 2) by apply pow2_ge_0. lra. }
    apply Rle_trans with (energy N N (pixels lr)); [apply filter_energy; intros; apply csf_spec_range|].
    apply Rle_trans with (Sum (fun _ => Sum (fun _ => (2874/100000) ^ 2) (seq 0 N)) (seq 0 N)).
    { unfold energy. apply Sum_le. intros i _. apply Sum_le. intros j _. unfold pixels, creal. cbn [fst snd].
      assert (B : 0 <= getd lr [i; j] <= 2874/100000).
      { destruct (getd_cases lr [i; j]) as [->|H]; [lra|]. apply (lightness_unit (2874/100000) (22/10) r lr ltac:(lra) ltac:(lra) Hu Er _ H). }
      nra. }
    rewrite !Sum_const, seq_length. assert (P : INR N <= 68 * INR s).
    { replace 68 with (INR 68) by (cbn [INR]; ring). rewrite <- mult_INR. apply le_INR. clear - HN. lia. }
    assert (Q := pos_INR N). assert (T := pos_INR s).
    assert (U : INR N * INR N <= (68 * INR s) * (68 * INR s)) by (apply Rmult_le_compat; assumption). assert (0 <= INR s ^ 2) by apply pow2_ge_0. lra.
Qed.
Print Assumptions C113_blind.

(** With the default block size 16: 272 pixels. *)
Example C113_example : forall gabor junk junk3 r m, shp r = [272; 272]%nat -> shp m = [272; 272]%nat -> Forall (fun x => 0 <= x <= 1) (dat r) ->
  most_apparent_distortion (csf_filter (cycles_per_degree None) (114/1000) (78909/10000)) gabor junk junk3 (package_lightness 1)
    {| l_orient := 4; l_scales := 5; l_weights := [1/2; 3/4; 1; 5; 6] |} 1 16 (3 / 4) (467/1000) (130/1000) None None (MFloat r) (MFloat m) = Ok (Fin 0).
Proof.
  intros gabor junk junk3 r m Hr Hm Hu.
  apply (C113_blind None gabor junk junk3 1 {| l_orient := 4; l_scales := 5; l_weights := [1/2; 3/4; 1; 5; 6] |} 4 (467/1000) (130/1000) None None
    (MFloat r) (MFloat m) 272 (amap (fun x => 0 + 2874/100000 * rpow x (22/10/3)) r) (amap (fun x => 0 + 2874/100000 * rpow x (22/10/3)) m));
    try reflexivity; try assumption; try lra; try lia; cbn; lia || lra.
Qed.
Example C112_example : forall gabor junk junk3 m, shp m = [9; 9]%nat ->
  most_apparent_distortion package_filter gabor junk junk3 (package_lightness 1)
    {| l_orient := 4; l_scales := 5; l_weights := [1/2; 3/4; 1; 5; 6] |} 255 4 (3 / 4) (467/1000) (130/1000) None None
    (MInt (tabulate [9; 9]%nat (fun _ => 50%Z))) (MFloat m) = Ok (Fin 0).
Proof.
  intros gabor junk junk3 m Hm.
  assert (U : Forall (fun v => v = 50%Z) (dat (tabulate [9; 9]%nat (fun _ => 50%Z)))) by (cbn; repeat constructor).
  eapply (C112_uniform gabor junk junk3 1 {| l_orient := 4; l_scales := 5; l_weights := [1/2; 3/4; 1; 5; 6] |} 255 1 (467/1000) (130/1000) None None
    (MInt (tabulate [9; 9]%nat (fun _ => 50%Z))) (MFloat m) 9 50); try reflexivity; try assumption; try lra; try lia; try (cbn; lia || lra).
  unfold mvals, amap. cbn [dat]. rewrite Forall_forall in *. intros x Hx. apply in_map_iff in Hx as (v & <- & Hv). rewrite (U v Hv). reflexivity.
Qed.

Lemma slice_values {A} ax k (a b : arr A) : take_axis ax k a = Ok b -> forall v, In v (dat b) -> In v (dat a).
Proof.
  unfold take_axis. destruct (_ || _ || _); [discriminate|]. unfold reindex. destruct (mapM _ _) as [ys|] eqn:E; [|discriminate].
  intros H v Hv. injection H as <-. cbn [dat] in Hv. apply In_nth_error in Hv as [i Hi].
  assert (L := mapM_length _ _ _ E). assert (i < length ys)%nat by (apply nth_error_Some; congruence).
  destruct (nth_error (indices (drop_ax ax (shp a))) i) as [idx|] eqn:Ex; [|apply nth_error_None in Ex; lia].
  destruct (NdArray.mapM_nth _ _ _ _ _ E Ex) as (y & Ey & Hf). rewrite Hi in Ey. injection Ey as <-. cbv beta in Hf.
  destruct (get a _) as [z|] eqn:Eg; [|discriminate]. injection Hf as <-. unfold get in Eg. destruct (inb _ _); [|discriminate].
  apply nth_error_In in Eg. exact Eg.
Qed.

(** Volumes: the mean over the slices along every axis is 0 as well. *)
Theorem C113_volume : forall monitor gabor junk junk3 ms lo s beta_1 beta_2 t1 t2 d r m N, (0 < s)%nat ->
  wf r -> wf m -> shp r = [N; N; N] -> shp m = [N; N; N] -> (d = 0 \/ d = 1 \/ d = 2)%Z ->
  (N mod s = 0)%nat -> (8 * s < N <= 17 * (4 * s))%nat -> ms <> 0 -> Forall (fun x => 0 <= x <= 1) (dat r) ->
  length (l_weights lo) = l_scales lo -> (0 < l_orient lo)%nat -> 0 < snd (betas beta_1 beta_2 t1 t2) ->
  own_score (fun r m => most_apparent_distortion (csf_filter (cycles_per_degree monitor) (114/1000) (78909/10000)) gabor junk junk3
      (package_lightness ms) lo 1 (Z.of_nat (4 * s)) (3 / 4) beta_1 beta_2 t1 t2 (MFloat r) (MFloat m)) false (DNum d) SlNone r m = Ok (Fin 0).
Proof.
  intros monitor gabor junk junk3 ms lo s beta_1 beta_2 t1 t2 d r m N Hs Wr Wm Hr Hm Hd Hmod HN Hms Hu Hw Ho Hb.
  set (g := fun r m => _).
  destruct (C43_own g d r m N N N Wr Wm Hr Hm Hd) as (rs & mss & T & ->).
  assert (HNd : nth (Z.to_nat d) [N; N; N] 0%nat = N) by (destruct Hd as [->|[-> | ->]]; reflexivity). rewrite HNd in *.
  rewrite (NdArray.mapM_map _ (fun _ => Fin 0)).
  - cbn [bind]. f_equal. rewrite <- (map_map (fun _ => 0) Fin), mean_ext_fin.
    + f_equal. rewrite rsum_Sum, Sum_map, Sum_zero. unfold Rdiv. ring.
    + destruct N; [lia|]. discriminate.
  - intros k Hk. apply in_seq in Hk. destruct (T k ltac:(lia)) as [T1 T2]. unfold g.
    assert (S : forall a b : arr R, shp a = [N; N; N] -> take_axis (Z.to_nat d) (Z.of_nat k) a = Ok b -> shp b = [N; N]).
    { intros a b Ha Hab. apply take_axis_shape in Hab as (-> & _). rewrite Ha. destruct Hd as [->|[-> | ->]]; reflexivity. }
    eapply (C113_blind monitor gabor junk junk3 ms lo s beta_1 beta_2 t1 t2 (MFloat (rs k)) (MFloat (mss k)) N); try assumption; try reflexivity.
    + apply (S r); assumption.
    + apply (S m); assumption.
    + cbn [unit_values]. rewrite Forall_forall in *. intros v Hv. apply Hu. apply (slice_values _ _ _ _ T1 v Hv).
Qed.
Print Assumptions C113_volume.
