(** C130: scores of normalised files. *)
From Coq Require Import Reals Lra Psatz Ascii.
From Verif Require Import Base NdArray LoadModel LoadProofs NormModel NormProofs PairModel RealSums
  MetricModel MetricProofs FileModel FileProofs FileProps ScaleProofs.

(** A file (raw or mhd) of type [d] with the numbers [v], with smallest [mn] and largest [mx]. *)
Definition holds (files : text -> option (list Z)) (p : text) (d : dtype) (nx ny nz : nat) (bytes : list Z) (v : nat -> R) : Prop :=
  stored files p d nx ny nz bytes /\ length bytes / itemsize d = nx * ny * nz /\ bytes_ok bytes /\
  (forall i, i < nx * ny * nz -> value d bytes i = Some (v i)).
Definition spans (n : nat) (v : nat -> R) (mn mx : R) : Prop :=
  (forall i, i < n -> (mn <= v i <= mx)%R) /\ (exists i, i < n /\ v i = mn) /\ (exists i, i < n /\ v i = mx) /\ (mn < mx)%R.

(** Root of the mean squared difference *)
Definition rmsd (n : nat) (f g : nat -> R) : R := sqrt (Sum (fun i => (f i - g i) * (f i - g i))%R (seq 0 n) / INR n).

Lemma spans_limits n v mn mx : spans n v mn mx -> is_rmin mn (map v (seq 0 n)) /\ is_rmax mx (map v (seq 0 n)) /\ (mn < mx)%R.
Proof.
  intros (R & (i & Hi & <-) & (j & Hj & <-) & L).
  split; [|split; [|exact L]]; (split; [apply in_map, in_seq; lia|]); intros x Hx; apply in_map_iff in Hx as (k & <- & Hk);
    apply in_seq in Hk; apply R; lia.
Qed.

Lemma spans_positive n v mn mx : spans n v mn mx -> 0 < n.
Proof. intros (_ & (i & Hi & _) & _). lia. Qed.

Lemma spans_affine n v mn mx s t w : (0 < s)%R -> (forall i, i < n -> w i = (s * v i + t)%R) -> spans n v mn mx -> spans n w (s * mn + t) (s * mx + t).
Proof.
  intros Hs E (R & (i & Hi & Ei) & (j & Hj & Ej) & L). split; [intros k Hk; rewrite E by exact Hk; specialize (R k Hk); nra|].
  split; [exists i; rewrite E, Ei by exact Hi; auto|]. split; [exists j; rewrite E, Ej by exact Hj; auto|nra].
Qed.

Lemma affine_limits n v mn mx mn' mx' s t w : (0 < s)%R -> (forall i, i < n -> w i = (s * v i + t)%R) ->
  spans n v mn mx -> spans n w mn' mx' -> mn' = (s * mn + t)%R /\ mx' = (s * mx + t)%R.
Proof.
  intros Hs E (R & (j & Hj & Ej) & (k & Hk & Ek) & _) (R' & (j' & Hj' & Ej') & (k' & Hk' & Ek') & _).
  rewrite E in Ej' by exact Hj'. rewrite E in Ek' by exact Hk'.
  pose proof (R j' Hj'). pose proof (R k' Hk'). pose proof (R' j Hj) as W. pose proof (R' k Hk) as W'. rewrite E in W by exact Hj. rewrite E in W' by exact Hk.
  rewrite Ej in W. rewrite Ek in W'. split; nra.
Qed.

Lemma spans_int n v mn mx : spans n (fun i => IZR (v i)) (IZR mn) (IZR mx) ->
  is_min mn (map v (seq 0 n)) /\ is_max mx (map v (seq 0 n)) /\ (mn < mx)%Z /\ (forall i, i < n -> (mn <= v i <= mx)%Z).
Proof.
  intros (R & (i & Hi & Ei) & (j & Hj & Ej) & L).
  assert (K : forall k, k < n -> (mn <= v k <= mx)%Z) by (intros k Hk; specialize (R k Hk); split; apply le_IZR, R).
  apply lt_IZR in L. apply eq_IZR in Ei, Ej. subst mn mx.
  split; [|split; [|split; [exact L|exact K]]]; (split; [apply in_map, in_seq; lia|]); intros x Hx; apply in_map_iff in Hx as (k & <- & Hk);
    apply in_seq in Hk; apply K; lia.
Qed.

Lemma rmsd_same n f g : (forall i, i < n -> f i = g i) -> rmsd n f g = 0%R.
Proof.
  intros E. unfold rmsd. rewrite (Sum_ext _ (fun _ => 0)%R).
  - rewrite Sum_const. rewrite Rmult_0_r. unfold Rdiv. rewrite Rmult_0_l. apply sqrt_0.
  - intros i Hi. apply in_seq in Hi. rewrite E by lia. ring.
Qed.

(** Data range 1: the numbers of each file are stretched to 0..1. The two files may have different types. *)
Theorem C130_unit files other special ident ub unspec m pr pm dr dm nx ny nz br bm vr vm nr xr nm xm :
  cpython_identity ident -> normalising m 1 -> let n := nx * ny * nz in nz <> 3 ->
  holds files pr dr nx ny nz br vr -> holds files pm dm nx ny nz bm vm -> spans n vr nr xr -> spans n vm nm xm ->
  let a := fun i => ((vr i - nr) / (xr - nr))%R in let b := fun i => ((vm i - nm) / (xm - nm))%R in
  rmse_score (disk files other special) ident ub unspec m (InPath pr) (InPath pm) = Ok (Fin (rmsd n a b), set_score m (SNum (Fin (rmsd n a b)))) /\
  (0 <= rmsd n a b <= 1)%R /\
  exists v, psnr_score (disk files other special) ident ub unspec m (InPath pr) (InPath pm) = Ok (v, set_score m (SNum v)) /\
    ((forall i, i < n -> a i = b i) -> v = PInf) /\
    ((exists i, i < n /\ a i <> b i) -> v = Fin (- 20 * (ln (rmsd n a b) / ln 10))).
Proof.
  intros Hid Hm n H3 (S & L & B & V) (S' & L' & B' & V') Hr Hr' a b.
  pose proof (spans_positive _ _ _ _ Hr) as Hn.
  destruct (spans_limits _ _ _ _ Hr) as (M1 & M2 & M3). destruct (spans_limits _ _ _ _ Hr') as (M1' & M2' & M3').
  destruct (load_unit files other special ident ub pr dr nx ny nz br vr nr xr) as (q & E1 & E2 & E3); try assumption.
  destruct (load_unit files other special ident ub pm dm nx ny nz bm vm nm xm) as (q' & E1' & E2' & E3'); try assumption.
  destruct (pair_scores files other special ident ub unspec m 1 pr pm (Float 32) q q' nx ny nz a b) as (P1 & v & P2 & P3 & P4); try assumption; [lia|].
  split; [exact P1|].
  assert (Ra : forall i, i < n -> (0 <= a i <= 1)%R).
  { intros i Hi. unfold a. destruct Hr as (R & _). specialize (R i Hi).
    split; [apply Rmult_le_pos; [lra|left; apply Rinv_0_lt_compat; lra]|].
    apply Rmult_le_reg_r with (xr - nr)%R; [lra|]. unfold Rdiv. rewrite Rmult_assoc, Rinv_l by lra. lra. }
  assert (Rb : forall i, i < n -> (0 <= b i <= 1)%R).
  { intros i Hi. unfold b. destruct Hr' as (R & _). specialize (R i Hi).
    split; [apply Rmult_le_pos; [lra|left; apply Rinv_0_lt_compat; lra]|].
    apply Rmult_le_reg_r with (xm - nm)%R; [lra|]. unfold Rdiv. rewrite Rmult_assoc, Rinv_l by lra. lra. }
  assert (N : (0 < INR n)%R) by (apply (lt_INR 0); exact Hn).
  assert (Bd : (Sum (fun i => (a i - b i) * (a i - b i)) (seq 0 n) / INR n <= 1)%R).
  { apply Rmult_le_reg_r with (INR n); [exact N|]. unfold Rdiv. rewrite Rmult_assoc, Rinv_l, Rmult_1_r by lra.
    apply Rle_trans with (Sum (fun _ => 1)%R (seq 0 n)).
    - apply Sum_le. intros i Hi. apply in_seq in Hi. specialize (Ra i ltac:(lia)). specialize (Rb i ltac:(lia)). nra.
    - rewrite Sum_const, seq_length. lra. }
  split.
  { unfold rmsd. split; [apply sqrt_pos|]. rewrite <- sqrt_1. apply sqrt_le_1_alt, Bd. }
  exists v. split; [exact P2|]. split; [exact P3|]. intros D. rewrite (P4 D). f_equal. rewrite Rmult_1_l. fold n.
  set (e := (Sum (fun i => (a i - b i) * (a i - b i))%R (seq 0 n) / INR n)%R) in *.
  assert (Pe : (0 < e)%R).
  { destruct D as (i & Hi & D). apply Rmult_lt_0_compat; [|apply Rinv_0_lt_compat, N].
    apply Rlt_le_trans with ((a i - b i) * (a i - b i))%R; [apply Rsqr_pos_lt; lra|].
    apply (Sum_single (fun i => (a i - b i) * (a i - b i))%R); [apply in_seq; lia|intros j _; apply Rle_0_sqr]. }
  assert (Lr : rmsd n a b = sqrt e) by reflexivity. rewrite Lr.
  assert (El : (ln e = 2 * ln (sqrt e))%R).
  { rewrite <- (sqrt_sqrt e) at 1 by lra. rewrite ln_mult by (apply sqrt_lt_R0, Pe). lra. }
  replace (1 / e)%R with (/ e)%R by (unfold Rdiv; ring). rewrite ln_Rinv by exact Pe. rewrite El. unfold Rdiv. ring.
Qed.
Print Assumptions C130_unit.

(** Gain and offset of the second scan are not seen, whatever the types of the files. *)
Theorem C130_gain files other special ident ub unspec m pr pm dr dm nx ny nz br bm vr vm nr xr s t :
  cpython_identity ident -> normalising m 1 -> let n := nx * ny * nz in nz <> 3 ->
  holds files pr dr nx ny nz br vr -> holds files pm dm nx ny nz bm vm -> spans n vr nr xr ->
  (0 < s)%R -> (forall i, i < n -> vm i = (s * vr i + t)%R) ->
  rmse_score (disk files other special) ident ub unspec m (InPath pr) (InPath pm) = Ok (Fin 0, set_score m (SNum (Fin 0))) /\ psnr_score (disk files other special) ident ub unspec m (InPath pr) (InPath pm) = Ok (PInf, set_score m (SNum PInf)).
Proof.
  intros Hid Hm n H3 Hr Hm' Sr Hs E. pose proof (spans_affine _ _ _ _ s t vm Hs E Sr) as Sm.
  destruct (C130_unit files other special ident ub unspec m pr pm dr dm nx ny nz br bm vr vm nr xr (s * nr + t)%R (s * xr + t)%R Hid Hm H3 Hr Hm' Sr Sm) as (P1 & _ & v & P2 & P3 & _).
  fold n in P1, P2, P3.
  assert (Q : forall i, i < n -> ((vr i - nr) / (xr - nr) = (vm i - (s * nr + t)) / (s * xr + t - (s * nr + t)))%R).
  { intros i Hi. rewrite E by exact Hi. destruct Sr as (_ & _ & _ & L). field. split; [|lra]. intros Z0. nra. }
  rewrite rmsd_same in P1 by exact Q. rewrite P3 in P2 by exact Q. auto.
Qed.
Print Assumptions C130_gain.

(** Data range 255 or 65535, floating point files: rounded down. *)
Theorem C130_float files other special ident ub unspec m hi pr pm b b' nx ny nz br bm vr vm nr xr nm xm :
  hi = 255%Z \/ hi = 65535%Z -> normalising m hi -> let n := nx * ny * nz in nz <> 3 ->
  holds files pr (Float b) nx ny nz br vr -> holds files pm (Float b') nx ny nz bm vm -> spans n vr nr xr -> spans n vm nm xm ->
  let f := fun i => IZR (Int_part ((vr i - nr) * IZR hi / (xr - nr))) in
  let g := fun i => IZR (Int_part ((vm i - nm) * IZR hi / (xm - nm))) in
  rmse_score (disk files other special) ident ub unspec m (InPath pr) (InPath pm) = Ok (Fin (rmsd n f g), set_score m (SNum (Fin (rmsd n f g)))) /\
  (forall s t, (0 < s)%R -> (forall i, i < n -> vm i = (s * vr i + t)%R) -> rmsd n f g = 0%R) /\
  (Rabs (rmsd n f g - IZR hi * rmsd n (fun i => (vr i - nr) / (xr - nr)) (fun i => (vm i - nm) / (xm - nm)))%R <= 1)%R.
Proof.
  intros Hh Hm n H3 (S & L & B & V) (S' & L' & B' & V') Hr Hr' f g.
  pose proof (spans_positive _ _ _ _ Hr) as Hn.
  destruct (spans_limits _ _ _ _ Hr) as (M1 & M2 & M3). destruct (spans_limits _ _ _ _ Hr') as (M1' & M2' & M3').
  destruct (load_float files other special ident ub hi pr b nx ny nz br vr nr xr) as (q & E1 & E2 & E3); try assumption.
  destruct (load_float files other special ident ub hi pm b' nx ny nz bm vm nm xm) as (q' & E1' & E2' & E3'); try assumption.
  destruct (pair_scores files other special ident ub unspec m hi pr pm (UInt (out_bits hi)) q q' nx ny nz f g) as (P1 & _); try assumption; [lia|].
  split; [exact P1|]. split.
  - intros s t Hs E. apply rmsd_same. intros i Hi. unfold f, g. do 2 f_equal.
    destruct (affine_limits n vr nr xr nm xm s t vm Hs E Hr Hr') as [-> ->]. rewrite E by exact Hi. field. split; [|lra]. intros Z0. nra.
  - assert (N : (0 < INR n)%R) by (apply (lt_INR 0); exact Hn).
    set (h := IZR hi). assert (Hp : (0 < h)%R) by (unfold h; destruct Hh as [->| ->]; lra).
    set (x := fun i => ((vr i - nr) * h / (xr - nr))%R). set (y := fun i => ((vm i - nm) * h / (xm - nm))%R).
    assert (Ex : (h * rmsd n (fun i => (vr i - nr) / (xr - nr)) (fun i => (vm i - nm) / (xm - nm)) = rmsd n x y)%R).
    { unfold rmsd. rewrite <- (sqrt_square h) at 1 by lra. rewrite <- sqrt_mult_alt by nra. f_equal.
      rewrite (Sum_ext (fun i => (x i - y i) * (x i - y i))%R
        (fun i => h * h * (((vr i - nr) / (xr - nr) - (vm i - nm) / (xm - nm)) * ((vr i - nr) / (xr - nr) - (vm i - nm) / (xm - nm))))%R).
      - rewrite Sum_scale. unfold Rdiv. ring.
      - intros i _. unfold x, y. field. lra. }
    rewrite Ex.
    assert (Nr : forall u w, rmsd n u w = (norm2 (fun _ => 1%R) (fun i => u i - w i)%R (seq 0 n) / sqrt (INR n))%R).
    { intros u w. unfold rmsd, norm2. rewrite sqrt_div_alt by exact N. do 2 f_equal. apply Sum_ext. intros i _. ring. }
    assert (Fl : forall z, (IZR (Int_part z) <= z < IZR (Int_part z) + 1)%R).
    { intros z. destruct (base_Int_part z). lra. }
    assert (D : forall u w u' w', (forall i, i < n -> (Rabs ((u i - w i) - (u' i - w' i)) <= 1)%R) -> (rmsd n u w <= rmsd n u' w' + 1)%R).
    { intros u w u' w' H. rewrite !Nr. assert (Sq : (0 < sqrt (INR n))%R) by (apply sqrt_lt_R0, N).
      apply Rmult_le_reg_r with (sqrt (INR n)); [exact Sq|]. rewrite Rmult_plus_distr_r. unfold Rdiv. rewrite !Rmult_assoc, Rinv_l, !Rmult_1_r, Rmult_1_l by lra.
      eapply Rle_trans with (norm2 (fun _ => 1%R) (fun i => (u' i - w' i) + ((u i - w i) - (u' i - w' i)))%R (seq 0 n)).
      { right. unfold norm2. f_equal. apply Sum_ext. intros i _. ring. }
      eapply Rle_trans; [apply minkowski; intros; lra|]. apply Rplus_le_compat_l. unfold norm2. apply sqrt_le_1_alt.
      apply Rle_trans with (Sum (fun _ => 1)%R (seq 0 n)).
      - apply Sum_le. intros i Hi. apply in_seq in Hi. specialize (H i ltac:(lia)).
        set (z := ((u i - w i) - (u' i - w' i))%R) in *. pose proof (Rsqr_le_abs_1 z 1) as Q. rewrite Rabs_R1 in Q. specialize (Q H). unfold Rsqr in Q. lra.
      - rewrite Sum_const, seq_length. lra. }
    assert (D1 : forall i, i < n -> (Rabs ((f i - g i) - (x i - y i)) <= 1)%R).
    { intros i Hi. unfold f, g. fold h. fold (x i) (y i). pose proof (Fl (x i)). pose proof (Fl (y i)). apply Rabs_le. lra. }
    assert (D2 : forall i, i < n -> (Rabs ((x i - y i) - (f i - g i)) <= 1)%R).
    { intros i Hi. rewrite Rabs_minus_sym. apply D1, Hi. }
    apply D in D1. apply D in D2. apply Rabs_le. lra.
Qed.
Print Assumptions C130_float.

(** Unsigned files with data range 255 or 65535 that are not left alone: rounded down, after the product was
    reduced to the width of the type. An offset is never seen; a gain is not seen if the products fit. *)
Theorem C130_unsigned files other special ident ub unspec m hi pr pm b b' nx ny nz br bm vr vm nr xr nm xm :
  hi = 255%Z \/ hi = 65535%Z -> normalising m hi -> let n := nx * ny * nz in nz <> 3 ->
  holds files pr (UInt b) nx ny nz br (fun i => IZR (vr i)) -> holds files pm (UInt b') nx ny nz bm (fun i => IZR (vm i)) ->
  spans n (fun i => IZR (vr i)) (IZR nr) (IZR xr) -> spans n (fun i => IZR (vm i)) (IZR nm) (IZR xm) ->
  already_normalised ident (UInt b) 0 hi = false -> already_normalised ident (UInt b') 0 hi = false ->
  let f := fun i => IZR ((vr i - nr) * hi mod 2 ^ Z.of_nat (product_bits b hi) / (xr - nr)) in
  let g := fun i => IZR ((vm i - nm) * hi mod 2 ^ Z.of_nat (product_bits b' hi) / (xm - nm)) in
  rmse_score (disk files other special) ident ub unspec m (InPath pr) (InPath pm) =
    Ok (Fin (rmsd n f g), set_score m (SNum (Fin (rmsd n f g)))) /\
  (b = b' -> (exists t, forall i, i < n -> vm i = (vr i + t)%Z) -> rmsd n f g = 0%R) /\
  ((exists s t, (0 < s)%R /\ forall i, i < n -> IZR (vm i) = (s * IZR (vr i) + t)%R) ->
   ((xr - nr) * hi < 2 ^ Z.of_nat (product_bits b hi))%Z -> ((xm - nm) * hi < 2 ^ Z.of_nat (product_bits b' hi))%Z -> rmsd n f g = 0%R).
Proof.
  intros Hh Hm n H3 (S & L & B & V) (S' & L' & B' & V') Hr Hr' A A' f g.
  pose proof (spans_positive _ _ _ _ Hr) as Hn.
  destruct (spans_int _ _ _ _ Hr) as (M1 & M2 & M3 & M4). destruct (spans_int _ _ _ _ Hr') as (M1' & M2' & M3' & M4').
  destruct (load_uint files other special ident ub hi pr b nx ny nz br vr nr xr) as (q & E1 & E2 & E3); try assumption.
  destruct (load_uint files other special ident ub hi pm b' nx ny nz bm vm nm xm) as (q' & E1' & E2' & E3'); try assumption.
  destruct (pair_scores files other special ident ub unspec m hi pr pm (UInt (out_bits hi)) q q' nx ny nz f g) as (P1 & _); try assumption; [lia|].
  split; [exact P1|]. split.
  - intros <- (t & E). apply rmsd_same. intros i Hi. unfold f, g. f_equal.
    destruct (affine_limits n (fun i => IZR (vr i)) (IZR nr) (IZR xr) (IZR nm) (IZR xm) 1 (IZR t) (fun i => IZR (vm i))) as [Q1 Q2]; try assumption; [lra| |].
    { intros k Hk. rewrite E, plus_IZR by exact Hk. ring. }
    rewrite Rmult_1_l, <- plus_IZR in Q1, Q2. apply eq_IZR in Q1, Q2. subst nm xm. rewrite E by exact Hi.
    replace (vr i + t - (nr + t))%Z with (vr i - nr)%Z by ring. replace (xr + t - (nr + t))%Z with (xr - nr)%Z by ring. reflexivity.
  - intros (s & t & Hs & E) F F'. apply rmsd_same. intros i Hi. unfold f, g. f_equal.
    change (wrapped_stretch b hi nr xr (vr i) = wrapped_stretch b' hi nm xm (vm i)).
    assert (Hp : (0 <= hi)%Z) by lia.
    rewrite !wrapped_exact by auto. specialize (M4 i Hi). specialize (M4' i Hi).
    rewrite <- !Rtrunc_div by nia. f_equal. rewrite !mult_IZR, !minus_IZR.
    destruct (affine_limits n (fun i => IZR (vr i)) (IZR nr) (IZR xr) (IZR nm) (IZR xm) s t (fun i => IZR (vm i))) as [Q1 Q2]; try assumption.
    rewrite Q1, Q2, E by exact Hi. apply IZR_lt in M3. field. split; [|lra]. intros Z0. nra.
Qed.
Print Assumptions C130_unsigned.

(** 8-bit files with data range 255 are left alone, so the score is that of the stored numbers. *)
Theorem C130_8_bit files other special ident ub unspec m pr pm nx ny nz br bm vr vm :
  cpython_identity ident -> normalising m 255 -> let n := nx * ny * nz in nz <> 3 -> 0 < n ->
  holds files pr (UInt 8) nx ny nz br vr -> holds files pm (UInt 8) nx ny nz bm vm ->
  rmse_score (disk files other special) ident ub unspec m (InPath pr) (InPath pm) =
    Ok (Fin (rmsd n vr vm), set_score m (SNum (Fin (rmsd n vr vm)))).
Proof.
  intros Hid Hm n H3 Hn (S & L & B & V) (S' & L' & B' & V').
  destruct (load_8_bit files other special ident ub pr nx ny nz br vr) as (q & E1 & E2 & E3); try assumption.
  destruct (load_8_bit files other special ident ub pm nx ny nz bm vm) as (q' & E1' & E2' & E3'); try assumption.
  destruct (pair_scores files other special ident ub unspec m 255 pr pm (UInt 8) q q' nx ny nz vr vm) as (P1 & _); try assumption. lia.
Qed.
Print Assumptions C130_8_bit.

(** ** Examples and wrong expectations *)

(** 16 bits: 0, 200 and 0, 400; 8 bits: 10, 100 and 20, 200. *)
Definition scans (p : text) : option (list Z) :=
  if text_eqb p (lit "a_2x1x1_16bit.raw") then Some [0; 0; 200; 0]%Z
  else if text_eqb p (lit "b_2x1x1_16bit.raw") then Some [0; 0; 144; 1]%Z
  else if text_eqb p (lit "a_2x1x1_8bit.raw") then Some [10; 100]%Z
  else if text_eqb p (lit "b_2x1x1_8bit.raw") then Some [20; 200]%Z else None.

Definition two (x y : Z) (i : nat) : R := match i with 0 => IZR x | _ => IZR y end.

Ltac scan d name :=
  split; [change name with ([] ++ name); apply (stored_raw scans [] name d 2 1 1); try reflexivity;
          [left; reflexivity|cbn; intuition discriminate]|];
  split; [reflexivity|]; split; [repeat constructor; lia|]; intros [|[|i]] Hi; try reflexivity; cbn in Hi; lia.

Lemma scan_a16 : holds scans (lit "a_2x1x1_16bit.raw") (UInt 16) 2 1 1 [0; 0; 200; 0]%Z (two 0 200).
Proof. scan (UInt 16) (lit "a_2x1x1_16bit.raw"). Qed.
Lemma scan_b16 : holds scans (lit "b_2x1x1_16bit.raw") (UInt 16) 2 1 1 [0; 0; 144; 1]%Z (two 0 400).
Proof. scan (UInt 16) (lit "b_2x1x1_16bit.raw"). Qed.
Lemma scan_a8 : holds scans (lit "a_2x1x1_8bit.raw") (UInt 8) 2 1 1 [10; 100]%Z (two 10 100).
Proof. scan (UInt 8) (lit "a_2x1x1_8bit.raw"). Qed.
Lemma scan_b8 : holds scans (lit "b_2x1x1_8bit.raw") (UInt 8) 2 1 1 [20; 200]%Z (two 20 200).
Proof. scan (UInt 8) (lit "b_2x1x1_8bit.raw"). Qed.

Lemma spans_two x y : (x < y)%Z -> spans 2 (two x y) (IZR x) (IZR y).
Proof.
  intros H. apply IZR_lt in H. split; [intros [|i] Hi; cbn [two]; lra|].
  split; [exists 0; split; [lia|reflexivity]|]. split; [exists 1; split; [lia|reflexivity]|exact H].
Qed.

Definition normalised (hi : Z) : metric :=
  Metric CRMSE [("data_range", PInt hi); ("normalize", PBool true); ("chromatic", PBool false); ("roi", PNone)]%string SNone (Some "RMSE"%string).

(** A scan and the same scan with doubled numbers, 16 bits, RMSE(data_range=255, normalize=True): not 0. *)
Theorem C130_gain_16_bit_refuted : exists files pr pm br bm vr vm m,
  construct CRMSE (PInt 255) (PBool true) [] = Ok m /\
  holds files pr (UInt 16) 2 1 1 br vr /\ holds files pm (UInt 16) 2 1 1 bm vm /\ (forall i, i < 2 -> vm i = (2 * vr i)%R) /\
  forall other special ident ub unspec, cpython_identity ident ->
    exists v s, rmse_score (disk files other special) ident ub unspec m (InPath pr) (InPath pm) = Ok (Fin v, s) /\ (115 < v)%R.
Proof.
  exists scans, (lit "a_2x1x1_16bit.raw"), (lit "b_2x1x1_16bit.raw"), [0; 0; 200; 0]%Z, [0; 0; 144; 1]%Z, (two 0 200), (two 0 400), (normalised 255).
  split; [reflexivity|]. split; [exact scan_a16|]. split; [exact scan_b16|].
  split; [intros [|i] _; cbn [two]; lra|]. intros other special ident ub unspec [Hid _].
  set (vr := fun i : nat => match i with O => 0%Z | _ => 200%Z end). set (vm := fun i : nat => match i with O => 0%Z | _ => 400%Z end).
  assert (A : already_normalised ident (UInt 16) 0 255 = false).
  { unfold already_normalised. change (imax (UInt 16)) with 65535%Z. destruct (ident 65535 255)%Z eqn:E; [apply Hid in E; discriminate|reflexivity]. }
  assert (H1 : holds scans (lit "a_2x1x1_16bit.raw") (UInt 16) 2 1 1 [0; 0; 200; 0]%Z (fun i => IZR (vr i))).
  { destruct scan_a16 as (P1 & P2 & P3 & P4). repeat (split; [assumption|]). intros i Hi. rewrite P4 by exact Hi. destruct i; reflexivity. }
  assert (H2 : holds scans (lit "b_2x1x1_16bit.raw") (UInt 16) 2 1 1 [0; 0; 144; 1]%Z (fun i => IZR (vm i))).
  { destruct scan_b16 as (P1 & P2 & P3 & P4). repeat (split; [assumption|]). intros i Hi. rewrite P4 by exact Hi. destruct i; reflexivity. }
  assert (S1 : spans 2 (fun i => IZR (vr i)) (IZR 0) (IZR 200)).
  { destruct (spans_two 0 200) as (P1 & P2 & P3 & P4); [lia|]. split; [|split; [|split; [|exact P4]]].
    - intros i Hi. specialize (P1 i Hi). destruct i; exact P1.
    - exists 0. split; [lia|reflexivity].
    - exists 1. split; [lia|reflexivity]. }
  assert (S2 : spans 2 (fun i => IZR (vm i)) (IZR 0) (IZR 400)).
  { destruct (spans_two 0 400) as (P1 & P2 & P3 & P4); [lia|]. split; [|split; [|split; [|exact P4]]].
    - intros i Hi. specialize (P1 i Hi). destruct i; exact P1.
    - exists 0. split; [lia|reflexivity].
    - exists 1. split; [lia|reflexivity]. }
  destruct (C130_unsigned scans other special ident ub unspec (normalised 255) 255 (lit "a_2x1x1_16bit.raw") (lit "b_2x1x1_16bit.raw")
    16 16 2 1 1 [0; 0; 200; 0]%Z [0; 0; 144; 1]%Z vr vm 0 200 0 400) as (P & _); try assumption; [left; reflexivity|repeat split|discriminate|].
  do 2 eexists. split; [exact P|]. unfold rmsd, Sum, rsum. cbn [Nat.mul Nat.add seq map fold_right vr vm].
  change ((0 - 0) * 255 mod 2 ^ Z.of_nat (product_bits 16 255) / (200 - 0))%Z with 0%Z.
  change ((0 - 0) * 255 mod 2 ^ Z.of_nat (product_bits 16 255) / (400 - 0))%Z with 0%Z.
  change ((200 - 0) * 255 mod 2 ^ Z.of_nat (product_bits 16 255) / (200 - 0))%Z with 255%Z.
  change ((400 - 0) * 255 mod 2 ^ Z.of_nat (product_bits 16 255) / (400 - 0))%Z with 91%Z.
  cbn [INR]. rewrite <- (sqrt_square 115) by lra. apply sqrt_lt_1_alt. lra.
Qed.
Print Assumptions C130_gain_16_bit_refuted.

(** The same with 8 bits: the score is that of the files as they are, while data range 1 sees no difference. *)
Theorem C130_gain_8_bit_refuted : exists files pr pm br bm vr vm m m',
  construct CRMSE (PInt 255) (PBool true) [] = Ok m /\ construct CRMSE (PInt 1) (PBool true) [] = Ok m' /\
  holds files pr (UInt 8) 2 1 1 br vr /\ holds files pm (UInt 8) 2 1 1 bm vm /\ (forall i, i < 2 -> vm i = (2 * vr i)%R) /\
  forall other special ident ub unspec, cpython_identity ident ->
    exists v s s', rmse_score (disk files other special) ident ub unspec m (InPath pr) (InPath pm) = Ok (Fin v, s) /\ (71 < v)%R /\
      rmse_score (disk files other special) ident ub unspec m' (InPath pr) (InPath pm) = Ok (Fin 0, s').
Proof.
  exists scans, (lit "a_2x1x1_8bit.raw"), (lit "b_2x1x1_8bit.raw"), [10; 100]%Z, [20; 200]%Z, (two 10 100), (two 20 200), (normalised 255), (normalised 1).
  split; [reflexivity|]. split; [reflexivity|]. split; [exact scan_a8|]. split; [exact scan_b8|].
  split; [intros [|i] _; cbn [two]; lra|]. intros other special ident ub unspec Hid.
  do 3 eexists. split; [apply (C130_8_bit scans other special ident ub unspec (normalised 255) _ _ 2 1 1 [10; 100]%Z [20; 200]%Z (two 10 100) (two 20 200) Hid);
    [repeat split|discriminate|lia|exact scan_a8|exact scan_b8]|]. split.
  - unfold rmsd, Sum, rsum. cbn [Nat.mul Nat.add seq map fold_right two INR]. rewrite <- (sqrt_square 71) by lra. apply sqrt_lt_1_alt. lra.
  - apply (C130_gain scans other special ident ub unspec (normalised 1) _ _ (UInt 8) (UInt 8) 2 1 1 [10; 100]%Z [20; 200]%Z (two 10 100) (two 20 200) 10 100 2 0);
      [exact Hid|repeat split|discriminate|exact scan_a8|exact scan_b8|apply (spans_two 10 100); lia|lra|intros [|i] _; cbn [two]; lra].
Qed.
Print Assumptions C130_gain_8_bit_refuted.

(** A 16-bit and an 8-bit scan, data range 1: 0, 200 and 10, 100 are the same. *)
Example C130_example other special ident ub unspec : cpython_identity ident -> exists m s,
  construct CRMSE (PInt 1) (PBool true) [] = Ok m /\
  rmse_score (disk scans other special) ident ub unspec m (InPath (lit "a_2x1x1_16bit.raw")) (InPath (lit "a_2x1x1_8bit.raw")) = Ok (Fin 0, s).
Proof.
  intros Hid. exists (normalised 1). eexists. split; [reflexivity|].
  apply (C130_gain scans other special ident ub unspec (normalised 1) _ _ (UInt 16) (UInt 8) 2 1 1 [0; 0; 200; 0]%Z [10; 100]%Z (two 0 200) (two 10 100) 0 200 (9/20) 10);
    [exact Hid|repeat split|discriminate|exact scan_a16|exact scan_a8|apply (spans_two 0 200); lia|lra|intros [|i] _; cbn [two]; lra].
Qed.
