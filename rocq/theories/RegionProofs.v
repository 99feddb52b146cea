(** Lemmas about masks, percentiles and distance transforms. *)
From Coq Require Import Reals Lra Psatz Permutation Sorted.
From Verif Require Import Base NdArray LoadModel LoadProofs NormModel NormProofs PairModel RealSums
  MetricModel SsimModel SsimProofs MadModel MadProofs RegionModel NrModel.

(** ** Masked arrays *)

Lemma combine_indices {A} (a : arr A) idx v : wf a -> get a idx = Some v ->
  nth_error (combine (indices (shp a)) (dat a)) (ravel (shp a) idx) = Some (idx, v).
Proof.
  intros Hwf Hg. pose proof (get_inb _ _ _ Hg) as Hin. unfold get in Hg. rewrite Hin in Hg.
  apply nth_error_combine; [apply nth_error_indices; exact Hin|exact Hg].
Qed.

Lemma masked_spec {A} (a : arr A) m : wf a -> shp (masked a m) = shp a /\ wf (masked a m) /\
  forall idx, get (masked a m) idx = match get a idx with Some v => Some (if m idx then Some v else None) | None => None end.
Proof.
  intros Hwf. unfold masked. cbn [shp dat]. split; [reflexivity|]. split.
  - unfold wf. cbn [shp dat]. rewrite map_length, combine_length, length_indices, Hwf. apply Nat.min_id.
  - intros idx. destruct (get a idx) as [v|] eqn:E.
    + pose proof (combine_indices a idx v Hwf E) as H. pose proof (get_inb _ _ _ E) as Hin.
      unfold get. cbn [shp dat]. rewrite Hin, nth_error_map, H. reflexivity.
    + unfold get in *. cbn [shp dat]. destruct (inb (shp a) idx) eqn:Hin; [|reflexivity].
      exfalso. apply nth_error_None in E. apply ravel_lt in Hin. unfold wf in Hwf. lia.
Qed.

Lemma somes_map {A B} (f : A -> option B) l : somes (map f l) = flat_map (fun x => match f x with Some y => [y] | None => [] end) l.
Proof. unfold somes. induction l as [|x l IH]; [reflexivity|]. cbn [map flat_map]. rewrite IH. reflexivity. Qed.

Lemma somes_masked {A} (a : arr A) m : wf a ->
  somes (dat (masked a m)) = map snd (filter (fun p => m (fst p)) (combine (indices (shp a)) (dat a))).
Proof.
  intros _. unfold masked. cbn [dat]. rewrite somes_map. induction (combine _ _) as [|p l IH]; [reflexivity|].
  cbn [flat_map filter]. rewrite IH. destruct (m (fst p)); reflexivity.
Qed.

Lemma filter_fst {A B} (m : A -> bool) (l : list A) : forall (l' : list B), length l = length l' ->
  map fst (filter (fun p => m (fst p)) (combine l l')) = filter m l.
Proof.
  induction l as [|x l IH]; intros [|y l'] H; try discriminate; [reflexivity|]. cbn [combine filter fst].
  injection H as H. destruct (m x); cbn [map fst]; rewrite IH by exact H; reflexivity.
Qed.

Lemma count_masked {A} (a : arr A) m : wf a -> length (somes (dat (masked a m))) = length (filter m (indices (shp a))).
Proof.
  intros Hwf. rewrite somes_masked by exact Hwf. rewrite map_length, <- (map_length fst).
  rewrite (filter_fst m (indices (shp a)) (dat a)); [reflexivity|]. rewrite length_indices. symmetry. exact Hwf.
Qed.

Lemma masked_ext {A} (a : arr A) m m' : (forall idx, inb (shp a) idx = true -> m idx = m' idx) -> masked a m = masked a m'.
Proof.
  intros H. unfold masked. f_equal. apply map_ext_in. intros [idx v] Hin. apply in_combine_l in Hin.
  cbn [fst snd]. rewrite H; [reflexivity|]. apply in_indices. exact Hin.
Qed.

Lemma masked_map {A B} (f : A -> B) (a : arr A) m :
  masked (amap f a) m = amap (option_map f) (masked a m).
Proof.
  unfold masked, amap. cbn [shp dat]. f_equal. rewrite map_map.
  generalize (indices (shp a)) (dat a). induction l as [|i l IH]; intros [|x l']; try reflexivity.
  cbn [combine map fst snd]. rewrite IH. destruct (m i); reflexivity.
Qed.

Lemma somes_option_map {A B} (f : A -> B) (l : list (option A)) : somes (map (option_map f) l) = map f (somes l).
Proof.
  unfold somes. induction l as [|[x|] l IH]; [reflexivity| |]; cbn [map option_map flat_map app]; rewrite IH; reflexivity.
Qed.

(** ** Boxes *)

Lemma clip_range n b : clip n b <= n.
Proof. unfold clip. destruct (b <? 0)%Z; lia. Qed.

Lemma in_slice_spec n c r i : (0 <= r)%Z -> (r <= Z.abs c)%Z -> i < n ->
  in_slice n c r i = true <->
  ((0 <= c /\ c - r <= Z.of_nat i < c + r) \/ (c < - r /\ Z.of_nat n + c - r <= Z.of_nat i < Z.of_nat n + c + r))%Z.
Proof.
  intros Hr Hc Hi. unfold in_slice. rewrite andb_true_iff, Nat.leb_le, Nat.ltb_lt. unfold clip.
  destruct (Z.ltb_spec (c - r) 0); destruct (Z.ltb_spec (c + r) 0); split; intros; lia.
Qed.

Fixpoint widths (s : list nat) (c : list Z) (r : Z) : nat :=
  match s, c with
  | n :: s', z :: c' => length (filter (in_slice n z r) (seq 0 n)) * widths s' c' r
  | n :: s', [] => n * widths s' [] r
  | [], _ => 1
  end.

Lemma filter_const_true {A} (l : list A) : filter (fun _ => true) l = l.
Proof. induction l as [|x l IH]; [reflexivity|]. cbn [filter]. rewrite IH. reflexivity. Qed.

Lemma filter_const_false {A} (l : list A) : filter (fun _ => false) l = [].
Proof. induction l as [|x l IH]; [reflexivity|exact IH]. Qed.

Lemma filter_map_cons (m : list nat -> bool) i l : filter m (map (cons i) l) = map (cons i) (filter (fun t => m (i :: t)) l).
Proof. induction l as [|t l IH]; [reflexivity|]. cbn [map filter]. rewrite IH. destruct (m (i :: t)); reflexivity. Qed.

Lemma filter_flat_map {A B} (m : B -> bool) (f : A -> list B) l : filter m (flat_map f l) = flat_map (fun x => filter m (f x)) l.
Proof. induction l as [|x l IH]; [reflexivity|]. cbn [flat_map]. rewrite filter_app, IH. reflexivity. Qed.

Lemma count_box s : forall c r, length (filter (in_box s c r) (indices s)) = widths s c r.
Proof.
  induction s as [|n s IH]; intros c r; [destruct c; reflexivity|].
  cbn [indices]. rewrite filter_flat_map. destruct c as [|z c].
  - cbn [widths]. rewrite <- (IH [] r).
    assert (G : forall k, length (flat_map (fun i => filter (in_box (n :: s) [] r) (map (cons i) (indices s))) (seq k n)) =
      n * length (filter (in_box s [] r) (indices s))).
    { generalize n at 2 3. intros N k. revert k. induction N as [|N IHN]; intros k; [reflexivity|]. cbn [seq flat_map].
      rewrite app_length, IHN, filter_map_cons, map_length. cbn [in_box Nat.mul]. f_equal.
      destruct s; cbn [in_box]; reflexivity. }
    apply G.
  - cbn [widths]. rewrite <- IH.
    assert (G : forall l, length (flat_map (fun i => filter (in_box (n :: s) (z :: c) r) (map (cons i) (indices s))) l) =
      length (filter (in_slice n z r) l) * length (filter (in_box s c r) (indices s))).
    { induction l as [|i l IHl]; [reflexivity|]. cbn [flat_map filter]. rewrite app_length, IHl, filter_map_cons, map_length.
      cbn [in_box]. destruct (in_slice n z r i); cbn [andb length Nat.mul]; [reflexivity|].
      rewrite filter_const_false. reflexivity. }
    apply G.
Qed.

Lemma count_interval a b n : length (filter (fun i => (a <=? i) && (i <? b)) (seq 0 n)) = Nat.min n b - Nat.min n a.
Proof.
  induction n as [|n IH]; [reflexivity|]. rewrite seq_S, filter_app, app_length, IH. cbn [filter plus].
  destruct (Nat.leb_spec a n); destruct (Nat.ltb_spec n b); cbn [andb length]; lia.
Qed.

Lemma axis_count n c r : length (filter (in_slice n c r) (seq 0 n)) = clip n (c + r) - clip n (c - r).
Proof.
  unfold in_slice. rewrite count_interval. pose proof (clip_range n (c + r)). pose proof (clip_range n (c - r)). lia.
Qed.

Lemma axis_count_inside n c r : (0 <= r)%Z -> (r <= c)%Z -> (c <= Z.of_nat n - r)%Z ->
  length (filter (in_slice n c r) (seq 0 n)) = Z.to_nat (2 * r).
Proof.
  intros H1 H2 H3. rewrite axis_count. unfold clip.
  destruct (Z.ltb_spec (c - r) 0); destruct (Z.ltb_spec (c + r) 0); lia.
Qed.

Lemma in_box_iff s : forall c r idx, (0 <= r)%Z -> Forall2 (fun z n => r <= z <= Z.of_nat n - r)%Z c s -> inb s idx = true ->
  in_box s c r idx = true <-> Forall2 (fun z i => z - r <= Z.of_nat i < z + r)%Z c idx.
Proof.
  induction s as [|n s IH]; intros c r idx Hr Hc Hin.
  - inversion Hc; subst. destruct idx; [|discriminate]. cbn. split; [constructor|reflexivity].
  - inversion Hc as [|z n' c' s' Hz Hc']; subst. destruct idx as [|i idx]; [discriminate|]. cbn [inb] in Hin.
    apply andb_true_iff in Hin as [Hi Hin]. apply Nat.ltb_lt in Hi. cbn [in_box]. rewrite andb_true_iff, (IH c' r idx Hr Hc' Hin).
    rewrite in_slice_spec by lia. split.
    + intros [H1 H2]. constructor; [lia|exact H2].
    + intros H. inversion H; subst. split; [lia|assumption].
Qed.

(** ** Sorting and percentiles *)

Lemma insertR_perm x l : Permutation (x :: l) (insertR x l).
Proof.
  induction l as [|y l IH]; cbn [insertR]; [reflexivity|]. destruct (Rle_dec x y); [reflexivity|].
  rewrite perm_swap. constructor. exact IH.
Qed.
Lemma sortR_perm l : Permutation l (sortR l).
Proof.
  induction l as [|x l IH]; [constructor|]. cbn [sortR fold_right].
  rewrite <- insertR_perm. constructor. exact IH.
Qed.
Lemma sortR_length l : length (sortR l) = length l.
Proof. apply Permutation_length. symmetry. apply sortR_perm. Qed.

Definition sorted (l : list R) : Prop := forall i j x y, i <= j -> nth_error l i = Some x -> nth_error l j = Some y -> (x <= y)%R.

Lemma sorted_cons x l : sorted l -> (forall y, In y l -> (x <= y)%R) -> sorted (x :: l).
Proof.
  intros Hs Hx [|i] [|j] a b Hij Ha Hb; cbn in Ha, Hb; try lia.
  - injection Ha as <-. injection Hb as <-. lra.
  - injection Ha as <-. apply Hx. eapply nth_error_In; eassumption.
  - apply (Hs i j); [lia|assumption|assumption].
Qed.
Lemma sorted_tl x l : sorted (x :: l) -> sorted l /\ forall y, In y l -> (x <= y)%R.
Proof.
  intros H. split.
  - intros i j a b Hij Ha Hb. apply (H (S i) (S j)); [lia|assumption|assumption].
  - intros y Hy. apply In_nth_error in Hy as [n Hn]. apply (H 0 (S n)); [lia|reflexivity|assumption].
Qed.
Lemma insertR_sorted x l : sorted l -> sorted (insertR x l).
Proof.
  induction l as [|y l IH]; intros Hs; cbn [insertR].
  - apply sorted_cons; [exact Hs|intros y []].
  - destruct (Rle_dec x y) as [Hle|Hgt].
    + apply sorted_cons; [exact Hs|]. apply sorted_tl in Hs as [_ H]. intros z [<-|Hz]; [exact Hle|].
      specialize (H z Hz). lra.
    + apply sorted_tl in Hs as [Hs H]. apply sorted_cons; [apply IH; exact Hs|].
      intros z Hz. apply (Permutation_in _ (Permutation_sym (insertR_perm x l))) in Hz as [<-|Hz]; [lra|apply H; exact Hz].
Qed.
Lemma sortR_sorted l : sorted (sortR l).
Proof.
  induction l as [|x l IH]; cbn [sortR fold_right].
  - intros [|i] j x y _ H; discriminate.
  - apply insertR_sorted. exact IH.
Qed.

Lemma sortR_map (f : R -> R) l : (forall x y, (x <= y <-> f x <= f y)%R) -> sortR (map f l) = map f (sortR l).
Proof.
  intros Hf. induction l as [|x l IH]; [reflexivity|]. cbn [map sortR fold_right]. fold (sortR (map f l)). rewrite IH.
  fold (sortR l). generalize (sortR l). clear l IH. induction l as [|y l IH]; [reflexivity|]. cbn [map insertR].
  destruct (Rle_dec x y) as [H|H]; destruct (Rle_dec (f x) (f y)) as [H'|H']; try reflexivity.
  - apply Hf in H. contradiction.
  - apply Hf in H'. contradiction.
  - cbn [map]. rewrite IH. reflexivity.
Qed.

Lemma sorted_nth s i j : sorted s -> i <= j -> j < length s -> (nth i s 0 <= nth j s 0)%R.
Proof.
  intros Hs Hij Hj. apply (Hs i j); [exact Hij| |]; apply nth_error_nth'; lia.
Qed.

(** The interpolated value at position [v] of a sorted list *)
Definition interp (s : list R) (v : R) : R :=
  let i := Z.to_nat (Int_part v) in
  let x := nth i s 0%R in let y := nth (S i) s x in (x + (v - INR i) * (y - x))%R.

Lemma percentile_eq l q : (0 <= q <= 100)%R -> l <> [] ->
  percentile l q = Ok (interp (sortR l) (q / 100 * INR (length l - 1))).
Proof.
  intros Hq Hl. unfold percentile. destruct (Rlt_dec q 0) as [H|H]; [lra|]. destruct (Rlt_dec 100 q) as [H'|H']; [lra|].
  destruct l; [contradiction|]. reflexivity.
Qed.

Lemma floor_nat v : (0 <= v)%R -> (INR (Z.to_nat (Int_part v)) <= v < INR (Z.to_nat (Int_part v)) + 1)%R.
Proof.
  intros Hv. destruct (base_Int_part v) as [H1 H2].
  assert (H : (0 <= Int_part v)%Z).
  { assert (-1 < Int_part v)%Z; [|lia]. apply lt_IZR. lra. }
  rewrite INR_IZR_INZ, Z2Nat.id by exact H. lra.
Qed.

Lemma interp_bounds s v : sorted s -> (0 <= v)%R -> (v <= INR (length s - 1))%R -> 0 < length s ->
  let i := Z.to_nat (Int_part v) in
  (nth i s 0 <= interp s v)%R /\ i < length s /\
  (S i < length s -> (interp s v <= nth (S i) s 0)%R) /\ (S i = length s -> (interp s v = nth i s 0)%R).
Proof.
  intros Hs Hv Hl Hn i. pose proof (floor_nat v Hv) as F. fold i in F.
  assert (Hi : i < length s).
  { assert (INR i < INR (length s))%R.
    { apply Rle_lt_trans with (INR (length s - 1)); [lra|]. apply lt_INR. lia. }
    apply INR_lt. assumption. }
  unfold interp. fold i.
  destruct (le_lt_dec (length s) (S i)) as [L|L].
  - assert (E0 : nth (S i) s (nth i s 0%R) = nth i s 0%R) by (apply nth_overflow; lia). rewrite E0. split; [lra|]. split; [exact Hi|]. split; [intros; lia|intros; lra].
  - assert (E : nth (S i) s (nth i s 0%R) = nth (S i) s 0%R) by (apply nth_indep; lia). rewrite E.
    pose proof (sorted_nth s i (S i) Hs ltac:(lia) L) as M.
    split; [nra|]. split; [exact Hi|]. split; [intros; nra|intros; lia].
Qed.

Lemma interp_mono s v w : sorted s -> (0 <= v <= w)%R -> (w <= INR (length s - 1))%R -> 0 < length s ->
  (interp s v <= interp s w)%R.
Proof.
  intros Hs Hv Hw Hn.
  destruct (interp_bounds s v Hs ltac:(lra) ltac:(lra) Hn) as (A1 & A2 & A3 & A4).
  destruct (interp_bounds s w Hs ltac:(lra) ltac:(lra) Hn) as (B1 & B2 & B3 & B4).
  pose proof (floor_nat v ltac:(lra)) as F. pose proof (floor_nat w ltac:(lra)) as G.
  set (i := Z.to_nat (Int_part v)) in *. set (j := Z.to_nat (Int_part w)) in *.
  assert (Hij : i <= j).
  { assert (INR i < INR (S j))%R by (rewrite S_INR; lra). apply INR_lt in H. lia. }
  destruct (Nat.eq_dec i j) as [E|E].
  - unfold interp. fold i. fold j. rewrite <- E.
    destruct (le_lt_dec (length s) (S i)) as [L|L].
    + assert (E0 : nth (S i) s (nth i s 0%R) = nth i s 0%R) by (apply nth_overflow; lia). rewrite E0. lra.
    + rewrite (nth_indep s (nth i s 0%R) 0%R) by lia. pose proof (sorted_nth s i (S i) Hs ltac:(lia) L). nra.
  - assert (S i < length s) by lia. specialize (A3 H). pose proof (sorted_nth s (S i) j Hs ltac:(lia) B2). lra.
Qed.

Lemma percentile_mono l p q a b : (p <= q)%R -> percentile l p = Ok a -> percentile l q = Ok b -> (a <= b)%R.
Proof.
  intros Hpq Ha Hb.
  assert (Hp : (0 <= p <= 100)%R /\ l <> []).
  { unfold percentile in Ha. destruct (Rlt_dec p 0); [discriminate|]. destruct (Rlt_dec 100 p); [discriminate|].
    destruct l; [discriminate|]. split; [lra|discriminate]. }
  assert (Hq : (0 <= q <= 100)%R).
  { unfold percentile in Hb. destruct (Rlt_dec q 0); [discriminate|]. destruct (Rlt_dec 100 q); [discriminate|]. lra. }
  destruct Hp as [Hp Hl]. rewrite percentile_eq in Ha, Hb by assumption. injection Ha as <-. injection Hb as <-.
  pose proof (pos_INR (length l - 1)).
  assert (L : 0 < length (sortR l)) by (rewrite sortR_length; destruct l; [contradiction|cbn; lia]).
  apply interp_mono; [apply sortR_sorted| |rewrite sortR_length|exact L].
  - split; [apply Rmult_le_pos; lra|apply Rmult_le_compat_r; lra].
  - rewrite <- (Rmult_1_l (INR (length l - 1))) at 2. apply Rmult_le_compat_r; lra.
Qed.

Lemma interp_at s i : i < length s -> interp s (INR i) = nth i s 0%R.
Proof.
  intros Hi. unfold interp. assert (E : Int_part (INR i) = Z.of_nat i).
  { apply Int_part_unique. rewrite INR_IZR_INZ. lra. }
  rewrite E, Nat2Z.id. replace (INR i - INR i)%R with 0%R by lra. lra.
Qed.

Lemma percentile_100 l a : percentile l 100 = Ok a -> In a l /\ forall x, In x l -> (x <= a)%R.
Proof.
  intros Ha. assert (Hl : l <> []) by (intros ->; unfold percentile in Ha; destruct (Rlt_dec 100 0); [discriminate|]; destruct (Rlt_dec 100 100); discriminate).
  rewrite percentile_eq in Ha by (assumption || lra). injection Ha as <-.
  assert (L : 0 < length l) by (destruct l; [contradiction|cbn; lia]).
  replace (100 / 100 * INR (length l - 1))%R with (INR (length l - 1)) by lra.
  rewrite interp_at by (rewrite sortR_length; lia). split.
  - apply (Permutation_in _ (Permutation_sym (sortR_perm l))). apply nth_In. rewrite sortR_length. lia.
  - intros x Hx. apply (Permutation_in _ (sortR_perm l)) in Hx. apply In_nth with (d := 0%R) in Hx as (n & Hn & <-).
    apply sorted_nth; [apply sortR_sorted|rewrite sortR_length in Hn; lia|rewrite sortR_length; lia].
Qed.

Lemma percentile_0 l a : percentile l 0 = Ok a -> In a l /\ forall x, In x l -> (a <= x)%R.
Proof.
  intros Ha. assert (Hl : l <> []) by (intros ->; unfold percentile in Ha; destruct (Rlt_dec 0 0); [discriminate|]; destruct (Rlt_dec 100 0); discriminate).
  rewrite percentile_eq in Ha by (assumption || lra). injection Ha as <-.
  assert (L : 0 < length l) by (destruct l; [contradiction|cbn; lia]).
  replace (0 / 100 * INR (length l - 1))%R with (INR 0) by (simpl; lra).
  rewrite interp_at by (rewrite sortR_length; lia). split.
  - apply (Permutation_in _ (Permutation_sym (sortR_perm l))). apply nth_In. rewrite sortR_length. lia.
  - intros x Hx. apply (Permutation_in _ (sortR_perm l)) in Hx. apply In_nth with (d := 0%R) in Hx as (n & Hn & <-).
    apply sorted_nth; [apply sortR_sorted|lia|exact Hn].
Qed.

Lemma percentile_affine a b l q : (0 < a)%R ->
  percentile (map (fun x => a * x + b)%R l) q =
  match percentile l q with Ok p => Ok (a * p + b)%R | Err e => Err e end.
Proof.
  intros Ha. unfold percentile. destruct (Rlt_dec q 0); [reflexivity|]. destruct (Rlt_dec 100 q); [reflexivity|].
  destruct l as [|x l]; [reflexivity|]. cbn [map]. cbv zeta.
  change ((a * x + b)%R :: map (fun x => (a * x + b)%R) l) with (map (fun x => (a * x + b)%R) (x :: l)).
  rewrite map_length. rewrite sortR_map.
  2: { intros u v. split; intros H; nra. }
  set (s := sortR (x :: l)). set (v := (q / 100 * INR (length (x :: l) - 1))%R). set (i := Z.to_nat (Int_part v)).
  f_equal.
  destruct (lt_dec i (length s)) as [Hi|Hi].
  - assert (E1 : nth i (map (fun x => (a * x + b)%R) s) 0%R = (a * nth i s 0 + b)%R).
    { rewrite (nth_indep _ 0%R (a * 0 + b)%R) by (rewrite map_length; exact Hi). exact (map_nth (fun x => (a * x + b)%R) s 0%R i). }
    rewrite E1. rewrite (map_nth (fun x => (a * x + b)%R) s (nth i s 0%R) (S i)). ring.
  - exfalso. apply Hi. unfold s. rewrite sortR_length.
    assert (Hv : (0 <= v)%R).
    { unfold v. apply Rmult_le_pos; [lra|apply pos_INR]. }
    pose proof (floor_nat v Hv) as F. fold i in F.
    assert (Hv2 : (v <= INR (length (x :: l) - 1))%R).
    { unfold v. rewrite <- (Rmult_1_l (INR (length (x :: l) - 1))) at 2. apply Rmult_le_compat_r; [apply pos_INR|lra]. }
    assert (INR i < INR (length (x :: l)))%R.
    { apply Rle_lt_trans with (INR (length (x :: l) - 1)); [lra|]. apply lt_INR. cbn [length]. lia. }
    apply INR_lt. assumption.
Qed.

Lemma get_binary_affine a b img lower upper : (0 < a)%R -> is_colour (shp img) = false ->
  get_binary (amap (fun x => a * x + b)%R img) lower upper = get_binary img lower upper.
Proof.
  intros Ha Hc. unfold get_binary. cbn [amap shp dat]. rewrite Hc. cbn [bind]. unfold amap at 1 2. cbn [dat].
  rewrite !percentile_affine by exact Ha.
  destruct (percentile (dat img) lower) as [lo|]; [|reflexivity]. cbn [bind].
  destruct (percentile (dat img) upper) as [hi|]; [|reflexivity]. cbn [bind]. f_equal. unfold amap. cbn [shp dat]. f_equal.
  rewrite map_map. apply map_ext. intros x.
  destruct (Rlt_dec lo x) as [H1|H1]; destruct (Rlt_dec (a * lo + b) (a * x + b)) as [H2|H2]; try nra;
  destruct (Rle_dec x hi) as [H3|H3]; destruct (Rle_dec (a * x + b) (a * hi + b)) as [H4|H4]; try nra; reflexivity.
Qed.
