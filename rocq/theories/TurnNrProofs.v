(** Lemmas for C128: regions, binary images and distance transforms of mirrored, transposed and
    rotated images. *)
From Coq Require Import Reals Lra Psatz Permutation.
From Verif Require Import Base NdArray LoadModel LoadProofs NormModel NormProofs PairModel RealSums
  MetricModel MetricProofs SsimModel SsimProofs SsimSymProofs MadModel RegionModel NrModel RegionProofs RegionFindProofs
  RegionProps NrProofs NrProps TurnProps.
Local Open Scope Z_scope.

(** ** Coordinates under the moves *)

Definition swapz (c : list Z) (i j : nat) : list Z := upd (upd c i (nth j c 0)) j (nth i c 0).

(** A coordinate [z] on a mirrored axis of length [n] becomes n - e - z: [e] is 1 for voxels and 0 for
    the borders between voxels. *)
Definition follow1 (e : Z) (o : move) (s : list nat) (c : list Z) : list Z :=
  match o with
  | Mirror ax => upd c ax (Z.of_nat (nth ax s 0%nat) - e - nth ax c 0)
  | Exchange i j => swapz c i j
  | Turn i j => swapz (upd c j (Z.of_nat (nth j s 0%nat) - e - nth j c 0)) i j
  end.
Definition shape1 (o : move) (s : list nat) : list nat :=
  match o with Mirror _ => s | Exchange i j | Turn i j => swap_at s i j end.
Fixpoint follow (e : Z) (l : list move) (s : list nat) (c : list Z) : list Z :=
  match l with [] => c | o :: l' => follow e l' (shape1 o s) (follow1 e o s c) end.

(** Where a voxel of the moved image comes from. *)
Definition origin1 (o : move) (s idx : list nat) : list nat :=
  match o with
  | Mirror ax => mirror s ax idx
  | Exchange i j => swap_at idx i j
  | Turn i j => mirror s j (swap_at idx i j)
  end.
Fixpoint origin (l : list move) (s idx : list nat) : list nat :=
  match l with [] => idx | o :: l' => origin1 o s (origin l' (shape1 o s) idx) end.

Definition axes_ok (o : move) (s : list nat) : Prop :=
  match o with
  | Mirror ax => (ax < length s)%nat
  | Exchange i j | Turn i j => (i < length s)%nat /\ (j < length s)%nat
  end.

(** ** Sums over the axes *)

Fixpoint total (h : nat -> Z -> nat -> Z) (s : list nat) (c : list Z) (idx : list nat) : Z :=
  match s, c, idx with
  | n :: s', z :: c', i :: idx' => h n z i + total h s' c' idx'
  | _, _, _ => 0
  end.
Definition sumz (f : nat -> Z) (l : list nat) : Z := fold_right (fun k x => f k + x) 0 l.

Lemma sumz_cons f x l : sumz f (x :: l) = f x + sumz f l.
Proof. reflexivity. Qed.

Lemma sumz_perm f l l' : Permutation l l' -> sumz f l = sumz f l'.
Proof. induction 1; cbn [sumz fold_right] in *; unfold sumz in *; cbn [fold_right]; lia. Qed.

Lemma sumz_map f g l : sumz f (map g l) = sumz (fun k => f (g k)) l.
Proof. induction l as [|x l IH]; [reflexivity|]. unfold sumz in *. cbn [map fold_right]. rewrite IH. reflexivity. Qed.

Lemma sumz_ext f g l : (forall k, In k l -> f k = g k) -> sumz f l = sumz g l.
Proof.
  induction l as [|x l IH]; intros H; [reflexivity|]. unfold sumz in *. cbn [fold_right].
  rewrite (H x) by (left; reflexivity). rewrite IH by (intros k Hk; apply H; right; exact Hk). reflexivity.
Qed.

Lemma total_sum h s : forall c idx, length c = length s -> length idx = length s ->
  total h s c idx = sumz (fun k => h (nth k s 0%nat) (nth k c 0) (nth k idx 0%nat)) (seq 0 (length s)).
Proof.
  induction s as [|n s IH]; intros [|z c] [|i idx] Hc Hi; try discriminate; [reflexivity|].
  cbn [total length seq]. rewrite sumz_cons, IH by (cbn in *; lia). cbn [nth]. f_equal.
  rewrite <- seq_shift, sumz_map. reflexivity.
Qed.

Lemma nth_updz (l : list Z) n v k : nth k (upd l n v) 0 = if ((k =? n) && (n <? length l))%nat then v else nth k l 0.
Proof. apply nth_upd. Qed.

Lemma length_swapz c i j : length (swapz c i j) = length c.
Proof. unfold swapz. rewrite !RegionFindProofs.length_upd. reflexivity. Qed.

Lemma nth_swapz c i j k : (i < length c)%nat -> (j < length c)%nat -> nth k (swapz c i j) 0 = nth (tswap i j k) c 0.
Proof.
  intros Hi Hj. unfold swapz, tswap. rewrite !nth_updz, RegionFindProofs.length_upd.
  rewrite !(proj2 (Nat.ltb_lt _ _)) by assumption. rewrite !andb_true_r.
  destruct (k =? j)%nat; [reflexivity|]. destruct (k =? i)%nat; reflexivity.
Qed.

(** A summand that does not change when position and coordinate are mirrored together. *)
Definition even_on (e : Z) (D : Z -> nat -> Prop) (h : nat -> Z -> nat -> Z) : Prop :=
  forall n z i, D z n -> (i < n)%nat -> h n (Z.of_nat n - e - z) i = h n z (n - 1 - i)%nat.
Definition closed_under (e : Z) (D : Z -> nat -> Prop) : Prop := forall n z, D z n -> D (Z.of_nat n - e - z) n.

Lemma F2_nth {A B} (P : A -> B -> Prop) l l' d d' : Forall2 P l l' <->
  length l = length l' /\ forall k, (k < length l')%nat -> P (nth k l d) (nth k l' d').
Proof.
  split.
  - intros H. split; [apply (F2_length P), H|]. induction H as [|x y l l' Hx H IH]; intros [|k] Hk; cbn in *; try lia; [exact Hx|].
    apply IH. lia.
  - revert l'. induction l as [|x l IH]; intros [|y l'] [H1 H2]; try discriminate; constructor.
    + apply (H2 0%nat). cbn. lia.
    + apply IH. split; [cbn in H1; lia|]. intros k Hk. apply (H2 (S k)). cbn. lia.
Qed.

Lemma mirror_step e D s ax c : closed_under e D -> (ax < length s)%nat -> Forall2 D c s ->
  Forall2 D (follow1 e (Mirror ax) s c) s /\
  forall h idx, even_on e D h -> inb s idx = true -> total h s (follow1 e (Mirror ax) s c) idx = total h s c (mirror s ax idx).
Proof.
  intros HC Hax HF. destruct (proj1 (F2_nth D c s 0 0%nat) HF) as [L P]. cbn [follow1]. split.
  - apply (F2_nth D _ _ 0 0%nat). rewrite RegionFindProofs.length_upd. split; [exact L|]. intros k Hk.
    rewrite nth_updz, L, (proj2 (Nat.ltb_lt _ _)) by exact Hax. rewrite andb_true_r.
    destruct (Nat.eqb_spec k ax) as [->|]; [apply HC|]; apply P; assumption.
  - intros h idx Hh Hi. pose proof (inb_length _ _ Hi) as Li.
    rewrite !total_sum by (unfold mirror; rewrite ?RegionFindProofs.length_upd; assumption).
    apply sumz_ext. intros k Hk. apply in_seq in Hk. unfold mirror. rewrite nth_updz, nth_upd, L, Li, (proj2 (Nat.ltb_lt _ _)) by exact Hax.
    rewrite andb_true_r. destruct (Nat.eqb_spec k ax) as [->|]; [|reflexivity].
    apply Hh; [apply P; exact Hax|]. apply (SsimProofs.inb_nth _ _ ax Hi Hax).
Qed.

Lemma exchange_step e D s i j c : (i < length s)%nat -> (j < length s)%nat -> Forall2 D c s ->
  Forall2 D (follow1 e (Exchange i j) s c) (swap_at s i j) /\
  forall h idx, inb (swap_at s i j) idx = true -> total h (swap_at s i j) (swapz c i j) idx = total h s c (swap_at idx i j).
Proof.
  intros Hi Hj HF. destruct (proj1 (F2_nth D c s 0 0%nat) HF) as [L P]. cbn [follow1]. split.
  - apply (F2_nth D _ _ 0 0%nat). rewrite length_swapz, length_swap_at. split; [exact L|]. intros k Hk.
    rewrite nth_swapz, nth_swap by lia. apply P, tswap_lt; assumption.
  - intros h idx Hx. pose proof (inb_length _ _ Hx) as Li. rewrite length_swap_at in Li.
    rewrite !total_sum by (rewrite ?length_swapz, ?length_swap_at; assumption). rewrite length_swap_at.
    rewrite <- (sumz_perm _ _ _ (tswap_perm i j (length s) Hi Hj)), sumz_map. apply sumz_ext. intros k Hk.
    rewrite nth_swap, nth_swapz, (nth_swap idx) by lia. rewrite !tswap_tswap. reflexivity.
Qed.

Lemma turn_shapes s i j idx : (i < length s)%nat -> (j < length s)%nat -> inb (swap_at s i j) idx = true ->
  inb s (swap_at idx i j) = true.
Proof. intros Hi Hj H. apply inb_swap; assumption. Qed.

Lemma step e D o s c : closed_under e D -> axes_ok o s -> Forall2 D c s ->
  Forall2 D (follow1 e o s c) (shape1 o s) /\
  forall h idx, even_on e D h -> inb (shape1 o s) idx = true ->
    inb s (origin1 o s idx) = true /\ total h (shape1 o s) (follow1 e o s c) idx = total h s c (origin1 o s idx).
Proof.
  intros HC Ho HF. destruct o as [ax|i j|i j]; cbn [axes_ok shape1 origin1] in *.
  - destruct (mirror_step e D s ax c HC Ho HF) as [A B]. split; [exact A|]. intros h idx Hh Hi. split; [|apply B; assumption].
    apply (mirror_reorients s ax Ho), Hi.
  - destruct Ho as [Hi Hj]. destruct (exchange_step e D s i j c Hi Hj HF) as [A B]. split; [exact A|]. intros h idx _ Hx.
    split; [apply inb_swap; assumption|apply B, Hx].
  - destruct Ho as [Hi Hj]. destruct (mirror_step e D s j c HC Hj HF) as [A B].
    destruct (exchange_step e D s i j _ Hi Hj A) as [A' B']. split; [exact A'|]. intros h idx Hh Hx.
    assert (Hy : inb s (swap_at idx i j) = true) by (apply inb_swap; assumption). split.
    + apply (mirror_reorients s j Hj), Hy.
    + cbn [follow1] in *. rewrite B' by exact Hx. apply B; assumption.
Qed.

(** ** Sequences of moves *)

Fixpoint shapes (l : list move) (s : list nat) : list nat :=
  match l with [] => s | o :: l' => shapes l' (shape1 o s) end.
Fixpoint all_ok (l : list move) (s : list nat) : Prop :=
  match l with [] => True | o :: l' => axes_ok o s /\ all_ok l' (shape1 o s) end.

Lemma follow_total e D l : forall s c, closed_under e D -> all_ok l s -> Forall2 D c s ->
  Forall2 D (follow e l s c) (shapes l s) /\
  forall h idx, even_on e D h -> inb (shapes l s) idx = true ->
    inb s (origin l s idx) = true /\ total h (shapes l s) (follow e l s c) idx = total h s c (origin l s idx).
Proof.
  induction l as [|o l IH]; intros s c HC Ho HF; cbn [shapes all_ok follow origin] in *; [split; [exact HF|]; auto|].
  destruct Ho as [Ho Hl]. destruct (step e D o s c HC Ho HF) as [A B].
  destruct (IH _ _ HC Hl A) as [A' B']. split; [exact A'|]. intros h idx Hh Hi.
  destruct (B' h idx Hh Hi) as [I1 E1]. destruct (B h _ Hh I1) as [I2 E2]. split; [exact I2|]. congruence.
Qed.

(** Back from a voxel to where it goes. *)
Definition target1 (o : move) (s idx : list nat) : list nat :=
  match o with
  | Mirror ax => mirror s ax idx
  | Exchange i j => swap_at idx i j
  | Turn i j => swap_at (mirror s j idx) i j
  end.
Fixpoint target (l : list move) (s idx : list nat) : list nat :=
  match l with [] => idx | o :: l' => target l' (shape1 o s) (target1 o s idx) end.

Lemma reorients_trans f g f' g' s'' s' s : reorients f g s' s -> reorients f' g' s'' s' ->
  reorients (fun i => f (f' i)) (fun i => g' (g i)) s'' s.
Proof.
  intros [A1 A2] [B1 B2]. split; intros idx H.
  - destruct (B1 idx H) as [C1 C2]. destruct (A1 _ C1) as [D1 D2]. split; [exact D1|]. rewrite D2. exact C2.
  - destruct (A2 idx H) as [C1 C2]. destruct (B2 _ C1) as [D1 D2]. split; [exact D1|]. rewrite D2. exact C2.
Qed.

Lemma origin1_reorients o s : axes_ok o s -> reorients (origin1 o s) (target1 o s) (shape1 o s) s.
Proof.
  destruct o as [ax|i j|i j]; cbn [axes_ok shape1]; intros H.
  - apply mirror_reorients, H.
  - destruct H. apply swap_reorients; assumption.
  - destruct H. exact (reorients_trans _ _ _ _ _ _ _ (mirror_reorients s j H0) (swap_reorients s i j H H0)).
Qed.

Lemma origin_reorients l : forall s, all_ok l s -> reorients (origin l s) (target l s) (shapes l s) s.
Proof.
  induction l as [|o l IH]; intros s; cbn [all_ok shapes]; intros H.
  - split; intros idx Hi; split; trivial.
  - destruct H as [Ho Hl]. exact (reorients_trans _ _ _ _ _ _ _ (origin1_reorients o s Ho) (IH _ Hl)).
Qed.

Lemma moved1_spec o (a a' : arr R) : wf a -> moved1 o a = Ok a' ->
  axes_ok o (shp a) /\ shp a' = shape1 o (shp a) /\ wf a' /\
  forall idx, inb (shp a') idx = true -> getd a' idx = getd a (origin1 o (shp a) idx).
Proof.
  intros W H.
  assert (Kf : forall (a b : arr R) ax, wf a -> flip_ax a ax = Ok b -> (ax < length (shp a))%nat /\ shp b = shp a /\ wf b /\
     forall idx, inb (shp b) idx = true -> getd b idx = getd a (mirror (shp a) ax idx)).
  { intros x y ax Wx E. assert (Hax : (ax < length (shp x))%nat).
    { unfold flip_ax in E. destruct (Nat.leb_spec (length (shp x)) ax); [discriminate|assumption]. }
    destruct (flip_related x y ax Wx Hax E) as [(S1 & _ & G) W1]. repeat split; try assumption. rewrite S1. exact G. }
  assert (Ks : forall (a b : arr R) i j, wf a -> (i < length (shp a))%nat -> (j < length (shp a))%nat -> swap_axes a i j = Ok b ->
     shp b = swap_at (shp a) i j /\ wf b /\ forall idx, inb (shp b) idx = true -> getd b idx = getd a (swap_at idx i j)).
  { intros x y i j Wx Hi Hj E. destruct (swap_related x y i j Wx Hi Hj E) as [(S1 & _ & G) W1]. repeat split; try assumption.
    rewrite S1. exact G. }
  destruct o as [ax|i j|i j]; cbn [moved1 axes_ok shape1 origin1] in *.
  - destruct (Kf a a' ax W H) as (A & B & C & D). auto.
  - destruct (Nat.leb_spec (length (shp a)) i); [discriminate|]. destruct (Nat.leb_spec (length (shp a)) j); [discriminate|].
    cbn [orb] in H. destruct (Ks a a' i j) as (A & B & C); auto.
  - unfold rot90 in H. destruct (Nat.leb_spec (length (shp a)) i); [discriminate|].
    destruct (Nat.leb_spec (length (shp a)) j); [discriminate|]. cbn [orb] in H.
    apply bind_ok in H as (b & E1 & E2). destruct (Kf a b j W E1) as (_ & B & C & D).
    destruct (Ks b a' i j C) as (A' & B' & C'); try (rewrite B; assumption); [exact E2|].
    rewrite B in A'. split; [split; assumption|]. split; [exact A'|]. split; [exact B'|]. intros idx Hx. rewrite C' by exact Hx.
    apply D. rewrite B. apply inb_swap; try assumption. rewrite <- A'. exact Hx.
Qed.

Lemma moved_spec l : forall (a a' : arr R), wf a -> moved l a = Ok a' ->
  all_ok l (shp a) /\ shp a' = shapes l (shp a) /\ wf a' /\
  forall idx, inb (shp a') idx = true -> getd a' idx = getd a (origin l (shp a) idx).
Proof.
  induction l as [|o l IH]; intros a a' W H; cbn [moved all_ok shapes origin] in *.
  - injection H as <-. auto.
  - apply bind_ok in H as (b & E1 & E2). destruct (moved1_spec o a b W E1) as (A & B & C & D).
    destruct (IH b a' C E2) as (A' & B' & C' & D'). rewrite B in *. split; [split; assumption|]. split; [exact B'|]. split; [exact C'|].
    intros idx Hx. rewrite D' by exact Hx. apply D. apply (origin_reorients l _ A'). rewrite <- B'. exact Hx.
Qed.

(** ** Regions *)

Lemma in_box_total s : forall c r idx, length c = length s -> length idx = length s ->
  in_box s c r idx = (total (fun n z i => if in_slice n z r i then 0 else 1) s c idx =? 0).
Proof.
  assert (P : forall r s c idx, 0 <= total (fun n z i => if in_slice n z r i then 0 else 1) s c idx).
  { intros r. induction s0 as [|n s0 IH]; intros [|z c] [|i idx]; cbn [total]; try lia.
    specialize (IH c idx). destruct (in_slice n z r i); lia. }
  induction s as [|n s IH]; intros [|z c] r [|i idx] Hc Hi; try discriminate; [reflexivity|]. cbn [in_box total].
  rewrite IH by (cbn in *; lia). specialize (P r s c idx). destruct (in_slice n z r i); cbn [andb].
  - reflexivity.
  - symmetry. apply Z.eqb_neq. lia.
Qed.

Lemma dist_total s : forall c idx, length c = length s -> length idx = length s ->
  dist_sq c idx = total (fun _ z i => (Z.of_nat i - z) ^ 2) s c idx.
Proof.
  induction s as [|n s IH]; intros [|z c] [|i idx] Hc Hi; try discriminate; [reflexivity|]. cbn [dist_sq total].
  rewrite IH by (cbn in *; lia). reflexivity.
Qed.

Lemma clip_inside n b : 0 <= b <= Z.of_nat n -> clip n b = Z.to_nat b.
Proof. intros H. unfold clip. destruct (Z.ltb_spec b 0); [lia|]. f_equal. lia. Qed.

Lemma box_even r : 0 <= r -> even_on 0 (fun z n => r <= z <= Z.of_nat n - r) (fun n z i => if in_slice n z r i then 0 else 1).
Proof.
  intros Hr n z i HD Hi. assert (E : in_slice n (Z.of_nat n - 0 - z) r i = in_slice n z r (n - 1 - i)); [|rewrite E; reflexivity].
  apply Bool.eq_iff_eq_true. unfold in_slice. rewrite !andb_true_iff, !Nat.leb_le, !Nat.ltb_lt.
  rewrite !clip_inside by lia. lia.
Qed.

Lemma ball_even : even_on 1 (fun _ _ => True) (fun _ z i => (Z.of_nat i - z) ^ 2).
Proof. intros n z i _ Hi. rewrite Nat2Z.inj_sub, Nat2Z.inj_sub by lia. ring. Qed.

(** The voxels kept by a mask. *)
Definition kept (a : arr R) (P : list nat -> bool) : list R := map (getd a) (filter P (indices (shp a))).

Lemma kept_masked a P : wf a -> somes (dat (masked a P)) = kept a P.
Proof.
  intros W. rewrite somes_masked by exact W. unfold kept. rewrite (dat_getd a W).
  induction (indices (shp a)) as [|i l IH]; [reflexivity|]. cbn [map combine filter fst]. destruct (P i); cbn [map snd]; rewrite IH; reflexivity.
Qed.

Lemma filter_map_swap {A B} (f : A -> B) P l : filter P (map f l) = map f (filter (fun x => P (f x)) l).
Proof. induction l as [|x l IH]; [reflexivity|]. cbn [map filter]. destruct (P (f x)); cbn [map]; rewrite IH; reflexivity. Qed.

Lemma filter_perm {A} (P : A -> bool) l l' : Permutation l l' -> Permutation (filter P l) (filter P l').
Proof.
  induction 1 as [|x l l' H IH|x y l|l l' l'' H1 IH1 H2 IH2]; cbn [filter]; [constructor| | |].
  - destruct (P x); [constructor|]; exact IH.
  - destruct (P x), (P y); try apply Permutation_refl. constructor.
  - eapply Permutation_trans; eassumption.
Qed.

Lemma kept_perm f g a a' P P' : reorients f g (shp a') (shp a) ->
  (forall idx, inb (shp a') idx = true -> getd a' idx = getd a (f idx)) ->
  (forall idx, inb (shp a') idx = true -> P' idx = P (f idx)) -> Permutation (kept a' P') (kept a P).
Proof.
  intros Ho G HP. unfold kept.
  rewrite (filter_ext_in P' (fun i => P (f i))) by (intros i Hi; apply HP, in_indices, Hi).
  rewrite (map_ext_in (getd a') (fun i => getd a (f i))).
  2:{ intros i Hi. apply filter_In in Hi as [Hi _]. apply G, in_indices, Hi. }
  rewrite <- (map_map f (getd a)), <- (filter_map_swap f P). apply Permutation_map, filter_perm, (reorients_perm f g), Ho.
Qed.

(** Same kind of region, values in another order. *)
Definition same_region (x y : region) : Prop :=
  Permutation (values x) (values y) /\ match x, y with Whole _, Whole _ | Masked _, Masked _ => True | _, _ => False end.

Lemma lmean_perm l l' : Permutation l l' -> lmean l = lmean l'.
Proof. intros H. unfold lmean. rewrite (Permutation_length H), (Sum_perm _ _ _ H). reflexivity. Qed.

Lemma std0_perm l l' : Permutation l l' -> std0 l = std0 l'.
Proof. intros H. unfold std0, dev. rewrite (lmean_perm _ _ H), (Permutation_length H), (Sum_perm _ _ _ H). reflexivity. Qed.

Lemma on_empty_same mk x y : same_region x y -> on_empty mk x = on_empty mk y.
Proof. intros [_ H]. destruct x, y; try contradiction; reflexivity. Qed.

Lemma cnr_value_same mk s s' b b' : same_region s' s -> same_region b' b -> cnr_value mk s' b' = cnr_value mk s b.
Proof.
  intros Hs Hb. unfold cnr_value. rewrite (on_empty_same mk _ _ Hs), (on_empty_same mk _ _ Hb).
  destruct Hs as [Ps _], Hb as [Pb _]. pose proof (Permutation_length Ps) as Ls. pose proof (Permutation_length Pb) as Lb.
  destruct (values b') as [|x l'], (values b) as [|y l]; try discriminate; [reflexivity|].
  rewrite (std0_perm _ _ Pb), (lmean_perm _ _ Pb). destruct (is_zero _); [reflexivity|].
  destruct (values s') as [|u k'], (values s) as [|v k]; try discriminate; [reflexivity|].
  rewrite (lmean_perm _ _ Ps). reflexivity.
Qed.

Lemma snr_value_same mk s s' : same_region s' s -> snr_value mk s' = snr_value mk s.
Proof.
  intros Hs. unfold snr_value. rewrite (on_empty_same mk _ _ Hs). destruct Hs as [Ps _]. pose proof (Permutation_length Ps) as Ls.
  destruct (values s') as [|u k'], (values s) as [|v k]; try discriminate; [reflexivity|].
  rewrite (std0_perm _ _ Ps), (lmean_perm _ _ Ps). reflexivity.
Qed.

Lemma whole_same l a a' : wf a -> moved l a = Ok a' -> same_region (Whole a') (Whole a).
Proof.
  intros W H. destruct (moved_spec l a a' W H) as (A & B & C & D). split; [|exact I]. cbn [values].
  apply (dat_perm (origin l (shp a)) (target l (shp a))); try assumption. rewrite B. apply origin_reorients, A.
Qed.

Lemma masked_same l a a' P P' : wf a -> moved l a = Ok a' ->
  (forall idx, inb (shp a') idx = true -> P' idx = P (origin l (shp a) idx)) -> same_region (Masked (masked a' P')) (Masked (masked a P)).
Proof.
  intros W H HP. destruct (moved_spec l a a' W H) as (A & B & C & D). split; [|exact I]. cbn [values].
  rewrite !kept_masked by assumption. apply (kept_perm (origin l (shp a)) (target l (shp a))); try assumption.
  rewrite B. apply origin_reorients, A.
Qed.

(** ** Binary images *)

(** [b'] is [b] moved. *)
Definition follows {A} (l : list move) (b b' : arr A) : Prop :=
  shp b' = shapes l (shp b) /\ forall idx, inb (shp b') idx = true -> get b' idx = get b (origin l (shp b) idx).

Lemma follow_of_nat l : forall s idx, all_ok l s -> inb (shapes l s) idx = true ->
  follow 1 l s (map Z.of_nat (origin l s idx)) = map Z.of_nat idx.
Proof.
  assert (St : forall o s idx, axes_ok o s -> inb (shape1 o s) idx = true ->
     follow1 1 o s (map Z.of_nat (origin1 o s idx)) = map Z.of_nat idx).
  { assert (Hn : forall k l, nth k (map Z.of_nat l) 0 = Z.of_nat (nth k l 0%nat)).
    { intros k l0. change 0 with (Z.of_nat 0). apply map_nth. }
    assert (Eq : forall l0 l1 : list Z, length l0 = length l1 -> (forall k, nth k l0 0 = nth k l1 0) -> l0 = l1).
    { intros l0 l1 HL HN. apply (nth_ext l0 l1 0 0 HL). intros k _. apply HN. }
    assert (M : forall s idx ax, (ax < length s)%nat -> inb s idx = true ->
      upd (map Z.of_nat (mirror s ax idx)) ax (Z.of_nat (nth ax s 0%nat) - 1 - nth ax (map Z.of_nat (mirror s ax idx)) 0) = map Z.of_nat idx).
    { intros s idx ax Hax Hi. pose proof (inb_length _ _ Hi) as Li. pose proof (SsimProofs.inb_nth _ _ ax Hi Hax) as B.
      apply Eq; [unfold mirror; rewrite RegionFindProofs.length_upd, !map_length, RegionFindProofs.length_upd; reflexivity|].
      intros k. rewrite nth_updz, map_length. unfold mirror. rewrite RegionFindProofs.length_upd, Li, (proj2 (Nat.ltb_lt _ _)), andb_true_r by exact Hax.
      rewrite !Hn, !nth_upd, Li, (proj2 (Nat.ltb_lt _ _)), !andb_true_r, Nat.eqb_refl by exact Hax.
      destruct (Nat.eqb_spec k ax) as [->|]; lia. }
    assert (X : forall n idx i j, (i < n)%nat -> (j < n)%nat -> length idx = n -> swapz (map Z.of_nat (swap_at idx i j)) i j = map Z.of_nat idx).
    { intros n idx i j Hi Hj Li. apply Eq; [rewrite length_swapz, !map_length, length_swap_at; reflexivity|]. intros k.
      rewrite nth_swapz by (rewrite map_length, length_swap_at; lia). rewrite !Hn, nth_swap by lia. rewrite tswap_tswap. reflexivity. }
    intros o s idx Ho Hi. destruct o as [ax|i j|i j]; cbn [axes_ok shape1 origin1 follow1] in *.
    - apply M; assumption.
    - pose proof (inb_length _ _ Hi) as Li. rewrite length_swap_at in Li. destruct Ho. apply (X (length s)); assumption.
    - pose proof (inb_length _ _ Hi) as Li. rewrite length_swap_at in Li. destruct Ho.
      rewrite M by (try assumption; apply inb_swap; assumption). apply (X (length s)); assumption. }
  induction l as [|o l IH]; intros s idx Ho Hi; cbn [all_ok shapes follow origin] in *; [reflexivity|].
  destruct Ho as [Ho Hl]. rewrite St; [apply IH; assumption|exact Ho|]. apply (origin_reorients l _ Hl), Hi.
Qed.

Lemma length_of_nat l : length (map Z.of_nat l) = length l.
Proof. apply map_length. Qed.

(** Distances between voxels do not change. *)
Lemma total_origin h l s i j : even_on 1 (fun _ _ => True) h -> all_ok l s -> inb (shapes l s) i = true -> inb (shapes l s) j = true ->
  total h (shapes l s) (map Z.of_nat j) i = total h s (map Z.of_nat (origin l s j)) (origin l s i).
Proof.
  intros Hh Hl Hi Hj. rewrite <- (follow_of_nat l s j Hl Hj).
  destruct (follow_total 1 (fun _ _ => True) l s (map Z.of_nat (origin l s j))) as [_ K].
  - intros n z _. exact I.
  - exact Hl.
  - apply (F2_nth _ _ _ 0 0%nat). split; [|auto]. rewrite map_length. apply inb_length, (origin_reorients l s Hl), Hj.
  - apply K; assumption.
Qed.

Lemma gap_total s : forall a b, length a = length s -> length b = length s ->
  Z.of_nat (gap_sq a b) = total (fun _ z i => (Z.of_nat i - z) ^ 2) s (map Z.of_nat b) a.
Proof.
  induction s as [|n s IH]; intros [|x a] [|y b] Ha Hb; try discriminate; [reflexivity|]. cbn [gap_sq map total].
  rewrite Nat2Z.inj_add, IH by (cbn in *; lia). f_equal. destruct (Nat.leb_spec x y); rewrite Nat2Z.inj_mul, Nat2Z.inj_sub by lia; ring.
Qed.

Lemma l1_total s : forall a b, length a = length s -> length b = length s ->
  Z.of_nat (l1 a b) = total (fun _ z i => Z.abs (Z.of_nat i - z)) s (map Z.of_nat b) a.
Proof.
  induction s as [|n s IH]; intros [|x a] [|y b] Ha Hb; try discriminate; [reflexivity|]. cbn [l1 map total].
  rewrite Nat2Z.inj_add, IH by (cbn in *; lia). f_equal. unfold absd. lia.
Qed.

Lemma gap_origin l s i j : all_ok l s -> inb (shapes l s) i = true -> inb (shapes l s) j = true ->
  gap_sq (origin l s i) (origin l s j) = gap_sq i j.
Proof.
  intros Hl Hi Hj. destruct (origin_reorients l s Hl) as [R _]. apply Nat2Z.inj.
  rewrite (gap_total s) by (apply inb_length, R; assumption).
  rewrite (gap_total (shapes l s)) by (apply inb_length; assumption). symmetry. apply total_origin; try assumption. apply ball_even.
Qed.

Lemma l1_origin l s i j : all_ok l s -> inb (shapes l s) i = true -> inb (shapes l s) j = true ->
  l1 (origin l s i) (origin l s j) = l1 i j.
Proof.
  intros Hl Hi Hj. destruct (origin_reorients l s Hl) as [R _]. apply Nat2Z.inj.
  rewrite (l1_total s) by (apply inb_length, R; assumption).
  rewrite (l1_total (shapes l s)) by (apply inb_length; assumption). symmetry. apply total_origin; try assumption.
  intros n z x _ Hx. lia.
Qed.

Lemma margin_total s : forall idx k c, length idx = length s -> length c = length s ->
  (margin s idx k <-> total (fun n _ i => if ((k <=? i) && (i + k <? n))%nat then 0 else 1) s c idx = 0).
Proof.
  intros idx k c Hi Hc. rewrite total_sum by assumption. unfold margin.
  assert (P : forall f l, (forall x, In x l -> 0 <= f x) -> (sumz f l = 0 <-> forall x, In x l -> f x = 0)).
  { clear. intros f l. induction l as [|x l IH]; intros HP; unfold sumz in *; cbn [fold_right]; [split; [intros _ y []|reflexivity]|].
    assert (Q : 0 <= fold_right (fun k x => f k + x) 0 l).
    { clear IH. induction l as [|y l IHl]; cbn [fold_right]; [lia|]. pose proof (HP y ltac:(right; left; reflexivity)).
      assert (0 <= fold_right (fun k x => f k + x) 0 l); [|lia]. apply IHl. intros w [->|Hw]; apply HP; cbn; auto. }
    pose proof (HP x ltac:(left; reflexivity)) as Q0. specialize (IH ltac:(intros w Hw; apply HP; right; exact Hw)). split.
    - intros E y [->|Hy]; [lia|]. apply IH; [lia|exact Hy].
    - intros H. rewrite (H x) by (left; reflexivity). rewrite (proj2 IH); [reflexivity|]. intros y Hy. apply H. right. exact Hy. }
  rewrite P by (intros x _; destruct (_ && _); lia). split.
  - intros H x Hx. apply in_seq in Hx. destruct (H x ltac:(lia)) as [H1 H2].
    rewrite (proj2 (Nat.leb_le _ _)), (proj2 (Nat.ltb_lt _ _)) by lia. reflexivity.
  - intros H a Ha. specialize (H a ltac:(apply in_seq; lia)).
    destruct (Nat.leb_spec k (nth a idx 0%nat)), (Nat.ltb_spec (nth a idx 0%nat + k) (nth a s 0%nat)); cbn [andb] in H; try discriminate. lia.
Qed.

Lemma margin_origin l s i k : all_ok l s -> inb (shapes l s) i = true -> (margin s (origin l s i) k <-> margin (shapes l s) i k).
Proof.
  intros Hl Hi. destruct (origin_reorients l s Hl) as [R _].
  assert (L1 : length (origin l s i) = length s) by (apply inb_length, R, Hi).
  assert (L2 : length i = length (shapes l s)) by (apply inb_length, Hi).
  rewrite (margin_total s _ k (map Z.of_nat (origin l s i))) by (rewrite ?map_length; assumption).
  rewrite (margin_total (shapes l s) _ k (map Z.of_nat i)) by (rewrite ?map_length; assumption).
  rewrite <- total_origin; [reflexivity| |assumption..]. intros n z x _ Hx.
  destruct (Nat.leb_spec k x), (Nat.ltb_spec (x + k) n), (Nat.leb_spec k (n - 1 - x)), (Nat.ltb_spec (n - 1 - x + k) n); cbn [andb]; lia.
Qed.

Lemma follows_at l (b b' : arr bool) idx : follows l b b' -> inb (shp b') idx = true -> at_ b' idx = at_ b (origin l (shp b) idx).
Proof. intros [_ H] Hi. unfold at_. rewrite H by exact Hi. reflexivity. Qed.

Lemma bool_eq (x y : bool) : (x = true <-> y = true) -> x = y.
Proof. intros H. apply Bool.eq_iff_eq_true, H. Qed.

Lemma follows_intro l (b b' : arr bool) : wf b -> wf b' -> all_ok l (shp b) -> shp b' = shapes l (shp b) ->
  (forall idx, inb (shp b') idx = true -> at_ b' idx = at_ b (origin l (shp b) idx)) -> follows l b b'.
Proof.
  intros W W' Hl S H. split; [exact S|]. intros idx Hi. specialize (H idx Hi). unfold at_ in H.
  destruct (get_wf_some b' idx W' Hi) as [v Hv].
  destruct (get_wf_some b (origin l (shp b) idx) W) as [w Hw]; [apply (origin_reorients l _ Hl); rewrite <- S; exact Hi|].
  rewrite Hv, Hw in *. congruence.
Qed.

Lemma iter_wf_dilate k (m : arr bool) : wf m -> wf (Nat.iter k dilate1 m).
Proof. intros W. destruct k; [exact W|]. cbn [Nat.iter]. apply wf_tabulate. Qed.
Lemma iter_wf_erode k (m : arr bool) : wf m -> wf (Nat.iter k erode1 m).
Proof. intros W. destruct k; [exact W|]. cbn [Nat.iter]. apply wf_tabulate. Qed.

Lemma dilate_follows l k b b' : wf b -> wf b' -> all_ok l (shp b) -> follows l b b' ->
  follows l (Nat.iter k dilate1 b) (Nat.iter k dilate1 b').
Proof.
  intros W W' Hl Hf. pose proof Hf as [S _]. apply follows_intro; try (apply iter_wf_dilate; assumption); rewrite ?shp_dilate; try assumption.
  intros idx Hi. apply bool_eq. destruct (origin_reorients l _ Hl) as [R1 R2]. rewrite S in Hi.
  rewrite !dilate_spec by (try rewrite S; try exact Hi; apply R1, Hi). split; intros (j & Hj & Hd).
  - pose proof (at_true _ _ Hj) as Bj. exists (origin l (shp b) j). rewrite <- (follows_at l b b') by assumption. split; [exact Hj|].
    rewrite S in Bj. rewrite l1_origin by assumption. exact Hd.
  - pose proof (at_true _ _ Hj) as Bj. destruct (R2 j Bj) as [T1 T2]. exists (target l (shp b) j). rewrite (follows_at l b b') by (try rewrite S; assumption).
    rewrite T2. split; [exact Hj|]. rewrite <- (l1_origin l (shp b)) by assumption. rewrite T2. exact Hd.
Qed.

Lemma erode_follows l k b b' : wf b -> wf b' -> all_ok l (shp b) -> follows l b b' ->
  follows l (Nat.iter k erode1 b) (Nat.iter k erode1 b').
Proof.
  intros W W' Hl Hf. pose proof Hf as [S _]. apply follows_intro; try (apply iter_wf_erode; assumption); rewrite ?shp_erode; try assumption.
  intros idx Hi. apply bool_eq. destruct (origin_reorients l _ Hl) as [R1 R2]. rewrite S in Hi.
  rewrite !erode_spec by (try rewrite S; try exact Hi; apply R1, Hi). rewrite S. rewrite (margin_origin l (shp b)) by assumption.
  split; intros [Hm H]; (split; [exact Hm|]); intros j Bj Hd.
  - destruct (R2 j Bj) as [T1 T2]. specialize (H (target l (shp b) j) T1). rewrite (follows_at l b b'), T2 in H by (try rewrite S; assumption).
    apply H. rewrite <- (l1_origin l (shp b)) by assumption. rewrite T2. exact Hd.
  - rewrite (follows_at l b b') by (try rewrite S; assumption). apply H; [apply R1, Bj|]. rewrite l1_origin by assumption. exact Hd.
Qed.

Lemma size_shapes l : forall s, all_ok l s -> size (shapes l s) = size s.
Proof.
  intros s Hl. rewrite <- !length_indices, <- (map_length (origin l s)).
  apply Permutation_length, (reorients_perm _ (target l s)), origin_reorients, Hl.
Qed.

Lemma cleaned_follows l it b b' : wf b -> wf b' -> all_ok l (shp b) -> follows l b b' -> follows l (cleaned it b) (cleaned it b').
Proof.
  intros W W' Hl Hf. pose proof Hf as [S _]. unfold cleaned, erosion, dilation, repeats. rewrite !shp_dilate, S, (size_shapes l) by exact Hl.
  apply erode_follows; rewrite ?shp_dilate; try (apply iter_wf_dilate; assumption); [exact Hl|]. apply dilate_follows; assumption.
Qed.

(** ** find_largest_region *)

Lemma gap_sqgap l s i j : all_ok l s -> inb (shapes l s) i = true -> inb (shapes l s) j = true ->
  sqgap (origin l s i) (origin l s j) = sqgap i j.
Proof. intros Hl Hi Hj. rewrite <- !gap_eq, gap_origin by assumption. reflexivity. Qed.

(** [c] is the only voxel as far from the nearest False voxel of the cleaned image as it is. *)
Definition furthest (it : Z) (m : arr bool) (c : list nat) : Prop :=
  inb (shp m) c = true /\ exists near, get (cleaned it m) near = Some false /\
    (forall j, get (cleaned it m) j = Some false -> sqgap c near <= sqgap c j) /\
    (forall idx, inb (shp m) idx = true -> idx <> c -> exists j, get (cleaned it m) j = Some false /\ sqgap idx j < sqgap c near).

Lemma false_moved l it b b' : wf b -> wf b' -> all_ok l (shp b) -> follows l b b' ->
  (forall j, get (cleaned it b') j = Some false -> inb (shapes l (shp b)) j = true /\ get (cleaned it b) (origin l (shp b) j) = Some false) /\
  (forall j, get (cleaned it b) j = Some false -> inb (shapes l (shp b)) (target l (shp b) j) = true /\
     origin l (shp b) (target l (shp b) j) = j /\ get (cleaned it b') (target l (shp b) j) = Some false).
Proof.
  intros W W' Hl Hf. destruct (cleaned_follows l it b b' W W' Hl Hf) as [S G]. rewrite !shp_cleaned in *.
  destruct (origin_reorients l _ Hl) as [R1 R2]. split; intros j Hj; pose proof (get_inb _ _ _ Hj) as Bj; rewrite shp_cleaned in Bj.
  - rewrite <- G by exact Bj. rewrite <- S. split; assumption.
  - destruct (R2 j Bj) as [T1 T2]. split; [exact T1|]. split; [exact T2|]. rewrite G by (rewrite S; exact T1). rewrite T2. exact Hj.
Qed.

Lemma find_radius nobg nobg' l it kind kind' b b' c r g c' r' g' : wf b -> wf b' -> all_ok l (shp b) -> follows l b b' ->
  find_largest_region nobg b it kind = Ok (c, r, g) -> find_largest_region nobg' b' it kind' = Ok (c', r', g') -> r' = r.
Proof.
  intros W W' Hl Hf E E'. destruct (C68_centre _ _ _ _ _ _ _ W E) as (Bc & near & N1 & N2 & N3 & N4 & _).
  destruct (C68_centre _ _ _ _ _ _ _ W' E') as (Bc' & near' & N1' & N2' & N3' & N4' & _).
  destruct (false_moved l it b b' W W' Hl Hf) as [F1 F2]. destruct (origin_reorients l _ Hl) as [R1 R2].
  pose proof Hf as [S _]. rewrite S in Bc'.
  assert (A : sqgap c' near' <= sqgap c near).
  { destruct (N4 (origin l (shp b) c') ltac:(apply R1, Bc')) as (j & Hj & Hd & _). destruct (F2 j Hj) as (T1 & T2 & T3).
    specialize (N3' _ T3). rewrite <- (gap_sqgap l (shp b) c' (target l (shp b) j) Hl Bc' T1), T2 in N3'. lia. }
  assert (A' : sqgap c near <= sqgap c' near').
  { destruct (R2 c Bc) as [T1 T2]. destruct (N4' (target l (shp b) c) ltac:(rewrite S; exact T1)) as (j & Hj & Hd & _).
    destruct (F1 j Hj) as (B1 & B2). specialize (N3 _ B2).
    rewrite <- (gap_sqgap l (shp b) (target l (shp b) c) j Hl T1 B1), T2 in Hd. lia. }
  nia.
Qed.

Lemma furthest_found nobg it kind b c c0 r g : wf b -> furthest it b c -> find_largest_region nobg b it kind = Ok (c0, r, g) -> c0 = c.
Proof.
  intros W (Bc & near & N1 & N2 & N3) E. destruct (C68_centre _ _ _ _ _ _ _ W E) as (Bc' & near' & N1' & _ & N3' & N4' & _).
  destruct (list_eq_dec Nat.eq_dec c0 c) as [|Hne]; [assumption|]. exfalso.
  destruct (N3 c0 Bc' Hne) as (j & Hj & Hd). destruct (N4' c Bc) as (k & Hk & Hd' & _).
  specialize (N2 k Hk). specialize (N3' j Hj). lia.
Qed.

Lemma furthest_moved l it b b' c : wf b -> wf b' -> all_ok l (shp b) -> follows l b b' -> furthest it b c ->
  furthest it b' (target l (shp b) c).
Proof.
  intros W W' Hl Hf (Bc & near & N1 & N2 & N3). destruct (false_moved l it b b' W W' Hl Hf) as [F1 F2].
  destruct (origin_reorients l _ Hl) as [R1 R2]. pose proof Hf as [S _]. destruct (R2 c Bc) as [T1 T2].
  split; [rewrite S; exact T1|]. destruct (F2 near N1) as (U1 & U2 & U3). exists (target l (shp b) near). split; [exact U3|].
  rewrite <- (gap_sqgap l (shp b) (target l (shp b) c)), T2, U2 by assumption. split.
  - intros j Hj. destruct (F1 j Hj) as (B1 & B2). specialize (N2 _ B2). rewrite <- (gap_sqgap l (shp b) (target l (shp b) c) j), T2 by assumption. exact N2.
  - intros idx Hi Hne. rewrite S in Hi. destruct (R1 idx Hi) as [O1 O2].
    destruct (N3 (origin l (shp b) idx) O1) as (j & Hj & Hd); [intros E; apply Hne; rewrite <- O2, E; reflexivity|].
    destruct (F2 j Hj) as (V1 & V2 & V3). exists (target l (shp b) j). split; [exact V3|].
    rewrite <- (gap_sqgap l (shp b) idx), V2 by assumption. exact Hd.
Qed.

(** ** get_binary *)

Lemma insert_insert x y l : insertR x (insertR y l) = insertR y (insertR x l).
Proof.
  destruct (Req_EM_T x y) as [->|Hxy]; [reflexivity|].
  induction l as [|z l IH]; cbn [insertR].
  - destruct (Rle_dec x y), (Rle_dec y x); try reflexivity; exfalso; lra.
  - destruct (Rle_dec y z) as [Hyz|Hyz], (Rle_dec x z) as [Hxz|Hxz]; cbn [insertR].
    + destruct (Rle_dec x y), (Rle_dec y x); try (exfalso; lra).
      * destruct (Rle_dec y z); [reflexivity|exfalso; lra].
      * destruct (Rle_dec x z); [reflexivity|exfalso; lra].
    + destruct (Rle_dec x y); [exfalso; lra|]. destruct (Rle_dec x z); [exfalso; lra|]. destruct (Rle_dec y z); [reflexivity|exfalso; lra].
    + destruct (Rle_dec x z); [|exfalso; lra]. destruct (Rle_dec y x); [exfalso; lra|]. destruct (Rle_dec y z); [exfalso; lra|reflexivity].
    + destruct (Rle_dec x z); [exfalso; lra|]. destruct (Rle_dec y z); [exfalso; lra|]. rewrite IH. reflexivity.
Qed.

Lemma sort_same l l' : Permutation l l' -> sortR l = sortR l'.
Proof.
  induction 1 as [|x l l' H IH|x y l|l l' l'' H1 IH1 H2 IH2]; unfold sortR in *; cbn [fold_right]; [reflexivity| | |congruence].
  - rewrite IH. reflexivity.
  - apply insert_insert.
Qed.

Lemma percentile_same l l' q : Permutation l l' -> percentile l q = percentile l' q.
Proof.
  intros H. unfold percentile. rewrite (sort_same _ _ H), (Permutation_length H).
  destruct (Rlt_dec q 0); [reflexivity|]. destruct (Rlt_dec 100 q); [reflexivity|].
  pose proof (Permutation_length H). destruct l, l'; try discriminate; reflexivity.
Qed.

Lemma moved_perm l a a' : wf a -> moved l a = Ok a' -> Permutation (dat a') (dat a).
Proof. intros W H. apply (whole_same l a a' W H). Qed.

Lemma get_moved l a a' idx : wf a -> moved l a = Ok a' -> inb (shp a') idx = true -> get a' idx = get a (origin l (shp a) idx).
Proof.
  intros W H Hi. destruct (moved_spec l a a' W H) as (A & B & C & D). specialize (D idx Hi). unfold getd in D.
  destruct (get_wf_some a' idx C Hi) as [v Hv].
  destruct (get_wf_some a (origin l (shp a) idx) W) as [w Hw]; [apply (origin_reorients l _ A); rewrite <- B; exact Hi|].
  rewrite Hv, Hw in *. congruence.
Qed.

Lemma binary_moved l a a' lo hi b : wf a -> moved l a = Ok a' -> is_colour (shp a) = false -> is_colour (shp a') = false ->
  get_binary a lo hi = Ok b -> exists b', get_binary a' lo hi = Ok b' /\ wf b /\ wf b' /\ shp b = shp a /\ shp b' = shp a' /\
    follows l b b' /\ Permutation (dat b') (dat b).
Proof.
  intros W H Hc Hc' E. destruct (moved_spec l a a' W H) as (A & B & C & D). unfold get_binary in *. rewrite Hc in E. rewrite Hc'. cbn [bind] in *.
  rewrite !(percentile_same (dat a') (dat a)) by (apply (moved_perm l); assumption).
  destruct (percentile (dat a) lo) as [x|e]; [|discriminate]. cbn [bind] in *. destruct (percentile (dat a) hi) as [y|e]; [|discriminate]. cbn [bind] in *.
  apply (f_equal (fun z => match z with Ok v => v | Err _ => b end)) in E. cbv beta iota in E. subst b. eexists. split; [reflexivity|].
  split; [apply wf_amap, W|]. split; [apply wf_amap, C|]. split; [reflexivity|]. split; [reflexivity|]. split.
  - split; [exact B|]. intros idx Hi. cbn [shp amap] in *. rewrite !get_amap, (get_moved l a a') by assumption. reflexivity.
  - cbn [dat amap]. apply Permutation_map, (moved_perm l); assumption.
Qed.

Lemma binary_err l a a' lo hi e : wf a -> moved l a = Ok a' -> is_colour (shp a) = false -> is_colour (shp a') = false ->
  get_binary a lo hi = Err e -> get_binary a' lo hi = Err e.
Proof.
  intros W H Hc Hc' E. unfold get_binary in *. rewrite Hc in E. rewrite Hc'. cbn [bind] in *.
  rewrite !(percentile_same (dat a') (dat a)) by (apply (moved_perm l); assumption).
  destruct (percentile (dat a) lo) as [x|e']; [|exact E]. cbn [bind] in *. destruct (percentile (dat a) hi) as [y|e']; [discriminate|exact E].
Qed.

Lemma existsb_perm {A} (f : A -> bool) l l' : Permutation l l' -> existsb f l = existsb f l'.
Proof.
  intros H. apply Bool.eq_iff_eq_true. rewrite !existsb_exists.
  split; intros (x & Hx & Fx); exists x; (split; [|exact Fx]); [apply (Permutation_in _ H)|apply (Permutation_in _ (Permutation_sym H))]; exact Hx.
Qed.

Lemma value_present (x : arr bool) v : wf x -> (exists i, get x i = Some v) <-> In v (dat x).
Proof.
  intros Wx. split.
  - intros (i & Hi). unfold get in Hi. destruct (inb (shp x) i); [|discriminate]. eapply nth_error_In, Hi.
  - intros Hin. apply In_nth_error in Hin as [k Hk]. assert (Hlt : (k < size (shp x))%nat).
    { rewrite <- Wx. apply nth_error_Some. congruence. }
    destruct (ravel_surj _ k Hlt) as (i & Hi & <-). exists i. unfold get. rewrite Hi. exact Hk.
Qed.

(** On greyscale images it fails together. *)
Lemma find_err nobg it kind b b' : wf b -> wf b' -> grey (shp b) -> grey (shp b') -> Permutation (dat b') (dat b) ->
  (find_largest_region nobg b it kind = Err ValueError /\ find_largest_region nobg b' it kind = Err ValueError) \/
  (exists c r g c' r' g', find_largest_region nobg b it kind = Ok (c, r, g) /\ find_largest_region nobg b' it kind = Ok (c', r', g')).
Proof.
  intros W W' Hg Hg' P.
  destruct (existsb (fun x => x) (dat b) && existsb negb (dat b)) eqn:E.
  - right. apply andb_true_iff in E as [E1 E2].
    assert (T : In true (dat b)) by (apply existsb_exists in E1 as (u & Hu & Eu); subst u; exact Hu).
    assert (F : In false (dat b)) by (apply existsb_exists in E2 as (u & Hu & Eu); apply negb_true_iff in Eu; subst u; exact Hu).
    destruct (proj2 (proj1 (C68_defined nobg b it kind W))) as [[[c r] g] E].
    { split; [exact Hg|]. split; apply value_present; assumption. }
    destruct (proj2 (proj1 (C68_defined nobg b' it kind W'))) as [[[c' r'] g'] E'].
    { split; [exact Hg'|]. split; (apply value_present; [exact W'|]); apply (Permutation_in _ (Permutation_sym P)); assumption. }
    exists c, r, g, c', r', g'. split; assumption.
  - left. unfold find_largest_region. rewrite !(existsb_perm _ (dat b') (dat b)) by exact P. rewrite E. split; reflexivity.
Qed.
