(** Properties C47, C48, C67, C68, C69, C70, C84: regions of the no-reference metrics and block
    extraction (utils/misc.py). *)
From Coq Require Import Reals Psatz Sorting.Sorted Sorting.Permutation.
From Verif Require Import Base NdArray LoadModel LoadProofs NormModel NormProofs PairModel RealSums
  SsimModel SsimProofs MadModel MadLoopProofs MadProofs RegionModel NrModel RegionProofs RegionFindProofs.

(** A greyscale image as far as the region helpers are concerned. *)
Definition grey (s : list nat) : Prop := length s = 2 \/ (length s = 3 /\ 3 < last s 0).

Lemma grey_flags s : grey s -> is_colour s = false /\ ((length s =? 2) = true \/ (length s =? 2) = false /\ grey3 s = true).
Proof.
  unfold is_colour, grey3. intros [H|[H L]]; rewrite H; cbn [Nat.eqb].
  - split; [reflexivity|left; reflexivity].
  - split; [apply Nat.eqb_neq; lia|right; split; [reflexivity|apply Nat.ltb_lt; exact L]].
Qed.

Lemma to_cubic_grey {A} (a : arr A) c r : grey (shp a) -> length c = length (shp a) ->
  to_cubic a c r = Ok (masked a (in_box (shp a) c r)).
Proof.
  intros Hg Hl. unfold to_cubic. destruct (grey_flags _ Hg) as [F1 F2]. rewrite F1.
  destruct Hg as [H|[H L]]; rewrite Hl, H in *; cbn in F2 |- *; [reflexivity|].
  destruct F2 as [|[_ F2]]; [discriminate|]. rewrite F2. reflexivity.
Qed.

Lemma to_spherical_grey {A} (a : arr A) c r : grey (shp a) -> wf a -> length c = length (shp a) ->
  to_spherical a c r = Ok (masked a (fun idx => (dist_sq c idx <=? r ^ 2)%Z)).
Proof.
  intros Hg Hw Hl. unfold to_spherical. destruct (grey_flags _ Hg) as [F1 F2]. rewrite F1.
  destruct Hg as [H|[H L]]; rewrite Hl, H in *; cbn in F2 |- *.
  - f_equal. apply masked_ext. intros idx Hin. apply inb_length in Hin.
    destruct idx as [|i [|j [|k idx]]]; cbn [length] in Hin; try lia; reflexivity.
  - destruct F2 as [|[_ F2]]; [discriminate|]. rewrite F2. reflexivity.
Qed.

(** ** C47 *)

Lemma F2_length {A B} (P : A -> B -> Prop) l l' : Forall2 P l l' -> length l = length l'.
Proof. induction 1; cbn; congruence. Qed.

Lemma widths_inside s : forall c r, (0 <= r)%Z -> Forall2 (fun z n => r <= z <= Z.of_nat n - r)%Z c s ->
  widths s c r = Z.to_nat (2 * r) ^ length s.
Proof.
  induction s as [|n s IH]; intros c r Hr H; inversion H as [|z n' c' s' Hz Hc]; subst; [reflexivity|].
  cbn [widths length Nat.pow]. rewrite axis_count_inside by lia. rewrite IH by assumption. reflexivity.
Qed.

(** Centres at least [r] away from both borders: the cubic region keeps exactly the voxels with
    c - r <= i < c + r on every axis. *)
Theorem C47_cubic : forall A (a : arr A) c r, wf a -> grey (shp a) -> (0 <= r)%Z ->
  Forall2 (fun z n => r <= z <= Z.of_nat n - r)%Z c (shp a) ->
  exists m, to_cubic a c r = Ok m /\ shp m = shp a /\
    (forall idx v, get a idx = Some v ->
       (Forall2 (fun z i => z - r <= Z.of_nat i < z + r)%Z c idx /\ get m idx = Some (Some v)) \/
       (~ Forall2 (fun z i => z - r <= Z.of_nat i < z + r)%Z c idx /\ get m idx = Some None)) /\
    length (somes (dat m)) = Z.to_nat (2 * r) ^ length (shp a).
Proof.
  intros A a c r Hwf Hg Hr Hc. exists (masked a (in_box (shp a) c r)).
  split; [apply to_cubic_grey; [exact Hg|eapply F2_length; exact Hc]|].
  destruct (masked_spec a (in_box (shp a) c r) Hwf) as (S1 & _ & S3). split; [exact S1|]. split.
  - intros idx v Hv. rewrite S3, Hv. pose proof (get_inb _ _ _ Hv) as Hin.
    pose proof (in_box_iff (shp a) c r idx Hr Hc Hin) as I. destruct (in_box (shp a) c r idx).
    + left. split; [apply I; reflexivity|reflexivity].
    + right. split; [|reflexivity]. intros F. apply I in F. discriminate.
  - rewrite count_masked by exact Hwf. rewrite count_box. apply widths_inside; assumption.
Qed.
Print Assumptions C47_cubic.

(** Squared Euclidean distance of a voxel from a centre. *)
Definition sqdist (idx : list nat) (c : list Z) : Z :=
  fold_right Z.add 0%Z (map (fun p => ((Z.of_nat (fst p) - snd p) * (Z.of_nat (fst p) - snd p))%Z) (combine idx c)).

Lemma dist_sq_eq idx : forall c, dist_sq c idx = sqdist idx c.
Proof.
  induction idx as [|i idx IH]; intros [|z c]; try reflexivity.
  cbn [dist_sq]. rewrite IH. unfold sqdist. cbn [combine map fold_right fst snd]. ring.
Qed.

Theorem C47_spherical : forall A (a : arr A) c r, wf a -> grey (shp a) -> length c = length (shp a) ->
  exists m, to_spherical a c r = Ok m /\ shp m = shp a /\
    forall idx v, get a idx = Some v ->
      ((sqdist idx c <= r * r)%Z /\ get m idx = Some (Some v)) \/ ((r * r < sqdist idx c)%Z /\ get m idx = Some None).
Proof.
  intros A a c r Hwf Hg Hl. eexists. split; [apply to_spherical_grey; assumption|].
  destruct (masked_spec a (fun idx => (dist_sq c idx <=? r ^ 2)%Z) Hwf) as (S1 & _ & S3). split; [exact S1|].
  intros idx v Hv. rewrite S3, Hv, dist_sq_eq. replace (r ^ 2)%Z with (r * r)%Z by ring.
  destruct (Z.leb_spec (sqdist idx c) (r * r)); [left|right]; split; try lia; reflexivity.
Qed.
Print Assumptions C47_spherical.

(** Colour images: the same disc in every channel. *)
Theorem C47_spherical_colour : forall A (a : arr A) H W y x r, wf a -> shp a = [H; W; 3] ->
  exists m, to_spherical a [y; x] r = Ok m /\ shp m = shp a /\
    forall i j k v, get a [i; j; k] = Some v ->
      ((sqdist [i; j] [y; x] <= r * r)%Z /\ get m [i; j; k] = Some (Some v)) \/
      ((r * r < sqdist [i; j] [y; x])%Z /\ get m [i; j; k] = Some None).
Proof.
  intros A a H W y x r Hwf Hs. unfold to_spherical. rewrite Hs. cbn.
  set (f := fun idx => (dist_sq [y; x] (firstn 2 idx) <=? r ^ 2)%Z).
  exists (masked a f). split; [reflexivity|]. destruct (masked_spec a f Hwf) as (S1 & _ & S3).
  split; [rewrite S1; exact Hs|]. intros i j k v Hv. rewrite S3, Hv. 
  assert (E : f [i; j; k] = (sqdist [i; j] [y; x] <=? r * r)%Z).
  { unfold f. cbn [firstn]. rewrite dist_sq_eq. replace (r ^ 2)%Z with (r * r)%Z by ring. reflexivity. }
  rewrite E. destruct (Z.leb_spec (sqdist [i; j] [y; x]) (r * r)); [left|right]; split; try assumption; reflexivity.
Qed.
Print Assumptions C47_spherical_colour.

Example C47_ex_cubic : match to_cubic (Arr [4; 4] (seq 0 16)) [1; 2]%Z 1 with
  | Ok m => somes (dat m) = [1; 2; 5; 6] | Err _ => False end.
Proof. reflexivity. Qed.
Example C47_ex_sphere : match to_spherical (Arr [4; 4] (seq 0 16)) [1; 2]%Z 1 with
  | Ok m => somes (dat m) = [2; 5; 6; 7; 10] | Err _ => False end.
Proof. reflexivity. Qed.
Example C47_ex_hyp : Forall2 (fun z n => 1 <= z <= Z.of_nat n - 1)%Z [1; 2]%Z [4; 4] /\ grey [4; 4].
Proof. split; [repeat constructor; lia|left; reflexivity]. Qed.

(** ** C48 *)

(** Integer centres and an integer radius: the check compares absolute values only. *)
Theorem C48_check : forall zs r,
  (Forall (fun z => r <= Z.abs z)%Z zs /\ check_border (map CInt zs) (RInt r) = Ok zs) \/
  (~ Forall (fun z => r <= Z.abs z)%Z zs /\ check_border (map CInt zs) (RInt r) = Err ValueError).
Proof.
  induction zs as [|z zs IH]; intros r.
  - left. split; [constructor|reflexivity].
  - cbn [map check_border]. destruct (Z.ltb_spec (Z.abs z - r) 0) as [H|H]; cbn [raise_if bind].
    + right. split; [|reflexivity]. intros F. inversion F; lia.
    + destruct (IH r) as [[F E]|[F E]]; rewrite E; cbn [bind].
      * left. split; [constructor; [lia|exact F]|reflexivity].
      * right. split; [|reflexivity]. intros G. inversion G. contradiction.
Qed.
Print Assumptions C48_check.

(** Not an integer: TypeError at the first such coordinate, unless an earlier one is too close. *)
Theorem C48_types : forall zs rest r, Forall (fun z => r <= Z.abs z)%Z zs ->
  check_border (map CInt zs ++ COther :: rest) (RInt r) = Err TypeError.
Proof.
  induction zs as [|z zs IH]; intros rest r H; [reflexivity|]. inversion H; subst. cbn [map app check_border].
  destruct (Z.ltb_spec (Z.abs z - r) 0); [lia|]. cbn [raise_if bind]. rewrite IH by assumption. reflexivity.
Qed.
Print Assumptions C48_types.

(** Which positions of an axis of length [n] belong to the region: positive coordinates as
    intended, negative ones counted from the end of the axis. *)
Definition covers (n : nat) (z r : Z) (i : nat) : Prop :=
  (0 <= z /\ z - r <= Z.of_nat i < z + r)%Z \/
  (z < - r /\ Z.of_nat n + z - r <= Z.of_nat i < Z.of_nat n + z + r)%Z.
Inductive covers_all : list nat -> list Z -> Z -> list nat -> Prop :=
| cov_nil r : covers_all [] [] r []
| cov_cons n s z c r i idx : covers n z r i -> covers_all s c r idx -> covers_all (n :: s) (z :: c) r (i :: idx).

Lemma in_box_covers s : forall c r idx, (0 <= r)%Z -> length c = length s -> Forall (fun z => r <= Z.abs z)%Z c -> inb s idx = true ->
  in_box s c r idx = true <-> covers_all s c r idx.
Proof.
  induction s as [|n s IH]; intros [|z c] r [|i idx] Hr Hl Hc Hin; try discriminate.
  - split; [constructor|reflexivity].
  - cbn [inb] in Hin. apply andb_true_iff in Hin as [Hi Hin]. apply Nat.ltb_lt in Hi. inversion Hc; subst.
    cbn [in_box]. rewrite andb_true_iff, in_slice_spec by assumption. fold (covers n z r i).
    rewrite IH by (assumption || (cbn in Hl; lia)). split.
    + intros [A B]. constructor; assumption.
    + intros H. inversion H; subst. tauto.
Qed.

Theorem C48_region : forall A (a : arr A) c r, wf a -> grey (shp a) -> length c = length (shp a) -> (0 <= r)%Z ->
  Forall (fun z => r <= Z.abs z)%Z c ->
  exists m, to_cubic a c r = Ok m /\ forall idx v, get a idx = Some v ->
    (covers_all (shp a) c r idx /\ get m idx = Some (Some v)) \/ (~ covers_all (shp a) c r idx /\ get m idx = Some None).
Proof.
  intros A a c r Hwf Hg Hl Hr Hc. exists (masked a (in_box (shp a) c r)).
  split; [apply to_cubic_grey; assumption|]. destruct (masked_spec a (in_box (shp a) c r) Hwf) as (_ & _ & S3).
  intros idx v Hv. rewrite S3, Hv. pose proof (in_box_covers (shp a) c r idx Hr Hl Hc (get_inb _ _ _ Hv)) as I.
  destruct (in_box (shp a) c r idx).
  - left. split; [apply I; reflexivity|reflexivity].
  - right. split; [|reflexivity]. intros F. apply I in F. discriminate.
Qed.
Print Assumptions C48_region.

(** Some coordinate beyond the image (on either side), or exactly minus the radius: accepted, but
    the region is empty. *)
Theorem C48_empty : forall A (a : arr A) c r k, wf a -> grey (shp a) -> length c = length (shp a) -> (0 <= r)%Z ->
  Forall (fun z => r <= Z.abs z)%Z c -> k < length c ->
  (Z.of_nat (nth k (shp a) 0%nat) + r <= nth k c 0 \/ nth k c 0 <= - (Z.of_nat (nth k (shp a) 0%nat) + r) \/
   (0 < r /\ nth k c 0 = - r))%Z ->
  exists m, check_border (map CInt c) (RInt r) = Ok c /\ to_cubic a c r = Ok m /\ somes (dat m) = [].
Proof.
  intros A a c r k Hwf Hg Hl Hr Hc Hk H. exists (masked a (in_box (shp a) c r)).
  split; [destruct (C48_check c r) as [[_ E]|[F _]]; [exact E|contradiction]|].
  split; [apply to_cubic_grey; assumption|]. apply length_zero_iff_nil.
  rewrite count_masked by exact Hwf. rewrite length_zero_iff_nil.
  assert (N : forall idx, In idx (indices (shp a)) -> in_box (shp a) c r idx = false).
  { intros idx Hin. apply in_indices in Hin. destruct (in_box (shp a) c r idx) eqn:E; [|reflexivity].
    apply in_box_covers in E; try assumption. exfalso. clear - E Hk H Hin Hr.
    revert k Hk H. induction E as [|n s z c r i idx Hcov Hall IH]; intros k Hk H; [cbn in Hk; lia|].
    cbn [inb] in Hin. apply andb_true_iff in Hin as [Hi Hin]. apply Nat.ltb_lt in Hi. destruct k as [|k].
    - cbn [nth] in H. unfold covers in Hcov. lia.
    - apply (IH Hr Hin k); [cbn in Hk; lia|exact H]. }
  clear - N. induction (indices (shp a)) as [|i l IH]; [reflexivity|]. cbn [filter].
  rewrite N by (left; reflexivity). apply IH. intros idx H. apply N. right. exact H.
Qed.
Print Assumptions C48_empty.

(** A coordinate inside the image but close to its upper border: fewer than 2r positions. *)
Theorem C48_truncated : forall n z r, (0 < r)%Z -> (r <= z)%Z -> (Z.of_nat n - r < z < Z.of_nat n + r)%Z ->
  length (filter (in_slice n z r) (seq 0 n)) = Z.to_nat (Z.of_nat n - (z - r)) /\
  (0 < Z.of_nat n - (z - r) < 2 * r)%Z.
Proof.
  intros n z r Hr Hz Hn. rewrite axis_count. unfold clip.
  destruct (Z.ltb_spec (z - r) 0); destruct (Z.ltb_spec (z + r) 0); lia.
Qed.
Print Assumptions C48_truncated.

Example C48_ex_beyond : check_border [CInt 100; CInt 2] (RInt 1) = Ok [100; 2]%Z /\
  match to_cubic (Arr [4; 4] (seq 0 16)) [100; 2]%Z 1 with Ok m => somes (dat m) = [] | Err _ => False end.
Proof. split; reflexivity. Qed.
Example C48_ex_negative : check_border [CInt (-2); CInt 2] (RInt 1) = Ok [-2; 2]%Z /\
  match to_cubic (Arr [4; 4] (seq 0 16)) [-2; 2]%Z 1 with Ok m => somes (dat m) = [5; 6; 9; 10] | Err _ => False end.
Proof. split; reflexivity. Qed.
Example C48_ex_cut : match to_cubic (Arr [4; 4] (seq 0 16)) [4; 2]%Z 1 with Ok m => somes (dat m) = [13; 14] | Err _ => False end.
Proof. reflexivity. Qed.

(** ** C67 *)

Definition row_major (p q : nat * nat) : Prop := fst p < fst q \/ (fst p = fst q /\ snd p < snd q).

Lemma sorted_steps stop s : 0 < s -> StronglySorted lt (steps stop s).
Proof.
  intros Hs. unfold steps. generalize ((stop + s - 1) / s) as k. intros k.
  assert (G : forall k i, StronglySorted lt (map (fun k => k * s) (seq i k))).
  { clear k. induction k as [|k IH]; intros i; cbn [seq map]; [constructor|]. constructor; [apply IH|].
    apply Forall_forall. intros x Hx. apply in_map_iff in Hx as (y & <- & Hy). apply in_seq in Hy.
    apply Nat.mul_lt_mono_pos_r; lia. }
  apply G.
Qed.

Lemma sorted_app {A} (P : A -> A -> Prop) l1 l2 : StronglySorted P l1 -> StronglySorted P l2 ->
  (forall x y, In x l1 -> In y l2 -> P x y) -> StronglySorted P (l1 ++ l2).
Proof.
  induction 1 as [|x l H1 IH Hx]; intros H2 H; [exact H2|]. cbn [app]. constructor.
  - apply IH; [exact H2|]. intros a b Ha Hb. apply H; [right; exact Ha|exact Hb].
  - apply Forall_app. split; [exact Hx|]. apply Forall_forall. intros y Hy. apply H; [left; reflexivity|exact Hy].
Qed.

Lemma sorted_grid rows cols : StronglySorted lt rows -> StronglySorted lt cols -> StronglySorted row_major (grid rows cols).
Proof.
  intros Hr Hc. unfold grid. induction Hr as [|i rows Hr IH Hi]; [constructor|]. cbn [flat_map].
  apply sorted_app; [|exact IH|].
  - clear - Hc. induction Hc as [|j cols Hc IH Hj]; [constructor|]. cbn [map]. constructor; [exact IH|].
    apply Forall_forall. intros p Hp. apply in_map_iff in Hp as (k & <- & Hk). right. cbn. split; [reflexivity|].
    rewrite Forall_forall in Hj. apply Hj. exact Hk.
  - intros p q Hp Hq. apply in_map_iff in Hp as (k & <- & _). apply in_flat_map in Hq as (i' & Hi' & Hq).
    apply in_map_iff in Hq as (k' & <- & _). left. cbn. rewrite Forall_forall in Hi. apply Hi. exact Hi'.
Qed.

(** The blocks are those of the corners at multiples of the stride that fit, in row-major order. *)
Theorem C67_blocks : forall img b s m n, shp img = [m; n] -> 0 < s -> 0 < b ->
  exists blocks corners, extract_blocks img b s = Ok blocks /\ length blocks = length corners /\
    (forall i j, In (i, j) corners <-> (exists k, i = k * s) /\ (exists l, j = l * s) /\ i + b <= m /\ j + b <= n) /\
    StronglySorted row_major corners /\
    forall t i j, nth_error corners t = Some (i, j) -> exists bl, nth_error blocks t = Some bl /\ shp bl = [b; b] /\
      forall u v, u < b -> v < b -> getd bl [u; v] = getd img [i + u; j + v].
Proof.
  intros img b s m n Hsh Hs Hb. unfold extract_blocks. rewrite Hsh. cbn [length Nat.eqb].
  unfold dim0, dim1. rewrite Hsh. cbn [nth].
  assert (C : forall i j, In (i, j) (block_grid m n b s) <-> (exists k, i = k * s) /\ (exists l, j = l * s) /\ i + b <= m /\ j + b <= n).
  { intros i j. unfold block_grid. rewrite in_grid, !in_steps by exact Hs. cbn [fst snd]. split.
    - intros [(k & Hk & Hk2) (l & Hl & Hl2)]. split; [exists k; exact Hk|]. split; [exists l; exact Hl|]. lia.
    - intros ((k & Hk) & (l & Hl) & H1 & H2). split; [exists k|exists l]; lia. }
  exists (map (block img b) (block_grid m n b s)), (block_grid m n b s).
  split; [reflexivity|]. split; [apply map_length|]. split; [exact C|]. split.
  - apply sorted_grid; apply sorted_steps; exact Hs.
  - intros t i j Ht. rewrite nth_error_map, Ht. cbn [option_map]. eexists. split; [reflexivity|].
    apply nth_error_In in Ht. apply C in Ht as (_ & _ & H1 & H2).
    unfold block, dim0, dim1. rewrite Hsh. cbn [nth fst snd shp tabulate].
    split; [f_equal; [lia|]; f_equal; lia|].
    intros u v Hu Hv. rewrite getd_tab; [reflexivity|]. cbn [inb]. rewrite !andb_true_iff. repeat split; try apply Nat.ltb_lt; lia.
Qed.
Print Assumptions C67_blocks.

(** Not two-dimensional: unpacking the shape fails. *)
Theorem C67_dims : forall img b s, length (shp img) <> 2 -> extract_blocks img b s = Err ValueError.
Proof. intros img b s H. unfold extract_blocks. apply Nat.eqb_neq in H. rewrite H. reflexivity. Qed.
Print Assumptions C67_dims.

Example C67_ex : exists l, extract_blocks (Arr [3; 4] (map INR (seq 0 12))) 2 2 = Ok l /\ length l = 2.
Proof. eexists. split; reflexivity. Qed.

(** ** C68 *)

(** City-block distance. *)
Definition city (a b : list nat) : nat :=
  fold_right plus 0 (map (fun p => Nat.max (fst p) (snd p) - Nat.min (fst p) (snd p)) (combine a b)).
Lemma city_l1 a : forall b, city a b = l1 a b.
Proof.
  induction a as [|i a IH]; intros [|j b]; try reflexivity. unfold city in *. cbn [combine map fold_right fst snd l1].
  rewrite IH. unfold absd. lia.
Qed.

(** [iterations] >= 1. A voxel belongs to the cleaned image iff it is further than [iterations]
    from the border of the image and every voxel within city-block distance [iterations] + 1 has a
    voxel of the binary image within distance [iterations]. *)
Theorem C68_cleaned : forall m it idx, inb (shp m) idx = true -> 0 < it ->
  get (cleaned (Z.of_nat it) m) idx = Some true <->
  (forall k, k < length (shp m) -> it + 1 <= nth k idx 0 /\ nth k idx 0 + (it + 1) < nth k (shp m) 0) /\
  (forall j, inb (shp m) j = true -> city idx j <= it + 1 -> exists t, get m t = Some true /\ city j t <= it).
Proof.
  intros m it idx Hin Hit.
  assert (A : forall (x : arr bool) i, get x i = Some true <-> at_ x i = true).
  { intros x i. unfold at_. destruct (get x i) as [[|]|]; split; congruence. }
  rewrite A. unfold cleaned, erosion, dilation, repeats. rewrite !shp_dilate.
  destruct (Z.ltb_spec (Z.of_nat it + 1) 1); [lia|]. destruct (Z.ltb_spec (Z.of_nat it) 1); [lia|].
  replace (Z.to_nat (Z.of_nat it + 1)) with (it + 1) by lia. rewrite Nat2Z.id.
  rewrite erode_spec by (rewrite shp_dilate; exact Hin). rewrite shp_dilate. unfold margin.
  split; intros [H1 H2]; (split; [exact H1|]); intros j Hj Hl.
  - rewrite city_l1 in Hl. specialize (H2 j Hj Hl). apply dilate_spec in H2 as (t & Ht & Hd); [|exact Hj].
    exists t. split; [apply A; exact Ht|]. rewrite city_l1. exact Hd.
  - rewrite <- city_l1 in Hl. destruct (H2 j Hj Hl) as (t & Ht & Hd). apply dilate_spec; [exact Hj|].
    exists t. split; [apply A; exact Ht|]. rewrite <- city_l1. exact Hd.
Qed.
Print Assumptions C68_cleaned.

Definition sqgap (a b : list nat) : Z := sqdist a (map Z.of_nat b).
Lemma gap_eq a : forall b, Z.of_nat (gap_sq a b) = sqgap a b.
Proof.
  induction a as [|i a IH]; intros [|j b]; try reflexivity. cbn [gap_sq]. rewrite Nat2Z.inj_add, IH.
  unfold sqgap, sqdist. cbn [map combine fold_right fst snd].
  destruct (Nat.leb_spec i j); rewrite Nat2Z.inj_mul, Nat2Z.inj_sub by lia; ring.
Qed.

Lemma background_exists it m idx : inb (shp m) idx = true -> 0 < length (shp m) -> exists j, In j (background (cleaned it m)).
Proof.
  intros Hin Hl. exists (upd idx 0 0). apply in_background. rewrite shp_cleaned.
  assert (Hin' : inb (shp m) (upd idx 0 0) = true).
  { apply inb_upd; [exact Hin|]. pose proof (inb_nth _ _ 0 Hin Hl). lia. }
  split; [exact Hin'|]. apply (cleaned_border it m _ 0 Hin' Hl). left.
  apply nth_upd_same. apply inb_length in Hin. lia.
Qed.

Lemma first_occurrence (c : list nat) (l : list (list nat)) k0 : nth_error l k0 = Some c ->
  exists k, nth_error l k = Some c /\ forall k', k' < k -> nth_error l k' <> Some c.
Proof.
  revert k0. induction l as [|x l IH]; intros k0 H; [destruct k0; discriminate|].
  destruct (list_eq_dec Nat.eq_dec x c) as [->|Hx].
  - exists 0. split; [reflexivity|]. intros k' Hk'. lia.
  - destruct k0 as [|k0]; [cbn in H; congruence|]. destruct (IH k0 H) as (k & Hk & Hf). exists (S k).
    split; [exact Hk|]. intros [|k'] Hk'; [cbn; congruence|]. apply Hf. lia.
Qed.

Lemma argmax_first f s c : argmax_idx f (indices s) = Some c ->
  inb s c = true /\ (forall idx, inb s idx = true -> f idx <= f c) /\
  (forall idx, inb s idx = true -> ravel s idx < ravel s c -> f idx < f c).
Proof.
  unfold argmax_idx. destruct (indices s) as [|x l] eqn:E; [discriminate|]. intros H. injection H as <-.
  destruct (argmax_spec f l x) as (A & B & C). cbv zeta in *. set (c := fold_left (argmax_step f) l x) in *.
  rewrite <- E in A, B, C. apply in_indices in A. split; [exact A|]. split.
  - intros idx Hin. apply (B (ravel s idx)). apply nth_error_indices. exact Hin.
  - intros idx Hin Hlt. apply (C (ravel s idx) (ravel s c)); [apply nth_error_indices; exact Hin|apply nth_error_indices; exact A| |exact Hlt].
    intros k' Hk' Hc. assert (K : k' < size s) by (rewrite <- length_indices; apply nth_error_Some; congruence).
    destruct (ravel_surj s k' K) as (i & Hi & Ri). pose proof (nth_error_indices s i Hi) as N. rewrite Ri, Hc in N.
    injection N as ->. lia.
Qed.

Lemma find_ok nobg m it kind centre radius reg : wf m ->
  find_largest_region nobg m it kind = Ok (centre, radius, reg) ->
  grey (shp m) /\ argmax_idx (edt_sq nobg (cleaned it m)) (indices (shp m)) = Some centre /\
  radius = Nat.sqrt (edt_sq nobg (cleaned it m) centre) /\ reg = (match kind with KOriginal => m | _ => cleaned it m end) /\
  (exists idx, get m idx = Some true) /\ (exists idx, get m idx = Some false).
Proof.
  intros Hwf. unfold find_largest_region.
  destruct (existsb (fun b => b) (dat m)) eqn:E1; [|discriminate]. destruct (existsb negb (dat m)) eqn:E2; [|discriminate]. cbn [andb negb].
  destruct (is_colour (shp m)) eqn:Hc; [discriminate|].
  destruct ((length (shp m) =? 2) || grey3 (shp m)) eqn:Hg; [|discriminate].
  rewrite shp_cleaned. destruct (argmax_idx _ _) as [c|] eqn:Ea; [|discriminate].
  intros H.
  assert (G : (c, Nat.sqrt (edt_sq nobg (cleaned it m) c), match kind with KOriginal => m | _ => cleaned it m end) = (centre, radius, reg)).
  { destruct kind; cbn [bind] in H; try (injection H as <- <- <-; reflexivity).
    - destruct (to_cubic _ _ _); cbn [bind] in H; [injection H as <- <- <-; reflexivity|discriminate].
    - destruct (to_spherical _ _ _); cbn [bind] in H; [injection H as <- <- <-; reflexivity|discriminate]. }
  injection G as <- <- <-. split.
  { apply orb_true_iff in Hg as [Hg|Hg]; [left; apply Nat.eqb_eq; exact Hg|right].
    unfold grey3 in Hg. apply andb_true_iff in Hg as [A B]. split; [apply Nat.eqb_eq; exact A|apply Nat.ltb_lt; exact B]. }
  split; [reflexivity|]. split; [reflexivity|]. split; [reflexivity|].
  assert (X : forall b, In b (dat m) -> exists idx, get m idx = Some b).
  { intros b Hb. apply In_nth_error in Hb as [n Hn]. 
    assert (K : n < size (shp m)) by (rewrite <- Hwf; apply nth_error_Some; congruence).
    destruct (ravel_surj (shp m) n K) as (i & Hi & Ri). exists i. unfold get. rewrite Hi, Ri. exact Hn. }
  split.
  - apply existsb_exists in E1 as (b & Hb & Eb). subst b. apply X. exact Hb.
  - apply existsb_exists in E2 as (b & Hb & Eb). apply negb_true_iff in Eb. subst b. apply X. exact Hb.
Qed.

(** Centre and radius: the first voxel (row-major) whose nearest False voxel of the cleaned image is
    furthest away, and that distance rounded down; the cleaned image is true within the radius. *)
Theorem C68_centre : forall nobg m it kind centre radius reg, wf m ->
  find_largest_region nobg m it kind = Ok (centre, radius, reg) ->
  inb (shp m) centre = true /\
  exists near, get (cleaned it m) near = Some false /\
    (Z.of_nat radius * Z.of_nat radius <= sqgap centre near < (Z.of_nat radius + 1) * (Z.of_nat radius + 1))%Z /\
    (forall j, get (cleaned it m) j = Some false -> (sqgap centre near <= sqgap centre j)%Z) /\
    (forall idx, inb (shp m) idx = true -> exists j, get (cleaned it m) j = Some false /\
       (sqgap idx j <= sqgap centre near)%Z /\
       (ravel (shp m) idx < ravel (shp m) centre -> (sqgap idx j < sqgap centre near)%Z)) /\
    (forall idx, inb (shp m) idx = true -> (sqgap centre idx < Z.of_nat radius * Z.of_nat radius)%Z ->
       get (cleaned it m) idx = Some true).
Proof.
  intros nobg m it kind centre radius reg Hwf H. apply find_ok in H as (Hg & Ha & Hr & _ & _); [|exact Hwf].
  set (c := cleaned it m) in *. assert (Sc : shp c = shp m) by apply shp_cleaned. assert (Wc : wf c) by (apply cleaned_wf; exact Hwf).
  assert (L : 0 < length (shp m)) by (destruct Hg as [E|[E _]]; rewrite E; lia).
  destruct (argmax_first _ _ _ Ha) as (A & B & C). split; [exact A|].
  destruct (background_exists it m centre A L) as [j0 Hj0]. fold c in Hj0.
  assert (BG : forall j, get c j = Some false <-> In j (background c)).
  { intros j. rewrite in_background. unfold at_. split.
    - intros E. rewrite E. split; [eapply get_inb; exact E|reflexivity].
    - intros [E1 E2]. destruct (get_wf_some c j Wc E1) as [v Hv]. rewrite Hv in *. rewrite E2. reflexivity. }
  destruct (edt_spec nobg c centre j0 Hj0) as (E1 & near & E2 & E3). exists near.
  split; [apply BG; exact E2|]. pose proof (Nat.sqrt_spec (edt_sq nobg c centre) (Nat.le_0_l _)) as Q. rewrite <- Hr, E3 in Q.
  rewrite <- !gap_eq. split; [|split; [|split]].
  - split; [rewrite <- Nat2Z.inj_mul; lia|]. replace (Z.of_nat radius + 1)%Z with (Z.of_nat (S radius)) by lia.
    rewrite <- Nat2Z.inj_mul. lia.
  - intros j Hj. apply BG in Hj. rewrite <- gap_eq. specialize (E1 j Hj). lia.
  - intros idx Hin. destruct (edt_spec nobg c idx j0 Hj0) as (_ & j & F2 & F3). exists j. rewrite <- gap_eq.
    split; [apply BG; exact F2|]. specialize (B idx Hin). specialize (C idx Hin). split; [lia|]. intros Hlt. specialize (C Hlt). lia.
  - intros idx Hin Hd. rewrite <- gap_eq in Hd. rewrite <- Sc in Hin. destruct (get_wf_some c idx Wc Hin) as [[|] Hv]; [exact Hv|].
    apply BG in Hv. specialize (E1 idx Hv). exfalso. rewrite <- Nat2Z.inj_mul in Hd. lia.
Qed.
Print Assumptions C68_centre.

(** The data handed back with centre and radius: the binary image for "original", otherwise the
    cleaned image. *)
Theorem C68_region : forall nobg m it kind centre radius reg, wf m ->
  find_largest_region nobg m it kind = Ok (centre, radius, reg) ->
  (kind = KOriginal /\ reg = m) \/ (kind <> KOriginal /\ reg = cleaned it m).
Proof.
  intros nobg m it kind centre radius reg Hwf H. apply find_ok in H as (_ & _ & _ & -> & _); [|exact Hwf].
  destruct kind; ((left; split; reflexivity) || (right; split; [discriminate|reflexivity])).
Qed.
Print Assumptions C68_region.

(** It succeeds exactly for greyscale binary images with both values; constant images: ValueError. *)
Theorem C68_defined : forall nobg m it kind, wf m ->
  ((exists r, find_largest_region nobg m it kind = Ok r) <->
   grey (shp m) /\ (exists i, get m i = Some true) /\ (exists i, get m i = Some false)) /\
  ((forall i j u v, get m i = Some u -> get m j = Some v -> u = v) -> find_largest_region nobg m it kind = Err ValueError).
Proof.
  intros nobg m it kind Hwf. split; [split|].
  - intros [[[centre radius] reg] H]. apply find_ok in H as (Hg & _ & _ & _ & H); [|exact Hwf]. split; assumption.
  - intros (Hg & (i & Hi) & (j & Hj)). unfold find_largest_region.
    assert (E1 : existsb (fun b => b) (dat m) = true).
    { apply existsb_exists. exists true. split; [|reflexivity]. pose proof (get_inb _ _ _ Hi) as Hin. unfold get in Hi. rewrite Hin in Hi. eapply nth_error_In; exact Hi. }
    assert (E2 : existsb negb (dat m) = true).
    { apply existsb_exists. exists false. split; [|reflexivity]. pose proof (get_inb _ _ _ Hj) as Hin. unfold get in Hj. rewrite Hin in Hj. eapply nth_error_In; exact Hj. }
    rewrite E1, E2. cbn [andb negb]. destruct (grey_flags _ Hg) as [F1 F2]. rewrite F1.
    assert (F3 : (length (shp m) =? 2) || grey3 (shp m) = true) by (apply orb_true_iff; tauto). rewrite F3, shp_cleaned.
    destruct (argmax_idx _ _) as [c|] eqn:Ea.
    + pose proof (argmax_first _ _ _ Ea) as (A & _ & _). apply inb_length in A.
      destruct kind; cbn [bind]; try (eexists; reflexivity).
      * rewrite to_cubic_grey; [eexists; reflexivity|rewrite shp_cleaned; exact Hg|rewrite shp_cleaned, map_length; exact A].
      * rewrite to_spherical_grey; [eexists; reflexivity|rewrite shp_cleaned; exact Hg|apply cleaned_wf; exact Hwf|rewrite shp_cleaned, map_length; exact A].
    + exfalso. unfold argmax_idx in Ea. destruct (indices (shp m)) as [|x l] eqn:Ei; [|discriminate].
      apply get_inb in Hi. apply in_indices in Hi. rewrite Ei in Hi. destruct Hi.
  - intros H. unfold find_largest_region.
    destruct (existsb (fun b => b) (dat m)) eqn:E1; [|reflexivity]. destruct (existsb negb (dat m)) eqn:E2; [|reflexivity].
    exfalso. apply existsb_exists in E1 as (u & Hu & Eu). apply existsb_exists in E2 as (v & Hv & Ev).
    assert (X : forall b, In b (dat m) -> exists idx, get m idx = Some b).
    { intros b Hb. apply In_nth_error in Hb as [n Hn].
      assert (K : n < size (shp m)) by (rewrite <- Hwf; apply nth_error_Some; congruence).
      destruct (ravel_surj (shp m) n K) as (i & Hi & Ri). exists i. unfold get. rewrite Hi, Ri. exact Hn. }
    destruct (X u Hu) as [i Hi]. destruct (X v Hv) as [j Hj]. specialize (H i j u v Hi Hj). subst u v. discriminate.
Qed.
Print Assumptions C68_defined.

Example C68_ex : exists reg, find_largest_region (fun _ _ => 0)
  (tabulate [7; 7] (fun idx => (1 <=? nth 0 idx 0) && (nth 0 idx 0 <=? 5) && (1 <=? nth 1 idx 0) && (nth 1 idx 0 <=? 5))) 1 KCubic
  = Ok ([3; 3], 2, reg).
Proof. eexists. vm_compute. reflexivity. Qed.
Example C68_ex_constant : find_largest_region (fun _ _ => 0) (Arr [2; 2] [true; true; true; true]) 1 KCubic = Err ValueError.
Proof. reflexivity. Qed.

(** ** C84 *)

(** Found regions lie inside the image with all of their cube and ball, and the border check of the
    metrics accepts them. *)
Theorem C84_inside : forall nobg m it kind centre radius reg, wf m ->
  find_largest_region nobg m it kind = Ok (centre, radius, reg) ->
  (forall k, k < length (shp m) -> radius <= nth k centre 0 /\ nth k centre 0 + radius + 1 <= nth k (shp m) 0) /\
  forall r, r <= radius ->
    check_border (map (fun n => CInt (Z.of_nat n)) centre) (RInt (Z.of_nat r)) = Ok (map Z.of_nat centre).
Proof.
  intros nobg m it kind centre radius reg Hwf H.
  destruct (C68_centre _ _ _ _ _ _ _ Hwf H) as (A & near & _ & R & N & _).
  pose proof (inb_length _ _ A) as Hl.
  assert (G : forall s x k v, inb s x = true -> k < length s -> sqgap x (upd x k v) = ((Z.of_nat (nth k x 0%nat) - Z.of_nat v) * (Z.of_nat (nth k x 0%nat) - Z.of_nat v))%Z).
  { assert (Z0 : forall x, sqgap x x = 0%Z).
    { unfold sqgap, sqdist. induction x as [|i x IH]; [reflexivity|]. cbn [map combine fold_right fst snd]. rewrite IH. ring. }
    induction s as [|n s IH]; intros [|i x] k v Hx Hk; try discriminate; [cbn in Hk; lia|].
    cbn [inb] in Hx. apply andb_true_iff in Hx as [_ Hx]. destruct k as [|k].
    - specialize (Z0 x). unfold sqgap, sqdist in *. cbn [upd map combine fold_right fst snd nth]. rewrite Z0. ring.
    - specialize (IH x k v Hx ltac:(cbn in Hk; lia)). unfold sqgap, sqdist in *. cbn [upd map combine fold_right fst snd nth]. rewrite IH. ring. }
  assert (M : forall k, k < length (shp m) -> radius <= nth k centre 0 /\ nth k centre 0 + radius + 1 <= nth k (shp m) 0).
  { intros k Hk. pose proof (inb_nth _ _ k A Hk) as Hlt.
    assert (B : forall v, v < nth k (shp m) 0 -> (v = 0 \/ v + 1 = nth k (shp m) 0) ->
                (Z.of_nat radius * Z.of_nat radius <= (Z.of_nat (nth k centre 0%nat) - Z.of_nat v) * (Z.of_nat (nth k centre 0%nat) - Z.of_nat v))%Z).
    { intros v Hv Hb. assert (Hin : inb (shp m) (upd centre k v) = true) by (apply inb_upd; assumption).
      rewrite <- (G (shp m) centre k v A Hk). etransitivity; [apply R|]. apply N.
      assert (F : at_ (cleaned it m) (upd centre k v) = false).
      { apply (cleaned_border it m _ k Hin Hk). rewrite nth_upd_same by lia. lia. }
      assert (Hin' : inb (shp (cleaned it m)) (upd centre k v) = true) by (rewrite shp_cleaned; exact Hin).
      destruct (get_wf_some _ _ (cleaned_wf it m Hwf) Hin') as [b Hb']. unfold at_ in F. rewrite Hb' in *. rewrite F. reflexivity. }
    pose proof (B 0 ltac:(lia) ltac:(lia)) as B0. pose proof (B (nth k (shp m) 0 - 1) ltac:(lia) ltac:(lia)) as B1.
    rewrite Nat2Z.inj_sub in B1 by lia. split.
    - apply Z.square_le_simpl_nonneg in B0; lia.
    - assert (Z.of_nat radius <= Z.of_nat (nth k (shp m) 0%nat) - 1 - Z.of_nat (nth k centre 0%nat))%Z; [|lia].
      apply Z.square_le_simpl_nonneg; [lia|]. etransitivity; [exact B1|]. apply Z.eq_le_incl. change (Z.of_nat 1) with 1%Z. ring. }
  split; [exact M|]. intros r Hr.
  replace (map (fun n => CInt (Z.of_nat n)) centre) with (map CInt (map Z.of_nat centre)) by (rewrite map_map; reflexivity).
  destruct (C48_check (map Z.of_nat centre) (Z.of_nat r)) as [[_ E]|[F _]]; [exact E|]. exfalso. apply F.
  apply Forall_forall. intros z Hz. apply in_map_iff in Hz as (n & <- & Hn). apply In_nth with (d := 0) in Hn as (k & Hk & <-).
  specialize (M k ltac:(lia)). lia.
Qed.
Print Assumptions C84_inside.

(** The radius is 0 exactly if cleaning removed everything. *)
Theorem C84_radius : forall nobg m it kind centre radius reg, wf m ->
  find_largest_region nobg m it kind = Ok (centre, radius, reg) ->
  (radius = 0 <-> forall idx, get (cleaned it m) idx <> Some true).
Proof.
  intros nobg m it kind centre radius reg Hwf H. destruct (C68_centre _ _ _ _ _ _ _ Hwf H) as (A & near & Hn & R & N & X & _).
  assert (P : forall a s b, inb s a = true -> inb s b = true -> (0 <= sqgap a b /\ (sqgap a b < 1 -> a = b))%Z).
  { clear. unfold sqgap, sqdist. induction a as [|i a IH]; intros [|n s] [|j b] Ha Hb; try discriminate.
    - cbn. split; [lia|reflexivity].
    - cbn [inb] in Ha, Hb. apply andb_true_iff in Ha as [_ Ha]. apply andb_true_iff in Hb as [_ Hb].
      destruct (IH s b Ha Hb) as [I1 I2]. cbn [map combine fold_right fst snd].
      match type of I1 with (0 <= ?t)%Z => set (q := t) in * end. clearbody q.
      pose proof (Z.square_nonneg (Z.of_nat i - Z.of_nat j)) as Q. split; [lia|].
      intros Hq. rewrite I2 by lia. f_equal. nia. }
  assert (Sc : forall idx v, get (cleaned it m) idx = Some v -> inb (shp m) idx = true).
  { intros idx v Hv. apply get_inb in Hv. rewrite shp_cleaned in Hv. exact Hv. }
  split.
  - intros -> idx Hidx. pose proof (Sc _ _ Hidx) as Hin.
    destruct (X idx Hin) as (j & Hj & Hle & _). assert (idx = j).
    { apply (P idx (shp m) j Hin (Sc _ _ Hj)). cbn in R. lia. }
    subst j. congruence.
  - intros E. assert (Hc : get (cleaned it m) centre = Some false).
    { assert (Hin : inb (shp (cleaned it m)) centre = true) by (rewrite shp_cleaned; exact A).
      destruct (get_wf_some _ _ (cleaned_wf it m Hwf) Hin) as [[|] Hb]; [exfalso; exact (E _ Hb)|exact Hb]. }
    specialize (N centre Hc). assert (Z0 : sqgap centre centre = 0%Z).
    { clear. unfold sqgap, sqdist. induction centre as [|i x IH]; [reflexivity|]. cbn [map combine fold_right fst snd]. rewrite IH. ring. }
    nia.
Qed.
Print Assumptions C84_radius.

(** With at least one iteration, axes shorter than 2 * iterations + 3 leave nothing. *)
Theorem C84_small : forall m it k idx, k < length (shp m) -> 0 < it -> nth k (shp m) 0 < 2 * it + 3 ->
  get (cleaned (Z.of_nat it) m) idx <> Some true.
Proof.
  intros m it k idx Hk Hit Hn H. pose proof (get_inb _ _ _ H) as Hin. rewrite shp_cleaned in Hin.
  apply (C68_cleaned m it idx Hin Hit) in H as [H _]. specialize (H k Hk). lia.
Qed.
Print Assumptions C84_small.

Example C84_ex : exists reg, find_largest_region (fun _ _ => 0) (tabulate [4; 4] (fun idx => 1 <=? nth 0 idx 0)) 1 KCubic = Ok ([0; 0], 0, reg).
Proof. eexists. vm_compute. reflexivity. Qed.

(** ** C69 *)

Lemma snoc_inv (s : list nat) : s <> [] -> s = removelast s ++ [last s 0].
Proof. intros H. apply app_removelast_last. exact H. Qed.

Lemma inb_snoc s n p i : length s = length p -> inb (s ++ [n]) (p ++ [i]) = inb s p && (i <? n).
Proof.
  revert p. induction s as [|d s IH]; intros [|j p] H; try discriminate; cbn [app inb].
  - rewrite andb_true_r. reflexivity.
  - rewrite IH by (cbn in H; lia). rewrite andb_assoc. reflexivity.
Qed.

Lemma yuv_get a s : wf a -> shp a = s ++ [3] -> exists y, rgb_to_yuv a = Ok y /\ shp y = shp a /\ wf y /\
  forall p c r g b, c < 3 -> get a (p ++ [0]) = Some r -> get a (p ++ [1]) = Some g -> get a (p ++ [2]) = Some b ->
    get y (p ++ [c]) = Some (r * weight 0 c + g * weight 1 c + b * weight 2 c)%R.
Proof.
  intros Hwf Hs. unfold rgb_to_yuv. replace (last (shp a) 0) with 3 by (rewrite Hs, last_last; reflexivity). cbn [Nat.eqb].
  set (f := fun idx : list nat => _).
  assert (T : exists l, mapM f (indices (shp a)) = Ok l).
  { apply mapM_ok. intros idx Hin. apply in_indices in Hin. unfold f.
    assert (Hne : idx <> []). { intros ->. apply inb_length in Hin. rewrite Hs, app_length in Hin. cbn in Hin. lia. }
    assert (Hl : length s = length (removelast idx)).
    { apply inb_length in Hin. rewrite (snoc_inv idx Hne), Hs, !app_length in Hin. cbn in Hin. lia. }
    rewrite (snoc_inv idx Hne), Hs in Hin. rewrite inb_snoc in Hin by exact Hl. apply andb_true_iff in Hin as [Hp _].
    assert (G : forall c, c < 3 -> exists v, get a (removelast idx ++ [c]) = Some v).
    { intros c Hc. apply get_wf_some; [exact Hwf|]. rewrite Hs, inb_snoc by exact Hl. rewrite Hp. apply Nat.ltb_lt. exact Hc. }
    destruct (G 0 ltac:(lia)) as [v0 E0]. destruct (G 1 ltac:(lia)) as [v1 E1]. destruct (G 2 ltac:(lia)) as [v2 E2].
    rewrite E0, E1, E2. cbn. eexists. reflexivity. }
  destruct T as [l Hl]. rewrite Hl. cbn [bind]. exists (Arr (shp a) l). split; [reflexivity|]. split; [reflexivity|].
  pose proof (mapM_length _ _ _ Hl) as Ll. rewrite length_indices in Ll. split; [unfold wf; cbn [shp dat]; exact Ll|].
  intros p c r g b Hc E0 E1 E2.
  assert (Hlp : length s = length p).
  { apply get_inb in E0. apply inb_length in E0. rewrite Hs, !app_length in E0. cbn in E0. lia. }
  assert (Hin : inb (shp a) (p ++ [c]) = true).
  { apply get_inb in E0. rewrite Hs, inb_snoc in E0 |- * by exact Hlp. apply andb_true_iff in E0 as [-> _]. apply Nat.ltb_lt. exact Hc. }
  unfold get. cbn [shp dat]. rewrite Hin. pose proof (nth_error_indices _ _ Hin) as N.
  destruct (mapM_nth _ _ _ _ _ Hl N) as (v & Hv & Fv). rewrite Hv. f_equal. unfold f in Fv.
  rewrite removelast_last, last_last, E0, E1, E2 in Fv. cbn in Fv. injection Fv as <-. reflexivity.
Qed.

(** A row vector times the matrix: the columns, not the rows, of the documented matrix. *)
Theorem C69_transposed : forall a s, wf a -> shp a = s ++ [3] -> exists y, rgb_to_yuv a = Ok y /\ shp y = shp a /\
  forall p r g b, get a (p ++ [0]) = Some r -> get a (p ++ [1]) = Some g -> get a (p ++ [2]) = Some b ->
    get y (p ++ [0]) = Some (0.2126 * r - 0.09991 * g + 0.615 * b)%R /\
    get y (p ++ [1]) = Some (0.7152 * r - 0.33609 * g - 0.55861 * b)%R /\
    get y (p ++ [2]) = Some (0.0722 * r + 0.436 * g - 0.05639 * b)%R.
Proof.
  intros a s Hwf Hs. destruct (yuv_get a s Hwf Hs) as (y & E & S & _ & G). exists y. split; [exact E|]. split; [exact S|].
  intros p r g b H0 H1 H2. rewrite (G p 0 r g b), (G p 1 r g b), (G p 2 r g b) by (assumption || lia).
  unfold weight, yuv_weights. cbn [nth]. split; [|split]; f_equal; lra.
Qed.
Print Assumptions C69_transposed.

(** Grey pixels: 0.72769 g instead of g, and non-zero chroma. *)
Theorem C69_grey : forall a s y p g, wf a -> shp a = s ++ [3] -> rgb_to_yuv a = Ok y ->
  get a (p ++ [0]) = Some g -> get a (p ++ [1]) = Some g -> get a (p ++ [2]) = Some g ->
  exists u v, get y (p ++ [0]) = Some (0.72769 * g)%R /\ get y (p ++ [1]) = Some u /\ get y (p ++ [2]) = Some v /\
    (g <> 0 -> 0.72769 * g <> g /\ u <> 0 /\ v <> 0)%R.
Proof.
  intros a s y p g Hwf Hs E H0 H1 H2. destruct (C69_transposed a s Hwf Hs) as (y' & E' & _ & G).
  rewrite E in E'. injection E' as <-. destruct (G p g g g H0 H1 H2) as (G0 & G1 & G2).
  exists (- (0.1795) * g)%R, (0.45181 * g)%R. rewrite G0, G1, G2. repeat split; try (f_equal; lra); lra.
Qed.
Print Assumptions C69_grey.

(** Linear in the image. *)
Theorem C69_linear : forall a b c s ya yb yc (al be : R), wf a -> wf b -> wf c ->
  shp a = s ++ [3] -> shp b = shp a -> shp c = shp a ->
  (forall idx u v, get a idx = Some u -> get b idx = Some v -> get c idx = Some (al * u + be * v)%R) ->
  rgb_to_yuv a = Ok ya -> rgb_to_yuv b = Ok yb -> rgb_to_yuv c = Ok yc ->
  forall idx u v, get ya idx = Some u -> get yb idx = Some v -> get yc idx = Some (al * u + be * v)%R.
Proof.
  intros a b c s ya yb yc al be Wa Wb Wc Sa Sb Sc HL Ea Eb Ec idx u v Hu Hv.
  destruct (yuv_get a s Wa Sa) as (y1 & E1 & S1 & _ & G1). rewrite Ea in E1. injection E1 as <-.
  destruct (yuv_get b s Wb ltac:(congruence)) as (y2 & E2 & S2 & _ & G2). rewrite Eb in E2. injection E2 as <-.
  destruct (yuv_get c s Wc ltac:(congruence)) as (y3 & E3 & S3 & _ & G3). rewrite Ec in E3. injection E3 as <-.
  pose proof (get_inb _ _ _ Hu) as Hin. rewrite S1, Sa in Hin.
  assert (Hne : idx <> []). { intros ->. apply inb_length in Hin. rewrite app_length in Hin. cbn in Hin. lia. }
  rewrite (snoc_inv idx Hne) in *. set (p := removelast idx) in *. set (k := last idx 0) in *.
  assert (Hl : length s = length p). { apply inb_length in Hin. rewrite !app_length in Hin. cbn in Hin. lia. }
  rewrite inb_snoc in Hin by exact Hl. apply andb_true_iff in Hin as [Hp Hk]. apply Nat.ltb_lt in Hk.
  assert (IA : forall x, x < 3 -> inb (shp a) (p ++ [x]) = true).
  { intros x Hx. rewrite Sa, inb_snoc by exact Hl. rewrite Hp. apply Nat.ltb_lt. exact Hx. }
  assert (GA : forall x, x < 3 -> exists w, get a (p ++ [x]) = Some w) by (intros x Hx; apply get_wf_some; [exact Wa|apply IA; exact Hx]).
  assert (GB : forall x, x < 3 -> exists w, get b (p ++ [x]) = Some w) by (intros x Hx; apply get_wf_some; [exact Wb|rewrite Sb; apply IA; exact Hx]).
  destruct (GA 0 ltac:(lia)) as [a0 A0]. destruct (GA 1 ltac:(lia)) as [a1 A1]. destruct (GA 2 ltac:(lia)) as [a2 A2].
  destruct (GB 0 ltac:(lia)) as [b0 B0]. destruct (GB 1 ltac:(lia)) as [b1 B1]. destruct (GB 2 ltac:(lia)) as [b2 B2].
  rewrite (G1 p k a0 a1 a2 Hk A0 A1 A2) in Hu. rewrite (G2 p k b0 b1 b2 Hk B0 B1 B2) in Hv.
  injection Hu as <-. injection Hv as <-.
  rewrite (G3 p k _ _ _ Hk (HL _ _ _ A0 B0) (HL _ _ _ A1 B1) (HL _ _ _ A2 B2)). f_equal. ring.
Qed.
Print Assumptions C69_linear.

Example C69_ex : match rgb_to_yuv (Arr [1; 1; 3] [100; 100; 100]%R) with
  | Ok y => get y [0; 0; 0] = Some (72.769)%R | Err _ => False end.
Proof. cbn. f_equal. unfold weight, yuv_weights. cbn [nth]. lra. Qed.

(** ** C70 *)

Lemma sorted_unique l : forall l', StronglySorted Rle l -> StronglySorted Rle l' -> Permutation l l' -> l = l'.
Proof.
  induction l as [|x l IH]; intros l' H H' P.
  - apply Permutation_nil in P. congruence.
  - destruct l' as [|y l']; [apply Permutation_sym, Permutation_nil in P; discriminate|].
    inversion H as [|? ? Hl Hx]; subst. inversion H' as [|? ? Hl' Hy]; subst.
    rewrite Forall_forall in Hx, Hy. assert (E : x = y).
    { assert (I1 : In x (y :: l')) by (eapply Permutation_in; [exact P|left; reflexivity]).
      assert (I2 : In y (x :: l)) by (eapply Permutation_in; [symmetry; exact P|left; reflexivity]).
      destruct I1 as [->|I1]; [reflexivity|]. destruct I2 as [->|I2]; [reflexivity|].
      apply Rle_antisym; [apply Hx; exact I2|apply Hy; exact I1]. }
    subst y. f_equal. apply IH; [exact Hl|exact Hl'|]. eapply Permutation_cons_inv. exact P.
Qed.

Lemma sorted_strong l : sorted l -> StronglySorted Rle l.
Proof.
  induction l as [|x l IH]; intros H; [constructor|]. apply sorted_tl in H as [H1 H2]. constructor; [apply IH; exact H1|].
  apply Forall_forall. exact H2.
Qed.

(** The percentile is numpy's: linear interpolation between neighbours in sorted order. *)
Theorem C70_percentile : forall l s q, l <> [] -> (0 <= q <= 100)%R -> Permutation l s -> StronglySorted Rle s ->
  exists i t v x y, percentile l q = Ok v /\ (q / 100 * (INR (length l) - 1) = INR i + t)%R /\ (0 <= t < 1)%R /\
    nth_error s i = Some x /\ (nth_error s (S i) = Some y \/ t = 0%R) /\ v = (x + t * (y - x))%R.
Proof.
  intros l s q Hl Hq P Ss. rewrite percentile_eq by assumption.
  assert (E : sortR l = s).
  { apply sorted_unique; [apply sorted_strong, sortR_sorted|exact Ss|]. rewrite <- sortR_perm. exact P. }
  rewrite E. set (v := (q / 100 * INR (length l - 1))%R). set (i := Z.to_nat (Int_part v)).
  assert (Ln : 1 <= length l) by (destruct l; [contradiction|cbn; lia]).
  assert (Ls : length s = length l) by (symmetry; apply Permutation_length; exact P).
  assert (Hv : (0 <= v <= INR (length l - 1))%R).
  { pose proof (pos_INR (length l - 1)). unfold v. split.
    - apply Rmult_le_pos; [lra|assumption].
    - rewrite <- (Rmult_1_l (INR (length l - 1))) at 2. apply Rmult_le_compat_r; lra. }
  destruct (floor_nat v ltac:(lra)) as [F1 F2]. fold i in F1, F2.
  assert (Hi : i <= length l - 1). { apply INR_le. lra. }
  exists i, (v - INR i)%R, (interp s v), (nth i s 0%R), (nth (S i) s (nth i s 0%R)).
  split; [reflexivity|]. split; [unfold v; rewrite minus_INR by exact Ln; cbn [INR]; lra|]. split; [lra|].
  split; [apply nth_error_nth'; lia|]. split.
  - destruct (Nat.eq_dec i (length l - 1)) as [Q|Q].
    + right. rewrite Q in *. lra.
    + left. apply nth_error_nth'. lia.
  - unfold interp. fold i. reflexivity.
Qed.
Print Assumptions C70_percentile.

Lemma get_binary_grey img lo hi m : is_colour (shp img) = false -> get_binary img lo hi = Ok m ->
  exists p q, percentile (dat img) lo = Ok p /\ percentile (dat img) hi = Ok q /\ shp m = shp img /\
    forall idx x, get img idx = Some x ->
      (get m idx = Some true /\ (p < x <= q)%R) \/ (get m idx = Some false /\ ~ (p < x <= q)%R).
Proof.
  intros Hc. unfold get_binary. rewrite Hc. cbn [bind].
  destruct (percentile (dat img) lo) as [p|e]; [|discriminate]. cbn [bind].
  destruct (percentile (dat img) hi) as [q|e]; [|discriminate]. cbn [bind]. intros H. injection H as <-.
  exists p, q. repeat split. intros idx x Hx. rewrite get_amap, Hx. cbn [option_map].
  destruct (Rlt_dec p x) as [H1|H1]; destruct (Rle_dec x q) as [H2|H2]; cbn [andb];
    [left; split; [reflexivity|lra]|right; split; [reflexivity|lra]..].
Qed.

(** The binary image: strictly above the lower and not above the upper percentile. *)
Theorem C70_band : forall img lo hi p q, is_colour (shp img) = false ->
  percentile (dat img) lo = Ok p -> percentile (dat img) hi = Ok q ->
  exists m, get_binary img lo hi = Ok m /\ shp m = shp img /\
    forall idx x, get img idx = Some x -> (get m idx = Some true <-> p < x <= q)%R.
Proof.
  intros img lo hi p q Hc Hp Hq. assert (E : exists m, get_binary img lo hi = Ok m).
  { unfold get_binary. rewrite Hc. cbn [bind]. rewrite Hp, Hq. cbn [bind]. eexists. reflexivity. }
  destruct E as [m E]. destruct (get_binary_grey img lo hi m Hc E) as (p' & q' & Ep & Eq & S & G).
  rewrite Hp in Ep. injection Ep as <-. rewrite Hq in Eq. injection Eq as <-.
  exists m. split; [exact E|]. split; [exact S|]. intros idx x Hx.
  destruct (G idx x Hx) as [[-> H]|[-> H]]; split; intros K; try assumption; try reflexivity; [discriminate|contradiction].
Qed.
Print Assumptions C70_band.

(** Adjacent bands: disjoint, and together the band from the lowest to the highest percentile. *)
Theorem C70_adjacent : forall img lo mid hi a b, is_colour (shp img) = false -> (lo <= mid <= hi)%R ->
  get_binary img lo mid = Ok a -> get_binary img mid hi = Ok b ->
  exists c, get_binary img lo hi = Ok c /\ forall idx x, get img idx = Some x ->
    ~ (get a idx = Some true /\ get b idx = Some true) /\
    (get c idx = Some true <-> get a idx = Some true \/ get b idx = Some true).
Proof.
  intros img lo mid hi a b Hc Hle Ea Eb.
  destruct (get_binary_grey img lo mid a Hc Ea) as (p & q & Ep & Eq & _ & Ga).
  destruct (get_binary_grey img mid hi b Hc Eb) as (q' & r & Eq' & Er & _ & Gb).
  rewrite Eq in Eq'. injection Eq' as <-.
  destruct (C70_band img lo hi p r Hc Ep Er) as (c & Ec & _ & Gc). exists c. split; [exact Ec|].
  pose proof (percentile_mono _ _ _ _ _ (proj1 Hle) Ep Eq) as M1. pose proof (percentile_mono _ _ _ _ _ (proj2 Hle) Eq Er) as M2.
  intros idx x Hx. rewrite (Gc idx x Hx). destruct (Ga idx x Hx) as [[-> H1]|[-> H1]]; destruct (Gb idx x Hx) as [[-> H2]|[-> H2]].
  - exfalso. lra.
  - split; [intros [_ K]; discriminate|]. split; [intros _; left; reflexivity|intros _; lra].
  - split; [intros [K _]; discriminate|]. split; [intros _; right; reflexivity|intros _; lra].
  - split; [intros [K _]; discriminate|]. split; [|intros [K|K]; discriminate].
    intros K. exfalso. destruct (Rle_dec x q) as [Q|Q]; [apply H1; lra|apply H2; lra].
Qed.
Print Assumptions C70_adjacent.

(** The whole range: every pixel above the minimum. Upper percentile 100: every maximal pixel,
    unless it equals the lower percentile. *)
Theorem C70_top : forall img lo m p, is_colour (shp img) = false -> percentile (dat img) lo = Ok p ->
  get_binary img lo 100 = Ok m ->
  (forall idx x, get img idx = Some x -> (get m idx = Some true <-> p < x)%R) /\
  (forall idx x, get img idx = Some x -> (forall y, In y (dat img) -> (y <= x)%R) -> (get m idx = Some true <-> x <> p)) /\
  (lo = 0%R -> forall idx x, get img idx = Some x -> (get m idx = Some true <-> exists y, In y (dat img) /\ (y < x)%R)).
Proof.
  intros img lo m p Hc Hp Em. destruct (get_binary_grey img lo 100 m Hc Em) as (p' & q & Ep & Eq & _ & G).
  rewrite Hp in Ep. injection Ep as <-. destruct (percentile_100 _ _ Eq) as [Q1 Q2].
  assert (IN : forall idx x, get img idx = Some x -> In x (dat img)).
  { intros idx x Hx. pose proof (get_inb _ _ _ Hx) as Hin. unfold get in Hx. rewrite Hin in Hx. eapply nth_error_In; exact Hx. }
  assert (A : forall idx x, get img idx = Some x -> (get m idx = Some true <-> p < x)%R).
  { intros idx x Hx. pose proof (Q2 x (IN _ _ Hx)). destruct (G idx x Hx) as [[-> H1]|[-> H1]]; split; intros K; try lra; try reflexivity; try discriminate; exfalso; lra. }
  assert (B : (lo <= 100)%R). { unfold percentile in Hp. destruct (Rlt_dec lo 0); [discriminate|]. destruct (Rlt_dec 100 lo); [discriminate|]. lra. }
  pose proof (percentile_mono _ _ _ _ _ B Hp Eq) as M.
  split; [exact A|]. split.
  - intros idx x Hx Hmax. rewrite (A idx x Hx). pose proof (Hmax q Q1). split; [lra|]. intros K. destruct (Rtotal_order p x) as [H1|[H1|H1]]; [exact H1|congruence|lra].
  - intros -> idx x Hx. rewrite (A idx x Hx). destruct (percentile_0 _ _ Hp) as [P1 P2]. split.
    + intros K. exists p. split; assumption.
    + intros (y & Hy & K). specialize (P2 y Hy). lra.
Qed.
Print Assumptions C70_top.

(** Colour images are converted to grey first. *)
Theorem C70_colour : forall img g lo hi, is_colour (shp img) = true -> to_grayscale img = Ok g ->
  get_binary img lo hi = get_binary g lo hi.
Proof.
  intros img g lo hi Hc Hg. unfold get_binary. rewrite Hc, Hg. cbn [bind].
  assert (F : is_colour (shp g) = false).
  { unfold to_grayscale in Hg. destruct (mapM _ _) as [l|e]; [|discriminate]. cbn [bind] in Hg. injection Hg as <-. cbn [shp].
    unfold is_colour in Hc |- *. apply andb_true_iff in Hc as [Hc _]. apply Nat.eqb_eq in Hc.
    destruct (shp img) as [|a [|b [|c [|d s]]]]; try discriminate. reflexivity. }
  rewrite F. reflexivity.
Qed.
Print Assumptions C70_colour.

Example C70_ex : match get_binary (Arr [1; 2] [1; 3]%R) 50 100 with Ok m => dat m = [false; true] | Err _ => False end.
Proof.
  unfold get_binary. cbn [is_colour shp length Nat.eqb andb bind]. change (dat (Arr [1; 2] [1; 3]%R)) with [1; 3]%R.
  assert (S : sortR [1; 3]%R = [1; 3]%R). { cbn. destruct (Rle_dec 1 3) as [K|K]; [reflexivity|lra]. }
  rewrite !percentile_eq by (discriminate || lra). rewrite S. cbn [length Nat.sub INR bind].
  assert (E1 : interp [1; 3]%R (50 / 100 * 1) = 2%R).
  { unfold interp. rewrite (Int_part_unique (50 / 100 * 1) 0) by (cbn; lra). cbn [Z.to_nat nth INR]. lra. }
  assert (E2 : interp [1; 3]%R (100 / 100 * 1) = 3%R).
  { unfold interp. rewrite (Int_part_unique (100 / 100 * 1) 1) by (cbn; lra). change (Z.to_nat 1) with 1. cbn [nth INR]. lra. }
  rewrite E1, E2. cbn [dat amap map].
  destruct (Rlt_dec 2 1) as [K|K]; [lra|]. destruct (Rlt_dec 2 3) as [K2|K2]; [|lra]. destruct (Rle_dec 3 3) as [K3|K3]; [reflexivity|lra].
Qed.
