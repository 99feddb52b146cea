(** Lemmas about dilation, erosion, the distance transform and find_largest_region. *)
From Coq Require Import Reals Psatz.
From Verif Require Import Base NdArray LoadModel LoadProofs NormModel PairModel RealSums
  SsimProofs RegionModel.

(** ** City-block distance *)

Definition absd (i j : nat) : nat := (i - j) + (j - i).
Fixpoint l1 (a b : list nat) : nat :=
  match a, b with
  | i :: a', j :: b' => absd i j + l1 a' b'
  | _, _ => 0
  end.

Lemma l1_refl a : l1 a a = 0.
Proof. induction a as [|i a IH]; [reflexivity|]. cbn [l1]. unfold absd. lia. Qed.

Lemma l1_zero s : forall a b, inb s a = true -> inb s b = true -> l1 a b = 0 -> a = b.
Proof.
  induction s as [|n s IH]; intros [|i a] [|j b] Ha Hb H; try discriminate; [reflexivity|].
  cbn [inb] in Ha, Hb. apply andb_true_iff in Ha as [_ Ha]. apply andb_true_iff in Hb as [_ Hb].
  cbn [l1] in H. unfold absd in H. rewrite (IH a b Ha Hb) by lia. f_equal. lia.
Qed.

Lemma l1_sym a : forall b, l1 a b = l1 b a.
Proof. induction a as [|i a IH]; intros [|j b]; try reflexivity. cbn [l1]. rewrite IH. unfold absd. lia. Qed.

Lemma l1_upd s : forall a b k v, inb s a = true -> inb s b = true -> v = nth k a 0 + 1 \/ nth k a 0 = v + 1 ->
  l1 a b <= l1 (upd a k v) b + 1 /\ l1 (upd a k v) b <= l1 a b + 1.
Proof.
  induction s as [|n s IH]; intros [|i a] [|j b] k v Ha Hb H; try discriminate.
  - cbn. lia.
  - cbn [inb] in Ha, Hb. apply andb_true_iff in Ha as [_ Ha]. apply andb_true_iff in Hb as [_ Hb].
    destruct k as [|k]; cbn [upd l1 nth] in *.
    + unfold absd. lia.
    + specialize (IH a b k v Ha Hb H). lia.
Qed.

Lemma l1_towards s : forall a b d, inb s a = true -> inb s b = true -> l1 a b = S d ->
  exists k v, k < length s /\ (v = nth k a 0 + 1 \/ nth k a 0 = v + 1) /\ inb s (upd a k v) = true /\ l1 (upd a k v) b = d.
Proof.
  induction s as [|n s IH]; intros [|i a] [|j b] d Ha Hb H; try discriminate.
  pose proof Ha as Ha0. cbn [inb] in Ha, Hb. apply andb_true_iff in Ha as [Hi Ha]. apply andb_true_iff in Hb as [Hj Hb].
  cbn [l1] in H. destruct (Nat.eq_dec i j) as [->|Hij].
  - destruct (IH a b d Ha Hb) as (k & v & Hk & Hv & Hin & Hl); [unfold absd in H; lia|].
    exists (S k), v. cbn [length upd nth inb l1]. split; [lia|]. split; [exact Hv|]. split; [rewrite Hj; exact Hin|]. unfold absd. lia.
  - apply Nat.ltb_lt in Hi, Hj.
    exists 0, (if i <? j then i + 1 else i - 1). cbn [length upd nth inb l1]. split; [lia|].
    destruct (Nat.ltb_spec i j).
    + split; [lia|]. split; [rewrite Ha, andb_true_r; apply Nat.ltb_lt; lia|]. unfold absd in *. lia.
    + split; [lia|]. split; [rewrite Ha, andb_true_r; apply Nat.ltb_lt; lia|]. unfold absd in *. lia.
Qed.

(** ** Dilation and erosion *)

Lemma at_true m idx : at_ m idx = true -> inb (shp m) idx = true.
Proof. unfold at_. destruct (get m idx) as [b|] eqn:E; [intros _; eapply get_inb; exact E|discriminate]. Qed.

Lemma at_tab s f idx : inb s idx = true -> at_ (tabulate s f) idx = f idx.
Proof. intros H. unfold at_. rewrite get_tabulate by exact H. reflexivity. Qed.

Lemma shp_dilate k m : shp (Nat.iter k dilate1 m) = shp m.
Proof. induction k as [|k IH]; [reflexivity|]. cbn [Nat.iter nat_rect]. exact IH. Qed.
Lemma shp_erode k m : shp (Nat.iter k erode1 m) = shp m.
Proof. induction k as [|k IH]; [reflexivity|]. cbn [Nat.iter nat_rect]. exact IH. Qed.

Lemma before_iff m idx k : inb (shp m) idx = true -> k < length (shp m) ->
  before m idx k = true <-> exists v, nth k idx 0 = v + 1 /\ at_ m (upd idx k v) = true.
Proof.
  intros Hin Hk. unfold before. rewrite andb_true_iff, Nat.ltb_lt. split.
  - intros [H1 H2]. exists (nth k idx 0 - 1). split; [lia|exact H2].
  - intros (v & H1 & H2). split; [lia|]. rewrite H1. replace (v + 1 - 1) with v by lia. exact H2.
Qed.

Lemma nth_upd_same {A} (l : list A) k v d : k < length l -> nth k (upd l k v) d = v.
Proof. revert k; induction l as [|x l IH]; intros [|k] H; cbn in *; try lia; [reflexivity|]. apply IH. lia. Qed.
Lemma nth_upd_other {A} (l : list A) k j v d : j <> k -> nth j (upd l k v) d = nth j l d.
Proof. revert k j; induction l as [|x l IH]; intros [|k] [|j] H; cbn; try lia; try reflexivity. apply IH. lia. Qed.
Lemma length_upd {A} (l : list A) k v : length (upd l k v) = length l.
Proof. revert k; induction l as [|x l IH]; intros [|k]; cbn; try reflexivity. rewrite IH. reflexivity. Qed.

Lemma dilate_spec k m idx : inb (shp m) idx = true ->
  at_ (Nat.iter k dilate1 m) idx = true <-> exists j, at_ m j = true /\ l1 idx j <= k.
Proof.
  revert idx. induction k as [|k IH]; intros idx Hin.
  - cbn [Nat.iter nat_rect]. split.
    + intros H. exists idx. split; [exact H|]. rewrite l1_refl. lia.
    + intros (j & Hj & Hl). rewrite (l1_zero (shp m) idx j Hin (at_true _ _ Hj)) by lia. exact Hj.
  - change (Nat.iter (S k) dilate1 m) with (dilate1 (Nat.iter k dilate1 m)). set (D := Nat.iter k dilate1 m) in *.
    assert (SD : shp D = shp m) by apply shp_dilate.
    unfold dilate1. rewrite SD, at_tab by exact Hin. rewrite orb_true_iff, existsb_exists. split.
    + intros [H|(a & Ha & H)].
      * apply IH in H as (j & Hj & Hl); [|exact Hin]. exists j. split; [exact Hj|lia].
      * unfold axes in Ha. rewrite SD in Ha. apply in_seq in Ha. apply orb_true_iff in H as [H|H].
        -- apply before_iff in H as (v & Hv & H); [|rewrite SD; exact Hin|rewrite SD; lia].
           pose proof (at_true _ _ H) as Hin'. rewrite SD in Hin'. apply IH in H as (j & Hj & Hl); [|exact Hin'].
           exists j. split; [exact Hj|]. pose proof (l1_upd (shp m) idx j a v Hin (at_true _ _ Hj) (or_intror Hv)). lia.
        -- unfold after in H. pose proof (at_true _ _ H) as Hin'. rewrite SD in Hin'. apply IH in H as (j & Hj & Hl); [|exact Hin'].
           exists j. split; [exact Hj|].
           pose proof (l1_upd (shp m) idx j a (nth a idx 0 + 1) Hin (at_true _ _ Hj) (or_introl eq_refl)). lia.
    + intros (j & Hj & Hl). destruct (Nat.eq_dec (l1 idx j) (S k)) as [E|E].
      * right. destruct (l1_towards (shp m) idx j k Hin (at_true _ _ Hj) E) as (a & v & Ha & Hv & Hin' & Hl').
        exists a. split; [unfold axes; rewrite SD; apply in_seq; lia|]. apply orb_true_iff. destruct Hv as [-> |Hv].
        -- right. unfold after. apply IH; [exact Hin'|]. exists j. split; [exact Hj|lia].
        -- left. apply before_iff; [rewrite SD; exact Hin|rewrite SD; exact Ha|]. exists v. split; [exact Hv|].
           apply IH; [exact Hin'|]. exists j. split; [exact Hj|lia].
      * left. apply IH; [exact Hin|]. exists j. split; [exact Hj|lia].
Qed.

Definition margin (s idx : list nat) (k : nat) : Prop :=
  forall a, a < length s -> k <= nth a idx 0 /\ nth a idx 0 + k < nth a s 0.

Lemma erode_spec k m idx : inb (shp m) idx = true ->
  at_ (Nat.iter k erode1 m) idx = true <->
  margin (shp m) idx k /\ forall j, inb (shp m) j = true -> l1 idx j <= k -> at_ m j = true.
Proof.
  revert idx. induction k as [|k IH]; intros idx Hin.
  - cbn [Nat.iter nat_rect]. split.
    + intros H. split.
      * intros a Ha. split; [lia|]. rewrite Nat.add_0_r. apply inb_nth; assumption.
      * intros j Hj Hl. rewrite <- (l1_zero (shp m) idx j Hin Hj) by lia. exact H.
    + intros [_ H]. apply H; [exact Hin|]. rewrite l1_refl. lia.
  - change (Nat.iter (S k) erode1 m) with (erode1 (Nat.iter k erode1 m)). set (D := Nat.iter k erode1 m) in *.
    assert (SD : shp D = shp m) by apply shp_erode.
    unfold erode1. rewrite SD, at_tab by exact Hin. rewrite andb_true_iff, forallb_forall. unfold axes. rewrite SD. split.
    + intros [H0 H].
      assert (HB : forall a, a < length (shp m) -> exists v, nth a idx 0 = v + 1 /\ at_ D (upd idx a v) = true).
      { intros a Ha. specialize (H a ltac:(apply in_seq; lia)). apply andb_true_iff in H as [H _].
        apply before_iff in H; [exact H|rewrite SD; exact Hin|rewrite SD; exact Ha]. }
      assert (HA : forall a, a < length (shp m) -> at_ D (upd idx a (nth a idx 0 + 1)) = true).
      { intros a Ha. specialize (H a ltac:(apply in_seq; lia)). apply andb_true_iff in H as [_ H]. exact H. }
      pose proof (inb_length _ _ Hin) as Hlen. split.
      * intros a Ha. split.
        -- destruct (HB a Ha) as (v & Hv & Hat). pose proof (at_true _ _ Hat) as Hin'. rewrite SD in Hin'.
           apply IH in Hat as [M _]; [|exact Hin']. specialize (M a Ha). rewrite nth_upd_same in M by lia. lia.
        -- pose proof (HA a Ha) as Hat. pose proof (at_true _ _ Hat) as Hin'. rewrite SD in Hin'.
           apply IH in Hat as [M _]; [|exact Hin']. specialize (M a Ha). rewrite nth_upd_same in M by lia. lia.
      * intros j Hj Hl. destruct (Nat.eq_dec (l1 idx j) (S k)) as [E|E].
        -- destruct (l1_towards (shp m) idx j k Hin Hj E) as (a & v & Ha & Hv & Hin' & Hl').
           assert (Hat : at_ D (upd idx a v) = true).
           { destruct Hv as [-> |Hv]; [apply HA; exact Ha|]. destruct (HB a Ha) as (v' & Hv' & Hat).
             replace v with v' by lia. exact Hat. }
           apply IH in Hat as [_ M]; [|exact Hin']. apply M; [exact Hj|lia].
        -- apply IH in H0 as [_ M]; [|exact Hin]. apply M; [exact Hj|lia].
    + intros [M H]. pose proof (inb_length _ _ Hin) as Hlen.
      assert (ST : forall a v, a < length (shp m) -> v = nth a idx 0 + 1 \/ nth a idx 0 = v + 1 -> at_ D (upd idx a v) = true).
      { intros a v Ha Hv. assert (Hin' : inb (shp m) (upd idx a v) = true).
        { apply inb_upd; [exact Hin|]. specialize (M a Ha). lia. }
        apply IH; [exact Hin'|]. split.
        - intros b Hb. destruct (Nat.eq_dec b a) as [->|Hab].
          + rewrite nth_upd_same by lia. specialize (M a Ha). lia.
          + rewrite nth_upd_other by exact Hab. specialize (M b Hb). lia.
        - intros j Hj Hl. apply H; [exact Hj|]. pose proof (l1_upd (shp m) idx j a v Hin Hj Hv). lia. }
      split.
      * apply IH; [exact Hin|]. split; [intros a Ha; specialize (M a Ha); lia|]. intros j Hj Hl. apply H; [exact Hj|lia].
      * intros a Ha. apply in_seq in Ha. apply andb_true_iff. split.
        -- apply before_iff; [rewrite SD; exact Hin|rewrite SD; lia|]. specialize (M a ltac:(lia)).
           exists (nth a idx 0 - 1). split; [lia|]. apply ST; lia.
        -- unfold after. apply ST; lia.
Qed.

Lemma shp_cleaned it m : shp (cleaned it m) = shp m.
Proof. unfold cleaned, erosion, dilation. rewrite shp_erode, shp_dilate. reflexivity. Qed.

Lemma cleaned_wf it m : wf m -> wf (cleaned it m).
Proof.
  intros H. unfold cleaned, erosion, dilation.
  assert (G : forall k x, wf x -> wf (Nat.iter k erode1 x)).
  { induction k as [|k IH]; intros x Hx; [exact Hx|]. apply wf_tabulate. }
  apply G. assert (G2 : forall k x, wf x -> wf (Nat.iter k dilate1 x)).
  { induction k as [|k IH]; intros x Hx; [exact Hx|]. apply wf_tabulate. }
  apply G2. exact H.
Qed.

(** Nothing is left on the border. *)
Lemma cleaned_border it m idx a : inb (shp m) idx = true -> a < length (shp m) ->
  nth a idx 0 = 0 \/ nth a idx 0 + 1 = nth a (shp m) 0 -> at_ (cleaned it m) idx = false.
Proof.
  intros Hin Ha Hb. unfold cleaned, erosion. set (D := dilation it m).
  assert (SD : shp D = shp m) by apply shp_dilate.
  assert (R : exists k, repeats D (it + 1) = S k).
  { unfold repeats. rewrite SD. destruct (Z.ltb_spec (it + 1) 1).
    - assert (0 < size (shp m)); [|exists (size (shp m) - 1); lia]. apply ravel_lt in Hin. lia.
    - exists (Z.to_nat it). lia. }
  destruct R as [k ->]. destruct (at_ (Nat.iter (S k) erode1 D) idx) eqn:E; [|reflexivity].
  apply erode_spec in E as [M _]; [|rewrite SD; exact Hin]. rewrite SD in M. specialize (M a Ha). lia.
Qed.

(** ** The distance transform *)

Lemma fold_min_spec l : forall d, (forall x, In x (d :: l) -> fold_left Nat.min l d <= x) /\ In (fold_left Nat.min l d) (d :: l).
Proof.
  induction l as [|x l IH]; intros d; cbn [fold_left].
  - split; [intros x [->|[]]; lia|left; reflexivity].
  - destruct (IH (Nat.min d x)) as [A B]. split.
    + intros y [->|[->|Hy]].
      * specialize (A (Nat.min y x) (or_introl eq_refl)). lia.
      * specialize (A (Nat.min d y) (or_introl eq_refl)). lia.
      * apply A. right. exact Hy.
    + destruct B as [B|B]; [|right; right; exact B]. rewrite <- B. destruct (Nat.min_spec d x) as [[_ ->]|[_ ->]]; [left|right; left]; reflexivity.
Qed.

Lemma in_background m j : In j (background m) <-> inb (shp m) j = true /\ at_ m j = false.
Proof.
  unfold background. rewrite filter_In, in_indices. rewrite negb_true_iff. tauto.
Qed.

Lemma edt_spec nobg m idx j0 : In j0 (background m) ->
  (forall j, In j (background m) -> edt_sq nobg m idx <= gap_sq idx j) /\
  exists j, In j (background m) /\ edt_sq nobg m idx = gap_sq idx j.
Proof.
  intros H0. unfold edt_sq. destruct (map (gap_sq idx) (background m)) as [|d l] eqn:E.
  - apply (in_map (gap_sq idx)) in H0. rewrite E in H0. destruct H0.
  - destruct (fold_min_spec l d) as [A B]. split.
    + intros j Hj. apply A. rewrite <- E. apply in_map. exact Hj.
    + rewrite <- E in B. apply in_map_iff in B as (j & Hj & Hin). exists j. split; [exact Hin|symmetry; exact Hj].
Qed.

Lemma argmax_spec f l : forall x, 
  let c := fold_left (argmax_step f) l x in
  In c (x :: l) /\ (forall i y, nth_error (x :: l) i = Some y -> f y <= f c) /\
  (forall i k y, nth_error (x :: l) i = Some y -> nth_error (x :: l) k = Some c ->
     (forall k', k' < k -> nth_error (x :: l) k' <> Some c) -> i < k -> f y < f c).
Proof.
  induction l as [|z l IH]; intros x; cbn [fold_left].
  - split; [left; reflexivity|]. split.
    + intros [|i] y H; [injection H as <-; lia|destruct i; discriminate].
    + intros i [|k] y Hi Hk Hfirst Hlt; [lia|]. exfalso. apply (Hfirst 0); [lia|reflexivity].
  - set (w := argmax_step f x z). destruct (IH w) as (A & B & C). fold w in A, B, C. set (c := fold_left (argmax_step f) l w) in *.
    assert (Wx : f x <= f w /\ f z <= f w /\ (w = x \/ w = z /\ f x < f z)).
    { unfold w, argmax_step. destruct (Nat.ltb_spec (f x) (f z)); split; try lia; split; try lia; auto. }
    assert (Wc : f w <= f c) by (apply (B 0 w); reflexivity).
    split; [|split].
    + destruct A as [A|A]; [|right; right; exact A]. rewrite <- A. destruct Wx as (_ & _ & [->|[-> _]]); [left|right; left]; reflexivity.
    + intros [|[|i]] y H; cbn in H.
      * injection H as <-. lia.
      * injection H as <-. lia.
      * apply (B (S i) y). exact H.
    + intros i k y Hi Hk Hfirst Hlt.
      assert (N0 : x <> c). { intros E. apply (Hfirst 0); [lia|]. cbn. rewrite E. reflexivity. }
      destruct k as [|[|k]]; [lia| |].
      * cbn in Hk. injection Hk as Hk. assert (i = 0) by lia. subst i. cbn in Hi. injection Hi as <-.
        destruct Wx as (W1 & W2 & [E|[E W3]]); [|rewrite <- Hk; exact W3].
        destruct (Nat.eq_dec (f x) (f c)) as [Q|Q]; [|lia].
        exfalso. destruct A as [A|A]; [congruence|].
        apply In_nth_error in A as [p Hp].
        (* c occurs later than w = x but has the same value: the fold would have kept x *)
        assert (X : exists k0, nth_error (w :: l) k0 = Some c /\ (forall k', k' < k0 -> nth_error (w :: l) k' <> Some c)).
        { clear - Hp. assert (G : exists k0, nth_error (w :: l) k0 = Some c) by (exists (S p); exact Hp).
          destruct G as [k0 Hk0]. revert Hk0. induction k0 as [k0 IHk] using lt_wf_ind. intros Hk0.
          destruct (existsb (fun k' => match nth_error (w :: l) k' with Some q => if list_eq_dec Nat.eq_dec q c then true else false | None => false end) (seq 0 k0)) eqn:Ex.
          - apply existsb_exists in Ex as (k' & Hk' & Hq). apply in_seq in Hk'. destruct (nth_error (w :: l) k') as [q|] eqn:Eq; [|discriminate].
            destruct (list_eq_dec Nat.eq_dec q c) as [->|]; [|discriminate]. apply (IHk k'); [lia|exact Eq].
          - exists k0. split; [exact Hk0|]. intros k' Hk' Hq.
            assert (T : existsb (fun k' => match nth_error (w :: l) k' with Some q => if list_eq_dec Nat.eq_dec q c then true else false | None => false end) (seq 0 k0) = true).
            { apply existsb_exists. exists k'. split; [apply in_seq; lia|]. rewrite Hq. destruct (list_eq_dec Nat.eq_dec c c); [reflexivity|contradiction]. }
            congruence. }
        destruct X as (k0 & Hk0 & Hf). destruct k0 as [|k0].
        -- cbn in Hk0. injection Hk0 as Hk0. congruence.
        -- specialize (C 0 (S k0) w eq_refl Hk0 Hf ltac:(lia)). rewrite E in C. lia.
      * (* position k+2 in x :: z :: l is position k+1 in w :: l *)
        assert (Hkc : nth_error (w :: l) (S k) = Some c) by exact Hk.
        assert (Nz : z <> c). { intros E. apply (Hfirst 1); [lia|]. cbn. rewrite E. reflexivity. }
        assert (Nw : w <> c). { destruct Wx as (_ & _ & [->|[-> _]]); assumption. }
        assert (F2 : forall k', k' < S k -> nth_error (w :: l) k' <> Some c).
        { intros [|k'] Hk' E; [cbn in E; injection E as E; contradiction|]. apply (Hfirst (S (S k'))); [lia|exact E]. }
        assert (Cw : f w < f c) by (apply (C 0 (S k) w eq_refl Hkc F2); lia).
        destruct i as [|[|i]]; cbn in Hi.
        -- injection Hi as <-. lia.
        -- injection Hi as <-. lia.
        -- apply (C (S i) (S k) y Hi Hkc F2). lia.
Qed.
