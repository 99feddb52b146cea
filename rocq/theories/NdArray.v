(** n-dimensional arrays: shape and row-major ("C order") element list, as numpy uses. *)
From Verif Require Import Base.

Record arr (A : Type) := Arr { shp : list nat; dat : list A }.
Arguments Arr {A} _ _.
Arguments shp {A} _.
Arguments dat {A} _.

Fixpoint size (s : list nat) : nat :=
  match s with [] => 1 | d :: s' => d * size s' end.

Definition wf {A} (a : arr A) : Prop := length (dat a) = size (shp a).
Definition ndim {A} (a : arr A) : nat := length (shp a).

(** All index vectors of a shape, in row-major order. *)
Fixpoint indices (s : list nat) : list (list nat) :=
  match s with
  | [] => [[]]
  | d :: s' => flat_map (fun i => map (cons i) (indices s')) (seq 0 d)
  end.

(** Index within the bounds of a shape. *)
Fixpoint inb (s idx : list nat) : bool :=
  match s, idx with
  | [], [] => true
  | d :: s', i :: idx' => (i <? d) && inb s' idx'
  | _, _ => false
  end.

(** Position of an index vector in the row-major list. *)
Fixpoint ravel (s idx : list nat) : nat :=
  match s, idx with
  | _ :: s', i :: idx' => i * size s' + ravel s' idx'
  | _, _ => 0
  end.

Definition get {A} (a : arr A) (idx : list nat) : option A :=
  if inb (shp a) idx then nth_error (dat a) (ravel (shp a) idx) else None.

(** New array of shape [s] whose element at [idx] is element [m idx] of [a];
    an [m idx] out of bounds is an IndexError. *)
Definition reindex {A} (a : arr A) (s : list nat) (m : list nat -> list nat) : res (arr A) :=
  let* l := mapM (fun idx => from_opt IndexError (get a (m idx))) (indices s) in
  Ok (Arr s l).

(** [np.full]-like construction from a function of the index. *)
Definition tabulate {A} (s : list nat) (f : list nat -> A) : arr A :=
  Arr s (map f (indices s)).

Definition amap {A B} (f : A -> B) (a : arr A) : arr B := Arr (shp a) (map f (dat a)).

(** ** Facts *)

Lemma length_indices s : length (indices s) = size s.
Proof.
  induction s as [|d s IH]; simpl; [reflexivity|].
  assert (H : forall n k, length (flat_map (fun i => map (cons i) (indices s)) (seq k n))
                          = n * size s).
  { induction n as [|n IHn]; intros k; simpl; [reflexivity|].
    rewrite app_length, map_length, IH, IHn. reflexivity. }
  apply H.
Qed.

Lemma in_indices s idx : In idx (indices s) <-> inb s idx = true.
Proof.
  revert idx; induction s as [|d s IH]; intros idx; simpl.
  - destruct idx; split; intros H; try tauto; try discriminate.
    destruct H as [H|[]]; discriminate.
  - rewrite in_flat_map. split.
    + intros (i & Hi & H). apply in_map_iff in H as (t & <- & Ht).
      apply in_seq in Hi. apply IH in Ht. rewrite Ht, andb_true_r.
      apply Nat.ltb_lt. lia.
    + destruct idx as [|i idx]; [discriminate|].
      intros H. apply andb_true_iff in H as [Hi Ht].
      exists i. split; [apply in_seq; apply Nat.ltb_lt in Hi; lia|].
      apply in_map. apply IH. exact Ht.
Qed.

Lemma inb_length s idx : inb s idx = true -> length idx = length s.
Proof.
  revert idx; induction s as [|d s IH]; intros [|i idx]; simpl; try discriminate; auto.
  intros H; apply andb_true_iff in H as [_ H]. rewrite (IH _ H). reflexivity.
Qed.

Lemma ravel_lt s idx : inb s idx = true -> ravel s idx < size s.
Proof.
  revert idx; induction s as [|d s IH]; intros [|i idx]; simpl; try discriminate.
  - intros _. lia.
  - intros H; apply andb_true_iff in H as [Hi H]. apply IH in H.
    apply Nat.ltb_lt in Hi. nia.
Qed.

Lemma nth_error_flat_map_seq {B} (f : nat -> list B) (m : nat) n k i j :
  (forall x, length (f x) = m) -> i < n -> j < m ->
  nth_error (flat_map f (seq k n)) (i * m + j) = nth_error (f (k + i)) j.
Proof.
  intros Hlen. revert k i. induction n as [|n IH]; intros k i Hi Hj; [lia|].
  simpl. destruct i as [|i].
  - rewrite nth_error_app1 by (rewrite Hlen; lia).
    rewrite Nat.add_0_r. reflexivity.
  - rewrite nth_error_app2 by (rewrite Hlen; simpl; lia).
    rewrite Hlen. replace (S i * m + j - m) with (i * m + j) by (simpl; lia).
    rewrite IH by lia. f_equal. f_equal. lia.
Qed.

Lemma nth_error_indices s idx :
  inb s idx = true -> nth_error (indices s) (ravel s idx) = Some idx.
Proof.
  revert idx; induction s as [|d s IH]; intros [|i idx] H; simpl in *; try discriminate.
  - reflexivity.
  - apply andb_true_iff in H as [Hi H]. apply Nat.ltb_lt in Hi.
    rewrite (nth_error_flat_map_seq _ (size s)).
    + simpl. rewrite nth_error_map, (IH _ H). reflexivity.
    + intros x. rewrite map_length. apply length_indices.
    + exact Hi.
    + apply ravel_lt; exact H.
Qed.

Lemma mapM_ok {A B} (f : A -> res B) (l : list A) :
  (forall x, In x l -> exists y, f x = Ok y) -> exists ys, mapM f l = Ok ys.
Proof.
  induction l as [|x l IH]; intros H; simpl; [eauto|].
  destruct (H x (or_introl eq_refl)) as [y Hy]. rewrite Hy; simpl.
  destruct IH as [ys Hys]; [intros z Hz; apply H; right; exact Hz|].
  rewrite Hys; simpl; eauto.
Qed.

Lemma mapM_length {A B} (f : A -> res B) l ys :
  mapM f l = Ok ys -> length ys = length l.
Proof.
  revert ys; induction l as [|x l IH]; simpl; intros ys H.
  - inversion H; reflexivity.
  - destruct (f x) as [y|e]; simpl in H; [|discriminate].
    destruct (mapM f l) as [zs|e] eqn:E; simpl in H; [|discriminate].
    inversion H; subst; simpl. rewrite (IH zs eq_refl). reflexivity.
Qed.

Lemma mapM_nth {A B} (f : A -> res B) l ys i x :
  mapM f l = Ok ys -> nth_error l i = Some x ->
  exists y, nth_error ys i = Some y /\ f x = Ok y.
Proof.
  revert ys i; induction l as [|z l IH]; simpl; intros ys i H Hi.
  - destruct i; discriminate.
  - destruct (f z) as [y|e] eqn:Ez; simpl in H; [|discriminate].
    destruct (mapM f l) as [zs|e] eqn:E; simpl in H; [|discriminate].
    inversion H; subst. destruct i as [|i]; simpl in *.
    + inversion Hi; subst. eauto.
    + apply (IH zs i eq_refl Hi).
Qed.

Lemma mapM_map {A B} (f : A -> res B) (g : A -> B) l :
  (forall x, In x l -> f x = Ok (g x)) -> mapM f l = Ok (map g l).
Proof.
  induction l as [|x l IH]; intros H; simpl; [reflexivity|].
  rewrite (H x (or_introl eq_refl)); simpl.
  rewrite IH; [reflexivity|]. intros z Hz; apply H; right; exact Hz.
Qed.

Lemma get_wf_some {A} (a : arr A) idx :
  wf a -> inb (shp a) idx = true -> exists v, get a idx = Some v.
Proof.
  intros Hwf Hin. unfold get. rewrite Hin.
  destruct (nth_error (dat a) (ravel (shp a) idx)) eqn:E; [eauto|].
  apply nth_error_None in E. apply ravel_lt in Hin. unfold wf in Hwf. lia.
Qed.

Lemma get_inb {A} (a : arr A) idx v : get a idx = Some v -> inb (shp a) idx = true.
Proof. unfold get. destruct (inb _ _); [reflexivity|discriminate]. Qed.

Lemma reindex_ok {A} (a : arr A) s m :
  wf a -> (forall idx, inb s idx = true -> inb (shp a) (m idx) = true) ->
  exists b, reindex a s m = Ok b.
Proof.
  intros Hwf Hm. unfold reindex.
  destruct (mapM_ok (fun idx => from_opt IndexError (get a (m idx))) (indices s))
    as [ys Hys].
  - intros idx Hin. apply in_indices in Hin.
    destruct (get_wf_some a (m idx) Hwf (Hm _ Hin)) as [v Hv].
    exists v. rewrite Hv. reflexivity.
  - rewrite Hys; simpl; eauto.
Qed.

Lemma reindex_spec {A} (a : arr A) s m b :
  reindex a s m = Ok b ->
  shp b = s /\ wf b /\ (forall idx, inb s idx = true -> get b idx = get a (m idx)).
Proof.
  unfold reindex. destruct (mapM _ _) as [ys|e] eqn:E; simpl; [|discriminate].
  intros H; inversion H; subst b; clear H. simpl. split; [reflexivity|]. split.
  - unfold wf; simpl. rewrite (mapM_length _ _ _ E). apply length_indices.
  - intros idx Hin. unfold get at 1; simpl. rewrite Hin.
    destruct (mapM_nth _ _ _ _ _ E (nth_error_indices _ _ Hin)) as (y & Hy & Hf).
    rewrite Hy. destruct (get a (m idx)); simpl in Hf; inversion Hf; reflexivity.
Qed.

Lemma wf_tabulate {A} s (f : list nat -> A) : wf (tabulate s f).
Proof. unfold wf, tabulate; simpl. rewrite map_length. apply length_indices. Qed.

Lemma get_tabulate {A} s (f : list nat -> A) idx :
  inb s idx = true -> get (tabulate s f) idx = Some (f idx).
Proof.
  intros H. unfold get, tabulate; simpl. rewrite H, nth_error_map, (nth_error_indices _ _ H).
  reflexivity.
Qed.

(** Every position below [size s] is hit by an index. *)
Lemma ravel_surj s n : n < size s -> exists idx, inb s idx = true /\ ravel s idx = n.
Proof.
  revert n; induction s as [|d s IH]; simpl; intros n H.
  - exists []; simpl. split; [reflexivity|lia].
  - assert (size s <> 0) by nia.
    destruct (IH (n mod size s)) as (t & Ht & Hr); [apply Nat.mod_upper_bound; auto|].
    exists (n / size s :: t). simpl. rewrite Ht, andb_true_r, Hr. split.
    + apply Nat.ltb_lt. apply Nat.div_lt_upper_bound; auto. lia.
    + rewrite (Nat.div_mod n (size s)) at 3 by auto. lia.
Qed.

(** Extensionality: shape and elements determine an array. *)
Lemma arr_ext {A} (a b : arr A) :
  wf a -> wf b -> shp a = shp b ->
  (forall idx, inb (shp a) idx = true -> get a idx = get b idx) -> a = b.
Proof.
  destruct a as [s la], b as [s' lb]; unfold wf; simpl. intros Ha Hb <- H.
  f_equal. apply nth_error_ext. intros n.
  destruct (Nat.lt_ge_cases n (size s)) as [Hn|Hn].
  - destruct (ravel_surj s n Hn) as (idx & Hin & <-).
    specialize (H _ Hin). unfold get in H; simpl in H. rewrite Hin in H. exact H.
  - rewrite (proj2 (nth_error_None la n)) by lia.
    rewrite (proj2 (nth_error_None lb n)) by lia. reflexivity.
Qed.

Lemma get_amap {A B} (f : A -> B) (a : arr A) idx :
  get (amap f a) idx = option_map f (get a idx).
Proof.
  unfold get, amap; simpl. destruct (inb _ _); [apply nth_error_map|reflexivity].
Qed.

Lemma wf_amap {A B} (f : A -> B) (a : arr A) : wf a -> wf (amap f a).
Proof. unfold wf, amap; simpl. rewrite map_length. auto. Qed.
