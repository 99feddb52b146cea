(** correlate_convolve_abs and optional imports: properties C66 and C76. *)
From Coq Require Import Reals Lra Psatz.
From Verif Require Import Base NdArray LoadModel LoadProofs NormModel MetricModel RealSums SsimModel SsimProofs MiscModel.

(** ** Broadcasting of equal shapes *)

Lemma bcast_rev_same l : bcast_rev l l = Some l.
Proof. induction l as [|n l IH]; [reflexivity|]. cbn [bcast_rev]. rewrite IH, Nat.eqb_refl. reflexivity. Qed.
Lemma bcast_same s : bcast s s = Some s.
Proof. unfold bcast. rewrite bcast_rev_same. cbn. rewrite rev_involutive. reflexivity. Qed.

Lemma combine_app {A B} (a a' : list A) (b b' : list B) : length a = length b -> combine (a ++ a') (b ++ b') = combine a b ++ combine a' b'.
Proof. revert b. induction a as [|x a IH]; intros [|y b] H; try discriminate; [reflexivity|]. cbn. f_equal. apply IH. cbn in H. lia. Qed.
Lemma combine_rev {A B} (a : list A) (b : list B) : length a = length b -> combine (rev a) (rev b) = rev (combine a b).
Proof.
  revert b. induction a as [|x a IH]; intros [|y b] H; try discriminate; [reflexivity|]. cbn in *.
  rewrite combine_app by (rewrite !rev_length; lia). rewrite IH by lia. reflexivity.
Qed.
Lemma bidx_same s i : inb s i = true -> bidx s i = i.
Proof.
  intros H. unfold bidx. rewrite combine_rev by (symmetry; apply inb_length; exact H). rewrite map_rev, rev_involutive.
  revert i H. induction s as [|n s IH]; intros [|x i] H; try discriminate; [reflexivity|]. cbn in H.
  apply andb_prop in H as [H1 H2]. cbn [combine map fst snd]. rewrite (IH _ H2). f_equal.
  apply Nat.ltb_lt in H1. destruct (Nat.eqb_spec n 1); lia.
Qed.

(** ** The padded image *)

(** Zero-padded (or padded with [value]) image at integer coordinates. *)
Definition padded (img : arr R) (value : R) (z : list Z) : R :=
  if forallb (Z.leb 0) z then match get img (map Z.to_nat z) with Some v => v | None => value end else value.

Section cc.
Variable far : pmode -> nat -> nat -> Z -> nat.

Lemma origin_pos_const ks s z : length z = length s ->
  origin_pos far Constant ks s z = if forallb (Z.leb 0) z && inb s (map Z.to_nat z) then Some (map Z.to_nat z) else None.
Proof.
  revert z. induction s as [|n s IH]; intros [|p z] H; try discriminate; [reflexivity|].
  cbn [origin_pos forallb map inb]. rewrite IH by (cbn in H; lia). unfold np_pad_pos. cbn [near_border pad_pos].
  destruct (Z.leb_spec 0 p); cbn [andb]; [|reflexivity]. 
  destruct (Z.ltb_spec p (Z.of_nat n)), (Nat.ltb_spec (Z.to_nat p) n); try lia; cbn [andb];
    destruct (forallb (Z.leb 0) z), (inb s (map Z.to_nat z)); reflexivity.
Qed.

Lemma origin_const value ks img z : wf img -> length z = length (shp img) -> origin far Constant value ks img z = padded img value z.
Proof.
  intros W H. unfold origin, padded. rewrite origin_pos_const by exact H.
  destruct (forallb (Z.leb 0) z); cbn [andb]; [|reflexivity]. unfold getd.
  destruct (inb (shp img) (map Z.to_nat z)) eqn:E.
  - destruct (get_wf_some img _ W E) as [v ->]. reflexivity.
  - unfold get. rewrite E. reflexivity.
Qed.

Lemma window_pos_length ks idx off : length idx = length off -> length (window_pos ks idx off) = length idx.
Proof. intros H. unfold window_pos. rewrite map_length, combine_length. lia. Qed.

(** The kernel as it is used: turned around for "convolve". *)
Definition kernel_elem (mode : string) (ks : nat) (kernel : arr R) (off : list nat) : R :=
  getd kernel (if String.eqb mode "convolve" then map (fun o : nat => ks - 1 - o) off else off).

Lemma flip_index ks (s off : list nat) : length off = length s ->
  map (fun p : nat * nat => fst p - 1 - snd p) (combine (map (fun _ : nat => ks) s) off) = map (fun o : nat => ks - 1 - o) off.
Proof. revert off. induction s as [|n s IH]; intros [|o off] H; try discriminate; [reflexivity|]. cbn. f_equal. apply IH. cbn in H. lia. Qed.

Definition used_kernel (mode : string) (kernel : arr R) : arr R := if String.eqb mode "convolve" then flip_every kernel else kernel.
Lemma used_shape mode kernel : shp (used_kernel mode kernel) = shp kernel.
Proof. unfold used_kernel. destruct (String.eqb mode "convolve"); reflexivity. Qed.
Lemma used_elem mode ks (s : list nat) kernel off : shp kernel = map (fun _ => ks) s -> inb (shp kernel) off = true ->
  getd (used_kernel mode kernel) off = kernel_elem mode ks kernel off.
Proof.
  intros Sk Hi. unfold used_kernel, kernel_elem. destruct (String.eqb mode "convolve"); [|reflexivity].
  unfold flip_every, getd at 1. rewrite get_tabulate by exact Hi. rewrite Sk, flip_index; [reflexivity|].
  rewrite (inb_length _ _ Hi), Sk, map_length. reflexivity.
Qed.

Lemma mapM_total {A B} (f : A -> res B) (g : A -> B) l : (forall x, In x l -> f x = Ok (g x)) -> mapM f l = Ok (map g l).
Proof.
  induction l as [|x l IH]; intros H; [reflexivity|]. cbn [mapM map]. rewrite (H x) by (left; reflexivity). cbn [bind].
  rewrite IH by (intros; apply H; right; assumption). reflexivity.
Qed.

Definition plane_or_volume (s : list nat) : Prop := length s = 2 \/ length s = 3.

(** The value of a pixel for a kernel with the same extent on all axes *)
Lemma cc_square img kernel mode border value ks m :
  plane_or_volume (shp img) -> shp kernel = map (fun _ => ks) (shp img) -> np_mode border = Some m ->
  m = Constant \/ Forall (fun n => 0 < n) (shp img) ->
  exists b, correlate_convolve_abs far img kernel mode border value = Ok b /\ shp b = shp img /\ wf b /\
    forall idx, inb (shp img) idx = true ->
      get b idx = Some (np_mean (map (fun off => Rabs (kernel_elem mode ks kernel off * origin far m value ks img (window_pos ks idx off))) (indices (shp kernel)))).
Proof.
  intros HD Sk Hm He.
  set (g := fun idx => np_mean (map (fun off => Rabs (kernel_elem mode ks kernel off * origin far m value ks img (window_pos ks idx off))) (indices (shp kernel)))).
  exists (tabulate (shp img) g). split; [|split; [reflexivity|split; [apply wf_tabulate|intros; rewrite get_tabulate by assumption; reflexivity]]].
  unfold correlate_convolve_abs. fold (used_kernel mode kernel). rewrite used_shape.
  replace (hd_error (shp kernel)) with (Some ks) by (rewrite Sk; destruct (shp img); [destruct HD; discriminate|reflexivity]).
  cbn [from_opt bind]. rewrite Hm. cbn [from_opt bind].
  replace (match m with Constant => false | _ => (0 <? ks) && existsb (Nat.eqb 0) (shp img) end) with false.
  2:{ symmetry. destruct He as [->|He]; [reflexivity|]. assert (X : existsb (Nat.eqb 0) (shp img) = false).
      { apply not_true_iff_false. intros X. apply existsb_exists in X as (n & Hn & E). apply Nat.eqb_eq in E. subst n.
        rewrite Forall_forall in He. specialize (He 0 Hn). lia. }
      rewrite X, andb_false_r. destruct m; reflexivity. }
  cbn [raise_if bind].
  assert (MM : mapM (cc_pixel far m value ks img (used_kernel mode kernel)) (indices (shp img)) = Ok (map g (indices (shp img)))).
  { apply mapM_total. intros idx _. unfold cc_pixel. rewrite used_shape, Sk, bcast_same. cbn [from_opt bind]. unfold g.
    f_equal. f_equal. rewrite Sk. apply map_ext_in. intros off Ho. apply in_indices in Ho. rewrite bidx_same by exact Ho.
    rewrite (used_elem mode ks (shp img)) by (rewrite ?Sk; auto). reflexivity. }
  unfold tabulate. rewrite MM. destruct (shp img) as [|a [|b [|c [|]]]]; destruct HD as [HD|HD]; try discriminate; reflexivity.
Qed.

(** ** C66 *)

(** Constant border: the mean of |kernel * image| over the pixels idx-ks .. idx-1 on every axis. *)
Theorem C66_window : forall img kernel mode value ks,
  wf img -> plane_or_volume (shp img) -> 0 < ks -> shp kernel = map (fun _ => ks) (shp img) ->
  exists b, correlate_convolve_abs far img kernel mode "constant" value = Ok b /\ shp b = shp img /\
    forall idx, inb (shp img) idx = true ->
      get b idx = Some (Fin (Sum (fun off => Rabs (kernel_elem mode ks kernel off) *
                                             Rabs (padded img value (map (fun p => (Z.of_nat (fst p) + Z.of_nat (snd p) - Z.of_nat ks)%Z) (combine idx off))))
                                 (indices (shp kernel))
                             / INR (ks ^ length (shp img)))%R).
Proof.
  intros img kernel mode value ks W HD Hk Sk.
  destruct (cc_square img kernel mode "constant" value ks Constant HD Sk eq_refl (or_introl eq_refl)) as (b & Hb & Sb & _ & G).
  exists b. split; [exact Hb|]. split; [exact Sb|]. intros idx Hi. rewrite G by exact Hi. f_equal.
  assert (L : length (indices (shp kernel)) = ks ^ length (shp img)).
  { rewrite length_indices, Sk. clear. induction (shp img) as [|n s IH]; [reflexivity|]. cbn [map size length Nat.pow]. rewrite IH. reflexivity. }
  unfold np_mean. destruct (indices (shp kernel)) as [|o l] eqn:E.
  - cbn in L. exfalso. pose proof (Nat.pow_nonzero ks (length (shp img)) ltac:(lia)). lia.
  - cbn [map]. change (Rabs (kernel_elem mode ks kernel o * origin far Constant value ks img (window_pos ks idx o)) ::
       map (fun off => Rabs (kernel_elem mode ks kernel off * origin far Constant value ks img (window_pos ks idx off))) l)
      with (map (fun off => Rabs (kernel_elem mode ks kernel off * origin far Constant value ks img (window_pos ks idx off))) (o :: l)).
    rewrite map_length, L, Sum_map. f_equal. f_equal. apply Sum_ext. intros off Ho. rewrite Rabs_mult. f_equal. f_equal.
    assert (Lo : length off = length (shp img)).
    { rewrite <- E in Ho. apply in_indices in Ho. rewrite (inb_length _ _ Ho), Sk, map_length. reflexivity. }
    rewrite origin_const; [reflexivity|exact W|]. rewrite window_pos_length; rewrite (inb_length _ _ Hi); [reflexivity|congruence].
Qed.

(** The other border modes: every position outside belongs to a pixel of the image (borders at most one
    image size wide; [z] is a coordinate, [p] the pixel read on an axis of length [n]). *)
Definition folds (border : string) (n : nat) (z : Z) (p : nat) : Prop :=
  p < n /\
  ((border = "reflect" /\ exists k, (z = Z.of_nat p + k * (2 * (Z.of_nat n - 1)) \/ z = - Z.of_nat p + k * (2 * (Z.of_nat n - 1)))%Z) \/
   (border = "mirror" /\ exists k, (z = Z.of_nat p + k * (2 * Z.of_nat n) \/ z = - 1 - Z.of_nat p + k * (2 * Z.of_nat n))%Z) \/
   (border = "wrap" /\ exists k, (z = Z.of_nat p + k * Z.of_nat n)%Z) \/
   (border = "nearest" /\ (0 <= z < Z.of_nat n /\ z = Z.of_nat p \/ z < 0 /\ p = 0%nat \/ Z.of_nat n <= z /\ S p = n)%Z))%string.

Lemma pad_folds border m ks n z : np_mode border = Some m -> m <> Constant -> 1 < n ->
  (- Z.of_nat ks <= z < Z.of_nat n)%Z -> ks < n -> exists p, np_pad_pos far m ks n z = Some p /\ folds border n z p.
Proof.
  intros Hm Hc Hn Hz Hk. unfold np_pad_pos.
  assert (N : near_border m n z = true) by (unfold near_border; destruct m; try reflexivity; lia). rewrite N.
  destruct (pad_pos_some m n z Hc) as [p Hp]. exists p. split; [exact Hp|]. split; [apply (pad_pos_lt m n z p); [lia|exact Hp]|].
  unfold np_mode in Hm.
  destruct (String.eqb_spec border "constant"); [congruence|].
  destruct (String.eqb_spec border "reflect").
  { injection Hm as <-. left. split; [assumption|]. unfold pad_pos in Hp. destruct (Nat.eqb_spec n 1); [lia|].
    pose proof (Z.mod_pos_bound z (2 * Z.of_nat n - 2) ltac:(lia)). pose proof (Z.div_mod z (2 * Z.of_nat n - 2) ltac:(lia)) as D.
    set (q := (z mod (2 * Z.of_nat n - 2))%Z) in *. set (k := (z / (2 * Z.of_nat n - 2))%Z) in *.
    apply Some_inj in Hp. subst p. destruct (Z.ltb_spec q (Z.of_nat n)).
    - exists k. left. rewrite Z2Nat.id by lia. nia.
    - exists (k + 1)%Z. right. rewrite Z2Nat.id by lia. nia. }
  destruct (String.eqb_spec border "nearest").
  { injection Hm as <-. right; right; right. split; [assumption|]. unfold pad_pos in Hp. apply Some_inj in Hp. subst p. lia. }
  destruct (String.eqb_spec border "mirror").
  { injection Hm as <-. right; left. split; [assumption|]. unfold pad_pos in Hp.
    pose proof (Z.mod_pos_bound z (2 * Z.of_nat n) ltac:(lia)). pose proof (Z.div_mod z (2 * Z.of_nat n) ltac:(lia)) as D.
    set (q := (z mod (2 * Z.of_nat n))%Z) in *. set (k := (z / (2 * Z.of_nat n))%Z) in *.
    apply Some_inj in Hp. subst p. destruct (Z.ltb_spec q (Z.of_nat n)).
    - exists k. left. rewrite Z2Nat.id by lia. nia.
    - exists (k + 1)%Z. right. rewrite Z2Nat.id by lia. nia. }
  destruct (String.eqb_spec border "wrap"); [|discriminate].
  injection Hm as <-. right; right; left. split; [assumption|]. unfold pad_pos in Hp.
  pose proof (Z.mod_pos_bound z (Z.of_nat n) ltac:(lia)). pose proof (Z.div_mod z (Z.of_nat n) ltac:(lia)) as D.
  apply Some_inj in Hp. subst p. exists (z / Z.of_nat n)%Z. rewrite Z2Nat.id by lia. nia.
Qed.

(** Coordinates of the window element [off] of pixel [idx] *)
Definition coords (ks : nat) (idx off : list nat) : list Z := map (fun p => (Z.of_nat (fst p) + Z.of_nat (snd p) - Z.of_nat ks)%Z) (combine idx off).
Inductive all_fold (border : string) : list nat -> list Z -> list nat -> Prop :=
| af_nil : all_fold border [] [] []
| af_cons n z p s zs ps : folds border n z p -> all_fold border s zs ps -> all_fold border (n :: s) (z :: zs) (p :: ps).

Theorem C66_borders : forall img kernel mode border value ks,
  wf img -> plane_or_volume (shp img) -> In border ["reflect"; "nearest"; "mirror"; "wrap"]%string ->
  0 < ks -> Forall (fun n => ks < n) (shp img) -> shp kernel = map (fun _ => ks) (shp img) ->
  exists b, correlate_convolve_abs far img kernel mode border value = Ok b /\ shp b = shp img /\
    forall idx, inb (shp img) idx = true ->
      exists pos, (forall off, inb (shp kernel) off = true -> all_fold border (shp img) (coords ks idx off) (pos off)) /\
      get b idx = Some (Fin (Sum (fun off => Rabs (kernel_elem mode ks kernel off) * Rabs (getd img (pos off))) (indices (shp kernel))
                             / INR (ks ^ length (shp img)))%R).
Proof.
  intros img kernel mode border value ks W HD Hb Hk Hs Sk.
  assert (Hm : exists m, np_mode border = Some m /\ m <> Constant).
  { cbn in Hb. destruct Hb as [<-|[<-|[<-|[<-|[]]]]]; eexists; (split; [reflexivity|discriminate]). }
  destruct Hm as (m & Hm & Hc).
  destruct (cc_square img kernel mode border value ks m HD Sk Hm) as (b & Eb & Sb & _ & G).
  { right. eapply Forall_impl; [|exact Hs]. cbn. intros; lia. }
  exists b. split; [exact Eb|]. split; [exact Sb|]. intros idx Hi.
  assert (P : forall off, inb (shp kernel) off = true -> exists ps, origin_pos far m ks (shp img) (coords ks idx off) = Some ps /\ all_fold border (shp img) (coords ks idx off) ps).
  { intros off Ho. rewrite Sk in Ho. clear - Hm Hc Hs Hk Hi Ho. revert idx Hi off Ho. induction (shp img) as [|n s IH]; intros [|i idx] Hi [|o off] Ho; try discriminate.
    - exists []. split; [reflexivity|constructor].
    - cbn in Hi, Ho. apply andb_prop in Hi as [Hi1 Hi2]. apply andb_prop in Ho as [Ho1 Ho2]. apply Nat.ltb_lt in Hi1, Ho1.
      inversion Hs as [|? ? Hn Hs']; subst. destruct (IH Hs' _ Hi2 _ Ho2) as (ps & E & F).
      destruct (pad_folds border m ks n (Z.of_nat i + Z.of_nat o - Z.of_nat ks) Hm Hc ltac:(lia) ltac:(lia) Hn) as (p & Ep & Fp).
      exists (p :: ps). unfold coords in *. cbn [combine map fst snd origin_pos]. rewrite Ep, E. split; [reflexivity|]. constructor; assumption. }
  exists (fun off => match origin_pos far m ks (shp img) (coords ks idx off) with Some ps => ps | None => [] end). split.
  { intros off Ho. destruct (P off Ho) as (ps & -> & F). exact F. }
  rewrite G by exact Hi. f_equal.
  assert (L : length (indices (shp kernel)) = ks ^ length (shp img)).
  { rewrite length_indices, Sk. clear. induction (shp img) as [|n s IH]; [reflexivity|]. cbn [map size length Nat.pow]. rewrite IH. reflexivity. }
  assert (F : forall off, In off (indices (shp kernel)) ->
     Rabs (kernel_elem mode ks kernel off * origin far m value ks img (window_pos ks idx off)) =
     (Rabs (kernel_elem mode ks kernel off) * Rabs (getd img match origin_pos far m ks (shp img) (coords ks idx off) with Some ps => ps | None => [] end))%R).
  { intros off Ho. apply in_indices in Ho. destruct (P off Ho) as (ps & E & _). rewrite Rabs_mult. unfold origin, window_pos.
    unfold coords in E. unfold coords. rewrite E. reflexivity. }
  rewrite <- L. unfold np_mean. destruct (indices (shp kernel)) as [|o l].
  - cbn in L. exfalso. pose proof (Nat.pow_nonzero ks (length (shp img)) ltac:(lia)). lia.
  - cbn [map]. change (Rabs (kernel_elem mode ks kernel o * origin far m value ks img (window_pos ks idx o)) ::
       map (fun off => Rabs (kernel_elem mode ks kernel off * origin far m value ks img (window_pos ks idx off))) l)
      with (map (fun off => Rabs (kernel_elem mode ks kernel off * origin far m value ks img (window_pos ks idx off))) (o :: l)).
    rewrite map_length, Sum_map. f_equal. f_equal. apply Sum_ext. exact F.
Qed.

(** The kernels used are arbitrary in the following. *)

Lemma inb_app a b i j : length a = length i -> inb (a ++ b) (i ++ j) = inb a i && inb b j.
Proof. revert i. induction a as [|n a IH]; intros [|x i] H; try discriminate; [reflexivity|]. cbn in *. rewrite IH by lia. apply andb_assoc. Qed.
Lemma inb_rev s i : length i = length s -> inb (rev s) (rev i) = inb s i.
Proof.
  revert i. induction s as [|n s IH]; intros [|x i] H; try discriminate; [reflexivity|]. cbn in H. cbn [rev].
  rewrite inb_app by (rewrite !rev_length; lia). rewrite IH by lia. cbn. rewrite andb_true_r, andb_comm. reflexivity.
Qed.
Lemma bcast_inb_rev a : forall b r i, bcast_rev a b = Some r -> inb r i = true -> inb b (map (fun p => if fst p =? 1 then 0 else snd p) (combine b i)) = true.
Proof.
  assert (Z0 : forall b i, inb b i = true -> inb b (map (fun p => if fst p =? 1 then 0 else snd p) (combine b i)) = true).
  { induction b as [|n b IH]; intros [|x i] H; try discriminate; [reflexivity|]. cbn in *. apply andb_prop in H as [H1 H2]. rewrite (IH _ H2), andb_true_r.
    destruct (Nat.eqb_spec n 1); [subst; reflexivity|exact H1]. }
  induction a as [|x a IH]; intros b r i Hb Hi.
  - cbn in Hb. injection Hb as <-. apply Z0. exact Hi.
  - destruct b as [|y b]; [reflexivity|]. cbn in Hb. destruct (bcast_rev a b) as [r'|] eqn:E; [|discriminate].
    assert (exists d, r = d :: r' /\ (d = y \/ y = 1)) as (d & -> & Hd).
    { destruct (Nat.eqb_spec x y); [injection Hb as <-; eauto|]. destruct (Nat.eqb_spec x 1); [injection Hb as <-; eauto|].
      destruct (Nat.eqb_spec y 1); [injection Hb as <-; eauto|discriminate]. }
    destruct i as [|j i]; [discriminate|]. cbn in Hi. apply andb_prop in Hi as [H1 H2]. cbn. rewrite (IH _ _ _ E H2), andb_true_r.
    apply Nat.ltb_lt in H1. apply Nat.ltb_lt. destruct (Nat.eqb_spec y 1); lia.
Qed.
Lemma bidx_inb a b s i : bcast a b = Some s -> inb s i = true -> inb b (bidx b i) = true.
Proof.
  unfold bcast, bidx. destruct (bcast_rev (rev a) (rev b)) as [r|] eqn:E; [|discriminate]. cbn. intros H Hi. injection H as <-.
  assert (Hi' : inb r (rev i) = true) by (rewrite <- (rev_involutive r), inb_rev; [exact Hi|apply inb_length; exact Hi]).
  pose proof (bcast_inb_rev _ _ _ _ E Hi') as Q. rewrite <- (rev_involutive b). rewrite inb_rev; [|rewrite map_length, combine_length, !rev_length].
  - rewrite rev_involutive. exact Q.
  - pose proof (inb_length _ _ Q) as L. rewrite map_length, combine_length, !rev_length in L. exact L.
Qed.

Definition d23 (s : list nat) : bool := (length s =? 2) || (length s =? 3).
Lemma cc_ok img kernel mode border value b : correlate_convolve_abs far img kernel mode border value = Ok b ->
  exists ks m, hd_error (shp kernel) = Some ks /\ np_mode border = Some m /\ shp b = shp img /\
    forall idx, get b idx = if inb (shp img) idx && d23 (shp img) then
      match cc_pixel far m value ks img (used_kernel mode kernel) idx with Ok x => Some x | Err _ => None end else None.
Proof.
  unfold correlate_convolve_abs. fold (used_kernel mode kernel). rewrite used_shape. intros H.
  apply bind_ok in H as (ks & E1 & H). apply bind_ok in H as (m & E2 & H). apply bind_ok in H as ([] & _ & H).
  exists ks, m. split; [destruct (hd_error (shp kernel)); [injection E1 as ->; reflexivity|discriminate]|].
  split; [destruct (np_mode border); [injection E2 as ->; reflexivity|discriminate]|].
  assert (MM : forall (s : list nat), d23 s = true ->
     (let* l := mapM (cc_pixel far m value ks img (used_kernel mode kernel)) (indices s) in Ok (Arr s l)) = Ok b ->
     shp b = s /\ forall idx, get b idx = if inb s idx && d23 s then match cc_pixel far m value ks img (used_kernel mode kernel) idx with Ok x => Some x | Err _ => None end else None).
  { intros s Es HM. apply bind_ok in HM as (l & El & HM). injection HM as <-. split; [reflexivity|]. intros idx. rewrite Es, andb_true_r.
    destruct (inb s idx) eqn:Hin; unfold get; cbn [shp dat]; rewrite Hin; [|reflexivity].
    pose proof (nth_error_indices s idx Hin) as N. destruct (mapM_nth _ _ _ _ _ El N) as (y & Hy & Fy). rewrite Fy. exact Hy. }
  assert (NN : forall (s : list nat), d23 s = false -> b = Arr s [] -> shp b = s /\ forall idx, get b idx = if inb s idx && d23 s then match cc_pixel far m value ks img (used_kernel mode kernel) idx with Ok x => Some x | Err _ => None end else None).
  { intros s Es ->. split; [reflexivity|]. intros idx. rewrite Es, andb_false_r. unfold get. cbn. destruct (inb s idx); [|reflexivity].
    destruct (ravel s idx); reflexivity. }
  destruct (shp img) as [|a [|c [|d [|e s]]]].
  - discriminate.
  - destruct (a =? 0); [injection H as <-; apply NN; reflexivity|discriminate].
  - apply MM; [reflexivity|exact H].
  - apply MM; [reflexivity|exact H].
  - destruct ((a =? 0) || (c =? 0)); [injection H as <-; apply NN; reflexivity|discriminate].
Qed.

(** The value at a pixel depends on pixels strictly before it on every axis only: not on the pixel itself
    nor on anything beside or after it. *)
Theorem C66_local : forall img img' kernel mode value ks b b' idx,
  wf img -> wf img' -> shp img' = shp img -> hd_error (shp kernel) = Some ks ->
  (forall q, inb (shp img) q = true -> Forall2 (fun i p => p < i <= p + ks) idx q -> get img q = get img' q) ->
  correlate_convolve_abs far img kernel mode "constant" value = Ok b ->
  correlate_convolve_abs far img' kernel mode "constant" value = Ok b' ->
  get b idx = get b' idx.
Proof.
  intros img img' kernel mode value ks b b' idx W W' S Hks A H H'.
  apply cc_ok in H as (k1 & m1 & E1 & M1 & _ & G1). apply cc_ok in H' as (k2 & m2 & E2 & M2 & _ & G2).
  rewrite Hks in E1, E2. injection E1 as <-. injection E2 as <-. injection M1 as <-. injection M2 as <-.
  rewrite G1, G2, S. destruct (inb (shp img) idx) eqn:Hi; [|reflexivity]. destruct (d23 (shp img)); [|reflexivity]. cbn [andb].
  replace (cc_pixel far Constant value ks img' (used_kernel mode kernel) idx) with (cc_pixel far Constant value ks img (used_kernel mode kernel) idx); [reflexivity|].
  unfold cc_pixel. rewrite S. destruct (bcast (shp (used_kernel mode kernel)) (map (fun _ => ks) (shp img))) as [s|] eqn:B; [|reflexivity].
  cbn [from_opt bind]. f_equal. f_equal. apply map_ext_in. intros i I. apply in_indices in I. f_equal. f_equal.
  pose proof (bidx_inb _ _ _ _ B I) as J. set (off := bidx (map (fun _ => ks) (shp img)) i) in *. clearbody off. clear I i B s.
  assert (L : length idx = length off) by (rewrite (inb_length _ _ Hi), (inb_length _ _ J), map_length; reflexivity).
  rewrite !origin_const by (rewrite ?S; auto; rewrite window_pos_length by exact L; apply inb_length; exact Hi).
  unfold padded. destruct (forallb (Z.leb 0) (window_pos ks idx off)) eqn:F; [|reflexivity].
  destruct (inb (shp img) (map Z.to_nat (window_pos ks idx off))) eqn:Q.
  - rewrite (A _ Q); [reflexivity|]. clear - J F L. revert off J F L. generalize (shp img). induction idx as [|i idx IH]; intros s [|o off] J F L; try discriminate.
    + constructor.
    + destruct s as [|n s]; [discriminate|]. cbn in J, F. apply andb_prop in J as [J1 J2]. apply andb_prop in F as [F1 F2]. apply Nat.ltb_lt in J1.
      cbn [window_pos combine map fst snd]. constructor; [cbn; lia|]. apply (IH s); auto.
  - unfold get. rewrite S, Q. reflexivity.
Qed.

(** In particular replacing the pixel itself changes nothing at that place. *)
Theorem C66_not_centred : forall img img' kernel mode value b b' idx,
  wf img -> wf img' -> shp img' = shp img -> (forall q, q <> idx -> get img q = get img' q) ->
  correlate_convolve_abs far img kernel mode "constant" value = Ok b ->
  correlate_convolve_abs far img' kernel mode "constant" value = Ok b' ->
  get b idx = get b' idx.
Proof.
  intros img img' kernel mode value b b' idx W W' S A H H'. destruct (cc_ok _ _ _ _ _ _ H) as (ks & m & E & _ & _ & G).
  destruct (cc_ok _ _ _ _ _ _ H') as (ks' & m' & _ & _ & _ & G').
  destruct (inb (shp img) idx) eqn:I; [|rewrite G, G', S, I; reflexivity].
  destruct idx as [|i idx].
  - rewrite G, G', S, I. destruct (shp img); [reflexivity|discriminate].
  - apply (C66_local img img' kernel mode value ks b b' (i :: idx) W W' S E); auto. intros q _ F. apply A. intros ->.
    inversion F; subst. lia.
Qed.

(** The first row and column depend on the padding value only. *)
Theorem C66_first : forall img kernel mode value ks,
  wf img -> plane_or_volume (shp img) -> 0 < ks -> shp kernel = map (fun _ => ks) (shp img) ->
  exists b, correlate_convolve_abs far img kernel mode "constant" value = Ok b /\
    forall idx, inb (shp img) idx = true -> In 0 idx ->
      get b idx = Some (Fin (Rabs value * (Sum (fun off => Rabs (kernel_elem mode ks kernel off)) (indices (shp kernel)) / INR (ks ^ length (shp img))))%R).
Proof.
  intros img kernel mode value ks W HD Hk Sk. destruct (C66_window img kernel mode value ks W HD Hk Sk) as (b & Hb & _ & G).
  exists b. split; [exact Hb|]. intros idx Hi H0. rewrite G by exact Hi. do 2 f_equal.
  replace (Rabs value * _)%R with ((Rabs value * Sum (fun off => Rabs (kernel_elem mode ks kernel off)) (indices (shp kernel))) / INR (ks ^ length (shp img)))%R by (unfold Rdiv; ring).
  f_equal. rewrite <- Sum_scale. apply Sum_ext. intros off Ho. apply in_indices in Ho. rewrite Rmult_comm. f_equal. f_equal.
  unfold padded. replace (forallb _ _) with false; [reflexivity|]. symmetry. rewrite Sk in Ho. clear - Hi Ho H0 Hk.
  revert off Ho idx Hi H0. induction (shp img) as [|n s IH]; intros [|o off] Ho [|i idx] Hi H0; try discriminate; [destruct H0|].
  cbn in Hi, Ho. apply andb_prop in Hi as [Hi1 Hi2]. apply andb_prop in Ho as [Ho1 Ho2]. apply Nat.ltb_lt in Ho1. cbn [combine map forallb fst snd].
  destruct H0 as [->|H0]; [destruct (Z.leb_spec 0 (Z.of_nat 0 + Z.of_nat o - Z.of_nat ks)); [lia|reflexivity]|].
  rewrite (IH _ Ho2 _ Hi2 H0). apply andb_false_r.
Qed.

(** Results are never negative. *)
Theorem C66_nonneg : forall img kernel mode border value b idx x,
  correlate_convolve_abs far img kernel mode border value = Ok b -> get b idx = Some x ->
  x = NaN \/ exists r, x = Fin r /\ (0 <= r)%R.
Proof.
  intros img kernel mode border value b idx x H Hx. apply cc_ok in H as (ks & m & _ & _ & _ & G). rewrite G in Hx.
  destruct (inb (shp img) idx && d23 (shp img)); [|discriminate]. unfold cc_pixel in Hx.
  destruct (bcast _ _) as [s|]; [|discriminate]. cbn [from_opt bind] in Hx. injection Hx as <-. unfold np_mean.
  destruct (indices s) as [|i l]; [left; reflexivity|]. right. cbn [map]. eexists. split; [reflexivity|].
  apply Rmult_le_pos.
  - apply Sum_nonneg. intros a Ha. destruct Ha as [<-|Ha]; [apply Rabs_pos|]. apply in_map_iff in Ha as (? & <- & _). apply Rabs_pos.
  - apply Rlt_le, Rinv_0_lt_compat, lt_0_INR. cbn. lia.
Qed.

(** Factors on the image (and the padding value) come out as absolute value. *)
Definition ext_scale (c : R) (x : ext) : ext := match x with Fin r => Fin (c * r) | y => y end.

Theorem C66_scale : forall img kernel mode border value c,
  correlate_convolve_abs far (amap (Rmult c) img) kernel mode border (c * value) =
  match correlate_convolve_abs far img kernel mode border value with
  | Ok b => Ok (amap (ext_scale (Rabs c)) b)
  | Err e => Err e
  end.
Proof.
  intros img kernel mode border value c. unfold correlate_convolve_abs. fold (used_kernel mode kernel).
  destruct (hd_error (shp (used_kernel mode kernel))) as [ks|]; [|reflexivity]. cbn [from_opt bind].
  destruct (np_mode border) as [m|]; [|reflexivity]. cbn [from_opt bind]. change (shp (amap (Rmult c) img)) with (shp img).
  destruct (raise_if _ _) as [[]|]; [|reflexivity]. cbn [bind].
  assert (P : forall idx, cc_pixel far m (c * value) ks (amap (Rmult c) img) (used_kernel mode kernel) idx =
              match cc_pixel far m value ks img (used_kernel mode kernel) idx with Ok x => Ok (ext_scale (Rabs c) x) | Err e => Err e end).
  { intros idx. unfold cc_pixel. change (shp (amap (Rmult c) img)) with (shp img). destruct (bcast _ _) as [s|]; [|reflexivity].
    cbn [from_opt bind]. f_equal.
    assert (O : forall z, origin far m (c * value) ks (amap (Rmult c) img) z = (c * origin far m value ks img z)%R).
    { intros z. unfold origin. change (shp (amap (Rmult c) img)) with (shp img). destruct (origin_pos far m ks (shp img) z) as [p|]; [|reflexivity].
      unfold getd. rewrite get_amap. destruct (get img p); cbn; [reflexivity|ring]. }
    destruct (indices s) as [|i l]; [reflexivity|]. unfold np_mean. cbn [map ext_scale length]. rewrite !map_length. f_equal.
    rewrite !Sum_cons, !Sum_map. unfold Rdiv. rewrite <- Rmult_assoc. f_equal. rewrite Rmult_plus_distr_l, <- Sum_scale. f_equal.
    - rewrite O. rewrite <- Rabs_mult. f_equal. ring.
    - apply Sum_ext. intros j _. rewrite O. rewrite <- Rabs_mult. f_equal. ring. }
  assert (MM : forall s, (let* l := mapM (cc_pixel far m (c * value) ks (amap (Rmult c) img) (used_kernel mode kernel)) (indices s) in Ok (Arr s l)) =
      match (let* l := mapM (cc_pixel far m value ks img (used_kernel mode kernel)) (indices s) in Ok (Arr s l)) with Ok b => Ok (amap (ext_scale (Rabs c)) b) | Err e => Err e end).
  { intros s. assert (Q : forall l, mapM (cc_pixel far m (c * value) ks (amap (Rmult c) img) (used_kernel mode kernel)) l =
       match mapM (cc_pixel far m value ks img (used_kernel mode kernel)) l with Ok b => Ok (map (ext_scale (Rabs c)) b) | Err e => Err e end).
    { induction l as [|x l IH]; [reflexivity|]. cbn [mapM]. rewrite P. destruct (cc_pixel far m value ks img (used_kernel mode kernel) x); [|reflexivity].
      cbn [bind]. rewrite IH. destruct (mapM (cc_pixel far m value ks img (used_kernel mode kernel)) l); reflexivity. }
    rewrite Q. destruct (mapM (cc_pixel far m value ks img (used_kernel mode kernel)) (indices s)); reflexivity. }
  destruct (shp img) as [|a [|d [|e [|f s]]]]; [reflexivity| |apply MM|apply MM|].
  - destruct (a =? 0); reflexivity.
  - destruct ((a =? 0) || (d =? 0)); reflexivity.
Qed.

(** Unknown border modes are refused; unknown modes correlate. *)
Theorem C66_modes : forall img kernel mode border value,
  (shp kernel <> [] -> ~ In border ["constant"; "reflect"; "nearest"; "mirror"; "wrap"]%string ->
   correlate_convolve_abs far img kernel mode border value = Err ValueError) /\
  (mode <> "convolve"%string -> correlate_convolve_abs far img kernel mode border value = correlate_convolve_abs far img kernel "correlate" border value) /\
  correlate_convolve_abs far img kernel "convolve" border value = correlate_convolve_abs far img (flip_every kernel) "correlate" border value.
Proof.
  intros img kernel mode border value. split; [|split].
  - intros Hk Hb. unfold correlate_convolve_abs. fold (used_kernel mode kernel). rewrite used_shape.
    destruct (shp kernel); [contradiction|]. cbn [hd_error from_opt bind]. unfold np_mode.
    destruct (String.eqb_spec border "constant"); [exfalso; apply Hb; cbn; auto|].
    destruct (String.eqb_spec border "reflect"); [exfalso; apply Hb; cbn; auto|].
    destruct (String.eqb_spec border "nearest"); [exfalso; apply Hb; cbn; auto|].
    destruct (String.eqb_spec border "mirror"); [exfalso; apply Hb; cbn; auto|].
    destruct (String.eqb_spec border "wrap"); [exfalso; apply Hb; cbn; auto 6|]. reflexivity.
  - intros Hm. unfold correlate_convolve_abs. destruct (String.eqb_spec mode "convolve"); [contradiction|]. reflexivity.
  - unfold correlate_convolve_abs. reflexivity.
Qed.

(** Kernels with different extents are refused, unless one of them is 1. *)
Theorem C66_oblong : forall img h w kernel r c mode value,
  shp img = [h; w] -> 0 < h -> 0 < w -> shp kernel = [r; c] -> r <> c -> r <> 1 -> c <> 1 ->
  correlate_convolve_abs far img kernel mode "constant" value = Err ValueError.
Proof.
  intros img h w kernel r c mode value S Hh Hw Sk H1 H2 H3. unfold correlate_convolve_abs. fold (used_kernel mode kernel). rewrite used_shape, Sk, S.
  cbn [hd_error from_opt bind]. change (np_mode "constant") with (Some Constant). cbn [from_opt bind raise_if].
  destruct h as [|h]; [lia|]. destruct w as [|w]; [lia|]. cbn [indices seq flat_map map app mapM]. unfold cc_pixel at 1. rewrite used_shape, Sk, S.
  unfold bcast. cbn [map rev app bcast_rev]. destruct (Nat.eqb_spec r r); [|contradiction]. destruct (Nat.eqb_spec c r); [congruence|].
  destruct (Nat.eqb_spec c 1); [contradiction|]. destruct (Nat.eqb_spec r 1); [contradiction|]. reflexivity.
Qed.
End cc.
Print Assumptions C66_window.
Print Assumptions C66_borders.
Print Assumptions C66_local.
Print Assumptions C66_not_centred.
Print Assumptions C66_first.
Print Assumptions C66_nonneg.
Print Assumptions C66_scale.
Print Assumptions C66_modes.
Print Assumptions C66_oblong.

(** A kernel that only looks at its centre gives the pixel above and to the left, divided by nine. *)
Definition centre_kernel : arr R := Arr [3; 3] [0; 0; 0; 0; 1; 0; 0; 0; 0]%R.
Example C66_ex : forall far (a b c d e f g h i : R), exists m,
  correlate_convolve_abs far (Arr [3; 3] [a; b; c; d; e; f; g; h; i]) centre_kernel "correlate" "constant" 0 = Ok m /\
  get m [2; 2] = Some (Fin (Rabs a / 9)%R) /\ get m [1; 1] = Some (Fin 0).
Proof.
  intros. eexists. split; [reflexivity|].
  assert (Q : forall x y, x = y -> Some (Fin x) = Some (Fin y)) by congruence.
  split; apply Q; cbn; rewrite ?Rmult_0_l, ?Rmult_0_r, ?Rmult_1_l, ?Rabs_R0; lra.
Qed.

(** ** C76 *)

Section C76.
Context {M : Type}.
Variable import_module : string -> res M.
Variable getattr : M -> string -> res M.
Definition named (name : option string) : Prop := exists n, name = Some n /\ n <> ""%string.

(** A module that cannot be imported is reported by (None, False) and a warning. *)
Theorem C76_missing : forall module name, import_module module = Err ImportError ->
  try_import import_module getattr module name = (Ok (None, false), 1).
Proof. intros module name H. unfold try_import. rewrite H. reflexivity. Qed.

(** Success: the module, or its attribute if a name is given; no warning. *)
Theorem C76_found : forall module name m, import_module module = Ok m ->
  (~ named name -> try_import import_module getattr module name = (Ok (Some m, true), 0)) /\
  (forall n v, name = Some n -> n <> ""%string -> getattr m n = Ok v -> try_import import_module getattr module name = (Ok (Some v, true), 0)).
Proof.
  intros module name m H. unfold try_import. rewrite H. cbn [bind]. split.
  - intros Hn. destruct name as [n|]; [|reflexivity]. destruct (String.eqb_spec n ""); [reflexivity|]. exfalso. apply Hn. exists n. auto.
  - intros n v -> Hn Hv. destruct (String.eqb_spec n ""); [contradiction|]. rewrite Hv. reflexivity.
Qed.

(** A missing attribute is not reported but raised. *)
Theorem C76_attribute : forall module n m, import_module module = Ok m -> n <> ""%string -> getattr m n = Err AttributeError ->
  try_import import_module getattr module (Some n) = (Err AttributeError, 0).
Proof.
  intros module n m H Hn Ha. unfold try_import. rewrite H. cbn [bind]. destruct (String.eqb_spec n ""); [contradiction|]. rewrite Ha. reflexivity.
Qed.

(** Flag and object agree, and the warning is given exactly with the flag False. *)
Theorem C76_flag : forall module name o ok w, try_import import_module getattr module name = (Ok (o, ok), w) ->
  (ok = true <-> o <> None) /\ w = (if ok then 0 else 1).
Proof.
  intros module name o ok w H. unfold try_import in H. destruct (bind _ _) as [v|e]; [injection H as <- <- <-; split; [split; congruence|reflexivity]|].
  destruct e; try discriminate. injection H as <- <- <-. split; [split; congruence|reflexivity].
Qed.
End C76.

Definition mentions (word text : string) : Prop := exists a b, text = (a ++ word ++ b)%string.
Fixpoint mentionsb (word text : string) : bool :=
  String.prefix word text || match text with EmptyString => false | String _ t => mentionsb word t end.
Lemma prefix_app w t : String.prefix w t = true <-> exists b, t = (w ++ b)%string.
Proof.
  revert t. induction w as [|c w IH]; intros t.
  - cbn. split; [intros _; exists t; reflexivity|]. destruct t; reflexivity.
  - destruct t as [|d t]; cbn; [split; [discriminate|intros [b H]; discriminate]|].
    destruct (ascii_dec c d) as [->|N]; [rewrite IH|].
    + split; intros [b H]; exists b; [rewrite H; reflexivity|injection H; auto].
    + split; [discriminate|]. intros [b H]. injection H as H _. congruence.
Qed.
Lemma mentionsb_ok w t : mentionsb w t = true <-> mentions w t.
Proof.
  induction t as [|c t IH]; cbn [mentionsb]; rewrite orb_true_iff, prefix_app.
  - split; [intros [[b H]|H]; [exists ""%string, b; exact H|discriminate]|]. intros (a & b & H). left. exists b. destruct a; [exact H|discriminate].
  - rewrite IH. split.
    + intros [[b H]|(a & b & H)]; [exists ""%string, b; exact H|exists (String c a), b; cbn; rewrite H; reflexivity].
    + intros (a & b & H). destruct a as [|d a]; [left; exists b; exact H|]. cbn in H. injection H as -> H. right. exists a, b. exact H.
Qed.

(** The check for interactive views fails exactly if something is missing, and names what is missing. *)
Theorem C76_deps : forall widgets ipython,
  (check_deps widgets ipython = None <-> widgets = true /\ ipython = true) /\
  forall msg, check_deps widgets ipython = Some msg ->
    (mentions "ipywidgets" msg <-> widgets = false) /\ (mentions "IPython" msg <-> ipython = false).
Proof.
  intros [] []; cbn; (split; [split; [intros H; try discriminate; auto|intros [H1 H2]; congruence]|]);
    intros msg H; try discriminate; injection H as <-; rewrite <- !mentionsb_ok; vm_compute; repeat split; auto; discriminate.
Qed.
Print Assumptions C76_missing.
Print Assumptions C76_found.
Print Assumptions C76_attribute.
Print Assumptions C76_flag.
Print Assumptions C76_deps.

Example C76_ex : try_import (fun s => if String.eqb s "tqdm" then Ok 1 else Err ImportError) (fun m n => Err AttributeError) "tqdm" (Some "nothing"%string)
  = (Err AttributeError, 0).
Proof. reflexivity. Qed.
