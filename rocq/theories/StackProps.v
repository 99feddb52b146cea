(** Volumes of equal slices: property C143. *)
From Coq Require Import Reals Lra Psatz Permutation.
From Verif Require Import Base NdArray LoadModel LoadProofs NormModel NormProofs PairModel PairProofs RealSums
  MetricModel MetricProofs SsimModel SsimProofs SsimProps SsimExpProps SsimSymProofs SsimSymProps SsimWinProofs DistortProps.
Local Open Scope R_scope.

(** np.stack([p] * n): n copies of [p] along a new first axis *)
Definition copies (n : nat) (p : arr R) : arr R := tabulate (n :: shp p) (fun idx => getd p (tl idx)).

Lemma copies_get n p i l : (i < n)%nat -> getd (copies n p) (i :: l) = getd p l.
Proof.
  intros Hi. destruct (inb (shp p) l) eqn:E.
  - unfold copies. rewrite getd_tab; [reflexivity|]. cbn [inb]. rewrite E, (proj2 (Nat.ltb_lt _ _) Hi). reflexivity.
  - unfold getd. destruct (get (copies n p) (i :: l)) eqn:G.
    + apply get_inb in G. cbn [copies tabulate shp inb] in G. rewrite E, andb_false_r in G. discriminate.
    + destruct (get p l) eqn:G2; [apply get_inb in G2; congruence|reflexivity].
Qed.

Lemma tab_ext {A} s (f g : list nat -> A) : (forall i, inb s i = true -> f i = g i) -> tabulate s f = tabulate s g.
Proof. intros H. unfold tabulate. f_equal. apply map_ext_in. intros i Hi. apply in_indices in Hi. apply H, Hi. Qed.

Lemma copies_tab n s f : copies n (tabulate s f) = tabulate (n :: s) (fun idx => f (tl idx)).
Proof.
  unfold copies. cbn [shp tabulate]. apply tab_ext. intros [|i l] Hi; [discriminate|]. cbn [inb] in Hi. apply andb_true_iff in Hi as [_ Hl].
  cbn [tl]. apply getd_tab, Hl.
Qed.

Section filters.
Variable ws : list (Z * R).
Variable mo : pmode.
Variable cval : R.
Hypothesis Hsum : Sum snd ws = 1.
Hypothesis Hmo : mo <> Constant.

Lemma filter_first n p : filter_axis ws mo cval (copies n p) 0 = copies n p.
Proof.
  unfold filter_axis. change (shp (copies n p)) with (n :: shp p). unfold copies at 2. apply tab_ext.
  intros [|i l] Hi; [discriminate|]. cbn [inb] in Hi. apply andb_true_iff in Hi as [Hi _]. apply Nat.ltb_lt in Hi.
  rewrite (Sum_ext _ (fun ow => getd p l * snd ow)).
  - rewrite Sum_scale, Hsum. cbn [tl]. ring.
  - intros ow _. unfold sample. change (shp (copies n p)) with (n :: shp p). cbn [nth].
    destruct (pad_pos_some mo n (Z.of_nat i + fst ow) Hmo) as [q Hq]. rewrite Hq. cbn [upd].
    rewrite copies_get by (apply (pad_pos_lt mo n _ q ltac:(lia) Hq)). ring.
Qed.

Lemma filter_next n p ax : filter_axis ws mo cval (copies n p) (S ax) = copies n (filter_axis ws mo cval p ax).
Proof.
  unfold filter_axis at 2. rewrite copies_tab. unfold filter_axis. change (shp (copies n p)) with (n :: shp p). apply tab_ext.
  intros [|i l] Hi; [discriminate|]. cbn [inb] in Hi. apply andb_true_iff in Hi as [Hi _]. apply Nat.ltb_lt in Hi.
  cbn [tl]. apply Sum_ext. intros ow _. f_equal. unfold sample. change (shp (copies n p)) with (n :: shp p). cbn [nth].
  destruct (pad_pos mo _ _) as [q|]; [|reflexivity]. cbn [upd]. apply copies_get, Hi.
Qed.

Lemma filter_copies n p : filter_nd ws mo cval (copies n p) = copies n (filter_nd ws mo cval p).
Proof.
  unfold filter_nd. change (length (shp (copies n p))) with (S (length (shp p))).
  cbn [seq fold_left]. rewrite filter_first, <- seq_shift. generalize (seq 0 (length (shp p))) as axs. intros axs.
  revert p. induction axs as [|ax axs IH]; intros p; [reflexivity|]. cbn [map fold_left]. rewrite filter_next. apply IH.
Qed.
End filters.

Lemma amul_copies n a b : shp b = shp a -> amul (copies n a) (copies n b) = copies n (amul a b).
Proof.
  intros E. unfold amul at 2. rewrite copies_tab. unfold amul. change (shp (copies n a)) with (n :: shp a). apply tab_ext.
  intros [|i l] Hi; [discriminate|]. cbn [inb] in Hi. apply andb_true_iff in Hi as [Hi _]. apply Nat.ltb_lt in Hi.
  rewrite !copies_get by exact Hi. reflexivity.
Qed.

Lemma map_copies big P n r m : Sum snd (p_ws P) = 1 -> p_mode P <> Constant -> shp m = shp r ->
  ssim_map big P (copies n r) (copies n m) = copies n (ssim_map big P r m).
Proof.
  intros Hs Hm E. unfold ssim_map at 2. cbv zeta. rewrite copies_tab. unfold ssim_map. change (shp (copies n r)) with (n :: shp r).
  apply tab_ext. intros [|i l] Hi; [discriminate|]. cbn [inb] in Hi. apply andb_true_iff in Hi as [Hi _]. apply Nat.ltb_lt in Hi.
  rewrite !amul_copies, !filter_copies by (assumption || reflexivity). rewrite !copies_get by exact Hi. reflexivity.
Qed.

(** ** The mean over the interior *)

Lemma mean_of_perm l l' : Permutation l l' -> mean_of l = mean_of l'.
Proof.
  intros H. unfold mean_of. destruct l as [|x l].
  - apply Permutation_nil in H. subst. reflexivity.
  - destruct l' as [|y l']; [apply Permutation_sym, Permutation_nil in H; discriminate|]. f_equal.
    rewrite !rsum_Sum, (Permutation_length H), (Sum_perm (fun v => v) _ _ H). reflexivity.
Qed.

Definition inner (pad n i : nat) : bool := ((pad <=? i) && (i + pad <? n))%nat.

Lemma interior_cons pad n s i l : interior pad (n :: s) (i :: l) = inner pad n i && interior pad s l.
Proof.
  unfold interior. cbn [length seq forallb nth]. unfold inner. f_equal. rewrite <- seq_shift.
  induction (seq 0 (length s)) as [|a L IH]; [reflexivity|]. cbn [map forallb nth]. rewrite IH. reflexivity.
Qed.

Lemma filter_flat {A B} (f : B -> bool) (g : A -> list B) l : filter f (flat_map g l) = flat_map (fun a => filter f (g a)) l.
Proof. induction l as [|a l IH]; [reflexivity|]. cbn [flat_map]. rewrite filter_app, IH. reflexivity. Qed.

Lemma filter_mapc {A B} (f : B -> bool) (g : A -> B) l : filter f (map g l) = map g (filter (fun a => f (g a)) l).
Proof. induction l as [|a l IH]; [reflexivity|]. cbn [map filter]. rewrite IH. destruct (f (g a)); reflexivity. Qed.

(** The values inside a stack are those inside the plane, again and again. *)
Lemma interior_copies pad n p :
  map (getd (copies n p)) (filter (interior pad (n :: shp p)) (indices (n :: shp p)))
  = flat_map (fun _ => map (getd p) (filter (interior pad (shp p)) (indices (shp p)))) (filter (inner pad n) (seq 0 n)).
Proof.
  cbn [indices]. rewrite filter_flat.
  assert (G : forall l, (forall i, In i l -> (i < n)%nat) ->
    map (getd (copies n p)) (flat_map (fun i => filter (interior pad (n :: shp p)) (map (cons i) (indices (shp p)))) l)
    = flat_map (fun _ => map (getd p) (filter (interior pad (shp p)) (indices (shp p)))) (filter (inner pad n) l)).
  { induction l as [|i l IH]; intros Hl; [reflexivity|]. cbn [flat_map filter]. rewrite map_app, IH by (intros j J; apply Hl; right; exact J).
    rewrite filter_mapc.
    rewrite (filter_ext (fun a => interior pad (n :: shp p) (i :: a)) (fun a => inner pad n i && interior pad (shp p) a)) by (intros a; apply interior_cons).
    assert (Hi : (i < n)%nat) by (apply Hl; left; reflexivity).
    destruct (inner pad n i).
    - cbn [flat_map andb]. rewrite map_map. f_equal. apply map_ext. intros a. apply copies_get, Hi.
    - cbn [andb]. assert (F0 : forall L : list (list nat), filter (fun _ => false) L = []) by (induction L; auto).
      rewrite F0. reflexivity. }
  apply G. intros i Hi. apply in_seq in Hi. lia.
Qed.

Lemma mean_repeat {A} (l : list R) (k : list A) : k <> [] -> mean_of (flat_map (fun _ => l) k) = mean_of l.
Proof.
  intros Hk. destruct l as [|x l].
  - assert (E : flat_map (fun _ : A => @nil R) k = []) by (induction k as [|a k IH]; [reflexivity|cbn [flat_map app]; destruct k; [reflexivity|apply IH; discriminate]]).
    rewrite E. reflexivity.
  - set (L := x :: l). assert (EL : mean_of L = Fin (rsum L / INR (length L))) by reflexivity.
    assert (ES : rsum (flat_map (fun _ => L) k) = INR (length k) * rsum L).
    { rewrite rsum_Sum, Sum_flat_map, Sum_const, <- rsum_Sum. reflexivity. }
    assert (EN : length (flat_map (fun _ => L) k) = (length k * length L)%nat).
    { clear. induction k as [|a k IH]; [reflexivity|]. cbn [flat_map length]. rewrite app_length, IH. reflexivity. }
    assert (N : flat_map (fun _ => L) k <> []) by (destruct k; [contradiction|discriminate]).
    rewrite EL. unfold mean_of. destruct (flat_map (fun _ => L) k) as [|y u] eqn:E; [contradiction|]. rewrite ES, EN, mult_INR. f_equal. field.
    split; apply not_0_INR; [discriminate|destruct k; [contradiction|discriminate]].
Qed.

Lemma mean_interior x pad : wf x -> (0 <= pad)%Z -> forall c, slice x (map (fun n => (pad, Z.of_nat n - pad)%Z) (shp x)) = Ok c ->
  mean_of (dat c) = mean_of (map (getd x) (filter (interior (Z.to_nat pad) (shp x)) (indices (shp x)))).
Proof. intros W Hp c Hc. apply mean_of_perm, slice_perm; assumption. Qed.

(** With the settings that the stack gets: the score of the plane with these. *)
Lemma score_copies big n r m kw P : shp m = shp r -> ssim_setup (n :: shp r) kw = Ok P -> Sum snd (p_ws P) = 1 -> p_mode P <> Constant ->
  (0 <= p_pad P)%Z -> (2 * p_pad P < Z.of_nat n)%Z ->
  exists c, slice (ssim_map big P r m) (map (fun n => (p_pad P, Z.of_nat n - p_pad P)%Z) (shp r)) = Ok c /\
    structural_similarity big (copies n r) (copies n m) kw = Ok (mean_of (dat c)).
Proof.
  intros E HP Hs Hm Hp Hn. unfold structural_similarity. change (shp (copies n r)) with (n :: shp r). rewrite HP. cbn [bind].
  rewrite map_copies by assumption. set (M := ssim_map big P r m). assert (SM : shp M = shp r) by reflexivity.
  assert (WM : wf M) by apply wf_tabulate.
  destruct (slice_always M (p_pad P) WM) as (c & Hc). rewrite SM in Hc. exists c. split; [exact Hc|].
  destruct (slice_always (copies n M) (p_pad P) ltac:(apply wf_tabulate)) as (c' & Hc').
  change (shp (copies n M)) with (n :: shp M) in Hc'. rewrite SM in Hc'. rewrite Hc'. cbn [bind]. f_equal.
  rewrite (mean_interior M (p_pad P) WM Hp c) by (rewrite SM; exact Hc).
  rewrite (mean_interior (copies n M) (p_pad P) ltac:(apply wf_tabulate) Hp c') by (change (shp (copies n M)) with (n :: shp M); rewrite SM; exact Hc').
  change (shp (copies n M)) with (n :: shp M). rewrite interior_copies. apply mean_repeat.
  intros X. assert (I : In (Z.to_nat (p_pad P)) (filter (inner (Z.to_nat (p_pad P)) n) (seq 0 n))).
  { apply filter_In. split; [apply in_seq; lia|]. unfold inner. apply andb_true_iff. split; [apply Nat.leb_le|apply Nat.ltb_lt]; lia. }
  rewrite X in I. destruct I.
Qed.

(** ** SSIM *)

(** With gaussian weights and no win_size a volume of n equal slices (n not below the window) has the score of the
    slice, whatever the other settings are; also the errors are the same. *)
Theorem C143_gaussian : forall big n r m k1 k2 sigma mode cval al be ga dr,
  shp m = shp r -> 0 <= k1 -> 0 <= k2 -> 0 <= sigma -> ~ In mode ["constant"; "grid-constant"]%string -> (window sigma None true <= Z.of_nat n)%Z ->
  structural_similarity big (copies n r) (copies n m) (opts k1 k2 sigma None true mode cval al be ga dr)
  = structural_similarity big r m (opts k1 k2 sigma None true mode cval al be ga dr).
Proof.
  intros big n r m k1 k2 sigma mode cval al be ga dr E H1 H2 H3 Hmode Hn.
  assert (ES : ssim_setup (n :: shp r) (opts k1 k2 sigma None true mode cval al be ga dr) = ssim_setup (shp r) (opts k1 k2 sigma None true mode cval al be ga dr)).
  { rewrite !setup_opts by assumption. cbv zeta. cbn [existsb]. rewrite (proj2 (Z.ltb_ge _ _) Hn). cbn [orb andb]. reflexivity. }
  destruct (ssim_setup (n :: shp r) (opts k1 k2 sigma None true mode cval al be ga dr)) as [P|e] eqn:HP.
  2: { unfold structural_similarity. change (shp (copies n r)) with (n :: shp r). rewrite HP, <- ES. reflexivity. }
  assert (Hpar : Sum snd (p_ws P) = 1 /\ p_mode P <> Constant /\ p_pad P = ((window sigma None true - 1) / 2)%Z).
  { rewrite setup_opts in HP by assumption. cbv zeta in HP. destruct (existsb _ _); [discriminate|]. destruct (Z.even _); [discriminate|].
    cbn [andb bind] in HP. destruct (if _ : bool then from_opt RuntimeError (mode_of mode) else Ok Reflect) as [md|] eqn:Em; [|discriminate].
    injection HP as <-. cbn [p_ws p_mode p_pad]. split; [apply gaussian_convex|]. split; [|reflexivity].
    destruct (if Rlt_dec (1 / 10 ^ 15) sigma then true else false); [|injection Em as <-; discriminate].
    destruct (mode_of mode) as [md'|] eqn:Emo; [|discriminate]. injection Em as <-. intros ->. apply Hmode.
    unfold mode_of in Emo. repeat match type of Emo with context [String.eqb ?a ?b] => destruct (String.eqb_spec a b) as [->|] end;
      cbn [orb] in Emo; try discriminate; first [left; reflexivity|right; left; reflexivity]. }
  destruct Hpar as (Hs & Hm & Hp).
  assert (Hw : (1 <= window sigma None true)%Z) by (unfold window; rewrite <- radius_spec by exact H3; lia).
  assert (P0 : (0 <= p_pad P)%Z) by (rewrite Hp; apply Z.div_pos; lia).
  assert (P1 : (2 * p_pad P < Z.of_nat n)%Z).
  { rewrite Hp. pose proof (Z.mul_div_le (window sigma None true - 1) 2 ltac:(lia)). lia. }
  destruct (score_copies big n r m _ P E HP Hs Hm P0 P1) as (c & Hc & Ec). rewrite Ec.
  unfold structural_similarity. rewrite <- ES. cbn [bind]. rewrite Hc. reflexivity.
Qed.
Print Assumptions C143_gaussian.

Theorem C143_score : forall big n r m d, shp m = shp r -> (11 <= n)%nat ->
  ssim_score big (KInt d) false (copies n r) (copies n m) None [] = ssim_score big (KInt d) false r m None [].
Proof.
  intros big n r m d E Hn. rewrite !ssim_score_default. apply C143_gaussian; auto; try lra; [intros [X|[X|[]]]; discriminate|].
  rewrite default_window. lia.
Qed.
Print Assumptions C143_score.

(** RMSE and PSNR of a stack are those of the plane. *)
Theorem C143_rmse_psnr : forall dr n r m, wf r -> wf m -> shp m = shp r -> (0 < n)%nat ->
  rmse (dat (copies n r)) (dat (copies n m)) = rmse (dat r) (dat m) /\
  (0 < dr -> psnr dr (dat (copies n r)) (dat (copies n m)) = psnr dr (dat r) (dat m)).
Proof.
  intros dr n r m Wr Wm E Hn.
  assert (D : forall p : arr R, wf p -> dat (copies n p) = flat_map (fun _ => dat p) (seq 0 n)).
  { intros p W. rewrite (dat_getd p W). unfold copies, tabulate. cbn [dat indices]. generalize (seq 0 n) as l.
    induction l as [|i l IH]; [reflexivity|]. cbn [flat_map]. rewrite map_app, IH, map_map. reflexivity. }
  rewrite !D by assumption.
  assert (L : length (dat r) = length (dat m)) by (unfold wf in *; congruence).
  assert (K : forall l : list nat, combine (flat_map (fun _ => dat r) l) (flat_map (fun _ => dat m) l) = flat_map (fun _ => combine (dat r) (dat m)) l).
  { induction l as [|i l IH]; [reflexivity|]. cbn [flat_map]. rewrite <- IH. clear -L. revert L.
    generalize (flat_map (fun _ : nat => dat r) l) as u. intros u. generalize (flat_map (fun _ : nat => dat m) l) as v. intros v.
    generalize (dat r) as a, (dat m) as b.
    induction a as [|x a IHa]; intros [|y b] L; try discriminate; [reflexivity|]. cbn [app combine]. rewrite IHa by (injection L; auto). reflexivity. }
  assert (LN : forall (A : Type) (a : list A) (l : list nat), length (flat_map (fun _ => a) l) = (length l * length a)%nat).
  { intros A a l. induction l as [|i l IH]; [reflexivity|]. cbn [flat_map length]. rewrite app_length, IH. reflexivity. }
  assert (NE : forall (A : Type) (a : list A), a <> [] -> flat_map (fun _ : nat => a) (seq 0 n) <> []).
  { intros A a H X. apply (f_equal (@length A)) in X. rewrite LN, seq_length in X. cbn [length] in X. destruct a; [contradiction|]. cbn [length] in X. nia. }
  destruct (list_eq_dec Req_EM_T (dat r) []) as [Z0|NZ].
  { rewrite Z0 in *. destruct (dat m); [|discriminate]. assert (F0 : forall l : list nat, flat_map (fun _ => @nil R) l = []) by (induction l; auto).
    rewrite F0. split; intros; reflexivity. }
  assert (S0 : Sum (fun p => (fst p - snd p) * (fst p - snd p)) (combine (flat_map (fun _ => dat r) (seq 0 n)) (flat_map (fun _ => dat m) (seq 0 n)))
             = INR n * Sum (fun p => (fst p - snd p) * (fst p - snd p)) (combine (dat r) (dat m))).
  { rewrite K, Sum_flat_map, Sum_const, seq_length. reflexivity. }
  assert (N0 : INR n <> 0) by (apply not_0_INR; lia).
  assert (N1 : INR (length (dat r)) <> 0) by (apply not_0_INR; destruct (dat r); [contradiction|discriminate]).
  assert (RM : MetricProofs.rms (flat_map (fun _ => dat r) (seq 0 n)) (flat_map (fun _ => dat m) (seq 0 n)) = MetricProofs.rms (dat r) (dat m)).
  { unfold MetricProofs.rms. rewrite S0, LN, seq_length, mult_INR. f_equal. field. auto. }
  split.
  - rewrite !rmse_fin by auto. rewrite RM. reflexivity.
  - intros Hd. destruct (list_eq_dec Req_EM_T (dat r) (dat m)) as [Eq|Ne].
    + rewrite Eq. unfold psnr. rewrite !(proj2 (list_eqbR_eq _ _) eq_refl). reflexivity.
    + assert (Ne' : flat_map (fun _ : nat => dat r) (seq 0 n) <> flat_map (fun _ => dat m) (seq 0 n)).
      { destruct n as [|n]; [lia|]. cbn [seq flat_map]. intros X. apply Ne.
        assert (Y := f_equal (firstn (length (dat r))) X). rewrite firstn_app, Nat.sub_diag, firstn_all in Y. cbn [firstn] in Y.
        rewrite app_nil_r, L, firstn_app, Nat.sub_diag, firstn_all in Y. cbn [firstn] in Y. rewrite app_nil_r in Y. exact Y. }
      rewrite !psnr_value; auto; [rewrite RM; reflexivity|]. rewrite !LN, L. reflexivity.
Qed.
Print Assumptions C143_rmse_psnr.

(** With uniform windows (as in UQI) the factor of the variances differs, n / (n - 1) for n pixels in the window, and
    with it the score. *)
Theorem C143_uniform_refuted : exists r m, shp r = [3; 3]%nat /\ shp m = [3; 3]%nat /\
  forall big, exists v v', structural_similarity big r m (opts (1 / 100) (3 / 100) (15 / 10) (Some 3%Z) false "reflect" 0 1 1 1 255) = Ok (Fin v) /\
    structural_similarity big (copies 3 r) (copies 3 m) (opts (1 / 100) (3 / 100) (15 / 10) (Some 3%Z) false "reflect" 0 1 1 1 255) = Ok (Fin v') /\ v < v'.
Proof.
  exists (pair9 255 0), (pair9 0 0). split; [reflexivity|]. split; [reflexivity|]. intros big.
  assert (HP : ssim_setup [3; 3; 3]%nat (opts (1 / 100) (3 / 100) (15 / 10) (Some 3%Z) false "reflect" 0 1 1 1 255)
    = Ok (SsimParams (uniform_weights 3) Reflect 0 1 (IZR 27 / IZR 26) ((1 / 100 * 255) * (1 / 100 * 255)) ((3 / 100 * 255) * (3 / 100 * 255)) 1 1 1)).
  { rewrite setup_opts by lra. cbv zeta. cbn [window].
    change (existsb (fun n => (Z.of_nat n <? 3)%Z) [3; 3; 3]%nat) with false. change (Z.even 3) with false.
    cbv iota. cbn [andb length]. change (3 ^ Z.of_nat 3)%Z with 27%Z. change (27 =? 1)%Z with false. cbv iota. cbn [bind].
    change (1 <? 3)%Z with true. cbv iota. change (mode_of "reflect") with (Some Reflect). cbn [from_opt bind].
    change ((3 - 1) / 2)%Z with 1%Z. change (27 - 1)%Z with 26%Z.
    assert (T1 : Rtrunc 1 = 1%Z) by (apply (Rtrunc_IZR 1); lia). rewrite T1. reflexivity. }
  set (P := SsimParams _ _ _ _ _ _ _ _ _ _) in HP.
  destruct (score_copies big 3 (pair9 255 0) (pair9 0 0) _ P eq_refl HP) as (c & Hc & Ec).
  { apply uniform_convex. reflexivity. }
  { discriminate. }
  { cbn [P p_pad]. lia. }
  { cbn [P p_pad]. lia. }
  assert (Hc2 : slice (ssim_map big P (pair9 255 0) (pair9 0 0)) (map (fun n => (1, Z.of_nat n - 1)%Z) [3; 3]%nat)
            = Ok (Arr [1; 1]%nat [getd (ssim_map big P (pair9 255 0) (pair9 0 0)) [1; 1]%nat])) by reflexivity.
  change (p_pad P) with 1%Z in Hc. change (shp (pair9 255 0)) with [3; 3]%nat in Hc. rewrite Hc2 in Hc. injection Hc as <-.
  rewrite pair9_score by lra. do 2 eexists. split; [reflexivity|]. rewrite Ec. cbn [dat mean_of rsum fold_right length INR]. split; [reflexivity|].
  rewrite Rplus_0_r. match goal with |- _ < ?x / 1 => replace (x / 1) with x by (field) end.
  unfold ssim_map. change (shp (pair9 255 0)) with [3; 3]%nat. rewrite getd_tab by reflexivity.
  change (p_ws P) with (uniform_weights 3). change (p_mode P) with Reflect. change (p_cval P) with 0.
  unfold amul. change (shp (pair9 255 0)) with [3; 3]%nat. change (shp (pair9 0 0)) with [3; 3]%nat.
  unfold pair9 at 1 2. rewrite !mean_filtered.
  assert (V : forall x y, getd (pair9 x y) [0; 0]%nat = y /\ getd (pair9 x y) [0; 1]%nat = y /\ getd (pair9 x y) [0; 2]%nat = y /\
    getd (pair9 x y) [1; 0]%nat = y /\ getd (pair9 x y) [1; 1]%nat = x /\ getd (pair9 x y) [1; 2]%nat = y /\
    getd (pair9 x y) [2; 0]%nat = y /\ getd (pair9 x y) [2; 1]%nat = y /\ getd (pair9 x y) [2; 2]%nat = y) by (repeat split; reflexivity).
  destruct (V 255 0) as (-> & -> & -> & -> & -> & -> & -> & -> & ->).
  destruct (V 0 0) as (-> & -> & -> & -> & -> & -> & -> & -> & ->).
  unfold P. rewrite pixel_formula by lra.
  match goal with |- ?a / ?b < ?c / ?d => apply Rlt_trans with (67 / 1000000) end.
  - apply below_div; lra.
  - apply above_div; lra.
Qed.
Print Assumptions C143_uniform_refuted.

(** ** Examples *)

Example C143_copies_ex : copies 2 (Arr [1; 2]%nat [3; 4]) = Arr [2; 1; 2]%nat [3; 4; 3; 4].
Proof. reflexivity. Qed.

Example C143_window_ex : (window 0 None true <= Z.of_nat 1)%Z.
Proof.
  unfold window. replace (7 / 2 * 0 + 1 / 2) with (1 / 2) by lra. rewrite (Int_part_unique (1 / 2) 0) by lra. cbn. lia.
Qed.
