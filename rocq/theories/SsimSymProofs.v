(** Proofs about SSIM for C120 - C122: only identical images score 1; scaling; orientation. *)
From Coq Require Import Reals Lra Psatz Permutation.
From Verif Require Import Base NdArray LoadModel LoadProofs NormModel NormProofs PairModel PairProofs RealSums
  MetricModel SsimModel SsimProofs.
Local Open Scope R_scope.

(** ** Pixels of score one *)

Lemma zpow_one x e : (1 <= e)%Z -> Rabs x <= 1 -> Rabs (zpow x e) = 1 -> Rabs x = 1.
Proof.
  intros He Hx H. unfold zpow in H. destruct (Z.leb_spec 0 e); [|lia].
  assert (Hn : exists n, Z.to_nat e = S n) by (exists (Z.to_nat (e - 1)); lia).
  destruct Hn as [n Hn]. rewrite Hn in H. simpl in H. rewrite Rabs_mult in H.
  assert (Rabs (x ^ n) <= 1).
  { rewrite <- RPow_abs. rewrite <- (pow1 n). apply pow_incr. split; [apply Rabs_pos|exact Hx]. }
  pose proof (Rabs_pos x). pose proof (Rabs_pos (x ^ n)). nra.
Qed.

Lemma three_ones a b c : Rabs a <= 1 -> Rabs b <= 1 -> Rabs c <= 1 -> a * b * c = 1 ->
  Rabs a = 1 /\ Rabs b = 1 /\ Rabs c = 1.
Proof.
  intros Ha Hb Hc H. assert (E : Rabs a * Rabs b * Rabs c = 1) by (rewrite <- !Rabs_mult, H; apply Rabs_R1).
  pose proof (Rabs_pos a). pose proof (Rabs_pos b). pose proof (Rabs_pos c).
  assert (Rabs a * Rabs b <= 1) by nra. assert (0 <= Rabs a * Rabs b) by nra.
  assert (Rabs a * Rabs c <= 1) by nra. assert (Rabs b * Rabs c <= 1) by nra.
  assert (0 <= Rabs a * Rabs c) by nra. assert (0 <= Rabs b * Rabs c) by nra.
  repeat split; nra.
Qed.

Lemma nan1_one big num den : Rabs num <= den -> 0 < num + den -> Rabs (nan1 big num den) = 1 -> num = den.
Proof.
  intros H Hp H1. apply Rabs_le_inv in H. unfold nan1 in H1. destruct (Req_EM_T den 0) as [E|E]; [lra|].
  assert (Hd : 0 < den) by lra.
  unfold Rabs in H1. destruct (Rcase_abs (num / den)).
  - assert (num = - den); [|lra]. apply Rmult_eq_reg_r with (/ den); [|apply Rinv_neq_0_compat; lra].
    unfold Rdiv in *. rewrite Ropp_mult_distr_l_reverse, Rinv_r by lra. lra.
  - apply Rmult_eq_reg_r with (/ den); [|apply Rinv_neq_0_compat; lra].
    unfold Rdiv in *. rewrite Rinv_r by lra. lra.
Qed.

(** A window that scores 1 contains the same mean, variance and covariance. *)
Lemma pixel_one big P ux uy uxx uyy uxy :
  let vx := p_cov P * (uxx - ux * ux) in let vy := p_cov P * (uyy - uy * uy) in
  let vxy := p_cov P * (uxy - ux * uy) in
  0 <= vx -> 0 <= vy -> Rabs vxy <= sqrt vx * sqrt vy -> 0 < p_c1 P -> 0 < p_c2 P ->
  (1 <= p_al P)%Z -> (1 <= p_be P)%Z -> (1 <= p_ga P)%Z ->
  ssim_pixel big P ux uy uxx uyy uxy = 1 -> ux = uy /\ vx = vy /\ vxy = vx.
Proof.
  intros vx vy vxy Hx Hy Hxy H1 H2 Ha Hb Hg. unfold ssim_pixel. fold vx vy vxy. cbv zeta.
  unfold osqrt. destruct (Rlt_dec vx 0); [lra|]. destruct (Rlt_dec vy 0); [lra|].
  set (sx := sqrt vx) in *. set (sy := sqrt vy) in *.
  assert (Hsx : 0 <= sx) by apply sqrt_pos. assert (Hsy : 0 <= sy) by apply sqrt_pos.
  assert (Ex : sx * sx = vx) by (apply sqrt_sqrt; lra).
  assert (Ey : sy * sy = vy) by (apply sqrt_sqrt; lra).
  assert (Ss : 0 <= sx * sy) by (apply Rmult_le_pos; assumption).
  pose proof (Rabs_le_inv _ _ Hxy) as Hxy'.
  assert (B1 : Rabs (2 * ux * uy + p_c1 P) <= ux * ux + uy * uy + p_c1 P).
  { pose proof (Rle_0_sqr (ux + uy)); pose proof (Rle_0_sqr (ux - uy)); unfold Rsqr in *; apply Rabs_le; split; lra. }
  assert (B2 : Rabs (2 * sx * sy + p_c2 P) <= vx + vy + p_c2 P).
  { rewrite <- Ex, <- Ey. pose proof (Rle_0_sqr (sx - sy)). unfold Rsqr in *. apply Rabs_le; split; lra. }
  assert (B3 : Rabs (vxy + p_c2 P / 2) <= sx * sy + p_c2 P / 2) by (apply Rabs_le; lra).
  pose proof (nan1_abs big _ _ B1) as N1. pose proof (nan1_abs big _ _ B2) as N2.
  pose proof (nan1_abs big _ _ B3) as N3. intros E.
  apply three_ones in E; try (apply zpow_abs; [lia|assumption]).
  destruct E as (E1 & E2 & E3).
  apply zpow_one in E1, E2, E3; try assumption.
  apply nan1_one in E1; [|exact B1|pose proof (Rle_0_sqr (ux + uy)); unfold Rsqr in *; lra].
  apply nan1_one in E2; [|exact B2|lra].
  apply nan1_one in E3; [|exact B3|lra].
  assert (Eu : ux = uy).
  { assert ((ux - uy) * (ux - uy) = 0) by lra. apply Rmult_integral in H. lra. }
  assert (Es : sx = sy).
  { assert ((sx - sy) * (sx - sy) = 0) by lra. apply Rmult_integral in H. lra. }
  split; [exact Eu|]. rewrite <- Ex, <- Ey, Es in *. split; lra.
Qed.

(** ** The mean is one only if all values are *)
Lemma mean_one (l : list R) : (forall x, In x l -> x <= 1) -> mean_of l = Fin 1 -> forall x, In x l -> x = 1.
Proof.
  intros H E. unfold mean_of in E. destruct l as [|y l']; [discriminate|]. set (l := y :: l') in *.
  assert (E' : rsum l / INR (length l) = 1) by (injection E; auto).
  assert (Hn : 0 < INR (length l)) by (apply lt_0_INR; simpl; lia).
  assert (Es : rsum l = INR (length l)).
  { apply Rmult_eq_reg_r with (/ INR (length l)); [|apply Rinv_neq_0_compat; lra].
    rewrite Rinv_r by lra. exact E'. }
  assert (Z0 : Sum (fun x => 1 - x) l = 0).
  { rewrite Sum_minus, <- rsum_Sum, Sum_const, Es. ring. }
  intros x Hx. assert (1 - x = 0); [|lra].
  apply (Sum_zero_inv (fun x => 1 - x) l); [|exact Z0|exact Hx]. intros a Ha. specialize (H a Ha). lra.
Qed.

(** ** A filtered non-negative image vanishes only where its window does *)

Definition covers (rad : nat) (ws : list (Z * R)) : Prop :=
  (forall ow, In ow ws -> 0 < snd ow) /\
  forall o, (- Z.of_nat rad <= o <= Z.of_nat rad)%Z -> exists w, In (o, w) ws.

Definition inside (rad : nat) (s idx : list nat) (axes : list nat) : Prop :=
  forall ax, In ax axes -> (rad <= nth ax idx 0 /\ nth ax idx 0 + rad < nth ax s 0)%nat.

Lemma filter_nonneg ws m cval s axes : (forall ow, In ow ws -> 0 < snd ow) ->
  forall a, shp a = s -> 0 <= cval \/ m <> Constant ->
  (forall idx, inb s idx = true -> 0 <= getd a idx) ->
  (forall ax, In ax axes -> (ax < length s)%nat) ->
  forall idx, inb s idx = true -> 0 <= getd (fold_left (filter_axis ws m cval) axes a) idx.
Proof.
  intros Hw. induction axes as [|ax axes IH]; intros a Ha Hcv Hpos Hax idx Hi; simpl; [apply Hpos, Hi|].
  apply IH; try assumption.
  - intros j Hj. unfold filter_axis. rewrite getd_tab by (rewrite Ha; exact Hj).
    apply Sum_nonneg. intros ow How. apply Rmult_le_pos; [left; apply Hw, How|].
    unfold sample. rewrite Ha. assert (Hlt : (ax < length s)%nat) by (apply Hax; left; reflexivity).
    destruct (pad_pos _ _ _) as [q|] eqn:E.
    + apply Hpos. apply SsimProofs.inb_upd; try assumption.
      apply (pad_pos_lt m _ _ _) in E; [exact E|]. pose proof (SsimProofs.inb_nth s j ax Hj Hlt). lia.
    + destruct Hcv as [|Hm]; [assumption|]. destruct (pad_pos_some m (nth ax s 0%nat) (Z.of_nat (nth ax j 0%nat) + fst ow) Hm). congruence.
  - intros ax' H'. apply Hax. right. exact H'.
Qed.

Lemma upd_same {A} (l : list A) n v d : nth n l d = v -> upd l n v = l.
Proof.
  revert n. induction l as [|x l IH]; intros [|n] H; simpl in *; try reflexivity; [congruence|].
  f_equal. apply IH, H.
Qed.

Lemma list_nth_eq (l l' : list nat) : length l = length l' ->
  (forall k, (k < length l)%nat -> nth k l 0%nat = nth k l' 0%nat) -> l = l'.
Proof. intros Hl H. apply (nth_ext l l' 0%nat 0%nat Hl). exact H. Qed.

Lemma filter_zero ws m cval s rad axes : covers rad ws -> near rad ws -> NoDup axes ->
  (forall ax, In ax axes -> (ax < length s)%nat) ->
  forall a, shp a = s -> 0 <= cval \/ m <> Constant ->
  (forall idx, inb s idx = true -> 0 <= getd a idx) ->
  forall idx j, inb s idx = true -> inb s j = true -> inside rad s idx axes ->
  (forall ax, (ax < length s)%nat ->
     if in_dec Nat.eq_dec ax axes
     then (nth ax idx 0 <= nth ax j 0 + rad /\ nth ax j 0 <= nth ax idx 0 + rad)%nat
     else nth ax j 0%nat = nth ax idx 0%nat) ->
  getd (fold_left (filter_axis ws m cval) axes a) idx = 0 -> getd a j = 0.
Proof.
  intros [Hw Hc] Hnear. induction axes as [|ax axes IH] using rev_ind; intros Hnd Hax a Ha Hcv Hpos idx j Hi Hj Hin Hwin H.
  - simpl in H. replace j with idx; [exact H|]. apply list_nth_eq.
    + apply inb_length in Hi, Hj. congruence.
    + intros k Hk. symmetry. apply (Hwin k). apply inb_length in Hi. lia.
  - assert (Hlt : (ax < length s)%nat) by (apply Hax, in_or_app; right; left; reflexivity).
    apply NoDup_remove in Hnd. rewrite app_nil_r in Hnd. destruct Hnd as [Hnd Hnin].
    assert (Hax' : forall x, In x axes -> (x < length s)%nat) by (intros x Hx; apply Hax, in_or_app; left; exact Hx).
    rewrite fold_left_app in H. simpl in H. unfold filter_axis at 1 in H.
    rewrite getd_tab in H by (rewrite shp_fold, Ha; exact Hi).
    set (b := fold_left (filter_axis ws m cval) axes a) in *.
    assert (Sb : shp b = s) by (unfold b; rewrite shp_fold; exact Ha).
    assert (Ba : forall i, inb s i = true -> 0 <= getd b i) by (intros i Hi'; apply filter_nonneg with (s := s); assumption).
    destruct (Hin ax) as [I1 I2]; [apply in_or_app; right; left; reflexivity|].
    assert (Ja : (nth ax idx 0 <= nth ax j 0 + rad /\ nth ax j 0 <= nth ax idx 0 + rad)%nat).
    { specialize (Hwin ax Hlt). destruct (in_dec Nat.eq_dec ax (axes ++ [ax])) as [|N]; [assumption|].
      exfalso. apply N, in_or_app. right; left; reflexivity. }
    pose proof (SsimProofs.inb_nth s j ax Hj Hlt) as Jlt.
    destruct (Hc (Z.of_nat (nth ax j 0%nat) - Z.of_nat (nth ax idx 0%nat))%Z) as [w How]; [lia|].
    assert (T : snd (Z.of_nat (nth ax j 0%nat) - Z.of_nat (nth ax idx 0%nat), w)%Z *
                sample m cval b ax idx (fst (Z.of_nat (nth ax j 0%nat) - Z.of_nat (nth ax idx 0%nat), w)%Z) = 0).
    { apply (Sum_zero_inv (fun ow => snd ow * sample m cval b ax idx (fst ow)) ws); [|exact H|exact How].
      intros ow Ho. apply Rmult_le_pos; [left; apply Hw, Ho|]. specialize (Hnear ow Ho).
      unfold sample. rewrite Sb, pad_pos_in by lia. apply Ba, SsimProofs.inb_upd; try assumption. lia. }
    cbn [fst snd] in T. specialize (Hw _ How). cbn [snd] in Hw.
    apply Rmult_integral in T as [T|T]; [lra|].
    unfold sample in T. rewrite Sb, pad_pos_in in T by lia.
    replace (Z.to_nat _) with (nth ax j 0%nat) in T by lia.
    apply (IH Hnd Hax' a Ha Hcv Hpos (upd idx ax (nth ax j 0%nat)) j); try assumption.
    + apply SsimProofs.inb_upd; assumption.
    + intros x Hx. rewrite nth_upd. destruct (Nat.eqb_spec x ax) as [->|]; [contradiction|]. simpl.
      apply Hin, in_or_app. left; exact Hx.
    + intros x Hx. specialize (Hwin x Hx). rewrite nth_upd. apply inb_length in Hi.
      destruct (Nat.eqb_spec x ax) as [->|Hne].
      * rewrite (proj2 (Nat.ltb_lt _ _)) by lia. simpl.
        destruct (in_dec Nat.eq_dec ax axes); [contradiction|reflexivity].
      * simpl. destruct (in_dec Nat.eq_dec x axes) as [I|I], (in_dec Nat.eq_dec x (axes ++ [ax])) as [J|J]; try assumption.
        -- exfalso. apply J, in_or_app. left; exact I.
        -- exfalso. apply in_app_or in J as [J|[J|[]]]; [contradiction|congruence].
Qed.

Lemma in_offsets rad o : (- Z.of_nat rad <= o <= Z.of_nat rad)%Z -> In o (offsets rad).
Proof.
  intros H. unfold offsets. apply in_map_iff. exists (Z.to_nat (o + Z.of_nat rad)). split; [lia|].
  apply in_seq. lia.
Qed.

Lemma gaussian_covers sigma rad : covers rad (gaussian_weights sigma rad).
Proof.
  unfold gaussian_weights. split.
  - intros ow H. apply in_map_iff in H as (k & <- & _). simpl. apply Rdiv_lt_0_compat; [apply gauss_pos|].
    apply Sum_pos; [apply offsets_nonempty|]. intros; apply gauss_pos.
  - intros o Ho. eexists. apply in_map_iff. exists o. split; [reflexivity|]. apply in_offsets, Ho.
Qed.

Lemma uniform_covers size : (0 < size)%Z -> covers (Z.to_nat ((size - 1) / 2)) (uniform_weights size).
Proof.
  intros Hs. unfold uniform_weights. destruct (Z.leb_spec size 1).
  - replace size with 1%Z by lia. simpl. split.
    + intros ow [<-|[]]. simpl. lra.
    + intros o Ho. exists 1. left. f_equal. change (Z.of_nat (Z.to_nat (0 / 2)))%Z with 0%Z in Ho. lia.
  - split.
    + intros ow H'. apply in_map_iff in H' as (k & <- & _). simpl. apply Rinv_0_lt_compat, IZR_lt. lia.
    + intros o Ho. eexists. apply in_map_iff. exists o. split; [reflexivity|]. apply in_offsets, Ho.
Qed.

(** ** Every pixel lies in the window of a pixel that is counted *)

Fixpoint clamp (rad : nat) (s j : list nat) : list nat :=
  match s, j with
  | n :: s', i :: j' => Nat.max rad (Nat.min i (n - 1 - rad)) :: clamp rad s' j'
  | _, _ => []
  end.

Lemma clamp_spec rad s j : inb s j = true -> (forall n, In n s -> (2 * rad < n)%nat) ->
  inb s (clamp rad s j) = true /\
  forall ax, (ax < length s)%nat ->
    (rad <= nth ax (clamp rad s j) 0 /\ nth ax (clamp rad s j) 0 + rad < nth ax s 0)%nat /\
    (nth ax (clamp rad s j) 0 <= nth ax j 0 + rad /\ nth ax j 0 <= nth ax (clamp rad s j) 0 + rad)%nat.
Proof.
  revert j. induction s as [|n s IH]; intros [|i j]; simpl; try discriminate.
  - intros _ _. split; [reflexivity|]. intros; lia.
  - intros H Hn. apply andb_true_iff in H as [H1 H]. apply Nat.ltb_lt in H1.
    destruct (IH j H) as [Ha Hb]; [intros k Hk; apply Hn; right; exact Hk|].
    specialize (Hn n (or_introl eq_refl)). split.
    + rewrite Ha, andb_true_r. apply Nat.ltb_lt. lia.
    + intros [|ax] Hax; simpl; [lia|]. apply Hb. lia.
Qed.

(** ** The counted values: all pixels of the map away from the border *)
Lemma border_slice s pad idx : (0 <= pad)%Z -> inb s idx = true ->
  (forall ax, (ax < length s)%nat -> (Z.to_nat pad <= nth ax idx 0 /\ nth ax idx 0 + Z.to_nat pad < nth ax s 0)%nat) ->
  let r := map (fun n => (pad, Z.of_nat n - pad)%Z) s in
  exists i, inb (slice_shape s r) i = true /\ slice_index s r i = idx.
Proof.
  intros Hp. simpl. revert idx. induction s as [|n s IH]; intros [|i idx]; simpl; try discriminate.
  - intros _ _. exists []. split; reflexivity.
  - intros H Hb. apply andb_true_iff in H as [H1 H]. apply Nat.ltb_lt in H1.
    destruct (IH idx H) as (t & T1 & T2); [intros ax Hax; apply (Hb (S ax)); lia|].
    pose proof (Hb 0%nat ltac:(lia)) as [B1 B2]. simpl in B1, B2.
    exists ((i - Z.to_nat pad)%nat :: t). simpl. rewrite T1, T2, andb_true_r.
    unfold clip. destruct (Z.ltb_spec pad 0), (Z.ltb_spec (Z.of_nat n - pad) 0); try lia.
    split; [apply Nat.ltb_lt; lia|]. f_equal. lia.
Qed.

Lemma ssim_all_values big r m kw e :
  structural_similarity big r m kw = Ok e ->
  (forall w, dget kw "win_size" = Some (KInt w) -> (0 < w)%Z) ->
  exists P l, ssim_setup (shp r) kw = Ok P /\ e = mean_of l /\
    forall x, In x l <-> exists idx, inb (shp r) idx = true /\ x = getd (ssim_map big P r m) idx /\
      forall ax, (ax < length (shp r))%nat -> (Z.to_nat (p_pad P) <= nth ax idx 0 /\
                                        nth ax idx 0 + Z.to_nat (p_pad P) < nth ax (shp r) 0)%nat.
Proof.
  unfold structural_similarity. intros H Hw. apply bind_ok in H as (P & HP & H).
  apply bind_ok in H as (c & Hc & H). injection H as <-.
  exists P, (dat c). split; [exact HP|]. split; [reflexivity|].
  destruct (setup_ok _ _ _ HP) as (rad & win & _ & _ & _ & _ & _ & Hpad & Hodd & Hext & Hpos & _).
  specialize (Hpos Hw).
  assert (Hp0 : (0 <= p_pad P)%Z) by (rewrite Hpad; apply Z.div_pos; lia).
  destruct (slice_ok (ssim_map big P r m) (map (fun n => (p_pad P, Z.of_nat n - p_pad P)%Z) (shp r)))
    as (c' & Hc' & Hs & Hwf & Hg).
  { apply wf_tabulate. } { rewrite map_length. simpl. lia. }
  rewrite Hc' in Hc. injection Hc as ->. cbn [ssim_map tabulate shp] in Hs.
  intros x. split.
  - intros Hx. destruct (in_dat c x Hwf Hx) as (idx & Hi & Hgx).
    rewrite (Hg idx Hi) in Hgx. cbn [ssim_map tabulate shp] in Hgx. rewrite Hs in Hi.
    destruct (slice_border (shp r) (p_pad P) idx Hp0 Hi) as [Ha Hb].
    exists (slice_index (shp r) (map (fun n => (p_pad P, Z.of_nat n - p_pad P)%Z) (shp r)) idx).
    split; [exact Ha|]. split; [|exact Hb]. unfold getd. rewrite Hgx. reflexivity.
  - intros (idx & Hi & -> & Hb).
    destruct (border_slice (shp r) (p_pad P) idx Hp0 Hi Hb) as (i & I1 & I2).
    rewrite <- Hs in I1. pose proof (Hg i I1) as G. cbn [ssim_map tabulate shp] in G. rewrite I2 in G.
    destruct (get_wf_some (ssim_map big P r m) idx (wf_tabulate _ _) Hi) as [v Hv].
    unfold getd. rewrite Hv. change (get c i = get (ssim_map big P r m) idx) in G. rewrite Hv in G.
    unfold get in G. destruct (inb (shp c) i); [|discriminate]. apply nth_error_In in G. exact G.
Qed.

(** ** Score one means identical *)

Definition asub (a b : arr R) : arr R := tabulate (shp a) (fun idx => getd a idx - getd b idx).

Lemma filter_square ws m cval s rad idx a b : convex snd ws -> near rad ws -> inb s idx = true ->
  shp a = s -> shp b = s -> inside rad s idx (seq 0 (length s)) ->
  let f := fun x => getd (filter_nd ws m cval x) idx in
  getd (filter_nd ws m 0 (amul (asub a b) (asub a b))) idx = f (amul a a) + f (amul b b) - 2 * f (amul a b).
Proof.
  intros Hcv Hnear Hi Ha Hb Hin. cbv zeta. destruct (axes_seq (length s)) as [Hnd Hlt].
  destruct (filter_kernel ws m s rad Hcv Hnear _ Hnd Hlt idx Hi) as (K & _ & Kin & _ & K2 & K3).
  specialize (K2 Hin). unfold filter_nd.
  change (shp (amul (asub a b) (asub a b))) with (shp a).
  change (shp (amul a a)) with (shp a). change (shp (amul b b)) with (shp b). change (shp (amul a b)) with (shp a).
  rewrite Ha, Hb. rewrite !K3 by (try exact Ha; exact Hb).
  rewrite <- Sum_scale, <- Sum_plus, <- Sum_minus. apply Sum_ext. intros [w p] Hk. cbn [fst snd].
  destruct p as [i|]; [|exfalso; exact (K2 _ Hk)]. cbn [val].
  assert (Hi' : inb s i = true) by exact (Kin _ _ Hk).
  rewrite !getd_amul by (try (change (shp (asub a b)) with (shp a)); congruence).
  unfold asub. rewrite !getd_tab by congruence. ring.
Qed.

Lemma ssim_one big P r m :
  let s := shp r in let rad := Z.to_nat (p_pad P) in
  wf r -> wf m -> shp m = s -> convex snd (p_ws P) -> near rad (p_ws P) -> covers rad (p_ws P) ->
  0 < p_cov P -> 0 < p_c1 P -> 0 < p_c2 P ->
  (1 <= p_al P)%Z -> (1 <= p_be P)%Z -> (1 <= p_ga P)%Z ->
  (forall n, In n s -> (2 * rad < n)%nat) ->
  (forall idx, inb s idx = true -> inside rad s idx (seq 0 (length s)) -> getd (ssim_map big P r m) idx = 1) ->
  r = m.
Proof.
  intros s rad Wr Wm Es Hcv Hnear Hcov Hn H1 H2 Ha Hb Hg Hs Hone.
  assert (Hj : forall j, inb s j = true -> getd r j = getd m j).
  { intros j Hj. destruct (clamp_spec rad s j Hj Hs) as [Ci Cb]. set (idx := clamp rad s j) in *.
    destruct (axes_seq (length s)) as [Hnd Hlt].
    assert (Hin : inside rad s idx (seq 0 (length s))) by (intros ax Hax; apply Cb, Hlt, Hax).
    specialize (Hone idx Ci Hin). unfold ssim_map in Hone. rewrite getd_tab in Hone by exact Ci.
    assert (E : getd (filter_nd (p_ws P) (p_mode P) 0 (amul (asub r m) (asub r m))) idx = 0).
    { rewrite (filter_square _ _ (p_cval P) s rad) by (try assumption; reflexivity).
      destruct (filter_kernel (p_ws P) (p_mode P) s rad Hcv Hnear _ Hnd Hlt idx Ci) as (K & HK & Kin & _ & K2 & K3).
      specialize (K2 Hin).
      assert (Fx : forall a, shp a = s -> getd (filter_nd (p_ws P) (p_mode P) (p_cval P) a) idx
                     = Sum (fun k => fst k * val (p_cval P) a (snd k)) K)
        by (intros a Ea; unfold filter_nd; rewrite Ea; apply K3, Ea).
      assert (Fm : forall a b, shp a = s -> shp b = s ->
         getd (filter_nd (p_ws P) (p_mode P) (p_cval P) (amul a b)) idx
         = Sum (fun k => fst k * (val (p_cval P) a (snd k) * val (p_cval P) b (snd k))) K).
      { intros a b Ea Eb. rewrite Fx by exact Ea. apply Sum_ext. intros [w p] Hk. cbn [fst snd].
        destruct p as [i|]; [|exfalso; exact (K2 _ Hk)]. cbn [val]. rewrite getd_amul; [reflexivity|].
        rewrite Ea. exact (Kin _ _ Hk). }
      rewrite (Fx r), (Fx m), !Fm in Hone by (try reflexivity; exact Es).
      rewrite !Fm by (try reflexivity; exact Es).
      set (fr := fun k : R * option (list nat) => val (p_cval P) r (snd k)) in *.
      set (fm := fun k : R * option (list nat) => val (p_cval P) m (snd k)) in *.
      set (ux := Sum (fun k => fst k * val (p_cval P) r (snd k)) K) in *.
      set (uy := Sum (fun k => fst k * val (p_cval P) m (snd k)) K) in *.
      set (uxx := Sum (fun k => fst k * (val (p_cval P) r (snd k) * val (p_cval P) r (snd k))) K) in *.
      set (uyy := Sum (fun k => fst k * (val (p_cval P) m (snd k) * val (p_cval P) m (snd k))) K) in *.
      set (uxy := Sum (fun k => fst k * (val (p_cval P) r (snd k) * val (p_cval P) m (snd k))) K) in *.
      pose proof (variance fst fr fr K HK) as Vx. pose proof (variance fst fm fm K HK) as Vy.
      pose proof (variance fst fr fm K HK) as Vxy.
      assert (Exx : uxx - ux * ux = Sum (fun a => fst a * (fr a - ux) * (fr a - ux)) K) by exact Vx.
      assert (Eyy : uyy - uy * uy = Sum (fun a => fst a * (fm a - uy) * (fm a - uy)) K) by exact Vy.
      assert (Exy : uxy - ux * uy = Sum (fun a => fst a * (fr a - ux) * (fm a - uy)) K) by exact Vxy.
      clear Vx Vy Vxy.
      assert (CS : (uxy - ux * uy) * (uxy - ux * uy) <= (uxx - ux * ux) * (uyy - uy * uy)).
      { rewrite Exx, Eyy, Exy. apply (cauchy_schwarz fst (fun a => fr a - ux) (fun a => fm a - uy)), (proj1 HK). }
      assert (Hxx : 0 <= uxx - ux * ux) by (rewrite Exx; apply (sq_sum_nonneg fst (fun a => fr a - ux)), (proj1 HK)).
      assert (Hyy : 0 <= uyy - uy * uy) by (rewrite Eyy; apply (sq_sum_nonneg fst (fun a => fm a - uy)), (proj1 HK)).
      apply pixel_one in Hone; try assumption.
      - destruct Hone as (Q1 & Q2 & Q3).
        assert (T2 : uxx - ux * ux = uyy - uy * uy) by (apply Rmult_eq_reg_l with (p_cov P); [exact Q2|lra]).
        assert (T3 : uxy - ux * uy = uxx - ux * ux) by (apply Rmult_eq_reg_l with (p_cov P); [exact Q3|lra]).
        rewrite Q1 in *. lra.
      - apply Rmult_le_pos; lra.
      - apply Rmult_le_pos; lra.
      - rewrite <- sqrt_mult by (apply Rmult_le_pos; lra). rewrite <- sqrt_Rsqr_abs. apply sqrt_le_1_alt.
        unfold Rsqr. replace (p_cov P * (uxy - ux * uy) * (p_cov P * (uxy - ux * uy)))
          with (p_cov P * p_cov P * ((uxy - ux * uy) * (uxy - ux * uy))) by ring.
        replace (p_cov P * (uxx - ux * ux) * (p_cov P * (uyy - uy * uy)))
          with (p_cov P * p_cov P * ((uxx - ux * ux) * (uyy - uy * uy))) by ring.
        apply Rmult_le_compat_l; [|exact CS]. apply Rmult_le_pos; lra. }
    assert (Z0 : getd (amul (asub r m) (asub r m)) j = 0).
    { apply (filter_zero (p_ws P) (p_mode P) 0 s rad (seq 0 (length s))) with (idx := idx); try assumption.
      - reflexivity.
      - left; lra.
      - intros i Hi. rewrite getd_amul by exact Hi. apply Rle_0_sqr.
      - intros ax Hax. destruct (in_dec Nat.eq_dec ax (seq 0 (length s))) as [_|N].
        + apply (Cb ax Hax).
        + exfalso. apply N, in_seq. lia. }
    rewrite getd_amul in Z0 by exact Hj. unfold asub in Z0. rewrite !getd_tab in Z0 by exact Hj.
    apply Rmult_integral in Z0. lra. }
  apply arr_ext; try assumption; [symmetry; exact Es|]. intros idx Hi. specialize (Hj idx Hi).
  destruct (get_wf_some r idx Wr Hi) as [x Hx]. assert (Hi' : inb (shp m) idx = true) by (rewrite Es; exact Hi).
  destruct (get_wf_some m idx Wm Hi') as [y Hy]. unfold getd in Hj. rewrite Hx, Hy in *. congruence.
Qed.

(** ** Scaling the grey values *)

Definition scale (c : R) (a : arr R) : arr R := amap (Rmult c) a.

Lemma getd_scale c a idx : getd (scale c a) idx = c * getd a idx.
Proof. unfold getd, scale. rewrite get_amap. destruct (get a idx); simpl; [reflexivity|ring]. Qed.

Lemma amul_scale c d a b : amul (scale c a) (scale d b) = scale (c * d) (amul a b).
Proof.
  unfold amul, scale, amap, tabulate. cbn [shp dat]. f_equal. rewrite map_map. apply map_ext. intros idx.
  fold (amap (Rmult c) a). fold (scale c a). fold (amap (Rmult d) b). fold (scale d b). rewrite !getd_scale. ring.
Qed.

Lemma filter_axis_scale ws m c a ax : filter_axis ws m 0 (scale c a) ax = scale c (filter_axis ws m 0 a ax).
Proof.
  unfold filter_axis, scale, amap, tabulate. cbn [shp dat]. f_equal. rewrite map_map. apply map_ext. intros idx.
  rewrite <- Sum_scale. apply Sum_ext. intros ow _. fold (amap (Rmult c) a). fold (scale c a).
  unfold sample. change (shp (scale c a)) with (shp a). destruct (pad_pos _ _ _); [rewrite getd_scale|]; ring.
Qed.

Lemma filter_scale ws m c a : filter_nd ws m 0 (scale c a) = scale c (filter_nd ws m 0 a).
Proof.
  unfold filter_nd. change (shp (scale c a)) with (shp a). generalize (seq 0 (length (shp a))). intros axes.
  revert a. induction axes as [|ax axes IH]; intros a; simpl; [reflexivity|]. rewrite filter_axis_scale. apply IH.
Qed.

Lemma nan1_scale big k num den : 0 < k -> nan1 big (k * num) (k * den) = nan1 big num den.
Proof.
  intros Hk. unfold nan1. destruct (Req_EM_T (k * den) 0) as [E|E], (Req_EM_T den 0) as [F|F].
  - destruct (Rlt_dec 0 (k * num)), (Rlt_dec 0 num); try reflexivity.
    + exfalso. nra.
    + exfalso. apply n. apply Rmult_lt_0_compat; assumption.
    + destruct (Rlt_dec (k * num) 0), (Rlt_dec num 0); try reflexivity; exfalso; nra.
  - exfalso. apply Rmult_integral in E. lra.
  - exfalso. apply E. rewrite F. ring.
  - field. split; [exact F|lra].
Qed.

Lemma osqrt_scale k v : 0 <= k -> osqrt (k * k * v) = match osqrt v with Some s => Some (k * s) | None => if Req_EM_T k 0 then Some 0 else None end.
Proof.
  intros Hk. unfold osqrt. destruct (Rlt_dec v 0) as [L|L].
  - destruct (Req_EM_T k 0) as [->|N].
    + replace (0 * 0 * v) with 0 by ring. destruct (Rlt_dec 0 0); [lra|]. rewrite sqrt_0. reflexivity.
    + destruct (Rlt_dec (k * k * v) 0) as [|C]; [reflexivity|]. exfalso. apply C. assert (0 < k * k) by nra. nra.
  - destruct (Rlt_dec (k * k * v) 0) as [C|C]; [exfalso; assert (0 <= k * k) by nra; nra|].
    rewrite sqrt_mult by nra. rewrite sqrt_square by exact Hk. reflexivity.
Qed.

(** The parameters for grey values scaled by [c]. *)
Definition scale_params (c : R) (P : ssim_params) : ssim_params :=
  SsimParams (p_ws P) (p_mode P) (p_cval P) (p_pad P) (p_cov P) (c * c * p_c1 P) (c * c * p_c2 P)
    (p_al P) (p_be P) (p_ga P).

Lemma pixel_scale big P c ux uy uxx uyy uxy : c <> 0 ->
  ssim_pixel big (scale_params c P) (c * ux) (c * uy) (c * c * uxx) (c * c * uyy) (c * c * uxy)
  = ssim_pixel big P ux uy uxx uyy uxy.
Proof.
  intros Hc. assert (Hcc : 0 < c * c) by (apply Rsqr_pos_lt; exact Hc).
  assert (Ha : 0 < Rabs c) by (apply Rabs_pos_lt; exact Hc).
  assert (E : c * c = Rabs c * Rabs c) by (rewrite <- Rabs_mult; symmetry; apply Rabs_pos_eq; lra).
  unfold ssim_pixel, scale_params. cbn [p_cov p_c1 p_c2 p_al p_be p_ga]. cbv zeta.
  set (vx := p_cov P * (uxx - ux * ux)). set (vy := p_cov P * (uyy - uy * uy)). set (vxy := p_cov P * (uxy - ux * uy)).
  replace (p_cov P * (c * c * uxx - c * ux * (c * ux))) with (c * c * vx) by (unfold vx; ring).
  replace (p_cov P * (c * c * uyy - c * uy * (c * uy))) with (c * c * vy) by (unfold vy; ring).
  replace (p_cov P * (c * c * uxy - c * ux * (c * uy))) with (c * c * vxy) by (unfold vxy; ring).
  f_equal; [f_equal|].
  - f_equal. rewrite <- (nan1_scale big (c * c) (2 * ux * uy + p_c1 P)) by exact Hcc. f_equal; ring.
  - f_equal. rewrite E, !osqrt_scale by lra. destruct (Req_EM_T (Rabs c) 0); [lra|].
    destruct (osqrt vx) as [sx|]; [|reflexivity]. destruct (osqrt vy) as [sy|]; [|reflexivity].
    rewrite <- (nan1_scale big (Rabs c * Rabs c) (2 * sx * sy + p_c2 P)) by nra. f_equal; ring.
  - f_equal. rewrite E, !osqrt_scale by lra. destruct (Req_EM_T (Rabs c) 0); [lra|].
    destruct (osqrt vx) as [sx|]; [|reflexivity]. destruct (osqrt vy) as [sy|]; [|reflexivity].
    rewrite <- (nan1_scale big (Rabs c * Rabs c) (vxy + p_c2 P / 2)) by nra. f_equal; field.
Qed.

Lemma map_scale big P c r m : c <> 0 -> p_cval P = 0 ->
  ssim_map big (scale_params c P) (scale c r) (scale c m) = ssim_map big P r m.
Proof.
  intros Hc Hv. unfold ssim_map, scale_params. cbn [p_ws p_mode p_cval]. rewrite Hv, !amul_scale, !filter_scale.
  change (shp (scale c r)) with (shp r). unfold tabulate. f_equal. apply map_ext. intros idx.
  rewrite !getd_scale. apply (pixel_scale big P c); exact Hc.
Qed.

(** ** Orientation *)

Lemma NoDup_indices s : NoDup (indices s).
Proof.
  assert (H : forall i j, (i < size s)%nat -> nth_error (indices s) i = nth_error (indices s) j -> i = j).
  { intros i j Hi E. destruct (ravel_surj s i Hi) as (x & Hx & <-). rewrite (nth_error_indices _ _ Hx) in E.
    assert (Hj : (j < size s)%nat) by (rewrite <- length_indices; apply nth_error_Some; congruence).
    destruct (ravel_surj s j Hj) as (y & Hy & <-). rewrite (nth_error_indices _ _ Hy) in E. congruence. }
  apply NoDup_nth_error. intros i j Hi. apply H. rewrite <- length_indices. exact Hi.
Qed.

Lemma dat_getd a : wf a -> dat a = map (getd a) (indices (shp a)).
Proof.
  intros W. assert (E : a = tabulate (shp a) (getd a)).
  { apply arr_ext; [exact W|apply wf_tabulate|reflexivity|]. intros idx Hi. rewrite get_tabulate by exact Hi.
    destruct (get_wf_some a idx W Hi) as [v Hv]. unfold getd. rewrite Hv. reflexivity. }
  rewrite E at 1. reflexivity.
Qed.

(** [f] maps the indices of one shape onto those of another, [g] back. *)
Definition reorients (f g : list nat -> list nat) (s' s : list nat) : Prop :=
  (forall idx, inb s' idx = true -> inb s (f idx) = true /\ g (f idx) = idx) /\
  (forall idx, inb s idx = true -> inb s' (g idx) = true /\ f (g idx) = idx).

Lemma reorients_perm f g s' s : reorients f g s' s -> Permutation (map f (indices s')) (indices s).
Proof.
  intros [H1 H2]. apply NoDup_Permutation.
  - assert (K : forall l, NoDup l -> (forall x, In x l -> inb s' x = true) -> NoDup (map f l)).
    { induction l as [|x l IH]; intros N Hl; simpl; [constructor|]. inversion N; subst. constructor.
      - intros Hin. apply in_map_iff in Hin as (y & E & Hy).
        assert (x = y).
        { destruct (H1 x) as [_ <-]; [apply Hl; left; reflexivity|].
          destruct (H1 y) as [_ <-]; [apply Hl; right; exact Hy|]. rewrite E. reflexivity. }
        subst. contradiction.
      - apply IH; [assumption|]. intros y Hy. apply Hl. right. exact Hy. }
    apply K; [apply NoDup_indices|]. intros x. apply in_indices.
  - apply NoDup_indices.
  - intros x. split; intros Hx.
    + apply in_map_iff in Hx as (y & <- & Hy). apply in_indices in Hy. apply in_indices, H1, Hy.
    + apply in_indices in Hx. apply in_map_iff. exists (g x). destruct (H2 x Hx) as [A B].
      split; [exact B|apply in_indices, A].
Qed.

Lemma dat_perm f g a a' : wf a -> wf a' -> reorients f g (shp a') (shp a) ->
  (forall idx, inb (shp a') idx = true -> getd a' idx = getd a (f idx)) -> Permutation (dat a') (dat a).
Proof.
  intros W W' H E. rewrite (dat_getd a W), (dat_getd a' W').
  rewrite (map_ext_in (getd a') (fun idx => getd a (f idx))) by (intros idx Hi; apply E, in_indices, Hi).
  rewrite <- (map_map f (getd a)). apply Permutation_map, (reorients_perm f g), H.
Qed.

Lemma mean_perm l l' : Permutation l l' -> mean_of l = mean_of l'.
Proof.
  intros H. unfold mean_of. pose proof (Permutation_length H) as Hl. destruct l as [|x l].
  - apply Permutation_nil in H. subst. reflexivity.
  - destruct l' as [|y l']; [discriminate|]. f_equal. rewrite Hl. f_equal. rewrite !rsum_Sum. apply Sum_perm, H.
Qed.

(** *** Filters along different axes commute *)

Lemma upd_comm {A} (l : list A) i j x y : i <> j -> upd (upd l i x) j y = upd (upd l j y) i x.
Proof.
  revert i j. induction l as [|z l IH]; intros [|i] [|j] H; simpl; try reflexivity; try congruence.
  f_equal. apply IH. congruence.
Qed.

Lemma nth_upd_ne (l : list nat) i j x : i <> j -> nth i (upd l j x) 0%nat = nth i l 0%nat.
Proof. intros H. rewrite nth_upd. destruct (Nat.eqb_spec i j); [contradiction|reflexivity]. Qed.

Lemma Sum_exchange {A B} (f : A -> B -> R) l l' :
  Sum (fun a => Sum (f a) l') l = Sum (fun b => Sum (fun a => f a b) l) l'.
Proof.
  induction l as [|a l IH]; simpl.
  - rewrite Sum_nil. symmetry. rewrite (Sum_ext _ (fun _ => 0)) by (intros; apply Sum_nil). apply Sum_zero.
  - rewrite Sum_cons, IH, <- Sum_plus. apply Sum_ext. intros b _. rewrite Sum_cons. reflexivity.
Qed.

Lemma filter_two ws m cval a i j idx : Sum snd ws = 1 -> i <> j -> (i < length (shp a))%nat -> (j < length (shp a))%nat ->
  inb (shp a) idx = true ->
  getd (filter_axis ws m cval (filter_axis ws m cval a i) j) idx
  = Sum (fun ow => Sum (fun ow' => snd ow * snd ow' *
      match pad_pos m (nth j (shp a) 0%nat) (Z.of_nat (nth j idx 0%nat) + fst ow),
            pad_pos m (nth i (shp a) 0%nat) (Z.of_nat (nth i idx 0%nat) + fst ow') with
      | Some q, Some q' => getd a (upd (upd idx j q) i q')
      | _, _ => cval
      end) ws) ws.
Proof.
  intros H1 Hij Hi Hj Hidx. unfold filter_axis at 1. change (shp (filter_axis ws m cval a i)) with (shp a).
  rewrite getd_tab by exact Hidx. apply Sum_ext. intros ow _. unfold sample at 1.
  change (shp (filter_axis ws m cval a i)) with (shp a).
  destruct (pad_pos m (nth j (shp a) 0%nat) (Z.of_nat (nth j idx 0%nat) + fst ow)) as [q|] eqn:Eq.
  - unfold filter_axis. rewrite getd_tab.
    2:{ apply SsimProofs.inb_upd; try assumption. apply pad_pos_lt in Eq; [exact Eq|].
        pose proof (SsimProofs.inb_nth _ _ j Hidx Hj). lia. }
    rewrite <- Sum_scale. apply Sum_ext. intros ow' _. unfold sample. rewrite nth_upd_ne by exact Hij.
    destruct (pad_pos m (nth i (shp a) 0%nat) _); ring.
  - rewrite (Sum_ext _ (fun ow' => snd ow * cval * snd ow')) by (intros; ring). rewrite Sum_scale, H1. ring.
Qed.

Lemma filter_comm ws m cval a i j : Sum snd ws = 1 -> (i < length (shp a))%nat -> (j < length (shp a))%nat ->
  filter_axis ws m cval (filter_axis ws m cval a i) j = filter_axis ws m cval (filter_axis ws m cval a j) i.
Proof.
  intros H1 Hi Hj. destruct (Nat.eq_dec i j) as [->|Hij]; [reflexivity|].
  apply arr_ext; [apply wf_tabulate|apply wf_tabulate|reflexivity|]. intros idx Hidx. cbn [filter_axis tabulate shp] in Hidx.
  assert (E : getd (filter_axis ws m cval (filter_axis ws m cval a i) j) idx
            = getd (filter_axis ws m cval (filter_axis ws m cval a j) i) idx).
  { rewrite !filter_two by (try assumption; congruence). rewrite Sum_exchange. apply Sum_ext. intros ow _.
    apply Sum_ext. intros ow' _.
    destruct (pad_pos m (nth j (shp a) 0%nat) _) as [q|], (pad_pos m (nth i (shp a) 0%nat) _) as [q'|]; try ring.
    rewrite (upd_comm idx j i q q') by congruence. ring. }
  destruct (get_wf_some (filter_axis ws m cval (filter_axis ws m cval a i) j) idx) as [x Hx]; [apply wf_tabulate|exact Hidx|].
  destruct (get_wf_some (filter_axis ws m cval (filter_axis ws m cval a j) i) idx) as [y Hy]; [apply wf_tabulate|exact Hidx|].
  unfold getd in E. rewrite Hx, Hy in *. congruence.
Qed.

Lemma filter_perm ws m cval axes axes' : Sum snd ws = 1 -> Permutation axes axes' ->
  forall a, (forall ax, In ax axes -> (ax < length (shp a))%nat) ->
  fold_left (filter_axis ws m cval) axes a = fold_left (filter_axis ws m cval) axes' a.
Proof.
  intros H1. induction 1 as [|x l l' Hp IH|x y l|l l' l'' Hp1 IH1 Hp2 IH2]; intros a Ha; simpl.
  - reflexivity.
  - apply IH. intros ax Hax. apply Ha. right; exact Hax.
  - rewrite filter_comm; [reflexivity|exact H1| |]; apply Ha; simpl; auto.
  - rewrite IH1 by exact Ha. apply IH2. intros ax Hax. apply Ha. apply (Permutation_in _ (Permutation_sym Hp1)), Hax.
Qed.

(** *** Reoriented images *)

(** [a'] is [a] seen through the index map [f]. *)
Definition related (f : list nat -> list nat) (s' s : list nat) (a' a : arr R) : Prop :=
  shp a' = s' /\ shp a = s /\ forall idx, inb s' idx = true -> getd a' idx = getd a (f idx).

(** [f] renames the axes by [t], for filters with the weights [ws]. *)
Definition axis_map (ws : list (Z * R)) (f : list nat -> list nat) (t : nat -> nat) (s' s : list nat) : Prop :=
  forall m cval a' a ax, related f s' s a' a -> (ax < length s')%nat ->
    related f s' s (filter_axis ws m cval a' ax) (filter_axis ws m cval a (t ax)).

Lemma fold_related ws f t s' s m cval : axis_map ws f t s' s -> forall axes a' a, related f s' s a' a ->
  (forall ax, In ax axes -> (ax < length s')%nat) ->
  related f s' s (fold_left (filter_axis ws m cval) axes a') (fold_left (filter_axis ws m cval) (map t axes) a).
Proof.
  intros H. induction axes as [|ax axes IH]; intros a' a Ha Hax; simpl; [exact Ha|].
  apply IH; [apply H; [exact Ha|apply Hax; left; reflexivity]|]. intros x Hx. apply Hax. right. exact Hx.
Qed.

Lemma filter_related ws f t s' s m cval a' a : Sum snd ws = 1 -> axis_map ws f t s' s -> length s' = length s ->
  Permutation (map t (seq 0 (length s))) (seq 0 (length s)) -> related f s' s a' a ->
  related f s' s (filter_nd ws m cval a') (filter_nd ws m cval a).
Proof.
  intros H1 Ht Hl Hp Ha. destruct (Ha) as (S' & S & _). unfold filter_nd. rewrite S', S, Hl.
  assert (E : fold_left (filter_axis ws m cval) (map t (seq 0 (length s))) a =
              fold_left (filter_axis ws m cval) (seq 0 (length s)) a).
  { apply filter_perm; [exact H1|exact Hp|]. intros ax Hax. apply (Permutation_in _ Hp) in Hax. apply in_seq in Hax. rewrite S. lia. }
  rewrite <- E. apply fold_related; try assumption. intros ax Hax. apply in_seq in Hax. lia.
Qed.

Lemma amul_related f g s' s a' a b' b : reorients f g s' s -> related f s' s a' a -> related f s' s b' b ->
  related f s' s (amul a' b') (amul a b).
Proof.
  intros [Hf _] (A1 & A2 & A3) (B1 & B2 & B3). split; [exact A1|]. split; [exact A2|]. intros idx Hi.
  rewrite getd_amul by (rewrite A1; exact Hi). rewrite getd_amul by (rewrite A2; apply Hf, Hi).
  rewrite A3, B3 by exact Hi. reflexivity.
Qed.

Lemma map_related big P f g t s' s r' r m' m : reorients f g s' s -> Sum snd (p_ws P) = 1 ->
  axis_map (p_ws P) f t s' s -> length s' = length s ->
  Permutation (map t (seq 0 (length s))) (seq 0 (length s)) -> related f s' s r' r -> related f s' s m' m ->
  related f s' s (ssim_map big P r' m') (ssim_map big P r m).
Proof.
  intros Ho H1 Ht Hl Hp Hr Hm. pose proof Hr as (R1 & R2 & _). split; [exact R1|]. split; [exact R2|].
  intros idx Hi. unfold ssim_map. rewrite R1, R2, !getd_tab by (try exact Hi; apply Ho, Hi).
  pose proof (fun x' x Hx => proj2 (proj2 (filter_related (p_ws P) f t s' s (p_mode P) (p_cval P) x' x H1 Ht Hl Hp Hx)) idx Hi) as F.
  rewrite (F r' r Hr), (F m' m Hm).
  rewrite (F (amul r' r') (amul r r)), (F (amul m' m') (amul m m)), (F (amul r' m') (amul r m))
    by (apply (amul_related f g); assumption).
  reflexivity.
Qed.

(** *** The pixels that are counted *)

Definition interior (pad : nat) (s idx : list nat) : bool :=
  forallb (fun ax => (pad <=? nth ax idx 0)%nat && (nth ax idx 0 + pad <? nth ax s 0)%nat) (seq 0 (length s)).

Lemma interior_spec pad s idx : interior pad s idx = true <->
  forall ax, (ax < length s)%nat -> (pad <= nth ax idx 0 /\ nth ax idx 0 + pad < nth ax s 0)%nat.
Proof.
  unfold interior. rewrite forallb_forall. split; intros H ax Hax.
  - specialize (H ax). rewrite in_seq in H. specialize (H ltac:(lia)). apply andb_true_iff in H as [A B].
    apply Nat.leb_le in A. apply Nat.ltb_lt in B. lia.
  - apply in_seq in Hax. destruct (H ax) as [A B]; [lia|]. apply andb_true_iff. split; [apply Nat.leb_le, A|apply Nat.ltb_lt, B].
Qed.

Lemma slice_index_inj s r i j : inb (slice_shape s r) i = true -> inb (slice_shape s r) j = true ->
  slice_index s r i = slice_index s r j -> i = j.
Proof.
  revert r i j. induction s as [|n s IH]; intros [|b r] i j Hi Hj E; simpl in *; try exact E.
  - destruct i as [|x i]; [discriminate|]. destruct j as [|y j]; [discriminate|].
    apply andb_true_iff in Hi as [_ Hi]. apply andb_true_iff in Hj as [_ Hj].
    injection E as E1 E2. f_equal; [lia|]. apply (IH r); assumption.
Qed.

Lemma slice_perm (x c : arr R) pad : wf x -> (0 <= pad)%Z ->
  slice x (map (fun n => (pad, Z.of_nat n - pad)%Z) (shp x)) = Ok c ->
  Permutation (dat c) (map (getd x) (filter (interior (Z.to_nat pad) (shp x)) (indices (shp x)))).
Proof.
  intros W Hp Hc. set (rg := map (fun n => (pad, Z.of_nat n - pad)%Z) (shp x)) in *.
  destruct (slice_ok x rg W) as (c' & Hc' & Hs & Wc & Hg); [unfold rg; rewrite map_length; lia|].
  rewrite Hc in Hc'. injection Hc' as <-. rewrite (dat_getd c Wc).
  rewrite (map_ext_in (getd c) (fun i => getd x (slice_index (shp x) rg i))).
  2:{ intros i Hi. apply in_indices in Hi. unfold getd. rewrite (Hg i Hi). reflexivity. }
  rewrite <- (map_map (slice_index (shp x) rg) (getd x)). apply Permutation_map. rewrite Hs. apply NoDup_Permutation.
  - assert (K : forall l, NoDup l -> (forall i, In i l -> inb (slice_shape (shp x) rg) i = true) ->
                NoDup (map (slice_index (shp x) rg) l)).
    { induction l as [|i l IH]; intros N Hl; simpl; [constructor|]. inversion N; subst. constructor.
      - intros Hin. apply in_map_iff in Hin as (j & E & Hj).
        assert (j = i); [|subst; contradiction].
        apply (slice_index_inj (shp x) rg); [apply Hl; right; exact Hj|apply Hl; left; reflexivity|exact E].
      - apply IH; [assumption|]. intros j Hj. apply Hl. right; exact Hj. }
    apply K; [apply NoDup_indices|]. intros i. apply in_indices.
  - apply NoDup_filter, NoDup_indices.
  - intros i. rewrite filter_In, in_indices, interior_spec. split.
    + intros Hi. apply in_map_iff in Hi as (j & <- & Hj). apply in_indices in Hj.
      apply (slice_border (shp x) pad j Hp Hj).
    + intros [Hi Hb]. destruct (border_slice (shp x) pad i Hp Hi Hb) as (j & J1 & J2).
      apply in_map_iff. exists j. split; [exact J2|apply in_indices, J1].
Qed.

Lemma interior_perm f g s' s pad : reorients f g s' s ->
  (forall idx, inb s' idx = true -> interior pad s (f idx) = interior pad s' idx) ->
  Permutation (map f (filter (interior pad s') (indices s'))) (filter (interior pad s) (indices s)).
Proof.
  intros Ho Hi. assert (E : forall l, (forall x, In x l -> inb s' x = true) ->
    map f (filter (interior pad s') l) = filter (interior pad s) (map f l)).
  { induction l as [|x l IH]; intros Hl; simpl; [reflexivity|]. rewrite Hi by (apply Hl; left; reflexivity).
    destruct (interior pad s' x); simpl; rewrite IH by (intros y Hy; apply Hl; right; exact Hy); reflexivity. }
  rewrite E by (intros x; apply in_indices).
  pose proof (reorients_perm f g s' s Ho) as P. revert P. generalize (map f (indices s')). generalize (indices s). clear.
  intros l l' P. induction P as [|x l l' P IH|x y l|l1 l2 l3 P1 IH1 P2 IH2]; simpl.
  - constructor.
  - destruct (interior pad s x); [constructor|]; exact IH.
  - destruct (interior pad s x), (interior pad s y); try reflexivity. constructor.
  - eapply Permutation_trans; eassumption.
Qed.

(** *** The score *)
Lemma ssim_related big f g t s' s r' r m' m kw : reorients f g s' s ->
  ssim_setup s' kw = ssim_setup s kw -> length s' = length s ->
  (forall P, ssim_setup s kw = Ok P -> axis_map (p_ws P) f t s' s) ->
  Permutation (map t (seq 0 (length s))) (seq 0 (length s)) ->
  (forall pad idx, inb s' idx = true -> interior pad s (f idx) = interior pad s' idx) ->
  (forall w, dget kw "win_size" = Some (KInt w) -> (0 < w)%Z) ->
  related f s' s r' r -> related f s' s m' m ->
  structural_similarity big r' m' kw = structural_similarity big r m kw.
Proof.
  intros Ho Hset Hl Ht Hp Hint Hw Hr Hm. pose proof Hr as (R1 & R2 & _).
  unfold structural_similarity. rewrite R1, R2, Hset.
  destruct (ssim_setup s kw) as [P|] eqn:HP; [|reflexivity]. cbn [bind].
  destruct (setup_ok _ _ _ HP) as (rad & win & [_ H1] & _ & _ & _ & _ & Hpad & _ & _ & Hpos & _).
  assert (Hp0 : (0 <= p_pad P)%Z) by (rewrite Hpad; apply Z.div_pos; [specialize (Hpos Hw); lia|lia]).
  pose proof (map_related big P f g t s' s r' r m' m Ho H1 (Ht P eq_refl) Hl Hp Hr Hm) as (M1 & M2 & M3).
  destruct (slice_always (ssim_map big P r' m') (p_pad P) (wf_tabulate _ _)) as [c' Hc'].
  destruct (slice_always (ssim_map big P r m) (p_pad P) (wf_tabulate _ _)) as [c Hc].
  pose proof (slice_perm (ssim_map big P r' m') _ _ (wf_tabulate _ _) Hp0 Hc') as Q'.
  pose proof (slice_perm (ssim_map big P r m) _ _ (wf_tabulate _ _) Hp0 Hc) as Q.
  rewrite M1 in Hc', Q'. rewrite M2 in Hc, Q. rewrite Hc', Hc. cbn [bind]. f_equal. apply mean_perm.
  eapply Permutation_trans; [exact Q'|]. eapply Permutation_trans; [|apply Permutation_sym; exact Q].
  rewrite (map_ext_in (getd (ssim_map big P r' m')) (fun i => getd (ssim_map big P r m) (f i))).
  2:{ intros i Hi. apply filter_In in Hi as [Hi _]. apply M3, in_indices, Hi. }
  rewrite <- (map_map f (getd (ssim_map big P r m))). apply Permutation_map, (interior_perm f g); [exact Ho|].
  apply Hint.
Qed.

(** *** Exchanging two axes *)

Definition tswap (i j k : nat) : nat := if (k =? j)%nat then i else if (k =? i)%nat then j else k.

Lemma nth_swap l i j k : (i < length l)%nat -> (j < length l)%nat -> nth k (swap_at l i j) 0%nat = nth (tswap i j k) l 0%nat.
Proof.
  intros Hi Hj. rewrite nth_swap_at by assumption. unfold tswap.
  destruct (k =? j)%nat; [reflexivity|]. destruct (k =? i)%nat; reflexivity.
Qed.

Lemma tswap_lt i j k n : (i < n)%nat -> (j < n)%nat -> (k < n)%nat -> (tswap i j k < n)%nat.
Proof. intros. unfold tswap. destruct (k =? j)%nat; [assumption|]. destruct (k =? i)%nat; assumption. Qed.

Lemma tswap_tswap i j k : tswap i j (tswap i j k) = k.
Proof.
  unfold tswap. destruct (Nat.eqb_spec k j) as [->|H1].
  - destruct (Nat.eqb_spec i j) as [->|H2]; [reflexivity|]. rewrite Nat.eqb_refl. reflexivity.
  - destruct (Nat.eqb_spec k i) as [->|H2]; [rewrite Nat.eqb_refl; reflexivity|].
    rewrite (proj2 (Nat.eqb_neq k j)), (proj2 (Nat.eqb_neq k i)) by assumption. reflexivity.
Qed.

Lemma swap_swap l i j : (i < length l)%nat -> (j < length l)%nat -> swap_at (swap_at l i j) i j = l.
Proof.
  intros Hi Hj. apply list_nth_eq; [rewrite !length_swap_at; reflexivity|]. intros k _.
  rewrite nth_swap by (rewrite length_swap_at; assumption). rewrite nth_swap by assumption. rewrite tswap_tswap. reflexivity.
Qed.

Lemma swap_upd l i j ax q : (i < length l)%nat -> (j < length l)%nat -> (ax < length l)%nat ->
  swap_at (upd l ax q) i j = upd (swap_at l i j) (tswap i j ax) q.
Proof.
  intros Hi Hj Hax. apply list_nth_eq; [rewrite length_swap_at, !length_upd, length_swap_at; reflexivity|]. intros k _.
  rewrite nth_swap by (rewrite length_upd; assumption). rewrite !nth_upd, nth_swap, length_swap_at by assumption.
  rewrite !(proj2 (Nat.ltb_lt _ _)) by (try assumption; apply tswap_lt; assumption).
  destruct (Nat.eqb_spec (tswap i j k) ax) as [E|E], (Nat.eqb_spec k (tswap i j ax)) as [F|F]; simpl; try reflexivity.
  - exfalso. apply F. rewrite <- E. symmetry. apply tswap_tswap.
  - exfalso. apply E. rewrite F. apply tswap_tswap.
Qed.

Lemma swap_reorients s i j : (i < length s)%nat -> (j < length s)%nat ->
  reorients (fun idx => swap_at idx i j) (fun idx => swap_at idx i j) (swap_at s i j) s.
Proof.
  intros Hi Hj. split; intros idx H; pose proof (inb_length _ _ H) as L; rewrite ?length_swap_at in L.
  - split; [apply inb_swap; assumption|]. apply swap_swap; lia.
  - split; [|apply swap_swap; lia].
    rewrite <- (swap_swap s i j) in H by assumption. apply inb_swap; rewrite ?length_swap_at; assumption.
Qed.

Lemma swap_axis_map ws s i j : (i < length s)%nat -> (j < length s)%nat ->
  axis_map ws (fun idx => swap_at idx i j) (tswap i j) (swap_at s i j) s.
Proof.
  intros Hi Hj m cval a' a ax (A1 & A2 & A3) Hax. rewrite length_swap_at in Hax.
  split; [exact A1|]. split; [exact A2|]. intros idx H. pose proof (inb_length _ _ H) as L. rewrite length_swap_at in L.
  unfold filter_axis. rewrite A1, A2, !getd_tab by (try exact H; apply inb_swap; assumption).
  apply Sum_ext. intros ow _. f_equal. unfold sample. rewrite A1, A2.
  rewrite (nth_swap s) by assumption. rewrite (nth_swap idx) by lia. rewrite tswap_tswap.
  destruct (pad_pos m (nth (tswap i j ax) s 0%nat) (Z.of_nat (nth ax idx 0%nat) + fst ow)) as [q|] eqn:E; [|reflexivity].
  pose proof (tswap_lt i j ax (length s) Hi Hj Hax) as Tl.
  assert (Hq : (q < nth ax (swap_at s i j) 0)%nat).
  { rewrite nth_swap by assumption. apply pad_pos_lt in E; [exact E|].
    pose proof (SsimProofs.inb_nth _ _ ax H ltac:(rewrite length_swap_at; exact Hax)) as B. rewrite nth_swap in B by assumption. lia. }
  rewrite A3 by (apply SsimProofs.inb_upd; [exact H|exact Hq]).
  rewrite swap_upd by lia. reflexivity.
Qed.

Lemma tswap_perm i j n : (i < n)%nat -> (j < n)%nat -> Permutation (map (tswap i j) (seq 0 n)) (seq 0 n).
Proof.
  intros Hi Hj. apply NoDup_Permutation.
  - apply FinFun.Injective_map_NoDup; [|apply seq_NoDup]. intros a b E.
    rewrite <- (tswap_tswap i j a), <- (tswap_tswap i j b), E. reflexivity.
  - apply seq_NoDup.
  - intros k. rewrite in_map_iff. split.
    + intros (a & <- & Ha). apply in_seq in Ha. apply in_seq. pose proof (tswap_lt i j a n Hi Hj). lia.
    + intros Hk. exists (tswap i j k). split; [apply tswap_tswap|]. apply in_seq in Hk. apply in_seq.
      pose proof (tswap_lt i j k n Hi Hj). lia.
Qed.

Lemma swap_interior s i j pad idx : (i < length s)%nat -> (j < length s)%nat -> inb (swap_at s i j) idx = true ->
  interior pad s (swap_at idx i j) = interior pad (swap_at s i j) idx.
Proof.
  intros Hi Hj H. pose proof (inb_length _ _ H) as L. rewrite length_swap_at in L.
  apply Bool.eq_iff_eq_true. rewrite !interior_spec, length_swap_at. split; intros K ax Hax.
  - specialize (K (tswap i j ax) (tswap_lt i j ax _ Hi Hj Hax)).
    rewrite (nth_swap idx), tswap_tswap in K by lia. rewrite (nth_swap s) by assumption. exact K.
  - specialize (K (tswap i j ax) (tswap_lt i j ax _ Hi Hj Hax)).
    rewrite (nth_swap s), tswap_tswap in K by lia. rewrite (nth_swap idx) by lia. exact K.
Qed.

Lemma setup_shapes s s' kw : length s' = length s -> (forall n, In n s' <-> In n s) ->
  ssim_setup s' kw = ssim_setup s kw.
Proof.
  intros Hl Hin. unfold ssim_setup. rewrite Hl.
  assert (E : forall f : nat -> bool, existsb f s' = existsb f s).
  { intros f. apply Bool.eq_iff_eq_true. rewrite !existsb_exists. split; intros (x & Hx & Fx); exists x; (split; [apply Hin, Hx|exact Fx]). }
  repeat match goal with
         | |- bind ?x _ = bind ?x _ => destruct x; [cbn [bind]; cbv beta zeta|reflexivity]
         | |- (if ?x then _ else _) = (if ?x then _ else _) => destruct x; [reflexivity|]
         end.
  rewrite E. reflexivity.
Qed.

Lemma swap_in s i j n : (i < length s)%nat -> (j < length s)%nat -> In n (swap_at s i j) <-> In n s.
Proof.
  intros Hi Hj. split; intros H.
  - apply (In_nth _ _ 0%nat) in H as (k & Hk & <-). rewrite length_swap_at in Hk. rewrite nth_swap by assumption.
    apply nth_In, tswap_lt; assumption.
  - apply (In_nth _ _ 0%nat) in H as (k & Hk & <-). rewrite <- (tswap_tswap i j k), <- nth_swap by assumption.
    apply nth_In. rewrite length_swap_at. apply tswap_lt; assumption.
Qed.

(** *** Reversing an axis *)

Definition mirror (s : list nat) (ax : nat) (idx : list nat) : list nat :=
  upd idx ax (nth ax s 0 - 1 - nth ax idx 0)%nat.

Lemma pad_pos_mirror m n p : (0 < n)%nat ->
  pad_pos m n (Z.of_nat n - 1 - p) = option_map (fun q => (n - 1 - q)%nat) (pad_pos m n p).
Proof.
  intros Hn. destruct m; cbn [pad_pos option_map].
  - f_equal.
    assert (E : ((Z.of_nat n - 1 - p) mod (2 * Z.of_nat n) =
                 let q := p mod (2 * Z.of_nat n) in if q <? Z.of_nat n then Z.of_nat n - 1 - q else 3 * Z.of_nat n - 1 - q)%Z).
    { cbv zeta. pose proof (Z.mod_pos_bound p (2 * Z.of_nat n) ltac:(lia)) as B.
      pose proof (Z.div_mod p (2 * Z.of_nat n) ltac:(lia)) as D.
      set (q := (p mod (2 * Z.of_nat n))%Z) in *. set (d := (p / (2 * Z.of_nat n))%Z) in *.
      destruct (Z.ltb_spec q (Z.of_nat n)).
      - symmetry. apply (Z.mod_unique_pos _ _ (- d)); [lia|]. rewrite D. ring.
      - symmetry. apply (Z.mod_unique_pos _ _ (- d - 1)); [lia|]. rewrite D. ring. }
    rewrite E. cbv zeta. pose proof (Z.mod_pos_bound p (2 * Z.of_nat n) ltac:(lia)) as B.
    set (q := (p mod (2 * Z.of_nat n))%Z) in *.
    destruct (Z.ltb_spec q (Z.of_nat n)).
    + destruct (Z.ltb_spec (Z.of_nat n - 1 - q) (Z.of_nat n)); lia.
    + destruct (Z.ltb_spec (3 * Z.of_nat n - 1 - q) (Z.of_nat n)); lia.
  - destruct (Nat.eqb_spec n 1) as [->|N]; [reflexivity|]. cbn [option_map]. f_equal.
    set (M := (2 * Z.of_nat n - 2)%Z).
    assert (E : ((Z.of_nat n - 1 - p) mod M =
                 let q := p mod M in if q <? Z.of_nat n then Z.of_nat n - 1 - q else Z.of_nat n - 1 - q + M)%Z).
    { cbv zeta. pose proof (Z.mod_pos_bound p M ltac:(unfold M; lia)) as B.
      pose proof (Z.div_mod p M ltac:(unfold M; lia)) as D.
      set (q := (p mod M)%Z) in *. set (d := (p / M)%Z) in *.
      destruct (Z.ltb_spec q (Z.of_nat n)).
      - symmetry. apply (Z.mod_unique_pos _ _ (- d)); [unfold M in *; lia|]. rewrite D. ring.
      - symmetry. apply (Z.mod_unique_pos _ _ (- d - 1)); [unfold M in *; lia|]. rewrite D. ring. }
    rewrite E. cbv zeta. pose proof (Z.mod_pos_bound p M ltac:(unfold M; lia)) as B.
    set (q := (p mod M)%Z) in *.
    destruct (Z.ltb_spec q (Z.of_nat n)).
    + destruct (Z.ltb_spec (Z.of_nat n - 1 - q) (Z.of_nat n)); unfold M in *; lia.
    + destruct (Z.ltb_spec (Z.of_nat n - 1 - q + M) (Z.of_nat n)); unfold M in *; lia.
  - f_equal. lia.
  - f_equal.
    assert (E : ((Z.of_nat n - 1 - p) mod Z.of_nat n = Z.of_nat n - 1 - p mod Z.of_nat n)%Z).
    { pose proof (Z.mod_pos_bound p (Z.of_nat n) ltac:(lia)) as B. pose proof (Z.div_mod p (Z.of_nat n) ltac:(lia)) as D.
      symmetry. apply (Z.mod_unique_pos _ _ (- (p / Z.of_nat n))); [lia|]. rewrite D at 1. ring. }
    rewrite E. pose proof (Z.mod_pos_bound p (Z.of_nat n) ltac:(lia)). lia.
  - destruct (Z.leb_spec 0 p), (Z.ltb_spec p (Z.of_nat n)), (Z.leb_spec 0 (Z.of_nat n - 1 - p)),
      (Z.ltb_spec (Z.of_nat n - 1 - p) (Z.of_nat n)); simpl; try lia; try reflexivity. f_equal. lia.
Qed.

Definition symmetric (ws : list (Z * R)) : Prop := Permutation (map (fun ow => (- fst ow, snd ow)%Z) ws) ws.

Lemma mirror_reorients s ax : (ax < length s)%nat -> reorients (mirror s ax) (mirror s ax) s s.
Proof.
  intros Hax. assert (H : forall idx, inb s idx = true -> inb s (mirror s ax idx) = true /\ mirror s ax (mirror s ax idx) = idx).
  { intros idx Hi. pose proof (inb_length _ _ Hi) as L. pose proof (SsimProofs.inb_nth _ _ ax Hi Hax) as B. split.
    - apply inb_flip; assumption.
    - unfold mirror. rewrite nth_upd, Nat.eqb_refl, (proj2 (Nat.ltb_lt _ _)) by lia. cbn [andb].
      apply list_nth_eq; [rewrite !length_upd; reflexivity|]. intros k _. rewrite !nth_upd, length_upd.
      rewrite (proj2 (Nat.ltb_lt ax (length idx))) by lia. destruct (Nat.eqb_spec k ax) as [->|]; cbn [andb]; [lia|reflexivity]. }
  split; exact H.
Qed.

Lemma mirror_axis_map ws s ax0 : symmetric ws -> (ax0 < length s)%nat -> axis_map ws (mirror s ax0) (fun k => k) s s.
Proof.
  intros Hsym H0 m cval a' a ax (A1 & A2 & A3) Hax.
  split; [exact A1|]. split; [exact A2|]. intros idx H. pose proof (inb_length _ _ H) as L.
  pose proof (proj1 (proj1 (mirror_reorients s ax0 H0) idx H)) as Hm.
  unfold filter_axis. rewrite A1, A2, !getd_tab by assumption.
  pose proof (SsimProofs.inb_nth _ _ ax H Hax) as Bx.
  destruct (Nat.eq_dec ax ax0) as [->|Hne].
  - rewrite <- (Sum_perm _ _ _ Hsym), Sum_map. apply Sum_ext. intros ow _. cbn [fst snd]. f_equal.
    unfold sample. rewrite A1, A2. unfold mirror at 1. rewrite nth_upd, Nat.eqb_refl, (proj2 (Nat.ltb_lt _ _)) by lia.
    cbn [andb].
    replace (Z.of_nat (nth ax0 s 0 - 1 - nth ax0 idx 0)%nat + fst ow)%Z
      with (Z.of_nat (nth ax0 s 0%nat) - 1 - (Z.of_nat (nth ax0 idx 0%nat) + - fst ow))%Z by lia.
    rewrite pad_pos_mirror by lia.
    destruct (pad_pos m (nth ax0 s 0%nat) (Z.of_nat (nth ax0 idx 0%nat) + - fst ow)) as [q|] eqn:E; [|reflexivity].
    cbn [option_map]. apply pad_pos_lt in E; [|lia].
    rewrite A3 by (apply SsimProofs.inb_upd; assumption). f_equal. unfold mirror.
    rewrite nth_upd, Nat.eqb_refl, (proj2 (Nat.ltb_lt _ _)) by lia. cbn [andb].
    apply list_nth_eq; [rewrite !length_upd; reflexivity|]. intros k _. rewrite !nth_upd, !length_upd.
    destruct ((k =? ax0)%nat && (ax0 <? length idx)%nat); reflexivity.
  - apply Sum_ext. intros ow _. f_equal. unfold sample. rewrite A1, A2. unfold mirror at 1. rewrite nth_upd_ne by exact Hne.
    destruct (pad_pos m (nth ax s 0%nat) (Z.of_nat (nth ax idx 0%nat) + fst ow)) as [q|] eqn:E; [|reflexivity].
    apply pad_pos_lt in E; [|lia]. rewrite A3 by (apply SsimProofs.inb_upd; assumption). f_equal.
    unfold mirror. rewrite nth_upd_ne by congruence. apply upd_comm. exact Hne.
Qed.

Lemma mirror_interior s ax pad idx : (ax < length s)%nat -> inb s idx = true ->
  interior pad s (mirror s ax idx) = interior pad s idx.
Proof.
  intros Hax H. pose proof (inb_length _ _ H) as L. pose proof (SsimProofs.inb_nth _ _ ax H Hax) as B.
  apply Bool.eq_iff_eq_true. rewrite !interior_spec. unfold mirror.
  assert (E : forall k, nth k (upd idx ax (nth ax s 0 - 1 - nth ax idx 0)%nat) 0%nat =
              if (k =? ax)%nat then (nth ax s 0 - 1 - nth ax idx 0)%nat else nth k idx 0%nat).
  { intros k. rewrite nth_upd, (proj2 (Nat.ltb_lt ax (length idx))), andb_true_r by lia. reflexivity. }
  split; intros K k Hk; specialize (K k Hk); rewrite E in *; destruct (Nat.eqb_spec k ax) as [Ek|]; try lia; rewrite Ek in *; lia.
Qed.

Lemma offsets_opp r : map Z.opp (offsets r) = rev (offsets r).
Proof.
  unfold offsets. rewrite map_map, <- map_rev. apply nth_ext with (d := 0%Z) (d' := 0%Z).
  - rewrite !map_length, rev_length. reflexivity.
  - intros n Hn. rewrite map_length, seq_length in Hn.
    rewrite (nth_indep _ 0%Z ((fun x => (- (Z.of_nat x - Z.of_nat r))%Z) 0%nat)) by (rewrite map_length, seq_length; exact Hn).
    rewrite (map_nth (fun x => (- (Z.of_nat x - Z.of_nat r))%Z)).
    rewrite (nth_indep (map (fun i => (Z.of_nat i - Z.of_nat r)%Z) (rev (seq 0 (2 * r + 1)))) 0%Z
      ((fun i => (Z.of_nat i - Z.of_nat r)%Z) 0%nat)) by (rewrite map_length, rev_length, seq_length; exact Hn).
    rewrite (map_nth (fun i => (Z.of_nat i - Z.of_nat r)%Z)).
    rewrite rev_nth by (rewrite seq_length; exact Hn). rewrite seq_length, !seq_nth by lia. lia.
Qed.

Lemma gaussian_symmetric sigma r : symmetric (gaussian_weights sigma r).
Proof.
  unfold symmetric, gaussian_weights. set (t := Sum (gauss sigma) (offsets r)). rewrite map_map. cbn [fst snd].
  rewrite (map_ext _ (fun k => (fun k => (k, (gauss sigma k / t)%R)) (Z.opp k))).
  - rewrite <- (map_map Z.opp (fun k => (k, (gauss sigma k / t)%R))), offsets_opp. apply Permutation_map.
    apply Permutation_sym, Permutation_rev.
  - intros k. cbv beta.
    assert (E : gauss sigma (Z.opp k) = gauss sigma k) by (unfold gauss; rewrite opp_IZR; f_equal; unfold Rdiv; ring).
    rewrite E. reflexivity.
Qed.

Lemma uniform_symmetric size : symmetric (uniform_weights size).
Proof.
  unfold symmetric, uniform_weights. destruct (size <=? 1)%Z; [reflexivity|]. rewrite map_map. cbn [fst snd].
  rewrite <- (map_map Z.opp (fun k => (k, (/ IZR size)%R))), offsets_opp. apply Permutation_map.
  apply Permutation_sym, Permutation_rev.
Qed.

Lemma setup_symmetric s kw P : ssim_setup s kw = Ok P -> symmetric (p_ws P).
Proof.
  unfold ssim_setup. intros H.
  apply bind_ok in H as (k1 & _ & H). destruct (Rlt_dec k1 0); [discriminate|].
  apply bind_ok in H as (k2 & _ & H). destruct (Rlt_dec k2 0); [discriminate|].
  apply bind_ok in H as (sigma & _ & H). destruct (Rlt_dec sigma 0); [discriminate|].
  apply bind_ok in H as (given & _ & H). cbv zeta in H.
  destruct (existsb _ s); [discriminate|]. destruct (negb _); [discriminate|].
  apply bind_ok in H as (al & _ & H). apply bind_ok in H as (be & _ & H).
  apply bind_ok in H as (ga & _ & H). apply bind_ok in H as (cov & _ & H).
  apply bind_ok in H as (md & _ & H). apply bind_ok in H as (cval & _ & H). apply bind_ok in H as (dr & _ & H).
  apply (f_equal (fun x => match x with Ok y => y | Err _ => P end)) in H. cbv beta iota in H. subst P. cbn [p_ws].
  destruct (flag _ _); [apply gaussian_symmetric|apply uniform_symmetric].
Qed.

(** *** Both operations as the loader does them *)
Lemma swap_related (a b : arr R) i j : wf a -> (i < length (shp a))%nat -> (j < length (shp a))%nat ->
  swap_axes a i j = Ok b -> related (fun idx => swap_at idx i j) (swap_at (shp a) i j) (shp a) b a /\ wf b.
Proof.
  intros W Hi Hj H. destruct (swap_axes_ok a i j W Hi Hj) as (b' & Hb & S & Wb & G). rewrite H in Hb. injection Hb as <-.
  split; [|exact Wb]. split; [exact S|]. split; [reflexivity|]. intros idx Hx. unfold getd. rewrite (G idx Hx). reflexivity.
Qed.

Lemma flip_related (a b : arr R) ax : wf a -> (ax < length (shp a))%nat ->
  flip_ax a ax = Ok b -> related (mirror (shp a) ax) (shp a) (shp a) b a /\ wf b.
Proof.
  intros W Hi H. destruct (flip_ax_ok a ax W Hi) as (b' & Hb & S & Wb & G). rewrite H in Hb. injection Hb as <-.
  split; [|exact Wb]. split; [exact S|]. split; [reflexivity|]. intros idx Hx. unfold getd. rewrite (G idx Hx). reflexivity.
Qed.

Lemma ssim_swap big r r' m m' i j kw :
  (forall w, dget kw "win_size" = Some (KInt w) -> (0 < w)%Z) ->
  wf r -> wf m -> shp m = shp r -> (i < length (shp r))%nat -> (j < length (shp r))%nat ->
  swap_axes r i j = Ok r' -> swap_axes m i j = Ok m' ->
  structural_similarity big r' m' kw = structural_similarity big r m kw.
Proof.
  intros Hw Wr Wm Es Hi Hj Hr Hm.
  destruct (swap_related r r' i j Wr Hi Hj Hr) as [Rr _].
  destruct (swap_related m m' i j Wm) as [Rm _]; try (rewrite Es; assumption); [exact Hm|]. rewrite Es in Rm.
  apply (ssim_related big (fun idx => swap_at idx i j) (fun idx => swap_at idx i j) (tswap i j) (swap_at (shp r) i j) (shp r));
    try assumption.
  - apply swap_reorients; assumption.
  - apply setup_shapes; [apply length_swap_at|]. intros n. apply swap_in; assumption.
  - apply length_swap_at.
  - intros P _. apply swap_axis_map; assumption.
  - apply tswap_perm; assumption.
  - intros pad idx Hx. apply swap_interior; assumption.
Qed.

Lemma ssim_flip big r r' m m' ax kw :
  (forall w, dget kw "win_size" = Some (KInt w) -> (0 < w)%Z) ->
  wf r -> wf m -> shp m = shp r -> (ax < length (shp r))%nat ->
  flip_ax r ax = Ok r' -> flip_ax m ax = Ok m' ->
  structural_similarity big r' m' kw = structural_similarity big r m kw.
Proof.
  intros Hw Wr Wm Es Hax Hr Hm.
  destruct (flip_related r r' ax Wr Hax Hr) as [Rr _].
  destruct (flip_related m m' ax Wm) as [Rm _]; try (rewrite Es; assumption); [exact Hm|]. rewrite Es in Rm.
  apply (ssim_related big (mirror (shp r) ax) (mirror (shp r) ax) (fun k => k) (shp r) (shp r)); try assumption.
  - apply mirror_reorients; assumption.
  - reflexivity.
  - reflexivity.
  - intros P HP. apply mirror_axis_map; [|assumption]. apply (setup_symmetric _ _ _ HP).
  - rewrite map_id. reflexivity.
  - intros pad idx Hx. apply mirror_interior; assumption.
Qed.
