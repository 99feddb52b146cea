(** Lemmas about the SSIM model. *)
From Coq Require Import Reals Lra Psatz.
From Verif Require Import Base NdArray LoadModel LoadProofs NormModel PairModel PairProofs RealSums
  MetricModel SsimModel.

(** ** Border handling *)

Lemma Some_inj {A} (x y : A) : Some x = Some y -> x = y.
Proof. congruence. Qed.

Lemma pad_pos_lt m n p q : 0 < n -> pad_pos m n p = Some q -> q < n.
Proof.
  intros Hn. unfold pad_pos. destruct m.
  - pose proof (Z.mod_pos_bound p (2 * Z.of_nat n) ltac:(lia)).
    intros E; apply Some_inj in E; subst q. destruct (Z.ltb_spec (p mod (2 * Z.of_nat n)) (Z.of_nat n)); lia.
  - destruct (Nat.eqb_spec n 1); [intros E; apply Some_inj in E; subst q; lia|].
    pose proof (Z.mod_pos_bound p (2 * Z.of_nat n - 2) ltac:(lia)).
    intros E; apply Some_inj in E; subst q.
    destruct (Z.ltb_spec (p mod (2 * Z.of_nat n - 2)) (Z.of_nat n)); lia.
  - intros E; apply Some_inj in E; subst q; lia.
  - pose proof (Z.mod_pos_bound p (Z.of_nat n) ltac:(lia)). intros E; apply Some_inj in E; subst q; lia.
  - destruct (Z.leb_spec 0 p), (Z.ltb_spec p (Z.of_nat n)); simpl; try discriminate.
    intros E; apply Some_inj in E; subst q; lia.
Qed.

Lemma pad_pos_in m n p : (0 <= p < Z.of_nat n)%Z -> pad_pos m n p = Some (Z.to_nat p).
Proof.
  intros Hp. unfold pad_pos. destruct m.
  - rewrite Z.mod_small by lia. destruct (Z.ltb_spec p (Z.of_nat n)); [reflexivity|lia].
  - destruct (Nat.eqb_spec n 1) as [->|]; [f_equal; lia|].
    destruct (Z.eq_dec p (2 * Z.of_nat n - 2)) as [E|E]; [lia|].
    rewrite Z.mod_small by lia. destruct (Z.ltb_spec p (Z.of_nat n)); [reflexivity|lia].
  - f_equal. lia.
  - rewrite Z.mod_small by lia. reflexivity.
  - destruct (Z.leb_spec 0 p), (Z.ltb_spec p (Z.of_nat n)); simpl; try lia. reflexivity.
Qed.

Lemma pad_pos_some m n p : m <> Constant -> exists q, pad_pos m n p = Some q.
Proof. unfold pad_pos. destruct m; intros H; try congruence; eauto. destruct (n =? 1); eauto. Qed.

Lemma getd_tab s f idx : inb s idx = true -> getd (tabulate s f) idx = f idx.
Proof. intros H. unfold getd. rewrite get_tabulate by exact H. reflexivity. Qed.

Lemma inb_nth s idx ax : inb s idx = true -> ax < length s -> nth ax idx 0 < nth ax s 0.
Proof.
  revert idx ax; induction s as [|d s IH]; intros [|i idx] [|ax]; simpl; try discriminate; try lia.
  intros H Hl. apply andb_true_iff in H as [_ H]. apply IH; [exact H|lia].
Qed.

Lemma inb_upd s idx ax q :
  inb s idx = true -> q < nth ax s 0 -> inb s (upd idx ax q) = true.
Proof.
  revert idx ax; induction s as [|d s IH]; intros [|i idx] [|ax]; simpl; try discriminate; try lia.
  intros H Hq. apply andb_true_iff in H as [H1 H]. rewrite H1; simpl. apply IH; assumption.
Qed.

(** ** Every filtered pixel is a weighted mean of pixels of the image *)

(** What the filter reads: a pixel of the image or the fill value. *)
Definition val (cval : R) (a : arr R) (p : option (list nat)) : R :=
  match p with Some i => getd a i | None => cval end.

(** Weights: non-negative, adding up to one. *)
Definition convex {A} (w : A -> R) (l : list A) : Prop :=
  (forall a, In a l -> (0 <= w a)%R) /\ Sum w l = 1%R.

Lemma Sum_flat_map {A B} (f : B -> R) (g : A -> list B) l :
  Sum f (flat_map g l) = Sum (fun a => Sum f (g a)) l.
Proof.
  induction l as [|a l IH]; simpl; [reflexivity|].
  rewrite Sum_app, Sum_cons, IH. reflexivity.
Qed.

Lemma choice_list {A B} (P : A -> B -> Prop) (l : list A) (d : B) (eqd : forall x y : A, {x = y} + {x <> y}) :
  (forall a, In a l -> exists b, P a b) -> exists f, forall a, In a l -> P a (f a).
Proof.
  induction l as [|a l IH]; intros H; [exists (fun _ => d); intros ? []|].
  destruct IH as [f Hf]; [intros; apply H; right; assumption|].
  destruct (H a (or_introl eq_refl)) as [b Hb].
  exists (fun x => if eqd x a then b else f x).
  intros x Hx. destruct (eqd x a) as [->|Hn]; [exact Hb|].
  apply Hf. destruct Hx; congruence.
Qed.

Definition near (rad : nat) (ws : list (Z * R)) : Prop :=
  forall ow, In ow ws -> (- Z.of_nat rad <= fst ow <= Z.of_nat rad)%Z.

Lemma shp_fold ws m cval axes : forall a, shp (fold_left (filter_axis ws m cval) axes a) = shp a.
Proof. induction axes as [|ax axes IH]; intros a; simpl; [reflexivity|]. rewrite IH. reflexivity. Qed.

Lemma shp_filter ws m cval a : shp (filter_nd ws m cval a) = shp a.
Proof. apply shp_fold. Qed.

Lemma filter_kernel ws m s rad :
  convex snd ws -> near rad ws ->
  forall axes, NoDup axes -> (forall ax, In ax axes -> ax < length s) ->
  forall idx, inb s idx = true ->
  exists K : list (R * option (list nat)),
    convex fst K /\
    (forall w i, In (w, Some i) K -> inb s i = true) /\
    (m <> Constant -> forall w, ~ In (w, None) K) /\
    ((forall ax, In ax axes -> rad <= nth ax idx 0 /\ nth ax idx 0 + rad < nth ax s 0) ->
       forall w, ~ In (w, None) K) /\
    (forall cval a, shp a = s ->
       getd (fold_left (filter_axis ws m cval) axes a) idx
       = Sum (fun k => fst k * val cval a (snd k))%R K).
Proof.
  intros [Hw0 Hw1] Hnear axes. induction axes as [|ax axes IH] using rev_ind; intros Hnd Hax idx Hidx.
  - exists [(1%R, Some idx)]. split; [|split; [|split; [|split]]].
    + split; [intros a [<-|[]]; simpl; lra|]. rewrite Sum_cons, Sum_nil; simpl. ring.
    + intros w i [E|[]]. inversion E; subst. exact Hidx.
    + intros _ w [E|[]]. discriminate.
    + intros _ w [E|[]]. discriminate.
    + intros cval a <-. simpl. rewrite Sum_cons, Sum_nil; simpl. ring.
  - assert (Hlt : ax < length s) by (apply Hax, in_or_app; right; left; reflexivity).
    assert (Hnd' : NoDup axes /\ ~ In ax axes).
    { apply NoDup_remove in Hnd. rewrite app_nil_r in Hnd. exact Hnd. }
    destruct Hnd' as [Hnd' Hnin].
    assert (Hpos : 0 < nth ax s 0) by (pose proof (inb_nth s idx ax Hidx Hlt); lia).
    assert (Hdim : nth ax idx 0 < nth ax s 0) by (apply inb_nth; assumption).
    set (P := fun q => (Z.of_nat (nth ax idx 0%nat) + q)%Z).
    (* kernels of the previous axes at the position read for offset o *)
    assert (HK : forall ow, In ow ws -> exists K : list (R * option (list nat)),
       convex fst K /\
       (forall w i, In (w, Some i) K -> inb s i = true) /\
       (m <> Constant -> forall w, ~ In (w, None) K) /\
       ((forall ax', In ax' (axes ++ [ax]) -> rad <= nth ax' idx 0 /\ nth ax' idx 0 + rad < nth ax' s 0) ->
          forall w, ~ In (w, None) K) /\
       (forall cval a, shp a = s ->
          sample m cval (fold_left (filter_axis ws m cval) axes a) ax idx (fst ow)
          = Sum (fun k => fst k * val cval a (snd k))%R K)).
    { intros ow How. destruct (pad_pos m (nth ax s 0) (P (fst ow))) as [q|] eqn:Eq.
      - assert (Hq : q < nth ax s 0) by (apply (pad_pos_lt m _ (P (fst ow))); assumption).
        destruct (IH Hnd' (fun x Hx => Hax x (in_or_app _ _ _ (or_introl Hx))) (upd idx ax q))
          as (K & H1 & H2 & H3 & H4 & H5); [apply inb_upd; assumption|].
        exists K. split; [exact H1|]. split; [exact H2|]. split; [exact H3|]. split.
        + intros Hint. apply H4. intros ax' Hax'. rewrite nth_upd.
          destruct (Nat.eqb_spec ax' ax) as [->|]; [contradiction|]. simpl.
          apply Hint, in_or_app; left; exact Hax'.
        + intros cval a Ha. unfold sample. rewrite shp_fold, Ha. fold (P (fst ow)). rewrite Eq.
          apply H5, Ha.
      - exists [(1%R, None)]. split; [|split; [|split; [|split]]].
        + split; [intros a [<-|[]]; simpl; lra|]. rewrite Sum_cons, Sum_nil; simpl. ring.
        + intros w i [E|[]]. discriminate.
        + intros Hm. destruct (pad_pos_some m (nth ax s 0) (P (fst ow)) Hm). congruence.
        + intros Hint. exfalso. destruct (Hint ax) as [Ha Hb]; [apply in_or_app; right; left; reflexivity|].
          specialize (Hnear _ How). rewrite pad_pos_in in Eq; [discriminate|]. unfold P. lia.
        + intros cval a Ha. unfold sample. rewrite shp_fold, Ha. fold (P (fst ow)). rewrite Eq.
          rewrite Sum_cons, Sum_nil; simpl. ring. }
    assert (eqd : forall x y : Z * R, {x = y} + {x <> y}).
    { intros x y. decide equality; [apply Req_EM_T|apply Z.eq_dec]. }
    destruct (choice_list _ ws [] eqd HK) as [F HF].
    exists (flat_map (fun ow => map (fun k => (snd ow * fst k, snd k)%R) (F ow)) ws).
    assert (Hmem : forall (w : R) (i : option (list nat)),
              In (w, i) (flat_map (fun ow => map (fun k => (snd ow * fst k, snd k)%R) (F ow)) ws) ->
              exists ow w', In ow ws /\ In (w', i) (F ow)).
    { intros w i H. apply in_flat_map in H as (ow & How & H). apply in_map_iff in H as ([w' i'] & E & Hk).
      inversion E; subst. eauto. }
    split; [|split; [|split; [|split]]].
    + split.
      * intros k Hk. apply in_flat_map in Hk as (ow & How & Hk). apply in_map_iff in Hk as (k' & <- & Hk).
        simpl. apply Rmult_le_pos; [apply Hw0, How|]. apply (HF ow How), Hk.
      * rewrite Sum_flat_map. rewrite <- Hw1. apply Sum_ext. intros ow How. rewrite Sum_map; simpl.
        rewrite (Sum_scale (snd ow) fst). destruct (HF ow How) as ([_ ->] & _). ring.
    + intros w i H. destruct (Hmem w (Some i) H) as (ow & w' & How & Hk).
      apply (HF ow How) in Hk. exact Hk.
    + intros Hm w H. destruct (Hmem w None H) as (ow & w' & How & Hk).
      destruct (HF ow How) as (_ & _ & H3 & _). exact (H3 Hm _ Hk).
    + intros Hint w H. destruct (Hmem w None H) as (ow & w' & How & Hk).
      destruct (HF ow How) as (_ & _ & _ & H4 & _). exact (H4 Hint _ Hk).
    + intros cval a Ha. rewrite fold_left_app. simpl. unfold filter_axis at 1.
      rewrite getd_tab by (rewrite shp_fold, Ha; exact Hidx).
      rewrite Sum_flat_map. apply Sum_ext. intros ow How. rewrite Sum_map.
      destruct (HF ow How) as (_ & _ & _ & _ & H5). rewrite (H5 cval a Ha).
      rewrite <- Sum_scale. apply Sum_ext. intros k _. simpl. ring.
Qed.

(** The two kinds of weights. *)
Lemma gauss_pos sigma k : (0 < gauss sigma k)%R.
Proof. apply exp_pos. Qed.

Lemma offsets_near r k : In k (offsets r) -> (- Z.of_nat r <= k <= Z.of_nat r)%Z.
Proof. unfold offsets. intros H. apply in_map_iff in H as (i & <- & Hi). apply in_seq in Hi. lia. Qed.

Lemma length_offsets r : length (offsets r) = 2 * r + 1.
Proof. unfold offsets. rewrite map_length, seq_length. reflexivity. Qed.

Lemma Sum_pos {A} (f : A -> R) l : l <> [] -> (forall a, In a l -> (0 < f a)%R) -> (0 < Sum f l)%R.
Proof.
  destruct l as [|a l]; [congruence|]. intros _ H. rewrite Sum_cons.
  assert (0 < f a)%R by (apply H; left; reflexivity).
  assert (0 <= Sum f l)%R by (apply Sum_nonneg; intros; apply Rlt_le, H; right; assumption). lra.
Qed.

Lemma offsets_nonempty r : offsets r <> [].
Proof. intros E. apply (f_equal (@length Z)) in E. rewrite length_offsets in E. simpl in E. lia. Qed.

Lemma gaussian_convex sigma r : convex snd (gaussian_weights sigma r) /\ near r (gaussian_weights sigma r).
Proof.
  assert (Ht : (0 < Sum (gauss sigma) (offsets r))%R)
    by (apply Sum_pos; [apply offsets_nonempty|intros; apply gauss_pos]).
  unfold gaussian_weights. split; [split|].
  - intros a Ha. apply in_map_iff in Ha as (k & <- & Hk). simpl.
    apply Rlt_le, Rdiv_lt_0_compat; [apply gauss_pos|exact Ht].
  - rewrite Sum_map; simpl. unfold Rdiv.
    rewrite (Sum_ext _ (fun k => (/ Sum (gauss sigma) (offsets r)) * gauss sigma k)%R) by (intros; ring).
    rewrite Sum_scale. field. lra.
  - intros ow Ha. apply in_map_iff in Ha as (k & <- & Hk). simpl. apply offsets_near, Hk.
Qed.

Lemma uniform_convex size :
  (size mod 2 = 1)%Z -> convex snd (uniform_weights size) /\ near (Z.to_nat ((size - 1) / 2)) (uniform_weights size).
Proof.
  intros Hodd. unfold uniform_weights. destruct (Z.leb_spec size 1) as [H|H].
  - split; [split|].
    + intros a [<-|[]]; simpl; lra.
    + rewrite Sum_cons, Sum_nil; simpl; ring.
    + intros ow [<-|[]]; simpl; lia.
  - set (h := Z.to_nat ((size - 1) / 2)).
    assert (Hs : size = (2 * Z.of_nat h + 1)%Z).
    { unfold h. pose proof (Z.div_mod size 2 ltac:(lia)).
      assert ((size - 1) / 2 = size / 2)%Z. { symmetry. apply (Z.div_unique _ _ _ 0); lia. } lia. }
    assert (0 < IZR size)%R by (apply IZR_lt; lia).
    split; [split|].
    + intros a Ha. apply in_map_iff in Ha as (k & <- & Hk). simpl. apply Rlt_le, Rinv_0_lt_compat. assumption.
    + rewrite Sum_map; simpl. rewrite Sum_const, length_offsets, INR_IZR_INZ.
      replace (Z.of_nat (2 * h + 1)) with size by lia. field. lra.
    + intros ow Ha. apply in_map_iff in Ha as (k & <- & Hk). simpl. apply offsets_near, Hk.
Qed.

(** ** One pixel *)

Section pixel.
Local Open Scope R_scope.

Lemma zpow_1 e : zpow 1 e = 1.
Proof. unfold zpow. rewrite !pow1, Rinv_1. destruct (_ <=? _)%Z; reflexivity. Qed.

Lemma nan1_same big x : nan1 big x x = 1.
Proof.
  unfold nan1. destruct (Req_EM_T x 0) as [->|H].
  - destruct (Rlt_dec 0 0); [lra|]. destruct (Rlt_dec 0 0); lra.
  - field. exact H.
Qed.

Lemma pixel_same big P u uu : ssim_pixel big P u u uu uu uu = 1.
Proof.
  unfold ssim_pixel. cbv zeta.
  replace (nan1 big (2 * u * u + p_c1 P) (u * u + u * u + p_c1 P)) with 1
    by (replace (2 * u * u) with (u * u + u * u) by ring; rewrite nan1_same; reflexivity).
  set (v := p_cov P * (uu - u * u)). unfold osqrt. destruct (Rlt_dec v 0) as [H|H].
  - rewrite !zpow_1. ring.
  - replace (2 * sqrt v * sqrt v) with (v + v).
    2:{ replace (2 * sqrt v * sqrt v) with (2 * (sqrt v * sqrt v)) by ring. rewrite sqrt_sqrt by lra. ring. }
    rewrite sqrt_sqrt by lra. rewrite !nan1_same, !zpow_1. ring.
Qed.

Lemma pixel_sym big P ux uy uxx uyy uxy :
  ssim_pixel big P ux uy uxx uyy uxy = ssim_pixel big P uy ux uyy uxx uxy.
Proof.
  unfold ssim_pixel. cbv zeta.
  set (vx := p_cov P * (uxx - ux * ux)). set (vy := p_cov P * (uyy - uy * uy)).
  replace (uxy - uy * ux) with (uxy - ux * uy) by ring.
  replace (2 * uy * ux) with (2 * ux * uy) by ring.
  replace (uy * uy + ux * ux) with (ux * ux + uy * uy) by ring.
  replace (vy + vx) with (vx + vy) by ring.
  destruct (osqrt vx) as [sx|], (osqrt vy) as [sy|]; try reflexivity.
  replace (2 * sy * sx) with (2 * sx * sy) by ring.
  replace (sy * sx) with (sx * sy) by ring. reflexivity.
Qed.

Lemma nan1_abs big num den : Rabs num <= den -> Rabs (nan1 big num den) <= 1.
Proof.
  intros H. unfold nan1. destruct (Req_EM_T den 0) as [->|Hd].
  - assert (num = 0).
    { pose proof (Rabs_pos num). destruct (Req_dec num 0) as [E|E]; [exact E|].
      pose proof (Rabs_no_R0 num E). lra. }
    subst num. destruct (Rlt_dec 0 0); [lra|]. destruct (Rlt_dec 0 0); [lra|]. rewrite Rabs_R1. lra.
  - pose proof (Rabs_pos num). assert (0 < den) by lra. unfold Rdiv. rewrite Rabs_mult, Rabs_inv.
    rewrite (Rabs_pos_eq den) by lra. apply Rmult_le_reg_r with den; [assumption|].
    rewrite Rmult_assoc, Rinv_l by lra. lra.
Qed.

Lemma zpow_abs x e : (0 <= e)%Z -> Rabs x <= 1 -> Rabs (zpow x e) <= 1.
Proof.
  intros He Hx. unfold zpow. destruct (Z.leb_spec 0 e); [|lia]. rewrite <- RPow_abs.
  induction (Z.to_nat e) as [|n IH]; simpl; [lra|].
  assert (0 <= Rabs x ^ n) by (apply pow_le, Rabs_pos).
  pose proof (Rabs_pos x). nra.
Qed.

Lemma Rabs_mult_le1 x y : Rabs x <= 1 -> Rabs y <= 1 -> Rabs (x * y) <= 1.
Proof.
  intros Hx Hy. rewrite Rabs_mult. pose proof (Rabs_pos x). pose proof (Rabs_pos y). nra.
Qed.

(** Weighted variance and covariance. *)
Lemma variance {A} (w f g : A -> R) l :
  convex w l ->
  Sum (fun a => w a * (f a * g a)) l - Sum (fun a => w a * f a) l * Sum (fun a => w a * g a) l
  = Sum (fun a => w a * (f a - Sum (fun a => w a * f a) l) * (g a - Sum (fun a => w a * g a) l)) l.
Proof.
  intros [_ H1]. set (F := Sum (fun a => w a * f a) l). set (G := Sum (fun a => w a * g a) l).
  rewrite (Sum_ext (fun a => w a * (f a - F) * (g a - G))
     (fun a => w a * (f a * g a) + (- G) * (w a * f a) + (- F) * (w a * g a) + (F * G) * w a))
    by (intros; ring).
  rewrite !Sum_plus, !Sum_scale. fold F G. rewrite H1. ring.
Qed.

Lemma pixel_bound {A} big P (w x y : A -> R) l :
  convex w l -> 0 < p_cov P -> 0 <= p_c1 P -> 0 <= p_c2 P ->
  (0 <= p_al P)%Z -> (0 <= p_be P)%Z -> (0 <= p_ga P)%Z ->
  Rabs (ssim_pixel big P (Sum (fun a => w a * x a) l) (Sum (fun a => w a * y a) l)
          (Sum (fun a => w a * (x a * x a)) l) (Sum (fun a => w a * (y a * y a)) l)
          (Sum (fun a => w a * (x a * y a)) l)) <= 1.
Proof.
  intros Hc Hcov H1 H2 Ha Hb Hg. unfold ssim_pixel. cbv zeta. rewrite !variance by exact Hc.
  set (ux := Sum (fun a => w a * x a) l). set (uy := Sum (fun a => w a * y a) l).
  set (sxx := Sum (fun a => w a * (x a - ux) * (x a - ux)) l).
  set (syy := Sum (fun a => w a * (y a - uy) * (y a - uy)) l).
  set (sxy := Sum (fun a => w a * (x a - ux) * (y a - uy)) l).
  assert (CS : sxy * sxy <= sxx * syy) by (apply cauchy_schwarz, (proj1 Hc)).
  assert (Hxx : 0 <= sxx) by (apply sq_sum_nonneg, (proj1 Hc)).
  assert (Hyy : 0 <= syy) by (apply sq_sum_nonneg, (proj1 Hc)).
  set (vx := p_cov P * sxx). set (vy := p_cov P * syy). set (vxy := p_cov P * sxy).
  assert (Hvx : 0 <= vx) by (apply Rmult_le_pos; lra).
  assert (Hvy : 0 <= vy) by (apply Rmult_le_pos; lra).
  assert (CSv : vxy * vxy <= vx * vy).
  { unfold vxy, vx, vy. replace (p_cov P * sxy * (p_cov P * sxy)) with (p_cov P * p_cov P * (sxy * sxy)) by ring.
    replace (p_cov P * sxx * (p_cov P * syy)) with (p_cov P * p_cov P * (sxx * syy)) by ring.
    apply Rmult_le_compat_l; [nra|exact CS]. }
  unfold osqrt. destruct (Rlt_dec vx 0); [lra|]. destruct (Rlt_dec vy 0); [lra|].
  set (sx := sqrt vx). set (sy := sqrt vy).
  assert (Hsx : 0 <= sx) by apply sqrt_pos. assert (Hsy : 0 <= sy) by apply sqrt_pos.
  assert (Ex : sx * sx = vx) by (apply sqrt_sqrt; lra).
  assert (Ey : sy * sy = vy) by (apply sqrt_sqrt; lra).
  assert (Hcov2 : Rabs vxy <= sx * sy).
  { apply Rsqr_incr_0_var; [|apply Rmult_le_pos; assumption]. rewrite <- Rsqr_abs. unfold Rsqr.
    replace (sx * sy * (sx * sy)) with ((sx * sx) * (sy * sy)) by ring. rewrite Ex, Ey. exact CSv. }
  apply Rabs_mult_le1; [apply Rabs_mult_le1|]; apply zpow_abs; try assumption; apply nan1_abs.
  - assert (K : Rabs (2 * ux * uy) <= ux * ux + uy * uy) by (pose proof (Rle_0_sqr (ux + uy)); pose proof (Rle_0_sqr (ux - uy)); unfold Rsqr in *; apply Rabs_le; split; lra).
    eapply Rle_trans; [apply Rabs_triang|]. rewrite (Rabs_pos_eq (p_c1 P)) by assumption. lra.
  - rewrite Rabs_pos_eq; [|assert (0 <= sx * sy) by (apply Rmult_le_pos; assumption); lra].
    rewrite <- Ex, <- Ey. pose proof (Rle_0_sqr (sx - sy)); unfold Rsqr in *; lra.
  - eapply Rle_trans; [apply Rabs_triang|]. rewrite (Rabs_pos_eq (p_c2 P / 2)) by lra. lra.
Qed.
End pixel.

(** ** The parameters *)

(** What a successful set-up guarantees. *)
Lemma setup_ok s kw P :
  ssim_setup s kw = Ok P ->
  exists rad win,
    convex snd (p_ws P) /\ near rad (p_ws P) /\
    (0 < p_cov P)%R /\ (0 <= p_c1 P)%R /\ (0 <= p_c2 P)%R /\
    p_pad P = ((win - 1) / 2)%Z /\ (win mod 2 = 1)%Z /\
    (forall n, In n s -> (win <= Z.of_nat n)%Z) /\
    ((forall w, dget kw "win_size" = Some (KInt w) -> (0 < w)%Z) -> (0 < win)%Z) /\
    ((forall w, dget kw "win_size" <> Some (KInt w)) \/ dget kw "gaussian_weights" = Some (KBool false) ->
       rad = Z.to_nat (p_pad P)) /\
    (dget kw "mode" = None -> p_mode P <> Constant) /\
    (dget kw "cval" = None -> p_cval P = 0%R) /\
    (forall c, dget kw "cval" = Some (KReal c) -> p_cval P = c) /\
    (forall t m, dget kw "mode" = Some (KText t) -> mode_of t = Some m -> m <> Constant ->
       p_mode P <> Constant) /\
    (match dget kw "alpha" with Some (KInt z) => (0 <= z)%Z | Some (KReal x) => (0 <= x)%R | Some (KText t) => forall z, py_int (list_ascii_of_string t) = Ok z -> (0 <= z)%Z | _ => True end
       -> (0 <= p_al P)%Z) /\
    (match dget kw "beta" with Some (KInt z) => (0 <= z)%Z | Some (KReal x) => (0 <= x)%R | Some (KText t) => forall z, py_int (list_ascii_of_string t) = Ok z -> (0 <= z)%Z | _ => True end
       -> (0 <= p_be P)%Z) /\
    (match dget kw "gamma" with Some (KInt z) => (0 <= z)%Z | Some (KReal x) => (0 <= x)%R | Some (KText t) => forall z, py_int (list_ascii_of_string t) = Ok z -> (0 <= z)%Z | _ => True end
       -> (0 <= p_ga P)%Z).
Proof.
  assert (Hexp : forall v e, as_exp v = Ok e ->
      match v with Some (KInt z) => (0 <= z)%Z | Some (KReal x) => (0 <= x)%R | Some (KText t) => forall z, py_int (list_ascii_of_string t) = Ok z -> (0 <= z)%Z | _ => True end ->
      (0 <= Rtrunc e)%Z).
  { intros v e He Hv. assert (0 <= e)%R.
    { destruct v as [[|b|z|x|t]|]; cbn [as_exp as_num] in He; try discriminate; try (injection He as <-; try lra).
      - destruct b; lra.
      - apply (IZR_le 0). exact Hv.
      - apply bind_ok in He as (z & Ez & He). injection He as <-. apply (IZR_le 0), Hv, Ez. }
    rewrite <- (NormProofs.Rtrunc_IZR 0) by lia. apply NormProofs.Rtrunc_le; lra. }
  unfold ssim_setup. intros H.
  apply bind_ok in H as (k1 & _ & H). destruct (Rlt_dec k1 0) as [?|Hk1]; [discriminate|].
  apply bind_ok in H as (k2 & _ & H). destruct (Rlt_dec k2 0) as [?|Hk2]; [discriminate|].
  apply bind_ok in H as (sigma & _ & H). destruct (Rlt_dec sigma 0) as [?|Hsg]; [discriminate|].
  apply bind_ok in H as (given & Hgiven & H).
  set (g := flag (dget kw "gaussian_weights") true) in *.
  set (r := gauss_radius sigma) in *. cbv zeta in H.
  set (win := match given with Some w => w | None => if g then (2 * Z.of_nat r + 1)%Z else 7%Z end) in *.
  destruct (existsb _ s) eqn:Eext; [discriminate|].
  destruct (win mod 2 =? 1)%Z eqn:Eodd; cbn [negb] in H; [|discriminate]. apply Z.eqb_eq in Eodd.
  apply bind_ok in H as (al & Hal & H). apply bind_ok in H as (be & Hbe & H).
  apply bind_ok in H as (ga & Hga & H). apply bind_ok in H as (cov & Hcov & H).
  apply bind_ok in H as (md & Hmd & H). apply bind_ok in H as (cval & Hcval & H). apply bind_ok in H as (dr & _ & H).
  apply (f_equal (fun x => match x with Ok y => y | Err _ => P end)) in H. cbv beta iota in H. subst P.
  cbn [p_ws p_mode p_cval p_pad p_cov p_c1 p_c2 p_al p_be p_ga].
  exists (if g then r else Z.to_nat ((win - 1) / 2)), win.
  assert (Hws : convex snd (if g then gaussian_weights sigma r else uniform_weights win) /\
                near (if g then r else Z.to_nat ((win - 1) / 2))
                     (if g then gaussian_weights sigma r else uniform_weights win))
    by (destruct g; [apply gaussian_convex|apply uniform_convex, Eodd]).
  split; [apply Hws|]. split; [apply Hws|]. split.
  { destruct (g && _); [injection Hcov as <-; lra|].
    set (nw := (win ^ Z.of_nat (Datatypes.length s))%Z) in *.
    destruct (Z.eqb_spec (nw - 1) 0) as [E|E]; [discriminate|]. injection Hcov as <-.
    assert (nw <> 0)%Z by (apply Z.pow_nonzero; [intros E0; rewrite E0 in Eodd; discriminate|lia]).
    destruct (Z.lt_ge_cases nw 0).
    - replace (IZR nw / IZR (nw - 1))%R with (IZR (- nw) / IZR (- (nw - 1)))%R.
      + apply Rdiv_lt_0_compat; apply IZR_lt; lia.
      + rewrite !opp_IZR. field. apply not_0_IZR. exact E.
    - apply Rdiv_lt_0_compat; apply IZR_lt; lia. }
  split; [apply Rle_0_sqr|]. split; [apply Rle_0_sqr|].
  split; [reflexivity|]. split; [exact Eodd|]. split.
  { intros n Hn. destruct (Z.ltb_spec (Z.of_nat n - win) 0) as [L|L]; [|lia].
    exfalso. assert (existsb (fun n0 : nat => (Z.of_nat n0 - win <? 0)%Z) s = true); [|congruence].
    apply existsb_exists. exists n. split; [exact Hn|]. apply Z.ltb_lt. exact L. }
  split.
  { intros Hw. unfold win. destruct (dget kw "win_size") as [[|b|z|x|t]|]; simpl in Hgiven;
      try discriminate; injection Hgiven as <-; try (destruct g; lia).
    - destruct b; [lia|]. exfalso. unfold win in Eodd. discriminate Eodd.
    - apply Hw. reflexivity. }
  split.
  { intros [Hw|Hg].
    - assert (given = None).
      { destruct (dget kw "win_size") as [[|b|z|x|t]|]; simpl in Hgiven; try discriminate;
          try (injection Hgiven as <-; reflexivity); exfalso; [|apply (Hw z); reflexivity].
        destruct b; injection Hgiven as <-; [|discriminate Eodd]. unfold win in Hcov. rewrite andb_false_r, Z.pow_1_l in Hcov by lia. discriminate Hcov. }
      unfold win. subst given. destruct g; [|reflexivity].
      replace (2 * Z.of_nat r + 1 - 1)%Z with (Z.of_nat r * 2)%Z by lia. rewrite Z.div_mul by lia. lia.
    - assert (g = false) as -> by (unfold g; rewrite Hg; reflexivity). reflexivity. }
  split.
  { intros E. rewrite E in Hmd.
    destruct (if g then (if Rlt_dec (1 / 10 ^ 15) sigma then true else false) else (1 <? win)%Z); [|injection Hmd as <-; congruence].
    injection Hmd as <-. congruence. }
  split; [intros E; rewrite E in Hcval; simpl in Hcval; congruence|].
  split; [intros c E; rewrite E in Hcval; simpl in Hcval; congruence|].
  split.
  { intros t m E Em Hm. rewrite E in Hmd.
    destruct (if g then (if Rlt_dec (1 / 10 ^ 15) sigma then true else false) else (1 <? win)%Z); [|injection Hmd as <-; congruence].
    rewrite Em in Hmd. simpl in Hmd. congruence. }
  split; [apply Hexp, Hal|]. split; [apply Hexp, Hbe|apply Hexp, Hga].
Qed.

(** ** The mean over the cropped map *)

Lemma Rabs_le_inv x c : (Rabs x <= c -> - c <= x <= c)%R.
Proof. unfold Rabs. destruct (Rcase_abs x); lra. Qed.

Lemma mean_all (l : list R) c : l <> [] -> (forall x, In x l -> x = c) -> mean_of l = Fin c.
Proof.
  intros Hl H. unfold mean_of. destruct l as [|x l']; [congruence|]. f_equal.
  rewrite rsum_Sum. rewrite (Sum_ext _ (fun _ => c)) by exact H. rewrite Sum_const. field.
  apply not_0_INR. discriminate.
Qed.

Lemma mean_abs (l : list R) : l <> [] -> (forall x, In x l -> (Rabs x <= 1)%R) ->
  exists v, mean_of l = Fin v /\ (Rabs v <= 1)%R.
Proof.
  intros Hl H. unfold mean_of. destruct l as [|x l'] eqn:E; [congruence|]. rewrite <- E in *.
  eexists. split; [reflexivity|]. rewrite rsum_Sum.
  assert (Hn : (0 < INR (length l))%R) by (apply lt_0_INR; rewrite E; simpl; lia).
  assert (Sum (fun x => x) l <= INR (length l) * 1)%R.
  { rewrite <- (Sum_const 1 l). apply Sum_le. intros a Ha. apply H in Ha. apply Rabs_le_inv in Ha. lra. }
  assert (INR (length l) * -1 <= Sum (fun x => x) l)%R.
  { rewrite <- (Sum_const (-1) l). apply Sum_le. intros a Ha. apply H in Ha. apply Rabs_le_inv in Ha. lra. }
  apply Rabs_le. split; apply Rmult_le_reg_r with (INR (length l)); try exact Hn;
    unfold Rdiv; rewrite ?Rmult_assoc, ?Rinv_l by lra; lra.
Qed.

Lemma in_dat {A} (a : arr A) x : wf a -> In x (dat a) -> exists idx, inb (shp a) idx = true /\ get a idx = Some x.
Proof.
  intros Hw Hx. apply In_nth_error in Hx as [n Hn].
  assert (n < size (shp a)) by (rewrite <- Hw; apply nth_error_Some; congruence).
  destruct (ravel_surj (shp a) n) as (idx & Hi & Hr); [assumption|].
  exists idx. split; [exact Hi|]. unfold get. rewrite Hi, Hr. exact Hn.
Qed.

Lemma slice_border s pad idx :
  (0 <= pad)%Z ->
  let r := map (fun n => (pad, Z.of_nat n - pad)%Z) s in
  inb (slice_shape s r) idx = true ->
  inb s (slice_index s r idx) = true /\
  forall ax, ax < length s -> Z.to_nat pad <= nth ax (slice_index s r idx) 0 /\
                              nth ax (slice_index s r idx) 0 + Z.to_nat pad < nth ax s 0.
Proof.
  intros Hp. simpl. revert idx. induction s as [|n s IH]; intros [|i idx]; simpl; try discriminate.
  - intros _. split; [reflexivity|]. intros; lia.
  - intros H. apply andb_true_iff in H as [H1 H]. apply Nat.ltb_lt in H1.
    destruct (IH idx H) as [Ha Hb]. clear IH.
    assert (Z.to_nat pad <= clip n pad + i /\ clip n pad + i + Z.to_nat pad < n).
    { revert H1. unfold clip. destruct (Z.ltb_spec pad 0), (Z.ltb_spec (Z.of_nat n - pad) 0); lia. }
    split; [rewrite Ha; apply andb_true_iff; split; [apply Nat.ltb_lt; lia|reflexivity]|].
    intros [|ax] Hax; [assumption|]. apply Hb. lia.
Qed.

Lemma slice_size s pad :
  (forall n, In n s -> (2 * pad < Z.of_nat n)%Z) -> (0 <= pad)%Z ->
  0 < size (slice_shape s (map (fun n => (pad, Z.of_nat n - pad)%Z) s)).
Proof.
  intros H Hp. induction s as [|n s IH]; simpl; [lia|].
  assert (0 < size (slice_shape s (map (fun n => (pad, Z.of_nat n - pad)%Z) s)))
    by (apply IH; intros; apply H; right; assumption).
  specialize (H n (or_introl eq_refl)).
  assert (0 < clip n (Z.of_nat n - pad) - clip n pad).
  { unfold clip. destruct (Z.ltb_spec pad 0), (Z.ltb_spec (Z.of_nat n - pad) 0); lia. }
  nia.
Qed.

(** The values that are averaged. *)
Lemma ssim_values big r m kw e :
  structural_similarity big r m kw = Ok e ->
  (forall w, dget kw "win_size" = Some (KInt w) -> (0 < w)%Z) ->
  exists P l, ssim_setup (shp r) kw = Ok P /\ e = mean_of l /\ l <> [] /\
    forall x, In x l -> exists idx, inb (shp r) idx = true /\ x = getd (ssim_map big P r m) idx /\
      forall ax, ax < length (shp r) -> Z.to_nat (p_pad P) <= nth ax idx 0 /\
                                        nth ax idx 0 + Z.to_nat (p_pad P) < nth ax (shp r) 0.
Proof.
  unfold structural_similarity. intros H Hw. apply bind_ok in H as (P & HP & H).
  apply bind_ok in H as (c & Hc & H). injection H as <-.
  exists P, (dat c). split; [exact HP|]. split; [reflexivity|].
  destruct (setup_ok _ _ _ HP) as (rad & win & _ & _ & _ & _ & _ & Hpad & Hodd & Hext & Hpos & _).
  specialize (Hpos Hw).
  assert (Hp0 : (0 <= p_pad P)%Z) by (rewrite Hpad; apply Z.div_pos; lia).
  assert (Hp2 : (2 * p_pad P < win)%Z).
  { rewrite Hpad. pose proof (Z.mul_div_le (win - 1) 2 ltac:(lia)). lia. }
  destruct (slice_ok (ssim_map big P r m) (map (fun n => (p_pad P, Z.of_nat n - p_pad P)%Z) (shp r)))
    as (c' & Hc' & Hs & Hwf & Hg).
  { apply wf_tabulate. } { rewrite map_length. simpl. lia. }
  rewrite Hc' in Hc. injection Hc as ->. cbn [ssim_map tabulate shp] in Hs. split.
  - intros E. unfold wf in Hwf. rewrite E, Hs in Hwf. simpl in Hwf.
    pose proof (slice_size (shp r) (p_pad P)) as K.
    assert (0 < size (slice_shape (shp r) (map (fun n => (p_pad P, Z.of_nat n - p_pad P)%Z) (shp r)))); [|lia].
    apply K; [|exact Hp0]. intros n Hn. specialize (Hext n Hn). lia.
  - intros x Hx. destruct (in_dat c x Hwf Hx) as (idx & Hi & Hgx).
    rewrite (Hg idx Hi) in Hgx. cbn [ssim_map tabulate shp] in Hgx. rewrite Hs in Hi.
    destruct (slice_border (shp r) (p_pad P) idx Hp0 Hi) as [Ha Hb].
    exists (slice_index (shp r) (map (fun n => (p_pad P, Z.of_nat n - p_pad P)%Z) (shp r)) idx).
    split; [exact Ha|]. split; [|exact Hb]. unfold getd. rewrite Hgx. reflexivity.
Qed.

Lemma axes_seq n : NoDup (seq 0 n) /\ forall ax, In ax (seq 0 n) -> ax < n.
Proof. split; [apply seq_NoDup|]. intros ax H. apply in_seq in H. lia. Qed.

Lemma ssim_identical big r kw e :
  structural_similarity big r r kw = Ok e ->
  (forall w, dget kw "win_size" = Some (KInt w) -> (0 < w)%Z) -> e = Fin 1.
Proof.
  intros H Hw. destruct (ssim_values big r r kw e H Hw) as (P & l & HP & -> & Hl & Hx).
  apply mean_all; [exact Hl|]. intros x Hin. destruct (Hx x Hin) as (idx & Hi & -> & _).
  unfold ssim_map. rewrite getd_tab by exact Hi. apply pixel_same.
Qed.

Lemma amul_comm a b : shp a = shp b -> amul a b = amul b a.
Proof.
  intros E. unfold amul, tabulate. rewrite E. f_equal. apply map_ext. intros idx. apply Rmult_comm.
Qed.

Lemma ssim_symmetric big r m kw : shp r = shp m ->
  structural_similarity big r m kw = structural_similarity big m r kw.
Proof.
  intros E. unfold structural_similarity. rewrite E. destruct (ssim_setup (shp m) kw) as [P|]; [|reflexivity].
  simpl. replace (ssim_map big P r m) with (ssim_map big P m r); [reflexivity|].
  unfold ssim_map, tabulate. rewrite E. f_equal. apply map_ext. intros idx.
  rewrite (amul_comm m r) by congruence. apply pixel_sym.
Qed.

Lemma getd_amul a b p : inb (shp a) p = true -> getd (amul a b) p = (getd a p * getd b p)%R.
Proof. intros H. unfold amul. rewrite getd_tab by exact H. reflexivity. Qed.

Lemma ssim_range big r m kw e :
  shp r = shp m ->
  structural_similarity big r m kw = Ok e ->
  (forall w, dget kw "win_size" = Some (KInt w) -> (0 < w)%Z) ->
  (forall k, In k ["alpha"; "beta"; "gamma"]%string ->
     match dget kw k with Some (KInt z) => (0 <= z)%Z | Some (KReal x) => (0 <= x)%R | Some (KText t) => forall z, py_int (list_ascii_of_string t) = Ok z -> (0 <= z)%Z | _ => True end) ->
  dget kw "mode" = None \/ dget kw "cval" = None \/
  (exists t m, dget kw "mode" = Some (KText t) /\ mode_of t = Some m /\ m <> Constant) \/
  (forall w, dget kw "win_size" <> Some (KInt w)) \/ dget kw "gaussian_weights" = Some (KBool false) ->
  exists v, e = Fin v /\ (-1 <= v <= 1)%R.
Proof.
  intros Es H Hw Hexp Hfill. destruct (ssim_values big r m kw e H Hw) as (P & l & HP & -> & Hl & Hx).
  destruct (setup_ok _ _ _ HP) as (rad & win & Hcv & Hnear & Hcov & Hc1 & Hc2 & _ & _ & _ & _ & Hrad &
    Hm0 & Hcv0 & _ & Hmode & Hal & Hbe & Hga).
  destruct (mean_abs l Hl) as (v & -> & Hv).
  2:{ exists v. split; [reflexivity|]. apply Rabs_le_inv, Hv. }
  intros x Hin. destruct (Hx x Hin) as (idx & Hi & -> & Hb).
  unfold ssim_map. rewrite getd_tab by exact Hi.
  destruct (axes_seq (length (shp r))) as [Hnd Hlt].
  destruct (filter_kernel (p_ws P) (p_mode P) (shp r) rad Hcv Hnear _ Hnd Hlt idx Hi)
    as (K & HK & Kin & K1 & K2 & K3).
  assert (Hsh : forall a b : arr R, shp (amul a b) = shp a) by reflexivity.
  unfold filter_nd. rewrite !Hsh, <- Es.
  rewrite !K3 by (rewrite ?Hsh; congruence).
  assert (Hprod : forall a b : arr R, shp a = shp r ->
     Sum (fun k => fst k * val (p_cval P) (amul a b) (snd k))%R K
     = Sum (fun k => fst k * (val (p_cval P) a (snd k) * val (p_cval P) b (snd k)))%R K).
  { intros a b Ea. apply Sum_ext. intros [w p] Hk. cbn [fst snd]. f_equal.
    destruct p as [i|]; cbn [val].
    - apply getd_amul. rewrite Ea. exact (Kin _ _ Hk).
    - destruct (Req_dec (p_cval P) 0) as [->|Hne]; [ring|]. exfalso.
      destruct Hfill as [F|[F|[(t & md & F1 & F2 & F3)|F]]].
      + exact (K1 (Hm0 F) _ Hk).
      + auto.
      + exact (K1 (Hmode _ _ F1 F2 F3) _ Hk).
      + apply (K2 (fun ax Hax => eq_ind_r (fun rd => rd <= nth ax idx 0 /\ nth ax idx 0 + rd < nth ax (shp r) 0)
                   (Hb ax (Hlt ax Hax)) (Hrad F)) _ Hk). }
  rewrite !Hprod by congruence.
  apply (pixel_bound big P (fun k => fst k) (fun k => val (p_cval P) r (snd k))
           (fun k => val (p_cval P) m (snd k)) K); try assumption.
  - apply Hal, Hexp. left; reflexivity.
  - apply Hbe, Hexp. right; left; reflexivity.
  - apply Hga, Hexp. right; right; left; reflexivity.
Qed.

(** ** Exactly which parameters are accepted *)

Definition win_value (w : option Z) : kwval := match w with Some z => KInt z | None => KNone end.

Lemma slice_always {A} (a : arr A) pad : wf a ->
  exists c, slice a (map (fun n => (pad, Z.of_nat n - pad)%Z) (shp a)) = Ok c.
Proof.
  intros Hw. destruct (slice_ok a (map (fun n => (pad, Z.of_nat n - pad)%Z) (shp a)) Hw) as (c & Hc & _).
  { rewrite map_length. lia. } eauto.
Qed.

Lemma ssim_returns big r m kw P :
  ssim_setup (shp r) kw = Ok P -> exists e, structural_similarity big r m kw = Ok e.
Proof.
  intros HP. unfold structural_similarity. rewrite HP. cbn [bind].
  destruct (slice_always (ssim_map big P r m) (p_pad P)) as [c Hc]; [apply wf_tabulate|].
  change (shp (ssim_map big P r m)) with (shp r) in Hc. rewrite Hc. simpl. eauto.
Qed.

(** The set-up reads the keyword arguments through dget only. *)
Definition ssim_keys : list string :=
  ["K1"; "K2"; "sigma"; "gaussian_weights"; "win_size"; "mode"; "cval"; "alpha"; "beta"; "gamma"; "data_range"]%string.

Lemma setup_ext s kw kw' :
  (forall k, In k ssim_keys -> dget kw k = dget kw' k) -> ssim_setup s kw = ssim_setup s kw'.
Proof.
  intros H. unfold ssim_setup.
  rewrite (H "K1"%string), (H "K2"%string), (H "sigma"%string), (H "gaussian_weights"%string),
    (H "win_size"%string), (H "mode"%string), (H "cval"%string), (H "alpha"%string), (H "beta"%string),
    (H "gamma"%string), (H "data_range"%string) by (unfold ssim_keys; simpl; tauto).
  reflexivity.
Qed.

Lemma setup_exponents s kw kw' :
  (forall k, In k ["K1"; "K2"; "sigma"; "gaussian_weights"; "win_size"; "mode"; "cval"; "data_range"]%string ->
     dget kw k = dget kw' k) ->
  (forall k, In k ["alpha"; "beta"; "gamma"]%string ->
     exists a b, as_exp (dget kw k) = Ok a /\ as_exp (dget kw' k) = Ok b /\ Rtrunc a = Rtrunc b) ->
  ssim_setup s kw = ssim_setup s kw'.
Proof.
  intros H He. unfold ssim_setup.
  rewrite (H "K1"%string), (H "K2"%string), (H "sigma"%string), (H "gaussian_weights"%string),
    (H "win_size"%string), (H "mode"%string), (H "cval"%string),
    (H "data_range"%string) by (simpl; tauto).
  destruct (He "alpha"%string) as (a1 & b1 & -> & -> & T1); [simpl; tauto|].
  destruct (He "beta"%string) as (a2 & b2 & -> & -> & T2); [simpl; tauto|].
  destruct (He "gamma"%string) as (a3 & b3 & -> & -> & T3); [simpl; tauto|].
  cbn [bind]. rewrite T1, T2, T3. reflexivity.
Qed.

Lemma dget_app {V} (d e : dict V) k : dget (d ++ e) k = match dget d k with Some v => Some v | None => dget e k end.
Proof.
  induction d as [|[k' v] d IH]; simpl; [reflexivity|]. destruct (String.eqb k' k); [reflexivity|exact IH].
Qed.

Lemma merge_disjoint {explicit user : dict kwval} :
  (forall k, In k (dkeys explicit) -> ~ In k (dkeys user)) -> merge_kwargs explicit user = Ok (explicit ++ user).
Proof.
  intros H. unfold merge_kwargs. destruct (existsb _ (dkeys user)) eqn:E; [|reflexivity].
  apply existsb_exists in E as (k & Hk & E). apply existsb_exists in E as (k' & Hk' & E).
  apply String.eqb_eq in E. subst k'. destruct (H k Hk' Hk).
Qed.

Lemma merge_clash {explicit user : dict kwval} k :
  In k (dkeys explicit) -> In k (dkeys user) -> merge_kwargs explicit user = Err TypeError.
Proof.
  intros H H'. unfold merge_kwargs. replace (existsb _ (dkeys user)) with true; [reflexivity|].
  symmetry. apply existsb_exists. exists k. split; [exact H'|]. apply existsb_exists. exists k.
  split; [exact H|apply String.eqb_refl].
Qed.

(** ** Constant images *)
Definition const_img (s : list nat) (c : R) : arr R := tabulate s (fun _ => c).

Lemma filter_const ws m cval s c rad idx :
  convex snd ws -> near rad ws -> m <> Constant -> inb s idx = true ->
  getd (filter_nd ws m cval (const_img s c)) idx = c.
Proof.
  intros Hc Hn Hm Hi. destruct (axes_seq (length s)) as [Hnd Hlt].
  destruct (filter_kernel ws m s rad Hc Hn _ Hnd Hlt idx Hi) as (K & [HK0 HK1] & Kin & K1 & _ & K3).
  unfold filter_nd. change (shp (const_img s c)) with s. rewrite K3 by reflexivity.
  rewrite (Sum_ext _ (fun k => c * fst k)%R).
  - rewrite Sum_scale. unfold convex in *. rewrite HK1. ring.
  - intros [w p] Hk. cbn [fst snd]. destruct p as [i|]; [|exfalso; exact (K1 Hm _ Hk)].
    cbn [val]. unfold const_img. rewrite getd_tab by exact (Kin _ _ Hk). ring.
Qed.

Lemma amul_const s a b : amul (const_img s a) (const_img s b) = const_img s (a * b).
Proof.
  unfold amul, const_img, tabulate. cbn [shp]. f_equal. apply map_ext_in. intros idx Hi.
  apply in_indices in Hi. fold (tabulate s (fun _ : list nat => a)). fold (tabulate s (fun _ : list nat => b)).
  rewrite !getd_tab by exact Hi. reflexivity.
Qed.

Lemma ssim_const big s a b kw e :
  structural_similarity big (const_img s a) (const_img s b) kw = Ok e ->
  (forall w, dget kw "win_size" = Some (KInt w) -> (0 < w)%Z) ->
  dget kw "mode" = None ->
  exists P, ssim_setup s kw = Ok P /\
    e = Fin (zpow (nan1 big (2 * a * b + p_c1 P) (a * a + b * b + p_c1 P)) (p_al P))%R.
Proof.
  intros H Hw Hmode.
  destruct (ssim_values _ _ _ _ _ H Hw) as (P & l & HP & -> & Hl & Hx).
  change (shp (const_img s a)) with s in *.
  exists P. split; [exact HP|].
  destruct (setup_ok _ _ _ HP) as (rad & win & Hcv & Hnear & _ & _ & _ & _ & _ & _ & _ & _ & Hm0 & _).
  specialize (Hm0 Hmode). apply mean_all; [exact Hl|]. intros x Hin.
  destruct (Hx x Hin) as (idx & Hi & -> & _). unfold ssim_map.
  change (shp (const_img s a)) with s. rewrite getd_tab by exact Hi. rewrite !amul_const.
  rewrite !(filter_const _ _ _ s _ rad) by assumption.
  unfold ssim_pixel. cbv zeta.
  replace (p_cov P * (a * a - a * a))%R with 0%R by ring.
  replace (p_cov P * (b * b - b * b))%R with 0%R by ring.
  replace (p_cov P * (a * b - a * b))%R with 0%R by ring.
  unfold osqrt. destruct (Rlt_dec 0 0); [lra|]. rewrite sqrt_0.
  replace (0 + p_c2 P / 2)%R with (0 * 0 + p_c2 P / 2)%R by ring. rewrite nan1_same.
  replace (2 * 0 * 0 + p_c2 P)%R with (0 + 0 + p_c2 P)%R by ring. rewrite nan1_same.
  rewrite !zpow_1. ring.
Qed.

(** ** Colour images *)
Lemma fold_ext_add l x : fold_left ext_add (map Fin l) (Fin x) = Fin (x + rsum l)%R.
Proof.
  revert x; induction l as [|y l IH]; intros x; simpl; [f_equal; ring|].
  rewrite IH. f_equal. ring.
Qed.

Lemma mean_ext_fin l : l <> [] -> mean_ext (map Fin l) = Fin (rsum l / INR (length l))%R.
Proof.
  intros Hl. unfold mean_ext. destruct l as [|x l']; [congruence|].
  change (map Fin (x :: l')) with (Fin x :: map Fin l') at 1. cbv iota.
  rewrite fold_ext_add, map_length. cbn [ext_mul]. f_equal. unfold Rdiv. ring.
Qed.

Lemma broadcast_fin w l : length w = length l ->
  broadcast_mul w (map Fin l) = Ok (map Fin (map (fun p => fst p * snd p)%R (combine w l))).
Proof.
  intros E. unfold broadcast_mul. rewrite map_length, E, Nat.eqb_refl. f_equal.
  clear E. revert l; induction w as [|x w IH]; intros [|y l]; simpl; try reflexivity.
  rewrite IH. reflexivity.
Qed.
