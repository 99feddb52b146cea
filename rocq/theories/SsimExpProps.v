(** The exponents of SSIM: property C134. The notebooks say: "The final SSIM score is lower if one of these
    parameters is set to a higher value". *)
From Coq Require Import Reals Lra Psatz.
From Verif Require Import Base NdArray LoadModel LoadProofs NormModel NormProofs PairModel PairProofs RealSums
  MetricModel SsimModel SsimProofs SsimProps.
Local Open Scope R_scope.

(** ** Covariance of images that rise and fall together *)

Lemma covariance_pairs {A} (w x y : A -> R) l : Sum w l = 1 ->
  2 * (Sum (fun a => w a * (x a * y a)) l - Sum (fun a => w a * x a) l * Sum (fun a => w a * y a) l)
  = Sum (fun a => Sum (fun b => w a * w b * ((x a - x b) * (y a - y b))) l) l.
Proof.
  intros H1. set (X := Sum (fun a => w a * x a) l). set (Y := Sum (fun a => w a * y a) l).
  set (XY := Sum (fun a => w a * (x a * y a)) l).
  rewrite (Sum_ext (fun a => Sum (fun b => w a * w b * ((x a - x b) * (y a - y b))) l)
    (fun a => 1 * (w a * (x a * y a)) + (- Y) * (w a * x a) + (- X) * (w a * y a) + XY * w a)).
  - rewrite !Sum_plus, !Sum_scale. fold X Y XY. rewrite H1. ring.
  - intros a _.
    rewrite (Sum_ext _ (fun b => (w a * (x a * y a)) * w b + (- (w a * x a)) * (w b * y b)
                                 + (- (w a * y a)) * (w b * x b) + w a * (w b * (x b * y b)))) by (intros; ring).
    rewrite !Sum_plus, !Sum_scale. fold X Y XY. rewrite H1. ring.
Qed.

Lemma covariance_sign {A} (w x y : A -> R) l : convex w l ->
  (forall a b, In a l -> In b l -> 0 <= (x a - x b) * (y a - y b)) ->
  0 <= Sum (fun a => w a * (x a * y a)) l - Sum (fun a => w a * x a) l * Sum (fun a => w a * y a) l.
Proof.
  intros [H0 H1] H. pose proof (covariance_pairs w x y l H1) as E.
  assert (0 <= Sum (fun a => Sum (fun b => w a * w b * ((x a - x b) * (y a - y b))) l) l); [|lra].
  apply Sum_nonneg. intros a Ha. apply Sum_nonneg. intros b Hb.
  apply Rmult_le_pos; [apply Rmult_le_pos; apply H0; assumption|apply H; assumption].
Qed.

(** ** The three terms of a window *)

Lemma nan1_nonneg big num den : Rabs num <= den -> 0 <= num -> 0 <= nan1 big num den.
Proof.
  intros H Hn. unfold nan1. apply Rabs_le_inv in H. destruct (Req_EM_T den 0) as [->|Hd].
  - destruct (Rlt_dec 0 num); [lra|]. destruct (Rlt_dec num 0); lra.
  - apply Rmult_le_pos; [exact Hn|]. left. apply Rinv_0_lt_compat. lra.
Qed.

Lemma nan1_nonpos big num den : Rabs num <= den -> num <= 0 -> den <> 0 -> nan1 big num den <= 0.
Proof.
  intros H Hn Hd. unfold nan1. apply Rabs_le_inv in H. destruct (Req_EM_T den 0) as [E|_]; [contradiction|].
  assert (0 < / den) by (apply Rinv_0_lt_compat; lra). unfold Rdiv. nra.
Qed.

Definition image_nonneg (a : arr R) : Prop := forall i, inb (shp a) i = true -> 0 <= getd a i.
(** Wherever one image is brighter the other is not darker, and the opposite. *)
Definition together (r m : arr R) : Prop :=
  forall i j, inb (shp r) i = true -> inb (shp r) j = true -> 0 <= (getd r i - getd r j) * (getd m i - getd m j).
Definition opposed (r m : arr R) : Prop :=
  forall i j, inb (shp r) i = true -> inb (shp r) j = true -> (getd r i - getd r j) * (getd m i - getd m j) <= 0.

Definition term := (R * R * R)%type.
Definition product (al be ga : Z) (t : term) : R :=
  let '(l, c, s) := t in zpow l al * zpow c be * zpow s ga.
Definition term_ok (t : term) : Prop := let '(l, c, s) := t in Rabs l <= 1 /\ 0 <= c <= 1 /\ Rabs s <= 1.
Definition lum_of (t : term) : R := fst (fst t).
Definition stru_of (t : term) : R := snd t.

Section one_window.
Context {A : Type}.
Variables (w x y : A -> R) (l : list A).
Hypothesis Hc : convex w l.
Variables cov c1 c2 : R.
Hypothesis Hcov : 0 < cov.
Hypothesis Hc1 : 0 <= c1.
Hypothesis Hc2 : 0 <= c2.

Lemma one_window big : exists t, term_ok t /\
  (forall ws mo cv pad al be ga,
     ssim_pixel big (SsimParams ws mo cv pad cov c1 c2 al be ga) (Sum (fun a => w a * x a) l) (Sum (fun a => w a * y a) l)
       (Sum (fun a => w a * (x a * x a)) l) (Sum (fun a => w a * (y a * y a)) l) (Sum (fun a => w a * (x a * y a)) l)
     = product al be ga t) /\
  ((forall a, In a l -> 0 <= x a) -> (forall a, In a l -> 0 <= y a) -> 0 <= lum_of t) /\
  ((forall a b, In a l -> In b l -> 0 <= (x a - x b) * (y a - y b)) -> 0 <= stru_of t) /\
  (c2 = 0 -> (forall a b, In a l -> In b l -> (x a - x b) * (y a - y b) <= 0) -> stru_of t <= 0 \/ t = (lum_of t, snd (fst t), 1)).
Proof.
  pose proof (covariance_sign w x y l Hc) as CP.
  assert (CN : (forall a b, In a l -> In b l -> (x a - x b) * (y a - y b) <= 0) ->
     Sum (fun a => w a * (x a * y a)) l - Sum (fun a => w a * x a) l * Sum (fun a => w a * y a) l <= 0).
  { intros H. pose proof (covariance_sign w x (fun a => - y a) l Hc) as C.
    rewrite (Sum_ext (fun a => w a * (x a * - y a)) (fun a => (-1) * (w a * (x a * y a)))) in C by (intros; ring).
    rewrite (Sum_ext (fun a => w a * - y a) (fun a => (-1) * (w a * y a))) in C by (intros; ring).
    rewrite !Sum_scale in C. assert (K : forall a b, In a l -> In b l -> 0 <= (x a - x b) * (- y a - - y b)).
    { intros a b Ha Hb. specialize (H a b Ha Hb). lra. }
    specialize (C K). lra. }
  unfold ssim_pixel. cbn [p_cov p_c1 p_c2 p_al p_be p_ga]. cbv zeta. rewrite !variance in * by exact Hc.
  set (ux := Sum (fun a => w a * x a) l) in *. set (uy := Sum (fun a => w a * y a) l) in *.
  set (sxx := Sum (fun a => w a * (x a - ux) * (x a - ux)) l).
  set (syy := Sum (fun a => w a * (y a - uy) * (y a - uy)) l).
  set (sxy := Sum (fun a => w a * (x a - ux) * (y a - uy)) l) in *.
  assert (CS : sxy * sxy <= sxx * syy) by (apply cauchy_schwarz, (proj1 Hc)).
  assert (Hxx : 0 <= sxx) by (apply sq_sum_nonneg, (proj1 Hc)).
  assert (Hyy : 0 <= syy) by (apply sq_sum_nonneg, (proj1 Hc)).
  set (vx := cov * sxx). set (vy := cov * syy). set (vxy := cov * sxy).
  assert (Hvx : 0 <= vx) by (apply Rmult_le_pos; lra).
  assert (Hvy : 0 <= vy) by (apply Rmult_le_pos; lra).
  assert (CSv : vxy * vxy <= vx * vy).
  { unfold vxy, vx, vy. replace (cov * sxy * (cov * sxy)) with (cov * cov * (sxy * sxy)) by ring.
    replace (cov * sxx * (cov * syy)) with (cov * cov * (sxx * syy)) by ring.
    apply Rmult_le_compat_l; [nra|exact CS]. }
  unfold osqrt. destruct (Rlt_dec vx 0); [lra|]. destruct (Rlt_dec vy 0); [lra|].
  set (sx := sqrt vx). set (sy := sqrt vy).
  assert (Hsx : 0 <= sx) by apply sqrt_pos. assert (Hsy : 0 <= sy) by apply sqrt_pos.
  assert (Ex : sx * sx = vx) by (apply sqrt_sqrt; lra).
  assert (Ey : sy * sy = vy) by (apply sqrt_sqrt; lra).
  assert (Hss : 0 <= sx * sy) by (apply Rmult_le_pos; assumption).
  assert (Hcov2 : Rabs vxy <= sx * sy).
  { apply Rsqr_incr_0_var; [|exact Hss]. rewrite <- Rsqr_abs. unfold Rsqr.
    replace (sx * sy * (sx * sy)) with ((sx * sx) * (sy * sy)) by ring. rewrite Ex, Ey. exact CSv. }
  assert (B1 : Rabs (2 * ux * uy + c1) <= ux * ux + uy * uy + c1).
  { pose proof (Rle_0_sqr (ux + uy)); pose proof (Rle_0_sqr (ux - uy)); unfold Rsqr in *; apply Rabs_le; split; lra. }
  assert (B2 : Rabs (2 * sx * sy + c2) <= vx + vy + c2).
  { rewrite <- Ex, <- Ey. pose proof (Rle_0_sqr (sx - sy)). unfold Rsqr in *. apply Rabs_le; split; nra. }
  assert (B3 : Rabs (vxy + c2 / 2) <= sx * sy + c2 / 2).
  { apply Rabs_le_inv in Hcov2. apply Rabs_le; split; lra. }
  exists (nan1 big (2 * ux * uy + c1) (ux * ux + uy * uy + c1),
          nan1 big (2 * sx * sy + c2) (vx + vy + c2), nan1 big (vxy + c2 / 2) (sx * sy + c2 / 2)).
  split; [|split; [reflexivity|split; [|split]]].
  - split; [apply nan1_abs, B1|]. split; [|apply nan1_abs, B3]. split; [apply nan1_nonneg; [exact B2|lra]|].
    apply Rabs_le_inv, nan1_abs, B2.
  - intros X Y. cbn. apply nan1_nonneg; [exact B1|].
    assert (0 <= ux) by (apply Sum_nonneg; intros a Ha; apply Rmult_le_pos; [apply (proj1 Hc), Ha|apply X, Ha]).
    assert (0 <= uy) by (apply Sum_nonneg; intros a Ha; apply Rmult_le_pos; [apply (proj1 Hc), Ha|apply Y, Ha]). nra.
  - intros H. cbn. apply nan1_nonneg; [exact B3|]. specialize (CP H). assert (0 <= vxy) by (apply Rmult_le_pos; lra). lra.
  - intros H2 H. unfold stru_of, lum_of. cbn [fst snd]. specialize (CN H).
    destruct (Req_dec (sx * sy + c2 / 2) 0) as [E|E].
    + right. f_equal. unfold nan1. destruct (Req_EM_T (sx * sy + c2 / 2) 0); [|contradiction].
      apply Rabs_le_inv in B3. destruct (Rlt_dec 0 (vxy + c2 / 2)); [lra|]. destruct (Rlt_dec (vxy + c2 / 2) 0); lra.
    + left. apply nan1_nonpos; [exact B3| |exact E]. assert (vxy <= 0) by (unfold vxy; nra). lra.
Qed.
End one_window.

(** ** All windows *)

Definition border_modes : list string := ["reflect"; "grid-mirror"; "mirror"; "nearest"; "wrap"; "grid-wrap"]%string.

Lemma border_mode t : In t border_modes -> exists md, mode_of t = Some md /\ md <> Constant.
Proof. unfold border_modes. simpl. intuition subst; eexists; (split; [reflexivity|discriminate]). Qed.

Lemma map_products big (r m : arr R) (P : Z -> Z -> Z -> ssim_params) ws mo cv pad cov c1 c2 rad idx :
  (forall a b c, P a b c = SsimParams ws mo cv pad cov c1 c2 a b c) ->
  shp r = shp m -> convex snd ws -> near rad ws -> mo <> Constant -> 0 < cov -> 0 <= c1 -> 0 <= c2 ->
  inb (shp r) idx = true ->
  exists t, term_ok t /\ (forall al be ga, getd (ssim_map big (P al be ga) r m) idx = product al be ga t) /\
    (image_nonneg r -> image_nonneg m -> 0 <= lum_of t) /\ (together r m -> 0 <= stru_of t) /\
    (c2 = 0 -> opposed r m -> stru_of t <= 0 \/ t = (lum_of t, snd (fst t), 1)).
Proof.
  intros HP Es Hcv Hnear Hmo Hcov H1 H2 Hi.
  destruct (axes_seq (length (shp r))) as [Hnd Hlt].
  destruct (filter_kernel ws mo (shp r) rad Hcv Hnear _ Hnd Hlt idx Hi) as (K & HK & Kin & K1 & _ & K3).
  destruct (one_window (fun k => fst k) (fun k => val cv r (snd k)) (fun k => val cv m (snd k)) K HK cov c1 c2 Hcov H1 H2 big)
    as (t & Tok & Te & Tl & Ts & To).
  assert (Kval : forall (w : R * option (list nat)), In w K -> exists i, snd w = Some i /\ inb (shp r) i = true).
  { intros [w [i|]] Hk; [exists i; split; [reflexivity|exact (Kin _ _ Hk)]|]. destruct (K1 Hmo _ Hk). }
  exists t. split; [exact Tok|]. split; [|split; [|split]].
  - intros al be ga. rewrite <- (Te ws mo cv pad al be ga). unfold ssim_map. rewrite getd_tab by exact Hi. rewrite HP.
    cbn [p_ws p_mode p_cval]. assert (Hsh : forall a b : arr R, shp (amul a b) = shp a) by reflexivity.
    unfold filter_nd. rewrite !Hsh, <- Es. rewrite !K3 by (rewrite ?Hsh; congruence).
    assert (Hprod : forall a b : arr R, shp a = shp r ->
       Sum (fun k => fst k * val cv (amul a b) (snd k)) K = Sum (fun k => fst k * (val cv a (snd k) * val cv b (snd k))) K).
    { intros a b Ea. apply Sum_ext. intros k Hk. destruct (Kval k Hk) as (i & -> & Hii). cbn [val]. f_equal.
      apply getd_amul. rewrite Ea. exact Hii. }
    rewrite !Hprod by congruence. reflexivity.
  - intros Hr Hm. apply Tl; intros k Hk; destruct (Kval k Hk) as (i & -> & Hii); cbn [val]; [apply Hr|apply Hm]; congruence.
  - intros H. apply Ts. intros a b Ha Hb. destruct (Kval a Ha) as (i & -> & Hii). destruct (Kval b Hb) as (j & -> & Hjj).
    cbn [val]. apply H; assumption.
  - intros E H. apply To; [exact E|]. intros a b Ha Hb. destruct (Kval a Ha) as (i & -> & Hii). destruct (Kval b Hb) as (j & -> & Hjj).
    cbn [val]. apply H; assumption.
Qed.

(** Counted positions *)
Lemma positions (s : list nat) pad : exists l, (forall i, In i l -> inb s i = true) /\ forall (a : list nat -> R),
  exists c, slice (tabulate s a) (map (fun n => (pad, Z.of_nat n - pad)%Z) s) = Ok c /\ dat c = map a l.
Proof.
  set (rg := map (fun n => (pad, Z.of_nat n - pad)%Z) s). set (s' := slice_shape s rg).
  exists (map (slice_index s rg) (indices s')). split.
  { intros i Hi. apply in_map_iff in Hi as (j & <- & Hj). apply inb_slice, in_indices, Hj. }
  intros a.
  destruct (slice_ok (tabulate s a) rg) as (c & Hc & Hs & Hw & Hg); [apply wf_tabulate|unfold rg; rewrite map_length; cbn; lia|].
  exists c. split; [exact Hc|]. cbn [tabulate shp] in Hs, Hg. fold s' in Hs.
  rewrite map_map. transitivity (dat (tabulate s' (fun i => a (slice_index s rg i)))); [|reflexivity].
  f_equal. apply arr_ext; [exact Hw|apply wf_tabulate|exact Hs|]. intros idx Hidx.
  rewrite (Hg idx Hidx). rewrite Hs in Hidx. rewrite (get_tabulate s') by exact Hidx. rewrite get_tabulate; [reflexivity|].
  apply inb_slice, Hidx.
Qed.

(** Accepted settings (C28) with a border mode that only reads pixels of the image *)
Definition accepted (s : list nat) (k1 k2 sigma : R) (win : option Z) (g : bool) (mode : string) : Prop :=
  0 <= k1 /\ 0 <= k2 /\ 0 <= sigma /\ Z.Odd (window sigma win g) /\
  (forall n, In n s -> (window sigma win g <= Z.of_nat n)%Z) /\ In mode border_modes /\ s <> [] /\
  ((1 < window sigma win g)%Z \/ (win = None /\ g = true)).

Lemma all_terms big r m k1 k2 sigma win g mode cval dr :
  accepted (shp r) k1 k2 sigma win g mode -> shp r = shp m ->
  exists ts, ts <> [] /\ (forall t, In t ts -> term_ok t) /\
    (image_nonneg r -> image_nonneg m -> forall t, In t ts -> 0 <= lum_of t) /\
    (together r m -> forall t, In t ts -> 0 <= stru_of t) /\
    (k2 = 0 -> opposed r m -> forall t, In t ts -> stru_of t <= 0 \/ stru_of t = 1) /\
    forall al be ga, structural_similarity big r m (opts k1 k2 sigma win g mode cval al be ga dr)
      = Ok (Fin (Sum (product (Rtrunc al) (Rtrunc be) (Rtrunc ga)) ts / INR (length ts))).
Proof.
  intros (H1 & H2 & H3 & Hodd & Hext & Hm & Hs & Hw) Es. destruct (border_mode mode Hm) as (md & Hmd & Hnc).
  set (W := window sigma win g) in *.
  assert (Hpos : (0 < W)%Z).
  { destruct Hw as [Hw|[-> ->]]; [lia|]. unfold W, window. rewrite <- radius_spec by exact H3. lia. }
  assert (HP : exists ws mo cov, convex snd ws /\ (exists rad, near rad ws) /\ mo <> Constant /\ 0 < cov /\
    forall al be ga, ssim_setup (shp r) (opts k1 k2 sigma win g mode cval al be ga dr)
      = Ok (SsimParams ws mo cval ((W - 1) / 2)%Z cov ((k1 * dr) * (k1 * dr)) ((k2 * dr) * (k2 * dr)) (Rtrunc al) (Rtrunc be) (Rtrunc ga))).
  { assert (Hc : exists cov, 0 < cov /\ (if g && match win with None => true | Some _ => false end then Ok 1
       else if (W ^ Z.of_nat (length (shp r)) =? 1)%Z then Err ZeroDivisionError
            else Ok (IZR (W ^ Z.of_nat (length (shp r))) / IZR (W ^ Z.of_nat (length (shp r)) - 1))) = Ok cov).
    { destruct Hw as [Hw|[-> ->]]; [|exists 1; split; [lra|reflexivity]]. destruct (g && _); [exists 1; split; [lra|reflexivity]|].
      assert (1 < W ^ Z.of_nat (length (shp r)))%Z.
      { apply Z.pow_gt_1; [exact Hw|]. destruct (shp r); [congruence|simpl; lia]. }
      destruct (Z.eqb_spec (W ^ Z.of_nat (length (shp r))) 1) as [E1|E1]; [lia|]. eexists. split; [|reflexivity].
      apply Rdiv_lt_0_compat; apply IZR_lt; lia. }
    destruct Hc as (cov & Hcov & Ec).
    exists (if g then gaussian_weights sigma (gauss_radius sigma) else uniform_weights W),
      (if (if g then (if Rlt_dec (1 / 10 ^ 15) sigma then true else false) else (1 <? W)%Z) then md else Reflect), cov.
    assert (Hws : convex snd (if g then gaussian_weights sigma (gauss_radius sigma) else uniform_weights W) /\
                  exists rad, near rad (if g then gaussian_weights sigma (gauss_radius sigma) else uniform_weights W)).
    { destruct g; [pose proof (gaussian_convex sigma (gauss_radius sigma)) as [? ?]; eauto|].
      destruct (uniform_convex W) as [? ?]; [|eauto]. rewrite Zmod_odd. apply Z.odd_spec in Hodd. rewrite Hodd. reflexivity. }
    split; [apply Hws|]. split; [apply Hws|]. split; [match goal with |- (if ?b then _ else _) <> _ => destruct b end; [exact Hnc|discriminate]|]. split; [exact Hcov|].
    intros al be ga. rewrite setup_opts by assumption. cbv zeta. fold W.
    destruct (existsb _ (shp r)) eqn:E.
    { apply existsb_exists in E as (n & Hn & E). apply Z.ltb_lt in E. specialize (Hext n Hn). lia. }
    pose proof (proj2 (Z.odd_spec W) Hodd) as Ho. rewrite <- Z.negb_odd, Ho. cbn [negb]. rewrite Ec. cbn [bind]. rewrite Hmd. cbn [from_opt].
    match goal with |- context [if ?b then md else Reflect] => destruct b end; reflexivity. }
  destruct HP as (ws & mo & cov & Hcv & (rad & Hnear) & Hmo & Hcov & HP).
  set (c1 := (k1 * dr) * (k1 * dr)) in *. set (c2 := (k2 * dr) * (k2 * dr)) in *. set (pad := ((W - 1) / 2)%Z) in *.
  destruct (positions (shp r) pad) as (pos & Hin & Hsl).
  destruct (choice_list (fun idx t => term_ok t /\
      (forall al be ga, getd (ssim_map big (SsimParams ws mo cval pad cov c1 c2 al be ga) r m) idx = product al be ga t) /\
      (image_nonneg r -> image_nonneg m -> 0 <= lum_of t) /\ (together r m -> 0 <= stru_of t) /\
      (c2 = 0 -> opposed r m -> stru_of t <= 0 \/ t = (lum_of t, snd (fst t), 1))) pos (0, 0, 0) (list_eq_dec Nat.eq_dec)) as (f & Hf).
  { intros idx Hi. apply (map_products big r m (SsimParams ws mo cval pad cov c1 c2) ws mo cval pad cov c1 c2 rad); auto.
    - apply Rle_0_sqr.
    - apply Rle_0_sqr. }
  exists (map f pos).
  assert (Heq : forall al be ga, structural_similarity big r m (opts k1 k2 sigma win g mode cval al be ga dr)
      = Ok (mean_of (map (product (Rtrunc al) (Rtrunc be) (Rtrunc ga)) (map f pos)))).
  { intros al be ga. unfold structural_similarity. rewrite HP. cbn [bind p_pad].
    set (P := SsimParams ws mo cval pad cov c1 c2 (Rtrunc al) (Rtrunc be) (Rtrunc ga)).
    destruct (Hsl (fun idx => getd (ssim_map big P r m) idx)) as (c & Hc & Ed).
    assert (Et : tabulate (shp r) (fun idx => getd (ssim_map big P r m) idx) = ssim_map big P r m).
    { unfold ssim_map at 2, tabulate. f_equal. apply map_ext_in. intros idx Hi. apply in_indices in Hi.
      unfold ssim_map. rewrite getd_tab by exact Hi. reflexivity. }
    rewrite Et in Hc. rewrite Hc. cbn [bind]. do 2 f_equal. rewrite Ed, map_map. apply map_ext_in. intros idx Hi.
    apply Hf, Hi. }
  assert (Hne : map f pos <> []).
  { intros E. specialize (Heq 1 1 1). rewrite E in Heq. cbn in Heq.
    destruct (C28_accepted big r m k1 k2 sigma win g mode cval 1 1 1 dr H1 H2 H3 Hodd Hext) as [v Hv]; [|exact Hs|exact Hw|congruence].
    apply mode_known. eauto. }
  split; [exact Hne|].
  assert (G : forall t, In t (map f pos) -> exists idx, In idx pos /\ t = f idx).
  { intros t Ht. apply in_map_iff in Ht as (idx & <- & Hi). eauto. }
  split; [intros t Ht; destruct (G t Ht) as (idx & Hi & ->); apply Hf, Hi|].
  split; [intros A B t Ht; destruct (G t Ht) as (idx & Hi & ->); apply Hf; assumption|].
  split; [intros A t Ht; destruct (G t Ht) as (idx & Hi & ->); apply Hf; assumption|].
  split.
  { intros A B t Ht; destruct (G t Ht) as (idx & Hi & ->). destruct (proj2 (proj2 (proj2 (proj2 (Hf idx Hi))))) as [S|S]; auto.
    - unfold c2. rewrite A. ring.
    - right. rewrite S. reflexivity. }
  intros al be ga. rewrite Heq. f_equal. unfold mean_of, Sum. destruct (map f pos) as [|t ts]; [congruence|].
  cbn [map]. rewrite <- map_cons, map_length. reflexivity.
Qed.

(** ** Powers *)

Lemma Rtrunc_part x : 0 <= x -> Rtrunc x = Int_part x.
Proof. intros H. unfold Rtrunc. destruct (Rle_dec 0 x); [reflexivity|contradiction]. Qed.

Lemma pow_drop x n k : 0 <= x <= 1 -> (n <= k)%nat -> x ^ k <= x ^ n.
Proof.
  intros Hx H. replace k with (n + (k - n))%nat by lia. rewrite pow_add.
  assert (0 <= x ^ n) by (apply pow_le; lra).
  assert (0 <= x ^ (k - n) <= 1); [|nra]. split; [apply pow_le; lra|]. rewrite <- (pow1 (k - n)). apply pow_incr. exact Hx.
Qed.

Lemma zpow_nat x e : (0 <= e)%Z -> zpow x e = x ^ Z.to_nat e.
Proof. intros H. unfold zpow. destruct (Z.leb_spec 0 e); [reflexivity|lia]. Qed.

Lemma zpow_drop x a b : 0 <= x <= 1 -> (0 <= a <= b)%Z -> 0 <= zpow x b <= zpow x a.
Proof.
  intros Hx H. rewrite !zpow_nat by lia. split; [apply pow_le; lra|]. apply pow_drop; [exact Hx|lia].
Qed.

Lemma zpow_below x e : (0 <= e)%Z -> zpow x e <= zpow (Rabs x) e.
Proof. intros H. rewrite !zpow_nat by exact H. rewrite RPow_abs. apply Rle_abs. Qed.

Lemma zpow_even x e : (0 <= e)%Z -> Z.Even e -> zpow x e = zpow (Rabs x) e.
Proof.
  intros H [k ->]. rewrite !zpow_nat by exact H. replace (Z.to_nat (2 * k)) with (2 * Z.to_nat k)%nat by lia.
  rewrite !pow_mult. f_equal. rewrite pow2_abs. reflexivity.
Qed.

Lemma zpow_odd x e : (0 <= e)%Z -> Z.Odd e -> zpow (- x) e = - zpow x e.
Proof.
  intros H [k ->]. rewrite !zpow_nat by exact H. replace (Z.to_nat (2 * k + 1)) with (S (2 * Z.to_nat k)) by lia.
  rewrite <- !tech_pow_Rmult, !pow_mult. replace ((- x) ^ 2) with (x ^ 2) by ring. ring.
Qed.

Lemma product_lower al be ga al' be' ga' t : term_ok t -> 0 <= lum_of t ->
  0 <= stru_of t \/ Z.Even ga -> (0 <= al <= al')%Z -> (0 <= be <= be')%Z -> (0 <= ga <= ga')%Z ->
  product al' be' ga' t <= product al be ga t.
Proof.
  destruct t as [[l c] s]. unfold lum_of, stru_of. cbn [fst snd product]. intros (Hl & Hc & Hs) L S Ha Hb Hg.
  assert (Hl' : 0 <= l <= 1) by (apply Rabs_le_inv in Hl; lra).
  pose proof (zpow_drop l al al' Hl' Ha) as A. pose proof (zpow_drop c be be' Hc Hb) as B.
  assert (Hs' : 0 <= Rabs s <= 1) by (pose proof (Rabs_pos s); lra).
  pose proof (zpow_drop (Rabs s) ga ga' Hs' Hg) as C.
  assert (E : zpow s ga = zpow (Rabs s) ga).
  { destruct S as [S|S]; [rewrite Rabs_pos_eq by exact S; reflexivity|apply zpow_even; [lia|exact S]]. }
  rewrite E. pose proof (zpow_below s ga' ltac:(lia)) as D.
  assert (0 <= zpow l al' * zpow c be') by (apply Rmult_le_pos; lra).
  apply Rle_trans with (zpow l al' * zpow c be' * zpow (Rabs s) ga'); [apply Rmult_le_compat_l; assumption|].
  apply Rmult_le_compat; try lra. apply Rmult_le_compat; lra.
Qed.

Lemma product_raise al be ga ga' t : term_ok t -> 0 <= lum_of t -> stru_of t <= 0 \/ stru_of t = 1 ->
  (0 <= al)%Z -> (0 <= be)%Z -> (0 <= ga <= ga')%Z -> Z.Odd ga ->
  product al be ga t <= product al be ga' t.
Proof.
  destruct t as [[l c] s]. unfold lum_of, stru_of. cbn [fst snd product]. intros (Hl & Hc & Hs) L S Ha Hb Hg Ho.
  assert (0 <= zpow l al * zpow c be).
  { apply Rmult_le_pos; rewrite zpow_nat by assumption; apply pow_le; lra. }
  apply Rmult_le_compat_l; [assumption|]. destruct S as [S| ->]; [|rewrite !zpow_1; lra].
  assert (Hs' : 0 <= - s <= 1) by (apply Rabs_le_inv in Hs; lra).
  pose proof (zpow_drop (- s) ga ga' Hs' Hg) as [C0 C].
  rewrite (zpow_odd s ga) in C by (lia || exact Ho).
  assert (D : - zpow (- s) ga' <= zpow s ga').
  { destruct (Z.Even_or_Odd ga') as [E|E].
    - rewrite (zpow_even s ga' ltac:(lia) E). pose proof (zpow_even (- s) ga' ltac:(lia) E) as K. rewrite Rabs_Ropp in K.
      rewrite <- K. lra.
    - rewrite zpow_odd by (lia || exact E). lra. }
  lra.
Qed.

Lemma mean_le (f g : term -> R) ts : ts <> [] -> (forall t, In t ts -> f t <= g t) ->
  Sum f ts / INR (length ts) <= Sum g ts / INR (length ts).
Proof.
  intros Hne H. apply Rmult_le_compat_r; [|apply Sum_le, H].
  left. apply Rinv_0_lt_compat, lt_0_INR. destruct ts; [congruence|simpl; lia].
Qed.

Lemma part_le x y : 0 <= x -> x <= y -> (0 <= Rtrunc x <= Rtrunc y)%Z.
Proof.
  intros H0 H. split; [|apply Rtrunc_le; assumption].
  rewrite <- (Rtrunc_IZR 0) by lia. apply Rtrunc_le; [simpl; lra|exact H0].
Qed.

(** ** C134 *)

(** The formula of the notebooks: the terms of the windows do not depend on the exponents. *)
Theorem C134_formula big r m k1 k2 sigma win g mode cval dr :
  accepted (shp r) k1 k2 sigma win g mode -> shp r = shp m ->
  exists ts : list (R * R * R), ts <> [] /\
    (forall l c s, In (l, c, s) ts -> -1 <= l <= 1 /\ 0 <= c <= 1 /\ -1 <= s <= 1) /\
    forall a b c : nat, structural_similarity big r m (opts k1 k2 sigma win g mode cval (INR a) (INR b) (INR c) dr)
      = Ok (Fin (Sum (fun t => fst (fst t) ^ a * snd (fst t) ^ b * snd t ^ c) ts / INR (length ts))).
Proof.
  intros H Es. destruct (all_terms big r m k1 k2 sigma win g mode cval dr H Es) as (ts & Hne & Hok & _ & _ & _ & E).
  exists ts. split; [exact Hne|]. split.
  - intros l c s Ht. specialize (Hok _ Ht). cbn in Hok. destruct Hok as (A & B & C). apply Rabs_le_inv in A, C. auto.
  - intros a b c. rewrite E. do 3 f_equal. apply Sum_ext. intros [[x y] z] _. cbn [product fst snd].
    rewrite !INR_IZR_INZ, !Rtrunc_IZR by lia. rewrite !zpow_nat by lia. rewrite !Nat2Z.id. reflexivity.
Qed.

(** Where the sentence is right: structure non-negative everywhere, or its exponent even *)
Theorem C134_lower big r m k1 k2 sigma win g mode cval dr al be ga al' be' ga' :
  accepted (shp r) k1 k2 sigma win g mode -> shp r = shp m -> image_nonneg r -> image_nonneg m ->
  together r m \/ Z.Even (Int_part ga) ->
  0 <= al <= al' -> 0 <= be <= be' -> 0 <= ga <= ga' ->
  exists v v', structural_similarity big r m (opts k1 k2 sigma win g mode cval al be ga dr) = Ok (Fin v) /\
    structural_similarity big r m (opts k1 k2 sigma win g mode cval al' be' ga' dr) = Ok (Fin v') /\ v' <= v.
Proof.
  intros H Es Nr Nm S Ha Hb Hg.
  destruct (all_terms big r m k1 k2 sigma win g mode cval dr H Es) as (ts & Hne & Hok & Hl & Ht & _ & E).
  do 2 eexists. split; [apply E|]. split; [apply E|]. apply mean_le; [exact Hne|]. intros t Hin.
  apply product_lower; [apply Hok, Hin|apply Hl; assumption| |apply part_le; lra|apply part_le; lra|apply part_le; lra].
  destruct S as [S|S]; [left; apply Ht; assumption|right]. rewrite Rtrunc_part by lra. exact S.
Qed.

(** Exponents below 1 count as 0: any two images score 1. *)
Theorem C134_off big r m k1 k2 sigma win g mode cval dr al be ga :
  accepted (shp r) k1 k2 sigma win g mode -> shp r = shp m -> 0 <= al < 1 -> 0 <= be < 1 -> 0 <= ga < 1 ->
  structural_similarity big r m (opts k1 k2 sigma win g mode cval al be ga dr) = Ok (Fin 1).
Proof.
  intros H Es Ha Hb Hg.
  destruct (all_terms big r m k1 k2 sigma win g mode cval dr H Es) as (ts & Hne & _ & _ & _ & _ & E).
  assert (Z0 : forall x, 0 <= x < 1 -> Rtrunc x = 0%Z).
  { intros x Hx. rewrite Rtrunc_part by lra. destruct (base_Int_part x) as [B1 B2].
    assert (Int_part x < 1)%Z by (apply lt_IZR; lra). assert (-1 < Int_part x)%Z by (apply lt_IZR; lra). lia. }
  rewrite E, !Z0 by assumption. do 2 f_equal. rewrite (Sum_ext _ (fun _ => 1)).
  - rewrite Sum_const. field. apply not_0_INR. destruct ts; [congruence|discriminate].
  - intros [[x y] z] _. cbn. unfold zpow. cbn. ring.
Qed.

(** Where it is wrong: for images that are bright where the other one is dark a higher gamma never gives a lower score. *)
Theorem C134_raises big r m k1 sigma win g mode cval dr al be ga ga' :
  accepted (shp r) k1 0 sigma win g mode -> shp r = shp m -> image_nonneg r -> image_nonneg m -> opposed r m ->
  0 <= al -> 0 <= be -> 0 <= ga <= ga' -> Z.Odd (Int_part ga) ->
  exists v v', structural_similarity big r m (opts k1 0 sigma win g mode cval al be ga dr) = Ok (Fin v) /\
    structural_similarity big r m (opts k1 0 sigma win g mode cval al be ga' dr) = Ok (Fin v') /\ v <= v'.
Proof.
  intros H Es Nr Nm Ho Ha Hb Hg Hodd.
  destruct (all_terms big r m k1 0 sigma win g mode cval dr H Es) as (ts & Hne & Hok & Hl & _ & Hs & E).
  do 2 eexists. split; [apply E|]. split; [apply E|]. apply mean_le; [exact Hne|]. intros t Hin.
  assert (P : forall x, 0 <= x -> (0 <= Rtrunc x)%Z) by (intros x Hx; apply (part_le x x); lra).
  apply product_raise; [apply Hok, Hin|apply Hl; assumption|apply Hs; auto|auto|auto|apply part_le; lra|].
  rewrite Rtrunc_part by lra. exact Hodd.
Qed.

(** ** SSIM.score with the three keywords *)

Theorem C134_score big d r m al be ga al' be' ga' :
  (forall n, In n (shp r) -> (11 <= n)%nat) -> shp r <> [] -> shp r = shp m -> image_nonneg r -> image_nonneg m ->
  together r m \/ Z.Even (Int_part ga) -> 0 <= al <= al' -> 0 <= be <= be' -> 0 <= ga <= ga' ->
  let score a b c := ssim_score big (KInt d) false r m None
    [("alpha", KReal a); ("beta", KReal b); ("gamma", KReal c)]%string in
  exists v v', score al be ga = Ok (Fin v) /\ score al' be' ga' = Ok (Fin v') /\ v' <= v.
Proof.
  intros H11 Hs Es Nr Nm S Ha Hb Hg score.
  assert (E : forall a b c, score a b c
    = structural_similarity big r m (opts (1 / 100) (3 / 100) (15 / 10) None true "reflect" 0 a b c (IZR d))) by reflexivity.
  rewrite !E. apply C134_lower; try assumption.
  assert (Ew : window (15 / 10) None true = 11%Z).
  { unfold window. replace (7 / 2 * (15 / 10) + 1 / 2) with (23 / 4) by lra. destruct (base_Int_part (23 / 4)) as [B1 B2].
    assert (4 < Int_part (23 / 4) < 6)%Z by (split; apply lt_IZR; lra). lia. }
  repeat split; try lra; rewrite ?Ew.
  - exists 5%Z. reflexivity.
  - intros n Hn. specialize (H11 n Hn). lia.
  - left. reflexivity.
  - exact Hs.
  - left. lia.
Qed.

(** ** A witness: a bright pixel and its negative *)

Lemma mean_filtered f :
  getd (filter_nd (uniform_weights 3) Reflect 0 (tabulate [3; 3]%nat f)) [1; 1]%nat
  = (f [0; 0]%nat + f [0; 1]%nat + f [0; 2]%nat + f [1; 0]%nat + f [1; 1]%nat + f [1; 2]%nat
     + f [2; 0]%nat + f [2; 1]%nat + f [2; 2]%nat) / 9.
Proof.
  change (uniform_weights 3) with [((-1)%Z, / 3); (0%Z, / 3); (1%Z, / 3)]. unfold filter_nd. cbn [tabulate shp length seq fold_left].
  fold (tabulate [3; 3]%nat f).
  assert (B : forall j, (j < 3)%nat ->
    getd (filter_axis [((-1)%Z, / 3); (0%Z, / 3); (1%Z, / 3)] Reflect 0 (tabulate [3; 3]%nat f) 0) [1; j]%nat
    = (f [0; j]%nat + f [1; j]%nat + f [2; j]%nat) / 3).
  { intros j Hj. unfold filter_axis. change (shp (tabulate [3; 3]%nat f)) with [3; 3]%nat.
    rewrite getd_tab by (destruct j as [|[|[|]]]; try reflexivity; lia).
    unfold Sum, rsum, sample. change (shp (tabulate [3; 3]%nat f)) with [3; 3]%nat.
    change (pad_pos Reflect (nth 0 [3; 3]%nat 0%nat) (Z.of_nat (nth 0 [1; j]%nat 0%nat) + fst ((-1)%Z, / 3))) with (Some 0%nat).
    cbn [map fold_right fst snd nth].
    change (pad_pos Reflect 3 (Z.of_nat 1 + -1)) with (Some 0%nat). change (pad_pos Reflect 3 (Z.of_nat 1 + 0)) with (Some 1%nat).
    change (pad_pos Reflect 3 (Z.of_nat 1 + 1)) with (Some 2%nat). cbv iota beta. cbn [upd].
    rewrite !getd_tab by (destruct j as [|[|[|]]]; try reflexivity; lia). field. }
  unfold filter_axis at 1. change (shp (filter_axis _ _ _ _ _)) with [3; 3]%nat. rewrite getd_tab by reflexivity.
  unfold Sum, rsum, sample. change (shp (filter_axis _ _ _ _ _)) with [3; 3]%nat.
  cbn [map fold_right fst snd nth].
  change (pad_pos Reflect 3 (Z.of_nat 1 + -1)) with (Some 0%nat). change (pad_pos Reflect 3 (Z.of_nat 1 + 0)) with (Some 1%nat).
  change (pad_pos Reflect 3 (Z.of_nat 1 + 1)) with (Some 2%nat). cbv iota beta. cbn [upd].
  rewrite !B by lia. field.
Qed.

Definition spot : arr R := tabulate [3; 3]%nat (fun i => match i with [1; 1]%nat => 255 | _ => 0 end).
Definition spot_negative : arr R := tabulate [3; 3]%nat (fun i => match i with [1; 1]%nat => 0 | _ => 255 end).

Lemma spot_score big (a b c : nat) :
  structural_similarity big spot spot_negative (opts (1 / 100) (3 / 100) (15 / 10) (Some 3%Z) false "reflect" 0 (INR a) (INR b) (INR c) 255)
  = Ok (Fin (((2 * (85 / 3) * (680 / 3) + (1 / 100 * 255) * (1 / 100 * 255))
             / ((85 / 3) * (85 / 3) + (680 / 3) * (680 / 3) + (1 / 100 * 255) * (1 / 100 * 255))) ^ a
             * ((- 7225 + (3 / 100 * 255) * (3 / 100 * 255) / 2) / (7225 + (3 / 100 * 255) * (3 / 100 * 255) / 2)) ^ c)).
Proof.
  unfold structural_similarity. rewrite setup_opts by lra. cbv zeta. cbn [window]. change (shp spot) with [3; 3]%nat.
  change (existsb (fun n => (Z.of_nat n <? 3)%Z) [3; 3]%nat) with false. change (Z.even 3) with false.
  cbv iota. cbn [andb length]. change (3 ^ Z.of_nat 2)%Z with 9%Z. change (9 =? 1)%Z with false. cbv iota. cbn [bind].
  change (1 <? 3)%Z with true. cbv iota. change (mode_of "reflect") with (Some Reflect). cbn [from_opt bind].
  change ((3 - 1) / 2)%Z with 1%Z. change (9 - 1)%Z with 8%Z.
  set (P := SsimParams _ _ _ _ _ _ _ _ _ _). change (p_pad P) with 1%Z.
  assert (Hc : slice (ssim_map big P spot spot_negative) (map (fun n => (1, Z.of_nat n - 1)%Z) [3; 3]%nat)
            = Ok (Arr [1; 1]%nat [getd (ssim_map big P spot spot_negative) [1; 1]%nat])) by reflexivity.
  rewrite Hc. cbn [bind dat mean_of rsum fold_right length INR]. do 2 f_equal.
  rewrite Rplus_0_r. unfold Rdiv at 1. rewrite Rinv_1, Rmult_1_r.
  unfold ssim_map. change (shp spot) with [3; 3]%nat. rewrite getd_tab by reflexivity.
  change (p_ws P) with (uniform_weights 3). change (p_mode P) with Reflect. change (p_cval P) with 0.
  unfold amul. change (shp spot) with [3; 3]%nat. change (shp spot_negative) with [3; 3]%nat.
  unfold spot at 1, spot_negative at 1. rewrite !mean_filtered.
  assert (V : getd spot [0; 0]%nat = 0 /\ getd spot [0; 1]%nat = 0 /\ getd spot [0; 2]%nat = 0 /\ getd spot [1; 0]%nat = 0 /\
              getd spot [1; 1]%nat = 255 /\ getd spot [1; 2]%nat = 0 /\ getd spot [2; 0]%nat = 0 /\ getd spot [2; 1]%nat = 0 /\
              getd spot [2; 2]%nat = 0) by (repeat split; reflexivity).
  assert (N : getd spot_negative [0; 0]%nat = 255 /\ getd spot_negative [0; 1]%nat = 255 /\ getd spot_negative [0; 2]%nat = 255 /\
              getd spot_negative [1; 0]%nat = 255 /\ getd spot_negative [1; 1]%nat = 0 /\ getd spot_negative [1; 2]%nat = 255 /\
              getd spot_negative [2; 0]%nat = 255 /\ getd spot_negative [2; 1]%nat = 255 /\ getd spot_negative [2; 2]%nat = 255)
    by (repeat split; reflexivity).
  destruct V as (-> & -> & -> & -> & -> & -> & -> & -> & ->). destruct N as (-> & -> & -> & -> & -> & -> & -> & -> & ->).
  unfold ssim_pixel. cbv zeta. change (p_cov P) with (9 / 8).
  change (p_c1 P) with (1 / 100 * 255 * (1 / 100 * 255)). change (p_c2 P) with (3 / 100 * 255 * (3 / 100 * 255)).
  change (p_al P) with (Rtrunc (INR a)). change (p_be P) with (Rtrunc (INR b)). change (p_ga P) with (Rtrunc (INR c)).
  rewrite !INR_IZR_INZ, !Rtrunc_IZR, !zpow_nat, !Nat2Z.id by lia.
  match goal with |- context [osqrt ?x] => match x with context [0 * 0] => idtac end; replace x with (85 * 85) by field end.
  match goal with |- context [osqrt ?x] => match x with context [255 * 255] => idtac end; replace x with (85 * 85) by field end.
  assert (O : osqrt (85 * 85) = Some 85).
  { unfold osqrt. destruct (Rlt_dec (85 * 85) 0); [lra|]. rewrite sqrt_square by lra. reflexivity. }
  rewrite O.
  match goal with |- context [nan1 big (2 * 85 * 85 + ?c) ?d] =>
    replace d with (2 * 85 * 85 + c) by field; rewrite (nan1_same big (2 * 85 * 85 + c)) end.
  rewrite pow1, Rmult_1_r. f_equal.
  - f_equal. unfold nan1. match goal with |- context [Req_EM_T ?d 0] => destruct (Req_EM_T d 0) as [E|E]; [exfalso; lra|] end.
    f_equal; field.
  - f_equal. unfold nan1. match goal with |- context [Req_EM_T ?d 0] => destruct (Req_EM_T d 0) as [E|E]; [exfalso; lra|] end.
    f_equal; field.
Qed.

(** A higher alpha and a higher gamma give a higher score. *)
Theorem C134_lower_refuted : exists r m kw, image_nonneg r /\ image_nonneg m /\ shp r = shp m /\
  accepted (shp r) (1 / 100) (3 / 100) (15 / 10) (Some 3%Z) false "reflect" /\
  (forall al be ga, kw al be ga = opts (1 / 100) (3 / 100) (15 / 10) (Some 3%Z) false "reflect" 0 al be ga 255) /\
  forall big, exists v v1 v2, structural_similarity big r m (kw 1 1 1) = Ok (Fin v) /\
    structural_similarity big r m (kw 2 1 1) = Ok (Fin v1) /\ structural_similarity big r m (kw 1 1 2) = Ok (Fin v2) /\
    v < v1 /\ v < 0 < v2.
Proof.
  exists spot, spot_negative, (fun al be ga => opts (1 / 100) (3 / 100) (15 / 10) (Some 3%Z) false "reflect" 0 al be ga 255).
  assert (F : forall i, inb [3; 3]%nat i = true -> 0 <= match i with [1; 1]%nat => 255 | _ => 0 end /\ 0 <= match i with [1; 1]%nat => 0 | _ => 255 end).
  { intros i _. repeat match goal with |- context [match ?x with _ => _ end] => destruct x end; lra. }
  split; [intros i Hi; unfold spot; rewrite getd_tab by exact Hi; apply (F i Hi)|].
  split; [intros i Hi; unfold spot_negative; rewrite getd_tab by exact Hi; apply (F i Hi)|].
  split; [reflexivity|]. split.
  { unfold accepted. split; [lra|]. split; [lra|]. split; [lra|]. split; [exists 1%Z; reflexivity|].
    split; [intros n [<-|[<-|[]]]; cbn; lia|]. split; [left; reflexivity|]. split; [discriminate|left; cbn; lia]. }
  split; [reflexivity|]. intros big.
  pose proof (spot_score big 1 1 1) as S1. pose proof (spot_score big 2 1 1) as S2. pose proof (spot_score big 1 1 2) as S3.
  change (INR 1) with 1 in *. replace (INR 2) with 2 in * by (cbn; lra).
  do 3 eexists. split; [exact S1|]. split; [exact S2|]. split; [exact S3|].
  set (l := (2 * (85 / 3) * (680 / 3) + 1 / 100 * 255 * (1 / 100 * 255)) / _).
  set (s := (-7225 + 3 / 100 * 255 * (3 / 100 * 255) / 2) / _).
  assert (L : 0 < l < 1).
  { assert (E : l * (85 / 3 * (85 / 3) + 680 / 3 * (680 / 3) + 1 / 100 * 255 * (1 / 100 * 255))
      = 2 * (85 / 3) * (680 / 3) + 1 / 100 * 255 * (1 / 100 * 255)) by (unfold l; field; apply Rgt_not_eq; lra). lra. }
  assert (S : -1 <= s < 0).
  { assert (E : s * (7225 + 3 / 100 * 255 * (3 / 100 * 255) / 2) = -7225 + 3 / 100 * 255 * (3 / 100 * 255) / 2)
      by (unfold s; field; apply Rgt_not_eq; lra). lra. }
  clearbody l s. clear - L S. rewrite !pow_1. cbn [pow]. rewrite !Rmult_1_r.
  assert (N : l * s < 0) by (assert (0 < l * - s) by (apply Rmult_lt_0_compat; lra); lra).
  assert (Q : 0 < s * s) by nra.
  split; [|split; [exact N|apply Rmult_lt_0_compat; lra]].
  assert (0 < (1 - l) * (- (l * s))) by (apply Rmult_lt_0_compat; lra). lra.
Qed.

Print Assumptions C134_formula.
Print Assumptions C134_lower.
Print Assumptions C134_off.
Print Assumptions C134_raises.
Print Assumptions C134_score.
Print Assumptions C134_lower_refuted.

(** ** Examples *)

(** An image and a darker copy rise and fall together; the spot and its negative are opposed. *)
Example C134_together_ex : together (tabulate [11; 12]%nat (fun i => INR (nth 0 i 0%nat)))
  (tabulate [11; 12]%nat (fun i => INR (nth 0 i 0%nat) / 2)).
Proof.
  intros i j Hi Hj. rewrite !getd_tab by assumption. pose proof (Rle_0_sqr (INR (nth 0 i 0%nat) - INR (nth 0 j 0%nat))).
  unfold Rsqr in *. lra.
Qed.

Example C134_opposed_ex : opposed spot spot_negative.
Proof.
  intros i j Hi Hj. unfold spot, spot_negative. rewrite !getd_tab by assumption.
  repeat match goal with |- context [match ?x with _ => _ end] => destruct x end; lra.
Qed.

Example C134_accepted_ex : accepted [3; 3]%nat (1 / 100) 0 (15 / 10) (Some 3%Z) false "reflect".
Proof.
  unfold accepted. split; [lra|]. split; [lra|]. split; [lra|]. split; [exists 1%Z; reflexivity|].
  split; [intros n [<-|[<-|[]]]; cbn; lia|]. split; [left; reflexivity|]. split; [discriminate|left; cbn; lia].
Qed.

(** The notebook's own setting alpha = beta = gamma = 1 halved: the score says nothing. *)
Example C134_off_ex big :
  structural_similarity big spot spot_negative (opts (1 / 100) 0 (15 / 10) (Some 3%Z) false "reflect" 0 (1 / 2) (1 / 2) (1 / 2) 255)
  = Ok (Fin 1).
Proof. apply C134_off; try lra; [exact C134_accepted_ex|reflexivity]. Qed.
