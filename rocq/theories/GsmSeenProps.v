(** Which pixels and edges GSM looks at: property C150. *)
From Coq Require Import Reals Lra Psatz.
From Verif Require Import Base NdArray LoadModel LoadProofs NormModel NormProofs PairModel PairProofs RealSums
  MetricModel MetricProofs SsimModel SsimProofs SsimProps SsimSymProofs GsmModel GsmProofs UnitProps GsmGainProps.
Local Open Scope R_scope.

(** The gradient the differences are divided by: that of the image with the larger mean, of the first in a tie. *)
Definition larger (br bm : arr R) : arr R := if Rlt_dec (mean_abs br) (mean_abs bm) then bm else br.

(** Pixels where it is 0 do not count: neither the grey values there nor the gradient of the other image matter. *)
Theorem C150_flat_pixels : forall ucast g g' dr c p br bm bm',
  shp (first_img g) = shp (second_img g) -> shp (first_img g') = shp (second_img g') -> pair_shape g = pair_shape g' ->
  length (pair_shape g) = 2%nat \/ length (pair_shape g) = 3%nat -> (0 < size (pair_shape g))%nat ->
  best_gradients ucast g = Ok (br, bm) -> best_gradients ucast g' = Ok (br, bm') ->
  larger br bm = larger br bm' -> Rmax (amax (dat br)) (amax (dat bm)) = Rmax (amax (dat br)) (amax (dat bm')) ->
  (forall idx, inb (pair_shape g) idx = true -> getd (larger br bm) idx <> 0 ->
     getd bm idx = getd bm' idx /\ lum_diff g idx = lum_diff g' idx) ->
  gradient_similarity ucast g dr c p = gradient_similarity ucast g' dr c p.
Proof.
  intros ucast g g' dr c p br bm bm' S S' P Hn Hs B B' L M H.
  destruct (gsm_unfold ucast g dr c p S Hn Hs) as (b1 & b2 & E & _ & _ & _ & _ & ->). rewrite B in E. injection E as <- <-.
  rewrite P in Hn, Hs. destruct (gsm_unfold ucast g' dr c p S' Hn Hs) as (b1 & b2 & E & _ & _ & _ & _ & ->). rewrite B' in E. injection E as <- <-.
  rewrite <- P. do 2 f_equal. apply map_ext_in. intros idx Hi. apply in_indices in Hi.
  unfold gmax. rewrite <- M. fold (larger br bm). fold (larger br bm'). rewrite <- L.
  destruct (Req_dec (getd (larger br bm) idx) 0) as [Z|Z]; [rewrite Z, !pixel_flat; reflexivity|].
  destruct (H idx Hi Z) as [-> ->]. reflexivity.
Qed.
Print Assumptions C150_flat_pixels.

(** So a distortion of a float image in places where the reference is flat is not seen as long as the strongest
    gradient image of the distorted image has no larger mean and no larger maximum. *)
Theorem C150_unseen : forall ucast r m m' dr c p br bm bm', shp r = shp m -> shp r = shp m' ->
  length (shp r) = 2%nat \/ length (shp r) = 3%nat -> (0 < size (shp r))%nat ->
  best_gradients ucast (PF r m) = Ok (br, bm) -> best_gradients ucast (PF r m') = Ok (br, bm') ->
  mean_abs bm <= mean_abs br -> mean_abs bm' <= mean_abs br -> amax (dat bm) <= amax (dat br) -> amax (dat bm') <= amax (dat br) ->
  (forall idx, inb (shp r) idx = true -> getd br idx <> 0 -> getd bm idx = getd bm' idx /\ getd m idx = getd m' idx) ->
  gradient_similarity ucast (PF r m) dr c p = gradient_similarity ucast (PF r m') dr c p.
Proof.
  intros ucast r m m' dr c p br bm bm' S S' Hn Hs B B' A A' X X' H.
  assert (L : larger br bm = br) by (unfold larger; destruct (Rlt_dec _ _); [lra|reflexivity]).
  assert (L' : larger br bm' = br) by (unfold larger; destruct (Rlt_dec _ _); [lra|reflexivity]).
  apply (C150_flat_pixels ucast (PF r m) (PF r m') dr c p br bm bm'); try assumption; try reflexivity.
  - rewrite L, L'. reflexivity.
  - rewrite !Rmax_left by assumption. reflexivity.
  - intros idx Hi. rewrite L. intros Hz. destruct (H idx Hi Hz) as [-> E]. split; [reflexivity|]. cbn [lum_diff]. rewrite E. reflexivity.
Qed.
Print Assumptions C150_unseen.

(** Images with the same strongest gradient image differ in brightness only, for GSM: the score is at least 1 - p, and 1
    exactly if the grey values agree wherever there is a gradient (or p is 0). *)
Theorem C150_same_gradients : forall ucast g dr c p b,
  shp (first_img g) = shp (second_img g) -> length (pair_shape g) = 2%nat \/ length (pair_shape g) = 3%nat -> (0 < size (pair_shape g))%nat ->
  best_gradients ucast g = Ok (b, b) -> 0 < amax (dat b) -> 0 <= c -> 0 < dr -> 0 <= p ->
  (forall idx, inb (pair_shape g) idx = true -> Rabs (lum_diff g idx) <= dr) ->
  exists v, gradient_similarity ucast g dr c p = Ok (Fin v) /\ 1 - p <= v <= 1 /\
    (v = 1 <-> p = 0 \/ forall idx, inb (pair_shape g) idx = true -> getd b idx <> 0 -> lum_diff g idx = 0).
Proof.
  intros ucast g dr c p b S Hn Hs B Hb Hc Hd Hp Hl.
  destruct (gsm_unfold ucast g dr c p S Hn Hs) as (b1 & b2 & E & S1 & _ & W1 & _ & ->). rewrite B in E. injection E as <- <-.
  assert (X : (if Rlt_dec (mean_abs b) (mean_abs b) then b else b) = b) by (destruct (Rlt_dec _ _); reflexivity).
  rewrite X. unfold gmax. rewrite Rmax_left by lra. set (M := amax (dat b)) in *. rewrite ext_div_fin by lra.
  assert (K : 2 + c / M <> 0) by (assert (0 <= c / M) by (apply Rmult_le_pos; [exact Hc|left; apply Rinv_0_lt_compat, Hb]); lra).
  set (q := fun idx => lum_diff g idx / dr * (lum_diff g idx / dr)).
  set (nz := fun idx => if Req_EM_T (getd b idx) 0 then false else true).
  destruct (nanmean_counted (fun idx => gsm_pixel (Fin (c / M)) p dr (getd b idx) (getd b idx) (getd b idx) (lum_diff g idx))
              (fun idx => 1 - p * q idx) nz (indices (pair_shape g))) as [E N].
  { intros idx _. unfold nz. destruct (Req_EM_T (getd b idx) 0) as [Z|Z]; [rewrite Z; apply pixel_flat|].
    rewrite pixel_equal by (exact Z || lra). destruct (Req_EM_T (2 + c / M) 0); [contradiction|reflexivity]. }
  { assert (Hin : In M (dat b)) by (apply amax_in, size_nonempty; [exact W1|rewrite S1; exact Hs]).
    apply in_getd in Hin as (idx & Hi & Hg); [|exact W1]. rewrite S1 in Hi. exists idx. split; [apply in_indices, Hi|].
    unfold nz. destruct (Req_EM_T (getd b idx) 0); [lra|reflexivity]. }
  rewrite E. eexists. split; [reflexivity|]. clear E. set (l := filter nz (indices (pair_shape g))) in *.
  assert (P : 0 < INR (length l)) by (apply lt_0_INR; exact N).
  assert (Q : forall idx, In idx l -> 0 <= q idx <= 1).
  { intros idx Hi. apply filter_In in Hi as [Hi _]. apply in_indices in Hi. specialize (Hl idx Hi). unfold q.
    assert (A : Rabs (lum_diff g idx / dr) <= 1).
    { unfold Rdiv. rewrite Rabs_mult, (Rabs_pos_eq (/ dr)) by (left; apply Rinv_0_lt_compat, Hd).
      apply Rmult_le_reg_r with dr; [exact Hd|]. rewrite Rmult_assoc, Rinv_l by lra. lra. }
    set (t := lum_diff g idx / dr) in *. split; [apply Rle_0_sqr|]. pose proof (Rle_abs t). pose proof (Rle_abs (- t)). rewrite Rabs_Ropp in *. nra. }
  assert (F : Sum (fun idx => 1 - p * q idx) l / INR (length l) = 1 - p * (Sum q l / INR (length l))).
  { rewrite (Sum_minus (fun _ => 1)), Sum_const, Sum_scale. field. lra. }
  rewrite F. clear F.
  assert (G : 0 <= Sum q l / INR (length l) <= 1).
  { split; [apply Rmult_le_pos; [apply Sum_nonneg; intros; apply Q; assumption|left; apply Rinv_0_lt_compat, P]|].
    apply Rmult_le_reg_r with (INR (length l)); [exact P|]. unfold Rdiv. rewrite Rmult_assoc, Rinv_l by lra.
    rewrite Rmult_1_r, Rmult_1_l. rewrite <- (Rmult_1_r (INR (length l))), <- (Sum_const 1 l). apply Sum_le. intros; apply Q; assumption. }
  set (s := Sum q l / INR (length l)) in *. split; [nra|].
  assert (Z : s = 0 <-> forall idx, In idx l -> q idx = 0).
  { unfold s. split; intros E.
    - apply Sum_zero_inv; [intros; apply Q; assumption|]. apply Rmult_eq_reg_r with (/ INR (length l)); [unfold Rdiv in E; lra|apply Rinv_neq_0_compat; lra].
    - rewrite (Sum_ext q (fun _ => 0)) by exact E. rewrite Sum_zero. unfold Rdiv. ring. }
  assert (Eq : forall idx, q idx = 0 <-> lum_diff g idx = 0).
  { intros idx. unfold q. split; intros E.
    - apply Rmult_integral in E. assert (E' : lum_diff g idx / dr = 0) by (destruct E; assumption).
      apply Rmult_eq_reg_r with (/ dr); [unfold Rdiv in E'; lra|apply Rinv_neq_0_compat; lra].
    - rewrite E. unfold Rdiv. ring. }
  split; intros E.
  - assert (E' : p * s = 0) by lra. apply Rmult_integral in E' as [E'|E']; [left; exact E'|right]. rewrite Z in E'.
    intros idx Hi Hg. apply Eq, E'. apply filter_In. split; [apply in_indices, Hi|]. unfold nz. destruct (Req_EM_T (getd b idx) 0); [contradiction|reflexivity].
  - destruct E as [-> | E]; [ring|]. assert (s = 0) as ->; [|ring]. apply Z. intros idx Hi. apply Eq. apply filter_In in Hi as [Hi Hz]. apply E; [apply in_indices, Hi|].
    unfold nz in Hz. destruct (Req_EM_T (getd b idx) 0); [discriminate|assumption].
Qed.
Print Assumptions C150_same_gradients.

(** ** A vertical and a horizontal edge *)

Definition vertical (u : R) : arr R := Arr [2; 2]%nat [0; u; 0; u].
Definition horizontal (u : R) : arr R := Arr [2; 2]%nat [0; 0; u; u].
Definition quad (v : R) : arr R := Arr [2; 2]%nat [v; v; v; v].

Ltac quad_response := unfold response, Sum, rsum, vertical, horizontal;
  cbv -[IZR Rplus Rmult Ropp Rminus Rdiv Rinv Rabs]; ring.

Ltac quad_list := (apply (f_equal2 Arr); [reflexivity|]); cbn [shp vertical horizontal indices flat_map map seq app];
  repeat (apply (f_equal2 cons); [quad_response|]); reflexivity.

Lemma grads_edges u ks : KERNELS_2D = Ok ks ->
  (exists x y, grads (vertical u) ks = [quad (16 * u); quad 0; quad (x * u); quad (y * u)] /\ Rabs x <= 16 /\ Rabs y <= 16) /\
  (exists x y, grads (horizontal u) ks = [quad 0; quad (16 * u); quad (x * u); quad (y * u)] /\ Rabs x <= 16 /\ Rabs y <= 16).
Proof.
  intros E. unfold KERNELS_2D, gsm_kernel_2d_x, gsm_kernel_2d_y, gsm_kernel_2d_xy, gsm_kernel_2d_yx in E.
  cbn [mapM bind] in E. injection E as <-. unfold grads. cbn [map]. unfold tabulate, quad. split.
  - exists (-5), 5. split; [|split; apply Rabs_le; lra].
    repeat (match goal with |- _ :: _ = _ :: _ => apply (f_equal2 cons); [quad_list|] end). reflexivity.
  - exists 11, 11. split; [|split; apply Rabs_le; lra].
    repeat (match goal with |- _ :: _ = _ :: _ => apply (f_equal2 cons); [quad_list|] end). reflexivity.
Qed.

Lemma mean_abs_quad v : mean_abs (quad v) = Rabs v.
Proof. unfold mean_abs, quad, Sum, rsum. cbn [dat map fold_right length INR]. field. Qed.

Lemma amax_quad v : amax (dat (quad v)) = v.
Proof. cbn [quad dat amax fold_left]. repeat rewrite (Rmax_left v v) by lra. reflexivity. Qed.

Lemma best_edges ucast u : best_gradients ucast (PF (vertical u) (horizontal u)) = Ok (quad (16 * u), quad (16 * u)).
Proof.
  assert (B : forall x, Rabs x <= 16 -> mean_abs (quad (x * u)) <= mean_abs (quad (16 * u))).
  { intros x Hx. rewrite !mean_abs_quad, !Rabs_mult, (Rabs_pos_eq 16) by lra. apply Rmult_le_compat_r; [apply Rabs_pos|exact Hx]. }
  assert (B0 : mean_abs (quad 0) <= mean_abs (quad (16 * u))) by (rewrite !mean_abs_quad, Rabs_R0; apply Rabs_pos).
  destruct (kernels_for_good 2 (or_introl eq_refl)) as (ks & Hk & _ & Hg). unfold kernels_for in Hk. cbn [Nat.eqb] in Hk.
  destruct (grads_edges u ks Hk) as [(x & y & V & X & Y) (x' & y' & H & X' & Y')].
  unfold best_gradients. cbn [pair_shape vertical shp length Nat.eqb]. rewrite Hk. cbn [bind]. unfold gradients.
  rewrite !mapM_correlate by (intros; apply Hg; assumption). cbn [bind].
  change (map _ ks) with (grads (vertical u) ks) at 1. rewrite V.
  change (map _ ks) with (grads (horizontal u) ks) at 1. rewrite H.
  rewrite strongest_first by (intros z [<-|[<-|[<-|[]]]]; auto).
  cbn [strongest]. destruct (Rlt_dec (mean_abs (quad 0)) (mean_abs (quad (16 * u)))) as [L|L].
  - fold (strongest (quad (16 * u)) [quad (x' * u); quad (y' * u)]).
    change (if Rlt_dec (mean_abs (quad (16 * u))) (mean_abs (quad (x' * u))) then _ else _) with (strongest (quad (16 * u)) [quad (x' * u); quad (y' * u)]).
    rewrite strongest_first by (intros z [<-|[<-|[]]]; auto). reflexivity.
  - assert (u = 0) as ->.
    { rewrite !mean_abs_quad, Rabs_R0, Rabs_mult, (Rabs_pos_eq 16) in L by lra. pose proof (Rabs_pos u).
      destruct (Req_dec u 0) as [E|E]; [exact E|]. apply Rabs_no_R0 in E. lra. }
    rewrite !Rmult_0_r in *. assert (T : strongest (quad 0) [quad 0; quad 0] = quad 0) by (apply strongest_first; intros z [<-|[<-|[]]]; lra).
    cbn [strongest] in T. rewrite T. reflexivity.
Qed.

(** Whatever the contrast u > 0 of the edge: turned by a right angle it keeps all its gradients in the eyes of GSM. *)
Theorem C150_orientation : forall ucast u dr c p, 0 < u -> 0 <= c -> dr <> 0 ->
  gradient_similarity ucast (PF (vertical u) (horizontal u)) dr c p = Ok (Fin (1 - p / 2 * (u / dr * (u / dr)))).
Proof.
  intros ucast u dr c p Hu Hc Hd.
  destruct (gsm_unfold ucast (PF (vertical u) (horizontal u)) dr c p eq_refl (or_introl eq_refl)) as (b1 & b2 & E & _ & _ & _ & _ & ->); [cbn; lia|].
  rewrite best_edges in E. injection E as <- <-.
  assert (X : (if Rlt_dec (mean_abs (quad (16 * u))) (mean_abs (quad (16 * u))) then quad (16 * u) else quad (16 * u)) = quad (16 * u))
    by (destruct (Rlt_dec _ _); reflexivity).
  rewrite X. unfold gmax. rewrite Rmax_left by lra.
  rewrite amax_quad, ext_div_fin by lra.
  assert (K : 2 + c / (16 * u) <> 0) by (assert (0 <= c / (16 * u)) by (apply Rmult_le_pos; [exact Hc|left; apply Rinv_0_lt_compat; lra]); lra).
  destruct (nanmean_counted (fun idx => gsm_pixel (Fin (c / (16 * u))) p dr (getd (quad (16 * u)) idx) (getd (quad (16 * u)) idx)
              (getd (quad (16 * u)) idx) (lum_diff (PF (vertical u) (horizontal u)) idx))
              (fun idx => 1 - p * (lum_diff (PF (vertical u) (horizontal u)) idx / dr * (lum_diff (PF (vertical u) (horizontal u)) idx / dr)))
              (fun _ => true) (indices [2; 2]%nat)) as [E _].
  { intros idx Hi. assert (G : getd (quad (16 * u)) idx = 16 * u) by (cbn in Hi; destruct Hi as [<-|[<-|[<-|[<-|[]]]]]; reflexivity).
    rewrite G, pixel_equal by (exact Hd || lra). destruct (Req_EM_T (2 + c / (16 * u)) 0); [contradiction|reflexivity]. }
  { exists [0; 0]%nat. split; [left; reflexivity|reflexivity]. }
  cbn [pair_shape vertical shp]. rewrite E. do 2 f_equal. unfold Sum, rsum. cbn. field. exact Hd.
Qed.
Print Assumptions C150_orientation.

(** With the default parameters an edge of full contrast of 8-bit images scores 0.95 against the same edge turned. *)
Example C150_example : forall ucast,
  gradient_similarity ucast (PF (vertical 255) (horizontal 255)) 255 200 (1 / 10) = Ok (Fin (95 / 100)).
Proof. intros ucast. rewrite C150_orientation by lra. do 2 f_equal. field. Qed.

(** The hypotheses of the theorem on equal gradients hold of that pair; its score is neither of the bounds. *)
Example C150_ex_same : forall ucast,
  exists v, gradient_similarity ucast (PF (vertical 255) (horizontal 255)) 255 200 (1 / 10) = Ok (Fin v) /\ 1 - 1 / 10 <= v <= 1 /\
    (v = 1 <-> 1 / 10 = 0 \/ forall idx, inb [2; 2]%nat idx = true -> getd (quad (16 * 255)) idx <> 0 -> lum_diff (PF (vertical 255) (horizontal 255)) idx = 0).
Proof.
  intros ucast. apply (C150_same_gradients ucast (PF (vertical 255) (horizontal 255)) 255 200 (1 / 10) (quad (16 * 255)));
    try lra; [reflexivity|left; reflexivity|cbn; lia|apply best_edges| |].
  - rewrite amax_quad. lra.
  - intros idx Hi. apply in_indices in Hi. cbn in Hi.
    destruct Hi as [<-|[<-|[<-|[<-|[]]]]]; cbn; apply Rabs_le; lra.
Qed.

(** A bright dot in a row, half as bright in the second image: a further dot at the border of the latter is not seen. *)
Definition row (a b c d e f : R) : arr R := Arr [1; 6]%nat [a; b; c; d; e; f].

Lemma grads_row a d ks : KERNELS_2D = Ok ks -> grads (row a 0 0 d 0 0) ks =
  [row (-16 * a) (-16 * a) (16 * d) 0 (-16 * d) 0; row 0 0 0 0 0 0;
   row (5 * a) (4 * a + d) (- a - 5 * d) 0 (5 * d) (- d); row (-5 * a) (-4 * a - d) (a + 5 * d) 0 (-5 * d) d].
Proof.
  intros E. unfold KERNELS_2D, gsm_kernel_2d_x, gsm_kernel_2d_y, gsm_kernel_2d_xy, gsm_kernel_2d_yx in E.
  cbn [mapM bind] in E. injection E as <-. unfold grads. cbn [map]. unfold tabulate, row.
  repeat (match goal with |- _ :: _ = _ :: _ => apply (f_equal2 cons);
    [(apply (f_equal2 Arr); [reflexivity|]); cbn [shp indices flat_map map seq app];
     repeat (apply (f_equal2 cons); [unfold response, Sum, rsum; cbv -[IZR Rplus Rmult Ropp Rminus Rdiv Rinv Rabs]; ring|]); reflexivity|] end). reflexivity.
Qed.

Lemma mean_abs_row a b c d e f : mean_abs (row a b c d e f) = (Rabs a + Rabs b + Rabs c + Rabs d + Rabs e + Rabs f) / 6.
Proof. unfold mean_abs, row, Sum, rsum. cbn [dat map fold_right length INR]. field. Qed.

Lemma strongest_row a d : 0 <= a -> 0 <= d ->
  strongest (row (-16 * a) (-16 * a) (16 * d) 0 (-16 * d) 0)
   [row 0 0 0 0 0 0; row (5 * a) (4 * a + d) (- a - 5 * d) 0 (5 * d) (- d); row (-5 * a) (-4 * a - d) (a + 5 * d) 0 (-5 * d) d]
  = row (-16 * a) (-16 * a) (16 * d) 0 (-16 * d) 0.
Proof.
  intros Ha Hd. apply strongest_first. intros x [<-|[<-|[<-|[]]]]; rewrite !mean_abs_row;
  repeat match goal with |- context [Rabs ?t] =>
    (rewrite (Rabs_pos_eq t) by lra) || (rewrite (Rabs_left1 t) by lra) end; lra.
Qed.

Lemma best_row ucast a d a' d' : 0 <= a -> 0 <= d -> 0 <= a' -> 0 <= d' ->
  best_gradients ucast (PF (row a 0 0 d 0 0) (row a' 0 0 d' 0 0))
  = Ok (row (-16 * a) (-16 * a) (16 * d) 0 (-16 * d) 0, row (-16 * a') (-16 * a') (16 * d') 0 (-16 * d') 0).
Proof.
  intros H1 H2 H3 H4.
  destruct (kernels_for_good 2 (or_introl eq_refl)) as (ks & Hk & _ & Hg). unfold kernels_for in Hk. cbn [Nat.eqb] in Hk.
  unfold best_gradients. cbn [pair_shape row shp length Nat.eqb]. rewrite Hk. cbn [bind]. unfold gradients.
  rewrite !mapM_correlate by (intros; apply Hg; assumption). cbn [bind].
  change (map _ ks) with (grads (row a 0 0 d 0 0) ks) at 1. rewrite grads_row by exact Hk.
  change (map _ ks) with (grads (row a' 0 0 d' 0 0) ks) at 1. rewrite grads_row by exact Hk.
  rewrite !strongest_row by assumption. reflexivity.
Qed.

Example C150_ex_unseen : forall ucast t dr c p, 0 <= t <= 1 ->
  gradient_similarity ucast (PF (row 0 0 0 2 0 0) (row t 0 0 1 0 0)) dr c p
  = gradient_similarity ucast (PF (row 0 0 0 2 0 0) (row 0 0 0 1 0 0)) dr c p.
Proof.
  intros ucast t dr c p Ht. eapply C150_unseen;
    [reflexivity|reflexivity|left; reflexivity|cbn; lia|apply best_row; lra|apply best_row; lra| | | | |].
  1, 2: rewrite !mean_abs_row; repeat match goal with |- context [Rabs ?t] =>
    (rewrite (Rabs_pos_eq t) by lra) || (rewrite (Rabs_left1 t) by lra) end; lra.
  1, 2: apply Rle_trans with (16 * 2); [|apply amax_ge; right; right; left; reflexivity];
    match goal with |- amax ?l <= _ => assert (I : In (amax l) l) by (apply amax_in; discriminate) end;
    cbn [row dat] in *; destruct I as [<-|[<-|[<-|[<-|[<-|[<-|[]]]]]]]; lra.
  intros idx Hi. apply in_indices in Hi. cbn in Hi.
  destruct Hi as [<-|[<-|[<-|[<-|[<-|[<-|[]]]]]]]; cbn; intros H; split; try reflexivity; exfalso; apply H; ring.
Qed.
