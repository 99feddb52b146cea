(** C118: warnings of the loading functions, of MAD and of SSIM. C119: dim and im_slice. *)
From Coq Require Import Reals String Ascii Lra Lia.
From Verif Require Import Base NdArray LoadModel NormModel NormProofs PairModel PairProofs MetricModel MetricProofs MetricProps
  SliceModel SsimModel MadModel PrintModel WarnModel.

(** ** The results are those of the other models *)

Lemma snd_obind {A B} (m : out A) (k : A -> out B) :
  snd (obind m k) = bind (snd m) (fun a => snd (k a)).
Proof. destruct m as [es [a|e]]; [|reflexivity]. cbn. destruct (k a); reflexivity. Qed.

Lemma normalize_same ident ub im lo hi auto :
  snd (normalize_w ident ub im lo hi auto) = normalize_data ident ub im lo hi auto.
Proof.
  unfold normalize_w. destruct (dt im) eqn:E; try (unfold normalize_data; rewrite E; reflexivity);
    destruct (already_normalised ident _ lo hi) eqn:N; try reflexivity; unfold normalize_data; rewrite E, N; reflexivity.
Qed.

Lemma crop_checked_same {A} (a : arr A) r es : snd (crop_checked_w a r es) = crop_checked a r.
Proof.
  unfold crop_checked_w, crop_checked. destruct (vec_all Z.ltb _ _) as [[|]|]; try reflexivity. cbn [bind].
  destruct (vec_all Z.eqb _ _) as [[|]|]; reflexivity.
Qed.

Lemma crop_image_same {A} (a : arr A) x y z : snd (crop_image_w a x y z) = crop_image a x y z.
Proof.
  unfold crop_image_w, crop_image. destruct (_ || _); [apply crop_checked_same|].
  destruct (_ =? 3); [|reflexivity]. destruct z; [apply crop_checked_same|reflexivity].
Qed.

Lemma crop_out_same o x y z : snd (crop_out_w o x y z) = crop_out o x y z.
Proof.
  destruct o as [[d [a|a]]|d s]; cbn [crop_out_w crop_out]; rewrite snd_obind, crop_image_same; reflexivity.
Qed.

Lemma crop_roi_same o roi : snd (crop_roi_w o roi) = crop_roi o roi.
Proof.
  destruct roi as [|x [|y [|z [|w roi]]]]; try reflexivity; cbn [crop_roi_w crop_roi]; apply crop_out_same.
Qed.

Lemma prepare_same ident ub norm dr roi im : snd (prepare_w ident ub norm dr roi im) = prepare ident ub norm dr roi im.
Proof.
  unfold prepare_w, prepare. rewrite snd_obind.
  assert (R : forall o, snd (match roi with [] => quiet (Ok o) | _ => crop_roi_w o roi end)
                        = match roi with [] => Ok o | _ => crop_roi o roi end).
  { intros o. destruct roi; [reflexivity|apply crop_roi_same]. }
  destruct dr as [hi|].
  - destruct (norm && negb (hi =? 0)%Z).
    + rewrite normalize_same. destruct (normalize_data _ _ _ _ _ _); [apply R|reflexivity].
    + apply R.
  - apply R.
Qed.

Theorem C118_load_same : forall disk ident ub img dr norm batch roi,
  snd (load_data_w disk ident ub img dr norm batch roi) = load_data disk ident ub img dr norm batch roi.
Proof.
  intros disk ident ub img dr norm batch roi. unfold load_data_w, load_data.
  destruct batch; [reflexivity|]. destruct (norm && _); [reflexivity|]. rewrite snd_obind. cbn [snd bind].
  destruct img as [name|im|l|].
  - rewrite snd_obind. cbn [quiet snd]. destruct (disk name) as [im|e]; [|reflexivity]. cbn [bind].
    rewrite snd_obind. cbn [quiet snd]. destruct (check_dims (shape im)); [|reflexivity]. cbn [bind].
    rewrite snd_obind, prepare_same. reflexivity.
  - rewrite snd_obind. cbn [quiet snd]. destruct (check_dims (shape im)); [|reflexivity]. cbn [bind].
    rewrite snd_obind, prepare_same. reflexivity.
  - destruct l as [|im [|]]; try reflexivity.
    rewrite snd_obind. cbn [quiet snd]. destruct (check_dims (shape im)); [|reflexivity]. cbn [bind].
    rewrite snd_obind, prepare_same. reflexivity.
  - reflexivity.
Qed.
Print Assumptions C118_load_same.

Theorem C118_pair_same : forall disk ident ub r m dr norm roi chromatic,
  snd (check_imgs_w disk ident ub r m dr norm roi chromatic) = check_imgs disk ident ub r m dr norm roi chromatic.
Proof.
  intros. unfold check_imgs_w, check_imgs. rewrite snd_obind, C118_load_same.
  destruct (load_data disk ident ub r dr norm false roi) as [r'|]; [|reflexivity]. cbn [bind].
  rewrite snd_obind, C118_load_same.
  destruct (load_data disk ident ub m dr norm false roi) as [m'|]; [|reflexivity]. cbn [bind].
  unfold check_loaded_w, check_loaded. destruct r', m'; try reflexivity.
  destruct (negb (dtype_eqb _ _)); [reflexivity|]. destruct (negb (shape_eqb _ _)); [reflexivity|].
  destruct (negb chromatic && _); [reflexivity|]. destruct (chromatic && _); reflexivity.
Qed.
Print Assumptions C118_pair_same.

(** ** How often a warning is given *)

Definition effect_eq_dec (a b : effect) : {a = b} + {a <> b}.
Proof. decide equality; try apply string_dec. decide equality. Defined.
Definition times (e : effect) (es : list effect) : nat := count_occ effect_eq_dec es e.

Lemma times_app e a b : times e (a ++ b) = times e a + times e b.
Proof. apply count_occ_app. Qed.

(** Warnings of the later steps of load_data. *)
Definition later (e : effect) : Prop := e = w_normalised \/ e = w_z \/ e = w_cropped.

Lemma later_obind {A B} (m : out A) (k : A -> out B) :
  Forall later (fst m) -> (forall a, Forall later (fst (k a))) -> Forall later (fst (obind m k)).
Proof.
  destruct m as [es [a|e]]; cbn [fst obind]; intros H K; [|exact H]. specialize (K a). destruct (k a).
  apply Forall_app. split; assumption.
Qed.

Lemma later_one e : later e -> Forall later [e].
Proof. intros H. constructor; [exact H|constructor]. Qed.

Lemma later_crop {A} (a : arr A) x y z : Forall later (fst (crop_image_w a x y z)).
Proof.
  assert (C : forall r es, Forall later es -> Forall later (fst (crop_checked_w a r es))).
  { intros r es H. unfold crop_checked_w. destruct (vec_all Z.ltb _ _) as [[|]|]; cbn [fst quiet]; try exact H; try constructor.
    destruct (vec_all Z.eqb _ _) as [[|]|]; cbn [fst quiet]; try constructor; [|constructor]. unfold later. tauto. }
  unfold crop_image_w. destruct (_ || _).
  - apply C. destruct z; [|constructor]. apply later_one. unfold later. tauto.
  - destruct (_ =? 3); [|constructor]. destruct z; [apply C; constructor|constructor].
Qed.

Lemma later_prepare ident ub norm dr roi im : Forall later (fst (prepare_w ident ub norm dr roi im)).
Proof.
  unfold prepare_w. apply later_obind.
  - destruct dr as [hi|]; [|constructor]. destruct (_ && _); [|constructor].
    unfold normalize_w. destruct (dt im); try constructor; destruct (already_normalised _ _ _ _);
      first [apply later_one; unfold later; tauto | constructor].
  - intros o. assert (X : forall o x y z, Forall later (fst (crop_out_w o x y z))).
    { intros [[d [a|a]]|d s] x y z; cbn [crop_out_w]; (apply later_obind; [apply later_crop|intros; constructor]). }
    destruct roi as [|x [|y [|z [|w roi]]]]; cbn [crop_roi_w]; try constructor; apply X.
Qed.

(** Calls that are accepted at all. *)
Definition accepted (norm : bool) (dr : option Z) : Prop := norm = true -> dr <> None.

(** data_range without normalize: one warning, in front of all others, whatever happens then. *)
Lemma load_warnings disk ident ub img dr norm roi : accepted norm dr ->
  exists es, fst (load_data_w disk ident ub img dr norm false roi) =
             (if negb norm && match dr with None => false | _ => true end then [w_range] else []) ++ es /\
             Forall later es.
Proof.
  intros H. unfold load_data_w.
  assert (E : norm && match dr with None => true | _ => false end = false).
  { destruct norm, dr; try reflexivity. exfalso. apply H; reflexivity. }
  rewrite E. cbn [obind].
  match goal with |- context [let (es', r) := ?k in _] => assert (L : Forall later (fst k)) end.
  { destruct img as [name|im|l|]; [| |destruct l as [|im [|]]|]; try constructor;
      repeat (apply later_obind; [first [apply later_prepare|constructor]|intros]); constructor. }
  destruct (match img with InPath _ => _ | _ => _ end) as [es r]. exists es. split; [reflexivity|exact L].
Qed.

Lemma times_later e es : ~ later e -> Forall later es -> times e es = 0%nat.
Proof.
  intros N F. apply count_occ_not_In. intros I. apply N. rewrite Forall_forall in F. apply F, I.
Qed.

Lemma range_not_later : ~ later w_range.
Proof. intros [H|[H|H]]; discriminate H. Qed.
Lemma gray_not_later : ~ later w_gray.
Proof. intros [H|[H|H]]; discriminate H. Qed.

Theorem C118_range : forall disk ident ub img dr norm roi, accepted norm dr ->
  times w_range (fst (load_data_w disk ident ub img dr norm false roi)) =
    (if negb norm && match dr with None => false | _ => true end then 1 else 0) /\
  times w_gray (fst (load_data_w disk ident ub img dr norm false roi)) = 0.
Proof.
  intros disk ident ub img dr norm roi H. destruct (load_warnings disk ident ub img dr norm roi H) as (es & -> & F).
  rewrite !times_app, (times_later _ _ range_not_later F), (times_later _ _ gray_not_later F).
  destruct (negb norm && _); split; reflexivity.
Qed.
Print Assumptions C118_range.

(** Scoring a pair loads two images: the warning comes twice. A conversion to grey is warned
    about exactly when it happens, i.e. when an axis is lost. *)
Lemma gray_shape o o' : gray_out o = Ok o' -> o_shape o' = removelast (o_shape o).
Proof.
  destruct o as [im|d s]; cbn [gray_out]; [|intros [= <-]; reflexivity]. unfold to_grayscale, shape.
  destruct (mapM _ _) eqn:E; cbn [bind]; [|discriminate]. intros [= <-]. cbn [o_shape shape px px_shape shp].
  f_equal. clear E. unfold shape. destruct (px im); reflexivity.
Qed.

Theorem C118_pair : forall disk ident ub r m dr norm roi chromatic r0 m0 r' m', 
  load_data disk ident ub r dr norm false roi = Ok (LOne r0) ->
  load_data disk ident ub m dr norm false roi = Ok (LOne m0) ->
  check_imgs disk ident ub r m dr norm roi chromatic = Ok (r', m') ->
  let es := fst (check_imgs_w disk ident ub r m dr norm roi chromatic) in
  times w_range es = (if negb norm && match dr with None => false | _ => true end then 2 else 0) /\
  (In w_gray es <-> length (o_shape r') <> length (o_shape r0)) /\
  (In w_gray es -> times w_gray es = 1 /\ S (length (o_shape r')) = length (o_shape r0)).
Proof.
  intros disk ident ub r m dr norm roi chromatic r0 m0 r' m' Hr Hm Hc.
  assert (A : accepted norm dr).
  { intros -> ->. unfold load_data in Hr. discriminate Hr. }
  cbv zeta. unfold check_imgs in Hc. rewrite Hr, Hm in Hc. cbn [bind] in Hc.
  unfold check_imgs_w.
  destruct (load_data_w disk ident ub r dr norm false roi) as [er rr] eqn:Er.
  destruct (load_data_w disk ident ub m dr norm false roi) as [em rm] eqn:Em.
  assert (rr = Ok (LOne r0)) as -> by (rewrite <- Hr, <- C118_load_same, Er; reflexivity).
  assert (rm = Ok (LOne m0)) as -> by (rewrite <- Hm, <- C118_load_same, Em; reflexivity).
  destruct (C118_range disk ident ub r dr norm roi A) as [R1 R2]. rewrite Er in R1, R2. cbn [fst] in R1, R2.
  destruct (C118_range disk ident ub m dr norm roi A) as [M1 M2]. rewrite Em in M1, M2. cbn [fst] in M1, M2.
  cbn [obind]. destruct (check_loaded_w (LOne r0) (LOne m0) chromatic) as [ec rc] eqn:Ec. cbn [fst].
  assert (G : (ec = [w_gray] /\ S (length (o_shape r')) = length (o_shape r0)) \/ (ec = [] /\ r' = r0)).
  { unfold check_loaded_w in Ec. cbn [check_loaded] in Hc.
    destruct (negb (dtype_eqb _ _)); [discriminate Hc|]. destruct (negb (shape_eqb _ _)); [discriminate Hc|].
    destruct (negb chromatic && (last (o_shape r0) 0 =? 3)) eqn:B.
    - injection Ec as <- _. left. split; [reflexivity|].
      destruct (gray_out r0) as [g|] eqn:Eg; [|discriminate Hc]. cbn [bind] in Hc.
      destruct (gray_out m0); [|discriminate Hc]. injection Hc as -> _.
      rewrite (gray_shape _ _ Eg). apply andb_true_iff in B as [_ B]. apply Nat.eqb_eq in B.
      destruct (o_shape r0) as [|n l] eqn:S0; [discriminate B|].
      destruct (exists_last (l := n :: l)) as (q & x & E); [discriminate|]. rewrite E, removelast_last, app_length. cbn. lia.
    - destruct (chromatic && _); [discriminate Hc|]. injection Hc as <- _. injection Ec as <- _. right. split; reflexivity. }
  rewrite !times_app, R1, M1, R2, M2, !in_app_iff.
  assert (Nr : ~ In w_gray er) by (apply (count_occ_not_In effect_eq_dec); exact R2).
  assert (Nm : ~ In w_gray em) by (apply (count_occ_not_In effect_eq_dec); exact M2).
  destruct G as [[-> L]|[-> ->]].
  - split; [|split; [split; [intros _; lia|intros _; right; right; left; reflexivity]|]].
    + destruct (negb norm && _); reflexivity.
    + intros _. split; [reflexivity|exact L].
  - cbn [In]. split; [|split; [split; [tauto|congruence]|tauto]].
    destruct (negb norm && _); reflexivity.
Qed.
Print Assumptions C118_pair.

(** "data_range will be ignored" - but the score depends on it: for every pair of different
    images PSNR gives different scores for different data ranges, each time with the warning. *)
Theorem C118_range_used : forall disk ident ub u ra ma d1 d2,
  dt ra = dt ma -> shape ra = shape ma -> dims_ok (shape ra) -> last (shape ra) 0 <> 3 ->
  pixel_list ra <> [] -> length (pixel_list ra) = length (pixel_list ma) -> pixel_list ra <> pixel_list ma ->
  (0 < d1)%Z -> (d1 < d2)%Z ->
  let run d := (fst (check_imgs_w disk ident ub (InArray ra) (InArray ma) (Some d) false [] false),
                let* m := construct CPSNR (PInt d) (PBool false) [] in
                let* s := psnr_score disk ident ub u m (InArray ra) (InArray ma) in Ok (fst s)) in
  exists x1 x2, run d1 = ([w_range; w_range], Ok (Fin x1)) /\ run d2 = ([w_range; w_range], Ok (Fin x2)) /\ (x1 < x2)%R.
Proof.
  intros disk ident ub u ra ma d1 d2 Hd Hs Ho H3 Hn Hl Hne P1 P12 run.
  assert (W : forall d, fst (check_imgs_w disk ident ub (InArray ra) (InArray ma) (Some d) false [] false) = [w_range; w_range]).
  { intros d.
    assert (L : forall im, dims_ok (shape im) ->
              load_data_w disk ident ub (InArray im) (Some d) false false [] = ([w_range], Ok (LOne (NImg im)))).
    { intros im O. apply check_dims_ok in O. unfold load_data_w. cbn [andb negb obind]. rewrite O. reflexivity. }
    assert (D : dtype_eqb (dt ra) (dt ra) = true) by (destruct (dt ra); cbn; rewrite ?Nat.eqb_refl; reflexivity).
    assert (S : shape_eqb (shape ra) (shape ra) = true) by (unfold shape_eqb; destruct (list_eq_dec _ _ _); [reflexivity|contradiction]).
    unfold check_imgs_w. rewrite !L by (try rewrite <- Hs; exact Ho). cbn [obind check_loaded_w o_type o_shape].
    rewrite <- Hs, <- Hd, D, S. cbn [negb andb]. destruct (Nat.eqb_spec (last (shape ra) 0) 3); [contradiction|]. reflexivity. }
  assert (V : forall d, (0 < d)%Z -> run d = ([w_range; w_range], Ok (Fin (20 * log10 (IZR d / MetricProofs.rms (pixel_list ra) (pixel_list ma)))))).
  { intros d P. unfold run. rewrite W. f_equal. cbn [construct needs_range negb andb truthy class_kwargs dupdate fold_left].
    cbn [bind]. rewrite C23_score_is_psnr with (d := d); try assumption.
    - cbn [bind fst]. f_equal. apply C23_value; [apply IZR_lt; lia|assumption..].
    - repeat split.
    - reflexivity. }
  do 2 eexists. split; [apply V; exact P1|]. split; [apply V; lia|].
  assert (R0 : (0 < MetricProofs.rms (pixel_list ra) (pixel_list ma))%R).
  { destruct (rms_nonneg (pixel_list ra) (pixel_list ma)) as [R|R]; [exact R|].
    exfalso. apply Hne. apply rms_zero; [assumption|assumption|]. symmetry. exact R. }
  apply IZR_lt in P1, P12. unfold log10. assert (L10 : (0 < ln 10)%R) by (rewrite <- ln_1; apply ln_increasing; lra).
  apply Rmult_lt_compat_l; [lra|]. apply Rmult_lt_compat_r; [apply Rinv_0_lt_compat, L10|].
  apply ln_increasing; [apply Rdiv_lt_0_compat; assumption|]. apply Rmult_lt_compat_r; [apply Rinv_0_lt_compat, R0|assumption].
Qed.
Print Assumptions C118_range_used.

(** ** crop_image *)

(** At most one warning: "already cropped" exactly for the unchanged image; "z will be ignored"
    exactly for a plane that is really cropped with z given. *)
Lemma vec_all_ok f u v b : vec_all f u v = Ok b ->
  length u = length v /\ b = forallb (fun p => f (fst p) (snd p)) (combine u v).
Proof. unfold vec_all. destruct (Nat.eqb_spec (length u) (length v)); [intros [= <-]; auto|discriminate]. Qed.

Lemma clip_short n x : (0 < n)%nat -> (extent x < Z.of_nat n)%Z -> clip n (snd x) - clip n (fst x) <> n.
Proof.
  destruct x as [a b]. unfold extent, clip. cbn [fst snd]. intros P H.
  destruct (Z.ltb_spec b 0), (Z.ltb_spec a 0); lia.
Qed.

Lemma slice_shrinks {A} (a c : arr A) r : shp a <> [] -> r <> [] -> (forall n, In n (shp a) -> 0 < n)%nat ->
  vec_all Z.ltb (map extent r) (map Z.of_nat (shp a)) = Ok true -> slice a r = Ok c -> c <> a.
Proof.
  intros Hs Hr Hp Hv Hc E. subst c. unfold slice in Hc. destruct (_ <? _); [discriminate|].
  unfold reindex in Hc. destruct (mapM _ _); [|discriminate]. cbn [bind] in Hc. injection Hc as Hc.
  assert (S : slice_shape (shp a) r = shp a) by (rewrite <- Hc at 2; reflexivity).
  apply vec_all_ok in Hv as [_ Hv]. destruct (shp a) as [|n s]; [contradiction|]. destruct r as [|x r]; [contradiction|].
  cbn [map combine forallb fst snd] in Hv. symmetry in Hv. apply andb_true_iff in Hv as [Hv _]. apply Z.ltb_lt in Hv.
  cbn [slice_shape] in S. injection S as S _. revert S. apply clip_short; [apply Hp; left; reflexivity|exact Hv].
Qed.

Theorem C118_crop : forall A (a c : arr A) x y z es, (forall n, In n (shp a) -> 0 < n)%nat ->
  crop_image_w a x y z = (es, Ok c) ->
  (es = [w_cropped] <-> c = a) /\
  (es = [w_z] <-> c <> a /\ z <> None /\ length (shp a) = 2) /\
  (es = [] \/ es = [w_cropped] \/ es = [w_z]).
Proof.
  intros A a c x y z es Hp H.
  assert (C : forall r small, r <> [] -> small = [] \/ small = [w_z] -> shp a <> [] -> crop_checked_w a r small = (es, Ok c) ->
            length r = length (shp a) /\ ((es = [w_cropped] /\ c = a) \/ (es = small /\ c <> a))).
  { intros r small Hr Hsm Hs E. unfold crop_checked_w in E.
    destruct (vec_all Z.ltb _ _) as [[|]|] eqn:V; [| |discriminate E].
    - injection E as <- E. pose proof (slice_shrinks a c r Hs Hr Hp V E).
      apply vec_all_ok in V as [V _]. rewrite !map_length in V. split; [exact V|]. right. split; [reflexivity|assumption].
    - apply vec_all_ok in V as [V _]. rewrite !map_length in V.
      destruct (vec_all Z.eqb _ _) as [[|]|]; try discriminate E. injection E as <- <-. split; [exact V|]. left. split; reflexivity. }
  assert (D : exists small, (small = [] \/ small = [w_z]) /\ (small = [w_z] <-> z <> None /\ length (shp a) = 2) /\
              ((es = [w_cropped] /\ c = a) \/ (es = small /\ c <> a))).
  { unfold crop_image_w in H. destruct ((length (shp a) =? 2) || is_colour (shp a)) eqn:B.
    - exists (match z with Some _ => [w_z] | None => [] end). split; [destruct z; auto|].
      destruct (C [x; y] (match z with Some _ => [w_z] | None => [] end) ltac:(discriminate) ltac:(destruct z; auto)
                  ltac:(intros N; rewrite N in B; discriminate B) H) as [L R].
      split; [|exact R]. cbn in L. destruct z; split; try discriminate; try tauto.
      + intros _. split; [discriminate|symmetry; exact L].
    - destruct (length (shp a) =? 3) eqn:B3; [|discriminate H]. destruct z as [z|]; [|discriminate H].
      apply Nat.eqb_eq in B3. exists []. split; [auto|].
      destruct (C [x; y; z] [] ltac:(discriminate) ltac:(auto) ltac:(intros N; rewrite N in B3; discriminate B3) H) as [L R].
      split; [split; [discriminate|intros [_ E2]; rewrite B3 in E2; discriminate]|exact R]. }
  destruct D as (small & S1 & S2 & [[-> E]|[-> N]]).
  - subst c. split; [tauto|]. split; [|tauto]. split; [discriminate|intros [F _]; contradiction].
  - split; [|split; [tauto|tauto]]. split; [|contradiction].
    destruct S1 as [-> | ->]; discriminate.
Qed.
Print Assumptions C118_crop.

(** Documented: a RuntimeWarning if the image is 2D, as z will be ignored. *)
Theorem C118_crop_z_refuted : exists (a : arr Z) x y z,
  length (shp a) = 2 /\ crop_image_w a x y (Some z) = ([w_cropped], Ok a) /\ ~ In w_z (fst (crop_image_w a x y (Some z))).
Proof.
  exists (Arr [1; 1] [5%Z]), (0, 1)%Z, (0, 1)%Z, (0, 1)%Z. split; [reflexivity|]. split; [reflexivity|].
  intros [H|[]]. discriminate H.
Qed.
Print Assumptions C118_crop_z_refuted.

(** ** normalize_data *)

(** Warned about exactly when the image is handed back by the shortcut; that is always so for
    8-bit images with (0, 255), never for floating-point images. *)
Theorem C118_normalised : forall ident ub im lo hi auto, cpython_identity ident ->
  (In w_normalised (fst (normalize_w ident ub im lo hi auto)) ->
     normalize_data ident ub im lo hi auto = Ok (NImg im) /\
     exists b, (dt im = UInt b /\ lo = 0%Z /\ hi = (2 ^ Z.of_nat b - 1)%Z) \/
               (dt im = SInt b /\ lo = (- 2 ^ (Z.of_nat b - 1))%Z /\ hi = (2 ^ (Z.of_nat b - 1) - 1)%Z)) /\
  (dt im = UInt 8 -> lo = 0%Z -> hi = 255%Z -> fst (normalize_w ident ub im lo hi auto) = [w_normalised]) /\
  (forall b, dt im = Float b -> fst (normalize_w ident ub im lo hi auto) = []).
Proof.
  intros ident ub im lo hi auto Hid. split; [|split].
  - intros H. unfold normalize_w in H. destruct (dt im) eqn:E; cbn [fst quiet] in H; try contradiction;
      destruct (already_normalised ident _ lo hi) eqn:N; cbn [fst quiet In] in H; try contradiction;
      try discriminate N; (split; [unfold normalize_data; rewrite E, N; reflexivity|]);
      cbn [already_normalised] in N; apply andb_true_iff in N as [N1 N2]; destruct Hid as [Hid _];
      apply Hid in N1, N2; cbn [imin imax] in N1, N2; eexists; [left|right]; repeat split; symmetry; eassumption.
  - intros E -> ->. unfold normalize_w. rewrite E.
    assert (already_normalised ident (UInt 8) 0 255 = true) as ->; [|reflexivity].
    destruct Hid as [_ Hid]. cbn [already_normalised]. change (imax (UInt 8)) with 255%Z. change (imin (UInt 8)) with 0%Z.
    rewrite !Hid by lia. reflexivity.
  - intros b E. unfold normalize_w. rewrite E. reflexivity.
Qed.
Print Assumptions C118_normalised.

(** "Data is already normalized": not of the data, which may fill any part of the range. *)
Theorem C118_normalised_refuted : exists im, dt im = UInt 8 /\ px im = PI (Arr [1; 2] [7; 7]%Z) /\
  forall ident ub, cpython_identity ident -> In w_normalised (fst (normalize_w ident ub im 0 255 None)).
Proof.
  exists (Img (UInt 8) (PI (Arr [1; 2] [7; 7]%Z))). split; [reflexivity|]. split; [reflexivity|]. intros ident ub H.
  destruct (C118_normalised ident ub (Img (UInt 8) (PI (Arr [1; 2] [7; 7]%Z))) 0 255 None H) as (_ & E & _).
  rewrite E by reflexivity. left. reflexivity.
Qed.
Print Assumptions C118_normalised_refuted.

(** ** Thresholds of MAD *)

(** Parameters used, and warnings: with two thresholds other than 0 "Ignoring beta_1 and beta_2"
    always, also if they were not given; with one "must be given together". *)
Theorem C118_thresholds : forall beta_1 beta_2 t1 t2,
  let one t := exists x, t = Some x /\ x <> 0%R in
  snd (mad_betas beta_1 beta_2 t1 t2) = betas beta_1 beta_2 t1 t2 /\
  (fst (mad_betas beta_1 beta_2 t1 t2) = [w_betas] <-> one t1 /\ one t2) /\
  (fst (mad_betas beta_1 beta_2 t1 t2) = [w_together] <-> (one t1 /\ ~ one t2) \/ (~ one t1 /\ one t2)) /\
  (fst (mad_betas beta_1 beta_2 t1 t2) = [] <-> ~ one t1 /\ ~ one t2).
Proof.
  intros beta_1 beta_2 t1 t2 one.
  assert (G : forall t, match given t with Some x => one t /\ t = Some x /\ x <> 0%R | None => ~ one t end).
  { intros [x|]; cbn [given]; [|intros (x & E & _); discriminate E]. destruct (Req_EM_T x 0) as [E|E].
    - intros (y & Y & N). injection Y as <-. contradiction.
    - split; [exists x|]; split; try reflexivity; assumption. }
  pose proof (G t1) as G1. pose proof (G t2) as G2. unfold mad_betas, betas.
  destruct (given t1) as [a|], (given t2) as [b|]; cbn [fst snd].
  - destruct (Req_EM_T (exp (- a / b)) 0) as [E|E]; [pose proof (exp_pos (- a / b)); lra|].
    split; [reflexivity|]. repeat split; try discriminate; tauto.
  - split; [reflexivity|]. repeat split; try discriminate; tauto.
  - split; [reflexivity|]. repeat split; try discriminate; tauto.
  - split; [reflexivity|]. repeat split; try discriminate; tauto.
Qed.
Print Assumptions C118_thresholds.

(** Documented: a warning if one threshold is given and not both. A threshold 0 counts as not given. *)
Theorem C118_thresholds_refuted : exists t1 t2 s1,
  forall beta_1 beta_2,
    fst (mad_betas beta_1 beta_2 (Some t1) (Some t2)) = [w_together] /\
    fst (mad_betas beta_1 beta_2 (Some s1) None) = [].
Proof.
  exists 0%R, 1%R, 0%R. intros b1 b2. unfold mad_betas, given.
  destruct (Req_EM_T 0 0); [|lra]. destruct (Req_EM_T 1 0); [lra|]. split; reflexivity.
Qed.
Print Assumptions C118_thresholds_refuted.

(** ** Exponents of SSIM *)

Lemma slen_app a b : String.length (a ++ b) = (String.length a + String.length b)%nat.
Proof. induction a as [|c a IH]; [reflexivity|]. cbn. rewrite IH. reflexivity. Qed.

Lemma Rtrunc_int z : Rtrunc (IZR z) = z.
Proof.
  destruct (Z.le_gt_cases 0 z) as [H|H]; [apply Rtrunc_IZR, H|].
  pose proof (Rtrunc_IZR (- z) ltac:(lia)) as E. unfold Rtrunc in *. rewrite opp_IZR in E. apply IZR_lt in H.
  destruct (Rle_dec 0 (IZR z)); [lra|]. destruct (Rle_dec 0 (- IZR z)); [|lra]. rewrite E. lia.
Qed.

(** Exponents that are neither integers nor booleans (nor absent). *)
Definition not_int (v : option kwval) : bool := match v with Some (KReal _) | Some (KText _) => true | _ => false end.

Lemma cast_w_ok name kw rest x : as_exp (dget kw name) = Ok x ->
  cast_w name kw rest = if not_int (dget kw name) then w_cast name :: rest else rest.
Proof.
  unfold cast_w. destruct (dget kw name) as [[|b|z|y|t]|]; cbn [as_exp as_num not_int]; intros H; try reflexivity; [discriminate H|].
  destruct (py_int (list_ascii_of_string t)); [reflexivity|discriminate H].
Qed.

(** The warnings come in the order alpha, beta, gamma, each at most once; the first exponent that is no number ends it. *)
Theorem C118_exponent_order : forall kw,
  ((forall name, In name ["alpha"; "beta"; "gamma"]%string -> exists x, as_exp (dget kw name) = Ok x) ->
   ssim_casts kw = map (fun name => Warned RuntimeWarning (name ++ " is not an integer. Cast to int.")%string)
     (filter (fun name => not_int (dget kw name)) ["alpha"%string; "beta"%string; "gamma"%string])) /\
  (forall e, as_exp (dget kw "alpha") = Err e -> ssim_casts kw = []) /\
  (forall x e, as_exp (dget kw "alpha") = Ok x -> as_exp (dget kw "beta") = Err e ->
     ssim_casts kw = if not_int (dget kw "alpha") then [Warned RuntimeWarning "alpha is not an integer. Cast to int."] else []).
Proof.
  intros kw. assert (B : forall name rest e, as_exp (dget kw name) = Err e -> cast_w name kw rest = []).
  { intros name rest e H. unfold cast_w. destruct (dget kw name) as [[|b|z|y|t]|]; cbn [as_exp as_num] in H; try discriminate H; [reflexivity|].
    destruct (py_int (list_ascii_of_string t)); [discriminate H|reflexivity]. }
  split; [|split].
  - intros H. destruct (H "alpha"%string) as (x & Hx); [cbn; tauto|]. destruct (H "beta"%string) as (y & Hy); [cbn; tauto|].
    destruct (H "gamma"%string) as (z & Hz); [cbn; tauto|]. unfold ssim_casts.
    rewrite (cast_w_ok _ _ _ x Hx), (cast_w_ok _ _ _ y Hy), (cast_w_ok _ _ _ z Hz). cbn [filter].
    destruct (not_int (dget kw "alpha")), (not_int (dget kw "beta")), (not_int (dget kw "gamma")); reflexivity.
  - intros e H. unfold ssim_casts. eapply B. exact H.
  - intros x e Hx H. unfold ssim_casts. rewrite (cast_w_ok _ _ _ x Hx), (B _ _ _ H). reflexivity.
Qed.
Print Assumptions C118_exponent_order.

(** Every exponent that is changed by the cast is warned about; so is 1.0, which is not changed, and so are texts. *)
Theorem C118_exponents : forall shape kw P, ssim_setup shape kw = Ok P ->
  forall name used, In (name, used) [("alpha"%string, p_al P); ("beta"%string, p_be P); ("gamma"%string, p_ga P)] ->
  exists x, as_exp (dget kw name) = Ok x /\ used = Rtrunc x /\
    (IZR used <> x -> In (w_cast name) (ssim_casts kw)) /\
    (In (w_cast name) (ssim_casts kw) <-> dget kw name = Some (KReal x) \/ exists t, dget kw name = Some (KText t)).
Proof.
  intros shape kw P H.
  assert (E : exists al be ga, as_exp (dget kw "alpha") = Ok al /\ as_exp (dget kw "beta") = Ok be /\
              as_exp (dget kw "gamma") = Ok ga /\ p_al P = Rtrunc al /\ p_be P = Rtrunc be /\ p_ga P = Rtrunc ga).
  { unfold ssim_setup in H. cbv zeta in H.
    repeat match type of H with
           | bind ?m _ = Ok _ => let E := fresh "E" in destruct m eqn:E; [cbn [bind] in H|discriminate H]
           | (if ?b then _ else _) = Ok _ => destruct b; try discriminate H
           end.
    all: injection H as <-; do 3 eexists; repeat split; eassumption. }
  destruct E as (al & be & ga & Ea & Eb & Eg & Pa & Pb & Pg).
  assert (C : forall name, In name ["alpha"; "beta"; "gamma"]%string ->
            (In (w_cast name) (ssim_casts kw) <-> not_int (dget kw name) = true)).
  { intros name Hn. rewrite (proj1 (C118_exponent_order kw))
      by (intros n Hn'; cbn in Hn'; destruct Hn' as [<-|[<-|[<-|[]]]]; eauto).
    rewrite in_map_iff. split.
    - intros (n & I & Hf). apply filter_In in Hf as [_ Hf]. assert (n = name) as <-; [|exact Hf].
      unfold w_cast in I. injection I as I. revert I. generalize " is not an integer. Cast to int."%string as t.
      clear. revert name. induction n as [|c n IH]; intros [|d name] t; cbn [String.append]; intros I.
      + reflexivity.
      + exfalso. apply (f_equal String.length) in I. cbn in I. rewrite slen_app in I. lia.
      + exfalso. apply (f_equal String.length) in I. cbn in I. rewrite slen_app in I. lia.
      + injection I as -> I. f_equal. apply IH with t. exact I.
    - intros Hf. exists name. split; [reflexivity|]. apply filter_In. auto. }
  assert (F : forall name x, In name ["alpha"; "beta"; "gamma"]%string -> as_exp (dget kw name) = Ok x ->
            (IZR (Rtrunc x) <> x -> In (w_cast name) (ssim_casts kw)) /\
            (In (w_cast name) (ssim_casts kw) <-> dget kw name = Some (KReal x) \/ exists t, dget kw name = Some (KText t))).
  { intros name x N X. rewrite (C name N).
    destruct (dget kw name) as [[|b|z|y|t]|]; cbn [as_exp as_num not_int] in *; try discriminate X.
    - injection X as <-. split; [|split; [discriminate|intros [E|(t & E)]; discriminate E]].
      intros T. exfalso. apply T. destruct b; apply f_equal; [apply (Rtrunc_int 1)|apply (Rtrunc_int 0)].
    - injection X as <-. split; [|split; [discriminate|intros [E|(t & E)]; discriminate E]].
      intros T. exfalso. apply T. apply f_equal, Rtrunc_int.
    - injection X as <-. split; [reflexivity|]. split; [left; reflexivity|reflexivity].
    - split; [reflexivity|]. split; [right; exists t; reflexivity|reflexivity].
    - injection X as <-. split; [|split; [discriminate|intros [E|(t & E)]; discriminate E]].
      intros T. exfalso. apply T. apply f_equal, (Rtrunc_int 1). }
  intros name used [I|[I|[I|[]]]]; injection I as <- <-.
  - exists al. split; [exact Ea|]. split; [exact Pa|]. rewrite Pa. apply F; [cbn; auto|exact Ea].
  - exists be. split; [exact Eb|]. split; [exact Pb|]. rewrite Pb. apply F; [cbn; auto|exact Eb].
  - exists ga. split; [exact Eg|]. split; [exact Pg|]. rewrite Pg. apply F; [cbn; auto|exact Eg].
Qed.
Print Assumptions C118_exponents.

(** ** C119: dim and im_slice *)

Definition dim_of (d : dim_arg) : dimval :=
  match d with DANone => DNone | DANum z => DNum z | DAOther _ => DOther end.
Definition slice_of (s : slice_arg) : slval :=
  match s with SANone => SlNone | SAInt z => SlInt z | SAOther _ => SlOther end.
Definition piq_metric (k : piq_kind) : slice_metric :=
  match k with KMSSSIM => WMSSSIM | KFSIM => WFSIM | KVIFp => WVIFp | KVSI => WVSI end.

(** The choice is the one made in the score methods of [SliceModel.v]. *)
Theorem C119_piq : forall A (f : arr A -> arr A -> res ext) k chromatic d s r m,
  piq_score f k chromatic (dim_of d) (slice_of s) r m =
  match snd (choose (piq_metric k) (shp r) d s) with
  | OneSlice ax i => let* rs := take_axis ax i r in let* ms := take_axis ax i m in piq_pair f chromatic rs ms
  | WholeVolume | Plane => piq_pair f chromatic r m
  | Refused _ => Err ValueError
  end.
Proof.
  intros A f k chromatic d s r m. unfold piq_score, choose.
  assert (E : colour_aware (piq_metric k) = rgb_aware k) by (destruct k; reflexivity). rewrite E.
  destruct (_ && negb _).
  - destruct d as [|z|b]; destruct s as [|i|b']; try reflexivity.
    all: destruct z as [|p|p]; [reflexivity| |reflexivity]; destruct p as [p|p|]; try reflexivity; destruct p; reflexivity.
  - destruct (_ || _); reflexivity.
Qed.
Print Assumptions C119_piq.

Theorem C119_own : forall A (g : arr A -> arr A -> res ext) k experimental d s r m, k = WMAD \/ k = WGSM ->
  own_score g experimental (dim_of d) (slice_of s) r m =
  match snd (choose k (shp r) d s) with
  | OneSlice ax i => let* rs := take_axis ax i r in let* ms := take_axis ax i m in g rs ms
  | WholeVolume => if experimental then g r m else slice_mean g (dim_of d) r m
  | Plane => g r m
  | Refused _ => Err ValueError
  end.
Proof.
  intros A g k experimental d s r m K. unfold own_score, choose.
  assert (E : colour_aware k = false) by (destruct K as [->| ->]; reflexivity). rewrite E. cbn [andb negb].
  rewrite andb_true_r, orb_false_r.
  destruct (length (shp r) =? 3).
  - destruct d as [|z|b]; destruct s as [|i|b']; try reflexivity.
    all: destruct z as [|p|p]; [reflexivity| |reflexivity]; destruct p as [p|p|]; try reflexivity; destruct p; reflexivity.
  - destruct (_ =? 2); reflexivity.
Qed.
Print Assumptions C119_own.

(** Volumes: not the colour images of the metrics that know them. *)
Definition volume (k : slice_metric) (shape : list nat) : Prop :=
  length shape = 3 /\ (colour_aware k = true -> last shape 0 <> 3).

Lemma volume_spec k shape :
  (length shape =? 3) && negb (colour_aware k && ((length shape =? 3) && (last shape 0 =? 3))) = true <-> volume k shape.
Proof.
  unfold volume. destruct (Nat.eqb_spec (length shape) 3), (colour_aware k), (Nat.eqb_spec (last shape 0) 3); cbn;
    (split; [intros H|intros [H1 H2]]); try discriminate H; try contradiction; try reflexivity;
    try (exfalso; apply H2; [reflexivity|assumption]); (split; [assumption|]); intros C; try discriminate C; assumption.
Qed.

Lemma choose_volume k shape d s : volume k shape ->
  choose k shape d s =
  match d with
  | DANone => ([], Refused (refusal k s))
  | _ => match s with
         | SAInt i => ([], match axis_of (dim_of d) with Ok ax => OneSlice ax i | Err _ => Refused msg_dim end)
         | SANone => ([w_full k], WholeVolume)
         | SAOther _ => ([], Refused (refusal k s))
         end
  end.
Proof.
  intros V. apply volume_spec in V. unfold choose. rewrite V.
  destruct d as [|z|b]; destruct s as [|i|b']; try reflexivity.
  all: destruct z as [|p|p]; [reflexivity| |reflexivity]; destruct p as [p|p|]; try reflexivity; destruct p; reflexivity.
Qed.

Lemma axis_of_num z : axis_of (DNum z) = if ((0 <=? z) && (z <=? 2))%Z then Ok (Z.to_nat z) else Err ValueError.
Proof.
  destruct (Z.leb_spec 0 z); [|destruct z; try lia; reflexivity].
  destruct (Z.leb_spec z 2).
  - assert (z = 0 \/ z = 1 \/ z = 2)%Z as [->|[->| ->]] by lia; reflexivity.
  - destruct z as [|p|p]; try lia. destruct p as [p|p|]; try lia; try reflexivity. destruct p; try lia; reflexivity.
Qed.

(** One warning at most; "full volume" exactly when the volume is scored as a whole. *)
Theorem C119_volume : forall k shape d s, volume k shape ->
  (fst (choose k shape d s) = [w_full k] <-> snd (choose k shape d s) = WholeVolume) /\
  (snd (choose k shape d s) = WholeVolume <-> d <> DANone /\ s = SANone) /\
  (snd (choose k shape d s) <> WholeVolume -> fst (choose k shape d s) = []).
Proof.
  intros k shape d s V. rewrite (choose_volume _ _ _ _ V).
  destruct d as [|z|b]; destruct s as [|i|b']; cbn [fst snd];
    try (destruct (axis_of _)); repeat split; try discriminate; try congruence; intros [? ?]; congruence.
Qed.
Print Assumptions C119_volume.

(** Planes: the arguments are never used, and this is said exactly if one of them is true. *)
Theorem C119_plane : forall k shape d s, ~ volume k shape -> length shape = 2 \/ length shape = 3 ->
  snd (choose k shape d s) = Plane /\
  (fst (choose k shape d s) = [w_ignored] <-> dim_truth d = true \/ slice_truth s = true) /\
  (fst (choose k shape d s) = [w_ignored] \/ fst (choose k shape d s) = []).
Proof.
  intros k shape d s V L. rewrite <- volume_spec in V. apply not_true_is_false in V. unfold choose. rewrite V.
  assert (E : (length shape =? 2) || colour_aware k && ((length shape =? 3) && (last shape 0 =? 3)) = true).
  { destruct L as [L|L]; rewrite L in *; [reflexivity|]. cbn in V |- *. destruct (colour_aware k && _); [reflexivity|discriminate V]. }
  rewrite E. cbn [fst snd]. split; [reflexivity|].
  destruct (dim_truth d), (slice_truth s); cbn [orb]; repeat split; auto; try discriminate; intros [H|H]; discriminate H.
Qed.
Print Assumptions C119_plane.

(** dim=0 and im_slice=0 are ignored without the warning. *)
Theorem C119_plane_refuted : exists d s, d <> DANone /\ s <> SANone /\
  forall k n m, choose k [n; m] d s = ([], Plane).
Proof.
  exists (DANum 0), (SAInt 0). split; [discriminate|]. split; [discriminate|]. intros k n m.
  unfold choose. cbn [length Nat.eqb andb orb]. reflexivity.
Qed.
Print Assumptions C119_plane_refuted.

(** Volumes are refused exactly without dim, with an int slice of another axis than 0, 1, 2, or
    with a slice that is neither an int nor None. *)
Theorem C119_refused : forall k shape d s, volume k shape ->
  ((exists msg, snd (choose k shape d s) = Refused msg) <->
   d = DANone \/ (exists b, s = SAOther b) \/
   (exists i, s = SAInt i) /\ ~ (exists z, d = DANum z /\ (0 <= z <= 2)%Z)) /\
  (forall ax i, snd (choose k shape d s) = OneSlice ax i <-> ax < 3 /\ d = DANum (Z.of_nat ax) /\ s = SAInt i).
Proof.
  intros k shape d s V. rewrite (choose_volume _ _ _ _ V). split.
  - destruct d as [|z|b]; destruct s as [|i|b']; cbn [fst snd dim_of]; try (split; [intros _; left; reflexivity|intros _; eexists; reflexivity]);
      try (split; [intros _; right; left; eexists; reflexivity|intros _; eexists; reflexivity]);
      try (split; [intros [msg E]; discriminate E|intros [E|[[b0 E]|[[i0 E] _]]]; discriminate E]).
    + rewrite axis_of_num. destruct (Z.leb_spec 0 z), (Z.leb_spec z 2); cbn [andb]; split;
        try (intros [msg E]; discriminate E);
        try (intros [E|[[b0 E]|[_ N]]]; [discriminate E|discriminate E|exfalso; apply N; exists z; split; [reflexivity|lia]]);
        try (intros _; eexists; reflexivity);
        intros _; right; right; (split; [eexists; reflexivity|]); intros (z' & E & B); injection E as <-; lia.
    + split; [|intros _; eexists; reflexivity]. intros _. right. right. split; [eexists; reflexivity|].
      intros (z & E & _). discriminate E.
  - intros ax i. destruct d as [|z|b]; destruct s as [|i'|b']; cbn [fst snd dim_of];
      try (split; [intros E; discriminate E|intros (_ & E1 & E2); discriminate]).
    rewrite axis_of_num. destruct (Z.leb_spec 0 z), (Z.leb_spec z 2); cbn [andb]; split; try discriminate;
      try (intros (L & E & E'); injection E as ->; lia).
    + intros E. injection E as <- <-. rewrite Z2Nat.id by lia. repeat split. lia.
    + intros (L & E & E'). injection E as ->. injection E' as ->. rewrite Nat2Z.id. reflexivity.
Qed.
Print Assumptions C119_refused.

(** The message without dim: FSIM blames im_slice exactly if it is neither an int nor None;
    MS-SSIM, VIFp, VSI and GSM also if it is None, MAD always. *)
Theorem C119_message : forall k shape s, volume k shape ->
  exists msg, choose k shape DANone s = ([], Refused msg) /\
    (msg = msg_both <->
     match k with
     | WFSIM => s = SANone \/ exists i, s = SAInt i
     | WMAD => False
     | _ => exists i, s = SAInt i
     end) /\
    (msg <> msg_both -> msg = if match k with WMAD => true | _ => false end then msg_slice_none else msg_slice).
Proof.
  intros k shape s V. rewrite (choose_volume _ _ _ _ V). exists (refusal k s). split; [reflexivity|].
  destruct k; cbn [refusal]; destruct s as [|i|b]; split; try (split; [discriminate|]); try tauto; try congruence;
    try (intros [E|[i' E]]; discriminate E); try (intros [i' E]; discriminate E).
  all: try (split; [intros _; eauto|reflexivity]).
Qed.
Print Assumptions C119_message.

(** Without dim and im_slice the message asks for an integer im_slice, although im_slice is optional. *)
Theorem C119_message_refuted : exists k, forall n m p, p <> 3 ->
  choose k [n; m; p] DANone SANone = ([], Refused msg_slice) /\
  exists es, choose k [n; m; p] (DANum 0) SANone = (es, WholeVolume).
Proof.
  exists WMSSSIM. intros n m p H. unfold choose. cbn [length last colour_aware Nat.eqb andb].
  destruct (Nat.eqb_spec p 3) as [E|E]; [contradiction|]. cbn [andb negb]. split; [reflexivity|]. eexists. reflexivity.
Qed.
Print Assumptions C119_message_refuted.

(** ** Examples *)

Example C118_example :
  fst (load_data_w (fun _ => Err FileNotFoundError) Z.eqb (fun _ => 0%Z) (InArray (Img (UInt 8) (PI (Arr [1; 1] [5%Z]))))
         (Some 255%Z) false false [(0, 1); (0, 1); (0, 1)]%Z) = [w_range; w_cropped].
Proof. reflexivity. Qed.
Example C118_mad_example : fst (mad_betas (467 / 1000) (130 / 1000) (Some (255 / 100)%R) (Some (335 / 100)%R)) = [w_betas].
Proof.
  apply (C118_thresholds (467 / 1000) (130 / 1000) (Some (255 / 100)%R) (Some (335 / 100)%R)).
  split; eexists; (split; [reflexivity|lra]).
Qed.
Example C119_example : choose WMAD [4; 5; 6] (DANum 1) SANone = ([w_full WMAD], WholeVolume) /\
  choose WVSI [4; 5; 3] (DANum 5) (SAInt 2) = ([], Refused msg_dim) /\
  choose WFSIM [4; 5; 3] (DANum 5) (SAInt 2) = ([w_ignored], Plane).
Proof. repeat split. Qed.
