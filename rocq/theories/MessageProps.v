(** C136: the texts of the exceptions. *)
From Coq Require Import Reals String Ascii Lra Lia.
From Verif Require Import Base NdArray LoadModel NormModel NormProofs PairModel PairProofs MetricModel
  SliceModel SsimModel MadModel RegionModel NrModel PrintModel BatchModel BatchProofs WarnModel MessageModel.

(** ** The exception classes are those of the other models *)

Lemma unsaid_bind {A B} (m : said A) (k : A -> said B) :
  unsaid (sbind m k) = bind (unsaid m) (fun a => unsaid (k a)).
Proof. destruct m; reflexivity. Qed.

Lemma unsaid_lift {A} (r : res A) : unsaid (lift r) = r.
Proof. destruct r; reflexivity. Qed.

Lemma finish_same lo hi (o : res norm_out) :
  (known_range lo hi = false -> o = Err ValueError) -> unsaid (finish_m lo hi o) = o.
Proof.
  unfold finish_m. destruct (known_range lo hi); intros H; [apply unsaid_lift|]. rewrite H; reflexivity.
Qed.

Lemma unknown_range lo hi : known_range lo hi = false ->
  ((hi =? 2 ^ 8 - 1) && (lo =? 0) = false)%Z /\ ((hi =? 2 ^ 16 - 1) && (lo =? 0) = false)%Z /\
  ((hi =? 1) && (lo =? 0) = false)%Z.
Proof.
  unfold known_range. change (2 ^ 8 - 1)%Z with 255%Z. change (2 ^ 16 - 1)%Z with 65535%Z.
  destruct (lo =? 0)%Z, (hi =? 255)%Z, (hi =? 65535)%Z, (hi =? 1)%Z; intros [=]; auto.
Qed.

Lemma normalize_same ident ub im lo hi auto :
  unsaid (normalize_m ident ub im lo hi auto) = normalize_data ident ub im lo hi auto.
Proof.
  assert (F : forall s l, known_range lo hi = false -> finish ub lo hi s l = Err ValueError).
  { intros s l K. apply unknown_range in K as (A & B & C). unfold finish. rewrite A, B, C. reflexivity. }
  assert (G : forall s, known_range lo hi = false -> finish_nan lo hi s = Err ValueError).
  { intros s K. apply unknown_range in K as (A & B & C). unfold finish_nan. rewrite A, B, C. reflexivity. }
  unfold normalize_m, normalize_data.
  destruct (dt im); try reflexivity;
    destruct (already_normalised ident _ lo hi); try reflexivity;
    (destruct (px im) as [a|a]; rewrite unsaid_bind;
     (match goal with |- bind (unsaid ?x) _ = bind ?y _ =>
        replace (unsaid x) with y by (destruct auto as [[|]|]; try reflexivity; symmetry; apply unsaid_lift) end);
     (match goal with |- bind ?y _ = bind ?y _ => destruct y as [[u v]|]; [|reflexivity] end); cbn [bind];
     apply finish_same; intros K;
     [destruct (v =? 0)%Z|destruct (Req_EM_T v u)]; [apply G|apply F|apply G|apply F]; exact K).
Qed.

Lemma crop_checked_same {A} (a : arr A) r : unsaid (crop_checked_m a r) = crop_checked a r.
Proof.
  unfold crop_checked_m, crop_checked. rewrite unsaid_bind, unsaid_lift.
  destruct (vec_all Z.ltb _ _) as [[|]|]; cbn [bind]; [apply unsaid_lift| |reflexivity].
  rewrite unsaid_bind, unsaid_lift. destruct (vec_all Z.eqb _ _) as [[|]|]; reflexivity.
Qed.

Lemma crop_image_same {A} (a : arr A) x y z : unsaid (crop_image_m a x y z) = crop_image a x y z.
Proof.
  unfold crop_image_m, crop_image. destruct (_ || _); [apply crop_checked_same|].
  destruct (_ =? 3); [|reflexivity]. destruct z; [apply crop_checked_same|reflexivity].
Qed.

Lemma crop_roi_same o roi : unsaid (crop_roi_m o roi) = crop_roi o roi.
Proof.
  assert (C : forall x y z, unsaid (crop_out_m o x y z) = crop_out o x y z).
  { intros. destruct o as [[d [a|a]]|d s]; cbn [crop_out_m crop_out];
      rewrite unsaid_bind, crop_image_same; reflexivity. }
  destruct roi as [|x [|y [|z [|w roi]]]]; try reflexivity; cbn [crop_roi_m crop_roi]; apply C.
Qed.

Lemma prepare_same ident ub norm dr roi im :
  unsaid (prepare_m ident ub norm dr roi im) = prepare ident ub norm dr roi im.
Proof.
  unfold prepare_m, prepare. rewrite unsaid_bind.
  assert (R : forall o, unsaid (match roi with [] => Good o | _ => crop_roi_m o roi end)
                        = match roi with [] => Ok o | _ => crop_roi o roi end).
  { intros o. destruct roi; [reflexivity|apply crop_roi_same]. }
  destruct dr as [hi|]; [|apply R].
  destruct (norm && negb (hi =? 0)%Z); [|apply R].
  rewrite normalize_same. destruct (normalize_data _ _ _ _ _ _); [apply R|reflexivity].
Qed.

Lemma check_dims_same s : unsaid (check_dims_m s) = check_dims s.
Proof. unfold check_dims_m, fail_if, check_dims, raise_if. destruct (_ || _); reflexivity. Qed.
Lemma check_dims_list_same k s : unsaid (check_dims_list_m k s) = check_dims s.
Proof. unfold check_dims_list_m, fail_if, check_dims, raise_if. destruct (_ || _); reflexivity. Qed.

Theorem C136_load_same : forall disk ident ub img dr norm batch roi,
  unsaid (load_data_m disk ident ub img dr norm batch roi)
  = load_data (fun name => unsaid (disk name)) ident ub img dr norm batch roi.
Proof.
  intros disk ident ub img dr norm batch roi. unfold load_data_m, load_data.
  destruct batch; [reflexivity|]. destruct (norm && _); [reflexivity|].
  destruct img as [name|im|[|im [|]]|]; try reflexivity; rewrite unsaid_bind.
  - destruct (unsaid (disk name)) as [im|]; [|reflexivity]. cbn [bind].
    rewrite unsaid_bind, check_dims_same. destruct (check_dims _); [|reflexivity]. cbn [bind].
    rewrite unsaid_bind, prepare_same. reflexivity.
  - rewrite check_dims_same. destruct (check_dims _); [|reflexivity]. cbn [bind].
    rewrite unsaid_bind, prepare_same. reflexivity.
  - rewrite check_dims_list_same. destruct (check_dims _); [|reflexivity]. cbn [bind].
    rewrite unsaid_bind, prepare_same. reflexivity.
Qed.
Print Assumptions C136_load_same.

Theorem C136_pair_same : forall disk ident ub r m dr norm roi chromatic,
  unsaid (check_imgs_m disk ident ub r m dr norm roi chromatic)
  = check_imgs (fun name => unsaid (disk name)) ident ub r m dr norm roi chromatic.
Proof.
  intros. unfold check_imgs_m, check_imgs. rewrite unsaid_bind, C136_load_same.
  destruct (load_data _ ident ub r dr norm false roi) as [r'|]; [|reflexivity]. cbn [bind].
  rewrite unsaid_bind, C136_load_same.
  destruct (load_data _ ident ub m dr norm false roi) as [m'|]; [|reflexivity]. cbn [bind].
  unfold check_loaded_m, check_loaded. destruct r' as [r'|lr], m' as [m'|lm]; try reflexivity.
  - destruct (negb (dtype_eqb _ _)); [reflexivity|]. destruct (negb (shape_eqb _ _)); [reflexivity|].
    destruct (negb chromatic && _); [apply unsaid_lift|]. destruct (chromatic && _); reflexivity.
  - destruct (negb _); [reflexivity|]. destruct lr, lm; reflexivity.
Qed.
Print Assumptions C136_pair_same.

Theorem C136_construct_same : forall c data_range normalize kwargs,
  unsaid (construct_m c data_range normalize kwargs) = construct c data_range normalize kwargs.
Proof.
  intros. unfold construct_m. destruct (needs_range c && _) eqn:E1; [unfold construct; rewrite E1; reflexivity|].
  destruct (truthy normalize && _) eqn:E2; [unfold construct; rewrite E1, E2; reflexivity|]. apply unsaid_lift.
Qed.
Print Assumptions C136_construct_same.

Theorem C136_ssim_same : forall shape kw, unsaid (ssim_setup_m shape kw) = ssim_setup shape kw.
Proof.
  intros shape kw. unfold ssim_setup_m. rewrite unsaid_bind, unsaid_lift. unfold ssim_setup at 2.
  destruct (as_num (dget kw "K1") (1 / 100)) as [k1|] eqn:E1; [|reflexivity]. cbn [bind].
  destruct (Rlt_dec k1 0) as [L1|L1]; [reflexivity|]. rewrite unsaid_bind, unsaid_lift.
  destruct (as_num (dget kw "K2") (3 / 100)) as [k2|] eqn:E2; [|reflexivity]. cbn [bind].
  destruct (Rlt_dec k2 0) as [L2|L2]; [reflexivity|]. rewrite unsaid_bind, unsaid_lift.
  destruct (as_num (dget kw "sigma") (15 / 10)) as [sg|] eqn:E3; [|reflexivity]. cbn [bind].
  destruct (Rlt_dec sg 0) as [L3|L3]; [reflexivity|].
  rewrite unsaid_bind, unsaid_lift. destruct (win_arg (dget kw "win_size")) as [w|] eqn:E4; [|reflexivity]. cbn [bind].
  cbv zeta. destruct (existsb _ shape) eqn:E5; [reflexivity|].
  destruct (negb (_ mod 2 =? 1)%Z) eqn:E6; [reflexivity|].
  rewrite unsaid_lift. unfold ssim_setup. rewrite E1. cbn [bind]. destruct (Rlt_dec k1 0); [contradiction|].
  rewrite E2. cbn [bind]. destruct (Rlt_dec k2 0); [contradiction|]. rewrite E3. cbn [bind].
  destruct (Rlt_dec sg 0); [contradiction|]. rewrite E4. cbn [bind]. cbv zeta. rewrite E5, E6. reflexivity.
Qed.
Print Assumptions C136_ssim_same.

Theorem C136_mad_same : forall m n bs ov, unsaid (stride_m m n bs ov) = stride_of m n bs ov.
Proof.
  intros. unfold stride_m, stride_of. destruct (_ || _); [reflexivity|]. destruct (0 <? bs)%Z; [|reflexivity].
  destruct (Rle_dec 1 ov); [reflexivity|]. destruct (Rlt_dec ov 0); reflexivity.
Qed.
Print Assumptions C136_mad_same.

Lemma check_border_same name c r : unsaid (check_border_m name c r) = check_border c r.
Proof.
  induction c as [|[z|] c IH]; try reflexivity. cbn [check_border_m check_border]. rewrite unsaid_bind.
  destruct r as [r|x|]; cbn [unsaid]; unfold fail_if, raise_if;
    [destruct (Z.abs z - r <? 0)%Z|destruct (Rlt_dec _ 0)|]; try reflexivity;
    cbn [unsaid bind]; rewrite unsaid_bind, IH; reflexivity.
Qed.

Lemma make_region_same kind img c r : unsaid (make_region_m kind img c r) = make_region kind img c r.
Proof. unfold make_region_m. destruct kind; try apply unsaid_lift. reflexivity. Qed.

Lemma check_radius_same t r : unsaid (check_radius_m t r) = check_radius r.
Proof. destruct r as [r| |]; try reflexivity. cbn [check_radius_m check_radius]. destruct (r <=? 0)%Z; reflexivity. Qed.

Theorem C136_cnr_same : forall mk nobg img bc sc rad kind iterations,
  unsaid (cnr_m mk img bc sc rad kind) = cnr mk nobg img bc sc rad kind false iterations.
Proof.
  intros. unfold cnr_m, cnr. cbn [bind]. rewrite unsaid_bind, check_border_same.
  destruct (check_border sc rad) as [sz|]; [|reflexivity]. cbn [bind]. rewrite unsaid_bind, check_border_same.
  destruct (check_border bc rad) as [bz|]; [|reflexivity]. cbn [bind]. rewrite unsaid_bind, check_radius_same.
  destruct (check_radius rad) as [r|]; [|reflexivity]. cbn [bind].
  destruct (_ || _); [reflexivity|]. rewrite unsaid_bind, make_region_same.
  destruct (make_region kind img sz r); [|reflexivity]. cbn [bind]. rewrite unsaid_bind, make_region_same.
  reflexivity.
Qed.
Print Assumptions C136_cnr_same.

Theorem C136_snr_same : forall mk nobg img sc rad kind iterations lower upper yuv,
  is_colour (shp img) = false ->
  unsaid (snr_m mk img sc rad kind) = snr mk nobg img sc rad kind false iterations lower upper yuv.
Proof.
  intros mk nobg img sc rad kind it lo up yuv Hc. unfold snr_m, snr. cbn [bind]. rewrite unsaid_bind, check_border_same.
  destruct (check_border sc rad) as [sz|]; [|reflexivity]. cbn [bind]. rewrite unsaid_bind, check_radius_same.
  destruct (check_radius rad) as [r|]; [|reflexivity]. cbn [bind]. rewrite Hc. unfold snr_dims, raise_if.
  destruct (shp img) as [|n s] eqn:Es; [reflexivity|].
  destruct (negb _); [reflexivity|]. cbn [bind]. unfold snr_grey. rewrite unsaid_bind, make_region_same. reflexivity.
Qed.
Print Assumptions C136_snr_same.

(** ** load_data *)

Lemma crop_texts {A} (a : arr A) x y z e t : crop_image_m a x y z = Fail e (Some t) ->
  In t [msg_crop; msg_crop_ndim].
Proof.
  unfold crop_image_m.
  assert (K : forall r, crop_checked_m a r = Fail e (Some t) -> In t [msg_crop; msg_crop_ndim]).
  { intros r. unfold crop_checked_m. destruct (vec_all Z.ltb _ _) as [[|]|]; cbn [lift sbind]; [| |discriminate].
    - destruct (slice a r); discriminate.
    - destruct (vec_all Z.eqb _ _) as [[|]|]; cbn [lift sbind]; try discriminate. intros [= _ <-]. simpl. auto. }
  destruct (_ || _); [apply K|].
  destruct (_ =? 3); [destruct z; [apply K|]|]; intros [= _ <-]; simpl; auto.
Qed.

Lemma normalize_texts ident ub im lo hi e t : normalize_m ident ub im lo hi None = Fail e (Some t) ->
  In t [msg_type; msg_output].
Proof.
  unfold normalize_m, finish_m.
  destruct (dt im); [| | |intros [= _ <-]; simpl; auto]; destruct (already_normalised ident _ lo hi); try discriminate;
    destruct (px im) as [a|a]; cbn [sbind];
    match goal with |- context [lift ?r] => destruct r as [[u v]|] end; cbn [lift sbind]; try discriminate;
    destruct (known_range lo hi); try (intros [= _ <-]; simpl; auto; fail);
    match goal with |- context [lift ?r] => destruct r end; discriminate.
Qed.

Lemma prepare_texts ident ub norm dr roi im e t : prepare_m ident ub norm dr roi im = Fail e (Some t) ->
  In t [msg_type; msg_output; msg_crop; msg_crop_ndim].
Proof.
  intros H.
  assert (Q : forall o, match roi with [] => Good o | _ => crop_roi_m o roi end = Fail e (Some t) ->
                        In t [msg_crop; msg_crop_ndim]).
  { intros o Ho. destruct roi as [|x [|y [|z [|w roi']]]]; try discriminate;
      destruct o as [[d [a|a]]|d s]; cbn [crop_roi_m crop_out_m] in Ho;
      match type of Ho with context [crop_image_m ?a ?x ?y ?z] =>
        pose proof (crop_texts a x y z e t) as C; destruct (crop_image_m a x y z) end;
      cbn [sbind] in Ho; try discriminate; apply C; congruence. }
  unfold prepare_m in H. destruct dr as [hi|]; [|apply Q in H; simpl in *; tauto].
  destruct (norm && negb (hi =? 0)%Z); [|apply Q in H; simpl in *; tauto].
  destruct (normalize_m ident ub im 0 hi None) as [o|e' t'] eqn:E; [apply Q in H; simpl in *; tauto|].
  cbn [sbind] in H. injection H as -> ->. apply normalize_texts in E. simpl in *. tauto.
Qed.

(** All texts load_data can give, apart from those of the file readers. *)
Theorem C136_load_texts : forall disk ident ub img dr norm batch roi e t,
  load_data_m disk ident ub img dr norm batch roi = Fail e (Some t) ->
  (exists name, img = InPath name /\ disk name = Fail e (Some t)) \/
  In t ["Batch loading is deprecated and will be removed in vIQA 4.0.x.";
        "Parameter data_range must be set if normalize is True.";
        "Input type not supported"; "Data type not supported";
        "Data range not supported. Please use (0, 1), (0, 255) or (0, 65535) as data_range_output.";
        "Cropped image shape must be smaller than original image."; "Image must be 2D or 3D."]%string \/
  exists n, n <> 2 /\ n <> 3 /\
    (t = "Number of dimensions of input image should be 2 or 3, got " ++ show n ++ "." \/
     t = "Number of dimensions of input image should be 2 or 3, got " ++ show n ++ " for image number 0 in img_arr.")%string.
Proof.
  intros disk ident ub img dr norm batch roi e t. unfold load_data_m.
  destruct batch; [intros [= _ <-]; right; left; simpl; tauto|].
  destruct (norm && _); [intros [= _ <-]; right; left; simpl; tauto|].
  assert (P : forall im (k : norm_out -> loaded),
    (let+ o := prepare_m ident ub norm dr roi im in Good (k o)) = Fail e (Some t) ->
    In t [msg_type; msg_output; msg_crop; msg_crop_ndim]).
  { intros im k H. destruct (prepare_m ident ub norm dr roi im) as [o|e' t'] eqn:E; [discriminate H|].
    cbn [sbind] in H. injection H as -> ->. exact (prepare_texts _ _ _ _ _ _ _ _ E). }
  assert (D : forall s : list nat, (3 <? length s) || (length s <? 2) = true -> length s <> 2 /\ length s <> 3).
  { intros s H. apply orb_true_iff in H as [H|H]; apply Nat.ltb_lt in H; lia. }
  assert (W : In t [msg_type; msg_output; msg_crop; msg_crop_ndim] ->
    In t [msg_batch; msg_range; msg_input; msg_type; msg_output; msg_crop; msg_crop_ndim]) by (simpl; tauto).
  destruct img as [name|im|[|im [|]]|]; try (intros [= _ <-]; right; left; simpl; tauto).
  - destruct (disk name) as [im|e' t'] eqn:Ed; cbn [sbind]; [|intros [= -> ->]; eauto].
    unfold check_dims_m, fail_if. destruct (_ || _) eqn:Es; cbn [sbind].
    + intros [= _ <-]. right; right. exists (length (shape im)). apply D in Es. split; [tauto|]. split; [tauto|].
      left. reflexivity.
    + intros H. right; left. exact (W (P _ _ H)).
  - unfold check_dims_m, fail_if. destruct (_ || _) eqn:Es; cbn [sbind].
    + intros [= _ <-]. right; right. exists (length (shape im)). apply D in Es. split; [tauto|]. split; [tauto|].
      left. reflexivity.
    + intros H. right; left. exact (W (P _ _ H)).
  - unfold check_dims_list_m, fail_if. destruct (_ || _) eqn:Es; cbn [sbind].
    + intros [= _ <-]. right; right. exists (length (shape im)). apply D in Es. split; [tauto|]. split; [tauto|].
      right. reflexivity.
    + intros H. right; left. exact (W (P _ _ H)).
Qed.
Print Assumptions C136_load_texts.

Theorem C136_range : forall disk ident ub img roi,
  load_data_m disk ident ub img None true false roi
  = Fail ValueError (Some "Parameter data_range must be set if normalize is True."%string).
Proof. reflexivity. Qed.
Print Assumptions C136_range.

(** Neither two nor three axes: the number is in the text, and nothing else is looked at. *)
Theorem C136_dims : forall disk ident ub im dr norm roi,
  (norm = true -> dr <> None) -> length (shape im) <> 2 -> length (shape im) <> 3 ->
  load_data_m disk ident ub (InArray im) dr norm false roi
  = Fail ValueError (Some ("Number of dimensions of input image should be 2 or 3, got " ++ show (length (shape im)) ++ "."))%string /\
  load_data_m disk ident ub (InList [im]) dr norm false roi
  = Fail ValueError (Some ("Number of dimensions of input image should be 2 or 3, got " ++ show (length (shape im))
                             ++ " for image number 0 in img_arr."))%string.
Proof.
  intros disk ident ub im dr norm roi Hn H2 H3. unfold load_data_m.
  replace (norm && match dr with Some _ => false | None => true end) with false
    by (destruct norm, dr; try reflexivity; destruct (Hn eq_refl); reflexivity).
  unfold check_dims_m, check_dims_list_m, fail_if.
  replace ((3 <? length (shape im)) || (length (shape im) <? 2)) with true.
  2:{ symmetry. apply orb_true_iff. destruct (Nat.ltb_spec 3 (length (shape im))); [left; reflexivity|right].
      apply Nat.ltb_lt. lia. }
  split; reflexivity.
Qed.
Print Assumptions C136_dims.

Example C136_dims_example : forall disk ident ub,
  load_data_m disk ident ub (InArray (Img (UInt 8) (PI (Arr [2; 1; 1; 1] [0; 5]%Z)))) None false false []
  = Fail ValueError (Some "Number of dimensions of input image should be 2 or 3, got 4."%string).
Proof. reflexivity. Qed.

(** Inputs that are no path, array or list of one array. *)
Theorem C136_input : forall disk ident ub img dr norm roi, (norm = true -> dr <> None) ->
  (load_data_m disk ident ub img dr norm false roi = Fail ValueError (Some "Input type not supported"%string) ->
   (exists name, img = InPath name) \/ img = InOther \/ exists l, img = InList l /\ length l <> 1) /\
  (img = InOther \/ (exists l, img = InList l /\ length l <> 1) ->
   load_data_m disk ident ub img dr norm false roi = Fail ValueError (Some "Input type not supported"%string)).
Proof.
  intros disk ident ub img dr norm roi Hn.
  assert (N : (norm && match dr with Some _ => false | None => true end) = false)
    by (destruct norm, dr; try reflexivity; destruct (Hn eq_refl); reflexivity).
  assert (P : forall im, prepare_m ident ub norm dr roi im <> Fail ValueError (Some msg_input)).
  { intros im H. apply prepare_texts in H. simpl in H. intuition discriminate. }
  unfold load_data_m. rewrite N. split.
  - destruct img as [name|im|l|]; [eauto| | |auto].
    + unfold check_dims_m, fail_if. destruct (_ || _); cbn [sbind]; [discriminate|].
      specialize (P im). destruct (prepare_m ident ub norm dr roi im); cbn [sbind]; [discriminate|].
      intros [= -> ->]. destruct (P eq_refl).
    + destruct l as [|im [|im' l]]; intros H; [right; right; eauto| |right; right; eexists; split; [reflexivity|discriminate]].
      revert H. unfold check_dims_list_m, fail_if. destruct (_ || _); cbn [sbind]; [discriminate|].
      specialize (P im). destruct (prepare_m ident ub norm dr roi im); cbn [sbind]; [discriminate|].
      intros [= -> ->]. destruct (P eq_refl).
  - intros [->|(l & -> & Hl)]; [reflexivity|]. destruct l as [|im [|]]; try reflexivity. destruct Hl. reflexivity.
Qed.
Print Assumptions C136_input.

(** ** _check_imgs *)

(** The first image is looked at first: whatever goes wrong with it is reported. *)
Theorem C136_first : forall disk ident ub r m dr norm roi chromatic e t,
  load_data_m disk ident ub r dr norm false roi = Fail e t ->
  check_imgs_m disk ident ub r m dr norm roi chromatic = Fail e t.
Proof. intros * H. unfold check_imgs_m. rewrite H. reflexivity. Qed.
Print Assumptions C136_first.

(** Two loaded images: the element types are compared first, then the shapes, then the channels; apart
    from that no text. *)
Theorem C136_pair : forall disk ident ub r m dr norm roi chromatic r0 m0,
  load_data_m disk ident ub r dr norm false roi = Good (LOne r0) ->
  load_data_m disk ident ub m dr norm false roi = Good (LOne m0) ->
  let result := check_imgs_m disk ident ub r m dr norm roi chromatic in
  (o_type r0 <> o_type m0 -> result = Fail ValueError (Some "Image types do not match"%string)) /\
  (o_type r0 = o_type m0 -> o_shape r0 <> o_shape m0 ->
     result = Fail ValueError (Some "Image shapes do not match"%string)) /\
  (o_type r0 = o_type m0 -> o_shape r0 = o_shape m0 -> chromatic = true -> last (o_shape r0) 0 <> 3 ->
     result = Fail ValueError (Some "Images are not chromatic."%string)) /\
  (o_type r0 = o_type m0 -> o_shape r0 = o_shape m0 -> (chromatic = true -> last (o_shape r0) 0 = 3) ->
     forall e t, result <> Fail e (Some t)).
Proof.
  intros disk ident ub r m dr norm roi c r0 m0 Hr Hm result.
  assert (E : result = check_loaded_m (LOne r0) (LOne m0) c).
  { unfold result, check_imgs_m. rewrite Hr. cbn [sbind]. rewrite Hm. reflexivity. }
  rewrite E. clear E result. unfold check_loaded_m.
  pose proof (dtype_eqb_eq (o_type r0) (o_type m0)) as T. pose proof (shape_eqb_eq (o_shape r0) (o_shape m0)) as S.
  split; [|split; [|split]].
  - intros H. destruct (dtype_eqb _ _); [destruct H; tauto|reflexivity].
  - intros H1 H2. rewrite (proj2 T H1). destruct (shape_eqb _ _); [destruct H2; tauto|reflexivity].
  - intros H1 H2 -> H3. rewrite (proj2 T H1), (proj2 S H2). apply Nat.eqb_neq in H3. rewrite H3. reflexivity.
  - intros H1 H2 H3 e t. rewrite (proj2 T H1), (proj2 S H2). cbn [negb].
    destruct c; cbn [negb andb].
    + rewrite (H3 eq_refl). discriminate.
    + destruct (_ =? 3); cbn [negb]; [|discriminate]. match goal with |- lift ?x <> _ => destruct x end; discriminate.
Qed.
Print Assumptions C136_pair.

(** One list against one image, and two lists of one image each. The first text was meant to contain the
    two types. Two lists are never accepted, and the shapes are blamed even if they agree. *)
Theorem C136_lists : forall disk ident ub r m dr norm roi chromatic r0 m0,
  (load_data_m disk ident ub r dr norm false roi = Good (LMany [r0]) ->
   load_data_m disk ident ub m dr norm false roi = Good (LOne m0) ->
   check_imgs_m disk ident ub r m dr norm roi chromatic
   = Fail ValueError (Some "Image types do not match. img_r is of type {type(img_r_loaded)} and img_m is of type {type(img_m_loaded)}"%string)) /\
  (load_data_m disk ident ub r dr norm false roi = Good (LMany [r0]) ->
   load_data_m disk ident ub m dr norm false roi = Good (LMany [m0]) ->
   check_imgs_m disk ident ub r m dr norm roi chromatic
   = Fail ValueError (Some (if dtype_eqb (o_type r0) (o_type m0) then "Image shapes do not match"
                            else "Image types do not match"))%string).
Proof.
  intros *. unfold check_imgs_m. split; intros -> Hm; cbn [sbind]; rewrite Hm; reflexivity.
Qed.
Print Assumptions C136_lists.

(** The claim of the second text is wrong for a list compared with itself. *)
Theorem C136_shapes_refuted : exists im, forall disk ident ub,
  check_imgs_m disk ident ub (InList [im]) (InList [im]) None false [] false
  = Fail ValueError (Some "Image shapes do not match"%string).
Proof. exists (Img (UInt 8) (PI (Arr [1; 2] [0; 5]%Z))). reflexivity. Qed.
Print Assumptions C136_shapes_refuted.

Lemma loaded_many disk ident ub img dr norm roi l :
  load_data_m disk ident ub img dr norm false roi = Good (LMany l) -> length l = 1.
Proof.
  unfold load_data_m. destruct (norm && _); [discriminate|].
  destruct img as [name|im|[|im [|]]|]; try discriminate.
  - destruct (disk name); [|discriminate]. cbn [sbind]. destruct (check_dims_m _); [|discriminate]. cbn [sbind].
    destruct (prepare_m _ _ _ _ _ _); discriminate.
  - destruct (check_dims_m _); [|discriminate]. cbn [sbind]. destruct (prepare_m _ _ _ _ _ _); discriminate.
  - destruct (check_dims_list_m _ _); [|discriminate]. cbn [sbind].
    destruct (prepare_m _ _ _ _ _ _); [|discriminate]. cbn [sbind]. intros [= <-]. reflexivity.
Qed.

(** All texts of the comparison. "Number of images do not match..." (986) and "Image format not
    supported." (999) are not among them. *)
Theorem C136_pair_texts : forall disk ident ub r m dr norm roi chromatic e t,
  check_imgs_m disk ident ub r m dr norm roi chromatic = Fail e (Some t) ->
  load_data_m disk ident ub r dr norm false roi = Fail e (Some t) \/
  load_data_m disk ident ub m dr norm false roi = Fail e (Some t) \/
  e = ValueError /\
  In t ["Image types do not match"; "Image shapes do not match"; "Images are not chromatic.";
        "Image types do not match. img_r is of type {type(img_r_loaded)} and img_m is of type {type(img_m_loaded)}"]%string.
Proof.
  intros disk ident ub r m dr norm roi c e t. unfold check_imgs_m.
  destruct (load_data_m disk ident ub r dr norm false roi) as [lr|e' t'] eqn:Er; cbn [sbind]; [|intros [= -> ->]; tauto].
  destruct (load_data_m disk ident ub m dr norm false roi) as [lm|e' t'] eqn:Em; cbn [sbind]; [|intros [= -> ->]; tauto].
  intros H. right; right. unfold check_loaded_m in H.
  destruct lr as [r0|lr], lm as [m0|lm]; try (injection H as <- <-; split; [reflexivity|simpl; tauto]).
  - destruct (negb (dtype_eqb _ _)); [injection H as <- <-; split; [reflexivity|simpl; tauto]|].
    destruct (negb (shape_eqb _ _)); [injection H as <- <-; split; [reflexivity|simpl; tauto]|].
    destruct (negb c && _); [match type of H with lift ?x = _ => destruct x end; discriminate H|].
    destruct (c && _); [injection H as <- <-; split; [reflexivity|simpl; tauto]|discriminate].
  - apply loaded_many in Er. apply loaded_many in Em. rewrite Er, Em in H. cbn [negb Nat.eqb] in H.
    destruct lr as [|a lr], lm as [|b lm]; try discriminate.
    injection H as <- <-. split; [reflexivity|]. destruct (dtype_eqb _ _); simpl; tauto.
Qed.
Print Assumptions C136_pair_texts.

(** ** "Images must be 2D or 3D." of the score methods *)

Lemma choose_ndim k s d i : snd (choose k s d i) = Refused msg_ndim <-> length s <> 2 /\ length s <> 3.
Proof.
  unfold choose. destruct (Nat.eqb_spec (length s) 3) as [E|E]; cbn [andb].
  - destruct (colour_aware k && (last s 0 =? 3)); cbn [negb].
    + rewrite orb_true_r. split; [discriminate|tauto].
    + split; [|tauto]. destruct d as [|z|b], i as [|j|b']; try discriminate;
        destruct k; try discriminate; destruct z as [|p|p]; try discriminate;
        destruct p as [p|p|]; try discriminate; destruct p; discriminate.
  - rewrite andb_false_r, orb_false_r. destruct (Nat.eqb_spec (length s) 2); split; try discriminate; tauto.
Qed.

(** The pixels fill the shape. *)
Definition filled (o : norm_out) : Prop :=
  match o with NImg im => wf (PairModel.to_float (px im)) | NNan _ _ => True end.

(** It does not appear for arrays of another number of axes (see [C136_dims]), only for planes with three
    columns: those are taken for colour images and lose an axis. *)
Theorem C136_ndim : forall k disk ident ub r m dr norm roi chromatic d s,
  (forall name e, disk name <> Fail e (Some "Images must be 2D or 3D."%string)) ->
  (score_start k disk ident ub r m dr norm roi chromatic d s
     = Fail ValueError (Some "Images must be 2D or 3D."%string) ->
   chromatic = false /\ exists r0 m0 n,
     load_data_m disk ident ub r dr norm false roi = Good (LOne r0) /\
     load_data_m disk ident ub m dr norm false roi = Good (LOne m0) /\
     o_type r0 = o_type m0 /\ o_shape r0 = [n; 3] /\ o_shape m0 = [n; 3]) /\
  (forall r0 m0 n, chromatic = false -> filled r0 -> filled m0 ->
     load_data_m disk ident ub r dr norm false roi = Good (LOne r0) ->
     load_data_m disk ident ub m dr norm false roi = Good (LOne m0) ->
     o_type r0 = o_type m0 -> o_shape r0 = [n; 3] -> o_shape m0 = [n; 3] ->
     score_start k disk ident ub r m dr norm roi chromatic d s
     = Fail ValueError (Some "Images must be 2D or 3D."%string)).
Proof.
  intros k disk ident ub r m dr norm roi c d s Hd. split.
  - unfold score_start. intros H.
    destruct (check_imgs_m disk ident ub r m dr norm roi c) as [[r' m']|e t] eqn:E; cbn [sbind fst] in H.
    + assert (N : snd (choose k (o_shape r') d s) = Refused msg_ndim).
      { destruct (snd (choose k (o_shape r') d s)); try discriminate H. injection H as ->. reflexivity. }
      apply choose_ndim in N.
      assert (E' : unsaid (check_imgs_m disk ident ub r m dr norm roi c) = Ok (r', m')) by (rewrite E; reflexivity).
      unfold check_imgs_m in E, E'.
      destruct (load_data_m disk ident ub r dr norm false roi) as [lr|] eqn:Er; [|discriminate E]. cbn [sbind] in E, E'.
      destruct (load_data_m disk ident ub m dr norm false roi) as [lm|] eqn:Em; [|discriminate E]. cbn [sbind] in E, E'.
      assert (Ec : check_loaded lr lm c = Ok (r', m')).
      { pose proof (C136_pair_same disk ident ub r m dr norm roi c) as S. unfold check_imgs_m, check_imgs in S.
        rewrite <- !C136_load_same, Er, Em in S. cbn [sbind unsaid bind] in S. rewrite <- S. exact E'. }
      apply check_loaded_ok in Ec as (r0 & m0 & -> & -> & Ht & Hs & G).
      assert (L : length (o_shape r0) = 2 \/ length (o_shape r0) = 3).
      { assert (Lr : load_data (fun name => unsaid (disk name)) ident ub r dr norm false roi = Ok (LOne r0))
          by (rewrite <- C136_load_same, Er; reflexivity).
        apply load_data_dims in Lr as [_ Lr]. apply Lr. simpl. auto. }
      destruct G as [(-> & H3 & Gr & _)|(_ & -> & _)]; [|tauto]. split; [reflexivity|].
      apply gray_out_shape in Gr as [Gr _]. rewrite Gr in N.
      destruct (o_shape r0) as [|a [|b [|e [|]]]] eqn:Eo; cbn [length] in L; try (destruct L as [L|L]; discriminate L);
        cbn [last removelast length] in H3, N; [|destruct N as [N _]; destruct N; reflexivity].
      subst b. exists r0, m0, a. rewrite Eo, <- Hs. auto.
    + injection H as -> ->. exfalso.
      assert (LT : forall x, load_data_m disk ident ub x dr norm false roi <> Fail ValueError (Some msg_ndim)).
      { intros x Hx. apply C136_load_texts in Hx as [(name & _ & Hx)|[Hx|(n & _ & _ & [Hx|Hx])]];
          [exact (Hd _ _ Hx)| |discriminate Hx|discriminate Hx]. simpl in Hx. intuition discriminate. }
      apply C136_pair_texts in E as [E|[E|(_ & E)]]; [exact (LT _ E)|exact (LT _ E)|].
      simpl in E. intuition discriminate.
  - intros r0 m0 n -> Fr Fm Hr Hm Ht Sr Sm.
    assert (G : forall o, filled o -> o_shape o = [n; 3] -> exists g, gray_out o = Ok g /\ o_shape g = [n]).
    { intros o Fo So. destruct o as [im|d' s'].
      - destruct (to_grayscale_ok (PairModel.to_float (px im)) [n] Fo) as (g & Hg & _ & Sg & _);
          [rewrite to_float_shape; exact So|].
        exists (NImg (Img (float_type (dt im)) (PF g))). cbn [gray_out]. rewrite Hg. split; [reflexivity|exact Sg].
      - cbn [o_shape] in So. subst s'. eexists. split; reflexivity. }
    destruct (G r0 Fr Sr) as (gr & Gr & Ngr). destruct (G m0 Fm Sm) as (gm & Gm & _).
    assert (E : check_imgs_m disk ident ub r m dr norm roi false = Good (gr, gm)).
    { unfold check_imgs_m. rewrite Hr. cbn [sbind]. rewrite Hm. cbn [sbind]. unfold check_loaded_m.
      rewrite (proj2 (dtype_eqb_eq _ _) Ht). cbn [negb].
      rewrite (proj2 (shape_eqb_eq (o_shape r0) (o_shape m0))) by congruence. cbn [negb andb].
      rewrite Sr. cbn [last Nat.eqb]. rewrite Gr, Gm. reflexivity. }
    unfold score_start. rewrite E. cbn [sbind fst]. rewrite Ngr.
    rewrite (proj2 (choose_ndim k [n] d s)) by (cbn [length]; split; discriminate). reflexivity.
Qed.
Print Assumptions C136_ndim.

(** A plane with three columns, scored by any of the six metrics. *)
Example C136_ndim_example : forall k disk ident ub d s,
  score_start k disk ident ub (InArray (Img (UInt 8) (PI (Arr [1; 3] [0; 5; 9]%Z))))
    (InArray (Img (UInt 8) (PI (Arr [1; 3] [0; 5; 8]%Z)))) None false [] false d s
  = Fail ValueError (Some "Images must be 2D or 3D."%string).
Proof. intros. destruct k; reflexivity. Qed.

(** ** Constructors *)

(** Which of the two texts: the class decides, not the value of normalize. *)
Theorem C136_construct : forall c data_range normalize kwargs e t,
  construct_m c data_range normalize kwargs = Fail e (Some t) <->
  e = ValueError /\
  ((data_range = PNone /\ needs_range c = true /\ t = "Parameter data_range must be set."%string) \/
   (truthy normalize = true /\ truthy data_range = false /\ (data_range <> PNone \/ needs_range c = false) /\
    t = "If normalize is True, data_range must be specified"%string)).
Proof.
  intros c dr norm kw e t. unfold construct_m.
  assert (N : dr = PNone \/ dr <> PNone /\ match dr with PNone => true | _ => false end = false)
    by (destruct dr; [left; reflexivity|right; split; [discriminate|reflexivity]..]).
  assert (L : forall x : res metric, lift x <> Fail e (Some t)) by (intros []; discriminate).
  destruct N as [->|[N ->]]; rewrite ?andb_true_r, ?andb_false_r.
  - destruct (needs_range c); [split; [intros [= <- <-]; auto|]|].
    + intros (-> & [(_ & _ & ->)|(_ & _ & [H|H] & _)]); [reflexivity|destruct H; reflexivity|discriminate].
    + destruct (truthy norm); cbn [truthy negb andb].
      * split; [intros [= <- <-]; auto 7|]. intros (-> & [(_ & H & _)|(_ & _ & _ & ->)]); [discriminate|reflexivity].
      * split; [intros H; destruct (L _ H)|]. intros (_ & [(_ & H & _)|(H & _)]); discriminate.
  - destruct (truthy norm), (truthy dr); cbn [negb andb];
      try (split; [intros H; destruct (L _ H)|]; intros (_ & [(H & _)|(H1 & H2 & _)]); [contradiction|discriminate]).
    split; [intros [= <- <-]; auto 7|]. intros (-> & [(H & _)|(_ & _ & _ & ->)]); [contradiction|reflexivity].
Qed.
Print Assumptions C136_construct.

Example C136_construct_example : forall kwargs,
  construct_m CPSNR PNone (PBool true) kwargs = Fail ValueError (Some "Parameter data_range must be set."%string) /\
  construct_m CPSNR (PInt 0) (PBool true) kwargs
  = Fail ValueError (Some "If normalize is True, data_range must be specified"%string).
Proof. split; reflexivity. Qed.

(** ** structural_similarity *)

(** The checks in their order, for numeric K1, K2 and sigma. *)
Theorem C136_ssim : forall shape kw k1 k2 sigma given,
  as_num (dget kw "K1") (1 / 100) = Ok k1 -> as_num (dget kw "K2") (3 / 100) = Ok k2 ->
  as_num (dget kw "sigma") (15 / 10) = Ok sigma -> win_arg (dget kw "win_size") = Ok given ->
  let win := match given with
             | Some w => w
             | None => if flag (dget kw "gaussian_weights") true then (2 * Z.of_nat (gauss_radius sigma) + 1)%Z else 7%Z
             end in
  ((k1 < 0)%R -> ssim_setup_m shape kw = Fail ValueError (Some "K1 must be positive"%string)) /\
  ((0 <= k1)%R -> (k2 < 0)%R -> ssim_setup_m shape kw = Fail ValueError (Some "K2 must be positive"%string)) /\
  ((0 <= k1)%R -> (0 <= k2)%R -> (sigma < 0)%R ->
     ssim_setup_m shape kw = Fail ValueError (Some "sigma must be positive"%string)) /\
  ((0 <= k1)%R -> (0 <= k2)%R -> (0 <= sigma)%R -> (exists n, In n shape /\ (Z.of_nat n < win)%Z) ->
     ssim_setup_m shape kw = Fail ValueError (Some ("win_size exceeds image extent. " ++
       "Either ensure that your images are at least 7x7; or pass win_size explicitly in the function call, " ++
       "with an odd value less than or equal to the smaller side of your images."))%string) /\
  ((0 <= k1)%R -> (0 <= k2)%R -> (0 <= sigma)%R -> (forall n, In n shape -> (win <= Z.of_nat n)%Z) -> Z.Even win ->
     ssim_setup_m shape kw = Fail ValueError (Some "win_size must be odd."%string)) /\
  ((0 <= k1)%R -> (0 <= k2)%R -> (0 <= sigma)%R -> (forall n, In n shape -> (win <= Z.of_nat n)%Z) -> Z.Odd win ->
     forall e t, ssim_setup_m shape kw <> Fail e (Some t)).
Proof.
  intros shape kw k1 k2 sg given E1 E2 E3 E4 win. unfold ssim_setup_m. rewrite E1, E2, E3, E4. cbn [lift sbind]. cbv zeta.
  fold win.
  assert (X : (exists n, In n shape /\ (Z.of_nat n < win)%Z) <-> existsb (fun n => (Z.of_nat n - win <? 0)%Z) shape = true).
  { rewrite existsb_exists. split; intros (n & Hn & H); exists n; (split; [exact Hn|]); [apply Z.ltb_lt|apply Z.ltb_lt in H]; lia. }
  assert (Y : (forall n, In n shape -> (win <= Z.of_nat n)%Z) -> existsb (fun n => (Z.of_nat n - win <? 0)%Z) shape = false).
  { intros H. apply not_true_is_false. intros E. apply X in E as (n & Hn & Hl). specialize (H n Hn). lia. }
  split; [intros H; destruct (Rlt_dec k1 0); [reflexivity|contradiction]|].
  split; [intros H H'; destruct (Rlt_dec k1 0); [lra|]; destruct (Rlt_dec k2 0); [reflexivity|contradiction]|].
  split; [intros H1 H2 H3; destruct (Rlt_dec k1 0); [lra|]; destruct (Rlt_dec k2 0); [lra|];
          destruct (Rlt_dec sg 0); [reflexivity|contradiction]|].
  split; [|split]; intros H1 H2 H3 H4; (destruct (Rlt_dec k1 0); [lra|]; destruct (Rlt_dec k2 0); [lra|];
          destruct (Rlt_dec sg 0); [lra|]).
  - rewrite (proj1 X H4). reflexivity.
  - intros [q Hq]. rewrite (Y H4). replace (win mod 2)%Z with 0%Z; [reflexivity|]. rewrite Hq. symmetry. rewrite Z.mul_comm. apply Z.mod_mul. lia.
  - intros [q Hq] e t. rewrite (Y H4). replace (win mod 2 =? 1)%Z with true.
    + cbn [negb]. destruct (ssim_setup shape kw); discriminate.
    + symmetry. apply Z.eqb_eq. rewrite Hq, Z.add_comm, Z.mul_comm, Z.mod_add by lia. reflexivity.
Qed.
Print Assumptions C136_ssim.

(** "must be positive" is wrong for 0, which is accepted. *)
Theorem C136_positive_refuted : exists kw, dget kw "K1" = Some (KInt 0) /\ dget kw "K2" = Some (KInt 0) /\
  forall shape e t, (forall n, In n shape -> 7 <= n) -> ssim_setup_m shape (("gaussian_weights", KBool false) :: kw)%string <> Fail e (Some t).
Proof.
  exists [("K1", KInt 0); ("K2", KInt 0)]%string. split; [reflexivity|]. split; [reflexivity|]. intros shape e t H.
  apply (C136_ssim shape _ 0 0 (15 / 10) None); try reflexivity; try lra.
  - intros n Hn. specialize (H n Hn). cbn [flag dget String.eqb Ascii.eqb Bool.eqb]. change (flag (Some (KBool false)) true) with false.
    cbv iota. lia.
  - exists 3%Z. reflexivity.
Qed.
Print Assumptions C136_positive_refuted.

(** ** most_apparent_distortion *)

Theorem C136_mad : forall m n bs ov,
  ((Z.of_nat m < bs)%Z \/ (Z.of_nat n < bs)%Z ->
     stride_m m n bs ov = Fail ValueError (Some "block_size must be smaller than the image dimensions."%string)) /\
  ((bs <= 0)%Z -> stride_m m n bs ov = Fail ValueError (Some "block_size must be positive."%string)) /\
  ((0 < bs <= Z.of_nat m)%Z -> (bs <= Z.of_nat n)%Z ->
     ((ov < 0 \/ 1 <= ov)%R ->
        stride_m m n bs ov = Fail ValueError (Some "block_overlap must be between 0 and smaller than 1."%string)) /\
     ((0 <= ov < 1)%R -> exists st, stride_m m n bs ov = Good st)).
Proof.
  intros m n bs ov. unfold stride_m.
  split; [|split].
  - intros H. replace ((Z.of_nat m <? bs)%Z || (Z.of_nat n <? bs)%Z) with true; [reflexivity|].
    symmetry. apply orb_true_iff. rewrite !Z.ltb_lt. exact H.
  - intros H. replace ((Z.of_nat m <? bs)%Z || (Z.of_nat n <? bs)%Z) with false.
    + destruct (Z.ltb_spec 0 bs); [lia|reflexivity].
    + symmetry. apply orb_false_iff. rewrite !Z.ltb_ge. lia.
  - intros [H0 H1] H2. replace ((Z.of_nat m <? bs)%Z || (Z.of_nat n <? bs)%Z) with false
      by (symmetry; apply orb_false_iff; rewrite !Z.ltb_ge; lia).
    rewrite (proj2 (Z.ltb_lt 0 bs) H0). destruct (Rle_dec 1 ov) as [L|L], (Rlt_dec ov 0) as [L'|L']; split; intros H;
      try reflexivity; try lra. eauto.
Qed.
Print Assumptions C136_mad.

(** "smaller" is wrong: a block as large as the image is accepted. *)
Theorem C136_block_equal : forall n, 0 < n -> exists st, stride_m n n (Z.of_nat n) (3 / 4) = Good st.
Proof. intros n H. apply C136_mad; [lia|lia|lra]. Qed.
Print Assumptions C136_block_equal.

(** ** Regions *)

(** At least the radius away from the lower border, which is all that is asked (C48). *)
Definition away (radius : R) (c : cval) : Prop := exists z, c = CInt z /\ (radius <= IZR (Z.abs z))%R.
Definition radius_of (r : rval) : option R :=
  match r with RInt r => Some (IZR r) | RReal x => Some x | ROther => None end.

Lemma border_step name c rest rad x : radius_of rad = Some x -> away x c ->
  check_border_m name (c :: rest) rad =
  match c with CInt z => let+ zs := check_border_m name rest rad in Good (z :: zs) | COther => Fail TypeError None end.
Proof.
  intros Hr (z & -> & Hz). cbn [check_border_m]. destruct rad as [r|y|]; try discriminate Hr; injection Hr as <-.
  - unfold fail_if. destruct (Z.ltb_spec (Z.abs z - r) 0); [|reflexivity]. apply le_IZR in Hz. lia.
  - unfold fail_if. destruct (Rlt_dec _ 0); [lra|reflexivity].
Qed.

Lemma border_good name l rad x : radius_of rad = Some x -> Forall (away x) l ->
  exists zs, check_border_m name l rad = Good zs /\ length zs = length l.
Proof.
  intros Hr H. induction H as [|c l Hc Hl IH]; [exists []; split; reflexivity|].
  rewrite (border_step name c l rad x Hr Hc). destruct Hc as (z & -> & _). destruct IH as (zs & -> & Hz).
  exists (z :: zs). split; [reflexivity|]. cbn [length]. congruence.
Qed.

Lemma border_fail name l c rest rad x : radius_of rad = Some x -> Forall (away x) l ->
  (c = COther -> check_border_m name (l ++ c :: rest) rad = Fail TypeError (Some (msg_integers name))) /\
  (forall z, c = CInt z -> (IZR (Z.abs z) < x)%R ->
     check_border_m name (l ++ c :: rest) rad = Fail ValueError (Some (msg_border name))).
Proof.
  intros Hr H. induction H as [|d l Hd Hl IH]; cbn [app].
  - split; [intros ->; reflexivity|]. intros z -> Hz. cbn [check_border_m].
    destruct rad as [r|y|]; try discriminate Hr; injection Hr as <-; unfold fail_if.
    + destruct (Z.ltb_spec (Z.abs z - r) 0); [reflexivity|]. apply lt_IZR in Hz. lia.
    + destruct (Rlt_dec _ 0); [reflexivity|lra].
  - rewrite (border_step name d (l ++ c :: rest) rad x Hr Hd). destruct Hd as (z0 & -> & _). destruct IH as [I1 I2].
    split; [intros Hc; rewrite (I1 Hc); reflexivity|]. intros z Hc Hz. rewrite (I2 z Hc Hz). reflexivity.
Qed.

(** CNR: the coordinates of the signal in their order, those of the background, the radius, the number of
    coordinates, the region type; the first fault is reported. *)
Theorem C136_cnr : forall mk img sc bc rad kind x, radius_of rad = Some x ->
  (forall l rest, sc = l ++ COther :: rest -> Forall (away x) l ->
     cnr_m mk img bc sc rad kind = Fail TypeError (Some "Signal center has to be a tuple of integers."%string)) /\
  (forall l z rest, sc = l ++ CInt z :: rest -> Forall (away x) l -> (IZR (Z.abs z) < x)%R ->
     cnr_m mk img bc sc rad kind
     = Fail ValueError (Some "Signal center has to be at least the radius away from the border."%string)) /\
  (forall l rest, Forall (away x) sc -> bc = l ++ COther :: rest -> Forall (away x) l ->
     cnr_m mk img bc sc rad kind = Fail TypeError (Some "Background center has to be a tuple of integers."%string)) /\
  (forall l z rest, Forall (away x) sc -> bc = l ++ CInt z :: rest -> Forall (away x) l -> (IZR (Z.abs z) < x)%R ->
     cnr_m mk img bc sc rad kind
     = Fail ValueError (Some "Background center has to be at least the radius away from the border."%string)) /\
  (Forall (away x) sc -> Forall (away x) bc ->
     ((forall r, rad = RInt r -> (r <= 0)%Z) ->
        cnr_m mk img bc sc rad kind = Fail TypeError (Some "Radius has to be an integer."%string)) /\
     (forall r, rad = RInt r -> (0 < r)%Z ->
        (length sc <> length (shp img) \/ length bc <> length (shp img) ->
           cnr_m mk img bc sc rad kind = Fail ValueError (Some "Centers have to be in the same dimension as img."%string)) /\
        (length sc = length (shp img) -> length bc = length (shp img) -> kind = KUnknown ->
           cnr_m mk img bc sc rad kind = Fail ValueError (Some "Region type not valid."%string)) /\
        (length sc = length (shp img) -> length bc = length (shp img) -> kind <> KUnknown ->
           forall e t, cnr_m mk img bc sc rad kind <> Fail e (Some t)))).
Proof.
  intros mk img sc bc rad kind x Hr. unfold cnr_m.
  split; [|split; [|split; [|split]]].
  - intros l rest -> Hl. rewrite (proj1 (border_fail "Signal center" l COther rest rad x Hr Hl) eq_refl). reflexivity.
  - intros l z rest -> Hl Hz. rewrite (proj2 (border_fail "Signal center" l (CInt z) rest rad x Hr Hl) z eq_refl Hz). reflexivity.
  - intros l rest Hs -> Hl. destruct (border_good "Signal center" sc rad x Hr Hs) as (sz & -> & _). cbn [sbind].
    rewrite (proj1 (border_fail "Background center" l COther rest rad x Hr Hl) eq_refl). reflexivity.
  - intros l z rest Hs -> Hl Hz. destruct (border_good "Signal center" sc rad x Hr Hs) as (sz & -> & _). cbn [sbind].
    rewrite (proj2 (border_fail "Background center" l (CInt z) rest rad x Hr Hl) z eq_refl Hz). reflexivity.
  - intros Hs Hb. destruct (border_good "Signal center" sc rad x Hr Hs) as (sz & -> & Ls).
    destruct (border_good "Background center" bc rad x Hr Hb) as (bz & -> & Lb). cbn [sbind]. split.
    + intros H. destruct rad as [r|y|]; try reflexivity. cbn [check_radius_m].
      rewrite (proj2 (Z.leb_le r 0) (H r eq_refl)). reflexivity.
    + intros r -> Hp. cbn [check_radius_m]. rewrite (proj2 (Z.leb_gt r 0) Hp). cbn [sbind]. rewrite Ls, Lb.
      split; [|split].
      * intros H. replace (negb (length (shp img) =? length sc) || negb (length (shp img) =? length bc)) with true; [reflexivity|].
        symmetry. apply orb_true_iff. rewrite !negb_true_iff, !Nat.eqb_neq. intuition congruence.
      * intros H1 H2 ->. rewrite H1, H2, Nat.eqb_refl. reflexivity.
      * intros H1 H2 Hk e t. rewrite H1, H2, Nat.eqb_refl. cbn [negb orb].
        assert (M : forall c, exists q, make_region_m kind img c r = lift q) by (intros c; unfold make_region_m; destruct kind; eauto; contradiction).
        destruct (M sz) as [q1 ->], (M bz) as [q2 ->]. destruct q1; [|discriminate]. cbn [lift sbind].
        destruct q2; discriminate.
Qed.
Print Assumptions C136_cnr.

(** "Radius has to be an integer." for the integer 0, with centres anywhere. *)
Theorem C136_radius_refuted : exists r : Z, forall mk img bc sc kind,
  cnr_m mk img (map CInt bc) (map CInt sc) (RInt r) kind = Fail TypeError (Some "Radius has to be an integer."%string).
Proof.
  exists 0%Z. intros mk img bc sc kind.
  assert (A : forall l, Forall (away 0) (map CInt l)).
  { intros l. apply Forall_forall. intros c Hc. apply in_map_iff in Hc as (z & <- & _). exists z. split; [reflexivity|].
    apply IZR_le. lia. }
  apply (C136_cnr mk img (map CInt sc) (map CInt bc) (RInt 0) kind 0); [reflexivity|apply A|apply A|].
  intros r [= <-]. lia.
Qed.
Print Assumptions C136_radius_refuted.

Example C136_cnr_example : forall mk img,
  cnr_m mk img [CInt 3; COther] [CInt 5; CInt 4] (RInt 3) KCubic
  = Fail TypeError (Some "Background center has to be a tuple of integers."%string) /\
  cnr_m mk img [CInt 3; COther] [CInt 5; CInt 2] (RInt 3) KCubic
  = Fail ValueError (Some "Signal center has to be at least the radius away from the border."%string).
Proof. split; reflexivity. Qed.

(** SNR of a grey image. An image whose last side is 3 is asked for one coordinate less. *)
Theorem C136_snr : forall mk img sc rad kind x, radius_of rad = Some x ->
  (forall l rest, sc = l ++ COther :: rest -> Forall (away x) l ->
     snr_m mk img sc rad kind = Fail TypeError (Some "Center has to be a tuple of integers."%string)) /\
  (forall l z rest, sc = l ++ CInt z :: rest -> Forall (away x) l -> (IZR (Z.abs z) < x)%R ->
     snr_m mk img sc rad kind = Fail ValueError (Some "Center has to be at least the radius away from the border."%string)) /\
  (Forall (away x) sc ->
     ((forall r, rad = RInt r -> (r <= 0)%Z) ->
        snr_m mk img sc rad kind = Fail TypeError (Some "Radius has to be a positive integer."%string)) /\
     (forall r, rad = RInt r -> (0 < r)%Z -> shp img <> [] ->
        (length (shp img) <> length sc + (if last (shp img) 0 =? 3 then 1 else 0) ->
           snr_m mk img sc rad kind = Fail ValueError (Some "Center has to be in the same dimension as img."%string)) /\
        (length (shp img) = length sc + (if last (shp img) 0 =? 3 then 1 else 0) -> kind = KUnknown ->
           snr_m mk img sc rad kind = Fail ValueError (Some "Region type not valid."%string)) /\
        (length (shp img) = length sc + (if last (shp img) 0 =? 3 then 1 else 0) -> kind <> KUnknown ->
           forall e t, snr_m mk img sc rad kind <> Fail e (Some t)))).
Proof.
  intros mk img sc rad kind x Hr. unfold snr_m.
  split; [|split].
  - intros l rest -> Hl. rewrite (proj1 (border_fail "Center" l COther rest rad x Hr Hl) eq_refl). reflexivity.
  - intros l z rest -> Hl Hz. rewrite (proj2 (border_fail "Center" l (CInt z) rest rad x Hr Hl) z eq_refl Hz). reflexivity.
  - intros Hs. destruct (border_good "Center" sc rad x Hr Hs) as (sz & -> & Ls). cbn [sbind]. split.
    + intros H. destruct rad as [r|y|]; try reflexivity. cbn [check_radius_m].
      rewrite (proj2 (Z.leb_le r 0) (H r eq_refl)). reflexivity.
    + intros r -> Hp Hn. cbn [check_radius_m]. rewrite (proj2 (Z.leb_gt r 0) Hp). cbn [sbind]. rewrite Ls.
      destruct (shp img) as [|n0 s0]; [contradiction|]. cbv zeta. clear Hn. set (s := n0 :: s0) in *.
      split; [|split].
      * intros H. rewrite (proj2 (Nat.eqb_neq _ _) H). reflexivity.
      * intros H ->. rewrite (proj2 (Nat.eqb_eq _ _) H). reflexivity.
      * intros H Hk e t. rewrite (proj2 (Nat.eqb_eq _ _) H). cbn [negb].
        assert (M : exists q, make_region_m kind img sz r = lift q) by (unfold make_region_m; destruct kind; eauto; contradiction).
        destruct M as [q ->]. destruct q; discriminate.
Qed.
Print Assumptions C136_snr.

Example C136_snr_example : forall mk,
  snr_m mk (Arr [1; 2] [0; 1]%R) [CInt 5; CInt 4] (RReal (7 / 2)) KCubic
  = Fail TypeError (Some "Radius has to be a positive integer."%string).
Proof.
  intros mk. apply (C136_snr mk (Arr [1; 2] [0; 1]%R) [CInt 5; CInt 4] (RReal (7 / 2)) KCubic (7 / 2)); [reflexivity| |discriminate].
  repeat constructor; eexists; (split; [reflexivity|]); simpl; lra.
Qed.

(** ** Further texts *)

(** Normalising: the element type is looked at first, then whether there are pixels at all (numpy's
    message), the output range last. *)
Theorem C136_normalize : forall ident ub im lo hi,
  (dt im = OtherType -> forall auto,
   normalize_m ident ub im lo hi auto = Fail ValueError (Some "Data type not supported"%string)) /\
  (dt im <> OtherType -> already_normalised ident (dt im) lo hi = false ->
   normalize_m ident ub im lo hi (Some None)
   = Fail ValueError (Some "If automatic_data_range is False, data_range_input must be set."%string) /\
   (match px im with PI a => dat a = [] | PF a => dat a = [] end ->
    normalize_m ident ub im lo hi None = Fail ValueError None) /\
   forall auto, auto <> Some None ->
   (auto = None -> match px im with PI a => dat a <> [] | PF a => dat a <> [] end) ->
   normalize_m ident ub im lo hi auto
     = Fail ValueError (Some "Data range not supported. Please use (0, 1), (0, 255) or (0, 65535) as data_range_output."%string)
   <-> ~ (lo = 0%Z /\ (hi = 255%Z \/ hi = 65535%Z \/ hi = 1%Z))).
Proof.
  intros ident ub im lo hi. split; [intros H auto; unfold normalize_m; rewrite H; reflexivity|].
  intros Hd Ha.
  assert (K : known_range lo hi = true <-> (lo = 0%Z /\ (hi = 255%Z \/ hi = 65535%Z \/ hi = 1%Z))).
  { unfold known_range. rewrite andb_true_iff, !orb_true_iff, !Z.eqb_eq. tauto. }
  assert (F : forall o, finish_m lo hi o = Fail ValueError (Some msg_output) <-> known_range lo hi <> true).
  { intros o. unfold finish_m. destruct (known_range lo hi).
    - split; [destruct o; discriminate|]. intros H. destruct H. reflexivity.
    - split; [discriminate|reflexivity]. }
  unfold normalize_m. destruct (dt im) as [b|b|b|]; [| | |destruct Hd; reflexivity]; rewrite Ha.
  all: split; [destruct (px im); reflexivity|split; [destruct (px im); intros ->; reflexivity|]].
  all: intros auto H1 H2; rewrite <- K; destruct (px im) as [a|a], auto as [[r|]|]; try (destruct H1; reflexivity);
    cbn [sbind]; try apply F.
  all: specialize (H2 eq_refl); destruct (dat a) as [|p l]; [destruct H2; reflexivity|]; cbn -[known_range finish_m Rmin Rmax]; apply F.
Qed.
Print Assumptions C136_normalize.

Example C136_normalize_example : forall ident ub auto,
  normalize_m ident ub (Img OtherType (PI (Arr [1; 2] [0; 1]%Z))) 0 255 auto
  = Fail ValueError (Some "Data type not supported"%string) /\
  normalize_m (fun _ _ => false) ub (Img (UInt 8) (PI (Arr [1; 2] [0; 5]%Z))) 0 4095 None
  = Fail ValueError (Some "Data range not supported. Please use (0, 1), (0, 255) or (0, 65535) as data_range_output."%string).
Proof. intros. split; reflexivity. Qed.

(** Cropping: a volume needs three ranges, more than three axes are refused; otherwise the text says that
    neither all ranges are shorter than the image nor all of the same length. *)
Theorem C136_crop : forall A (a : arr A) x y z,
  (length (shp a) <> 2 -> is_colour (shp a) = false -> z = None \/ length (shp a) <> 3 ->
   crop_image_m a x y z = Fail ValueError (Some "Image must be 2D or 3D."%string)) /\
  (is_colour (shp a) = true -> crop_image_m a x y z = Fail ValueError None) /\
  (forall h w, shp a = [h; w] ->
   crop_image_m a x y z = Fail ValueError (Some "Cropped image shape must be smaller than original image."%string)
   <-> ~ (snd x - fst x < Z.of_nat h /\ snd y - fst y < Z.of_nat w)%Z /\
       ~ (snd x - fst x = Z.of_nat h /\ snd y - fst y = Z.of_nat w)%Z) /\
  (forall h w d v, shp a = [h; w; d] -> d <> 3 -> z = Some v ->
   crop_image_m a x y z = Fail ValueError (Some "Cropped image shape must be smaller than original image."%string)
   <-> ~ (snd x - fst x < Z.of_nat h /\ snd y - fst y < Z.of_nat w /\ snd v - fst v < Z.of_nat d)%Z /\
       ~ (snd x - fst x = Z.of_nat h /\ snd y - fst y = Z.of_nat w /\ snd v - fst v = Z.of_nat d)%Z).
Proof.
  intros A a x y z.
  assert (Q : forall r, length r = length (shp a) ->
    crop_checked_m a r = Fail ValueError (Some msg_crop) <->
    forallb (fun p => (fst p <? snd p)%Z) (combine (map extent r) (map Z.of_nat (shp a))) <> true /\
    forallb (fun p => (fst p =? snd p)%Z) (combine (map extent r) (map Z.of_nat (shp a))) <> true).
  { intros r Hr. unfold crop_checked_m, vec_all. rewrite !map_length, Hr, Nat.eqb_refl. cbn [lift sbind].
    destruct (forallb _ _).
    - split; [destruct (slice a r); discriminate|tauto].
    - destruct (forallb _ _); split; try discriminate; try tauto. intros _. split; discriminate. }
  split; [|split; [|split]].
  - intros H2 Hc Hz. unfold crop_image_m. rewrite (proj2 (Nat.eqb_neq _ _) H2), Hc. cbn [orb].
    destruct Hz as [->|H3]; [destruct (_ =? 3); reflexivity|]. rewrite (proj2 (Nat.eqb_neq _ _) H3). reflexivity.
  - intros Hc. unfold crop_image_m. rewrite Hc, orb_true_r. unfold is_colour in Hc. apply andb_true_iff in Hc as [Hc _].
    apply Nat.eqb_eq in Hc. unfold crop_checked_m, vec_all. rewrite !map_length, Hc. reflexivity.
  - intros h w Hs. unfold crop_image_m. rewrite Hs. cbn [length Nat.eqb orb]. rewrite Q by (rewrite Hs; reflexivity).
    rewrite Hs. cbn [map combine forallb fst snd extent]. unfold extent.
    rewrite !andb_true_r, !andb_true_iff, !Z.ltb_lt, !Z.eqb_eq. tauto.
  - intros h w d v Hs Hd ->. unfold crop_image_m, is_colour. rewrite Hs. cbn [length Nat.eqb orb andb last].
    rewrite (proj2 (Nat.eqb_neq _ _) Hd). rewrite Q by (rewrite Hs; reflexivity).
    rewrite Hs. cbn [map combine forallb fst snd]. unfold extent.
    rewrite !andb_true_r, !andb_true_iff, !Z.ltb_lt, !Z.eqb_eq. tauto.
Qed.
Print Assumptions C136_crop.

Example C136_crop_example :
  crop_image_m (Arr [2; 2; 2] (repeat 0%Z 8)) (0, 1)%Z (0, 1)%Z None
  = Fail ValueError (Some "Image must be 2D or 3D."%string) /\
  crop_image_m (Arr [2; 2] (repeat 0%Z 4)) (0, 2)%Z (0, 1)%Z None
  = Fail ValueError (Some "Cropped image shape must be smaller than original image."%string).
Proof. split; reflexivity. Qed.

(** The texts for two lists, were they of any length. *)
Theorem C136_numbers : forall r m chromatic,
  check_loaded_m (LMany r) (LMany m) chromatic
    = Fail ValueError (Some "Number of images do not match. img_r has {len(img_r_loaded)} images and img_m has {len(img_m_loaded)} images"%string)
  <-> length r <> length m.
Proof.
  intros r m chromatic. cbn [check_loaded_m]. destruct (Nat.eqb_spec (length r) (length m)) as [E|E]; cbn [negb].
  - split; [|contradiction]. destruct r, m; try discriminate. destruct (dtype_eqb _ _); discriminate.
  - split; [trivial|reflexivity].
Qed.
Print Assumptions C136_numbers.

(** The monitor and the weights of MAD. *)
Theorem C136_mad_weights : forall account given (weights : list R) scales,
  (monitor_m account given = Fail ValueError (Some "If account_monitor is True, display_function must be given."%string)
   <-> account = true /\ given = false) /\
  (length weights <> scales ->
   weights_m weights scales = Fail ValueError (Some ("weights must be of length scales_num (" ++ show scales ++ ")."))%string) /\
  (length weights = scales -> weights_m weights scales = Good tt).
Proof.
  intros account given weights scales. split; [|split].
  - unfold monitor_m, fail_if. destruct account, given; cbn [andb negb]; split; try discriminate; try tauto; intros [? ?]; discriminate.
  - intros H. unfold weights_m. rewrite (proj2 (Nat.eqb_neq _ _) H). reflexivity.
  - intros H. unfold weights_m. rewrite (proj2 (Nat.eqb_eq _ _) H). reflexivity.
Qed.
Print Assumptions C136_mad_weights.

(** CNR and SNR report what is wrong with the image first, and never mention batches. *)
Theorem C136_nr_first : forall X disk ident ub img dr norm roi (rest : loaded -> said X),
  (forall e t, load_data_m disk ident ub img dr norm false roi = Fail e t ->
     nr_score_m disk ident ub img dr norm roi rest = Fail e t) /\
  (forall l, load_data_m disk ident ub img dr norm false roi = Good l ->
     nr_score_m disk ident ub img dr norm roi rest = rest l).
Proof. intros *. unfold nr_score_m. split; intros * ->; reflexivity. Qed.
Print Assumptions C136_nr_first.
