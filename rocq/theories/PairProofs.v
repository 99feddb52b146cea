(** Proofs about image loading, cropping and pair checking. *)
From Coq Require Import Reals Lra.
From Verif Require Import Base NdArray LoadModel LoadProofs NormModel NormProofs PairModel.

(** ** Slices *)

Lemma length_slice_shape s r : length (slice_shape s r) = length s.
Proof. revert r; induction s as [|n s IH]; intros [|b r]; simpl; auto. Qed.

Lemma clip_le n b : clip n b <= n.
Proof. unfold clip. destruct (b <? 0)%Z; lia. Qed.

Lemma inb_slice s r idx :
  inb (slice_shape s r) idx = true -> inb s (slice_index s r idx) = true.
Proof.
  revert r idx; induction s as [|n s IH]; intros [|b r] [|i idx]; simpl; auto.
  intros H. apply andb_true_iff in H as [Hi H]. rewrite (IH _ _ H), andb_true_r.
  apply Nat.ltb_lt in Hi. apply Nat.ltb_lt. pose proof (clip_le n (snd b)). lia.
Qed.

Lemma slice_ok {A} (a : arr A) r :
  wf a -> length r <= length (shp a) ->
  exists c, slice a r = Ok c /\ shp c = slice_shape (shp a) r /\ wf c /\
            forall idx, inb (shp c) idx = true -> get c idx = get a (slice_index (shp a) r idx).
Proof.
  intros Hwf Hl. unfold slice.
  destruct (Nat.ltb_spec (length (shp a)) (length r)); [lia|].
  destruct (reindex_ok a (slice_shape (shp a) r) (slice_index (shp a) r) Hwf) as [c Hc].
  - intros idx. apply inb_slice.
  - destruct (reindex_spec _ _ _ _ Hc) as (Hs & Hw & Hg). exists c.
    split; [exact Hc|]. split; [exact Hs|]. split; [exact Hw|].
    intros idx Hi. rewrite Hs in Hi. apply Hg, Hi.
Qed.

Lemma slice_shp {A} (a : arr A) r c : slice a r = Ok c -> shp c = slice_shape (shp a) r.
Proof.
  unfold slice. destruct (_ <? _); [discriminate|]. intros H.
  apply reindex_spec in H. tauto.
Qed.

(** Clipping of non-negative, in-range, or negative bounds. *)
Lemma clip_nonneg n b : (0 <= b)%Z -> clip n b = Nat.min n (Z.to_nat b).
Proof. intros H. unfold clip. destruct (Z.ltb_spec b 0); lia. Qed.
Lemma clip_nat n b : clip n (Z.of_nat b) = Nat.min n b.
Proof. rewrite clip_nonneg by lia. lia. Qed.
Lemma clip_neg n b : (- Z.of_nat n <= b < 0)%Z -> clip n b = n - Z.to_nat (- b).
Proof. intros H. unfold clip. destruct (Z.ltb_spec b 0); lia. Qed.

(** ** Cropping *)

Definition smaller (s : list nat) (r : list (Z * Z)) : Prop :=
  Forall2 (fun n b => extent b < Z.of_nat n)%Z s r.
Definition same_extent (s : list nat) (r : list (Z * Z)) : Prop :=
  Forall2 (fun n b => extent b = Z.of_nat n)%Z s r.

Lemma vec_all_lt s r : length r = length s ->
  exists b, vec_all Z.ltb (map extent r) (map Z.of_nat s) = Ok b /\ (b = true <-> smaller s r).
Proof.
  intros Hl. unfold vec_all. rewrite !map_length, Hl, Nat.eqb_refl. eexists. split; [reflexivity|].
  revert r Hl; induction s as [|n s IH]; intros [|b r]; simpl; try discriminate.
  - intros _. split; [constructor|reflexivity].
  - intros Hl. injection Hl as Hl. rewrite andb_true_iff, (IH r Hl), Z.ltb_lt. split.
    + intros [H1 H2]. constructor; assumption.
    + intros H. inversion H; subst. split; assumption.
Qed.

Lemma vec_all_eq s r : length r = length s ->
  exists b, vec_all Z.eqb (map extent r) (map Z.of_nat s) = Ok b /\ (b = true <-> same_extent s r).
Proof.
  intros Hl. unfold vec_all. rewrite !map_length, Hl, Nat.eqb_refl. eexists. split; [reflexivity|].
  revert r Hl; induction s as [|n s IH]; intros [|b r]; simpl; try discriminate.
  - intros _. split; [constructor|reflexivity].
  - intros Hl. injection Hl as Hl. rewrite andb_true_iff, (IH r Hl), Z.eqb_eq. split.
    + intros [H1 H2]. constructor; assumption.
    + intros H. inversion H; subst. split; assumption.
Qed.

Lemma crop_checked_cases {A} (a : arr A) r : length r = length (shp a) ->
  (smaller (shp a) r /\ crop_checked a r = slice a r) \/
  (~ smaller (shp a) r /\ same_extent (shp a) r /\ crop_checked a r = Ok a) \/
  (~ smaller (shp a) r /\ ~ same_extent (shp a) r /\ crop_checked a r = Err ValueError).
Proof.
  intros Hl. unfold crop_checked.
  destruct (vec_all_lt (shp a) r Hl) as (b & -> & Hb). cbn [bind].
  destruct (vec_all_eq (shp a) r Hl) as (e & He & Hq). destruct b.
  - left. split; [apply Hb; reflexivity|reflexivity].
  - rewrite He. cbn [bind]. right. destruct e.
    + left. split; [|split; [apply Hq; reflexivity|reflexivity]].
      intros H. apply Hb in H. discriminate.
    + right. split; [|split; [|reflexivity]]; intros H; [apply Hb in H|apply Hq in H]; discriminate.
Qed.

(** The ranges that matter, by number of dimensions; 3-channel shapes excluded. *)
Definition ranges (s : list nat) (x y : Z * Z) (z : option (Z * Z)) : option (list (Z * Z)) :=
  match s, z with
  | [_; _], _ => Some [x; y]
  | [_; _; d], Some z => if d =? 3 then None else Some [x; y; z]
  | _, _ => None
  end.

Lemma crop_ranges {A} (a : arr A) x y z r :
  ranges (shp a) x y z = Some r ->
  crop_image a x y z = crop_checked a r /\ length r = length (shp a).
Proof.
  unfold ranges, crop_image, is_colour. destruct (shp a) as [|n1 [|n2 [|n3 [|n4 s]]]]; try discriminate.
  - simpl. intros H. injection H as <-. split; reflexivity.
  - destruct z as [z|]; [|discriminate]. cbn [length last Nat.eqb orb andb].
    destruct (n3 =? 3); [discriminate|]. intros H. injection H as <-. split; reflexivity.
Qed.

Lemma crop_no_ranges {A} (a : arr A) x y z :
  ranges (shp a) x y z = None -> crop_image a x y z = Err ValueError.
Proof.
  unfold ranges, crop_image, is_colour. destruct (shp a) as [|n1 [|n2 [|n3 [|n4 s]]]] eqn:E;
    try discriminate; try reflexivity.
  intros H. cbn [length last Nat.eqb orb andb]. destruct (n3 =? 3) eqn:E3.
  - unfold crop_checked, vec_all. rewrite E. reflexivity.
  - destruct z; [discriminate|reflexivity].
Qed.

Lemma crop_image_cases {A} (a : arr A) x y z r :
  ranges (shp a) x y z = Some r ->
  (smaller (shp a) r /\ crop_image a x y z = slice a r) \/
  (~ smaller (shp a) r /\ same_extent (shp a) r /\ crop_image a x y z = Ok a) \/
  (~ smaller (shp a) r /\ ~ same_extent (shp a) r /\ crop_image a x y z = Err ValueError).
Proof.
  intros H. apply (crop_ranges a) in H as [-> Hl]. apply crop_checked_cases, Hl.
Qed.

Lemma crop_shape_length {A} (a c : arr A) x y z :
  crop_image a x y z = Ok c -> length (shp c) = length (shp a).
Proof.
  intros H. destruct (ranges (shp a) x y z) as [r|] eqn:Er.
  - destruct (crop_image_cases a x y z r Er) as [[_ E]|[(_ & _ & E)|(_ & _ & E)]]; rewrite E in H.
    + rewrite (slice_shp _ _ _ H). apply length_slice_shape.
    + injection H as <-. reflexivity.
    + discriminate.
  - rewrite (crop_no_ranges _ _ _ _ Er) in H. discriminate.
Qed.

(** Contents, any bounds. *)
Lemma crop_smaller {A} (a : arr A) x y z r :
  wf a -> ranges (shp a) x y z = Some r -> smaller (shp a) r ->
  exists c, crop_image a x y z = Ok c /\ wf c /\ shp c = slice_shape (shp a) r /\
    forall idx, inb (shp c) idx = true -> get c idx = get a (slice_index (shp a) r idx).
Proof.
  intros Hwf Hr Hs. destruct (crop_ranges a x y z r Hr) as [_ Hl].
  destruct (crop_image_cases a x y z r Hr) as [[_ E]|[(H & _)|(H & _)]]; [|contradiction..].
  destruct (slice_ok a r Hwf) as (c & Hc & Hs' & Hw & Hg); [lia|].
  exists c. rewrite E. auto.
Qed.

Lemma clipped_start i n x0 x1 :
  i < Nat.min x1 n - Nat.min x0 n -> Nat.min n x0 + i = x0 + i.
Proof. lia. Qed.

Lemma crop_2d {A} (a : arr A) h w x0 x1 y0 y1 z :
  wf a -> shp a = [h; w] -> x0 <= x1 -> y0 <= y1 -> x1 - x0 < h -> y1 - y0 < w ->
  exists c,
    crop_image a (Z.of_nat x0, Z.of_nat x1) (Z.of_nat y0, Z.of_nat y1) z = Ok c /\ wf c /\
    shp c = [Nat.min x1 h - Nat.min x0 h; Nat.min y1 w - Nat.min y0 w] /\
    forall i j, inb (shp c) [i; j] = true -> get c [i; j] = get a [x0 + i; y0 + j].
Proof.
  intros Hwf Hs Hx Hy Lx Ly.
  destruct (crop_smaller a (Z.of_nat x0, Z.of_nat x1) (Z.of_nat y0, Z.of_nat y1) z
             [(Z.of_nat x0, Z.of_nat x1); (Z.of_nat y0, Z.of_nat y1)] Hwf) as (c & Hc & Hw & Hc' & Hg).
  - unfold ranges. rewrite Hs. reflexivity.
  - rewrite Hs. unfold smaller, extent. repeat constructor; simpl; lia.
  - rewrite Hs in *. exists c. cbn [slice_shape fst snd] in Hc'. rewrite !clip_nat in Hc'.
    assert (E : shp c = [Nat.min x1 h - Nat.min x0 h; Nat.min y1 w - Nat.min y0 w]).
    { rewrite Hc', !(Nat.min_comm h), !(Nat.min_comm w). reflexivity. }
    split; [exact Hc|]. split; [exact Hw|]. split; [exact E|].
    intros i j Hin. rewrite (Hg _ Hin). cbn [slice_index fst snd]. rewrite !clip_nat.
    rewrite E in Hin. inb3. do 2 f_equal; [eapply clipped_start; eassumption|].
    f_equal. eapply clipped_start; eassumption.
Qed.

Lemma crop_3d {A} (a : arr A) h w d x0 x1 y0 y1 z0 z1 :
  wf a -> shp a = [h; w; d] -> d <> 3 -> x0 <= x1 -> y0 <= y1 -> z0 <= z1 ->
  x1 - x0 < h -> y1 - y0 < w -> z1 - z0 < d ->
  exists c,
    crop_image a (Z.of_nat x0, Z.of_nat x1) (Z.of_nat y0, Z.of_nat y1)
               (Some (Z.of_nat z0, Z.of_nat z1)) = Ok c /\ wf c /\
    shp c = [Nat.min x1 h - Nat.min x0 h; Nat.min y1 w - Nat.min y0 w; Nat.min z1 d - Nat.min z0 d] /\
    forall i j k, inb (shp c) [i; j; k] = true -> get c [i; j; k] = get a [x0 + i; y0 + j; z0 + k].
Proof.
  intros Hwf Hs Hd Hx Hy Hz Lx Ly Lz.
  destruct (crop_smaller a (Z.of_nat x0, Z.of_nat x1) (Z.of_nat y0, Z.of_nat y1)
             (Some (Z.of_nat z0, Z.of_nat z1))
             [(Z.of_nat x0, Z.of_nat x1); (Z.of_nat y0, Z.of_nat y1); (Z.of_nat z0, Z.of_nat z1)] Hwf)
    as (c & Hc & Hw & Hc' & Hg).
  - unfold ranges. rewrite Hs. destruct (Nat.eqb_spec d 3); [contradiction|reflexivity].
  - rewrite Hs. unfold smaller, extent. repeat constructor; simpl; lia.
  - rewrite Hs in *. exists c. cbn [slice_shape fst snd] in Hc'. rewrite !clip_nat in Hc'.
    assert (E : shp c = [Nat.min x1 h - Nat.min x0 h; Nat.min y1 w - Nat.min y0 w;
                         Nat.min z1 d - Nat.min z0 d]).
    { rewrite Hc', !(Nat.min_comm h), !(Nat.min_comm w), !(Nat.min_comm d). reflexivity. }
    split; [exact Hc|]. split; [exact Hw|]. split; [exact E|].
    intros i j k Hin. rewrite (Hg _ Hin). cbn [slice_index fst snd]. rewrite !clip_nat.
    rewrite E in Hin. inb3. do 2 f_equal; [eapply clipped_start; eassumption|].
    f_equal; [eapply clipped_start; eassumption|]. f_equal. eapply clipped_start; eassumption.
Qed.

(** ** load_data *)

Lemma crop_out_dims o x y z o' :
  crop_out o x y z = Ok o' -> length (o_shape o') = length (o_shape o).
Proof.
  destruct o as [[d [a|a]]|d s]; simpl; intros H.
  - destruct (crop_image a x y z) as [c|] eqn:E; [|discriminate]. injection H as <-.
    apply (crop_shape_length _ _ _ _ _ E).
  - destruct (crop_image a x y z) as [c|] eqn:E; [|discriminate]. injection H as <-.
    apply (crop_shape_length _ _ _ _ _ E).
  - destruct (crop_image _ x y z) as [c|] eqn:E; [|discriminate]. injection H as <-.
    apply (crop_shape_length _ _ _ _ _ E).
Qed.

Lemma crop_roi_dims o roi o' :
  crop_roi o roi = Ok o' -> length (o_shape o') = length (o_shape o).
Proof.
  destruct roi as [|x [|y [|z [|w roi]]]]; try discriminate; apply crop_out_dims.
Qed.

Lemma normalize_dims ident ub im lo hi auto o :
  normalize_data ident ub im lo hi auto = Ok o -> o_shape o = shape im.
Proof. intros H. apply normalize_shape in H. destruct o; exact H. Qed.

Lemma prepare_dims ident ub normalize dr roi im o :
  prepare ident ub normalize dr roi im = Ok o -> length (o_shape o) = length (shape im).
Proof.
  unfold prepare. intros H. apply bind_ok in H as (o1 & H1 & H2).
  assert (E : o_shape o1 = shape im).
  { destruct dr as [hi|]; [destruct (normalize && _)|].
    - apply (normalize_dims _ _ _ _ _ _ _ H1).
    - injection H1 as <-. reflexivity.
    - injection H1 as <-. reflexivity. }
  rewrite <- E. destruct roi; [injection H2 as <-; reflexivity|].
  apply (crop_roi_dims _ _ _ H2).
Qed.

Definition dims_ok (s : list nat) : Prop := length s = 2 \/ length s = 3.

Lemma check_dims_ok s : check_dims s = Ok tt <-> dims_ok s.
Proof.
  unfold check_dims, raise_if, dims_ok.
  destruct (Nat.ltb_spec 3 (length s)); destruct (Nat.ltb_spec (length s) 2); simpl;
    split; intros H1; try discriminate; try reflexivity; lia.
Qed.
Lemma check_dims_err s : ~ dims_ok s -> check_dims s = Err ValueError.
Proof.
  unfold check_dims, raise_if, dims_ok.
  destruct (Nat.ltb_spec 3 (length s)); destruct (Nat.ltb_spec (length s) 2); simpl; auto; lia.
Qed.

Definition outs (l : loaded) : list norm_out := match l with LOne o => [o] | LMany l => l end.

Lemma load_data_dims disk ident ub img dr normalize batch roi out :
  load_data disk ident ub img dr normalize batch roi = Ok out ->
  outs out <> [] /\ forall o, In o (outs out) -> dims_ok (o_shape o).
Proof.
  unfold load_data. destruct batch; [discriminate|]. destruct (normalize && _); [discriminate|].
  assert (K : forall im o, check_dims (shape im) = Ok tt ->
              prepare ident ub normalize dr roi im = Ok o -> dims_ok (o_shape o)).
  { intros im o H1 H2. apply check_dims_ok in H1. unfold dims_ok in *.
    rewrite (prepare_dims _ _ _ _ _ _ _ H2). exact H1. }
  destruct img as [name|im|[|im [|im' l]]|]; intros H; try discriminate.
  - apply bind_ok in H as (im & _ & H). apply bind_ok in H as ([] & H1 & H).
    apply bind_ok in H as (o & H2 & H). injection H as <-. split; [discriminate|].
    intros o' [<-|[]]. eauto.
  - apply bind_ok in H as ([] & H1 & H).
    apply bind_ok in H as (o & H2 & H). injection H as <-. split; [discriminate|].
    intros o' [<-|[]]. eauto.
  - apply bind_ok in H as ([] & H1 & H).
    apply bind_ok in H as (o & H2 & H). injection H as <-. split; [discriminate|].
    intros o' [<-|[]]. eauto.
Qed.

Lemma load_data_passthrough disk ident ub im dr :
  load_data disk ident ub (InArray im) dr false false [] =
  if (length (shape im) =? 2) || (length (shape im) =? 3) then Ok (LOne (NImg im))
  else Err ValueError.
Proof.
  unfold load_data. cbn [andb]. unfold prepare. cbn [andb].
  destruct (Nat.eqb_spec (length (shape im)) 2) as [E|N2];
    [|destruct (Nat.eqb_spec (length (shape im)) 3) as [E|N3]]; cbn [orb].
  - rewrite (proj2 (check_dims_ok _)) by (left; exact E). cbn [bind]. destruct dr; reflexivity.
  - rewrite (proj2 (check_dims_ok _)) by (right; exact E). cbn [bind]. destruct dr; reflexivity.
  - rewrite check_dims_err by (unfold dims_ok; tauto). reflexivity.
Qed.

Lemma load_data_roi disk ident ub im hi roi :
  dims_ok (shape im) -> (hi <> 0)%Z -> roi <> [] ->
  load_data disk ident ub (InArray im) (Some hi) true false roi =
  let* whole := normalize_data ident ub im 0 hi None in
  let* o := crop_roi whole roi in Ok (LOne o).
Proof.
  intros Hd Hh Hr. unfold load_data. cbn [andb]. rewrite (proj2 (check_dims_ok _) Hd). cbn [bind].
  unfold prepare. destruct (Z.eqb_spec hi 0); [contradiction|]. cbn [andb negb].
  destruct (normalize_data _ _ _ _ _ _) as [o|e]; [|reflexivity]. cbn [bind].
  destruct roi; [contradiction|reflexivity].
Qed.

(** Real image, unit range, 2D: pixel by pixel. *)
Lemma load_data_roi_pixels disk ident ub b a h w mn mx x0 x1 y0 y1 :
  wf a -> shp a = [h; w] -> is_rmin mn (dat a) -> is_rmax mx (dat a) -> (mn < mx)%R ->
  x0 <= x1 -> y0 <= y1 -> x1 - x0 < h -> y1 - y0 < w ->
  exists c,
    load_data disk ident ub (InArray (Img (Float b) (PF a))) (Some 1%Z) true false
      [(Z.of_nat x0, Z.of_nat x1); (Z.of_nat y0, Z.of_nat y1)]
    = Ok (LOne (NImg (Img (Float 32) (PF c)))) /\
    forall i j v, get c [i; j] = Some v ->
      exists v0, get a [x0 + i; y0 + j] = Some v0 /\ v = ((v0 - mn) / (mx - mn))%R.
Proof.
  intros Hwf Hs Hmin Hmax Hlt Hx Hy Lx Ly.
  destruct (crop_2d (amap (linear 1 mn mx) a) h w x0 x1 y0 y1 None) as (c & Hc & Hw & Hsc & Hg);
    try assumption.
  { apply wf_amap, Hwf. }
  exists c. split.
  - rewrite load_data_roi; [|left; unfold shape; simpl; rewrite Hs; reflexivity|lia|discriminate].
    rewrite (normalize_real_unit ident ub b a mn mx) by assumption. cbn [bind crop_roi].
    unfold crop_out. rewrite Hc. reflexivity.
  - intros i j v Hv. rewrite Hg, get_amap in Hv by (apply (get_inb _ _ _ Hv)).
    destruct (get a [x0 + i; y0 + j]) as [v0|]; [|discriminate].
    injection Hv as <-. exists v0. split; [reflexivity|]. unfold linear. field. lra.
Qed.

(** ** _check_imgs *)

Lemma dtype_eqb_eq a b : dtype_eqb a b = true <-> a = b.
Proof.
  destruct a, b; simpl; split; intros H; try discriminate; try reflexivity;
    try (apply Nat.eqb_eq in H; congruence); inversion H; subst; apply Nat.eqb_refl.
Qed.
Lemma shape_eqb_eq a b : shape_eqb a b = true <-> a = b.
Proof. unfold shape_eqb. destruct (list_eq_dec _ a b); split; intros; congruence. Qed.

Lemma gray_shape a g : to_grayscale a = Ok g -> shp g = removelast (shp a).
Proof. unfold to_grayscale. intros H. apply bind_ok in H as (l & _ & H). injection H as <-. reflexivity. Qed.

Lemma to_float_shape p : shp (to_float p) = px_shape p.
Proof. destruct p; reflexivity. Qed.

Lemma gray_out_shape o g : gray_out o = Ok g ->
  o_shape g = removelast (o_shape o) /\ o_type g = float_type (o_type o).
Proof.
  destruct o as [im|d s]; simpl; intros H.
  - apply bind_ok in H as (g' & H1 & H). injection H as <-. simpl. split; [|reflexivity].
    unfold shape. simpl. rewrite (gray_shape _ _ H1). apply f_equal, to_float_shape.
  - injection H as <-. split; reflexivity.
Qed.

Lemma check_loaded_ok r m c r' m' :
  check_loaded r m c = Ok (r', m') ->
  exists r0 m0, r = LOne r0 /\ m = LOne m0 /\
    o_type r0 = o_type m0 /\ o_shape r0 = o_shape m0 /\
    ((c = false /\ last (o_shape r0) 0 = 3 /\ gray_out r0 = Ok r' /\ gray_out m0 = Ok m') \/
     ((c = true <-> last (o_shape r0) 0 = 3) /\ r' = r0 /\ m' = m0)).
Proof.
  unfold check_loaded. destruct r as [r|], m as [m|]; try discriminate.
  destruct (dtype_eqb _ _) eqn:Et; [|discriminate]. cbn [negb].
  destruct (shape_eqb _ _) eqn:Es; [|discriminate]. cbn [negb].
  apply dtype_eqb_eq in Et. apply shape_eqb_eq in Es. intros H.
  exists r, m. do 4 (split; [auto; fail|]).
  destruct c; cbn [negb andb] in H.
  - right. destruct (Nat.eqb_spec (last (o_shape r) 0) 3); [|discriminate].
    simpl in H. inversion H; subst. tauto.
  - destruct (Nat.eqb_spec (last (o_shape r) 0) 3).
    + left. apply bind_ok in H as (r1 & H1 & H). apply bind_ok in H as (m1 & H2 & H).
      inversion H; subst. auto.
    + right. inversion H; subst. split; [split; intros; [discriminate|contradiction]|auto].
Qed.

Lemma check_agree r m c r' m' :
  check_loaded r m c = Ok (r', m') -> o_type r' = o_type m' /\ o_shape r' = o_shape m'.
Proof.
  intros H. apply check_loaded_ok in H as (r0 & m0 & _ & _ & Ht & Hs & [H|H]).
  - destruct H as (_ & _ & Hr & Hm). apply gray_out_shape in Hr as [Sr Tr], Hm as [Sm Tm].
    split; congruence.
  - destruct H as (_ & -> & ->). auto.
Qed.

(** ** Grayscale *)

Definition between3 (x a b c : R) : Prop :=
  (Rmin a (Rmin b c) <= x <= Rmax a (Rmax b c))%R.

Lemma luma_between r g b : between3 (luma r g b) r g b.
Proof.
  unfold between3, luma.
  unfold Rmin, Rmax; repeat destruct (Rle_dec _ _); lra.
Qed.

Lemma luma_grey v : luma v v v = v.
Proof. unfold luma. field. Qed.

Lemma clip255_spec x : (x <= 255 -> clip255 x = x)%R /\ (255 < x -> clip255 x = 255)%R.
Proof. unfold clip255. destruct (Rlt_dec 255 x); split; intros; lra. Qed.

Lemma inb_snoc s idx d i : inb s idx = true -> i < d -> inb (s ++ [d]) (idx ++ [i]) = true.
Proof.
  revert idx; induction s as [|n s IH]; intros [|j idx] H Hi; simpl in *; try discriminate.
  - rewrite (proj2 (Nat.ltb_lt i d) Hi). reflexivity.
  - apply andb_true_iff in H as [H1 H2]. rewrite H1, (IH _ H2 Hi). reflexivity.
Qed.

Lemma to_grayscale_ok a s :
  wf a -> shp a = s ++ [3] ->
  exists g, to_grayscale a = Ok g /\ wf g /\ shp g = s /\
    forall idx, inb s idx = true -> exists r gr b,
      get a (idx ++ [0]) = Some r /\ get a (idx ++ [1]) = Some gr /\ get a (idx ++ [2]) = Some b /\
      get g idx = Some (clip255 (luma r gr b)).
Proof.
  intros Hwf Hs. unfold to_grayscale. rewrite Hs, removelast_last.
  assert (C : forall idx, inb s idx = true -> exists r gr b,
      get a (idx ++ [0]) = Some r /\ get a (idx ++ [1]) = Some gr /\ get a (idx ++ [2]) = Some b).
  { intros idx Hi.
    destruct (get_wf_some a (idx ++ [0]) Hwf) as [r Hr]; [rewrite Hs; apply inb_snoc; [exact Hi|lia]|].
    destruct (get_wf_some a (idx ++ [1]) Hwf) as [g Hg]; [rewrite Hs; apply inb_snoc; [exact Hi|lia]|].
    destruct (get_wf_some a (idx ++ [2]) Hwf) as [b Hb]; [rewrite Hs; apply inb_snoc; [exact Hi|lia]|].
    eauto 8. }
  match goal with |- context [mapM ?F (indices s)] => set (f := F) end.
  destruct (mapM_ok f (indices s)) as [l Hl].
  { intros idx Hi. apply in_indices in Hi. destruct (C idx Hi) as (r & g & b & H1 & H2 & H3).
    unfold f. rewrite H1, H2, H3. cbn [from_opt bind]. eauto. }
  rewrite Hl. cbn [bind]. eexists. split; [reflexivity|]. split; [|split; [reflexivity|]].
  - unfold wf. simpl. rewrite (mapM_length _ _ _ Hl). apply length_indices.
  - intros idx Hi. destruct (C idx Hi) as (r & g & b & H1 & H2 & H3). exists r, g, b.
    do 3 (split; [assumption|]). unfold get. simpl. rewrite Hi.
    destruct (mapM_nth _ _ _ _ _ Hl (nth_error_indices _ _ Hi)) as (y & Hy & Hf).
    rewrite Hy. unfold f in Hf. rewrite H1, H2, H3 in Hf. cbn [from_opt bind] in Hf. congruence.
Qed.
