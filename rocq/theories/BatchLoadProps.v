(** Loading options in batch and multi-metric runs: properties C87 and C88. *)
From Coq Require Import Reals Lra.
From Verif Require Import Base NdArray LoadModel LoadProofs NormModel NormProofs NormProps PairModel PairProofs
  BatchModel BatchProofs BatchLoopProofs BatchProps.

(** ** C87 *)

Theorem C87_keyword : forall M P X F kind_of name_of score_fr score_nr to_f disk ident ub resize kw order dir rois global
    (ms : list (nat * P)) pr pairs results (h : @store M) rp mp,
  k_chromatic kw = true -> files dir pr rp mp ->
  @batch_calculate M P X F kind_of name_of score_fr score_nr to_f disk ident ub resize kw order dir rois global ms (pr :: pairs) results h
  = (Err TypeError, results, h).
Proof.
  intros M P X F kind_of name_of score_fr score_nr to_f disk ident ub resize kw order dir rois global ms pr pairs results h rp mp
    Hc (rn & mn & Er & Em & -> & ->).
  unfold batch_calculate. simpl. unfold batch_step. rewrite Er, Em. cbn [from_opt bind same].
  unfold load_in. rewrite Hc. reflexivity.
Qed.
Print Assumptions C87_keyword.

Theorem C87_keyword_multiple : forall M P X F kind_of name_of score_fr score_nr to_f disk ident ub resize kw order roi img_r img_m
    (ms : list (nat * P)) (h : @store M),
  k_chromatic kw = true ->
  @multi_calculate M P X F kind_of name_of score_fr score_nr to_f disk ident ub resize kw order roi img_r img_m ms h = (Err TypeError, h).
Proof.
  intros. unfold multi_calculate, calc, load_in. rewrite H. reflexivity.
Qed.
Print Assumptions C87_keyword_multiple.

(** Colour images reach the metrics as two-dimensional grey images ... *)
Theorem C87_grey : forall disk ident ub resize kw order r m h w a b,
  o_shape r = [h; w; 3] -> prepare_pair disk ident ub resize kw order None r m = Ok (a, b) ->
  o_shape a = [h; w] /\ o_shape b = [h; w].
Proof.
  intros disk ident ub resize kw order r m h w a b Hs H. unfold prepare_pair in H.
  apply bind_ok in H as (m1 & _ & H). apply bind_ok in H as (r2 & E2 & H). apply bind_ok in H as (m2 & _ & H).
  apply bind_ok in H as (r3 & R3 & H). apply bind_ok in H as (m3 & _ & H).
  simpl in E2. injection E2 as <-. apply reload_type in R3 as [S3 _].
  assert (A := proj2 (check_agree _ _ _ _ _ H)).
  apply check_loaded_ok in H as (r0 & m0 & E0 & _ & _ & _ & H). injection E0 as <-.
  destruct H as [(_ & _ & G & _)|(C & _)].
  - apply gray_out_shape in G as [G _]. rewrite S3, Hs in G. simpl in G. split; congruence.
  - exfalso. rewrite S3, Hs in C. apply proj2 in C. discriminate (C eq_refl).
Qed.
Print Assumptions C87_grey.

(** ... so a metric that wants colour rejects every such pair (unless it is three pixels wide). *)
Theorem C87_rejected : forall disk ident ub resize kw order r m h w a b ia ib disk' ident' ub' dr normalize r' m',
  o_shape r = [h; w; 3] -> w <> 3 -> prepare_pair disk ident ub resize kw order None r m = Ok (a, b) ->
  a = NImg ia -> b = NImg ib ->
  check_imgs disk' ident' ub' (InArray ia) (InArray ib) dr normalize [] true <> Ok (r', m').
Proof.
  intros disk ident ub resize kw order r m h w a b ia ib disk' ident' ub' dr normalize r' m' Hs Hw H -> -> Hc.
  destruct (C87_grey _ _ _ _ _ _ _ _ _ _ _ _ Hs H) as [Ha _]. simpl in Ha.
  unfold check_imgs in Hc. apply bind_ok in Hc as (lr & Lr & Hc). apply bind_ok in Hc as (lm & _ & Hc).
  apply check_loaded_ok in Hc as (r0 & m0 & -> & -> & _ & _ & [(E & _)|(C & _)]); [discriminate E|].
  assert (Hr : o_shape r0 = [h; w]).
  { unfold load_data in Lr. destruct (normalize && _); [discriminate Lr|]. apply bind_ok in Lr as ([] & _ & Lr).
    apply bind_ok in Lr as (o & Ho & Lr). injection Lr as <-.
    unfold prepare in Ho. apply bind_ok in Ho as (o1 & H1 & Ho). injection Ho as <-. rewrite <- Ha.
    destruct dr as [z|]; [|injection H1 as <-; reflexivity].
    destruct (normalize && negb (z =? 0)%Z); [|injection H1 as <-; reflexivity].
    apply (normalize_dims _ _ _ _ _ _ _ H1). }
  rewrite Hr in C. simpl in C. apply Hw. apply C. reflexivity.
Qed.
Print Assumptions C87_rejected.

Example C87_ex : exists a b,
  prepare_pair (fun _ => Err ValueError) Z.eqb (fun _ => 0%Z) (fun _ _ _ _ => Err ValueError) (Kw None false false) 1 None
    (NImg (Img (UInt 8) (PI (Arr [2; 2; 3] (repeat 0%Z 12))))) (NImg (Img (UInt 8) (PI (Arr [2; 2; 3] (repeat 0%Z 12))))) = Ok (a, b) /\
  o_shape a = [2; 2].
Proof. do 2 eexists. split; [reflexivity|]. reflexivity. Qed.

(** ** C88 *)

(** Requesting the full 16-bit range; 65535 is not a shared integer object. *)
Definition kw16 : kwargs := Kw (Some 65535%Z) true false.

Lemma mod_65535 v : (0 <= v <= 65535)%Z -> (v * 65535 mod 65536 = if v =? 0 then 0 else 65536 - v)%Z.
Proof.
  intros Hv. destruct (Z.eqb_spec v 0) as [->|N]; [reflexivity|].
  symmetry. apply Z.mod_unique with (q := (v - 1)%Z); lia.
Qed.

(** A second normalisation of a 16-bit image that uses the full range leaves only pixels of value 1. *)
Theorem C88_second_pass : forall ident ub a,
  ident 65535%Z 65535%Z = false -> is_min 0%Z (dat a) -> is_max 65535%Z (dat a) ->
  normalize_data ident ub (Img (UInt 16) (PI a)) 0 65535 None
  = Ok (NImg (Img (UInt 16) (PI (amap (fun v => if (v =? 1)%Z then 1%Z else 0%Z) a)))).
Proof.
  intros ident ub a Hid Hmin Hmax.
  assert (Hr : forall v, In v (dat a) -> (0 <= v <= 65535)%Z).
  { intros v Hv. split; [apply (proj2 Hmin v Hv)|apply (proj2 Hmax v Hv)]. }
  rewrite (normalize_uint ident ub 16 a 65535 0 65535).
  - do 4 f_equal. unfold amap. f_equal. apply map_ext_in. intros v Hv. specialize (Hr v Hv).
    unfold wrapped_stretch, product_bits. simpl Nat.max. rewrite !Z.sub_0_r.
    change (2 ^ Z.of_nat 16)%Z with 65536%Z. rewrite mod_65535 by exact Hr.
    destruct (Z.eqb_spec v 0) as [->|N0]; [reflexivity|]. destruct (Z.eqb_spec v 1) as [->|N1]; [reflexivity|].
    apply Z.div_small. lia.
  - right; left; reflexivity.
  - right; reflexivity.
  - intros v Hv. specialize (Hr v Hv). simpl. lia.
  - exact Hmin.
  - exact Hmax.
  - lia.
  - simpl. rewrite Hid. reflexivity.
Qed.
Print Assumptions C88_second_pass.

Lemma third_pass ident ub a : ident 65535%Z 65535%Z = false -> (forall v, In v (dat a) -> v = 0%Z \/ v = 1%Z) ->
  In 0%Z (dat a) ->
  normalize_data ident ub (Img (UInt 16) (PI a)) 0 65535 None
  = if existsb (Z.eqb 1) (dat a) then Ok (NImg (Img (UInt 16) (PI (amap (fun v => v * 65535)%Z a))))
    else Ok (NNan (UInt 16) (shp a)).
Proof.
  intros Hid H01 H0.
  assert (Hmin : is_min 0%Z (dat a)).
  { split; [exact H0|]. intros v Hv. destruct (H01 v Hv); lia. }
  destruct (existsb (Z.eqb 1) (dat a)) eqn:E.
  - apply existsb_exists in E as (v & Hv & E). apply Z.eqb_eq in E. subst v.
    rewrite (normalize_uint ident ub 16 a 65535 0 1).
    + do 4 f_equal. unfold amap. f_equal. apply map_ext_in. intros v Hw. destruct (H01 v Hw) as [->| ->]; reflexivity.
    + right; left; reflexivity.
    + right; reflexivity.
    + intros w Hw. destruct (H01 w Hw) as [->| ->]; simpl; lia.
    + exact Hmin.
    + split; [exact Hv|]. intros w Hw. destruct (H01 w Hw) as [->| ->]; lia.
    + lia.
    + simpl. rewrite Hid. reflexivity.
  - assert (Hmax : is_max 0%Z (dat a)).
    { split; [exact H0|]. intros v Hv. destruct (H01 v Hv) as [->| ->]; [lia|]. exfalso.
      assert (existsb (Z.eqb 1) (dat a) = true) by (apply existsb_exists; exists 1%Z; auto). congruence. }
    unfold normalize_data. cbn [dt already_normalised]. change (imax (UInt 16)) with 65535%Z. rewrite Hid. cbn [andb px].
    rewrite (zmin_is _ _ Hmin), (zmax_is _ _ Hmax). reflexivity.
Qed.

(** A floating-point image file with its smallest and largest pixel; not a colour image *)
Definition float_file (disk : text -> res image) (path : text) (a : arr R) (mn mx : R) : Prop :=
  (exists b, disk path = Ok (Img (Float b) (PF a))) /\ is_rmin mn (dat a) /\ is_rmax mx (dat a) /\ (mn < mx)%R /\
  2 <= length (shp a) <= 3 /\ last (shp a) 0 <> 3.

(** The grey value in 0..65535 that one normalisation gives (C09) *)
Definition grey16 (mn mx v : R) : Z := Rtrunc (linear 65535 mn mx v).

(** What is left after two and after three normalisations *)
Definition twice (a : arr R) (mn mx : R) : norm_out :=
  NImg (Img (UInt 16) (PI (amap (fun v => if (grey16 mn mx v =? 1)%Z then 1%Z else 0%Z) a))).
Definition thrice (a : arr R) (mn mx : R) : norm_out :=
  if existsb (fun v => (grey16 mn mx v =? 1)%Z) (dat a)
  then NImg (Img (UInt 16) (PI (amap (fun v => if (grey16 mn mx v =? 1)%Z then 65535%Z else 0%Z) a)))
  else NNan (UInt 16) (shp a).

Lemma check_dims_ok s : 2 <= length s <= 3 -> check_dims s = Ok tt.
Proof.
  intros H. unfold check_dims, raise_if.
  destruct (Nat.ltb_spec 3 (length s)); [lia|]. destruct (Nat.ltb_spec (length s) 2); [lia|]. reflexivity.
Qed.

Lemma load16 disk ident ub path a mn mx : float_file disk path a mn mx ->
  load_in disk ident ub kw16 (InPath path) = Ok (NImg (Img (UInt 16) (PI (amap (grey16 mn mx) a)))).
Proof.
  intros ((b & D) & Hmin & Hmax & Hlt & Hd & _). unfold load_in, load_data. cbn [kw16 k_chromatic k_norm k_range andb].
  rewrite D. cbn [bind]. change (shape (Img (Float b) (PF a))) with (shp a). rewrite (check_dims_ok _ Hd). cbn [bind].
  unfold prepare. cbn [andb negb]. change (65535 =? 0)%Z with false. cbn [negb].
  rewrite (proj1 (normalize_real_int ident ub b a 65535 mn mx (or_intror eq_refl) Hmin Hmax Hlt)). reflexivity.
Qed.

Lemma reload16 disk ident ub a : 2 <= length (shp a) <= 3 ->
  reload disk ident ub kw16 (NImg (Img (UInt 16) (PI a))) = normalize_data ident ub (Img (UInt 16) (PI a)) 0 65535 None.
Proof.
  intros Hd. unfold reload, load_in, load_data. cbn [kw16 k_chromatic k_norm k_range andb].
  change (shape (Img (UInt 16) (PI a))) with (shp a). rewrite (check_dims_ok _ Hd). cbn [bind].
  unfold prepare. change (65535 =? 0)%Z with false. cbn [negb andb].
  destruct (normalize_data _ _ _ _ _ _); reflexivity.
Qed.

Lemma grey_extrema disk path a mn mx : float_file disk path a mn mx ->
  is_min 0%Z (map (grey16 mn mx) (dat a)) /\ is_max 65535%Z (map (grey16 mn mx) (dat a)).
Proof.
  intros (_ & Hmin & Hmax & Hlt & _).
  destruct (normalize_real_int (fun _ _ => false) (fun _ => 0%Z) 64 a 65535 mn mx (or_intror eq_refl) Hmin Hmax Hlt)
    as (_ & Hr & _ & H0 & H1).
  split; split.
  - rewrite <- H0. apply in_map with (f := grey16 mn mx), Hmin.
  - intros x Hx. apply in_map_iff in Hx as (v & <- & Hv). apply (Hr v Hv).
  - rewrite <- H1. apply in_map with (f := grey16 mn mx), Hmax.
  - intros x Hx. apply in_map_iff in Hx as (v & <- & Hv). apply (Hr v Hv).
Qed.

Lemma reload_twice disk ident ub path a mn mx : ident 65535%Z 65535%Z = false -> float_file disk path a mn mx ->
  reload disk ident ub kw16 (NImg (Img (UInt 16) (PI (amap (grey16 mn mx) a)))) = Ok (twice a mn mx).
Proof.
  intros Hid H. destruct (grey_extrema _ _ _ _ _ H) as [H0 H1]. rewrite reload16 by apply H.
  rewrite C88_second_pass by assumption. unfold twice, amap. cbn [shp dat]. rewrite map_map. reflexivity.
Qed.

Lemma existsb_map {A B} (f : B -> bool) (g : A -> B) l : existsb f (map g l) = existsb (fun x => f (g x)) l.
Proof. induction l as [|x l IH]; simpl; [|rewrite IH]; reflexivity. Qed.

Lemma existsb_same {A} (f g : A -> bool) l : (forall x, f x = g x) -> existsb f l = existsb g l.
Proof. intros H. induction l as [|x l IH]; simpl; [|rewrite H, IH]; reflexivity. Qed.

Lemma reload_thrice disk ident ub path a mn mx : ident 65535%Z 65535%Z = false -> float_file disk path a mn mx ->
  reload disk ident ub kw16 (twice a mn mx) = Ok (thrice a mn mx).
Proof.
  intros Hid H. destruct (grey_extrema _ _ _ _ _ H) as [[H0 _] _]. unfold twice, thrice. rewrite reload16 by apply H.
  rewrite third_pass; [|exact Hid| |].
  - unfold amap. cbn [dat shp]. rewrite existsb_map.
    rewrite (existsb_same _ (fun v => (grey16 mn mx v =? 1)%Z)) by (intros v; destruct (grey16 mn mx v =? 1)%Z; reflexivity).
    destruct (existsb _ _); [|reflexivity]. rewrite map_map. do 5 f_equal. apply map_ext. intros v.
    destruct (grey16 mn mx v =? 1)%Z; reflexivity.
  - intros v Hv. apply in_map_iff in Hv as (w & <- & _). destruct (grey16 mn mx w =? 1)%Z; auto.
  - apply in_map_iff in H0 as (w & E & Hw). apply in_map_iff. exists w. split; [rewrite E; reflexivity|exact Hw].
Qed.

Lemma twice_shape a mn mx : o_shape (twice a mn mx) = shp a /\ o_type (twice a mn mx) = UInt 16.
Proof. split; reflexivity. Qed.
Lemma thrice_shape a mn mx : o_shape (thrice a mn mx) = shp a /\ o_type (thrice a mn mx) = UInt 16.
Proof. unfold thrice. destruct (existsb _ _); split; reflexivity. Qed.

Lemma check_pair r m s : o_shape r = s /\ o_type r = UInt 16 -> o_shape m = s /\ o_type m = UInt 16 -> last s 0 <> 3 ->
  check_loaded (LOne r) (LOne m) false = Ok (r, m).
Proof.
  intros [Sr Tr] [Sm Tm] H. unfold check_loaded. rewrite Sr, Sm, Tr, Tm.
  assert (E : shape_eqb s s = true) by (apply shape_eqb_eq; reflexivity). rewrite E.
  destruct (Nat.eqb_spec (last s 0) 3); [contradiction|]. reflexivity.
Qed.

Lemma same_size resize r m order : o_shape r = o_shape m -> resize_image resize r m order = Ok m.
Proof. intros H. unfold resize_image. rewrite H, (proj2 (shape_eqb_eq _ _) eq_refl). reflexivity. Qed.

(** MultipleMetrics hands images normalised twice to the metrics ... *)
Theorem C88_multiple : forall M P X F kind_of name_of score_fr score_nr to_f disk ident ub resize order rp mp a b mna mxa mnb mxb
    (ms : list (nat * P)) (h : @store M),
  ident 65535%Z 65535%Z = false -> float_file disk rp a mna mxa -> float_file disk mp b mnb mxb -> shp a = shp b ->
  @multi_calculate M P X F kind_of name_of score_fr score_nr to_f disk ident ub resize kw16 order None (InPath rp) (InPath mp) ms h
  = run_metrics kind_of name_of score_fr score_nr to_f None None (twice a mna mxa) (twice b mnb mxb) ms [] h.
Proof.
  intros M P X F kind_of name_of score_fr score_nr to_f disk ident ub resize order rp mp a b mna mxa mnb mxb ms h Hid Ha Hb Hs.
  unfold multi_calculate, calc. rewrite (load16 _ _ _ _ _ _ _ Ha), (load16 _ _ _ _ _ _ _ Hb). cbn [bind].
  unfold prepare_pair. rewrite same_size by exact Hs. cbn [bind crop_opt].
  rewrite (reload_twice _ _ _ _ _ _ _ Hid Ha), (reload_twice _ _ _ _ _ _ _ Hid Hb). cbn [bind].
  rewrite (check_pair _ _ (shp a)); [reflexivity|apply twice_shape|rewrite Hs; apply twice_shape|apply Ha].
Qed.
Print Assumptions C88_multiple.

(** ... and BatchMetrics images normalised three times. *)
Theorem C88_batch : forall M P X F kind_of name_of score_fr score_nr to_f disk ident ub resize order dir pr rp mp a b mna mxa mnb mxb
    (ms : list (nat * P)) (h : @store M),
  ident 65535%Z 65535%Z = false -> files dir pr rp mp ->
  float_file disk rp a mna mxa -> float_file disk mp b mnb mxb -> shp a = shp b ->
  @batch_calculate M P X F kind_of name_of score_fr score_nr to_f disk ident ub resize kw16 order dir None None ms [pr] [] h
  = match run_metrics kind_of name_of score_fr score_nr to_f None None (thrice a mna mxa) (thrice b mnb mxb) ms [] h with
    | (Ok d, h') => (Ok tt, [("0"%string, d)], h')
    | (Err e, h') => (Err e, [], h')
    end.
Proof.
  intros M P X F kind_of name_of score_fr score_nr to_f disk ident ub resize order dir pr rp mp a b mna mxa mnb mxb ms h
    Hid (rn & mn & Er & Em & -> & ->) Ha Hb Hs.
  unfold batch_calculate. cbn [batch_loop]. unfold batch_step. rewrite Er, Em. cbn [from_opt bind same].
  rewrite (load16 _ _ _ _ _ _ _ Ha), (load16 _ _ _ _ _ _ _ Hb). cbn [bind pair_roi option_map].
  unfold calc. rewrite (reload_twice _ _ _ _ _ _ _ Hid Ha), (reload_twice _ _ _ _ _ _ _ Hid Hb). cbn [bind].
  unfold prepare_pair. rewrite same_size by (rewrite (proj1 (twice_shape a mna mxa)), (proj1 (twice_shape b mnb mxb)); exact Hs).
  cbn [bind crop_opt].
  rewrite (reload_thrice _ _ _ _ _ _ _ Hid Ha), (reload_thrice _ _ _ _ _ _ _ Hid Hb). cbn [bind].
  rewrite (check_pair _ _ (shp a)); [|apply thrice_shape|rewrite Hs; apply thrice_shape|apply Ha].
  destruct (run_metrics _ _ _ _ _ _ _ _ _ _ _ _) as [[d|e] h']; reflexivity.
Qed.
Print Assumptions C88_batch.

(** So with normalisation the scores of the two differ (compare C53_multiple): a metric that returns the
    reference image it was given. *)
Definition probe_disk (_ : text) : res image := Ok (Img (Float 64) (PF (Arr [2; 2] [0; 1; 2; 65535]%R))).
Definition probe_fr (s : unit) (_ : unit) (r m : norm_out) : res norm_out * unit := (Ok r, s).
Definition probe_nr (s : unit) (_ : unit) (r : norm_out) : res norm_out * unit := (Ok r, s).
Definition probe_ident : identity := fun a b => (a =? b)%Z && (-5 <=? a)%Z && (a <=? 256)%Z.

Lemma probe_grey z : (0 <= z)%Z -> grey16 0 65535 (IZR z) = z.
Proof.
  intros Hz. unfold grey16. replace (linear 65535 0 65535 (IZR z)) with (IZR z); [apply Rtrunc_IZR, Hz|].
  unfold linear. field.
Qed.

Lemma probe_file path : float_file probe_disk path (Arr [2; 2] [0; 1; 2; 65535]%R) 0 65535.
Proof.
  split; [exists 64; reflexivity|].
  split; [split; [simpl; auto|]; intros x H; simpl in H; intuition subst; lra|].
  split; [split; [simpl; auto|]; intros x H; simpl in H; intuition subst; lra|].
  split; [lra|]. split; [simpl; lia|]. discriminate.
Qed.

Definition probe_pair : pair := toy_pair "a" "b".
Definition probe_multiple :=
  multi_calculate (fun _ : unit => FullRef) (fun _ => Some "P"%string) probe_fr probe_nr (fun x => Ok x) probe_disk probe_ident (fun _ => 0%Z)
    (fun _ _ _ _ => Err ValueError) kw16 1 None (InPath (join [] (lit "a"))) (InPath (join [] (lit "b"))) [(0, tt)] (fun _ => tt).
Definition probe_batch :=
  batch_calculate (fun _ : unit => FullRef) (fun _ => Some "P"%string) probe_fr probe_nr (fun x => Ok x) probe_disk probe_ident (fun _ => 0%Z)
    (fun _ _ _ _ => Err ValueError) kw16 1 [] None None [(0, tt)] [probe_pair] [] (fun _ => tt).

Theorem C88_refuted : exists d d' h h',
  cpython_identity probe_ident /\ probe_multiple = (Ok d, h) /\ probe_batch = (Ok tt, [("0"%string, d')], h') /\ d <> d' /\
  dget d "P" = Some (NImg (Img (UInt 16) (PI (Arr [2; 2] [0; 1; 0; 0]%Z)))) /\
  dget d' "P" = Some (NImg (Img (UInt 16) (PI (Arr [2; 2] [0; 65535; 0; 0]%Z)))).
Proof.
  assert (E2 : twice (Arr [2; 2] [0; 1; 2; 65535]%R) 0 65535 = NImg (Img (UInt 16) (PI (Arr [2; 2] [0; 1; 0; 0]%Z)))).
  { unfold twice, amap. cbn [shp dat map]. rewrite !probe_grey by lia. reflexivity. }
  assert (E3 : thrice (Arr [2; 2] [0; 1; 2; 65535]%R) 0 65535 = NImg (Img (UInt 16) (PI (Arr [2; 2] [0; 65535; 0; 0]%Z)))).
  { unfold thrice, amap. cbn [shp dat map existsb]. rewrite !probe_grey by lia. reflexivity. }
  exists [("P"%string, NImg (Img (UInt 16) (PI (Arr [2; 2] [0; 1; 0; 0]%Z))))],
         [("P"%string, NImg (Img (UInt 16) (PI (Arr [2; 2] [0; 65535; 0; 0]%Z))))].
  eexists. eexists. split; [|split; [|split; [|split; [discriminate|split; reflexivity]]]].
  - split.
    + intros a b H. apply andb_true_iff in H as [H _]. apply andb_true_iff in H as [H _]. apply Z.eqb_eq, H.
    + intros a H. unfold probe_ident. rewrite Z.eqb_refl. simpl. apply andb_true_iff. split; apply Z.leb_le; lia.
  - unfold probe_multiple.
    erewrite C88_multiple; [rewrite E2; reflexivity|reflexivity|apply probe_file|apply probe_file|reflexivity].
  - unfold probe_batch.
    erewrite C88_batch; [rewrite E3; reflexivity|reflexivity| |apply probe_file|apply probe_file|reflexivity].
    exists (lit "a"), (lit "b"). repeat split; reflexivity.
Qed.
Print Assumptions C88_refuted.

(** With 8-bit images the second and third normalisation do nothing: 255 and 0 are shared integers. *)
Theorem C88_8_bit : forall disk ident ub path o,
  cpython_identity ident -> load_in disk ident ub (Kw (Some 255%Z) true false) (InPath path) = Ok o ->
  reload disk ident ub (Kw (Some 255%Z) true false) o = Ok o.
Proof.
  intros disk ident ub path o [_ Hid] H.
  assert (D : check_dims (o_shape o) = Ok tt).
  { unfold load_in, load_data in H. cbn [k_chromatic k_norm k_range andb] in H. apply bind_ok in H as (l & H & Ho).
    apply bind_ok in H as (im & _ & H). apply bind_ok in H as ([] & D & H). apply bind_ok in H as (o1 & H1 & H).
    injection H as <-. injection Ho as <-.
    rewrite (proj1 (prepare_type ident ub (Kw (Some 255%Z) true false) _ _ H1)). exact D. }
  assert (A : already_normalised ident (o_type o) 0 255 = true).
  { apply load_in_path in H as (im & _ & _ & T). rewrite T. unfold loaded_type. simpl.
    destruct (already_normalised ident (dt im) 0 255) eqn:E; simpl; [exact E|].
    rewrite !Hid by lia. reflexivity. }
  destruct o as [im|d s]; cbn [reload o_type o_shape] in *.
  - unfold load_in, load_data. cbn [k_chromatic k_norm k_range andb]. rewrite D. cbn [bind].
    unfold prepare. change (255 =? 0)%Z with false. cbn [negb andb]. unfold normalize_data.
    destruct (dt im); try discriminate A; rewrite A; reflexivity.
  - cbn [k_chromatic k_norm k_range]. rewrite D. cbn [bind andb]. change (255 =? 0)%Z with false. cbn [negb].
    rewrite A. reflexivity.
Qed.
Print Assumptions C88_8_bit.

(** 0, 1 and 65535 normalised once more. *)
Example C88_ex : normalize_data probe_ident (fun _ => 0%Z) (Img (UInt 16) (PI (Arr [1; 4] [0; 1; 2; 65535]%Z))) 0 65535 None
  = Ok (NImg (Img (UInt 16) (PI (Arr [1; 4] [0; 1; 0; 0]%Z)))).
Proof.
  rewrite C88_second_pass; [reflexivity|reflexivity| |].
  - split; [left; reflexivity|]. intros v Hv. cbn in Hv. lia.
  - split; [do 3 right; left; reflexivity|]. intros v Hv. cbn in Hv. lia.
Qed.
