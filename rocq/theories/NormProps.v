(** Properties C09-C13: intensity normalisation. *)
From Coq Require Import Reals Lra SpecFloat.
From Verif Require Import Base NdArray LoadModel NormModel NormProofs.

(** C09 *)
Theorem C09_unit_range : forall ident ub b a mn mx,
  is_rmin mn (dat a) -> is_rmax mx (dat a) -> (mn < mx)%R ->
  normalize_data ident ub (Img (Float b) (PF a)) 0 1 None
  = Ok (NImg (Img (Float 32) (PF (amap (linear 1 mn mx) a)))) /\
  linear 1 mn mx mn = 0%R /\ linear 1 mn mx mx = 1%R /\
  (forall v, In v (dat a) -> (0 <= linear 1 mn mx v <= 1)%R) /\
  (forall v w, (v < w)%R -> (linear 1 mn mx v < linear 1 mn mx w)%R).
Proof.
  intros ident ub b a mn mx Hmin Hmax Hlt.
  split; [apply normalize_real_unit; assumption|].
  split; [apply linear_min; exact Hlt|]. split; [apply (linear_max 1); exact Hlt|]. split.
  - intros v Hv. apply (linear_range 1); [lia|exact Hlt|].
    split; [apply (proj2 Hmin v Hv)|apply (proj2 Hmax v Hv)].
  - intros v w Hvw. apply linear_strict; [lia|exact Hlt|exact Hvw].
Qed.
Print Assumptions C09_unit_range.

Theorem C09_integer_range : forall ident ub b a hi mn mx,
  hi = 255%Z \/ hi = 65535%Z -> is_rmin mn (dat a) -> is_rmax mx (dat a) -> (mn < mx)%R ->
  normalize_data ident ub (Img (Float b) (PF a)) 0 hi None
  = Ok (NImg (Img (UInt (out_bits hi)) (PI (amap (fun v => Rtrunc (linear hi mn mx v)) a)))) /\
  (forall v, In v (dat a) -> (0 <= Rtrunc (linear hi mn mx v) <= hi)%Z) /\
  (forall v w, In v (dat a) -> In w (dat a) -> (v <= w)%R ->
     (Rtrunc (linear hi mn mx v) <= Rtrunc (linear hi mn mx w))%Z) /\
  Rtrunc (linear hi mn mx mn) = 0%Z /\ Rtrunc (linear hi mn mx mx) = hi.
Proof. exact normalize_real_int. Qed.
Print Assumptions C09_integer_range.

Theorem C09_affine_invariance : forall ident ub b b' a hi s t mn mx,
  std_range hi -> is_rmin mn (dat a) -> is_rmax mx (dat a) -> (mn < mx)%R -> (0 < s)%R ->
  normalize_data ident ub (Img (Float b') (PF (amap (fun v => s * v + t)%R a))) 0 hi None
  = normalize_data ident ub (Img (Float b) (PF a)) 0 hi None.
Proof. exact normalize_affine. Qed.
Print Assumptions C09_affine_invariance.

Theorem C09_idempotent : forall ident ub b a mn mx,
  is_rmin mn (dat a) -> is_rmax mx (dat a) -> (mn < mx)%R ->
  exists im, normalize_data ident ub (Img (Float b) (PF a)) 0 1 None = Ok (NImg im) /\
             normalize_data ident ub im 0 1 None = Ok (NImg im).
Proof. exact normalize_idempotent. Qed.
Print Assumptions C09_idempotent.

Example C09_example :
  let l := [3; -1; 7; 3]%R in
  is_rmin (-1)%R l /\ is_rmax 7%R l /\ linear 1 (-1) 7 3 = (1 / 2)%R /\
  Rtrunc (linear 255 (-1) 7 3) = 127%Z.
Proof.
  cbv zeta. split; [|split; [|split]].
  - split; [simpl; auto|]. intros x H. simpl in H. intuition lra.
  - split; [simpl; auto|]. intros x H. simpl in H. intuition lra.
  - unfold linear. field_simplify; lra.
  - unfold linear, Rtrunc. destruct (Rle_dec 0 _) as [_|H].
    + apply Int_part_unique. lra.
    + exfalso. apply H. lra.
Qed.

(** C10. [wrapped_stretch b hi mn mx v] = ((v-mn)*hi mod 2^width) / (mx-mn). *)
Theorem C10_result : forall ident ub b a hi mn mx,
  std_width b -> hi = 255%Z \/ hi = 65535%Z ->
  (forall v, In v (dat a) -> (0 <= v < 2 ^ Z.of_nat b)%Z) ->
  is_min mn (dat a) -> is_max mx (dat a) -> (mn < mx)%Z ->
  already_normalised ident (UInt b) 0 hi = false ->
  normalize_data ident ub (Img (UInt b) (PI a)) 0 hi None
  = Ok (NImg (Img (UInt (out_bits hi)) (PI (amap (wrapped_stretch b hi mn mx) a)))).
Proof. exact normalize_uint. Qed.
Print Assumptions C10_result.

Theorem C10_exact_if_it_fits : forall ident ub b a hi mn mx,
  std_width b -> hi = 255%Z \/ hi = 65535%Z ->
  (forall v, In v (dat a) -> (0 <= v < 2 ^ Z.of_nat b)%Z) ->
  is_min mn (dat a) -> is_max mx (dat a) -> (mn < mx)%Z ->
  already_normalised ident (UInt b) 0 hi = false ->
  ((mx - mn) * hi < 2 ^ Z.of_nat (product_bits b hi))%Z ->
  normalize_data ident ub (Img (UInt b) (PI a)) 0 hi None
  = Ok (NImg (Img (UInt (out_bits hi)) (PI (amap (fun v => (v - mn) * hi / (mx - mn))%Z a)))).
Proof.
  intros ident ub b a hi mn mx Hb Hh Hr Hmin Hmax Hlt Hid Hfit.
  rewrite (normalize_uint ident ub b a hi mn mx) by assumption.
  enough (E : map (wrapped_stretch b hi mn mx) (dat a)
            = map (fun v => (v - mn) * hi / (mx - mn))%Z (dat a)) by (unfold amap; rewrite E; reflexivity).
  apply map_ext_in. intros v Hv. apply wrapped_exact; [lia| |exact Hfit].
  split; [apply (proj2 Hmin v Hv)|apply (proj2 Hmax v Hv)].
Qed.
Print Assumptions C10_exact_if_it_fits.

Theorem C10_unit_range : forall ident ub b a mn mx,
  std_width b ->
  (forall v, In v (dat a) -> (0 <= v < 2 ^ Z.of_nat b)%Z) ->
  is_min mn (dat a) -> is_max mx (dat a) -> (mn < mx)%Z ->
  cpython_identity ident ->
  normalize_data ident ub (Img (UInt b) (PI a)) 0 1 None
  = Ok (NImg (Img (Float 32) (PF (amap (fun v => IZR (v - mn) / IZR (mx - mn))%R a)))).
Proof. exact normalize_uint_unit. Qed.
Print Assumptions C10_unit_range.

(** The brightest pixel reaches the full scale exactly when the product fits. *)
Theorem C10_full_scale_iff : forall b hi mn mx,
  (0 < hi)%Z -> (mn < mx)%Z ->
  wrapped_stretch b hi mn mx mx = hi <-> ((mx - mn) * hi < 2 ^ Z.of_nat (product_bits b hi))%Z.
Proof. exact full_scale_iff. Qed.
Print Assumptions C10_full_scale_iff.

(** Images spanning the whole 16 or 32 bit range: the brightest pixel becomes 0. *)
Theorem C10_full_range_images : forall b hi mn mx,
  std_width b -> hi = 255%Z \/ hi = 65535%Z -> product_bits b hi = b ->
  (mx - mn = 2 ^ Z.of_nat b - 1)%Z -> b <> 8 -> wrapped_stretch b hi mn mx mx = 0%Z.
Proof.
  intros b hi mn mx Hb Hh Hp Hm Hn.
  destruct (full_range_zero b hi mn mx Hb Hh Hp Hm); [assumption|contradiction].
Qed.
Print Assumptions C10_full_range_images.

Theorem C10_signed : forall ident ub b a hi mn mx,
  std_width b -> hi = 255%Z \/ hi = 65535%Z -> cpython_identity ident ->
  is_min mn (dat a) -> is_max mx (dat a) -> (mn < mx)%Z ->
  (mx - mn < 2 ^ (Z.of_nat b - 1))%Z ->
  ((mx - mn) * hi < 2 ^ (Z.of_nat (product_bits_s b hi) - 1))%Z ->
  normalize_data ident ub (Img (SInt b) (PI a)) 0 hi None
  = Ok (NImg (Img (UInt (out_bits hi)) (PI (amap (fun v => (v - mn) * hi / (mx - mn))%Z a)))).
Proof. exact normalize_sint. Qed.
Print Assumptions C10_signed.

(** "Normalisation keeps the order of grey values" is false for 16-bit images. *)
Theorem C10_order_preserving_refuted : exists a a',
  (forall v, In v (dat a) -> (0 <= v < 2 ^ 16)%Z) /\
  (forall ident ub, cpython_identity ident ->
     normalize_data ident ub (Img (UInt 16) (PI a)) 0 255 None
     = Ok (NImg (Img (UInt 8) (PI a')))) /\
  exists i j v w v' w',
    get a [i; 0] = Some v /\ get a [j; 0] = Some w /\ (v < w)%Z /\
    get a' [i; 0] = Some v' /\ get a' [j; 0] = Some w' /\ (w' < v')%Z.
Proof.
  exists (Arr [4; 1] [0; 257; 258; 65535]%Z), (Arr [4; 1] [0; 1; 0; 0]%Z).
  split; [|split].
  - intros v H. simpl in H. intuition subst; lia.
  - intros ident ub [Hid _].
    rewrite (normalize_uint ident ub 16 _ 255 0 65535).
    + reflexivity.
    + right; left; reflexivity.
    + left; reflexivity.
    + intros v H. simpl in H. intuition subst; simpl; lia.
    + split; [simpl; auto|]. intros x H. simpl in H. intuition subst; lia.
    + split; [simpl; auto|]. intros x H. simpl in H. intuition subst; lia.
    + lia.
    + unfold already_normalised. destruct (ident (imax (UInt 16)) 255%Z) eqn:E; [|reflexivity].
      apply Hid in E. discriminate E.
  - exists 1, 2, 257%Z, 258%Z, 1%Z, 0%Z. repeat split; lia.
Qed.
Print Assumptions C10_order_preserving_refuted.

(** README example: an 8-bit image normalised to 16 bit should reach 65535. *)
Theorem C10_readme_full_scale_refuted : exists a a',
  is_max 255 (dat a) /\
  (forall ident ub, cpython_identity ident ->
     normalize_data ident ub (Img (UInt 8) (PI a)) 0 65535 None
     = Ok (NImg (Img (UInt 16) (PI a')))) /\
  is_max 256 (dat a').
Proof.
  exists (Arr [3; 1] [0; 128; 255]%Z), (Arr [3; 1] [0; 256; 256]%Z).
  split; [|split].
  - split; [simpl; auto|]. intros x H. simpl in H. intuition subst; lia.
  - intros ident ub [Hid _].
    rewrite (normalize_uint ident ub 8 _ 65535 0 255).
    + reflexivity.
    + left; reflexivity.
    + right; reflexivity.
    + intros v H. simpl in H. intuition subst; simpl; lia.
    + split; [simpl; auto|]. intros x H. simpl in H. intuition subst; lia.
    + split; [simpl; auto|]. intros x H. simpl in H. intuition subst; lia.
    + lia.
    + unfold already_normalised. destruct (ident (imax (UInt 8)) 65535%Z) eqn:E; [|reflexivity].
      apply Hid in E. discriminate E.
  - split; [simpl; auto|]. intros x H. simpl in H. intuition subst; lia.
Qed.
Print Assumptions C10_readme_full_scale_refuted.

(** 16-bit images stay in order when they span at most 257 grey values. *)
Example C10_example :
  product_bits 16 255 = 16 /\ (257 * 255 < 2 ^ 16)%Z /\ (258 * 255 >= 2 ^ 16)%Z /\
  wrapped_stretch 16 255 1000 1257 1257 = 255%Z /\ wrapped_stretch 16 255 1000 1258 1258 = 0%Z.
Proof. repeat split; lia. Qed.

(** C11 *)
Theorem C11_shortcut_untouched : forall ident ub im lo hi auto,
  already_normalised ident (dt im) lo hi = true ->
  normalize_data ident ub im lo hi auto = Ok (NImg im).
Proof.
  intros ident ub im lo hi auto H. unfold normalize_data.
  destruct (dt im); try discriminate H; rewrite H; reflexivity.
Qed.
Print Assumptions C11_shortcut_untouched.

(** The shortcut needs an integer type spanning the requested range, and identical objects. *)
Theorem C11_shortcut_condition : forall ident d lo hi,
  cpython_identity ident -> already_normalised ident d lo hi = true ->
  exists b, (d = UInt b /\ lo = 0 /\ hi = 2 ^ Z.of_nat b - 1)%Z \/
            (d = SInt b /\ lo = - 2 ^ (Z.of_nat b - 1) /\ hi = 2 ^ (Z.of_nat b - 1) - 1)%Z.
Proof.
  intros ident d lo hi [Hid _] H. destruct d; cbn [already_normalised] in H; try discriminate H;
    apply andb_true_iff in H as [H1 H2]; apply Hid in H1, H2; cbn [imin imax] in H1, H2; eexists; [left|right];
    (split; [reflexivity|split; symmetry; assumption]).
Qed.
Print Assumptions C11_shortcut_condition.

Theorem C11_guaranteed_for_8_bit : forall ident ub a auto,
  cpython_identity ident ->
  normalize_data ident ub (Img (UInt 8) (PI a)) 0 255 auto = Ok (NImg (Img (UInt 8) (PI a))).
Proof.
  intros ident ub a auto [_ Hid]. apply C11_shortcut_untouched.
  cbn [dt already_normalised]. rewrite !Hid by (simpl; lia). reflexivity.
Qed.
Print Assumptions C11_guaranteed_for_8_bit.

(** Leaving 16-bit images alone when (0, 65535) is requested is not guaranteed. *)
Theorem C11_16_bit_refuted : exists ident a a',
  cpython_identity ident /\ a <> a' /\
  forall ub, normalize_data ident ub (Img (UInt 16) (PI a)) 0 65535 None
             = Ok (NImg (Img (UInt 16) (PI a'))).
Proof.
  exists (fun a b => (a =? b)%Z && (-5 <=? a)%Z && (a <=? 256)%Z),
         (Arr [2; 1] [7; 8]%Z), (Arr [2; 1] [0; 65535]%Z).
  split; [|split].
  - split.
    + intros a b H. apply andb_true_iff in H as [H _]. apply andb_true_iff in H as [H _].
      apply Z.eqb_eq. exact H.
    + intros a H. rewrite Z.eqb_refl. simpl. apply andb_true_iff. split; apply Z.leb_le; lia.
  - discriminate.
  - intros ub. rewrite (normalize_uint _ ub 16 _ 65535 7 8).
    + reflexivity.
    + right; left; reflexivity.
    + right; reflexivity.
    + intros v H. simpl in H. intuition subst; simpl; lia.
    + split; [simpl; auto|]. intros x H. simpl in H. intuition subst; lia.
    + split; [simpl; auto|]. intros x H. simpl in H. intuition subst; lia.
    + lia.
    + reflexivity.
Qed.
Print Assumptions C11_16_bit_refuted.

(** An identity that does share the limits exists as well, so both outcomes are possible. *)
Example C11_example : cpython_identity Z.eqb /\
  already_normalised Z.eqb (UInt 16) 0 65535 = true /\
  already_normalised Z.eqb (SInt 8) 0 255 = false.
Proof.
  repeat split; [intros a b H; apply Z.eqb_eq, H|intros a _; apply Z.eqb_refl].
Qed.

(** C12 *)
Theorem C12_supported_ranges : forall ident ub im lo hi auto out,
  normalize_data ident ub im lo hi auto = Ok out ->
  (already_normalised ident (dt im) lo hi = true /\ out = NImg im) \/
  (already_normalised ident (dt im) lo hi = false /\ range_type lo hi = Some (out_type out)).
Proof. exact normalize_outputs. Qed.
Print Assumptions C12_supported_ranges.

Theorem C12_other_ranges : forall ident ub im lo hi auto,
  range_type lo hi = None -> already_normalised ident (dt im) lo hi = false ->
  normalize_data ident ub im lo hi auto = Err ValueError.
Proof. exact normalize_unsupported. Qed.
Print Assumptions C12_other_ranges.

Theorem C12_shape_kept : forall ident ub im lo hi auto out,
  normalize_data ident ub im lo hi auto = Ok out -> out_shape out = shape im.
Proof. exact normalize_shape. Qed.
Print Assumptions C12_shape_kept.

Example C12_example :
  range_type 0 1 = Some (Float 32) /\ range_type 0 255 = Some (UInt 8) /\
  range_type 0 100 = None /\ range_type 1 255 = None /\
  already_normalised Z.eqb (UInt 32) 0 4294967295 = true /\ range_type 0 4294967295 = None.
Proof. repeat split. Qed.

(** C13: one pixel of a rounded computation, [stretch_sf prec emax hi mn mx v]. *)
Theorem C13_binary64_refuted :
  exists d, sf_trunc (stretch_sf 53 1024 255 (S754_zero false) d d) = Some 254%Z.
Proof. exists (S754_finite false 0x1132d8f91b7584 (-55)). vm_compute. reflexivity. Qed.
Print Assumptions C13_binary64_refuted.

Theorem C13_binary32_refuted :
  exists d, sf_trunc (stretch_sf 24 128 255 (S754_zero false) d d) = Some 254%Z.
Proof. exists (S754_finite false 0x8b4396 (-29)). vm_compute. reflexivity. Qed.
Print Assumptions C13_binary32_refuted.

Theorem C13_16_bit_refuted :
  (exists d, sf_trunc (stretch_sf 53 1024 65535 (S754_zero false) d d) = Some 65534%Z) /\
  (exists d, sf_trunc (stretch_sf 24 128 65535 (S754_zero false) d d) = Some 65534%Z).
Proof.
  split.
  - exists (S754_finite false 0x1b84ae952f80f6 (-53)). vm_compute. reflexivity.
  - exists (S754_finite false 0xc49ba6 (-32)). vm_compute. reflexivity.
Qed.
Print Assumptions C13_16_bit_refuted.

Theorem C13_exact_arithmetic : forall hi mn mx,
  hi = 255%Z \/ hi = 65535%Z -> (mn < mx)%R -> Rtrunc (linear hi mn mx mx) = hi.
Proof.
  intros hi mn mx Hh Hlt. rewrite linear_max by exact Hlt. apply Rtrunc_IZR. lia.
Qed.
Print Assumptions C13_exact_arithmetic.

(** The witnesses are valid binary64 / binary32 numbers, and other inputs do reach 255. *)
Example C13_example :
  valid_binary 53 1024 (S754_finite false 0x1132d8f91b7584 (-55)) = true /\
  valid_binary 24 128 (S754_finite false 0x8b4396 (-29)) = true /\
  valid_binary 24 128 (S754_finite false 0xc49ba6 (-32)) = true /\
  valid_binary 53 1024 (S754_finite false 0x1b84ae952f80f6 (-53)) = true /\
  sf_trunc (stretch_sf 53 1024 255 (S754_zero false) (sf_of_Z 53 1024 1000) (sf_of_Z 53 1024 1000))
    = Some 255%Z.
Proof. repeat split; vm_compute; reflexivity. Qed.
