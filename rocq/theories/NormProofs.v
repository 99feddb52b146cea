(** Proofs about normalize_data. *)
From Coq Require Import Reals Lra SpecFloat.
From Verif Require Import Base NdArray LoadModel NormModel.

(** ** Extrema *)

Definition is_min (m : Z) (l : list Z) : Prop := In m l /\ forall x, In x l -> (m <= x)%Z.
Definition is_max (m : Z) (l : list Z) : Prop := In m l /\ forall x, In x l -> (x <= m)%Z.
Definition is_rmin (m : R) (l : list R) : Prop := In m l /\ forall x, In x l -> (m <= x)%R.
Definition is_rmax (m : R) (l : list R) : Prop := In m l /\ forall x, In x l -> (x <= m)%R.

Lemma fold_zmin l : forall x, is_min (fold_left Z.min l x) (x :: l).
Proof.
  induction l as [|y l IH]; intros x; simpl fold_left.
  - split; [left; reflexivity|]. intros z [->|[]]. lia.
  - destruct (IH (Z.min x y)) as [H1 H2]. split.
    + destruct H1 as [H1|H1]; [|right; right; exact H1].
      rewrite <- H1. destruct (Z.min_spec x y) as [[_ ->]|[_ ->]]; simpl; auto.
    + assert (H3 := H2 (Z.min x y) (or_introl eq_refl)).
      intros z [<-|[<-|Hz]]; [lia|lia|]. apply H2. right; exact Hz.
Qed.

Lemma fold_zmax l : forall x, is_max (fold_left Z.max l x) (x :: l).
Proof.
  induction l as [|y l IH]; intros x; simpl fold_left.
  - split; [left; reflexivity|]. intros z [->|[]]. lia.
  - destruct (IH (Z.max x y)) as [H1 H2]. split.
    + destruct H1 as [H1|H1]; [|right; right; exact H1].
      rewrite <- H1. destruct (Z.max_spec x y) as [[_ ->]|[_ ->]]; simpl; auto.
    + assert (H3 := H2 (Z.max x y) (or_introl eq_refl)).
      intros z [<-|[<-|Hz]]; [lia|lia|]. apply H2. right; exact Hz.
Qed.

Lemma fold_rmin l : forall x, is_rmin (fold_left Rmin l x) (x :: l).
Proof.
  induction l as [|y l IH]; intros x; simpl fold_left.
  - split; [left; reflexivity|]. intros z [->|[]]. lra.
  - destruct (IH (Rmin x y)) as [H1 H2]. split.
    + destruct H1 as [H1|H1]; [|right; right; exact H1].
      rewrite <- H1. unfold Rmin. destruct (Rle_dec x y); simpl; auto.
    + assert (H3 := H2 (Rmin x y) (or_introl eq_refl)).
      pose proof (Rmin_l x y). pose proof (Rmin_r x y).
      intros z [<-|[<-|Hz]]; [lra|lra|]. apply H2. right; exact Hz.
Qed.

Lemma fold_rmax l : forall x, is_rmax (fold_left Rmax l x) (x :: l).
Proof.
  induction l as [|y l IH]; intros x; simpl fold_left.
  - split; [left; reflexivity|]. intros z [->|[]]. lra.
  - destruct (IH (Rmax x y)) as [H1 H2]. split.
    + destruct H1 as [H1|H1]; [|right; right; exact H1].
      rewrite <- H1. unfold Rmax. destruct (Rle_dec x y); simpl; auto.
    + assert (H3 := H2 (Rmax x y) (or_introl eq_refl)).
      pose proof (Rmax_l x y). pose proof (Rmax_r x y).
      intros z [<-|[<-|Hz]]; [lra|lra|]. apply H2. right; exact Hz.
Qed.

Lemma zmin_is l m : is_min m l -> zmin l = Ok m.
Proof.
  destruct l as [|x l]; [intros [[] _]|]. intros [H1 H2]. simpl.
  destruct (fold_zmin l x) as [H3 H4]. f_equal.
  apply Z.le_antisymm; [apply H4; exact H1|apply H2; exact H3].
Qed.
Lemma zmax_is l m : is_max m l -> zmax l = Ok m.
Proof.
  destruct l as [|x l]; [intros [[] _]|]. intros [H1 H2]. simpl.
  destruct (fold_zmax l x) as [H3 H4]. f_equal.
  apply Z.le_antisymm; [apply H2; exact H3|apply H4; exact H1].
Qed.
Lemma rmin_is l m : is_rmin m l -> rmin l = Ok m.
Proof.
  destruct l as [|x l]; [intros [[] _]|]. intros [H1 H2]. simpl.
  destruct (fold_rmin l x) as [H3 H4]. f_equal.
  apply Rle_antisym; [apply H4; exact H1|apply H2; exact H3].
Qed.
Lemma rmax_is l m : is_rmax m l -> rmax l = Ok m.
Proof.
  destruct l as [|x l]; [intros [[] _]|]. intros [H1 H2]. simpl.
  destruct (fold_rmax l x) as [H3 H4]. f_equal.
  apply Rle_antisym; [apply H2; exact H3|apply H4; exact H1].
Qed.

(** ** Truncation *)

Lemma Int_part_unique r z : (IZR z <= r < IZR z + 1)%R -> Int_part r = z.
Proof.
  intros [H1 H2]. destruct (base_Int_part r) as [H3 H4].
  assert (A : (Int_part r < z + 1)%Z) by (apply lt_IZR; rewrite plus_IZR; lra).
  assert (B : (z < Int_part r + 1)%Z) by (apply lt_IZR; rewrite plus_IZR; lra).
  lia.
Qed.

Lemma Rtrunc_div p d : (0 <= p)%Z -> (0 < d)%Z -> Rtrunc (IZR p / IZR d) = (p / d)%Z.
Proof.
  intros Hp Hd. assert (Hd' : (0 < IZR d)%R) by (apply IZR_lt; exact Hd).
  assert (Hp' : (0 <= IZR p)%R) by (apply IZR_le; exact Hp).
  unfold Rtrunc. destruct (Rle_dec 0 (IZR p / IZR d)) as [_|Hn].
  - apply Int_part_unique. split.
    + apply Rmult_le_reg_r with (IZR d); [exact Hd'|].
      unfold Rdiv. rewrite Rmult_assoc, Rinv_l, Rmult_1_r by lra.
      rewrite <- mult_IZR. apply IZR_le. rewrite Z.mul_comm. apply Z.mul_div_le. lia.
    + apply Rmult_lt_reg_r with (IZR d); [exact Hd'|].
      unfold Rdiv. rewrite Rmult_assoc, Rinv_l, Rmult_1_r by lra.
      rewrite <- plus_IZR, <- mult_IZR. apply IZR_lt.
      pose proof (Z.mul_succ_div_gt p d Hd). lia.
  - exfalso. apply Hn. unfold Rdiv. apply Rmult_le_pos; [exact Hp'|].
    left. apply Rinv_0_lt_compat. exact Hd'.
Qed.

Lemma Rtrunc_le x y : (0 <= x)%R -> (x <= y)%R -> (Rtrunc x <= Rtrunc y)%Z.
Proof.
  intros Hx Hxy. unfold Rtrunc.
  destruct (Rle_dec 0 x); [|lra]. destruct (Rle_dec 0 y); [|lra].
  destruct (base_Int_part x) as [H1 _]. destruct (base_Int_part y) as [_ H4].
  apply Z.lt_succ_r. apply lt_IZR. rewrite succ_IZR. lra.
Qed.

Lemma Rtrunc_IZR z : (0 <= z)%Z -> Rtrunc (IZR z) = z.
Proof.
  intros H. unfold Rtrunc. destruct (Rle_dec 0 (IZR z)) as [_|Hn].
  - apply Int_part_unique. lra.
  - exfalso. apply Hn. apply IZR_le. exact H.
Qed.

Lemma cast_u_div ub b p d :
  (0 <= p)%Z -> (0 < d)%Z -> (p / d < 2 ^ Z.of_nat b)%Z ->
  cast_u ub b (IZR p / IZR d) = (p / d)%Z.
Proof.
  intros Hp Hd Hb. unfold cast_u. rewrite Rtrunc_div by assumption.
  rewrite (proj2 (Z.leb_le _ _)) by (apply Z.div_pos; lia).
  rewrite (proj2 (Z.ltb_lt _ _)) by exact Hb. reflexivity.
Qed.

(** ** Integer images *)

(** Specification: width of the integer product for [hi] = 1, 255 or 65535. *)
Definition product_bits (b : nat) (hi : Z) : nat := Nat.max b (if (hi =? 65535)%Z then 16 else 8).

Definition std_width (b : nat) : Prop := b = 8 \/ b = 16 \/ b = 32.
Definition std_range (hi : Z) : Prop := hi = 1%Z \/ hi = 255%Z \/ hi = 65535%Z.

Lemma mul_type_std b hi :
  std_width b -> std_range hi -> mul_type (UInt b) (hi - 0) = UInt (product_bits b hi).
Proof. intros [->|[->| ->]] [->|[->| ->]]; reflexivity. Qed.

Definition out_bits (hi : Z) : nat := if (hi =? 255)%Z then 8 else 16.

Lemma finish_255 ub s l : finish ub 0 255 s l = Ok (NImg (Img (UInt 8) (PI (Arr s (map (cast_u ub 8) l))))).
Proof. reflexivity. Qed.
Lemma finish_65535 ub s l : finish ub 0 65535 s l = Ok (NImg (Img (UInt 16) (PI (Arr s (map (cast_u ub 16) l))))).
Proof. reflexivity. Qed.
Lemma finish_1 ub s l : finish ub 0 1 s l = Ok (NImg (Img (Float 32) (PF (Arr s l)))).
Proof. reflexivity. Qed.

(** Specification: what one pixel becomes, including the modulus. *)
Definition wrapped_stretch (b : nat) (hi mn mx v : Z) : Z :=
  (((v - mn) * hi) mod 2 ^ Z.of_nat (product_bits b hi) / (mx - mn))%Z.

Lemma pow2_pos n : (0 < 2 ^ Z.of_nat n)%Z.
Proof. apply Z.pow_pos_nonneg; lia. Qed.

Lemma wrapped_le b hi mn mx v :
  (0 <= hi)%Z -> (mn <= v <= mx)%Z -> (mn < mx)%Z -> (0 <= wrapped_stretch b hi mn mx v <= hi)%Z.
Proof.
  intros Hh Hv Hm. unfold wrapped_stretch.
  pose proof (pow2_pos (product_bits b hi)) as Hp.
  pose proof (Z.mod_pos_bound ((v - mn) * hi) _ Hp) as [H1 H2].
  split; [apply Z.div_pos; lia|].
  assert (((v - mn) * hi) mod 2 ^ Z.of_nat (product_bits b hi) <= (v - mn) * hi)%Z
    by (apply Z.mod_le; nia).
  transitivity ((hi * (mx - mn)) / (mx - mn))%Z.
  - apply Z.div_le_mono; nia.
  - rewrite Z.div_mul by lia. lia.
Qed.

Lemma normalize_uint ident ub b a hi mn mx :
  std_width b -> hi = 255%Z \/ hi = 65535%Z ->
  (forall v, In v (dat a) -> (0 <= v < 2 ^ Z.of_nat b)%Z) ->
  is_min mn (dat a) -> is_max mx (dat a) -> (mn < mx)%Z ->
  already_normalised ident (UInt b) 0 hi = false ->
  normalize_data ident ub (Img (UInt b) (PI a)) 0 hi None
  = Ok (NImg (Img (UInt (out_bits hi)) (PI (amap (wrapped_stretch b hi mn mx) a)))).
Proof.
  intros Hb Hh Hr Hmin Hmax Hlt Hid. unfold normalize_data. cbn [dt px]. rewrite Hid.
  rewrite (zmin_is _ _ Hmin), (zmax_is _ _ Hmax). cbn [bind].
  assert (Rmn := Hr mn (proj1 Hmin)). assert (Rmx := Hr mx (proj1 Hmax)).
  assert (Hspan : wrap (UInt b) (mx - mn) = (mx - mn)%Z).
  { unfold wrap. apply Z.mod_small. lia. }
  rewrite Hspan. rewrite (proj2 (Z.eqb_neq _ _)) by lia.
  assert (Hst : std_range hi) by (unfold std_range; tauto).
  assert (Hpix : forall v, In v (dat a) ->
    cast_u ub (out_bits hi) (stretch_int (UInt b) 0 hi mn (mx - mn) v) = wrapped_stretch b hi mn mx v).
  { intros v Hv. unfold stretch_int. rewrite mul_type_std by assumption.
    assert (Hvr : (mn <= v <= mx)%Z) by (split; [apply (proj2 Hmin v Hv)|apply (proj2 Hmax v Hv)]).
    assert (E : wrap (UInt b) (v - mn) = (v - mn)%Z) by (unfold wrap; apply Z.mod_small; lia).
    rewrite E, Rplus_0_r. unfold wrap. rewrite Z.sub_0_r.
    pose proof (pow2_pos (product_bits b hi)) as Hp.
    pose proof (Z.mod_pos_bound ((v - mn) * hi) _ Hp) as [H1 H2].
    assert (Hw := wrapped_le b hi mn mx v ltac:(lia) Hvr Hlt).
    rewrite cast_u_div; [reflexivity|lia|lia|].
    fold (wrapped_stretch b hi mn mx v).
    destruct Hh as [->| ->]; simpl; lia. }
  destruct Hh as [->| ->].
  - rewrite finish_255. unfold amap. do 5 f_equal. rewrite map_map. apply map_ext_in. exact Hpix.
  - rewrite finish_65535. unfold amap. do 5 f_equal. rewrite map_map. apply map_ext_in. exact Hpix.
Qed.

Lemma wrapped_exact b hi mn mx v :
  (0 <= hi)%Z -> (mn <= v <= mx)%Z ->
  ((mx - mn) * hi < 2 ^ Z.of_nat (product_bits b hi))%Z ->
  wrapped_stretch b hi mn mx v = ((v - mn) * hi / (mx - mn))%Z.
Proof.
  intros Hh Hv Hp. unfold wrapped_stretch. rewrite Z.mod_small; [reflexivity|]. nia.
Qed.

Lemma full_scale_iff b hi mn mx :
  (0 < hi)%Z -> (mn < mx)%Z ->
  wrapped_stretch b hi mn mx mx = hi <-> ((mx - mn) * hi < 2 ^ Z.of_nat (product_bits b hi))%Z.
Proof.
  intros Hh Hm. split.
  - intros E. destruct (Z.lt_ge_cases ((mx - mn) * hi) (2 ^ Z.of_nat (product_bits b hi))) as [H|H];
      [exact H|exfalso].
    unfold wrapped_stretch in E.
    pose proof (pow2_pos (product_bits b hi)) as Hp.
    set (M := (2 ^ Z.of_nat (product_bits b hi))%Z) in *.
    assert (((mx - mn) * hi) mod M < (mx - mn) * hi)%Z.
    { pose proof (Z.mod_pos_bound ((mx - mn) * hi) M Hp). lia. }
    assert (((mx - mn) * hi) mod M / (mx - mn) < hi)%Z by (apply Z.div_lt_upper_bound; lia).
    lia.
  - intros H. rewrite wrapped_exact by lia.
    rewrite Z.mul_comm, Z.div_mul by lia. reflexivity.
Qed.

Lemma full_range_zero b hi mn mx :
  std_width b -> hi = 255%Z \/ hi = 65535%Z -> product_bits b hi = b ->
  (mx - mn = 2 ^ Z.of_nat b - 1)%Z -> wrapped_stretch b hi mn mx mx = 0%Z \/ (b = 8).
Proof.
  intros Hb Hh Hp Hm. unfold wrapped_stretch. rewrite Hp, Hm.
  destruct Hb as [->|[->| ->]]; [right; reflexivity|left..];
    destruct Hh as [->| ->]; reflexivity || (exfalso; discriminate Hp).
Qed.

Lemma normalize_uint_unit ident ub b a mn mx :
  std_width b ->
  (forall v, In v (dat a) -> (0 <= v < 2 ^ Z.of_nat b)%Z) ->
  is_min mn (dat a) -> is_max mx (dat a) -> (mn < mx)%Z ->
  cpython_identity ident ->
  normalize_data ident ub (Img (UInt b) (PI a)) 0 1 None
  = Ok (NImg (Img (Float 32) (PF (amap (fun v => IZR (v - mn) / IZR (mx - mn))%R a)))).
Proof.
  intros Hb Hr Hmin Hmax Hlt [Hid _]. unfold normalize_data. cbn [dt px].
  assert (Hn : already_normalised ident (UInt b) 0 1 = false).
  { unfold already_normalised. destruct (ident (imax (UInt b)) 1%Z) eqn:E; [|reflexivity].
    apply Hid in E. destruct Hb as [->|[->| ->]]; discriminate E. }
  rewrite Hn. rewrite (zmin_is _ _ Hmin), (zmax_is _ _ Hmax). cbn [bind].
  assert (Rmn := Hr mn (proj1 Hmin)). assert (Rmx := Hr mx (proj1 Hmax)).
  assert (Hspan : wrap (UInt b) (mx - mn) = (mx - mn)%Z) by (unfold wrap; apply Z.mod_small; lia).
  rewrite Hspan. rewrite (proj2 (Z.eqb_neq _ _)) by lia. rewrite finish_1.
  unfold amap. do 5 f_equal. apply map_ext_in. intros v Hv.
  assert (Hvr : (mn <= v <= mx)%Z) by (split; [apply (proj2 Hmin v Hv)|apply (proj2 Hmax v Hv)]).
  unfold stretch_int. rewrite mul_type_std by (auto; left; reflexivity).
  assert (E : wrap (UInt b) (v - mn) = (v - mn)%Z) by (unfold wrap; apply Z.mod_small; lia).
  rewrite E, Rplus_0_r. unfold wrap. rewrite Z.sub_0_r, Z.mul_1_r, Z.mod_small; [reflexivity|].
  destruct Hb as [->|[->| ->]]; unfold product_bits; simpl in *; lia.
Qed.

(** ** Signed images *)

Lemma wrap_sint_small b v :
  (0 < Z.of_nat b)%Z -> (- 2 ^ (Z.of_nat b - 1) <= v < 2 ^ (Z.of_nat b - 1))%Z -> wrap (SInt b) v = v.
Proof.
  intros Hb Hv. unfold wrap.
  assert (E : (2 ^ Z.of_nat b = 2 * 2 ^ (Z.of_nat b - 1))%Z).
  { rewrite <- Z.pow_succ_r by lia. f_equal. lia. }
  rewrite Z.mod_small; lia.
Qed.

Definition product_bits_s (b : nat) (hi : Z) : nat :=
  Nat.max b (if (hi =? 65535)%Z then 32 else if (hi =? 255)%Z then 16 else 8).

Lemma mul_type_std_s b hi :
  std_width b -> std_range hi -> mul_type (SInt b) (hi - 0) = SInt (product_bits_s b hi).
Proof. intros [->|[->| ->]] [->|[->| ->]]; reflexivity. Qed.

Lemma normalize_sint ident ub b a hi mn mx :
  std_width b -> hi = 255%Z \/ hi = 65535%Z -> cpython_identity ident ->
  is_min mn (dat a) -> is_max mx (dat a) -> (mn < mx)%Z ->
  (mx - mn < 2 ^ (Z.of_nat b - 1))%Z ->
  ((mx - mn) * hi < 2 ^ (Z.of_nat (product_bits_s b hi) - 1))%Z ->
  normalize_data ident ub (Img (SInt b) (PI a)) 0 hi None
  = Ok (NImg (Img (UInt (out_bits hi)) (PI (amap (fun v => (v - mn) * hi / (mx - mn))%Z a)))).
Proof.
  intros Hb Hh [Hid _] Hmin Hmax Hlt Hs Hp. unfold normalize_data. cbn [dt px].
  assert (Hn : already_normalised ident (SInt b) 0 hi = false).
  { unfold already_normalised. destruct (ident (imin (SInt b)) 0%Z) eqn:E; [|apply andb_false_r].
    apply Hid in E. destruct Hb as [->|[->| ->]]; discriminate E. }
  rewrite Hn. rewrite (zmin_is _ _ Hmin), (zmax_is _ _ Hmax). cbn [bind].
  assert (Hbpos : (0 < Z.of_nat b)%Z) by (destruct Hb as [->|[->| ->]]; lia).
  assert (Hbp : (0 < Z.of_nat (product_bits_s b hi))%Z) by (unfold product_bits_s; lia).
  assert (H2 : (0 < 2 ^ (Z.of_nat b - 1))%Z) by (apply Z.pow_pos_nonneg; lia).
  assert (H3 : (0 < 2 ^ (Z.of_nat (product_bits_s b hi) - 1))%Z) by (apply Z.pow_pos_nonneg; lia).
  rewrite (wrap_sint_small b (mx - mn)) by lia.
  rewrite (proj2 (Z.eqb_neq _ _)) by lia.
  assert (Hpix : forall v, In v (dat a) ->
    cast_u ub (out_bits hi) (stretch_int (SInt b) 0 hi mn (mx - mn) v) = ((v - mn) * hi / (mx - mn))%Z).
  { intros v Hv. unfold stretch_int.
    rewrite mul_type_std_s by (auto; unfold std_range; tauto).
    assert (Hvr : (mn <= v <= mx)%Z) by (split; [apply (proj2 Hmin v Hv)|apply (proj2 Hmax v Hv)]).
    rewrite (wrap_sint_small b (v - mn)) by lia. rewrite Z.sub_0_r, Rplus_0_r.
    assert (Hub : (0 <= (v - mn) * hi <= (mx - mn) * hi)%Z) by nia.
    rewrite wrap_sint_small by lia.
    apply cast_u_div; [lia|lia|].
    apply Z.le_lt_trans with hi.
    - transitivity ((hi * (mx - mn)) / (mx - mn))%Z; [apply Z.div_le_mono; nia|].
      rewrite Z.div_mul by lia. lia.
    - destruct Hh as [->| ->]; simpl; lia. }
  destruct Hh as [->| ->].
  - rewrite finish_255. unfold amap. do 5 f_equal. rewrite map_map. apply map_ext_in. exact Hpix.
  - rewrite finish_65535. unfold amap. do 5 f_equal. rewrite map_map. apply map_ext_in. exact Hpix.
Qed.

(** ** Real images *)

Lemma normalize_real ident ub b a hi mn mx :
  std_range hi -> is_rmin mn (dat a) -> is_rmax mx (dat a) -> (mn < mx)%R ->
  normalize_data ident ub (Img (Float b) (PF a)) 0 hi None
  = finish ub 0 hi (shp a) (map (fun v => (v - mn) * IZR hi / (mx - mn))%R (dat a)).
Proof.
  intros Hh Hmin Hmax Hlt. unfold normalize_data. cbn [dt px already_normalised].
  rewrite (rmin_is _ _ Hmin), (rmax_is _ _ Hmax). cbn [bind].
  destruct (Req_EM_T mx mn) as [E|_]; [lra|].
  f_equal. apply map_ext. intros v. unfold stretch_real. rewrite Z.sub_0_r, Rplus_0_r. reflexivity.
Qed.

(** Specification: the exact linear map onto [0, hi]. *)
Definition linear (hi : Z) (mn mx v : R) : R := ((v - mn) * IZR hi / (mx - mn))%R.

Lemma linear_mono hi mn mx v w :
  (0 <= hi)%Z -> (mn < mx)%R -> (v <= w)%R -> (linear hi mn mx v <= linear hi mn mx w)%R.
Proof.
  intros Hh Hm Hv. unfold linear, Rdiv. apply IZR_le in Hh.
  apply Rmult_le_compat_r; [left; apply Rinv_0_lt_compat; lra|].
  apply Rmult_le_compat_r; lra.
Qed.

Lemma linear_strict hi mn mx v w :
  (0 < hi)%Z -> (mn < mx)%R -> (v < w)%R -> (linear hi mn mx v < linear hi mn mx w)%R.
Proof.
  intros Hh Hm Hv. unfold linear, Rdiv. apply IZR_lt in Hh.
  apply Rmult_lt_compat_r; [apply Rinv_0_lt_compat; lra|].
  apply Rmult_lt_compat_r; lra.
Qed.

Lemma linear_min hi mn mx : (mn < mx)%R -> linear hi mn mx mn = 0%R.
Proof. intros. unfold linear. field. lra. Qed.
Lemma linear_max hi mn mx : (mn < mx)%R -> linear hi mn mx mx = IZR hi.
Proof. intros. unfold linear. field. lra. Qed.

Lemma linear_range hi mn mx v :
  (0 <= hi)%Z -> (mn < mx)%R -> (mn <= v <= mx)%R -> (0 <= linear hi mn mx v <= IZR hi)%R.
Proof.
  intros Hh Hm Hv. split.
  - rewrite <- (linear_min hi mn mx Hm). apply linear_mono; lra || exact Hh.
  - rewrite <- (linear_max hi mn mx Hm). apply linear_mono; lra || exact Hh.
Qed.

Lemma normalize_real_int ident ub b a hi mn mx :
  hi = 255%Z \/ hi = 65535%Z -> is_rmin mn (dat a) -> is_rmax mx (dat a) -> (mn < mx)%R ->
  normalize_data ident ub (Img (Float b) (PF a)) 0 hi None
  = Ok (NImg (Img (UInt (out_bits hi)) (PI (amap (fun v => Rtrunc (linear hi mn mx v)) a)))) /\
  (forall v, In v (dat a) -> (0 <= Rtrunc (linear hi mn mx v) <= hi)%Z) /\
  (forall v w, In v (dat a) -> In w (dat a) -> (v <= w)%R ->
     (Rtrunc (linear hi mn mx v) <= Rtrunc (linear hi mn mx w))%Z) /\
  Rtrunc (linear hi mn mx mn) = 0%Z /\ Rtrunc (linear hi mn mx mx) = hi.
Proof.
  intros Hh Hmin Hmax Hlt.
  assert (Hpos : (0 <= hi)%Z) by lia.
  assert (Hin : forall v, In v (dat a) -> (mn <= v <= mx)%R).
  { intros v Hv. split; [apply (proj2 Hmin v Hv)|apply (proj2 Hmax v Hv)]. }
  assert (Hrange : forall v, In v (dat a) -> (0 <= Rtrunc (linear hi mn mx v) <= hi)%Z).
  { intros v Hv. destruct (linear_range hi mn mx v Hpos Hlt (Hin v Hv)) as [H1 H2]. split.
    - rewrite <- (Rtrunc_IZR 0) by lia. apply Rtrunc_le; lra.
    - rewrite <- (Rtrunc_IZR hi) at 2 by lia. apply Rtrunc_le; lra. }
  split; [|split; [exact Hrange|split; [|split]]].
  - rewrite (normalize_real ident ub b a hi mn mx) by (auto; unfold std_range; tauto).
    assert (Hpix : forall v, In v (dat a) ->
      cast_u ub (out_bits hi) ((v - mn) * IZR hi / (mx - mn))%R = Rtrunc (linear hi mn mx v)).
    { intros v Hv. unfold cast_u. fold (linear hi mn mx v).
      specialize (Hrange v Hv).
      rewrite (proj2 (Z.leb_le _ _)) by lia.
      rewrite (proj2 (Z.ltb_lt _ _)); [reflexivity|].
      destruct Hh as [->| ->]; simpl; lia. }
    destruct Hh as [->| ->].
    + rewrite finish_255. unfold amap. do 5 f_equal. rewrite map_map. apply map_ext_in. exact Hpix.
    + rewrite finish_65535. unfold amap. do 5 f_equal. rewrite map_map. apply map_ext_in. exact Hpix.
  - intros v w Hv Hw Hvw. apply Rtrunc_le.
    + apply (linear_range hi mn mx v Hpos Hlt (Hin v Hv)).
    + apply linear_mono; assumption.
  - rewrite linear_min by exact Hlt. apply (Rtrunc_IZR 0). lia.
  - rewrite linear_max by exact Hlt. apply Rtrunc_IZR. lia.
Qed.

Lemma normalize_real_unit ident ub b a mn mx :
  is_rmin mn (dat a) -> is_rmax mx (dat a) -> (mn < mx)%R ->
  normalize_data ident ub (Img (Float b) (PF a)) 0 1 None
  = Ok (NImg (Img (Float 32) (PF (amap (linear 1 mn mx) a)))).
Proof.
  intros Hmin Hmax Hlt.
  rewrite (normalize_real ident ub b a 1 mn mx) by (auto; left; reflexivity). reflexivity.
Qed.

Lemma is_rmin_map f l m :
  (forall x y, (x <= y)%R -> (f x <= f y)%R) -> is_rmin m l -> is_rmin (f m) (map f l).
Proof.
  intros Hf [H1 H2]. split; [apply in_map; exact H1|].
  intros y Hy. apply in_map_iff in Hy as (x & <- & Hx). apply Hf, H2, Hx.
Qed.
Lemma is_rmax_map f l m :
  (forall x y, (x <= y)%R -> (f x <= f y)%R) -> is_rmax m l -> is_rmax (f m) (map f l).
Proof.
  intros Hf [H1 H2]. split; [apply in_map; exact H1|].
  intros y Hy. apply in_map_iff in Hy as (x & <- & Hx). apply Hf, H2, Hx.
Qed.

Lemma normalize_affine ident ub b b' a hi s t mn mx :
  std_range hi -> is_rmin mn (dat a) -> is_rmax mx (dat a) -> (mn < mx)%R -> (0 < s)%R ->
  normalize_data ident ub (Img (Float b') (PF (amap (fun v => s * v + t)%R a))) 0 hi None
  = normalize_data ident ub (Img (Float b) (PF a)) 0 hi None.
Proof.
  intros Hh Hmin Hmax Hlt Hs.
  rewrite (normalize_real ident ub b a hi mn mx) by assumption.
  assert (Hmono : forall x y, (x <= y)%R -> (s * x + t <= s * y + t)%R) by (intros; nra).
  rewrite (normalize_real ident ub b' (amap (fun v => s * v + t)%R a) hi (s * mn + t)%R (s * mx + t)%R).
  - unfold amap. cbn [shp dat]. f_equal. rewrite map_map. apply map_ext. intros v.
    field. split; [lra|]. intros E. nra.
  - exact Hh.
  - apply (is_rmin_map (fun v => s * v + t)%R); assumption.
  - apply (is_rmax_map (fun v => s * v + t)%R); assumption.
  - nra.
Qed.

Lemma normalize_idempotent ident ub b a mn mx :
  is_rmin mn (dat a) -> is_rmax mx (dat a) -> (mn < mx)%R ->
  exists im, normalize_data ident ub (Img (Float b) (PF a)) 0 1 None = Ok (NImg im) /\
             normalize_data ident ub im 0 1 None = Ok (NImg im).
Proof.
  intros Hmin Hmax Hlt. exists (Img (Float 32) (PF (amap (linear 1 mn mx) a))).
  split; [apply normalize_real_unit; assumption|].
  assert (Hmono : forall x y, (x <= y)%R -> (linear 1 mn mx x <= linear 1 mn mx y)%R).
  { intros x y H. apply linear_mono; [lia|exact Hlt|exact H]. }
  rewrite (normalize_real_unit ident ub 32 (amap (linear 1 mn mx) a) 0%R 1%R).
  - unfold amap. cbn [shp dat]. do 5 f_equal. rewrite map_map. apply map_ext. intros v.
    unfold linear. field. lra.
  - rewrite <- (linear_min 1 mn mx Hlt). apply is_rmin_map; assumption.
  - rewrite <- (linear_max 1 mn mx Hlt). apply is_rmax_map; assumption.
  - lra.
Qed.

(** ** Output ranges *)

Lemma finish_range ub lo hi s l out :
  finish ub lo hi s l = Ok out ->
  (lo = 0 /\ ((hi = 255 /\ exists a, out = NImg (Img (UInt 8) (PI a))) \/
              (hi = 65535 /\ exists a, out = NImg (Img (UInt 16) (PI a))) \/
              (hi = 1 /\ exists a, out = NImg (Img (Float 32) (PF a)))))%Z.
Proof.
  unfold finish. intros H.
  destruct (hi =? 2 ^ 8 - 1)%Z eqn:E1; destruct (hi =? 2 ^ 16 - 1)%Z eqn:E2;
  destruct (hi =? 1)%Z eqn:E3; destruct (lo =? 0)%Z eqn:E4; simpl in H;
    inversion H; subst;
    repeat match goal with E : (_ =? _)%Z = true |- _ => apply Z.eqb_eq in E end;
    split; try lia; eauto 8.
Qed.

Lemma finish_nan_range lo hi s out :
  finish_nan lo hi s = Ok out ->
  (lo = 0 /\ ((hi = 255 /\ exists a, out = NNan (UInt 8) a) \/
              (hi = 65535 /\ exists a, out = NNan (UInt 16) a) \/
              (hi = 1 /\ exists a, out = NNan (Float 32) a)))%Z.
Proof.
  unfold finish_nan. intros H.
  destruct (hi =? 2 ^ 8 - 1)%Z eqn:E1; destruct (hi =? 2 ^ 16 - 1)%Z eqn:E2;
  destruct (hi =? 1)%Z eqn:E3; destruct (lo =? 0)%Z eqn:E4; simpl in H;
    inversion H; subst;
    repeat match goal with E : (_ =? _)%Z = true |- _ => apply Z.eqb_eq in E end;
    split; try lia; eauto 8.
Qed.

Definition out_type (o : norm_out) : dtype := match o with NImg im => dt im | NNan d _ => d end.
Definition out_shape (o : norm_out) : list nat := match o with NImg im => shape im | NNan _ s => s end.

(** Specification: type of the result for a supported range. *)
Definition range_type (lo hi : Z) : option dtype :=
  if negb (lo =? 0)%Z then None
  else if (hi =? 1)%Z then Some (Float 32)
  else if (hi =? 255)%Z then Some (UInt 8)
  else if (hi =? 65535)%Z then Some (UInt 16) else None.

Lemma normalize_outputs ident ub im lo hi auto out :
  normalize_data ident ub im lo hi auto = Ok out ->
  (already_normalised ident (dt im) lo hi = true /\ out = NImg im) \/
  (already_normalised ident (dt im) lo hi = false /\ range_type lo hi = Some (out_type out)).
Proof.
  unfold normalize_data. intros H.
  destruct (already_normalised ident (dt im) lo hi) eqn:E.
  - left. split; [reflexivity|]. destruct (dt im); try discriminate E; rewrite E in H; congruence.
  - right. split; [reflexivity|].
    assert (Hf : (exists s l, finish ub lo hi s l = Ok out) \/ (exists s, finish_nan lo hi s = Ok out)).
    { destruct (dt im) eqn:Ed; try discriminate H.
      all: rewrite E in H.
      all: destruct (px im) as [a|a];
        match type of H with
        | context [bind ?m _] => destruct m as [[mn mx]|e] eqn:Em; cbn [bind] in H; [|discriminate H]
        end;
        match type of H with
        | context [if ?b then _ else _] => destruct b
        end; eauto. }
    destruct Hf as [(s & l & Hf)|(s & Hf)].
    + apply finish_range in Hf as [-> [[-> [a ->]]|[[-> [a ->]]|[-> [a ->]]]]]; reflexivity.
    + apply finish_nan_range in Hf as [-> [[-> [a ->]]|[[-> [a ->]]|[-> [a ->]]]]]; reflexivity.
Qed.

Lemma normalize_shape ident ub im lo hi auto out :
  normalize_data ident ub im lo hi auto = Ok out -> out_shape out = shape im.
Proof.
  unfold normalize_data. intros H.
  assert (Hf : forall s l o, finish ub lo hi s l = Ok o -> out_shape o = s).
  { intros s l o. unfold finish. repeat match goal with |- context [if ?b then _ else _] => destruct b end;
      intros Ho; inversion Ho; reflexivity. }
  assert (Hg : forall s o, finish_nan lo hi s = Ok o -> out_shape o = s).
  { intros s o. unfold finish_nan. repeat match goal with |- context [if ?b then _ else _] => destruct b end;
      intros Ho; inversion Ho; reflexivity. }
  destruct (dt im) eqn:Ed; try discriminate H;
  (destruct (already_normalised _ _ lo hi); [inversion H; reflexivity|]);
  unfold shape; destruct (px im) as [a|a];
    match type of H with
    | context [bind ?m _] => destruct m as [[mn mx]|e] eqn:Em; cbn [bind] in H; [|discriminate H]
    end;
    match type of H with
    | context [if ?b then _ else _] => destruct b
    end; simpl; eauto.
Qed.

Lemma normalize_unsupported ident ub im lo hi auto :
  range_type lo hi = None -> already_normalised ident (dt im) lo hi = false ->
  normalize_data ident ub im lo hi auto = Err ValueError.
Proof.
  intros Hr Hn. destruct (normalize_data ident ub im lo hi auto) as [out|e] eqn:E.
  - apply normalize_outputs in E as [[E _]|[_ E]]; congruence.
  - revert E. unfold normalize_data.
    assert (Hf : forall s l e, finish ub lo hi s l = Err e -> e = ValueError).
    { intros s l e'. unfold finish. repeat match goal with |- context [if ?b then _ else _] => destruct b end; congruence. }
    assert (Hg : forall s e, finish_nan lo hi s = Err e -> e = ValueError).
    { intros s e'. unfold finish_nan. repeat match goal with |- context [if ?b then _ else _] => destruct b end; congruence. }
    intros E. f_equal.
    destruct (dt im) eqn:Ed; try (rewrite Hn in E); try congruence.
    all: destruct (px im) as [a|a]; destruct auto as [[r|]|]; cbn [bind] in E; try congruence.
    all: try (match type of E with context [if ?b then _ else _] => destruct b end; eauto; fail).
    all: destruct (dat a) as [|x l]; cbn [zmin zmax rmin rmax bind] in E; try congruence.
    all: match type of E with context [if ?b then _ else _] => destruct b end; eauto.
Qed.

(** Whatever the input, no exception other than ValueError. *)
Lemma normalize_err ident ub im lo hi auto e :
  normalize_data ident ub im lo hi auto = Err e -> e = ValueError.
Proof.
  unfold normalize_data.
  assert (Hf : forall s l e, finish ub lo hi s l = Err e -> e = ValueError).
  { intros s l e'. unfold finish. repeat match goal with |- context [if ?b then _ else _] => destruct b end; congruence. }
  assert (Hg : forall s e, finish_nan lo hi s = Err e -> e = ValueError).
  { intros s e'. unfold finish_nan. repeat match goal with |- context [if ?b then _ else _] => destruct b end; congruence. }
  intros E.
  destruct (dt im) eqn:Ed; try congruence.
  all: match type of E with context [already_normalised ?i ?d ?l ?h] =>
         destruct (already_normalised i d l h); [congruence|] end.
  all: destruct (px im) as [a|a]; destruct auto as [[r|]|]; cbn [bind] in E; try congruence.
  all: try (match type of E with context [if ?b then _ else _] => destruct b end; eauto; fail).
  all: destruct (dat a) as [|x l]; cbn [zmin zmax rmin rmax bind] in E; try congruence.
  all: match type of E with context [if ?b then _ else _] => destruct b end; eauto.
Qed.
