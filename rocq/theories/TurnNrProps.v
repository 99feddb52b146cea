(** C128: CNR and SNR of mirrored, transposed and rotated images. *)
From Coq Require Import Reals Lra Psatz Permutation.
From Verif Require Import Base NdArray LoadModel LoadProofs NormModel NormProofs PairModel RealSums
  MetricModel MetricProofs SsimModel SsimProofs SsimSymProofs MadModel RegionModel NrModel RegionProofs RegionFindProofs
  RegionProps NrProofs NrProps TurnProps TurnNrProofs.
Local Open Scope Z_scope.

(** The coordinates of a centre in the moved image ([follow], TurnNrProofs.v): a cube of radius r around c is
    the half-open range c - r <= i < c + r, so on a mirrored axis of n voxels its centre goes to n - c; a ball
    contains c - r and c + r and its centre goes to n - 1 - c. *)
Definition kind_shift (kind : rkind) : Z := match kind with KCubic => 0 | _ => 1 end.

(** The region lies in the image. *)
Definition fits (kind : rkind) (r : Z) (z : Z) (n : nat) : Prop := r <= z <= Z.of_nat n - r - kind_shift kind.

Lemma fits_closed kind r : closed_under (kind_shift kind) (fits kind r).
Proof. intros n z H. unfold fits in *. lia. Qed.

Lemma fits_border kind r c s : 0 < r -> Forall2 (fits kind r) c s -> Forall (fun z => r <= Z.abs z) c.
Proof. intros Hr H. induction H as [|z n c s Hz H IH]; constructor; [unfold fits in Hz; lia|exact IH]. Qed.

Lemma region_moved kind l a a' c r : wf a -> moved l a = Ok a' -> grey (shp a) -> grey (shp a') -> 0 < r ->
  Forall2 (fits kind r) c (shp a) ->
  (make_region kind a c r = Err ValueError /\ make_region kind a' (follow (kind_shift kind) l (shp a) c) r = Err ValueError) \/
  (exists g g', make_region kind a c r = Ok g /\ make_region kind a' (follow (kind_shift kind) l (shp a) c) r = Ok g' /\ same_region g' g).
Proof.
  intros W H Hg Hg' Hr HF. destruct (moved_spec l a a' W H) as (A & B & C & D).
  destruct (follow_total _ _ l (shp a) c (fits_closed kind r) A HF) as [HF' T].
  pose proof (F2_length _ _ _ HF) as L. pose proof (F2_length _ _ _ HF') as L'. rewrite <- B in L', HF'.
  destruct kind; cbn [make_region kind_shift] in *.
  - right. exists (Whole a), (Whole a'). split; [reflexivity|]. split; [reflexivity|]. apply (whole_same l); assumption.
  - right. exists (Whole a), (Whole a'). split; [reflexivity|]. split; [reflexivity|]. apply (whole_same l); assumption.
  - right. rewrite !to_cubic_grey by assumption. eexists _, _. split; [reflexivity|]. split; [reflexivity|].
    apply (masked_same l); try assumption. intros idx Hi.
    rewrite !in_box_total by (try assumption; apply inb_length; rewrite ?B in *; try assumption; apply (origin_reorients l _ A); exact Hi).
    rewrite B in *. destruct (T (fun n z i => if in_slice n z r i then 0 else 1) idx) as [_ E]; [|exact Hi|rewrite E; reflexivity].
    intros n z i Hz Hn. apply (box_even r); [lia| |exact Hn]. unfold fits in Hz. cbn [kind_shift] in Hz. lia.
  - right. rewrite !to_spherical_grey by assumption. eexists _, _. split; [reflexivity|]. split; [reflexivity|].
    apply (masked_same l); try assumption. intros idx Hi. f_equal.
    rewrite (dist_total (shp a')) by (try assumption; apply inb_length; exact Hi).
    rewrite (dist_total (shp a)) by (try assumption; apply inb_length, (origin_reorients l _ A); rewrite <- B; exact Hi).
    rewrite B in *. destruct (T (fun _ z i => (Z.of_nat i - z) ^ 2) idx) as [_ E]; [|exact Hi|exact E].
    intros n z i _ Hn. apply ball_even; [exact I|exact Hn].
  - left. split; reflexivity.
Qed.

(** C128: greyscale images, regions in the image, all kinds of regions. *)
Theorem C128_cnr mk nobg l img img' kind bc sc r it :
  wf img -> moved l img = Ok img' -> grey (shp img) -> grey (shp img') -> 0 < r ->
  Forall2 (fits kind r) bc (shp img) -> Forall2 (fits kind r) sc (shp img) ->
  cnr mk nobg img' (map CInt (follow (kind_shift kind) l (shp img) bc)) (map CInt (follow (kind_shift kind) l (shp img) sc))
    (RInt r) kind false it =
  cnr mk nobg img (map CInt bc) (map CInt sc) (RInt r) kind false it.
Proof.
  intros W H Hg Hg' Hr Hb Hs. destruct (moved_spec l img img' W H) as (A & B & C & D). unfold cnr. cbn [bind].
  assert (Ck : forall c s, Forall2 (fits kind r) c s -> check_border (map CInt c) (RInt r) = Ok c).
  { intros c s HF. destruct (C48_check c r) as [[_ E]|[F _]]; [exact E|]. exfalso. apply F, (fits_border kind r c s); assumption. }
  destruct (follow_total _ _ l (shp img) bc (fits_closed kind r) A Hb) as [Hb' _].
  destruct (follow_total _ _ l (shp img) sc (fits_closed kind r) A Hs) as [Hs' _].
  rewrite (Ck _ _ Hb), (Ck _ _ Hs), (Ck _ _ Hb'), (Ck _ _ Hs'). cbn [bind check_radius]. destruct (Z.leb_spec r 0); [lia|]. cbn [bind].
  rewrite (F2_length _ _ _ Hb), (F2_length _ _ _ Hs), (F2_length _ _ _ Hb'), (F2_length _ _ _ Hs'), B, !Nat.eqb_refl. cbn [negb orb].
  destruct (region_moved kind l img img' sc r W H Hg Hg' Hr Hs) as [[E1 E2]|(g & g' & E1 & E2 & S)]; rewrite E1, E2; cbn [bind]; [reflexivity|].
  destruct (region_moved kind l img img' bc r W H Hg Hg' Hr Hb) as [[F1 F2]|(h & h' & F1 & F2 & S2)]; rewrite F1, F2; cbn [bind]; [reflexivity|].
  rewrite (cnr_value_same mk g g' h h') by assumption. reflexivity.
Qed.
Print Assumptions C128_cnr.

Theorem C128_snr mk nobg l img img' kind sc r it lo hi yuv :
  wf img -> moved l img = Ok img' -> grey (shp img) -> grey (shp img') ->
  last (shp img) 0%nat <> 3%nat -> last (shp img') 0%nat <> 3%nat -> 0 < r -> Forall2 (fits kind r) sc (shp img) ->
  snr mk nobg img' (map CInt (follow (kind_shift kind) l (shp img) sc)) (RInt r) kind false it lo hi yuv =
  snr mk nobg img (map CInt sc) (RInt r) kind false it lo hi yuv.
Proof.
  intros W H Hg Hg' H3 H3' Hr Hs. destruct (moved_spec l img img' W H) as (A & B & C & D).
  destruct (grey_flags _ Hg) as [Hc _]. destruct (grey_flags _ Hg') as [Hc' _]. rewrite !snr_eq by assumption.
  unfold snr_region, snr_select. cbn [bind].
  assert (Ck : forall c s, Forall2 (fits kind r) c s -> check_border (map CInt c) (RInt r) = Ok c).
  { intros c s HF. destruct (C48_check c r) as [[_ E]|[F _]]; [exact E|]. exfalso. apply F, (fits_border kind r c s); assumption. }
  destruct (follow_total _ _ l (shp img) sc (fits_closed kind r) A Hs) as [Hs' _]. rewrite <- B in Hs'.
  rewrite (Ck _ _ Hs), (Ck _ _ Hs'). cbn [bind check_radius]. destruct (Z.leb_spec r 0); [lia|]. cbn [bind].
  assert (Dm : forall (x : arr R) c, grey (shp x) -> last (shp x) 0%nat <> 3%nat -> Forall2 (fits kind r) c (shp x) -> snr_dims x c = Ok tt).
  { intros x c Gx N F. pose proof (F2_length _ _ _ F) as Lc. clear F. unfold snr_dims.
    destruct (shp x) as [|d s] eqn:Es; [destruct Gx as [G|[G _]]; discriminate|]. rewrite <- Es in *.
    apply Nat.eqb_neq in N. rewrite N, Nat.add_0_r, Lc, Nat.eqb_refl. reflexivity. }
  rewrite (Dm img sc), (Dm img' (follow (kind_shift kind) l (shp img) sc)) by assumption. cbn [bind].
  destruct (region_moved kind l img img' sc r W H Hg Hg' Hr Hs) as [[E1 E2]|(g & g' & E1 & E2 & S)]; rewrite E1, E2; cbn [bind]; [reflexivity|].
  rewrite (snr_value_same mk g g') by assumption. reflexivity.
Qed.
Print Assumptions C128_snr.

(** *** Automatic regions *)

Lemma auto_moved kind l a a' it b b' : wf a -> moved l a = Ok a' -> wf b -> wf b' -> shp b = shp a -> shp b' = shp a' ->
  follows l b b' -> kind <> KCubic -> kind <> KSpherical ->
  forall g g', (kind <> KOriginal -> g = cleaned it b) -> (kind <> KOriginal -> g' = cleaned it b') ->
  exists x x', auto_region kind a g = Ok (Some x) /\ auto_region kind a' g' = Ok (Some x') /\ same_region x' x.
Proof.
  intros W H Wb Wb' Sb Sb' Hf K1 K2 g g' Hg Hg'. destruct (moved_spec l a a' W H) as (A & B & C & D).
  assert (M : forall m m', m = cleaned it b -> m' = cleaned it b' -> exists x x', masked_by a m = Ok x /\ masked_by a' m' = Ok x' /\ same_region x' x).
  { intros m m' -> ->. unfold masked_by. rewrite !shp_cleaned, Sb, Sb', !Nat.eqb_refl. eexists _, _. split; [reflexivity|]. split; [reflexivity|].
    apply (masked_same l); try assumption. intros idx Hi. rewrite <- Sb.
    pose proof (follows_at l (cleaned it b) (cleaned it b') idx) as F. rewrite !shp_cleaned in F. apply F.
    - apply cleaned_follows; try assumption. rewrite Sb. exact A.
    - rewrite Sb'. exact Hi. }
  destruct kind; try contradiction; cbn [auto_region].
  - destruct (M g g') as (x & x' & E1 & E2 & S); [apply Hg; discriminate|apply Hg'; discriminate|]. rewrite E1, E2. cbn [bind].
    exists x, x'. auto.
  - exists (Whole a), (Whole a'). split; [reflexivity|]. split; [reflexivity|]. apply (whole_same l); assumption.
  - destruct (M g g') as (x & x' & E1 & E2 & S); [apply Hg; discriminate|apply Hg'; discriminate|]. rewrite E1, E2. cbn [bind].
    exists x, x'. auto.
Qed.

Lemma found_region nobg b it kind c r g : wf b -> find_largest_region nobg b it kind = Ok (c, r, g) -> kind <> KOriginal -> g = cleaned it b.
Proof. intros W E K. destruct (C68_region _ _ _ _ _ _ _ W E) as [[? _]|[_ ?]]; [contradiction|assumption]. Qed.

Lemma found_length nobg b it kind c r g : wf b -> find_largest_region nobg b it kind = Ok (c, r, g) -> length c = length (shp b).
Proof. intros W E. apply inb_length, (C68_centre _ _ _ _ _ _ _ W E). Qed.

(** Automatic regions of the kinds "full" and "original" (and unknown names, C85), which use every voxel of the
    cleaned binary images or of the image: the same value or the same error. *)
Theorem C128_auto_full mk nobg l img img' kind bc sc bc' sc' r r' it :
  wf img -> moved l img = Ok img' -> grey (shp img) -> grey (shp img') -> kind <> KCubic -> kind <> KSpherical ->
  cnr mk nobg img' bc' sc' r' kind true it = cnr mk nobg img bc sc r kind true it.
Proof.
  intros W H Hg Hg' K1 K2. destruct (moved_spec l img img' W H) as (A & B & C & D).
  destruct (grey_flags _ Hg) as [Hc _]. destruct (grey_flags _ Hg') as [Hc' _]. unfold cnr.
  destruct (get_binary img 90 100) as [fg|e] eqn:E1; [|rewrite (binary_err l img img' 90 100 e) by assumption; reflexivity].
  destruct (binary_moved l img img' 90 100 fg W H Hc Hc' E1) as (fg' & E1' & Wf & Wf' & Sf & Sf' & Ff & Pf). rewrite E1'. cbn [bind].
  destruct (get_binary img 0 90) as [bg|e] eqn:E2; [|rewrite (binary_err l img img' 0 90 e) by assumption; reflexivity].
  destruct (binary_moved l img img' 0 90 bg W H Hc Hc' E2) as (bg' & E2' & Wb & Wb' & Sb & Sb' & Fb & Pb). rewrite E2'. cbn [bind].
  destruct (find_err nobg it kind fg fg' Wf Wf') as [[F1 F2]|(c1 & r1 & g1 & c1' & r1' & g1' & F1 & F2)];
    rewrite ?Sf, ?Sf'; try assumption; [rewrite F1, F2; reflexivity|]. rewrite F1, F2. cbn [bind].
  destruct (find_err nobg it kind bg bg' Wb Wb') as [[G1 G2]|(c2 & r2 & g2 & c2' & r2' & g2' & G1 & G2)];
    rewrite ?Sb, ?Sb'; try assumption; [rewrite G1, G2; reflexivity|]. rewrite G1, G2. cbn [bind].
  destruct (auto_moved kind l img img' it fg fg' W H Wf Wf' Sf Sf' Ff K1 K2 g1 g1') as (x & x' & X1 & X2 & X3);
    [eapply found_region; eassumption..|]. rewrite X1, X2. cbn [bind].
  destruct (auto_moved kind l img img' it bg bg' W H Wb Wb' Sb Sb' Fb K1 K2 g2 g2') as (y & y' & Y1 & Y2 & Y3);
    [eapply found_region; eassumption..|]. rewrite Y1, Y2. cbn [bind].
  assert (R1 : r1' = r1) by (eapply (find_radius nobg nobg l it kind kind fg fg'); try eassumption; rewrite Sf; exact A).
  assert (R2 : r2' = r2) by (eapply (find_radius nobg nobg l it kind kind bg bg'); try eassumption; rewrite Sb; exact A).
  subst r1' r2'.
  rewrite (proj2 (C84_inside _ _ _ _ _ _ _ Wf F1)), (proj2 (C84_inside _ _ _ _ _ _ _ Wf' F2)) by lia. cbn [bind].
  rewrite (proj2 (C84_inside _ _ _ _ _ _ _ Wb G1)), (proj2 (C84_inside _ _ _ _ _ _ _ Wb' G2)) by lia. cbn [bind].
  destruct (check_radius _) as [q|e]; cbn [bind]; [|reflexivity]. rewrite !map_length.
  rewrite (found_length _ _ _ _ _ _ _ Wf F1), (found_length _ _ _ _ _ _ _ Wf' F2), (found_length _ _ _ _ _ _ _ Wb G1), (found_length _ _ _ _ _ _ _ Wb' G2).
  rewrite Sf, Sf', Sb, Sb', !Nat.eqb_refl. cbn [negb orb bind]. rewrite (cnr_value_same mk x x' y y') by assumption. reflexivity.
Qed.
Print Assumptions C128_auto_full.

(** Balls around automatic centres: the same value if both centres are the only voxels that far inside. *)
Theorem C128_auto_ball mk nobg l img img' fg bg cf cb bc sc bc' sc' r r' it :
  wf img -> moved l img = Ok img' -> grey (shp img) -> grey (shp img') ->
  get_binary img 90 100 = Ok fg -> get_binary img 0 90 = Ok bg -> furthest it fg cf -> furthest it bg cb ->
  cnr mk nobg img' bc' sc' r' KSpherical true it = cnr mk nobg img bc sc r KSpherical true it.
Proof.
  intros W H Hg Hg' E1 E2 U1 U2. destruct (moved_spec l img img' W H) as (A & B & C & D).
  destruct (grey_flags _ Hg) as [Hc _]. destruct (grey_flags _ Hg') as [Hc' _]. unfold cnr. rewrite E1, E2.
  destruct (binary_moved l img img' 90 100 fg W H Hc Hc' E1) as (fg' & E1' & Wf & Wf' & Sf & Sf' & Ff & Pf). rewrite E1'. cbn [bind].
  destruct (binary_moved l img img' 0 90 bg W H Hc Hc' E2) as (bg' & E2' & Wb & Wb' & Sb & Sb' & Fb & Pb). rewrite E2'. cbn [bind].
  destruct (find_err nobg it KSpherical fg fg' Wf Wf') as [[F1 F2]|(c1 & r1 & g1 & c1' & r1' & g1' & F1 & F2)];
    rewrite ?Sf, ?Sf'; try assumption; [rewrite F1, F2; reflexivity|]. rewrite F1, F2. cbn [bind].
  destruct (find_err nobg it KSpherical bg bg' Wb Wb') as [[G1 G2]|(c2 & r2 & g2 & c2' & r2' & g2' & G1 & G2)];
    rewrite ?Sb, ?Sb'; try assumption; [rewrite G1, G2; reflexivity|]. rewrite G1, G2. cbn [bind auto_region].
  assert (Af : all_ok l (shp fg)) by (rewrite Sf; exact A). assert (Ab : all_ok l (shp bg)) by (rewrite Sb; exact A).
  assert (R1 : r1' = r1) by (eapply (find_radius nobg nobg l it KSpherical KSpherical fg fg'); eassumption).
  assert (R2 : r2' = r2) by (eapply (find_radius nobg nobg l it KSpherical KSpherical bg bg'); eassumption).
  subst r1' r2'.
  assert (Z1 : map Z.of_nat c1' = follow 1 l (shp img) (map Z.of_nat c1)).
  { rewrite (furthest_found _ _ _ _ _ _ _ _ Wf U1 F1).
    rewrite (furthest_found _ _ _ _ _ _ _ _ Wf' (furthest_moved l it fg fg' cf Wf Wf' Af Ff U1) F2).
    destruct U1 as [Bc _]. destruct (proj2 (origin_reorients l _ Af) cf Bc) as [T1 T2].
    rewrite <- (follow_of_nat l (shp fg)), T2, Sf by assumption. reflexivity. }
  assert (Z2 : map Z.of_nat c2' = follow 1 l (shp img) (map Z.of_nat c2)).
  { rewrite (furthest_found _ _ _ _ _ _ _ _ Wb U2 G1).
    rewrite (furthest_found _ _ _ _ _ _ _ _ Wb' (furthest_moved l it bg bg' cb Wb Wb' Ab Fb U2) G2).
    destruct U2 as [Bc _]. destruct (proj2 (origin_reorients l _ Ab) cb Bc) as [T1 T2].
    rewrite <- (follow_of_nat l (shp bg)), T2, Sb by assumption. reflexivity. }
  destruct (C84_inside _ _ _ _ _ _ _ Wf F1) as [I1 B1]. destruct (C84_inside _ _ _ _ _ _ _ Wb G1) as [I2 B2].
  rewrite B1, (proj2 (C84_inside _ _ _ _ _ _ _ Wf' F2)) by lia. cbn [bind].
  rewrite B2, (proj2 (C84_inside _ _ _ _ _ _ _ Wb' G2)) by lia. cbn [bind].
  set (q := Nat.min r1 r2) in *. cbn [check_radius]. destruct (Z.leb_spec (Z.of_nat q) 0) as [|Hq]; cbn [bind]; [reflexivity|]. rewrite !map_length.
  rewrite (found_length _ _ _ _ _ _ _ Wf F1), (found_length _ _ _ _ _ _ _ Wf' F2), (found_length _ _ _ _ _ _ _ Wb G1), (found_length _ _ _ _ _ _ _ Wb' G2).
  rewrite Sf, Sf', Sb, Sb', !Nat.eqb_refl. cbn [negb orb]. rewrite Z1, Z2.
  assert (FF : forall c rr, length c = length (shp img) -> (q <= rr)%nat ->
     (forall k, (k < length (shp img))%nat -> (rr <= nth k c 0 /\ nth k c 0 + rr + 1 <= nth k (shp img) 0)%nat) ->
     Forall2 (fits KSpherical (Z.of_nat q)) (map Z.of_nat c) (shp img)).
  { intros c rr Lc Hr Hk. apply (F2_nth _ _ _ 0 0%nat). rewrite map_length. split; [exact Lc|]. intros k Hlt.
    specialize (Hk k Hlt). change 0 with (Z.of_nat 0). rewrite map_nth. unfold fits. cbn [kind_shift]. lia. }
  assert (V1 : Forall2 (fits KSpherical (Z.of_nat q)) (map Z.of_nat c1) (shp img)).
  { apply (FF c1 r1); [rewrite <- Sf; eapply found_length; eassumption|lia|]. rewrite <- Sf. exact I1. }
  assert (V2 : Forall2 (fits KSpherical (Z.of_nat q)) (map Z.of_nat c2) (shp img)).
  { apply (FF c2 r2); [rewrite <- Sb; eapply found_length; eassumption|lia|]. rewrite <- Sb. exact I2. }
  destruct (region_moved KSpherical l img img' _ _ W H Hg Hg' Hq V1) as [[M1 M2]|(g & g' & M1 & M2 & S)];
    cbn [kind_shift] in M1, M2; rewrite M1, M2; cbn [bind]; [reflexivity|].
  destruct (region_moved KSpherical l img img' _ _ W H Hg Hg' Hq V2) as [[N1 N2]|(h & h' & N1 & N2 & S2)];
    cbn [kind_shift] in N1, N2; rewrite N1, N2; cbn [bind]; [reflexivity|].
  rewrite (cnr_value_same mk g g' h h') by assumption. reflexivity.
Qed.
Print Assumptions C128_auto_ball.

(** SNR with automatic regions of the same kinds. *)
Theorem C128_snr_auto_full mk nobg l img img' kind sc sc' r r' it lo hi yuv :
  wf img -> moved l img = Ok img' -> grey (shp img) -> grey (shp img') ->
  last (shp img) 0%nat <> 3%nat -> last (shp img') 0%nat <> 3%nat -> kind <> KCubic -> kind <> KSpherical ->
  snr mk nobg img' sc' r' kind true it lo hi yuv = snr mk nobg img sc r kind true it lo hi yuv.
Proof.
  intros W H Hg Hg' H3 H3' K1 K2. destruct (moved_spec l img img' W H) as (A & B & C & D).
  destruct (grey_flags _ Hg) as [Hc _]. destruct (grey_flags _ Hg') as [Hc' _]. rewrite !snr_eq by assumption.
  unfold snr_region, snr_select.
  destruct (get_binary img lo hi) as [fg|e] eqn:E1; [|rewrite (binary_err l img img' lo hi e) by assumption; reflexivity].
  destruct (binary_moved l img img' lo hi fg W H Hc Hc' E1) as (fg' & E1' & Wf & Wf' & Sf & Sf' & Ff & Pf). rewrite E1'. cbn [bind].
  destruct (find_err nobg it kind fg fg' Wf Wf') as [[F1 F2]|(c1 & r1 & g1 & c1' & r1' & g1' & F1 & F2)];
    rewrite ?Sf, ?Sf'; try assumption; [rewrite F1, F2; reflexivity|]. rewrite F1, F2. cbn [bind].
  destruct (auto_moved kind l img img' it fg fg' W H Wf Wf' Sf Sf' Ff K1 K2 g1 g1') as (x & x' & X1 & X2 & X3);
    [eapply found_region; eassumption..|]. rewrite X1, X2. cbn [bind].
  assert (R1 : r1' = r1) by (eapply (find_radius nobg nobg l it kind kind fg fg'); try eassumption; rewrite Sf; exact A). subst r1'.
  rewrite (proj2 (C84_inside _ _ _ _ _ _ _ Wf F1)), (proj2 (C84_inside _ _ _ _ _ _ _ Wf' F2)) by lia. cbn [bind].
  destruct (check_radius _) as [q|e]; cbn [bind]; [|reflexivity].
  assert (Dm : forall (y : arr R) c, grey (shp y) -> last (shp y) 0%nat <> 3%nat -> length c = length (shp y) -> snr_dims y c = Ok tt).
  { intros y c Gx N Lc. unfold snr_dims. destruct (shp y) as [|d s] eqn:Es; [destruct Gx as [G|[G _]]; discriminate|]. rewrite <- Es in *.
    apply Nat.eqb_neq in N. rewrite N, Nat.add_0_r, Lc, Nat.eqb_refl. reflexivity. }
  rewrite !Dm by (rewrite ?map_length; rewrite <- ?Sf, <- ?Sf' in *; try assumption; eapply found_length; eassumption).
  cbn [bind]. rewrite (snr_value_same mk x x') by assumption. reflexivity.
Qed.
Print Assumptions C128_snr_auto_full.

(** *** What depends on the orientation *)

Lemma region_inr kind (a : arr nat) c r g : grey (shp a) -> wf a -> length c = length (shp a) ->
  match kind with
  | KCubic => Some (somes (dat (masked a (in_box (shp a) c r))))
  | KSpherical => Some (somes (dat (masked a (fun idx => (dist_sq c idx <=? r ^ 2)%Z))))
  | _ => None
  end = Some g -> exists x, make_region kind (amap INR a) c r = Ok x /\ values x = map INR g.
Proof.
  intros Hg W Lc H. destruct kind; try discriminate; injection H as <-; cbn [make_region].
  - rewrite to_cubic_grey by assumption. eexists. split; [reflexivity|]. cbn [values]. change (shp (amap INR a)) with (shp a).
    rewrite masked_map. cbn [dat amap]. apply somes_option_map.
  - rewrite to_spherical_grey by (try assumption; apply wf_amap, W). eexists. split; [reflexivity|]. cbn [values].
    rewrite masked_map. cbn [dat amap]. apply somes_option_map.
Qed.

Lemma snr_flat mk x n : values x = map INR (repeat 1%nat (S n)) -> snr_value mk x = Fin 0.
Proof.
  intros E. assert (N : values x <> []) by (rewrite E; discriminate). rewrite snr_value_nonempty by exact N.
  assert (Zr : is_zero (std0 (values x)) = true); [|rewrite Zr; reflexivity]. apply is_zero_iff, std0_zero; [exact N|].
  assert (Q : forall y, In y (values x) -> y = 1%R).
  { intros y Hy. rewrite E in Hy. apply in_map_iff in Hy as (k & <- & Hk). apply repeat_spec in Hk. subst k. reflexivity. }
  assert (M : lmean (values x) = 1%R).
  { unfold lmean. rewrite (Sum_ext _ (fun _ => 1%R)) by (intros y Hy; apply Q, Hy). rewrite E, map_length, repeat_length.
    assert (S1 : forall l : list R, Sum (fun _ => 1%R) l = INR (length l)).
    { induction l as [|u l IH]; [apply Sum_nil|]. rewrite Sum_cons, IH. cbn [length]. rewrite S_INR. lra. }
    rewrite S1, map_length, repeat_length. field. apply not_0_INR. discriminate. }
  intros y Hy. rewrite M. apply Q, Hy.
Qed.

Lemma snr_noise mk x g a b : values x = map INR g -> In a g -> In b g -> a <> b -> (0 < a)%nat -> snr_value mk x <> Fin 0.
Proof.
  intros E Ia Ib Hab Hpos. assert (N : values x <> []) by (rewrite E; destruct g; [destruct Ia|discriminate]).
  rewrite snr_value_nonempty by exact N.
  assert (D : std0 (values x) <> 0%R).
  { intros D0. pose proof (proj1 (std0_zero _ N) D0) as K. apply Hab, INR_eq. rewrite E in K.
    rewrite (K (INR a)), (K (INR b)) by (apply in_map; assumption). reflexivity. }
  apply is_zero_false in D. rewrite D. apply is_zero_false in D. intros F. injection F as F.
  assert (M : (0 < lmean (values x))%R).
  { unfold lmean. apply Rdiv_lt_0_compat; [|apply INR_len_pos, N]. rewrite E.
    assert (S0 : forall l, (0 <= Sum (fun y : R => y) (map INR l))%R).
    { induction l as [|u l IH]; [cbn [map]; rewrite Sum_nil; lra|]. cbn [map]. rewrite Sum_cons. pose proof (pos_INR u). lra. }
    clear - Ia Hpos S0. induction g as [|u g IH]; [destruct Ia|]. cbn [map]. rewrite Sum_cons. destruct Ia as [->|Ia].
    - specialize (S0 g). apply lt_INR in Hpos. cbn [INR] in Hpos. lra.
    - specialize (IH Ia). pose proof (pos_INR u). lra. }
  apply (Rmult_eq_compat_r (std0 (values x))) in F. unfold Rdiv in F. rewrite Rmult_assoc, Rinv_l, Rmult_1_r, Rmult_0_l in F by exact D. lra.
Qed.

Lemma moved_inr l (a a' : arr nat) : match l with Mirror ax => flip_ax a ax = Ok a' | _ => False end ->
  moved [l] (amap INR a) = Ok (amap INR a').
Proof.
  destruct l as [ax| |]; try contradiction. intros H. cbn [moved moved1]. unfold flip_ax in *. cbn [shp amap]. destruct (length (shp a) <=? ax)%nat; [discriminate|].
  unfold reindex in *. apply bind_ok in H as (d & E & H). apply (f_equal (fun z => match z with Ok v => v | Err _ => a' end)) in H. cbv beta iota in H. subst a'.
  assert (X : mapM (fun idx => from_opt IndexError (get (amap INR a) (upd idx ax (nth ax (shp a) 0 - 1 - nth ax idx 0)%nat))) (indices (shp a)) = Ok (map INR d)).
  { revert d E. induction (indices (shp a)) as [|i li IH]; intros d E; cbn [mapM] in *; [injection E as <-; reflexivity|].
    apply bind_ok in E as (v & Ev & E). apply bind_ok in E as (d' & Ed & E). apply (f_equal (fun z => match z with Ok v => v | Err _ => d end)) in E. cbv beta iota in E. subst d.
    rewrite get_amap. destruct (get a _) as [w|]; [|discriminate]. cbn [from_opt option_map] in *. injection Ev as ->. cbn [bind]. rewrite (IH d' Ed). reflexivity. }
  rewrite X. reflexivity.
Qed.

(** A cube around voxel c does not become the cube around the mirrored voxel n - 1 - c. *)
Theorem C128_cube_refuted : exists img img' y x, moved [Mirror 1] img = Ok img' /\ shp img = [2; 4]%nat /\
  Forall2 (fits KCubic 1) [y; x] [2; 4]%nat /\ Forall2 (fits KCubic 1) [y; 4 - 1 - x] [2; 4]%nat /\
  forall mk nobg it lo hi yuv,
    snr mk nobg img' [CInt y; CInt (4 - 1 - x)] (RInt 1) KCubic false it lo hi yuv <>
    snr mk nobg img [CInt y; CInt x] (RInt 1) KCubic false it lo hi yuv.
Proof.
  set (a := Arr [2; 4]%nat [1; 1; 2; 0; 1; 1; 2; 0]%nat). set (a' := Arr [2; 4]%nat [0; 2; 1; 1; 0; 2; 1; 1]%nat).
  exists (amap INR a), (amap INR a'), 1, 1. split; [apply moved_inr; reflexivity|]. split; [reflexivity|].
  split; [repeat constructor; unfold fits; cbn; lia|]. split; [repeat constructor; unfold fits; cbn; lia|].
  intros mk nobg it lo hi yuv. rewrite !snr_eq by reflexivity. unfold snr_region, snr_select.
  destruct (region_inr KCubic a [1; 1] 1 [1; 1; 1; 1]%nat) as (g & E1 & V1); [left; reflexivity|reflexivity..|].
  destruct (region_inr KCubic a' [1; 2] 1 [2; 1; 2; 1]%nat) as (g' & E2 & V2); [left; reflexivity|reflexivity..|].
  cbn -[make_region snr_value amap INR a a'].
  rewrite E1, E2. change (snr_dims (amap INR a) [1; 1]) with (Ok tt : res unit).
  change (snr_dims (amap INR a') [1; 2]) with (Ok tt : res unit). cbn [bind]. rewrite (snr_flat mk g 3 V1). intros F. injection F as F. revert F.
  apply (snr_noise mk g' _ 2 1 V2); cbn; auto.
Qed.
Print Assumptions C128_cube_refuted.

(** The binary image of a picture with grey value 0 somewhere. *)
Lemma binary_inr (a : arr nat) : is_colour (shp a) = false -> In 0%nat (dat a) ->
  get_binary (amap INR a) 0 100 = Ok (amap (fun k => (0 <? k)%nat) a).
Proof.
  intros Hc H0. unfold get_binary. change (shp (amap INR a)) with (shp a). rewrite Hc. cbn [bind].
  assert (N : dat (amap INR a) <> []) by (cbn [dat amap]; destruct (dat a); [destruct H0|discriminate]).
  destruct (percentile (dat (amap INR a)) 0) as [x|e] eqn:Ex; [|rewrite percentile_eq in Ex by (try assumption; lra); discriminate].
  destruct (percentile (dat (amap INR a)) 100) as [y|e] eqn:Ey; [|rewrite percentile_eq in Ey by (try assumption; lra); discriminate].
  cbn [bind]. apply percentile_0 in Ex as [Ix Lx]. apply percentile_100 in Ey as [Iy Ly]. cbn [dat amap] in Ix, Lx, Iy, Ly.
  assert (X0 : x = 0%R).
  { apply in_map_iff in Ix as (k & <- & _). specialize (Lx (INR 0) ltac:(apply in_map; exact H0)). pose proof (pos_INR k). cbn [INR] in Lx. lra. }
  subst x. f_equal. unfold amap. cbn [shp dat]. f_equal. rewrite map_map. apply map_ext_in. intros k Hk.
  specialize (Ly (INR k) ltac:(apply in_map; exact Hk)). destruct (Rle_dec (INR k) y); [|contradiction]. rewrite andb_true_r.
  destruct (Rlt_dec 0 (INR k)) as [L|L], (Nat.ltb_spec 0 k) as [M|M]; try reflexivity.
  - exfalso. assert (k = 0%nat) by lia. subst k. cbn [INR] in L. lra.
  - apply lt_INR in M. cbn [INR] in M. contradiction.
Qed.

(** Cubes around automatic centres, although only one voxel is furthest inside: a 3x3 square whose upper left
    voxels are equal. *)
Definition square : arr nat := Arr [5; 5]%nat
  [0; 0; 0; 0; 0;
   0; 1; 1; 2; 0;
   0; 1; 1; 2; 0;
   0; 2; 2; 2; 0;
   0; 0; 0; 0; 0]%nat.
Definition square' : arr nat := Arr [5; 5]%nat
  [0; 0; 0; 0; 0;
   0; 2; 1; 1; 0;
   0; 2; 1; 1; 0;
   0; 2; 2; 2; 0;
   0; 0; 0; 0; 0]%nat.

Lemma auto_snr (a : arr nat) kind nobg c g : is_colour (shp a) = false -> grey (shp a) -> wf a -> In 0%nat (dat a) -> length c = length (shp a) ->
  (last (shp a) 0 =? 3)%nat = false -> shp a <> [] ->
  match find_largest_region nobg (amap (fun k => (0 <? k)%nat) a) 1 kind with Ok (x, r, _) => Some (x, r) | Err _ => None end = Some (c, 1%nat) ->
  check_border (map (fun n => CInt (Z.of_nat n)) c) (RInt 1) = Ok (map Z.of_nat c) ->
  match kind with
  | KCubic => Some (somes (dat (masked a (in_box (shp a) (map Z.of_nat c) 1))))
  | KSpherical => Some (somes (dat (masked a (fun idx => (dist_sq (map Z.of_nat c) idx <=? 1 ^ 2)%Z))))
  | _ => None
  end = Some g ->
  exists x, values x = map INR g /\ forall mk sc r yuv,
    snr mk nobg (amap INR a) sc r kind true 1 0 100 yuv = Ok (SGrey (snr_value mk x) (snr_keys kind true)).
Proof.
  intros Hc Hg W H0 Lc H3 Hs Hf Hb Hk.
  destruct (region_inr kind a (map Z.of_nat c) 1 g Hg W ltac:(rewrite map_length; exact Lc) Hk) as (x & Ex & Vx).
  exists x. split; [exact Vx|]. intros mk sc r yuv. rewrite snr_eq by exact Hc. unfold snr_region, snr_select.
  rewrite (binary_inr a Hc H0). cbn [bind].
  destruct (find_largest_region nobg _ 1 kind) as [[[x1 r1] m1]|e]; [|discriminate]. injection Hf as -> ->. cbn [bind].
  assert (Ea : auto_region kind (amap INR a) m1 = Ok None) by (destruct kind; try discriminate; reflexivity). rewrite Ea. cbn [bind].
  change (Z.of_nat 1) with 1. rewrite Hb. cbn [bind check_radius Z.leb Z.compare].
  assert (Ed : snr_dims (amap INR a) (map Z.of_nat c) = Ok tt).
  { unfold snr_dims. cbn [shp amap]. destruct (shp a) as [|d s]; [contradiction|]. rewrite H3, map_length, Lc, Nat.add_0_r, Nat.eqb_refl. reflexivity. }
  rewrite Ed. cbn [bind]. rewrite Ex. reflexivity.
Qed.

Theorem C128_auto_cube_refuted : exists img img' b c, moved [Mirror 1] img = Ok img' /\ grey (shp img) /\
  get_binary img 0 100 = Ok b /\ furthest 1 b c /\
  forall mk nobg sc r yuv, snr mk nobg img' sc r KCubic true 1 0 100 yuv <> snr mk nobg img sc r KCubic true 1 0 100 yuv.
Proof.
  exists (amap INR square), (amap INR square'), (amap (fun k => (0 <? k)%nat) square), [2; 2]%nat.
  split; [apply moved_inr; reflexivity|]. split; [left; reflexivity|]. split; [apply binary_inr; [reflexivity|left; reflexivity]|]. split.
  { set (cl := cleaned 1 (amap (fun k => (0 <? k)%nat) square)). vm_compute in cl. split; [reflexivity|]. exists [1; 2]%nat. split; [reflexivity|]. split.
    - intros j Hj. fold cl in Hj. pose proof (get_inb _ _ _ Hj) as B. cbn [shp cl] in B. apply in_indices in B.
      cbn in B. repeat (destruct B as [<-|B]; [try discriminate; vm_compute; congruence|]). destruct B.
    - intros idx Hi Hne. exists idx. fold cl. apply in_indices in Hi. cbn in Hi.
      repeat (destruct Hi as [<-|Hi]; [try (contradiction Hne; reflexivity); split; reflexivity|]). destruct Hi. }
  intros mk nobg sc r yuv.
  destruct (auto_snr square KCubic nobg [2; 2]%nat [1; 1; 1; 1]%nat) as (x & Vx & Ex); try reflexivity; try discriminate; [left; reflexivity|left; reflexivity|].
  destruct (auto_snr square' KCubic nobg [2; 2]%nat [2; 1; 2; 1]%nat) as (x' & Vx' & Ex'); try reflexivity; try discriminate; [left; reflexivity|left; reflexivity|].
  rewrite Ex, Ex', (snr_flat mk x 3 Vx). intros F. injection F as F. revert F. apply (snr_noise mk x' _ 2 1 Vx'); cbn; auto.
Qed.
Print Assumptions C128_auto_cube_refuted.

(** Balls, if two voxels are equally far inside: the first one in memory is taken. *)
Definition two_squares : arr nat := Arr [5; 12]%nat
  [0; 0; 0; 0; 0; 0; 0; 0; 0; 0; 0; 0;
   0; 1; 1; 1; 0; 0; 0; 0; 1; 2; 1; 0;
   0; 1; 1; 1; 0; 0; 0; 0; 2; 2; 2; 0;
   0; 1; 1; 1; 0; 0; 0; 0; 1; 1; 1; 0;
   0; 0; 0; 0; 0; 0; 0; 0; 0; 0; 0; 0]%nat.
Definition two_squares' : arr nat := Arr [5; 12]%nat
  [0; 0; 0; 0; 0; 0; 0; 0; 0; 0; 0; 0;
   0; 1; 2; 1; 0; 0; 0; 0; 1; 1; 1; 0;
   0; 2; 2; 2; 0; 0; 0; 0; 1; 1; 1; 0;
   0; 1; 1; 1; 0; 0; 0; 0; 1; 1; 1; 0;
   0; 0; 0; 0; 0; 0; 0; 0; 0; 0; 0; 0]%nat.

Theorem C128_auto_ball_refuted : exists img img', moved [Mirror 1] img = Ok img' /\ grey (shp img) /\
  forall mk nobg sc r yuv, snr mk nobg img' sc r KSpherical true 1 0 100 yuv <> snr mk nobg img sc r KSpherical true 1 0 100 yuv.
Proof.
  exists (amap INR two_squares), (amap INR two_squares'). split; [apply moved_inr; reflexivity|]. split; [left; reflexivity|].
  intros mk nobg sc r yuv.
  destruct (auto_snr two_squares KSpherical nobg [2; 2]%nat [1; 1; 1; 1; 1]%nat) as (x & Vx & Ex); try reflexivity; try discriminate; [left; reflexivity|left; reflexivity|].
  destruct (auto_snr two_squares' KSpherical nobg [2; 2]%nat [2; 2; 2; 2; 1]%nat) as (x' & Vx' & Ex'); try reflexivity; try discriminate; [left; reflexivity|left; reflexivity|].
  rewrite Ex, Ex', (snr_flat mk x 4 Vx). intros F. injection F as F. revert F. apply (snr_noise mk x' _ 2 1 Vx'); cbn; try tauto; lia.
Qed.
Print Assumptions C128_auto_ball_refuted.

(** The hypotheses of C128_cnr on a rotated volume. *)
Example C128_example : exists img', moved [Turn 0 1; Mirror 2] (amap INR (Arr [4; 6; 8]%nat (seq 0 192))) = Ok img' /\
  shp img' = [6; 4; 8]%nat /\ grey (shp img') /\ Forall2 (fits KCubic 2) [2; 3; 5] [4; 6; 8]%nat /\
  follow (kind_shift KCubic) [Turn 0 1; Mirror 2] [4; 6; 8]%nat [2; 3; 5] = [3; 2; 3] /\
  Forall2 (fits KSpherical 1) [2; 3; 5] [4; 6; 8]%nat /\
  follow (kind_shift KSpherical) [Turn 0 1; Mirror 2] [4; 6; 8]%nat [2; 3; 5] = [2; 2; 2].
Proof.
  assert (W : wf (amap INR (Arr [4; 6; 8]%nat (seq 0 192)))) by (apply wf_amap; reflexivity).
  destruct (rot90_ok (amap INR (Arr [4; 6; 8]%nat (seq 0 192))) 0 1 W) as (b & Eb & Sb & Wb & _); [cbn; lia..|].
  destruct (flip_ax_ok b 2 Wb) as (c & Ec & Sc & _); [rewrite Sb; cbn; lia|].
  exists c. cbn [moved moved1]. rewrite Eb. cbn [bind]. rewrite Ec. cbn [bind]. split; [reflexivity|].
  rewrite Sc, Sb. split; [reflexivity|]. split; [right; cbn; lia|].
  split; [repeat constructor; unfold fits; cbn; lia|]. split; [reflexivity|].
  split; [repeat constructor; unfold fits; cbn; lia|]. reflexivity.
Qed.
