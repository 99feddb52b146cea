(** Command line scripts: properties C72-C75, C99 and C100. *)
From Coq Require Import Reals Lra.
From Verif Require Import Base NdArray LoadModel LoadProofs LoadTextProofs NormModel NormProofs NormProps PairModel PairProofs BatchModel ScriptModel.

(** ** Slices of a file *)

Lemma nth_error_firstn {A} (l : list A) n k : nth_error (firstn n l) k = if k <? n then nth_error l k else None.
Proof.
  revert n k; induction l as [|x l IH]; intros [|n] [|k]; cbn; try reflexivity.
  - destruct n; [|destruct (k <=? n)]; reflexivity.
  - rewrite IH. reflexivity.
Qed.
Lemma nth_error_skipn {A} (l : list A) n k : nth_error (skipn n l) k = nth_error l (n + k).
Proof. revert l; induction n as [|n IH]; intros [|x l]; cbn; try reflexivity; [destruct k; reflexivity|apply IH]. Qed.

Lemma pyslice_nat {A} (l : list A) a b : a <= b -> b <= length l ->
  pyslice l (Z.of_nat a) (Z.of_nat b) = firstn (b - a) (skipn a l).
Proof. intros H1 H2. unfold pyslice. rewrite !clip_nat. f_equal; [|f_equal]; lia. Qed.

Definition plane {A} (s0 s1 : nat) (items : list A) (k : nat) : arr A :=
  Arr [s0; s1] (firstn (s0 * s1) (skipn (k * (s0 * s1)) items)).

Lemma planes_ok {A} (items : list A) s0 s1 s2 : length items = s0 * s1 * s2 ->
  planes items (Z.of_nat s0) (Z.of_nat s1) (Z.of_nat s2) = Ok (map (plane s0 s1 items) (seq 0 s2)).
Proof.
  intros L. unfold planes. rewrite prodZ_nat3. rewrite (proj2 (Z.eqb_eq _ _)) by lia. cbn [negb].
  rewrite Nat2Z.id. apply mapM_map. intros k Hk. apply in_seq in Hk. cbv zeta.
  assert (B : (k + 1) * (s0 * s1) <= s0 * s1 * s2) by nia.
  replace (Z.of_nat k * Z.of_nat s0 * Z.of_nat s1)%Z with (Z.of_nat (k * (s0 * s1))) by lia.
  replace ((Z.of_nat k + 1) * Z.of_nat s0 * Z.of_nat s1)%Z with (Z.of_nat ((k + 1) * (s0 * s1))) by lia.
  rewrite pyslice_nat by nia.
  replace ((k + 1) * (s0 * s1) - k * (s0 * s1)) with (s0 * s1) by lia. unfold reshape.
  assert (E : length (firstn (s0 * s1) (skipn (k * (s0 * s1)) items)) = s0 * s1).
  { rewrite firstn_length, skipn_length. lia. }
  rewrite E. unfold prodZ. cbn [forallb fold_right map].
  rewrite !(proj2 (Z.leb_le 0 _)) by lia. rewrite (proj2 (Z.eqb_eq _ _)) by lia. cbn [andb]. rewrite !Nat2Z.id. reflexivity.
Qed.

(** Any other sizes end in ValueError once the planes are stacked. *)
Lemma planes_bad {A} (items : list A) s0 s1 s2 :
  Z.of_nat (length items) <> (s0 * s1 * s2)%Z \/ (s0 < 0 \/ s1 < 0 \/ s2 <= 0)%Z ->
  planes items s0 s1 s2 = Err ValueError \/ planes items s0 s1 s2 = Ok [] .
Proof.
  intros H. unfold planes. unfold prodZ. cbn [fold_right].
  destruct (Z.eqb_spec (Z.of_nat (length items)) (s0 * (s1 * (s2 * 1)))) as [E|E]; cbn [negb]; [|left; reflexivity].
  destruct H as [H|H]; [exfalso; apply H; rewrite E; ring|].
  destruct (Z.le_gt_cases s2 0) as [L|L].
  - right. replace (Z.to_nat s2) with 0 by lia. reflexivity.
  - left. assert (K : exists n, Z.to_nat s2 = S n) by (exists (Z.to_nat s2 - 1); lia). destruct K as [n K]. rewrite K. cbn [seq mapM].
    unfold reshape at 1. cbn [forallb]. destruct (Z.leb_spec 0 s0); [|reflexivity]. destruct (Z.leb_spec 0 s1); [|reflexivity]. lia.
Qed.

Lemma stack_map {A B} (f : B -> arr A) s l : l <> [] -> (forall x, In x l -> shp (f x) = s) ->
  stack (map f l) = Ok (Arr (length l :: s) (flat_map (fun x => dat (f x)) l)).
Proof.
  intros Hl Hs. unfold stack. destruct l as [|x l]; [contradiction|]. cbn [map].
  rewrite (Hs x (or_introl eq_refl)).
  rewrite (proj2 (forallb_forall _ _)).
  - rewrite <- (map_cons f x l), map_length, flat_map_map. reflexivity.
  - intros b Hb. rewrite <- (map_cons f x l) in Hb. apply in_map_iff in Hb as (y & <- & Hy). rewrite (Hs y Hy).
    destruct (list_eq_dec _ _ _); [reflexivity|contradiction].
Qed.

Lemma concat_map_seq {A} (w : nat) (l : list A) m n :
  concat (map (fun i => firstn w (skipn (i * w) l)) (seq m n)) = firstn (n * w) (skipn (m * w) l).
Proof.
  revert m; induction n as [|n IH]; intros m; [reflexivity|]. cbn [seq map concat]. rewrite IH. cbn [Nat.mul].
  replace (w + m * w) with (m * w + w) by lia.
  set (t := skipn (m * w) l).
  assert (E : skipn (m * w + w) l = skipn w t). { unfold t. apply nth_error_ext. intros k. rewrite !nth_error_skipn. f_equal. lia. }
  rewrite E. transitivity (firstn (w + n * w) (firstn w t ++ skipn w t)); [|rewrite firstn_skipn; reflexivity].
  clearbody t. destruct (Nat.le_gt_cases w (length t)) as [L|L].
  - rewrite firstn_app. rewrite firstn_length, Nat.min_l by lia. replace (w + n * w - w) with (n * w) by lia.
    rewrite (firstn_all2 (n := w + n * w) (firstn w t)) by (rewrite firstn_length; lia). reflexivity.
  - rewrite (skipn_all2 (n := w) t) by lia. rewrite firstn_nil, !app_nil_r.
    rewrite (firstn_all2 (n := w) t), firstn_all2 by lia. reflexivity.
Qed.

Lemma firstn_skipn_seq n m L : m + n <= L -> firstn n (skipn m (seq 0 L)) = seq m n.
Proof.
  intros H. apply nth_error_ext. intros k. rewrite nth_error_firstn, nth_error_skipn.
  destruct (Nat.ltb_spec k n) as [Hk|Hk].
  - rewrite !(nth_error_nth' _ 0) by (rewrite seq_length; lia). rewrite !seq_nth by lia. reflexivity.
  - symmetry. apply nth_error_None. rewrite seq_length. lia.
Qed.

Lemma skipn_map {A B} (f : A -> B) n l : skipn n (map f l) = map f (skipn n l).
Proof. revert l; induction n as [|n IH]; intros [|x l]; cbn; auto. Qed.
Lemma firstn_map {A B} (f : A -> B) n l : firstn n (map f l) = map f (firstn n l).
Proof. revert l; induction n as [|n IH]; intros [|x l]; cbn; [reflexivity..|]. rewrite IH. reflexivity. Qed.

Lemma concat_items w bytes m n : m + n <= length bytes / w ->
  concat (firstn n (skipn m (fromfile w bytes))) = firstn (n * w) (skipn (m * w) bytes).
Proof.
  intros H. unfold fromfile. rewrite skipn_map, firstn_map, firstn_skipn_seq by exact H. apply concat_map_seq.
Qed.

Lemma kept_eq n f : 0 < f -> filter (fun i => i mod f =? 0) (seq 0 n) = map (fun i => i * f) (seq 0 ((n + f - 1) / f)).
Proof.
  intros Hf. induction n as [|n IH].
  - rewrite Nat.div_small by lia. reflexivity.
  - rewrite seq_S, filter_app, IH. cbn [filter]. rewrite Nat.add_0_l. clear IH.
    pose proof (Nat.div_mod n f ltac:(lia)) as D. pose proof (Nat.mod_upper_bound n f ltac:(lia)) as M.
    assert (E1 : (S n + f - 1) / f = S (n / f)).
    { symmetry. apply Nat.div_unique with (n mod f); lia. }
    rewrite E1. destruct (Nat.eqb_spec (n mod f) 0) as [Z0|Z0].
    + assert (E2 : (n + f - 1) / f = n / f). { symmetry. apply Nat.div_unique with (f - 1); lia. }
      rewrite E2, seq_S, map_app. cbn [map]. rewrite Nat.add_0_l. do 2 f_equal. lia.
    + assert (E2 : (n + f - 1) / f = S (n / f)). { symmetry. apply Nat.div_unique with (n mod f - 1); lia. }
      rewrite E2, app_nil_r. reflexivity.
Qed.
Lemma kept_lt n f i : 0 < f -> i < (n + f - 1) / f -> i * f < n.
Proof. intros Hf H. pose proof (Nat.div_mod (n + f - 1) f ltac:(lia)). nia. Qed.

Lemma every_pos {A} (l : list A) f : 0 < f ->
  exists l', every (Z.of_nat f) l = Ok l' /\ l' = flat_map (fun i => match nth_error l i with Some x => [x] | None => [] end)
                                                    (filter (fun i => i mod f =? 0) (seq 0 (length l))).
Proof.
  intros Hf. unfold every. destruct (Z.eqb_spec (Z.of_nat f) 0) as [F0|_]; [lia|]. eexists. split; [reflexivity|].
  destruct (Z.ltb_spec 0 (Z.of_nat f)); [|lia]. rewrite Zabs2Nat.id.
  rewrite kept_eq, flat_map_map by exact Hf. reflexivity.
Qed.

Lemma flat_map_all {A B} (f : A -> option B) (g : A -> B) l : (forall x, In x l -> f x = Some (g x)) ->
  flat_map (fun x => match f x with Some y => [y] | None => [] end) l = map g l.
Proof.
  induction l as [|x l IH]; intros H; [reflexivity|]. cbn [flat_map map]. rewrite (H x (or_introl eq_refl)), IH; [reflexivity|].
  intros y Hy. apply H. right; exact Hy.
Qed.

Lemma nth_error_seq_map {A} (g : nat -> A) n i : i < n -> nth_error (map g (seq 0 n)) i = Some (g i).
Proof. intros H. rewrite nth_error_map, (nth_error_nth' _ 0) by (rewrite seq_length; exact H). rewrite seq_nth by exact H. reflexivity. Qed.

(** ** Arguments *)

(** The arguments of the two scripts reading one file *)
Definition asked (argv : list text) (input output : text) (sx sy sz : Z) (bitdepth : text) (factor : Z) : Prop :=
  exists s x y z f, argv = [s; input; output; x; y; z; bitdepth; f] /\
    py_int x = Ok sx /\ py_int y = Ok sy /\ py_int z = Ok sz /\ py_int f = Ok factor.

Lemma dirname_nil p : dirname p = [] <-> ~ In "/"%char p.
Proof.
  unfold dirname. split.
  - destruct (split_last "/" p) as [[h t]|] eqn:E; [|intros _ I].
    + destruct (forallb _ _) eqn:A; [destruct h; discriminate|]. intros H. exfalso.
      assert (R : forall l, rstrip_slash l = [] -> forallb (Ascii.eqb "/") l = true).
      { induction l as [|c l IH]; [reflexivity|]. cbn [rstrip_slash forallb].
        destruct (ascii_dec c "/") as [->|N].
        - intros H2. rewrite (IH H2). reflexivity.
        - intros H2. exfalso. destruct c as [[] [] [] [] [] [] [] []]; try discriminate. apply N. reflexivity. }
      apply (f_equal (@rev _)) in H. rewrite rev_involutive in H. cbn in H. apply R in H.
      rewrite forallb_forall in H. enough (forallb (Ascii.eqb "/") (h ++ lit "/") = true) by congruence.
      apply forallb_forall. intros c Hc. apply H. apply -> in_rev. exact Hc.
    + clear - E I. revert E. induction p as [|c p IH]; [destruct I|]. cbn [split_last].
      destruct (split_last "/" p) as [[? ?]|] eqn:E; [discriminate|]. destruct I as [->|I].
      * rewrite Ascii.eqb_refl. discriminate.
      * intros _. apply IH; [exact I|reflexivity].
  - intros H. rewrite split_last_none by exact H. reflexivity.
Qed.

Lemma parsed_width t d : parse_bitdepth t = Ok d -> 0 < itemsize d.
Proof.
  intros H. apply parse_bitdepth_spec in H as (n & Hin & _). cbn in Hin.
  repeat (destruct Hin as [Hin|Hin]; [inversion Hin; subst; cbn; lia|]). destruct Hin.
Qed.

(** ** C72 *)
Section C72.
Variable read : text -> res (list Z).

(** The bytes of projection [i] in a file of [w] bytes per pixel *)
Definition projection (w sx sy : nat) (bytes : list Z) (i : nat) : list Z :=
  firstn (sx * sy * w) (skipn (i * (sx * sy * w)) bytes).

Lemma loaded_planes input sx sy n bitdepth d bytes :
  parse_bitdepth bitdepth = Ok d -> read input = Ok bytes -> length bytes / itemsize d = sx * sy * n ->
  load_planes read input (Z.of_nat sx) (Z.of_nat sy) (Z.of_nat n) bitdepth
  = Ok (d, map (plane sx sy (fromfile (itemsize d) bytes)) (seq 0 n)).
Proof.
  intros Hd Hr L. unfold load_planes. rewrite Hd. cbn [bind]. rewrite Hr. cbn [bind]. rewrite planes_ok; [reflexivity|].
  rewrite length_fromfile. exact L.
Qed.

Lemma plane_bytes w sx sy n bytes i : length bytes / w = sx * sy * n -> i < n ->
  concat (dat (plane sx sy (fromfile w bytes) i)) = projection w sx sy bytes i.
Proof.
  intros L Hi. unfold plane, projection. cbn [dat]. rewrite concat_items by (rewrite L; nia). f_equal. f_equal. lia.
Qed.

Lemma reduced w sx sy n bytes kept : length bytes / w = sx * sy * n -> kept <> [] -> (forall i, In i kept -> i < n) ->
  exists v, stack (flat_map (fun i => match nth_error (map (plane sx sy (fromfile w bytes)) (seq 0 n)) i with Some x => [x] | None => [] end) kept) = Ok v
    /\ concat (dat v) = flat_map (projection w sx sy bytes) kept.
Proof.
  intros L K B. rewrite (flat_map_all _ (plane sx sy (fromfile w bytes))).
  2:{ intros i Hi. apply nth_error_seq_map, B, Hi. }
  rewrite (stack_map _ [sx; sy]) by (auto; intros; reflexivity). eexists. split; [reflexivity|]. cbn [dat]. clear K.
  induction kept as [|i kept IH]; [reflexivity|]. cbn [flat_map]. rewrite concat_app, IH by (intros; apply B; right; assumption). f_equal.
  apply (plane_bytes w sx sy n); auto. apply B. left. reflexivity.
Qed.

(** The file written has exactly the projections whose number is a multiple of the factor, in order. *)
Theorem C72_kept : forall argv input output sx sy n bitdepth f d bytes,
  asked argv input output (Z.of_nat sx) (Z.of_nat sy) (Z.of_nat n) bitdepth (Z.of_nat f) ->
  parse_bitdepth bitdepth = Ok d -> read input = Ok bytes -> length bytes / itemsize d = sx * sy * n ->
  2 <= f -> 0 < n -> In "/"%char output ->
  reduce_main read argv
  = Ok (output, flat_map (projection (itemsize d) sx sy bytes) (filter (fun i => i mod f =? 0) (seq 0 n))).
Proof.
  intros argv input output sx sy n bitdepth f d bytes (s & x & y & z & ft & -> & Hx & Hy & Hz & Hft) Hd Hr L Hf Hn Ho.
  unfold reduce_main. rewrite Hx, Hy, Hz, Hft. cbn [bind]. rewrite (loaded_planes _ _ _ _ _ _ _ Hd Hr L). cbn [bind].
  unfold get_n_projections. destruct (Z.eqb_spec (Z.of_nat f) 1); [lia|].
  destruct (every_pos (map (plane sx sy (fromfile (itemsize d) bytes)) (seq 0 n)) f ltac:(lia)) as (l' & -> & ->). cbn [bind].
  rewrite map_length, seq_length.
  destruct (reduced (itemsize d) sx sy n bytes (filter (fun i => i mod f =? 0) (seq 0 n)) L) as (v & -> & E).
  - destruct n as [|n]; [lia|]. cbn [seq filter]. rewrite Nat.mod_0_l by lia. discriminate.
  - intros i Hi. apply filter_In in Hi as [Hi _]. apply in_seq in Hi. lia.
  - cbn [bind]. unfold ensure_dir. destruct (dirname output) eqn:D; [apply dirname_nil in D; contradiction|]. cbn [bind]. rewrite E. reflexivity.
Qed.

(** There are ceil(n/f) of them. *)
Theorem C72_count : forall n f, 0 < f -> length (filter (fun i => i mod f =? 0) (seq 0 n)) = (n + f - 1) / f.
Proof. intros n f Hf. rewrite kept_eq, map_length, seq_length by exact Hf. reflexivity. Qed.

Lemma fromfile_concat w (l : list (list Z)) : 0 < w -> Forall (fun b => length b = w) l -> fromfile w (concat l) = l.
Proof.
  intros Hw F. 
  assert (L : length (concat l) = length l * w).
  { induction F as [|b l Hb F IH]; [reflexivity|]. cbn [concat length Nat.mul]. rewrite app_length, IH, Hb. reflexivity. }
  unfold fromfile. rewrite L, Nat.div_mul by lia. clear L.
  induction F as [|b l Hb F IH]; [reflexivity|]. cbn [length seq map concat]. f_equal.
  - cbn [Nat.mul]. cbn [skipn]. rewrite firstn_app, Hb, Nat.sub_diag, firstn_all2 by lia. apply app_nil_r.
  - rewrite <- seq_shift, map_map. rewrite <- IH at 2. apply map_ext. intros i. cbn [Nat.mul]. f_equal.
    rewrite skipn_app, skipn_all2 by lia. rewrite Hb. replace (w + i * w - w) with (i * w) by lia. reflexivity.
Qed.
Lemma fromfile_width w bytes : 0 < w -> Forall (fun b => length b = w) (fromfile w bytes).
Proof.
  intros Hw. apply Forall_forall. intros b Hb. unfold fromfile in Hb. apply in_map_iff in Hb as (i & <- & Hi). apply in_seq in Hi.
  rewrite firstn_length, skipn_length. pose proof (Nat.div_mod (length bytes) w ltac:(lia)). nia.
Qed.
Lemma in_firstn_ {A} (x : A) n l : In x (firstn n l) -> In x l.
Proof. intros H. rewrite <- (firstn_skipn n l). apply in_app_iff. left. exact H. Qed.
Lemma in_skipn_ {A} (x : A) n l : In x (skipn n l) -> In x l.
Proof. intros H. rewrite <- (firstn_skipn n l). apply in_app_iff. right. exact H. Qed.

Lemma nth_flat_map_in {X B} (g : X -> list B) m (l : list X) i j x :
  (forall y, In y l -> length (g y) = m) -> nth_error l i = Some x -> j < m ->
  nth_error (flat_map g l) (i * m + j) = nth_error (g x) j.
Proof.
  intros Hg. revert i. induction l as [|y l IH]; intros i Hi Hj; [destruct i; discriminate|]. cbn [flat_map].
  pose proof (Hg y (or_introl eq_refl)) as Ly. destruct i as [|i].
  - injection Hi as <-. cbn [Nat.mul]. rewrite Nat.add_0_l. apply nth_error_app1. lia.
  - rewrite nth_error_app2 by (rewrite Ly; nia). rewrite Ly. replace (S i * m + j - m) with (i * m + j) by lia.
    apply IH; auto. intros z Hz. apply Hg. right; exact Hz.
Qed.

(** Seen as volumes: slice k of the result is slice k*f of the input. *)
Theorem C72_loaded : forall argv input output sx sy n bitdepth f d bytes,
  asked argv input output (Z.of_nat sx) (Z.of_nat sy) (Z.of_nat n) bitdepth (Z.of_nat f) ->
  parse_bitdepth bitdepth = Ok d -> read input = Ok bytes -> length bytes / itemsize d = sx * sy * n ->
  2 <= f -> 0 < n -> In "/"%char output ->
  exists out a b, reduce_main read argv = Ok (output, out) /\
    load_binary bytes d [Z.of_nat sx; Z.of_nat sy; Z.of_nat n] = Ok a /\
    load_binary out d [Z.of_nat sx; Z.of_nat sy; Z.of_nat ((n + f - 1) / f)] = Ok b /\
    forall x y k, x < sx -> y < sy -> k < (n + f - 1) / f -> k * f < n /\ get b [x; y; k] = get a [x; y; k * f].
Proof.
  intros argv input output sx sy n bitdepth f d bytes HA Hd Hr L Hf Hn Ho.
  set (w := itemsize d) in *. assert (Hw : 0 < w) by (eapply parsed_width; eauto).
  set (kept := filter (fun i => i mod f =? 0) (seq 0 n)).
  set (items := fromfile w bytes). assert (LI : length items = sx * sy * n) by (unfold items; rewrite length_fromfile; exact L).
  set (g := fun i => firstn (sx * sy) (skipn (i * (sx * sy)) items)).
  assert (K : forall i, In i kept -> i < n). { intros i Hi. apply filter_In in Hi as [Hi _]. apply in_seq in Hi. lia. }
  assert (G : forall i, In i kept -> length (g i) = sx * sy).
  { intros i Hi. apply K in Hi. unfold g. rewrite firstn_length, skipn_length, LI. nia. }
  assert (E : flat_map (projection w sx sy bytes) kept = concat (flat_map g kept)).
  { clear HA. revert K. generalize kept as l. clear G kept. induction l as [|i l IH]; intros K; [reflexivity|]. cbn [flat_map]. rewrite concat_app, <- IH by (intros; apply K; right; assumption).
    f_equal. symmetry. apply (plane_bytes w sx sy n bytes i L). apply K. left; reflexivity. }
  assert (LG : length (flat_map g kept) = (n + f - 1) / f * (sx * sy)).
  { rewrite <- (C72_count n f) by lia. fold kept. clear E. revert G. generalize kept as l. clear K kept. induction l as [|i l IH]; intros G; [reflexivity|]. cbn [flat_map length Nat.mul].
    rewrite app_length, G by (left; reflexivity). rewrite IH by (intros; apply G; right; assumption). reflexivity. }
  assert (FI : fromfile w (concat (flat_map g kept)) = flat_map g kept).
  { apply fromfile_concat; [exact Hw|]. apply Forall_forall. intros b Hb. apply in_flat_map in Hb as (i & _ & Hb). apply in_firstn_, in_skipn_ in Hb.
    apply (proj1 (Forall_forall _ _) (fromfile_width w bytes Hw)). exact Hb. }
  destruct (load_items_3d items sx sy n) as (a & Ha & _ & _ & Ga); [lia|].
  destruct (load_items_3d (flat_map g kept) sx sy ((n + f - 1) / f)) as (b & Hb & _ & _ & Gb); [rewrite LG; ring|].
  exists (concat (flat_map g kept)), a, b. split; [rewrite (C72_kept argv input output sx sy n bitdepth f d bytes) by auto; fold w; fold kept; rewrite E; reflexivity|].
  split; [exact Ha|]. split; [unfold load_binary; fold w; rewrite FI; exact Hb|].
  intros x y k Hx Hy Hk. pose proof (kept_lt n f k ltac:(lia) Hk) as B. split; [exact B|].
  rewrite Ga, Gb by auto. replace (x + sx * (y + sy * k)) with (k * (sx * sy) + (x + sx * y)) by lia.
  assert (J : x + sx * y < sx * sy) by nia.
  rewrite (nth_flat_map_in g (sx * sy) kept k _ (k * f) G); [|unfold kept; rewrite kept_eq by lia; apply (nth_error_seq_map (fun i => i * f)); exact Hk|exact J].
  unfold g. rewrite nth_error_firstn, nth_error_skipn. rewrite (proj2 (Nat.ltb_lt _ _) J). f_equal. lia.
Qed.

(** Refused: the factors 1 and 0, files of another size, and sizes that are not positive. *)
Theorem C72_refused : forall argv input output sx sy n bitdepth f d bytes,
  asked argv input output sx sy n bitdepth f -> parse_bitdepth bitdepth = Ok d -> read input = Ok bytes ->
  f = 1%Z \/ f = 0%Z \/ Z.of_nat (length bytes / itemsize d) <> (sx * sy * n)%Z \/ (sx < 0)%Z \/ (sy < 0)%Z \/ (n <= 0)%Z ->
  reduce_main read argv = Err ValueError.
Proof.
  intros argv input output sx sy n bitdepth f d bytes (s & x & y & z & ft & -> & Hx & Hy & Hz & Hft) Hd Hr H.
  unfold reduce_main. rewrite Hx, Hy, Hz, Hft. cbn [bind]. unfold load_planes. rewrite Hd. cbn [bind]. rewrite Hr. cbn [bind].
  assert (P : forall l, @get_n_projections (list Z) l 1 = Err ValueError /\ @get_n_projections (list Z) l 0 = Err ValueError) by (split; reflexivity).
  destruct (Z.eq_dec (Z.of_nat (length (fromfile (itemsize d) bytes))) (sx * sy * n)) as [E|E].
  - destruct (Z.le_gt_cases 0 sx) as [Bx|Bx]; [destruct (Z.le_gt_cases 0 sy) as [By|By]; [destruct (Z.le_gt_cases n 0) as [Bn|Bn]|]|].
    2:{ rewrite length_fromfile in E. assert (F : f = 1%Z \/ f = 0%Z) by lia.
        destruct (planes _ sx sy n) as [l|e] eqn:PE; cbn [bind]; [destruct F as [->| ->]; destruct (P l) as [P1 P2]; [rewrite P1|rewrite P2]; reflexivity|].
        rewrite <- (Z2Nat.id sx), <- (Z2Nat.id sy), <- (Z2Nat.id n) in PE by lia. rewrite planes_ok in PE; [discriminate|].
        rewrite length_fromfile. nia. }
    all: destruct (planes_bad (fromfile (itemsize d) bytes) sx sy n) as [-> | ->]; [lia|reflexivity|]; cbn [bind]; unfold get_n_projections;
      destruct (f =? 1)%Z; [reflexivity|]; unfold every; destruct (f =? 0)%Z; [reflexivity|]; cbn [length plus bind];
      replace (flat_map _ _) with (@nil (arr (list Z))); [reflexivity|]; symmetry; apply flat_map_nil; intros i _; destruct (nth_error _ _) eqn:NE; [|reflexivity]; apply nth_error_In in NE; destruct NE.
  - destruct (planes_bad (fromfile (itemsize d) bytes) sx sy n) as [PE | PE]; [left; exact E| |].
    + rewrite PE. reflexivity.
    + unfold planes in PE. unfold prodZ in PE. cbn [fold_right] in PE. rewrite (proj2 (Z.eqb_neq _ _)) in PE; [discriminate|]. 
      replace (sx * (sy * (n * 1)))%Z with (sx * sy * n)%Z by ring. exact E.
Qed.

(** A negative factor takes every f-th projection backwards from the last one. *)
Theorem C72_backwards : forall argv input output sx sy n bitdepth f d bytes,
  asked argv input output (Z.of_nat sx) (Z.of_nat sy) (Z.of_nat n) bitdepth (- Z.of_nat f) ->
  parse_bitdepth bitdepth = Ok d -> read input = Ok bytes -> length bytes / itemsize d = sx * sy * n ->
  1 <= f -> 0 < n -> In "/"%char output ->
  reduce_main read argv
  = Ok (output, flat_map (fun i => projection (itemsize d) sx sy bytes (n - 1 - i)) (filter (fun i => i mod f =? 0) (seq 0 n))).
Proof.
  intros argv input output sx sy n bitdepth f d bytes (s & x & y & z & ft & -> & Hx & Hy & Hz & Hft) Hd Hr L Hf Hn Ho.
  unfold reduce_main. rewrite Hx, Hy, Hz, Hft. cbn [bind]. rewrite (loaded_planes _ _ _ _ _ _ _ Hd Hr L). cbn [bind].
  unfold get_n_projections. destruct (Z.eqb_spec (- Z.of_nat f) 1); [lia|]. unfold every.
  destruct (Z.eqb_spec (- Z.of_nat f) 0); [lia|]. destruct (Z.ltb_spec 0 (- Z.of_nat f)); [lia|]. cbn [bind].
  replace (Z.abs_nat (- Z.of_nat f)) with f by lia. rewrite map_length, seq_length.
  assert (E0 : forall (A : Type) (h : nat -> list A), flat_map h (map (fun i => n - 1 - i * f) (seq 0 ((n + f - 1) / f))) = flat_map (fun i => h (n - 1 - i)) (filter (fun i => i mod f =? 0) (seq 0 n))).
  { intros A h. rewrite kept_eq, !flat_map_map by lia. reflexivity. }
  rewrite <- E0. rewrite <- (flat_map_map (fun i => n - 1 - i * f) (fun j => match nth_error (map (plane sx sy (fromfile (itemsize d) bytes)) (seq 0 n)) j with Some x => [x] | None => [] end)).
  destruct (reduced (itemsize d) sx sy n bytes (map (fun i => n - 1 - i * f) (seq 0 ((n + f - 1) / f))) L) as (v & -> & E).
  - assert (0 < (n + f - 1) / f) by (apply Nat.div_str_pos; lia). destruct ((n + f - 1) / f); [lia|]. discriminate.
  - intros i Hi. apply in_map_iff in Hi as (j & <- & _). lia.
  - cbn [bind]. unfold ensure_dir. destruct (dirname output) eqn:D; [apply dirname_nil in D; contradiction|]. cbn [bind]. rewrite E. reflexivity.
Qed.

(** An output name without a folder is never written. *)
Theorem C72_folder : forall argv input output sx sy n bitdepth f file,
  asked argv input output sx sy n bitdepth f -> ~ In "/"%char output -> reduce_main read argv <> Ok file.
Proof.
  intros argv input output sx sy n bitdepth f file (s & x & y & z & ft & -> & Hx & Hy & Hz & Hft) Ho H.
  unfold reduce_main in H. rewrite Hx, Hy, Hz, Hft in H. cbn [bind] in H.
  destruct (load_planes _ _ _ _ _ _) as [[d l]|]; [|discriminate]. cbn [bind] in H.
  destruct (get_n_projections _ _) as [v|]; [|discriminate]. cbn [bind] in H.
  rewrite (proj2 (dirname_nil output) Ho) in H. discriminate.
Qed.
End C72.
Print Assumptions C72_kept.
Print Assumptions C72_count.
Print Assumptions C72_loaded.
Print Assumptions C72_refused.
Print Assumptions C72_backwards.
Print Assumptions C72_folder.

Example C72_ex :
  reduce_main (fun _ => Ok [1; 2; 3; 4; 5; 6; 7; 8; 9; 10]%Z) (map lit ["r"; "in.raw"; "o/out.raw"; "2"; "1"; "5"; "8ubit"; "2"]%string)
  = Ok (lit "o/out.raw", [1; 2; 5; 6; 9; 10]%Z).
Proof. reflexivity. Qed.

(** ** C73 *)

Lemma stack_planes {A} (items : list A) s0 s1 s2 : length items = s0 * s1 * s2 -> 0 < s2 ->
  stack (map (plane s0 s1 items) (seq 0 s2)) = Ok (Arr [s2; s0; s1] items).
Proof.
  intros L H. rewrite (stack_map _ [s0; s1]); [|destruct s2; [lia|discriminate]|reflexivity]. rewrite seq_length. do 2 f_equal.
  cbn [plane dat]. rewrite flat_map_concat_map, concat_map_seq. cbn [Nat.mul skipn]. apply firstn_all2. lia.
Qed.

(** Half of the extent kept along an axis of length n, and the first index kept *)
Definition half (f n : nat) : nat := n / f / 2.
Definition low (f n : nat) : nat := n / 2 - half f n.

Lemma half_le f n : 2 <= f -> 2 * half f n <= n / 2 /\ half f n <= n / 2.
Proof.
  intros H. unfold half. assert (n / f <= n / 2) by (apply Nat.div_le_compat_l; lia).
  pose proof (Nat.div_mod (n / f) 2 ltac:(lia)). lia.
Qed.

Lemma crop_bounds f n : 2 <= f ->
  clip n (fst (crop_range (Z.of_nat f) n)) = low f n /\
  clip n (snd (crop_range (Z.of_nat f) n)) = low f n + 2 * half f n /\ low f n + 2 * half f n <= n.
Proof.
  intros H. unfold crop_range, low. cbn [fst snd].
  change 2%Z with (Z.of_nat 2). rewrite <- !Nat2Z.inj_div. fold (half f n). pose proof (half_le f n H) as [L1 L2].
  pose proof (Nat.div_mod n 2 ltac:(lia)).
  rewrite <- Nat2Z.inj_sub by exact L2. rewrite <- Nat2Z.inj_add. rewrite !clip_nat. lia.
Qed.

Lemma crop_ok {A} (items : list A) s0 s1 s2 f : length items = s0 * s1 * s2 -> 2 <= f ->
  exists c, crop (Arr [s2; s0; s1] items) (Z.of_nat f) = Ok c /\ wf c /\
    shp c = [2 * half f s2; 2 * half f s0; 2 * half f s1] /\
    (forall b, In b (dat c) -> In b items) /\
    forall x y z, x < 2 * half f s1 -> y < 2 * half f s0 -> z < 2 * half f s2 ->
      get c [z; y; x] = nth_error items (((low f s2 + z) * s0 + (low f s0 + y)) * s1 + (low f s1 + x)).
Proof.
  intros L Hf. unfold crop. destruct (Z.eqb_spec (Z.of_nat f) 1); [lia|]. destruct (Z.eqb_spec (Z.of_nat f) 0); [lia|].
  set (a := Arr [s2; s0; s1] items). assert (W : wf a) by (unfold wf; cbn; lia).
  destruct (slice_ok a (map (crop_range (Z.of_nat f)) (firstn 3 (shp a))) W) as (c & Hc & Sc & Wc & Gc); [cbn; lia|].
  exists c. split; [exact Hc|]. split; [exact Wc|].
  destruct (crop_bounds f s0 Hf) as (A0 & B0 & C0). destruct (crop_bounds f s1 Hf) as (A1 & B1 & C1). destruct (crop_bounds f s2 Hf) as (A2 & B2 & C2).
  assert (S : shp c = [2 * half f s2; 2 * half f s0; 2 * half f s1]).
  { rewrite Sc. cbn [a shp firstn map slice_shape]. rewrite A0, A1, A2, B0, B1, B2. repeat (f_equal; [lia|]). f_equal. lia. }
  split; [exact S|]. split.
  - intros b Hb. apply In_nth_error in Hb as [k Hk]. assert (K : k < size (shp c)). { unfold wf in Wc. rewrite <- Wc. apply nth_error_Some. congruence. }
    destruct (ravel_surj _ _ K) as (idx & Hi & <-). assert (G : get c idx = Some b) by (unfold get; rewrite Hi; exact Hk).
    rewrite Gc in G by exact Hi. unfold get in G. destruct (inb (shp a) _); [|discriminate]. apply nth_error_In in G. exact G.
  - intros x y z Hx Hy Hz. rewrite Gc.
    + unfold a. cbn [shp firstn map slice_index]. rewrite A0, A1, A2. unfold get. cbn [shp dat inb ravel size].
      rewrite !(proj2 (Nat.ltb_lt _ _)) by lia. cbn [andb]. f_equal. lia.
    + rewrite S. cbn [inb]. rewrite !(proj2 (Nat.ltb_lt _ _)) by lia. reflexivity.
Qed.

Lemma str_nat_dec n : str_nat n = dec_text n.
Proof. reflexivity. Qed.

Lemma sub_skip r repl p s fuel : (forall p1 p2, p = p1 ++ p2 -> p2 <> [] -> matches r (p2 ++ s) = []) ->
  sub_fuel (length p + fuel) r repl (p ++ s) = p ++ sub_fuel fuel r repl s.
Proof.
  induction p as [|c p IH]; intros H; [reflexivity|]. pose proof (H [] (c :: p) eq_refl ltac:(discriminate)) as E.
  cbn [app] in E. cbn [length plus app sub_fuel]. rewrite E. f_equal. apply IH. intros p1 p2 -> Hn. apply (H (c :: p1) p2 eq_refl Hn).
Qed.
Lemma sub_none r repl s fuel : search r s = None -> sub_fuel fuel r repl s = s.
Proof.
  revert s; induction fuel as [|fuel IH]; intros s H; [reflexivity|]. cbn [sub_fuel]. destruct s as [|c s].
  - cbn [search] in H. destruct (matches r []); [reflexivity|discriminate].
  - cbn [search] in H. destruct (matches r (c :: s)); [|discriminate]. f_equal. apply IH, H.
Qed.

Lemma dim_clean p s : clean_before (is_char "x") p ->
  forall p1 p2, p = p1 ++ p2 -> p2 <> [] -> matches dim_re (p2 ++ s) = [].
Proof.
  intros Hp p1 p2 -> Hn. apply clean_before_suffix in Hp.
  unfold dim_re. cbn [matches]. apply flat_map_nil. intros m Hm.
  destruct (plus_clean (is_char "x") p2 _ m Hn Hp Hm) as (d & m' & -> & [H|H]).
  - unfold rlit. cbn [matches]. rewrite is_digit_not_x by exact H. reflexivity.
  - unfold rlit. cbn [matches]. rewrite H. reflexivity.
Qed.
Lemma dim_here dx dy dz s : digits dx -> digits dy -> digits dz -> no_digit_start s ->
  exists ms, matches dim_re (dx ++ "x"%char :: dy ++ "x"%char :: dz ++ s) = s :: ms.
Proof.
  intros [Nx Dx] [Ny Dy] [Nz Dz] Hs.
  destruct (plus_first is_digit dx ("x"%char :: dy ++ "x"%char :: dz ++ s) Nx Dx eq_refl) as (m1 & E1 & _).
  destruct (plus_first is_digit dy ("x"%char :: dz ++ s) Ny Dy eq_refl) as (m2 & E2 & _).
  destruct (plus_first is_digit dz s Nz Dz Hs) as (m3 & E3 & _).
  eexists. unfold dim_re. cbn [matches] in *. rewrite E1. cbn [flat_map]. cbn.
  cbn in E2. rewrite E2. cbn [flat_map]. cbn. cbn in E3. rewrite E3. cbn [app]. reflexivity.
Qed.
Lemma no_triple_search s : ~ triple_inside s -> search dim_re s = None.
Proof.
  intros H. destruct (search dim_re s) as [t|] eqn:E; [|reflexivity]. exfalso. apply H. apply search_some in E as (a & b & -> & Hl).
  apply lang_dim in Hl as (dx & dy & dz & -> & G). exists a, dx, dy, dz, b. split; [|exact G].
  rewrite <- app_assoc. cbn [app]. rewrite <- app_assoc. reflexivity.
Qed.

Lemma sub_dims repl p dx dy dz s : clean_before (is_char "x") p -> digits dx -> digits dy -> digits dz -> no_digit_start s ->
  ~ triple_inside s -> sub dim_re repl (p ++ dx ++ "x"%char :: dy ++ "x"%char :: dz ++ s) = p ++ repl ++ s.
Proof.
  intros Hp Hx Hy Hz Hs Ht. unfold sub. rewrite app_length, <- Nat.add_succ_r. rewrite sub_skip by (apply dim_clean; exact Hp). f_equal.
  destruct (dim_here dx dy dz s Hx Hy Hz Hs) as (ms & E). cbn [sub_fuel]. rewrite E. f_equal. apply sub_none, no_triple_search, Ht.
Qed.

Lemma basename_no_slash p : ~ In "/"%char (basename p).
Proof.
  unfold basename. destruct (split_last "/" p) as [[h t]|] eqn:E.
  - apply split_last_some in E. tauto.
  - intros I. revert E I. induction p as [|c p IH]; [intros _ []|]. cbn [split_last].
    destruct (split_last "/" p) as [[? ?]|]; [discriminate|]. destruct (Ascii.eqb_spec c "/") as [->|N]; [discriminate|].
    intros _ [->|I]; [contradiction|apply IH; auto].
Qed.

Section C73.
Variable read : text -> res (list Z).

(** Where the loader finds voxel (x, y, z) of the written file in the input: the file is read with the
    first two sizes exchanged. *)
Theorem C73_crop : forall argv input output s0 s1 s2 bitdepth f d bytes p nX nY nZ m ds k s,
  asked argv input output (Z.of_nat s0) (Z.of_nat s1) (Z.of_nat s2) bitdepth (Z.of_nat f) ->
  parse_bitdepth bitdepth = Ok d -> read input = Ok bytes -> length bytes / itemsize d = s0 * s1 * s2 ->
  2 <= f -> 0 < s2 -> output <> [] ->
  basename input = raw_head p nX nY nZ m (ds ++ kind_text k ++ lit "bit") s ++ lit ".raw" ->
  digit_free p -> digit_free m -> (exists c m', m = c :: m' /\ depth_follow c = false) -> digits ds ->
  parse_bitdepth (last2 ds ++ kind_text k ++ lit "bit" ++ opt_s s) = Ok d ->
  ~ triple_inside (m ++ (ds ++ kind_text k ++ lit "bit") ++ s ++ lit ".raw") ->
  exists name out a b,
    crop_main read argv = Ok (join output name, out) /\
    load_binary bytes d [Z.of_nat s0; Z.of_nat s1; Z.of_nat s2] = Ok a /\
    load_raw name out = Ok (d, b) /\ shp b = [2 * half f s1; 2 * half f s0; 2 * half f s2] /\
    forall x y z, x < 2 * half f s1 -> y < 2 * half f s0 -> z < 2 * half f s2 ->
      let q := (low f s0 + y) * s1 + (low f s1 + x) in
      get b [x; y; z] = get a [q mod s0; q / s0; low f s2 + z] /\ q mod s0 < s0 /\ q / s0 < s1 /\ low f s2 + z < s2.
Proof.
  intros argv input output s0 s1 s2 bitdepth f d bytes p nX nY nZ m ds k s (sc & x & y & z & ft & -> & Hx & Hy & Hz & Hft) Hd Hr L Hf Hs2 Ho HB Hp Hm Hc Hds Hb Ht.
  set (w := itemsize d) in *. assert (Hw : 0 < w) by (eapply parsed_width; eauto).
  set (items := fromfile w bytes). assert (LI : length items = s0 * s1 * s2) by (unfold items; rewrite length_fromfile; exact L).
  destruct (crop_ok items s0 s1 s2 f LI Hf) as (c & Ec & Wc & Sc & Ic & Gc).
  set (tok := ds ++ kind_text k ++ lit "bit") in *.
  set (name := raw_head (lit "crop_" ++ p) (2 * half f s1) (2 * half f s0) (2 * half f s2) m tok s ++ lit ".raw").
  assert (Nm : m <> []) by (destruct Hc as (c0 & m' & -> & _); discriminate).
  assert (EN : crop_name (shp c) (basename input) = name).
  { rewrite HB. unfold crop_name, name, raw_head. rewrite <- !app_assoc. cbn [app]. rewrite <- !app_assoc. cbn [app]. rewrite <- !app_assoc.
    rewrite sub_dims.
    - rewrite Sc. unfold dims_name. cbn [nth]. rewrite !str_nat_dec. do 2 f_equal. rewrite <- !app_assoc. cbn [app]. rewrite <- !app_assoc. reflexivity.
    - apply clean_digit_free, digit_free_forallb, Hp.
    - apply dec_text_digits.
    - apply dec_text_digits.
    - apply dec_text_digits.
    - destruct m as [|c0 m']; [contradiction|]. apply Hm. left; reflexivity.
    - exact Ht. }
  destruct (load_items_3d items s0 s1 s2 LI) as (a & Ha & Sa & _ & Ga).
  assert (FI : fromfile w (concat (dat c)) = dat c).
  { apply fromfile_concat; [exact Hw|]. apply Forall_forall. intros b Hin. apply Ic in Hin.
    apply (proj1 (Forall_forall _ _) (fromfile_width w bytes Hw)). exact Hin. }
  destruct (load_items_3d (dat c) (2 * half f s1) (2 * half f s0) (2 * half f s2)) as (b & Eb & Sb & _ & Gb).
  { unfold wf in Wc. rewrite Wc, Sc. cbn [size]. ring. }
  assert (NS : ~ In "/"%char (raw_head (lit "crop_" ++ p) (2 * half f s1) (2 * half f s0) (2 * half f s2) m tok s)).
  { pose proof (basename_no_slash input) as B. rewrite HB in B. clear - B. unfold raw_head in *. intros I. apply B. clear B.
    assert (D : forall n, ~ In "/"%char (dec_text n)).
    { intros n Hn. pose proof (dec_text_digits n) as [_ F]. rewrite forallb_forall in F. apply F in Hn. discriminate. }
    repeat (rewrite in_app_iff in I || cbn [In] in I). repeat (rewrite in_app_iff || cbn [In]).
    destruct I as [[I|I]|[I|[I|[I|[I|[I|[I|[I|I]]]]]]]]; try (exfalso; eapply D; eassumption); try discriminate; try tauto.
    cbn in I. repeat destruct I as [I|I]; try discriminate. contradiction. }
  exists name, (concat (dat c)), a, b. split.
  { unfold crop_main. rewrite Hx, Hy, Hz, Hft. cbn [bind]. rewrite (loaded_planes read _ _ _ _ _ _ _ Hd Hr L). cbn [bind]. fold w. fold items.
    rewrite stack_planes by assumption. cbn [bind]. rewrite Ec. cbn [bind]. destruct output; [contradiction|]. cbn [ensure_dir bind]. rewrite EN. reflexivity. }
  split; [exact Ha|]. split.
  { unfold load_raw, name. rewrite raw_head_splitext by exact NS. cbn [fst]. rewrite raw_head_dims; auto.
    2:{ intros c0 Hc0. apply in_app_iff in Hc0 as [Hc0|Hc0]; [|apply Hp, Hc0]. cbn in Hc0. repeat (destruct Hc0 as [<-|Hc0]; [reflexivity|]). destruct Hc0. }
    cbn [bind]. unfold tok. rewrite raw_head_dtype; auto.
    2:{ intros c0 Hc0. apply in_app_iff in Hc0 as [Hc0|Hc0]; [|apply Hp, Hc0]. cbn in Hc0. repeat (destruct Hc0 as [<-|Hc0]; [reflexivity|]). destruct Hc0. }
    rewrite Hb. cbn [bind]. unfold load_binary. fold w. rewrite FI, Eb. reflexivity. }
  split; [exact Sb|]. intros x0 y0 z0 Hx0 Hy0 Hz0 q.
  destruct (crop_bounds f s0 Hf) as (_ & _ & C0). destruct (crop_bounds f s1 Hf) as (_ & _ & C1). destruct (crop_bounds f s2 Hf) as (_ & _ & C2).
  assert (Hq : q < s0 * s1) by (unfold q; nia).
  assert (P0 : 0 < s0) by lia.
  assert (Q1 : q mod s0 < s0) by (apply Nat.mod_upper_bound; lia). assert (Q2 : q / s0 < s1) by (apply Nat.div_lt_upper_bound; lia).
  split; [|lia]. rewrite Ga by lia. rewrite Gb by assumption.
  transitivity (get c [z0; y0; x0]).
  - unfold get. rewrite Sc. cbn [inb ravel size]. rewrite !(proj2 (Nat.ltb_lt _ _)) by lia. cbn [andb]. f_equal. lia.
  - rewrite Gc by assumption. f_equal. pose proof (Nat.div_mod q s0 ltac:(lia)) as D. unfold q in D |- *. nia.
Qed.

(** Equal extents in x and y: the central box. *)
Theorem C73_square : forall argv input output n s2 bitdepth f d bytes p nX nY nZ m ds k s,
  asked argv input output (Z.of_nat n) (Z.of_nat n) (Z.of_nat s2) bitdepth (Z.of_nat f) ->
  parse_bitdepth bitdepth = Ok d -> read input = Ok bytes -> length bytes / itemsize d = n * n * s2 ->
  2 <= f -> 0 < s2 -> output <> [] ->
  basename input = raw_head p nX nY nZ m (ds ++ kind_text k ++ lit "bit") s ++ lit ".raw" ->
  digit_free p -> digit_free m -> (exists c m', m = c :: m' /\ depth_follow c = false) -> digits ds ->
  parse_bitdepth (last2 ds ++ kind_text k ++ lit "bit" ++ opt_s s) = Ok d ->
  ~ triple_inside (m ++ (ds ++ kind_text k ++ lit "bit") ++ s ++ lit ".raw") ->
  exists name out a b,
    crop_main read argv = Ok (join output name, out) /\
    load_binary bytes d [Z.of_nat n; Z.of_nat n; Z.of_nat s2] = Ok a /\
    load_raw name out = Ok (d, b) /\ shp b = [2 * half f n; 2 * half f n; 2 * half f s2] /\
    forall x y z, x < 2 * half f n -> y < 2 * half f n -> z < 2 * half f s2 ->
      get b [x; y; z] = get a [low f n + x; low f n + y; low f s2 + z].
Proof.
  intros argv input output n s2 bitdepth f d bytes p nX nY nZ m ds k s HA Hd Hr L Hf Hs2 Ho HB Hp Hm Hc Hds Hb Ht.
  destruct (C73_crop argv input output n n s2 bitdepth f d bytes p nX nY nZ m ds k s HA Hd Hr L Hf Hs2 Ho HB Hp Hm Hc Hds Hb Ht) as (name & out & a & b & E1 & E2 & E3 & E4 & G).
  exists name, out, a, b. repeat (split; [assumption|]). intros x y z Hx Hy Hz. destruct (G x y z Hx Hy Hz) as (-> & _).
  destruct (crop_bounds f n Hf) as (_ & _ & C1).
  replace (((low f n + y) * n + (low f n + x)) mod n) with (low f n + x).
  - replace (((low f n + y) * n + (low f n + x)) / n) with (low f n + y); [reflexivity|]. apply Nat.div_unique with (low f n + x); lia.
  - apply Nat.mod_unique with (low f n + y); lia.
Qed.

(** Different extents, distinct voxels: no box of the input, wherever it is placed. *)
Theorem C73_not_a_box : forall argv input output s0 s1 s2 bitdepth f d bytes p nX nY nZ m ds k s,
  asked argv input output (Z.of_nat s0) (Z.of_nat s1) (Z.of_nat s2) bitdepth (Z.of_nat f) ->
  parse_bitdepth bitdepth = Ok d -> read input = Ok bytes -> length bytes / itemsize d = s0 * s1 * s2 ->
  2 <= f -> 0 < s2 -> output <> [] ->
  basename input = raw_head p nX nY nZ m (ds ++ kind_text k ++ lit "bit") s ++ lit ".raw" ->
  digit_free p -> digit_free m -> (exists c m', m = c :: m' /\ depth_follow c = false) -> digits ds ->
  parse_bitdepth (last2 ds ++ kind_text k ++ lit "bit" ++ opt_s s) = Ok d ->
  ~ triple_inside (m ++ (ds ++ kind_text k ++ lit "bit") ++ s ++ lit ".raw") ->
  s0 <> s1 -> 0 < half f s0 -> 0 < half f s1 -> 0 < half f s2 ->
  exists name out a b,
    crop_main read argv = Ok (join output name, out) /\
    load_binary bytes d [Z.of_nat s0; Z.of_nat s1; Z.of_nat s2] = Ok a /\
    load_raw name out = Ok (d, b) /\
    ((forall i j v, get a i = Some v -> get a j = Some v -> i = j) ->
     forall bx by_ bz, exists x y z v, get b [x; y; z] = Some v /\ get a [bx + x; by_ + y; bz + z] <> Some v).
Proof.
  intros argv input output s0 s1 s2 bitdepth f d bytes p nX nY nZ m ds k s HA Hd Hr L Hf Hs2 Ho HB Hp Hm Hc Hds Hb Ht N H0 H1 H2.
  destruct (C73_crop argv input output s0 s1 s2 bitdepth f d bytes p nX nY nZ m ds k s HA Hd Hr L Hf Hs2 Ho HB Hp Hm Hc Hds Hb Ht) as (name & out & a & b & E1 & E2 & E3 & E4 & G).
  exists name, out, a, b. repeat (split; [assumption|]). intros Inj bx by_ bz.
  destruct (load_items_3d (fromfile (itemsize d) bytes) s0 s1 s2) as (a' & Ea & Sa & Wa & _); [rewrite length_fromfile; lia|].
  unfold load_binary in E2. rewrite Ea in E2. injection E2 as ->.
  pose proof (G 0 0 0 ltac:(lia) ltac:(lia) ltac:(lia)) as G0. pose proof (G 0 1 0 ltac:(lia) ltac:(lia) ltac:(lia)) as G1. cbv zeta in G0, G1.
  set (q0 := (low f s0 + 0) * s1 + (low f s1 + 0)) in *. set (q1 := (low f s0 + 1) * s1 + (low f s1 + 0)) in *.
  destruct G0 as (G0 & A0 & B0 & C0). destruct G1 as (G1 & A1 & B1 & C1).
  destruct (get_wf_some a [q0 mod s0; q0 / s0; low f s2 + 0] Wa) as [v0 V0]; [rewrite Sa; cbn [inb]; rewrite !(proj2 (Nat.ltb_lt _ _)) by assumption; reflexivity|].
  destruct (get_wf_some a [q1 mod s0; q1 / s0; low f s2 + 0] Wa) as [v1 V1]; [rewrite Sa; cbn [inb]; rewrite !(proj2 (Nat.ltb_lt _ _)) by assumption; reflexivity|].
  assert (Dec : forall (o : option (list Z)) v, {o = Some v} + {o <> Some v}).
  { intros o v. destruct o as [u|]; [destruct (list_eq_dec Z.eq_dec u v) as [->|N']; [left; reflexivity|right; congruence]|right; discriminate]. }
  destruct (Dec (get a [bx + 0; by_ + 0; bz + 0]) v0) as [P0|P0].
  2:{ exists 0, 0, 0, v0. split; [rewrite G0; exact V0|exact P0]. }
  exists 0, 1, 0, v1. split; [rewrite G1; exact V1|]. intros P1.
  pose proof (Inj _ _ _ P0 V0) as I0. pose proof (Inj _ _ _ P1 V1) as I1. injection I0 as X0 Y0 _. injection I1 as X1 Y1 _.
  pose proof (Nat.div_mod q0 s0 ltac:(lia)) as D0. pose proof (Nat.div_mod q1 s0 ltac:(lia)) as D1. apply N.
  rewrite <- X0, <- Y0 in D0. rewrite <- X1, <- Y1 in D1. unfold q0, q1 in D0, D1. lia.
Qed.

(** A name without sizes is kept, so that the result cannot be loaded. *)
Theorem C73_unnamed : forall argv input output name out,
  crop_main read argv = Ok (name, out) -> nth_error argv 1 = Some input -> nth_error argv 2 = Some output ->
  ~ triple_inside (basename input) ->
  name = join output (lit "crop_" ++ basename input) /\ forall bytes, load_raw (lit "crop_" ++ basename input) bytes = Err ValueError.
Proof.
  intros argv input output name out H A1 A2 NT. split.
  - unfold crop_main in H. destruct argv as [|s [|i [|o [|x [|y [|z [|bd [|f [|? ?]]]]]]]]]; try discriminate.
    cbn in A1, A2. injection A1 as ->. injection A2 as ->.
    apply bind_ok in H as (s0 & _ & H). apply bind_ok in H as (s1 & _ & H). apply bind_ok in H as (s2 & _ & H). apply bind_ok in H as (ff & _ & H).
    apply bind_ok in H as ([d l] & _ & H). apply bind_ok in H as (v & _ & H). apply bind_ok in H as (c & _ & H). apply bind_ok in H as ([] & _ & H).
    assert (E : crop_name (shp c) (basename input) = lit "crop_" ++ basename input).
    { unfold crop_name. f_equal. apply sub_none, no_triple_search, NT. }
    rewrite E in H. congruence.
  - intros bytes. apply load_raw_no_triple. intros T. apply NT.
    assert (T' : triple_inside (lit "crop_" ++ basename input)).
    { destruct T as (a & dx & dy & dz & b & E & D). 
      assert (exists t, lit "crop_" ++ basename input = fst (splitext (lit "crop_" ++ basename input)) ++ t) as [t Et].
      { unfold splitext. destruct (split_last "." (lit "crop_" ++ basename input)) as [[h u]|] eqn:SL; [|exists []; rewrite app_nil_r; reflexivity].
        apply split_last_some in SL as [SL _]. destruct (existsb _ u); [exists []; rewrite app_nil_r; reflexivity|].
        destruct (existsb _ _); [exists ("."%char :: u); exact SL|exists []; rewrite app_nil_r; reflexivity]. }
      exists a, dx, dy, dz, (b ++ t). split; [|exact D]. rewrite Et, E. rewrite <- !app_assoc. cbn [app]. rewrite <- !app_assoc. cbn [app]. rewrite <- !app_assoc. reflexivity. }
    clear T. destruct T' as (a & dx & dy & dz & b & E & (Nx & Dx) & Dy & Dz).
    assert (C : forall pre, Forall (fun c => is_digit c = false) pre -> forall a, pre ++ basename input = a ++ dx ++ "x"%char :: dy ++ "x"%char :: dz ++ b -> triple_inside (basename input)).
    { clear - Nx Dx Dy Dz. induction pre as [|c pre IH]; intros F a E.
      - exists a, dx, dy, dz, b. repeat split; auto; apply Dy || apply Dz.
      - inversion F as [|? ? Fc Fp]; subst. destruct a as [|c' a].
        + destruct dx as [|c' dx]; [contradiction|]. cbn in E, Dx. injection E as -> _. rewrite Fc in Dx. discriminate.
        + cbn in E. injection E as _ E. apply (IH Fp a E). }
    apply (C (lit "crop_") ltac:(repeat constructor) a E).
Qed.

(** Factors 1 and 0 are refused; negative factors write an empty file. *)
Theorem C73_factors : forall argv input output s0 s1 s2 bitdepth f d bytes,
  asked argv input output (Z.of_nat s0) (Z.of_nat s1) (Z.of_nat s2) bitdepth f ->
  parse_bitdepth bitdepth = Ok d -> read input = Ok bytes -> 0 < s2 ->
  (length bytes / itemsize d <> s0 * s1 * s2 -> crop_main read argv = Err ValueError) /\
  (length bytes / itemsize d = s0 * s1 * s2 ->
    (f = 1%Z -> crop_main read argv = Err ValueError) /\
    (f = 0%Z -> crop_main read argv = Err ZeroDivisionError) /\
    ((f < 0)%Z -> output <> [] -> exists name, crop_main read argv = Ok (name, []))).
Proof.
  intros argv input output s0 s1 s2 bitdepth f d bytes (sc & x & y & z & ft & -> & Hx & Hy & Hz & Hft) Hd Hr Hs2. split.
  - intros L. unfold crop_main. rewrite Hx, Hy, Hz, Hft. cbn [bind]. unfold load_planes. rewrite Hd. cbn [bind]. rewrite Hr. cbn [bind].
    unfold planes. rewrite prodZ_nat3, length_fromfile. rewrite (proj2 (Z.eqb_neq _ _)) by lia. reflexivity.
  - intros L. unfold crop_main. rewrite Hx, Hy, Hz, Hft. cbn [bind]. rewrite (loaded_planes read _ _ _ _ _ _ _ Hd Hr L). cbn [bind].
    rewrite stack_planes by (auto; rewrite length_fromfile; exact L). cbn [bind]. split; [|split].
    + intros ->. reflexivity.
    + intros ->. reflexivity.
    + intros Hf Ho. unfold crop. destruct (Z.eqb_spec f 1); [lia|]. destruct (Z.eqb_spec f 0); [lia|].
      set (a := Arr [s2; s0; s1] (fromfile (itemsize d) bytes)). assert (W : wf a) by (unfold wf; cbn; rewrite length_fromfile; lia).
      destruct (slice_ok a (map (crop_range f) (firstn 3 (shp a))) W) as (c & Hc & Sc & Wc & _); [cbn; lia|].
      rewrite Hc. cbn [bind]. destruct output; [contradiction|]. cbn [ensure_dir bind]. eexists.
      assert (dat c = []) as ->; [|reflexivity]. apply length_zero_iff_nil. unfold wf in Wc. rewrite Wc, Sc. cbn [a shp firstn map slice_shape size].
      replace (clip s2 (snd (crop_range f s2)) - clip s2 (fst (crop_range f s2))) with 0; [reflexivity|]. symmetry. apply Nat.sub_0_le.
      unfold crop_range. cbn [fst snd]. clear - Hf. set (c := (Z.of_nat s2 / 2)%Z). set (g := (Z.of_nat s2 / f)%Z). set (h := (g / 2)%Z).
      assert (B1 : (c * 2 <= Z.of_nat s2 < c * 2 + 2)%Z) by (unfold c; pose proof (Z.div_mod (Z.of_nat s2) 2 ltac:(lia)); pose proof (Z.mod_pos_bound (Z.of_nat s2) 2 ltac:(lia)); lia).
      assert (B2 : (h * 2 <= g < h * 2 + 2)%Z) by (unfold h; pose proof (Z.div_mod g 2 ltac:(lia)); pose proof (Z.mod_pos_bound g 2 ltac:(lia)); lia).
      assert (B3 : (- Z.of_nat s2 <= g <= 0)%Z).
      { unfold g. pose proof (Z.div_mod (Z.of_nat s2) f ltac:(lia)) as D. pose proof (Z.mod_neg_bound (Z.of_nat s2) f Hf) as M. split; nia. }
      unfold clip. destruct (Z.ltb_spec (c + h) 0), (Z.ltb_spec (c - h) 0); lia.
Qed.
End C73.
Print Assumptions C73_crop.
Print Assumptions C73_square.
Print Assumptions C73_not_a_box.
Print Assumptions C73_unnamed.
Print Assumptions C73_factors.

Example C73_ex :
  crop_main (fun _ => Ok (map Z.of_nat (seq 0 64))) (map lit ["c"; "d/scan_4x4x4_8bit.raw"; "o"; "4"; "4"; "4"; "8bit"; "2"]%string)
  = Ok (lit "o/crop_scan_2x2x2_8bit.raw", [21; 22; 25; 26; 37; 38; 41; 42]%Z).
Proof. reflexivity. Qed.

(** ** C74 *)

Lemma load_items_in {A} (items : list A) nx ny nz a :
  load_items items [Z.of_nat nx; Z.of_nat ny; Z.of_nat nz] = Ok a ->
  length items = nx * ny * nz /\ shp a = [nx; ny; nz] /\ wf a /\ (forall b, In b (dat a) -> In b items).
Proof.
  intros H. assert (L : length items = nx * ny * nz) by (apply load_items_iff; eauto). split; [exact L|].
  destruct (load_items_3d items nx ny nz L) as (a' & E & S & W & G). rewrite H in E. injection E as <-. split; [exact S|]. split; [exact W|].
  intros b Hb. apply In_nth_error in Hb as [k Hk]. assert (K : k < size (shp a)). { unfold wf in W. rewrite <- W. apply nth_error_Some. congruence. }
  destruct (ravel_surj _ _ K) as (idx & Hi & <-). assert (Gb : get a idx = Some b) by (unfold get; rewrite Hi; exact Hk).
  rewrite S in Hi. destruct idx as [|x [|y [|z [|? ?]]]]; try discriminate; cbn [inb] in Hi; try (rewrite !andb_false_r in Hi; discriminate).
  rewrite andb_true_r in Hi. apply andb_prop in Hi as [H1 Hi]. apply andb_prop in Hi as [H2 H3]. apply Nat.ltb_lt in H1, H2, H3.
  rewrite G in Gb by assumption. apply nth_error_In in Gb. exact Gb.
Qed.

Lemma bitdepth_form t d : parse_bitdepth t = Ok d ->
  exists ds k, t = ds ++ kind_text k ++ lit "bit" /\ digits ds /\ last2 ds = ds /\ ~ In "/"%char t.
Proof.
  intros H. apply parse_bitdepth_spec in H as (n & Hin & ->). cbn in Hin.
  repeat (destruct Hin as [Hin|Hin]; [injection Hin as <- <-;
    first [exists (lit "8"), KU; repeat split; [discriminate|cbn; intuition discriminate] | exists (lit "8"), KNone; repeat split; [discriminate|cbn; intuition discriminate]
          |exists (lit "16"), KU; repeat split; [discriminate|cbn; intuition discriminate]|exists (lit "16"), KNone; repeat split; [discriminate|cbn; intuition discriminate]
          |exists (lit "32"), KU; repeat split; [discriminate|cbn; intuition discriminate]|exists (lit "32"), KNone; repeat split; [discriminate|cbn; intuition discriminate]
          |exists (lit "16"), KF; repeat split; [discriminate|cbn; intuition discriminate]|exists (lit "32"), KF; repeat split; [discriminate|cbn; intuition discriminate]
          |exists (lit "64"), KF; repeat split; [discriminate|cbn; intuition discriminate]]|]). destruct Hin.
Qed.

(** What the loader does with the name made by the script *)
Lemma load_volume_name s0 s1 s2 r bitdepth d out : parse_bitdepth bitdepth = Ok d ->
  load_raw (volume_name (s0 :: s1 :: s2 :: r) bitdepth (lit "raw")) out =
  match load_binary out d [Z.of_nat s2; Z.of_nat s1; Z.of_nat s0] with Ok b => Ok (d, b) | Err e => Err e end.
Proof.
  intros Hd. destruct (bitdepth_form _ _ Hd) as (ds & k & E & Hds & L2 & NSb).
  assert (EN : volume_name (s0 :: s1 :: s2 :: r) bitdepth (lit "raw") = raw_head (lit "volume_") s2 s1 s0 (lit "_") (ds ++ kind_text k ++ lit "bit") [] ++ lit ".raw").
  { unfold volume_name, dims_name, raw_head. cbn [nth]. rewrite !str_nat_dec, app_nil_r, E. rewrite <- !app_assoc. cbn [app]. rewrite <- !app_assoc. cbn [app]. rewrite <- !app_assoc. reflexivity. }
  assert (DF : forall t, Forall (fun c => is_digit c = false) t -> digit_free t) by (intros t F c Hc; apply (proj1 (Forall_forall _ _) F), Hc).
  assert (DV : digit_free (lit "volume_")) by (apply DF; repeat constructor). assert (DU : digit_free (lit "_")) by (apply DF; repeat constructor).
  rewrite EN. unfold load_raw. rewrite raw_head_splitext.
  - cbn [fst]. rewrite raw_head_dims by (auto; discriminate). cbn [bind]. rewrite raw_head_dtype; auto.
    2:{ exists "_"%char, []. split; reflexivity. }
    rewrite L2. cbn [opt_s]. rewrite !app_nil_r, <- E, Hd. cbn [bind]. destruct (load_binary _ _ _); reflexivity.
  - rewrite <- E. unfold raw_head. assert (D : forall n, ~ In "/"%char (dec_text n)).
    { intros n Hn. pose proof (dec_text_digits n) as [_ F]. rewrite forallb_forall in F. apply F in Hn. discriminate. }
    intros I. repeat (rewrite in_app_iff in I || cbn [In] in I).
    destruct I as [I|[I|[I|[I|[I|[I|[I|[I|I]]]]]]]]; try (eapply D; eassumption); try discriminate; try contradiction.
    + cbn in I. repeat destruct I as [I|I]; try discriminate. contradiction.
    + cbn in I. repeat destruct I as [I|I]; try discriminate. contradiction.
Qed.

Section C74.
Variable read : text -> res (list Z).
Variable glob : text -> list text.

Definition asked_stack (argv : list text) (input output : text) (sx sy sz : Z) (bitdepth fin fout : text) : Prop :=
  exists s x y z, argv = [s; input; output; x; y; z; bitdepth; fin; fout] /\ py_int x = Ok sx /\ py_int y = Ok sy /\ py_int z = Ok sz.
(** The slices found, each as the package loads it *)
Definition slices (input fin : text) (d : dtype) (dims : list Z) (vols : list (arr (list Z))) : Prop :=
  Forall2 (fun f v => exists bytes, read f = Ok bytes /\ load_binary bytes d dims = Ok v) (glob (join input (lit "*." ++ fin))) vols.

Lemma combined argv input output sx sy sz bitdepth fin fout d vols :
  asked_stack argv input output (Z.of_nat sx) (Z.of_nat sy) (Z.of_nat sz) bitdepth fin fout ->
  parse_bitdepth bitdepth = Ok d -> slices input fin d [Z.of_nat sx; Z.of_nat sy; Z.of_nat sz] vols -> vols <> [] -> output <> [] ->
  combine_main read glob argv = Ok (join output (volume_name [length vols; sx; sy; sz] bitdepth fout), concat (flat_map (@dat _) vols)) /\
  fromfile (itemsize d) (concat (flat_map (@dat _) vols)) = flat_map (@dat _) vols /\
  (forall v, In v vols -> shp v = [sx; sy; sz] /\ length (dat v) = sx * sy * sz).
Proof.
  intros (s & x & y & z & -> & Hx & Hy & Hz) Hd Hs Hv Ho.
  assert (P : forall v, In v vols -> shp v = [sx; sy; sz] /\ length (dat v) = sx * sy * sz /\ Forall (fun b => length b = itemsize d) (dat v)).
  { intros v Hin. clear Hv. unfold slices in Hs. revert v Hin. induction Hs as [|f v fs vs (bytes & _ & Hl) F IH]; [intros v []|]. intros u [<-|Hin]; [|apply IH, Hin].
    apply load_items_in in Hl as (L & S & W & I). split; [exact S|]. split.
    - unfold wf in W. rewrite W, S. cbn [size]. ring.
    - apply Forall_forall. intros b Hb. apply I in Hb. apply (proj1 (Forall_forall _ _) (fromfile_width (itemsize d) bytes (parsed_width _ _ Hd))). exact Hb. }
  split; [|split].
  - unfold combine_main. rewrite Hx, Hy, Hz. cbn [bind]. unfold combine_image_stack. rewrite Hd. cbn [bind].
    assert (M : mapM (fun f => let* bytes := read f in load_binary bytes d [Z.of_nat sx; Z.of_nat sy; Z.of_nat sz]) (glob (join input (lit "*." ++ fin))) = Ok vols).
    { clear P Hv. unfold slices in Hs. induction Hs as [|f v fs vs (bytes & Hb & Hl) F IH]; [reflexivity|]. cbn [mapM]. rewrite Hb. cbn [bind]. rewrite Hl. cbn [bind]. rewrite IH. reflexivity. }
    rewrite M. cbn [bind]. pose proof (stack_map (fun v => v) [sx; sy; sz] vols Hv (fun v Hin => proj1 (P v Hin))) as ES. rewrite map_id in ES. rewrite ES.
    unfold slices in Hs. destruct (glob (join input (lit "*." ++ fin))) eqn:EG; [inversion Hs; subst; contradiction|].
    cbn [bind]. destruct output; [contradiction|]. cbn [ensure_dir bind shp dat]. reflexivity.
  - apply fromfile_concat; [eapply parsed_width; eauto|]. apply Forall_forall. intros b Hb. apply in_flat_map in Hb as (v & Hin & Hb).
    destruct (P v Hin) as (_ & _ & F). apply (proj1 (Forall_forall _ _) F), Hb.
  - intros v Hin. destruct (P v Hin) as (A & B & _). auto.
Qed.

(** Single planes: the file can be loaded and holds every slice transposed, in the order of glob. *)
Theorem C74_loaded : forall argv input output sx sy bitdepth fin d vols,
  asked_stack argv input output (Z.of_nat sx) (Z.of_nat sy) 1 bitdepth fin (lit "raw") ->
  parse_bitdepth bitdepth = Ok d -> slices input fin d [Z.of_nat sx; Z.of_nat sy; 1%Z] vols -> vols <> [] -> output <> [] ->
  exists name out b, combine_main read glob argv = Ok (join output name, out) /\ load_raw name out = Ok (d, b) /\
    shp b = [sy; sx; length vols] /\
    forall x y k v, x < sx -> y < sy -> nth_error vols k = Some v -> get b [y; x; k] = get v [x; y; 0].
Proof.
  intros argv input output sx sy bitdepth fin d vols HA Hd Hs Hv Ho. change 1%Z with (Z.of_nat 1) in HA, Hs.
  destruct (combined argv input output sx sy 1 bitdepth fin (lit "raw") d vols HA Hd Hs Hv Ho) as (E & F & P).
  destruct (load_items_3d (flat_map (@dat _) vols) sy sx (length vols)) as (b & Eb & Sb & _ & Gb).
  { clear - P. induction vols as [|v vols IH]; [cbn; lia|]. cbn [flat_map length]. rewrite app_length, IH by (intros; apply P; right; assumption).
    rewrite (proj2 (P v (or_introl eq_refl))). ring. }
  exists (volume_name [length vols; sx; sy; 1] bitdepth (lit "raw")), (concat (flat_map (@dat _) vols)), b.
  split; [exact E|]. split; [rewrite (load_volume_name _ _ _ _ _ d) by exact Hd; unfold load_binary; rewrite F, Eb; reflexivity|].
  split; [exact Sb|]. intros x y k v Hx Hy Hk. assert (K : k < length vols) by (apply nth_error_Some; congruence).
  rewrite Gb by assumption. replace (y + sy * (x + sx * k)) with (k * (sx * sy * 1) + (x * sy + y)) by ring.
  rewrite (nth_flat_map_in (@dat _) (sx * sy * 1) vols k (x * sy + y) v (fun u Hu => proj2 (P u Hu)) Hk) by nia.
  destruct (P v (nth_error_In _ _ Hk)) as [Sv _]. unfold get. rewrite Sv. cbn [inb ravel size]. rewrite !(proj2 (Nat.ltb_lt _ _)) by lia. cbn [andb Nat.ltb Nat.leb]. f_equal. lia.
Qed.

(** Thicker slices: a file is written that the package cannot load. *)
Theorem C74_thick : forall argv input output sx sy sz bitdepth fin d vols,
  asked_stack argv input output (Z.of_nat sx) (Z.of_nat sy) (Z.of_nat sz) bitdepth fin (lit "raw") ->
  parse_bitdepth bitdepth = Ok d -> slices input fin d [Z.of_nat sx; Z.of_nat sy; Z.of_nat sz] vols -> vols <> [] -> output <> [] ->
  0 < sx -> 0 < sy -> sz <> 1 ->
  exists name out, combine_main read glob argv = Ok (join output name, out) /\ load_raw name out = Err ValueError.
Proof.
  intros argv input output sx sy sz bitdepth fin d vols HA Hd Hs Hv Ho Hsx Hsy Hsz.
  destruct (combined argv input output sx sy sz bitdepth fin (lit "raw") d vols HA Hd Hs Hv Ho) as (E & F & P).
  exists (volume_name [length vols; sx; sy; sz] bitdepth (lit "raw")), (concat (flat_map (@dat _) vols)). split; [exact E|].
  rewrite (load_volume_name _ _ _ _ _ d) by exact Hd. unfold load_binary. rewrite load_items_mismatch; [reflexivity|]. rewrite F, prodZ_nat3.
  assert (L : length (flat_map (@dat _) vols) = length vols * (sx * sy * sz)).
  { clear - P. induction vols as [|v vols IH]; [reflexivity|]. cbn [flat_map length Nat.mul]. rewrite app_length, IH by (intros; apply P; right; assumption).
    rewrite (proj2 (P v (or_introl eq_refl))). reflexivity. }
  rewrite L. intros C. apply Nat2Z.inj in C. destruct vols; [contradiction|]. cbn [length] in C. assert (0 < sx * sy) by nia. nia.
Qed.

(** No files: an unrelated error. A file of the wrong size stops the script. *)
Theorem C74_none : forall argv input output sx sy sz bitdepth fin fout d,
  asked_stack argv input output sx sy sz bitdepth fin fout -> parse_bitdepth bitdepth = Ok d -> output <> [] ->
  glob (join input (lit "*." ++ fin)) = [] -> combine_main read glob argv = Err AttributeError.
Proof.
  intros argv input output sx sy sz bitdepth fin fout d (s & x & y & z & -> & Hx & Hy & Hz) Hd Ho G.
  unfold combine_main. rewrite Hx, Hy, Hz. cbn [bind]. unfold combine_image_stack. rewrite Hd, G. cbn [bind]. destruct output; [contradiction|]. reflexivity.
Qed.
Theorem C74_wrong_size : forall argv input output sx sy sz bitdepth fin fout d pre f post bytes,
  asked_stack argv input output sx sy sz bitdepth fin fout -> parse_bitdepth bitdepth = Ok d ->
  glob (join input (lit "*." ++ fin)) = pre ++ f :: post ->
  (forall g, In g pre -> exists b v, read g = Ok b /\ load_binary b d [sx; sy; sz] = Ok v) ->
  read f = Ok bytes -> Z.of_nat (length bytes / itemsize d) <> (sx * sy * sz)%Z ->
  combine_main read glob argv = Err ValueError.
Proof.
  intros argv input output sx sy sz bitdepth fin fout d pre f post bytes (s & x & y & z & -> & Hx & Hy & Hz) Hd G Hpre Hr Hne.
  unfold combine_main. rewrite Hx, Hy, Hz. cbn [bind]. unfold combine_image_stack. rewrite Hd. cbn [bind]. rewrite G.
  match goal with |- context [mapM ?h ?l] => assert (M : mapM h l = Err ValueError) end; [|rewrite M; destruct pre; reflexivity].
  clear G. induction pre as [|g pre IH].
  - cbn [app mapM]. rewrite Hr. cbn [bind]. unfold load_binary at 1. rewrite load_items_mismatch; [reflexivity|].
    rewrite length_fromfile by (eapply parsed_width; eauto). unfold prodZ. cbn [fold_right]. lia.
  - destruct (Hpre g (or_introl eq_refl)) as (b & v & Hb & Hv). cbn [app mapM]. rewrite Hb. cbn [bind]. rewrite Hv. cbn [bind].
    rewrite IH by (intros; apply Hpre; right; assumption). reflexivity.
Qed.
End C74.
Print Assumptions C74_loaded.
Print Assumptions C74_thick.
Print Assumptions C74_none.
Print Assumptions C74_wrong_size.

(** Two slices of 2 x 3 pixels *)
Example C74_ex :
  combine_main (fun f => if text_eqb f (lit "i/b.raw") then Ok [1; 2; 3; 4; 5; 6]%Z else Ok [7; 8; 9; 10; 11; 12]%Z) (fun _ => [lit "i/b.raw"; lit "i/a.raw"])
    (map lit ["s"; "i"; "o"; "2"; "3"; "1"; "8ubit"; "raw"; "raw"]%string)
  = Ok (lit "o/volume_3x2x2_8ubit.raw", [1; 3; 5; 2; 4; 6; 7; 9; 11; 8; 10; 12]%Z).
Proof. reflexivity. Qed.

(** ** C75 and C99: pairs of images *)

(** p is the part of s before its first dot *)
Definition stem (s p : text) : Prop := ~ In "."%char p /\ (s = p \/ exists r, s = p ++ "."%char :: r).
(** The pairs the script is expected to list, in its order *)
Definition listed (keep : text * text -> bool) : Prop := forall r m, keep (r, m) = true <-> stem r (firstn 3 m).
(** A folder with the given names *)
Definition holds (glob : text -> list text) (dir : text) (names : list text) : Prop :=
  glob (join dir (lit "*")) = map (join dir) names /\ forall n, In n names -> ~ In "/"%char n /\ n <> [].

Lemma basename_join d n : ~ In "/"%char n -> basename (join d n) = n.
Proof.
  intros H. assert (J : join d n = n \/ exists h, join d n = h ++ "/"%char :: n).
  { unfold join. destruct d as [|c d]; [left; destruct n as [|[[][][][][][][][]] n]; reflexivity|].
    assert (E : (if Ascii.eqb (last (c :: d) "/"%char) "/"%char then (c :: d) ++ n else (c :: d) ++ "/"%char :: n) = n \/
       exists h, (if Ascii.eqb (last (c :: d) "/"%char) "/"%char then (c :: d) ++ n else (c :: d) ++ "/"%char :: n) = h ++ "/"%char :: n).
    { right. destruct (Ascii.eqb_spec (last (c :: d) "/"%char) "/"%char) as [E|E]; [|exists (c :: d); reflexivity].
      exists (removelast (c :: d)). rewrite (app_removelast_last "/"%char (l := c :: d)) at 1 by discriminate. rewrite E, <- app_assoc. reflexivity. }
    destruct n as [|[[][][][][][][][]] n]; try exact E. exfalso. apply H. left. reflexivity. }
  unfold basename. destruct J as [->|[h ->]].
  - rewrite split_last_none by exact H. reflexivity.
  - rewrite split_last_app by exact H. reflexivity.
Qed.

Lemma stem_hd s p : hd [] (split_chr "." s) = p <-> stem s p.
Proof.
  revert p. induction s as [|c s IH]; intros p; cbn [split_chr].
  - split; [intros <-; split; [intros []|left; reflexivity]|]. intros [_ [<-|[r E]]]; [reflexivity|]. destruct p; discriminate.
  - destruct (Ascii.eqb_spec c ".") as [->|N].
    + cbn [hd]. split; [intros <-; split; [intros []|right; eexists; reflexivity]|]. intros [NI [<-|[r E]]]; [exfalso; apply NI; left; reflexivity|].
      destruct p as [|x p]; [reflexivity|]. injection E as <- _. exfalso. apply NI. left. reflexivity.
    + match goal with |- ?L = p <-> _ => replace L with (c :: hd [] (split_chr "." s)) by (destruct (split_chr "." s); reflexivity) end. split.
      * intros <-. destruct (proj1 (IH _) eq_refl) as [NI D]. split; [intros [X|X]; [congruence|exact (NI X)]|].
        destruct D as [D|[r D]]; [left; rewrite <- D; reflexivity|right; exists r; cbn [app]; rewrite <- D; reflexivity].
      * intros [NI D]. destruct p as [|x p]; [destruct D as [D|[r D]]; [discriminate|injection D as -> _; contradiction]|].
        assert (x = c /\ stem s p) as [-> Hs].
        { destruct D as [D|[r D]]; injection D as <- D; (split; [reflexivity|]); (split; [intros X; apply NI; right; exact X|]); [left; exact D|right; exists r; exact D]. }
        f_equal. apply IH, Hs.
Qed.

Lemma keep_eq keep (r m : text) : listed keep -> text_eqb (hd [] (split_chr "." r)) (firstn 3 m) = keep (r, m).
Proof.
  intros H. destruct (keep (r, m)) eqn:K; [apply text_eqb_eq, stem_hd, H, K|]. apply text_eqb_neq. intros E. apply stem_hd, H in E. congruence.
Qed.

Section C75.
Context {C : Type}.
Variable content : text -> option C.
Variable keep : text * text -> bool.
Hypothesis Hkeep : listed keep.

Definition names_of (p : text * text) : text * text := (basename (fst p), basename (snd p)).

Lemma loop_rows l images : pairs_loop content false l images = (filter keep (map names_of l), images, Ok tt).
Proof.
  revert images. induction l as [|[r m] l IH]; intros images; [reflexivity|]. cbn [pairs_loop map filter names_of fst snd].
  rewrite (keep_eq keep) by exact Hkeep. destruct (keep _); cbn [bind]; rewrite IH; reflexivity.
Qed.

Definition requests (l : list (text * text)) : list (text * text) :=
  flat_map (fun p => if keep (names_of p) then [(basename (fst p), fst p); (basename (snd p), snd p)] else []) l.

Lemma copy_spec d o n i : copy_file content (Some d) o n = Ok i ->
  exists d', i = Some d' /\ lookup d' n <> None /\
  forall k, lookup d' k = match lookup d k with Some c => Some c | None => if text_eqb n k then content o else None end.
Proof.
  assert (R : text_eqb n n = true) by (apply text_eqb_eq; reflexivity).
  unfold copy_file. destruct (lookup d n) eqn:L.
  - intros E. injection E as <-. exists d. split; [reflexivity|]. split; [congruence|]. intros k. destruct (lookup d k) eqn:Lk; [reflexivity|].
    destruct (text_eqb n k) eqn:N; [|reflexivity]. apply text_eqb_eq in N as ->. congruence.
  - destruct (content o) as [c|] eqn:Co; [|discriminate]. intros E. injection E as <-.
    assert (G : forall k, lookup (d ++ [(n, c)]) k = match lookup d k with Some c => Some c | None => if text_eqb n k then Some c else None end).
    { intros k. clear L. induction d as [|[k' c'] d IH]; [reflexivity|]. cbn [app lookup]. destruct (text_eqb k' k); [reflexivity|exact IH]. }
    eexists. split; [reflexivity|]. split; [|exact G]. rewrite G, L, R. discriminate.
Qed.

Lemma loop_copied l : forall d rows i, pairs_loop content true l (Some d) = (rows, i, Ok tt) ->
  rows = filter keep (map names_of l) /\ exists d', i = Some d' /\
  forall k, lookup d' k = match lookup d k with
                          | Some c => Some c
                          | None => match find (fun q => text_eqb (fst q) k) (requests l) with Some q => content (snd q) | None => None end
                          end.
Proof.
  induction l as [|[r m] l IH]; intros d rows i.
  - cbn. intros E. injection E as <- <-. split; [reflexivity|]. exists d. split; [reflexivity|]. intros k. destruct (lookup d k); reflexivity.
  - cbn [pairs_loop map filter requests flat_map]. fold (requests l). unfold names_of at 1 2 4. cbn [fst snd]. rewrite (keep_eq keep) by exact Hkeep. destruct (keep _).
    + destruct (copy_file content (Some d) r (basename r)) as [i1|] eqn:E1; cbn [bind]; [|discriminate].
      apply copy_spec in E1 as (d1 & -> & N1 & L1). destruct (copy_file content (Some d1) m (basename m)) as [i2|] eqn:E2; [|discriminate].
      apply copy_spec in E2 as (d2 & -> & N2 & L2). destruct (pairs_loop content true l (Some d2)) as [[rs j] x] eqn:E3. intros E. injection E as <- <- ->.
      destruct (IH _ _ _ E3) as (-> & d' & -> & L3). split; [reflexivity|]. exists d'. split; [reflexivity|]. intros k. rewrite L3, L2, L1.
      cbn [app find fst]. destruct (lookup d k) eqn:Ld; [reflexivity|]. destruct (text_eqb (basename r) k) eqn:NR; cbn [snd].
      * destruct (content r) eqn:Cr; [reflexivity|]. exfalso. apply N1. apply text_eqb_eq in NR as <-. rewrite L1, Ld. destruct (text_eqb _ _); reflexivity.
      * destruct (text_eqb (basename m) k) eqn:NM; cbn [snd]; [|reflexivity].
        destruct (content m) eqn:Cm; [reflexivity|]. exfalso. apply N2. apply text_eqb_eq in NM as <-. rewrite L2, L1, Ld, NR. destruct (text_eqb (basename m) (basename m)); reflexivity.
    + intros E. exact (IH _ _ _ E).
Qed.

Lemma pairs_names glob a dirm mods dirr refs : holds glob dirm mods -> holds glob dirr refs -> a = list_prod refs mods ->
  map names_of (flat_map (fun r => map (fun m => (r, m)) (glob (join dirm (lit "*")))) (glob (join dirr (lit "*")))) = a.
Proof.
  intros [-> Hm] [-> Hr] ->. induction refs as [|r refs IH]; [reflexivity|]. cbn [map flat_map list_prod]. rewrite map_app, IH by (intros; apply Hr; right; assumption).
  f_equal. rewrite !map_map. apply map_ext_in. intros m Im. unfold names_of. cbn [fst snd]. rewrite !basename_join; [reflexivity|apply Hm, Im|apply Hr; left; reflexivity].
Qed.

(** Without the word "copy": exactly the matching pairs, in the order of the two folders. *)
Theorem C75_rows : forall glob s dirm mods dirr refs path a existed old,
  holds glob dirm mods -> holds glob dirr refs -> path <> [] -> a <> lit "copy" ->
  csv_main content glob existed old [s; dirm; dirr; path; a] =
  (Some ((lit "reference_image", lit "modified_image") :: filter keep (list_prod refs mods)), if existed then old else None, Ok tt).
Proof.
  intros glob s dirm mods dirr refs path a existed old Hm Hr Hp Ha. cbn [csv_main]. unfold write_to_csv. destruct path; [contradiction|].
  rewrite (proj2 (text_eqb_neq _ _)) by exact Ha. rewrite loop_rows, (pairs_names glob _ dirm mods dirr refs Hm Hr eq_refl). reflexivity.
Qed.

(** The same with copying, if nothing fails. *)
Theorem C75_copied_rows : forall glob s dirm mods dirr refs path existed d rows i,
  holds glob dirm mods -> holds glob dirr refs ->
  csv_main content glob existed (Some d) [s; dirm; dirr; path; lit "copy"] = (rows, i, Ok tt) ->
  rows = Some ((lit "reference_image", lit "modified_image") :: filter keep (list_prod refs mods)).
Proof.
  intros glob s dirm mods dirr refs path existed d rows i Hm Hr. cbn [csv_main]. unfold write_to_csv. destruct path; [discriminate|].
  change (text_eqb (lit "copy") (lit "copy")) with true. cbv iota. intros E.
  destruct existed; cbv iota in E;
    (match type of E with context [pairs_loop content true ?l (Some ?d0)] => destruct (pairs_loop content true l (Some d0)) as [[rs j] x] eqn:EL end;
     injection E as <- <- ->; apply loop_copied in EL as [-> _]; rewrite (pairs_names glob _ dirm mods dirr refs Hm Hr eq_refl); reflexivity).
Qed.

(** Only references with three characters before the first dot, or modified names of less than three *)
Theorem C75_three : forall refs mods r m, In (r, m) (filter keep (list_prod refs mods)) ->
  (exists p, stem r p /\ length p = 3) \/ (length m < 3 /\ stem r m).
Proof.
  intros refs mods r m H. apply filter_In in H as [_ H]. apply Hkeep in H. destruct (le_lt_dec 3 (length m)) as [L|L].
  - left. exists (firstn 3 m). split; [exact H|]. rewrite firstn_length. lia.
  - right. split; [exact L|]. rewrite firstn_all2 in H by lia. exact H.
Qed.

(** *** C99: copying *)

(** The files asked to be copied, in order *)
Definition wanted (dirr dirm : text) (pairs : list (text * text)) : list (text * text) :=
  flat_map (fun p => [(fst p, join dirr (fst p)); (snd p, join dirm (snd p))]) pairs.
(** The content of the first file asked for under a name *)
Definition first_named (q : list (text * text)) (n : text) (o : option C) : Prop :=
  (exists a x b, q = a ++ (n, x) :: b /\ (forall y, ~ In (n, y) a) /\ content x = o) \/ ((forall y, ~ In (n, y) q) /\ o = None).

Lemma find_first q n : first_named q n (match find (fun p => text_eqb (fst p) n) q with Some p => content (snd p) | None => None end).
Proof.
  induction q as [|[k x] q IH]; [right; split; [intros y []|reflexivity]|]. cbn [find fst]. destruct (text_eqb k n) eqn:E.
  - apply text_eqb_eq in E as ->. left. exists [], x, q. split; [reflexivity|]. split; [intros y []|reflexivity].
  - apply text_eqb_neq in E. destruct IH as [(a & y & b & -> & Ha & Hc)|[Hn Ho]].
    + left. exists ((k, x) :: a), y, b. split; [reflexivity|]. split; [|exact Hc]. intros z [H|H]; [congruence|]. exact (Ha z H).
    + right. split; [|exact Ho]. intros y [H|H]; [congruence|]. exact (Hn y H).
Qed.

Lemma wanted_eq glob dirm mods dirr refs : holds glob dirm mods -> holds glob dirr refs ->
  requests (flat_map (fun r => map (fun m => (r, m)) (glob (join dirm (lit "*")))) (glob (join dirr (lit "*")))) = wanted dirr dirm (filter keep (list_prod refs mods)).
Proof.
  intros [-> Hm] [-> Hr]. unfold requests, wanted. induction refs as [|r refs IH]; [reflexivity|].
  cbn [map flat_map list_prod]. rewrite flat_map_app, IH by (intros; apply Hr; right; assumption). rewrite filter_app, flat_map_app. f_equal.
  rewrite map_map. clear IH. induction mods as [|m mods IH]; [reflexivity|]. cbn [map flat_map filter]. rewrite IH by (intros; apply Hm; right; assumption).
  unfold names_of. cbn [fst snd]. rewrite !basename_join; [|apply Hm; left; reflexivity|apply Hr; left; reflexivity]. destruct (keep (r, m)); reflexivity.
Qed.

(** Afterwards the folder holds its old files unchanged, and under each other name the first file asked for. *)
Theorem C99_folder : forall glob s dirm mods dirr refs path (existed : bool) old d0 rows i,
  holds glob dirm mods -> holds glob dirr refs -> (if existed then old else Some []) = Some d0 ->
  csv_main content glob existed old [s; dirm; dirr; path; lit "copy"] = (rows, i, Ok tt) ->
  exists d, i = Some d /\ (forall n c, lookup d0 n = Some c -> lookup d n = Some c) /\
    forall n, lookup d0 n = None -> first_named (wanted dirr dirm (filter keep (list_prod refs mods))) n (lookup d n).
Proof.
  intros glob s dirm mods dirr refs path existed old d0 rows i Hm Hr E0. cbn [csv_main]. unfold write_to_csv. destruct path; [discriminate|].
  change (text_eqb (lit "copy") (lit "copy")) with true. cbv iota. intros E.
  destruct existed; cbv iota in E, E0; (injection E0 as <- || subst old);
    (match type of E with context [pairs_loop content true ?l (Some ?d0)] => destruct (pairs_loop content true l (Some d0)) as [[rs j] x] eqn:EL end;
     injection E as <- <- ->; apply loop_copied in EL as [_ (d & -> & L)]; exists d; split; [reflexivity|]; split;
     [intros n c H; rewrite L, H; reflexivity|intros n H; rewrite L, H, (wanted_eq glob dirm mods dirr refs Hm Hr); apply find_first]).
Qed.

Lemma stem_fun s p q : stem s p -> stem s q -> p = q.
Proof. intros A B. apply stem_hd in A, B. congruence. Qed.

(** A reference and a modified image of the same name, listed as a pair: only the reference is stored
    (if no other reference has the same stem), so the modified image is not in the folder. *)
Theorem C99_same_name : forall glob s dirm mods dirr refs path (existed : bool) old d0 rows i n,
  holds glob dirm mods -> holds glob dirr refs -> (if existed then old else Some []) = Some d0 ->
  csv_main content glob existed old [s; dirm; dirr; path; lit "copy"] = (rows, i, Ok tt) ->
  In (n, n) (filter keep (list_prod refs mods)) -> lookup d0 n = None ->
  (forall r, In r refs -> stem r (firstn 3 n) -> r = n) ->
  exists d, i = Some d /\ lookup d n = content (join dirr n).
Proof.
  intros glob s dirm mods dirr refs path existed old d0 rows i n Hm Hr E0 E Hin L0 U.
  destruct (C99_folder _ _ _ _ _ _ _ _ _ _ _ _ Hm Hr E0 E) as (d & -> & _ & F). exists d. split; [reflexivity|]. specialize (F n L0).
  assert (P : forall p, In p (filter keep (list_prod refs mods)) -> fst p = n \/ snd p = n -> fst p = n).
  { intros [r m] Hp [A|A]; [exact A|]. cbn [fst snd] in *. subst m. apply filter_In in Hp as [Hp K]. apply in_prod_iff in Hp as [Hp _]. apply U; [exact Hp|]. apply Hkeep, K. }
  destruct F as [(a & x & b & Ew & Ha & <-)|[N _]].
  - f_equal. clear - Ew Ha P. revert a Ew Ha. induction (filter keep (list_prod refs mods)) as [|[r m] l IH]; intros a Ew Ha; [destruct a; discriminate|].
    cbn [wanted flat_map fst snd app] in Ew. fold (wanted dirr dirm l) in Ew. destruct a as [|q a]; [injection Ew as -> <- _; reflexivity|].
    injection Ew as <- Ew. destruct a as [|q a].
    + injection Ew as -> <- _. exfalso. pose proof (P (r, n) (or_introl eq_refl) (or_intror eq_refl)) as Er. cbn [fst] in Er. subst r. eapply Ha. left. reflexivity.
    + injection Ew as <- Ew. eapply IH; [|exact Ew|].
      * intros p Hp. apply P. right. exact Hp.
      * intros y Hy. apply (Ha y). right. right. exact Hy.
  - exfalso. apply (N (join dirr n)). unfold wanted. apply in_flat_map. exists (n, n). split; [exact Hin|left; reflexivity].
Qed.

Lemma loop_no_folder l : (forall q, In q l -> content (fst q) <> None) ->
  pairs_loop content true l None = match filter keep (map names_of l) with [] => ([], None, Ok tt) | p :: _ => ([p], None, Err FileNotFoundError) end.
Proof.
  intros H. induction l as [|[r m] l IH]; [reflexivity|]. cbn [pairs_loop map filter]. unfold names_of at 1 2. cbn [fst snd]. rewrite (keep_eq keep) by exact Hkeep.
  destruct (keep _).
  - unfold copy_file. pose proof (H _ (or_introl eq_refl)) as Hc. cbn [fst] in Hc. destruct (content r); [reflexivity|contradiction].
  - apply IH. intros q Hq. apply H. right. exact Hq.
Qed.

(** The target exists without a folder "images": the first pair is listed, then the script fails. *)
Theorem C99_no_folder : forall glob s dirm mods dirr refs path p l,
  holds glob dirm mods -> holds glob dirr refs -> path <> [] -> filter keep (list_prod refs mods) = p :: l ->
  (forall n, In n refs -> content (join dirr n) <> None) ->
  csv_main content glob true None [s; dirm; dirr; path; lit "copy"] = (Some [(lit "reference_image", lit "modified_image"); p], None, Err FileNotFoundError).
Proof.
  intros glob s dirm mods dirr refs path p l Hm Hr Hp E Hc. cbn [csv_main]. unfold write_to_csv. destruct path; [contradiction|].
  change (text_eqb (lit "copy") (lit "copy")) with true. cbv iota. rewrite loop_no_folder, (pairs_names glob _ dirm mods dirr refs Hm Hr eq_refl), E; [reflexivity|].
  intros [r m] Hq. apply in_flat_map in Hq as (r' & Hr' & Hq). apply in_map_iff in Hq as (m' & Hq & _). injection Hq as <- <-. cbn [fst].
  destruct Hr as [Er _]. rewrite Er in Hr'. apply in_map_iff in Hr' as (n & <- & Hn). apply Hc, Hn.
Qed.

(** The fourth argument is described as optional, but the script fails without it. *)
Theorem C99_argument : forall glob s dirm dirr path existed old,
  csv_main content glob existed old [s; dirm; dirr; path] = (None, old, Err IndexError).
Proof. reflexivity. Qed.
End C75.
Print Assumptions C75_rows.
Print Assumptions C75_copied_rows.
Print Assumptions C75_three.
Print Assumptions C99_folder.
Print Assumptions C99_same_name.
Print Assumptions C99_no_folder.
Print Assumptions C99_argument.

(** The pairs to be listed can be decided. *)
Example listed_ex : listed (fun p => text_eqb (hd [] (split_chr "." (fst p))) (firstn 3 (snd p))).
Proof. intros r m. cbn [fst snd]. rewrite text_eqb_eq. apply stem_hd. Qed.
Definition ex_glob (t : text) : list text :=
  if text_eqb t (lit "m/*") then map (join (lit "m")) [lit "001_noise.raw"; lit "002.raw"; lit "02"] else map (join (lit "r")) [lit "001.raw"; lit "002.raw"; lit "0003.raw"; lit "02.raw"].
Example holds_ex : holds ex_glob (lit "m") [lit "001_noise.raw"; lit "002.raw"; lit "02"].
Proof. split; [reflexivity|]. intros n [<-|[<-|[<-|[]]]]; (split; [cbn; intuition discriminate|discriminate]). Qed.
(** 002.raw is listed as a pair with itself, the modified image is not copied. *)
Example C75_ex :
  csv_main (fun t => Some t) ex_glob false None (map lit ["s"; "m"; "r"; "out"; "no"]%string) =
  (Some [(lit "reference_image", lit "modified_image"); (lit "001.raw", lit "001_noise.raw"); (lit "002.raw", lit "002.raw"); (lit "02.raw", lit "02")], None, Ok tt).
Proof. reflexivity. Qed.
Example C99_ex :
  snd (fst (csv_main (fun t => Some t) ex_glob false None (map lit ["s"; "m"; "r"; "out"; "copy"]%string))) =
  Some [(lit "001.raw", lit "r/001.raw"); (lit "001_noise.raw", lit "m/001_noise.raw"); (lit "002.raw", lit "r/002.raw"); (lit "02.raw", lit "r/02.raw"); (lit "02", lit "m/02")].
Proof. reflexivity. Qed.

(** ** C100: write_to_mat.py *)

Section C100.
Variable ident : identity.
Variable ub : R -> Z.
Variable load : text -> res image.

(** What a folder leads to *)
Definition stored (filename f : text) (e : text * norm_out) : Prop :=
  fst e = join f (lit "image.mat") /\ exists img, load (join f filename) = Ok img /\ normalize_data ident ub img 0 1 None = Ok (snd e).
Definition failing (filename f : text) (x : exn) : Prop :=
  load (join f filename) = Err x \/ exists img, load (join f filename) = Ok img /\ normalize_data ident ub img 0 1 None = Err x.

(** One file per folder in order; the first failing folder stops the script, with the files of the
    folders before it written. *)
Theorem C100_folders : forall glob s dir rest l x,
  mat_main ident ub load glob (s :: dir :: rest) = (l, x) ->
  let filename := match rest with [] => lit "volume.mhd" | f :: _ => f end in
  match x with
  | Ok _ => Forall2 (stored filename) (glob (join dir (lit "*"))) l
  | Err e => exists pre f post, glob (join dir (lit "*")) = pre ++ f :: post /\ Forall2 (stored filename) pre l /\ failing filename f e
  end.
Proof.
  intros glob s dir rest l x H. cbn [mat_main] in H. assert (E : hd (lit "volume.mhd") rest = match rest with [] => lit "volume.mhd" | f :: _ => f end) by (destruct rest; reflexivity).
  rewrite E in H. set (filename := match rest with [] => lit "volume.mhd" | f :: _ => f end) in *. cbv zeta. clearbody filename. clear E.
  revert l x H. induction (glob (join dir (lit "*"))) as [|f fs IH]; intros l x; cbn [write_to_mat].
  - intros H. injection H as <- <-. constructor.
  - destruct (load (join f filename)) as [img|e] eqn:EL; cbn [bind].
    + destruct (normalize_data ident ub img 0 1 None) as [n|e] eqn:EN; cbn [bind].
      * destruct (write_to_mat ident ub load fs filename) as [l' x'] eqn:EW. intros H. injection H as <- <-.
        assert (S : stored filename f (join f (lit "image.mat"), n)) by (split; [reflexivity|exists img; auto]).
        specialize (IH _ _ eq_refl). destruct x'; [constructor; assumption|]. destruct IH as (pre & g & post & -> & F & G). exists (f :: pre), g, post. split; [reflexivity|]. split; [constructor; assumption|exact G].
      * intros H. injection H as <- <-. exists [], f, fs. split; [reflexivity|]. split; [constructor|]. right. exists img. auto.
    + intros H. injection H as <- <-. exists [], f, fs. split; [reflexivity|]. split; [constructor|]. left. exact EL.
Qed.

(** The stored image is the loaded one stretched to 0..1, unless it is constant. *)
Theorem C100_unsigned : forall filename f e b a mn mx,
  stored filename f e -> load (join f filename) = Ok (Img (UInt b) (PI a)) -> std_width b ->
  (forall v, In v (dat a) -> (0 <= v < 2 ^ Z.of_nat b)%Z) -> is_min mn (dat a) -> is_max mx (dat a) -> (mn < mx)%Z -> cpython_identity ident ->
  snd e = NImg (Img (Float 32) (PF (amap (fun v => IZR (v - mn) / IZR (mx - mn))%R a))).
Proof.
  intros filename f e b a mn mx [_ (img & E & N)] E' Hb Hv Hmin Hmax Hlt Hi. rewrite E in E'. injection E' as ->.
  rewrite (C10_unit_range ident ub b a mn mx) in N by assumption. congruence.
Qed.
Theorem C100_real : forall filename f e b a mn mx,
  stored filename f e -> load (join f filename) = Ok (Img (Float b) (PF a)) -> is_rmin mn (dat a) -> is_rmax mx (dat a) -> (mn < mx)%R ->
  snd e = NImg (Img (Float 32) (PF (amap (fun v => (v - mn) / (mx - mn))%R a))).
Proof.
  intros filename f e b a mn mx [_ (img & E & N)] E' Hmin Hmax Hlt. rewrite E in E'. injection E' as ->.
  destruct (C09_unit_range ident ub b a mn mx Hmin Hmax Hlt) as [N' _]. rewrite N' in N. injection N as <-. unfold amap. do 4 f_equal.
  apply map_ext. intros v. unfold linear. rewrite Rmult_1_r. reflexivity.
Qed.
(** A constant image is stored as 0/0 everywhere, without an error. *)
Theorem C100_constant : forall filename f b a c,
  std_width b -> cpython_identity ident -> load (join f filename) = Ok (Img (UInt b) (PI a)) -> dat a <> [] -> (forall v, In v (dat a) -> v = c) ->
  stored filename f (join f (lit "image.mat"), NNan (Float 32) (shp a)).
Proof.
  intros filename f b a c Hb [Hid _] E Hne Hc. split; [reflexivity|]. exists (Img (UInt b) (PI a)). split; [exact E|]. cbn [snd]. unfold normalize_data. cbn [dt px].
  assert (Hn : already_normalised ident (UInt b) 0 1 = false).
  { unfold already_normalised. destruct (ident (imax (UInt b)) 1%Z) eqn:EI; [|reflexivity]. apply Hid in EI. destruct Hb as [->|[->| ->]]; discriminate EI. }
  assert (I : In c (dat a)) by (destruct (dat a) as [|v l]; [contradiction|]; left; apply Hc; left; reflexivity).
  rewrite Hn, (zmin_is (dat a) c), (zmax_is (dat a) c).
  - cbn [bind]. rewrite Z.sub_diag. change (wrap (UInt b) 0) with (0 mod 2 ^ Z.of_nat b)%Z. rewrite Z.mod_0_l by (apply Z.pow_nonzero; lia). reflexivity.
  - split; [exact I|]. intros v Hv. rewrite (Hc v Hv). lia.
  - split; [exact I|]. intros v Hv. rewrite (Hc v Hv). lia.
Qed.
(** Without arguments nothing is written. *)
Theorem C100_usage : forall glob s, mat_main ident ub load glob [s] = ([], Err SystemExit) /\ mat_main ident ub load glob [] = ([], Err SystemExit).
Proof. split; reflexivity. Qed.
End C100.
Print Assumptions C100_folders.
Print Assumptions C100_unsigned.
Print Assumptions C100_real.
Print Assumptions C100_constant.
Print Assumptions C100_usage.

(** The folder b fails, so c is not reached. *)
Example C100_ex :
  mat_main (fun a b => (a =? b)%Z) (fun _ => 0%Z) (fun p => if text_eqb p (lit "b/volume.mhd") then Err FileNotFoundError else Ok (Img (UInt 8) (PI (Arr [2] [3; 3]%Z))))
    (fun _ => [lit "a"; lit "b"; lit "c"]) [lit "s"; lit "d"] = ([(lit "a/image.mat", NNan (Float 32) [2])], Err FileNotFoundError).
Proof. reflexivity. Qed.
