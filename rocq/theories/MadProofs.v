(** Proofs about the most apparent distortion: other image shapes, block assignment, norms, indices. *)
From Coq Require Import Reals Lra Psatz.
From Verif Require Import Base NdArray LoadModel LoadProofs NormModel PairModel RealSums
  MetricModel SsimModel SsimProofs GsmModel GsmProofs MadModel MadLoopProofs.

(** ** Other shapes *)

Lemma in_c_tiles n m b s t : 0 < s -> 0 < b -> b <= n -> b <= m ->
  (In t (c_tiles n m b s) <-> exists k l, t = (k * s, l * s) /\ k * s + b <= m /\ l * s + b <= n).
Proof.
  intros Hs Hb Hn Hm. unfold c_tiles. rewrite in_grid, !in_steps by exact Hs. split.
  - intros [(k & E1 & L1) (l & E2 & L2)]. exists k, l. destruct t as [i j]. cbn [fst snd] in *. subst.
    split; [reflexivity|]. lia.
  - intros (k & l & -> & L1 & L2). cbn [fst snd]. split; [exists k|exists l]; split; lia.
Qed.

Lemma flat_in_buffer n m u v : m <= n -> u < m -> v < n -> u * m + v < n * m.
Proof.
  intros H1 H2 H3. destruct (Nat.le_exists_sub m n H1) as (d & -> & _).
  assert (u * m <= (m - 1) * m) by (apply Nat.mul_le_mono_r; lia).
  assert (d <= d * m) by nia.
  assert ((m - 1) * m + m = m * m) by nia. nia.
Qed.

Lemma tile_cells n m b s : 0 < s -> 0 < b -> b <= n -> b <= m ->
  ~ (exists k, n < k * s + b /\ k * s + b <= m) ->
  forall t uv, In t (c_tiles n m b s) -> In uv (window (fst t) (snd t) b) -> cell n m uv <> None.
Proof.
  intros Hs Hb Hn Hm Hno t uv Ht Hin. apply in_c_tiles in Ht as (k & l & -> & L1 & L2); try lia.
  apply in_window in Hin. cbn [fst snd] in Hin.
  assert (k * s + b <= n). { destruct (Nat.le_gt_cases (k * s + b) n); [assumption|]. exfalso. apply Hno. exists k. lia. }
  intros E. assert (X : cell n m uv = Some (fst uv * m + snd uv)); [|congruence].
  apply cell_ok. split; [lia|]. split; [|reflexivity].
  destruct (Nat.le_gt_cases m n) as [H1|H1].
  - apply flat_in_buffer; lia.
  - nia.
Qed.

Lemma getstat_fault_only n m b s buf out t e : getstat_tile n m b s buf out t = Err e -> e = MemoryFault.
Proof.
  unfold getstat_tile. destruct (mapM _ _) as [vals|e1] eqn:E; cbn [bind].
  - intros H. eapply foldM_err; [|exact H]. intros; eapply cwrite_fault; eassumption.
  - intros H. injection H as <-. eapply mapM_err; [|exact E]. intros; eapply cread_fault; eassumption.
Qed.

Lemma pass1_fault_only n m b s buf st t e : minstd_pass1 n m b s buf st t = Err e -> e = MemoryFault.
Proof.
  unfold minstd_pass1. destruct (mapM _ _) as [vals|e1] eqn:E; cbn [bind].
  - destruct (foldM _ _ (fst st)) as [t1|e1] eqn:E1; cbn [bind].
    + destruct (foldM _ _ (snd st)) as [o1|e1] eqn:E2; cbn [bind]; [discriminate|].
      intros H. injection H as <-. eapply foldM_err; [|exact E2]. intros; eapply cwrite_fault; eassumption.
    + intros H. injection H as <-. eapply foldM_err; [|exact E1]. intros; eapply cwrite_fault; eassumption.
  - intros H. injection H as <-. eapply mapM_err; [|exact E]. intros; eapply cread_fault; eassumption.
Qed.

Lemma fault_tile {A} n m b s (buf : nat -> A) k : 0 < s -> 0 < b -> b <= n -> n < k * s + b -> k * s + b <= m ->
  In (k * s, 0) (c_tiles n m b s) /\
  mapM (cread n m buf) (window (k * s) 0 b) = Err MemoryFault.
Proof.
  intros Hs Hb Hn H1 H2. split.
  - apply in_c_tiles; try lia. exists k, 0. split; [reflexivity|]. lia.
  - apply (mapM_fails _ _ _ (k * s + b - 1, 0)).
    + apply in_window. cbn [fst snd]. lia.
    + unfold cread, cell. cbn [fst snd]. destruct (Nat.ltb_spec (k * s + b - 1) n); [lia|]. reflexivity.
    + intros; eapply cread_fault; eassumption.
Qed.

Lemma getstatistics_fault n m b s buf out0 k : 0 < s -> 0 < b -> b <= n -> n < k * s + b -> k * s + b <= m ->
  getstatistics n m b s buf out0 = Err MemoryFault.
Proof.
  intros Hs Hb Hn H1 H2. destruct (fault_tile n m b s buf k Hs Hb Hn H1 H2) as [Ht Hm].
  apply (foldM_fails _ _ _ _ (k * s, 0)); [exact Ht| |].
  - intros o. unfold getstat_tile. cbn [fst snd]. rewrite Hm. reflexivity.
  - intros; eapply getstat_fault_only; eassumption.
Qed.

Lemma minstd_fault n m b s buf tmp0 out0 k : 0 < s -> 0 < b -> b <= n -> n < k * s + b -> k * s + b <= m ->
  minstd n m b s buf tmp0 out0 = Err MemoryFault.
Proof.
  intros Hs Hb Hn H1 H2. destruct (fault_tile n m b s buf k Hs Hb Hn H1 H2) as [Ht Hm]. unfold minstd.
  rewrite (foldM_fails _ MemoryFault _ _ (k * s, 0)); [reflexivity|exact Ht| |].
  - intros o. unfold minstd_pass1. cbn [fst snd]. rewrite Hm. reflexivity.
  - intros; eapply pass1_fault_only; eassumption.
Qed.

Lemma getstatistics_ok n m b s buf out0 : 0 < s -> s <= b -> b <= n -> b <= m ->
  ~ (exists k, n < k * s + b /\ k * s + b <= m) ->
  exists out, getstatistics n m b s buf out0 = Ok out /\
    forall q, (forall t, In t (c_tiles n m b s) -> hit n m (window (fst t) (snd t) s) q = false) -> out q = out0 q.
Proof.
  intros Hs Hb Hn Hm Hno.
  set (g := fun t => let* vals := mapM (cread n m buf) (window (fst t) (snd t) b) in
             Ok (std1 vals, Fin (skew vals), Fin (kurt vals))).
  assert (HC := tile_cells n m b s Hs ltac:(lia) Hn Hm Hno).
  destruct (tile_fold_spec n m s g (block_stats m b buf) (c_tiles n m b s) out0) as (out & Ho & _ & H2).
  - intros t Ht. unfold g. rewrite read_tile; [reflexivity|]. intros uv Hin. exact (HC t uv Ht Hin).
  - intros t uv Ht Hin. apply (HC t uv Ht). apply in_window in Hin. apply in_window. lia.
  - exists out. split; [|exact H2]. etransitivity; [|exact Ho]. unfold getstatistics, tile_fold.
    apply foldM_ext. intros o t. unfold getstat_tile, g. destruct (mapM (cread n m buf) _); reflexivity.
Qed.

Lemma minstd_ok n m b s buf tmp0 out0 : 0 < s -> s <= b -> b <= n -> b <= m ->
  ~ (exists k, n < k * s + b /\ k * s + b <= m) ->
  exists out, minstd n m b s buf tmp0 out0 = Ok out /\
    forall q, (forall t, In t (c_tiles n m b s) -> hit n m (window (fst t) (snd t) s) q = false) -> out q = out0 q.
Proof.
  intros Hs Hb Hn Hm Hno.
  set (g := fun t => let* vals := mapM (cread n m buf) (window (fst t) (snd t) b) in Ok (std1 vals)).
  assert (HC := tile_cells n m b s Hs ltac:(lia) Hn Hm Hno).
  assert (Hg : forall t, In t (c_tiles n m b s) -> g t = Ok (std1 (tile_vals m b buf t))).
  { intros t Ht. unfold g. rewrite read_tile; [reflexivity|]. intros uv Hin. exact (HC t uv Ht Hin). }
  assert (HC' : forall t uv, In t (c_tiles n m b s) -> In uv (window (fst t) (snd t) s) -> cell n m uv <> None).
  { intros t uv Ht Hin. apply (HC t uv Ht). apply in_window in Hin. apply in_window. lia. }
  destruct (tile_fold_spec n m s g _ (c_tiles n m b s) tmp0 Hg HC') as (tmp & Ht & _ & _).
  destruct (tile_fold_spec n m s g _ (c_tiles n m b s) out0 Hg HC') as (o1 & Ho1 & _ & O2).
  set (g2 := fun t => let* v0 := cread n m tmp t in
     foldM (fun val uv => let* x := cread n m tmp uv in Ok (if ext_ltb x val then x else val))
                (grid (search (fst t) b s) (search (snd t) b s)) v0).
  assert (Hg2 : forall t, In t (c_tiles n m b s) ->
    g2 t = Ok (search_min (fun uv => tmp (fst uv * m + snd uv)) b s t)).
  { intros t Hin. unfold g2, search_min. unfold cread at 1.
    assert (E : cell n m t = Some (fst t * m + snd t)).
    { assert (C : cell n m t <> None) by (apply (HC t t Hin); apply in_window; lia).
      destruct (cell n m t) as [p|] eqn:E; [|congruence]. apply cell_ok in E as (_ & _ & ->). reflexivity. }
    rewrite E. cbn [from_opt bind].
    rewrite search_fold; [reflexivity|]. intros uv Huv. apply in_grid in Huv as [H1 H2].
    apply in_search in H1 as (k1 & E1 & B1). apply in_search in H2 as (k2 & E2 & B2).
    assert (b / 2 <= b) by (apply Nat.div_le_upper_bound; lia).
    apply (HC (0, 0) uv); [|apply in_window; cbn [fst snd]; lia].
    apply in_c_tiles; try lia. exists 0, 0. split; [reflexivity|lia]. }
  destruct (tile_fold_spec n m s g2 _ (c_tiles n m b s) o1 Hg2 HC') as (out & Ho & _ & P2).
  exists out. split.
  - unfold minstd. rewrite (foldM_pair n m b s buf _ _ _ _ _ Ht Ho1). cbn [bind fst snd].
    rewrite <- Ho. unfold tile_fold.
    apply foldM_ext. intros o t. unfold minstd_pass2, g2. destruct (cread n m tmp t); reflexivity.
  - intros q Hq. rewrite P2, O2 by exact Hq. reflexivity.
Qed.

(** Much taller than wide: the row block_size above the lower end is never written. *)
Lemma tall_unwritten n m b s : 0 < s -> s <= b -> 2 * b < m -> m + s + 2 <= n ->
  forall t, In t (c_tiles n m b s) -> hit n m (window (fst t) (snd t) s) ((n - b - 1) * m + b) = false.
Proof.
  intros Hs Hb Hm Hn t Ht. apply in_c_tiles in Ht as (k & l & -> & L1 & L2); try lia.
  unfold hit. apply not_true_iff_false. intros E. apply existsb_exists in E as (uv & Hin & E).
  apply in_window in Hin. cbn [fst snd] in Hin.
  destruct (cell n m uv) as [p|] eqn:Ec; [|discriminate]. apply Nat.eqb_eq in E. subst p.
  apply cell_ok in Ec as (_ & _ & E).
  assert (U : fst uv <= m - b + s - 1) by lia. assert (V : snd uv <= n - b + s - 1) by lia.
  assert (Q : fst uv * m + snd uv <= (m - b + s - 1) * m + (n - b + s - 1)).
  { apply Nat.add_le_mono; [apply Nat.mul_le_mono_r; exact U|exact V]. }
  destruct (Nat.le_exists_sub (m + s + 2) n Hn) as (d & -> & _).
  replace (d + (m + s + 2) - b - 1) with ((m - b + s - 1) + (d + 2)) in E by lia.
  rewrite Nat.mul_add_distr_r in E.
  assert ((d + 2) * m >= d + 2 * m) by nia. lia.
Qed.

(** ** Assignment of blocks to tiles *)

Lemma assign_gen {A} s (f : nat * nat -> A) ps tiles : forall k (init : nat -> nat -> A),
  (forall j t, nth_error tiles j = Some t -> nth_error ps (k + j) = Some (f t)) ->
  exists loc, foldM (fun (F : nat -> nat -> A) kt => let* p := from_opt IndexError (nth_error ps (fst kt)) in
           Ok (fun x y => if in_tile s (snd kt) x y then p else F x y))
    (combine (seq k (length tiles)) tiles) init = Ok loc /\
    (forall x y t, In t tiles -> in_tile s t x y = true ->
       (forall t', In t' tiles -> in_tile s t' x y = true -> t' = t) -> loc x y = f t) /\
    (forall x y, (forall t, In t tiles -> in_tile s t x y = false) -> loc x y = init x y).
Proof.
  induction tiles as [|t0 tiles IH]; intros k init Hps; cbn [length seq combine foldM].
  - exists init. split; [reflexivity|]. split; [intros x y t []|reflexivity].
  - cbn [fst snd]. pose proof (Hps 0 t0 eq_refl) as H0. rewrite Nat.add_0_r in H0. rewrite H0. cbn [from_opt bind].
    destruct (IH (S k) (fun x y => if in_tile s t0 x y then f t0 else init x y)) as (loc & Hl & H1 & H2).
    { intros j t Hj. replace (S k + j) with (k + S j) by lia. apply Hps. exact Hj. }
    exists loc. split; [exact Hl|]. split.
    + intros x y t Hin Ht Hu. destruct (existsb (fun t' => in_tile s t' x y) tiles) eqn:E.
      * apply existsb_exists in E as (t' & Ht' & Hi'). rewrite (H1 x y t' Ht' Hi').
        { f_equal. apply Hu; [right; exact Ht'|exact Hi']. }
        { intros t'' Ht'' Hi''. rewrite (Hu t'' (or_intror Ht'') Hi''), (Hu t' (or_intror Ht') Hi'). reflexivity. }
      * assert (N : forall t', In t' tiles -> in_tile s t' x y = false).
        { intros t' Ht'. destruct (in_tile s t' x y) eqn:E'; [|reflexivity].
          assert (existsb (fun t' => in_tile s t' x y) tiles = true) by (apply existsb_exists; eauto). congruence. }
        rewrite (H2 x y N). destruct Hin as [->|Hin]; [rewrite Ht; reflexivity|].
        rewrite (N t Hin) in Ht. discriminate.
    + intros x y N. rewrite H2 by (intros; apply N; right; assumption). rewrite (N t0 (or_introl eq_refl)). reflexivity.
Qed.

Lemma assign_short {A} s (ps : list A) tiles : forall k init,
  k <= length ps -> length ps < k + length tiles ->
  foldM (fun (F : nat -> nat -> A) kt => let* p := from_opt IndexError (nth_error ps (fst kt)) in
           Ok (fun x y => if in_tile s (snd kt) x y then p else F x y))
    (combine (seq k (length tiles)) tiles) init = Err IndexError.
Proof.
  induction tiles as [|t tiles IH]; intros k init Hk Hl; cbn [length seq combine foldM] in *; [lia|].
  cbn [fst snd]. destruct (nth_error ps k) as [p|] eqn:E; cbn [from_opt bind].
  - apply IH; [|lia]. assert (k < length ps) by (apply nth_error_Some; congruence). lia.
  - reflexivity.
Qed.

Lemma in_hq_tiles m n s t : 0 < s ->
  (In t (hq_tiles m n s) <-> exists k l, t = (k * s, l * s) /\ k * s + 3 * s < m /\ l * s + 3 * s < n).
Proof.
  intros Hs. unfold hq_tiles. rewrite in_grid, !in_steps by exact Hs. split.
  - intros [(k & E1 & L1) (l & E2 & L2)]. exists k, l. destruct t as [i j]. cbn [fst snd] in *. subst.
    split; [reflexivity|]. lia.
  - intros (k & l & -> & L1 & L2). cbn [fst snd]. split; [exists k|exists l]; split; lia.
Qed.

Lemma in_tile_spec s t x y : in_tile s t x y = true <-> fst t <= x < fst t + s /\ snd t <= y < snd t + s.
Proof. unfold in_tile. rewrite !andb_true_iff, !Nat.leb_le, !Nat.ltb_lt. lia. Qed.

Lemma assign_spec {A} m n s (f : nat * nat -> A) ps init : 0 < s ->
  (forall j t, nth_error (hq_tiles m n s) j = Some t -> nth_error ps j = Some (f t)) ->
  exists loc, assign_blocks m n s ps init = Ok loc /\
    (forall x y, x / s * s + 3 * s < m -> y / s * s + 3 * s < n -> loc x y = f (x / s * s, y / s * s)) /\
    (forall x y, ~ (x / s * s + 3 * s < m /\ y / s * s + 3 * s < n) -> loc x y = init x y).
Proof.
  intros Hs Hps. destruct (assign_gen s f ps (hq_tiles m n s) 0 init Hps) as (loc & Hl & H1 & H2).
  exists loc. split; [exact Hl|]. split.
  - intros x y Hx Hy. apply H1.
    + apply in_hq_tiles; [exact Hs|]. exists (x / s), (y / s). auto.
    + apply in_tile_spec. cbn [fst snd]. pose proof (tile_of x s Hs). pose proof (tile_of y s Hs). lia.
    + intros t Ht Hin. apply in_hq_tiles in Ht as (k & l & -> & _ & _); [|exact Hs].
      apply in_tile_spec in Hin. cbn [fst snd] in Hin. rewrite (div_tile x s k), (div_tile y s l) by lia. reflexivity.
  - intros x y NC. apply H2. intros t Ht. apply in_hq_tiles in Ht as (k & l & -> & L1 & L2); [|exact Hs].
    apply not_true_iff_false. intros Hin. apply in_tile_spec in Hin. cbn [fst snd] in Hin. apply NC.
    rewrite (div_tile x s k), (div_tile y s l) by lia. auto.
Qed.

(** With block = 4 strides the tiles are the blocks exactly for multiples of the stride. *)
Lemma steps_count stop s : length (steps stop s) = (stop + s - 1) / s.
Proof. unfold steps. rewrite map_length, seq_length. reflexivity. Qed.

Lemma steps_equal stop stop' s : (stop + s - 1) / s = (stop' + s - 1) / s -> steps stop s = steps stop' s.
Proof. unfold steps. intros ->. reflexivity. Qed.

Lemma count_tiles m s q r : 0 < s -> m = q * s + r -> r < s -> 4 * s <= m ->
  (m - s * 3 + s - 1) / s = (if r =? 0 then q - 3 else q - 2) /\ (m - (4 * s - 1) + s - 1) / s = q - 3 /\ 4 <= q.
Proof.
  intros Hs Hm Hr H4. assert (Hq : 4 <= q) by nia. split; [|split; [|exact Hq]].
  - destruct (Nat.eqb_spec r 0) as [->|Hr0].
    + symmetry. apply (Nat.div_unique _ _ _ (s - 1)); nia.
    + symmetry. apply (Nat.div_unique _ _ _ (r - 1)); nia.
  - symmetry. apply (Nat.div_unique _ _ _ r); nia.
Qed.

Lemma grid_length rs cs : length (grid rs cs) = length rs * length cs.
Proof.
  unfold grid. induction rs as [|r rs IH]; [reflexivity|]. simpl. rewrite app_length, map_length, IH. reflexivity.
Qed.

Lemma hq_tiles_blocks m n s : 0 < s -> 4 * s <= m -> 4 * s <= n -> m mod s = 0 -> n mod s = 0 ->
  hq_tiles m n s = block_grid m n (4 * s) s.
Proof.
  intros Hs Hm Hn Em En. unfold hq_tiles, block_grid.
  assert (H : forall x, 4 * s <= x -> x mod s = 0 -> steps (x - s * 3) s = steps (x - (4 * s - 1)) s).
  { intros x Hx Ex. pose proof (Nat.div_mod x s ltac:(lia)) as D. apply steps_equal.
    destruct (count_tiles x s (x / s) 0 Hs) as (H1 & H2 & _); [lia|lia|exact Hx|].
    rewrite H1, H2. reflexivity. }
  rewrite (H m Hm Em), (H n Hn En). reflexivity.
Qed.

Lemma hq_tiles_more m n s : 0 < s -> 4 * s <= m -> 4 * s <= n -> m mod s <> 0 \/ n mod s <> 0 ->
  length (block_grid m n (4 * s) s) < length (hq_tiles m n s).
Proof.
  intros Hs Hm Hn E. unfold hq_tiles, block_grid. rewrite !grid_length, !steps_count.
  pose proof (Nat.div_mod m s ltac:(lia)) as Dm. pose proof (Nat.div_mod n s ltac:(lia)) as Dn.
  pose proof (Nat.mod_upper_bound m s ltac:(lia)). pose proof (Nat.mod_upper_bound n s ltac:(lia)).
  destruct (count_tiles m s (m / s) (m mod s) Hs) as (M1 & M2 & M3); [lia|lia|exact Hm|].
  destruct (count_tiles n s (n / s) (n mod s) Hs) as (N1 & N2 & N3); [lia|lia|exact Hn|].
  rewrite M1, M2, N1, N2. clear M1 M2 N1 N2.
  destruct (Nat.eqb_spec (m mod s) 0) as [Z1|Z1], (Nat.eqb_spec (n mod s) 0) as [Z2|Z2];
    [tauto| | |]; clear -M3 N3; generalize dependent (m / s); generalize dependent (n / s); intros p Hp q Hq;
    destruct (Nat.le_exists_sub 4 p Hp) as (p' & -> & _); destruct (Nat.le_exists_sub 4 q Hq) as (q' & -> & _).
  - replace (q' + 4 - 3) with (S q') by lia. replace (p' + 4 - 2) with (S (S p')) by lia.
    replace (p' + 4 - 3) with (S p') by lia. nia.
  - replace (q' + 4 - 2) with (S (S q')) by lia. replace (q' + 4 - 3) with (S q') by lia.
    replace (p' + 4 - 3) with (S p') by lia. nia.
  - replace (q' + 4 - 2) with (S (S q')) by lia. replace (q' + 4 - 3) with (S q') by lia.
    replace (p' + 4 - 2) with (S (S p')) by lia. replace (p' + 4 - 3) with (S p') by lia. nia.
Qed.

(** ** Border removal *)

Lemma inner_eq n b : 0 < b -> b <= n -> inner n b = seq b (n - 2 * b).
Proof.
  intros Hb Hn. unfold inner, clip. destruct (Z.ltb_spec (Z.of_nat b) 0); [lia|].
  destruct (Z.ltb_spec (- Z.of_nat b) 0); [|lia]. f_equal; lia.
Qed.

Lemma in_kept m n b xy : 0 < b -> b <= m -> b <= n ->
  (In xy (kept m n b) <-> b <= fst xy < m - b /\ b <= snd xy < n - b).
Proof. intros Hb Hm Hn. unfold kept. rewrite in_grid, !inner_eq, !in_seq by assumption. lia. Qed.

Lemma kept_length m n b : 0 < b -> b <= m -> b <= n -> length (kept m n b) = (m - 2 * b) * (n - 2 * b).
Proof. intros Hb Hm Hn. unfold kept. rewrite grid_length, !inner_eq, !seq_length by assumption. reflexivity. Qed.

Lemma kept_empty m n b : 0 < b -> b <= m -> b <= n -> m <= 2 * b \/ n <= 2 * b -> kept m n b = [].
Proof.
  intros Hb Hm Hn H. apply length_zero_iff_nil. rewrite kept_length by assumption. nia.
Qed.

(** ** Norms *)

Lemma rms_nil : rms [] = NaN.
Proof.
  unfold rms. cbn [map fold_left length INR ext_sqrt]. destruct (Rlt_dec 0 0); [lra|]. rewrite sqrt_0.
  rewrite ext_div_0. apply Rsgn_0.
Qed.

Lemma rms_zero l : l <> [] -> (forall x, In x l -> x = Fin 0) -> rms l = Fin 0.
Proof.
  intros Hne H. unfold rms.
  assert (E : fold_left ext_add (map (fun x => ext_mul x x) l) (Fin 0) = Fin 0).
  { clear Hne. induction l as [|x l IH]; [reflexivity|]. cbn [map fold_left].
    rewrite (H x (or_introl eq_refl)). cbn [ext_mul ext_add].
    replace (0 + 0 * 0)%R with 0%R by ring. apply IH. intros; apply H; right; assumption. }
  rewrite E. cbn [ext_sqrt]. destruct (Rlt_dec 0 0); [lra|]. rewrite sqrt_0.
  rewrite ext_div_fin; [f_equal; unfold Rdiv; ring|].
  apply Rgt_not_eq, sqrt_lt_R0, lt_0_INR. destruct l; [congruence|simpl; lia].
Qed.

Lemma fold_add_nan l acc : fold_left ext_add l acc = NaN \/ ~ In NaN l.
Proof.
  revert acc; induction l as [|x l IH]; intros acc; [right; intros []|]. cbn [fold_left].
  assert (K : forall l', fold_left ext_add l' NaN = NaN) by (induction l'; [reflexivity|exact IHl']).
  destruct (IH (ext_add acc x)) as [E|E]; [left; exact E|].
  destruct x; try (right; intros [C|C]; [discriminate|contradiction]).
  left. rewrite ext_add_nan_r. apply K.
Qed.

Lemma rms_nan l : In NaN l -> rms l = NaN.
Proof.
  intros H. unfold rms. destruct (fold_add_nan (map (fun x => ext_mul x x) l) (Fin 0)) as [->|C].
  - reflexivity.
  - exfalso. apply C. apply in_map_iff. exists NaN. split; [reflexivity|exact H].
Qed.

(** ** Identical images: the detection index *)

Lemma mask_no_error ms std_org mu std_err : ms <> 0%R -> std_err = Fin 0 \/ std_err = NaN ->
  hq_mask ms std_org mu std_err = Fin 0.
Proof.
  intros Hms He. unfold hq_mask. cbv zeta.
  assert (C : exists ci, ext_ln (if Rlt_dec (1 / 2) mu then ext_div std_err (Fin mu) else Fin 0) = ci /\
     (ci = NInf \/ ci = NaN)).
  { eexists. split; [reflexivity|].
    assert (L0 : ext_ln (Fin 0) = NInf).
    { simpl. destruct (Rlt_dec 0 0); [lra|]. destruct (Req_EM_T 0 0); [reflexivity|congruence]. }
    destruct (Rlt_dec (1 / 2) mu); [|left; exact L0]. destruct He as [->| ->].
    - rewrite ext_div_fin by lra. replace (0 / mu)%R with 0%R by (unfold Rdiv; ring). left; exact L0.
    - right. reflexivity. }
  destruct C as (ci & -> & [-> | ->]);
    (assert (L : forall t, ext_ltb t NInf = false) by (destruct t; reflexivity));
    (assert (L' : forall t, ext_ltb t NaN = false) by (destruct t; reflexivity));
    rewrite ?L, ?L'; cbn [andb]; rewrite ext_div_fin by exact Hms; f_equal; unfold Rdiv; ring.
Qed.

Lemma std1_const c l : (forall x, In x l -> x = c) -> std1 l = Fin 0 \/ std1 l = NaN.
Proof.
  intros H. unfold std1. destruct (Nat.eqb_spec (length l) 1) as [E|E]; [right; reflexivity|left]. f_equal.
  destruct l as [|x0 l0]; [unfold dev; rewrite Sum_nil; unfold Rdiv; rewrite Rmult_0_l; apply sqrt_0|].
  set (l := x0 :: l0) in *.
  assert (M : lmean l = c).
  { unfold lmean. rewrite (Sum_ext _ (fun _ => c)) by exact H. rewrite Sum_const. field.
    apply not_0_INR. unfold l. simpl. lia. }
  unfold dev. rewrite (Sum_ext _ (fun _ => 0%R)).
  - rewrite Sum_zero. unfold Rdiv. rewrite Rmult_0_l. apply sqrt_0.
  - intros x Hx. rewrite M, (H x Hx). ring.
Qed.

Lemma lum_mse_same a b x y : lum_mse a a b x y = 0%R.
Proof.
  unfold lum_mse. rewrite (Sum_ext _ (fun _ => 0%R)); [apply Sum_zero|]. intros kl _. ring.
Qed.

Lemma assign_inv {A} (P : A -> Prop) m n s ps init loc :
  (forall p, In p ps -> P p) -> (forall x y, P (init x y)) -> assign_blocks m n s ps init = Ok loc ->
  forall x y, P (loc x y).
Proof.
  intros Hps Hi Hl. unfold assign_blocks in Hl.
  refine (foldM_inv _ (fun F => forall x y, P (F x y)) _ _ _ _ Hi Hl).
  intros F [k t] F' _ HF E. cbn [fst snd] in E.
  destruct (nth_error ps k) as [p|] eqn:Ep; [|discriminate]. cbn [from_opt bind] in E. injection E as <-.
  intros x y. destruct (in_tile s t x y); [|apply HF]. apply Hps. eapply nth_error_In. exact Ep.
Qed.

(** Out of range the model's getd is 0. *)
Lemma getd_out (a : arr R) idx : inb (shp a) idx = false -> getd a idx = 0%R.
Proof. intros H. unfold getd, get. rewrite H. reflexivity. Qed.

Lemma block_zero m n b p : forall x, In x (dat (block (tabulate [m; n] (fun _ => 0%R)) b p)) -> x = 0%R.
Proof.
  intros x Hx. unfold block in Hx. cbn [tabulate dat] in Hx. apply in_map_iff in Hx as (idx & <- & _).
  match goal with |- getd ?a ?i = _ => destruct (inb [m; n] i) eqn:E end.
  - rewrite getd_tab by exact E. reflexivity.
  - apply getd_out. exact E.
Qed.

Lemma high_quality_identical filt junk o dr b s r d :
  0 < b -> b <= dim0 (mvals r) -> b <= dim1 (mvals r) -> h_ms o <> 0%R ->
  high_quality filt junk o dr b s r r = Ok d ->
  d = if (dim0 (mvals r) <=? 2 * b) || (dim1 (mvals r) <=? 2 * b) then NaN else Fin 0.
Proof.
  intros Hb Hm Hn Hms H. unfold high_quality in H. cbv zeta in H.
  set (M := dim0 (mvals r)) in *. set (N := dim1 (mvals r)) in *.
  destruct (lightness _ _ _ _ r) as [lum|]; [|discriminate]. cbn [bind] in H.
  assert (Ez : tabulate [M; N] (fun idx => (getd (fst (filt lum)) idx - getd (fst (filt lum)) idx)%R)
               = tabulate [M; N] (fun _ => 0%R)).
  { unfold tabulate. f_equal. apply map_ext. intros; ring. }
  rewrite Ez in H. clear Ez.
  destruct (extract_blocks (fst (filt lum)) b s) as [ob|]; [|discriminate]. cbn [bind] in H.
  destruct (extract_blocks (tabulate [M; N] (fun _ => 0%R)) b s) as [eb|] eqn:Eb; [|discriminate]. cbn [bind] in H.
  destruct (minstd _ _ _ _ _ _ _) as [so|]; [|discriminate]. cbn [bind] in H.
  destruct (assign_blocks _ _ _ _ _) as [loc|] eqn:El; [|discriminate]. cbn [bind] in H. injection H as <-.
  assert (P : forall x y, snd (loc x y) = Fin 0 \/ snd (loc x y) = NaN).
  { apply (assign_inv (fun p => snd p = Fin 0 \/ snd p = NaN)) with (2 := fun _ _ => or_introl eq_refl) (3 := El).
    intros [u v] Hin. apply in_combine_r in Hin. cbn [snd]. apply in_map_iff in Hin as (bl & <- & Hbl).
    unfold extract_blocks in Eb. destruct (_ =? 2); [|discriminate]. injection Eb as <-.
    apply in_map_iff in Hbl as (p & <- & _). apply (std1_const 0). apply block_zero. }
  destruct ((M <=? 2 * b) || (N <=? 2 * b)) eqn:E.
  - apply orb_true_iff in E. rewrite !Nat.leb_le in E. rewrite kept_empty by assumption. cbn [map]. rewrite rms_nil. reflexivity.
  - apply orb_false_iff in E as [E1 E2]. apply Nat.leb_gt in E1. apply Nat.leb_gt in E2.
    rewrite rms_zero.
    + cbn [ext_mul]. f_equal. ring.
    + intros C. apply map_eq_nil in C. assert (L := kept_length M N b Hb Hm Hn). rewrite C in L. simpl in L. nia.
    + intros x Hx. apply in_map_iff in Hx as (xy & <- & _). rewrite mask_no_error by (auto; apply P).
      rewrite lum_mse_same. cbn [ext_mul]. f_equal. ring.
Qed.

(** If the border removal leaves nothing, the index is not a number. *)
Lemma high_quality_empty filt junk o dr b s r m d :
  0 < b -> b <= dim0 (mvals r) -> b <= dim1 (mvals r) ->
  dim0 (mvals r) <= 2 * b \/ dim1 (mvals r) <= 2 * b ->
  high_quality filt junk o dr b s r m = Ok d -> d = NaN.
Proof.
  intros Hb Hm Hn He H. unfold high_quality in H. cbv zeta in H.
  destruct (lightness _ _ _ _ r) as [lr|]; [|discriminate]. cbn [bind] in H.
  destruct (lightness _ _ _ _ m) as [lm|]; [|discriminate]. cbn [bind] in H.
  destruct (extract_blocks _ _ _) as [ob|]; [|discriminate]. cbn [bind] in H.
  destruct (extract_blocks _ _ _) as [eb|]; [|discriminate]. cbn [bind] in H.
  destruct (minstd _ _ _ _ _ _ _) as [so|]; [|discriminate]. cbn [bind] in H.
  destruct (assign_blocks _ _ _ _ _) as [loc|]; [|discriminate]. cbn [bind] in H. injection H as <-.
  rewrite kept_empty by assumption. cbn [map]. rewrite rms_nil. reflexivity.
Qed.

Lemma low_quality_empty gabor junk3 o b s r m a :
  0 < b -> b <= dim0 (mvals r) -> b <= dim1 (mvals r) ->
  dim0 (mvals r) <= 2 * b \/ dim1 (mvals r) <= 2 * b ->
  low_quality gabor junk3 o b s r m = Ok a -> a = NaN.
Proof.
  intros Hb Hm Hn He H. unfold low_quality in H. cbv zeta in H.
  destruct (negb _); [discriminate|]. destruct (l_orient o =? 0); [discriminate|].
  destruct (mapM _ _) as [st|]; [|discriminate]. cbn [bind] in H. injection H as <-.
  rewrite kept_empty by assumption. cbn [map]. apply rms_nil.
Qed.

(** When the detection index is computed: square images whose side is a multiple of the stride. *)
Lemma nth_error_combine {A B} (l : list A) (l' : list B) j a b :
  nth_error l j = Some a -> nth_error l' j = Some b -> nth_error (combine l l') j = Some (a, b).
Proof.
  revert l' j; induction l as [|x l IH]; intros [|y l'] [|j]; simpl; try discriminate.
  - intros H1 H2. injection H1 as ->. injection H2 as ->. reflexivity.
  - apply IH.
Qed.

Lemma high_quality_ok filt junk o dr s r m N lr lm :
  0 < s -> shp (mvals r) = [N; N] -> 4 * s <= N -> N mod s = 0 ->
  lightness (h_b o) (h_k o) (h_gamma o) dr r = Ok lr -> lightness (h_b o) (h_k o) (h_gamma o) dr m = Ok lm ->
  shp (fst (filt lr)) = [N; N] ->
  exists d, high_quality filt junk o dr (4 * s) s r m = Ok d.
Proof.
  intros Hs Hr H4 Hmod Er Em Hf. unfold high_quality. cbv zeta.
  assert (D0 : dim0 (mvals r) = N) by (unfold dim0; rewrite Hr; reflexivity).
  assert (D1 : dim1 (mvals r) = N) by (unfold dim1; rewrite Hr; reflexivity).
  rewrite D0, D1, Er, Em. cbn [bind]. unfold extract_blocks. rewrite Hf. cbn [length Nat.eqb tabulate shp bind].
  destruct (minstd_square N (4 * s) s (interleave (fst (filt lr)) (snd (filt lr))) (junk 0) (junk 1) Hs) as (tmp & so & -> & _); try lia.
  cbn [bind]. unfold dim0, dim1. rewrite Hf. cbn [nth shp tabulate].
  set (G := block_grid N N (4 * s) s).
  match goal with |- exists d, bind (assign_blocks _ _ _ (combine (map ?u (map ?v G)) (map ?w (map ?z G))) _) _ = _ =>
    destruct (assign_spec N N s (fun t => (u (v t), w (z t)))
      (combine (map u (map v G)) (map w (map z G))) (fun _ _ => (0%R, Fin 0)) Hs) as (loc & -> & _) end.
  - rewrite hq_tiles_blocks by assumption. fold G. intros j t Hj.
    apply nth_error_combine; rewrite !nth_error_map, Hj; reflexivity.
  - cbn [bind]. eexists. reflexivity.
Qed.

Lemma high_quality_index_error filt junk o dr s r m N lr lm :
  0 < s -> shp (mvals r) = [N; N] -> 4 * s <= N -> N mod s <> 0 ->
  lightness (h_b o) (h_k o) (h_gamma o) dr r = Ok lr -> lightness (h_b o) (h_k o) (h_gamma o) dr m = Ok lm ->
  shp (fst (filt lr)) = [N; N] ->
  high_quality filt junk o dr (4 * s) s r m = Err IndexError.
Proof.
  intros Hs Hr H4 Hmod Er Em Hf. unfold high_quality. cbv zeta.
  assert (D0 : dim0 (mvals r) = N) by (unfold dim0; rewrite Hr; reflexivity).
  assert (D1 : dim1 (mvals r) = N) by (unfold dim1; rewrite Hr; reflexivity).
  rewrite D0, D1, Er, Em. cbn [bind]. unfold extract_blocks. rewrite Hf. cbn [length Nat.eqb tabulate shp bind].
  destruct (minstd_square N (4 * s) s (interleave (fst (filt lr)) (snd (filt lr))) (junk 0) (junk 1) Hs) as (tmp & so & -> & _); try lia.
  cbn [bind]. unfold dim0, dim1. rewrite Hf. cbn [nth shp tabulate].
  unfold assign_blocks. rewrite assign_short; [reflexivity|lia|].
  rewrite combine_length, !map_length, Nat.min_id. apply hq_tiles_more; auto.
Qed.

(** ** The appearance index of square images *)

Definition square_stats (gabor : arr R -> nat -> nat -> arr R) (N b s : nat) (i : mimg) (so xy : nat * nat) : stat3 :=
  block_stats N b (fun q => nth q (dat (gabor (mvals i) (fst so) (snd so))) 0%R)
    (fst xy / s * s, snd xy / s * s).

Definition norm_weights (ws : list R) : list ext :=
  map (fun w => ext_div (Fin w) (Fin (Sum (fun x => x) ws))) ws.

Lemma low_quality_square gabor junk3 o b s r m N : 0 < s -> s <= b -> b <= N -> shp (mvals r) = [N; N] ->
  length (l_weights o) = l_scales o -> 0 < l_orient o ->
  low_quality gabor junk3 o b s r m =
  Ok (rms (map (fun xy => fold_left (fun acc so => ext_add acc
        (stat_diff (nth (fst so) (norm_weights (l_weights o)) NaN)
           (square_stats gabor N b s m so xy) (square_stats gabor N b s r so xy)))
        (grid (seq 0 (l_scales o)) (seq 0 (l_orient o))) (Fin 0)) (kept N N b))).
Proof.
  intros Hs Hb HN Hr Hw Ho. unfold low_quality. cbv zeta.
  assert (D0 : dim0 (mvals r) = N) by (unfold dim0; rewrite Hr; reflexivity).
  assert (D1 : dim1 (mvals r) = N) by (unfold dim1; rewrite Hr; reflexivity).
  rewrite D0, D1, map_length, Hw, Nat.eqb_refl. cbn [negb].
  destruct (Nat.eqb_spec (l_orient o) 0) as [E0|_]; [lia|]. fold (norm_weights (l_weights o)).
  set (ws := norm_weights (l_weights o)).
  set (bands := grid (seq 0 (l_scales o)) (seq 0 (l_orient o))).
  (* the statistics of every band *)
  match goal with |- (let* stats := mapM ?f bands in _) = _ => set (F := f) end.
  assert (E : exists stats, mapM F bands = Ok stats /\ length stats = length bands /\
    forall k so w p q, nth_error bands k = Some so -> nth_error stats k = Some (w, p, q) ->
      w = nth (fst so) ws NaN /\
      (forall xy, In xy (kept N N b) -> p (fst xy * N + snd xy) = square_stats gabor N b s m so xy) /\
      (forall xy, In xy (kept N N b) -> q (fst xy * N + snd xy) = square_stats gabor N b s r so xy)).
  { assert (Ex : forall so, exists w p q, F so = Ok (w, p, q) /\ w = nth (fst so) ws NaN /\
      (forall xy, In xy (kept N N b) -> p (fst xy * N + snd xy) = square_stats gabor N b s m so xy) /\
      (forall xy, In xy (kept N N b) -> q (fst xy * N + snd xy) = square_stats gabor N b s r so xy)).
    { intros so. unfold F.
      destruct (getstatistics_square N b s (fun q => nth q (dat (gabor (mvals m) (fst so) (snd so))) 0%R)
        (junk3 (2 * (fst so * l_orient o + snd so))) Hs Hb HN) as (p & -> & Hp & _). cbn [bind].
      destruct (getstatistics_square N b s (fun q => nth q (dat (gabor (mvals r) (fst so) (snd so))) 0%R)
        (junk3 (S (2 * (fst so * l_orient o + snd so)))) Hs Hb HN) as (q & -> & Hq & _). cbn [bind].
      exists (nth (fst so) ws NaN), p, q. split; [reflexivity|]. split; [reflexivity|].
      split; intros xy Hxy; apply in_kept in Hxy; try lia; [apply Hp|apply Hq]; try lia;
        apply covered_inner; lia. }
    clearbody F. clear -Ex. induction bands as [|so bands IH].
    - exists []. split; [reflexivity|]. split; [reflexivity|]. intros k so w p q H. destruct k; discriminate.
    - destruct IH as (stats & E & L & H). destruct (Ex so) as (w0 & p0 & q0 & E0 & H0).
      exists ((w0, p0, q0) :: stats). cbn [mapM]. rewrite E0. cbn [bind]. rewrite E. cbn [bind].
      split; [reflexivity|]. split; [cbn [length]; congruence|].
      intros k so' w p q Hk Hst. destruct k as [|k]; cbn [nth_error] in *.
      + injection Hk as <-. injection Hst as <- <- <-. exact H0.
      + eapply H; eassumption. }
  destruct E as (stats & -> & L & H). cbn [bind]. f_equal. f_equal. apply map_ext_in. intros xy Hxy.
  assert (G : forall l l' acc, length l' = length l ->
    (forall k so wpq, nth_error l k = Some so -> nth_error l' k = Some wpq ->
       let '(w, p, q) := wpq in w = nth (fst so) ws NaN /\
       p (fst xy * N + snd xy) = square_stats gabor N b s m so xy /\
       q (fst xy * N + snd xy) = square_stats gabor N b s r so xy) ->
    fold_left (fun acc (wpq : ext * (nat -> stat3) * (nat -> stat3)) => let '(w, p, q) := wpq in
       ext_add acc (stat_diff w (p (fst xy * N + snd xy)) (q (fst xy * N + snd xy)))) l' acc
    = fold_left (fun acc so => ext_add acc
        (stat_diff (nth (fst so) ws NaN) (square_stats gabor N b s m so xy) (square_stats gabor N b s r so xy))) l acc).
  { induction l as [|so l IH]; intros [|[[w p] q] l'] acc Hl Hk; try discriminate; [reflexivity|].
    cbn [fold_left]. destruct (Hk 0 so (w, p, q) eq_refl eq_refl) as (-> & -> & ->). apply IH.
    - simpl in Hl. congruence.
    - intros k so' wpq H1 H2. apply (Hk (S k)); assumption. }
  apply G; [exact L|]. intros k so [[w p] q] Hk Hst. destruct (H k so w p q Hk Hst) as (-> & Hp & Hq).
  auto.
Qed.

Lemma block_stats_fin N b buf t : 2 <= b ->
  exists x y z, block_stats N b buf t = (Fin x, Fin y, Fin z).
Proof.
  intros Hb. unfold block_stats. cbv zeta. unfold std1, tile_vals. rewrite map_length, window_length.
  destruct (Nat.eqb_spec (b * b) 1); [nia|]. eauto.
Qed.

Lemma stat_diff_same w x y z : stat_diff (Fin w) (Fin x, Fin y, Fin z) (Fin x, Fin y, Fin z) = Fin 0.
Proof.
  unfold stat_diff. cbn [ext_sub ext_neg ext_add ext_abs ext_mul]. f_equal.
  replace (x + - x)%R with 0%R by ring. replace (y + - y)%R with 0%R by ring. replace (z + - z)%R with 0%R by ring.
  rewrite Rabs_R0. ring.
Qed.

Lemma low_quality_identical gabor junk3 o b s r N : 0 < s -> s <= b -> 2 <= b -> 2 * b < N -> shp (mvals r) = [N; N] ->
  length (l_weights o) = l_scales o -> 0 < l_orient o -> Sum (fun x => x) (l_weights o) <> 0%R ->
  low_quality gabor junk3 o b s r r = Ok (Fin 0).
Proof.
  intros Hs Hb H2 HN Hr Hw Ho Hsum. rewrite (low_quality_square gabor junk3 o b s r r N) by (auto; lia). f_equal.
  apply rms_zero.
  - intros C. apply map_eq_nil in C. assert (L := kept_length N N b ltac:(lia) ltac:(lia) ltac:(lia)).
    rewrite C in L. simpl in L. nia.
  - intros x Hx. apply in_map_iff in Hx as (xy & <- & _).
    assert (Hin : forall so, In so (grid (seq 0 (l_scales o)) (seq 0 (l_orient o))) -> fst so < length (l_weights o)).
    { intros so H. apply in_grid in H as [H _]. apply in_seq in H. lia. }
    revert Hin. induction (grid _ _) as [|so l IH]; intros Hin; [reflexivity|]. cbn [fold_left].
    destruct (block_stats_fin N b (fun q => nth q (dat (gabor (mvals r) (fst so) (snd so))) 0%R)
      (fst xy / s * s, snd xy / s * s) H2) as (u & v & w & E).
    change (square_stats gabor N b s r so xy = (Fin u, Fin v, Fin w)) in E. rewrite E.
    assert (W : exists c, nth (fst so) (norm_weights (l_weights o)) NaN = Fin c).
    { assert (Lt : fst so < length (l_weights o)) by (apply Hin; left; reflexivity).
      unfold norm_weights. rewrite (nth_indep _ NaN (ext_div (Fin 0) (Fin (Sum (fun x => x) (l_weights o)))))
        by (rewrite map_length; exact Lt).
      rewrite (map_nth (fun w => ext_div (Fin w) (Fin (Sum (fun x => x) (l_weights o)))) (l_weights o) 0%R).
      rewrite ext_div_fin by exact Hsum. eauto. }
    destruct W as [c ->]. rewrite stat_diff_same. cbn [ext_add]. replace (0 + 0)%R with 0%R by ring.
    apply IH. intros; apply Hin; right; assumption.
Qed.

(** ** Further lemmas *)

Lemma assign_ok {A} s (ps : list A) tiles : forall k init,
  k + length tiles <= length ps ->
  exists loc, foldM (fun (F : nat -> nat -> A) kt => let* p := from_opt IndexError (nth_error ps (fst kt)) in
           Ok (fun x y => if in_tile s (snd kt) x y then p else F x y))
    (combine (seq k (length tiles)) tiles) init = Ok loc.
Proof.
  induction tiles as [|t tiles IH]; intros k init Hl; cbn [length seq combine foldM] in *; [eauto|].
  cbn [fst snd]. destruct (nth_error ps k) as [p|] eqn:E; cbn [from_opt bind].
  - apply IH. lia.
  - apply nth_error_None in E. lia.
Qed.

Lemma nth_grid rs cs i j a b : nth_error rs i = Some a -> nth_error cs j = Some b ->
  nth_error (grid rs cs) (i * length cs + j) = Some (a, b).
Proof.
  intros Hi Hj. assert (Lj : j < length cs) by (apply nth_error_Some; congruence).
  revert i Hi; induction rs as [|r rs IH]; intros [|i] Hi; try discriminate; unfold grid; cbn [flat_map].
  - injection Hi as ->. rewrite nth_error_app1 by (rewrite map_length; simpl; lia).
    cbn [Nat.mul Nat.add]. rewrite nth_error_map, Hj. reflexivity.
  - rewrite nth_error_app2 by (rewrite map_length; simpl; lia).
    rewrite map_length. replace (S i * length cs + j - length cs) with (i * length cs + j) by (simpl; lia).
    apply IH. exact Hi.
Qed.

Lemma nth_steps stop s k : 0 < s -> k * s < stop -> nth_error (steps stop s) k = Some (k * s).
Proof.
  intros Hs Hk. unfold steps. apply ceil_div in Hk; [|exact Hs].
  rewrite nth_error_map, (nth_error_nth' _ 0) by (rewrite seq_length; exact Hk).
  rewrite seq_nth by exact Hk. reflexivity.
Qed.

(** The kernels only look at the n * m cells of the buffer. *)
Lemma cread_ext {A} n m (buf buf' : nat -> A) uv : (forall q, q < n * m -> buf q = buf' q) ->
  cread n m buf uv = cread n m buf' uv.
Proof.
  intros H. unfold cread. destruct (cell n m uv) as [p|] eqn:E; [|reflexivity]. cbn [from_opt bind].
  apply cell_ok in E as (_ & L & ->). rewrite H by exact L. reflexivity.
Qed.

Lemma mapM_ext_all {A B} (f g : A -> res B) l : (forall a, f a = g a) -> mapM f l = mapM g l.
Proof. intros H. induction l as [|a l IH]; [reflexivity|]. cbn [mapM]. rewrite H, IH. reflexivity. Qed.

Lemma minstd_buf_ext n m b s buf buf' tmp0 out0 : (forall q, q < n * m -> buf q = buf' q) ->
  minstd n m b s buf tmp0 out0 = minstd n m b s buf' tmp0 out0.
Proof.
  intros H. unfold minstd. rewrite (foldM_ext (minstd_pass1 n m b s buf) (minstd_pass1 n m b s buf')); [reflexivity|].
  intros st t. unfold minstd_pass1. rewrite (mapM_ext_all _ (cread n m buf')); [reflexivity|].
  intros uv. apply cread_ext, H.
Qed.

(** The searched minimum of finite values. *)
Lemma search_min_spec (v : nat * nat -> R) (tmp : nat * nat -> ext) b s t :
  tmp t = Fin (v t) ->
  (forall uv, In uv (grid (search (fst t) b s) (search (snd t) b s)) -> tmp uv = Fin (v uv)) ->
  exists x uv, search_min tmp b s t = Fin x /\ x = v uv /\
    (uv = t \/ In uv (grid (search (fst t) b s) (search (snd t) b s))) /\
    (x <= v t)%R /\ (forall uv, In uv (grid (search (fst t) b s) (search (snd t) b s)) -> (x <= v uv)%R).
Proof.
  intros Ht. unfold search_min. rewrite Ht.
  assert (G : forall l uv0, (forall uv, In uv l -> tmp uv = Fin (v uv)) ->
    exists x uv, fold_left (fun val uv => if ext_ltb (tmp uv) val then tmp uv else val) l (Fin (v uv0)) = Fin x /\
      x = v uv /\ (uv = uv0 \/ In uv l) /\ (x <= v uv0)%R /\ (forall uv, In uv l -> (x <= v uv)%R)).
  { induction l as [|p l IH]; intros uv0 H.
    - exists (v uv0), uv0. cbn [fold_left]. split; [reflexivity|]. split; [reflexivity|]. split; [left; reflexivity|].
      split; [lra|]. intros uv [].
    - cbn [fold_left]. rewrite (H p (or_introl eq_refl)). cbn [ext_ltb].
      destruct (Rlt_dec (v p) (v uv0)) as [L|L].
      + destruct (IH p) as (x & uv & E & E1 & I & B1 & B2); [intros; apply H; right; assumption|].
        exists x, uv. split; [exact E|]. split; [exact E1|].
        split; [destruct I as [->|I]; right; [left; reflexivity|right; exact I]|].
        split; [lra|]. intros uv' [<-|Hin]; [exact B1|apply B2, Hin].
      + destruct (IH uv0) as (x & uv & E & E1 & I & B1 & B2); [intros; apply H; right; assumption|].
        exists x, uv. split; [exact E|]. split; [exact E1|].
        split; [destruct I as [->|I]; [left; reflexivity|right; right; exact I]|].
        split; [exact B1|]. intros uv' [<-|Hin]; [lra|apply B2, Hin]. }
  intros H. destruct (G _ t H) as (x & uv & E). exists x, uv. exact E.
Qed.

(** Everything about one kept pixel of minstd. *)
Definition std_of (l : list R) : R := sqrt (dev 2 l / INR (length l - 1)).

Lemma block_std_fin N b buf t : 2 <= b -> block_std N b buf t = Fin (std_of (tile_vals N b buf t)).
Proof.
  intros Hb. unfold block_std, std1. destruct (Nat.eqb_spec (length (tile_vals N b buf t)) 1) as [E|E]; [|reflexivity].
  unfold tile_vals in E. rewrite map_length, window_length in E. nia.
Qed.

Lemma dev2_pos l x y : In x l -> In y l -> x <> y -> (0 < dev 2 l)%R.
Proof.
  intros Hx Hy Hne. unfold dev.
  assert (P : forall a, In a l -> (0 <= (a - lmean l) ^ 2)%R) by (intros; apply pow2_ge_0).
  destruct (Req_EM_T x (lmean l)) as [E|E].
  - apply Rlt_le_trans with ((y - lmean l) ^ 2)%R; [|apply (Sum_single (fun a => ((a - lmean l) ^ 2)%R)); assumption].
    rewrite <- Rsqr_pow2; apply Rlt_0_sqr; lra.
  - apply Rlt_le_trans with ((x - lmean l) ^ 2)%R; [|apply (Sum_single (fun a => ((a - lmean l) ^ 2)%R)); assumption].
    rewrite <- Rsqr_pow2; apply Rlt_0_sqr; lra.
Qed.
