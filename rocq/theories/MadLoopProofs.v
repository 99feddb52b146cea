(** Lemmas about the loops and the C arrays of MAD. *)
From Coq Require Import Reals Lra Psatz.
From Verif Require Import Base NdArray LoadModel LoadProofs NormModel PairModel RealSums
  MetricModel SsimModel SsimProofs GsmModel GsmProofs MadModel.

(** ** Loops *)

Lemma ceil_div stop s k : 0 < s -> (k < (stop + s - 1) / s <-> k * s < stop).
Proof.
  intros Hs. split; intros H.
  - assert (S k <= (stop + s - 1) / s) by lia.
    assert (s * S k <= stop + s - 1).
    { eapply Nat.le_trans; [apply Nat.mul_le_mono_l; exact H0|]. apply Nat.mul_div_le. lia. }
    nia.
  - apply Nat.div_le_lower_bound; [lia|]. nia.
Qed.

Lemma in_steps x stop s : 0 < s -> (In x (steps stop s) <-> exists k, x = k * s /\ x < stop).
Proof.
  intros Hs. unfold steps. rewrite in_map_iff. split.
  - intros (k & <- & H). apply in_seq in H. exists k. split; [reflexivity|]. apply ceil_div; lia.
  - intros (k & -> & H). exists k. split; [reflexivity|]. apply in_seq. split; [lia|]. simpl. apply ceil_div; lia.
Qed.

Lemma in_grid t rs cs : In t (grid rs cs) <-> In (fst t) rs /\ In (snd t) cs.
Proof.
  unfold grid. rewrite in_flat_map. destruct t as [i j]. cbn [fst snd]. split.
  - intros (x & Hx & H). apply in_map_iff in H as (y & E & Hy). injection E as -> ->. auto.
  - intros [H1 H2]. exists i. split; [exact H1|]. apply in_map_iff. eauto.
Qed.

Lemma in_window uv i j b : In uv (window i j b) <-> (i <= fst uv < i + b /\ j <= snd uv < j + b).
Proof. unfold window. rewrite in_grid, !in_seq. tauto. Qed.

Lemma window_length i j b : length (window i j b) = b * b.
Proof.
  unfold window, grid.
  assert (H : forall l : list nat, length (flat_map (fun i0 => map (fun j0 => (i0, j0)) (seq j b)) l) = length l * b).
  { induction l as [|x l IH]; [reflexivity|]. simpl. rewrite app_length, map_length, seq_length, IH. reflexivity. }
  rewrite H, seq_length. reflexivity.
Qed.

Lemma foldM_app {S A} (f : S -> A -> res S) l l' st :
  foldM f (l ++ l') st = let* st' := foldM f l st in foldM f l' st'.
Proof.
  revert st; induction l as [|x l IH]; intros st; simpl; [reflexivity|].
  destruct (f st x); simpl; [apply IH|reflexivity].
Qed.

Lemma foldM_ext {S A} (f g : S -> A -> res S) l st : (forall s a, f s a = g s a) -> foldM f l st = foldM g l st.
Proof.
  intros H. revert st; induction l as [|x l IH]; intros st; simpl; [reflexivity|].
  rewrite H. destruct (g st x); simpl; [apply IH|reflexivity].
Qed.

Lemma foldM_inv {S A} (f : S -> A -> res S) (P : S -> Prop) l st st' :
  (forall s a s', In a l -> P s -> f s a = Ok s' -> P s') -> P st -> foldM f l st = Ok st' -> P st'.
Proof.
  revert st; induction l as [|x l IH]; intros st H H0 HF; simpl in HF.
  - injection HF as <-. exact H0.
  - destruct (f st x) as [s1|] eqn:E; [|discriminate]. simpl in HF. eapply IH; [|  |exact HF].
    + intros s a s' Ha. apply H. right; exact Ha.
    + eapply H; [left; reflexivity|exact H0|exact E].
Qed.

Lemma foldM_err {S A} (f : S -> A -> res S) e0 l st :
  (forall s a e, In a l -> f s a = Err e -> e = e0) -> forall e, foldM f l st = Err e -> e = e0.
Proof.
  revert st; induction l as [|x l IH]; intros st H e HF; simpl in HF; [discriminate|].
  destruct (f st x) as [s1|e1] eqn:E; simpl in HF.
  - eapply IH; [|exact HF]. intros; eapply H; [right|]; eassumption.
  - injection HF as <-. eapply H; [left; reflexivity|exact E].
Qed.

Lemma foldM_fails {S A} (f : S -> A -> res S) e0 l st a :
  In a l -> (forall s, f s a = Err e0) -> (forall s a e, In a l -> f s a = Err e -> e = e0) ->
  foldM f l st = Err e0.
Proof.
  revert st; induction l as [|x l IH]; intros st Ha Hf He; [destruct Ha|]. simpl.
  destruct Ha as [->|Ha].
  - rewrite Hf. reflexivity.
  - destruct (f st x) as [s1|e1] eqn:E; simpl.
    + apply IH; [exact Ha|exact Hf|]. intros; eapply He; [right|]; eassumption.
    + f_equal. eapply He; [left; reflexivity|exact E].
Qed.

Lemma foldM_ok {S A} (f : S -> A -> res S) l :
  (forall s a, In a l -> exists s', f s a = Ok s') -> forall st, exists st', foldM f l st = Ok st'.
Proof.
  induction l as [|x l IH]; intros H st; simpl; [eauto|].
  destruct (H st x (or_introl eq_refl)) as [s1 ->]. simpl. apply IH. intros; apply H; right; assumption.
Qed.

(** ** C arrays *)

Lemma cell_ok n m uv p : cell n m uv = Some p <-> (fst uv < n /\ fst uv * m + snd uv < n * m /\ p = fst uv * m + snd uv).
Proof.
  unfold cell. destruct (Nat.ltb_spec (fst uv) n), (Nat.ltb_spec (fst uv * m + snd uv) (n * m)); simpl; split;
    intros E; try discriminate; try lia.
  - injection E as <-. auto.
  - destruct E as (_ & _ & ->). reflexivity.
Qed.

Definition hit (n m : nat) (l : list (nat * nat)) (q : nat) : bool :=
  existsb (fun uv => match cell n m uv with Some p => q =? p | None => false end) l.

Lemma cwrite_spec {A} n m (v : A) l buf :
  (forall uv, In uv l -> cell n m uv <> None) ->
  exists out, foldM (cwrite n m v) l buf = Ok out /\ forall q, out q = if hit n m l q then v else buf q.
Proof.
  revert buf; induction l as [|uv l IH]; intros buf H; cbn [foldM hit existsb].
  - exists buf. split; reflexivity.
  - unfold cwrite at 1. destruct (cell n m uv) as [p|] eqn:E; [|exfalso; exact (H uv (or_introl eq_refl) E)].
    cbn [from_opt bind]. destruct (IH (fun q => if q =? p then v else buf q)) as (out & Ho & Hq).
    { intros; apply H; right; assumption. }
    exists out. split; [exact Ho|]. intros q. rewrite Hq. fold (hit n m l q).
    destruct (hit n m l q); [rewrite orb_true_r; reflexivity|]. rewrite orb_false_r. reflexivity.
Qed.

Lemma cwrite_fault {A} n m (v : A) buf uv e : cwrite n m v buf uv = Err e -> e = MemoryFault.
Proof. unfold cwrite. destruct (cell n m uv); simpl; [discriminate|congruence]. Qed.

Lemma cread_fault {A} n m (buf : nat -> A) uv e : cread n m buf uv = Err e -> e = MemoryFault.
Proof. unfold cread. destruct (cell n m uv); simpl; [discriminate|congruence]. Qed.

Lemma mapM_err {A B} (f : A -> res B) e0 l e :
  (forall a e, In a l -> f a = Err e -> e = e0) -> mapM f l = Err e -> e = e0.
Proof.
  induction l as [|x l IH]; intros H HF; simpl in HF; [discriminate|].
  destruct (f x) as [y|e1] eqn:E; simpl in HF.
  - destruct (mapM f l) as [|e2]; simpl in HF; [discriminate|]. apply IH; [|exact HF].
    intros; eapply H; [right|]; eassumption.
  - injection HF as <-. eapply H; [left; reflexivity|exact E].
Qed.

Lemma mapM_fails {A B} (f : A -> res B) e0 l a :
  In a l -> f a = Err e0 -> (forall a e, In a l -> f a = Err e -> e = e0) -> mapM f l = Err e0.
Proof.
  intros Ha Hf He. destruct (mapM f l) as [ys|e] eqn:E.
  - exfalso. revert ys E. induction l as [|x l IH]; intros ys E; [destruct Ha|]. simpl in E.
    destruct Ha as [->|Ha]; [rewrite Hf in E; discriminate|].
    destruct (f x); [|discriminate]. simpl in E. destruct (mapM f l) as [zs|]; [|discriminate].
    eapply IH; [exact Ha| |reflexivity]. intros; eapply He; [right|]; eassumption.
  - f_equal. eapply mapM_err; [|exact E]. exact He.
Qed.

(** Values read by one tile. *)
Definition tile_vals (m b : nat) (buf : nat -> R) (t : nat * nat) : list R :=
  map (fun uv => buf (fst uv * m + snd uv)) (window (fst t) (snd t) b).

Lemma read_tile n m b buf t :
  (forall uv, In uv (window (fst t) (snd t) b) -> cell n m uv <> None) ->
  mapM (cread n m buf) (window (fst t) (snd t) b) = Ok (tile_vals m b buf t).
Proof.
  intros H. apply mapM_map. intros uv Hin. unfold cread. destruct (cell n m uv) as [p|] eqn:E.
  - apply cell_ok in E as (_ & _ & ->). reflexivity.
  - exfalso. exact (H uv Hin E).
Qed.

(** A loop that writes one value per tile. *)
Definition tile_fold {A} (n m s : nat) (g : nat * nat -> res A) (tiles : list (nat * nat)) (out0 : nat -> A)
  : res (nat -> A) :=
  foldM (fun out t => let* v := g t in foldM (cwrite n m v) (window (fst t) (snd t) s) out) tiles out0.

Lemma tile_fold_spec {A} n m s (g : nat * nat -> res A) (val : nat * nat -> A) tiles out0 :
  (forall t, In t tiles -> g t = Ok (val t)) ->
  (forall t uv, In t tiles -> In uv (window (fst t) (snd t) s) -> cell n m uv <> None) ->
  exists out, tile_fold n m s g tiles out0 = Ok out /\
    (forall q t, In t tiles -> hit n m (window (fst t) (snd t) s) q = true ->
       (forall t', In t' tiles -> hit n m (window (fst t') (snd t') s) q = true -> val t' = val t) -> out q = val t) /\
    (forall q, (forall t, In t tiles -> hit n m (window (fst t) (snd t) s) q = false) -> out q = out0 q).
Proof.
  revert out0; induction tiles as [|t0 tiles IH]; intros out0 Hg Hc; unfold tile_fold; cbn [foldM].
  - exists out0. split; [reflexivity|]. split; [intros q t []|reflexivity].
  - rewrite (Hg t0 (or_introl eq_refl)). cbn [bind].
    destruct (cwrite_spec n m (val t0) (window (fst t0) (snd t0) s) out0) as (o1 & -> & Ho1).
    { intros uv Hin. apply (Hc t0); [left; reflexivity|exact Hin]. }
    cbn [bind]. destruct (IH o1) as (out & Ho & H1 & H2).
    { intros; apply Hg; right; assumption. }
    { intros; eapply Hc; [right|]; eassumption. }
    exists out. split; [exact Ho|]. split.
    + intros q t Hin Hh Hu.
      destruct (existsb (fun t' => hit n m (window (fst t') (snd t') s) q) tiles) eqn:E.
      * apply existsb_exists in E as (t' & Ht' & Hh').
        rewrite (H1 q t' Ht' Hh').
        { apply Hu; [right; exact Ht'|exact Hh']. }
        { intros t'' Ht'' Hh''. rewrite (Hu t'' (or_intror Ht'') Hh''), (Hu t' (or_intror Ht') Hh'). reflexivity. }
      * assert (N : forall t', In t' tiles -> hit n m (window (fst t') (snd t') s) q = false).
        { intros t' Ht'. destruct (hit n m (window (fst t') (snd t') s) q) eqn:E'; [|reflexivity].
          assert (existsb (fun t' => hit n m (window (fst t') (snd t') s) q) tiles = true)
            by (apply existsb_exists; eauto). congruence. }
        rewrite (H2 q N), Ho1. destruct Hin as [->|Hin].
        { rewrite Hh. reflexivity. }
        { rewrite (N t Hin) in Hh. discriminate. }
    + intros q N. rewrite H2 by (intros; apply N; right; assumption). rewrite Ho1, (N t0 (or_introl eq_refl)). reflexivity.
Qed.

(** ** Square images *)

Definition sq_tiles (N b s : nat) : list (nat * nat) := c_tiles N N b s.

Lemma in_sq_tiles N b s t : 0 < s -> 0 < b -> b <= N ->
  (In t (sq_tiles N b s) <-> exists k l, t = (k * s, l * s) /\ k * s + b <= N /\ l * s + b <= N).
Proof.
  intros Hs Hb HN. unfold sq_tiles, c_tiles. rewrite in_grid, !in_steps by exact Hs. split.
  - intros [(k & E1 & L1) (l & E2 & L2)]. exists k, l. destruct t as [i j]. cbn [fst snd] in *. subst.
    split; [reflexivity|]. lia.
  - intros (k & l & -> & L1 & L2). cbn [fst snd]. split; [exists k|exists l]; split; lia.
Qed.

Lemma cell_square N uv : fst uv < N -> snd uv < N -> cell N N uv = Some (fst uv * N + snd uv).
Proof. intros H1 H2. apply cell_ok. split; [exact H1|]. split; [nia|reflexivity]. Qed.

Lemma hit_square N i j s x y : i + s <= N -> j + s <= N -> y < N ->
  hit N N (window i j s) (x * N + y) = ((i <=? x) && (x <? i + s) && (j <=? y) && (y <? j + s)).
Proof.
  intros Hi Hj Hy. unfold hit. apply eq_true_iff_eq. rewrite existsb_exists, !andb_true_iff.
  rewrite !Nat.leb_le, !Nat.ltb_lt. split.
  - intros ([u v] & Hin & E). apply in_window in Hin as [H1 H2]. cbn [fst snd] in *.
    rewrite cell_square in E by (cbn [fst snd]; lia). apply Nat.eqb_eq in E. cbn [fst snd] in E.
    assert (u = x) by nia. subst. assert (v = y) by lia. subst. lia.
  - intros H. exists (x, y). split; [apply in_window; cbn [fst snd]; lia|].
    rewrite cell_square by (cbn [fst snd]; lia). apply Nat.eqb_refl.
Qed.

Lemma div_tile x s k : 0 < s -> k * s <= x -> x < k * s + s -> x / s = k.
Proof. intros Hs H1 H2. symmetry. apply (Nat.div_unique x s k (x - k * s)); lia. Qed.

Lemma tile_of x s : 0 < s -> x / s * s <= x /\ x < x / s * s + s.
Proof. intros Hs. pose proof (Nat.div_mod x s ltac:(lia)). pose proof (Nat.mod_upper_bound x s ltac:(lia)). nia. Qed.

(** Whether a pixel belongs to a tile. *)
Definition covered (N b s x : nat) : Prop := x / s * s + b <= N.

Lemma covered_inner N b s x : 0 < s -> x + b <= N -> covered N b s x.
Proof. intros Hs H. unfold covered. pose proof (tile_of x s Hs). lia. Qed.

(** A loop over the tiles of a square image, 1 <= s <= b <= N. *)
Lemma square_fold {A} N b s (g : nat * nat -> res A) (val : nat * nat -> A) out0 :
  0 < s -> s <= b -> b <= N -> (forall t, In t (sq_tiles N b s) -> g t = Ok (val t)) ->
  exists out, tile_fold N N s g (sq_tiles N b s) out0 = Ok out /\
    (forall x y, y < N -> covered N b s x -> covered N b s y -> out (x * N + y) = val (x / s * s, y / s * s)) /\
    (forall x y, y < N -> ~ (covered N b s x /\ covered N b s y) -> out (x * N + y) = out0 (x * N + y)).
Proof.
  intros Hs Hb HN Hg.
  destruct (tile_fold_spec N N s g val (sq_tiles N b s) out0 Hg) as (out & Ho & H1 & H2).
  { intros t uv Ht Hin. apply in_sq_tiles in Ht as (k & l & -> & L1 & L2); try lia.
    apply in_window in Hin. cbn [fst snd] in Hin. rewrite cell_square by lia. discriminate. }
  exists out. split; [exact Ho|]. split.
  - intros x y Hy Cx Cy. unfold covered in *. apply H1.
    + apply in_sq_tiles; try lia. exists (x / s), (y / s). auto.
    + cbn [fst snd]. rewrite hit_square by lia. pose proof (tile_of x s Hs). pose proof (tile_of y s Hs).
      rewrite !andb_true_iff, !Nat.leb_le, !Nat.ltb_lt. lia.
    + intros t' Ht' Hh. apply in_sq_tiles in Ht' as (k & l & -> & L1 & L2); try lia.
      cbn [fst snd] in Hh. rewrite hit_square in Hh by lia.
      rewrite !andb_true_iff, !Nat.leb_le, !Nat.ltb_lt in Hh.
      rewrite (div_tile x s k), (div_tile y s l) by lia. reflexivity.
  - intros x y Hy NC. apply H2. intros t Ht. apply in_sq_tiles in Ht as (k & l & -> & L1 & L2); try lia.
    cbn [fst snd]. rewrite hit_square by lia. destruct (_ && _) eqn:E; [|reflexivity]. exfalso. apply NC.
    rewrite !andb_true_iff, !Nat.leb_le, !Nat.ltb_lt in E. unfold covered.
    rewrite (div_tile x s k), (div_tile y s l) by lia. auto.
Qed.

Lemma read_square N b s buf t : 0 < s -> 0 < b -> b <= N -> In t (sq_tiles N b s) ->
  mapM (cread N N buf) (window (fst t) (snd t) b) = Ok (tile_vals N b buf t).
Proof.
  intros Hs Hb HN Ht. apply in_sq_tiles in Ht as (k & l & -> & L1 & L2); try lia.
  apply read_tile. intros uv Hin. apply in_window in Hin. cbn [fst snd] in *. rewrite cell_square by lia. discriminate.
Qed.

(** getstatistics of a square image. *)
Definition block_stats (N b : nat) (buf : nat -> R) (t : nat * nat) : stat3 :=
  let l := tile_vals N b buf t in (std1 l, Fin (skew l), Fin (kurt l)).

Lemma getstatistics_square N b s buf out0 : 0 < s -> s <= b -> b <= N ->
  exists out, getstatistics N N b s buf out0 = Ok out /\
    (forall x y, y < N -> covered N b s x -> covered N b s y ->
       out (x * N + y) = block_stats N b buf (x / s * s, y / s * s)) /\
    (forall x y, y < N -> ~ (covered N b s x /\ covered N b s y) -> out (x * N + y) = out0 (x * N + y)).
Proof.
  intros Hs Hb HN.
  set (g := fun t => let* vals := mapM (cread N N buf) (window (fst t) (snd t) b) in
             Ok (std1 vals, Fin (skew vals), Fin (kurt vals))).
  destruct (square_fold N b s g (block_stats N b buf) out0 Hs Hb HN) as (out & Ho & H1 & H2).
  { intros t Ht. unfold g. rewrite (read_square N b s) by (auto; lia). reflexivity. }
  exists out. split; [|split; assumption].
  etransitivity; [|exact Ho]. unfold getstatistics, tile_fold, sq_tiles. clear.
  apply foldM_ext. intros o t. unfold getstat_tile, g. destruct (mapM (cread N N buf) _); reflexivity.
Qed.

(** minstd of a square image. *)
Definition block_std (N b : nat) (buf : nat -> R) (t : nat * nat) : ext := std1 (tile_vals N b buf t).

Lemma foldM_pair n m b s buf tiles t0 o0 tf of :
  tile_fold n m s (fun t => let* vals := mapM (cread n m buf) (window (fst t) (snd t) b) in Ok (std1 vals)) tiles t0 = Ok tf ->
  tile_fold n m s (fun t => let* vals := mapM (cread n m buf) (window (fst t) (snd t) b) in Ok (std1 vals)) tiles o0 = Ok of ->
  foldM (minstd_pass1 n m b s buf) tiles (t0, o0) = Ok (tf, of).
Proof.
  revert t0 o0; induction tiles as [|t tiles IH]; intros t0 o0; unfold tile_fold; cbn [foldM].
  - intros H1 H2. injection H1 as <-. injection H2 as <-. reflexivity.
  - unfold minstd_pass1 at 1. destruct (mapM _ _) as [vals|]; cbn [bind fst snd]; [|discriminate].
    destruct (foldM _ (window _ _ _) t0) as [t1|]; cbn [bind]; [|discriminate].
    destruct (foldM _ (window _ _ _) o0) as [o1|]; cbn [bind]; [|discriminate].
    apply IH.
Qed.

(** The search loop. *)
Lemma in_search u i b s : In u (search i b s) <-> exists k, u = i + k * (s + 1) /\ u < b / 2.
Proof.
  unfold search. rewrite in_map_iff. split.
  - intros (k & <- & H). apply in_seq in H. exists k. split; [reflexivity|].
    assert (k * (s + 1) < b / 2 - i).
    { apply (ceil_div (b / 2 - i) (s + 1) k); [lia|].
      replace (b / 2 - i + (s + 1) - 1) with (b / 2 - i + s) by lia. lia. }
    lia.
  - intros (k & -> & H). exists k. split; [reflexivity|]. apply in_seq. split; [lia|]. simpl.
    assert (K : k < (b / 2 - i + (s + 1) - 1) / (s + 1)) by (apply ceil_div; lia).
    replace (b / 2 - i + (s + 1) - 1) with (b / 2 - i + s) in K by lia. exact K.
Qed.

Lemma search_empty i b s : b / 2 <= i -> search i b s = [].
Proof.
  intros H. destruct (search i b s) as [|u l] eqn:E; [reflexivity|].
  assert (Hin : In u (search i b s)) by (rewrite E; left; reflexivity).
  apply in_search in Hin as (k & -> & L). lia.
Qed.

(** The value chosen by the search: the first of the smallest, starting from the block's own. *)
Definition search_min (tmp : nat * nat -> ext) (b s : nat) (t : nat * nat) : ext :=
  fold_left (fun val uv => if ext_ltb (tmp uv) val then tmp uv else val)
    (grid (search (fst t) b s) (search (snd t) b s)) (tmp t).

Lemma search_fold n m tmp l v0 : (forall uv, In uv l -> cell n m uv <> None) ->
  foldM (fun val uv => let* x := cread n m tmp uv in Ok (if ext_ltb x val then x else val)) l v0
  = Ok (fold_left (fun val uv => if ext_ltb (tmp (fst uv * m + snd uv)) val then tmp (fst uv * m + snd uv) else val) l v0).
Proof.
  revert v0; induction l as [|uv l IH]; intros v0 H; [reflexivity|]. cbn [foldM fold_left].
  unfold cread at 1. destruct (cell n m uv) as [p|] eqn:E; [|exfalso; exact (H uv (or_introl eq_refl) E)].
  apply cell_ok in E as (_ & _ & ->). cbn [from_opt bind]. apply IH. intros; apply H; right; assumption.
Qed.

Lemma minstd_square N b s buf tmp0 out0 : 0 < s -> s <= b -> b <= N ->
  exists tmp out, minstd N N b s buf tmp0 out0 = Ok out /\
    (forall x y, y < N -> covered N b s x -> covered N b s y ->
       tmp (x * N + y) = block_std N b buf (x / s * s, y / s * s)) /\
    (forall x y, y < N -> ~ (covered N b s x /\ covered N b s y) -> tmp (x * N + y) = tmp0 (x * N + y)) /\
    (forall x y, y < N -> covered N b s x -> covered N b s y ->
       out (x * N + y) = search_min (fun uv => tmp (fst uv * N + snd uv)) b s (x / s * s, y / s * s)) /\
    (forall x y, y < N -> ~ (covered N b s x /\ covered N b s y) -> out (x * N + y) = out0 (x * N + y)).
Proof.
  intros Hs Hb HN.
  set (g := fun t => let* vals := mapM (cread N N buf) (window (fst t) (snd t) b) in Ok (std1 vals)).
  assert (Hg : forall t, In t (sq_tiles N b s) -> g t = Ok (block_std N b buf t)).
  { intros t Ht. unfold g. rewrite (read_square N b s) by (auto; lia). reflexivity. }
  destruct (square_fold N b s g (block_std N b buf) tmp0 Hs Hb HN Hg) as (tmp & Ht & T1 & T2).
  destruct (square_fold N b s g (block_std N b buf) out0 Hs Hb HN Hg) as (o1 & Ho1 & _ & O2).
  set (g2 := fun t => let* v0 := cread N N tmp t in
     foldM (fun val uv => let* x := cread N N tmp uv in Ok (if ext_ltb x val then x else val))
                (grid (search (fst t) b s) (search (snd t) b s)) v0).
  assert (Hg2 : forall t, In t (sq_tiles N b s) ->
    g2 t = Ok (search_min (fun uv => tmp (fst uv * N + snd uv)) b s t)).
  { intros t Hin. apply in_sq_tiles in Hin as (k & l & -> & L1 & L2); try lia. unfold g2, search_min.
    unfold cread at 1. rewrite cell_square by (cbn [fst snd]; lia). cbn [from_opt bind].
    rewrite search_fold; [reflexivity|]. intros uv Huv. apply in_grid in Huv as [H1 H2].
    apply in_search in H1 as (k1 & E1 & B1). apply in_search in H2 as (k2 & E2 & B2).
    assert (b / 2 <= b) by (apply Nat.div_le_upper_bound; lia).
    rewrite cell_square by lia. discriminate. }
  destruct (square_fold N b s g2 _ o1 Hs Hb HN Hg2) as (out & Ho & P1 & P2).
  exists tmp, out. split; [|split; [exact T1|split; [exact T2|split; [exact P1|]]]].
  - unfold minstd. fold (sq_tiles N b s). rewrite (foldM_pair N N b s buf _ _ _ _ _ Ht Ho1). cbn [bind fst snd].
    rewrite <- Ho. unfold tile_fold. clear.
    apply foldM_ext. intros o t. unfold minstd_pass2, g2. destruct (cread N N tmp t); reflexivity.
  - intros x y Hy NC. rewrite P2, O2; auto.
Qed.

