(** Batch and multi-metric runs: properties C51 and C53-C59. *)
From Coq Require Import Reals FinFun.
From Verif Require Import Base NdArray LoadModel LoadProofs NormModel NormProofs PairModel PairProofs BatchModel
  MetricModel NrModel NrProps BatchProofs BatchLoopProofs BatchTraceProofs.

(** Columns of a metric of the given kind and name. *)
Definition columns_of (k : mkind) (name : string) : list string :=
  match k with FullRef => [name] | NoRef => [name ++ "_r"; name ++ "_m"] | OtherKind => [] end%string.

(** A list without repetitions: every element where it occurs first. *)
Fixpoint firsts (l : list string) : list string :=
  match l with
  | [] => []
  | x :: l' => x :: filter (fun y => negb (String.eqb y x)) (firsts l')
  end.

Lemma firsts_NoDup l : NoDup l -> firsts l = l.
Proof.
  induction 1 as [|x l Hx _ IH]; [reflexivity|]. simpl. rewrite IH. f_equal.
  clear IH. induction l as [|y l IH]; [reflexivity|]. simpl.
  destruct (String.eqb y x) eqn:E; [apply String.eqb_eq in E as ->; exfalso; apply Hx; left; reflexivity|].
  simpl. f_equal. apply IH. intros H. apply Hx. right. exact H.
Qed.

(** Keys of a dictionary filled by a list of assignments *)
Lemma dkeys_dupdate_firsts {V} (L d : dict V) :
  dkeys (dupdate d L) = dkeys d ++ filter (fun k => negb (existsb (fun x => String.eqb x k) (dkeys d))) (firsts (dkeys L)).
Proof.
  unfold dupdate. revert d. induction L as [|[k v] L IH]; intros d; simpl; [rewrite app_nil_r; reflexivity|].
  rewrite IH. rewrite dkeys_dset.
  assert (Hf : forall (f g : string -> bool) l, filter f (filter g l) = filter (fun x => f x && g x) l).
  { intros f g l. induction l as [|x l IHl]; [reflexivity|]. simpl. destruct (g x) eqn:G; simpl; rewrite ?G, IHl.
    - rewrite andb_true_r. reflexivity.
    - rewrite andb_false_r. reflexivity. }
  assert (He : forall (f g : string -> bool) l, (forall x, f x = g x) -> filter f l = filter g l).
  { intros f g l E. induction l as [|x l IHl]; [reflexivity|]. simpl. rewrite E, IHl. reflexivity. }
  fold (dkeys L).
  destruct (existsb (fun x => String.eqb x k) (dkeys d)) eqn:E; simpl.
  - f_equal. rewrite Hf. apply He. intros x. destruct (String.eqb x k) eqn:Ek; [|simpl; rewrite andb_true_r; reflexivity].
    apply String.eqb_eq in Ek as ->. rewrite E. reflexivity.
  - rewrite <- app_assoc. simpl. f_equal. f_equal. rewrite Hf. apply He. intros x.
    rewrite existsb_app. simpl. rewrite orb_false_r, negb_orb. f_equal. f_equal. apply String.eqb_sym.
Qed.

Lemma dget_dupdate_other {V} (e : dict V) : forall d k, ~ In k (dkeys e) -> dget (dupdate d e) k = dget d k.
Proof.
  unfold dupdate. induction e as [|[k' v] e IH]; intros d k H; [reflexivity|]. simpl in *. rewrite IH by tauto.
  apply dget_dset_other. intuition congruence.
Qed.

Section props.
Context {M P X F : Type}.
Variable kind_of : M -> mkind.
Variable name_of : M -> option string.
Variable score_fr : M -> P -> norm_out -> norm_out -> res X * M.
Variable score_nr : M -> P -> norm_out -> res X * M.
Variable to_f : X -> res F.
Variable disk : text -> res image.
Variable ident : identity.
Variable ub : R -> Z.
Variable resize : norm_out -> list nat -> dtype -> Z -> res norm_out.

Notation run_metrics := (run_metrics kind_of name_of score_fr score_nr to_f).
Notation multi_calculate := (multi_calculate kind_of name_of score_fr score_nr to_f disk ident ub resize).
Notation batch_calculate := (batch_calculate kind_of name_of score_fr score_nr to_f disk ident ub resize).
Notation alone := (alone kind_of name_of score_fr score_nr to_f disk ident ub resize).
Notation stable := (stable kind_of name_of score_fr score_nr).
Notation history_free := (history_free kind_of name_of score_fr score_nr).

Variables (kw : kwargs) (order : Z) (dir : text).

(** What a run returns. *)
Definition outcome (x : res unit * dict (dict F) * @store M) : res (dict (dict F)) :=
  let* _ := fst (fst x) in Ok (snd (fst x)).

(** The scores of one pair in a batch run of its own, with the given ROI for all images. *)
Definition single (roi : option roi_t) (ms : list (nat * P)) (h : @store M) (pr : pair) : res (dict F) :=
  let* d := outcome (batch_calculate kw order dir None roi ms [pr] [] h) in from_opt KeyError (dget d "0").

(** Scores for all pairs, numbered in order. *)
Definition numbered (ds : list (dict F)) : dict (dict F) := combine (map show (seq 0 (length ds))) ds.

(** The two files of a pair. *)
Definition files (pr : pair) (rp mp : text) : Prop :=
  exists rn mn, p_ref pr = Some rn /\ p_mod pr = Some mn /\ rp = join dir rn /\ mp = join dir mn.

Definition neighbours (Q : nat -> pair -> pair -> Prop) (pairs : list pair) : Prop :=
  forall n pr pr', nth_error pairs n = Some pr -> nth_error pairs (S n) = Some pr' -> Q n pr pr'.

(** Consecutive pairs that share a file share the ROI. *)
Definition roi_kept (rois : option (list (option roi_t))) (global : option roi_t) (n : nat) (pr pr' : pair) : Prop :=
  forall rp mp rp' mp', files pr rp mp -> files pr' rp' mp' -> rp = rp' \/ mp = mp' ->
    pair_roi rois global n = pair_roi rois global (S n).

(** Consecutive pairs that share the modified image either need no resizing or have references of the
    same shape and type. *)
Definition size_kept (pr pr' : pair) : Prop :=
  forall rp rp' mp ir ir' im, files pr rp mp -> files pr' rp' mp ->
    disk rp = Ok ir -> disk rp' = Ok ir' -> disk mp = Ok im ->
    (shape ir = shape im /\ shape ir' = shape im) \/ (shape ir = shape ir' /\ dt ir = dt ir').

Lemma paths_files pr rp mp : paths dir pr = Ok (rp, mp) -> files pr rp mp.
Proof.
  unfold paths. intros H. apply bind_ok in H as (rn & Hr & H). apply bind_ok in H as (mn & Hm & H).
  injection H as <- <-. exists rn, mn. destruct (p_ref pr); [|discriminate Hr]. destruct (p_mod pr); [|discriminate Hm].
  injection Hr as ->. injection Hm as ->. auto.
Qed.

Lemma resize_same r r' m : o_shape r = o_shape r' -> o_type r = o_type r' ->
  resize_image resize r m order = resize_image resize r' m order.
Proof. unfold resize_image. intros -> ->. reflexivity. Qed.

Lemma resize_none r m : o_shape r = o_shape m -> resize_image resize r m order = Ok m.
Proof. unfold resize_image. intros ->. unfold shape_eqb. destruct (list_eq_dec Nat.eq_dec (o_shape m) (o_shape m)); congruence. Qed.

Lemma chain_of rois global pairs :
  neighbours (roi_kept rois global) pairs -> neighbours (fun _ => size_kept) pairs ->
  chain disk ident ub resize kw order dir rois global 0 pairs.
Proof.
  assert (G : forall pairs n, neighbours (fun k => roi_kept rois global (n + k)) pairs -> neighbours (fun _ => size_kept) pairs ->
    chain disk ident ub resize kw order dir rois global n pairs).
  { clear pairs. induction pairs as [|pr pairs IH]; intros n HR HS; [exact I|].
    destruct pairs as [|pr' pairs]; [exact I|]. split.
    - intros rp mp rp' mp' E E'. apply paths_files in E, E'.
      pose proof (HR 0 pr pr' eq_refl eq_refl rp mp rp' mp' E E') as K. rewrite Nat.add_0_r in K.
      split; [intros H; apply K; left; exact H|]. intros H. split; [apply K; right; exact H|]. subst mp'.
      intros r r1 r' r1' m m1 Lr Rr Lr' Rr' Lm Rm.
      apply load_in_path in Lr as (ir & Dr & S1 & T1). apply load_in_path in Lr' as (ir' & Dr' & S1' & T1').
      apply load_in_path in Lm as (im & Dm & S2 & T2). apply reload_type in Rr as [S3 T3].
      apply reload_type in Rr' as [S3' T3']. apply reload_type in Rm as [S4 T4].
      destruct (HS 0 pr pr' eq_refl eq_refl rp rp' mp ir ir' im E E' Dr Dr' Dm) as [[A B]|[A B]].
      + rewrite !resize_none; congruence.
      + apply resize_same; congruence.
    - apply IH.
      + intros k q q' Hq Hq'. specialize (HR (S k) q q' Hq Hq'). simpl in HR. rewrite Nat.add_succ_r in HR. exact HR.
      + intros k q q' Hq Hq'. apply (HS (S k) q q' Hq Hq'). }
  intros HR HS. apply G; [exact HR|exact HS].
Qed.

Lemma pure_loop_ploop rois global ms h n pairs results :
  pure_loop kind_of name_of score_fr score_nr to_f disk ident ub resize kw order dir rois global ms h n pairs results
  = ploop (fun n pr => alone kw order dir ms h (roi_at rois global n) pr) n pairs results.
Proof.
  revert n results. induction pairs as [|pr pairs IH]; intros n results; [reflexivity|]. simpl.
  destruct (alone kw order dir ms h (roi_at rois global n) pr); [apply IH|reflexivity].
Qed.

Lemma single_alone roi ms h pr : history_free h ms -> single roi ms h pr = alone kw order dir ms h (Ok roi) pr.
Proof.
  intros (Inv & H0 & H). unfold single, BatchModel.batch_calculate.
  destruct (batch_loop_pure kind_of name_of score_fr score_nr to_f disk ident ub resize kw order dir None roi ms h Inv H
    [pr] 0 None [] h H0 I I) as (h' & _ & E).
  rewrite E. unfold outcome. simpl. unfold roi_at, pair_roi. destruct roi as [roi|]; simpl;
    destruct (alone kw order dir ms h _ pr); reflexivity.
Qed.

Lemma batch_alone rois global ms h pairs : history_free h ms ->
  neighbours (roi_kept rois global) pairs -> neighbours (fun _ => size_kept) pairs ->
  exists h', batch_calculate kw order dir rois global ms pairs [] h
    = (ploop (fun n pr => alone kw order dir ms h (roi_at rois global n) pr) 0 pairs [], h').
Proof.
  intros (Inv & H0 & H) HR HS. unfold BatchModel.batch_calculate.
  destruct (batch_loop_pure kind_of name_of score_fr score_nr to_f disk ident ub resize kw order dir rois global ms h Inv H
    pairs 0 None [] h H0 (chain_of rois global pairs HR HS)) as (h' & _ & E).
  { destruct pairs; exact I. }
  exists h'. rewrite E, pure_loop_ploop. reflexivity.
Qed.

(** *** C53 *)

(** The two images of every pair have the same shape. *)
Definition equal_shapes (pairs : list pair) : Prop :=
  forall pr rp mp ir im, In pr pairs -> files pr rp mp -> disk rp = Ok ir -> disk mp = Ok im -> shape ir = shape im.

Lemma equal_shapes_size pairs : equal_shapes pairs -> neighbours (fun _ => size_kept) pairs.
Proof.
  intros H n pr pr' Hn Hn' rp rp' mp ir ir' im E E' D D' Dm. left.
  split; [apply (H pr rp mp)|apply (H pr' rp' mp)]; try assumption; eapply nth_error_In; eassumption.
Qed.

Lemma roi_global global pairs : neighbours (roi_kept None global) pairs.
Proof. intros n pr pr' _ _ rp mp rp' mp' _ _ _. reflexivity. Qed.

Theorem C53_single global ms h pairs :
  history_free h ms -> equal_shapes pairs ->
  outcome (batch_calculate kw order dir None global ms pairs [] h)
  = let* ds := mapM (single global ms h) pairs in Ok (numbered ds).
Proof.
  intros Hf He. destruct (batch_alone None global ms h pairs Hf (roi_global global pairs) (equal_shapes_size pairs He))
    as (h' & ->).
  pose proof (ploop_ok (fun n pr => alone kw order dir ms h (roi_at None global n) pr) pairs 0 [] ltac:(intros k [])) as Hp.
  unfold outcome. cbn [fst snd].
  assert (Ea : forall n pr, alone kw order dir ms h (roi_at None global n) pr = single global ms h pr).
  { intros n pr. rewrite single_alone by exact Hf. destruct global; reflexivity. }
  destruct (ploop _ 0 pairs []) as [[[]|e] out]; cbn [fst snd bind].
  - destruct Hp as (ds & Hlen & -> & Hn).
    assert (E : mapM (single global ms h) pairs = Ok ds).
    { clear -Hlen Hn Ea. revert ds Hlen Hn. induction pairs as [|pr pairs IH]; intros [|d ds] Hlen Hn; try discriminate Hlen; [reflexivity|].
      simpl. destruct (Hn 0 pr eq_refl) as (d' & Hd & A). injection Hd as <-. rewrite Ea in A. rewrite A. simpl.
      rewrite (IH ds); [reflexivity|simpl in Hlen; congruence|].
      intros i q Hq. destruct (Hn (S i) q Hq) as (d' & Hd & A'). exists d'. split; [exact Hd|]. rewrite Ea in A' |- *. exact A'. }
    rewrite E. simpl. unfold numbered. rewrite Hlen. reflexivity.
  - destruct Hp as (i & pr & Hi & A & Hb). rewrite Ea in A.
    assert (E : mapM (single global ms h) pairs = Err e).
    { clear -Hi A Hb Ea. revert i Hi Hb. induction pairs as [|q pairs IH]; intros [|i] Hi Hb; try discriminate Hi; simpl in *.
      - injection Hi as ->. rewrite A. reflexivity.
      - destruct (Hb 0 q ltac:(lia) eq_refl) as (d & D). rewrite Ea in D. rewrite D. simpl.
        rewrite (IH i Hi); [reflexivity|]. intros j q' Hj Hq'. destruct (Hb (S j) q' ltac:(lia) Hq') as (d' & D').
        exists d'. rewrite Ea in D' |- *. exact D'. }
    rewrite E. reflexivity.
Qed.

(** ... and these are the scores of MultipleMetrics for the two files. *)
Theorem C53_multiple global ms h pr rp mp :
  history_free h ms -> k_norm kw = false -> k_chromatic kw = false -> files pr rp mp ->
  single global ms h pr = fst (multi_calculate kw order global (InPath rp) (InPath mp) ms h).
Proof.
  intros Hf Hn Hc (rn & mn & Er & Em & -> & ->). rewrite single_alone by exact Hf.
  destruct Hf as (Inv & H0 & H). unfold BatchModel.multi_calculate.
  destruct (calc_pure kind_of name_of score_fr score_nr to_f disk ident ub resize kw order ms h Inv H global None None
    (load_in disk ident ub kw (InPath (join dir rn))) (load_in disk ident ub kw (InPath (join dir mn))) h H0) as (h' & _ & ->).
  { intros a b _. split; exact I. }
  simpl. unfold BatchLoopProofs.alone, paths. rewrite Er, Em. simpl.
  destruct (load_in disk ident ub kw (InPath (join dir rn))) as [r|e] eqn:Lr; [|reflexivity]. simpl.
  destruct (load_in disk ident ub kw (InPath (join dir mn))) as [m|e] eqn:Lm; [|reflexivity]. simpl.
  rewrite (reload_plain disk ident ub kw _ _ (conj Hn Hc) Lr), (reload_plain disk ident ub kw _ _ (conj Hn Hc) Lm).
  reflexivity.
Qed.

(** *** C54 *)

Theorem C54_same_roi rois global ms h pairs results h' :
  history_free h ms -> neighbours (roi_kept rois global) pairs -> neighbours (fun _ => size_kept) pairs ->
  batch_calculate kw order dir rois global ms pairs [] h = (Ok tt, results, h') ->
  dkeys results = map show (seq 0 (length pairs)) /\
  forall n pr, nth_error pairs n = Some pr ->
    exists roi d, pair_roi rois global n = Ok roi /\ dget results (show n) = Some d /\ single roi ms h pr = Ok d.
Proof.
  intros Hf HR HS H. destruct (batch_alone rois global ms h pairs Hf HR HS) as (h'' & E). rewrite E in H. clear E.
  pose proof (ploop_ok (fun n pr => alone kw order dir ms h (roi_at rois global n) pr) pairs 0 [] ltac:(intros k [])) as Hp.
  destruct (ploop _ 0 pairs []) as [x out]. injection H as -> -> ->.
  destruct Hp as (ds & Hlen & -> & Hn). simpl.
  assert (Hk : dkeys (combine (map show (seq 0 (length pairs))) ds) = map show (seq 0 (length pairs))).
  { clear -Hlen. unfold dkeys. assert (L : length (map show (seq 0 (length pairs))) = length ds)
      by (rewrite map_length, seq_length; congruence).
    revert ds Hlen L. generalize (map show (seq 0 (length pairs))). intros l ds _. revert ds.
    induction l as [|x l IH]; intros [|d ds] L; try discriminate L; [reflexivity|]. simpl. rewrite IH by (simpl in L; congruence). reflexivity. }
  split; [exact Hk|]. intros n pr Hpr. destruct (Hn n pr Hpr) as (d & Hd & A). simpl in A.
  assert (Hlt : n < length pairs) by (apply nth_error_Some; congruence).
  unfold roi_at in A. destruct (pair_roi rois global n) as [roi|e] eqn:Er.
  - exists roi, d. split; [reflexivity|]. split; [|rewrite single_alone; assumption].
    apply dget_nth with (i := n); [rewrite Hk; apply NoDup_shows|].
    rewrite combine_nth_error by (rewrite map_length, seq_length; congruence).
    rewrite nth_error_map, nth_error_nth' with (d := 0) by (rewrite seq_length; exact Hlt).
    rewrite seq_nth by exact Hlt. simpl. rewrite Hd. reflexivity.
  - exfalso. unfold BatchLoopProofs.alone in A. apply bind_ok in A as ([? ?] & _ & A).
    apply bind_ok in A as (? & _ & A). apply bind_ok in A as (? & _ & A). apply bind_ok in A as (? & A & _). discriminate A.
Qed.

(** A run that fails does so at the first pair that fails alone. *)
Theorem C54_failure rois global ms h pairs results h' e :
  history_free h ms -> neighbours (roi_kept rois global) pairs -> neighbours (fun _ => size_kept) pairs ->
  (forall n, n < length pairs -> exists roi, pair_roi rois global n = Ok roi) ->
  batch_calculate kw order dir rois global ms pairs [] h = (Err e, results, h') ->
  exists n pr roi, nth_error pairs n = Some pr /\ pair_roi rois global n = Ok roi /\ single roi ms h pr = Err e /\
    forall i q, i < n -> nth_error pairs i = Some q ->
      exists roi' d, pair_roi rois global i = Ok roi' /\ single roi' ms h q = Ok d.
Proof.
  intros Hf HR HS Hroi H. destruct (batch_alone rois global ms h pairs Hf HR HS) as (h'' & E). rewrite E in H. clear E.
  pose proof (ploop_ok (fun n pr => alone kw order dir ms h (roi_at rois global n) pr) pairs 0 [] ltac:(intros k [])) as Hp.
  destruct (ploop _ 0 pairs []) as [x out]. injection H as -> _ _.
  destruct Hp as (n & pr & Hn & A & Hb). simpl in A, Hb. exists n, pr.
  destruct (Hroi n) as (roi & Er); [apply nth_error_Some; congruence|].
  exists roi. unfold roi_at in A. rewrite Er in A. rewrite single_alone by exact Hf.
  split; [exact Hn|]. split; [exact Er|]. split; [exact A|].
  intros i q Hi Hq. destruct (Hroi i) as (roi' & Er'); [apply nth_error_Some; congruence|].
  destruct (Hb i q Hi Hq) as (d & Hd). unfold roi_at in Hd. rewrite Er' in Hd. exists roi', d.
  rewrite single_alone by exact Hf. auto.
Qed.

(** Every successful run, seen as a sequence of results *)
Lemma trace rois global ms h pairs results h' : stable h ms ->
  batch_calculate kw order dir rois global ms pairs [] h = (Ok tt, results, h') ->
  exists cs, linked kind_of name_of h ms dir None pairs cs /\ length cs = length pairs /\
    results = combine (map show (seq 0 (length pairs))) (map c_last cs) /\
    dkeys results = map show (seq 0 (length pairs)) /\
    forall n c, nth_error cs n = Some c -> dget results (show n) = Some (c_last c).
Proof.
  intros (Inv & H0 & Hs) H. unfold BatchModel.batch_calculate in H.
  destruct (batch_loop_trace kind_of name_of score_fr score_nr to_f disk ident ub resize h ms Inv Hs kw order dir rois global
    pairs 0 None [] h results h' H0 H) as (cs & Hl & Hlen & E).
  exists cs. split; [exact Hl|]. split; [exact Hlen|].
  assert (Hk : forall l (ds : list (dict F)), length l = length ds -> dkeys (combine l ds) = l).
  { clear. induction l as [|x l IH]; intros [|d ds] L; try discriminate L; [reflexivity|].
    unfold dkeys in *. simpl. rewrite IH by (simpl in L; congruence). reflexivity. }
  assert (L1 : length (map show (seq 0 (length pairs))) = length (map c_last cs))
    by (rewrite !map_length, seq_length; congruence).
  specialize (Hk _ _ L1).
  rewrite dupdate_fresh in E; [|rewrite Hk; apply NoDup_shows|intros k _ []]. simpl in E.
  split; [exact E|]. split; [rewrite E; exact Hk|].
  intros n c Hc. assert (Hlt : n < length pairs) by (rewrite <- Hlen; apply nth_error_Some; congruence).
  apply dget_nth with (i := n); [rewrite E, Hk; apply NoDup_shows|].
  rewrite E, combine_nth_error by exact L1.
  rewrite !nth_error_map, nth_error_nth' with (d := 0) by (rewrite seq_length; exact Hlt).
  rewrite seq_nth by exact Hlt. simpl. rewrite Hc. reflexivity.
Qed.

(** Two consecutive identical pairs always get the same results, whatever their ROIs. *)
Theorem C54_identical rois global ms h pairs results h' n pr :
  stable h ms -> batch_calculate kw order dir rois global ms pairs [] h = (Ok tt, results, h') ->
  nth_error pairs n = Some pr -> nth_error pairs (S n) = Some pr ->
  exists d, dget results (show n) = Some d /\ dget results (show (S n)) = Some d.
Proof.
  intros Hs H Hn Hn'. destruct (trace _ _ _ _ _ _ _ Hs H) as (cs & Hl & _ & _ & _ & Hg).
  destruct (linked_nth _ _ _ _ _ _ _ _ _ _ _ Hl Hn Hn') as (c1 & c2 & N1 & N2 & P1 & P2 & S2).
  exists (c_last c1). split; [apply Hg, N1|]. rewrite (Hg _ _ N2). f_equal.
  rewrite P1 in P2. injection P2 as E1 E2.
  destruct S2 as [(c0 & E & _ & _ & El)|(Hd & _)]; [injection E as <-; exact El|].
  exfalso. apply (Hd c1 eq_refl); assumption.
Qed.

Lemma F2_nth {A B} (Q : A -> B -> Prop) l l' : Forall2 Q l l' -> forall i y, nth_error l' i = Some y ->
  exists x, nth_error l i = Some x /\ Q x y.
Proof.
  induction 1 as [|x y l l' H _ IH]; intros [|i] z Hz; try discriminate Hz; simpl in *.
  - injection Hz as <-. eauto.
  - apply IH, Hz.
Qed.

Lemma suffixes_differ : forall a b, (a ++ "_r" <> b ++ "_m")%string.
Proof.
  induction a as [|c a IH]; intros [|c' b]; simpl; try discriminate.
  - intros H. injection H as _ H. destruct b as [|c'' b]; [discriminate H|]. injection H as _ H. destruct b; discriminate H.
  - intros H. injection H as _ H. destruct a as [|c'' a]; [discriminate H|]. injection H as _ H. destruct a; discriminate H.
  - intros H. injection H as _ H. exact (IH _ H).
Qed.

(** The score of an image repeated from the previous pair is the previous one. *)
Lemma reused s rois global ms h pairs results h' n pr pr' f f1 f2 id p nm :
  s = SideR \/ s = SideM ->
  stable h ms -> batch_calculate kw order dir rois global ms pairs [] h = (Ok tt, results, h') ->
  nth_error pairs n = Some pr -> nth_error pairs (S n) = Some pr' ->
  match s with SideR => files pr f f1 /\ files pr' f f2 | _ => files pr f1 f /\ files pr' f2 f end ->
  In (id, p) ms -> kind_of (h id) = NoRef -> name_of (h id) = Some nm ->
  (forall id' p', In (id', p') ms -> kind_of (h id') = FullRef -> name_of (h id') <> Some (nm ++ suffix_of s)%string) ->
  exists d d' v, dget results (show n) = Some d /\ dget results (show (S n)) = Some d' /\
    dget d (nm ++ suffix_of s) = Some v /\ dget d' (nm ++ suffix_of s) = Some v.
Proof.
  intros Hside Hs H Hn Hn' Hfiles Hin Hk Hnm Hfr. destruct (trace _ _ _ _ _ _ _ Hs H) as (cs & Hl & _ & _ & _ & Hg).
  assert (Hcol : forall prev_r prev_m (L : dict F), written name_of h prev_r prev_m (slots kind_of h ms) L ->
    exists v, dget (dupdate [] L) (nm ++ suffix_of s) = Some v /\
      forall d, prev_of (P:=P) prev_r prev_m (s, (id, p)) = Some d -> dget d (nm ++ suffix_of s) = Some v).
  { intros prev_r prev_m L W. pose proof (written_keys _ _ _ _ _ _ W) as HK.
    assert (Hsl : In (s, (id, p)) (slots kind_of h ms)).
    { unfold slots. apply in_flat_map. exists (id, p). split; [exact Hin|]. unfold slots_of. simpl. rewrite Hk.
      destruct Hside as [->| ->]; simpl; auto. }
    assert (Hkey : key_of name_of h (s, (id, p)) = Ok (nm ++ suffix_of s)%string).
    { unfold key_of. simpl. rewrite Hnm. simpl. destruct Hside as [->| ->]; reflexivity. }
    assert (Hin' : In (nm ++ suffix_of s)%string (dkeys L)).
    { apply In_nth_error in Hsl as (i & Hi). destruct (mapM_nth _ _ _ HK) as [_ N].
      destruct (N i _ Hi) as (k & Hki & Ek). rewrite Hkey in Ek. injection Ek as <-. eapply nth_error_In, Hki. }
    destruct (last_pos (V:=F) _ _ Hin') as (j & _ & Hj). destruct (Hj L eq_refl) as (v & HLj & Hv).
    exists v. split; [exact Hv|]. intros d Hd. destruct (F2_nth _ _ _ W j _ HLj) as (s' & Hs' & Ek & Hc).
    simpl in Ek, Hc. apply Hc. rewrite <- Hd. destruct s' as [sd [id' p']].
    apply nth_error_In in Hs'. unfold slots in Hs'. apply in_flat_map in Hs' as ([id2 p2] & Hms & Hs').
    unfold slots_of in Hs'. simpl in Hs'. unfold key_of in Ek. simpl in Ek.
    destruct (name_of (h id')) as [nm'|] eqn:Enm'; [|discriminate Ek]. simpl in Ek. injection Ek as Ek.
    unfold prev_of. simpl. destruct sd.
    - destruct Hside as [->| ->]; [reflexivity|]. exfalso. exact (suffixes_differ _ _ Ek).
    - destruct Hside as [->| ->]; [|reflexivity]. exfalso. exact (suffixes_differ _ _ (eq_sym Ek)).
    - exfalso. destruct (kind_of (h id2)) eqn:K2; simpl in Hs'.
      + destruct Hs' as [E|[]]. injection E as <- <-. apply (Hfr id2 p2 Hms K2). rewrite Enm'. f_equal. exact Ek.
      + destruct Hs' as [E|[E|[]]]; discriminate E.
      + destruct Hs'. }
  assert (Hall : forall n c, nth_error cs n = Some c -> exists v, dget (c_last c) (nm ++ suffix_of s) = Some v).
  { clear Hn Hn'. assert (G : forall pairs cs (c0 : option (@cache F)), linked kind_of name_of h ms dir c0 pairs cs ->
      match c0 with Some c => exists v, dget (c_last c) (nm ++ suffix_of s) = Some v | None => True end ->
      forall n c, nth_error cs n = Some c -> exists v, dget (c_last c) (nm ++ suffix_of s) = Some v).
    { clear -Hcol. induction pairs as [|q pairs IH]; intros [|c1 cs] c0 Hl H0 n c Hc;
      [destruct n; discriminate Hc|destruct Hl|destruct Hl|]; destruct Hl as [Hst Hl].
      assert (H1 : exists v, dget (c_last c1) (nm ++ suffix_of s) = Some v).
      { destruct Hst as [_ [(c2 & -> & _ & _ & ->)|(_ & L & W & ->)]]; [exact H0|].
        destruct (Hcol _ _ _ W) as (v & Hv & _). eauto. }
      destruct n as [|n]; [injection Hc as <-; exact H1|]. eapply (IH cs (Some c1)); eassumption. }
    exact (G _ _ _ Hl I). }
  destruct (linked_nth _ _ _ _ _ _ _ _ _ _ _ Hl Hn Hn') as (c1 & c2 & N1 & N2 & P1 & P2 & S2).
  apply paths_files in P1, P2. destruct P1 as (r1 & m1 & A1 & A2 & A3 & A4), P2 as (r2 & m2 & B1 & B2 & B3 & B4).
  destruct (Hall _ _ N1) as (v1 & Hv1).
  exists (c_last c1), (c_last c2), v1. split; [apply Hg, N1|]. split; [apply Hg, N2|]. split; [exact Hv1|].
  destruct S2 as [(c0 & E & _ & _ & El)|(_ & L & W & El)]; [injection E as <-; rewrite El; exact Hv1|].
  destruct (Hcol _ _ _ W) as (v & Hv & Hprev). rewrite El, Hv. f_equal.
  assert (Hp : prev_of (P:=P) (last_of (same (Some c1) c_rpath (c_rpath c2))) (last_of (same (Some c1) c_mpath (c_mpath c2)))
             (s, (id, p)) = Some (c_last c1)).
  { unfold prev_of. destruct Hside as [->| ->]; cbn [fst]; destruct Hfiles as [(r3 & m3 & C1 & C2 & C3 & C4) (r4 & m4 & D1 & D2 & D3 & D4)].
    - assert (E : c_rpath c2 = c_rpath c1) by congruence. unfold same. rewrite E.
      rewrite (proj2 (text_eqb_eq _ _) eq_refl). reflexivity.
    - assert (E : c_mpath c2 = c_mpath c1) by congruence. unfold same. rewrite E.
      rewrite (proj2 (text_eqb_eq _ _) eq_refl). reflexivity. }
  specialize (Hprev _ Hp). congruence.
Qed.

Theorem C54_reused rois global ms h pairs results h' n pr pr' rp mp mp' id p nm :
  stable h ms -> batch_calculate kw order dir rois global ms pairs [] h = (Ok tt, results, h') ->
  nth_error pairs n = Some pr -> nth_error pairs (S n) = Some pr' -> files pr rp mp -> files pr' rp mp' ->
  In (id, p) ms -> kind_of (h id) = NoRef -> name_of (h id) = Some nm ->
  (forall id' p', In (id', p') ms -> kind_of (h id') = FullRef -> name_of (h id') <> Some (nm ++ "_r")%string) ->
  exists d d' v, dget results (show n) = Some d /\ dget results (show (S n)) = Some d' /\
    dget d (nm ++ "_r") = Some v /\ dget d' (nm ++ "_r") = Some v.
Proof. intros. eapply (reused SideR); eauto. Qed.

(** *** C55 *)
Theorem C55_reused rois global ms h pairs results h' n pr pr' rp rp' mp id p nm :
  stable h ms -> batch_calculate kw order dir rois global ms pairs [] h = (Ok tt, results, h') ->
  nth_error pairs n = Some pr -> nth_error pairs (S n) = Some pr' -> files pr rp mp -> files pr' rp' mp ->
  In (id, p) ms -> kind_of (h id) = NoRef -> name_of (h id) = Some nm ->
  (forall id' p', In (id', p') ms -> kind_of (h id') = FullRef -> name_of (h id') <> Some (nm ++ "_m")%string) ->
  exists d d' v, dget results (show n) = Some d /\ dget results (show (S n)) = Some d' /\
    dget d (nm ++ "_m") = Some v /\ dget d' (nm ++ "_m") = Some v.
Proof. intros. eapply (reused SideM); eauto. Qed.

(** *** C56 *)

(** Columns of the metrics of the list, in order. *)
Definition columns (h : @store M) (ms : list (nat * P)) : list string :=
  flat_map (fun e => match name_of (h (fst e)) with Some n => columns_of (kind_of (h (fst e))) n | None => [] end) ms.

Lemma keys_columns h ms K : mapM (key_of name_of h) (slots (P:=P) kind_of h ms) = Ok K -> K = columns h ms.
Proof.
  revert K. induction ms as [|[id p] ms IH]; intros K H; simpl in H; [injection H as <-; reflexivity|].
  unfold slots in H. simpl in H. rewrite mapM_app in H. apply bind_ok in H as (K1 & H1 & H). apply bind_ok in H as (K2 & H2 & H).
  injection H as <-. rewrite (IH K2 H2). unfold columns. simpl. f_equal.
  unfold slots_of in H1. simpl in H1. destruct (kind_of (h id)); simpl in H1.
  - unfold key_of in H1. simpl in H1. destruct (name_of (h id)); [|discriminate H1]. simpl in H1. injection H1 as <-. reflexivity.
  - unfold key_of in H1. simpl in H1. destruct (name_of (h id)); [|discriminate H1]. simpl in H1. injection H1 as <-. reflexivity.
  - injection H1 as <-. destruct (name_of (h id)); reflexivity.
Qed.

Lemma written_columns h ms prev_r prev_m (L : dict F) :
  written name_of h prev_r prev_m (slots kind_of h ms) L ->
  dkeys (dupdate [] L) = firsts (columns h ms).
Proof.
  intros W. apply written_keys in W. apply keys_columns in W. rewrite dkeys_dupdate_firsts, W. simpl.
  clear. induction (firsts (columns h ms)) as [|x l IH]; [reflexivity|]. simpl. rewrite IH. reflexivity.
Qed.

Lemma linked_columns h ms pairs : forall cs (c0 : option (@cache F)), linked kind_of name_of h ms dir c0 pairs cs ->
  match c0 with Some c => dkeys (c_last c) = firsts (columns h ms) /\ NoDup (dkeys (c_last c)) | None => True end ->
  forall n c, nth_error cs n = Some c -> dkeys (c_last c) = firsts (columns h ms) /\ NoDup (dkeys (c_last c)).
Proof.
  induction pairs as [|q pairs IH]; intros [|c1 cs] c0 Hl H0 n c Hc;
      [destruct n; discriminate Hc|destruct Hl|destruct Hl|]; destruct Hl as [Hst Hl].
  assert (H1 : dkeys (c_last c1) = firsts (columns h ms) /\ NoDup (dkeys (c_last c1))).
  { destruct Hst as [_ [(c2 & -> & _ & _ & ->)|(_ & L & W & ->)]]; [exact H0|].
    split; [apply written_columns in W; exact W|apply NoDup_dupdate; constructor]. }
  destruct n as [|n]; [injection Hc as <-; exact H1|]. eapply (IH cs (Some c1)); eassumption.
Qed.

Theorem C56_results rois global ms h pairs results h' :
  stable h ms -> batch_calculate kw order dir rois global ms pairs [] h = (Ok tt, results, h') ->
  dkeys results = map show (seq 0 (length pairs)) /\
  forall n, n < length pairs -> exists d, dget results (show n) = Some d /\ dkeys d = firsts (columns h ms).
Proof.
  intros Hs H. destruct (trace _ _ _ _ _ _ _ Hs H) as (cs & Hl & Hlen & _ & Hk & Hg).
  split; [exact Hk|]. intros n Hn. destruct (nth_error cs n) as [c|] eqn:E; [|apply nth_error_None in E; lia].
  exists (c_last c). split; [apply Hg, E|]. eapply linked_columns; [exact Hl|exact I|exact E].
Qed.

Theorem C56_distinct rois global ms h pairs results h' n :
  stable h ms -> NoDup (columns h ms) -> batch_calculate kw order dir rois global ms pairs [] h = (Ok tt, results, h') ->
  n < length pairs -> exists d, dget results (show n) = Some d /\ dkeys d = columns h ms.
Proof.
  intros Hs Hd H Hn. destruct (C56_results _ _ _ _ _ _ _ Hs H) as [_ G]. destruct (G n Hn) as (d & ? & E).
  exists d. split; [assumption|]. rewrite E. apply firsts_NoDup, Hd.
Qed.

(** *** C57 *)

Lemma export_rows_ok pairs : forall ds n, n + length ds <= length pairs ->
  exists rows, export_rows pairs (combine (map show (seq n (length ds))) ds) = (rows, Ok tt) /\
    length rows = length ds /\
    forall i d pr, nth_error ds i = Some d -> nth_error pairs (n + i) = Some pr ->
      nth_error rows i = Some (CText (show (n + i)) :: CFile (p_ref pr) :: CFile (p_mod pr) :: map (@CNum F) (dvals d)).
Proof.
  induction ds as [|d ds IH]; intros n Hn; simpl; [exists []; split; [reflexivity|split; [reflexivity|intros [|i]; discriminate]]|].
  simpl in Hn. rewrite read_show. simpl. destruct (nth_error pairs n) as [pr|] eqn:E; [|apply nth_error_None in E; lia].
  simpl. destruct (IH (S n) ltac:(lia)) as (rows & -> & Hlen & Hr). eexists. split; [reflexivity|]. split; [simpl; congruence|].
  intros [|i] d' pr' Hd Hpr; simpl in *.
  - rewrite Nat.add_0_r in *. injection Hd as <-. rewrite E in Hpr. injection Hpr as <-. reflexivity.
  - rewrite Nat.add_succ_r in *. apply Hr; assumption.
Qed.

Theorem C57_rows rois global ms h pairs results h' file :
  stable h ms -> batch_calculate kw order dir rois global ms pairs [] h = (Ok tt, results, h') ->
  pairs <> [] -> snd (splitext file) = lit ".csv" ->
  exists cols rows,
    batch_export file pairs results
      = (Some (map CText (["pair_num"; "reference_image"; "modified_image"]%string ++ cols) :: rows), Ok tt) /\
    cols = firsts (columns h ms) /\
    length rows = length pairs /\
    forall n pr, nth_error pairs n = Some pr ->
      exists d vals, dget results (show n) = Some d /\
        nth_error rows n = Some (CText (show n) :: CFile (p_ref pr) :: CFile (p_mod pr) :: map CNum vals) /\
        length vals = length cols /\
        forall j k, nth_error cols j = Some k -> exists v, nth_error vals j = Some v /\ dget d k = Some v.
Proof.
  intros Hs H Hne Hext. destruct (trace _ _ _ _ _ _ _ Hs H) as (cs & Hl & Hlen & Er & Hk & Hg).
  pose proof (linked_columns _ _ _ _ _ Hl I) as Hc.
  unfold batch_export. rewrite Hext. rewrite (proj2 (text_eqb_eq _ _) eq_refl). simpl negb. cbn iota.
  destruct cs as [|c0 cs0]; [destruct pairs; [congruence|discriminate Hlen]|].
  rewrite (Hg 0 c0 eq_refl). destruct (Hc 0 c0 eq_refl) as [Hk0 _].
  set (cs := c0 :: cs0) in *.
  assert (Ed : length (map c_last cs) = length pairs) by (rewrite map_length; exact Hlen).
  destruct (export_rows_ok pairs (map c_last cs) 0 ltac:(lia)) as (rows & E & Hlr & Hr).
  rewrite Ed in E. rewrite <- Er in E. rewrite E, Hk0. exists (firsts (columns h ms)), rows.
  split; [reflexivity|]. split; [reflexivity|]. split; [congruence|].
  intros n pr Hn. assert (Hlt : n < length pairs) by (apply nth_error_Some; congruence).
  destruct (nth_error cs n) as [c|] eqn:Ec; [|apply nth_error_None in Ec; lia].
  destruct (Hc n c Ec) as [Hkc Hnd]. exists (c_last c), (dvals (c_last c)).
  split; [apply Hg, Ec|]. split; [apply (Hr n (c_last c) pr); [rewrite nth_error_map, Ec; reflexivity|exact Hn]|].
  split; [rewrite <- Hkc; unfold dvals, dkeys; rewrite !map_length; reflexivity|].
  intros j k Hj. rewrite <- Hkc in Hj. unfold dkeys in Hj. rewrite nth_error_map in Hj.
  destruct (nth_error (c_last c) j) as [[k' v]|] eqn:Ej; [|discriminate Hj]. injection Hj as <-.
  exists v. split; [unfold dvals; rewrite nth_error_map, Ej; reflexivity|]. eapply dget_nth; eassumption.
Qed.

(** Before any pair was calculated the file is emptied and a KeyError raised; with another extension
    nothing is written. *)
Theorem C57_before pairs file : snd (splitext file) = lit ".csv" ->
  batch_export (F:=F) file pairs [] = (Some [], Err KeyError).
Proof. intros H. unfold batch_export. rewrite H, (proj2 (text_eqb_eq _ _) eq_refl). reflexivity. Qed.

Theorem C57_extension pairs (results : dict (dict F)) file : snd (splitext file) <> lit ".csv" ->
  batch_export file pairs results = (None, Err ValueError).
Proof.
  intros H. unfold batch_export. destruct (text_eqb _ _) eqn:E; [apply text_eqb_eq in E; contradiction|]. reflexivity.
Qed.

(** *** C58 *)

Lemma pure_of ms h r m d h' : history_free h ms -> run_metrics None None r m ms [] h = (Ok d, h') ->
  pure_run kind_of name_of score_fr score_nr to_f h ms r m = Ok d.
Proof.
  intros (Inv & H0 & Hs) H.
  destruct (run_metrics_pure kind_of name_of score_fr score_nr to_f h ms Inv Hs None None r m ms [] h H0 (incl_refl _)) as (h2 & _ & E).
  rewrite H in E. injection E as E _. rewrite E.
  symmetry. apply (cached_run kind_of name_of score_fr score_nr to_f h ms None None r m I I).
Qed.

(** One column per name, at the position of the first metric with that name. *)
Theorem C58_columns ms h r m d h' :
  stable h ms -> run_metrics None None r m ms [] h = (Ok d, h') -> dkeys d = firsts (columns h ms).
Proof.
  intros (Inv & H0 & Hs) H.
  destruct (run_metrics_written kind_of name_of score_fr score_nr to_f h ms Inv Hs None None r m ms [] h _ h' H0 (incl_refl _) H)
    as [_ W].
  destruct (W d eq_refl) as (L & HL & ->). apply written_columns in HL. exact HL.
Qed.

(** Its value is the one of the last. *)
Theorem C58_last ms1 id p ms2 h r m d h' k :
  let ms := ms1 ++ (id, p) :: ms2 in
  history_free h ms -> run_metrics None None r m ms [] h = (Ok d, h') ->
  kind_of (h id) = FullRef -> name_of (h id) = Some k -> ~ In k (columns h ms2) ->
  exists x v, fst (score_fr (h id) p r m) = Ok x /\ to_f x = Ok v /\ dget d k = Some v.
Proof.
  intros ms Hf H Hk Hn Hlast. apply (pure_of _ _ _ _ _ _ Hf), pure_run_inv in H as (L & HL & ->).
  unfold ms, slots in HL. rewrite flat_map_app in HL. simpl in HL. unfold slots_of at 2 in HL. simpl in HL. rewrite Hk in HL.
  rewrite mapM_app in HL. apply bind_ok in HL as (L1 & _ & HL). apply bind_ok in HL as (L2 & HL & E). injection E as <-.
  simpl in HL. apply bind_ok in HL as ([k' v] & He & HL). apply bind_ok in HL as (L3 & H3 & E). injection E as <-.
  unfold entry in He. apply bind_ok in He as (v' & Hv & He). apply bind_ok in He as (k'' & Hkey & He). injection He as -> ->.
  unfold key_of in Hkey. simpl in Hkey. rewrite Hn in Hkey. simpl in Hkey. injection Hkey as ->.
  unfold val_of in Hv. simpl in Hv. apply bind_ok in Hv as (x & Hx & Hv). exists x, v. split; [exact Hx|]. split; [exact Hv|].
  rewrite dupdate_app. change ((k', v) :: L3) with ([(k', v)] ++ L3). rewrite dupdate_app.
  rewrite dget_dupdate_other.
  - simpl. apply dget_dset_same.
  - apply mapM_keys in H3. apply keys_columns in H3. rewrite H3. exact Hlast.
Qed.

(** The two columns of a no-reference metric *)
Theorem C58_last_noref ms1 id p ms2 h r m d h' k :
  let ms := ms1 ++ (id, p) :: ms2 in
  history_free h ms -> run_metrics None None r m ms [] h = (Ok d, h') ->
  kind_of (h id) = NoRef -> name_of (h id) = Some k ->
  (~ In (k ++ "_r")%string (columns h ms2) ->
   exists x v, fst (score_nr (h id) p r) = Ok x /\ to_f x = Ok v /\ dget d (k ++ "_r") = Some v) /\
  (~ In (k ++ "_m")%string (columns h ms2) ->
   exists x v, fst (score_nr (h id) p m) = Ok x /\ to_f x = Ok v /\ dget d (k ++ "_m") = Some v).
Proof.
  intros ms Hf H Hk Hn. apply (pure_of _ _ _ _ _ _ Hf), pure_run_inv in H as (L & HL & ->).
  unfold ms, slots in HL. rewrite flat_map_app in HL. simpl in HL. unfold slots_of at 2 in HL. simpl in HL. rewrite Hk in HL.
  rewrite mapM_app in HL. apply bind_ok in HL as (L1 & _ & HL). apply bind_ok in HL as (L2 & HL & E). injection E as <-.
  simpl in HL. apply bind_ok in HL as ([kr vr] & Hr & HL). apply bind_ok in HL as (L3 & HL & E). injection E as <-.
  apply bind_ok in HL as ([km vm] & Hm & HL). apply bind_ok in HL as (L4 & H4 & E). injection E as <-.
  unfold entry in Hr, Hm. apply bind_ok in Hr as (v' & Hvr & Hr). apply bind_ok in Hr as (k' & Hkr & Hr). injection Hr as -> ->.
  apply bind_ok in Hm as (v' & Hvm & Hm). apply bind_ok in Hm as (k' & Hkm & Hm). injection Hm as -> ->.
  unfold key_of in Hkr, Hkm. simpl in Hkr, Hkm. rewrite Hn in Hkr, Hkm. simpl in Hkr, Hkm. injection Hkr as <-. injection Hkm as <-.
  unfold val_of in Hvr, Hvm. simpl in Hvr, Hvm. apply bind_ok in Hvr as (xr & Hxr & Hvr). apply bind_ok in Hvm as (xm & Hxm & Hvm).
  assert (HK : dkeys L4 = columns h ms2) by (apply mapM_keys in H4; apply keys_columns in H4; exact H4).
  assert (D : (k ++ "_r")%string <> (k ++ "_m")%string).
  { clear. induction k as [|c k IH]; intros E; [discriminate E|]. injection E as E. apply IH, E. }
  split; intros Hl.
  - exists xr, vr. split; [exact Hxr|]. split; [exact Hvr|].
    rewrite dupdate_app. change ((?a, ?b) :: ?c :: L4) with ([(a, b); c] ++ L4).
    rewrite dupdate_app, dget_dupdate_other by (rewrite HK; exact Hl). simpl. rewrite dget_dset_other by (intros E; exact (D (eq_sym E))). apply dget_dset_same.
  - exists xm, vm. split; [exact Hxm|]. split; [exact Hvm|].
    rewrite dupdate_app. change ((?a, ?b) :: ?c :: L4) with ([(a, b); c] ++ L4).
    rewrite dupdate_app, dget_dupdate_other by (rewrite HK; exact Hl). simpl. apply dget_dset_same.
Qed.

(** With pairwise different columns every score is reported. *)
Theorem C58_distinct ms h r m d h' :
  history_free h ms -> run_metrics None None r m ms [] h = (Ok d, h') -> NoDup (columns h ms) ->
  dkeys d = columns h ms /\
  forall id p, In (id, p) ms ->
    (forall k, kind_of (h id) = FullRef -> name_of (h id) = Some k ->
       exists x v, fst (score_fr (h id) p r m) = Ok x /\ to_f x = Ok v /\ dget d k = Some v) /\
    (forall k, kind_of (h id) = NoRef -> name_of (h id) = Some k ->
       (exists x v, fst (score_nr (h id) p r) = Ok x /\ to_f x = Ok v /\ dget d (k ++ "_r") = Some v) /\
       (exists x v, fst (score_nr (h id) p m) = Ok x /\ to_f x = Ok v /\ dget d (k ++ "_m") = Some v)).
Proof.
  intros Hf H Hd. pose proof (C58_columns _ _ _ _ _ _ (history_free_stable _ _ _ _ _ _ Hf) H) as Hk.
  rewrite firsts_NoDup in Hk by exact Hd. split; [exact Hk|].
  apply (pure_of _ _ _ _ _ _ Hf), pure_run_inv in H as (L & HL & ->).
  pose proof (mapM_keys _ _ _ _ _ _ _ _ _ HL) as HK. apply keys_columns in HK.
  assert (HND : NoDup (dkeys L)) by (rewrite HK; exact Hd).
  rewrite dupdate_fresh by (exact HND || (intros ? _ [])). simpl.
  assert (G : forall s, In s (slots kind_of h ms) -> exists k v, key_of name_of h s = Ok k /\
     val_of score_fr score_nr to_f h r m s = Ok v /\ dget L k = Some v).
  { intros s Hs. apply In_nth_error in Hs as (i & Hi). destruct (mapM_nth _ _ _ HL) as [_ N].
    destruct (N i s Hi) as ([k v] & HLi & He). unfold entry in He. apply bind_ok in He as (v' & Hv & He).
    apply bind_ok in He as (k' & Hkey & He). injection He as -> ->. exists k, v. split; [exact Hkey|]. split; [exact Hv|].
    eapply dget_nth; eassumption. }
  intros id p Hin. split; intros k Ek En.
  - destruct (G (SideF, (id, p))) as (k' & v & Hkey & Hv & Hg).
    { apply in_flat_map. exists (id, p). split; [exact Hin|]. unfold slots_of. simpl. rewrite Ek. left. reflexivity. }
    unfold key_of in Hkey. simpl in Hkey. rewrite En in Hkey. simpl in Hkey. injection Hkey as <-.
    unfold val_of in Hv. simpl in Hv. apply bind_ok in Hv as (x & Hx & Hv). eauto.
  - split.
    + destruct (G (SideR, (id, p))) as (k' & v & Hkey & Hv & Hg).
      { apply in_flat_map. exists (id, p). split; [exact Hin|]. unfold slots_of. simpl. rewrite Ek. left. reflexivity. }
      unfold key_of in Hkey. simpl in Hkey. rewrite En in Hkey. simpl in Hkey. injection Hkey as <-.
      unfold val_of in Hv. simpl in Hv. apply bind_ok in Hv as (x & Hx & Hv). eauto.
    + destruct (G (SideM, (id, p))) as (k' & v & Hkey & Hv & Hg).
      { apply in_flat_map. exists (id, p). split; [exact Hin|]. unfold slots_of. simpl. rewrite Ek. right. left. reflexivity. }
      unfold key_of in Hkey. simpl in Hkey. rewrite En in Hkey. simpl in Hkey. injection Hkey as <-.
      unfold val_of in Hv. simpl in Hv. apply bind_ok in Hv as (x & Hx & Hv). eauto.
Qed.

(** *** C59 *)

Theorem C59_rejected metrics (params : list (option P)) pairs rois :
  rois <> [] -> length rois <> length pairs -> batch_init metrics params (Ok pairs) (Some rois) = Err ValueError.
Proof.
  intros Hne Hl. unfold batch_init.
  assert (E : forall A (l : list (option A)) e, mapM (from_opt ValueError) l = Err e -> e = ValueError).
  { intros A l. induction l as [|[x|] l IH]; intros e He; simpl in He; [discriminate He| |congruence].
    destruct (mapM (from_opt ValueError) l) eqn:El; simpl in He; [discriminate He|]. apply IH. congruence. }
  assert (Em : forall e, multi_init metrics params = Err e -> e = ValueError).
  { intros e. unfold multi_init. destruct (negb _); [congruence|].
    destruct (mapM _ metrics) eqn:E1; simpl; [|intros G; injection G as <-; eapply E, E1].
    destruct (mapM _ params) eqn:E2; simpl; [discriminate|intros G; injection G as <-; eapply E, E2]. }
  destruct (multi_init metrics params) as [ms|e]; cbn [bind]; [|rewrite (Em e eq_refl); reflexivity].
  destruct rois as [|r0 r]; [congruence|]. destruct (Nat.eqb_spec (length pairs) (length (r0 :: r))); [congruence|reflexivity].
Qed.

Theorem C59_accepted metrics (params : list (option P)) pairs rois ms :
  multi_init metrics params = Ok ms -> rois = [] \/ length rois = length pairs ->
  batch_init metrics params (Ok pairs) (Some rois) = Ok (ms, pairs).
Proof.
  intros H Hr. unfold batch_init. rewrite H. cbn [bind]. destruct rois as [|r0 r]; [reflexivity|].
  destruct Hr as [Hr|Hr]; [discriminate Hr|]. rewrite Hr, Nat.eqb_refl. reflexivity.
Qed.

Theorem C59_empty ms pr pairs results h rp mp r m :
  files pr rp mp -> load_in disk ident ub kw (InPath rp) = Ok r -> load_in disk ident ub kw (InPath mp) = Ok m ->
  batch_calculate kw order dir (Some []) None ms (pr :: pairs) results h = (Err IndexError, results, h).
Proof.
  intros (rn & mn & Er & Em & -> & ->) Lr Lm. unfold BatchModel.batch_calculate. simpl. unfold batch_step.
  rewrite Er, Em. cbn [from_opt bind same]. rewrite Lr, Lm. reflexivity.
Qed.

Lemma global_step rois g ms n pr c h :
  batch_step kind_of name_of score_fr score_nr to_f disk ident ub resize kw order dir rois (Some g) ms n pr c h
  = batch_step kind_of name_of score_fr score_nr to_f disk ident ub resize kw order dir None (Some g) ms n pr c h.
Proof. reflexivity. Qed.

Theorem C59_global rois g ms pairs results h :
  batch_calculate kw order dir rois (Some g) ms pairs results h = batch_calculate kw order dir None (Some g) ms pairs results h.
Proof.
  unfold BatchModel.batch_calculate. generalize 0, (@None (@cache F)). intros n c.
  revert n c results h. induction pairs as [|pr pairs IH]; intros n c results h; [reflexivity|]. simpl.
  rewrite global_step. destruct (batch_step _ _ _ _ _ _ _ _ _ _ _ _ None _ _ _ _ _ _) as [[c'|e] h1]; [apply IH|reflexivity].
Qed.

(** *** C51 *)

(** A no-reference metric without a name: no run that contains it succeeds. *)
Lemma no_name_run prev_r prev_m ms h r m id p d h' :
  stable h ms -> In (id, p) ms -> kind_of (h id) = NoRef -> name_of (h id) = None ->
  run_metrics prev_r prev_m r m ms [] h <> (Ok d, h').
Proof.
  intros (Inv & H0 & Hs) Hin Hk Hn H.
  destruct (run_metrics_written kind_of name_of score_fr score_nr to_f h ms Inv Hs prev_r prev_m r m ms [] h _ h' H0 (incl_refl _) H)
    as [_ W].
  destruct (W d eq_refl) as (L & HL & _). apply written_keys in HL. destruct (mapM_nth _ _ _ HL) as [_ N].
  assert (Hsl : In (SideR, (id, p)) (slots kind_of h ms)).
  { apply in_flat_map. exists (id, p). split; [exact Hin|]. unfold slots_of. simpl. rewrite Hk. left. reflexivity. }
  apply In_nth_error in Hsl as (i & Hi). destruct (N i _ Hi) as (k & _ & Ek).
  unfold key_of in Ek. simpl in Ek. rewrite Hn in Ek. discriminate Ek.
Qed.

Lemma no_name_batch rois global ms h pairs id p results h' :
  stable h ms -> In (id, p) ms -> kind_of (h id) = NoRef -> name_of (h id) = None -> pairs <> [] ->
  batch_calculate kw order dir rois global ms pairs [] h <> (Ok tt, results, h').
Proof.
  intros Hs Hin Hk Hn Hne H. destruct (trace _ _ _ _ _ _ _ Hs H) as (cs & Hl & Hlen & _).
  destruct pairs as [|pr pairs]; [congruence|]. destruct cs as [|c cs]; [discriminate Hlen|].
  destruct Hl as [[_ [(c0 & E & _)|(_ & L & W & _)]] _]; [discriminate E|].
  apply written_keys in W. destruct (mapM_nth _ _ _ W) as [_ N].
  assert (Hsl : In (SideR, (id, p)) (slots kind_of h ms)).
  { apply in_flat_map. exists (id, p). split; [exact Hin|]. unfold slots_of. simpl. rewrite Hk. left. reflexivity. }
  apply In_nth_error in Hsl as (i & Hi). destruct (N i _ Hi) as (k & _ & Ek).
  unfold key_of in Ek. simpl in Ek. rewrite Hn in Ek. discriminate Ek.
Qed.
End props.

Print Assumptions C53_single.
Print Assumptions C53_multiple.
Print Assumptions C54_same_roi.
Print Assumptions C54_failure.
Print Assumptions C54_identical.
Print Assumptions C54_reused.
Print Assumptions C55_reused.
Print Assumptions C56_results.
Print Assumptions C56_distinct.
Print Assumptions C57_rows.
Print Assumptions C57_before.
Print Assumptions C57_extension.
Print Assumptions C58_columns.
Print Assumptions C58_last.
Print Assumptions C58_last_noref.
Print Assumptions C58_distinct.
Print Assumptions C59_rejected.
Print Assumptions C59_accepted.
Print Assumptions C59_empty.
Print Assumptions C59_global.

(** ** Examples and counterexamples

    One no-reference metric "S" that returns the sum of the pixels. *)
Definition toy_kind (_ : unit) : mkind := NoRef.
Definition toy_name (_ : unit) : option string := Some "S"%string.
Definition toy_sum (o : norm_out) : res Z :=
  match o with NImg im => match px im with PI a => Ok (fold_right Z.add 0%Z (dat a)) | PF _ => Err ValueError end
  | NNan _ _ => Err ValueError end.
Definition toy_fr (m : unit) (_ : unit) (_ _ : norm_out) : res Z * unit := (Err TypeError, m).
Definition toy_nr (m : unit) (_ : unit) (a : norm_out) : res Z * unit := (toy_sum a, m).
(** Nearest neighbour of integer images *)
Definition toy_resize (o : norm_out) (s : list nat) (d : dtype) (_ : Z) : res norm_out :=
  match o with
  | NImg im => match px im with
      | PI a => let* b := reindex a s (fun idx => map (fun t => fst (fst t) * snd (fst t) / snd t) (combine (combine idx (shp a)) s)) in
                Ok (NImg (Img d (PI b)))
      | PF _ => Err ValueError end
  | NNan _ _ => Err ValueError end.
Definition toy_disk (t : text) : res image :=
  if text_eqb t (lit "a") then Ok (Img (UInt 8) (PI (Arr [2; 2] [1; 2; 3; 4]%Z)))
  else if text_eqb t (lit "b") then Ok (Img (UInt 8) (PI (Arr [2; 2] [5; 6; 7; 8]%Z)))
  else if text_eqb t (lit "c") then Ok (Img (UInt 8) (PI (Arr [4; 4] (repeat 1%Z 16))))
  else Err ValueError.
Definition toy_pair (r m : string) : pair := Pair (Some (lit r)) (Some (lit m)).
Definition toy_kw : kwargs := Kw None false false.
Definition toy_batch rois global pairs := batch_calculate toy_kind toy_name toy_fr toy_nr Ok toy_disk Z.eqb (fun _ => 0%Z) toy_resize
  toy_kw 1 [] rois global [(0, tt)] pairs [] (fun _ => tt).
Definition toy_single roi pr := single toy_kind toy_name toy_fr toy_nr Ok toy_disk Z.eqb (fun _ => 0%Z) toy_resize
  toy_kw 1 [] roi [(0, tt)] (fun _ => tt) pr.

Lemma toy_free : history_free toy_kind toy_name toy_fr toy_nr (fun _ => tt) [(0, tt)].
Proof. exists (fun _ => True). split; [exact I|]. intros h id p _ _. destruct (h id), p. repeat split. Qed.

Example C53_ex : outcome (toy_batch None None [toy_pair "a" "b"; toy_pair "a" "a"; toy_pair "a" "a"])
  = Ok [("0", [("S_r", 10%Z); ("S_m", 26%Z)]); ("1", [("S_r", 10%Z); ("S_m", 10%Z)]);
        ("2", [("S_r", 10%Z); ("S_m", 10%Z)])]%string.
Proof. reflexivity. Qed.

Definition toy_top : option roi_t := Some [(0, 1); (0, 1)]%Z.
Definition toy_bottom : option roi_t := Some [(1, 2); (1, 2)]%Z.

(** The second pair is given the first ROI's scores, though alone it scores differently. *)
Theorem C54_refuted : exists rois pairs results h' roi pr d d',
  toy_batch (Some rois) None pairs = (Ok tt, results, h') /\
  nth_error pairs 1 = Some pr /\ nth_error rois 1 = Some roi /\
  dget results (show 1) = Some d /\ toy_single roi pr = Ok d' /\ d <> d'.
Proof.
  exists [toy_top; toy_bottom], [toy_pair "a" "b"; toy_pair "a" "b"]. exists (snd (fst (toy_batch (Some [toy_top; toy_bottom]) None [toy_pair "a" "b"; toy_pair "a" "b"]))), (snd (toy_batch (Some [toy_top; toy_bottom]) None [toy_pair "a" "b"; toy_pair "a" "b"])).
  exists toy_bottom, (toy_pair "a" "b"). exists [("S_r", 1%Z); ("S_m", 5%Z)]%string, [("S_r", 4%Z); ("S_m", 8%Z)]%string.
  split; [reflexivity|]. split; [reflexivity|]. split; [reflexivity|]. split; [reflexivity|]. split; [reflexivity|].
  discriminate.
Qed.
Print Assumptions C54_refuted.

(** The same for the no-reference score of a repeated reference image with a new modified image. *)
Theorem C54_reference_refuted : exists rois pairs results h' roi pr d d' v v',
  toy_batch (Some rois) None pairs = (Ok tt, results, h') /\
  nth_error pairs 0 <> nth_error pairs 1 /\
  nth_error pairs 1 = Some pr /\ nth_error rois 1 = Some roi /\
  dget results (show 1) = Some d /\ toy_single roi pr = Ok d' /\
  dget d "S_r" = Some v /\ dget d' "S_r" = Some v' /\ v <> v'.
Proof.
  exists [toy_top; toy_bottom], [toy_pair "a" "b"; toy_pair "a" "a"]. exists (snd (fst (toy_batch (Some [toy_top; toy_bottom]) None [toy_pair "a" "b"; toy_pair "a" "a"]))), (snd (toy_batch (Some [toy_top; toy_bottom]) None [toy_pair "a" "b"; toy_pair "a" "a"])).
  exists toy_bottom, (toy_pair "a" "a"). exists [("S_r", 1%Z); ("S_m", 4%Z)]%string, [("S_r", 4%Z); ("S_m", 4%Z)]%string, 1%Z, 4%Z.
  split; [reflexivity|]. split; [discriminate|]. split; [reflexivity|]. split; [reflexivity|]. split; [reflexivity|].
  split; [reflexivity|]. split; [reflexivity|]. split; [reflexivity|]. discriminate.
Qed.
Print Assumptions C54_reference_refuted.

(** Two pairs that share a file and the ROI: the results are those of the single pairs. *)
Example C54_ex : exists h', toy_batch (Some [toy_top; toy_top]) None [toy_pair "a" "b"; toy_pair "a" "a"]
  = (Ok tt, [("0", [("S_r", 1%Z); ("S_m", 5%Z)]); ("1", [("S_r", 1%Z); ("S_m", 1%Z)])]%string, h') /\
  toy_single toy_top (toy_pair "a" "b") = Ok [("S_r", 1%Z); ("S_m", 5%Z)]%string /\
  toy_single toy_top (toy_pair "a" "a") = Ok [("S_r", 1%Z); ("S_m", 1%Z)]%string.
Proof. eexists. repeat split; reflexivity. Qed.

(** A modified image repeated with references of different shapes *)
Theorem C55_refuted : exists pairs results h' pr d d' v v',
  toy_batch None None pairs = (Ok tt, results, h') /\
  nth_error pairs 1 = Some pr /\ dget results (show 1) = Some d /\ toy_single None pr = Ok d' /\
  dget d "S_m" = Some v /\ dget d' "S_m" = Some v' /\ v <> v'.
Proof.
  exists [toy_pair "b" "a"; toy_pair "c" "a"]. exists (snd (fst (toy_batch None None [toy_pair "b" "a"; toy_pair "c" "a"]))), (snd (toy_batch None None [toy_pair "b" "a"; toy_pair "c" "a"])). exists (toy_pair "c" "a"). exists [("S_r", 16%Z); ("S_m", 10%Z)]%string, [("S_r", 16%Z); ("S_m", 40%Z)]%string, 10%Z, 40%Z.
  split; [reflexivity|]. split; [reflexivity|]. split; [reflexivity|]. split; [reflexivity|].
  split; [reflexivity|]. split; [reflexivity|]. discriminate.
Qed.
Print Assumptions C55_refuted.

(** References of equal shape: no difference. *)
Example C55_ex : exists h', toy_batch None None [toy_pair "b" "a"; toy_pair "a" "a"]
  = (Ok tt, [("0", [("S_r", 26%Z); ("S_m", 10%Z)]); ("1", [("S_r", 10%Z); ("S_m", 10%Z)])]%string, h') /\
  toy_single None (toy_pair "a" "a") = Ok [("S_r", 10%Z); ("S_m", 10%Z)]%string.
Proof. eexists. split; reflexivity. Qed.

Example C56_ex : firsts (columns toy_kind toy_name (fun _ => tt) [(0, tt); (1, tt)]) = ["S_r"; "S_m"]%string.
Proof. reflexivity. Qed.

Example C57_ex :
  batch_export (lit "out.csv") [toy_pair "a" "b"; toy_pair "b" "b"]
    (snd (fst (toy_batch None None [toy_pair "a" "b"; toy_pair "b" "b"])))
  = (Some [[CText "pair_num"; CText "reference_image"; CText "modified_image"; CText "S_r"; CText "S_m"];
           [CText "0"; CFile (Some (lit "a")); CFile (Some (lit "b")); CNum 10%Z; CNum 26%Z];
           [CText "1"; CFile (Some (lit "b")); CFile (Some (lit "b")); CNum 26%Z; CNum 26%Z]], Ok tt)%string.
Proof. reflexivity. Qed.

Example C58_ex :
  let fr (m : unit) (p : Z) (_ _ : norm_out) : res Z * unit := (Ok p, m) in
  let nr (m : unit) (p : Z) (_ : norm_out) : res Z * unit := (Ok p, m) in
  fst (run_metrics (fun _ => FullRef) (fun _ => Some "PSNR"%string) fr nr Ok None None (NNan (UInt 8) [2; 2]) (NNan (UInt 8) [2; 2])
    [(0, 1%Z); (1, 2%Z)] [] (fun _ => tt)) = Ok [("PSNR"%string, 2%Z)].
Proof. reflexivity. Qed.

Example C59_ex : toy_batch (Some []) None [toy_pair "a" "b"] = (Err IndexError, [], fun _ => tt).
Proof. reflexivity. Qed.

(** ** The metrics of the package *)
Section package.
Context {I : Type}.
Variable load : option pyval -> option pyval -> option pyval -> norm_out -> res I.
Variable fr_value : metric -> dict pyval -> norm_out -> norm_out -> res returned.
Variable cnr_of : I -> dict pyval -> res ext.
Variable snr_of : I -> dict pyval -> res snr_out.
Variable qm_of : I -> dict pyval -> res ext.
Notation score_fr := (obj_score_fr fr_value).
Notation score_nr := (obj_score_nr load cnr_of snr_of qm_of).
Notation run_metrics := (run_metrics obj_kind m_name score_fr score_nr to_float).

Lemma fr_keeps m kw a b : snd (score_fr m kw a b) = m.
Proof. unfold obj_score_fr. destruct (obj_kind m); reflexivity. Qed.

Lemma nr_keeps m kw a : m_class (snd (score_nr m kw a)) = m_class m /\ m_name (snd (score_nr m kw a)) = m_name m.
Proof.
  unfold obj_score_nr. destruct (m_class m) eqn:E; simpl; auto;
    destruct (nr_score _ _ _ _ _) as [x ps]; simpl; auto.
Qed.

Lemma package_step h0 h id (kw : dict pyval) :
  (forall i, m_class (h i) = m_class (h0 i) /\ m_name (h i) = m_name (h0 i)) ->
  (forall a b i, m_class (store_set h id (snd (score_fr (h id) kw a b)) i) = m_class (h0 i) /\
                 m_name (store_set h id (snd (score_fr (h id) kw a b)) i) = m_name (h0 i)) /\
  (forall a i, m_class (store_set h id (snd (score_nr (h id) kw a)) i) = m_class (h0 i) /\
               m_name (store_set h id (snd (score_nr (h id) kw a)) i) = m_name (h0 i)).
Proof.
  intros H. split.
  - intros a b i. rewrite fr_keeps. unfold store_set. destruct (Nat.eqb_spec i id); subst; apply H.
  - intros a i. unfold store_set. destruct (Nat.eqb_spec i id); subst; [|apply H].
    destruct (nr_keeps (h id) kw a) as [-> ->]. apply H.
Qed.

Definition kept (h0 h : @store metric) : Prop := forall i, m_class (h i) = m_class (h0 i) /\ m_name (h i) = m_name (h0 i).

Lemma package_kept h0 (ms : list (nat * dict pyval)) : forall h id p, kept h0 h -> In (id, p) ms ->
  obj_kind (h id) = obj_kind (h0 id) /\ m_name (h id) = m_name (h0 id) /\
  (forall a b, m_name (snd (score_fr (h id) p a b)) = m_name (h0 id) /\
               kept h0 (store_set h id (snd (score_fr (h id) p a b)))) /\
  (forall a, m_name (snd (score_nr (h id) p a)) = m_name (h0 id) /\
             kept h0 (store_set h id (snd (score_nr (h id) p a)))).
Proof.
  intros h id p H Hin. destruct (package_step h0 h id p H) as [A B].
  split; [unfold obj_kind; rewrite (proj1 (H id)); reflexivity|]. split; [apply H|]. split.
  - intros a b. split; [rewrite fr_keeps; apply H|exact (A a b)].
  - intros a. split; [destruct (nr_keeps (h id) p a) as [_ ->]; apply H|exact (B a)].
Qed.

Lemma package_stable h ms : stable obj_kind m_name score_fr score_nr h ms.
Proof. exists (kept h). split; [intros i; auto|]. apply package_kept. Qed.

(** Scoring does not depend on earlier calls if every call of CNR and SNR gives the required keywords
    and none of them is an option of loading. *)
Definition loading_options : list string := ["data_range"; "normalize"; "roi"]%string.

Theorem C53_history h ms :
  (forall id kw, In (id, kw) ms -> (m_class (h id) = CCNR \/ m_class (h id) = CSNR) ->
     (forall k, In k (match m_class (h id) with CCNR => ["signal_center"; "background_center"; "radius"]
                      | _ => ["signal_center"; "radius"] end)%string -> dget kw k <> None) /\
     (forall k, In k loading_options -> dget kw k = None)) ->
  history_free obj_kind m_name score_fr score_nr h ms.
Proof.
  intros Hkw.
  exists (fun h' => forall i, m_class (h' i) = m_class (h i) /\ m_name (h' i) = m_name (h i) /\
     (forall k, In k loading_options -> dget (m_params (h' i)) k = dget (m_params (h i)) k) /\
     (m_class (h i) <> CCNR -> m_class (h i) <> CSNR -> h' i = h i)).
  split; [auto|]. intros h1 id p H Hin. destruct (H id) as (Hc & Hn & Hp & Hsame).
  assert (Hl : forall a, load_stored load a (m_params (h1 id)) = load_stored load a (m_params (h id))).
  { intros a. unfold load_stored. rewrite !Hp by (unfold loading_options; simpl; tauto). reflexivity. }
  split; [unfold obj_kind; rewrite Hc; reflexivity|]. split; [exact Hn|]. split.
  - intros a b. rewrite fr_keeps. split; [|split; [exact Hn|]].
    + unfold obj_score_fr, obj_kind. rewrite Hc. destruct (m_class (h id)) eqn:E; simpl; try reflexivity;
        rewrite Hsame by congruence; reflexivity.
    + intros i. unfold store_set. destruct (Nat.eqb_spec i id); subst; apply H.
  - intros a. destruct (nr_keeps (h1 id) p a) as [Kc Kn]. split; [|split; [rewrite Kn; exact Hn|]].
    + specialize (Hkw id p Hin). unfold obj_score_nr. rewrite Hc.
      destruct (m_class (h id)) eqn:E; try (rewrite Hsame by congruence; reflexivity);
      destruct (Hkw ltac:(auto)) as [Hreq _]; unfold nr_score, cnr_required, snr_required; rewrite Hl;
      (destruct (load_stored load a (m_params (h id))); [|reflexivity]);
      rewrite (proj2 (has_all_iff _ p) Hreq); reflexivity.
    + intros i. unfold store_set. destruct (Nat.eqb_spec i id) as [->|Ne]; [|apply H].
      rewrite Kc, Kn. split; [exact Hc|]. split; [exact Hn|].
      specialize (Hkw id p Hin). unfold obj_score_nr. rewrite Hc.
      destruct (m_class (h id)) eqn:E; try (split; [exact Hp|]; intros; apply Hsame; congruence);
        destruct (Hkw ltac:(auto)) as [Hreq Hopt]; (split; [|congruence]); intros k Hk; rewrite <- (Hp k Hk);
        unfold nr_score, cnr_required, snr_required; (destruct (load_stored load a (m_params (h1 id))); [|reflexivity]);
        rewrite (proj2 (has_all_iff _ p) Hreq); simpl;
        apply dget_dupdate_other, dget_none, Hopt, Hk.
Qed.

(** *** C51 *)

Theorem C51_type_error ms1 id p ms2 prev_m h r m acc h1 dr nm kws o h' out :
  construct CSNR dr nm kws = Ok o -> h id = o ->
  run_metrics None prev_m r m ms1 [] h = (Ok acc, h1) ->
  (exists x, fst (score_nr (h1 id) p r) = Ok x) ->
  run_metrics None prev_m r m (ms1 ++ (id, p) :: ms2) [] h = (out, h') -> out = Err TypeError.
Proof.
  intros Ho Hid H1 (x & Hx) H.
  assert (Hc : m_class (h1 id) = CSNR).
  { destruct (run_metrics_written obj_kind m_name score_fr score_nr to_float h ms1 (kept h) (package_kept h ms1) None prev_m r m
      ms1 [] h _ h1 (fun i => conj eq_refl eq_refl) (incl_refl _) H1) as [K _].
    rewrite (proj1 (K id)), Hid. unfold construct in Ho. destruct (_ && _); [discriminate Ho|].
    destruct (_ && _); [discriminate Ho|]. injection Ho as <-. reflexivity. }
  assert (E : forall ms1 acc0 h0, run_metrics None prev_m r m ms1 acc0 h0 = (Ok acc, h1) ->
    run_metrics None prev_m r m (ms1 ++ (id, p) :: ms2) acc0 h0 = run_metrics None prev_m r m ((id, p) :: ms2) acc h1).
  { clear. induction ms1 as [|[i q] ms1 IH]; intros acc0 h0 H; simpl in H; [injection H as -> ->; reflexivity|].
    simpl app. cbn [BatchModel.run_metrics]. destruct (metric_step _ _ _ _ _ _ _ _ _ _ _ _ _) as [[a|e] h4]; [|discriminate H].
    apply IH, H. }
  rewrite (E _ _ _ H1) in H. cbn [BatchModel.run_metrics] in H. unfold metric_step, obj_kind in H. rewrite Hc in H. cbn [class_kind] in H.
  unfold nr_side at 1 in H. destruct (score_nr (h1 id) p r) as [y v] eqn:Es. simpl in Hx. subst y. cbn [bind] in H.
  assert (Ht : to_float x = Err TypeError).
  { unfold obj_score_nr in Es. rewrite Hc in Es. unfold nr_score in Es.
    assert (V : forall i kw, nr_value cnr_of snr_of qm_of CSNR i kw = Ok x -> to_float x = Err TypeError).
    { intros i kw Hv. simpl in Hv. apply bind_ok in Hv as (o' & _ & Hv). injection Hv as <-. destruct o'; reflexivity. }
    destruct (load_stored load r (m_params (h1 id))) as [i|]; [|discriminate Es].
    destruct (has_all snr_required p); [injection Es as Es _; eapply V, Es|].
    destruct (has_all snr_required (m_params (h1 id))); [injection Es as Es _; eapply V, Es|discriminate Es]. }
  rewrite Ht in H. cbn [bind] in H. congruence.
Qed.

(** Whatever the other metrics do, no run that scores at least one pair succeeds. *)
Theorem C51_never disk ident ub resize kw order dir rois global ms h pairs id p dr nm kws o results h' :
  construct CSNR dr nm kws = Ok o -> h id = o -> In (id, p) ms -> pairs <> [] ->
  batch_calculate obj_kind m_name score_fr score_nr to_float disk ident ub resize kw order dir rois global ms pairs [] h
    <> (Ok tt, results, h').
Proof.
  intros Ho Hid Hin Hne.
  assert (A : m_class (h id) = CSNR /\ m_name (h id) = None).
  { rewrite Hid. unfold construct in Ho. destruct (_ && _); [discriminate Ho|].
    destruct (_ && _); [discriminate Ho|]. injection Ho as <-. split; reflexivity. }
  destruct A as [Hc Hn]. eapply no_name_batch; try eassumption; [apply package_stable|].
  unfold obj_kind. rewrite Hc. reflexivity.
Qed.

Theorem C51_multiple disk ident ub resize kw order roi img_r img_m ms h id p dr nm kws o d h' :
  construct CSNR dr nm kws = Ok o -> h id = o -> In (id, p) ms ->
  multi_calculate obj_kind m_name score_fr score_nr to_float disk ident ub resize kw order roi img_r img_m ms h <> (Ok d, h').
Proof.
  intros Ho Hid Hin H.
  assert (A : m_class (h id) = CSNR /\ m_name (h id) = None).
  { rewrite Hid. unfold construct in Ho. destruct (_ && _); [discriminate Ho|].
    destruct (_ && _); [discriminate Ho|]. injection Ho as <-. split; reflexivity. }
  destruct A as [Hc Hn]. unfold multi_calculate, calc in H.
  destruct (let* r := _ in let* m := _ in _) as [[a b]|e]; [|discriminate H].
  eapply no_name_run in H; try eassumption; [apply package_stable|]. unfold obj_kind. rewrite Hc. reflexivity.
Qed.
End package.
Print Assumptions C53_history.

Example C51_ex : let o := match construct CSNR (PInt 255) (PBool false) [] with Ok o => o | Err _ => Metric CRMSE [] SNone None end in
  fst (BatchModel.run_metrics obj_kind m_name (obj_score_fr (fun _ _ _ _ => Err TypeError))
    (obj_score_nr (fun _ _ _ a => Ok a) (fun _ _ => Err ValueError) (fun _ _ => Ok (SGrey (Fin 1) [])) (fun _ _ => Err ValueError))
    to_float None None (NNan (UInt 8) [2; 2]) (NNan (UInt 8) [2; 2])
    [(0, [("signal_center", PInt 3); ("radius", PInt 1)]%string)] [] (fun _ => o)) = Err TypeError.
Proof. reflexivity. Qed.
Print Assumptions C51_type_error.
Print Assumptions C51_never.
Print Assumptions C51_multiple.
