(** The module variables of mad.py and the argument weights: properties C138. *)
From Coq Require Import Reals Lra Lia.
From Verif Require Import Base NdArray PairModel RealSums MetricModel SsimModel GsmModel MadModel MadLoopProofs MadProofs
  FreqModel MadStateModel.
Local Open Scope nat_scope.

Section state.
Variable filt : arr R -> arr R * arr R.
Variable gabor : arr R -> nat -> nat -> arr R.
Variable junk : nat -> nat -> ext.
Variable junk3 : nat -> nat -> stat3.
Variable strange : mad_state -> mimg -> mimg -> res ext.
Notation call := (mad_call filt gabor junk junk3 strange).
Notation high := (high_in filt junk strange).
Notation low := (low_in gabor junk3).

(** The index as a function of the arguments alone. *)
Definition mad_alone (a : mad_args) : res ext :=
  most_apparent_distortion filt gabor junk junk3 (a_high a) (a_low a) (a_range a) (a_block a) (a_overlap a)
    (a_beta1 a) (a_beta2 a) (a_thresh1 a) (a_thresh2 a) (a_ref a) (a_mod a).

(** ** The indices with matching variables *)

Lemma high_match st o dr r m : dim0 (mvals r) = s_m st -> dim1 (mvals r) = s_n st ->
  high st o dr r m = high_quality filt junk o dr (s_block st) (s_stride st) r m.
Proof. intros E0 E1. unfold high_in. rewrite E0, E1, !Nat.eqb_refl. reflexivity. Qed.

Lemma mapM_same {A B} (f g : A -> res B) l : (forall x, f x = g x) -> mapM f l = mapM g l.
Proof. intros H. induction l as [|x l IH]; cbn [mapM]; [reflexivity|]. rewrite H, IH. reflexivity. Qed.

Lemma inner_lt n b x : In x (inner n b) -> x < n.
Proof.
  unfold inner. rewrite in_seq. intros H.
  assert (L : clip n (- Z.of_nat b) <= n).
  { unfold clip. cbn zeta. set (q := if (- Z.of_nat b <? 0)%Z then _ else _). lia. }
  lia.
Qed.
Lemma kept_lt m n b xy : In xy (kept m n b) -> fst xy < m /\ snd xy < n.
Proof. unfold kept. rewrite in_grid. intros [H1 H2]. split; eapply inner_lt; eassumption. Qed.

Lemma low_match st o r m : dim0 (mvals r) = s_m st -> dim1 (mvals r) = s_n st ->
  low st o r m = low_quality gabor junk3 o (s_block st) (s_stride st) r m.
Proof.
  intros E0 E1. unfold low_in, low_quality. rewrite E0, E1.
  match goal with |- (if ?c then _ else _) = _ => destruct c; [reflexivity|] end.
  destruct (l_orient o =? 0); [reflexivity|].
  match goal with |- (let* x := mapM ?f ?l in _) = (let* y := mapM ?g ?l in _) => assert (E : mapM f l = mapM g l) end.
  { apply mapM_same. intros so. rewrite !Nat.eqb_refl. cbn [orb andb]. reflexivity. }
  rewrite E. match goal with |- (let* x := ?y in _) = _ => destruct y as [stats|e]; cbn [bind]; [|reflexivity] end.
  f_equal. f_equal. apply map_ext_in. intros xy H. apply kept_lt in H. destruct H as [Hx Hy].
  assert (I : (if s_m st =? 1 then 0 else fst xy) * s_n st + (if s_n st =? 1 then 0 else snd xy) = fst xy * s_n st + snd xy).
  { destruct (Nat.eqb_spec (s_m st) 1); destruct (Nat.eqb_spec (s_n st) 1); lia. }
  rewrite I. reflexivity.
Qed.

(** ** Setting the variables *)

Lemma set_state_eq st m n bs ov :
  match stride_of m n bs ov with
  | Ok (b, s) => set_state st [m; n] bs ov = (Ok tt, State m n b s)
  | Err e => fst (set_state st [m; n] bs ov) = Err e
  end.
Proof.
  unfold stride_of, set_state. destruct (_ || _); [reflexivity|]. destruct (0 <? bs)%Z; [|reflexivity].
  destruct (Rle_dec 1 ov); [reflexivity|]. destruct (Rlt_dec ov 0); reflexivity.
Qed.
End state.

(** The result of a call does not depend on the variables earlier calls have left. *)
Theorem C138_history : forall filt gabor junk junk3 strange st a,
  fst (mad_call filt gabor junk junk3 strange st a) = mad_alone filt gabor junk junk3 a.
Proof.
  intros filt gabor junk junk3 strange st a. unfold mad_call, mad_alone, most_apparent_distortion.
  destruct (shp (mvals (a_ref a))) as [|m [|n [|k l]]] eqn:E; [reflexivity|reflexivity| |reflexivity]. cbn [length Nat.eqb negb].
  assert (D0 : dim0 (mvals (a_ref a)) = m) by (unfold dim0; rewrite E; reflexivity).
  assert (D1 : dim1 (mvals (a_ref a)) = n) by (unfold dim1; rewrite E; reflexivity).
  rewrite D0, D1. assert (S := set_state_eq st m n (a_block a) (a_overlap a)).
  destruct (stride_of m n (a_block a) (a_overlap a)) as [[b s]|e].
  - rewrite S. cbn [fst snd bind]. unfold mad_rest. rewrite high_match, low_match by (cbn [s_m s_n]; assumption). reflexivity.
  - destruct (set_state st [m; n] (a_block a) (a_overlap a)) as [r st']. cbn [fst] in S. subst r. reflexivity.
Qed.
Print Assumptions C138_history.

(** Hence a program of several calls, failing or not, gives the list of their own results. *)
Theorem C138_calls : forall filt gabor junk junk3 strange l st,
  fst (mad_calls filt gabor junk junk3 strange st l) = map (mad_alone filt gabor junk junk3) l.
Proof.
  intros filt gabor junk junk3 strange l. induction l as [|a l IH]; intros st; cbn [mad_calls map]; [reflexivity|].
  rewrite <- (C138_history filt gabor junk junk3 strange st a).
  destruct (mad_call filt gabor junk junk3 strange st a) as [x st1]. specialize (IH st1).
  destruct (mad_calls filt gabor junk junk3 strange st1 l) as [xs st2]. cbn [fst] in *. rewrite IH. reflexivity.
Qed.
Print Assumptions C138_calls.

(** What a call leaves: always the sides of its image; the block size only if it is positive and not
    larger than a side; the stride only if the overlap is also at least 0 and below 1. *)
Theorem C138_globals : forall filt gabor junk junk3 strange st a m n, shp (mvals (a_ref a)) = [m; n] ->
  let st' := snd (mad_call filt gabor junk junk3 strange st a) in
  let valid := (0 < a_block a <= Z.of_nat m /\ a_block a <= Z.of_nat n)%Z in
  s_m st' = m /\ s_n st' = n /\
  (valid -> s_block st' = Z.to_nat (a_block a)) /\ (~ valid -> s_block st' = s_block st) /\
  (valid /\ (0 <= a_overlap a < 1)%R -> s_stride st' = Z.to_nat (a_block a - Int_part (a_overlap a * IZR (a_block a)))) /\
  (~ (valid /\ (0 <= a_overlap a < 1)%R) -> s_stride st' = s_stride st).
Proof.
  intros filt gabor junk junk3 strange st a m n E. cbn zeta. unfold mad_call. rewrite E. unfold set_state.
  destruct (Z.ltb_spec (Z.of_nat m) (a_block a)); destruct (Z.ltb_spec (Z.of_nat n) (a_block a)); cbn [orb snd s_m s_n s_block s_stride];
    try (split; [reflexivity|]; split; [reflexivity|]; split; [intros V; exfalso; lia|]; split; [reflexivity|]; split; [intros [V _]; exfalso; lia|reflexivity]).
  destruct (Z.ltb_spec 0 (a_block a)); cbn [snd s_m s_n s_block s_stride];
    [|split; [reflexivity|]; split; [reflexivity|]; split; [intros V; exfalso; lia|]; split; [reflexivity|]; split; [intros [V _]; exfalso; lia|reflexivity]].
  destruct (Rle_dec 1 (a_overlap a)); [|destruct (Rlt_dec (a_overlap a) 0)]; cbn [snd s_m s_n s_block s_stride];
    (split; [reflexivity|]; split; [reflexivity|]; split; [reflexivity|]; split; [intros V; exfalso; apply V; lia|]).
  - split; [intros [_ V]; exfalso; lra|reflexivity].
  - split; [intros [_ V]; exfalso; lra|reflexivity].
  - split; [reflexivity|]. intros V. exfalso. apply V. split; [lia|lra].
Qed.
Print Assumptions C138_globals.

(** An image that is not a plane changes nothing and is refused. *)
Theorem C138_not_plane : forall filt gabor junk junk3 strange st a, length (shp (mvals (a_ref a))) <> 2 ->
  mad_call filt gabor junk junk3 strange st a = (Err ValueError, st).
Proof.
  intros filt gabor junk junk3 strange st a H. unfold mad_call.
  destruct (shp (mvals (a_ref a))) as [|m [|n [|k l]]]; cbn [length] in H; try lia; reflexivity.
Qed.
Print Assumptions C138_not_plane.

(** ** The two indices called directly *)

(** After a successful call, images of the same size get the indices with the block size and the stride
    of that call, whatever happened before. *)
Theorem C138_after : forall filt gabor junk junk3 strange st a m n b s r i ho lo dr,
  shp (mvals (a_ref a)) = [m; n] -> stride_of m n (a_block a) (a_overlap a) = Ok (b, s) -> shp (mvals r) = [m; n] ->
  let st' := snd (mad_call filt gabor junk junk3 strange st a) in
  high_in filt junk strange st' ho dr r i = high_quality filt junk ho dr b s r i /\
  low_in gabor junk3 st' lo r i = low_quality gabor junk3 lo b s r i.
Proof.
  intros filt gabor junk junk3 strange st a m n b s r i ho lo dr E S R. cbn zeta.
  assert (X := set_state_eq st m n (a_block a) (a_overlap a)). rewrite S in X.
  unfold mad_call. rewrite E, X. cbn [snd].
  assert (D0 : dim0 (mvals r) = m) by (unfold dim0; rewrite R; reflexivity).
  assert (D1 : dim1 (mvals r) = n) by (unfold dim1; rewrite R; reflexivity).
  rewrite high_match, low_match by (cbn [s_m s_n]; assumption). split; reflexivity.
Qed.
Print Assumptions C138_after.

(** For images of another size than the last one, with no side of length 1, the detection index is a
    ValueError (unless the lightness already raises). *)
Theorem C138_other_size : forall filt junk strange st ho dr r i lr li,
  lightness (h_b ho) (h_k ho) (h_gamma ho) dr r = Ok lr -> lightness (h_b ho) (h_k ho) (h_gamma ho) dr i = Ok li ->
  (dim0 (mvals r) <> s_m st /\ dim0 (mvals r) <> 1 /\ s_m st <> 1) \/ (dim1 (mvals r) <> s_n st /\ dim1 (mvals r) <> 1 /\ s_n st <> 1) ->
  high_in filt junk strange st ho dr r i = Err ValueError.
Proof.
  intros filt junk strange st ho dr r i lr li L1 L2 H. unfold high_in. rewrite L1, L2. cbn [bind].
  assert (F : fits (s_m st) (dim0 (mvals r)) && fits (s_n st) (dim1 (mvals r)) = false).
  { unfold fits. destruct H as [(A & B & C)|(A & B & C)].
    - destruct (Nat.eqb_spec (s_m st) (dim0 (mvals r))); [congruence|]. destruct (Nat.eqb_spec (s_m st) 1); [congruence|].
      destruct (Nat.eqb_spec (dim0 (mvals r)) 1); [congruence|]. reflexivity.
    - destruct (Nat.eqb_spec (s_n st) (dim1 (mvals r))); [congruence|]. destruct (Nat.eqb_spec (s_n st) 1); [congruence|].
      destruct (Nat.eqb_spec (dim1 (mvals r)) 1); [congruence|]. apply andb_false_r. }
  assert (G : (dim0 (mvals r) =? s_m st) && (dim1 (mvals r) =? s_n st) = false).
  { destruct H as [(A & _)|(A & _)]; apply Nat.eqb_neq in A; rewrite A; [reflexivity|apply andb_false_r]. }
  rewrite F, G. reflexivity.
Qed.
Print Assumptions C138_other_size.

(** In particular before any call: every floating point image with a side above 1 fails. *)
Theorem C138_before : forall filt junk strange ho dr a b, 1 < dim0 a \/ 1 < dim1 a ->
  high_in filt junk strange initial ho dr (MFloat a) (MFloat b) = Err ValueError.
Proof.
  intros filt junk strange ho dr a b H. eapply C138_other_size; [reflexivity|reflexivity|]. cbn [initial s_m s_n mvals].
  destruct H as [H|H]; [left|right]; lia.
Qed.
Print Assumptions C138_before.

(** Calls whose block is not positive or larger than a side set neither block nor stride, however many of
    them are made; both are 0 as at import. *)
Theorem C138_unset : forall filt gabor junk junk3 strange l,
  Forall (fun a => exists m n, shp (mvals (a_ref a)) = [m; n] /\
    (a_block a <= 0 \/ Z.of_nat m < a_block a \/ Z.of_nat n < a_block a)%Z) l ->
  let '(xs, st) := mad_calls filt gabor junk junk3 strange initial l in
  xs = repeat (Err ValueError) (length l) /\ s_block st = 0 /\ s_stride st = 0.
Proof.
  intros filt gabor junk junk3 strange l H.
  assert (G : forall st, s_block st = 0 -> s_stride st = 0 ->
    let '(xs, st') := mad_calls filt gabor junk junk3 strange st l in
    xs = repeat (Err ValueError) (length l) /\ s_block st' = 0 /\ s_stride st' = 0).
  { induction H as [|a l (m & n & S & D) _ IH]; intros st B T; [repeat split; assumption|].
    cbn [mad_calls]. unfold mad_call. rewrite S.
    assert (E : set_state st [m; n] (a_block a) (a_overlap a) = (Err ValueError, State m n (s_block st) (s_stride st))).
    { unfold set_state. destruct (Z.ltb_spec (Z.of_nat m) (a_block a)); [reflexivity|].
      destruct (Z.ltb_spec (Z.of_nat n) (a_block a)); [reflexivity|].
      destruct (Z.ltb_spec 0 (a_block a)); [lia|reflexivity]. }
    rewrite E. specialize (IH (State m n (s_block st) (s_stride st)) B T).
    destruct (mad_calls filt gabor junk junk3 strange (State m n (s_block st) (s_stride st)) l) as [xs st'].
    destruct IH as (-> & X & Y). repeat split; assumption. }
  apply G; reflexivity.
Qed.
Print Assumptions C138_unset.

(** A refused block size has already replaced the sides: images of the size that worked before fail now. *)
Theorem C138_refused : forall filt gabor junk junk3 strange st a m n ho dr r i,
  shp (mvals (a_ref a)) = [m; n] -> (Z.of_nat m < a_block a)%Z -> shp r = [s_m st; s_n st] -> m <> s_m st -> m <> 1 -> s_m st <> 1 ->
  fst (mad_call filt gabor junk junk3 strange st a) = Err ValueError /\
  high_in filt junk strange (snd (mad_call filt gabor junk junk3 strange st a)) ho dr (MFloat r) (MFloat i) = Err ValueError /\
  high_in filt junk strange st ho dr (MFloat r) (MFloat i) = high_quality filt junk ho dr (s_block st) (s_stride st) (MFloat r) (MFloat i).
Proof.
  intros filt gabor junk junk3 strange st a m n ho dr r i E B R N N1 N2.
  assert (D0 : dim0 r = s_m st) by (unfold dim0; rewrite R; reflexivity).
  assert (D1 : dim1 r = s_n st) by (unfold dim1; rewrite R; reflexivity).
  assert (X : mad_call filt gabor junk junk3 strange st a = (Err ValueError, State m n (s_block st) (s_stride st))).
  { unfold mad_call. rewrite E. unfold set_state. destruct (Z.ltb_spec (Z.of_nat m) (a_block a)); [|lia]. reflexivity. }
  rewrite X. cbn [fst snd]. split; [reflexivity|]. split.
  - eapply C138_other_size; [reflexivity|reflexivity|]. cbn [s_m mvals]. left. rewrite D0. repeat split; congruence.
  - apply high_match; cbn [mvals]; assumption.
Qed.
Print Assumptions C138_refused.

(** ** Two threads *)

(** [b] sets the variables while [a] runs. Images of the same size: the parts of [a] that run later use the block
    size and the overlap of [b]. *)
Theorem C138_threads_same : forall filt gabor junk junk3 strange st a b m n ba sa bb sb,
  shp (mvals (a_ref a)) = [m; n] -> shp (mvals (a_ref b)) = [m; n] ->
  stride_of m n (a_block a) (a_overlap a) = Ok (ba, sa) -> stride_of m n (a_block b) (a_overlap b) = Ok (bb, sb) ->
  let st1 := snd (set_state st (shp (mvals (a_ref a))) (a_block a) (a_overlap a)) in
  let st2 := snd (set_state st1 (shp (mvals (a_ref b))) (a_block b) (a_overlap b)) in
  let rest s1 s2 := mad_rest filt gabor junk junk3 strange s1 s2 (a_high a) (a_low a) (a_range a) (a_beta1 a) (a_beta2 a)
                      (a_thresh1 a) (a_thresh2 a) (a_ref a) (a_mod a) in
  (* before the detection index *)
  rest st2 st2 = most_apparent_distortion filt gabor junk junk3 (a_high a) (a_low a) (a_range a) (a_block b) (a_overlap b)
                   (a_beta1 a) (a_beta2 a) (a_thresh1 a) (a_thresh2 a) (a_ref a) (a_mod a) /\
  (* between the two indices *)
  rest st1 st2 =
    (let* d := high_quality filt junk (a_high a) (a_range a) ba sa (a_ref a) (a_mod a) in
     let* p := low_quality gabor junk3 (a_low a) bb sb (a_ref a) (a_mod a) in
     Ok (combine_indices (fst (betas (a_beta1 a) (a_beta2 a) (a_thresh1 a) (a_thresh2 a)))
           (snd (betas (a_beta1 a) (a_beta2 a) (a_thresh1 a) (a_thresh2 a))) d p)) /\
  (* the same settings *)
  (a_block a = a_block b -> a_overlap a = a_overlap b -> rest st1 st2 = mad_alone filt gabor junk junk3 a).
Proof.
  intros filt gabor junk junk3 strange st a b m n ba sa bb sb Ea Eb Sa Sb. cbn zeta.
  assert (D0 : dim0 (mvals (a_ref a)) = m) by (unfold dim0; rewrite Ea; reflexivity).
  assert (D1 : dim1 (mvals (a_ref a)) = n) by (unfold dim1; rewrite Ea; reflexivity).
  assert (X := set_state_eq st m n (a_block a) (a_overlap a)). rewrite Sa in X. rewrite Ea, X. cbn [snd].
  assert (Y := set_state_eq (State m n ba sa) m n (a_block b) (a_overlap b)). rewrite Sb in Y. rewrite Eb, Y. cbn [snd].
  unfold mad_rest. rewrite !high_match, low_match by (cbn [s_m s_n]; assumption). cbn [s_block s_stride].
  split; [|split; [reflexivity|]].
  - unfold most_apparent_distortion. rewrite Ea, D0, D1, Sb. reflexivity.
  - intros Q1 Q2. unfold mad_alone, most_apparent_distortion. rewrite Ea, D0, D1, Sa.
    rewrite Q1, Q2, Sb in Sa. injection Sa as <- <-. reflexivity.
Qed.
Print Assumptions C138_threads_same.

(** Images of other sizes: [a] never gives a value, if its weights are as many as scales and there is a scale. *)
Theorem C138_threads_other : forall filt gabor junk junk3 strange st a b m n m' n' x,
  shp (mvals (a_ref a)) = [m; n] -> shp (mvals (a_ref b)) = [m'; n'] -> 1 < m -> 1 < m' -> m <> m' -> 0 < l_scales (a_low a) ->
  let st1 := snd (set_state st (shp (mvals (a_ref a))) (a_block a) (a_overlap a)) in
  let st2 := snd (set_state st1 (shp (mvals (a_ref b))) (a_block b) (a_overlap b)) in
  let rest s1 s2 := mad_rest filt gabor junk junk3 strange s1 s2 (a_high a) (a_low a) (a_range a) (a_beta1 a) (a_beta2 a)
                      (a_thresh1 a) (a_thresh2 a) (a_ref a) (a_mod a) in
  rest st2 st2 <> Ok x /\ rest st1 st2 <> Ok x.
Proof.
  intros filt gabor junk junk3 strange st a b m n m' n' x Ea Eb M1 M2 Hm Hs st1 st2 rest.
  assert (D0 : dim0 (mvals (a_ref a)) = m) by (unfold dim0; rewrite Ea; reflexivity).
  assert (S2 : s_m st2 = m').
  { unfold st2. rewrite Eb. unfold set_state. destruct (_ || _); [reflexivity|]. destruct (0 <? a_block b)%Z; [|reflexivity].
    destruct (Rle_dec _ _); [reflexivity|]. destruct (Rlt_dec _ _); reflexivity. }
  assert (L : forall y, low_in gabor junk3 st2 (a_low a) (a_ref a) (a_mod a) <> Ok y).
  { intros v. unfold low_in. destruct (negb _); [discriminate|]. destruct (l_orient (a_low a)) as [|o] eqn:Eo; [discriminate|]. cbn [Nat.eqb].
    destruct (l_scales (a_low a)) as [|k]; [lia|]. cbn [seq grid flat_map map app mapM].
    match goal with |- (let* _ := ?u in _) <> _ => destruct u as [st'|e] eqn:Q; cbn [bind]; [exfalso|discriminate] end.
    match type of Q with (let* p := (let* _ := ?u in _) in _) = _ => destruct u as [p|e]; cbn [bind] in Q; [|discriminate] end.
    match type of Q with (let* p := (let* _ := ?u in _) in _) = _ => destruct u as [q|e]; cbn [bind] in Q; [|discriminate] end.
    rewrite S2, D0 in Q. destruct (Nat.eqb_spec m m'); [contradiction|]. destruct (Nat.eqb_spec m 1); [lia|]. cbn [orb andb bind] in Q. discriminate. }
  unfold rest, mad_rest.
  split; match goal with |- (let* _ := ?u in _) <> _ => destruct u as [d|e]; cbn [bind]; [|discriminate] end;
    match goal with |- (let* _ := ?u in _) <> _ => destruct u as [p|e] eqn:Q; cbn [bind]; [destruct (L p eq_refl)|discriminate] end.
Qed.
Print Assumptions C138_threads_other.

(** ** The argument weights *)

Lemma sum_scaled c l : Sum (fun x => x) (map (Rmult c) l) = (c * Sum (fun x => x) l)%R.
Proof. unfold Sum, rsum in *. induction l as [|x l IH]; cbn [map fold_right]; [lra|]. cbn [map fold_right] in IH. rewrite IH. lra. Qed.
Lemma by_sum_fin l : Sum (fun x => x) l <> 0%R -> by_sum l = map (fun w => Fin (w / Sum (fun x => x) l)) l.
Proof. intros H. unfold by_sum. apply map_ext. intros w. cbn [ext_div]. destruct (Req_EM_T _ _); [contradiction|reflexivity]. Qed.

(** What the index computes with: the same for a list and for an array of floats; an array of integers
    is refused, and so is nothing else. *)
Theorem C138_weights_form : forall w l,
  (w = WSeq l \/ w = WFloats l -> fst (divide_weights w) = Ok (map (fun x => ext_div (Fin x) (Fin (Sum (fun x => x) l))) l)) /\
  (fst (divide_weights w) = Err TypeError <-> exists z, w = WInts z) /\
  (forall e, fst (divide_weights w) = Err e -> e = TypeError).
Proof.
  intros w l. split; [intros [-> | ->]; reflexivity|]. split.
  - destruct w as [k|k|k]; cbn [divide_weights fst]; split; intros H; try discriminate H; try (destruct H; discriminate); eauto.
  - destruct w; cbn [divide_weights fst]; intros e H; [discriminate|discriminate|congruence].
Qed.
Print Assumptions C138_weights_form.

(** What the caller has afterwards: a list or tuple and an array of integers are unchanged; an array of
    floats (with a sum other than 0) now holds its values divided by their sum. Its sum is 1 afterwards,
    and it is unchanged exactly when the sum was 1. *)
Theorem C138_weights_caller : forall l z,
  snd (divide_weights (WSeq l)) = map Some l /\
  snd (divide_weights (WInts z)) = map (fun k => Some (IZR k)) z /\
  (Sum (fun x => x) l <> 0%R ->
     snd (divide_weights (WFloats l)) = map (fun x => Some (x / Sum (fun x => x) l)%R) l /\
     Sum (fun x => x) (map (fun x => x / Sum (fun x => x) l)%R l) = 1%R /\
     (snd (divide_weights (WFloats l)) = map Some l <-> Sum (fun x => x) l = 1%R)).
Proof.
  intros l z. split; [reflexivity|]. split; [reflexivity|]. intros H. set (s := Sum (fun x => x) l) in *.
  assert (E : snd (divide_weights (WFloats l)) = map (fun x => Some (x / s)%R) l).
  { cbn [divide_weights snd]. rewrite by_sum_fin by exact H. rewrite map_map. reflexivity. }
  assert (S1 : Sum (fun x => x) (map (fun x => x / s)%R l) = 1%R).
  { rewrite (map_ext _ (Rmult (/ s))) by (intros; unfold Rdiv; lra). rewrite sum_scaled. fold s. field. exact H. }
  split; [exact E|]. split; [exact S1|]. rewrite E. split; intros Q.
  - assert (Q' : map (fun x => x / s)%R l = l).
    { clear -Q. clearbody s. induction l as [|x l IH]; [reflexivity|]. cbn [map] in *. injection Q as Q1 Q2. rewrite Q1, (IH Q2). reflexivity. }
    rewrite Q' in S1. exact S1.
  - rewrite Q. apply map_ext. intros x. f_equal. field.
Qed.
Print Assumptions C138_weights_caller.

(** So a second call with the same array computes with the same weights and leaves it as it is. *)
Theorem C138_weights_again : forall l, Sum (fun x => x) l <> 0%R ->
  let l' := map (fun x => (x / Sum (fun x => x) l)%R) l in
  divide_weights (WFloats l') = (fst (divide_weights (WFloats l)), map Some l').
Proof.
  intros l H l'. destruct (C138_weights_caller l [] ) as (_ & _ & X). destruct (X H) as (_ & S1 & _).
  fold l' in S1. assert (H1 : Sum (fun x => x) l' <> 0%R) by lra.
  destruct (C138_weights_caller l' []) as (_ & _ & Y). destruct (Y H1) as (_ & _ & W). destruct W as [_ W]. specialize (W S1).
  rewrite (surjective_pairing (divide_weights (WFloats l'))), W. f_equal.
  cbn [divide_weights fst]. rewrite !by_sum_fin by assumption. f_equal. rewrite S1. unfold l'. rewrite map_map. apply map_ext.
  intros x. f_equal. field. exact H.
Qed.
Print Assumptions C138_weights_again.

(** With sum 0 (there is a weight) the array is lost: no entry is a finite number. *)
Theorem C138_weights_lost : forall l, Sum (fun x => x) l = 0%R ->
  snd (divide_weights (WFloats l)) = repeat None (length l).
Proof.
  intros l H. cbn [divide_weights snd]. unfold by_sum. rewrite H. rewrite map_map. clear H.
  induction l as [|x l IH]; cbn [map length repeat]; [reflexivity|]. rewrite IH. f_equal.
  cbn [ext_div]. destruct (Req_EM_T 0 0) as [_|C]; [|contradiction]. unfold Rsgn_ext. repeat destruct (Rlt_dec _ _); reflexivity.
Qed.
Print Assumptions C138_weights_lost.

(** Only the ratios of the weights matter: for the low quality index and for MAD. *)
Theorem C138_weights_ratio : forall gabor junk3 o b s r m c, c <> 0%R ->
  let o' := {| l_orient := l_orient o; l_scales := l_scales o; l_weights := map (Rmult c) (l_weights o) |} in
  Sum (fun x => x) (l_weights o) <> 0%R ->
  low_quality gabor junk3 o' b s r m = low_quality gabor junk3 o b s r m.
Proof.
  intros gabor junk3 o b s r m c Hc o' H.
  assert (E : by_sum (map (Rmult c) (l_weights o)) = by_sum (l_weights o)).
  { rewrite !by_sum_fin; [|exact H|rewrite sum_scaled; apply Rmult_integral_contrapositive; split; assumption].
    rewrite sum_scaled, map_map. apply map_ext. intros x. f_equal. field. split; assumption. }
  unfold low_quality, o'. cbn [l_orient l_scales l_weights].
  change (map (fun w => ext_div (Fin w) (Fin (Sum (fun x => x) (map (Rmult c) (l_weights o))))) (map (Rmult c) (l_weights o)))
    with (by_sum (map (Rmult c) (l_weights o))). rewrite E. reflexivity.
Qed.
Print Assumptions C138_weights_ratio.

(** ** Examples *)

(** Weights 2 and 2 become 1/2 and 1/2. *)
Example weights_halved : snd (divide_weights (WFloats [2; 2]%R)) = [Some (1 / 2); Some (1 / 2)]%R.
Proof.
  assert (S4 : Sum (fun x => x) [2; 2]%R = 4%R) by (unfold Sum; cbn [map rsum fold_right]; lra).
  destruct (C138_weights_caller [2; 2]%R []) as (_ & _ & X). rewrite S4 in X. destruct X as (-> & _); [lra|].
  cbn [map]. assert (Q : (2 / 4 = 1 / 2)%R) by lra. rewrite Q. reflexivity.
Qed.
(** The state after a call with a block of 20 on a 16 x 16 image that followed the initial one. *)
Example too_large : forall ov, snd (set_state initial [16; 16] 20 ov) = State 16 16 (s_block initial) (s_stride initial).
Proof. reflexivity. Qed.
(** A 4 x 4 image before any call. *)
Example alone_fails : forall filt junk strange ho v,
  high_in filt junk strange initial ho 1 (MFloat ({| shp := [4; 4]; dat := repeat v 16 |})) (MFloat ({| shp := [4; 4]; dat := repeat v 16 |})) = Err ValueError.
Proof. intros. apply C138_before. left. cbn. lia. Qed.
