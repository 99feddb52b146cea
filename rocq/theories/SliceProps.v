(** C42-C44 and C81: slices, volumes and colour of the slice-wise metrics. *)
From Coq Require Import Reals Lra Psatz.
From Verif Require Import Base NdArray LoadModel LoadProofs NormModel PairModel RealSums
  MetricModel SsimModel SsimProofs SliceModel.

(** ** Lemmas *)

(** What [take_axis] returns: for axes 0, 1, 2 of a volume, element by element. *)
Lemma take_axis_spec {A} ax s (a : arr A) x y z p : wf a -> shp a = [x; y; z] -> ax < 3 ->
  (p = if s <? 0 then s + Z.of_nat (nth ax [x; y; z] 0%nat) else s)%Z ->
  (0 <= p < Z.of_nat (nth ax [x; y; z] 0%nat))%Z ->
  exists b, take_axis ax s a = Ok b /\ wf b /\
    shp b = match ax with 0 => [y; z] | 1 => [x; z] | _ => [x; y] end /\
    forall i j, inb (shp b) [i; j] = true ->
      get b [i; j] = get a (match ax with 0 => [Z.to_nat p; i; j] | 1 => [i; Z.to_nat p; j] | _ => [i; j; Z.to_nat p] end).
Proof.
  intros Hwf Hs Hax Hp Hr. unfold take_axis. rewrite Hs. cbv zeta. rewrite <- Hp.
  destruct (Nat.leb_spec (length [x; y; z]) ax); [cbn [length] in *; lia|].
  destruct (Z.ltb_spec p 0); [lia|]. destruct (Z.leb_spec (Z.of_nat (nth ax [x; y; z] 0)) p); [lia|]. cbn [orb].
  destruct (reindex_ok a (drop_ax ax [x; y; z]) (insert_ax ax (Z.to_nat p)) Hwf) as [b Hb].
  { intros idx Hin. rewrite Hs.
    destruct ax as [|[|[|ax]]]; [| | |lia]; cbn [drop_ax firstn skipn app nth] in *; inb3; cbn [insert_ax firstn skipn app];
      inb_goal. }
  exists b. apply reindex_spec in Hb as Hb'. destruct Hb' as (S1 & W & G). split; [exact Hb|]. split; [exact W|].
  destruct ax as [|[|[|ax]]]; [| | |lia]; cbn [drop_ax firstn skipn app] in *; (split; [exact S1|]); intros i j Hin;
    rewrite S1 in Hin; rewrite (G _ Hin); reflexivity.
Qed.

Lemma take_axis_out {A} ax s (a : arr A) x y z : shp a = [x; y; z] -> ax < 3 ->
  (s < - Z.of_nat (nth ax [x; y; z] 0%nat) \/ Z.of_nat (nth ax [x; y; z] 0%nat) <= s)%Z ->
  take_axis ax s a = Err IndexError.
Proof.
  intros Hs Hax H. unfold take_axis. rewrite Hs. cbv zeta.
  destruct (Nat.leb_spec (length [x; y; z]) ax); [reflexivity|]. cbn [orb].
  destruct (Z.ltb_spec s 0).
  - destruct (Z.ltb_spec (s + Z.of_nat (nth ax [x; y; z] 0)) 0); [reflexivity|lia].
  - destruct (Z.ltb_spec s 0); [lia|]. destruct (Z.leb_spec (Z.of_nat (nth ax [x; y; z] 0)) s); [reflexivity|lia].
Qed.

Lemma take_axis_shape {A} ax s (a b : arr A) : take_axis ax s a = Ok b -> shp b = drop_ax ax (shp a) /\ ax < length (shp a) /\ wf b.
Proof.
  unfold take_axis. destruct (_ || _ || _) eqn:E; [discriminate|]. intros H. apply reindex_spec in H as (H1 & H2 & _).
  apply orb_false_iff in E as [E _]. apply orb_false_iff in E as [E _]. apply Nat.leb_gt in E. auto.
Qed.

Lemma take_axis_cases {A} ax s (a : arr A) x y z : wf a -> shp a = [x; y; z] -> ax < 3 ->
  (exists b, take_axis ax s a = Ok b /\ shp b = match ax with 0 => [y; z] | 1 => [x; z] | _ => [x; y] end) \/
  take_axis ax s a = Err IndexError.
Proof.
  intros Wa Sa Hax. set (n := Z.of_nat (nth ax [x; y; z] 0)).
  assert (C : (s < - n \/ n <= s \/ (- n <= s < n))%Z) by lia. destruct C as [C|[C|C]].
  - right. eapply take_axis_out; [exact Sa|exact Hax|]. left. exact C.
  - right. eapply take_axis_out; [exact Sa|exact Hax|]. right. exact C.
  - left. destruct (take_axis_spec ax s a x y z _ Wa Sa Hax eq_refl) as (b & Hb & _ & Sb & _).
    + fold n. destruct (Z.ltb_spec s 0); lia.
    + eauto.
Qed.

(** The three tensor layouts. *)
Lemma tensor_volume {A} (a : arr A) x y z : wf a -> shp a = [x; y; z] ->
  exists t, to_tensor false a = Ok t /\ wf t /\ shp t = [z; 1; x; y] /\
    forall i j k, i < x -> j < y -> k < z -> get t [k; 0; i; j] = get a [i; j; k].
Proof.
  intros Hwf Hs. unfold to_tensor. rewrite Hs. cbn [length Nat.eqb]. unfold unsqueeze0. rewrite Hs.
  destruct (reindex_ok a (1 :: [x; y; z]) (@tl nat) Hwf) as [b Hb].
  { intros idx Hin. rewrite Hs. inb3. inb_goal. }
  rewrite Hb. cbn [bind]. apply reindex_spec in Hb as (S1 & W1 & G1).
  unfold permute. rewrite S1. cbn [length Nat.eqb map nth seq position].
  destruct (reindex_ok b [z; 1; x; y] (fun idx => [nth 1 idx 0; nth 2 idx 0; nth 3 idx 0; nth 0 idx 0]) W1) as [t Ht].
  { intros idx Hin. rewrite S1. inb3. cbn [nth]. inb_goal. }
  exists t. split; [exact Ht|]. apply reindex_spec in Ht as (S2 & W2 & G2). split; [exact W2|]. split; [exact S2|].
  intros i j k Hi Hj Hk. rewrite G2 by inb_goal. cbn [nth]. rewrite G1 by inb_goal. reflexivity.
Qed.

Lemma tensor_plane {A} (a : arr A) x y : wf a -> shp a = [x; y] ->
  exists t, to_tensor false a = Ok t /\ wf t /\ shp t = [1; 1; x; y] /\
    forall i j, i < x -> j < y -> get t [0; 0; i; j] = get a [i; j].
Proof.
  intros Hwf Hs. unfold to_tensor. rewrite Hs. cbn [length Nat.eqb]. unfold unsqueeze0. rewrite Hs.
  destruct (reindex_ok a (1 :: [x; y]) (@tl nat) Hwf) as [b Hb].
  { intros idx Hin. rewrite Hs. inb3. inb_goal. }
  rewrite Hb. cbn [bind]. apply reindex_spec in Hb as (S1 & W1 & G1). rewrite S1.
  destruct (reindex_ok b (1 :: 1 :: [x; y]) (@tl nat) W1) as [t Ht].
  { intros idx Hin. rewrite S1. inb3. inb_goal. }
  exists t. split; [exact Ht|]. apply reindex_spec in Ht as (S2 & W2 & G2). split; [exact W2|]. split; [exact S2|].
  intros i j Hi Hj. rewrite G2 by inb_goal. cbn [tl]. rewrite G1 by inb_goal. reflexivity.
Qed.

Lemma tensor_colour {A} (a : arr A) x y z : wf a -> shp a = [x; y; z] ->
  exists t, to_tensor true a = Ok t /\ wf t /\ shp t = [1; z; x; y] /\
    forall i j c, i < x -> j < y -> c < z -> get t [0; c; i; j] = get a [i; j; c].
Proof.
  intros Hwf Hs. unfold to_tensor, permute. rewrite Hs. cbn [length Nat.eqb map nth seq position].
  destruct (reindex_ok a [z; x; y] (fun idx => [nth 1 idx 0; nth 2 idx 0; nth 0 idx 0]) Hwf) as [b Hb].
  { intros idx Hin. rewrite Hs. inb3. cbn [nth]. inb_goal. }
  rewrite Hb. cbn [bind]. apply reindex_spec in Hb as (S1 & W1 & G1). unfold unsqueeze0. rewrite S1.
  destruct (reindex_ok b (1 :: [z; x; y]) (@tl nat) W1) as [t Ht].
  { intros idx Hin. rewrite S1. inb3. inb_goal. }
  exists t. split; [exact Ht|]. apply reindex_spec in Ht as (S2 & W2 & G2). split; [exact W2|]. split; [exact S2|].
  intros i j c Hi Hj Hc. rewrite G2 by inb_goal. cbn [tl]. rewrite G1 by inb_goal. reflexivity.
Qed.

(** ** C42 *)

(** A volume for metric [k]: three axes, and for MS-SSIM, FSIM and VIFp not three values in the last. *)
Definition volume {A} (k : piq_kind) (a : arr A) : Prop :=
  exists x y z, shp a = [x; y; z] /\ (k = KVSI \/ z <> 3).

Lemma volume_branch {A} k (a : arr A) : volume k a ->
  (length (shp a) =? 3) && negb (rgb_aware k && ((length (shp a) =? 3) && (last (shp a) 0 =? 3))) = true.
Proof.
  intros (x & y & z & -> & H). cbn [length Nat.eqb last andb]. destruct H as [-> |H]; [reflexivity|].
  destruct (Nat.eqb_spec z 3); [contradiction|]. rewrite andb_false_r. reflexivity.
Qed.

(** With an axis and an integer slice number, the score is the score of the two slices as 2D images. *)
Theorem C42_piq_slice : forall {A} (f : arr A -> arr A -> res ext) k chromatic d s r m dim' sl',
  volume k r -> (d = 0 \/ d = 1 \/ d = 2)%Z ->
  piq_score f k chromatic (DNum d) (SlInt s) r m =
  let* rs := take_axis (Z.to_nat d) s r in
  let* ms := take_axis (Z.to_nat d) s m in
  piq_score f k chromatic dim' sl' rs ms.
Proof.
  intros A f k chromatic d s r m dim' sl' HV Hd. unfold piq_score at 1. rewrite (volume_branch k r HV).
  assert (E : axis_of (DNum d) = Ok (Z.to_nat d)) by (destruct Hd as [-> |[-> | ->]]; reflexivity).
  rewrite E. cbn [bind]. destruct (take_axis (Z.to_nat d) s r) as [rs|] eqn:Er; [|reflexivity]. cbn [bind].
  destruct (take_axis (Z.to_nat d) s m) as [ms|]; [|reflexivity]. cbn [bind].
  apply take_axis_shape in Er as (S1 & L & _). destruct HV as (x & y & z & Hs & _). rewrite Hs in S1.
  unfold piq_score. assert (L2 : length (shp rs) = 2).
  { rewrite S1. destruct Hd as [-> |[-> | ->]]; reflexivity. }
  rewrite L2. cbn [Nat.eqb andb orb]. reflexivity.
Qed.
Print Assumptions C42_piq_slice.

Theorem C42_own_slice : forall {A} (g : arr A -> arr A -> res ext) e d s r m x y z dim' sl' e',
  shp r = [x; y; z] -> (d = 0 \/ d = 1 \/ d = 2)%Z ->
  own_score g e (DNum d) (SlInt s) r m =
  let* rs := take_axis (Z.to_nat d) s r in
  let* ms := take_axis (Z.to_nat d) s m in
  own_score g e' dim' sl' rs ms.
Proof.
  intros A g e d s r m x y z dim' sl' e' Hs Hd. unfold own_score at 1. rewrite Hs. cbn [length Nat.eqb].
  assert (E : axis_of (DNum d) = Ok (Z.to_nat d)) by (destruct Hd as [-> |[-> | ->]]; reflexivity).
  rewrite E. cbn [bind]. destruct (take_axis (Z.to_nat d) s r) as [rs|] eqn:Er; [|reflexivity]. cbn [bind].
  destruct (take_axis (Z.to_nat d) s m) as [ms|]; [|reflexivity]. cbn [bind].
  apply take_axis_shape in Er as (S1 & L & _). rewrite Hs in S1.
  unfold own_score. assert (L2 : length (shp rs) = 2).
  { rewrite S1. destruct Hd as [-> |[-> | ->]]; reflexivity. }
  rewrite L2. reflexivity.
Qed.
Print Assumptions C42_own_slice.

(** The slices: number s counts from the front, or from the back if negative. *)
Theorem C42_slice_contents : forall {A} (a : arr A) x y z s, wf a -> shp a = [x; y; z] ->
  (forall n, (0 <= s < Z.of_nat x \/ - Z.of_nat x <= s < 0)%Z -> (n = Z.to_nat (if s <? 0 then s + Z.of_nat x else s)%Z) ->
     exists b, take_axis 0 s a = Ok b /\ shp b = [y; z] /\ forall i j, i < y -> j < z -> get b [i; j] = get a [n; i; j]) /\
  (forall n, (0 <= s < Z.of_nat y \/ - Z.of_nat y <= s < 0)%Z -> (n = Z.to_nat (if s <? 0 then s + Z.of_nat y else s)%Z) ->
     exists b, take_axis 1 s a = Ok b /\ shp b = [x; z] /\ forall i j, i < x -> j < z -> get b [i; j] = get a [i; n; j]) /\
  (forall n, (0 <= s < Z.of_nat z \/ - Z.of_nat z <= s < 0)%Z -> (n = Z.to_nat (if s <? 0 then s + Z.of_nat z else s)%Z) ->
     exists b, take_axis 2 s a = Ok b /\ shp b = [x; y] /\ forall i j, i < x -> j < y -> get b [i; j] = get a [i; j; n]) /\
  (forall ax, ax < 3 -> (s < - Z.of_nat (nth ax [x; y; z] 0%nat) \/ Z.of_nat (nth ax [x; y; z] 0%nat) <= s)%Z ->
     take_axis ax s a = Err IndexError).
Proof.
  intros A a x y z s Hwf Hs.
  assert (G : forall ax n, ax < 3 -> n = nth ax [x; y; z] 0 -> (0 <= s < Z.of_nat n \/ - Z.of_nat n <= s < 0)%Z ->
    exists b, take_axis ax s a = Ok b /\ shp b = match ax with 0 => [y; z] | 1 => [x; z] | _ => [x; y] end /\
      forall i j, inb (shp b) [i; j] = true -> get b [i; j] = get a (match ax with
        0 => [Z.to_nat (if s <? 0 then s + Z.of_nat n else s)%Z; i; j]
      | 1 => [i; Z.to_nat (if s <? 0 then s + Z.of_nat n else s)%Z; j]
      | _ => [i; j; Z.to_nat (if s <? 0 then s + Z.of_nat n else s)%Z] end)).
  { intros ax n Hax -> H.
    destruct (take_axis_spec ax s a x y z _ Hwf Hs Hax eq_refl) as (b & Hb & _ & S1 & E).
    - destruct (Z.ltb_spec s 0); lia.
    - exists b. auto. }
  split; [|split; [|split]].
  - intros n H ->. destruct (G 0 x) as (b & Hb & S1 & E); try lia; [reflexivity|]. exists b. split; [exact Hb|]. split; [exact S1|].
    intros i j Hi Hj. apply E. rewrite S1. inb_goal.
  - intros n H ->. destruct (G 1 y) as (b & Hb & S1 & E); try lia; [reflexivity|]. exists b. split; [exact Hb|]. split; [exact S1|].
    intros i j Hi Hj. apply E. rewrite S1. inb_goal.
  - intros n H ->. destruct (G 2 z) as (b & Hb & S1 & E); try lia; [reflexivity|]. exists b. split; [exact Hb|]. split; [exact S1|].
    intros i j Hi Hj. apply E. rewrite S1. inb_goal.
  - intros ax Hax H. eapply take_axis_out; eassumption.
Qed.
Print Assumptions C42_slice_contents.

(** Bad arguments. *)
Theorem C42_errors : forall {A} (f : arr A -> arr A -> res ext) k chromatic e dim sl r m x y z,
  shp r = [x; y; z] ->
  dim = DNone \/ sl = SlOther \/ (exists s, sl = SlInt s) /\ ~ (exists d, dim = DNum d /\ (0 <= d <= 2)%Z) ->
  (k = KVSI \/ z <> 3 -> piq_score f k chromatic dim sl r m = Err ValueError) /\
  own_score f e dim sl r m = Err ValueError.
Proof.
  intros A f k chromatic e dim sl r m x y z Hs H.
  assert (AX : ~ (exists d, dim = DNum d /\ (0 <= d <= 2)%Z) -> axis_of dim = Err ValueError).
  { intros N. destruct dim as [|d|]; [reflexivity| |reflexivity]. unfold axis_of.
    destruct d as [|[p|p|]|p]; try reflexivity; try (exfalso; apply N; eexists; split; [reflexivity|lia]).
    destruct p; try reflexivity. exfalso; apply N; eexists; split; [reflexivity|lia]. }
  split.
  - intros Hk. unfold piq_score. rewrite (volume_branch k r) by (exists x, y, z; auto).
    destruct H as [->|[->|[[s ->] N]]]; [reflexivity|destruct dim; reflexivity|].
    destruct dim; [reflexivity| |]; rewrite (AX N); reflexivity.
  - unfold own_score. rewrite Hs. cbn [length Nat.eqb].
    destruct H as [->|[->|[[s ->] N]]]; [reflexivity|destruct dim; reflexivity|].
    destruct dim; [reflexivity| |]; rewrite (AX N); reflexivity.
Qed.
Print Assumptions C42_errors.

(** Both arguments are ignored for 2D images. *)
Theorem C42_plane : forall {A} (f : arr A -> arr A -> res ext) k chromatic e dim sl r m x y,
  shp r = [x; y] ->
  piq_score f k chromatic dim sl r m = piq_pair f chromatic r m /\ own_score f e dim sl r m = f r m.
Proof.
  intros A f k chromatic e dim sl r m x y Hs. unfold piq_score, own_score. rewrite Hs. cbn [length Nat.eqb andb orb].
  split; reflexivity.
Qed.
Print Assumptions C42_plane.

Example C42_example : forall f : arr Z -> arr Z -> res ext,
  let v := Arr [2; 2; 2] [1; 2; 3; 4; 5; 6; 7; 8]%Z in
  own_score f false (DNum 1) (SlInt (-1)) v v = f (Arr [2; 2] [3; 4; 7; 8]%Z) (Arr [2; 2] [3; 4; 7; 8]%Z).
Proof. reflexivity. Qed.

(** ** C43 *)

(** MAD and GSM: mean of the scores of the slices along the requested axis. *)
Theorem C43_own : forall {A} (g : arr A -> arr A -> res ext) d r m x y z,
  wf r -> wf m -> shp r = [x; y; z] -> shp m = [x; y; z] -> (d = 0 \/ d = 1 \/ d = 2)%Z ->
  exists rs ms,
    (forall k, k < nth (Z.to_nat d) [x; y; z] 0 ->
       take_axis (Z.to_nat d) (Z.of_nat k) r = Ok (rs k) /\ take_axis (Z.to_nat d) (Z.of_nat k) m = Ok (ms k)) /\
    own_score g false (DNum d) SlNone r m =
      let* scores := mapM (fun k => g (rs k) (ms k)) (seq 0 (nth (Z.to_nat d) [x; y; z] 0)) in Ok (mean_ext scores).
Proof.
  intros A g d r m x y z Wr Wm Sr Sm Hd.
  set (ax := Z.to_nat d). assert (Hax : ax < 3) by (unfold ax; lia).
  set (F := fun (a : arr A) k => match take_axis ax (Z.of_nat k) a with Ok b => b | Err _ => a end).
  assert (G : forall (a : arr A) k, wf a -> shp a = [x; y; z] -> k < nth ax [x; y; z] 0 -> take_axis ax (Z.of_nat k) a = Ok (F a k)).
  { intros a k Hw Hs Hk. destruct (take_axis_spec ax (Z.of_nat k) a x y z (Z.of_nat k) Hw Hs Hax) as (b & Hb & _).
    - destruct (Z.ltb_spec (Z.of_nat k) 0); lia.
    - lia.
    - unfold F. rewrite Hb. reflexivity. }
  exists (F r), (F m). split; [intros k Hk; split; apply G; assumption|].
  unfold own_score. rewrite Sr. cbn [length Nat.eqb]. unfold slice_mean.
  assert (E : axis_of (DNum d) = Ok ax) by (unfold ax; destruct Hd as [-> |[-> | ->]]; reflexivity).
  rewrite E. cbn [bind]. rewrite Sr. f_equal.
  assert (X : forall l, (forall k, In k l -> k < nth ax [x; y; z] 0) ->
    mapM (fun k => let* rs := take_axis ax (Z.of_nat k) r in let* ms := take_axis ax (Z.of_nat k) m in g rs ms) l =
    mapM (fun k => g (F r k) (F m k)) l).
  { induction l as [|k l IH]; intros Hl; [reflexivity|]. cbn [mapM].
    rewrite (G r k Wr Sr), (G m k Wm Sm) by (apply Hl; left; reflexivity). cbn [bind].
    rewrite IH by (intros; apply Hl; right; assumption). reflexivity. }
  apply X. intros k Hk. apply in_seq in Hk. lia.
Qed.
Print Assumptions C43_own.

Theorem C43_own_dim_error : forall {A} (g : arr A -> arr A -> res ext) dim r m x y z,
  shp r = [x; y; z] -> ~ (exists d, dim = DNum d /\ (0 <= d <= 2)%Z) ->
  own_score g false dim SlNone r m = Err ValueError.
Proof.
  intros A g dim r m x y z Hs N. unfold own_score. rewrite Hs. cbn [length Nat.eqb]. unfold slice_mean.
  assert (AX : axis_of dim = Err ValueError).
  { destruct dim as [|d|]; [reflexivity| |reflexivity]. unfold axis_of.
    destruct d as [|[p|p|]|p]; try reflexivity; try (exfalso; apply N; eexists; split; [reflexivity|lia]).
    destruct p; try reflexivity. exfalso; apply N; eexists; split; [reflexivity|lia]. }
  rewrite AX. destruct dim; reflexivity.
Qed.
Print Assumptions C43_own_dim_error.

(** GSM with experimental=True does not look at dim either. *)
Theorem C43_experimental : forall {A} (g : arr A -> arr A -> res ext) dim r m x y z,
  shp r = [x; y; z] -> dim <> DNone -> own_score g true dim SlNone r m = g r m.
Proof. intros A g dim r m x y z Hs H. unfold own_score. rewrite Hs. destruct dim; [congruence|reflexivity|reflexivity]. Qed.
Print Assumptions C43_experimental.

(** MS-SSIM, FSIM, VIFp, VSI: whatever dim is (not None), always the batch of slices along the last axis. *)
Theorem C43_piq : forall {A} (f : arr A -> arr A -> res ext) k dim r m x y z,
  wf r -> wf m -> shp r = [x; y; z] -> shp m = [x; y; z] -> (k = KVSI \/ z <> 3) -> dim <> DNone ->
  exists tr tm, piq_score f k false dim SlNone r m = f tr tm /\
    shp tr = [z; 1; x; y] /\ shp tm = [z; 1; x; y] /\
    (forall i j s, i < x -> j < y -> s < z ->
       get tr [s; 0; i; j] = get r [i; j; s] /\ get tm [s; 0; i; j] = get m [i; j; s]).
Proof.
  intros A f k dim r m x y z Wr Wm Sr Sm Hk Hd.
  destruct (tensor_volume r x y z Wr Sr) as (tr & Tr & _ & S1 & G1).
  destruct (tensor_volume m x y z Wm Sm) as (tm & Tm & _ & S2 & G2).
  exists tr, tm. split.
  - unfold piq_score. rewrite (volume_branch k r) by (exists x, y, z; auto).
    assert (E : piq_pair f false r m = f tr tm) by (unfold piq_pair; rewrite Tr, Tm; reflexivity).
    destruct dim; [congruence|exact E|exact E].
  - split; [exact S1|]. split; [exact S2|]. intros i j s Hi Hj Hs. split; [apply G1|apply G2]; assumption.
Qed.
Print Assumptions C43_piq.

(** So every dim gives the same score. *)
Theorem C43_piq_dim_ignored : forall {A} (f : arr A -> arr A -> res ext) k chromatic dim dim' r m x y z,
  shp r = [x; y; z] -> dim <> DNone -> dim' <> DNone ->
  piq_score f k chromatic dim SlNone r m = piq_score f k chromatic dim' SlNone r m.
Proof.
  intros A f k chromatic dim dim' r m x y z Hs H H'. unfold piq_score. rewrite Hs.
  destruct dim; [congruence| |]; destruct dim'; try congruence; reflexivity.
Qed.
Print Assumptions C43_piq_dim_ignored.

(** If the tensor metric is the mean over the batch of a score of single 1 x 1 x h x w tensors (piq's
    reduction='mean'), the volume score is the mean over the slices [:, :, s] scored as 2D images. *)
Definition batch_entry {A} (t : arr A) (s : nat) : res (arr A) :=
  reindex t (1 :: tl (shp t)) (fun idx => s :: tl idx).
Definition batch_mean {A} (f g : arr A -> arr A -> res ext) : Prop := forall tr tm,
  f tr tm = let* scores := mapM (fun s => let* a := batch_entry tr s in let* b := batch_entry tm s in g a b)
                             (seq 0 (nth 0 (shp tr) 0)) in Ok (mean_ext scores).

Lemma entry_slice {A} (a t : arr A) x y z s : wf a -> shp a = [x; y; z] -> to_tensor false a = Ok t -> s < z ->
  exists b c, take_axis 2 (Z.of_nat s) a = Ok b /\ to_tensor false b = Ok c /\ batch_entry t s = Ok c.
Proof.
  intros Wa Sa Ta Hs.
  destruct (tensor_volume a x y z Wa Sa) as (t' & T' & Wt & St & Gt). rewrite Ta in T'. injection T' as <-.
  destruct (take_axis_spec 2 (Z.of_nat s) a x y z (Z.of_nat s) Wa Sa) as (b & Hb & Wb & Sb & Gb); try lia.
  { destruct (Z.ltb_spec (Z.of_nat s) 0); lia. }
  { cbn [nth]. lia. }
  cbn beta iota in Sb, Gb. rewrite Nat2Z.id in Gb.
  destruct (tensor_plane b x y Wb Sb) as (c & Tc & Wc & Sc & Gc).
  exists b, c. split; [exact Hb|]. split; [exact Tc|].
  unfold batch_entry. rewrite St. cbn [tl].
  destruct (reindex_ok t (1 :: [1; x; y]) (fun idx => s :: tl idx) Wt) as [e He].
  { intros idx Hin. rewrite St. inb3. inb_goal. }
  rewrite He. f_equal. apply reindex_spec in He as (Se & We & Ge).
  apply arr_ext; [exact We|exact Wc|congruence|]. intros idx Hin. rewrite Se in Hin. rewrite (Ge idx Hin).
  destruct idx as [|n0 [|n1 [|n2 [|n3 [|]]]]]; cbn [inb] in Hin; try discriminate; rewrite ?andb_false_r in Hin; try discriminate.
  apply andb_true_iff in Hin as [H0 Hin]. apply andb_true_iff in Hin as [H1 Hin]. apply andb_true_iff in Hin as [H2 Hin].
  apply andb_true_iff in Hin as [H3 _]. apply Nat.ltb_lt in H0, H1, H2, H3.
  cbn [tl]. assert (n0 = 0) by lia. assert (n1 = 0) by lia. subst n0 n1.
  rewrite Gt by lia. rewrite Gc by lia. rewrite Gb; [reflexivity|]. rewrite Sb. inb_goal.
Qed.

Theorem C43_piq_mean : forall {A} (f g : arr A -> arr A -> res ext) k dim r m x y z,
  batch_mean f g -> wf r -> wf m -> shp r = [x; y; z] -> shp m = [x; y; z] -> (k = KVSI \/ z <> 3) -> dim <> DNone ->
  piq_score f k false dim SlNone r m =
  let* scores := mapM (fun s => let* rs := take_axis 2 (Z.of_nat s) r in
                                let* ms := take_axis 2 (Z.of_nat s) m in piq_pair g false rs ms) (seq 0 z) in
  Ok (mean_ext scores).
Proof.
  intros A f g k dim r m x y z HB Wr Wm Sr Sm Hk Hd.
  destruct (tensor_volume r x y z Wr Sr) as (tr & Tr & _ & S1 & _).
  destruct (tensor_volume m x y z Wm Sm) as (tm & Tm & _ & S2 & _).
  assert (E : piq_score f k false dim SlNone r m = f tr tm).
  { unfold piq_score. rewrite (volume_branch k r) by (exists x, y, z; auto).
    assert (E : piq_pair f false r m = f tr tm) by (unfold piq_pair; rewrite Tr, Tm; reflexivity).
    destruct dim; [congruence|exact E|exact E]. }
  rewrite E, HB, S1. cbn [nth].
  assert (X : forall l, (forall s, In s l -> s < z) ->
    mapM (fun s => let* a := batch_entry tr s in let* b := batch_entry tm s in g a b) l =
    mapM (fun s => let* rs := take_axis 2 (Z.of_nat s) r in let* ms := take_axis 2 (Z.of_nat s) m in piq_pair g false rs ms) l).
  { induction l as [|s l IH]; intros Hl; [reflexivity|]. cbn [mapM].
    destruct (entry_slice r tr x y z s Wr Sr Tr) as (b1 & c1 & -> & C1 & ->); [apply Hl; left; reflexivity|].
    destruct (entry_slice m tm x y z s Wm Sm Tm) as (b2 & c2 & -> & C2 & ->); [apply Hl; left; reflexivity|].
    cbn [bind]. unfold piq_pair at 1. rewrite C1, C2. cbn [bind].
    rewrite IH by (intros; apply Hl; right; assumption). reflexivity. }
  rewrite X; [reflexivity|]. intros s Hs. apply in_seq in Hs. lia.
Qed.
Print Assumptions C43_piq_mean.

(** The documented "mean over all slices of the given dimension" is therefore false: a metric that
    looks at the first pixel, and a volume that changes along the last axis only. *)
Definition first_pixel (r m : arr R) : res ext := match dat r with x :: _ => Ok (Fin x) | [] => Ok NaN end.
Definition batch_first (tr tm : arr R) : res ext :=
  let* scores := mapM (fun s => let* a := batch_entry tr s in let* b := batch_entry tm s in first_pixel a b)
                   (seq 0 (nth 0 (shp tr) 0)) in Ok (mean_ext scores).

Theorem C43_dimension_refuted : exists (f g : arr R -> arr R -> res ext) r m scores,
  batch_mean f g /\
  mapM (fun s => let* rs := take_axis 0 (Z.of_nat s) r in
                 let* ms := take_axis 0 (Z.of_nat s) m in piq_pair g false rs ms) (seq 0 (nth 0 (shp r) 0)) = Ok scores /\
  piq_score f KMSSSIM false (DNum 0) SlNone r m <> Ok (mean_ext scores).
Proof.
  exists batch_first, first_pixel, (Arr [2; 1; 2] [0; 1; 0; 1]%R), (Arr [2; 1; 2] [0; 1; 0; 1]%R), [Fin 0; Fin 0].
  split; [intros tr tm; reflexivity|]. split; [reflexivity|].
  set (v := Arr [2; 1; 2] [0; 1; 0; 1]%R).
  assert (E : piq_score batch_first KMSSSIM false (DNum 0) SlNone v v =
    let* scores := mapM (fun s => let* rs := take_axis 2 (Z.of_nat s) v in
                                  let* ms := take_axis 2 (Z.of_nat s) v in piq_pair first_pixel false rs ms) (seq 0 2) in
    Ok (mean_ext scores)).
  { apply (C43_piq_mean batch_first first_pixel KMSSSIM (DNum 0) v v 2 1 2); try reflexivity; [intros tr tm; reflexivity|right; lia|discriminate]. }
  rewrite E. clear E.
  cbn -[mean_ext]. unfold mean_ext. cbn [fold_left ext_add ext_mul length INR]. intros E. injection E as E. lra.
Qed.
Print Assumptions C43_dimension_refuted.

(** A volume of 2 x 2 x 2 voxels and the sum of the first pixels: a different mean along every axis. *)
Example C43_example : let v := Arr [2; 2; 2] [0; 1; 2; 3; 4; 5; 6; 7]%R in
  let g := fun a b : arr R => Ok (Fin (Rplus (getd a [1; 1]) (getd b [0; 0]))) in
  let scores d := mapM (fun k => let* a := take_axis d (Z.of_nat k) v in g a a) (seq 0 2) in
  scores 0 = Ok [Fin (3 + 0); Fin (7 + 4)]%R /\ scores 2 = Ok [Fin (6 + 0); Fin (7 + 1)]%R /\
  own_score g false (DNum 0) SlNone v v = Ok (mean_ext [Fin (3 + 0); Fin (7 + 4)]%R) /\
  own_score g false (DNum 2) SlNone v v = Ok (mean_ext [Fin (6 + 0); Fin (7 + 1)]%R).
Proof. repeat split; reflexivity. Qed.

(** ** C44 *)

(** An RGB pair with chromatic=True. *)
Theorem C44_vsi : forall {A} (f : arr A -> arr A -> res ext) sl r m x y, shp r = [x; y; 3] ->
  piq_score f KVSI true DNone sl r m = Err ValueError.
Proof. intros A f sl r m x y Hs. unfold piq_score. rewrite Hs. reflexivity. Qed.
Print Assumptions C44_vsi.

Theorem C44_vsi_with_dim : forall {A} (f : arr A -> arr A -> res ext) dim r m x y,
  wf r -> wf m -> shp r = [x; y; 3] -> shp m = [x; y; 3] -> dim <> DNone ->
  exists tr tm, piq_score f KVSI true dim SlNone r m = f tr tm /\ shp tr = [1; 3; x; y] /\ shp tm = [1; 3; x; y] /\
    forall i j c, i < x -> j < y -> c < 3 ->
      get tr [0; c; i; j] = get r [i; j; c] /\ get tm [0; c; i; j] = get m [i; j; c].
Proof.
  intros A f dim r m x y Wr Wm Sr Sm Hd.
  destruct (tensor_colour r x y 3 Wr Sr) as (tr & Tr & _ & S1 & G1).
  destruct (tensor_colour m x y 3 Wm Sm) as (tm & Tm & _ & S2 & G2).
  exists tr, tm. split.
  - unfold piq_score. rewrite Sr. cbn [length Nat.eqb last andb rgb_aware negb].
    assert (E : piq_pair f true r m = f tr tm) by (unfold piq_pair; rewrite Tr, Tm; reflexivity).
    destruct dim; [congruence|exact E|exact E].
  - split; [exact S1|]. split; [exact S2|]. intros i j c Hi Hj Hc. split; [apply G1|apply G2]; assumption.
Qed.
Print Assumptions C44_vsi_with_dim.

(** The other three score the same tensors for any dim and im_slice. *)
Theorem C44_others : forall {A} (f : arr A -> arr A -> res ext) k dim sl r m x y,
  wf r -> wf m -> shp r = [x; y; 3] -> shp m = [x; y; 3] -> k <> KVSI ->
  exists tr tm, piq_score f k true dim sl r m = f tr tm /\ shp tr = [1; 3; x; y] /\ shp tm = [1; 3; x; y] /\
    forall i j c, i < x -> j < y -> c < 3 ->
      get tr [0; c; i; j] = get r [i; j; c] /\ get tm [0; c; i; j] = get m [i; j; c].
Proof.
  intros A f k dim sl r m x y Wr Wm Sr Sm Hk.
  destruct (tensor_colour r x y 3 Wr Sr) as (tr & Tr & _ & S1 & G1).
  destruct (tensor_colour m x y 3 Wm Sm) as (tm & Tm & _ & S2 & G2).
  exists tr, tm. split.
  - unfold piq_score. rewrite Sr. cbn [length Nat.eqb last andb].
    assert (Ek : rgb_aware k = true) by (destruct k; try reflexivity; congruence). rewrite Ek. cbn [andb negb orb].
    unfold piq_pair. rewrite Tr, Tm. reflexivity.
  - split; [exact S1|]. split; [exact S2|]. intros i j c Hi Hj Hc. split; [apply G1|apply G2]; assumption.
Qed.
Print Assumptions C44_others.

(** VSI accepts exactly what the documentation does not ask for: a dim. *)
Theorem C44_refuted : exists (f : arr Z -> arr Z -> res ext) r m,
  shp r = [1; 1; 3] /\ shp m = [1; 1; 3] /\
  piq_score f KVSI true DNone SlNone r m = Err ValueError /\
  piq_score f KFSIM true DNone SlNone r m = Ok (Fin 1) /\
  piq_score f KVSI true DOther SlNone r m = Ok (Fin 1).
Proof.
  exists (fun _ _ => Ok (Fin 1)), (Arr [1; 1; 3] [1; 2; 3]%Z), (Arr [1; 1; 3] [1; 2; 3]%Z). repeat split.
Qed.
Print Assumptions C44_refuted.

(** One RGB pixel as a tensor of shape (1, 3, 1, 1). *)
Example C44_example : forall f : arr Z -> arr Z -> res ext,
  piq_score f KFSIM true DNone SlNone (Arr [1; 1; 3] [1; 2; 3]%Z) (Arr [1; 1; 3] [4; 5; 6]%Z)
  = f (Arr [1; 3; 1; 1] [1; 2; 3]%Z) (Arr [1; 3; 1; 1] [4; 5; 6]%Z) /\
  piq_score f KVSI true DNone SlNone (Arr [1; 1; 3] [1; 2; 3]%Z) (Arr [1; 1; 3] [4; 5; 6]%Z) = Err ValueError.
Proof. intros f. split; reflexivity. Qed.

(** ** C81: chromatic=True *)

(** Every 2D image, and hence every slice of a volume, is refused: RuntimeError from permute. *)
Theorem C81_plane : forall {A} (f : arr A -> arr A -> res ext) k dim sl r m x y, shp r = [x; y] ->
  piq_score f k true dim sl r m = Err RuntimeError.
Proof. intros A f k dim sl r m x y Hs. unfold piq_score. rewrite Hs. unfold piq_pair, to_tensor, permute. rewrite Hs. reflexivity. Qed.
Print Assumptions C81_plane.

Theorem C81_slice : forall {A} (f : arr A -> arr A -> res ext) k d s r m,
  wf r -> wf m -> shp r = shp m -> volume k r -> (d = 0 \/ d = 1 \/ d = 2)%Z ->
  piq_score f k true (DNum d) (SlInt s) r m = Err RuntimeError \/
  piq_score f k true (DNum d) (SlInt s) r m = Err IndexError.
Proof.
  intros A f k d s r m Wr Wm Hs HV Hd. rewrite (C42_piq_slice f k true d s r m DNone SlNone HV Hd).
  destruct HV as (x & y & z & Sr & _). rewrite Sr in Hs. symmetry in Hs.
  assert (Hax : Z.to_nat d < 3) by lia.
  destruct (take_axis_cases (Z.to_nat d) s r x y z Wr Sr Hax) as [(rs & -> & S1)| ->]; [|right; reflexivity].
  destruct (take_axis_cases (Z.to_nat d) s m x y z Wm Hs Hax) as [(ms & -> & _)| ->]; [|right; reflexivity].
  left. cbn [bind]. destruct Hd as [-> |[-> | ->]]; cbn in S1; eapply C81_plane; exact S1.
Qed.
Print Assumptions C81_slice.

(** A volume that is not RGB is taken for one image with as many channels as it has slices. *)
Theorem C81_volume : forall {A} (f : arr A -> arr A -> res ext) k dim r m x y z,
  wf r -> wf m -> shp r = [x; y; z] -> shp m = [x; y; z] -> dim <> DNone ->
  exists tr tm, piq_score f k true dim SlNone r m = f tr tm /\ shp tr = [1; z; x; y] /\ shp tm = [1; z; x; y] /\
    forall i j c, i < x -> j < y -> c < z ->
      get tr [0; c; i; j] = get r [i; j; c] /\ get tm [0; c; i; j] = get m [i; j; c].
Proof.
  intros A f k dim r m x y z Wr Wm Sr Sm Hd.
  destruct (tensor_colour r x y z Wr Sr) as (tr & Tr & _ & S1 & G1).
  destruct (tensor_colour m x y z Wm Sm) as (tm & Tm & _ & S2 & G2).
  exists tr, tm. split.
  - assert (E : piq_pair f true r m = f tr tm) by (unfold piq_pair; rewrite Tr, Tm; reflexivity).
    unfold piq_score. rewrite Sr. cbn [length Nat.eqb last andb].
    destruct (rgb_aware k && (z =? 3)); cbn [negb orb]; [exact E|].
    destruct dim; [congruence|exact E|exact E].
  - split; [exact S1|]. split; [exact S2|]. intros i j c Hi Hj Hc. split; [apply G1|apply G2]; assumption.
Qed.
Print Assumptions C81_volume.

Example C81_example : forall f : arr Z -> arr Z -> res ext,
  piq_score f KVIFp true DNone SlNone (Arr [1; 2] [1; 2]%Z) (Arr [1; 2] [1; 2]%Z) = Err RuntimeError.
Proof. reflexivity. Qed.
