(** RMSE and PSNR of volumes and of their slices: property C142. *)
From Coq Require Import Reals Lra Psatz.
From Verif Require Import Base NdArray LoadModel LoadProofs NormModel PairModel RealSums
  MetricModel MetricProofs SsimModel SsimProofs SsimSymProofs SliceModel SliceProps PsnrRoundProps.
Local Open Scope R_scope.

(** ** Sums over volumes *)

Definition sq_diff (r m : arr R) (i : list nat) : R := (getd r i - getd m i) * (getd r i - getd m i).

Lemma pairs_sum r m : wf r -> wf m -> shp m = shp r ->
  Sum (fun p => (fst p - snd p) * (fst p - snd p)) (combine (dat r) (dat m)) = Sum (sq_diff r m) (indices (shp r)).
Proof.
  intros Wr Wm E. rewrite (dat_getd r Wr), (dat_getd m Wm), E. generalize (indices (shp r)) as l.
  induction l as [|i l IH]; [reflexivity|]. cbn [map combine]. rewrite !Sum_cons, IH. reflexivity.
Qed.

Lemma sum_seq_map {A} (f : A -> R) (g : nat -> A) n : Sum f (map g (seq 0 n)) = Sum (fun k => f (g k)) (seq 0 n).
Proof. apply Sum_map. Qed.

Lemma sum2 (F : list nat -> R) a b : Sum F (indices [a; b]) = Sum (fun i => Sum (fun j => F [i; j]) (seq 0 b)) (seq 0 a).
Proof.
  cbn [indices]. rewrite Sum_flat_map. apply Sum_ext. intros i _. rewrite Sum_map, Sum_flat_map. apply Sum_ext.
  intros j _. cbn [map]. rewrite Sum_cons, Sum_nil, Rplus_0_r. reflexivity.
Qed.

Lemma sum3 (F : list nat -> R) a b c :
  Sum F (indices [a; b; c]) = Sum (fun i => Sum (fun j => Sum (fun k => F [i; j; k]) (seq 0 c)) (seq 0 b)) (seq 0 a).
Proof.
  change (indices [a; b; c]) with (flat_map (fun i => map (cons i) (indices [b; c])) (seq 0 a)).
  rewrite Sum_flat_map. apply Sum_ext. intros i _. rewrite Sum_map. apply (sum2 (fun l => F (i :: l))).
Qed.

(** The k-th slices *)
Definition slices_at (ax k : nat) (r m rs ms : arr R) : Prop :=
  take_axis ax (Z.of_nat k) r = Ok rs /\ take_axis ax (Z.of_nat k) m = Ok ms.

Lemma slices_exist ax k r m x y z : wf r -> wf m -> shp r = [x; y; z] -> shp m = [x; y; z] -> (ax < 3)%nat ->
  (k < nth ax [x; y; z] 0)%nat -> exists rs ms, slices_at ax k r m rs ms /\ wf rs /\ wf ms /\ shp ms = shp rs /\
    shp rs = match ax with 0 => [y; z] | 1 => [x; z] | _ => [x; y] end%nat /\
    Sum (sq_diff rs ms) (indices (shp rs))
    = match ax with
      | 0 => Sum (fun i => Sum (fun j => sq_diff r m [k; i; j]) (seq 0 z)) (seq 0 y)
      | 1 => Sum (fun i => Sum (fun j => sq_diff r m [i; k; j]) (seq 0 z)) (seq 0 x)
      | _ => Sum (fun i => Sum (fun j => sq_diff r m [i; j; k]) (seq 0 y)) (seq 0 x)
      end%nat.
Proof.
  intros Wr Wm Sr Sm Hax Hk.
  assert (P : (Z.of_nat k = if Z.of_nat k <? 0 then Z.of_nat k + Z.of_nat (nth ax [x; y; z] 0%nat) else Z.of_nat k)%Z).
  { destruct (Z.ltb_spec (Z.of_nat k) 0); lia. }
  destruct (take_axis_spec ax (Z.of_nat k) r x y z (Z.of_nat k) Wr Sr Hax P ltac:(lia)) as (rs & E1 & W1 & S1 & G1).
  destruct (take_axis_spec ax (Z.of_nat k) m x y z (Z.of_nat k) Wm Sm Hax P ltac:(lia)) as (ms & E2 & W2 & S2 & G2).
  exists rs, ms. split; [split; assumption|]. split; [exact W1|]. split; [exact W2|]. split; [congruence|]. split; [exact S1|].
  rewrite Nat2Z.id in G1, G2.
  assert (Q : forall i j, inb (shp rs) [i; j] = true -> sq_diff rs ms [i; j] =
             sq_diff r m (match ax with 0 => [k; i; j] | 1 => [i; k; j] | _ => [i; j; k] end)%nat).
  { intros i j I. unfold sq_diff, getd. rewrite (G1 i j I), (G2 i j) by (rewrite S2, <- S1; exact I). reflexivity. }
  rewrite S1. destruct ax as [|[|ax]].
  - rewrite sum2. apply Sum_ext. intros i I. apply Sum_ext. intros j J. apply Q. rewrite S1.
    apply in_seq in I, J. cbn [inb]. rewrite !(proj2 (Nat.ltb_lt _ _)) by lia. reflexivity.
  - rewrite sum2. apply Sum_ext. intros i I. apply Sum_ext. intros j J. apply Q. rewrite S1.
    apply in_seq in I, J. cbn [inb]. rewrite !(proj2 (Nat.ltb_lt _ _)) by lia. reflexivity.
  - rewrite sum2. apply Sum_ext. intros i I. apply Sum_ext. intros j J. apply Q. rewrite S1.
    apply in_seq in I, J. cbn [inb]. rewrite !(proj2 (Nat.ltb_lt _ _)) by lia. reflexivity.
Qed.

Lemma data_nonempty {A} (a : arr A) : wf a -> (forall n, In n (shp a) -> (0 < n)%nat) -> dat a <> [].
Proof.
  intros W H E. assert (L : length (dat a) = size (shp a)) by exact W. rewrite E in L. cbn [length] in L.
  revert L H. generalize (shp a) as s. induction s as [|n s IH]; intros L H; [discriminate|].
  cbn [size fold_right] in L. assert (0 < n)%nat by (apply H; left; reflexivity).
  assert (0 <> size s)%nat by (intros X; apply IH; [exact X|intros k I; apply H; right; exact I]). unfold size in *. nia.
Qed.

Lemma rms_square a b : MetricProofs.rms a b * MetricProofs.rms a b
  = Sum (fun p => (fst p - snd p) * (fst p - snd p)) (combine a b) / INR (length a).
Proof.
  unfold MetricProofs.rms. apply sqrt_sqrt. unfold Rdiv.
  assert (0 <= Sum (fun p => (fst p - snd p) * (fst p - snd p)) (combine a b)) by (apply Sum_nonneg; intros; apply Rle_0_sqr).
  destruct (length a) as [|n]; [cbn [INR]; rewrite Rinv_0; lra|]. apply Rmult_le_pos; [assumption|].
  left. apply Rinv_0_lt_compat, lt_0_INR. lia.
Qed.

(** ** RMSE *)

(** Mean and root mean square of a list *)
Lemma mean_root l e : l <> [] -> 0 <= e -> (forall v, In v l -> 0 <= v) -> e * e = Sum (fun v => v * v) l / INR (length l) ->
  Sum (fun v => v) l / INR (length l) <= e /\ (exists v, In v l /\ e <= v) /\ (exists v, In v l /\ v <= e).
Proof.
  intros NE He Hv E.
  assert (N : 0 < INR (length l)) by (apply lt_0_INR; destruct l; [contradiction|cbn; lia]).
  assert (E' : Sum (fun v => v * v) l = INR (length l) * (e * e)) by (rewrite E; field; lra).
  assert (Low : forall c, (forall v, In v l -> v < c) -> 0 <= c -> Sum (fun v => v * v) l < INR (length l) * (c * c)).
  { intros c Hc C0. clear E E' N He. induction l as [|v l IH]; [contradiction|]. rewrite Sum_cons. cbn [length]. rewrite S_INR.
    assert (V0 := Hv v (or_introl eq_refl)). assert (V1 := Hc v (or_introl eq_refl)). assert (v * v < c * c) by nra.
    destruct l as [|w l]; [rewrite Sum_nil; cbn [length INR]; lra|].
    assert (I := IH ltac:(discriminate) (fun u U => Hv u (or_intror U)) (fun u U => Hc u (or_intror U))). lra. }
  assert (High : (forall v, In v l -> e < v) -> INR (length l) * (e * e) < Sum (fun v => v * v) l).
  { clear E E' N Low. intros Hc. induction l as [|v l IH]; [contradiction|]. rewrite Sum_cons. cbn [length]. rewrite S_INR.
    assert (V1 := Hc v (or_introl eq_refl)). assert (e * e < v * v) by nra.
    destruct l as [|w l]; [rewrite Sum_nil; cbn [length INR]; lra|].
    assert (I := IH ltac:(discriminate) (fun u U => Hv u (or_intror U)) (fun u U => Hc u (or_intror U))). lra. }
  assert (D : forall P : R -> Prop, (forall v, P v \/ ~ P v) -> (exists v, In v l /\ P v) \/ forall v, In v l -> ~ P v).
  { intros P DP. clear -DP. induction l as [|v l IH]; [right; intros v []|]. destruct (DP v) as [H|H]; [left; exists v; split; [left; reflexivity|exact H]|].
    destruct IH as [(w & W & H')|IH]; [left; exists w; split; [right; exact W|exact H']|]. right. intros w [<-|W]; auto. }
  split; [|split].
  - assert (S2 : 0 <= Sum (fun v => (v - e) * (v - e)) l) by (apply Sum_nonneg; intros; apply Rle_0_sqr).
    rewrite (Sum_ext _ (fun v => v * v - (2 * e * v - e * e))) in S2 by (intros; ring).
    rewrite Sum_minus, Sum_minus, Sum_scale, Sum_const, E' in S2.
    apply Rmult_le_reg_r with (INR (length l)); [exact N|].
    replace (Sum (fun v => v) l / INR (length l) * INR (length l)) with (Sum (fun v => v) l) by (field; lra).
    destruct (Req_dec e 0) as [->|Ne]; [|nra].
    rewrite (Sum_ext _ (fun _ => 0)), Sum_zero; [lra|]. intros v Iv.
    assert (Sq : v * v <= Sum (fun v => v * v) l) by (apply (Sum_single (fun v => v * v)); [exact Iv|intros; apply Rle_0_sqr]).
    rewrite E' in Sq. assert (v * v = 0) by (pose proof (Rle_0_sqr v); unfold Rsqr in *; lra). nra.
  - destruct (D (fun v => e <= v)) as [H|H]; [intros v; destruct (Rle_dec e v); auto|exact H|].
    exfalso. assert (L := Low e (fun v Iv => Rnot_le_lt _ _ (H v Iv)) He). lra.
  - destruct (D (fun v => v <= e)) as [H|H]; [intros v; destruct (Rle_dec v e); auto|exact H|].
    exfalso. assert (L := High (fun v Iv => Rnot_le_lt _ _ (H v Iv))). lra.
Qed.

Lemma zip_length {A B} (P : A -> B -> Prop) l bs : Forall2 P l bs -> length l = length bs.
Proof. induction 1 as [|a b l bs _ _ IH]; [reflexivity|]. cbn [length]. rewrite IH. reflexivity. Qed.

Lemma zip_impl {A B} (P Q : A -> B -> Prop) : (forall a b, P a b -> Q a b) -> forall l bs, Forall2 P l bs -> Forall2 Q l bs.
Proof. intros H l bs. induction 1; constructor; auto. Qed.

Lemma mapped {A B} (P : A -> B -> Prop) (l : list A) : (forall a, In a l -> exists b, P a b) -> exists bs, Forall2 P l bs.
Proof.
  induction l as [|a l IH]; intros H; [exists []; constructor|].
  destruct (H a (or_introl eq_refl)) as (b & Hb). destruct IH as (bs & Hbs); [intros x X; apply H; right; exact X|].
  exists (b :: bs). constructor; assumption.
Qed.

Definition volumes (r m : arr R) : Prop :=
  wf r /\ wf m /\ shp m = shp r /\ length (shp r) = 3%nat /\ forall n, In n (shp r) -> (0 < n)%nat.

Lemma volume_parts ax r m : volumes r m -> (ax < 3)%nat -> exists es,
  Forall2 (fun k e => exists rs ms, slices_at ax k r m rs ms /\ rmse (dat rs) (dat ms) = Fin e /\ e = MetricProofs.rms (dat rs) (dat ms) /\
             dat rs <> [] /\ length (dat rs) = length (dat ms))
    (seq 0 (nth ax (shp r) 0%nat)) es /\ es <> [] /\ (forall v, In v es -> 0 <= v) /\
  rmse (dat r) (dat m) = Fin (MetricProofs.rms (dat r) (dat m)) /\ dat r <> [] /\ length (dat r) = length (dat m) /\
  MetricProofs.rms (dat r) (dat m) * MetricProofs.rms (dat r) (dat m) = Sum (fun v => v * v) es / INR (length es).
Proof.
  intros (Wr & Wm & Es & L3 & Hpos) Hax. destruct (shp r) as [|x [|y [|z [|? ?]]]] eqn:Sr; try discriminate. clear L3.
  assert (Hx : (0 < x)%nat) by (apply Hpos; cbn; auto). assert (Hy : (0 < y)%nat) by (apply Hpos; cbn; auto). assert (Hz : (0 < z)%nat) by (apply Hpos; cbn; auto).
  set (n := nth ax [x; y; z] 0%nat).
  set (A := match ax with 0 => y * z | 1 => x * z | _ => x * y end%nat).
  set (T := fun k => match ax with
      | 0 => Sum (fun i => Sum (fun j => sq_diff r m [k; i; j]) (seq 0 z)) (seq 0 y)
      | 1 => Sum (fun i => Sum (fun j => sq_diff r m [i; k; j]) (seq 0 z)) (seq 0 x)
      | _ => Sum (fun i => Sum (fun j => sq_diff r m [i; j; k]) (seq 0 y)) (seq 0 x)
      end%nat).
  assert (An : (A * n = x * y * z)%nat) by (unfold A, n; destruct ax as [|[|[|ax]]]; cbn [nth]; lia).
  assert (HA : (0 < A)%nat) by (unfold A; destruct ax as [|[|ax]]; nia).
  assert (Hn : (0 < n)%nat) by (unfold n; destruct ax as [|[|[|ax]]]; cbn [nth]; lia).
  assert (Dr : dat r <> []) by (apply data_nonempty; [exact Wr|rewrite Sr; exact Hpos]).
  assert (Lr : length (dat r) = (x * y * z)%nat) by (unfold wf in Wr; rewrite Wr, Sr; unfold size; cbn; lia).
  assert (Lm : length (dat m) = (x * y * z)%nat) by (unfold wf in Wm; rewrite Wm, Es; unfold size; cbn; lia).
  assert (one : forall k, In k (seq 0 n) -> exists e, (exists rs ms, slices_at ax k r m rs ms /\ rmse (dat rs) (dat ms) = Fin e /\
             e = MetricProofs.rms (dat rs) (dat ms) /\ dat rs <> [] /\ length (dat rs) = length (dat ms)) /\ 0 <= e /\ e * e = T k / INR A).
  { intros k Ik. apply in_seq in Ik.
    destruct (slices_exist ax k r m x y z Wr Wm Sr Es Hax ltac:(fold n; lia)) as (rs & ms & Hs & W1 & W2 & S12 & S1 & E).
    assert (L1 : length (dat rs) = A) by (unfold wf in W1; rewrite W1, S1; unfold A, size; destruct ax as [|[|ax]]; cbn; lia).
    assert (L2 : length (dat ms) = A) by (unfold wf in W2; rewrite W2, S12, S1; unfold A, size; destruct ax as [|[|ax]]; cbn; lia).
    assert (D1 : dat rs <> []) by (intros X; rewrite X in L1; cbn in L1; lia).
    exists (MetricProofs.rms (dat rs) (dat ms)). split; [exists rs, ms; split; [exact Hs|]; split; [apply rmse_fin, D1|]; split; [reflexivity|]; split; [exact D1|congruence]|].
    split; [apply rms_nonneg|]. rewrite rms_square, pairs_sum, L1, E by assumption. reflexivity. }
  apply mapped in one as (es & Hes).
  assert (Les : length es = n) by (apply zip_length in Hes; rewrite seq_length in Hes; lia).
  exists es. split.
  { revert Hes. apply zip_impl. intros k e (H & _). exact H. }
  split; [intros ->; cbn [length] in Les; lia|]. split.
  { intros v Iv. clear -Hes Iv. induction Hes as [|k e ks es (_ & H & _) _ IH]; [destruct Iv|]. destruct Iv as [<-|Iv]; auto. }
  split; [apply rmse_fin, Dr|]. split; [exact Dr|]. split; [congruence|].
  rewrite rms_square, pairs_sum, Lr, Sr, Les by (try assumption; congruence).
  assert (S1 : Sum (fun v => v * v) es = Sum T (seq 0 n) / INR A).
  { clear -Hes. assert (X : Sum (fun v => v * v) es = Sum (fun k => T k / INR A) (seq 0 n)).
    { induction Hes as [|k e ks es (_ & _ & H) _ IH]; [reflexivity|]. rewrite !Sum_cons, IH, H. reflexivity. }
    rewrite X. unfold Rdiv. rewrite (Sum_ext _ (fun k => / INR A * T k)) by (intros; ring). rewrite Sum_scale. ring. }
  rewrite S1. assert (S2 : Sum (sq_diff r m) (indices [x; y; z]) = Sum T (seq 0 n)).
  { rewrite sum3. unfold T, n. destruct ax as [|[|[|ax]]]; [reflexivity| | |lia]; cbn [nth].
    - rewrite Sum_exchange. reflexivity.
    - rewrite (Sum_ext _ (fun i => Sum (fun k => Sum (fun j => sq_diff r m [i; j; k]) (seq 0 y)) (seq 0 z))) by (intros; apply Sum_exchange).
      apply Sum_exchange. }
  rewrite S2, <- An, mult_INR. assert (0 < INR A) by (apply lt_0_INR, HA). assert (0 < INR n) by (apply lt_0_INR, Hn). field. lra.
Qed.

(** The square of the RMSE of a volume is the mean of the squares of the RMSE of its slices, along each axis. So the
    RMSE of the volume lies between those of the slices, and it is never smaller than their mean. *)
Theorem C142_rmse : forall ax r m, volumes r m -> (ax < 3)%nat -> exists e es,
  rmse (dat r) (dat m) = Fin e /\
  Forall2 (fun k v => exists rs ms, take_axis ax (Z.of_nat k) r = Ok rs /\ take_axis ax (Z.of_nat k) m = Ok ms /\ rmse (dat rs) (dat ms) = Fin v)
    (seq 0 (nth ax (shp r) 0%nat)) es /\
  e * e = Sum (fun v => v * v) es / INR (length es) /\
  Sum (fun v => v) es / INR (length es) <= e /\ (exists v, In v es /\ e <= v) /\ (exists v, In v es /\ v <= e).
Proof.
  intros ax r m V Hax. destruct (volume_parts ax r m V Hax) as (es & F & NE & Pos & E & _ & _ & Sq).
  exists (MetricProofs.rms (dat r) (dat m)), es. split; [exact E|]. split.
  { revert F. apply zip_impl. intros k v (rs & ms & [H1 H2] & H3 & _). exists rs, ms. auto. }
  split; [exact Sq|]. apply mean_root; auto. apply rms_nonneg.
Qed.
Print Assumptions C142_rmse.

(** ** PSNR *)

Lemma log10_le x y : 0 < x -> x <= y -> log10 x <= log10 y.
Proof.
  intros Hx Hy. unfold log10. apply Rmult_le_compat_r; [left; apply Rinv_0_lt_compat, ln10_pos|].
  destruct Hy as [Hy|<-]; [left; apply ln_increasing; assumption|right; reflexivity].
Qed.

(** Jensen's inequality *)
Lemma mean_ln l A : l <> [] -> (forall v, In v l -> 0 < v) -> A = Sum (fun v => v) l / INR (length l) ->
  Sum ln l <= INR (length l) * ln A.
Proof.
  intros NE Hv EA. assert (N : 0 < INR (length l)) by (apply lt_0_INR; destruct l; [contradiction|cbn; lia]).
  assert (S0 : 0 < Sum (fun v => v) l).
  { destruct l as [|v l]; [contradiction|]. rewrite Sum_cons. assert (0 < v) by (apply Hv; left; reflexivity).
    assert (0 <= Sum (fun v => v) l) by (apply Sum_nonneg; intros u U; left; apply Hv; right; exact U). lra. }
  assert (HA : 0 < A) by (rewrite EA; apply Rdiv_lt_0_compat; assumption).
  assert (B : Sum ln l <= Sum (fun v => ln A + (/ A * v - 1)) l).
  { apply Sum_le. intros v Iv. assert (V := Hv v Iv). pose proof (ln_le_sub (v * / A)) as L.
    assert (0 < / A) by (apply Rinv_0_lt_compat, HA). specialize (L ltac:(apply Rmult_lt_0_compat; assumption)).
    rewrite ln_mult, ln_Rinv in L by assumption. lra. }
  rewrite Sum_plus, Sum_minus, Sum_scale, !Sum_const in B.
  assert (X : / A * Sum (fun v => v) l = INR (length l)).
  { replace (Sum (fun v => v) l) with (A * INR (length l)) by (rewrite EA; field; lra). field. lra. }
  rewrite X in B. lra.
Qed.

(** The PSNR of a volume lies between those of its slices and is never larger than their mean. *)
Theorem C142_psnr : forall dr ax r m, 0 < dr -> volumes r m -> (ax < 3)%nat ->
  (forall k rs ms, take_axis ax (Z.of_nat k) r = Ok rs -> take_axis ax (Z.of_nat k) m = Ok ms -> dat rs <> dat ms) ->
  exists p ps, psnr dr (dat r) (dat m) = Fin p /\
    Forall2 (fun k v => exists rs ms, take_axis ax (Z.of_nat k) r = Ok rs /\ take_axis ax (Z.of_nat k) m = Ok ms /\ psnr dr (dat rs) (dat ms) = Fin v)
      (seq 0 (nth ax (shp r) 0%nat)) ps /\
    p <= Sum (fun v => v) ps / INR (length ps) /\ (exists v, In v ps /\ p <= v) /\ (exists v, In v ps /\ v <= p).
Proof.
  intros dr ax r m Hd V Hax Hne. destruct (volume_parts ax r m V Hax) as (es & F & NE & Pos & E & D & L & Sq).
  set (e := MetricProofs.rms (dat r) (dat m)) in *.
  assert (F' : Forall2 (fun k v => exists rs ms, take_axis ax (Z.of_nat k) r = Ok rs /\ take_axis ax (Z.of_nat k) m = Ok ms /\
             0 < v /\ psnr dr (dat rs) (dat ms) = Fin (20 * log10 (dr / v))) (seq 0 (nth ax (shp r) 0%nat)) es).
  { revert F. apply zip_impl. intros k v (rs & ms & [H1 H2] & H3 & -> & H4 & H5). exists rs, ms. split; [exact H1|]. split; [exact H2|].
    pose proof (Hne k rs ms H1 H2) as H6. split.
    - pose proof (rms_nonneg (dat rs) (dat ms)). assert (MetricProofs.rms (dat rs) (dat ms) <> 0); [|lra].
      intros Z0. apply rms_zero in Z0; auto.
    - apply psnr_value; auto. }
  assert (Pos' : forall v, In v es -> 0 < v).
  { intros v Iv. clear -F' Iv. induction F' as [|k e ks es (rs & ms & _ & _ & H & _) _ IH]; [destruct Iv|]. destruct Iv as [<-|Iv]; auto. }
  assert (N : 0 < INR (length es)) by (apply lt_0_INR; destruct es; [contradiction|cbn; lia]).
  assert (He : 0 < e).
  { assert (0 <= e) by apply rms_nonneg. assert (e <> 0); [|lra]. intros Z0. rewrite Z0, Rmult_0_l in Sq.
    assert (0 < Sum (fun v => v * v) es).
    { destruct es as [|v es]; [contradiction|]. rewrite Sum_cons. assert (0 < v) by (apply Pos'; left; reflexivity).
      assert (0 <= Sum (fun v => v * v) es) by (apply Sum_nonneg; intros; apply Rle_0_sqr). nra. }
    assert (0 < Sum (fun v => v * v) es / INR (length es)) by (apply Rdiv_lt_0_compat; assumption). lra. }
  assert (Dif : dat r <> dat m).
  { intros X. assert (Z0 : e = 0) by (apply rms_zero; auto). lra. }
  exists (20 * log10 (dr / e)), (map (fun v => 20 * log10 (dr / v)) es).
  split; [apply psnr_value; auto|]. split.
  { clear -F'. induction F' as [|k v ks es (rs & ms & H1 & H2 & _ & H3) _ IH]; constructor; [exists rs, ms; auto|exact IH]. }
  assert (S0 : forall v, 0 < v -> 20 * log10 (dr / v) = 20 * log10 dr - 10 / ln 10 * ln (v * v)).
  { intros v Hv. unfold log10, Rdiv. rewrite ln_mult, ln_Rinv, (ln_mult v v) by (try apply Rinv_0_lt_compat; assumption). field. apply Rgt_not_eq, ln10_pos. }
  split; [|split].
  - rewrite map_length, Sum_map. apply Rmult_le_reg_r with (INR (length es)); [exact N|].
    replace (Sum (fun v => 20 * log10 (dr / v)) es / INR (length es) * INR (length es)) with (Sum (fun v => 20 * log10 (dr / v)) es) by (field; lra).
    rewrite (S0 e He), (Sum_ext _ (fun v => 20 * log10 dr - 10 / ln 10 * ln (v * v))) by (intros v Iv; apply S0, Pos', Iv).
    rewrite Sum_minus, Sum_const, Sum_scale.
    pose proof (mean_ln (map (fun v => v * v) es) (e * e)) as J. rewrite map_length, !Sum_map in J.
    specialize (J ltac:(destruct es; [contradiction|discriminate])
      ltac:(intros u U; apply in_map_iff in U as (v & <- & Iv); apply Rmult_lt_0_compat; apply Pos', Iv) Sq).
    assert (C : 0 < 10 / ln 10) by (apply Rdiv_lt_0_compat; [lra|apply ln10_pos]).
    assert (10 / ln 10 * Sum (fun v => ln (v * v)) es <= 10 / ln 10 * (INR (length es) * ln (e * e))) by (apply Rmult_le_compat_l; lra). lra.
  - destruct (mean_root es e NE (Rlt_le _ _ He) Pos Sq) as (_ & _ & v & Iv & Hv).
    exists (20 * log10 (dr / v)). split; [apply (in_map (fun v => 20 * log10 (dr / v))), Iv|].
    apply Rmult_le_compat_l; [lra|]. apply log10_le; [apply Rdiv_lt_0_compat; lra|].
    apply Rmult_le_compat_l; [lra|]. apply Rinv_le_contravar; [apply Pos', Iv|exact Hv].
  - destruct (mean_root es e NE (Rlt_le _ _ He) Pos Sq) as (_ & (v & Iv & Hv) & _).
    exists (20 * log10 (dr / v)). split; [apply (in_map (fun v => 20 * log10 (dr / v))), Iv|].
    apply Rmult_le_compat_l; [lra|]. apply log10_le; [apply Rdiv_lt_0_compat; [lra|apply Pos', Iv]|].
    apply Rmult_le_compat_l; [lra|]. apply Rinv_le_contravar; [exact He|exact Hv].
Qed.
Print Assumptions C142_psnr.

(** One slice without differences has infinite PSNR, however bad the volume is; the volume is infinite only if every
    slice is. *)
Theorem C142_infinite : forall dr ax r m, 0 < dr -> volumes r m -> (ax < 3)%nat ->
  (psnr dr (dat r) (dat m) = PInf <->
   forall k, (k < nth ax (shp r) 0)%nat -> exists rs ms, take_axis ax (Z.of_nat k) r = Ok rs /\ take_axis ax (Z.of_nat k) m = Ok ms /\
     psnr dr (dat rs) (dat ms) = PInf).
Proof.
  intros dr ax r m Hd V Hax. destruct (volume_parts ax r m V Hax) as (es & F & NE & Pos & E & D & L & Sq).
  assert (I : forall a b, a <> [] -> length a = length b -> psnr dr a b = PInf <-> a = b).
  { intros a b Ha Hl. split; [|intros ->; unfold psnr; rewrite (proj2 (list_eqbR_eq b b) eq_refl); reflexivity].
    intros H. destruct (list_eqbR a b) eqn:Eb; [apply list_eqbR_eq; exact Eb|]. exfalso.
    assert (a <> b) by (intros X; apply list_eqbR_eq in X; congruence). rewrite psnr_value in H by assumption. discriminate. }
  rewrite (I _ _ D L), <- (rms_zero (dat r) (dat m) D L). split.
  - intros Z0. rewrite Z0, Rmult_0_l in Sq.
    assert (N : 0 < INR (length es)) by (apply lt_0_INR; destruct es; [contradiction|cbn; lia]).
    assert (S0 : Sum (fun v => v * v) es = 0).
    { replace (Sum (fun v => v * v) es) with (Sum (fun v => v * v) es / INR (length es) * INR (length es)) by (field; lra). rewrite <- Sq. ring. }
    assert (Zs : forall v, In v es -> v = 0).
    { intros v Iv. assert (v * v <= 0) by (rewrite <- S0; apply (Sum_single (fun v => v * v)); [exact Iv|intros; apply Rle_0_sqr]).
      assert (0 <= v) by (apply Pos, Iv). nra. }
    clear Sq S0 NE N Pos. intros k Hk. assert (Ik : In k (seq 0 (nth ax (shp r) 0%nat))) by (apply in_seq; lia).
    revert Ik. clear Hk. induction F as [|k' v ks es (rs & ms & [H1 H2] & _ & Hv & H4 & H5) _ IH]; [intros []|]. intros [->|Ik].
    + exists rs, ms. split; [exact H1|]. split; [exact H2|]. apply (I _ _ H4 H5), rms_zero; auto. rewrite <- Hv. apply Zs. left. reflexivity.
    + apply IH; [intros u U; apply Zs; right; exact U|exact Ik].
  - intros H. assert (Zs : forall v, In v es -> v = 0).
    { intros v Iv. assert (G : forall k, In k (seq 0 (nth ax (shp r) 0%nat)) -> exists rs ms, take_axis ax (Z.of_nat k) r = Ok rs /\ take_axis ax (Z.of_nat k) m = Ok ms /\
        psnr dr (dat rs) (dat ms) = PInf) by (intros k Ik; apply H; apply in_seq in Ik; lia). clear H Sq NE Pos. revert G Iv.
      induction F as [|k' w ks es (rs & ms & [H1 H2] & _ & Hv & H4 & H5) _ IH]; intros G Iv; [destruct Iv|]. destruct Iv as [<-|Iv].
      - destruct (G k' (or_introl eq_refl)) as (rs' & ms' & G1 & G2 & G3). assert (rs' = rs) by congruence. assert (ms' = ms) by congruence. subst.
        apply rms_zero; auto. apply (I _ _ H4 H5), G3.
      - apply IH; [intros k Ik; apply G; right; exact Ik|exact Iv]. }
    rewrite (Sum_ext _ (fun _ => 0)), Sum_zero in Sq by (intros v Iv; rewrite (Zs v Iv); ring).
    unfold Rdiv in Sq. rewrite Rmult_0_l in Sq. nra.
Qed.
Print Assumptions C142_infinite.

(** ** Examples *)

Definition two_slices (a b : R) : arr R := {| shp := [2; 1; 1]%nat; dat := [a; b] |}.

Example C142_volumes_ex : volumes (two_slices 0 0) (two_slices 1 7).
Proof. repeat split. intros n H. cbn in H. destruct H as [<-|[<-|[<-|[]]]]; lia. Qed.

(** RMSE of the slices 1 and 7, of the volume 5 *)
Example C142_rmse_ex : rmse (dat (two_slices 0 0)) (dat (two_slices 1 7)) = Fin 5.
Proof.
  unfold rmse, mse. cbn [two_slices dat sum_sq_diff length INR]. f_equal.
  replace (((0 - 1) * (0 - 1) + ((0 - 7) * (0 - 7) + 0)) / (1 + 1)) with (5 * 5) by field. apply sqrt_square. lra.
Qed.
