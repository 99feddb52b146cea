(** SNR objects after SNR.score: properties C137. *)
From Coq Require Import Reals Lra Lia String.
From Verif Require Import Base NdArray LoadModel NormModel PairModel MetricModel SliceModel RegionModel
  RealSums MadModel NrModel NrProofs BatchModel PrintModel TupleModel.
Local Open Scope nat_scope.

(** ** What is stored *)

(** The pair has the value and the keys of the model of signal_to_noise_ratio. *)
Theorem C137_tuple : forall name mk nobg img sc r kind au it lo hi yuv, is_colour (shp img) = false ->
  snr mk nobg img sc r kind au it lo hi yuv =
  match snr_pair mk nobg name img sc r kind au it lo hi with
  | Ok (v, d) => Ok (SGrey v (dkeys d))
  | Err e => Err e
  end.
Proof.
  intros name mk nobg img sc r kind au it lo hi yuv Hc. unfold snr, snr_pair. rewrite Hc.
  match goal with |- (let* _ := ?x in _) = _ => destruct x as [[[s1 rad] sreg]|e]; cbn [bind]; [|reflexivity] end.
  destruct (check_border s1 rad) as [sz|e]; cbn [bind]; [|reflexivity].
  destruct (check_radius rad) as [r'|e]; cbn [bind]; [|reflexivity].
  destruct (snr_dims img sz) as [[]|e]; cbn [bind]; [|reflexivity].
  unfold snr_grey. destruct (match sreg with Some x => Ok x | None => make_region kind img sz r' end) as [s|e]; [|reflexivity].
  cbn [bind]. f_equal. f_equal. unfold snr_info, snr_keys, dkeys. destruct kind; [destruct au|..]; reflexivity.
Qed.
Print Assumptions C137_tuple.

Lemma check_border_ints sc r sz : check_border sc r = Ok sz -> sc = map CInt sz.
Proof.
  revert sz. induction sc as [|c sc IH]; intros sz; cbn [check_border].
  - intros [= <-]. reflexivity.
  - destruct c as [z|]; [|discriminate]. 
    match goal with |- (let* _ := ?x in _) = _ -> _ => destruct x as [[]|e]; cbn [bind]; [|discriminate] end.
    destruct (check_border sc r) as [zs|e]; cbn [bind]; [|discriminate].
    intros [= <-]. cbn [map]. rewrite <- (IH zs eq_refl). reflexivity.
Qed.

(** The entries: the signal the value belongs to, the type of the region, centre and radius. *)
Lemma pair_info mk nobg name img sc r kind au it lo hi v d : snr_pair mk nobg name img sc r kind au it lo hi = Ok (v, d) ->
  exists sz rz s, d = snr_info name kind au it lo hi sz rz s /\ v = snr_value mk s /\ (au = false -> sc = map CInt sz /\ r = RInt rz).
Proof.
  unfold snr_pair.
  match goal with |- (let* _ := ?x in _) = _ -> _ => destruct x as [[[s1 rad] sreg]|e] eqn:E; cbn [bind]; [|discriminate] end.
  destruct (check_border s1 rad) as [sz|e] eqn:B; cbn [bind]; [|discriminate].
  destruct (check_radius rad) as [r'|e] eqn:Q; cbn [bind]; [|discriminate].
  destruct (snr_dims img sz) as [[]|e]; cbn [bind]; [|discriminate].
  destruct (match sreg with Some x => Ok x | None => make_region kind img sz r' end) as [s|e]; cbn [bind]; [|discriminate].
  intros [= <- <-]. exists sz, r', s. split; [reflexivity|]. split; [reflexivity|].
  intros ->. injection E as -> -> _. split; [exact (check_border_ints _ _ _ B)|].
  destruct rad as [z|x|]; cbn [check_radius] in Q; [|discriminate|discriminate].
  destruct (z <=? 0)%Z; [discriminate|]. injection Q as ->. reflexivity.
Qed.

Theorem C137_entries : forall mk nobg name img sc r kind au it lo hi v d,
  snr_pair mk nobg name img sc r kind au it lo hi = Ok (v, d) ->
  (exists s, dget d "signal" = Some (DArray s) /\ v = snr_value mk s) /\
  dget d "region_type" = Some (DText (if match kind with KFull => negb au | _ => false end then "original" else name)) /\
  ((kind = KCubic \/ kind = KSpherical) -> au = false -> exists sz rz, sc = map CInt sz /\ r = RInt rz /\
     dget d "signal_center" = Some (DInts sz) /\ dget d "radius" = Some (DInt rz)) /\
  ((kind = KFull \/ kind = KOriginal) -> dget d "signal_center" = None /\ dget d "radius" = None) /\
  (kind = KFull -> au = true -> dget d "iterations" = Some (DInt it) /\
     dget d "lower_threshold" = Some (DReal lo) /\ dget d "upper_threshold" = Some (DReal hi)).
Proof.
  intros mk nobg name img sc r kind au it lo hi v d H. apply pair_info in H.
  destruct H as (sz & rz & s & -> & -> & A). split; [|split; [|split; [|split]]].
  - exists s. split; [|reflexivity]. destruct kind; [destruct au|..]; reflexivity.
  - destruct kind; [destruct au|..]; reflexivity.
  - intros K Au. destruct (A Au) as [-> ->]. exists sz, rz. destruct K as [->| ->]; repeat split; reflexivity.
  - intros [->| ->]; [destruct au|]; split; reflexivity.
  - intros -> ->. repeat split; reflexivity.
Qed.
Print Assumptions C137_entries.

(** ** print_score *)

(** After a successful SNR.score of a grey image nothing is printed; no number of decimals helps. *)
Theorem C137_print : forall str_num str_array i v d decimals,
  print_held str_num str_array CSNR (HPair i v d) decimals = ([], Err TypeError).
Proof. reflexivity. Qed.
Print Assumptions C137_print.

(** Three values are printed as one array; a missing score is a warning. *)
Theorem C137_print_others : forall str_num str_array c i y u v decimals,
  print_held str_num str_array c (HTriple i y u v) decimals =
    ([Printed (printed_name c ++ ": " ++ str_array [np_round_ext decimals y; np_round_ext decimals u; np_round_ext decimals v])], Ok tt)%string /\
  (forall n x m, m_class m = c -> m_score m = SNum x ->
     print_held str_num str_array c (HNum n x) decimals = print_score str_num m decimals) /\
  (forall m, m_class m = c -> m_score m = SNone -> print_held str_num str_array c HNone decimals = print_score str_num m decimals).
Proof.
  intros. split; [reflexivity|]. split.
  - intros n x m <- E. unfold print_score. rewrite E. reflexivity.
  - intros m <- E. unfold print_score. rewrite E. reflexivity.
Qed.
Print Assumptions C137_print_others.

(** ** Comparison with numbers *)

(** With a python number: never equal, always different, and no order, whatever the two values are. *)
Theorem C137_number : forall i v d x o,
  held_eq (HPair i v d) (HNum false x) = Ok (ABool false) /\ held_eq (HNum false x) (HPair i v d) = Ok (ABool false) /\
  held_ne (HPair i v d) (HNum false x) = Ok (ABool true) /\ held_ne (HNum false x) (HPair i v d) = Ok (ABool true) /\
  held_order o (HPair i v d) (HNum false x) = Err TypeError /\ held_order o (HNum false x) (HPair i v d) = Err TypeError.
Proof. intros. repeat split; reflexivity. Qed.
Print Assumptions C137_number.

(** With a numpy number, e.g. the score of a CNR object: the answer is an array without truth value. *)
Theorem C137_numpy : forall i v d x o,
  (let* a := held_eq (HPair i v d) (HNum true x) in truth a) = Err ValueError /\
  (let* a := held_eq (HNum true x) (HPair i v d) in truth a) = Err ValueError /\
  (let* a := held_ne (HPair i v d) (HNum true x) in truth a) = Err ValueError /\
  held_order o (HPair i v d) (HNum true x) = Err TypeError /\ held_order o (HNum true x) (HPair i v d) = Err TypeError.
Proof. intros. repeat split; reflexivity. Qed.
Print Assumptions C137_numpy.

(** ** Comparison of two SNR objects *)

Lemma ext_eqb_true x y : ext_eqb x y = true -> x = y.
Proof.
  destruct x as [x| | |], y as [y| | |]; cbn [ext_eqb]; try discriminate; try reflexivity.
  destruct (Req_EM_T x y) as [->|]; [reflexivity|discriminate].
Qed.
Lemma ints_eqb_iff a b : ints_eqb a b = true <-> a = b.
Proof.
  revert b. induction a as [|x a IH]; intros [|y b]; cbn [ints_eqb]; split; try discriminate; try reflexivity.
  - intros H. apply andb_true_iff in H. destruct H as [H1 H2]. apply Z.eqb_eq in H1. apply IH in H2. congruence.
  - intros [= -> ->]. rewrite Z.eqb_refl. apply IH. reflexivity.
Qed.

Definition same_parameters (d d' : dict dval) : Prop := forall k, k <> "signal"%string -> dget d k = dget d' k.

Lemma same_last l (a b : dval) : same_parameters (l ++ [("signal"%string, a)]) (l ++ [("signal"%string, b)]).
Proof.
  intros k Hk. induction l as [|[k' v] l IH]; cbn [app dget].
  - destruct (String.eqb_spec "signal" k) as [E|]; [congruence|]. reflexivity.
  - rewrite IH. reflexivity.
Qed.

Lemma dict_eq_info name kind au it lo hi sz rz s name' kind' au' it' lo' hi' sz' rz' s' :
  let d := snr_info name kind au it lo hi sz rz s in
  let d' := snr_info name' kind' au' it' lo' hi' sz' rz' s' in
  (same_parameters d d' -> dict_eq d d' = arrays_eq s s') /\ (~ same_parameters d d' -> dict_eq d d' = Ok false).
Proof.
  cbn zeta.
  assert (C : forall t sz rz s t' sz' rz' s',
    let d := [("signal_center", DInts sz); ("radius", DInt rz); ("region_type", DText t); ("signal", DArray s)]%string in
    let d' := [("signal_center", DInts sz'); ("radius", DInt rz'); ("region_type", DText t'); ("signal", DArray s')]%string in
    (same_parameters d d' -> dict_eq d d' = arrays_eq s s') /\ (~ same_parameters d d' -> dict_eq d d' = Ok false)).
  { clear. intros t sz rz s t' sz' rz' s'. cbn zeta. split.
    - intros S. pose proof (S "signal_center"%string ltac:(discriminate)) as E1. pose proof (S "radius"%string ltac:(discriminate)) as E2.
      pose proof (S "region_type"%string ltac:(discriminate)) as E3. cbn in E1, E2, E3. injection E1 as <-. injection E2 as <-. injection E3 as <-.
      cbn. assert (I : ints_eqb sz sz = true) by (apply ints_eqb_iff; reflexivity). rewrite I, Z.eqb_refl, String.eqb_refl.
      destruct (arrays_eq s s') as [[]|]; reflexivity.
    - intros N. cbn. destruct (ints_eqb sz sz') eqn:E1; [apply ints_eqb_iff in E1; subst sz'|reflexivity].
      destruct (Z.eqb_spec rz rz') as [<-|]; [|reflexivity]. destruct (String.eqb_spec t t') as [<-|]; [|reflexivity].
      exfalso. apply N. exact (same_last [("signal_center", DInts sz); ("radius", DInt rz); ("region_type", DText t)]%string _ _). }
  assert (F : forall t it lo hi s t' it' lo' hi' s',
    let d := [("iterations", DInt it); ("lower_threshold", DReal lo); ("upper_threshold", DReal hi); ("region_type", DText t); ("signal", DArray s)]%string in
    let d' := [("iterations", DInt it'); ("lower_threshold", DReal lo'); ("upper_threshold", DReal hi'); ("region_type", DText t'); ("signal", DArray s')]%string in
    (same_parameters d d' -> dict_eq d d' = arrays_eq s s') /\ (~ same_parameters d d' -> dict_eq d d' = Ok false)).
  { clear. intros t it lo hi s t' it' lo' hi' s'. cbn zeta. split.
    - intros S. pose proof (S "iterations"%string ltac:(discriminate)) as E1. pose proof (S "lower_threshold"%string ltac:(discriminate)) as E2.
      pose proof (S "upper_threshold"%string ltac:(discriminate)) as E4.
      pose proof (S "region_type"%string ltac:(discriminate)) as E3. cbn in E1, E2, E3, E4.
      injection E1 as <-. injection E2 as <-. injection E3 as <-. injection E4 as <-.
      cbn. rewrite Z.eqb_refl, String.eqb_refl. destruct (Req_EM_T lo lo) as [_|N]; [|contradiction].
      destruct (Req_EM_T hi hi) as [_|N]; [|contradiction]. destruct (arrays_eq s s') as [[]|]; reflexivity.
    - intros N. cbn. destruct (Z.eqb_spec it it') as [<-|]; [|reflexivity]. destruct (Req_EM_T lo lo') as [<-|]; [|reflexivity].
      destruct (Req_EM_T hi hi') as [<-|]; [|reflexivity]. destruct (String.eqb_spec t t') as [<-|]; [|reflexivity].
      exfalso. apply N.
      exact (same_last [("iterations", DInt it); ("lower_threshold", DReal lo); ("upper_threshold", DReal hi); ("region_type", DText t)]%string _ _). }
  assert (O : forall t s t' s',
    let d := [("region_type", DText t); ("signal", DArray s)]%string in
    let d' := [("region_type", DText t'); ("signal", DArray s')]%string in
    (same_parameters d d' -> dict_eq d d' = arrays_eq s s') /\ (~ same_parameters d d' -> dict_eq d d' = Ok false)).
  { clear. intros t s t' s'. cbn zeta. split.
    - intros S. pose proof (S "region_type"%string ltac:(discriminate)) as E3. cbn in E3. injection E3 as <-.
      cbn. rewrite String.eqb_refl. destruct (arrays_eq s s') as [[]|]; reflexivity.
    - intros N. cbn. destruct (String.eqb_spec t t') as [<-|]; [|reflexivity].
      exfalso. apply N. exact (same_last [("region_type", DText t)]%string _ _). }
  assert (D : forall (d d' : dict dval) k, k <> "signal"%string -> dget d k <> dget d' k -> dict_eq d d' = Ok false ->
    (same_parameters d d' -> dict_eq d d' = arrays_eq s s') /\ (~ same_parameters d d' -> dict_eq d d' = Ok false)).
  { intros d d' k Hk N E. split; [intros S; destruct (N (S k Hk))|intros _; exact E]. }
  unfold snr_info.
  destruct kind; [destruct au|..]; (destruct kind'; [destruct au'|..]);
    solve [apply C | apply F | apply O
          | apply (D _ _ "radius"%string); [discriminate|discriminate|reflexivity]
          | apply (D _ _ "iterations"%string); [discriminate|discriminate|reflexivity]].
Qed.

(** Two tuples of different calls are never found equal if the signals have two pixels or more: either a
    value or a parameter differs, or the comparison raises. *)
Theorem C137_never : forall mk nobg name img sc r kind au it lo hi v d name' img' sc' r' kind' au' it' lo' hi' v' d' s s' i j,
  snr_pair mk nobg name img sc r kind au it lo hi = Ok (v, d) ->
  snr_pair mk nobg name' img' sc' r' kind' au' it' lo' hi' = Ok (v', d') ->
  dget d "signal" = Some (DArray s) -> dget d' "signal" = Some (DArray s') ->
  2 <= length (cells s) \/ 2 <= length (cells s') -> i <> j ->
  (ext_eqb v v' = true -> same_parameters d d' -> held_eq (HPair i v d) (HPair j v' d') = Err ValueError) /\
  (ext_eqb v v' = false \/ ~ same_parameters d d' -> held_eq (HPair i v d) (HPair j v' d') = Ok (ABool false)).
Proof.
  intros mk nobg name img sc r kind au it lo hi v d name' img' sc' r' kind' au' it' lo' hi' v' d' s s' i j H H' S S' L Hij.
  apply pair_info in H, H'. destruct H as (sz & rz & s0 & -> & -> & _). destruct H' as (sz' & rz' & s0' & -> & -> & _).
  assert (s0 = s) as -> by (destruct kind; [destruct au|..]; cbn in S; congruence).
  assert (s0' = s') as -> by (destruct kind'; [destruct au'|..]; cbn in S'; congruence).
  destruct (dict_eq_info name kind au it lo hi sz rz s name' kind' au' it' lo' hi' sz' rz' s') as [A B].
  cbn [held_eq]. apply Nat.eqb_neq in Hij. rewrite Hij.
  assert (E : arrays_eq s s' = Err ValueError).
  { unfold arrays_eq. destruct (cells s) as [|x [|y l]], (cells s') as [|x' [|y' l']]; cbn [length] in L; try lia; try reflexivity;
      destruct x; try reflexivity; destruct x'; reflexivity. }
  split.
  - intros -> P. rewrite (A P), E. reflexivity.
  - intros [->|P]; [reflexivity|]. rewrite (B P). cbn [bind]. destruct (ext_eqb _ _); reflexivity.
Qed.
Print Assumptions C137_never.

(** In particular the same image scored twice with the same arguments; the same holds for the order. *)
Theorem C137_twice : forall mk nobg name img sc r kind au it lo hi v d s i j o,
  snr_pair mk nobg name img sc r kind au it lo hi = Ok (v, d) -> v <> NaN ->
  dget d "signal" = Some (DArray s) -> 2 <= length (cells s) -> i <> j ->
  held_eq (HPair i v d) (HPair j v d) = Err ValueError /\ held_ne (HPair i v d) (HPair j v d) = Err ValueError /\
  held_order o (HPair i v d) (HPair j v d) = Err ValueError.
Proof.
  intros mk nobg name img sc r kind au it lo hi v d s i j o H N S L Hij.
  assert (R : ext_eqb v v = true).
  { destruct v as [x| | |]; cbn [ext_eqb]; try reflexivity; [destruct (Req_EM_T x x); [reflexivity|contradiction]|contradiction]. }
  assert (E : held_eq (HPair i v d) (HPair j v d) = Err ValueError).
  { eapply (proj1 (C137_never mk nobg name img sc r kind au it lo hi v d name img sc r kind au it lo hi v d s s i j H H S S (or_introl L) Hij)).
    - exact R.
    - intros k _. reflexivity. }
  split; [exact E|]. split; [unfold held_ne; rewrite E; reflexivity|].
  cbn [held_eq held_order] in *. apply Nat.eqb_neq in Hij. rewrite Hij, R in *.
  destruct (dict_eq d d) as [b|e]; cbn [bind] in *; [discriminate|]. injection E as ->. reflexivity.
Qed.
Print Assumptions C137_twice.

(** An object compared with itself: equal, even if the value is no number. *)
Theorem C137_itself : forall i v d o,
  held_eq (HPair i v d) (HPair i v d) = Ok (ABool true) /\ held_ne (HPair i v d) (HPair i v d) = Ok (ABool false) /\
  held_order o (HPair i v d) (HPair i v d) = Ok (ABool (match o with OLe | OGe => true | _ => false end)).
Proof.
  intros i v d o. unfold held_ne, held_eq, held_order, reflexive. rewrite Nat.eqb_refl.
  destruct o; repeat split; reflexivity.
Qed.
Print Assumptions C137_itself.

(** Different values are ordered as numbers. *)
Theorem C137_order : forall i j x y d d', i <> j -> x <> y ->
  held_order OLt (HPair i (Fin x) d) (HPair j (Fin y) d') = Ok (ABool (if Rlt_dec x y then true else false)) /\
  held_order OLe (HPair i (Fin x) d) (HPair j (Fin y) d') = Ok (ABool (if Rlt_dec x y then true else false)) /\
  held_order OGt (HPair i (Fin x) d) (HPair j (Fin y) d') = Ok (ABool (if Rlt_dec y x then true else false)) /\
  held_order OGe (HPair i (Fin x) d) (HPair j (Fin y) d') = Ok (ABool (if Rlt_dec y x then true else false)).
Proof.
  intros i j x y d d' Hij N. apply Nat.eqb_neq in Hij. cbn [held_order ext_eqb]. rewrite Hij.
  destruct (Req_EM_T x y); [contradiction|]. cbn [ext_order ext_ltb ext_eqb].
  destruct (Req_EM_T x y); [contradiction|]. rewrite !orb_false_r. repeat split; reflexivity.
Qed.
Print Assumptions C137_order.

(** The three values of a colour image: equality of all; the first different one decides the order. *)
Theorem C137_triple : forall i j y u v y' u' v' o, i <> j ->
  (held_eq (HTriple i (Fin y) (Fin u) (Fin v)) (HTriple j (Fin y') (Fin u') (Fin v')) = Ok (ABool true) <-> y = y' /\ u = u' /\ v = v') /\
  (y <> y' -> held_order o (HTriple i (Fin y) (Fin u) (Fin v)) (HTriple j (Fin y') (Fin u') (Fin v')) =
     held_order o (HNum false (Fin y)) (HNum false (Fin y'))) /\
  (y = y' -> u <> u' -> held_order o (HTriple i (Fin y) (Fin u) (Fin v)) (HTriple j (Fin y') (Fin u') (Fin v')) =
     held_order o (HNum false (Fin u)) (HNum false (Fin u'))) /\
  (y = y' -> u = u' -> held_order o (HTriple i (Fin y) (Fin u) (Fin v)) (HTriple j (Fin y') (Fin u') (Fin v')) =
     held_order o (HNum false (Fin v)) (HNum false (Fin v'))).
Proof.
  intros i j y u v y' u' v' o Hij. apply Nat.eqb_neq in Hij. cbn [held_order held_eq ext_eqb]. rewrite Hij. cbn [orb].
  destruct (Req_EM_T y y') as [Ey|Ey], (Req_EM_T u u') as [Eu|Eu], (Req_EM_T v v') as [Ev|Ev]; cbn [andb negb];
    (split; [split; [intros HH; try discriminate HH; auto|intros (? & ? & ?); try contradiction; reflexivity]|]);
    (split; [intros H; try contradiction; reflexivity|]); (split; [intros H H'; try contradiction; reflexivity|]); intros H H'; try contradiction; try reflexivity.
  subst v'. destruct o; cbn [ext_order reflexive ext_ltb ext_eqb]; destruct (Rlt_dec v v) as [L|L]; try (exfalso; lra);
    try reflexivity; destruct (Req_EM_T v v); try reflexivity; contradiction.
Qed.
Print Assumptions C137_triple.

(** ** fuse_metrics_linear_combination *)

(** Numbers alone: as before. An SNR object anywhere in the list, with enough weights: TypeError. *)
Theorem C137_fuse : forall acc ns hs1 i v d hs2 ws,
  fuse_held acc (map (fun x => HNum (fst x) (snd x)) ns) ws = fuse_from acc (map (fun x => SNum (snd x)) ns) ws /\
  (length hs1 < length ws -> Forall (fun h => exists n x, h = HNum n x) hs1 ->
     fuse_held acc (hs1 ++ HPair i v d :: hs2) ws = Err TypeError).
Proof.
  intros acc ns hs1 i v d hs2 ws. split.
  - revert acc ws. induction ns as [|[n x] ns IH]; intros acc [|w ws]; cbn [map fuse_held fuse_from]; try reflexivity. apply IH.
  - revert acc ws. induction hs1 as [|h hs1 IH]; intros acc [|w ws] L F; cbn [length app fuse_held] in *; try lia; [reflexivity|].
    inversion F as [|? ? [n [x ->]] F']; subst. cbn [fuse_held]. apply IH; [lia|exact F'].
Qed.
Print Assumptions C137_fuse.

(** ** Further comparisons *)

(** Signals of one pixel are compared: equal values, or masked in both. *)
Theorem C137_one_pixel : forall mk nobg name img sc r kind au it lo hi v d name' img' sc' r' kind' au' it' lo' hi' v' d' s s' x y i j,
  snr_pair mk nobg name img sc r kind au it lo hi = Ok (v, d) ->
  snr_pair mk nobg name' img' sc' r' kind' au' it' lo' hi' = Ok (v', d') ->
  dget d "signal" = Some (DArray s) -> dget d' "signal" = Some (DArray s') -> cells s = [x] -> cells s' = [y] ->
  ext_eqb v v' = true -> same_parameters d d' -> i <> j ->
  exists b, held_eq (HPair i v d) (HPair j v' d') = Ok (ABool b) /\ (b = true <-> x = y).
Proof.
  intros mk nobg name img sc r kind au it lo hi v d name' img' sc' r' kind' au' it' lo' hi' v' d' s s' x y i j H H' S S' Cx Cy Ev P Hij.
  apply pair_info in H, H'. destruct H as (sz & rz & s0 & -> & -> & _). destruct H' as (sz' & rz' & s0' & -> & -> & _).
  assert (s0 = s) as -> by (destruct kind; [destruct au|..]; cbn in S; congruence).
  assert (s0' = s') as -> by (destruct kind'; [destruct au'|..]; cbn in S'; congruence).
  destruct (dict_eq_info name kind au it lo hi sz rz s name' kind' au' it' lo' hi' sz' rz' s') as [A _].
  cbn [held_eq]. apply Nat.eqb_neq in Hij. rewrite Hij, Ev, (A P). unfold arrays_eq. rewrite Cx, Cy.
  destruct x as [x|], y as [y|]; cbn [bind]; eexists; (split; [reflexivity|]).
  - destruct (Req_EM_T x y) as [->|N]; [tauto|]. split; [discriminate|congruence].
  - split; [discriminate|congruence].
  - split; [discriminate|congruence].
  - tauto.
Qed.
Print Assumptions C137_one_pixel.

(** Equal values with different parameters have no order. *)
Theorem C137_no_order : forall mk nobg name img sc r kind au it lo hi v d name' img' sc' r' kind' au' it' lo' hi' v' d' i j o,
  snr_pair mk nobg name img sc r kind au it lo hi = Ok (v, d) ->
  snr_pair mk nobg name' img' sc' r' kind' au' it' lo' hi' = Ok (v', d') ->
  ext_eqb v v' = true -> ~ same_parameters d d' -> i <> j ->
  held_order o (HPair i v d) (HPair j v' d') = Err TypeError.
Proof.
  intros mk nobg name img sc r kind au it lo hi v d name' img' sc' r' kind' au' it' lo' hi' v' d' i j o H H' Ev P Hij.
  apply pair_info in H, H'. destruct H as (sz & rz & s0 & -> & -> & _). destruct H' as (sz' & rz' & s0' & -> & -> & _).
  destruct (dict_eq_info name kind au it lo hi sz rz s0 name' kind' au' it' lo' hi' sz' rz' s0') as [_ A].
  cbn [held_order]. apply Nat.eqb_neq in Hij. rewrite Hij, Ev, (A P). reflexivity.
Qed.
Print Assumptions C137_no_order.

(** Any two dictionaries: an entry that the second one does not have makes them unequal, without an error. *)
Theorem C137_missing_entry : forall k v d d', dget d' k = None -> dict_eq ((k, v) :: d) d' = Ok false.
Proof. intros k v d d' H. unfold dict_eq. cbn [entries_eq]. rewrite H. destruct (_ =? _); reflexivity. Qed.
Print Assumptions C137_missing_entry.

(** The arrays which comparisons with numpy numbers give. *)
Theorem C137_arrays : forall i z d w x y u v o,
  held_ne (HPair i (Fin z) d) (HNum true (Fin w)) = Ok (AArray [if Req_EM_T z w then false else true; true]) /\
  held_eq (HTriple i y u v) (HNum true x) = Ok (AArray [ext_eqb y x; ext_eqb u x; ext_eqb v x]) /\
  held_order o (HTriple i y u v) (HNum true x) = Ok (AArray (map (fun a => ext_order o a x) [y; u; v])) /\
  held_order o (HNum true x) (HTriple i y u v) = Ok (AArray (map (fun a => ext_order o x a) [y; u; v])).
Proof. intros i z d w x y u v o. repeat split. unfold held_ne. cbn. destruct (Req_EM_T z w); reflexivity. Qed.
Print Assumptions C137_arrays.

(** The pair of a grey image and the three values of a colour image: the first values decide, else TypeError. *)
Theorem C137_pair_triple : forall i j x d y u v o,
  held_eq (HPair i (Fin x) d) (HTriple j (Fin y) u v) = Ok (ABool false) /\
  (x = y -> held_order o (HPair i (Fin x) d) (HTriple j (Fin y) u v) = Err TypeError /\
            held_order o (HTriple j (Fin y) u v) (HPair i (Fin x) d) = Err TypeError) /\
  (x <> y -> held_order o (HPair i (Fin x) d) (HTriple j (Fin y) u v) = held_order o (HNum false (Fin x)) (HNum false (Fin y)) /\
             held_order o (HTriple j (Fin y) u v) (HPair i (Fin x) d) = held_order o (HNum false (Fin y)) (HNum false (Fin x))).
Proof.
  intros i j x d y u v o. split; [reflexivity|]. cbn [held_order ext_eqb]. split; intros H.
  - subst y. destruct (Req_EM_T x x); [|contradiction]. split; reflexivity.
  - destruct (Req_EM_T x y); [contradiction|]. destruct (Req_EM_T y x); [congruence|]. split; reflexivity.
Qed.
Print Assumptions C137_pair_triple.

(** ** Examples: an image of 2 x 2 pixels, the region is the whole image *)

Definition four : arr R := Arr [2; 2] [3; 1; 3; 1]%R.
Example C137_ex : exists v d, snr_pair NaN (fun _ _ => 0) "full" four [CInt 1%Z; CInt 1%Z] (RInt 1%Z) KFull false 5 0 100 = Ok (v, d) /\
  dkeys d = ["region_type"; "signal"]%string /\ dget d "region_type" = Some (DText "original") /\
  dget d "signal" = Some (DArray (Whole four)) /\ v = Fin 2.
Proof.
  eexists. eexists. split; [reflexivity|]. repeat split; try reflexivity.
  unfold snr_value, four. cbn [values dat].
  assert (M : lmean [3; 1; 3; 1]%R = 2%R) by (unfold lmean, Sum; cbn; lra).
  assert (D : std0 [3; 1; 3; 1]%R = 1%R).
  { unfold std0, dev. rewrite M. unfold Sum. cbn. replace (_ / _)%R with (1 * 1)%R by field. apply sqrt_square. lra. }
  rewrite M, D. unfold is_zero. destruct (Req_EM_T 1 0); [lra|]. f_equal. lra.
Qed.
Example C137_order_ex : held_order OLt (HPair 0 (Fin 1) []) (HPair 1 (Fin 2) []) = Ok (ABool true).
Proof. destruct (C137_order 0 1 1 2 [] [] ltac:(lia) ltac:(lra)) as [-> _]. destruct (Rlt_dec 1 2); [reflexivity|lra]. Qed.
Example C137_fuse_ex : fuse_held (Fin 0) [HNum true (Fin 3); HPair 0 (Fin 2) []] [Fin (1 / 2); Fin (1 / 2)] = Err TypeError.
Proof. reflexivity. Qed.
