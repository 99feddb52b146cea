(** The batch loop compared with scoring every pair on its own. *)
From Coq Require Import Reals.
From Verif Require Import Base NdArray LoadModel LoadProofs NormModel NormProofs PairModel PairProofs BatchModel BatchProofs.

(** ** Loading *)
Section loading.
Variable disk : text -> res image.
Variable ident : identity.
Variable ub : R -> Z.
Notation load_in := (load_in disk ident ub).
Notation reload := (reload disk ident ub).

(** Type of an image of type [d] loaded with the keywords. *)
Definition loaded_type (kw : kwargs) (d : dtype) : dtype :=
  match k_range kw with
  | Some hi =>
      if k_norm kw && negb (hi =? 0)%Z && negb (already_normalised ident d 0 hi) then
        if (hi =? 255)%Z then UInt 8 else if (hi =? 65535)%Z then UInt 16 else Float 32
      else d
  | None => d
  end.

Lemma finish_type lo hi s l o : finish ub lo hi s l = Ok o ->
  o_type o = if (hi =? 255)%Z then UInt 8 else if (hi =? 65535)%Z then UInt 16 else Float 32.
Proof.
  unfold finish. change (2 ^ 8 - 1)%Z with 255%Z. change (2 ^ 16 - 1)%Z with 65535%Z.
  destruct (Z.eqb_spec hi 255), (Z.eqb_spec lo 0), (Z.eqb_spec hi 65535), (Z.eqb_spec hi 1); simpl; intros H;
    try discriminate H; try lia; injection H as <-; reflexivity.
Qed.
Lemma finish_nan_type lo hi s o : finish_nan lo hi s = Ok o ->
  o_type o = (if (hi =? 255)%Z then UInt 8 else if (hi =? 65535)%Z then UInt 16 else Float 32) /\ o_shape o = s.
Proof.
  unfold finish_nan. change (2 ^ 8 - 1)%Z with 255%Z. change (2 ^ 16 - 1)%Z with 65535%Z.
  destruct (Z.eqb_spec hi 255), (Z.eqb_spec lo 0), (Z.eqb_spec hi 65535), (Z.eqb_spec hi 1); simpl; intros H;
    try discriminate H; try lia; injection H as <-; split; reflexivity.
Qed.

Lemma normalize_type im hi o : normalize_data ident ub im 0 hi None = Ok o ->
  o_type o = if already_normalised ident (dt im) 0 hi then dt im
             else if (hi =? 255)%Z then UInt 8 else if (hi =? 65535)%Z then UInt 16 else Float 32.
Proof.
  unfold normalize_data. intros H.
  assert (G : forall d, d = dt im ->
    (if already_normalised ident d 0 hi then Ok (NImg im)
     else match px im with
      | PI a =>
          let* (mn, span) := (let* mn := zmin (dat a) in let* mx := zmax (dat a) in Ok (mn, wrap d (mx - mn))) in
          if (span =? 0)%Z then finish_nan 0 hi (shp a)
          else finish ub 0 hi (shp a) (map (stretch_int d 0 hi mn span) (dat a))
      | PF a =>
          let* (mn, mx) := (let* mn := rmin (dat a) in let* mx := rmax (dat a) in Ok (mn, mx)) in
          if Req_EM_T mx mn then finish_nan 0 hi (shp a)
          else finish ub 0 hi (shp a) (map (stretch_real 0 hi mn mx) (dat a))
      end) = Ok o ->
    o_type o = if already_normalised ident d 0 hi then d
             else if (hi =? 255)%Z then UInt 8 else if (hi =? 65535)%Z then UInt 16 else Float 32).
  { clear H. intros d Hd H. destruct (already_normalised ident d 0 hi); [injection H as <-; simpl; congruence|].
    destruct (px im) as [a|a].
    - apply bind_ok in H as ([mn span] & _ & H). destruct (span =? 0)%Z;
        [apply finish_nan_type in H as [H _]; exact H|apply finish_type in H; exact H].
    - apply bind_ok in H as ([mn mx] & _ & H). destruct (Req_EM_T mx mn);
        [apply finish_nan_type in H as [H _]; exact H|apply finish_type in H; exact H]. }
  destruct (dt im) eqn:E; try discriminate H; apply (G _ eq_refl H).
Qed.

Lemma prepare_type kw im o : prepare ident ub (k_norm kw) (k_range kw) [] im = Ok o ->
  o_shape o = shape im /\ o_type o = loaded_type kw (dt im).
Proof.
  unfold prepare, loaded_type. intros H. apply bind_ok in H as (o1 & H1 & H). injection H as <-.
  destruct (k_range kw) as [hi|]; [|injection H1 as <-; split; reflexivity].
  destruct (k_norm kw && negb (hi =? 0)%Z); [|injection H1 as <-; split; reflexivity]. simpl.
  split; [apply (normalize_dims _ _ _ _ _ _ _ H1)|].
  rewrite (normalize_type _ _ _ H1). destruct (already_normalised ident (dt im) 0 hi); reflexivity.
Qed.

Lemma load_in_path kw path o : load_in kw (InPath path) = Ok o ->
  exists im, disk path = Ok im /\ o_shape o = shape im /\ o_type o = loaded_type kw (dt im).
Proof.
  unfold BatchModel.load_in, load_data. intros H. destruct (k_chromatic kw); [discriminate H|].
  apply bind_ok in H as (l & H & Ho). destruct (k_norm kw && _); [discriminate H|].
  apply bind_ok in H as (im & Hd & H). apply bind_ok in H as ([] & _ & H).
  apply bind_ok in H as (o1 & H1 & H). injection H as <-. injection Ho as <-.
  exists im. split; [exact Hd|]. apply prepare_type, H1.
Qed.

Lemma reload_type kw o o' : reload kw o = Ok o' ->
  o_shape o' = o_shape o /\ o_type o' = loaded_type kw (o_type o).
Proof.
  destruct o as [im|d s]; cbn [BatchModel.reload].
  - unfold BatchModel.load_in, load_data. intros H. destruct (k_chromatic kw); [discriminate H|].
    apply bind_ok in H as (l & H & Ho). destruct (k_norm kw && _); [discriminate H|].
    apply bind_ok in H as ([] & _ & H). apply bind_ok in H as (o1 & H1 & H).
    injection H as <-. injection Ho as <-. apply prepare_type, H1.
  - destruct (k_chromatic kw); [discriminate|]. unfold loaded_type. cbn [o_type o_shape].
    destruct (k_range kw) as [hi|].
    + intros H. apply bind_ok in H as ([] & _ & H).
      destruct (k_norm kw && negb (hi =? 0)%Z); simpl; [|injection H as <-; split; reflexivity].
      destruct (already_normalised ident d 0 hi); simpl; [injection H as <-; split; reflexivity|].
      apply finish_nan_type in H as [H1 H2]. split; assumption.
    + destruct (k_norm kw); [discriminate|]. intros H. apply bind_ok in H as ([] & _ & H).
      injection H as <-. split; reflexivity.
Qed.

(** Without normalisation loading again changes nothing. *)
Definition plain (kw : kwargs) : Prop := k_norm kw = false /\ k_chromatic kw = false.

Lemma reload_plain kw i o : plain kw -> load_in kw i = Ok o -> reload kw o = Ok o.
Proof.
  intros [Hn Hc] H. unfold BatchModel.load_in, load_data in H. rewrite Hc, Hn in H. cbn [andb] in H.
  assert (G : forall im, check_dims (shape im) = Ok tt -> load_in kw (InArray im) = Ok (NImg im)).
  { intros im Hd. unfold BatchModel.load_in, load_data, prepare. rewrite Hc, Hn, Hd. simpl.
    destruct (k_range kw); reflexivity. }
  assert (K : forall im o1, prepare ident ub false (k_range kw) [] im = Ok o1 -> o1 = NImg im).
  { intros im o1. unfold prepare. simpl. destruct (k_range kw); simpl; congruence. }
  apply bind_ok in H as (l & H & Ho).
  destruct i as [name|im|[|im [|im' l']]|]; try discriminate H.
  - apply bind_ok in H as (im & _ & H). apply bind_ok in H as ([] & Hd & H).
    apply bind_ok in H as (o1 & H1 & H). injection H as <-. injection Ho as <-.
    apply K in H1 as ->. cbn [BatchModel.reload]. apply G, Hd.
  - apply bind_ok in H as ([] & Hd & H).
    apply bind_ok in H as (o1 & H1 & H). injection H as <-. injection Ho as <-.
    apply K in H1 as ->. cbn [BatchModel.reload]. apply G, Hd.
  - apply bind_ok in H as ([] & Hd & H).
    apply bind_ok in H as (o1 & H1 & H). injection H as <-. discriminate Ho.
Qed.
End loading.

(** ** The loop *)
Section loop.
Context {M P X F : Type}.
Variable kind_of : M -> mkind.
Variable name_of : M -> option string.
Variable score_fr : M -> P -> norm_out -> norm_out -> res X * M.
Variable score_nr : M -> P -> norm_out -> res X * M.
Variable to_f : X -> res F.
Variable disk : text -> res image.
Variable ident : identity.
Variable ub : R -> Z.
Variable resize : norm_out -> list nat -> dtype -> Z -> res norm_out.

Notation load_in := (load_in disk ident ub).
Notation reload := (reload disk ident ub).
Notation resize_image := (resize_image resize).
Notation prepare_pair := (prepare_pair disk ident ub resize).
Notation calc := (calc kind_of name_of score_fr score_nr to_f disk ident ub resize).
Notation batch_step := (batch_step kind_of name_of score_fr score_nr to_f disk ident ub resize).
Notation batch_loop := (batch_loop kind_of name_of score_fr score_nr to_f disk ident ub resize).
Notation batch_calculate := (batch_calculate kind_of name_of score_fr score_nr to_f disk ident ub resize).
Notation cache := (@cache F).

Lemma prepare_r_only kw order roi r m m' a b a' b' :
  prepare_pair kw order roi r m = Ok (a, b) -> prepare_pair kw order roi r m' = Ok (a', b') -> a = a'.
Proof.
  unfold BatchModel.prepare_pair. intros H H'.
  apply bind_ok in H as (m1 & _ & H). apply bind_ok in H as (r2 & R2 & H). apply bind_ok in H as (m2 & _ & H).
  apply bind_ok in H as (r3 & R3 & H). apply bind_ok in H as (m3 & _ & H).
  apply bind_ok in H' as (m1' & _ & H'). apply bind_ok in H' as (r2' & R2' & H'). apply bind_ok in H' as (m2' & _ & H').
  apply bind_ok in H' as (r3' & R3' & H'). apply bind_ok in H' as (m3' & _ & H').
  assert (r2' = r2) by congruence. subst r2'. assert (r3' = r3) by congruence. subst r3'.
  apply check_loaded_ok in H as (r0 & m0 & E0 & E1 & _ & _ & H).
  apply check_loaded_ok in H' as (r0' & m0' & E0' & E1' & _ & _ & H').
  injection E0 as <-. injection E0' as <-.
  destruct H as [(_ & C & G & _)|(C & -> & _)], H' as [(_ & C' & G' & _)|(C' & -> & _)].
  - congruence.
  - apply proj2 in C'. rewrite C in C'. discriminate (C' eq_refl).
  - apply proj2 in C. rewrite C' in C. discriminate (C eq_refl).
  - reflexivity.
Qed.

Lemma prepare_m_only kw order roi r r' m a b a' b' :
  resize_image r m order = resize_image r' m order ->
  prepare_pair kw order roi r m = Ok (a, b) -> prepare_pair kw order roi r' m = Ok (a', b') -> b = b'.
Proof.
  unfold BatchModel.prepare_pair. intros Hres H H'. rewrite <- Hres in H'.
  apply bind_ok in H as (m1 & M1 & H). apply bind_ok in H as (r2 & _ & H). apply bind_ok in H as (m2 & M2 & H).
  apply bind_ok in H as (r3 & _ & H). apply bind_ok in H as (m3 & M3 & H).
  apply bind_ok in H' as (m1' & M1' & H'). apply bind_ok in H' as (r2' & _ & H'). apply bind_ok in H' as (m2' & M2' & H').
  apply bind_ok in H' as (r3' & _ & H'). apply bind_ok in H' as (m3' & M3' & H').
  assert (m1' = m1) by congruence. subst m1'. assert (m2' = m2) by congruence. subst m2'.
  assert (m3' = m3) by congruence. subst m3'.
  apply check_loaded_ok in H as (r0 & m0 & E0 & E1 & _ & S & H).
  apply check_loaded_ok in H' as (r0' & m0' & E0' & E1' & _ & S' & H').
  injection E1 as <-. injection E1' as <-.
  destruct H as [(_ & C & _ & G)|(C & _ & ->)], H' as [(_ & C' & _ & G')|(C' & _ & ->)].
  - congruence.
  - apply proj2 in C'. rewrite S', <- S, C in C'. discriminate (C' eq_refl).
  - apply proj2 in C. rewrite S, <- S', C' in C. discriminate (C eq_refl).
  - reflexivity.
Qed.

Variables (kw : kwargs) (order : Z) (dir : text) (rois : option (list (option roi_t))) (global : option roi_t).
Variable ms : list (nat * P).
Variable h0 : @store M.

Definition paths (pr : pair) : res (text * text) :=
  let* rn := from_opt TypeError (p_ref pr) in
  let* mn := from_opt TypeError (p_mod pr) in Ok (join dir rn, join dir mn).

Notation pure_run := (pure_run kind_of name_of score_fr score_nr to_f h0).

(** One pair scored on its own, without memory. *)
Definition alone (roi : res (option roi_t)) (pr : pair) : res (dict F) :=
  let* (rp, mp) := paths pr in
  let* r := load_in kw (InPath rp) in
  let* m := load_in kw (InPath mp) in
  let* roi := roi in
  let* r1 := reload kw r in
  let* m1 := reload kw m in
  let* (a, b) := prepare_pair kw order roi r1 m1 in
  pure_run ms a b.

Definition roi_at (n : nat) : res (option roi_t) := pair_roi rois global n.

(** Neighbouring pairs that may share cached results. *)
Definition compatible (n : nat) (pr pr' : pair) : Prop :=
  forall rp mp rp' mp', paths pr = Ok (rp, mp) -> paths pr' = Ok (rp', mp') ->
    (rp = rp' -> roi_at n = roi_at (S n)) /\
    (mp = mp' -> roi_at n = roi_at (S n) /\
       forall r r1 r' r1' m m1,
         load_in kw (InPath rp) = Ok r -> reload kw r = Ok r1 ->
         load_in kw (InPath rp') = Ok r' -> reload kw r' = Ok r1' ->
         load_in kw (InPath mp) = Ok m -> reload kw m = Ok m1 ->
         resize_image r1 m1 order = resize_image r1' m1 order).

Definition cache_ok (n : nat) (pr : pair) (c : cache) : Prop :=
  paths pr = Ok (c_rpath c, c_mpath c) /\
  load_in kw (InPath (c_rpath c)) = Ok (c_ref c) /\ load_in kw (InPath (c_mpath c)) = Ok (c_mod c) /\
  alone (roi_at n) pr = Ok (c_last c).

Definition state_ok (n : nat) (pr : pair) (c : option cache) : Prop :=
  match n, c with
  | 0, None => True
  | S n', Some c => exists pr0, cache_ok n' pr0 c /\ compatible n' pr0 pr
  | _, _ => False
  end.

Variable Inv : @store M -> Prop.
Hypothesis step_ok : forall h id p, Inv h -> In (id, p) ms ->
      kind_of (h id) = kind_of (h0 id) /\ name_of (h id) = name_of (h0 id) /\
      (forall a b, fst (score_fr (h id) p a b) = fst (score_fr (h0 id) p a b) /\
                   name_of (snd (score_fr (h id) p a b)) = name_of (h0 id) /\
                   Inv (store_set h id (snd (score_fr (h id) p a b)))) /\
      (forall a, fst (score_nr (h id) p a) = fst (score_nr (h0 id) p a) /\
                 name_of (snd (score_nr (h id) p a)) = name_of (h0 id) /\
                 Inv (store_set h id (snd (score_nr (h id) p a)))).

Lemma text_eqb_eq a b : text_eqb a b = true <-> a = b.
Proof. unfold text_eqb. destruct (list_eq_dec ascii_dec a b); split; congruence. Qed.

Lemma calc_pure roi prev_r prev_m r m h :
  Inv h ->
  (forall a b, (let* r := r in let* m := m in prepare_pair kw order roi r m) = Ok (a, b) ->
     good_r kind_of name_of score_fr score_nr to_f h0 ms prev_r a /\
     good_m kind_of name_of score_fr score_nr to_f h0 ms prev_m b) ->
  exists h', Inv h' /\ calc kw order roi prev_r prev_m r m ms h
    = ((let* r := r in let* m := m in let* (a, b) := prepare_pair kw order roi r m in pure_run ms a b), h').
Proof.
  intros Hi Hg. unfold BatchModel.calc.
  destruct r as [r|e]; simpl in *; [|exists h; auto].
  destruct m as [m|e]; simpl in *; [|exists h; auto].
  destruct (prepare_pair kw order roi r m) as [[a b]|e]; simpl; [|exists h; auto].
  destruct (Hg a b eq_refl) as [Gr Gm].
  destruct (run_metrics_pure kind_of name_of score_fr score_nr to_f h0 ms Inv step_ok prev_r prev_m a b ms [] h Hi
              (incl_refl _)) as (h' & Hi' & E).
  exists h'. split; [exact Hi'|]. rewrite E. f_equal. apply cached_run; assumption.
Qed.

Lemma alone_inv roi pr d : alone roi pr = Ok d ->
  exists rp mp r m r1 m1 ro a b, paths pr = Ok (rp, mp) /\ load_in kw (InPath rp) = Ok r /\
    load_in kw (InPath mp) = Ok m /\ roi = Ok ro /\ reload kw r = Ok r1 /\ reload kw m = Ok m1 /\
    prepare_pair kw order ro r1 m1 = Ok (a, b) /\ pure_run ms a b = Ok d.
Proof.
  unfold alone. intros H. apply bind_ok in H as ([rp mp] & H0 & H). apply bind_ok in H as (r & H1 & H).
  apply bind_ok in H as (m & H2 & H). apply bind_ok in H as (ro & H3 & H). apply bind_ok in H as (r1 & H4 & H).
  apply bind_ok in H as (m1 & H5 & H). apply bind_ok in H as ([a b] & H6 & H).
  exists rp, mp, r, m, r1, m1, ro, a, b. auto 10.
Qed.

Lemma batch_step_alone n pr c h :
  Inv h -> state_ok n pr c ->
  exists h', Inv h' /\
    match alone (roi_at n) pr with
    | Err e => batch_step kw order dir rois global ms n pr c h = (Err e, h')
    | Ok d => exists c', batch_step kw order dir rois global ms n pr c h = (Ok c', h') /\ c_last c' = d /\ cache_ok n pr c'
    end.
Proof.
  intros Hi Hs. unfold BatchModel.batch_step. fold (paths pr).
  destruct (paths pr) as [[rp mp]|e] eqn:Ep.
  2:{ exists h. split; [exact Hi|]. unfold alone. rewrite Ep. reflexivity. }
  (* the caches are consistent *)
  assert (Hr : forall cr, same c c_rpath rp = Some cr ->
            exists pr0 n0, n = S n0 /\ c = Some cr /\ c_rpath cr = rp /\ cache_ok n0 pr0 cr /\ compatible n0 pr0 pr).
  { intros cr E. unfold same in E. destruct c as [c|]; [|discriminate E].
    destruct (text_eqb rp (c_rpath c)) eqn:T; [|discriminate E]. injection E as <-. apply text_eqb_eq in T.
    destruct n as [|n]; simpl in Hs; [contradiction|]. destruct Hs as (pr0 & ? & ?). exists pr0, n. auto. }
  assert (Hm : forall cr, same c c_mpath mp = Some cr ->
            exists pr0 n0, n = S n0 /\ c = Some cr /\ c_mpath cr = mp /\ cache_ok n0 pr0 cr /\ compatible n0 pr0 pr).
  { intros cr E. unfold same in E. destruct c as [c|]; [|discriminate E].
    destruct (text_eqb mp (c_mpath c)) eqn:T; [|discriminate E]. injection E as <-. apply text_eqb_eq in T.
    destruct n as [|n]; simpl in Hs; [contradiction|]. destruct Hs as (pr0 & ? & ?). exists pr0, n. auto. }
  (* the general case: at least one image is new *)
  assert (G : forall cr cm, cr = same c c_rpath rp -> cm = same c c_mpath mp ->
    exists h', Inv h' /\
    match alone (roi_at n) pr with
    | Err e => match (let* r := match cr with Some c => Ok (c_ref c) | None => load_in kw (InPath rp) end in
                      let* m := match cm with Some c => Ok (c_mod c) | None => load_in kw (InPath mp) end in
                      let* roi := pair_roi rois global n in Ok (r, m, roi)) with
          | Err e => (Err e, h)
          | Ok (r, m, roi) =>
              match calc kw order roi (option_map c_last cr) (option_map c_last cm)
                      (reload kw r) (reload kw m) ms h with
              | (Err e, h') => (Err e, h')
              | (Ok d, h') => (Ok (Cache rp r mp m d), h')
              end
          end = (Err e, h')
    | Ok d => exists c', match (let* r := match cr with Some c => Ok (c_ref c) | None => load_in kw (InPath rp) end in
                      let* m := match cm with Some c => Ok (c_mod c) | None => load_in kw (InPath mp) end in
                      let* roi := pair_roi rois global n in Ok (r, m, roi)) with
          | Err e => (Err e, h)
          | Ok (r, m, roi) =>
              match calc kw order roi (option_map c_last cr) (option_map c_last cm)
                      (reload kw r) (reload kw m) ms h with
              | (Err e, h') => (Err e, h')
              | (Ok d, h') => (Ok (Cache rp r mp m d), h')
              end
          end = (Ok c', h') /\ c_last c' = d /\ cache_ok n pr c'
    end).
  { intros cr cm Ecr Ecm.
    assert (Lr : match cr with Some c => Ok (c_ref c) | None => load_in kw (InPath rp) end = load_in kw (InPath rp)).
    { destruct cr as [cr|]; [|reflexivity]. destruct (Hr cr (eq_sym Ecr)) as (pr0 & n0 & _ & _ & <- & (_ & L & _) & _).
      symmetry. exact L. }
    assert (Lm : match cm with Some c => Ok (c_mod c) | None => load_in kw (InPath mp) end = load_in kw (InPath mp)).
    { destruct cm as [cm|]; [|reflexivity]. destruct (Hm cm (eq_sym Ecm)) as (pr0 & n0 & _ & _ & <- & (_ & _ & L & _) & _).
      symmetry. exact L. }
    rewrite Lr, Lm. unfold alone. rewrite Ep. cbn [bind]. unfold roi_at.
    destruct (load_in kw (InPath rp)) as [r|e] eqn:LR; cbn [bind]; [|exists h; auto].
    destruct (load_in kw (InPath mp)) as [m|e] eqn:LM; cbn [bind]; [|exists h; auto].
    destruct (pair_roi rois global n) as [roi|e] eqn:Er; cbn [bind]; [|exists h; auto].
    destruct (calc_pure roi (option_map c_last cr) (option_map c_last cm) (reload kw r) (reload kw m) h Hi) as (h' & Hi' & E).
    { intros a b Hab. apply bind_ok in Hab as (r1 & R1 & Hab). apply bind_ok in Hab as (m1 & M1 & Hab). split.
      - destruct cr as [cr|]; simpl; [|exact I].
        destruct (Hr cr (eq_sym Ecr)) as (pr0 & n0 & -> & _ & Hp & (P0 & L0 & _ & A0) & C).
        apply alone_inv in A0 as (rp0 & mp0 & r' & m' & r1' & m1' & ro & a' & b' & P1 & L1 & L2 & O & R1' & M1' & PP & PR).
        rewrite P0 in P1. injection P1 as <- <-. rewrite Hp in *.
        assert (r' = r) by congruence. subst r'. assert (r1' = r1) by congruence. subst r1'.
        destruct (C _ _ _ _ P0 Ep) as [C1 _]. rewrite C1 in O by (exact Hp || reflexivity). unfold roi_at in O. rewrite Er in O.
        injection O as <-. exists b'. rewrite (prepare_r_only _ _ _ _ _ _ _ _ _ _ Hab PP). exact PR.
      - destruct cm as [cm|]; simpl; [|exact I].
        destruct (Hm cm (eq_sym Ecm)) as (pr0 & n0 & -> & _ & Hp & (P0 & L0 & L0' & A0) & C).
        apply alone_inv in A0 as (rp0 & mp0 & r' & m' & r1' & m1' & ro & a' & b' & P1 & L1 & L2 & O & R1' & M1' & PP & PR).
        rewrite P0 in P1. injection P1 as <- <-. rewrite Hp in *.
        assert (m' = m) by congruence. subst m'. assert (m1' = m1) by congruence. subst m1'.
        destruct (C _ _ _ _ P0 Ep) as [_ C2]. destruct (C2 eq_refl) as [C3 C4].
        rewrite C3 in O. unfold roi_at in O. rewrite Er in O. injection O as <-.
        exists a'. rewrite (prepare_m_only kw order roi r1 r1' m1 a b a' b'); [exact PR| |exact Hab|exact PP].
        symmetry. apply (C4 r' r1' r r1 m m1); assumption. }
    exists h'. split; [exact Hi'|]. rewrite E.
    destruct (let* r0 := reload kw r in let* m0 := reload kw m in
              let* (a, b) := prepare_pair kw order roi r0 m0 in pure_run ms a b) as [d|e] eqn:Ed; [|reflexivity].
    eexists. split; [reflexivity|]. split; [reflexivity|].
    unfold cache_ok. cbn [c_rpath c_mpath c_ref c_mod c_last].
    split; [exact Ep|]. split; [exact LR|]. split; [exact LM|].
    unfold alone. rewrite Ep. cbn [bind]. rewrite LR, LM. cbn [bind]. unfold roi_at. rewrite Er. cbn [bind]. exact Ed. }
  destruct (same c c_rpath rp) as [cr|] eqn:Er.
  - destruct (same c c_mpath mp) as [cm|] eqn:Em.
    + (* identical pair *)
      destruct (Hr cr eq_refl) as (pr0 & n0 & -> & Ec & Hp & (P0 & L0 & L0' & A0) & C).
      destruct (Hm cm eq_refl) as (_ & _ & _ & Ec' & Hp' & _ & _).
      assert (cm = cr) by congruence. subst cm.
      destruct (C _ _ _ _ P0 Ep) as [C1 _].
      assert (A : alone (roi_at (S n0)) pr = Ok (c_last cr)).
      { rewrite <- (C1 Hp). rewrite <- A0. unfold alone. rewrite P0, Ep, Hp, Hp'. reflexivity. }
      exists h. split; [exact Hi|]. rewrite A. exists cr. split; [reflexivity|]. split; [reflexivity|].
      unfold cache_ok. rewrite Hp, Hp' in *. auto.
    + apply (G _ _ eq_refl eq_refl).
  - apply (G _ _ eq_refl eq_refl).
Qed.

(** The loop without memory *)
Fixpoint pure_loop (n : nat) (pairs : list pair) (results : dict (dict F)) : res unit * dict (dict F) :=
  match pairs with
  | [] => (Ok tt, results)
  | pr :: pairs' =>
      match alone (roi_at n) pr with
      | Err e => (Err e, results)
      | Ok d => pure_loop (S n) pairs' (dset results (show n) d)
      end
  end.

Fixpoint chain (n : nat) (pairs : list pair) : Prop :=
  match pairs with
  | pr :: (pr' :: _) as pairs' => compatible n pr pr' /\ chain (S n) pairs'
  | _ => True
  end.

Lemma batch_loop_pure pairs : forall n c results h,
  Inv h -> chain n pairs -> match pairs with [] => True | pr :: _ => state_ok n pr c end ->
  exists h', Inv h' /\ batch_loop kw order dir rois global ms n pairs c results h = (pure_loop n pairs results, h').
Proof.
  induction pairs as [|pr pairs IH]; intros n c results h Hi Hc Hs; simpl; [exists h; auto|].
  destruct (batch_step_alone n pr c h Hi Hs) as (h1 & Hi1 & H).
  destruct (alone (roi_at n) pr) as [d|e].
  - destruct H as (c' & E & Hl & Hok). rewrite E, Hl. apply IH; [exact Hi1| |].
    + destruct pairs; [exact I|]. apply Hc.
    + destruct pairs as [|pr' pairs]; [exact I|]. simpl. exists pr. split; [exact Hok|]. apply Hc.
  - rewrite H. exists h1. auto.
Qed.
End loop.
