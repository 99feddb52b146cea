(** Metadata files, pictures of two-dimensional images, the documented workflow and the reports:
    properties C89-C93. *)
From Coq Require Import Reals Lra.
From Verif Require Import Base NdArray LoadModel LoadProofs LoadTextProofs NormModel NormProofs PairModel PairProofs MetricModel
  MetricProofs SliceModel SliceProps BatchModel BatchProofs BatchLoopProofs BatchTraceProofs BatchProps ExportModel ExportProofs ExportProps.

(** ** C89 *)

Section C89.
Variable show_val : pyval -> text.
Variable show_score : score -> text.
Variable stamp : text * text.
Notation nl := [newline].

(** One block per metric. *)
Definition block_head (m : metric) (r : pyval) : text :=
  class_name (m_class m) ++ nl ++ repeat "-"%char (length (class_name (m_class m))) ++ nl
  ++ lit "data_range: " ++ show_val r ++ nl.
Definition param_lines (ps : dict pyval) : text :=
  flat_map (fun kv => lit (fst kv) ++ lit ": " ++ show_val (snd kv) ++ nl) ps.

(** Whatever the score looks like, the heading is the name of the class. *)
Lemma heading m : hd [] (split_chr "(" (metric_str show_score m)) = class_name (m_class m).
Proof. unfold metric_str. destruct (m_class m); reflexivity. Qed.

Lemma dashes (t : text) : map (fun _ => "-"%char) t = repeat "-"%char (length t).
Proof. induction t; [reflexivity|]. cbn. f_equal. exact IHt. Qed.

Lemma entry_ok m ps r : dget (m_params m) "data_range" = Some r ->
  metadata_entry show_val show_score m (Some ps) = (block_head m r ++ param_lines ps ++ nl, Ok tt).
Proof.
  intros H. unfold metadata_entry. rewrite heading, H, dashes. cbv zeta. unfold block_head, param_lines.
  rewrite <- !app_assoc. reflexivity.
Qed.
Lemma entry_missing m r : dget (m_params m) "data_range" = Some r ->
  metadata_entry show_val show_score m None = (block_head m r, Err IndexError).
Proof.
  intros H. unfold metadata_entry. rewrite heading, H, dashes. cbv zeta. unfold block_head.
  rewrite <- !app_assoc. reflexivity.
Qed.

Definition ranged (m : metric) (r : pyval) : Prop := dget (m_params m) "data_range" = Some r.

Lemma loop_ok ms : forall rs pre params, Forall2 ranged ms rs -> length ms <= length params ->
  metadata_loop show_val show_score ms (pre ++ params) (length pre) =
  (flat_map (fun p => block_head (fst (fst p)) (snd (fst p)) ++ param_lines (snd p) ++ nl)
     (combine (combine ms rs) params), Ok tt).
Proof.
  induction ms as [|m ms IH]; intros rs pre params H L; inversion H; subst; [reflexivity|].
  destruct params as [|ps params]; [cbn in L; lia|]. cbn [metadata_loop].
  rewrite nth_error_app2, Nat.sub_diag by lia. cbn [nth_error]. rewrite (entry_ok _ _ _ H2).
  replace (S (length pre)) with (length (pre ++ [ps])) by (rewrite app_length; cbn; lia).
  replace (pre ++ ps :: params) with ((pre ++ [ps]) ++ params) by (rewrite <- app_assoc; reflexivity).
  rewrite (IH l' _ params); [|assumption|cbn in L; lia]. cbn [combine flat_map fst snd]. reflexivity.
Qed.

Theorem C89_content : forall ms rs params path file,
  named (lit "txt") file -> Forall2 ranged ms rs -> length ms <= length params ->
  export_metadata show_val show_score stamp ms params path file =
  (Some (join path file, metadata_head stamp ++
     flat_map (fun p => block_head (fst (fst p)) (snd (fst p)) ++ param_lines (snd p) ++ nl)
       (combine (combine ms rs) params)), Ok tt).
Proof.
  intros ms rs params path file N H L. unfold export_metadata.
  apply splitext_named in N; [|cbn; intuition discriminate..].
  rewrite (proj2 (text_eqb_eq (snd (splitext file)) (lit ".txt")) N). cbn [negb].
  change (metadata_loop show_val show_score ms params 0) with (metadata_loop show_val show_score ms ([] ++ params) (@length (dict pyval) [])).
  rewrite (loop_ok ms rs [] params H L). reflexivity.
Qed.

(** Fewer parameter dictionaries than metrics: IndexError, and the file ends in the middle of the
    first metric without parameters. *)
Theorem C89_short : forall ms m ms' rs r params path file,
  named (lit "txt") file -> Forall2 ranged ms rs -> length params = length ms -> ranged m r ->
  export_metadata show_val show_score stamp (ms ++ m :: ms') params path file =
  (Some (join path file, metadata_head stamp ++
     flat_map (fun p => block_head (fst (fst p)) (snd (fst p)) ++ param_lines (snd p) ++ nl)
       (combine (combine ms rs) params) ++ block_head m r), Err IndexError).
Proof.
  intros ms m ms' rs r params path file N H L R. unfold export_metadata.
  apply splitext_named in N; [|cbn; intuition discriminate..].
  rewrite (proj2 (text_eqb_eq (snd (splitext file)) (lit ".txt")) N). cbn [negb].
  enough (G : forall ms rs pre params, Forall2 ranged ms rs -> length params = length ms ->
    metadata_loop show_val show_score (ms ++ m :: ms') (pre ++ params) (length pre) =
    (flat_map (fun p => block_head (fst (fst p)) (snd (fst p)) ++ param_lines (snd p) ++ nl)
     (combine (combine ms rs) params) ++ block_head m r, Err IndexError)).
  { change (metadata_loop show_val show_score (ms ++ m :: ms') params 0)
      with (metadata_loop show_val show_score (ms ++ m :: ms') ([] ++ params) (@length (dict pyval) [])).
    rewrite (G ms rs [] params H L). reflexivity. }
  clear -R. induction ms as [|m0 ms IH]; intros rs pre params H L; inversion H; subst.
  - destruct params; [|discriminate]. cbn [app metadata_loop]. rewrite app_nil_r.
    rewrite (proj2 (nth_error_None pre (length pre))) by lia. rewrite (entry_missing _ _ R). reflexivity.
  - destruct params as [|ps params]; [discriminate|]. cbn [app metadata_loop].
    rewrite nth_error_app2, Nat.sub_diag by lia. cbn [nth_error]. rewrite (entry_ok _ _ _ H2).
    replace (S (length pre)) with (length (pre ++ [ps])) by (rewrite app_length; cbn; lia).
    replace (pre ++ ps :: params) with ((pre ++ [ps]) ++ params) by (rewrite <- app_assoc; reflexivity).
    rewrite (IH l' _ params); [|assumption|cbn in L; lia]. cbn [combine flat_map fst snd].
    rewrite <- !app_assoc. reflexivity.
Qed.

(** A metric without data_range (deleted or never set): KeyError behind its heading. *)
Theorem C89_no_range : forall ms m ms' rs params path file,
  named (lit "txt") file -> Forall2 ranged ms rs -> length ms <= length params -> dget (m_params m) "data_range" = None ->
  export_metadata show_val show_score stamp (ms ++ m :: ms') params path file =
  (Some (join path file, metadata_head stamp ++
     flat_map (fun p => block_head (fst (fst p)) (snd (fst p)) ++ param_lines (snd p) ++ nl)
       (combine (combine ms rs) params) ++
     class_name (m_class m) ++ nl ++ repeat "-"%char (length (class_name (m_class m))) ++ nl), Err KeyError).
Proof.
  intros ms m ms' rs params path file N H L R. unfold export_metadata.
  apply splitext_named in N; [|cbn; intuition discriminate..].
  rewrite (proj2 (text_eqb_eq (snd (splitext file)) (lit ".txt")) N). cbn [negb].
  enough (G : forall ms rs pre params, Forall2 ranged ms rs -> length ms <= length params ->
    metadata_loop show_val show_score (ms ++ m :: ms') (pre ++ params) (length pre) =
    (flat_map (fun p => block_head (fst (fst p)) (snd (fst p)) ++ param_lines (snd p) ++ nl)
     (combine (combine ms rs) params) ++ class_name (m_class m) ++ nl ++ repeat "-"%char (length (class_name (m_class m))) ++ nl, Err KeyError)).
  { change (metadata_loop show_val show_score (ms ++ m :: ms') params 0)
      with (metadata_loop show_val show_score (ms ++ m :: ms') ([] ++ params) (@length (dict pyval) [])).
    rewrite (G ms rs [] params H L). reflexivity. }
  clear -R. induction ms as [|m0 ms IH]; intros rs pre params H L; inversion H; subst.
  - cbn [app metadata_loop combine flat_map]. unfold metadata_entry. rewrite heading, R, dashes. reflexivity.
  - destruct params as [|ps params]; [cbn in L; lia|]. cbn [app metadata_loop].
    rewrite nth_error_app2, Nat.sub_diag by lia. cbn [nth_error]. rewrite (entry_ok _ _ _ H2).
    replace (S (length pre)) with (length (pre ++ [ps])) by (rewrite app_length; cbn; lia).
    replace (pre ++ ps :: params) with ((pre ++ [ps]) ++ params) by (rewrite <- app_assoc; reflexivity).
    rewrite (IH l' _ params); [|assumption|cbn in L; lia]. cbn [combine flat_map fst snd].
    rewrite <- !app_assoc. reflexivity.
Qed.
End C89.
Print Assumptions C89_content.
Print Assumptions C89_short.
Print Assumptions C89_no_range.

(** The headings tell the metrics apart. *)
Theorem C89_distinct : forall c c', class_name c = class_name c' -> c = c'.
Proof. intros [] []; reflexivity || discriminate. Qed.
Print Assumptions C89_distinct.

(** Every constructed metric has a data_range. *)
Theorem C89_range : forall c dr normalize kw m, NoDup (dkeys kw) -> ~ In "data_range"%string (dkeys kw) ->
  construct c dr normalize kw = Ok m -> ranged m dr.
Proof.
  intros c dr normalize kw m N Hn H. apply construct_ok in H as (_ & _ & H); [|exact N]. unfold ranged.
  rewrite H by (left; discriminate). apply dget_none in Hn. rewrite Hn. reflexivity.
Qed.
Print Assumptions C89_range.

Example C89_ex : export_metadata (fun _ => lit "255") (fun _ => lit "1(") (lit "3", lit "t")
    [Metric CSSIM [("data_range", PInt 255)]%string SNone None] [[("K1", PInt 255)]%string] (lit "d") (lit "m.txt") =
  (Some (lit "d/m.txt", metadata_head (lit "3", lit "t") ++ lit "SSIM" ++ [newline] ++ lit "----" ++ [newline] ++ lit "data_range: 255"
     ++ [newline] ++ lit "K1: 255" ++ [newline; newline]), Ok tt).
Proof. reflexivity. Qed.

(** ** C90 *)

(** A two-dimensional image appears turned by 180 degrees. *)
Theorem C90_turned : forall x y z r m h w,
  complete r -> complete m -> o_shape r = [h; w] -> o_shape m = [h; w] ->
  exists r' m', plotted x y z r m = Ok (r', m') /\ o_shape r' = [h; w] /\ o_shape m' = [h; w] /\
    forall p q, p < h -> q < w ->
      pixel r' (screen h p q) = pixel r [h - 1 - p; w - 1 - q] /\
      pixel m' (screen h p q) = pixel m [h - 1 - p; w - 1 - q].
Proof.
  intros x y z r m h w Cr Cm Sr Sm. unfold plotted. rewrite Sr. cbn [length Nat.eqb orb].
  assert (G : forall o, complete o -> o_shape o = [h; w] -> exists o', on_out (@plot_2d) o = Ok o' /\ o_shape o' = [h; w] /\
    forall i j, inb [h; w] [i; j] = true -> pixel o' [i; j] = pixel o [i; w - 1 - j]).
  { intros o C S. destruct (on_out_ok (@plot_2d) o [h; w] [h; w] (fun i j => [i; w - 1 - j]) C S) as (o' & H1 & H2 & _ & _ & H3).
    - intros A a Wa Sa. destruct (plot_2d_ok a h w Wa Sa) as (b & Hb & Wb & Sb & Gb). exists b. repeat split; auto.
      intros i j Hi. apply inb_2 in Hi as [Hi Hj]. auto.
    - eauto. }
  destruct (G r Cr Sr) as (r' & Hr & Sr' & Gr). destruct (G m Cm Sm) as (m' & Hm & Sm' & Gm).
  exists r', m'. rewrite Hr. cbn [bind]. rewrite Hm. cbn [bind]. split; [reflexivity|]. split; [exact Sr'|]. split; [exact Sm'|].
  intros p q Hp Hq. unfold screen. split; [apply Gr|apply Gm]; apply inb_2; lia.
Qed.
Print Assumptions C90_turned.

Section pictures.
Variable disk : text -> res image.
Variable ident : identity.
Variable ub : R -> Z.
Variable resize : norm_out -> list nat -> dtype -> Z -> res norm_out.
Notation picture_pair := (picture_pair disk ident ub resize).
Notation prepare_pair := (prepare_pair disk ident ub resize).
Notation load_in := (load_in disk ident ub).
Notation reload := (reload disk ident ub).

Lemma reload_dims kw o o' : plain kw -> reload kw o = Ok o' -> o' = o /\ dims_ok (o_shape o).
Proof.
  intros [Hn Hc]. destruct o as [im|d s]; cbn [BatchModel.reload].
  - unfold BatchModel.load_in. rewrite Hc, Hn. intros H. apply bind_ok in H as (l & H & Ho).
    rewrite load_data_passthrough in H. destruct (_ || _) eqn:E; [|discriminate]. injection H as <-. injection Ho as <-.
    split; [reflexivity|]. unfold dims_ok. cbn [o_shape]. apply orb_true_iff in E as [E|E]; apply Nat.eqb_eq in E; auto.
  - rewrite Hc, Hn. destruct (k_range kw) as [hi|]; intros H; apply bind_ok in H as ([] & H1 & H); cbn [andb] in H; injection H as <-;
      (split; [reflexivity|apply check_dims_ok; exact H1]).
Qed.

(** What preparing a pair for the figure does, without normalisation. *)
Lemma prepare_plain kw order roi r m a b : plain kw -> prepare_pair kw order roi r m = Ok (a, b) ->
  exists m1 r2 m2, resize_image resize r m order = Ok m1 /\ crop_opt roi r = Ok r2 /\ crop_opt roi m1 = Ok m2 /\
    dims_ok (o_shape r2) /\ dims_ok (o_shape m2) /\ check_loaded (LOne r2) (LOne m2) false = Ok (a, b).
Proof.
  intros Hp H. unfold BatchModel.prepare_pair in H.
  apply bind_ok in H as (m1 & E1 & H). apply bind_ok in H as (r2 & E2 & H). apply bind_ok in H as (m2 & E3 & H).
  apply bind_ok in H as (r3 & E4 & H). apply bind_ok in H as (m3 & E5 & H).
  apply (reload_dims kw) in E4 as [-> D1]; [|exact Hp]. apply (reload_dims kw) in E5 as [-> D2]; [|exact Hp].
  exists m1, r2, m2. auto 10.
Qed.

Lemma kw0_plain : plain kw0.
Proof. split; reflexivity. Qed.

(** The branch for colour images is never taken: colour images have become grey before. *)
Theorem C90_always_grey : forall img_r img_m roi order r m,
  picture_pair img_r img_m roi order = Ok (r, m) -> is_colour (o_shape r) = false /\ o_shape m = o_shape r.
Proof.
  intros img_r img_m roi order r m H. unfold ExportModel.picture_pair in H.
  apply bind_ok in H as (r0 & E1 & H). apply bind_ok in H as (m0 & E2 & H).
  destruct (negb _); [discriminate|]. apply (prepare_plain kw0) in H; [|apply kw0_plain].
  destruct H as (m1 & r2 & m2 & _ & _ & _ & D & _ & H). assert (A := proj2 (check_agree _ _ _ _ _ H)). split; [|symmetry; exact A].
  apply check_loaded_ok in H as (r3 & m3 & E & _ & _ & _ & H). injection E as <-. unfold is_colour.
  destruct H as [(_ & _ & G & _)|(C & -> & _)].
  - apply gray_out_shape in G as [G _]. rewrite G.
    assert (L : length (removelast (o_shape r2)) <= 2).
    { destruct D as [D|D]; destruct (o_shape r2) as [|? [|? [|? [|]]]]; cbn in *; lia. }
    destruct (Nat.eqb_spec (length (removelast (o_shape r2))) 3); [lia|reflexivity].
  - destruct (Nat.eqb_spec (last (o_shape r2) 0) 3) as [E|E]; [|apply andb_false_r].
    apply C in E. discriminate.
Qed.

(** A colour image gives a picture of its grey values, a 2D image three pixels wide none at all. *)
Theorem C90_colour : forall img_r img_m order r m r0 h w,
  load_in kw0 img_r = Ok r0 -> o_shape r0 = [h; w; 3] -> picture_pair img_r img_m None order = Ok (r, m) -> gray_out r0 = Ok r.
Proof.
  intros img_r img_m order r m r0 h w L S H. unfold ExportModel.picture_pair in H. rewrite L in H. cbn [bind] in H.
  apply bind_ok in H as (m0 & E2 & H). destruct (negb _); [discriminate|]. apply (prepare_plain kw0) in H; [|apply kw0_plain].
  destruct H as (m1 & r2 & m2 & _ & Er & _ & D & _ & H). injection Er as <-.
  apply check_loaded_ok in H as (r3 & m3 & E & _ & _ & _ & H). injection E as <-.
  destruct H as [(_ & _ & G & _)|(C & _ & _)]; [exact G|]. rewrite S in C. apply proj2 in C. discriminate (C eq_refl).
Qed.

Theorem C90_narrow : forall results img_r img_m x y z path file sh order r0 h f,
  load_in kw0 img_r = Ok r0 -> o_shape r0 = [h; 3] ->
  export_image disk ident ub resize results img_r img_m x y z path file sh None order <> Ok f.
Proof.
  intros results img_r img_m x y z path file sh order r0 h f L S H. unfold export_image in H.
  apply bind_ok in H as ([r m] & E1 & H). apply bind_ok in H as ([r' m'] & E2 & H). clear H.
  unfold ExportModel.picture_pair in E1. rewrite L in E1. cbn [bind] in E1.
  apply bind_ok in E1 as (m0 & _ & E1). destruct (negb _); [discriminate|]. apply (prepare_plain kw0) in E1; [|apply kw0_plain].
  destruct E1 as (m1 & r2 & m2 & _ & Er & _ & D & _ & H). injection Er as <-.
  apply check_loaded_ok in H as (r3 & m3 & E & _ & _ & _ & H). injection E as <-.
  destruct H as [(_ & _ & G & _)|(C & _ & _)].
  - apply gray_out_shape in G as [G _]. rewrite S in G. cbn in G. unfold plotted in E2. rewrite G in E2. discriminate.
  - rewrite S in C. apply proj2 in C. discriminate (C eq_refl).
Qed.

(** ** C93: the figure shows the scored images *)

(** Without normalisation and with the same interpolation order the plotted pair is the scored one. *)
Theorem C93_scored : forall kw order roi img_r img_m r m r0 m0,
  plain kw -> load_in kw img_r = Ok r0 -> load_in kw img_m = Ok m0 -> length (o_shape r0) = length (o_shape m0) ->
  prepare_pair kw order roi r0 m0 = Ok (r, m) -> picture_pair img_r img_m roi order = Ok (r, m).
Proof.
  intros kw order roi img_r img_m r m r0 m0 Hp L1 L2 Hd H.
  assert (Q : forall i o, load_in kw i = Ok o -> load_in kw0 i = Ok o).
  { intros i o. destruct Hp as [Hn Hc]. unfold BatchModel.load_in. rewrite Hc, Hn. cbn [k_chromatic kw0 k_norm k_range].
    unfold load_data. cbn [andb]. intros E. apply bind_ok in E as (l & E & Ho).
    assert (P : forall im, prepare ident ub false (k_range kw) [] im = prepare ident ub false None [] im).
    { intros im. unfold prepare. destruct (k_range kw); reflexivity. }
    destruct i as [name|im|[|im [|im' l']]|]; try discriminate E; try (rewrite P in E); try (rewrite E; exact Ho).
    apply bind_ok in E as (im & E1 & E). rewrite P in E. rewrite E1. cbn [bind]. rewrite E. exact Ho. }
  unfold ExportModel.picture_pair. rewrite (Q _ _ L1), (Q _ _ L2). cbn [bind].
  rewrite Hd, Nat.eqb_refl. cbn [negb].
  apply (prepare_plain kw) in H; [|exact Hp]. destruct H as (m1 & r2 & m2 & E1 & E2 & E3 & D1 & D2 & H).
  unfold BatchModel.prepare_pair. rewrite E1. cbn [bind]. rewrite E2. cbn [bind]. rewrite E3. cbn [bind].
  assert (RL : forall o, dims_ok (o_shape o) -> reload kw0 o = Ok o).
  { intros [im|d s] D; cbn [BatchModel.reload kw0 k_chromatic k_range k_norm].
    - unfold BatchModel.load_in, kw0. cbn [k_chromatic k_norm k_range]. rewrite load_data_passthrough.
      destruct D as [D|D]; cbn [o_shape] in D; rewrite D; reflexivity.
    - cbn [o_shape] in D. rewrite (proj2 (check_dims_ok s) D). reflexivity. }
  rewrite (RL _ D1), (RL _ D2). exact H.
Qed.

(** Files of different element types and equal size cannot be drawn, although they can be scored after
    normalisation. *)
Theorem C93_mixed_types : forall results rp mp ir im x y z path file sh roi order f,
  disk rp = Ok ir -> disk mp = Ok im -> shape ir = shape im -> dt ir <> dt im ->
  export_image disk ident ub resize results (InPath rp) (InPath mp) x y z path file sh roi order <> Ok f.
Proof.
  intros results rp mp ir im x y z path file sh roi order f Hr Hm Hs Ht H. unfold export_image in H.
  apply bind_ok in H as ([r m] & E1 & _). unfold ExportModel.picture_pair in E1.
  apply bind_ok in E1 as (r0 & L1 & E1). apply bind_ok in E1 as (m0 & L2 & E1). destruct (negb _); [discriminate|].
  assert (Q : forall p i o, disk p = Ok i -> load_in kw0 (InPath p) = Ok o -> o = NImg i).
  { intros p i o Hi Ho. unfold BatchModel.load_in, load_data in Ho. cbn in Ho. rewrite Hi in Ho. cbn [bind] in Ho.
    apply bind_ok in Ho as (l & H1 & Ho). apply bind_ok in H1 as ([] & _ & H1). cbn in H1. injection H1 as <-. injection Ho as <-. reflexivity. }
  apply (Q _ _ _ Hr) in L1 as ->. apply (Q _ _ _ Hm) in L2 as ->.
  apply (prepare_plain kw0) in E1; [|apply kw0_plain]. destruct E1 as (m1 & r2 & m2 & Em & C1 & C2 & _ & _ & H).
  unfold resize_image in Em. cbn [o_shape] in Em. rewrite Hs in Em.
  assert (SE : shape_eqb (shape im) (shape im) = true) by (apply shape_eqb_eq; reflexivity). rewrite SE in Em. injection Em as <-.
  assert (T : forall i o, crop_opt roi (NImg i) = Ok o -> o_type o = dt i).
  { intros i o Ho. unfold crop_opt in Ho. destruct roi as [l|]; [|injection Ho as <-; reflexivity].
    unfold crop_roi in Ho. destruct l as [|a [|b [|c [|]]]]; try discriminate; cbn in Ho; destruct i as [d [p|p]];
      apply bind_ok in Ho as (q & _ & Ho); injection Ho as <-; reflexivity. }
  apply T in C1. apply T in C2. apply check_loaded_ok in H as (r3 & m3 & Ea & Eb & Et & _). injection Ea as <-. injection Eb as <-.
  congruence.
Qed.
End pictures.
Print Assumptions C90_always_grey.
Print Assumptions C90_colour.
Print Assumptions C90_narrow.
Print Assumptions C93_scored.
Print Assumptions C93_mixed_types.

Definition no_disk (_ : text) : res image := Err ValueError.
Definition no_resize (_ : norm_out) (_ : list nat) (_ : dtype) (_ : Z) : res norm_out := Err ValueError.
Definition grey8 (s : list nat) (l : list Z) : input := InArray (Img (UInt 8) (PI (Arr s l))).

Example C90_ex : exists f, export_image no_disk Z.eqb (fun _ => 0%Z) no_resize [] (grey8 [2; 2] [1; 2; 3; 4]%Z) (grey8 [2; 2] [5; 6; 7; 8]%Z)
    None None None None (lit "a.png") true None 1 = Ok f /\
  f_ref f = NImg (Img (UInt 8) (PI (Arr [2; 2] [2; 1; 4; 3]%Z))) /\ pixel (f_ref f) (screen 2 0 0) = Some (inl 4%Z) /\ f_labels f = [] /\ f_shown f = true.
Proof. eexists. split; [reflexivity|]. repeat split. Qed.

(** Eight and sixteen bits: scored after normalisation to 255, not drawn. *)
Definition mixed_disk (p : text) : res image :=
  if text_eqb p (lit "a") then Ok (Img (UInt 8) (PI (Arr [1; 2] [0; 255]%Z))) else Ok (Img (UInt 16) (PI (Arr [1; 2] [0; 65535]%Z))).
Example C93_ex :
  (exists r m, (let* r := load_in mixed_disk Z.eqb (fun _ => 0%Z) (Kw (Some 255%Z) true false) (InPath (lit "a")) in
                let* m := load_in mixed_disk Z.eqb (fun _ => 0%Z) (Kw (Some 255%Z) true false) (InPath (lit "b")) in
                prepare_pair mixed_disk Z.eqb (fun _ => 0%Z) no_resize (Kw (Some 255%Z) true false) 1 None r m) = Ok (r, m)) /\
  picture_pair mixed_disk Z.eqb (fun _ => 0%Z) no_resize (InPath (lit "a")) (InPath (lit "b")) None 1 = Err ValueError.
Proof. split; [|reflexivity]. do 2 eexists. reflexivity. Qed.

(** ** C91: from export_results to export_image *)

(** A metric without score or without name among the results: no figure. *)
Theorem C91_fails : forall disk ident ub resize d img_r img_m x y z path file sh roi order f,
  (exists k v, In (k, v) d /\ (k = None \/ forall t, v <> SNum t)) ->
  export_image disk ident ub resize d img_r img_m x y z path file sh roi order <> Ok f.
Proof.
  intros disk ident ub resize d img_r img_m x y z path file sh roi order f (k & v & Hin & Hv) H. unfold export_image in H.
  apply bind_ok in H as ([r m] & _ & H). apply bind_ok in H as ([r' m'] & _ & H). apply bind_ok in H as (ls & H & _).
  unfold labels in H. apply bind_ok in H as (es & H1 & H). apply bind_ok in H as (l1 & H2 & H). apply bind_ok in H as (l2 & H3 & _).
  apply In_nth_error in Hin as (n & Hn). destruct (proj2 (mapM_nth _ _ _ H1) _ _ Hn) as (e & He & Ee). cbn in Ee.
  destruct k as [k|]; [|discriminate]. cbn in Ee. injection Ee as <-. destruct Hv as [Hv|Hv]; [discriminate|].
  assert (F : forall t, label_value v <> Ok t) by (intros t E; destruct v; cbn in E; try discriminate; injection E as ->; eapply Hv; reflexivity).
  assert (Hes : In (k, v) es) by (eapply nth_error_In; exact He).
  rewrite fr_labels_mapM in H2. cbn [skipn] in H2.
  set (fr := filter (fun kv => negb (no_ref_name (fst kv))) es) in *. set (nr := filter (fun kv => no_ref_name (fst kv)) es) in *.
  destruct (no_ref_name k) eqn:E.
  - assert (Hi : In (k, v) nr) by (apply filter_In; auto). apply In_nth_error in Hi as (j & Hj).
    unfold nr_labels in H3. assert (Lt : j < length nr) by (apply nth_error_Some; congruence).
    destruct (proj2 (mapM_nth _ _ _ H3) j (j, (k, v))) as (y0 & _ & E0).
    { rewrite nth_error_combine, nth_error_nth' with (d := 0) by (rewrite seq_length; lia). rewrite seq_nth by lia. rewrite Hj. reflexivity. }
    cbn in E0. apply bind_ok in E0 as (t & E0 & _). eapply F; exact E0.
  - assert (Hi : In (k, v) fr) by (apply filter_In; cbn [fst]; rewrite E; auto). apply In_nth_error in Hi as (j & Hj).
    assert (Lt : j < length fr) by (apply nth_error_Some; congruence).
    assert (Ls : length fr <= 4 * Z.to_nat (columns (length fr) (length nr))).
    { rewrite columns_nat, Nat2Z.id. pose proof (Nat.div_mod (length fr + 3) 4 ltac:(lia)).
      pose proof (Nat.mod_upper_bound (length fr + 3) 4 ltac:(lia)). lia. }
    destruct (proj2 (mapM_nth _ _ _ H2) j ((j / 4, j mod 4), (k, v))) as (y0 & _ & E0).
    { rewrite nth_error_combine, slots_nth by lia. rewrite Hj. reflexivity. }
    cbn in E0. apply bind_ok in E0 as (t & E0 & _). eapply F; exact E0.
Qed.
Print Assumptions C91_fails.

(** The documented way: the dictionary returned by export_results handed on to export_image. *)
Theorem C91_workflow : forall ids path file h e h' d disk ident ub resize img_r img_m x y z p2 f2 sh roi order fig,
  NoDup (map (fun i => m_name (h i)) ids) -> export_results ids path file true h = (e, h') -> e_dict e = Some d ->
  (exists i, In i ids /\ (m_score (h i) = SNone \/ m_name (h i) = None)) ->
  export_image disk ident ub resize d img_r img_m x y z p2 f2 sh roi order <> Ok fig.
Proof.
  intros ids path file h e h' d disk ident ub resize img_r img_m x y z p2 f2 sh roi order fig N H Hd (i & Hi & Hu).
  rewrite (C60_dict _ _ _ _ _ _ N H) in Hd. injection Hd as <-. apply C91_fails.
  exists (m_name (h i)), (match m_score (h i) with SNone => SStr "n/a" | v => v end). split.
  - apply in_map_iff. exists i. auto.
  - destruct Hu as [-> | ->]; [right; discriminate|left; reflexivity].
Qed.
Print Assumptions C91_workflow.

(** With names and numbers only the labels are drawn. *)
Theorem C91_works : forall ids path file h e h',
  NoDup (map (fun i => m_name (h i)) ids) -> export_results ids path file true h = (e, h') ->
  (forall i, In i ids -> exists n x, m_name (h i) = Some n /\ m_score (h i) = SNum x) ->
  exists d l, e_dict e = Some d /\ labels d = Ok l /\ length l = length ids.
Proof.
  intros ids path file h e h' N H A. rewrite (C60_dict _ _ _ _ _ _ N H).
  assert (G : forall l, (forall i, In i l -> exists n x, m_name (h i) = Some n /\ m_score (h i) = SNum x) ->
    exists r : dict ext, map (fun i => (m_name (h i), match m_score (h i) with SNone => SStr "n/a" | v => v end)) l = scores r /\ length r = length l).
  { induction l as [|i l IH]; intros Hl; [exists []; split; reflexivity|].
    destruct IH as (r & Hr & Lr); [intros j Hj; apply Hl; right; exact Hj|].
    destruct (Hl i (or_introl eq_refl)) as (n & x & E1 & E2). exists ((n, x) :: r). cbn [map length]. rewrite E1, E2, Hr, Lr. split; reflexivity. }
  destruct (G ids A) as (r & Hr & Lr). rewrite Hr. destruct (C61_once r) as (l & Hl & Hp & _). exists (scores r), l.
  split; [reflexivity|]. split; [exact Hl|]. rewrite <- Lr.
  apply (f_equal (@length _)) in Hp. rewrite map_length, app_length in Hp. rewrite Hp. unfold full_ref, no_ref.
  clear. induction r as [|[n x] r IH]; [reflexivity|]. cbn [filter fst]. destruct (no_ref_name n); cbn [negb length]; lia.
Qed.
Print Assumptions C91_works.

Example C91_ex : exists d, e_dict (fst (export_results [0; 1] (lit "out") (lit "r") true ex_objects)) = Some d /\ labels d = Err ValueError.
Proof. eexists. split; reflexivity. Qed.

(** ** C92: reports *)

Section reports.
Variable disk : text -> res image.
Variable ident : identity.
Variable ub : R -> Z.
Variable resize : norm_out -> list nat -> dtype -> Z -> res norm_out.
Variable show_val : pyval -> text.
Variable show_score : score -> text.
Variable stamp : text * text.
Notation batch_report := (batch_report disk ident ub resize show_val show_score stamp).
Notation multi_report := (multi_report disk ident ub resize show_val show_score stamp).
Notation figures_loop := (figures_loop disk ident ub resize).

Definition in_dir (project : option text) : Prop := match project with Some p => ~ In "/"%char p | None => True end.

Lemma file_named project stem e : in_dir project -> ~ In "/"%char stem -> (exists c, In c stem /\ c <> "."%char) ->
  named e (file_of project (stem ++ "."%char :: e)).
Proof.
  intros Hp Hs (c & Hc & Hn). unfold file_of. destruct project as [p|].
  - exists [], (p ++ "_"%char :: stem). cbn [app]. rewrite <- app_assoc. cbn [app]. split; [reflexivity|]. split; [auto|]. split.
    + intros H. apply in_app_iff in H as [H|[H|H]]; [contradiction|discriminate|contradiction].
    + exists c. split; [apply in_app_iff; right; right; exact Hc|exact Hn].
  - exists [], stem. repeat split; auto. eauto.
Qed.

Lemma csv_named project : in_dir project -> snd (splitext (file_of project (lit "results.csv"))) = lit ".csv".
Proof.
  intros H. apply splitext_named; [cbn; intuition discriminate..|].
  change (lit "results.csv") with (lit "results" ++ "."%char :: lit "csv"). apply file_named; [exact H| |].
  - cbn. intuition discriminate.
  - exists "r"%char. cbn. split; [auto|discriminate].
Qed.
Lemma meta_named project : in_dir project -> named (lit "txt") (file_of project (lit "metadata.txt")).
Proof.
  intros H. change (lit "metadata.txt") with (lit "metadata" ++ "."%char :: lit "txt"). apply file_named; [exact H| |].
  - cbn. intuition discriminate.
  - exists "m"%char. cbn. split; [auto|discriminate].
Qed.

(** A batch report before any calculation: results.csv is emptied, KeyError, nothing else is done;
    without the csv file the metadata is written and images end in AttributeError. *)
Theorem C92_before : forall metadata image path project x y z dir rois ms params pairs,
  in_dir project ->
  batch_report true metadata image path project x y z dir rois None ms params pairs [] =
  ([ACsv (join path (file_of project (lit "results.csv"))) []], Err KeyError).
Proof.
  intros. unfold ExportModel.batch_report, when, csv_step.
  rewrite C57_before by (apply csv_named; assumption). reflexivity.
Qed.

Theorem C92_before_image : forall path project x y z dir rois ms params pairs,
  batch_report false false true path project x y z dir rois None ms params pairs [] = ([], Err AttributeError).
Proof. reflexivity. Qed.

(** Figures of a batch report: one per pair, in order, saved under different names and not shown. *)
Theorem C92_figures : forall dir c path project x y z rois global results pairs arts,
  figures_loop dir (c :: path) project x y z rois global results pairs 0 = (arts, Ok tt) ->
  length arts = length pairs /\
  forall n a, nth_error arts n = Some a -> exists f, a = AFig f /\ f_shown f = false /\
    f_saved f = Some (join (c :: path) (file_of project (lit "image_comparison_" ++ lit (show n) ++ lit ".png"))).
Proof.
  intros dir c path project x y z rois global results pairs arts H.
  enough (G : forall pairs k arts, figures_loop dir (c :: path) project x y z rois global results pairs k = (arts, Ok tt) ->
    length arts = length pairs /\ forall n a, nth_error arts n = Some a -> exists f, a = AFig f /\ f_shown f = false /\
      f_saved f = Some (join (c :: path) (file_of project (lit "image_comparison_" ++ lit (show (k + n)) ++ lit ".png")))) by (apply (G _ _ _ H)).
  clear. induction pairs as [|pr pairs IH]; intros k arts H.
  - injection H as <-. split; [reflexivity|]. intros [|n] a; discriminate.
  - cbn [ExportModel.figures_loop] in H. unfold then_, fig_step in H.
    match type of H with context [match bind ?t ?g with Ok _ => _ | Err _ => _ end] => destruct (bind t g) as [f|e] eqn:E end; cbn [fst snd] in H; [|discriminate].
    destruct (figures_loop dir (c :: path) project x y z rois global results pairs (S k)) as [arts' e'] eqn:E2. cbn [fst snd app] in H.
    injection H as <- ->. destruct (IH _ _ E2) as [L G]. split; [cbn; congruence|].
    intros [|n] a Ha; cbn [nth_error] in Ha.
    + injection Ha as <-. exists f. split; [reflexivity|]. rewrite Nat.add_0_r.
      apply bind_ok in E as (rn & _ & E). apply bind_ok in E as (mn & _ & E). apply bind_ok in E as (roi & _ & E). apply bind_ok in E as (d & _ & E).
      unfold export_image in E. apply bind_ok in E as ([r m] & _ & E). apply bind_ok in E as ([r' m'] & _ & E). apply bind_ok in E as (ls & _ & E).
      destruct (negb _); [discriminate|]. injection E as <-. split; reflexivity.
    + destruct (G n a Ha) as (f' & -> & H1 & H2). exists f'. rewrite Nat.add_succ_r. auto.
Qed.

(** Figure [n] shows the two images of pair [n] with the region and the results of that pair. *)
Theorem C92_pairs : forall dir path project x y z rois global results pairs arts,
  figures_loop dir path project x y z rois global results pairs 0 = (arts, Ok tt) ->
  forall n pr, nth_error pairs n = Some pr ->
  exists f rn mn roi d r m, nth_error arts n = Some (AFig f) /\ p_ref pr = Some rn /\ p_mod pr = Some mn /\
    dget results (show n) = Some d /\
    match global, rois with Some g, _ => roi = Some g | None, None => roi = None | None, Some l => nth_error l n = Some roi end /\
    picture_pair disk ident ub resize (InPath (join dir rn)) (InPath (join dir mn)) roi 1 = Ok (r, m) /\
    plotted x y z r m = Ok (f_ref f, f_mod f) /\ labels (scores d) = Ok (f_labels f).
Proof.
  intros dir path project x y z rois global results pairs arts H.
  enough (G : forall pairs k arts, figures_loop dir path project x y z rois global results pairs k = (arts, Ok tt) ->
    forall n pr, nth_error pairs n = Some pr ->
    exists f rn mn roi d r m, nth_error arts n = Some (AFig f) /\ p_ref pr = Some rn /\ p_mod pr = Some mn /\
    dget results (show (k + n)) = Some d /\
    match global, rois with Some g, _ => roi = Some g | None, None => roi = None | None, Some l => nth_error l (k + n) = Some roi end /\
    picture_pair disk ident ub resize (InPath (join dir rn)) (InPath (join dir mn)) roi 1 = Ok (r, m) /\
    plotted x y z r m = Ok (f_ref f, f_mod f) /\ labels (scores d) = Ok (f_labels f)) by (apply (G _ _ _ H)).
  clear. induction pairs as [|pr pairs IH]; intros k arts H.
  - intros [|n] pr; discriminate.
  - cbn [ExportModel.figures_loop] in H. unfold then_, fig_step in H.
    match type of H with context [match bind ?t ?g with Ok _ => _ | Err _ => _ end] => destruct (bind t g) as [f|e] eqn:E end; cbn [fst snd] in H; [|discriminate].
    destruct (figures_loop dir path project x y z rois global results pairs (S k)) as [arts' e'] eqn:E2. cbn [fst snd app] in H.
    injection H as <- ->. specialize (IH _ _ E2).
    intros [|n] pr' Hp; cbn [nth_error] in Hp |- *.
    + injection Hp as <-. rewrite Nat.add_0_r.
      apply bind_ok in E as (rn & E3 & E). apply bind_ok in E as (mn & E4 & E). apply bind_ok in E as (roi & E5 & E). apply bind_ok in E as (d & E6 & E).
      unfold export_image in E. apply bind_ok in E as ([r m] & E7 & E). apply bind_ok in E as ([r' m'] & E8 & E). apply bind_ok in E as (ls & E9 & E).
      exists f, rn, mn, roi, d, r, m. split; [reflexivity|].
      split; [destruct (p_ref pr); [injection E3 as ->; reflexivity|discriminate]|].
      split; [destruct (p_mod pr); [injection E4 as ->; reflexivity|discriminate]|].
      split; [destruct (dget results (show k)); [injection E6 as ->; reflexivity|discriminate]|].
      split; [unfold pair_roi in E5; destruct global; [congruence|]; destruct rois as [l|]; [|congruence]; destruct (nth_error l k); [injection E5 as ->; reflexivity|discriminate]|].
      split; [exact E7|].
      destruct (negb _); [discriminate|]. destruct path; injection E as <-; split; assumption.
    + rewrite Nat.add_succ_r. destruct (IH n pr' Hp) as (f' & rn & mn & roi & d & r & m & G). exists f', rn, mn, roi, d, r, m. exact G.
Qed.

Theorem C92_names_differ : forall project n n',
  file_of project (lit "image_comparison_" ++ lit (show n) ++ lit ".png") =
  file_of project (lit "image_comparison_" ++ lit (show n') ++ lit ".png") -> n = n'.
Proof.
  intros project n n' H.
  assert (E : lit "image_comparison_" ++ lit (show n) ++ lit ".png" = lit "image_comparison_" ++ lit (show n') ++ lit ".png").
  { unfold file_of in H. destruct project as [p|]; [|exact H]. apply app_inv_head in H.
    apply (f_equal (@tl ascii)) in H. exact H. }
  apply app_inv_head, app_inv_tail in E. apply show_inj. unfold lit in E.
  rewrite <- (string_of_list_ascii_of_string (show n)), E. apply string_of_list_ascii_of_string.
Qed.

(** With an empty file path the figures are shown and not saved. *)
Theorem C92_no_path : forall results img_r img_m x y z file sh roi order f,
  export_image disk ident ub resize results img_r img_m x y z (Some []) file sh roi order = Ok f ->
  f_saved f = None /\ f_shown f = true.
Proof.
  intros results img_r img_m x y z file sh roi order f E. unfold export_image in E. apply bind_ok in E as ([r m] & _ & E).
  apply bind_ok in E as ([r' m'] & _ & E). apply bind_ok in E as (ls & _ & E). destruct (negb _); [discriminate|]. injection E as <-. auto.
Qed.

(** After a successful calculation of at least one pair csv file and metadata are written. *)
Theorem C92_after : forall (M P X : Type) (kind_of : M -> mkind) nm score_fr score_nr (to_f : X -> res ext) kw order dir rois global
    (msp : list (nat * P)) h pairs results h' path project x y z ms rs params,
  stable kind_of nm score_fr score_nr h msp ->
  batch_calculate kind_of nm score_fr score_nr to_f disk ident ub resize kw order dir rois global msp pairs [] h = (Ok tt, results, h') ->
  pairs <> [] -> in_dir project -> Forall2 ranged ms rs -> length ms <= length params ->
  exists rows content,
    batch_report true true false path project x y z dir rois (Some global) ms params pairs results =
    ([ACsv (join path (file_of project (lit "results.csv"))) rows;
      AMeta (join path (file_of project (lit "metadata.txt"))) content], Ok tt) /\ length rows = S (length pairs).
Proof.
  intros M P X kind_of nm score_fr score_nr to_f kw order dir rois global msp h pairs results h' path project x y z ms rs params
    Hs H Hne Hp Hr Hl.
  destruct (C57_rows kind_of nm score_fr score_nr to_f disk ident ub resize kw order dir rois global msp h pairs results h' _ Hs H Hne
              (csv_named project Hp)) as (cols & rows & E & _ & L & _).
  unfold ExportModel.batch_report, when, csv_step, then_. rewrite E. cbn [fst snd].
  rewrite (C89_content show_val show_score stamp ms rs params path _ (meta_named project Hp) Hr Hl). cbn [meta_step fst snd app].
  do 2 eexists. split; [reflexivity|]. cbn. congruence.
Qed.

(** MultipleMetrics.report: asking for an image without giving both images stops everything. *)
Theorem C92_multiple_no_image : forall csv metadata export path project img_r img_m x y z sh roi order ms params results,
  img_r = None \/ img_m = None ->
  multi_report csv metadata true export path project img_r img_m x y z sh roi order ms params results = ([], Err ValueError).
Proof. intros. destruct H as [-> | ->]; [reflexivity|]. destruct img_r; reflexivity. Qed.

(** The figure is saved only if export_image is set, and shown whenever it is not saved. *)
Theorem C92_export : forall export path project img_r img_m x y z sh roi order ms params results arts,
  multi_report false false true export path project (Some img_r) (Some img_m) x y z sh roi order ms params results = (arts, Ok tt) ->
  exists f, arts = [AFig f] /\
    (export = false \/ path = [] -> f_saved f = None /\ f_shown f = true) /\
    (export = true -> path <> [] -> f_saved f = Some (join path (file_of project (lit "image_comparison.png"))) /\ f_shown f = sh).
Proof.
  intros export path project img_r img_m x y z sh roi order ms params results arts H. unfold ExportModel.multi_report, when, then_, fig_step in H.
  match type of H with context [export_image ?a ?b ?c ?d ?e ?f ?g ?h ?i ?j ?k ?l ?m ?n ?o] => destruct (export_image a b c d e f g h i j k l m n o) as [fig|er] eqn:E end;
    cbn [fst snd app] in H; [|discriminate].
  injection H as <-. exists fig. split; [reflexivity|]. unfold export_image in E.
  apply bind_ok in E as ([r m] & _ & E). apply bind_ok in E as ([r' m'] & _ & E). apply bind_ok in E as (ls & _ & E).
  destruct (negb _); [discriminate|]. destruct export; [destruct path as [|c path]|]; injection E as <-; (split; [intros [H|H]; try discriminate; split; reflexivity|]);
    intros H1 H2; try discriminate; try congruence. split; reflexivity.
Qed.

(** Without an image both files are always written, also before any calculation (two empty rows). *)
Theorem C92_multiple : forall export path project img_r img_m x y z sh roi order ms rs params (results : dict ext),
  in_dir project -> Forall2 ranged ms rs -> length ms <= length params ->
  exists content,
  multi_report true true false export path project img_r img_m x y z sh roi order ms params results =
  ([ACsv (join path (file_of project (lit "results.csv"))) [map CText (dkeys results); map CNum (dvals results)];
    AMeta (join path (file_of project (lit "metadata.txt"))) content], Ok tt).
Proof.
  intros export path project img_r img_m x y z sh roi order ms rs params results Hp Hr Hl.
  unfold ExportModel.multi_report, when, csv_step, then_, multi_export. rewrite (proj2 (text_eqb_eq _ _) (csv_named project Hp)). cbn [negb fst snd].
  rewrite (C89_content show_val show_score stamp ms rs params path _ (meta_named project Hp) Hr Hl). cbn [meta_step fst snd app].
  eexists. reflexivity.
Qed.
End reports.
Print Assumptions C92_before.
Print Assumptions C92_before_image.
Print Assumptions C92_figures.
Print Assumptions C92_pairs.
Print Assumptions C92_names_differ.
Print Assumptions C92_no_path.
Print Assumptions C92_after.
Print Assumptions C92_multiple_no_image.
Print Assumptions C92_multiple.
Print Assumptions C92_export.

Example C92_ex : exists f,
  figures_loop (fun _ => Ok (Img (UInt 8) (PI (Arr [1; 1] [7]%Z)))) Z.eqb (fun _ => 0%Z) no_resize (lit "in") (lit "out") (Some (lit "p")) None None None
    None None [("0", [("SSIM", Fin 1)])]%string [Pair (Some (lit "a")) (Some (lit "b"))] 0 = ([AFig f], Ok tt) /\
  f_saved f = Some (lit "out/p_image_comparison_0.png") /\ map printed (f_labels f) = [("SSIM", Fin 1)]%string.
Proof. eexists. split; [reflexivity|]. split; reflexivity. Qed.
