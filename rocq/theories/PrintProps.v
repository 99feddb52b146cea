(** C117: printed scores. *)
From Coq Require Import Reals String Ascii Lra Lia.
From Verif Require Import Base MetricModel BatchModel ExportModel PrintModel PrintProofs.
Open Scope R_scope.

(** ** The printed number *)

(** A multiple of the last digit, at most half a unit away, none nearer; in the middle the
    even one. *)
Theorem C117_round : forall d x,
  let u := powerRZ 10 (- d) in
  exists n, np_round d x = IZR n * u /\
    Rabs (np_round d x - x) <= u / 2 /\
    (forall k, Rabs (np_round d x - x) <= Rabs (IZR k * u - x)) /\
    (Rabs (np_round d x - x) = u / 2 -> Z.even n = true).
Proof.
  intros d x u. change u with (unit d). pose proof (unit_pos d) as P. rewrite np_round_unit.
  set (y := x / unit d). assert (X : x = y * unit d) by (unfold y; field; lra). rewrite X.
  assert (F : forall k, Rabs (IZR k * unit d - y * unit d) = Rabs (IZR k - y) * unit d).
  { intros k. rewrite <- Rmult_minus_distr_r, Rabs_mult, (Rabs_right (unit d)) by lra. reflexivity. }
  exists (rint y). split; [reflexivity|]. rewrite F. split; [|split].
  - pose proof (rint_half y). nra.
  - intros k. rewrite F. pose proof (rint_best y k). nra.
  - intros H. destruct (rint_nearest y) as [N|[_ N]]; [|exact N]. nra.
Qed.
Print Assumptions C117_round.

(** Printing keeps the order and separates scores more than one unit apart. *)
Theorem C117_order : forall d x y,
  (x <= y -> np_round d x <= np_round d y) /\
  (powerRZ 10 (- d) < y - x -> np_round d x < np_round d y).
Proof.
  intros d x y. change (powerRZ 10 (- d)) with (unit d). pose proof (unit_pos d) as P. rewrite !np_round_unit. split; intros H.
  - apply Rmult_le_compat_r; [lra|]. apply IZR_le, rint_mono.
    apply Rmult_le_compat_r; [|exact H]. left. apply Rinv_0_lt_compat, P.
  - apply Rmult_lt_compat_r; [exact P|].
    assert (D : 1 < y / unit d - x / unit d).
    { rewrite <- Rdiv_minus_distr. apply Rmult_lt_reg_r with (unit d); [exact P|].
      replace ((y - x) / unit d * unit d) with (y - x) by (field; lra). lra. }
    pose proof (Rabs_le_inv _ _ (rint_half (x / unit d))). pose proof (Rabs_le_inv _ _ (rint_half (y / unit d))). lra.
Qed.
Print Assumptions C117_order.

(** A printed number printed again stays the same. *)
Theorem C117_again : forall d x, np_round d (np_round d x) = np_round d x.
Proof.
  intros d x. pose proof (unit_pos d) as P. rewrite !np_round_unit.
  replace (IZR (rint (x / unit d)) * unit d / unit d) with (IZR (rint (x / unit d))) by (field; lra).
  rewrite rint_IZR. reflexivity.
Qed.
Print Assumptions C117_again.

(** ** The text of print_values *)

Lemma rint_abs y : Z.abs (rint y) = rint (Rabs y).
Proof.
  destruct (Rle_dec 0 y) as [H|H].
  - rewrite Rabs_right by lra. apply Z.abs_eq, rint_nonneg, H.
  - rewrite Rabs_left by lra. rewrite rint_opp. apply Z.abs_neq.
    pose proof (rint_nonneg (- y)) as N. rewrite rint_opp in N. lra || (assert (0 <= - y) by lra; lia).
Qed.

Lemma INR_split n m : (m <> 0)%nat -> INR n = INR (n / m) * INR m + INR (n mod m).
Proof. intros H. rewrite <- mult_INR, <- plus_INR. f_equal. rewrite Nat.mul_comm. apply Nat.div_mod, H. Qed.

Lemma pow10_INR d : INR (10 ^ d) = 10 ^ d.
Proof. rewrite pow_INR. f_equal. cbn. ring. Qed.

Lemma read_int_dot s acc : read_int (String "." s) acc = read_frac s acc 1.
Proof. reflexivity. Qed.

Lemma app_empty (s : string) : (s ++ "" = s)%string.
Proof. induction s as [|c s IH]; [reflexivity|]. cbn. rewrite IH. reflexivity. Qed.

Definition unsigned (d n : nat) : string :=
  (show (n / 10 ^ d) ++ match d with 0 => "" | _ => "." ++ pad d n end)%string.

Lemma read_unsigned d n : read_int (unsigned d n) 0 = Some (INR n / 10 ^ d).
Proof.
  unfold unsigned. rewrite read_int_show. pose proof (pow10_pos d) as P.
  assert (Z10 : (10 ^ d <> 0)%nat) by (apply Nat.pow_nonzero; lia).
  destruct d as [|d].
  - cbn [read_int]. change (10 ^ 0)%nat with 1%nat. rewrite Nat.div_1_r. f_equal. cbn [pow]. field.
  - change (read_int ("." ++ pad (S d) n) (INR (n / 10 ^ S d))) with (read_frac (pad (S d) n) (INR (n / 10 ^ S d)) 1).
    rewrite <- (app_empty (pad (S d) n)), read_frac_pad. cbn [read_frac]. f_equal.
    pose proof (INR_split n (10 ^ S d) Z10) as Q. rewrite pow10_INR in Q. rewrite Q. field. lra.
Qed.

Lemma fixed_unsigned d x :
  fixed d x = ((if Rlt_dec x 0 then "-" else "") ++ unsigned d (Z.to_nat (Z.abs (rint (x * 10 ^ d)))))%string.
Proof. reflexivity. Qed.

(** Read as a number, the text of print_values is the number printed by print_score. *)
Theorem C117_text : forall d x, read_num (fixed d x) = Some (np_round (Z.of_nat d) x).
Proof.
  intros d x. rewrite fixed_unsigned. set (n := Z.to_nat (Z.abs (rint (x * 10 ^ d)))).
  pose proof (pow10_pos d) as P.
  assert (V : INR n = Rabs (IZR (rint (x * 10 ^ d)))).
  { unfold n. rewrite INR_IZR_INZ, Z2Nat.id by apply Z.abs_nonneg. apply abs_IZR. }
  unfold np_round. destruct (Z.leb_spec 0 (Z.of_nat d)); [|lia]. rewrite Nat2Z.id.
  destruct (Rlt_dec x 0) as [S|S].
  - change (("-" ++ unsigned d n)%string) with (String "-" (unsigned d n)). cbn [read_num].
    change (Ascii.eqb "-" "-") with true. cbv iota. rewrite read_unsigned. cbn [option_map]. f_equal.
    rewrite V, Rabs_left1; [field; lra|]. change 0 with (IZR 0). apply IZR_le. rewrite <- (rint_IZR 0). apply rint_mono. nra.
  - change (("" ++ unsigned d n)%string) with (unsigned d n).
    assert (R : read_num (unsigned d n) = read_int (unsigned d n) 0).
    { unfold unsigned. destruct (show_head (n / 10 ^ d)) as (c & s & E & N). rewrite E. cbn [String.append read_num].
      destruct (Ascii.eqb_spec c "-"); [contradiction|reflexivity]. }
    rewrite R, read_unsigned. f_equal. rewrite V, Rabs_right; [reflexivity|].
    apply Rle_ge. change 0 with (IZR 0). apply IZR_le, rint_nonneg. nra.
Qed.
Print Assumptions C117_text.

(** Characters of a text. *)
Definition chars := list_ascii_of_string.
Definition is_digit (c : ascii) : Prop := digit c <> None.

Lemma chars_app a b : chars (a ++ b) = (chars a ++ chars b)%list.
Proof. induction a as [|c a IH]; [reflexivity|]. cbn. f_equal. exact IH. Qed.

Lemma uint_digits u : Forall is_digit (chars (DecimalString.NilEmpty.string_of_uint u)).
Proof. induction u; cbn; constructor; try assumption; discriminate. Qed.

Lemma pad_digits w : forall k, length (chars (pad w k)) = w /\ Forall is_digit (chars (pad w k)).
Proof.
  induction w as [|w IH]; intros k; [split; [reflexivity|constructor]|]. cbn [pad]. rewrite chars_app.
  destruct (IH (k / 10)%nat) as [L F].
  destruct (show_digit (k mod 10)) as (c & E & D & _); [apply Nat.mod_upper_bound; lia|]. rewrite E. split.
  - rewrite app_length, L. cbn. lia.
  - apply Forall_app. split; [exact F|]. constructor; [|constructor]. unfold is_digit. rewrite D. discriminate.
Qed.

(** It has a minus sign exactly for negative scores (so -0.001 is printed as -0.00) and
    exactly [d] digits after the point. *)
Theorem C117_digits : forall d x, exists whole frac,
  chars (fixed d x) = ((if Rlt_dec x 0 then ["-"%char] else []) ++ whole ++
                       (if (d =? 0)%nat then [] else "."%char :: frac))%list /\
  whole <> [] /\ Forall is_digit whole /\ Forall is_digit frac /\ length frac = d.
Proof.
  intros d x. rewrite fixed_unsigned. set (n := Z.to_nat (Z.abs (rint (x * 10 ^ d)))).
  exists (chars (show (n / 10 ^ d))), (chars (pad d n)). destruct (pad_digits d n) as [L F]. split; [|split; [|split; [|split]]].
  - unfold unsigned. rewrite !chars_app. f_equal; [destruct (Rlt_dec x 0); reflexivity|]. f_equal. destruct d; reflexivity.
  - destruct (show_head (n / 10 ^ d)) as (c & s & E & _). rewrite E. discriminate.
  - apply uint_digits.
  - exact F.
  - exact L.
Qed.
Print Assumptions C117_digits.

(** All values are printed, in their order, under their names. *)
Theorem C117_values : forall results d, (0 <= d)%Z ->
  exists lines, print_values results d = (map Printed lines, Ok tt) /\
    Forall2 (fun kv line => exists t, line = (fst kv ++ ": " ++ t)%string /\
               match snd kv with
               | Fin x => read_num t = Some (np_round d x)
               | PInf => t = "inf"%string | NInf => t = "-inf"%string | NaN => t = "nan"%string
               end) results lines.
Proof.
  intros results d H. unfold print_values. destruct (Z.leb_spec 0 d); [|lia].
  exists (map (fun kv => fst kv ++ ": " ++ fixed_ext (Z.to_nat d) (snd kv))%string results).
  split; [rewrite map_map; reflexivity|].
  induction results as [|[k v] l IH]; [constructor|]. cbn [map]. constructor; [|exact IH].
  cbn [fst snd]. eexists. split; [reflexivity|]. destruct v; try reflexivity. cbn [fixed_ext].
  rewrite C117_text, Z2Nat.id by exact H. reflexivity.
Qed.
Print Assumptions C117_values.

(** print_score takes negative decimals (hundreds, tens), print_values does not. *)
Theorem C117_negative : forall str_num m x kv results d, (d < 0)%Z -> m_score m = SNum x ->
  snd (print_score str_num m d) = Ok tt /\ print_values (kv :: results) d = ([], Err ValueError) /\
  print_values [] d = ([], Ok tt).
Proof.
  intros str_num m x kv results d H E. unfold print_score, print_values. rewrite E.
  destruct (Z.leb_spec 0 d); [lia|]. split; [|split]; reflexivity.
Qed.
Print Assumptions C117_negative.

(** ** print_score *)

(** A scored metric prints one line: a fixed name and the rounded score. The name is that of
    the metric, except for colour RMSE, PSNR and FSIM (RMSEc, PSNRc, FSIMc) and for SNR, which
    has no name. *)
Theorem C117_scored : forall c, exists name, (c = CSNR -> name = "SNR"%string) /\
  forall str_num dr norm kwargs m x d, construct c dr norm kwargs = Ok m ->
    print_score str_num (set_score m (SNum x)) d =
                 ([Printed (name ++ ": " ++ str_num (match x with Fin v => Fin (np_round d v) | _ => x end))], Ok tt)%string /\
    (m_name m = Some name <->
     ~ (c = CSNR \/ ((c = CRMSE \/ c = CPSNR \/ c = CFSIM) /\
                     exists v, dget (m_params m) "chromatic" = Some v /\ truthy v = true))).
Proof.
  intros c. exists (printed_name c). split; [intros ->; reflexivity|].
  intros str_num dr norm kwargs m x d H. unfold construct in H.
  destruct (needs_range c && _); [discriminate|].
  set (params := dupdate _ _) in H. cbv zeta in H. destruct (truthy norm && _); [discriminate|].
  injection H as <-. cbn [m_class m_params m_name set_score].
  split; [destruct x; reflexivity|].
  destruct (dget params "chromatic") as [v|] eqn:D.
  - destruct (truthy v) eqn:T; destruct c; cbn [name_of printed_name];
      (split; [intros E N|intros N]; try discriminate E; try reflexivity);
      try (destruct N as [N|[[N|[N|N]] _]]; discriminate N);
      try (exfalso; apply N; first [left; reflexivity | right; split; [tauto|exists v; split; [reflexivity|exact T]]]).
    all: destruct N as [N|[_ (v' & E' & T')]]; [discriminate N|congruence].
  - destruct c; cbn [name_of printed_name];
      (split; [intros E N|intros N]; try discriminate E; try reflexivity);
      try (destruct N as [N|[_ (v' & E' & _)]]; [discriminate N|discriminate E']);
      exfalso; apply N; left; reflexivity.
Qed.
Print Assumptions C117_scored.

(** A metric without a score: documented is a RuntimeWarning. *)
Theorem C117_unscored : forall str_num m d, m_score m = SNone ->
  (exists e, print_score str_num m d = ([e], Ok tt)) /\
  ((exists t, print_score str_num m d = ([Warned RuntimeWarning t], Ok tt)) <->
   ~ (m_class m = CMSSSIM \/ m_class m = CVIFp \/ m_class m = CVSI)).
Proof.
  intros str_num m d H. unfold print_score. rewrite H. split; [eexists; reflexivity|].
  destruct (m_class m); cbn [missing]; (split; [intros [t E] N|intros N]);
    try discriminate E; try (destruct N as [N|[N|N]]; discriminate N); try (eexists; reflexivity); exfalso; tauto.
Qed.
Print Assumptions C117_unscored.

(** The message names the metric as the line with a score does. *)
Theorem C117_message : forall str_num m d x, m_score m = SNone -> exists name text,
  (fst (print_score str_num m d) = [Printed text] \/ fst (print_score str_num m d) = [Warned RuntimeWarning text]) /\
  text = ("No score value for " ++ name ++ ". Run score() first.")%string /\
  fst (print_score str_num (set_score m (SNum x)) d) = [Printed (name ++ ": " ++ str_num (np_round_ext d x))%string].
Proof.
  intros str_num m d x H. exists (printed_name (m_class m)), (missing_message (m_class m)).
  split; [|split; reflexivity]. unfold print_score. rewrite H. cbn [fst]. destruct (m_class m); cbn [missing]; auto.
Qed.
Print Assumptions C117_message.

Theorem C117_unscored_refuted : exists c m,
  construct c (PInt 255) (PBool false) [] = Ok m /\
  forall str_num d t, print_score str_num m d <> ([Warned RuntimeWarning t], Ok tt).
Proof.
  exists CMSSSIM. eexists. split; [reflexivity|]. intros str_num d t E. discriminate E.
Qed.
Print Assumptions C117_unscored_refuted.

(** Exporting a metric without a score stores a text in it: from then on printing fails. *)
Theorem C117_after_export : forall str_num h i path file dict decimals, m_score (h i) = SNone ->
  print_score str_num (snd (export_results [i] path file dict h) i) decimals = ([], Err TypeError).
Proof.
  intros str_num h i path file dict decimals H. unfold export_results. cbn [export_loop]. rewrite H. cbn [snd].
  unfold set_obj. rewrite Nat.eqb_refl. reflexivity.
Qed.
Print Assumptions C117_after_export.

(** ** Examples *)

Example C117_round_example : np_round 2 (12345 / 10000) = 123 / 100 /\ np_round 0 (5 / 2) = 2 /\ np_round (-1) 47 = 50.
Proof.
  rewrite !np_round_unit. unfold unit. change (powerRZ 10 (- (2))) with (/ (10 * (10 * 1))).
  change (powerRZ 10 (- 0)) with 1. change (powerRZ 10 (- -1)) with (10 * 1).
  assert (A : rint (12345 / 10000 / / (10 * (10 * 1))) = 123%Z) by (apply rint_unique; left; apply Rabs_def1; lra).
  assert (B : rint (5 / 2 / 1) = 2%Z) by (apply rint_unique; right; split; [rewrite Rabs_left; lra|reflexivity]).
  assert (C : rint (47 / (10 * 1)) = 5%Z) by (apply rint_unique; left; apply Rabs_def1; lra).
  rewrite A, B, C. repeat split; lra.
Qed.

Example C117_text_example : fixed 2 (-1 / 1000) = "-0.00"%string /\ fixed 3 (1999 / 1000) = "1.999"%string /\ fixed 0 (7 / 2) = "4"%string.
Proof.
  unfold fixed. cbn [pow].
  assert (A : rint (-1 / 1000 * (10 * (10 * 1))) = 0%Z) by (apply rint_unique; left; apply Rabs_def1; lra).
  assert (B : rint (1999 / 1000 * (10 * (10 * (10 * 1)))) = 1999%Z) by (apply rint_unique; left; apply Rabs_def1; lra).
  assert (C : rint (7 / 2 * 1) = 4%Z) by (apply rint_unique; right; split; [rewrite Rabs_right; lra|reflexivity]).
  rewrite A, B, C. repeat split.
  - destruct (Rlt_dec (-1 / 1000) 0); [reflexivity|lra].
  - destruct (Rlt_dec (1999 / 1000) 0); [lra|vm_compute; reflexivity].
  - destruct (Rlt_dec (7 / 2) 0); [lra|reflexivity].
Qed.
