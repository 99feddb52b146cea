(** Properties C01-C07: loading raw and mhd volumes. *)
From Coq Require Import Permutation.
From Verif Require Import Base NdArray LoadModel LoadProofs LoadTextProofs.

(** C01 *)
Theorem C01_voxel_order : forall (A : Type) (items : list A) (nx ny nz : nat),
  length items = nx * ny * nz ->
  exists a, load_items items [Z.of_nat nx; Z.of_nat ny; Z.of_nat nz] = Ok a /\
    shp a = [nx; ny; nz] /\ wf a /\
    (forall x y z, x < nx -> y < ny -> z < nz ->
       get a [x; y; z] = nth_error items (x + nx * (y + ny * z))).
Proof. intros A. exact load_items_3d. Qed.
Print Assumptions C01_voxel_order.

Example C01_example :
  exists a, load_items (seq 0 24) [2; 3; 4]%Z = Ok a /\ get a [1; 2; 3] = Some 23 /\
            get a [1; 0; 0] = Some 1 /\ get a [0; 0; 1] = Some 6.
Proof. eexists. vm_compute. repeat split. Qed.

(** C02 *)
Theorem C02_size_check : forall bytes d nx ny nz,
  (length bytes / itemsize d = nx * ny * nz ->
     exists a, load_binary bytes d [Z.of_nat nx; Z.of_nat ny; Z.of_nat nz] = Ok a) /\
  (length bytes / itemsize d <> nx * ny * nz ->
     load_binary bytes d [Z.of_nat nx; Z.of_nat ny; Z.of_nat nz] = Err ValueError).
Proof.
  intros bytes d nx ny nz. unfold load_binary. rewrite <- length_fromfile. split.
  - intros H. apply load_items_iff. exact H.
  - intros H. apply load_items_mismatch. rewrite prodZ_nat3. lia.
Qed.
Print Assumptions C02_size_check.

Theorem C02_any_dims : forall bytes d dims,
  (Z.of_nat (length bytes / itemsize d) <> prodZ dims \/ length dims < 3) ->
  load_binary bytes d dims = Err ValueError.
Proof.
  intros bytes d dims [H|H].
  - apply load_items_mismatch. rewrite length_fromfile. exact H.
  - apply load_items_short_dims. exact H.
Qed.
Print Assumptions C02_any_dims.

Theorem C02_fragment_ignored : forall bytes frag d dims,
  0 < itemsize d -> length bytes mod itemsize d = 0 -> length frag < itemsize d ->
  load_binary (bytes ++ frag) d dims = load_binary bytes d dims.
Proof.
  intros. unfold load_binary. rewrite fromfile_fragment by assumption. reflexivity.
Qed.
Print Assumptions C02_fragment_ignored.

Example C02_example :
  is_ok (load_binary (repeat 7%Z 49) (UInt 16) [2; 3; 4]%Z) = true /\
  load_binary (repeat 7%Z 47) (UInt 16) [2; 3; 4]%Z = Err ValueError.
Proof. vm_compute. repeat split. Qed.

(** C03 *)
Theorem C03_roundtrip : forall d nx ny nz v,
  0 < itemsize d ->
  (forall x y z, x < nx -> y < ny -> z < nz ->
     (0 <= v x y z < 256 ^ Z.of_nat (itemsize d))%Z) ->
  exists a, load_binary (volume_bytes (itemsize d) nx ny nz v) d
              [Z.of_nat nx; Z.of_nat ny; Z.of_nat nz] = Ok a /\
    shp a = [nx; ny; nz] /\
    (forall x y z, x < nx -> y < ny -> z < nz ->
       option_map decode_le (get a [x; y; z]) = Some (v x y z)).
Proof. exact load_binary_roundtrip. Qed.
Print Assumptions C03_roundtrip.

Theorem C03_files_distinct : forall w nx ny nz v v',
  0 < w ->
  (forall x y z, x < nx -> y < ny -> z < nz -> (0 <= v x y z < 256 ^ Z.of_nat w)%Z) ->
  (forall x y z, x < nx -> y < ny -> z < nz -> (0 <= v' x y z < 256 ^ Z.of_nat w)%Z) ->
  volume_bytes w nx ny nz v = volume_bytes w nx ny nz v' ->
  forall x y z, x < nx -> y < ny -> z < nz -> v x y z = v' x y z.
Proof. exact volume_bytes_inj. Qed.
Print Assumptions C03_files_distinct.

(** From file name and bytes to the volume, .raw and .mhd. *)
Theorem C03_raw_file : forall p nx ny nz m ds k s d v,
  digit_free p -> digit_free m ->
  (exists c m', m = c :: m' /\ depth_follow c = false) -> digits ds ->
  ~ In "/"%char (raw_head p nx ny nz m (ds ++ kind_text k ++ lit "bit") s) ->
  parse_bitdepth (last2 ds ++ kind_text k ++ lit "bit" ++ opt_s s) = Ok d ->
  (forall x y z, x < nx -> y < ny -> z < nz ->
     (0 <= v x y z < 256 ^ Z.of_nat (itemsize d))%Z) ->
  exists a,
    load_raw (raw_head p nx ny nz m (ds ++ kind_text k ++ lit "bit") s ++ lit ".raw")
             (volume_bytes (itemsize d) nx ny nz v) = Ok (d, a) /\
    shp a = [nx; ny; nz] /\
    (forall x y z, x < nx -> y < ny -> z < nz ->
       option_map decode_le (get a [x; y; z]) = Some (v x y z)).
Proof. exact load_raw_roundtrip. Qed.
Print Assumptions C03_raw_file.

Theorem C03_mhd_file : forall es file n d nx ny nz v disk,
  Forall entry_ok es -> NoDup (map fst es) ->
  In (lit "ElementDataFile", file) es -> In (lit "ElementType", lit n) es ->
  In (lit "DimSize", dims_text nx ny nz) es -> In (n, d) element_table ->
  (forall x y z, x < nx -> y < ny -> z < nz ->
     (0 <= v x y z < 256 ^ Z.of_nat (itemsize d))%Z) ->
  disk file = volume_bytes (itemsize d) nx ny nz v ->
  exists a, load_mhd disk (header_text es) = Ok (d, a) /\ shp a = [nx; ny; nz] /\
    (forall x y z, x < nx -> y < ny -> z < nz ->
       option_map decode_le (get a [x; y; z]) = Some (v x y z)).
Proof. exact load_mhd_roundtrip. Qed.
Print Assumptions C03_mhd_file.

(** Bytes per voxel: an eighth of the number in the name of the raw file, or as the mhd type says. *)
Theorem C03_bytes_per_voxel : 
  (forall t d, parse_bitdepth t = Ok d -> exists w k, In w [8; 16; 32; 64] /\ t = dec_text w ++ kind_text k ++ lit "bit" /\ 8 * itemsize d = w) /\
  (forall n d, In (n, d) element_table ->
     itemsize d = (if String.eqb n "MET_UCHAR" then 1 else if String.eqb n "MET_USHORT" then 2 else if String.eqb n "MET_UINT" then 4
                   else if String.eqb n "MET_FLOAT" then 4 else 8)%string).
Proof.
  split.
  - intros t d H. apply parse_bitdepth_spec in H as (n & Hin & ->). cbn in Hin.
    repeat (destruct Hin as [Hin|Hin]; [injection Hin as <- <-; cbn [In];
      first [exists 8, KU; split; [tauto|split; reflexivity] | exists 8, KNone; split; [tauto|split; reflexivity]
            |exists 16, KU; split; [tauto|split; reflexivity] | exists 16, KNone; split; [tauto|split; reflexivity]
            |exists 32, KU; split; [tauto|split; reflexivity] | exists 32, KNone; split; [tauto|split; reflexivity]
            |exists 16, KF; split; [tauto|split; reflexivity] | exists 32, KF; split; [tauto|split; reflexivity]
            |exists 64, KF; split; [tauto|split; reflexivity]]|]). destruct Hin.
  - intros n d H. cbn in H. repeat (destruct H as [H|H]; [injection H as <- <-; reflexivity|]). destruct H.
Qed.
Print Assumptions C03_bytes_per_voxel.


Example C03_example :
  let v := fun x y z => (Z.of_nat x * 1000 + Z.of_nat y * 10 + Z.of_nat z * 3)%Z in
  raw_head (lit "scan_") 2 3 4 (lit "_") (lit "16ubit") [] ++ lit ".raw"
    = lit "scan_2x3x4_16ubit.raw" /\
  exists a, load_raw (lit "scan_2x3x4_16ubit.raw") (volume_bytes 2 2 3 4 v) = Ok (UInt 16, a) /\
    option_map decode_le (get a [1; 2; 3]) = Some 1029%Z.
Proof. split; [reflexivity|]. eexists. vm_compute. repeat split. Qed.

(** C04 *)
Theorem C04_dims_from_name : forall p nx ny nz s,
  clean_before (is_char "x") p -> no_digit_start s ->
  raw_dims (p ++ dec_text nx ++ "x"%char :: dec_text ny ++ "x"%char :: dec_text nz ++ s)
  = Ok [Z.of_nat nx; Z.of_nat ny; Z.of_nat nz].
Proof.
  intros p nx ny nz s Hp Hs. rewrite raw_dims_ok by (auto using dec_text_digits).
  rewrite !dec_text_val. reflexivity.
Qed.
Print Assumptions C04_dims_from_name.

(** Also with leading zeros: the numbers are read in decimal. *)
Theorem C04_dims_any_digits : forall p dx dy dz s,
  clean_before (is_char "x") p -> digits dx -> digits dy -> digits dz -> no_digit_start s ->
  raw_dims (p ++ dx ++ "x"%char :: dy ++ "x"%char :: dz ++ s)
  = Ok [dec_val dx; dec_val dy; dec_val dz].
Proof. exact raw_dims_ok. Qed.
Print Assumptions C04_dims_any_digits.

Theorem C04_digit_free_prefix : forall l p, digit_free p -> clean_before l p.
Proof. intros l p H. apply clean_digit_free, digit_free_forallb, H. Qed.
Print Assumptions C04_digit_free_prefix.

Theorem C04_no_triple_rejected : forall file_name bytes,
  ~ triple_inside (fst (splitext file_name)) -> load_raw file_name bytes = Err ValueError.
Proof. exact load_raw_no_triple. Qed.
Print Assumptions C04_no_triple_rejected.

Theorem C04_triple_accepted : forall head,
  triple_inside head -> exists x y z, raw_dims head = Ok [x; y; z].
Proof. intros head. exact (proj1 (raw_dims_iff head)). Qed.
Print Assumptions C04_triple_accepted.

Example C04_example :
  raw_dims (lit "scan2_v1_512x0640x7_8ubit") = Ok [512; 640; 7]%Z /\
  clean_before (is_char "x") (lit "scan2_v1_") /\
  load_raw (lit "scan_512x640_8ubit.raw") [] = Err ValueError.
Proof.
  repeat split; vm_compute; auto; intros H; discriminate H.
Qed.

(** C05 *)
Theorem C05_token : forall p ds k s,
  clean_before depth_follow p -> digits ds ->
  raw_dtype (p ++ ds ++ kind_text k ++ lit "bit" ++ s)
  = parse_bitdepth (last2 ds ++ kind_text k ++ lit "bit" ++ opt_s s).
Proof. exact raw_dtype_ok. Qed.
Print Assumptions C05_token.

Theorem C05_table : forall t d,
  parse_bitdepth t = Ok d <-> exists n, In (n, d) depth_table /\ t = lit n.
Proof. exact parse_bitdepth_spec. Qed.
Print Assumptions C05_table.

Theorem C05_only_documented_tokens : forall head d,
  raw_dtype head = Ok d -> exists n a b, In (n, d) depth_table /\ head = a ++ lit n ++ b.
Proof. exact raw_dtype_sound. Qed.
Print Assumptions C05_only_documented_tokens.

Theorem C05_otherwise_ValueError : forall head,
  (exists d, raw_dtype head = Ok d) \/ raw_dtype head = Err ValueError.
Proof. exact raw_dtype_err. Qed.
Print Assumptions C05_otherwise_ValueError.

Theorem C05_plural_rejected : forall p ds k s,
  clean_before depth_follow p -> digits ds ->
  raw_dtype (p ++ ds ++ kind_text k ++ lit "bits" ++ s) = Err ValueError.
Proof.
  intros p ds k s Hp Hd.
  change (lit "bits" ++ s) with (lit "bit" ++ "s"%char :: s).
  rewrite raw_dtype_ok by assumption. cbn [opt_s].
  replace (last2 ds ++ kind_text k ++ lit "bit" ++ lit "s")
    with ((last2 ds ++ kind_text k) ++ lit "bits") by (rewrite <- app_assoc; reflexivity).
  apply parse_plural.
Qed.
Print Assumptions C05_plural_rejected.

Theorem C05_last_two_digits : forall p ds a b k s,
  clean_before depth_follow p -> digits (ds ++ [a; b]) ->
  raw_dtype (p ++ (ds ++ [a; b]) ++ kind_text k ++ lit "bit" ++ s)
  = parse_bitdepth ([a; b] ++ kind_text k ++ lit "bit" ++ opt_s s).
Proof. intros p ds a b k s Hp Hd. rewrite raw_dtype_ok, last2_eq by assumption. reflexivity. Qed.
Print Assumptions C05_last_two_digits.

Example C05_example :
  raw_dtype (lit "scan_512x640x7_116ubit") = Ok (UInt 16) /\
  raw_dtype (lit "scan_512x640x7_64fbit") = Ok (Float 64) /\
  raw_dtype (lit "scan_512x640x7_16bits") = Err ValueError /\
  raw_dtype (lit "scan_512x640x7_16bitscan") = Err ValueError /\
  clean_before depth_follow (lit "scan_512x640x7_").
Proof. repeat split; vm_compute; auto; intros H; discriminate H. Qed.

(** C06 *)
Theorem C06_header_pairs : forall es,
  Forall entry_ok es ->
  exists h, parse_header (header_text es) = Ok h /\ forall k, tget h k = last_value k es.
Proof. exact parse_header_lookup. Qed.
Print Assumptions C06_header_pairs.

Theorem C06_fields_as_written : forall es file n d nx ny nz,
  Forall entry_ok es -> NoDup (map fst es) ->
  In (lit "ElementDataFile", file) es -> In (lit "ElementType", lit n) es ->
  In (lit "DimSize", dims_text nx ny nz) es -> In (n, d) element_table ->
  mhd_info (header_text es) = Ok (file, d, [Z.of_nat nx; Z.of_nat ny; Z.of_nat nz]).
Proof. exact mhd_info_ok. Qed.
Print Assumptions C06_fields_as_written.

(** Blanks: any white space around and between the numbers will do. *)
Definition blanks (g : text) : Prop := Forall (fun c => is_space c = true) g.

Lemma words_aux_blanks g s : blanks g -> words_aux [] (g ++ s) = words_aux [] s.
Proof. induction 1 as [|c g Hc Hg IH]; [reflexivity|]. cbn [app words_aux]. rewrite Hc. exact IH. Qed.

Lemma words_aux_gap cur w g s : Forall (fun c => is_space c = false) w -> w <> [] -> blanks g -> g <> [] ->
  words_aux cur (w ++ g ++ s) = (rev cur ++ w) :: words_aux [] s.
Proof.
  revert cur. induction w as [|c w IH]; intros cur H Hn Hg Ng; [congruence|]. inversion H as [|? ? H1 H2]; subst. cbn [app words_aux]. rewrite H1.
  destruct w as [|d w].
  - destruct g as [|b g]; [congruence|]. inversion Hg as [|? ? B1 B2]; subst. cbn [app words_aux]. rewrite B1. cbn [rev].
    rewrite (words_aux_blanks g s B2). reflexivity.
  - rewrite IH by (auto; discriminate). cbn [rev]. rewrite <- app_assoc. reflexivity.
Qed.

Theorem C06_blanks : forall es file n d nx ny nz g0 g1 g2 g3,
  Forall entry_ok es -> NoDup (map fst es) ->
  In (lit "ElementDataFile", file) es -> In (lit "ElementType", lit n) es ->
  blanks g0 -> blanks g1 -> g1 <> [] -> blanks g2 -> g2 <> [] -> blanks g3 ->
  In (lit "DimSize", g0 ++ dec_text nx ++ g1 ++ dec_text ny ++ g2 ++ dec_text nz ++ g3) es -> In (n, d) element_table ->
  mhd_info (header_text es) = Ok (file, d, [Z.of_nat nx; Z.of_nat ny; Z.of_nat nz]).
Proof.
  intros es file n d nx ny nz g0 g1 g2 g3 H Hnd Hf He B0 B1 N1 B2 N2 B3 Hd Ht. destruct (parse_header_lookup es H) as (h & E & G).
  unfold mhd_info. rewrite E. cbn [bind from_opt]. rewrite !G.
  rewrite (last_value_in _ _ _ Hnd Hf). cbn [bind from_opt]. rewrite (last_value_in _ _ _ Hnd Hd). cbn [bind from_opt].
  assert (W : forall k, Forall (fun c => is_space c = false) (dec_text k) /\ dec_text k <> []).
  { intros k. pose proof (dec_text_digits k) as D. split; [apply digits_no_space, D|apply D]. }
  unfold words. rewrite words_aux_blanks by exact B0.
  rewrite words_aux_gap by (try apply W; assumption). rewrite words_aux_gap by (try apply W; assumption).
  assert (L : words_aux [] (dec_text nz ++ g3) = [dec_text nz]).
  { destruct g3 as [|c g3]; [rewrite app_nil_r; apply words_aux_last; apply W|].
    rewrite <- (app_nil_r (c :: g3)). rewrite words_aux_gap by (try apply W; try assumption; discriminate). reflexivity. }
  rewrite L. cbn [rev app mapM]. rewrite !py_int_digits by apply dec_text_digits.
  rewrite !dec_text_val. cbn [bind from_opt].
  rewrite (last_value_in _ _ _ Hnd He). cbn [bind from_opt].
  rewrite (element_type_ok n d Ht). reflexivity.
Qed.
Print Assumptions C06_blanks.

Theorem C06_line_order_irrelevant : forall es es',
  Forall entry_ok es -> NoDup (map fst es) -> Permutation es es' ->
  mhd_info (header_text es) = mhd_info (header_text es').
Proof. exact mhd_info_perm. Qed.
Print Assumptions C06_line_order_irrelevant.

Theorem C06_unterminated_line_lost : forall es kv,
  Forall entry_ok es -> entry_ok kv ->
  mhd_info (header_text es ++ entry_line kv) = mhd_info (header_text es).
Proof. exact mhd_lost_last_line. Qed.
Print Assumptions C06_unterminated_line_lost.

Theorem C06_unterminated_data_file : forall es file,
  Forall entry_ok es -> ~ In (lit "ElementDataFile") (map fst es) ->
  free_of newline file -> no_assign file ->
  mhd_info (header_text es ++ entry_line (lit "ElementDataFile", file)) = Err KeyError.
Proof.
  intros es file H Hn H1 H2. rewrite mhd_lost_last_line.
  - apply mhd_no_data_file; assumption.
  - exact H.
  - repeat split; auto; simpl; intros Hin; repeat (destruct Hin as [Hin|Hin]; [discriminate|]);
      exact Hin.
Qed.
Print Assumptions C06_unterminated_data_file.

(** A line without " = " or with more than one is refused wherever it stands. *)
Theorem C06_malformed_line : forall es line rest,
  Forall entry_ok es -> free_of newline line ->
  no_assign line \/ (exists k v w, free_of "=" k /\ free_of "=" v /\ line = k ++ lit " = " ++ v ++ lit " = " ++ w) ->
  mhd_info (header_text es ++ line ++ newline :: rest) = Err ValueError.
Proof.
  intros es line rest He Hl Hm. unfold mhd_info, parse_header. rewrite split_header by exact He.
  rewrite split_chr_app by (apply free_forallb; exact Hl).
  assert (P : parse_line line = Err ValueError).
  { unfold parse_line. destruct Hm as [Hm|(k & v & w & Hk & Hv & ->)]; [rewrite split_assign_none by exact Hm; reflexivity|].
    rewrite split_assign_key by exact Hk. rewrite split_assign_key by exact Hv. assert (N : split_assign w <> []).
    { assert (N : forall n u, length u <= n -> split_assign u <> []).
      { induction n as [|n IH]; intros [|c u] L; try discriminate; [cbn in L; lia|].
        destruct (list_eq_dec ascii_dec (firstn 3 (c :: u)) (lit " = ")) as [E|E].
        - destruct u as [|d [|e u]]; try discriminate E. injection E as -> -> ->. discriminate.
        - rewrite split_assign_cons; [destruct (split_assign u); discriminate|]. intros b Eb. apply E. rewrite Eb. reflexivity. }
      apply (N (length w)). lia. }
    destruct (split_assign w); [contradiction|reflexivity]. }
  assert (S : exists x l, split_chr newline rest = x :: l).
  { destruct rest as [|c rest]; [cbn; eauto|]. cbn [split_chr]. destruct (Ascii.eqb c newline); [eauto|]. destruct (split_chr newline rest); eauto. }
  destruct S as (x & l & ->).
  match goal with |- context [mapM parse_line (removelast ?u)] => assert (M : mapM parse_line (removelast u) = Err ValueError) end; [|rewrite M; reflexivity].
  rewrite removelast_app by discriminate. cbn [removelast]. generalize (removelast (x :: l)). intros l'.
  clear - He P. induction es as [|kv es IH]; [cbn [map app mapM]; rewrite P; reflexivity|]. inversion He; subst.
  cbn [map app mapM]. rewrite parse_line_ok by assumption. cbn [bind]. rewrite IH by assumption. reflexivity.
Qed.
Print Assumptions C06_malformed_line.


Example C06_example :
  let es := [(lit "ObjectType", lit "Image"); (lit "DimSize", lit "2 3 4");
             (lit "ElementType", lit "MET_USHORT"); (lit "ElementDataFile", lit "a.raw")] in
  Forall entry_ok es /\ NoDup (map fst es) /\
  mhd_info (header_text es) = Ok (lit "a.raw", UInt 16, [2; 3; 4]%Z) /\
  mhd_info (removelast (header_text es)) = Err KeyError.
Proof.
  assert (Hna : forall t, forallb (fun c => negb (Ascii.eqb c "=")) t = true -> no_assign t).
  { intros t H a b ->. rewrite forallb_app, andb_true_iff in H. destruct H as [_ H].
    cbn in H. discriminate H. }
  repeat split; try (vm_compute; reflexivity).
  - repeat constructor; try (apply Hna; reflexivity);
      intros Hin; simpl in Hin; repeat (destruct Hin as [Hin|Hin]; [discriminate|]); exact Hin.
  - repeat constructor; simpl; intros Hin; repeat (destruct Hin as [Hin|Hin]; [discriminate|]);
      exact Hin.
Qed.

(** C07: plain file names (the caller passes [os.path.basename]) *)
Theorem C07_table : forall stem e r,
  ~ In "/"%char stem -> (exists c, In c stem /\ c <> "."%char) -> In (e, r) ext_table ->
  dispatch (stem ++ "."%char :: lit e) = Ok r.
Proof. exact dispatch_table. Qed.
Print Assumptions C07_table.

Theorem C07_gz : forall stem,
  ~ In "/"%char stem -> (exists c, In c stem /\ c <> "."%char) ->
  (nii_inside (stem ++ lit ".gz") -> dispatch (stem ++ lit ".gz") = Ok RdNifti) /\
  (~ nii_inside (stem ++ lit ".gz") -> dispatch (stem ++ lit ".gz") = Err ValueError).
Proof. exact dispatch_gz. Qed.
Print Assumptions C07_gz.

Theorem C07_other_extension : forall stem e,
  ~ In "."%char e -> ~ In "/"%char e -> ~ In "/"%char stem ->
  (exists c, In c stem /\ c <> "."%char) ->
  (forall n r, In (n, r) ext_table -> e <> lit n) -> e <> lit "gz" ->
  dispatch (stem ++ "."%char :: e) = Err ValueError.
Proof. exact dispatch_unknown. Qed.
Print Assumptions C07_other_extension.

Theorem C07_no_extension : forall name,
  (forall stem e, name = stem ++ "."%char :: e -> ~ In "."%char e ->
     forall c, In c stem -> c = "."%char) ->
  ~ In "/"%char name -> dispatch name = Err ValueError.
Proof. exact dispatch_no_ext. Qed.
Print Assumptions C07_no_extension.

(** Only NIfTI names reach the NIfTI reader: false. *)
Theorem C07_nifti_only_refuted :
  exists name, dispatch name = Ok RdNifti /\
    ~ (exists stem, name = stem ++ lit ".nii") /\ ~ (exists stem, name = stem ++ lit ".nii.gz").
Proof.
  exists (lit "xnii_notes.gz"). split; [reflexivity|]. split; intros [stem E];
    apply (f_equal (@rev _)) in E; rewrite rev_app_distr in E; discriminate E.
Qed.
Print Assumptions C07_nifti_only_refuted.

Example C07_example :
  dispatch (lit "a.b.raw") = Ok RdRaw /\ dispatch (lit "a.RAW") = Err ValueError /\
  dispatch (lit "a.tif") = Err ValueError /\ dispatch (lit "a.nii.gz") = Ok RdNifti /\
  dispatch (lit "a.gz") = Err ValueError /\ dispatch (lit ".raw") = Err ValueError.
Proof. repeat split. Qed.
