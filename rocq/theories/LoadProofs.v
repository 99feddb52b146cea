(** Proofs about volume loading. *)
From Verif Require Import Base NdArray LoadModel.

(** ** Voxel order *)

Lemma bind_ok {A B} (m : res A) (k : A -> res B) b :
  bind m k = Ok b -> exists a, m = Ok a /\ k a = Ok b.
Proof. destruct m; simpl; [eauto|discriminate]. Qed.

Ltac inb3 :=
  repeat match goal with
  | H : inb (_ :: _) _ = true |- _ => simpl in H
  | H : inb [] ?l = true |- _ => destruct l; [clear H|discriminate H]
  | H : (match ?idx with [] => _ | _ => _ end) = true |- _ => destruct idx; [discriminate H|]
  | H : _ && _ = true |- _ => apply andb_true_iff in H; destruct H
  | H : (_ <? _) = true |- _ => apply Nat.ltb_lt in H
  end.

Ltac inb_goal := simpl; repeat (apply andb_true_iff; split); auto; apply Nat.ltb_lt; lia.

(** *** Flips and rotations of arrays of any dimension *)

Lemma length_upd {A} (l : list A) n v : length (upd l n v) = length l.
Proof. revert n; induction l; intros [|n]; simpl; auto. Qed.

Lemma nth_upd {A} (l : list A) n v k d :
  nth k (upd l n v) d = if (k =? n) && (n <? length l) then v else nth k l d.
Proof.
  revert n k; induction l as [|x l IH]; intros [|n] [|k]; simpl; try reflexivity.
  - rewrite andb_false_r; reflexivity.
  - rewrite IH. reflexivity.
Qed.

Lemma inb_nth s idx :
  inb s idx = true <-> length idx = length s /\ forall k, k < length s -> nth k idx 0 < nth k s 0.
Proof.
  revert idx; induction s as [|d s IH]; intros [|i idx]; simpl; split; intros H; try discriminate.
  - split; [reflexivity|lia].
  - reflexivity.
  - destruct H; discriminate.
  - destruct H; discriminate.
  - apply andb_true_iff in H as [Hi H]. apply Nat.ltb_lt in Hi. apply IH in H as [Hl Hn].
    split; [congruence|]. intros [|k] Hk; [exact Hi|]. apply Hn. lia.
  - destruct H as [Hl Hn]. apply andb_true_iff. split.
    + apply Nat.ltb_lt. apply (Hn 0). lia.
    + apply IH. split; [congruence|]. intros k Hk. apply (Hn (S k)). lia.
Qed.

Lemma inb_upd s idx n v :
  inb s idx = true -> v < nth n s 0 -> inb s (upd idx n v) = true.
Proof.
  intros H Hv. apply inb_nth in H as [Hl Hn]. apply inb_nth.
  rewrite length_upd. split; [exact Hl|]. intros k Hk. rewrite nth_upd.
  destruct (k =? n) eqn:E; simpl; [|apply Hn; exact Hk].
  apply Nat.eqb_eq in E; subst. rewrite Hl, (proj2 (Nat.ltb_lt _ _)) by exact Hk. exact Hv.
Qed.

Lemma length_swap_at l i j : length (swap_at l i j) = length l.
Proof. unfold swap_at. rewrite !length_upd. reflexivity. Qed.

Lemma nth_swap_at l i j k :
  i < length l -> j < length l ->
  nth k (swap_at l i j) 0 =
  if k =? j then nth i l 0 else if k =? i then nth j l 0 else nth k l 0.
Proof.
  intros Hi Hj. unfold swap_at. rewrite nth_upd, length_upd.
  rewrite (proj2 (Nat.ltb_lt _ _) Hj), andb_true_r.
  destruct (k =? j); [reflexivity|]. rewrite nth_upd.
  rewrite (proj2 (Nat.ltb_lt _ _) Hi), andb_true_r. reflexivity.
Qed.

Lemma inb_swap s idx i j :
  i < length s -> j < length s -> inb (swap_at s i j) idx = true ->
  inb s (swap_at idx i j) = true.
Proof.
  intros Hi Hj H. apply inb_nth in H as [Hl Hn]. rewrite length_swap_at in Hl, Hn.
  apply inb_nth. rewrite length_swap_at. split; [exact Hl|]. intros k Hk.
  rewrite nth_swap_at by lia.
  destruct (k =? j) eqn:Ej; [|destruct (k =? i) eqn:Ei].
  - apply Nat.eqb_eq in Ej; subst. specialize (Hn i Hi). rewrite nth_swap_at in Hn by lia.
    destruct (i =? j) eqn:E; [apply Nat.eqb_eq in E; subst; exact Hn|].
    rewrite Nat.eqb_refl in Hn. exact Hn.
  - apply Nat.eqb_eq in Ei; subst. specialize (Hn j Hj). rewrite nth_swap_at in Hn by lia.
    rewrite Nat.eqb_refl in Hn. exact Hn.
  - specialize (Hn k Hk). rewrite nth_swap_at in Hn by lia. rewrite Ej, Ei in Hn. exact Hn.
Qed.

Lemma inb_flip s idx ax :
  ax < length s -> inb s idx = true ->
  inb s (upd idx ax (nth ax s 0 - 1 - nth ax idx 0)) = true.
Proof.
  intros Hax H. apply inb_upd; [exact H|]. apply inb_nth in H as [_ Hn].
  specialize (Hn ax Hax). lia.
Qed.

Lemma flip_ax_ok {A} (a : arr A) ax :
  wf a -> ax < length (shp a) ->
  exists b, flip_ax a ax = Ok b /\ shp b = shp a /\ wf b /\
    forall idx, inb (shp a) idx = true ->
      get b idx = get a (upd idx ax (nth ax (shp a) 0 - 1 - nth ax idx 0)).
Proof.
  intros W H. unfold flip_ax. rewrite (proj2 (Nat.leb_gt _ _)) by exact H.
  destruct (reindex_ok a (shp a)
    (fun idx => upd idx ax (nth ax (shp a) 0 - 1 - nth ax idx 0)) W) as [b Hb].
  { intros idx Hin. apply inb_flip; assumption. }
  exists b. split; [exact Hb|]. apply reindex_spec in Hb. tauto.
Qed.

Lemma swap_axes_ok {A} (a : arr A) i j :
  wf a -> i < length (shp a) -> j < length (shp a) ->
  exists b, swap_axes a i j = Ok b /\ shp b = swap_at (shp a) i j /\ wf b /\
    forall idx, inb (swap_at (shp a) i j) idx = true -> get b idx = get a (swap_at idx i j).
Proof.
  intros W Hi Hj. unfold swap_axes.
  destruct (reindex_ok a (swap_at (shp a) i j) (fun idx => swap_at idx i j) W) as [b Hb].
  { intros idx Hin. apply inb_swap; assumption. }
  exists b. split; [exact Hb|]. apply reindex_spec in Hb. tauto.
Qed.

Lemma rot90_ok {A} (a : arr A) i j :
  wf a -> i < length (shp a) -> j < length (shp a) -> i <> j ->
  exists b, rot90 a i j = Ok b /\ shp b = swap_at (shp a) i j /\ wf b /\
    forall idx, inb (swap_at (shp a) i j) idx = true ->
      get b idx = get a (upd (swap_at idx i j) j (nth j (shp a) 0 - 1 - nth i idx 0)).
Proof.
  intros W Hi Hj Hne. unfold rot90. rewrite !(proj2 (Nat.leb_gt _ _)) by assumption. simpl.
  destruct (flip_ax_ok a j W Hj) as (f & Hf & Sf & Wf & Gf). rewrite Hf. simpl.
  rewrite <- Sf in Hi, Hj.
  destruct (swap_axes_ok f i j Wf Hi Hj) as (b & Hb & Sb & Wb & Gb).
  exists b. split; [exact Hb|]. rewrite Sf in Sb, Gb. split; [exact Sb|]. split; [exact Wb|].
  intros idx Hin. rewrite Gb by exact Hin.
  rewrite Sf in Hi, Hj. pose proof (inb_swap _ _ _ _ Hi Hj Hin) as Hin'.
  rewrite Gf by exact Hin'. f_equal. f_equal. f_equal.
  apply inb_length in Hin. rewrite length_swap_at in Hin.
  rewrite nth_swap_at by lia. rewrite Nat.eqb_refl. reflexivity.
Qed.

Lemma prodZ_nat3 nx ny nz :
  prodZ [Z.of_nat nx; Z.of_nat ny; Z.of_nat nz] = Z.of_nat (nx * ny * nz).
Proof. unfold prodZ; simpl. lia. Qed.

Lemma load_items_3d {A} (items : list A) nx ny nz :
  length items = nx * ny * nz ->
  exists a, load_items items [Z.of_nat nx; Z.of_nat ny; Z.of_nat nz] = Ok a /\
    shp a = [nx; ny; nz] /\ wf a /\
    (forall x y z, x < nx -> y < ny -> z < nz ->
       get a [x; y; z] = nth_error items (x + nx * (y + ny * z))).
Proof.
  intros Hlen. unfold load_items. rewrite prodZ_nat3.
  rewrite (proj2 (Z.eqb_eq _ _)) by lia. simpl negb. cbv iota.
  unfold reshape.
  assert (E : (forallb (fun d => 0 <=? d)%Z (rev [Z.of_nat nx; Z.of_nat ny; Z.of_nat nz]) &&
     (prodZ (rev [Z.of_nat nx; Z.of_nat ny; Z.of_nat nz]) =? Z.of_nat (length items))%Z) = true).
  { unfold prodZ; simpl. rewrite !andb_true_iff, !Z.leb_le, Z.eqb_eq. repeat split; try lia. }
  rewrite E. clear E. simpl bind. simpl map. rewrite !Nat2Z.id.
  set (a0 := Arr [nz; ny; nx] items).
  assert (W0 : wf a0) by (unfold wf, a0; simpl; lia).
  assert (G0 : forall x y z, x < nx -> y < ny -> z < nz ->
            get a0 [z; y; x] = nth_error items (x + nx * (y + ny * z))).
  { intros x y z Hx Hy Hz. unfold get, a0; simpl.
    rewrite !(proj2 (Nat.ltb_lt _ _)) by lia. simpl. f_equal. nia. }
  destruct (rot90_ok a0 0 2 W0) as (r & Hr & Sr & Wr & Gr); [simpl; lia..|discriminate|].
  rewrite Hr. simpl bind.
  destruct (flip_ax_ok r 0 Wr) as (a & Ha & Sa & Wa & Ga); [rewrite Sr; simpl; lia|].
  rewrite Sr in Sa, Ga. simpl in Sa, Ga.
  exists a. split; [exact Ha|]. split; [exact Sa|]. split; [exact Wa|].
  intros x y z Hx Hy Hz.
  rewrite Ga by inb_goal. rewrite Gr by inb_goal. unfold swap_at; simpl.
  rewrite G0 by lia. f_equal. lia.
Qed.

(** ** Size check *)

Lemma load_items_mismatch {A} (items : list A) dims :
  Z.of_nat (length items) <> prodZ dims -> load_items items dims = Err ValueError.
Proof.
  intros H. unfold load_items. rewrite (proj2 (Z.eqb_neq _ _)) by exact H. reflexivity.
Qed.

Lemma load_items_iff {A} (items : list A) nx ny nz :
  (exists a, load_items items [Z.of_nat nx; Z.of_nat ny; Z.of_nat nz] = Ok a)
  <-> length items = nx * ny * nz.
Proof.
  split.
  - intros [a Ha]. destruct (Nat.eq_dec (length items) (nx * ny * nz)) as [E|E]; [exact E|].
    rewrite load_items_mismatch in Ha; [discriminate|]. rewrite prodZ_nat3. lia.
  - intros H. destruct (load_items_3d items nx ny nz H) as (a & Ha & _). eauto.
Qed.

Lemma load_items_short_dims {A} (items : list A) dims :
  length dims < 3 -> load_items items dims = Err ValueError.
Proof.
  intros H. unfold load_items. destruct (negb _); [reflexivity|].
  unfold reshape. destruct (_ && _); [|reflexivity]. simpl. unfold rot90. simpl.
  rewrite map_length, rev_length.
  rewrite (proj2 (Nat.leb_le (length dims) 2)) by lia. rewrite orb_true_r. reflexivity.
Qed.

Lemma length_fromfile w bytes : length (fromfile w bytes) = length bytes / w.
Proof. unfold fromfile. rewrite map_length, seq_length. reflexivity. Qed.

Lemma fromfile_fragment w bytes frag :
  0 < w -> length bytes mod w = 0 -> length frag < w ->
  fromfile w (bytes ++ frag) = fromfile w bytes.
Proof.
  intros Hw Hm Hf. unfold fromfile. rewrite app_length.
  apply Nat.mod_divides in Hm as [q Hq]; [|lia].
  assert (E1 : (length bytes + length frag) / w = q).
  { symmetry. apply Nat.div_unique with (length frag); lia. }
  assert (E2 : length bytes / w = q).
  { symmetry. apply Nat.div_unique with 0; lia. }
  rewrite E1, E2. apply map_ext_in. intros i Hi. apply in_seq in Hi.
  assert (i * w + w <= length bytes) by nia.
  rewrite skipn_app, firstn_app, skipn_length.
  replace (w - (length bytes - i * w)) with 0 by lia. simpl. apply app_nil_r.
Qed.

(** ** Byte round trip *)

(** Specification: how an unsigned value is written in [w] little-endian bytes, and a
    volume with x running fastest. *)
Fixpoint encode_le (w : nat) (v : Z) : list Z :=
  match w with 0 => [] | S w' => (v mod 256)%Z :: encode_le w' (v / 256)%Z end.

Definition volume_bytes (w nx ny nz : nat) (v : nat -> nat -> nat -> Z) : list Z :=
  flat_map (fun z => flat_map (fun y => flat_map (fun x => encode_le w (v x y z))
    (seq 0 nx)) (seq 0 ny)) (seq 0 nz).

Lemma length_encode_le w v : length (encode_le w v) = w.
Proof. revert v; induction w; simpl; auto. Qed.

Lemma decode_encode_le w v :
  (0 <= v < 256 ^ Z.of_nat w)%Z -> decode_le (encode_le w v) = v.
Proof.
  revert v; induction w as [|w IH]; intros v Hv; cbn [encode_le decode_le].
  - change (256 ^ Z.of_nat 0)%Z with 1%Z in Hv. lia.
  - rewrite IH.
    + rewrite Z.add_comm. symmetry. apply Z.div_mod. lia.
    + rewrite Nat2Z.inj_succ, Z.pow_succ_r in Hv by lia.
      split; [apply Z.div_pos; lia|]. apply Z.div_lt_upper_bound; lia.
Qed.

Lemma fromfile_flat_map {B} w (enc : B -> list Z) (l : list B) :
  0 < w -> (forall b, length (enc b) = w) -> fromfile w (flat_map enc l) = map enc l.
Proof.
  intros Hw He. apply nth_error_ext. intros n.
  assert (Hlen : length (flat_map enc l) = length l * w).
  { induction l; simpl; [reflexivity|]. rewrite app_length, He, IHl. reflexivity. }
  unfold fromfile. rewrite nth_error_map, Hlen, Nat.div_mul by lia.
  destruct (Nat.lt_ge_cases n (length l)) as [Hn|Hn].
  - rewrite (nth_error_nth' _ 0) by (rewrite seq_length; exact Hn).
    rewrite seq_nth by exact Hn. simpl. clear Hlen.
    revert n Hn. induction l as [|b l IH]; intros n Hn; simpl in Hn; [lia|].
    destruct n as [|n]; simpl.
    + rewrite firstn_app, He, Nat.sub_diag, firstn_all2 by (rewrite He; lia).
      simpl. rewrite app_nil_r. reflexivity.
    + rewrite skipn_app, skipn_all2 by (rewrite He; lia). simpl.
      rewrite He. replace (w + n * w - w) with (n * w) by lia.
      apply IH. lia.
  - rewrite (proj2 (nth_error_None (seq 0 (length l)) n)) by (rewrite seq_length; lia).
    simpl. symmetry. apply nth_error_None. rewrite map_length. lia.
Qed.

Lemma flat_map_flat_map {A B C} (f : A -> list B) (g : B -> list C) l :
  flat_map g (flat_map f l) = flat_map (fun x => flat_map g (f x)) l.
Proof. induction l; simpl; [reflexivity|]. rewrite flat_map_app, IHl. reflexivity. Qed.

Lemma flat_map_map {A B C} (f : A -> B) (g : B -> list C) l :
  flat_map g (map f l) = flat_map (fun x => g (f x)) l.
Proof. induction l; simpl; [reflexivity|]. rewrite IHl. reflexivity. Qed.

Lemma volume_bytes_flat w nx ny nz v :
  volume_bytes w nx ny nz v =
  flat_map (fun t => encode_le w (v (nth 2 t 0) (nth 1 t 0) (nth 0 t 0))) (indices [nz; ny; nx]).
Proof.
  unfold volume_bytes. simpl. rewrite flat_map_flat_map. apply flat_map_ext. intros z.
  rewrite flat_map_map, flat_map_flat_map. apply flat_map_ext. intros y.
  rewrite !flat_map_map. simpl. rewrite flat_map_flat_map.
  apply flat_map_ext. intros x. simpl. rewrite app_nil_r. reflexivity.
Qed.

Lemma items_volume w nx ny nz v :
  0 < w ->
  length (fromfile w (volume_bytes w nx ny nz v)) = nx * ny * nz /\
  (forall x y z, x < nx -> y < ny -> z < nz ->
     nth_error (fromfile w (volume_bytes w nx ny nz v)) (x + nx * (y + ny * z))
     = Some (encode_le w (v x y z))).
Proof.
  intros Hw. rewrite volume_bytes_flat.
  rewrite (fromfile_flat_map w) by (auto; intros; apply length_encode_le).
  split.
  - rewrite map_length, length_indices. simpl. lia.
  - intros x y z Hx Hy Hz. rewrite nth_error_map.
    replace (x + nx * (y + ny * z)) with (ravel [nz; ny; nx] [z; y; x]) by (simpl; nia).
    rewrite nth_error_indices by inb_goal. reflexivity.
Qed.

Lemma load_binary_roundtrip d nx ny nz v :
  0 < itemsize d ->
  (forall x y z, x < nx -> y < ny -> z < nz ->
     (0 <= v x y z < 256 ^ Z.of_nat (itemsize d))%Z) ->
  exists a, load_binary (volume_bytes (itemsize d) nx ny nz v) d
              [Z.of_nat nx; Z.of_nat ny; Z.of_nat nz] = Ok a /\
    shp a = [nx; ny; nz] /\
    (forall x y z, x < nx -> y < ny -> z < nz ->
       option_map decode_le (get a [x; y; z]) = Some (v x y z)).
Proof.
  intros Hw Hv. destruct (items_volume (itemsize d) nx ny nz v Hw) as [Hl Hi].
  destruct (load_items_3d _ nx ny nz Hl) as (a & Ha & Hs & _ & Hg).
  exists a. split; [exact Ha|]. split; [exact Hs|].
  intros x y z Hx Hy Hz. rewrite Hg, Hi by assumption. simpl.
  rewrite decode_encode_le by (apply Hv; assumption). reflexivity.
Qed.

Lemma volume_bytes_inj w nx ny nz v v' :
  0 < w ->
  (forall x y z, x < nx -> y < ny -> z < nz -> (0 <= v x y z < 256 ^ Z.of_nat w)%Z) ->
  (forall x y z, x < nx -> y < ny -> z < nz -> (0 <= v' x y z < 256 ^ Z.of_nat w)%Z) ->
  volume_bytes w nx ny nz v = volume_bytes w nx ny nz v' ->
  forall x y z, x < nx -> y < ny -> z < nz -> v x y z = v' x y z.
Proof.
  intros Hw Hv Hv' E x y z Hx Hy Hz.
  destruct (items_volume w nx ny nz v Hw) as [_ H1].
  destruct (items_volume w nx ny nz v' Hw) as [_ H2].
  specialize (H1 x y z Hx Hy Hz). specialize (H2 x y z Hx Hy Hz).
  rewrite E, H2 in H1. inversion H1 as [H].
  rewrite <- (decode_encode_le w (v x y z)), <- (decode_encode_le w (v' x y z)) by auto.
  congruence.
Qed.

(** ** Regular expressions: soundness and completeness *)

(** Specification: the texts a pattern describes. *)
Fixpoint lang (r : re) (t : text) : Prop :=
  match r with
  | RChr p => exists c, p c = true /\ t = [c]
  | RSeq r1 r2 => exists t1 t2, t = t1 ++ t2 /\ lang r1 t1 /\ lang r2 t2
  | ROpt r1 => t = [] \/ lang r1 t
  | RPlus p => t <> [] /\ forallb p t = true
  end.

Lemma star_spec p s rest :
  In rest (star p s) <-> exists t, s = t ++ rest /\ forallb p t = true.
Proof.
  revert rest; induction s as [|c s IH]; intros rest; simpl.
  - split.
    + intros [<-|[]]. exists []; auto.
    + intros (t & E & _). destruct t; [simpl in E; auto|discriminate].
  - destruct (p c) eqn:Ep; simpl.
    + rewrite in_app_iff, IH. split.
      * intros [(t & -> & Ht)|[<-|[]]].
        -- exists (c :: t). simpl. rewrite Ep; auto.
        -- exists []; auto.
      * intros ([|d t] & E & Ht).
        -- simpl in E. right; left; congruence.
        -- simpl in E, Ht. inversion E; subst. apply andb_true_iff in Ht as [_ Ht].
           left; eauto.
    + split.
      * intros [<-|[]]. exists []; auto.
      * intros ([|d t] & E & Ht); [simpl in E; auto|].
        simpl in E, Ht. inversion E; subst. rewrite Ep in Ht. discriminate.
Qed.

Lemma matches_spec r s rest :
  In rest (matches r s) <-> exists t, s = t ++ rest /\ lang r t.
Proof.
  revert s rest; induction r as [p|r1 IH1 r2 IH2|r IH|p]; intros s rest; simpl.
  - destruct s as [|c s].
    + split; [intros []|]. intros (t & E & d & _ & ->). discriminate.
    + destruct (p c) eqn:Ep; simpl.
      * split.
        -- intros [<-|[]]. exists [c]; eauto.
        -- intros (t & E & d & Hd & ->). inversion E; subst. auto.
      * split; [intros []|]. intros (t & E & d & Hd & ->). inversion E; subst. congruence.
  - rewrite in_flat_map. split.
    + intros (m & Hm & Hr). apply IH1 in Hm as (t1 & -> & H1).
      apply IH2 in Hr as (t2 & -> & H2). exists (t1 ++ t2).
      split; [apply app_assoc|eauto].
    + intros (t & -> & t1 & t2 & -> & H1 & H2). exists (t2 ++ rest). split.
      * apply IH1. exists t1. rewrite app_assoc. auto.
      * apply IH2. eauto.
  - rewrite in_app_iff, IH. simpl. split.
    + intros [(t & -> & Ht)|[<-|[]]]; [exists t; auto|exists []; auto].
    + intros (t & -> & [->|Ht]); [right; left; reflexivity|left; eauto].
  - destruct s as [|c s].
    + split; [intros []|]. intros (t & E & Hn & _). destruct t; [congruence|discriminate].
    + destruct (p c) eqn:Ep.
      * rewrite star_spec. split.
        -- intros (t & -> & Ht). exists (c :: t). simpl. rewrite Ep, Ht.
           repeat split. discriminate.
        -- intros ([|d t] & E & Hn & Ht); [congruence|].
           simpl in E, Ht. inversion E; subst. apply andb_true_iff in Ht as [_ Ht]. eauto.
      * split; [intros []|]. intros ([|d t] & E & Hn & Ht); [congruence|].
        simpl in E, Ht. inversion E; subst. rewrite Ep in Ht. discriminate.
Qed.

(** The search fails exactly when no part of the text is in the language. *)
Lemma search_none r s :
  search r s = None <-> forall a t b, s = a ++ t ++ b -> ~ lang r t.
Proof.
  induction s as [|c s IH]; simpl.
  - destruct (matches r []) as [|m ms] eqn:E.
    + split; [|reflexivity]. intros _ a t b Et Hl.
      symmetry in Et. apply app_eq_nil in Et as [-> Et]. apply app_eq_nil in Et as [-> ->].
      assert (H : In [] (matches r [])) by (apply matches_spec; exists []; auto).
      rewrite E in H. inversion H.
    + split; [discriminate|]. intros H. exfalso.
      assert (Hm : In m (matches r [])) by (rewrite E; left; reflexivity).
      apply matches_spec in Hm as (t & Et & Hl). apply (H [] t m Et Hl).
  - destruct (matches r (c :: s)) as [|m ms] eqn:E.
    + rewrite IH. split.
      * intros H a t b Et Hl. destruct a as [|d a].
        -- assert (Hm : In b (matches r (c :: s))) by (apply matches_spec; exists t; auto).
           rewrite E in Hm. inversion Hm.
        -- inversion Et; subst. apply (H a t b eq_refl Hl).
      * intros H a t b -> Hl. apply (H (c :: a) t b eq_refl Hl).
    + split; [discriminate|]. intros H. exfalso.
      assert (Hm : In m (matches r (c :: s))) by (rewrite E; left; reflexivity).
      apply matches_spec in Hm as (t & Et & Hl). apply (H [] t m Et Hl).
Qed.

Lemma search_some r s t :
  search r s = Some t -> exists a b, s = a ++ t ++ b /\ lang r t.
Proof.
  induction s as [|c s IH]; simpl.
  - destruct (matches r []) as [|m ms] eqn:E; [discriminate|]. intros H.
    inversion H; subst t; clear H.
    assert (Hm : In m (matches r [])) by (rewrite E; left; reflexivity).
    apply matches_spec in Hm as (t & Et & Hl). symmetry in Et.
    apply app_eq_nil in Et as [-> ->]. exists [], []. auto.
  - destruct (matches r (c :: s)) as [|m ms] eqn:E.
    + intros H. destruct (IH H) as (a & b & -> & Hl). exists (c :: a), b. auto.
    + intros H.
      assert (Hm : In m (matches r (c :: s))) by (rewrite E; left; reflexivity).
      apply matches_spec in Hm as (t' & Et & Hl).
      exists [], m. simpl.
      assert (t = t').
      { inversion H; subst t.
        change (match length m with 0 => S (length s) | S l => length s - l end)
          with (length (c :: s) - length m).
        rewrite Et, app_length. replace (length t' + length m - length m) with (length t' + 0)
          by lia. rewrite firstn_app_2. simpl. apply app_nil_r. }
      subst t'. auto.
Qed.

(** Skipping starts without a match. *)
Lemma search_skip r p s :
  (forall p1 p2, p = p1 ++ p2 -> p2 <> [] -> matches r (p2 ++ s) = []) ->
  search r (p ++ s) = search r s.
Proof.
  induction p as [|c p IH]; intros H; [reflexivity|].
  pose proof (H [] (c :: p) eq_refl ltac:(discriminate)) as E.
  cbn [app] in E. cbn [app search]. rewrite E.
  apply IH. intros p1 p2 -> Hn. apply (H (c :: p1) p2 eq_refl Hn).
Qed.

Lemma search_here r s rest ms t :
  matches r s = rest :: ms -> s = t ++ rest -> search r s = Some t.
Proof.
  intros E ->. destruct (t ++ rest) as [|c s] eqn:Es.
  - simpl. rewrite E. apply app_eq_nil in Es as [-> ->]. reflexivity.
  - simpl. rewrite E. rewrite <- Es. rewrite <- Es in E.
    replace (match length rest with 0 => S (length s) | S l => length s - l end)
      with (length t + 0).
    2:{ apply (f_equal (@length _)) in Es. rewrite app_length in Es. simpl in Es.
        destruct (length rest); lia. }
    rewrite firstn_app_2. simpl. rewrite app_nil_r. reflexivity.
Qed.

(** First alternative of a greedy run: everything up to the first other character. *)
Definition not_start (p : ascii -> bool) (s : text) : Prop :=
  match s with [] => True | c :: _ => p c = false end.

Lemma star_first p t s :
  forallb p t = true -> not_start p s ->
  exists ms, star p (t ++ s) = s :: ms /\
             (forall m, In m ms -> exists c m', m = c :: m' /\ p c = true).
Proof.
  intros Ht Hs. induction t as [|c t IH]; simpl.
  - destruct s as [|c s]; simpl; [exists []; split; [reflexivity|intros m []]|].
    simpl in Hs. rewrite Hs. exists []. split; [reflexivity|intros m []].
  - simpl in Ht. apply andb_true_iff in Ht as [Hc Ht]. rewrite Hc.
    destruct (IH Ht) as (ms & -> & Hm). exists (ms ++ [c :: t ++ s]). split; [reflexivity|].
    intros m Hin. apply in_app_iff in Hin as [Hin|[<-|[]]]; eauto.
Qed.

Lemma plus_first p t s :
  t <> [] -> forallb p t = true -> not_start p s ->
  exists ms, matches (RPlus p) (t ++ s) = s :: ms /\
             (forall m, In m ms -> exists c m', m = c :: m' /\ p c = true).
Proof.
  intros Hn Ht Hs. destruct t as [|c t]; [congruence|]. simpl in Ht |- *.
  apply andb_true_iff in Ht as [Hc Ht]. rewrite Hc. apply star_first; assumption.
Qed.

Lemma flat_map_nil {A B} (f : A -> list B) l :
  (forall x, In x l -> f x = []) -> flat_map f l = [].
Proof.
  induction l as [|x l IH]; intros H; simpl; [reflexivity|].
  rewrite (H x (or_introl eq_refl)). apply IH. intros y Hy; apply H; right; exact Hy.
Qed.

(** ** Dimensions from the file name *)

Definition digits (t : text) : Prop := t <> [] /\ forallb is_digit t = true.
Definition no_digit_start (s : text) : Prop := not_start is_digit s.

(** No digit of [p] is directly followed by a character of [l], and [p] does not end in a
    digit. *)
Fixpoint clean_before (l : ascii -> bool) (p : text) : Prop :=
  match p with
  | [] => True
  | c :: p' =>
      (is_digit c = true -> match p' with [] => False | d :: _ => l d = false end)
      /\ clean_before l p'
  end.

Lemma clean_digit_free l p : forallb (fun c => negb (is_digit c)) p = true -> clean_before l p.
Proof.
  induction p as [|c p IH]; simpl; [auto|]. intros H. apply andb_true_iff in H as [Hc H].
  split; [|auto]. intros Hd. rewrite Hd in Hc. discriminate.
Qed.

Lemma clean_before_suffix l p1 p2 : clean_before l (p1 ++ p2) -> clean_before l p2.
Proof. induction p1 as [|c p1 IH]; simpl; [auto|]. intros [_ H]; auto. Qed.

(** All remainders of a digit run starting inside a clean prefix begin with a digit or a
    character outside [l]. *)
Lemma star_clean l p s m :
  p <> [] -> clean_before l p -> not_start l p -> In m (star is_digit (p ++ s)) ->
  exists d m', m = d :: m' /\ (is_digit d = true \/ l d = false).
Proof.
  induction p as [|c p IH]; intros Hn Hc Hl Hin; [congruence|]. simpl in Hin.
  destruct Hc as [Hd Hc].
  destruct (is_digit c) eqn:Ec.
  - specialize (Hd eq_refl). apply in_app_iff in Hin as [Hin|[<-|[]]]; [|eauto].
    destruct p as [|d p]; [contradiction|]. apply IH; auto. discriminate.
  - destruct Hin as [<-|[]]. exists c, (p ++ s). split; [reflexivity|]. right. exact Hl.
Qed.

Lemma plus_clean l p s m :
  p <> [] -> clean_before l p -> In m (matches (RPlus is_digit) (p ++ s)) ->
  exists d m', m = d :: m' /\ (is_digit d = true \/ l d = false).
Proof.
  destruct p as [|c p]; [congruence|]. intros _ [Hd Hc] Hin. simpl in Hin.
  destruct (is_digit c) eqn:Ec; [|inversion Hin]. specialize (Hd eq_refl).
  destruct p as [|d p]; [contradiction|].
  apply (star_clean l (d :: p) s); auto. discriminate.
Qed.

Lemma is_digit_not_x : forall d, is_digit d = true -> is_char "x" d = false.
Proof.
  intros d H. unfold is_char. apply Ascii.eqb_neq. intros <-. discriminate H.
Qed.

Lemma dim_search p dx dy dz s :
  clean_before (is_char "x") p -> digits dx -> digits dy -> digits dz -> no_digit_start s ->
  search dim_re (p ++ dx ++ "x"%char :: dy ++ "x"%char :: dz ++ s)
  = Some (dx ++ "x"%char :: dy ++ "x"%char :: dz).
Proof.
  intros Hp [Nx Dx] [Ny Dy] [Nz Dz] Hs.
  rewrite search_skip.
  - destruct (plus_first is_digit dx ("x"%char :: dy ++ "x"%char :: dz ++ s) Nx Dx eq_refl)
      as (m1 & E1 & _).
    destruct (plus_first is_digit dy ("x"%char :: dz ++ s) Ny Dy eq_refl) as (m2 & E2 & _).
    destruct (plus_first is_digit dz s Nz Dz Hs) as (m3 & E3 & _).
    eapply search_here with (rest := s).
    + unfold dim_re. cbn [matches] in *. rewrite E1. cbn [flat_map]. cbn.
      cbn in E2. rewrite E2. cbn [flat_map]. cbn. cbn in E3. rewrite E3.
      cbn [app]. reflexivity.
    + rewrite <- app_assoc. cbn. rewrite <- app_assoc. reflexivity.
  - intros p1 p2 -> Hn. apply clean_before_suffix in Hp.
    unfold dim_re. cbn [matches]. apply flat_map_nil. intros m Hm.
    destruct (plus_clean (is_char "x") p2 _ m Hn Hp Hm) as (d & m' & -> & [H|H]).
    + unfold rlit. cbn [matches]. rewrite is_digit_not_x by exact H. reflexivity.
    + unfold rlit. cbn [matches]. rewrite H. reflexivity.
Qed.

Lemma split_chr_free c t :
  forallb (fun d => negb (Ascii.eqb d c)) t = true -> split_chr c t = [t].
Proof.
  induction t as [|d t IH]; simpl; [reflexivity|]. intros H.
  apply andb_true_iff in H as [Hd H]. apply negb_true_iff in Hd. rewrite Hd, (IH H).
  reflexivity.
Qed.

Lemma split_chr_app c t s :
  forallb (fun d => negb (Ascii.eqb d c)) t = true ->
  split_chr c (t ++ c :: s) = t :: split_chr c s.
Proof.
  induction t as [|d t IH]; simpl; intros H.
  - rewrite Ascii.eqb_refl. reflexivity.
  - apply andb_true_iff in H as [Hd H]. apply negb_true_iff in Hd. rewrite Hd, (IH H).
    reflexivity.
Qed.

Lemma digits_no_x t : forallb is_digit t = true ->
  forallb (fun d => negb (Ascii.eqb d "x")) t = true.
Proof.
  intros H. apply forallb_forall. intros d Hd. rewrite forallb_forall in H.
  specialize (H d Hd). apply negb_true_iff. apply Ascii.eqb_neq. intros ->. discriminate H.
Qed.

Lemma py_int_digits t : digits t -> py_int t = Ok (dec_val t).
Proof.
  intros [Hn Hd]. destruct t as [|c t]; [congruence|].
  assert (Hc : is_digit c = true) by (simpl in Hd; apply andb_true_iff in Hd; tauto).
  unfold py_int.
  destruct c as [[] [] [] [] [] [] [] []]; try discriminate Hc; cbv beta iota;
    rewrite Hd; reflexivity.
Qed.

Lemma raw_dims_ok p dx dy dz s :
  clean_before (is_char "x") p -> digits dx -> digits dy -> digits dz -> no_digit_start s ->
  raw_dims (p ++ dx ++ "x"%char :: dy ++ "x"%char :: dz ++ s)
  = Ok [dec_val dx; dec_val dy; dec_val dz].
Proof.
  intros Hp Hx Hy Hz Hs. unfold raw_dims. rewrite dim_search by assumption. simpl.
  rewrite split_chr_app by (apply digits_no_x, Hx).
  rewrite split_chr_app by (apply digits_no_x, Hy).
  rewrite split_chr_free by (apply digits_no_x, Hz). simpl.
  rewrite !py_int_digits by assumption. reflexivity.
Qed.

(** Specification: decimal notation of a number. *)
Fixpoint dec_text_fuel (fuel : nat) (n : nat) : text :=
  match fuel with
  | 0 => []
  | S f => (if n <? 10 then [] else dec_text_fuel f (n / 10))
           ++ [ascii_of_nat (48 + n mod 10)]
  end.
Definition dec_text (n : nat) : text := dec_text_fuel (S n) n.

Lemma digit_char k : k < 10 -> is_digit (ascii_of_nat (48 + k)) = true /\
  digit_val (ascii_of_nat (48 + k)) = Z.of_nat k.
Proof.
  intros H. unfold is_digit, digit_val. rewrite nat_ascii_embedding by lia.
  split; [|lia]. apply andb_true_iff. split; apply Nat.leb_le; lia.
Qed.

Lemma dec_val_app a b : dec_val (a ++ [b]) = (dec_val a * 10 + digit_val b)%Z.
Proof. unfold dec_val. rewrite fold_left_app. reflexivity. Qed.

Lemma dec_text_fuel_ok f n :
  n < f -> digits (dec_text_fuel f n) /\ dec_val (dec_text_fuel f n) = Z.of_nat n.
Proof.
  revert n; induction f as [|f IH]; intros n Hn; [lia|]. cbn [dec_text_fuel].
  assert (Hm : n mod 10 < 10) by (apply Nat.mod_upper_bound; lia).
  destruct (digit_char (n mod 10) Hm) as [D V].
  set (c := ascii_of_nat (48 + n mod 10)) in *.
  destruct (n <? 10) eqn:E.
  - apply Nat.ltb_lt in E. split; [split; [discriminate|]|].
    + cbn [app forallb]. rewrite D. reflexivity.
    + rewrite dec_val_app, V. change (dec_val []) with 0%Z. rewrite Nat.mod_small by lia. lia.
  - apply Nat.ltb_ge in E.
    assert (Hd : n / 10 < f).
    { pose proof (Nat.div_lt n 10). lia. }
    destruct (IH _ Hd) as [[Hn1 Hd1] Hv]. split; [split|].
    + destruct (dec_text_fuel f (n / 10)); discriminate.
    + rewrite forallb_app, Hd1. cbn [forallb]. rewrite D. reflexivity.
    + rewrite dec_val_app, Hv, V. rewrite (Nat.div_mod n 10) at 3 by lia. lia.
Qed.

Lemma dec_text_digits n : digits (dec_text n).
Proof. apply dec_text_fuel_ok. lia. Qed.
Lemma dec_text_val n : dec_val (dec_text n) = Z.of_nat n.
Proof. apply dec_text_fuel_ok. lia. Qed.

(** ** Bit depth *)

Definition depth_follow (c : ascii) : bool := any_of (lit "fub") c.

Definition opt_s (s : text) : text :=
  match s with "s"%char :: _ => lit "s" | _ => [] end.

Lemma is_digit_cases c : is_digit c = true ->
  In c (lit "0123456789").
Proof.
  destruct c as [[] [] [] [] [] [] [] []]; intros H; try discriminate H; simpl; tauto.
Qed.

Lemma digit_not_fub d : is_digit d = true -> any_of (lit "fu") d = false /\ is_char "b" d = false.
Proof. intros H. apply is_digit_cases in H. simpl in H. intuition (subst; reflexivity). Qed.

(** Once the number is read: what the rest of the pattern finds. *)
Definition depth_tail : re :=
  RSeq (ROpt (RChr (any_of (lit "fu"))))
    (RSeq (rlit "b") (RSeq (rlit "i") (RSeq (rlit "t") (ROpt (rlit "s"))))).

Lemma depth_tail_cons d m :
  any_of (lit "fu") d = false -> is_char "b" d = false -> matches depth_tail (d :: m) = [].
Proof.
  intros H1 H2. unfold depth_tail, rlit. cbn [matches]. rewrite H1.
  cbn [app flat_map]. rewrite H2. reflexivity.
Qed.

Lemma depth_tail_digit d m : is_digit d = true -> matches depth_tail (d :: m) = [].
Proof. intros H. destruct (digit_not_fub d H) as [H1 H2]. apply depth_tail_cons; assumption. Qed.

Lemma depth_tail_other d m : depth_follow d = false -> matches depth_tail (d :: m) = [].
Proof.
  intros H. unfold depth_follow, any_of in H. simpl in H.
  apply orb_false_iff in H as [H1 H]. apply orb_false_iff in H as [H2 H].
  apply orb_false_iff in H as [H3 _].
  apply depth_tail_cons.
  - unfold any_of. simpl. rewrite H1, H2. reflexivity.
  - unfold is_char. rewrite Ascii.eqb_sym. exact H3.
Qed.

Lemma depth_tail_nil : matches depth_tail [] = [].
Proof. reflexivity. Qed.

Lemma depth_matches s :
  matches depth_re s =
  match s with
  | c :: s1 => if is_digit c then
      match s1 with
      | d :: s2 => if is_digit d then matches depth_tail s2 ++ matches depth_tail s1
                   else matches depth_tail s1
      | [] => []
      end else []
  | [] => []
  end.
Proof.
  destruct s as [|c [|d s2]]; [reflexivity| |].
  - unfold depth_re. cbn [matches]. destruct (is_digit c); reflexivity.
  - unfold depth_re. cbn [matches]. destruct (is_digit c); [|reflexivity].
    cbn [flat_map app]. rewrite app_nil_r. destruct (is_digit d).
    + cbn [flat_map app]. rewrite app_nil_r. reflexivity.
    + cbn [flat_map app]. rewrite app_nil_r. reflexivity.
Qed.

Lemma depth_clean p s :
  p <> [] -> clean_before depth_follow p -> matches depth_re (p ++ s) = [].
Proof.
  intros Hn Hp. rewrite depth_matches. destruct p as [|c p]; [congruence|].
  cbn [app]. destruct Hp as [Hc Hp]. destruct (is_digit c) eqn:Ec; [|reflexivity].
  specialize (Hc eq_refl). destruct p as [|d p]; [contradiction|]. cbn [app].
  destruct (is_digit d) eqn:Ed.
  - destruct Hp as [Hd Hp]. specialize (Hd Ed). destruct p as [|e p]; [contradiction|].
    cbn [app]. rewrite depth_tail_digit with (d := d) by exact Ed.
    destruct (is_digit e) eqn:Ee.
    + rewrite depth_tail_digit by exact Ee. reflexivity.
    + rewrite depth_tail_other by exact Hd. reflexivity.
  - apply depth_tail_other. exact Hc.
Qed.

Inductive kind := KNone | KF | KU.
Definition kind_text (k : kind) : text :=
  match k with KNone => [] | KF => lit "f" | KU => lit "u" end.

(** The last two characters of a digit string. *)
Definition last2 (t : text) : text := skipn (length t - 2) t.

Lemma depth_tail_ok k s :
  exists ms, matches depth_tail (kind_text k ++ lit "bit" ++ s)
             = skipn (length (opt_s s)) s :: ms.
Proof.
  destruct k; destruct s as [|c s].
  all: try (eexists; reflexivity).
  all: unfold depth_tail; cbn; unfold is_char;
    destruct c as [[] [] [] [] [] [] [] []]; cbn; eexists; reflexivity.
Qed.

Lemma depth_two a b k s :
  is_digit a = true -> is_digit b = true ->
  search depth_re (a :: b :: kind_text k ++ lit "bit" ++ s)
  = Some (a :: b :: kind_text k ++ lit "bit" ++ opt_s s).
Proof.
  intros Ha Hb. destruct (depth_tail_ok k s) as [ms E].
  eapply search_here with (rest := skipn (length (opt_s s)) s).
  - rewrite depth_matches, Ha, Hb, E. cbn [app]. reflexivity.
  - cbn [app]. rewrite <- !app_assoc. do 4 f_equal.
    destruct s as [|c s]; [reflexivity|].
    destruct c as [[] [] [] [] [] [] [] []]; reflexivity.
Qed.

Lemma depth_one a k s :
  is_digit a = true ->
  search depth_re (a :: kind_text k ++ lit "bit" ++ s)
  = Some (a :: kind_text k ++ lit "bit" ++ opt_s s).
Proof.
  intros Ha. destruct (depth_tail_ok k s) as [ms E].
  eapply search_here with (rest := skipn (length (opt_s s)) s).
  - rewrite depth_matches, Ha.
    destruct (kind_text k ++ lit "bit" ++ s) as [|d r] eqn:Ed; [destruct k; discriminate|].
    assert (Hd : is_digit d = false) by (destruct k; inversion Ed; reflexivity).
    rewrite Hd, E. reflexivity.
  - cbn [app]. rewrite <- !app_assoc. do 3 f_equal.
    destruct s as [|c s]; [reflexivity|].
    destruct c as [[] [] [] [] [] [] [] []]; reflexivity.
Qed.

Lemma depth_many ds k s :
  digits ds ->
  search depth_re (ds ++ kind_text k ++ lit "bit" ++ s)
  = Some (last2 ds ++ kind_text k ++ lit "bit" ++ opt_s s).
Proof.
  induction ds as [|a ds IH]; intros [Hn Hd]; [congruence|].
  simpl in Hd. apply andb_true_iff in Hd as [Ha Hd].
  destruct ds as [|b ds].
  - apply depth_one. exact Ha.
  - pose proof Hd as Hd'. simpl in Hd'. apply andb_true_iff in Hd' as [Hb Hd'].
    destruct ds as [|c ds].
    + apply depth_two; assumption.
    + pose proof Hd' as Hd''. simpl in Hd''. apply andb_true_iff in Hd'' as [Hc _].
      assert (Em : matches depth_re ((a :: b :: c :: ds) ++ kind_text k ++ lit "bit" ++ s) = []).
      { rewrite depth_matches. cbn [app]. rewrite Ha, Hb.
        rewrite depth_tail_digit by exact Hc. rewrite depth_tail_digit by exact Hb.
        reflexivity. }
      change ((a :: b :: c :: ds) ++ kind_text k ++ lit "bit" ++ s)
        with ([a] ++ ((b :: c :: ds) ++ kind_text k ++ lit "bit" ++ s)).
      rewrite search_skip.
      * rewrite IH by (split; [discriminate|exact Hd]).
        unfold last2. replace (length (a :: b :: c :: ds) - 2) with (S (length (b :: c :: ds) - 2))
          by (simpl; lia). reflexivity.
      * intros p1 p2 E Hn2. destruct p1 as [|x p1].
        -- simpl in E. subst p2. exact Em.
        -- inversion E as [[E1 E2]]. symmetry in E2. apply app_eq_nil in E2 as [-> ->].
           congruence.
Qed.

Lemma depth_search p ds k s :
  clean_before depth_follow p -> digits ds ->
  search depth_re (p ++ ds ++ kind_text k ++ lit "bit" ++ s)
  = Some (last2 ds ++ kind_text k ++ lit "bit" ++ opt_s s).
Proof.
  intros Hp Hd. rewrite search_skip; [apply depth_many; exact Hd|].
  intros p1 p2 -> Hn. apply depth_clean; [exact Hn|].
  apply clean_before_suffix in Hp. exact Hp.
Qed.

Lemma text_eqb_eq a b : text_eqb a b = true <-> a = b.
Proof. unfold text_eqb. destruct (list_eq_dec ascii_dec a b); split; congruence. Qed.

Lemma text_eqb_neq a b : text_eqb a b = false <-> a <> b.
Proof. unfold text_eqb. destruct (list_eq_dec ascii_dec a b); split; congruence. Qed.

(** Specification of the supported tokens. *)
Definition depth_table : list (string * dtype) :=
  [("8ubit", UInt 8); ("8bit", UInt 8); ("16ubit", UInt 16); ("16bit", UInt 16);
   ("32ubit", UInt 32); ("32bit", UInt 32); ("16fbit", Float 16); ("32fbit", Float 32);
   ("64fbit", Float 64)]%string.

Lemma parse_bitdepth_spec t d :
  parse_bitdepth t = Ok d <-> exists n, In (n, d) depth_table /\ t = lit n.
Proof.
  unfold parse_bitdepth. split.
  - repeat match goal with
    | |- (if ?c then _ else _) = _ -> _ =>
        destruct c eqn:?; [intros H; inversion H; subst d; clear H|]
    end; try discriminate;
    repeat match goal with
    | E : _ || _ = true |- _ => apply orb_true_iff in E; destruct E as [E|E]
    end;
    match goal with E : text_eqb _ _ = true |- _ => apply text_eqb_eq in E end;
    match goal with E : t = lit ?n |- _ => exists n; split; [simpl; tauto|exact E] end.
  - intros (n & Hin & ->). simpl in Hin.
    repeat (destruct Hin as [Hin|Hin]; [inversion Hin; subst; reflexivity|]). destruct Hin.
Qed.

Lemma parse_bitdepth_err t :
  (forall n d, In (n, d) depth_table -> t <> lit n) -> parse_bitdepth t = Err ValueError.
Proof.
  intros H. destruct (parse_bitdepth t) as [d|e] eqn:E.
  - apply parse_bitdepth_spec in E as (n & Hin & Ht). destruct (H n d Hin Ht).
  - revert E. unfold parse_bitdepth.
    repeat match goal with |- context [if ?b then _ else _] => destruct b end; congruence.
Qed.

Lemma raw_dtype_ok p ds k s :
  clean_before depth_follow p -> digits ds ->
  raw_dtype (p ++ ds ++ kind_text k ++ lit "bit" ++ s)
  = parse_bitdepth (last2 ds ++ kind_text k ++ lit "bit" ++ opt_s s).
Proof. intros Hp Hd. unfold raw_dtype. rewrite depth_search by assumption. reflexivity. Qed.

Lemma parse_plural t : parse_bitdepth (t ++ lit "bits") = Err ValueError.
Proof.
  apply parse_bitdepth_err. intros n d Hin E.
  assert (Hl : last (t ++ lit "bits") "x"%char = "s"%char).
  { replace (t ++ lit "bits") with ((t ++ lit "bit") ++ ["s"%char])
      by (rewrite <- app_assoc; reflexivity). apply last_last. }
  rewrite E in Hl. simpl in Hin.
  repeat (destruct Hin as [Hin|Hin]; [inversion Hin; subst; discriminate Hl|]). destruct Hin.
Qed.
