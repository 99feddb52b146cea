(** Model of the widgets of set_centers: nr_metrics/cnr.py 343-665 and nr_metrics/snr.py 405-836, and of
    _create_slider_widget (utils/visualization.py 575-591), in IPython with ipywidgets installed. No
    proofs here.

    Images are grey images with two or three axes (colour images were made grey before). Of the
    widgets only the values are modelled. The pictures do not change any value: exceptions while
    drawing are shown in the output widget. An exception in another callback ends the handling of the
    event; what was changed before stays. *)
From Coq Require Import Reals.
From Verif Require Import Base NdArray LoadModel NormModel PairModel MetricModel RegionModel NrModel VisModel.
Open Scope Z_scope.

(** ** widgets.IntSlider (ipywidgets, class _BoundedInt) *)

Record slider := Slider { s_min : Z; s_max : Z; s_val : Z }.

Definition clamp (lo hi v : Z) : Z := Z.min (Z.max v lo) hi.

(** The constructor checks the limits and moves the value (0 if None is given) between them. *)
Definition make_slider (lo hi : Z) (v : option Z) : res slider :=
  if hi <? lo then Err TraitError
  else Ok (Slider lo hi (clamp lo hi (match v with Some x => x | None => 0 end))).

Definition set_value (s : slider) (v : Z) : slider := Slider (s_min s) (s_max s) (clamp (s_min s) (s_max s) v).
Definition set_min (s : slider) (m : Z) : res slider :=
  if s_max s <? m then Err TraitError
  else Ok (Slider m (s_max s) (s_val (if s_val s <? m then set_value s m else s))).
Definition set_max (s : slider) (m : Z) : res slider :=
  if m <? s_min s then Err TraitError
  else Ok (Slider (s_min s) m (s_val (if m <? s_val s then set_value s m else s))).

(** A coordinate slider with the length of its axis *)
Definition axis := (nat * slider)%type.
Definition shown (l : list axis) : list cval := map (fun a => CInt (s_val (snd a))) l.

(** min=r+1, max=n-(r+1) *)
Definition make_axis (n : nat) (r : Z) (v : Z) : res axis :=
  let* s := make_slider (r + 1) (Z.of_nat n - (r + 1)) (Some v) in Ok (n, s).

(** min(img.shape) // 2 *)
Definition least (shape : list nat) : nat := match shape with [] => 0%nat | n :: l => fold_left Nat.min l n end.
Definition radius_slider (shape : list nat) (r : Z) : res slider :=
  make_slider 1 (Z.of_nat (least shape / 2)) (Some r).

(** _update_values (cnr.py 504-521, snr.py 651-660): new limits for one slider after the other. A changed
    value is announced at once and the picture drawn anew, [draw]. *)
Section update.
Context {G : Type}.
Variable draw : list axis -> G -> G.

Definition announce (old new : slider) (axes : list axis) (g : G) : G :=
  if s_val new =? s_val old then g else draw axes g.

Fixpoint update_axes (r : Z) (done todo : list axis) (g : G) : list axis * G * res unit :=
  match todo with
  | [] => (done, g, Ok tt)
  | (n, s) :: todo' =>
      match set_min s (r + 1) with
      | Err e => (done ++ todo, g, Err e)
      | Ok s1 =>
          let g1 := announce s s1 (done ++ (n, s1) :: todo') g in
          match set_max s1 (Z.of_nat n - (r + 1)) with
          | Err e => (done ++ (n, s1) :: todo', g1, Err e)
          | Ok s2 => update_axes r (done ++ [(n, s2)]) todo' (announce s1 s2 (done ++ (n, s2) :: todo') g1)
          end
      end
  end.
End update.

(** Moving slider [k] *)
Definition move_axis (axes : list axis) (k : nat) (v : Z) : option (list axis) :=
  match nth_error axes k with
  | None => None
  | Some (n, s) => if s_val (set_value s v) =? s_val s then None else Some (upd axes k (n, set_value s v))
  end.

(** ** CNR *)

(** The module variables glob_signal_center, glob_background_center, glob_radius (cnr.py 61-63) *)
Record cnr_glob := CnrGlob { cg_signal : center; cg_background : center; cg_radius : rval }.

(** Sliders in the order of _update_values: background x, y, signal x, y, then background z, signal z *)
Record cnr_ui := CnrUi { cu_radius : slider; cu_axes : list axis }.
Definition background_axes (l : list axis) : list axis :=
  match l with [a; b; _; _] => [a; b] | [a; b; _; _; c; _] => [a; b; c] | _ => [] end.
Definition signal_axes (l : list axis) : list axis :=
  match l with [_; _; a; b] => [a; b] | [_; _; a; b; _; c] => [a; b; c] | _ => [] end.

(** interactive_output calls _update_visualization_2d or _3d (365-415) with the values of the sliders. *)
Definition cnr_draw (radius : slider) (axes : list axis) (g : cnr_glob) : cnr_glob :=
  CnrGlob (Some (shown (signal_axes axes))) (Some (shown (background_axes axes))) (RInt (s_val radius)).

(** 454-502 *)
Definition cnr_widgets (shape : list nat) (sl bl : list cval) (rad : rval) : res cnr_ui :=
  let* r := check_radius rad in
  let* rs := radius_slider shape r in
  let ax n l k := let* v := coord l k in make_axis n (s_val rs) v in
  match shape with
  | [n0; n1] =>
      let* bx := ax n0 bl 0%nat in let* by_ := ax n1 bl 1%nat in
      let* sx := ax n0 sl 0%nat in let* sy := ax n1 sl 1%nat in
      Ok (CnrUi rs [bx; by_; sx; sy])
  | [n0; n1; n2] =>
      let* bx := ax n0 bl 0%nat in let* by_ := ax n1 bl 1%nat in
      let* sx := ax n0 sl 0%nat in let* sy := ax n1 sl 1%nat in
      let* bz := ax n2 bl 2%nat in let* sz := ax n2 sl 2%nat in
      Ok (CnrUi rs [bx; by_; sx; sy; bz; sz])
  | _ => Err ValueError
  end.

(** Keywords signal_center, background_center, radius *)
Record cnr_kw := CnrKw { ck_signal : option center; ck_background : option center; ck_radius : option (option rval) }.

(** 421-432: the start values, written to the module variables before they are checked *)
Definition cnr_first (shape : list nat) (params : stored) (kw : cnr_kw) : cnr_glob :=
  let middle : center := Some (map (fun n => CInt (Z.of_nat (n / 2)%nat)) shape) in
  match st_signal params, st_background params, st_radius params with
  | Some s, Some b, Some r => CnrGlob s b (rad_of r)
  | _, _, _ =>
      CnrGlob (match ck_signal kw with Some c => c | None => middle end)
              (match ck_background kw with Some c => c | None => middle end)
              (match ck_radius kw with Some r => rad_of r | None => RInt 1 end)
  end.

(** 346-354 *)
Definition cnr_save (g : cnr_glob) (p : stored) : stored :=
  Stored (Some (cg_signal g)) (Some (cg_background g)) (Some (Some (cg_radius g))) (st_kind p).

(** A call of set_centers. The values are stored (451) before the sliders are made. *)
Definition cnr_open (shape : list nat) (kw : cnr_kw) (p : stored) (_ : cnr_glob) : res cnr_ui * stored * cnr_glob :=
  let g := cnr_first shape p kw in
  match cnr_start shape p (ck_signal kw) (ck_background kw) (ck_radius kw) with
  | Err e => (Err e, p, g)
  | Ok st =>
      match (let* sl := len_of (cg_signal g) in let* bl := len_of (cg_background g) in
             cnr_widgets shape sl bl (cg_radius g)) with
      | Err e => (Err e, st, g)
      | Ok ui => (Ok ui, st, cnr_draw (cu_radius ui) (cu_axes ui) g)
      end
  end.

Inductive cnr_event := CMove (k : nat) (v : Z) | CRadius (v : Z) | CSave.

Definition cnr_step (ui : cnr_ui) (p : stored) (g : cnr_glob) (e : cnr_event) : cnr_ui * stored * cnr_glob * res unit :=
  match e with
  | CMove k v =>
      match move_axis (cu_axes ui) k v with
      | None => (ui, p, g, Ok tt)
      | Some l => (CnrUi (cu_radius ui) l, p, cnr_draw (cu_radius ui) l g, Ok tt)
      end
  | CRadius v =>
      let rs := set_value (cu_radius ui) v in
      if s_val rs =? s_val (cu_radius ui) then (ui, p, g, Ok tt)
      else
        match update_axes (cnr_draw rs) (s_val rs) [] (cu_axes ui) g with
        | (l, g', Ok _) => (CnrUi rs l, p, cnr_draw rs l g', Ok tt)
        | (l, g', Err x) => (CnrUi rs l, p, g', Err x)
        end
  | CSave => (ui, cnr_save g p, g, Ok tt)
  end.

(** ** SNR *)

(** The module variables (snr.py 61-67) *)
Record snr_glob := SnrGlob {
  sg_center : center; sg_radius : rval; sg_kind : pyval;
  sg_iterations : option Z; sg_lower : option Z; sg_upper : option Z; sg_signal : option region }.

(** Stored parameters; the thresholds and iterations can be missing, None or an int. Attribute _region:
    None also if it is missing. *)
Record snr_params := SnrParams {
  q_stored : stored; q_iterations : option (option Z); q_lower : option (option Z); q_upper : option (option Z);
  q_auto : option bool; q_region : option region }.

Record snr_ui := SnrUi {
  su_img : arr R; su_radius : slider; su_axes : list axis; su_kind : pyval;
  su_iterations : slider; su_lower : slider; su_upper : slider }.

Definition snr_draw (radius : slider) (kind : pyval) (axes : list axis) (g : snr_glob) : snr_glob :=
  SnrGlob (Some (shown axes)) (RInt (s_val radius)) kind (sg_iterations g) (sg_lower g) (sg_upper g) (sg_signal g).

Definition is_full (v : pyval) : bool := match v with PText s => String.eqb s "full" | _ => false end.

(** _save_values, 405-448 *)
Definition snr_save (g : snr_glob) (p : snr_params) : snr_params :=
  let st := snr_saved (q_stored p) (sg_kind g) (sg_center g) (sg_radius g) in
  if is_full (sg_kind g) then
    SnrParams st (Some (sg_iterations g)) (Some (sg_lower g)) (Some (sg_upper g)) (Some true) (sg_signal g)
  else SnrParams st (Some None) (Some None) (Some None) (Some false) (q_region p).

(** Keywords *)
Record snr_kw := SnrKw {
  sk_center : option center; sk_radius : option (option rval); sk_kind : option pyval;
  sk_iterations : option (option Z); sk_lower : option (option Z); sk_upper : option (option Z) }.

Definition first_of {X} (a b : option X) (d : X) : X :=
  match a with Some x => x | None => match b with Some x => x | None => d end end.

(** 545-585 *)
Definition snr_first (shape : list nat) (kw : snr_kw) (p : snr_params) (g : snr_glob) : snr_glob :=
  let middle : center := Some (map (fun n => CInt (Z.of_nat (n / 2)%nat)) shape) in
  SnrGlob (first_of (sk_center kw) (st_signal (q_stored p)) middle)
          (rad_of (first_of (sk_radius kw) (st_radius (q_stored p)) (Some (RInt 1))))
          (first_of (sk_kind kw) (st_kind (q_stored p)) (PText "cubic"))
          (sg_iterations g) (sg_lower g) (sg_upper g) (sg_signal g).

(** 614-705 *)
Definition snr_widgets (img : arr R) (c : list cval) (rad : rval) (kind : pyval) (it lo hi : option Z) : res snr_ui :=
  let* r := check_radius rad in
  let* rs := radius_slider (shp img) r in
  let ax n k := let* v := coord c k in make_axis n (s_val rs) v in
  let* axes :=
    match shp img with
    | [n0; n1] => let* x := ax n0 0%nat in let* y := ax n1 1%nat in Ok [x; y]
    | [n0; n1; n2] => let* x := ax n0 0%nat in let* y := ax n1 1%nat in let* z := ax n2 2%nat in Ok [x; y; z]
    | _ => Err ValueError
    end in
  let* sl := make_slider 0 100 lo in
  let* su := make_slider 0 100 hi in
  let* si := make_slider 1 10 it in
  Ok (SnrUi img rs axes kind si sl su).

Definition snr_open (img : arr R) (kw : snr_kw) (p : snr_params) (g : snr_glob) : res snr_ui * snr_params * snr_glob :=
  let g := snr_first (shp img) kw p g in
  match snr_start (shp img) (q_stored p) (sk_center kw) (sk_radius kw) (sk_kind kw) with
  | Err e => (Err e, p, g)
  | Ok _ =>
      let p' := snr_save g p in
      match (let* c := len_of (sg_center g) in
             snr_widgets img c (sg_radius g) (sg_kind g)
               (first_of (sk_iterations kw) (q_iterations p) (Some 2))
               (first_of (sk_lower kw) (q_lower p) (Some 90)) (first_of (sk_upper kw) (q_upper p) (Some 99))) with
      | Err e => (Err e, p', g)
      | Ok ui => (Ok ui, p', snr_draw (su_radius ui) (su_kind ui) (su_axes ui) g)
      end
  end.

Section snr.
Variable nobg : arr bool -> list nat -> nat.

(** 464-477 *)
Definition full_region (img : arr R) (lower upper iterations : Z) (kind : rkind) : res region :=
  let* b := get_binary img (IZR lower) (IZR upper) in
  let* (_, _, m) := find_largest_region nobg b iterations kind in
  masked_by img m.

Inductive snr_event :=
| SMove (k : nat) (v : Z) | SRadius (v : Z) | SKind (k : pyval)
| SIterations (v : Z) | SLower (v : Z) | SUpper (v : Z) | SCalculate | SSave.

Definition with_axes (ui : snr_ui) (rs : slider) (l : list axis) : snr_ui :=
  SnrUi (su_img ui) rs l (su_kind ui) (su_iterations ui) (su_lower ui) (su_upper ui).
Definition with_kind (ui : snr_ui) (k : pyval) : snr_ui :=
  SnrUi (su_img ui) (su_radius ui) (su_axes ui) k (su_iterations ui) (su_lower ui) (su_upper ui).
Definition ui_draw (ui : snr_ui) (g : snr_glob) : snr_glob := snr_draw (su_radius ui) (su_kind ui) (su_axes ui) g.

(** An assignment to the value of the dropdown widget *)
Definition choose (ui : snr_ui) (k : pyval) (g : snr_glob) : snr_ui * snr_glob * res unit :=
  if negb (valid_start k) then (ui, g, Err TraitError)
  else
    match su_kind ui, k with
    | PText a, PText b => if String.eqb a b then (ui, g, Ok tt)
                          else (with_kind ui k, ui_draw (with_kind ui k) g, Ok tt)
    | _, _ => (with_kind ui k, ui_draw (with_kind ui k) g, Ok tt)
    end.

Definition snr_step (ui : snr_ui) (p : snr_params) (g : snr_glob) (e : snr_event)
    : snr_ui * snr_params * snr_glob * res unit :=
  match e with
  | SMove k v =>
      match move_axis (su_axes ui) k v with
      | None => (ui, p, g, Ok tt)
      | Some l => let ui' := with_axes ui (su_radius ui) l in (ui', p, ui_draw ui' g, Ok tt)
      end
  | SRadius v =>
      let rs := set_value (su_radius ui) v in
      if s_val rs =? s_val (su_radius ui) then (ui, p, g, Ok tt)
      else
        match update_axes (snr_draw rs (su_kind ui)) (s_val rs) [] (su_axes ui) g with
        | (l, g', Ok _) =>
            let ui' := with_axes ui rs l in
            (* 648, 657: in 2D slider_signal_center_z is None, and only NameError is caught *)
            if (length l =? 2)%nat then (ui', p, g', Err AttributeError)
            else (ui', p, ui_draw ui' g', Ok tt)
        | (l, g', Err x) => (with_axes ui rs l, p, g', Err x)
        end
  | SKind k => let '(ui', g', x) := choose ui k g in (ui', p, g', x)
  | SIterations v =>
      (SnrUi (su_img ui) (su_radius ui) (su_axes ui) (su_kind ui) (set_value (su_iterations ui) v) (su_lower ui) (su_upper ui), p, g, Ok tt)
  | SLower v =>
      (SnrUi (su_img ui) (su_radius ui) (su_axes ui) (su_kind ui) (su_iterations ui) (set_value (su_lower ui) v) (su_upper ui), p, g, Ok tt)
  | SUpper v =>
      (SnrUi (su_img ui) (su_radius ui) (su_axes ui) (su_kind ui) (su_iterations ui) (su_lower ui) (set_value (su_upper ui) v), p, g, Ok tt)
  | SCalculate =>
      let lo := s_val (su_lower ui) in let hi := s_val (su_upper ui) in let it := s_val (su_iterations ui) in
      match full_region (su_img ui) lo hi it (kind_of_val (sg_kind g)) with
      | Err x => (ui, p, g, Err x)
      | Ok r =>
          let g' := SnrGlob (sg_center g) (sg_radius g) (sg_kind g) (Some it) (Some lo) (Some hi) (Some r) in
          let '(ui', g'', x) := choose ui (PText "full") g' in (ui', p, g'', x)
      end
  | SSave => (ui, snr_save g p, g, Ok tt)
  end.
End snr.

(** ** A notebook: metric objects, open user interfaces (each of one object), the module variables *)

Section notebook.
Context {U P G A E : Type}.
Variable open : A -> P -> G -> res U * P * G.
Variable step : U -> P -> G -> E -> U * P * G * res unit.

Record book := Book { b_objects : nat -> P; b_open : list (nat * U); b_glob : G }.
Inductive act :=
| Open (object : nat) (a : A)           (* set_centers is called *)
| On (ui : nat) (e : E).                (* something is done in an open user interface *)

Definition put (f : nat -> P) (i : nat) (p : P) : nat -> P := fun j => if (j =? i)%nat then p else f j.

Definition act_step (b : book) (a : act) : book * res unit :=
  match a with
  | Open o x =>
      match open x (b_objects b o) (b_glob b) with
      | (Ok ui, p, g) => (Book (put (b_objects b) o p) (b_open b ++ [(o, ui)]) g, Ok tt)
      | (Err e, p, g) => (Book (put (b_objects b) o p) (b_open b) g, Err e)
      end
  | On i e =>
      match nth_error (b_open b) i with
      | None => (b, Ok tt)
      | Some (o, ui) =>
          let '(ui', p, g, r) := step ui (b_objects b o) (b_glob b) e in
          (Book (put (b_objects b) o p) (upd (b_open b) i (o, ui')) g, r)
      end
  end.

Fixpoint run (b : book) (l : list act) : book * list (res unit) :=
  match l with
  | [] => (b, [])
  | a :: l' => let (b', r) := act_step b a in let (b'', rs) := run b' l' in (b'', r :: rs)
  end.
End notebook.
