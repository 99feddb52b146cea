(** Model of the scripts around the package: src/viqa/utils/_build/version.py (meson.build takes the version of the
    package from it), lines 16-24 of docs/source/conf.py and tools/generate_requirements.py. No proofs here.
    Files are texts after the translation of line ends by [open]; reading pyproject.toml is not modelled, its lists
    are arguments. *)
From Verif Require Import Base LoadModel.

(** [f.readlines()]: every line with its end. *)
Fixpoint readlines (s : text) : list text :=
  match s with
  | [] => []
  | c :: s' => if Ascii.eqb c newline then [c] :: readlines s'
               else match readlines s' with [] => [[c]] | l :: ls => (c :: l) :: ls end
  end.

Definition startswith (p s : text) : bool := text_eqb (firstn (length p) s) p.

Fixpoint lstrip (s : text) : text :=
  match s with c :: s' => if is_space c then lstrip s' else s | [] => [] end.
Definition strip (s : text) : text := rev (lstrip (rev (lstrip s))).

Definition dq : ascii := Ascii.ascii_of_nat 34.
Definition sq : ascii := Ascii.ascii_of_nat 39.

(** What a script finds: a version, or the exception it ends with. *)
Inductive found := Version (v : text) | StopIteration | NoItem.

(** version.py lines 23-28 *)
Definition build_version (init : text) : found :=
  match find (startswith (lit "__version__")) (readlines init) with
  | None => StopIteration
  | Some l =>
      match split_assign (strip l) with
      | _ :: v :: _ => Version (filter (fun c => negb (Ascii.eqb c sq)) (filter (fun c => negb (Ascii.eqb c dq)) v))
      | _ => NoItem
      end
  end.

(** conf.py lines 16-22 *)
Definition docs_version (init : text) : found :=
  match find (startswith (lit "__version__")) (readlines init) with
  | None => Version (lit "vUndefined")
  | Some l => match split_chr dq l with _ :: v :: _ => Version v | _ => NoItem end
  end.

(** ** generate_requirements.py *)

(** Lines 29-32 *)
Definition req_header : list text :=
  [lit "# Generated via tools/generate_requirements.py and pre-commit hook.";
   lit "# Do not edit this file; modify pyproject.toml instead."].

(** ["\n".join(l)] *)
Fixpoint join_nl (l : list text) : text :=
  match l with [] => [] | [x] => x | x :: l' => x ++ newline :: join_nl l' end.

(** Lines 35-37 *)
Definition req_text (reqs : list text) : text := join_nl (req_header ++ reqs) ++ [newline].

(** Lines 40-46: the files of the directory after the run, by name without ".txt". A file is replaced if it exists;
    files that are not written are left out. *)
Definition req_files (deps : list text) (optional : list (text * list text)) : tdict :=
  fold_left (fun d kv => tset d (fst kv) (req_text (snd kv))) optional (tset [] (lit "default") (req_text deps)).
