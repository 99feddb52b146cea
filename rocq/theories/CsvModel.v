(** Model of the csv files the package writes and reads: the rows handed to csv.writer (multiple.py lines 401-421
    and 646-650, utils/export.py lines 93-108, utils/loading.py lines 278-290, scripts/write_to_csv.py lines 33-45)
    as characters in the file, and _read_pairs (multiple.py lines 653-666) from the characters of a file. No proofs
    here.

    The csv module of python is written out as its documentation and source describe it: the writer and the reader
    with the options in use, the detection of the dialect for a first line without quotation marks. What it
    detects for other first lines is a function argument. Characters are those of [ascii]; files are opened with
    newline="", that is nothing is translated and lines end after "\n", "\r\n" or a single "\r". *)
From Verif Require Import Base LoadModel BatchModel.

Definition CR : ascii := ascii_of_nat 13.
Definition LF : ascii := ascii_of_nat 10.
Definition TAB : ascii := ascii_of_nat 9.
Definition QUOTE : ascii := ascii_of_nat 34.
Definition APOSTROPHE : ascii := ascii_of_nat 39.
Definition COMMA : ascii := ","%char.
Definition SEMICOLON : ascii := ";"%char.
Definition SPACE : ascii := " "%char.

(** ** csv.writer with the default dialect: delimiter comma, quotation mark doubled inside quotes, minimal quoting,
    lines end with "\r\n". *)

Definition needs_quotes (c : ascii) : bool := any_of [COMMA; QUOTE; CR; LF] c.
Definition doubled (f : text) : text := flat_map (fun c => if Ascii.eqb c QUOTE then [QUOTE; QUOTE] else [c]) f.
Definition quoted (f : text) : text := QUOTE :: doubled f ++ [QUOTE].
Definition write_field (f : text) : text := if existsb needs_quotes f then quoted f else f.
Fixpoint write_fields (fs : list text) : text :=
  match fs with
  | [] => []
  | [f] => write_field f
  | f :: fs' => write_field f ++ COMMA :: write_fields fs'
  end.
(** A row of one empty field is written in quotes. *)
Definition write_row (fs : list text) : text :=
  match fs with [[]] => quoted [] | _ => write_fields fs end ++ [CR; LF].
Definition write_rows (rows : list (list text)) : text := flat_map write_row rows.

(** ** csv.reader *)

(** The lines of a file, every line followed by a mark; [started]: the line has characters already. *)
Inductive tok := Ch (c : ascii) | Eol.
Fixpoint tokens (s : text) (started : bool) : list tok :=
  match s with
  | [] => if started then [Eol] else []
  | c :: s' =>
      if Ascii.eqb c LF then Ch c :: Eol :: tokens s' false
      else if Ascii.eqb c CR then
        match s' with
        | c' :: s'' => if Ascii.eqb c' LF then Ch c :: Ch c' :: Eol :: tokens s'' false else Ch c :: Eol :: tokens s' false
        | [] => [Ch c; Eol]
        end
      else Ch c :: tokens s' true
  end.

Record dialect := Dialect { d_delim : ascii; d_quote : ascii; d_double : bool; d_skip : bool }.
Definition excel : dialect := {| d_delim := COMMA; d_quote := QUOTE; d_double := true; d_skip := false |}.

Inductive pstate := StartRecord | StartField | InField | InQuoted | QuoteInQuoted | EatNewline.
Record parser := Parser { p_state : pstate; p_field : text; p_fields : list text }.
Definition fresh : parser := Parser StartRecord [] [].

(** csv.field_size_limit() *)
Definition field_limit : Z := 131072.
Definition add_char (p : parser) (c : ascii) (st : pstate) : res parser :=
  if (field_limit <=? Z.of_nat (length (p_field p)))%Z then Err CsvError
  else Ok (Parser st (p_field p ++ [c]) (p_fields p)).
Definition save_field (p : parser) (st : pstate) : parser := Parser st [] (p_fields p ++ [p_field p]).
Definition newline (c : ascii) : bool := Ascii.eqb c LF || Ascii.eqb c CR.

Section reader.
Variable d : dialect.

Definition start_field (p : parser) (t : tok) : res parser :=
  match t with
  | Eol => Ok (save_field p StartRecord)
  | Ch c =>
      if newline c then Ok (save_field p EatNewline)
      else if Ascii.eqb c (d_quote d) then Ok (Parser InQuoted (p_field p) (p_fields p))
      else if Ascii.eqb c SPACE && d_skip d then Ok (Parser StartField (p_field p) (p_fields p))
      else if Ascii.eqb c (d_delim d) then Ok (save_field p StartField)
      else add_char p c InField
  end.

Definition step (p : parser) (t : tok) : res parser :=
  match p_state p with
  | StartRecord =>
      match t with
      | Eol => Ok p
      | Ch c => if newline c then Ok (Parser EatNewline (p_field p) (p_fields p)) else start_field p t
      end
  | StartField => start_field p t
  | InField =>
      match t with
      | Eol => Ok (save_field p StartRecord)
      | Ch c => if newline c then Ok (save_field p EatNewline)
                else if Ascii.eqb c (d_delim d) then Ok (save_field p StartField)
                else add_char p c InField
      end
  | InQuoted =>
      match t with
      | Eol => Ok p
      | Ch c => if Ascii.eqb c (d_quote d)
                then Ok (Parser (if d_double d then QuoteInQuoted else InField) (p_field p) (p_fields p))
                else add_char p c InQuoted
      end
  | QuoteInQuoted =>
      match t with
      | Eol => Ok (save_field p StartRecord)
      | Ch c => if Ascii.eqb c (d_quote d) then add_char p c InQuoted
                else if Ascii.eqb c (d_delim d) then Ok (save_field p StartField)
                else if newline c then Ok (save_field p EatNewline)
                else add_char p c InField
      end
  | EatNewline =>
      match t with
      | Eol => Ok (Parser StartRecord (p_field p) (p_fields p))
      | Ch c => if newline c then Ok p else Err CsvError
      end
  end.

Definition record_done (p : parser) (t : tok) : bool :=
  match t, p_state p with Eol, StartRecord => true | _, _ => false end.

(** The rows read, and the exception that ended reading. *)
Fixpoint run (ts : list tok) (p : parser) : list (list text) * option exn :=
  match ts with
  | [] => (match p_field p, p_state p with
           | [], InQuoted => [p_fields p ++ [[]]]
           | [], _ => []
           | f, _ => [p_fields p ++ [f]]
           end, None)
  | t :: ts' =>
      match step p t with
      | Err e => ([], Some e)
      | Ok p' => if record_done p' t then let '(rows, e) := run ts' fresh in (p_fields p' :: rows, e)
                 else run ts' p'
      end
  end.

Definition read_rows (content : text) : list (list text) * option exn := run (tokens content false) fresh.
End reader.

(** ** csv.Sniffer().sniff(line, ",;\t") *)

Fixpoint first_line (s : text) : text :=
  match s with
  | [] => []
  | c :: s' =>
      if Ascii.eqb c LF then [c]
      else if Ascii.eqb c CR then
        match s' with
        | c' :: _ => if Ascii.eqb c' LF then [c; c'] else [c]
        | [] => [c]
        end
      else c :: first_line s'
  end.

Definition count (c : ascii) (s : text) : nat := length (filter (Ascii.eqb c) s).
(** s.count(c + " ") *)
Fixpoint count_spaced (c : ascii) (s : text) : nat :=
  match s with
  | a :: (b :: _) as s' => (if Ascii.eqb a c && Ascii.eqb b SPACE then 1 else 0) + count_spaced c s'
  | _ => 0
  end.

(** For a first line without quotation marks: among the three delimiters those that occur, in the order in which
    they are preferred. No doubling of quotation marks is assumed. *)
Definition sniff (other : text -> res dialect) (line : text) : res dialect :=
  if existsb (any_of [QUOTE; APOSTROPHE]) line then other line
  else match filter (fun c => any_of line c) [COMMA; TAB; SEMICOLON] with
       | [] => Err CsvError
       | c :: _ => Ok {| d_delim := c; d_quote := QUOTE; d_double := false; d_skip := count c line =? count_spaced c line |}
       end.

(** ** _read_pairs, multiple.py lines 653-666: csv.DictReader takes the names of the columns from the first row. *)
Definition read_pairs_file (other : text -> res dialect) (content : text) : res (list pair) :=
  let* d := sniff other (first_line content) in
  match read_rows d content with
  | ([], Some e) => Err e
  | ([], None) => Err TypeError                          (* reader.fieldnames is None *)
  | (names :: rows, e) =>
      let* pairs := read_pairs (map string_of_list_ascii names) rows in
      match e with Some e => Err e | None => Ok pairs end
  end.
