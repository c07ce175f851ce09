(** Model of the texts behind the data files: what csv.reader makes of a table
    (segeval/data/tsv.py:31-37) and what json.dump and json.load make of a
    document (segeval/data/jsonutils.py:33 and :66).  A text is a list of
    characters U+0000..U+00FF.

    The library calls are those of CPython 3 (Modules/_csv.c, Lib/json). *)
From Coq Require Import DecimalString.
From Verif Require Export Data Round.
Open Scope Z_scope.

Notation char := Ascii.ascii.
Notation text := (list Ascii.ascii).
Notation chr n := (Ascii.ascii_of_nat n).
Notation str := String.string_of_list_ascii.
Notation chars := String.list_ascii_of_string.

Definition c_tab : char := chr 9.
Definition c_lf : char := chr 10.
Definition c_cr : char := chr 13.
Definition c_quote : char := chr 34.

(** * Reading a file in text mode *)

(** tsv.py:31, jsonutils.py:63: mode 'rU' translates "\r\n" and "\r" to "\n". *)
Fixpoint translate (t : text) : text :=
  match t with
  | [] => []
  | c :: t' =>
    if bool_decide (c = c_cr) then
      match t' with
      | d :: t'' => if bool_decide (d = c_lf) then c_lf :: translate t'' else c_lf :: translate t'
      | [] => [c_lf]
      end
    else c :: translate t'
  end.

(** Iterating over a file: lines with their "\n". [cur] is the line so far, reversed. *)
Fixpoint split_lines (cur : text) (t : text) : list text :=
  match t with
  | [] => match cur with [] => [] | _ => [reverse cur] end
  | c :: t' => if bool_decide (c = c_lf) then reverse (c :: cur) :: split_lines [] t' else split_lines (c :: cur) t'
  end.
Definition lines_of (t : text) : list text := split_lines [] (translate t).

(** * csv.reader *)

(** The parser states of _csv.c that the default dialect reaches. *)
Inductive cstate := StartRecord | StartField | InField | InQuoted | QuoteInQuoted | EatCRNL.

Global Instance cstate_eq_dec : EqDecision cstate.
Proof. solve_decision. Defined.

(** State, the current field (reversed) and the fields of the row (reversed). *)
Record reader := Reader { r_state : cstate; r_field : text; r_fields : list string }.
Definition new_record : reader := Reader StartRecord [] [].

(** _csv.c parse_save_field. *)
Definition save_field (r : reader) (s : cstate) : reader :=
  Reader s [] (str (reverse (r_field r)) :: r_fields r).

(** _csv.c parse_add_char: csv.field_size_limit() is [limit], by default 131072. *)
Definition add_char (limit : Z) (r : reader) (c : char) (s : cstate) : option reader :=
  if limit <=? zlen (r_field r) then None else Some (Reader s (c :: r_field r) (r_fields r)).

Definition is_newline (c : char) : bool := bool_decide (c = c_lf) || bool_decide (c = c_cr).

(** _csv.c parse_process_char, START_FIELD. [None] as a character is the end of the line. *)
Definition start_field (limit : Z) (delim : char) (r : reader) (c : option char) : option reader :=
  match c with
  | None => Some (save_field r StartRecord)
  | Some c =>
    if is_newline c then Some (save_field r EatCRNL)
    else if bool_decide (c = c_quote) then Some (Reader InQuoted (r_field r) (r_fields r))
    else if bool_decide (c = delim) then Some (save_field r StartField)
    else add_char limit r c InField
  end.

(** _csv.c parse_process_char; a result [None] is csv.Error. The dialect is "excel" with another
    delimiter: double quotes are doubled, not strict, no escape character. *)
Definition process_char (limit : Z) (delim : char) (r : reader) (c : option char) : option reader :=
  match r_state r with
  | StartRecord =>
    match c with
    | None => Some r
    | Some d => if is_newline d then Some (Reader EatCRNL (r_field r) (r_fields r)) else start_field limit delim r c
    end
  | StartField => start_field limit delim r c
  | InField =>
    match c with
    | None => Some (save_field r StartRecord)
    | Some d =>
      if is_newline d then Some (save_field r EatCRNL)
      else if bool_decide (d = delim) then Some (save_field r StartField)
      else add_char limit r d InField
    end
  | InQuoted =>
    match c with
    | None => Some r
    | Some d => if bool_decide (d = c_quote) then Some (Reader QuoteInQuoted (r_field r) (r_fields r)) else add_char limit r d InQuoted
    end
  | QuoteInQuoted =>
    match c with
    | None => Some (save_field r StartRecord)
    | Some d =>
      if bool_decide (d = c_quote) then add_char limit r d InQuoted
      else if bool_decide (d = delim) then Some (save_field r StartField)
      else if is_newline d then Some (save_field r EatCRNL)
      else add_char limit r d InField
    end
  | EatCRNL =>
    match c with
    | None => Some (Reader StartRecord (r_field r) (r_fields r))
    | Some d => if is_newline d then Some r else None
    end
  end.

Fixpoint process_chars (limit : Z) (delim : char) (r : reader) (l : text) : option reader :=
  match l with
  | [] => Some r
  | c :: l' => match process_char limit delim r (Some c) with Some r' => process_chars limit delim r' l' | None => None end
  end.

(** _csv.c Reader_iternext until the lines are exhausted: a row ends with a line after which the state is
    StartRecord. At the end of the file an open quoted field is closed. The flag tells whether the rows end
    with csv.Error. *)
Fixpoint read_rows (limit : Z) (delim : char) (r : reader) (lines : list text) : list (list string) * bool :=
  match lines with
  | [] =>
    if negb (zlen (r_field r) =? 0) || bool_decide (r_state r = InQuoted)
    then ([reverse (r_fields (save_field r StartRecord))], false) else ([], false)
  | line :: lines' =>
    match process_chars limit delim r line with
    | None => ([], true)
    | Some r1 =>
      match process_char limit delim r1 None with
      | None => ([], true)
      | Some r2 =>
        if bool_decide (r_state r2 = StartRecord)
        then let '(rows, failed) := read_rows limit delim new_record lines' in (reverse (r_fields r2) :: rows, failed)
        else read_rows limit delim r2 lines'
      end
    end
  end.

Definition field_limit : Z := 131072.
Definition csv_rows (delim : char) (t : text) : list (list string) * bool := read_rows field_limit delim new_record (lines_of t).

(** tsv.py:14-52 on the content of a file; [name] is the base name of the path. PlainException stands for
    csv.Error, which is raised after the rows before it have been taken in. *)
Definition read_tsv (delim : char) (name : string) (t : text) : res (dataset (list Z)) :=
  let '(rows, failed) := csv_rows delim t in
  let* d := input_tsv (name_from_filename name) rows in
  if failed then Err PlainException else Ok d.

(** tsv.py:55-77 on the content of a file. *)
Definition read_positions_tsv (delim : char) (name : string) (t : text) : res (dataset (list Z)) :=
  let '(rows, failed) := csv_rows delim t in
  let* d := input_positions_tsv (name_from_filename name) rows in
  if failed then Err PlainException else Ok d.
