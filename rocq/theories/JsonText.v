(** Model of json.dump and json.load as segeval/data/jsonutils.py:33 and :65 call
    them (CPython's Lib/json: encoder.py, decoder.py, scanner.py and their C
    versions).  A text is a list of characters U+0000..U+00FF. *)
From Verif Require Export Text.
Open Scope Z_scope.

Definition code (c : char) : Z := Z.of_nat (Ascii.nat_of_ascii c).
Definition char_of (z : Z) : char := Ascii.ascii_of_nat (Z.to_nat z).

Definition c_space : char := chr 32.
Definition c_backslash : char := chr 92.
Definition c_comma : char := chr 44.
Definition c_colon : char := chr 58.
Definition c_minus : char := chr 45.
Definition c_plus : char := chr 43.
Definition c_dot : char := chr 46.
Definition c_zero : char := chr 48.
Definition c_lbracket : char := chr 91.
Definition c_rbracket : char := chr 93.
Definition c_lbrace : char := chr 123.
Definition c_rbrace : char := chr 125.
Definition c_u : char := chr 117.

(** * json.dump(data, fp, sort_keys=True, indent=4) *)

Definition digit_of (z : Z) : char := char_of (48 + z).
(** '{0:04x}'.format uses lower case. *)
Definition hex_of (z : Z) : char := if z <? 10 then digit_of z else char_of (87 + z).

(** encoder.py ESCAPE_DCT: the character after the backslash. *)
Definition short_escape (c : char) : option char :=
  if bool_decide (c = c_backslash) then Some c_backslash
  else if bool_decide (c = c_quote) then Some c_quote
  else if code c =? 8 then Some (chr 98)
  else if code c =? 12 then Some (chr 102)
  else if code c =? 10 then Some (chr 110)
  else if code c =? 13 then Some (chr 114)
  else if code c =? 9 then Some (chr 116)
  else None.

(** encoder.py py_encode_basestring_ascii (ensure_ascii): printable ASCII stands for itself. *)
Definition escape (c : char) : text :=
  match short_escape c with
  | Some e => [c_backslash; e]
  | None => if (32 <=? code c) && (code c <=? 126) then [c]
            else [c_backslash; c_u; c_zero; c_zero; hex_of (code c / 16); hex_of (code c mod 16)]
  end.
Definition encode_string (s : string) : text := c_quote :: (chars s ≫= escape) ++ [c_quote].

(** int.__repr__; [fuel] bounds the number of digits. *)
Fixpoint to_digits (fuel : nat) (z : Z) (acc : text) : text :=
  match fuel with
  | O => acc
  | S fuel => if z <? 10 then digit_of z :: acc else to_digits fuel (z / 10) (digit_of (z mod 10) :: acc)
  end.
Definition nat_repr (z : Z) : text := to_digits (S (Z.to_nat (Z.log2 z))) z [].
Definition int_repr (z : Z) : text := if z <? 0 then c_minus :: nat_repr (- z) else nat_repr z.

(** A line break and the indentation of a level. *)
Definition newline_indent (lvl : nat) : text := c_lf :: replicate (4 * lvl) c_space.

Fixpoint join_with (sep : text) (l : list text) : text :=
  match l with [] => [] | [x] => x | x :: l' => x ++ sep ++ join_with sep l' end.

(** encoder.py _iterencode_list and _iterencode_dict for the texts of the elements. *)
Definition bracketed (op cl : char) (lvl : nat) (l : list text) : text :=
  match l with
  | [] => [op; cl]
  | _ => op :: newline_indent (S lvl) ++ join_with (c_comma :: newline_indent (S lvl)) l ++ newline_indent lvl ++ [cl]
  end.

(** encoder.py _iterencode. [frepr] is float.__repr__. *)
Fixpoint print (frepr : Q -> text) (lvl : nat) (j : json) : text :=
  match j with
  | JNull => chars "null"
  | JBool true => chars "true"
  | JBool false => chars "false"
  | JInt z => int_repr z
  | JFloat q => frepr q
  | JStr s => encode_string s
  | JArr l => bracketed c_lbracket c_rbracket lvl (map (print frepr (S lvl)) l)
  | JObj l => bracketed c_lbrace c_rbrace lvl
      ((fun '(k, t) => encode_string k ++ c_colon :: c_space :: t) <$> key_sort (map (fun '(k, v) => (k, print frepr (S lvl) v)) l))
  end.
Definition dumps (frepr : Q -> text) (j : json) : text := print frepr 0 j.

(** * json.load(fp) *)

(** [Beyond]: the document uses a character above U+00FF, NaN or Infinity, which are not modelled. *)
Inductive outcome (A : Type) := Got (a : A) (rest : text) | Bad | Beyond.
Arguments Got {A} a rest.
Arguments Bad {A}.
Arguments Beyond {A}.

(** decoder.py WHITESPACE. *)
Definition is_ws (c : char) : bool := (code c =? 32) || (code c =? 9) || (code c =? 10) || (code c =? 13).
Fixpoint skip_ws (t : text) : text :=
  match t with c :: t' => if is_ws c then skip_ws t' else t | [] => [] end.

(** decoder.py BACKSLASH. *)
Definition unescape (e : char) : option char :=
  if bool_decide (e = c_backslash) then Some c_backslash
  else if bool_decide (e = c_quote) then Some c_quote
  else if code e =? 47 then Some (chr 47)
  else if code e =? 98 then Some (chr 8)
  else if code e =? 102 then Some (chr 12)
  else if code e =? 110 then Some (chr 10)
  else if code e =? 114 then Some (chr 13)
  else if code e =? 116 then Some (chr 9)
  else None.

Definition hex_value (c : char) : option Z :=
  if (48 <=? code c) && (code c <=? 57) then Some (code c - 48)
  else if (97 <=? code c) && (code c <=? 102) then Some (code c - 87)
  else if (65 <=? code c) && (code c <=? 70) then Some (code c - 55)
  else None.

Definition on_value {A B} (f : A -> B) (o : outcome A) : outcome B :=
  match o with Got a r => Got (f a) r | Bad => Bad | Beyond => Beyond end.

(** decoder.py scanstring (strict) after the opening quote. *)
Fixpoint scan_string (t : text) : outcome text :=
  match t with
  | [] => Bad
  | c :: t1 =>
    if bool_decide (c = c_quote) then Got [] t1
    else if bool_decide (c = c_backslash) then
      match t1 with
      | [] => Bad
      | e :: t2 =>
        if bool_decide (e = c_u) then
          match t2 with
          | h1 :: h2 :: h3 :: h4 :: t3 =>
            match hex_value h1, hex_value h2, hex_value h3, hex_value h4 with
            | Some a, Some b, Some d, Some g =>
              let z := ((a * 16 + b) * 16 + d) * 16 + g in
              if z <=? 255 then on_value (cons (char_of z)) (scan_string t3) else Beyond
            | _, _, _, _ => Bad
            end
          | _ => Bad
          end
        else match unescape e with
             | Some x => on_value (cons x) (scan_string t2)
             | None => Bad
             end
      end
    else if code c <=? 31 then Bad
    else on_value (cons c) (scan_string t1)
  end.

(** The longest run of digits. *)
Fixpoint span_digits (t : text) : text * text :=
  match t with
  | c :: t' => if is_digit c then let '(d, r) := span_digits t' in (c :: d, r) else ([], t)
  | [] => ([], [])
  end.
Definition value_of (d : text) : Z := foldl (fun v c => 10 * v + digit c) 0 d.

(** scanner.py NUMBER_RE: the fraction "." digits, if there is one. *)
Definition scan_frac (t : text) : option (text * text) :=
  match t with
  | c :: t' => if bool_decide (c = c_dot) then match span_digits t' with ([], _) => None | (d, r) => Some (d, r) end else None
  | [] => None
  end.

(** The exponent, if there is one: sign and digits. *)
Definition scan_exp (t : text) : option (Z * text) :=
  match t with
  | c :: t' =>
    if (code c =? 101) || (code c =? 69) then
      let '(s, t2) := match t' with
                      | x :: t3 => if bool_decide (x = c_minus) then (-1, t3) else if bool_decide (x = c_plus) then (1, t3) else (1, t')
                      | [] => (1, t')
                      end in
      match span_digits t2 with ([], _) => None | (d, r) => Some (s * value_of d, r) end
    else None
  | [] => None
  end.

(** 10 ^ e. *)
Definition pow10 (e : Z) : Q := if 0 <=? e then inject_Z (10 ^ e) else / inject_Z (10 ^ (- e)).

(** The float nearest to an integer part, a fraction and an exponent. *)
Definition float_value (neg : bool) (i fr : text) (e : Z) : Q :=
  flt53 (inject_Z ((if neg then -1 else 1) * value_of (i ++ fr)) * pow10 (e - zlen fr)).

(** scanner.py _match_number: without sign. *)
Definition scan_unsigned (neg : bool) (t : text) : outcome json :=
  let finish (i : text) (r : text) :=
    match scan_frac r with
    | Some (fr, r1) =>
      match scan_exp r1 with
      | Some (e, r2) => Got (JFloat (float_value neg i fr e)) r2
      | None => Got (JFloat (float_value neg i fr 0)) r1
      end
    | None =>
      match scan_exp r with
      | Some (e, r2) => Got (JFloat (float_value neg i [] e)) r2
      | None => Got (JInt (if neg then - value_of i else value_of i)) r
      end
    end in
  match t with
  | c :: t' =>
    if bool_decide (c = c_zero) then finish [c] t'
    else if is_digit c then let '(d, r) := span_digits t in finish d r
    else Bad
  | [] => Bad
  end.

(** [w] is a prefix of [t]. *)
Fixpoint drop_word (w t : text) : option text :=
  match w, t with
  | [], _ => Some t
  | a :: w', b :: t' => if bool_decide (a = b) then drop_word w' t' else None
  | _, [] => None
  end.

(** scanner.py scan_once for the terms without parts. *)
Definition scan_atom (t : text) : outcome json :=
  match drop_word (chars "null") t with Some r => Got JNull r | None =>
  match drop_word (chars "true") t with Some r => Got (JBool true) r | None =>
  match drop_word (chars "false") t with Some r => Got (JBool false) r | None =>
  match drop_word (chars "NaN") t with Some r => Beyond | None =>
  match drop_word (chars "Infinity") t with Some r => Beyond | None =>
  match drop_word (chars "-Infinity") t with Some r => Beyond | None =>
  match t with
  | c :: t' => if bool_decide (c = c_minus) then scan_unsigned true t' else scan_unsigned false t
  | [] => Bad
  end end end end end end end.

(** scanner.py scan_once, decoder.py JSONArray and JSONObject.  [fuel] bounds the depth of the calls. *)
Fixpoint scan (fuel : nat) (t : text) : outcome json :=
  match fuel, t with
  | S fuel, c :: t' =>
    if bool_decide (c = c_quote) then on_value (fun s => JStr (str s)) (scan_string t')
    else if bool_decide (c = c_lbracket) then
      match skip_ws t' with
      | d :: r => if bool_decide (d = c_rbracket) then Got (JArr []) r else on_value JArr (scan_items fuel (d :: r))
      | [] => Bad
      end
    else if bool_decide (c = c_lbrace) then
      match skip_ws t' with
      | d :: r => if bool_decide (d = c_rbrace) then Got (JObj []) r else on_value (fun l => JObj (dupdate [] l)) (scan_members fuel (d :: r))
      | [] => Bad
      end
    else scan_atom t
  | _, _ => Bad
  end
with scan_items (fuel : nat) (t : text) : outcome (list json) :=
  match fuel with
  | S fuel =>
    match scan fuel t with
    | Got j r =>
      match skip_ws r with
      | c :: r' =>
        if bool_decide (c = c_rbracket) then Got [j] r'
        else if bool_decide (c = c_comma) then on_value (cons j) (scan_items fuel (skip_ws r'))
        else Bad
      | [] => Bad
      end
    | Bad => Bad
    | Beyond => Beyond
    end
  | O => Bad
  end
with scan_members (fuel : nat) (t : text) : outcome (list (string * json)) :=
  match fuel, t with
  | S fuel, q :: t' =>
    if bool_decide (q = c_quote) then
      match scan_string t' with
      | Got k r =>
        match skip_ws r with
        | col :: r1 =>
          if bool_decide (col = c_colon) then
            match scan fuel (skip_ws r1) with
            | Got j r2 =>
              match skip_ws r2 with
              | c :: r' =>
                if bool_decide (c = c_rbrace) then Got [(str k, j)] r'
                else if bool_decide (c = c_comma) then on_value (cons (str k, j)) (scan_members fuel (skip_ws r'))
                else Bad
              | [] => Bad
              end
            | Bad => Bad
            | Beyond => Beyond
            end
          else Bad
        | [] => Bad
        end
      | Bad => Bad
      | Beyond => Beyond
      end
    else Bad
  | _, _ => Bad
  end.

(** decoder.py JSONDecoder.decode: nothing may follow but white space. *)
Inductive loaded := Loaded (j : json) | Rejected | Unknown.
Definition loads (t : text) : loaded :=
  match scan (2 * length t + 2) (skip_ws t) with
  | Got j r => match skip_ws r with [] => Loaded j | _ => Rejected end
  | Bad => Rejected
  | Beyond => Unknown
  end.

(** * Files *)

(** jsonutils.py:38-48: the content of the file written. *)
Definition written (frepr : Q -> text) (d : dataset (list json)) : text := dumps frepr (output_json d).

(** jsonutils.py:51-92 on the content of a file; [None] if the document is not modelled. *)
Definition read_json (t : text) : option (res (dataset (list json))) :=
  match loads (translate t) with
  | Loaded j => Some (input_json (Some j))
  | Rejected => Some (input_json None)
  | Unknown => None
  end.
