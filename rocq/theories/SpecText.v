(** Specifications of texts: how tables and JSON documents are written. *)
From Verif Require Export Text SpecData.
Open Scope Z_scope.

(** * Tables *)

(** No character of [l] is a separator or the end of a line. *)
Definition unbroken (delim : char) (l : text) : Prop := Forall (fun c => c <> delim /\ c <> c_lf) l.
(** Does not begin with a double quote. *)
Definition unquoted (l : text) : Prop := head l <> Some c_quote.

(** Every double quote twice. *)
Definition doubled (l : text) : text := l ≫= (fun c => if decide (c = c_quote) then [c; c] else [c]).

(** The ways to write a field: as it is, or quoted; what follows a closing quote belongs to the field. *)
Inductive field_text (delim : char) : text -> text -> Prop :=
| plain_field f : unquoted f -> unbroken delim f -> field_text delim f f
| quoted_field f g : unquoted g -> unbroken delim g -> field_text delim (f ++ g) (c_quote :: doubled f ++ c_quote :: g).

(** Fields with separators between them. *)
Inductive row_text (delim : char) : list text -> text -> Prop :=
| row_last f t : field_text delim f t -> row_text delim [f] t
| row_next f t fs ts : field_text delim f t -> row_text delim fs ts -> row_text delim (f :: fs) (t ++ delim :: ts).

(** A row whose last field is quoted but not closed. *)
Inductive open_row (delim : char) : list text -> text -> Prop :=
| open_last f : open_row delim [f] (c_quote :: doubled f)
| open_next f t fs ts : field_text delim f t -> open_row delim fs ts -> open_row delim (f :: fs) (t ++ delim :: ts).

(** Rows, each ended by "\n", which may be missing in the last one. An empty line is a row without fields.
    A quote that is not closed takes in the rest of the text. *)
Inductive table_text (delim : char) : list (list text) -> text -> Prop :=
| table_end : table_text delim [] []
| table_last r t : row_text delim r t -> t <> [] -> table_text delim [r] t
| table_open r t : open_row delim r t -> table_text delim [r] t
| table_empty rows ts : table_text delim rows ts -> table_text delim ([] :: rows) (c_lf :: ts)
| table_row r t rows ts : row_text delim r t -> t <> [] -> table_text delim rows ts -> table_text delim (r :: rows) (t ++ c_lf :: ts).

(** The separator is none of the characters with a meaning of their own. *)
Definition separator (delim : char) : Prop := delim <> c_quote /\ delim <> c_lf /\ delim <> c_cr.

(** [ms] are the lengths of the runs of equal values of [zs]. *)
Definition run_lengths (zs ms : list Z) : Prop :=
  Spec.positive ms /\ zsum ms = zlen zs /\
  forall i x y, zs !! i = Some x -> zs !! S i = Some y -> (cut ms (Z.of_nat (S i)) <-> x <> y).

(** * File names *)

Definition dot : char := chr 46.

(** The extensions of each kind of file, without the dot. *)
Definition words (t : filetype) : list string := match t with TSV => ["tsv"; "csv"] | JSON => ["json"; "jsn"] end%string.

(** The letter [d], in lower case, or its capital. *)
Definition same_letter (d c : char) : Prop := c = d \/ (97 <= Z.of_nat (Ascii.nat_of_ascii d) <= 122 /\ Z.of_nat (Ascii.nat_of_ascii c) + 32 = Z.of_nat (Ascii.nat_of_ascii d)).

(** [name] is [base], a dot and the letters of an extension in any case; [base] has a character that is not a dot. *)
Definition named (t : filetype) (base : text) (name : string) : Prop :=
  exists w ext, w ∈ words t /\ Forall2 same_letter (chars w) ext /\ chars name = base ++ dot :: ext /\ exists c, c ∈ base /\ c <> dot.
