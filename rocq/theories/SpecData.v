(** Specifications for datasets, independent of how they are merged, read or
    written: which coding an item has from a coder. *)
From Verif Require Export Data Spec.
Open Scope Z_scope.

(** The coding of item [i] by coder [c]. *)
Definition coding_at {C} (items : dict (dict C)) (i c : string) : option C :=
  match dget items i with Some cs => dget cs c | None => None end.

(** A dict of dicts: no item twice, no coder twice for one item. *)
Definition items_ok {C} (items : dict (dict C)) : Prop :=
  dict_ok items /\ forall i cs, (i, cs) ∈ items -> dict_ok cs.

(** The name under which an item is filed: the path, then the item, separated by
    commas. *)
Definition filed (path : option (list string)) (i j : string) : Prop :=
  match path with
  | None => j = i
  | Some ps => j = foldr (fun p rest => p +:+ "," +:+ rest) i ps
  end.

(** Coder [c] has coded some item. *)
Definition codes {C} (items : dict (dict C)) (c : string) : Prop := exists i v, coding_at items i c = Some v.

(** Some item is coded by one coder in both. *)
Definition clash {C} (path : option (list string)) (a b : dict (dict C)) : Prop :=
  exists i j c, filed path i j /\ is_Some (coding_at b i c) /\ is_Some (coding_at a j c).

(** * JSON documents *)

(** [v] is the value of key [k] of the object [j]. *)
Definition member (j : json) (k : string) (v : json) : Prop := exists l, j = JObj l /\ (k, v) ∈ l.
Definition lacks (j : json) (k : string) : Prop := exists l, j = JObj l /\ k ∉ l.*1.

(** No object of the document has a key twice. *)
Fixpoint json_ok (j : json) : Prop :=
  match j with
  | JArr l => (fix all l := match l with [] => True | x :: l' => json_ok x /\ all l' end) l
  | JObj l => NoDup l.*1 /\ (fix all l := match l with [] => True | (_, x) :: l' => json_ok x /\ all l' end) l
  | _ => True
  end.

(** Equal but for the order of keys, as Python compares dicts. *)
Inductive same_json : json -> json -> Prop :=
| same_refl j : same_json j j
| same_arr l l' : Forall2 same_json l l' -> same_json (JArr l) (JArr l')
| same_obj l l1 l' : Forall2 (fun p q => fst p = fst q /\ same_json (snd p) (snd q)) l l1 -> l1 ≡ₚ l' -> same_json (JObj l) (JObj l').

(** The elements of a value that can be iterated over. *)
Inductive yields : json -> list json -> Prop :=
| yields_array l : yields (JArr l) l
| yields_string s : yields (JStr s) (map (fun c => JStr (String c EmptyString)) (String.list_ascii_of_string s))
| yields_object l : yields (JObj l) (map JStr l.*1).

(** Document [j] has coding [m] of item [i] by coder [c]. *)
Definition coded_in (j : json) (i c : string) (m : list json) : Prop :=
  exists items it v, member j "items" items /\ member items i it /\ member it c v /\ yields v m.

(** The document is laid out as the loader expects it: items, coders and
    something that can be iterated over. *)
Definition well_formed (j : json) : Prop :=
  exists items, member j "items" (JObj items) /\
    forall i it, (i, it) ∈ items -> exists cs, it = JObj cs /\ forall c v, (c, v) ∈ cs -> exists m, yields v m.

(** Masses: every element is an int. *)
Definition is_masses (m : list json) : Prop := exists z : list Z, m = JInt <$> z.

(** * Tables *)

(** [c] is the digit of value [d]. *)
Definition digit_char (c : Ascii.ascii) (d : Z) : Prop := 0 <= d <= 9 /\ c = Ascii.ascii_of_nat (Z.to_nat (48 + d)).

(** Decimal digits, with single underscores allowed between two of them. *)
Inductive digits : list Ascii.ascii -> Z -> Prop :=
| digits_one c d : digit_char c d -> digits [c] d
| digits_more l v c d : digits l v -> digit_char c d -> digits (l ++ [c]) (10 * v + d)
| digits_under l v c d : digits l v -> digit_char c d -> digits (l ++ [Ascii.ascii_of_nat 95; c]) (10 * v + d).

(** White space. *)
Definition blank (c : Ascii.ascii) : Prop := Ascii.nat_of_ascii c ∈ [32; 9; 10; 11; 12; 13; 28; 29; 30; 31]%nat.

(** The text [s] is the integer [z]: digits with an optional sign, surrounded by
    white space. *)
Definition integer_text (s : string) (z : Z) : Prop :=
  exists before sign l after v, String.list_ascii_of_string s = before ++ sign ++ l ++ after /\
    Forall blank before /\ Forall blank after /\ digits l v /\
    (sign = [] /\ z = v \/ sign = [Ascii.ascii_of_nat 43] /\ z = v \/ sign = [Ascii.ascii_of_nat 45] /\ z = - v).

(** A data row: a coder and integers. *)
Definition row_codes (row : list string) (c : string) (zs : list Z) : Prop :=
  exists cols, row = c :: cols /\ Forall2 integer_text cols zs.

(** * Folders *)

(** The directory at [path] has the entries [sub]. *)
Inductive dir_at {C} : list (string * node C) -> list string -> list (string * node C) -> Prop :=
| dir_here entries : dir_at entries [] entries
| dir_below entries name sub path found : (name, NDir sub) ∈ entries -> dir_at sub path found -> dir_at entries (name :: path) found.

(** No directory has two entries of one name. *)
Definition tree_ok {C} (entries : list (string * node C)) : Prop :=
  forall path sub, dir_at entries path sub -> NoDup sub.*1.

(** The file name without its extension. *)
Definition stem (name : string) : string := fst (splitext name).

(** The directory lists the accepted file [name], and no later one of the same
    stem. *)
Definition kept {C} (t : filetype) (sub : list (string * node C)) (name : string) (load : res (dataset C)) : Prop :=
  exists pre post, sub = pre ++ (name, NFile load) :: post /\ accepted t name = true /\
    forall name' load', (name', NFile load') ∈ post -> accepted t name' = true -> stem name' <> stem name.

(** No directory has two accepted files of one stem. *)
Definition stems_distinct {C} (t : filetype) (entries : list (string * node C)) : Prop :=
  forall path sub i j n1 n2 l1 l2, dir_at entries path sub -> sub !! i = Some (n1, NFile l1) -> sub !! j = Some (n2, NFile l2) ->
    accepted t n1 = true -> accepted t n2 = true -> stem n1 = stem n2 -> i = j.

(** The datasets of all files that count are dicts of dicts. *)
Definition loads_ok {C} (entries : list (string * node C)) : Prop :=
  forall path sub name d, dir_at entries path sub -> (name, NFile (Ok d)) ∈ sub -> items_ok (ds_items d).
