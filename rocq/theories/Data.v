(** Model of segeval/data/__init__.py (Dataset), jsonutils.py and tsv.py. *)
From Verif Require Export Dict Format.
Open Scope Z_scope.

(** * JSON values *)
Inductive json :=
| JNull | JBool (b : bool) | JInt (z : Z) | JFloat (q : Q) | JStr (s : string)
| JArr (l : list json) | JObj (l : list (string * json)).

(** segeval/data/__init__.py:27-57 [Dataset]: items to coders to codings, plus
    properties, coder names, format and types.  [C] is the type of codings.
    Inner dicts are values here; sharing of inner dicts is modelled in Heap.v. *)
Record dataset (C : Type) := Dataset {
  ds_items : dict (dict C);
  ds_props : dict json;
  ds_types : gset Z;
  ds_format : fmt;
  ds_coders : gset string
}.
Arguments Dataset {C}.
Arguments ds_items {C}.
Arguments ds_props {C}.
Arguments ds_types {C}.
Arguments ds_format {C}.
Arguments ds_coders {C}.

(** data/__init__.py:53-57: the names of all coders. *)
Definition all_coders {C} (items : dict (dict C)) : gset string :=
  ⋃ ((fun d => list_to_set (d.*1)) <$> items.*2).

(** data/__init__.py:33-57 [Dataset.__init__]. *)
Definition new_dataset {C} (data : option (dict (dict C))) (props : option (dict json))
  (types : option (list Z)) (f : fmt) : dataset C :=
  let items := dupdate [] (default [] data) in
  Dataset items (dupdate [] (default [] props))
    (match types with Some l => list_to_set l | None => {[1]} end) f (all_coders items).

Definition empty_dataset {C} : dataset C := new_dataset None None None FMass.

Definition with_items {C} (d : dataset C) (items : dict (dict C)) : dataset C :=
  Dataset items (ds_props d) (ds_types d) (ds_format d) (ds_coders d).
Definition with_coders {C} (d : dataset C) (coders : gset string) : dataset C :=
  Dataset (ds_items d) (ds_props d) (ds_types d) (ds_format d) coders.

(** A computation that has changed the dataset [d] when it returns or raises. *)
Definition upd (C : Type) := (dataset C * option exn)%type.

(** data/__init__.py:73-79: add one coding; the coder name is recorded before
    the duplicate check. *)
Definition iadd_coding {C} (item : string) (st : upd C) (cm : string * C) : upd C :=
  match st with
  | (d, Some e) => (d, Some e)
  | (d, None) =>
    let '(coder, coding) := cm in
    let d := with_coders d ({[coder]} ∪ ds_coders d) in
    let codings := default [] (dget (ds_items d) item) in
    if dmem codings coder then (d, Some DataIOError)
    else (with_items d (dset (ds_items d) item (dset codings coder coding)), None)
  end.

(** data/__init__.py:65-69. *)
Definition prefixed (prepend : option (list string)) (item : string) : string :=
  match prepend with None => item | Some ps => join_comma (ps ++ [item]) end.

(** data/__init__.py:64-79: add one item. *)
Definition iadd_item {C} (prepend : option (list string)) (st : upd C) (ic : string * dict C) : upd C :=
  match st with
  | (d, Some e) => (d, Some e)
  | (d, None) =>
    let '(item, codings) := ic in
    let item := prefixed prepend item in
    let d := if dmem (ds_items d) item then d
             else with_items d (dset (ds_items d) item []) in
    foldl (iadd_coding item) (d, None) codings
  end.

(** data/__init__.py:59-80 [Dataset.__iadd__]; returns the changed [self] and
    the exception, if any ([other] must not be [self]). *)
Definition iadd {C} (self other : dataset C) (prepend : option (list string)) : upd C :=
  foldl (iadd_item prepend) (self, None) (ds_items other).

(** data/__init__.py:82-100 [__add__]: values are copied, so this is [iadd] on
    the same value. *)
Definition ds_add {C} (self other : dataset C) : res (dataset C) :=
  match iadd self other None with (d, None) => Ok d | (_, Some e) => Err e end.

(** data/__init__.py:102-109 [get_coders] for a Dataset or a plain dict. *)
Definition get_coders {C} (is_dataset : bool) (d : dataset C) : gset string :=
  if is_dataset then ds_coders d else all_coders (ds_items d).

(** * JSON files: jsonutils.py *)

Definition f_type : string := "segmentation_type".
Definition f_items : string := "items".
Definition v_linear : string := "linear".

(** A coding of a dataset as JSON data (a tuple becomes an array). *)
Definition json_items (items : dict (dict (list json))) : json :=
  JObj ((fun '(i, cs) => (i, JObj ((fun '(c, m) => (c, JArr m)) <$> cs))) <$> items).

(** jsonutils.py:38-48 [output_linear_mass_json]: the object handed to
    [json.dump]. *)
Definition output_json (d : dataset (list json)) : json :=
  let data := [(f_type, JStr v_linear)] in
  let data := dset data f_items (json_items (ds_items d)) in
  JObj (dupdate data (ds_props d)).

(** Keys in increasing order (an insertion sort). *)
Fixpoint key_insert {V} (k : string) (v : V) (d : dict V) : dict V :=
  match d with
  | [] => [(k, v)]
  | (k', v') :: d' => if String.leb k k' then (k, v) :: d else (k', v') :: key_insert k v d'
  end.
Definition key_sort {V} (d : dict V) : dict V := foldr (fun kv acc => key_insert (fst kv) (snd kv) acc) [] d.

(** jsonutils.py:33 [json.dump(data, sort_keys=True)] followed by [json.load]:
    scalars and arrays come back as they were and the keys of every object come
    back in increasing order.  JsonText.v models the text in between. *)
Fixpoint dump_load (j : json) : json :=
  match j with
  | JArr l => JArr (map dump_load l)
  | JObj l => JObj (key_sort (map (fun '(k, v) => (k, dump_load v)) l))
  | _ => j
  end.

(** [tuple(masses)]: the elements of an iterable JSON value. *)
Definition json_tuple (j : json) : res (list json) :=
  match j with
  | JArr l => Ok l
  | JStr s => Ok ((fun c => JStr (String c EmptyString)) <$> String.list_ascii_of_string s)
  | JObj l => Ok ((fun kv => JStr (fst kv)) <$> l)
  | _ => Err TypeError
  end.

(** [value.items()]. *)
Definition json_obj (j : json) : res (dict json) :=
  match j with JObj l => Ok l | _ => Err AttributeError end.

(** jsonutils.py:83-86. *)
Definition load_coding (acc : dict (list json)) (cm : string * json) : res (dict (list json)) :=
  let* m := json_tuple (snd cm) in Ok (dset acc (fst cm) m).

Definition load_item (acc : dict (dict (list json))) (ic : string * json) : res (dict (dict (list json))) :=
  let* cs := json_obj (snd ic) in
  let* codings := foldM load_coding cs [] in
  Ok (dset acc (fst ic) codings).

(** Substring test, [needle in hay] for two strings. *)
Fixpoint str_contains (needle hay : string) : bool :=
  String.prefix needle hay || match hay with EmptyString => false | String _ h => str_contains needle h end.

(** [j == 'linear']. *)
Definition json_is_str (j : json) (s : string) : bool :=
  match j with JStr t => bool_decide (t = s) | _ => false end.

(** jsonutils.py:51-92 [input_linear_mass_json] on a parsed document; [None]
    is a text that [json.load] rejects.  Documents that are not objects raise as
    the Python operators [in] and [[]] do. *)
Definition input_json (doc : option json) : res (dataset (list json)) :=
  match doc with
  | None => Err DataIOError
  | Some (JObj data) =>
    match dget data f_type with
    | None => Err DataIOError
    | Some t =>
      if negb (json_is_str t v_linear) then Err DataIOError
      else match dget data f_items with
           | None => Err DataIOError
           | Some items =>
             let* its := json_obj items in
             let* ds := foldM load_item its [] in
             Ok (Dataset ds (ddel data f_items) {[1]} FMass ∅)
           end
    end
  | Some (JArr l) =>
    if existsb (fun j => json_is_str j f_type) l then Err TypeError else Err DataIOError
  | Some (JStr s) => if str_contains f_type s then Err TypeError else Err DataIOError
  | Some _ => Err TypeError
  end.

(** * TSV files: tsv.py *)

(** [int(s)] for a decimal string: an optional sign and ASCII digits with
    single underscores between them, surrounded by blanks. *)
Definition is_digit (c : Ascii.ascii) : bool :=
  let n := Ascii.nat_of_ascii c in (48 <=? n)%nat && (n <=? 57)%nat.
Definition digit (c : Ascii.ascii) : Z := Z.of_nat (Ascii.nat_of_ascii c) - 48.
Definition is_blank (c : Ascii.ascii) : bool :=
  let n := Ascii.nat_of_ascii c in (n =? 32)%nat || ((9 <=? n)%nat && (n <=? 13)%nat)
    || ((28 <=? n)%nat && (n <=? 31)%nat).

Fixpoint skip_blanks (l : list Ascii.ascii) : list Ascii.ascii :=
  match l with c :: l' => if is_blank c then skip_blanks l' else l | [] => [] end.
Definition strip (l : list Ascii.ascii) : list Ascii.ascii :=
  reverse (skip_blanks (reverse (skip_blanks l))).

Definition is_underscore (c : Ascii.ascii) : bool := (Ascii.nat_of_ascii c =? 95)%nat.

(** [acc]: value so far; [d]: whether the previous character was a digit. *)
Fixpoint digits_value (acc : Z) (d : bool) (l : list Ascii.ascii) : option Z :=
  match l with
  | [] => if d then Some acc else None
  | c :: l' =>
    if is_digit c then digits_value (10 * acc + digit c) true l'
    else if is_underscore c && d then digits_value acc false l'
    else None
  end.

Definition parse_int (s : string) : res Z :=
  let l := strip (String.list_ascii_of_string s) in
  let r := match l with
           | c :: l' =>
             if (Ascii.nat_of_ascii c =? 45)%nat then option_map Z.opp (digits_value 0 false l')
             else if (Ascii.nat_of_ascii c =? 43)%nat then digits_value 0 false l'
             else digits_value 0 false l
           | [] => None
           end in
  match r with Some z => Ok z | None => Err ValueError end.

(** tsv.py:42-50: one data row.  The first column names the coder and starts an
    empty list; a row without columns fails with KeyError(None). *)
Definition tsv_row (acc : dict (list Z)) (row : list string) : res (dict (list Z)) :=
  match row with
  | [] => Err KeyError
  | coder :: cols =>
    let* l := foldM (fun l col => let* z := parse_int col in Ok (l ++ [z])) cols [] in
    Ok (dset acc coder l)
  end.

(** tsv.py:14-52 [input_linear_mass_tsv]; [rows] is what csv.reader yields and
    [item] the name derived from the file name.  [i is 0] holds for the first
    row only. *)
Definition input_tsv (item : string) (rows : list (list string)) : res (dataset (list Z)) :=
  let* codings := foldM tsv_row (tail rows) [] in
  Ok (with_items empty_dataset [(item, codings)]).

(** tsv.py:55-77 [input_linear_positions_tsv]. *)
Definition input_positions_tsv (item : string) (rows : list (list string)) : res (dataset (list Z)) :=
  let* d := input_tsv item rows in
  Ok (with_items d (map (fun ic => (fst ic, map (fun cm => (fst cm, group_lengths (snd cm))) (snd ic)))
                        (ds_items d))).

(** * Files and folders *)

(** [str.rfind('.')]-based [os.path.splitext] on a base name: the extension
    starts at the last dot unless only dots precede it. *)
Fixpoint leading_dots (l : list Ascii.ascii) : nat :=
  match l with c :: l' => if (Ascii.nat_of_ascii c =? 46)%nat then S (leading_dots l') else O | [] => O end.

(** Position of the last dot, if any. *)
Fixpoint last_dot (i : nat) (l : list Ascii.ascii) (acc : option nat) : option nat :=
  match l with
  | [] => acc
  | c :: l' => last_dot (S i) l' (if (Ascii.nat_of_ascii c =? 46)%nat then Some i else acc)
  end.

Definition splitext (name : string) : string * string :=
  let l := String.list_ascii_of_string name in
  match last_dot 0 l None with
  | Some i =>
    if (leading_dots l <=? i)%nat
    then (String.string_of_list_ascii (take i l), String.string_of_list_ascii (drop i l))
    else (name, ""%string)
  | None => (name, ""%string)
  end.

Definition lower_ascii (c : Ascii.ascii) : Ascii.ascii :=
  let n := Ascii.nat_of_ascii c in
  if (65 <=? n)%nat && (n <=? 90)%nat then Ascii.ascii_of_nat (n + 32) else c.
Definition lower (s : string) : string :=
  String.string_of_list_ascii (lower_ascii <$> String.list_ascii_of_string s).

(** data/__init__.py:112-119 [name_from_filepath] on the base name. *)
Definition name_from_filename (name : string) : string :=
  let basic := fst (splitext name) in
  if (0 <? String.length basic)%nat then basic else name.

(** A file as the two loaders see it, and a directory tree (entries in the
    order of [os.listdir]). *)
Inductive node (C : Type) := NFile (load : res (dataset C)) | NDir (entries : list (string * node C)).
Arguments NFile {C} load.
Arguments NDir {C} entries.

Inductive filetype := TSV | JSON.

(** data/__init__.py:20-23. *)
Definition extensions (t : filetype) : list string :=
  match t with TSV => [".tsv"; ".csv"] | JSON => [".json"; ".jsn"] end%string.

Definition accepted (t : filetype) (name : string) : bool :=
  let ext := snd (splitext name) in
  (0 <? String.length ext)%nat && bool_decide (lower ext ∈ extensions t).

(** data/__init__.py:160-174: the dicts [files] (by stem) and [dirs]. *)
Definition list_files {C} (t : filetype) (entries : list (string * node C)) : dict (res (dataset C)) :=
  foldl (fun acc '(name, n) =>
    match n with
    | NFile load => if accepted t name then dset acc (fst (splitext name)) load else acc
    | NDir _ => acc
    end) [] entries.

(** data/__init__.py:178-180. *)
Definition load_file {C} (prepend : list string) (st : upd C) (f : string * res (dataset C)) : upd C :=
  match st with
  | (d, Some e) => (d, Some e)
  | (d, None) =>
    match snd f with
    | Err e => (d, Some e)
    | Ok other => iadd d other (Some prepend)
    end
  end.

(** data/__init__.py:138-190 [load_nested_folders_dict] on the entries of a
    directory; directory names are distinct, so [dirs] keeps them all. *)
Fixpoint load_entries {C} (t : filetype) (prepend : list string) (n : node C) (st : upd C) : upd C :=
  match n with
  | NFile _ => st
  | NDir entries =>
    let st := foldl (load_file prepend) st (list_files t entries) in
    (fix go (l : list (string * node C)) (st : upd C) : upd C :=
       match l with
       | [] => st
       | (name, sub) :: l' =>
         go l' (match st with
                | (d, Some e) => st
                | (d, None) => load_entries t (prepend ++ [name]) sub st
                end)
       end) entries st
  end.

Definition load_nested_folders {C} (t : filetype) (entries : list (string * node C)) : res (dataset C) :=
  match load_entries t [] (NDir entries) (empty_dataset, None) with
  | (d, None) => Ok d
  | (_, Some e) => Err e
  end.
