(** Model of the file system behind the loaders and the writer: paths
    (posixpath.py of CPython 3), directories and files, and the functions of
    segeval/data/ that take a path.

    Simplified: no links, no permissions, nobody else changes the tree, and the working
    directory is the root. The content of a file is a text (see [Text.v]). *)
From Verif Require Export JsonText.
Open Scope Z_scope.

(** A file, or a directory with its entries in the order of os.listdir. *)
Inductive entry := File (content : text) | Dir (entries : dict entry).

(** OSError: FileNotFoundError, NotADirectoryError, IsADirectoryError. *)
Inductive oserror := Missing | NotADirectory | IsADirectory.

(** What ends a call early: an exception of [Py.v], an OSError, the interruption of a write, or
    a document whose reading is not modelled ([JsonText.v]). *)
Inductive fault := Raised (e : exn) | OSFault (e : oserror) | Interrupted | NotModelled.
Inductive fres (A : Type) := Fine (a : A) | Fails (f : fault).
Arguments Fine {A} a.
Arguments Fails {A} f.

(** * Paths *)

Definition c_slash : char := chr 47.

(** The parts of a path between the slashes; [cur] is the part so far, reversed. *)
Fixpoint split_slash (cur t : text) : list string :=
  match t with
  | [] => [str (reverse cur)]
  | c :: t' => if bool_decide (c = c_slash) then str (reverse cur) :: split_slash [] t' else split_slash (c :: cur) t'
  end.
Definition parts (p : string) : list string := split_slash [] (chars p).

(** posixpath.join of two arguments. *)
Definition path_join (a b : string) : string :=
  if bool_decide (head (chars b) = Some c_slash) then b
  else if bool_decide (a = ""%string) || bool_decide (last (chars a) = Some c_slash) then (a +:+ b)
  else (a +:+ String c_slash b).

(** posixpath.split(p)[1]: what follows the last slash. *)
Definition base_name (p : string) : string := default ""%string (last (parts p)).

(** data/__init__.py:112-119. *)
Definition name_from_filepath (p : string) : string := name_from_filename (base_name p).

(** * Looking up *)

(** The entry at a location: the names from the root to it. *)
Fixpoint entry_at (e : entry) (loc : list string) : option entry :=
  match loc with
  | [] => Some e
  | c :: loc' =>
    match e with
    | File _ => None
    | Dir es => match dget es c with Some e' => entry_at e' loc' | None => None end
    end
  end.

(** Where a path leads: to something, or to a name that its directory does not have. *)
Inductive place := Found (loc : list string) | Vacant (loc : list string) (name : string) | Nowhere (e : oserror).

(** Resolution of a path by the kernel, from the directory [loc] on. *)
Fixpoint walk (fs : entry) (loc : list string) (cs : list string) : place :=
  match cs with
  | [] => Found loc
  | c :: cs' =>
    match entry_at fs loc with
    | Some (Dir es) =>
      if bool_decide (c = ""%string) || bool_decide (c = "."%string) then walk fs loc cs'
      else if bool_decide (c = ".."%string) then walk fs (removelast loc) cs'
      else match dget es c with
           | Some _ => walk fs (loc ++ [c]) cs'
           | None => match cs' with [] => Vacant loc c | _ => Nowhere Missing end
           end
    | _ => Nowhere NotADirectory
    end
  end.
Definition resolve (fs : entry) (p : string) : place :=
  if bool_decide (p = ""%string) then Nowhere Missing else walk fs [] (parts p).

(** os.path.isdir. *)
Definition isdir (fs : entry) (p : string) : bool :=
  match resolve fs p with
  | Found loc => match entry_at fs loc with Some (Dir _) => true | _ => false end
  | _ => false
  end.

(** os.listdir. *)
Definition listdir (fs : entry) (p : string) : fres (list string) :=
  match resolve fs p with
  | Found loc => match entry_at fs loc with Some (Dir es) => Fine es.*1 | _ => Fails (OSFault NotADirectory) end
  | Vacant _ _ => Fails (OSFault Missing)
  | Nowhere e => Fails (OSFault e)
  end.

(** open(p, 'rU').read(). *)
Definition open_read (fs : entry) (p : string) : fres text :=
  match resolve fs p with
  | Found loc =>
    match entry_at fs loc with
    | Some (File t) => Fine t
    | _ => Fails (OSFault IsADirectory)
    end
  | Vacant _ _ => Fails (OSFault Missing)
  | Nowhere e => Fails (OSFault e)
  end.

(** * Writing *)

(** The tree with the file [t] at [loc]; the directory of [loc] exists. *)
Fixpoint put (e : entry) (loc : list string) (t : text) : entry :=
  match loc with
  | [] => File t
  | c :: loc' =>
    match e with
    | File _ => e
    | Dir es => Dir (dset es c (match dget es c with Some e' => put e' loc' t | None => File t end))
    end
  end.

(** codecs.open(p, 'w+'): where the file is, if it can be opened. A path that ends with a slash
    is never created. *)
Definition open_write (fs : entry) (p : string) : fres (list string) :=
  match resolve fs p with
  | Found loc =>
    match entry_at fs loc with
    | Some (File _) => Fine loc
    | _ => Fails (OSFault IsADirectory)
    end
  | Vacant loc name => Fine (loc ++ [name])
  | Nowhere e => Fails (OSFault e)
  end.

(** jsonutils.py:23-35 [__write_json__] of the text [t]. [stop = Some n]: json.dump raises after
    [n] characters (a value that cannot be written, a full disk, an interrupt). *)
Definition write_json (fs : entry) (p : string) (t : text) (stop : option nat) : entry * fres unit :=
  let p := if isdir fs p then path_join p "output.json" else p in
  match open_write fs p with
  | Fails f => (fs, Fails f)
  | Fine loc =>
    match stop with
    | None => (put fs loc t, Fine tt)
    | Some n => (put fs loc (take n t), Fails Interrupted)
    end
  end.

(** jsonutils.py:38-48. *)
Definition output_linear_mass_json (frepr : Q -> text) (fs : entry) (p : string) (d : dataset (list json)) (stop : option nat) : entry * fres unit :=
  write_json fs p (written frepr d) stop.

(** * Reading *)

Definition of_res {A} (r : res A) : fres A := match r with Ok a => Fine a | Err e => Fails (Raised e) end.

(** jsonutils.py:51-92. *)
Definition input_linear_mass_json (fs : entry) (p : string) : fres (dataset (list json)) :=
  match open_read fs p with
  | Fails f => Fails f
  | Fine t => match read_json t with Some r => of_res r | None => Fails NotModelled end
  end.

(** tsv.py:14-52. *)
Definition input_linear_mass_tsv (delim : char) (fs : entry) (p : string) : fres (dataset (list Z)) :=
  match open_read fs p with
  | Fails f => Fails f
  | Fine t => of_res (read_tsv delim (base_name p) t)
  end.

(** tsv.py:55-77. *)
Definition input_linear_positions_tsv (delim : char) (fs : entry) (p : string) : fres (dataset (list Z)) :=
  match open_read fs p with
  | Fails f => Fails f
  | Fine t => of_res (read_positions_tsv delim (base_name p) t)
  end.

(** * Folders *)

(** The dataset under construction, and what ended the call if anything did. *)
Definition loading (C : Type) := (dataset C * option fault)%type.
Definition of_upd {C} (u : upd C) : loading C := (fst u, Raised <$> snd u).

(** data/__init__.py:160-174: the dicts [files] and [dirs] for the names listed. *)
Definition files_of (fs : entry) (t : filetype) (p : string) (names : list string) : dict string :=
  foldl (fun acc name =>
    if isdir fs (path_join p name) then acc
    else if accepted t name then dset acc (fst (splitext name)) (path_join p name) else acc) [] names.
Definition dirs_of (fs : entry) (p : string) (names : list string) : dict string :=
  foldl (fun acc name => if isdir fs (path_join p name) then dset acc name (path_join p name) else acc) [] names.

(** data/__init__.py:178-180. *)
Definition add_file {C} (load : string -> fres (dataset C)) (prepend : list string) (st : loading C) (f : string * string) : loading C :=
  match st with
  | (d, Some e) => (d, Some e)
  | (d, None) =>
    match load (snd f) with
    | Fails e => (d, Some e)
    | Fine other => of_upd (iadd d other (Some prepend))
    end
  end.

(** data/__init__.py:138-190 [load_nested_folders_dict]; [load] is the loader of the file type.
    The recursion is bounded by [fuel], which [load_nested] chooses greater than the depth of
    the tree. *)
Fixpoint load_dir {C} (fuel : nat) (load : string -> fres (dataset C)) (fs : entry) (t : filetype) (p : string) (prepend : list string)
    (st : loading C) : loading C :=
  match fuel with
  | O => (fst st, Some NotModelled)
  | S n =>
    match listdir fs p with
    | Fails f => (fst st, Some f)
    | Fine names =>
      let st := foldl (add_file load prepend) st (files_of fs t p names) in
      foldl (fun st f =>
        match st with
        | (d, Some e) => (d, Some e)
        | (d, None) => load_dir n load fs t (snd f) (prepend ++ [fst f]) (d, None)
        end) st (dirs_of fs p names)
    end
  end.

Fixpoint height (e : entry) : nat :=
  match e with
  | File _ => O
  | Dir es => S ((fix go (l : list (string * entry)) : nat := match l with [] => O | (_, e') :: l' => Nat.max (height e') (go l') end) es)
  end.

Definition load_nested {C} (load : string -> fres (dataset C)) (fs : entry) (t : filetype) (p : string) : fres (dataset C) :=
  match load_dir (S (height fs)) load fs t p [] (empty_dataset, None) with
  | (d, None) => Fine d
  | (_, Some f) => Fails f
  end.
Definition load_nested_json (fs : entry) (p : string) : fres (dataset (list json)) := load_nested (input_linear_mass_json fs) fs JSON p.
Definition load_nested_tsv (fs : entry) (p : string) : fres (dataset (list Z)) := load_nested (input_linear_mass_tsv c_tab fs) fs TSV p.
