(** Specification of files and paths. *)
From Verif Require Export Files SpecJson.
Open Scope Z_scope.

Definition no_slash (s : string) : Prop := chr 47 ∉ chars s.
(** A name that a directory entry can have. *)
Definition plain_name (s : string) : Prop := s <> ""%string /\ s <> "."%string /\ s <> ".."%string /\ no_slash s.

(** Going down the names [loc] from [e] one comes to [e']. *)
Inductive lies : entry -> list string -> entry -> Prop :=
| lies_here e : lies e [] e
| lies_below es name e loc e' : (name, e) ∈ es -> lies e loc e' -> lies (Dir es) (name :: loc) e'.

(** The root is a directory; in every directory the names are distinct and possible. *)
Definition fs_ok (fs : entry) : Prop :=
  (exists es, fs = Dir es) /\ forall loc es, lies fs loc (Dir es) -> NoDup es.*1 /\ Forall plain_name es.*1.

(** The pieces with slashes between them. *)
Fixpoint slashed (cs : list string) : text :=
  match cs with [] => [] | [c] => chars c | c :: cs' => chars c ++ chr 47 :: slashed cs' end.
Definition pieces (p : string) (cs : list string) : Prop := cs <> [] /\ Forall no_slash cs /\ chars p = slashed cs.

(** The pieces lead from location [loc] to [loc']; every piece but the last has to lead to a directory. *)
Inductive leads (fs : entry) : list string -> list string -> list string -> Prop :=
| leads_end loc : leads fs loc [] loc
| leads_stay loc es c cs loc' : lies fs loc (Dir es) -> c = ""%string \/ c = "."%string -> leads fs loc cs loc' -> leads fs loc (c :: cs) loc'
| leads_up loc es cs loc' : lies fs loc (Dir es) -> leads fs (removelast loc) cs loc' -> leads fs loc (".."%string :: cs) loc'
| leads_down loc c e cs loc' : lies fs (loc ++ [c]) e -> leads fs (loc ++ [c]) cs loc' -> leads fs loc (c :: cs) loc'.

(** The path [p] leads to the location [loc]. *)
Definition at_path (fs : entry) (p : string) (loc : list string) : Prop := p <> ""%string /\ exists cs, pieces p cs /\ leads fs [] cs loc.
Definition file_at (fs : entry) (p : string) (t : text) : Prop := exists loc, at_path fs p loc /\ lies fs loc (File t).
Definition folder_at (fs : entry) (p : string) (es : dict entry) : Prop := exists loc, at_path fs p loc /\ lies fs loc (Dir es).

(** The name [c] in the folder [p]. *)
Definition in_folder (p c : string) : string :=
  if decide (p = ""%string \/ last (chars p) = Some (chr 47)) then (p +:+ c) else (p +:+ String (chr 47) c).

(** [loc] is where a file for path [p] is written: [p] is a folder, which gets a file output.json; or [p] is a file; or it
    leads to a name that an existing folder does not have yet. *)
Inductive target (fs : entry) (p : string) : list string -> Prop :=
| target_folder loc es : at_path fs p loc -> lies fs loc (Dir es) -> (forall sub, ~ lies fs (loc ++ ["output.json"%string]) (Dir sub)) ->
    target fs p (loc ++ ["output.json"%string])
| target_file loc t : at_path fs p loc -> lies fs loc (File t) -> target fs p loc
| target_new loc es cs c : pieces p (cs ++ [c]) -> leads fs [] cs loc -> lies fs loc (Dir es) -> plain_name c -> c ∉ es.*1 -> target fs p (loc ++ [c]).

(** [fs'] is [fs] with the text [t] at [loc] and no other change. *)
Definition only_changed (fs fs' : entry) (loc : list string) (t : text) : Prop :=
  lies fs' loc (File t) /\
  (forall loc' u, loc' <> loc -> lies fs' loc' (File u) <-> lies fs loc' (File u)) /\
  (forall loc', (exists es, lies fs' loc' (Dir es)) <-> (exists es, lies fs loc' (Dir es))).

(** The folder with the entries [es] lists a file [name] with an extension of the type [t], and after it no other one of the
    same base. *)
Definition counts (t : filetype) (es : dict entry) (name : string) (u : text) : Prop :=
  exists pre base post, es = pre ++ (name, File u) :: post /\ named t base name /\ forall name' u', (name', File u') ∈ post -> ~ named t base name'.
(** The same for the folder that one reaches from [loc] by the names [path]. *)
Definition counted (t : filetype) (fs : entry) (loc path : list string) (name : string) (u : text) : Prop :=
  exists es, lies fs (loc ++ path) (Dir es) /\ counts t es name u.

(** The file [u], read as an object [l] of JSON. *)
Definition object_of (u : text) (l : list (string * json)) : Prop := document (JObj l) (translate u).

(** The path of the file that writing to [p] makes. *)
Definition result_path (fs : entry) (p q : string) : Prop :=
  (exists es, folder_at fs p es) /\ q = in_folder p "output.json" \/ (forall es, ~ folder_at fs p es) /\ q = p.

(** The reading of every file with an extension of JSON below [loc] is modelled. *)
Definition json_readable (fs : entry) (loc : list string) : Prop :=
  forall path name u, lies fs (loc ++ path ++ [name]) (File u) -> (exists base, named JSON base name) -> ~ beyond (translate u).

(** In the table [u] the last row that names coder [c] gives [zs]. *)
Definition row_in (u : text) (c : string) (zs : list Z) : Prop :=
  exists header rows pre row post, table_text c_tab (header :: rows) (translate u) /\ rows = pre ++ row :: post /\ row_codes (map str row) c zs /\
    Forall (fun row' => forall zs', ~ row_codes (map str row') c zs') post.
