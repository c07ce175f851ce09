(** Property C60: the names of the package (segeval/__init__.py). *)
From stdpp Require Import list strings.
From Verif Require Import Dict SpecExports Exports ExportsProofs.

(** Every public name is defined in one module. *)
Theorem C60_unique : forall m m' n, exported m n -> exported m' n -> m = m'.
Proof. exact exported_unique. Qed.
Print Assumptions C60_unique.

(** After any history of accesses and imports, a public name resolves to the object its
    module defines.  The exception is [summarize], which needs one earlier access to
    another public name or import of another module. *)
Theorem C60_resolves : forall h m n, possible h -> exported m n -> n <> "summarize"%string \/ Exists loads h ->
  snd (get_attr (after h) n) = inl (VObj m n).
Proof. exact resolves. Qed.
Print Assumptions C60_resolves.

(** Without that, access to [summarize] fails and changes nothing, so it fails again. *)
Theorem C60_summarize : forall h, possible h -> ~ Exists loads h -> get_attr (after h) "summarize" = (after h, inr ImportError).
Proof. exact summarize_fails. Qed.
Print Assumptions C60_summarize.

(** "Every public name resolves on first access" is false: segeval.compute imports
    segeval.util.math, whose parent package imports segeval.compute. *)
Theorem C60_first_access_refuted : ~ forall m n, exported m n -> snd (get_attr (after []) n) = inl (VObj m n).
Proof.
  intros H. specialize (H "segeval.compute"%string "summarize"%string (proj2 (exported_compute _) eq_refl)).
  rewrite (summarize_fails [] (List.Forall_nil _)) in H; [discriminate H|]. intros E. inversion E.
Qed.
Print Assumptions C60_first_access_refuted.

(** Resolving a name binds all public names of its module in the package. *)
Theorem C60_siblings : forall h m n v, possible h -> exported m n -> snd (get_attr (after h) n) = inl v ->
  forall k, exported m k -> dget (p_attrs (fst (get_attr (after h) n))) k = Some (VObj m k).
Proof. exact siblings. Qed.
Print Assumptions C60_siblings.

(** Other names are an AttributeError. *)
Theorem C60_unknown : forall h n, possible h -> ~ (exists m, exported m n) -> n ∉ initial_names -> ~ package_module ("segeval." +:+ n) ->
  get_attr (after h) n = (after h, inr AttrError).
Proof. exact unknown_name. Qed.
Print Assumptions C60_unknown.

(** Modules can be imported in any order, with the same exception. *)
Theorem C60_imports : forall h m, possible h -> package_module m -> m <> "segeval.compute"%string \/ Exists loads h ->
  snd (import_in (after h) m) = None.
Proof. exact imports_work. Qed.
Print Assumptions C60_imports.

Theorem C60_import_compute : forall h, possible h -> ~ Exists loads h ->
  import_in (after h) "segeval.compute" = (after h, Some ImportError).
Proof. exact import_compute_fails. Qed.
Print Assumptions C60_import_compute.

(** What [dir] lists can be accessed, and it lists all public names. *)
Theorem C60_dir : forall h n, possible h -> n ∈ package_dir -> n <> "summarize"%string \/ Exists loads h ->
  exists v, snd (get_attr (after h) n) = inl v.
Proof. exact dir_resolves. Qed.
Print Assumptions C60_dir.

Theorem C60_dir_complete : forall m n, exported m n -> n ∈ package_dir.
Proof. exact dir_complete. Qed.
Print Assumptions C60_dir_complete.

(** A history that fails twice, then recovers. *)
Definition stumbling : list event := [EGet "summarize"; EImport "segeval.compute"; EGet "nonsense"; EGet "pk"]%string.
Example C60_case :
  exported "segeval.similarity.weight" "weight_t" /\ possible stumbling /\ Exists loads stumbling /\
  (let first := after (take 3 stumbling) in
   (get_attr first "summarize").2 = inr ImportError /\ ("nonsense" ∉ initial_names)%string /\ (get_attr first "nonsense").2 = inr AttrError) /\
  (get_attr (after stumbling) "summarize").2 = inl (VObj "segeval.compute" "summarize") /\
  (get_attr (after stumbling) "weight_t").2 = inl (VObj "segeval.similarity.weight" "weight_t").
Proof.
  split; [|split; [|split; [|split; [split; [|split]|split]]]].
  - eexists. split; [do 13 right; left|do 3 right; left].
  - repeat constructor. eexists. left.
  - do 3 right. left. split; [discriminate|]. exists "segeval.window.pk"%string. eexists. split; [do 15 right; left|left].
  - vm_compute. reflexivity.
  - intros H. repeat (apply elem_of_cons in H as [H|H]; [discriminate H|]). inversion H.
  - vm_compute. reflexivity.
  - vm_compute. reflexivity.
  - vm_compute. reflexivity.
Qed.
