(** segeval/__init__.py: the package module that imports its names on access, and
    CPython's import system as far as this package uses it. *)
From Coq Require Import Ascii.
From stdpp Require Import list strings.
From Verif Require Import Py Dict.

(** * Modules and their statements *)

(** A module-level statement: [from m import a as b, ...] of a module of this package, an
    import from elsewhere (always succeeds, binds the names) and definitions
    ([def], [class] or assignment). *)
Inductive stmt :=
| SFrom (m : string) (names : list (string * string))
| SExternal (names : list string)
| SDef (names : list string).

(** What a name is bound to: an object made by a statement of module [m], a submodule or
    something from outside the package. *)
Inductive value := VObj (m name : string) | VMod (m : string) | VExternal (name : string).
Global Instance value_eq : EqDecision value.
Proof. solve_decision. Defined.

Inductive iexn := ImportError | AttrError | OutOfFuel.
Global Instance iexn_eq : EqDecision iexn.
Proof. solve_decision. Defined.

(** segeval/__init__.py:29-66 [all_by_module]. *)
Definition all_by_module : list (string * list string) := [
  ("segeval.agreement", ["actual_agreement_linear"]);
  ("segeval.agreement.bias", ["artstein_poesio_bias_linear"]);
  ("segeval.agreement.kappa", ["fleiss_kappa_linear"]);
  ("segeval.agreement.pi", ["fleiss_pi_linear"]);
  ("segeval.data", ["Dataset"; "load_nested_folders_dict"]);
  ("segeval.data.jsonutils", ["Field"; "input_linear_mass_json"; "output_linear_mass_json"]);
  ("segeval.data.tsv", ["input_linear_mass_tsv"]);
  ("segeval.data.samples", ["KAZANTSEVA2012_G5"; "KAZANTSEVA2012_G2"; "COMPLETE_AGREEMENT"; "LARGE_DISAGREEMENT"; "HEARST_1997_STARGAZER"; "HYPOTHESIS_STARGAZER"]);
  ("segeval.ml", ["Average"; "precision"; "recall"; "fmeasure"; "ConfusionMatrix"]);
  ("segeval.similarity", ["boundary_confusion_matrix"; "boundary_statistics"]);
  ("segeval.similarity.boundary", ["boundary_similarity"]);
  ("segeval.similarity.segmentation", ["segmentation_similarity"]);
  ("segeval.similarity.distance.multipleboundary", ["boundary_edit_distance"]);
  ("segeval.similarity.weight", ["weight_a"; "weight_s"; "weight_s_scale"; "weight_t"; "weight_t_scale"]);
  ("segeval.window", ["compute_window_size"]);
  ("segeval.window.pk", ["pk"]);
  ("segeval.window.windowdiff", ["window_diff"]);
  ("segeval.compute", ["summarize"]);
  ("segeval.format", ["BoundaryFormat"; "boundary_string_from_masses"; "convert_positions_to_masses"; "convert_masses_to_positions"; "convert_nltk_to_masses"])
]%string.

(** The module-level statements of every module of the package (tests excluded). *)
Definition bodies : list (string * list stmt) := [
  (** segeval/compute.py *)
  ("segeval.compute", [SFrom "segeval.util.math" [("mean", "mean"); ("std", "std"); ("var", "var"); ("stderr", "stderr")];
    SExternal ["combinations"];
    SDef ["compute_pairwise_values"; "summarize"]]);
  (** segeval/format.py *)
  ("segeval.format", [SExternal ["groupby"];
    SFrom "segeval.util.lang" [("enum", "enum")];
    SDef ["BoundaryFormat"; "convert_positions_to_masses"; "convert_masses_to_positions"; "boundary_string_from_masses"; "convert_nltk_to_masses"]]);
  (** segeval/metric.py *)
  ("segeval.metric", [SFrom "segeval.format" [("BoundaryFormat", "BoundaryFormat")];
    SDef ["METRIC_DEFAULTS"]]);
  (** segeval/agreement/__init__.py *)
  ("segeval.agreement", [SFrom "segeval.data" [("get_coders", "get_coders")];
    SFrom "segeval.similarity" [("SIMILARITY_METRIC_DEFAULTS", "SIMILARITY_METRIC_DEFAULTS")];
    SFrom "segeval.similarity.boundary" [("boundary_similarity", "boundary_similarity")];
    SFrom "segeval.similarity.distance" [("identify_types", "identify_types")];
    SFrom "segeval.format" [("BoundaryFormat", "BoundaryFormat"); ("boundary_string_from_masses", "boundary_string_from_masses"); ("convert_positions_to_masses", "convert_positions_to_masses"); ("convert_nltk_to_masses", "convert_nltk_to_masses")];
    SFrom "segeval.util" [("SegmentationMetricError", "SegmentationMetricError")];
    SDef ["AGREEMENT_METRIC_DEFAULTS"; "__fnc_metric__"; "__potential_boundaries__"; "__boundaries__"; "__actual_agreement_linear__"; "actual_agreement_linear"]]);
  (** segeval/agreement/bias.py *)
  ("segeval.agreement.bias", [SFrom "segeval.agreement" [("__fnc_metric__", "__fnc_metric__")];
    SFrom "segeval.agreement.kappa" [("__fleiss_kappa_linear__", "__fleiss_kappa_linear__")];
    SFrom "segeval.agreement.pi" [("__fleiss_pi_linear__", "__fleiss_pi_linear__")];
    SDef ["__artstein_poesio_bias_linear__"; "artstein_poesio_bias_linear"]]);
  (** segeval/agreement/kappa.py *)
  ("segeval.agreement.kappa", [SExternal ["Decimal"];
    SFrom "segeval.agreement" [("__fnc_metric__", "__fnc_metric__"); ("__actual_agreement_linear__", "__actual_agreement_linear__")];
    SDef ["__fleiss_kappa_linear__"; "fleiss_kappa_linear"]]);
  (** segeval/agreement/pi.py *)
  ("segeval.agreement.pi", [SExternal ["Decimal"];
    SFrom "segeval.agreement" [("__fnc_metric__", "__fnc_metric__"); ("__actual_agreement_linear__", "__actual_agreement_linear__")];
    SDef ["__fleiss_pi_linear__"; "fleiss_pi_linear"]]);
  (** segeval/data/__init__.py *)
  ("segeval.data", [SExternal ["os"; "copy"; "defaultdict"];
    SFrom "segeval.data.tsv" [("input_linear_mass_tsv", "input_linear_mass_tsv")];
    SFrom "segeval.data.jsonutils" [("input_linear_mass_json", "input_linear_mass_json")];
    SFrom "segeval.format" [("BoundaryFormat", "BoundaryFormat")];
    SDef ["FILETYPE_TSV"; "FILETYPE_JSON"; "EXT"; "FNC"; "FILETYPES"; "FILETYPES_DEFAULT"; "Dataset"; "get_coders"; "name_from_filepath"; "DataIOError"; "load_nested_folders_dict"]]);
  (** segeval/data/jsonutils.py *)
  ("segeval.data.jsonutils", [SExternal ["json"; "os"; "codecs"];
    SFrom "segeval.util.lang" [("enum", "enum")];
    SDef ["Field"; "SegmentationType"; "__write_json__"; "output_linear_mass_json"; "input_linear_mass_json"]]);
  (** segeval/data/samples.py *)
  ("segeval.data.samples", [SFrom "segeval.data" [("Dataset", "Dataset")];
    SFrom "segeval.format" [("BoundaryFormat", "BoundaryFormat")];
    SDef ["KAZANTSEVA2012_G5"; "KAZANTSEVA2012_G2"; "HEARST_1997_STARGAZER"; "HYPOTHESIS_STARGAZER"; "COMPLETE_AGREEMENT"; "LARGE_DISAGREEMENT"; "MULTIPLE_BOUNDARY_TYPES"]]);
  (** segeval/data/tsv.py *)
  ("segeval.data.tsv", [SExternal ["csv"];
    SFrom "segeval.format" [("convert_positions_to_masses", "convert_positions_to_masses")];
    SDef ["DEFAULT_DELIMITER"; "input_linear_mass_tsv"; "input_linear_positions_tsv"]]);
  (** segeval/ml/__init__.py *)
  ("segeval.ml", [SExternal ["Decimal"; "defaultdict"];
    SFrom "segeval.util" [("SegmentationMetricError", "SegmentationMetricError")];
    SFrom "segeval.util.math" [("mean", "mean")];
    SFrom "segeval.util.lang" [("enum", "enum")];
    SDef ["Average"; "__value_micro_macro__"; "__precision__"; "__recall__"; "__fmeasure__"; "precision"; "recall"; "fmeasure"; "_InnerConfusionMatrix"; "ConfusionMatrix"]]);
  (** segeval/similarity/__init__.py *)
  ("segeval.similarity", [SFrom "segeval.similarity.distance" [("identify_types", "identify_types")];
    SFrom "segeval.similarity.distance.multipleboundary" [("boundary_edit_distance", "boundary_edit_distance")];
    SFrom "segeval.similarity.weight" [("weight_a", "weight_a"); ("weight_s_scale", "weight_s_scale"); ("weight_t_scale", "weight_t_scale")];
    SFrom "segeval.metric" [("METRIC_DEFAULTS", "METRIC_DEFAULTS")];
    SFrom "segeval.ml" [("ConfusionMatrix", "cm")];
    SFrom "segeval.format" [("BoundaryFormat", "BoundaryFormat"); ("boundary_string_from_masses", "boundary_string_from_masses"); ("convert_positions_to_masses", "convert_positions_to_masses"); ("convert_nltk_to_masses", "convert_nltk_to_masses")];
    SFrom "segeval.util" [("__fnc_metric__", "__fnc_metric__"); ("SegmentationMetricError", "SegmentationMetricError")];
    SDef ["SIMILARITY_METRIC_DEFAULTS"; "__boundary_statistics__"; "__boundary_confusion_matrix__"; "boundary_confusion_matrix"; "boundary_statistics"]]);
  (** segeval/similarity/boundary.py *)
  ("segeval.similarity.boundary", [SFrom "segeval.similarity" [("__boundary_statistics__", "__boundary_statistics__"); ("SIMILARITY_METRIC_DEFAULTS", "SIMILARITY_METRIC_DEFAULTS")];
    SFrom "segeval.util" [("__fnc_metric__", "__fnc_metric__")];
    SExternal ["Decimal"];
    SDef ["__boundary_similarity__"; "boundary_similarity"]]);
  (** segeval/similarity/segmentation.py *)
  ("segeval.similarity.segmentation", [SFrom "segeval.similarity" [("__boundary_statistics__", "__boundary_statistics__"); ("SIMILARITY_METRIC_DEFAULTS", "SIMILARITY_METRIC_DEFAULTS")];
    SFrom "segeval.util" [("__fnc_metric__", "__fnc_metric__")];
    SExternal ["Decimal"];
    SDef ["__segmentation_similarity__"; "segmentation_similarity"]]);
  (** segeval/similarity/weight.py *)
  ("segeval.similarity.weight", [SExternal ["Decimal"];
    SDef ["weight_a"; "weight_s"; "weight_s_scale"; "weight_t"; "weight_t_scale"]]);
  (** segeval/similarity/distance/__init__.py *)
  ("segeval.similarity.distance", [SDef ["identify_types"]]);
  (** segeval/similarity/distance/multipleboundary.py *)
  ("segeval.similarity.distance.multipleboundary", [SExternal ["permutations"; "namedtuple"];
    SDef ["Addition"; "Substitution"; "Transposition"; "Difference"; "__additions_substitutions__"; "__additions_substitutions_sets__"; "__has_substitutions__"; "__overlaps_existing__"; "__transpositions__"; "__optional_set_edits__"; "__boundary_edit_distance__"; "boundary_edit_distance"]]);
  (** segeval/util/__init__.py *)
  ("segeval.util", [SFrom "segeval.compute" [("compute_pairwise_values", "compute_pairwise_values")];
    SDef ["SegmentationMetricError"; "__fnc_metric__"]]);
  (** segeval/util/lang.py *)
  ("segeval.util.lang", [SDef ["enum"]]);
  (** segeval/util/math.py *)
  ("segeval.util.math", [SExternal ["Decimal"];
    SDef ["mean"; "var"; "std"; "stderr"; "__all__"]]);
  (** segeval/window/__init__.py *)
  ("segeval.window", [SExternal ["Decimal"];
    SFrom "segeval.metric" [("METRIC_DEFAULTS", "METRIC_DEFAULTS")];
    SFrom "segeval.format" [("BoundaryFormat", "BoundaryFormat"); ("convert_positions_to_masses", "convert_positions_to_masses")];
    SFrom "segeval.util" [("SegmentationMetricError", "SegmentationMetricError")];
    SFrom "segeval.util.math" [("mean", "mean")];
    SDef ["WINDOW_METRIC_DEFAULTS"; "__compute_window_size__"; "compute_window_size"]]);
  (** segeval/window/pk.py *)
  ("segeval.window.pk", [SExternal ["Decimal"];
    SFrom "segeval.window" [("__compute_window_size__", "__compute_window_size__"); ("WINDOW_METRIC_DEFAULTS", "WINDOW_METRIC_DEFAULTS")];
    SFrom "segeval.util" [("__fnc_metric__", "__fnc_metric__"); ("SegmentationMetricError", "SegmentationMetricError")];
    SFrom "segeval.format" [("BoundaryFormat", "BoundaryFormat"); ("convert_masses_to_positions", "convert_masses_to_positions"); ("convert_nltk_to_masses", "convert_nltk_to_masses")];
    SDef ["__pk__"; "pk"]]);
  (** segeval/window/windowdiff.py *)
  ("segeval.window.windowdiff", [SExternal ["Decimal"];
    SFrom "segeval.window" [("__compute_window_size__", "__compute_window_size__"); ("WINDOW_METRIC_DEFAULTS", "WINDOW_METRIC_DEFAULTS")];
    SFrom "segeval.format" [("BoundaryFormat", "BoundaryFormat"); ("convert_masses_to_positions", "convert_masses_to_positions"); ("convert_positions_to_masses", "convert_positions_to_masses"); ("convert_nltk_to_masses", "convert_nltk_to_masses")];
    SFrom "segeval.util" [("__fnc_metric__", "__fnc_metric__"); ("SegmentationMetricError", "SegmentationMetricError")];
    SDef ["WINDOWDIFF_METRIC_DEFAULTS"; "__create_paired_window__"; "__window_diff__"; "window_diff"]])
]%string.

(** * Names with dots *)

Fixpoint components_of (acc : string) (s : string) : list string :=
  match s with
  | EmptyString => [acc]
  | String c s' => if Ascii.eqb c "."%char then acc :: components_of "" s' else components_of (acc +:+ String c "")%string s'
  end.
Definition components (s : string) : list string := components_of "" s.

(** "a.b.c" as the list (a, -), (a.b, a), (a.b.c, a.b) of packages with their parents,
    the outermost first, each with its last component. *)
Fixpoint steps_from (parent : string) (cs : list string) : list (string * string * string) :=
  match cs with
  | [] => []
  | c :: cs' => let m := parent +:+ "." +:+ c in (m, parent, c) :: steps_from m cs'
  end.
Definition steps (m : string) : list (string * string * string) :=
  match components m with [] => [] | c :: cs => steps_from c cs end.

(** * Importing *)

(** [sys.modules] without the package module itself: the namespace of every module that
    is loaded or being loaded. *)
Notation modules := (dict (dict value)).

(** The modules and the names that got bound in the package module. *)
Notation istate := (modules * list string)%type.

Definition bind_in (m k : string) (v : value) (s : istate) : istate :=
  (match dget (fst s) m with Some ns => dset (fst s) m (dset ns k v) | None => fst s end, snd s).

(** A successful import binds the module in its parent. *)
Definition bind_child (m parent c : string) (s : istate) : istate :=
  if decide (parent = "segeval"%string) then (fst s, snd s ++ [c]) else bind_in parent c (VMod m) s.

Section Body.
Context (import : istate -> string -> istate * option iexn).

(** [from m import names]: the names are taken from the namespace of [m], which may be
    partially initialised.  (The fallback to submodules is not modelled: no name imported
    in this package is a submodule.) *)
Fixpoint bind_names (self m : string) (names : list (string * string)) (s : istate) : istate * option iexn :=
  match names with
  | [] => (s, None)
  | (a, b) :: names' =>
    match dget (fst s) m ≫= (fun ns => dget ns a) with
    | Some v => bind_names self m names' (bind_in self b v s)
    | None => (s, Some ImportError)
    end
  end.

Definition exec (self : string) (st : stmt) (s : istate) : istate * option iexn :=
  match st with
  | SExternal names => (foldl (fun s n => bind_in self n (VExternal n) s) s names, None)
  | SDef names => (foldl (fun s n => bind_in self n (VObj self n) s) s names, None)
  | SFrom m names =>
    match import s m with
    | (s', None) => bind_names self m names s'
    | r => r
    end
  end.

Fixpoint exec_all (self : string) (b : list stmt) (s : istate) : istate * option iexn :=
  match b with
  | [] => (s, None)
  | st :: b' => match exec self st s with (s', None) => exec_all self b' s' | r => r end
  end.
End Body.

(** [importlib._bootstrap._find_and_load]: a module that is not in [sys.modules] is entered
    there, executed and bound in its parent; it is removed if that fails.  Parents are
    loaded first. *)
Definition body_of (m : string) : option (list stmt) := dget bodies m.
Definition load_step (import : istate -> string -> istate * option iexn) (r : istate * option iexn) (step : string * string * string) :
    istate * option iexn :=
  match r with
  | (s, Some e) => (s, Some e)
  | (s, None) =>
    let '(m, parent, c) := step in
    match dget (fst s) m, body_of m with
    | Some _, _ => (s, None)
    | None, None => (s, Some ImportError)
    | None, Some b =>
      match exec_all import m b (dset (fst s) m [], snd s) with
      | (s', None) => (bind_child m parent c s', None)
      | (s', Some e) => ((ddel (fst s') m, snd s'), Some e)
      end
    end
  end.
Fixpoint import_module (fuel : nat) (s : istate) (m : string) : istate * option iexn :=
  match fuel with
  | O => (s, Some OutOfFuel)
  | S fuel' => foldl (load_step (import_module fuel')) (s, None) (steps m)
  end.

(** The nesting of imports is bounded by the number of modules. *)
Definition fuel : nat := S (length bodies).

(** * The package module *)

(** segeval/__init__.py:69-72 [object_origins]. *)
Definition object_origins : dict string :=
  foldl (fun d e => foldl (fun d n => dset d n (fst e)) d (snd e)) [] all_by_module.

(** segeval/__init__.py:102-116, with the attributes every module has. *)
Definition initial_names : list string :=
  ["__file__"; "__path__"; "__package__"; "__project__"; "__doc__"; "__version__"; "__version_number__"; "__author__"; "__author_email__";
   "__copyright__"; "__all__"; "__docformat__"; "__description__"; "__name__"; "__loader__"; "__spec__"; "__dict__"; "__class__"]%string.

Record package := Package { p_modules : modules; p_attrs : dict value }.
Definition fresh_package : package := Package [] ((fun n => (n, VExternal n)) <$> initial_names).

(** Import of [m] with its effect on the package module. *)
Definition import_in (p : package) (m : string) : package * option iexn :=
  match import_module fuel (p_modules p, []) m with
  | ((ms, tops), e) => (Package ms (foldl (fun a c => dset a c (VMod ("segeval." +:+ c))) (p_attrs p) tops), e)
  end.

Fixpoint set_all (ns : dict value) (names : list string) (a : dict value) : dict value * option iexn :=
  match names with
  | [] => (a, None)
  | n :: names' => match dget ns n with Some v => set_all ns names' (dset a n v) | None => (a, Some AttrError) end
  end.

(** segeval/__init__.py:75-85: attribute access; [__getattr__] is called for names that are
    not bound yet. *)
Definition get_attr (p : package) (name : string) : package * (value + iexn) :=
  match dget (p_attrs p) name with
  | Some v => (p, inl v)
  | None =>
    match dget object_origins name with
    | None => (p, inr AttrError)
    | Some m =>
      match import_in p m with
      | (p', Some e) => (p', inr e)
      | (p', None) =>
        let ns := default [] (dget (p_modules p') m) in
        match set_all ns (default [] (dget all_by_module m)) (p_attrs p') with
        | (a, Some e) => (Package (p_modules p') a, inr e)
        | (a, None) => (Package (p_modules p') a, match dget ns name with Some v => inl v | None => inr AttrError end)
        end
      end
    end
  end.

(** segeval/__init__.py:86-93 [__dir__]. *)
Definition package_dir : list string :=
  concat (snd <$> all_by_module) ++
  ["__file__"; "__path__"; "__doc__"; "__all__"; "__docformat__"; "__name__"; "__path__"; "__package__"; "__project__"; "__version__"]%string.

(** What a program does with the package. *)
Inductive event := EGet (name : string) | EImport (m : string).
Definition step (p : package) (e : event) : package :=
  match e with EGet n => fst (get_attr p n) | EImport m => fst (import_in p m) end.
Definition after (h : list event) : package := foldl step fresh_package h.
