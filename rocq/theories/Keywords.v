(** How keyword arguments travel: [__fnc_metric__] of segeval/util/__init__.py and
    of segeval/agreement/__init__.py, the tables of defaults, and the binding of
    keywords to the parameters of the metrics.  Dispatch.v and Agreement.v have the
    same functions with the settings already read. *)
From Verif Require Export Agreement ML.
Open Scope string_scope.
Open Scope Z_scope.

(** The public functions that compare two segmentations. *)
Inductive metric_fn := Pk | WindowDiff | BoundarySim | SegmentationSim | ConfusionMatrix | BoundaryStats.

(** The value of a keyword argument; [KOther] stands for any other object.  Formats
    are strings (format.py:11); [KFmt FOther] is any other string. *)
Inductive kval :=
| KNone
| KBool (b : bool)
| KArg (x : arg)
| KFmt (f : fmt)
| KRound (r : Q -> Z)
| KWeights (W : weights)
| KMetric (m : metric_fn)
| KOther.

(** [bool(v)]. *)
Definition ktrue (v : kval) : bool :=
  match v with KNone => false | KBool b => b | KArg x => truthy x | _ => true end.

(** [del d[k]]. *)
Definition kdel (d : dict kval) (k : string) : res (dict kval) :=
  if dmem d k then Ok (ddel d k) else Err KeyError.

(** Python's call with the keywords [kws] of a function whose parameters, after those
    given by position, are [params] (none has a default): a keyword that is no
    parameter, or that was given by position, and a missing one raise TypeError. *)
Definition bind_call (params : list string) (kws : dict kval) : res unit :=
  if forallb (fun k => bool_decide (k ∈ params)) kws.*1 && forallb (dmem kws) params then Ok tt
  else Err TypeError.

(** An int. *)
Definition as_int (v : kval) : res Z :=
  match v with KArg (AInt z) => Ok z | KBool b => Ok (Z.b2z b) | _ => Err TypeError end.

(** A window size; None asks for the default. *)
Definition as_window (v : kval) : res (option Z) :=
  match v with KNone => Ok None | _ => rmap Some (as_int v) end.

Definition as_fmt (v : kval) : fmt := match v with KFmt f => f | _ => FOther end.

(** The rounding function is called only when there is no window size. *)
Definition as_round (window_size : option Z) (v : kval) : res (Q -> Z) :=
  match window_size, v with
  | Some _, _ => Ok default_round
  | None, KRound r => Ok r
  | None, _ => Err TypeError
  end.

Definition as_weights (v : kval) : res weights :=
  match v with KWeights W => Ok W | _ => Err TypeError end.

(** windowdiff.py:97-139 once more, for any value of the flag: line 30 asks whether it is
    the object False, lines 126 and 130 whether it is true. *)
Definition wd_positions_flag (A : arith) (phantoms lamprier one_minus return_parts : bool)
  (hyp ref : list pyint) (k : Z) : res wres :=
  let units := paired_units hyp ref k phantoms in
  let measurements := zlen units - k in
  let* sd := foldM (wd_step units k) (pyrange 0 measurements) 0 in
  let n := zsum (convert_positions_to_masses ref) in
  let denominator := if lamprier then measurements + 1 else n - k in
  let* win_diff := ndiv A (NDec (inject_Z sd)) (NInt denominator) in
  if negb ((denominator =? measurements) || lamprier) then Err AssertionError
  else if negb (nleb win_diff (NInt 1)) then Err AssertionError
  else if one_minus then let* v := nsub A (NDec 1) win_diff in Ok (WVal v)
  else if return_parts then Ok (WParts sd denominator)
  else Ok (WVal win_diff).

Definition is_false (v : kval) : bool := match v with KBool false => true | _ => false end.

Definition window_diff_flag (A : arith) (fnc_round : Q -> Z) (f : fmt) (window_size : option Z)
  (lamprier : kval) (one_minus return_parts : bool) (hypothesis reference : seg) : res wres :=
  let* (h, r) := to_positions2 f hypothesis reference in
  let* k := effective_window A fnc_round window_size r in
  if negb (is_false lamprier) && negb (is_tuple f reference && is_tuple f hypothesis) then Err TypeError else
  wd_positions_flag A (negb (is_false lamprier)) (ktrue lamprier) one_minus return_parts h r k.

(** metric.py:11-16 [METRIC_DEFAULTS]. *)
Definition metric_defaults : dict kval :=
  [("boundary_format", KFmt FMass); ("permuted", KBool false); ("one_minus", KBool false); ("return_parts", KBool false)].

(** window/__init__.py:14-19. *)
Definition window_defaults : dict kval :=
  dupdate metric_defaults [("window_size", KNone); ("fnc_round", KRound default_round); ("permuted", KBool true)].

(** window/windowdiff.py:17-20. *)
Definition windowdiff_defaults : dict kval := dupdate window_defaults [("lamprier_et_al_2007_fix", KBool false)].

(** similarity/__init__.py:17-22. *)
Definition similarity_defaults (A : arith) : dict kval :=
  dupdate metric_defaults [("n_t", KArg (AInt 2)); ("boundary_types", KNone); ("weight", KWeights (default_weights A))].

(** similarity/__init__.py:134-136, in [boundary_statistics]. *)
Definition statistics_defaults (A : arith) : dict kval :=
  ddel (ddel (similarity_defaults A) "one_minus") "return_parts".

(** agreement/__init__.py:16-20. *)
Definition agreement_defaults (A : arith) : dict kval :=
  dupdate (similarity_defaults A) [("fnc_compare", KMetric BoundarySim); ("return_parts", KBool false)].

(** The defaults that each public function hands to [__fnc_metric__]: pk.py:68,
    windowdiff.py:144-145, boundary.py:44, segmentation.py:44,
    similarity/__init__.py:128 and 137. *)
Definition fn_defaults (A : arith) (fn : metric_fn) : dict kval :=
  match fn with
  | Pk => window_defaults
  | WindowDiff => windowdiff_defaults
  | BoundarySim | SegmentationSim | ConfusionMatrix => similarity_defaults A
  | BoundaryStats => statistics_defaults A
  end.

(** The parameters after the two segmentations: pk.py:20-21 [__pk__],
    windowdiff.py:41-43 [__window_diff__], similarity/__init__.py:25-26
    [__boundary_statistics__]. *)
Definition pk_params : list string := ["window_size"; "one_minus"; "boundary_format"; "return_parts"; "fnc_round"].
Definition wd_params : list string := ["window_size"; "one_minus"; "boundary_format"; "return_parts"; "fnc_round"; "lamprier_et_al_2007_fix"].
Definition stats_params : list string := ["boundary_types"; "boundary_format"; "n_t"; "weight"].

(** What a metric returns. *)
Inductive mval := VWindow (w : wres) | VB (b : bres) | VS (s : sres) | VMatrix (m : cmatrix) | VStats (s : stats).

Section Keywords.
Context (A : arith) (E : env).

(** The settings of [__boundary_statistics__]; [boundary_types] is not used. *)
Definition stats_settings (kws : dict kval) : res (weights * fmt * Z) :=
  let* _ := bind_call stats_params kws in
  let* w := dlookup kws "weight" in
  let* W := as_weights w in
  let* f := dlookup kws "boundary_format" in
  let* t := dlookup kws "n_t" in
  let* n_t := as_int t in
  Ok (W, as_fmt f, n_t).

(** boundary.py:13-16, segmentation.py:17-19, similarity/__init__.py:88-91. *)
Definition trimmed (kws : dict kval) : res (dict kval) :=
  let* kws := kdel kws "return_parts" in
  kdel kws "one_minus".

(** The metrics themselves, called with two segmentations and keywords: pk.py:20-63,
    windowdiff.py:41-139, boundary.py:12-36, segmentation.py:12-37,
    similarity/__init__.py:25-123.  A value of the wrong type raises TypeError; in the
    code it does so when it is used, which may be after another exception. *)
Definition call_fn (fn : metric_fn) (kws : dict kval) (a b : seg) : res mval :=
  match fn with
  | Pk =>
    let* _ := bind_call pk_params kws in
    let* w := dlookup kws "window_size" in
    let* window_size := as_window w in
    let* one_minus := dlookup kws "one_minus" in
    let* f := dlookup kws "boundary_format" in
    let* return_parts := dlookup kws "return_parts" in
    let* r := dlookup kws "fnc_round" in
    let* fnc_round := as_round window_size r in
    rmap VWindow (pk A fnc_round (as_fmt f) window_size (ktrue one_minus) (ktrue return_parts) a b)
  | WindowDiff =>
    let* _ := bind_call wd_params kws in
    let* w := dlookup kws "window_size" in
    let* window_size := as_window w in
    let* one_minus := dlookup kws "one_minus" in
    let* f := dlookup kws "boundary_format" in
    let* return_parts := dlookup kws "return_parts" in
    let* r := dlookup kws "fnc_round" in
    let* fnc_round := as_round window_size r in
    let* lamprier := dlookup kws "lamprier_et_al_2007_fix" in
    rmap VWindow (window_diff_flag A fnc_round (as_fmt f) window_size lamprier (ktrue one_minus) (ktrue return_parts) a b)
  | BoundarySim =>
    let* trim := trimmed kws in
    let* return_parts := dlookup kws "return_parts" in
    let* one_minus := dlookup kws "one_minus" in
    let* (Wf, n_t) := stats_settings trim in
    rmap VB (boundary_similarity A E (fst Wf) (snd Wf) n_t (ktrue one_minus) (ktrue return_parts) a b)
  | SegmentationSim =>
    let* trim := trimmed kws in
    let* return_parts := dlookup kws "return_parts" in
    let* one_minus := dlookup kws "one_minus" in
    let* (Wf, n_t) := stats_settings trim in
    rmap VS (segmentation_similarity A E (fst Wf) (snd Wf) n_t (ktrue one_minus) (ktrue return_parts) a b)
  | ConfusionMatrix =>
    let* trim := trimmed kws in
    let* (Wf, n_t) := stats_settings trim in
    rmap VMatrix (boundary_confusion_matrix A E (fst Wf) (snd Wf) n_t a b)
  | BoundaryStats =>
    let* (Wf, n_t) := stats_settings kws in
    rmap VStats (boundary_statistics A E (fst Wf) (snd Wf) n_t a b)
  end.

Context (lord : gset string -> list string).

(** compute.py:11-31 [compute_pairwise_values(fnc_metric, dataset_a, dataset_b=None,
    **kwargs)], called with one dataset or two and keywords: the keyword [dataset_b]
    is its third parameter. *)
Definition pairwise_kw (fn : metric_fn) (a : dataset seg) (b : option (dataset seg)) (kws : dict kval) : res (mres mval) :=
  if dmem kws "fnc_metric" || dmem kws "dataset_a" then Err TypeError
  else
    let* mb :=
      match b, dget kws "dataset_b" with
      | Some b, None => Ok (Some (ds_items b))
      | Some _, Some _ => Err TypeError
      | None, None | None, Some KNone => Ok None
      | None, Some (KArg (AData b)) => Ok (Some (ds_items b))
      | None, Some _ => Err AttributeError
      end in
    let* permuted := dlookup kws "permuted" in
    let* kws := kdel kws "permuted" in
    rmap Many (compute_pairwise_values (call_fn fn (ddel kws "dataset_b")) lord (ktrue permuted) (ds_items a) mb).

(** util/__init__.py:37-56: hypothesis, reference, dataset (None if not given) and the
    keywords that go on. *)
Definition parse_kw (args : list arg) (kwargs mk : dict kval) : res (kval * kval * kval * dict kval) :=
  match args with
  | [h; r] => Ok (KArg h, KArg r, KNone, mk)
  | [d] => Ok (KNone, KNone, KArg d, mk)
  | [] =>
    match dget kwargs "hypothesis", dget kwargs "reference", dget kwargs "dataset" with
    | Some h, Some r, _ => Ok (h, r, KNone, ddel (ddel mk "hypothesis") "reference")
    | _, _, Some d => Ok (KNone, KNone, d, ddel mk "dataset")
    | _, _, _ => Err SegmentationMetricError
    end
  | _ => Ok (KNone, KNone, KNone, mk)
  end.

(** util/__init__.py:57-61; a bool is an int. *)
Definition fix_kval (v : kval) : kval :=
  match v with
  | KArg x => KArg (fix_int x)
  | KBool b => KArg (fix_int (AInt (Z.b2z b)))
  | _ => v
  end.

(** util/__init__.py:31-83 [__fnc_metric__], as called by the public function [fn].  Two
    arguments of which not both are segmentations and not both are datasets fail
    inside the metric; the exception is taken to be a TypeError. *)
Definition call_metric (fn : metric_fn) (args : list arg) (kwargs : dict kval) : res (mres mval) :=
  let* (hrd, mk) := parse_kw args kwargs (dupdate (fn_defaults A fn) kwargs) in
  let d := snd hrd in
  let h := fix_kval (fst (fst hrd)) in
  let r := fix_kval (snd (fst hrd)) in
  if ktrue d then
    match d with
    | KArg (AData ds) => pairwise_kw fn ds None (dset mk "boundary_format" (KFmt (ds_format ds)))
    | _ => Err AttributeError
    end
  else if ktrue h && ktrue r then
    match h, r with
    | KArg (AData a), KArg (AData b) =>
      if decide (ds_format a = ds_format b)
      then pairwise_kw fn a (Some b) (dset mk "boundary_format" (KFmt (ds_format a)))
      else Err SegmentationMetricError
    | KArg (ASeg a), KArg (ASeg b) =>
      let* mk := kdel mk "permuted" in
      rmap One (call_fn fn mk a b)
    | _, _ => Err TypeError
    end
  else Err SegmentationMetricError.

(** window/__init__.py:60-67 [compute_window_size(reference, **kwargs)]. *)
Definition compute_window_size_kw (reference : wtree) (kwargs : dict kval) : res Z :=
  if dmem kwargs "reference" then Err TypeError
  else
    let* mk := kdel (dupdate window_defaults kwargs) "one_minus" in
    let* mk := kdel mk "permuted" in
    let* mk := kdel mk "window_size" in
    let* mk := kdel mk "return_parts" in
    let* _ := bind_call ["fnc_round"; "boundary_format"] mk in
    let* r := dlookup mk "fnc_round" in
    let* fnc_round := as_round None r in
    let* f := dlookup mk "boundary_format" in
    compute_window_size A fnc_round (as_fmt f) reference.

(** The public agreement functions. *)
Inductive agree_fn := Actual | FleissPi | FleissKappa | Bias.

(** What they return; the actual agreement's parts are lists. *)
Inductive aval := AVal (v : num) | AParts (x y : num) | ALists (a : acc).

(** agreement/__init__.py:156-157: [fnc_compare(segs_a, segs_b, **metric_kwargs)[0:2]]
    and the unpacking; what is no tuple is taken to raise TypeError. *)
Definition kw_compare (fnc_compare : kval) (mk : dict kval) (a b : seg) : res (num * num) :=
  match fnc_compare with
  | KMetric m =>
    let* v := call_metric m [ASeg a; ASeg b] mk in
    match v with
    | One (VB (BParts n d _)) => Ok (n, d)
    | One (VS (SParts n d)) => Ok (n, d)
    | One (VWindow (WParts n d)) => Ok (NInt n, NInt d)
    | _ => Err TypeError
    end
  | _ => Err TypeError
  end.

Context (coders_order : gset string -> list string).

(** agreement/__init__.py:23-30 [__fnc_metric__(fnc_metric, dataset, **kwargs)], called
    by [fleiss_pi_linear(dataset, **kwargs)] and the others, with the functions of
    Agreement.v behind it. *)
Definition agree_kw (fn : agree_fn) (c : container) (kwargs : dict kval) : res aval :=
  if dmem kwargs "dataset" || dmem kwargs "fnc_metric" then Err TypeError
  else
    let mk := dupdate (agreement_defaults A) kwargs in
    let mk := match c with
              | CDataset d => dset (dset mk "boundary_types" KOther) "boundary_format" (KFmt (ds_format d))
              | CDict _ => mk
              end in
    let* fnc_compare := dlookup mk "fnc_compare" in
    let* return_parts := dlookup mk "return_parts" in
    let* f := dlookup mk "boundary_format" in
    let inner := dset (ddel mk "fnc_compare") "return_parts" (KBool true) in
    let cmp : Agreement.compare := fun _ => kw_compare fnc_compare inner in
    let coders := coders_order (c_coders c) in
    let three r := let* (va, e) := r in Ok (if ktrue return_parts then AParts (snd va) e else AVal (fst va)) in
    match fn with
    | Actual =>
      if ktrue return_parts then rmap ALists (agreement_parts cmp (as_fmt f) coders (c_items c))
      else rmap AVal (actual_agreement A cmp (as_fmt f) coders (c_items c))
    | FleissPi => three (pi_full A cmp (as_fmt f) coders (c_items c))
    | FleissKappa => three (kappa_full A cmp (as_fmt f) coders (c_items c))
    | Bias => three (bias_full A cmp (as_fmt f) coders (c_items c))
    end.
End Keywords.
