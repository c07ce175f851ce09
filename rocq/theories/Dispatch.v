(** Model of segeval/compute.py and of [__fnc_metric__] in
    segeval/util/__init__.py. *)
From Verif Require Export Data Window.
Open Scope Z_scope.

(** [itertools.combinations(l, 2)]. *)
Fixpoint pairs2 {A} (l : list A) : list (A * A) :=
  match l with
  | [] => []
  | x :: l' => ((fun y => (x, y)) <$> l') ++ pairs2 l'
  end.

(** compute.py:60-62: all pairs of coders of two datasets. *)
Definition cross {A} (l m : list A) : list (A * A) :=
  x ← l; (fun y => (x, y)) <$> m.

Section Pairwise.
Context {R : Type} (metric : seg -> seg -> res R).

(** The dict built so far and the calls of the metric made so far (a ghost: the
    code keeps no such record). *)
Definition pstate := (dict R * list (seg * seg))%type.

(** compute.py:71-90: one pair of coders of one item; entries go to the dict
    [label_pairs].  [return_parts] does not change the code. *)
Definition pair_entry (label : string) (permuted two : bool) (cm cn : dict seg)
  (acc : pstate) (p : string * string) : res pstate :=
  let '(m, n) := p in
  let* segs_m := dlookup cm m in
  let* segs_n := dlookup cn n in
  let* v := metric segs_m segs_n in
  let acc := (dset (fst acc) (join_comma [label; m; n]) v, snd acc ++ [(segs_m, segs_n)]) in
  if permuted && negb two then
    let* v' := metric segs_n segs_m in
    Ok (dset (fst acc) (join_comma [label; n; m]) v', snd acc ++ [(segs_n, segs_m)])
  else Ok acc.

(** compute.py:46-95: one item label. *)
Definition label_entries (permuted : bool) (ma : dict (dict seg)) (mb : option (dict (dict seg)))
  (pairs : pstate) (label : string) : res pstate :=
  let coder_m := dget ma label in
  let coder_n := match mb with Some d => dget d label | None => None end in
  match mb, coder_m, coder_n with
  | Some _, Some cm, Some cn =>
    let* (lp, log) := foldM (pair_entry label permuted true cm cn) (cross cm.*1 cn.*1) ([], snd pairs) in
    Ok (dupdate (fst pairs) lp, log)
  | Some _, _, _ => Ok pairs
  | None, Some cm, _ =>
    let* (lp, log) := foldM (pair_entry label permuted false cm cm) (pairs2 cm.*1) ([], snd pairs) in
    Ok (dupdate (fst pairs) lp, log)
  | None, None, _ => Err AttributeError
  end.

(** compute.py:11-100 [compute_pairwise_values]; [lord] is the iteration order
    of the set of labels. *)
Definition compute_pairwise (lord : gset string -> list string) (permuted : bool)
  (ma : dict (dict seg)) (mb : option (dict (dict seg))) : res pstate :=
  let labels : gset string :=
    list_to_set (ma.*1) ∪ match mb with Some d => list_to_set (d.*1) | None => ∅ end in
  foldM (label_entries permuted ma mb) (lord labels) ([], []).

Definition compute_pairwise_values (lord : gset string -> list string) (permuted : bool)
  (ma : dict (dict seg)) (mb : option (dict (dict seg))) : res (dict R) :=
  rmap fst (compute_pairwise lord permuted ma mb).
End Pairwise.

(** The value of one argument. *)
Inductive arg := AInt (z : Z) | ASeg (s : seg) | AData (d : dataset seg).

(** Truth value of an argument (after ints have become tuples). *)
Definition truthy (x : arg) : bool :=
  match x with
  | AInt z => negb (z =? 0)
  | ASeg s => negb (seg_len s =? 0)
  | AData d => negb (zlen (ds_items d) =? 0)
  end.

(** util/__init__.py:57-61: a lone int is taken as a segmentation. *)
Definition fix_int (x : arg) : arg :=
  match x with AInt z => ASeg (Ints [PyInt z z]) | _ => x end.

(** What a metric call returns. *)
Inductive mres (R : Type) := One (r : R) | Many (d : dict R).
Arguments One {R} r.
Arguments Many {R} d.

(** How the arguments are given: positionally, or by keyword. *)
Inductive call :=
| Positional (l : list arg)
| ByName (hypothesis reference dataset : option arg).

(** util/__init__.py:37-56: the triple (hypothesis, reference, dataset). *)
Definition parse_call (c : call) : res (option arg * option arg * option arg) :=
  match c with
  | Positional [h; r] => Ok (Some h, Some r, None)
  | Positional [d] => Ok (None, None, Some d)
  | Positional [] => Err SegmentationMetricError
  | Positional _ => Ok (None, None, None)
  | ByName (Some h) (Some r) _ => Ok (Some h, Some r, None)
  | ByName _ _ (Some d) => Ok (None, None, Some d)
  | ByName _ _ None => Err SegmentationMetricError
  end.

(** util/__init__.py:43-54 removes from the keyword arguments those it used; a
    [hypothesis], [reference] or [dataset] that it did not use goes to the metric,
    which raises TypeError: none of the metrics can take it. *)
Definition stray (c : call) : bool :=
  match c with
  | Positional _ => false
  | ByName (Some _) (Some _) d => bool_decide (is_Some d)
  | ByName h r _ => bool_decide (is_Some h \/ is_Some r)
  end.

(** util/__init__.py:31-83 [__fnc_metric__].  [metric f] is the metric with the
    remaining keyword arguments applied (see Keywords.v for these).  A dataset passed where a segmentation
    is expected fails inside the metric; the exception is taken to be a
    TypeError.  [dataset=] with an int or a segmentation has no
    [boundary_format]: AttributeError. *)
Definition fnc_metric {R} (metric : fmt -> seg -> seg -> res R) (lord : gset string -> list string)
  (permuted : bool) (f : fmt) (c : call) : res (mres R) :=
  let* (hr, d) := parse_call c in
  let metric := if stray c then fun _ _ _ => Err TypeError else metric in
  let h := option_map fix_int (fst hr) in
  let r := option_map fix_int (snd hr) in
  let bad := Err SegmentationMetricError in
  match d with
  | Some x =>
    if truthy x then
      match x with
      | AData ds =>
        let* m := compute_pairwise_values (metric (ds_format ds)) lord permuted (ds_items ds) None in
        Ok (Many m)
      | _ => Err AttributeError
      end
    else bad
  | None =>
    match h, r with
    | Some x, Some y =>
      if truthy x && truthy y then
        match x, y with
        | AData a, AData b =>
          if decide (ds_format a = ds_format b) then
            let* m := compute_pairwise_values (metric (ds_format a)) lord permuted
                        (ds_items a) (Some (ds_items b)) in
            Ok (Many m)
          else bad
        | ASeg a, ASeg b => let* v := metric f a b in Ok (One v)
        | _, _ => Err TypeError
        end
      else bad
    | _, _ => bad
    end
  end.

(** * segeval/util/math.py *)

(** util/math.py:29-43 [var]. *)
Definition var (A : arith) (values : list num) : res num :=
  let* mean_value := mean A values in
  let* summation := foldM (fun acc v => let* d := nsub A v mean_value in nadd A acc (nsq A d)) values (NDec 0) in
  ndiv A summation (NInt (zlen values)).

(** [Decimal.sqrt]; ints and floats have no such method.  A negative number is
    an InvalidOperation. *)
Definition nsqrt (x : num) : res num :=
  match x with
  | NDec q => if Qle_bool 0 q then Ok (NDec (dec_sqrt q)) else Err InvalidOperation
  | _ => Err AttributeError
  end.

(** util/math.py:46-56 [std]. *)
Definition std (A : arith) (values : list num) : res num :=
  let* v := var A values in nsqrt v.

(** util/math.py:59-70 [stderr]. *)
Definition stderr (A : arith) (values : list num) : res num :=
  let* s := std A values in
  let* n := nsqrt (NDec (inject_Z (zlen values))) in
  ndiv A s n.

(** compute.py:103-111 [summarize]. *)
Definition summarize (A : arith) (pairs : dict num) : res (num * num * num * num * Z) :=
  let vs := pairs.*2 in
  let* m := mean A vs in
  let* s := std A vs in
  let* v := var A vs in
  let* e := stderr A vs in
  Ok (m, s, v, e, zlen pairs).
