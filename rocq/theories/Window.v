(** Model of segeval/window/__init__.py, pk.py and windowdiff.py. *)
From Verif Require Export ML Round.
Open Scope Z_scope.

(** What [compute_window_size] may be given: an int, a segmentation, or
    (nested) dicts of segmentations. *)
Inductive wtree := WInt (z : Z) | WSeg (s : seg) | WDict (l : list (string * wtree)).

(** segeval/window/__init__.py:32-47 [__list_coder_masses__]; the elements of
    a tuple of sets are only rejected later, by [Decimal(mass)] (TypeError). *)
Fixpoint list_coder_masses (t : wtree) : res (list (option Z)) :=
  match t with
  | WInt _ => Err SegmentationMetricError
  | WSeg (Ints l) => Ok ((fun x => Some (pval x)) <$> l)
  | WSeg (Sets l) => Ok ((fun _ => None) <$> l)
  | WSeg (Str _) => Err SegmentationMetricError
  | WDict l =>
    (fix go l := match l with
                 | [] => Ok []
                 | (_, t) :: l' =>
                   let* x := list_coder_masses t in
                   let* y := go l' in Ok (x ++ y)
                 end) l
  end.

(** segeval/window/__init__.py:52-57, from the list of masses; [fnc_round]
    followed by [int] is a function to Z. *)
Definition window_of_masses (A : arith) (fnc_round : Q -> Z) (masses : list (option Z)) : res Z :=
  let* all := mapM (fun m => match m with Some z => Ok (NDec (inject_Z z)) | None => Err TypeError end) masses in
  let* mu := mean A all in
  let* avg := ndiv A mu (NDec 2) in
  let window_size := fnc_round (nval avg) in
  Ok (if 1 <? window_size then window_size else 2).

(** segeval/window/__init__.py:48-49: in position format the argument itself is
    run-length encoded; for a dict that means its keys. *)
Definition tree_runs (t : wtree) : res (list Z) :=
  match t with
  | WInt _ => Err TypeError
  | WSeg (Ints l) => Ok (convert_positions_to_masses l)
  | WSeg (Sets l) => Ok (group_lengths l)
  | WSeg (Str l) => Ok (convert_positions_to_masses (char_label <$> l))
  | WDict l => Ok (group_lengths l.*1)
  end.

(** segeval/window/__init__.py:22-57 [__compute_window_size__]. *)
Definition compute_window_size (A : arith) (fnc_round : Q -> Z) (f : fmt) (reference : wtree) : res Z :=
  let* masses :=
    (match f with
     | FPosition => let* r := tree_runs reference in Ok (Some <$> r)
     | _ => list_coder_masses reference
     end) in
  window_of_masses A fnc_round masses.

(** The default [fnc_round] is the built-in [round]. *)
Definition default_round : Q -> Z := hround.

(** segeval/window/pk.py:20-30 and windowdiff.py:76-86: conversion of one
    segmentation to positions. *)
Definition to_positions (f : fmt) (s : seg) : res (list pyint) :=
  match f with
  | FNltk =>
    let* str := as_string s in
    let* m := convert_nltk_to_masses str sym1 in
    Ok (convert_masses_to_positions m)
  | FMass => let* m := as_masses s in Ok (convert_masses_to_positions m)
  | FPosition => as_positions s
  | FSets | FOther => Err SegmentationMetricError
  end.

(** Both conversions (reference first) and the length check. *)
Definition to_positions2 (f : fmt) (hyp ref : seg) : res (list pyint * list pyint) :=
  let* r := to_positions f ref in
  let* h := to_positions f hyp in
  if negb (zlen r =? zlen h) then Err SegmentationMetricError else Ok (h, r).

(** pk.py:36-38: the window size, computed from the reference if [None]. *)
Definition effective_window (A : arith) (fnc_round : Q -> Z) (window_size : option Z) (ref : list pyint) : res Z :=
  match window_size with
  | Some k => Ok k
  | None => compute_window_size A fnc_round FPosition (WSeg (Ints ref))
  end.

(** [window[0] is window[-1]]. *)
Definition ends_agree (w : list pyint) : res bool :=
  let* x := pyindex w 0 in
  let* y := pyindex w (-1) in
  Ok (py_is x y).

(** segeval/window/pk.py:44-54: the loop body, on (sum_differences, measurements). *)
Definition pk_step (hyp ref : list pyint) (k : Z) (acc : Z * Z) (i : Z) : res (Z * Z) :=
  let window_ref := pyslice ref i (i + k + 1) in
  let window_hyp := pyslice hyp i (i + k + 1) in
  let* agree_ref := ends_agree window_ref in
  let* agree_hyp := ends_agree window_hyp in
  Ok (if xorb agree_ref agree_hyp then fst acc + 1 else fst acc, snd acc + 1).

(** A window metric returns a number or, with [return_parts], two ints. *)
Inductive wres := WVal (v : num) | WParts (n d : Z).

(** pk.py:39-63, after conversion. *)
Definition pk_positions (A : arith) (one_minus return_parts : bool) (hyp ref : list pyint) (k : Z) : res wres :=
  let* (sd, meas) := foldM (pk_step hyp ref k) (pyrange 0 (zlen ref - k)) (0, 0) in
  let* value := (if 0 <? meas then ndiv A (NDec (inject_Z sd)) (NInt meas) else Ok (NInt 0)) in
  if return_parts then Ok (WParts sd meas)
  else if one_minus then let* v := nsub A (NDec 1) value in Ok (WVal v)
  else Ok (WVal value).

(** segeval/window/pk.py:17-63 [__pk__]. *)
Definition pk (A : arith) (fnc_round : Q -> Z) (f : fmt) (window_size : option Z)
  (one_minus return_parts : bool) (hypothesis reference : seg) : res wres :=
  let* (h, r) := to_positions2 f hypothesis reference in
  let* k := effective_window A fnc_round window_size r in
  pk_positions A one_minus return_parts h r k.

(** segeval/window/windowdiff.py:23-38 [__create_paired_window__] (the units). *)
Definition paired_units (hyp ref : list pyint) (k : Z) (lamprier : bool) : list (pyint * pyint) :=
  if lamprier then
    let size := if k <=? 0 then 1 else k in
    let phantom := replicate (Z.to_nat size) (PyInt 0 0) in
    zip (phantom ++ ref ++ phantom) (phantom ++ hyp ++ phantom)
  else zip ref hyp.

(** windowdiff.py:112-119: one adjacent pair of the window. *)
Definition wd_pair (window : list (pyint * pyint)) (acc : Z * Z) (j : Z) : res (Z * Z) :=
  match pyslice window j (j + 2) with
  | [(r0, h0); (r1, h1)] =>
    Ok (if py_is r0 r1 then fst acc else fst acc + 1, if py_is h0 h1 then snd acc else snd acc + 1)
  | _ => Err IndexError
  end.

(** windowdiff.py:105-122: one window. *)
Definition wd_step (units : list (pyint * pyint)) (k : Z) (sd : Z) (i : Z) : res Z :=
  let window := pyslice units i (i + k + 1) in
  if negb (fresh_is (zlen window) (k + 1)) then Err AssertionError
  else
    let* (rb, hb) := foldM (wd_pair window) (pyrange 0 (zlen window - 1)) (0, 0) in
    Ok (if fresh_is rb hb then sd else sd + 1).

(** windowdiff.py:97-139, after conversion. *)
Definition wd_positions (A : arith) (lamprier one_minus return_parts : bool)
  (hyp ref : list pyint) (k : Z) : res wres :=
  let units := paired_units hyp ref k lamprier in
  let measurements := zlen units - k in
  let* sd := foldM (wd_step units k) (pyrange 0 measurements) 0 in
  let n := zsum (convert_positions_to_masses ref) in
  let denominator := if lamprier then measurements + 1 else n - k in
  let* win_diff := ndiv A (NDec (inject_Z sd)) (NInt denominator) in
  if negb ((denominator =? measurements) || lamprier) then Err AssertionError
  else if negb (nleb win_diff (NInt 1)) then Err AssertionError
  else if one_minus then let* v := nsub A (NDec 1) win_diff in Ok (WVal v)
  else if return_parts then Ok (WParts sd denominator)
  else Ok (WVal win_diff).

(** windowdiff.py:36-37 [phantom + s]: the converters return tuples, whereas position
    labels are taken as they were given, and a tuple plus a string is a TypeError. *)
Definition is_tuple (f : fmt) (s : seg) : bool :=
  match f, s with FPosition, Str _ => false | _, _ => true end.

(** segeval/window/windowdiff.py:41-139 [__window_diff__]. *)
Definition window_diff (A : arith) (fnc_round : Q -> Z) (f : fmt) (window_size : option Z)
  (lamprier one_minus return_parts : bool) (hypothesis reference : seg) : res wres :=
  let* (h, r) := to_positions2 f hypothesis reference in
  let* k := effective_window A fnc_round window_size r in
  if lamprier && negb (is_tuple f reference && is_tuple f hypothesis) then Err TypeError else
  wd_positions A lamprier one_minus return_parts h r k.
