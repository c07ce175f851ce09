(** Model of segeval/similarity/__init__.py (statistics), weight.py,
    boundary.py and segmentation.py. *)
From Verif Require Export Bed.
Open Scope Z_scope.

(** The weighting functions are arbitrary Python callables. *)
Record weights := Weights {
  w_a : list addition -> res num;
  w_s : list substitution -> Z -> Z -> res num;
  w_t : list transposition -> Z -> res num
}.

(** segeval/similarity/weight.py:9-13 [weight_a]. *)
Definition weight_a (l : list addition) : res num := Ok (NInt (zlen l)).

(** segeval/similarity/weight.py:16-21 [weight_s]. *)
Definition weight_s (l : list substitution) (max_s min_s : Z) : res num := Ok (NInt (zlen l)).

(** segeval/similarity/weight.py:32-37 [weight_t]. *)
Definition weight_t (l : list transposition) (max_n : Z) : res num := Ok (NInt (zlen l)).

(** segeval/similarity/weight.py:40-47 [weight_t_scale], on the first two
    fields of the edits. *)
Definition weight_scale (A : arith) (l : list (Z * Z)) (max_n : Z) : res num :=
  let numerator := foldl (fun acc '(x, y) => acc + Z.abs (x - y)) 0 l in
  ndiv A (NDec (inject_Z numerator)) (NInt max_n).

Definition weight_t_scale (A : arith) (l : list transposition) (max_n : Z) : res num :=
  weight_scale A ((fun t => (Z.of_nat (t_start t), Z.of_nat (t_end t))) <$> l) max_n.

(** segeval/similarity/weight.py:24-29 [weight_s_scale]. *)
Definition weight_s_scale (A : arith) (l : list substitution) (max_s min_s : Z) : res num :=
  weight_scale A l (max_s - min_s + 1).

(** segeval/similarity/__init__.py:17-22, the default weights. *)
Definition default_weights (A : arith) : weights :=
  Weights weight_a (weight_s_scale A) (weight_t_scale A).

(** The unscaled weights of weight.py. *)
Definition plain_weights : weights := Weights weight_a weight_s weight_t.

(** segeval/similarity/__init__.py:31-48, the conversion of one segmentation
    (the two are converted one after the other, the first one first). *)
Definition to_bstring (f : fmt) (s : seg) : res bstring :=
  match f with
  | FNltk =>
    let* str := as_string s in
    let* m := convert_nltk_to_masses str sym1 in
    boundary_string_from_masses m
  | FMass => let* m := as_masses s in boundary_string_from_masses m
  | FPosition =>
    let* p := as_positions s in
    boundary_string_from_masses (convert_positions_to_masses p)
  | FSets => as_sets s
  | FOther => Err SegmentationMetricError
  end.

(** Both conversions and the length check, similarity/__init__.py:31-53.  For
    the sets format the code checks the lengths before it looks inside. *)
Definition to_bstrings (f : fmt) (a b : seg) : res (bstring * bstring) :=
  match f with
  | FSets =>
    if negb (seg_len a =? seg_len b) then Err SegmentationMetricError
    else let* x := as_sets a in let* y := as_sets b in Ok (x, y)
  | _ =>
    let* x := to_bstring f a in
    let* y := to_bstring f b in
    if negb (zlen x =? zlen y) then Err SegmentationMetricError else Ok (x, y)
  end.

(** [max] and [min] of a set; ValueError if empty. *)
Definition set_max (s : tyset) : res Z :=
  match elements s with [] => Err ValueError | x :: l => Ok (foldl Z.max x l) end.
Definition set_min (s : tyset) : res Z :=
  match elements s with [] => Err ValueError | x :: l => Ok (foldl Z.min x l) end.

(** The dict returned by [__boundary_statistics__]. *)
Record stats := Stats {
  st_count : num;
  st_edits : edits;
  st_full_misses : list Z;
  st_all : Z;
  st_matches : list Z;
  st_pbs : Z;
  st_types : tyset
}.

(** segeval/similarity/__init__.py:69-76. *)
Definition tally (acc : list Z * list Z * Z) (ab : tyset * tyset) : list Z * list Z * Z :=
  let '(ms, fm, n) := acc in
  let '(x, y) := ab in
  (ms ++ elements (x ∩ y), fm ++ elements (symdiff x y), n + (zsize x + zsize y)).

(** segeval/similarity/__init__.py:54-80, after the conversions. *)
Definition bstring_statistics (A : arith) (E : env) (W : weights) (n_t : Z) (a b : bstring)
  : res stats :=
  let types := identify_types a b in
  let pbs := zlen b * zsize types in
  let* ed := boundary_edit_distance E a b n_t in
  let* ca := w_a W (e_add ed) in
  let* mx := set_max types in
  let* mn := set_min types in
  let* cs := w_s W (e_sub ed) mx mn in
  let* ct := w_t W (e_transp ed) n_t in
  let* c1 := nadd A ca cs in
  let* count := nadd A c1 ct in
  let '(ms, fm, n) := foldl tally ([], [], 0) (zip a b) in
  Ok (Stats count ed fm n ms pbs types).

(** segeval/similarity/__init__.py:25-80 [__boundary_statistics__].  The
    [boundary_types] argument is overwritten by the code and so is absent. *)
Definition boundary_statistics (A : arith) (E : env) (W : weights) (f : fmt) (n_t : Z)
  (a b : seg) : res stats :=
  let* (x, y) := to_bstrings f a b in
  bstring_statistics A E W n_t x y.

(** What [boundary_similarity] returns: a number, or with [return_parts] the
    tuple (numerator, denominator, edits). *)
Inductive bres := BVal (v : num) | BParts (n d : num) (e : edits).

Definition edit_count (e : edits) : Z :=
  zlen (e_add e) + zlen (e_sub e) + zlen (e_transp e).

(** segeval/similarity/boundary.py:21-35. *)
Definition similarity_of_stats (A : arith) (one_minus return_parts : bool) (s : stats) : res bres :=
  let count_unweighted := edit_count (st_edits s) in
  let denominator := count_unweighted + zlen (st_matches s) in
  let* numerator := nsub A (NInt denominator) (st_count s) in
  if return_parts then Ok (BParts numerator (NInt denominator) (st_edits s))
  else
    let* value := (if 0 <? denominator then ndiv A numerator (NInt denominator) else Ok (NInt 1)) in
    if one_minus then let* v := nsub A (NDec 1) value in Ok (BVal v)
    else Ok (BVal value).

(** segeval/similarity/boundary.py:12-36 [__boundary_similarity__]. *)
Definition boundary_similarity (A : arith) (E : env) (W : weights) (f : fmt) (n_t : Z)
  (one_minus return_parts : bool) (a b : seg) : res bres :=
  let* s := boundary_statistics A E W f n_t a b in
  similarity_of_stats A one_minus return_parts s.

(** segeval/similarity/segmentation.py:25-37. *)
Inductive sres := SVal (v : num) | SParts (n d : num).

Definition segmentation_of_stats (A : arith) (one_minus return_parts : bool) (s : stats) : res sres :=
  let pbs := st_pbs s * zsize (st_types s) in
  let denominator := pbs in
  let* numerator := nsub A (NInt pbs) (st_count s) in
  if return_parts then Ok (SParts numerator (NInt denominator))
  else
    let* value := (if 0 <? denominator then ndiv A numerator (NInt denominator) else Ok (NInt 1)) in
    if one_minus then let* v := nsub A (NDec 1) value in Ok (SVal v)
    else Ok (SVal value).

(** segeval/similarity/segmentation.py:12-37 [__segmentation_similarity__]. *)
Definition segmentation_similarity (A : arith) (E : env) (W : weights) (f : fmt) (n_t : Z)
  (one_minus return_parts : bool) (a b : seg) : res sres :=
  let* s := boundary_statistics A E W f n_t a b in
  segmentation_of_stats A one_minus return_parts s.
