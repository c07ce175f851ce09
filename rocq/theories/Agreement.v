(** Model of segeval/agreement/: actual agreement, pi, kappa and bias. *)
From Verif Require Export Dispatch.
Open Scope Z_scope.

(** What the agreement functions are given: a Dataset or a plain dict of dicts
    of segmentations. *)
Inductive container := CDataset (d : dataset seg) | CDict (items : dict (dict seg)).

Definition c_items (c : container) : dict (dict seg) :=
  match c with CDataset d => ds_items d | CDict i => i end.

(** data/__init__.py:102-109 [get_coders]. *)
Definition c_coders (c : container) : gset string :=
  match c with CDataset d => ds_coders d | CDict i => all_coders i end.

(** agreement/__init__.py:26-29: the dataset's format wins over the keyword. *)
Definition c_format (c : container) (f : fmt) : fmt :=
  match c with CDataset d => ds_format d | CDict _ => f end.

(** agreement/__init__.py:33-57 [__potential_boundaries__].  Here a bad sets
    argument is only noticed inside [identify_types]. *)
Definition potential_boundaries (f : fmt) (a b : seg) : res Z :=
  let* x := to_bstring f a in
  let* y := to_bstring f b in
  Ok (zlen x * zsize (identify_types x y)).

(** agreement/__init__.py:60-77 [__boundaries__]. *)
Definition boundaries (f : fmt) (s : seg) : res Z :=
  let* x := to_bstring f s in
  Ok (zsum (zsize <$> x)).

(** The four accumulators of [__actual_agreement_linear__]. *)
Record acc := Acc {
  ac_num : list num;
  ac_den : list num;
  ac_pbs : list Z;
  ac_bnd : dict (list (Z * Z))
}.

(** [fnc_compare(segs_a, segs_b, ...)[0:2]] with [return_parts = True]. *)
Definition compare := fmt -> seg -> seg -> res (num * num).

(** agreement/__init__.py:165-171: append one entry to a coder's list. *)
Definition push {V} (d : dict (list V)) (k : string) (v : V) : dict (list V) :=
  dset d k (default [] (dget d k) ++ [v]).
Definition touch {V} (d : dict (list V)) (k : string) : dict (list V) :=
  if dmem d k then d else dset d k [].

(** agreement/__init__.py:152-171: one item for one pair of coders. *)
Definition agree_item (cmp : compare) (f : fmt) (m n : string) (a : acc) (ic : string * dict seg) : res acc :=
  let codings := snd ic in
  let* segs_a := dlookup codings m in
  let* segs_b := dlookup codings n in
  let* (numerator, denominator) := cmp f segs_a segs_b in
  let* pbs := potential_boundaries f segs_a segs_b in
  let bnd := touch (touch (ac_bnd a) m) n in
  let* ba := boundaries f segs_a in
  let bnd := push bnd m (ba, pbs) in
  let* bb := boundaries f segs_b in
  let bnd := push bnd n (bb, pbs) in
  Ok (Acc (ac_num a ++ [numerator]) (ac_den a ++ [denominator]) (ac_pbs a ++ [pbs]) bnd).

(** agreement/__init__.py:150-152: the pairs of coders m < n. *)
Definition agree_pair (cmp : compare) (f : fmt) (items : dict (dict seg)) (a : acc) (mn : string * string) : res acc :=
  foldM (agree_item cmp f (fst mn) (snd mn)) items a.

(** agreement/__init__.py:80-173 with [return_parts = True]; [coders] is
    [list(get_coders(dataset))]. *)
Definition agreement_parts (cmp : compare) (f : fmt) (coders : list string) (items : dict (dict seg)) : res acc :=
  foldM (agree_pair cmp f items) (pairs2 coders) (Acc [] [] [] []).

(** agreement/__init__.py:175. *)
Definition actual_agreement (A : arith) (cmp : compare) (f : fmt) (coders : list string)
  (items : dict (dict seg)) : res num :=
  let* a := agreement_parts cmp f coders items in
  let* n := nsum A (ac_num a) in
  let* d := nsum A (ac_den a) in
  ndiv A n d.

(** agreement/pi.py:23, kappa.py:26: all items have the same number of coders
    (and there is an item). *)
Definition equal_counts (items : dict (dict seg)) : bool :=
  bool_decide (size (list_to_set ((fun ic => zlen (snd ic)) <$> items) : gset Z) = 1%nat).

(** agreement/pi.py:29, kappa.py:32: A_a. *)
Definition agreement_Aa (A : arith) (a : acc) : res num :=
  let* n := nsum A (ac_num a) in
  let* d := nsum A (ac_den a) in
  ndiv A (to_dec n) d.

(** agreement/pi.py:31-39: A_e of pi. *)
Definition pi_Ae (A : arith) (bnd : dict (list (Z * Z))) : res num :=
  let* ps := mapM (fun '(b, t) => ndiv A (NDec (inject_Z b)) (NInt t)) (mjoin bnd.*2) in
  let* s := nsum A ps in
  let* p := ndiv A (to_dec s) (NInt (zlen ps)) in
  Ok (nsq A p).

(** (A_a - A_e) / (1 - A_e). *)
Definition chance_corrected (A : arith) (Aa Ae : num) : res num :=
  let* x := nsub A Aa Ae in
  let* y := nsub A (NDec 1) Ae in
  ndiv A x y.

(** agreement/pi.py:11-46 [__fleiss_pi_linear__]: (pi, A_a, A_e).  The
    quotient is computed even when only the parts are returned. *)
Definition pi_full (A : arith) (cmp : compare) (f : fmt) (coders : list string)
  (items : dict (dict seg)) : res (num * num * num) :=
  if negb (equal_counts items) then Err PlainException
  else
    let* a := agreement_parts cmp f coders items in
    let* Aa := agreement_Aa A a in
    let* Ae := pi_Ae A (ac_bnd a) in
    let* pi := chance_corrected A Aa Ae in
    Ok (pi, Aa, Ae).

(** agreement/kappa.py:38-47: the pooled proportion of one coder. *)
Definition pooled (A : arith) (l : list (Z * Z)) : res num :=
  ndiv A (NDec (inject_Z (zsum l.*1))) (NInt (zsum l.*2)).

(** agreement/kappa.py:34-49: A_e of kappa. *)
Definition kappa_Ae (A : arith) (bnd : dict (list (Z * Z))) : res num :=
  let* ps := mapM (fun '(m, n) =>
      let* lm := dlookup bnd m in
      let* ln := dlookup bnd n in
      let* pm := pooled A lm in
      let* pn := pooled A ln in
      nmul A pm pn) (pairs2 bnd.*1) in
  let* s := nsum A ps in
  ndiv A (to_dec s) (NInt (zlen ps)).

(** agreement/kappa.py:11-56 [__fleiss_kappa_linear__]: (kappa, A_a, A_e). *)
Definition kappa_full (A : arith) (cmp : compare) (f : fmt) (coders : list string)
  (items : dict (dict seg)) : res (num * num * num) :=
  if existsb (fun ic => zlen (snd ic) <? 2) items then Err PlainException
  else if negb (equal_counts items) then Err PlainException
  else
    let* a := agreement_parts cmp f coders items in
    let* Aa := agreement_Aa A a in
    let* Ae := kappa_Ae A (ac_bnd a) in
    let* kappa := chance_corrected A Aa Ae in
    Ok (kappa, Aa, Ae).

(** agreement/bias.py:12-28 [__artstein_poesio_bias_linear__]: (bias, A_pi_e,
    A_kappa_e).  [list(get_coders(...))] is evaluated in both calls. *)
Definition bias_full (A : arith) (cmp : compare) (f : fmt) (coders : list string)
  (items : dict (dict seg)) : res (num * num * num) :=
  let* (_, pe) := pi_full A cmp f coders items in
  let* (_, ke) := kappa_full A cmp f coders items in
  let* b := nsub A pe ke in
  Ok (b, pe, ke).

(** What an agreement function returns. *)
Inductive agres := GVal (v : num) | GParts (x y : num).

(** The public functions: agreement/__init__.py:23-30 and 178-180, pi.py:49-56,
    kappa.py:59-65, bias.py:31-35.  [cord] is the iteration order of the set
    of coders. *)
Definition three (return_parts : bool) (r : res (num * num * num)) : res agres :=
  let* (va, e) := r in
  Ok (if return_parts then GParts (snd va) e else GVal (fst va)).

Definition actual_agreement_linear A cmp (f : fmt) (cord : gset string -> list string) (c : container) : res num :=
  actual_agreement A cmp (c_format c f) (cord (c_coders c)) (c_items c).

Definition fleiss_pi_linear A cmp (f : fmt) (cord : gset string -> list string) rp (c : container) : res agres :=
  three rp (pi_full A cmp (c_format c f) (cord (c_coders c)) (c_items c)).

Definition fleiss_kappa_linear A cmp (f : fmt) (cord : gset string -> list string) rp (c : container) : res agres :=
  three rp (kappa_full A cmp (c_format c f) (cord (c_coders c)) (c_items c)).

Definition artstein_poesio_bias_linear A cmp (f : fmt) (cord : gset string -> list string) rp (c : container) : res agres :=
  three rp (bias_full A cmp (c_format c f) (cord (c_coders c)) (c_items c)).

(** agreement/__init__.py:16-20: the default [fnc_compare] is
    boundary_similarity, called through [__fnc_metric__] of segeval.util
    (which rejects empty segmentations) with [return_parts = True]. *)
Definition compare_of {R} (parts : R -> option (num * num)) (metric : fmt -> seg -> seg -> res R) : compare :=
  fun f a b =>
    if negb (seg_len a =? 0) && negb (seg_len b =? 0) then
      let* r := metric f a b in
      match parts r with Some p => Ok p | None => Err TypeError end
    else Err SegmentationMetricError.

Definition compare_B (A : arith) (E : env) (W : weights) (n_t : Z) (one_minus : bool) : compare :=
  compare_of (fun r => match r with BParts n d _ => Some (n, d) | BVal _ => None end)
    (fun f a b => boundary_similarity A E W f n_t one_minus true a b).

Definition compare_S (A : arith) (E : env) (W : weights) (n_t : Z) (one_minus : bool) : compare :=
  compare_of (fun r => match r with SParts n d => Some (n, d) | SVal _ => None end)
    (fun f a b => segmentation_similarity A E W f n_t one_minus true a b).
