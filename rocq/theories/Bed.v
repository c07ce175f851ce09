(** Model of segeval/similarity/distance/__init__.py and
    segeval/similarity/distance/multipleboundary.py. *)
From stdpp Require Export sorting.
From Verif Require Export Format.
Open Scope Z_scope.

(** segeval/similarity/distance/__init__.py:8-18 [identify_types]. *)
Definition identify_types (a b : bstring) : tyset := ⋃ a ∪ ⋃ b.

(** multipleboundary.py:11-14, the namedtuples. *)
Inductive side := SideA | SideB.
Global Instance side_eq_dec : EqDecision side.
Proof. solve_decision. Defined.
Record addition := Addition { a_type : Z; a_side : side }.
Global Instance addition_eq_dec : EqDecision addition.
Proof. solve_decision. Defined.
Notation substitution := (Z * Z)%type.
Record transposition := Transp { t_start : nat; t_end : nat; t_type : Z }.
Global Instance transposition_eq_dec : EqDecision transposition.
Proof. solve_decision. Defined.
(** [Difference(sim, a_b, b_a)]: three mutable sets. *)
Record difference := Diff { d_sim : tyset; d_ab : tyset; d_ba : tyset }.

(** Symmetric difference [x ^ y]. *)
Definition symdiff (x y : tyset) : tyset := (x ∖ y) ∪ (y ∖ x).

Definition zsize (x : tyset) : Z := Z.of_nat (size x).

(** What Python leaves open: the order in which the set of candidate types is
    iterated at positions i, j, and whether two type objects that denote the
    same int are the same object (each candidate (i, j, d) has one object). *)
Record env := Env {
  ord : nat -> nat -> tyset -> list Z;
  same : transposition -> transposition -> bool
}.

(** What CPython guarantees about them. *)
Record env_ok (E : env) : Prop := EnvOk {
  ord_perm : forall i j s, ord E i j s ≡ₚ elements s;
  same_eq : forall t u, same E t u = true -> t_type t = t_type u;
  same_small : forall t u, t_type t = t_type u -> small (t_type t) = true -> same E t u = true
}.

(** A concrete environment: canonical order, identity is equality. *)
Definition env0 : env := Env (fun _ _ s => elements s) (fun t u => t_type t =? t_type u).

(** multipleboundary.py:17-32 [__additions_substitutions__]; the second
    component is the (float) number of substitutions, exact here. *)
Definition additions_substitutions (d a b : tyset) : Z * Q :=
  let additions := Z.abs (zsize a - zsize b) in
  let substitutions := (inject_Z (zsize d - additions) / 2)%Q in
  (additions, substitutions).

(** [itertools.permutations] in its lexicographic (by position) order. *)
Fixpoint picks {A} (l : list A) : list (A * list A) :=
  match l with
  | [] => []
  | x :: r => (x, r) :: ((fun '(y, s) => (y, x :: s)) <$> picks r)
  end.

Fixpoint perms_n {A} (n : nat) (l : list A) : list (list A) :=
  match n with
  | O => [[]]
  | S n' => '(x, r) ← picks l; cons x <$> perms_n n' r
  end.

Definition perms {A} (l : list A) : list (list A) := perms_n (length l) l.

(** [sorted] of a set of ints. *)
Definition sorted_types (s : tyset) : list Z := merge_sort Z.le (elements s).

(** multipleboundary.py:54-55: the summed distance of a list of pairs. *)
Definition pair_cost (l : list (Z * Z)) : Z := zsum ((fun '(x, y) => Z.abs (x - y)) <$> l).

(** multipleboundary.py:48-58: the first pairing of least total distance.  The
    pairings [zip(perm_a, perm_b)] have no repeated pair, so Python's [set(...)]
    around them changes nothing and is omitted. *)
Definition sub_step (best : option Z * list substitution) (cur : list substitution)
  : option Z * list substitution :=
  let delta := pair_cost cur in
  match fst best with
  | None => (Some delta, cur)
  | Some d => if delta <? d then (Some delta, cur) else best
  end.

Definition best_substitutions (a b : tyset) : list substitution :=
  snd (foldl (fun best perm_a =>
         foldl (fun best perm_b => sub_step best (zip perm_a perm_b)) best
               (perms (sorted_types b)))
       (None, []) (perms (sorted_types a))).

(** multipleboundary.py:35-73 [__additions_substitutions_sets__].  The
    assertion compares two lengths with [is]; lengths above 256 would need the
    enumeration of 257! permutations, so it is modelled with [=]. *)
Definition additions_substitutions_sets (d a b : tyset)
  : res (list addition * list substitution) :=
  let substitutions := best_substitutions a b in
  let substituted : tyset := list_to_set (substitutions.*1 ++ substitutions.*2) in
  let additions := d ∖ substituted in
  let added := ((fun t => Addition t SideA) <$> elements (a ∖ substituted)) ++
               ((fun t => Addition t SideB) <$> elements (b ∖ substituted)) in
  if decide (length added = size additions) then Ok (added, substitutions)
  else Err AssertionError.

Notation options := (gmap nat difference).

(** multipleboundary.py:76-89 [__has_substitutions__]. *)
Definition has_substitutions (i j : nat) (d : Z) (opts : options) : bool :=
  match opts !! i, opts !! j with
  | Some oi, Some oj =>
    bool_decide (d ∈ d_sim oi) && bool_decide (d ∈ d_sim oj) &&
    negb (Qle_bool (snd (additions_substitutions (d_sim oi) (d_ab oi) (d_ba oi))) 0) &&
    negb (Qle_bool (snd (additions_substitutions (d_sim oj) (d_ab oj) (d_ba oj))) 0)
  | _, _ => false
  end.

Notation covers := (gmap nat (list transposition)).

(** multipleboundary.py:92-108 [__overlaps_existing__]; [t[2] is d]. *)
Definition check_position (E : env) (t : transposition) (cov : covers) (pos : nat) : bool :=
  match cov !! pos with
  | Some ts => existsb (fun t' => same E t' t) ts
  | None => false
  end.

Definition overlaps_existing (E : env) (t : transposition) (cov : covers) : bool :=
  check_position E t cov (t_start t) || check_position E t cov (t_end t).

(** The mutable state of [__transpositions__]: options_set, options_transp and
    the output list. *)
Record tstate := TState { s_opts : options; s_cov : covers; s_out : list transposition }.

Definition discard (d : Z) (o : difference) : difference :=
  Diff (d_sim o ∖ {[d]}) (d_ab o ∖ {[d]}) (d_ba o ∖ {[d]}).

Definition record_cover (t : transposition) (pos : nat) (cov : covers) : covers :=
  <[pos := default [] (cov !! pos) ++ [t]]> cov.

(** multipleboundary.py:138-160: the body of [for d in t_p].  [options_set[i]]
    raises KeyError if absent. *)
Definition transp_type (E : env) (i j : nat) (st : tstate) (d : Z) : res tstate :=
  let t := Transp i j d in
  if negb (overlaps_existing E t (s_cov st)) && negb (has_substitutions i j d (s_opts st))
  then
    let cov := record_cover t j (record_cover t i (s_cov st)) in
    match s_opts st !! i with
    | None => Err KeyError
    | Some _ =>
      let opts := alter (discard d) i (s_opts st) in
      match opts !! j with
      | None => Err KeyError
      | Some _ => Ok (TState (alter (discard d) j opts) cov (s_out st ++ [t]))
      end
    end
  else Ok st.

(** multipleboundary.py:125-136: types that swap between gaps i and j. *)
Definition candidates_at (a_i a_j b_i b_j : tyset) : tyset :=
  symdiff a_i b_i ∩ symdiff a_j b_j ∩ symdiff a_i a_j ∩ symdiff b_i b_j.

Definition lookup_or {A} (l : list A) (i : nat) : res A :=
  match l !! i with Some x => Ok x | None => Err IndexError end.

(** multipleboundary.py:123-160: one pair of positions i, j = i + n_i. *)
Definition transp_pos (E : env) (a b : bstring) (n_i : nat) (st : tstate) (i : nat) : res tstate :=
  let j := (i + n_i)%nat in
  let* a_i := lookup_or a i in
  let* a_j := lookup_or a j in
  let* b_i := lookup_or b i in
  let* b_j := lookup_or b j in
  foldM (transp_type E i j) (ord E i j (candidates_at a_i a_j b_i b_j)) st.

(** multipleboundary.py:121-160: one spanning length. *)
Definition transp_span (E : env) (a b : bstring) (st : tstate) (n : nat) : res tstate :=
  let n_i := (n - 1)%nat in
  foldM (transp_pos E a b n_i) (seq 0 (length a - n_i)) st.

(** multipleboundary.py:111-161 [__transpositions__]; also returns the mutated
    options_set. *)
Definition transpositions (E : env) (a b : bstring) (n : list nat) (opts : options)
  : res (list transposition * options) :=
  let* st := foldM (transp_span E a b) n (TState opts ∅ []) in
  Ok (s_out st, s_opts st).

(** multipleboundary.py:164-178 [__optional_set_edits__]. *)
Definition optional_set_edits (a b : bstring) : options :=
  list_to_map (omap (fun '(i, (a_i, b_i)) =>
      let d := symdiff a_i b_i in
      if decide (d = ∅) then None else Some (i, Diff d (a_i ∖ b_i) (b_i ∖ a_i)))
    (imap pair (zip a b))).

(** [options_set.values()] in insertion order, that is by position. *)
Definition option_values (n : nat) (opts : options) : list difference :=
  omap (fun i => opts !! i) (seq 0 n).

Record edits := Edits {
  e_add : list addition; e_sub : list substitution; e_transp : list transposition
}.

(** multipleboundary.py:200-204. *)
Definition collect_edits (acc : list addition * list substitution) (o : difference)
  : res (list addition * list substitution) :=
  let* r := additions_substitutions_sets (d_sim o) (d_ab o) (d_ba o) in
  Ok (fst acc ++ fst r, snd acc ++ snd r).

(** multipleboundary.py:181-206 [__boundary_edit_distance__]; [n] is already
    sorted in the only call. *)
Definition boundary_edit_distance_n (E : env) (a b : bstring) (n : list nat) : res edits :=
  let* (ts, opts) := transpositions E a b n (optional_set_edits a b) in
  let* (adds, subs) :=
    foldM collect_edits (option_values (length a) opts) ([], []) in
  Ok (Edits adds subs ts).

(** multipleboundary.py:209-225 [boundary_edit_distance]:
    [n_t = range(2, n_t + 1)]. *)
Definition boundary_edit_distance (E : env) (a b : bstring) (n_t : Z) : res edits :=
  boundary_edit_distance_n E a b (seq 2 (Z.to_nat (n_t - 1))).
