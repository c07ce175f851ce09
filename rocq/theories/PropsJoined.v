(** Property C107: two datasets without common items, one after the other
    (segeval/compute.py:11-111, segeval/util/math.py). *)
From stdpp Require Import gmap.
From Verif Require Import SpecDispatch SpecMath SpecSim SpecML Spec Dispatch Round BothOrders PropsDispatch Joined.
Open Scope Z_scope.

(** ** C107 *)

(** The pairwise values of the whole are those of the two parts.  In exact arithmetic its
    mean is the weighted mean of theirs; its variance is the weighted mean of their
    variances plus the variance between the parts. *)
Theorem C107_joined : forall R (metric : seg -> seg -> res R) lord, lord_ok lord -> forall ia ib, items_ok (ia ++ ib) -> plain_coders (ia ++ ib) ->
  forall (w : R -> num) da db, compute_pairwise_values metric lord false ia None = Ok da -> compute_pairwise_values metric lord false ib None = Ok db ->
  exists d, compute_pairwise_values metric lord false (ia ++ ib) None = Ok d /\ d ≡ₚ da ++ db /\
  (Forall not_float (w <$> da.*2) -> Forall not_float (w <$> db.*2) ->
   forall m s v e n m' s' v' e' n', summarize exactA (numbers w da) = Ok (m, s, v, e, n) -> summarize exactA (numbers w db) = Ok (m', s', v', e', n') ->
   exists M S V E, summarize exactA (numbers w d) = Ok (NDec M, NDec S, NDec V, NDec E, n + n') /\
    (let x := inject_Z n in let y := inject_Z n' in
     M == (x * nval m + y * nval m') / (x + y) /\
     V == (x * nval v + y * nval v') / (x + y) + x * y * ((nval m - nval m') * (nval m - nval m')) / ((x + y) * (x + y)))%Q).
Proof. exact @joined. Qed.
Print Assumptions C107_joined.

Definition doc107 : dict (dict seg) := [("doc", [("ann", mass [2; 3; 6]); ("bob", mass [5; 6]); ("cat", mass [5; 6])])]%string.
Definition note107 : dict (dict seg) := [("dir,note", [("bob", mass [4; 4]); ("dan", mass [3; 5])])]%string.

(** Means 2/3 of three values and 1/2 of one: 5/8.  Variances 1/18 and 0: 3/64. *)
Example C107_case :
  items_ok (doc107 ++ note107) /\ plain_coders (doc107 ++ note107) /\
  compute_pairwise_values (B0 FMass) ord0 false doc107 None =
    Ok [("doc,ann,bob", BVal (NDec (1 # 2))); ("doc,ann,cat", BVal (NDec (1 # 2))); ("doc,bob,cat", BVal (NDec 1))]%string /\
  compute_pairwise_values (B0 FMass) ord0 false note107 None = Ok [("dir,note,bob,dan", BVal (NDec (1 # 2)))]%string /\
  (let mean_var l := rmap (fun t : num * num * num * num * Z => (t.1.1.1.1, t.1.1.2)) (let* d := compute_pairwise_values (B0 FMass) ord0 false l None in summarize exactA (numbers b_num d)) in
   mean_var doc107 = Ok (NDec (2 # 3), NDec (1 # 18)) /\ mean_var note107 = Ok (NDec (1 # 2), NDec 0) /\
   mean_var (doc107 ++ note107) = Ok (NDec (5 # 8), NDec (3 # 64))).
Proof.
  split; [exact (proj1 items0_ok)|]. split; [exact (proj2 items0_ok)|]. split; [vm_compute; reflexivity|]. split; [vm_compute; reflexivity|].
  split; [vm_compute; reflexivity|]. split; vm_compute; reflexivity.
Qed.
