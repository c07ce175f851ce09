(** Properties C08-C17: boundary edit distance (segeval/similarity/distance). *)
From Verif Require Import Spec Bed BedTheory BedMin BedExtra.
Open Scope Z_scope.

(** ** C08 *)

Theorem C08_no_edits : forall E a b n_t, env_ok E -> length a = length b ->
  boundary_edit_distance E a b n_t = Ok (Edits [] [] []) <-> a = b.
Proof. exact bed_empty_iff. Qed.
Print Assumptions C08_no_edits.

Example C08_case : env_ok env0 /\
  boundary_edit_distance env0 [{[1]}; ∅; {[1; 2]}] [{[1]}; ∅; {[1; 2]}] 2 = Ok (Edits [] [] []) /\
  boundary_edit_distance env0 [{[1]}; ∅; {[1; 2]}] [{[1]}; ∅; {[1]}] 2 = Ok (Edits [Addition 2 SideA] [] []).
Proof. split; [exact env0_ok|]. by_compute. Qed.

(** ** C09 *)

Theorem C09_each_difference_once : forall E a b n_t e d, env_ok E -> small_types a b -> length a = length b ->
  boundary_edit_distance E a b n_t = Ok e ->
  only_in a b d = (countP (fun x => x = Addition d SideA) (e_add e) + countP (fun s => fst s = d) (e_sub e)
                   + countP (fun t => t_type t = d) (e_transp e))%nat /\
  only_in b a d = (countP (fun x => x = Addition d SideB) (e_add e) + countP (fun s => snd s = d) (e_sub e)
                   + countP (fun t => t_type t = d) (e_transp e))%nat.
Proof. exact bed_conserves. Qed.
Print Assumptions C09_each_difference_once.

Theorem C09_total : forall E a b n_t e, env_ok E -> small_types a b -> length a = length b ->
  boundary_edit_distance E a b n_t = Ok e ->
  (length (e_add e) + 2 * length (e_sub e) + 2 * length (e_transp e) = ndiffs a b)%nat.
Proof. exact bed_total. Qed.
Print Assumptions C09_total.

(** Additions, a substitution and a transposition all occur. *)
Example C09_case : let a := [{[1; 2]}; ∅; {[1]}; ∅] in let b := [{[1; 3]}; {[1]}; ∅; {[2]}] in
  small_types a b /\
  boundary_edit_distance env0 a b 2 = Ok (Edits [Addition 2 SideB] [(2, 3)] [Transp 1 2 1]) /\
  ndiffs a b = 5%nat /\ only_in a b 2 = 1%nat /\ only_in b a 2 = 1%nat.
Proof. split; [apply small_typesb; reflexivity|]. by_compute. Qed.

(** ** C10 *)

Theorem C10_transpositions : forall E a b n_t e, env_ok E -> small_types a b -> length a = length b ->
  boundary_edit_distance E a b n_t = Ok e ->
  (forall t, t ∈ e_transp e ->
     (t_start t < t_end t < length a)%nat /\
     Z.of_nat (t_end t) - Z.of_nat (t_start t) <= n_t - 1 /\
     swaps a b (t_start t) (t_end t) (t_type t)) /\
  (forall k1 k2 t u, e_transp e !! k1 = Some t -> e_transp e !! k2 = Some u -> k1 <> k2 ->
     t_type t = t_type u ->
     t_start t <> t_start u /\ t_start t <> t_end u /\ t_end t <> t_start u /\ t_end t <> t_end u).
Proof. exact bed_transpositions. Qed.
Print Assumptions C10_transpositions.

Example C10_case : let a := [{[1]}; ∅; {[1]}; ∅; ∅] in let b := [∅; {[1]}; ∅; ∅; {[1]}] in
  small_types a b /\
  boundary_edit_distance env0 a b 3 = Ok (Edits [] [] [Transp 0 1 1; Transp 2 4 1]).
Proof. split; [apply small_typesb; reflexivity|]. by_compute. Qed.

(** ** C11 *)

Theorem C11_cheapest_pairing : forall a b, a ## b -> exists adds subs,
  additions_substitutions_sets (a ∪ b) a b = Ok (adds, subs) /\
  cheapest_pairing a b subs /\ NoDup adds /\
  (forall d, Addition d SideA ∈ adds <-> d ∈ a /\ d ∉ subs.*1) /\
  (forall d, Addition d SideB ∈ adds <-> d ∈ b /\ d ∉ subs.*2).
Proof. exact sets_cheapest. Qed.
Print Assumptions C11_cheapest_pairing.

(** The same, gap by gap, for the whole edit distance: at every gap the types left
    over by the transpositions are paired off as cheaply as possible. *)
Theorem C11_at_every_gap : forall E a b n_t e, env_ok E -> length a = length b ->
  boundary_edit_distance E a b n_t = Ok e ->
  exists (adds : nat -> list addition) (subs : nat -> list substitution),
    e_add e = mjoin (adds <$> seq 0 (length a)) /\ e_sub e = mjoin (subs <$> seq 0 (length a)) /\
    forall i (A B : tyset), (i < length a)%nat ->
      (forall d, d ∈ A <-> has a i d /\ ~ has b i d /\
         ~ exists t, t ∈ e_transp e /\ t_type t = d /\ (t_start t = i \/ t_end t = i)) ->
      (forall d, d ∈ B <-> has b i d /\ ~ has a i d /\
         ~ exists t, t ∈ e_transp e /\ t_type t = d /\ (t_start t = i \/ t_end t = i)) ->
      cheapest_pairing A B (subs i) /\ NoDup (adds i) /\
      (forall d, Addition d SideA ∈ adds i <-> d ∈ A /\ d ∉ (subs i).*1) /\
      (forall d, Addition d SideB ∈ adds i <-> d ∈ B /\ d ∉ (subs i).*2).
Proof. exact bed_gapwise. Qed.
Print Assumptions C11_at_every_gap.

Example C11_case : ({[1; 5]} : tyset) ## {[2; 6; 9]} /\
  additions_substitutions_sets {[1; 5; 2; 6; 9]} {[1; 5]} {[2; 6; 9]} =
    Ok ([Addition 9 SideB], [(1, 2); (5, 6)]).
Proof. split; [set_solver|]. by_compute. Qed.

(** ** C12 *)

Theorem C12_symmetric : forall E E' a b n_t e e', env_ok E -> env_ok E' -> small_types a b -> length a = length b ->
  boundary_edit_distance E a b n_t = Ok e -> boundary_edit_distance E' b a n_t = Ok e' ->
  e_transp e ≡ₚ e_transp e' /\
  countP (fun x => a_side x = SideA) (e_add e) = countP (fun x => a_side x = SideB) (e_add e') /\
  countP (fun x => a_side x = SideB) (e_add e) = countP (fun x => a_side x = SideA) (e_add e') /\
  length (e_add e) = length (e_add e') /\
  length (e_sub e) = length (e_sub e') /\
  distance (e_sub e) = distance (e_sub e').
Proof. exact bed_symmetric. Qed.
Print Assumptions C12_symmetric.

Example C12_case : let a := [{[1; 2]}; ∅; {[1]}] in let b := [{[3; 4]}; {[1]}; {[2]}] in
  small_types a b /\
  boundary_edit_distance env0 a b 2 = Ok (Edits [Addition 4 SideB] [(2, 3); (1, 2)] [Transp 0 1 1]) /\
  boundary_edit_distance env_rev b a 2 = Ok (Edits [Addition 4 SideA] [(3, 2); (2, 1)] [Transp 0 1 1]).
Proof. split; [apply small_typesb; reflexivity|]. by_compute. Qed.

(** ** C13 *)

Theorem C13_order_independent : forall E E' a b n_t e e', env_ok E -> env_ok E' -> small_types a b ->
  length a = length b ->
  boundary_edit_distance E a b n_t = Ok e -> boundary_edit_distance E' a b n_t = Ok e' ->
  e_transp e ≡ₚ e_transp e' /\ e_add e = e_add e' /\ e_sub e = e_sub e'.
Proof. exact bed_order_independent. Qed.
Print Assumptions C13_order_independent.

Example C13_case : let a := [{[1; 2]}; ∅] in let b := [∅; {[1; 2]}] in
  env_ok env0 /\ env_ok env_rev /\ small_types a b /\
  boundary_edit_distance env0 a b 2 = Ok (Edits [] [] [Transp 0 1 1; Transp 0 1 2]) /\
  boundary_edit_distance env_rev a b 2 = Ok (Edits [] [] [Transp 0 1 2; Transp 0 1 1]).
Proof. split; [exact env0_ok|]. split; [exact env_rev_ok|]. split; [apply small_typesb; reflexivity|]. by_compute. Qed.

(** ** C14 *)

Theorem C14_monotone : forall E a b n_t n_t' e e', env_ok E -> (length a <= length b)%nat -> n_t <= n_t' ->
  boundary_edit_distance E a b n_t = Ok e -> boundary_edit_distance E a b n_t' = Ok e' ->
  e_transp e `prefix_of` e_transp e'.
Proof. exact bed_monotone. Qed.
Print Assumptions C14_monotone.

Theorem C14_none_below_two : forall E a b n_t e, env_ok E -> (length a <= length b)%nat -> n_t <= 1 ->
  boundary_edit_distance E a b n_t = Ok e -> e_transp e = [].
Proof. exact bed_no_transposition. Qed.
Print Assumptions C14_none_below_two.

Example C14_case : let a := [{[1]}; ∅; {[1]}; ∅; ∅] in let b := [∅; {[1]}; ∅; ∅; {[1]}] in
  rmap e_transp (boundary_edit_distance env0 a b 1) = Ok [] /\
  rmap e_transp (boundary_edit_distance env0 a b 2) = Ok [Transp 0 1 1] /\
  rmap e_transp (boundary_edit_distance env0 a b 3) = Ok [Transp 0 1 1; Transp 2 4 1].
Proof. by_compute. Qed.

(** ** C15 *)

Theorem C15_minimal : forall E a b c, env_ok E -> one_type a b c -> -5 <= c <= 256 -> length a = length b ->
  forall e T G, boundary_edit_distance E a b 2 = Ok e -> edit_script a b c 2 T G ->
  (length (e_add e) + length (e_sub e) + length (e_transp e) <= length G + length T)%nat /\
  2 * zlen (e_add e) + 2 * zlen (e_sub e) + zlen (e_transp e) <= script_cost 2 T G.
Proof. exact bed_minimal. Qed.
Print Assumptions C15_minimal.

Theorem C15_attained : forall E a b c, env_ok E -> one_type a b c -> -5 <= c <= 256 -> length a = length b ->
  forall e, boundary_edit_distance E a b 2 = Ok e ->
  exists G, edit_script a b c 2 ((fun t => (t_start t, t_end t)) <$> e_transp e) G /\ length G = length (e_add e).
Proof. exact bed_is_script. Qed.
Print Assumptions C15_attained.

Example C15_case : let a := [{[1]}; ∅; {[1]}; ∅] in let b := [∅; {[1]}; ∅; ∅] in
  one_type a b 1 /\
  boundary_edit_distance env0 a b 2 = Ok (Edits [Addition 1 SideA] [] [Transp 0 1 1]) /\
  edit_script a b 1 2 [(1, 2)%nat] [0%nat] /\ script_cost 2 [(1, 2)%nat] [0%nat] = 3.
Proof. split; [apply one_typeb; reflexivity|]. split; [by_compute|]. split; [apply scriptb_ok; reflexivity|reflexivity]. Qed.

(** With [n_t = 3] the edits found are no longer a minimum. *)
Theorem C15_longer_spans_refuted : exists a b c e T G,
  one_type a b c /\ -5 <= c <= 256 /\ length a = length b /\
  boundary_edit_distance env0 a b 3 = Ok e /\ edit_script a b c 3 T G /\
  (length G + length T < length (e_add e) + length (e_sub e) + length (e_transp e))%nat /\
  script_cost 3 T G < 3 * zlen (e_add e) +
    zsum ((fun t => Z.of_nat (t_end t) - Z.of_nat (t_start t)) <$> e_transp e).
Proof.
  exists [{[1]}; ∅; ∅; {[1]}; ∅; ∅], [∅; ∅; {[1]}; ∅; ∅; {[1]}], 1,
    (Edits [Addition 1 SideA; Addition 1 SideB] [] [Transp 2 3 1]), [(0, 2)%nat; (3, 5)%nat], [].
  split; [apply one_typeb; reflexivity|]. split; [lia|]. split; [reflexivity|]. split; [by_compute|].
  split; [apply scriptb_ok; reflexivity|]. split; [cbn; lia|reflexivity].
Qed.
Print Assumptions C15_longer_spans_refuted.

(** ** C16 *)

Theorem C16_by_value : forall E a b n_t, env_ok E -> small_types a b -> (length a <= length b)%nat ->
  boundary_edit_distance E a b n_t =
  boundary_edit_distance (Env (ord E) (fun t u => t_type t =? t_type u)) a b n_t.
Proof. exact bed_by_equality. Qed.
Print Assumptions C16_by_value.

(** Without the bound on the types two transpositions of one type can share a gap,
    and the number of edits no longer matches the differences. *)
Theorem C16_large_types_refuted : exists E a b e,
  env_ok E /\ length a = length b /\ boundary_edit_distance E a b 2 = Ok e /\
  (exists t u, e_transp e = [t; u] /\ t_type t = t_type u /\ t_end t = t_start u) /\
  (length (e_add e) + 2 * length (e_sub e) + 2 * length (e_transp e))%nat <> ndiffs a b /\
  boundary_edit_distance E a b 2 <> boundary_edit_distance (Env (ord E) (fun t u => t_type t =? t_type u)) a b 2.
Proof.
  exists env_distinct, [∅; {[1000]}; ∅], [{[1000]}; ∅; {[1000]}],
    (Edits [] [] [Transp 0 1 1000; Transp 1 2 1000]).
  split; [exact env_distinct_ok|]. split; [reflexivity|]. split; [by_compute|].
  split; [eexists _, _; repeat split|]. by_compute.
Qed.
Print Assumptions C16_large_types_refuted.

Example C16_case : let a := [∅; {[256]}; ∅] in let b := [{[256]}; ∅; {[256]}] in
  small_types a b /\ env_ok env_distinct /\
  boundary_edit_distance env_distinct a b 2 = Ok (Edits [Addition 256 SideB] [] [Transp 0 1 256]).
Proof. split; [apply small_typesb; reflexivity|]. split; [exact env_distinct_ok|]. by_compute. Qed.

(** ** C17 *)

Theorem C17_returns : forall E a b n_t, env_ok E -> (length a <= length b)%nat ->
  exists e, boundary_edit_distance E a b n_t = Ok e.
Proof. exact bed_returns. Qed.
Print Assumptions C17_returns.

Theorem C17_shorter_second_string : forall E a b n_t, env_ok E -> (length b < length a)%nat ->
  (2 <= length a)%nat -> 2 <= n_t -> boundary_edit_distance E a b n_t = Err IndexError.
Proof. exact bed_index_error. Qed.
Print Assumptions C17_shorter_second_string.

Example C17_case :
  boundary_edit_distance env0 [{[1]}; ∅] [{[1]}] 2 = Err IndexError /\
  boundary_edit_distance env0 [{[1]}; ∅] [{[1]}] 1 = Ok (Edits [] [] []) /\
  boundary_edit_distance env0 [{[1]}] [{[1]}; {[2]}] 2 = Ok (Edits [] [] []).
Proof. by_compute. Qed.
