(** Properties C46-C50: agreement between coders (segeval/agreement/). *)
From stdpp Require Import gmap.
From Verif Require Import SpecAgreement SpecML SpecDispatch Spec Round RoundProofs BedProofs BedExtra SimMain
  AgreementPublic AgreementPerm AgreementCases.
Open Scope Z_scope.

(** Concrete datasets; the segmentations are masses or boundary strings. *)
Definition am (l : list Z) : seg := Ints (ints l).
Definition aord0 : gset string -> list string := fun s => elements s.
Definition aord1 : gset string -> list string := fun s => reverse (elements s).
Lemma aord0_ok : lord_ok aord0.
Proof. intros s. reflexivity. Qed.
Lemma aord1_ok : lord_ok aord1.
Proof. intros s. unfold aord1. rewrite reverse_Permutation. reflexivity. Qed.

Definition three_coders : container :=
  CDict [("i1", [("c1", am [2; 8; 2; 1]); ("c2", am [2; 1; 7; 2; 1]); ("c3", am [9; 4])]);
         ("i2", [("c3", am [4; 4]); ("c1", am [3; 5]); ("c2", am [2; 2; 4])])]%string.
Definition all_agree : container :=
  CDict [("i1", [("c1", am [2; 8; 2; 1]); ("c2", am [2; 8; 2; 1])]); ("i2", [("c1", am [4; 4]); ("c2", am [4; 4])])]%string.
Definition all_marked : container :=
  CDict [("i1", [("c1", am [1; 1; 1]); ("c2", am [1; 1; 1])])]%string.

Definition coders_of (c : container) : list string := aord0 (c_coders c).

Lemma three_coded : coded FMass (coders_of three_coders) (c_items three_coders) /\ full (coders_of three_coders) (c_items three_coders) /\
  cached FMass (coders_of three_coders) (c_items three_coders) /\ workload FMass (coders_of three_coders) (c_items three_coders) <= 10 ^ 28 /\
  ~ unanimous FMass (coders_of three_coders) (c_items three_coders) /\ ~ all_gaps_marked FMass (coders_of three_coders) (c_items three_coders).
Proof.
  split; [apply coded_b_ok; vm_compute; reflexivity|]. split; [apply full_b_ok; vm_compute; reflexivity|].
  split; [apply cached_b_ok; vm_compute; reflexivity|]. split; [vm_compute; discriminate|].
  split; [rewrite <- unanimous_b_ok; vm_compute; discriminate|rewrite <- marked_b_ok; vm_compute; discriminate].
Qed.
Lemma agree_coded : coded FMass (coders_of all_agree) (c_items all_agree) /\ full (coders_of all_agree) (c_items all_agree) /\
  cached FMass (coders_of all_agree) (c_items all_agree) /\ workload FMass (coders_of all_agree) (c_items all_agree) <= 10 ^ 28 /\
  unanimous FMass (coders_of all_agree) (c_items all_agree).
Proof.
  split; [apply coded_b_ok; vm_compute; reflexivity|]. split; [apply full_b_ok; vm_compute; reflexivity|].
  split; [apply cached_b_ok; vm_compute; reflexivity|]. split; [vm_compute; discriminate|]. rewrite <- unanimous_b_ok; vm_compute; reflexivity.
Qed.
Lemma marked_coded : coded FMass (coders_of all_marked) (c_items all_marked) /\ full (coders_of all_marked) (c_items all_marked) /\
  cached FMass (coders_of all_marked) (c_items all_marked) /\ workload FMass (coders_of all_marked) (c_items all_marked) <= 10 ^ 28 /\
  all_gaps_marked FMass (coders_of all_marked) (c_items all_marked).
Proof.
  split; [apply coded_b_ok; vm_compute; reflexivity|]. split; [apply full_b_ok; vm_compute; reflexivity|].
  split; [apply cached_b_ok; vm_compute; reflexivity|]. split; [vm_compute; discriminate|]. rewrite <- marked_b_ok; vm_compute; reflexivity.
Qed.

(** ** C46 *)

(** The numerators and denominators are what the comparison function returns for the
    item and the two coders; actual agreement is the ratio of their sums, lies in [0, 1]
    and is 1 exactly under complete agreement. *)
Theorem C46_pooled : forall E n_t f cord c cmp,
  env_ok E -> n_t <> 0 -> coded (c_format c f) (cord (c_coders c)) (c_items c) ->
  comparison exactA E n_t (cached (c_format c f) (cord (c_coders c)) (c_items c)) cmp ->
  exists (num : string -> string -> string * dict seg -> Q) (den : string -> string -> string * dict seg -> Z) (v : Q),
    (forall m n ic, (m, n) ∈ two_of (cord (c_coders c)) -> ic ∈ c_items c ->
      exists sa sb, dget (snd ic) m = Some sa /\ dget (snd ic) n = Some sb /\
        cmp (c_format c f) sa sb = Ok (NDec (num m n ic), NInt (den m n ic)) /\ 0 < den m n ic) /\
    actual_agreement_linear exactA cmp f cord c = Ok (NDec v) /\
    (v == qsum (gather num (cord (c_coders c)) (c_items c)) / inject_Z (zsum (gather den (cord (c_coders c)) (c_items c))))%Q /\
    (0 <= v <= 1)%Q /\ ((v == 1)%Q <-> unanimous (c_format c f) (cord (c_coders c)) (c_items c)).
Proof. exact actual_exact. Qed.
Print Assumptions C46_pooled.

(** With Decimal rounding the range and the value 1 under complete agreement remain. *)
Theorem C46_rounded : forall A E n_t f cord c cmp,
  sane A -> env_ok E -> n_t <> 0 -> coded (c_format c f) (cord (c_coders c)) (c_items c) ->
  comparison A E n_t (cached (c_format c f) (cord (c_coders c)) (c_items c)) cmp -> in_precision A (c_format c f) (cord (c_coders c)) (c_items c) ->
  exists v, actual_agreement_linear A cmp f cord c = Ok (NDec v) /\ (0 <= v <= 1)%Q /\
    (unanimous (c_format c f) (cord (c_coders c)) (c_items c) -> (v == 1)%Q).
Proof. exact actual_rounded. Qed.
Print Assumptions C46_rounded.

Example C46_case :
  coded FMass (coders_of three_coders) (c_items three_coders) /\ in_precision pyA FMass (coders_of three_coders) (c_items three_coders) /\ env_ok env0 /\
  comparison exactA env0 2 (cached FMass (coders_of three_coders) (c_items three_coders)) (compare_with true exactA env0 2 false) /\
  actual_agreement_linear exactA (compare_with true exactA env0 2 false) FMass aord0 three_coders = Ok (NDec (3 # 8)) /\
  actual_agreement_linear exactA (compare_with false exactA env0 2 false) FMass aord0 three_coders = Ok (NDec (47 # 57)) /\
  actual_agreement_linear pyA (compare_with true pyA env0 2 false) FMass aord0 all_agree = Ok (NDec 1).
Proof.
  destruct three_coded as (H1 & _ & H3 & H4 & _). split; [exact H1|]. split; [right; auto|]. split; [exact env0_ok|]. split; [apply with_comparison, H3|].
  split; [vm_compute; reflexivity|]. split; vm_compute; reflexivity.
Qed.

(** ** C47 *)

(** Whenever pi or kappa return a value it is at most 1, and 1 under complete agreement.
    With [return_parts] both parts are in [0, 1]. *)
Theorem C47_at_most_one : forall A E n_t f cord rp c cmp g,
  sane A -> env_ok E -> lord_ok cord ->
  comparison A E n_t (cached (c_format c f) (cord (c_coders c)) (c_items c)) cmp -> in_precision A (c_format c f) (cord (c_coders c)) (c_items c) ->
  fleiss_pi_linear A cmp f cord rp c = Ok g \/ fleiss_kappa_linear A cmp f cord rp c = Ok g ->
  at_most_one g /\ (unanimous (c_format c f) (cord (c_coders c)) (c_items c) -> equals_one g).
Proof. exact corrected_at_most_one. Qed.
Print Assumptions C47_at_most_one.

(** If all coders mark all gaps both raise InvalidOperation (0/0). *)
Theorem C47_raises : forall A E n_t f cord rp c cmp,
  sane A -> env_ok E -> n_t <> 0 ->
  coded (c_format c f) (cord (c_coders c)) (c_items c) -> full (cord (c_coders c)) (c_items c) ->
  comparison A E n_t (cached (c_format c f) (cord (c_coders c)) (c_items c)) cmp -> in_precision A (c_format c f) (cord (c_coders c)) (c_items c) ->
  all_gaps_marked (c_format c f) (cord (c_coders c)) (c_items c) ->
  fleiss_pi_linear A cmp f cord rp c = Err InvalidOperation /\ fleiss_kappa_linear A cmp f cord rp c = Err InvalidOperation.
Proof. exact corrected_raises. Qed.
Print Assumptions C47_raises.

(** In exact arithmetic that is the only case in which they do not return. *)
Theorem C47_returns : forall E n_t f cord rp c cmp,
  env_ok E -> n_t <> 0 ->
  coded (c_format c f) (cord (c_coders c)) (c_items c) -> full (cord (c_coders c)) (c_items c) ->
  comparison exactA E n_t (cached (c_format c f) (cord (c_coders c)) (c_items c)) cmp ->
  ~ all_gaps_marked (c_format c f) (cord (c_coders c)) (c_items c) ->
  (exists g, fleiss_pi_linear exactA cmp f cord rp c = Ok g) /\ (exists g, fleiss_kappa_linear exactA cmp f cord rp c = Ok g).
Proof. exact corrected_returns. Qed.
Print Assumptions C47_returns.

Example C47_case :
  (in_precision pyA FMass (coders_of three_coders) (c_items three_coders) /\
   fleiss_pi_linear exactA (compare_with true exactA env0 2 false) FMass aord0 false three_coders = Ok (GVal (NDec (2111 # 6080))) /\
   ~ all_gaps_marked FMass (coders_of three_coders) (c_items three_coders)) /\
  (unanimous FMass (coders_of all_agree) (c_items all_agree) /\
   fleiss_pi_linear pyA (compare_with true pyA env0 2 false) FMass aord0 false all_agree = Ok (GVal (NDec 1)) /\
   fleiss_kappa_linear pyA (compare_with true pyA env0 2 false) FMass aord0 false all_agree = Ok (GVal (NDec 1))) /\
  (all_gaps_marked FMass (coders_of all_marked) (c_items all_marked) /\ full (coders_of all_marked) (c_items all_marked) /\
   coded FMass (coders_of all_marked) (c_items all_marked) /\ in_precision pyA FMass (coders_of all_marked) (c_items all_marked) /\
   fleiss_pi_linear pyA (compare_with true pyA env0 2 false) FMass aord0 false all_marked = Err InvalidOperation).
Proof.
  destruct three_coded as (_ & _ & H3 & H4 & _ & H6). destruct agree_coded as (_ & _ & _ & _ & K). destruct marked_coded as (L1 & L2 & L3 & L4 & L5).
  split; [split; [right; auto|]; split; [vm_compute; reflexivity|exact H6]|]. split; [split; [exact K|]; split; vm_compute; reflexivity|].
  repeat (split; [assumption || (right; auto)|]). vm_compute. reflexivity.
Qed.

(** ** C48 *)

(** Bias is the difference of the chance agreements that pi and kappa report. *)
Theorem C48_difference : forall A cmp f cord c g, artstein_poesio_bias_linear A cmp f cord false c = Ok g ->
  exists a p a' k b, fleiss_pi_linear A cmp f cord true c = Ok (GParts a p) /\ fleiss_kappa_linear A cmp f cord true c = Ok (GParts a' k) /\
    nsub A p k = Ok b /\ g = GVal b /\ artstein_poesio_bias_linear A cmp f cord true c = Ok (GParts p k).
Proof. exact bias_difference. Qed.
Print Assumptions C48_difference.

(** Exact arithmetic, one item: never negative. *)
Theorem C48_not_negative : forall E n_t f cord c cmp ic,
  env_ok E -> lord_ok cord -> c_items c = [ic] ->
  comparison exactA E n_t (cached (c_format c f) (cord (c_coders c)) (c_items c)) cmp ->
  forall g, artstein_poesio_bias_linear exactA cmp f cord false c = Ok g -> exists v, g = GVal (NDec v) /\ (0 <= v)%Q.
Proof. exact bias_not_negative. Qed.
Print Assumptions C48_not_negative.

(** With one boundary type it is 0 exactly when all coders place equally many boundaries. *)
Theorem C48_zero : forall E n_t f cord c cmp ic,
  env_ok E -> lord_ok cord -> c_items c = [ic] ->
  comparison exactA E n_t (cached (c_format c f) (cord (c_coders c)) (c_items c)) cmp ->
  forall v, one_boundary_type (c_format c f) (cord (c_coders c)) ic -> artstein_poesio_bias_linear exactA cmp f cord false c = Ok (GVal v) ->
  (nval v == 0)%Q <-> equally_many (c_format c f) (cord (c_coders c)) ic.
Proof. exact bias_zero_iff. Qed.
Print Assumptions C48_zero.

Definition one_item : container :=
  CDict [("i1", [("c1", am [2; 8; 2; 1]); ("c2", am [2; 1; 7; 2; 1]); ("c3", am [9; 4])])]%string.
Definition same_number : container :=
  CDict [("i1", [("c1", am [1; 3]); ("c2", am [2; 2]); ("c3", am [3; 1])])]%string.

Example C48_case :
  artstein_poesio_bias_linear exactA (compare_with true exactA env0 2 false) FMass aord0 false one_item = Ok (GVal (NDec (7 # 1296))) /\
  artstein_poesio_bias_linear exactA (compare_with true exactA env0 2 false) FMass aord0 false same_number = Ok (GVal (NDec 0)) /\
  one_boundary_type FMass (coders_of same_number) ("i1", [("c1", am [1; 3]); ("c2", am [2; 2]); ("c3", am [3; 1])])%string.
Proof. split; [vm_compute; reflexivity|]. split; [vm_compute; reflexivity|]. apply (one_type_b_ok _ _ _ 1). vm_compute. reflexivity. Qed.

(** With several items it can be negative. *)
Definition two_items : container :=
  CDict [("i1", [("c1", am [1; 2]); ("c2", am [3])]);
         ("i2", [("c1", am [1; 1; 1; 1; 1; 1; 1; 1; 1; 2]); ("c2", am [1; 1; 1; 1; 1; 1; 1; 1; 1; 2])])]%string.
Theorem C48_several_items_refuted : ~ (forall E n_t f cord c cmp,
  env_ok E -> lord_ok cord -> comparison exactA E n_t (cached (c_format c f) (cord (c_coders c)) (c_items c)) cmp ->
  forall g, artstein_poesio_bias_linear exactA cmp f cord false c = Ok g -> exists v, g = GVal (NDec v) /\ (0 <= v)%Q).
Proof.
  intros H. destruct (H env0 2 FMass aord0 two_items (compare_with true exactA env0 2 false) env0_ok aord0_ok (by_B _ _ _ _ _)
    (GVal (NDec (-471 # 1600)))) as (v & [= <-] & Hv); [vm_compute; reflexivity|].
  apply Hv. reflexivity.
Qed.
Print Assumptions C48_several_items_refuted.

(** With several boundary types equally many boundaries do not suffice. *)
Definition several_types : container :=
  CDict [("i1", [("c1", Sets [{[1]}; ∅]); ("c2", Sets [{[1]}; ∅]); ("c3", Sets [∅; {[2]}])])]%string.
Theorem C48_several_types_refuted : ~ (forall E n_t f cord c cmp ic,
  env_ok E -> lord_ok cord -> c_items c = [ic] -> comparison exactA E n_t (cached (c_format c f) (cord (c_coders c)) (c_items c)) cmp ->
  forall v, artstein_poesio_bias_linear exactA cmp f cord false c = Ok (GVal v) -> equally_many (c_format c f) (cord (c_coders c)) ic -> (nval v == 0)%Q).
Proof.
  intros H. specialize (H env0 2 FSets aord0 several_types (compare_with true exactA env0 2 false) _ env0_ok aord0_ok eq_refl (by_B _ _ _ _ _)
    (NDec (1 # 54)) ltac:(vm_compute; reflexivity)). cbn [nval] in H.
  assert (forallb (fun c => forallb (fun c' => marks (coding FSets c ("i1", [("c1", Sets [{[1]}; ∅]); ("c2", Sets [{[1]}; ∅]); ("c3", Sets [∅; {[2]}])])%string) =?
    marks (coding FSets c' ("i1", [("c1", Sets [{[1]}; ∅]); ("c2", Sets [{[1]}; ∅]); ("c3", Sets [∅; {[2]}])])%string)) (coders_of several_types)) (coders_of several_types) = true) as K
    by (vm_compute; reflexivity).
  rewrite forallb_forall in K. assert (Hm : (1 # 54 == 0)%Q); [|discriminate Hm]. apply H. intros c c' Hc Hc'.
  apply elem_of_list_In in Hc, Hc'. specialize (K c Hc). rewrite forallb_forall in K. apply Z.eqb_eq, (K c' Hc').
Qed.
Print Assumptions C48_several_types_refuted.

(** With Decimal rounding it can be (just) below 0 even for one item. *)
Theorem C48_rounded_refuted : ~ (forall E n_t f cord c cmp ic,
  env_ok E -> lord_ok cord -> c_items c = [ic] ->
  comparison pyA E n_t (cached (c_format c f) (cord (c_coders c)) (c_items c)) cmp ->
  forall g, artstein_poesio_bias_linear pyA cmp f cord false c = Ok g -> exists v, g = GVal (NDec v) /\ (0 <= v)%Q).
Proof.
  intros H. destruct (H env0 2 FMass aord0 same_number (compare_with true pyA env0 2 false) _ env0_ok aord0_ok eq_refl (by_B _ _ _ _ _)
    (GVal (NDec (-1 # 10000000000000000000000000000)))) as (v & [= <-] & Hv); [vm_compute; reflexivity|].
  apply Hv. reflexivity.
Qed.
Print Assumptions C48_rounded_refuted.

(** ** C49 *)

(** Renaming the coders with an injective [rho], renaming and reordering the items, and
    reordering the codings of an item change nothing (exact arithmetic): each function
    returns for the one dataset what it returns for the other, also if sets are iterated
    in another order. *)
Theorem C49_order_and_names : forall rho E E' n_t b om f cord cord' c c',
  Inj (=) (=) rho -> env_ok E -> env_ok E' -> lord_ok cord -> lord_ok cord' ->
  c_format c' f = c_format c f -> c_coders c' = set_map rho (c_coders c) -> relabelled rho (c_items c) (c_items c') ->
  cached (c_format c f) (elements (c_coders c)) (c_items c) ->
  let X := compare_with b exactA E n_t om in let X' := compare_with b exactA E' n_t om in
  (forall v, actual_agreement_linear exactA X f cord c = Ok v <-> actual_agreement_linear exactA X' f cord' c' = Ok v) /\
  forall rp v, (fleiss_pi_linear exactA X f cord rp c = Ok v <-> fleiss_pi_linear exactA X' f cord' rp c' = Ok v) /\
    (fleiss_kappa_linear exactA X f cord rp c = Ok v <-> fleiss_kappa_linear exactA X' f cord' rp c' = Ok v) /\
    (artstein_poesio_bias_linear exactA X f cord rp c = Ok v <-> artstein_poesio_bias_linear exactA X' f cord' rp c' = Ok v).
Proof. exact agreement_relabelled. Qed.
Print Assumptions C49_order_and_names.

Definition renamed : container :=
  CDict [("x", [("xc3", am [4; 4]); ("xc2", am [2; 2; 4]); ("xc1", am [3; 5])]);
         ("y", [("xc2", am [2; 1; 7; 2; 1]); ("xc1", am [2; 8; 2; 1]); ("xc3", am [9; 4])])]%string.
Definition add_x (s : string) : string := ("x" ++ s)%string.

Lemma relabelled_case : relabelled add_x (c_items three_coders) (c_items renamed).
Proof.
  exists (reverse (c_items three_coders)). split; [symmetry; apply reverse_Permutation|].
  change (reverse (c_items three_coders)) with [("i2", [("c3", am [4; 4]); ("c1", am [3; 5]); ("c2", am [2; 2; 4])]);
    ("i1", [("c1", am [2; 8; 2; 1]); ("c2", am [2; 1; 7; 2; 1]); ("c3", am [9; 4])])]%string.
  constructor; [|constructor; [|constructor]]; (split; [refine (bool_decide_unpack _ _); vm_compute; exact I|]).
  - apply perm_skip, perm_swap.
  - apply perm_swap.
Qed.

Example C49_case : Inj (=) (=) add_x /\ env_ok env_rev /\ lord_ok aord1 /\ c_coders renamed = set_map add_x (c_coders three_coders) /\
  relabelled add_x (c_items three_coders) (c_items renamed) /\ cached FMass (elements (c_coders three_coders)) (c_items three_coders) /\
  fleiss_kappa_linear exactA (compare_with true exactA env0 2 false) FMass aord0 false three_coders = Ok (GVal (NDec (2897 # 8312))) /\
  fleiss_kappa_linear exactA (compare_with true exactA env_rev 2 false) FMass aord1 false renamed = Ok (GVal (NDec (2897 # 8312))).
Proof.
  split; [intros x y E; injection E as E; exact E|]. split; [exact env_rev_ok|]. split; [exact aord1_ok|].
  split; [refine (bool_decide_unpack _ _); vm_compute; exact I|]. split; [exact relabelled_case|]. split; [apply three_coded|]. split; vm_compute; reflexivity.
Qed.

(** With Decimal rounding the iteration order of the set of coders, which Python does not
    determine, can show in the last digits. *)
Definition order_shows : container :=
  CDict [("i1", [("c1", am [1; 1; 1; 1; 1; 1; 1; 1]); ("c2", am [1; 7]); ("c3", am [1; 1; 6]); ("c4", am [1; 1; 1; 1; 4])])]%string.
Definition differ (r r' : res agres) : bool :=
  match r, r' with Ok (GVal v), Ok (GVal v') => negb (Qeq_bool (nval v) (nval v')) | _, _ => false end.
Theorem C49_rounded_refuted : ~ (forall E n_t b om f cord cord' c, env_ok E -> lord_ok cord -> lord_ok cord' ->
  cached (c_format c f) (elements (c_coders c)) (c_items c) ->
  let X := compare_with b pyA E n_t om in
  forall v, fleiss_pi_linear pyA X f cord false c = Ok v <-> fleiss_pi_linear pyA X f cord' false c = Ok v).
Proof.
  intros H. specialize (H env0 2 true false FMass aord0 aord1 order_shows env0_ok aord0_ok aord1_ok ltac:(apply cached_b_ok; vm_compute; reflexivity)). cbv zeta in H.
  assert (differ (fleiss_pi_linear pyA (compare_with true pyA env0 2 false) FMass aord0 false order_shows)
    (fleiss_pi_linear pyA (compare_with true pyA env0 2 false) FMass aord1 false order_shows) = true) as D by (vm_compute; reflexivity).
  destruct (fleiss_pi_linear pyA _ FMass aord0 false order_shows) as [g|e]; [|discriminate].
  rewrite (proj1 (H g) eq_refl) in D. destruct g as [v|]; [|discriminate]. cbn [differ] in D. apply negb_true_iff, Qeq_bool_neq in D. apply D. reflexivity.
Qed.
Print Assumptions C49_rounded_refuted.

(** ** C50 *)

(** Some item has fewer than two codings: kappa raises. *)
Theorem C50_kappa : forall A cmp f cord rp c, (exists ic, ic ∈ c_items c /\ (length (snd ic) < 2)%nat) ->
  fleiss_kappa_linear A cmp f cord rp c = Err PlainException.
Proof. exact guard_two. Qed.
Print Assumptions C50_kappa.

(** No items, or items with different numbers of codings: pi, kappa and bias raise. *)
Theorem C50_equal : forall A cmp f cord rp c,
  (c_items c = [] \/ exists ic ic', ic ∈ c_items c /\ ic' ∈ c_items c /\ length (snd ic) <> length (snd ic')) ->
  fleiss_pi_linear A cmp f cord rp c = Err PlainException /\ fleiss_kappa_linear A cmp f cord rp c = Err PlainException /\
  artstein_poesio_bias_linear A cmp f cord rp c = Err PlainException.
Proof. exact guard_equal. Qed.
Print Assumptions C50_equal.

(** One coder or none: nothing is returned. *)
Theorem C50_one_coder : forall A cmp f cord rp c, lord_ok cord -> (size (c_coders c) <= 1)%nat ->
  actual_agreement_linear A cmp f cord c = Err ZeroDivisionError /\
  (fleiss_pi_linear A cmp f cord rp c = Err InvalidOperation \/ fleiss_pi_linear A cmp f cord rp c = Err PlainException) /\
  (fleiss_kappa_linear A cmp f cord rp c = Err InvalidOperation \/ fleiss_kappa_linear A cmp f cord rp c = Err PlainException).
Proof. exact guard_one_coder. Qed.
Print Assumptions C50_one_coder.

Definition uneven : container :=
  CDict [("i1", [("c1", am [2; 2]); ("c2", am [1; 3])]); ("i2", [("c1", am [2; 2]); ("c2", am [1; 3]); ("c3", am [3; 1])])]%string.
Definition alone : container := CDict [("i1", [("c1", am [2; 2])]); ("i2", [("c1", am [1; 3])])]%string.
Definition x50 := compare_with true pyA env0 2 false.
Example C50_case :
  fleiss_pi_linear pyA x50 FMass aord0 false uneven = Err PlainException /\
  fleiss_kappa_linear pyA x50 FMass aord0 false uneven = Err PlainException /\
  size (c_coders alone) = 1%nat /\ fleiss_pi_linear pyA x50 FMass aord0 false alone = Err InvalidOperation /\
  fleiss_kappa_linear pyA x50 FMass aord0 false alone = Err PlainException /\
  actual_agreement_linear pyA x50 FMass aord0 alone = Err ZeroDivisionError.
Proof. repeat split; vm_compute; reflexivity. Qed.
