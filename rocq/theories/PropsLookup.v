(** Property C94: reading an absent item of a dataset inserts it
    (segeval/data/__init__.py:27, 38). *)
From Verif Require Import SpecData SpecDispatch SpecAgreement Agreement BedExtra Lookup.
Open Scope Z_scope.

(** After [d[x]] the dataset holds what it held and, if [x] was not an item, [x] without
    codings; the names of the coders and everything else stay. *)
Theorem C94_state : forall C (d : dataset C) x, dict_ok (ds_items d) ->
  (forall y c, (y, c) ∈ ds_items (after d x) <-> (y, c) ∈ ds_items d \/ (y = x /\ c = [] /\ x ∉ (ds_items d).*1)) /\
  dict_ok (ds_items (after d x)) /\ (x, fst (ds_lookup d x)) ∈ ds_items (after d x) /\
  (forall y c, coding_at (ds_items (after d x)) y c = coding_at (ds_items d) y c) /\
  ds_coders (after d x) = ds_coders d /\ ds_props (after d x) = ds_props d /\ ds_types (after d x) = ds_types d /\ ds_format (after d x) = ds_format d.
Proof. exact (fun C d x => lookup_state d x). Qed.
Print Assumptions C94_state.

(** Pairwise values, the calls made for them and the exceptions are those without the
    lookup, for some order in which Python may walk the items. *)
Theorem C94_one_dataset : forall R (metric : seg -> seg -> res R) lord p (d : dataset seg) x, lord_ok lord ->
  exists lord', lord_ok lord' /\
    compute_pairwise metric lord p (ds_items (after d x)) None = compute_pairwise metric lord' p (ds_items d) None.
Proof. exact lookup_one. Qed.
Print Assumptions C94_one_dataset.

Theorem C94_two_datasets : forall R (metric : seg -> seg -> res R) lord p (a b : dataset seg) x y, lord_ok lord ->
  exists lord', lord_ok lord' /\
    compute_pairwise metric lord p (ds_items (after a x)) (Some (ds_items (after b y))) =
    compute_pairwise metric lord' p (ds_items a) (Some (ds_items b)).
Proof. exact lookup_two. Qed.
Print Assumptions C94_two_datasets.

(** So the values are the same ones. *)
Theorem C94_values : forall R (metric : seg -> seg -> res R) lord p (d : dataset seg) x v v', lord_ok lord ->
  SpecDispatch.items_ok (ds_items d) -> plain_coders (ds_items d) ->
  compute_pairwise_values metric lord p (ds_items d) None = Ok v ->
  compute_pairwise_values metric lord p (ds_items (after d x)) None = Ok v' -> v ≡ₚ v'.
Proof. exact lookup_same. Qed.
Print Assumptions C94_values.

(** But the metrics refuse an empty dataset only before the lookup. *)
Theorem C94_empty : forall R (metric : fmt -> seg -> seg -> res R) lord p f (d : dataset seg) x, lord_ok lord -> ds_items d = [] ->
  fnc_metric metric lord p f (Positional [AData d]) = Err SegmentationMetricError /\
  fnc_metric metric lord p f (Positional [AData (after d x)]) = Ok (Many []).
Proof. exact lookup_empty. Qed.
Print Assumptions C94_empty.

(** With two coders no agreement is returned any more: the actual agreement raises KeyError,
    unless it raised an exception already; kappa, pi and bias raise a plain Exception. *)
Theorem C94_agreement : forall A cmp f cord (d : dataset seg) x, lord_ok cord -> x ∉ (ds_items d).*1 -> (2 <= size (ds_coders d))%nat ->
  exists e, actual_agreement_linear A cmp f cord (CDataset (after d x)) = Err e /\
    (e = KeyError \/ actual_agreement_linear A cmp f cord (CDataset d) = Err e).
Proof. exact lookup_agreement. Qed.
Print Assumptions C94_agreement.

Theorem C94_chance : forall A cmp f cord rp (d : dataset seg) x, x ∉ (ds_items d).*1 ->
  fleiss_kappa_linear A cmp f cord rp (CDataset (after d x)) = Err PlainException /\
  ((exists ic, ic ∈ ds_items d /\ snd ic <> []) ->
   fleiss_pi_linear A cmp f cord rp (CDataset (after d x)) = Err PlainException /\
   artstein_poesio_bias_linear A cmp f cord rp (CDataset (after d x)) = Err PlainException).
Proof. exact lookup_chance. Qed.
Print Assumptions C94_chance.

(** Adding the dataset passes the empty item on. *)
Theorem C94_add : forall C (a b : dataset C) x, ds_add a (after b x) = rmap (fun s => after s x) (ds_add a b).
Proof. exact (fun C a b x => lookup_add a b x). Qed.
Print Assumptions C94_add.

Definition m94 (l : list Z) : seg := Ints (ints l).
Definition d94 : dataset seg :=
  new_dataset (Some [("i", [("ann", m94 [2; 3]); ("bob", m94 [2; 1; 2])]); ("j", [("ann", m94 [1; 1]); ("bob", m94 [2])])]%string) None None FMass.
Definition b94 := compare_with true pyA env0 2 false.
Definition o94 (s : gset string) : list string := elements s.

Example C94_case : lord_ok o94 /\ ("k"%string ∉ (ds_items d94).*1) /\ size (ds_coders d94) = 2%nat /\
  fst (ds_lookup d94 "k") = [] /\ (ds_items (after d94 "k")).*1 = ["i"; "j"; "k"]%string /\ after (after d94 "k") "k" = after d94 "k" /\
  actual_agreement_linear pyA b94 FMass o94 (CDataset (after d94 "k")) = Err KeyError /\
  fleiss_pi_linear pyA b94 FMass o94 false (CDataset (after d94 "k")) = Err PlainException.
Proof.
  split; [intros s; reflexivity|]. split; [apply (bool_decide_unpack _); vm_compute; exact I|].
  repeat split; vm_compute; reflexivity.
Qed.

(** So it is not true that reading an item leaves the agreement alone. *)
Theorem C94_reading_is_harmless_refuted :
  ~ forall A cmp f cord (d : dataset seg) x, lord_ok cord ->
    actual_agreement_linear A cmp f cord (CDataset (after d x)) = actual_agreement_linear A cmp f cord (CDataset d).
Proof.
  intros H. specialize (H pyA b94 FMass o94 d94 "k"%string ltac:(intros s; reflexivity)). vm_compute in H. discriminate H.
Qed.
Print Assumptions C94_reading_is_harmless_refuted.
