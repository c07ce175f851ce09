(** Property C87: results before and after a dataset was saved and reloaded
    (segeval/data/jsonutils.py:23-92, segeval/compute.py:11-111,
    segeval/agreement/__init__.py:60-184).  Saving sorts items and coders. *)
From Verif Require Import SpecReload SpecMath SpecJson SpecAgreement Spec SpecSim Round RoundProofs BedExtra DispatchMain AgreementPublic AgreementCases Reload.
Open Scope Z_scope.

Definition eord : gset string -> list string := fun s => elements s.
Lemma eord_ok : lord_ok eord.
Proof. intros s. reflexivity. Qed.

(** As integers, as the metrics take them. *)
Definition js_seg (m : list json) : seg := Ints (ints (m ≫= (fun j => match j with JInt z => [z] | _ => [] end))).
Definition jm (l : list Z) : list json := JInt <$> l.
Definition unsorted : dataset (list json) :=
  new_dataset (Some [("doc", [("bob", jm [6; 6]); ("ann", jm [12]); ("cy", jm [2; 4; 6])]); ("a", [("cy", jm [3]); ("ann", jm [1; 2])])])%string
    None None FMass.
Definition nofloat (q : Q) : text := [].
Definition items_of (o : option (res (dataset (list json)))) : dict (dict seg) := match o with Some (Ok r) => ds_items (as_segs js_seg r) | _ => [] end.
Notation old := (ds_items (as_segs js_seg unsorted)).
Notation new := (items_of (read_json (written nofloat unsorted))).

Definition sm (l : list Z) : seg := Ints (ints l).
Example C87_sorts :
  old = [("doc", [("bob", sm [6; 6]); ("ann", sm [12]); ("cy", sm [2; 4; 6])]); ("a", [("cy", sm [3]); ("ann", sm [1; 2])])]%string /\
  new = [("a", [("ann", sm [1; 2]); ("cy", sm [3])]); ("doc", [("ann", sm [12]); ("bob", sm [6; 6]); ("cy", sm [2; 4; 6])])]%string.
Proof. split; vm_compute; reflexivity. Qed.

(** Whatever the conversion to segmentations: the reloaded dataset has the same codings. *)
Theorem C87_reloaded : forall frepr (d : dataset (list json)) (conv : list json -> seg), items_ok (ds_items d) ->
  (forall i c m, coding_at (ds_items d) i c = Some m -> is_masses m) -> json_ok (JObj (ds_props d)) -> floats_ok frepr (JObj (ds_props d)) ->
  "items"%string ∉ (ds_props d).*1 ->
  (dget (ds_props d) "segmentation_type" = None \/ dget (ds_props d) "segmentation_type" = Some (JStr "linear")) ->
  exists r, read_json (written frepr d) = Some (Ok r) /\ items_ok (ds_items (as_segs conv d)) /\ items_ok (ds_items (as_segs conv r)) /\
    same_codings (ds_items (as_segs conv d)) (ds_items (as_segs conv r)).
Proof. exact reloaded_same. Qed.
Print Assumptions C87_reloaded.

(** Two dicts with the same codings.  Comparing every pair in both orders gives the same results, for any metric. *)
Theorem C87_both_orders : forall R (metric : seg -> seg -> res R) lord lord', lord_ok lord -> lord_ok lord' ->
  forall ia ib d, items_ok ia -> items_ok ib -> plain_coders ia -> same_codings ia ib ->
  compute_pairwise_values metric lord true ia None = Ok d ->
  exists d', compute_pairwise_values metric lord' true ib None = Ok d' /\ d ≡ₚ d'.
Proof. exact (fun R metric => both_orders_same metric). Qed.
Print Assumptions C87_both_orders.

(** So does comparing two datasets. *)
Theorem C87_across : forall R (metric : seg -> seg -> res R) lord lord', lord_ok lord -> lord_ok lord' ->
  forall p ia ja ib jb d, items_ok ia -> items_ok ja -> items_ok ib -> items_ok jb ->
  plain_coders ia -> plain_coders ja -> same_codings ia ib -> same_codings ja jb ->
  compute_pairwise_values metric lord p ia (Some ja) = Ok d ->
  exists d', compute_pairwise_values metric lord' p ib (Some jb) = Ok d' /\ d ≡ₚ d'.
Proof. exact (fun R metric => across_same metric). Qed.
Print Assumptions C87_across.

(** One order: the same values, under the name of the pair in one of its orders. *)
Theorem C87_one_order : forall R (metric : seg -> seg -> res R) lord lord', lord_ok lord -> lord_ok lord' ->
  forall ia ib d, items_ok ia -> items_ok ib -> plain_coders ia -> same_codings ia ib ->
  (forall item c1 c2 a b, before ia item c1 c2 a b -> even_handed metric a b) ->
  compute_pairwise_values metric lord false ia None = Ok d ->
  exists d', compute_pairwise_values metric lord' false ib None = Ok d' /\ d.*2 ≡ₚ d'.*2 /\
    forall item c1 c2 v, comma_free c1 -> comma_free c2 -> (name3 item c1 c2, v) ∈ d -> (name3 item c1 c2, v) ∈ d' \/ (name3 item c2 c1, v) ∈ d'.
Proof. exact (fun R metric => symmetric_same metric). Qed.
Print Assumptions C87_one_order.

(** Its condition holds for B and S with weights that look at counts and distances only ... *)
Theorem C87_similarity : forall A E W f n_t om items, env_ok E -> neutral W ->
  DispatchMain.codings_ok items (fun s => exists x, to_bstring f s = Ok x /\ small_types x x) ->
  forall item c1 c2 a b, before items item c1 c2 a b ->
    even_handed (boundary_similarity A E W f n_t om false) a b /\ even_handed (segmentation_similarity A E W f n_t om false) a b.
Proof. exact similarity_even. Qed.
Print Assumptions C87_similarity.

(** ... and for Pk and WindowDiff with a given window. *)
Theorem C87_window : forall A rnd f k om rp items, DispatchMain.codings_ok items (fun s => exists p, to_positions f s = Ok p) ->
  forall item c1 c2 a b, before items item c1 c2 a b ->
    even_handed (pk A rnd f (Some k) om rp) a b /\ forall lam, even_handed (window_diff A rnd f (Some k) lam om rp) a b.
Proof. exact window_even. Qed.
Print Assumptions C87_window.

(** The same values have the same summary. *)
Theorem C87_summary : forall (d d' : dict num), d <> [] -> Forall not_float d.*2 -> d.*2 ≡ₚ d'.*2 ->
  exists m s v e m' s' v' e', summarize exactA d = Ok (NDec m, NDec s, NDec v, NDec e, zlen d) /\
    summarize exactA d' = Ok (NDec m', NDec s', NDec v', NDec e', zlen d) /\ m == m' /\ v == v'.
Proof. exact summary_same. Qed.
Print Assumptions C87_summary.

(** Agreement of the coders. *)
Theorem C87_agreement : forall E E' n_t b om f cord cord' ia ib, env_ok E -> env_ok E' -> lord_ok cord -> lord_ok cord' ->
  items_ok ia -> items_ok ib -> same_codings ia ib -> cached f (elements (all_coders ia)) ia ->
  let X := compare_with b exactA E n_t om in let X' := compare_with b exactA E' n_t om in
  (forall v, actual_agreement_linear exactA X f cord (CDict ia) = Ok v <-> actual_agreement_linear exactA X' f cord' (CDict ib) = Ok v) /\
  forall rp v, (fleiss_pi_linear exactA X f cord rp (CDict ia) = Ok v <-> fleiss_pi_linear exactA X' f cord' rp (CDict ib) = Ok v) /\
    (fleiss_kappa_linear exactA X f cord rp (CDict ia) = Ok v <-> fleiss_kappa_linear exactA X' f cord' rp (CDict ib) = Ok v) /\
    (artstein_poesio_bias_linear exactA X f cord rp (CDict ia) = Ok v <-> artstein_poesio_bias_linear exactA X' f cord' rp (CDict ib) = Ok v).
Proof. exact agreement_same. Qed.
Print Assumptions C87_agreement.

Definition B2 := boundary_similarity exactA env0 (default_weights exactA) FMass 2 false false.
Lemma unsorted_items : ds_items unsorted = [("doc", [("bob", jm [6; 6]); ("ann", jm [12]); ("cy", jm [2; 4; 6])]); ("a", [("cy", jm [3]); ("ann", jm [1; 2])])]%string.
Proof. vm_compute. reflexivity. Qed.
Lemma unsorted_ok : items_ok (ds_items unsorted) /\ (forall i c m, coding_at (ds_items unsorted) i c = Some m -> is_masses m) /\
  json_ok (JObj (ds_props unsorted)) /\ floats_ok nofloat (JObj (ds_props unsorted)) /\ "items"%string ∉ (ds_props unsorted).*1 /\
  dget (ds_props unsorted) "segmentation_type" = None.
Proof.
  assert (O : items_ok (ds_items unsorted)).
  { split; [apply (bool_decide_unpack _); vm_compute; exact I|]. intros i cs K. rewrite unsorted_items in K. repeat (apply elem_of_cons in K as [K|K]; [injection K as -> ->; apply (bool_decide_unpack _); vm_compute; exact I|]).
    apply elem_of_nil in K. contradiction. }
  split; [exact O|]. split.
  - intros i c m H. unfold coding_at in H. destruct (dget (ds_items unsorted) i) as [cs|] eqn:E; [|discriminate H]. apply dget_elem in E, H. rewrite unsorted_items in E.
    assert (G : forall l, is_masses (jm l)) by (intros l; exists l; reflexivity).
    repeat (apply elem_of_cons in E as [E|E]; [apply (f_equal snd) in E; cbn [snd] in E; rewrite E in H; repeat (apply elem_of_cons in H as [H|H]; [apply (f_equal snd) in H; cbn [snd] in H; rewrite H; apply G|]); apply elem_of_nil in H; contradiction|]).
    apply elem_of_nil in E. contradiction.
  - split; [repeat split; apply NoDup_nil_2|]. split; [repeat split|]. split; [apply (bool_decide_unpack _); vm_compute; exact I|reflexivity].
Qed.

Example C87_case : items_ok old /\ items_ok new /\ plain_coders old /\ same_codings old new /\
  DispatchMain.codings_ok old (fun s => exists x, to_bstring FMass s = Ok x /\ small_types x x) /\
  cached FMass (elements (all_coders old)) old /\
  rmap (fun d => (dget d "doc,bob,ann", dget d "doc,bob,cy", length d)) (compute_pairwise_values B2 eord false old None) =
    Ok (Some (BVal (NDec 0)), Some (BVal (NDec (1 # 2))), 4%nat) /\
  rmap (fun d => (dget d "doc,ann,bob", dget d "doc,bob,cy", length d)) (compute_pairwise_values B2 eord false new None) =
    Ok (Some (BVal (NDec 0)), Some (BVal (NDec (1 # 2))), 4%nat).
Proof.
  destruct unsorted_ok as (U1 & U2 & U3 & U4 & U5 & U6).
  destruct (C87_reloaded nofloat unsorted js_seg U1 U2 U3 U4 U5 (or_introl U6)) as (r & R & R1 & R2 & R3).
  rewrite R. cbn [items_of]. split; [exact R1|]. split; [exact R2|]. split; [|split; [exact R3|]].
  - intros i cs c s K1 K2. rewrite (proj1 C87_sorts) in K1. repeat (apply elem_of_cons in K1 as [K1|K1]; [injection K1 as -> ->;
      repeat (apply elem_of_cons in K2 as [K2|K2]; [injection K2 as -> ->; cbn; repeat split; discriminate|]); apply elem_of_nil in K2; contradiction|]).
    apply elem_of_nil in K1. contradiction.
  - split; [|split; [|split]].
    + intros i cs c s K1 K2. rewrite (proj1 C87_sorts) in K1. repeat (apply elem_of_cons in K1 as [K1|K1]; [injection K1 as -> ->;
        repeat (apply elem_of_cons in K2 as [K2|K2]; [injection K2 as -> ->; eexists; split; [reflexivity|]; apply small_typesb; vm_compute; reflexivity|]); apply elem_of_nil in K2; contradiction|]).
      apply elem_of_nil in K1. contradiction.
    + apply cached_b_ok. vm_compute. reflexivity.
    + vm_compute. reflexivity.
    + assert (E : ds_items (as_segs js_seg r) = new) by (rewrite R; reflexivity). rewrite E. vm_compute. reflexivity.
Qed.

(** "The results are the same dict": no, pairs can change their names. *)
Theorem C87_names_refuted : same_codings old new /\
  rmap (fun d => (dget d "doc,bob,ann", dget d "doc,ann,bob")) (compute_pairwise_values B2 eord false old None) = Ok (Some (BVal (NDec 0)), None) /\
  rmap (fun d => (dget d "doc,bob,ann", dget d "doc,ann,bob")) (compute_pairwise_values B2 eord false new None) = Ok (None, Some (BVal (NDec 0))).
Proof. split; [apply C87_case|]. split; vm_compute; reflexivity. Qed.
Print Assumptions C87_names_refuted.

(** "The mean of any metric survives": no, Pk with its own choice of a window depends on the order of the coders. *)
Definition pk_mean (items : dict (dict seg)) : res num :=
  let* d := compute_pairwise_values (pk exactA default_round FMass None false false) eord false items None in
  mean exactA (d.*2 ≫= (fun w => match w with WVal v => [v] | _ => [] end)).
Theorem C87_pk_mean_refuted : same_codings old new /\ pk_mean old = Ok (NDec (13 # 20)) /\ pk_mean new = Ok (NDec (29 # 60)).
Proof. split; [apply C87_case|]. split; vm_compute; reflexivity. Qed.
Print Assumptions C87_pk_mean_refuted.
