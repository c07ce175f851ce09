(** Property C98: what [permuted] does to a summary (segeval/compute.py:80-90, 103-111,
    segeval/util/math.py). *)
From stdpp Require Import gmap.
From Verif Require Import SpecDispatch SpecMath SpecSim Spec Dispatch SpecML Round BedProofs BedExtra DispatchMain SimSym BothOrders.
Open Scope Z_scope.

(** If the metric is symmetric on the pairs of the dataset, every value appears twice as
    often. *)
Theorem C98_values : forall R (metric : seg -> seg -> res R) lord lord' items d d', lord_ok lord -> lord_ok lord' -> items_ok items -> plain_coders items ->
  (forall item c1 c2 a b, before items item c1 c2 a b -> metric a b = metric b a) ->
  compute_pairwise_values metric lord false items None = Ok d -> compute_pairwise_values metric lord' true items None = Ok d' ->
  d'.*2 ≡ₚ d.*2 ++ d.*2.
Proof. exact (fun R metric => both_values metric). Qed.
Print Assumptions C98_values.

(** So mean, variance and standard deviation stay and the number of values doubles, but the
    standard error is divided by the root of 2, although nothing more was observed.  [w]
    picks the number out of what the metric returns. *)
Theorem C98_summary : forall R (metric : seg -> seg -> res R) (w : R -> num) lord lord' items d d', lord_ok lord -> lord_ok lord' -> items_ok items -> plain_coders items ->
  (forall item c1 c2 a b, before items item c1 c2 a b -> metric a b = metric b a) ->
  compute_pairwise_values metric lord false items None = Ok d -> compute_pairwise_values metric lord' true items None = Ok d' ->
  d <> [] -> Forall not_float (w <$> d.*2) ->
  exists m s v e m' s' v' e', summarize exactA (numbers w d) = Ok (NDec m, NDec s, NDec v, NDec e, zlen d) /\
    summarize exactA (numbers w d') = Ok (NDec m', NDec s', NDec v', NDec e', 2 * zlen d) /\
    (m' == m)%Q /\ (s' == s)%Q /\ (v' == v)%Q /\
    near_root e (v / inject_Z (zlen d)) (2 # 10 ^ 27) /\ near_root e' (v / inject_Z (2 * zlen d)) (2 # 10 ^ 27).
Proof. exact (fun R metric => both_summary metric). Qed.
Print Assumptions C98_summary.

(** B and S are symmetric metrics. *)
Theorem C98_similarity : forall A E W f n_t om lord lord' items, lord_ok lord -> lord_ok lord' -> items_ok items -> plain_coders items -> env_ok E -> neutral W ->
  codings_ok items (fun s => exists x, to_bstring f s = Ok x /\ small_types x x) ->
  (forall d d', compute_pairwise_values (boundary_similarity A E W f n_t om false) lord false items None = Ok d ->
     compute_pairwise_values (boundary_similarity A E W f n_t om false) lord' true items None = Ok d' -> d'.*2 ≡ₚ d.*2 ++ d.*2) /\
  (forall d d', compute_pairwise_values (segmentation_similarity A E W f n_t om false) lord false items None = Ok d ->
     compute_pairwise_values (segmentation_similarity A E W f n_t om false) lord' true items None = Ok d' -> d'.*2 ≡ₚ d.*2 ++ d.*2).
Proof. exact both_similarity. Qed.
Print Assumptions C98_similarity.

Definition m98 (l : list Z) : seg := Ints (ints l).
Definition o98 (s : gset string) : list string := elements s.
Definition d98 : dict (dict seg) :=
  [("i", [("bob", m98 [2; 3]); ("ann", m98 [2; 1; 2])]); ("j", [("ann", m98 [1; 1; 1; 1]); ("bob", m98 [2; 2])])]%string.
Definition p98 := boundary_similarity pyA env0 (default_weights pyA) FMass 2 false false.
Definition one98 : dict bres := [("j,ann,bob", BVal (NDec (Qred (3333333333333333333333333333 # 10 ^ 28)))); ("i,bob,ann", BVal (NDec (1 # 2)))]%string.
Definition two98 : dict bres := [("j,ann,bob", BVal (NDec (Qred (3333333333333333333333333333 # 10 ^ 28)))); ("j,bob,ann", BVal (NDec (Qred (3333333333333333333333333333 # 10 ^ 28))));
  ("i,bob,ann", BVal (NDec (1 # 2))); ("i,ann,bob", BVal (NDec (1 # 2)))]%string.

Ltac names98 := repeat (apply NoDup_cons; split; [intros K; repeat (apply elem_of_cons in K as [K|K]; [discriminate K|]); apply elem_of_nil in K; exact K|]); apply NoDup_nil_2.
Ltac members98 H := repeat (apply elem_of_cons in H as [H|H]); [..|apply elem_of_nil in H; contradiction].

Example C98_case : lord_ok o98 /\ items_ok d98 /\ plain_coders d98 /\
  compute_pairwise_values p98 o98 false d98 None = Ok one98 /\ compute_pairwise_values p98 o98 true d98 None = Ok two98 /\
  (forall item c1 c2 a b, before d98 item c1 c2 a b -> p98 a b = p98 b a) /\ Forall not_float (b_num <$> one98.*2) /\
  (rmap (fun r => (snd (fst r), snd r)) (summarize pyA (numbers b_num one98))) = Ok (NDec (Qred (5892556509887896036673703021 # 10 ^ 29)), 2) /\
  (rmap (fun r => (snd (fst r), snd r)) (summarize pyA (numbers b_num two98))) = Ok (NDec (Qred (4166666666666666666666666667 # 10 ^ 29)), 4).
Proof.
  split; [intros s; reflexivity|]. split; [|split].
  - split; [unfold dict_ok; cbn; names98|]. intros item cs H. unfold d98 in H. members98 H; injection H as -> ->; unfold dict_ok; cbn; names98.
  - intros item cs c s H K. unfold d98 in H. members98 H; injection H as -> ->; members98 K; injection K as -> ->; cbn; repeat split; discriminate.
  - split; [vm_compute; reflexivity|]. split; [vm_compute; reflexivity|]. split; [|split; [unfold one98; cbn [fmap list_fmap snd]; do 2 (apply Forall_cons; split; [exact I|]); apply Forall_nil_2|split; vm_compute; reflexivity]].
    intros item c1 c2 a b (cs & i & j & Hi & L & Ha & Hb). unfold d98 in Hi.
    members98 Hi; injection Hi as -> ->; destruct i as [|[|i]]; try discriminate Ha; destruct j as [|[|j]]; try discriminate Hb; try lia;
      injection Ha as _ <-; injection Hb as _ <-; vm_compute; reflexivity.
Qed.

(** So [permuted] does change the standard error. *)
Theorem C98_stderr_refuted : ~ forall items d d', items_ok items -> plain_coders items ->
  (forall item c1 c2 a b, before items item c1 c2 a b -> p98 a b = p98 b a) ->
  compute_pairwise_values p98 o98 false items None = Ok d -> compute_pairwise_values p98 o98 true items None = Ok d' ->
  rmap (fun r => snd (fst r)) (summarize pyA (numbers b_num d)) = rmap (fun r => snd (fst r)) (summarize pyA (numbers b_num d')).
Proof.
  intros H. destruct C98_case as (_ & H1 & H2 & H3 & H4 & H5 & _). specialize (H d98 one98 two98 H1 H2 H5 H3 H4). vm_compute in H. discriminate H.
Qed.
Print Assumptions C98_stderr_refuted.
