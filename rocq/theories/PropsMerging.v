(** Property C91: adding datasets one after the other, and evaluating the sum
    (segeval/data/__init__.py, segeval/compute.py, segeval/agreement/). *)
From stdpp Require Import gmap.
From Verif Require Import SpecData SpecDispatch SpecAgreement SpecML Round BedExtra Merging AgreementCases PropsData PropsDispatch PropsAgreement PropsValue.
Open Scope Z_scope.

(** [(a + b) + c] and [a + (b + c)] are the same dataset, with items and coders in the
    same order, or both raise the same exception. *)
Theorem C91_associative : forall (C : Type) (a b c : dataset C),
  SpecData.items_ok (ds_items a) -> SpecData.items_ok (ds_items b) -> SpecData.items_ok (ds_items c) ->
  (let* x := ds_add a b in ds_add x c) = (let* y := ds_add b c in ds_add a y).
Proof. exact (@add_assoc). Qed.
Print Assumptions C91_associative.

Definition de : dataset (list Z) := new_dataset (Some [("i2", [("c3", [3; 1])]); ("i0", [("c1", [4])])])%string None (Some [1; 2]) FPosition.
Example C91_associative_case :
  SpecData.items_ok (ds_items da) /\ SpecData.items_ok (ds_items db) /\ SpecData.items_ok (ds_items dc) /\ SpecData.items_ok (ds_items de) /\
  rmap ds_items (let* x := ds_add da db in ds_add x de) =
    Ok [("i1", [("c1", [2; 2]); ("c2", [1; 3])]); ("i2", [("c1", [4]); ("c3", [3; 1])]); ("i0", [("c1", [4])])]%string /\
  is_Some (match ds_add db dc with Ok y => Some y | Err _ => None end) /\
  (let* y := ds_add db dc in ds_add da y) = Err DataIOError /\ (let* x := ds_add da db in ds_add x dc) = Err DataIOError.
Proof.
  do 4 (split; [items_ok_tac|]). split; [vm_compute; reflexivity|]. split; [vm_compute; eauto|]. split; vm_compute; reflexivity.
Qed.

(** The order matters for the order of items and for the format. *)
Theorem C91_commutative_refuted : ~ forall (a b : dataset (list Z)),
  SpecData.items_ok (ds_items a) -> SpecData.items_ok (ds_items b) -> ds_add a b = ds_add b a.
Proof.
  intros H. specialize (H da de ltac:(items_ok_tac) ltac:(items_ok_tac)). apply (f_equal (rmap ds_format)) in H. vm_compute in H. discriminate H.
Qed.
Print Assumptions C91_commutative_refuted.

(** With both orders of every two coders, the pairwise values of [a + b] and [b + a] are
    the same. *)
Theorem C91_either_order : forall R (metric : seg -> seg -> res R) lord, lord_ok lord -> forall a b r r',
  SpecDispatch.items_ok (ds_items a) -> SpecDispatch.items_ok (ds_items b) -> plain_coders (ds_items a) -> plain_coders (ds_items b) ->
  ds_add a b = Ok r -> ds_add b a = Ok r' ->
  ((exists d, compute_pairwise_values metric lord true (ds_items r) None = Ok d) <->
   (exists d, compute_pairwise_values metric lord true (ds_items r') None = Ok d)) /\
  (forall d d', compute_pairwise_values metric lord true (ds_items r) None = Ok d ->
    compute_pairwise_values metric lord true (ds_items r') None = Ok d' -> d ≡ₚ d').
Proof. exact (@pairwise_swap). Qed.
Print Assumptions C91_either_order.

(** [a + b] exists exactly when no item has a coding by the same coder in both; otherwise
    the exception is DataIOError. *)
Theorem C91_outcome : forall (C : Type) (a b : dataset C), SpecData.items_ok (ds_items b) ->
  ((exists r, ds_add a b = Ok r) <-> ~ clash None (ds_items a) (ds_items b)) /\
  (ds_add a b = Err DataIOError <-> clash None (ds_items a) (ds_items b)).
Proof. exact (@sum_outcome). Qed.
Print Assumptions C91_outcome.

(** It has the codings, items and coders of both, and properties, types and format of the
    first. *)
Theorem C91_content : forall (C : Type) (a b r : dataset C), SpecData.items_ok (ds_items b) -> ds_add a b = Ok r ->
  (forall i c v, coding_at (ds_items r) i c = Some v <-> coding_at (ds_items a) i c = Some v \/ coding_at (ds_items b) i c = Some v) /\
  (forall i, i ∈ (ds_items r).*1 <-> i ∈ (ds_items a).*1 \/ i ∈ (ds_items b).*1) /\
  (forall c, c ∈ ds_coders r <-> c ∈ ds_coders a \/ codes (ds_items b) c) /\
  ds_props r = ds_props a /\ ds_types r = ds_types a /\ ds_format r = ds_format a.
Proof. exact (@sum_content). Qed.
Print Assumptions C91_content.

Example C91_content_case :
  let a := new_dataset (Some [("i1", [("c1", 1); ("c2", 2)])])%string None None FMass in
  let b := new_dataset (Some [("i1", [("c3", 3)]); ("i2", [("c1", 4)])])%string None (Some [1; 2]%Z) FPosition in
  SpecData.items_ok (ds_items b) /\
  (exists r, ds_add a b = Ok r /\ ds_items r = [("i1", [("c1", 1); ("c2", 2); ("c3", 3)]); ("i2", [("c1", 4)])]%string /\
     ds_format r = FMass /\ ds_types r = ds_types a) /\
  ds_add a a = Err DataIOError.
Proof.
  split; [|split; [eexists; repeat split; vm_compute; reflexivity|vm_compute; reflexivity]].
  split; [repeat (apply NoDup_cons; split; [cbn; set_solver|]); apply NoDup_nil_2|].
  intros i cs H. cbn in H. repeat (apply elem_of_cons in H as [H|H]; [injection H as -> ->; repeat (apply NoDup_cons; split; [cbn; set_solver|]); apply NoDup_nil_2|]). set_solver.
Qed.

(** If no item is in both datasets, pairwise values are those of the two datasets. *)
Theorem C91_pairwise : forall R (metric : seg -> seg -> res R) lord, lord_ok lord -> forall permuted a b r,
  SpecDispatch.items_ok (ds_items a) -> SpecDispatch.items_ok (ds_items b) -> plain_coders (ds_items a) -> plain_coders (ds_items b) ->
  (forall i, i ∈ (ds_items a).*1 -> i ∉ (ds_items b).*1) -> ds_add a b = Ok r ->
  ((exists d, compute_pairwise_values metric lord permuted (ds_items r) None = Ok d) <->
    (exists d, compute_pairwise_values metric lord permuted (ds_items a) None = Ok d) /\
    (exists d, compute_pairwise_values metric lord permuted (ds_items b) None = Ok d)) /\
  (forall d da db, compute_pairwise_values metric lord permuted (ds_items r) None = Ok d ->
    compute_pairwise_values metric lord permuted (ds_items a) None = Ok da ->
    compute_pairwise_values metric lord permuted (ds_items b) None = Ok db -> d ≡ₚ da ++ db).
Proof. exact (@pairwise_sum). Qed.
Print Assumptions C91_pairwise.

Definition pa : dataset seg := new_dataset (Some [("i1", [("c1", am [1; 1; 1; 1; 2]); ("c2", am [1; 1; 1; 2; 1])])])%string None None FMass.
Definition pb : dataset seg := new_dataset (Some [("i2", [("c1", am [10; 20]); ("c2", am [11; 19])])])%string None None FMass.
Definition pz : dataset seg := new_dataset (Some [("i1", [("z", am [6])])])%string None None FMass.
Definition pab : dataset seg := match ds_add pa pb with Ok r => r | Err _ => pa end.

Ltac dicts_tac := lazymatch goal with |- SpecDispatch.items_ok ?x => change (SpecData.items_ok x) end; items_ok_tac.
Ltac plain_tac := lazymatch goal with |- plain_coders ?x => let y := eval vm_compute in x in change (plain_coders y) end;
  intros item cs c s Hin Kin; members Hin; injection Hin as -> ->; members Kin; injection Kin as -> ->; cbn; repeat split; discriminate.
Lemma plain_pa : plain_coders (ds_items pa) /\ plain_coders (ds_items pb) /\ plain_coders (ds_items pz).
Proof.
  split; [plain_tac|]. split; plain_tac.
Qed.

Lemma apart : forall i, i ∈ (ds_items pa).*1 -> i ∉ (ds_items pb).*1.
Proof. intros i H K. change (i ∈ ["i1"%string]) in H. change (i ∈ ["i2"%string]) in K. rewrite elem_of_list_singleton in H, K. subst i. discriminate K. Qed.

Example C91_pairwise_case :
  lord_ok ord0 /\ SpecDispatch.items_ok (ds_items pa) /\ SpecDispatch.items_ok (ds_items pb) /\
  plain_coders (ds_items pa) /\ plain_coders (ds_items pb) /\
  (forall i, i ∈ (ds_items pa).*1 -> i ∉ (ds_items pb).*1) /\ ds_add pa pb = Ok pab /\
  compute_pairwise_values (B0 FMass) ord0 false (ds_items pab) None = Ok [("i2,c1,c2", BVal (NDec (1 # 2))); ("i1,c1,c2", BVal (NDec (7 # 8)))]%string /\
  compute_pairwise_values (B0 FMass) ord0 false (ds_items pa) None = Ok [("i1,c1,c2", BVal (NDec (7 # 8)))]%string /\
  compute_pairwise_values (B0 FMass) ord0 false (ds_items pb) None = Ok [("i2,c1,c2", BVal (NDec (1 # 2)))]%string.
Proof.
  split; [exact ord0_ok|]. do 2 (split; [dicts_tac|]). do 2 (split; [apply plain_pa|]). split; [exact apart|].
  repeat (split; [vm_compute; reflexivity|]). vm_compute; reflexivity.
Qed.

(** One item in both: new pairs arise, in one order or the other. *)
Example C91_either_order_case :
  plain_coders (ds_items pz) /\
  rmap (fun d => d.*1) (let* r := ds_add pa pz in compute_pairwise_values (B0 FMass) ord0 false (ds_items r) None) = Ok ["i1,c1,c2"; "i1,c1,z"; "i1,c2,z"]%string /\
  rmap (fun d => d.*1) (let* r := ds_add pz pa in compute_pairwise_values (B0 FMass) ord0 false (ds_items r) None) = Ok ["i1,z,c1"; "i1,z,c2"; "i1,c1,c2"]%string /\
  rmap (fun d => dget d "i1,c1,z"%string) (let* r := ds_add pz pa in compute_pairwise_values (B0 FMass) ord0 true (ds_items r) None) = Ok (Some (BVal (NDec 0))).
Proof. split; [apply plain_pa|]. repeat (split; [vm_compute; reflexivity|]). vm_compute; reflexivity. Qed.

(** The format of [b] is lost: datasets of different formats can be added, and the
    codings of [b] are then read in the format of [a]. *)
Theorem C91_formats_refuted : ~ forall (a b r : dataset seg) da db d,
  SpecDispatch.items_ok (ds_items a) -> SpecDispatch.items_ok (ds_items b) -> plain_coders (ds_items a) -> plain_coders (ds_items b) ->
  (forall i, i ∈ (ds_items a).*1 -> i ∉ (ds_items b).*1) -> ds_add a b = Ok r ->
  compute_pairwise_values (B0 (ds_format a)) ord0 false (ds_items a) None = Ok da ->
  compute_pairwise_values (B0 (ds_format b)) ord0 false (ds_items b) None = Ok db ->
  compute_pairwise_values (B0 (ds_format r)) ord0 false (ds_items r) None = Ok d -> d ≡ₚ da ++ db.
Proof.
  set (b := new_dataset (Some [("i2", [("c1", am [1; 1; 2]); ("c2", am [2; 1; 1])])])%string None None FPosition).
  set (r := match ds_add pa b with Ok r => r | Err _ => pa end).
  intros H. specialize (H pa b r [("i1,c1,c2", BVal (NDec (7 # 8)))]%string [("i2,c1,c2", BVal (NDec (1 # 2)))]%string).
  destruct (compute_pairwise_values (B0 (ds_format r)) ord0 false (ds_items r) None) as [d|] eqn:E; [|vm_compute in E; discriminate E].
  specialize (H d ltac:(dicts_tac) ltac:(dicts_tac) (proj1 plain_pa)).
  assert (K : d ≡ₚ [("i1,c1,c2", BVal (NDec (7 # 8)))]%string ++ [("i2,c1,c2", BVal (NDec (1 # 2)))]%string).
  { apply H; try (vm_compute; reflexivity); try exact E.
    - plain_tac.
    - intros i H' K. exact (apart i H' K). }
  vm_compute in E. injection E as <-. apply Permutation_sym, (Permutation_in ("i2,c1,c2"%string, BVal (NDec (1 # 2)))) in K; [|right; left; reflexivity].
  destruct K as [K|[K|[]]]; discriminate K.
Qed.
Print Assumptions C91_formats_refuted.

(** No item in both, the same coders and format: the actual agreement of the sum lies
    strictly between those of the two datasets (or all three are equal). *)
Theorem C91_agreement : forall E n_t f cord (a b r : dataset seg) cmp, env_ok E -> n_t <> 0 ->
  SpecData.items_ok (ds_items b) -> (forall i, i ∈ (ds_items a).*1 -> i ∉ (ds_items b).*1) -> ds_add a b = Ok r ->
  ds_format a = ds_format b -> ds_coders a = ds_coders b -> (forall c, codes (ds_items b) c -> c ∈ ds_coders b) ->
  coded (ds_format a) (cord (ds_coders a)) (ds_items a) -> coded (ds_format b) (cord (ds_coders b)) (ds_items b) ->
  comparison exactA E n_t (cached (ds_format r) (cord (ds_coders r)) (ds_items r)) cmp ->
  exists va vb v w, actual_agreement_linear exactA cmp f cord (CDataset a) = Ok (NDec va) /\
    actual_agreement_linear exactA cmp f cord (CDataset b) = Ok (NDec vb) /\
    actual_agreement_linear exactA cmp f cord (CDataset r) = Ok (NDec v) /\
    (0 < w < 1)%Q /\ (v == w * va + (1 - w) * vb)%Q.
Proof. exact agreement_sum. Qed.
Print Assumptions C91_agreement.

Lemma codes_pb c : codes (ds_items pb) c -> c ∈ ds_coders pb.
Proof.
  intros (i & v & H). unfold coding_at in H. assert (E : ds_items pb = [("i2", [("c1", am [10; 20]); ("c2", am [11; 19])])]%string) by reflexivity.
  rewrite E in H. cbn [dget] in H. destruct (decide (i = "i2"%string)); [|discriminate]. cbn [dget] in H.
  destruct (decide (c = "c1"%string)) as [->|]; [refine (bool_decide_unpack _ _); vm_compute; exact I|].
  destruct (decide (c = "c2"%string)) as [->|]; [refine (bool_decide_unpack _ _); vm_compute; exact I|discriminate].
Qed.

Lemma merging_case : SpecData.items_ok (ds_items pb) /\ ds_add pa pb = Ok pab /\ ds_format pa = ds_format pb /\ ds_coders pa = ds_coders pb /\
  coded (ds_format pa) (aord0 (ds_coders pa)) (ds_items pa) /\ coded (ds_format pb) (aord0 (ds_coders pb)) (ds_items pb).
Proof.
  split; [items_ok_tac|]. split; [vm_compute; reflexivity|]. split; [reflexivity|].
  split; [refine (bool_decide_unpack _ _); vm_compute; exact I|]. split; apply coded_b_ok; vm_compute; reflexivity.
Qed.

Example C91_agreement_case :
  actual_agreement_linear exactA x76 FMass aord0 (CDataset pa) = Ok (NDec (7 # 8)) /\
  actual_agreement_linear exactA x76 FMass aord0 (CDataset pb) = Ok (NDec (1 # 2)) /\
  actual_agreement_linear exactA x76 FMass aord0 (CDataset pab) = Ok (NDec (4 # 5)).
Proof. repeat split; vm_compute; reflexivity. Qed.

(** Not so corrected for chance: the sum can have a greater pi, and kappa, than both. *)
Theorem C91_corrected_refuted : ~ (forall E n_t cord (a b r : dataset seg) om va vb v, env_ok E -> n_t <> 0 ->
  SpecData.items_ok (ds_items b) -> (forall i, i ∈ (ds_items a).*1 -> i ∉ (ds_items b).*1) -> ds_add a b = Ok r ->
  ds_format a = ds_format b -> ds_coders a = ds_coders b -> (forall c, codes (ds_items b) c -> c ∈ ds_coders b) ->
  coded (ds_format a) (cord (ds_coders a)) (ds_items a) -> coded (ds_format b) (cord (ds_coders b)) (ds_items b) ->
  let X := compare_with true exactA E n_t om in
  fleiss_pi_linear exactA X FMass cord false (CDataset a) = Ok (GVal (NDec va)) ->
  fleiss_pi_linear exactA X FMass cord false (CDataset b) = Ok (GVal (NDec vb)) ->
  fleiss_pi_linear exactA X FMass cord false (CDataset r) = Ok (GVal (NDec v)) -> (v <= va \/ v <= vb)%Q) /\
  fleiss_kappa_linear exactA x76 FMass aord0 false (CDataset pa) = Ok (GVal (NDec (47 # 72))) /\
  fleiss_kappa_linear exactA x76 FMass aord0 false (CDataset pb) = Ok (GVal (NDec (839 # 1680))) /\
  fleiss_kappa_linear exactA x76 FMass aord0 false (CDataset pab) = Ok (GVal (NDec (4499 # 5655))).
Proof.
  split; [|repeat split; vm_compute; reflexivity]. intros H. destruct merging_case as (H1 & H2 & H3 & H4 & H5 & H6).
  specialize (H env0 2 aord0 pa pb pab false (47 # 72)%Q (839 # 1680)%Q (52639 # 69459)%Q env0_ok ltac:(discriminate) H1 apart H2 H3 H4 codes_pb H5 H6).
  cbv zeta in H. specialize (H ltac:(vm_compute; reflexivity) ltac:(vm_compute; reflexivity) ltac:(vm_compute; reflexivity)).
  destruct H as [H|H]; vm_compute in H; apply H; reflexivity.
Qed.
Print Assumptions C91_corrected_refuted.
