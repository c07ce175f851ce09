(** Property C96: the agreement functions need a coding by every coder for every item
    (segeval/agreement/__init__.py:147-171). *)
From stdpp Require Import gmap.
From Verif Require Import SpecData SpecAgreement Agreement BedExtra DictProofs Coverage.
Open Scope Z_scope.

(** When there are two coders or more and one of the four functions returns something, every
    coder has a coding of every item, and it is well formed. *)
Theorem C96_needed : forall A cmp f cord rp c, lord_ok cord -> (2 <= size (c_coders c))%nat ->
  (exists v, actual_agreement_linear A cmp f cord c = Ok v) \/ (exists v, fleiss_pi_linear A cmp f cord rp c = Ok v) \/
  (exists v, fleiss_kappa_linear A cmp f cord rp c = Ok v) \/ (exists v, artstein_poesio_bias_linear A cmp f cord rp c = Ok v) ->
  forall ic who, ic ∈ c_items c -> who ∈ c_coders c -> exists s x, dget (snd ic) who = Some s /\ to_bstring (c_format c f) s = Ok x.
Proof. exact coverage_needed. Qed.
Print Assumptions C96_needed.

(** If nothing else is wrong the exception is KeyError, also for pi, kappa and bias when every
    item has the same number of codings, which is all that they check. *)
Theorem C96_missing : forall A cmp f cord rp c, lord_ok cord -> (2 <= size (c_coders c))%nat -> comparable cmp (c_format c f) (c_items c) ->
  (exists ic who, ic ∈ c_items c /\ who ∈ c_coders c /\ dget (snd ic) who = None) ->
  actual_agreement_linear A cmp f cord c = Err KeyError /\
  (forall n, (forall ic, ic ∈ c_items c -> length (snd ic) = n) ->
     fleiss_pi_linear A cmp f cord rp c = Err KeyError /\ artstein_poesio_bias_linear A cmp f cord rp c = Err KeyError /\
     ((2 <= n)%nat -> fleiss_kappa_linear A cmp f cord rp c = Err KeyError)).
Proof. exact coverage_missing. Qed.
Print Assumptions C96_missing.

(** So a sum of datasets has no agreement as soon as one item lacks one of the coders of
    either. *)
Theorem C96_sum : forall A cmp f cord (a b s : dataset seg) i who other, lord_ok cord -> SpecData.items_ok (ds_items a) -> SpecData.items_ok (ds_items b) ->
  ds_add a b = Ok s -> i ∈ (ds_items a).*1 \/ i ∈ (ds_items b).*1 -> coding_at (ds_items a) i who = None -> coding_at (ds_items b) i who = None ->
  who ∈ ds_coders a \/ codes (ds_items b) who -> other ∈ ds_coders a \/ codes (ds_items b) other -> who <> other ->
  forall v, actual_agreement_linear A cmp f cord (CDataset s) <> Ok v.
Proof. exact coverage_sum. Qed.
Print Assumptions C96_sum.

Definition m96 (l : list Z) : seg := Ints (ints l).
(** Two codings of each item, by three coders. *)
Definition d96 : dict (dict seg) :=
  [("i", [("ann", m96 [2; 3]); ("bob", m96 [2; 1; 2])]); ("j", [("bob", m96 [1; 1]); ("cat", m96 [2])])]%string.
Definition b96 := compare_with true pyA env0 2 false.
Definition o96 (s : gset string) : list string := elements s.

Example C96_case : lord_ok o96 /\ (2 <= size (c_coders (CDict d96)))%nat /\ comparable b96 FMass d96 /\
  (exists ic who, ic ∈ d96 /\ who ∈ c_coders (CDict d96) /\ dget (snd ic) who = None) /\ (forall ic, ic ∈ d96 -> length (snd ic) = 2%nat) /\
  fleiss_pi_linear pyA b96 FMass o96 false (CDict d96) = Err KeyError.
Proof.
  split; [intros s; reflexivity|]. split; [vm_compute; lia|]. split; [|split; [|split; [|vm_compute; reflexivity]]].
  - intros ic m n a b Hi Hmn Ha Hb. apply dget_elem in Ha, Hb. unfold d96 in Hi. rewrite !elem_of_cons, elem_of_nil in Hi.
    destruct Hi as [->|[->|[]]]; cbn [snd] in Ha, Hb; rewrite !elem_of_cons, elem_of_nil in Ha, Hb;
    destruct Ha as [Ha|[Ha|[]]]; destruct Hb as [Hb|[Hb|[]]]; injection Ha as -> ->; injection Hb as -> ->; try contradiction;
    repeat split; eexists; vm_compute; reflexivity.
  - exists ("i", [("ann", m96 [2; 3]); ("bob", m96 [2; 1; 2])])%string, "cat"%string. split; [left|]. split; [|reflexivity].
    apply (bool_decide_unpack _). vm_compute. exact I.
  - intros ic Hi. unfold d96 in Hi. rewrite !elem_of_cons, elem_of_nil in Hi. destruct Hi as [->|[->|[]]]; reflexivity.
Qed.

(** The check on the number of codings does not make the dataset one that can be evaluated. *)
Theorem C96_count_suffices_refuted :
  ~ forall A cmp f cord c, lord_ok cord -> comparable cmp (c_format c f) (c_items c) ->
    (forall ic, ic ∈ c_items c -> length (snd ic) = 2%nat) -> fleiss_pi_linear A cmp f cord false c <> Err KeyError.
Proof.
  intros H. destruct C96_case as (Ho & _ & Hc & _ & Hn & He). exact (H pyA b96 FMass o96 (CDict d96) Ho Hc Hn He).
Qed.
Print Assumptions C96_count_suffices_refuted.

Definition d96a : dataset seg := new_dataset (Some [("i", [("ann", m96 [2; 3]); ("bob", m96 [2; 1; 2])])]%string) None None FMass.
Definition d96b : dataset seg := new_dataset (Some [("j", [("bob", m96 [1; 1]); ("cat", m96 [2])])]%string) None None FMass.

Example C96_sum_case : exists s, ds_add d96a d96b = Ok s /\ "i"%string ∈ (ds_items d96a).*1 /\
  coding_at (ds_items d96a) "i" "cat" = None /\ coding_at (ds_items d96b) "i" "cat" = None /\ codes (ds_items d96b) "cat" /\ "ann"%string ∈ ds_coders d96a /\
  actual_agreement_linear pyA b96 FMass o96 (CDataset d96a) = Ok (NDec (1 # 2)) /\
  actual_agreement_linear pyA b96 FMass o96 (CDataset s) = Err KeyError.
Proof.
  eexists. split; [vm_compute; reflexivity|]. split; [left|]. split; [vm_compute; reflexivity|]. split; [vm_compute; reflexivity|].
  split; [exists "j"%string; eexists; vm_compute; reflexivity|].
  split; [apply (bool_decide_unpack _); vm_compute; exact I|]. split; vm_compute; reflexivity.
Qed.
