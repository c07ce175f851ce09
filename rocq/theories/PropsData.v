(** Properties C51-C57: datasets and files (segeval/data/). *)
From stdpp Require Import gmap.
From Verif Require Import SpecData SpecFaults Heap SpecDispatch Spec Agreement Round DataPublic DocFaults.
Open Scope Z_scope.

(** ** C51 *)

(** [a += b] (with [path], the merge done for folders) succeeds exactly when no item has
    a coding by the same coder in both; otherwise the exception is DataIOError. *)
Theorem C51_outcome : forall (C : Type) path (a b : dataset C), items_ok (ds_items b) ->
  (snd (iadd a b path) = None <-> ~ clash path (ds_items a) (ds_items b)) /\
  (snd (iadd a b path) = Some DataIOError <-> clash path (ds_items a) (ds_items b)).
Proof. exact (@merge_outcome). Qed.
Print Assumptions C51_outcome.

(** Afterwards the codings, the items and the coders are the union; the rest of [a] is
    as it was. *)
Theorem C51_union : forall (C : Type) path (a b r : dataset C), items_ok (ds_items b) -> iadd a b path = (r, None) ->
  (forall j c v, coding_at (ds_items r) j c = Some v <->
     coding_at (ds_items a) j c = Some v \/ exists i, filed path i j /\ coding_at (ds_items b) i c = Some v) /\
  (forall j, j ∈ (ds_items r).*1 <-> j ∈ (ds_items a).*1 \/ exists i, filed path i j /\ i ∈ (ds_items b).*1) /\
  (forall c, c ∈ ds_coders r <-> c ∈ ds_coders a \/ codes (ds_items b) c) /\
  ds_props r = ds_props a /\ ds_types r = ds_types a /\ ds_format r = ds_format a /\ (items_ok (ds_items a) -> items_ok (ds_items r)).
Proof. exact (@merge_union). Qed.
Print Assumptions C51_union.

(** If [a] listed exactly the coders it had, so does the result, whatever [b] listed. *)
Theorem C51_coders : forall (C : Type) path (a b r : dataset C), items_ok (ds_items b) -> iadd a b path = (r, None) ->
  (forall c, c ∈ ds_coders a <-> codes (ds_items a) c) -> forall c, c ∈ ds_coders r <-> codes (ds_items r) c.
Proof. exact (@merge_covers). Qed.
Print Assumptions C51_coders.

Definition da : dataset (list Z) := new_dataset (Some [("i1", [("c1", [2; 2])])])%string None None FMass.
Definition db : dataset (list Z) := new_dataset (Some [("i1", [("c2", [1; 3])]); ("i2", [("c1", [4])])])%string None None FMass.
Definition dc : dataset (list Z) := new_dataset (Some [("i0", [("c7", [4])]); ("i1", [("c1", [1; 3])])])%string None None FMass.

Ltac nodup := unfold dict_ok; cbn [fmap list_fmap fst snd]; repeat (apply NoDup_cons; split; [rewrite ?elem_of_cons, ?elem_of_nil; intuition discriminate|]); apply NoDup_nil_2.
Ltac items_ok_tac := lazymatch goal with |- items_ok ?x => let y := eval vm_compute in x in change (items_ok y) end; split; [nodup|intros ? ? Hin; rewrite ?elem_of_cons, ?elem_of_nil in Hin; repeat destruct Hin as [Hin|Hin]; try contradiction; injection Hin as -> ->; nodup].

Example C51_case : items_ok (ds_items db) /\ items_ok (ds_items dc) /\
  snd (iadd da db None) = None /\
  ds_items (fst (iadd da db None)) = [("i1", [("c1", [2; 2]); ("c2", [1; 3])]); ("i2", [("c1", [4])])]%string /\
  ds_items (fst (iadd da db (Some ["d"; "e"]))) = [("i1", [("c1", [2; 2])]); ("d,e,i1", [("c2", [1; 3])]); ("d,e,i2", [("c1", [4])])]%string /\
  ds_coders (fst (iadd da db None)) = {["c1"; "c2"]}%string /\
  clash None (ds_items da) (ds_items dc) /\ snd (iadd da dc None) = Some DataIOError.
Proof.
  split; [items_ok_tac|]. split; [items_ok_tac|]. repeat (split; [by_compute|]). split; [|by_compute].
  exists "i1"%string, "i1"%string, "c1"%string. split; [reflexivity|]. split; vm_compute; eauto.
Qed.

(** A failed merge may have changed [a]. *)
Theorem C51_unchanged_refuted : ~ forall (a b : dataset (list Z)), items_ok (ds_items a) -> items_ok (ds_items b) ->
  clash None (ds_items a) (ds_items b) -> ds_items (fst (iadd a b None)) = ds_items a.
Proof.
  intros H. assert (Ha : items_ok (ds_items da)) by items_ok_tac. assert (Hc : items_ok (ds_items dc)) by items_ok_tac.
  specialize (H da dc Ha Hc). assert (K : clash None (ds_items da) (ds_items dc)).
  { exists "i1"%string, "i1"%string, "c1"%string. split; [reflexivity|]. split; vm_compute; eauto. }
  specialize (H K). vm_compute in H. discriminate.
Qed.
Print Assumptions C51_unchanged_refuted.

(** ** C52 *)

(** After [a + b], successful or not, every dataset that existed before (among them [a]
    and [b]) has the entries and the coders it had, whatever dicts are shared. *)
Theorem C52_operands : forall (C : Type) (h : heap C) a b h' r, live h a -> live h b -> dict_ok (hd_items a) ->
  h_add h a b = (h', r) -> forall x, live h x -> view h' x = view h x.
Proof. exact (@add_leaves). Qed.
Print Assumptions C52_operands.

(** No inner dict and no coder set that existed before is changed. *)
Theorem C52_objects : forall (C : Type) (h : heap C) a b h' r, h_add h a b = (h', r) -> live h a -> dict_ok (hd_items a) -> live h b ->
  (forall l, l ∈ dom (h_dicts h) -> h_dicts h' !! l = h_dicts h !! l) /\ (forall l, l ∈ dom (h_sets h) -> h_sets h' !! l = h_sets h !! l).
Proof. exact (@add_frame). Qed.
Print Assumptions C52_objects.

(** Unless two items of [a] share an inner dict, the sum is the union, and there is one
    exactly when nothing clashes; [b] may share inner dicts with itself and with [a]. *)
Theorem C52_outcome : forall (C : Type) (h : heap C) a b h' r, live h a -> live h b -> dict_ok (hd_items a) -> unshared a -> items_ok (ds_items (view h b)) ->
  h_add h a b = (h', r) ->
  ((exists d, r = Ok d) <-> ~ clash None (ds_items (view h a)) (ds_items (view h b))) /\
  (r = Err DataIOError <-> clash None (ds_items (view h a)) (ds_items (view h b))).
Proof. exact (@add_outcome). Qed.
Print Assumptions C52_outcome.

Theorem C52_union : forall (C : Type) (h : heap C) a b h' r, live h a -> live h b -> dict_ok (hd_items a) -> unshared a -> items_ok (ds_items (view h b)) ->
  h_add h a b = (h', Ok r) ->
  forall i c v, coding_at (ds_items (view h' r)) i c = Some v <-> coding_at (ds_items (view h a)) i c = Some v \/ coding_at (ds_items (view h b)) i c = Some v.
Proof. exact (@add_union). Qed.
Print Assumptions C52_union.

(** [a += b] on a Dataset built from a dict of dicts adds the codings of [b] to the inner
    dicts of that dict. *)
Theorem C52_write_through : forall (C : Type) (h : heap C) data props types f h1 a b h' a', dict_ok data -> NoDup data.*2 ->
  (forall l, l ∈ data.*2 -> l ∈ dom (h_dicts h)) -> h_new h data props types f = (h1, a) ->
  live h1 b -> apart a b -> items_ok (ds_items (view h1 b)) -> h_iadd h1 a b None = (h', a', None) ->
  forall i c v, i ∈ data.*1 ->
    coding_at (deref h' data) i c = Some v <-> coding_at (deref h data) i c = Some v \/ coding_at (ds_items (view h1 b)) i c = Some v.
Proof. exact (@write_through). Qed.
Print Assumptions C52_write_through.

(** [a += b] changes no dataset that shares neither inner dicts nor the coder set with
    [a]. *)
Theorem C52_in_place : forall (C : Type) (h : heap C) a b path h' a' e, live h a -> live h b -> h_iadd h a b path = (h', a', e) ->
  forall x, live h x -> apart a x -> hd_coders x <> hd_coders a -> view h' x = view h x.
Proof. exact (@iadd_leaves). Qed.
Print Assumptions C52_in_place.

(** Three inner dicts; [hb]'s second item is [ha]'s dict. *)
Definition h0 : heap (list Z) := Heap (list_to_map [(1%positive, [("c1", [2; 2])]); (2%positive, [("c2", [1; 3])])]%string)
  (list_to_map [(1%positive, {["c1"]}); (2%positive, {["c1"; "c2"]})]%string).
Definition ha : hdataset := HDataset [("i1"%string, 1%positive)] 1%positive [] {[1]} FMass.
Definition hb : hdataset := HDataset [("i1"%string, 2%positive); ("i2"%string, 1%positive)] 2%positive [] {[1]} FMass.
Definition hs : hdataset := HDataset [("i1"%string, 1%positive); ("i2"%string, 1%positive)] 1%positive [] {[1]} FMass.
Definition hc : hdataset := HDataset [("i1"%string, 2%positive)] 2%positive [] {[1]} FMass.

Lemma live_ok (h : heap (list Z)) a : forallb (fun l => bool_decide (l ∈ dom (h_dicts h))) (hd_items a).*2 && bool_decide (hd_coders a ∈ dom (h_sets h)) = true -> live h a.
Proof.
  rewrite andb_true_iff, forallb_forall, bool_decide_eq_true. intros [H1 H2]. split; [|exact H2]. intros l Hl. apply elem_of_list_In in Hl. specialize (H1 l Hl).
  apply bool_decide_eq_true in H1. exact H1.
Qed.

Example C52_case : live h0 ha /\ live h0 hb /\ live h0 hs /\ dict_ok (hd_items ha) /\ unshared ha /\ ~ unshared hs /\ items_ok (ds_items (view h0 hb)) /\
  (let '(h', r) := h_add h0 ha hb in
   ds_items <$> (match r with Ok d => Some (view h' d) | Err _ => None end) = Some [("i1", [("c1", [2; 2]); ("c2", [1; 3])]); ("i2", [("c1", [2; 2])])]%string /\
   ds_items (view h' ha) = [("i1", [("c1", [2; 2])])]%string) /\
  (let '(h', a', e) := h_iadd h0 ha hb None in
   e = None /\ ds_items (view h' a') = [("i1", [("c1", [2; 2]); ("c2", [1; 3])]); ("i2", [("c1", [2; 2]); ("c2", [1; 3])])]%string /\
   ds_items (view h' hb) = [("i1", [("c2", [1; 3])]); ("i2", [("c1", [2; 2]); ("c2", [1; 3])])]%string).
Proof.
  split; [apply live_ok; by_compute|]. split; [apply live_ok; by_compute|]. split; [apply live_ok; by_compute|]. split; [nodup|]. split; [apply NoDup_singleton|].
  split; [intros H; apply NoDup_cons in H as [H _]; apply H; cbn; apply elem_of_cons; auto|]. split; [vm_compute ds_items; items_ok_tac|].
  split; vm_compute; auto.
Qed.

Example C52_write_case :
  let data := [("i1"%string, 1%positive)] in
  let '(h1, a) := h_new h0 data None None FMass in
  dict_ok data /\ NoDup data.*2 /\ live h1 hc /\ apart a hc /\ items_ok (ds_items (view h1 hc)) /\
  let '(h', a', e) := h_iadd h1 a hc None in
  e = None /\ deref h0 data = [("i1", [("c1", [2; 2])])]%string /\ deref h' data = [("i1", [("c1", [2; 2]); ("c2", [1; 3])])]%string.
Proof.
  cbn zeta. destruct (h_new h0 [("i1"%string, 1%positive)] None None FMass) as [h1 a] eqn:E.
  assert (Ei : hd_items a = [("i1"%string, 1%positive)]) by (unfold h_new in E; injection E as _ <-; reflexivity).
  assert (Eh : h1 = fst (h_new h0 [("i1"%string, 1%positive)] None None FMass)) by (rewrite E; reflexivity).
  assert (Ea : a = snd (h_new h0 [("i1"%string, 1%positive)] None None FMass)) by (rewrite E; reflexivity).
  split; [nodup|]. split; [apply NoDup_singleton|]. split; [apply live_ok; rewrite Eh; by_compute|].
  split; [intros l H1 H2; rewrite Ei in H1; cbn in H1, H2; apply elem_of_list_singleton in H1, H2; congruence|].
  split; [rewrite Eh; vm_compute ds_items; items_ok_tac|]. rewrite Eh, Ea. vm_compute. auto.
Qed.

(** With an inner dict shared by two items of [a] the sum has codings that neither operand
    has. *)
Theorem C52_shared_refuted : ~ forall (h : heap (list Z)) a b h' r, live h a -> live h b -> dict_ok (hd_items a) -> items_ok (ds_items (view h b)) ->
  h_add h a b = (h', Ok r) ->
  forall i c v, coding_at (ds_items (view h' r)) i c = Some v -> coding_at (ds_items (view h a)) i c = Some v \/ coding_at (ds_items (view h b)) i c = Some v.
Proof.
  intros H. destruct (h_add h0 hs hc) as [h' r] eqn:E. destruct r as [r|e]; [|vm_compute in E; discriminate].
  assert (La : live h0 hs) by (apply live_ok; by_compute). assert (Lb : live h0 hc) by (apply live_ok; by_compute).
  assert (Oa : dict_ok (hd_items hs)) by nodup. assert (Ob : items_ok (ds_items (view h0 hc))) by (vm_compute ds_items; items_ok_tac).
  specialize (H h0 hs hc h' r La Lb Oa Ob E "i2"%string "c2"%string [1; 3]).
  assert (K : coding_at (ds_items (view h' r)) "i2" "c2" = Some [1; 3]).
  { assert (E' : match h_add h0 hs hc with (h', Ok r) => coding_at (ds_items (view h' r)) "i2" "c2" | _ => None end = Some [1; 3]) by by_compute. rewrite E in E'. exact E'. }
  destruct (H K) as [Q|Q]; vm_compute in Q; discriminate.
Qed.
Print Assumptions C52_shared_refuted.

(** ** C53 *)

(** Writing a dataset of masses and reading the file again gives the same codings and
    items and the same properties (up to the order of keys) plus segmentation_type; the
    coder set is lost and the format is mass. *)
Theorem C53_round_trip : forall d : dataset (list json), items_ok (ds_items d) ->
  (forall i c m, coding_at (ds_items d) i c = Some m -> is_masses m) -> json_ok (JObj (ds_props d)) ->
  "items"%string ∉ (ds_props d).*1 ->
  (dget (ds_props d) "segmentation_type" = None \/ dget (ds_props d) "segmentation_type" = Some (JStr "linear")) ->
  exists r, input_json (Some (dump_load (output_json d))) = Ok r /\
    (forall i c, coding_at (ds_items r) i c = coding_at (ds_items d) i c) /\
    (forall i, i ∈ (ds_items r).*1 <-> i ∈ (ds_items d).*1) /\ items_ok (ds_items r) /\
    (forall k v, k <> "segmentation_type"%string -> (k, v) ∈ ds_props d -> exists v', (k, v') ∈ ds_props r /\ same_json v v') /\
    (forall k v', (k, v') ∈ ds_props r -> k = "segmentation_type"%string /\ v' = JStr "linear" \/ exists v, (k, v) ∈ ds_props d /\ same_json v v') /\
    ("segmentation_type"%string, JStr "linear") ∈ ds_props r /\
    ds_coders r = ∅ /\ ds_format r = FMass.
Proof. exact round_trip. Qed.
Print Assumptions C53_round_trip.

(** A property called items takes the place of the codings: the document does not depend
    on them. *)
Theorem C53_items_property : forall d d' : dataset (list json), ds_props d' = ds_props d -> "items"%string ∈ (ds_props d).*1 ->
  output_json d' = output_json d.
Proof. exact items_overridden. Qed.
Print Assumptions C53_items_property.

(** With a foreign segmentation type the file cannot be read. *)
Theorem C53_foreign_type : forall (d : dataset (list json)) v, json_ok (JObj (ds_props d)) ->
  dget (ds_props d) "segmentation_type" = Some v -> v <> JStr "linear" ->
  input_json (Some (dump_load (output_json d))) = Err DataIOError.
Proof. exact foreign_type. Qed.
Print Assumptions C53_foreign_type.

Definition ji (l : list Z) : list json := JInt <$> l.
Definition jd : dataset (list json) :=
  new_dataset (Some [("i2", [("c2", ji [1; 3]); ("c1", ji [2; 2])]); ("i1", [("c1", ji [5])])])%string
    (Some [("id", JStr "x"); ("author", JObj [("z", JNull); ("a", JInt 1)])])%string None FMass.
Example C53_case : items_ok (ds_items jd) /\ (forall i c m, coding_at (ds_items jd) i c = Some m -> is_masses m) /\ json_ok (JObj (ds_props jd)) /\
  "items"%string ∉ (ds_props jd).*1 /\ dget (ds_props jd) "segmentation_type" = None /\
  elements (ds_coders jd) <> [] /\
  match input_json (Some (dump_load (output_json jd))) with
  | Ok r => ds_items r = [("i1", [("c1", ji [5])]); ("i2", [("c1", ji [2; 2]); ("c2", ji [1; 3])])]%string /\
            ds_props r = [("author", JObj [("a", JInt 1); ("z", JNull)]); ("id", JStr "x"); ("segmentation_type", JStr "linear")]%string
  | Err _ => False
  end.
Proof.
  split; [items_ok_tac|]. split.
  { intros i c m H. unfold coding_at in H. replace (ds_items jd) with [("i2", [("c2", ji [1; 3]); ("c1", ji [2; 2])]); ("i1", [("c1", ji [5])])]%string in H by (vm_compute; reflexivity).
    cbn [dget] in H.
    repeat (match type of H with context [decide ?P] => destruct (decide P) end; cbn [dget] in H); try discriminate; injection H as <-; [exists [1; 3]|exists [2; 2]|exists [5]]; reflexivity. }
  split; [vm_compute ds_props; repeat split; cbn; nodup|]. split; [by_compute|].
  split; [by_compute|]. split; [vm_compute; discriminate|]. vm_compute. auto.
Qed.

Example C53_items_case :
  let d := new_dataset (Some [("i1", [("c1", ji [5])])])%string (Some [("items", JObj [])])%string None FMass in
  "items"%string ∈ (ds_props d).*1 /\ ds_items <$> (match input_json (Some (dump_load (output_json d))) with Ok r => Some r | Err _ => None end) = Some [].
Proof. cbn zeta. split; [by_compute|vm_compute; reflexivity]. Qed.

Example C53_foreign_case :
  let d := new_dataset (Some [("i1", [("c1", ji [5])])])%string (Some [("segmentation_type", JStr "hierarchical")])%string None FMass in
  dget (ds_props d) "segmentation_type" = Some (JStr "hierarchical") /\ input_json (Some (dump_load (output_json d))) = Err DataIOError.
Proof. split; vm_compute; reflexivity. Qed.

(** ** C54 *)

(** Rejected with DataIOError: a file that is no JSON, a document without
    segmentation_type 'linear' and a document without items. *)
Theorem C54_unreadable : input_json None = Err DataIOError.
Proof. exact input_unreadable. Qed.
Print Assumptions C54_unreadable.

Theorem C54_rejects : forall l, json_ok (JObj l) ->
  (~ member (JObj l) "segmentation_type" (JStr "linear") \/ lacks (JObj l) "items") -> input_json (Some (JObj l)) = Err DataIOError.
Proof. exact input_checked. Qed.
Print Assumptions C54_rejects.

(** Accepted: exactly the documents of linear type whose items are laid out as item, coder,
    sequence. *)
Theorem C54_accepts : forall l, json_ok (JObj l) ->
  (exists r, input_json (Some (JObj l)) = Ok r) <-> member (JObj l) "segmentation_type" (JStr "linear") /\ well_formed (JObj l).
Proof. exact input_accepts. Qed.
Print Assumptions C54_accepts.

(** The dataset has exactly the codings and items of the document and all its other
    entries as properties. *)
Theorem C54_verbatim : forall l r, json_ok (JObj l) -> input_json (Some (JObj l)) = Ok r ->
  (forall i c m, coding_at (ds_items r) i c = Some m <-> coded_in (JObj l) i c m) /\
  (forall i, i ∈ (ds_items r).*1 <-> exists items it, member (JObj l) "items" items /\ member items i it) /\
  (forall k v, (k, v) ∈ ds_props r <-> k <> "items"%string /\ member (JObj l) k v) /\
  items_ok (ds_items r) /\ ds_coders r = ∅ /\ ds_format r = FMass.
Proof. exact input_result. Qed.
Print Assumptions C54_verbatim.

(** A document that passes the checks but is laid out otherwise raises AttributeError or
    TypeError. *)
Theorem C54_malformed : forall l e, json_ok (JObj l) -> member (JObj l) "segmentation_type" (JStr "linear") -> ~ lacks (JObj l) "items" ->
  input_json (Some (JObj l)) = Err e -> e = AttributeError \/ e = TypeError.
Proof. exact input_malformed. Qed.
Print Assumptions C54_malformed.

(** Which of the two it is depends on the first item that cannot be read: AttributeError
    when it is no object, TypeError when a coding of it cannot be iterated over. *)
Theorem C54_first_fault : forall l items e, json_ok (JObj l) -> member (JObj l) "segmentation_type" (JStr "linear") -> member (JObj l) "items" items ->
  input_json (Some (JObj l)) = Err e <->
  (forall its, items <> JObj its) /\ e = AttributeError \/
  exists pre i it post, items = JObj (pre ++ (i, it) :: post) /\ Forall (fun x => fits (snd x)) pre /\
    ((forall cs, it <> JObj cs) /\ e = AttributeError \/ (exists cs c v, it = JObj cs /\ (c, v) ∈ cs /\ (forall m, ~ yields v m) /\ e = TypeError)).
Proof. exact first_fault. Qed.
Print Assumptions C54_first_fault.

(** A document that is no object at all: a list without the string segmentation_type and
    a string that does not contain it raise DataIOError, all else raises TypeError. *)
Theorem C54_not_object : forall j, (forall l, j <> JObj l) ->
  input_json (Some j) = Err DataIOError /\
    ((exists l, j = JArr l /\ JStr "segmentation_type" ∉ l) \/ (exists s, j = JStr s /\ forall a b, s <> (a ++ "segmentation_type" ++ b)%string)) \/
  input_json (Some j) = Err TypeError /\
    (forall l, j = JArr l -> JStr "segmentation_type" ∈ l) /\ (forall s, j = JStr s -> exists a b, s = (a ++ "segmentation_type" ++ b)%string).
Proof. exact not_object. Qed.
Print Assumptions C54_not_object.

Example C54_fault_case :
  (forall m, ~ yields (JInt 4) m) /\
  input_json (Some (JObj [("segmentation_type", JStr "linear"); ("items", JObj [("i1", JObj [("c1", JInt 4)]); ("i2", JNull)])]%string)) = Err TypeError /\
  input_json (Some (JObj [("segmentation_type", JStr "linear"); ("items", JObj [("i1", JNull); ("i2", JObj [("c1", JInt 4)])])]%string)) = Err AttributeError /\
  input_json (Some (JArr [JStr "items"; JStr "segmentation_type"])) = Err TypeError /\
  input_json (Some (JArr [JStr "items"])) = Err DataIOError /\
  input_json (Some (JStr "a segmentation_type")) = Err TypeError /\
  input_json (Some (JStr "a type")) = Err DataIOError /\
  input_json (Some JNull) = Err TypeError.
Proof. split; [intros m H; inversion H|]. repeat split; vm_compute; reflexivity. Qed.

Definition good_doc : list (string * json) :=
  [("segmentation_type", JStr "linear"); ("id", JStr "x"); ("items", JObj [("i1", JObj [("c1", JArr (ji [2; 2])); ("c2", JStr "ab")])])]%string.
Definition bad_doc : list (string * json) :=
  [("segmentation_type", JStr "linear"); ("items", JObj [("i1", JObj [("c1", JInt 4)])])]%string.
Example C54_case : json_ok (JObj good_doc) /\ json_ok (JObj bad_doc) /\
  match input_json (Some (JObj good_doc)) with
  | Ok r => ds_items r = [("i1", [("c1", ji [2; 2]); ("c2", [JStr "a"; JStr "b"])])]%string /\ ds_props r = [("segmentation_type", JStr "linear"); ("id", JStr "x")]%string
  | Err _ => False
  end /\
  input_json (Some (JObj bad_doc)) = Err TypeError /\
  ~ member (JObj (("segmentation_type", JStr "other") :: tail good_doc)%string) "segmentation_type" (JStr "linear") /\
  lacks (JObj [("segmentation_type", JStr "linear")]%string) "items".
Proof.
  split; [repeat split; cbn; nodup|]. split; [repeat split; cbn; nodup|]. split; [vm_compute; auto|]. split; [vm_compute; reflexivity|]. split.
  - intros (l & E & H). injection E as <-. rewrite !elem_of_cons, elem_of_nil in H. cbn in H. intuition discriminate.
  - eexists. split; [reflexivity|]. cbn. rewrite elem_of_list_singleton. discriminate.
Qed.

(** ** C55 *)

(** The table is read exactly when every row below the header names a coder and has
    integers otherwise. *)
Theorem C55_accepts : forall item header rows,
  (exists r, input_tsv item (header :: rows) = Ok r) <-> Forall (fun row => exists c zs, row_codes row c zs) rows.
Proof. exact tsv_accepts. Qed.
Print Assumptions C55_accepts.

(** The codings are those of the last row of each name, all for one item; no coder is
    recorded. *)
Theorem C55_codings : forall item header rows r, input_tsv item (header :: rows) = Ok r ->
  (ds_items r).*1 = [item] /\ items_ok (ds_items r) /\ ds_coders r = ∅ /\
  forall c zs, coding_at (ds_items r) item c = Some zs <->
    exists pre row post, rows = pre ++ row :: post /\ row_codes row c zs /\ Forall (fun row' => forall zs', ~ row_codes row' c zs') post.
Proof. exact tsv_result. Qed.
Print Assumptions C55_codings.

(** Otherwise the first row that is no coding decides: KeyError if it is empty, ValueError
    if not. *)
Theorem C55_raises : forall item header rows e, input_tsv item (header :: rows) = Err e ->
  exists pre bad post, rows = pre ++ bad :: post /\ Forall (fun row => exists c zs, row_codes row c zs) pre /\
    (forall c zs, ~ row_codes bad c zs) /\ e = (if decide (bad = []) then KeyError else ValueError).
Proof. exact tsv_raises. Qed.
Print Assumptions C55_raises.

(** Which texts are integers. *)
Theorem C55_integers : forall s z, parse_int s = Ok z <-> integer_text s z.
Proof. exact parse_int_iff. Qed.
Print Assumptions C55_integers.

Example C55_case :
  ds_items <$> (match input_tsv "t" [["coder"; "a"]; ["c1"; "2"; " 8"; "+2"; "1_0"]; ["c2"; "3"]; ["c1"; "-4"]]%string with Ok r => Some r | Err _ => None end)
    = Some [("t", [("c1", [-4]); ("c2", [3])])]%string /\
  integer_text "1_0" 10 /\
  input_tsv "t" [["coder"]; ["c1"; "2"]; []]%string = Err KeyError /\
  input_tsv "t" [["coder"]; ["c1"; "2.5"]]%string = Err ValueError /\
  input_tsv "t" [["coder"]; ["c1"; ""]]%string = Err ValueError.
Proof. split; [by_compute|]. split; [apply parse_int_iff; by_compute|]. repeat split; by_compute. Qed.

(** ** C56 *)

(** What is loaded: in every directory, for every stem, the last listed file with an
    accepted extension; its items are filed under the directory path.  The coders are
    exactly those who coded something. *)
Theorem C56_files : forall (C : Type) t (entries : list (string * node C)), tree_ok entries -> loads_ok entries ->
  forall r, load_nested_folders t entries = Ok r ->
  (forall path name l, taken t entries path name l -> exists o, l = Ok o) /\
  (forall j c v, coding_at (ds_items r) j c = Some v <->
     exists path name o i, taken t entries path name (Ok o) /\ filed (Some path) i j /\ coding_at (ds_items o) i c = Some v) /\
  (forall j, j ∈ (ds_items r).*1 <-> exists path name o i, taken t entries path name (Ok o) /\ filed (Some path) i j /\ i ∈ (ds_items o).*1) /\
  (forall c, c ∈ ds_coders r <-> codes (ds_items r) c) /\ items_ok (ds_items r) /\ ds_format r = FMass.
Proof. exact (@nested_result). Qed.
Print Assumptions C56_files.

(** If no directory has two accepted files of one stem, every accepted file of the tree is
    loaded. *)
Theorem C56_all_files : forall (C : Type) t (entries : list (string * node C)) r, tree_ok entries -> loads_ok entries -> stems_distinct t entries ->
  load_nested_folders t entries = Ok r ->
  forall j c v, coding_at (ds_items r) j c = Some v <->
    exists path sub name o i, dir_at entries path sub /\ (name, NFile (Ok o)) ∈ sub /\ accepted t name = true /\ filed (Some path) i j /\ coding_at (ds_items o) i c = Some v.
Proof. exact (@nested_all). Qed.
Print Assumptions C56_all_files.

(** It fails only if one of these files cannot be read, with that exception, or if two of
    them code the same item by the same coder. *)
Theorem C56_raises : forall (C : Type) t (entries : list (string * node C)), tree_ok entries -> loads_ok entries ->
  forall e, load_nested_folders t entries = Err e ->
  (exists path name, taken t entries path name (Err e)) \/
  (e = DataIOError /\ exists p1 n1 o1 i1 p2 n2 o2 i2 j c, taken t entries p1 n1 (Ok o1) /\ taken t entries p2 n2 (Ok o2) /\ (p1, n1) <> (p2, n2) /\
     filed (Some p1) i1 j /\ filed (Some p2) i2 j /\ is_Some (coding_at (ds_items o1) i1 c) /\ is_Some (coding_at (ds_items o2) i2 c)).
Proof. exact (@nested_raises). Qed.
Print Assumptions C56_raises.

Definition file (i c : string) (m : list Z) : node (list Z) := NFile (Ok (new_dataset (Some [(i, [(c, m)])]) None None FMass)).
Definition tree : list (string * node (list Z)) :=
  [("a.json", file "i1" "c1" [2; 2]); ("notes.txt", NFile (Err ValueError)); ("sub", NDir [("b.JSN", file "i1" "c1" [1; 3]); ("deep", NDir [("a.json", file "i1" "c2" [4])])])]%string.
Definition same_stem : list (string * node (list Z)) := [("a.json", file "i1" "c1" [2; 2]); ("a.jsn", file "i2" "c1" [1; 3])]%string.

Fixpoint all_dirs {C} (n : node C) : list (list (string * node C)) :=
  match n with NFile _ => [] | NDir es => es :: flat_map (fun e => all_dirs (snd e)) es end.
Lemma dir_at_in {C} (entries : list (string * node C)) path sub : dir_at entries path sub -> In sub (all_dirs (NDir entries)).
Proof.
  induction 1 as [entries|entries name sub path found Hin D IH]; [left; reflexivity|]. right. apply in_flat_map. exists (name, NDir sub). split; [apply elem_of_list_In, Hin|exact IH].
Qed.
Lemma tree_ok_case : tree_ok tree.
Proof. intros p s D. apply dir_at_in in D. cbn in D. repeat destruct D as [<-|D]; try contradiction; nodup. Qed.
Lemma loads_ok_case : loads_ok tree.
Proof.
  intros p s name d D Hin. apply dir_at_in in D. cbn in D. unfold tree, same_stem, file in *; repeat destruct D as [<-|D]; try contradiction; rewrite ?elem_of_cons, ?elem_of_nil in Hin;
    repeat destruct Hin as [Hin|Hin]; try contradiction; try discriminate; injection Hin as -> ->; items_ok_tac.
Qed.
Example C56_case : tree_ok tree /\ loads_ok tree /\
  ds_items <$> (match load_nested_folders JSON tree with Ok r => Some r | Err _ => None end) =
    Some [("i1", [("c1", [2; 2])]); ("sub,i1", [("c1", [1; 3])]); ("sub,deep,i1", [("c2", [4])])]%string /\
  load_nested_folders JSON [("a.json", file "i1" "c1" [2; 2]); ("b.json", file "i1" "c1" [1; 3])]%string = Err DataIOError /\
  load_nested_folders JSON [("a.json", file "i1" "c1" [2; 2]); ("b.json", NFile (Err KeyError))]%string = Err KeyError.
Proof. split; [exact tree_ok_case|]. split; [exact loads_ok_case|]. repeat split; by_compute. Qed.

Lemma stems_case : stems_distinct JSON tree.
Proof.
  intros p s i j n1 n2 l1 l2 D H1 H2 A1 A2 E. apply dir_at_in in D. cbn in D. repeat destruct D as [<-|D]; try contradiction;
    destruct i as [|[|[|i]]]; cbn in H1; try discriminate; injection H1 as <- <-; try discriminate;
    destruct j as [|[|[|j]]]; cbn in H2; try discriminate; injection H2 as <- <-; try discriminate; reflexivity.
Qed.
Example C56_all_case : stems_distinct JSON tree.
Proof. exact stems_case. Qed.

(** Without that condition not every accepted file is loaded: of a.json and a.jsn the one
    listed first is dropped silently. *)
Theorem C56_same_stem_refuted : ~ forall (entries : list (string * node (list Z))) r, tree_ok entries -> loads_ok entries ->
  load_nested_folders JSON entries = Ok r -> forall name o i c v, (name, NFile (Ok o)) ∈ entries -> accepted JSON name = true ->
  coding_at (ds_items o) i c = Some v -> coding_at (ds_items r) i c = Some v.
Proof.
  intros H. destruct (load_nested_folders JSON same_stem) as [r|e] eqn:E; [|vm_compute in E; discriminate].
  assert (T : tree_ok same_stem). { intros p s D. apply dir_at_in in D. cbn in D. repeat destruct D as [<-|D]; try contradiction; nodup. }
  assert (L : loads_ok same_stem).
  { intros p s name d D Hin. apply dir_at_in in D. cbn in D. unfold tree, same_stem, file in *; repeat destruct D as [<-|D]; try contradiction; rewrite ?elem_of_cons, ?elem_of_nil in Hin;
      repeat destruct Hin as [Hin|Hin]; try contradiction; injection Hin as -> ->; items_ok_tac. }
  specialize (H same_stem r T L E "a.json"%string _ "i1"%string "c1"%string [2; 2] (elem_of_list_here _ _) eq_refl eq_refl).
  assert (K : match load_nested_folders JSON same_stem with Ok r => coding_at (ds_items r) "i1" "c1" | Err _ => None end = None) by by_compute.
  rewrite E in K. congruence.
Qed.
Print Assumptions C56_same_stem_refuted.

(** ** C57 *)

(** Datasets read from one JSON or TSV file: whatever the codings are taken to be, every
    agreement function raises. *)
Theorem C57_json : forall A cmp f cord rp (conv : list json -> seg) doc r, lord_ok cord -> input_json doc = Ok r ->
  actual_agreement_linear A cmp f cord (CDataset (as_segs conv r)) = Err ZeroDivisionError /\
  (exists e, fleiss_pi_linear A cmp f cord rp (CDataset (as_segs conv r)) = Err e) /\
  (exists e, fleiss_kappa_linear A cmp f cord rp (CDataset (as_segs conv r)) = Err e) /\
  (exists e, artstein_poesio_bias_linear A cmp f cord rp (CDataset (as_segs conv r)) = Err e).
Proof. exact json_loaded_fails. Qed.
Print Assumptions C57_json.

Theorem C57_tsv : forall A cmp f cord rp (conv : list Z -> seg) item rows r, lord_ok cord -> input_tsv item rows = Ok r ->
  actual_agreement_linear A cmp f cord (CDataset (as_segs conv r)) = Err ZeroDivisionError /\
  (exists e, fleiss_pi_linear A cmp f cord rp (CDataset (as_segs conv r)) = Err e) /\
  (exists e, fleiss_kappa_linear A cmp f cord rp (CDataset (as_segs conv r)) = Err e) /\
  (exists e, artstein_poesio_bias_linear A cmp f cord rp (CDataset (as_segs conv r)) = Err e).
Proof. exact tsv_loaded_fails. Qed.
Print Assumptions C57_tsv.

(** The same items in a Dataset built in memory: it knows its coders, and agreement is that
    of the plain dict, in the format of the dataset. *)
Theorem C57_in_memory : forall A cmp f f' cord rp (items : dict (dict seg)) p ty, items_ok items ->
  let d := CDataset (new_dataset (Some items) p ty f) in
  actual_agreement_linear A cmp f' cord d = actual_agreement_linear A cmp f cord (CDict items) /\
  fleiss_pi_linear A cmp f' cord rp d = fleiss_pi_linear A cmp f cord rp (CDict items) /\
  fleiss_kappa_linear A cmp f' cord rp d = fleiss_kappa_linear A cmp f cord rp (CDict items) /\
  artstein_poesio_bias_linear A cmp f' cord rp d = artstein_poesio_bias_linear A cmp f cord rp (CDict items).
Proof. exact built_agrees. Qed.
Print Assumptions C57_in_memory.

Theorem C57_coders : forall (C : Type) (items : dict (dict C)) p ty f, items_ok items ->
  ds_items (new_dataset (Some items) p ty f) = items /\ forall c, c ∈ ds_coders (new_dataset (Some items) p ty f) <-> codes items c.
Proof. exact (@built_coders). Qed.
Print Assumptions C57_coders.
