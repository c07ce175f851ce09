(** Property C86: precision, recall and F-measure of matrix objects, also when they
    raise and when matrices are shared (segeval/ml/__init__.py:18-187). *)
From Verif Require Import SpecQuery Round RoundProofs MatrixSim.
Open Scope Z_scope.

Definition o0 : cord := fun s => elements s.
Definition la : label := Some 1.
Definition lb : label := Some 2.

(** A query on an object gives what it gives on its value, or raises the same; it
    disturbs nobody, and even when it raises the matrix has only been looked at. *)
Theorem C86_query : forall A o k m c v H M, mreach H -> view H m = Some M ->
  exists r H' M', h_query A o k m c v H = Some (r, H') /\ mreach H' /\ view H' m = Some M' /\ only m H H' /\ undisturbed H H' /\
    match ask A o M (Query (kind_of k) c v) with Ok (x, M'') => r = Ok x /\ M' = M'' | Err e => r = Err e end.
Proof. exact query_value. Qed.
Print Assumptions C86_query.

(** Looking changes no cell. *)
Theorem C86_looked : forall M M', looked_at M M' -> forall p a, cell M' p a = cell M p a.
Proof. exact looked_cells. Qed.
Print Assumptions C86_looked.

(** Any number of queries, the caller catching what they raise. *)
Theorem C86_queries : forall A o qs H rs H', mreach H -> h_queries A o qs H = Some (rs, H') -> mreach H' /\ undisturbed H H'.
Proof. exact queries_undisturbed. Qed.
Print Assumptions C86_queries.

Theorem C86_queries_run : forall A o qs H, mreach H -> (forall k m c v, (k, m, c, v) ∈ qs -> view H m <> None) ->
  exists rs H', h_queries A o qs H = Some (rs, H') /\ mreach H' /\ undisturbed H H' /\ length rs = length qs.
Proof. exact queries_quiet. Qed.
Print Assumptions C86_queries_run.

(** After them every micro average is what it was. *)
Theorem C86_micro : forall A o l H qs rs H', sane A -> cord_ok o -> heap_run A mh0 l = Some H -> h_queries A o qs H = Some (rs, H') ->
  forall m M, view H m = Some M -> exact_cells A M -> exists M', view H' m = Some M' /\ (forall p a, cell M' p a = cell M p a) /\
    rmap fst (precision A o M' None AvgMicro) = rmap fst (precision A o M None AvgMicro) /\
    rmap fst (recall A o M' None AvgMicro) = rmap fst (recall A o M None AvgMicro).
Proof. exact queries_micro_objects. Qed.
Print Assumptions C86_micro.

(** The F-measure of class 1 looks at its row, which adds a cell, and then raises
    in its column; the cell stays, the first set of classes is left alone, and the
    micro average afterwards is what it was. *)
Definition l86 : list pop := [PNew; POp 0 (OSet la la (NInt 1)); POp 0 (OSet lb la (NInt (-1))); POp 0 (OSet lb lb (NInt 2))].
Definition seen (H : mheap) : list (label * list (label * num)) :=
  match view H 0 with Some M => prod_map id map_to_list <$> map_to_list (cm_rows M) | None => [] end.

Example C86_case :
  match heap_run pyA mh0 l86 with
  | Some H => match h_queries pyA o0 [(HPrecision, 0%nat, None, AvgMicro); (HFmeasure 1, 0%nat, la, AvgMicro); (HPrecision, 0%nat, None, AvgMicro); (HRecall, 0%nat, None, AvgOther)] H with
    | Some (rs, H') => Some (rs, bool_decide (elements (default ∅ (mh_sets H !! 0%nat)) = elements (default ∅ (mh_sets H' !! 0%nat))))
    | None => None end
  | None => None end = Some ([Ok (NDec (3 # 2)); Err DivisionByZero; Ok (NDec (3 # 2)); Err SegmentationMetricError], true) /\
  match heap_run pyA mh0 l86 with
  | Some H => match h_queries pyA o0 [(HFmeasure 1, 0%nat, la, AvgMicro)] H with
    | Some (rs, H') => Some (seen H, rs, seen H')
    | None => None end
  | None => None end = Some ([(la, [(la, NInt 1)]); (lb, [(la, NInt (-1)); (lb, NInt 2)])], [Err DivisionByZero],
     [(la, [(la, NInt 1); (lb, NInt 0)]); (lb, [(la, NInt (-1)); (lb, NInt 2)])]).
Proof. split; vm_compute; reflexivity. Qed.

(** ** Dicts of matrices *)

(** If they are different objects, every label gets the value of its matrix. *)
Theorem C86_dict : forall A o k ms c v H, mreach H -> NoDup ms.*2 -> (forall lab m, (lab, m) ∈ ms -> view H m <> None) ->
  exists r H', h_query_dict A o k ms c v H = Some (r, H') /\ undisturbed H H' /\
    r = mapM (fun '(lab, m) => let* x := rmap fst (ask A o (default cm_empty (view H m)) (Query (kind_of k) c v)) in Ok (lab, x)) ms.
Proof. exact query_dict. Qed.
Print Assumptions C86_dict.

(** For micro averages they may be the same object. *)
Theorem C86_dict_shared : forall A o l H k ms, sane A -> cord_ok o -> heap_run A mh0 l = Some H -> k = HPrecision \/ k = HRecall ->
  (forall lab m, (lab, m) ∈ ms -> exists M, view H m = Some M /\ exact_cells A M) ->
  exists r H', h_query_dict A o k ms None AvgMicro H = Some (r, H') /\ undisturbed H H' /\
    r = mapM (fun '(lab, m) => let* x := rmap fst (ask A o (default cm_empty (view H m)) (Query (kind_of k) None AvgMicro)) in Ok (lab, x)) ms.
Proof. exact query_dict_shared. Qed.
Print Assumptions C86_dict_shared.

(** For macro averages not: one call gives the same matrix two values, if a row
    was looked up before. *)
Theorem C86_dict_macro_refuted :
  match heap_run pyA mh0 [PNew; POp 0 (OSet la la (NInt 1)); POp 0 (OSet lb lb (NInt 1)); POp 0 OClasses; POp 0 (ORow (Some 3))] with
  | Some H => match h_query_dict pyA o0 HPrecision [("x"%string, 0%nat); ("y"%string, 0%nat)] None AvgMacro H with Some (r, _) => Some r | None => None end
  | None => None end = Some (Ok [("x"%string, NDec 1); ("y"%string, NDec (6666666666666666666666666667 # 10000000000000000000000000000))]).
Proof. vm_compute. reflexivity. Qed.
Print Assumptions C86_dict_macro_refuted.

Example C86_dict_case :
  match heap_run pyA mh0 [PNew; POp 0 (OSet la la (NInt 1)); POp 0 (OSet la lb (NInt 1)); PNew; POp 1 (OSet lb lb (NInt 1))] with
  | Some H => match h_query_dict pyA o0 HPrecision [("x"%string, 0%nat); ("y"%string, 1%nat); ("z"%string, 0%nat)] None AvgMicro H with Some (r, _) => Some r | None => None end
  | None => None end = Some (Ok [("x"%string, NDec (1 # 2)); ("y"%string, NDec 1); ("z"%string, NDec (1 # 2))]).
Proof. vm_compute. reflexivity. Qed.
