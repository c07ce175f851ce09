(** Property C92: precision, recall and F of texts that consist of parts with an agreed
    stretch between them (segeval/ml/__init__.py, segeval/similarity/__init__.py:83-123). *)
From Coq Require Import Lqa.
From Verif Require Import BedExtra SpecML SpecChange FormatProofs Round RoundProofs MLFinal Join JoinML.
Open Scope Z_scope.

(** Errors of the whole are the errors of its parts, in any arithmetic and with any weights. *)
Theorem C92_errors : forall a1 b1 z a2 b2 n_t, length a1 = length b1 -> length a2 = length b2 -> n_t - 1 <= zlen z ->
  forall E E1 E2, env_ok E -> env_ok E1 -> env_ok E2 -> small_types (a1 ++ z ++ a2) (b1 ++ z ++ b2) ->
  forall f f1 f2 sa sb sa1 sb1 sa2 sb2,
  to_bstrings f sa sb = Ok (a1 ++ z ++ a2, b1 ++ z ++ b2) -> to_bstrings f1 sa1 sb1 = Ok (a1, b1) -> to_bstrings f2 sa2 sb2 = Ok (a2, b2) ->
  forall A W W1 W2 m m1 m2, boundary_confusion_matrix A E W f n_t sa sb = Ok m ->
  boundary_confusion_matrix A E1 W1 f1 n_t sa1 sb1 = Ok m1 -> boundary_confusion_matrix A E2 W2 f2 n_t sa2 sb2 = Ok m2 ->
  forall p a, p <> a -> exists k1 k2, cell m1 p a = NInt k1 /\ cell m2 p a = NInt k2 /\ cell m p a = NInt (k1 + k2).
Proof. exact errors_join. Qed.
Print Assumptions C92_errors.

(** [m] is the matrix of a whole, [m1] and [m2] those of its parts, in exact arithmetic. *)
Definition whole (a1 b1 z a2 b2 : bstring) (n_t : Z) (m m1 m2 : cmatrix) : Prop :=
  exists E E1 E2 f f1 f2 sa sb sa1 sb1 sa2 sb2, env_ok E /\ env_ok E1 /\ env_ok E2 /\
  length a1 = length b1 /\ length a2 = length b2 /\ n_t - 1 <= zlen z /\ 0 < n_t /\ small_types (a1 ++ z ++ a2) (b1 ++ z ++ b2) /\
  to_bstrings f sa sb = Ok (a1 ++ z ++ a2, b1 ++ z ++ b2) /\ to_bstrings f1 sa1 sb1 = Ok (a1, b1) /\ to_bstrings f2 sa2 sb2 = Ok (a2, b2) /\
  boundary_confusion_matrix exactA E (default_weights exactA) f n_t sa sb = Ok m /\
  boundary_confusion_matrix exactA E1 (default_weights exactA) f1 n_t sa1 sb1 = Ok m1 /\
  boundary_confusion_matrix exactA E2 (default_weights exactA) f2 n_t sa2 sb2 = Ok m2.

(** How many gaps of the agreed stretch have type [t]. *)
Definition found (z : bstring) (t : Z) : Q := inject_Z (Z.of_nat (countP (fun s : gset Z => t ∈ s) z)).

(** Correct boundaries of a type: those of the parts, and those in the agreed stretch. *)
Theorem C92_cells : forall a1 b1 z a2 b2 n_t m m1 m2, whole a1 b1 z a2 b2 n_t m m1 m2 -> forall t,
  (nval (cell m (Some t) (Some t)) == nval (cell m1 (Some t) (Some t)) + nval (cell m2 (Some t) (Some t)) + found z t)%Q.
Proof.
  intros * (E & E1 & E2 & f & f1 & f2 & sa & sb & sa1 & sb1 & sa2 & sb2 & HE & HE1 & HE2 & H1 & H2 & Hz & Hn & Hs & Hb & Hb1 & Hb2 & Hm & Hm1 & Hm2).
  exact (diagonal_join _ _ _ _ _ _ H1 H2 Hz _ _ _ HE HE1 HE2 Hs _ _ _ _ _ _ _ _ _ Hb Hb1 Hb2 Hn _ _ _ Hm Hm1 Hm2).
Qed.
Print Assumptions C92_cells.

(** Precision of a type is the average of the precisions of the parts, weighted by the
    boundaries they contribute; agreed boundaries between the parts count as a part of
    precision 1. So it is at least the smaller of the two and, if there are no agreed
    boundaries of the type, at most the larger. *)
Theorem C92_precision : forall a1 b1 z a2 b2 n_t m m1 m2, whole a1 b1 z a2 b2 n_t m m1 m2 ->
  forall o o1 o2, cord_ok o -> cord_ok o1 -> cord_ok o2 -> forall t ver ver1 ver2, let c := Some t in
  exists p p1 p2 n n1 n2, precision exactA o m c ver = Ok (NDec p, n) /\ precision exactA o1 m1 c ver1 = Ok (NDec p1, n1) /\ precision exactA o2 m2 c ver2 = Ok (NDec p2, n2) /\
    ((row_sum m1 c + row_sum m2 c + found z t) * p == row_sum m1 c * p1 + row_sum m2 c * p2 + found z t)%Q /\
    (p1 <= p \/ p2 <= p)%Q /\ (found z t == 0 -> p <= p1 \/ p <= p2)%Q.
Proof.
  intros * (E & E1 & E2 & f & f1 & f2 & sa & sb & sa1 & sb1 & sa2 & sb2 & HE & HE1 & HE2 & H1 & H2 & Hz & Hn & Hs & Hb & Hb1 & Hb2 & Hm & Hm1 & Hm2) * HO HO1 HO2.
  exact (class_join _ _ _ _ _ _ H1 H2 Hz _ _ _ HE HE1 HE2 Hs _ _ _ _ _ _ _ _ _ Hb Hb1 Hb2 Hn _ _ _ Hm Hm1 Hm2 _ _ _ HO HO1 HO2).
Qed.
Print Assumptions C92_precision.

Theorem C92_recall : forall a1 b1 z a2 b2 n_t m m1 m2, whole a1 b1 z a2 b2 n_t m m1 m2 ->
  forall o o1 o2, cord_ok o -> cord_ok o1 -> cord_ok o2 -> forall t ver ver1 ver2, let c := Some t in
  exists r r1 r2 n n1 n2, recall exactA o m c ver = Ok (NDec r, n) /\ recall exactA o1 m1 c ver1 = Ok (NDec r1, n1) /\ recall exactA o2 m2 c ver2 = Ok (NDec r2, n2) /\
    ((col_sum m1 c + col_sum m2 c + found z t) * r == col_sum m1 c * r1 + col_sum m2 c * r2 + found z t)%Q /\
    (r1 <= r \/ r2 <= r)%Q /\ (found z t == 0 -> r <= r1 \/ r <= r2)%Q.
Proof.
  intros * (E & E1 & E2 & f & f1 & f2 & sa & sb & sa1 & sb1 & sa2 & sb2 & HE & HE1 & HE2 & H1 & H2 & Hz & Hn & Hs & Hb & Hb1 & Hb2 & Hm & Hm1 & Hm2) * HO HO1 HO2.
  exact (class_join_recall _ _ _ _ _ _ H1 H2 Hz _ _ _ HE HE1 HE2 Hs _ _ _ _ _ _ _ _ _ Hb Hb1 Hb2 Hn _ _ _ Hm Hm1 Hm2 _ _ _ HO HO1 HO2).
Qed.
Print Assumptions C92_recall.

Theorem C92_fmeasure : forall a1 b1 z a2 b2 n_t m m1 m2, whole a1 b1 z a2 b2 n_t m m1 m2 ->
  forall o o1 o2, cord_ok o -> cord_ok o1 -> cord_ok o2 -> forall beta t ver ver1 ver2, exists v v1 v2 n n1 n2,
  fmeasure exactA o beta m (Some t) ver = Ok (v, n) /\ fmeasure exactA o1 beta m1 (Some t) ver1 = Ok (v1, n1) /\ fmeasure exactA o2 beta m2 (Some t) ver2 = Ok (v2, n2) /\
  (nval v1 <= nval v \/ nval v2 <= nval v)%Q /\ (found z t == 0 -> nval v <= nval v1 \/ nval v <= nval v2)%Q.
Proof.
  intros * (E & E1 & E2 & f & f1 & f2 & sa & sb & sa1 & sb1 & sa2 & sb2 & HE & HE1 & HE2 & H1 & H2 & Hz & Hn & Hs & Hb & Hb1 & Hb2 & Hm & Hm1 & Hm2) * HO HO1 HO2.
  exact (f_join _ _ _ _ _ _ H1 H2 Hz _ _ _ HE HE1 HE2 Hs _ _ _ _ _ _ _ _ _ Hb Hb1 Hb2 Hn _ _ _ Hm Hm1 Hm2 _ _ _ HO HO1 HO2).
Qed.
Print Assumptions C92_fmeasure.

(** The micro-average likewise, over the sum of all cells. *)
Theorem C92_micro : forall a1 b1 z a2 b2 n_t m m1 m2, whole a1 b1 z a2 b2 n_t m m1 m2 ->
  forall o o1 o2, cord_ok o -> cord_ok o1 -> cord_ok o2 -> exists v v1 v2, let g := inject_Z (Z.of_nat (nbounds z)) in
  rmap fst (precision exactA o m None AvgMicro) = Ok v /\ rmap fst (precision exactA o1 m1 None AvgMicro) = Ok v1 /\ rmap fst (precision exactA o2 m2 None AvgMicro) = Ok v2 /\
  rmap fst (recall exactA o m None AvgMicro) = Ok v /\ rmap fst (recall exactA o1 m1 None AvgMicro) = Ok v1 /\ rmap fst (recall exactA o2 m2 None AvgMicro) = Ok v2 /\
  (SpecML.total m == SpecML.total m1 + SpecML.total m2 + g)%Q /\ (SpecML.total m * nval v == SpecML.total m1 * nval v1 + SpecML.total m2 * nval v2 + g)%Q /\
  (nval v1 <= nval v \/ nval v2 <= nval v)%Q /\ (nbounds z = 0%nat -> nval v <= nval v1 \/ nval v <= nval v2)%Q.
Proof.
  intros * (E & E1 & E2 & f & f1 & f2 & sa & sb & sa1 & sb1 & sa2 & sb2 & HE & HE1 & HE2 & H1 & H2 & Hz & Hn & Hs & Hb & Hb1 & Hb2 & Hm & Hm1 & Hm2) * HO HO1 HO2.
  exact (micro_join _ _ _ _ _ _ H1 H2 Hz _ _ _ HE HE1 HE2 Hs _ _ _ _ _ _ _ _ _ Hb Hb1 Hb2 Hn _ _ _ Hm Hm1 Hm2 _ _ _ HO HO1 HO2).
Qed.
Print Assumptions C92_micro.

Definition o0 : cord := fun s => elements s.
Definition p1 : bstring := [{[1]}; ∅; ∅].
Definition q1 : bstring := [∅; {[1]}; ∅].
Definition mid : bstring := [{[1]}].
Definition p2 : bstring := [{[1]}; ∅; ∅; {[1]}].
Definition q2 : bstring := [∅; ∅; ∅; {[1]}].
Definition mat (x y : bstring) : res cmatrix := boundary_confusion_matrix exactA env0 (default_weights exactA) FSets 2 (Sets x) (Sets y).
Definition got (g : cmatrix -> res (num * cmatrix)) (r : res cmatrix) : res num := rmap fst (bind r g).

Lemma mat_returns (x y : bstring) : match mat x y with Ok _ => true | Err _ => false end = true -> exists m, mat x y = Ok m.
Proof. destruct (mat x y) as [m|]; [eauto|discriminate]. Qed.

(** A near miss before the agreed boundary; a match and a miss behind it: recall of the parts
    1 and 1/2 (on 1/2 and 2 boundaries), of the whole 5/7. *)
Example C92_case : (exists m m1 m2, whole p1 q1 mid p2 q2 2 m m1 m2) /\ cord_ok o0 /\ (found mid 1 == 1)%Q /\
  got (fun m => recall exactA o0 m (Some 1) AvgMicro) (mat p1 q1) = Ok (NDec 1) /\
  got (fun m => recall exactA o0 m (Some 1) AvgMicro) (mat p2 q2) = Ok (NDec (1 # 2)) /\
  got (fun m => recall exactA o0 m (Some 1) AvgMicro) (mat (p1 ++ mid ++ p2) (q1 ++ mid ++ q2)) = Ok (NDec (5 # 7)) /\
  got (fun m => precision exactA o0 m None AvgMicro) (mat p2 q2) = Ok (NDec (1 # 2)) /\
  got (fun m => precision exactA o0 m None AvgMicro) (mat (p1 ++ mid ++ p2) (q1 ++ mid ++ q2)) = Ok (NDec (5 # 7)) /\
  got (fun m => fmeasure exactA o0 1 m (Some 1) AvgMicro) (mat p2 q2) = Ok (NDec (2 # 3)) /\
  got (fun m => fmeasure exactA o0 1 m (Some 1) AvgMicro) (mat (p1 ++ mid ++ p2) (q1 ++ mid ++ q2)) = Ok (NDec (5 # 6)).
Proof.
  split.
  { destruct (mat_returns (p1 ++ mid ++ p2) (q1 ++ mid ++ q2) ltac:(vm_compute; reflexivity)) as [m K].
    destruct (mat_returns p1 q1 ltac:(vm_compute; reflexivity)) as [m1 K1]. destruct (mat_returns p2 q2 ltac:(vm_compute; reflexivity)) as [m2 K2].
    exists m, m1, m2. exists env0, env0, env0, FSets, FSets, FSets, (Sets (p1 ++ mid ++ p2)), (Sets (q1 ++ mid ++ q2)), (Sets p1), (Sets q1), (Sets p2), (Sets q2).
    do 3 (split; [exact env0_ok|]). split; [reflexivity|]. split; [reflexivity|]. split; [vm_compute; discriminate|]. split; [reflexivity|].
    split; [apply small_typesb; vm_compute; reflexivity|]. do 3 (split; [vm_compute; reflexivity|]). unfold mat in K, K1, K2. auto. }
  split; [intros s; reflexivity|]. split; [vm_compute; reflexivity|]. repeat split; vm_compute; reflexivity.
Qed.

Definition gap : bstring := [∅].
Definition x1 : bstring := [{[1]}; ∅; ∅].
Definition y1 : bstring := [{[1]}; {[2]}; {[2]}].
Definition x2 : bstring := [{[2]}; ∅; ∅].
Definition y2 : bstring := [{[2]}; {[1]}; {[1]}].

(** The macro-average has no such bound: here it is 1/3 for each part and 2/9 for the whole. *)
Theorem C92_macro_refuted : ~ (forall a1 b1 z a2 b2 n_t m m1 m2, whole a1 b1 z a2 b2 n_t m m1 m2 ->
  forall v v1 v2, rmap fst (precision exactA o0 m None AvgMacro) = Ok v -> rmap fst (precision exactA o0 m1 None AvgMacro) = Ok v1 ->
  rmap fst (precision exactA o0 m2 None AvgMacro) = Ok v2 -> (nval v1 <= nval v \/ nval v2 <= nval v)%Q).
Proof.
  intros H.
  destruct (mat_returns (x1 ++ gap ++ x2) (y1 ++ gap ++ y2) ltac:(vm_compute; reflexivity)) as [m K].
  destruct (mat_returns x1 y1 ltac:(vm_compute; reflexivity)) as [m1 K1]. destruct (mat_returns x2 y2 ltac:(vm_compute; reflexivity)) as [m2 K2].
  assert (Q : got (fun m => precision exactA o0 m None AvgMacro) (mat (x1 ++ gap ++ x2) (y1 ++ gap ++ y2)) = Ok (NDec (2 # 9))) by (vm_compute; reflexivity).
  assert (Q1 : got (fun m => precision exactA o0 m None AvgMacro) (mat x1 y1) = Ok (NDec (1 # 3))) by (vm_compute; reflexivity).
  assert (Q2 : got (fun m => precision exactA o0 m None AvgMacro) (mat x2 y2) = Ok (NDec (1 # 3))) by (vm_compute; reflexivity).
  unfold got in Q, Q1, Q2. rewrite K in Q. rewrite K1 in Q1. rewrite K2 in Q2. cbn [bind] in Q, Q1, Q2.
  assert (T : whole x1 y1 gap x2 y2 2 m m1 m2); [|destruct (H _ _ _ _ _ _ _ _ _ T _ _ _ Q Q1 Q2) as [J|J]; vm_compute in J; apply J; reflexivity].
  exists env0, env0, env0, FSets, FSets, FSets, (Sets (x1 ++ gap ++ x2)), (Sets (y1 ++ gap ++ y2)), (Sets x1), (Sets y1), (Sets x2), (Sets y2).
  do 3 (split; [exact env0_ok|]). split; [reflexivity|]. split; [reflexivity|]. split; [vm_compute; discriminate|]. split; [reflexivity|].
  split; [apply small_typesb; vm_compute; reflexivity|]. do 3 (split; [vm_compute; reflexivity|]). unfold mat in K, K1, K2. auto.
Qed.
Print Assumptions C92_macro_refuted.
