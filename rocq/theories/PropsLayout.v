(** Property C95: the layout of the JSON texts that are written
    (segeval/data/jsonutils.py:23-34: json.dump with sort_keys=True, indent=4). *)
From Verif Require Import SpecLayout SpecJson DataProofs JsonRound JsonLex JsonParse JsonPrint Layout.
Open Scope Z_scope.

(** Every line is indented by four spaces for each open bracket; lines end behind commas and
    opening brackets; a space follows a colon. *)
Theorem C95_layout : forall frepr j, floats_ok frepr j -> laid_out (dumps frepr j).
Proof. exact dumps_laid_out. Qed.
Print Assumptions C95_layout.

(** All brackets are closed and no string is left open. *)
Theorem C95_balanced : forall frepr j, floats_ok frepr j -> read (Outside, 0) (dumps frepr j) = (Outside, 0).
Proof. intros frepr j H. exact (proj1 (proj2 (print_placed frepr j 0%nat H))). Qed.
Print Assumptions C95_balanced.

(** The value that is read back has the keys of every object in increasing order. *)
Theorem C95_sorted : forall frepr j j', json_ok j -> floats_ok frepr j -> document j' (dumps frepr j) -> sorted j'.
Proof. exact dumps_sorted. Qed.
Print Assumptions C95_sorted.

Definition j95 : json := JObj [("b", JArr [JInt 12; JArr []]); ("a", JStr "x[,: ")]%string.
Definition nofloats (q : Q) : text := [].
Definition lines (l : list string) : text := join_with [chr 10] (map (fun s => map (fun c => if decide (c = chr 39) then chr 34 else c) (chars s)) l).
Example C95_case : json_ok j95 /\ floats_ok nofloats j95 /\ ~ sorted j95 /\
  dumps nofloats j95 = lines ["{"; "    'a': 'x[,: ',"; "    'b': ["; "        12,"; "        []"; "    ]"; "}"]%string.
Proof.
  split; [|split; [|split]].
  - cbn. repeat split; apply (bool_decide_unpack _); vm_compute; exact I.
  - cbn. repeat split.
  - intros [H _]. apply StronglySorted_inv in H as [_ H]. inversion H as [|? ? E _]. vm_compute in E. discriminate E.
  - vm_compute. reflexivity.
Qed.

(** Texts that are not laid out: an indentation of two, a comma within a line. *)
Example C95_not : ~ laid_out (lines ["["; "  1"; "]"]%string) /\ ~ laid_out (chars "[1, 2]") /\ document (JArr [JInt 1]) (lines ["["; "  1"; "]"]%string).
Proof.
  split; [|split].
  - intros H. destruct (H [chr 91] (chr 10) (chars "  1" ++ chr 10 :: chars "]") ltac:(vm_compute; reflexivity) ltac:(vm_compute; reflexivity)) as [K _].
    destruct (K eq_refl) as (n & x & b & E & Hx & _). destruct n as [|n]; [injection E as <- _; apply Hx; left; reflexivity|].
    replace (4 * S n)%nat with (S (S (S (4 * n + 1)))) in E by lia. cbn [replicate app] in E. injection E as E. discriminate E.
  - intros H. destruct (H [] (chr 91) (chars "1, 2]") ltac:(vm_compute; reflexivity) ltac:(vm_compute; reflexivity)) as (_ & _ & _ & K).
    destruct (K (or_introl eq_refl)) as (x & b & E & [-> | [-> | ->]]); discriminate E.
  - apply loads_spec. vm_compute. reflexivity.
Qed.
