(** Specification of the layout of JSON texts: indentation, line breaks, order of keys. *)
From Coq Require Export Sorted.
From Verif Require Export SpecJson.
Open Scope Z_scope.

(** A reader of a text: outside of strings, inside of one, or behind a backslash in one; and the
    number of brackets that are open. *)
Inductive mode := Outside | Inside | Escaped.
Definition opening (c : char) : Prop := c = chr 91 \/ c = chr 123.
Definition closing (c : char) : Prop := c = chr 93 \/ c = chr 125.
Global Instance opening_dec c : Decision (opening c) := ltac:(unfold opening; apply _).
Global Instance closing_dec c : Decision (closing c) := ltac:(unfold closing; apply _).
Definition step (s : mode * Z) (c : char) : mode * Z :=
  match fst s with
  | Escaped => (Inside, snd s)
  | Inside => if decide (c = chr 34) then (Outside, snd s) else if decide (c = chr 92) then (Escaped, snd s) else s
  | Outside => if decide (c = chr 34) then (Inside, snd s)
               else if decide (opening c) then (Outside, snd s + 1) else if decide (closing c) then (Outside, snd s - 1) else s
  end.
Definition read (s : mode * Z) (t : text) : mode * Z := foldl step s t.

Definition white (c : char) : Prop := c = chr 32 \/ c = chr 10.

(** What follows a character outside of strings when [d] brackets are open before it. *)
Definition follows (d : Z) (c : char) (b : text) : Prop :=
  (c = chr 10 -> exists n x b', b = replicate (4 * n) (chr 32) ++ x :: b' /\ ~ white x /\ Z.of_nat n = if decide (closing x) then d - 1 else d) /\
  (c = chr 44 -> exists b', b = chr 10 :: b') /\
  (c = chr 58 -> exists x b', b = chr 32 :: x :: b' /\ ~ white x) /\
  (opening c -> exists x b', b = x :: b' /\ (x = chr 10 \/ closing x)).

(** Every line is indented by four spaces for each open bracket, a closing one at its front not
    counted; lines end behind commas and behind opening brackets, unless the closing one follows; a
    space follows a colon. *)
Definition laid_out_from (s : mode * Z) (t : text) : Prop :=
  forall a c b, t = a ++ c :: b -> fst (read s a) = Outside -> follows (snd (read s a)) c b.
Definition laid_out (t : text) : Prop := laid_out_from (Outside, 0) t.

(** The keys of every object increase. *)
Fixpoint sorted (j : json) : Prop :=
  match j with
  | JArr l => (fix all l := match l with [] => True | x :: l' => sorted x /\ all l' end) l
  | JObj l => StronglySorted (fun k k' => String.compare k k' = Lt) l.*1 /\
              (fix all l := match l with [] => True | (_, x) :: l' => sorted x /\ all l' end) l
  | _ => True
  end.
