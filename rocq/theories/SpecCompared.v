(** Which segmentations are compared when datasets are. *)
From Verif Require Import SpecDispatch Dispatch.

(** [a] and [b] are codings of the same item: of the first dataset and of the second, or
    both of the only one. *)
Definition compared_codings (ma : dict (dict seg)) (mb : option (dict (dict seg))) (a b : seg) : Prop :=
  exists label cs cs' c c', (label, cs) ∈ ma /\ (label, cs') ∈ default ma mb /\ (c, a) ∈ cs /\ (c', b) ∈ cs'.

(** The number in the result of a window metric. *)
Definition w_num (r : wres) : num := match r with WVal v => v | WParts n _ => NInt n end.
