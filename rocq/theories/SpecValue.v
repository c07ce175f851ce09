(** Chance agreement of a coded dataset, said without the loops that collect it. *)
From Verif Require Export SpecAgreement.
From Verif Require Import SpecML.
Open Scope Z_scope.

(** The part of what coders [c] and [c'] could mark in item [ic] that [c] marks. *)
Definition portion (f : fmt) (c c' : string) (ic : string * dict seg) : Q :=
  (inject_Z (marks (coding f c ic)) / inject_Z (room (coding f c ic) (coding f c' ic)))%Q.

(** Pi: the square of the mean portion, over items, pairs of coders and the two of a pair. *)
Definition pi_chance (f : fmt) (coders : list string) (items : dict (dict seg)) : Q :=
  let p := (qsum (gather (fun m n ic => portion f m n ic + portion f n m ic) coders items) /
            inject_Z (2 * zlen (comparisons coders items)))%Q in (p * p)%Q.

(** All that coder [c] marks, over all that could be marked, item by item and
    once for each other coder. *)
Definition pooled_portion (f : fmt) (coders : list string) (items : dict (dict seg)) (c : string) : Q :=
  let others := filter (fun d => d <> c) coders in
  (inject_Z (zlen others * zsum ((fun ic => marks (coding f c ic)) <$> items)) /
   inject_Z (zsum (others ≫= fun d => (fun ic => room (coding f c ic) (coding f d ic)) <$> items)))%Q.

(** Kappa: the mean over the pairs of coders of the product of their portions. *)
Definition kappa_chance (f : fmt) (coders : list string) (items : dict (dict seg)) : Q :=
  (qsum ((fun '(m, n) => pooled_portion f coders items m * pooled_portion f coders items n)%Q <$> two_of coders) /
   inject_Z (zlen (two_of coders)))%Q.

(** Agreement beyond chance. *)
Definition beyond (a e : Q) : Q := ((a - e) / (1 - e))%Q.

(** [items'] are the items [items], each [k] times, in any order and under any names. *)
Definition repeated (k : nat) (items items' : dict (dict seg)) : Prop :=
  items'.*2 ≡ₚ mjoin (replicate k items.*2).
