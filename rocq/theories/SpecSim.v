(** Specifications for the similarity metrics. *)
From Verif Require Export Spec Similarity ML.
Open Scope Z_scope.

(** The summed spans of transpositions. *)
Definition spanned (l : list transposition) : Z :=
  zsum ((fun t => Z.of_nat (t_end t) - Z.of_nat (t_start t)) <$> l).

(** The exact weighted cost of edits: an addition costs 1, a substitution its
    distance in units of [sp], a transposition its span in units of [n_t]. *)
Definition edit_cost (e : edits) (sp n_t : Z) : Q :=
  inject_Z (zlen (e_add e)) + inject_Z (distance (e_sub e)) / inject_Z sp +
  inject_Z (spanned (e_transp e)) / inject_Z n_t.

(** [hi] and [lo] are the greatest and the least type used. *)
Definition extent (x y : bstring) (lo hi : Z) : Prop :=
  used x y lo /\ used x y hi /\ forall d, used x y d -> lo <= d <= hi.

(** Weights that look only at the number of additions, at the number and total
    distance of substitutions and at the set of transpositions. *)
Definition neutral (W : weights) : Prop :=
  (forall l l', length l = length l' -> w_a W l = w_a W l') /\
  (forall l l' hi lo, length l = length l' -> distance l = distance l' -> w_s W l hi lo = w_s W l' hi lo) /\
  (forall l l' n, l ≡ₚ l' -> w_t W l n = w_t W l' n).

(** [s] encodes the segmentation with masses [m] in format [f]. *)
Definition encodes (f : fmt) (m : list Z) (s : seg) : Prop :=
  match f, s with
  | FMass, Ints l => (pval <$> l) = m
  | FPosition, Ints p => zlen p = zsum m /\
      forall i u v, p !! i = Some u -> p !! S i = Some v -> (pval u <> pval v <-> cut m (Z.of_nat (S i)))
  | FNltk, Str t => zlen t = zsum m - 1 /\
      forall i c, t !! i = Some c -> (c = Ascii.ascii_of_nat 49 <-> cut m (Z.of_nat i + 1))
  | FSets, Sets b => zlen b = zsum m - 1 /\
      forall i t, b !! i = Some t -> (cut m (Z.of_nat i + 1) -> t = {[1]}) /\ (~ cut m (Z.of_nat i + 1) -> t = ∅)
  | _, _ => False
  end.

(** Results of B that differ at most in the edits they list. *)
Definition same_result (r r' : res bres) : Prop :=
  match r, r' with
  | Ok (BVal v), Ok (BVal v') => v = v'
  | Ok (BParts n d _), Ok (BParts n' d' _) => n = n' /\ d = d'
  | Err e, Err e' => e = e'
  | _, _ => False
  end.

(** All metrics based on boundary edit distance raise [e]. *)
Definition bed_fails (A : arith) (E : env) (W : weights) (f : fmt) (n_t : Z) (sa sb : seg) (e : exn) : Prop :=
  boundary_statistics A E W f n_t sa sb = Err e /\
  (forall om rp, boundary_similarity A E W f n_t om rp sa sb = Err e) /\
  (forall om rp, segmentation_similarity A E W f n_t om rp sa sb = Err e) /\
  boundary_confusion_matrix A E W f n_t sa sb = Err e.
