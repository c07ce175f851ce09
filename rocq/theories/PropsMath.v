(** Properties C58-C59: summary statistics and Decimal arithmetic (segeval/util/math.py,
    segeval/compute.py). *)
From Coq Require Import Lqa.
From Verif Require Import SpecMath SpecML Spec Round Dispatch RoundProofs MathProofs RoundSpec MLCases.
Open Scope Q_scope.

(** ** C58 *)

(** In exact arithmetic [summarize] gives the mean and the population variance; the
    standard deviation is the root of the variance, the standard error the root of
    variance/n, both to 26 digits. *)
Theorem C58_exact : forall pairs, pairs <> [] -> Forall not_float pairs.*2 -> let xs := nval <$> pairs.*2 in let n := inject_Z (zlen pairs) in
  exists m s v e, summarize exactA pairs = Ok (NDec m, NDec s, NDec v, NDec e, zlen pairs) /\ m == average xs /\ v == variance xs /\
    near_root s v (5 # 10 ^ 28) /\ near_root e (v / n) (2 # 10 ^ 27).
Proof. exact summary_exact. Qed.
Print Assumptions C58_exact.

(** With 28 digits, for values of size at most [B]: the error grows with the number of
    values. *)
Theorem C58_rounded : forall A pairs (B : Q), sane A -> pairs <> [] -> Forall not_float pairs.*2 -> (zlen pairs <= 10 ^ 24)%Z ->
  (forall x, x ∈ nval <$> pairs.*2 -> Qabs x <= B) -> let xs := nval <$> pairs.*2 in let n := inject_Z (zlen pairs) in
  exists m s v e, summarize A pairs = Ok (NDec m, NDec s, NDec v, NDec e, zlen pairs) /\
    Qabs (m - average xs) <= (n + 1) * B / inject_Z (10 ^ 27) /\ 0 <= v /\ Qabs (v - variance xs) <= (8 * n + 19) * (B * B) / inject_Z (10 ^ 27) /\
    near_root s v (5 # 10 ^ 28) /\ near_root e (v / n) (2 # 10 ^ 27).
Proof. exact summary_rounded. Qed.
Print Assumptions C58_rounded.

Theorem C58_python : sane pyA.
Proof. exact sane_pyA. Qed.
Print Assumptions C58_python.

(** The mean lies between the extremes; the variance is not negative, 0 exactly if all
    values are equal, and at most a quarter of the squared spread. *)
Theorem C58_mean_between : forall xs lo hi, xs <> [] -> (forall x, x ∈ xs -> lo <= x /\ x <= hi) -> lo <= average xs /\ average xs <= hi.
Proof. exact qmean_between. Qed.
Print Assumptions C58_mean_between.

Theorem C58_variance_zero : forall xs, xs <> [] -> 0 <= variance xs /\ (variance xs == 0 <-> forall x y, x ∈ xs -> y ∈ xs -> x == y).
Proof. exact (fun xs H => eq_ind_r (fun v => 0 <= v /\ (v == 0 <-> _)) (conj (qvar_pos xs H) (qvar_zero xs H)) (qvar_eq xs)). Qed.
Print Assumptions C58_variance_zero.

Theorem C58_variance_spread : forall xs lo hi, xs <> [] -> (forall x, x ∈ xs -> lo <= x /\ x <= hi) -> variance xs <= (hi - lo) * (hi - lo) / 4.
Proof. exact (fun xs lo hi H K => eq_ind_r (fun v => v <= _) (qvar_spread xs lo hi H K) (qvar_eq xs)). Qed.
Print Assumptions C58_variance_spread.

(** With 28 digits the same holds if the values are multiples of one decimal place and
    their sum has 28 digits (ints, or the same number of decimals). *)
Theorem C58_grid : forall e zs pairs lo hi m s v se n, Forall2 (grid e) zs (nval <$> pairs.*2) -> (zsum (Z.abs <$> zs) <= 10 ^ 28)%Z -> Forall not_float pairs.*2 ->
  summarize pyA pairs = Ok (m, s, v, se, n) -> lo ∈ nval <$> pairs.*2 -> hi ∈ nval <$> pairs.*2 ->
  (forall x, x ∈ nval <$> pairs.*2 -> lo <= x /\ x <= hi) ->
  lo <= nval m /\ nval m <= hi /\ (lo == hi -> nval v == 0 /\ nval s == 0 /\ nval se == 0).
Proof. exact summary_grid. Qed.
Print Assumptions C58_grid.

(** The mean of values in [0,1] is in [0,1]. *)
Theorem C58_unit : forall pairs, (zlen pairs <= 10 ^ 28)%Z -> pairs <> [] -> Forall not_float pairs.*2 -> (forall x, x ∈ nval <$> pairs.*2 -> 0 <= x /\ x <= 1) ->
  forall m s v se n, summarize pyA pairs = Ok (m, s, v, se, n) -> 0 <= nval m /\ nval m <= 1.
Proof. exact summary_unit. Qed.
Print Assumptions C58_unit.

(** The order of the values does not matter in exact arithmetic. *)
Theorem C58_order : forall pairs pairs', pairs ≡ₚ pairs' -> Forall not_float pairs.*2 -> forall m s v e n m' s' v' e' n',
  summarize exactA pairs = Ok (m, s, v, e, n) -> summarize exactA pairs' = Ok (m', s', v', e', n') ->
  nval m == nval m' /\ nval s == nval s' /\ nval v == nval v' /\ nval e == nval e' /\ n = n'.
Proof. exact summary_order. Qed.
Print Assumptions C58_order.

(** No values: InvalidOperation.  A float among them: TypeError. *)
Theorem C58_empty : forall A, summarize A [] = Err InvalidOperation.
Proof. exact summary_empty. Qed.
Print Assumptions C58_empty.

Theorem C58_float : forall A pairs, ~ Forall not_float pairs.*2 -> summarize A pairs = Err TypeError.
Proof. exact summarize_float. Qed.
Print Assumptions C58_float.

Definition two : dict num := [("a", NDec (1 # 4)); ("b", NDec (3 # 4))]%string.
Example C58_case :
  summarize pyA two = Ok (NDec (1 # 2), NDec (1 # 4), NDec (1 # 16), NDec (Qred (1767766952966368811002110906 # 10 ^ 28)), 2%Z) /\
  Forall2 (grid (-2)) [25; 75]%Z (nval <$> two.*2) /\ Forall not_float two.*2 /\ (forall x, x ∈ nval <$> two.*2 -> Qabs x <= 1) /\
  variance (nval <$> two.*2) == 1 # 16 /\ ~ Forall not_float (("c"%string, NFlt 1) :: two).*2 /\ reverse two ≡ₚ two.
Proof.
  split; [by_compute|]. split; [repeat constructor|]. split; [repeat constructor|]. split.
  { intros x Hx. cbn in Hx. rewrite !elem_of_cons, elem_of_nil in Hx. destruct Hx as [->|[->|[]]]; discriminate. }
  split; [reflexivity|]. split; [intros H; apply Forall_inv in H; exact H|]. apply reverse_Permutation.
Qed.

(** Without it the mean of equal values may lie below all of them and the variance need
    not be 0: three times 0.3333333333333333333333333334. *)
Definition third : num := NDec (3333333333333333333333333334 # 10 ^ 28).
Definition thirds : dict num := [("a", third); ("b", third); ("c", third)]%string.
Definition off (r : res (num * num * num * num * Z)) : bool :=
  match r with Ok (m, _, v, _, _) => negb (Qle_bool (nval third) (nval m)) && negb (Qeq_bool (nval v) 0) | Err _ => false end.
Lemma off_result r : off r = true -> exists m s v se n, r = Ok (m, s, v, se, n) /\ ~ nval third <= nval m /\ ~ nval v == 0.
Proof.
  intros H. destruct r as [[[[[m s] v] se] n]|e]; [|discriminate H]. unfold off in H.
  apply andb_true_iff in H as [H1 H2]. exists m, s, v, se, n. split; [reflexivity|]. split; intros K.
  - apply Qle_bool_iff in K. rewrite K in H1. discriminate H1.
  - apply Qeq_bool_iff in K. rewrite K in H2. discriminate H2.
Qed.
Lemma thirds_result : exists m s v se n, summarize pyA thirds = Ok (m, s, v, se, n) /\ ~ nval third <= nval m /\ ~ nval v == 0.
Proof. apply off_result. vm_compute. reflexivity. Qed.
Lemma thirds_values : forall x, x ∈ nval <$> thirds.*2 -> x = nval third.
Proof. intros x Hx. unfold thirds in Hx. cbn [fmap list_fmap fst snd] in Hx. rewrite !elem_of_cons, elem_of_nil in Hx. tauto. Qed.
Lemma thirds_decimal : Forall not_float thirds.*2.
Proof. unfold thirds, third. repeat constructor. Qed.

Theorem C58_rounded_mean_refuted : ~ forall pairs lo m s v se n, pairs <> [] -> Forall not_float pairs.*2 -> summarize pyA pairs = Ok (m, s, v, se, n) ->
  (forall x, x ∈ nval <$> pairs.*2 -> lo <= x) -> lo <= nval m.
Proof.
  intros H. destruct thirds_result as (m & s & v & se & n & E & Hm & _). apply Hm.
  apply (H thirds (nval third) m s v se n); [discriminate|exact thirds_decimal|exact E|]. intros x Hx. rewrite (thirds_values x Hx). apply Qle_refl.
Qed.
Print Assumptions C58_rounded_mean_refuted.

Theorem C58_rounded_variance_refuted : ~ forall pairs m s v se n, pairs <> [] -> Forall not_float pairs.*2 -> summarize pyA pairs = Ok (m, s, v, se, n) ->
  (forall x y, x ∈ nval <$> pairs.*2 -> y ∈ nval <$> pairs.*2 -> x == y) -> nval v == 0.
Proof.
  intros H. destruct thirds_result as (m & s & v & se & n & E & _ & Hv). apply Hv.
  apply (H thirds m s v se n); [discriminate|exact thirds_decimal|exact E|]. intros x y Hx Hy. rewrite (thirds_values x Hx), (thirds_values y Hy). reflexivity.
Qed.
Print Assumptions C58_rounded_variance_refuted.

(** ** C59 *)

(** Results of Decimal operations are rounded to 28 digits, half to even; those of float
    operations to 53 bits. *)
Theorem C59_half_even : forall x, rounded 10 28 x (rd pyA x).
Proof. exact (rnd_rounded 10 28 ltac:(lia) ltac:(lia)). Qed.
Print Assumptions C59_half_even.

Theorem C59_float : forall x, rounded 2 53 x (rf pyA x).
Proof. exact (rnd_rounded 2 53 ltac:(lia) ltac:(lia)). Qed.
Print Assumptions C59_float.

(** Numbers of 28 digits are not changed. *)
Theorem C59_exact : forall x, digits_in 10 28 x -> rd pyA x == x.
Proof. exact (rnd_id 10 28 ltac:(lia) ltac:(lia)). Qed.
Print Assumptions C59_exact.

Theorem C59_integers : forall z, (Z.abs z <= 10 ^ 28)%Z -> rd pyA (inject_Z z) == inject_Z z.
Proof. exact (rd_int pyA sane_pyA). Qed.
Print Assumptions C59_integers.

(** Rounding keeps the order and commutes with the sign. *)
Theorem C59_monotone : forall x y, x <= y -> rd pyA x <= rd pyA y.
Proof. exact (rd_mono pyA sane_pyA). Qed.
Print Assumptions C59_monotone.

Theorem C59_odd : forall x, rd pyA (- x) == - rd pyA x.
Proof. exact (rd_opp pyA sane_pyA). Qed.
Print Assumptions C59_odd.

Theorem C59_error : forall x, Qabs (rd pyA x - x) <= (5 # 10 ^ 28) * Qabs x.
Proof. exact pyA_error. Qed.
Print Assumptions C59_error.

(** Square roots. *)
Theorem C59_sqrt : forall v, 0 <= v -> near_root (dec_sqrt v) v (5 # 10 ^ 28).
Proof. exact sqrt_near. Qed.
Print Assumptions C59_sqrt.

(** Squares are rounded twice and have twice the error. *)
Theorem C59_square : forall x, Qabs (r2 pyA x - x) <= (1 # 10 ^ 27) * Qabs x.
Proof. exact pyA_square_error. Qed.
Print Assumptions C59_square.

Definition wide : Q := inject_Z 8061181385081017929242977665.
Lemma wide_off : Qle_bool (Qabs (r2 pyA (wide * wide) - wide * wide)) (Qabs (rd pyA (wide * wide) - wide * wide)) = false.
Proof. vm_compute. reflexivity. Qed.
Lemma wide_digits : digits_in 10 28 wide.
Proof. exists 8061181385081017929242977665%Z, 0%Z. split; [vm_compute; reflexivity|vm_compute; reflexivity]. Qed.
Theorem C59_square_refuted : ~ forall x, digits_in 10 28 x -> rounded 10 28 (x * x) (r2 pyA (x * x)).
Proof.
  intros H. destruct (H wide wide_digits) as (_ & N & _). specialize (N (rd pyA (wide * wide)) (proj1 (C59_half_even (wide * wide)))).
  apply Qle_bool_iff in N. pose proof wide_off as K. exact (diff_true_false (eq_trans (eq_sym N) K)).
Qed.
Print Assumptions C59_square_refuted.

Example C59_case :
  rd pyA (inject_Z (10 ^ 28 + 5)) == inject_Z (10 ^ 28) /\ rd pyA (inject_Z (10 ^ 28 + 15)) == inject_Z (10 ^ 28 + 20) /\
  rd pyA (2 # 3) == 6666666666666666666666666667 # 10 ^ 28 /\ ~ rd pyA (2 # 3) == 2 # 3 /\ digits_in 10 28 (3333333333333333333333333334 # 10 ^ 28) /\
  dec_sqrt 2 == 1414213562373095048801688724 # 10 ^ 27.
Proof.
  do 3 (split; [vm_compute; reflexivity|]). split; [intros H; vm_compute in H; discriminate H|]. split; [|vm_compute; reflexivity].
  exists 3333333333333333333333333334%Z, (-28)%Z. split; vm_compute; reflexivity.
Qed.
