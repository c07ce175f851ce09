(** Pairwise values and their summary over two datasets put one after the other. *)
From Coq Require Import Lqa.
From stdpp Require Import gmap.
From Verif Require Import SpecDispatch SpecMath SpecML Spec Dispatch Round MathProofs DispatchMain BothOrders MLSums SimStats.
Open Scope Z_scope.

Lemma length_pos {X} (l : list X) : l <> [] -> (0 < inject_Z (zlen l))%Q.
Proof. intros H. rewrite <- (Zlt_Qlt 0). unfold zlen. destruct l; [contradiction|cbn [length]; lia]. Qed.

Lemma length_app {X} (l k : list X) : (inject_Z (zlen (l ++ k)) == inject_Z (zlen l) + inject_Z (zlen k))%Q.
Proof. rewrite <- inject_Z_plus. apply inject_Z_injective. unfold zlen. rewrite app_length. lia. Qed.

(** Variance as the mean of the squares minus the square of the mean. *)
Lemma variance_squares xs : xs <> [] ->
  (variance xs == qsum ((fun x => (x * x)%Q) <$> xs) / inject_Z (zlen xs) - average xs * average xs)%Q.
Proof.
  intros Hne. pose proof (length_pos xs Hne) as P. unfold variance. set (a := average xs).
  assert (L : zlen ((fun x => ((x - a) * (x - a))%Q) <$> xs) = zlen xs) by (unfold zlen; rewrite fmap_length; reflexivity).
  unfold average at 1. rewrite L.
  assert (E : forall l, (qsum ((fun x => ((x - a) * (x - a))%Q) <$> l) == qsum ((fun x => (x * x)%Q) <$> l) - 2 * a * qsum l + inject_Z (zlen l) * (a * a))%Q).
  { induction l as [|x l IH]; [rewrite !fmap_nil; change (qsum []) with 0%Q; change (inject_Z (zlen (@nil Q))) with 0%Q; ring|]. rewrite !fmap_cons, !qsum_cons, IH.
    assert (Z : zlen (x :: l) = 1 + zlen l) by (unfold zlen; cbn [length]; lia). rewrite Z, inject_Z_plus. change (inject_Z 1) with 1%Q. ring. }
  rewrite E. assert (A : (qsum xs == a * inject_Z (zlen xs))%Q) by (unfold a, average; field; lra). rewrite A. field. lra.
Qed.

Lemma average_app xs ys : xs <> [] -> ys <> [] -> let n := inject_Z (zlen xs) in let k := inject_Z (zlen ys) in
  (average (xs ++ ys) == (n * average xs + k * average ys) / (n + k))%Q.
Proof. intros Hx Hy n k. pose proof (length_pos xs Hx). pose proof (length_pos ys Hy). unfold average. rewrite qsum_app, length_app. fold n k. field. unfold n, k. repeat split; lra. Qed.

Lemma variance_app xs ys : xs <> [] -> ys <> [] -> let n := inject_Z (zlen xs) in let k := inject_Z (zlen ys) in
  (variance (xs ++ ys) == (n * variance xs + k * variance ys) / (n + k) + n * k * ((average xs - average ys) * (average xs - average ys)) / ((n + k) * (n + k)))%Q.
Proof.
  intros Hx Hy n k. pose proof (length_pos xs Hx) as P. pose proof (length_pos ys Hy) as K.
  rewrite !variance_squares by (assumption || (intros C; apply app_eq_nil in C as [C _]; contradiction)). rewrite average_app by assumption. fold n k.
  rewrite fmap_app, qsum_app, length_app. fold n k. fold n in P. fold k in K. generalize (average xs), (average ys). intros a b. field. repeat split; lra.
Qed.

(** Summaries. *)
Lemma summary_joined p q r : Forall not_float p.*2 -> Forall not_float q.*2 -> r ≡ₚ p ++ q ->
  forall m s v e n m' s' v' e' n', summarize exactA p = Ok (m, s, v, e, n) -> summarize exactA q = Ok (m', s', v', e', n') ->
  exists M S V E, summarize exactA r = Ok (NDec M, NDec S, NDec V, NDec E, n + n') /\
    (let x := inject_Z n in let y := inject_Z n' in
     M == (x * nval m + y * nval m') / (x + y) /\
     V == (x * nval v + y * nval v') / (x + y) + x * y * ((nval m - nval m') * (nval m - nval m')) / ((x + y) * (x + y)))%Q.
Proof.
  intros HF HF' HP m s v e n m' s' v' e' n' E E'.
  assert (Hne : p <> []) by (intros ->; discriminate). assert (Hne' : q <> []) by (intros ->; discriminate).
  destruct (summarize_inv exactA p m s v e n sane_exactA Hne HF E) as (-> & -> & -> & -> & ->).
  destruct (summarize_inv exactA q m' s' v' e' n' sane_exactA Hne' HF' E') as (-> & -> & -> & -> & ->). cbn [nval].
  assert (Hr : r <> []) by (intros ->; apply Permutation_nil in HP; apply app_eq_nil in HP as [HP _]; contradiction).
  assert (Fr : Forall not_float r.*2) by (rewrite HP, fmap_app; apply Forall_app; auto).
  destruct (summary_exact r Hr Fr) as (M & S & V & X & G & HM & HV & _).
  assert (Z : zlen r = zlen p + zlen q) by (unfold zlen; rewrite HP, app_length; lia). rewrite Z in G.
  exists M, S, V, X. split; [exact G|]. cbv zeta.
  assert (HX : nval <$> r.*2 ≡ₚ (nval <$> p.*2) ++ (nval <$> q.*2)) by (rewrite HP, !fmap_app; reflexivity).
  assert (N1 : nval <$> p.*2 <> []) by (destruct p; [contradiction|discriminate]). assert (N2 : nval <$> q.*2 <> []) by (destruct q; [contradiction|discriminate]).
  assert (L1 : zlen (nval <$> p.*2) = zlen p) by (unfold zlen; rewrite !fmap_length; reflexivity). assert (L2 : zlen (nval <$> q.*2) = zlen q) by (unfold zlen; rewrite !fmap_length; reflexivity).
  split.
  - rewrite HM, (average_perm _ _ HX), average_app by assumption. rewrite L1, L2, !rmean_exact. reflexivity.
  - rewrite HV. rewrite (qvar_eq (nval <$> r.*2)), (qvar_perm _ _ HX), <- qvar_eq, variance_app by assumption. rewrite L1, L2, !rmean_exact, !rvar_exact, !qvar_eq. reflexivity.
Qed.

(** Pairwise values. *)
Lemma before_app {C} (ia ib : dict (dict C)) item c1 c2 a b : before (ia ++ ib) item c1 c2 a b <-> before ia item c1 c2 a b \/ before ib item c1 c2 a b.
Proof.
  split.
  - intros (cs & i & j & H & K). apply elem_of_app in H as [H|H]; [left|right]; exists cs, i, j; auto.
  - intros [(cs & i & j & H & K)|(cs & i & j & H & K)]; exists cs, i, j; rewrite elem_of_app; auto.
Qed.

Section joined.
Context {R : Type} (metric : seg -> seg -> res R) (lord : gset string -> list string) (HL : lord_ok lord) (ia ib : dict (dict seg))
  (HO : items_ok (ia ++ ib)) (HC : plain_coders (ia ++ ib)).

Lemma parts_ok : items_ok ia /\ items_ok ib /\ plain_coders ia /\ plain_coders ib.
Proof.
  destruct HO as [H1 H2]. unfold dict_ok in H1. rewrite fmap_app in H1. apply NoDup_app in H1 as (N1 & _ & N2).
  split; [split; [exact N1|intros item cs H; apply (H2 item cs), elem_of_app; auto]|]. split; [split; [exact N2|intros item cs H; apply (H2 item cs), elem_of_app; auto]|].
  split; intros item cs c s H K; (apply (HC item cs c s); [apply elem_of_app; auto|exact K]).
Qed.

Lemma values_joined da db : compute_pairwise_values metric lord false ia None = Ok da -> compute_pairwise_values metric lord false ib None = Ok db ->
  exists d, compute_pairwise_values metric lord false (ia ++ ib) None = Ok d /\ d ≡ₚ da ++ db.
Proof.
  intros Ha Hb. destruct parts_ok as (Oa & Ob & Ca & Cb).
  destruct (proj2 (proj1 (one_dataset_returns metric lord (ia ++ ib) HL HO))) as [d Hd].
  { intros item c1 c2 a b H. apply before_app in H as [H|H].
    - exact (proj1 (proj1 (one_dataset_returns metric lord ia HL Oa)) (ex_intro _ da Ha) item c1 c2 a b H).
    - exact (proj1 (proj1 (one_dataset_returns metric lord ib HL Ob)) (ex_intro _ db Hb) item c1 c2 a b H). }
  exists d. split; [exact Hd|].
  destruct (one_dataset_plain metric lord _ _ HL HO HC Hd) as (D1 & D2 & D3).
  destruct (one_dataset_plain metric lord _ _ HL Oa Ca Ha) as (_ & A2 & A3). destruct (one_dataset_plain metric lord _ _ HL Ob Cb Hb) as (_ & B2 & B3).
  apply Permutation.NoDup_Permutation_bis.
  - apply NoDup_ListNoDup. exact (NoDup_fmap_1 fst d D1).
  - rewrite fmap_app in D3. assert (SA : forall l k : list nat, sum_list (l ++ k) = (sum_list l + sum_list k)%nat) by (induction l as [|x l IH]; intros k; [reflexivity|cbn; rewrite IH; lia]). rewrite SA in D3. rewrite app_length. lia.
  - intros [k v] H. apply elem_of_list_In in H. apply elem_of_list_In, elem_of_app. apply D2 in H as (item & c1 & c2 & a & b & -> & H & G).
    apply before_app in H as [H|H]; [left; apply A2|right; apply B2]; exists item, c1, c2, a, b; auto.
Qed.

Theorem joined (w : R -> num) da db : compute_pairwise_values metric lord false ia None = Ok da -> compute_pairwise_values metric lord false ib None = Ok db ->
  exists d, compute_pairwise_values metric lord false (ia ++ ib) None = Ok d /\ d ≡ₚ da ++ db /\
  (Forall not_float (w <$> da.*2) -> Forall not_float (w <$> db.*2) ->
   forall m s v e n m' s' v' e' n', summarize exactA (numbers w da) = Ok (m, s, v, e, n) -> summarize exactA (numbers w db) = Ok (m', s', v', e', n') ->
   exists M S V E, summarize exactA (numbers w d) = Ok (NDec M, NDec S, NDec V, NDec E, n + n') /\
    (let x := inject_Z n in let y := inject_Z n' in
     M == (x * nval m + y * nval m') / (x + y) /\
     V == (x * nval v + y * nval v') / (x + y) + x * y * ((nval m - nval m') * (nval m - nval m')) / ((x + y) * (x + y)))%Q).
Proof.
  intros Ha Hb. destruct (values_joined da db Ha Hb) as (d & Hd & HP). exists d. split; [exact Hd|]. split; [exact HP|]. intros Fa Fb.
  apply summary_joined; [rewrite numbers_snd; exact Fa|rewrite numbers_snd; exact Fb|]. unfold numbers. rewrite HP, fmap_app. reflexivity.
Qed.
End joined.
