(** Closed forms of what the agreement functions compute. *)
From Coq Require Import Lqa.
From Verif Require Import SpecAgreement SpecML FormatProofs Round RoundProofs BedProofs BedTheory SimStats SimRound SimProofs SimTheory SimMain SimSym
  MLProofs MLSums DictProofs DispatchProofs DispatchMain.
Open Scope Z_scope.

(** ** Lists per coder *)

Section Group.
Context {V : Type}.
Implicit Types (d : dict (list V)) (E : list (string * V)).

Definition pushes d E := foldl (fun d '(k, v) => push d k v) d E.

Lemma pushes_app d E E' : pushes d (E ++ E') = pushes (pushes d E) E'.
Proof. unfold pushes. apply foldl_app. Qed.

Lemma push_touch d k v : push (touch d k) k v = push d k v.
Proof.
  unfold push, touch, dmem. destruct (dget d k) as [l|] eqn:Hd; [rewrite Hd; reflexivity|].
  rewrite dget_dset, decide_True by reflexivity. cbn [default]. apply dset_twice.
Qed.

Lemma touch_mem d k : k ∈ (touch d k).*1.
Proof.
  unfold touch. destruct (dmem d k) eqn:E; [apply dmem_true, E|]. apply dset_elem. left. reflexivity.
Qed.

Lemma push_touch_other d m n v : m <> n -> m ∈ d.*1 -> push (touch d n) m v = touch (push d m v) n.
Proof.
  intros Hne Hm. unfold touch, push, dmem. rewrite dget_dset, decide_False by congruence.
  destruct (dget d n) as [l|] eqn:Hd; [reflexivity|]. rewrite dget_dset, decide_False by congruence.
  apply dset_comm; assumption.
Qed.

Lemma touches d m n v w : push (push (touch (touch d m) n) m v) n w = push (push d m v) n w.
Proof.
  destruct (decide (m = n)) as [->|Hne].
  - f_equal. rewrite push_touch. apply push_touch.
  - rewrite push_touch_other by (try apply touch_mem; assumption). rewrite push_touch. f_equal. apply push_touch.
Qed.

Lemma dget_push d k v k' : dget (push d k v) k' = if decide (k' = k) then Some (default [] (dget d k) ++ [v]) else dget d k'.
Proof. apply dget_dset. Qed.

Lemma dget_pushes E : forall d k, dget (pushes d E) k =
  if decide (k ∈ E.*1) then Some (default [] (dget d k) ++ (filter (fun e => fst e = k) E).*2) else dget d k.
Proof.
  induction E as [|[k1 v] E IH]; intros d k.
  - cbn. destruct (decide (k ∈ [])) as [C|]; [apply elem_of_nil in C; contradiction|reflexivity].
  - cbn [pushes foldl]. change (foldl _ ?x E) with (pushes x E). rewrite IH. rewrite !dget_push. rewrite filter_cons. cbn [fst].
    destruct (decide (k = k1)) as [->|Hne].
    + rewrite (decide_True (P := k1 = k1)) by reflexivity. rewrite fmap_cons. cbn [fst snd].
      rewrite (decide_True (P := k1 ∈ k1 :: E.*1)) by left.
      destruct (decide (k1 ∈ E.*1)) as [C|C].
      * cbn [default id]. rewrite <- app_assoc. reflexivity.
      * f_equal. f_equal. replace (filter _ E) with (@nil (string * V)); [reflexivity|].
        symmetry. apply elem_of_nil_inv. intros [k2 v2] Hin. apply elem_of_list_filter in Hin as [Hk Hin]. cbn in Hk. subst k2. apply C, elem_of_list_fmap. exists (k1, v2). split; [reflexivity|exact Hin].
    + rewrite (decide_False (P := k1 = k)) by congruence. rewrite fmap_cons. cbn [fst].
      destruct (decide (k ∈ E.*1)) as [C|C].
      * rewrite decide_True by (right; exact C). reflexivity.
      * rewrite decide_False; [reflexivity|]. intros Hin. apply elem_of_cons in Hin as [?|?]; contradiction.
Qed.

Lemma pushes_keys E : forall d k, k ∈ (pushes d E).*1 <-> k ∈ d.*1 \/ k ∈ E.*1.
Proof.
  intros d k. rewrite <- (dget_is_Some (pushes d E)), <- (dget_is_Some d), dget_pushes. destruct (decide (k ∈ E.*1)) as [C|C].
  - split; [right; exact C|eauto].
  - split; [left; assumption|intros [?|?]; [assumption|contradiction]].
Qed.

Lemma pushes_ok E : forall d, dict_ok d -> dict_ok (pushes d E).
Proof.
  induction E as [|[k v] E IH]; intros d Hd; [exact Hd|]. cbn [pushes foldl]. change (foldl _ ?x E) with (pushes x E).
  apply IH. unfold push. apply dset_ok, Hd.
Qed.

Lemma push_values d k v : mjoin (push d k v).*2 ≡ₚ mjoin d.*2 ++ [v].
Proof.
  unfold push. induction d as [|[k1 l] d IH]; [reflexivity|]. cbn [dset dget].
  destruct (decide (k = k1)) as [->|Hne].
  - rewrite !fmap_cons. cbn [mjoin list_join snd default]. rewrite <- !app_assoc. apply Permutation_app_head, Permutation_app_comm.
  - rewrite !fmap_cons. cbn [mjoin list_join snd]. rewrite <- app_assoc. apply Permutation_app_head, IH.
Qed.

Lemma pushes_values E : forall d, mjoin (pushes d E).*2 ≡ₚ mjoin d.*2 ++ E.*2.
Proof.
  induction E as [|[k v] E IH]; intros d; [cbn; rewrite app_nil_r; reflexivity|].
  cbn [pushes foldl]. change (foldl _ ?x E) with (pushes x E). rewrite IH, push_values, <- app_assoc. reflexivity.
Qed.
End Group.

Notation group E := (pushes [] E).

(** ** The comparisons one by one *)

(** What one comparison contributes: numerator, denominator, potential
    boundaries, and the boundaries of the two coders. *)
Definition job (cmp : Agreement.compare) (f : fmt) (j : (string * string) * (string * dict seg)) : res (num * num * (Z * Z * Z)) :=
  let '((m, n), ic) := j in
  let* a := dlookup (snd ic) m in
  let* b := dlookup (snd ic) n in
  let* (p, q) := cmp f a b in
  let* t := potential_boundaries f a b in
  let* ba := boundaries f a in
  let* bb := boundaries f b in
  Ok ((p, q), (t, ba, bb)).

Definition entries_of (j : (string * string) * (string * dict seg)) (r : num * num * (Z * Z * Z)) : list (string * (Z * Z)) :=
  let '((m, n), _) := j in let '(_, (t, ba, bb)) := r in [(m, (ba, t)); (n, (bb, t))].

Definition jobs_of (coders : list string) (items : dict (dict seg)) :=
  p ← pairs2 coders; (fun ic => (p, ic)) <$> items.

Definition jstep cmp f (a : acc) (j : (string * string) * (string * dict seg)) : res acc :=
  agree_item cmp f (fst (fst j)) (snd (fst j)) a (snd j).

Lemma jstep_eq cmp f a j : jstep cmp f a j = let* r := job cmp f j in
  Ok (Acc (ac_num a ++ [fst (fst r)]) (ac_den a ++ [snd (fst r)]) (ac_pbs a ++ [fst (fst (snd r))]) (pushes (ac_bnd a) (entries_of j r))).
Proof.
  destruct j as [[m n] [i cs]]. unfold jstep, agree_item, job. cbn [fst snd].
  destruct (dlookup cs m) as [sa|]; [|reflexivity]. cbn [bind].
  destruct (dlookup cs n) as [sb|]; [|reflexivity]. cbn [bind].
  destruct (cmp f sa sb) as [[p q]|]; [|reflexivity]. cbn [bind].
  destruct (potential_boundaries f sa sb) as [t|]; [|reflexivity]. cbn [bind].
  destruct (boundaries f sa) as [ba|]; [|reflexivity]. cbn [bind].
  destruct (boundaries f sb) as [bb|]; [|reflexivity]. cbn [bind fst snd].
  f_equal. f_equal. cbn [pushes foldl entries_of]. apply touches.
Qed.

Lemma run_agree cmp f J : forall a, foldM (jstep cmp f) J a = let* rs := mapM (job cmp f) J in
  Ok (Acc (ac_num a ++ ((fun r => fst (fst r)) <$> rs)) (ac_den a ++ ((fun r => snd (fst r)) <$> rs))
    (ac_pbs a ++ ((fun r => fst (fst (snd r))) <$> rs)) (pushes (ac_bnd a) (mjoin (zip_with entries_of J rs)))).
Proof.
  induction J as [|j J IH]; intros a.
  - cbn. rewrite !app_nil_r. destruct a. reflexivity.
  - cbn [foldM mapM]. rewrite jstep_eq. destruct (job cmp f j) as [r|]; [|reflexivity]. cbn [bind]. rewrite IH.
    destruct (mapM (job cmp f) J) as [rs|]; [|reflexivity]. cbn [bind ac_num ac_den ac_pbs ac_bnd zip_with mjoin list_join fmap list_fmap].
    rewrite pushes_app, <- !app_assoc. reflexivity.
Qed.

Lemma parts_jobs cmp f coders items : agreement_parts cmp f coders items = let* rs := mapM (job cmp f) (jobs_of coders items) in
  Ok (Acc ((fun r => fst (fst r)) <$> rs) ((fun r => snd (fst r)) <$> rs)
    ((fun r => fst (fst (snd r))) <$> rs) (group (mjoin (zip_with entries_of (jobs_of coders items) rs)))).
Proof.
  unfold agreement_parts, jobs_of. rewrite <- (run_agree cmp f _ (Acc [] [] [] [])).
  apply (foldM_bind (jstep cmp f)). intros p s _. unfold agree_pair.
  assert (G : forall l s, foldM (agree_item cmp f (fst p) (snd p)) l s = foldM (jstep cmp f) ((fun ic => (p, ic)) <$> l) s).
  { clear s. induction l as [|ic l IH]; intros s; [reflexivity|]. cbn [foldM fmap list_fmap].
    unfold jstep at 1. cbn [fst snd]. destruct (agree_item cmp f (fst p) (snd p) s ic); cbn [bind]; auto. }
  apply G.
Qed.

Lemma elem_of_jobs_of coders items m n ic : ((m, n), ic) ∈ jobs_of coders items <-> (m, n) ∈ pairs2 coders /\ ic ∈ items.
Proof.
  unfold jobs_of. rewrite elem_of_list_bind. split.
  - intros ([m' n'] & Hj & Hp). apply elem_of_list_fmap in Hj as (ic' & Heq & Hic). injection Heq as -> -> ->. auto.
  - intros [Hp Hic]. exists (m, n). split; [|exact Hp]. apply elem_of_list_fmap. eauto.
Qed.

Lemma pairs2_distinct {X} (l : list X) x y : NoDup l -> (x, y) ∈ pairs2 l -> x ∈ l /\ y ∈ l /\ x <> y.
Proof.
  intros Hnd H. apply elem_of_pairs2 in H as (i & j & Hij & Hi & Hj). split; [eapply elem_of_list_lookup_2, Hi|].
  split; [eapply elem_of_list_lookup_2, Hj|]. intros ->. pose proof (NoDup_lookup _ _ _ _ Hnd Hi Hj). lia.
Qed.

(** The entries per coder when [K] and [T] say how many boundaries there are
    and could be. *)
Definition entry2 (K : string -> string * dict seg -> Z) (T : string -> string -> string * dict seg -> Z)
  (j : (string * string) * (string * dict seg)) : list (string * (Z * Z)) :=
  let '((m, n), ic) := j in [(m, (K m ic, T m n ic)); (n, (K n ic, T m n ic))].

Definition over {C} (g : string -> string -> string * dict seg -> C) (j : (string * string) * (string * dict seg)) : C :=
  let '((m, n), ic) := j in g m n ic.

Lemma parts_closed cmp f coders items N D T K :
  (forall m n ic, (m, n) ∈ pairs2 coders -> ic ∈ items -> job cmp f ((m, n), ic) = Ok ((N m n ic, D m n ic), (T m n ic, K m ic, K n ic))) ->
  agreement_parts cmp f coders items = Ok (Acc (over N <$> jobs_of coders items) (over D <$> jobs_of coders items)
    (over T <$> jobs_of coders items) (group (jobs_of coders items ≫= entry2 K T))).
Proof.
  intros H. rewrite parts_jobs. set (J := jobs_of coders items).
  set (R := fun j : (string * string) * (string * dict seg) => ((over N j, over D j), (over T j, K (fst (fst j)) (snd j), K (snd (fst j)) (snd j)))).
  assert (HJ : mapM (job cmp f) J = Ok (R <$> J)).
  { apply mapM_Ok, Forall2_fmap_r, Forall_Forall2_diag, Forall_forall. intros [[m n] ic] Hj. apply elem_of_jobs_of in Hj as [Hp Hic].
    cbn. apply H; assumption. }
  rewrite HJ. cbn [bind]. clear H HJ. rewrite <- !list_fmap_compose. f_equal. f_equal. f_equal.
  induction J as [|[[m n] ic] J IH]; [reflexivity|]. rewrite fmap_cons. cbn [zip_with mjoin list_join mbind list_bind].
  exact (f_equal (app (entry2 K T (m, n, ic))) IH).
Qed.

(** ** Sums *)

Lemma nsum_int A l : forall z, foldM (nadd A) (NInt <$> l) (NInt z) = Ok (NInt (z + zsum l)).
Proof.
  induction l as [|x l IH]; intros z; cbn [fmap list_fmap foldM]; [rewrite Z.add_0_r; reflexivity|].
  cbn [nadd num2 bind]. change (num2 A Z.add Qplus) with (nadd A). rewrite IH. cbn [zsum foldr]. f_equal. f_equal. unfold zsum. cbn [foldr]. lia.
Qed.

Definition below (q : Q) (d : Z) : Prop := (0 <= q)%Q /\ (q <= inject_Z d)%Q.

Lemma below_nonneg q d : below q d -> 0 <= d.
Proof. intros [H1 H2]. assert (H : (inject_Z 0 <= inject_Z d)%Q) by (change (inject_Z 0) with 0%Q; lra). rewrite <- Zle_Qle in H. exact H. Qed.

Lemma below_sum qs ds : Forall2 below qs ds -> 0 <= zsum ds.
Proof. induction 1 as [|q d qs ds H _ IH]; [reflexivity|]. apply below_nonneg in H. unfold zsum in *. cbn [foldr]. lia. Qed.

Lemma dsum_range A eps M qs ds : prec A eps M -> Forall2 below qs ds -> forall a z, below a z -> z + zsum ds <= M ->
  exists s, foldM (nadd A) (NDec <$> qs) (NDec a) = Ok (NDec s) /\ below s (z + zsum ds) /\
    ((a == inject_Z z)%Q -> Forall2 (fun q d => (q == inject_Z d)%Q) qs ds -> (s == inject_Z (z + zsum ds))%Q).
Proof.
  intros HP. induction 1 as [|q d qs ds Hq Hqs IH]; intros a z Ha HM.
  - exists a. cbn. rewrite Z.add_0_r. split; [reflexivity|]. auto.
  - pose proof (below_sum _ _ Hqs) as H0. pose proof (below_nonneg _ _ Hq) as H1. pose proof (below_nonneg _ _ Ha) as H2.
    replace (z + zsum (d :: ds)) with ((z + d) + zsum ds) in * by (unfold zsum; cbn [foldr]; lia).
    destruct Hq as [Hq0 Hq1], Ha as [Ha0 Ha1].
    destruct (IH (rd A (a + q)%Q) (z + d)) as (s & Hs & Hb & He).
    + split; [apply (rd_nonneg A _ _ HP); lra|]. apply (rd_le A _ _ HP); [rewrite inject_Z_plus; lra|lia].
    + exact HM.
    + exists s. split; [exact Hs|]. split; [exact Hb|]. intros E1 E2. inversion E2; subst. apply He; [|assumption].
      apply (rd_z A _ _ HP); [rewrite inject_Z_plus; lra|lia].
Qed.

Lemma nsum_range A eps M qs ds : prec A eps M -> qs <> [] -> Forall2 below qs ds -> zsum ds <= M ->
  exists s, nsum A (NDec <$> qs) = Ok (NDec s) /\ below s (zsum ds) /\
    (Forall2 (fun q d => (q == inject_Z d)%Q) qs ds -> (s == inject_Z (zsum ds))%Q).
Proof.
  intros HP Hne HF HM. destruct HF as [|q d qs ds Hq HF]; [contradiction|].
  pose proof (below_sum _ _ HF) as H0. pose proof (below_nonneg _ _ Hq) as H1.
  replace (zsum (d :: ds)) with (d + zsum ds) in * by reflexivity. destruct Hq as [Hq0 Hq1].
  unfold nsum. cbn [fmap list_fmap foldM nadd num2 bind]. change (num2 A Z.add Qplus) with (nadd A).
  destruct (dsum_range A eps M qs ds HP HF (rd A (inject_Z 0 + q)%Q) d) as (s & Hs & Hb & He).
  - change (inject_Z 0) with 0%Q. split; [apply (rd_nonneg A _ _ HP); lra|]. apply (rd_le A _ _ HP); [lra|lia].
  - exact HM.
  - exists s. split; [exact Hs|]. split; [exact Hb|]. intros E2. inversion E2; subst. apply He; [|assumption].
    apply (rd_z A _ _ HP); [change (inject_Z 0) with 0%Q; lra|lia].
Qed.

Lemma dsum_exact qs : forall a, exists s, foldM (nadd exactA) (NDec <$> qs) (NDec a) = Ok (NDec s) /\ (s == a + qsum qs)%Q.
Proof.
  induction qs as [|q qs IH]; intros a.
  - exists a. split; [reflexivity|]. cbn. lra.
  - cbn [fmap list_fmap foldM nadd num2 bind]. change (num2 exactA Z.add Qplus) with (nadd exactA).
    destruct (IH (rd exactA (a + q)%Q)) as (s & Hs & E). exists s. split; [exact Hs|]. rewrite E. cbn [rd exactA].
    rewrite Qred_correct, qsum_cons. lra.
Qed.

Lemma nsum_exact qs : qs <> [] -> exists s, nsum exactA (NDec <$> qs) = Ok (NDec s) /\ (s == qsum qs)%Q.
Proof.
  intros Hne. destruct qs as [|q qs]; [contradiction|]. unfold nsum. cbn [fmap list_fmap foldM nadd num2 bind].
  change (num2 exactA Z.add Qplus) with (nadd exactA). destruct (dsum_exact qs (rd exactA (inject_Z 0 + q)%Q)) as (s & Hs & E).
  exists s. split; [exact Hs|]. rewrite E. cbn [rd exactA]. rewrite Qred_correct, qsum_cons. change (inject_Z 0) with 0%Q. lra.
Qed.

Lemma inject_zsum l : (inject_Z (zsum l) == qsum (inject_Z <$> l))%Q.
Proof. induction l as [|x l IH]; [reflexivity|]. rewrite fmap_cons, qsum_cons, <- IH, <- inject_Z_plus. reflexivity. Qed.

(** ** Actual agreement *)

Lemma Aa_range A eps M qs ds : prec A eps M -> qs <> [] -> Forall2 below qs ds -> 0 < zsum ds -> zsum ds <= M ->
  exists v, agreement_Aa A (Acc (NDec <$> qs) (NInt <$> ds) [] []) = Ok (NDec v) /\ (0 <= v /\ v <= 1)%Q /\
    (Forall2 (fun q d => (q == inject_Z d)%Q) qs ds -> (v == 1)%Q).
Proof.
  intros HP Hne HF H0 HM. destruct (nsum_range A eps M qs ds HP Hne HF HM) as (s & Hs & [Hb1 Hb2] & He).
  pose proof (inj_pos _ H0) as Hd.
  unfold agreement_Aa. cbn [ac_num ac_den]. rewrite Hs. cbn [bind]. unfold nsum. rewrite nsum_int, Z.add_0_l. cbn [bind to_dec nval ndiv].
  rewrite qzero_inject by lia. exists (rd A (s / inject_Z (zsum ds))%Q). split; [reflexivity|]. split; [split|].
  - apply (rd_nonneg A _ _ HP). apply Qdiv_bounds_l; lra.
  - change 1%Q with (inject_Z 1). apply (rd_le A _ _ HP); [|pose proof (p_M _ _ _ HP); cbn; lia].
    apply Qdiv_bounds; [exact Hd|]. change (inject_Z 1) with 1%Q. lra.
  - intros E. apply (rd_1 A _ _ HP). rewrite (He E). field. lra.
Qed.

Lemma Aa_exact qs ds : qs <> [] -> 0 < zsum ds ->
  agreement_Aa exactA (Acc (NDec <$> qs) (NInt <$> ds) [] []) = Ok (NDec (Qred (qsum qs / inject_Z (zsum ds)))).
Proof.
  intros Hne H0. destruct (nsum_exact qs Hne) as (s & Hs & E).
  unfold agreement_Aa. cbn [ac_num ac_den]. rewrite Hs. cbn [bind]. unfold nsum. rewrite nsum_int, Z.add_0_l. cbn [bind to_dec nval ndiv].
  rewrite qzero_inject by lia. cbn [rd exactA]. do 2 f_equal. apply Qred_complete. rewrite E. reflexivity.
Qed.

(** The plain quotient is the same one. *)
Lemma actual_Aa A cmp f coders items qs ds pbs bnd : agreement_parts cmp f coders items = Ok (Acc (NDec <$> qs) (NInt <$> ds) pbs bnd) ->
  qs <> [] -> actual_agreement A cmp f coders items = agreement_Aa A (Acc (NDec <$> qs) (NInt <$> ds) [] []).
Proof.
  intros Hp Hne. unfold actual_agreement, agreement_Aa. rewrite Hp. cbn [bind ac_num ac_den].
  destruct qs as [|q qs]; [contradiction|].
  assert (HD : forall l a, exists s, foldM (nadd A) (NDec <$> l) (NDec a) = Ok (NDec s)).
  { induction l as [|x l IH]; intros a; [eexists; reflexivity|]. cbn [fmap list_fmap foldM nadd num2 bind]. apply IH. }
  destruct (HD qs (rd A (inject_Z 0 + q)%Q)) as [s Hs]. unfold nsum at 1 3. cbn [fmap list_fmap foldM nadd num2 bind].
  change (num2 A Z.add Qplus) with (nadd A). rewrite Hs. reflexivity.
Qed.



(** ** Chance agreement *)

Definition share (e : Z * Z) : Prop := 0 <= fst e <= snd e /\ 0 < snd e.
Definition ratio (e : Z * Z) : Q := (inject_Z (fst e) / inject_Z (snd e))%Q.

Lemma ratio_range e : share e -> (0 <= ratio e /\ ratio e <= 1)%Q.
Proof.
  intros [[H1 H2] H3]. pose proof (inj_pos _ H3) as Hd. unfold ratio. split.
  - apply Qdiv_bounds_l; [exact Hd|]. rewrite Qmult_0_l. change 0%Q with (inject_Z 0). rewrite <- Zle_Qle. exact H1.
  - apply Qdiv_bounds; [exact Hd|]. rewrite Qmult_1_l, <- Zle_Qle. exact H2.
Qed.

Lemma ratio_one e : share e -> fst e = snd e -> (ratio e == 1)%Q.
Proof. intros [_ H3] E. pose proof (inj_pos _ H3) as Hd. unfold ratio. rewrite E. field. lra. Qed.

Lemma rd_unit A eps M x : prec A eps M -> (0 <= x /\ x <= 1)%Q -> (0 <= rd A x /\ rd A x <= 1)%Q.
Proof.
  intros HP [H1 H2]. split; [apply (rd_nonneg A _ _ HP), H1|]. change 1%Q with (inject_Z 1).
  apply (rd_le A _ _ HP); [exact H2|]. pose proof (p_M _ _ _ HP). cbn. lia.
Qed.

Lemma zsum_ones {X} (l : list X) : zsum ((fun _ => 1) <$> l) = zlen l.
Proof. induction l as [|x l IH]; [reflexivity|]. rewrite fmap_cons. unfold zsum, zlen in *. cbn [foldr length]. lia. Qed.

Lemma Forall2_fmap2 {X Y Z} (R : Y -> Z -> Prop) (f : X -> Y) (g : X -> Z) l : (forall x, x ∈ l -> R (f x) (g x)) -> Forall2 R (f <$> l) (g <$> l).
Proof. intros H. apply Forall2_fmap, Forall_Forall2_diag, Forall_forall, H. Qed.

(** The mean of shares. *)
Lemma mean_range {X} A eps M (g : X -> Q) (l : list X) : prec A eps M -> l <> [] -> zlen l <= M ->
  (forall x, x ∈ l -> 0 <= g x /\ g x <= 1)%Q ->
  exists s v, nsum A (NDec <$> (g <$> l)) = Ok (NDec s) /\ ndiv A (to_dec (NDec s)) (NInt (zlen (g <$> l))) = Ok (NDec v) /\
    (0 <= v /\ v <= 1)%Q /\ ((forall x, x ∈ l -> g x == 1)%Q -> (v == 1)%Q).
Proof.
  intros HP Hne HM HG. assert (Hpos : 0 < zlen l) by (destruct l; [contradiction|unfold zlen; cbn [length]; lia]).
  destruct (nsum_range A eps M (g <$> l) ((fun _ => 1) <$> l)) as (s & Hs & [Hb1 Hb2] & He).
  - exact HP.
  - destruct l; [contradiction|discriminate].
  - apply Forall2_fmap2. intros x Hx. apply HG, Hx.
  - rewrite zsum_ones. exact HM.
  - rewrite zsum_ones in Hb2, He. exists s. unfold zlen at 1. rewrite fmap_length. fold (zlen l). cbn [to_dec nval ndiv].
    rewrite qzero_inject by lia. exists (rd A (s / inject_Z (zlen l))%Q). split; [exact Hs|]. split; [reflexivity|].
    pose proof (inj_pos _ Hpos) as Hd. split.
    + apply (rd_unit A _ _ _ HP). split; [apply Qdiv_bounds_l; lra|apply Qdiv_bounds; lra].
    + intros H1. apply (rd_1 A _ _ HP). rewrite He; [field; lra|]. apply Forall2_fmap2. intros x Hx. apply H1, Hx.
Qed.

Lemma mean_exact {X} (g : X -> Q) (l : list X) : l <> [] ->
  exists s v, nsum exactA (NDec <$> (g <$> l)) = Ok (NDec s) /\ ndiv exactA (to_dec (NDec s)) (NInt (zlen (g <$> l))) = Ok (NDec v) /\
    v = Qred (qsum (g <$> l) / inject_Z (zlen l)).
Proof.
  intros Hne. assert (Hpos : 0 < zlen l) by (destruct l; [contradiction|unfold zlen; cbn [length]; lia]).
  destruct (nsum_exact (g <$> l)) as (s & Hs & E); [destruct l; [contradiction|discriminate]|].
  exists s. unfold zlen at 1. rewrite fmap_length. fold (zlen l). cbn [to_dec nval ndiv].
  rewrite qzero_inject by lia. eexists. split; [exact Hs|]. split; [reflexivity|]. cbn [rd exactA]. apply Qred_complete. rewrite E. reflexivity.
Qed.

Lemma pi_shares A l : Forall share l ->
  mapM (fun '(b, t) => ndiv A (NDec (inject_Z b)) (NInt t)) l = Ok (NDec <$> ((fun e => rd A (ratio e)) <$> l)).
Proof.
  intros HF. apply mapM_Ok. rewrite <- list_fmap_compose. apply Forall2_fmap_r, Forall_Forall2_diag.
  eapply Forall_impl; [exact HF|]. intros [b t] [_ Ht]. cbn in Ht |- *. rewrite qzero_inject by lia. reflexivity.
Qed.

Lemma pi_Ae_range A eps M bnd : sane A -> prec A eps M -> Forall share (mjoin bnd.*2) -> mjoin bnd.*2 <> [] -> zlen (mjoin bnd.*2) <= M ->
  exists v, pi_Ae A bnd = Ok (NDec v) /\ (0 <= v /\ v <= 1)%Q /\
    ((forall e, e ∈ mjoin bnd.*2 -> fst e = snd e) -> (v == 1)%Q).
Proof.
  intros HA HP HF Hne HM. unfold pi_Ae. rewrite pi_shares by exact HF. cbn [bind]. set (l := mjoin bnd.*2) in *.
  pose proof (proj1 (Forall_forall _ _) HF) as HS.
  destruct (mean_range A eps M (fun e => rd A (ratio e)) l HP Hne HM) as (s & v & Hs & Hv & [V0 V1] & V).
  { intros e He. apply (rd_unit A _ _ _ HP), ratio_range, HS, He. }
  rewrite Hs. cbn [bind]. replace (zlen (NDec <$> _)) with (zlen ((fun e => rd A (ratio e)) <$> l)) by (unfold zlen; rewrite !fmap_length; reflexivity).
  rewrite Hv. cbn [bind nsq]. exists (r2 A (v * v)%Q). split; [reflexivity|].
  assert (R0 : (r2 A 0 == 0)%Q) by (rewrite (r2_ext A HA 0 (inject_Z 0)) by reflexivity; apply (r2_int A HA); lia).
  assert (R1 : (r2 A 1 == 1)%Q) by (rewrite (r2_ext A HA 1 (inject_Z 1)) by reflexivity; apply (r2_int A HA); cbn; lia).
  split; [split|].
  - rewrite <- R0. apply (r2_mono A HA). nra.
  - rewrite <- R1. apply (r2_mono A HA). nra.
  - intros H. rewrite <- R1. rewrite (r2_ext A HA _ 1); [reflexivity|]. rewrite V; [reflexivity|].
    intros e He. apply (rd_1 A _ _ HP), ratio_one; auto.
Qed.

Lemma pi_Ae_exact bnd : Forall share (mjoin bnd.*2) -> mjoin bnd.*2 <> [] ->
  pi_Ae exactA bnd = Ok (NDec (Qred (let p := qsum (ratio <$> mjoin bnd.*2) / inject_Z (zlen (mjoin bnd.*2)) in p * p)))%Q.
Proof.
  intros HF Hne. unfold pi_Ae. rewrite pi_shares by exact HF. cbn [bind]. set (l := mjoin bnd.*2) in *.
  destruct (mean_exact (fun e => rd exactA (ratio e)) l Hne) as (s & v & Hs & Hv & V).
  rewrite Hs. cbn [bind]. replace (zlen (NDec <$> _)) with (zlen ((fun e => rd exactA (ratio e)) <$> l)) by (unfold zlen; rewrite !fmap_length; reflexivity).
  rewrite Hv. cbn [bind nsq r2 exactA]. do 2 f_equal. apply Qred_complete. cbv zeta.
  assert (V' : (v == qsum (ratio <$> l) / inject_Z (zlen l))%Q).
  { rewrite V, Qred_correct. cbn [rd exactA]. rewrite (qsum_fmap_ext _ ratio); [reflexivity|]. intros e _. apply Qred_correct. }
  rewrite V'. reflexivity.
Qed.

(** The pooled share of a coder. *)
Definition pool (l : list (Z * Z)) : Z * Z := (zsum l.*1, zsum l.*2).

Lemma share_pool l : l <> [] -> Forall share l -> share (pool l).
Proof.
  intros Hne HF. assert (G : forall l, Forall share l -> 0 <= zsum l.*1 <= zsum l.*2).
  { clear. induction 1 as [|e l [H1 H2] _ IH]; [cbn; lia|]. rewrite !fmap_cons. unfold zsum in *. cbn [foldr]. lia. }
  destruct HF as [|e l [H1 H2] HF]; [contradiction|]. specialize (G l HF). unfold pool, share. rewrite !fmap_cons. unfold zsum in *. cbn [foldr fst snd]. lia.
Qed.

Lemma pool_one l : (forall e, e ∈ l -> fst e = snd e) -> fst (pool l) = snd (pool l).
Proof.
  intros H. unfold pool. cbn [fst snd]. induction l as [|e l IH]; [reflexivity|]. rewrite !fmap_cons. unfold zsum in *. cbn [foldr].
  rewrite (H e ltac:(left)). rewrite IH; [reflexivity|]. intros e' He'. apply H. right. exact He'.
Qed.

Definition kpool (bnd : dict (list (Z * Z))) (k : string) : Z * Z := pool (default [] (dget bnd k)).

Lemma kappa_shares A bnd : dict_ok bnd -> (forall k l, (k, l) ∈ bnd -> l <> [] /\ Forall share l) ->
  mapM (fun '(m, n) =>
      let* lm := dlookup bnd m in
      let* ln := dlookup bnd n in
      let* pm := pooled A lm in
      let* pn := pooled A ln in
      nmul A pm pn) (pairs2 bnd.*1) =
  Ok (NDec <$> ((fun p => rd A (rd A (ratio (kpool bnd (fst p))) * rd A (ratio (kpool bnd (snd p))))%Q) <$> pairs2 bnd.*1)).
Proof.
  intros Hok HS. apply mapM_Ok. rewrite <- list_fmap_compose. apply Forall2_fmap_r, Forall_Forall2_diag, Forall_forall.
  intros [m n] Hp. apply pairs2_distinct in Hp as (Hm & Hn & _); [|exact Hok]. cbn [compose fst snd].
  assert (G : forall k, k ∈ bnd.*1 -> exists l, dlookup bnd k = Ok l /\ pooled A l = Ok (NDec (rd A (ratio (kpool bnd k))))).
  { intros k Hk. apply dget_is_Some in Hk as [l Hl]. exists l. split; [apply dlookup_Ok, Hl|].
    destruct (HS k l (dget_elem _ _ _ Hl)) as [H1 H2]. destruct (share_pool l H1 H2) as [_ Ht]. cbn [pool snd] in Ht.
    unfold pooled, kpool. rewrite Hl. cbn [ndiv]. rewrite qzero_inject by lia. reflexivity. }
  destruct (G m Hm) as (lm & -> & Hm'). destruct (G n Hn) as (ln & -> & Hn'). cbn [bind]. rewrite Hm', Hn'. reflexivity.
Qed.

Lemma kpool_share bnd k : dict_ok bnd -> (forall k l, (k, l) ∈ bnd -> l <> [] /\ Forall share l) -> k ∈ bnd.*1 -> share (kpool bnd k).
Proof.
  intros Hok HS Hk. apply dget_is_Some in Hk as [l Hl]. destruct (HS k l (dget_elem _ _ _ Hl)) as [H1 H2].
  unfold kpool. rewrite Hl. apply share_pool; assumption.
Qed.

Lemma kappa_Ae_range A eps M bnd : prec A eps M -> dict_ok bnd -> (forall k l, (k, l) ∈ bnd -> l <> [] /\ Forall share l) ->
  pairs2 bnd.*1 <> [] -> zlen (pairs2 bnd.*1) <= M ->
  exists v, kappa_Ae A bnd = Ok (NDec v) /\ (0 <= v /\ v <= 1)%Q /\
    ((forall k l e, (k, l) ∈ bnd -> e ∈ l -> fst e = snd e) -> (v == 1)%Q).
Proof.
  intros HP Hok HS Hne HM. unfold kappa_Ae. rewrite kappa_shares by assumption. cbn [bind]. set (P := pairs2 bnd.*1) in *.
  assert (HK : forall k, k ∈ bnd.*1 -> share (kpool bnd k)) by (intros k; apply kpool_share; assumption).
  match goal with |- context [NDec <$> (?g <$> P)] => destruct (mean_range A eps M g P HP Hne HM) as (s & v & Hs & Hv & HV & V) end.
  { intros [m n] Hp. apply pairs2_distinct in Hp as (Hm & Hn & _); [|exact Hok]. cbn [fst snd].
    pose proof (rd_unit A _ _ _ HP (ratio_range _ (HK m Hm))) as [A1 A2]. pose proof (rd_unit A _ _ _ HP (ratio_range _ (HK n Hn))) as [B1 B2].
    apply (rd_unit A _ _ _ HP). split; nra. }
  rewrite Hs. cbn [bind]. match goal with |- context [zlen (NDec <$> (?g <$> P))] =>
    replace (zlen (NDec <$> (g <$> P))) with (zlen (g <$> P)) by (unfold zlen; rewrite !fmap_length; reflexivity) end.
  rewrite Hv. exists v. split; [reflexivity|]. split; [exact HV|]. intros H. apply V.
  intros [m n] Hp. apply pairs2_distinct in Hp as (Hm & Hn & _); [|exact Hok]. cbn [fst snd].
  assert (G : forall k, k ∈ bnd.*1 -> (rd A (ratio (kpool bnd k)) == 1)%Q).
  { intros k Hk. apply (rd_1 A _ _ HP), ratio_one; [apply HK, Hk|]. apply dget_is_Some in Hk as [l Hl].
    unfold kpool. rewrite Hl. apply pool_one. intros e. apply (H k l e), dget_elem, Hl. }
  apply (rd_1 A _ _ HP). rewrite (G m Hm), (G n Hn). reflexivity.
Qed.

Lemma kappa_Ae_exact bnd : dict_ok bnd -> (forall k l, (k, l) ∈ bnd -> l <> [] /\ Forall share l) ->
  pairs2 bnd.*1 <> [] ->
  kappa_Ae exactA bnd = Ok (NDec (Qred (qsum ((fun p => ratio (kpool bnd (fst p)) * ratio (kpool bnd (snd p))) <$> pairs2 bnd.*1) / inject_Z (zlen (pairs2 bnd.*1)))))%Q.
Proof.
  intros Hok HS Hne. unfold kappa_Ae. rewrite kappa_shares by assumption. cbn [bind]. set (P := pairs2 bnd.*1) in *.
  match goal with |- context [NDec <$> (?g <$> P)] => destruct (mean_exact g P Hne) as (s & v & Hs & Hv & V) end.
  rewrite Hs. cbn [bind]. match goal with |- context [zlen (NDec <$> (?g <$> P))] =>
    replace (zlen (NDec <$> (g <$> P))) with (zlen (g <$> P)) by (unfold zlen; rewrite !fmap_length; reflexivity) end.
  rewrite Hv, V. do 2 f_equal. apply Qred_complete. cbn [rd exactA].
  rewrite (qsum_fmap_ext _ (fun p => ratio (kpool bnd (fst p)) * ratio (kpool bnd (snd p)))%Q); [reflexivity|].
  intros p _. rewrite !Qred_correct. reflexivity.
Qed.

(** ** Correction for chance *)

Lemma corrected A eps M a e : prec A eps M -> (a <= 1)%Q -> (e <= 1)%Q ->
  (forall v, chance_corrected A (NDec a) (NDec e) = Ok v -> exists q, v = NDec q /\ (q <= 1)%Q) /\
  ((a == 1)%Q -> forall v, chance_corrected A (NDec a) (NDec e) = Ok v -> exists q, v = NDec q /\ (q == 1)%Q) /\
  ((a == 1)%Q -> (e == 1)%Q -> chance_corrected A (NDec a) (NDec e) = Err InvalidOperation) /\
  (~ (e == 1)%Q -> exists q, chance_corrected A (NDec a) (NDec e) = Ok (NDec q)).
Proof.
  intros HP Ha He. unfold chance_corrected. cbn [nsub num2 bind ndiv].
  assert (Y0 : (0 <= rd A (1 - e))%Q) by (apply (rd_nonneg A _ _ HP); lra).
  assert (XY : (rd A (a - e) <= rd A (1 - e))%Q) by (apply (p_mono _ _ _ HP); lra).
  assert (Hz : qzero (rd A (1 - e)) = true <-> (e == 1)%Q).
  { unfold qzero. rewrite Qeq_bool_iff. split.
    - intros H. apply (rd_zero A _ _ HP) in H; lra.
    - intros H. apply (rd_0 A _ _ HP). lra. }
  destruct (qzero (rd A (1 - e))) eqn:Q.
  - split; [discriminate|]. split; [discriminate|]. split.
    + intros Ea Ee. assert (qzero (rd A (a - e)) = true) as ->; [|reflexivity]. apply Qeq_bool_iff, (rd_0 A _ _ HP). lra.
    + intros Hn. exfalso. apply Hn, Hz. reflexivity.
  - assert (Y1 : (0 < rd A (1 - e))%Q).
    { apply Qle_lteq in Y0 as [|Y0]; [assumption|]. unfold qzero in Q. rewrite (proj2 (Qeq_bool_iff _ _)) in Q; [discriminate|]. symmetry. exact Y0. }
    split; [|split; [|split]].
    + intros v [= <-]. eexists. split; [reflexivity|]. change 1%Q with (inject_Z 1). apply (rd_le A _ _ HP); [|pose proof (p_M _ _ _ HP); cbn; lia].
      apply Qdiv_bounds; [exact Y1|]. change (inject_Z 1) with 1%Q. lra.
    + intros Ea v [= <-]. eexists. split; [reflexivity|]. apply (rd_1 A _ _ HP).
      assert (E : (rd A (a - e) == rd A (1 - e))%Q) by (rewrite (p_ext _ _ _ HP (a - e)%Q (1 - e)%Q) by lra; reflexivity).
      rewrite E. field. lra.
    + intros _ Ee. apply Hz in Ee. discriminate.
    + intros _. eauto.
Qed.
