(** Edits in a larger context and with other names of types. *)
From Verif Require Import SpecChange FormatProofs Bed BedProofs BedSubs BedMain BedTheory BedEmbed.
Open Scope Z_scope.

Lemma at_app_middle (x a y : bstring) i : (i < length a)%nat -> at_ (x ++ a ++ y) (length x + i) = at_ a i.
Proof.
  intros Hi. unfold at_. rewrite lookup_app_r by lia. replace (length x + i - length x)%nat with i by lia.
  rewrite lookup_app_l by exact Hi. reflexivity.
Qed.

Lemma at_app_outside (x a b y : bstring) i : length a = length b -> (i < length x \/ length x + length a <= i)%nat ->
  at_ (x ++ a ++ y) i = at_ (x ++ b ++ y) i.
Proof.
  intros Hl Hi. unfold at_. destruct (decide (i < length x)%nat) as [C|C].
  - rewrite !lookup_app_l by exact C. reflexivity.
  - rewrite !(lookup_app_r x) by lia. rewrite !lookup_app_r by lia. rewrite Hl. reflexivity.
Qed.

Lemma types_id s : fmap_types id s = s.
Proof. apply set_eq. intros d. rewrite elem_of_types. unfold id. split; [intros (d' & -> & H); exact H|eauto]. Qed.

Lemma context_embedded x a b y : length a = length b -> embedded id (length x) a b (x ++ a ++ y) (x ++ b ++ y).
Proof.
  intros Hl. constructor.
  - rewrite !app_length. lia.
  - intros i Hi. rewrite types_id. apply at_app_middle, Hi.
  - intros i Hi. rewrite types_id. apply at_app_middle. lia.
  - intros i Hi. apply at_app_outside; assumption.
Qed.

Lemma small_context x a b y : small_types (x ++ a ++ y) (x ++ b ++ y) -> small_types a b.
Proof.
  intros H s d Hs Hd. eapply H; [|exact Hd]. rewrite !elem_of_app. tauto.
Qed.

Theorem bed_context E E' x a b y n_t e e' : env_ok E -> env_ok E' -> length a = length b ->
  small_types (x ++ a ++ y) (x ++ b ++ y) ->
  boundary_edit_distance E a b n_t = Ok e ->
  boundary_edit_distance E' (x ++ a ++ y) (x ++ b ++ y) n_t = Ok e' ->
  e_add e' = e_add e /\ e_sub e' = e_sub e /\ e_transp e' ≡ₚ moved (length x) <$> e_transp e.
Proof.
  intros HE HE' Hl Hs H1 H2. pose proof (context_embedded x a b y Hl) as Hem.
  rewrite bed_ok in H1, H2 by (assumption || (rewrite ?app_length; lia)).
  injection H1 as <-. injection H2 as <-. cbn [e_add e_sub e_transp].
  assert (Hi : forall d d' : Z, id d = id d' -> d = d') by auto.
  pose proof (run_embedded id Hi (length x) a b _ _ Hem E E' HE HE' (small_context _ _ _ _ Hs) Hs (spans n_t) (spans_ge n_t)) as Hr.
  fold (ts E a b n_t) in Hr. fold (ts E' (x ++ a ++ y) (x ++ b ++ y) n_t) in Hr.
  assert (HX : forall i, X (ts E' (x ++ a ++ y) (x ++ b ++ y) n_t) i = X (moved_to id (length x) <$> ts E a b n_t) i)
    by (intros i; apply X_perm, Hr).
  assert (HR : forall i, (i < length a)%nat ->
    RA (x ++ a ++ y) (x ++ b ++ y) (X (ts E' (x ++ a ++ y) (x ++ b ++ y) n_t)) (length x + i) = RA a b (X (ts E a b n_t)) i /\
    RB (x ++ a ++ y) (x ++ b ++ y) (X (ts E' (x ++ a ++ y) (x ++ b ++ y) n_t)) (length x + i) = RB a b (X (ts E a b n_t)) i).
  { intros i H. destruct (R_embedded id Hi (length x) a b _ _ Hem (ts E a b n_t) i H) as [K1 K2].
    rewrite types_id in K1, K2. rewrite <- K1, <- K2. unfold RA, RB. rewrite HX. auto. }
  assert (HO : forall i, (i < length x \/ length x + length a <= i)%nat ->
    RA (x ++ a ++ y) (x ++ b ++ y) (X (ts E' (x ++ a ++ y) (x ++ b ++ y) n_t)) i = ∅ /\
    RB (x ++ a ++ y) (x ++ b ++ y) (X (ts E' (x ++ a ++ y) (x ++ b ++ y) n_t)) i = ∅).
  { intros i H. eapply R_outside; eassumption. }
  split; [|split].
  - eapply gaps_embedded; [exact Hem| |].
    + intros i H. unfold adds_at. destruct (HR i H) as [-> ->]. reflexivity.
    + intros i H. unfold adds_at. destruct (HO i H) as [-> ->]. apply adds_empty.
  - eapply gaps_embedded; [exact Hem| |].
    + intros i H. unfold subs_at. destruct (HR i H) as [-> ->]. reflexivity.
    + intros i H. unfold subs_at. destruct (HO i H) as [-> ->]. apply best_empty.
  - exact Hr.
Qed.

(** ** Renaming *)

Lemma at_renamed f s i : at_ (renamed f s) i = fmap_types f (at_ s i).
Proof.
  unfold at_, renamed, fmap_types. rewrite list_lookup_fmap. destruct (s !! i) as [t|]; cbn; [reflexivity|].
  symmetry. apply set_eq. intros d. rewrite elem_of_map. set_solver.
Qed.

Lemma renamed_embedded f a b : length a = length b -> embedded f 0 a b (renamed f a) (renamed f b).
Proof.
  intros Hl. constructor.
  - unfold renamed. rewrite fmap_length. reflexivity.
  - intros i Hi. apply at_renamed.
  - intros i Hi. apply at_renamed.
  - intros i [Hi|Hi]; [lia|]. unfold at_. rewrite !lookup_ge_None_2; [reflexivity|..]; unfold renamed; rewrite fmap_length; lia.
Qed.

Section Renaming.
Context (f : Z -> Z) (Hf : forall d d', f d = f d' -> d = d').

Definition rename_pair (p : Z * Z) : Z * Z := (f (fst p), f (snd p)).

Lemma pairing_image a b l : pairing a b l -> pairing (fmap_types f a) (fmap_types f b) (rename_pair <$> l).
Proof.
  intros (N1 & N2 & Hin & Hlen). split; [|split; [|split]].
  - replace ((rename_pair <$> l).*1) with (f <$> l.*1) by (rewrite <- !list_fmap_compose; reflexivity).
    apply NoDup_fmap_2_strong; [intros x y _ _; apply Hf|exact N1].
  - replace ((rename_pair <$> l).*2) with (f <$> l.*2) by (rewrite <- !list_fmap_compose; reflexivity).
    apply NoDup_fmap_2_strong; [intros x y _ _; apply Hf|exact N2].
  - intros x y H. apply elem_of_list_fmap in H as ([x' y'] & H & Hp). injection H as -> ->.
    apply Hin in Hp as [Hx Hy]. rewrite !elem_of_types_f by exact Hf. auto.
  - rewrite fmap_length, !size_types by exact Hf. exact Hlen.
Qed.

Lemma pairing_preimage a b l : pairing (fmap_types f a) (fmap_types f b) l ->
  exists l', pairing a b l' /\ l = rename_pair <$> l'.
Proof.
  intros (N1 & N2 & Hin & Hlen). rewrite !size_types in Hlen by exact Hf.
  assert (exists l', l = rename_pair <$> l') as [l' ->].
  { clear N1 N2 Hlen. induction l as [|[x y] l IH]; [exists []; reflexivity|].
    destruct (Hin x y ltac:(left)) as [Hx Hy]. apply elem_of_types in Hx as (x' & -> & _), Hy as (y' & -> & _).
    destruct IH as [l' ->]; [intros; apply Hin; right; assumption|]. exists ((x', y') :: l'). reflexivity. }
  exists l'. split; [|reflexivity].
  replace ((rename_pair <$> l').*1) with (f <$> l'.*1) in N1 by (rewrite <- !list_fmap_compose; reflexivity).
  replace ((rename_pair <$> l').*2) with (f <$> l'.*2) in N2 by (rewrite <- !list_fmap_compose; reflexivity).
  split; [|split; [|split]].
  - eapply NoDup_fmap_1, N1.
  - eapply NoDup_fmap_1, N2.
  - intros x y H. destruct (Hin (f x) (f y)) as [Hx Hy]; [apply elem_of_list_fmap; exists (x, y); auto|].
    rewrite !elem_of_types_f in Hx, Hy by exact Hf. auto.
  - rewrite fmap_length in Hlen. exact Hlen.
Qed.

Lemma cost_image l : (forall d d', Z.abs (f d - f d') = Z.abs (d - d')) -> pair_cost (rename_pair <$> l) = pair_cost l.
Proof.
  intros Hd. unfold pair_cost. rewrite <- list_fmap_compose. f_equal. apply list_fmap_ext.
  intros i [x y] _. cbn. apply Hd.
Qed.

Lemma best_cost_image a b : (forall d d', Z.abs (f d - f d') = Z.abs (d - d')) ->
  pair_cost (best_substitutions (fmap_types f a) (fmap_types f b)) = pair_cost (best_substitutions a b).
Proof.
  intros Hd. apply Z.le_antisymm.
  - rewrite <- (cost_image (best_substitutions a b)) by exact Hd. apply best_is_cheapest, pairing_image, best_is_pairing.
  - destruct (pairing_preimage a b _ (best_is_pairing _ _)) as (l & Hl & ->). rewrite cost_image by exact Hd.
    apply best_is_cheapest, Hl.
Qed.

Lemma best_length_image a b :
  length (best_substitutions (fmap_types f a) (fmap_types f b)) = length (best_substitutions a b).
Proof.
  destruct (best_is_pairing a b) as (_ & _ & _ & ->).
  destruct (best_is_pairing (fmap_types f a) (fmap_types f b)) as (_ & _ & _ & ->). rewrite !size_types by exact Hf. reflexivity.
Qed.

Theorem bed_renamed E E' a b n_t e e' : env_ok E -> env_ok E' -> length a = length b ->
  small_types a b -> small_types (renamed f a) (renamed f b) ->
  boundary_edit_distance E a b n_t = Ok e ->
  boundary_edit_distance E' (renamed f a) (renamed f b) n_t = Ok e' ->
  e_transp e' ≡ₚ retyped f <$> e_transp e /\
  (forall s, countP (fun x => a_side x = s) (e_add e') = countP (fun x => a_side x = s) (e_add e)) /\
  length (e_add e') = length (e_add e) /\
  length (e_sub e') = length (e_sub e) /\
  ((forall d d', Z.abs (f d - f d') = Z.abs (d - d')) -> distance (e_sub e') = distance (e_sub e)).
Proof.
  intros HE HE' Hl Hs Hs' H1 H2. pose proof (renamed_embedded f a b Hl) as Hem.
  assert (length (renamed f a) = length a) as La by apply fmap_length.
  assert (length (renamed f b) = length b) as Lb by apply fmap_length.
  rewrite bed_ok in H1, H2 by (assumption || lia). rewrite La in H2.
  injection H1 as <-. injection H2 as <-. cbn [e_add e_sub e_transp].
  pose proof (run_embedded f Hf 0 a b _ _ Hem E E' HE HE' Hs Hs' (spans n_t) (spans_ge n_t)) as Hr.
  fold (ts E a b n_t) in Hr. fold (ts E' (renamed f a) (renamed f b) n_t) in Hr.
  assert (HX : forall i, X (ts E' (renamed f a) (renamed f b) n_t) i = X (moved_to f 0 <$> ts E a b n_t) i)
    by (intros i; apply X_perm, Hr).
  assert (HR : forall i, (i < length a)%nat ->
    RA (renamed f a) (renamed f b) (X (ts E' (renamed f a) (renamed f b) n_t)) i = fmap_types f (RA a b (X (ts E a b n_t)) i) /\
    RB (renamed f a) (renamed f b) (X (ts E' (renamed f a) (renamed f b) n_t)) i = fmap_types f (RB a b (X (ts E a b n_t)) i)).
  { intros i H. destruct (R_embedded f Hf 0 a b _ _ Hem (ts E a b n_t) i H) as [K1 K2]. cbn [Nat.add] in K1, K2.
    rewrite <- K1, <- K2. unfold RA, RB. rewrite HX. auto. }
  split; [exact Hr|]. rewrite !length_join. unfold adds_at, subs_at.
  assert (HD : forall i, fmap_types f (RA a b (X (ts E a b n_t)) i) ## fmap_types f (RB a b (X (ts E a b n_t)) i)).
  { intros i d Hd1 Hd2. apply elem_of_types in Hd1 as (d' & -> & Hd1). apply elem_of_types_f in Hd2; [|exact Hf].
    exact (R_disjoint a b (X (ts E a b n_t)) i d' Hd1 Hd2). }
  assert (HL : sumn (fun i => length (adds_of (RA (renamed f a) (renamed f b) (X (ts E' (renamed f a) (renamed f b) n_t)) i)
      (RB (renamed f a) (renamed f b) (X (ts E' (renamed f a) (renamed f b) n_t)) i))) (length a) =
    sumn (fun i => length (adds_of (RA a b (X (ts E a b n_t)) i) (RB a b (X (ts E a b n_t)) i))) (length a)).
  { apply sumn_ext. intros i Hi. destruct (HR i Hi) as [-> ->].
    pose proof (adds_length _ _ (HD i)) as K1. pose proof (adds_length _ _ (R_disjoint a b (X (ts E a b n_t)) i)) as K2.
    rewrite !size_types, best_length_image in K1 by exact Hf. lia. }
  split; [|split; [|split]].
  - intros s. rewrite !countP_join. apply sumn_ext. intros i Hi. destruct (HR i Hi) as [-> ->]. destruct s.
    + pose proof (adds_side_A _ _ (HD i)) as K1. pose proof (adds_side_A _ _ (R_disjoint a b (X (ts E a b n_t)) i)) as K2.
      rewrite !size_types in K1 by exact Hf. lia.
    + pose proof (adds_side_B _ _ (HD i)) as K1. pose proof (adds_side_B _ _ (R_disjoint a b (X (ts E a b n_t)) i)) as K2.
      rewrite !size_types in K1 by exact Hf. lia.
  - exact HL.
  - apply sumn_ext. intros i Hi. destruct (HR i Hi) as [-> ->]. apply best_length_image.
  - intros Hd. change distance with pair_cost. rewrite !pair_cost_join. apply sumn_fmap_sum_Z. intros i Hi.
    destruct (HR i Hi) as [-> ->]. apply best_cost_image, Hd.
Qed.

End Renaming.
