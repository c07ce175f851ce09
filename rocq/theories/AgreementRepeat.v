(** Property C77: items that occur several times. *)
From Verif Require Import SpecValue SpecML FormatProofs Round RoundProofs BedProofs BedTheory SimStats SimRound SimProofs SimMain SimSym
  MLProofs MLSums DictProofs DispatchProofs DispatchMain AgreementProofs AgreementMain AgreementFinal AgreementExact AgreementPerm AgreementBias AgreementPublic AgreementValue.
From Coq Require Import Lqa.
Open Scope Z_scope.

(** ** [k] copies of a list *)

Definition copies {X} (k : nat) (l : list X) : list X := mjoin (replicate k l).

Lemma copies_S {X} k (l : list X) : copies (S k) l = l ++ copies k l.
Proof. reflexivity. Qed.

Lemma copies_fmap {X Y} (h : X -> Y) k l : h <$> copies k l = copies k (h <$> l).
Proof. induction k as [|k IH]; [reflexivity|]. rewrite !copies_S, fmap_app, IH. reflexivity. Qed.

Lemma copies_bind {X Y} (h : X -> list Y) k l : copies k l ≫= h = copies k (l ≫= h).
Proof. induction k as [|k IH]; [reflexivity|]. rewrite !copies_S, bind_app, IH. reflexivity. Qed.

Lemma bind_split {X Y} (h1 h2 : X -> list Y) l : l ≫= (fun x => h1 x ++ h2 x) ≡ₚ (l ≫= h1) ++ (l ≫= h2).
Proof.
  induction l as [|x l IH]; [reflexivity|]. rewrite !bind_cons, IH, <- !app_assoc. apply Permutation_app_head.
  rewrite !app_assoc. apply Permutation_app_tail, Permutation_app_comm.
Qed.

Lemma bind_copies {X Y} (h : X -> list Y) k l : l ≫= (fun x => copies k (h x)) ≡ₚ copies k (l ≫= h).
Proof.
  induction k as [|k IH]; [|rewrite copies_S, <- IH; apply bind_split].
  induction l as [|x l IH]; [reflexivity|]. rewrite bind_cons. exact IH.
Qed.

Lemma copies_filter {X} (P : X -> Prop) `{forall x, Decision (P x)} k l : filter P (copies k l) = copies k (filter P l).
Proof. induction k as [|k IH]; [reflexivity|]. rewrite !copies_S, filter_app, IH. reflexivity. Qed.

Lemma copies_zsum k l : zsum (copies k l) = Z.of_nat k * zsum l.
Proof. induction k as [|k IH]; [reflexivity|]. rewrite copies_S, zsum_app, IH. lia. Qed.

Lemma copies_zlen {X} k (l : list X) : zlen (copies k l) = Z.of_nat k * zlen l.
Proof. unfold zlen. induction k as [|k IH]; [reflexivity|]. rewrite copies_S, app_length. lia. Qed.

Lemma copies_qsum k l : (qsum (copies k l) == inject_Z (Z.of_nat k) * qsum l)%Q.
Proof.
  induction k as [|k IH]; [change (copies 0 l) with (@nil Q); rewrite qsum_nil; change (inject_Z (Z.of_nat 0)) with 0%Q; lra|].
  rewrite copies_S, qsum_app, IH, Nat2Z.inj_succ, <- Z.add_1_r, inject_Z_plus. change (inject_Z 1) with 1%Q. lra.
Qed.

Lemma elem_of_copies {X} (x : X) k l : (0 < k)%nat -> x ∈ copies k l <-> x ∈ l.
Proof.
  induction k as [|k IH]; intros Hk; [lia|]. rewrite copies_S, elem_of_app. destruct k; [|rewrite IH by lia; tauto].
  change (copies 0 l) with (@nil X). rewrite elem_of_nil. tauto.
Qed.

Lemma some_elem {X} (l : list X) : l <> [] -> exists x, x ∈ l.
Proof. destruct l as [|x l]; [contradiction|]. intros _. exists x. left. Qed.

(** ** The statistics *)

Section Repeat.
Context (k : nat) (Hk : (0 < k)%nat) (coders : list string) (items items' : dict (dict seg)) (HR : repeated k items items').

Lemma rep_perm : items'.*2 ≡ₚ copies k items.*2.
Proof. exact HR. Qed.

Lemma rep_l ic : ic ∈ items -> exists ic', ic' ∈ items' /\ snd ic' = snd ic.
Proof.
  intros H. assert (Hi : snd ic ∈ items'.*2) by (rewrite rep_perm; apply elem_of_copies; [exact Hk|]; apply elem_of_list_fmap; eauto).
  apply elem_of_list_fmap in Hi as (jc & Hj & Hin). eauto.
Qed.

Lemma rep_r ic' : ic' ∈ items' -> exists ic, ic ∈ items /\ snd ic = snd ic'.
Proof.
  intros H. assert (Hi : snd ic' ∈ items'.*2) by (apply elem_of_list_fmap; eauto). rewrite rep_perm in Hi. apply elem_of_copies in Hi; [|exact Hk].
  apply elem_of_list_fmap in Hi as (jc & Hj & Hin). eauto.
Qed.

Lemma coding_snd f c ic ic' : snd ic = snd ic' -> coding f c ic = coding f c ic'.
Proof. unfold coding. intros ->. reflexivity. Qed.

Lemma seg_of_snd c ic ic' : snd ic = snd ic' -> seg_of c ic = seg_of c ic'.
Proof. unfold seg_of. intros ->. reflexivity. Qed.

Lemma coded_repeated f : coded f coders items <-> coded f coders items'.
Proof.
  split; intros [H1 H2 H3 H4 H5 H6]; constructor; try assumption.
  - destruct (some_elem items H3) as [ic Hic]. destruct (rep_l ic Hic) as (ic' & Hi & _). intros E0. rewrite E0 in Hi. apply elem_of_nil in Hi. exact Hi.
  - intros ic c Hic Hc. destruct (rep_r ic Hic) as (jc & Hj & Ej). rewrite <- Ej. apply H4; assumption.
  - intros ic c c' Hic Hc Hc'. destruct (rep_r ic Hic) as (jc & Hj & Ej). rewrite <- !(coding_snd f _ jc ic Ej). apply H5; assumption.
  - intros ic c c' Hic Hc Hc' Hne. destruct (rep_r ic Hic) as (jc & Hj & Ej). rewrite <- !(coding_snd f _ jc ic Ej). apply H6; assumption.
  - destruct (some_elem items' H3) as [ic Hic]. destruct (rep_r ic Hic) as (ic' & Hi & _). intros E0. rewrite E0 in Hi. apply elem_of_nil in Hi. exact Hi.
  - intros ic c Hic Hc. destruct (rep_l ic Hic) as (jc & Hj & Ej). rewrite <- Ej. apply H4; assumption.
  - intros ic c c' Hic Hc Hc'. destruct (rep_l ic Hic) as (jc & Hj & Ej). rewrite <- !(coding_snd f _ jc ic Ej). apply H5; assumption.
  - intros ic c c' Hic Hc Hc' Hne. destruct (rep_l ic Hic) as (jc & Hj & Ej). rewrite <- !(coding_snd f _ jc ic Ej). apply H6; assumption.
Qed.

Lemma cached_repeated f : cached f coders items -> cached f coders items'.
Proof. intros H ic c c' Hic Hc Hc'. destruct (rep_r ic Hic) as (jc & Hj & Ej). rewrite <- !(coding_snd f _ jc ic Ej). apply H; assumption. Qed.

Lemma spread_repeated {C} (g : string -> string -> string * dict seg -> list C) :
  (forall m n ic ic', snd ic = snd ic' -> g m n ic = g m n ic') -> spread g coders items' ≡ₚ copies k (spread g coders items).
Proof.
  intros Hg. rewrite !spread_cons, <- bind_copies. apply bind_perm_r. intros [m n] _. cbn [fst snd].
  set (h := fun d : dict seg => g m n (""%string, d)).
  assert (HH : forall l : dict (dict seg), l ≫= g m n = l.*2 ≫= h).
  { clear -Hg. subst h. induction l as [|ic l IH]; [reflexivity|]. rewrite fmap_cons, !bind_cons, IH. f_equal. apply Hg. reflexivity. }
  rewrite !HH, <- copies_bind. apply bind_perm_l, rep_perm.
Qed.

Context (E : env) (n_t : Z) (f : fmt) (cmp : Agreement.compare) (HE : env_ok E).
Context (Hca : comparison exactA E n_t (cached f coders items) cmp) (Hca' : comparison exactA E n_t (cached f coders items') cmp).

Notation Es := (jobs_of coders items ≫= entry2 (marks_of f) (room_of f)).
Notation Es' := (jobs_of coders items' ≫= entry2 (marks_of f) (room_of f)).

Lemma k_pos : (0 < inject_Z (Z.of_nat k))%Q.
Proof using Hk. change 0%Q with (inject_Z 0). rewrite <- Zlt_Qlt. lia. Qed.

Lemma over_repeated {C} (h : string -> string -> string * dict seg -> C) : (forall m n ic ic', snd ic = snd ic' -> h m n ic = h m n ic') ->
  over h <$> jobs_of coders items' ≡ₚ copies k (over h <$> jobs_of coders items).
Proof using HR. intros Hh. rewrite !over_spread. apply spread_repeated. intros m n ic ic' E0. rewrite (Hh m n ic ic' E0). reflexivity. Qed.

Lemma Aa_repeated : n_t <> 0 -> coded f coders items -> exact_Aa f coders items' cmp = exact_Aa f coders items cmp.
Proof.
  intros Hn HC. pose proof (dsum_pos exactA E n_t f coders items cmp HE Hn HC Hca) as HD. unfold exact_Aa, dsum in *. apply Qred_complete.
  assert (S1 : forall m n ic ic', snd ic = snd ic' -> num_of cmp f m n ic = num_of cmp f m n ic').
  { intros m n ic ic' E0. unfold num_of. rewrite !(seg_of_snd _ ic ic' E0). reflexivity. }
  assert (S2 : forall m n ic ic', snd ic = snd ic' -> den_of cmp f m n ic = den_of cmp f m n ic').
  { intros m n ic ic' E0. unfold den_of. rewrite !(seg_of_snd _ ic ic' E0). reflexivity. }
  rewrite (qsum_perm _ _ (over_repeated _ S1)), (zsum_perm _ _ (over_repeated _ S2)), copies_qsum, copies_zsum, inject_Z_mult.
  pose proof k_pos. assert (0 < inject_Z (zsum (over (den_of cmp f) <$> jobs_of coders items)))%Q by (change 0%Q with (inject_Z 0); rewrite <- Zlt_Qlt; apply HD).
  field. split; lra.
Qed.

Lemma entries_repeated : Es' ≡ₚ copies k Es.
Proof using HR.
  rewrite !entries_spread. apply spread_repeated. intros m n ic ic' E0. unfold marks_of, room_of. rewrite !(coding_snd f _ ic ic' E0). reflexivity.
Qed.

Lemma share_repeated : coded f coders items -> (mean_share Es' == mean_share Es)%Q.
Proof using HR Hk.
  intros HC. unfold mean_share. pose proof entries_repeated as HP.
  assert (zlen Es' = Z.of_nat k * zlen Es) as -> by (rewrite <- copies_zlen; unfold zlen; rewrite HP; reflexivity).
  rewrite (qsum_perm (ratio <$> Es'.*2) (copies k (ratio <$> Es.*2))) by (rewrite HP, !copies_fmap; reflexivity).
  rewrite copies_qsum, inject_Z_mult. pose proof k_pos.
  assert (0 < inject_Z (zlen Es))%Q.
  { change 0%Q with (inject_Z 0). rewrite <- Zlt_Qlt. pose proof (entries_nonempty f coders items HC). unfold zlen. destruct Es; [contradiction|]. cbn [length]. lia. }
  field. split; lra.
Qed.

Lemma product_repeated : coded f coders items -> (mean_product coders Es' == mean_product coders Es)%Q.
Proof using HR Hk.
  intros HC. unfold mean_product. apply Qmult_comp; [|reflexivity]. apply qsum_fmap_ext. intros [m n] Hp. cbn [fst snd].
  assert (G : forall c, c ∈ coders -> (ratio (cpool Es' c) == ratio (cpool Es c))%Q).
  { intros c Hc. pose proof (cpool_share coders Es (entries_keys f coders items HC) (entries_share f coders items HC) c Hc) as HS.
    unfold cpool in *. rewrite (pool_perm ((filter (fun e => fst e = c) Es').*2) (copies k (filter (fun e => fst e = c) Es).*2))
      by (rewrite entries_repeated, copies_filter, copies_fmap; reflexivity).
    unfold pool, ratio, share in *. cbn [fst snd] in *. rewrite !copies_fmap, !copies_zsum, !inject_Z_mult.
    assert (0 < inject_Z (zsum ((filter (fun e => fst e = c) Es).*2).*2))%Q by (change 0%Q with (inject_Z 0); rewrite <- Zlt_Qlt; lia).
    pose proof k_pos. field. split; lra. }
  apply pairs2_distinct in Hp as (Hm & Hn & _); [|apply HC]. rewrite (G m Hm), (G n Hn). reflexivity.
Qed.

Lemma stats_repeated : n_t <> 0 -> coded f coders items ->
  actual_agreement exactA cmp f coders items' = actual_agreement exactA cmp f coders items /\
  corrected_by pi_Ae exactA cmp f coders items' = corrected_by pi_Ae exactA cmp f coders items /\
  corrected_by kappa_Ae exactA cmp f coders items' = corrected_by kappa_Ae exactA cmp f coders items.
Proof.
  intros Hn HC. assert (HC' : coded f coders items') by (apply coded_repeated, HC).
  rewrite (actual_value E n_t f coders items cmp HE Hn HC Hca), (actual_value E n_t f coders items' cmp HE Hn HC' Hca').
  rewrite (pi_exact E n_t f coders items cmp HE Hn HC Hca), (pi_exact E n_t f coders items' cmp HE Hn HC' Hca').
  rewrite (kappa_exact E n_t f coders items cmp HE Hn HC Hca), (kappa_exact E n_t f coders items' cmp HE Hn HC' Hca').
  rewrite (Aa_repeated Hn HC).
  assert (Qred (mean_share Es' * mean_share Es') = Qred (mean_share Es * mean_share Es)) as -> by (apply Qred_complete; rewrite (share_repeated HC); reflexivity).
  assert (Qred (mean_product coders Es') = Qred (mean_product coders Es)) as -> by (apply Qred_complete, (product_repeated HC)). auto.
Qed.

Lemma equal_counts_repeated : equal_counts items' = equal_counts items.
Proof using HR Hk.
  unfold equal_counts. assert ((list_to_set ((fun ic => zlen (snd ic)) <$> items') : gset Z) = list_to_set ((fun ic => zlen (snd ic)) <$> items)) as ->; [|reflexivity].
  apply set_eq. intros z. rewrite !elem_of_list_to_set, !elem_of_list_fmap. split; intros (ic & -> & Hic).
  - destruct (rep_r ic Hic) as (jc & Hj & Ej). exists jc. rewrite Ej. auto.
  - destruct (rep_l ic Hic) as (jc & Hj & Ej). exists jc. rewrite Ej. auto.
Qed.

Lemma few_repeated : existsb (fun ic => zlen (snd ic) <? 2) items' = existsb (fun ic => zlen (snd ic) <? 2) items.
Proof using HR Hk.
  apply eq_true_iff_eq. rewrite !existsb_exists. split; intros (ic & Hic & H); apply elem_of_list_In in Hic.
  - destruct (rep_r ic Hic) as (jc & Hj & Ej). exists jc. rewrite Ej. split; [apply elem_of_list_In, Hj|exact H].
  - destruct (rep_l ic Hic) as (jc & Hj & Ej). exists jc. rewrite Ej. split; [apply elem_of_list_In, Hj|exact H].
Qed.

Context (Hnd : NoDup coders).

Lemma same_coded {R} (x x' : res R) v :
  (x = Ok v -> coded f coders items /\ n_t <> 0) -> (x' = Ok v -> coded f coders items' /\ n_t <> 0) ->
  (n_t <> 0 -> coded f coders items -> x' = x) -> x = Ok v <-> x' = Ok v.
Proof using HR Hk.
  intros H1 H2 H. split; intros Hx.
  - destruct (H1 Hx) as [HC Hn]. rewrite (H Hn HC). exact Hx.
  - destruct (H2 Hx) as [HC Hn]. rewrite <- (H Hn) by (apply coded_repeated, HC). exact Hx.
Qed.

Lemma full_repeated :
  (forall v, actual_agreement exactA cmp f coders items = Ok v <-> actual_agreement exactA cmp f coders items' = Ok v) /\
  (forall v, pi_full exactA cmp f coders items = Ok v <-> pi_full exactA cmp f coders items' = Ok v) /\
  (forall v, kappa_full exactA cmp f coders items = Ok v <-> kappa_full exactA cmp f coders items' = Ok v).
Proof.
  split; [|split]; intros v.
  - apply same_coded; [apply (actual_inv _ f E); assumption|apply (actual_inv _ f E); assumption|]. intros Hn HC. apply stats_repeated; assumption.
  - rewrite !pi_is, equal_counts_repeated. destruct (equal_counts items); [|reflexivity].
    apply same_coded; [eapply (corrected_inv _ exactA E); eassumption|eapply (corrected_inv _ exactA E); eassumption|].
    intros Hn HC. apply stats_repeated; assumption.
  - rewrite !kappa_is, equal_counts_repeated, few_repeated. destruct (existsb _ items); [reflexivity|]. destruct (equal_counts items); [|reflexivity].
    apply same_coded; [eapply (corrected_inv _ exactA E); eassumption|eapply (corrected_inv _ exactA E); eassumption|].
    intros Hn HC. apply stats_repeated; assumption.
Qed.

Lemma bias_repeated v : bias_full exactA cmp f coders items = Ok v <-> bias_full exactA cmp f coders items' = Ok v.
Proof.
  destruct full_repeated as (_ & Hp & Hq). unfold bias_full. split; intros H.
  - destruct (pi_full exactA cmp f coders items) as [p|] eqn:P; [|discriminate].
    destruct (kappa_full exactA cmp f coders items) as [q|] eqn:K; [|destruct p as [[]]; discriminate].
    rewrite (proj1 (Hp p) eq_refl), (proj1 (Hq q) eq_refl). exact H.
  - destruct (pi_full exactA cmp f coders items') as [p|] eqn:P; [|discriminate].
    destruct (kappa_full exactA cmp f coders items') as [q|] eqn:K; [|destruct p as [[]]; discriminate].
    rewrite (proj2 (Hp p) eq_refl), (proj2 (Hq q) eq_refl). exact H.
Qed.
End Repeat.

Theorem agreement_repeated k E n_t f cord b om c c' : (0 < k)%nat ->
  env_ok E -> lord_ok cord -> c_format c' f = c_format c f -> c_coders c' = c_coders c -> repeated k (c_items c) (c_items c') ->
  (b = true \/ cached (c_format c f) (cord (c_coders c)) (c_items c)) ->
  let X := compare_with b exactA E n_t om in
  (forall v, actual_agreement_linear exactA X f cord c = Ok v <-> actual_agreement_linear exactA X f cord c' = Ok v) /\
  forall rp v, (fleiss_pi_linear exactA X f cord rp c = Ok v <-> fleiss_pi_linear exactA X f cord rp c' = Ok v) /\
    (fleiss_kappa_linear exactA X f cord rp c = Ok v <-> fleiss_kappa_linear exactA X f cord rp c' = Ok v) /\
    (artstein_poesio_bias_linear exactA X f cord rp c = Ok v <-> artstein_poesio_bias_linear exactA X f cord rp c' = Ok v).
Proof.
  intros Hk HE HL Hf HS HR Hb X. pose proof (lord_nodup cord (c_coders c) HL) as Hnd.
  unfold actual_agreement_linear, fleiss_pi_linear, fleiss_kappa_linear, artstein_poesio_bias_linear. rewrite Hf, HS.
  assert (G : comparison exactA E n_t (cached (c_format c f) (cord (c_coders c)) (c_items c)) X /\ comparison exactA E n_t (cached (c_format c f) (cord (c_coders c)) (c_items c')) X).
  { destruct Hb as [->|Hca]; [split; constructor|]. split; apply with_comparison; [exact Hca|]. apply (cached_repeated k Hk _ _ _ HR), Hca. }
  destruct G as [G G'].
  destruct (full_repeated k Hk _ _ _ HR E n_t (c_format c f) X HE G G' Hnd) as (A1 & A2 & A3).
  pose proof (bias_repeated k Hk _ _ _ HR E n_t (c_format c f) X HE G G' Hnd) as A4.
  split; [exact A1|]. intros rp v. split; [|split]; apply three_iff; assumption.
Qed.
