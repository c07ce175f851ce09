(** Actual agreement of some of the coders. *)
From Coq Require Import Lqa.
From stdpp Require Import gmap.
From Verif Require Import SpecAgreement SpecML SpecDispatch SpecSim SpecSub Spec Agreement Data FormatProofs DictProofs DispatchProofs MLSums AgreementProofs AgreementExact AgreementMain AgreementPublic AgreementPerm Pooled.
Open Scope Z_scope.

Lemma jobs_q (g : string -> string -> string * dict seg -> Q) l (items : dict (dict seg)) :
  (qsum (over g <$> jobs_of l items) == qsum ((fun p => qsum (g (fst p) (snd p) <$> items)) <$> pairs2 l))%Q.
Proof.
  unfold jobs_of. generalize (pairs2 l). intros P. induction P as [|[m n] P IH]; [reflexivity|]. cbn [mbind list_bind].
  rewrite fmap_app, qsum_app, <- list_fmap_compose, fmap_cons, qsum_cons. apply Qplus_comp; [reflexivity|exact IH].
Qed.

Lemma jobs_z (g : string -> string -> string * dict seg -> Z) l (items : dict (dict seg)) :
  zsum (over g <$> jobs_of l items) = zsum ((fun p => zsum (g (fst p) (snd p) <$> items)) <$> pairs2 l).
Proof.
  unfold jobs_of. generalize (pairs2 l). intros P. induction P as [|[m n] P IH]; [reflexivity|]. cbn [mbind list_bind].
  rewrite fmap_app, FormatProofs.zsum_app, <- list_fmap_compose, fmap_cons. cbn [zsum foldr]. f_equal. exact IH.
Qed.

Lemma dget_filter {V} (d : dict V) (sub : list string) k : k ∈ sub -> dget (filter (fun cs => fst cs ∈ sub) d) k = dget d k.
Proof.
  intros Hk. induction d as [|[k' v'] d IH]; [reflexivity|]. rewrite filter_cons. cbn [fst]. case_decide as Hs; cbn [dget].
  - rewrite IH. reflexivity.
  - rewrite IH. case_decide as K; [|reflexivity]. congruence.
Qed.

Lemma NoDup_filter_fst {V} (d : dict V) (sub : list string) : NoDup d.*1 -> NoDup (filter (fun cs => fst cs ∈ sub) d).*1.
Proof.
  induction d as [|[k v] d IH]; intros H; [apply NoDup_nil_2|]. rewrite fmap_cons in H. apply NoDup_cons in H as [H1 H2].
  rewrite filter_cons. case_decide; [|apply IH, H2]. rewrite fmap_cons. apply NoDup_cons. split; [|apply IH, H2].
  intros K. apply H1. apply elem_of_list_fmap in K as (e & He & K). apply elem_of_list_filter in K as [_ K]. apply elem_of_list_fmap. exists e. auto.
Qed.

(** ** Leaving one coder out *)

Notation avoids k p := (fst p <> k /\ snd p <> k).

Lemma pairs2_but k l : pairs2 (but k l) = filter (fun p : string * string => avoids k p) (pairs2 l).
Proof.
  unfold but. induction l as [|x l IH]; [reflexivity|]. rewrite filter_cons. cbn [pairs2]. rewrite filter_app, <- IH. case_decide as H.
  - cbn [pairs2]. f_equal. clear IH. induction l as [|y l IHl]; [reflexivity|]. rewrite filter_cons, fmap_cons, filter_cons. cbn [fst snd].
    destruct (decide (y <> k)) as [K|K].
    + rewrite (decide_True (P := x <> k /\ y <> k)) by auto. rewrite fmap_cons, IHl. reflexivity.
    + rewrite (decide_False (P := x <> k /\ y <> k)) by tauto. exact IHl.
  - assert (N : filter (fun p : string * string => avoids k p) ((fun y => (x, y)) <$> l) = []).
    { clear IH. induction l as [|y l IHl]; [reflexivity|]. rewrite fmap_cons, filter_cons, decide_False; [exact IHl|]. cbn [fst]. tauto. }
    rewrite N. reflexivity.
Qed.

Lemma qsum_const {X} (x : Q) (l : list X) : (qsum ((fun _ => x) <$> l) == inject_Z (zlen l) * x)%Q.
Proof.
  induction l as [|y l IH]; [symmetry; apply Qmult_0_l|]. rewrite fmap_cons, qsum_cons, IH. assert (E : zlen (y :: l) = 1 + zlen l) by (unfold zlen; cbn [length]; lia).
  rewrite E, inject_Z_plus. change (inject_Z 1) with 1%Q. ring.
Qed.

Lemma avoid_q (C : list string) (p : string * string) (x : Q) : NoDup C -> fst p ∈ C -> snd p ∈ C -> fst p <> snd p ->
  (qsum ((fun k => if decide (avoids k p) then x else 0) <$> C) == inject_Z (zlen C - 2) * x)%Q.
Proof.
  destruct p as [m n]. cbn [fst snd]. intros HN Hm Hn Hne. apply elem_of_Permutation in Hm as [R HR].
  assert (K : n ∈ R) by (rewrite HR in Hn; apply elem_of_cons in Hn as [->|Hn]; [contradiction|exact Hn]).
  apply elem_of_Permutation in K as [S HS]. assert (HP : C ≡ₚ m :: n :: S) by (rewrite HR, HS; reflexivity).
  rewrite HP in HN. apply NoDup_cons in HN as [N1 HN]. apply NoDup_cons in HN as [N2 _].
  rewrite (qsum_perm _ _ (fmap_Permutation _ _ _ HP)). rewrite !fmap_cons, !qsum_cons.
  rewrite (decide_False (P := m <> m /\ n <> m)) by tauto. rewrite (decide_False (P := m <> n /\ n <> n)) by tauto.
  rewrite (list_fmap_ext _ (fun _ => x) S).
  - rewrite qsum_const. assert (E : zlen C - 2 = zlen S) by (unfold zlen; rewrite HP; cbn [length]; lia). rewrite E. ring.
  - intros i k Hk. apply elem_of_list_lookup_2 in Hk. rewrite decide_True; [reflexivity|]. split; intros ->; [apply N1; right; exact Hk|exact (N2 Hk)].
Qed.

Lemma but_absent k l : k ∉ l -> but k l = l.
Proof.
  unfold but. induction l as [|x l IH]; intros H; [reflexivity|]. apply not_elem_of_cons in H as [H1 H2]. rewrite filter_cons, decide_True by congruence. f_equal. apply IH, H2.
Qed.

Lemma qsum_plus {X} (g h : X -> Q) l : (qsum ((fun x => g x + h x) <$> l) == qsum (g <$> l) + qsum (h <$> l))%Q.
Proof. induction l as [|x l IH]; [cbn; lra|]. rewrite !fmap_cons, !qsum_cons, IH. lra. Qed.

Lemma left_out (g : string * string -> Q) (C : list string) (P : list (string * string)) : NoDup C ->
  (forall p, p ∈ P -> fst p ∈ C /\ snd p ∈ C /\ fst p <> snd p) ->
  (qsum ((fun k => qsum (g <$> filter (fun p : string * string => avoids k p) P)) <$> C) == inject_Z (zlen C - 2) * qsum (g <$> P))%Q.
Proof.
  intros HN. induction P as [|p P IH]; intros HP.
  - etransitivity; [apply (qsum_const 0%Q C)|]. rewrite Qmult_0_r. symmetry. apply Qmult_0_r.
  - rewrite fmap_cons, qsum_cons.
    assert (E : (qsum ((fun k => qsum (g <$> filter (fun p : string * string => avoids k p) (p :: P))) <$> C) ==
      qsum ((fun k => (if decide (avoids k p) then g p else 0) + qsum (g <$> filter (fun p : string * string => avoids k p) P)) <$> C))%Q).
    { clear. induction C as [|k C IHC]; [reflexivity|]. rewrite !fmap_cons, !qsum_cons, IHC, filter_cons. case_decide; [rewrite fmap_cons, qsum_cons|]; lra. }
    rewrite E, qsum_plus, IH by (intros q Hq; apply HP; right; exact Hq).
    destruct (HP p ltac:(left)) as (H1 & H2 & H3). rewrite (avoid_q C p (g p) HN H1 H2 H3). ring.
Qed.

Lemma inject_zsum {X} (h : X -> Z) l : (inject_Z (zsum (h <$> l)) == qsum ((fun x => inject_Z (h x)) <$> l))%Q.
Proof. induction l as [|x l IH]; [reflexivity|]. rewrite !fmap_cons, qsum_cons, <- IH, <- inject_Z_plus. reflexivity. Qed.

Section subsets.
Context (E : env) (n_t : Z) (b om : bool) (F : fmt) (cord : gset string -> list string) (coders : list string) (items : dict (dict seg)).
Context (HE : env_ok E) (Hn : n_t <> 0) (HL : lord_ok cord).
Context (HC : coded F coders items) (HF : cached F coders items) (HI : items_ok items).
Notation X := (compare_with b exactA E n_t om).

Definition Np (p : string * string) : Q := qsum (num_of X F (fst p) (snd p) <$> items).
Definition Dp (p : string * string) : Z := zsum (den_of X F (fst p) (snd p) <$> items).

Lemma coding_only (sub : list string) ic k : k ∈ sub -> coding F k (fst ic, filter (fun cs => fst cs ∈ sub) (snd ic)) = coding F k ic.
Proof. intros Hk. unfold coding. cbn [snd]. rewrite dget_filter by exact Hk. reflexivity. Qed.

Lemma seg_only (sub : list string) ic k : k ∈ sub -> seg_of k (fst ic, filter (fun cs => fst cs ∈ sub) (snd ic)) = seg_of k ic.
Proof. intros Hk. unfold seg_of. cbn [snd]. rewrite dget_filter by exact Hk. reflexivity. Qed.

Lemma coded_only sub : NoDup sub -> (2 <= length sub)%nat -> (forall k, k ∈ sub -> k ∈ coders) -> coded F sub (only sub items) /\ cached F sub (only sub items).
Proof.
  intros HN H2 Hs. split; [constructor|].
  - exact HN.
  - exact H2.
  - pose proof (coded_items _ _ _ HC). unfold only. destruct items; [contradiction|discriminate].
  - intros ic k Hic Hk. unfold only in Hic. apply elem_of_list_fmap in Hic as (jc & -> & Hj). cbn [snd]. rewrite dget_filter by exact Hk.
    apply (coded_seg _ _ _ HC jc k Hj (Hs k Hk)).
  - intros ic k k' Hic Hk Hk'. apply elem_of_list_fmap in Hic as (jc & -> & Hj). rewrite !coding_only by assumption. apply (coded_len _ _ _ HC); auto.
  - intros ic k k' Hic Hk Hk' Hne. apply elem_of_list_fmap in Hic as (jc & -> & Hj). rewrite !coding_only by assumption. apply (coded_used _ _ _ HC); auto.
  - intros ic k k' Hic Hk Hk'. apply elem_of_list_fmap in Hic as (jc & -> & Hj). rewrite !coding_only by assumption. apply HF; auto.
Qed.

Lemma coders_only sub : (forall k, k ∈ sub -> k ∈ coders) -> c_coders (CDict (only sub items)) = list_to_set sub.
Proof.
  intros Hs. apply set_eq. intros k. cbn [c_coders]. unfold all_coders. rewrite elem_of_union_list, elem_of_list_to_set. split.
  - intros (S & HS & Hk). apply elem_of_list_fmap in HS as (d & -> & Hd). apply elem_of_list_fmap in Hd as (ic & -> & Hic).
    apply elem_of_list_fmap in Hic as (jc & -> & Hj). cbn [snd] in Hk. apply elem_of_list_to_set, elem_of_list_fmap in Hk as (cs & -> & Hcs).
    apply elem_of_list_filter in Hcs as [Hcs _]. exact Hcs.
  - intros Hk. pose proof (coded_items _ _ _ HC) as Hne. pose proof (fun ic => coded_seg _ _ _ HC ic k) as Hg. unfold only. destruct items as [|ic rest]; [contradiction|].
    exists (list_to_set (filter (fun cs => fst cs ∈ sub) (snd ic)).*1). split; [left|].
    destruct (Hg ic ltac:(left) (Hs k Hk)) as (s & x & Hd & _). apply elem_of_list_to_set, elem_of_list_fmap. exists (k, s).
    split; [reflexivity|]. apply elem_of_list_filter. split; [exact Hk|]. apply dget_elem, Hd.
Qed.

Lemma Dp_pos m n : m ∈ coders -> n ∈ coders -> m <> n -> 0 < Dp (m, n).
Proof.
  intros Hm Hn' Hne. unfold Dp. cbn [fst snd]. apply Pooled.zsum_pos; [exact (coded_items _ _ _ HC)|]. intros ic Hic.
  assert (HN : NoDup [m; n]) by (repeat constructor; set_solver).
  destruct (coded_only [m; n] HN ltac:(cbn; lia)) as [HC2 HF2].
  { intros k Hk. set_solver. }
  pose proof (job_ok exactA E n_t F [m; n] (only [m; n] items) X m n (fst ic, filter (fun cs => fst cs ∈ [m; n]) (snd ic)) HE Hn HC2 (with_comparison b exactA E n_t om _ HF2)) as HJ.
  destruct HJ as (_ & Hd & _).
  - cbn. left.
  - unfold only. apply elem_of_list_fmap. exists ic. auto.
  - unfold den_of in Hd |- *. rewrite !seg_only in Hd by set_solver. exact Hd.
Qed.

Lemma sub_value sub : NoDup sub -> (2 <= length sub)%nat -> (forall k, k ∈ sub -> k ∈ coders) ->
  exists w, actual_agreement_linear exactA X F cord (CDict (only sub items)) = Ok (NDec w) /\
    (w == qsum (Np <$> pairs2 sub) / inject_Z (zsum (Dp <$> pairs2 sub)))%Q.
Proof.
  intros HN H2 Hs. destruct (coded_only sub HN H2 Hs) as [HC2 HF2]. pose proof (coders_only sub Hs) as HK.
  set (ord := fun s : gset string => if decide (s = list_to_set sub) then sub else elements s).
  assert (HO : lord_ok ord). { intros s. unfold ord. case_decide as K; [|reflexivity]. subst s. symmetry. apply elements_list_to_set, HN. }
  assert (Ho : ord (c_coders (CDict (only sub items))) = sub). { rewrite HK. unfold ord. rewrite decide_True by reflexivity. reflexivity. }
  pose proof (actual_value E n_t F sub (only sub items) X HE Hn HC2 (with_comparison b exactA E n_t om _ HF2)) as HA.
  exists (exact_Aa F sub (only sub items) X). split.
  - destruct (agreement_relabelled id E E n_t b om F ord cord (CDict (only sub items)) (CDict (only sub items))) as [H _].
    + intros x y K. exact K.
    + exact HE.
    + exact HE.
    + exact HO.
    + exact HL.
    + reflexivity.
    + apply set_eq. intros k. rewrite elem_of_map. split; [intros K; exists k; auto|intros (k' & -> & K); exact K].
    + exists (only sub items). split; [reflexivity|]. cbn [c_items]. apply Forall_Forall2_diag, Forall_forall. intros ic Hic. split.
      * apply elem_of_list_fmap in Hic as ([i cs] & -> & Hj). cbn [snd]. pose proof (proj2 HI i cs Hj) as Hd. unfold dict_ok in *. cbn [snd].
        apply NoDup_filter_fst, Hd.
      * rewrite (list_fmap_ext _ id (snd ic)); [rewrite list_fmap_id; reflexivity|]. intros ? [? ?] _. reflexivity.
    + cbn [c_format c_items]. intros ic k k' Hic Hk Hk'. apply HF2; [exact Hic| |]; [clear Hk'|clear Hk; rename Hk' into Hk]; rewrite HK in Hk; apply elem_of_elements, elem_of_list_to_set in Hk; exact Hk.
    + apply H. unfold actual_agreement_linear. rewrite Ho. exact HA.
  - unfold exact_Aa, dsum. rewrite Qred_correct, jobs_q, jobs_z.
    assert (E1 : (fun p => qsum (num_of X F (fst p) (snd p) <$> only sub items)) <$> pairs2 sub = Np <$> pairs2 sub).
    { apply list_fmap_ext. intros i [m n] Hp. apply elem_of_list_lookup_2, pairs2_distinct in Hp as (Hm & Hn' & _); [|exact HN]. unfold Np, only. cbn [fst snd].
      f_equal. rewrite <- list_fmap_compose. apply list_fmap_ext. intros ? ic _. cbn. unfold num_of. rewrite !seg_only by assumption. reflexivity. }
    assert (E2 : (fun p => zsum (den_of X F (fst p) (snd p) <$> only sub items)) <$> pairs2 sub = Dp <$> pairs2 sub).
    { apply list_fmap_ext. intros i [m n] Hp. apply elem_of_list_lookup_2, pairs2_distinct in Hp as (Hm & Hn' & _); [|exact HN]. unfold Dp, only. cbn [fst snd].
      f_equal. rewrite <- list_fmap_compose. apply list_fmap_ext. intros ? ic _. cbn. unfold den_of. rewrite !seg_only by assumption. reflexivity. }
    rewrite E1, E2. reflexivity.
Qed.

Lemma whole_value : (exact_Aa F coders items X == qsum (Np <$> pairs2 coders) / inject_Z (zsum (Dp <$> pairs2 coders)))%Q.
Proof. unfold exact_Aa, dsum. rewrite Qred_correct, jobs_q, jobs_z. reflexivity. Qed.

Lemma pair_bounds : exists m n m' n' lo hi, m ∈ coders /\ n ∈ coders /\ m <> n /\ m' ∈ coders /\ n' ∈ coders /\ m' <> n' /\
  actual_agreement_linear exactA X F cord (CDict (only [m; n] items)) = Ok (NDec lo) /\
  actual_agreement_linear exactA X F cord (CDict (only [m'; n'] items)) = Ok (NDec hi) /\
  (lo <= exact_Aa F coders items X <= hi)%Q.
Proof.
  pose proof (coded_coders _ _ _ HC) as HN. pose proof (coded_two _ _ _ HC) as H2.
  destruct (mediant Np Dp (pairs2 coders)) as ([m n] & [m' n'] & K1 & K2 & B1 & B2).
  - destruct coders as [|x [|y rest]]; [cbn in H2; lia|cbn in H2; lia|discriminate].
  - intros [m n] Hp. apply pairs2_distinct in Hp as (? & ? & ?); [|exact HN]. apply Dp_pos; assumption.
  - apply pairs2_distinct in K1 as (M1 & M2 & M3); [|exact HN]. apply pairs2_distinct in K2 as (M4 & M5 & M6); [|exact HN].
    destruct (sub_value [m; n]) as (lo & L1 & L2); [repeat constructor; set_solver|cbn; lia|set_solver|].
    destruct (sub_value [m'; n']) as (hi & U1 & U2); [repeat constructor; set_solver|cbn; lia|set_solver|].
    exists m, n, m', n', lo, hi. do 6 (split; [assumption|]). split; [exact L1|]. split; [exact U1|].
    rewrite whole_value, L2, U2. cbn [pairs2 fmap list_fmap app qsum zsum foldr]. rewrite !Z.add_0_r, !Qplus_0_r. split; assumption.
Qed.

Lemma length_but k : (3 <= length coders)%nat -> (2 <= length (but k coders))%nat.
Proof.
  intros H3. pose proof (coded_coders _ _ _ HC) as HN. destruct (decide (k ∈ coders)) as [Hk|Hk].
  - apply elem_of_Permutation in Hk as [R HR]. unfold but. rewrite HR in HN, H3 |- *. apply NoDup_cons in HN as [N1 _].
    rewrite filter_cons, decide_False by tauto. fold (but k R). rewrite (but_absent k R N1). cbn in H3. lia.
  - rewrite (but_absent k coders Hk). lia.
Qed.

Lemma left_out_bounds : (3 <= length coders)%nat -> exists k k' lo hi, k ∈ coders /\ k' ∈ coders /\
  actual_agreement_linear exactA X F cord (CDict (only (but k coders) items)) = Ok (NDec lo) /\
  actual_agreement_linear exactA X F cord (CDict (only (but k' coders) items)) = Ok (NDec hi) /\
  (lo <= exact_Aa F coders items X <= hi)%Q.
Proof.
  intros H3. pose proof (coded_coders _ _ _ HC) as HN.
  set (num := fun k => qsum (Np <$> pairs2 (but k coders))). set (den := fun k => zsum (Dp <$> pairs2 (but k coders))).
  assert (HB : forall k, NoDup (but k coders)) by (intros k; apply NoDup_filter, HN).
  assert (HS : forall k x, x ∈ but k coders -> x ∈ coders) by (intros k x H; apply elem_of_list_filter in H as [_ H]; exact H).
  assert (HP : forall p, p ∈ pairs2 coders -> fst p ∈ coders /\ snd p ∈ coders /\ fst p <> snd p) by (intros [m n] H; apply pairs2_distinct in H; [exact H|exact HN]).
  destruct (mediant num den coders) as (k & k' & K1 & K2 & B1 & B2).
  - destruct coders; [cbn in H3; lia|discriminate].
  - intros k _. unfold den. apply Pooled.zsum_pos.
    + pose proof (length_but k H3). destruct (but k coders) as [|x [|y rest]]; [cbn in *; lia|cbn in *; lia|discriminate].
    + intros [m n] H. apply pairs2_distinct in H as (? & ? & ?); [|apply HB]. apply Dp_pos; [eapply HS; eassumption..|assumption].
  - assert (E1 : (qsum (num <$> coders) == inject_Z (zlen coders - 2) * qsum (Np <$> pairs2 coders))%Q).
    { rewrite <- (left_out Np coders (pairs2 coders) HN HP). unfold num.
      rewrite (list_fmap_ext _ (fun k => qsum (Np <$> filter (fun p : string * string => avoids k p) (pairs2 coders))) coders); [reflexivity|].
      intros i x _. rewrite pairs2_but. reflexivity. }
    assert (E2 : (inject_Z (zsum (den <$> coders)) == inject_Z (zlen coders - 2) * inject_Z (zsum (Dp <$> pairs2 coders)))%Q).
    { rewrite (inject_zsum Dp), <- (left_out (fun p => inject_Z (Dp p)) coders (pairs2 coders) HN HP), inject_zsum. unfold den.
      clear - HN. generalize coders at 2 4 as C. intros C. induction C as [|x C IH]; [reflexivity|]. rewrite !fmap_cons, !qsum_cons, IH, pairs2_but, inject_zsum. reflexivity. }
    assert (PD : (0 < inject_Z (zsum (Dp <$> pairs2 coders)))%Q).
    { rewrite <- (Zlt_Qlt 0). apply Pooled.zsum_pos; [destruct coders as [|x [|y rest]]; [cbn in H3; lia|cbn in H3; lia|discriminate]|].
      intros [m n] H. destruct (HP _ H) as (? & ? & ?). apply Dp_pos; assumption. }
    assert (PK : (0 < inject_Z (zlen coders - 2))%Q) by (rewrite <- (Zlt_Qlt 0); unfold zlen; lia).
    assert (EW : (qsum (num <$> coders) / inject_Z (zsum (den <$> coders)) == exact_Aa F coders items X)%Q).
    { rewrite E1, E2, whole_value. field. split; intros K; [rewrite K in PD; discriminate PD|rewrite K in PK; discriminate PK]. }
    destruct (sub_value (but k coders) (HB k) (length_but k H3) (HS k)) as (lo & L1 & L2).
    destruct (sub_value (but k' coders) (HB k') (length_but k' H3) (HS k')) as (hi & U1 & U2).
    exists k, k', lo, hi. do 2 (split; [assumption|]). split; [exact L1|]. split; [exact U1|]. rewrite L2, U2, <- EW. split; assumption.
Qed.
End subsets.

Theorem pairs_of_coders E n_t b om f cord c : env_ok E -> n_t <> 0 -> lord_ok cord ->
  coded (c_format c f) (cord (c_coders c)) (c_items c) -> cached (c_format c f) (cord (c_coders c)) (c_items c) -> items_ok (c_items c) ->
  let X := compare_with b exactA E n_t om in
  exists v m n m' n' lo hi, actual_agreement_linear exactA X f cord c = Ok (NDec v) /\
    m ∈ c_coders c /\ n ∈ c_coders c /\ m <> n /\ m' ∈ c_coders c /\ n' ∈ c_coders c /\ m' <> n' /\
    actual_agreement_linear exactA X (c_format c f) cord (CDict (only [m; n] (c_items c))) = Ok (NDec lo) /\
    actual_agreement_linear exactA X (c_format c f) cord (CDict (only [m'; n'] (c_items c))) = Ok (NDec hi) /\ (lo <= v <= hi)%Q.
Proof.
  intros HE Hn HL HC HF HI X. assert (HM : forall k, k ∈ cord (c_coders c) -> k ∈ c_coders c) by (intros k H; rewrite (HL _) in H; apply elem_of_elements, H).
  destruct (pair_bounds E n_t b om _ cord _ _ HE Hn HL HC HF HI) as (m & n & m' & n' & lo & hi & H1 & H2 & H3 & H4 & H5 & H6 & H7).
  exists (exact_Aa (c_format c f) (cord (c_coders c)) (c_items c) X), m, n, m', n', lo, hi.
  split; [apply (actual_value E n_t _ _ _ X HE Hn HC (with_comparison b exactA E n_t om _ HF))|]. auto 10.
Qed.

Theorem coder_left_out E n_t b om f cord c : env_ok E -> n_t <> 0 -> lord_ok cord ->
  coded (c_format c f) (cord (c_coders c)) (c_items c) -> cached (c_format c f) (cord (c_coders c)) (c_items c) -> items_ok (c_items c) ->
  (3 <= size (c_coders c))%nat ->
  let X := compare_with b exactA E n_t om in
  exists v k k' lo hi, actual_agreement_linear exactA X f cord c = Ok (NDec v) /\ k ∈ c_coders c /\ k' ∈ c_coders c /\
    actual_agreement_linear exactA X (c_format c f) cord (CDict (only (but k (cord (c_coders c))) (c_items c))) = Ok (NDec lo) /\
    actual_agreement_linear exactA X (c_format c f) cord (CDict (only (but k' (cord (c_coders c))) (c_items c))) = Ok (NDec hi) /\ (lo <= v <= hi)%Q.
Proof.
  intros HE Hn HL HC HF HI HS X. assert (HM : forall k, k ∈ cord (c_coders c) -> k ∈ c_coders c) by (intros k H; rewrite (HL _) in H; apply elem_of_elements, H).
  destruct (left_out_bounds E n_t b om _ cord _ _ HE Hn HL HC HF HI) as (k & k' & lo & hi & H1 & H2 & H3).
  { rewrite (HL _). exact HS. }
  exists (exact_Aa (c_format c f) (cord (c_coders c)) (c_items c) X), k, k', lo, hi.
  split; [apply (actual_value E n_t _ _ _ X HE Hn HC (with_comparison b exactA E n_t om _ HF))|]. auto 10.
Qed.
