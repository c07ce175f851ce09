(** Facts about dicts with string keys and about comma-joined names. *)
From Verif Require Export Dict.

Section Dicts.
Context {V : Type}.
Implicit Types d e : dict V.

Lemma dget_Some d k v : dict_ok d -> dget d k = Some v <-> (k, v) ∈ d.
Proof.
  unfold dict_ok. induction d as [|[k' v'] d IH]; cbn [dget]; intros H.
  - split; [discriminate|]. intros K. apply elem_of_nil in K. contradiction.
  - cbn in H. apply NoDup_cons in H as [H1 H2]. rewrite elem_of_cons. destruct (decide (k = k')) as [->|Hk].
    + split; [intros K; injection K as ->; auto|]. intros [K|K]; [congruence|].
      exfalso. apply H1. apply elem_of_list_fmap. exists (k', v). auto.
    + rewrite (IH H2). split; [auto|]. intros [K|K]; [congruence|exact K].
Qed.

Lemma dget_elem d k v : dget d k = Some v -> (k, v) ∈ d.
Proof.
  induction d as [|[k' v'] d IH]; cbn [dget]; [discriminate|]. rewrite elem_of_cons.
  destruct (decide (k = k')) as [->|Hk]; [intros K; injection K as ->; auto|auto].
Qed.

Lemma dget_None d k : dget d k = None <-> k ∉ d.*1.
Proof.
  induction d as [|[k' v'] d IH]; cbn [dget fmap list_fmap fst]; [split; [intros _; apply not_elem_of_nil|auto]|].
  rewrite not_elem_of_cons. destruct (decide (k = k')); [split; [discriminate|tauto]|]. rewrite IH. tauto.
Qed.

Lemma dget_is_Some d k : is_Some (dget d k) <-> k ∈ d.*1.
Proof.
  pose proof (dget_None d k) as H. destruct (dget d k) as [v|].
  - split; [intros _|eauto]. destruct (decide (k ∈ d.*1)); [assumption|]. exfalso. apply H in n. discriminate.
  - split; [intros [? ?]; discriminate|]. intros K. exfalso. apply H; auto.
Qed.

Lemma dget_dset d k v k' : dget (dset d k v) k' = if decide (k' = k) then Some v else dget d k'.
Proof.
  induction d as [|[k1 v1] d IH]; cbn [dset dget].
  - destruct (decide (k' = k)); reflexivity.
  - destruct (decide (k = k1)) as [<-|Hk]; cbn [dget].
    + destruct (decide (k' = k)); reflexivity.
    + destruct (decide (k' = k1)) as [->|]; [|exact IH]. destruct (decide (k1 = k)); [congruence|reflexivity].
Qed.

Lemma dset_keys d k v : (dset d k v).*1 = if dmem d k then d.*1 else d.*1 ++ [k].
Proof.
  unfold dmem. induction d as [|[k1 v1] d IH]; cbn [dset dget]; [reflexivity|].
  destruct (decide (k = k1)) as [<-|Hk]; cbn [fmap list_fmap fst]; [reflexivity|].
  unfold fmap in *. rewrite IH. destruct (dget d k); reflexivity.
Qed.

Lemma dmem_true d k : dmem d k = true <-> k ∈ d.*1.
Proof. unfold dmem. rewrite <- dget_is_Some. destruct (dget d k); split; try discriminate; eauto. intros [? ?]; discriminate. Qed.

Lemma dmem_false d k : dmem d k = false <-> k ∉ d.*1.
Proof. rewrite <- dmem_true. destruct (dmem d k); split; congruence. Qed.

Lemma dset_ok d k v : dict_ok d -> dict_ok (dset d k v).
Proof.
  unfold dict_ok. rewrite dset_keys. destruct (dmem d k) eqn:H; [auto|]. apply dmem_false in H. intros K.
  apply NoDup_app. split; [exact K|]. split; [|apply NoDup_singleton]. intros x Hx Hx'. apply elem_of_list_singleton in Hx'. congruence.
Qed.

Lemma dset_fresh d k v : k ∉ d.*1 -> dset d k v = d ++ [(k, v)].
Proof.
  induction d as [|[k1 v1] d IH]; cbn [dset fmap list_fmap fst app]; [reflexivity|].
  rewrite not_elem_of_cons. intros [H1 H2]. destruct (decide (k = k1)); [congruence|]. rewrite (IH H2). reflexivity.
Qed.

Lemma dset_elem d k v k' : k' ∈ (dset d k v).*1 <-> k' = k \/ k' ∈ d.*1.
Proof.
  rewrite <- !dget_is_Some, dget_dset. destruct (decide (k' = k)).
  - split; [auto|eauto].
  - split; [auto|]. intros [?|?]; [contradiction|assumption].
Qed.

Lemma dupdate_app d e1 e2 : dupdate d (e1 ++ e2) = dupdate (dupdate d e1) e2.
Proof. apply foldl_app. Qed.

Lemma dupdate_ok d e : dict_ok d -> dict_ok (dupdate d e).
Proof. revert d. induction e as [|[k v] e IH]; cbn; intros d H; [exact H|]. apply IH, dset_ok, H. Qed.

Lemma dupdate_nodup d e : dict_ok (d ++ e) -> dupdate d e = d ++ e.
Proof.
  revert d. induction e as [|[k v] e IH]; intros d H; [cbn; rewrite app_nil_r; reflexivity|].
  cbn [dupdate foldl]. fold (dupdate (dset d k v) e). unfold dict_ok in H. rewrite fmap_app in H.
  assert (Hk : k ∉ d.*1).
  { intros K. apply NoDup_app in H as (_ & H & _). apply (H k K). cbn. apply elem_of_cons. auto. }
  rewrite (dset_fresh d k v Hk). rewrite IH.
  - rewrite <- app_assoc. reflexivity.
  - unfold dict_ok. rewrite <- app_assoc. cbn [app]. rewrite fmap_app. exact H.
Qed.

Lemma dupdate_elem d e k : k ∈ (dupdate d e).*1 <-> k ∈ d.*1 \/ k ∈ e.*1.
Proof.
  revert d. induction e as [|[k' v] e IH]; intros d; cbn [dupdate foldl].
  - split; [auto|]. intros [?|K]; [assumption|]. apply elem_of_nil in K. contradiction.
  - fold (dupdate (dset d k' v) e). rewrite IH, dset_elem. cbn [fmap list_fmap fst]. rewrite elem_of_cons. tauto.
Qed.

(** Setting two different keys, the first of which is there already. *)
Lemma dset_comm d k v k' v' : k <> k' -> k ∈ d.*1 -> dset (dset d k' v') k v = dset (dset d k v) k' v'.
Proof.
  intros Hk. induction d as [|[k1 v1] d IH]; cbn [dset fmap list_fmap fst].
  - intros K. apply elem_of_nil in K. contradiction.
  - rewrite elem_of_cons. intros Hin.
    destruct (decide (k' = k1)) as [->|H1].
    + destruct (decide (k = k1)) as [->|H2]; [congruence|]. cbn [dset]. destruct (decide (k = k1)); [congruence|].
      destruct (decide (k1 = k1)); [|congruence]. reflexivity.
    + destruct (decide (k = k1)) as [->|H2]; cbn [dset].
      * destruct (decide (k1 = k1)); [|congruence]. destruct (decide (k' = k1)); [congruence|reflexivity].
      * destruct (decide (k = k1)); [congruence|]. destruct (decide (k' = k1)); [congruence|].
        rewrite IH; [reflexivity|]. destruct Hin; [congruence|assumption].
Qed.

Lemma dset_twice d k v v' : dset (dset d k v) k v' = dset d k v'.
Proof.
  induction d as [|[k1 v1] d IH]; cbn [dset].
  - destruct (decide (k = k)); [reflexivity|contradiction].
  - destruct (decide (k = k1)) as [<-|H1]; cbn [dset].
    + destruct (decide (k = k)); [reflexivity|contradiction].
    + destruct (decide (k = k1)); [contradiction|]. rewrite IH. reflexivity.
Qed.

Lemma dupdate_dset_in d e k v : k ∈ d.*1 -> k ∉ e.*1 -> dupdate (dset d k v) e = dset (dupdate d e) k v.
Proof.
  revert d. induction e as [|[k' v'] e IH]; intros d Hd He; [reflexivity|].
  cbn [dupdate foldl]. fold (dupdate (dset d k' v') e) (dupdate (dset (dset d k v) k' v') e).
  cbn [fmap list_fmap fst] in He. apply not_elem_of_cons in He as [H1 H2].
  rewrite <- (dset_comm d k v k' v') by assumption. apply IH; [|exact H2]. apply dset_elem. auto.
Qed.

(** Updating with a dict in which [k] was set is setting [k] after the update. *)
Lemma dupdate_dset d e k v : dict_ok e -> dupdate d (dset e k v) = dset (dupdate d e) k v.
Proof.
  revert d. induction e as [|[k1 v1] e IH]; intros d He; [reflexivity|].
  unfold dict_ok in He. cbn [fmap list_fmap fst] in He. apply NoDup_cons in He as [H1 H2].
  cbn [dset]. destruct (decide (k = k1)) as [<-|Hk]; cbn [dupdate foldl].
  - fold (dupdate (dset d k v) e) (dupdate (dset d k v1) e). rewrite <- dupdate_dset_in; [|apply dset_elem; auto|exact H1].
    rewrite dset_twice. reflexivity.
  - fold (dupdate (dset d k1 v1) (dset e k v)) (dupdate (dset d k1 v1) e). apply IH, H2.
Qed.

Lemma dupdate_dupdate d e : dupdate d (dupdate [] e) = dupdate d e.
Proof.
  induction e as [|[k v] e IH] using rev_ind; [reflexivity|].
  rewrite !dupdate_app. change (dupdate (dupdate [] e) [(k, v)]) with (dset (dupdate [] e) k v).
  change (dupdate (dupdate d e) [(k, v)]) with (dset (dupdate d e) k v).
  rewrite dupdate_dset; [|apply dupdate_ok, NoDup_nil_2]. rewrite IH. reflexivity.
Qed.

(** Looking up after an update: the last binding of the key wins. *)
Lemma dget_dupdate d e k :
  dget (dupdate d e) k = match dget (reverse e) k with Some v => Some v | None => dget d k end.
Proof.
  revert d. induction e as [|[k' v] e IH] using rev_ind; intros d; [reflexivity|].
  rewrite dupdate_app, reverse_app. change (dupdate (dupdate d e) [(k', v)]) with (dset (dupdate d e) k' v).
  rewrite dget_dset.
  change (reverse [(k', v)]) with [(k', v)]. cbn [app dget].
  destruct (decide (k = k')) as [<-|]; [reflexivity|apply IH].
Qed.

Lemma dlookup_Ok d k v : dlookup d k = Ok v <-> dget d k = Some v.
Proof. unfold dlookup. destruct (dget d k); split; congruence. Qed.
End Dicts.

Lemma dict_ok_perm {V} (d e : dict V) : d ≡ₚ e -> dict_ok d -> dict_ok e.
Proof. unfold dict_ok. intros H. rewrite H. auto. Qed.

Lemma dget_perm {V} (d e : dict V) k : d ≡ₚ e -> dict_ok d -> dget d k = dget e k.
Proof.
  intros H Hd. assert (He := dict_ok_perm _ _ H Hd). destruct (dget d k) as [v|] eqn:K.
  - symmetry. apply dget_Some; [assumption|]. rewrite <- H. apply dget_Some; assumption.
  - symmetry. apply dget_None. apply dget_None in K. rewrite <- H. exact K.
Qed.

(** * Names without commas *)

Fixpoint comma_free (s : string) : Prop :=
  match s with EmptyString => True | String c s' => c <> Ascii.ascii_of_nat 44 /\ comma_free s' end.

Lemma append_cons c s t : (String c s +:+ t) = String c (s +:+ t).
Proof. reflexivity. Qed.

Lemma append_nil s : ("" +:+ s) = s.
Proof. reflexivity. Qed.

Lemma comma_free_app a b : comma_free (a +:+ b) <-> comma_free a /\ comma_free b.
Proof. induction a as [|c a IH]; [rewrite append_nil; cbn [comma_free]; tauto|]. rewrite append_cons. cbn [comma_free]. tauto. Qed.

(** A name is recovered from what follows the last comma. *)
Lemma comma_inj a a' b b' : comma_free b -> comma_free b' -> a +:+ "," +:+ b = a' +:+ "," +:+ b' -> a = a' /\ b = b'.
Proof.
  revert a'. induction a as [|c a IH]; intros a' Hb Hb' H.
  - destruct a' as [|c' a'].
    + rewrite !append_nil in H. injection H as H. auto.
    + rewrite append_nil, append_cons in H. injection H as _ H. exfalso. change ("" +:+ b) with b in H. rewrite H in Hb.
      apply comma_free_app in Hb as [_ Hb]. destruct Hb as [Hb _]. apply Hb. reflexivity.
  - destruct a' as [|c' a'].
    + rewrite append_nil, append_cons in H. injection H as _ H. exfalso. rewrite <- H in Hb'.
      apply comma_free_app in Hb' as [_ Hb']. destruct Hb' as [Hb' _]. apply Hb'. reflexivity.
    + rewrite !append_cons in H. injection H as -> H. destruct (IH a' Hb Hb' H). subst. auto.
Qed.

(** ... and from what precedes the first one. *)
Lemma comma_inj_l a a' b b' : comma_free a -> comma_free a' -> a +:+ "," +:+ b = a' +:+ "," +:+ b' -> a = a' /\ b = b'.
Proof.
  revert a'. induction a as [|c a IH]; intros a' Ha Ha' H.
  - destruct a' as [|c' a'].
    + rewrite !append_nil in H. injection H as H. auto.
    + rewrite append_nil, append_cons in H. injection H as H _. cbn [comma_free] in Ha'. exfalso. apply (proj1 Ha'). rewrite <- H. reflexivity.
  - destruct a' as [|c' a'].
    + rewrite append_nil, append_cons in H. injection H as H _. cbn [comma_free] in Ha. exfalso. apply (proj1 Ha). rewrite H. reflexivity.
    + rewrite !append_cons in H. cbn [comma_free] in Ha, Ha'. injection H as -> H. destruct (IH a' (proj2 Ha) (proj2 Ha') H). subst. auto.
Qed.

Lemma append_assoc a b c : (a +:+ b) +:+ c = a +:+ (b +:+ c).
Proof. induction a as [|x a IH]; [reflexivity|]. rewrite !append_cons, IH. reflexivity. Qed.

Lemma key3_inj l l' m m' n n' : comma_free m -> comma_free m' -> comma_free n -> comma_free n' ->
  join_comma [l; m; n] = join_comma [l'; m'; n'] -> l = l' /\ m = m' /\ n = n'.
Proof.
  intros Hm Hm' Hn Hn' H. change (join_comma [l; m; n]) with (l +:+ "," +:+ (m +:+ "," +:+ n)) in H.
  change (join_comma [l'; m'; n']) with (l' +:+ "," +:+ (m' +:+ "," +:+ n')) in H.
  rewrite <- !(append_assoc l), <- !(append_assoc l') in H. rewrite <- !append_assoc, !(append_assoc _ "," n), !(append_assoc _ "," n') in H.
  apply comma_inj in H as [H ->]; try assumption.
  rewrite !(append_assoc _ "," _) in H. apply comma_inj in H as [-> ->]; auto.
Qed.
