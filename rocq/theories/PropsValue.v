(** Properties C76 and C77: the values of pi, kappa and bias, and items that occur
    several times (segeval/agreement/). *)
From stdpp Require Import gmap.
From Verif Require Import SpecValue SpecML SpecDispatch Round BedExtra SimMain AgreementPublic AgreementCases AgreementValue AgreementRepeat PropsAgreement.
Open Scope Z_scope.

(** ** C76 *)

(** Exact arithmetic, some gap not marked by all coders: the parts are the actual
    agreement and the chance agreement, and the values follow from them. *)
Theorem C76_values : forall E n_t f cord c cmp,
  env_ok E -> n_t <> 0 -> coded (c_format c f) (cord (c_coders c)) (c_items c) -> full (cord (c_coders c)) (c_items c) ->
  comparison exactA E n_t (cached (c_format c f) (cord (c_coders c)) (c_items c)) cmp ->
  ~ all_gaps_marked (c_format c f) (cord (c_coders c)) (c_items c) ->
  exists a p k v w b,
  actual_agreement_linear exactA cmp f cord c = Ok (NDec a) /\
  fleiss_pi_linear exactA cmp f cord true c = Ok (GParts (NDec a) (NDec p)) /\
  fleiss_kappa_linear exactA cmp f cord true c = Ok (GParts (NDec a) (NDec k)) /\
  artstein_poesio_bias_linear exactA cmp f cord true c = Ok (GParts (NDec p) (NDec k)) /\
  fleiss_pi_linear exactA cmp f cord false c = Ok (GVal (NDec v)) /\
  fleiss_kappa_linear exactA cmp f cord false c = Ok (GVal (NDec w)) /\
  artstein_poesio_bias_linear exactA cmp f cord false c = Ok (GVal (NDec b)) /\
  (0 <= p < 1 /\ 0 <= k < 1 /\
   p == pi_chance (c_format c f) (cord (c_coders c)) (c_items c) /\ k == kappa_chance (c_format c f) (cord (c_coders c)) (c_items c) /\
   v == beyond a p /\ w == beyond a k /\ b == p - k)%Q.
Proof. exact pi_kappa_values. Qed.
Print Assumptions C76_values.

(** Two coders, one item, one boundary type, [N] gaps and [K] marks of each coder:
    ((K1 + K2) / 2N)^2 and (K1 / N) (K2 / N). *)
Theorem C76_two_coders : forall f m n ic t, coded f [m; n] [ic] -> (forall c s, c ∈ [m; n] -> s ∈ coding f c ic -> s ⊆ {[t]}) ->
  let N := inject_Z (zlen (coding f m ic)) in let K c := inject_Z (marks (coding f c ic)) in
  (pi_chance f [m; n] [ic] == ((K m + K n) / (2 * N)) * ((K m + K n) / (2 * N)) /\ kappa_chance f [m; n] [ic] == (K m / N) * (K n / N))%Q.
Proof. exact two_chances. Qed.
Print Assumptions C76_two_coders.

(** Unless all coders agree on everything, kappa is at least pi exactly when bias is not negative. *)
Theorem C76_kappa_pi : forall E n_t f cord c cmp,
  env_ok E -> n_t <> 0 -> coded (c_format c f) (cord (c_coders c)) (c_items c) -> full (cord (c_coders c)) (c_items c) ->
  comparison exactA E n_t (cached (c_format c f) (cord (c_coders c)) (c_items c)) cmp ->
  ~ unanimous (c_format c f) (cord (c_coders c)) (c_items c) ->
  exists v w b,
  fleiss_pi_linear exactA cmp f cord false c = Ok (GVal (NDec v)) /\
  fleiss_kappa_linear exactA cmp f cord false c = Ok (GVal (NDec w)) /\
  artstein_poesio_bias_linear exactA cmp f cord false c = Ok (GVal (NDec b)) /\ (v <= w <-> 0 <= b)%Q.
Proof. exact kappa_pi_order. Qed.
Print Assumptions C76_kappa_pi.

(** One item: kappa is never below pi. *)
Theorem C76_one_item : forall E n_t f cord c cmp,
  env_ok E -> n_t <> 0 -> coded (c_format c f) (cord (c_coders c)) (c_items c) -> full (cord (c_coders c)) (c_items c) ->
  comparison exactA E n_t (cached (c_format c f) (cord (c_coders c)) (c_items c)) cmp ->
  ~ unanimous (c_format c f) (cord (c_coders c)) (c_items c) ->
  forall ic, lord_ok cord -> c_items c = [ic] -> exists v w,
  fleiss_pi_linear exactA cmp f cord false c = Ok (GVal (NDec v)) /\
  fleiss_kappa_linear exactA cmp f cord false c = Ok (GVal (NDec w)) /\ (v <= w)%Q.
Proof. exact kappa_pi_one_item. Qed.
Print Assumptions C76_one_item.

Definition x76 := compare_with true exactA env0 2 false.
Example C76_case :
  coded FMass (coders_of three_coders) (c_items three_coders) /\ full (coders_of three_coders) (c_items three_coders) /\
  ~ all_gaps_marked FMass (coders_of three_coders) (c_items three_coders) /\ ~ unanimous FMass (coders_of three_coders) (c_items three_coders) /\
  fleiss_pi_linear exactA x76 FMass aord0 true three_coders = Ok (GParts (NDec (3 # 8)) (NDec (169 # 3969))) /\
  fleiss_kappa_linear exactA x76 FMass aord0 true three_coders = Ok (GParts (NDec (3 # 8)) (NDec (44 # 1083))) /\
  fleiss_pi_linear exactA x76 FMass aord0 false three_coders = Ok (GVal (NDec (2111 # 6080))) /\
  fleiss_kappa_linear exactA x76 FMass aord0 false three_coders = Ok (GVal (NDec (2897 # 8312))) /\
  (pi_chance FMass (coders_of three_coders) (c_items three_coders) == 169 # 3969)%Q /\
  (kappa_chance FMass (coders_of three_coders) (c_items three_coders) == 44 # 1083)%Q /\
  (beyond (3 # 8) (169 # 3969) == 2111 # 6080)%Q /\ (beyond (3 # 8) (44 # 1083) == 2897 # 8312)%Q.
Proof.
  destruct three_coded as (H1 & H2 & _ & _ & H3 & H4). split; [exact H1|]. split; [exact H2|]. split; [exact H4|]. split; [exact H3|].
  repeat split; vm_compute; reflexivity.
Qed.

Example C76_two_case :
  let ic := ("i", [("c1", am [2; 2]); ("c2", am [1; 1; 2])])%string in
  coded FMass ["c1"; "c2"]%string [ic] /\ (forall c s, c ∈ ["c1"; "c2"]%string -> s ∈ coding FMass c ic -> s ⊆ {[1]}) /\
  (pi_chance FMass ["c1"; "c2"]%string [ic] == (3 # 6) * (3 # 6))%Q /\ (kappa_chance FMass ["c1"; "c2"]%string [ic] == (1 # 3) * (2 # 3))%Q.
Proof.
  cbn zeta. split; [apply coded_b_ok; vm_compute; reflexivity|]. split; [|split; vm_compute; reflexivity].
  assert (Forall (fun c => Forall (fun s : gset Z => s ⊆ {[1]}) (coding FMass c ("i", [("c1", am [2; 2]); ("c2", am [1; 1; 2])])%string)) ["c1"; "c2"]%string) as H
    by (refine (bool_decide_unpack _ _); vm_compute; exact I).
  intros c s Hc Hs. rewrite Forall_forall in H. specialize (H c Hc). rewrite Forall_forall in H. exact (H s Hs).
Qed.

(** Several items: kappa may be below pi. *)
Theorem C76_several_items_refuted : ~ (forall E n_t f cord c cmp v w,
  env_ok E -> lord_ok cord -> comparison exactA E n_t (cached (c_format c f) (cord (c_coders c)) (c_items c)) cmp ->
  fleiss_pi_linear exactA cmp f cord false c = Ok (GVal (NDec v)) ->
  fleiss_kappa_linear exactA cmp f cord false c = Ok (GVal (NDec w)) -> (v <= w)%Q).
Proof.
  intros H. specialize (H env0 2 FMass aord0 two_items (compare_with true exactA env0 2 false) (911 # 1071) (11 # 15)
    env0_ok aord0_ok (by_B _ _ _ _ _) ltac:(vm_compute; reflexivity) ltac:(vm_compute; reflexivity)). apply H. reflexivity.
Qed.
Print Assumptions C76_several_items_refuted.

(** ** C77 *)

(** Every item [k] times, under other names and in any order: the same statistics. *)
Theorem C77_repeated_items : forall k E n_t f cord b om c c', (0 < k)%nat ->
  env_ok E -> lord_ok cord -> c_format c' f = c_format c f -> c_coders c' = c_coders c -> repeated k (c_items c) (c_items c') ->
  (b = true \/ cached (c_format c f) (cord (c_coders c)) (c_items c)) ->
  let X := compare_with b exactA E n_t om in
  (forall v, actual_agreement_linear exactA X f cord c = Ok v <-> actual_agreement_linear exactA X f cord c' = Ok v) /\
  forall rp v, (fleiss_pi_linear exactA X f cord rp c = Ok v <-> fleiss_pi_linear exactA X f cord rp c' = Ok v) /\
    (fleiss_kappa_linear exactA X f cord rp c = Ok v <-> fleiss_kappa_linear exactA X f cord rp c' = Ok v) /\
    (artstein_poesio_bias_linear exactA X f cord rp c = Ok v <-> artstein_poesio_bias_linear exactA X f cord rp c' = Ok v).
Proof. exact agreement_repeated. Qed.
Print Assumptions C77_repeated_items.

Definition three_twice : container :=
  CDict [("i1", [("c1", am [2; 8; 2; 1]); ("c2", am [2; 1; 7; 2; 1]); ("c3", am [9; 4])]);
         ("j1", [("c1", am [2; 8; 2; 1]); ("c2", am [2; 1; 7; 2; 1]); ("c3", am [9; 4])]);
         ("i2", [("c3", am [4; 4]); ("c1", am [3; 5]); ("c2", am [2; 2; 4])]);
         ("j2", [("c3", am [4; 4]); ("c1", am [3; 5]); ("c2", am [2; 2; 4])])]%string.
Example C77_case : c_coders three_twice = c_coders three_coders /\ repeated 2 (c_items three_coders) (c_items three_twice) /\
  fleiss_kappa_linear exactA x76 FMass aord0 false three_coders = Ok (GVal (NDec (2897 # 8312))) /\
  fleiss_kappa_linear exactA x76 FMass aord0 false three_twice = Ok (GVal (NDec (2897 # 8312))).
Proof.
  split; [refine (bool_decide_unpack _ _); vm_compute; exact I|]. split.
  - unfold repeated. cbn [c_items three_twice three_coders fmap list_fmap snd replicate mjoin list_join app]. apply perm_skip, perm_swap.
  - split; vm_compute; reflexivity.
Qed.

(** Only some of the items repeated: not the same. *)
Theorem C77_unequal_refuted : ~ (forall E n_t f cord b om c c',
  env_ok E -> lord_ok cord -> c_format c' f = c_format c f -> c_coders c' = c_coders c ->
  (forall d, d ∈ (c_items c).*2 <-> d ∈ (c_items c').*2) -> cached (c_format c f) (cord (c_coders c)) (c_items c) ->
  let X := compare_with b exactA E n_t om in
  forall v, actual_agreement_linear exactA X f cord c = Ok v <-> actual_agreement_linear exactA X f cord c' = Ok v).
Proof.
  intros H.
  set (d1 := [("c1", am [2; 2]); ("c2", am [1; 3])]%string). set (d2 := [("c1", am [2; 2]); ("c2", am [2; 2])]%string).
  specialize (H env0 2 FMass aord0 true false (CDict [("i", d1); ("j", d2)]%string) (CDict [("i", d1); ("j", d2); ("k", d2)]%string) env0_ok aord0_ok eq_refl).
  specialize (H ltac:(refine (bool_decide_unpack _ _); vm_compute; exact I)). cbn [c_items fmap list_fmap snd] in H.
  specialize (H ltac:(intros d; rewrite !elem_of_cons, elem_of_nil; tauto) ltac:(apply cached_b_ok; vm_compute; reflexivity)).
  cbv zeta in H. destruct (actual_agreement_linear exactA (compare_with true exactA env0 2 false) FMass aord0 (CDict [("i", d1); ("j", d2)]%string)) as [v|] eqn:E1; vm_compute in E1; [|discriminate E1].
  specialize (proj1 (H v) eq_refl) as E2. injection E1 as <-. vm_compute in E2. discriminate E2.
Qed.
Print Assumptions C77_unequal_refuted.
