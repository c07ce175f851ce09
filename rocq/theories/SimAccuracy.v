(** Property C78: the value of S. *)
From Coq Require Import Lqa.
From Verif Require Import SpecSim FormatProofs Round RoundProofs BedProofs BedTheory SimStats SimRound SimProofs SimTheory SimMain.
Open Scope Z_scope.

Section Main.
Context (E : env) (f : fmt) (n_t : Z) (sa sb : seg) (x y : bstring) (T : gset Z).
Context (HE : env_ok E) (Hb : to_bstrings f sa sb = Ok (x, y)) (HT : forall t, t ∈ T <-> used x y t) (HN : T <> ∅)
  (Hn : n_t <> 0) (Hs : small_types x y).

Let D := zlen x * Z.of_nat (size T) * Z.of_nat (size T).

Lemma S_shape : zlen x * zsize (identify_types x y) * zsize (identify_types x y) = D.
Proof.
  assert (zsize (identify_types x y) = Z.of_nat (size T)) as ->; [|reflexivity].
  unfold zsize. do 2 f_equal. apply set_eq. intros t. rewrite HT, elem_of_types. reflexivity.
Qed.

Lemma S_used : exists d, used x y d.
Proof. apply set_choose_L in HN as [d Hd]. exists d. apply HT, Hd. Qed.

Lemma S_close A eps M v e lo hi : prec A eps M -> D <= M ->
  segmentation_similarity A E (default_weights A) f n_t false false sa sb = Ok (SVal (NDec v)) ->
  boundary_edit_distance E x y n_t = Ok e -> extent x y lo hi ->
  (Qabs (v - (1 - edit_cost e (hi - lo + 1) n_t / inject_Z D)) <= 8 * eps)%Q.
Proof.
  intros HP HM Hv He Hx. rewrite (S_eq _ E f n_t sa sb x y lo hi e) in Hv by assumption. cbn zeta iota in Hv. injection Hv as <-.
  pose proof (den_le E f n_t sa sb x y HE Hb S_used e Hs He) as HD. rewrite S_shape in *.
  pose proof (d_pos E f n_t sa sb x y lo hi e HE Hb Hx He) as Hd. cbn zeta in Hd.
  apply (accurate A eps M HP E f n_t sa sb x y lo hi e HE Hb Hx Hn He D); lia.
Qed.

Theorem S_value_exact v e lo hi : segmentation_similarity exactA E (default_weights exactA) f n_t false false sa sb = Ok (SVal (NDec v)) ->
  boundary_edit_distance E x y n_t = Ok e -> extent x y lo hi ->
  (v == 1 - edit_cost e (hi - lo + 1) n_t / inject_Z D)%Q.
Proof.
  intros Hv He Hx. pose proof (S_close exactA 0 (Z.max 1 D) v e lo hi (prec_exact (Z.max 1 D) ltac:(lia)) ltac:(lia) Hv He Hx) as H.
  apply Qabs_Qle_condition in H. set (q := (edit_cost e (hi - lo + 1) n_t / inject_Z D)%Q) in *. lra.
Qed.

Theorem S_value A v e lo hi : sane A -> D <= 10 ^ 28 ->
  segmentation_similarity A E (default_weights A) f n_t false false sa sb = Ok (SVal (NDec v)) ->
  boundary_edit_distance E x y n_t = Ok e -> extent x y lo hi ->
  (Qabs (v - (1 - edit_cost e (hi - lo + 1) n_t / inject_Z D)) <= 1 / inject_Z (10 ^ 26))%Q.
Proof.
  intros HA HD Hv He Hx. eapply Qle_trans; [apply (S_close A _ _ v e lo hi (prec_sane A HA)); assumption|].
  rewrite eps28_val. vm_compute. discriminate.
Qed.
End Main.
