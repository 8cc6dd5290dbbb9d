(* X.691 prescribes one encoding for a value (with strings below 16K). *)
From Coq Require Import ZArith List Bool Lia.
From Coq Require Import ZifyBool ZifyNat ZifyN.
Require Import Verif.Base Verif.CodecModel Verif.BitLemmas Verif.Spec Verif.DeriveModel Verif.DeriveSpec Verif.DeriveFacts.
Require Import Verif.X691 Verif.X691Spec Verif.X691Proofs Verif.X691Facts Verif.X691Types Verif.X691TypesSpec Verif.X691TypesProofs Verif.X691TypesFacts Verif.RelaySpec.
Import ListNotations.
Open Scope Z_scope.
Ltac Zify.zify_post_hook ::= Z.div_mod_to_equations.

Definition functional (P : Z -> list bool -> Prop) : Prop := forall a e e', P a e -> P a e' -> e = e'.
Lemma x_field_unique w v e e' : x_field w v e -> x_field w v e' -> e = e'.
Proof. intros H H'. apply x_field_bits in H, H'. congruence. Qed.
Lemma x_signed_field_unique w v e e' : x_signed_field w v e -> x_signed_field w v e' -> e = e'.
Proof. intros [H1 H2] [H3 H4]. apply (x_field_unique w (bits_val e)); split; congruence. Qed.
Lemma x_long_functional n : functional (x_long_length n).
Proof. intros a e e' H H'. apply x_long_length_iff in H as [_ ->], H' as [_ ->]. reflexivity. Qed.
Lemma x_con_functional lb ub v a e : x_constrained lb ub v a e -> forall e', x_constrained lb ub v a e' -> e = e'.
Proof.
  induction 1 as [lb a|lb ub v a w e Hv Hr Hw He|lb ub v a e Hv Hr He|lb ub v a e Hv Hr He|lb ub v a m n e1 e2 Hv Hr Hm Hn H IH He]; intros e' H'; inversion H'; subst; try lia.
  - reflexivity.
  - assert (w = w0) as <- by (eapply least_unique; eassumption). eapply x_field_unique; eassumption.
  - f_equal. eapply x_field_unique; eassumption.
  - f_equal. eapply x_field_unique; eassumption.
  - assert (m = m0) as <- by (eapply least_unique; eassumption). assert (n = n0) as <- by (eapply least_unique; eassumption).
    assert (e1 = e0) as <- by auto. do 2 f_equal. eapply x_field_unique; eassumption.
Qed.
Lemma x_length_functional lb ub n : functional (x_length lb ub n).
Proof.
  intros a e e' H H'. destruct H as [lb u n a e Hu H|lb ub n a e Hu Hl Hn H]; inversion H'; subst; cbn [x_small_bound] in *; try lia.
  - eapply x_con_functional; eassumption.
  - eapply x_long_functional; eassumption.
Qed.
Lemma x_int_functional lb ub v : functional (x_root_integer lb ub v).
Proof.
  intros a e e' H H'. destruct H as [l u v a e H|l v a e H|ub v a e H]; inversion H'; subst.
  - eapply x_con_functional; eassumption.
  - destruct H as [lb v a n e1 e2 Hv Hn HL1 HL2]. match goal with H : x_semi_constrained _ _ _ _ |- _ => inversion H; subst end.
    assert (n = n0) as <- by (eapply least_unique; eassumption). f_equal; [eapply x_long_functional; eassumption|eapply x_field_unique; eassumption].
  - destruct H as [v a n e1 e2 Hn HL1 HL2]. match goal with H : x_unconstrained _ _ _ |- _ => inversion H; subst end.
    assert (n = n0) as <- by (eapply least_unique; eassumption). f_equal; [eapply x_long_functional; eassumption|eapply x_signed_field_unique; eassumption].
Qed.
Lemma x_root_functional ext P : functional P -> functional (x_root ext P).
Proof.
  intros F a e e' H H'. destruct H as [a e H0 H|a e H0 H]; inversion H'; subst; try congruence; [eapply F; eassumption|f_equal; eapply F; eassumption].
Qed.
Lemma x_fragments_once {A} (ser : list A -> list bool) l : zlen l < 16384 -> functional (x_fragments ser l).
Proof.
  intros HL a e e' H H'. assert (D : forall e, x_fragments ser l a e -> exists h, x_long_length (zlen l) a h /\ e = h ++ ser l).
  { intros e0 H0. inversion H0 as [l0 a0 h H1|k l1 l2 a0 e1 e2 Hk H1 H2 H3]; subst.
    - eauto.
    - exfalso. rewrite zlen_app in HL. pose proof (zlen_nonneg l2). lia. }
  destruct (D _ H) as (h & Hh & ->), (D _ H') as (h' & Hh' & ->). f_equal. eapply x_long_functional; eassumption.
Qed.
Lemma x_string_functional {A} (ser : list A -> list bool) short lb ub l : short < 65536 -> x_small_bound ub = true \/ zlen l < 16384 -> functional (x_string ser short lb ub l).
Proof.
  intros Hs HL a e e' H H'. inversion H; subst; inversion H'; subst; try lia; try congruence; cbn [x_small_bound] in *; try lia.
  - match goal with H1 : x_length _ _ _ a ?x, H2 : x_length _ _ _ a ?y |- _ => assert (x = y) as <- by exact (x_length_functional _ _ _ _ _ _ H1 H2) end. reflexivity.
  - eapply x_length_functional; eassumption.
  - destruct HL as [HL|HL]; [congruence|]. eapply x_fragments_once; eassumption.
Qed.
Lemma x_characters_functional lb ub l : x_small_bound ub = true \/ zlen l < 16384 -> functional (x_characters lb ub l).
Proof.
  intros HL a e e' H H'. destruct H as [lb ub l a e HU H|lb u l a e H1 H2 H]; inversion H'; subst.
  - eapply x_string_functional; [|exact HL|exact H|assumption]. lia.
  - specialize (HU _ eq_refl). lia.
  - match goal with H : forall u, _ |- _ => specialize (H _ eq_refl) end. lia.
  - f_equal. eapply x_length_functional; eassumption.
Qed.
Lemma x_complete_unique c o o' : x_complete c o -> x_complete c o' -> o = o'.
Proof. intros [B H] [B' H']. rewrite <- (pack_bytes_bits o B), <- (pack_bytes_bits o' B'). congruence. Qed.
Lemma x_complete_length c o : x_complete c o -> zlen c <= 131064 -> zlen o < 16384.
Proof.
  intros [B H] L. apply (f_equal zlen) in H. rewrite zlen_bytes_bits in H. destruct c as [|b c]; [rewrite zlen_repeat in H; lia|].
  rewrite zlen_app in H. unfold x_pad in H. rewrite zlen_repeat in H. lia.
Qed.
Lemma x_alternative_unique al n x t x' t' : x_alternative al n x t -> x_alternative al n x' t' -> x = x' /\ t = t'.
Proof. intros [k H] [k' H']. rewrite H in H'. injection H' as _ <- <-. auto. Qed.

Definition one_encoding t : Prop := forall v, x_brief t v -> functional (x_value t v).
Definition one_encoding_fields fs : Prop := forall vs, x_brief_fields fs vs -> functional (x_components fs vs).
Definition one_encoding_alts al : Prop := forall n key x t, alt_at al n = Some (key, x, t) -> one_encoding t.
Lemma brief_at al : forall n v key x t, alt_at al n = Some (key, x, t) -> x_brief_alt al n v -> x_brief t v.
Proof.
  induction al as [|k y u al IH]; intros n v key x t A W; [destruct n; discriminate|].
  destruct n as [|n]; cbn [alt_at x_brief_alt] in *; [injection A as _ _ <-; exact W|eauto].
Qed.
Lemma elements_functional t : one_encoding t -> forall l, Forall (x_brief t) l -> functional (x_elements t l).
Proof.
  intros F l. induction l as [|v l IH]; intros B a e e' H H'; inversion H; subst; inversion H'; subst; [reflexivity|].
  inversion B as [|? ? B1 B2]; subst.
  match goal with H1 : x_value t v a ?x, H2 : x_value t v a ?y |- _ => assert (x = y) as <- by exact (F _ B1 _ _ _ H1 H2) end.
  f_equal. eapply IH; eassumption.
Qed.
Lemma x_one_encoding : (forall t, one_encoding t) /\ (forall fs, one_encoding_fields fs) /\ (forall al, one_encoding_alts al).
Proof.
  apply ty_mutind.
  - intros v B a e e' H H'. inversion H; subst; inversion H'; subst. reflexivity.
  - intros v B a e e' H H'. inversion H; subst; inversion H'; subst. reflexivity.
  - intros v B a e e' H H'. inversion H.
  - intros lb ub ext i v B a e e' H H'. inversion H; subst; inversion H'; subst. eapply x_root_functional; [apply x_int_functional|eassumption..].
  - intros lb ub ext i v B a e e' H H'. inversion H; subst; inversion H'; subst. eapply x_root_functional; [|eassumption..]. intros ? ? ? ? ?. eapply x_con_functional; eassumption.
  - intros lb ub ext v B a e e' H H'. inversion H; subst; inversion H'; subst. eapply x_root_functional; [|eassumption..]. apply x_string_functional; [lia|exact B].
  - intros lb ub ext v B a e e' H H'. inversion H; subst; inversion H'; subst. eapply x_root_functional; [|eassumption..]. apply x_string_functional; [lia|exact B].
  - intros lb ub ext v B a e e' H H'. inversion H; subst; inversion H'; subst. eapply x_root_functional; [|eassumption..]. apply x_characters_functional. exact B.
  - intros ext n fs IH v B a e e' H H'. inversion H; subst; inversion H'; subst. cbn [x_brief] in B.
    match goal with H1 : x_root ext _ a ?x, H2 : x_root ext _ a ?y |- _ => assert (x = y) as <- by (eapply x_root_functional; [|exact H1|exact H2]; intros ? ? ? ? ?; congruence) end.
    f_equal. eapply IH; eassumption.
  - intros lb ub ext t IH v B a e e' H H'. inversion H; subst; inversion H'; subst. cbn [x_brief] in B.
    match goal with H1 : x_root ext _ a ?x, H2 : x_root ext _ a ?y |- _ => assert (x = y) as <- by (eapply x_root_functional; [|exact H1|exact H2]; apply x_length_functional) end.
    f_equal. eapply (elements_functional t); eassumption.
  - intros lb ub ext al IH v B a e e' H H'. inversion H; subst; inversion H'; subst. cbn [x_brief] in B.
    match goal with H1 : x_root ext _ a ?x, H2 : x_root ext _ a ?y |- _ => assert (x = y) as <- by (eapply x_root_functional; [|exact H1|exact H2]; intros ? ? ? ? ?; eapply x_con_functional; eassumption) end.
    match goal with H1 : x_alternative al n _ _, H2 : x_alternative al n _ _ |- _ => destruct (x_alternative_unique _ _ _ _ _ _ H1 H2) as [_ ->]; destruct H1 as [key A] end.
    f_equal. eapply (IH _ _ _ _ A); [exact (brief_at _ _ _ _ _ _ A B)|eassumption|eassumption].
  - intros al IH v B a e e' H H'. inversion H; subst; inversion H'; subst. cbn [x_brief] in B. destruct B as [B1 B2].
    match goal with H1 : x_alternative al n _ _, H2 : x_alternative al n _ _ |- _ => destruct (x_alternative_unique _ _ _ _ _ _ H1 H2) as [_ ->]; destruct H1 as [key A] end.
    match goal with H1 : x_value _ _ 0 ?x, H2 : x_value _ _ 0 ?y |- _ => assert (x = y) as <- by (eapply (IH _ _ _ _ A); [exact (brief_at _ _ _ _ _ _ A B2)|exact H1|exact H2]) end.
    match goal with H1 : x_complete _ ?x, H2 : x_complete _ ?y |- _ => assert (x = y) as <- by exact (x_complete_unique _ _ _ H1 H2); pose proof (x_complete_length _ _ H1 (B1 _ _ _ A _ ltac:(eassumption))) end.
    eapply x_fragments_once; eassumption.
  - intros vs B a e e' H H'. inversion H; subst; inversion H'; subst. reflexivity.
  - intros i t IHt fs IHf vs B a e e' H H'. inversion H; subst; inversion H'; subst; cbn [x_brief_fields] in B; destruct B as [B1 B2].
    + eapply IHf; eassumption.
    + match goal with H1 : x_value t v a ?x, H2 : x_value t v a ?y |- _ => assert (x = y) as <- by exact (IHt _ B1 _ _ _ H1 H2) end. f_equal. eapply IHf; eassumption.
  - intros k t IHt fs IHf vs B a e e' H H'. inversion H; subst; inversion H'; subst; cbn [x_brief_fields] in B; destruct B as [B1 B2].
    match goal with H1 : x_value t v a ?x, H2 : x_value t v a ?y |- _ => assert (x = y) as <- by exact (IHt _ B1 _ _ _ H1 H2) end. f_equal. eapply IHf; eassumption.
  - intros n key x t A. destruct n; discriminate.
  - intros k x t IHt al IHa n key y u A. destruct n as [|n]; cbn [alt_at] in A; [injection A as _ _ <-; exact IHt|exact (IHa _ _ _ _ A)].
Qed.
Lemma x_octets_unique_of t v o o' : x_brief t v -> x_octets_of t v o -> x_octets_of t v o' -> o = o'.
Proof.
  intros B (c & H & C) (c' & H' & C'). assert (c = c') as <- by exact (proj1 x_one_encoding t v B _ _ _ H H'). exact (x_complete_unique _ _ _ C C').
Qed.
Lemma relay_octets E t v s k k' octets : x_numbered t -> flow_of t v false = Some s -> x_known E None t v k -> x_plain t v -> x_brief t v -> carries E None t v k' ->
  x_octets_of t v octets -> zlen octets < 2 ^ 57 ->
  fst (dec E t (from_slice octets)) = Ok v /\ exists d, enc E t v new_data = (Ok tt, d) /\ (bits d <> [] -> into_bytes d = octets).
Proof.
  intros HN HF HK HP HB HC HO HL. split; [eapply C56_decoder_proof; eassumption|].
  destruct (C56_encoder_proof _ _ _ _ _ HC HN HP) as (d & H1 & _ & H2). exists d. split; [exact H1|]. intros HE. exact (x_octets_unique_of _ _ _ _ HB (H2 HE) HO).
Qed.
