(* A value that a derived encoder accepts is within the domains of ApiSpec. *)
From Coq Require Import ZArith List Bool Lia.
From Coq Require Import ZifyBool ZifyNat ZifyN.
Require Import Verif.Base Verif.CodecModel Verif.BitLemmas Verif.Spec Verif.Combinators.
Require Import Verif.LengthProofs Verif.IntegerProofs Verif.StringProofs Verif.Local Verif.Ranges Verif.Loops Verif.Frame Verif.Safety Verif.Api Verif.ApiProofs Verif.AcceptProofs Verif.ApiSpec Verif.MiscProofs Verif.CodecFacts.
Require Import Verif.DeriveModel Verif.DeriveSpec Verif.DeriveProofs Verif.DeriveFacts Verif.DeriveInversion Verif.RelaySpec Verif.RelayProofs Verif.ArriveSpec.
Import ListNotations.
Open Scope Z_scope.
Ltac Zify.zify_post_hook ::= Z.div_mod_to_equations.

(* ---- what an accepting call wrote ---- *)
Lemma ok_writes (m : M unit) s s' : emits m -> m s = (Ok tt, s') ->
  exists e, writes m (zlen (bits s)) e /\ bits s' = bits s ++ e.
Proof.
  intros H Q. destruct (H (zlen (bits s))) as (r & e & He). destruct s as [p o k]. cbn [bits] in *.
  pose proof (He p o k eq_refl) as Q1. rewrite Q in Q1. injection Q1 as <- ->. exists e. split; [|reflexivity].
  intros p' o' k' Hp. apply He. exact Hp.
Qed.
Lemma emits_longer {A} (m : M A) s r s' : emits m -> m s = (r, s') -> zlen (bits s) <= zlen (bits s').
Proof.
  intros H Q. destruct (H (zlen (bits s))) as (r1 & e & He). destruct s as [p o k]. cbn [bits] in *.
  pose proof (He p o k eq_refl) as Q1. rewrite Q in Q1. injection Q1 as <- ->. cbn [bits]. rewrite zlen_app.
  pose proof (zlen_nonneg e). lia.
Qed.
Lemma bind_ok {A B} (m : M A) (f : A -> M B) s v s' : bind m f s = (Ok v, s') ->
  exists x s1, m s = (Ok x, s1) /\ f x s1 = (Ok v, s').
Proof. unfold bind. destruct (m s) as [[x| | |] s1]; try discriminate. intros H. exists x, s1. auto. Qed.

(* ---- numbers ---- *)
Lemma rust_number_bounds i z : small_int i -> cast i z = z -> - 2 ^ 63 <= z < 2 ^ 64.
Proof. intros W C. pose proof (cast_range i z W). pose proof (small_int_bounds i W). lia. Qed.
Lemma accepted_number E lb ub ext i z s s' : small_int i -> cast i z = z -> (lb = None -> z < 2 ^ 63) -> declared_range lb ub ->
  encode_integer E lb ub ext (as_i128 z) false s = (Ok tt, s') -> int_encodable lb ub z.
Proof.
  intros W C N D Q. pose proof (rust_number_bounds i z W C) as B.
  assert (as_i128 z = z) as A by (unfold as_i128; apply wrap_s_small; lia). rewrite A in Q.
  destruct (ok_writes _ _ _ (emits_integer E lb ub ext z false) Q) as (e & We & _).
  unfold int_encodable. split; [unfold i128; lia|]. destruct lb as [l|]; [|specialize (N eq_refl); lia].
  destruct ub as [u|]; cbn [declared_range] in D.
  - destruct D as [D1 D2]. destruct (con_accepted _ _ _ _ _ _ _ _ D1 D2 We) as [_ OK]. unfold int_ok in OK. intuition lia.
  - destruct (Z_lt_dec z l) as [L|L]; [|lia]. exfalso. eapply writes_refuses; [exact We|].
    eapply rejects_refuses, rejects_integer. unfold outside. left; exact L.
Qed.
Lemma accepted_enum E lb ub ext i z s s' : small_int i -> cast i z = z -> (lb = None -> z < 2 ^ 63) -> declared_range lb ub ->
  encode_enumerated E lb ub ext (as_i128 z) false s = (Ok tt, s') -> int_encodable lb ub z.
Proof.
  intros W C N D Q. unfold encode_enumerated in Q. apply bind_ok in Q as (x & s1 & _ & Q).
  eapply accepted_number; eassumption.
Qed.
Lemma accepted_index E lb ub ext n x s s' : i128 lb -> i128 ub -> encode_choice_idx E lb ub ext n x s = (Ok tt, s') ->
  x = false /\ int_encodable (Some lb) (Some ub) n.
Proof.
  intros D1 D2 Q. destruct x; [discriminate|]. split; [reflexivity|].
  unfold encode_choice_idx in Q. apply bind_ok in Q as (y & s1 & _ & Q).
  destruct (ok_writes _ _ _ (emits_integer E _ _ _ _ _) Q) as (e & We & _).
  destruct (con_accepted _ _ _ _ _ _ _ _ D1 D2 We) as [_ OK]. unfold int_ok in OK. unfold int_encodable. intuition lia.
Qed.

(* ---- strings ---- *)
Lemma within_of lb ub n : size_sane lb ub -> length_ok lb ub false n ->
  size_within lb ub n /\ (n < 16384 \/ exists u, ub = Some u /\ u < 65536).
Proof.
  unfold size_within, length_ok. intros S (H0 & H1 & H2). split.
  - split; [exact S|]. split; [destruct lb; cbn; lia|]. split; [exact H0|]. destruct ub; lia.
  - destruct ub as [u|]; [|left; exact H2]. destruct H2 as [_ [H|H]]; [right; exists u; auto|left; exact H].
Qed.

(* ---- fields ---- *)
Lemma each_first {A} (f : A -> M unit) x l s s' : each f (x :: l) s = (Ok tt, s') ->
  exists s1, f x s = (Ok tt, s1) /\ each f l s1 = (Ok tt, s').
Proof. intros H. cbn [each] in H. apply bind_ok in H as ([] & s1 & H1 & H2). eauto. Qed.
Lemma declared_at al : forall n key x t, declared_alts al -> alt_at al n = Some (key, x, t) -> declared t.
Proof.
  induction al as [|key' x' t' al IH]; intros [|n] key x t D H; cbn in *; try discriminate.
  - injection H as -> -> ->. tauto.
  - eapply IH; [apply D|exact H].
Qed.

Scheme rust_value_ind2 := Induction for rust_value Sort Prop
  with rust_fields_ind2 := Induction for rust_fields Sort Prop
  with rust_list_ind2 := Induction for rust_list Sort Prop.
Combined Scheme rust_value_mut from rust_value_ind2, rust_fields_ind2, rust_list_ind2.

Lemma accepted_carries E :
  (forall k t v k', rust_value E k t v k' -> sound_ty t -> declared t ->
     forall s s', enc E t v s = (Ok tt, s') -> zlen (bits s') < 2 ^ 60 -> carries E k t v k') /\
  (forall k fs vs k', rust_fields E k fs vs k' -> sound_fields fs -> declared_fields fs ->
     forall s s', enc_fields E fs vs s = (Ok tt, s') -> zlen (bits s') < 2 ^ 60 -> carries_fields E k fs vs k') /\
  (forall k t l k', rust_list E k t l k' -> sound_ty t -> declared t ->
     forall s s', each (enc E t) l s = (Ok tt, s') -> zlen (bits s') < 2 ^ 60 -> carries_list E k t l k').
Proof.
  destruct (emits_enc E) as (EM & EF & _).
  apply rust_value_mut.
  - intros. constructor.
  - intros. constructor.
  - intros k lb ub ext i z C N S D s s' Q _. constructor; [|exact C]. eapply accepted_number; eassumption.
  - intros k lb ub ext i z C N S D s s' Q _. constructor; [|exact C]. eapply accepted_enum; eassumption.
  - intros k lb ub ext l S D s s' Q _. constructor. cbn [enc] in Q.
    destruct (ok_writes _ _ _ (emits_bitstring E lb ub ext l false) Q) as (e & We & _).
    destruct (bitstring_accepted _ _ _ _ _ _ _ _ D We) as (_ & OK & L). cbn [call_encodable].
    split; [exact (proj1 (within_of _ _ _ D OK))|exact L].
  - intros k lb ub ext l B S D s s' Q _. constructor. cbn [enc] in Q.
    destruct (ok_writes _ _ _ (emits_octetstring E lb ub ext l false) Q) as (e & We & _).
    destruct (octetstring_accepted _ _ _ _ _ _ _ _ D We) as (_ & OK & L). cbn [call_encodable].
    split; [exact B|]. split; [exact (proj1 (within_of _ _ _ D OK))|exact L].
  - intros k lb ub ext l B U A S D s s' Q _. constructor. cbn [enc] in Q.
    destruct (ok_writes _ _ _ (emits_string E lb ub ext l false) Q) as (e & We & _).
    destruct (string_accepted _ _ _ _ _ _ _ _ D We) as (_ & OK). cbn [call_encodable].
    destruct (within_of _ _ _ D OK) as [H1 H2]. auto.
  - intros k k' ext n fs vs R IH S D s s' Q F. cbn [sound_ty declared] in *. destruct S as (S1 & S2 & S3 & S4).
    constructor; [exact S2|exact S3|exact S1|]. cbn [enc] in Q.
    destruct (presence fs vs _) as [bm|]; [|discriminate]. apply bind_ok in Q as (x & s1 & _ & Q).
    exact (IH S4 D _ _ Q F).
  - intros k k' lb ub ext t l NE L R IH S D s s' Q F. cbn [sound_ty declared] in *.
    constructor; [exact NE|destruct ext; exact L|]. cbn [enc] in Q. apply bind_ok in Q as (x & s1 & _ & Q).
    exact (IH S D _ _ Q F).
  - intros k k' lb ub ext al n key x t v A K R IH S D s s' Q F. cbn [sound_ty declared] in *. destruct D as (D1 & D2 & D3).
    destruct (choice_encodes _ _ _ _ _ _ _ _ _ Q) as (key1 & x1 & t1 & s1 & A1 & Q1 & Q2). rewrite A in A1. injection A1 as <- <- <-.
    destruct (accepted_index _ _ _ _ _ _ _ _ D1 D2 Q1) as [-> OK].
    apply (K_choice E k k' lb ub ext al n key t v A (K eq_refl) OK).
    refine (IH _ _ _ _ Q2 F); [eapply sound_at; eassumption|exact (declared_at _ _ _ _ _ D3 A)].
  - intros k' al n key x t v A K R IH S D s s' Q F. cbn [sound_ty declared] in *.
    assert (exists inner, enc E t v new_data = (Ok tt, inner) /\ zlen (bits inner) < 2 ^ 60) as (inner & QI & FI).
    { cbn [enc] in Q. rewrite (enc_variant_at _ _ _ _ _ _ _ A) in Q.
      destruct (enc E t v new_data) as [[[]| | |] inner] eqn:QI; try discriminate. exists inner. split; [reflexivity|].
      cbn [enc_open_frame] in Q. apply bind_ok in Q as (m & s1 & _ & Q). apply bind_ok in Q as ([] & s2 & _ & Q).
      unfold append_aligned, bind, align, append_bits in Q. cbn [bits] in Q. injection Q as <-. cbn [bits] in F.
      rewrite !align_bits_pad, !zlen_app in F.
      pose proof (zlen_nonneg (bits s2)). pose proof (zlen_nonneg (pad (zlen (bits s2)))). pose proof (zlen_nonneg (pad (zlen (bits inner)))). lia. }
    assert (FV : fits (bits (snd (enc_variant E al n v new_data)))).
    { rewrite (enc_variant_at _ _ _ _ _ _ _ A), QI. unfold fits. cbn [snd]. lia. }
    destruct (open_encodes _ _ _ _ _ _ FV Q) as (key1 & x1 & t1 & inner1 & s1 & A1 & QI1 & _ & _ & L).
    rewrite A in A1. injection A1 as <- <- <-. rewrite QI in QI1. injection QI1 as <-.
    assert (0 < zlen (bits inner) <= 131064) as L'.
    { pose proof (bytes_bits_pack_pad (bits inner)) as P. apply (f_equal zlen) in P. rewrite zlen_bytes_bits, zlen_app, zlen_pad in P.
      unfold into_bytes in L. lia. }
    apply (K_open E k' al n key x t v inner A K); [|exact QI|exact L'].
    refine (IH _ _ _ _ QI FI); [eapply sound_at; eassumption|exact (declared_at _ _ _ _ _ D A)].
  - intros. constructor.
  - intros k k' i t fs vs R IH S D s s' Q F. cbn in S, D. constructor. exact (IH (proj2 S) (proj2 D) _ _ Q F).
  - intros k k1 k' i t fs v vs R IH R2 IH2 S D s s' Q F. cbn in S, D. cbn [enc_fields] in Q. apply bind_ok in Q as ([] & s1 & Q1 & Q2).
    econstructor; [|exact (IH2 (proj2 S) (proj2 D) _ _ Q2 F)].
    refine (IH (proj1 S) (proj1 D) _ _ Q1 _). pose proof (emits_longer _ _ _ _ (EF fs vs) Q2). lia.
  - intros k k1 k' t fs v vs R IH R2 IH2 S D s s' Q F. cbn in S, D. cbn [enc_fields] in Q. apply bind_ok in Q as ([] & s1 & Q1 & Q2).
    econstructor; [|exact (IH2 (proj2 (proj2 S)) (proj2 D) _ _ Q2 F)].
    refine (IH (proj1 (proj2 S)) (proj1 D) _ _ Q1 _). pose proof (emits_longer _ _ _ _ (EF fs vs) Q2). lia.
  - intros k k1 k' t fs z vs R IH R2 IH2 S D s s' Q F. cbn in S, D. cbn [enc_fields] in Q. apply bind_ok in Q as ([] & s1 & Q1 & Q2).
    econstructor; [|exact (IH2 (proj2 (proj2 S)) (proj2 D) _ _ Q2 F)].
    refine (IH (proj1 (proj2 S)) (proj1 D) _ _ Q1 _). pose proof (emits_longer _ _ _ _ (EF fs vs) Q2). lia.
  - intros. constructor.
  - intros k k1 k' t v l R IH R2 IH2 S D s s' Q F. destruct (each_first _ _ _ _ _ Q) as (s1 & Q1 & Q2).
    econstructor; [|exact (IH2 S D _ _ Q2 F)]. refine (IH S D _ _ Q1 _).
    pose proof (emits_longer _ _ _ _ (emits_each (enc E t) l (fun x _ => EM t x)) Q2). lia.
Qed.

Lemma arrives E t v k s d : flow_of t v false = Some s -> sound_ty t -> declared t -> rust_value E None t v k ->
  enc E t v new_data = (Ok tt, d) -> zlen (bits d) < 2 ^ 60 -> fst (dec E t (from_slice (into_bytes d))) = Ok v.
Proof.
  intros F S D R Q L. pose proof (proj1 (accepted_carries E) _ _ _ _ R S D _ _ Q L) as C.
  destruct (agrees_bytes _ _ _ _ (derived_agrees _ _ _ _ _ _ C F)) as (d1 & Q1 & H). rewrite Q in Q1. injection Q1 as <-. auto.
Qed.

(* ---- what is sent is within the type ---- *)
Lemma within_alt_at E al : forall n key x t v, alt_at al n = Some (key, x, t) -> within E t v -> within_alt E al n v.
Proof.
  induction al as [|key' x' t' al IH]; intros [|n] key x t v H W; cbn in *; try discriminate.
  - injection H as -> -> ->. exact W.
  - eapply IH; eassumption.
Qed.
Lemma carries_within E :
  (forall k t v k', carries E k t v k' -> within E t v) /\
  (forall k fs vs k', carries_fields E k fs vs k' -> within_fields E fs vs) /\
  (forall k t l k', carries_list E k t l k' -> Forall (within E t) l).
Proof.
  apply carries_mutind; intros; cbn [within within_fields]; auto.
  - destruct H as (_ & H). exact H.
  - destruct H as (_ & _ & H). exact H.
  - split; [now exists key, t|]. eapply within_alt_at; eassumption.
  - split; [|eapply within_alt_at; eassumption]. intros key' x' t' A. rewrite H in A. injection A as <- <- <-. now exists d.
Qed.
Lemma sent_within E t v k d : sound_ty t -> declared t -> rust_value E None t v k ->
  enc E t v new_data = (Ok tt, d) -> zlen (bits d) < 2 ^ 60 -> within E t v.
Proof.
  intros S D R Q L. exact (proj1 (carries_within E) _ _ _ _ (proj1 (accepted_carries E) _ _ _ _ R S D _ _ Q L)).
Qed.
Lemma sent_apart E t v v' k k' s s' d d' : flow_of t v false = Some s -> flow_of t v' false = Some s' -> sound_ty t -> declared t ->
  rust_value E None t v k -> rust_value E None t v' k' ->
  enc E t v new_data = (Ok tt, d) -> enc E t v' new_data = (Ok tt, d') -> zlen (bits d) < 2 ^ 60 -> zlen (bits d') < 2 ^ 60 ->
  into_bytes d = into_bytes d' -> v = v'.
Proof.
  intros F F' S D R R' Q Q' L L' HB. pose proof (arrives _ _ _ _ _ _ F S D R Q L) as H. pose proof (arrives _ _ _ _ _ _ F' S D R' Q' L') as H'.
  rewrite HB in H. congruence.
Qed.
