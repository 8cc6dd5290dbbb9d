(* Concrete cases for the theorems on values that arrive unchanged. *)
From Coq Require Import ZArith List Bool Lia.
From Coq Require Import ZifyBool ZifyNat ZifyN.
Require Import Verif.Base Verif.CodecModel Verif.Spec Verif.BitLemmas Verif.ApiSpec Verif.DeriveModel Verif.DeriveSpec Verif.DeriveFacts
  Verif.X691TypesFacts Verif.RelaySpec Verif.RelayFacts Verif.ArriveSpec Verif.ArriveProofs.
Import ListNotations.
Open Scope Z_scope.

Definition long_integer := mkIty false 64.
(* ---- values that are accepted, and one that is refused ---- *)
Definition C59_over : val := VAlt 1
  (VSeq [Some (VI 1); Some (VAlt 0 (VI 99)); None; Some (VOctStr [9; 8])]).
Lemma C59_case_proof E : flow_of C56_type C56_value false = Some false /\ sound_ty C56_type /\ declared C56_type /\
  (exists k d, rust_value E None C56_type C56_value k /\ enc E C56_type C56_value new_data = (Ok tt, d) /\ zlen (bits d) < 2 ^ 60) /\
  (exists k, rust_value E None C56_type C59_over k) /\ fst (enc E C56_type C59_over new_data) = Err.
Proof.
  destruct (C58_case_proof E) as (H1 & H2 & _). split; [exact H1|]. split; [exact H2|]. split.
  { cbn. unfold i128, size_sane. cbn. repeat split; lia. }
  split; [|split].
  - do 2 eexists. split; [|split; [destruct E as [[] []]; vm_compute; reflexivity|reflexivity]].
    eapply R_choice; [reflexivity|intros _; unfold first_with_key; cbn; intuition lia|]. apply R_seq.
    eapply RF_key; [apply R_int; [reflexivity|discriminate]|].
    eapply RF_man; [eapply R_open; [reflexivity|unfold first_with_key; cbn; intuition lia|]|].
    { apply R_seqof; [discriminate| |repeat econstructor]. unfold length_within, size_within, size_sane. cbn. repeat split; try lia; left; reflexivity. }
    eapply RF_some; [apply R_octets; repeat constructor; lia|].
    eapply RF_man; [apply R_octets; repeat constructor; lia|]. constructor.
  - eexists. eapply R_choice; [reflexivity|intros _; unfold first_with_key; cbn; intuition lia|]. apply R_seq.
    eapply RF_key; [apply R_int; [reflexivity|discriminate]|].
    eapply RF_man; [eapply R_open; [reflexivity|unfold first_with_key; cbn; intuition lia|]|].
    { apply R_int; [reflexivity|discriminate]. }
    eapply RF_none. eapply RF_man; [apply R_octets; repeat constructor; lia|]. constructor.
  - destruct E as [[] []]; vm_compute; reflexivity.
Qed.

(* ---- values that are accepted and do not arrive ---- *)
Definition keyed : ty := TSeq false 0 (FMan true (TInt (Some 0) (Some 255) false byte)
  (FMan false (TOpen (ACons 1 false (TInt (Some 0) (Some 255) false byte) (ACons 2 false (TOctets None None false) ANil))) FNil)).
Lemma C59_key_proof E : flow_of keyed (VSeq [Some (VI 1); Some (VAlt 1 (VOctStr [7]))]) false <> None /\ exists d,
  enc E keyed (VSeq [Some (VI 1); Some (VAlt 1 (VOctStr [7]))]) new_data = (Ok tt, d) /\
  fst (dec E keyed (from_slice (into_bytes d))) = Ok (VSeq [Some (VI 1); Some (VAlt 0 (VI 1))]).
Proof.
  split; [discriminate|]. exists (snd (enc E keyed (VSeq [Some (VI 1); Some (VAlt 1 (VOctStr [7]))]) new_data)).
  destruct E as [[] []]; vm_compute; repeat split.
Qed.
Lemma C59_number_proof E : let t := TInt None None false long_integer in
  cast long_integer (2 ^ 63) = 2 ^ 63 /\ exists d, enc E t (VI (2 ^ 63)) new_data = (Ok tt, d) /\
  fst (dec E t (from_slice (into_bytes d))) = Err.
Proof.
  intros t. split; [reflexivity|]. exists (snd (enc E t (VI (2 ^ 63)) new_data)).
  destruct E as [[] []]; vm_compute; repeat split.
Qed.
Lemma C59_text_proof o : let E := Env o true in let t := TStr (Some 2) (Some 2) true in
  exists d, enc E t (VOctStr [72; 105]) new_data = (Ok tt, d) /\
  fst (dec E t (from_slice (into_bytes d))) <> Ok (VOctStr [72; 105]).
Proof.
  intros E t. exists (snd (enc E t (VOctStr [72; 105]) new_data)). subst E. destruct o; vm_compute; (split; [reflexivity|discriminate]).
Qed.
Lemma C59_list_proof E : let t := TSeqOf (Some 1) (Some 3) false TBool in
  exists d, enc E t (VList [VB true; VB true; VB true; VB true]) new_data = (Ok tt, d) /\
    fst (dec E t (from_slice (into_bytes d))) = Ok (VList [VB true; VB true; VB false; VB false]).
Proof. destruct (C58_list_proof E) as (d & _ & H1 & _ & H2). exists d. auto. Qed.
Lemma C59_empty_proof E : let t := TSeqOf None None false TBool in
  exists d, enc E t (VList []) new_data = (Ok tt, d) /\ fst (dec E t (from_slice (into_bytes d))) = Err.
Proof. intros t. exists (snd (enc E t (VList []) new_data)). destruct E as [[] []]; vm_compute; repeat split. Qed.
