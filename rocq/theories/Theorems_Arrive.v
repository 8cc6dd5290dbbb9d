(* Values that are sent (C59).  The types and values are described in
   ArriveSpec. *)
From Coq Require Import ZArith List Bool.
Require Import Verif.Base Verif.CodecModel Verif.DeriveModel Verif.Spec Verif.DeriveSpec Verif.X691TypesFacts Verif.RelaySpec
  Verif.ArriveSpec Verif.ArriveProofs Verif.ArriveFacts.
Import ListNotations.
Open Scope Z_scope.

(* ===== C59  A value that the encoder accepts arrives unchanged ===== *)
(* Full claim: whatever value of the Rust type is handed to the encoder, it is
   refused or it arrives unchanged.  Missing: values outside `flow_of` (see C24),
   and the values that `rust_value` excludes (see the refutations). *)
Theorem C59_accepted_values_arrive_partial : forall E t v k s d, flow_of t v false = Some s -> sound_ty t -> declared t ->
  rust_value E None t v k -> enc E t v new_data = (Ok tt, d) -> zlen (bits d) < 2 ^ 60 ->
  fst (dec E t (from_slice (into_bytes d))) = Ok v.
Proof. exact arrives. Qed.
Print Assumptions C59_accepted_values_arrive_partial.
(* Two values are never sent as the same octets. *)
Theorem C59_values_stay_apart_partial : forall E t v v' k k' s s' d d', flow_of t v false = Some s -> flow_of t v' false = Some s' -> sound_ty t -> declared t ->
  rust_value E None t v k -> rust_value E None t v' k' ->
  enc E t v new_data = (Ok tt, d) -> enc E t v' new_data = (Ok tt, d') -> zlen (bits d) < 2 ^ 60 -> zlen (bits d') < 2 ^ 60 ->
  into_bytes d = into_bytes d' -> v = v'.
Proof. exact sent_apart. Qed.
Print Assumptions C59_values_stay_apart_partial.
(* No value outside of the type is sent: all numbers and sizes of what the
   encoder accepts are within their bounds, and the alternatives are those of
   the root. *)
Theorem C59_sent_values_are_within_partial : forall E t v k d, sound_ty t -> declared t -> rust_value E None t v k ->
  enc E t v new_data = (Ok tt, d) -> zlen (bits d) < 2 ^ 60 -> within E t v.
Proof. exact sent_within. Qed.
Print Assumptions C59_sent_values_are_within_partial.
Example C59_case : forall E, flow_of C56_type C56_value false = Some false /\ sound_ty C56_type /\ declared C56_type /\
  (exists k d, rust_value E None C56_type C56_value k /\ enc E C56_type C56_value new_data = (Ok tt, d) /\ zlen (bits d) < 2 ^ 60) /\
  (exists k, rust_value E None C56_type C59_over k) /\ fst (enc E C56_type C59_over new_data) = Err.
Proof. exact C59_case_proof. Qed.

(* The open type holds another alternative than the key says: the receiver sees
   the octets as the type of the key. *)
Theorem C59_other_alternative_refuted : forall E, flow_of keyed (VSeq [Some (VI 1); Some (VAlt 1 (VOctStr [7]))]) false <> None /\ exists d,
  enc E keyed (VSeq [Some (VI 1); Some (VAlt 1 (VOctStr [7]))]) new_data = (Ok tt, d) /\
  fst (dec E keyed (from_slice (into_bytes d))) = Ok (VSeq [Some (VI 1); Some (VAlt 0 (VI 1))]).
Proof. exact C59_key_proof. Qed.
Print Assumptions C59_other_alternative_refuted.
(* An unconstrained INTEGER held as u64 is sent from 2^63 on, and cannot be read. *)
Theorem C59_large_number_refuted : forall E, let t := TInt None None false long_integer in
  cast long_integer (2 ^ 63) = 2 ^ 63 /\ exists d, enc E t (VI (2 ^ 63)) new_data = (Ok tt, d) /\
  fst (dec E t (from_slice (into_bytes d))) = Err.
Proof. exact C59_number_proof. Qed.
Print Assumptions C59_large_number_refuted.
(* Texts of two octets that do not start on an octet boundary (C13). *)
Theorem C59_short_text_refuted : forall o, let E := Env o true in let t := TStr (Some 2) (Some 2) true in
  exists d, enc E t (VOctStr [72; 105]) new_data = (Ok tt, d) /\
  fst (dec E t (from_slice (into_bytes d))) <> Ok (VOctStr [72; 105]).
Proof. exact C59_text_proof. Qed.
Print Assumptions C59_short_text_refuted.
(* A list that is too long arrives as another list, an empty one not at all (C27). *)
Theorem C59_long_list_refuted : forall E, let t := TSeqOf (Some 1) (Some 3) false TBool in
  exists d, enc E t (VList [VB true; VB true; VB true; VB true]) new_data = (Ok tt, d) /\
    fst (dec E t (from_slice (into_bytes d))) = Ok (VList [VB true; VB true; VB false; VB false]).
Proof. exact C59_list_proof. Qed.
Print Assumptions C59_long_list_refuted.
Theorem C59_empty_list_refuted : forall E, let t := TSeqOf None None false TBool in
  exists d, enc E t (VList []) new_data = (Ok tt, d) /\ fst (dec E t (from_slice (into_bytes d))) = Err.
Proof. exact C59_empty_proof. Qed.
Print Assumptions C59_empty_list_refuted.
