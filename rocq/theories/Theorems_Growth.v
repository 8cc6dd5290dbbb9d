(* C66: how long the encoding of a value is.  Vocabulary: SizeSpec.v (nodes,
   payload, span), GrowthSpec.v (bitmaps_fit), DeriveSpec.v (bounded_loops). *)
From Coq Require Import ZArith List Bool String.
Require Import Verif.Base Verif.CodecModel Verif.Spec Verif.DeriveModel Verif.DeriveSpec Verif.Asn1Model Verif.GenModel Verif.DefinitionModel Verif.RustModel Verif.RustSpec Verif.SizeSpec Verif.GrowthSpec
  Verif.GrowthProofs Verif.GrowthFacts Verif.Theorems_Codec Verif.Theorems_Derive Verif.Theorems_Size.
Import ListNotations.
Open Scope Z_scope.

(* ===== C66 The size of what is encoded ===== *)
(* All strings are in the message, for every type and value. *)
Theorem C66_strings_are_sent : forall E t v s s', enc E t v s = (Ok tt, s') -> payload v <= zlen (bits s') - zlen (bits s).
Proof. exact strings_sent. Qed.
Print Assumptions C66_strings_are_sent.
(* Besides the strings, there are less than 153 bits for each value. *)
Theorem C66_overhead_is_bounded : forall E t v s s', bitmaps_fit t -> enc E t v s = (Ok tt, s') ->
  zlen (bits s') - zlen (bits s) < payload v + 153 * nodes v.
Proof. exact overhead_bounded. Qed.
Print Assumptions C66_overhead_is_bounded.
(* Both for the octets of a message. *)
Theorem C66_messages : forall E t v d, bitmaps_fit t -> enc E t v new_data = (Ok tt, d) ->
  payload v <= 8 * zlen (into_bytes d) < payload v + 153 * nodes v + 7.
Proof. exact message_size. Qed.
Print Assumptions C66_messages.
(* And for all values of all types of compiled schemas. *)
Theorem C66_compiled_messages : forall num E depth fuel files orders prog, compile_files num E depth fuel files orders = Ok prog ->
  (forall n d, In (n, d) prog -> countable d /\ ~ In "Option"%string (used_types d)) ->
  forall n T v d, rust_means (map item_of prog) n T -> enc E T v new_data = (Ok tt, d) ->
  payload v <= 8 * zlen (into_bytes d) < payload v + 153 * nodes v + 7.
Proof. exact compiled_size. Qed.
Print Assumptions C66_compiled_messages.
(* A program that decodes messages and encodes them again answers with no more
   than a multiple of what it gets.  Partial, as C63: not of SEQUENCE OF with
   elements that take no bits. *)
Theorem C66_relayed_messages_partial : forall E E' t octets v s d, bounded_loops t = true -> bitmaps_fit t -> zlen octets < 2 ^ 58 ->
  dec E t (from_slice octets) = (Ok v, s) -> enc E' t v new_data = (Ok tt, d) ->
  zlen (into_bytes d) <= (1 + 153 * span t) * Z.max 1 (zlen octets).
Proof. exact relay_bounded. Qed.
Print Assumptions C66_relayed_messages_partial.
Example C66_case : exists v s d, bounded_loops report = true /\ bitmaps_fit report /\
  dec debug report (from_slice [1; 64; 2; 1; 64; 1; 2; 3; 4; 2; 9; 8; 64; 2; 1; 168; 1; 2; 3; 4; 2; 9; 8]) = (Ok v, s) /\ nodes v = 18 /\ payload v = 96 /\
  enc debug report v new_data = (Ok tt, d) /\ zlen (into_bytes d) = 23.
Proof.
  eexists _, _, _. split; [reflexivity|]. split; [cbn; repeat split; discriminate|]. split; [vm_compute; reflexivity|]. split; [vm_compute; reflexivity|]. split; [vm_compute; reflexivity|].
  split; vm_compute; reflexivity.
Qed.
(* An attribute that announces 1000 OPTIONAL components where there are none
   makes 1001 bits of one value. *)
Theorem C66_announced_components_refuted : forall E, exists t v d, enc E t v new_data = (Ok tt, d) /\ nodes v = 1 /\ payload v = 0 /\ zlen (bits d) = 1001.
Proof. intros E. exists (TSeq true 1000 FNil), (VSeq []). eexists. split; [vm_compute; reflexivity|]. split; [reflexivity|]. split; reflexivity. Qed.
Print Assumptions C66_announced_components_refuted.
