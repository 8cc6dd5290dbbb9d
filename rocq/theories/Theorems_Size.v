(* C63: what is built from a message is bounded by its length.  Vocabulary:
   SizeSpec.v (values, strings), DeriveSpec.v (bounded_loops). *)
From Coq Require Import ZArith List Bool Lia.
Require Import Verif.Base Verif.CodecModel Verif.Spec Verif.DeriveModel Verif.DeriveSpec Verif.SizeSpec Verif.SizeProofs Verif.Theorems_Codec Verif.Theorems_Derive.
Import ListNotations.
Open Scope Z_scope.

(* ===== C63 The size of what is decoded ===== *)
(* All strings together have no more bits than have been read, for every type. *)
Theorem C63_strings_are_read : forall E t s v s', fits (bits s) -> 0 <= off s <= zlen (bits s) ->
  dec E t s = (Ok v, s') -> payload v <= off s' - off s.
Proof. exact payload_bounded. Qed.
Print Assumptions C63_strings_are_read.
(* For each bit that is read, no more values are made than the type has parts.
   Partial: not of SEQUENCE OF with elements that take no bits. *)
Theorem C63_values_are_read_partial : forall E t s v s', bounded_loops t = true -> fits (bits s) -> 0 <= off s <= zlen (bits s) ->
  dec E t s = (Ok v, s') -> nodes v <= span t * Z.max 1 (off s' - off s).
Proof. exact nodes_bounded. Qed.
Print Assumptions C63_values_are_read_partial.
(* Both for the octets of a message. *)
Theorem C63_messages_partial : forall E t bytes v s', bounded_loops t = true -> zlen bytes < 2 ^ 58 ->
  dec E t (from_slice bytes) = (Ok v, s') ->
  payload v <= 8 * zlen bytes /\ nodes v <= span t * Z.max 1 (8 * zlen bytes).
Proof. exact message_bounded. Qed.
Print Assumptions C63_messages_partial.
Definition report : ty := TSeqOf (Some 1) (Some 255) false message.
Example C63_case : exists v s', bounded_loops report = true /\ span report = 8 /\
  dec debug report (from_slice [1; 64; 2; 1; 64; 1; 2; 3; 4; 2; 9; 8; 64; 2; 1; 168; 1; 2; 3; 4; 2; 9; 8]) = (Ok v, s') /\ nodes v = 18 /\ payload v = 96.
Proof. eexists _, _. split; [reflexivity|]. split; [reflexivity|]. split; [vm_compute; reflexivity|]. split; vm_compute; reflexivity. Qed.
(* One octet makes 255 elements. *)
Theorem C63_elements_of_no_bits_refuted : forall E, exists t v s', span t = 2 /\
  dec E t (from_slice [255]) = (Ok v, s') /\ nodes v = 256.
Proof. intros [[|] [|]]; exists (TSeqOf (Some 0) (Some 255) false TNull); eexists _, _; (split; [reflexivity|]); (split; [vm_compute; reflexivity|]); vm_compute; reflexivity. Qed.
Print Assumptions C63_elements_of_no_bits_refuted.
