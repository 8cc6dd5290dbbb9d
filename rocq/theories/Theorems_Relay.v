(* Messages that are decoded and sent on (C58).  Types and values are described
   in RelaySpec, X.691 in X691 and X691Types. *)
From Coq Require Import ZArith NArith List Bool String.
Require Import Verif.Base Verif.CodecModel Verif.DeriveModel Verif.Asn1Model Verif.GenModel Verif.ResolveModel Verif.TokenModel Verif.ParserModel Verif.ModuleModel
  Verif.DefinitionModel Verif.CompilerSpec Verif.RustModel Verif.RustSpec Verif.LinkSpec
  Verif.Spec Verif.DeriveSpec Verif.X691 Verif.X691Types Verif.X691TypesSpec Verif.X691TypesFacts Verif.RelaySpec Verif.RelayProofs Verif.RelayCanonProofs Verif.RelayFacts.
Import Verif.Spec Verif.DeriveSpec Verif.X691TypesFacts.
Import ListNotations.
Open Scope Z_scope.

(* ===== C58  A message that is decoded can be encoded again ===== *)
(* Full claim: whatever octets are decoded successfully, the value is encoded
   again, and that encoding decodes to the same value.  Missing: values outside
   `within` (the decoder returns such values, see the refutations), values
   outside `flow_of` (see C24). *)
Theorem C58_decoded_values_survive_partial : forall E t s octets v rest, flow_of t v false = Some s -> sound_ty t ->
  dec E t (from_slice octets) = (Ok v, rest) -> within E t v ->
  exists d, enc E t v new_data = (Ok tt, d) /\ (zlen (bits d) < 2 ^ 60 -> fst (dec E t (from_slice (into_bytes d))) = Ok v).
Proof. exact relay_value. Qed.
Print Assumptions C58_decoded_values_survive_partial.
(* No condition on numbers, sizes and alternatives where the bounds of the type
   are as wide as the bits that are read.  Missing: other types, strings, lists
   and contents of 16K and more. *)
Theorem C58_tight_types_survive_partial : forall E t s octets v rest, flow_of t v false = Some s -> sound_ty t -> tight E t ->
  dec E t (from_slice octets) = (Ok v, rest) -> moderate E t v ->
  exists d, enc E t v new_data = (Ok tt, d) /\ (zlen (bits d) < 2 ^ 60 -> fst (dec E t (from_slice (into_bytes d))) = Ok v).
Proof. exact relay_tight. Qed.
Print Assumptions C58_tight_types_survive_partial.
Example C58_case : forall E, flow_of C56_type C56_value false = Some false /\ sound_ty C56_type /\ tight E C56_type /\
  fst (dec E C56_type (from_slice C58_octets)) = Ok C56_value /\ moderate E C56_type C56_value /\ within E C56_type C56_value /\ x_brief C56_type C56_value.
Proof. exact C58_case_proof. Qed.
(* All types of all compiled schemas whose key fields are numbers are sound. *)
Theorem C58_compiled_types_are_sound : forall num E depth fuel files orders prog, compile_files num E depth fuel files orders = Ok prog ->
  (forall n d, In (n, d) prog -> countable d /\ ~ In "Option"%string (used_types d)) ->
  forall n T, rust_means (map item_of prog) n T -> number_keys T -> sound_ty T.
Proof. exact C58_sound_proof. Qed.
Print Assumptions C58_compiled_types_are_sound.
(* X.691 prescribes one encoding only ... *)
Theorem C58_one_encoding : forall t v octets octets', x_brief t v -> x_octets_of t v octets -> x_octets_of t v octets' -> octets = octets'.
Proof. exact x_octets_unique_of. Qed.
Print Assumptions C58_one_encoding.
(* ... so that a message encoded as prescribed is sent on octet by octet.
   Missing: values outside `x_known`, `x_plain` and `carries` (see C56), and
   those without any bits (see C56_empty_encoding_refuted). *)
Theorem C58_octets_reproduced_partial : forall E t v s k k' octets, x_numbered t -> flow_of t v false = Some s ->
  x_known E None t v k -> x_plain t v -> x_brief t v -> carries E None t v k' ->
  x_octets_of t v octets -> zlen octets < 2 ^ 57 ->
  fst (dec E t (from_slice octets)) = Ok v /\ exists d, enc E t v new_data = (Ok tt, d) /\ (bits d <> [] -> into_bytes d = octets).
Proof. exact relay_octets. Qed.
Print Assumptions C58_octets_reproduced_partial.
Example C58_octets_case : forall E, x_numbered C56_type /\ flow_of C56_type C56_value false = Some false /\ (exists k, x_known E None C56_type C56_value k) /\
  x_plain C56_type C56_value /\ x_brief C56_type C56_value /\ (exists k, carries E None C56_type C56_value k) /\ x_octets_of C56_type C56_value C58_octets.
Proof. intros E. destruct (C56_case_proof E) as (H1 & H2 & H3 & H4 & H5 & H6). destruct (C58_case_proof E) as (_ & _ & _ & _ & _ & _ & H7). auto 10. Qed.

(* ---- decoded values that cannot be sent on ---- *)
(* INTEGER (0..2): two bits are read, and 3 is not rejected. *)
Theorem C58_number_refuted : forall E, let t := TInt (Some 0) (Some 2) false byte in
  fst (dec E t (from_slice [192])) = Ok (VI 3) /\ fst (enc E t (VI 3) new_data) = Err.
Proof. exact C58_integer_proof. Qed.
Print Assumptions C58_number_refuted.
(* INTEGER (0..65536): the encoder does not know the lowest value. *)
Theorem C58_lowest_number_refuted : forall E, let t := TInt (Some 0) (Some 65536) false short in
  fst (dec E t (from_slice [0; 0])) = Ok (VI 0) /\ fst (enc E t (VI 0) new_data) = Err.
Proof. exact C58_lowest_proof. Qed.
Print Assumptions C58_lowest_number_refuted.
(* SEQUENCE (SIZE (1..3)) OF BOOLEAN: four elements are read; they are sent on
   without a length, and arrive as others. *)
Theorem C58_list_refuted : forall E, let t := TSeqOf (Some 1) (Some 3) false TBool in
  exists d, fst (dec E t (from_slice [252])) = Ok (VList [VB true; VB true; VB true; VB true]) /\
    enc E t (VList [VB true; VB true; VB true; VB true]) new_data = (Ok tt, d) /\ into_bytes d = [240] /\
    fst (dec E t (from_slice (into_bytes d))) = Ok (VList [VB true; VB true; VB false; VB false]).
Proof. exact C58_list_proof. Qed.
Print Assumptions C58_list_refuted.
(* A CHOICE of three alternatives and four in the extension: index 3 of the
   root is read as the fourth of the extension. *)
Theorem C58_alternative_refuted : forall E, let t := TChoice 0 2 true six in x_numbered t /\
  fst (dec E t (from_slice [112])) = Ok (VAlt 6 (VB true)) /\ fst (enc E t (VAlt 6 (VB true)) new_data) = Err.
Proof. exact C58_choice_proof. Qed.
Print Assumptions C58_alternative_refuted.

(* ---- messages that are sent on as others ---- *)
(* INTEGER (0..MAX) in more octets than needed. *)
Theorem C58_padded_number_refuted : forall E, let t := TInt (Some 0) None false byte in
  exists d, fst (dec E t (from_slice [2; 0; 5])) = Ok (VI 5) /\ enc E t (VI 5) new_data = (Ok tt, d) /\ into_bytes d = [1; 5].
Proof. exact C58_number_proof. Qed.
Print Assumptions C58_padded_number_refuted.
(* SEQUENCE { BOOLEAN, ..., BOOLEAN }: the addition is lost. *)
Theorem C58_additions_refuted : forall E, let t := TSeq true 0 (FMan false TBool FNil) in
  exists d, fst (dec E t (from_slice [192; 64; 1; 128])) = Ok (VSeq [Some (VB true)]) /\ enc E t (VSeq [Some (VB true)]) new_data = (Ok tt, d) /\ into_bytes d = [64].
Proof. exact C58_additions_proof. Qed.
Print Assumptions C58_additions_refuted.
(* An ENUMERATED with four root items: the second item of the extension becomes
   the second of the root. *)
Theorem C58_enumerator_refuted : forall E, let t := TEnum (Some 0) (Some 3) true byte in
  exists d, fst (dec E t (from_slice [129])) = Ok (VI 1) /\ enc E t (VI 1) new_data = (Ok tt, d) /\ into_bytes d = [32].
Proof. exact C58_enumerator_proof. Qed.
Print Assumptions C58_enumerator_refuted.
