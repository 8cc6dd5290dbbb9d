(* Values of whole types against the text of X.691 (C56).  What X.691 prescribes
   is written down in X691 and X691Types, the types and values that the theorems
   range over in X691TypesSpec. *)
From Coq Require Import ZArith NArith List Bool String Lia.
Require Import Verif.Base Verif.CodecModel Verif.DeriveModel Verif.Asn1Model Verif.GenModel Verif.ResolveModel Verif.TokenModel Verif.ParserModel Verif.ModuleModel
  Verif.DefinitionModel Verif.ParserSpec Verif.DefinitionSpec Verif.CompilerSpec Verif.RustModel Verif.RustSpec Verif.ObjectFacts Verif.LinkSpec Verif.LinkProofs
  Verif.DeriveSpec Verif.X691Types Verif.X691TypesSpec Verif.X691TypesFacts.
Import ListNotations.
Open Scope Z_scope.

(* ===== C56  Values of whole types are encoded as X.691 prescribes, and what X.691 prescribes is decoded ===== *)
(* Full claim: every value of every type.  Missing: values outside `carries`
   (see C24) and parts outside `x_plain` (see C30, C31); the refutations below
   and those of C30, C31 show that they are encoded otherwise. *)
Theorem C56_values_encoded_as_prescribed_partial : forall E t v k k', carries E k t v k' -> x_numbered t -> x_plain t v ->
  exists d, enc E t v new_data = (Ok tt, d) /\ x_value t v 0 (bits d) /\ (bits d <> [] -> x_octets_of t v (into_bytes d)).
Proof. exact C56_encoder_proof. Qed.
Print Assumptions C56_values_encoded_as_prescribed_partial.
(* Missing: values outside `x_known` and values outside `flow_of` (see C24). *)
Theorem C56_prescribed_encodings_decoded_partial : forall E t v k' s octets, x_known E None t v k' -> x_numbered t -> flow_of t v false = Some s ->
  x_octets_of t v octets -> zlen octets < 2 ^ 57 -> fst (dec E t (from_slice octets)) = Ok v.
Proof. exact C56_decoder_proof. Qed.
Print Assumptions C56_prescribed_encodings_decoded_partial.
Example C56_case : forall E, (exists k', carries E None C56_type C56_value k') /\ x_numbered C56_type /\ x_plain C56_type C56_value /\
  (exists k', x_known E None C56_type C56_value k') /\ flow_of C56_type C56_value false = Some false /\
  x_octets_of C56_type C56_value [80; 2; 1; 168; 1; 2; 3; 4; 2; 9; 8].
Proof. exact C56_case_proof. Qed.
(* All types of all compiled schemas have the numbers of X.691. *)
Theorem C56_compiled_types_are_numbered : forall num E depth fuel files orders prog, compile_files num E depth fuel files orders = Ok prog ->
  (forall n d, In (n, d) prog -> countable d /\ ~ In "Option"%string (used_types d)) ->
  forall n T, rust_means (map item_of prog) n T -> x_numbered T.
Proof. exact C56_numbered_proof. Qed.
Print Assumptions C56_compiled_types_are_numbered.
(* From the texts: T is the type of the texts, T' the one that the macro reads
   from the items. *)
Theorem C56_from_files_to_octets_partial : forall num E depth fuel files M n modules orders prog,
  numeric_characters num -> schema_denotes (fun z => num z = true) files modules ->
  (n <= depth)%nat -> well_named modules -> imports_defined modules ->
  (forall a m, In (a, m) modules -> module_means M modules n m) ->
  not_recursive M modules -> valid_orders modules orders -> map fst modules = map fst orders ->
  compile_files num E depth fuel files orders = Ok prog ->
  (forall n d, In (n, d) prog -> countable d /\ ~ In "Option"%string (used_types d)) -> NoDup (map fst prog) ->
  forall a m k T T', In (a, m) modules -> In k (def_names m) -> types M k = Some T ->
  rust_means (map item_of prog) (to_type_ident k) T' ->
  (forall v k', carries E None T v k' -> x_plain T v ->
     exists d, enc E T' v new_data = (Ok tt, d) /\ (bits d <> [] -> x_octets_of T v (into_bytes d))) /\
  (forall v k' s octets, x_known E None T v k' -> flow_of T v false = Some s -> x_octets_of T v octets -> zlen octets < 2 ^ 57 ->
     fst (dec E T' (from_slice octets)) = Ok v).
Proof. exact C56_files_proof. Qed.
Print Assumptions C56_from_files_to_octets_partial.
(* The rest of the hypotheses is in C55_case and C55_case_program. *)
Example C56_message_case : x_plain message_ty message_value /\ x_known checked_env None message_ty message_value (Some 2) /\
  x_octets_of message_ty message_value [16; 0; 1; 1; 128; 0; 2; 1; 112].
Proof. exact C56_message_case_proof. Qed.
(* A value of no bits is encoded in no octets; X.691 10.1.3 prescribes one. *)
Theorem C56_empty_encoding_refuted : forall E, exists d, enc E TNull VU new_data = (Ok tt, d) /\ into_bytes d = [] /\
  x_octets_of TNull VU [0] /\ ~ x_octets_of TNull VU [].
Proof. exact C56_empty_proof. Qed.
Print Assumptions C56_empty_encoding_refuted.
(* SEQUENCE (SIZE (1..4, ...)) OF BOOLEAN: no extension bit, and a normally
   small length. *)
Theorem C56_extensible_size_refuted : forall E, let t := TSeqOf (Some 1) (Some 4) true TBool in let v := VList [VB true] in
  exists d, enc E t v new_data = (Ok tt, d) /\ into_bytes d = [1] /\ x_octets_of t v [16] /\ ~ x_octets_of t v [1].
Proof. exact C56_size_proof. Qed.
Print Assumptions C56_extensible_size_refuted.
(* The SIZE of a UTF8String is not visible in PER, but the items carry it. *)
Theorem C56_utf8_size_refuted : let v := VOctStr [97; 98; 99] in
  exists prog t d, compiled utf8_type ["T"%string] = Ok prog /\ rust_means (map item_of prog) "T" t /\
    enc checked_env t v new_data = (Ok tt, d) /\ into_bytes d = [97; 98; 99] /\
    x_octets_of (TStr None None false) v [3; 97; 98; 99] /\ ~ x_octets_of (TStr None None false) v [97; 98; 99].
Proof. exact C56_utf8_proof. Qed.
Print Assumptions C56_utf8_size_refuted.
(* Alternatives are numbered in the order of the text, also where X.691 22.2
   orders them by their tags. *)
Theorem C56_tag_order_refuted : exists prog t0 t1 d,
  compiled (pick "EXPLICIT") ["T"%string] = Ok prog /\ rust_means (map item_of prog) "T" (TChoice 0 1 false (ACons 0 false t0 (ACons 1 false t1 ANil))) /\
  universal_tag t1 < universal_tag t0 /\
  enc checked_env (TChoice 0 1 false (ACons 0 false t0 (ACons 1 false t1 ANil))) (VAlt 1 (VB true)) new_data = (Ok tt, d) /\ into_bytes d = [192] /\
  x_octets_of (TChoice 0 1 false (ACons 0 false t1 (ACons 1 false t0 ANil))) (VAlt 0 (VB true)) [64].
Proof. exact C56_tags_proof. Qed.
Print Assumptions C56_tag_order_refuted.
