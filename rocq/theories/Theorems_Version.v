(* C64: two versions of a protocol.  Vocabulary: VersionSpec.v (newer,
   same_value), RevisionSpec.v (later_modules, sets_kept, schema_compiled). *)
From Coq Require Import ZArith List Bool String Lia.
Require Import Verif.Base Verif.CodecModel Verif.DeriveModel Verif.DeriveSpec Verif.Asn1Model Verif.GenModel Verif.TokenModel Verif.ModuleModel Verif.CompilerSpec Verif.RustModel Verif.RustSpec
  Verif.ObjectFacts Verif.LinkSpec Verif.LinkFacts Verif.VersionSpec Verif.VersionProofs Verif.RevisionSpec Verif.VersionFacts.
Import ListNotations.
Open Scope string_scope.
Open Scope list_scope.
Open Scope Z_scope.

(* ===== C64 Versions of a protocol ===== *)
(* Whatever the old version reads, the new version reads as the same value,
   from the same bits. *)
Theorem C64_new_reads_old : forall E t1 t2, newer t1 t2 -> forall s v1 s', dec E t1 s = (Ok v1, s') ->
  exists v2, dec E t2 s = (Ok v2, s') /\ same_value t1 t2 v1 v2.
Proof. exact new_reads_old. Qed.
Print Assumptions C64_new_reads_old.
(* Whatever the new version reads, the old version reads as the same value, or
   it reports an error and there is no such value in the old version. *)
Theorem C64_old_reads_new : forall E t1 t2, newer t1 t2 -> forall s v2 s', dec E t2 s = (Ok v2, s') ->
  (exists v1, dec E t1 s = (Ok v1, s') /\ same_value t1 t2 v1 v2) \/
  fst (dec E t1 s) = Err /\ forall v1, ~ same_value t1 t2 v1 v2.
Proof. exact old_reads_new. Qed.
Print Assumptions C64_old_reads_new.
(* The same value is sent as the same octets. *)
Theorem C64_same_octets : forall E t1 t2 v1 v2, same_value t1 t2 v1 v2 -> forall s, enc E t1 v1 s = enc E t2 v2 s.
Proof. exact same_sent. Qed.
Print Assumptions C64_same_octets.
(* Different values of one version are different values of the other. *)
Theorem C64_one_to_one : forall t1 t2 v1 v2 w1 w2, newer t1 t2 -> same_value t1 t2 v1 v2 -> same_value t1 t2 w1 w2 -> (v1 = w1 <-> v2 = w2).
Proof. exact one_to_one. Qed.
Print Assumptions C64_one_to_one.
(* From the value sent to the value received, in both directions. *)
Theorem C64_old_message_partial : forall E t1 t2 v1 k s, newer t1 t2 -> carries E None t1 v1 k -> flow_of t1 v1 false = Some s ->
  exists d, enc E t1 v1 new_data = (Ok tt, d) /\
    (zlen (bits d) < 2 ^ 60 -> exists v2, fst (dec E t2 (from_slice (into_bytes d))) = Ok v2 /\ same_value t1 t2 v1 v2).
Proof. exact old_message. Qed.
Print Assumptions C64_old_message_partial.
Theorem C64_new_message_partial : forall E t1 t2 v2 k s, newer t1 t2 -> carries E None t2 v2 k -> flow_of t2 v2 false = Some s ->
  exists d, enc E t2 v2 new_data = (Ok tt, d) /\
    (zlen (bits d) < 2 ^ 60 ->
       (exists v1, fst (dec E t1 (from_slice (into_bytes d))) = Ok v1 /\ same_value t1 t2 v1 v2) \/
       fst (dec E t1 (from_slice (into_bytes d))) = Err /\ forall v1, ~ same_value t1 t2 v1 v2).
Proof. exact new_message. Qed.
Print Assumptions C64_new_message_partial.
(* A schema that is extended has newer types. *)
Theorem C64_schemas_partial : forall M1 M2 modules1 modules2 n1 n2,
  well_named modules1 -> well_named modules2 -> imports_defined modules1 -> imports_defined modules2 ->
  (forall a m, In (a, m) modules1 -> module_means M1 modules1 n1 m) -> (forall a m, In (a, m) modules2 -> module_means M2 modules2 n2 m) ->
  not_recursive M1 modules1 -> later_modules modules1 modules2 -> sets_kept M1 M2 ->
  forall a m k T1 T2, In (a, m) modules1 -> In k (def_names m) -> types M1 k = Some T1 -> types M2 k = Some T2 -> newer T1 T2.
Proof. exact C64_modules_proof. Qed.
Print Assumptions C64_schemas_partial.
(* From the texts of both versions to the messages: k is a type of the schema,
   T1 and T2 are what the macro reads from the two generated programs. *)
Theorem C64_files_partial : forall num E files1 files2 modules1 modules2 M1 M2 prog1 prog2, numeric_characters num ->
  schema_compiled num E files1 modules1 M1 prog1 -> schema_compiled num E files2 modules2 M2 prog2 ->
  later_modules modules1 modules2 -> sets_kept M1 M2 ->
  forall a m k, In (a, m) modules1 -> In k (def_names m) -> types M1 k <> None -> types M2 k <> None ->
  forall T1 T2, rust_means (map item_of prog1) (to_type_ident k) T1 -> rust_means (map item_of prog2) (to_type_ident k) T2 ->
  newer T1 T2 /\
  (forall bytes v1 s', dec E T1 (from_slice bytes) = (Ok v1, s') -> exists v2, dec E T2 (from_slice bytes) = (Ok v2, s') /\ same_value T1 T2 v1 v2) /\
  (forall bytes v2 s', dec E T2 (from_slice bytes) = (Ok v2, s') ->
     (exists v1, dec E T1 (from_slice bytes) = (Ok v1, s') /\ same_value T1 T2 v1 v2) \/
     fst (dec E T1 (from_slice bytes)) = Err /\ forall v1, ~ same_value T1 T2 v1 v2).
Proof. exact C64_files_proof. Qed.
Print Assumptions C64_files_partial.
(* The schema of C55, and the same with an object more in its object set. *)
Example C64_case : numeric_characters is_digit /\
  schema_compiled is_digit checked_env (map chars_of_text message_texts) message_modules message_meaning message_program /\
  schema_compiled is_digit checked_env (map chars_of_text revised_texts) revised_modules revised_meaning revised_program /\
  later_modules message_modules revised_modules /\ sets_kept message_meaning revised_meaning.
Proof. exact (conj digits_numeric (conj message_compiled (conj revised_compiled (conj message_later message_sets_kept)))). Qed.
Example C64_case_values : newer message_ty revised_ty /\ same_value message_ty revised_ty message_value revised_value /\
  rust_means (map item_of message_program) "Message" message_ty /\ rust_means (map item_of revised_program) "Message" revised_ty /\
  exists d, enc checked_env message_ty message_value new_data = (Ok tt, d) /\ into_bytes d = [16; 0; 1; 1; 128; 0; 2; 1; 112] /\
    fst (dec checked_env revised_ty (from_slice (into_bytes d))) = Ok revised_value.
Proof. exact C64_case_values_proof. Qed.
(* SEQUENCE { a CHOICE { x BOOLEAN, ... }, b ENUMERATED { y, ... }, ... }, and
   with more behind all three markers *)
Example C64_case_types :
  let bool := mkType (KBuiltin BBoolean) None in
  let seq c e a := mkType (KSequence
    [mkSeqComp "a" (mkType (KChoice [("x", bool)] (Some c)) None) false None; mkSeqComp "b" (mkType (KBuiltin (BEnumerated [mkEnumValue "y" None] true e)) None) true None] a true) None in
  later_type (seq [] [] []) (seq [[("z", bool)]] [mkEnumValue "w" None] [[mkSeqComp "c" bool false None]]).
Proof. apply L_sequence; [|discriminate]. repeat constructor. Qed.
(* An element with a number that the old version does not know makes it reject
   the message, although the open type that holds it tells its length. *)
Theorem C64_unknown_elements_refuted : exists d, enc checked_env revised_ty novel_value new_data = (Ok tt, d) /\ into_bytes d = [16; 0; 1; 1; 128; 0; 3; 1; 80] /\
  fst (dec checked_env revised_ty (from_slice (into_bytes d))) = Ok novel_value /\
  fst (dec checked_env message_ty (from_slice (into_bytes d))) = Err.
Proof. exact C64_unknown_proof. Qed.
Print Assumptions C64_unknown_elements_refuted.
(* Objects may not be added to a set that had none: the old version reads
   elements without components, with no error. *)
Theorem C64_empty_sets_refuted :
  (forall sees, sees "MessageIEs" = true -> means_in (one_set (mkSetMeaning "&id" [])) [] 0 sees (fun _ => true) entries no_entries_ty) /\
  (forall sees, sees "MessageIEs" = true -> means_in (one_set message_set) [] 0 sees (fun _ => true) entries entries_ty) /\
  fst (dec checked_env entries_ty (from_slice [32; 0; 1; 1; 128; 0; 2; 1; 112])) =
    Ok (VList [VSeq [Some (VI 1); Some (VAlt 0 (VB true))]; VSeq [Some (VI 2); Some (VAlt 1 (VI 7))]]) /\
  fst (dec checked_env no_entries_ty (from_slice [32; 0; 1; 1; 128; 0; 2; 1; 112])) = Ok (VList [VSeq []; VSeq []]).
Proof. exact C64_empty_set_proof. Qed.
Print Assumptions C64_empty_sets_refuted.
