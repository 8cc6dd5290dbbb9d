(* The theorems about information objects and about whole schemas, from the
   texts of the files to the bytes of the values (C54 and C55).  What objects
   and files denote is specified in LinkSpec. *)
From Coq Require Import ZArith NArith List Bool String Ascii Lia Permutation.
Require Import Verif.Base Verif.Spec Verif.CodecModel Verif.DeriveModel Verif.DeriveSpec Verif.Asn1Model Verif.GenModel Verif.ResolveModel Verif.TokenModel Verif.ParserModel Verif.ModuleModel
  Verif.DefinitionModel Verif.ParserSpec Verif.DefinitionSpec Verif.CompilerSpec Verif.RustModel Verif.RustSpec Verif.ParserFacts Verif.ObjectFacts Verif.LinkSpec Verif.LinkProofs Verif.LinkFacts.
Require Verif.TokenSpec.
Import ListNotations.
Open Scope string_scope.
Open Scope list_scope.

(* ===== C54  Objects are read as written in the syntax of their class ===== *)
(* Full claim: every object of every class.  Missing, with witnesses below:
   'literals'B and 'literals'H, classes without WITH SYNTAX, and settings that
   cannot be told apart without the types of the fields (told_apart). *)
Theorem C54_objects_partial : forall num c w fields, numeric_characters num -> well_worded c -> object_syntax c w fields ->
  Forall (from_text (fun z => num z = true)) w -> parse_object_from_class num (text w) c = Ok (Some fields).
Proof. exact C54_objects_proof. Qed.
Print Assumptions C54_objects_partial.
Example C54_case : numeric_characters is_digit /\ well_worded C54_class /\ object_syntax C54_class C54_words C54_fields /\
  Forall (from_text (fun z => is_digit z = true)) C54_words /\ text C54_words = "{ HAS TYPE SEQUENCE { a NULL } ID 5 }".
Proof. exact C54_case_proof. Qed.
(* The hypotheses are those of texts: their tokens are from_text, and what the
   notation of classes denotes is well_worded if no two fields have the same
   words. *)
Theorem C54_tokens_of_texts : forall numeric cs l t, TokenSpec.items numeric cs l -> Forall (fun c => (0 <= c < 0x110000)%Z) cs ->
  In t (words_of_items l) -> ~ In (t_type t) [BitString; HexString] -> from_text numeric t.
Proof. exact C54_tokens_proof. Qed.
Print Assumptions C54_tokens_of_texts.
Theorem C54_classes_of_texts : forall w c, class_syntax w c -> NoDup (names c) /\
  forall f spec x, In (f, spec) c -> words_before_field spec = Some x -> exists ws, Forall word ws /\ x = text ws.
Proof. exact C54_classes_proof. Qed.
Print Assumptions C54_classes_of_texts.
(* All files of a schema, with the objects of all classes. *)
Theorem C54_files_are_linked_partial : forall num files modules, numeric_characters num -> schema_denotes (fun z => num z = true) files modules ->
  well_named modules -> imports_defined modules -> sorted_modules modules (map fst modules) ->
  exists parsed, add_files num files = Ok parsed /\ link num parsed [] (map fst modules) = Ok modules.
Proof. exact C54_files_proof. Qed.
Print Assumptions C54_files_are_linked_partial.
Example C54_files_case : schema_denotes (fun z => is_digit z = true) (map chars_of_text message_texts) message_modules /\
  class_syntax class_words message_spec.
Proof. exact (conj message_denoted class_notation). Qed.
(* A hexadecimal literal makes the compiler fail. *)
Theorem C54_literal_refuted : linked [in_module "C ::= CLASS { &id OCTET STRING } WITH SYNTAX { ID &id } o C ::= { ID '00'H }"] ["M"] = Err.
Proof. exact C54_literal_proof. Qed.
Print Assumptions C54_literal_refuted.
(* An object in the default syntax loses its fields. *)
Theorem C54_default_syntax_refuted :
  linked_kind "o" (linked [in_module "C ::= CLASS { &id INTEGER, &Type } o C ::= { &id 5, &Type NULL }"] ["M"]) = Ok (Some (DKObject "C" (Some []))).
Proof. exact C54_default_syntax_proof. Qed.
Print Assumptions C54_default_syntax_refuted.
(* A setting without words can be one token only, if others follow. *)
Theorem C54_wordless_refuted :
  linked [in_module "C ::= CLASS { &id INTEGER, &Type } WITH SYNTAX { &Type ID &id } o C ::= { INTEGER (0..5) ID 5 }"] ["M"] = Err /\
  linked_kind "o" (linked [in_module "C ::= CLASS { &id INTEGER, &Type } WITH SYNTAX { &Type ID &id } o C ::= { NULL ID 5 }"] ["M"]) =
    Ok (Some (DKObject "C" (Some [("&Type", OFType (Some null)); ("&id", OFValue int (Some "5"))]))).
Proof. exact C54_wordless_proof. Qed.
Print Assumptions C54_wordless_refuted.
(* An object without a mandatory field is accepted. *)
Theorem C54_mandatory_refuted :
  linked_kind "o" (linked [in_module "C ::= CLASS { &id INTEGER, &Type } WITH SYNTAX { ID &id TYPE &Type } o C ::= { ID 5 }"] ["M"]) =
    Ok (Some (DKObject "C" (Some [("&id", OFValue int (Some "5"))]))).
Proof. exact C54_mandatory_proof. Qed.
Print Assumptions C54_mandatory_refuted.
(* Words that the class does not have are passed over, and the value of a field
   is then read at the wrong place: here &id is 5, not 3. *)
Theorem C54_unknown_words_refuted :
  linked_kind "o" (linked [in_module "C ::= CLASS { &id INTEGER, &Type } WITH SYNTAX { ID &id TYPE &Type } o C ::= { FOO 5 ID 3 }"] ["M"]) =
    Ok (Some (DKObject "C" (Some [("&id", OFValue int (Some "5"))]))).
Proof. exact C54_unknown_proof. Qed.
Print Assumptions C54_unknown_words_refuted.
(* Classes are not kept apart by module: what the object is depends on which of
   two modules that have nothing to do with each other comes first. *)
Theorem C54_scope_refuted :
  linked_kind "o" (linked ["A DEFINITIONS ::= BEGIN C ::= CLASS { &id INTEGER } WITH SYNTAX { ID &id } END";
                           "B DEFINITIONS ::= BEGIN IMPORTS C FROM A; o C ::= { ID 3 } END"; 
                           "Z DEFINITIONS ::= BEGIN C ::= CLASS { &code INTEGER } WITH SYNTAX { CODE &code } END"] ["Z"; "A"; "B"]) =
    Ok (Some (DKObject "C" (Some [("&id", OFValue int (Some "3"))]))) /\
  linked_kind "o" (linked ["A DEFINITIONS ::= BEGIN C ::= CLASS { &id INTEGER } WITH SYNTAX { ID &id } END";
                           "B DEFINITIONS ::= BEGIN IMPORTS C FROM A; o C ::= { ID 3 } END"; 
                           "Z DEFINITIONS ::= BEGIN C ::= CLASS { &code INTEGER } WITH SYNTAX { CODE &code } END"] ["A"; "Z"; "B"]) =
    Ok (Some (DKObject "C" (Some []))).
Proof. exact C54_scope_proof. Qed.
Print Assumptions C54_scope_refuted.

(* ===== C55  From the files of a schema to the bytes of its values ===== *)
(* The texts denote the modules, and the modules mean M.  Missing: as in C47,
   C50 and C54. *)
Theorem C55_items_mean_the_files_partial : forall num E depth fuel files M n modules orders prog,
  numeric_characters num -> schema_denotes (fun z => num z = true) files modules ->
  (n <= depth)%nat -> well_named modules -> imports_defined modules ->
  (forall a m, In (a, m) modules -> module_means M modules n m) ->
  not_recursive M modules -> valid_orders modules orders -> map fst modules = map fst orders ->
  compile_files num E depth fuel files orders = Ok prog ->
  (forall n d, In (n, d) prog -> countable d /\ ~ In "Option" (used_types d)) ->
  forall a m k T, In (a, m) modules -> In k (def_names m) -> types M k = Some T ->
  rust_means (map item_of prog) (to_type_ident k) T.
Proof. exact C55_compiled_proof. Qed.
Print Assumptions C55_items_mean_the_files_partial.
Theorem C55_files_are_compiled_partial : forall num E depth fuel files M n modules orders,
  numeric_characters num -> schema_denotes (fun z => num z = true) files modules ->
  (n <= depth)%nat -> well_named modules -> imports_defined modules ->
  (forall a m, In (a, m) modules -> module_means M modules n m) ->
  not_recursive M modules -> valid_orders modules orders -> map fst modules = map fst orders ->
  (List.length (flat_map (fun nm => def_names (snd nm)) modules) < fuel)%nat ->
  (forall a m k d, In (a, m) modules -> In (k, d) (m_defs m) ->
     has_meaning M k \/ d_params d <> None \/ exists f, d_kind d = DKClass f) ->
  exists prog, compile_files num E depth fuel files orders = Ok prog.
Proof. exact C55_succeeds_proof. Qed.
Print Assumptions C55_files_are_compiled_partial.
(* T is the type of the texts, T' the one that the macro reads from the items. *)
Theorem C55_values_survive_partial : forall num E depth fuel files M n modules orders prog,
  numeric_characters num -> schema_denotes (fun z => num z = true) files modules ->
  (n <= depth)%nat -> well_named modules -> imports_defined modules ->
  (forall a m, In (a, m) modules -> module_means M modules n m) ->
  not_recursive M modules -> valid_orders modules orders -> map fst modules = map fst orders ->
  compile_files num E depth fuel files orders = Ok prog ->
  (forall n d, In (n, d) prog -> countable d /\ ~ In "Option" (used_types d)) -> NoDup (map fst prog) ->
  forall a m k T T' v k' s, In (a, m) modules -> In k (def_names m) -> types M k = Some T ->
  rust_means (map item_of prog) (to_type_ident k) T' ->
  carries E None T v k' -> flow_of T v false = Some s ->
  exists d, enc E T' v new_data = (Ok tt, d) /\
    (zlen (bits d) < 2 ^ 60 -> fst (dec E T' (from_slice (into_bytes d))) = Ok v)%Z.
Proof. exact C55_values_proof. Qed.
Print Assumptions C55_values_survive_partial.
Example C55_case : numeric_characters is_digit /\
  schema_denotes (fun z => is_digit z = true) (map chars_of_text message_texts) message_modules /\
  well_named message_modules /\ imports_defined message_modules /\
  (forall a m, In (a, m) message_modules -> module_means message_meaning message_modules 2 m) /\
  not_recursive message_meaning message_modules /\ valid_orders message_modules message_orders /\
  map fst message_modules = map fst message_orders /\
  (forall a m k d, In (a, m) message_modules -> In (k, d) (m_defs m) -> has_meaning message_meaning k \/ d_params d <> None \/ exists f, d_kind d = DKClass f).
Proof. exact C55_case_proof. Qed.
Example C55_case_program : compile_files is_digit checked_env 2 11 (map chars_of_text message_texts) message_orders = Ok message_program /\
  (forall n d, In (n, d) message_program -> countable d /\ ~ In "Option" (used_types d)) /\ NoDup (map fst message_program) /\
  types message_meaning "Message" = Some message_ty /\ rust_means (map item_of message_program) "Message" message_ty /\
  carries checked_env None message_ty message_value (Some 2%Z) /\ flow_of message_ty message_value false = Some true.
Proof. exact C55_case_program_proof. Qed.
