(* Names of the fields and constants of one definition and of the definitions of a
   program with open types (properties.jsonl C36; the rest of C36 is in
   Theorems_Compiler.v), and that names are words of Rust (C68).
   Vocabulary: CompilerSpec.v, WordSpec.v, OpenNameSpec.v, LegalSpec.v. *)
From Coq Require Import ZArith NArith List Bool String.
Require Import Verif.Base Verif.Asn1Model Verif.GenModel Verif.ResolveModel Verif.ModuleModel Verif.DefinitionModel Verif.RustModel Verif.RustSpec
  Verif.CompilerSpec Verif.CompilerFacts Verif.WordSpec Verif.WordProofs Verif.OpenNameSpec Verif.OpenNameProofs Verif.LegalSpec Verif.LegalProofs Verif.SpelledProofs Verif.WrittenProofs Verif.PlainProofs.
Require Verif.TokenSpec Verif.TokenModel Verif.ObjectFacts Verif.OrderFacts.
Import ListNotations.
Open Scope string_scope.
Open Scope list_scope.
Open Scope Z_scope.

(* ===== C36 generated names do not collide ===== *)
(* Full claim: components with different identifiers get different fields.  Missing:
   identifiers that differ only in hyphens and capitals, and `type` beside `typ`;
   see C36_field_names_refuted. *)
Theorem C36_fields_kept_apart_partial : forall E defs inst root additions ext cs name st d st',
  (exists l, rmap (fun c => resolve_type E defs inst (comp_ty c)) root = Ok l) ->
  definition_of E defs inst (mkType (KSequence root additions ext) cs) name st = Ok (d, st') ->
  NoDup (map (fun c => bare_field (comp_id c)) root) ->
  exists n fs, d = GSequence ext n fs /\ NoDup (map gf_name fs).
Proof. exact components_apart. Qed.
Print Assumptions C36_fields_kept_apart_partial.
(* Full claim: items with different identifiers get different constants.  Missing:
   identifiers that differ only in hyphens and capitals, see
   C36_constant_names_refuted. *)
Theorem C36_all_constants_kept_apart_partial : forall E defs inst root marker ext cs name st d st',
  definition_of E defs inst (mkType (KBuiltin (BEnumerated root marker ext)) cs) name st = Ok (d, st') ->
  NoDup (map (fun v => bare (ev_name v)) root) ->
  exists ub consts, d = GEnumerated ub marker consts /\ NoDup (map fst consts).
Proof. exact all_items_apart. Qed.
Print Assumptions C36_all_constants_kept_apart_partial.
(* and there is a definition, where items have no numbers of their own *)
Theorem C36_constants_kept_apart_partial : forall E defs inst root marker ext cs name st,
  Forall (fun v => ev_value v = None) (root ++ ext) -> root <> [] -> zlen root <= 256 ->
  NoDup (map (fun v => bare (ev_name v)) root) ->
  exists consts, definition_of E defs inst (mkType (KBuiltin (BEnumerated root marker ext)) cs) name st =
      Ok (GEnumerated (zlen root - 1) marker consts, st) /\ NoDup (map fst consts).
Proof. exact items_apart_proof. Qed.
Print Assumptions C36_constants_kept_apart_partial.
(* a name keeps its letters and digits, in their order *)
Theorem C36_names_keep_their_letters : forall s, bare (to_const_ident s) = bare s /\ bare_field (to_value_ident s) = bare_field s.
Proof. exact letters_kept. Qed.
Print Assumptions C36_names_keep_their_letters.
Example C36_names_case :
  NoDup (map bare_field ["amfUENgapID"; "ran-UE-NGAP-ID"; "type"; "nas-pdu"; "nASC"]) /\
  map to_value_ident ["amfUENgapID"; "ran-UE-NGAP-ID"; "type"; "nas-pdu"; "nASC"] = ["amf_ue_ngap_id"; "ran_ue_ngap_id"; "typ"; "nas_pdu"; "nasc"] /\
  NoDup (map bare ["not-allowed"; "allowedOnce"; "n32"]) /\
  run (mkType (KBuiltin (BEnumerated [mkEnumValue "not-allowed" None; mkEnumValue "allowedOnce" None; mkEnumValue "n32" None] true [])) None) =
    Ok (GEnumerated 2 true [("NOT_ALLOWED", 0); ("ALLOWED_ONCE", 1); ("N32", 2)]) /\
  run (mkType (KSequence [mkSeqComp "type" (mkType (KBuiltin BBoolean) None) false None;
                          mkSeqComp "nas-pdu" (mkType (KBuiltin BBoolean) None) false None] [] false) None) =
    Ok (GSequence false None [mkField "typ" None false "BOOLEAN_2"; mkField "nas_pdu" None false "BOOLEAN_3"]).
Proof. exact names_case. Qed.

(* Full claim: the definitions of every program have different names.  Missing:
   schemas whose written names (of definitions, and of the constructed and open types
   in them) collide or look like made-up ones, see the refutations in
   Theorems_Compiler.v. *)
Theorem C36_programs_kept_apart_partial : forall E defs prog,
  generate E defs = Ok prog -> Forall (fun kt => plain_open_types (snd kt)) defs ->
  NoDup (map to_type_ident (names_written defs)) -> Forall (fun n => numbered n -> False) (names_written defs) ->
  NoDup (map fst prog).
Proof. exact program_names_distinct. Qed.
Print Assumptions C36_programs_kept_apart_partial.
Example C36_open_case : Forall (fun kt => plain_open_types (snd kt)) C36_open_defs /\
  NoDup (map to_type_ident (names_written C36_open_defs)) /\ Forall (fun n => numbered n -> False) (names_written C36_open_defs) /\
  exists prog, generate {| overflow_checks := true; little_endian := true |} C36_open_defs = Ok prog /\
    map fst prog = ["Cause"; "Msg"; "MsgList"; "OCTET_STRING_2"; "MsgValue"; "OCTET_STRING_3"; "MsgList_EntryValue"; "MsgList_Entry"].
Proof. exact C36_open_case_proof. Qed.
(* Objects with types of their own are left out of open types (C49), so that the
   condition on the latter holds of all modules that are compiled. *)
Theorem C36_compiled_kept_apart_partial : forall E depth fuel modules orders prog st,
  resolve_modules E (instantiate E depth) fuel modules orders = Ok st ->
  compile E (instantiate E depth) fuel modules orders = Ok prog ->
  NoDup (map to_type_ident (names_written (resolved_types st))) -> Forall (fun n => numbered n -> False) (names_written (resolved_types st)) ->
  NoDup (map fst prog).
Proof. exact compiled_apart. Qed.
Print Assumptions C36_compiled_kept_apart_partial.
Example C36_compiled_case : exists st prog, resolve_modules ObjectFacts.checked_env (instantiate ObjectFacts.checked_env 2) 10 OrderFacts.C57_modules OrderFacts.C57_orders = Ok st /\
  compile ObjectFacts.checked_env (instantiate ObjectFacts.checked_env 2) 10 OrderFacts.C57_modules OrderFacts.C57_orders = Ok prog /\
  names_written (resolved_types st) = ["Criticality"; "Flag"; "Hour"; "Message"; "MessageField"; "MessageFieldValue"; "MessageMore"; "Number"; "Time"] /\
  NoDup (map to_type_ident (names_written (resolved_types st))) /\ Forall (fun n => numbered n -> False) (names_written (resolved_types st)).
Proof. exact C36_compiled_case_proof. Qed.
(* The variants of an open type, which are named after the values of the id field,
   have different names. *)
Theorem C36_variants_kept_apart : forall E defs unique f s setref name st d st', table_of defs unique s ->
  Forall identifier (map (fun c => fst (fst c)) (open_types f s)) ->
  generate_for_type E (RSet setref (open_types f s)) name st = Ok (d, st') ->
  exists vs, d = GOpen false vs /\ NoDup (map gv_name vs).
Proof. exact open_variants_apart. Qed.
Print Assumptions C36_variants_kept_apart.
Example C36_variants_case : forall E, table_of C49_defs (Some "&id") C49_set /\
  Forall identifier (map (fun c => fst (fst c)) (open_types "&Type" C49_set)) /\
  exists st, generate_for_type E (RSet "Set" (open_types "&Type" C49_set)) "Value" new_generator =
    Ok (GOpen false [mkVariant "Id_one" 1 false "One"; mkVariant "Id_two" 2 false "Two"], st).
Proof. exact C36_variants_case_proof. Qed.

(* ===== C68 generated names are identifiers of Rust ===== *)
(* Full claim: every name in a program is an identifier of Rust and means what the
   item takes it for.  Missing: names that are keywords of Rust or hide a type of its
   library; see below for which these are.  `word` is in LegalSpec.v.  The first
   theorem is about the texts of all files that are compiled, whatever is written
   in them, the second one about modules that have been read. *)
Theorem C68_files_have_words_partial : forall num, TokenSpec.numeric_table num -> forall E depth fuel files orders prog,
  compile_files num E depth fuel files orders = Ok prog ->
  forall n d, In (n, d) prog -> word n /\ Forall word (item_names d).
Proof. exact files_words. Qed.
Print Assumptions C68_files_have_words_partial.
Example C68_files_case : TokenSpec.numeric_table TokenModel.is_digit /\
  exists prog, compile_files TokenModel.is_digit {| overflow_checks := true; little_endian := true |} 2 2 [chars_of C68_text] [("M", ["Cause"; "Pair"; "S1AP-PDU"])] = Ok prog /\
  In ("S1AP_PDU", GSequence false None [mkField "the_first" None false "Cause"; mkField "second" None false "S1AP_PDUSecond"]) prog /\
  In ("S1AP_PDUSecond", GChoice 0 0 false [mkVariant "FooBar" 0 false "Cause"]) prog.
Proof. exact C68_files_case_proof. Qed.
Theorem C68_names_are_words_partial : forall E depth fuel modules orders prog, LegalSpec.well_spelled asn_name modules ->
  compile E (instantiate E depth) fuel modules orders = Ok prog ->
  forall n d, In (n, d) prog -> word n /\ Forall word (item_names d).
Proof. exact compiled_words. Qed.
Print Assumptions C68_names_are_words_partial.
Example C68_case : LegalSpec.well_spelled asn_name C68_modules /\
  compile {| overflow_checks := true; little_endian := true |} (instantiate {| overflow_checks := true; little_endian := true |} 1) 2 C68_modules [("M", ["Cause"; "S1AP-PDU"])] =
  Ok [("Cause", GEnumerated 1 false [("NOT_ALLOWED", 0); ("TYPE", 1)]);
      ("S1AP_PDU", GSequence false (Some 1) [mkField "the_cause" None false "Cause"; mkField "typ" (Some 0) false "S1AP_PDUType"; mkField "list" None false "S1AP_PDUList"]);
      ("NULL_2", GNull); ("S1AP_PDUType", GChoice 0 0 false [mkVariant "FooBar" 0 false "NULL_2"]);
      ("OCTET_STRING_3", GOctetString None); ("S1AP_PDUList", GSequenceOf None "OCTET_STRING_3")].
Proof. exact C68_case_proof. Qed.
(* Where no name is a keyword, however its letters are written and with or without
   hyphens, no name in the program is one, except that a type can be called Self. *)
Theorem C68_no_keywords_partial : forall E depth fuel modules orders prog, LegalSpec.well_spelled no_keyword modules ->
  compile E (instantiate E depth) fuel modules orders = Ok prog ->
  forall n d x, In (n, d) prog -> In x (n :: item_names d) -> word x /\ (In x rust_keywords -> x = "Self").
Proof. exact compiled_no_keywords. Qed.
Print Assumptions C68_no_keywords_partial.
Example C68_no_keywords_case : LegalSpec.well_spelled no_keyword C68_modules.
Proof. exact C68_no_keywords_case_proof. Qed.
(* Sel ::= CHOICE { f CHOICE { a NULL } }: the type of f is called Self *)
Theorem C68_joined_names_refuted : LegalSpec.well_spelled no_keyword C68_sel /\
  compile {| overflow_checks := true; little_endian := true |} (instantiate {| overflow_checks := true; little_endian := true |} 1) 1 C68_sel [("M", ["Sel"])] =
  Ok [("Sel", GChoice 0 0 false [mkVariant "F" 0 false "Self"]); ("NULL_2", GNull); ("Self", GChoice 0 0 false [mkVariant "A" 0 false "NULL_2"])] /\
  In "Self" rust_keywords.
Proof. exact C68_sel_proof. Qed.
Print Assumptions C68_joined_names_refuted.
(* Constants are never keywords; types and alternatives only when called Self or self;
   fields only when the name is a keyword in small letters and without hyphens. *)
Theorem C68_constants_are_no_keywords : forall s, asn_name s -> ~ In (to_const_ident s) rust_keywords.
Proof. exact constant_no_keyword. Qed.
Print Assumptions C68_constants_are_no_keywords.
Theorem C68_types_are_no_keywords_partial : forall s, asn_name s -> s <> "Self" -> s <> "self" -> ~ In (to_type_ident s) rust_keywords.
Proof. exact type_no_keyword. Qed.
Print Assumptions C68_types_are_no_keywords_partial.
Theorem C68_fields_are_no_keywords_partial : forall s, asn_name s -> bare s = "type" \/ ~ In (bare s) rust_keywords -> ~ In (to_value_ident s) rust_keywords.
Proof. exact field_no_keyword. Qed.
Print Assumptions C68_fields_are_no_keywords_partial.
Example C68_keyword_case : to_const_ident "match" = "MATCH" /\ to_type_ident "match" = "Match" /\ to_value_ident "type" = "typ" /\ to_value_ident "matched" = "matched" /\
  In "match" rust_keywords /\ In (to_value_ident "match") rust_keywords.
Proof. exact keyword_case. Qed.
(* T ::= CHOICE { self NULL } has a variant called Self *)
Theorem C68_self_refuted : identifier "self" /\ to_type_ident "self" = "Self" /\
  compile {| overflow_checks := true; little_endian := true |} (instantiate {| overflow_checks := true; little_endian := true |} 1) 1
    [("M", mkModule [] [("T", mkDef (DKType (mkType (KChoice [("self", mkType (KBuiltin BNull) None)] None) None)) None)])] [("M", ["T"])] =
  Ok [("T", GChoice 0 0 false [mkVariant "Self" 0 false "NULL_2"]); ("NULL_2", GNull)].
Proof. exact C68_self_proof. Qed.
Print Assumptions C68_self_refuted.
(* String ::= UTF8String becomes a struct String that holds a String, that is, itself *)
Theorem C68_library_names_refuted :
  compile {| overflow_checks := true; little_endian := true |} (instantiate {| overflow_checks := true; little_endian := true |} 1) 1
    [("M", mkModule [] [("String", mkDef (DKType (mkType (KBuiltin (BCharacterString "UTF8String")) None)) None)])] [("M", ["String"])] =
  Ok [("String", GCharString "UTF8String" None)] /\
  item_of ("String", GCharString "UTF8String" None) = Derived "String" [asn (of_type "UTF8String")] (RStruct (Unnamed [RPath "String" []])).
Proof. exact C68_shadow_proof. Qed.
Print Assumptions C68_library_names_refuted.
