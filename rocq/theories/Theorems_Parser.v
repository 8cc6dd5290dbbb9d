(* The theorems about the parser (C41, C50).  The notation is specified in
   ParserSpec and DefinitionSpec, the lexical items in TokenSpec. *)
From Coq Require Import ZArith NArith List Bool String Ascii Lia.
Require Import Verif.Base Verif.Asn1Model Verif.TokenModel Verif.ParserModel Verif.DefinitionModel
  Verif.ParserSpec Verif.DefinitionSpec Verif.GrammarProofs Verif.DefGrammarProofs Verif.ParserFacts.
Require Verif.TokenSpec.
Import ListNotations.
Open Scope string_scope.
Open Scope list_scope.

(* ===== C41  Parser terminates and makes progress ===== *)
(* On any tokens these functions come back with an error, or having read at
   least one token and only tokens there are. *)
Theorem C41_values_names_and_lists : always_ends parse_value /\ always_ends parse_set_ish_value /\ always_ends parse_integer_type /\
  always_ends parse_bitstring_type /\ always_ends parse_enumerated_type /\ always_ends parse_params /\
  always_ends parse_module_name /\ always_ends parse_object_assignment.
Proof. exact C41_always_proof. Qed.
Print Assumptions C41_values_names_and_lists.
(* Missing: types and definitions may panic when the tokens break off, and may
   not come back once a brace opens a list; they do so nowhere else. *)
Theorem C41_types_partial : ends_unless opens_list parse_type /\ ends_unless opens_list parse_element_set.
Proof. exact C41_types_proof. Qed.
Print Assumptions C41_types_partial.
Theorem C41_definitions_partial : ends_unless opens parse_class /\ ends_unless opens parse_definition /\ ends_unless opens parse_module.
Proof. exact C41_definitions_proof. Qed.
Print Assumptions C41_definitions_partial.
Theorem C41_file_partial : forall tokens,
  match parse tokens with Panic => cut_off (uncommented tokens) | Diverge => opens (uncommented tokens) | _ => True end.
Proof. exact C41_file_proof. Qed.
Print Assumptions C41_file_partial.
Example C41_case :
  parse_type [K "SEQUENCE"; L_BRACE; I "a"; K "INTEGER"; R_BRACE; I "B"] =
    Ok (mkType (KSequence [mkSeqComp "a" (mkType (KBuiltin BInteger) (Some [])) false None] [] false) (Some []), [I "B"]) /\
  opens_list [I "A"; K "SEQUENCE"; L_BRACE] /\ cut_off [I "A"; K "OCTET"] /\ ~ opens [I "a"; K "INTEGER"; ASSIGN; N "5"].
Proof. exact C41_case_proof. Qed.
(* After an opening brace: however often the loop turns, it does not come to an end. *)
Theorem C41_loops_refuted :
  (forall rt n r, sequence_loop rt n [] [] 0 (N "5" :: r) = Diverge) /\
  (forall n, actual_params_loop n [] [K "INTEGER"; R_BRACE] = Diverge) /\
  (forall n, object_set_loop n [] [] false [N "5"; R_BRACE] = Diverge) /\
  (forall rt n r, choice_loop rt n [] [] [] false (N "5" :: r) = Diverge).
Proof. exact C41_endless_proof. Qed.
Print Assumptions C41_loops_refuted.
(* ASN.1 that keeps the parser going for ever. *)
Theorem C41_legal_refuted :
  parse_type [I "Foo"; L_BRACE; K "INTEGER"; R_BRACE] = Diverge /\
  parse_type [K "SEQUENCE"; L_BRACE; I "a"; K "BOOLEAN"; K "DEFAULT"; K "TRUE"; R_BRACE] = Diverge /\
  parse_type [K "SEQUENCE"; L_BRACE; I "a"; K "REAL"; R_BRACE] = Diverge /\
  parse_type [K "CHOICE"; L_BRACE; I "a"; L_SQUARE; N "0"; R_SQUARE; K "INTEGER"; R_BRACE] = Diverge /\
  parse_type [K "SEQUENCE"; L_BRACE; I "a"; K "CHOICE"; L_BRACE; I "b"; K "NULL"; COMMA; DOTS; COMMA; I "c"; K "NULL"; COMMA; DOTS; R_BRACE; R_BRACE] = Diverge.
Proof. exact C41_legal_proof. Qed.
Print Assumptions C41_legal_refuted.
Theorem C41_panics_refuted :
  parse_type [K "OCTET"] = Panic /\ parse_type [K "CHARACTER"] = Panic /\ parse_type [K "INTEGER"; L_PAREN; N "0"; LESS] = Panic.
Proof. exact C41_panics_proof. Qed.
Print Assumptions C41_panics_refuted.

(* ===== C50  A text is read as what it denotes ===== *)
Theorem C50_types : forall w t rest, type_syntax w t -> follows_type rest -> parse_type (w ++ rest) = Ok (t, rest).
Proof. exact parse_type_complete. Qed.
Print Assumptions C50_types.
Theorem C50_element_sets : forall w s rest, set_syntax w s -> parse_element_set (w ++ rest) = Ok (s, rest).
Proof. exact parse_element_set_complete. Qed.
Print Assumptions C50_element_sets.
(* Modules: the last definition of the last module is not a class without WITH SYNTAX. *)
Theorem C50_modules_partial : forall w m rest, module_syntax w m -> rest <> [] \/ ~ ends_with_bare_class m ->
  parse_module (w ++ rest) = Ok (m, rest).
Proof. exact parse_module_complete. Qed.
Print Assumptions C50_modules_partial.
(* A file, from its characters. *)
Theorem C50_file_partial : forall num cs l ms, TokenSpec.numeric_table num -> TokenSpec.items (fun c => num c = true) cs l -> cs <> [] ->
  file_syntax (words_of_items l) ms -> exists toks, tokenize num cs = Ok toks /\ parse toks = Ok ms.
Proof. exact C50_file_proof. Qed.
Print Assumptions C50_file_partial.
Example C50_case : TokenSpec.numeric_table is_digit /\ chars_of C50_source <> [] /\
  exists l, TokenSpec.items (fun c => is_digit c = true) (chars_of C50_source) l /\ file_syntax (words_of_items l) [C50_module].
Proof. exact C50_case_proof. Qed.
(* No text of the notation denotes two things. *)
Theorem C50_types_unambiguous : forall w t t', type_syntax w t -> type_syntax w t' -> t = t'.
Proof. exact C50_unambiguous_proof. Qed.
Print Assumptions C50_types_unambiguous.
Theorem C50_modules_unambiguous : forall w m m', module_syntax w m -> module_syntax w m' -> m = m'.
Proof. exact C50_modules_unambiguous_proof. Qed.
Print Assumptions C50_modules_unambiguous.
(* An addition without version brackets is taken for a component of the root. *)
Theorem C50_additions_refuted :
  read_text (in_module "A ::= SEQUENCE { a NULL, ..., b NULL }") =
  Ok (only (mkParsed "A" (PAType (mkType (KSequence [mkSeqComp "a" null false None; mkSeqComp "b" null false None] [] true) (Some []))) None)).
Proof. exact C50_additions_proof. Qed.
Print Assumptions C50_additions_refuted.
(* In a CHOICE additions in version brackets come first. *)
Theorem C50_order_refuted :
  read_text (in_module "A ::= CHOICE { a NULL, ..., b NULL, [[ c NULL ]] }") =
  Ok (only (mkParsed "A" (PAType (mkType (KChoice [("a", null)] (Some [[("c", null)]; [("b", null)]])) (Some []))) None)).
Proof. exact C50_order_proof. Qed.
Print Assumptions C50_order_refuted.
(* A value in braces of a type in capitals is taken for an object. *)
Theorem C50_value_refuted :
  read_text (in_module "LIST ::= SEQUENCE OF INTEGER v LIST ::= { 1 }") =
  Ok [mkParsedModule "M" [] [("LIST", mkParsed "LIST" (PAType (mkType (KSequenceOf None int) (Some []))) None);
                             ("v", mkParsed "v" (PAObject "LIST" "{ 1 }") None)]].
Proof. exact C50_brace_value_proof. Qed.
Print Assumptions C50_value_refuted.
(* Of two definitions of a name one is lost without a word. *)
Theorem C50_twice_refuted : read_text (in_module "A ::= NULL A ::= INTEGER") = Ok (only (mkParsed "A" (PAType int) None)).
Proof. exact C50_twice_proof. Qed.
Print Assumptions C50_twice_refuted.
(* ASN.1 that is rejected. *)
Theorem C50_legal_refuted : Forall (fun s => read_text (in_module s) = Err)
  ["A ::= CHOICE { a NULL, ..., b NULL, ... }"; "A ::= SEQUENCE SIZE (1..5) OF NULL"; "A ::= [0] NULL"; "A ::= REAL"; "A ::= SET OF NULL";
   "A ::= INTEGER (ALL EXCEPT 5)"; "A ::= BOOLEAN (TRUE)"; "A ::= OCTET STRING (CONTAINING INTEGER)"; "A ::= B (WITH COMPONENTS { a }) B ::= SEQUENCE { a NULL }";
   "EXPORTS A; A ::= NULL"; "IMPORTS ; A ::= NULL"; "a BOOLEAN ::= TRUE"; "S INTEGER ::= { 1 | 2 }"; "A ::= CLASS { &a NULL }"].
Proof. exact C50_rejected_proof. Qed.
Print Assumptions C50_legal_refuted.
