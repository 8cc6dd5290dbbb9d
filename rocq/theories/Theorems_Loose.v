(* What the parser takes for ASN.1 (C60).  The notation with the liberties
   that it allows is specified in LooseSpec, the notation without them in
   ParserSpec and DefinitionSpec, the lexical items in TokenSpec. *)
From Coq Require Import ZArith NArith List Bool String Ascii Lia.
Require Import Verif.Base Verif.Asn1Model Verif.GenModel Verif.ResolveModel Verif.TokenModel Verif.ParserModel Verif.ModuleModel Verif.DefinitionModel
  Verif.ParserSpec Verif.DefinitionSpec Verif.ParserFacts Verif.LooseSpec Verif.LooseFacts.
Require Verif.TokenSpec Verif.TokenProofs.
Import ListNotations.
Open Scope string_scope.
Open Scope list_scope.

(* ===== C60  Text that is not ASN.1 is reported ===== *)
(* Missing: some text outside the notation is accepted.  All of it is in the
   loose notation, and is taken for what it denotes there. *)
Theorem C60_types_partial : forall w t rest, Forall lexed w -> parse_type w = Ok (t, rest) -> exists v, w = v ++ rest /\ loose_type v t.
Proof. exact C60_types_proof. Qed.
Print Assumptions C60_types_partial.
Theorem C60_element_sets_partial : forall w s rest, Forall lexed w -> parse_element_set w = Ok (s, rest) ->
  exists v, w = v ++ rest /\ loose_set v s.
Proof. exact C60_sets_proof. Qed.
Print Assumptions C60_element_sets_partial.
Theorem C60_definitions_partial : forall w d rest, Forall lexed w -> parse_definition w = Ok (d, rest) ->
  exists v, w = v ++ rest /\ loose_definition v d.
Proof. exact C60_definitions_proof. Qed.
Print Assumptions C60_definitions_partial.
(* The words of a text are like that. *)
Theorem C60_words : forall numeric cs l, TokenSpec.items numeric cs l -> Forall lexed (words_of_items l).
Proof. exact items_lexed. Qed.
Print Assumptions C60_words.
(* A file, from its characters. *)
Theorem C60_file_partial : forall num cs toks ms, TokenSpec.numeric_table num -> tokenize num cs = Ok toks -> parse toks = Ok ms ->
  exists l, TokenSpec.items (fun c => num c = true) cs l /\ loose_file (words_of_items l) ms.
Proof. exact C60_file_proof. Qed.
Print Assumptions C60_file_partial.
(* The whole compiler: there is a program only if every file can be read. *)
Theorem C60_compiled_files_partial : forall num E depth fuel files orders program, TokenSpec.numeric_table num ->
  compile_files num E depth fuel files orders = Ok program -> Forall (readable (fun c => num c = true)) files.
Proof. exact C60_compiled_proof. Qed.
Print Assumptions C60_compiled_files_partial.
Example C60_case : read_file C50_source = Ok [C50_module] /\
  Forall (fun s => read_file s = Err) [
    "M DEFINITIONS ::= BEGIN A ::= NULL";
    "M DEFINITIONS ::= BEGIN A : NULL END";
    "M DEFINITIONS ::= BEGIN a ::= NULL END";
    "M DEFINITIONS ::= BEGIN A ::= INTEGER (1..) END";
    "M DEFINITIONS ::= BEGIN A ::= INTEGER (1..2 END";
    "M DEFINITIONS ::= BEGIN A ::= ENUMERATED { } END";
    "M DEFINITIONS ::= BEGIN A ::= CLASS { &id INTEGER, } WITH SYNTAX { ID &id } END";
    "M DEFINITIONS ::= BEGIN A ::= CLASS { &id INTEGER } WITH SYNTAX { [ID &id] } END";
    "M DEFINITIONS ::= BEGIN IMPORTS A FROM N A FROM O; END";
    "m DEFINITIONS ::= BEGIN A ::= NULL END"].
Proof. exact C60_case_proof. Qed.
(* The loose notation contains the notation. *)
Theorem C60_types_contained : forall w t, Forall lexed w -> type_syntax w t -> loose_type w t.
Proof. exact C60_strict_types_proof. Qed.
Print Assumptions C60_types_contained.
Theorem C60_files_contained : forall num cs l ms, TokenSpec.numeric_table num -> TokenSpec.items (fun c => num c = true) cs l -> cs <> [] ->
  file_syntax (words_of_items l) ms -> exists l', TokenSpec.items (fun c => num c = true) cs l' /\ loose_file (words_of_items l') ms.
Proof. exact C60_strict_file_proof. Qed.
Print Assumptions C60_files_contained.
(* OCTET NULL is no type, and is taken for one. *)
Theorem C60_octets_refuted : let w := [K "OCTET"; K "NULL"] in
  Forall lexed w /\ parse_type w = Ok (mkType (KBuiltin BOctetString) (Some []), []) /\ forall t, ~ type_syntax w t.
Proof. exact C60_octets_proof. Qed.
Print Assumptions C60_octets_refuted.
(* SEQUENCE { a NULL b NULL }, SEQUENCE { a NULL, b NULL, },
   SEQUENCE { a NULL, a NULL }, ENUMERATED { p q }, SET, Foo {},
   INTEGER (SIZE 5), INTEGER ( | 5) and INTEGER (0 < NULL 5). *)
Theorem C60_types_refuted :
  (let t := of (KSequence [mkSeqComp "a" (of (KBuiltin BNull)) false None; mkSeqComp "b" (of (KBuiltin BNull)) false None] [] false) in
   parse_type [K "SEQUENCE"; L_BRACE; I "a"; K "NULL"; I "b"; K "NULL"; R_BRACE] = Ok (t, []) /\
   parse_type [K "SEQUENCE"; L_BRACE; I "a"; K "NULL"; COMMA; I "b"; K "NULL"; COMMA; R_BRACE] = Ok (t, [])) /\
  parse_type [K "SEQUENCE"; L_BRACE; I "a"; K "NULL"; COMMA; I "a"; K "NULL"; R_BRACE] =
    Ok (of (KSequence [mkSeqComp "a" (of (KBuiltin BNull)) false None; mkSeqComp "a" (of (KBuiltin BNull)) false None] [] false), []) /\
  parse_type [K "ENUMERATED"; L_BRACE; I "p"; I "q"; R_BRACE] =
    Ok (of (KBuiltin (BEnumerated [mkEnumValue "p" None; mkEnumValue "q" None] false [])), []) /\
  parse_type [K "SET"] = Ok (of (KReference (RefName "SET")), []) /\
  parse_type [I "Foo"; L_BRACE; R_BRACE] = Ok (of (KReference (RefName "Foo")), []) /\
  parse_type [K "INTEGER"; L_PAREN; K "SIZE"; N "5"; R_PAREN] = Ok (one (ESingle "5"), []) /\
  parse_type [K "INTEGER"; L_PAREN; BAR; N "5"; R_PAREN] = Ok (one (ESingle "5"), []) /\
  parse_type [K "INTEGER"; L_PAREN; N "0"; LESS; K "NULL"; N "5"; R_PAREN] = Ok (one (ERange "0" false "5" true), []).
Proof. exact C60_types_liberties_proof. Qed.
Print Assumptions C60_types_refuted.
(* M DEFINITIONS ::= BEGIN IMPORTS 5 INTEGER Z FROM N; A ::= SEQUENCE { a INTEGER } A ::= BOOLEAN END *)
Theorem C60_file_refuted :
  read_file C60_source = Ok [mkParsedModule "M" [("Z", "N")] [("A", mkParsed "A" (PAType (of (KBuiltin BBoolean))) None)]].
Proof. exact C60_file_liberties_proof. Qed.
Print Assumptions C60_file_refuted.
