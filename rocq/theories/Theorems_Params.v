(* The theorems about parameterized types (C42).  What it is to put actual for
   formal parameters in a type is specified in ParamSpec. *)
From Coq Require Import ZArith NArith List Bool String Ascii Lia.
Require Import Verif.Base Verif.Asn1Model Verif.ResolveModel Verif.TokenModel Verif.ParserModel Verif.ModuleModel Verif.DefinitionModel
  Verif.ParserSpec Verif.ParamSpec Verif.ParamProofs Verif.ParserFacts Verif.ParamFacts.
Import ListNotations.
Open Scope string_scope.
Open Scope list_scope.

(* ===== C42  Parameter substitution replaces formal by actual parameters ===== *)
(* Missing: parameters named like a later formal one, like a component, or
   replaced by what cannot stand in their place (see below). *)
Theorem C42_instance_partial : forall d formals w t actuals, d_params d = Some (formals, w) -> type_syntax w t ->
  List.length formals = List.length actuals -> in_sequence formals actuals -> fits (instead formals actuals) w -> apart (instead formals actuals) t ->
  exists t', apply_params d actuals = Ok t' /\ subst_type (instead formals actuals) t t'.
Proof. exact C42_instance_proof. Qed.
Print Assumptions C42_instance_partial.
(* Whatever the tokens are: the type is read from them with every name
   replaced, all at once. *)
Theorem C42_tokens_partial : forall d formals w actuals, d_params d = Some (formals, w) ->
  List.length formals = List.length actuals -> in_sequence formals actuals ->
  apply_params d actuals = (t <-- parse_type (map (renamed (instead formals actuals)) w) ;; Ok (fst t)).
Proof. exact C42_tokens_proof. Qed.
Print Assumptions C42_tokens_partial.
Example C42_case : type_syntax C42_body (C42_type "T" "max") /\ in_sequence ["T"; "max"] C42_actuals /\
  fits (instead ["T"; "max"] C42_actuals) C42_body /\ apart (instead ["T"; "max"] C42_actuals) (C42_type "T" "max") /\
  apply_params C42_def C42_actuals = Ok (C42_type "Foo" "7").
Proof. exact C42_case_proof. Qed.
(* The wrong number of parameters is an error. *)
Theorem C42_number : forall d actuals, match d_params d with Some (formals, _) => List.length formals <> List.length actuals | None => True end ->
  apply_params d actuals = Err.
Proof. exact C42_number_proof. Qed.
Print Assumptions C42_number.
(* F{A, B} as F{B, C}: the B put for A is taken for the formal parameter B. *)
Theorem C42_capture_refuted :
  apply_params (parameterized ["A"; "B"] [K "SEQUENCE"; L_BRACE; I "a"; I "A"; COMMA; I "b"; I "B"; R_BRACE]) [PSingle "B"; PSingle "C"] =
  Ok (mkType (KSequence [mkSeqComp "a" (plain "C") false None; mkSeqComp "b" (plain "C") false None] [] false) (Some [])).
Proof. exact C42_capture_proof. Qed.
Print Assumptions C42_capture_refuted.
(* F{INTEGER:size} ::= SEQUENCE { size INTEGER (0..size) } as F{max}: the component is renamed. *)
Theorem C42_component_refuted :
  apply_params (parameterized ["size"] [K "SEQUENCE"; L_BRACE; I "size"; K "INTEGER"; L_PAREN; N "0"; DOTDOT; I "size"; R_PAREN; R_BRACE]) [PSingle "max"] =
  Ok (mkType (KSequence [mkSeqComp "max" (mkType (KBuiltin BInteger) (Some [CSubtype (mkSet [[ERange "0" true "max" true]] None)])) false None] [] false) (Some [])).
Proof. exact C42_component_proof. Qed.
Print Assumptions C42_component_refuted.
(* F{INTEGER:n} ::= INTEGER { a(n) } as F{5} *)
Theorem C42_named_number_refuted :
  type_syntax [K "INTEGER"; L_BRACE; I "a"; L_PAREN; I "n"; R_PAREN; R_BRACE] int /\
  apply_params (parameterized ["n"] [K "INTEGER"; L_BRACE; I "a"; L_PAREN; I "n"; R_PAREN; R_BRACE]) [PSingle "5"] = Err.
Proof. exact C42_number_given_proof. Qed.
Print Assumptions C42_named_number_refuted.
(* X{T} ::= T{T} as X{X}: the compiler does not come back. *)
Theorem C42_endless_refuted : forall E depth resolved classes,
  instantiate E depth (mkResolver resolved [("X", parameterized ["T"] [I "T"; L_BRACE; I "T"; R_BRACE])] classes) "X" [PSingle "X"] = Diverge.
Proof. exact C42_endless_proof. Qed.
Print Assumptions C42_endless_refuted.
