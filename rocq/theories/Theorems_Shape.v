(* The theorems about how the types of a schema look in the generated program
   (C61).  What a type looks like is ShapeSpec.shaped: which item there is for
   it, and the names, numbers, types and optionality of its fields, variants
   and constants, down to the unnamed types inside. *)
From Coq Require Import ZArith NArith List Bool String Ascii Lia.
Require Import Verif.Base Verif.DeriveModel Verif.Asn1Model Verif.GenModel Verif.ResolveModel Verif.TokenModel Verif.TokenProofs Verif.ParserModel Verif.ModuleModel
  Verif.DefinitionModel Verif.CompilerSpec Verif.ObjectFacts Verif.LinkFacts Verif.OrderFacts Verif.CompilerFacts Verif.ShapeSpec Verif.ShapeProofs Verif.ShapeFacts.
Import ListNotations.
Open Scope string_scope.
Open Scope list_scope.
Open Scope Z_scope.

(* ===== C61  The program mirrors the schema ===== *)
(* Full claim: there is an item for each type of the schema, with a field,
   variant or constant of the expected name for each component, alternative or
   item.  Missing, each with a witness below or in C34: the additions of
   SEQUENCE types and of ENUMERATED types have no field or constant, items
   with written numbers have no constant, and the constants of an ENUMERATED
   wrap after 256 items.  Components beside the fields of a class are left out
   (F_other of ShapeSpec).  The names are assumed to be defined once. *)
Theorem C61_program_mirrors_schema_partial : forall E depth fuel modules orders prog,
  NoDup (map fst modules) -> NoDup (flat_map (fun nm : string * module => def_names (snd nm)) modules) ->
  compile E (instantiate E depth) fuel modules orders = Ok prog ->
  forall a o m k t, In (a, o) orders -> In (a, m) modules -> In k o -> In (k, mkDef (DKType t) None) (m_defs m) ->
  exists d, In (to_type_ident k, d) prog /\ shaped modules prog k t d.
Proof. exact compiled_shape. Qed.
Print Assumptions C61_program_mirrors_schema_partial.
(* A schema with an ENUMERATED, a nested CHOICE with additions, OPTIONAL
   components, a keyword as a name, and a parameterized type with an object
   set, and the program that it becomes. *)
Example C61_case : linked [C61_text] ["Types"] = Ok C61_modules /\ well_named C61_modules /\ valid_orders C61_modules C61_orders /\
  compile checked_env (instantiate checked_env 2) 11 C61_modules C61_orders = Ok C61_program.
Proof. exact C61_case_proof. Qed.
(* shaped leaves no room: what SEQUENCE { aa BOOLEAN, bb Foo OPTIONAL } looks like. *)
Example C61_case_only : forall modules prog d, shaped modules prog "T" (mkType (KSequence
    [mkSeqComp "aa" (mkType (KBuiltin BBoolean) None) false None; mkSeqComp "bb" (mkType (KReference (RefName "Foo")) None) true None] [] false) None) d ->
  exists n, In (to_type_ident ("BOOLEAN " ++ decimal n), GBoolean) prog /\
    d = GSequence false (Some 1) [mkField "aa" None false (to_type_ident ("BOOLEAN " ++ decimal n)); mkField "bb" (Some 0) false "Foo"].
Proof. exact C61_only_proof. Qed.

(* The same from the texts of the files. *)
Theorem C61_files_mirrored_partial : forall num E depth fuel files parsed orders prog,
  add_files num files = Ok parsed -> NoDup (map fst orders) -> NoDup (flat_map definition_names parsed) ->
  compile_files num E depth fuel files orders = Ok prog ->
  exists modules, link num parsed [] (map fst orders) = Ok modules /\
  forall a o pm k d t, In (a, o) orders -> lookup a parsed = Some pm -> In k o -> In (k, d) (pm_defs pm) -> pd_kind d = PAType t -> pd_params d = None ->
  exists g, In (to_type_ident k, g) prog /\ shaped modules prog k t g.
Proof. exact files_shape. Qed.
Print Assumptions C61_files_mirrored_partial.
Example C61_case_files : exists parsed, add_files is_digit [chars_of_text C61_text] = Ok parsed /\ NoDup (flat_map definition_names parsed) /\
  compile_files is_digit checked_env 2 11 [chars_of_text C61_text] C61_orders = Ok C61_program.
Proof. exact C61_files_case_proof. Qed.

(* For ENUMERATED types: the constant of the j-th item
   is j, which is what the type's decoder yields for it. *)
Theorem C61_constants_number_items_partial : forall E depth fuel modules orders prog,
  NoDup (map fst modules) -> NoDup (flat_map (fun nm : string * module => def_names (snd nm)) modules) ->
  compile E (instantiate E depth) fuel modules orders = Ok prog ->
  forall a o m k root marker ext cs, In (a, o) orders -> In (a, m) modules -> In k o ->
  In (k, mkDef (DKType (mkType (KBuiltin (BEnumerated root marker ext)) cs)) None) (m_defs m) ->
  root <> [] -> (List.length root <= 256)%nat -> (forall v n, In v root -> ev_value v <> Some (Number n)) ->
  exists consts, In (to_type_ident k, GEnumerated (zlen root - 1) marker consts) prog /\
    name_means prog (to_type_ident k) (TEnum (Some 0) (Some (zlen root - 1)) marker (mkIty false 8)) /\
    forall j v, nth_error root j = Some v -> nth_error consts j = Some (to_const_ident (ev_name v), Z.of_nat j).
Proof. exact enumerated_shape. Qed.
Print Assumptions C61_constants_number_items_partial.
(* With 257 items, two have the constant 0. *)
Theorem C61_constants_refuted : exists consts, compile checked_env (instantiate checked_env 1) 2 many_modules [("M", ["T"])] = Ok [("T", GEnumerated 256 false consts)] /\
  nth_error consts 0 = Some ("I0", 0) /\ nth_error consts 256 = Some ("I256", 0).
Proof. exact C61_many_proof. Qed.
Print Assumptions C61_constants_refuted.
(* The additions b and q are in the schema and not in the program. *)
Theorem C61_additions_refuted :
  linked ["M DEFINITIONS ::= BEGIN T ::= SEQUENCE { a NULL, ..., [[ b NULL ]] } C ::= ENUMERATED { p, ..., q } END"] ["M"] = Ok added_modules /\
  compile checked_env (instantiate checked_env 1) 3 added_modules [("M", ["T"; "C"])] =
  Ok [("C", GEnumerated 0 true [("P", 0)]); ("T", GSequence true None [mkField "a" None false "NULL_2"]); ("NULL_2", GNull)].
Proof. exact C61_added_proof. Qed.
Print Assumptions C61_additions_refuted.
