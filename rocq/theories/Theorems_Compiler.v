(* Properties of the compiler (properties.jsonl C32-C38, C47-C49).
   Vocabulary: CompilerSpec.v.  `definition_of E defs inst t name st` is the
   definition written for the ASN.1 type t under that name; `run t` is the same
   for a type that refers to nothing. *)
From Coq Require Import ZArith NArith List Bool String Lia.
Require Import Verif.Base Verif.CodecModel Verif.Api Verif.DeriveModel Verif.DeriveSpec Verif.Asn1Model Verif.GenModel Verif.ResolveModel
  Verif.ModuleModel Verif.DefinitionModel Verif.CompilerSpec Verif.ConstraintProofs Verif.GenProofs Verif.NameProofs Verif.TopoProofs
  Verif.ResolveProofs Verif.ModuleProofs Verif.UniqueProofs Verif.OpenProofs Verif.CompilerFacts Verif.TokenModel Verif.ObjectFacts.
Import ListNotations.
Open Scope string_scope.
Open Scope list_scope.
Open Scope Z_scope.

(* ===== C32 bounds are the least and greatest permitted values ===== *)
(* Full claim: every constraint.  Missing: constraints that are not regular
   (MIN and MAX, intersections, several constraints in a row) and, for the
   upper bound, those mixing single values and ranges; see the refutations. *)
Theorem C32_integer_bounds_partial : forall E defs inst s l u name st,
  bounds_are (known defs) s l u -> - 2 ^ 127 < l -> u < 2 ^ 127 ->
  definition_of E defs inst (integer_type s) name st =
  Ok (GInteger (chosen_width l u) (l <? 0) (Some l) (Some u) (extensible_set s), st).
Proof. exact C32_integer_proof. Qed.
Print Assumptions C32_integer_bounds_partial.
Theorem C32_lower_bound_of_mixed_sets_partial : forall E defs inst s l name st d st',
  regular_set (known defs) s -> is_least (set_permits (known defs) s) l ->
  definition_of E defs inst (integer_type s) name st = Ok (d, st') ->
  exists w sg u, d = GInteger w sg (Some l) (Some u) (extensible_set s) /\ set_permits (known defs) s u.
Proof. exact C32_integer_mixed_proof. Qed.
Print Assumptions C32_lower_bound_of_mixed_sets_partial.
Theorem C32_string_sizes_partial : forall E defs inst s l u name st, bounds_are (known defs) s l u ->
  let size := Some (extensible_set s, Some l, Some u) in
  definition_of E defs inst (mkType (KBuiltin BBitString) (Some [size_constraint s])) name st = Ok (GBitString size, st) /\
  definition_of E defs inst (mkType (KBuiltin BOctetString) (Some [size_constraint s])) name st = Ok (GOctetString size, st) /\
  forall ty, definition_of E defs inst (mkType (KBuiltin (BCharacterString ty)) (Some [size_constraint s])) name st = Ok (GCharString ty size, st).
Proof. exact C32_sizes_proof. Qed.
Print Assumptions C32_string_sizes_partial.
Theorem C32_sequence_of_sizes_partial : forall E defs inst s l u t name st d st', bounds_are (known defs) s l u ->
  definition_of E defs inst (mkType (KSequenceOf (Some (size_constraint s)) t) None) name st = Ok (d, st') ->
  exists element, d = GSequenceOf (Some (extensible_set s, Some l, Some u)) element.
Proof. exact C32_sequence_of_proof. Qed.
Print Assumptions C32_sequence_of_sizes_partial.
Example C32_case : bounds_are (known [("n", DValue (VInteger 1000))]) (mkSet [[rng "-5" "n"]] None) (-5) 1000.
Proof. apply single_range; [reflexivity|reflexivity|lia|lia]. Qed.
(* INTEGER (0..10 | 20): 20 is permitted, the upper bound is 10 *)
Theorem C32_values_and_ranges_refuted :
  run (integer_type C32_mixed_set) = Ok (GInteger 8 false (Some 0) (Some 10) false) /\
  set_permits (known []) C32_mixed_set 20.
Proof. exact C32_mixed_refuted_proof. Qed.
Print Assumptions C32_values_and_ranges_refuted.
(* (0..10 ^ 5..20): the integer panics, the size has no bounds *)
Theorem C32_intersections_refuted :
  run (integer_type C32_meet_set) = Panic /\
  run (mkType (KBuiltin BOctetString) (Some [size_constraint C32_meet_set])) = Ok (GOctetString (Some (false, None, None))) /\
  is_least (set_permits (known []) C32_meet_set) 5 /\ is_greatest (set_permits (known []) C32_meet_set) 10.
Proof. exact C32_meet_refuted_proof. Qed.
Print Assumptions C32_intersections_refuted.
(* INTEGER (0..100) (0..10) *)
Theorem C32_serial_constraints_refuted :
  run C32_serial_type = Ok (GInteger 8 false (Some 0) (Some 100) false) /\
  is_greatest (type_permits (known []) C32_serial_type) 10.
Proof. exact C32_serial_refuted_proof. Qed.
Print Assumptions C32_serial_constraints_refuted.
Theorem C32_min_and_max_refuted :
  run (integer_type (mkSet [[rng "MIN" "10"]] None)) = Err /\ run (integer_type (mkSet [[rng "0" "MAX"]] None)) = Err.
Proof. exact C32_min_max_refuted_proof. Qed.
Print Assumptions C32_min_and_max_refuted.

(* ===== C33 the integer type chosen holds every permitted value ===== *)
Theorem C33_unsigned_type_holds_its_range_partial : forall E defs inst s l u name st,
  bounds_are (known defs) s l u -> 0 <= l -> u < 2 ^ 64 ->
  exists w, definition_of E defs inst (integer_type s) name st = Ok (GInteger w false (Some l) (Some u) (extensible_set s), st) /\
    holds_range (mkIty false w) l u.
Proof. exact C33_unsigned_proof. Qed.
Print Assumptions C33_unsigned_type_holds_its_range_partial.
(* With a negative bound the width is chosen without the sign bit: the range is
   held exactly when the bounds fit one bit less. *)
Theorem C33_signed_type_partial : forall E defs inst s l u name st,
  bounds_are (known defs) s l u -> - 2 ^ 127 < l < 0 -> u < 2 ^ 127 ->
  exists w, definition_of E defs inst (integer_type s) name st = Ok (GInteger w true (Some l) (Some u) (extensible_set s), st) /\
    In w [8; 16; 32; 64] /\ (holds_range (mkIty true w) l u <-> - 2 ^ (w - 1) <= l /\ u < 2 ^ (w - 1)) /\
    (w = 64 \/ Z.max (- l) u < 2 ^ w) /\ (w = 8 \/ 2 ^ (w / 2) <= Z.max (- l) u).
Proof. exact C33_signed_proof. Qed.
Print Assumptions C33_signed_type_partial.
Example C33_case : bounds_are (known []) (mkSet [[rng "0" "65536"]] None) 0 65536 /\
  bounds_are (known []) (mkSet [[rng "-100" "100"]] None) (-100) 100.
Proof. split; (apply single_range; [reflexivity|reflexivity|lia|lia]). Qed.
(* INTEGER (-200..200) becomes an i8, in which 200 is -56 *)
Theorem C33_sign_bit_refuted :
  run (integer_type (mkSet [[rng "-200" "200"]] None)) = Ok (GInteger 8 true (Some (-200)) (Some 200) false) /\
  cast (mkIty true 8) 200 = -56.
Proof. exact C33_signed_refuted_proof. Qed.
Print Assumptions C33_sign_bit_refuted.
Theorem C33_more_than_64_bits_refuted :
  run (integer_type (mkSet [[rng "0" "18446744073709551616"]] None)) = Ok (GInteger 64 false (Some 0) (Some (2 ^ 64)) false) /\
  cast (mkIty false 64) (2 ^ 64) = 0.
Proof. exact C33_wide_refuted_proof. Qed.
Print Assumptions C33_more_than_64_bits_refuted.

(* ===== C34 numbering of ENUMERATED items ===== *)
(* Missing: items with explicit numbers, more than 256 items. *)
Theorem C34_items_numbered_in_order_partial : forall E defs inst root marker ext cs name st,
  Forall (fun v => ev_value v = None) (root ++ ext) -> root <> [] -> zlen root <= 256 ->
  exists consts, definition_of E defs inst (mkType (KBuiltin (BEnumerated root marker ext)) cs) name st =
      Ok (GEnumerated (zlen root - 1) marker consts, st) /\
    map snd consts = counting (List.length root) /\ map fst consts = map (fun v => to_const_ident (ev_name v)) root.
Proof. exact C34_proof. Qed.
Print Assumptions C34_items_numbered_in_order_partial.
Example C34_case : let root := [mkEnumValue "red" None; mkEnumValue "blue" None] in
  Forall (fun v => ev_value v = None) (root ++ [mkEnumValue "late" None]) /\ root <> [] /\ zlen root <= 256.
Proof. cbn. split; [repeat constructor|split; [discriminate|vm_compute; discriminate]]. Qed.
(* ENUMERATED { a(0), b(1) } *)
Theorem C34_explicit_numbers_refuted :
  run (mkType (KBuiltin (BEnumerated [mkEnumValue "a" (Some (Number "0")); mkEnumValue "b" (Some (Number "1"))] false [])) None) = Panic.
Proof. exact C34_explicit_refuted_proof. Qed.
Print Assumptions C34_explicit_numbers_refuted.
Theorem C34_explicit_numbers_without_overflow_checks_refuted : forall name st,
  definition_of {| overflow_checks := false; little_endian := true |} [] no_instances
    (mkType (KBuiltin (BEnumerated [mkEnumValue "a" (Some (Number "0")); mkEnumValue "b" (Some (Number "1"))] false [])) None) name st =
  Ok (GEnumerated (2 ^ 64 - 1) false [], st).
Proof. exact C34_explicit_release_refuted_proof. Qed.
Print Assumptions C34_explicit_numbers_without_overflow_checks_refuted.
(* ENUMERATED { a(one), b(zero) } with one = 1, zero = 0: a should come second *)
Theorem C34_named_numbers_refuted : forall E name st,
  definition_of E [("one", DValue (VInteger 1)); ("zero", DValue (VInteger 0))] no_instances
    (mkType (KBuiltin (BEnumerated [mkEnumValue "a" (Some (ValueRef "one")); mkEnumValue "b" (Some (ValueRef "zero"))] false [])) None) name st =
  Ok (GEnumerated 1 false [("A", 0); ("B", 1)], st).
Proof. exact C34_named_refuted_proof. Qed.
Print Assumptions C34_named_numbers_refuted.
Theorem C34_257_items_refuted : exists consts,
  run (mkType (KBuiltin (BEnumerated (repeat (mkEnumValue "a" None) 257) false [])) None) = Ok (GEnumerated 256 false consts) /\
  nth_error (map snd consts) 0 = Some 0 /\ nth_error (map snd consts) 256 = Some 0.
Proof. exact C34_many_refuted_proof. Qed.
Print Assumptions C34_257_items_refuted.

(* ===== C35 CHOICE indices and presence bits ===== *)
(* Missing: a CHOICE without root alternatives, extension additions of a
   SEQUENCE. *)
Theorem C35_alternatives_numbered_in_order_partial : forall E defs inst root additions cs name st d st',
  root <> [] -> zlen root < 2 ^ 64 ->
  definition_of E defs inst (mkType (KChoice root additions) cs) name st = Ok (d, st') ->
  exists roots adds, d = GChoice 0 (zlen root - 1) (is_some additions) (roots ++ adds) /\
    map gv_key roots = counting (List.length root) /\
    map gv_name roots = map (fun c => to_type_ident (fst c)) root /\
    Forall (fun v => gv_extended v = false) roots /\
    map gv_key adds = counting (match additions with Some gs => List.length (List.concat gs) | None => 0 end) /\
    map gv_name adds = match additions with Some gs => map (fun c => to_type_ident (fst c)) (List.concat gs) | None => [] end /\
    Forall (fun v => gv_extended v = true) adds.
Proof. exact C35_choice_proof. Qed.
Print Assumptions C35_alternatives_numbered_in_order_partial.
Theorem C35_alternatives_told_apart_partial : forall E defs inst root additions cs name st d st',
  root <> [] -> zlen root < 2 ^ 64 ->
  definition_of E defs inst (mkType (KChoice root additions) cs) name st = Ok (d, st') ->
  exists ub ext vs, d = GChoice 0 ub ext vs /\ NoDup (map (fun v => (gv_extended v, gv_key v)) vs) /\
    forall v, In v vs -> gv_extended v = false -> 0 <= gv_key v <= ub.
Proof. exact C35_distinct_proof. Qed.
Print Assumptions C35_alternatives_told_apart_partial.
Theorem C35_presence_bits_in_order_partial : forall E defs inst root additions ext cs name st d st',
  (exists l, rmap (fun c => resolve_type E defs inst (comp_ty c)) root = Ok l) ->
  definition_of E defs inst (mkType (KSequence root additions ext) cs) name st = Ok (d, st') ->
  let n := List.length (filter comp_optional root) in
  exists fs, d = GSequence ext (match n with O => None | _ => Some (Z.of_nat n) end) fs /\
    map (fun f => is_some (gf_optional f)) fs = map comp_optional root /\
    somes (map gf_optional fs) = counting n /\
    map gf_name fs = map (fun c => to_value_ident (comp_id c)) root /\
    Forall (fun f => gf_key f = false) fs.
Proof. exact C35_sequence_proof. Qed.
Print Assumptions C35_presence_bits_in_order_partial.
Example C35_case :
  run C47_choice_booleans = Ok (GChoice 0 1 true [mkVariant "A" 0 false "BOOLEAN_2"; mkVariant "B" 1 false "BOOLEAN_3"; mkVariant "C" 0 true "NULL_4"]) /\
  run C35_three = Ok (GSequence false (Some 2) [mkField "a" (Some 0) false "BOOLEAN_2"; mkField "b" None false "BOOLEAN_3"; mkField "c" (Some 1) false "BOOLEAN_4"]).
Proof. split; vm_compute; reflexivity. Qed.
Theorem C35_empty_choice_refuted : run (mkType (KChoice [] None) None) = Panic /\
  forall name st, definition_of {| overflow_checks := false; little_endian := true |} [] no_instances (mkType (KChoice [] None) None) name st =
    Ok (GChoice 0 (2 ^ 64 - 1) false [], st).
Proof. exact C35_empty_refuted_proof. Qed.
Print Assumptions C35_empty_choice_refuted.
(* SEQUENCE { a BOOLEAN, ..., [[ b BOOLEAN OPTIONAL ]] }: b is left out *)
Theorem C35_sequence_additions_refuted :
  run (mkType (KSequence [mkSeqComp "a" (mkType (KBuiltin BBoolean) None) false None]
                [[mkSeqComp "b" (mkType (KBuiltin BBoolean) None) true None]] true) None) =
  Ok (GSequence true None [mkField "a" None false "BOOLEAN_2"]).
Proof. exact C35_additions_refuted_proof. Qed.
Print Assumptions C35_sequence_additions_refuted.

(* ===== C36 generated names do not collide ===== *)
Theorem C36_made_up_names_distinct : forall l st us st', unique_names l st = Ok (us, st') -> NoDup (map to_type_ident us).
Proof. exact unique_names_nodup. Qed.
Print Assumptions C36_made_up_names_distinct.
Theorem C36_made_up_names_exist : forall l st, exists us st', unique_names l st = Ok (us, st') /\ List.length us = List.length l.
Proof. exact unique_names_total. Qed.
Print Assumptions C36_made_up_names_exist.
Theorem C36_definition_names_kept_apart : forall s t, type_reference s -> type_reference t -> to_type_ident s = to_type_ident t -> s = t.
Proof. exact type_names_distinct. Qed.
Print Assumptions C36_definition_names_kept_apart.
Theorem C36_identifiers_kept_apart : forall s t, identifier s -> identifier t -> to_type_ident s = to_type_ident t -> s = t.
Proof. exact identifier_names_distinct. Qed.
Print Assumptions C36_identifiers_kept_apart.
Theorem C36_alternatives_kept_apart_partial : forall E defs inst root additions cs name st d st',
  root <> [] -> zlen root < 2 ^ 64 ->
  definition_of E defs inst (mkType (KChoice root additions) cs) name st = Ok (d, st') ->
  let ids := map fst (root ++ match additions with Some gs => List.concat gs | None => [] end) in
  NoDup ids -> Forall identifier ids ->
  exists ub ext vs, d = GChoice 0 ub ext vs /\ NoDup (map gv_name vs).
Proof. exact C36_alternatives_proof. Qed.
Print Assumptions C36_alternatives_kept_apart_partial.
(* Full claim: every program.  Missing: open types, and schemas whose written
   names (of definitions and of the constructed types nested in them) collide
   or look like made-up ones; see the refutations. *)
Theorem C36_definitions_kept_apart_partial : forall E defs prog,
  generate E defs = Ok prog -> Forall (fun kt => no_open_types (snd kt)) defs ->
  NoDup (map to_type_ident (written_names defs)) -> Forall (fun n => ~ numbered n) (written_names defs) ->
  NoDup (map fst prog).
Proof. exact generated_names_distinct. Qed.
Print Assumptions C36_definitions_kept_apart_partial.
Example C36_case : Forall (fun kt => no_open_types (snd kt)) C36_defs /\
  NoDup (map to_type_ident (written_names C36_defs)) /\ Forall (fun n => ~ numbered n) (written_names C36_defs) /\
  exists prog, generate {| overflow_checks := true; little_endian := true |} C36_defs = Ok prog /\
    map fst prog = ["Foo"; "Number"; "BOOLEAN_2"; "FooBar"; "NULL_3"].
Proof. exact C36_case_proof. Qed.
(* the definition INTEGER-2 and the made-up name INTEGER_2 *)
Theorem C36_made_up_name_refuted : exists prog,
  generate {| overflow_checks := true; little_endian := true |}
    [("INTEGER-2", RBoolean); ("S", RSequence false [mkRComp "a" (RInteger default_integer) false false])] = Ok prog /\
  type_reference "INTEGER-2" /\ In ("INTEGER_2", GBoolean) prog /\ In ("INTEGER_2", GInteger 64 true None None false) prog.
Proof. exact C36_made_up_refuted_proof. Qed.
Print Assumptions C36_made_up_name_refuted.
(* Foo ::= SEQUENCE { bar SEQUENCE {} }   FooBar ::= BOOLEAN *)
Theorem C36_nested_type_refuted : exists prog,
  generate {| overflow_checks := true; little_endian := true |}
    [("Foo", RSequence false [mkRComp "bar" (RSequence false []) false false]); ("FooBar", RBoolean)] = Ok prog /\
  In ("FooBar", GBoolean) prog /\ In ("FooBar", GSequence false None []) prog.
Proof. exact C36_nested_refuted_proof. Qed.
Print Assumptions C36_nested_type_refuted.
Theorem C36_field_names_refuted :
  run (mkType (KSequence [mkSeqComp "fooBar" (mkType (KBuiltin BBoolean) None) false None;
                          mkSeqComp "foo-bar" (mkType (KBuiltin BBoolean) None) false None] [] false) None) =
  Ok (GSequence false None [mkField "foo_bar" None false "BOOLEAN_2"; mkField "foo_bar" None false "BOOLEAN_3"]) /\
  to_value_ident "type" = to_value_ident "typ".
Proof. exact C36_fields_refuted_proof. Qed.
Print Assumptions C36_field_names_refuted.
Theorem C36_constant_names_refuted :
  run (mkType (KBuiltin (BEnumerated [mkEnumValue "fooBar" None; mkEnumValue "foo-bar" None] false [])) None) =
  Ok (GEnumerated 1 false [("FOO_BAR", 0); ("FOO_BAR", 1)]).
Proof. exact C36_constants_refuted_proof. Qed.
Print Assumptions C36_constant_names_refuted.

(* ===== C37 the order of resolution ===== *)
(* Definitions are resolved once, after what they need, and those that do not
   lead to a cycle are all resolved. *)
Theorem C37_definitions_in_order : forall m order, sorted_definitions m order ->
  NoDup order /\
  (forall k, In k (def_names m) -> (In k order <-> grounded (definition_needs m) k)) /\
  (forall k d r, In (k, d) (m_defs m) -> In r (assignment_refs (d_kind d)) -> ~ In r (import_names m) -> before r k order).
Proof. exact C37_definitions_proof. Qed.
Print Assumptions C37_definitions_in_order.
Theorem C37_modules_in_order : forall modules order, sorted_modules modules order ->
  NoDup order /\
  (forall n, In n (map fst modules) -> (In n order <-> grounded (module_needs modules) n)) /\
  (forall n m r n', In (n, m) modules -> In (r, n') (m_imports m) -> before n' n order).
Proof. exact C37_modules_proof. Qed.
Print Assumptions C37_modules_in_order.
Theorem C37_order_exists : forall modules, exists orders, valid_orders modules orders.
Proof. exact C37_exists_proof. Qed.
Print Assumptions C37_order_exists.
Example C37_case : valid_orders C47_modules C47_orders.
Proof. exact (proj1 (proj2 (proj2 (proj2 (proj2 C47_case_proof))))). Qed.
(* List ::= SEQUENCE { next List OPTIONAL } is dropped without an error *)
Theorem C37_recursive_definition_refuted : forall E inst fuel orders, valid_orders [("M", list_module)] orders ->
  compile E inst fuel [("M", list_module)] orders = Ok [].
Proof. exact C37_recursive_refuted_proof. Qed.
Print Assumptions C37_recursive_definition_refuted.
Theorem C37_cyclic_imports_refuted : forall E inst fuel,
  let a := mkModule [("B", "N")] [("A", mkDef (DKType (mkType (KBuiltin BBoolean) None)) None)] in
  let b := mkModule [("A", "M")] [("B", mkDef (DKType (mkType (KBuiltin BBoolean) None)) None)] in
  forall orders, valid_orders [("M", a); ("N", b)] orders ->
  compile E inst fuel [("M", a); ("N", b)] orders = Ok [].
Proof. exact C37_cyclic_imports_refuted_proof. Qed.
Print Assumptions C37_cyclic_imports_refuted.
(* n INTEGER ::= 5   L ::= SEQUENCE (SIZE (1..n)) OF BOOLEAN: nothing orders L
   after n, and whether it compiles depends on the order *)
Theorem C37_size_of_sequence_of_refuted : forall E inst fuel,
  valid_orders [("M", size_module)] [("M", ["n"; "L"])] /\
  valid_orders [("M", size_module)] [("M", ["L"; "n"])] /\
  compile E inst fuel [("M", size_module)] [("M", ["L"; "n"])] = Err /\
  exists prog, compile {| overflow_checks := true; little_endian := true |} inst fuel [("M", size_module)] [("M", ["n"; "L"])] = Ok prog.
Proof. exact C37_size_refuted_proof. Qed.
Print Assumptions C37_size_of_sequence_of_refuted.

(* ===== C38 imports ===== *)
(* Full claim: the module and the name exist.  Missing: the name. *)
Theorem C38_imported_modules_exist_partial : forall E inst fuel modules orders st,
  resolve_modules E inst fuel modules orders = Ok st ->
  forall n m r n', In (n, m) modules -> In (r, n') (m_imports m) -> exists m', In (n', m') modules.
Proof. exact C38_modules_proof. Qed.
Print Assumptions C38_imported_modules_exist_partial.
Theorem C38_missing_module_is_an_error : forall E inst fuel modules orders n m r n',
  In (n, m) modules -> In (r, n') (m_imports m) -> ~ In n' (map fst modules) ->
  compile E inst fuel modules orders = Err.
Proof. exact C38_missing_module_proof. Qed.
Print Assumptions C38_missing_module_is_an_error.
Example C38_case : exists m, In ("N", m) C47_modules /\ In ("Num", "M") (m_imports m).
Proof. eexists. split; [right; left; reflexivity|left; reflexivity]. Qed.
(* M imports Nothing from N, which does not define it *)
Theorem C38_missing_name_refuted : forall E inst fuel,
  valid_orders C38_missing_name [("N", []); ("M", ["A"])] /\
  compile E inst fuel C38_missing_name [("N", []); ("M", ["A"])] = Ok [("A", GBoolean)].
Proof. exact C38_names_refuted_proof. Qed.
Print Assumptions C38_missing_name_refuted.

(* ===== C47 the program means what the schema means ===== *)
(* Full claim: every schema.  Missing: types outside asn_means (the constraints
   C32 leaves out, objects with inline types or literal ids, see C49), recursive
   definitions (C37), names imported from where they are not defined (C38),
   parameterized types that do not satisfy C42. *)
Theorem C47_compiled_definitions_are_right_partial : forall E depth fuel M modules n orders,
  (n <= depth)%nat -> well_named modules -> imports_defined modules ->
  (forall a m, In (a, m) modules -> module_means M modules n m) ->
  not_recursive M modules -> valid_orders modules orders ->
  forall prog, compile E (instantiate E depth) fuel modules orders = Ok prog ->
  forall a m k T, In (a, m) modules -> In k (def_names m) -> types M k = Some T ->
  name_means prog (to_type_ident k) T.
Proof. exact compile_correct. Qed.
Print Assumptions C47_compiled_definitions_are_right_partial.
(* Classes and parameterized definitions need no meaning. *)
Theorem C47_compiler_succeeds_partial : forall E depth fuel M modules n orders,
  (n <= depth)%nat -> well_named modules -> imports_defined modules ->
  (forall a m, In (a, m) modules -> module_means M modules n m) ->
  not_recursive M modules -> valid_orders modules orders ->
  (List.length (flat_map (fun nm => def_names (snd nm)) modules) < fuel)%nat ->
  (forall a m k d, In (a, m) modules -> In (k, d) (m_defs m) ->
     has_meaning M k \/ d_params d <> None \/ exists f, d_kind d = DKClass f) ->
  exists prog, compile E (instantiate E depth) fuel modules orders = Ok prog.
Proof. exact compile_total. Qed.
Print Assumptions C47_compiler_succeeds_partial.
Theorem C47_generator_right : forall E defs prog k t T,
  generate E defs = Ok prog -> (forall k t, In (k, t) defs -> not_set t) ->
  In (k, t) defs -> type_means E defs t T -> name_means prog (to_type_ident k) T.
Proof. exact generate_correct. Qed.
Print Assumptions C47_generator_right.
Theorem C47_generator_succeeds : forall E defs,
  (forall k t, In (k, t) defs -> exists T, type_means E defs t T) -> exists prog, generate E defs = Ok prog.
Proof. exact generate_total. Qed.
Print Assumptions C47_generator_succeeds.
Theorem C47_meaning_unique : forall prog n T T',
  NoDup (map fst prog) -> name_means prog n T -> name_means prog n T' -> T = T'.
Proof. exact means_unique. Qed.
Print Assumptions C47_meaning_unique.
Example C47_case : well_named C47_modules /\ imports_defined C47_modules /\
  (forall a m, In (a, m) C47_modules -> module_means C47_meaning C47_modules 0 m) /\
  not_recursive C47_meaning C47_modules /\ valid_orders C47_modules C47_orders /\
  (forall a m k d, In (a, m) C47_modules -> In (k, d) (m_defs m) -> has_meaning C47_meaning k \/ d_params d <> None \/ exists f, d_kind d = DKClass f).
Proof. exact C47_case_proof. Qed.
Example C47_case_program : compile {| overflow_checks := true; little_endian := true |} (instantiate {| overflow_checks := true; little_endian := true |} 0) 4 C47_modules C47_orders =
  Ok [("Num", GInteger 16 false (Some 0) (Some 1000) false);
      ("Pair", GSequence false (Some 1) [mkField "first" None false "Num"; mkField "second" (Some 0) false "PairSecond"]);
      ("BOOLEAN_2", GBoolean);
      ("PairSecond", GChoice 0 1 false [mkVariant "A" 0 false "BOOLEAN_2"; mkVariant "B" 1 false "Num"])].
Proof. exact C47_case_program_proof. Qed.

(* Constants, a class, an object set and parameterized types: the texts are
   read as these modules, which mean what is said of them, and are compiled. *)
Example C47_objects_read :
  (parsed <-- add_files is_digit (map chars_of_text message_texts) ;; link is_digit parsed [] (map fst message_orders)) = Ok message_modules.
Proof. exact message_read. Qed.
Example C47_objects_case : well_named message_modules /\ imports_defined message_modules /\
  (forall a m, In (a, m) message_modules -> module_means message_meaning message_modules 2 m) /\
  not_recursive message_meaning message_modules /\ valid_orders message_modules message_orders /\
  (forall a m k d, In (a, m) message_modules -> In (k, d) (m_defs m) -> has_meaning message_meaning k \/ d_params d <> None \/ exists f, d_kind d = DKClass f).
Proof. exact C47_objects_proof. Qed.
Example C47_objects_program : compile checked_env (instantiate checked_env 2) 11 message_modules message_orders = Ok message_program /\
  name_means message_program "Message" message_ty.
Proof. exact C47_objects_program_proof. Qed.
(* An extensible set without objects, an OCTET STRING (CONTAINING Written), and
   an object whose type is written out *)
Example C47_extension_read :
  (parsed <-- add_files is_digit (map chars_of_text extension_texts) ;; link is_digit parsed [] (map fst extension_orders)) = Ok extension_modules.
Proof. exact extension_read. Qed.
Example C47_extension_case : well_named extension_modules /\ imports_defined extension_modules /\
  (forall a m, In (a, m) extension_modules -> module_means extension_meaning extension_modules 2 m) /\
  not_recursive extension_meaning extension_modules /\ valid_orders extension_modules extension_orders /\
  (forall a m k d, In (a, m) extension_modules -> In (k, d) (m_defs m) -> has_meaning extension_meaning k \/ d_params d <> None \/ exists f, d_kind d = DKClass f).
Proof. exact C47_extension_proof. Qed.
Example C47_extension_program : compile checked_env (instantiate checked_env 2) 11 extension_modules extension_orders = Ok extension_program /\
  name_means extension_program "Outer" (outer_of no_entry_ty).
Proof. exact C47_extension_program_proof. Qed.

(* ===== C48 values of compiled types survive encoding ===== *)
(* T is the type of the source, T' the one of the generated program. *)
Theorem C48_values_of_compiled_types_survive_partial : forall E depth fuel M n modules orders prog,
  (n <= depth)%nat -> well_named modules -> imports_defined modules ->
  (forall a m, In (a, m) modules -> module_means M modules n m) ->
  not_recursive M modules -> valid_orders modules orders ->
  compile E (instantiate E depth) fuel modules orders = Ok prog -> NoDup (map fst prog) ->
  forall a m k T T' v k' s, In (a, m) modules -> In k (def_names m) -> types M k = Some T ->
  name_means prog (to_type_ident k) T' ->
  carries E None T v k' -> flow_of T v false = Some s ->
  exists d, enc E T' v new_data = (Ok tt, d) /\
    (zlen (bits d) < 2 ^ 60 -> fst (dec E T' (from_slice (into_bytes d))) = Ok v).
Proof. exact C48_proof. Qed.
Print Assumptions C48_values_of_compiled_types_survive_partial.
Example C48_case : forall E, carries E None C47_pair_ty (VSeq [Some (VI 700); Some (VAlt 1 (VI 5))]) None /\
  exists s, flow_of C47_pair_ty (VSeq [Some (VI 700); Some (VAlt 1 (VI 5))]) false = Some s.
Proof. exact C48_case_proof. Qed.
Example C48_objects_case : carries checked_env None message_ty message_value (Some 2%Z) /\ flow_of message_ty message_value false = Some true.
Proof. exact message_carried. Qed.

(* ===== C49 open types list the objects of the set ===== *)
Theorem C49_sets_have_their_objects : forall E defs inst fuel unique elems s, sets_known defs unique elems ->
  resolve_object_set E defs inst fuel unique elems = Ok s ->
  table_of defs unique s /\ forall o, In o (os_elements s) <-> exists e, In e elems /\ element_of E defs inst fuel e o.
Proof. exact object_set_table. Qed.
Print Assumptions C49_sets_have_their_objects.
(* Full claim: one alternative for every object.  Missing: objects whose id is
   not a named value, or whose type is not a named type. *)
Theorem C49_open_type_has_every_object_partial : forall defs unique f s,
  table_of defs unique s -> distinct_ids defs unique (os_elements s) ->
  forall nm z t, In (nm, z, t) (open_types f s) <->
    exists o r, In o (os_elements s) /\ object_id defs unique o nm z /\ object_type f o r /\ t = RReference r.
Proof. exact open_types_objects. Qed.
Print Assumptions C49_open_type_has_every_object_partial.
Theorem C49_alternatives_of_open_type_partial : forall E defs unique f s types setref al,
  table_of defs unique s -> distinct_ids defs unique (os_elements s) ->
  type_means E types (RSet setref (open_types f s)) (TOpen al) ->
  (forall key x T, In (key, x, T) (alternatives al) ->
     x = false /\ exists o nm r, In o (os_elements s) /\ object_id defs unique o nm key /\ object_type f o r /\ type_means E types (RReference r) T) /\
  (forall o nm r key, In o (os_elements s) -> object_id defs unique o nm key -> object_type f o r ->
     exists T, In (key, false, T) (alternatives al) /\ type_means E types (RReference r) T).
Proof. exact open_alternatives. Qed.
Print Assumptions C49_alternatives_of_open_type_partial.
Theorem C49_components_of_class_sequence_partial : forall E defs inst root ext id0 c cs first rest s r d cs0 comps,
  resolve_type E defs inst (mkType (KSequence root [] ext) cs0) = Ok d ->
  comps = map (fun c => (comp_id c, comp_ty c)) root ->
  hd_error comps = Some (id0, mkType c (Some cs)) ->
  Forall (fun c => exists cl f cs, snd c = mkType (KReference (RefClassField cl f)) cs) comps ->
  (exists c1 cs', cs = c1 :: cs' /\ set_reference c1 = Ok r) -> lookup r defs = Some (DObjectSet s) ->
  os_elements s = first :: rest ->
  exists l, d = RSequence ext l /\ Forall2 (class_component r s first) comps l.
Proof. exact class_sequence_spec. Qed.
Print Assumptions C49_components_of_class_sequence_partial.
Example C49_case : forall E fuel,
  sets_known C49_defs (Some "&id") C49_elems /\
  resolve_object_set E C49_defs no_instances fuel (Some "&id") C49_elems = Ok C49_set /\
  distinct_ids C49_defs (Some "&id") (os_elements C49_set) /\
  open_types "&Type" C49_set = [("id-one", 1, RReference "One"); ("id-two", 2, RReference "Two")] /\
  resolve_type E (("Set", DObjectSet C49_set) :: C49_defs) no_instances C49_message =
    Ok (RSequence false [mkRComp "id" (RInteger default_integer) false true;
                         mkRComp "value" (RSet "Set" [("id-one", 1, RReference "One"); ("id-two", 2, RReference "Two")]) false false]) /\
  type_means E [("One", RBoolean); ("Two", RNull)] (RSet "Set" (open_types "&Type" C49_set))
    (TOpen (ACons 1 false TBool (ACons 2 false TNull ANil))).
Proof. exact C49_case_proof. Qed.
(* { &id 1, &Type One } *)
Theorem C49_literal_id_refuted : forall E fuel, exists s,
  resolve_object_set E C49_defs no_instances fuel (Some "&id") [OObject (C49_object "1" "One")] = Ok s /\
  open_types "&Type" s = [].
Proof. exact C49_literal_refuted_proof. Qed.
Print Assumptions C49_literal_id_refuted.
(* { &id id-one, &Type BOOLEAN } *)
Theorem C49_inline_type_refuted : forall E fuel, exists s,
  resolve_object_set E C49_defs no_instances fuel (Some "&id")
    [OObject (Some [("&id", OFValue (mkType (KBuiltin BInteger) None) (Some "id-one"));
                    ("&Type", OFType (Some (mkType (KBuiltin BBoolean) None)))])] = Ok s /\
  open_types "&Type" s = [].
Proof. exact C49_inline_refuted_proof. Qed.
Print Assumptions C49_inline_type_refuted.
(* SEQUENCE { id CLASS.&id ({Set}) OPTIONAL, flag BOOLEAN }: the flag is left
   out and the id made mandatory *)
Theorem C49_other_components_refuted : forall E,
  resolve_type E (("Set", DObjectSet C49_set) :: C49_defs) no_instances
    (mkType (KSequence
      [mkSeqComp "id" (mkType (KReference (RefClassField "CLASS" "&id")) (Some [CTable (TableSimple "{Set}")])) true None;
       mkSeqComp "flag" (mkType (KBuiltin BBoolean) None) false None] [] false) None) =
  Ok (RSequence false [mkRComp "id" (RInteger default_integer) false true]).
Proof. exact C49_components_refuted_proof. Qed.
Print Assumptions C49_other_components_refuted.
(* The set of C47_extension_case is empty: SEQUENCE { id IES.&id ({NoIEs}),
   value IES.&Value ({NoIEs}{@id}) } has become a type without components
   (no_entry_ty).  Once the set has an object, the peer sends an id and a value
   there, and the old receiver skips neither: the octets and the number that
   follow, AA and 5, are read as none and 0. *)
Theorem C49_empty_set_loses_components_refuted :
  name_means extension_program "Entry" no_entry_ty /\
  forall E, exists d,
  enc E (outer_of later_entry_ty) later_value new_data = (Ok tt, d) /\
  fst (dec E (outer_of later_entry_ty) (from_slice (into_bytes d))) = Ok later_value /\
  fst (dec E (outer_of no_entry_ty) (from_slice (into_bytes d))) = Ok (VSeq [Some (VList [VSeq []]); Some (VOctStr []); Some (VI 0)]).
Proof. exact C49_empty_set_refuted_proof. Qed.
Print Assumptions C49_empty_set_loses_components_refuted.
