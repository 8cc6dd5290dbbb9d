(* The theorems about the order in which the compiler resolves the modules and
   definitions of a schema, which is the iteration order of hash maps within
   what the topological sort leaves open (C57).  The orders that the sort may
   yield are CompilerSpec.valid_orders; what is asked of the schema is in
   OrderSpec. *)
From Coq Require Import ZArith NArith List Bool String Ascii Lia Permutation.
Require Import Verif.Base Verif.Asn1Model Verif.GenModel Verif.ResolveModel Verif.TokenModel Verif.ParserModel Verif.ModuleModel
  Verif.DefinitionModel Verif.ParserSpec Verif.DefinitionSpec Verif.CompilerSpec Verif.ParamSpec Verif.RustModel Verif.RustSpec Verif.ParserFacts Verif.ObjectFacts Verif.LinkSpec Verif.LinkFacts
  Verif.OrderSpec Verif.OrderProofs Verif.OrderFacts.
Import ListNotations.
Open Scope string_scope.
Open Scope list_scope.

(* ===== C57  The program does not depend on the order of resolution ===== *)
(* Full claim: for every schema, all runs of the compiler yield the same.
   Missing, each with a witness below: schemas in which the value of an
   ENUMERATED type is also the name of a definition, SEQUENCE types that begin
   with a component that is no field of a class but constrained by an object
   set, names defined in two modules, and that all runs succeed if one does
   (which holds of the schemas of C57_one_program_partial). *)
Theorem C57_same_program_partial : forall E depth fuel modules modules' o o' p p',
  well_named modules -> items_apart modules -> settled depth modules ->
  Permutation modules modules' -> valid_orders modules o -> valid_orders modules' o' ->
  compile E (instantiate E depth) fuel modules o = Ok p -> compile E (instantiate E depth) fuel modules' o' = Ok p' ->
  p = p'.
Proof. exact compile_deterministic. Qed.
Print Assumptions C57_same_program_partial.
Example C57_case : linked [C57_text] ["Types"; "Clock"; "Messages"] = Ok C57_modules /\
  well_named C57_modules /\ items_apart C57_modules /\ settled 2 C57_modules /\
  C57_orders <> C57_orders' /\ valid_orders C57_modules C57_orders /\ valid_orders C57_modules C57_orders' /\
  exists p, C57_compiled C57_modules C57_orders = Ok p /\ C57_compiled (rev C57_modules) C57_orders' = Ok p /\ (List.length p >= 10)%nat.
Proof. exact C57_case_proof. Qed.
(* The same from the texts of the files. *)
Theorem C57_same_program_from_files_partial : forall num E depth fuel files modules o o' p p',
  numeric_characters num -> schema_denotes (fun z => num z = true) files modules ->
  well_named modules -> imports_defined modules -> items_apart modules -> settled depth modules ->
  valid_orders modules o -> Permutation (map fst modules) (map fst o) ->
  valid_orders modules o' -> Permutation (map fst modules) (map fst o') ->
  compile_files num E depth fuel files o = Ok p -> compile_files num E depth fuel files o' = Ok p' ->
  p = p'.
Proof. exact C57_files_proof. Qed.
Print Assumptions C57_same_program_from_files_partial.
(* Of schemas that mean something, there is one program that all runs yield. *)
Theorem C57_one_program_partial : forall num E depth fuel files M n modules,
  numeric_characters num -> schema_denotes (fun z => num z = true) files modules ->
  (n <= depth)%nat -> well_named modules -> imports_defined modules ->
  (forall a m, In (a, m) modules -> module_means M modules n m) -> not_recursive M modules ->
  (List.length (flat_map (fun nm => def_names (snd nm)) modules) < fuel)%nat ->
  (forall a m k d, In (a, m) modules -> In (k, d) (m_defs m) ->
     has_meaning M k \/ d_params d <> None \/ exists f, d_kind d = DKClass f) ->
  items_apart modules -> settled depth modules ->
  exists p, forall o, valid_orders modules o -> Permutation (map fst modules) (map fst o) ->
    compile_files num E depth fuel files o = Ok p.
Proof. exact C57_total_proof. Qed.
Print Assumptions C57_one_program_partial.
(* The other hypotheses hold of these modules by C55_case. *)
Example C57_case_files : items_apart message_modules /\ settled 2 message_modules /\ message_orders <> message_orders' /\
  valid_orders message_modules message_orders /\ valid_orders message_modules message_orders' /\
  Permutation (map fst message_modules) (map fst message_orders) /\ Permutation (map fst message_modules) (map fst message_orders').
Proof. exact C57_message_proof. Qed.
Theorem C57_enumerated_item_refuted : exists modules o o' p p', linked [red_text] ["Colours"; "Numbers"] = Ok modules /\
  well_named modules /\ settled 2 modules /\
  valid_orders modules o /\ valid_orders modules o' /\ C57_compiled modules o = Ok p /\ C57_compiled modules o' = Ok p' /\
  lookup "MessageValue" p = Some (GOpen true []) /\ lookup "MessageValue" p' = Some (GOpen true [mkVariant "Red" 5 false "Flag"]).
Proof. exact C57_item_refuted_proof. Qed.
Print Assumptions C57_enumerated_item_refuted.
Theorem C57_dropped_component_refuted : exists modules o o' p p', linked [drop_text] ["Frames"; "Numbers"] = Ok modules /\
  well_named modules /\ items_apart modules /\
  valid_orders modules o /\ valid_orders modules o' /\ C57_compiled modules o = Ok p /\ C57_compiled modules o' = Ok p' /\
  lookup "Message" p = Some (GSequence false None []) /\
  lookup "Message" p' = Some (GSequence false None [mkField "id" None false "Number"]).
Proof. exact C57_dropped_refuted_proof. Qed.
Print Assumptions C57_dropped_component_refuted.
Theorem C57_defined_twice_refuted : exists modules o o' p p', linked [twice_text] ["First"; "Second"] = Ok modules /\
  items_apart modules /\ settled 2 modules /\
  valid_orders modules o /\ valid_orders modules o' /\ C57_compiled modules o = Ok p /\ C57_compiled modules o' = Ok p' /\
  p = [("Number", GBoolean)] /\ p' = [("Number", GInteger 8 false (Some 0%Z) (Some 255%Z) false)].
Proof. exact C57_twice_refuted_proof. Qed.
Print Assumptions C57_defined_twice_refuted.
Theorem C57_success_refuted : exists modules o o', linked [named_text] ["Values"] = Ok modules /\
  well_named modules /\ items_apart modules /\ settled 2 modules /\
  valid_orders modules o /\ valid_orders modules o' /\ C57_compiled modules o = Ok [("Flag", GBoolean)] /\ C57_compiled modules o' = Panic.
Proof. exact C57_success_refuted_proof. Qed.
Print Assumptions C57_success_refuted.
