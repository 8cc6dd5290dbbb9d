(* The theorems about the Rust items that the compiler prints and the derive
   macro reads (C51 to C53).  What the items mean is specified in RustSpec. *)
From Coq Require Import ZArith NArith List Bool String Ascii Lia Permutation.
Require Import Verif.Base Verif.DeriveModel Verif.Asn1Model Verif.GenModel Verif.ResolveModel Verif.TokenModel Verif.ParserModel Verif.ModuleModel
  Verif.DefinitionModel Verif.CompilerSpec Verif.RustModel Verif.RustSpec Verif.AttributeProofs Verif.RustFacts.
Import ListNotations.
Open Scope string_scope.
Open Scope list_scope.

(* ===== C51  Printed attributes are read back as computed ===== *)
(* From texts to items: the codec that the macro derives for the printed items
   is the codec of the definitions that the compiler computed. *)
Theorem C51_printed_attributes_are_read_back : forall num E depth fuel files orders prog, compile_files num E depth fuel files orders = Ok prog ->
  (forall n d, In (n, d) prog -> countable d /\ ~ In "Option" (used_types d)) ->
  forall n T, rust_means (map item_of prog) n T <-> name_means prog n T.
Proof. exact C51_proof. Qed.
Print Assumptions C51_printed_attributes_are_read_back.
(* Missing: as in C47. *)
Theorem C51_items_mean_the_modules_partial : forall E depth fuel M n modules orders prog,
  (n <= depth)%nat -> well_named modules -> imports_defined modules ->
  (forall a m, In (a, m) modules -> module_means M modules n m) ->
  not_recursive M modules -> valid_orders modules orders ->
  compile E (instantiate E depth) fuel modules orders = Ok prog ->
  (forall n d, In (n, d) prog -> countable d /\ ~ In "Option" (used_types d)) ->
  forall a m k T, In (a, m) modules -> In k (def_names m) -> types M k = Some T ->
  rust_means (map item_of prog) (to_type_ident k) T.
Proof. exact C51_modules_proof. Qed.
Print Assumptions C51_items_mean_the_modules_partial.
Example C51_case : compiled C51_text [("M", ["Num"; "Item"])] = Ok C51_program /\
  (forall n d, In (n, d) C51_program -> countable d /\ ~ In "Option" (used_types d) /\ supported_item d) /\
  exists parsed, add_files is_digit [file C51_text] = Ok parsed /\ names_apart parsed.
Proof. exact C51_case_proof. Qed.
Example C51_item_case : item_of ("Num", GInteger 16 true (Some (-5)%Z) (Some 1000%Z) false) =
  Derived "Num" [written [("type", VText "INTEGER"); ("lb", VText "-5"); ("ub", VText "1000")]] (RStruct (Unnamed [RPath "i16" []])) /\
  derive [written [("type", VText "INTEGER"); ("lb", VText "-5"); ("ub", VText "1000")]] (RStruct (Unnamed [RPath "i16" []])) =
    Ok (IInteger (Some (-5)%Z) (Some 1000%Z) false (RPath "i16" [])).
Proof. exact C51_case_item. Qed.

(* ===== C52  Generated items are accepted by the macro and name only defined types ===== *)
(* Missing: string types that the macro does not know, a type called Option,
   and what rustc asks beyond this (see below). *)
Theorem C52_items_accepted_partial : forall num E depth fuel files orders prog, compile_files num E depth fuel files orders = Ok prog ->
  (forall n d, In (n, d) prog -> countable d /\ ~ In "Option" (used_types d)) ->
  forall n d, In (n, d) prog -> supported_item d ->
  exists attrs data c, item_of (n, d) = Derived n attrs data /\ derive attrs data = Ok c /\ fits data c.
Proof. exact C52_accepted_proof. Qed.
Print Assumptions C52_items_accepted_partial.
Theorem C52_types_defined_partial : forall num E depth fuel files parsed orders prog, compile_files num E depth fuel files orders = Ok prog ->
  add_files num files = Ok parsed -> names_apart parsed ->
  forall n d t, In (n, d) prog -> In t (used_types d) -> exists d', In (t, d') prog.
Proof. exact C52_closed_proof. Qed.
Print Assumptions C52_types_defined_partial.
(* The hypotheses are met by C51_case. *)
Example C52_case : compiled C51_text [("M", ["Num"; "Item"])] = Ok C51_program /\
  (forall n d, In (n, d) C51_program -> countable d /\ ~ In "Option" (used_types d) /\ supported_item d) /\
  exists parsed, add_files is_digit [file C51_text] = Ok parsed /\ names_apart parsed.
Proof. exact C51_case_proof. Qed.
(* A mandatory component of a type called Option is refused. *)
Theorem C52_option_refuted : exists prog fs, compiled "M DEFINITIONS AUTOMATIC TAGS ::= BEGIN Option ::= BOOLEAN S ::= SEQUENCE { x Option } END" [("M", ["Option"; "S"])] = Ok prog /\
  In ("S", GSequence false None fs) prog /\
  exists attrs data, item_of ("S", GSequence false None fs) = Derived "S" attrs data /\ derive attrs data = Err.
Proof. exact C52_option_proof. Qed.
Print Assumptions C52_option_refuted.
(* IA5String is compiled, and then refused by the macro. *)
Theorem C52_string_refuted : exists d, compiled "M DEFINITIONS AUTOMATIC TAGS ::= BEGIN S ::= IA5String (SIZE (1..5)) END" [("M", ["S"])] = Ok [("S", d)] /\
  exists attrs data, item_of ("S", d) = Derived "S" attrs data /\ derive attrs data = Err.
Proof. exact C52_string_proof. Qed.
Print Assumptions C52_string_refuted.
(* A component called match gives a field called match. *)
Theorem C52_keyword_refuted : exists prog f fs, compiled "M DEFINITIONS AUTOMATIC TAGS ::= BEGIN S ::= SEQUENCE { match BOOLEAN } END" [("M", ["S"])] = Ok prog /\
  In ("S", GSequence false None (f :: fs)) prog /\ rf_name (field_item f) = "match" /\ In "match" rust_keywords.
Proof. exact C52_keyword_proof. Qed.
Print Assumptions C52_keyword_refuted.
(* An object set of one module takes the place of the type of that name in
   another module, which is then missing. *)
Theorem C52_replaced_refuted : exists d, compiled "A DEFINITIONS AUTOMATIC TAGS ::= BEGIN T ::= BOOLEAN U ::= SEQUENCE { x T } END B DEFINITIONS ::= BEGIN CLS ::= CLASS { &id INTEGER UNIQUE } WITH SYNTAX {ID &id} one INTEGER ::= 1 T CLS ::= { {ID one} } END"
    [("A", ["T"; "U"]); ("B", ["CLS"; "one"; "T"])] = Ok [("U", d)] /\ In "T" (used_types d).
Proof. exact C52_replaced_proof. Qed.
Print Assumptions C52_replaced_refuted.

(* ===== C53  Hand-written attributes mean what they say ===== *)
(* Neither the order of the attributes nor their grouping matters. *)
Theorem C53_order_and_grouping_irrelevant : forall a a' d d', same_attrs a a' -> same_data d d' -> derive a d = derive a' d'.
Proof. exact same_derive. Qed.
Print Assumptions C53_order_and_grouping_irrelevant.
Example C53_case :
  same_attrs [written [("type", VText "INTEGER"); ("lb", VText "0"); ("ub", VText "9")]]
             [written [("ub", VText "9")]; written [("lb", VText "0"); ("type", VText "INTEGER")]] /\
  derive [written [("ub", VText "9")]; written [("lb", VText "0"); ("type", VText "INTEGER")]] (RStruct (Unnamed [RPath "u8" []])) =
    Ok (IInteger (Some 0%Z) (Some 9%Z) false (RPath "u8" [])).
Proof. exact C53_case_proof. Qed.
(* An attribute that there is not, or with the wrong kind of value, is refused. *)
Theorem C53_unknown_attribute_refused : forall a l k v d, says a l -> In (k, v) l -> ~ type_attribute k v -> derive a d = Err.
Proof. exact type_attribute_refused. Qed.
Print Assumptions C53_unknown_attribute_refused.
Theorem C53_sequence_fields_checked : forall a d ext n l, derive a d = Ok (ISequence ext n l) ->
  forall fs f al, d = RStruct (Named fs) -> In f fs -> says (rf_attrs f) al -> Forall (fun kv => field_attribute (fst kv) (snd kv)) al.
Proof. exact sequence_fields_checked. Qed.
Print Assumptions C53_sequence_fields_checked.
Theorem C53_choice_variants_checked : forall a d lb ub ext l, derive a d = Ok (IChoice lb ub ext l) ->
  forall vs v al, d = REnum vs -> In v vs -> says (rv_attrs v) al -> Forall (fun kv => field_attribute (fst kv) (snd kv)) al.
Proof. exact choice_variants_checked. Qed.
Print Assumptions C53_choice_variants_checked.
Theorem C53_open_variants_checked : forall a d l, derive a d = Ok (IOpen l) ->
  forall vs v al, d = REnum vs -> In v vs -> says (rv_attrs v) al -> Forall (fun kv => field_attribute (fst kv) (snd kv)) al.
Proof. exact open_variants_checked. Qed.
Print Assumptions C53_open_variants_checked.
(* Missing: bounds that are no numbers, and a CHOICE without bounds (below). *)
Theorem C53_no_panic_partial : forall a l d, says a l ->
  (forall k s, In k ["lb"; "ub"; "sz_lb"; "sz_ub"] -> In (k, VText s) l -> parse_i128 s <> None) ->
  (In ("type", VText "CHOICE") l -> (exists s, In ("lb", VText s) l) /\ (exists s, In ("ub", VText s) l)) ->
  derive a d <> Panic /\ derive a d <> Diverge.
Proof. exact derive_calm. Qed.
Print Assumptions C53_no_panic_partial.
Theorem C53_panic_refuted :
  derive [written [("type", VText "INTEGER"); ("lb", VText "zero")]] (RStruct (Unnamed [RPath "u8" []])) = Panic /\
  derive [written [("type", VText "CHOICE"); ("extensible", VFlag false)]] (REnum []) = Panic.
Proof. exact C53_panic_proof. Qed.
Print Assumptions C53_panic_refuted.
(* An attribute given twice is not refused: the last one counts. *)
Theorem C53_twice_refuted :
  derive [written [("type", VText "INTEGER"); ("lb", VText "0"); ("lb", VText "5")]] (RStruct (Unnamed [RPath "u8" []])) = Ok (IInteger (Some 5%Z) None false (RPath "u8" [])) /\
  derive [written [("type", VText "INTEGER"); ("lb", VText "5"); ("lb", VText "0")]] (RStruct (Unnamed [RPath "u8" []])) = Ok (IInteger (Some 0%Z) None false (RPath "u8" [])).
Proof. exact C53_twice_proof. Qed.
Print Assumptions C53_twice_refuted.
(* Attributes that do not belong to the type are ignored: here the bounds of an
   OCTET STRING, and the extensible size of an INTEGER. *)
Theorem C53_ignored_refuted :
  derive [written [("type", VText "OCTET-STRING"); ("lb", VText "1"); ("ub", VText "4")]] (RStruct (Unnamed [RPath "Vec" [RPath "u8" []]])) = Ok (IOctetString None None false) /\
  derive [written [("type", VText "INTEGER"); ("lb", VText "0"); ("sz_extensible", VFlag true)]] (RStruct (Unnamed [RPath "u8" []])) = Ok (IInteger (Some 0%Z) None false (RPath "u8" [])).
Proof. exact C53_ignored_proof. Qed.
Print Assumptions C53_ignored_refuted.
(* A documentation comment, which is an attribute called doc, is refused. *)
Theorem C53_comment_refuted : forall a d, derive (mkAttr "doc" None :: a) d = Err.
Proof. exact C53_comment_proof. Qed.
Print Assumptions C53_comment_refuted.
