(* The notation of ASN.1 as far as the compiler supports it, and the tree that
   a text in it denotes, after X.680, X.681 and X.683: relations between the
   tokens of a phrase and what it stands for.  Nothing of the parser is used
   here. *)
From Coq Require Import ZArith List Bool String Ascii.
Require Import Verif.Base Verif.Asn1Model Verif.TokenModel Verif.ParserModel.
Import ListNotations.
Open Scope string_scope.
Open Scope list_scope.

(* ------------------------------------------------------------------ *)
(* Lexical items                                                       *)
(* ------------------------------------------------------------------ *)
Definition K (s : string) : tok := mkTok Keyword s.
Definition I (s : string) : tok := mkTok Identifier s.
Definition N (s : string) : tok := mkTok NumberInt s.
Definition L_BRACE := mkTok CurlyBegin "{".
Definition R_BRACE := mkTok CurlyEnd "}".
Definition L_PAREN := mkTok RoundBegin "(".
Definition R_PAREN := mkTok RoundEnd ")".
Definition L_GROUP := mkTok AdditionGroupsBegin "[[".
Definition R_GROUP := mkTok AdditionGroupsEnd "]]".
Definition L_SQUARE := mkTok SquareBegin "[".
Definition R_SQUARE := mkTok SquareEnd "]".
Definition COMMA := mkTok Comma ",".
Definition DOTS := mkTok Extension "...".
Definition DOTDOT := mkTok RangeSeparator "..".
Definition LESS := mkTok LessThan "<".
Definition DOT := mkTok Dot ".".
Definition COLON := mkTok Colon ":".
Definition SEMICOLON := mkTok SemiColon ";".
Definition ASSIGN := mkTok Assignment "::=".
Definition BAR := mkTok SetUnionToken "|".
Definition CARET := mkTok SetIntersectionToken "^".

Definition first_letter (p : Z -> Prop) (s : string) : Prop :=
  match s with String c _ => p (Z.of_N (N_of_ascii c)) | EmptyString => False end.
Definition small (z : Z) : Prop := (97 <= z <= 122)%Z.
Definition capital (z : Z) : Prop := (65 <= z <= 90)%Z.
(* the words of the language are not names *)
Definition reserved (s : string) : Prop := In s KEYWORDS.
Definition value_name (s : string) : Prop := first_letter small s.
Definition type_name (s : string) : Prop := first_letter capital s /\ ~ reserved s.
Fixpoint characters (p : Z -> Prop) (s : string) : Prop :=
  match s with EmptyString => True | String c r => p (Z.of_N (N_of_ascii c)) /\ characters p r end.
(* in capitals *)
Definition class_name (s : string) : Prop :=
  type_name s /\ characters (fun z => capital z \/ (48 <= z <= 57)%Z \/ z = 45%Z) s.
Definition field_name (s : string) : Prop :=
  match s with String _ r => first_letter (fun z => small z \/ capital z) r | EmptyString => False end.

(* ------------------------------------------------------------------ *)
(* Lists                                                               *)
(* ------------------------------------------------------------------ *)
Inductive separated {A} (sep : tok -> Prop) (P : list tok -> A -> Prop) : list tok -> list A -> Prop :=
| sep_one w a : P w a -> separated sep P w [a]
| sep_more w a t v l : P w a -> sep t -> separated sep P v l -> separated sep P (w ++ t :: v) (a :: l).
Inductive repeated {A} (P : list tok -> A -> Prop) : list tok -> list A -> Prop :=
| rep_nil : repeated P [] []
| rep_cons w a v l : P w a -> repeated P v l -> repeated P (w ++ v) (a :: l).
Definition comma (t : tok) : Prop := t = COMMA.

(* ------------------------------------------------------------------ *)
(* Values: a word or a number, or anything between braces              *)
(* ------------------------------------------------------------------ *)
Definition simple_kind (ty : token_type) : Prop := In ty [Identifier; NumberInt; BitString; HexString; TString].
Definition bracket (t : tok) : Prop := In (t_type t) [CurlyBegin; CurlyEnd; RoundBegin; RoundEnd].
(* braces and parentheses come in pairs *)
Inductive nested : list tok -> Prop :=
| nest_nil : nested []
| nest_tok t w : ~ bracket t -> nested w -> nested (t :: w)
| nest_braces w v : nested w -> nested v -> nested (L_BRACE :: w ++ R_BRACE :: v)
| nest_parens w v : nested w -> nested v -> nested (L_PAREN :: w ++ R_PAREN :: v).
(* a value is kept as the text of its tokens *)
Inductive value_syntax : list tok -> string -> Prop :=
| VS_simple t : simple_kind (t_type t) -> value_syntax [t] (t_text t)
| VS_braces w : nested w -> value_syntax (L_BRACE :: w ++ [R_BRACE]) (String.concat " " (map t_text (L_BRACE :: w ++ [R_BRACE]))).

(* ------------------------------------------------------------------ *)
(* Named numbers and enumerations                                      *)
(* ------------------------------------------------------------------ *)
Inductive number_syntax : list tok -> named_value -> Prop :=
| NS_number n : number_syntax [L_PAREN; N n; R_PAREN] (Number n)
| NS_reference r : value_name r -> number_syntax [L_PAREN; I r; R_PAREN] (ValueRef r).
Inductive named_syntax : list tok -> string * named_value -> Prop :=
| NaS id w n : value_name id -> number_syntax w n -> named_syntax (I id :: w) (id, n).
Inductive enum_item_syntax : list tok -> enum_value -> Prop :=
| ES_plain id : value_name id -> enum_item_syntax [I id] (mkEnumValue id None)
| ES_number id w n : value_name id -> number_syntax w n -> enum_item_syntax (I id :: w) (mkEnumValue id (Some n)).
Definition enum_items_syntax : list tok -> list enum_value -> Prop := separated comma enum_item_syntax.
Inductive named_list_syntax : list tok -> Prop :=
| NLS_none : named_list_syntax []
| NLS_some w l : separated comma named_syntax w l -> named_list_syntax (L_BRACE :: w ++ [R_BRACE]).

Inductive builtin_syntax : list tok -> builtin -> Prop :=
| BS_boolean : builtin_syntax [K "BOOLEAN"] BBoolean
| BS_null : builtin_syntax [K "NULL"] BNull
| BS_integer w : named_list_syntax w -> builtin_syntax (K "INTEGER" :: w) BInteger
| BS_bits w : named_list_syntax w -> builtin_syntax (K "BIT" :: K "STRING" :: w) BBitString
| BS_octets : builtin_syntax [K "OCTET"; K "STRING"] BOctetString
| BS_oid : builtin_syntax [K "OBJECT"; K "IDENTIFIER"] BObjectIdentifier
| BS_characters : builtin_syntax [K "CHARACTER"; K "STRING"] (BCharacterString "CHARACTER-STRING")
| BS_string s : In s ["VisibleString"; "UTF8String"; "IA5String"; "PrintableString"] -> builtin_syntax [K s] (BCharacterString s)
| BS_enumerated w root : enum_items_syntax w root ->
    builtin_syntax (K "ENUMERATED" :: L_BRACE :: w ++ [R_BRACE]) (BEnumerated root false [])
| BS_enumerated_open w root : enum_items_syntax w root ->
    builtin_syntax (K "ENUMERATED" :: L_BRACE :: w ++ [COMMA; DOTS; R_BRACE]) (BEnumerated root true [])
| BS_enumerated_more w root v ext : enum_items_syntax w root -> enum_items_syntax v ext ->
    builtin_syntax (K "ENUMERATED" :: L_BRACE :: w ++ COMMA :: DOTS :: COMMA :: v ++ [R_BRACE]) (BEnumerated root true ext).

(* ------------------------------------------------------------------ *)
(* References                                                          *)
(* ------------------------------------------------------------------ *)
Inductive param_syntax : list tok -> actual_param -> Prop :=
| PaS_single t : In (t_type t) [Identifier; NumberInt] -> param_syntax [t] (PSingle (t_text t))
| PaS_set t : In (t_type t) [Identifier; NumberInt] -> param_syntax [L_BRACE; t; R_BRACE] (PSet (t_text t)).
Inductive name_syntax : list tok -> string -> Prop :=
| NmS_plain r : type_name r -> name_syntax [I r] r
| NmS_dotted m r : type_name m -> type_name r -> name_syntax [I m; DOT; I r] (m ++ "." ++ r).
Inductive reference_syntax : list tok -> type_ref -> Prop :=
| RS_name w r : name_syntax w r -> reference_syntax w (RefName r)
| RS_field c f : class_name c -> field_name f -> reference_syntax [I c; DOT; mkTok AndIdentifier f] (RefClassField c f)
| RS_params w r v l : name_syntax w r -> separated comma param_syntax v l ->
    reference_syntax (w ++ L_BRACE :: v ++ [R_BRACE]) (RefParam r l).

(* ------------------------------------------------------------------ *)
(* Types and constraints                                               *)
(* ------------------------------------------------------------------ *)
(* what stands between the braces of a SEQUENCE or CHOICE *)
Inductive item (A : Type) := Component (c : A) | Marker | Group (l : list A).
Arguments Component {A}. Arguments Marker {A}. Arguments Group {A}.
(* SEQUENCE: components, then perhaps a marker and additions in version
   brackets, then perhaps a second marker and further components of the root *)
Inductive sequence_items : list (item seq_component) -> list seq_component -> list (list seq_component) -> bool -> Prop :=
| SI_closed root : sequence_items (map Component root) root [] false
| SI_open root groups : sequence_items (map Component root ++ Marker :: map Group groups) root groups true
| SI_open_root root groups root2 :
    sequence_items (map Component root ++ Marker :: map Group groups ++ Marker :: map Component root2) (root ++ root2) groups true.
(* CHOICE: alternatives, then perhaps a marker, additions in version brackets,
   and further additions, which count as one more group *)
Inductive choice_items : list (item (string * asn_type)) -> list (string * asn_type) -> option (list (list (string * asn_type))) -> Prop :=
| CI_closed root : choice_items (map Component root) root None
| CI_open root groups : choice_items (map Component root ++ Marker :: map Group groups) root (Some groups)
| CI_open_more root groups more : more <> [] ->
    choice_items (map Component root ++ Marker :: map Group groups ++ map Component more) root (Some (groups ++ [more])).

Definition bar (t : tok) : Prop := t = BAR \/ t = K "UNION".
Definition caret (t : tok) : Prop := t = CARET \/ t = K "INTERSECTION".
Inductive endpoint_syntax : tok -> string -> Prop :=
| EP_value t : simple_kind (t_type t) -> endpoint_syntax t (t_text t)
| EP_min : endpoint_syntax (K "MIN") "MIN"
| EP_max : endpoint_syntax (K "MAX") "MAX".
(* .. with or without < on either side, and which ends are included *)
Inductive dots_syntax : list tok -> bool -> bool -> Prop :=
| DS_both : dots_syntax [DOTDOT] true true
| DS_lower : dots_syntax [DOTDOT; LESS] true false
| DS_upper : dots_syntax [LESS; DOTDOT] false true
| DS_none : dots_syntax [LESS; DOTDOT; LESS] false false.
Inductive version_syntax : list tok -> Prop :=
| VeS_none : version_syntax []
| VeS_number n : version_syntax [N n; COLON].
(* OPTIONAL and DEFAULT *)
Inductive presence_syntax : list tok -> bool -> option string -> Prop :=
| PS_mandatory : presence_syntax [] false None
| PS_optional : presence_syntax [K "OPTIONAL"] true None
| PS_default w v : value_syntax w v -> presence_syntax (K "DEFAULT" :: w) false (Some v).

(* a type; a constraint that follows SEQUENCE OF belongs to the inner type *)
Inductive type_syntax : list tok -> asn_type -> Prop :=
| TS_type w k v cs : kind_syntax w k -> repeated constraint_syntax v cs -> type_syntax (w ++ v) (mkType k (Some cs))
| TS_list v t : type_syntax v t -> type_syntax (K "SEQUENCE" :: K "OF" :: v) (mkType (KSequenceOf None t) (Some []))
| TS_sized_list w c v t : constraint_syntax w c -> type_syntax v t ->
    type_syntax (K "SEQUENCE" :: w ++ K "OF" :: v) (mkType (KSequenceOf (Some c) t) (Some []))
with kind_syntax : list tok -> type_kind -> Prop :=
| KS_builtin w b : builtin_syntax w b -> kind_syntax w (KBuiltin b)
| KS_reference w r : reference_syntax w r -> kind_syntax w (KReference r)
| KS_empty : kind_syntax [K "SEQUENCE"; L_BRACE; R_BRACE] (KSequence [] [] false)
| KS_sequence w items root groups ext :
    separated comma seq_item_syntax w items -> sequence_items items root groups ext ->
    kind_syntax (K "SEQUENCE" :: L_BRACE :: w ++ [R_BRACE]) (KSequence root groups ext)
| KS_choice w items root additions :
    separated comma choice_item_syntax w items -> choice_items items root additions ->
    kind_syntax (K "CHOICE" :: L_BRACE :: w ++ [R_BRACE]) (KChoice root additions)
with seq_component_syntax : list tok -> seq_component -> Prop :=
| SC id w t v o d : value_name id -> type_syntax w t -> presence_syntax v o d -> seq_component_syntax (I id :: w ++ v) (mkSeqComp id t o d)
with seq_item_syntax : list tok -> item seq_component -> Prop :=
| SIS_component w c : seq_component_syntax w c -> seq_item_syntax w (Component c)
| SIS_marker : seq_item_syntax [DOTS] Marker
| SIS_group v w l : version_syntax v -> separated comma seq_component_syntax w l ->
    seq_item_syntax (L_GROUP :: v ++ w ++ [R_GROUP]) (Group l)
with choice_component_syntax : list tok -> string * asn_type -> Prop :=
| CC id w t : value_name id -> type_syntax w t -> choice_component_syntax (I id :: w) (id, t)
with choice_item_syntax : list tok -> item (string * asn_type) -> Prop :=
| CIS_component w c : choice_component_syntax w c -> choice_item_syntax w (Component c)
| CIS_marker : choice_item_syntax [DOTS] Marker
| CIS_group v w l : version_syntax v -> separated comma choice_component_syntax w l ->
    choice_item_syntax (L_GROUP :: v ++ w ++ [R_GROUP]) (Group l)
with constraint_syntax : list tok -> constraint -> Prop :=
| CS_set w s : set_syntax w s -> constraint_syntax w (CSubtype s)
| CS_table s a : type_name s ->
    constraint_syntax [L_PAREN; L_BRACE; I s; R_BRACE; L_BRACE; mkTok AtComponentIdList a; R_BRACE; R_PAREN] (CTable (TableRelation s a))
| CS_containing r : type_name r -> constraint_syntax [L_PAREN; K "CONTAINING"; I r; R_PAREN] CContents
with set_syntax : list tok -> element_set -> Prop :=
| SS_closed w u : separated bar (separated caret element_syntax) w u -> set_syntax (L_PAREN :: w ++ [R_PAREN]) (mkSet u None)
| SS_open w u : separated bar (separated caret element_syntax) w u ->
    set_syntax (L_PAREN :: w ++ [COMMA; DOTS; R_PAREN]) (mkSet u (Some []))
| SS_more w u v a : separated bar (separated caret element_syntax) w u -> separated bar (separated caret element_syntax) v a ->
    set_syntax (L_PAREN :: w ++ COMMA :: DOTS :: COMMA :: v ++ [R_PAREN]) (mkSet u (Some a))
with element_syntax : list tok -> elements -> Prop :=
| El_value w v : value_syntax w v -> element_syntax w (ESingle v)
| El_range l lo w li hi_in u hi : endpoint_syntax l lo -> dots_syntax w li hi_in -> endpoint_syntax u hi ->
    element_syntax (l :: w ++ [u]) (ERange lo li hi hi_in)
| El_size w s : set_syntax w s -> element_syntax (K "SIZE" :: w) (ESize s)
| El_alphabet w s : set_syntax w s -> element_syntax (K "FROM" :: w) (EAlphabet s)
| El_set w s : set_syntax w s -> element_syntax w (ESet s)
| El_type k w t : type_syntax (K k :: w) t -> element_syntax (K k :: w) (ESubtype t).

(* what may not come right after a type or a value, as it would be read as
   part of it *)
Definition follows_type (rest : list tok) : Prop :=
  match rest with [] => True | t :: _ => ~ In (t_type t) [CurlyBegin; RoundBegin; Dot] end.

(* ------------------------------------------------------------------ *)
(* Any tokens at all                                                   *)
(* ------------------------------------------------------------------ *)
(* what was read is a beginning of the tokens, and at least one token *)
Definition reads (ts rest : list tok) : Prop := exists t w, ts = t :: w ++ rest.
(* the text ends inside OCTET STRING, CHARACTER STRING or a range *)
Definition cut_off (ts : list tok) : Prop :=
  exists w t, ts = w ++ [t] /\ (t_type t = LessThan \/ In (t_text t) ["OCTET"; "CHARACTER"]).
(* somewhere a brace opens after SEQUENCE, SET, CHOICE or the name of a type *)
Definition opens_list (ts : list tok) : Prop :=
  exists a t b r, ts = a ++ t :: b :: r /\ t_type b = CurlyBegin /\
    (In (t_text t) ["SEQUENCE"; "SET"; "CHOICE"] \/ t_type t = Identifier /\ first_letter capital (t_text t)).
(* somewhere an object set opens: Name CLASS ::= { *)
Definition opens_set (ts : list tok) : Prop :=
  exists a c e b r, ts = a ++ c :: e :: b :: r /\ t_type c = Identifier /\ first_letter capital (t_text c) /\
    t_type e = Assignment /\ t_type b = CurlyBegin.
