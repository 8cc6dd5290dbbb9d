(* The notation that the compiler takes, and what it takes a text for: the
   notation of ParserSpec.v and DefinitionSpec.v with more freedom.  Where a
   phrase is as strict there, the relation from there is used.  The liberties
   are marked with (!).  Nothing of the parser is used here. *)
From Coq Require Import ZArith List Bool String Ascii.
Require Import Verif.Base Verif.Asn1Model Verif.TokenModel Verif.ParserModel Verif.DefinitionModel Verif.ParserSpec Verif.DefinitionSpec.
Require Verif.TokenSpec.
Import ListNotations.
Open Scope string_scope.
Open Scope list_scope.

(* ------------------------------------------------------------------ *)
(* Lexical items: kind and text agree                                  *)
(* ------------------------------------------------------------------ *)
Definition lexed (t : tok) : Prop :=
  match t_type t with
  | Keyword => reserved (t_text t)
  | AndIdentifier => exists r, t_text t = String "&" r
  | NumberInt => first_letter (fun z => (48 <= z <= 57)%Z \/ z = 45%Z) (t_text t)
  | Extension => t_text t = "..."
  | RangeSeparator => t_text t = ".."
  | Dot => t_text t = "."
  | Assignment => t_text t = "::="
  | Colon => t_text t = ":"
  | AdditionGroupsBegin => t_text t = "[["
  | AdditionGroupsEnd => t_text t = "]]"
  | SquareBegin => t_text t = "["
  | SquareEnd => t_text t = "]"
  | CurlyBegin => t_text t = "{"
  | CurlyEnd => t_text t = "}"
  | RoundBegin => t_text t = "("
  | RoundEnd => t_text t = ")"
  | ExceptionMarker => t_text t = "!"
  | SemiColon => t_text t = ";"
  | Comma => t_text t = ","
  | SetUnionToken => t_text t = "|"
  | SetIntersectionToken => t_text t = "^"
  | LessThan => t_text t = "<"
  | _ => ~ reserved (t_text t)
  end.

(* ------------------------------------------------------------------ *)
(* Lists                                                               *)
(* ------------------------------------------------------------------ *)
(* (!) a comma that may as well be missing *)
Definition maybe_comma (w : list tok) : Prop := w = [] \/ w = [COMMA].
Inductive with_comma {A} (P : list tok -> A -> Prop) : list tok -> A -> Prop :=
| WC w a c : P w a -> maybe_comma c -> with_comma P (w ++ c) a.
(* (!) one name may stand for several things: the last one counts *)
Definition last_of {A} (l : list (string * A)) (k : string) (x : A) : Prop :=
  exists a b, l = a ++ (k, x) :: b /\ ~ In k (names b).
Definition table_of {A} (l table : list (string * A)) : Prop :=
  NoDup (names table) /\ forall k x, In (k, x) table <-> last_of l k x.

(* ------------------------------------------------------------------ *)
(* Values                                                              *)
(* ------------------------------------------------------------------ *)
(* (!) brackets of one kind come in pairs, and nobody looks at the others *)
Inductive paired (b e : token_type) : list tok -> Prop :=
| pair_nil : paired b e []
| pair_tok t w : t_type t <> b -> t_type t <> e -> paired b e w -> paired b e (t :: w)
| pair_pair t w t' v : t_type t = b -> paired b e w -> t_type t' = e -> paired b e v -> paired b e (t :: w ++ t' :: v).
Inductive loose_braces : list tok -> Prop :=
| LB w : paired CurlyBegin CurlyEnd w -> loose_braces (L_BRACE :: w ++ [R_BRACE]).
(* (!) parentheses do as well *)
Inductive loose_brackets : list tok -> Prop :=
| LB_braces w : loose_braces w -> loose_brackets w
| LB_parens w : paired RoundBegin RoundEnd w -> loose_brackets (L_PAREN :: w ++ [R_PAREN]).
Inductive loose_value : list tok -> string -> Prop :=
| LV_simple t : simple_kind (t_type t) -> loose_value [t] (t_text t)
| LV_brackets w : loose_brackets w -> loose_value w (text w).

(* ------------------------------------------------------------------ *)
(* Types without components                                            *)
(* ------------------------------------------------------------------ *)
Definition loose_enum_items : list tok -> list enum_value -> Prop := repeated (with_comma enum_item_syntax).
Inductive loose_builtin : list tok -> builtin -> Prop :=
| LBu_strict w b : builtin_syntax w b -> loose_builtin w b
(* (!) what follows OCTET and CHARACTER *)
| LBu_octets t : loose_builtin [K "OCTET"; t] BOctetString
| LBu_characters t : loose_builtin [K "CHARACTER"; t] (BCharacterString "CHARACTER-STRING")
(* commas *)
| LBu_enumerated w root : loose_enum_items w root -> root <> [] ->
    loose_builtin (K "ENUMERATED" :: L_BRACE :: w ++ [R_BRACE]) (BEnumerated root false [])
| LBu_enumerated_open w root c v ext : loose_enum_items w root -> root <> [] -> maybe_comma c -> loose_enum_items v ext ->
    loose_builtin (K "ENUMERATED" :: L_BRACE :: w ++ DOTS :: c ++ v ++ [R_BRACE]) (BEnumerated root true ext).
(* (!) any number of commas anywhere between the parameters *)
Inductive loose_params : list tok -> list actual_param -> Prop :=
| LP_end : loose_params [] []
| LP_comma v l : loose_params v l -> loose_params (COMMA :: v) l
| LP_param w p v l : param_syntax w p -> loose_params v l -> loose_params (w ++ v) (p :: l).
(* (!) SET is the name of a type *)
Inductive loose_name : list tok -> string -> Prop :=
| LN_strict w r : name_syntax w r -> loose_name w r
| LN_set : loose_name [K "SET"] "SET".
Inductive loose_reference : list tok -> type_ref -> Prop :=
| LR_name w r : loose_name w r -> loose_reference w (RefName r)
| LR_field c f : class_name c -> field_name f -> loose_reference [I c; DOT; F f] (RefClassField c f)
| LR_params w r v l : loose_name w r -> loose_params v l -> l <> [] -> loose_reference (w ++ L_BRACE :: v ++ [R_BRACE]) (RefParam r l)
(* (!) no parameters between the braces *)
| LR_no_params w r v : loose_name w r -> loose_params v [] -> loose_reference (w ++ L_BRACE :: v ++ [R_BRACE]) (RefName r).

(* ------------------------------------------------------------------ *)
(* Types and constraints                                               *)
(* ------------------------------------------------------------------ *)
Inductive loose_end : list tok -> string -> Prop :=
| LE_value w v : loose_value w v -> loose_end w v
| LE_min : loose_end [K "MIN"] "MIN"
| LE_max : loose_end [K "MAX"] "MAX".
(* (!) whatever stands after < for the two dots *)
Inductive loose_dots : list tok -> bool -> bool -> Prop :=
| LD_both : loose_dots [DOTDOT] true true
| LD_lower : loose_dots [DOTDOT; LESS] true false
| LD_upper t : loose_dots [LESS; t] false true
| LD_none t : loose_dots [LESS; t; LESS] false false.
Inductive loose_presence : list tok -> bool -> option string -> Prop :=
| LPr_mandatory : loose_presence [] false None
| LPr_optional : loose_presence [K "OPTIONAL"] true None
| LPr_default w v : loose_value w v -> loose_presence (K "DEFAULT" :: w) false (Some v).
Definition no_paren (w : list tok) : Prop := match w with t :: _ => t <> L_PAREN | [] => True end.
Definition not_empty {A} (l : list A) : bool := match l with [] => false | _ => true end.
Definition as_group {A} (l : list A) : list (list A) := match l with [] => [] | _ => [l] end.

Inductive loose_type : list tok -> asn_type -> Prop :=
| LT w k v cs : loose_kind w k -> repeated loose_constraint v cs -> loose_type (w ++ v) (mkType k (Some cs))
with loose_kind : list tok -> type_kind -> Prop :=
| LK_builtin w b : loose_builtin w b -> loose_kind w (KBuiltin b)
| LK_reference w r : loose_reference w r -> loose_kind w (KReference r)
| LK_sequence w root groups n : loose_sequence 0 w root groups n ->
    loose_kind (K "SEQUENCE" :: L_BRACE :: w ++ [R_BRACE]) (KSequence root groups (negb (Nat.eqb n 0)))
| LK_list v t : loose_type v t -> loose_kind (K "SEQUENCE" :: K "OF" :: v) (KSequenceOf None t)
| LK_sized_list w c v t : loose_constraint w c -> loose_type v t -> loose_kind (K "SEQUENCE" :: w ++ K "OF" :: v) (KSequenceOf (Some c) t)
| LK_choice w root groups single marker : loose_choice false w root groups single marker ->
    loose_kind (K "CHOICE" :: L_BRACE :: w ++ [R_BRACE]) (KChoice root (if marker then Some (groups ++ as_group single) else None))
with loose_component : list tok -> string * asn_type -> Prop :=
| LCo id w t : value_name id -> loose_type w t -> loose_component (I id :: w) (id, t)
with loose_seq_component : list tok -> seq_component -> Prop :=
| LSC id w t v o d : loose_component w (id, t) -> loose_presence v o d -> loose_seq_component (w ++ v) (mkSeqComp id t o d)
(* `loose_sequence n w root groups m`: n markers stand before w, and m after it.
   (!) Components, commas and markers in any order and number; version
   brackets only between the first marker and the second. *)
with loose_sequence : nat -> list tok -> list seq_component -> list (list seq_component) -> nat -> Prop :=
| LS_end n : loose_sequence n [] [] [] n
| LS_component n w c v root groups m : loose_seq_component w c -> loose_sequence n v root groups m -> loose_sequence n (w ++ v) (c :: root) groups m
| LS_group w l v root groups m : loose_seq_group w l -> loose_sequence 1 v root groups m -> loose_sequence 1 (w ++ v) root (l :: groups) m
| LS_comma n v root groups m : loose_sequence n v root groups m -> loose_sequence n (COMMA :: v) root groups m
| LS_marker n v root groups m : loose_sequence (S n) v root groups m -> loose_sequence n (DOTS :: v) root groups m
(* (!) a comma may be missing, or follow the last component *)
with loose_seq_group : list tok -> list seq_component -> Prop :=
| LSG v w l : version_syntax v -> repeated (with_comma loose_seq_component) w l -> l <> [] ->
    loose_seq_group (L_GROUP :: v ++ w ++ [R_GROUP]) l
(* `loose_choice marker w root groups single marker'`: whether a marker stands
   before w, and whether one does after it.  (!) Commas anywhere. *)
with loose_choice : bool -> list tok -> list (string * asn_type) -> list (list (string * asn_type)) -> list (string * asn_type) -> bool -> Prop :=
| LC_end b : loose_choice b [] [] [] [] b
| LC_root w c v root groups single b : loose_component w c -> loose_choice false v root groups single b ->
    loose_choice false (w ++ v) (c :: root) groups single b
| LC_single w c v root groups single b : loose_component w c -> loose_choice true v root groups single b ->
    loose_choice true (w ++ v) root groups (c :: single) b
| LC_group w l v root groups single b : loose_choice_group w l -> loose_choice true v root groups single b ->
    loose_choice true (w ++ v) root (l :: groups) single b
| LC_comma a v root groups single b : loose_choice a v root groups single b -> loose_choice a (COMMA :: v) root groups single b
| LC_marker v root groups single b : loose_choice true v root groups single b -> loose_choice false (DOTS :: v) root groups single b
with loose_choice_group : list tok -> list (string * asn_type) -> Prop :=
| LCG v w l : version_syntax v -> loose_group_items w l -> l <> [] -> loose_choice_group (L_GROUP :: v ++ w ++ [R_GROUP]) l
with loose_group_items : list tok -> list (string * asn_type) -> Prop :=
| LGI_end : loose_group_items [] []
| LGI_component w c v l : loose_component w c -> loose_group_items v l -> loose_group_items (w ++ v) (c :: l)
| LGI_comma v l : loose_group_items v l -> loose_group_items (COMMA :: v) l
with loose_constraint : list tok -> constraint -> Prop :=
| LCn_set w s : loose_set w s -> loose_constraint w (CSubtype s)
| LCn_table s : type_name s -> loose_constraint [L_PAREN; L_BRACE; I s; R_BRACE; R_PAREN] (CTable (TableSimple s))
| LCn_relation s a : type_name s ->
    loose_constraint [L_PAREN; L_BRACE; I s; R_BRACE; L_BRACE; mkTok AtComponentIdList a; R_BRACE; R_PAREN] (CTable (TableRelation s a))
| LCn_containing r : type_name r -> loose_constraint [L_PAREN; K "CONTAINING"; I r; R_PAREN] CContents
with loose_set : list tok -> element_set -> Prop :=
| LSt_closed w u : loose_union w u -> u <> [] -> loose_set (L_PAREN :: w ++ [R_PAREN]) (mkSet u None)
(* (!) no comma after the marker *)
| LSt_open w u c v a : loose_union w u -> u <> [] -> maybe_comma c -> loose_union v a ->
    loose_set (L_PAREN :: w ++ COMMA :: DOTS :: c ++ v ++ [R_PAREN]) (mkSet u (Some a))
(* (!) operands may be missing, and then do not count *)
with loose_union : list tok -> list (list elements) -> Prop :=
| LU w l : separated bar loose_meet w l -> loose_union w (filter not_empty l)
with loose_meet : list tok -> list elements -> Prop :=
| LM_none : loose_meet [] []
| LM_some w l : separated caret loose_element w l -> loose_meet w l
| LM_leading t w l : caret t -> separated caret loose_element w l -> loose_meet (t :: w) l
with loose_element : list tok -> elements -> Prop :=
| LEl_plain w e : loose_plain w e -> loose_element w e
| LEl_size w s : loose_set w s -> loose_element (K "SIZE" :: w) (ESize s)
| LEl_alphabet w s : loose_set w s -> loose_element (K "FROM" :: w) (EAlphabet s)
(* (!) SIZE and FROM without parenthesis are passed over *)
| LEl_dropped k w e : In k ["SIZE"; "FROM"] -> loose_plain w e -> no_paren w -> loose_element (K k :: w) e
with loose_plain : list tok -> elements -> Prop :=
| LPl_value w v : loose_value w v -> no_paren w -> loose_plain w (ESingle v)
| LPl_range l lo w li hi_in u hi : loose_end l lo -> loose_dots w li hi_in -> loose_end u hi -> loose_plain (l ++ w ++ u) (ERange lo li hi hi_in)
| LPl_set w s : loose_set w s -> loose_plain w (ESet s)
| LPl_type w t : loose_type w t -> loose_plain w (ESubtype t).

(* ------------------------------------------------------------------ *)
(* Classes                                                             *)
(* ------------------------------------------------------------------ *)
Inductive loose_options : list tok -> bool -> bool -> option string -> Prop :=
| LO_strict w u o d : field_options w u o d -> loose_options w u o d
| LO_default w v : loose_value w v -> loose_options (K "DEFAULT" :: w) false false (Some v).
Inductive loose_field : list tok -> string * field_spec -> Prop :=
| LF_value f w t v u o d : value_field_name f -> loose_type w t -> loose_options v u o d ->
    loose_field (F f :: w ++ v) (f, FSValue t u o d None)
| LF_type f : type_field_name f -> loose_field [F f] (f, FSType false None None)
| LF_type_optional f : type_field_name f -> loose_field [F f; K "OPTIONAL"] (f, FSType true None None)
| LF_type_default f w t : type_field_name f -> loose_type w t ->
    loose_field (F f :: K "DEFAULT" :: w) (f, FSType false (Some t) None).
(* (!) anything between the fields counts as words, except the names of the
   built-in types and a few more; OCTET does not *)
Definition loose_word (t : tok) : Prop :=
  t_type t <> AndIdentifier /\ (In (t_text t) no_word -> t_text t = "OCTET").
(* `loose_clauses c inside w l`: whether a square bracket is open before w;
   none is after it *)
Definition when (b : bool) (t : tok) : list tok := if b then [t] else [].
Inductive loose_clauses (c : class) : bool -> list tok -> list (string * string) -> Prop :=
| LCl_end : loose_clauses c false [] []
(* (!) a bracket may open inside another *)
| LCl_field inside opens closes ws f cm v l :
    let within := opens || inside in
    Forall loose_word ws -> In f (names c) -> (within = true -> optional_field c f) -> maybe_comma cm -> (closes = true -> within = true) ->
    loose_clauses c (if closes then false else within) v l ->
    loose_clauses c inside (when opens L_SQUARE ++ ws ++ F f :: cm ++ when closes R_SQUARE ++ v) ((f, text ws) :: l).
Definition loose_words_of (f : string) (clauses : list (string * string)) (s : option string) : Prop :=
  match s with Some ws => last_of clauses f ws | None => ~ In f (names clauses) end.
Definition loose_worded (clauses : list (string * string)) (a b : string * field_spec) : Prop :=
  fst a = fst b /\
  match snd a, snd b with
  | FSType o d _, FSType o' d' s => o = o' /\ d = d' /\ loose_words_of (fst a) clauses s
  | FSValue t u o d _, FSValue t' u' o' d' s => t = t' /\ u = u' /\ o = o' /\ d = d' /\ loose_words_of (fst a) clauses s
  | _, _ => False
  end.
Inductive loose_class : list tok -> class -> Prop :=
| LCs_plain w l c : separated comma loose_field w l -> table_of l c ->
    loose_class (K "CLASS" :: L_BRACE :: w ++ [R_BRACE]) c
| LCs_words w l c v clauses c' : separated comma loose_field w l -> table_of l c ->
    loose_clauses c false v clauses -> clauses <> [] -> Forall2 (loose_worded clauses) c c' ->
    loose_class (K "CLASS" :: L_BRACE :: w ++ R_BRACE :: K "WITH" :: K "SYNTAX" :: L_BRACE :: v ++ [R_BRACE]) c'.

(* ------------------------------------------------------------------ *)
(* Object sets                                                         *)
(* ------------------------------------------------------------------ *)
Inductive loose_set_item : list tok -> parsed_element -> Prop :=
| LSI_object o : value_name o -> loose_set_item [I o] (PObjectRef o)
| LSI_set s : type_name s -> loose_set_item [I s] (PSetRef s)
| LSI_inline w : loose_brackets w -> loose_set_item w (PInput (text w)).
(* (!) commas and bars anywhere, but one marker at most *)
Inductive loose_object_set : bool -> list tok -> list parsed_element -> list parsed_element -> Prop :=
| LOS_end b : loose_object_set b [] [] []
| LOS_root w x v root more : loose_set_item w x -> loose_object_set false v root more -> loose_object_set false (w ++ v) (x :: root) more
| LOS_more w x v root more : loose_set_item w x -> loose_object_set true v root more -> loose_object_set true (w ++ v) root (x :: more)
| LOS_comma b v root more : loose_object_set b v root more -> loose_object_set b (COMMA :: v) root more
| LOS_bar b t v root more : bar t -> loose_object_set b v root more -> loose_object_set b (t :: v) root more
| LOS_marker v root more : loose_object_set true v root more -> loose_object_set false (DOTS :: v) root more.

(* ------------------------------------------------------------------ *)
(* Definitions                                                         *)
(* ------------------------------------------------------------------ *)
(* (!) the first word of any built-in type *)
Definition loose_governor (t : tok) : Prop :=
  governor t \/ t_type t = Keyword /\ In (t_text t) ["OBJECT"; "OCTET"; "BIT"; "CHARACTER"; "SEQUENCE"; "SET"; "CHOICE"].
Inductive loose_dummy : list tok -> string -> Prop :=
| LDu_type n : type_name n -> loose_dummy [I n] n
| LDu_governed g n : loose_governor g -> type_name n \/ value_name n -> loose_dummy [g; COLON; I n] n.
Definition loose_like_object (w v : list tok) : Prop :=
  (exists c, w = [I c] /\ class_name c) /\ exists t r, v = t :: r /\ (t = L_BRACE \/ t = L_PAREN).
Inductive loose_definition : list tok -> parsed_def -> Prop :=
| LDe_type n w t : type_name n -> loose_type w t ->
    loose_definition (I n :: ASSIGN :: w) (mkParsed n (PAType t) None)
| LDe_parameterized n v l w t : type_name n -> repeated (with_comma loose_dummy) v l -> l <> [] -> loose_type w t ->
    loose_definition (I n :: L_BRACE :: v ++ R_BRACE :: ASSIGN :: w) (mkParsed n (PAType t) (Some (l, w)))
| LDe_value n w t v x : value_name n -> loose_type w t -> loose_value v x -> ~ loose_like_object w v ->
    loose_definition (I n :: w ++ ASSIGN :: v) (mkParsed n (PAValue t x) None)
| LDe_class n w c : class_name n -> loose_class w c ->
    loose_definition (I n :: ASSIGN :: w) (mkParsed n (PAClass c) None)
| LDe_object n c w : value_name n -> class_name c -> loose_brackets w ->
    loose_definition (I n :: I c :: ASSIGN :: w) (mkParsed n (PAObject c (text w)) None)
| LDe_object_set n c w root more : type_name n -> class_name c -> loose_object_set false w root more ->
    loose_definition (I n :: I c :: ASSIGN :: L_BRACE :: w ++ [R_BRACE]) (mkParsed n (PAObjectSet c root more) None).

(* ------------------------------------------------------------------ *)
(* Modules                                                             *)
(* ------------------------------------------------------------------ *)
(* (!) everything up to FROM, of which the names count *)
Definition name_of (t : tok) : list string := match t_type t with Identifier => [t_text t] | _ => [] end.
Inductive loose_import : list tok -> list (string * string) -> Prop :=
| LIm w m v : ~ In (K "FROM") w -> type_name m -> oid_syntax v ->
    loose_import (w ++ K "FROM" :: I m :: v) (map (fun s => (s, m)) (flat_map name_of w)).
Inductive loose_imports : list tok -> list (string * string) -> Prop :=
| LIs_none : loose_imports [] []
| LIs_some w l : repeated loose_import w l -> l <> [] -> NoDup (names (List.concat l)) ->
    loose_imports (K "IMPORTS" :: w ++ [SEMICOLON]) (List.concat l).
Inductive loose_module : list tok -> parsed_module -> Prop :=
| LMo n oid tags v imports w defs table : type_name n -> oid_syntax oid -> tags_syntax tags -> loose_imports v imports ->
    repeated loose_definition w defs -> table_of (map (fun d => (pd_id d, d)) defs) table ->
    loose_module (I n :: oid ++ K "DEFINITIONS" :: tags ++ ASSIGN :: K "BEGIN" :: v ++ w ++ [K "END"]) (mkParsedModule n imports table).
Definition loose_file (w : list tok) (ms : list parsed_module) : Prop := repeated loose_module w ms /\ ms <> [].
(* the text of a file *)
Definition readable (numeric : Z -> Prop) (cs : list Z) : Prop := exists l ms, TokenSpec.items numeric cs l /\ loose_file (words_of_items l) ms.
