(* The notation of classes, objects, definitions and modules, after X.680,
   X.681 and X.683, as far as the compiler supports it, and what a text in it
   denotes.  Nothing of the parser is used here, except the names of the parts
   of a parsed module. *)
From Coq Require Import ZArith List Bool String Ascii.
Require Import Verif.Base Verif.Asn1Model Verif.TokenModel Verif.ParserModel Verif.DefinitionModel Verif.ParserSpec.
Require Verif.TokenSpec.
Import ListNotations.
Open Scope string_scope.
Open Scope list_scope.

Definition F (s : string) : tok := mkTok AndIdentifier s.
(* &id and &Type *)
Definition value_field_name (s : string) : Prop := exists r, s = String "&" r /\ first_letter small r.
Definition type_field_name (s : string) : Prop := exists r, s = String "&" r /\ first_letter capital r.
Definition text (w : list tok) : string := String.concat " " (map t_text w).
Definition names {A} (l : list (string * A)) : list string := map fst l.

(* ------------------------------------------------------------------ *)
(* Classes (X.681, 9 and 10)                                           *)
(* ------------------------------------------------------------------ *)
(* UNIQUE, OPTIONAL and DEFAULT *)
Inductive field_options : list tok -> bool -> bool -> option string -> Prop :=
| FO_none : field_options [] false false None
| FO_unique : field_options [K "UNIQUE"] true false None
| FO_optional : field_options [K "OPTIONAL"] false true None
| FO_both : field_options [K "UNIQUE"; K "OPTIONAL"] true true None
| FO_default w v : value_syntax w v -> field_options (K "DEFAULT" :: w) false false (Some v).
Inductive field_syntax : list tok -> string * field_spec -> Prop :=
| FS_value f w t v u o d : value_field_name f -> type_syntax w t -> field_options v u o d ->
    field_syntax (F f :: w ++ v) (f, FSValue t u o d None)
| FS_type f : type_field_name f -> field_syntax [F f] (f, FSType false None None)
| FS_type_optional f : type_field_name f -> field_syntax [F f; K "OPTIONAL"] (f, FSType true None None)
| FS_type_default f w t : type_field_name f -> type_syntax w t ->
    field_syntax (F f :: K "DEFAULT" :: w) (f, FSType false (Some t) None).
(* the words of a WITH SYNTAX clause: in capitals, and none of these *)
Definition no_word : list string :=
  ["BIT"; "BOOLEAN"; "CHARACTER"; "CHOICE"; "EMBEDDED"; "END"; "ENUMERATED"; "EXTERNAL"; "FALSE"; "INSTANCE"; "INTEGER";
   "INTERSECTION"; "MINUS-INFINITY"; "NULL"; "OBJECT"; "OCTET"; "PLUS-INFINITY"; "REAL"; "RELATIVE-OID"; "SEQUENCE"; "SET";
   "TRUE"; "UNION"].
Definition word (t : tok) : Prop :=
  In (t_type t) [Identifier; Keyword] /\ first_letter capital (t_text t) /\
  characters (fun z => capital z \/ z = 45%Z) (t_text t) /\ ~ In (t_text t) no_word.
(* words and the field they introduce *)
Inductive words_syntax : list tok -> string * string -> Prop :=
| WS ws f : Forall word ws -> value_field_name f \/ type_field_name f -> words_syntax (ws ++ [F f]) (f, text ws).
(* one field, or an optional group of them *)
Definition optional_field (c : class) (f : string) : Prop :=
  exists s, In (f, s) c /\ match s with FSType o d _ => o = true \/ d <> None | FSValue _ _ o d _ => o = true \/ d <> None end.
Inductive clause_syntax (c : class) : list tok -> list (string * string) -> Prop :=
| CL_one w p : words_syntax w p -> In (fst p) (names c) -> clause_syntax c w [p]
| CL_group w l : repeated words_syntax w l -> l <> [] -> Forall (fun p => optional_field c (fst p)) l ->
    clause_syntax c (L_SQUARE :: w ++ [R_SQUARE]) l.
(* the fields with their words *)
Definition words_of (f : string) (clauses : list (string * string)) (s : option string) : Prop :=
  match s with Some ws => In (f, ws) clauses | None => ~ In f (names clauses) end.
Definition worded (clauses : list (string * string)) (a b : string * field_spec) : Prop :=
  fst a = fst b /\
  match snd a, snd b with
  | FSType o d _, FSType o' d' s => o = o' /\ d = d' /\ words_of (fst a) clauses s
  | FSValue t u o d _, FSValue t' u' o' d' s => t = t' /\ u = u' /\ o = o' /\ d = d' /\ words_of (fst a) clauses s
  | _, _ => False
  end.
Inductive class_syntax : list tok -> class -> Prop :=
| ClS_plain w c : separated comma field_syntax w c -> NoDup (names c) ->
    class_syntax (K "CLASS" :: L_BRACE :: w ++ [R_BRACE]) c
| ClS_words w c v l c' : separated comma field_syntax w c -> NoDup (names c) ->
    repeated (clause_syntax c) v l -> l <> [] -> NoDup (names (List.concat l)) -> Forall2 (worded (List.concat l)) c c' ->
    class_syntax (K "CLASS" :: L_BRACE :: w ++ R_BRACE :: K "WITH" :: K "SYNTAX" :: L_BRACE :: v ++ [R_BRACE]) c'.

(* ------------------------------------------------------------------ *)
(* Object sets (X.681, 12): names of objects and object sets, and        *)
(* objects, which are kept as text                                     *)
(* ------------------------------------------------------------------ *)
Inductive set_item_syntax : list tok -> parsed_element -> Prop :=
| OS_object o : value_name o -> set_item_syntax [I o] (PObjectRef o)
| OS_set s : type_name s -> set_item_syntax [I s] (PSetRef s)
| OS_inline w : nested w -> set_item_syntax (L_BRACE :: w ++ [R_BRACE]) (PInput (text (L_BRACE :: w ++ [R_BRACE]))).
Inductive object_set_syntax : list tok -> list parsed_element -> list parsed_element -> Prop :=
| OSS_closed w root : separated bar set_item_syntax w root -> object_set_syntax w root []
| OSS_open w root : separated bar set_item_syntax w root -> object_set_syntax (w ++ [COMMA; DOTS]) root []
| OSS_more w root v more : separated bar set_item_syntax w root -> separated bar set_item_syntax v more ->
    object_set_syntax (w ++ COMMA :: DOTS :: COMMA :: v) root more
| OSS_empty : object_set_syntax [DOTS] [] []
| OSS_empty_more v more : separated bar set_item_syntax v more -> object_set_syntax (DOTS :: COMMA :: v) [] more.

(* ------------------------------------------------------------------ *)
(* Definitions                                                         *)
(* ------------------------------------------------------------------ *)
(* Type, Governor : Type, Governor : value; the name is what counts *)
Definition governor (t : tok) : Prop :=
  t_type t = Identifier /\ type_name (t_text t) \/
  t_type t = Keyword /\ In (t_text t) ["INTEGER"; "BOOLEAN"; "ENUMERATED"; "NULL"; "UTF8String"; "IA5String"; "PrintableString"; "VisibleString"].
Inductive dummy_syntax : list tok -> string -> Prop :=
| DuS_type n : type_name n -> dummy_syntax [I n] n
| DuS_governed g n : governor g -> type_name n \/ value_name n -> dummy_syntax [g; COLON; I n] n.
(* a value of a type in capitals, in braces, would be an object *)
Definition like_object (w v : list tok) : Prop :=
  (exists c, w = [I c] /\ class_name c) /\ exists r, v = L_BRACE :: r.
Inductive definition_syntax : list tok -> parsed_def -> Prop :=
| DS_type n w t : type_name n -> type_syntax w t ->
    definition_syntax (I n :: ASSIGN :: w) (mkParsed n (PAType t) None)
| DS_parameterized n v l w t : type_name n -> separated comma dummy_syntax v l -> type_syntax w t ->
    definition_syntax (I n :: L_BRACE :: v ++ R_BRACE :: ASSIGN :: w) (mkParsed n (PAType t) (Some (l, w)))
| DS_value n w t v x : value_name n -> type_syntax w t -> value_syntax v x -> ~ like_object w v ->
    definition_syntax (I n :: w ++ ASSIGN :: v) (mkParsed n (PAValue t x) None)
| DS_class n w c : class_name n -> class_syntax w c ->
    definition_syntax (I n :: ASSIGN :: w) (mkParsed n (PAClass c) None)
| DS_object n c w : value_name n -> class_name c -> nested w ->
    definition_syntax (I n :: I c :: ASSIGN :: L_BRACE :: w ++ [R_BRACE]) (mkParsed n (PAObject c (text (L_BRACE :: w ++ [R_BRACE]))) None)
| DS_object_set n c w root additional : type_name n -> class_name c -> object_set_syntax w root additional ->
    definition_syntax (I n :: I c :: ASSIGN :: L_BRACE :: w ++ [R_BRACE]) (mkParsed n (PAObjectSet c root additional) None).

(* ------------------------------------------------------------------ *)
(* Modules (X.680, 13)                                                 *)
(* ------------------------------------------------------------------ *)
Definition digit (c : ascii) (d : Z) : Prop := Z.of_N (N_of_ascii c) = (48 + d)%Z /\ (0 <= d <= 9)%Z.
Inductive numeral : string -> Z -> Prop :=
| num_one c d : digit c d -> numeral (String c "") d
| num_more s n c d : numeral s n -> digit c d -> numeral (s ++ String c "") (10 * n + d).
(* an arc of an object identifier; the names of the arcs of X.660 need no number *)
Definition known_arcs : list string :=
  ["itu-t"; "ccitt"; "iso"; "joint-iso-itu-t"; "joint-iso-ccitt"; "identified-organization"; "network-operator"; "administration"; "question"].
Definition arc_number (s : string) : Prop := exists n, numeral s n /\ (n < 2 ^ 32)%Z.
Inductive arc_syntax : list tok -> unit -> Prop :=
| AS_number n : arc_number n -> arc_syntax [N n] tt
| AS_name a : In a known_arcs -> arc_syntax [I a] tt
| AS_both a n : value_name a -> arc_number n -> arc_syntax [I a; L_PAREN; N n; R_PAREN] tt.
Inductive oid_syntax : list tok -> Prop :=
| OIS_none : oid_syntax []
| OIS_some w l : repeated arc_syntax w l -> oid_syntax (L_BRACE :: w ++ [R_BRACE]).
Inductive tags_syntax : list tok -> Prop :=
| TaS_none : tags_syntax []
| TaS_some k : In k ["EXPLICIT"; "IMPLICIT"; "AUTOMATIC"] -> tags_syntax [K k; K "TAGS"].
Inductive symbol_syntax : list tok -> string -> Prop :=
| SyS_plain s : symbol_syntax [I s] s
| SyS_parameterized s : symbol_syntax [I s; L_BRACE; R_BRACE] s.
Inductive import_syntax : list tok -> list (string * string) -> Prop :=
| IS w l m v : separated comma symbol_syntax w l -> type_name m -> oid_syntax v ->
    import_syntax (w ++ K "FROM" :: I m :: v) (map (fun s => (s, m)) l).
Inductive imports_syntax : list tok -> list (string * string) -> Prop :=
| ImS_none : imports_syntax [] []
| ImS_some w l : repeated import_syntax w l -> l <> [] -> NoDup (names (List.concat l)) ->
    imports_syntax (K "IMPORTS" :: w ++ [SEMICOLON]) (List.concat l).
Inductive module_syntax : list tok -> parsed_module -> Prop :=
| MS n oid tags v imports w defs : type_name n -> oid_syntax oid -> tags_syntax tags -> imports_syntax v imports ->
    repeated definition_syntax w defs -> NoDup (map pd_id defs) ->
    module_syntax (I n :: oid ++ K "DEFINITIONS" :: tags ++ ASSIGN :: K "BEGIN" :: v ++ w ++ [K "END"])
      (mkParsedModule n imports (map (fun d => (pd_id d, d)) defs)).
(* a class without WITH SYNTAX *)
Definition bare_class (d : parsed_def) : Prop :=
  exists c, pd_kind d = PAClass c /\ Forall (fun f => match snd f with FSType _ _ s | FSValue _ _ _ _ s => s = None end) c.
Definition ends_with_bare_class (m : parsed_module) : Prop := exists l n d, pm_defs m = l ++ [(n, d)] /\ bare_class d.

(* ------------------------------------------------------------------ *)
(* Any tokens at all                                                   *)
(* ------------------------------------------------------------------ *)
(* the parser comes back, and reads at least one token and only tokens there are *)
Definition always_ends {A} (parser : list tok -> res (A * list tok)) : Prop :=
  forall ts, match parser ts with Ok (_, rest) => reads ts rest | Err => True | Panic => False | Diverge => False end.
(* it does unless the tokens break off in a certain way or contain something
   that may keep it going *)
Definition ends_unless {A} (endless : list tok -> Prop) (parser : list tok -> res (A * list tok)) : Prop :=
  forall ts, match parser ts with Ok (_, rest) => reads ts rest | Err => True | Panic => cut_off ts | Diverge => endless ts end.
Definition opens (ts : list tok) : Prop := opens_list ts \/ opens_set ts.

(* ------------------------------------------------------------------ *)
(* Texts                                                               *)
(* ------------------------------------------------------------------ *)
(* the lexical items of a text, without its comments *)
Definition words_of_items (l : list (token_type * list Z)) : list tok :=
  map (fun x => mkTok (fst x) (utf8 (TokenSpec.text_of (fst x) (snd x)))) (filter (fun x => negb (token_type_beq (fst x) Comment)) l).
(* one module after the other, and the last one does not end in a class
   without WITH SYNTAX *)
Definition file_syntax (w : list tok) (ms : list parsed_module) : Prop :=
  repeated module_syntax w ms /\ ms <> [] /\ forall p m, ms = p ++ [m] -> ~ ends_with_bare_class m.
