(* The parser of classes, objects, definitions and modules
   (asn-compiler/src/parser/asn/{oid,defs,module}.rs, types/ioc.rs,
   parser/int.rs), the use of parameterized definitions, and the compiler from
   texts on (src/bin/hampi-asn1c.rs).  As in ParserModel, a parser returns what
   it read and the tokens after it. *)
From Coq Require Import ZArith NArith List Bool String Ascii.
Require Import Verif.Base Verif.Asn1Model Verif.GenModel Verif.ResolveModel Verif.TokenModel Verif.ParserModel Verif.ModuleModel.
Import ListNotations.
Open Scope string_scope.
Open Scope list_scope.
Open Scope Z_scope.

(* ------------------------------------------------------------------ *)
(* Strings and characters                                              *)
(* ------------------------------------------------------------------ *)
Definition byte (z : Z) : ascii := ascii_of_N (Z.to_N z).
(* char::encode_utf8 *)
Definition utf8_char (c : Z) (r : string) : string :=
  if c <? 0x80 then String (byte c) r
  else if c <? 0x800 then String (byte (0xC0 + c / 64)) (String (byte (0x80 + c mod 64)) r)
  else if c <? 0x10000 then
    String (byte (0xE0 + c / 4096)) (String (byte (0x80 + c / 64 mod 64)) (String (byte (0x80 + c mod 64)) r))
  else String (byte (0xF0 + c / 262144)) (String (byte (0x80 + c / 4096 mod 64))
        (String (byte (0x80 + c / 64 mod 64)) (String (byte (0x80 + c mod 64)) r))).
Definition utf8 (l : list Z) : string := fold_right utf8_char EmptyString l.
(* str::chars, of a valid string *)
Fixpoint chars_of (s : string) : list Z :=
  match s with
  | EmptyString => []
  | String a r =>
      let x := code a in
      if x <? 0x80 then x :: chars_of r
      else
        match r with
        | EmptyString => []
        | String b r1 =>
            let y := code b - 0x80 in
            if x <? 0xE0 then (x - 0xC0) * 64 + y :: chars_of r1
            else
              match r1 with
              | EmptyString => []
              | String c r2 =>
                  let z := code c - 0x80 in
                  if x <? 0xF0 then (x - 0xE0) * 4096 + y * 64 + z :: chars_of r2
                  else
                    match r2 with
                    | EmptyString => []
                    | String d r3 => (x - 0xF0) * 262144 + y * 4096 + z * 64 + (code d - 0x80) :: chars_of r3
                    end
              end
        end
  end.
(* a token without its span *)
Definition tok_of (t : token) : tok := mkTok (tk_type t) (utf8 (tk_text t)).

(* ------------------------------------------------------------------ *)
(* Object identifiers (oid.rs); the components are read and dropped    *)
(* ------------------------------------------------------------------ *)
(* str::parse::<u32> *)
Definition parse_u32 (s : string) : option Z :=
  match (match s with String "+" r => unsigned r | _ => unsigned s end) with
  | Some z => if z <? 2 ^ 32 then Some z else None
  | None => None
  end.
(* 14-29 *)
Definition WELL_KNOWN_OID_NAMES : list string :=
  ["iso"; "itu-t"; "ccitt"; "joint-iso-itu-t"; "joint-iso-ccitt"; "identified-organization"; "network-operator";
   "administration"; "question"]%string.
(* 34-74 *)
Definition parse_named_oid_component (ts : list tok) : res (list tok) :=
  match ts with
  | [] => Err
  | t :: r =>
      if is_value_reference t then
        b <-- attempt (expect_all [is RoundBegin; is NumberInt; is RoundEnd] r) ;;
        match b, r with
        | Some true, _ :: n :: _ :: r' => match parse_u32 (t_text n) with Some _ => Ok r' | None => Err end
        | _, _ => if existsb (String.eqb (t_text t)) WELL_KNOWN_OID_NAMES then Ok r else Err
        end
      else Err
  end.
(* 79-102 *)
Definition parse_oid_component (ts : list tok) : res (list tok) :=
  match ts with
  | [] => Err
  | t :: r =>
      if is Identifier t then parse_named_oid_component ts
      else if is NumberInt t then match parse_u32 (t_text t) with Some _ => Ok r | None => Err end
      else Err
  end.
(* 115-119 *)
Fixpoint oid_loop (n : nat) (ts : list tok) : res (list tok) :=
  match n with
  | O => Diverge
  | S n =>
      stop <-- expect (is CurlyEnd) ts ;;
      if stop then Ok (skipn 1 ts) else r <-- parse_oid_component ts ;; oid_loop n r
  end.
(* 104-125 *)
Definition parse_object_identifier (ts : list tok) : res (list tok) :=
  x <-- take (is CurlyBegin) ts ;; oid_loop (S (List.length (snd x))) (snd x).

(* ------------------------------------------------------------------ *)
(* Classes (types/ioc.rs:19-303)                                       *)
(* ------------------------------------------------------------------ *)
(* structs/types/ioc.rs:8-32 *)
Inductive field_spec :=
| FSType (optional : bool) (default : option asn_type) (syntax : option string)
| FSValue (t : asn_type) (unique optional : bool) (default : option string) (syntax : option string).
(* structs/types/ioc.rs:51-53: a HashMap; the model keeps the order in which
   the fields are first named *)
Definition class := list (string * field_spec).
Definition syntax_of (f : field_spec) : option string := match f with FSType _ _ s | FSValue _ _ _ _ s => s end.
Definition with_syntax (s : string) (f : field_spec) : field_spec :=
  match f with FSType o d _ => FSType o d (Some s) | FSValue t u o d _ => FSValue t u o d (Some s) end.
Definition may_be_absent (f : field_spec) : bool :=
  match f with
  | FSType o d _ => o || match d with Some _ => true | None => false end
  | FSValue _ _ o d _ => o || match d with Some _ => true | None => false end
  end.

(* 66-145 *)
Definition parse_value_field_spec (ts : list tok) : res (string * field_spec * list tok) :=
  id <-- take is_value_field ts ;;
  t <-- parse_type (snd id) ;;
  u <-- attempt (expect (kw "UNIQUE") (snd t)) ;;
  let unique := match u with Some true => true | _ => false end in
  let r := if unique then skipn 1 (snd t) else snd t in
  o <-- expect (kw "OPTIONAL") r ;;
  d <-- expect (kw "DEFAULT") r ;;
  if o then Ok (fst id, FSValue (fst t) unique true None None, skipn 1 r)
  else if d then
    v <-- parse_value (skipn 1 r) ;;
    if unique then Err else Ok (fst id, FSValue (fst t) unique false (Some (fst v)) None, snd v)
  else Ok (fst id, FSValue (fst t) unique false None None, r).
(* 147-201 *)
Definition parse_type_field_spec (ts : list tok) : res (string * field_spec * list tok) :=
  id <-- take is_type_field ts ;;
  let r := snd id in
  o <-- expect (kw "OPTIONAL") r ;;
  d <-- expect (kw "DEFAULT") r ;;
  if o then Ok (fst id, FSType true None None, skipn 1 r)
  else if d then t <-- parse_type (skipn 1 r) ;; Ok (fst id, FSType false (Some (fst t)) None, snd t)
  else Ok (fst id, FSType false None None, r).
(* 56-64 *)
Definition parse_field_spec (ts : list tok) : res (string * field_spec * list tok) :=
  v <-- expect is_value_field ts ;;
  if v then parse_value_field_spec ts
  else t <-- expect is_type_field ts ;; if t then parse_type_field_spec ts else Err.
(* 33-48 *)
Fixpoint fields_loop (n : nat) (fields : class) (ts : list tok) : res (class * list tok) :=
  match n with
  | O => Diverge
  | S n =>
      f <-- parse_field_spec ts ;;
      let fields := replace (fst (fst f)) (snd (fst f)) fields in
      match snd f with
      | [] => Err
      | t :: r => if is Comma t then fields_loop n fields r else if is CurlyEnd t then Ok (fields, r) else Err
      end
  end.
(* slice::split(..).next() *)
Fixpoint words_before (p : tok -> bool) (ts : list tok) : list tok * list tok :=
  match ts with
  | [] => ([], [])
  | t :: r => if p t then ([], ts) else let (w, rest) := words_before p r in (t :: w, rest)
  end.
(* 218-300 *)
Fixpoint with_syntax_loop (n : nat) (optional : bool) (fields : class) (ts : list tok) : res (class * list tok) :=
  match n with
  | O => Diverge
  | S n =>
      g <-- expect (is SquareBegin) ts ;;
      let optional := g || optional in
      let (words, r) := words_before (is AndIdentifier) (if g then skipn 1 ts else ts) in
      if existsb is_reserved_word words then Err
      else
        id <-- take (is AndIdentifier) r ;;
        match lookup (fst id) fields with
        | None => Err
        | Some f =>
            if optional && negb (may_be_absent f) then Err
            else
              let fields := replace (fst id) (with_syntax (concat_tokens words " ") f) fields in
              r <-- skip_if (is Comma) (snd id) ;;
              e <-- expect (is SquareEnd) r ;;
              o <-- (if e then if optional then Ok false else Err else Ok optional) ;;
              let r := if e then skipn 1 r else r in
              stop <-- expect (is CurlyEnd) r ;;
              if stop then if o then Err else Ok (fields, skipn 1 r) else with_syntax_loop n o fields r
        end
  end.
(* 203-303 *)
Definition parse_with_syntax (fields : class) (ts : list tok) : res (class * list tok) :=
  b <-- expect_all [kw "WITH"; kw "SYNTAX"] ts ;;
  if b then x <-- take (is CurlyBegin) (skipn 2 ts) ;; with_syntax_loop (S (List.length (snd x))) false fields (snd x)
  else Ok (fields, ts).
(* 19-54 *)
Definition parse_class (ts : list tok) : res (class * list tok) :=
  x <-- take (kw "CLASS") ts ;;
  x <-- take (is CurlyBegin) (snd x) ;;
  f <-- fields_loop (S (List.length (snd x))) [] (snd x) ;;
  parse_with_syntax (fst f) (snd f).

(* ------------------------------------------------------------------ *)
(* Object sets (types/ioc.rs:305-382)                                  *)
(* ------------------------------------------------------------------ *)
(* structs/types/ioc.rs:172-176; an object is still text *)
Inductive parsed_element := PSetRef (r : string) | PObjectRef (r : string) | PInput (s : string).
(* 316-374 *)
Fixpoint object_set_loop (n : nat) (root additional : list parsed_element) (marker : bool) (ts : list tok)
    : res (list parsed_element * list parsed_element * list tok) :=
  match n with
  | O => Diverge
  | S n =>
      m <-- expect (is Extension) ts ;;
      ts <-- (if m then if marker then Err else skip_if (is Comma) (skipn 1 ts) else Ok ts) ;;
      let marker := m || marker in
      v <-- attempt (parse_set_ish_value ts) ;;
      e <-- match v with
            | Some x => Ok (Some (PInput (fst x)), snd x)
            | None =>
                match ts with
                | [] => Err
                | t :: r =>
                    if is_value_reference t then Ok (Some (PObjectRef (t_text t)), r)
                    else if is_type_reference t then Ok (Some (PSetRef (t_text t)), r)
                    else Ok (None, ts)
                end
            end ;;
      let '(root, additional) :=
        match fst e with
        | None => (root, additional)
        | Some x => if marker then (root, additional ++ [x]) else (root ++ [x], additional)
        end in
      ts <-- skip_if (is Comma) (snd e) ;;
      ts <-- skip_if is_union ts ;;
      stop <-- expect (is CurlyEnd) ts ;;
      if stop then Ok (root, additional, skipn 1 ts) else object_set_loop n root additional marker ts
  end.
(* 305-382 *)
Definition parse_object_set (ts : list tok) : res (list parsed_element * list parsed_element * list tok) :=
  x <-- take (is CurlyBegin) ts ;; object_set_loop (S (List.length (snd x))) [] [] false (snd x).

(* ------------------------------------------------------------------ *)
(* Definitions (defs.rs)                                               *)
(* ------------------------------------------------------------------ *)
(* structs/defs.rs:84-92 *)
Inductive parsed_assignment :=
| PAValue (typeref : asn_type) (value : string)
| PAType (t : asn_type)
| PAClass (c : class)
| PAObject (cls : string) (input : string)
| PAObjectSet (cls : string) (root additional : list parsed_element).
Record parsed_def := mkParsed { pd_id : string; pd_kind : parsed_assignment; pd_params : option params }.

Definition is_governor (t : tok) : bool := is_type_reference t || is_builtin_type t || is_class_reference t.
Definition is_dummy (t : tok) : bool := is_value_reference t || is_type_reference t.
(* 370-464; only the names of the parameters are kept *)
Fixpoint params_loop (n : nat) (acc : list string) (ts : list tok) : res (list string * list tok) :=
  match n with
  | O => Diverge
  | S n =>
      b <-- expect_all [is_governor; is Colon; is_dummy] ts ;;
      x <-- (if b then take is_dummy (skipn 2 ts) else take (fun t => is_type_reference t || is_class_reference t) ts) ;;
      let acc := acc ++ [fst x] in
      r <-- skip_if (is Comma) (snd x) ;;
      stop <-- expect (is CurlyEnd) r ;;
      if stop then Ok (acc, skipn 1 r) else params_loop n acc r
  end.
(* 361-472 *)
Definition parse_params (ts : list tok) : res (list string * list tok) :=
  x <-- take (is CurlyBegin) ts ;; params_loop (S (List.length (snd x))) [] (snd x).
(* 138-181 *)
Definition parse_object_assignment (ts : list tok) : res (parsed_def * list tok) :=
  b <-- expect_all [is_value_reference; is_class_reference] ts ;;
  match b, ts with
  | true, i :: c :: r =>
      x <-- take (is Assignment) r ;;
      v <-- parse_set_ish_value (snd x) ;;
      Ok (mkParsed (t_text i) (PAObject (t_text c) (fst v)) None, snd v)
  | _, _ => Err
  end.
(* 186-214 *)
Definition parse_value_assignment (ts : list tok) : res (parsed_def * list tok) :=
  id <-- take is_value_reference ts ;;
  t <-- parse_type (snd id) ;;
  x <-- take (is Assignment) (snd t) ;;
  v <-- parse_value (snd x) ;;
  Ok (mkParsed (fst id) (PAValue (fst t) (fst v)) None, snd v).
(* 120-133 *)
Definition parse_valueish (ts : list tok) : res (parsed_def * list tok) :=
  o <-- attempt (parse_object_assignment ts) ;;
  match o with Some x => Ok x | None => parse_value_assignment ts end.
(* 244-286 *)
Definition parse_type_assignment (ts : list tok) : res (parsed_def * list tok) :=
  id <-- take is_type_reference ts ;;
  p <-- attempt (parse_params (snd id)) ;;
  let r := match p with Some x => snd x | None => snd id end in
  x <-- take (is Assignment) r ;;
  t <-- parse_type (snd x) ;;
  Ok (mkParsed (fst id) (PAType (fst t)) (match p with Some q => Some (fst q, before (snd x) (snd t)) | None => None end), snd t).
(* 292-320 *)
Definition parse_class_assignment (ts : list tok) : res (parsed_def * list tok) :=
  id <-- take is_class_reference ts ;;
  x <-- take (is Assignment) (snd id) ;;
  c <-- parse_class (snd x) ;;
  Ok (mkParsed (fst id) (PAClass (fst c)) None, snd c).
(* 325-359 *)
Definition parse_object_set_assignment (ts : list tok) : res (parsed_def * list tok) :=
  id <-- take is_type_reference ts ;;
  c <-- take is_class_reference (snd id) ;;
  x <-- take (is Assignment) (snd c) ;;
  s <-- parse_object_set (snd x) ;;
  Ok (mkParsed (fst id) (PAObjectSet (fst c) (fst (fst s)) (snd (fst s))) None, snd s).
(* 221-239 *)
Definition parse_typeish (ts : list tok) : res (parsed_def * list tok) :=
  t <-- attempt (parse_type_assignment ts) ;;
  match t with
  | Some x => Ok x
  | None =>
      c <-- attempt (parse_class_assignment ts) ;;
      match c with Some x => Ok x | None => parse_object_set_assignment ts end
  end.
(* 96-113 *)
Definition parse_definition (ts : list tok) : res (parsed_def * list tok) :=
  match ts with
  | [] => Err
  | t :: _ => if is_value_reference t then parse_valueish ts else if is_type_reference t then parse_typeish ts else Err
  end.
(* 63-87 *)
Definition substitute (source target : string) (ts : list tok) : list tok :=
  map (fun t => if String.eqb (t_text t) source then mkTok (t_type t) target else t) ts.
Definition apply_params (d : definition) (actual : list actual_param) : res asn_type :=
  match d_params d with
  | None => Err
  | Some (ordered, type_tokens) =>
      if Nat.eqb (List.length ordered) (List.length actual) then
        let ts := fold_left (fun ts p => substitute (fst p) (param_string (snd p)) ts) (combine ordered actual) type_tokens in
        t <-- parse_type ts ;; Ok (fst t)
      else Err
  end.

(* ------------------------------------------------------------------ *)
(* Modules (module.rs)                                                 *)
(* ------------------------------------------------------------------ *)
Record parsed_module := mkParsedModule {
  pm_name : string; pm_imports : list (string * string); pm_defs : list (string * parsed_def) }.
(* 170-210 *)
Definition parse_module_name (ts : list tok) : res (string * list tok) :=
  x <-- take is_type_reference ts ;;
  match snd x with
  | t :: _ => if is CurlyBegin t then r <-- parse_object_identifier (snd x) ;; Ok (fst x, r) else Ok x
  | [] => Ok x
  end.
(* 111-120 *)
Fixpoint imported_loop (n : nat) (acc : list string) (ts : list tok) : res (list string * list tok) :=
  match n with
  | O => Diverge
  | S n =>
      stop <-- expect (kw "FROM") ts ;;
      if stop then Ok (acc, skipn 1 ts)
      else
        match ts with
        | [] => Err
        | t :: r =>
            r <-- skip_if (is Comma) r ;;
            imported_loop n (if is Identifier t then acc ++ [t_text t] else acc) r
        end
  end.
(* 109-136 *)
Fixpoint imports_loop (n : nat) (imports : list (string * string)) (ts : list tok) : res (list (string * string) * list tok) :=
  match n with
  | O => Diverge
  | S n =>
      d <-- imported_loop (S (List.length ts)) [] ts ;;
      name <-- parse_module_name (snd d) ;;
      imports <-- rfold (fun m k => match lookup k m with Some _ => Err | None => Ok (m ++ [(k, fst name)]) end) imports (fst d) ;;
      stop <-- expect (is SemiColon) (snd name) ;;
      if stop then Ok (imports, skipn 1 (snd name)) else imports_loop n imports (snd name)
  end.
(* 99-140 *)
Definition parse_module_imports (ts : list tok) : res (list (string * string) * list tok) :=
  b <-- expect (kw "IMPORTS") ts ;;
  if b then imports_loop (S (List.length ts)) [] (skipn 1 ts) else Ok ([], ts).
(* 142-168; the kind of tags is not used *)
Definition skip_header_tags (ts : list tok) : res (list tok) :=
  b <-- expect (fun t => kw "EXPLICIT" t || kw "IMPLICIT" t || kw "AUTOMATIC" t) ts ;;
  if b then x <-- take (kw "TAGS") (skipn 1 ts) ;; Ok (snd x) else Ok ts.
(* 80-85 *)
Fixpoint definitions_loop (n : nat) (defs : list (string * parsed_def)) (ts : list tok) : res (list (string * parsed_def) * list tok) :=
  match n with
  | O => Diverge
  | S n =>
      stop <-- expect (kw "END") ts ;;
      if stop then Ok (defs, skipn 1 ts)
      else d <-- parse_definition ts ;; definitions_loop n (replace (pd_id (fst d)) (fst d) defs) (snd d)
  end.
(* 45-97 *)
Definition parse_module (ts : list tok) : res (parsed_module * list tok) :=
  name <-- parse_module_name ts ;;
  x <-- take (kw "DEFINITIONS") (snd name) ;;
  r <-- skip_header_tags (snd x) ;;
  x <-- take (is Assignment) r ;;
  x <-- take (kw "BEGIN") (snd x) ;;
  i <-- parse_module_imports (snd x) ;;
  d <-- definitions_loop (S (List.length (snd i))) [] (snd i) ;;
  Ok (mkParsedModule (fst name) (fst i) (fst d), snd d).
(* parser/int.rs:21-28 *)
Fixpoint modules_loop (n : nat) (acc : list parsed_module) (ts : list tok) : res (list parsed_module) :=
  match n with
  | O => Diverge
  | S n =>
      m <-- parse_module ts ;;
      match snd m with [] => Ok (acc ++ [fst m]) | r => modules_loop n (acc ++ [fst m]) r end
  end.
(* parser/int.rs:15-30 *)
Definition parse (tokens : list token) : res (list parsed_module) :=
  let ts := map tok_of (filter (fun t => negb (token_type_beq (tk_type t) Comment)) tokens) in
  modules_loop (S (List.length ts)) [] ts.

(* ------------------------------------------------------------------ *)
(* Objects (types/ioc.rs:384-553, module.rs:20-42)                     *)
(* ------------------------------------------------------------------ *)
(* str::split_whitespace *)
Fixpoint split_space (cur s : string) : list string :=
  match s with
  | EmptyString => match cur with EmptyString => [] | _ => [cur] end
  | String c r =>
      if is_space c then match cur with EmptyString => split_space EmptyString r | _ => cur :: split_space EmptyString r end
      else split_space (cur ++ String c EmptyString)%string r
  end.
(* slice::split *)
Fixpoint split_tokens (p : tok -> bool) (cur ts : list tok) : list (list tok) :=
  match ts with
  | [] => [cur]
  | t :: r => if p t then cur :: split_tokens p [] r else split_tokens p (cur ++ [t]) r
  end.
(* 512-531 *)
Fixpoint field_with_words (words : string) (c : class) : option (string * field_spec) :=
  match c with
  | [] => None
  | (k, f) :: r =>
      match syntax_of f with
      | Some s => if String.eqb s words then Some (k, f) else field_with_words words r
      | None => field_with_words words r
      end
  end.
(* 533-553 *)
Definition value_from_field_spec (f : field_spec) (ts : list tok) : res (object_field * list tok) :=
  match f with
  | FSType _ _ _ => t <-- parse_type ts ;; Ok (OFType (Some (fst t)), snd t)
  | FSValue t _ _ _ _ => v <-- parse_value ts ;; Ok (OFValue t (Some (fst v)), snd v)
  end.
(* 454-473 *)
Fixpoint object_loop (c : class) (object_tokens : list tok) (consumed : nat) (fields : list (string * object_field))
    (segments : list (list tok)) : res (list (string * object_field)) :=
  match segments with
  | [] => Ok fields
  | words :: segments =>
      let consumed := (consumed + List.length words)%nat in
      match field_with_words (concat_tokens words " ") c with
      | None => object_loop c object_tokens consumed fields segments
      | Some (k, f) =>
          ts <-- slice_from consumed object_tokens ;;
          v <-- value_from_field_spec f ts ;;
          let fields := replace k (fst v) fields in
          let consumed := (List.length object_tokens - List.length (snd v))%nat in
          if Nat.eqb consumed (List.length object_tokens) then Ok fields
          else object_loop c object_tokens consumed fields segments
      end
  end.
(* 477-507 *)
Definition default_fields (c : class) (fields : list (string * object_field)) : list (string * object_field) :=
  fold_left (fun acc kf =>
    match lookup (fst kf) acc with
    | Some _ => acc
    | None =>
        match snd kf with
        | FSType _ (Some t) _ => acc ++ [(fst kf, OFType (Some t))]
        | FSValue t _ _ (Some v) _ => acc ++ [(fst kf, OFValue t (Some v))]
        | _ => acc
        end
    end) c fields.

Section Objects.
Context (is_numeric : Z -> bool).
(* 435-510 *)
Definition parse_object_from_class (value : string) (c : class) : res object_value :=
  tokens <-- tokenize is_numeric (chars_of value) ;;
  let ts := map tok_of tokens in
  if Nat.ltb (List.length ts) 2 then Panic                               (* tokens[1..tokens.len() - 1] *)
  else
    let object_tokens := removelast (skipn 1 ts) in
    let words := flat_map (fun kf : string * field_spec =>
                   match syntax_of (snd kf) with Some s => split_space EmptyString s | None => [] end) c in
    let segments := split_tokens (fun t => negb (existsb (String.eqb (t_text t)) words)) [] object_tokens in
    fields <-- object_loop c object_tokens 0 [] segments ;;
    Ok (Some (default_fields c fields)).
(* 384-425: pop and push, which turns the lists round *)
Definition element_from_class (c : class) (e : parsed_element) : res set_element :=
  match e with
  | PInput s => v <-- parse_object_from_class s c ;; Ok (OObject v)
  | PSetRef r => Ok (OSetRef r)
  | PObjectRef r => Ok (OObjectRef r)
  end.
Definition class_field_of (f : field_spec) : class_field :=
  match f with FSType _ _ _ => CFType | FSValue t u _ _ _ => CFValue t u end.
(* structs/defs.rs:44-61, module.rs:20-42, for one definition *)
Definition resolve_object_class (classes : list (string * class)) (d : parsed_def) : res definition :=
  a <-- match pd_kind d with
        | PAValue t v => Ok (DKValue t v)
        | PAType t => Ok (DKType t)
        | PAClass c => Ok (DKClass (map (fun kf => (fst kf, class_field_of (snd kf))) c))
        | PAObject cls input =>
            match lookup cls classes with
            | None => Err
            | Some c => v <-- parse_object_from_class input c ;; Ok (DKObject cls v)
            end
        | PAObjectSet cls root additional =>
            match lookup cls classes with
            | None => Err
            | Some c =>
                r <-- rmap (element_from_class c) (rev root) ;;
                a <-- rmap (element_from_class c) (rev additional) ;;
                Ok (DKObjectSet cls r a)
            end
        end ;;
  Ok (mkDef a (pd_params d)).
Definition classes_of (m : parsed_module) (classes : list (string * class)) : list (string * class) :=
  fold_left (fun cs kd => match pd_kind (snd kd) with PAClass c => replace (fst kd) c cs | _ => cs end) (pm_defs m) classes.
(* resolver/int.rs:50-52 for the modules in the order in which they are
   resolved.  Rust does this for a module right before it resolves its
   definitions; here it is done for all of them first, so that of two
   failures another one may come first. *)
Fixpoint link (modules : list (string * parsed_module)) (classes : list (string * class)) (order : list string)
    : res (list (string * module)) :=
  match order with
  | [] => Ok []
  | name :: order =>
      match lookup name modules with
      | None => Panic                                                    (* unwrap *)
      | Some pm =>
          let classes := classes_of pm classes in
          defs <-- rmap (fun kd => d <-- resolve_object_class classes (snd kd) ;; Ok (fst kd, d)) (pm_defs pm) ;;
          rest <-- link modules classes order ;;
          Ok ((name, mkModule (pm_imports pm) defs) :: rest)
      end
  end.

(* ------------------------------------------------------------------ *)
(* Parameterized types (resolver/asn/types/int.rs:81-92)               *)
(* ------------------------------------------------------------------ *)
(* `depth` bounds the nesting of references; Rust has the stack *)
Fixpoint instantiate (E : env) (depth : nat) (st : resolver) (r : string) (actual : list actual_param) : res rtype :=
  match depth with
  | O => Diverge
  | S n =>
      match lookup r (parameterized_defs st) with
      | None => Err
      | Some d => t <-- apply_params d actual ;; resolve_type E (resolved_defs st) (instantiate E n st) t
      end
  end.

(* ------------------------------------------------------------------ *)
(* The compiler (src/bin/hampi-asn1c.rs:11-32)                         *)
(* ------------------------------------------------------------------ *)
(* 13-29: the modules of a file are added last first *)
Definition add_file (modules : list (string * parsed_module)) (text : list Z) : res (list (string * parsed_module)) :=
  tokens <-- tokenize is_numeric text ;;
  ms <-- parse tokens ;;
  Ok (fold_left (fun acc m => replace (pm_name m) m acc) (rev ms) modules).
Definition add_files (files : list (list Z)) : res (list (string * parsed_module)) := rfold add_file [] files.
End Objects.
(* the modules as far as their imports go (compiler.rs:122-160) *)
Definition stubs (modules : list (string * parsed_module)) : list (string * module) :=
  map (fun nm => (fst nm, mkModule (pm_imports (snd nm)) [])) modules.
(* 30-32.  `orders` are the orders in which modules and definitions are
   resolved. *)
Definition compile_files (is_numeric : Z -> bool) (E : env) (depth fuel : nat) (files : list (list Z))
    (orders : list (string * list string)) : res (list (string * gdef)) :=
  parsed <-- add_files is_numeric files ;;
  _ <-- resolve_imports (stubs parsed) ;;
  linked <-- link is_numeric parsed [] (map fst orders) ;;
  compile E (instantiate E depth) fuel linked orders.
