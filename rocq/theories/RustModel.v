(* The Rust items the compiler writes (asn-compiler/src/generator) and how the
   derive macro reads them (codecs_derive/src).  An item is kept as far as the
   macro looks at it: attributes as tokens, fields, variants and the paths of
   their types.  syn and quote are modelled by specification: a token stream is
   printed and read back as the same tokens. *)
From Coq Require Import ZArith NArith List Bool String Ascii.
Require Import Verif.Base Verif.Asn1Model Verif.GenModel.
Import ListNotations.
Open Scope string_scope.
Open Scope Z_scope.
Open Scope list_scope.

(* ------------------------------------------------------------------ *)
(* Items                                                               *)
(* ------------------------------------------------------------------ *)
(* tokens of an attribute; integer literals are decimal and have no suffix,
   true and false are identifiers *)
Inductive atok := AIdent (s : string) | AEq | AComma | AMinus | AStr (s : string) | AInt (s : string).
(* #[path], #[path(args)] *)
Record attr := mkAttr { at_path : string; at_args : option (list atok) }.
(* syn::Type::Path with one segment *)
Inductive rty := RPath (id : string) (args : list rty).
(* fields of a struct or variant: (T), (T, U), {a: T}, or none *)
Record rfield := mkRField { rf_attrs : list attr; rf_name : string; rf_ty : rty }.
Inductive rfields := Unnamed (tys : list rty) | Named (fields : list rfield) | Unit.
Record rvariant := mkRVariant { rv_attrs : list attr; rv_name : string; rv_fields : rfields }.
Inductive rdata := RStruct (f : rfields) | REnum (vs : list rvariant).
Inductive ritem :=
| Derived (name : string) (attrs : list attr) (data : rdata)     (* #[derive(Debug, AperCodec)] *)
| TypeAlias (name : string) (t : string).                        (* pub type name = t; *)
Definition item_name (i : ritem) : string := match i with Derived n _ _ => n | TypeAlias n _ => n end.

(* ------------------------------------------------------------------ *)
(* Printing (asn-compiler/src/generator/asn/types)                     *)
(* ------------------------------------------------------------------ *)
(* format!("{}", z) of an i128 *)
Definition show (z : Z) : string := if z <? 0 then ("-" ++ decimal (Z.to_N (- z)))%string else decimal (Z.to_N z).
(* format!("{}", z).parse::<TokenStream>() *)
Definition number (z : Z) : list atok := if z <? 0 then [AMinus; AInt (decimal (Z.to_N (- z)))] else [AInt (decimal (Z.to_N z))].
Definition boolean (b : bool) : atok := AIdent (if b then "true" else "false").
Definition asn (args : list atok) : attr := mkAttr "asn" (Some args).
Definition of_type (s : string) : list atok := [AIdent "type"; AEq; AStr s].
Definition given (name : string) (v : option Z) : list atok :=
  match v with Some z => [AComma; AIdent name; AEq; AStr (show z)] | None => [] end.
(* constraints.rs:9-27 *)
Definition size_tokens (size : size_attrs) : list atok :=
  match size with
  | None => []
  | Some (ext, lb, ub) => [AComma; AIdent "sz_extensible"; AEq; boolean ext] ++ given "sz_lb" lb ++ given "sz_ub" ub
  end.
(* generator/int.rs:87-105 *)
Definition inner_type (width : Z) (signed : bool) : string :=
  if signed then if width =? 8 then "i8" else if width =? 16 then "i16" else if width =? 32 then "i32" else "i64"
  else if width =? 8 then "u8" else if width =? 16 then "u16" else if width =? 32 then "u32" else "u64".
Definition plain_ty (id : string) : rty := RPath id [].
Definition tuple (t : rty) : rdata := RStruct (Unnamed [t]).
(* #(#l),* *)
Fixpoint commas (l : list (list atok)) : list atok :=
  match l with [] => [] | [x] => x | x :: r => x ++ [AComma] ++ commas r end.
(* constructed/seq.rs:37-69: optional_idx brings a comma of its own *)
Definition field_item (f : gfield) : rfield :=
  let attrs := match gf_optional f with Some i => [[AIdent "optional_idx"; AEq] ++ number i ++ [AComma]] | None => [] end
    ++ (if gf_key f then [[AIdent "key_field"; AEq; boolean true]] else []) in
  mkRField (match attrs with [] => [] | _ => [asn (commas attrs)] end) (gf_name f)
    (match gf_optional f with Some _ => RPath "Option" [plain_ty (gf_type f)] | None => plain_ty (gf_type f) end).
(* constructed/choice.rs:79-111 *)
Definition choice_variant (v : gvariant) : rvariant :=
  mkRVariant [asn ([AIdent "key"; AEq] ++ number (gv_key v) ++ [AComma; AIdent "extended"; AEq; boolean (gv_extended v)])]
    (gv_name v) (Unnamed [plain_ty (gv_type v)]).
(* int.rs:109-126 *)
Definition open_variant (v : gvariant) : rvariant :=
  mkRVariant [asn ([AIdent "key"; AEq] ++ number (gv_key v))] (gv_name v) (Unnamed [plain_ty (gv_type v)]).
Definition item_of (nd : string * gdef) : ritem :=
  let (n, d) := nd in
  match d with
  (* base/integer.rs:16-61 *)
  | GInteger w s lb ub ext =>
      Derived n [asn (of_type "INTEGER" ++ given "lb" lb ++ given "ub" ub ++ (if ext then [AComma; AIdent "extensible"; AEq; boolean true] else []))]
        (tuple (plain_ty (inner_type w s)))
  (* base/enumerated.rs:16-41; the constants are not looked at *)
  | GEnumerated ub ext _ =>
      Derived n [asn (of_type "ENUMERATED" ++ (if ext then [AComma; AIdent "extensible"; AEq; boolean true] else []) ++ given "lb" (Some 0) ++ given "ub" (Some ub))]
        (tuple (plain_ty "u8"))
  | GBitString size => Derived n [asn (of_type "BITSTRING" ++ size_tokens size)] (tuple (RPath "BitVec" [plain_ty "u8"; plain_ty "Msb0"]))     (* base/bitstring.rs:12-33 *)
  | GBoolean => Derived n [asn (of_type "BOOLEAN")] (tuple (plain_ty "bool"))                                   (* base/boolean.rs:10-21 *)
  | GNull => Derived n [asn (of_type "NULL")] (RStruct Unit)                                                    (* base/null.rs:10-21 *)
  | GOctetString size => Derived n [asn (of_type "OCTET-STRING" ++ size_tokens size)] (tuple (RPath "Vec" [plain_ty "u8"]))                    (* base/octetstring.rs:12-33 *)
  | GCharString st size => Derived n [asn (of_type st ++ size_tokens size)] (tuple (plain_ty "String"))         (* base/charstring.rs:12-35 *)
  | GOid => Derived n [asn (of_type "OBJECT-IDENTIFIER")] (RStruct Unit)                                        (* base/oid.rs:10-21 *)
  (* constructed/choice.rs:113-135 *)
  | GChoice lb ub ext vs =>
      Derived n [asn (of_type "CHOICE" ++ given "lb" (Some lb) ++ given "ub" (Some ub) ++ [AComma; AIdent "extensible"; AEq; boolean ext])] (REnum (map choice_variant vs))
  (* constructed/seq.rs:72-86 *)
  | GSequence ext n_opt fs =>
      Derived n [asn (of_type "SEQUENCE" ++ [AComma; AIdent "extensible"; AEq; boolean ext] ++
                      match n_opt with Some k => [AComma; AIdent "optional_fields"; AEq] ++ number k | None => [] end)]
        (RStruct (Named (map field_item fs)))
  | GSequenceOf size t => Derived n [asn (of_type "SEQUENCE-OF" ++ size_tokens size)] (tuple (RPath "Vec" [plain_ty t]))                       (* constructed/seqof.rs:25-48 *)
  | GAlias t => TypeAlias n t                                                                                   (* int.rs:53-64 *)
  (* int.rs:68-82, 84-107 *)
  | GOpen attributed vs => Derived n (if attributed then [asn (of_type "OPEN")] else []) (REnum (map open_variant vs))
  end.

(* ------------------------------------------------------------------ *)
(* Attributes as syn 1 reads them: parse_meta                          *)
(* ------------------------------------------------------------------ *)
Inductive lit := LStr (s : string) | LInt (s : string) | LBool (b : bool).
(* NestedMeta: `a = lit`, `a` or a literal alone (a nested list is not
   modelled, it takes parentheses) *)
Inductive meta := NameValue (name : string) (v : lit) | Word (name : string) | Alone (v : lit).
(* syn::Lit::parse: a literal, true or false, or a minus and a number *)
Definition parse_lit (ts : list atok) : option (lit * list atok) :=
  match ts with
  | AStr s :: r => Some (LStr s, r)
  | AInt s :: r => Some (LInt s, r)
  | AMinus :: AInt s :: r => Some (LInt ("-" ++ s)%string, r)
  | AIdent "true" :: r => Some (LBool true, r)
  | AIdent "false" :: r => Some (LBool false, r)
  | _ => None
  end.
(* syn::NestedMeta::parse *)
Definition parse_nested (ts : list atok) : option (meta * list atok) :=
  match ts with
  | AIdent s :: AEq :: r => match parse_lit r with Some (v, r) => Some (NameValue s v, r) | None => None end
  | AIdent s :: r =>
      match parse_lit ts with Some (v, r) => Some (Alone v, r) | None => Some (Word s, r) end
  | _ => match parse_lit ts with Some (v, r) => Some (Alone v, r) | None => None end
  end.
(* Punctuated::parse_terminated *)
Fixpoint parse_metas (fuel : nat) (ts : list atok) : option (list meta) :=
  match fuel with
  | O => None
  | S n =>
      match ts with
      | [] => Some []
      | _ =>
          match parse_nested ts with
          | None => None
          | Some (m, []) => Some [m]
          | Some (m, AComma :: r) => option_map (cons m) (parse_metas n r)
          | Some _ => None
          end
      end
  end.
(* Attribute::parse_meta; an attribute without arguments is no list *)
Definition parse_meta (a : attr) : option (list meta) :=
  match at_args a with Some ts => parse_metas (S (List.length ts)) ts | None => None end.

(* ------------------------------------------------------------------ *)
(* codecs_derive/src/attrs.rs                                          *)
(* ------------------------------------------------------------------ *)
(* 8-36: the attribute itself is kept as whether there is one *)
Record ty_params := mkTyParams {
  tp_ty : option string; tp_lb : option string; tp_ub : option string; tp_ext : option bool;
  tp_sz_lb : option string; tp_sz_ub : option string; tp_sz_ext : option bool; tp_optional : option string; tp_attr : bool }.
Definition no_params := mkTyParams None None None None None None None None false.
(* 57-173: one nested item; None is an error *)
Definition ty_meta (p : ty_params) (m : meta) : option ty_params :=
  let '(mkTyParams ty lb ub ext sz_lb sz_ub sz_ext opt at') := p in
  match m with
  | NameValue n v =>
      if String.eqb n "lb" then match v with LStr s => Some (mkTyParams ty (Some s) ub ext sz_lb sz_ub sz_ext opt at') | _ => None end
      else if String.eqb n "ub" then match v with LStr s => Some (mkTyParams ty lb (Some s) ext sz_lb sz_ub sz_ext opt at') | _ => None end
      else if String.eqb n "type" then match v with LStr s => Some (mkTyParams (Some s) lb ub ext sz_lb sz_ub sz_ext opt at') | _ => None end
      else if String.eqb n "extensible" then match v with LBool b => Some (mkTyParams ty lb ub (Some b) sz_lb sz_ub sz_ext opt at') | _ => None end
      else if String.eqb n "sz_extensible" then match v with LBool b => Some (mkTyParams ty lb ub ext sz_lb sz_ub (Some b) opt at') | _ => None end
      else if String.eqb n "sz_lb" then match v with LStr s => Some (mkTyParams ty lb ub ext (Some s) sz_ub sz_ext opt at') | _ => None end
      else if String.eqb n "sz_ub" then match v with LStr s => Some (mkTyParams ty lb ub ext sz_lb (Some s) sz_ext opt at') | _ => None end
      else if String.eqb n "optional_fields" then match v with LInt s => Some (mkTyParams ty lb ub ext sz_lb sz_ub sz_ext (Some s) at') | _ => None end
      else None
  | _ => None
  end.
(* 198-218 *)
Record fld_params := mkFldParams { fp_key : option string; fp_extended : option bool; fp_optional_idx : option string; fp_key_field : option bool }.
Definition no_fld_params := mkFldParams None None None None.
(* 240-294 *)
Definition fld_meta (p : fld_params) (m : meta) : option fld_params :=
  let '(mkFldParams key extended idx key_field) := p in
  match m with
  | NameValue n v =>
      if String.eqb n "key" then match v with LInt s => Some (mkFldParams (Some s) extended idx key_field) | _ => None end
      else if String.eqb n "extended" then match v with LBool b => Some (mkFldParams key (Some b) idx key_field) | _ => None end
      else if String.eqb n "optional_idx" then match v with LInt s => Some (mkFldParams key extended (Some s) key_field) | _ => None end
      else if String.eqb n "key_field" then match v with LBool b => Some (mkFldParams key extended idx (Some b)) | _ => None end
      else None
  | _ => None
  end.
(* the two loops over attributes and their arguments (42-195, 221-309).
   Errors are collected in Rust and any of them is the outcome. *)
Section Attributes.
Context {P : Type} (one : P -> meta -> option P) (seen : P -> P).
Fixpoint metas (p : P) (ms : list meta) : option P :=
  match ms with [] => Some p | m :: r => match one p m with Some p => metas p r | None => None end end.
Fixpoint attributes (p : P) (l : list attr) : option P :=
  match l with
  | [] => Some p
  | a :: r =>
      if String.eqb (at_path a) "asn" then
        match parse_meta a with
        | Some ms => match metas (seen p) ms with Some p => attributes p r | None => None end
        | None => None
        end
      else None
  end.
End Attributes.
Definition parse_ty_attrs (l : list attr) : option ty_params :=
  attributes ty_meta (fun p => let '(mkTyParams ty lb ub ext sz_lb sz_ub sz_ext opt _) := p in mkTyParams ty lb ub ext sz_lb sz_ub sz_ext opt true) no_params l.
Definition parse_fld_attrs (l : list attr) : option fld_params := attributes fld_meta (fun p => p) no_fld_params l.

(* ------------------------------------------------------------------ *)
(* The impl the macro writes (codecs_derive/src/aper), as the arguments  *)
(* of the codec functions it calls                                      *)
(* ------------------------------------------------------------------ *)
Inductive fimpl :=
| FieldOptional (idx : Z) (ty : string)
| FieldMandatory (key : bool) (ty : string).
Inductive impl :=
| IBoolean | INull | IOid
| IInteger (lb ub : option Z) (ext : bool) (t : rty)
| IEnumerated (lb ub : option Z) (ext : bool) (t : rty)
| IBitString (lb ub : option Z) (ext : bool)
| IOctetString (lb ub : option Z) (ext : bool)
| ICharString (kind : string) (lb ub : option Z) (ext : bool)
| IChoice (lb ub : Z) (ext : bool) (vs : list (Z * bool * rty))
| ISequence (ext : bool) (optional : Z) (fs : list fimpl)
| ISequenceOf (lb ub : option Z) (ext : bool) (t : string)
| IOpen (vs : list (Z * rty)).

(* utils.rs:19-56: parse::<i128>().unwrap() *)
Definition bound (s : option string) : res (option Z) :=
  match s with
  | None => Ok None
  | Some s => match parse_i128 s with Some z => Ok (Some z) | None => Panic end
  end.
Definition flag (b : option bool) : bool := match b with Some b => b | None => false end.
(* The number of a literal that is pasted into the code; rustc refuses one that
   is too large. *)
Definition literal (s : string) : res Z := match parse_i128 s with Some z => Ok z | None => Err end.
(* An argument that is missing in the code: rustc refuses it. *)
Definition argument {A} (a : option A) : res A := match a with Some a => Ok a | None => Err end.
(* the type of a tuple struct with one field (integer.rs:13-33 and others) *)
Definition single (d : rdata) : res rty :=
  match d with RStruct (Unnamed [t]) => Ok t | _ => Err end.
Definition sized (p : ty_params) (d : rdata) (f : option Z -> option Z -> bool -> impl) : res impl :=
  _ <-- single d ;;
  lb <-- bound (tp_sz_lb p) ;; ub <-- bound (tp_sz_ub p) ;;
  Ok (f lb ub (flag (tp_sz_ext p))).

(* seq.rs:184-226 *)
Definition field_type (t : rty) : option (bool * string) :=
  let '(RPath id args) := t in
  if String.eqb id "Option" then match args with RPath inner _ :: _ => Some (true, inner) | [] => None end
  else Some (false, id).
(* seq.rs:56-182; errors are collected in Rust and any of them is the outcome *)
Definition seq_field (f : rfield) : res fimpl :=
  p <-- argument (parse_fld_attrs (rf_attrs f)) ;;
  t <-- argument (field_type (rf_ty f)) ;;
  if fst t then i <-- argument (fp_optional_idx p) ;; z <-- literal i ;; Ok (FieldOptional z (snd t))
  else Ok (FieldMandatory (flag (fp_key_field p)) (snd t)).
Fixpoint collect {A B} (f : A -> res B) (l : list A) : res (list B) :=
  match l with [] => Ok [] | x :: r => y <-- f x ;; ys <-- collect f r ;; Ok (y :: ys) end.
(* seq.rs:7-54; other data than a struct with named fields has no fields *)
Definition derive_sequence (p : ty_params) (d : rdata) : res impl :=
  n <-- (match tp_optional p with Some s => literal s | None => Ok 0 end) ;;
  fs <-- collect seq_field (match d with RStruct (Named fs) => fs | _ => [] end) ;;
  ext <-- argument (tp_ext p) ;;
  Ok (ISequence ext n fs).
(* choice.rs:56-116; a variant without a tuple gives no code, and rustc finds
   the match incomplete *)
Definition choice_variant_impl (v : rvariant) : res (Z * bool * rty) :=
  p <-- argument (parse_fld_attrs (rv_attrs v)) ;;
  k <-- argument (fp_key p) ;; k <-- literal k ;;
  match rv_fields v with
  | Unnamed [t] => x <-- argument (fp_extended p) ;; Ok (k, x, t)
  | _ => Err
  end.
(* choice.rs:8-54 *)
Definition derive_choice (p : ty_params) (d : rdata) : res impl :=
  lb <-- bound (tp_lb p) ;; lb <-- (match lb with Some z => Ok z | None => Panic end) ;;
  ub <-- bound (tp_ub p) ;; ub <-- (match ub with Some z => Ok z | None => Panic end) ;;
  vs <-- collect choice_variant_impl (match d with REnum vs => vs | _ => [] end) ;;
  ext <-- argument (tp_ext p) ;;
  Ok (IChoice lb ub ext vs).
(* open.rs:70-125 *)
Definition open_variant_impl (v : rvariant) : res (Z * rty) :=
  p <-- argument (parse_fld_attrs (rv_attrs v)) ;;
  k <-- argument (fp_key p) ;; k <-- literal k ;;
  match rv_fields v with Unnamed [t] => Ok (k, t) | _ => Err end.
(* open.rs:7-68.  Simplified: an enum with variants that are no tuples is
   refused (rustc refuses the match, if there are other variants). *)
Definition derive_open (d : rdata) : res impl :=
  vs <-- collect open_variant_impl (match d with REnum vs => vs | _ => [] end) ;; Ok (IOpen vs).
(* seqof.rs:7-36, 77-94: #ty without a type is refused by rustc *)
Definition derive_sequence_of (p : ty_params) (d : rdata) : res impl :=
  t <-- single d ;;
  lb <-- bound (tp_sz_lb p) ;; ub <-- bound (tp_sz_ub p) ;;
  inner <-- (let '(RPath _ args) := t in match args with RPath id _ :: _ => Ok id | [] => Err end) ;;
  Ok (ISequenceOf lb ub (flag (tp_sz_ext p)) inner).
Definition derive_number (p : ty_params) (d : rdata) (f : option Z -> option Z -> bool -> rty -> impl) : res impl :=
  t <-- single d ;;
  lb <-- bound (tp_lb p) ;; ub <-- bound (tp_ub p) ;;
  Ok (f lb ub (flag (tp_ext p)) t).
(* aper/mod.rs:18-42 *)
Definition generate_codec (p : ty_params) (ty : string) (d : rdata) : res impl :=
  if String.eqb ty "BOOLEAN" then Ok IBoolean                                                   (* boolean.rs *)
  else if String.eqb ty "CHOICE" then derive_choice p d
  else if String.eqb ty "INTEGER" then derive_number p d IInteger                               (* integer.rs *)
  else if String.eqb ty "ENUMERATED" then derive_number p d IEnumerated                         (* enumerated.rs *)
  else if String.eqb ty "BITSTRING" then sized p d IBitString                                   (* bitstring.rs *)
  else if String.eqb ty "OCTET-STRING" then sized p d IOctetString                              (* octetstring.rs *)
  else if (String.eqb ty "UTF8String" || String.eqb ty "PrintableString" || String.eqb ty "VisibleString") then
    sized p d (ICharString ty)                                                                  (* charstring.rs *)
  else if String.eqb ty "NULL" then Ok INull                                                    (* null.rs *)
  else if String.eqb ty "SEQUENCE" then derive_sequence p d
  else if String.eqb ty "OPEN" then derive_open d
  else if String.eqb ty "SEQUENCE-OF" then derive_sequence_of p d
  else if String.eqb ty "OBJECT-IDENTIFIER" then Ok IOid                                        (* oid.rs *)
  else Err.
(* lib.rs:17-41 *)
Definition derive (attrs : list attr) (d : rdata) : res impl :=
  p <-- argument (parse_ty_attrs attrs) ;;
  if tp_attr p then ty <-- argument (tp_ty p) ;; generate_codec p ty d else Err.
