(* Resolved types (asn-compiler/src/resolver/asn/structs) and the generation
   of Rust definitions from them (asn-compiler/src/generator).  A generated
   definition is represented by its name and by the attributes that
   #[derive(AperCodec)] reads; the items printed from them are in RustModel.v. *)
From Coq Require Import ZArith NArith List Bool String Ascii DecimalString.
Require Import Verif.Base Verif.Asn1Model.
Import ListNotations.
Open Scope Z_scope.

(* ------------------------------------------------------------------ *)
(* resolver/asn/structs/types                                          *)
(* ------------------------------------------------------------------ *)
Inductive rtype :=
| RInteger (i : resolved_integer)
(* base.rs:45-71: bits 8, unsigned (resolver enumerated.rs:61-62); root_values
   and ext_values are not read by the generator *)
| REnumerated (extensible : bool) (named_root : list (string * Z))
| RBitString (size : option value_set)
| RBoolean
| RNull
| ROctetString (size : option value_set)
| RCharString (str_type : string) (size : option value_set)
| ROid
| RChoice (root : list (string * rtype)) (additions : option (list (string * rtype)))
| RSequence (extensible : bool) (components : list rcomp)
| RSequenceOf (t : rtype) (size : option value_set)
| RReference (r : string)
(* mod.rs:9-15: entries of the BTreeMap (name, value) => (value, type), in
   key order; the value is a decimal number, kept as the number *)
| RSet (setref : string) (types : list (string * Z * rtype))
with rcomp := mkRComp (id : string) (t : rtype) (optional key_field : bool).

Definition rc_id (c : rcomp) : string := match c with mkRComp i _ _ _ => i end.
Definition rc_ty (c : rcomp) : rtype := match c with mkRComp _ t _ _ => t end.
Definition rc_optional (c : rcomp) : bool := match c with mkRComp _ _ o _ => o end.
Definition rc_key (c : rcomp) : bool := match c with mkRComp _ _ _ k => k end.

(* ------------------------------------------------------------------ *)
(* Names (generator/int.rs)                                            *)
(* ------------------------------------------------------------------ *)
Definition code (c : ascii) : Z := Z.of_N (N_of_ascii c).
Definition is_lower (c : ascii) : bool := (97 <=? code c) && (code c <=? 122).
Definition is_upper (c : ascii) : bool := (65 <=? code c) && (code c <=? 90).
Definition is_digit (c : ascii) : bool := (48 <=? code c) && (code c <=? 57).
Definition is_alnum (c : ascii) : bool := is_lower c || is_upper c || is_digit c.
Definition to_upper (c : ascii) : ascii := if is_lower c then ascii_of_N (N_of_ascii c - 32) else c.
Definition to_lower (c : ascii) : ascii := if is_upper c then ascii_of_N (N_of_ascii c + 32) else c.
Fixpoint smap (f : ascii -> ascii) (s : string) : string :=
  match s with EmptyString => EmptyString | String c r => String (f c) (smap f r) end.

(* 147-157; a first character of more than one byte panics in split_at_mut,
   it is left alone here *)
Definition capitalize_first (s : string) : string :=
  match s with EmptyString => EmptyString | String c r => String (to_upper c) r end.
(* 68-73 *)
Definition to_type_ident (s : string) : string :=
  smap (fun c => if Ascii.eqb c "-" || Ascii.eqb c " " then "_"%char else c) (capitalize_first s).
(* format!("{}", n) *)
Definition decimal (n : N) : string := NilZero.string_of_uint (N.to_uint n).

(* The words of heck 0.4 (ASCII letters and digits only): a word ends at a
   character that is neither, between a lower and an upper case letter, and
   before the last of several upper case letters followed by a lower case
   one. *)
Inductive word_mode := Boundary | Lowercase | Uppercase.
Fixpoint heck_words (mode : word_mode) (word : string) (s : string) : list string :=
  let flush (l : list string) := match word with EmptyString => l | _ => word :: l end in
  match s with
  | EmptyString => flush []
  | String c r =>
      if negb (is_alnum c) then flush (heck_words Boundary EmptyString r)
      else
        let next_mode := if is_lower c then Lowercase else if is_upper c then Uppercase else mode in
        match r with
        | String n _ =>
            if negb (is_alnum n) then (word ++ String c EmptyString)%string :: heck_words Boundary EmptyString r
            else match next_mode with
                 | Lowercase =>
                     if is_upper n then (word ++ String c EmptyString)%string :: heck_words Boundary EmptyString r
                     else heck_words next_mode (word ++ String c EmptyString)%string r
                 | _ =>
                     match mode with
                     | Uppercase =>
                         if is_upper c && is_lower n then flush (heck_words Boundary (String c EmptyString) r)
                         else heck_words next_mode (word ++ String c EmptyString)%string r
                     | _ => heck_words next_mode (word ++ String c EmptyString)%string r
                     end
                 end
        | EmptyString => [(word ++ String c EmptyString)%string]
        end
  end.
Definition to_snake_case (s : string) : string :=
  String.concat "_" (map (smap to_lower) (heck_words Boundary EmptyString s)).
Definition to_shouty_snake_case (s : string) : string :=
  String.concat "_" (map (smap to_upper) (heck_words Boundary EmptyString s)).
(* 75-77 *)
Definition to_const_ident (s : string) : string := to_shouty_snake_case s.
(* 79-85 *)
Definition to_value_ident (s : string) : string :=
  let v := to_snake_case (capitalize_first s) in if String.eqb v "type" then "typ"%string else v.

(* ------------------------------------------------------------------ *)
(* Generated definitions                                               *)
(* ------------------------------------------------------------------ *)
(* sz_extensible, sz_lb, sz_ub; None when the type has no SIZE *)
Definition size_attrs := option (bool * option Z * option Z).
(* struct field: name, optional_idx, key_field, type *)
Record gfield := mkField { gf_name : string; gf_optional : option Z; gf_key : bool; gf_type : string }.
(* enum variant: name, key, extended, type *)
Record gvariant := mkVariant { gv_name : string; gv_key : Z; gv_extended : bool; gv_type : string }.

Inductive gdef :=
| GInteger (width : Z) (signed : bool) (lb ub : option Z) (extensible : bool)
| GEnumerated (ub : Z) (extensible : bool) (consts : list (string * Z))
| GBitString (size : size_attrs)
| GBoolean
| GNull
| GOctetString (size : size_attrs)
| GCharString (str_type : string) (size : size_attrs)
| GOid
| GChoice (lb ub : Z) (extensible : bool) (variants : list gvariant)
| GSequence (extensible : bool) (optional_fields : option Z) (fields : list gfield)
| GSequenceOf (size : size_attrs) (t : string)
| GAlias (t : string)
(* attributed is false when #[asn(type = "OPEN")] is missing *)
| GOpen (attributed : bool) (variants : list gvariant).

(* generator/int.rs:14-26; items are returned, not stored *)
Record gstate := mkG { counter : N; aux_items : list (string * gdef) }.
Definition G (A : Type) := gstate -> res (A * gstate).
Definition gret {A} (a : A) : G A := fun s => Ok (a, s).
Definition gbind {A B} (m : G A) (f : A -> G B) : G B := fun s =>
  match m s with Ok (a, s') => f a s' | Err => Err | Panic => Panic | Diverge => Diverge end.
Notation "x <~ m ;; f" := (gbind m (fun x => f)) (at level 61, m at next level, right associativity).
Definition glift {A} (r : res A) : G A := fun s => a <-- r ;; Ok (a, s).
Definition new_generator := mkG 1 [].                                    (* 29-36 *)
(* 127-131 *)
Definition get_unique_name (name : string) : G string := fun s =>
  let c := (counter s + 1)%N in
  Ok ((name ++ " " ++ decimal c)%string, mkG c (aux_items s)).
Definition push_aux (i : string * gdef) : G unit := fun s => Ok (tt, mkG (counter s) (aux_items s ++ [i])).

(* 87-105: the width of the Rust integer type *)
Definition inner_width (bits : Z) : Z :=
  if bits =? 8 then 8 else if bits =? 16 then 16 else if bits =? 32 then 32 else 64.
(* 107-125 *)
Definition suffixed_literal (bits : Z) (signed : bool) (v : Z) : Z :=
  if signed then wrap_s (inner_width bits) v else wrap_u (inner_width bits) v.

Section Generate.
Context (E : env).

(* generator/asn/types/constraints.rs:9-30 *)
Definition size_attributes (size : option value_set) : res size_attrs :=
  match size with
  | None => Ok None
  | Some vs => ub <-- cv_max E (root_values vs) ;; Ok (Some (has_extension vs, cv_min (root_values vs), ub))
  end.
(* generator/asn/types/base/integer.rs:12-63, 75-84 *)
Definition generate_integer (i : resolved_integer) : res gdef :=
  match int_constraints i with
  | None => Ok (GInteger (inner_width (int_bits i)) (int_signed i) None None false)
  | Some vs =>
      ub <-- cv_max E (root_values vs) ;;
      Ok (GInteger (inner_width (int_bits i)) (int_signed i) (cv_min (root_values vs)) ub (has_extension vs))
  end.
(* generator/asn/types/base/enumerated.rs:12-55 *)
Definition generate_enumerated (extensible : bool) (named_root : list (string * Z)) : res gdef :=
  ub <-- arith_usize E (zlen named_root - 1) ;;
  Ok (GEnumerated ub extensible
        (map (fun nv => (to_const_ident (fst nv), suffixed_literal 8 false (snd nv))) named_root)).
Definition gsize (size : option value_set) (f : size_attrs -> gdef) : G gdef :=
  a <~ glift (size_attributes size) ;; gret (f a).

(* generate_ident_and_aux_type of the base types: the name that is made
   unique *)
Definition aux_base_name (t : rtype) : option string :=
  match t with
  | RInteger _ => Some "INTEGER"
  | REnumerated _ _ => Some "ENUMERATED"
  | RBitString _ => Some "BIT STRING"
  | RBoolean => Some "BOOLEAN"
  | RNull => Some "NULL"
  | ROctetString _ => Some "OCTET STRING"
  | RCharString _ _ => Some "CharacterString"
  | ROid => Some "OBJECT IDENTIFIER"
  | _ => None
  end%string.
(* constructed/mod.rs:56-76, when the caller gives no name *)
Definition aux_constructed_name (t : rtype) : string :=
  match t with RSequence _ _ => "Sequence" | RChoice _ _ => "Choice" | _ => "SeqOf" end%string.

(* generator/asn/types/int.rs:27-44: the identifier by which a component of
   type t is known.  `gen` is the generation of t under a given name. *)
Definition name_maybe_aux (gen : string -> G gdef) (t : rtype) (input : option string) : G string :=
  match t with
  | RReference r => gret (to_type_ident r)
  | RSet setref _ =>                                                     (* int.rs:84-107 *)
      let name := match input with Some i => i | None => setref end in
      d <~ gen name ;;
      let d := match d with GOpen _ vs => GOpen true vs | d => d end in
      _ <~ push_aux (to_type_ident name, d) ;;
      gret (to_type_ident name)
  | _ =>
      name <~ (match aux_base_name t with
               | Some base => get_unique_name base
               | None => match input with
                         | Some i => gret i
                         | None => get_unique_name (aux_constructed_name t)
                         end
               end) ;;
      d <~ gen name ;;
      _ <~ push_aux (to_type_ident name, d) ;;
      gret (to_type_ident name)
  end.

(* int.rs:12-25, constructed/*.rs and ResolvedSetType::generate (int.rs:68-82) *)
Fixpoint generate_for_type (t : rtype) (name : string) {struct t} : G gdef :=
  match t with
  | RInteger i => glift (generate_integer i)
  | REnumerated ext l => glift (generate_enumerated ext l)
  | RBitString size => gsize size GBitString
  | RBoolean => gret GBoolean
  | RNull => gret GNull
  | ROctetString size => gsize size GOctetString
  | RCharString ty size => gsize size (GCharString ty)
  | ROid => gret GOid
  | RReference r => gret (GAlias (to_type_ident r))                      (* int.rs:53-64 *)
  (* constructed/choice.rs:21-72, 74-136, 204-226 *)
  | RChoice root additions =>
      let tokens (extended : bool) : Z -> list (string * rtype) -> G (list gvariant) :=
        fix go i l :=
          match l with
          | [] => gret []
          | (id, t) :: r =>
              ty <~ name_maybe_aux (generate_for_type t) t (Some (name ++ id)%string) ;;
              vs <~ go (i + 1) r ;;
              gret (mkVariant (to_type_ident id) i extended ty :: vs)
          end in
      roots <~ tokens false 0 root ;;
      adds <~ (match additions with Some l => tokens true 0 l | None => gret [] end) ;;
      ub <~ glift (arith_usize E (zlen root - 1)) ;;
      gret (GChoice 0 ub (match additions with Some _ => true | None => false end) (roots ++ adds))
  (* constructed/seq.rs:13-90 *)
  | RSequence ext comps =>
      let tokens : Z -> list rcomp -> G (list gfield * Z) :=
        fix go n l :=
          match l with
          | [] => gret ([], n)
          | mkRComp id t optional key :: r =>
              ty <~ name_maybe_aux (generate_for_type t) t (Some (name ++ to_type_ident id)%string) ;;
              p <~ go (if optional then n + 1 else n) r ;;
              gret (mkField (to_value_ident id) (if optional then Some n else None) key ty :: fst p, snd p)
          end in
      p <~ tokens 0 comps ;;
      gret (GSequence ext (if 0 <? snd p then Some (snd p) else None) (fst p))
  (* constructed/seqof.rs:13-49 *)
  | RSequenceOf t size =>
      attrs <~ glift (size_attributes size) ;;
      ty <~ name_maybe_aux (generate_for_type t) t (Some (name ++ "_Entry")%string) ;;
      gret (GSequenceOf attrs ty)
  | RSet setref types =>
      let variants : list (string * Z * rtype) -> G (list gvariant) :=   (* int.rs:109-126 *)
        fix go l :=
          match l with
          | [] => gret []
          | (nm, key, t) :: r =>
              ty <~ name_maybe_aux (generate_for_type t) t None ;;
              vs <~ go r ;;
              gret (mkVariant (to_type_ident nm) key false ty :: vs)
          end in
      vs <~ variants types ;;
      gret (GOpen false vs)
  end.

(* generator/int.rs:40-66, for the resolved types in key order *)
Fixpoint generate_items (defs : list (string * rtype)) : G (list (string * gdef)) :=
  match defs with
  | [] => gret []
  | (k, t) :: r =>
      d <~ generate_for_type t k ;;
      items <~ generate_items r ;;
      gret ((to_type_ident k, d) :: items)
  end.
Definition generate (defs : list (string * rtype)) : res (list (string * gdef)) :=
  p <-- generate_items defs new_generator ;; Ok (fst p ++ aux_items (snd p)).
End Generate.
