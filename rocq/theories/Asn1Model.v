(* ASN.1 definitions as the compiler holds them after parsing
   (asn-compiler/src/parser/asn/structs), and the resolution of their
   constraints (asn-compiler/src/resolver/asn/types).  Error messages are
   dropped. *)
From Coq Require Import ZArith List Bool String Ascii.
Require Import Verif.Base.
Import ListNotations.
Open Scope Z_scope.

(* `?` on Result; a panic is passed on. *)
Definition rbind {A B} (m : res A) (f : A -> res B) : res B :=
  match m with Ok a => f a | Err => Err | Panic => Panic | Diverge => Diverge end.
Notation "x <-- m ;; f" := (rbind m (fun x => f)) (at level 61, m at next level, right associativity).
(* `for x in l { acc = f(acc, x)? }` *)
Definition rfold {A B} (f : A -> B -> res A) : A -> list B -> res A :=
  fix go acc l :=
    match l with
    | [] => Ok acc
    | x :: r => acc' <-- f acc x ;; go acc' r
    end.

(* ------------------------------------------------------------------ *)
(* str::parse::<i128>                                                  *)
(* ------------------------------------------------------------------ *)
Definition digit_of (c : ascii) : option Z :=
  let n := Z.of_N (N_of_ascii c) in if (48 <=? n) && (n <=? 57) then Some (n - 48) else None.
Fixpoint digits (acc : Z) (s : string) : option Z :=
  match s with
  | EmptyString => Some acc
  | String c r => match digit_of c with Some d => digits (10 * acc + d) r | None => None end
  end.
Definition unsigned (s : string) : option Z :=
  match s with EmptyString => None | _ => digits 0 s end.
Definition parse_i128 (s : string) : option Z :=
  let z := match s with
           | String "-" r => option_map Z.opp (unsigned r)
           | String "+" r => unsigned r
           | _ => unsigned s
           end in
  match z with Some n => if in_i128 n then Some n else None | None => None end.

(* ------------------------------------------------------------------ *)
(* structs/types/*.rs                                                  *)
(* ------------------------------------------------------------------ *)
(* structs/types/base.rs:3-7 *)
Inductive named_value := Number (s : string) | ValueRef (s : string).
(* structs/types/base.rs:15-19 *)
Record enum_value := mkEnumValue { ev_name : string; ev_value : option named_value }.
(* structs/types/mod.rs:71-74 *)
Inductive actual_param := PSet (s : string) | PSingle (s : string).
Definition param_string (p : actual_param) : string := match p with PSet s | PSingle s => s end.
(* structs/types/constraints.rs:44-55 *)
Inductive table_constraint :=
| TableSimple (set : string)
| TableRelation (table component : string).

(* structs/types/mod.rs:16-28, without the named bits and named values that
   nothing after the parser reads *)
Inductive builtin :=
| BInteger
| BEnumerated (root : list enum_value) (ext_marker : bool) (ext : list enum_value)
| BBitString
| BBoolean
| BNull
| BOctetString
| BObjectIdentifier
| BRelativeOid
| BCharacterString (str_type : string).
(* structs/types/mod.rs:91-103 *)
Inductive type_ref :=
| RefName (r : string)
| RefClassField (classref fieldref : string)
| RefParam (typeref : string) (params : list actual_param).

Inductive asn_type :=                                    (* structs/types/mod.rs:30-34 *)
| mkType (kind : type_kind) (constraints : option (list constraint))
with type_kind :=                                        (* structs/types/mod.rs:56-61, constructed.rs *)
| KBuiltin (b : builtin)
| KReference (r : type_ref)
| KChoice (root : list (string * asn_type)) (additions : option (list (list (string * asn_type))))
| KSequence (root : list seq_component) (additions : list (list seq_component)) (extensible : bool)
| KSequenceOf (size : option constraint) (t : asn_type)
| KSet
| KSetOf
with seq_component :=                                    (* constructed.rs:18-23 *)
| mkSeqComp (id : string) (t : asn_type) (optional : bool) (default : option string)
with constraint :=                                       (* constraints.rs:57-67 *)
| CSubtype (e : element_set)
| CTable (t : table_constraint)
| CContents
with element_set :=                                      (* constraints.rs:36-42 *)
| mkSet (root : list (list elements)) (additional : option (list (list elements)))
with elements :=                                         (* constraints.rs:7-26 *)
| ESingle (v : string)
| ESubtype (t : asn_type)
| ERange (lower : string) (lower_inclusive : bool) (upper : string) (upper_inclusive : bool)
| ESize (e : element_set)
| EAlphabet (e : element_set)
| ESet (e : element_set).

Definition comp_id (c : seq_component) : string := match c with mkSeqComp i _ _ _ => i end.
Definition comp_ty (c : seq_component) : asn_type := match c with mkSeqComp _ t _ _ => t end.
Definition comp_optional (c : seq_component) : bool := match c with mkSeqComp _ _ o _ => o end.
Definition comp_default (c : seq_component) : option string := match c with mkSeqComp _ _ _ d => d end.

(* ------------------------------------------------------------------ *)
(* Sets of permitted values                                            *)
(* resolver/asn/structs/types/constraints.rs                           *)
(* ------------------------------------------------------------------ *)
(* 5-9: ranges are half open *)
Record cvalues := mkCV { ranges : list (Z * Z); values : list Z }.
Definition cv_new := mkCV [] [].                                         (* 12-17 *)
Definition cv_append (a b : cvalues) : cvalues :=                        (* 19-22 *)
  mkCV (ranges a ++ ranges b) (values a ++ values b).
Definition cv_is_empty (a : cvalues) : bool :=                           (* 24-26 *)
  match values a, ranges a with [], [] => true | _, _ => false end.
(* Iterator::min, Iterator::max *)
Fixpoint list_min (l : list Z) : option Z :=
  match l with
  | [] => None
  | x :: r => match list_min r with None => Some x | Some m => Some (Z.min x m) end
  end.
Fixpoint list_max (l : list Z) : option Z :=
  match l with
  | [] => None
  | x :: r => match list_max r with None => Some x | Some m => Some (Z.max x m) end
  end.
Definition cv_min (a : cvalues) : option Z :=                            (* 28-38 *)
  let values_min := list_min (values a) in
  let ranges_min := list_min (map fst (ranges a)) in
  match values_min with
  | None => ranges_min
  | Some v => match ranges_min with None => Some v | Some r => Some (Z.min r v) end
  end.
(* r.end - 1 *)
Fixpoint range_ends (E : env) (l : list (Z * Z)) : res (list Z) :=
  match l with
  | [] => Ok []
  | (_, e) :: r => x <-- arith_i128 E (e - 1) ;; xs <-- range_ends E r ;; Ok (x :: xs)
  end.
Definition cv_max (E : env) (a : cvalues) : res (option Z) :=            (* 40-50 *)
  let values_max := list_max (values a) in
  ends <-- range_ends E (ranges a) ;;
  let ranges_max := list_max ends in
  Ok match values_max with
     | None => ranges_max
     | Some v => match ranges_max with None => Some v | Some r => Some (Z.min r v) end
     end.
(* 52-62 *)
Record value_set := mkVS { root_values : cvalues; additional_values : option cvalues }.
Definition has_extension (v : value_set) : bool :=
  match additional_values v with Some _ => true | None => false end.

(* ------------------------------------------------------------------ *)
(* resolver/asn/types/constraints.rs                                   *)
(* ------------------------------------------------------------------ *)
Section Resolve.
Context (E : env).
(* resolver.resolved_defs.get(name), for the definitions that are base INTEGER
   values; None stands for all the others *)
Context (known : string -> option Z).

(* 348-376 *)
Definition parse_or_resolve_value (s : string) : res Z :=
  match parse_i128 s with
  | Some z => Ok z
  | None => match known s with Some z => Ok z | None => Err end
  end.
(* 314-331 *)
Definition range_values (lower : string) (li : bool) (upper : string) (ui : bool) : res cvalues :=
  l <-- parse_or_resolve_value lower ;;
  l' <-- (if li then Ok l else arith_i128 E (l + 1)) ;;
  u <-- parse_or_resolve_value upper ;;
  u' <-- (if ui then Ok u else arith_i128 E (u - 1)) ;;
  e <-- arith_i128 E (u' + 1) ;;
  Ok (mkCV [(l', e)] []).
(* Vec::contains *)
Definition contains_value (l : list Z) (z : Z) : bool := existsb (Z.eqb z) l.
Definition contains_range (l : list (Z * Z)) (r : Z * Z) : bool :=
  existsb (fun s => (fst r =? fst s) && (snd r =? snd s)) l.
(* 243-257, one turn of the loop *)
Definition intersect (value_set element_set : cvalues) : cvalues :=
  if cv_is_empty value_set then cv_append value_set element_set
  else mkCV (filter (contains_range (ranges element_set)) (ranges value_set))
            (filter (contains_value (values element_set)) (values value_set)).

(* The mutual recursion of get_integer_valueset: 179-202 for an ElementSet,
   239-260 for an IntersectionSet, 277-287 for Elements, 300-346 for
   SubtypeElements, 81-92 for an Asn1Constraint, and
   resolver/asn/types/int.rs:24-42 for an Asn1Type. *)
Fixpoint elements_values (e : elements) : res cvalues :=
  match e with
  | ESingle v => z <-- parse_or_resolve_value v ;; Ok (mkCV [] [z])
  | ESubtype t => vs <-- type_values t ;; Ok (root_values vs)
  | ERange l li u ui => range_values l li u ui
  | ESize s =>
      vs <-- set_values s ;;
      Ok match additional_values vs with
         | None => root_values vs
         | Some a => cv_append (root_values vs) a
         end
  | EAlphabet _ => Err
  | ESet _ => Err
  end
with set_values (s : element_set) : res value_set :=
  match s with
  | mkSet root additional =>
      let intersection (i : list elements) : res cvalues :=
        rfold (fun acc e => v <-- elements_values e ;; Ok (intersect acc v)) cv_new i in
      let union (u : list (list elements)) : res cvalues :=
        rfold (fun acc i => v <-- intersection i ;; Ok (cv_append acc v)) cv_new u in
      root_values <-- union root ;;
      match additional with
      | None => Ok (mkVS root_values None)
      | Some a => more <-- union a ;; Ok (mkVS root_values (Some more))
      end
  end
with constraint_values (c : constraint) : res value_set :=
  match c with CSubtype s => set_values s | _ => Err end
with type_values (t : asn_type) : res value_set :=
  match t with
  | mkType (KBuiltin BInteger) cs =>
      match cs with
      | Some (c :: _) => constraint_values c
      | _ => Panic                            (* unwrap()[0] *)
      end
  | _ => Err
  end.

(* 111-125; the parser builds no empty intersection, iset[0].elements[0] on
   one would panic *)
Definition is_size_constraint (c : constraint) : res bool :=
  match c with
  | CSubtype (mkSet [i] _) =>
      match i with [] => Panic | ESize _ :: _ => Ok true | _ => Ok false end
  | _ => Ok false
  end.
(* 127-157 *)
Definition size_values (c : constraint) : res value_set :=
  match c with
  | CSubtype (mkSet [i] _) =>
      match i with [] => Panic | ESize s :: _ => set_values s | _ => Err end
  | _ => Err
  end.

(* ------------------------------------------------------------------ *)
(* resolver/asn/types/base/integer.rs:11-67                            *)
(* ------------------------------------------------------------------ *)
(* resolver/asn/structs/types/base.rs:21-43; named values are never set *)
Record resolved_integer := mkInt { int_bits : Z; int_signed : bool; int_constraints : option value_set }.
Definition default_integer := mkInt 64 true None.
(* 50-60 *)
Definition round_bits (w : Z) : Z :=
  if w <=? 8 then 8 else if w <=? 16 then 16 else if w <=? 32 then 32 else if w <=? 64 then 64 else 128.
Definition resolve_integer (t : asn_type) : res resolved_integer :=
  match t with
  | mkType _ None | mkType _ (Some []) => Ok default_integer
  | _ =>
      vs <-- type_values t ;;
      let min := cv_min (root_values vs) in
      let signed := match min with Some x => x <? 0 | None => true end in
      width <-- (if signed then
                   match min with
                   | None => Panic                                  (* unwrap *)
                   | Some lo =>
                       mx <-- cv_max E (root_values vs) ;;
                       match mx with
                       | None => Panic
                       | Some hi =>
                           a <-- arith_i128 E (Z.abs hi) ;;
                           b <-- arith_i128 E (Z.abs lo) ;;
                           Ok (Z.max (128 - leading_zeros128 b) (128 - leading_zeros128 a))
                       end
                   end
                 else
                   mx <-- cv_max E (root_values vs) ;;
                   match mx with
                   | None => Panic
                   | Some hi => Ok (128 - leading_zeros128 hi)
                   end) ;;
      Ok (mkInt (round_bits width) signed (Some vs))
  end.
End Resolve.
