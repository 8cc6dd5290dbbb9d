(* Resolution of definitions (asn-compiler/src/resolver).  Maps are association
   lists; where the iteration order of a HashMap would be seen, the comment
   says which order is taken.  Error messages and the eprintln! output are
   dropped. *)
From Coq Require Import ZArith NArith List Bool String Ascii.
Require Import Verif.Base Verif.Asn1Model Verif.GenModel.
Import ListNotations.
Open Scope Z_scope.

(* HashMap::get / BTreeMap::get *)
Fixpoint lookup {A} (k : string) (l : list (string * A)) : option A :=
  match l with [] => None | (k', v) :: r => if String.eqb k k' then Some v else lookup k r end.
(* HashMap::insert *)
Fixpoint replace {A} (k : string) (v : A) (l : list (string * A)) : list (string * A) :=
  match l with
  | [] => [(k, v)]
  | (k', v') :: r => if String.eqb k k' then (k, v) :: r else (k', v') :: replace k v r
  end.
(* str::cmp *)
Definition string_ltb (a b : string) : bool := match String.compare a b with Lt => true | _ => false end.
(* BTreeMap::insert: entries in the order of their keys *)
Fixpoint binsert {A} (k : string) (v : A) (l : list (string * A)) : list (string * A) :=
  match l with
  | [] => [(k, v)]
  | (k', v') :: r =>
      if String.eqb k k' then (k, v) :: r
      else if string_ltb k k' then (k, v) :: (k', v') :: r
      else (k', v') :: binsert k v r
  end.
(* for ... in l { out.push(f(x)?) } *)
Definition rmap {A B} (f : A -> res B) : list A -> res (list B) :=
  fix go l := match l with [] => Ok [] | x :: r => y <-- f x ;; ys <-- go r ;; Ok (y :: ys) end.

(* ------------------------------------------------------------------ *)
(* resolver/asn/structs                                                *)
(* ------------------------------------------------------------------ *)
(* structs/values.rs; the type of an integer or enumerated value is not read *)
Inductive rvalue :=
| VReference (s : string)
| VOfType (typeref : string) (v : rvalue)
| VInteger (z : Z)
| VEnum.
(* structs/values.rs:52-60 *)
Fixpoint base_integer_value (v : rvalue) : option Z :=
  match v with VInteger z => Some z | VOfType _ v => base_integer_value v | _ => None end.
(* structs/types/ioc.rs:6-15 *)
Inductive rfield := RFType (t : option rtype) | RFValue (typeref : rtype) (value : option rvalue).
(* structs/types/ioc.rs:17-21 *)
Definition robject := list (string * rfield).
(* structs/types/ioc.rs:28-40; only objects are ever stored as elements, and
   nothing reads decoder_ty.  The table is keyed by the number and the name of
   the unique value. *)
Record robject_set := mkObjectSet { os_elements : list robject; os_lookup : list (Z * string * robject) }.
(* structs/defs.rs:5-11 *)
Inductive rdef := DType (t : rtype) | DValue (v : rvalue) | DObjectSet (s : robject_set) | DObject (o : robject).

(* ------------------------------------------------------------------ *)
(* Base types                                                          *)
(* ------------------------------------------------------------------ *)
(* base/enumerated.rs:26-34, 45-53; BTreeSet::is_empty is all that is used *)
Definition enum_numbers (l : list enum_value) : res (list Z) :=
  rfold (fun acc v => match ev_value v with
                      | Some (Number s) => match parse_i128 s with Some z => Ok (acc ++ [z]) | None => Panic end
                      | _ => Ok acc
                      end) [] l.
Fixpoint enum_names (i : Z) (l : list enum_value) : list (string * Z) :=
  match l with [] => [] | v :: r => (ev_name v, i) :: enum_names (i + 1) r end.
(* base/enumerated.rs:16-70; values of the extension are computed (and may
   panic) but not read *)
Definition resolve_enumerated (root : list enum_value) (ext_marker : bool) (ext : list enum_value) : res rtype :=
  numbers <-- enum_numbers root ;;
  _ <-- enum_numbers ext ;;
  Ok (REnumerated ext_marker (match numbers with [] => enum_names 0 root | _ => [] end)).

Section Resolve.
Context (E : env).
Context (defs : list (string * rdef)).     (* resolver.resolved_defs *)

(* types/constraints.rs:348-376: values of other types, values given by another
   value, and values of a referenced type are an error *)
Definition known (s : string) : option Z :=
  match lookup s defs with Some (DValue (VInteger z)) => Some z | _ => None end.

(* bitstring.rs:19-33, octetstring.rs:14-28 (strict = false) and
   charstring.rs:20-35 (strict = true); named bits are not read later *)
Definition resolve_size (strict : bool) (cs : option (list constraint)) : res (option value_set) :=
  match cs with
  | Some (c :: _) =>
      b <-- is_size_constraint c ;;
      if b : bool then vs <-- size_values E known c ;; Ok (Some vs)
      else if strict then Err else Ok None
  | _ => Ok None
  end.
(* base/mod.rs:26-62 *)
Definition resolve_base (b : builtin) (cs : option (list constraint)) : res rtype :=
  match b with
  | BInteger => i <-- resolve_integer E known (mkType (KBuiltin BInteger) cs) ;; Ok (RInteger i)
  | BEnumerated root m ext => resolve_enumerated root m ext
  | BBitString => s <-- resolve_size false cs ;; Ok (RBitString s)
  | BBoolean => Ok RBoolean
  | BNull => Ok RNull
  | BOctetString => s <-- resolve_size false cs ;; Ok (ROctetString s)
  | BObjectIdentifier => Ok ROid
  | BRelativeOid => Err
  | BCharacterString st => s <-- resolve_size true cs ;; Ok (RCharString st s)
  end.

(* ------------------------------------------------------------------ *)
(* Class field types (types/constructed.rs:140-279)                    *)
(* ------------------------------------------------------------------ *)
(* str::trim_matches and str::trim *)
Fixpoint ltrim (p : ascii -> bool) (s : string) : string :=
  match s with String c r => if p c then ltrim p r else s | EmptyString => s end.
Fixpoint srev (acc s : string) : string :=
  match s with EmptyString => acc | String c r => srev (String c acc) r end.
Definition trim_matches (p : ascii -> bool) (s : string) : string :=
  srev EmptyString (ltrim p (srev EmptyString (ltrim p s))).
Definition is_brace (c : ascii) : bool := Ascii.eqb c "{" || Ascii.eqb c "}".
Definition is_space (c : ascii) : bool := let n := code c in (n =? 32) || ((9 <=? n) && (n <=? 13)).
(* types/constraints.rs:20-60, 165-178, 221-237, 272-278 *)
Definition set_reference (c : constraint) : res string :=
  let clean s := trim_matches is_space (trim_matches is_brace s) in
  match c with
  | CSubtype (mkSet [[ESingle v]] _) => Ok (clean v)
  | CTable (TableSimple s) => Ok (clean s)
  | CTable (TableRelation table _) => Ok (clean table)
  | _ => Err
  end.
(* types/constraints.rs:62-72 *)
Definition has_comp_reference (c : constraint) : bool :=
  match c with CTable (TableRelation _ _) => true | _ => false end.

(* BTreeMap<(String, String), _>: ordered by name, then by the decimal text of
   the value *)
Definition z_string (z : Z) : string :=
  if z <? 0 then String "-" (decimal (Z.to_N (- z))) else decimal (Z.to_N z).
Definition entry_eqb (a b : string * Z) : bool := String.eqb (fst a) (fst b) && (snd a =? snd b).
Definition entry_ltb (a b : string * Z) : bool :=
  string_ltb (fst a) (fst b) || (String.eqb (fst a) (fst b) && string_ltb (z_string (snd a)) (z_string (snd b))).
Fixpoint einsert (e : string * Z * rtype) (l : list (string * Z * rtype)) : list (string * Z * rtype) :=
  match l with
  | [] => [e]
  | x :: r =>
      if entry_eqb (fst e) (fst x) then e :: r
      else if entry_ltb (fst e) (fst x) then e :: x :: r
      else x :: einsert e r
  end.
(* 258-279 *)
Definition open_types (fieldref : string) (objects : robject_set) : list (string * Z * rtype) :=
  fold_left (fun acc e =>
      match e with
      | (z, nm, o) =>
          match lookup fieldref o with
          | Some (RFType (Some (RReference r))) => einsert (nm, z, RReference r) acc
          | _ => acc
          end
      end) (os_lookup objects) [].
(* 197-256 *)
Definition class_components (comps : list (string * asn_type)) (setref : string) (objects : robject_set) : res (list rcomp) :=
  match os_elements objects with
  | [] => Ok []
  | first :: _ =>
      rfold (fun acc c =>
        match c with
        | (id, mkType (KReference (RefClassField _ fieldref)) cs) =>
            match lookup fieldref first with
            | Some (RFValue typeref _) =>
                match cs with
                | Some (c :: _) => Ok (acc ++ [mkRComp id typeref false (negb (has_comp_reference c))])
                | _ => Panic                                    (* unwrap()[0] *)
                end
            | _ => Ok (acc ++ [mkRComp id (RSet setref (open_types fieldref objects)) false false])
            end
        | _ => Ok acc                                           (* not a class field: left out *)
        end) [] comps
  end.
(* 142-195 *)
Definition resolve_class_sequence (comps : list (string * asn_type)) (ext : bool) : res rtype :=
  match comps with
  | [] => Err
  | (_, mkType _ cs) :: _ =>
      match cs with
      | Some (c :: _) =>
          r <-- set_reference c ;;
          match lookup r defs with
          | Some (DObjectSet s) => l <-- class_components comps r s ;; Ok (RSequence ext l)
          | _ => Err
          end
      | _ => Panic                                              (* unwrap()[0] *)
      end
  end.

(* ------------------------------------------------------------------ *)
(* types/int.rs:46-102, types/constructed.rs:28-140.  `inst r ps` stands for
   the resolution of the type that apply_params gives for r and ps.          *)
(* ------------------------------------------------------------------ *)
Context (inst : string -> list actual_param -> res rtype).

Fixpoint resolve_type (t : asn_type) : res rtype :=
  match t with
  | mkType (KBuiltin b) cs => resolve_base b cs
  | mkType (KReference (RefName r)) _ =>
      match lookup r defs with Some (DType _) => Ok (RReference r) | _ => Err end
  | mkType (KReference (RefParam r ps)) _ => inst r ps
  | mkType (KReference (RefClassField _ _)) _ => Err
  | mkType (KChoice root additions) _ =>
      let component (c : string * asn_type) : res (string * rtype) :=
        match c with (id, t) => r <-- resolve_type t ;; Ok (id, r) end in
      root <-- rmap component root ;;
      adds <-- match additions with
               | None => Ok None
               | Some gs => l <-- rmap (rmap component) gs ;; Ok (Some (List.concat l))
               end ;;
      Ok (RChoice root adds)
  | mkType (KSequence root additions ext) _ =>
      let component (c : seq_component) : res rcomp :=
        match c with mkSeqComp id t optional _ => r <-- resolve_type t ;; Ok (mkRComp id r optional false) end in
      match rmap component root with
      | Ok l => Ok (RSequence ext l)
      | Err => resolve_class_sequence (map (fun c => (comp_id c, comp_ty c)) (root ++ List.concat additions)) ext
      | Panic => Panic
      | Diverge => Diverge
      end
  | mkType (KSequenceOf size t) _ =>
      r <-- resolve_type t ;;
      sz <-- match size with Some c => vs <-- size_values E known c ;; Ok (Some vs) | None => Ok None end ;;
      Ok (RSequenceOf r sz)
  | mkType KSet _ | mkType KSetOf _ => Err
  end.

(* ------------------------------------------------------------------ *)
(* values.rs:17-84                                                     *)
(* ------------------------------------------------------------------ *)
Fixpoint resolve_value (fuel : nat) (value : string) (t : rtype) : res rvalue :=
  match lookup value defs with
  | Some (DValue _) => Ok (VReference value)
  | Some _ => Err
  | None =>
      match t with
      | RInteger _ => match parse_i128 value with Some z => Ok (VInteger z) | None => Panic end
      | REnumerated _ _ => Ok VEnum
      | RReference r =>
          match lookup r defs with
          | Some (DType t') =>
              match fuel with
              | O => Diverge
              | S f => v <-- resolve_value f value t' ;; Ok (VOfType r v)
              end
          | _ => Err
          end
      | _ => Err
      end
  end.

(* ------------------------------------------------------------------ *)
(* Objects and object sets (types/ioc.rs)                              *)
(* ------------------------------------------------------------------ *)
(* parser structs/types/ioc.rs:100-110 *)
Inductive object_field := OFType (t : option asn_type) | OFValue (typeref : asn_type) (value : option string).
(* an object after parse_object_from_class; None for one that is still text *)
Definition object_value := option (list (string * object_field)).
(* parser structs/types/ioc.rs:168-172 *)
Inductive set_element := OSetRef (r : string) | OObjectRef (r : string) | OObject (v : object_value).

(* 188-229; the fields are taken in the order of the list, in Rust in the order
   of a HashMap (which error is met first may differ) *)
Definition resolve_object (fuel : nat) (v : object_value) : res robject :=
  match v with
  | None => Err
  | Some fields =>
      rmap (fun f : string * object_field =>
        match f with
        | (k, OFType None) => Ok (k, RFType None)
        | (k, OFType (Some t)) => r <-- resolve_type t ;; Ok (k, RFType (Some r))
        | (k, OFValue t None) => r <-- resolve_type t ;; Ok (k, RFValue r None)
        | (k, OFValue t (Some s)) =>
            r <-- resolve_type t ;; v <-- resolve_value fuel s r ;; Ok (k, RFValue r (Some v))
        end) fields
  end.
(* HashMap::insert for the lookup table *)
Fixpoint table_insert (z : Z) (nm : string) (o : robject) (l : list (Z * string * robject)) : list (Z * string * robject) :=
  match l with
  | [] => [(z, nm, o)]
  | (z', nm', o') :: r =>
      if (z =? z') && String.eqb nm nm' then (z, nm, o) :: r else (z', nm', o') :: table_insert z nm o r
  end.
(* 86-117, 140-165 *)
Definition table_add (unique : option string) (o : robject) (table : list (Z * string * robject)) : res (list (Z * string * robject)) :=
  match unique with
  | None => Ok table
  | Some u =>
      match lookup u o with
      | None => Panic                                            (* field.unwrap() *)
      | Some (RFType _) => Ok table
      | Some (RFValue _ None) => Panic                           (* value.unwrap() *)
      | Some (RFValue _ (Some (VReference s))) =>
          match lookup s defs with
          | None => Panic
          | Some (DValue v) =>
              match base_integer_value v with
              | None => Panic
              | Some z => Ok (table_insert z s o table)
              end
          | Some _ => Ok table
          end
      | Some (RFValue _ (Some _)) => Ok table                    (* a literal value: no entry *)
      end
  end.
(* 25-183; `unique` is the id of the class's unique field *)
Definition resolve_object_set (fuel : nat) (unique : option string) (elems : list set_element) : res robject_set :=
  rfold (fun acc e =>
    match e with
    | OSetRef r =>
        match lookup r defs with
        | Some (DObjectSet s) =>
            Ok (mkObjectSet (os_elements acc ++ os_elements s)
                  (fold_left (fun t x => match x with (z, nm, o) => table_insert z nm o t end) (os_lookup s) (os_lookup acc)))
        | _ => Err
        end
    | OObjectRef r =>
        match lookup r defs with
        | Some (DObject o) =>
            table <-- table_add unique o (os_lookup acc) ;; Ok (mkObjectSet (os_elements acc ++ [o]) table)
        | _ => Err
        end
    | OObject v =>
        o <-- resolve_object fuel v ;;
        table <-- table_add unique o (os_lookup acc) ;; Ok (mkObjectSet (os_elements acc ++ [o]) table)
    end) (mkObjectSet [] []) elems.
End Resolve.
