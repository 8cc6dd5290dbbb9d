(* How the types of a schema look in Rust: which items there are for a type,
   under which names, and the names, numbers and types of their fields,
   variants and constants.  Nothing of the resolver or of the generator is
   used here but the three ways of turning an ASN.1 name into a Rust one
   (to_type_ident, to_value_ident, to_const_ident), and the parser for the
   body of a parameterized type, whose words are not a type before the
   parameters are put in. *)
From Coq Require Import ZArith NArith List Bool String Ascii.
Require Import Verif.Base Verif.Asn1Model Verif.GenModel Verif.ResolveModel Verif.TokenModel Verif.ParserModel Verif.ModuleModel.
Require Verif.ParamSpec.
Import ListNotations.
Open Scope string_scope.
Open Scope list_scope.
Open Scope Z_scope.

Section Schema.
Context (modules : list (string * module)).
(* k is defined as d in one of the modules *)
Definition defines (k : string) (d : definition) : Prop := exists a m, In (a, m) modules /\ In (k, d) (m_defs m).

(* fs is an object of the object set S. *)
Inductive object_of : string -> list (string * object_field) -> Prop :=
| O_written S cls root more fs : defines S (mkDef (DKObjectSet cls root more) None) -> In (OObject (Some fs)) (root ++ more) -> object_of S fs
| O_named S cls root more r c fs : defines S (mkDef (DKObjectSet cls root more) None) -> In (OObjectRef r) (root ++ more) ->
    defines r (mkDef (DKObject c (Some fs)) None) -> object_of S fs
| O_included S cls root more r fs : defines S (mkDef (DKObjectSet cls root more) None) -> In (OSetRef r) (root ++ more) ->
    object_of r fs -> object_of S fs.
(* Nothing is written in the object set S, or only the names of such sets. *)
Inductive no_object : string -> Prop :=
| No_object S cls root more : defines S (mkDef (DKObjectSet cls root more) None) ->
    (forall e, In e (root ++ more) -> exists r, e = OSetRef r /\ no_object r) -> no_object S.
(* the set that a constraint ({S}) or ({S}{@id}) names *)
Inductive set_of : constraint -> string -> Prop :=
| Set_single v more : set_of (CSubtype (mkSet [[ESingle v]] more)) (strip_braces v)
| Set_simple v : set_of (CTable (TableSimple v)) (strip_braces v)
| Set_relation v at_ : set_of (CTable (TableRelation v at_)) (strip_braces v).
Definition is_relation (c : constraint) : Prop := exists v at_, c = CTable (TableRelation v at_).

(* Words with each formal parameter in turn replaced by the actual one. *)
Fixpoint in_turn (formals : list string) (actuals : list actual_param) (w : list tok) : list tok :=
  match formals, actuals with
  | f :: fs, a :: l =>
      in_turn fs l (map (ParamSpec.renamed (fun s => if string_dec s f then param_string a else s)) w)
  | _, _ => w
  end.
(* t is the type that r{ps} stands for. *)
Definition instance_of (r : string) (ps : list actual_param) (t : asn_type) : Prop :=
  exists kind formals w rest, defines r (mkDef kind (Some (formals, w))) /\ List.length formals = List.length ps /\
    parse_type (in_turn formals ps w) = Ok (t, rest).

Definition has_number (v : enum_value) : Prop := exists n, ev_value v = Some (Number n).
(* the constants for the items of an ENUMERATED: u8 *)
Fixpoint constants (i : Z) (l : list enum_value) : list (string * Z) :=
  match l with
  | [] => []
  | v :: r => (to_const_ident (ev_name v), i mod 256) :: constants (i + 1) r
  end.
(* an unnamed type that is not built from others *)
Definition base_name (b : builtin) : string :=
  match b with
  | BInteger => "INTEGER"
  | BEnumerated _ _ _ => "ENUMERATED"
  | BBitString => "BIT STRING"
  | BBoolean => "BOOLEAN"
  | BNull => "NULL"
  | BOctetString => "OCTET STRING"
  | BObjectIdentifier => "OBJECT IDENTIFIER"
  | BRelativeOid => "RELATIVE-OID"
  | BCharacterString _ => "CharacterString"
  end.
(* the greatest of n numbers from 0 on, if there are any and a usize can hold it *)
Definition greatest (n ub : Z) : Prop := 0 < n < 2 ^ 64 -> ub = n - 1.
Definition optional_count (l : list seq_component) : option Z :=
  match filter comp_optional l with [] => None | l => Some (zlen l) end.
Definition constructed (t : asn_type) : Prop :=
  match t with mkType (KBuiltin _) _ | mkType (KReference _) _ => False | _ => True end.

Context (prog : list (string * gdef)).

(* `shaped p t d`: d is the item of the type t that is written at the place p.
   The places are the names of the definitions, and for the types inside
   others those names with the names of components and alternatives added.
   `called p t n`: n is the Rust type of a component of type t written at p. *)
Inductive shaped : string -> asn_type -> gdef -> Prop :=
| H_integer p cs w sg lb ub x : shaped p (mkType (KBuiltin BInteger) cs) (GInteger w sg lb ub x)
| H_enumerated p root marker ext cs ub : ~ Exists has_number root -> greatest (zlen root) ub ->
    shaped p (mkType (KBuiltin (BEnumerated root marker ext)) cs) (GEnumerated ub marker (constants 0 root))
(* as soon as an item has a number there are no constants *)
| H_numbered p root marker ext cs ub : Exists has_number root ->
    shaped p (mkType (KBuiltin (BEnumerated root marker ext)) cs) (GEnumerated ub marker [])
| H_bits p cs size : shaped p (mkType (KBuiltin BBitString) cs) (GBitString size)
| H_boolean p cs : shaped p (mkType (KBuiltin BBoolean) cs) GBoolean
| H_null p cs : shaped p (mkType (KBuiltin BNull) cs) GNull
| H_octets p cs size : shaped p (mkType (KBuiltin BOctetString) cs) (GOctetString size)
| H_oid p cs : shaped p (mkType (KBuiltin BObjectIdentifier) cs) GOid
| H_chars p st cs size : shaped p (mkType (KBuiltin (BCharacterString st)) cs) (GCharString st size)
| H_choice p root additions cs ub vs ws : greatest (zlen root) ub -> alternatives p false 0 root vs ->
    alternatives p true 0 (match additions with Some gs => List.concat gs | None => [] end) ws ->
    shaped p (mkType (KChoice root additions) cs) (GChoice 0 ub (match additions with Some _ => true | None => false end) (vs ++ ws))
(* the additions have no fields *)
| H_sequence p root additions ext cs fs : components p 0 root fs ->
    shaped p (mkType (KSequence root additions ext) cs) (GSequence ext (optional_count root) fs)
| H_class p root additions ext cs id k c more o d rest S fs :
    root ++ List.concat additions = mkSeqComp id (mkType k (Some (c :: more))) o d :: rest -> set_of c S ->
    class_fields p S (root ++ List.concat additions) fs ->
    shaped p (mkType (KSequence root additions ext) cs) (GSequence ext None fs)
| H_no_object p root additions ext cs id k c more o d rest S :
    root ++ List.concat additions = mkSeqComp id (mkType k (Some (c :: more))) o d :: rest -> set_of c S -> no_object S ->
    shaped p (mkType (KSequence root additions ext) cs) (GSequence ext None [])
| H_list p size t cs attrs n : called (p ++ "_Entry") t n -> shaped p (mkType (KSequenceOf size t) cs) (GSequenceOf attrs n)
| H_reference p r cs : shaped p (mkType (KReference (RefName r)) cs) (GAlias (to_type_ident r))
| H_instance p r ps cs t d : instance_of r ps t -> shaped p t d -> shaped p (mkType (KReference (RefParam r ps)) cs) d
with called : string -> asn_type -> string -> Prop :=
| C_reference p r cs : called p (mkType (KReference (RefName r)) cs) (to_type_ident r)
| C_instance p r ps cs t n : instance_of r ps t -> called p t n -> called p (mkType (KReference (RefParam r ps)) cs) n
| C_base p b cs count d : In (to_type_ident (base_name b ++ " " ++ decimal count), d) prog -> shaped p (mkType (KBuiltin b) cs) d ->
    called p (mkType (KBuiltin b) cs) (to_type_ident (base_name b ++ " " ++ decimal count))
| C_constructed p t d : constructed t -> In (to_type_ident p, d) prog -> shaped p t d -> called p t (to_type_ident p)
(* the alternatives from number i on *)
with alternatives : string -> bool -> Z -> list (string * asn_type) -> list gvariant -> Prop :=
| L_nil p x i : alternatives p x i [] []
| L_cons p x i id t n l vs : called (p ++ id) t n -> alternatives p x (i + 1) l vs ->
    alternatives p x i ((id, t) :: l) (mkVariant (to_type_ident id) i x n :: vs)
(* the components, i of them OPTIONAL before *)
with components : string -> Z -> list seq_component -> list gfield -> Prop :=
| P_nil p i : components p i [] []
| P_optional p i id t d n l fs : called (p ++ to_type_ident id) t n -> components p (i + 1) l fs ->
    components p i (mkSeqComp id t true d :: l) (mkField (to_value_ident id) (Some i) false n :: fs)
| P_mandatory p i id t d n l fs : called (p ++ to_type_ident id) t n -> components p i l fs ->
    components p i (mkSeqComp id t false d :: l) (mkField (to_value_ident id) None false n :: fs)
(* components CLASS.&f ({S}) or CLASS.&f ({S}{@id}); others have no field *)
with class_fields : string -> string -> list seq_component -> list gfield -> Prop :=
| F_nil p S : class_fields p S [] []
| F_value p S id cl f c more o d l fs obj t v key n :
    object_of S obj -> lookup f obj = Some (OFValue t v) -> called (p ++ to_type_ident id) t n ->
    (key = false <-> is_relation c) -> class_fields p S l fs ->
    class_fields p S (mkSeqComp id (mkType (KReference (RefClassField cl f)) (Some (c :: more))) o d :: l)
      (mkField (to_value_ident id) None key n :: fs)
| F_open p S id cl f cs o d l fs vs :
    In (to_type_ident (p ++ to_type_ident id), GOpen true vs) prog -> open_variants S f vs -> class_fields p S l fs ->
    class_fields p S (mkSeqComp id (mkType (KReference (RefClassField cl f)) cs) o d :: l)
      (mkField (to_value_ident id) None false (to_type_ident (p ++ to_type_ident id)) :: fs)
| F_other p S id t o d l fs : (forall cl f cs, t <> mkType (KReference (RefClassField cl f)) cs) -> class_fields p S l fs ->
    class_fields p S (mkSeqComp id t o d :: l) fs
(* a variant is named like the value that identifies its object *)
with open_variants : string -> string -> list gvariant -> Prop :=
| V_nil S f : open_variants S f []
| V_cons S f obj u tu nm t p n key vs : object_of S obj -> lookup u obj = Some (OFValue tu (Some nm)) -> lookup f obj = Some (OFType (Some t)) ->
    called p t n -> open_variants S f vs -> open_variants S f (mkVariant (to_type_ident nm) key false n :: vs).
End Schema.
