(* What the compiler's theorems are stated in terms of. *)
From Coq Require Import ZArith NArith List Bool String Ascii.
From Coq Require Sorted.
Require Import Verif.Base Verif.DeriveModel Verif.DeriveSpec Verif.Asn1Model Verif.GenModel Verif.ResolveModel Verif.ModuleModel.
Require Verif.ParserSpec Verif.ParamSpec.
Import ListNotations.
Open Scope Z_scope.

(* ------------------------------------------------------------------ *)
(* Constraints: the values X.680 permits                               *)
(* ------------------------------------------------------------------ *)
Definition all {A} (P : A -> Prop) : list A -> Prop :=
  fix go l := match l with [] => True | x :: r => P x /\ go r end.
Definition any {A} (P : A -> Prop) : list A -> Prop :=
  fix go l := match l with [] => False | x :: r => P x \/ go r end.

Section Permitted.
(* the INTEGER values that names stand for *)
Context (known : string -> option Z).
(* A number is written out, or named. *)
Definition value_of (s : string) : option Z :=
  match parse_i128 s with Some z => Some z | None => known s end.

(* `permits e z`: z satisfies the element e of an INTEGER constraint. *)
Fixpoint permits (e : elements) (z : Z) : Prop :=
  match e with
  | ESingle v => value_of v = Some z
  | ERange l li u ui => exists a b, value_of l = Some a /\ value_of u = Some b /\
      (if li then a <= z else a < z) /\ (if ui then z <= b else z < b)
  | ESubtype t => type_permits t z
  | ESet s => set_permits s z
  | ESize _ | EAlphabet _ => False
  end
(* the root of a set: a union of intersections *)
with set_permits (s : element_set) (z : Z) : Prop :=
  match s with mkSet root _ => any (all (fun e => permits e z)) root end
with constraint_permits (c : constraint) (z : Z) : Prop :=
  match c with CSubtype s => set_permits s z | _ => False end
(* constraints written one after the other all apply *)
with type_permits (t : asn_type) (z : Z) : Prop :=
  match t with
  | mkType (KBuiltin BInteger) (Some cs) => all (fun c => constraint_permits c z) cs
  | mkType (KBuiltin BInteger) None => True
  | _ => False
  end.

Definition is_least (P : Z -> Prop) (m : Z) : Prop := P m /\ forall z, P z -> m <= z.
Definition is_greatest (P : Z -> Prop) (m : Z) : Prop := P m /\ forall z, P z -> z <= m.

(* Constraints in which every name stands for a number, every range is
   non-empty and below the largest i128, types carry one constraint each, and
   an intersection either has one member or repeats one number. *)
Fixpoint regular (e : elements) : Prop :=
  match e with
  | ESingle v => exists z, value_of v = Some z
  | ERange l li u ui => exists a b, value_of l = Some a /\ value_of u = Some b /\
      - 2 ^ 127 <= (if li then a else a + 1) <= (if ui then b else b - 1) /\
      (if ui then b else b - 1) < 2 ^ 127 - 1
  | ESubtype t => regular_type t
  | _ => False
  end
with regular_set (s : element_set) : Prop :=
  match s with
  | mkSet root additional =>
      let union := all (fun i =>
        match i with
        | [e] => regular e
        | _ => i <> [] /\ exists z, all (fun e => exists v, e = ESingle v /\ value_of v = Some z) i
        end) in
      union root /\ match additional with Some a => union a | None => True end
  end
with regular_constraint (c : constraint) : Prop :=
  match c with CSubtype s => regular_set s | _ => False end
with regular_type (t : asn_type) : Prop :=
  match t with
  | mkType (KBuiltin BInteger) (Some [c]) => regular_constraint c
  | _ => False
  end.

(* A constraint that lists single numbers, or ranges, but not both. *)
Fixpoint only (single : bool) (e : elements) : Prop :=
  match e with
  | ESingle _ => single = true
  | ERange _ _ _ _ => single = false
  | ESubtype t => only_type single t
  | _ => False
  end
with only_set (single : bool) (s : element_set) : Prop :=
  match s with mkSet root _ => all (all (only single)) root end
with only_constraint (single : bool) (c : constraint) : Prop :=
  match c with CSubtype s => only_set single s | _ => False end
with only_type (single : bool) (t : asn_type) : Prop :=
  match t with
  | mkType (KBuiltin BInteger) (Some [c]) => only_constraint single c
  | _ => False
  end.
End Permitted.

(* `INTEGER (set)` *)
Definition integer_type (s : element_set) : asn_type := mkType (KBuiltin BInteger) (Some [CSubtype s]).

(* The constraint has an extension marker. *)
Definition extensible_set (s : element_set) : bool :=
  match s with mkSet _ (Some _) => true | _ => false end.
(* The width that the compiler takes for the numbers from l to u: the smallest
   of 8, 16, 32 and 64 bits for the largest absolute value, without a bit for
   the sign. *)
Definition width_for (m : Z) : Z :=
  if m <? 2 ^ 8 then 8 else if m <? 2 ^ 16 then 16 else if m <? 2 ^ 32 then 32 else 64.
Definition chosen_width (l u : Z) : Z :=
  if l <? 0 then width_for (Z.max (Z.abs l) (Z.abs u)) else width_for u.

(* The Rust integer type represents every number from l to u. *)
Definition holds_range (i : ity) (l u : Z) : Prop := forall z, l <= z <= u -> cast i z = z.

(* ------------------------------------------------------------------ *)
(* What a generated definition means to #[derive(AperCodec)]           *)
(* ------------------------------------------------------------------ *)
Definition size_lb (s : size_attrs) : option Z := match s with Some (_, lb, _) => lb | None => None end.
Definition size_ub (s : size_attrs) : option Z := match s with Some (_, _, ub) => ub | None => None end.
Definition size_ext (s : size_attrs) : bool := match s with Some (x, _, _) => x | None => false end.
(* the string types that codecs_derive/src/aper/mod.rs:33-35 knows *)
Definition known_string (s : string) : bool :=
  (String.eqb s "UTF8String" || String.eqb s "PrintableString" || String.eqb s "VisibleString")%string.

(* `def_means prog d T`: in the program prog (generated definitions by name),
   definition d describes the type tree T. *)
Inductive def_means (prog : list (string * gdef)) : gdef -> ty -> Prop :=
| M_int w s lb ub ext : def_means prog (GInteger w s lb ub ext) (TInt lb ub ext (mkIty s w))
| M_enum ub ext cs : def_means prog (GEnumerated ub ext cs) (TEnum (Some 0) (Some ub) ext (mkIty false 8))
| M_bits sz : def_means prog (GBitString sz) (TBits (size_lb sz) (size_ub sz) (size_ext sz))
| M_bool : def_means prog GBoolean TBool
| M_null : def_means prog GNull TNull
| M_octets sz : def_means prog (GOctetString sz) (TOctets (size_lb sz) (size_ub sz) (size_ext sz))
| M_str st sz : known_string st = true ->
    def_means prog (GCharString st sz) (TStr (size_lb sz) (size_ub sz) (size_ext sz))
| M_oid : def_means prog GOid TOid
| M_choice lb ub ext vs al : variants_mean prog vs al ->
    def_means prog (GChoice lb ub ext vs) (TChoice lb ub ext al)
| M_seq ext n fs l : fields_mean prog fs l ->
    def_means prog (GSequence ext n fs) (TSeq ext (match n with Some n => n | None => 0 end) l)
| M_seqof sz t T : name_means prog t T ->
    def_means prog (GSequenceOf sz t) (TSeqOf (size_lb sz) (size_ub sz) (size_ext sz) T)
| M_alias t T : name_means prog t T -> def_means prog (GAlias t) T
| M_open vs al : variants_mean prog vs al -> def_means prog (GOpen true vs) (TOpen al)
with name_means (prog : list (string * gdef)) : string -> ty -> Prop :=
| M_name n d T : In (n, d) prog -> def_means prog d T -> name_means prog n T
with variants_mean (prog : list (string * gdef)) : list gvariant -> alts -> Prop :=
| M_vnil : variants_mean prog [] ANil
| M_vcons nm k x t T vs al : name_means prog t T -> variants_mean prog vs al ->
    variants_mean prog (mkVariant nm k x t :: vs) (ACons k x T al)
with fields_mean (prog : list (string * gdef)) : list gfield -> fields -> Prop :=
| M_fnil : fields_mean prog [] FNil
| M_fopt nm i key t T fs l : name_means prog t T -> fields_mean prog fs l ->
    fields_mean prog (mkField nm (Some i) key t :: fs) (FOpt i T l)
| M_fman nm key t T fs l : name_means prog t T -> fields_mean prog fs l ->
    fields_mean prog (mkField nm None key t :: fs) (FMan key T l).

(* ------------------------------------------------------------------ *)
(* What a resolved ASN.1 type means                                    *)
(* ------------------------------------------------------------------ *)
Definition min_of (v : option value_set) : option Z :=
  match v with Some v => cv_min (root_values v) | None => None end.
Definition ext_of (v : option value_set) : bool :=
  match v with Some v => has_extension v | None => false end.
(* the largest root value, when computing it does not overflow *)
Definition max_is (E : env) (v : option value_set) (u : option Z) : Prop :=
  match v with Some v => cv_max E (root_values v) = Ok u | None => u = None end.

Fixpoint append_alts (a b : alts) : alts :=
  match a with ANil => b | ACons k x t r => ACons k x t (append_alts r b) end.

(* `type_means E defs t T`: T is the type tree of t, where names are those of
   defs.  The alternatives of a CHOICE are numbered in the order in which they
   are written, the extension additions anew from 0; presence bits are
   numbered in the order of the OPTIONAL components. *)
Inductive type_means (E : env) (defs : list (string * rtype)) : rtype -> ty -> Prop :=
| S_int i u : In (int_bits i) [8; 16; 32; 64; 128] -> max_is E (int_constraints i) u ->
    type_means E defs (RInteger i)
      (TInt (min_of (int_constraints i)) u (ext_of (int_constraints i)) (mkIty (int_signed i) (Z.min 64 (int_bits i))))
| S_enum ext l : l <> [] -> zlen l < 2 ^ 64 ->
    type_means E defs (REnumerated ext l) (TEnum (Some 0) (Some (zlen l - 1)) ext (mkIty false 8))
| S_bits sz u : max_is E sz u -> type_means E defs (RBitString sz) (TBits (min_of sz) u (ext_of sz))
| S_bool : type_means E defs RBoolean TBool
| S_null : type_means E defs RNull TNull
| S_octets sz u : max_is E sz u -> type_means E defs (ROctetString sz) (TOctets (min_of sz) u (ext_of sz))
| S_str st sz u : known_string st = true -> max_is E sz u ->
    type_means E defs (RCharString st sz) (TStr (min_of sz) u (ext_of sz))
| S_oid : type_means E defs ROid TOid
| S_choice root additions roots adds al : root <> [] -> zlen root < 2 ^ 64 ->
    alternatives_mean E defs false 0 root roots ->
    additions_mean E defs additions adds ->
    al = append_alts roots adds ->
    type_means E defs (RChoice root additions)
      (TChoice 0 (zlen root - 1) (match additions with Some _ => true | None => false end) al)
| S_seq ext comps fs : components_mean E defs 0 comps fs ->
    type_means E defs (RSequence ext comps) (TSeq ext (zlen (filter rc_optional comps)) fs)
| S_seqof t T sz u : type_means E defs t T -> max_is E sz u ->
    type_means E defs (RSequenceOf t sz) (TSeqOf (min_of sz) u (ext_of sz) T)
| S_ref r t T : In (r, t) defs -> type_means E defs t T -> type_means E defs (RReference r) T
| S_set setref types al : open_mean E defs types al -> type_means E defs (RSet setref types) (TOpen al)
with alternatives_mean (E : env) (defs : list (string * rtype)) : bool -> Z -> list (string * rtype) -> alts -> Prop :=
| S_anil x i : alternatives_mean E defs x i [] ANil
| S_acons x i id t T r al : type_means E defs t T -> alternatives_mean E defs x (i + 1) r al ->
    alternatives_mean E defs x i ((id, t) :: r) (ACons i x T al)
with additions_mean (E : env) (defs : list (string * rtype)) : option (list (string * rtype)) -> alts -> Prop :=
| S_none : additions_mean E defs None ANil
| S_some l al : alternatives_mean E defs true 0 l al -> additions_mean E defs (Some l) al
with components_mean (E : env) (defs : list (string * rtype)) : Z -> list rcomp -> fields -> Prop :=
| S_cnil i : components_mean E defs i [] FNil
| S_copt i id t T key r l : type_means E defs t T -> components_mean E defs (i + 1) r l ->
    components_mean E defs i (mkRComp id t true key :: r) (FOpt i T l)
| S_cman i id t T key r l : type_means E defs t T -> components_mean E defs i r l ->
    components_mean E defs i (mkRComp id t false key :: r) (FMan key T l)
with open_mean (E : env) (defs : list (string * rtype)) : list (string * Z * rtype) -> alts -> Prop :=
| S_onil : open_mean E defs [] ANil
| S_ocons nm key t T r al : type_means E defs t T -> open_mean E defs r al ->
    open_mean E defs ((nm, key, t) :: r) (ACons key false T al).

(* ------------------------------------------------------------------ *)
(* Information objects (X.681)                                         *)
(* ------------------------------------------------------------------ *)
(* A field of an object is a type, if it is given, or a value of some type,
   with its name and number if it is a named number.  The type is given by its
   name (FieldType), or it is written out (FieldWritten): `&Type ::= T` and
   `&Type ::= OCTET STRING`. *)
Inductive field_meaning := FieldType (t : option ty) | FieldValue (t : ty) (id : option (string * Z)) | FieldWritten (t : ty).
(* An object: its fields by name. *)
Definition object_meaning : Type := list (string * field_meaning).
(* A set of objects, which are told apart by the named field. *)
Record set_meaning := mkSetMeaning { sm_unique : string; sm_objects : list object_meaning }.
Definition id_of (u : string) (o : object_meaning) : option (string * Z) :=
  match lookup u o with Some (FieldValue _ i) => i | _ => None end.
Definition well_identified (s : set_meaning) : Prop :=
  Forall (fun o => id_of (sm_unique s) o <> None) (sm_objects s) /\
  NoDup (map (id_of (sm_unique s)) (sm_objects s)).

Fixpoint alternatives (al : alts) : list (Z * bool * ty) :=
  match al with ANil => [] | ACons k x t r => (k, x, t) :: alternatives r end.
(* The open type of the field f over the objects of s: one alternative for
   every object that gives the field, under the number of the object, in the
   order of the names of these numbers.  (X.681 counts all types that are
   given; here only those given by name are listed, because the compiler
   leaves out the others, see C49_inline_type_refuted.) *)
Definition open_type (s : set_meaning) (f : string) (al : alts) : Prop :=
  exists l : list (string * Z * ty),
    Sorted.StronglySorted (fun a b => string_ltb (fst (fst a)) (fst (fst b)) = true) l /\
    alternatives al = map (fun e => (snd (fst e), false, snd e)) l /\
    forall nm z T, In (nm, z, T) l <->
      exists o, In o (sm_objects s) /\ id_of (sm_unique s) o = Some (nm, z) /\ lookup f o = Some (FieldType (Some T)).
(* `({S})` and `({S}{@component})` *)
Inductive over_set : constraint -> string -> bool -> Prop :=
| Over_table S : over_set (CSubtype (mkSet [[ESingle ("{ " ++ S ++ " }")]] None)) S false
| Over_relation S component : over_set (CTable (TableRelation S component)) S true.
(* Components `id CLASS.&f ({S})` and `x CLASS.&f ({S}{@id})`: the type of a
   value field is the one that the class gives to it, and the field that tells
   the objects apart selects the alternatives of the others. *)
Inductive class_fields (S : string) (s : set_meaning) : list seq_component -> fields -> Prop :=
| CF_nil : class_fields S s [] FNil
| CF_value id cl f c rel d T r l : over_set c S rel -> (rel = false <-> f = sm_unique s) ->
    (forall o, In o (sm_objects s) -> exists v, lookup f o = Some (FieldValue T v)) ->
    class_fields S s r l ->
    class_fields S s (mkSeqComp id (mkType (KReference (RefClassField cl f)) (Some [c])) false d :: r) (FMan (negb rel) T l)
| CF_type id cl f c rel d al r l : over_set c S rel ->
    (forall o T v, In o (sm_objects s) -> lookup f o <> Some (FieldValue T v)) -> open_type s f al ->
    class_fields S s r l ->
    class_fields S s (mkSeqComp id (mkType (KReference (RefClassField cl f)) (Some [c])) false d :: r) (FMan false (TOpen al) l).
Definition over_component (S : string) (c : seq_component) : Prop :=
  exists id cl f k rel d, c = mkSeqComp id (mkType (KReference (RefClassField cl f)) (Some [k])) false d /\ over_set k S rel.

(* ------------------------------------------------------------------ *)
(* What an ASN.1 type means                                            *)
(* ------------------------------------------------------------------ *)
Section Source.
(* the numbers that names stand for, in constraints and in the SIZE of a
   SEQUENCE OF, the type trees of named types, the named object sets, and the
   type trees of parameterized types with actual parameters *)
Context (V Vsize : string -> option Z) (types : string -> option ty) (sets : string -> option set_meaning).
Context (instances : string -> list actual_param -> ty -> Prop).

Definition unconstrained (cs : option (list constraint)) : Prop := cs = None \/ cs = Some [].
(* `(SIZE (s))` *)
Definition size_constraint (s : element_set) : constraint := CSubtype (mkSet [[ESize s]] None).
(* The constraint s permits the values from l to u. *)
Definition bounds_are (V : string -> option Z) (s : element_set) (l u : Z) : Prop :=
  regular_set V s /\ (exists b, only_set b s) /\
  is_least (set_permits V s) l /\ is_greatest (set_permits V s) u.
Inductive size_is (V : string -> option Z) : option (list constraint) -> option Z -> option Z -> bool -> Prop :=
| size_any cs : unconstrained cs -> size_is V cs None None false
| size_given s l u : bounds_are V s l u ->
    size_is V (Some [size_constraint s]) (Some l) (Some u) (extensible_set s).

(* `asn_means t T`: the values of the ASN.1 type t are those of the tree T,
   with the PER-visible bounds of T. *)
Inductive asn_means : asn_type -> ty -> Prop :=
| A_integer cs : unconstrained cs ->
    asn_means (mkType (KBuiltin BInteger) cs) (TInt None None false (mkIty true 64))
| A_integer_range s l u : bounds_are V s l u -> - 2 ^ 127 < l -> u < 2 ^ 127 ->
    asn_means (integer_type s) (TInt (Some l) (Some u) (extensible_set s) (mkIty (l <? 0) (chosen_width l u)))
| A_enumerated root marker ext cs : unconstrained cs ->
    Forall (fun v => ev_value v = None) (root ++ ext) -> root <> [] -> zlen root < 2 ^ 64 ->
    asn_means (mkType (KBuiltin (BEnumerated root marker ext)) cs)
      (TEnum (Some 0) (Some (zlen root - 1)) marker (mkIty false 8))
| A_boolean cs : unconstrained cs -> asn_means (mkType (KBuiltin BBoolean) cs) TBool
| A_null cs : unconstrained cs -> asn_means (mkType (KBuiltin BNull) cs) TNull
| A_oid cs : unconstrained cs -> asn_means (mkType (KBuiltin BObjectIdentifier) cs) TOid
| A_bits cs lb ub ext : size_is V cs lb ub ext -> asn_means (mkType (KBuiltin BBitString) cs) (TBits lb ub ext)
| A_octets cs lb ub ext : size_is V cs lb ub ext -> asn_means (mkType (KBuiltin BOctetString) cs) (TOctets lb ub ext)
| A_string st cs lb ub ext : known_string st = true -> size_is V cs lb ub ext ->
    asn_means (mkType (KBuiltin (BCharacterString st)) cs) (TStr lb ub ext)
(* BIT STRING (CONTAINING T) and OCTET STRING (CONTAINING T): the contents are
   the octets of the encoding of a T, and no bounds of their number are
   PER-visible (X.691 10.3.10) *)
| A_bits_containing : asn_means (mkType (KBuiltin BBitString) (Some [CContents])) (TBits None None false)
| A_octets_containing : asn_means (mkType (KBuiltin BOctetString) (Some [CContents])) (TOctets None None false)
| A_choice root additions cs roots adds : unconstrained cs -> root <> [] -> zlen root < 2 ^ 64 ->
    asn_alternatives false 0 root roots ->
    asn_additions additions adds ->
    asn_means (mkType (KChoice root additions) cs)
      (TChoice 0 (zlen root - 1) (match additions with Some _ => true | None => false end) (append_alts roots adds))
| A_sequence root additions ext cs fs : unconstrained cs -> asn_components 0 root fs ->
    asn_means (mkType (KSequence root additions ext) cs) (TSeq ext (zlen (filter comp_optional root)) fs)
| A_sequence_of size t T cs lb ub ext : unconstrained cs ->
    size_is Vsize (match size with Some c => Some [c] | None => None end) lb ub ext -> asn_means t T ->
    asn_means (mkType (KSequenceOf size t) cs) (TSeqOf lb ub ext T)
| A_reference r cs T : unconstrained cs -> types r = Some T -> asn_means (mkType (KReference (RefName r)) cs) T
| A_instance r ps cs T : unconstrained cs -> instances r ps T -> asn_means (mkType (KReference (RefParam r ps)) cs) T
| A_class_sequence S s root ext cs fs : unconstrained cs -> sets S = Some s -> sm_objects s <> [] -> root <> [] ->
    class_fields S s root fs -> asn_means (mkType (KSequence root [] ext) cs) (TSeq ext 0 fs)
(* There is no object in the set, hence no value of the SEQUENCE.  (The tree
   that the compiler takes for it has one, without components; those of later
   versions of an extensible set cannot be read, see
   C49_empty_set_loses_components_refuted.) *)
| A_class_sequence_none S s root ext cs : unconstrained cs -> sets S = Some s -> sm_objects s = [] -> root <> [] ->
    Forall (over_component S) root -> asn_means (mkType (KSequence root [] ext) cs) (TSeq ext 0 FNil)
with asn_alternatives : bool -> Z -> list (string * asn_type) -> alts -> Prop :=
| A_anil x i : asn_alternatives x i [] ANil
| A_acons x i id t T r al : asn_means t T -> asn_alternatives x (i + 1) r al ->
    asn_alternatives x i ((id, t) :: r) (ACons i x T al)
with asn_additions : option (list (list (string * asn_type))) -> alts -> Prop :=
| A_none : asn_additions None ANil
| A_groups gs al : asn_alternatives true 0 (List.concat gs) al -> asn_additions (Some gs) al
with asn_components : Z -> list seq_component -> fields -> Prop :=
| A_cnil i : asn_components i [] FNil
| A_copt i id t T d r l : asn_means t T -> asn_components (i + 1) r l ->
    asn_components i (mkSeqComp id t true d :: r) (FOpt i T l)
| A_cman i id t T d r l : asn_means t T -> asn_components i r l ->
    asn_components i (mkSeqComp id t false d :: r) (FMan false T l).

End Source.

(* A field of an object.  The types of value fields are those that the class
   gives to them.  A number is named, and `ids` says which number it is; other
   values are numbers and enumerators, which are not the names of definitions. *)
Definition literal (T : ty) (v : string) : Prop :=
  match T with TInt _ _ _ _ => parse_i128 v <> None | TEnum _ _ _ _ => True | _ => False end.
Inductive field_means (type_is class_type_is : asn_type -> ty -> Prop) (ids : string -> option Z) (is_name : string -> Prop) :
  string * object_field -> string * field_meaning -> Prop :=
| FM_no_type k : field_means type_is class_type_is ids is_name (k, OFType None) (k, FieldType None)
| FM_type k r cs T : type_is (mkType (KReference (RefName r)) cs) T ->
    field_means type_is class_type_is ids is_name (k, OFType (Some (mkType (KReference (RefName r)) cs))) (k, FieldType (Some T))
| FM_written k w cs T : (forall r, w <> KReference r) -> type_is (mkType w cs) T ->
    field_means type_is class_type_is ids is_name (k, OFType (Some (mkType w cs))) (k, FieldWritten T)
| FM_no_value k t T : class_type_is t T -> field_means type_is class_type_is ids is_name (k, OFValue t None) (k, FieldValue T None)
| FM_named k t T nm z : class_type_is t T -> ids nm = Some z ->
    field_means type_is class_type_is ids is_name (k, OFValue t (Some nm)) (k, FieldValue T (Some (nm, z)))
| FM_literal k t T v : class_type_is t T -> literal T v -> ~ is_name v ->
    field_means type_is class_type_is ids is_name (k, OFValue t (Some v)) (k, FieldValue T None).

(* ------------------------------------------------------------------ *)
(* Numbers and names                                                   *)
(* ------------------------------------------------------------------ *)
(* 0, 1, ..., n-1 *)
Definition counting (n : nat) : list Z := map Z.of_nat (seq 0 n).
(* The numbers present in a list of optional numbers, in order. *)
Fixpoint somes {A} (l : list (option A)) : list A :=
  match l with [] => [] | Some x :: r => x :: somes r | None :: r => somes r end.
Definition is_some {A} (o : option A) : bool := match o with Some _ => true | None => false end.

Fixpoint chars (s : string) : list ascii :=
  match s with EmptyString => [] | String c r => c :: chars r end.
(* X.680 12.2: a type reference is letters, digits and hyphens, and starts
   with an upper case letter. *)
Definition type_reference (s : string) : Prop :=
  match chars s with
  | [] => False
  | c :: r => is_upper c = true /\ Forall (fun c => is_alnum c = true \/ c = "-"%char) (c :: r)
  end.

(* The names handed out by one generator for the requests l, in order. *)
Fixpoint unique_names (l : list string) : G (list string) :=
  match l with
  | [] => gret []
  | n :: r => u <~ get_unique_name n ;; us <~ unique_names r ;; gret (u :: us)
  end.

(* ------------------------------------------------------------------ *)
(* Order of definitions and modules                                    *)
(* ------------------------------------------------------------------ *)
(* a stands before every occurrence of b. *)
Definition before (a b : string) (l : list string) : Prop :=
  forall pre post, l = pre ++ b :: post -> In a pre.
(* b needs a, directly. *)
Definition needs (edges : list (string * string)) (a b : string) : Prop := In (a, b) edges.
(* b needs a, through any number of others. *)
Inductive reaches (edges : list (string * string)) : string -> string -> Prop :=
| reach_one a b : needs edges a b -> reaches edges a b
| reach_more a b c : needs edges a b -> reaches edges b c -> reaches edges a c.
(* A name without spaces and braces. *)
Definition plain (s : string) : Prop := Forall (fun c => is_space c = false /\ is_brace c = false) (chars s).

(* ------------------------------------------------------------------ *)
(* What the definitions of modules mean                                *)
(* ------------------------------------------------------------------ *)
Definition def_names (m : module) : list string := map fst (m_defs m).
Definition import_names (m : module) : list string := map fst (m_imports m).
(* what is known of the names that m defines or imports *)
Definition restrict {A} (sees : string -> bool) (f : string -> option A) : string -> option A := fun r =>
  if sees r then f r else None.
Definition in_scope (m : module) (r : string) : bool := mem r (def_names m) || mem r (import_names m).
Definition scoped {A} (m : module) (f : string -> option A) : string -> option A := restrict (in_scope m) f.
(* The dependencies among the definitions of m that the compiler sees. *)
Definition definition_needs (m : module) : list (string * string) := g_edges (definitions_graph m).
Definition module_needs (modules : list (string * module)) : list (string * string) := g_edges (modules_graph modules).

(* What names stand for: numbers that may be used in constraints (values of
   type INTEGER), numbers that may be used as the ids of objects (values of
   named types that are INTEGER as well), types, sets of objects, and objects;
   and which parameterized types and classes are used. *)
Record meaning := mkMeaning {
  numbers : string -> option Z;
  ids : string -> option Z;
  types : string -> option ty;
  sets : string -> option set_meaning;
  objects : string -> option object_meaning;
  generics : string -> bool }.
Definition has_meaning (M : meaning) (k : string) : Prop :=
  types M k <> None \/ numbers M k <> None \/ ids M k <> None \/ sets M k <> None \/ objects M k <> None \/ generics M k = true.

Section Modules.
Context (M : meaning) (modules : list (string * module)).
(* `instance_means n sees r ps T`: T is the type tree of the type r{ps}, which
   is written where the names in `sees` are known; n bounds the nesting of
   parameterized types.  The type is the one that the words of the body of r
   denote when the actual parameters are put in the place of the formal ones.
   In it, the names are those of the place where r{ps} is written, for the
   actual parameters, and those that the definition of r mentions. *)
Fixpoint instance_means (n : nat) (sees : string -> bool) (r : string) (ps : list actual_param) (T : ty) : Prop :=
  match n with
  | O => False
  | S n => exists name m formals w t0 t,
      sees r = true /\ generics M r = true /\
      In (name, m) modules /\ In (r, mkDef (DKType t0) (Some (formals, w))) (m_defs m) /\
      List.length formals = List.length ps /\ ParamSpec.in_sequence formals ps /\
      ParserSpec.type_syntax (map (ParamSpec.renamed (ParamSpec.instead formals ps)) w) t /\
      let given u := mem u (map param_string ps) && sees u in
      let inside u := given u || (mem u (type_refs t0) && in_scope m u) in
      let in_sizes u := given u || mem u (import_names m) in
      asn_means (restrict inside (numbers M)) (restrict in_sizes (numbers M)) (restrict inside (types M)) (restrict inside (sets M))
        (instance_means n inside) t T
  end.
(* the name of a definition *)
Definition is_name (k : string) : Prop := exists n m, In (n, m) modules /\ In k (def_names m).
(* What types mean where the names in `sees` are known, and those in `sizes`
   in the SIZE of a SEQUENCE OF. *)
Definition means_in (n : nat) (sees sizes : string -> bool) : asn_type -> ty -> Prop :=
  asn_means (restrict sees (numbers M)) (restrict sizes (numbers M)) (restrict sees (types M)) (restrict sees (sets M)) (instance_means n sees).
Definition import_of (m : module) (r : string) : bool := mem r (import_names m).
Definition means_in_module (n : nat) (m : module) := means_in n (in_scope m) (import_of m).
(* The class that m knows under the name: it is defined in the module m',
   where the types of its fields are known. *)
Definition class_is (m : module) (class : string) (m' : module) (fields : list (string * class_field)) : Prop :=
  in_scope m class = true /\ generics M class = true /\
  exists n, In (n, m') modules /\ In (class, mkDef (DKClass fields) None) (m_defs m').
Definition means_in_class (n : nat) (m' : module) (fields : list (string * class_field)) :=
  means_in n (fun r => mem r (assignment_refs (DKClass fields)) && in_scope m' r) (import_of m').
(* The field u tells the objects of the class apart. *)
Definition class_id (fields : list (string * class_field)) (u : string) : Prop :=
  (exists t, In (u, CFValue t true) fields) /\ forall k t, In (k, CFValue t true) fields -> k = u.
(* The objects of a set: those written in it, those named in it, and those of
   the sets that are named in it. *)
Inductive elements_mean (n : nat) (m m' : module) (fields : list (string * class_field)) (u : string) : list set_element -> list object_meaning -> Prop :=
| EM_nil : elements_mean n m m' fields u [] []
| EM_object fs o r l :
    Forall2 (field_means (means_in_module n m) (means_in_class n m' fields) (restrict (import_of m) (ids M)) is_name) fs o ->
    elements_mean n m m' fields u r l -> elements_mean n m m' fields u (OObject (Some fs) :: r) (o :: l)
| EM_object_name k o r l : scoped m (objects M) k = Some o -> elements_mean n m m' fields u r l ->
    elements_mean n m m' fields u (OObjectRef k :: r) (o :: l)
| EM_set_name k s r l : scoped m (sets M) k = Some s -> sm_unique s = u -> elements_mean n m m' fields u r l ->
    elements_mean n m m' fields u (OSetRef k :: r) (sm_objects s ++ l).

(* M says what the definitions of m mean, as far as they are defined.  In the
   fields of an object that is defined under a name, only imported names are
   known. *)
Definition module_means (n : nat) (m : module) : Prop :=
  forall k d, In (k, d) (m_defs m) ->
    (forall T, types M k = Some T -> exists t, d = mkDef (DKType t) None /\ means_in_module n m t T) /\
    (forall z, numbers M k = Some z -> exists cs T text,
       d = mkDef (DKValue (mkType (KBuiltin BInteger) cs) text) None /\
       means_in_module n m (mkType (KBuiltin BInteger) cs) T /\ parse_i128 text = Some z) /\
    (forall z, ids M k = Some z -> exists t lb ub ext i text,
       d = mkDef (DKValue t text) None /\ means_in_module n m t (TInt lb ub ext i) /\ parse_i128 text = Some z) /\
    (forall s, sets M k = Some s -> exists class root additional m' fields,
       d = mkDef (DKObjectSet class root additional) None /\ class_is m class m' fields /\
       (sm_objects s <> [] -> class_id fields (sm_unique s)) /\
       elements_mean n m m' fields (sm_unique s) (root ++ additional) (sm_objects s) /\ well_identified s) /\
    (forall o, objects M k = Some o -> exists class fs m' fields,
       d = mkDef (DKObject class (Some fs)) None /\ class_is m class m' fields /\
       Forall2 (field_means (means_in n (import_of m) (import_of m)) (means_in_class n m' fields) (restrict (import_of m) (ids M)) is_name) fs o) /\
    (generics M k = true -> (exists t ps, d = mkDef (DKType t) (Some ps)) \/ exists fields, d = mkDef (DKClass fields) None).
End Modules.
(* Modules have different names, and so have all definitions; names have no
   spaces or braces and are not numbers; what a module imports is defined in
   the module that it is imported from. *)
Definition well_named (modules : list (string * module)) : Prop :=
  NoDup (map fst modules) /\
  NoDup (flat_map (fun nm => def_names (snd nm)) modules) /\
  Forall (fun nm => Forall (fun k => plain k /\ parse_i128 k = None) (def_names (snd nm))) modules.
Definition imports_defined (modules : list (string * module)) : Prop :=
  forall n m r n', In (n, m) modules -> In (r, n') (m_imports m) ->
    exists m', In (n', m') modules /\ In r (def_names m').
(* k does not need itself, and neither does anything that k needs. *)
Definition grounded (edges : list (string * string)) (k : string) : Prop :=
  forall a, a = k \/ reaches edges a k -> ~ reaches edges a a.
(* No definition with a meaning is recursive, and no module with such a
   definition imports from itself, directly or not. *)
Definition not_recursive (M : meaning) (modules : list (string * module)) : Prop :=
  forall n m k, In (n, m) modules -> In k (def_names m) -> has_meaning M k ->
    grounded (module_needs modules) n /\ grounded (definition_needs m) k.

(* The definition that is generated for the type t under the given name: the
   type is resolved, and then generated. *)
Definition definition_of (E : env) (defs : list (string * rdef)) (inst : string -> list actual_param -> res rtype)
    (t : asn_type) (name : string) : G gdef := fun s =>
  r <-- resolve_type E defs inst t ;; generate_for_type E r name s.
(* no parameterized types *)
Definition no_instances : string -> list actual_param -> res rtype := fun _ _ => Err.

(* ------------------------------------------------------------------ *)
(* Names of the generated definitions                                  *)
(* ------------------------------------------------------------------ *)
(* t is SEQUENCE, CHOICE or SEQUENCE OF *)
Definition constructed (t : rtype) : bool :=
  match t with RChoice _ _ | RSequence _ _ | RSequenceOf _ _ => true | _ => false end.
(* The names of the constructed types written inside the type t of the given
   name: that name followed by the name of the component. *)
Fixpoint inner_names (t : rtype) (name : string) : list string :=
  match t with
  | RChoice root additions =>
      let names (l : list (string * rtype)) :=
        flat_map (fun c => match c with (id, t) =>
          if constructed t then (name ++ id)%string :: inner_names t (name ++ id)%string else [] end) l in
      names root ++ match additions with Some l => names l | None => [] end
  | RSequence _ comps =>
      flat_map (fun c => match c with mkRComp id t _ _ =>
        if constructed t then (name ++ to_type_ident id)%string :: inner_names t (name ++ to_type_ident id)%string else [] end) comps
  | RSequenceOf t _ =>
      if constructed t then (name ++ "_Entry")%string :: inner_names t (name ++ "_Entry")%string else []
  | _ => []
  end.
(* No component has an open type. *)
Fixpoint no_open_types (t : rtype) : Prop :=
  match t with
  | RChoice root additions =>
      let check := all (fun c : string * rtype => match c with (_, t) => no_open_types t end) in
      check root /\ match additions with Some l => check l | None => True end
  | RSequence _ comps => all (fun c => match c with mkRComp _ t _ _ => no_open_types t end) comps
  | RSequenceOf t _ => no_open_types t
  | RSet _ _ => False
  | _ => True
  end.
(* The names of all types that are written out in the definitions. *)
Definition written_names (defs : list (string * rtype)) : list string :=
  flat_map (fun kt => fst kt :: inner_names (snd kt) (fst kt)) defs.
(* The name ends like those that are made up, in a space or hyphen and a number. *)
Definition numbered (s : string) : Prop :=
  exists base n, to_type_ident s = to_type_ident (base ++ " " ++ decimal n).

(* X.680 12.3: an identifier is letters, digits and hyphens, and starts with a
   lower case letter. *)
Definition identifier (s : string) : Prop :=
  match chars s with
  | [] => False
  | c :: r => is_lower c = true /\ Forall (fun c => is_alnum c = true \/ c = "-"%char) (c :: r)
  end.

(* ------------------------------------------------------------------ *)
(* Information object sets                                             *)
(* ------------------------------------------------------------------ *)
(* The unique field of the object o is given as the value named nm, which is
   the number z. *)
Definition object_id (defs : list (string * rdef)) (unique : option string) (o : robject) (nm : string) (z : Z) : Prop :=
  exists u t v, unique = Some u /\ lookup u o = Some (RFValue t (Some (VReference nm))) /\
    lookup nm defs = Some (DValue v) /\ base_integer_value v = Some z.
(* The type field f of the object o is the type named r. *)
Definition object_type (f : string) (o : robject) (r : string) : Prop :=
  lookup f o = Some (RFType (Some (RReference r))).
(* The objects of a set are told apart by their unique field. *)
Definition distinct_ids (defs : list (string * rdef)) (unique : option string) (objects : list robject) : Prop :=
  forall o o' nm z, In o objects -> In o' objects -> object_id defs unique o nm z -> object_id defs unique o' nm z -> o = o'.
(* The table of a set lists its objects by their unique field. *)
Definition table_of (defs : list (string * rdef)) (unique : option string) (s : robject_set) : Prop :=
  NoDup (map fst (os_lookup s)) /\
  (forall z nm o, In (z, nm, o) (os_lookup s) -> In o (os_elements s) /\ object_id defs unique o nm z) /\
  (forall o nm z, In o (os_elements s) -> object_id defs unique o nm z -> exists o', In (z, nm, o') (os_lookup s)).
(* Sets named in the set are those of the same class. *)
Definition sets_known (defs : list (string * rdef)) (unique : option string) (elems : list set_element) : Prop :=
  forall r s, In (OSetRef r) elems -> lookup r defs = Some (DObjectSet s) -> table_of defs unique s.
(* The objects of a set: those written in it, those named in it, and those of
   the sets that are named in it. *)
Inductive element_of (E : env) (defs : list (string * rdef)) (inst : string -> list actual_param -> res rtype) (fuel : nat) :
  set_element -> robject -> Prop :=
| El_object v o : resolve_object E defs inst fuel v = Ok o -> element_of E defs inst fuel (OObject v) o
| El_ref r o : lookup r defs = Some (DObject o) -> element_of E defs inst fuel (OObjectRef r) o
| El_set r s o : lookup r defs = Some (DObjectSet s) -> In o (os_elements s) -> element_of E defs inst fuel (OSetRef r) o.
(* A component `id CLASS.&f (...)` of a SEQUENCE over the objects of s: a value
   field has the type given in the class, and decides the type of the others
   unless it refers to another component; any other field is open. *)
Inductive class_component (setref : string) (s : robject_set) (first : robject) : string * asn_type -> rcomp -> Prop :=
| CC_value id cl f c cs t v : lookup f first = Some (RFValue t v) ->
    class_component setref s first (id, mkType (KReference (RefClassField cl f)) (Some (c :: cs)))
      (mkRComp id t false (negb (has_comp_reference c)))
| CC_open id cl f cs : (forall t v, lookup f first <> Some (RFValue t v)) ->
    class_component setref s first (id, mkType (KReference (RefClassField cl f)) cs)
      (mkRComp id (RSet setref (open_types f s)) false false).
