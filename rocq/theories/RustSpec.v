(* What the Rust items of a generated program mean: which codec functions the
   derive macro calls for them (RustModel.v), and which values they hold. *)
From Coq Require Import ZArith NArith List Bool String Permutation.
Require Import Verif.Base Verif.DeriveModel Verif.Asn1Model Verif.GenModel Verif.DefinitionModel Verif.RustModel.
Import ListNotations.
Open Scope string_scope.
Open Scope Z_scope.
Open Scope list_scope.

(* The Rust integer types. *)
Definition int_type (id : string) : option ity :=
  match id with
  | "u8" => Some (mkIty false 8) | "u16" => Some (mkIty false 16) | "u32" => Some (mkIty false 32) | "u64" => Some (mkIty false 64)
  | "i8" => Some (mkIty true 8) | "i16" => Some (mkIty true 16) | "i32" => Some (mkIty true 32) | "i64" => Some (mkIty true 64)
  | _ => None
  end.

(* The code that the macro writes is well typed for the item: the struct or
   enum holds what the codec functions take and return. *)
Definition field_fits (f : rfield) (i : fimpl) : Prop :=
  match i with
  | FieldOptional _ t => rf_ty f = RPath "Option" [RPath t []]
  | FieldMandatory _ t => rf_ty f = RPath t []
  end.
Definition fits (d : rdata) (c : impl) : Prop :=
  match c with
  | IBoolean => d = RStruct (Unnamed [RPath "bool" []])
  | INull | IOid => d = RStruct Unit
  | IInteger _ _ _ t | IEnumerated _ _ _ t => d = RStruct (Unnamed [t])
  | IBitString _ _ _ => d = RStruct (Unnamed [RPath "BitVec" [RPath "u8" []; RPath "Msb0" []]])
  | IOctetString _ _ _ => d = RStruct (Unnamed [RPath "Vec" [RPath "u8" []]])
  | ICharString _ _ _ _ => d = RStruct (Unnamed [RPath "String" []])
  | ISequenceOf _ _ _ t => d = RStruct (Unnamed [RPath "Vec" [RPath t []]])
  | ISequence _ _ fs => exists l, d = RStruct (Named l) /\ Forall2 field_fits l fs
  | IChoice _ _ _ vs => exists l, d = REnum l /\ Forall2 (fun v x => rv_fields v = Unnamed [snd x]) l vs
  | IOpen vs => exists l, d = REnum l /\ Forall2 (fun v x => rv_fields v = Unnamed [snd x]) l vs
  end.

(* `rust_means items n T`: in the program made of the items, values of the type
   called n are encoded and decoded as values of the type tree T. *)
Inductive impl_means (items : list ritem) : impl -> ty -> Prop :=
| V_boolean : impl_means items IBoolean TBool
| V_null : impl_means items INull TNull
| V_oid : impl_means items IOid TOid
| V_integer lb ub ext id i : int_type id = Some i -> impl_means items (IInteger lb ub ext (RPath id [])) (TInt lb ub ext i)
| V_enumerated lb ub ext id i : int_type id = Some i -> impl_means items (IEnumerated lb ub ext (RPath id [])) (TEnum lb ub ext i)
| V_bits lb ub ext : impl_means items (IBitString lb ub ext) (TBits lb ub ext)
| V_octets lb ub ext : impl_means items (IOctetString lb ub ext) (TOctets lb ub ext)
| V_chars kind lb ub ext : impl_means items (ICharString kind lb ub ext) (TStr lb ub ext)
| V_choice lb ub ext vs al : choices_mean items vs al -> impl_means items (IChoice lb ub ext vs) (TChoice lb ub ext al)
| V_sequence ext n fs l : members_mean items fs l -> impl_means items (ISequence ext n fs) (TSeq ext n l)
| V_sequence_of lb ub ext t T : rust_means items t T -> impl_means items (ISequenceOf lb ub ext t) (TSeqOf lb ub ext T)
| V_open vs al : opens_mean items vs al -> impl_means items (IOpen vs) (TOpen al)
with rust_means (items : list ritem) : string -> ty -> Prop :=
| V_item n attrs d c T : In (Derived n attrs d) items -> derive attrs d = Ok c -> fits d c -> impl_means items c T -> rust_means items n T
| V_alias n t T : In (TypeAlias n t) items -> rust_means items t T -> rust_means items n T
with choices_mean (items : list ritem) : list (Z * bool * rty) -> alts -> Prop :=
| V_cnil : choices_mean items [] ANil
| V_ccons k x t T vs al : rust_means items t T -> choices_mean items vs al ->
    choices_mean items ((k, x, RPath t []) :: vs) (ACons k x T al)
(* the alternatives of an open type are told apart by the key only *)
with opens_mean (items : list ritem) : list (Z * rty) -> alts -> Prop :=
| V_onil : opens_mean items [] ANil
| V_ocons k t T vs al : rust_means items t T -> opens_mean items vs al ->
    opens_mean items ((k, RPath t []) :: vs) (ACons k false T al)
with members_mean (items : list ritem) : list fimpl -> fields -> Prop :=
| V_mnil : members_mean items [] FNil
| V_mopt i t T fs l : rust_means items t T -> members_mean items fs l ->
    members_mean items (FieldOptional i t :: fs) (FOpt i T l)
| V_mman key t T fs l : rust_means items t T -> members_mean items fs l ->
    members_mean items (FieldMandatory key t :: fs) (FMan key T l).

(* ------------------------------------------------------------------ *)
(* Programs                                                            *)
(* ------------------------------------------------------------------ *)
(* The types named in a definition. *)
Definition used_types (d : gdef) : list string :=
  match d with
  | GChoice _ _ _ vs | GOpen _ vs => map gv_type vs
  | GSequence _ _ fs => map gf_type fs
  | GSequenceOf _ t | GAlias t => [t]
  | _ => []
  end.
(* A definition has no more than 2^64 components or alternatives. *)
Definition countable (d : gdef) : Prop :=
  match d with
  | GChoice _ _ _ vs | GOpen _ vs => zlen vs <= 2 ^ 64
  | GSequence _ _ fs => zlen fs <= 2 ^ 64
  | _ => True
  end.
(* A definition that is derived: neither another name for a type, nor a string
   type that the macro does not know. *)
Definition supported_item (d : gdef) : Prop :=
  match d with
  | GAlias _ => False
  | GCharString st _ => st = "UTF8String" \/ st = "PrintableString" \/ st = "VisibleString"
  | _ => True
  end.
(* The name of a type in one module is not that of a value, object or object
   set in another. *)
Definition names_apart (modules : list (string * parsed_module)) : Prop := forall n m n' m' k d d' t,
  In (n, m) modules -> In (n', m') modules -> In (k, d) (pm_defs m) -> In (k, d') (pm_defs m') ->
  pd_params d = None -> pd_kind d = PAType t -> pd_params d' = None ->
  match pd_kind d' with PAType _ | PAClass _ => True | _ => False end.
(* Words that are no identifiers in Rust (2018): strict and reserved keywords. *)
Definition rust_keywords : list string :=
  ["as"; "break"; "const"; "continue"; "crate"; "else"; "enum"; "extern"; "false"; "fn"; "for"; "if"; "impl"; "in"; "let"; "loop";
   "match"; "mod"; "move"; "mut"; "pub"; "ref"; "return"; "self"; "Self"; "static"; "struct"; "super"; "trait"; "true"; "type";
   "unsafe"; "use"; "where"; "while"; "async"; "await"; "dyn"; "abstract"; "become"; "box"; "do"; "final"; "macro"; "override";
   "priv"; "typeof"; "unsized"; "virtual"; "yield"; "try"].

(* ------------------------------------------------------------------ *)
(* Attributes as they are written by hand                              *)
(* ------------------------------------------------------------------ *)
Inductive avalue := VText (s : string) | VNumber (z : Z) | VFlag (b : bool).
Definition value_tokens (v : avalue) : list atok :=
  match v with VText s => [AStr s] | VNumber z => number z | VFlag b => [boolean b] end.
(* #[asn(a = x, b = y)] *)
Definition written (l : list (string * avalue)) : attr :=
  asn (commas (map (fun kv => [AIdent (fst kv); AEq] ++ value_tokens (snd kv)) l)).
(* The attributes `a` say what the list l says, in one #[asn(...)] or in
   several. *)
Definition says (a : list attr) (l : list (string * avalue)) : Prop := exists ls, a = map written ls /\ l = List.concat ls.
(* The same attributes, in another order and grouped in another way. *)
Definition same_attrs (a b : list attr) : Prop :=
  exists l l', says a l /\ says b l' /\ NoDup (map fst l) /\ Permutation l l'.
Definition same_field (f g : rfield) : Prop := rf_name f = rf_name g /\ rf_ty f = rf_ty g /\ same_attrs (rf_attrs f) (rf_attrs g).
Definition same_variant (v w : rvariant) : Prop := rv_name v = rv_name w /\ rv_fields v = rv_fields w /\ same_attrs (rv_attrs v) (rv_attrs w).
Inductive same_data : rdata -> rdata -> Prop :=
| SD_tuple l : same_data (RStruct (Unnamed l)) (RStruct (Unnamed l))
| SD_unit : same_data (RStruct Unit) (RStruct Unit)
| SD_struct l l' : Forall2 same_field l l' -> same_data (RStruct (Named l)) (RStruct (Named l'))
| SD_enum l l' : Forall2 same_variant l l' -> same_data (REnum l) (REnum l').
(* The attributes that there are for a type, and for a field or variant. *)
Definition type_attribute (k : string) (v : avalue) : Prop :=
  match v with
  | VText _ => In k ["type"; "lb"; "ub"; "sz_lb"; "sz_ub"]
  | VNumber _ => k = "optional_fields"
  | VFlag _ => In k ["extensible"; "sz_extensible"]
  end.
Definition field_attribute (k : string) (v : avalue) : Prop :=
  match v with
  | VText _ => False
  | VNumber _ => In k ["key"; "optional_idx"]
  | VFlag _ => In k ["extended"; "key_field"]
  end.
