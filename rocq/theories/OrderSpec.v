(* What is asked of a schema so that its definitions mean the same in whatever
   order they are resolved (C57). *)
From Coq Require Import ZArith NArith List Bool String Ascii.
Require Import Verif.Base Verif.Asn1Model Verif.GenModel Verif.ResolveModel Verif.ParserModel Verif.ModuleModel Verif.DefinitionModel Verif.CompilerSpec.
Import ListNotations.
Open Scope Z_scope.

(* The texts of values in a definition, with the types that govern them. *)
Definition object_texts (v : object_value) : list (asn_type * string) :=
  match v with
  | None => []
  | Some fields =>
      flat_map (fun f : string * object_field => match snd f with OFValue t (Some s) => [(t, s)] | _ => [] end) fields
  end.
Definition value_texts (a : assignment) : list (asn_type * string) :=
  match a with
  | DKValue t s => [(t, s)]
  | DKObject _ v => object_texts v
  | DKObjectSet _ root additional =>
      flat_map (fun e => match e with OObject v => object_texts v | _ => [] end) (root ++ additional)
  | DKType _ | DKClass _ => []
  end.
(* ENUMERATED, a name of such a type, or a parameterized type, which may turn
   out to be one *)
Inductive may_be_enumerated (modules : list (string * module)) : asn_type -> Prop :=
| ME_enumerated root ext more cs : may_be_enumerated modules (mkType (KBuiltin (BEnumerated root ext more)) cs)
| ME_name r cs a m t p : In (a, m) modules -> In (r, mkDef (DKType t) p) (m_defs m) -> may_be_enumerated modules t ->
    may_be_enumerated modules (mkType (KReference (RefName r)) cs)
| ME_instance r ps cs : may_be_enumerated modules (mkType (KReference (RefParam r ps)) cs).
(* The value of an ENUMERATED type is an item of the type, and not the name of
   a definition. *)
Definition items_apart (modules : list (string * module)) : Prop :=
  forall a m k d t s, In (a, m) modules -> In (k, d) (m_defs m) -> In (t, s) (value_texts (d_kind d)) ->
    may_be_enumerated modules t -> ~ is_name modules s.

(* The names of the object sets, and the parameterized definitions. *)
Definition set_names (modules : list (string * module)) : list string :=
  flat_map (fun nm : string * module =>
    flat_map (fun kd : string * definition => match d_kind (snd kd) with DKObjectSet _ _ _ => [fst kd] | _ => [] end) (m_defs (snd nm))) modules.
Definition generic_definitions (modules : list (string * module)) : list (string * definition) :=
  flat_map (fun nm : string * module =>
    filter (fun kd : string * definition => match d_params (snd kd) with Some _ => true | None => false end) (m_defs (snd nm))) modules.
(* Either the first component of a SEQUENCE is a field of a class, or it is not
   constrained by an object set. *)
Definition settled_first (sets : list string) (c : seq_component) : bool :=
  match c with
  | mkSeqComp _ (mkType (KReference (RefClassField _ _)) _) _ _ => true
  | mkSeqComp _ (mkType _ (Some (x :: _))) _ _ => match set_reference x with Ok r => negb (mem r sets) | _ => true end
  | _ => true
  end.
Section Settled.
Context (sets : list string) (instance : string -> list actual_param -> bool).
(* So it is for all SEQUENCE types in t. *)
Fixpoint settled_type (t : asn_type) : bool :=
  match t with
  | mkType (KReference (RefParam r ps)) _ => instance r ps
  | mkType (KChoice root additions) _ =>
      let component (c : string * asn_type) := match c with (_, t) => settled_type t end in
      forallb component root && match additions with Some gs => forallb (forallb component) gs | None => true end
  | mkType (KSequence root additions _) _ =>
      let component (c : seq_component) := match c with mkSeqComp _ t _ _ => settled_type t end in
      match root with [] => true | c :: _ => settled_first sets c end && forallb component root
  | mkType (KSequenceOf _ t) _ => settled_type t
  | _ => true
  end.
Definition settled_object (v : object_value) : bool :=
  match v with
  | None => true
  | Some fields =>
      forallb (fun f : string * object_field =>
        match snd f with OFType None => true | OFType (Some t) => settled_type t | OFValue t _ => settled_type t end) fields
  end.
Definition settled_assignment (a : assignment) : bool :=
  match a with
  | DKValue t _ | DKType t => settled_type t
  | DKObject _ v => settled_object v
  | DKObjectSet _ root additional =>
      forallb (fun e => match e with OObject v => settled_object v | _ => true end) (root ++ additional)
  | DKClass _ => true
  end.
End Settled.
(* So it is for the types that references with parameters stand for, to the
   given depth. *)
Fixpoint settled_instance (modules : list (string * module)) (depth : nat) (r : string) (ps : list actual_param) : bool :=
  match depth with
  | O => true
  | S n =>
      match lookup r (generic_definitions modules) with
      | None => true
      | Some d => match apply_params d ps with Ok t => settled_type (set_names modules) (settled_instance modules n) t | _ => true end
      end
  end.
Definition settled (depth : nat) (modules : list (string * module)) : Prop :=
  forall a m k d, In (a, m) modules -> In (k, d) (m_defs m) -> d_params d = None ->
    settled_assignment (set_names modules) (settled_instance modules depth) (d_kind d) = true.
