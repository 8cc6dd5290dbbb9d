(* Names that Rust accepts (C68). *)
From Coq Require Import ZArith NArith List Bool String Ascii.
Require Import Verif.Base Verif.Asn1Model Verif.GenModel Verif.ResolveModel Verif.ModuleModel Verif.DefinitionModel Verif.CompilerSpec
  Verif.RustModel Verif.RustSpec Verif.WordSpec.
Import ListNotations.
Open Scope string_scope.
Open Scope list_scope.
Open Scope Z_scope.

(* A word of Rust: letters, digits and underscores, starting with a letter.  Those
   among them that are no keywords (RustSpec.rust_keywords) are identifiers. *)
Definition word (s : string) : Prop :=
  match chars s with
  | [] => False
  | c :: r => (is_lower c || is_upper c) = true /\ Forall (fun c => is_alnum c = true \/ c = "_"%char) r
  end.
(* A name of ASN.1. *)
Definition asn_name (s : string) : Prop := identifier s \/ type_reference s.
(* All names in an item: of its fields, variants and constants, and of the types
   that it uses. *)
Definition item_names (d : gdef) : list string :=
  match d with
  | GEnumerated _ _ consts => map fst consts
  | GChoice _ _ _ vs | GOpen _ vs => map gv_name vs ++ map gv_type vs
  | GSequence _ _ fs => map gf_name fs ++ map gf_type fs
  | GSequenceOf _ t | GAlias t => [t]
  | _ => []
  end.

(* Names that are not keywords, in whatever case they are written; `type` may be
   used. *)
Definition no_keyword (s : string) : Prop := asn_name s /\ (bare s = "type" \/ ~ In (bare s) rust_keywords).

Section Names.
Context (P : string -> Prop).       (* the names that may be written *)
(* All names written in a type are such. *)
Fixpoint spelled (t : rtype) : Prop :=
  match t with
  | REnumerated _ l => Forall (fun c => P (fst c)) l
  | RChoice root additions =>
      let check := all (fun c : string * rtype => match c with (id, t) => P id /\ spelled t end) in
      check root /\ match additions with Some l => check l | None => True end
  | RSequence _ comps => all (fun c => match c with mkRComp id t _ _ => P id /\ spelled t end) comps
  | RSequenceOf t _ => spelled t
  | RReference r => P r
  | RSet r l => P r /\ all (fun c : string * Z * rtype => match c with (id, _, t) => P id /\ spelled t end) l
  | _ => True
  end.
(* What begins with a letter is such a name. *)
Definition neat (s : string) : Prop :=
  match chars s with
  | [] => True
  | c :: _ => (is_lower c || is_upper c) = true -> P s
  end.
(* The components, alternatives and items written in a type of a module have such
   names, and the actual parameters that are written as names are such, too. *)
Fixpoint named (t : asn_type) : Prop :=
  match t with
  | mkType (KBuiltin (BEnumerated root _ _)) _ => Forall (fun v => P (ev_name v)) root
  | mkType (KChoice root additions) _ =>
      let check := all (fun c : string * asn_type => match c with (id, t) => P id /\ named t end) in
      check root /\ match additions with Some gs => all check gs | None => True end
  | mkType (KSequence root additions _) _ =>
      let check := all (fun c => match c with mkSeqComp id t _ _ => P id /\ named t end) in
      check root /\ all check additions
  | mkType (KSequenceOf _ t) _ => named t
  | mkType (KReference (RefParam _ actual)) _ => Forall (fun p => neat (param_string p)) actual
  | _ => True
  end.
Definition named_field (f : string * object_field) : Prop :=
  match snd f with OFType (Some t) | OFValue t _ => named t | OFType None => True end.
Definition named_object (v : object_value) : Prop := match v with Some fields => Forall named_field fields | None => True end.
(* So do those of a definition, or of what becomes of it with actual parameters. *)
Definition named_definition (d : definition) : Prop :=
  match d_params d with
  | Some _ => forall actual t, Forall (fun p => neat (param_string p)) actual -> apply_params d actual = Ok t -> named t
  | None =>
      match d_kind d with
      | DKType t => named t
      | DKObject _ v => named_object v
      | DKObjectSet _ root more => Forall (fun e => match e with OObject v => named_object v | _ => True end) (root ++ more)
      | DKValue _ _ | DKClass _ => True
      end
  end.
Definition well_spelled (modules : list (string * module)) : Prop :=
  forall a m k d, In (a, m) modules -> In (k, d) (m_defs m) -> P k /\ named_definition d.
End Names.
