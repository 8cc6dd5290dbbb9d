(* Parameters (X.683): what it means to put actual parameters in the place of
   the formal ones. *)
From Coq Require Import ZArith List Bool String Ascii.
Require Import Verif.Base Verif.Asn1Model Verif.TokenModel Verif.ParserModel Verif.ParserSpec Verif.DefinitionSpec.
Import ListNotations.
Open Scope string_scope.
Open Scope list_scope.

(* The name s, or the actual parameter at the place of the formal parameter s. *)
Fixpoint instead (formals : list string) (actuals : list actual_param) (s : string) : string :=
  match formals, actuals with
  | f :: fs, a :: l => if string_dec s f then param_string a else instead fs l s
  | _, _ => s
  end.

Section Substitution.
Context (to : string -> string).
Definition renamed (t : tok) : tok := mkTok (t_type t) (to (t_text t)).
Definition kept (s : string) : Prop := to s = s.

(* ------------------------------------------------------------------ *)
(* The type t' is the type t with every name replaced.  The names of     *)
(* components, alternatives and enumerators stay, and so does            *)
(* everything else.                                                    *)
(* ------------------------------------------------------------------ *)
(* a value is the text of some words *)
Definition subst_value (v v' : string) : Prop := exists ts, v = text ts /\ v' = text (map renamed ts).
Inductive subst_option {A} (P : A -> A -> Prop) : option A -> option A -> Prop :=
| Su_none : subst_option P None None
| Su_some a b : P a b -> subst_option P (Some a) (Some b).
Inductive subst_number : named_value -> named_value -> Prop :=
| Su_number n : subst_number (Number n) (Number n)
| Su_number_ref r : subst_number (ValueRef r) (ValueRef (to r)).
Inductive subst_enum : enum_value -> enum_value -> Prop :=
| Su_enum id n n' : subst_option subst_number n n' -> subst_enum (mkEnumValue id n) (mkEnumValue id n').
Inductive subst_builtin : builtin -> builtin -> Prop :=
| Su_builtin b : (forall root m ext, b <> BEnumerated root m ext) -> subst_builtin b b
| Su_enumerated root root' m ext ext' : Forall2 subst_enum root root' -> Forall2 subst_enum ext ext' ->
    subst_builtin (BEnumerated root m ext) (BEnumerated root' m ext').
Inductive subst_param : actual_param -> actual_param -> Prop :=
| Su_single s : subst_param (PSingle s) (PSingle (to s))
| Su_set s : subst_param (PSet s) (PSet (to s)).
Inductive subst_name : string -> string -> Prop :=
| Su_plain r : subst_name r (to r)
| Su_dotted m r : subst_name (m ++ "." ++ r) (to m ++ "." ++ to r).
Inductive subst_ref : type_ref -> type_ref -> Prop :=
| Su_name r r' : subst_name r r' -> subst_ref (RefName r) (RefName r')
| Su_field c f : subst_ref (RefClassField c f) (RefClassField (to c) f)
| Su_params r r' l l' : subst_name r r' -> Forall2 subst_param l l' -> subst_ref (RefParam r l) (RefParam r' l').
Inductive subst_type : asn_type -> asn_type -> Prop :=
| Su_type k k' cs cs' : subst_kind k k' -> Forall2 subst_constraint cs cs' -> subst_type (mkType k (Some cs)) (mkType k' (Some cs'))
with subst_kind : type_kind -> type_kind -> Prop :=
| Su_base b b' : subst_builtin b b' -> subst_kind (KBuiltin b) (KBuiltin b')
| Su_reference r r' : subst_ref r r' -> subst_kind (KReference r) (KReference r')
| Su_choice root root' additions additions' : Forall2 subst_alternative root root' ->
    subst_option (Forall2 (Forall2 subst_alternative)) additions additions' ->
    subst_kind (KChoice root additions) (KChoice root' additions')
| Su_sequence root root' additions additions' ext : Forall2 subst_component root root' ->
    Forall2 (Forall2 subst_component) additions additions' ->
    subst_kind (KSequence root additions ext) (KSequence root' additions' ext)
| Su_sequence_of c c' t t' : subst_option subst_constraint c c' -> subst_type t t' ->
    subst_kind (KSequenceOf c t) (KSequenceOf c' t')
with subst_component : seq_component -> seq_component -> Prop :=
| Su_component id t t' o d d' : subst_type t t' -> subst_option subst_value d d' ->
    subst_component (mkSeqComp id t o d) (mkSeqComp id t' o d')
with subst_alternative : string * asn_type -> string * asn_type -> Prop :=
| Su_alternative id t t' : subst_type t t' -> subst_alternative (id, t) (id, t')
with subst_constraint : constraint -> constraint -> Prop :=
| Su_subtype s s' : subst_set s s' -> subst_constraint (CSubtype s) (CSubtype s')
| Su_relation s c : subst_constraint (CTable (TableRelation s c)) (CTable (TableRelation (to s) c))
| Su_contents : subst_constraint CContents CContents
with subst_set : element_set -> element_set -> Prop :=
| Su_elements root root' more more' : Forall2 (Forall2 subst_element) root root' ->
    subst_option (Forall2 (Forall2 subst_element)) more more' -> subst_set (mkSet root more) (mkSet root' more')
with subst_element : elements -> elements -> Prop :=
| Su_value v v' : subst_value v v' -> subst_element (ESingle v) (ESingle v')
| Su_range l li u ui : subst_element (ERange l li u ui) (ERange (to l) li (to u) ui)
| Su_size s s' : subst_set s s' -> subst_element (ESize s) (ESize s')
| Su_alphabet s s' : subst_set s s' -> subst_element (EAlphabet s) (EAlphabet s')
| Su_inner s s' : subst_set s s' -> subst_element (ESet s) (ESet s')
| Su_subtype_of t t' : subst_type t t' -> subst_element (ESubtype t) (ESubtype t').

(* ------------------------------------------------------------------ *)
(* Where the parameters fit the tokens                                 *)
(* ------------------------------------------------------------------ *)
(* only names are replaced, a type by a type, a class by a class *)
Definition fits (w : list tok) : Prop :=
  (forall t, In t w -> t_type t <> Identifier -> kept (t_text t)) /\
  (forall t, In t w -> t_type t = Identifier -> type_name (t_text t) -> type_name (to (t_text t))) /\
  (forall a c f b, w = a ++ I c :: DOT :: F f :: b -> class_name c -> class_name (to c)) /\
  (* x(r): a named number *)
  (forall a x t b, w = a ++ I x :: L_PAREN :: t :: b -> value_name x ->
     kept x /\ (value_name (t_text t) -> t_type t = Identifier -> value_name (to (t_text t)))).
(* the names of components, alternatives and enumerators *)
Fixpoint declared_type (t : asn_type) : list string :=
  match t with
  | mkType k cs =>
      match k with
      | KBuiltin (BEnumerated root _ ext) => map ev_name (root ++ ext)
      | KBuiltin _ | KReference _ | KSet | KSetOf => []
      | KChoice root additions =>
          let alternative (c : string * asn_type) := match c with (id, t) => id :: declared_type t end in
          flat_map alternative root ++ match additions with Some gs => flat_map (flat_map alternative) gs | None => [] end
      | KSequence root additions _ =>
          let component (c : seq_component) := match c with mkSeqComp id t _ _ => id :: declared_type t end in
          flat_map component root ++ flat_map (flat_map component) additions
      | KSequenceOf c t => match c with Some c => declared_constraint c | None => [] end ++ declared_type t
      end ++ match cs with Some l => flat_map declared_constraint l | None => [] end
  end
with declared_constraint (c : constraint) : list string :=
  match c with CSubtype s => declared_set s | _ => [] end
with declared_set (s : element_set) : list string :=
  match s with
  | mkSet root more =>
      flat_map (flat_map declared_element) root ++ match more with Some m => flat_map (flat_map declared_element) m | None => [] end
  end
with declared_element (e : elements) : list string :=
  match e with
  | ESize s | EAlphabet s | ESet s => declared_set s
  | ESubtype t => declared_type t
  | ESingle _ | ERange _ _ _ _ => []
  end.
Definition apart (t : asn_type) : Prop := Forall kept (declared_type t).
End Substitution.

(* No actual parameter is the name of a later formal one. *)
Definition in_sequence (formals : list string) (actuals : list actual_param) : Prop :=
  forall i j f a, (i < j)%nat -> nth_error formals j = Some f -> nth_error actuals i = Some a -> param_string a <> f.
