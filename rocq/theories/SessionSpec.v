(* What is asked of the calls on a compiler object, and of the schema, so that
   earlier calls do not show in the program that is printed (C62). *)
From Coq Require Import ZArith NArith List Bool String Ascii.
Require Import Verif.Base Verif.Asn1Model Verif.GenModel Verif.ResolveModel Verif.ParserModel Verif.ModuleModel Verif.DefinitionModel Verif.CompilerSpec Verif.SessionModel.
Import ListNotations.

(* The calls add modules of `parsed` and resolve, in any order of the
   definitions; nothing is generated yet. *)
Definition early (parsed : list (string * parsed_module)) (x : call) : Prop :=
  match x with Add m => lookup (pm_name m) parsed = Some m | Resolve _ => True | Generate => False end.
Definition all_added (parsed : list (string * parsed_module)) (h : list call) : Prop :=
  forall a, In a (map fst parsed) -> exists m, pm_name m = a /\ In (Add m) h.
(* A module has been added that imports from one that has not. *)
Definition incomplete (h : list call) : Prop :=
  exists m i, In (Add m) h /\ In i (pm_imports m) /\ forall m', In (Add m') h -> pm_name m' <> snd i.
(* Every call of resolve_modules comes too early. *)
Definition only_incomplete (h : list call) : Prop := forall x o y, h = x ++ Resolve o :: y -> incomplete x.
(* No call has panicked. *)
Definition alive (answers : list answer) : Prop :=
  forall a, In a answers -> a <> Resolved Panic /\ a <> Resolved Diverge /\ a <> Printed Panic /\ a <> Printed Diverge.
(* Object sets have one element at most before the `...`, and one at most
   behind it. *)
Definition small_set (d : definition) : Prop :=
  match d_kind d with DKObjectSet _ root additional => (List.length root <= 1 /\ List.length additional <= 1)%nat | _ => True end.
Definition small_sets (modules : list (string * module)) : Prop := forall a m k d, In (a, m) modules -> In (k, d) (m_defs m) -> small_set d.
(* The sorts leave nothing out, as they do with cycles. *)
Definition all_resolved (modules : list (string * module)) (orders : list (string * list string)) : Prop :=
  forall a m k, In (a, m) modules -> In k (def_names m) -> exists o, In (a, o) orders /\ In k o.
