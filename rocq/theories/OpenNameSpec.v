(* The names of the types written in definitions with open types (C36). *)
From Coq Require Import ZArith List Bool String.
Require Import Verif.Base Verif.Asn1Model Verif.GenModel Verif.CompilerSpec.
Import ListNotations.

(* t is SEQUENCE, CHOICE, SEQUENCE OF or an open type *)
Definition written_out (t : rtype) : bool :=
  match t with RSet _ _ => true | _ => constructed t end.
(* The names of the types that are written out inside the type t of the given name:
   that name followed by the name of the component. *)
Fixpoint nested_names (t : rtype) (name : string) : list string :=
  match t with
  | RChoice root additions =>
      let names (l : list (string * rtype)) :=
        flat_map (fun c => match c with (id, t) =>
          if written_out t then (name ++ id)%string :: nested_names t (name ++ id)%string else [] end) l in
      names root ++ match additions with Some l => names l | None => [] end
  | RSequence _ comps =>
      flat_map (fun c => match c with mkRComp id t _ _ =>
        if written_out t then (name ++ to_type_ident id)%string :: nested_names t (name ++ to_type_ident id)%string else [] end) comps
  | RSequenceOf t _ =>
      if written_out t then (name ++ "_Entry")%string :: nested_names t (name ++ "_Entry")%string else []
  | _ => []
  end.
(* The types in open types have names, or are base types. *)
Fixpoint plain_open_types (t : rtype) : Prop :=
  match t with
  | RChoice root additions =>
      let check := all (fun c : string * rtype => match c with (_, t) => plain_open_types t end) in
      check root /\ match additions with Some l => check l | None => True end
  | RSequence _ comps => all (fun c => match c with mkRComp _ t _ _ => plain_open_types t end) comps
  | RSequenceOf t _ => plain_open_types t
  | RSet _ types => Forall (fun c => written_out (snd c) = false) types
  | _ => True
  end.
(* The names of all types that are written out in the definitions. *)
Definition names_written (defs : list (string * rtype)) : list string :=
  flat_map (fun kt => fst kt :: nested_names (snd kt) (fst kt)) defs.
