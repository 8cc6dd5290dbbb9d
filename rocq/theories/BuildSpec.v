(* What is to be shown of the profiles in which the crates may be built (C67). *)
From Coq Require Import ZArith List Bool.
Require Import Verif.Base Verif.CodecModel Verif.DeriveModel.
Require Verif.Api Verif.SessionModel.

(* A build in which arithmetic that leaves its type panics (cargo's dev profile) and
   one in which it wraps around (its release profile), for a host whose byte order
   is given by `le`. *)
Definition debug_build (le : bool) : env := {| overflow_checks := true; little_endian := le |}.
Definition release_build (le : bool) : env := {| overflow_checks := false; little_endian := le |}.
(* The debug build panics, or the release build gives the same result. *)
Definition panics_or_same {A} (in_debug in_release : res A) : Prop := in_debug = Panic \/ in_release = in_debug.
(* The same for what is done to a buffer: result and buffer are the same. *)
Definition panics_or_does_same {A} (in_debug in_release : res A * cdata) : Prop := fst in_debug = Panic \/ in_release = in_debug.

(* No character string occurs in the type. *)
Fixpoint no_strings (t : ty) : Prop :=
  match t with
  | TStr _ _ _ => False
  | TSeq _ _ fs => no_strings_fields fs
  | TSeqOf _ _ _ t => no_strings t
  | TChoice _ _ _ al => no_strings_alts al
  | TOpen al => no_strings_alts al
  | _ => True
  end
with no_strings_fields (fs : fields) : Prop :=
  match fs with FNil => True | FOpt _ t r => no_strings t /\ no_strings_fields r | FMan _ t r => no_strings t /\ no_strings_fields r end
with no_strings_alts (al : alts) : Prop :=
  match al with ANil => True | ACons _ _ t r => no_strings t /\ no_strings_alts r end.

Definition no_string_call (c : Verif.Api.prim) : Prop := match c with Verif.Api.PString _ _ _ => False | _ => True end.
(* Two hosts on which builds of one profile run. *)
Definition same_profile (E E' : env) : Prop := overflow_checks E = overflow_checks E'.
(* The results are the same, and so is the buffer unless the thread panics. *)
Definition does_same {A} (a b : res A * cdata) : Prop := fst a = fst b /\ (fst a <> Panic -> snd a = snd b).

(* One of the calls on a Compiler object ends in a panic. *)
Definition some_call_panics (l : list Verif.SessionModel.answer) : Prop :=
  In (Verif.SessionModel.Resolved Panic) l \/ In (Verif.SessionModel.Printed Panic) l.
