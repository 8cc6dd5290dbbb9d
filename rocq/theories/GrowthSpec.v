(* How long the encoding of a value is (C66).  The measures of a value, `nodes`
   and `payload`, are those of SizeSpec. *)
From Coq Require Import ZArith List Bool.
Require Import Verif.Base Verif.DeriveModel Verif.SizeSpec.
Import ListNotations.
Open Scope Z_scope.

Fixpoint count_fields (fs : fields) : Z :=
  match fs with FNil => 0 | FOpt _ _ fs | FMan _ _ fs => 1 + count_fields fs end.
(* No SEQUENCE in the type announces more OPTIONAL components than it has
   components. *)
Fixpoint bitmaps_fit (t : ty) : Prop :=
  match t with
  | TSeq _ n fs => n <= count_fields fs /\ bitmaps_fit_fields fs
  | TSeqOf _ _ _ t => bitmaps_fit t
  | TChoice _ _ _ al | TOpen al => bitmaps_fit_alts al
  | _ => True
  end
with bitmaps_fit_fields (fs : fields) : Prop :=
  match fs with FNil => True | FOpt _ t fs | FMan _ t fs => bitmaps_fit t /\ bitmaps_fit_fields fs end
with bitmaps_fit_alts (al : alts) : Prop :=
  match al with ANil => True | ACons _ _ t al => bitmaps_fit t /\ bitmaps_fit_alts al end.
