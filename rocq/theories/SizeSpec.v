(* How much is built from a message (C63). *)
From Coq Require Import ZArith List Bool.
Require Import Verif.Base Verif.CodecModel Verif.DeriveModel.
Import ListNotations.
Open Scope Z_scope.

(* The number of values that a value consists of: itself, and those of its
   components, elements and alternatives.  An absent component counts too. *)
Fixpoint nodes (v : val) : Z :=
  match v with
  | VSeq l => 1 + (fix go (l : list (option val)) : Z :=
                     match l with [] => 0 | None :: l => 1 + go l | Some x :: l => nodes x + go l end) l
  | VList l => 1 + (fix go (l : list val) : Z := match l with [] => 0 | x :: l => nodes x + go l end) l
  | VAlt _ v => 1 + nodes v
  | _ => 1
  end.
(* The bits in all of its strings. *)
Fixpoint payload (v : val) : Z :=
  match v with
  | VBitStr l => zlen l
  | VOctStr l => 8 * zlen l
  | VSeq l => (fix go (l : list (option val)) : Z :=
                 match l with [] => 0 | None :: l => go l | Some x :: l => payload x + go l end) l
  | VList l => (fix go (l : list val) : Z := match l with [] => 0 | x :: l => payload x + go l end) l
  | VAlt _ v => payload v
  | _ => 0
  end.
(* The most values that one value of the type consists of if every list in it
   has one element. *)
Fixpoint span (t : ty) : Z :=
  match t with
  | TSeq _ _ fs => 1 + span_fields fs
  | TSeqOf _ _ _ t => 1 + span t
  | TChoice _ _ _ al | TOpen al => 1 + span_alts al
  | _ => 1
  end
with span_fields (fs : fields) : Z :=
  match fs with FNil => 0 | FOpt _ t fs | FMan _ t fs => span t + span_fields fs end
with span_alts (al : alts) : Z :=
  match al with ANil => 0 | ACons _ _ t al => Z.max (span t) (span_alts al) end.
