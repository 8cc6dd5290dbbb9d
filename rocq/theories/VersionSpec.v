(* Two versions of a type, and the values that they have in common (C64). *)
From Coq Require Import ZArith List Bool.
Require Import Verif.Base Verif.CodecModel Verif.DeriveModel Verif.DeriveSpec.
Import ListNotations.
Open Scope Z_scope.

(* The types that have no parts. *)
Definition simple (t : ty) : Prop :=
  match t with TSeq _ _ _ | TSeqOf _ _ _ _ | TChoice _ _ _ _ | TOpen _ => False | _ => True end.
(* An alternative is known by its number, and by whether it was added behind
   the extension marker. *)
Fixpoint marks (al : alts) : list (Z * bool) :=
  match al with ANil => [] | ACons k x _ al => (k, x) :: marks al end.

(* `newer t1 t2`: t2 is a later version of t1.  CHOICE and open types may have
   got new alternatives in any place; their numbers are not those of the old
   alternatives that follow.  (Components added behind the marker of a SEQUENCE
   and items added to an ENUMERATED type do not show in the tree.) *)
Inductive newer : ty -> ty -> Prop :=
| N_simple t : simple t -> newer t t
| N_seq ext n fs1 fs2 : newer_fields fs1 fs2 -> newer (TSeq ext n fs1) (TSeq ext n fs2)
| N_seqof lb ub ext t1 t2 : newer t1 t2 -> newer (TSeqOf lb ub ext t1) (TSeqOf lb ub ext t2)
| N_choice lb ub ext al1 al2 : newer_alts al1 al2 -> newer (TChoice lb ub ext al1) (TChoice lb ub ext al2)
| N_open al1 al2 : newer_alts al1 al2 -> newer (TOpen al1) (TOpen al2)
with newer_fields : fields -> fields -> Prop :=
| N_fnil : newer_fields FNil FNil
| N_fopt i t1 t2 fs1 fs2 : newer t1 t2 -> newer_fields fs1 fs2 -> newer_fields (FOpt i t1 fs1) (FOpt i t2 fs2)
| N_fman key t1 t2 fs1 fs2 : newer t1 t2 -> newer_fields fs1 fs2 -> newer_fields (FMan key t1 fs1) (FMan key t2 fs2)
with newer_alts : alts -> alts -> Prop :=
| N_anil : newer_alts ANil ANil
| N_kept k x t1 t2 r1 r2 : newer t1 t2 -> ~ In (k, x) (marks r1) -> ~ In (k, x) (marks r2) -> newer_alts r1 r2 ->
    newer_alts (ACons k x t1 r1) (ACons k x t2 r2)
| N_added k x t r1 r2 : ~ In k (alt_keys r1) -> ~ In (k, x) (marks r2) -> newer_alts r1 r2 -> newer_alts r1 (ACons k x t r2).

(* `same_value t1 t2 v1 v2`: v2 is, in the type t2, the value that v1 is in
   the type t1: the alternatives have the same numbers, the components and
   elements are the same in order. *)
Inductive same_value : ty -> ty -> val -> val -> Prop :=
| V_simple t v : simple t -> same_value t t v v
| V_seq ext n fs1 fs2 l1 l2 : same_fields fs1 fs2 l1 l2 -> same_value (TSeq ext n fs1) (TSeq ext n fs2) (VSeq l1) (VSeq l2)
| V_seqof lb ub ext t1 t2 l1 l2 : same_list t1 t2 l1 l2 -> same_value (TSeqOf lb ub ext t1) (TSeqOf lb ub ext t2) (VList l1) (VList l2)
| V_choice lb ub ext al1 al2 n1 n2 k x t1 t2 v1 v2 : alt_at al1 n1 = Some (k, x, t1) -> alt_at al2 n2 = Some (k, x, t2) ->
    same_value t1 t2 v1 v2 -> same_value (TChoice lb ub ext al1) (TChoice lb ub ext al2) (VAlt n1 v1) (VAlt n2 v2)
| V_open al1 al2 n1 n2 k x t1 t2 v1 v2 : alt_at al1 n1 = Some (k, x, t1) -> alt_at al2 n2 = Some (k, x, t2) ->
    same_value t1 t2 v1 v2 -> same_value (TOpen al1) (TOpen al2) (VAlt n1 v1) (VAlt n2 v2)
with same_fields : fields -> fields -> list (option val) -> list (option val) -> Prop :=
| V_fnil : same_fields FNil FNil [] []
| V_absent i t1 t2 fs1 fs2 l1 l2 : same_fields fs1 fs2 l1 l2 -> same_fields (FOpt i t1 fs1) (FOpt i t2 fs2) (None :: l1) (None :: l2)
| V_present i t1 t2 fs1 fs2 v1 v2 l1 l2 : same_value t1 t2 v1 v2 -> same_fields fs1 fs2 l1 l2 ->
    same_fields (FOpt i t1 fs1) (FOpt i t2 fs2) (Some v1 :: l1) (Some v2 :: l2)
| V_fman key t1 t2 fs1 fs2 v1 v2 l1 l2 : same_value t1 t2 v1 v2 -> same_fields fs1 fs2 l1 l2 ->
    same_fields (FMan key t1 fs1) (FMan key t2 fs2) (Some v1 :: l1) (Some v2 :: l2)
with same_list : ty -> ty -> list val -> list val -> Prop :=
| V_lnil t1 t2 : same_list t1 t2 [] []
| V_lcons t1 t2 v1 v2 l1 l2 : same_value t1 t2 v1 v2 -> same_list t1 t2 l1 l2 -> same_list t1 t2 (v1 :: l1) (v2 :: l2).
