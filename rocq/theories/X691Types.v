(* The ALIGNED variant of PER for whole types, written down from ITU-T X.691
   (07/2002) independently of the code, on top of the rules of X691.v for
   numbers, lengths and strings.  The trees `ty` and the values `val` are those
   of DeriveModel; the numbers that the attributes carry (`key`,
   `optional_idx`, `optional_fields`) play no role here. *)
From Coq Require Import ZArith List Bool.
Require Import Verif.Base Verif.Spec Verif.DeriveModel Verif.DeriveSpec Verif.X691.
Import ListNotations.
Open Scope Z_scope.

(* 27.5 strings of characters of 8 bits each.  They are octet-aligned as octet
   strings are, except that a string of variable size is not if it has never
   more than one character.  UTF8String (27.6) is the case without bounds. *)
Inductive x_characters : option Z -> option Z -> list Z -> Z -> list bool -> Prop :=
| xch_aligned lb ub l a e : (forall u, ub = Some u -> x_lower lb < u -> 16 <= 8 * u) ->
    x_string bytes_bits 2 lb ub l a e -> x_characters lb ub l a e
| xch_tiny lb u l a e : x_lower lb < u -> 8 * u < 16 -> x_length lb (Some u) (zlen l) a e ->
    x_characters lb (Some u) l a (e ++ bytes_bits l).

(* 18.2: one bit for each OPTIONAL component, in their order. *)
Fixpoint x_presence (fs : fields) (vs : list (option val)) : list bool :=
  match fs, vs with
  | FOpt _ _ fs, o :: vs => present o :: x_presence fs vs
  | FMan _ _ fs, _ :: vs => x_presence fs vs
  | _, _ => []
  end.

(* 22.2: the alternatives of the root are numbered from 0.  (They are listed in
   the order of their tags, which is the order of the text under automatic
   tagging.) *)
Fixpoint x_root_alternatives (al : alts) : Z :=
  match al with
  | ANil => 0
  | ACons _ extended _ al => (if extended then 0 else 1) + x_root_alternatives al
  end.
Fixpoint x_index (al : alts) (n : nat) : Z :=
  match al, n with
  | ACons _ extended _ al, S n => (if extended then 0 else 1) + x_index al n
  | _, _ => 0
  end.
Definition x_alternative (al : alts) (n : nat) (extended : bool) (t : ty) : Prop :=
  exists key, alt_at al n = Some (key, extended, t).

(* 10.1: a complete encoding is a whole number of octets, and at least one. *)
Definition x_complete (c : list bool) (octets : list Z) : Prop :=
  bytes_ok octets /\ bytes_bits octets = match c with [] => repeat false 8 | _ => c ++ x_pad (zlen c) end.

(* Which bits encode the value v of type T from position a on.  Only values
   without extension additions. *)
Inductive x_value : ty -> val -> Z -> list bool -> Prop :=
(* 11 *)
| XV_boolean b a : x_value TBool (VB b) a [b]
(* 17 *)
| XV_null a : x_value TNull VU a []
(* 12 *)
| XV_integer lb ub ext i z a e : x_root ext (x_root_integer lb ub z) a e -> x_value (TInt lb ub ext i) (VI z) a e
(* 13: z is the index of the enumerator *)
| XV_enumerated lb ub ext i z a e : x_root ext (x_constrained lb ub z) a e ->
    x_value (TEnum (Some lb) (Some ub) ext i) (VI z) a e
(* 15 *)
| XV_bit_string lb ub ext l a e : x_root ext (x_string (fun l => l) 16 lb ub l) a e ->
    x_value (TBits lb ub ext) (VBitStr l) a e
(* 16 *)
| XV_octet_string lb ub ext l a e : x_root ext (x_string bytes_bits 2 lb ub l) a e ->
    x_value (TOctets lb ub ext) (VOctStr l) a e
(* 27 *)
| XV_character_string lb ub ext l a e : x_root ext (x_characters lb ub l) a e ->
    x_value (TStr lb ub ext) (VOctStr l) a e
(* 18 *)
| XV_sequence ext n fs vs a h e : x_root ext (fun _ h => h = x_presence fs vs) a h -> x_components fs vs (a + zlen h) e ->
    x_value (TSeq ext n fs) (VSeq vs) a (h ++ e)
(* 19 *)
| XV_sequence_of lb ub ext t l a h e : x_root ext (x_length lb ub (zlen l)) a h -> x_elements t l (a + zlen h) e ->
    x_value (TSeqOf lb ub ext t) (VList l) a (h ++ e)
(* 22 *)
| XV_choice lb ub ext al n t v a h e : x_alternative al n false t ->
    x_root ext (x_constrained 0 (x_root_alternatives al - 1) (x_index al n)) a h -> x_value t v (a + zlen h) e ->
    x_value (TChoice lb ub ext al) (VAlt n v) a (h ++ e)
(* 10.2 *)
| XV_open_type al n x t v c octets a e : x_alternative al n x t ->
    x_value t v 0 c -> x_complete c octets -> x_fragments bytes_bits octets a e ->
    x_value (TOpen al) (VAlt n v) a e
with x_components : fields -> list (option val) -> Z -> list bool -> Prop :=
| XC_nil a : x_components FNil [] a []
| XC_absent i t fs vs a e : x_components fs vs a e -> x_components (FOpt i t fs) (None :: vs) a e
| XC_present i t fs v vs a e1 e2 : x_value t v a e1 -> x_components fs vs (a + zlen e1) e2 ->
    x_components (FOpt i t fs) (Some v :: vs) a (e1 ++ e2)
| XC_mandatory key t fs v vs a e1 e2 : x_value t v a e1 -> x_components fs vs (a + zlen e1) e2 ->
    x_components (FMan key t fs) (Some v :: vs) a (e1 ++ e2)
with x_elements : ty -> list val -> Z -> list bool -> Prop :=
| XE_nil t a : x_elements t [] a []
| XE_cons t v l a e1 e2 : x_value t v a e1 -> x_elements t l (a + zlen e1) e2 ->
    x_elements t (v :: l) a (e1 ++ e2).

(* The octets that X.691 prescribes for a value on its own. *)
Definition x_octets_of (t : ty) (v : val) (octets : list Z) : Prop :=
  exists c, x_value t v 0 c /\ x_complete c octets.
