(* Vocabulary in which the codec properties are stated.  It mentions only the
   buffer, the read position and the outcome of calls. *)
From Coq Require Import ZArith List Bool.
Require Import Verif.Base Verif.CodecModel.
Import ListNotations.
Open Scope Z_scope.

(* Buffers bitvec can represent: fewer than 2^61 bits (usize::MAX >> 3). *)
Definition fits (l : list bool) : Prop := zlen l < 2 ^ 61.

(* Called on any buffer whose length is congruent to `a` mod 8, `m` succeeds
   and appends exactly the bits `e`; nothing else of the data changes. *)
Definition writes (m : M unit) (a : Z) (e : list bool) : Prop :=
  forall p o k, zlen p mod 8 = a mod 8 ->
    m (mkD p o k) = (Ok tt, mkD (p ++ e) o k).

(* Placed at any position congruent to `a` mod 8, in front of the bits `e`,
   with any data before and after, `m` succeeds with `v`, moves the read
   position to the end of `e` and changes nothing else. *)
Definition reads {A} (m : M A) (a : Z) (e : list bool) (v : A) : Prop :=
  forall p s k, zlen p mod 8 = a mod 8 -> fits (p ++ e ++ s) ->
    m (mkD (p ++ e ++ s) (zlen p) k)
    = (Ok v, mkD (p ++ e ++ s) (zlen p + zlen e) k).

(* Encoding then decoding gives back the value, at every alignment, whatever
   surrounds the encoding. *)
Definition round_trips {A} (enc : M unit) (dec : M A) (v : A) : Prop :=
  forall a, exists e, writes enc a e /\ reads dec a e v.

(* Padding needed at a position congruent to a mod 8. *)
Definition pad (a : Z) : list bool := repeat false (Z.to_nat ((- a) mod 8)).

(* Values of Rust's i128. *)
Definition i128 (z : Z) : Prop := - 2 ^ 127 <= z < 2 ^ 127.

Definition opt0 (o : option Z) : Z := match o with Some x => x | None => 0 end.

(* Size bounds as the compiler emits them: usize values, lower <= upper. *)
Definition size_sane (lb ub : option Z) : Prop :=
  match lb with Some l => 0 <= l < 2 ^ 64 | None => True end /\
  match ub with Some u => opt0 lb <= u < 2 ^ 64 | None => True end.

(* The length of a string with these bounds is written in whole octets, on an
   octet boundary. *)
Definition whole_octet_length (lb ub : option Z) : bool :=
  match ub with Some u => (65536 <=? u) || (255 <=? u - opt0 lb) | None => true end.

(* Bytes. *)
Definition bytes_ok (l : list Z) : Prop := Forall (fun b => 0 <= b < 256) l.
