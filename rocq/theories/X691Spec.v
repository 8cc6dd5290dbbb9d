(* What it means for the codec to follow X.691 (X691.v), and the cases in which
   it does.  No reference to how the codec computes. *)
From Coq Require Import ZArith List Bool.
Require Import Verif.Base Verif.CodecModel Verif.Spec Verif.X691.
Import ListNotations.
Open Scope Z_scope.

(* At every alignment the call succeeds and appends an encoding that satisfies P. *)
Definition follows (enc : M unit) (P : Z -> list bool -> Prop) : Prop :=
  forall a, exists e, writes enc a e /\ P a e.
(* Every encoding that satisfies P decodes to v, whatever surrounds it. *)
Definition understands {A} (dec : M A) (P : Z -> list bool -> Prop) (v : A) : Prop :=
  forall a e, P a e -> reads dec a e v.

(* The bits of a BIT STRING are the bits of its value. *)
Definition bits_id (l : list bool) : list bool := l.

(* Ranges for which the width of the length field is computed as in X.691. *)
Definition x_regular (lb ub : Z) : Prop := ub - lb + 1 <> 2 ^ 32 /\ ub - lb + 1 <> 2 ^ 64.
Definition int_regular (lb ub : option Z) : Prop :=
  match lb, ub with
  | Some l, Some u => i128 l /\ i128 u /\ u - l + 1 < 2 ^ 127 /\ x_regular l u
  | _, _ => True
  end.
(* Values the decoder can represent and handles. *)
Definition x_readable (lb ub : option Z) (v : Z) : Prop :=
  i128 v /\
  match lb, ub with
  | Some _, Some _ => True
  | Some l, None => v - l < 2 ^ 127
  | None, _ => - 2 ^ 63 <= v < 2 ^ 63 \/ v < - 2 ^ 119 \/ 2 ^ 119 <= v
  end.
(* The most significant bit of the minimal octets of x is 0. *)
Definition x_top_bit_clear (x : Z) : Prop := forall n, 1 <= n -> ~ (2 ^ (8 * n - 1) <= x < 2 ^ (8 * n)).
(* Strings on which the code and X.691 agree: below 16K when the size has a
   small bound, and not in the variable-size case where X.691 pads in front
   of a short string but the code does not. *)
Definition str_regular {A} (short : Z) (lb ub : option Z) (l : list A) : Prop :=
  size_sane lb ub /\
  match ub with
  | Some u => u < 65536 -> zlen l < 16384 /\ (u = opt0 lb \/ zlen l = 0 \/ short < zlen l \/ 255 <= u - opt0 lb)
  | None => True
  end.
(* Bits that make the call fail wherever they are placed. *)
Definition refuses_input {A} (dec : M A) (P : Z -> list bool -> Prop) : Prop :=
  forall a e, P a e -> forall p s k, zlen p mod 8 = a mod 8 -> fits (p ++ e ++ s) ->
    fst (dec (mkD (p ++ e ++ s) (zlen p) k)) = Err.
