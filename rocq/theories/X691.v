(* The ALIGNED variant of PER, written down from ITU-T X.691 independently of
   the code.  Each relation says which bits `e` encode a value when the
   encoding starts at a position congruent to `a` modulo 8.  Clause numbers are
   those of X.691 (07/2002). *)
From Coq Require Import ZArith List Bool.
Require Import Verif.Base.
Import ListNotations.
Open Scope Z_scope.

(* n is the least number with property P. *)
Definition least (P : Z -> Prop) (n : Z) : Prop := P n /\ forall m, P m -> n <= m.

(* 10.3: v as a non-negative-binary-integer in w bits, first bit most
   significant. *)
Definition x_field (w v : Z) (e : list bool) : Prop := zlen e = w /\ bits_val e = v.
(* 10.4: v as a 2's-complement-binary-integer in w bits. *)
Definition x_signed_field (w v : Z) (e : list bool) : Prop :=
  zlen e = w /\ bits_val e = (if v <? 0 then v + 2 ^ w else v).
(* Fewest bits that can hold `count` different values. *)
Definition x_width (count w : Z) : Prop := least (fun w => 0 <= w /\ count <= 2 ^ w) w.
(* Fewest octets, at least one, for the non-negative number x. *)
Definition x_octets (x n : Z) : Prop := least (fun n => 1 <= n /\ x < 256 ^ n) n.
(* Fewest octets for the 2's-complement of v. *)
Definition x_signed_octets (v n : Z) : Prop :=
  least (fun n => 1 <= n /\ - 2 ^ (8 * n - 1) <= v < 2 ^ (8 * n - 1)) n.

(* Zero bits up to the next octet boundary. *)
Definition x_pad (a : Z) : list bool := repeat false (Z.to_nat ((8 - a mod 8) mod 8)).

(* 10.5 constrained whole number. *)
Inductive x_constrained : Z -> Z -> Z -> Z -> list bool -> Prop :=
(* 10.5.4 *)
| xc_single lb a : x_constrained lb lb lb a []
(* 10.5.7.1 *)
| xc_bit_field lb ub v a w e : lb <= v <= ub -> 2 <= ub - lb + 1 <= 255 ->
    x_width (ub - lb + 1) w -> x_field w (v - lb) e -> x_constrained lb ub v a e
(* 10.5.7.2 *)
| xc_one_octet lb ub v a e : lb <= v <= ub -> ub - lb + 1 = 256 ->
    x_field 8 (v - lb) e -> x_constrained lb ub v a (x_pad a ++ e)
(* 10.5.7.3 *)
| xc_two_octets lb ub v a e : lb <= v <= ub -> 257 <= ub - lb + 1 <= 65536 ->
    x_field 16 (v - lb) e -> x_constrained lb ub v a (x_pad a ++ e)
(* 10.5.7.4, 12.2.6 a: the length is a constrained whole number between 1 and
   the number of octets of the largest offset *)
| xc_indefinite lb ub v a m n e1 e2 : lb <= v <= ub -> 65536 < ub - lb + 1 ->
    x_octets (ub - lb) m -> x_octets (v - lb) n ->
    x_constrained 1 m n a e1 -> x_field (8 * n) (v - lb) e2 ->
    x_constrained lb ub v a (e1 ++ x_pad (a + zlen e1) ++ e2).

(* 10.9.3.5-10.9.3.7: lengths below 16K without a small upper bound. *)
Inductive x_long_length : Z -> Z -> list bool -> Prop :=
| xl_short n a e : 0 <= n <= 127 -> x_field 7 n e -> x_long_length n a (x_pad a ++ [false] ++ e)
| xl_medium n a e : 128 <= n < 16384 -> x_field 14 n e -> x_long_length n a (x_pad a ++ [true; false] ++ e).

Definition x_lower (lb : option Z) : Z := match lb with Some l => l | None => 0 end.
(* An upper bound below 64K. *)
Definition x_small_bound (ub : option Z) : bool := match ub with Some u => u <? 65536 | None => false end.

(* 10.9.3.3, 10.9.4: lengths below 16K or with a small upper bound. *)
Inductive x_length : option Z -> option Z -> Z -> Z -> list bool -> Prop :=
| xl_constrained lb u n a e : u < 65536 -> x_constrained (x_lower lb) u n a e -> x_length lb (Some u) n a e
| xl_unbounded lb ub n a e : x_small_bound ub = false -> x_lower lb <= n ->
    match ub with Some u => n <= u | None => True end ->
    x_long_length n a e -> x_length lb ub n a e.

(* 10.9.3.4 normally small length. *)
Inductive x_small_length : Z -> Z -> list bool -> Prop :=
| xsl_small n a e : 1 <= n <= 64 -> x_field 6 (n - 1) e -> x_small_length n a (false :: e)
| xsl_large n a e : 64 < n -> x_long_length n (a + 1) e -> x_small_length n a (true :: e).

(* 10.7 semi-constrained whole number. *)
Inductive x_semi_constrained : Z -> Z -> Z -> list bool -> Prop :=
| xs lb v a n e1 e2 : lb <= v -> x_octets (v - lb) n -> x_long_length n a e1 ->
    x_field (8 * n) (v - lb) e2 -> x_semi_constrained lb v a (e1 ++ e2).
(* 10.8 unconstrained whole number. *)
Inductive x_unconstrained : Z -> Z -> list bool -> Prop :=
| xu v a n e1 e2 : x_signed_octets v n -> x_long_length n a e1 ->
    x_signed_field (8 * n) v e2 -> x_unconstrained v a (e1 ++ e2).
(* 10.6 normally small non-negative whole number. *)
Inductive x_small_number : Z -> Z -> list bool -> Prop :=
| xsn_small v a e : 0 <= v <= 63 -> x_field 6 v e -> x_small_number v a (false :: e)
| xsn_large v a e : 64 <= v -> x_semi_constrained 0 v (a + 1) e -> x_small_number v a (true :: e).

(* 12.2 INTEGER, without extension bit. *)
Inductive x_root_integer : option Z -> option Z -> Z -> Z -> list bool -> Prop :=
| xi_constrained l u v a e : x_constrained l u v a e -> x_root_integer (Some l) (Some u) v a e
| xi_semi l v a e : x_semi_constrained l v a e -> x_root_integer (Some l) None v a e
| xi_none ub v a e : x_unconstrained v a e -> x_root_integer None ub v a e.

(* 12.1, 13.2, 13.3, 22.5-22.8: a type with an extension marker puts one bit in
   front: 0 for a root value. *)
Inductive x_root (ext : bool) (P : Z -> list bool -> Prop) : Z -> list bool -> Prop :=
| xr_plain a e : ext = false -> P a e -> x_root ext P a e
| xr_marked a e : ext = true -> P (a + 1) e -> x_root ext P a (false :: e).

(* 10.9.3.8: items in fragments of 16K, 32K, 48K or 64K, then the rest.
   `ser` gives the bits of a list of items. *)
Inductive x_fragments {A} (ser : list A -> list bool) : list A -> Z -> list bool -> Prop :=
| xf_last l a e : x_long_length (zlen l) a e -> x_fragments ser l a (e ++ ser l)
| xf_more k l1 l2 a e1 e2 : 1 <= k <= 4 -> zlen l1 = k * 16384 -> x_field 6 k e1 ->
    x_fragments ser l2 (a + zlen (x_pad a ++ [true; true] ++ e1 ++ ser l1)) e2 ->
    x_fragments ser (l1 ++ l2) a (x_pad a ++ [true; true] ++ e1 ++ ser l1 ++ e2).

(* Not an encoding: after any number of fragments, one that announces no block
   of 16K or more than four.  `item` holds of well-formed items. *)
Inductive x_bad_fragments {A} (item : A -> Prop) (ser : list A -> list bool) : Z -> list bool -> Prop :=
| xb_here k a e : k = 0 \/ 4 < k -> x_field 6 k e -> x_bad_fragments item ser a (x_pad a ++ [true; true] ++ e)
| xb_later k l a e1 e2 : 1 <= k <= 4 -> Forall item l -> zlen l = k * 16384 -> x_field 6 k e1 ->
    x_bad_fragments item ser (a + zlen (x_pad a ++ [true; true] ++ e1 ++ ser l)) e2 ->
    x_bad_fragments item ser a (x_pad a ++ [true; true] ++ e1 ++ ser l ++ e2).

(* 15.8-15.11 BIT STRING and 16.5-16.8 OCTET STRING contents.  `short` is the
   largest fixed size that is not octet-aligned: 16 bits or 2 octets. *)
Inductive x_string {A} (ser : list A -> list bool) (short : Z) : option Z -> option Z -> list A -> Z -> list bool -> Prop :=
| xt_fixed_short lb n l a : x_lower lb = n -> zlen l = n -> n <= short -> x_string ser short lb (Some n) l a (ser l)
| xt_fixed_long lb n l a : x_lower lb = n -> zlen l = n -> short < n < 65536 ->
    x_string ser short lb (Some n) l a (x_pad a ++ ser l)
| xt_bounded lb u l a e : u < 65536 -> x_lower lb < u -> x_length lb (Some u) (zlen l) a e -> l <> [] ->
    x_string ser short lb (Some u) l a (e ++ x_pad (a + zlen e) ++ ser l)
| xt_bounded_empty lb u a e : u < 65536 -> x_lower lb < u -> x_length lb (Some u) 0 a e ->
    x_string ser short lb (Some u) [] a e
| xt_unbounded lb ub l a e : x_small_bound ub = false -> x_fragments ser l a e -> x_string ser short lb ub l a e.

(* ---- UTF-8 (Unicode D92): the code points and their byte sequences ---- *)
Definition scalar_value (c : Z) : Prop := 0 <= c <= 0xD7FF \/ 0xE000 <= c <= 0x10FFFF.
Definition utf8_bytes (c : Z) : list Z :=
  if c <? 0x80 then [c]
  else if c <? 0x800 then [0xC0 + c / 64; 0x80 + c mod 64]
  else if c <? 0x10000 then [0xE0 + c / 4096; 0x80 + c / 64 mod 64; 0x80 + c mod 64]
  else [0xF0 + c / 262144; 0x80 + c / 4096 mod 64; 0x80 + c / 64 mod 64; 0x80 + c mod 64].
Definition utf8_text (l : list Z) : Prop :=
  exists text, Forall scalar_value text /\ l = flat_map utf8_bytes text.
