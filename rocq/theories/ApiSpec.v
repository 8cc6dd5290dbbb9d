(* Domains used in the statements about codec calls: which arguments the
   encoder is expected to carry, which parameters the compiler produces, and
   what it means for a decoder to invert an encoder.  No reference to how the
   codec computes. *)
From Coq Require Import ZArith List Bool.
Require Import Verif.Base Verif.CodecModel Verif.Spec Verif.Api.
Import ListNotations.
Open Scope Z_scope.

(* Whenever the encode call succeeds, on whatever buffer, it has appended some
   bits, and decoding those bits at the same alignment, with anything before
   and after them, returns `v` and stops at their end. *)
Definition decodes_back {A} (enc : M unit) (dec : M A) (v : A) : Prop :=
  forall s s', enc s = (Ok tt, s') ->
    exists e, bits s' = bits s ++ e /\ reads dec (zlen (bits s)) e v.

(* The call fails and leaves at most the extension bit behind. *)
Definition refuses_value (m : M unit) (ext : bool) : Prop :=
  forall s, exists s', m s = (Err, s') /\ off s' = off s /\ key s' = key s /\
    bits s' = bits s ++ (if ext then [false] else []).

(* A buffer built from bytes, with the read position inside it. *)
Definition byte_buffer (s : cdata) : Prop :=
  fits (bits s) /\ zlen (bits s) mod 8 = 0 /\ 0 <= off s <= zlen (bits s).
Definition unread (s : cdata) : Z := zlen (bits s) - off s.

Definition returns_normally {A} (r : res A) : Prop := r <> Panic /\ r <> Diverge.

(* Integers that survive a round trip.  The full claims C01-C03 would only ask
   for l <= v <= u; the further conditions are the findings of DESIGN.md. *)
Definition int_encodable (lb ub : option Z) (v : Z) : Prop :=
  i128 v /\
  match lb, ub with
  | Some l, Some u => i128 l /\ i128 u /\ l <= v <= u /\ u - l + 1 < 2 ^ 127 /\ (u - l < 65536 \/ l < v)
  | Some l, None => l <= v /\ v - l < 2 ^ 127
  | None, _ => - 2 ^ 63 <= v < 2 ^ 63 \/ v < - 2 ^ 119 \/ 2 ^ 119 <= v
  end.

(* Sizes within the declared bounds. *)
Definition size_within (lb ub : option Z) (n : Z) : Prop :=
  size_sane lb ub /\ opt0 lb <= n /\ 0 <= n /\ match ub with Some u => n <= u | None => True end.
(* Sizes outside one of the declared bounds. *)
Definition size_violates (lb ub : option Z) (n : Z) : Prop :=
  0 <= n < 2 ^ 64 /\ size_sane lb ub /\
  ((exists l, lb = Some l /\ n < l) \/ (exists u, ub = Some u /\ u < n)).
Definition value_violates (lb ub : option Z) (v : Z) : Prop :=
  match lb, ub with
  | Some l, Some u => v < l \/ u < v
  | Some l, None => v < l
  | None, _ => False
  end.

(* Values a root (not extended) encode call carries to the decoder. *)
Definition call_encodable (E : env) (c : prim) (v : pval) : Prop :=
  match c, v with
  | PBool, VBool _ => True
  | PInt lb ub _, VNum z false | PEnum lb ub _, VNum z false => int_encodable lb ub z
  | PChoice lb ub _, VNum z false => int_encodable (Some lb) (Some ub) z
  | PSeqHeader _ n, VBits l false => n = zlen l
  | PBits lb ub _, VBits l false => size_within lb ub (zlen l) /\ zlen l < 16384
  | POctets lb ub _, VBytes l false => bytes_ok l /\ size_within lb ub (zlen l) /\ zlen l < 16384
  | PString lb ub _, VBytes l false =>
      bytes_ok l /\ utf8_valid l = true /\ size_within lb ub (zlen l) /\ (zlen l < 16384 \/ exists u, ub = Some u /\ u < 65536)
      /\ (little_endian E = false \/ 2 < zlen l \/ l = [] \/ whole_octet_length lb ub = true)
  | PLength lb ub false, VNum n false =>
      size_within lb ub n /\ (n < 16384 \/ exists u, ub = Some u /\ u < 65536)
  | PLength _ _ true, VNum n false => 1 <= n < 16384
  | _, _ => False
  end.

(* Parameters under which decoding arbitrary bytes is panic-free.  The
   conditions on the profile matter only for ranges of 2^64 values or more
   that do not start at 0. *)
Definition range_sane (E : env) (lb ub : Z) : Prop :=
  lb <= ub /\ ub - lb + 1 < 2 ^ 127 /\ - 2 ^ 126 <= lb <= 2 ^ 126 /\
  (ub - lb + 1 < 2 ^ 64 \/ lb = 0 \/ overflow_checks E = false).
Definition bounds_sane (E : env) (lb ub : option Z) : Prop :=
  match lb, ub with
  | Some l, Some u => range_sane E l u
  | Some l, None => - 2 ^ 126 <= l <= 2 ^ 126 /\ (l = 0 \/ overflow_checks E = false)
  | None, _ => True
  end.
Definition call_sane (E : env) (c : prim) : Prop :=
  match c with
  | PBool => True
  | PInt lb ub _ => bounds_sane E lb ub
  | PEnum lb ub _ => bounds_sane E lb ub /\ (lb = None \/ ub <> None)
  | PChoice lb ub _ => range_sane E lb ub
  | PSeqHeader _ n => n < 2 ^ 63
  | PBits lb ub _ | POctets lb ub _ | PString lb ub _ => size_sane lb ub
  | PLength lb ub ns => ns = true \/ size_sane lb ub
  end.
(* Calls that may read a semi-constrained number, for which the input must not
   be able to announce more octets than an i128 has. *)
Definition reads_semi_constrained (c : prim) : bool :=
  match c with
  | PInt (Some _) None _ => true
  | PEnum _ _ ext | PChoice _ _ ext => ext
  | _ => false
  end.

(* Arguments under which encoding is panic-free. *)
Definition args_sane (c : prim) (v : pval) : Prop :=
  match c, v with
  | PInt lb ub _, VNum z _ | PEnum lb ub _, VNum z _ =>
      match lb, ub with
      | Some l, Some u => i128 l /\ i128 u /\ u - l + 1 < 2 ^ 127
      | Some l, None => z - l < 2 ^ 127
      | None, _ => True
      end
  | PChoice lb ub _, _ => i128 lb /\ i128 ub /\ ub - lb + 1 < 2 ^ 127
  | PBits lb ub _, _ | POctets lb ub _, _ | PString lb ub _, _ => size_sane lb ub
  | PLength lb ub ns, VNum n _ => size_sane lb ub /\ (ns = true -> 0 < n < 2 ^ 64)
  | _, _ => True
  end.
