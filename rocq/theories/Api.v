(* The public encode_* / decode_* functions of codecs::aper as one vocabulary,
   so that properties can quantify over every call.  Definitions only. *)
From Coq Require Import ZArith List Bool.
Require Import Verif.Base Verif.CodecModel Verif.BitLemmas.
Import ListNotations.
Open Scope Z_scope.

(* A call with its parameters, common to encoding and decoding.
   encode/mod.rs:14-404, decode/mod.rs:18-289, decode_charstrings.rs:11-59,
   decode_internal.rs:41. *)
Inductive prim :=
| PBool
| PInt (lb ub : option Z) (ext : bool)
| PEnum (lb ub : option Z) (ext : bool)
| PChoice (lb ub : Z) (ext : bool)
| PSeqHeader (ext : bool) (optional_count : Z)
| PBits (lb ub : option Z) (ext : bool)
| POctets (lb ub : option Z) (ext : bool)
| PString (lb ub : option Z) (ext : bool)
| PLength (lb ub : option Z) (normally_small : bool).

(* Values passed in and returned; the flag is the `extended` flag. *)
Inductive pval :=
| VBool (b : bool)
| VNum (z : Z) (extended : bool)
| VBits (l : list bool) (extended : bool)
| VBytes (l : list Z) (extended : bool).

(* A value of the wrong shape cannot be passed in Rust; it is mapped to Err. *)
Definition encode_prim (E : env) (c : prim) (v : pval) : M unit :=
  match c, v with
  | PBool, VBool b => encode_bool b
  | PInt lb ub ext, VNum z x => encode_integer E lb ub ext z x
  | PEnum lb ub ext, VNum z x => encode_enumerated E lb ub ext z x
  | PChoice lb ub ext, VNum z x => encode_choice_idx E lb ub ext z x
  | PSeqHeader ext n, VBits l x => encode_sequence_header ext l x
  | PBits lb ub ext, VBits l x => encode_bitstring E lb ub ext l x
  | POctets lb ub ext, VBytes l x => encode_octetstring E lb ub ext l x
  | PString lb ub ext, VBytes l x => encode_string E lb ub ext l x
  | PLength lb ub ns, VNum z false => encode_length_determinent E lb ub ns z
  | _, _ => err
  end.

(* String decoders return the string only. *)
Definition decode_prim (E : env) (c : prim) : M pval :=
  match c with
  | PBool => b <- decode_bool E ;; ret (VBool b)
  | PInt lb ub ext => r <- decode_integer E lb ub ext ;; ret (VNum (fst r) (snd r))
  | PEnum lb ub ext => r <- decode_enumerated E lb ub ext ;; ret (VNum (fst r) (snd r))
  | PChoice lb ub ext => r <- decode_choice_idx E lb ub ext ;; ret (VNum (fst r) (snd r))
  | PSeqHeader ext n => r <- decode_sequence_header E ext n ;; ret (VBits (fst r) (snd r))
  | PBits lb ub ext => l <- decode_bitstring E lb ub ext ;; ret (VBits l false)
  | POctets lb ub ext => l <- decode_octetstring E lb ub ext ;; ret (VBytes l false)
  | PString lb ub ext => l <- decode_string E lb ub ext ;; ret (VBytes l false)
  | PLength lb ub ns => n <- decode_length_determinent E lb ub ns ;; ret (VNum n false)
  end.

(* Consecutive calls on one AperCodecData. *)
Fixpoint encode_all (E : env) (l : list (prim * pval)) : M unit :=
  match l with
  | [] => ret tt
  | (c, v) :: l => encode_prim E c v ;; encode_all E l
  end.
Fixpoint decode_all (E : env) (l : list prim) : M (list pval) :=
  match l with
  | [] => ret []
  | c :: l => v <- decode_prim E c ;; vs <- decode_all E l ;; ret (v :: vs)
  end.
