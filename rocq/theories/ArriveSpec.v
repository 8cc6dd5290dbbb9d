(* What is asked of a value so that it arrives unchanged whenever its encoder
   accepts it (C59). *)
From Coq Require Import ZArith List Bool.
Require Import Verif.Base Verif.Spec Verif.CodecModel Verif.Api Verif.ApiSpec Verif.DeriveModel Verif.DeriveSpec Verif.RelaySpec.
Import ListNotations.
Open Scope Z_scope.

(* ---- attributes as they are written in Rust ----
   The bounds of a number are i128 numbers, those of a size are usize numbers
   in order. *)
Definition declared_range (lb ub : option Z) : Prop :=
  match lb, ub with
  | Some l, Some u => i128 l /\ i128 u
  | Some l, None => - 2 ^ 126 <= l
  | None, _ => True
  end.
Fixpoint declared (t : ty) : Prop :=
  match t with
  | TInt lb ub _ _ | TEnum lb ub _ _ => declared_range lb ub
  | TBits lb ub _ | TOctets lb ub _ | TStr lb ub _ => size_sane lb ub
  | TSeq _ _ fs => declared_fields fs
  | TSeqOf _ _ _ t => declared t
  | TChoice lb ub _ al => i128 lb /\ i128 ub /\ declared_alts al
  | TOpen al => declared_alts al
  | _ => True
  end
with declared_fields (fs : fields) : Prop :=
  match fs with
  | FNil => True
  | FOpt _ t fs | FMan _ t fs => declared t /\ declared_fields fs
  end
with declared_alts (al : alts) : Prop :=
  match al with ANil => True | ACons _ _ t al => declared t /\ declared_alts al end.

(* ---- values of the Rust types ----
   `rust_value E k t v k'`: v is a value of the Rust type that the macro was
   applied to, and its open types hold the alternative named by the key current
   at that point; k is the key before, k' the key after.  Numbers, strings and
   alternatives may be outside of what the ASN.1 type allows: nothing is said
   about bounds, sizes of strings or extension alternatives, nor about the
   length of the contents of open types.  Four things are asked for beyond the
   Rust types, each with a counterexample in Theorems_Arrive.v: numbers without
   lower bound are below 2^63, texts of one or two octets are as in C13, lists
   are not empty, and their length is within the bounds. *)
Inductive rust_value (E : env) : option Z -> ty -> val -> option Z -> Prop :=
| R_bool k b : rust_value E k TBool (VB b) k
| R_null k : rust_value E k TNull VU k
| R_int k lb ub ext i z : cast i z = z -> (lb = None -> z < 2 ^ 63) ->
    rust_value E k (TInt lb ub ext i) (VI z) k
| R_enum k lb ub ext i z : cast i z = z -> (lb = None -> z < 2 ^ 63) ->
    rust_value E k (TEnum lb ub ext i) (VI z) k
| R_bits k lb ub ext l : rust_value E k (TBits lb ub ext) (VBitStr l) k
| R_octets k lb ub ext l : bytes_ok l -> rust_value E k (TOctets lb ub ext) (VOctStr l) k
| R_str k lb ub ext l : bytes_ok l -> utf8_valid l = true ->
    little_endian E = false \/ 2 < zlen l \/ l = [] \/ whole_octet_length lb ub = true ->
    rust_value E k (TStr lb ub ext) (VOctStr l) k
| R_seq k k' ext n fs vs : rust_fields E k fs vs k' -> rust_value E k (TSeq ext n fs) (VSeq vs) k'
| R_seqof k k' lb ub ext t l : l <> [] -> length_within lb ub ext (zlen l) -> rust_list E k t l k' ->
    rust_value E k (TSeqOf lb ub ext t) (VList l) k'
| R_choice k k' lb ub ext al n key x t v :
    alt_at al n = Some (key, x, t) -> (x = false -> first_with_key al n key) ->
    rust_value E k t v k' -> rust_value E k (TChoice lb ub ext al) (VAlt n v) k'
| R_open k' al n key x t v :
    alt_at al n = Some (key, x, t) -> first_with_key al n key ->
    rust_value E (Some key) t v k' -> rust_value E (Some key) (TOpen al) (VAlt n v) k'
with rust_fields (E : env) : option Z -> fields -> list (option val) -> option Z -> Prop :=
| RF_nil k : rust_fields E k FNil [] k
| RF_none k k' i t fs vs : rust_fields E k fs vs k' -> rust_fields E k (FOpt i t fs) (None :: vs) k'
| RF_some k k1 k' i t fs v vs : rust_value E k t v k1 -> rust_fields E k1 fs vs k' ->
    rust_fields E k (FOpt i t fs) (Some v :: vs) k'
| RF_man k k1 k' t fs v vs : rust_value E k t v k1 -> rust_fields E k1 fs vs k' ->
    rust_fields E k (FMan false t fs) (Some v :: vs) k'
| RF_key k k1 k' t fs z vs : rust_value E k t (VI z) k1 -> rust_fields E (Some z) fs vs k' ->
    rust_fields E k (FMan true t fs) (Some (VI z) :: vs) k'
with rust_list (E : env) : option Z -> ty -> list val -> option Z -> Prop :=
| RL_nil k t : rust_list E k t [] k
| RL_cons k k1 k' t v l : rust_value E k t v k1 -> rust_list E k1 t l k' -> rust_list E k t (v :: l) k'.
