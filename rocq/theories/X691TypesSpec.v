(* Which types and values the claims about X691Types range over. *)
From Coq Require Import ZArith List Bool.
Require Import Verif.Base Verif.Spec Verif.CodecModel Verif.ApiSpec Verif.DeriveModel Verif.DeriveSpec Verif.X691 Verif.X691Spec Verif.X691Types.
Import ListNotations.
Open Scope Z_scope.

(* The attributes number the OPTIONAL components and the alternatives of the
   root as X.691 does. *)
Fixpoint x_numbered (t : ty) : Prop :=
  match t with
  | TSeq _ n fs => 0 <= n /\ optional_idxs fs = map Z.of_nat (seq 0 (Z.to_nat n)) /\ x_numbered_fields fs
  | TSeqOf _ _ _ t => x_numbered t
  | TChoice lb ub _ al =>
      (forall n key t, alt_at al n = Some (key, false, t) -> lb = 0 /\ ub = x_root_alternatives al - 1 /\ key = x_index al n) /\
      x_numbered_alts al
  | TOpen al => x_numbered_alts al
  | _ => True
  end
with x_numbered_fields (fs : fields) : Prop :=
  match fs with
  | FNil => True
  | FOpt _ t fs | FMan _ t fs => x_numbered t /\ x_numbered_fields fs
  end
with x_numbered_alts (al : alts) : Prop :=
  match al with ANil => True | ACons _ _ t al => x_numbered t /\ x_numbered_alts al end.

(* Character strings on which code and X.691 agree: as str_regular, where
   X.691 does not pad in front of strings with at most one character. *)
Definition chars_regular (lb ub : option Z) (l : list Z) : Prop :=
  size_sane lb ub /\
  match ub with
  | Some u => u < 65536 -> zlen l < 16384 /\ (u = opt0 lb \/ u < 2 \/ zlen l = 0 \/ 2 < zlen l \/ 255 <= u - opt0 lb)
  | None => True
  end.

(* No part of v is of a kind that C30 and C31 show to be encoded differently
   from X.691. *)
Fixpoint x_plain (t : ty) (v : val) {struct t} : Prop :=
  match t, v with
  | TInt lb ub _ _, VI z =>
      int_regular lb ub /\ match lb, ub with Some l, None => x_top_bit_clear (z - l) | _, _ => True end
  | TEnum lb ub _ _, VI z => int_regular lb ub /\ lb <> None /\ ub <> None
  | TBits lb ub _, VBitStr l => str_regular 16 lb ub l
  | TOctets lb ub _, VOctStr l => str_regular 2 lb ub l
  | TStr lb ub _, VOctStr l => chars_regular lb ub l
  | TSeq _ _ fs, VSeq vs => x_plain_fields fs vs
  | TSeqOf lb ub ext t, VList l => ext = false /\ Forall (x_plain t) l
  | TChoice lb ub _ al, VAlt n v => int_regular (Some lb) (Some ub) /\ x_plain_alt al n v
  | TOpen al, VAlt n v => x_plain_alt al n v
  | _, _ => True
  end
with x_plain_fields (fs : fields) (vs : list (option val)) {struct fs} : Prop :=
  match fs, vs with
  | FOpt _ t fs, o :: vs | FMan _ t fs, o :: vs =>
      match o with Some v => x_plain t v | None => True end /\ x_plain_fields fs vs
  | _, _ => True
  end
with x_plain_alt (al : alts) (n : nat) (v : val) {struct al} : Prop :=
  match al, n with
  | ANil, _ => True
  | ACons _ _ t _, O => x_plain t v
  | ACons _ _ _ al, S n => x_plain_alt al n v
  end.

(* `x_known E k t v k'`: v is a value of t that the decoder is expected to know
   when it meets its encoding while the current key is k; k' is the key after
   it.  Numbers as in C44, strings as in C45 and C46; open types hold the
   alternative named by the key, in 1 to 16383 octets. *)
Inductive x_known (E : env) : option Z -> ty -> val -> option Z -> Prop :=
| N_bool k b : x_known E k TBool (VB b) k
| N_null k : x_known E k TNull VU k
| N_int k lb ub ext i z : int_regular lb ub -> x_readable lb ub z -> cast i z = z ->
    x_known E k (TInt lb ub ext i) (VI z) k
| N_enum k lb ub ext i z : int_regular (Some lb) (Some ub) -> cast i z = z ->
    x_known E k (TEnum (Some lb) (Some ub) ext i) (VI z) k
| N_bits k lb ub ext l : str_regular 16 lb ub l -> x_known E k (TBits lb ub ext) (VBitStr l) k
| N_octets k lb ub ext l : bytes_ok l -> str_regular 2 lb ub l -> x_known E k (TOctets lb ub ext) (VOctStr l) k
| N_str k lb ub ext l : utf8_text l -> chars_regular lb ub l -> size_within lb ub (zlen l) -> zlen l < 16384 ->
    little_endian E = false \/ 2 < zlen l \/ l = [] \/ x_small_bound ub = false ->
    x_known E k (TStr lb ub ext) (VOctStr l) k
| N_seq k k' ext n fs vs : x_known_fields E k fs vs k' -> x_known E k (TSeq ext n fs) (VSeq vs) k'
| N_seqof k k' lb ub t l : l <> [] -> size_sane lb ub -> x_known_list E k t l k' ->
    x_known E k (TSeqOf lb ub false t) (VList l) k'
| N_choice k k' lb ub ext al n key t v : int_regular (Some lb) (Some ub) ->
    alt_at al n = Some (key, false, t) -> first_with_key al n key ->
    x_known E k t v k' -> x_known E k (TChoice lb ub ext al) (VAlt n v) k'
| N_open k' al n key x t v : alt_at al n = Some (key, x, t) -> first_with_key al n key ->
    (forall c, x_value t v 0 c -> 0 < zlen c <= 8 * 16383) ->
    x_known E (Some key) t v k' -> x_known E (Some key) (TOpen al) (VAlt n v) k'
with x_known_fields (E : env) : option Z -> fields -> list (option val) -> option Z -> Prop :=
| NF_nil k : x_known_fields E k FNil [] k
| NF_none k k' i t fs vs : x_known_fields E k fs vs k' -> x_known_fields E k (FOpt i t fs) (None :: vs) k'
| NF_some k k1 k' i t fs v vs : x_known E k t v k1 -> x_known_fields E k1 fs vs k' ->
    x_known_fields E k (FOpt i t fs) (Some v :: vs) k'
| NF_man k k1 k' t fs v vs : x_known E k t v k1 -> x_known_fields E k1 fs vs k' ->
    x_known_fields E k (FMan false t fs) (Some v :: vs) k'
| NF_key k k1 k' t fs z vs : i128 z -> x_known E k t (VI z) k1 -> x_known_fields E (Some z) fs vs k' ->
    x_known_fields E k (FMan true t fs) (Some (VI z) :: vs) k'
with x_known_list (E : env) : option Z -> ty -> list val -> option Z -> Prop :=
| NL_nil k t : x_known_list E k t [] k
| NL_cons k k1 k' t v l : x_known E k t v k1 -> x_known_list E k1 t l k' -> x_known_list E k t (v :: l) k'.
