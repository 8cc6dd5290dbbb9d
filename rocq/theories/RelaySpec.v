(* What is asked of a type and of a decoded value so that the value can be sent
   on (C58). *)
From Coq Require Import ZArith List Bool.
Require Import Verif.Base Verif.Spec Verif.CodecModel Verif.Api Verif.ApiSpec Verif.DeriveModel Verif.DeriveSpec Verif.X691 Verif.X691Types.
Import ListNotations.
Open Scope Z_scope.

(* ---- types that the macro can be used on ----
   Numbers are of a Rust type of at most 64 bits, the presence bits are
   numbered apart, and the key of an open type is a number. *)
Definition small_int (i : ity) : Prop := 1 <= width i <= 64.
Definition is_number (t : ty) : Prop := match t with TInt _ _ _ _ | TEnum _ _ _ _ => True | _ => False end.
Fixpoint sound_ty (t : ty) : Prop :=
  match t with
  | TInt _ _ _ i | TEnum _ _ _ i => small_int i
  | TSeq _ n fs =>
      0 <= n /\ NoDup (optional_idxs fs) /\ Forall (fun i => 0 <= i < n) (optional_idxs fs) /\ sound_fields fs
  | TSeqOf _ _ _ t => sound_ty t
  | TChoice _ _ _ al | TOpen al => sound_alts al
  | _ => True
  end
with sound_fields (fs : fields) : Prop :=
  match fs with
  | FNil => True
  | FOpt _ t fs => sound_ty t /\ sound_fields fs
  | FMan key t fs => (key = true -> is_number t) /\ sound_ty t /\ sound_fields fs
  end
with sound_alts (al : alts) : Prop :=
  match al with ANil => True | ACons _ _ t al => sound_ty t /\ sound_alts al end.

(* ---- values within their types ----
   Numbers and sizes are within their bounds, alternatives are those of the
   root, strings are shorter than 16K (texts with an upper bound below 64K may
   be longer), and the contents of an open type take 1
   to 16383 octets.  (With the exclusions of C01 to C03, C13.)  Nothing is said
   about keys. *)
Definition length_within (lb ub : option Z) (normally_small : bool) (n : Z) : Prop :=
  if normally_small then 1 <= n < 16384 else size_within lb ub n /\ (n < 16384 \/ exists u, ub = Some u /\ u < 65536).
Definition content_fits (E : env) (t : ty) (v : val) : Prop :=
  exists d, enc E t v new_data = (Ok tt, d) /\ 0 < zlen (bits d) <= 131064.
Fixpoint within (E : env) (t : ty) (v : val) {struct t} : Prop :=
  match t, v with
  | TInt lb ub _ _, VI z | TEnum lb ub _ _, VI z => int_encodable lb ub z
  | TBits lb ub _, VBitStr l => size_within lb ub (zlen l) /\ zlen l < 16384
  | TOctets lb ub _, VOctStr l => size_within lb ub (zlen l) /\ zlen l < 16384
  | TStr lb ub _, VOctStr l =>
      size_within lb ub (zlen l) /\ (zlen l < 16384 \/ exists u, ub = Some u /\ u < 65536) /\ (little_endian E = false \/ 2 < zlen l \/ l = [] \/ whole_octet_length lb ub = true)
  | TSeq _ _ fs, VSeq vs => within_fields E fs vs
  | TSeqOf lb ub ext t, VList l => length_within lb ub ext (zlen l) /\ Forall (within E t) l
  | TChoice lb ub _ al, VAlt n v =>
      (exists key t, alt_at al n = Some (key, false, t) /\ int_encodable (Some lb) (Some ub) key) /\ within_alt E al n v
  | TOpen al, VAlt n v => (forall key x t, alt_at al n = Some (key, x, t) -> content_fits E t v) /\ within_alt E al n v
  | _, _ => True
  end
with within_fields (E : env) (fs : fields) (vs : list (option val)) {struct fs} : Prop :=
  match fs, vs with
  | FOpt _ t fs, o :: vs | FMan _ t fs, o :: vs =>
      match o with Some v => within E t v | None => True end /\ within_fields E fs vs
  | _, _ => True
  end
with within_alt (E : env) (al : alts) (n : nat) (v : val) {struct al} : Prop :=
  match al, n with
  | ANil, _ => True
  | ACons _ _ t _, O => within E t v
  | ACons _ _ _ al, S n => within_alt E al n v
  end.

(* ---- types whose decoder never leaves their bounds ----
   The bounds are as wide as the field that is read, or wider than the Rust
   type. *)
Definition power_range (l u : Z) : Prop := exists k, (0 <= k <= 8 \/ k = 16) /\ u - l + 1 = 2 ^ k.
Definition lowest (i : ity) : Z := if signed i then - 2 ^ (width i - 1) else 0.
Definition highest (i : ity) : Z := if signed i then 2 ^ (width i - 1) - 1 else 2 ^ width i - 1.
Definition tight_int (lb ub : option Z) (ext : bool) (i : ity) : Prop :=
  match lb, ub with
  | Some l, Some u =>
      i128 l /\ i128 u /\
      ((ext = false /\ power_range l u /\ lowest i <= l /\ u <= highest i) \/ (l <= lowest i /\ highest i <= u /\ u - l < 65536))
  | Some l, None => - 2 ^ 126 <= l <= lowest i
  | None, _ => highest i < 2 ^ 63
  end.
Definition tight_size (lb ub : option Z) : Prop :=
  match ub with
  | Some u => 0 <= opt0 lb /\ u < 65536 /\ power_range (opt0 lb) u
  | None => opt0 lb = 0
  end.
Fixpoint tight (E : env) (t : ty) : Prop :=
  match t with
  | TInt lb ub ext i | TEnum lb ub ext i => tight_int lb ub ext i
  | TBits lb ub ext | TOctets lb ub ext => ext = false /\ tight_size lb ub
  | TStr lb ub ext => ext = false /\ tight_size lb ub /\ (little_endian E = false \/ 2 < opt0 lb \/ whole_octet_length lb ub = true)
  | TSeq _ _ fs => tight_fields E fs
  | TSeqOf lb ub ext t => (ext = false -> tight_size lb ub) /\ tight E t
  (* an alternative of the extension is not hit by an index of the root *)
  | TChoice lb ub _ al =>
      i128 lb /\ i128 ub /\ power_range lb ub /\
      (forall n key t, alt_at al n = Some (key, true, t) -> lb <= key <= ub -> In key (firstn n (alt_keys al))) /\ tight_alts E al
  | TOpen al => tight_alts E al
  | _ => True
  end
with tight_fields (E : env) (fs : fields) : Prop :=
  match fs with
  | FNil => True
  | FOpt _ t fs | FMan _ t fs => tight E t /\ tight_fields E fs
  end
with tight_alts (E : env) (al : alts) : Prop :=
  match al with ANil => True | ACons _ _ t al => tight E t /\ tight_alts E al end.
(* Strings, lists and contents below 16K. *)
Fixpoint moderate (E : env) (t : ty) (v : val) {struct t} : Prop :=
  match t, v with
  | TBits _ _ _, VBitStr l => zlen l < 16384
  | TOctets _ _ _, VOctStr l | TStr _ _ _, VOctStr l => zlen l < 16384
  | TSeq _ _ fs, VSeq vs => moderate_fields E fs vs
  | TSeqOf _ _ _ t, VList l => zlen l < 16384 /\ Forall (moderate E t) l
  | TChoice _ _ _ al, VAlt n v => moderate_alt E al n v
  | TOpen al, VAlt n v => (forall key x t, alt_at al n = Some (key, x, t) -> content_fits E t v) /\ moderate_alt E al n v
  | _, _ => True
  end
with moderate_fields (E : env) (fs : fields) (vs : list (option val)) {struct fs} : Prop :=
  match fs, vs with
  | FOpt _ t fs, o :: vs | FMan _ t fs, o :: vs =>
      match o with Some v => moderate E t v | None => True end /\ moderate_fields E fs vs
  | _, _ => True
  end
with moderate_alt (E : env) (al : alts) (n : nat) (v : val) {struct al} : Prop :=
  match al, n with
  | ANil, _ => True
  | ACons _ _ t _, O => moderate E t v
  | ACons _ _ _ al, S n => moderate_alt E al n v
  end.

(* ---- values without fragments, in the terms of X691Types ---- *)
Fixpoint x_brief (t : ty) (v : val) {struct t} : Prop :=
  match t, v with
  | TBits _ ub _, VBitStr l => x_small_bound ub = true \/ zlen l < 16384
  | TOctets _ ub _, VOctStr l | TStr _ ub _, VOctStr l => x_small_bound ub = true \/ zlen l < 16384
  | TSeq _ _ fs, VSeq vs => x_brief_fields fs vs
  | TSeqOf _ _ _ t, VList l => Forall (x_brief t) l
  | TChoice _ _ _ al, VAlt n v => x_brief_alt al n v
  | TOpen al, VAlt n v => (forall key x t, alt_at al n = Some (key, x, t) -> forall c, x_value t v 0 c -> zlen c <= 8 * 16383) /\ x_brief_alt al n v
  | _, _ => True
  end
with x_brief_fields (fs : fields) (vs : list (option val)) {struct fs} : Prop :=
  match fs, vs with
  | FOpt _ t fs, o :: vs | FMan _ t fs, o :: vs =>
      match o with Some v => x_brief t v | None => True end /\ x_brief_fields fs vs
  | _, _ => True
  end
with x_brief_alt (al : alts) (n : nat) (v : val) {struct al} : Prop :=
  match al, n with
  | ANil, _ => True
  | ACons _ _ t _, O => x_brief t v
  | ACons _ _ _ al, S n => x_brief_alt al n v
  end.

(* The key fields are numbers. *)
Fixpoint number_keys (t : ty) : Prop :=
  match t with
  | TSeq _ _ fs => number_keys_fields fs
  | TSeqOf _ _ _ t => number_keys t
  | TChoice _ _ _ al | TOpen al => number_keys_alts al
  | _ => True
  end
with number_keys_fields (fs : fields) : Prop :=
  match fs with
  | FNil => True
  | FOpt _ t fs => number_keys t /\ number_keys_fields fs
  | FMan key t fs => (key = true -> is_number t) /\ number_keys t /\ number_keys_fields fs
  end
with number_keys_alts (al : alts) : Prop :=
  match al with ANil => True | ACons _ _ t al => number_keys t /\ number_keys_alts al end.
