(* Which values a derived codec is expected to carry, and which type trees
   keep encoder and decoder in step. *)
From Coq Require Import ZArith List Bool.
Require Import Verif.Base Verif.CodecModel Verif.Spec Verif.Api Verif.ApiSpec Verif.DeriveModel.
Import ListNotations.
Open Scope Z_scope.

Fixpoint alt_at (al : alts) (n : nat) : option (Z * bool * ty) :=
  match al, n with
  | ANil, _ => None
  | ACons k x t _, O => Some (k, x, t)
  | ACons _ _ _ al, S n => alt_at al n
  end.
Fixpoint alt_keys (al : alts) : list Z :=
  match al with ANil => [] | ACons k _ _ al => k :: alt_keys al end.
(* No alternative before number n has the given key: the decoder takes the
   first match. *)
Definition first_with_key (al : alts) (n : nat) (key : Z) : Prop := ~ In key (firstn n (alt_keys al)).
Fixpoint optional_idxs (fs : fields) : list Z :=
  match fs with
  | FNil => []
  | FOpt i _ fs => i :: optional_idxs fs
  | FMan _ _ fs => optional_idxs fs
  end.

(* Component number j of a SEQUENCE: Some (Some i) for an OPTIONAL one with
   presence bit i, Some None for a mandatory one. *)
Fixpoint field_at (fs : fields) (j : nat) : option (option Z) :=
  match fs, j with
  | FNil, _ => None
  | FOpt i _ _, O => Some (Some i)
  | FMan _ _ _, O => Some None
  | FOpt _ _ fs, S j | FMan _ _ fs, S j => field_at fs j
  end.
Definition present (o : option val) : bool := match o with Some _ => true | None => false end.
(* The bitmap has the presence bit of every OPTIONAL component, mandatory
   components are present, and there are as many values as components. *)
Definition presence_map (fs : fields) (vs : list (option val)) (bitmap : list bool) : Prop :=
  forall j,
    match field_at fs j, nth_error vs j with
    | None, None => True
    | Some (Some i), Some o => 0 <= i /\ nth_error bitmap (Z.to_nat i) = Some (present o)
    | Some None, Some o => present o = true
    | _, _ => False
    end.
Definition components_match (fs : fields) (vs : list (option val)) : Prop :=
  forall j,
    match field_at fs j, nth_error vs j with
    | None, None => True
    | Some (Some _), Some _ => True
    | Some None, Some o => present o = true
    | _, _ => False
    end.

(* `carries E k t v k'`: v is a value of type t whose parts are all within the
   domains of ApiSpec, and whose open types hold the alternative named by the
   key current at that point; k is the key before, k' the key after. *)
Inductive carries (E : env) : option Z -> ty -> val -> option Z -> Prop :=
| K_bool k b : carries E k TBool (VB b) k
| K_null k : carries E k TNull VU k
| K_int k lb ub ext i z : int_encodable lb ub z -> cast i z = z ->
    carries E k (TInt lb ub ext i) (VI z) k
| K_enum k lb ub ext i z : int_encodable lb ub z -> cast i z = z ->
    carries E k (TEnum lb ub ext i) (VI z) k
| K_bits k lb ub ext l : call_encodable E (PBits lb ub ext) (Api.VBits l false) ->
    carries E k (TBits lb ub ext) (VBitStr l) k
| K_octets k lb ub ext l : call_encodable E (POctets lb ub ext) (Api.VBytes l false) ->
    carries E k (TOctets lb ub ext) (VOctStr l) k
| K_str k lb ub ext l : call_encodable E (PString lb ub ext) (Api.VBytes l false) ->
    carries E k (TStr lb ub ext) (VOctStr l) k
| K_seq k k' ext n fs vs :
    NoDup (optional_idxs fs) -> Forall (fun i => 0 <= i < n) (optional_idxs fs) -> 0 <= n ->
    carries_fields E k fs vs k' ->
    carries E k (TSeq ext n fs) (VSeq vs) k'
| K_seqof k k' lb ub ext t l : l <> [] ->
    call_encodable E (PLength lb ub ext) (VNum (zlen l) false) ->
    carries_list E k t l k' ->
    carries E k (TSeqOf lb ub ext t) (VList l) k'
| K_choice k k' lb ub ext al n key t v :
    alt_at al n = Some (key, false, t) -> first_with_key al n key ->
    int_encodable (Some lb) (Some ub) key ->
    carries E k t v k' ->
    carries E k (TChoice lb ub ext al) (VAlt n v) k'
(* content of 1 to 16383 bytes *)
| K_open k' al n key x t v d :
    alt_at al n = Some (key, x, t) -> first_with_key al n key ->
    carries E (Some key) t v k' ->
    enc E t v new_data = (Ok tt, d) -> 0 < zlen (bits d) <= 131064 ->
    carries E (Some key) (TOpen al) (VAlt n v) k'
with carries_fields (E : env) : option Z -> fields -> list (option val) -> option Z -> Prop :=
| KF_nil k : carries_fields E k FNil [] k
| KF_none k k' i t fs vs : carries_fields E k fs vs k' ->
    carries_fields E k (FOpt i t fs) (None :: vs) k'
| KF_some k k1 k' i t fs v vs : carries E k t v k1 -> carries_fields E k1 fs vs k' ->
    carries_fields E k (FOpt i t fs) (Some v :: vs) k'
| KF_man k k1 k' t fs v vs : carries E k t v k1 -> carries_fields E k1 fs vs k' ->
    carries_fields E k (FMan false t fs) (Some v :: vs) k'
(* a key field makes its own value the current key *)
| KF_key k k1 k' t fs z vs : carries E k t (VI z) k1 -> carries_fields E (Some z) fs vs k' ->
    carries_fields E k (FMan true t fs) (Some (VI z) :: vs) k'
with carries_list (E : env) : option Z -> ty -> list val -> option Z -> Prop :=
| KL_nil k t : carries_list E k t [] k
| KL_cons k k1 k' t v l : carries E k t v k1 -> carries_list E k1 t l k' ->
    carries_list E k t (v :: l) k'.

(* ---- alignment analysis ----
   The decoder of an open type stops at the last bit of the content, the
   encoder at the end of the byte.  What follows must therefore start by
   aligning.  `flow t skew` is None when t cannot be decoded in that state, and
   otherwise tells whether the decoder may lag behind after t. *)
Definition fixed (lb ub : option Z) : option Z :=
  match lb, ub with Some l, Some u => if (l =? u) && (u <? 65536) then Some u else None | _, _ => None end.
Definition aligned_range (l u : Z) : bool := (256 <=? u - l + 1) && (u - l + 1 <=? 65536).
Definition aligned_bounds (lb ub : option Z) : bool :=
  match lb, ub with Some l, Some u => aligned_range l u | _, _ => true end.
Definition aligned_size (lb ub : option Z) : bool :=
  match ub with
  | Some u => if u <? 65536 then aligned_range (opt0 lb) u else true
  | None => true
  end.
(* Calls whose encoding starts on a byte boundary. *)
Definition starts_aligned (c : prim) : bool :=
  match c with
  | PInt lb ub false | PEnum lb ub false => aligned_bounds lb ub
  | PChoice lb ub false => aligned_range lb ub
  | PLength lb ub false => aligned_size lb ub
  | PBits lb ub false =>
      match fixed lb ub with Some n => 16 <? n | None => aligned_size lb ub end
  | POctets lb ub false | PString lb ub false =>
      match fixed lb ub with Some n => 2 <? n | None => aligned_size lb ub end
  | _ => false
  end.
(* Calls that write nothing. *)
Definition empty_call (c : prim) : bool :=
  match c with
  | PInt (Some l) (Some u) false | PEnum (Some l) (Some u) false | PChoice l u false => l =? u
  | PLength lb ub false => match fixed lb ub with Some _ => true | None => false end
  | PBits lb ub false | POctets lb ub false | PString lb ub false =>
      match fixed lb ub with Some n => n =? 0 | None => false end
  | _ => false
  end.
Definition call_flow (c : prim) (skew : bool) : option bool :=
  if empty_call c then Some skew
  else if skew && negb (starts_aligned c) then None
  else Some false.

Fixpoint flow (t : ty) (skew : bool) : option bool :=
  match t with
  | TBool => if skew then None else Some false
  | TNull => Some skew
  | TOid => Some skew
  | TInt lb ub ext _ => call_flow (PInt lb ub ext) skew
  | TEnum lb ub ext _ => call_flow (PEnum lb ub ext) skew
  | TBits lb ub ext => call_flow (PBits lb ub ext) skew
  | TOctets lb ub ext => call_flow (POctets lb ub ext) skew
  | TStr lb ub ext => call_flow (PString lb ub ext) skew
  | TSeq ext n fs =>
      if ext || (0 <? n) then if skew then None else flow_fields fs false
      else flow_fields fs skew
  | TSeqOf lb ub ext t =>
      match call_flow (PLength lb ub ext) skew with
      | None => None
      | Some s0 =>
          match flow t s0 with
          | None => None
          | Some s1 =>
              let s := s0 || s1 in
              match flow t s with Some _ => Some s | None => None end
          end
      end
  | TChoice lb ub ext al =>
      match call_flow (PChoice lb ub ext) skew with
      | None => None
      | Some s0 => flow_alts al s0
      end
  | TOpen al => match flow_alts al false with Some _ => Some true | None => None end
  end
with flow_fields (fs : fields) (skew : bool) : option bool :=
  match fs with
  | FNil => Some skew
  | FOpt _ t fs =>
      match flow t skew with Some s1 => flow_fields fs (skew || s1) | None => None end
  | FMan _ t fs =>
      match flow t skew with Some s1 => flow_fields fs s1 | None => None end
  end
with flow_alts (al : alts) (skew : bool) : option bool :=
  match al with
  | ANil => Some false
  | ACons _ _ t al =>
      match flow t skew, flow_alts al skew with
      | Some s1, Some s2 => Some (s1 || s2)
      | _, _ => None
      end
  end.

(* The same for one value: only the components that are present, the elements
   there are, and the chosen alternative count.  `flow t` looks at all values
   of t at once (C24_flow_covers_all_values); a value of a type without flow
   can have one.  Values of another shape do not matter here. *)
Fixpoint flow_each {A} (f : A -> bool -> option bool) (l : list A) (skew : bool) : option bool :=
  match l with
  | [] => Some skew
  | x :: l => match f x skew with Some s => flow_each f l s | None => None end
  end.
Fixpoint flow_of (t : ty) (v : val) (skew : bool) : option bool :=
  match t with
  | TBool => if skew then None else Some false
  | TNull => Some skew
  | TOid => Some skew
  | TInt lb ub ext _ => call_flow (PInt lb ub ext) skew
  | TEnum lb ub ext _ => call_flow (PEnum lb ub ext) skew
  | TBits lb ub ext => call_flow (PBits lb ub ext) skew
  | TOctets lb ub ext => call_flow (POctets lb ub ext) skew
  | TStr lb ub ext => call_flow (PString lb ub ext) skew
  | TSeq ext n fs =>
      match v with
      | VSeq vs =>
          if ext || (0 <? n) then if skew then None else flow_of_fields fs vs false
          else flow_of_fields fs vs skew
      | _ => Some false
      end
  | TSeqOf lb ub ext t =>
      match v with
      | VList l =>
          match call_flow (PLength lb ub ext) skew with
          | None => None
          | Some s0 => flow_each (flow_of t) l s0
          end
      | _ => Some false
      end
  | TChoice lb ub ext al =>
      match v with
      | VAlt n v =>
          match call_flow (PChoice lb ub ext) skew with
          | None => None
          | Some s0 => flow_of_alt al n v s0
          end
      | _ => Some false
      end
  | TOpen al =>
      match v with
      | VAlt n v => match flow_of_alt al n v false with Some _ => Some true | None => None end
      | _ => Some false
      end
  end
with flow_of_fields (fs : fields) (vs : list (option val)) (skew : bool) : option bool :=
  match fs, vs with
  | FOpt _ t fs, None :: vs => flow_of_fields fs vs skew
  | FOpt _ t fs, Some v :: vs | FMan _ t fs, Some v :: vs =>
      match flow_of t v skew with Some s1 => flow_of_fields fs vs s1 | None => None end
  | FNil, [] => Some skew
  | _, _ => Some false
  end
with flow_of_alt (al : alts) (n : nat) (v : val) (skew : bool) : option bool :=
  match al, n with
  | ACons _ _ t _, O => flow_of t v skew
  | ACons _ _ _ al, S n => flow_of_alt al n v skew
  | ANil, _ => Some false
  end.

(* Encoder and decoder agree on v: whatever precedes and follows, the encoder
   appends c and fewer than 8 zero bits that end on a byte boundary; the
   decoder reads v from c and leaves the key at k'. *)
Definition reads_key {A} (m : M A) (a : Z) (e : list bool) (v : A) (k k' : option Z) : Prop :=
  forall p s, zlen p mod 8 = a mod 8 -> fits (p ++ e ++ s) ->
    m (mkD (p ++ e ++ s) (zlen p) k) = (Ok v, mkD (p ++ e ++ s) (zlen p + zlen e) k').
Definition padding (z : list bool) (a : Z) : Prop :=
  z = [] \/ (a mod 8 = 0 /\ zlen z < 8 /\ Forall (fun b => b = false) z).
Definition agrees (enc : M unit) {A} (dec : M A) (v : A) (k k' : option Z) : Prop :=
  forall a, exists c z, writes enc a (c ++ z) /\ reads_key dec a c v k k' /\ padding z (a + zlen (c ++ z)).

(* ---- what a decoder needs in order to stop ----
   A decoder that succeeds has read at least one bit. *)
Definition eats_range (l u : Z) : bool := (l <? u) && (u - l + 1 <? 2 ^ 127).
Definition eats_bounds (lb ub : option Z) : bool :=
  match lb, ub with Some l, Some u => eats_range l u | _, _ => true end.
Definition eats_size (lb ub : option Z) : bool :=
  match ub with Some u => (65536 <=? u) || (opt0 lb <? u) | None => true end.
Definition eats_call (c : prim) : bool :=
  match c with
  | PBool => true
  | PInt lb ub ext | PEnum lb ub ext => ext || eats_bounds lb ub
  | PChoice l u ext => ext || eats_range l u
  | PSeqHeader ext n => ext || (0 <? n)
  | PBits lb ub ext | POctets lb ub ext | PString lb ub ext =>
      ext || eats_size lb ub || match fixed lb ub with Some n => 0 <? n | None => false end
  | PLength lb ub ns => ns || eats_size lb ub
  end.
Fixpoint eats_ty (t : ty) : bool :=
  match t with
  | TBool => true
  | TNull => false
  | TOid => true                        (* never succeeds *)
  | TInt lb ub ext _ => eats_call (PInt lb ub ext)
  | TEnum lb ub ext _ => eats_call (PEnum lb ub ext)
  | TBits lb ub ext => eats_call (PBits lb ub ext)
  | TOctets lb ub ext => eats_call (POctets lb ub ext)
  | TStr lb ub ext => eats_call (PString lb ub ext)
  | TSeq ext n fs => eats_call (PSeqHeader ext n) || eats_fields fs
  | TSeqOf lb ub ext t => eats_call (PLength lb ub ext) || eats_ty t
  | TChoice lb ub ext al => eats_call (PChoice lb ub ext) || eats_alts al
  | TOpen _ => true
  end
with eats_fields (fs : fields) : bool :=
  match fs with
  | FNil => false
  | FOpt _ _ fs => eats_fields fs
  | FMan _ t fs => eats_ty t || eats_fields fs
  end
with eats_alts (al : alts) : bool :=
  match al with ANil => true | ACons _ _ t al => eats_ty t && eats_alts al end.

(* The elements of every SEQUENCE OF read at least one bit. *)
Fixpoint bounded_loops (t : ty) : bool :=
  match t with
  | TSeq _ _ fs => bounded_fields fs
  | TSeqOf _ _ _ t => eats_ty t && bounded_loops t
  | TChoice _ _ _ al | TOpen al => bounded_alts al
  | _ => true
  end
with bounded_fields (fs : fields) : bool :=
  match fs with
  | FNil => true
  | FOpt _ t fs | FMan _ t fs => bounded_loops t && bounded_fields fs
  end
with bounded_alts (al : alts) : bool :=
  match al with ANil => true | ACons _ _ t al => bounded_loops t && bounded_alts al end.

(* ---- attributes under which decoding arbitrary bytes is panic-free ---- *)
Definition calls_sane (E : env) (c : prim) : Prop := call_sane E c /\ reads_semi_constrained c = false.
Fixpoint ty_sane (E : env) (t : ty) : Prop :=
  match t with
  | TBool | TNull | TOid => True
  | TInt lb ub ext _ => calls_sane E (PInt lb ub ext)
  | TEnum lb ub ext _ => calls_sane E (PEnum lb ub ext)
  | TBits lb ub ext => calls_sane E (PBits lb ub ext)
  | TOctets lb ub ext => calls_sane E (POctets lb ub ext)
  | TStr lb ub ext => calls_sane E (PString lb ub ext)
  | TSeq ext n fs => 0 <= n < 2 ^ 63 /\ Forall (fun i => 0 <= i < n) (optional_idxs fs) /\ fields_sane E fs
  | TSeqOf lb ub ext t => calls_sane E (PLength lb ub ext) /\ ty_sane E t
  | TChoice lb ub ext al => calls_sane E (PChoice lb ub ext) /\ alts_sane E al
  | TOpen al => alts_sane E al
  end
with fields_sane (E : env) (fs : fields) : Prop :=
  match fs with
  | FNil => True
  | FOpt _ t fs | FMan _ t fs => ty_sane E t /\ fields_sane E fs
  end
with alts_sane (E : env) (al : alts) : Prop :=
  match al with ANil => True | ACons _ _ t al => ty_sane E t /\ alts_sane E al end.

(* ---- values for which encoding is panic-free ---- *)
Fixpoint val_sane (E : env) (t : ty) (v : val) {struct t} : Prop :=
  match t, v with
  | TInt lb ub ext _, VI z => args_sane (PInt lb ub ext) (VNum (as_i128 z) false)
  | TEnum lb ub ext _, VI z => args_sane (PEnum lb ub ext) (VNum (as_i128 z) false)
  | TBits lb ub _, _ | TOctets lb ub _, _ | TStr lb ub _, _ => size_sane lb ub
  | TSeq _ n fs, VSeq vs => Forall (fun i => 0 <= i < n) (optional_idxs fs) /\ vals_sane E fs vs
  | TSeqOf lb ub ext t, VList l =>
      args_sane (PLength lb ub ext) (VNum (zlen l) false) /\ Forall (val_sane E t) l
  | TChoice lb ub ext al, VAlt n v => args_sane (PChoice lb ub ext) (VNum 0 false) /\ alt_sane E al n v
  | TOpen al, VAlt n v =>
      alt_sane E al n v /\
      (overflow_checks E = false \/ 0 < zlen (bits (snd (enc_variant E al n v new_data))) < 2 ^ 61)
  | _, _ => True
  end
with vals_sane (E : env) (fs : fields) (vs : list (option val)) {struct fs} : Prop :=
  match fs, vs with
  | FOpt _ t fs, o :: vs | FMan _ t fs, o :: vs =>
      match o with Some v => val_sane E t v | None => True end /\ vals_sane E fs vs
  | _, _ => True
  end
with alt_sane (E : env) (al : alts) (n : nat) (v : val) {struct al} : Prop :=
  match al, n with
  | ANil, _ => True
  | ACons _ _ t _, O => val_sane E t v
  | ACons _ _ _ al, S n => alt_sane E al n v
  end.

(* Decoding n values one after the other. *)
Inductive decodes_in_order {A} (m : M A) : cdata -> list A -> cdata -> Prop :=
| order_nil s : decodes_in_order m s [] s
| order_cons s s1 s' v l : m s = (Ok v, s1) -> decodes_in_order m s1 l s' -> decodes_in_order m s (v :: l) s'.
(* Encoding values one after the other. *)
Inductive encodes_in_order {A} (f : A -> M unit) : cdata -> list A -> cdata -> Prop :=
| eorder_nil s : encodes_in_order f s [] s
| eorder_cons s s1 s' v l : f v s = (Ok tt, s1) -> encodes_in_order f s1 l s' -> encodes_in_order f s (v :: l) s'.
