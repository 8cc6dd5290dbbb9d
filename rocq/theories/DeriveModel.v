(* The code generated by #[derive(AperCodec)]: codecs_derive/src/aper/*.rs.
   A Rust type with its asn attributes is a tree `ty`; `enc` and `dec` are the
   bodies of the generated encode and decode.  Types are trees: a Rust type
   that refers to itself is not represented.  Attribute parsing (attrs.rs,
   utils.rs) is represented only by the values it yields. *)
From Coq Require Import ZArith List Bool.
Require Import Verif.Base Verif.CodecModel.
Import ListNotations.
Open Scope Z_scope.

(* A Rust integer type, as in `struct Foo(u8)`. *)
Record ity := mkIty { signed : bool; width : Z }.
(* `x as #ty` *)
Definition cast (i : ity) (z : Z) : Z := if signed i then wrap_s (width i) z else wrap_u (width i) z.

(* One constructor per `ty` attribute value of aper/mod.rs:18-41. *)
Inductive ty :=
| TBool                                             (* boolean.rs *)
| TNull                                             (* null.rs *)
| TOid                                              (* oid.rs *)
| TInt (lb ub : option Z) (ext : bool) (i : ity)    (* integer.rs *)
| TEnum (lb ub : option Z) (ext : bool) (i : ity)   (* enumerated.rs *)
| TBits (lb ub : option Z) (ext : bool)             (* bitstring.rs *)
| TOctets (lb ub : option Z) (ext : bool)           (* octetstring.rs *)
| TStr (lb ub : option Z) (ext : bool)              (* charstring.rs *)
| TSeq (ext : bool) (optional_fields : Z) (fs : fields)        (* seq.rs *)
| TSeqOf (lb ub : option Z) (ext : bool) (t : ty)              (* seqof.rs *)
| TChoice (lb ub : Z) (ext : bool) (alts : alts)               (* choice.rs *)
| TOpen (alts : alts)                                          (* open.rs *)
(* struct fields: Option<T> with optional_idx, or T with its key_field flag *)
with fields :=
| FNil
| FOpt (optional_idx : Z) (t : ty) (rest : fields)
| FMan (key_field : bool) (t : ty) (rest : fields)
(* enum variants: key, extended flag, payload type *)
with alts :=
| ANil
| ACons (key : Z) (extended : bool) (t : ty) (rest : alts).

(* Rust values.  Enum variants are identified by their position. *)
Inductive val :=
| VB (b : bool)
| VU
| VI (z : Z)
| VBitStr (l : list bool)
| VOctStr (l : list Z)
| VSeq (l : list (option val))     (* Some x for mandatory fields *)
| VList (l : list val)
| VAlt (n : nat) (v : val).

(* `let _ = call(...)`: the Err is dropped, a panic is not. *)
Definition ignore_err (m : M unit) : M unit := fun s =>
  match m s with (Err, s') => (Ok tt, s') | r => r end.

(* bitmap.set(idx, true): panics outside the bitmap. *)
Definition set_true (bitmap : list bool) (i : Z) : option (list bool) :=
  if (0 <=? i) && (i <? zlen bitmap)
  then Some (firstn (Z.to_nat i) bitmap ++ [true] ++ skipn (Z.to_nat (i + 1)) bitmap)
  else None.

(* seq.rs:40-42, 154-165: the presence bitmap, built before anything is
   written. *)
Fixpoint presence (fs : fields) (vs : list (option val)) (bitmap : list bool) : option (list bool) :=
  match fs, vs with
  | FOpt i _ fs, Some _ :: vs =>
      match set_true bitmap i with Some b => presence fs vs b | None => None end
  | FOpt _ _ fs, None :: vs => presence fs vs bitmap
  | FMan _ _ fs, _ :: vs => presence fs vs bitmap
  | _, _ => Some bitmap
  end.

(* ------------------------------------------------------------------ *)
(* Encoding                                                            *)
(* ------------------------------------------------------------------ *)

(* A value that does not have the shape of the type cannot exist in Rust; it
   is mapped to Err.  `self.0 as i128` is `cast i128`. *)
Definition as_i128 (z : Z) : Z := wrap_s 128 z.

(* open.rs:24-30, after the variant has been encoded into `inner`. *)
Definition enc_open_frame (E : env) (r : res unit * cdata) : M unit :=
  match r with
  | (Ok _, inner) =>
      length <- lift (length_in_bytes E inner) ;;
      encode_length_determinent E None None false length ;;
      append_aligned inner
  | (Err, _) => err
  | (Panic, _) => panic
  | (Diverge, _) => diverge
  end.

(* The for loop of seqof.rs:66-68. *)
Fixpoint each {A} (f : A -> M unit) (l : list A) : M unit :=
  match l with
  | [] => ret tt
  | x :: r => f x ;; each f r
  end.

Fixpoint enc (E : env) (t : ty) (v : val) {struct t} : M unit :=
  match t, v with
  (* boolean.rs:26-30 *)
  | TBool, VB b => encode_bool b
  (* null.rs:24-28 *)
  | TNull, VU => ret tt
  (* oid.rs:25-29 *)
  | TOid, _ => err
  (* integer.rs:46-51 *)
  | TInt lb ub ext _, VI z => encode_integer E lb ub ext (as_i128 z) false
  (* enumerated.rs:48-52 *)
  | TEnum lb ub ext _, VI z => encode_enumerated E lb ub ext (as_i128 z) false
  (* bitstring.rs:47-51 *)
  | TBits lb ub ext, VBitStr l => encode_bitstring E lb ub ext l false
  (* octetstring.rs:47-51 *)
  | TOctets lb ub ext, VOctStr l => encode_octetstring E lb ub ext l false
  (* charstring.rs:122-126 *)
  | TStr lb ub ext, VOctStr l => encode_string E lb ub ext l false
  (* seq.rs:37-49 *)
  | TSeq ext n fs, VSeq vs =>
      match presence fs vs (repeat false (Z.to_nat n)) with
      | None => panic
      | Some bitmap => encode_sequence_header ext bitmap false ;; enc_fields E fs vs
      end
  (* seqof.rs:61-70 *)
  | TSeqOf lb ub ext t, VList l =>
      ignore_err (encode_length_determinent E lb ub ext (zlen l)) ;;
      each (enc E t) l
  (* choice.rs:43-49 *)
  | TChoice lb ub ext al, VAlt n v => enc_choice E lb ub ext al n v
  (* open.rs:20-32, 59-63 *)
  | TOpen al, VAlt n v => enc_open_frame E (enc_variant E al n v new_data)
  | _, _ => err
  end
(* seq.rs:137-150 *)
with enc_fields (E : env) (fs : fields) (vs : list (option val)) {struct fs} : M unit :=
  match fs, vs with
  | FNil, [] => ret tt
  | FOpt _ t fs, Some v :: vs => enc E t v ;; enc_fields E fs vs
  | FOpt _ _ fs, None :: vs => enc_fields E fs vs
  | FMan _ t fs, Some v :: vs => enc E t v ;; enc_fields E fs vs
  | _, _ => err
  end
(* choice.rs:87-92 *)
with enc_choice (E : env) (lb ub : Z) (ext : bool) (al : alts) (n : nat) (v : val) {struct al} : M unit :=
  match al, n with
  | ANil, _ => err
  | ACons key extended t _, O => encode_choice_idx E lb ub ext key extended ;; enc E t v
  | ACons _ _ _ al, S n => enc_choice E lb ub ext al n v
  end
(* open.rs:101-103 *)
with enc_variant (E : env) (al : alts) (n : nat) (v : val) {struct al} : M unit :=
  match al, n with
  | ANil, _ => err
  | ACons _ _ t _, O => enc E t v
  | ACons _ _ _ al, S n => enc_variant E al n v
  end.

(* ------------------------------------------------------------------ *)
(* Decoding                                                            *)
(* ------------------------------------------------------------------ *)

(* seqof.rs:49-57.  `count` is a usize that would wrap only after 2^64
   iterations; the loop without a matching length is Diverge after more
   iterations than there are bits and items. *)
Fixpoint seqof_loop (fuel : nat) (m : M val) (count length : Z) (items : list val) : M (list val) :=
  match fuel with
  | O => diverge
  | S f =>
    v <- m ;;
    let items := items ++ [v] in
    let count := count + 1 in
    if count =? length then ret items else seqof_loop f m count length items
  end.

(* seq.rs:130-132: data.set_key(value.0 as i128). *)
Definition set_key_val (v : val) : M unit :=
  match v with VI z => set_key (as_i128 z) | _ => ret tt end.

Fixpoint dec (E : env) (t : ty) {struct t} : M val :=
  match t with
  (* boolean.rs:19-24 *)
  | TBool => b <- decode_bool E ;; ret (VB b)
  (* null.rs:19-22 *)
  | TNull => ret VU
  (* oid.rs:20-24 *)
  | TOid => err
  (* integer.rs:40-45 *)
  | TInt lb ub ext i => p <- decode_integer E lb ub ext ;; ret (VI (cast i (fst p)))
  (* enumerated.rs:40-46 *)
  | TEnum lb ub ext i => p <- decode_enumerated E lb ub ext ;; ret (VI (cast i (fst p)))
  (* bitstring.rs:40-45 *)
  | TBits lb ub ext => l <- decode_bitstring E lb ub ext ;; ret (VBitStr l)
  (* octetstring.rs:40-45 *)
  | TOctets lb ub ext => l <- decode_octetstring E lb ub ext ;; ret (VOctStr l)
  (* charstring.rs:115-120 *)
  | TStr lb ub ext => l <- decode_string E lb ub ext ;; ret (VOctStr l)
  (* seq.rs:30-35 *)
  | TSeq ext n fs =>
      h <- decode_sequence_header E ext n ;;
      vs <- dec_fields E (fst h) fs ;;
      ret (VSeq vs)
  (* seqof.rs:43-59 *)
  | TSeqOf lb ub ext t =>
      length <- decode_length_determinent E lb ub ext ;;
      fuel <- loop_fuel ;;
      items <- seqof_loop (fuel + Z.to_nat length) (dec E t) 0 length [] ;;
      ret (VList items)
  (* choice.rs:30-41 *)
  | TChoice lb ub ext al =>
      p <- decode_choice_idx E lb ub ext ;;
      if negb (snd p) then dec_alts E al (fst p) 0 else err
  (* open.rs:40-57 *)
  | TOpen al =>
      decode_length_determinent E None None false ;;
      k <- get_key ;;
      match k with
      | None => err
      | Some key => dec_alts E al key 0
      end
  end
(* seq.rs:86-136 *)
with dec_fields (E : env) (bitmap : list bool) (fs : fields) {struct fs} : M (list (option val)) :=
  match fs with
  | FNil => ret []
  | FOpt i t fs =>
      match nth_error bitmap (Z.to_nat i) with
      | None => panic
      | Some present =>
          o <- (if present : bool then v <- dec E t ;; ret (Some v) else ret None) ;;
          os <- dec_fields E bitmap fs ;;
          ret (o :: os)
      end
  | FMan key_field t fs =>
      v <- dec E t ;;
      (if key_field : bool then set_key_val v else ret tt) ;;
      os <- dec_fields E bitmap fs ;;
      ret (Some v :: os)
  end
(* choice.rs:83-86, open.rs:98-100: match arms in order. *)
with dec_alts (E : env) (al : alts) (idx : Z) (pos : nat) {struct al} : M val :=
  match al with
  | ANil => err
  | ACons key _ t al =>
      if idx =? key then v <- dec E t ;; ret (VAlt pos v)
      else dec_alts E al idx (S pos)
  end.
