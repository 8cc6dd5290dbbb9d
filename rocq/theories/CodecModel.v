(* Model of the runtime codec, codecs/src/aper (mod.rs, encode/, decode/).
   Definitions only; no proofs. *)
From Coq Require Import ZArith List Bool.
Require Import Verif.Base.
Import ListNotations.
Open Scope Z_scope.

(* codecs/src/aper/mod.rs:32-36, struct AperCodecData. *)
Record cdata := mkD { bits : list bool; off : Z; key : option Z }.

(* A Rust function taking `&mut AperCodecData` and returning a Result: the data
   as left by the function is returned whatever the outcome. *)
Definition M (A : Type) := cdata -> res A * cdata.

Definition ret {A} (a : A) : M A := fun s => (Ok a, s).
Definition err {A} : M A := fun s => (Err, s).
Definition panic {A} : M A := fun s => (Panic, s).
Definition diverge {A} : M A := fun s => (Diverge, s).
(* Sequencing with the `?` operator. *)
Definition bind {A B} (m : M A) (k : A -> M B) : M B := fun s =>
  match m s with
  | (Ok a, s') => k a s'
  | (Err, s') => (Err, s')
  | (Panic, s') => (Panic, s')
  | (Diverge, s') => (Diverge, s')
  end.
Notation "x <- m ;; k" := (bind m (fun x => k)) (at level 61, m at next level, right associativity).
Notation "m ;; k" := (bind m (fun _ => k)) (at level 61, right associativity).

Definition lift {A} (r : res A) : M A := fun s => (r, s).
Definition get_bits : M (list bool) := fun s => (Ok (bits s), s).
Definition get_off : M Z := fun s => (Ok (off s), s).
Definition set_off (o : Z) : M unit := fun s => (Ok tt, mkD (bits s) o (key s)).
Definition set_bits (b : list bool) : M unit := fun s => (Ok tt, mkD b (off s) (key s)).

(* ------------------------------------------------------------------ *)
(* AperCodecData                                                       *)
(* ------------------------------------------------------------------ *)

(* mod.rs:40-42, AperCodecData::new (derived Default). *)
Definition new_data : cdata := mkD [] 0 None.

(* mod.rs:45-51, from_slice.  Bytes are integers 0..255. *)
Definition from_slice (bytes : list Z) : cdata := mkD (bytes_bits bytes) 0 None.

(* mod.rs:54-56, into_bytes, and mod.rs:285-287, get_inner. *)
Definition into_bytes (s : cdata) : list Z := pack (bits s).

(* `&self.bits[self.decode_offset .. self.decode_offset + n]`: panics when the
   range leaves the buffer.  (An overflow of the end index also panics, by
   overflow check or by start > end, so it is covered by the same test.) *)
Definition slice_at_off (n : Z) : M (list bool) := fun s =>
  if (0 <=? off s) && (0 <=? n) && (off s + n <=? zlen (bits s))
  then (Ok (slice (bits s) (off s) n), s) else (Panic, s).

(* mod.rs:59-82, decode_align. *)
Definition decode_align : M unit :=
  o <- get_off ;;
  if o mod 8 =? 0 then ret tt
  else
    let remaining := 8 - Z.land o 7 in
    pad <- slice_at_off remaining ;;
    if forallb negb pad then set_off (o + remaining) else err.

(* mod.rs:214-233, advance_maybe_err. *)
Definition advance_maybe_err (E : env) (n : Z) (ignore : bool) : M unit :=
  b <- get_bits ;;
  o <- get_off ;;
  offset <- lift (arith_usize E (o + n)) ;;
  if zlen b <? offset then
    if ignore then set_off (zlen b)
    else (lift (arith_usize E (zlen b - o)) ;; err)
  else set_off offset.

(* `*self.bits.get(self.decode_offset).as_deref().unwrap()` *)
Definition bit_at_off : M bool := fun s =>
  if (0 <=? off s) && (off s <? zlen (bits s))
  then (Ok (nth (Z.to_nat (off s)) (bits s) false), s) else (Panic, s).

(* mod.rs:84-94, AperCodecData::decode_bool. *)
Definition data_decode_bool (E : env) : M bool :=
  b <- get_bits ;;
  o <- get_off ;;
  if zlen b =? o then err
  else
    bit <- bit_at_off ;;
    advance_maybe_err E 1 true ;;
    ret bit.

(* bitvec's BitField::load_be::<uW>: panics unless 1 <= length <= W. *)
Definition load_be (w : Z) (l : list bool) : M Z :=
  if (1 <=? zlen l) && (zlen l <=? w) then ret (bits_val l) else panic.

(* mod.rs:96-212, decode_bits_as_integer. *)
Definition decode_bits_as_integer (E : env) (n : Z) (signed : bool) : M Z :=
  b <- get_bits ;;
  o <- get_off ;;
  remaining <- lift (arith_usize E (zlen b - o)) ;;
  if remaining <? n then err
  else
    value <-
      (if negb signed then
         if n =? 0 then ret 0
         else (l <- slice_at_off n ;; v <- load_be 128 l ;; ret (wrap_s 128 v))
       else if n =? 8 then l <- slice_at_off n ;; v <- load_be 128 l ;; ret (wrap_s 8 v)
       else if n =? 16 then l <- slice_at_off n ;; v <- load_be 128 l ;; ret (wrap_s 16 v)
       else if n =? 24 then
         l <- slice_at_off n ;; v <- load_be 32 l ;; neg <- bit_at_off ;;
         ret (wrap_s 32 (if neg : bool then Z.lor v 0xFF000000 else Z.land v 0x00FFFFFF))
       else if n =? 32 then l <- slice_at_off n ;; v <- load_be 128 l ;; ret (wrap_s 32 v)
       else if n =? 40 then
         l <- slice_at_off n ;; v <- load_be 64 l ;; neg <- bit_at_off ;;
         ret (wrap_s 64 (if neg : bool then Z.lor v 0xFFFFFF0000000000 else Z.land v 0x000000FFFFFFFFFF))
       else if n =? 48 then
         l <- slice_at_off n ;; v <- load_be 64 l ;; neg <- bit_at_off ;;
         ret (wrap_s 64 (if neg : bool then Z.lor v 0xFFFF000000000000 else Z.land v 0x0000FFFFFFFFFFFF))
       else if n =? 56 then
         l <- slice_at_off n ;; v <- load_be 64 l ;; neg <- bit_at_off ;;
         ret (wrap_s 64 (if neg : bool then Z.lor v 0xFF00000000000000 else Z.land v 0x00FFFFFFFFFFFFFF))
       else if n =? 64 then l <- slice_at_off n ;; v <- load_be 128 l ;; ret (wrap_s 64 v)
       else if n =? 128 then l <- slice_at_off n ;; v <- load_be 128 l ;; ret (wrap_s 128 v)
       else err) ;;
    advance_maybe_err E n false ;;
    ret value.

(* mod.rs:235-248, get_bit. *)
Definition get_bit (E : env) : M bool :=
  b <- get_bits ;;
  o <- get_off ;;
  if zlen b <=? o then (lift (arith_usize E (zlen b - o)) ;; err)
  else bit_at_off.

(* mod.rs:250-265, get_bitvec.  The result is returned with the bit position
   of its first bit inside a byte (bitvec keeps the head offset), which
   decode_string depends on. *)
Definition get_bitvec (E : env) (length : Z) : M (list bool) :=
  b <- get_bits ;;
  o <- get_off ;;
  e <- lift (arith_usize E (length + o)) ;;
  if zlen b <? e then (lift (arith_usize E (zlen b - o)) ;; err)
  else
    bv <- slice_at_off length ;;
    advance_maybe_err E length true ;;
    ret bv.

(* mod.rs:267-283, get_bytes (force_align makes the bytes those of the bits
   re-packed from position 0). *)
Definition get_bytes (E : env) (length : Z) : M (list Z) :=
  n <- lift (arith_usize E (length * 8)) ;;
  b <- get_bits ;;
  o <- get_off ;;
  e <- lift (arith_usize E (n + o)) ;;
  if zlen b <? e then (lift (arith_usize E (zlen b - o)) ;; err)
  else
    bv <- slice_at_off n ;;
    advance_maybe_err E n true ;;
    ret (pack bv).

(* mod.rs:294-296, get_key. *)
Definition get_key : M (option Z) := fun s => (Ok (key s), s).
(* mod.rs:304-306, set_key. *)
Definition set_key (k : Z) : M unit := fun s => (Ok tt, mkD (bits s) (off s) (Some k)).
(* mod.rs:321-324, reserve (capacity is not observable). *)
Definition reserve (count : Z) : M unit := set_off count.
(* mod.rs:328-330, seek. *)
Definition seek (o : Z) : M unit := set_off o.

(* mod.rs:332-334, swap_bits: exchange other with bits[offset..offset+len]. *)
Definition swap_bits (other : list bool) (o : Z) : M (list bool) := fun s =>
  if (0 <=? o) && (o + zlen other <=? zlen (bits s))
  then (Ok (slice (bits s) o (zlen other)),
        mkD (firstn (Z.to_nat o) (bits s) ++ other
             ++ skipn (Z.to_nat (o + zlen other)) (bits s)) (off s) (key s))
  else (Panic, s).

(* mod.rs:336-338, set_bit. *)
Definition set_bit (i : Z) (v : bool) : M unit := fun s =>
  if (0 <=? i) && (i <? zlen (bits s))
  then (Ok tt, mkD (firstn (Z.to_nat i) (bits s) ++ [v]
                    ++ skipn (Z.to_nat (i + 1)) (bits s)) (off s) (key s))
  else (Panic, s).

(* mod.rs:347-349, append_bits. *)
Definition append_bits (l : list bool) : M unit := fun s =>
  (Ok tt, mkD (bits s ++ l) (off s) (key s)).
(* mod.rs:342-344, AperCodecData::encode_bool. *)
Definition data_encode_bool (v : bool) : M unit := append_bits [v].

(* mod.rs:352-357, align. *)
Definition align_bits (l : list bool) : list bool :=
  let remaining := 8 - Z.land (zlen l) 7 in
  if remaining <? 8 then l ++ repeat false (Z.to_nat remaining) else l.
Definition align : M unit := fun s => (Ok tt, mkD (align_bits (bits s)) (off s) (key s)).

(* mod.rs:361-363, length_in_bytes. *)
Definition length_in_bytes (E : env) (s : cdata) : res Z :=
  match arith_usize E (zlen (bits s) - 1) with
  | Ok m => Ok (m / 8 + 1)
  | r => r
  end.

(* mod.rs:367-371, append_aligned. *)
Definition append_aligned (other : cdata) : M unit :=
  align ;; append_bits (align_bits (bits other)).

(* mod.rs:374-381, bytes_needed_for_range (u8 arithmetic; 128 - lz fits). *)
Definition bytes_needed_for_range (range : Z) : Z :=
  let bits_needed := 128 - leading_zeros128 range in
  if bits_needed mod 8 =? 0 then bits_needed / 8 else bits_needed / 8 + 1.

(* ------------------------------------------------------------------ *)
(* Encoding                                                            *)
(* ------------------------------------------------------------------ *)

(* encode/encode_internal.rs:109-126. *)
Definition encode_indefinite_length_determinent (value : Z) : M unit :=
  align ;;
  if value <? 128 then append_bits (low_bits 8 (wrap_u 8 value))
  else if value <? 16384 then
    append_bits (bytes_bits (be_bytes 2 (Z.lor (wrap_u 16 value) 0x8000)))
  else err.

(* encode/encode_internal.rs:128-141. *)
Definition encode_normally_small_length_determinent (E : env) (value : Z) : M unit :=
  if value <=? 32 then
    byte <- lift (arith_usize E (value - 1)) ;;
    data_encode_bool false ;;
    append_bits (skipn 2 (low_bits 8 (wrap_u 8 byte)))
  else
    data_encode_bool true ;;
    encode_indefinite_length_determinent value.

(* encode/encode_internal.rs:72-87, the `match range` table: number of bits and
   whether the buffer is aligned first; None is the `_ => unreachable!()` arm. *)
Definition enc_range_table (range : Z) : option (Z * bool) :=
  if range =? 1 then Some (0, false)
  else if range =? 2 then Some (1, false)
  else if (3 <=? range) && (range <=? 4) then Some (2, false)
  else if (5 <=? range) && (range <=? 8) then Some (3, false)
  else if (9 <=? range) && (range <=? 16) then Some (4, false)
  else if (17 <=? range) && (range <=? 32) then Some (5, false)
  else if (33 <=? range) && (range <=? 64) then Some (6, false)
  else if (65 <=? range) && (range <=? 128) then Some (7, false)
  else if (129 <=? range) && (range <=? 255) then Some (8, false)
  else if range =? 256 then Some (8, true)
  else None.

(* encode/encode_internal.rs:47-107.  The recursive call is on bounds
   (1, bytes_needed_for_range) with bytes_needed <= 16, so depth 2 suffices;
   fuel 0 is Diverge and never reached (proved). *)
Fixpoint encode_constrained_fuel (fuel : nat) (E : env) (lb ub value : Z) : M unit :=
  match fuel with
  | O => diverge
  | S f =>
    if value <? lb then err
    else if ub <? value then err
    else
      d <- lift (arith_i128 E (ub - lb)) ;;
      range <- lift (arith_i128 E (d + 1)) ;;
      v <- lift (arith_i128 E (value - lb)) ;;
      if range <=? 256 then
        match enc_range_table range with
        | None => panic
        | Some (nbits, al) =>
          (if al : bool then align else ret tt) ;;
          append_bits (skipn (Z.to_nat (8 - nbits)) (low_bits 8 (wrap_u 8 v)))
        end
      else if range <=? 65536 then
        align ;; append_bits (bytes_bits (be_bytes 2 (wrap_u 16 v)))
      else
        let needed := bytes_needed_for_range range in
        let bytes := be_bytes 16 v in
        let first_non_zero :=
          match position (fun x => negb (x =? 0)) bytes with
          | Some p => Z.of_nat p
          | None => 16
          end in
        encode_constrained_fuel f E 1 needed (16 - first_non_zero) ;;
        align ;;
        append_bits (bytes_bits (skipn (Z.to_nat first_non_zero) bytes))
  end.
Definition encode_constrained_whole_number (E : env) (lb ub value : Z) : M unit :=
  encode_constrained_fuel 2 E lb ub value.

(* encode/mod.rs:262-314, encode_length_determinent. *)
Definition encode_length_determinent (E : env) (lb ub : option Z)
    (normally_small : bool) (value : Z) : M unit :=
  if normally_small then encode_normally_small_length_determinent E value
  else
    let indefinite :=
      if match ub with Some u => wrap_u 64 u <? value | None => false end then err
      else if match lb with Some l => value <? wrap_u 64 l | None => false end then err
      else encode_indefinite_length_determinent value in
    match ub with
    | Some u =>
      if u <? 65536
      then encode_constrained_whole_number E (match lb with Some l => l | None => 0 end) u value
      else indefinite
    | None => indefinite
    end.

(* encode/encode_internal.rs:6-30. *)
Definition encode_unconstrained_whole_number (E : env) (value : Z) : M unit :=
  let lead := if value <? 0 then leading_ones128 value else leading_zeros128 value in
  let bytes_needed := if lead mod 8 =? 0 then 16 - lead / 8 + 1 else 16 - lead / 8 in
  encode_length_determinent E None None false bytes_needed ;;
  append_bits (bytes_bits (skipn (Z.to_nat (16 - bytes_needed)) (be_bytes 16 value))).

(* encode/encode_internal.rs:32-45. *)
Definition encode_semi_constrained_whole_number (E : env) (lb value : Z) : M unit :=
  if value <? lb then err
  else
    v <- lift (arith_i128 E (value - lb)) ;;
    encode_unconstrained_whole_number E v.

(* `if is_extensible { data.encode_bool(false) }`, common to the encoders. *)
Definition encode_ext_bit (is_extensible : bool) : M unit :=
  if is_extensible then data_encode_bool false else ret tt.

(* encode/mod.rs:81-117, encode_integer. *)
Definition encode_integer (E : env) (lb ub : option Z) (is_extensible : bool)
    (value : Z) (extended : bool) : M unit :=
  if extended then err
  else
    encode_ext_bit is_extensible ;;
    match lb, ub with
    | None, _ => encode_unconstrained_whole_number E value
    | Some l, None => encode_semi_constrained_whole_number E l value
    | Some l, Some u => encode_constrained_whole_number E l u value
    end.

(* encode/mod.rs:14-42, encode_choice_idx. *)
Definition encode_choice_idx (E : env) (lb ub : Z) (is_extensible : bool)
    (idx : Z) (extended : bool) : M unit :=
  if extended then err
  else
    encode_ext_bit is_extensible ;;
    encode_integer E (Some lb) (Some ub) false idx false.

(* encode/mod.rs:45-73, encode_sequence_header. *)
Definition encode_sequence_header (is_extensible : bool) (optionals : list bool)
    (extended : bool) : M unit :=
  if extended then err
  else encode_ext_bit is_extensible ;; append_bits optionals.

(* encode/mod.rs:122-128, encode_bool. *)
Definition encode_bool (value : bool) : M unit := data_encode_bool value.

(* encode/mod.rs:131-163, encode_enumerated. *)
Definition encode_enumerated (E : env) (lb ub : option Z) (is_extensible : bool)
    (value : Z) (extended : bool) : M unit :=
  if extended then err
  else
    encode_ext_bit is_extensible ;;
    encode_integer E lb ub false value false.

(* encode/mod.rs:166-211, encode_bitstring. *)
Definition encode_bitstring (E : env) (lb ub : option Z) (is_extensible : bool)
    (bit_string : list bool) (extended : bool) : M unit :=
  if extended then err
  else
    encode_ext_bit is_extensible ;;
    let length := zlen bit_string in
    if 16384 <=? length then err
    else
      encode_length_determinent E lb ub false length ;;
      if 0 <? length then
        (if 16 <? length then align else ret tt) ;;
        append_bits bit_string
      else ret tt.

(* encode/mod.rs:214-259, encode_octetstring. *)
Definition encode_octetstring (E : env) (lb ub : option Z) (is_extensible : bool)
    (octets : list Z) (extended : bool) : M unit :=
  if extended then err
  else
    encode_ext_bit is_extensible ;;
    let length := zlen octets in
    if 16384 <=? length then err
    else
      encode_length_determinent E lb ub false length ;;
      if 0 <? length then
        (if 2 <? length then align else ret tt) ;;
        append_bits (bytes_bits octets)
      else ret tt.

(* encode/mod.rs:316-341, encode_string; encode_visible_string 344-362,
   encode_printable_string 365-383 and encode_utf8_string 386-404 only log and
   call it.  A Rust String is represented by its UTF-8 bytes. *)
Definition encode_string (E : env) (lb ub : option Z) (is_extensible : bool)
    (value : list Z) (extended : bool) : M unit :=
  if extended then err
  else
    encode_ext_bit is_extensible ;;
    encode_length_determinent E lb ub false (zlen value) ;;
    (if 2 <? zlen value then align else ret tt) ;;
    append_bits (bytes_bits value).

(* ------------------------------------------------------------------ *)
(* Decoding                                                            *)
(* ------------------------------------------------------------------ *)

(* i128::try_into::<usize>().unwrap() *)
Definition to_usize (z : Z) : M Z := if in_usize z then ret z else panic.

(* decode/decode_internal.rs:175-185: bits for a range below 256. *)
Definition dec_range_bits (range : Z) : Z :=
  if range <=? 1 then 0
  else if range <=? 2 then 1
  else if range <=? 4 then 2
  else if range <=? 8 then 3
  else if range <=? 16 then 4
  else if range <=? 32 then 5
  else if range <=? 64 then 6
  else if range <=? 128 then 7
  else 8.

(* decode/decode_internal.rs:161-203, decode_constrained_whole_number, and
   80-104, decode_constrained_length_determinent: mutually recursive; the inner
   call is on (1, bytes_needed) with bytes_needed <= 16, so depth 2 suffices. *)
Fixpoint decode_constrained_fuel (fuel : nat) (E : env) (lb ub : Z) : M Z :=
  match fuel with
  | O => diverge
  | S f =>
    d <- lift (arith_i128 E (ub - lb)) ;;
    range <- lift (arith_i128 E (d + 1)) ;;
    if range <=? 0 then err
    else
      value <-
        (if range <? 256 then decode_bits_as_integer E (dec_range_bits range) false
         else if range =? 256 then decode_align ;; decode_bits_as_integer E 8 false
         else if range <=? 65536 then decode_align ;; decode_bits_as_integer E 16 false
         else
           let needed := bytes_needed_for_range range in
           (* decode_constrained_length_determinent(data, 1, needed) *)
           length <-
             (r0 <- lift (arith_usize E (needed - 1)) ;;
              r <- lift (arith_usize E (r0 + 1)) ;;
              if r <=? 65536 then
                l <- decode_constrained_fuel f E 1 needed ;; ret (wrap_u 64 l)
              else panic) ;;
           decode_align ;;
           n <- lift (arith_usize E (length * 8)) ;;
           decode_bits_as_integer E n false) ;;
      lift (arith_i128 E (value + lb))
  end.
Definition decode_constrained_whole_number (E : env) (lb ub : Z) : M Z :=
  decode_constrained_fuel 2 E lb ub.

(* decode/decode_internal.rs:80-104, as called with public bounds. *)
Definition decode_constrained_length_determinent (E : env) (lb ub : Z) : M Z :=
  r0 <- lift (arith_usize E (ub - lb)) ;;
  r <- lift (arith_usize E (r0 + 1)) ;;
  if r <=? 65536 then
    l <- decode_constrained_whole_number E lb ub ;; ret (wrap_u 64 l)
  else panic.

(* decode/decode_internal.rs:108-130. *)
Definition decode_indefinite_length_determinent (E : env) : M Z :=
  decode_align ;;
  first <- data_decode_bool E ;;
  length <-
    (if negb first then decode_bits_as_integer E 7 false
     else
       second <- data_decode_bool E ;;
       if negb second then decode_bits_as_integer E 14 false
       else
         l <- decode_bits_as_integer E 6 false ;;
         if negb ((1 <=? l) && (l <=? 4)) then err
         else lift (arith_i128 E (l * 16384))) ;;
  to_usize length.

(* decode/decode_internal.rs:27-36. *)
Definition decode_normally_small_length_determinent (E : env) : M Z :=
  is_small <- data_decode_bool E ;;
  if negb is_small then
    l <- decode_bits_as_integer E 6 false ;;
    lift (arith_usize E (wrap_u 64 l + 1))
  else decode_indefinite_length_determinent E.

(* decode/decode_internal.rs:41-77, decode_length_determinent. *)
Definition decode_length_determinent (E : env) (lb ub : option Z)
    (normally_small : bool) : M Z :=
  if normally_small then decode_normally_small_length_determinent E
  else
    lo <- match lb with Some l => to_usize l | None => ret 0 end ;;
    match ub with
    | Some u =>
      hi <- to_usize u ;;
      if hi <? 65536 then
        if lo =? hi then ret hi
        else decode_constrained_length_determinent E lo hi
      else decode_indefinite_length_determinent E
    | None => decode_indefinite_length_determinent E
    end.

(* decode/decode_internal.rs:133-141. *)
Definition decode_unconstrained_whole_number (E : env) : M Z :=
  length <- decode_length_determinent E None None false ;;
  n <- lift (arith_usize E (length * 8)) ;;
  decode_bits_as_integer E n true.

(* decode/decode_internal.rs:144-156. *)
Definition decode_semi_constrained_whole_number (E : env) (lb : Z) : M Z :=
  length <- decode_length_determinent E None None false ;;
  n <- lift (arith_usize E (length * 8)) ;;
  val <- decode_bits_as_integer E n false ;;
  lift (arith_i128 E (val + lb)).

(* decode/decode_internal.rs:11-20. *)
Definition decode_normally_small_non_negative_whole_number (E : env) : M Z :=
  is_small <- data_decode_bool E ;;
  if negb is_small then decode_bits_as_integer E 6 false
  else decode_semi_constrained_whole_number E 0.

(* `if is_extensible { data.decode_bool()? } else { false }` *)
Definition decode_ext_bit (E : env) (is_extensible : bool) : M bool :=
  if is_extensible then data_decode_bool E else ret false.

(* decode/mod.rs:90-139, decode_integer. *)
Definition decode_integer (E : env) (lb ub : option Z) (is_extensible : bool) : M (Z * bool) :=
  extended <- decode_ext_bit E is_extensible ;;
  value <-
    (if extended : bool then decode_unconstrained_whole_number E
     else
       match lb with
       | None => decode_unconstrained_whole_number E
       | Some l =>
         match ub with
         | None => decode_semi_constrained_whole_number E l
         | Some u => decode_constrained_whole_number E l u
         end
       end) ;;
  ret (value, extended).

(* decode/mod.rs:18-48, decode_choice_idx. *)
Definition decode_choice_idx (E : env) (lb ub : Z) (is_extensible : bool) : M (Z * bool) :=
  if is_extensible then
    extended <- data_decode_bool E ;;
    if negb extended then
      p <- decode_integer E (Some lb) (Some ub) false ;; ret (fst p, extended)
    else
      idx <- decode_normally_small_non_negative_whole_number E ;; ret (idx, extended)
  else
    p <- decode_integer E (Some lb) (Some ub) false ;; ret (fst p, false).

(* decode/mod.rs:55-75, decode_sequence_header. *)
Definition decode_sequence_header (E : env) (is_extensible : bool)
    (optional_count : Z) : M (list bool * bool) :=
  extended <- decode_ext_bit E is_extensible ;;
  bitmap <- (if 0 <? optional_count then get_bitvec E optional_count else ret []) ;;
  ret (bitmap, extended).

(* decode/mod.rs:144-152, decode_bool. *)
Definition decode_bool (E : env) : M bool := data_decode_bool E.

(* decode/mod.rs:160-189, decode_enumerated. *)
Definition decode_enumerated (E : env) (lb ub : option Z) (is_extensible : bool) : M (Z * bool) :=
  is_extended <- decode_ext_bit E is_extensible ;;
  decoded <-
    (if negb is_extended then
       p <- decode_integer E lb ub false ;; ret (fst p)
     else decode_normally_small_non_negative_whole_number E) ;;
  ret (decoded, is_extended).

(* The length read at the top of the fragment loops, decode/mod.rs:215-219,
   265-269 and decode_charstrings.rs:73-77. *)
Definition decode_frag_length (E : env) (is_extended : bool) (lb ub : option Z) : M Z :=
  if is_extended then decode_length_determinent E None None false
  else decode_length_determinent E lb ub false.

(* decode/mod.rs:214-234, the loop of decode_bitstring; acc is `bv`. *)
Fixpoint bitstring_loop (fuel : nat) (E : env) (is_extended : bool)
    (lb ub : option Z) (acc : list bool) : M (list bool) :=
  match fuel with
  | O => diverge
  | S f =>
    length <- decode_frag_length E is_extended lb ub ;;
    acc' <-
      (if 0 <? length then
         (if 16 <? length then decode_align else ret tt) ;;
         piece <- get_bitvec E length ;;
         ret (acc ++ piece)
       else ret acc) ;;
    if 16384 <=? length then bitstring_loop f E is_extended lb ub acc'
    else ret acc'
  end.

(* Every iteration that continues consumes at least 16384 bits, so one more
   than the number of bits in the buffer is enough fuel (proved). *)
Definition loop_fuel : M nat := fun s => (Ok (S (length (bits s))), s).

(* decode/mod.rs:194-239, decode_bitstring. *)
Definition decode_bitstring (E : env) (lb ub : option Z) (is_extensible : bool) : M (list bool) :=
  is_extended <- decode_ext_bit E is_extensible ;;
  fuel <- loop_fuel ;;
  bitstring_loop fuel E is_extended lb ub [].

(* decode/mod.rs:264-284, the loop of decode_octetstring. *)
Fixpoint octetstring_loop (fuel : nat) (E : env) (is_extended : bool)
    (lb ub : option Z) (acc : list Z) : M (list Z) :=
  match fuel with
  | O => diverge
  | S f =>
    length <- decode_frag_length E is_extended lb ub ;;
    acc' <-
      (if 0 <? length then
         (if 2 <? length then decode_align else ret tt) ;;
         piece <- get_bytes E length ;;
         ret (acc ++ piece)
       else ret acc) ;;
    if 16384 <=? length then octetstring_loop f E is_extended lb ub acc'
    else ret acc'
  end.

(* decode/mod.rs:244-289, decode_octetstring. *)
Definition decode_octetstring (E : env) (lb ub : option Z) (is_extensible : bool) : M (list Z) :=
  is_extended <- decode_ext_bit E is_extensible ;;
  fuel <- loop_fuel ;;
  octetstring_loop fuel E is_extended lb ub [].

(* bitvec's native-endian BitField::load::<u8> on an 8-bit chunk whose first
   bit sits at position `head` (0..7) of its byte.  On a little-endian host the
   part in the second byte becomes the more significant part. *)
Definition load_native (E : env) (head : Z) (c : list bool) : Z :=
  if little_endian E then
    let k := Z.to_nat (8 - head) in
    bits_val (skipn k c ++ firstn k c)
  else bits_val c.

(* std::str::from_utf8 (Unicode 6.0 table 3-7: well-formed byte sequences). *)
Definition cont (b : Z) : bool := (0x80 <=? b) && (b <=? 0xBF).
Fixpoint utf8_valid_fuel (fuel : nat) (l : list Z) : bool :=
  match fuel with
  | O => match l with [] => true | _ => false end
  | S f =>
    match l with
    | [] => true
    | a :: r =>
      if (0 <=? a) && (a <=? 0x7F) then utf8_valid_fuel f r
      else if (0xC2 <=? a) && (a <=? 0xDF) then
        match r with b :: r' => cont b && utf8_valid_fuel f r' | _ => false end
      else if (0xE0 <=? a) && (a <=? 0xEF) then
        match r with
        | b :: c :: r' =>
          cont b && cont c
          && (if a =? 0xE0 then 0xA0 <=? b else true)
          && (if a =? 0xED then b <=? 0x9F else true)
          && utf8_valid_fuel f r'
        | _ => false
        end
      else if (0xF0 <=? a) && (a <=? 0xF4) then
        match r with
        | b :: c :: d :: r' =>
          cont b && cont c && cont d
          && (if a =? 0xF0 then 0x90 <=? b else true)
          && (if a =? 0xF4 then b <=? 0x8F else true)
          && utf8_valid_fuel f r'
        | _ => false
        end
      else false
    end
  end.
Definition utf8_valid (l : list Z) : bool := utf8_valid_fuel (length l) l.

(* decode/decode_charstrings.rs:61-95, decode_string; decode_visible_string
   11-24, decode_printable_string 27-40, decode_utf8_string 46-59 call it. *)
Definition decode_string (E : env) (lb ub : option Z) (is_extensible : bool) : M (list Z) :=
  is_extended <- decode_ext_bit E is_extensible ;;
  length <- decode_frag_length E is_extended lb ub ;;
  n <- lift (arith_usize E (length * 8)) ;;
  (if 16 <? n then decode_align else ret tt) ;;
  head <- get_off ;;
  bv <- get_bitvec E n ;;
  let bytes := map (load_native E (head mod 8)) (chunks8 bv) in
  if utf8_valid bytes then ret bytes else err.
