(* Shared vocabulary of the model: results, build profile, machine integers,
   bit lists.  Definitions only. *)
From Coq Require Import ZArith List Bool.
Import ListNotations.
Open Scope Z_scope.

(* Outcome of a Rust function returning Result<A, AperCodecError>
   (codecs/src/aper/error.rs: the message is dropped).
   Panic   : the thread panics (failed index/slice, unwrap, unreachable!,
             unimplemented!, arithmetic overflow with overflow checks on).
   Diverge : a loop of the Rust code does not end (fuel of the model spent). *)
Inductive res (A : Type) : Type :=
| Ok (a : A)
| Err
| Panic
| Diverge.
Arguments Ok {A} a.
Arguments Err {A}.
Arguments Panic {A}.
Arguments Diverge {A}.

(* The two facts about the build that change behaviour: rustc's overflow
   checks (on in debug, off in release) and the byte order of the host, which
   bitvec's native-endian `load` follows. *)
Record env := Env { overflow_checks : bool; little_endian : bool }.

(* `x as uW` and `x as iW` for a width W. *)
Definition wrap_u (w z : Z) : Z := z mod 2 ^ w.
Definition wrap_s (w z : Z) : Z :=
  let m := z mod 2 ^ w in if m <? 2 ^ (w - 1) then m else m - 2 ^ w.

Definition in_i128 (z : Z) : bool := (- 2 ^ 127 <=? z) && (z <? 2 ^ 127).
Definition in_usize (z : Z) : bool := (0 <=? z) && (z <? 2 ^ 64).

(* Arithmetic result of an i128 (resp. usize) operator: panics on overflow when
   overflow checks are on, wraps otherwise. *)
Definition arith_i128 (E : env) (z : Z) : res Z :=
  if in_i128 z then Ok z
  else if overflow_checks E then Panic else Ok (wrap_s 128 z).
Definition arith_usize (E : env) (z : Z) : res Z :=
  if in_usize z then Ok z
  else if overflow_checks E then Panic else Ok (wrap_u 64 z).

(* Length of a list as a usize. *)
Definition zlen {A} (l : list A) : Z := Z.of_nat (length l).

(* Number of significant bits of a non-negative integer. *)
Definition bitlen (z : Z) : Z := if z <=? 0 then 0 else Z.log2 z + 1.

(* i128::leading_zeros / i128::leading_ones (two's complement, 128 bits). *)
Definition leading_zeros128 (z : Z) : Z := if z <? 0 then 0 else 128 - bitlen z.
Definition leading_ones128 (z : Z) : Z := if z <? 0 then 128 - bitlen (- z - 1) else 0.

(* Bit lists, most significant bit first. *)
Fixpoint bits_val (l : list bool) : Z :=
  match l with
  | [] => 0
  | b :: l' => (if b then 2 ^ zlen l' else 0) + bits_val l'
  end.

(* The n low bits of z (two's complement), most significant first. *)
Fixpoint low_bits (n : nat) (z : Z) : list bool :=
  match n with
  | O => []
  | S n' => Z.testbit z (Z.of_nat n') :: low_bits n' z
  end.

(* {i,u}N::to_be_bytes for an N = 8*n bit integer. *)
Fixpoint be_bytes (n : nat) (z : Z) : list Z :=
  match n with
  | O => []
  | S n' => (z / 2 ^ (8 * Z.of_nat n')) mod 256 :: be_bytes n' z
  end.

(* `bytes.view_bits::<Msb0>()`. *)
Definition bytes_bits (bs : list Z) : list bool := flat_map (low_bits 8) bs.

(* Iterator::position. *)
Fixpoint position {A} (f : A -> bool) (l : list A) : option nat :=
  match l with
  | [] => None
  | x :: l' => if f x then Some O else option_map S (position f l')
  end.

(* `&bits[o..o+n]` for an in-range slice. *)
Definition slice {A} (l : list A) (o n : Z) : list A :=
  firstn (Z.to_nat n) (skipn (Z.to_nat o) l).

(* Packing a bit list into bytes; the unused low bits of the last byte are 0
   (`BitVec::into_vec`, see DESIGN.md, trusted facts about bitvec). *)
Fixpoint pack_fuel (fuel : nat) (l : list bool) : list Z :=
  match fuel with
  | O => []
  | S f =>
    match l with
    | [] => []
    | _ => bits_val (firstn 8 (l ++ repeat false 8)) :: pack_fuel f (skipn 8 l)
    end
  end.
Definition pack (l : list bool) : list Z := pack_fuel (length l) l.

(* Splitting into chunks of exactly 8 (`chunks_exact(8)`). *)
Fixpoint chunks8_fuel (fuel : nat) (l : list bool) : list (list bool) :=
  match fuel with
  | O => []
  | S f => if (Z.of_nat (length l) <? 8) then [] else firstn 8 l :: chunks8_fuel f (skipn 8 l)
  end.
Definition chunks8 (l : list bool) : list (list bool) := chunks8_fuel (length l) l.
