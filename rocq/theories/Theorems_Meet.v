(* Intersections in the constraints of INTEGER (properties.jsonl C32; the rest of C32
   is in Theorems_Compiler.v).  Vocabulary: CompilerSpec.v. *)
From Coq Require Import ZArith List Bool String Lia.
Require Import Verif.Base Verif.Asn1Model Verif.GenModel Verif.ResolveModel Verif.CompilerSpec Verif.CompilerFacts Verif.MeetProofs.
Import ListNotations.
Open Scope string_scope.
Open Scope list_scope.
Open Scope Z_scope.

(* ===== C32 bounds are the least and greatest permitted values ===== *)
(* Full claim: the bounds of an intersection are its least and greatest member.
   Missing: ranges that are not the same, at which the compiler panics even if they
   have numbers in common, see C32_intersections_refuted. *)
Theorem C32_two_ranges_partial : forall E defs inst l u l' u' a b c d name st,
  value_of (known defs) l = Some a -> value_of (known defs) u = Some b -> - 2 ^ 127 < a <= b -> b < 2 ^ 127 - 1 ->
  value_of (known defs) l' = Some c -> value_of (known defs) u' = Some d -> - 2 ^ 127 < c <= d -> d < 2 ^ 127 - 1 ->
  definition_of E defs inst (integer_type (mkSet [[ERange l true u true; ERange l' true u' true]] None)) name st =
  if (a =? c) && (b =? d) then Ok (GInteger (chosen_width a b) (a <? 0) (Some a) (Some b) false, st) else Panic.
Proof. exact two_ranges_proof. Qed.
Print Assumptions C32_two_ranges_partial.
Example C32_two_ranges_case : let defs := [("n", DValue (VInteger 10))] in
  value_of (known defs) "0" = Some 0 /\ value_of (known defs) "n" = Some 10 /\ value_of (known defs) "10" = Some 10 /\
  definition_of {| overflow_checks := true; little_endian := true |} defs no_instances (integer_type (mkSet [[ERange "0" true "n" true; ERange "0" true "10" true]] None)) "T" new_generator =
    Ok (GInteger 8 false (Some 0) (Some 10) false, new_generator) /\
  definition_of {| overflow_checks := true; little_endian := true |} defs no_instances (integer_type (mkSet [[ERange "0" true "n" true; ERange "0" true "5" true]] None)) "T" new_generator = Panic.
Proof. cbv zeta. repeat split. Qed.
(* Any number of ranges that are the same, though they may be written differently. *)
Theorem C32_same_ranges_partial : forall E defs inst rs a b name st,
  rs <> [] -> - 2 ^ 127 < a <= b -> b < 2 ^ 127 - 1 ->
  Forall (fun r => value_of (known defs) (fst r) = Some a /\ value_of (known defs) (snd r) = Some b) rs ->
  definition_of E defs inst (integer_type (mkSet [map (fun r => ERange (fst r) true (snd r) true) rs] None)) name st =
  Ok (GInteger (chosen_width a b) (a <? 0) (Some a) (Some b) false, st).
Proof. exact same_ranges_proof. Qed.
Print Assumptions C32_same_ranges_partial.
Example C32_same_ranges_case : let defs := [("n", DValue (VInteger 10))] in
  Forall (fun r => value_of (known defs) (fst r) = Some 0 /\ value_of (known defs) (snd r) = Some 10) [("0", "n"); ("0", "10"); ("00", "n")].
Proof. cbv zeta. repeat constructor. Qed.
(* Numbers: no number is in an intersection of two different ones. *)
Theorem C32_two_numbers : forall E defs inst v w y z name st,
  value_of (known defs) v = Some y -> value_of (known defs) w = Some z -> - 2 ^ 127 < y < 2 ^ 127 ->
  definition_of E defs inst (integer_type (mkSet [[ESingle v; ESingle w]] None)) name st =
  if y =? z then Ok (GInteger (chosen_width y y) (y <? 0) (Some y) (Some y) false, st) else Panic.
Proof. exact two_numbers_proof. Qed.
Print Assumptions C32_two_numbers.
Example C32_two_numbers_case : value_of (known [("n", DValue (VInteger 10))]) "n" = Some 10 /\ value_of (known []) "10" = Some 10.
Proof. repeat split. Qed.
(* A number of a range: the compiler panics, wherever the number lies. *)
Theorem C32_range_and_number_refuted : forall E defs inst l u w a b z name st,
  value_of (known defs) l = Some a -> value_of (known defs) u = Some b -> - 2 ^ 127 <= a <= b -> b < 2 ^ 127 - 1 ->
  value_of (known defs) w = Some z ->
  definition_of E defs inst (integer_type (mkSet [[ERange l true u true; ESingle w]] None)) name st = Panic /\
  definition_of E defs inst (integer_type (mkSet [[ESingle w; ERange l true u true]] None)) name st = Panic.
Proof. exact range_and_number_proof. Qed.
Print Assumptions C32_range_and_number_refuted.
Example C32_range_and_number_case : value_of (known []) "0" = Some 0 /\ value_of (known []) "10" = Some 10 /\ value_of (known []) "5" = Some 5 /\
  is_least (set_permits (known []) (mkSet [[ERange "0" true "10" true; ESingle "5"]] None)) 5.
Proof.
  repeat split.
  - left. split; [|split; [reflexivity|exact Logic.I]]. exists 0, 10. repeat split; lia.
  - intros z H. destruct H as [[_ [H _]]|[]]. vm_compute in H. injection H as <-. lia.
Qed.
(* Of three ranges the first two of which differ, the last one is taken, whatever the
   others are: an intersection that has become empty is taken for one that has not
   begun. *)
Theorem C32_third_range_refuted : forall E defs inst l u l' u' l'' u'' a b c d e f name st,
  value_of (known defs) l = Some a -> value_of (known defs) u = Some b -> - 2 ^ 127 < a <= b -> b < 2 ^ 127 - 1 ->
  value_of (known defs) l' = Some c -> value_of (known defs) u' = Some d -> - 2 ^ 127 < c <= d -> d < 2 ^ 127 - 1 ->
  value_of (known defs) l'' = Some e -> value_of (known defs) u'' = Some f -> - 2 ^ 127 < e <= f -> f < 2 ^ 127 - 1 ->
  (a <> c \/ b <> d) ->
  definition_of E defs inst (integer_type (mkSet [[ERange l true u true; ERange l' true u' true; ERange l'' true u'' true]] None)) name st =
  Ok (GInteger (chosen_width e f) (e <? 0) (Some e) (Some f) false, st).
Proof. exact third_range_proof. Qed.
Print Assumptions C32_third_range_refuted.
(* No number is in (1..2 ^ 3..4 ^ 5..600), which is compiled to 5..600. *)
Example C32_third_range_case :
  definition_of {| overflow_checks := true; little_endian := true |} [] no_instances
    (integer_type (mkSet [[ERange "1" true "2" true; ERange "3" true "4" true; ERange "5" true "600" true]] None)) "T" new_generator =
    Ok (GInteger 16 false (Some 5) (Some 600) false, new_generator) /\
  forall z, set_permits (known []) (mkSet [[ERange "1" true "2" true; ERange "3" true "4" true; ERange "5" true "600" true]] None) z -> False.
Proof.
  split; [vm_compute; reflexivity|]. intros z [[(a & b & Ha & Hb & H) [(c & d & Hc & Hd & H') _]]|[]].
  vm_compute in Ha, Hb, Hc, Hd. injection Ha as <-. injection Hb as <-. injection Hc as <-. injection Hd as <-. lia.
Qed.
