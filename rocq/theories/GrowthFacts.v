(* The length of the encodings of the values of compiled types (C66). *)
From Coq Require Import ZArith List Bool String Lia.
Require Import Verif.Base Verif.CodecModel Verif.DeriveModel Verif.Asn1Model Verif.GenModel Verif.DefinitionModel Verif.RustModel Verif.RustSpec Verif.X691TypesFacts Verif.BitLemmas Verif.DeriveSpec Verif.SizeSpec Verif.SizeProofs Verif.GrowthSpec Verif.GrowthProofs.
Import ListNotations.
Open Scope Z_scope.

Theorem compiled_fit num E depth fuel files orders prog : compile_files num E depth fuel files orders = Ok prog ->
  (forall n d, In (n, d) prog -> countable d /\ ~ In "Option"%string (used_types d)) ->
  forall n T, rust_means (map item_of prog) n T -> bitmaps_fit T.
Proof. intros Hc Hp n T HT. apply (proj1 numbered_fit). exact (C56_numbered_proof num E depth fuel files orders prog Hc Hp n T HT). Qed.
Theorem compiled_size num E depth fuel files orders prog : compile_files num E depth fuel files orders = Ok prog ->
  (forall n d, In (n, d) prog -> countable d /\ ~ In "Option"%string (used_types d)) ->
  forall n T v d, rust_means (map item_of prog) n T -> enc E T v new_data = (Ok tt, d) -> payload v <= 8 * zlen (into_bytes d) < payload v + 153 * nodes v + 7.
Proof. intros Hc Hp n T v d HT. apply message_size. exact (compiled_fit num E depth fuel files orders prog Hc Hp n T HT). Qed.
Theorem relay_bounded E E' t octets v s d : bounded_loops t = true -> bitmaps_fit t -> zlen octets < 2 ^ 58 ->
  dec E t (from_slice octets) = (Ok v, s) -> enc E' t v new_data = (Ok tt, d) -> zlen (into_bytes d) <= (1 + 153 * span t) * Z.max 1 (zlen octets).
Proof.
  intros Hl Hf Hz Hd He. destruct (message_bounded E t octets v s Hl Hz Hd) as [H1 H2]. destruct (message_size E' t v d Hf He) as [_ H3].
  pose proof (zlen_nonneg octets). pose proof (proj1 span_pos t). clear Hz Hd He. revert H1 H2 H. generalize (zlen octets). intros n H1 H2 H.
  destruct (Z.eq_dec n 0) as [->|Hn].
  - change (Z.max 1 (8 * 0)) with 1 in H2. change (Z.max 1 0) with 1. lia.
  - rewrite Z.max_r in H2 by lia. rewrite Z.max_r by lia. nia.
Qed.
