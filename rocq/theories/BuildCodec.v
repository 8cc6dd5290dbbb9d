(* Builds with and without overflow checks (C67): encoders and decoders. *)
From Coq Require Import ZArith List Bool Lia.
Require Import Verif.Base Verif.CodecModel Verif.DeriveModel Verif.DeriveFacts Verif.BuildProofs Verif.BuildSpec.
Import ListNotations.
Open Scope Z_scope.
Open Scope list_scope.

Definition tallyM {A} (m n : M A) : Prop := forall s, fst (m s) = Panic \/ n s = m s.
Lemma tallyM_refl {A} (m : M A) : tallyM m m.
Proof. intros s. now right. Qed.
Lemma tallyM_bind {A B} (m n : M A) (f g : A -> M B) : tallyM m n -> (forall x, tallyM (f x) (g x)) -> tallyM (bind m f) (bind n g).
Proof.
  intros H Hf s. unfold bind. destruct (H s) as [Hp| ->].
  - left. destruct (m s) as [r s']. cbn [fst] in Hp. subst. reflexivity.
  - destruct (m s) as [[a| | |] s']; [apply Hf|now right..].
Qed.
Lemma tallyM_lift {A} (a b : res A) : tally a b -> tallyM (lift a) (lift b).
Proof. intros [->| ->] s; [now left|now right]. Qed.
Lemma tallyM_ignore m n : tallyM m n -> tallyM (ignore_err m) (ignore_err n).
Proof.
  intros H s. unfold ignore_err. destruct (H s) as [Hp| ->]; [left|now right]. destruct (m s) as [r s']. cbn [fst] in Hp. subst. reflexivity.
Qed.

Section Codec.
Context (E1 E2 : env) (Hc : overflow_checks E1 = true \/ overflow_checks E2 = overflow_checks E1).
Ltac steps :=
  repeat lazymatch goal with
  | |- tallyM ?x ?x => apply tallyM_refl
  | |- tallyM (bind _ _) (bind _ _) => apply tallyM_bind; [|intros ?]
  | |- tallyM (lift (arith_usize _ _)) _ => apply tallyM_lift, (tally_usize E1 E2 Hc)
  | |- tallyM (lift (arith_i128 _ _)) _ => apply tallyM_lift, (tally_i128 E1 E2 Hc)
  | |- tallyM (if ?b then _ else _) _ => destruct b
  | |- tallyM (match ?x with _ => _ end) _ => destruct x
  | |- tallyM (let _ := _ in _) _ => cbv zeta
  | |- tallyM _ _ => solve [auto with tally]
  end.
Lemma t_advance n i : tallyM (advance_maybe_err E1 n i) (advance_maybe_err E2 n i).
Proof. unfold advance_maybe_err. steps. Qed.
Hint Resolve t_advance : tally.
Lemma t_bool : tallyM (data_decode_bool E1) (data_decode_bool E2).
Proof. unfold data_decode_bool. steps. Qed.
Hint Resolve t_bool : tally.
Lemma t_bits n s : tallyM (decode_bits_as_integer E1 n s) (decode_bits_as_integer E2 n s).
Proof. unfold decode_bits_as_integer. steps. Qed.
Hint Resolve t_bits : tally.
Lemma t_bitvec n : tallyM (get_bitvec E1 n) (get_bitvec E2 n).
Proof. unfold get_bitvec. steps. Qed.
Lemma t_bytes n : tallyM (get_bytes E1 n) (get_bytes E2 n).
Proof. unfold get_bytes. steps. Qed.
Hint Resolve t_bitvec t_bytes : tally.
Lemma t_length s : tally (length_in_bytes E1 s) (length_in_bytes E2 s).
Proof. unfold length_in_bytes. destruct (tally_usize E1 E2 Hc (zlen (bits s) - 1)) as [->| ->]; [now left|now right]. Qed.

(* encoding *)
Lemma t_enc_constrained f lb ub v : tallyM (encode_constrained_fuel f E1 lb ub v) (encode_constrained_fuel f E2 lb ub v).
Proof. revert lb ub v. induction f as [|f IH]; intros lb ub v; cbn [encode_constrained_fuel]; steps. Qed.
Hint Resolve t_enc_constrained : tally.
Lemma t_enc_whole lb ub v : tallyM (encode_constrained_whole_number E1 lb ub v) (encode_constrained_whole_number E2 lb ub v).
Proof. apply t_enc_constrained. Qed.
Hint Resolve t_enc_whole : tally.
Lemma t_enc_small v : tallyM (encode_normally_small_length_determinent E1 v) (encode_normally_small_length_determinent E2 v).
Proof. unfold encode_normally_small_length_determinent. steps. Qed.
Hint Resolve t_enc_small : tally.
Lemma t_enc_length lb ub n v : tallyM (encode_length_determinent E1 lb ub n v) (encode_length_determinent E2 lb ub n v).
Proof. unfold encode_length_determinent. steps. Qed.
Hint Resolve t_enc_length : tally.
Lemma t_enc_unconstrained v : tallyM (encode_unconstrained_whole_number E1 v) (encode_unconstrained_whole_number E2 v).
Proof. unfold encode_unconstrained_whole_number. steps. Qed.
Hint Resolve t_enc_unconstrained : tally.
Lemma t_enc_semi l v : tallyM (encode_semi_constrained_whole_number E1 l v) (encode_semi_constrained_whole_number E2 l v).
Proof. unfold encode_semi_constrained_whole_number. steps. Qed.
Hint Resolve t_enc_semi : tally.
Lemma t_enc_integer lb ub e v x : tallyM (encode_integer E1 lb ub e v x) (encode_integer E2 lb ub e v x).
Proof. unfold encode_integer. steps. Qed.
Hint Resolve t_enc_integer : tally.
Lemma t_enc_choice lb ub e v x : tallyM (encode_choice_idx E1 lb ub e v x) (encode_choice_idx E2 lb ub e v x).
Proof. unfold encode_choice_idx. steps. Qed.
Lemma t_enc_enum lb ub e v x : tallyM (encode_enumerated E1 lb ub e v x) (encode_enumerated E2 lb ub e v x).
Proof. unfold encode_enumerated. steps. Qed.
Lemma t_enc_bits lb ub e v x : tallyM (encode_bitstring E1 lb ub e v x) (encode_bitstring E2 lb ub e v x).
Proof. unfold encode_bitstring. steps. Qed.
Lemma t_enc_octets lb ub e v x : tallyM (encode_octetstring E1 lb ub e v x) (encode_octetstring E2 lb ub e v x).
Proof. unfold encode_octetstring. steps. Qed.
Lemma t_enc_string lb ub e v x : tallyM (encode_string E1 lb ub e v x) (encode_string E2 lb ub e v x).
Proof. unfold encode_string. steps. Qed.
Hint Resolve t_enc_choice t_enc_enum t_enc_bits t_enc_octets t_enc_string : tally.
Lemma t_each {A} (f g : A -> M unit) l : (forall x, tallyM (f x) (g x)) -> tallyM (each f l) (each g l).
Proof. intros H. induction l as [|x l IH]; cbn [each]; steps. Qed.
Lemma t_frame a b : (fst a = Panic \/ b = a) -> tallyM (enc_open_frame E1 a) (enc_open_frame E2 b).
Proof.
  intros [H| ->].
  - destruct a as [r s]. cbn [fst] in H. subst. intros s'. now left.
  - destruct a as [[u| | |] s]; cbn [enc_open_frame]; [|apply tallyM_refl..]. apply tallyM_bind; [apply tallyM_lift, t_length|]. intros n. steps.
Qed.
Lemma t_enc : (forall t v, tallyM (enc E1 t v) (enc E2 t v)) /\ (forall fs vs, tallyM (enc_fields E1 fs vs) (enc_fields E2 fs vs)) /\
  (forall al, (forall lb ub e n v, tallyM (enc_choice E1 lb ub e al n v) (enc_choice E2 lb ub e al n v)) /\ (forall n v, tallyM (enc_variant E1 al n v) (enc_variant E2 al n v))).
Proof.
  apply ty_mutind.
  1-8: intros; match goal with v : val |- _ => destruct v end; cbn [enc]; steps.
  - intros e n fs IH v. destruct v; cbn [enc]; steps.
  - intros lb ub e t IH v. destruct v; cbn [enc]; try apply tallyM_refl. apply tallyM_bind; [apply tallyM_ignore; steps|]. intros _. apply t_each. exact IH.
  - intros lb ub e al [IH _] v. destruct v; cbn [enc]; try apply tallyM_refl. apply IH.
  - intros al [_ IH] v. destruct v; cbn [enc]; try apply tallyM_refl. apply t_frame. apply IH.
  - intros vs. apply tallyM_refl.
  - intros i t IHt fs IHf [|[v|] vs]; cbn [enc_fields]; steps.
  - intros k t IHt fs IHf [|[v|] vs]; cbn [enc_fields]; steps.
  - split; intros; apply tallyM_refl.
  - intros k x t IHt al [IH1 IH2]. split.
    + intros lb ub e [|n] v; cbn [enc_choice]; steps.
    + intros [|n] v; cbn [enc_variant]; steps.
Qed.

(* decoding *)
Lemma t_dec_constrained f lb ub : tallyM (decode_constrained_fuel f E1 lb ub) (decode_constrained_fuel f E2 lb ub).
Proof. revert lb ub. induction f as [|f IH]; intros lb ub; cbn [decode_constrained_fuel]; steps. Qed.
Lemma t_dec_whole lb ub : tallyM (decode_constrained_whole_number E1 lb ub) (decode_constrained_whole_number E2 lb ub).
Proof. apply t_dec_constrained. Qed.
Hint Resolve t_dec_whole : tally.
Lemma t_dec_clength lb ub : tallyM (decode_constrained_length_determinent E1 lb ub) (decode_constrained_length_determinent E2 lb ub).
Proof. unfold decode_constrained_length_determinent. steps. Qed.
Lemma t_dec_indefinite : tallyM (decode_indefinite_length_determinent E1) (decode_indefinite_length_determinent E2).
Proof. unfold decode_indefinite_length_determinent. steps. Qed.
Hint Resolve t_dec_clength t_dec_indefinite : tally.
Lemma t_dec_small : tallyM (decode_normally_small_length_determinent E1) (decode_normally_small_length_determinent E2).
Proof. unfold decode_normally_small_length_determinent. steps. Qed.
Hint Resolve t_dec_small : tally.
Lemma t_dec_length lb ub n : tallyM (decode_length_determinent E1 lb ub n) (decode_length_determinent E2 lb ub n).
Proof. unfold decode_length_determinent. steps. Qed.
Hint Resolve t_dec_length : tally.
Lemma t_dec_unconstrained : tallyM (decode_unconstrained_whole_number E1) (decode_unconstrained_whole_number E2).
Proof. unfold decode_unconstrained_whole_number. steps. Qed.
Lemma t_dec_semi l : tallyM (decode_semi_constrained_whole_number E1 l) (decode_semi_constrained_whole_number E2 l).
Proof. unfold decode_semi_constrained_whole_number. steps. Qed.
Hint Resolve t_dec_unconstrained t_dec_semi : tally.
Lemma t_dec_nn : tallyM (decode_normally_small_non_negative_whole_number E1) (decode_normally_small_non_negative_whole_number E2).
Proof. unfold decode_normally_small_non_negative_whole_number. steps. Qed.
Hint Resolve t_dec_nn : tally.
Lemma t_dec_ext e : tallyM (decode_ext_bit E1 e) (decode_ext_bit E2 e).
Proof. unfold decode_ext_bit. steps. Qed.
Hint Resolve t_dec_ext : tally.
Lemma t_dec_integer lb ub e : tallyM (decode_integer E1 lb ub e) (decode_integer E2 lb ub e).
Proof. unfold decode_integer. steps. Qed.
Hint Resolve t_dec_integer : tally.
Lemma t_dec_choice lb ub e : tallyM (decode_choice_idx E1 lb ub e) (decode_choice_idx E2 lb ub e).
Proof. unfold decode_choice_idx. steps. Qed.
Lemma t_dec_header e n : tallyM (decode_sequence_header E1 e n) (decode_sequence_header E2 e n).
Proof. unfold decode_sequence_header. steps. Qed.
Lemma t_dec_enum lb ub e : tallyM (decode_enumerated E1 lb ub e) (decode_enumerated E2 lb ub e).
Proof. unfold decode_enumerated. steps. Qed.
Lemma t_dec_frag x lb ub : tallyM (decode_frag_length E1 x lb ub) (decode_frag_length E2 x lb ub).
Proof. unfold decode_frag_length. steps. Qed.
Hint Resolve t_dec_choice t_dec_header t_dec_enum t_dec_frag : tally.
Lemma t_bits_loop f x lb ub acc : tallyM (bitstring_loop f E1 x lb ub acc) (bitstring_loop f E2 x lb ub acc).
Proof. revert acc. induction f as [|f IH]; intros acc; cbn [bitstring_loop]; steps. Qed.
Lemma t_octets_loop f x lb ub acc : tallyM (octetstring_loop f E1 x lb ub acc) (octetstring_loop f E2 x lb ub acc).
Proof. revert acc. induction f as [|f IH]; intros acc; cbn [octetstring_loop]; steps. Qed.
Hint Resolve t_bits_loop t_octets_loop : tally.
Lemma t_dec_bits lb ub e : tallyM (decode_bitstring E1 lb ub e) (decode_bitstring E2 lb ub e).
Proof. unfold decode_bitstring. steps. Qed.
Lemma t_dec_octets lb ub e : tallyM (decode_octetstring E1 lb ub e) (decode_octetstring E2 lb ub e).
Proof. unfold decode_octetstring. steps. Qed.
Hint Resolve t_dec_bits t_dec_octets : tally.
Lemma t_dec_string lb ub e : little_endian E2 = little_endian E1 -> tallyM (decode_string E1 lb ub e) (decode_string E2 lb ub e).
Proof.
  intros H. unfold decode_string. apply tallyM_bind; [steps|]. intros x. apply tallyM_bind; [steps|]. intros n. apply tallyM_bind; [steps|]. intros m.
  apply tallyM_bind; [steps|]. intros u. apply tallyM_bind; [steps|]. intros h. apply tallyM_bind; [steps|]. intros bv.
  assert (Hl : load_native E2 = load_native E1). { unfold load_native. rewrite H. reflexivity. } rewrite Hl. apply tallyM_refl.
Qed.
Lemma t_seqof f m n c l items : tallyM m n -> tallyM (seqof_loop f m c l items) (seqof_loop f n c l items).
Proof. intros H. revert c items. induction f as [|f IH]; intros c items; cbn [seqof_loop]; steps. Qed.
Lemma t_dec : (forall t, little_endian E2 = little_endian E1 \/ no_strings t -> tallyM (dec E1 t) (dec E2 t)) /\
  (forall fs, little_endian E2 = little_endian E1 \/ no_strings_fields fs -> forall b, tallyM (dec_fields E1 b fs) (dec_fields E2 b fs)) /\
  (forall al, little_endian E2 = little_endian E1 \/ no_strings_alts al -> forall i n, tallyM (dec_alts E1 al i n) (dec_alts E2 al i n)).
Proof.
  apply ty_mutind; cbn [no_strings no_strings_fields no_strings_alts].
  1-7: intros; cbn [dec]; unfold decode_bool; steps.
  - intros lb ub e [H|[]]. cbn [dec]. apply tallyM_bind; [now apply t_dec_string|]. intros l. steps.
  - intros e n fs IH H. cbn [dec]. specialize (IH H). steps.
  - intros lb ub e t IH H. cbn [dec]. apply tallyM_bind; [steps|]. intros n. apply tallyM_bind; [steps|]. intros f. apply tallyM_bind; [|intros l; steps].
    apply t_seqof. exact (IH H).
  - intros lb ub e al IH H. cbn [dec]. specialize (IH H). steps.
  - intros al IH H. cbn [dec]. specialize (IH H). steps.
  - intros _ b. apply tallyM_refl.
  - intros i t IHt fs IHf H b. assert (IHt' := IHt ltac:(tauto)). assert (IHf' := IHf ltac:(tauto)). cbn [dec_fields]. steps.
  - intros k t IHt fs IHf H b. assert (IHt' := IHt ltac:(tauto)). assert (IHf' := IHf ltac:(tauto)). cbn [dec_fields]. steps.
  - intros _ i n. apply tallyM_refl.
  - intros k x t IHt al IHa H i n. assert (IHt' := IHt ltac:(tauto)). assert (IHa' := IHa ltac:(tauto)). cbn [dec_alts]. steps.
Qed.
End Codec.
