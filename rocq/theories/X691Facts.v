(* Proofs of the statements in Theorems_X691.v. *)
From Coq Require Import ZArith List Bool Lia.
From Coq Require Import ZifyBool ZifyNat ZifyN.
Require Import Verif.Base Verif.CodecModel Verif.BitLemmas Verif.Spec Verif.Combinators.
Require Import Verif.LengthProofs Verif.IntegerProofs Verif.StringProofs Verif.Local Verif.Ranges Verif.Loops Verif.Frame Verif.Safety Verif.Api Verif.ApiProofs Verif.AcceptProofs Verif.ApiSpec Verif.MiscProofs Verif.CodecFacts.
Require Import Verif.X691 Verif.X691Spec Verif.X691Proofs.
Import ListNotations.
Open Scope Z_scope.
Ltac Zify.zify_post_hook ::= Z.div_mod_to_equations.

(* ---- encoders ---- *)
Lemma con_int_ok lb ub v : i128 lb -> i128 ub -> lb <= v <= ub -> ub - lb + 1 < 2 ^ 127 -> (ub - lb < 65536 \/ lb < v) ->
  int_ok (Some lb) (Some ub) v.
Proof. unfold int_ok, i128. intros. repeat split; lia. Qed.
Lemma C30_int_proof E lb ub ext v : i128 lb -> i128 ub -> lb <= v <= ub -> ub - lb + 1 < 2 ^ 127 -> (ub - lb < 65536 \/ lb < v) ->
  x_regular lb ub -> follows (encode_integer E (Some lb) (Some ub) ext v false) (x_root ext (x_constrained lb ub v)).
Proof.
  intros H1 H2 H3 H4 H5 H6 a. eexists. split; [apply writes_int; now apply con_int_ok|].
  apply x_root_intro. apply con_conforms; [lia|lia|lia|assumption|reflexivity].
Qed.
Lemma C30_enum_proof E lb ub ext v : i128 lb -> i128 ub -> lb <= v <= ub -> ub - lb + 1 < 2 ^ 127 -> (ub - lb < 65536 \/ lb < v) ->
  x_regular lb ub -> follows (encode_enumerated E (Some lb) (Some ub) ext v false) (x_root ext (x_constrained lb ub v)).
Proof.
  intros H1 H2 H3 H4 H5 H6 a. eexists. split; [apply writes_enum; now apply con_int_ok|].
  apply x_root_intro. apply con_conforms; [lia|lia|lia|assumption|reflexivity].
Qed.
Lemma C30_choice_proof E lb ub ext v : i128 lb -> i128 ub -> lb <= v <= ub -> ub - lb + 1 < 2 ^ 127 -> (ub - lb < 65536 \/ lb < v) ->
  x_regular lb ub -> follows (encode_choice_idx E lb ub ext v false) (x_root ext (x_constrained lb ub v)).
Proof.
  intros H1 H2 H3 H4 H5 H6 a. eexists. split; [apply writes_choice; now apply con_int_ok|].
  apply x_root_intro. apply con_conforms; [lia|lia|lia|assumption|reflexivity].
Qed.
Lemma C31_len_proof E lb ub n : size_within lb ub n -> n < 16384 \/ (exists u, ub = Some u /\ u < 65536) ->
  follows (encode_length_determinent E lb ub false n) (x_length lb ub n).
Proof.
  intros H H1 a. pose proof (size_within_ok _ _ _ H H1) as HO. destruct H as [HS _].
  eexists. split; [now apply writes_len|]. now apply len_conforms.
Qed.
Lemma C31_small_proof E lb ub n : 1 <= n < 16384 -> n <= 32 \/ 64 < n ->
  follows (encode_length_determinent E lb ub true n) (x_small_length n).
Proof. intros H H1 a. eexists. split; [now apply writes_len|]. now apply small_conforms. Qed.
Lemma x_small_functional n a e e' : x_small_length n a e -> x_small_length n a e' -> e = e'.
Proof.
  intros H H'. destruct H as [n a e Hn HF|n a e Hn H]; inversion H'; subst; try lia; f_equal.
  - apply x_field_bits in HF. match goal with H : x_field 6 _ _ |- _ => apply x_field_bits in H end. congruence.
  - apply x_long_length_iff in H as [_ ->]. match goal with H : x_long_length _ _ _ |- _ => apply x_long_length_iff in H as [_ ->] end. reflexivity.
Qed.
Lemma C31_small_deviates_proof E lb ub n a e : 33 <= n <= 64 -> writes (encode_length_determinent E lb ub true n) a e -> ~ x_small_length n a e.
Proof.
  intros Hn W HX.
  assert (writes (encode_length_determinent E lb ub true n) a (small_bits a n)) as W' by (apply writes_len; cbn; lia).
  pose proof (writes_det _ _ _ _ W W'). subst e. unfold small_bits in HX. replace (n <=? 32) with false in HX by lia.
  inversion HX; subst; lia.
Qed.
Lemma C31_unc_proof E ub ext v : i128 v -> follows (encode_integer E None ub ext v false) (x_root ext (x_unconstrained v)).
Proof.
  intros H a. eexists (ext_bits ext ++ unc_bits (a + zlen (ext_bits ext)) v). split.
  - unfold encode_integer. apply writes_bind; [apply writes_ext|]. now apply writes_unc.
  - apply x_root_intro. now apply x_unc_iff.
Qed.
Lemma writes_semi E lb ext v a : i128 v -> lb <= v -> v - lb < 2 ^ 127 ->
  writes (encode_integer E (Some lb) None ext v false) a (ext_bits ext ++ unc_bits (a + zlen (ext_bits ext)) (v - lb)).
Proof. intros. apply writes_int. unfold int_ok. auto. Qed.
Lemma C31_semi_proof E lb ext v : i128 v -> lb <= v -> v - lb < 2 ^ 127 -> x_top_bit_clear (v - lb) ->
  follows (encode_integer E (Some lb) None ext v false) (x_root ext (x_semi_constrained lb v)).
Proof.
  intros H1 H2 H3 HT a. eexists. split; [now apply writes_semi|]. apply x_root_intro. now apply semi_conforms.
Qed.
Lemma C31_semi_deviates_proof E lb ext v a e : i128 v -> lb <= v -> v - lb < 2 ^ 127 -> ~ x_top_bit_clear (v - lb) ->
  writes (encode_integer E (Some lb) None ext v false) a e -> ~ x_root ext (x_semi_constrained lb v) a e.
Proof.
  intros H1 H2 H3 HT W HX. pose proof (writes_semi E lb ext v a H1 H2 H3) as W'.
  pose proof (writes_det _ _ _ _ W W'). subst e. revert HX. destruct ext; cbn [ext_bits app]; intros HX; inversion HX; subst; try discriminate.
  - eapply semi_deviates; [..|eassumption]; assumption.
  - change (zlen (@nil bool)) with 0 in *. rewrite Z.add_0_r in *. eapply semi_deviates; [..|eassumption]; assumption.
Qed.
Lemma within_lt lb ub n : size_within lb ub n -> n < 16384 -> length_ok lb ub false n.
Proof. intros. apply size_within_ok; auto. Qed.
Lemma C31_bits_proof E lb ub ext l : size_within lb ub (zlen l) -> zlen l < 16384 -> str_regular 16 lb ub l ->
  follows (encode_bitstring E lb ub ext l false) (x_root ext (x_string bits_id 16 lb ub l)).
Proof.
  intros H1 H2 H3 a. pose proof (within_lt _ _ _ H1 H2). eexists. split; [now apply writes_bitstring|]. now apply bitstring_conforms.
Qed.
Lemma C31_octets_proof E lb ub ext l : size_within lb ub (zlen l) -> zlen l < 16384 -> str_regular 2 lb ub l ->
  follows (encode_octetstring E lb ub ext l false) (x_root ext (x_string bytes_bits 2 lb ub l)).
Proof.
  intros H1 H2 H3 a. pose proof (within_lt _ _ _ H1 H2). eexists. split; [now apply writes_octetstring|]. now apply octetstring_conforms.
Qed.
Lemma C31_text_proof E l : zlen l < 16384 -> follows (encode_string E None None false l false) (x_fragments bytes_bits l).
Proof.
  intros H a. pose proof (zlen_nonneg l). assert (length_ok None None false (zlen l)) as HO by (repeat split; lia).
  eexists. split; [now apply writes_string|]. rewrite str_bits_split. cbn [ext_bits app]. change (zlen (@nil bool)) with 0.
  rewrite Z.add_0_r. unfold len_bits.
  rewrite if_pad_nil by (apply indef_aligned; lia). cbn [app]. apply xf_last. apply x_long_length_iff. split; [lia|reflexivity].
Qed.
Lemma C31_header_proof ext bm : follows (encode_sequence_header ext bm false) (x_root ext (fun _ e => e = bm)).
Proof. intros a. eexists. split; [apply writes_seqhdr|]. now apply x_root_intro. Qed.

(* ---- decoders ---- *)
Lemma readable lb ub v : x_readable lb ub v -> int_readable lb ub v.
Proof. intros [H1 H2]. split; [assumption|]. destruct lb; [assumption|]. now apply readable_iff. Qed.
Lemma C46_int_proof E lb ub ext v : int_regular lb ub -> x_readable lb ub v ->
  understands (decode_integer E lb ub ext) (x_root ext (x_root_integer lb ub v)) (v, false).
Proof. intros H1 H2 a e H. apply x_int_reads; auto using readable. Qed.
Lemma C46_enum_proof E lb ub ext v : int_regular (Some lb) (Some ub) ->
  understands (decode_enumerated E (Some lb) (Some ub) ext) (x_root ext (x_constrained lb ub v)) (v, false).
Proof.
  intros HR a e H. assert (lb <= v <= ub) as Hv by (destruct H as [? ? ? H|? ? ? H]; now apply x_con_range in H).
  apply x_enum_reads; [assumption|cbn in *; unfold int_readable, i128 in *; lia|].
  destruct H as [a e Hx H|a e Hx H]; [apply xr_plain|apply xr_marked]; auto; now apply xi_constrained.
Qed.
Lemma C46_choice_proof E lb ub ext v : int_regular (Some lb) (Some ub) ->
  understands (decode_choice_idx E lb ub ext) (x_root ext (x_constrained lb ub v)) (v, false).
Proof. intros HR a e H. now apply x_choice_reads. Qed.
Lemma C46_len_proof E lb ub n : size_sane lb ub -> understands (decode_length_determinent E lb ub false) (x_length lb ub n) n.
Proof. intros H a e. now apply x_length_reads. Qed.
Lemma C46_small_proof E lb ub n : understands (decode_length_determinent E lb ub true) (x_small_length n) n.
Proof. intros a e H. unfold decode_length_determinent. now apply x_small_reads. Qed.
Lemma C46_bits_proof E lb ub ext l : str_regular 16 lb ub l -> understands (decode_bitstring E lb ub ext) (x_root ext (x_string bits_id 16 lb ub l)) l.
Proof. intros H a e. now apply x_bitstring_reads. Qed.
Lemma C46_octets_proof E lb ub ext l : str_regular 2 lb ub l -> bytes_ok l ->
  understands (decode_octetstring E lb ub ext) (x_root ext (x_string bytes_bits 2 lb ub l)) l.
Proof. intros H HB a e. now apply x_octetstring_reads. Qed.
Lemma text_reads E n l a h : zlen l = n -> bytes_ok l -> zlen l < 2 ^ 60 -> utf8_text l ->
  reads (decode_indefinite_length_determinent E) a h n -> (a + zlen h) mod 8 = 0 ->
  reads (decode_string E None None false) a (h ++ bytes_bits l) l.
Proof.
  intros <- HB HL HT HR HA. apply utf8_valid_iff in HT. pose proof (zlen_nonneg l).
  unfold decode_string, decode_ext_bit. change (h ++ bytes_bits l) with ([] ++ h ++ bytes_bits l).
  eapply reads_bind; [apply reads_ret|]. change (zlen (@nil bool)) with 0. rewrite Z.add_0_r.
  eapply reads_bind.
  { unfold decode_frag_length, decode_length_determinent. change h with ([] ++ h). eapply reads_bind; [apply reads_ret|].
    change (zlen (@nil bool)) with 0. rewrite Z.add_0_r. exact HR. }
  eapply reads_lift; [apply arith_usize_ok; lia|].
  change (bytes_bits l) with ([] ++ bytes_bits l). eapply reads_bind.
  { assert (pad (a + zlen h) = []) as HP by now apply pad_nil. rewrite <- HP.
    destruct (16 <? zlen l * 8); [apply reads_align|rewrite HP; apply reads_ret]. }
  change (zlen (@nil bool)) with 0. rewrite Z.add_0_r.
  apply reads_get_off. intros o Ho. apply reads_app_nil. eapply reads_bind.
  - apply reads_bitvec. rewrite zlen_bytes_bits. lia.
  - rewrite chunks8_bytes_bits. rewrite load_native_aligned by (assumption || (left; lia)). rewrite HT. apply reads_ret.
Qed.
Lemma C46_text_proof E l : utf8_text l -> bytes_ok l -> zlen l < 16384 ->
  understands (decode_string E None None false) (x_fragments bytes_bits l) l.
Proof.
  intros HT HB HL a e H. destruct H as [l a e HX|k l1 l2 a e1 e2 Hk HZ HF H].
  - apply x_long_length_iff in HX as [Hn ->]. eapply text_reads; [reflexivity|assumption|lia|assumption|now apply reads_indef|].
    now apply indef_aligned.
  - rewrite zlen_app in HL. pose proof (zlen_nonneg l2). lia.
Qed.
(* A fragmented character string is cut off after the first fragment. *)
Lemma C45_text_cut_proof E k l a e : 1 <= k <= 4 -> zlen l = k * 16384 -> bytes_ok l -> utf8_text l -> x_field 6 k e ->
  reads (decode_string E None None false) a (x_pad a ++ [true; true] ++ e ++ bytes_bits l) l.
Proof.
  intros Hk HZ HB HT HF. pose proof (reads_indef_fragment E a k e Hk HF) as HR.
  replace (x_pad a ++ [true; true] ++ e ++ bytes_bits l) with ((x_pad a ++ [true; true] ++ e) ++ bytes_bits l) by now rewrite <- !app_assoc.
  eapply text_reads; [exact HZ|assumption|lia|assumption|assumption|].
  rewrite x_pad_pad, !zlen_app, zlen_pad. destruct HF as [-> _]. change (zlen [true; true]) with 2. lia.
Qed.
(* ---- C43 ---- *)
Lemma string_utf8 E lb ub ext s l s' : decode_string E lb ub ext s = (Ok l, s') -> utf8_text l.
Proof.
  unfold decode_string, bind. intros H.
  repeat match goal with
  | H : (let (_, _) := ?m in _) = _ |- _ => destruct m as [[?| | |] ?] eqn:?; try discriminate
  | H : context [if utf8_valid ?b then _ else _] |- _ => destruct (utf8_valid b) eqn:V; [|discriminate]
  end.
  unfold ret in H. injection H as <- _. now apply utf8_valid_iff.
Qed.
(* ---- C44 ---- *)
Lemma C44_int_proof E lb ub v a e : x_readable None None v -> x_unconstrained v (a + 1) e ->
  reads (decode_integer E lb ub true) a (true :: e) (v, true).
Proof. intros H HX. apply readable in H as [H1 H2]. now apply x_int_ext_reads. Qed.
Lemma C44_enum_proof E lb ub v a e : v < 2 ^ 127 -> x_small_number v (a + 1) e ->
  reads (decode_enumerated E lb ub true) a (true :: e) (v, true).
Proof. apply x_enum_ext_reads. Qed.
(* ---- C45 ---- *)
Lemma C45_bits_proof E lb ub l : size_sane lb ub -> x_small_bound ub = false ->
  understands (decode_bitstring E lb ub false) (x_fragments bits_id l) l.
Proof.
  intros HS HB a e H. apply x_bitstring_reads.
  - split; [assumption|]. destruct ub; [cbn in HB; lia|exact I].
  - apply xr_plain; [reflexivity|]. now apply xt_unbounded.
Qed.
Lemma C45_octets_proof E lb ub l : size_sane lb ub -> x_small_bound ub = false -> bytes_ok l ->
  understands (decode_octetstring E lb ub false) (x_fragments bytes_bits l) l.
Proof.
  intros HS HB HO a e H. apply x_octetstring_reads; [|assumption|].
  - split; [assumption|]. destruct ub; [cbn in HB; lia|exact I].
  - apply xr_plain; [reflexivity|]. now apply xt_unbounded.
Qed.
Lemma C45_bits_bad_proof E lb ub : size_sane lb ub -> x_small_bound ub = false ->
  refuses_input (decode_bitstring E lb ub false) (x_bad_fragments (fun _ => True) bits_id).
Proof. intros HS HB a e H. now apply bitstring_bad_fails. Qed.
Lemma C45_octets_bad_proof E lb ub : size_sane lb ub -> x_small_bound ub = false ->
  refuses_input (decode_octetstring E lb ub false) (x_bad_fragments (fun b => 0 <= b < 256) bytes_bits).
Proof. intros HS HB a e H. now apply octetstring_bad_fails. Qed.
(* ---- concrete cases ---- *)
Lemma x_octets_is x n : 1 <= n -> 256 ^ (n - 1) <= x < 256 ^ n \/ (n = 1 /\ x < 256) -> x_octets x n.
Proof.
  intros Hn HR. split.
  - split; [assumption|]. destruct HR as [?|[-> ?]]; [lia|change (256 ^ 1) with 256; lia].
  - intros m [Hm Hx]. destruct HR as [HR|[-> HR]]; [|lia].
    destruct (Z_le_dec n m) as [|N]; [assumption|]. assert (256 ^ m <= 256 ^ (n - 1)) by (apply Z.pow_le_mono_r; lia). lia.
Qed.
Lemma x_octets_unique x n m : x_octets x n -> x_octets x m -> n = m.
Proof. apply least_unique. Qed.
Lemma x_con_small_functional lb ub v a e e' : ub - lb + 1 <= 65536 -> x_constrained lb ub v a e -> x_constrained lb ub v a e' -> e = e'.
Proof. intros H H1 H2. apply x_con_small in H1; [|assumption]. apply x_con_small in H2; [|assumption]. destruct H1 as [_ ->], H2 as [_ ->]. reflexivity. Qed.
(* the one X.691 encoding of a value of a large range *)
Lemma x_con_large_is lb ub v a e m n : 65536 < ub - lb + 1 -> x_octets (ub - lb) m -> m <= 255 -> x_octets (v - lb) n ->
  x_constrained lb ub v a e ->
  e = small_range_bits a m (n - 1) ++ pad (a + zlen (small_range_bits a m (n - 1))) ++ low_bits (Z.to_nat (8 * n)) (v - lb).
Proof.
  intros HR Hm Hs Hn H. inversion H; subst; try lia.
  match goal with H : x_octets (ub - lb) _ |- _ => pose proof (x_octets_unique _ _ _ Hm H); subst end.
  match goal with H : x_octets (v - lb) _ |- _ => pose proof (x_octets_unique _ _ _ Hn H); subst end.
  match goal with H : x_constrained 1 _ _ _ _ |- _ => apply x_con_small in H; [|lia]; destruct H as [_ ->] end.
  match goal with H : x_field _ _ _ |- _ => apply x_field_bits in H; subst end.
  rewrite x_pad_pad. replace (m0 - 1 + 1) with m0 by lia. reflexivity.
Qed.
Lemma C30_2_32_proof E e : writes (encode_integer E (Some 0) (Some (2 ^ 32 - 1)) false 65536 false) 0 e ->
  ~ x_root false (x_constrained 0 (2 ^ 32 - 1) 65536) 0 e.
Proof.
  intros W HX. assert (int_ok (Some 0) (Some (2 ^ 32 - 1)) 65536) as HI by (unfold int_ok, i128; repeat split; lia).
  pose proof (writes_int E 0 (Some 0) (Some (2 ^ 32 - 1)) false 65536 HI) as W'. pose proof (writes_det _ _ _ _ W W'). subst e.
  inversion HX; subst; [|discriminate].
  match goal with H : x_constrained _ _ _ _ _ |- _ => apply (x_con_large_is _ _ _ _ _ 4 3) in H; [|lia|apply x_octets_is; lia|lia|apply x_octets_is; lia] end.
  revert H0. vm_compute. discriminate.
Qed.
Lemma C30_2_64_proof E e : writes (encode_integer E (Some 0) (Some (2 ^ 64 - 1)) false (2 ^ 32) false) 0 e ->
  ~ x_root false (x_constrained 0 (2 ^ 64 - 1) (2 ^ 32)) 0 e.
Proof.
  intros W HX. assert (int_ok (Some 0) (Some (2 ^ 64 - 1)) (2 ^ 32)) as HI by (unfold int_ok, i128; repeat split; lia).
  pose proof (writes_int E 0 (Some 0) (Some (2 ^ 64 - 1)) false (2 ^ 32) HI) as W'. pose proof (writes_det _ _ _ _ W W'). subst e.
  inversion HX; subst; [|discriminate].
  match goal with H : x_constrained _ _ _ _ _ |- _ => apply (x_con_large_is _ _ _ _ _ 8 5) in H; [|lia|apply x_octets_is; lia|lia|apply x_octets_is; lia] end.
  revert H0. vm_compute. discriminate.
Qed.
Lemma top_bit_300 : x_top_bit_clear (300 - 0).
Proof.
  intros n Hn HR. destruct (Z.eq_dec n 1) as [->|]; [lia|]. destruct (Z.eq_dec n 2) as [->|]; [lia|].
  assert (2 ^ (8 * 2) <= 2 ^ (8 * n - 1)) by (apply Z.pow_le_mono_r; lia). lia.
Qed.
Lemma C31_short_octets_proof E e : writes (encode_octetstring E (Some 1) (Some 4) false [1; 2] false) 0 e ->
  ~ x_root false (x_string bytes_bits 2 (Some 1) (Some 4) [1; 2]) 0 e.
Proof.
  intros W HX. assert (length_ok (Some 1) (Some 4) false (zlen [1; 2])) as HO by (repeat split; cbn; lia).
  pose proof (writes_octetstring E 0 (Some 1) (Some 4) false [1; 2] HO ltac:(cbn; lia)) as W'.
  pose proof (writes_det _ _ _ _ W W'). subst e. inversion HX as [a e _ HS|]; subst; [|discriminate].
  remember (str_bits 0 (Some 1) (Some 4) false (zlen [1; 2]) 2 (bytes_bits [1; 2])) as b eqn:Hb. vm_compute in Hb.
  inversion HS; subst; try discriminate.
  - match goal with H : x_length _ _ _ _ _ |- _ => apply x_length_ok in H; [|repeat split; cbn; lia]; destruct H as [_ ->] end.
    match goal with H : _ = _ |- _ => revert H; vm_compute; discriminate end.
Qed.
Lemma C45_case_proof : exists e, x_fragments bytes_bits (repeat 7 (Z.to_nat 16384) ++ [1; 2]) 0 e /\
  exists e', x_bad_fragments (fun b => 0 <= b < 256) bytes_bits 0 e'.
Proof.
  eexists. split.
  - apply (xf_more bytes_bits 1 _ _ 0 (low_bits 6 1)); [lia| |split; reflexivity|].
    + unfold zlen. rewrite repeat_length. lia.
    + apply xf_last. apply x_long_length_iff. split; [cbn; lia|reflexivity].
  - eexists. apply (xb_here _ _ 0 0 (low_bits 6 0)); [left; reflexivity|split; reflexivity].
Qed.
Lemma C46_case_proof : int_regular (Some 0) (Some 1000000) /\ x_constrained 0 1000000 65536 0 (con_bits 0 1000001 65536) /\
  x_semi_constrained 0 200 0 (low_bits 8 1 ++ low_bits 8 200) /\ x_readable (Some 0) None 200 /\
  x_length None None 300 0 (len_bits 0 None None false 300) /\ x_small_length 40 0 (false :: low_bits 6 39).
Proof.
  split; [unfold int_regular, x_regular, i128; lia|].
  split; [apply con_conforms; [lia|lia|lia|unfold x_regular; lia|reflexivity]|].
  split. { apply (xs 0 200 0 1 (low_bits 8 1)); [lia|apply x_octets_is; lia| |split; reflexivity].
    apply x_long_length_iff. split; [lia|reflexivity]. }
  split; [unfold x_readable, i128; lia|].
  split; [apply len_conforms; repeat split; lia|]. apply xsl_small; [lia|split; reflexivity].
Qed.
Lemma C46_2_32_proof : exists e, x_constrained 0 (2 ^ 32 - 1) 65536 0 e /\
  forall E, fst (decode_integer E (Some 0) (Some (2 ^ 32 - 1)) false (mkD (e ++ repeat false 64) 0 None)) <> Ok (65536, false).
Proof.
  exists (low_bits 2 2 ++ x_pad (0 + zlen (low_bits 2 2)) ++ low_bits 24 65536). split.
  - apply (xc_indefinite 0 (2 ^ 32 - 1) 65536 0 4 3); [lia|lia|apply x_octets_is; lia|apply x_octets_is; lia| |split; reflexivity].
    apply x_con_small; [lia|]. split; [lia|reflexivity].
  - intros [[|] [|]]; vm_compute; discriminate.
Qed.
