(* Properties of the derived codecs (properties.jsonl C24-C28, and C14-C20 and
   C29 for derived types).  Vocabulary: DeriveSpec.v. *)
From Coq Require Import ZArith List Bool Lia.
Require Import Verif.Base Verif.CodecModel Verif.Spec Verif.Api Verif.ApiSpec.
Require Import Verif.DeriveModel Verif.DeriveSpec.
Require Import Verif.ApiProofs Verif.DeriveProofs Verif.DeriveFacts Verif.DeriveInversion.
Require Import Verif.Theorems_Codec.
Import ListNotations.
Open Scope Z_scope.

Definition u8 := mkIty false 8.
(* SEQUENCE { id INTEGER (0..255) -- key --, value OPEN { 1: INTEGER (0..15), 2: SEQUENCE (SIZE (1..4)) OF BOOLEAN },
   label OCTET STRING (SIZE (4)) OPTIONAL, more CHOICE { 0: NULL, 1: OCTET STRING, ... } } *)
Definition message : ty :=
  TSeq true 1
   (FMan true (TInt (Some 0) (Some 255) false u8)
   (FMan false (TOpen (ACons 1 false (TInt (Some 0) (Some 15) false u8)
                      (ACons 2 false (TSeqOf (Some 1) (Some 4) false TBool) ANil)))
   (FOpt 0 (TOctets (Some 4) (Some 4) false)
   (FMan false (TOctets None None false) FNil)))).
Definition message_value : val :=
  VSeq [Some (VI 2); Some (VAlt 1 (VList [VB true; VB false; VB true])); Some (VOctStr [1; 2; 3; 4]); Some (VOctStr [9; 8])].
Definition choice_type : ty := TChoice 0 1 true (ACons 0 false TNull (ACons 1 false message ANil)).

(* ===== C24 derived round trip ===== *)
(* Full claim: every value of every type.  Missing: values outside `carries`
   (listed there: empty SEQUENCE OF, contents of open types that are empty or
   exceed 16383 bytes, strings of 16384 units or more, integers outside
   int_encodable, ...) and outside `flow_of` (an open type followed in the
   value by a component that does not start on a byte boundary).  The refutations below
   show that each exclusion is needed. *)
Theorem C24_encoder_and_decoder_agree_partial : forall E k t v k' s,
  carries E k t v k' -> flow_of t v false = Some s -> agrees (enc E t v) (dec E t) v k k'.
Proof. exact derived_agrees. Qed.
Print Assumptions C24_encoder_and_decoder_agree_partial.
Theorem C24_value_survives_bytes_partial : forall E t v k' s,
  carries E None t v k' -> flow_of t v false = Some s ->
  exists d, enc E t v new_data = (Ok tt, d) /\
    (zlen (bits d) < 2 ^ 60 -> fst (dec E t (from_slice (into_bytes d))) = Ok v).
Proof. intros E t v k' s H F. exact (agrees_bytes _ _ _ _ (derived_agrees E None t v k' s H F)). Qed.
Print Assumptions C24_value_survives_bytes_partial.
Example C24_case : carries debug None choice_type (VAlt 1 message_value) (Some 2) /\ flow_of choice_type (VAlt 1 message_value) false = Some false.
Proof.
  split; [|vm_compute; reflexivity].
  eapply K_choice with (key := 1) (t := message); [reflexivity| | |].
  { unfold first_with_key; cbn; intuition lia. }
  { unfold int_encodable, i128; lia. }
  apply K_seq.
  { repeat constructor; cbn; intuition lia. }
  { repeat constructor; lia. }
  { lia. }
  eapply KF_key; [apply K_int; [unfold int_encodable, i128; lia|reflexivity]|].
  eapply KF_man.
  { eapply K_open with (key := 2) (t := TSeqOf (Some 1) (Some 4) false TBool); [reflexivity| | | |].
    - unfold first_with_key; cbn; intuition lia.
    - apply K_seqof; [discriminate| |repeat econstructor].
      cbn. repeat split; cbn; try lia; vm_compute; congruence.
    - vm_compute. reflexivity.
    - vm_compute. split; [reflexivity|congruence]. }
  eapply KF_some.
  { apply K_octets. vm_compute. repeat split; try congruence; repeat constructor; congruence. }
  eapply KF_man; [|constructor].
  apply K_octets. vm_compute. repeat split; try congruence; repeat constructor; congruence.
Qed.
Example C24_case_bytes : exists bytes, (exists d, enc debug choice_type (VAlt 1 message_value) new_data = (Ok tt, d) /\ into_bytes d = bytes) /\
  bytes = [80; 2; 1; 168; 1; 2; 3; 4; 2; 9; 8] /\ fst (dec debug choice_type (from_slice bytes)) = Ok (VAlt 1 message_value).
Proof. eexists. split; [eexists; (split; [vm_compute; reflexivity|vm_compute; reflexivity])|]. (split; [vm_compute; reflexivity|vm_compute; reflexivity]). Qed.

(* Types in which no open type can be followed by an unaligned component: all
   values qualify. *)
Theorem C24_flow_covers_all_values : forall t s v, flow t false = Some s -> exists s', flow_of t v false = Some s'.
Proof. exact flow_has. Qed.
Print Assumptions C24_flow_covers_all_values.
Example C24_flow_case : flow choice_type false = Some false.
Proof. vm_compute. reflexivity. Qed.
(* SEQUENCE { CHOICE { INTEGER (0..15), SEQUENCE { key, open type } }, BOOLEAN }
   has values of both sorts. *)
Definition mixed : ty := TSeq false 0
  (FMan false (TChoice 0 1 false (ACons 0 false (TInt (Some 0) (Some 15) false u8) (ACons 1 false
     (TSeq false 0 (FMan true (TInt (Some 0) (Some 255) false u8)
       (FMan false (TOpen (ACons 1 false (TInt (Some 0) (Some 15) false u8) ANil)) FNil))) ANil)))
  (FMan false TBool FNil)).
Example C24_mixed_case : flow mixed false = None /\
  flow_of mixed (VSeq [Some (VAlt 0 (VI 5)); Some (VB true)]) false = Some false /\
  flow_of mixed (VSeq [Some (VAlt 1 (VSeq [Some (VI 1); Some (VAlt 0 (VI 5))])); Some (VB true)]) false = None /\
  carries debug None mixed (VSeq [Some (VAlt 0 (VI 5)); Some (VB true)]) None.
Proof.
  split; [reflexivity|]. split; [reflexivity|]. split; [reflexivity|].
  apply K_seq; [constructor|constructor|lia|].
  eapply KF_man; [|eapply KF_man; constructor].
  eapply K_choice; [reflexivity|unfold first_with_key; cbn; intuition lia|unfold int_encodable, i128; lia|].
  apply K_int; [unfold int_encodable, i128; lia|reflexivity].
Qed.

(* An open type followed by a BOOLEAN is read back wrongly. *)
Definition open_then_bool : ty := TSeq false 0
  (FMan true (TInt (Some 0) (Some 255) false u8)
  (FMan false (TOpen (ACons 1 false (TInt (Some 0) (Some 15) false u8) ANil))
  (FMan false TBool FNil))).
Theorem C24_open_type_followed_by_boolean_refuted : forall E, exists v d,
  enc E open_then_bool v new_data = (Ok tt, d) /\
  exists w, fst (dec E open_then_bool (from_slice (into_bytes d))) = Ok w /\ w <> v.
Proof.
  intros [[|] [|]]; exists (VSeq [Some (VI 1); Some (VAlt 0 (VI 5)); Some (VB true)]); eexists; (split; [vm_compute; reflexivity|]);
    eexists; (split; [vm_compute; reflexivity|discriminate]).
Qed.
Print Assumptions C24_open_type_followed_by_boolean_refuted.
(* An inner message with a key of its own changes the key of the outer one. *)
Definition nested_keys : ty :=
  let inner := TSeq false 0 (FMan true (TInt (Some 0) (Some 255) false u8) FNil) in
  TSeq false 0 (FMan true (TInt (Some 0) (Some 255) false u8)
    (FMan false inner (FMan false (TOpen (ACons 1 false (TInt (Some 0) (Some 255) false u8) ANil)) FNil))).
Theorem C24_nested_key_refuted : forall E, exists v d,
  enc E nested_keys v new_data = (Ok tt, d) /\ fst (dec E nested_keys (from_slice (into_bytes d))) = Err.
Proof.
  intros [[|] [|]]; exists (VSeq [Some (VI 1); Some (VSeq [Some (VI 7)]); Some (VAlt 0 (VI 5))]); eexists;
    ((split; [vm_compute; reflexivity|vm_compute; reflexivity])).
Qed.
Print Assumptions C24_nested_key_refuted.
(* A decoded extension value of an INTEGER (0..255, ...) is truncated to u8. *)
Theorem C24_extended_integer_truncated_refuted : forall E, exists bytes,
  fst (decode_integer E (Some 0) (Some 255) true (from_slice bytes)) = Ok (300, true) /\
  fst (dec E (TInt (Some 0) (Some 255) true u8) (from_slice bytes)) = Ok (VI 44).
Proof. intros [[|] [|]]; exists [128; 2; 1; 44]; (split; [vm_compute; reflexivity|vm_compute; reflexivity]). Qed.
Print Assumptions C24_extended_integer_truncated_refuted.
(* The first extension value of an ENUMERATED decodes as the first root value. *)
Theorem C24_extended_enumerated_confused_refuted : forall E, exists bytes,
  fst (decode_enumerated E (Some 0) (Some 1) true (from_slice bytes)) = Ok (0, true) /\
  fst (dec E (TEnum (Some 0) (Some 1) true u8) (from_slice bytes)) = Ok (VI 0).
Proof. intros [[|] [|]]; exists [128]; (split; [vm_compute; reflexivity|vm_compute; reflexivity]). Qed.
Print Assumptions C24_extended_enumerated_confused_refuted.

(* ===== C25 OPTIONAL presence ===== *)
Theorem C25_encoded_presence_bits : forall E ext n fs vs s r s',
  NoDup (optional_idxs fs) -> Forall (fun i => 0 <= i < n) (optional_idxs fs) -> 0 <= n ->
  components_match fs vs ->
  enc E (TSeq ext n fs) (VSeq vs) s = (r, s') ->
  exists bitmap rest, zlen bitmap = n /\ presence_map fs vs bitmap /\
    bits s' = bits s ++ (if ext then [false] else []) ++ bitmap ++ rest.
Proof. exact seq_encodes. Qed.
Print Assumptions C25_encoded_presence_bits.
Theorem C25_decoded_presence : forall E ext n fs s v s',
  fits (bits s) -> 0 <= off s <= zlen (bits s) -> 0 <= n -> Forall (fun i => 0 <= i) (optional_idxs fs) ->
  dec E (TSeq ext n fs) s = (Ok v, s') ->
  exists pre bitmap rest vs x, v = VSeq vs /\ zlen pre = off s /\ zlen bitmap = n /\ presence_map fs vs bitmap /\
    bits s = pre ++ (if ext then [x] else []) ++ bitmap ++ rest.
Proof. exact seq_decodes. Qed.
Print Assumptions C25_decoded_presence.
Definition two_optionals : ty := TSeq true 2 (FOpt 0 TBool (FMan false TBool (FOpt 1 TBool FNil))).
Example C25_case : fst (dec debug two_optionals (from_slice [88])) = Ok (VSeq [Some (VB true); Some (VB true); None]).
Proof. vm_compute. reflexivity. Qed.

(* ===== C26 CHOICE ===== *)
Theorem C26_decoded_alternative : forall E lb ub ext al s v s',
  dec E (TChoice lb ub ext al) s = (Ok v, s') ->
  exists idx s1 n x t w, decode_choice_idx E lb ub ext s = (Ok (idx, false), s1) /\
    alt_at al n = Some (idx, x, t) /\ dec E t s1 = (Ok w, s') /\ v = VAlt n w.
Proof. exact choice_decodes. Qed.
Print Assumptions C26_decoded_alternative.
Theorem C26_unknown_alternative_rejected : forall E lb ub ext al s idx e s1,
  decode_choice_idx E lb ub ext s = (Ok (idx, e), s1) -> e = true \/ ~ In idx (alt_keys al) ->
  fst (dec E (TChoice lb ub ext al) s) = Err.
Proof. exact choice_rejects. Qed.
Print Assumptions C26_unknown_alternative_rejected.
Theorem C26_encoded_alternative : forall E lb ub ext al n v s s',
  enc E (TChoice lb ub ext al) (VAlt n v) s = (Ok tt, s') ->
  exists key x t s1, alt_at al n = Some (key, x, t) /\ encode_choice_idx E lb ub ext key x s = (Ok tt, s1) /\
    enc E t v s1 = (Ok tt, s').
Proof. exact choice_encodes. Qed.
Print Assumptions C26_encoded_alternative.
Example C26_case : fst (dec debug (TChoice 0 2 true (ACons 0 false TBool (ACons 1 false TNull ANil))) (from_slice [16])) = Ok (VAlt 0 (VB true))
  /\ fst (dec debug (TChoice 0 2 true (ACons 0 false TBool (ACons 1 false TNull ANil))) (from_slice [64])) = Err
  /\ fst (dec debug (TChoice 0 2 true (ACons 0 false TBool (ACons 1 false TNull ANil))) (from_slice [128])) = Err.
Proof. (split; [vm_compute; reflexivity|split; vm_compute; reflexivity]). Qed.

(* ===== C27 SEQUENCE OF ===== *)
Theorem C27_decoded_elements : forall E lb ub ext t s v s',
  dec E (TSeqOf lb ub ext t) s = (Ok v, s') ->
  exists n s1 l, decode_length_determinent E lb ub ext s = (Ok n, s1) /\ v = VList l /\
    zlen l = n /\ l <> [] /\ decodes_in_order (dec E t) s1 l s'.
Proof. exact seqof_decodes. Qed.
Print Assumptions C27_decoded_elements.
Theorem C27_all_elements_decoded : forall E lb ub ext t s n s1 l s',
  decode_length_determinent E lb ub ext s = (Ok n, s1) -> 0 < n -> zlen l = n ->
  decodes_in_order (dec E t) s1 l s' -> dec E (TSeqOf lb ub ext t) s = (Ok (VList l), s').
Proof. exact seqof_decodes_all. Qed.
Print Assumptions C27_all_elements_decoded.
Theorem C27_encoded_elements : forall E lb ub ext t l s s' s1,
  encode_length_determinent E lb ub ext (zlen l) s = (Ok tt, s1) ->
  enc E (TSeqOf lb ub ext t) (VList l) s = (Ok tt, s') <-> encodes_in_order (enc E t) s1 l s'.
Proof. exact seqof_encodes. Qed.
Print Assumptions C27_encoded_elements.
Definition bools : ty := TSeqOf (Some 0) (Some 7) false TBool.
Example C27_case : exists d, enc debug bools (VList [VB true; VB false; VB true]) new_data = (Ok tt, d) /\
  bits d = [false; true; true; true; false; true] /\
  fst (dec debug bools (from_slice (into_bytes d))) = Ok (VList [VB true; VB false; VB true]).
Proof. eexists. (split; [vm_compute; reflexivity|split; vm_compute; reflexivity]). Qed.
(* The empty list is encoded but cannot be decoded, although the size 0 is
   allowed. *)
Theorem C27_empty_list_never_decoded_refuted : forall E lb ub ext t s s',
  dec E (TSeqOf lb ub ext t) s <> (Ok (VList []), s').
Proof. intros E lb ub ext t s s' H. destruct (seqof_decodes _ _ _ _ _ _ _ _ H) as (n & s1 & l & _ & Q & _ & N & _). congruence. Qed.
Print Assumptions C27_empty_list_never_decoded_refuted.
Theorem C27_empty_list_refuted : forall E, exists d, enc E bools (VList []) new_data = (Ok tt, d) /\
  fst (dec E bools (from_slice (into_bytes d))) = Err.
Proof. intros [[|] [|]]; eexists; (split; [vm_compute; reflexivity|vm_compute; reflexivity]). Qed.
Print Assumptions C27_empty_list_refuted.
(* A list that violates the size constraint is encoded without its length. *)
Theorem C27_size_violation_not_reported_refuted : forall E, exists d,
  enc E (TSeqOf (Some 1) (Some 2) false TBool) (VList [VB true; VB true; VB true]) new_data = (Ok tt, d) /\
  bits d = [true; true; true].
Proof. intros [[|] [|]]; eexists; (split; [vm_compute; reflexivity|vm_compute; reflexivity]). Qed.
Print Assumptions C27_size_violation_not_reported_refuted.

(* ===== C28 open types ===== *)
Theorem C28_encoded_open_type : forall E al n v s s',
  fits (bits (snd (enc_variant E al n v new_data))) ->
  enc E (TOpen al) (VAlt n v) s = (Ok tt, s') ->
  exists key x t inner s1, alt_at al n = Some (key, x, t) /\ enc E t v new_data = (Ok tt, inner) /\
    encode_length_determinent E None None false (zlen (into_bytes inner)) s = (Ok tt, s1) /\
    bits s' = bits s1 ++ bytes_bits (into_bytes inner) /\ 1 <= zlen (into_bytes inner) < 16384.
Proof. exact open_encodes. Qed.
Print Assumptions C28_encoded_open_type.
Theorem C28_failing_content_writes_nothing : forall E al n v s,
  fst (enc_variant E al n v new_data) = Err -> enc E (TOpen al) (VAlt n v) s = (Err, s).
Proof. exact open_refuses. Qed.
Print Assumptions C28_failing_content_writes_nothing.
Theorem C28_key_selects_alternative : forall E al s v s',
  dec E (TOpen al) s = (Ok v, s') ->
  exists len s1 key n x t w, decode_length_determinent E None None false s = (Ok len, s1) /\
    CodecModel.key s = Some key /\ alt_at al n = Some (key, x, t) /\ dec E t s1 = (Ok w, s') /\ v = VAlt n w.
Proof. exact open_decodes. Qed.
Print Assumptions C28_key_selects_alternative.
Theorem C28_missing_or_unknown_key_rejected : forall E al s len s1,
  decode_length_determinent E None None false s = (Ok len, s1) ->
  match key s with None => True | Some k => ~ In k (alt_keys al) end -> fst (dec E (TOpen al) s) = Err.
Proof. exact open_rejects. Qed.
Print Assumptions C28_missing_or_unknown_key_rejected.
(* In a field { id, criticality, value } the decoded value is the alternative
   registered for the decoded id. *)
Theorem C28_id_names_value : forall E ext n lb ub x i lb2 ub2 x2 i2 al s v s',
  0 < width i <= 64 ->
  dec E (TSeq ext n (FMan true (TInt lb ub x i) (FMan false (TEnum lb2 ub2 x2 i2) (FMan false (TOpen al) FNil)))) s = (Ok v, s') ->
  exists z c m y t w, v = VSeq [Some (VI z); Some (VI c); Some (VAlt m w)] /\ alt_at al m = Some (z, y, t).
Proof. exact ie_field. Qed.
Print Assumptions C28_id_names_value.
Theorem C28_primitive_calls_keep_key : forall E c s r s', decode_prim E c s = (r, s') -> key s' = key s.
Proof. exact prim_keeps. Qed.
Print Assumptions C28_primitive_calls_keep_key.
Definition ie : ty := TSeq false 0
  (FMan true (TInt (Some 0) (Some 65535) false (mkIty false 16)) (FMan false (TEnum (Some 0) (Some 2) false u8)
  (FMan false (TOpen (ACons 20 false (TInt (Some 0) (Some 15) false u8) (ACons 38 false TBool ANil))) FNil))).
Example C28_case : fst (dec debug ie (from_slice [0; 38; 64; 1; 128])) = Ok (VSeq [Some (VI 38); Some (VI 1); Some (VAlt 1 (VB true))])
  /\ fst (dec debug ie (from_slice [0; 39; 64; 1; 128])) = Err.
Proof. (split; [vm_compute; reflexivity|vm_compute; reflexivity]). Qed.
Example C28_case_encode : exists d, enc debug ie (VSeq [Some (VI 38); Some (VI 1); Some (VAlt 1 (VB true))]) new_data = (Ok tt, d)
  /\ into_bytes d = [0; 38; 64; 1; 128].
Proof. eexists; (split; [vm_compute; reflexivity|vm_compute; reflexivity]). Qed.
(* The length of an open type does not bound its content. *)
Theorem C28_length_ignored_refuted : forall E, exists bytes s',
  dec E (TOpen (ACons 1 false (TOctets (Some 3) (Some 3) false) ANil)) (mkD (bytes_bits bytes) 0 (Some 1)) = (Ok (VAlt 0 (VOctStr [7; 8; 9])), s') /\
  bytes = [1; 7; 8; 9].
Proof. intros [[|] [|]]; exists [1; 7; 8; 9]; eexists; (split; [vm_compute; reflexivity|vm_compute; reflexivity]). Qed.
Print Assumptions C28_length_ignored_refuted.
(* An open type that holds NULL cannot be encoded; a debug build panics. *)
Theorem C28_empty_content_refuted :
  fst (enc debug (TOpen (ACons 1 false TNull ANil)) (VAlt 0 VU) new_data) = Panic /\
  fst (enc release (TOpen (ACons 1 false TNull ANil)) (VAlt 0 VU) new_data) = Err.
Proof. (split; [vm_compute; reflexivity|vm_compute; reflexivity]). Qed.
Print Assumptions C28_empty_content_refuted.

(* ===== C14-C20, C29 for derived types ===== *)
Theorem C14_derived_encoding_only_appends : forall E t v s r s', enc E t v s = (r, s') ->
  off s' = off s /\ key s' = key s /\ exists e, bits s' = bits s ++ e.
Proof. exact derived_appends. Qed.
Print Assumptions C14_derived_encoding_only_appends.
Example C14_derived_case : exists d, enc debug message message_value (mkD [true] 0 None) = (Ok tt, d) /\ zlen (bits d) = 88.
Proof. eexists; (split; [vm_compute; reflexivity|vm_compute; reflexivity]). Qed.
Theorem C15_derived_decoding_frame : forall E t s r s', fits (bits s) -> 0 <= off s <= zlen (bits s) ->
  dec E t s = (r, s') -> bits s' = bits s /\ off s <= off s' <= zlen (bits s).
Proof. intros E t. exact (local_frame _ (proj1 (local_dec E) t)). Qed.
Print Assumptions C15_derived_decoding_frame.
Theorem C16_derived_depends_on_consumed_bits_only : forall E t pre mid post k v k',
  fits (pre ++ mid ++ post) ->
  dec E t (mkD (pre ++ mid ++ post) (zlen pre) k) = (Ok v, mkD (pre ++ mid ++ post) (zlen pre + zlen mid) k') ->
  forall pre' post', zlen pre' mod 8 = zlen pre mod 8 -> fits (pre' ++ mid ++ post') ->
  dec E t (mkD (pre' ++ mid ++ post') (zlen pre') k) = (Ok v, mkD (pre' ++ mid ++ post') (zlen pre' + zlen mid) k').
Proof. intros E t. exact (local_consumed _ (proj1 (local_dec E) t)). Qed.
Print Assumptions C16_derived_depends_on_consumed_bits_only.
Theorem C17_derived_truncated_input_not_accepted : forall E t pre mid post k v k',
  fits (pre ++ mid ++ post) ->
  dec E t (mkD (pre ++ mid ++ post) (zlen pre) k) = (Ok v, mkD (pre ++ mid ++ post) (zlen pre + zlen mid) k') ->
  forall m1 m2, mid = m1 ++ m2 -> m2 <> [] -> forall w s',
  dec E t (mkD (pre ++ m1) (zlen pre) k) <> (Ok w, s').
Proof. intros E t. exact (local_truncated _ (proj1 (local_dec E) t)). Qed.
Print Assumptions C17_derived_truncated_input_not_accepted.
Example C15_17_derived_case : fst (dec debug choice_type (from_slice [80; 2; 1; 168; 1; 2; 3; 4; 2; 9; 8])) = Ok (VAlt 1 message_value) /\
  fst (dec debug choice_type (from_slice [80; 2; 1; 168; 1; 2; 3; 4; 2; 9])) = Err.
Proof. (split; [vm_compute; reflexivity|vm_compute; reflexivity]). Qed.
(* Full claim: all types.  Missing: types with a semi-constrained or extensible
   CHOICE, ENUMERATED part (they panic on long inputs, C18_..._refuted), and
   loops over elements that take no bits. *)
Theorem C18_derived_decoding_never_panics_partial : forall E t s,
  byte_buffer s -> ty_sane E t -> bounded_loops t = true -> returns_normally (fst (dec E t s)).
Proof. exact derived_safe. Qed.
Print Assumptions C18_derived_decoding_never_panics_partial.
Example C18_derived_case : byte_buffer (from_slice [255; 255; 255]) /\ ty_sane debug message /\ bounded_loops message = true.
Proof.
  split; [vm_compute; intuition congruence|]. split; [|reflexivity].
  cbn [ty_sane message fields_sane alts_sane optional_idxs]. unfold calls_sane. cbn. unfold size_sane. cbn.
  repeat split; try lia. constructor; [lia|constructor].
Qed.
(* Full claim: all types.  Missing: SEQUENCE OF with elements that take no
   bits; C19_zero_width_elements_refuted. *)
Theorem C19_derived_decoding_terminates_partial : forall E t s, bounded_loops t = true ->
  fits (bits s) -> 0 <= off s <= zlen (bits s) -> fst (dec E t s) <> Diverge.
Proof. exact derived_terminates. Qed.
Print Assumptions C19_derived_decoding_terminates_partial.
Theorem C19_zero_width_elements_refuted : forall E, exists bytes, zlen bytes = 1 /\
  fst (dec E (TSeqOf (Some 0) (Some 10) false TNull) (from_slice bytes)) = Diverge.
Proof. intros [[|] [|]]; exists [0]; (split; [vm_compute; reflexivity|vm_compute; reflexivity]). Qed.
Print Assumptions C19_zero_width_elements_refuted.
(* Full claim: all values.  Missing: argument ranges of C20, empty content of
   open types in debug builds (C28_empty_content_refuted). *)
Theorem C20_derived_encoding_never_panics_partial : forall E t v s, val_sane E t v ->
  returns_normally (fst (enc E t v s)).
Proof. intros E t v s H. exact (proj1 (calm_enc E) t v H s). Qed.
Print Assumptions C20_derived_encoding_never_panics_partial.
Example C20_derived_case : val_sane debug message message_value.
Proof.
  split; [constructor; [lia|constructor]|].
  cbn [vals_sane]. unfold u8.
  split; [vm_compute; intuition congruence|]. split.
  - split.
    + cbn. unfold args_sane. cbn. unfold size_sane. cbn. repeat split; try lia; repeat constructor.
    + right. vm_compute. split; reflexivity.
  - cbn. unfold size_sane. cbn. repeat split; lia.
Qed.
Theorem C29_derived_distinct_encodings_partial : forall E k t v v' k1 k2 s s' a e,
  carries E k t v k1 -> carries E k t v' k2 -> flow_of t v false = Some s -> flow_of t v' false = Some s' ->
  writes (enc E t v) a e -> writes (enc E t v') a e -> zlen e < 2 ^ 60 -> v = v'.
Proof.
  intros E k t v v' k1 k2 s s' a e H H' F F'. exact (agrees_distinct _ _ _ _ _ _ _ _ _ _ (derived_agrees _ _ _ _ _ _ H F) (derived_agrees _ _ _ _ _ _ H' F')).
Qed.
Print Assumptions C29_derived_distinct_encodings_partial.
Example C29_derived_case : exists s1 s2 d1 d2, carries debug None bools (VList [VB true]) s1 /\ carries debug None bools (VList [VB false]) s2 /\
  enc debug bools (VList [VB true]) new_data = (Ok tt, d1) /\ enc debug bools (VList [VB false]) new_data = (Ok tt, d2) /\ bits d1 <> bits d2.
Proof.
  do 4 eexists. split; [|split; [|split; [vm_compute; reflexivity|split; [vm_compute; reflexivity|discriminate]]]].
  all: apply K_seqof; [discriminate| |repeat econstructor]; cbn; repeat split; cbn; try lia; vm_compute; congruence.
Qed.
