(* What a successful derived encoding or decoding means. *)
From Coq Require Import ZArith List Bool Lia.
From Coq Require Import ZifyBool ZifyNat ZifyN.
Require Import Verif.Base Verif.CodecModel Verif.BitLemmas Verif.Spec Verif.Combinators.
Require Import Verif.LengthProofs Verif.IntegerProofs Verif.StringProofs Verif.Local Verif.Ranges Verif.Loops Verif.Frame Verif.Safety Verif.Api Verif.ApiProofs Verif.AcceptProofs Verif.ApiSpec Verif.MiscProofs Verif.CodecFacts.
Require Import Verif.DeriveModel Verif.DeriveSpec Verif.DeriveProofs Verif.DeriveFacts.
Import ListNotations.
Open Scope Z_scope.
Ltac Zify.zify_post_hook ::= Z.div_mod_to_equations.

(* ---- C24 ---- *)
Lemma derived_agrees E k t v k' s : carries E k t v k' -> flow_of t v false = Some s -> agrees (enc E t v) (dec E t) v k k'.
Proof.
  intros H F a. destruct (proj1 (derived_steps E) _ _ _ _ H false s F a []) as (e & c & z & Q & W & R & P & _).
  - now left.
  - congruence.
  - cbn [app] in Q. change (zlen (@nil bool)) with 0 in R. rewrite Z.sub_0_r in R. subst e. exists c, z. auto.
Qed.
Lemma agrees_bytes enc {A} (dec : M A) v k' : agrees enc dec v None k' ->
  exists d, enc new_data = (Ok tt, d) /\
    (zlen (bits d) < 2 ^ 60 -> fst (dec (from_slice (into_bytes d))) = Ok v).
Proof.
  intros H. destruct (H 0) as (c & z & W & R & P). exists (mkD (c ++ z) 0 None). split.
  - apply (W [] 0 None). reflexivity.
  - intros F. unfold from_slice, into_bytes. cbn [bits] in *.
    destruct (bytes_bits_pack (c ++ z)) as (n & Hz & Hlt). rewrite Hz, <- app_assoc.
    assert (fits ([] ++ c ++ z ++ repeat false n)) as F'.
    { unfold fits. cbn [app]. rewrite !zlen_app, zlen_repeat. rewrite zlen_app in F. lia. }
    specialize (R [] (z ++ repeat false n) eq_refl F'). cbn [app] in R.
    change (zlen (@nil bool)) with 0 in R. rewrite R. reflexivity.
Qed.
Lemma agrees_distinct enc enc' {A} (dec : M A) v v' k k1 k2 a e : agrees enc dec v k k1 -> agrees enc' dec v' k k2 ->
  writes enc a e -> writes enc' a e -> zlen e < 2 ^ 60 -> v = v'.
Proof.
  intros H H' W W' F. destruct (H a) as (c & z & W1 & R1 & _). destruct (H' a) as (c' & z' & W2 & R2 & _).
  rewrite (writes_det _ _ _ _ W W1) in *. pose proof (writes_det _ _ _ _ W' W2) as Q.
  set (p := repeat false (Z.to_nat (a mod 8))).
  assert (HP : zlen p = a mod 8) by (unfold p; rewrite zlen_repeat; lia).
  assert (F' : fits (p ++ c ++ z)) by (unfold fits; rewrite zlen_app, HP; lia).
  specialize (R1 p z ltac:(lia) F'). rewrite Q in F', R1. specialize (R2 p z' ltac:(lia) F'). congruence.
Qed.

(* ---- keys ---- *)
Definition keeps {A} (m : M A) : Prop := forall s, key (snd (m s)) = key s.
Lemma keeps_bind {A B} (m : M A) (f : A -> M B) : keeps m -> (forall v, keeps (f v)) -> keeps (bind m f).
Proof.
  intros H1 H2 s. specialize (H1 s). unfold bind. destruct (m s) as [[v| | |] s1]; cbn [snd] in *; auto.
  now rewrite H2.
Qed.
Lemma keeps_ret {A} (v : A) : keeps (ret v). Proof. intros s; reflexivity. Qed.
Lemma keeps_err {A} : keeps (@err A). Proof. intros s; reflexivity. Qed.
Lemma keeps_panic {A} : keeps (@panic A). Proof. intros s; reflexivity. Qed.
Lemma keeps_diverge {A} : keeps (@diverge A). Proof. intros s; reflexivity. Qed.
Lemma keeps_lift {A} (r : res A) : keeps (lift r). Proof. intros s; reflexivity. Qed.
Lemma keeps_to_usize z : keeps (to_usize z).
Proof. unfold to_usize. destruct (in_usize z); [apply keeps_ret|apply keeps_panic]. Qed.
Lemma keeps_slice n : keeps (slice_at_off n).
Proof. intros s. unfold slice_at_off. destruct (_ && _); reflexivity. Qed.
Lemma keeps_bit : keeps bit_at_off.
Proof. intros s. unfold bit_at_off. destruct (_ && _); reflexivity. Qed.
Lemma keeps_get_bits : keeps get_bits. Proof. intros s; reflexivity. Qed.
Lemma keeps_get_off : keeps get_off. Proof. intros s; reflexivity. Qed.
Lemma keeps_set_off o : keeps (set_off o). Proof. intros s; reflexivity. Qed.
Lemma keeps_load w l : keeps (load_be w l).
Proof. unfold load_be. destruct (_ && _); [apply keeps_ret|apply keeps_panic]. Qed.
Lemma keeps_fuel : keeps loop_fuel. Proof. intros s; reflexivity. Qed.
Ltac kpt := repeat first
  [ apply keeps_ret | apply keeps_err | apply keeps_panic | apply keeps_diverge | apply keeps_lift | apply keeps_to_usize
  | apply keeps_slice | apply keeps_bit | apply keeps_get_bits | apply keeps_get_off | apply keeps_set_off | apply keeps_load | apply keeps_fuel
  | match goal with |- keeps (bind _ _) => apply keeps_bind; [|intros ?] end
  | match goal with |- keeps (if ?c then _ else _) => destruct c end
  | match goal with |- keeps (match ?c with Some _ => _ | None => _ end) => destruct c end
  | progress cbv zeta ].
Lemma keeps_align : keeps decode_align. Proof. unfold decode_align. kpt. Qed.
Lemma keeps_advance E n i : keeps (advance_maybe_err E n i). Proof. unfold advance_maybe_err. kpt. Qed.
Lemma keeps_bool E : keeps (data_decode_bool E). Proof. unfold data_decode_bool. kpt; apply keeps_advance. Qed.
Lemma keeps_bits_int E n sg : keeps (decode_bits_as_integer E n sg).
Proof. unfold decode_bits_as_integer. kpt; apply keeps_advance. Qed.
Lemma keeps_bitvec E n : keeps (get_bitvec E n). Proof. unfold get_bitvec. kpt; apply keeps_advance. Qed.
Lemma keeps_bytes E n : keeps (get_bytes E n). Proof. unfold get_bytes. kpt; apply keeps_advance. Qed.
Ltac kp2 := repeat first
  [ apply keeps_align | apply keeps_bool | apply keeps_bits_int | apply keeps_bitvec | apply keeps_bytes | progress kpt ].
Lemma keeps_con_fuel f E : forall lb ub, keeps (decode_constrained_fuel f E lb ub).
Proof. induction f as [|f IH]; intros lb ub; cbn [decode_constrained_fuel]; kp2; apply IH. Qed.
Lemma keeps_con E lb ub : keeps (decode_constrained_whole_number E lb ub).
Proof. apply keeps_con_fuel. Qed.
Lemma keeps_indef E : keeps (decode_indefinite_length_determinent E).
Proof. unfold decode_indefinite_length_determinent. kp2. Qed.
Lemma keeps_small E : keeps (decode_normally_small_length_determinent E).
Proof. unfold decode_normally_small_length_determinent. kp2; apply keeps_indef. Qed.
Lemma keeps_len E lb ub ns : keeps (decode_length_determinent E lb ub ns).
Proof.
  unfold decode_length_determinent, decode_constrained_length_determinent.
  kp2; first [apply keeps_small | apply keeps_indef | apply keeps_con].
Qed.
Lemma keeps_unc E : keeps (decode_unconstrained_whole_number E).
Proof. unfold decode_unconstrained_whole_number. kp2; apply keeps_len. Qed.
Lemma keeps_semi E lb : keeps (decode_semi_constrained_whole_number E lb).
Proof. unfold decode_semi_constrained_whole_number. kp2; apply keeps_len. Qed.
Lemma keeps_nsnn E : keeps (decode_normally_small_non_negative_whole_number E).
Proof. unfold decode_normally_small_non_negative_whole_number. kp2; apply keeps_semi. Qed.
Lemma keeps_ext_bit E x : keeps (decode_ext_bit E x).
Proof. unfold decode_ext_bit. kp2. Qed.
Lemma keeps_integer E lb ub x : keeps (decode_integer E lb ub x).
Proof. unfold decode_integer. kp2; first [apply keeps_ext_bit | apply keeps_unc | apply keeps_semi | apply keeps_con]. Qed.
Lemma keeps_choice_idx E lb ub x : keeps (decode_choice_idx E lb ub x).
Proof. unfold decode_choice_idx. kp2; first [apply keeps_integer | apply keeps_nsnn]. Qed.
Lemma keeps_seqhdr E x n : keeps (decode_sequence_header E x n).
Proof. unfold decode_sequence_header. kp2; apply keeps_ext_bit. Qed.
Lemma keeps_enum E lb ub x : keeps (decode_enumerated E lb ub x).
Proof. unfold decode_enumerated. kp2; first [apply keeps_ext_bit | apply keeps_integer | apply keeps_nsnn]. Qed.
Lemma keeps_frag E x lb ub : keeps (decode_frag_length E x lb ub).
Proof. unfold decode_frag_length. kp2; apply keeps_len. Qed.
Lemma keeps_string E lb ub x : keeps (decode_string E lb ub x).
Proof. unfold decode_string. kp2; first [apply keeps_ext_bit | apply keeps_frag]. Qed.
Lemma keeps_bits_loop f E i lb ub : forall acc, keeps (bitstring_loop f E i lb ub acc).
Proof. induction f as [|f IH]; intros acc; cbn [bitstring_loop]; kp2; first [apply keeps_frag|apply IH]. Qed.
Lemma keeps_octets_loop f E i lb ub : forall acc, keeps (octetstring_loop f E i lb ub acc).
Proof. induction f as [|f IH]; intros acc; cbn [octetstring_loop]; kp2; first [apply keeps_frag|apply IH]. Qed.
Lemma keeps_prim E c : keeps (decode_prim E c).
Proof.
  destruct c; cbn [decode_prim]; unfold decode_bool, decode_bitstring, decode_octetstring; kp2;
  first [apply keeps_bool | apply keeps_integer | apply keeps_enum | apply keeps_choice_idx | apply keeps_seqhdr | apply keeps_ext_bit
    | apply keeps_bits_loop | apply keeps_octets_loop | apply keeps_string | apply keeps_len].
Qed.
Lemma prim_keeps E c s r s' : decode_prim E c s = (r, s') -> key s' = key s.
Proof. intros H. pose proof (keeps_prim E c s) as K. rewrite H in K. exact K. Qed.

(* ---- alternatives ---- *)
Lemma dec_alts_ok E al : forall idx pos s v s', dec_alts E al idx pos s = (Ok v, s') ->
  exists n x t w, alt_at al n = Some (idx, x, t) /\ v = VAlt (pos + n) w /\ dec E t s = (Ok w, s') /\
    (forall j x' t', (j < n)%nat -> alt_at al j <> Some (idx, x', t')).
Proof.
  induction al as [|k x t al IH]; intros idx pos s v s' H; cbn [dec_alts] in H; [discriminate|].
  destruct (idx =? k) eqn:C.
  - assert (idx = k) as -> by lia. unfold bind, ret in H. destruct (dec E t s) as [[w| | |] s1] eqn:D; try discriminate.
    injection H as <- <-. exists 0%nat, x, t, w. rewrite Nat.add_0_r. repeat split; auto. intros; lia.
  - destruct (IH _ _ _ _ _ H) as (n & x' & t' & w & HA & -> & HD & HM). exists (S n), x', t', w. cbn [alt_at].
    replace (S pos + n)%nat with (pos + S n)%nat by lia. repeat split; auto.
    intros [|j] y u Hj; cbn [alt_at]; [|apply HM; lia]. intros Q. injection Q as -> _ _. lia.
Qed.
Lemma dec_alts_unknown E al : forall idx pos s, ~ In idx (alt_keys al) -> dec_alts E al idx pos s = (Err, s).
Proof.
  induction al as [|k x t al IH]; intros idx pos s H; cbn [dec_alts]; [reflexivity|]. cbn [alt_keys In] in H.
  replace (idx =? k) with false by lia. apply IH. tauto.
Qed.
Lemma enc_choice_out E lb ub ext al : forall n v, alt_at al n = None -> enc_choice E lb ub ext al n v = err.
Proof. induction al; intros [|n] v H; cbn in *; try discriminate; auto. Qed.
Lemma enc_variant_out E al : forall n v, alt_at al n = None -> enc_variant E al n v = err.
Proof. induction al; intros [|n] v H; cbn in *; try discriminate; auto. Qed.

(* ---- C26 ---- *)
Lemma choice_decodes E lb ub ext al s v s' : dec E (TChoice lb ub ext al) s = (Ok v, s') ->
  exists idx s1 n x t w, decode_choice_idx E lb ub ext s = (Ok (idx, false), s1) /\
    alt_at al n = Some (idx, x, t) /\ dec E t s1 = (Ok w, s') /\ v = VAlt n w.
Proof.
  cbn [dec]. unfold bind at 1. intros H. destruct (decode_choice_idx E lb ub ext s) as [[[idx e]| | |] s1]; try discriminate.
  cbn [fst snd] in H. destruct e; cbn [negb] in H; [discriminate|].
  destruct (dec_alts_ok _ _ _ _ _ _ _ H) as (n & x & t & w & HA & -> & HD & _). exists idx, s1, n, x, t, w. auto.
Qed.
Lemma choice_rejects E lb ub ext al s idx e s1 : decode_choice_idx E lb ub ext s = (Ok (idx, e), s1) ->
  e = true \/ ~ In idx (alt_keys al) -> fst (dec E (TChoice lb ub ext al) s) = Err.
Proof.
  intros H D. cbn [dec]. unfold bind at 1. rewrite H. cbn [fst snd]. destruct e; cbn [negb]; [reflexivity|].
  destruct D as [D|D]; [discriminate|]. now rewrite dec_alts_unknown.
Qed.
Lemma choice_encodes E lb ub ext al n v s s' : enc E (TChoice lb ub ext al) (VAlt n v) s = (Ok tt, s') ->
  exists key x t s1, alt_at al n = Some (key, x, t) /\ encode_choice_idx E lb ub ext key x s = (Ok tt, s1) /\
    enc E t v s1 = (Ok tt, s').
Proof.
  cbn [enc]. destruct (alt_at al n) as [[[key x] t]|] eqn:HA.
  - rewrite (enc_choice_at _ _ _ _ _ _ _ _ _ _ HA). unfold bind. intros H.
    destruct (encode_choice_idx E lb ub ext key x s) as [[[]| | |] s1] eqn:HI; try discriminate. exists key, x, t, s1. auto.
  - rewrite enc_choice_out by assumption. discriminate.
Qed.

(* ---- C27 ---- *)
Lemma seqof_decodes E lb ub ext t s v s' : dec E (TSeqOf lb ub ext t) s = (Ok v, s') ->
  exists n s1 l, decode_length_determinent E lb ub ext s = (Ok n, s1) /\ v = VList l /\
    zlen l = n /\ l <> [] /\ decodes_in_order (dec E t) s1 l s'.
Proof.
  cbn [dec]. unfold bind at 1. intros H. destruct (decode_length_determinent E lb ub ext s) as [[n| | |] s1]; try discriminate.
  unfold bind at 1, loop_fuel at 1 in H. unfold bind at 1 in H.
  destruct (seqof_loop _ _ _ _ _ s1) as [[l| | |] s2] eqn:L; try discriminate. injection H as <- <-.
  destruct (loop_ok _ _ _ _ _ _ _ _ L) as (l' & -> & N & Q & D). exists n, s1, l'. cbn [app]. repeat split; auto.
Qed.
Lemma seqof_decodes_all E lb ub ext t s n s1 l s' : decode_length_determinent E lb ub ext s = (Ok n, s1) ->
  0 < n -> zlen l = n -> decodes_in_order (dec E t) s1 l s' -> dec E (TSeqOf lb ub ext t) s = (Ok (VList l), s').
Proof.
  intros H Hn HL D. cbn [dec]. unfold bind at 1. rewrite H. unfold bind at 1, loop_fuel at 1. unfold bind at 1.
  rewrite <- HL. change (zlen l) with (0 + zlen l) at 2.
  rewrite (loop_runs _ _ _ _ D).
  - reflexivity.
  - intros ->. change (zlen (@nil val)) with 0 in HL. lia.
  - unfold zlen. lia.
Qed.
Lemma each_order {A} (f : A -> M unit) l : forall s s', each f l s = (Ok tt, s') <-> encodes_in_order f s l s'.
Proof.
  induction l as [|x l IH]; intros s s'; cbn [each].
  - split; [intros H; injection H as <-; constructor|]. intros H. inversion H; subst. reflexivity.
  - unfold bind. split.
    + intros H. destruct (f x s) as [[[]| | |] s1] eqn:F; try discriminate. econstructor; [exact F|]. now apply IH.
    + intros H. inversion H; subst. match goal with H : f x s = _ |- _ => rewrite H end. now apply IH.
Qed.
Lemma seqof_encodes E lb ub ext t l s s' s1 :
  encode_length_determinent E lb ub ext (zlen l) s = (Ok tt, s1) ->
  enc E (TSeqOf lb ub ext t) (VList l) s = (Ok tt, s') <-> encodes_in_order (enc E t) s1 l s'.
Proof.
  intros H. cbn [enc]. unfold bind, ignore_err. rewrite H. apply each_order.
Qed.

(* ---- C28 ---- *)
Lemma open_decodes E al s v s' : dec E (TOpen al) s = (Ok v, s') ->
  exists len s1 key n x t w, decode_length_determinent E None None false s = (Ok len, s1) /\
    CodecModel.key s = Some key /\ alt_at al n = Some (key, x, t) /\ dec E t s1 = (Ok w, s') /\ v = VAlt n w.
Proof.
  cbn [dec]. unfold bind at 1. intros H. destruct (decode_length_determinent E None None false s) as [[n| | |] s1] eqn:L; try discriminate.
  pose proof (keeps_len E None None false s) as K. rewrite L in K. cbn [snd] in K.
  unfold bind, get_key in H. rewrite K in H. destruct (CodecModel.key s) as [key|] eqn:Q; [|discriminate].
  destruct (dec_alts_ok _ _ _ _ _ _ _ H) as (m & x & t & w & HA & -> & HD & _). exists n, s1, key, m, x, t, w. auto 8.
Qed.
Lemma open_rejects E al s len s1 : decode_length_determinent E None None false s = (Ok len, s1) ->
  match key s with None => True | Some k => ~ In k (alt_keys al) end -> fst (dec E (TOpen al) s) = Err.
Proof.
  intros L H. cbn [dec]. unfold bind at 1. rewrite L.
  pose proof (keeps_len E None None false s) as K. rewrite L in K. cbn [snd] in K.
  unfold bind, get_key. rewrite K. destruct (key s) as [k|]; [|reflexivity]. now rewrite dec_alts_unknown.
Qed.
Lemma bytes_bits_pack_pad l : bytes_bits (pack l) = l ++ pad (zlen l).
Proof.
  destruct (bytes_bits_pack l) as (z & Hz & Hlt). rewrite Hz. f_equal. unfold pad. f_equal.
  assert (zlen (bytes_bits (pack l)) mod 8 = 0) as H by (rewrite zlen_bytes_bits; lia).
  rewrite Hz, zlen_app, zlen_repeat in H. lia.
Qed.
Lemma open_encodes E al n v s s' : fits (bits (snd (enc_variant E al n v new_data))) ->
  enc E (TOpen al) (VAlt n v) s = (Ok tt, s') ->
  exists key x t inner s1, alt_at al n = Some (key, x, t) /\ enc E t v new_data = (Ok tt, inner) /\
    encode_length_determinent E None None false (zlen (into_bytes inner)) s = (Ok tt, s1) /\
    bits s' = bits s1 ++ bytes_bits (into_bytes inner) /\ 1 <= zlen (into_bytes inner) < 16384.
Proof.
  cbn [enc]. destruct (alt_at al n) as [[[key x] t]|] eqn:HA.
  2:{ rewrite enc_variant_out by assumption. discriminate. }
  rewrite (enc_variant_at _ _ _ _ _ _ _ HA). destruct (enc E t v new_data) as [[[]| | |] inner] eqn:HE; try discriminate.
  cbn [snd enc_open_frame]. intros F H. unfold length_in_bytes, bind at 1, lift in H.
  destruct (arith_usize E (zlen (bits inner) - 1)) as [m| | |] eqn:HM; try discriminate. unfold bind at 1 in H.
  destruct (encode_length_determinent E None None false (m / 8 + 1) s) as [[[]| | |] s1] eqn:HL; try discriminate.
  assert (HR : 0 <= m).
  { unfold arith_usize in HM. destruct (in_usize (zlen (bits inner) - 1)) eqn:C.
    - injection HM as <-. unfold in_usize in C. lia.
    - destruct (overflow_checks E); [discriminate|]. injection HM as <-. unfold wrap_u. apply Z.mod_pos_bound. lia. }
  assert (OK : m / 8 + 1 < 16384).
  { destruct (length_ok_dec None None false (m / 8 + 1)) as [D|D]; [unfold length_ok in D; lia|].
    exfalso. refine (len_refuses E None None false (m / 8 + 1) (conj I I) ltac:(lia) ltac:(discriminate) D s _). now rewrite HL. }
  pose proof (zlen_nonneg (bits inner)).
  assert (m = zlen (bits inner) - 1 /\ 1 <= zlen (bits inner)) as [-> H1].
  { unfold arith_usize in HM. destruct (in_usize (zlen (bits inner) - 1)) eqn:C.
    - injection HM as <-. unfold in_usize in C. lia.
    - exfalso. destruct (overflow_checks E); [discriminate|]. injection HM as <-. unfold in_usize in C.
      unfold fits in F. assert (zlen (bits inner) = 0) as Q by lia. rewrite Q in OK. cbn in OK. lia. }
  assert (zlen (into_bytes inner) = (zlen (bits inner) - 1) / 8 + 1) as HZ.
  { pose proof (bytes_bits_pack_pad (bits inner)) as Q. apply (f_equal zlen) in Q. rewrite zlen_bytes_bits, zlen_app, zlen_pad in Q.
    unfold into_bytes. lia. }
  exists key, x, t, inner, s1. rewrite HZ. repeat split; auto; try lia.
  destruct s as [b o k]. destruct (emits_len E None None false ((zlen (bits inner) - 1) / 8 + 1) (zlen b)) as (r & e & He).
  pose proof (He b o k eq_refl) as Q. rewrite HL in Q. injection Q as <- ->.
  assert (HA1 : (zlen b + zlen e) mod 8 = 0) by (eapply open_length_aligned; [|exact He]; lia).
  unfold append_aligned, bind, align, append_bits in H. cbn [bits off CodecModel.key] in H. injection H as <-. cbn [bits].
  rewrite !align_bits_pad. unfold into_bytes. rewrite bytes_bits_pack_pad, zlen_app.
  replace (pad (zlen b + zlen e)) with (@nil bool); [now rewrite app_nil_r|].
  unfold pad. replace ((- (zlen b + zlen e)) mod 8) with 0 by lia. reflexivity.
Qed.
Lemma open_refuses E al n v s : fst (enc_variant E al n v new_data) = Err -> enc E (TOpen al) (VAlt n v) s = (Err, s).
Proof. cbn [enc]. destruct (enc_variant E al n v new_data) as [[| | |] d]; cbn; try discriminate. reflexivity. Qed.

(* ---- C25 ---- *)
Lemma shows_map fs : forall vs bm, shows fs vs bm -> fits_fields fs vs -> Forall (fun i => 0 <= i) (optional_idxs fs) ->
  presence_map fs vs bm.
Proof.
  induction fs as [|i t fs IH|kf t fs IH]; intros [|o vs] bm H F N; cbn [shows fits_fields optional_idxs] in *; try contradiction.
  - intros [|j]; cbn; exact I.
  - inversion N; subst. intros [|j]; cbn [field_at nth_error]; [split; [assumption|apply H]|apply IH; tauto].
  - destruct o as [o|]; [|contradiction]. intros [|j]; cbn [field_at nth_error]; [reflexivity|apply IH; tauto].
Qed.
Lemma components_fits fs : forall vs, components_match fs vs -> fits_fields fs vs.
Proof.
  induction fs as [|i t fs IH|kf t fs IH]; intros [|o vs] H; cbn [fits_fields]; auto;
    pose proof (H 0%nat) as H0; cbn in H0; try contradiction.
  - apply IH. intros j. apply (H (S j)).
  - destruct o; [|discriminate]. apply IH. intros j. apply (H (S j)).
Qed.
Lemma seqhdr_writes ext bm : forall a, writes (encode_sequence_header ext bm false) a ((if ext then [false] else []) ++ bm).
Proof.
  intros a p o k Hp. unfold encode_sequence_header, encode_ext_bit, bind, append_bits.
  destruct ext; cbn; rewrite <- ?app_assoc; reflexivity.
Qed.
Lemma seq_encodes E ext n fs vs s r s' : NoDup (optional_idxs fs) ->
  Forall (fun i => 0 <= i < n) (optional_idxs fs) -> 0 <= n -> components_match fs vs ->
  enc E (TSeq ext n fs) (VSeq vs) s = (r, s') ->
  exists bitmap rest, zlen bitmap = n /\ presence_map fs vs bitmap /\
    bits s' = bits s ++ (if ext then [false] else []) ++ bitmap ++ rest.
Proof.
  intros HN HR Hn HC H. apply components_fits in HC.
  destruct (presence_header fs vs n HC HN HR Hn) as (bm & E1 & L1 & S1).
  cbn [enc] in H. rewrite E1 in H. unfold bind in H. destruct s as [b o k].
  rewrite (seqhdr_writes ext bm (zlen b) b o k eq_refl) in H.
  destruct (proj1 (proj2 (emits_enc E)) fs vs (zlen (b ++ (if ext then [false] else []) ++ bm))) as (r1 & e & He).
  rewrite He in H by reflexivity. injection H as <- <-. cbn [bits]. exists bm, e. repeat split; auto.
  - apply shows_map; auto. eapply Forall_impl; [|exact HR]. cbn. lia.
  - now rewrite <- !app_assoc.
Qed.
Lemma dec_fields_map E bm fs : forall s vs s', Forall (fun i => 0 <= i) (optional_idxs fs) ->
  dec_fields E bm fs s = (Ok vs, s') -> presence_map fs vs bm.
Proof.
  induction fs as [|i t fs IH|kf t fs IH]; intros s vs s' N H; cbn [dec_fields optional_idxs] in *.
  - injection H as <- <-. intros [|j]; exact I.
  - inversion N; subst. destruct (nth_error bm (Z.to_nat i)) as [p|] eqn:P; [|discriminate]. unfold bind at 1 in H.
    assert (forall o s1, (if p then v <- dec E t ;; ret (Some v) else ret None) s = (Ok o, s1) -> p = present o) as HP.
    { destruct p; intros o s1 Q; [|injection Q as <- <-; reflexivity]. unfold bind, ret in Q.
      destruct (dec E t s) as [[w| | |] s2]; try discriminate. injection Q as <- <-. reflexivity. }
    destruct ((if p then v <- dec E t ;; ret (Some v) else ret None) s) as [[o| | |] s1] eqn:O; try discriminate. pose proof (HP _ _ eq_refl) as O1. unfold bind, ret in H.
    destruct (dec_fields E bm fs s1) as [[os| | |] s2] eqn:D; try discriminate. injection H as <- <-.
    intros [|j]; cbn [field_at nth_error]; [split; [assumption|congruence]|eapply IH; eauto].
  - unfold bind in H. destruct (dec E t s) as [[v| | |] s1]; try discriminate.
    destruct ((if kf then set_key_val v else ret tt) s1) as [[u| | |] s2]; try discriminate.
    destruct (dec_fields E bm fs s2) as [[os| | |] s3] eqn:D; try discriminate. injection H as <- <-.
    intros [|j]; cbn [field_at nth_error]; [reflexivity|eapply IH; eauto].
Qed.
Lemma bitvec_inv E n p b k v s' : fits (p ++ b) -> get_bitvec E n (mkD (p ++ b) (zlen p) k) = (Ok v, s') ->
  exists t, b = v ++ t /\ zlen v = n.
Proof.
  intros F H. pose proof (bitvec_consumes _ _ _ _ _ _ _ F H) as HO.
  destruct (local_bitvec E n p b k _ _ F H) as (e & t & k' & -> & -> & _). cbn [off] in HO.
  assert (zlen e = n) as HZ by lia. pose proof (reads_bitvec E (zlen p) n e (eq_sym HZ) p t k eq_refl F) as R.
  rewrite R in H. injection H as <- _. exists t. auto.
Qed.
Lemma bool_inv E p b k v s' : fits (p ++ b) -> data_decode_bool E (mkD (p ++ b) (zlen p) k) = (Ok v, s') ->
  exists t, b = v :: t /\ s' = mkD (p ++ b) (zlen p + 1) k.
Proof.
  intros F H. destruct b as [|x b].
  - exfalso. rewrite app_nil_r in H. unfold data_decode_bool, bind, get_bits, get_off in H. cbn [bits off] in H.
    rewrite Z.eqb_refl in H. discriminate.
  - pose proof (reads_bool E (zlen p) x p b k eq_refl F) as R. cbn [app] in R. rewrite R in H. injection H as <- <-. exists b. auto.
Qed.
Lemma seq_decodes E ext n fs s v s' : fits (bits s) -> 0 <= off s <= zlen (bits s) -> 0 <= n ->
  Forall (fun i => 0 <= i) (optional_idxs fs) ->
  dec E (TSeq ext n fs) s = (Ok v, s') ->
  exists pre bitmap rest vs x, v = VSeq vs /\ zlen pre = off s /\ zlen bitmap = n /\ presence_map fs vs bitmap /\
    bits s = pre ++ (if ext then [x] else []) ++ bitmap ++ rest.
Proof.
  intros F HO Hn N H. cbn [dec] in H. unfold bind at 1 in H.
  destruct (decode_sequence_header E ext n s) as [[[bm x]| | |] s1] eqn:HH; try discriminate. cbn [fst] in H. unfold bind, ret in H.
  destruct (dec_fields E bm fs s1) as [[vs| | |] s2] eqn:D; try discriminate. injection H as <- <-.
  apply dec_fields_map in D; [|assumption].
  destruct (split_state s HO) as (p & b & Hs & Hb & Hp). rewrite Hs in HH. rewrite Hb in F |- *.
  assert (exists rest, b = (if ext then [x] else []) ++ bm ++ rest /\ zlen bm = n) as (rest & -> & HL).
  { unfold decode_sequence_header, decode_ext_bit in HH. destruct ext.
    - unfold bind at 1 in HH. destruct (data_decode_bool E _) as [[y| | |] s3] eqn:B; try discriminate.
      destruct (bool_inv _ _ _ _ _ _ F B) as (t & -> & ->). unfold bind at 1 in HH.
      destruct (0 <? n) eqn:C.
      + replace (p ++ y :: t) with ((p ++ [y]) ++ t) in HH, F by now rewrite <- app_assoc.
        replace (zlen p + 1) with (zlen (p ++ [y])) in HH by (rewrite zlen_app; reflexivity).
        destruct (get_bitvec E n _) as [[w| | |] s4] eqn:V; try discriminate. injection HH as <- <- <-.
        destruct (bitvec_inv _ _ _ _ _ _ _ F V) as (t2 & -> & HL). exists t2. auto.
      + injection HH as <- <- <-. exists t. split; [reflexivity|]. change (zlen (@nil bool)) with 0. lia.
    - unfold bind, ret in HH. destruct (0 <? n) eqn:C.
      + destruct (get_bitvec E n _) as [[w| | |] s4] eqn:V; try discriminate. injection HH as <- <- <-.
        destruct (bitvec_inv _ _ _ _ _ _ _ F V) as (t2 & -> & HL). exists t2. auto.
      + injection HH as <- <- <-. exists b. split; [reflexivity|]. change (zlen (@nil bool)) with 0. lia. }
  exists p, bm, rest, vs, x. repeat split; auto.
Qed.

(* ---- derived versions of C14-C20 ---- *)
Lemma derived_appends E t v s r s' : enc E t v s = (r, s') ->
  off s' = off s /\ key s' = key s /\ exists e, bits s' = bits s ++ e.
Proof.
  intros H. destruct s as [b o k]. destruct (proj1 (emits_enc E) t v (zlen b)) as (r1 & e & He).
  rewrite (He b o k eq_refl) in H. injection H as <- <-. cbn. eauto.
Qed.
Lemma derived_terminates E t s : bounded_loops t = true -> fits (bits s) -> 0 <= off s <= zlen (bits s) ->
  fst (dec E t s) <> Diverge.
Proof.
  intros HB F HO. destruct (split_state s HO) as (p & b & Hs & Hb & Hp). rewrite Hs.
  apply (proj1 (nodiv_dec E)); [assumption|]. now rewrite <- Hb.
Qed.
Lemma derived_safe E t s : byte_buffer s -> ty_sane E t -> bounded_loops t = true -> returns_normally (fst (dec E t s)).
Proof.
  intros (F & W & HO) HS HB. destruct (split_state s HO) as (p & b & Hs & Hb & Hp). rewrite Hs. rewrite Hb in F, W.
  pose proof (proj1 (safe_dec E) t HS HB p b (key s) F W I) as Q. unfold outcome in Q. unfold returns_normally.
  destruct (fst (dec E t _)); try contradiction; split; congruence.
Qed.

(* A field { id, criticality, value } of an object set: the id names the
   alternative of the value. *)
Lemma ie_field E ext n lb ub x i lb2 ub2 x2 i2 al s v s' :
  0 < width i <= 64 ->
  dec E (TSeq ext n (FMan true (TInt lb ub x i) (FMan false (TEnum lb2 ub2 x2 i2) (FMan false (TOpen al) FNil)))) s = (Ok v, s') ->
  exists z c m y t w, v = VSeq [Some (VI z); Some (VI c); Some (VAlt m w)] /\ alt_at al m = Some (z, y, t).
Proof.
  intros HW H. cbn [dec dec_fields] in H. unfold bind at 1 in H.
  destruct (decode_sequence_header E ext n s) as [[[bm h]| | |] s1]; try discriminate. cbn [fst] in H.
  unfold bind at 1 in H. unfold bind at 1 in H. unfold bind at 1 in H.
  destruct (decode_integer E lb ub x s1) as [[[z f]| | |] s2]; try discriminate. unfold ret at 1 in H. cbn [fst] in H.
  unfold bind at 1, set_key_val, set_key in H. unfold bind at 1 in H. unfold bind at 1 in H.
  unfold bind at 1 in H. set (sk := mkD (bits s2) (off s2) (Some (as_i128 (cast i z)))) in H.
  pose proof (keeps_enum E lb2 ub2 x2 sk) as K.
  destruct (decode_enumerated E lb2 ub2 x2 sk) as [[[c f2]| | |] s3]; try discriminate. unfold ret at 1 in H. cbn [fst snd] in H, K.
  unfold bind at 1, ret at 1 in H. unfold bind at 1 in H. unfold bind at 1 in H.
  match type of H with context [bind ?m ?f s3] => change (bind m f) with (dec E (TOpen al)) in H end.
  destruct (dec E (TOpen al) s3) as [[w| | |] s4] eqn:D; try discriminate.
  destruct (open_decodes _ _ _ _ _ D) as (len & s5 & key & m & y & t & u & _ & HK & HA & _ & ->).
  rewrite K in HK. cbn [CodecModel.key sk] in HK. injection HK as <-.
  unfold bind, ret in H. injection H as <- _.
  exists (cast i z), (cast i2 c), m, y, t, u. split; [reflexivity|].
  replace (cast i z) with (as_i128 (cast i z)) at 1; [exact HA|].
  assert (- 2 ^ 64 <= cast i z < 2 ^ 64) as B.
  { assert (2 ^ width i <= 2 ^ 64) by (apply Z.pow_le_mono_r; lia).
    assert (0 < 2 ^ width i) by (apply Z.pow_pos_nonneg; lia).
    assert (2 ^ (width i - 1) <= 2 ^ 64) by (apply Z.pow_le_mono_r; lia).
    assert (0 < 2 ^ (width i - 1)) by (apply Z.pow_pos_nonneg; lia).
    assert (2 ^ width i = 2 * 2 ^ (width i - 1)) by (rewrite <- Z.pow_succ_r by lia; f_equal; lia).
    unfold cast, wrap_s, wrap_u. pose proof (Z.mod_pos_bound z (2 ^ width i) ltac:(lia)).
    destruct (signed i); [|lia].
    match goal with |- context [if ?c then _ else _] => destruct c end; lia. }
  unfold as_i128, wrap_s. 
  replace (2 ^ 64) with 18446744073709551616 in B by reflexivity.
  replace (2 ^ 128) with 340282366920938463463374607431768211456 by reflexivity.
  replace (2 ^ (128 - 1)) with 170141183460469231731687303715884105728 by reflexivity. 
  match goal with |- context [if ?c then _ else _] => destruct c eqn:? end; lia.
Qed.
