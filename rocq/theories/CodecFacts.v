(* Proofs of the statements of Theorems_Codec.v, in their exact form. *)
From Coq Require Import ZArith List Bool Lia.
From Coq Require Import ZifyBool ZifyNat ZifyN.
Require Import Verif.Base Verif.CodecModel Verif.BitLemmas Verif.Spec Verif.Combinators.
Require Import Verif.LengthProofs Verif.IntegerProofs Verif.StringProofs Verif.Local Verif.Ranges Verif.Loops Verif.Frame Verif.Safety Verif.Api Verif.ApiProofs Verif.AcceptProofs Verif.ApiSpec Verif.MiscProofs.
Import ListNotations.
Open Scope Z_scope.
Ltac Zify.zify_post_hook ::= Z.div_mod_to_equations.

Lemma rt_int E lb ub ext v : int_ok lb ub v ->
  round_trips (encode_integer E lb ub ext v false) (decode_integer E lb ub ext) (v, false).
Proof.
  intros H a. destruct (prim_round_trips E (PInt lb ub ext) (VNum v false) H a) as (e & W & R).
  exists e. split; [exact W|]. intros p s k Hp Hf. specialize (R p s k Hp Hf).
  cbn [decode_prim] in R. unfold bind, ret in R.
  destruct (decode_integer E lb ub ext (mkD (p ++ e ++ s) (zlen p) k)) as [[[w x]| | |] s1]; cbn in R; congruence.
Qed.
Lemma C01_proof E lb ub ext v :
  i128 lb -> i128 ub -> lb <= v <= ub -> ub - lb + 1 < 2 ^ 127 -> (ub - lb < 65536 \/ lb < v) ->
  round_trips (encode_integer E (Some lb) (Some ub) ext v false)
              (decode_integer E (Some lb) (Some ub) ext) (v, false).
Proof. intros. apply rt_int. unfold int_ok, i128 in *. lia. Qed.
Lemma C01_accepted_proof E lb ub ext v x : i128 lb -> i128 ub ->
  decodes_back (encode_integer E (Some lb) (Some ub) ext v x)
               (decode_integer E (Some lb) (Some ub) ext) (v, false).
Proof. intros. apply decodes_back_of; [apply emits_integer|]. intros. eapply con_accepted_reads; eauto. Qed.
Lemma C01_lowest_proof E lb ub ext : i128 lb -> i128 ub -> 65536 <= ub - lb -> ub - lb + 1 < 2 ^ 127 ->
  refuses_value (encode_integer E (Some lb) (Some ub) ext lb false) ext.
Proof.
  intros. apply refuses_value_of. intros p o k. unfold encode_integer.
  pose proof (con_lowest_rejected E lb ub H H0 H1 H2) as R.
  unfold bind. rewrite (writes_ext ext (zlen p) p o k eq_refl). rewrite (R (p ++ ext_bits ext) o k), app_nil_r. reflexivity.
Qed.
Lemma C02_proof E ub ext v : i128 v -> - 2 ^ 63 <= v < 2 ^ 63 \/ v < - 2 ^ 119 \/ 2 ^ 119 <= v ->
  round_trips (encode_integer E None ub ext v false) (decode_integer E None ub ext) (v, false).
Proof. intros. apply rt_int. split; [assumption|]. now apply readable_iff. Qed.
Lemma C03_proof E lb ext v : i128 v -> lb <= v -> v - lb < 2 ^ 127 ->
  round_trips (encode_integer E (Some lb) None ext v false) (decode_integer E (Some lb) None ext) (v, false).
Proof. intros. apply rt_int. split; [assumption|]. lia. Qed.

Lemma C04_int_proof E lb ub ext v : value_violates lb ub v -> refuses_value (encode_integer E lb ub ext v false) ext.
Proof. intros. now apply refuses_value_of, rejects_integer, value_violates_outside. Qed.
Lemma C04_enum_proof E lb ub ext v : value_violates lb ub v -> refuses_value (encode_enumerated E lb ub ext v false) ext.
Proof. intros. now apply refuses_value_of, rejects_enum, value_violates_outside. Qed.
Lemma C04_choice_proof E lb ub ext v : v < lb \/ ub < v -> refuses_value (encode_choice_idx E lb ub ext v false) ext.
Proof. intros. now apply refuses_value_of, rejects_choice. Qed.
Lemma C04_len_proof E lb ub n : size_violates lb ub n -> refuses_value (encode_length_determinent E lb ub false n) false.
Proof. intros H. apply refuses_value_nil, rejects_len; [apply H|now apply size_violates_outside]. Qed.
Lemma C04_bits_proof E lb ub ext bs : size_violates lb ub (zlen bs) -> refuses_value (encode_bitstring E lb ub ext bs false) ext.
Proof. intros. apply refuses_value_of, rejects_bitstring. left. now apply size_violates_outside. Qed.
Lemma C04_octets_proof E lb ub ext bs : size_violates lb ub (zlen bs) -> refuses_value (encode_octetstring E lb ub ext bs false) ext.
Proof. intros. apply refuses_value_of, rejects_octetstring. left. now apply size_violates_outside. Qed.
Lemma C04_string_proof E lb ub ext bs : size_violates lb ub (zlen bs) -> refuses_value (encode_string E lb ub ext bs false) ext.
Proof. intros. apply refuses_value_of, rejects_string. now apply size_violates_outside. Qed.

Lemma dec_width_tight r : 1 <= r < 256 -> 2 ^ field_width r < 2 * r.
Proof.
  intros H. unfold field_width, dec_range_bits. replace (r <? 256) with true by lia.
  repeat match goal with |- context [if ?c then _ else _] => destruct c eqn:? end;
    match goal with |- 2 ^ ?k < _ => let x := eval compute in (2 ^ k) in change (2 ^ k) with x end; lia.
Qed.
Lemma C05_bound_proof E lb ub s v x s' :
  i128 lb -> i128 ub -> lb <= ub <= lb + 65535 -> lb + 65536 <= 2 ^ 127 ->
  decode_integer E (Some lb) (Some ub) false s = (Ok (v, x), s') ->
  lb <= v <= lb + 65535 /\ (ub < lb + 255 -> v < lb + 2 * (ub - lb + 1)).
Proof.
  intros H1 H2 H3 H4 H. pose proof (decode_int_con_range E lb ub s v x s' H1 H2 H3 H4 H) as R.
  pose proof (field_width_bounds (ub - lb + 1) ltac:(lia)) as [W _].
  assert (2 ^ field_width (ub - lb + 1) <= 2 ^ 16) by (apply Z.pow_le_mono_r; lia).
  change (2 ^ 16) with 65536 in *. split; [lia|]. intros. pose proof (dec_width_tight (ub - lb + 1) ltac:(lia)). lia.
Qed.
Lemma C05_len_proof E lb ub s n s' : 0 <= lb <= ub -> ub < 65536 ->
  decode_length_determinent E (Some lb) (Some ub) false s = (Ok n, s') ->
  lb <= n <= lb + 65535 /\ (lb = ub -> n = lb).
Proof.
  intros H1 H2 H. pose proof (decode_len_range E lb ub s n s' H1 H2 H) as [R R'].
  pose proof (field_width_bounds (ub - lb + 1) ltac:(lia)) as [W _].
  assert (2 ^ field_width (ub - lb + 1) <= 2 ^ 16) by (apply Z.pow_le_mono_r; lia).
  change (2 ^ 16) with 65536 in *. split; [lia|auto].
Qed.

Lemma rt_of_prim {A} E c v (dec : M A) (f : A -> pval) w :
  prim_ok E c v -> decode_prim E c = (x <- dec ;; ret (f x)) -> (forall y, f y = v -> y = w) ->
  round_trips (encode_prim E c v) dec w.
Proof.
  intros H HD Hf a. destruct (prim_round_trips E c v H a) as (e & W & R). exists e. split; [exact W|].
  intros p s k Hp F. specialize (R p s k Hp F). rewrite HD in R. unfold bind, ret in R.
  destruct (dec (mkD (p ++ e ++ s) (zlen p) k)) as [[y| | |] s1]; try discriminate.
  injection R as R1 <-. now rewrite (Hf y R1).
Qed.
Lemma C06_proof E lb ub n : size_within lb ub n -> n < 16384 \/ (exists u, ub = Some u /\ u < 65536) ->
  round_trips (encode_length_determinent E lb ub false n) (decode_length_determinent E lb ub false) n.
Proof.
  intros. refine (rt_of_prim E (PLength lb ub false) (VNum n false) _ (fun n => VNum n false) n _ eq_refl _).
  - cbn. now apply size_within_ok.
  - congruence.
Qed.
Lemma C06_small_proof E lb ub n : 1 <= n < 16384 ->
  round_trips (encode_length_determinent E lb ub true n) (decode_length_determinent E lb ub true) n.
Proof.
  intros. refine (rt_of_prim E (PLength lb ub true) (VNum n false) _ (fun n => VNum n false) n _ eq_refl _).
  - cbn. lia.
  - congruence.
Qed.
Lemma C06_accepted_proof E lb ub ns n : size_sane lb ub -> 0 <= n -> (ns = true -> 0 < n) ->
  decodes_back (encode_length_determinent E lb ub ns n) (decode_length_determinent E lb ub ns) n.
Proof. intros. apply decodes_back_of; [apply emits_len|]. intros. eapply len_accepted_reads; eauto. Qed.

Lemma C07_proof E b a : writes (encode_bool b) a [b] /\ reads (decode_bool E) a [b] b.
Proof. split; [apply writes_append|apply reads_bool]. Qed.
Lemma C08_proof E lb ub ext v : i128 lb -> i128 ub -> lb <= v <= ub -> ub - lb < 65536 ->
  round_trips (encode_enumerated E (Some lb) (Some ub) ext v false)
              (decode_enumerated E (Some lb) (Some ub) ext) (v, false).
Proof.
  intros. refine (rt_of_prim E (PEnum (Some lb) (Some ub) ext) (VNum v false) _ (fun r => VNum (fst r) (snd r)) _ _ eq_refl _).
  - unfold prim_ok, int_ok, i128 in *. lia.
  - intros [y1 y2]. cbn. congruence.
Qed.
Lemma C08_accepted_proof E lb ub ext v x : i128 lb -> i128 ub ->
  decodes_back (encode_enumerated E (Some lb) (Some ub) ext v x)
               (decode_enumerated E (Some lb) (Some ub) ext) (v, false).
Proof. intros. apply decodes_back_of; [apply emits_enum|]. intros. eapply enum_accepted_reads; eauto. Qed.
Lemma C09_proof E lb ub ext v : i128 lb -> i128 ub -> lb <= v <= ub -> ub - lb < 65536 ->
  round_trips (encode_choice_idx E lb ub ext v false) (decode_choice_idx E lb ub ext) (v, false).
Proof.
  intros. refine (rt_of_prim E (PChoice lb ub ext) (VNum v false) _ (fun r => VNum (fst r) (snd r)) _ _ eq_refl _).
  - unfold prim_ok, int_ok, i128 in *. lia.
  - intros [y1 y2]. cbn. congruence.
Qed.
Lemma C09_accepted_proof E lb ub ext v x : i128 lb -> i128 ub ->
  decodes_back (encode_choice_idx E lb ub ext v x) (decode_choice_idx E lb ub ext) (v, false).
Proof. intros. apply decodes_back_of; [apply emits_choice|]. intros. eapply choice_accepted_reads; eauto. Qed.
Lemma C10_proof E ext bitmap :
  round_trips (encode_sequence_header ext bitmap false)
              (decode_sequence_header E ext (zlen bitmap)) (bitmap, false).
Proof.
  refine (rt_of_prim E (PSeqHeader ext (zlen bitmap)) (VBits bitmap false) _ (fun r => VBits (fst r) (snd r)) _ _ eq_refl _).
  - reflexivity.
  - intros [y1 y2]. cbn. congruence.
Qed.
Lemma C11_proof E lb ub ext l : size_within lb ub (zlen l) -> zlen l < 16384 ->
  round_trips (encode_bitstring E lb ub ext l false) (decode_bitstring E lb ub ext) l.
Proof.
  intros. refine (rt_of_prim E (PBits lb ub ext) (VBits l false) _ (fun r => VBits r false) _ _ eq_refl _).
  - split; [apply size_within_ok; auto|auto].
  - congruence.
Qed.
Lemma C11_accepted_proof E lb ub ext l x : size_sane lb ub ->
  decodes_back (encode_bitstring E lb ub ext l x) (decode_bitstring E lb ub ext) l.
Proof. intros. apply decodes_back_of; [apply emits_bitstring|]. intros. eapply bitstring_accepted_reads; eauto. Qed.
Lemma C11_long_proof E lb ub ext l : 16384 <= zlen l -> refuses_value (encode_bitstring E lb ub ext l false) ext.
Proof. intros. apply refuses_value_of, rejects_bitstring. now right. Qed.
Lemma C12_proof E lb ub ext l : bytes_ok l -> size_within lb ub (zlen l) -> zlen l < 16384 ->
  round_trips (encode_octetstring E lb ub ext l false) (decode_octetstring E lb ub ext) l.
Proof.
  intros. refine (rt_of_prim E (POctets lb ub ext) (VBytes l false) _ (fun r => VBytes r false) _ _ eq_refl _).
  - split; [auto|]. split; [apply size_within_ok; auto|auto].
  - congruence.
Qed.
Lemma C12_accepted_proof E lb ub ext l x : size_sane lb ub -> bytes_ok l ->
  decodes_back (encode_octetstring E lb ub ext l x) (decode_octetstring E lb ub ext) l.
Proof. intros. apply decodes_back_of; [apply emits_octetstring|]. intros. eapply octetstring_accepted_reads; eauto. Qed.
Lemma C12_long_proof E lb ub ext l : 16384 <= zlen l -> refuses_value (encode_octetstring E lb ub ext l false) ext.
Proof. intros. apply refuses_value_of, rejects_octetstring. now right. Qed.
Lemma C13_proof E lb ub ext l x s s' : size_sane lb ub -> bytes_ok l -> utf8_valid l = true ->
  little_endian E = false \/ 2 < zlen l \/ zlen (bits s') mod 8 = 0 ->
  encode_string E lb ub ext l x s = (Ok tt, s') ->
  exists e, bits s' = bits s ++ e /\ reads (decode_string E lb ub ext) (zlen (bits s)) e l.
Proof.
  intros H1 H2 H3 H4 H. destruct s as [b o k]. destruct (emits_string E lb ub ext l x (zlen b)) as (r & e & He).
  pose proof (He b o k eq_refl) as H5. rewrite H in H5. injection H5 as <- ->. cbn [bits] in *.
  exists e. split; [reflexivity|]. eapply string_accepted_reads; eauto. rewrite zlen_app in H4. exact H4.
Qed.
Lemma C13_accepts_proof E lb ub ext l : size_within lb ub (zlen l) -> zlen l < 16384 ->
  forall s, fst (encode_string E lb ub ext l false s) = Ok tt.
Proof.
  intros H1 H2 [b o k]. rewrite (writes_string E (zlen b) lb ub ext l); [reflexivity| |reflexivity].
  apply size_within_ok; auto.
Qed.

Lemma C14_proof E l s r s' : encode_all E l s = (r, s') ->
  off s' = off s /\ key s' = key s /\ exists e, bits s' = bits s ++ e.
Proof.
  intros H. destruct s as [b o k]. destruct (emits_all E l (zlen b)) as (r1 & e & He).
  rewrite (He b o k eq_refl) in H. injection H as <- <-. cbn. eauto.
Qed.
Lemma C14_align_proof E l s1 s2 r1 s1' r2 s2' e : zlen (bits s1) mod 8 = zlen (bits s2) mod 8 ->
  encode_all E l s1 = (r1, s1') -> encode_all E l s2 = (r2, s2') ->
  bits s1' = bits s1 ++ e -> r1 = r2 /\ bits s2' = bits s2 ++ e.
Proof.
  intros HA H1 H2 He. destruct s1 as [b o k], s2 as [b2 o2 k2]. cbn [bits] in *.
  destruct (emits_all E l (zlen b)) as (r & e1 & H).
  rewrite (H b o k eq_refl) in H1. rewrite (H b2 o2 k2 (eq_sym HA)) in H2.
  injection H1 as <- <-. injection H2 as <- <-. cbn [bits] in *. apply app_inv_head in He. subst. auto.
Qed.
Lemma C15_proof E l s r s' : fits (bits s) -> 0 <= off s <= zlen (bits s) ->
  decode_all E l s = (r, s') -> bits s' = bits s /\ off s <= off s' <= zlen (bits s).
Proof. intros. eapply local_frame; eauto. apply local_all. Qed.
Lemma C16_proof E l pre mid post k v k' : fits (pre ++ mid ++ post) ->
  decode_all E l (mkD (pre ++ mid ++ post) (zlen pre) k)
    = (Ok v, mkD (pre ++ mid ++ post) (zlen pre + zlen mid) k') ->
  forall pre' post', zlen pre' mod 8 = zlen pre mod 8 -> fits (pre' ++ mid ++ post') ->
  decode_all E l (mkD (pre' ++ mid ++ post') (zlen pre') k)
    = (Ok v, mkD (pre' ++ mid ++ post') (zlen pre' + zlen mid) k').
Proof. apply (local_consumed _ (local_all E l)). Qed.
Lemma C17_proof E l pre mid post k v k' : fits (pre ++ mid ++ post) ->
  decode_all E l (mkD (pre ++ mid ++ post) (zlen pre) k)
    = (Ok v, mkD (pre ++ mid ++ post) (zlen pre + zlen mid) k') ->
  forall m1 m2, mid = m1 ++ m2 -> m2 <> [] -> forall w s',
  decode_all E l (mkD (pre ++ m1) (zlen pre) k) <> (Ok w, s').
Proof. apply (local_truncated _ (local_all E l)). Qed.
Lemma C19_proof E c s : fits (bits s) -> 0 <= off s <= zlen (bits s) -> fst (decode_prim E c s) <> Diverge.
Proof.
  intros F HO. destruct (split_state s HO) as (p & b & Hs & Hb & Hp). rewrite Hs.
  apply nodiv_prim. now rewrite <- Hb.
Qed.
Lemma C21_identity_proof l : bytes_ok l -> into_bytes (from_slice l) = l.
Proof. intros. unfold into_bytes, from_slice. cbn [bits]. now apply pack_bytes_bits. Qed.
Lemma C21_spec_proof s : bytes_ok (into_bytes s) /\ zlen (into_bytes s) = (zlen (bits s) + 7) / 8 /\
  exists z, (z < 8)%nat /\ bits (from_slice (into_bytes s)) = bits s ++ repeat false z.
Proof.
  split; [apply pack_bytes_ok|]. split; [apply zlen_pack|].
  destruct (bytes_bits_pack (bits s)) as (z & H & Hz). exists z. split; [exact Hz|exact H].
Qed.
Lemma encodable_all E l : Forall (fun cv => call_encodable E (fst cv) (snd cv)) l ->
  Forall (fun cv => prim_ok E (fst cv) (snd cv)) l.
Proof. apply Forall_impl. intros. now apply call_encodable_ok. Qed.
Lemma C23_proof E l : Forall (fun cv => call_encodable E (fst cv) (snd cv)) l ->
  round_trips (encode_all E l) (decode_all E (map fst l)) (map snd l).
Proof. intros. now apply all_round_trips, encodable_all. Qed.
Lemma C23_bytes_proof E l : Forall (fun cv => call_encodable E (fst cv) (snd cv)) l ->
  exists d, encode_all E l new_data = (Ok tt, d) /\
    (zlen (bits d) < 2 ^ 60 ->
     fst (decode_all E (map fst l) (from_slice (into_bytes d))) = Ok (map snd l) /\
     off (snd (decode_all E (map fst l) (from_slice (into_bytes d)))) = zlen (bits d)).
Proof. intros. now apply bytes_round_trip, C23_proof. Qed.
Lemma C29_proof E c v v' a e t : call_encodable E c v -> call_encodable E c v' ->
  writes (encode_prim E c v) a e -> writes (encode_prim E c v') a (e ++ t) ->
  zlen e + zlen t + 8 < 2 ^ 61 -> v = v' /\ t = [].
Proof. intros H H' W W' F.
  exact (prefix_free _ _ _ _ _ a e t (prim_round_trips E c v (call_encodable_ok _ _ _ H))
    (prim_round_trips E c v' (call_encodable_ok _ _ _ H')) W W' F). Qed.
Lemma pairs_eq {A B} (l l' : list (A * B)) : map fst l = map fst l' -> map snd l = map snd l' -> l = l'.
Proof.
  revert l'. induction l as [|[x y] l IH]; intros [|[x' y'] l']; cbn; try discriminate; auto.
  intros H1 H2. injection H1 as -> H1. injection H2 as -> H2. f_equal. auto.
Qed.
Lemma C29_all_proof E l l' a e t :
  Forall (fun cv => call_encodable E (fst cv) (snd cv)) l ->
  Forall (fun cv => call_encodable E (fst cv) (snd cv)) l' -> map fst l = map fst l' ->
  writes (encode_all E l) a e -> writes (encode_all E l') a (e ++ t) ->
  zlen e + zlen t + 8 < 2 ^ 61 -> l = l' /\ t = [].
Proof.
  intros H H' Hm W W' F. pose proof (C23_proof E l H) as R. pose proof (C23_proof E l' H') as R'.
  rewrite <- Hm in R'. destruct (prefix_free _ _ _ _ _ a e t R R' W W' F) as [H1 H2].
  split; [now apply pairs_eq|assumption].
Qed.
