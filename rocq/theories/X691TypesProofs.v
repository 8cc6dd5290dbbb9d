(* Proofs for Theorems_X691Types.v: derived encoders write, and derived
   decoders read, the encodings of X691Types. *)
From Coq Require Import ZArith List Bool Lia.
From Coq Require Import ZifyBool ZifyNat ZifyN.
Require Import Verif.Base Verif.CodecModel Verif.BitLemmas Verif.Spec Verif.Combinators.
Require Import Verif.LengthProofs Verif.IntegerProofs Verif.StringProofs Verif.Local Verif.Ranges Verif.Loops Verif.Frame Verif.Safety Verif.Api Verif.ApiProofs Verif.AcceptProofs Verif.ApiSpec Verif.MiscProofs Verif.CodecFacts.
Require Import Verif.DeriveModel Verif.DeriveSpec Verif.DeriveProofs Verif.DeriveFacts.
Require Import Verif.X691 Verif.X691Spec Verif.X691Proofs Verif.X691Facts Verif.X691Types Verif.X691TypesSpec.
Import ListNotations.
Open Scope Z_scope.
Ltac Zify.zify_post_hook ::= Z.div_mod_to_equations.

(* ---- encoders ---- *)
Lemma follows_weaken enc (P Q : Z -> list bool -> Prop) : (forall a e, P a e -> Q a e) -> follows enc P -> follows enc Q.
Proof. intros H F a. destruct (F a) as (e & W & HP). eauto. Qed.
Lemma follows_bind m1 m2 (P1 P2 P : Z -> list bool -> Prop) :
  (forall a e1 e2, P1 a e1 -> P2 (a + zlen e1) e2 -> P a (e1 ++ e2)) ->
  follows m1 P1 -> follows m2 P2 -> follows (m1 ;; m2) P.
Proof.
  intros H F1 F2 a. destruct (F1 a) as (e1 & W1 & H1). destruct (F2 (a + zlen e1)) as (e2 & W2 & H2).
  exists (e1 ++ e2). split; [now apply writes_bind|auto].
Qed.
Lemma follows_ret (P : Z -> list bool -> Prop) : (forall a, P a []) -> follows (ret tt) P.
Proof. intros H a. exists []. split; [apply writes_ret|apply H]. Qed.

Lemma shows_bits fs : forall vs bm, shows fs vs bm ->
  Forall2 (fun i b => nth_error bm (Z.to_nat i) = Some b) (optional_idxs fs) (x_presence fs vs).
Proof.
  induction fs as [|i t fs IH|key t fs IH]; intros [|o vs] bm H; cbn [shows optional_idxs x_presence] in *; try easy.
  - destruct H as [H1 H2]. constructor; [exact H1|auto].
  - auto.
Qed.
Lemma counted_bits {A} (bm p : list A) : forall k, 
  Forall2 (fun i b => nth_error bm (Z.to_nat i) = Some b) (map Z.of_nat (seq k (length bm - k))) p -> p = skipn k bm.
Proof.
  intros k. remember (length bm - k)%nat as n eqn:Hn. revert k p Hn. induction n as [|n IH]; intros k p Hn H; cbn [seq map] in H; inversion H; subst.
  - symmetry. apply skipn_all2. lia.
  - rewrite Nat2Z.id in H2. rewrite (IH (S k) l') by (auto || lia).
    clear -H2. revert k H2. induction bm as [|b bm IH]; intros [|k] H; cbn in *; try discriminate; [congruence|auto].
Qed.
Lemma presence_is fs vs n bm : 0 <= n -> optional_idxs fs = map Z.of_nat (seq 0 (Z.to_nat n)) -> zlen bm = n -> shows fs vs bm ->
  bm = x_presence fs vs.
Proof.
  intros H0 H1 H2 H3. apply shows_bits in H3. rewrite H1 in H3.
  replace (Z.to_nat n) with (length bm - 0)%nat in H3 by (unfold zlen in H2; lia). apply counted_bits in H3. now rewrite H3.
Qed.

Lemma int_follows E lb ub ext z : int_encodable lb ub z -> int_regular lb ub ->
  match lb, ub with Some l, None => x_top_bit_clear (z - l) | _, _ => True end ->
  follows (encode_integer E lb ub ext z false) (x_root ext (x_root_integer lb ub z)).
Proof.
  intros [HZ H] HR HT. destruct lb as [l|]; [destruct ub as [u|]|].
  - eapply follows_weaken; [|apply C30_int_proof; try tauto; cbn in HR; tauto].
    intros a e X. destruct X; [now apply xr_plain, xi_constrained|now apply xr_marked, xi_constrained].
  - eapply follows_weaken; [|apply C31_semi_proof; tauto].
    intros a e X. destruct X; [now apply xr_plain, xi_semi|now apply xr_marked, xi_semi].
  - eapply follows_weaken; [|now apply C31_unc_proof].
    intros a e X. destruct X; [now apply xr_plain, xi_none|now apply xr_marked, xi_none].
Qed.

Lemma chars_conform lb ub ext l a : chars_regular lb ub l -> size_within lb ub (zlen l) -> zlen l < 16384 ->
  x_root ext (x_characters lb ub l) a (str_bits a lb ub ext (zlen l) 2 (bytes_bits l)).
Proof.
  intros [HS HR] HW HN. pose proof (within_lt _ _ _ HW HN) as HO.
  assert (str_regular 2 lb ub l -> (forall u, ub = Some u -> x_lower lb < u -> 16 <= 8 * u) ->
    x_root ext (x_characters lb ub l) a (str_bits a lb ub ext (zlen l) 2 (bytes_bits l))) as HA.
  { intros H H'. pose proof (octetstring_conforms lb ub ext l a H HO HN) as X.
    destruct X as [a e -> X|a e -> X]; [apply xr_plain|apply xr_marked]; auto; now apply xch_aligned. }
  destruct ub as [u|]; [|apply HA; [now split|discriminate]].
  assert (HL : x_lower lb = opt0 lb) by reflexivity.
  destruct (Z_lt_dec u 2) as [C|C].
  - destruct (Z.eq_dec u (opt0 lb)) as [->|D].
    + apply HA; [split; [assumption|]; intros; split; [lia|now left]|]. intros u Q. injection Q as <-. lia.
    + rewrite str_bits_split. apply x_root_intro. rewrite app_assoc.
      replace (2 <? zlen l) with false by (unfold size_within in HW; lia). rewrite app_nil_r. apply xch_tiny; [|lia|now apply len_conforms].
      destruct HS as [_ HS]. lia.
  - apply HA.
    + split; [assumption|]. intros HU. specialize (HR HU). intuition lia.
    + intros u' Q. injection Q as <-. lia.
Qed.

Lemma pack_pad e : bytes_bits (pack e) = e ++ pad (zlen e).
Proof.
  destruct (bytes_bits_pack e) as (z & Q & L). rewrite Q. f_equal. unfold pad. f_equal.
  apply (f_equal zlen) in Q. rewrite zlen_bytes_bits, zlen_app in Q. unfold zlen at 3 in Q. rewrite repeat_length in Q. lia.
Qed.
Lemma pack_complete e : e <> [] -> x_complete e (pack e).
Proof.
  intros H. split; [apply pack_bytes_ok|]. rewrite pack_pad, x_pad_pad. now destruct e.
Qed.

Lemma plain_at al : forall n key x t v, alt_at al n = Some (key, x, t) -> x_plain_alt al n v -> x_plain t v.
Proof.
  induction al as [|k x t al IH]; intros [|n] key y u v H HP; cbn in H; try discriminate; cbn [x_plain_alt] in HP.
  - injection H as -> -> ->. assumption.
  - eauto.
Qed.
Lemma numbered_at al : forall n key x t, alt_at al n = Some (key, x, t) -> x_numbered_alts al -> x_numbered t.
Proof.
  induction al as [|k x t al IH]; intros [|n] key y u H HP; cbn in H; try discriminate; cbn [x_numbered_alts] in HP.
  - injection H as -> -> ->. tauto.
  - destruct HP. eauto.
Qed.

Theorem x_encodes E :
  (forall k t v k', carries E k t v k' -> x_numbered t -> x_plain t v -> follows (enc E t v) (x_value t v)) /\
  (forall k fs vs k', carries_fields E k fs vs k' -> x_numbered_fields fs -> x_plain_fields fs vs ->
     follows (enc_fields E fs vs) (x_components fs vs)) /\
  (forall k t l k', carries_list E k t l k' -> x_numbered t -> Forall (x_plain t) l -> follows (each (enc E t) l) (x_elements t l)).
Proof.
  apply carries_mutind; intros; cbn [enc enc_fields each].
  - intros a. exists [b]. split; [apply writes_append|constructor].
  - apply follows_ret. constructor.
  - cbn [x_plain] in H2. rewrite (int_enc_i128 _ _ _ H). eapply follows_weaken; [|now apply int_follows].
    intros. now constructor.
  - cbn [x_plain] in H2. rewrite (int_enc_i128 _ _ _ H). destruct H as [HZ H]. destruct lb as [l|]; [|tauto]. destruct ub as [u|]; [|tauto].
    cbn in H2. eapply follows_weaken; [|apply C30_enum_proof; tauto]. intros. now constructor.
  - destruct H as [H2 H3]. eapply follows_weaken; [|apply C31_bits_proof; assumption]. intros. now constructor.
  - destruct H as (H2 & H3 & H4). eapply follows_weaken; [|apply C31_octets_proof; assumption]. intros. now constructor.
  - destruct H as (H2 & H3 & H4 & H5' & _). rename H1 into HP.
    assert (H5 : zlen l < 16384).
    { destruct H5' as [H5|(w & -> & Hw)]; [exact H5|]. cbn [x_plain] in HP. destruct HP as [_ HP]. now apply HP. }
    intros a. eexists. split; [apply writes_string; now apply within_lt|].
    constructor. now apply chars_conform.
  - (* SEQUENCE *) cbn [x_numbered] in H4. destruct H4 as (N1 & N2 & N3). cbn [x_plain] in H5.
    destruct (presence_header fs vs n (carries_fits _ _ _ _ _ H2) H H0 H1) as (bm & E1 & L1 & S1). rewrite E1.
    rewrite (presence_is fs vs n bm N1 N2 L1 S1).
    eapply follows_bind; [|apply C31_header_proof|apply H3; assumption]. intros. econstructor; eassumption.
  - (* SEQUENCE OF *) cbn [x_numbered] in H3. cbn [x_plain] in H4. destruct H4 as [-> H4]. destruct H0 as [H0 H5].
    eapply (follows_bind _ _ (x_length lb ub (zlen l)) (x_elements t l)).
    + intros. econstructor; [|eassumption]. now apply xr_plain.
    + intros a. destruct (C31_len_proof E lb ub (zlen l) H0 H5 a) as (e & W & X). exists e. split; [now apply writes_ignore|assumption].
    + now apply H2.
  - (* CHOICE *) cbn [x_numbered] in H4. destruct H4 as [N1 N2]. cbn [x_plain] in H5. destruct H5 as [R1 R2].
    rewrite (enc_choice_at _ _ _ _ _ _ _ _ _ _ H). destruct (N1 _ _ _ H) as (-> & -> & ->). destruct H1 as [HZ H1]. unfold int_regular in R1.
    eapply follows_bind; [|apply C30_choice_proof; tauto|apply H3; [eapply numbered_at; eassumption|eapply plain_at; eassumption]].
    intros. econstructor; eauto. now exists (x_index al n).
  - (* open type *) cbn [x_numbered] in H5. cbn [x_plain] in H6.
    destruct (H2 (numbered_at _ _ _ _ _ H H5) (plain_at _ _ _ _ _ _ H H6) 0) as (e & W & X).
    specialize (W [] 0 None eq_refl) as W0. change (mkD [] 0 None) with new_data in W0. rewrite H3 in W0.
    assert (d = mkD e 0 None) as -> by (injection W0 as ->; reflexivity). cbn [bits] in H4.
    assert (e <> []) as HE by (intros ->; cbn in H4; lia).
    rewrite (enc_variant_at E al n v key x t H), H3. unfold enc_open_frame, length_in_bytes. cbn [bits].
    rewrite arith_usize_ok by lia.
    assert (zlen (pack e) = (zlen e - 1) / 8 + 1) as HL by (rewrite zlen_pack; lia).
    intros a. exists (indef_bits a (zlen (pack e)) ++ bytes_bits (pack e)). split.
    + change (lift (Ok ((zlen e - 1) / 8 + 1))) with (ret (A := Z) ((zlen e - 1) / 8 + 1)). rewrite <- HL.
      apply (writes_bind (encode_length_determinent E None None false (zlen (pack e)))).
      * apply (writes_len E a None None false). repeat split; lia.
      * unfold append_aligned. cbn [bits]. apply (writes_cong _ 0); [rewrite indef_aligned by lia; reflexivity|].
        rewrite pack_pad. change (e ++ pad (zlen e)) with ([] ++ (e ++ pad (zlen e))). apply writes_bind.
        -- pose proof (writes_align 0) as WA. rewrite pad_zero in WA by reflexivity. exact WA.
        -- rewrite align_bits_pad. apply writes_append.
    + econstructor; [exists key; exact H|exact X|now apply pack_complete|]. apply xf_last. apply x_long_length_iff. split; [lia|reflexivity].
  - apply follows_ret. constructor.
  - cbn in H1, H2. eapply follows_weaken; [|apply H0; tauto]. intros. now constructor.
  - cbn in H3, H4. eapply follows_bind; [|apply H0; tauto|apply H2; tauto]. intros. now constructor.
  - cbn in H3, H4. eapply follows_bind; [|apply H0; tauto|apply H2; tauto]. intros. now constructor.
  - cbn in H3, H4. eapply follows_bind; [|apply H0; tauto|apply H2; tauto]. intros. now constructor.
  - apply follows_ret. constructor.
  - inversion H4; subst. eapply follows_bind; [|apply H0; tauto|apply H2; tauto]. intros. now constructor.
Qed.

(* ---- decoders ---- *)
(* The decoder reads v from every encoding that P describes, up to padding
   that it has not yet skipped; compare `step`. *)
Definition ustep (P : Z -> list bool -> Prop) {A} (dec : M A) (v : A) (k k' : option Z) (s s' : bool) : Prop :=
  forall a e z, P a e -> padding z a -> (z <> [] -> s = true) ->
  exists c z', z ++ e = c ++ z' /\ reads_key dec (a - zlen z) c v k k' /\
    padding z' (a + zlen e) /\ (z' <> [] -> s' = true).

Lemma ustep_bind {A B} (P1 P2 P : Z -> list bool -> Prop) (m : M A) (f : A -> M B) v w k k1 k2 s s1 s2 :
  (forall a e, P a e -> exists e1 e2, e = e1 ++ e2 /\ P1 a e1 /\ P2 (a + zlen e1) e2) ->
  ustep P1 m v k k1 s s1 -> ustep P2 (f v) w k1 k2 s1 s2 -> ustep P (bind m f) w k k2 s s2.
Proof.
  intros HP H1 H2 a e z X Hz Hs. destruct (HP a e X) as (e1 & e2 & -> & X1 & X2).
  destruct (H1 a e1 z X1 Hz Hs) as (c1 & z1 & Q1 & R1 & P1' & S1).
  destruct (H2 (a + zlen e1) e2 z1 X2 P1' S1) as (c2 & z2 & Q2 & R2 & P2' & S2).
  exists (c1 ++ c2), z2. split; [|split; [|split]].
  - rewrite app_assoc, Q1, <- app_assoc, Q2. now rewrite app_assoc.
  - eapply reads_key_bind; [exact R1|]. apply (f_equal zlen) in Q1. rewrite !zlen_app in Q1.
    eapply reads_key_cong; [|exact R2]. f_equal. lia.
  - rewrite zlen_app. now replace (a + (zlen e1 + zlen e2)) with (a + zlen e1 + zlen e2) by lia.
  - exact S2.
Qed.
Lemma ustep_map {A B} P (m : M A) (f : A -> M B) v w k k1 k2 s s' :
  ustep P m v k k1 s s' -> (forall a, reads_key (f v) a [] w k1 k2) -> ustep P (bind m f) w k k2 s s'.
Proof.
  intros H1 H2 a e z X Hz Hs. destruct (H1 a e z X Hz Hs) as (c & z' & Q & R & P' & S).
  exists c, z'. split; [assumption|]. split; [|auto]. rewrite <- (app_nil_r c). eapply reads_key_bind; [exact R|apply H2].
Qed.
Lemma ustep_pure {A} (P : Z -> list bool -> Prop) (m : M A) v k k' s : (forall a e, P a e -> e = []) ->
  (forall a, reads_key m a [] v k k') -> ustep P m v k k' s s.
Proof.
  intros HE H a e z X Hz Hs. rewrite (HE a e X). exists [], z. split; [now rewrite app_nil_r|].
  split; [apply H|]. split; [now rewrite zlen_nil, Z.add_0_r|assumption].
Qed.
Lemma ustep_weaken {A} P (m : M A) v k k' s s' s'' : ustep P m v k k' s s' -> (s' = true -> s'' = true) -> ustep P m v k k' s s''.
Proof.
  intros H HS a e z X Hz Hs. destruct (H a e z X Hz Hs) as (c & z' & Q & R & P' & S). exists c, z'. repeat split; auto.
Qed.
Lemma ustep_from {A} P (m : M A) v k k' s0 s s' : ustep P m v k k' s s' -> (s0 = true -> s = true) -> ustep P m v k k' s0 s'.
Proof. intros H HS a e z X Hz Hs. apply H; auto. Qed.
Lemma ustep_imp {A} (P Q : Z -> list bool -> Prop) (m : M A) v k k' s s' : (forall a e, Q a e -> P a e) -> ustep P m v k k' s s' -> ustep Q m v k k' s s'.
Proof. intros HQ H a e z X. apply H. auto. Qed.
Lemma ustep_dec {A} P (m m' : M A) v k k' s s' :
  (forall d d', m d = (Ok v, d') -> m' d = (Ok v, d')) -> ustep P m v k k' s s' -> ustep P m' v k k' s s'.
Proof.
  intros HE H a e z X Hz Hs. destruct (H a e z X Hz Hs) as (c & z' & Q & R & P' & S).
  exists c, z'. split; [assumption|]. split; [|auto]. intros p q Hp F. apply HE. now apply R.
Qed.

(* Encodings that start on an octet boundary. *)
Definition aligned_form (P : Z -> list bool -> Prop) : Prop :=
  forall a e, P a e -> exists e', e = x_pad a ++ e' /\ forall b, P b (x_pad b ++ e').
Definition empty_form (P : Z -> list bool -> Prop) : Prop :=
  forall a e, P a e -> e = [] /\ forall b, P b [].

Lemma padding_is_pad z a : padding z a -> z <> [] -> a mod 8 = 0 /\ z = x_pad (a - zlen z).
Proof.
  intros [->|(H1 & H2 & H3)] H; [congruence|]. split; [assumption|]. unfold x_pad.
  assert (zlen z > 0) by (destruct z; [congruence|rewrite zlen_cons; pose proof (zlen_nonneg z); lia]).
  replace (Z.to_nat ((8 - (a - zlen z) mod 8) mod 8)) with (length z) by (unfold zlen in *; lia).
  clear -H3. induction H3; cbn; congruence.
Qed.
Lemma ustep_call {A} (P : Z -> list bool -> Prop) (m : M A) v k c s s' :
  (forall a e, P a e -> reads m a e v) ->
  (starts_aligned c = true -> aligned_form P) -> (empty_call c = true -> empty_form P) ->
  call_flow c s = Some s' -> ustep P m v k k s s'.
Proof.
  intros HR HA HE HF a e z X Hz Hs. unfold call_flow in HF. destruct (empty_call c) eqn:C.
  - injection HF as <-. destruct (HE eq_refl a e X) as [-> X']. exists [], z. split; [now rewrite app_nil_r|].
    split; [apply reads_key_of, HR, X'|]. split; [now rewrite zlen_nil, Z.add_0_r|assumption].
  - destruct z as [|b z].
    + exists e, []. split; [now rewrite app_nil_r|]. split; [|split; [now left|congruence]].
      change (zlen (@nil bool)) with 0. rewrite Z.sub_0_r. now apply reads_key_of, HR.
    + rewrite Hs in HF by discriminate. cbn [andb] in HF. destruct (starts_aligned c); [|discriminate].
      destruct (padding_is_pad _ _ Hz ltac:(discriminate)) as [H8 QZ].
      destruct (HA eq_refl a e X) as (e' & -> & X'). exists ((b :: z) ++ x_pad a ++ e'), [].
      split; [now rewrite app_nil_r|]. split; [|split; [now left|congruence]].
      assert (x_pad a = []) as -> by (unfold x_pad; replace (Z.to_nat ((8 - a mod 8) mod 8)) with O by lia; reflexivity).
      cbn [app]. apply reads_key_of, HR. specialize (X' (a - zlen (b :: z))). rewrite <- QZ in X'. exact X'.
Qed.

Lemma x_pad_cong a b : a mod 8 = b mod 8 -> x_pad a = x_pad b.
Proof. unfold x_pad. now intros ->. Qed.
Lemma x_pad_end a b r : (a + zlen (x_pad a ++ r)) mod 8 = (b + zlen (x_pad b ++ r)) mod 8.
Proof. rewrite !zlen_app, !x_pad_pad, !zlen_pad. lia. Qed.

Lemma aligned_constrained lb ub v : aligned_range lb ub = true -> aligned_form (x_constrained lb ub v).
Proof.
  unfold aligned_range. intros H a e X. destruct X; try lia.
  - exists e. split; [reflexivity|]. intros b. now apply xc_one_octet.
  - exists e. split; [reflexivity|]. intros b. now apply xc_two_octets.
Qed.
Lemma aligned_long n : aligned_form (x_long_length n).
Proof.
  intros a e X. destruct X; eexists; (split; [reflexivity|]); intros b; [now apply xl_short|now apply xl_medium].
Qed.
Lemma aligned_length lb ub n : aligned_size lb ub = true -> aligned_form (x_length lb ub n).
Proof.
  intros H a e X. destruct X as [lb u n a e Hu X|lb ub n a e Hu H1 H2 X].
  - cbn in H. replace (u <? 65536) with true in H by lia. destruct (aligned_constrained _ _ _ H _ _ X) as (e' & -> & X').
    exists e'. split; [reflexivity|]. intros b. now apply xl_constrained.
  - destruct (aligned_long _ _ _ X) as (e' & -> & X'). exists e'. split; [reflexivity|]. intros b. now apply xl_unbounded.
Qed.
Lemma aligned_integer lb ub z : aligned_bounds lb ub = true -> aligned_form (x_root_integer lb ub z).
Proof.
  intros H a e X. destruct X as [l u v a e X|l v a e X|ub v a e X].
  - destruct (aligned_constrained l u v H _ _ X) as (e' & -> & X'). exists e'. split; [reflexivity|]. intros b. now apply xi_constrained.
  - destruct X as [lb v a n e1 e2 X1 X2 X3 X4]. destruct (aligned_long _ _ _ X3) as (e' & -> & X').
    exists (e' ++ e2). split; [now rewrite app_assoc|]. intros b. rewrite app_assoc. apply xi_semi. econstructor; eauto.
  - destruct X as [v a n e1 e2 X2 X3 X4]. destruct (aligned_long _ _ _ X3) as (e' & -> & X').
    exists (e' ++ e2). split; [now rewrite app_assoc|]. intros b. rewrite app_assoc. apply xi_none. econstructor; eauto.
Qed.
Lemma fragments_cong {A} (ser : list A -> list bool) l a e : x_fragments ser l a e -> forall b, a mod 8 = b mod 8 -> x_fragments ser l b e.
Proof.
  induction 1 as [l a e X|k l1 l2 a e1 e2 H1 H2 H3 X IH]; intros b Hb.
  - destruct (aligned_long _ _ _ X) as (e' & -> & X'). rewrite (x_pad_cong _ _ Hb). apply xf_last, X'.
  - rewrite (x_pad_cong _ _ Hb) in *. apply (xf_more _ k); auto. apply IH. lia.
Qed.
Lemma aligned_fragments {A} (ser : list A -> list bool) l : aligned_form (x_fragments ser l).
Proof.
  intros a e X. destruct X as [l a e X|k l1 l2 a e1 e2 H1 H2 H3 X].
  - destruct (aligned_long _ _ _ X) as (e' & -> & X'). exists (e' ++ ser l). split; [now rewrite app_assoc|].
    intros b. rewrite app_assoc. now apply xf_last.
  - eexists. split; [reflexivity|]. intros b. apply (xf_more _ k); auto. eapply fragments_cong; [exact X|].
    apply x_pad_end.
Qed.
Lemma aligned_string {A} (ser : list A -> list bool) short lb ub l :
  match fixed lb ub with Some n => short <? n | None => aligned_size lb ub end = true -> short < 65536 ->
  aligned_form (x_string ser short lb ub l).
Proof.
  intros H HS a e X. destruct X as [lb n l a H1 H2 H3|lb n l a H1 H2 H3|lb u l a e H1 H2 H3 H4|lb u a e H1 H2 H3|lb ub l a e H1 H2].
  - exfalso. unfold fixed in H. destruct lb as [l0|]; cbn in H1.
    + destruct ((l0 =? n) && (n <? 65536)) eqn:C; [lia|]. unfold aligned_size, aligned_range, opt0 in H. destruct (n <? 65536) eqn:D; lia.
    + subst n. discriminate.
  - exists (ser l). split; [reflexivity|]. intros b. now apply xt_fixed_long.
  - assert (aligned_size lb (Some u) = true) as HA.
    { unfold fixed in H. destruct lb as [l0|]; [|exact H]. cbn in H2. replace (l0 =? u) with false in H by lia. exact H. }
    destruct (aligned_length _ _ _ HA _ _ H3) as (e' & -> & X'). eexists. split; [now rewrite <- app_assoc|].
    intros b. rewrite (app_assoc (x_pad b)). rewrite (x_pad_cong _ _ (x_pad_end a b e')). now apply xt_bounded.
  - assert (aligned_size lb (Some u) = true) as HA.
    { unfold fixed in H. destruct lb as [l0|]; [|exact H]. cbn in H2. replace (l0 =? u) with false in H by lia. exact H. }
    destruct (aligned_length _ _ _ HA _ _ H3) as (e' & -> & X'). exists e'. split; [reflexivity|]. intros b. now apply xt_bounded_empty.
  - destruct (aligned_fragments _ _ _ _ H2) as (e' & -> & X'). exists e'. split; [reflexivity|]. intros b. now apply xt_unbounded.
Qed.
Lemma aligned_root (P : Z -> list bool -> Prop) : aligned_form P -> aligned_form (x_root false P).
Proof.
  intros H a e X. destruct X as [a e _ X|a e D X]; [|discriminate]. destruct (H _ _ X) as (e' & -> & X').
  exists e'. split; [reflexivity|]. intros b. now apply xr_plain.
Qed.
Lemma empty_root (P : Z -> list bool -> Prop) : empty_form P -> empty_form (x_root false P).
Proof.
  intros H a e X. destruct X as [a e _ X|a e D X]; [|discriminate]. destruct (H _ _ X) as (-> & X').
  split; [reflexivity|]. intros b. now apply xr_plain.
Qed.
Lemma empty_constrained l z : empty_form (x_constrained l l z).
Proof.
  intros a e X. inversion X; subst; try lia. split; [reflexivity|]. intros. constructor.
Qed.
Lemma empty_length lb ub n : fixed lb ub <> None -> empty_form (x_length lb ub n).
Proof.
  unfold fixed. destruct lb as [l|], ub as [u|]; try congruence. destruct ((l =? u) && (u <? 65536)) eqn:C; [|congruence]. intros _ a e X.
  assert (l = u) as -> by lia. inversion X as [? ? ? ? ? H3 H4|? ? ? ? ? H]; subst.
  - cbn [x_lower] in H4. destruct (empty_constrained _ _ _ _ H4) as [-> X']. split; [reflexivity|]. intros b. now apply xl_constrained.
  - cbn in H. lia.
Qed.
Lemma fixed_inv lb ub n : fixed lb ub = Some n -> lb = Some n /\ ub = Some n /\ n < 65536.
Proof.
  unfold fixed. destruct lb as [l|], ub as [u|]; try discriminate. destruct ((l =? u) && (u <? 65536)) eqn:C; [|discriminate].
  intros Q. injection Q as <-. assert (l = u) by lia. subst. repeat split. lia.
Qed.
Lemma empty_string {A} (ser : list A -> list bool) short lb ub l : fixed lb ub = Some 0 -> ser [] = [] -> 0 <= short ->
  empty_form (x_string ser short lb ub l).
Proof.
  intros H HS H0 a e X. apply fixed_inv in H as (-> & -> & _). inversion X; subst; try lia.
  - apply zlen_zero in H2 as ->. rewrite HS. split; [reflexivity|]. intros b. rewrite <- HS. now apply xt_fixed_short.
  - cbn in *. lia.
  - cbn in *. lia.
  - discriminate.
Qed.
Lemma aligned_characters lb ub l :
  match fixed lb ub with Some n => 2 <? n | None => aligned_size lb ub end = true -> size_sane lb ub ->
  aligned_form (x_characters lb ub l).
Proof.
  intros H HS a e X. destruct X as [lb ub l a e H1 X|lb u l a e H1 H2 X].
  - destruct (aligned_string _ _ _ _ _ H ltac:(lia) _ _ X) as (e' & -> & X'). exists e'. split; [reflexivity|].
    intros b. now apply xch_aligned.
  - exfalso. unfold size_sane in HS. unfold fixed in H. destruct lb as [l0|]; cbn in H1.
    + replace (l0 =? u) with false in H by lia. cbn in H. unfold aligned_range in H. destruct (u <? 65536) eqn:D; lia.
    + cbn in H. unfold aligned_range in H. destruct (u <? 65536) eqn:D; lia.
Qed.
Lemma empty_characters lb ub l : fixed lb ub = Some 0 -> empty_form (x_characters lb ub l).
Proof.
  intros H a e X. destruct X as [lb ub l a e H1 X|lb u l a e H1 H2 X].
  - destruct (empty_string bytes_bits 2 _ _ l H eq_refl ltac:(lia) _ _ X) as (-> & X'). split; [reflexivity|].
    intros b. now apply xch_aligned.
  - apply fixed_inv in H as (-> & Q & _). injection Q as ->. cbn in H1. lia.
Qed.

Lemma length_aligned lb u n a e : u < 65536 -> 255 <= u - opt0 lb -> x_length lb (Some u) n a e -> (a + zlen e) mod 8 = 0.
Proof.
  apply (bounded_aligned bits_id (get_bitvec release_env) any_list). intros a0 l0 _. now apply reads_bitvec.
Qed.
Lemma str_content_bits lb ub l a e : str_regular 2 lb ub l -> size_within lb ub (zlen l) -> zlen l < 16384 -> x_string bytes_bits 2 lb ub l a e ->
  e = len_bits a lb ub false (zlen l) ++ (if 2 <? zlen l then pad (a + zlen (len_bits a lb ub false (zlen l))) else []) ++ bytes_bits l.
Proof.
  intros [HS HR] HW HN X.
  assert (forall n, zlen l = n -> x_lower lb = n -> ub = Some n -> n < 65536 ->
    len_bits a lb ub false (zlen l) = []) as HF.
  { intros n H1 H2 -> H3. assert (x_length lb (Some n) (zlen l) a []) as XL.
    { apply xl_constrained; [assumption|]. rewrite H1, H2. constructor. }
    apply x_length_ok in XL; [|assumption]. destruct XL as [XL <-]. reflexivity. }
  destruct X as [lb n l a H1 H2 H3|lb n l a H1 H2 H3|lb u l a e H1 H2 H3 H4|lb u a e H1 H2 H3|lb ub l a e H1 H2].
  - rewrite (HF n H2 H1 eq_refl ltac:(lia)). replace (2 <? zlen l) with false by lia. reflexivity.
  - rewrite (HF n H2 H1 eq_refl ltac:(lia)). replace (2 <? zlen l) with true by lia. cbn [app].
    change (zlen (@nil bool)) with 0. now rewrite Z.add_0_r, x_pad_pad.
  - pose proof (x_length_ok _ _ _ _ _ HS H3) as [HO Q]. rewrite <- Q. f_equal. f_equal. rewrite x_pad_pad.
    destruct (2 <? zlen l) eqn:C; [reflexivity|]. apply pad_nil.
    assert (zlen l > 0) by (destruct l; [congruence|rewrite zlen_cons; pose proof (zlen_nonneg l); lia]).
    destruct (HR H1) as [_ HR']. change (x_lower lb) with (opt0 lb) in H2. eapply length_aligned; [exact H1| |exact H3]. lia.
  - change (zlen (@nil Z)) with 0 in *. pose proof (x_length_ok _ _ _ _ _ HS H3) as [HO Q]. rewrite <- Q. cbn. now rewrite app_nil_r.
  - assert (len_bits a lb ub false (zlen l) = indef_bits a (zlen l)) as Q.
    { unfold len_bits. destruct ub as [u|]; [|reflexivity]. cbn in H1. now rewrite H1. }
    rewrite Q. inversion H2 as [? ? e0 XL|k l1 l2 ? ? ? Hk HZ]; subst.
    + apply x_long_length_iff in XL as [Hn ->]. now rewrite if_pad_nil by (apply indef_aligned; lia).
    + rewrite zlen_app in HN. pose proof (zlen_nonneg l2). lia.
Qed.
Lemma utf8_bytes_ok l : utf8_text l -> bytes_ok l.
Proof.
  intros (text & H & ->). apply Forall_flat_map. eapply Forall_impl; [|exact H]. intros c Hc. unfold scalar_value, utf8_bytes in *.
  destruct (c <? 0x80) eqn:C1; [|destruct (c <? 0x800) eqn:C2; [|destruct (c <? 0x10000) eqn:C3]]; repeat constructor; lia.
Qed.
Lemma chars_reads E lb ub ext l a e : utf8_text l -> chars_regular lb ub l -> size_within lb ub (zlen l) -> zlen l < 16384 ->
  little_endian E = false \/ 2 < zlen l \/ l = [] \/ x_small_bound ub = false ->
  x_root ext (x_characters lb ub l) a e -> reads (decode_string E lb ub ext) a e l.
Proof.
  intros HU [HS HR] HW HN HE X. assert (e = str_bits a lb ub ext (zlen l) 2 (bytes_bits l)) as ->.
  { rewrite str_bits_split.
    assert (forall a e, x_characters lb ub l a e -> e = len_bits a lb ub false (zlen l) ++
      (if 2 <? zlen l then pad (a + zlen (len_bits a lb ub false (zlen l))) else []) ++ bytes_bits l) as HX.
    { clear -HS HR HW HN. intros a e X. destruct X as [lb ub l a e H1 X|lb u l a e H1 H2 X].
      - apply str_content_bits; auto. split; [assumption|]. destruct ub as [u|]; [|exact I]. intros HU. specialize (HR HU).
        specialize (H1 u eq_refl). change (x_lower lb) with (opt0 lb) in H1. split; [lia|]. destruct HS as [HS1 HS2]. cbn in HS2. unfold size_within in HW. lia.
      - apply x_length_ok in X; [|assumption]. destruct X as [_ ->]. replace (2 <? zlen l) with false by (unfold size_within in HW; lia). reflexivity. }
    destruct X as [a e -> X|a e -> X]; cbn [ext_bits app].
    - change (zlen (@nil bool)) with 0. rewrite Z.add_0_r. now apply HX.
    - change (zlen [false]) with 1. f_equal. now apply HX. }
  apply reads_string; try lia; auto.
  - now apply utf8_bytes_ok.
  - now apply utf8_valid_iff.
  - now apply within_lt.
  - destruct HE as [HE|[HE|[HE|HE]]]; auto. do 3 right. unfold str_content_pos, len_bits.
    destruct ub as [u|]; [cbn in HE; rewrite HE|]; apply indef_aligned; pose proof (zlen_nonneg l); lia.
Qed.

Lemma presence_length fs : forall vs, fits_fields fs vs -> length (x_presence fs vs) = length (optional_idxs fs).
Proof.
  induction fs as [|i t fs IH|key t fs IH]; intros [|o vs] H; cbn [fits_fields x_presence optional_idxs length] in *; try easy.
  - f_equal. auto.
  - destruct o; [auto|contradiction].
Qed.
Lemma presence_shows fs : forall vs bm k, fits_fields fs vs -> optional_idxs fs = map Z.of_nat (seq k (length (optional_idxs fs))) ->
  skipn k bm = x_presence fs vs -> shows fs vs bm.
Proof.
  induction fs as [|i t fs IH|key t fs IH]; intros [|o vs] bm k H HN HB; cbn [fits_fields x_presence optional_idxs length shows] in *; try easy.
  - cbn [seq map] in HN. injection HN as -> HN. rewrite Nat2Z.id. split.
    + clear -HB. unfold present in HB. revert k HB. induction bm as [|b bm IH]; intros [|k] HB; cbn in *; try discriminate; [congruence|auto].
    + apply (IH vs bm (S k) H HN). clear -HB. revert k HB. induction bm as [|b bm IH]; intros [|k] HB; cbn in *; try discriminate; [congruence|auto].
  - destruct o; [|contradiction]. eapply IH; eassumption.
Qed.
Lemma known_fits E k fs vs k' : x_known_fields E k fs vs k' -> fits_fields fs vs.
Proof. induction 1; cbn; auto. Qed.

Scheme x_known_ind' := Minimality for x_known Sort Prop
  with x_known_fields_ind' := Minimality for x_known_fields Sort Prop
  with x_known_list_ind' := Minimality for x_known_list Sort Prop.
Combined Scheme x_known_mutind from x_known_ind', x_known_fields_ind', x_known_list_ind'.

Lemma x_root_split ext (P : Z -> list bool -> Prop) (Q : Z -> list bool -> Prop) a e :
  (forall a e, P a e -> Q a e) -> x_root ext P a e -> x_root ext Q a e.
Proof. intros H X. destruct X; [apply xr_plain|apply xr_marked]; auto. Qed.

Lemma ustep_open E al n key x t v k' s' : alt_at al n = Some (key, x, t) -> first_with_key al n key ->
  (forall c, x_value t v 0 c -> 0 < zlen c <= 8 * 16383) ->
  ustep (x_value t v) (dec E t) v (Some key) k' false s' ->
  forall s, ustep (x_value (TOpen al) (VAlt n v)) (dec E (TOpen al)) (VAlt n v) (Some key) k' s true.
Proof.
  intros HA HN HB HS s a e z X Hz Hs. inversion X as [| | | | | | | | | |al' n' x' t' v' c octets a' e' HA' HC HO HF]; subst.
  destruct HA' as (key' & HA'). rewrite HA in HA'. injection HA' as <- <- <-.
  specialize (HB c HC). destruct (HS 0 c [] HC) as (c1 & z1 & Q & R & P & _); [now left|congruence|].
  cbn [app] in Q. change (0 - zlen (@nil bool)) with 0 in R. change (0 + zlen c) with (zlen c) in P.
  destruct HO as [HO HQ]. assert (c <> []) as HE by (intros ->; cbn in HB; lia).
  assert (bytes_bits octets = c ++ pad (zlen c)) as HQ' by (rewrite HQ, x_pad_pad; destruct c; [congruence|reflexivity]). clear HQ.
  assert (8 * zlen octets = zlen c + zlen (pad (zlen c))) as HL by (rewrite <- zlen_bytes_bits, HQ', zlen_app; reflexivity).
  rewrite zlen_pad in HL. inversion HF as [? ? e0 XL|kk l1 l2 ? ? ? Hk HZ]; subst;
    [|rewrite zlen_app in HL; pose proof (zlen_nonneg l2); lia].
  assert (ustep (x_long_length (zlen octets)) (decode_length_determinent E None None false) (zlen octets) (Some key) (Some key) s false) as SC.
  { apply (ustep_call _ _ _ _ (PLength None None false)).
    - intros a0 e1 X1. apply (x_length_reads E None None); [repeat split; lia|]. apply xl_unbounded; auto. cbn. pose proof (zlen_nonneg octets). lia.
    - intros _. apply aligned_long.
    - discriminate.
    - cbn. now rewrite andb_false_r. }
  destruct (SC a e0 z XL Hz Hs) as (c0 & z0 & Q0 & R0 & P0 & S0).
  assert (z0 = []) as -> by (destruct z0; [reflexivity|]; discriminate S0; discriminate). rewrite app_nil_r in Q0.
  exists (c0 ++ c1), (z1 ++ pad (zlen (c1 ++ z1))). split; [|split; [|split]].
  - rewrite HQ', app_assoc, Q0, <- !app_assoc. reflexivity.
  - cbn [dec]. eapply reads_key_bind; [exact R0|].
    intros p q Hp F. unfold bind at 1, get_key. cbn [CodecModel.key].
    rewrite (dec_alts_at E al n key x t 0 HA HN). change (0 + n)%nat with n.
    assert (zlen p mod 8 = 0 mod 8) as Hp0.
    { apply x_long_length_iff in XL as [Hn ->]. pose proof (indef_aligned _ a Hn). apply (f_equal zlen) in Q0. rewrite !zlen_app in Q0. lia. }
    unfold bind. rewrite (R p q Hp0 F). reflexivity.
  - apply x_long_length_iff in XL as [Hn ->]. pose proof (indef_aligned _ a Hn).
    rewrite (zlen_app (indef_bits _ _)), zlen_bytes_bits. right. destruct P as [->|(P1 & P2 & P3)].
    + cbn [app]. split; [lia|]. split; [rewrite zlen_pad; lia|]. apply Forall_forall. intros b Hb. unfold pad in Hb. now apply repeat_spec in Hb.
    + rewrite pad_zero by lia. rewrite app_nil_r. split; [lia|]. auto.
  - reflexivity.
Qed.

Theorem x_decodes E :
  (forall k t v k', x_known E k t v k' -> x_numbered t -> forall s s', flow_of t v s = Some s' -> ustep (x_value t v) (dec E t) v k k' s s') /\
  (forall k fs vs k', x_known_fields E k fs vs k' -> x_numbered_fields fs -> forall bm s s', shows fs vs bm -> flow_of_fields fs vs s = Some s' ->
     ustep (x_components fs vs) (dec_fields E bm fs) vs k k' s s') /\
  (forall k t l k', x_known_list E k t l k' -> x_numbered t -> forall s s', flow_each (flow_of t) l s = Some s' -> l <> [] ->
     forall count acc, ustep (x_elements t l) (seqof_loop (length l) (dec E t) count (count + zlen l) acc) (acc ++ l) k k' s s').
Proof.
  apply x_known_mutind; intros.
  - (* BOOLEAN *) cbn [flow_of] in H0. destruct s; [discriminate|]. injection H0 as <-. cbn [dec].
    eapply ustep_map; [|intros a; apply reads_key_ret].
    apply (ustep_call _ _ _ _ PBool); [|discriminate..|reflexivity].
    intros a e X. inversion X; subst. apply reads_bool.
  - cbn [flow_of] in H0. injection H0 as <-. cbn [dec]. apply ustep_pure; [|intros; apply reads_key_ret].
    intros a e X. now inversion X.
  - (* INTEGER *) cbn [flow_of] in H3. cbn [dec]. eapply (ustep_map _ _ _ (z, false)); [|intros a; cbn [fst]; rewrite H1; apply reads_key_ret].
    eapply (ustep_imp (x_root ext (x_root_integer lb ub z))); [intros a e X; now inversion X|].
    eapply ustep_call; [| | |exact H3].
    + intros a e X. apply x_int_reads; auto. now apply readable.
    + cbn. destruct ext; [discriminate|]. intros HA. now apply aligned_root, aligned_integer.
    + cbn. destruct lb as [l|]; [|discriminate]. destruct ub as [u|]; [|discriminate]. destruct ext; [discriminate|]. intros HA.
      assert (l = u) as -> by lia. apply empty_root. intros a e X. inversion X as [l' u' v' a' e' X1| |]; subst.
      destruct (empty_constrained _ _ _ _ X1) as [-> X']. split; [reflexivity|]. intros b. now apply xi_constrained.
  - (* ENUMERATED *) cbn [flow_of] in H2. cbn [dec]. eapply (ustep_map _ _ _ (z, false)); [|intros a; cbn [fst]; rewrite H0; apply reads_key_ret].
    eapply (ustep_imp (x_root ext (x_constrained lb ub z))); [intros a e X; now inversion X|].
    eapply ustep_call; [| | |exact H2].
    + intros a e X. apply x_enum_reads; auto.
      * unfold int_readable. destruct X as [a e _ X|a e _ X]; apply x_con_range in X; unfold int_regular, i128 in *; lia.
      * eapply x_root_split; [|exact X]. intros. now apply xi_constrained.
    + cbn. destruct ext; [discriminate|]. intros HA. now apply aligned_root, aligned_constrained.
    + cbn. destruct ext; [discriminate|]. intros HA. assert (lb = ub) as -> by lia. apply empty_root, empty_constrained.
  - (* BIT STRING *) cbn [flow_of] in H1. cbn [dec]. eapply ustep_map; [|intros a; apply reads_key_ret].
    eapply (ustep_imp (x_root ext (x_string bits_id 16 lb ub l))); [intros a e X; now inversion X|].
    eapply ustep_call; [| | |exact H1].
    + intros a e X. now apply x_bitstring_reads.
    + cbn. destruct ext; [discriminate|]. intros HA. apply aligned_root, aligned_string; [assumption|lia].
    + cbn. destruct ext; [discriminate|]. destruct (fixed lb ub) as [n|] eqn:F; [|discriminate]. intros HA. assert (n = 0) as -> by lia.
      apply empty_root, empty_string; [assumption|reflexivity|lia].
  - (* OCTET STRING *) cbn [flow_of] in H2. cbn [dec]. eapply ustep_map; [|intros a; apply reads_key_ret].
    eapply (ustep_imp (x_root ext (x_string bytes_bits 2 lb ub l))); [intros a e X; now inversion X|].
    eapply ustep_call; [| | |exact H2].
    + intros a e X. now apply x_octetstring_reads.
    + cbn. destruct ext; [discriminate|]. intros HA. apply aligned_root, aligned_string; [assumption|lia].
    + cbn. destruct ext; [discriminate|]. destruct (fixed lb ub) as [n|] eqn:F; [|discriminate]. intros HA. assert (n = 0) as -> by lia.
      apply empty_root, empty_string; [assumption|reflexivity|lia].
  - (* character string *) cbn [flow_of] in H5. cbn [dec]. eapply ustep_map; [|intros a; apply reads_key_ret].
    eapply (ustep_imp (x_root ext (x_characters lb ub l))); [intros a e X; now inversion X|].
    eapply ustep_call; [| | |exact H5].
    + intros a e X. now apply chars_reads.
    + cbn. destruct ext; [discriminate|]. intros HA. apply aligned_root, aligned_characters; [assumption|apply H0].
    + cbn. destruct ext; [discriminate|]. destruct (fixed lb ub) as [n|] eqn:F; [|discriminate]. intros HA. assert (n = 0) as -> by lia.
      apply empty_root, empty_characters. assumption.
  - (* SEQUENCE *) cbn [flow_of] in H2. cbn [x_numbered] in H1. destruct H1 as (N1 & N2 & N3). cbn [dec].
    pose proof (known_fits _ _ _ _ _ H) as HF.
    assert (zlen (x_presence fs vs) = n) as HL.
    { unfold zlen. rewrite (presence_length _ _ HF), N2, map_length, seq_length. lia. }
    assert (shows fs vs (x_presence fs vs)) as HSh.
    { apply (presence_shows fs vs _ 0 HF); [|reflexivity]. rewrite N2 at 1. now rewrite N2, map_length, seq_length. }
    assert (exists s1, ustep (x_root ext (fun _ h => h = x_presence fs vs)) (decode_sequence_header E ext n) (x_presence fs vs, false) k k s s1 /\
      flow_of_fields fs vs s1 = Some s') as (s1 & SC & FF).
    { assert (forall a e, x_root ext (fun _ h => h = x_presence fs vs) a e -> reads (decode_sequence_header E ext n) a e (x_presence fs vs, false)) as HR.
      { intros a e X. pose proof (reads_seqhdr E a ext (x_presence fs vs)) as R. rewrite HL in R.
        destruct X as [a e -> ->|a e -> ->]; exact R. }
      destruct (ext || (0 <? n)) eqn:C.
      - destruct s; [discriminate|]. exists false. split; [|assumption].
        apply (ustep_call _ _ _ _ (PSeqHeader ext n)); [exact HR|discriminate..|reflexivity].
      - exists s. split; [|assumption]. assert (ext = false) as -> by (destruct ext; [discriminate|reflexivity]).
        assert (n = 0) as -> by (cbn in C; lia). apply zlen_zero in HL. rewrite HL in *.
        apply ustep_pure.
        + intros a e X. destruct X as [a e _ ->|a e D _]; [reflexivity|discriminate].
        + intros a. apply reads_key_of, HR. now apply xr_plain. }
    eapply (ustep_bind _ (x_components fs vs)); [|exact SC|].
    + intros a e X. inversion X; subst. eauto.
    + cbn [fst]. eapply ustep_map; [apply H0; eassumption|]. intros a. apply reads_key_ret.
  - (* SEQUENCE OF *) cbn [flow_of] in H4. cbn [x_numbered] in H3. cbn [dec].
    destruct (call_flow (PLength lb ub false) s) as [s0|] eqn:CF; [|discriminate].
    assert (ustep (x_length lb ub (zlen l)) (decode_length_determinent E lb ub false) (zlen l) k k s s0) as SC.
    { eapply ustep_call; [| | |exact CF].
      - intros a e X. now apply x_length_reads.
      - cbn. intros HA. now apply aligned_length.
      - cbn. intros HA. apply empty_length. intros Q. rewrite Q in HA. discriminate. }
    eapply (ustep_bind _ (x_elements t l)); [|exact SC|].
    { intros a e X. inversion X as [| | | | | | | |lb' ub' ext' t' l' a' h e' X1 X2| |]; subst. exists h, e'. split; [reflexivity|].
      split; [|assumption]. inversion X1; subst; [assumption|discriminate]. }
    specialize (H2 H3 s0 s' H4 H 0 []). cbn [app Z.add] in H2.
    eapply ustep_dec; [|apply (ustep_map _ _ (fun items => ret (VList items)) _ (VList l) _ _ _ _ _ H2); intros a; apply reads_key_ret].
    intros d d'. unfold bind, loop_fuel. destruct (seqof_loop (length l) (dec E t) 0 (zlen l) [] d) as [[items| | |] d1] eqn:EL; try discriminate.
    match goal with |- context [seqof_loop ?f _ _ _ _ _] =>
      rewrite (seqof_mono (dec E t) (length l) f 0 (zlen l) [] d items d1) by (assumption || (unfold zlen; lia)) end. auto.
  - (* CHOICE *) cbn [flow_of] in H5. cbn [x_numbered] in H4. destruct H4 as [N1 N2]. cbn [dec].
    destruct (N1 _ _ _ H0) as (-> & -> & ->).
    destruct (call_flow (PChoice 0 (x_root_alternatives al - 1) ext) s) as [s0|] eqn:CF; [|discriminate].
    rewrite (flow_of_alt_at _ _ _ _ _ _ _ H0) in H5.
    eapply (ustep_bind (x_root ext (x_constrained 0 (x_root_alternatives al - 1) (x_index al n))) (x_value t v) _ _ _ (x_index al n, false)).
    + intros a e X. inversion X as [| | | | | | | | |lb' ub' ext' al' n' t' v' a' h e' X1 X2 X3|]; subst.
      destruct X1 as (key' & X1). rewrite H0 in X1. injection X1 as _ <-. eauto.
    + eapply ustep_call; [| | |exact CF].
      * intros a e X. now apply x_choice_reads.
      * cbn. destruct ext; [discriminate|]. intros HA. now apply aligned_root, aligned_constrained.
      * unfold empty_call. destruct ext; [discriminate|]. intros HA. assert (x_root_alternatives al - 1 = 0) as -> by lia. apply empty_root, empty_constrained.
    + cbn [fst snd negb]. rewrite (dec_alts_at _ _ _ _ _ _ _ H0 H1). change (0 + n)%nat with n.
      eapply ustep_map; [apply H3; eauto using numbered_at|]. intros a. apply reads_key_ret.
  - (* open type *) cbn [flow_of] in H5. cbn [x_numbered] in H4. rewrite (flow_of_alt_at _ _ _ _ _ _ _ H) in H5. destruct (flow_of t v false) as [s1|] eqn:F1; [|discriminate]. injection H5 as <-.
    eapply ustep_open; eauto using numbered_at.
  - cbn [flow_of_fields] in H1. injection H1 as <-. cbn [dec_fields]. apply ustep_pure; [intros a e X; now inversion X|intros a; apply reads_key_ret].
  - cbn [shows] in H2. destruct H2 as [HB HSh]. cbn [flow_of_fields] in H3.
    cbn [x_numbered_fields] in H1. cbn [dec_fields]. rewrite HB.
    eapply (ustep_bind (fun _ e => e = []) (x_components fs vs)); [|apply (ustep_pure _ (ret None) None k k s); [auto|intros; apply reads_key_ret]|].
    { intros a e X. inversion X; subst. exists [], e. split; [reflexivity|]. split; [reflexivity|]. change (zlen (@nil bool)) with 0. now rewrite Z.add_0_r. }
    eapply ustep_map; [|intros a; apply reads_key_ret]. apply H0; [tauto|assumption..].
  - cbn [shows] in H4. destruct H4 as [HB HSh]. cbn [flow_of_fields] in H5. destruct (flow_of t v s) as [s1|] eqn:F1; [|discriminate].
    cbn [x_numbered_fields] in H3. cbn [dec_fields]. rewrite HB.
    eapply (ustep_bind (x_value t v) (x_components fs vs)); [|eapply ustep_map; [apply H0; [tauto|exact F1]|intros a; apply (reads_key_ret (Some v))]|].
    { intros a e X. inversion X; subst. eauto. }
    eapply ustep_map; [|intros a; apply reads_key_ret]. apply H2; [tauto|assumption..].
  - cbn [shows] in H4. cbn [flow_of_fields] in H5. destruct (flow_of t v s) as [s1|] eqn:F1; [|discriminate].
    cbn [x_numbered_fields] in H3. cbn [dec_fields].
    eapply (ustep_bind (x_value t v) (x_components fs vs)); [|apply H0; [tauto|exact F1]|].
    { intros a e X. inversion X; subst. eauto. }
    eapply (ustep_bind (fun _ e => e = []) (x_components fs vs)); [|apply (ustep_pure _ (ret tt) tt k1 k1 s1); [auto|intros; apply reads_key_ret]|].
    { intros a e X. exists [], e. split; [reflexivity|]. split; [reflexivity|]. change (zlen (@nil bool)) with 0. now rewrite Z.add_0_r. }
    eapply ustep_map; [|intros a; apply reads_key_ret]. apply H2; [tauto|assumption..].
  - cbn [shows] in H5. cbn [flow_of_fields] in H6. destruct (flow_of t (VI z) s) as [s1|] eqn:F1; [|discriminate].
    cbn [x_numbered_fields] in H4. cbn [dec_fields].
    eapply (ustep_bind (x_value t (VI z)) (x_components fs vs)); [|apply H1; [tauto|exact F1]|].
    { intros a e X. inversion X; subst. eauto. }
    eapply (ustep_bind (fun _ e => e = []) (x_components fs vs)); [|apply (ustep_pure _ _ tt k1 (Some z) s1); [auto|]|].
    { intros a e X. exists [], e. split; [reflexivity|]. split; [reflexivity|]. change (zlen (@nil bool)) with 0. now rewrite Z.add_0_r. }
    + intros a p q Hp F. unfold set_key_val, set_key.
      assert (as_i128 z = z) as -> by (unfold as_i128; apply wrap_s_small; [lia|]; unfold i128 in H; lia).
      cbn [app bits off]. rewrite zlen_nil, Z.add_0_r. reflexivity.
    + eapply ustep_map; [|intros a; apply reads_key_ret]. apply H3; [tauto|assumption..].
  - congruence.
  - cbn [each length seqof_loop flow_each] in *. destruct (flow_of t v s) as [s1|] eqn:F1; [|discriminate].
    eapply (ustep_bind (x_value t v) (x_elements t l)); [|apply H0; [assumption|exact F1]|].
    { intros a e X. inversion X; subst. eauto. }
    rewrite zlen_cons. destruct l as [|w l].
    + cbn [flow_each] in H4. injection H4 as <-. inversion H1; subst. rewrite zlen_nil. replace (count + 1 =? count + (1 + 0)) with true by lia.
      apply ustep_pure; [intros a e X; now inversion X|]. intros a. apply reads_key_ret.
    + rewrite zlen_cons. pose proof (zlen_nonneg l).
      replace (count + 1 =? count + (1 + (1 + zlen l))) with false by lia.
      replace (acc ++ v :: w :: l) with ((acc ++ [v]) ++ w :: l) by now rewrite <- app_assoc.
      replace (count + (1 + (1 + zlen l))) with (count + 1 + zlen (w :: l)) by (rewrite zlen_cons; lia).
      apply (H2 H3 s1 s'); auto. discriminate.
Qed.
