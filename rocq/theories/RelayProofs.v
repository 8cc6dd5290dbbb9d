(* What a derived decoder returns can be encoded again. *)
From Coq Require Import ZArith List Bool Lia.
From Coq Require Import ZifyBool ZifyNat ZifyN.
Require Import Verif.Base Verif.CodecModel Verif.BitLemmas Verif.Spec Verif.Combinators.
Require Import Verif.LengthProofs Verif.IntegerProofs Verif.StringProofs Verif.Local Verif.Ranges Verif.Loops Verif.Frame Verif.Safety Verif.Api Verif.ApiProofs Verif.AcceptProofs Verif.ApiSpec Verif.MiscProofs Verif.CodecFacts.
Require Import Verif.DeriveModel Verif.DeriveSpec Verif.DeriveProofs Verif.DeriveFacts Verif.DeriveInversion Verif.X691 Verif.X691Spec Verif.X691Proofs Verif.X691Facts Verif.RelaySpec.
Import ListNotations.
Open Scope Z_scope.
Ltac Zify.zify_post_hook ::= Z.div_mod_to_equations.

(* ---- numbers ---- *)
Lemma cast_range i z : small_int i -> lowest i <= cast i z <= highest i.
Proof.
  unfold small_int, lowest, highest, cast. intros W. destruct (signed i).
  - pose proof (wrap_s_range (width i) z ltac:(lia)). lia.
  - pose proof (wrap_u_range (width i) z ltac:(lia)). lia.
Qed.
Lemma cast_id i z : small_int i -> lowest i <= z <= highest i -> cast i z = z.
Proof.
  unfold small_int, lowest, highest, cast. intros W H. destruct (signed i); [apply wrap_s_small|apply wrap_u_small]; lia.
Qed.
Lemma small_int_bounds i : small_int i -> - 2 ^ 63 <= lowest i /\ highest i < 2 ^ 64.
Proof.
  unfold small_int, lowest, highest. intros W. destruct (signed i).
  - assert (2 ^ (width i - 1) <= 2 ^ 63) by (apply Z.pow_le_mono_r; lia). lia.
  - assert (2 ^ width i <= 2 ^ 64) by (apply Z.pow_le_mono_r; lia). lia.
Qed.
Lemma as_i128_cast i z : small_int i -> as_i128 (cast i z) = cast i z.
Proof.
  intros W. pose proof (cast_range i z W). pose proof (small_int_bounds i W). unfold as_i128. apply wrap_s_small; lia.
Qed.

(* ---- strings ---- *)
Lemma returns_octets_loop E x lb ub f : forall acc, bytes_ok acc -> returns (octetstring_loop f E x lb ub acc) bytes_ok.
Proof.
  induction f as [|f IH]; intros acc H; cbn [octetstring_loop]; [apply returns_diverge|].
  eapply returns_bind; [apply returns_any|intros n _].
  eapply returns_bind with (P := bytes_ok).
  - destruct (0 <? n); [|now apply returns_ret]. eapply returns_bind; [apply returns_any|intros _ _].
    eapply returns_bind with (P := bytes_ok); [|intros l Hl; apply returns_ret, Forall_app; auto].
    unfold get_bytes. do 4 (eapply returns_bind; [apply returns_any|intros ? _]).
    destruct (_ <? _); [eapply returns_bind; [apply returns_any|intros ? _; apply returns_err]|].
    do 2 (eapply returns_bind; [apply returns_any|intros ? _]). apply returns_ret, pack_bytes_ok.
  - intros acc' H'. destruct (16384 <=? n); [now apply IH|now apply returns_ret].
Qed.
Lemma returns_octets E lb ub ext : returns (decode_octetstring E lb ub ext) bytes_ok.
Proof.
  unfold decode_octetstring. do 2 (eapply returns_bind; [apply returns_any|intros ? _]). apply returns_octets_loop. constructor.
Qed.
Lemma scalar_bytes c : scalar_value c -> bytes_ok (utf8_bytes c).
Proof.
  unfold scalar_value, utf8_bytes, bytes_ok. intros H.
  repeat match goal with |- context [if ?b then _ else _] => destruct b eqn:? end; repeat constructor; lia.
Qed.
Lemma text_bytes l : utf8_text l -> bytes_ok l.
Proof.
  intros (cs & H & ->). induction H as [|c cs Hc _ IH]; cbn [flat_map]; [constructor|]. apply Forall_app. split; [now apply scalar_bytes|exact IH].
Qed.

(* ---- alternatives ---- *)
Lemma sound_at al : sound_alts al -> forall n key x t, alt_at al n = Some (key, x, t) -> sound_ty t.
Proof.
  induction al as [|k x t al IH]; intros H n key y u A; [destruct n; discriminate|]. destruct H as [H1 H2].
  destruct n as [|n]; cbn [alt_at] in A; [injection A as _ _ <-; exact H1|eauto].
Qed.
Lemma within_at E al : forall n v key x t, alt_at al n = Some (key, x, t) -> within_alt E al n v -> within E t v.
Proof.
  induction al as [|k y u al IH]; intros n v key x t A W; [destruct n; discriminate|].
  destruct n as [|n]; cbn [alt_at within_alt] in *; [injection A as _ _ <-; exact W|eauto].
Qed.
Lemma keys_at al : forall n key, In key (firstn n (alt_keys al)) -> exists j x t, (j < n)%nat /\ alt_at al j = Some (key, x, t).
Proof.
  induction al as [|k x t al IH]; intros [|n] key H; cbn [alt_keys firstn] in H; try contradiction.
  destruct H as [->|H]; [exists 0%nat, x, t; split; [lia|reflexivity]|].
  destruct (IH _ _ H) as (j & y & u & Hj & A). exists (S j), y, u. split; [lia|exact A].
Qed.
Lemma unmatched_first al n key : (forall j x t, (j < n)%nat -> alt_at al j <> Some (key, x, t)) -> first_with_key al n key.
Proof. intros H K. destruct (keys_at _ _ _ K) as (j & x & t & Hj & A). exact (H _ _ _ Hj A). Qed.

(* ---- whole types ---- *)
Definition relays E t : Prop := forall s v s', dec E t s = (Ok v, s') -> within E t v -> carries E (key s) t v (key s').
Definition relays_fields E fs : Prop := forall bm s vs s', dec_fields E bm fs s = (Ok vs, s') -> within_fields E fs vs ->
  carries_fields E (key s) fs vs (key s').
Definition relays_alts E al : Prop := forall n key x t, alt_at al n = Some (key, x, t) -> relays E t.
Lemma key_after {A} (m : M A) s r s' : keeps m -> m s = (r, s') -> key s' = key s.
Proof. intros K H. specialize (K s). rewrite H in K. exact K. Qed.
Ltac step H n s1 Q := unfold bind at 1 in H; match type of H with context [match ?m with (_, _) => _ end] => destruct m as [[n| | |] s1] eqn:Q; try discriminate end.
Lemma relays_list E t : relays E t -> forall s l s', decodes_in_order (dec E t) s l s' -> Forall (within E t) l -> carries_list E (key s) t l (key s').
Proof.
  intros R s l s' D. induction D as [|s s1 s' v l H D IH]; intros F; [constructor|]. inversion F; subst.
  eapply KL_cons; [exact (R _ _ _ H ltac:(assumption))|auto].
Qed.
Lemma decoded_carries E : (forall t, sound_ty t -> relays E t) /\ (forall fs, sound_fields fs -> relays_fields E fs) /\ (forall al, sound_alts al -> relays_alts E al).
Proof.
  apply ty_mutind.
  - intros _ s v s' H _. cbn [dec] in H. step H b s1 Q. injection H as <- <-. rewrite (key_after _ _ _ _ (keeps_bool E) Q). constructor.
  - intros _ s v s' H _. cbn [dec] in H. injection H as <- <-. constructor.
  - intros _ s v s' H _. discriminate.
  - intros lb ub ext i S s v s' H W. cbn [dec] in H. step H b s1 Q. injection H as <- <-. rewrite (key_after _ _ _ _ (keeps_integer E _ _ _) Q).
    constructor; [exact W|]. cbn [sound_ty] in S. apply cast_id; [exact S|]. now apply cast_range.
  - intros lb ub ext i S s v s' H W. cbn [dec] in H. step H b s1 Q. injection H as <- <-. rewrite (key_after _ _ _ _ (keeps_enum E _ _ _) Q).
    constructor; [exact W|]. cbn [sound_ty] in S. apply cast_id; [exact S|]. now apply cast_range.
  - intros lb ub ext S s v s' H W. cbn [dec] in H. step H b s1 Q. injection H as <- <-.
    assert (K : keeps (decode_bitstring E lb ub ext)) by (unfold decode_bitstring; kp2; first [apply keeps_ext_bit|apply keeps_bits_loop]).
    rewrite (key_after _ _ _ _ K Q). constructor. exact W.
  - intros lb ub ext S s v s' H W. cbn [dec] in H. step H b s1 Q. injection H as <- <-.
    assert (K : keeps (decode_octetstring E lb ub ext)) by (unfold decode_octetstring; kp2; first [apply keeps_ext_bit|apply keeps_octets_loop]).
    rewrite (key_after _ _ _ _ K Q). constructor. split; [exact (returns_octets _ _ _ _ _ _ _ Q)|exact W].
  - intros lb ub ext S s v s' H W. cbn [dec] in H. step H b s1 Q. injection H as <- <-.
    rewrite (key_after _ _ _ _ (keeps_string E _ _ _) Q). pose proof (string_utf8 _ _ _ _ _ _ _ Q) as U. constructor.
    destruct W as (W1 & W2 & W3). split; [now apply text_bytes|]. split; [now apply utf8_valid_iff|]. auto.
  - intros ext n fs IH (Hn & N & F & S) s v s' H W. cbn [dec] in H. step H h s1 Q. step H vs s2 Q2. injection H as <- <-.
    rewrite <- (key_after _ _ _ _ (keeps_seqhdr E _ _) Q). constructor; auto. exact (IH S _ _ _ _ Q2 W).
  - intros lb ub ext t IH S s v s' H W. destruct (seqof_decodes _ _ _ _ _ _ _ _ H) as (n & s1 & l & L & -> & Hn & N & D).
    rewrite <- (key_after _ _ _ _ (keeps_len E _ _ _) L). destruct W as [W1 W2]. constructor; [exact N| |now apply relays_list; [apply IH|..]].
    unfold length_within in W1. cbn [call_encodable]. destruct ext; exact W1.
  - intros lb ub ext al IH S s v s' H W. cbn [dec] in H. step H p s1 Q. destruct p as [idx e]. cbn [fst snd] in H. destruct e; cbn [negb] in H; [discriminate|].
    destruct (dec_alts_ok _ _ _ _ _ _ _ H) as (n & x & t & w & HA & -> & HD & HM). cbn [Nat.add] in *.
    rewrite <- (key_after _ _ _ _ (keeps_choice_idx E _ _ _) Q). destruct W as [(key & t' & A' & W1) W2]. assert (key = idx /\ x = false /\ t' = t) as (-> & -> & ->) by (rewrite HA in A'; now injection A').
    econstructor; [exact HA|now apply unmatched_first|exact W1|]. exact (IH S _ _ _ _ HA _ _ _ HD (within_at _ _ _ _ _ _ _ HA W2)).
  - intros al IH S s v s' H W. cbn [dec] in H. step H len s1 L. pose proof (key_after _ _ _ _ (keeps_len E _ _ _) L) as K.
    step H k s2 G. unfold get_key in G. injection G as <- <-. destruct (key s1) as [key|] eqn:KK; [|discriminate].
    destruct (dec_alts_ok _ _ _ _ _ _ _ H) as (n & x & t & w & HA & -> & HD & HM). cbn [Nat.add] in *. destruct W as [W1 W2].
    destruct (W1 _ _ _ HA) as (d & Hd & Hs). rewrite <- K.
    econstructor; [exact HA|now apply unmatched_first| |exact Hd|exact Hs]. rewrite <- KK. exact (IH S _ _ _ _ HA _ _ _ HD (within_at _ _ _ _ _ _ _ HA W2)).
  - intros _ bm s vs s' H _. cbn [dec_fields] in H. injection H as <- <-. constructor.
  - intros i t IHt fs IHf [S1 S2] bm s vs s' H W. cbn [dec_fields] in H. destruct (nth_error bm (Z.to_nat i)) as [p|]; [|discriminate].
    step H o s1 Q. step H os s2 Q2. injection H as <- <-. cbn [within_fields] in W. destruct W as [W1 W2]. specialize (IHf S2 _ _ _ _ Q2 W2).
    destruct p.
    + step Q v s3 Q3. injection Q as <- <-. econstructor; [exact (IHt S1 _ _ _ Q3 W1)|exact IHf].
    + injection Q as <- <-. constructor. exact IHf.
  - intros kf t IHt fs IHf (S0 & S1 & S2) bm s vs s' H W. cbn [dec_fields] in H. step H v s1 Q. step H u s2 Q2. step H os s3 Q3. injection H as <- <-.
    cbn [within_fields] in W. destruct W as [W1 W2]. specialize (IHf S2 _ _ _ _ Q3 W2). specialize (IHt S1 _ _ _ Q W1). destruct kf.
    + specialize (S0 eq_refl).
      assert (exists i z, small_int i /\ v = VI (cast i z)) as (i & z & Hi & ->).
      { destruct t; cbn [is_number] in S0; try contradiction; cbn [dec] in Q; step Q p s4 Q4; injection Q as <- <-; do 2 eexists; (split; [exact S1|reflexivity]). }
      unfold set_key_val, set_key in Q2. rewrite as_i128_cast in Q2 by assumption. injection Q2 as _ <-. econstructor; [exact IHt|]. cbn [key] in IHf. exact IHf.
    + injection Q2 as _ <-. econstructor; [exact IHt|exact IHf].
  - intros _ n key x t A. destruct n; discriminate.
  - intros k x t IHt al IHa [S1 S2] n key y u A. destruct n as [|n]; cbn [alt_at] in A; [injection A as _ _ <-; exact (IHt S1)|exact (IHa S2 _ _ _ _ A)].
Qed.

(* ---- the decoder stays within tight types ---- *)
Lemma power_small l u : power_range l u -> 0 <= u - l < 65536.
Proof.
  intros (k & Hk & H). assert (0 < 2 ^ k <= 2 ^ 16) by (split; [apply pow2_pos; lia|apply Z.pow_le_mono_r; lia]). change (2 ^ 16) with 65536 in *. lia.
Qed.
Lemma tight_number lb ub i v : small_int i ->
  match lb, ub with
  | Some l, Some u => i128 l /\ i128 u /\ u - l < 65536 /\ l <= v <= u
  | Some l, None => - 2 ^ 126 <= l <= lowest i
  | None, _ => highest i < 2 ^ 63
  end -> lowest i <= v <= highest i -> int_encodable lb ub v.
Proof.
  intros Hi H R. pose proof (small_int_bounds i Hi) as [R1 R2]. unfold int_encodable, i128 in *. split; [lia|].
  destruct lb as [l|]; [destruct ub as [u|]|]; lia.
Qed.
Lemma tight_integer E lb ub ext i s p s' : small_int i -> tight_int lb ub ext i ->
  decode_integer E lb ub ext s = (Ok p, s') -> int_encodable lb ub (cast i (fst p)).
Proof.
  intros Hi T H. pose proof (cast_range i (fst p) Hi) as R. apply (tight_number _ _ i); [exact Hi| |exact R].
  unfold tight_int in T. destruct lb as [l|]; [destruct ub as [u|]|]; [|exact T|exact T].
  destruct T as (Hl & Hu & [(-> & P & M1 & M2)|(M1 & M2 & P)]).
  - pose proof (power_small _ _ P). destruct P as (k & Hk & HP). destruct p as [z x]. cbn [fst] in *.
    pose proof (decode_int_pow_range _ _ _ _ _ _ _ _ Hl Hu Hk HP H). rewrite cast_id by (auto; lia). auto with zarith.
  - split; [exact Hl|]. split; [exact Hu|]. split; [exact P|]. lia.
Qed.
Lemma tight_enumerated E lb ub ext i s p s' : small_int i -> tight_int lb ub ext i ->
  decode_enumerated E lb ub ext s = (Ok p, s') -> int_encodable lb ub (cast i (fst p)).
Proof.
  intros Hi T H. destruct ext.
  - pose proof (cast_range i (fst p) Hi) as R. apply (tight_number _ _ i); [exact Hi| |exact R].
    unfold tight_int in T. destruct lb as [l|]; [destruct ub as [u|]|]; [|exact T|exact T].
    destruct T as (Hl & Hu & [(T & _)|(M1 & M2 & P)]); [discriminate|].
    split; [exact Hl|]. split; [exact Hu|]. split; [exact P|]. lia.
  - unfold decode_enumerated, decode_ext_bit in H. cbn [negb] in H. step H b s1 Q0. injection Q0 as <- <-. cbn [negb] in H. step H b s2 Q1.
    step Q1 q s3 Q2. injection Q1 as <- <-. injection H as <- <-. cbn [fst]. exact (tight_integer _ _ _ _ _ _ _ _ Hi T Q2).
Qed.
Lemma tight_length E lb ub s n s' : tight_size lb ub -> decode_length_determinent E lb ub false s = (Ok n, s') -> size_within lb ub n.
Proof.
  unfold tight_size, size_within, size_sane. intros T H. destruct ub as [u|].
  - destruct T as (T1 & T2 & P). pose proof (power_small _ _ P) as R. destruct P as (k & Hk & HP).
    assert (H' : decode_length_determinent E (Some (opt0 lb)) (Some u) false s = (Ok n, s')).
    { destruct lb as [l|]; [exact H|]. cbn [opt0]. unfold decode_length_determinent in *. rewrite (to_usize_ok 0) by lia. exact H. }
    destruct (decode_len_range _ (opt0 lb) u _ _ _ ltac:(lia) T2 H') as [L _]. rewrite HP, field_width_pow in L by assumption.
    destruct lb as [l|]; cbn [opt0] in *; lia.
  - pose proof (returns_len _ _ _ _ _ _ _ H). cbv beta in *. destruct lb as [l|]; cbn [opt0] in *; lia.
Qed.
Lemma returns_bitvec E n : returns (get_bitvec E n) (fun l => zlen l = n).
Proof.
  unfold get_bitvec. do 3 (eapply returns_bind; [apply returns_any|intros ? _]).
  destruct (_ <? _); [eapply returns_bind; [apply returns_any|intros ? _; apply returns_err]|].
  eapply returns_bind; [apply returns_slice|intros l Hl]. eapply returns_bind; [apply returns_any|intros ? _]. now apply returns_ret.
Qed.
Lemma returns_bytes E n : 0 <= n <= 131070 -> returns (get_bytes E n) (fun l => zlen l = n).
Proof.
  intros Hn. unfold get_bytes. eapply returns_bind; [apply returns_usize; lia|intros m ->]. do 3 (eapply returns_bind; [apply returns_any|intros ? _]).
  destruct (_ <? _); [eapply returns_bind; [apply returns_any|intros ? _; apply returns_err]|].
  eapply returns_bind; [apply returns_slice|intros l Hl]. eapply returns_bind; [apply returns_any|intros ? _]. apply returns_ret. cbv beta in Hl. rewrite zlen_pack, Hl. lia.
Qed.
Lemma bits_loop_once E x lb ub f : forall acc s l s', bitstring_loop f E x lb ub acc s = (Ok l, s') ->
  zlen acc <= zlen l /\ exists n s1, decode_frag_length E x lb ub s = (Ok n, s1) /\ (zlen l < 16384 -> zlen l = zlen acc + n).
Proof.
  induction f as [|f IH]; intros acc s l s' H; cbn [bitstring_loop] in H; [discriminate|].
  step H n s1 Q. step H acc' s2 Q2. pose proof (returns_frag _ _ _ _ _ _ _ Q) as R. cbv beta in R.
  assert (L : zlen acc' = zlen acc + n).
  { destruct (0 <? n) eqn:C; [|injection Q2 as <- <-; lia]. step Q2 u s3 Q3. step Q2 p s4 Q4. injection Q2 as <- <-.
    pose proof (returns_bitvec _ _ _ _ _ Q4) as P. cbv beta in P. rewrite zlen_app. lia. }
  pose proof (zlen_nonneg acc). destruct (16384 <=? n) eqn:C.
  - destruct (IH _ _ _ _ H) as [I1 _]. split; [lia|]. exists n, s1. split; [first [exact Q|reflexivity]|lia].
  - injection H as <- <-. split; [lia|]. exists n, s1. split; [first [exact Q|reflexivity]|lia].
Qed.
Lemma octets_loop_once E x lb ub f : forall acc s l s', octetstring_loop f E x lb ub acc s = (Ok l, s') ->
  zlen acc <= zlen l /\ exists n s1, decode_frag_length E x lb ub s = (Ok n, s1) /\ (zlen l < 16384 -> zlen l = zlen acc + n).
Proof.
  induction f as [|f IH]; intros acc s l s' H; cbn [octetstring_loop] in H; [discriminate|].
  step H n s1 Q. step H acc' s2 Q2. pose proof (returns_frag _ _ _ _ _ _ _ Q) as R. cbv beta in R.
  assert (L : zlen acc' = zlen acc + n).
  { destruct (0 <? n) eqn:C; [|injection Q2 as <- <-; lia]. step Q2 u s3 Q3. step Q2 p s4 Q4. injection Q2 as <- <-.
    pose proof (returns_bytes _ _ R _ _ _ Q4) as P. cbv beta in P. rewrite zlen_app. lia. }
  pose proof (zlen_nonneg acc). destruct (16384 <=? n) eqn:C.
  - destruct (IH _ _ _ _ H) as [I1 _]. split; [lia|]. exists n, s1. split; [first [exact Q|reflexivity]|lia].
  - injection H as <- <-. split; [lia|]. exists n, s1. split; [first [exact Q|reflexivity]|lia].
Qed.
Lemma chunks8_count l n : zlen l = 8 * n -> zlen (chunks8 l) = n.
Proof.
  intros H. destruct (bytes_bits_pack l) as (m & Hm & Hlt). pose proof (zlen_bytes_bits (pack l)) as Z. rewrite Hm, zlen_app, zlen_repeat, H in Z.
  assert (m = 0%nat) by lia. subst m. cbn [repeat] in Hm. rewrite app_nil_r in Hm. rewrite <- Hm, chunks8_bytes_bits. unfold zlen in *. rewrite map_length. lia.
Qed.
Lemma string_once E lb ub s l s' : decode_string E lb ub false s = (Ok l, s') -> exists s1, decode_length_determinent E lb ub false s = (Ok (zlen l), s1).
Proof.
  unfold decode_string, decode_ext_bit, decode_frag_length. intros H. step H x s0 Q0. injection Q0 as <- <-. step H n s1 Q. exists s1. try rewrite Q; do 2 f_equal.
  pose proof (returns_len _ _ _ _ _ _ _ Q) as R. cbv beta in R.
  step H m s2 Q2. apply returns_usize in Q2; [|lia]. cbv beta in Q2. subst m. step H u s3 Q3. step H hh s4 Q4. step H bv s5 Q5. pose proof (returns_bitvec _ _ _ _ _ Q5) as P. cbv beta in P.
  destruct (utf8_valid _); [|discriminate]. injection H as <- <-. unfold zlen at 1. rewrite map_length. symmetry. apply chunks8_count. lia.
Qed.
Lemma tight_at E al : tight_alts E al -> forall n key x t, alt_at al n = Some (key, x, t) -> tight E t.
Proof.
  induction al as [|k x t al IH]; intros H n key y u A; [destruct n; discriminate|]. destruct H as [H1 H2].
  destruct n as [|n]; cbn [alt_at] in A; [injection A as _ _ <-; exact H1|eauto].
Qed.
Lemma moderate_at E al : forall n v key x t, alt_at al n = Some (key, x, t) -> moderate_alt E al n v -> moderate E t v.
Proof.
  induction al as [|k y u al IH]; intros n v key x t A W; [destruct n; discriminate|].
  destruct n as [|n]; cbn [alt_at moderate_alt] in *; [injection A as _ _ <-; exact W|eauto].
Qed.
Lemma at_within E al : forall n v key x t, alt_at al n = Some (key, x, t) -> within E t v -> within_alt E al n v.
Proof.
  induction al as [|k y u al IH]; intros n v key x t A W; [destruct n; discriminate|].
  destruct n as [|n]; cbn [alt_at within_alt] in *; [injection A as _ _ <-; exact W|eauto].
Qed.
Lemma root_index E lb ub ext s idx s1 : decode_choice_idx E lb ub ext s = (Ok (idx, false), s1) ->
  exists s0 x s2, decode_integer E (Some lb) (Some ub) false s0 = (Ok (idx, x), s2).
Proof.
  unfold decode_choice_idx. destruct ext; intros H.
  - step H e s0 Q. destruct e; cbn [negb] in H; [step H i s2 Q2; discriminate|]. step H p s2 Q2. injection H as <- <-. destruct p as [z x]. exists s0, x, s2. exact Q2.
  - step H p s2 Q2. injection H as <- <-. destruct p as [z x]. exists s, x, s2. exact Q2.
Qed.
Definition stays E t : Prop := forall s v s', dec E t s = (Ok v, s') -> moderate E t v -> within E t v.
Definition stays_fields E fs : Prop := forall bm s vs s', dec_fields E bm fs s = (Ok vs, s') -> moderate_fields E fs vs -> within_fields E fs vs.
Definition stays_alts E al : Prop := forall n key x t, alt_at al n = Some (key, x, t) -> stays E t.
Lemma stays_list E t : stays E t -> forall s l s', decodes_in_order (dec E t) s l s' -> Forall (moderate E t) l -> Forall (within E t) l.
Proof.
  intros R s l s' D. induction D as [|s s1 s' v l H D IH]; intros F; [constructor|]. inversion F; subst.
  constructor; [exact (R _ _ _ H ltac:(assumption))|auto].
Qed.
Lemma decoded_within E : (forall t, sound_ty t -> tight E t -> stays E t) /\ (forall fs, sound_fields fs -> tight_fields E fs -> stays_fields E fs) /\
  (forall al, sound_alts al -> tight_alts E al -> stays_alts E al).
Proof.
  apply ty_mutind.
  - intros _ _ s v s' H _. cbn [dec] in H. step H b s1 Q. injection H as <- <-. exact I.
  - intros _ _ s v s' H _. exact I.
  - intros _ _ s v s' H _. exact I.
  - intros lb ub ext i S T s v s' H _. cbn [dec] in H. step H b s1 Q. injection H as <- <-. exact (tight_integer _ _ _ _ _ _ _ _ S T Q).
  - intros lb ub ext i S T s v s' H _. cbn [dec] in H. step H b s1 Q. injection H as <- <-. exact (tight_enumerated _ _ _ _ _ _ _ _ S T Q).
  - intros lb ub ext S [-> T] s v s' H M. cbn [dec] in H. step H b s1 Q. injection H as <- <-. cbn [moderate within] in *. split; [|exact M].
    unfold decode_bitstring in Q. step Q x s2 Q0. injection Q0 as <- <-. step Q f s3 Q0. injection Q0 as <- <-. destruct (bits_loop_once _ _ _ _ _ _ _ _ _ Q) as (_ & n & s4 & L & N).
    rewrite (N M). exact (tight_length _ _ _ _ _ _ T L).
  - intros lb ub ext S [-> T] s v s' H M. cbn [dec] in H. step H b s1 Q. injection H as <- <-. cbn [moderate within] in *. split; [|exact M].
    unfold decode_octetstring in Q. step Q x s2 Q0. injection Q0 as <- <-. step Q f s3 Q0. injection Q0 as <- <-. destruct (octets_loop_once _ _ _ _ _ _ _ _ _ Q) as (_ & n & s4 & L & N).
    rewrite (N M). exact (tight_length _ _ _ _ _ _ T L).
  - intros lb ub ext S (-> & T & W) s v s' H M. cbn [dec] in H. step H b s1 Q. injection H as <- <-. cbn [moderate within] in *.
    destruct (string_once _ _ _ _ _ _ Q) as (s2 & L). pose proof (tight_length _ _ _ _ _ _ T L) as Z. split; [exact Z|]. split; [left; exact M|].
    destruct W as [W|[W|W]]; auto. right. left. destruct Z as (_ & Z & _). lia.
  - intros ext n fs IH (Hn & N & F & S) T s v s' H M. cbn [dec] in H. step H h s1 Q. step H vs s2 Q2. injection H as <- <-.
    exact (IH S T _ _ _ _ Q2 M).
  - intros lb ub ext t IH S [T1 T2] s v s' H M. destruct (seqof_decodes _ _ _ _ _ _ _ _ H) as (n & s1 & l & L & -> & Hn & N & D). cbn [moderate within] in *.
    destruct M as [M1 M2]. split; [|exact (stays_list _ _ (IH S T2) _ _ _ D M2)]. unfold length_within. destruct ext.
    + destruct l; [congruence|]. unfold zlen in *. cbn [List.length] in *. lia.
    + split; [|left; exact M1]. rewrite Hn. exact (tight_length _ _ _ _ _ _ (T1 eq_refl) L).
  - intros lb ub ext al IH S (T1 & T2 & P & X & T) s v s' H M. cbn [dec] in H. step H p s1 Q. destruct p as [idx e]. cbn [fst snd] in H. destruct e; cbn [negb] in H; [discriminate|].
    destruct (dec_alts_ok _ _ _ _ _ _ _ H) as (n & x & t & w & HA & -> & HD & HM). cbn [Nat.add moderate within] in *.
    destruct (root_index _ _ _ _ _ _ _ Q) as (s0 & y & s2 & R). pose proof (power_small _ _ P) as Z. destruct P as (k & Hk & HP). pose proof (decode_int_pow_range _ _ _ _ _ _ _ _ T1 T2 Hk HP R) as B.
    split.
    + exists idx, t. split.
      * destruct x; [|exact HA]. destruct (keys_at _ _ _ (X _ _ _ HA B)) as (j & y' & u & Hj & A). destruct (HM _ _ _ Hj A).
      * unfold int_encodable, i128 in *. lia.
    + apply (at_within _ _ _ _ _ _ _ HA). exact (IH S T _ _ _ _ HA _ _ _ HD (moderate_at _ _ _ _ _ _ _ HA M)).
  - intros al IH S T s v s' H M. destruct (open_decodes _ _ _ _ _ H) as (len & s1 & key & n & x & t & w & L & K & HA & HD & ->). cbn [moderate within] in *. destruct M as [M1 M2].
    split; [exact M1|]. apply (at_within _ _ _ _ _ _ _ HA). exact (IH S T _ _ _ _ HA _ _ _ HD (moderate_at _ _ _ _ _ _ _ HA M2)).
  - intros _ _ bm s vs s' H _. exact I.
  - intros i t IHt fs IHf [S1 S2] [T1 T2] bm s vs s' H M. cbn [dec_fields] in H. destruct (nth_error bm (Z.to_nat i)) as [p|]; [|discriminate].
    step H o s1 Q. step H os s2 Q2. injection H as <- <-. cbn [within_fields moderate_fields] in *. destruct M as [M1 M2]. split; [|exact (IHf S2 T2 _ _ _ _ Q2 M2)].
    destruct p; [step Q v s3 Q3|]; injection Q as <- <-; [exact (IHt S1 T1 _ _ _ Q3 M1)|exact I].
  - intros kf t IHt fs IHf (S0 & S1 & S2) [T1 T2] bm s vs s' H M. cbn [dec_fields] in H. step H v s1 Q. step H u s2 Q2. step H os s3 Q3. injection H as <- <-.
    cbn [within_fields moderate_fields] in *. destruct M as [M1 M2]. split; [exact (IHt S1 T1 _ _ _ Q M1)|exact (IHf S2 T2 _ _ _ _ Q3 M2)].
  - intros _ _ n key x t A. destruct n; discriminate.
  - intros k x t IHt al IHa [S1 S2] [T1 T2] n key y u A. destruct n as [|n]; cbn [alt_at] in A; [injection A as _ _ <-; exact (IHt S1 T1)|exact (IHa S2 T2 _ _ _ _ A)].
Qed.

(* ---- the messages ---- *)
Lemma relay_value E t s bs v s' : flow_of t v false = Some s -> sound_ty t -> dec E t (from_slice bs) = (Ok v, s') -> within E t v ->
  exists d, enc E t v new_data = (Ok tt, d) /\ (zlen (bits d) < 2 ^ 60 -> fst (dec E t (from_slice (into_bytes d))) = Ok v).
Proof.
  intros F S D W. pose proof (proj1 (decoded_carries E) t S _ _ _ D W) as C. exact (agrees_bytes _ _ _ _ (derived_agrees E None t v _ s C F)).
Qed.
Lemma relay_tight E t s bs v s' : flow_of t v false = Some s -> sound_ty t -> tight E t -> dec E t (from_slice bs) = (Ok v, s') -> moderate E t v ->
  exists d, enc E t v new_data = (Ok tt, d) /\ (zlen (bits d) < 2 ^ 60 -> fst (dec E t (from_slice (into_bytes d))) = Ok v).
Proof.
  intros F S T D M. exact (relay_value _ _ _ _ _ _ F S D (proj1 (decoded_within E) t S T _ _ _ D M)).
Qed.
