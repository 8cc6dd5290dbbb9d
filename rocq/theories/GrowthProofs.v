(* The length of encodings (C66). *)
From Coq Require Import ZArith List Bool Lia.
Require Import Verif.Base Verif.BitLemmas Verif.CodecModel Verif.Spec Verif.Combinators Verif.IntegerProofs Verif.Loops Verif.DeriveModel Verif.DeriveSpec Verif.DeriveProofs Verif.DeriveFacts
  Verif.X691TypesSpec Verif.SizeSpec Verif.GrowthSpec.
Import ListNotations.
Open Scope Z_scope.

(* m appends at most hi bits, and at least lo if it succeeds *)
Definition adds {A} (m : M A) (lo hi : Z) : Prop := forall s r s', m s = (r, s') ->
  0 <= zlen (bits s') - zlen (bits s) <= hi /\ (forall x, r = Ok x -> lo <= zlen (bits s') - zlen (bits s)).
Lemma adds_more {A} (m : M A) lo hi lo' hi' : adds m lo hi -> lo' <= lo -> hi <= hi' -> adds m lo' hi'.
Proof. intros H H1 H2 s r s' Hm. destruct (H s r s' Hm) as [H3 H4]. split; [lia|]. intros x Hx. specialize (H4 x Hx). lia. Qed.
Lemma adds_bind {A B} (m : M A) (k : A -> M B) a b c d : adds m a b -> (forall x, adds (k x) c d) -> 0 <= d -> adds (bind m k) (a + c) (b + d).
Proof.
  intros Hm Hk Hd s r s'. unfold bind. destruct (m s) as [rm sm] eqn:E. destruct (Hm _ _ _ E) as [H1 H2]. destruct rm as [x| | |]; [|intros [= <- <-]; split; [lia|intros; discriminate]..].
  intros Hr. destruct (Hk x _ _ _ Hr) as [H3 H4]. specialize (H2 x eq_refl). split; [lia|]. intros y Hy. specialize (H4 y Hy). lia.
Qed.
Lemma adds_lift {A} (r : res A) : adds (lift r) 0 0.
Proof. intros s r' s' [= <- <-]. split; [lia|]. intros; lia. Qed.
Lemma adds_ret {A} (x : A) : adds (ret x) 0 0.
Proof. intros s r' s' [= <- <-]. split; [lia|]. intros; lia. Qed.
Lemma adds_err {A} lo hi : 0 <= hi -> adds (@err A) lo hi.
Proof. intros H s r' s' [= <- <-]. split; [lia|]. intros; discriminate. Qed.
Lemma adds_panic {A} lo hi : 0 <= hi -> adds (@panic A) lo hi.
Proof. intros H s r' s' [= <- <-]. split; [lia|]. intros; discriminate. Qed.
Lemma adds_diverge {A} lo hi : 0 <= hi -> adds (@diverge A) lo hi.
Proof. intros H s r' s' [= <- <-]. split; [lia|]. intros; discriminate. Qed.
Lemma adds_bits l : adds (append_bits l) (zlen l) (zlen l).
Proof. intros s r' s' [= <- <-]. cbn [bits]. rewrite zlen_app. pose proof (zlen_nonneg l). split; [lia|]. intros; lia. Qed.
Lemma align_adds l : 0 <= zlen (align_bits l) - zlen l <= 7.
Proof. rewrite align_bits_pad, zlen_app, zlen_pad. pose proof (Z.mod_pos_bound (- zlen l) 8). lia. Qed.
Lemma adds_align : adds align 0 7.
Proof. intros s r' s' [= <- <-]. cbn [bits]. pose proof (align_adds (bits s)). split; [lia|]. intros; lia. Qed.
Lemma adds_perhaps (b : bool) : adds (if b then align else ret tt) 0 7.
Proof. destruct b; [apply adds_align|]. eapply adds_more; [apply adds_ret|lia|lia]. Qed.
Lemma zlen_skipn {A} n (l : list A) : 0 <= zlen (skipn n l) <= zlen l.
Proof. unfold zlen. rewrite skipn_length. lia. Qed.
Lemma zlen_be n z : zlen (be_bytes n z) = Z.of_nat n.
Proof. unfold zlen. f_equal. revert z. induction n as [|n IH]; intros z; [reflexivity|]. cbn [be_bytes length]. now rewrite IH. Qed.

Lemma adds_indefinite v : adds (encode_indefinite_length_determinent v) 0 23.
Proof.
  unfold encode_indefinite_length_determinent. eapply (adds_more _ (0 + 0) (7 + 16)); [|lia|lia]. apply adds_bind; [apply adds_align| |lia]. intros _.
  destruct (v <? 128); [eapply adds_more; [apply adds_bits| |]; rewrite zlen_low_bits; lia|].
  destruct (v <? 16384); [eapply adds_more; [apply adds_bits| |]; rewrite zlen_bytes_bits, zlen_be; lia|apply adds_err; lia].
Qed.
Lemma arith_in E z r : arith_i128 E z = Ok r -> - 2 ^ 127 <= r < 2 ^ 127.
Proof.
  unfold arith_i128, in_i128. destruct ((- 2 ^ 127 <=? z) && (z <? 2 ^ 127))%bool eqn:H; [intros [= <-]; lia|]. destruct (overflow_checks E); [discriminate|]. intros [= <-].
  unfold wrap_s. pose proof (Z.mod_pos_bound z (2 ^ 128) ltac:(lia)). destruct (z mod 2 ^ 128 <? 2 ^ (128 - 1)) eqn:Hc; lia.
Qed.

Lemma adds_lift_bind {A B} (r : res A) (k : A -> M B) c d : 0 <= d -> (forall x, r = Ok x -> adds (k x) c d) -> adds (bind (lift r) k) c d.
Proof.
  intros Hd H s r' s'. unfold bind, lift. destruct r as [x| | |]; [now apply H|intros [= <- <-]; split; [lia|intros; discriminate]..].
Qed.
Lemma table_bits range nb al : enc_range_table range = Some (nb, al) -> 0 <= nb <= 8 /\ (range <= 16 -> nb <= 4 /\ al = false).
Proof.
  unfold enc_range_table. intros H.
  repeat match type of H with (if ?c then _ else _) = _ => destruct c eqn:?; [injection H as <- <-; lia|] end. discriminate H.
Qed.
Lemma small_bits nb v : 0 <= nb <= 8 -> zlen (skipn (Z.to_nat (8 - nb)) (low_bits 8 v)) = nb.
Proof. intros H. unfold zlen. rewrite skipn_length, length_low_bits. lia. Qed.
Lemma adds_small f E lb ub v : 1 <= ub - lb + 1 <= 16 -> adds (encode_constrained_fuel (S f) E lb ub v) 0 4.
Proof.
  intros Hr. cbn [encode_constrained_fuel]. destruct (v <? lb); [apply adds_err; lia|]. destruct (ub <? v); [apply adds_err; lia|].
  assert (Ha : forall z, 0 <= z <= 16 -> arith_i128 E z = Ok z). { intros z Hz. unfold arith_i128, in_i128. now replace ((- 2 ^ 127 <=? z) && (z <? 2 ^ 127)) with true by lia. }
  rewrite (Ha (ub - lb)) by lia. apply adds_lift_bind; [lia|]. intros d [= <-]. rewrite (Ha (ub - lb + 1)) by lia. apply adds_lift_bind; [lia|]. intros r [= <-].
  apply adds_lift_bind; [lia|]. intros w _. replace (ub - lb + 1 <=? 256) with true by lia. destruct (enc_range_table (ub - lb + 1)) as [[nb al]|] eqn:Ht; [|apply adds_panic; lia].
  apply table_bits in Ht. destruct Ht as [H1 H2]. destruct (H2 ltac:(lia)) as [H3 ->]. eapply (adds_more _ (0 + 0) (0 + 4)); [|lia|lia]. apply adds_bind; [apply adds_ret| |lia]. intros _.
  eapply adds_more; [apply adds_bits| |]; rewrite small_bits; lia.
Qed.
Lemma adds_constrained E lb ub v : adds (encode_constrained_whole_number E lb ub v) 0 139.
Proof.
  unfold encode_constrained_whole_number. generalize (adds_small 0 E). generalize 1%nat. intros f Hf. cbn [encode_constrained_fuel]. destruct (v <? lb); [apply adds_err; lia|]. destruct (ub <? v); [apply adds_err; lia|].
  apply adds_lift_bind; [lia|]. intros d _. apply adds_lift_bind; [lia|]. intros range Hr. apply arith_in in Hr. apply adds_lift_bind; [lia|]. intros w _.
  destruct (range <=? 256) eqn:H1.
  - destruct (enc_range_table range) as [[nb al]|] eqn:Ht; [|apply adds_panic; lia]. apply table_bits in Ht. destruct Ht as [H2 _].
    eapply (adds_more _ (0 + 0) (7 + 8)); [|lia|lia]. apply adds_bind; [apply adds_perhaps| |lia]. intros _. eapply adds_more; [apply adds_bits| |]; rewrite small_bits; lia.
  - destruct (range <=? 65536) eqn:H2.
    + eapply (adds_more _ (0 + 0) (7 + 16)); [|lia|lia]. apply adds_bind; [apply adds_align| |lia]. intros _. eapply adds_more; [apply adds_bits| |]; rewrite zlen_bytes_bits, zlen_be; lia.
    + pose proof (bytes_needed_bound range ltac:(lia)) as B. cbv zeta. eapply (adds_more _ (0 + (0 + 0)) (4 + (7 + 128))); [|lia|lia].
      apply adds_bind; [apply Hf; lia| |lia]. intros _. apply adds_bind; [apply adds_align| |lia]. intros _.
      match goal with |- adds (append_bits (bytes_bits (skipn ?n ?l))) _ _ => pose proof (zlen_skipn n l) as B2 end. rewrite zlen_be in B2.
      eapply adds_more; [apply adds_bits| |]; rewrite zlen_bytes_bits; lia.
Qed.
Lemma adds_length E lb ub v : adds (encode_length_determinent E lb ub false v) 0 139.
Proof.
  assert (Hi : adds (if match ub with Some u => wrap_u 64 u <? v | None => false end then err
      else if match lb with Some l => v <? wrap_u 64 l | None => false end then err else encode_indefinite_length_determinent v) 0 139).
  { destruct (match ub with Some u => wrap_u 64 u <? v | None => false end); [apply adds_err; lia|]. destruct (match lb with Some l => v <? wrap_u 64 l | None => false end); [apply adds_err; lia|].
    eapply adds_more; [apply adds_indefinite|lia|lia]. }
  unfold encode_length_determinent. cbv zeta. destruct ub as [u|]; [|exact Hi]. destruct (u <? 65536); [apply adds_constrained|exact Hi].
Qed.
Lemma adds_any_length E lb ub small v : adds (encode_length_determinent E lb ub small v) 0 139.
Proof.
  destruct small; [|apply adds_length]. unfold encode_length_determinent, encode_normally_small_length_determinent. destruct (v <=? 32).
  - apply adds_lift_bind; [lia|]. intros b _. eapply (adds_more _ (0 + 0) (1 + 8)); [|lia|lia]. apply adds_bind; [eapply adds_more; [apply adds_bits| |]; cbn; lia| |lia]. intros _.
    match goal with |- adds (append_bits (skipn ?n ?l)) _ _ => pose proof (zlen_skipn n l) as B end. rewrite zlen_low_bits in B. eapply adds_more; [apply adds_bits| |]; lia.
  - eapply (adds_more _ (0 + 0) (1 + 23)); [|lia|lia]. apply adds_bind; [eapply adds_more; [apply adds_bits| |]; cbn; lia| |lia]. intros _. apply adds_indefinite.
Qed.
Lemma adds_unconstrained E v : adds (encode_unconstrained_whole_number E v) 0 151.
Proof.
  unfold encode_unconstrained_whole_number, encode_length_determinent. cbv zeta. eapply (adds_more _ (0 + 0) (23 + 128)); [|lia|lia]. apply adds_bind; [apply adds_indefinite| |lia]. intros _.
  match goal with |- adds (append_bits (bytes_bits (skipn ?n ?l))) _ _ => pose proof (zlen_skipn n l) as B2 end. rewrite zlen_be in B2.
  eapply adds_more; [apply adds_bits| |]; rewrite zlen_bytes_bits; lia.
Qed.
Lemma adds_ext b : adds (encode_ext_bit b) 0 1.
Proof. destruct b; cbn; [eapply adds_more; [apply adds_bits| |]; cbn; lia|]. eapply adds_more; [apply adds_ret|lia|lia]. Qed.
Lemma adds_integer E lb ub ext v b : adds (encode_integer E lb ub ext v b) 0 152.
Proof.
  unfold encode_integer. destruct b; [apply adds_err; lia|]. eapply (adds_more _ (0 + 0) (1 + 151)); [|lia|lia]. apply adds_bind; [apply adds_ext| |lia]. intros _.
  destruct lb as [l|]; [|apply adds_unconstrained]. destruct ub as [u|]; [eapply adds_more; [apply adds_constrained|lia|lia]|]. unfold encode_semi_constrained_whole_number.
  destruct (v <? l); [apply adds_err; lia|]. apply adds_lift_bind; [lia|]. intros x _. apply adds_unconstrained.
Qed.
Lemma adds_integer_plain E lb ub v : adds (encode_integer E lb ub false v false) 0 151.
Proof.
  unfold encode_integer. eapply (adds_more _ (0 + 0) (0 + 151)); [|lia|lia]. apply adds_bind; [apply adds_ret| |lia]. intros _.
  destruct lb as [l|]; [|apply adds_unconstrained]. destruct ub as [u|]; [eapply adds_more; [apply adds_constrained|lia|lia]|]. unfold encode_semi_constrained_whole_number.
  destruct (v <? l); [apply adds_err; lia|]. apply adds_lift_bind; [lia|]. intros x _. apply adds_unconstrained.
Qed.
Lemma adds_enumerated E lb ub ext v b : adds (encode_enumerated E lb ub ext v b) 0 152.
Proof.
  unfold encode_enumerated. destruct b; [apply adds_err; lia|]. eapply (adds_more _ (0 + 0) (1 + 151)); [|lia|lia]. apply adds_bind; [apply adds_ext| |lia]. intros _. apply adds_integer_plain.
Qed.
Lemma adds_choice E lb ub ext k b : adds (encode_choice_idx E lb ub ext k b) 0 152.
Proof.
  unfold encode_choice_idx. destruct b; [apply adds_err; lia|]. eapply (adds_more _ (0 + 0) (1 + 151)); [|lia|lia]. apply adds_bind; [apply adds_ext| |lia]. intros _. apply adds_integer_plain.
Qed.
Lemma adds_bitstring E lb ub ext l b : adds (encode_bitstring E lb ub ext l b) (zlen l) (147 + zlen l).
Proof.
  pose proof (zlen_nonneg l) as H0. unfold encode_bitstring. destruct b; [apply adds_err; lia|].
  eapply (adds_more _ (0 + (0 + zlen l)) (1 + (139 + (7 + zlen l)))); [|lia|lia]. apply adds_bind; [apply adds_ext| |lia]. intros _. destruct (16384 <=? zlen l); [apply adds_err; lia|].
  apply adds_bind; [apply adds_length| |lia]. intros _. destruct (0 <? zlen l) eqn:H1; [|eapply adds_more; [apply adds_ret|lia|lia]].
  eapply (adds_more _ (0 + zlen l) (7 + zlen l)); [|lia|lia]. apply adds_bind; [apply adds_perhaps| |lia]. intros _. apply adds_bits.
Qed.
Lemma adds_octetstring E lb ub ext l b : adds (encode_octetstring E lb ub ext l b) (8 * zlen l) (147 + 8 * zlen l).
Proof.
  pose proof (zlen_nonneg l) as H0. unfold encode_octetstring. destruct b; [apply adds_err; lia|].
  eapply (adds_more _ (0 + (0 + 8 * zlen l)) (1 + (139 + (7 + 8 * zlen l)))); [|lia|lia]. apply adds_bind; [apply adds_ext| |lia]. intros _. destruct (16384 <=? zlen l); [apply adds_err; lia|].
  apply adds_bind; [apply adds_length| |lia]. intros _. destruct (0 <? zlen l) eqn:H1; [|eapply adds_more; [apply adds_ret|lia|lia]].
  eapply (adds_more _ (0 + 8 * zlen l) (7 + 8 * zlen l)); [|lia|lia]. apply adds_bind; [apply adds_perhaps| |lia]. intros _. rewrite <- zlen_bytes_bits. apply adds_bits.
Qed.
Lemma adds_string E lb ub ext l b : adds (encode_string E lb ub ext l b) (8 * zlen l) (147 + 8 * zlen l).
Proof.
  pose proof (zlen_nonneg l) as H0. unfold encode_string. destruct b; [apply adds_err; lia|].
  eapply (adds_more _ (0 + (0 + (0 + 8 * zlen l))) (1 + (139 + (7 + 8 * zlen l)))); [|lia|lia]. apply adds_bind; [apply adds_ext| |lia]. intros _.
  apply adds_bind; [apply adds_length| |lia]. intros _. apply adds_bind; [apply adds_perhaps| |lia]. intros _. rewrite <- zlen_bytes_bits. apply adds_bits.
Qed.
Lemma adds_header ext l b : adds (encode_sequence_header ext l b) 0 (1 + zlen l).
Proof.
  pose proof (zlen_nonneg l) as H0. unfold encode_sequence_header. destruct b; [apply adds_err; lia|]. eapply (adds_more _ (0 + 0) (1 + zlen l)); [|lia|lia]. apply adds_bind; [apply adds_ext| |lia]. intros _.
  eapply adds_more; [apply adds_bits|lia|lia].
Qed.
Lemma adds_ignore m lo hi : lo <= 0 -> adds m lo hi -> adds (ignore_err m) lo hi.
Proof.
  intros Hlo H s r s'. unfold ignore_err. destruct (m s) as [rm sm] eqn:E. destruct (H _ _ _ E) as [H1 H2]. destruct rm as [x| | |]; intros [= <- <-]; (split; [lia|]).
  - intros y [= <-]. now apply (H2 x).
  - intros y _. lia.
  - intros; discriminate.
  - intros; discriminate.
Qed.

(* ------------------------------------------------------------------ *)
(* Values                                                              *)
(* ------------------------------------------------------------------ *)
Lemma bind_ok {A B} (m : M A) (k : A -> M B) s y s' : bind m k s = (Ok y, s') -> exists x s1, m s = (Ok x, s1) /\ k x s1 = (Ok y, s').
Proof. unfold bind. destruct (m s) as [[x| | |] s1]; try discriminate. intros H. now exists x, s1. Qed.
Lemma set_true_zlen bm i bm' : set_true bm i = Some bm' -> zlen bm' = zlen bm.
Proof.
  unfold set_true. destruct ((0 <=? i) && (i <? zlen bm))%bool eqn:H; [|discriminate]. intros [= <-]. unfold zlen in *. rewrite app_length, firstn_length. cbn [app length]. rewrite skipn_length. lia.
Qed.
Lemma presence_zlen fs : forall vs bm bm', presence fs vs bm = Some bm' -> zlen bm' = zlen bm.
Proof.
  induction fs as [|i t fs IH|kf t fs IH]; intros [|[v|] vs] bm bm'; cbn [presence]; try congruence; try apply IH.
  destruct (set_true bm i) as [b|] eqn:E; [|discriminate]. intros H. apply IH in H. apply set_true_zlen in E. congruence.
Qed.
Lemma count_nonneg fs : 0 <= count_fields fs.
Proof. induction fs; cbn [count_fields]; lia. Qed.
Section Growth.
Context (E : env).
Let grown (s s' : cdata) : Z := zlen (bits s') - zlen (bits s).
Lemma enc_grows :
  (forall t v s s', enc E t v s = (Ok tt, s') -> payload v <= grown s s' /\ (bitmaps_fit t -> grown s s' <= payload v + 153 * nodes v - 1)) /\
  (forall fs vs s s', enc_fields E fs vs s = (Ok tt, s') -> payload (VSeq vs) <= grown s s' /\
     (bitmaps_fit_fields fs -> grown s s' <= payload (VSeq vs) + 153 * (nodes (VSeq vs) - 1) - count_fields fs)) /\
  (forall al, (forall lb ub ext n v s s', enc_choice E lb ub ext al n v s = (Ok tt, s') -> payload v <= grown s s' /\
     (bitmaps_fit_alts al -> grown s s' <= 151 + payload v + 153 * nodes v)) /\
   (forall n v s s', enc_variant E al n v s = (Ok tt, s') -> payload v <= grown s s' /\ (bitmaps_fit_alts al -> grown s s' <= payload v + 153 * nodes v - 1))).
Proof.
  apply ty_mutind.
  - intros [] s s'; try discriminate. intros H. apply adds_bits in H. destruct H as [H1 H2]. cbn [payload nodes]. unfold grown. cbn in H1. lia.
  - intros [] s s'; try discriminate. intros [= <-]. cbn [payload nodes]. unfold grown. lia.
  - intros v s s'. discriminate.
  - intros lb ub ext i [] s s'; try discriminate. cbn [enc]. intros H. apply adds_integer in H. cbn [payload nodes]. unfold grown. lia.
  - intros lb ub ext i [] s s'; try discriminate. cbn [enc]. intros H. apply adds_enumerated in H. cbn [payload nodes]. unfold grown. lia.
  - intros lb ub ext [] s s'; try discriminate. cbn [enc]. intros H. apply adds_bitstring in H. destruct H as [H1 H2]. specialize (H2 _ eq_refl). cbn [payload nodes]. unfold grown. lia.
  - intros lb ub ext [] s s'; try discriminate. cbn [enc]. intros H. apply adds_octetstring in H. destruct H as [H1 H2]. specialize (H2 _ eq_refl). cbn [payload nodes]. unfold grown. lia.
  - intros lb ub ext [] s s'; try discriminate. cbn [enc]. intros H. apply adds_string in H. destruct H as [H1 H2]. specialize (H2 _ eq_refl). cbn [payload nodes]. unfold grown. lia.
  - intros ext n fs IH [] s s'; try discriminate. cbn [enc]. destruct (presence fs l (repeat false (Z.to_nat n))) as [bm|] eqn:Hp; [|discriminate]. intros H.
    apply bind_ok in H. destruct H as ([] & s1 & H1 & H2). apply adds_header in H1. destruct H1 as [H1 _]. apply presence_zlen in Hp. rewrite zlen_repeat in Hp.
    destruct (IH _ _ _ H2) as [H3 H4]. unfold grown in *. split; [lia|]. cbn [bitmaps_fit]. intros [Hn Hf]. specialize (H4 Hf). pose proof (count_nonneg fs). lia.
  - intros lb ub ext t IH [] s s'; try discriminate. cbn [enc]. intros H. apply bind_ok in H. destruct H as ([] & s1 & H1 & H2).
    apply (adds_ignore _ 0 139 (Z.le_refl 0) (adds_any_length E lb ub ext (zlen l))) in H1. destruct H1 as [H1 _].
    assert (Hl : payload (VList l) <= grown s1 s' /\ (bitmaps_fit t -> grown s1 s' <= payload (VList l) + 153 * (nodes (VList l) - 1))).
    { clear H1. revert s1 H2. induction l as [|x l IHl]; intros s1; cbn [each]; [intros [= <-]; cbn [payload nodes]; unfold grown; lia|].
      intros H. apply bind_ok in H. destruct H as ([] & s2 & H2 & H3). destruct (IH _ _ _ H2) as [H4 H5]. destruct (IHl _ H3) as [H6 H7]. cbn [payload nodes] in *. unfold grown in *.
      split; [lia|]. intros Hf. specialize (H5 Hf). specialize (H7 Hf). lia. }
    unfold grown in *. cbn [bitmaps_fit]. destruct Hl as [Hl1 Hl2]. split; [lia|]. intros Hf. specialize (Hl2 Hf). lia.
  - intros lb ub ext al [IH _] [] s s'; try discriminate. cbn [enc]. intros H. destruct (IH _ _ _ _ _ _ _ H) as [H1 H2]. cbn [payload nodes bitmaps_fit]. split; [exact H1|]. intros Hf. specialize (H2 Hf). lia.
  - intros al [_ IH] [] s s'; try discriminate. cbn [enc]. unfold enc_open_frame. destruct (enc_variant E al n v new_data) as [[[]| | |] inner] eqn:Hi; try discriminate. intros H.
    apply IH in Hi. destruct Hi as [Hi1 Hi2]. apply bind_ok in H. destruct H as (len & s1 & H1 & H). injection H1 as _ <-. apply bind_ok in H. destruct H as ([] & s2 & H2 & H3).
    unfold encode_length_determinent in H2. cbv zeta in H2. apply adds_indefinite in H2. unfold append_aligned in H3. apply bind_ok in H3. destruct H3 as ([] & s3 & H4 & H5).
    apply adds_align in H4. apply adds_bits in H5. pose proof (align_adds (bits inner)). destruct H5 as [H5 H6]. specialize (H6 _ eq_refl). unfold grown in *. cbn [new_data bits] in *. rewrite zlen_nil in *.
    cbn [payload nodes bitmaps_fit]. split; [lia|]. intros Hf. specialize (Hi2 Hf). lia.
  - intros [|x vs] s s'; [|discriminate]. intros [= <-]. cbn [payload nodes count_fields]. unfold grown. lia.
  - intros i t IH fs IHf [|[v|] vs] s s'; try discriminate; cbn [enc_fields]; intros H.
    + apply bind_ok in H. destruct H as ([] & s1 & H1 & H2). destruct (IH _ _ _ H1) as [H3 H4]. destruct (IHf _ _ _ H2) as [H5 H6].
      cbn [payload nodes bitmaps_fit_fields count_fields] in *. unfold grown in *. split; [lia|]. intros [Hf1 Hf2]. specialize (H4 Hf1). specialize (H6 Hf2). lia.
    + destruct (IHf _ _ _ H) as [H5 H6]. cbn [payload nodes bitmaps_fit_fields count_fields] in *. unfold grown in *. split; [lia|]. intros [Hf1 Hf2]. specialize (H6 Hf2). lia.
  - intros b t IH fs IHf [|[v|] vs] s s'; try discriminate; cbn [enc_fields]; intros H.
    apply bind_ok in H. destruct H as ([] & s1 & H1 & H2). destruct (IH _ _ _ H1) as [H3 H4]. destruct (IHf _ _ _ H2) as [H5 H6].
    cbn [payload nodes bitmaps_fit_fields count_fields] in *. unfold grown in *. split; [lia|]. intros [Hf1 Hf2]. specialize (H4 Hf1). specialize (H6 Hf2). lia.
  - split; intros; discriminate.
  - intros key extended t IH al [IHc IHv]. split.
    + intros lb ub ext [|n] v s s'; cbn [enc_choice bitmaps_fit_alts].
      * intros H. apply bind_ok in H. destruct H as ([] & s1 & H1 & H2). apply adds_choice in H1. destruct (IH _ _ _ H2) as [H3 H4]. unfold grown in *. split; [lia|]. intros [Hf _]. specialize (H4 Hf). lia.
      * intros H. destruct (IHc _ _ _ _ _ _ _ H) as [H3 H4]. split; [exact H3|]. intros [_ Hf]. exact (H4 Hf).
    + intros [|n] v s s'; cbn [enc_variant bitmaps_fit_alts].
      * intros H. destruct (IH _ _ _ H) as [H3 H4]. split; [exact H3|]. intros [Hf _]. exact (H4 Hf).
      * intros H. destruct (IHv _ _ _ _ H) as [H3 H4]. split; [exact H3|]. intros [_ Hf]. exact (H4 Hf).
Qed.
End Growth.
Theorem strings_sent E t v s s' : enc E t v s = (Ok tt, s') -> payload v <= zlen (bits s') - zlen (bits s).
Proof. intros H. exact (proj1 (proj1 (enc_grows E) t v s s' H)). Qed.
Theorem overhead_bounded E t v s s' : bitmaps_fit t -> enc E t v s = (Ok tt, s') -> zlen (bits s') - zlen (bits s) < payload v + 153 * nodes v.
Proof. intros Hf H. pose proof (proj2 (proj1 (enc_grows E) t v s s' H) Hf). cbv beta in *. lia. Qed.
Theorem message_size E t v d : bitmaps_fit t -> enc E t v new_data = (Ok tt, d) -> payload v <= 8 * zlen (into_bytes d) < payload v + 153 * nodes v + 7.
Proof.
  intros Hf H. pose proof (strings_sent E t v _ _ H) as H1. pose proof (overhead_bounded E t v _ _ Hf H) as H2. unfold into_bytes. rewrite zlen_pack. cbn [new_data bits] in *. rewrite zlen_nil in *.
  pose proof (Z.div_mod (zlen (bits d) + 7) 8 ltac:(lia)). pose proof (Z.mod_pos_bound (zlen (bits d) + 7) 8 ltac:(lia)). lia.
Qed.
Lemma idxs_count fs : Z.of_nat (length (optional_idxs fs)) <= count_fields fs.
Proof. induction fs; cbn [optional_idxs count_fields length]; lia. Qed.
Lemma numbered_fit : (forall t, x_numbered t -> bitmaps_fit t) /\ (forall fs, x_numbered_fields fs -> bitmaps_fit_fields fs) /\ (forall al, x_numbered_alts al -> bitmaps_fit_alts al).
Proof.
  apply ty_mutind; cbn [x_numbered bitmaps_fit x_numbered_fields bitmaps_fit_fields x_numbered_alts bitmaps_fit_alts]; try tauto.
  intros ext n fs IH (H1 & H2 & H3). split; [|now apply IH]. pose proof (idxs_count fs) as H4. rewrite H2, map_length, seq_length in H4. lia.
Qed.
