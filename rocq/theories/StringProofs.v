(* Enumerated, choice index, sequence header, bit/octet/character strings. *)
From Coq Require Import ZArith List Bool Lia.
From Coq Require Import ZifyBool ZifyNat ZifyN.
Require Import Verif.Base Verif.CodecModel Verif.BitLemmas Verif.Spec Verif.Combinators.
Require Import Verif.LengthProofs Verif.IntegerProofs.
Import ListNotations.
Open Scope Z_scope.
Ltac Zify.zify_post_hook ::= Z.div_mod_to_equations.

Lemma writes_enum E a lb ub ext v :
  int_ok lb ub v ->
  writes (encode_enumerated E lb ub ext v false) a
         (ext_bits ext ++ int_bits (a + zlen (ext_bits ext)) lb ub v).
Proof.
  intros H. unfold encode_enumerated. apply writes_bind; [apply writes_ext|].
  eapply writes_eq; [now apply writes_int|].
  cbn [ext_bits app]. now rewrite zlen_nil, Z.add_0_r.
Qed.

Lemma reads_enum E a lb ub ext v :
  int_ok lb ub v ->
  reads (decode_enumerated E lb ub ext) a
        (ext_bits ext ++ int_bits (a + zlen (ext_bits ext)) lb ub v) (v, false).
Proof.
  intros H. unfold decode_enumerated. eapply reads_bind; [apply reads_ext|]. cbn [negb].
  apply reads_app_nil. eapply reads_bind with (v := v); [|apply reads_ret].
  apply reads_app_nil. eapply reads_bind.
  - eapply reads_eq; [apply (reads_int _ _ _ _ _ v H)|].
    cbn [ext_bits app]. now rewrite zlen_nil, Z.add_0_r.
  - apply reads_ret.
Qed.

Lemma writes_choice E a lb ub ext v :
  int_ok (Some lb) (Some ub) v ->
  writes (encode_choice_idx E lb ub ext v false) a
         (ext_bits ext ++ int_bits (a + zlen (ext_bits ext)) (Some lb) (Some ub) v).
Proof.
  intros H. unfold encode_choice_idx. apply writes_bind; [apply writes_ext|].
  eapply writes_eq; [now apply writes_int|].
  cbn [ext_bits app]. now rewrite zlen_nil, Z.add_0_r.
Qed.

Lemma reads_choice E a lb ub ext v :
  int_ok (Some lb) (Some ub) v ->
  reads (decode_choice_idx E lb ub ext) a
        (ext_bits ext ++ int_bits (a + zlen (ext_bits ext)) (Some lb) (Some ub) v) (v, false).
Proof.
  intros H. unfold decode_choice_idx.
  assert (R : forall a (x : bool), reads (bind (decode_integer E (Some lb) (Some ub) false) (fun p => ret (fst p, x)))
                    a (int_bits a (Some lb) (Some ub) v) (v, x)).
  { intros a' x. apply reads_app_nil. eapply reads_bind.
    - eapply reads_eq; [apply (reads_int _ _ _ _ _ v H)|].
      cbn [ext_bits app]. now rewrite zlen_nil, Z.add_0_r.
    - apply reads_ret. }
  destruct ext; cbn [ext_bits].
  - eapply reads_bind; [apply reads_bool|]. cbn [negb]. apply R.
  - cbn [app]. rewrite zlen_nil, Z.add_0_r. apply R.
Qed.

Lemma writes_seqhdr a ext opt :
  writes (encode_sequence_header ext opt false) a (ext_bits ext ++ opt).
Proof. unfold encode_sequence_header. apply writes_bind; [apply writes_ext | apply writes_append]. Qed.

Lemma reads_seqhdr E a ext opt :
  reads (decode_sequence_header E ext (zlen opt)) a (ext_bits ext ++ opt) (opt, false).
Proof.
  unfold decode_sequence_header. eapply reads_bind; [apply reads_ext|].
  apply reads_app_nil. eapply reads_bind; [|apply reads_ret].
  destruct (0 <? zlen opt) eqn:C.
  - now apply reads_bitvec.
  - assert (opt = []) as -> by (apply zlen_zero; pose proof (zlen_nonneg opt); lia).
    apply reads_ret.
Qed.

Lemma reads_loop_fuel {A} (g : nat -> M A) a e v :
  (forall f, reads (g (S f)) a e v) -> reads (bind loop_fuel g) a e v.
Proof. intros H p s k Hp Hf. unfold bind, loop_fuel. now apply H. Qed.

(* ---- BIT STRING ---- *)
Definition str_bits (a : Z) (lb ub : option Z) (ext : bool) (n thr : Z) (content : list bool) : list bool :=
  let h := ext_bits ext ++ len_bits (a + zlen (ext_bits ext)) lb ub false n in
  h ++ (if thr <? n then pad (a + zlen h) else []) ++ content.

Lemma writes_bitstring E a lb ub ext bs :
  length_ok lb ub false (zlen bs) -> zlen bs < 16384 ->
  writes (encode_bitstring E lb ub ext bs false) a (str_bits a lb ub ext (zlen bs) 16 bs).
Proof.
  intros Hl Hn. unfold encode_bitstring, str_bits. cbv zeta. rewrite <- app_assoc.
  apply writes_bind; [apply writes_ext|].
  replace (16384 <=? zlen bs) with false by lia.
  apply writes_bind; [now apply writes_len|].
  destruct (0 <? zlen bs) eqn:C.
  - apply writes_bind; [|apply writes_append].
    destruct (16 <? zlen bs); [|apply writes_ret].
    eapply writes_cong; [|apply writes_align]. rewrite zlen_app. lia.
  - assert (bs = []) as -> by (apply zlen_zero; pose proof (zlen_nonneg bs); lia).
    apply writes_ret.
Qed.

Lemma reads_bitstring E a lb ub ext bs :
  length_ok lb ub false (zlen bs) -> zlen bs < 16384 ->
  reads (decode_bitstring E lb ub ext) a (str_bits a lb ub ext (zlen bs) 16 bs) bs.
Proof.
  intros Hl Hn. unfold decode_bitstring, str_bits. cbv zeta. rewrite <- app_assoc.
  eapply reads_bind; [apply reads_ext|].
  apply reads_loop_fuel. intros f. cbn [bitstring_loop]. unfold decode_frag_length.
  eapply reads_bind; [now apply reads_len|].
  apply reads_app_nil. eapply reads_bind.
  2:{ replace (16384 <=? zlen bs) with false by lia. apply reads_ret. }
  destruct (0 <? zlen bs) eqn:C.
  - eapply reads_bind.
    + destruct (16 <? zlen bs); [|apply reads_ret].
      eapply reads_cong; [|apply reads_align]. rewrite zlen_app. lia.
    + apply reads_app_nil. eapply reads_bind; [now apply reads_bitvec|]. apply reads_ret.
  - assert (bs = []) as -> by (apply zlen_zero; pose proof (zlen_nonneg bs); lia).
    apply reads_ret.
Qed.

(* ---- OCTET STRING ---- *)
Lemma writes_octetstring E a lb ub ext bs :
  length_ok lb ub false (zlen bs) -> zlen bs < 16384 ->
  writes (encode_octetstring E lb ub ext bs false) a (str_bits a lb ub ext (zlen bs) 2 (bytes_bits bs)).
Proof.
  intros Hl Hn. unfold encode_octetstring, str_bits. cbv zeta. rewrite <- app_assoc.
  apply writes_bind; [apply writes_ext|].
  replace (16384 <=? zlen bs) with false by lia.
  apply writes_bind; [now apply writes_len|].
  destruct (0 <? zlen bs) eqn:C.
  - apply writes_bind; [|apply writes_append].
    destruct (2 <? zlen bs); [|apply writes_ret].
    eapply writes_cong; [|apply writes_align]. rewrite zlen_app. lia.
  - assert (bs = []) as -> by (apply zlen_zero; pose proof (zlen_nonneg bs); lia).
    apply writes_ret.
Qed.

Lemma reads_octetstring E a lb ub ext bs :
  bytes_ok bs -> length_ok lb ub false (zlen bs) -> zlen bs < 16384 ->
  reads (decode_octetstring E lb ub ext) a (str_bits a lb ub ext (zlen bs) 2 (bytes_bits bs)) bs.
Proof.
  intros Hb Hl Hn. unfold decode_octetstring, str_bits. cbv zeta. rewrite <- app_assoc.
  eapply reads_bind; [apply reads_ext|].
  apply reads_loop_fuel. intros f. cbn [octetstring_loop]. unfold decode_frag_length.
  eapply reads_bind; [now apply reads_len|].
  apply reads_app_nil. eapply reads_bind.
  2:{ replace (16384 <=? zlen bs) with false by lia. apply reads_ret. }
  destruct (0 <? zlen bs) eqn:C.
  - eapply reads_bind.
    + destruct (2 <? zlen bs); [|apply reads_ret].
      eapply reads_cong; [|apply reads_align]. rewrite zlen_app. lia.
    + apply reads_app_nil. eapply reads_bind; [now apply reads_bytes|]. apply reads_ret.
  - assert (bs = []) as -> by (apply zlen_zero; pose proof (zlen_nonneg bs); lia).
    apply reads_ret.
Qed.

(* ---- character strings ---- *)
Lemma writes_string E a lb ub ext bs :
  length_ok lb ub false (zlen bs) ->
  writes (encode_string E lb ub ext bs false) a (str_bits a lb ub ext (zlen bs) 2 (bytes_bits bs)).
Proof.
  intros Hl. unfold encode_string, str_bits. cbv zeta. rewrite <- app_assoc.
  apply writes_bind; [apply writes_ext|].
  apply writes_bind; [now apply writes_len|].
  apply writes_bind; [|apply writes_append].
  destruct (2 <? zlen bs); [|apply writes_ret].
  eapply writes_cong; [|apply writes_align]. rewrite zlen_app. lia.
Qed.

Lemma load_native_aligned E head : head = 0 \/ little_endian E = false ->
  forall bs, bytes_ok bs -> map (load_native E head) (map (low_bits 8) bs) = bs.
Proof.
  intros Hh bs Hb. rewrite <- (map_bits_val_low_bits bs Hb) at 2.
  apply map_ext_in. intros c Hc. apply in_map_iff in Hc as (b & <- & _).
  unfold load_native. destruct (little_endian E); [|reflexivity].
  destruct Hh as [->|]; [|discriminate]. reflexivity.
Qed.

(* position (mod 8) of the first content bit of a string *)
Definition str_content_pos (a : Z) (lb ub : option Z) (ext : bool) (n : Z) : Z :=
  a + zlen (ext_bits ext) + zlen (len_bits (a + zlen (ext_bits ext)) lb ub false n).

Lemma str_content_aligned a lb ub ext n : length_ok lb ub false n -> whole_octet_length lb ub = true ->
  str_content_pos a lb ub ext n mod 8 = 0.
Proof.
  unfold length_ok, whole_octet_length, str_content_pos, len_bits. intros (Hn & Hl & Hu) H. set (b := a + zlen (ext_bits ext)).
  assert (I : n < 16384 -> (b + zlen (indef_bits b n)) mod 8 = 0).
  { intros. unfold indef_bits. rewrite zlen_app, zlen_pad. destruct (n <? 128); rewrite ?zlen_cons, zlen_low_bits; lia. }
  destruct ub as [u|]; [|apply I; lia]. destruct (u <? 65536) eqn:C; [|apply I; lia].
  assert (0 <= opt0 lb) by (destruct lb; cbn [opt0]; lia).
  unfold con_bits. replace (u - opt0 lb + 1 <=? 65536) with true by lia. unfold small_range_bits.
  replace (u - opt0 lb + 1 <? 256) with false by lia.
  destruct (u - opt0 lb + 1 =? 256); rewrite zlen_app, zlen_pad, zlen_low_bits; lia.
Qed.

Lemma reads_get_off {A} (g : Z -> M A) a e v :
  (forall o, o mod 8 = a mod 8 -> reads (g o) a e v) -> reads (bind get_off g) a e v.
Proof. intros H p s k Hp Hf. unfold bind, get_off. cbn [off]. apply H; auto. Qed.

Lemma reads_string E a lb ub ext bs :
  bytes_ok bs -> utf8_valid bs = true -> length_ok lb ub false (zlen bs) ->
  (little_endian E = false \/ 2 < zlen bs \/ bs = [] \/ str_content_pos a lb ub ext (zlen bs) mod 8 = 0) ->
  zlen bs < 2 ^ 60 ->
  reads (decode_string E lb ub ext) a (str_bits a lb ub ext (zlen bs) 2 (bytes_bits bs)) bs.
Proof.
  intros Hb Hu Hl He Hn. unfold decode_string, str_bits. cbv zeta. rewrite <- app_assoc.
  pose proof (zlen_nonneg bs).
  eapply reads_bind; [apply reads_ext|].
  eapply reads_bind; [unfold decode_frag_length; now apply reads_len|].
  eapply reads_lift; [apply arith_usize_ok; lia|].
  replace (16 <? zlen bs * 8) with (2 <? zlen bs) by lia.
  eapply reads_bind.
  - instantiate (1 := tt).
    destruct (2 <? zlen bs); [|apply reads_ret].
    eapply reads_cong; [|apply reads_align]. rewrite zlen_app. lia.
  - apply reads_get_off. intros o Ho.
    apply reads_app_nil. eapply reads_bind.
    + apply reads_bitvec. rewrite zlen_bytes_bits. lia.
    + rewrite chunks8_bytes_bits.
      destruct He as [He|He].
      * rewrite load_native_aligned by auto. rewrite Hu. apply reads_ret.
      * destruct bs as [|b bs'].
        { cbn [map]. change (utf8_valid []) with true. cbv iota. apply reads_ret. }
        rewrite load_native_aligned; [rewrite Hu; apply reads_ret | left | assumption].
        destruct (2 <? zlen (b :: bs')) eqn:C.
        -- rewrite Ho. rewrite zlen_app in *.
           match goal with |- context [pad ?x] => pose proof (pad_mod x) end. lia.
        -- rewrite Ho. rewrite zlen_nil. destruct He as [He|[He|He]]; [lia|discriminate|].
           unfold str_content_pos in He. lia.
Qed.
