(* Decoding is local: it leaves the buffer alone, only moves forward inside it,
   and a successful result depends only on the consumed bits and the
   alignment of the starting position. *)
From Coq Require Import ZArith List Bool Lia.
From Coq Require Import ZifyBool ZifyNat ZifyN.
Require Import Verif.Base Verif.CodecModel Verif.BitLemmas Verif.Spec Verif.Combinators.
Require Import Verif.LengthProofs Verif.IntegerProofs Verif.StringProofs.
Import ListNotations.
Open Scope Z_scope.
Ltac Zify.zify_post_hook ::= Z.div_mod_to_equations.

Definition local {A} (m : M A) : Prop :=
  forall p b k r s', fits (p ++ b) -> m (mkD (p ++ b) (zlen p) k) = (r, s') ->
  exists e t k', b = e ++ t /\ s' = mkD (p ++ b) (zlen p + zlen e) k' /\
    match r with
    | Ok v => forall p' t', zlen p' mod 8 = zlen p mod 8 -> fits (p' ++ e ++ t') ->
        m (mkD (p' ++ e ++ t') (zlen p') k) = (Ok v, mkD (p' ++ e ++ t') (zlen p' + zlen e) k')
    | _ => True
    end.

Lemma local_bind {A B} (m : M A) (f : A -> M B) :
  local m -> (forall v, local (f v)) -> local (bind m f).
Proof.
  intros Hm Hf p b k r s' F H. unfold bind in H.
  destruct (m (mkD (p ++ b) (zlen p) k)) as [r1 s1] eqn:E1.
  destruct (Hm p b k r1 s1 F E1) as (e1 & t1 & k1 & Hb & Hs1 & Hr1).
  destruct r1 as [v| | |];
    try (injection H as <- <-; exists e1, t1, k1; repeat split; auto; fail).
  subst s1. rewrite Hb in H. rewrite app_assoc in H.
  replace (zlen p + zlen e1) with (zlen (p ++ e1)) in H by apply zlen_app.
  destruct (Hf v (p ++ e1) t1 k1 r s') as (e2 & t2 & k2 & Ht & Hs & Hr).
  { rewrite <- app_assoc, <- Hb. exact F. }
  { exact H. }
  exists (e1 ++ e2), t2, k2. split; [|split].
  - rewrite Hb, Ht, app_assoc. reflexivity.
  - rewrite Hs, Hb, !zlen_app, Z.add_assoc, app_assoc. reflexivity.
  - destruct r as [w| | |]; auto. intros p' t' Hp' F'.
    unfold bind. rewrite <- (app_assoc e1 e2 t') in *.
    rewrite (Hr1 p' (e2 ++ t') Hp' F').
    specialize (Hr (p' ++ e1) t'). rewrite <- (app_assoc p' e1 (e2 ++ t')) in Hr.
    rewrite !zlen_app in Hr. rewrite Hr; [|lia|exact F'].
    now rewrite zlen_app, Z.add_assoc.
Qed.

(* a result obtained without touching the data *)
Lemma local_pure {A} (m : M A) r : (forall s, m s = (r, s)) -> local m.
Proof.
  intros H p b k r' s' F E. rewrite H in E. injection E as <- <-.
  exists [], b, k. rewrite zlen_nil, Z.add_0_r. repeat split; auto.
  destruct r; auto. intros. rewrite H. cbn [app]. now rewrite Z.add_0_r.
Qed.
Lemma local_ret {A} (v : A) : local (ret v). Proof. now apply local_pure with (r := Ok v). Qed.
Lemma local_err {A} : local (@err A). Proof. now apply local_pure with (r := Err). Qed.
Lemma local_panic {A} : local (@panic A). Proof. now apply local_pure with (r := Panic). Qed.
Lemma local_diverge {A} : local (@diverge A). Proof. now apply local_pure with (r := Diverge). Qed.
Lemma local_lift {A} (r : res A) : local (lift r). Proof. now apply local_pure with (r := r). Qed.
Lemma local_to_usize z : local (to_usize z).
Proof. unfold to_usize. destruct (in_usize z); [apply local_ret | apply local_panic]. Qed.

Lemma local_intro {A} (m : M A) :
  (forall p b k, fits (p ++ b) ->
     (exists r, m (mkD (p ++ b) (zlen p) k) = (r, mkD (p ++ b) (zlen p) k)
                /\ (forall v, r <> Ok v))
     \/ (exists e t v, b = e ++ t /\ reads m (zlen p) e v)) ->
  local m.
Proof.
  intros H p b k r s' F E.
  destruct (H p b k F) as [(r0 & E0 & Hr0) | (e & t & v & Hb & R)].
  - rewrite E0 in E. injection E as <- <-. exists [], b, k.
    rewrite zlen_nil, Z.add_0_r. repeat split; auto.
    destruct r0; auto. exfalso; now apply (Hr0 a).
  - rewrite Hb in E, F. rewrite (R p t k eq_refl F) in E. injection E as <- <-.
    exists e, t, k. rewrite Hb. repeat split; auto.
Qed.

Lemma split_at {A} (b : list A) n : 0 <= n <= zlen b -> exists e t, b = e ++ t /\ zlen e = n.
Proof.
  intros. exists (firstn (Z.to_nat n) b), (skipn (Z.to_nat n) b).
  split; [symmetry; apply firstn_skipn|]. unfold zlen in *. rewrite firstn_length. lia.
Qed.

Lemma pad_of_zeros l n : forallb negb l = true -> zlen l = n -> l = repeat false (Z.to_nat n).
Proof.
  intros H <-. rewrite to_nat_zlen. induction l as [|x l IH]; [reflexivity|].
  cbn [forallb length repeat] in *. apply andb_prop in H as [H1 H2].
  destruct x; [discriminate|]. f_equal; auto.
Qed.

Lemma local_align : local decode_align.
Proof.
  apply local_intro. intros p b k F.
  pose proof (zlen_nonneg p) as Np; pose proof (zlen_nonneg b) as Nb.
  destruct (zlen p mod 8 =? 0) eqn:C.
  - right. exists [], b, tt. split; [reflexivity|].
    rewrite <- (pad_zero (zlen p)) by lia. apply reads_align.
  - destruct (zlen (pad (zlen p)) <=? zlen b) eqn:C2.
    + destruct (split_at b (zlen (pad (zlen p)))) as (e & t & Hb & He).
      { split; [apply zlen_nonneg|lia]. }
      destruct (forallb negb e) eqn:Z0.
      * right. exists e, t, tt. split; [assumption|].
        assert (e = pad (zlen p)) as ->.
        { unfold pad. rewrite <- zlen_pad. now apply pad_of_zeros. }
        apply reads_align.
      * left. exists Err. split; [|congruence].
        unfold decode_align, bind, get_off. cbn [off]. rewrite C. cbv zeta. rewrite land7, Hb.
        replace (8 - zlen p mod 8) with (zlen e) by (rewrite He, zlen_pad; lia).
        rewrite slice_at_off_app, Z0. reflexivity.
    + left. exists Panic. split; [|congruence].
      unfold decode_align, bind, get_off, slice_at_off. cbn [off bits]. rewrite C. cbv zeta. rewrite land7.
      rewrite zlen_pad in C2. cbv beta iota. cbn [off bits]. rewrite zlen_app.
      replace ((0 <=? zlen p) && (0 <=? 8 - zlen p mod 8) && (zlen p + (8 - zlen p mod 8) <=? zlen p + zlen b))
        with false by lia.
      reflexivity.
Qed.

Lemma local_bool E : local (data_decode_bool E).
Proof.
  apply local_intro. intros p b k F. destruct b as [|x b].
  - left. exists Err. split; [|congruence].
    unfold data_decode_bool, bind, get_bits, get_off. cbn [off bits].
    rewrite app_nil_r, Z.eqb_refl. reflexivity.
  - right. exists [x], b, x. split; [reflexivity|apply reads_bool].
Qed.

Lemma fits_nonneg p (b : list bool) : fits (p ++ b) ->
  0 <= zlen p /\ 0 <= zlen b /\ zlen p + zlen b < 2 ^ 61.
Proof. unfold fits. rewrite zlen_app. pose proof (zlen_nonneg p); pose proof (zlen_nonneg b). lia. Qed.

Lemma slice_at_off_bad n p b k : (n < 0 \/ zlen b < n) ->
  slice_at_off n (mkD (p ++ b) (zlen p) k) = (Panic, mkD (p ++ b) (zlen p) k).
Proof.
  intros H. unfold slice_at_off. cbn [off bits]. rewrite zlen_app.
  pose proof (zlen_nonneg p).
  replace ((0 <=? zlen p) && (0 <=? n) && (zlen p + n <=? zlen p + zlen b)) with false by lia.
  reflexivity.
Qed.

Lemma signed_width_dec n : signed_width n \/ ~ signed_width n.
Proof.
  unfold signed_width.
  destruct (Z.eq_dec n 8), (Z.eq_dec n 16), (Z.eq_dec n 24), (Z.eq_dec n 32), (Z.eq_dec n 40),
    (Z.eq_dec n 48), (Z.eq_dec n 56), (Z.eq_dec n 64), (Z.eq_dec n 128); auto 20; right; tauto.
Qed.

Lemma local_uint E n : local (decode_bits_as_integer E n false).
Proof.
  apply local_intro. intros p b k F. pose proof (fits_nonneg p b F) as (Np & Nb & Nf).
  destruct (Z_le_dec 0 n) as [H0|H0]; [destruct (Z_le_dec n (zlen b)) as [H1|H1]|].
  - destruct (split_at b n) as (e & t & Hb & He); [lia|].
    destruct (Z_le_dec n 128) as [H2|H2].
    + right. exists e, t, (wrap_s 128 (bits_val e)). split; [assumption|]. now apply reads_uint.
    + left. exists Panic. split; [|congruence].
      unfold decode_bits_as_integer, bind, get_bits, get_off, lift. cbn [off bits].
      rewrite arith_usize_ok by (rewrite zlen_app; lia).
      replace (zlen (p ++ b) - zlen p <? n) with false by (rewrite zlen_app; lia).
      cbn [negb]. replace (n =? 0) with false by lia.
      rewrite Hb, <- He, slice_at_off_app. unfold load_be.
      replace ((1 <=? zlen e) && (zlen e <=? 128)) with false by lia. reflexivity.
  - left. exists Err. split; [|congruence].
    unfold decode_bits_as_integer, bind, get_bits, get_off, lift. cbn [off bits].
    rewrite arith_usize_ok by (rewrite zlen_app; lia).
    replace (zlen (p ++ b) - zlen p <? n) with true by (rewrite zlen_app; lia). reflexivity.
  - left. exists Panic. split; [|congruence].
    unfold decode_bits_as_integer, bind, get_bits, get_off, lift. cbn [off bits].
    rewrite arith_usize_ok by (rewrite zlen_app; lia).
    replace (zlen (p ++ b) - zlen p <? n) with false by (rewrite zlen_app; lia).
    cbn [negb]. replace (n =? 0) with false by lia.
    rewrite slice_at_off_bad by lia. reflexivity.
Qed.

Lemma local_sint E n : local (decode_bits_as_integer E n true).
Proof.
  apply local_intro. intros p b k F. pose proof (fits_nonneg p b F) as (Np & Nb & Nf).
  destruct (Z_lt_dec (zlen b) n) as [H1|H1].
  - left. exists Err. split; [|congruence].
    unfold decode_bits_as_integer, bind, get_bits, get_off, lift. cbn [off bits].
    rewrite arith_usize_ok by (rewrite zlen_app; lia).
    replace (zlen (p ++ b) - zlen p <? n) with true by (rewrite zlen_app; lia). reflexivity.
  - destruct (signed_width_dec n) as [S|S].
    + destruct (split_at b n) as (e & t & Hb & He); [unfold signed_width in S; lia|].
      right. exists e, t, (wrap_s n (bits_val e)). split; [assumption|]. apply reads_sint; auto.
    + left. exists Err. split; [|congruence].
      unfold decode_bits_as_integer, bind, get_bits, get_off, lift. cbn [off bits].
      rewrite arith_usize_ok by (rewrite zlen_app; lia).
      replace (zlen (p ++ b) - zlen p <? n) with false by (rewrite zlen_app; lia).
      cbn [negb]. unfold signed_width in S.
      replace (n =? 8) with false by lia. replace (n =? 16) with false by lia.
      replace (n =? 24) with false by lia. replace (n =? 32) with false by lia.
      replace (n =? 40) with false by lia. replace (n =? 48) with false by lia.
      replace (n =? 56) with false by lia. replace (n =? 64) with false by lia.
      replace (n =? 128) with false by lia. reflexivity.
Qed.

Lemma local_bits_as_integer E n sg : local (decode_bits_as_integer E n sg).
Proof. destruct sg; [apply local_sint | apply local_uint]. Qed.

(* the bounds test in front of get_bitvec / get_bytes *)
Lemma arith_usize_cases E z :
  (exists w, arith_usize E z = Ok w /\ (0 <= z < 2 ^ 64 -> w = z)) \/ (arith_usize E z = Panic /\ ~ (0 <= z < 2 ^ 64)).
Proof.
  unfold arith_usize. destruct (in_usize z) eqn:C; unfold in_usize in C.
  - left. eexists; split; [reflexivity|auto].
  - destruct (overflow_checks E).
    + right. split; [reflexivity|lia].
    + left. eexists; split; [reflexivity|]. lia.
Qed.

Lemma local_bitvec E n : local (get_bitvec E n).
Proof.
  apply local_intro. intros p b k F. pose proof (fits_nonneg p b F) as (Np & Nb & Nf).
  destruct (Z_le_dec 0 n) as [H0|H0]; [destruct (Z_le_dec n (zlen b)) as [H1|H1]|].
  - right. destruct (split_at b n) as (e & t & Hb & He); [lia|].
    exists e, t, e. split; [assumption|]. apply reads_bitvec. lia.
  - left. unfold get_bitvec, bind, get_bits, get_off, lift. cbn [off bits].
    destruct (arith_usize_cases E (n + zlen p)) as [(w & Ew & Hw)|[Ew _]]; rewrite Ew.
    + destruct (zlen (p ++ b) <? w) eqn:C.
      * exists Err. rewrite arith_usize_ok by (rewrite zlen_app; lia). split; [reflexivity|congruence].
      * exists Panic. rewrite slice_at_off_bad by lia. split; [reflexivity|congruence].
    + exists Panic. split; [reflexivity|congruence].
  - left. unfold get_bitvec, bind, get_bits, get_off, lift. cbn [off bits].
    destruct (arith_usize_cases E (n + zlen p)) as [(w & Ew & Hw)|[Ew _]]; rewrite Ew.
    + destruct (zlen (p ++ b) <? w) eqn:C.
      * exists Err. rewrite arith_usize_ok by (rewrite zlen_app; lia). split; [reflexivity|congruence].
      * exists Panic. rewrite slice_at_off_bad by lia. split; [reflexivity|congruence].
    + exists Panic. split; [reflexivity|congruence].
Qed.

Lemma local_ext {A} (m m' : M A) : (forall s, m s = m' s) -> local m' -> local m.
Proof.
  intros H L p b k r s' F E. rewrite H in E. destruct (L p b k r s' F E) as (e & t & k' & Hb & Hs & Hr).
  exists e, t, k'. repeat split; auto. destruct r; auto. intros. rewrite H. auto.
Qed.

Lemma get_bytes_eq E n s :
  get_bytes E n s = (w <- lift (arith_usize E (n * 8)) ;; bv <- get_bitvec E w ;; ret (pack bv)) s.
Proof.
  unfold get_bytes, get_bitvec, bind, get_bits, get_off, lift, ret. cbv beta iota.
  destruct (arith_usize E (n * 8)) as [w| | |]; auto.
  destruct (arith_usize E (w + off s)) as [x| | |]; auto.
  destruct (zlen (bits s) <? x).
  - destruct (arith_usize E (zlen (bits s) - off s)); reflexivity.
  - destruct (slice_at_off w s) as [[l| | |] s1]; auto.
    destruct (advance_maybe_err E w true s1) as [[u| | |] s2]; reflexivity.
Qed.

Lemma local_bytes E n : local (get_bytes E n).
Proof.
  eapply local_ext; [apply get_bytes_eq|].
  apply local_bind; [apply local_lift|intros w].
  apply local_bind; [apply local_bitvec|intros; apply local_ret].
Qed.

Ltac loc := repeat first
  [ apply local_bool | apply local_align | apply local_bits_as_integer | apply local_bitvec
  | apply local_bytes | apply local_to_usize | apply local_lift | apply local_ret | apply local_err
  | apply local_panic | apply local_diverge
  | match goal with |- local (bind _ _) => apply local_bind; [|intros ?] end
  | match goal with |- local (if ?c then _ else _) => destruct c end
  | match goal with |- local (match ?c with Some _ => _ | None => _ end) => destruct c end
  | progress cbv zeta ].

Lemma local_con_fuel f E : forall lb ub, local (decode_constrained_fuel f E lb ub).
Proof. induction f; intros; cbn [decode_constrained_fuel]; loc; apply IHf. Qed.
Lemma local_con E lb ub : local (decode_constrained_whole_number E lb ub).
Proof. apply local_con_fuel. Qed.
Lemma local_indef E : local (decode_indefinite_length_determinent E).
Proof. unfold decode_indefinite_length_determinent. loc. Qed.
Lemma local_small E : local (decode_normally_small_length_determinent E).
Proof. unfold decode_normally_small_length_determinent. loc; apply local_indef. Qed.
Lemma local_len E lb ub ns : local (decode_length_determinent E lb ub ns).
Proof.
  unfold decode_length_determinent, decode_constrained_length_determinent.
  loc; first [apply local_small | apply local_indef | apply local_con].
Qed.
Lemma local_unc E : local (decode_unconstrained_whole_number E).
Proof. unfold decode_unconstrained_whole_number. loc; apply local_len. Qed.
Lemma local_semi E lb : local (decode_semi_constrained_whole_number E lb).
Proof. unfold decode_semi_constrained_whole_number. loc; apply local_len. Qed.
Lemma local_nsnn E : local (decode_normally_small_non_negative_whole_number E).
Proof. unfold decode_normally_small_non_negative_whole_number. loc; apply local_semi. Qed.
Lemma local_ext_bit E x : local (decode_ext_bit E x).
Proof. unfold decode_ext_bit. loc. Qed.
Lemma local_integer E lb ub x : local (decode_integer E lb ub x).
Proof.
  unfold decode_integer. loc;
    first [apply local_ext_bit | apply local_unc | apply local_semi | apply local_con].
Qed.
Lemma local_choice_idx E lb ub x : local (decode_choice_idx E lb ub x).
Proof. unfold decode_choice_idx. loc; first [apply local_integer | apply local_nsnn]. Qed.
Lemma local_seqhdr E x n : local (decode_sequence_header E x n).
Proof. unfold decode_sequence_header. loc; apply local_ext_bit. Qed.
Lemma local_enum E lb ub x : local (decode_enumerated E lb ub x).
Proof. unfold decode_enumerated. loc; first [apply local_ext_bit | apply local_integer | apply local_nsnn]. Qed.
Lemma local_frag E x lb ub : local (decode_frag_length E x lb ub).
Proof. unfold decode_frag_length. loc; apply local_len. Qed.

(* Reading the starting position is harmless when only its alignment matters. *)
Lemma local_get_off {A} (g : Z -> M A) : (forall h, local (g h)) ->
  local (h <- get_off ;; g (h mod 8)).
Proof.
  intros Hg p b k r s' F E. unfold bind, get_off in E. cbn [off] in E.
  destruct (Hg (zlen p mod 8) p b k r s' F E) as (e & t & k' & Hb & Hs & Hr).
  exists e, t, k'. repeat split; auto. destruct r; auto. intros p' t' Hp F'.
  unfold bind, get_off. cbn [off]. rewrite Hp. auto.
Qed.

Lemma local_string E lb ub x : local (decode_string E lb ub x).
Proof.
  unfold decode_string. apply local_bind; [apply local_ext_bit|intros i].
  apply local_bind; [apply local_frag|intros l].
  apply local_bind; [apply local_lift|intros n].
  apply local_bind; [loc|intros _].
  apply (local_get_off (fun h => bv <- get_bitvec E n ;;
    let bytes := map (load_native E h) (chunks8 bv) in
    if utf8_valid bytes then ret bytes else err)).
  intros h. loc.
Qed.
