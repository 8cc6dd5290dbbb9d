(* The fragment loops of decode_bitstring and decode_octetstring: the fuel in
   the model never runs out, and the loops are local. *)
From Coq Require Import ZArith List Bool Lia.
From Coq Require Import ZifyBool ZifyNat ZifyN.
Require Import Verif.Base Verif.CodecModel Verif.BitLemmas Verif.Spec Verif.Combinators.
Require Import Verif.LengthProofs Verif.IntegerProofs Verif.StringProofs Verif.Local Verif.Ranges.
Import ListNotations.
Open Scope Z_scope.
Ltac Zify.zify_post_hook ::= Z.div_mod_to_equations.

(* no Diverge outcome *)
Definition nodiv {A} (m : M A) : Prop :=
  forall p b k, fits (p ++ b) -> fst (m (mkD (p ++ b) (zlen p) k)) <> Diverge.

Lemma nodiv_bind {A B} (m : M A) (f : A -> M B) :
  local m -> nodiv m -> (forall v, nodiv (f v)) -> nodiv (bind m f).
Proof.
  intros L H1 H2 p b k F. unfold bind.
  destruct (m (mkD (p ++ b) (zlen p) k)) as [r s'] eqn:E.
  destruct (L p b k r s' F E) as (e & t & k' & -> & -> & _).
  specialize (H1 p (e ++ t) k F). rewrite E in H1. cbn [fst] in H1.
  destruct r; cbn [fst]; try congruence.
  rewrite app_assoc, <- zlen_app. apply H2. now rewrite <- app_assoc.
Qed.

Lemma nodiv_fst {A} (m : M A) : (forall s, fst (m s) <> Diverge) -> nodiv m.
Proof. intros H p b k F. apply H. Qed.
Lemma nodiv_ret {A} (v : A) : nodiv (ret v). Proof. apply nodiv_fst; cbn; congruence. Qed.
Lemma nodiv_err {A} : nodiv (@err A). Proof. apply nodiv_fst; cbn; congruence. Qed.
Lemma nodiv_panic {A} : nodiv (@panic A). Proof. apply nodiv_fst; cbn; congruence. Qed.
Lemma arith_i128_nodiv E z : arith_i128 E z <> Diverge.
Proof. unfold arith_i128. destruct (in_i128 z), (overflow_checks E); congruence. Qed.
Lemma arith_usize_nodiv E z : arith_usize E z <> Diverge.
Proof. unfold arith_usize. destruct (in_usize z), (overflow_checks E); congruence. Qed.
Lemma nodiv_i128 E z : nodiv (lift (arith_i128 E z)).
Proof. apply nodiv_fst; intros s. apply arith_i128_nodiv. Qed.
Lemma nodiv_usize E z : nodiv (lift (arith_usize E z)).
Proof. apply nodiv_fst; intros s. apply arith_usize_nodiv. Qed.
Lemma nodiv_to_usize z : nodiv (to_usize z).
Proof. unfold to_usize. destruct (in_usize z); [apply nodiv_ret|apply nodiv_panic]. Qed.

(* Straight-line code over the raw primitives, for any state at all. *)
Definition nd {A} (m : M A) : Prop := forall s, fst (m s) <> Diverge.
Lemma nd_bind {A B} (m : M A) (f : A -> M B) : nd m -> (forall v, nd (f v)) -> nd (bind m f).
Proof.
  intros H1 H2 s. specialize (H1 s). unfold bind. destruct (m s) as [[| | |] s1]; cbn [fst] in *; try congruence; apply H2.
Qed.
Lemma nd_ret {A} (v : A) : nd (ret v). Proof. intros s; cbn; congruence. Qed.
Lemma nd_err {A} : nd (@err A). Proof. intros s; cbn; congruence. Qed.
Lemma nd_panic {A} : nd (@panic A). Proof. intros s; cbn; congruence. Qed.
Lemma nd_usize E z : nd (lift (arith_usize E z)). Proof. intros s. apply arith_usize_nodiv. Qed.
Lemma nd_i128 E z : nd (lift (arith_i128 E z)). Proof. intros s. apply arith_i128_nodiv. Qed.
Lemma nd_to_usize z : nd (to_usize z).
Proof. unfold to_usize. destruct (in_usize z); [apply nd_ret|apply nd_panic]. Qed.
Lemma nd_slice n : nd (slice_at_off n).
Proof. intros s. unfold slice_at_off. destruct (_ && _); cbn; congruence. Qed.
Lemma nd_bit : nd bit_at_off.
Proof. intros s. unfold bit_at_off. destruct (_ && _); cbn; congruence. Qed.
Lemma nd_get_bits : nd get_bits. Proof. intros s; cbn; congruence. Qed.
Lemma nd_get_off : nd get_off. Proof. intros s; cbn; congruence. Qed.
Lemma nd_set_off o : nd (set_off o). Proof. intros s; cbn; congruence. Qed.
Lemma nd_load w l : nd (load_be w l).
Proof. unfold load_be. destruct (_ && _); [apply nd_ret|apply nd_panic]. Qed.
Ltac ndt := repeat first
  [ apply nd_ret | apply nd_err | apply nd_panic | apply nd_usize | apply nd_i128 | apply nd_to_usize
  | apply nd_slice | apply nd_bit | apply nd_get_bits | apply nd_get_off | apply nd_set_off | apply nd_load
  | match goal with |- nd (bind _ _) => apply nd_bind; [|intros ?] end
  | match goal with |- nd (if ?c then _ else _) => destruct c end
  | match goal with |- nd (match ?c with Some _ => _ | None => _ end) => destruct c end
  | progress cbv zeta ].
Lemma nd_align : nd decode_align. Proof. unfold decode_align. ndt. Qed.
Lemma nd_advance E n i : nd (advance_maybe_err E n i). Proof. unfold advance_maybe_err. ndt. Qed.
Lemma nd_bool E : nd (data_decode_bool E). Proof. unfold data_decode_bool. ndt; apply nd_advance. Qed.
Lemma nd_bits_int E n sg : nd (decode_bits_as_integer E n sg).
Proof. unfold decode_bits_as_integer. ndt; apply nd_advance. Qed.
Lemma nd_bitvec E n : nd (get_bitvec E n). Proof. unfold get_bitvec. ndt; apply nd_advance. Qed.
Lemma nd_bytes E n : nd (get_bytes E n). Proof. unfold get_bytes. ndt; apply nd_advance. Qed.

Ltac nd2 := repeat first
  [ apply nd_align | apply nd_bool | apply nd_bits_int | apply nd_bitvec | apply nd_bytes | progress ndt ].


Lemma bytes_needed_bound r : 0 < r < 2 ^ 127 -> 1 <= bytes_needed_for_range r <= 16.
Proof.
  intros H. rewrite bytes_needed_octets by assumption. unfold octets.
  assert (Z.log2 r < 127) by (apply Z.log2_lt_pow2; lia). pose proof (Z.log2_nonneg r).
  unfold bitlen. replace (r <=? 0) with false by lia. lia.
Qed.

Lemma nd_con1 f E needed : 1 <= needed <= 16 -> nd (decode_constrained_fuel (S f) E 1 needed).
Proof.
  intros H s. cbn [decode_constrained_fuel].
  unfold bind at 1. rewrite (arith_i128_ok E (needed - 1)) by lia. unfold lift at 1.
  unfold bind at 1. rewrite (arith_i128_ok E (needed - 1 + 1)) by lia. unfold lift at 1.
  replace (needed - 1 + 1) with needed by lia.
  replace (needed <=? 0) with false by lia. replace (needed <? 256) with true by lia.
  revert s. fold (nd (value <- decode_bits_as_integer E (dec_range_bits needed) false ;;
    lift (arith_i128 E (value + 1)))). nd2.
Qed.

Lemma nd_con E lb ub : nd (decode_constrained_whole_number E lb ub).
Proof.
  unfold decode_constrained_whole_number. remember 1%nat as f eqn:Ef. cbn [decode_constrained_fuel].
  apply nd_bind; [apply nd_i128|intros d].
  intros s. unfold bind at 1, lift at 1. destruct (arith_i128 E (d + 1)) as [r| | |] eqn:Er;
    try (cbn; congruence); [|now apply arith_i128_nodiv in Er].
  apply arith_i128_range in Er. revert s.
  destruct (r <=? 0) eqn:C; [apply nd_err|].
  pose proof (bytes_needed_bound r ltac:(lia)).
  match goal with |- forall s, fst (?m s) <> _ => change (nd m) end.
  apply nd_bind; [|intros; apply nd_i128].
  nd2; subst f; apply nd_con1; assumption.
Qed.
Lemma nd_indef E : nd (decode_indefinite_length_determinent E).
Proof. unfold decode_indefinite_length_determinent. nd2. Qed.
Lemma nd_small E : nd (decode_normally_small_length_determinent E).
Proof. unfold decode_normally_small_length_determinent. nd2; apply nd_indef. Qed.
Lemma nd_len E lb ub ns : nd (decode_length_determinent E lb ub ns).
Proof.
  unfold decode_length_determinent, decode_constrained_length_determinent.
  nd2; first [apply nd_small | apply nd_indef | apply nd_con].
Qed.
Lemma nd_unc E : nd (decode_unconstrained_whole_number E).
Proof. unfold decode_unconstrained_whole_number. nd2; apply nd_len. Qed.
Lemma nd_semi E lb : nd (decode_semi_constrained_whole_number E lb).
Proof. unfold decode_semi_constrained_whole_number. nd2; apply nd_len. Qed.
Lemma nd_nsnn E : nd (decode_normally_small_non_negative_whole_number E).
Proof. unfold decode_normally_small_non_negative_whole_number. nd2; apply nd_semi. Qed.
Lemma nd_ext_bit E x : nd (decode_ext_bit E x).
Proof. unfold decode_ext_bit. nd2. Qed.
Lemma nd_integer E lb ub x : nd (decode_integer E lb ub x).
Proof.
  unfold decode_integer.
  nd2; first [apply nd_ext_bit | apply nd_unc | apply nd_semi | apply nd_con].
Qed.
Lemma nd_choice_idx E lb ub x : nd (decode_choice_idx E lb ub x).
Proof. unfold decode_choice_idx. nd2; first [apply nd_integer | apply nd_nsnn]. Qed.
Lemma nd_seqhdr E x n : nd (decode_sequence_header E x n).
Proof. unfold decode_sequence_header. nd2; apply nd_ext_bit. Qed.
Lemma nd_enum E lb ub x : nd (decode_enumerated E lb ub x).
Proof. unfold decode_enumerated. nd2; first [apply nd_ext_bit | apply nd_integer | apply nd_nsnn]. Qed.
Lemma nd_frag E x lb ub : nd (decode_frag_length E x lb ub).
Proof. unfold decode_frag_length. nd2; apply nd_len. Qed.
Lemma nd_string E lb ub x : nd (decode_string E lb ub x).
Proof. unfold decode_string. nd2; first [apply nd_ext_bit | apply nd_frag]. Qed.
Lemma nodiv_nd {A} (m : M A) : nd m -> nodiv m.
Proof. intros H p b k F. apply H. Qed.

(* ---- loops with fuel ---- *)
Section Loop.
  Context {A : Type} (step : A -> M (A * bool)) (loop : nat -> A -> M A).
  Hypothesis loop_S : forall f a s, loop (S f) a s =
    (p <- step a ;; if snd p then loop f (fst p) else ret (fst p)) s.
  Hypothesis step_local : forall a, local (step a).
  Hypothesis step_nodiv : forall a, nodiv (step a).
  (* an iteration that goes on has consumed something *)
  Hypothesis step_progress : forall a p b k a' s', fits (p ++ b) ->
    step a (mkD (p ++ b) (zlen p) k) = (Ok (a', true), s') -> zlen p < off s'.

  Lemma loop_spec : forall f a p b k r s', fits (p ++ b) -> zlen b < Z.of_nat f ->
    loop f a (mkD (p ++ b) (zlen p) k) = (r, s') ->
    r <> Diverge /\
    exists e t k', b = e ++ t /\ s' = mkD (p ++ b) (zlen p + zlen e) k' /\
      match r with
      | Ok v => forall p' t' f', zlen p' mod 8 = zlen p mod 8 -> fits (p' ++ e ++ t') ->
          zlen (e ++ t') < Z.of_nat f' ->
          loop f' a (mkD (p' ++ e ++ t') (zlen p') k)
          = (Ok v, mkD (p' ++ e ++ t') (zlen p' + zlen e) k')
      | _ => True
      end.
  Proof.
    induction f as [|f IH]; intros a p b k r s' F Hf H.
    { pose proof (zlen_nonneg b). lia. }
    rewrite loop_S in H. unfold bind in H.
    destruct (step a (mkD (p ++ b) (zlen p) k)) as [r1 s1] eqn:E1.
    destruct (step_local a p b k r1 s1 F E1) as (e1 & t1 & k1 & Hb & Hs1 & Hr1).
    pose proof (step_nodiv a p b k F) as ND. rewrite E1 in ND. cbn [fst] in ND.
    destruct r1 as [[a1 c]| | |]; try congruence;
      try (injection H as <- <-; split; [congruence|]; exists e1, t1, k1; repeat split; auto; fail).
    cbn [fst snd] in H. destruct c.
    - pose proof (step_progress a p b k a1 s1 F E1) as PR. rewrite Hs1 in PR. cbn [off] in PR.
      subst s1. rewrite Hb in H. rewrite app_assoc in H.
      replace (zlen p + zlen e1) with (zlen (p ++ e1)) in H by apply zlen_app.
      destruct (IH a1 (p ++ e1) t1 k1 r s') as (ND2 & e2 & t2 & k2 & Ht & Hs & Hr).
      { rewrite <- app_assoc, <- Hb. exact F. }
      { rewrite Hb, zlen_app in Hf. lia. }
      { exact H. }
      split; [exact ND2|]. exists (e1 ++ e2), t2, k2. split; [|split].
      + rewrite Hb, Ht, app_assoc. reflexivity.
      + rewrite Hs, Hb, !zlen_app, Z.add_assoc, app_assoc. reflexivity.
      + destruct r as [w| | |]; auto. intros p' t' f' Hp' F' Hf'.
        rewrite <- (app_assoc e1 e2 t') in *.
        destruct f' as [|f']. { pose proof (zlen_nonneg (e1 ++ e2 ++ t')). lia. }
        rewrite loop_S. unfold bind. rewrite (Hr1 p' (e2 ++ t') Hp' F').
        cbn [fst snd].
        specialize (Hr (p' ++ e1) t' f'). rewrite <- (app_assoc p' e1 (e2 ++ t')) in Hr.
        rewrite !zlen_app in Hr. rewrite Hr; [|lia|exact F'|rewrite !zlen_app in Hf'; lia].
        now rewrite zlen_app, Z.add_assoc.
    - injection H as <- <-. split; [congruence|]. exists e1, t1, k1. repeat split; auto.
      intros p' t' f' Hp' F' Hf'.
      destruct f' as [|f']. { pose proof (zlen_nonneg (e1 ++ t')). lia. }
      rewrite loop_S. unfold bind. rewrite (Hr1 p' t' Hp' F'). reflexivity.
  Qed.

  Lemma loop_local a : local (n <- loop_fuel ;; loop n a).
  Proof.
    intros p b k r s' F H. unfold bind, loop_fuel in H. cbn [bits] in H.
    destruct (loop_spec (S (length (p ++ b))) a p b k r s' F) as (_ & e & t & k' & Hb & Hs & Hr).
    { unfold zlen. rewrite app_length. lia. }
    { exact H. }
    exists e, t, k'. repeat split; auto. destruct r; auto. intros p' t' Hp F'.
    unfold bind, loop_fuel. cbn [bits]. apply Hr; auto.
    unfold zlen. rewrite !app_length. lia.
  Qed.
  Lemma loop_nodiv a : nodiv (n <- loop_fuel ;; loop n a).
  Proof.
    intros p b k F. unfold bind, loop_fuel. cbn [bits].
    destruct (loop _ a _) as [r s'] eqn:H.
    eapply loop_spec in H as [H _]; auto. unfold zlen. rewrite app_length. lia.
  Qed.
End Loop.

(* ---- the two fragment loops ---- *)
Lemma bitvec_consumes E n p b k v s' : fits (p ++ b) ->
  get_bitvec E n (mkD (p ++ b) (zlen p) k) = (Ok v, s') -> off s' = zlen p + n.
Proof.
  intros F H. pose proof (fits_nonneg p b F) as (Np & Nb & Nf).
  unfold get_bitvec, bind, get_bits, get_off, lift in H. cbn [off bits] in H.
  destruct (arith_usize E (n + zlen p)) as [x| | |]; try discriminate.
  destruct (zlen (p ++ b) <? x).
  { destruct (arith_usize E _); discriminate. }
  destruct (Z_le_dec 0 n) as [H0|H0]; [destruct (Z_le_dec n (zlen b)) as [H1|H1]|];
    try (rewrite slice_at_off_bad in H by lia; discriminate).
  unfold slice_at_off in H. cbn [off bits] in H. rewrite zlen_app in H.
  replace ((0 <=? zlen p) && (0 <=? n) && (zlen p + n <=? zlen p + zlen b)) with true in H by lia.
  unfold advance_maybe_err, bind, get_bits, get_off, lift in H. cbn [off bits] in H.
  rewrite arith_usize_ok in H by lia. rewrite zlen_app in H.
  replace (zlen p + zlen b <? zlen p + n) with false in H by lia.
  cbn in H. injection H as <- <-. reflexivity.
Qed.

Lemma bytes_consumes E n p b k v s' : fits (p ++ b) -> 0 <= n < 2 ^ 60 ->
  get_bytes E n (mkD (p ++ b) (zlen p) k) = (Ok v, s') -> off s' = zlen p + 8 * n.
Proof.
  intros F Hn H. rewrite get_bytes_eq in H. unfold bind, lift in H.
  rewrite arith_usize_ok in H by lia.
  destruct (get_bitvec E (n * 8) _) as [[l| | |] s1] eqn:G; try discriminate.
  apply bitvec_consumes in G; [|assumption]. cbn in H. injection H as <- <-. lia.
Qed.

(* one iteration; `get` is get_bitvec or get_bytes, `t` the alignment threshold *)
Definition frag_step {A} (E : env) (get : Z -> M (list A)) (t : Z) (x : bool) (lb ub : option Z)
    (acc : list A) : M (list A * bool) :=
  length <- decode_frag_length E x lb ub ;;
  acc' <-
    (if 0 <? length then
       (if t <? length then decode_align else ret tt) ;;
       piece <- get length ;;
       ret (acc ++ piece)
     else ret acc) ;;
  ret (acc', 16384 <=? length).

Lemma bind_assoc {A B C} (m : M A) (f : A -> M B) (g : B -> M C) s :
  bind (bind m f) g s = bind m (fun a => bind (f a) g) s.
Proof. unfold bind. destruct (m s) as [[| | |] s1]; reflexivity. Qed.
Lemma bind_ext {A B} (m : M A) (f g : A -> M B) s :
  (forall v s, f v s = g v s) -> bind m f s = bind m g s.
Proof. intros H. unfold bind. destruct (m s) as [[| | |] s1]; auto. Qed.

Lemma bitstring_loop_S E x lb ub f acc s :
  bitstring_loop (S f) E x lb ub acc s =
  (p <- frag_step E (get_bitvec E) 16 x lb ub acc ;;
   if snd p then bitstring_loop f E x lb ub (fst p) else ret (fst p)) s.
Proof.
  cbn [bitstring_loop]. unfold frag_step. rewrite bind_assoc. apply bind_ext; intros l s1.
  rewrite bind_assoc. apply bind_ext; intros a s2. reflexivity.
Qed.
Lemma octetstring_loop_S E x lb ub f acc s :
  octetstring_loop (S f) E x lb ub acc s =
  (p <- frag_step E (get_bytes E) 2 x lb ub acc ;;
   if snd p then octetstring_loop f E x lb ub (fst p) else ret (fst p)) s.
Proof.
  cbn [octetstring_loop]. unfold frag_step. rewrite bind_assoc. apply bind_ext; intros l s1.
  rewrite bind_assoc. apply bind_ext; intros a s2. reflexivity.
Qed.

Section Frag.
  Context {A : Type} (E : env) (get : Z -> M (list A)) (t : Z).
  Hypothesis get_local : forall n, local (get n).
  Hypothesis get_nd : forall n, nd (get n).
  Hypothesis get_consumes : forall n p b k v s', fits (p ++ b) -> 1 <= n <= 131070 ->
    get n (mkD (p ++ b) (zlen p) k) = (Ok v, s') -> zlen p < off s'.

  Lemma frag_step_local x lb ub acc : local (frag_step E get t x lb ub acc).
  Proof.
    unfold frag_step. apply local_bind; [apply local_frag|intros l].
    apply local_bind; [loc; apply get_local|intros; apply local_ret].
  Qed.
  Lemma frag_step_nodiv x lb ub acc : nodiv (frag_step E get t x lb ub acc).
  Proof.
    apply nodiv_nd. unfold frag_step. apply nd_bind; [apply nd_frag|intros l].
    apply nd_bind; [nd2; apply get_nd|intros; apply nd_ret].
  Qed.
  Lemma frag_step_progress x lb ub acc p b k a' s' : fits (p ++ b) ->
    frag_step E get t x lb ub acc (mkD (p ++ b) (zlen p) k) = (Ok (a', true), s') -> zlen p < off s'.
  Proof.
    intros F H. unfold frag_step in H. unfold bind at 1 in H.
    destruct (decode_frag_length E x lb ub _) as [[l| | |] s1] eqn:E1; try discriminate.
    pose proof (returns_frag E x lb ub _ _ _ E1) as Rl. cbv beta in Rl.
    destruct (local_frag E x lb ub p b k _ _ F E1) as (e1 & t1 & k1 & -> & -> & _).
    rewrite app_assoc, <- zlen_app in H. rewrite app_assoc in F.
    destruct (0 <? l) eqn:C.
    - unfold bind at 1 in H. unfold bind at 1 in H.
      destruct ((if t <? l then decode_align else ret tt) _) as [[u| | |] s2] eqn:E2; try discriminate.
      assert (L2 : local (if t <? l then decode_align else ret tt)) by loc.
      destruct (L2 _ _ _ _ _ F E2) as (e2 & t2 & k2 & -> & -> & _).
      rewrite app_assoc, <- zlen_app in H. rewrite app_assoc in F.
      unfold bind at 1 in H.
      destruct (get l _) as [[v| | |] s3] eqn:E3; try discriminate.
      apply get_consumes in E3; [|assumption|lia].
      cbn in H. injection H as <- ? <-. rewrite !zlen_app in E3.
      pose proof (zlen_nonneg e1). pose proof (zlen_nonneg e2). lia.
    - cbn in H. injection H as <- ? <-. lia.
  Qed.
End Frag.

Lemma local_bitstring E lb ub x : local (decode_bitstring E lb ub x).
Proof.
  unfold decode_bitstring. apply local_bind; [apply local_ext_bit|intros i].
  apply (loop_local (frag_step E (get_bitvec E) 16 i lb ub) (fun n => bitstring_loop n E i lb ub)).
  - intros; apply bitstring_loop_S.
  - intros; apply frag_step_local, local_bitvec.
  - intros; apply frag_step_nodiv, nd_bitvec.
  - intros a p b k a' s' F. apply frag_step_progress; auto using local_bitvec, nd_bitvec.
    intros n p0 b0 k0 v s0 F0 Hn H0. apply bitvec_consumes in H0; auto; lia.
Qed.
Lemma nodiv_bitstring E lb ub x : nodiv (decode_bitstring E lb ub x).
Proof.
  unfold decode_bitstring. apply nodiv_bind; [apply local_ext_bit|apply nodiv_nd, nd_ext_bit|intros i].
  apply (loop_nodiv (frag_step E (get_bitvec E) 16 i lb ub) (fun n => bitstring_loop n E i lb ub)).
  - intros; apply bitstring_loop_S.
  - intros; apply frag_step_local, local_bitvec.
  - intros; apply frag_step_nodiv, nd_bitvec.
  - intros a p b k a' s' F. apply frag_step_progress; auto using local_bitvec, nd_bitvec.
    intros n p0 b0 k0 v s0 F0 Hn H0. apply bitvec_consumes in H0; auto; lia.
Qed.
Lemma local_octetstring E lb ub x : local (decode_octetstring E lb ub x).
Proof.
  unfold decode_octetstring. apply local_bind; [apply local_ext_bit|intros i].
  apply (loop_local (frag_step E (get_bytes E) 2 i lb ub) (fun n => octetstring_loop n E i lb ub)).
  - intros; apply octetstring_loop_S.
  - intros; apply frag_step_local, local_bytes.
  - intros; apply frag_step_nodiv, nd_bytes.
  - intros a p b k a' s' F. apply frag_step_progress; auto using local_bytes, nd_bytes.
    intros n p0 b0 k0 v s0 F0 Hn H0. apply bytes_consumes in H0; auto; lia.
Qed.
Lemma nodiv_octetstring E lb ub x : nodiv (decode_octetstring E lb ub x).
Proof.
  unfold decode_octetstring. apply nodiv_bind; [apply local_ext_bit|apply nodiv_nd, nd_ext_bit|intros i].
  apply (loop_nodiv (frag_step E (get_bytes E) 2 i lb ub) (fun n => octetstring_loop n E i lb ub)).
  - intros; apply octetstring_loop_S.
  - intros; apply frag_step_local, local_bytes.
  - intros; apply frag_step_nodiv, nd_bytes.
  - intros a p b k a' s' F. apply frag_step_progress; auto using local_bytes, nd_bytes.
    intros n p0 b0 k0 v s0 F0 Hn H0. apply bytes_consumes in H0; auto; lia.
Qed.
