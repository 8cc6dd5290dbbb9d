(* Encoders only append, and what they append depends only on the arguments
   and on the alignment of the buffer.  Out-of-range values are rejected. *)
From Coq Require Import ZArith List Bool Lia.
From Coq Require Import ZifyBool ZifyNat ZifyN.
Require Import Verif.Base Verif.CodecModel Verif.BitLemmas Verif.Spec Verif.Combinators.
Require Import Verif.LengthProofs Verif.IntegerProofs Verif.StringProofs Verif.Ranges Verif.Loops.
Import ListNotations.
Open Scope Z_scope.
Ltac Zify.zify_post_hook ::= Z.div_mod_to_equations.

Definition emits {A} (m : M A) : Prop :=
  forall a, exists r e, forall p o k, zlen p mod 8 = a mod 8 ->
    m (mkD p o k) = (r, mkD (p ++ e) o k).

Lemma emits_bind {A B} (m : M A) (f : A -> M B) : emits m -> (forall v, emits (f v)) -> emits (bind m f).
Proof.
  intros Hm Hf a. destruct (Hm a) as (r & e & H).
  destruct r as [v| | |].
  2,3,4: eexists _, e; intros; unfold bind; rewrite H by assumption; reflexivity.
  destruct (Hf v (a + zlen e)) as (r2 & e2 & H2).
  exists r2, (e ++ e2). intros. unfold bind. rewrite H by assumption.
  rewrite H2 by (rewrite zlen_app; lia). now rewrite app_assoc.
Qed.
Lemma emits_lift {A} (r : res A) : emits (lift r).
Proof. intros a. exists r, []. intros. now rewrite app_nil_r. Qed.
Lemma emits_ret {A} (v : A) : emits (ret v). Proof. apply (emits_lift (Ok v)). Qed.
Lemma emits_err {A} : emits (@err A). Proof. apply (emits_lift Err). Qed.
Lemma emits_panic {A} : emits (@panic A). Proof. apply (emits_lift Panic). Qed.
Lemma emits_diverge {A} : emits (@diverge A). Proof. apply (emits_lift Diverge). Qed.
Lemma emits_append l : emits (append_bits l).
Proof. intros a. exists (Ok tt), l. reflexivity. Qed.
Lemma emits_align : emits align.
Proof. intros a. exists (Ok tt), (pad a). intros. now apply writes_align. Qed.

Ltac em := repeat first
  [ apply emits_ret | apply emits_err | apply emits_panic | apply emits_diverge | apply emits_lift
  | apply emits_append | apply emits_align
  | match goal with |- emits (bind _ _) => apply emits_bind; [|intros ?] end
  | match goal with |- emits (if ?c then _ else _) => destruct c end
  | match goal with |- emits (match ?c with Some _ => _ | None => _ end) => destruct c end
  | match goal with |- emits (let (_, _) := ?c in _) => destruct c end
  | progress cbv zeta ].

Lemma emits_indef v : emits (encode_indefinite_length_determinent v).
Proof. unfold encode_indefinite_length_determinent. em. Qed.
Lemma emits_small E v : emits (encode_normally_small_length_determinent E v).
Proof. unfold encode_normally_small_length_determinent, data_encode_bool. em; apply emits_indef. Qed.
Lemma emits_con_fuel f E : forall lb ub v, emits (encode_constrained_fuel f E lb ub v).
Proof. induction f; intros; cbn [encode_constrained_fuel]; em; apply IHf. Qed.
Lemma emits_con E lb ub v : emits (encode_constrained_whole_number E lb ub v).
Proof. apply emits_con_fuel. Qed.
Lemma emits_len E lb ub ns v : emits (encode_length_determinent E lb ub ns v).
Proof. unfold encode_length_determinent. em; first [apply emits_small | apply emits_con | apply emits_indef]. Qed.
Lemma emits_unc E v : emits (encode_unconstrained_whole_number E v).
Proof. unfold encode_unconstrained_whole_number. em; apply emits_len. Qed.
Lemma emits_semi E lb v : emits (encode_semi_constrained_whole_number E lb v).
Proof. unfold encode_semi_constrained_whole_number. em; apply emits_unc. Qed.
Lemma emits_ext x : emits (encode_ext_bit x).
Proof. unfold encode_ext_bit, data_encode_bool. em. Qed.
Lemma emits_integer E lb ub ext v x : emits (encode_integer E lb ub ext v x).
Proof.
  unfold encode_integer. em; first [apply emits_ext | apply emits_unc | apply emits_semi | apply emits_con].
Qed.
Lemma emits_choice E lb ub ext v x : emits (encode_choice_idx E lb ub ext v x).
Proof. unfold encode_choice_idx. em; first [apply emits_ext | apply emits_integer]. Qed.
Lemma emits_seqhdr ext o x : emits (encode_sequence_header ext o x).
Proof. unfold encode_sequence_header. em; apply emits_ext. Qed.
Lemma emits_bool v : emits (encode_bool v).
Proof. apply emits_append. Qed.
Lemma emits_enum E lb ub ext v x : emits (encode_enumerated E lb ub ext v x).
Proof. unfold encode_enumerated. em; first [apply emits_ext | apply emits_integer]. Qed.
Lemma emits_bitstring E lb ub ext v x : emits (encode_bitstring E lb ub ext v x).
Proof. unfold encode_bitstring. em; first [apply emits_ext | apply emits_len]. Qed.
Lemma emits_octetstring E lb ub ext v x : emits (encode_octetstring E lb ub ext v x).
Proof. unfold encode_octetstring. em; first [apply emits_ext | apply emits_len]. Qed.
Lemma emits_string E lb ub ext v x : emits (encode_string E lb ub ext v x).
Proof. unfold encode_string. em; first [apply emits_ext | apply emits_len]. Qed.

(* ---- rejection ---- *)
(* On every buffer the call fails, having appended exactly e. *)
Definition rejects (m : M unit) (e : list bool) : Prop :=
  forall p o k, m (mkD p o k) = (Err, mkD (p ++ e) o k).

Lemma rejects_err : rejects err [].
Proof. intros p o k. now rewrite app_nil_r. Qed.
Lemma rejects_ext ext (m : M unit) : rejects m [] -> rejects (encode_ext_bit ext ;; m) (ext_bits ext).
Proof.
  intros H p o k. destruct ext; unfold bind; cbn.
  - rewrite H. now rewrite app_nil_r.
  - apply H.
Qed.
Lemma rejects_con E lb ub v : v < lb \/ ub < v -> rejects (encode_constrained_whole_number E lb ub v) [].
Proof.
  intros H p o k. unfold encode_constrained_whole_number. cbn [encode_constrained_fuel].
  destruct (v <? lb) eqn:C1; [apply rejects_err|].
  replace (ub <? v) with true by lia. apply rejects_err.
Qed.
Lemma rejects_semi E lb v : v < lb -> rejects (encode_semi_constrained_whole_number E lb v) [].
Proof.
  intros H p o k. unfold encode_semi_constrained_whole_number. replace (v <? lb) with true by lia.
  apply rejects_err.
Qed.

(* v lies outside the bounds that an INTEGER with a lower bound checks *)
Definition outside (lb ub : option Z) (v : Z) : Prop :=
  match lb with Some l => v < l \/ match ub with Some u => u < v | None => False end | None => False end.

Lemma rejects_integer E lb ub ext v : outside lb ub v ->
  rejects (encode_integer E lb ub ext v false) (ext_bits ext).
Proof.
  intros H. unfold encode_integer. apply rejects_ext.
  destruct lb as [l|]; [|destruct H]. destruct ub as [u|]; cbn in H.
  - now apply rejects_con.
  - apply rejects_semi. tauto.
Qed.
Lemma rejects_enum E lb ub ext v : outside lb ub v ->
  rejects (encode_enumerated E lb ub ext v false) (ext_bits ext).
Proof.
  intros H. unfold encode_enumerated. apply rejects_ext.
  now apply (rejects_integer E lb ub false).
Qed.
Lemma rejects_choice E lb ub ext v : v < lb \/ ub < v ->
  rejects (encode_choice_idx E lb ub ext v false) (ext_bits ext).
Proof.
  intros H. unfold encode_choice_idx. apply rejects_ext.
  now apply (rejects_integer E (Some lb) (Some ub) false).
Qed.

(* A size outside its bounds; bounds as the compiler produces them. *)
Definition size_outside (lb ub : option Z) (n : Z) : Prop :=
  (exists l, lb = Some l /\ n < l < 2 ^ 64) \/ (exists u, ub = Some u /\ u < n < 2 ^ 64).

Lemma rejects_len E lb ub n : 0 <= n -> size_outside lb ub n ->
  rejects (encode_length_determinent E lb ub false n) [].
Proof.
  intros Hn H. unfold encode_length_determinent. cbv zeta.
  assert (I : forall u, ub = Some u -> 65536 <= u ->
    (if wrap_u 64 u <? n then err else
     if match lb with Some l => n <? wrap_u 64 l | None => false end then err
     else encode_indefinite_length_determinent n) = err).
  { intros u Hu Hb. destruct (wrap_u 64 u <? n) eqn:C; [reflexivity|].
    destruct H as [(l & -> & Hl)|(u' & Hu' & Hlt)].
    - rewrite wrap_u_small by lia. replace (n <? l) with true by lia. reflexivity.
    - assert (u' = u) by congruence. subst u'. rewrite wrap_u_small in C by lia. lia. }
  destruct ub as [u|].
  - destruct (u <? 65536) eqn:C.
    + apply rejects_con. destruct H as [(l & -> & Hl)|(u' & Hu' & Hlt)]; [lia|].
      injection Hu' as ->. lia.
    + rewrite (I u) by (auto; lia). apply rejects_err.
  - destruct H as [(l & -> & Hl)|(u' & Hu' & Hlt)]; [|discriminate].
    rewrite wrap_u_small by lia. replace (n <? l) with true by lia. apply rejects_err.
Qed.

Lemma rejects_bind (m : M unit) (f : unit -> M unit) : rejects m [] -> rejects (bind m f) [].
Proof. intros H p o k. unfold bind. now rewrite H. Qed.

Lemma rejects_bitstring E lb ub ext bs : size_outside lb ub (zlen bs) \/ 16384 <= zlen bs ->
  rejects (encode_bitstring E lb ub ext bs false) (ext_bits ext).
Proof.
  intros H. unfold encode_bitstring. apply rejects_ext. cbv zeta.
  destruct (16384 <=? zlen bs) eqn:C; [apply rejects_err|].
  apply rejects_bind, rejects_len; [apply zlen_nonneg|]. destruct H; [assumption|lia].
Qed.
Lemma rejects_octetstring E lb ub ext bs : size_outside lb ub (zlen bs) \/ 16384 <= zlen bs ->
  rejects (encode_octetstring E lb ub ext bs false) (ext_bits ext).
Proof.
  intros H. unfold encode_octetstring. apply rejects_ext. cbv zeta.
  destruct (16384 <=? zlen bs) eqn:C; [apply rejects_err|].
  apply rejects_bind, rejects_len; [apply zlen_nonneg|]. destruct H; [assumption|lia].
Qed.
Lemma rejects_string E lb ub ext bs : size_outside lb ub (zlen bs) ->
  rejects (encode_string E lb ub ext bs false) (ext_bits ext).
Proof.
  intros H. unfold encode_string. apply rejects_ext.
  apply rejects_bind, rejects_len; [apply zlen_nonneg|assumption].
Qed.

(* ---- no panic in encoders ---- *)
Definition calm {A} (m : M A) : Prop := forall s, fst (m s) <> Panic /\ fst (m s) <> Diverge.

Lemma calm_bind {A B} (m : M A) (f : A -> M B) : calm m -> (forall v, calm (f v)) -> calm (bind m f).
Proof.
  intros H1 H2 s. specialize (H1 s). unfold bind. destruct (m s) as [[v| | |] s1]; cbn [fst] in *;
    try (split; congruence); [apply H2|tauto|tauto].
Qed.
Lemma calm_ret {A} (v : A) : calm (ret v). Proof. split; cbn; congruence. Qed.
Lemma calm_err {A} : calm (@err A). Proof. split; cbn; congruence. Qed.
Lemma calm_append l : calm (append_bits l). Proof. split; cbn; congruence. Qed.
Lemma calm_align : calm align. Proof. split; cbn; congruence. Qed.
Lemma calm_lift_ok {A B} (r : res A) v (f : A -> M B) : r = Ok v -> calm (f v) -> calm (bind (lift r) f).
Proof. intros -> H. exact H. Qed.
Ltac cl := repeat first
  [ apply calm_ret | apply calm_err | apply calm_append | apply calm_align
  | match goal with |- calm (bind (lift _) _) => fail 1 | |- calm (bind _ _) => apply calm_bind; [|intros ?] end
  | match goal with |- calm (if ?c then _ else _) => destruct c eqn:? end
  | match goal with |- calm (match ?c with Some _ => _ | None => _ end) => destruct c eqn:? end
  | progress cbv zeta ].
Lemma calm_indef v : calm (encode_indefinite_length_determinent v).
Proof. unfold encode_indefinite_length_determinent. cl. Qed.
Lemma calm_small E v : 0 < v < 2 ^ 64 \/ overflow_checks E = false ->
  calm (encode_normally_small_length_determinent E v).
Proof.
  intros H. unfold encode_normally_small_length_determinent, data_encode_bool. cl; [|apply calm_indef].
  destruct H as [H|H].
  - eapply calm_lift_ok; [apply arith_usize_ok; lia|]. cl.
  - unfold arith_usize. rewrite H. destruct (in_usize (v - 1)); (eapply calm_lift_ok; [reflexivity|]); cl.
Qed.
Lemma enc_table_le256 r : 1 <= r <= 256 -> exists n al, enc_range_table r = Some (n, al).
Proof.
  intros H. destruct (Z.eq_dec r 256) as [->|]; [now exists 8, true|].
  rewrite enc_table_small by lia. eauto.
Qed.
Lemma calm_con_small f E lb ub v : - 2 ^ 127 <= lb -> ub < 2 ^ 127 -> ub - lb + 1 <= 65536 ->
  calm (encode_constrained_fuel (S f) E lb ub v).
Proof.
  intros Hl Hu Hr. cbn [encode_constrained_fuel].
  destruct (v <? lb) eqn:C1; [apply calm_err|]. destruct (ub <? v) eqn:C2; [apply calm_err|].
  eapply calm_lift_ok; [apply arith_i128_ok; lia|].
  eapply calm_lift_ok; [apply arith_i128_ok; lia|].
  eapply calm_lift_ok; [apply arith_i128_ok; lia|].
  destruct (ub - lb + 1 <=? 256) eqn:C3.
  - destruct (enc_table_le256 (ub - lb + 1) ltac:(lia)) as (n & al & ->). cl.
  - replace (ub - lb + 1 <=? 65536) with true by lia. cl.
Qed.
Lemma calm_con E lb ub v : - 2 ^ 127 <= lb -> ub < 2 ^ 127 -> ub - lb + 1 < 2 ^ 127 ->
  calm (encode_constrained_whole_number E lb ub v).
Proof.
  intros Hl Hu Hr. destruct (Z_le_dec (ub - lb + 1) 65536) as [HS|HS]; [now apply calm_con_small|].
  unfold encode_constrained_whole_number. remember 1%nat as f eqn:Ef. cbn [encode_constrained_fuel].
  destruct (v <? lb) eqn:C1; [apply calm_err|]. destruct (ub <? v) eqn:C2; [apply calm_err|].
  eapply calm_lift_ok; [apply arith_i128_ok; lia|].
  eapply calm_lift_ok; [apply arith_i128_ok; lia|].
  eapply calm_lift_ok; [apply arith_i128_ok; lia|].
  replace (ub - lb + 1 <=? 256) with false by lia.
  replace (ub - lb + 1 <=? 65536) with false by lia. cbv zeta.
  pose proof (bytes_needed_bound (ub - lb + 1) ltac:(lia)).
  apply calm_bind; [|intros _; cl]. subst f. apply calm_con_small; lia.
Qed.
(* bounds for which encoding a length cannot panic *)
Definition size_bounds_ok (lb ub : option Z) : Prop :=
  match lb with Some l => 0 <= l < 2 ^ 64 | None => True end /\
  match ub with Some u => 0 <= u < 2 ^ 64 | None => True end.
Lemma calm_len E lb ub ns v : size_bounds_ok lb ub -> (ns = true -> 0 < v < 2 ^ 64) ->
  calm (encode_length_determinent E lb ub ns v).
Proof.
  intros [HL HU] Hn. unfold encode_length_determinent.
  destruct ns; [apply calm_small; auto|]. cl; try apply calm_indef.
  apply calm_con; destruct lb; lia.
Qed.
Lemma calm_len' E lb ub v : size_bounds_ok lb ub -> calm (encode_length_determinent E lb ub false v).
Proof. intros. apply calm_len; [assumption|discriminate]. Qed.
Lemma calm_unc E v : calm (encode_unconstrained_whole_number E v).
Proof. unfold encode_unconstrained_whole_number. cl; apply calm_len'; split; exact I. Qed.
Lemma calm_ext x : calm (encode_ext_bit x).
Proof. unfold encode_ext_bit, data_encode_bool. cl. Qed.
(* the argument combinations for which encode_integer cannot panic *)
Definition int_args_ok (lb ub : option Z) (v : Z) : Prop :=
  match lb, ub with
  | None, _ => True
  | Some l, None => v - l < 2 ^ 127
  | Some l, Some u => i128 l /\ i128 u /\ u - l + 1 < 2 ^ 127
  end.
Lemma calm_integer E lb ub ext v x : int_args_ok lb ub v -> calm (encode_integer E lb ub ext v x).
Proof.
  intros H. unfold encode_integer. cl; try apply calm_ext; try apply calm_unc.
  - destruct H as (? & ? & ?). unfold i128 in *. apply calm_con; lia.
  - cbn in H. unfold encode_semi_constrained_whole_number. destruct (v <? z) eqn:C; [apply calm_err|].
    eapply calm_lift_ok; [apply arith_i128_ok; lia|]. apply calm_unc.
Qed.
Lemma calm_enum E lb ub ext v x : int_args_ok lb ub v -> calm (encode_enumerated E lb ub ext v x).
Proof. intros H. unfold encode_enumerated. cl; first [apply calm_ext | now apply calm_integer]. Qed.
Lemma calm_choice E lb ub ext v x : int_args_ok (Some lb) (Some ub) v -> calm (encode_choice_idx E lb ub ext v x).
Proof. intros H. unfold encode_choice_idx. cl; first [apply calm_ext | now apply calm_integer]. Qed.
Lemma calm_seqhdr ext o x : calm (encode_sequence_header ext o x).
Proof. unfold encode_sequence_header. cl; apply calm_ext. Qed.
Lemma calm_bitstring E lb ub ext v x : size_bounds_ok lb ub -> calm (encode_bitstring E lb ub ext v x).
Proof. intros. unfold encode_bitstring. cl; first [apply calm_ext | now apply calm_len']. Qed.
Lemma calm_octetstring E lb ub ext v x : size_bounds_ok lb ub -> calm (encode_octetstring E lb ub ext v x).
Proof. intros. unfold encode_octetstring. cl; first [apply calm_ext | now apply calm_len']. Qed.
Lemma calm_string E lb ub ext v x : size_bounds_ok lb ub -> calm (encode_string E lb ub ext v x).
Proof. intros. unfold encode_string. cl; first [apply calm_ext | now apply calm_len']. Qed.
