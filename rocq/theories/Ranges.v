(* What a successful decode can return: value ranges and consumed lengths. *)
From Coq Require Import ZArith List Bool Lia.
From Coq Require Import ZifyBool ZifyNat ZifyN.
Require Import Verif.Base Verif.CodecModel Verif.BitLemmas Verif.Spec Verif.Combinators.
Require Import Verif.LengthProofs Verif.IntegerProofs Verif.StringProofs Verif.Local.
Import ListNotations.
Open Scope Z_scope.
Ltac Zify.zify_post_hook ::= Z.div_mod_to_equations.

Definition returns {A} (m : M A) (P : A -> Prop) : Prop :=
  forall s v s', m s = (Ok v, s') -> P v.

Lemma returns_bind {A B} (m : M A) (f : A -> M B) P Q :
  returns m P -> (forall v, P v -> returns (f v) Q) -> returns (bind m f) Q.
Proof.
  intros Hm Hf s v s' H. unfold bind in H. destruct (m s) as [[a| | |] s1] eqn:E; try discriminate.
  eapply Hf; eauto.
Qed.
Lemma returns_any {A} (m : M A) : returns m (fun _ => True).
Proof. intros s v s' H; exact I. Qed.
Lemma returns_ret {A} (v : A) (P : A -> Prop) : P v -> returns (ret v) P.
Proof. intros H s w s' E. injection E as <- <-. exact H. Qed.
Lemma returns_lift {A} (r : res A) (P : A -> Prop) : (forall v, r = Ok v -> P v) -> returns (lift r) P.
Proof. intros H s w s' E. injection E as E <-. auto. Qed.
Lemma returns_err {A} (P : A -> Prop) : returns err P.
Proof. intros s v s' H. discriminate. Qed.
Lemma returns_panic {A} (P : A -> Prop) : returns panic P.
Proof. intros s v s' H. discriminate. Qed.
Lemma returns_diverge {A} (P : A -> Prop) : returns diverge P.
Proof. intros s v s' H. discriminate. Qed.
Lemma returns_weaken {A} (m : M A) (P Q : A -> Prop) : returns m P -> (forall v, P v -> Q v) -> returns m Q.
Proof. intros H W s v s' E. apply W. eapply H; eauto. Qed.

Lemma returns_slice n : returns (slice_at_off n) (fun l => zlen l = n).
Proof.
  intros s v s' H. unfold slice_at_off in H.
  destruct ((0 <=? off s) && (0 <=? n) && (off s + n <=? zlen (bits s))) eqn:C; [|discriminate].
  injection H as <- <-. apply zlen_slice; lia.
Qed.

Definition uint_range (n v : Z) : Prop :=
  0 <= n <= 128 /\ (n < 128 -> 0 <= v < 2 ^ n) /\ - 2 ^ 127 <= v < 2 ^ 127.

Lemma wrap_u_range w z : 0 <= w -> 0 <= wrap_u w z < 2 ^ w.
Proof. intros. unfold wrap_u. apply Z.mod_pos_bound. apply pow2_pos; lia. Qed.

Lemma returns_uint E n : returns (decode_bits_as_integer E n false) (uint_range n).
Proof.
  unfold decode_bits_as_integer.
  eapply returns_bind; [apply returns_any|intros b _].
  eapply returns_bind; [apply returns_any|intros o _].
  eapply returns_bind; [apply returns_any|intros r _].
  destruct (r <? n); [apply returns_err|]. cbn [negb].
  eapply returns_bind with (P := uint_range n).
  2:{ intros v Hv. eapply returns_bind; [apply returns_any|intros _ _]. now apply returns_ret. }
  destruct (n =? 0) eqn:C0.
  { apply returns_ret. assert (n = 0) by lia. subst n. unfold uint_range. lia. }
  eapply returns_bind; [apply returns_slice|intros l Hl]. cbv beta in Hl.
  unfold load_be. destruct ((1 <=? zlen l) && (zlen l <=? 128)) eqn:C; [|eapply returns_bind; [apply returns_panic|intros ? Hf; exact (False_ind _ Hf)]].
  eapply returns_bind with (P := fun v => v = bits_val l); [now apply returns_ret|intros v ->].
  apply returns_ret. pose proof (bits_val_range l) as HR. rewrite Hl in HR.
  unfold uint_range. split; [lia|]. split.
  - intros Hn. rewrite wrap_s_small; [assumption|lia|].
    assert (2 ^ n <= 2 ^ (128 - 1)) by (apply Z.pow_le_mono_r; lia). lia.
  - pose proof (wrap_s_range 128 (bits_val l) ltac:(lia)). lia.
Qed.

Lemma arith_i128_range E z v : arith_i128 E z = Ok v -> - 2 ^ 127 <= v < 2 ^ 127.
Proof.
  unfold arith_i128. destruct (in_i128 z) eqn:C; unfold in_i128 in C.
  - intros H; injection H as <-. lia.
  - destruct (overflow_checks E); [discriminate|]. intros H; injection H as <-.
    pose proof (wrap_s_range 128 z ltac:(lia)). lia.
Qed.
Lemma arith_usize_range E z v : arith_usize E z = Ok v -> 0 <= v < 2 ^ 64.
Proof.
  unfold arith_usize. destruct (in_usize z) eqn:C; unfold in_usize in C.
  - intros H; injection H as <-. lia.
  - destruct (overflow_checks E); [discriminate|]. intros H; injection H as <-.
    apply wrap_u_range; lia.
Qed.
Lemma arith_usize_inv E z v : arith_usize E z = Ok v -> 0 <= z < 2 ^ 64 -> v = z.
Proof. intros H R. rewrite arith_usize_ok in H by lia. congruence. Qed.
Lemma arith_i128_inv E z v : arith_i128 E z = Ok v -> - 2 ^ 127 <= z < 2 ^ 127 -> v = z.
Proof. intros H R. rewrite arith_i128_ok in H by lia. congruence. Qed.

(* Width of the bit field used for a range of at most 64K values. *)
Definition field_width (r : Z) : Z := if r <? 256 then dec_range_bits r else if r =? 256 then 8 else 16.

Lemma field_width_bounds r : 1 <= r <= 65536 -> 0 <= field_width r <= 16 /\ r <= 2 ^ field_width r.
Proof.
  intros H. unfold field_width, dec_range_bits.
  repeat match goal with |- context [if ?c then _ else _] => destruct c eqn:? end;
    try (split; [lia|]; lia); cbn; lia.
Qed.

Lemma returns_con_small f E lb ub :
  - 2 ^ 127 <= lb -> ub < 2 ^ 127 -> 1 <= ub - lb + 1 <= 65536 ->
  returns (decode_constrained_fuel (S f) E lb ub)
    (fun v => exists raw, 0 <= raw < 2 ^ field_width (ub - lb + 1) /\ arith_i128 E (raw + lb) = Ok v).
Proof.
  intros Hl Hu Hr. cbn [decode_constrained_fuel].
  eapply returns_bind with (P := fun d => d = ub - lb).
  { apply returns_lift. intros v H. apply arith_i128_inv in H; lia. }
  intros d ->.
  eapply returns_bind with (P := fun r => r = ub - lb + 1).
  { apply returns_lift. intros v H. apply arith_i128_inv in H; lia. }
  intros r Er. cbv beta in Er. rewrite <- Er in *. clear Er.
  replace (r <=? 0) with false by lia.
  eapply returns_bind with (P := fun raw => 0 <= raw < 2 ^ field_width r).
  2:{ intros raw Hraw. apply returns_lift. intros v Hv. eauto. }
  unfold field_width. destruct (r <? 256) eqn:C1; [|destruct (r =? 256) eqn:C2].
  - eapply returns_weaken; [apply returns_uint|]. unfold uint_range. intros v HV.
    pose proof (field_width_bounds r Hr) as [W _]. unfold field_width in W. rewrite C1 in W. lia.
  - eapply returns_bind; [apply returns_any|intros _ _].
    eapply returns_weaken; [apply returns_uint|]. unfold uint_range. lia.
  - replace (r <=? 65536) with true by lia.
    eapply returns_bind; [apply returns_any|intros _ _].
    eapply returns_weaken; [apply returns_uint|]. unfold uint_range. lia.
Qed.

Lemma returns_indef E : returns (decode_indefinite_length_determinent E) (fun l => 0 <= l <= 65536).
Proof.
  unfold decode_indefinite_length_determinent.
  eapply returns_bind; [apply returns_any|intros _ _].
  eapply returns_bind; [apply returns_any|intros x _].
  eapply returns_bind with (P := fun l => 0 <= l <= 65536).
  2:{ intros l Hl. unfold to_usize. replace (in_usize l) with true by (unfold in_usize; lia).
      now apply returns_ret. }
  destruct (negb x).
  { eapply returns_weaken; [apply returns_uint|]. unfold uint_range. lia. }
  eapply returns_bind; [apply returns_any|intros y _].
  destruct (negb y).
  { eapply returns_weaken; [apply returns_uint|]. unfold uint_range. lia. }
  eapply returns_bind; [apply returns_uint|intros l Hl].
  destruct (negb ((1 <=? l) && (l <=? 4))) eqn:C; [apply returns_err|].
  apply returns_lift. intros v H. apply arith_i128_inv in H; lia.
Qed.

Lemma returns_to_usize z : returns (to_usize z) (fun v => v = z /\ 0 <= z < 2 ^ 64).
Proof.
  unfold to_usize. destruct (in_usize z) eqn:C; unfold in_usize in C; [|apply returns_panic].
  apply returns_ret. lia.
Qed.

Lemma returns_conlen E lo hi : 0 <= lo < 2 ^ 64 -> 0 <= hi < 65536 ->
  returns (decode_constrained_length_determinent E lo hi)
    (fun l => lo <= hi /\ lo <= l < lo + 2 ^ field_width (hi - lo + 1) /\ lo <= l <= 131070).
Proof.
  intros Hlo Hhi. unfold decode_constrained_length_determinent.
  destruct (Z_le_dec lo hi) as [L|L].
  - eapply returns_bind; [apply returns_any|intros r0 _].
    eapply returns_bind; [apply returns_any|intros r _].
    destruct (r <=? 65536); [|apply returns_panic].
    eapply returns_bind; [apply (returns_con_small 1); lia|].
    intros v (raw & Hraw & Hv). apply returns_ret.
    pose proof (field_width_bounds (hi - lo + 1) ltac:(lia)) as [W _].
    assert (2 ^ field_width (hi - lo + 1) <= 2 ^ 16) by (apply Z.pow_le_mono_r; lia).
    apply arith_i128_inv in Hv; [|lia]. subst v. rewrite wrap_u_small by lia. lia.
  - (* lo > hi: rejected whatever the build profile *)
    eapply returns_bind; [apply returns_any|intros r0 _].
    eapply returns_bind; [apply returns_any|intros r _].
    destruct (r <=? 65536); [|apply returns_panic].
    unfold decode_constrained_whole_number. cbn [decode_constrained_fuel].
    eapply returns_bind with (P := fun _ => False); [|intros ? []].
    rewrite (arith_i128_ok E (hi - lo)) by lia.
    eapply returns_bind with (P := fun d => d = hi - lo); [apply returns_lift; congruence|intros d ->].
    rewrite (arith_i128_ok E (hi - lo + 1)) by lia.
    eapply returns_bind with (P := fun d => d = hi - lo + 1); [apply returns_lift; congruence|intros d ->].
    replace (hi - lo + 1 <=? 0) with true by lia. apply returns_err.
Qed.

Lemma returns_len E lb ub ns : returns (decode_length_determinent E lb ub ns) (fun l => 0 <= l <= 131070).
Proof.
  unfold decode_length_determinent. destruct ns.
  { unfold decode_normally_small_length_determinent.
    eapply returns_bind; [apply returns_any|intros x _]. destruct (negb x).
    - eapply returns_bind; [apply returns_uint|intros l Hl]. unfold uint_range in Hl.
      apply returns_lift. intros v H. rewrite wrap_u_small in H by lia.
      apply arith_usize_inv in H; lia.
    - eapply returns_weaken; [apply returns_indef|]. cbv beta; lia. }
  eapply returns_bind with (P := fun lo => 0 <= lo < 2 ^ 64).
  { destruct lb as [l|]; [eapply returns_weaken; [apply returns_to_usize|]; cbv beta; lia|].
    apply returns_ret; lia. }
  intros lo Hlo. destruct ub as [u|].
  2:{ eapply returns_weaken; [apply returns_indef|]. cbv beta; lia. }
  eapply returns_bind; [apply returns_to_usize|intros hi [-> Hhi]].
  destruct (u <? 65536) eqn:C; [|eapply returns_weaken; [apply returns_indef|]; cbv beta; lia].
  destruct (lo =? u) eqn:C2; [apply returns_ret; lia|].
  eapply returns_weaken; [apply returns_conlen; lia|]. cbv beta; lia.
Qed.

Lemma returns_frag E x lb ub : returns (decode_frag_length E x lb ub) (fun l => 0 <= l <= 131070).
Proof. unfold decode_frag_length. destruct x; apply returns_len. Qed.
