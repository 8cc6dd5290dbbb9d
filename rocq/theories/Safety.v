(* Decoders on whole-byte buffers neither panic nor diverge, for sane
   parameters. *)
From Coq Require Import ZArith List Bool Lia.
From Coq Require Import ZifyBool ZifyNat ZifyN.
Require Import Verif.Base Verif.CodecModel Verif.BitLemmas Verif.Spec Verif.Combinators.
Require Import Verif.LengthProofs Verif.IntegerProofs Verif.StringProofs Verif.Local Verif.Ranges Verif.Loops Verif.Frame.
Import ListNotations.
Open Scope Z_scope.
Ltac Zify.zify_post_hook ::= Z.div_mod_to_equations.

(* lim bounds the number of unread bits; use `any` for no bound *)
Definition outcome {A} (r : res A) (P : A -> Prop) : Prop :=
  match r with Ok v => P v | Err => True | Panic => False | Diverge => False end.
Definition safe {A} (lim : Z -> Prop) (m : M A) (P : A -> Prop) : Prop :=
  forall p b k, fits (p ++ b) -> zlen (p ++ b) mod 8 = 0 -> lim (zlen b) ->
    outcome (fst (m (mkD (p ++ b) (zlen p) k))) P.
Definition any (n : Z) : Prop := True.
Definition downward (lim : Z -> Prop) : Prop := forall x y, 0 <= x <= y -> lim y -> lim x.

Lemma safe_bind {A B} lim (m : M A) (f : A -> M B) P Q : downward lim ->
  local m -> safe lim m P -> (forall v, P v -> safe lim (f v) Q) -> safe lim (bind m f) Q.
Proof.
  intros D L H1 H2 p b k F W Hl. unfold bind.
  destruct (m (mkD (p ++ b) (zlen p) k)) as [r s'] eqn:E.
  destruct (L p b k r s' F E) as (e & t & k' & -> & -> & _).
  specialize (H1 p (e ++ t) k F W Hl). rewrite E in H1. cbn [fst] in H1.
  destruct r; cbn [fst outcome] in *; try exact H1; try exact I.
  rewrite app_assoc, <- zlen_app. apply H2; auto.
  - now rewrite <- app_assoc.
  - now rewrite <- app_assoc.
  - eapply D; [|exact Hl]. rewrite zlen_app. pose proof (zlen_nonneg e). pose proof (zlen_nonneg t). lia.
Qed.
Lemma safe_weaken {A} lim (m : M A) (P Q : A -> Prop) : safe lim m P -> (forall v, P v -> Q v) -> safe lim m Q.
Proof. intros H W p b k F M Hl. specialize (H p b k F M Hl). unfold outcome in *. destruct (fst _); auto. Qed.
Lemma safe_ret {A} lim (v : A) (P : A -> Prop) : P v -> safe lim (ret v) P.
Proof. intros H p b k F W Hl. exact H. Qed.
Lemma safe_err {A} lim (P : A -> Prop) : safe lim err P.
Proof. intros p b k F W Hl. exact I. Qed.
Lemma safe_usize lim E z : 0 <= z < 2 ^ 64 -> safe lim (lift (arith_usize E z)) (fun v => v = z).
Proof. intros H p b k F W Hl. rewrite arith_usize_ok by lia. reflexivity. Qed.
Lemma safe_i128 lim E z : - 2 ^ 127 <= z < 2 ^ 127 -> safe lim (lift (arith_i128 E z)) (fun v => v = z).
Proof. intros H p b k F W Hl. rewrite arith_i128_ok by lia. reflexivity. Qed.
Lemma safe_i128_release lim E z : overflow_checks E = false -> safe lim (lift (arith_i128 E z)) (fun _ => True).
Proof.
  intros H p b k F W Hl. cbn. unfold arith_i128. rewrite H. destruct (in_i128 z); exact I.
Qed.
Lemma safe_to_usize lim z : 0 <= z < 2 ^ 64 -> safe lim (to_usize z) (fun v => v = z).
Proof. intros H. rewrite to_usize_ok by lia. now apply safe_ret. Qed.
(* a postcondition of every successful run can be added *)
Lemma safe_returns {A} lim (m : M A) (P Q : A -> Prop) : returns m Q -> safe lim m P -> safe lim m Q.
Proof.
  intros R H p b k F W Hl. specialize (H p b k F W Hl).
  destruct (m (mkD (p ++ b) (zlen p) k)) as [r s'] eqn:E. cbn [fst] in *.
  destruct r; cbn in *; auto. eapply R; eauto.
Qed.

Lemma safe_align lim : safe lim decode_align (fun _ => True).
Proof.
  intros p b k F W _. unfold decode_align, bind, get_off. cbn [off].
  destruct (zlen p mod 8 =? 0) eqn:C; [exact I|]. cbv zeta. rewrite land7.
  unfold slice_at_off. cbv beta iota. cbn [off bits].
  pose proof (zlen_nonneg p). pose proof (zlen_nonneg b). rewrite zlen_app in *.
  assert (zlen p + (8 - zlen p mod 8) <= zlen p + zlen b).
  { assert ((zlen p + (8 - zlen p mod 8)) mod 8 = 0) by lia. lia. }
  replace ((0 <=? zlen p) && (0 <=? 8 - zlen p mod 8) && (zlen p + (8 - zlen p mod 8) <=? zlen p + zlen b)) with true by lia.
  destruct (forallb negb _); exact I.
Qed.
Lemma safe_bool lim E : safe lim (data_decode_bool E) (fun _ => True).
Proof.
  intros p b k F W _. destruct b as [|x b].
  - unfold data_decode_bool, bind, get_bits, get_off. cbn [off bits]. rewrite app_nil_r, Z.eqb_refl. exact I.
  - change (x :: b) with ([x] ++ b). rewrite (reads_bool E (zlen p) x p b k eq_refl F). exact I.
Qed.
Lemma safe_uint lim E n : 0 <= n <= 128 -> safe lim (decode_bits_as_integer E n false) (uint_range n).
Proof.
  intros Hn. apply safe_returns with (P := fun _ => True); [apply returns_uint|].
  intros p b k F W _. pose proof (fits_nonneg p b F) as (Np & Nb & Nf).
  destruct (Z_le_dec n (zlen b)) as [H1|H1].
  - destruct (split_at b n) as (e & t & -> & He); [lia|].
    rewrite (reads_uint E (zlen p) n e) ; auto; try lia. exact I.
  - unfold decode_bits_as_integer, bind, get_bits, get_off, lift. cbn [off bits].
    rewrite arith_usize_ok by (rewrite zlen_app; lia).
    replace (zlen (p ++ b) - zlen p <? n) with true by (rewrite zlen_app; lia). exact I.
Qed.
(* with few unread bits the width does not matter *)
Lemma safe_uint_short E n : 0 <= n -> n mod 8 = 0 ->
  safe (fun r => r < 136) (decode_bits_as_integer E n false) (uint_range n).
Proof.
  intros Hn Hm. destruct (Z_le_dec n 128); [apply safe_uint; lia|].
  intros p b k F W Hl. pose proof (fits_nonneg p b F) as (Np & Nb & Nf).
  unfold decode_bits_as_integer, bind, get_bits, get_off, lift. cbn [off bits].
  rewrite arith_usize_ok by (rewrite zlen_app; lia).
  replace (zlen (p ++ b) - zlen p <? n) with true by (rewrite zlen_app; lia). exact I.
Qed.
Lemma safe_sint lim E n : safe lim (decode_bits_as_integer E n true) (fun _ => True).
Proof.
  intros p b k F W _. pose proof (fits_nonneg p b F) as (Np & Nb & Nf).
  destruct (Z_lt_dec (zlen b) n) as [H1|H1].
  - unfold decode_bits_as_integer, bind, get_bits, get_off, lift. cbn [off bits].
    rewrite arith_usize_ok by (rewrite zlen_app; lia).
    replace (zlen (p ++ b) - zlen p <? n) with true by (rewrite zlen_app; lia). exact I.
  - destruct (signed_width_dec n) as [S|S].
    + destruct (split_at b n) as (e & t & -> & He); [unfold signed_width in S; lia|].
      rewrite (reads_sint E (zlen p) n e); auto. exact I.
    + unfold decode_bits_as_integer, bind, get_bits, get_off, lift. cbn [off bits].
      rewrite arith_usize_ok by (rewrite zlen_app; lia).
      replace (zlen (p ++ b) - zlen p <? n) with false by (rewrite zlen_app; lia).
      cbn [negb]. unfold signed_width in S.
      replace (n =? 8) with false by lia. replace (n =? 16) with false by lia.
      replace (n =? 24) with false by lia. replace (n =? 32) with false by lia.
      replace (n =? 40) with false by lia. replace (n =? 48) with false by lia.
      replace (n =? 56) with false by lia. replace (n =? 64) with false by lia.
      replace (n =? 128) with false by lia. exact I.
Qed.
Lemma safe_bitvec lim E n : 0 <= n < 2 ^ 63 -> safe lim (get_bitvec E n) (fun l => zlen l = n).
Proof.
  intros Hn p b k F W _. pose proof (fits_nonneg p b F) as (Np & Nb & Nf).
  destruct (Z_le_dec n (zlen b)) as [H1|H1].
  - destruct (split_at b n) as (e & t & -> & He); [lia|].
    rewrite (reads_bitvec E (zlen p) n e); auto; lia.
  - unfold get_bitvec, bind, get_bits, get_off, lift. cbn [off bits].
    rewrite arith_usize_ok by lia.
    replace (zlen (p ++ b) <? n + zlen p) with true by (rewrite zlen_app; lia).
    rewrite arith_usize_ok by (rewrite zlen_app; lia). exact I.
Qed.
Lemma safe_ext_eq {A} lim (m m' : M A) P : (forall s, m s = m' s) -> safe lim m' P -> safe lim m P.
Proof. intros H S p b k F W Hl. rewrite H. now apply S. Qed.
Lemma any_down : downward any. Proof. intros x y _ _. exact I. Qed.
Lemma lt_down n : downward (fun r => r < n). Proof. intros x y H1 H2; lia. Qed.
Lemma safe_bytes lim E n : downward lim -> 0 <= n < 2 ^ 60 -> safe lim (get_bytes E n) (fun _ => True).
Proof.
  intros D Hn. eapply safe_ext_eq; [apply get_bytes_eq|].
  eapply safe_bind; [exact D|apply local_lift|apply safe_usize; lia|intros w ->].
  eapply safe_bind; [exact D|apply local_bitvec|apply safe_bitvec; lia|intros l _]. now apply safe_ret.
Qed.

(* ---- integers ---- *)
Definition con_sane (E : env) (lb ub : Z) : Prop :=
  lb <= ub /\ ub - lb + 1 < 2 ^ 127 /\ - 2 ^ 126 <= lb <= 2 ^ 126 /\
  (ub - lb + 1 < 2 ^ 64 \/ lb = 0 \/ overflow_checks E = false).

Lemma i128_add lim E raw lb (n : Z) : uint_range n raw ->
  - 2 ^ 126 <= lb <= 2 ^ 126 -> (n <= 64 \/ lb = 0 \/ overflow_checks E = false) ->
  safe lim (lift (arith_i128 E (raw + lb))) (fun _ => True).
Proof.
  intros (H1 & H2 & H3) Hb H. destruct H as [H|[H|H]].
  - eapply safe_weaken; [apply safe_i128|auto].
    assert (2 ^ n <= 2 ^ 64) by (apply Z.pow_le_mono_r; lia). lia.
  - eapply safe_weaken; [apply safe_i128|auto]. lia.
  - now apply safe_i128_release.
Qed.

Lemma dec_range_bits_le r : 0 <= dec_range_bits r <= 8.
Proof. unfold dec_range_bits. repeat match goal with |- context [if ?c then _ else _] => destruct c end; lia. Qed.

Lemma safe_con_small f lim E lb ub : downward lim ->
  lb <= ub -> ub - lb + 1 <= 65536 -> - 2 ^ 126 <= lb <= 2 ^ 126 ->
  safe lim (decode_constrained_fuel (S f) E lb ub)
    (fun v => lb <= v < lb + 2 ^ field_width (ub - lb + 1)).
Proof.
  intros D H1 H2 H3.
  apply safe_returns with (P := fun _ => True).
  { eapply returns_weaken; [apply returns_con_small; lia|]. intros v (raw & Hr & Hv).
    pose proof (field_width_bounds (ub - lb + 1) ltac:(lia)) as [W _].
    assert (2 ^ field_width (ub - lb + 1) <= 2 ^ 16) by (apply Z.pow_le_mono_r; lia).
    apply arith_i128_inv in Hv; lia. }
  cbn [decode_constrained_fuel].
  eapply safe_bind; [exact D|apply local_lift|apply safe_i128; lia|intros d ->].
  eapply safe_bind; [exact D|apply local_lift|apply safe_i128; lia|intros r Hr]. cbv beta in Hr.
  replace (r <=? 0) with false by lia.
  eapply safe_bind with (P := fun raw => exists n, uint_range n raw /\ n <= 64); [exact D|loc; apply local_con_fuel| |].
  2:{ intros raw (n & HR & Hn). eapply i128_add; eauto. }
  pose proof (dec_range_bits_le r).
  destruct (r <? 256) eqn:C1; [|destruct (r =? 256) eqn:C2].
  - eapply safe_weaken; [apply safe_uint; lia|]. intros v Hv. exists (dec_range_bits r). split; [assumption|lia].
  - eapply safe_bind; [exact D|apply local_align|apply safe_align|intros _ _].
    eapply safe_weaken; [apply safe_uint; lia|]. intros v Hv. exists 8. split; [assumption|lia].
  - replace (r <=? 65536) with true by lia.
    eapply safe_bind; [exact D|apply local_align|apply safe_align|intros _ _].
    eapply safe_weaken; [apply safe_uint; lia|]. intros v Hv. exists 16. split; [assumption|lia].
Qed.

Lemma field_width_needed n : 1 <= n <= 16 -> 2 ^ field_width n <= 16 /\ (n <= 8 -> 2 ^ field_width n <= 8).
Proof.
  intros H. assert (n = 1 \/ n = 2 \/ n = 3 \/ n = 4 \/ n = 5 \/ n = 6 \/ n = 7 \/ n = 8 \/ n = 9 \/ n = 10
    \/ n = 11 \/ n = 12 \/ n = 13 \/ n = 14 \/ n = 15 \/ n = 16) as C by lia.
  repeat destruct C as [C|C]; subst; cbn; lia.
Qed.

Lemma safe_con lim E lb ub : downward lim -> con_sane E lb ub ->
  safe lim (decode_constrained_whole_number E lb ub) (fun _ => True).
Proof.
  intros D (H1 & H2 & H3 & H4).
  destruct (Z_le_dec (ub - lb + 1) 65536) as [HS|HS].
  { eapply safe_weaken; [apply safe_con_small; auto|auto]. }
  unfold decode_constrained_whole_number. remember 1%nat as f eqn:Ef. cbn [decode_constrained_fuel].
  eapply safe_bind; [exact D|apply local_lift|apply safe_i128; lia|intros d ->].
  eapply safe_bind; [exact D|apply local_lift|apply safe_i128; lia|intros r Hr]. cbv beta in Hr.
  replace (r <=? 0) with false by lia.
  replace (r <? 256) with false by lia. replace (r =? 256) with false by lia.
  replace (r <=? 65536) with false by lia. cbv zeta.
  pose proof (bytes_needed_bound r ltac:(lia)) as BN. set (needed := bytes_needed_for_range r) in *.
  assert (N8 : r < 2 ^ 64 -> needed <= 8).
  { intros HR. unfold needed. rewrite bytes_needed_octets by lia. apply octets_le; [lia|]. exact HR. }
  pose proof (field_width_needed needed BN) as [FW1 FW2].
  eapply safe_bind with (P := fun raw => exists n, uint_range n raw /\ (r < 2 ^ 64 -> n <= 64));
    [exact D|loc; apply local_con_fuel| |].
  2:{ intros raw (n & HR & Hn). eapply i128_add; eauto.
      destruct H4 as [H4|H4]; [left; apply Hn; lia|right; exact H4]. }
  eapply safe_bind with (P := fun l => 1 <= l <= 16 /\ (r < 2 ^ 64 -> l <= 8)); [exact D|loc; apply local_con_fuel| |].
  - eapply safe_bind; [exact D|apply local_lift|apply safe_usize; lia|intros r0 ->].
    eapply safe_bind; [exact D|apply local_lift|apply safe_usize; lia|intros r1 ->].
    replace (needed - 1 + 1 <=? 65536) with true by lia. subst f.
    eapply safe_bind; [exact D|apply local_con_fuel|apply safe_con_small; auto; lia|].
    intros l Hl. cbv beta in Hl. replace (needed - 1 + 1) with needed in Hl by lia.
    apply safe_ret. rewrite wrap_u_small by lia. lia.
  - intros l (Hl & Hl8).
    eapply safe_bind; [exact D|apply local_align|apply safe_align|intros _ _].
    eapply safe_bind; [exact D|apply local_lift|apply safe_usize; lia|intros n ->].
    eapply safe_weaken; [apply safe_uint; lia|]. intros v Hv. exists (l * 8). split; [assumption|lia].
Qed.

Lemma safe_indef lim E : downward lim -> safe lim (decode_indefinite_length_determinent E) (fun l => 0 <= l <= 65536).
Proof.
  intros D. apply safe_returns with (P := fun _ => True); [apply returns_indef|].
  unfold decode_indefinite_length_determinent.
  eapply safe_bind; [exact D|loc|apply safe_align|intros _ _].
  eapply safe_bind; [exact D|loc|apply safe_bool|intros x _].
  eapply safe_bind with (P := fun l => 0 <= l <= 65536); [exact D|loc| |].
  2:{ intros l Hl. eapply safe_weaken; [apply safe_to_usize; lia|auto]. }
  destruct (negb x).
  { eapply safe_weaken; [apply safe_uint; lia|]. unfold uint_range. lia. }
  eapply safe_bind; [exact D|loc|apply safe_bool|intros y _].
  destruct (negb y).
  { eapply safe_weaken; [apply safe_uint; lia|]. unfold uint_range. lia. }
  eapply safe_bind; [exact D|loc|apply safe_uint; lia|intros l Hl]. unfold uint_range in Hl.
  destruct (negb ((1 <=? l) && (l <=? 4))) eqn:C; [apply safe_err|].
  eapply safe_weaken; [apply safe_i128; lia|]. cbv beta. lia.
Qed.

Lemma safe_len lim E lb ub ns : downward lim -> (ns = true \/ size_sane lb ub) ->
  safe lim (decode_length_determinent E lb ub ns) (fun l => 0 <= l <= 131070).
Proof.
  intros D H. apply safe_returns with (P := fun _ => True); [apply returns_len|].
  unfold decode_length_determinent. destruct ns.
  { unfold decode_normally_small_length_determinent.
    eapply safe_bind; [exact D|loc|apply safe_bool|intros x _]. destruct (negb x).
    - eapply safe_bind; [exact D|loc|apply safe_uint; lia|intros l Hl]. unfold uint_range in Hl.
      rewrite wrap_u_small by lia. eapply safe_weaken; [apply safe_usize; lia|auto].
    - eapply safe_weaken; [now apply safe_indef|auto]. }
  destruct H as [H|[HL HU]]; [discriminate|].
  eapply safe_bind with (P := fun lo => lo = opt0 lb); [exact D|loc| |].
  { destruct lb as [l|]; [apply safe_to_usize; exact HL|now apply safe_ret]. }
  intros lo ->. destruct ub as [u|]; [|eapply safe_weaken; [now apply safe_indef|auto]].
  eapply safe_bind; [exact D|loc|apply safe_to_usize; destruct lb; cbn [opt0] in *; lia|intros hi ->].
  destruct (u <? 65536) eqn:C; [|eapply safe_weaken; [now apply safe_indef|auto]].
  assert (0 <= opt0 lb) by (destruct lb; cbn [opt0]; lia).
  destruct (opt0 lb =? u) eqn:C2; [now apply safe_ret|].
  unfold decode_constrained_length_determinent.
  eapply safe_bind; [exact D|loc|apply safe_usize; lia|intros r0 ->].
  eapply safe_bind; [exact D|loc|apply safe_usize; lia|intros r ->].
  replace (u - opt0 lb + 1 <=? 65536) with true by lia.
  eapply safe_bind; [exact D|apply local_con|apply safe_con; auto; unfold con_sane; lia|intros l _].
  now apply safe_ret.
Qed.

Lemma safe_unc lim E : downward lim -> safe lim (decode_unconstrained_whole_number E) (fun _ => True).
Proof.
  intros D. unfold decode_unconstrained_whole_number.
  eapply safe_bind; [exact D|apply local_len|apply safe_len; auto; right; split; exact I|intros l Hl].
  cbv beta in Hl. eapply safe_bind; [exact D|loc|apply safe_usize; lia|intros n ->]. apply safe_sint.
Qed.

(* Semi-constrained integers, when fewer than 18 octets are left. *)
Definition semi_sane (E : env) (lb : Z) : Prop :=
  - 2 ^ 126 <= lb <= 2 ^ 126 /\ (lb = 0 \/ overflow_checks E = false).
Lemma safe_semi E lb : semi_sane E lb ->
  safe (fun r => r < 136) (decode_semi_constrained_whole_number E lb) (fun _ => True).
Proof.
  intros [H1 H2]. unfold decode_semi_constrained_whole_number.
  eapply safe_bind; [apply lt_down|apply local_len|apply safe_len; [apply lt_down|right; split; exact I]|intros l Hl].
  cbv beta in Hl. eapply safe_bind; [apply lt_down|loc|apply safe_usize; lia|intros n ->].
  eapply safe_bind; [apply lt_down|loc|apply safe_uint_short; lia|intros raw HR].
  eapply i128_add; eauto.
Qed.
Lemma safe_nsnn E : safe (fun r => r < 136) (decode_normally_small_non_negative_whole_number E) (fun _ => True).
Proof.
  unfold decode_normally_small_non_negative_whole_number.
  eapply safe_bind; [apply lt_down|loc|apply safe_bool|intros x _]. destruct (negb x).
  - eapply safe_weaken; [apply safe_uint; lia|auto].
  - apply safe_semi. unfold semi_sane. lia.
Qed.

Lemma safe_ext lim E x : safe lim (decode_ext_bit E x) (fun y => x = false -> y = false).
Proof.
  unfold decode_ext_bit. destruct x.
  - eapply safe_weaken; [apply safe_bool|]. discriminate.
  - now apply safe_ret.
Qed.

(* parameters of decode_integer that cannot make it panic on any input *)
Definition int_sane (E : env) (lb ub : option Z) : Prop :=
  match lb, ub with
  | None, _ => True
  | Some l, Some u => con_sane E l u
  | Some l, None => False
  end.
Lemma safe_integer lim E lb ub x : downward lim -> int_sane E lb ub ->
  safe lim (decode_integer E lb ub x) (fun _ => True).
Proof.
  intros D H. unfold decode_integer.
  eapply safe_bind; [exact D|apply local_ext_bit|apply safe_ext|intros y _].
  eapply safe_bind with (P := fun _ => True); [exact D| | |intros v _; now apply safe_ret].
  { destruct y; [apply local_unc|]. destruct lb, ub; first [apply local_unc | apply local_con | apply local_semi]. }
  destruct y; [now apply safe_unc|].
  destruct lb as [l|]; [|now apply safe_unc]. destruct ub as [u|]; [|destruct H]. now apply safe_con.
Qed.
Lemma safe_integer_semi E lb x : semi_sane E lb ->
  safe (fun r => r < 136) (decode_integer E (Some lb) None x) (fun _ => True).
Proof.
  intros H. unfold decode_integer.
  eapply safe_bind; [apply lt_down|apply local_ext_bit|apply safe_ext|intros y _].
  eapply safe_bind with (P := fun _ => True); [apply lt_down| | |intros v _; now apply safe_ret].
  { destruct y; first [apply local_unc | apply local_semi]. }
  destruct y; [apply safe_unc, lt_down|now apply safe_semi].
Qed.

Lemma safe_fst lim E lb ub x : downward lim -> con_sane E lb ub ->
  safe lim (p <- decode_integer E (Some lb) (Some ub) false ;; ret (fst p, x : bool)) (fun _ => True).
Proof.
  intros D H. eapply safe_bind; [exact D|apply local_integer|now apply safe_integer|intros v _; now apply safe_ret].
Qed.
Lemma safe_choice_root lim E lb ub : downward lim -> con_sane E lb ub ->
  safe lim (decode_choice_idx E lb ub false) (fun _ => True).
Proof. intros. unfold decode_choice_idx. now apply safe_fst. Qed.
Lemma safe_choice_short E lb ub x : con_sane E lb ub ->
  safe (fun r => r < 136) (decode_choice_idx E lb ub x) (fun _ => True).
Proof.
  intros H. unfold decode_choice_idx. destruct x; [|apply safe_fst; auto; apply lt_down].
  eapply safe_bind; [apply lt_down|loc|apply safe_bool|intros y _]. destruct (negb y).
  - apply safe_fst; auto; apply lt_down.
  - eapply safe_bind; [apply lt_down|apply local_nsnn|apply safe_nsnn|intros v _; now apply safe_ret].
Qed.
Lemma safe_enum_root lim E lb ub : downward lim -> int_sane E lb ub ->
  safe lim (decode_enumerated E lb ub false) (fun _ => True).
Proof.
  intros D H. unfold decode_enumerated.
  eapply safe_bind; [exact D|apply local_ext_bit|apply safe_ext|intros y Hy]. rewrite (Hy eq_refl). cbn [negb].
  eapply safe_bind with (P := fun _ => True); [exact D|loc; apply local_integer| |intros v _; now apply safe_ret].
  eapply safe_bind; [exact D|apply local_integer|now apply safe_integer|intros v _; now apply safe_ret].
Qed.
Lemma safe_enum_short E lb ub x : int_sane E lb ub ->
  safe (fun r => r < 136) (decode_enumerated E lb ub x) (fun _ => True).
Proof.
  intros H. unfold decode_enumerated.
  eapply safe_bind; [apply lt_down|apply local_ext_bit|apply safe_ext|intros y _].
  eapply safe_bind with (P := fun _ => True);
    [apply lt_down|loc; first [apply local_integer|apply local_nsnn]| |intros v _; now apply safe_ret].
  destruct (negb y).
  - eapply safe_bind; [apply lt_down|apply local_integer|apply safe_integer; [apply lt_down|assumption]|intros v _; now apply safe_ret].
  - apply safe_nsnn.
Qed.
Lemma safe_seqhdr lim E x n : downward lim -> n < 2 ^ 63 -> safe lim (decode_sequence_header E x n) (fun _ => True).
Proof.
  intros D H. unfold decode_sequence_header.
  eapply safe_bind; [exact D|apply local_ext_bit|apply safe_ext|intros y _].
  eapply safe_bind with (P := fun _ => True); [exact D|loc| |intros v _; now apply safe_ret].
  destruct (0 <? n) eqn:C; [|now apply safe_ret].
  eapply safe_weaken; [apply safe_bitvec; lia|auto].
Qed.
(* the same, with the exact length of the returned bitmap *)
Lemma safe_seqhdr_len lim E x n : downward lim -> 0 <= n < 2 ^ 63 ->
  safe lim (decode_sequence_header E x n) (fun r => zlen (fst r) = n).
Proof.
  intros D H. unfold decode_sequence_header.
  eapply safe_bind; [exact D|apply local_ext_bit|apply safe_ext|intros y _].
  eapply safe_bind with (P := fun l => zlen l = n); [exact D|loc| |intros v Hv; now apply safe_ret].
  destruct (0 <? n) eqn:C; [apply safe_bitvec; lia|]. apply safe_ret. rewrite zlen_nil. lia.
Qed.

Lemma safe_frag lim E x lb ub : downward lim -> size_sane lb ub ->
  safe lim (decode_frag_length E x lb ub) (fun l => 0 <= l <= 131070).
Proof.
  intros D H. unfold decode_frag_length. destruct x; apply safe_len; auto. right. split; exact I.
Qed.

Lemma safe_string lim E lb ub x : downward lim -> size_sane lb ub ->
  safe lim (decode_string E lb ub x) (fun _ => True).
Proof.
  intros D H. unfold decode_string.
  eapply safe_bind; [exact D|apply local_ext_bit|apply safe_ext|intros y _].
  eapply safe_bind; [exact D|apply local_frag|now apply safe_frag|intros l Hl]. cbv beta in Hl.
  eapply safe_bind; [exact D|loc|apply safe_usize; lia|intros n ->].
  eapply safe_bind with (P := fun _ => True); [exact D|loc| |intros _ _].
  { destruct (16 <? l * 8); [apply safe_align|now apply safe_ret]. }
  intros p b k F W HL. unfold bind at 1, get_off. cbn [off].
  revert p b k F W HL.
  intros p b k F W HL.
  apply (safe_bind lim (get_bitvec E (l * 8)) (fun bv =>
    let bytes := map (load_native E (zlen p mod 8)) (chunks8 bv) in
    if utf8_valid bytes then ret bytes else err) (fun _ => True) (fun _ => True)); auto.
  - apply local_bitvec.
  - eapply safe_weaken; [apply safe_bitvec; lia|auto].
  - intros bv _. cbv zeta. destruct (utf8_valid _); [now apply safe_ret|apply safe_err].
Qed.

(* ---- fragment loops ---- *)
Section LoopSafe.
  Context {A : Type} (lim : Z -> Prop) (step : A -> M (A * bool)) (loop : nat -> A -> M A).
  Hypothesis D : downward lim.
  Hypothesis loop_S : forall f a s, loop (S f) a s =
    (p <- step a ;; if snd p then loop f (fst p) else ret (fst p)) s.
  Hypothesis step_local : forall a, local (step a).
  Hypothesis step_safe : forall a, safe lim (step a) (fun _ => True).
  Hypothesis step_progress : forall a p b k a' s', fits (p ++ b) ->
    step a (mkD (p ++ b) (zlen p) k) = (Ok (a', true), s') -> zlen p < off s'.

  Lemma loop_safe : forall f a p b k, fits (p ++ b) -> zlen (p ++ b) mod 8 = 0 -> lim (zlen b) ->
    zlen b < Z.of_nat f -> outcome (fst (loop f a (mkD (p ++ b) (zlen p) k))) (fun _ => True).
  Proof.
    induction f as [|f IH]; intros a p b k F W Hl Hf.
    { pose proof (zlen_nonneg b). lia. }
    rewrite loop_S. unfold bind.
    pose proof (step_safe a p b k F W Hl) as SS.
    destruct (step a (mkD (p ++ b) (zlen p) k)) as [r1 s1] eqn:E1. cbn [fst] in SS.
    destruct (step_local a p b k r1 s1 F E1) as (e1 & t1 & k1 & Hb & Hs1 & _).
    destruct r1 as [[a1 c]| | |]; try exact SS; try exact I. cbn [fst snd].
    destruct c; [|exact I].
    pose proof (step_progress a p b k a1 s1 F E1) as PR. rewrite Hs1 in PR. cbn [off] in PR.
    subst b s1. rewrite app_assoc, <- zlen_app. apply IH.
    - now rewrite <- app_assoc.
    - now rewrite <- app_assoc.
    - eapply D; [|exact Hl]. rewrite zlen_app. pose proof (zlen_nonneg e1). pose proof (zlen_nonneg t1). lia.
    - rewrite zlen_app in Hf. lia.
  Qed.
  Lemma loop_safe_fuel a : safe lim (n <- loop_fuel ;; loop n a) (fun _ => True).
  Proof.
    intros p b k F W Hl. unfold bind, loop_fuel. cbn [bits]. apply loop_safe; auto.
    unfold zlen. rewrite app_length. lia.
  Qed.
End LoopSafe.

Lemma safe_frag_step {A} lim E (get : Z -> M (list A)) t x lb ub acc : downward lim ->
  (forall n, local (get n)) -> (forall n, 0 <= n <= 131070 -> safe lim (get n) (fun _ => True)) ->
  size_sane lb ub -> safe lim (frag_step E get t x lb ub acc) (fun _ => True).
Proof.
  intros D GL GS H. unfold frag_step.
  eapply safe_bind; [exact D|apply local_frag|now apply safe_frag|intros l Hl]. cbv beta in Hl.
  eapply safe_bind with (P := fun _ => True); [exact D|loc; apply GL| |intros; now apply safe_ret].
  destruct (0 <? l) eqn:C; [|now apply safe_ret].
  eapply safe_bind with (P := fun _ => True); [exact D|loc| |intros _ _].
  { destruct (t <? l); [apply safe_align|now apply safe_ret]. }
  eapply safe_bind; [exact D|apply GL|apply GS; lia|intros; now apply safe_ret].
Qed.

Lemma safe_bitstring lim E lb ub x : downward lim -> size_sane lb ub ->
  safe lim (decode_bitstring E lb ub x) (fun _ => True).
Proof.
  intros D H. unfold decode_bitstring.
  eapply safe_bind; [exact D|apply local_ext_bit|apply safe_ext|intros i _].
  apply (loop_safe_fuel lim (frag_step E (get_bitvec E) 16 i lb ub) (fun n => bitstring_loop n E i lb ub)); auto.
  - intros; apply bitstring_loop_S.
  - intros; apply frag_step_local, local_bitvec.
  - intros a. apply safe_frag_step; auto using local_bitvec. intros n Hn.
    eapply safe_weaken; [apply safe_bitvec; lia|auto].
  - intros a p b k a' s' F. apply frag_step_progress; auto using local_bitvec, nd_bitvec.
    intros n p0 b0 k0 v s0 F0 Hn H0. apply bitvec_consumes in H0; auto; lia.
Qed.
Lemma safe_octetstring lim E lb ub x : downward lim -> size_sane lb ub ->
  safe lim (decode_octetstring E lb ub x) (fun _ => True).
Proof.
  intros D H. unfold decode_octetstring.
  eapply safe_bind; [exact D|apply local_ext_bit|apply safe_ext|intros i _].
  apply (loop_safe_fuel lim (frag_step E (get_bytes E) 2 i lb ub) (fun n => octetstring_loop n E i lb ub)); auto.
  - intros; apply octetstring_loop_S.
  - intros; apply frag_step_local, local_bytes.
  - intros a. apply safe_frag_step; auto using local_bytes. intros n Hn.
    apply safe_bytes; auto; lia.
  - intros a p b k a' s' F. apply frag_step_progress; auto using local_bytes, nd_bytes.
    intros n p0 b0 k0 v s0 F0 Hn H0. apply bytes_consumes in H0; auto; lia.
Qed.
