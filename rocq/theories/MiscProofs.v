(* Bounds of decoded values, byte conversion, alignment, uniqueness. *)
From Coq Require Import ZArith List Bool Lia.
From Coq Require Import ZifyBool ZifyNat ZifyN.
Require Import Verif.Base Verif.CodecModel Verif.BitLemmas Verif.Spec Verif.Combinators.
Require Import Verif.LengthProofs Verif.IntegerProofs Verif.StringProofs Verif.Local Verif.Ranges Verif.Loops Verif.Frame Verif.Safety Verif.Api Verif.ApiProofs Verif.AcceptProofs Verif.ApiSpec.
Import ListNotations.
Open Scope Z_scope.
Ltac Zify.zify_post_hook ::= Z.div_mod_to_equations.

(* ---- decoded values ---- *)
Lemma field_width_pow k : 0 <= k <= 8 \/ k = 16 -> field_width (2 ^ k) = k.
Proof.
  intros H. assert (k = 0 \/ k = 1 \/ k = 2 \/ k = 3 \/ k = 4 \/ k = 5 \/ k = 6 \/ k = 7 \/ k = 8 \/ k = 16) as C by lia.
  repeat destruct C as [C|C]; subst; reflexivity.
Qed.

Lemma decode_int_con_range E lb ub s v x s' :
  i128 lb -> i128 ub -> lb <= ub <= lb + 65535 -> lb + 65536 <= 2 ^ 127 ->
  decode_integer E (Some lb) (Some ub) false s = (Ok (v, x), s') ->
  lb <= v < lb + 2 ^ field_width (ub - lb + 1).
Proof.
  unfold i128. intros Hl Hu Hr Hb H. unfold decode_integer, decode_ext_bit, bind, ret in H.
  destruct (decode_constrained_whole_number E lb ub s) as [[w| | |] s1] eqn:C; try discriminate.
  injection H as -> <- <-. unfold decode_constrained_whole_number in C.
  apply returns_con_small in C; try lia. destruct C as (raw & Hraw & Ha).
  pose proof (field_width_bounds (ub - lb + 1) ltac:(lia)) as [W _].
  assert (2 ^ field_width (ub - lb + 1) <= 2 ^ 16) by (apply Z.pow_le_mono_r; lia).
  apply arith_i128_inv in Ha; lia.
Qed.

Lemma decode_int_pow_range E lb ub k s v x s' :
  i128 lb -> i128 ub -> (0 <= k <= 8 \/ k = 16) -> ub - lb + 1 = 2 ^ k ->
  decode_integer E (Some lb) (Some ub) false s = (Ok (v, x), s') -> lb <= v <= ub.
Proof.
  unfold i128. intros Hl Hu Hk Hr H. unfold decode_integer, decode_ext_bit, bind, ret in H.
  destruct (decode_constrained_whole_number E lb ub s) as [[w| | |] s1] eqn:C; try discriminate.
  injection H as -> <- <-. unfold decode_constrained_whole_number in C.
  assert (0 < 2 ^ k <= 2 ^ 16) by (split; [apply pow2_pos; lia|apply Z.pow_le_mono_r; lia]).
  apply returns_con_small in C; try lia. destruct C as (raw & Hraw & Ha).
  rewrite Hr, field_width_pow in Hraw by assumption.
  apply arith_i128_inv in Ha; lia.
Qed.

Lemma decode_len_range E lb ub s n s' :
  0 <= lb <= ub -> ub < 65536 ->
  decode_length_determinent E (Some lb) (Some ub) false s = (Ok n, s') ->
  lb <= n < lb + 2 ^ field_width (ub - lb + 1) /\ (lb = ub -> n = lb).
Proof.
  intros Hl Hu H. unfold decode_length_determinent in H. rewrite !to_usize_ok in H by lia.
  unfold bind, ret in H. replace (ub <? 65536) with true in H by lia.
  destruct (lb =? ub) eqn:C.
  - injection H as <- <-. assert (ub - lb + 1 = 1) as -> by lia. cbn. lia.
  - apply returns_conlen in H; lia.
Qed.

(* ---- bytes ---- *)
Lemma length_in_bytes_eq E s : 0 < zlen (bits s) < 2 ^ 61 -> length_in_bytes E s = Ok (zlen (into_bytes s)).
Proof.
  intros H. unfold length_in_bytes, into_bytes. rewrite arith_usize_ok by lia. rewrite zlen_pack. f_equal. lia.
Qed.

(* ---- alignment ---- *)
Lemma align_adds s : exists n, (n < 8)%nat /\
  align s = (Ok tt, mkD (bits s ++ repeat false n) (off s) (key s)) /\ (zlen (bits s) + Z.of_nat n) mod 8 = 0.
Proof.
  exists (Z.to_nat ((- zlen (bits s)) mod 8)). pose proof (zlen_nonneg (bits s)). split; [lia|]. split; [|lia].
  destruct s as [b o k]. cbn [bits off key] in *. now apply (writes_align (zlen b)).
Qed.
Lemma align_decode p z t k : fits (p ++ z ++ t) -> zlen z = (- zlen p) mod 8 ->
  decode_align (mkD (p ++ z ++ t) (zlen p) k) =
  if forallb negb z then (Ok tt, mkD (p ++ z ++ t) (zlen p + zlen z) k)
  else (Err, mkD (p ++ z ++ t) (zlen p) k).
Proof.
  intros F Hz. pose proof (zlen_nonneg p). destruct (forallb negb z) eqn:C.
  - assert (z = pad (zlen p)) as ->.
    { unfold pad. rewrite <- Hz. now apply pad_of_zeros. }
    now apply reads_align.
  - unfold decode_align, bind, get_off. cbn [off].
    destruct (zlen p mod 8 =? 0) eqn:C0.
    { assert (zlen z = 0) by lia. rewrite (zlen_zero z) in C by assumption. discriminate. }
    cbv zeta. rewrite land7. replace (8 - zlen p mod 8) with (zlen z) by lia.
    rewrite slice_at_off_app, C. reflexivity.
Qed.
Lemma append_aligned_adds other s : exists n m, (n < 8)%nat /\ (m < 8)%nat /\
  append_aligned other s = (Ok tt, mkD (bits s ++ repeat false n ++ bits other ++ repeat false m) (off s) (key s))
  /\ (zlen (bits s) + Z.of_nat n) mod 8 = 0 /\ (zlen (bits other) + Z.of_nat m) mod 8 = 0.
Proof.
  destruct (align_adds s) as (n & Hn & Ha & Hn8).
  destruct (align_adds other) as (m & Hm & Hb & Hm8). unfold align in Hb. injection Hb as Hb.
  exists n, m. repeat split; auto. unfold append_aligned, bind. rewrite Ha. unfold append_bits. cbn [bits off key].
  rewrite Hb. now rewrite <- !app_assoc.
Qed.

(* ---- uniqueness ---- *)
Lemma prefix_free {A} enc enc' (dec : M A) v v' a e t :
  round_trips enc dec v -> round_trips enc' dec v' ->
  writes enc a e -> writes enc' a (e ++ t) -> zlen e + zlen t + 8 < 2 ^ 61 ->
  v = v' /\ t = [].
Proof.
  intros R R' W W' F. destruct (R a) as (e1 & W1 & R1). destruct (R' a) as (e2 & W2 & R2).
  rewrite (writes_det _ _ _ _ W W1) in *. clear W.
  rewrite <- (writes_det _ _ _ _ W' W2) in *. eapply reads_agree; eauto.
Qed.

(* ---- bridges from the domains of ApiSpec ---- *)
Lemma decodes_back_of {A} enc (dec : M A) v : emits enc ->
  (forall a e, writes enc a e -> reads dec a e v) -> decodes_back enc dec v.
Proof.
  intros HE HR s s' H. destruct s as [b o k]. destruct (HE (zlen b)) as (r & e & He).
  pose proof (He b o k eq_refl) as H1. rewrite H in H1. injection H1 as <- ->. cbn [bits].
  exists e. split; [reflexivity|]. apply HR. exact He.
Qed.
Lemma refuses_value_of m ext : rejects m (ext_bits ext) -> refuses_value m ext.
Proof. intros H [b o k]. eexists. split; [apply H|]. destruct ext; repeat split. Qed.
Lemma refuses_value_nil m : rejects m [] -> refuses_value m false.
Proof. intros H. now apply refuses_value_of. Qed.
Lemma value_violates_outside lb ub v : value_violates lb ub v -> outside lb ub v.
Proof. destruct lb, ub; cbn; lia. Qed.
Lemma size_violates_outside lb ub n : size_violates lb ub n -> size_outside lb ub n.
Proof.
  intros (H & (H1 & H2) & [(l & -> & Hl)|(u & -> & Hu)]); [left; exists l|right; exists u]; split; auto; lia.
Qed.
Lemma int_encodable_ok lb ub v : int_encodable lb ub v -> int_ok lb ub v.
Proof.
  unfold int_encodable, int_ok. intros [H1 H2]. split; [exact H1|]. destruct lb as [l|]; [destruct ub as [u|]|].
  - repeat split; try apply H2; lia.
  - lia.
  - now apply readable_iff.
Qed.
Lemma size_within_ok lb ub n : size_within lb ub n -> (n < 16384 \/ exists u, ub = Some u /\ u < 65536) ->
  length_ok lb ub false n.
Proof.
  intros ([A B] & H & H0 & HU) Hn. unfold length_ok. split; [lia|]. split.
  - destruct lb; cbn in *; [lia|exact I].
  - destruct ub as [u|].
    + split; [cbn in B; lia|]. destruct Hn as [Hn|(w & Hw & Hw')]; [lia|]. injection Hw as ->. lia.
    + destruct Hn as [Hn|(w & Hw & Hw')]; [lia|discriminate].
Qed.
Lemma call_encodable_ok E c v : call_encodable E c v -> prim_ok E c v.
Proof.
  destruct c as [|? ? ?|? ? ?|? ? ?|? ?|? ? ?|? ? ?|? ? ?|? ? [|]], v as [b|z [|]|l [|]|l [|]]; cbn; try tauto;
    try (apply int_encodable_ok).
  - intros [H1 H2]. split; [apply size_within_ok; auto|lia].
  - intros (H0 & H1 & H2). split; [auto|]. split; [apply size_within_ok; auto|lia].
  - intros (H0 & H1 & H2 & H3 & H4). split; [auto|]. split; [auto|]. split; [apply size_within_ok; auto|]. split; [|auto].
    destruct H3 as [H3|(w & -> & Hw)]; [lia|]. destruct H2 as (_ & _ & _ & H2). lia.
  - intros [H1 H2]. now apply size_within_ok.
Qed.

Lemma safe_apply {A} lim (m : M A) P s : safe lim m P -> byte_buffer s -> lim (unread s) -> outcome (fst (m s)) P.
Proof.
  intros H (F & H8 & HO) L. destruct (split_state s HO) as (p & b & Hs & Hb & Hp).
  rewrite Hs. unfold unread in L. rewrite Hb, Hp, zlen_app in L. rewrite Hb in F, H8.
  apply H; auto. now replace (zlen b) with (zlen p + zlen b - zlen p) by lia.
Qed.
Lemma outcome_normal {A} (r : res A) P : outcome r P -> returns_normally r.
Proof. destruct r; cbn; intros; split; congruence || tauto. Qed.
Lemma outcome_map {A B} (m : M A) (f : A -> B) s P : outcome (fst (m s)) P ->
  outcome (fst ((x <- m ;; ret (f x)) s)) (fun _ => True).
Proof. unfold bind, ret. destruct (m s) as [[w| | |] s1]; cbn; auto. Qed.
Lemma call_safe E c s : byte_buffer s -> call_sane E c ->
  (reads_semi_constrained c = true -> unread s < 136) -> returns_normally (fst (decode_prim E c s)).
Proof.
  intros HB HC HS.
  assert (HA : forall A (m : M A) P (f : A -> pval), safe any m P -> returns_normally (fst ((x <- m ;; ret (f x)) s))).
  { intros A m P f H. eapply outcome_normal, outcome_map, safe_apply; eauto. exact I. }
  assert (HL : forall A (m : M A) P (f : A -> pval), safe (fun r => r < 136) m P -> unread s < 136 ->
    returns_normally (fst ((x <- m ;; ret (f x)) s))).
  { intros A m P f H L. eapply outcome_normal, outcome_map, safe_apply; eauto. }
  pose proof any_down as AD.
  destruct c as [|lb ub x|lb ub x|lb ub x|x n|lb ub x|lb ub x|lb ub x|lb ub ns]; cbn [decode_prim call_sane reads_semi_constrained] in *.
  - eapply HA. apply safe_bool.
  - destruct lb as [l|]; [destruct ub as [u|]|].
    + eapply HA. now apply safe_integer.
    + eapply HL; [apply safe_integer_semi; exact HC|auto].
    + eapply HA. apply safe_integer; [exact AD|exact I].
  - destruct HC as [HC HN].
    assert (int_sane E lb ub).
    { destruct lb as [l|]; [|exact I]. destruct ub as [u|]; [exact HC|]. destruct HN; congruence. }
    destruct x.
    + eapply HL; [now apply safe_enum_short|auto].
    + eapply HA. now apply safe_enum_root.
  - destruct x.
    + eapply HL; [now apply safe_choice_short|auto].
    + eapply HA. now apply safe_choice_root.
  - eapply HA. now apply safe_seqhdr.
  - eapply HA. now apply safe_bitstring.
  - eapply HA. now apply safe_octetstring.
  - eapply HA. now apply safe_string.
  - eapply HA. now apply safe_len.
Qed.

Lemma size_sane_bounds lb ub : size_sane lb ub -> size_bounds_ok lb ub.
Proof.
  intros [H1 H2]. split; [exact H1|]. destruct ub; [|exact I]. destruct lb; cbn in *; lia.
Qed.
Lemma call_calm E c v s : args_sane c v -> returns_normally (fst (encode_prim E c v s)).
Proof.
  intros H. assert (HC : calm (encode_prim E c v)); [|destruct (HC s); now split].
  destruct c as [|? ? ?|? ? ?|? ? ?|? ?|? ? ?|? ? ?|? ? ?|? ? ns], v as [b|z [|]|l x|l x];
    cbn [encode_prim args_sane] in *; try apply calm_err;
    try (apply calm_integer; exact H); try (apply calm_enum; exact H); try (apply calm_choice; exact H);
    try apply calm_seqhdr;
    try (apply calm_bitstring, size_sane_bounds; exact H);
    try (apply calm_octetstring, size_sane_bounds; exact H);
    try (apply calm_string, size_sane_bounds; exact H).
  - apply calm_append.
  - destruct H. apply calm_len; [now apply size_sane_bounds|auto].
Qed.

Lemma huge_range_panics E lb ub v x s : i128 lb -> i128 ub -> lb <= v <= ub -> 2 ^ 127 <= ub - lb + 1 ->
  fst (encode_integer E (Some lb) (Some ub) x v false s) = Panic.
Proof.
  intros. unfold encode_integer, bind, encode_constrained_whole_number.
  destruct x; cbn [encode_ext_bit data_encode_bool append_bits ret];
    rewrite con_huge_panics; auto.
Qed.
