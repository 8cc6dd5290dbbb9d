(* Derived codecs: encoder and decoder agree on every value carried. *)
From Coq Require Import ZArith List Bool Lia.
From Coq Require Import ZifyBool ZifyNat ZifyN.
Require Import Verif.Base Verif.CodecModel Verif.BitLemmas Verif.Spec Verif.Combinators.
Require Import Verif.LengthProofs Verif.IntegerProofs Verif.StringProofs Verif.Local Verif.Ranges Verif.Loops Verif.Frame Verif.Safety Verif.Api Verif.ApiProofs Verif.AcceptProofs Verif.ApiSpec Verif.MiscProofs Verif.CodecFacts.
Require Import Verif.DeriveModel Verif.DeriveSpec.
Import ListNotations.
Open Scope Z_scope.
Ltac Zify.zify_post_hook ::= Z.div_mod_to_equations.

(* ---- decoders that start by aligning ---- *)
Definition absorbing {A} (m : M A) : Prop := forall s, m s = (decode_align ;; m) s.

Lemma align_ok_state s s' : decode_align s = (Ok tt, s') -> off s' mod 8 = 0 \/ s' = s /\ off s mod 8 = 0.
Proof.
  destruct s as [b o k]. unfold decode_align, bind, get_off. cbn [off]. destruct (o mod 8 =? 0) eqn:C.
  - unfold ret. intros H. injection H as <-. right. split; [reflexivity|cbn [off]; lia].
  - cbv zeta. rewrite land7. destruct (slice_at_off (8 - o mod 8) (mkD b o k)) as [[l| | |] s1] eqn:ES; try discriminate.
    assert (s1 = mkD b o k) as ->.
    { unfold slice_at_off in ES. destruct (_ && _) in ES; congruence. }
    destruct (forallb negb l); [|discriminate]. 
    remember (o + (8 - o mod 8)) as o' eqn:Eo. unfold set_off. intros H. injection H as <-. left. cbn [off]. lia.
Qed.
Lemma align_twice s : (decode_align ;; decode_align) s = decode_align s.
Proof.
  unfold bind at 1. destruct (decode_align s) as [[[]| | |] s1] eqn:ES; try reflexivity.
  assert (off s1 mod 8 = 0) as H0 by (destruct (align_ok_state _ _ ES) as [|[-> ?]]; assumption).
  unfold decode_align, bind, get_off. replace (off s1 mod 8 =? 0) with true by lia. reflexivity.
Qed.
Lemma absorbing_align {A} (f : unit -> M A) : absorbing (bind decode_align f).
Proof.
  intros s. unfold bind.
  pose proof (align_twice s) as H. unfold bind in H. destruct (decode_align s) as [[[]| | |] s1]; try reflexivity.
  rewrite H. reflexivity.
Qed.
Lemma absorbing_bind {A B} (m : M A) (f : A -> M B) : absorbing m -> absorbing (bind m f).
Proof.
  intros H s. unfold bind at 1. rewrite (H s). unfold bind. destruct (decode_align s) as [[[]| | |] s1]; reflexivity.
Qed.
Lemma absorbing_ext {A} (m m' : M A) : (forall s, m s = m' s) -> absorbing m' -> absorbing m.
Proof.
  intros HE H s. rewrite HE, (H s). unfold bind. destruct (decode_align s) as [[[]| | |] s1]; auto; now rewrite HE.
Qed.

Lemma absorbing_reads {A} (m : M A) a e v z : absorbing m -> reads m a e v -> a mod 8 = 0 ->
  zlen z < 8 -> Forall (fun b => b = false) z -> reads m (a - zlen z) (z ++ e) v.
Proof.
  intros HA R Ha Hz HF p s k Hp F. rewrite HA. unfold bind.
  pose proof (zlen_nonneg z). pose proof (zlen_nonneg p).
  assert (z = pad (zlen p)) as Hz'.
  { unfold pad. replace ((- zlen p) mod 8) with (zlen z) by lia. apply pad_of_zeros; [|reflexivity].
    rewrite forallb_forall. rewrite Forall_forall in HF. intros x Hx. now rewrite (HF x Hx). }
  rewrite <- app_assoc in *. rewrite Hz' at 1. rewrite (reads_align (zlen p) p (e ++ s) k eq_refl) by now rewrite <- Hz'.
  rewrite <- Hz'. specialize (R (p ++ z) s k). rewrite <- app_assoc in R. rewrite zlen_app in R.
  rewrite R by (auto; lia). rewrite zlen_app. do 2 f_equal. lia.
Qed.

Lemma absorbing_indef E : absorbing (decode_indefinite_length_determinent E).
Proof. apply absorbing_align. Qed.
Lemma absorbing_con E lb ub : i128 lb -> i128 ub -> aligned_range lb ub = true ->
  absorbing (decode_constrained_whole_number E lb ub).
Proof.
  unfold i128, aligned_range. intros Hl Hu HR.
  apply (absorbing_ext _ (value <- (if ub - lb + 1 =? 256 then decode_align ;; decode_bits_as_integer E 8 false
         else decode_align ;; decode_bits_as_integer E 16 false) ;; lift (arith_i128 E (value + lb)))).
  - intros s. unfold decode_constrained_whole_number. cbn [decode_constrained_fuel].
    rewrite arith_i128_ok by lia. unfold lift at 1. unfold bind at 1.
    rewrite arith_i128_ok by lia. unfold lift at 1. unfold bind at 1.
    replace (ub - lb + 1 <=? 0) with false by lia. replace (ub - lb + 1 <? 256) with false by lia.
    replace (ub - lb + 1 <=? 65536) with true by lia. reflexivity.
  - apply absorbing_bind. destruct (ub - lb + 1 =? 256); apply absorbing_align.
Qed.
Lemma absorbing_int E lb ub : match lb, ub with Some l, Some u => i128 l /\ i128 u | _, _ => True end ->
  aligned_bounds lb ub = true -> absorbing (decode_integer E lb ub false).
Proof.
  intros H HA. unfold decode_integer.
  apply (absorbing_ext _ (value <- match lb with None => decode_unconstrained_whole_number E
     | Some l => match ub with None => decode_semi_constrained_whole_number E l | Some u => decode_constrained_whole_number E l u end end ;;
     ret (value, false))); [reflexivity|].
  apply absorbing_bind. destruct lb as [l|]; [destruct ub as [u|]|].
  - now apply absorbing_con.
  - apply absorbing_bind. unfold decode_length_determinent. apply absorbing_indef.
  - apply absorbing_bind. unfold decode_length_determinent. apply absorbing_indef.
Qed.
Lemma absorbing_len E lb ub : size_sane lb ub -> aligned_size lb ub = true ->
  absorbing (decode_length_determinent E lb ub false).
Proof.
  intros [H1 H2] HA. unfold decode_length_determinent.
  assert (absorbing (match ub with
    | Some u => if u <? 65536 then decode_constrained_length_determinent E (opt0 lb) u
      else decode_indefinite_length_determinent E
    | None => decode_indefinite_length_determinent E end)) as HM.
  { unfold aligned_size in HA. destruct ub as [u|]; [|apply absorbing_indef].
    destruct (u <? 65536) eqn:C; [|apply absorbing_indef].
    unfold decode_constrained_length_determinent.
    assert (0 <= opt0 lb <= u) by (destruct lb; cbn in *; lia). unfold aligned_range in HA.
    apply (absorbing_ext _ (l <- decode_constrained_whole_number E (opt0 lb) u ;; ret (wrap_u 64 l))).
    - intros s. rewrite arith_usize_ok by lia. unfold lift at 1. unfold bind at 1.
      rewrite arith_usize_ok by lia. unfold lift at 1. unfold bind at 1.
      replace (u - opt0 lb + 1 <=? 65536) with true by lia. reflexivity.
    - apply absorbing_bind, absorbing_con; unfold i128, aligned_range; lia. }
  eapply absorbing_ext; [|exact HM]. intros s.
  destruct lb as [l|].
  - rewrite to_usize_ok by lia. unfold bind, ret at 1. destruct ub as [u|]; [|reflexivity].
    rewrite to_usize_ok by (cbn in *; lia). unfold ret. cbn [opt0].
    destruct (u <? 65536) eqn:C; [|reflexivity]. unfold aligned_size, aligned_range in HA. rewrite C in HA. cbn [opt0] in HA.
    replace (l =? u) with false by lia. reflexivity.
  - unfold bind, ret at 1. destruct ub as [u|]; [|reflexivity].
    rewrite to_usize_ok by (cbn in *; lia). unfold ret. cbn [opt0].
    destruct (u <? 65536) eqn:C; [|reflexivity]. unfold aligned_size, aligned_range in HA. rewrite C in HA. cbn [opt0] in HA.
    replace (0 =? u) with false by lia. reflexivity.
Qed.

Lemma fixed_inv lb ub n : fixed lb ub = Some n -> lb = Some n /\ ub = Some n /\ n < 65536.
Proof.
  destruct lb as [l|], ub as [u|]; cbn; try discriminate. destruct (l =? u) eqn:C1; [|discriminate].
  destruct (u <? 65536) eqn:C2; cbn; [|discriminate]. intros H. injection H as ->. split; [f_equal; lia|]. split; [reflexivity|lia].
Qed.
Lemma fixed_len E n : 0 <= n < 65536 -> forall s, decode_length_determinent E (Some n) (Some n) false s = (Ok n, s).
Proof.
  intros H s. unfold decode_length_determinent. rewrite !to_usize_ok by lia. unfold bind, ret.
  replace (n <? 65536) with true by lia. replace (n =? n) with true by lia. reflexivity.
Qed.
Lemma absorbing_fuel {A} (f : nat -> M A) : (forall n, absorbing (f (S n))) -> absorbing (bind loop_fuel f).
Proof.
  intros H s. unfold bind at 1, loop_fuel at 1. rewrite (H _ s). unfold bind.
  destruct (decode_align s) as [[[]| | |] s1] eqn:ES; try reflexivity.
  unfold loop_fuel. assert (bits s1 = bits s) as ->; [|reflexivity].
  destruct s as [b o k]. unfold decode_align, bind, get_off in ES. cbn [off] in ES.
  destruct (o mod 8 =? 0); [unfold ret in ES; congruence|].
  unfold slice_at_off in ES. cbv zeta in ES. destruct (_ && _) in ES; [|discriminate].
  destruct (forallb negb _) in ES; [|discriminate]. unfold set_off in ES. injection ES as <-. reflexivity.
Qed.

Lemma absorbing_bits_loop f E lb ub acc : size_sane lb ub ->
  match fixed lb ub with Some n => 16 <? n | None => aligned_size lb ub end = true ->
  absorbing (bitstring_loop (S f) E false lb ub acc).
Proof.
  intros HS H. cbn [bitstring_loop]. unfold decode_frag_length. destruct (fixed lb ub) as [n|] eqn:F.
  - apply fixed_inv in F as (-> & -> & Hn). destruct HS as [HS _].
    eapply absorbing_ext.
    + intros s. unfold bind at 1. rewrite fixed_len by lia.
      replace (0 <? n) with true by lia. rewrite H. reflexivity.
    + apply absorbing_bind, absorbing_align.
  - apply absorbing_bind. now apply absorbing_len.
Qed.
Lemma absorbing_octets_loop f E lb ub acc : size_sane lb ub ->
  match fixed lb ub with Some n => 2 <? n | None => aligned_size lb ub end = true ->
  absorbing (octetstring_loop (S f) E false lb ub acc).
Proof.
  intros HS H. cbn [octetstring_loop]. unfold decode_frag_length. destruct (fixed lb ub) as [n|] eqn:F.
  - apply fixed_inv in F as (-> & -> & Hn). destruct HS as [HS _].
    eapply absorbing_ext.
    + intros s. unfold bind at 1. rewrite fixed_len by lia.
      replace (0 <? n) with true by lia. rewrite H. reflexivity.
    + apply absorbing_bind, absorbing_align.
  - apply absorbing_bind. now apply absorbing_len.
Qed.
Lemma absorbing_noext {A} E (f : bool -> M A) : absorbing (f false) -> absorbing (bind (decode_ext_bit E false) f).
Proof. intros H. exact H. Qed.
Lemma absorbing_string E lb ub : size_sane lb ub ->
  match fixed lb ub with Some n => 2 <? n | None => aligned_size lb ub end = true ->
  absorbing (decode_string E lb ub false).
Proof.
  intros HS H. unfold decode_string. apply absorbing_noext. unfold decode_frag_length. destruct (fixed lb ub) as [n|] eqn:F.
  - apply fixed_inv in F as (-> & -> & Hn). destruct HS as [HS _].
    eapply absorbing_ext.
    + intros s. unfold bind at 1. rewrite fixed_len by lia.
      rewrite arith_usize_ok by lia. unfold bind at 1, lift at 1.
      replace (16 <? n * 8) with true by lia. reflexivity.
    + apply absorbing_align.
  - apply absorbing_bind. now apply absorbing_len.
Qed.

(* the bounds needed by the lemmas above follow from the value being encodable *)
Lemma int_enc_bounds lb ub z : int_encodable lb ub z ->
  match lb, ub with Some l, Some u => i128 l /\ i128 u | _, _ => True end.
Proof. intros [_ H]. destruct lb, ub; auto; tauto. Qed.

Lemma call_absorbs E c v : call_encodable E c v -> starts_aligned c = true -> absorbing (decode_prim E c).
Proof.
  intros HC HS.
  destruct c as [|lb ub [|]|lb ub [|]|lb ub [|]|x n|lb ub [|]|lb ub [|]|lb ub [|]|lb ub [|]]; try discriminate;
    destruct v as [b|z [|]|l [|]|l [|]]; cbn [call_encodable] in HC; try contradiction; cbn [decode_prim starts_aligned] in *;
    apply absorbing_bind.
  - apply absorbing_int; [eapply int_enc_bounds; eauto|auto].
  - unfold decode_enumerated. apply absorbing_noext. cbn [negb]. apply absorbing_bind, absorbing_bind.
    apply absorbing_int; [eapply int_enc_bounds; eauto|auto].
  - unfold decode_choice_idx. apply absorbing_bind. apply absorbing_int; [|exact HS].
    pose proof (int_enc_bounds _ _ _ HC) as HB. exact HB.
  - unfold decode_bitstring. apply absorbing_noext, absorbing_fuel. intros n. apply absorbing_bits_loop; [apply HC|auto].
  - unfold decode_octetstring. apply absorbing_noext, absorbing_fuel. intros n. apply absorbing_octets_loop; [apply HC|auto].
  - apply absorbing_string; [apply HC|auto].
  - apply absorbing_len; [apply HC|auto].
Qed.

(* ---- calls that write nothing ---- *)
Lemma con_bits_one a x : con_bits a 1 x = [].
Proof. unfold con_bits. cbn [Z.leb]. reflexivity. Qed.
Lemma call_empty E c v : call_encodable E c v -> empty_call c = true -> forall a, writes (encode_prim E c v) a [].
Proof.
  intros HC HS a. pose proof (call_encodable_ok E c v HC) as OK.
  destruct c as [|lb ub [|]|lb ub [|]|lb ub [|]|x n|lb ub [|]|lb ub [|]|lb ub [|]|lb ub [|]]; try discriminate;
    try match type of lb with option Z => destruct lb as [l|]; [|discriminate]; destruct ub as [u|]; [|discriminate] end;
    destruct v as [b|z [|]|w [|]|w [|]]; cbn [call_encodable] in HC; try contradiction; cbn [encode_prim empty_call prim_ok] in *; try discriminate.
  - assert (u = l) as -> by lia. pose proof (writes_int E a (Some l) (Some l) false z OK) as W.
    cbn [ext_bits app int_bits] in W. replace (l - l + 1) with 1 in W by lia. now rewrite con_bits_one in W.
  - assert (u = l) as -> by lia. pose proof (writes_enum E a (Some l) (Some l) false z OK) as W.
    cbn [ext_bits app int_bits] in W. replace (l - l + 1) with 1 in W by lia. now rewrite con_bits_one in W.
  - assert (ub = lb) as -> by lia. pose proof (writes_choice E a lb lb false z OK) as W.
    cbn [ext_bits app int_bits] in W. replace (lb - lb + 1) with 1 in W by lia. now rewrite con_bits_one in W.
  - destruct (fixed (Some l) (Some u)) as [n|] eqn:F; [|discriminate]. apply fixed_inv in F as (H1 & H2 & H3).
    injection H1 as ->. injection H2 as ->. destruct OK as [O1 O2].
    assert (zlen w = 0) as Hw by (destruct O1 as (? & ? & ?); lia). apply zlen_zero in Hw as ->.
    pose proof (writes_bitstring E a (Some n) (Some n) false [] O1 O2) as W.
    unfold str_bits, len_bits in W. replace (n <? 65536) with true in W by lia. cbn [ext_bits app opt0] in W.
    replace (n - n + 1) with 1 in W by lia. rewrite con_bits_one in W. exact W.
  - destruct (fixed (Some l) (Some u)) as [n|] eqn:F; [|discriminate]. apply fixed_inv in F as (H1 & H2 & H3).
    injection H1 as ->. injection H2 as ->. destruct OK as (O0 & O1 & O2).
    assert (zlen w = 0) as Hw by (destruct O1 as (? & ? & ?); lia). apply zlen_zero in Hw as ->.
    pose proof (writes_octetstring E a (Some n) (Some n) false [] O1 O2) as W.
    unfold str_bits, len_bits in W. replace (n <? 65536) with true in W by lia. cbn [ext_bits app opt0] in W.
    replace (n - n + 1) with 1 in W by lia. rewrite con_bits_one in W. exact W.
  - destruct (fixed (Some l) (Some u)) as [n|] eqn:F; [|discriminate]. apply fixed_inv in F as (H1 & H2 & H3).
    injection H1 as ->. injection H2 as ->. destruct OK as (O0 & O1 & O2 & _).
    assert (zlen w = 0) as Hw by (destruct O2 as (? & ? & ?); lia). apply zlen_zero in Hw as ->.
    pose proof (writes_string E a (Some n) (Some n) false [] O2) as W.
    unfold str_bits, len_bits in W. replace (n <? 65536) with true in W by lia. cbn [ext_bits app opt0] in W.
    replace (n - n + 1) with 1 in W by lia. rewrite con_bits_one in W. exact W.
  - destruct (fixed (Some l) (Some u)) as [n|] eqn:F; [|discriminate]. apply fixed_inv in F as (H1 & H2 & H3).
    injection H1 as ->. injection H2 as ->.
    pose proof (writes_len E a (Some n) (Some n) false z OK) as W.
    unfold len_bits in W. replace (n <? 65536) with true in W by lia. cbn [opt0] in W.
    replace (n - n + 1) with 1 in W by lia. rewrite con_bits_one in W. exact W.
Qed.

(* ---- agreement with a lagging decoder ---- *)
Definition step (enc : M unit) {A} (dec : M A) (v : A) (k k' : option Z) (s s' : bool) : Prop :=
  forall a z, padding z a -> (z <> [] -> s = true) ->
  exists e c z', z ++ e = c ++ z' /\ writes enc a e /\ reads_key dec (a - zlen z) c v k k' /\
    padding z' (a + zlen e) /\ (z' <> [] -> s' = true).

Lemma reads_key_bind {A B} (m : M A) (f : A -> M B) a e1 e2 v w k k1 k2 :
  reads_key m a e1 v k k1 -> reads_key (f v) (a + zlen e1) e2 w k1 k2 -> reads_key (bind m f) a (e1 ++ e2) w k k2.
Proof.
  intros H1 H2 p s Hp Hf. unfold bind. rewrite <- (app_assoc e1 e2 s) in *.
  rewrite (H1 p (e2 ++ s) Hp Hf).
  specialize (H2 (p ++ e1) s). rewrite zlen_app in H2.
  rewrite <- (app_assoc p e1 (e2 ++ s)) in H2.
  rewrite H2; [|lia|assumption]. rewrite zlen_app. do 2 f_equal. lia.
Qed.
Lemma reads_key_of {A} (m : M A) a e v k : reads m a e v -> reads_key m a e v k k.
Proof. intros H p s Hp F. now apply H. Qed.
Lemma reads_key_cong {A} (m : M A) a b e v k k' : a mod 8 = b mod 8 -> reads_key m a e v k k' -> reads_key m b e v k k'.
Proof. intros E H p s Hp. apply H. lia. Qed.
Lemma reads_key_ret {A} (v : A) a k : reads_key (ret v) a [] v k k.
Proof. intros p s Hp F. unfold ret. cbn [app]. rewrite zlen_nil, Z.add_0_r. reflexivity. Qed.

Lemma step_bind {A B} enc1 enc2 (m : M A) (f : A -> M B) v w k k1 k2 s s1 s2 :
  step enc1 m v k k1 s s1 -> step enc2 (f v) w k1 k2 s1 s2 -> step (enc1 ;; enc2) (bind m f) w k k2 s s2.
Proof.
  intros H1 H2 a z Hz Hs. destruct (H1 a z Hz Hs) as (e1 & c1 & z1 & Q1 & W1 & R1 & P1 & S1).
  destruct (H2 (a + zlen e1) z1 P1 S1) as (e2 & c2 & z2 & Q2 & W2 & R2 & P2 & S2).
  exists (e1 ++ e2), (c1 ++ c2), z2. split; [|split; [|split; [|split]]].
  - rewrite app_assoc, Q1, <- !app_assoc. f_equal. exact Q2.
  - now apply writes_bind.
  - eapply reads_key_bind; [exact R1|]. eapply reads_key_cong; [|exact R2].
    apply (f_equal zlen) in Q1. rewrite !zlen_app in Q1. lia.
  - rewrite zlen_app. now replace (a + (zlen e1 + zlen e2)) with (a + zlen e1 + zlen e2) by lia.
  - assumption.
Qed.
Lemma step_weaken {A} enc (m : M A) v k k' s s' s'' : step enc m v k k' s s' -> (s' = true -> s'' = true) -> step enc m v k k' s s''.
Proof.
  intros H HS a z Hz Hs. destruct (H a z Hz Hs) as (e & c & z' & Q & W & R & P & S).
  exists e, c, z'. repeat split; auto.
Qed.
(* nothing written, nothing read *)
Lemma step_pure {A} (m : M A) v k k' s : (forall a, reads_key m a [] v k k') -> step (ret tt) m v k k' s s.
Proof.
  intros H a z Hz Hs. exists [], [], z. split; [now rewrite app_nil_r|]. split; [apply writes_ret|].
  split; [apply H|]. split; [now rewrite zlen_nil, Z.add_0_r|assumption].
Qed.
Lemma writes_ret_r m a e : writes m a e -> writes (m ;; ret tt) a e.
Proof. intros H p o k Hp. unfold bind. now rewrite (H p o k Hp). Qed.
Lemma writes_ret_l m a e : writes m a e -> writes (ret tt ;; m) a e.
Proof. intros H. exact H. Qed.
(* the decoder continues after the value *)
Lemma step_map {A B} enc (m : M A) (f : A -> M B) v w k k1 k2 s s' :
  step enc m v k k1 s s' -> (forall a, reads_key (f v) a [] w k1 k2) -> step enc (bind m f) w k k2 s s'.
Proof.
  intros H1 H2 a z Hz Hs. destruct (H1 a z Hz Hs) as (e & c & z' & Q & W & R & P & S).
  exists e, c, z'. split; [assumption|]. split; [assumption|]. split; [|split; assumption].
  rewrite <- (app_nil_r c). eapply reads_key_bind; [exact R|apply H2].
Qed.
Lemma step_enc_ext {A} enc enc' (m m' : M A) v k k' s s' : (forall d, enc d = enc' d) -> (forall d, m d = m' d) ->
  step enc m v k k' s s' -> step enc' m' v k k' s s'.
Proof.
  intros HE HM H a z Hz Hs. destruct (H a z Hz Hs) as (e & c & z' & Q & W & R & P & S).
  exists e, c, z'. repeat split; auto.
  - intros p o x Hp. rewrite <- HE. now apply W.
  - intros p x Hp F. rewrite <- HM. now apply R.
Qed.

Lemma step_call E c v k s s' : call_encodable E c v -> call_flow c s = Some s' ->
  step (encode_prim E c v) (decode_prim E c) v k k s s'.
Proof.
  intros HC HF a z Hz Hs. pose proof (prim_round_trips E c v (call_encodable_ok E c v HC)) as RT.
  unfold call_flow in HF. destruct (empty_call c) eqn:CE.
  - injection HF as <-. pose proof (call_empty E c v HC CE) as W.
    exists [], [], z. split; [now rewrite app_nil_r|]. split; [apply W|]. split.
    + apply reads_key_of. destruct (RT (a - zlen z)) as (e & W' & R').
      now rewrite <- (writes_det _ _ _ _ (W _) W') in R'.
    + split; [now rewrite zlen_nil, Z.add_0_r|assumption].
  - destruct (s && negb (starts_aligned c)) eqn:CS; [discriminate|]. injection HF as <-.
    destruct (RT a) as (e & W & R). destruct z as [|z0 z].
    + exists e, e, []. split; [now rewrite app_nil_r|]. split; [assumption|].
      split; [rewrite zlen_nil, Z.sub_0_r; now apply reads_key_of|]. split; [now left|congruence].
    + assert (s = true) as -> by (apply Hs; discriminate). cbn [andb] in CS.
      assert (starts_aligned c = true) as CA by (destruct (starts_aligned c); [reflexivity|discriminate]).
      destruct Hz as [Hz|(Ha & Hz & HF)]; [discriminate|].
      exists e, ((z0 :: z) ++ e), []. split; [now rewrite app_nil_r|]. split; [assumption|].
      split; [|split; [now left|congruence]]. apply reads_key_of.
      apply absorbing_reads; auto. eapply call_absorbs; eauto.
Qed.

Lemma step_unmap {A B} enc (m : M A) (g : A -> B) x k k' s s' : (forall y, g y = g x -> y = x) ->
  step enc (y <- m ;; ret (g y)) (g x) k k' s s' -> step enc m x k k' s s'.
Proof.
  intros HI H a z Hz Hs. destruct (H a z Hz Hs) as (e & c & z' & Q & W & R & P & S).
  exists e, c, z'. split; [assumption|]. split; [assumption|]. split; [|split; assumption].
  intros p t Hp F. specialize (R p t Hp F). unfold bind, ret in R.
  destruct (m (mkD (p ++ c ++ t) (zlen p) k)) as [[y| | |] d]; try discriminate.
  injection R as R1 R2. now rewrite (HI y R1), R2.
Qed.
Lemma step_ext_enc {A} enc enc' (m : M A) v k k' s s' :
  (forall a e, writes enc a e -> writes enc' a e) -> step enc m v k k' s s' -> step enc' m v k k' s s'.
Proof.
  intros HE H a z Hz Hs. destruct (H a z Hz Hs) as (e & c & z' & Q & W & R & P & S).
  exists e, c, z'. repeat split; auto.
Qed.
Lemma step_ext_dec {A} enc (m m' : M A) v k k' s s' :
  (forall d d', m d = (Ok v, d') -> m' d = (Ok v, d')) -> step enc m v k k' s s' -> step enc m' v k k' s s'.
Proof.
  intros HE H a z Hz Hs. destruct (H a z Hz Hs) as (e & c & z' & Q & W & R & P & S).
  exists e, c, z'. repeat split; auto. intros p t Hp F. apply HE. now apply R.
Qed.
Lemma step_from {A} enc (m : M A) v k k' s0 s s' : step enc m v k k' s s' -> (s0 = true -> s = true) -> step enc m v k k' s0 s'.
Proof. intros H HS a z Hz Hs. apply H; auto. Qed.

(* ---- presence bitmap ---- *)
Fixpoint shows (fs : fields) (vs : list (option val)) (bm : list bool) : Prop :=
  match fs, vs with
  | FOpt i _ fs, o :: vs =>
      nth_error bm (Z.to_nat i) = Some (match o with Some _ => true | None => false end) /\ shows fs vs bm
  | FMan _ _ fs, _ :: vs => shows fs vs bm
  | FNil, [] => True
  | _, _ => False
  end.
Fixpoint fits_fields (fs : fields) (vs : list (option val)) : Prop :=
  match fs, vs with
  | FOpt _ _ fs, _ :: vs => fits_fields fs vs
  | FMan _ _ fs, Some _ :: vs => fits_fields fs vs
  | FNil, [] => True
  | _, _ => False
  end.
Lemma carries_fits E k fs vs k' : carries_fields E k fs vs k' -> fits_fields fs vs.
Proof. induction 1; cbn; auto. Qed.

Lemma set_true_spec bm i : 0 <= i < zlen bm -> exists bm', set_true bm i = Some bm' /\ zlen bm' = zlen bm /\
  nth_error bm' (Z.to_nat i) = Some true /\ (forall j, 0 <= j -> j <> i -> nth_error bm' (Z.to_nat j) = nth_error bm (Z.to_nat j)).
Proof.
  intros H. unfold set_true. replace ((0 <=? i) && (i <? zlen bm)) with true by lia.
  eexists. split; [reflexivity|]. unfold zlen in H.
  assert (length (firstn (Z.to_nat i) bm) = Z.to_nat i) as HL by (rewrite firstn_length; lia).
  split; [|split].
  - unfold zlen. rewrite app_length, HL. cbn [length app]. rewrite skipn_length. lia.
  - rewrite nth_error_app2 by lia. rewrite HL, Nat.sub_diag. reflexivity.
  - intros j Hj Hne. destruct (Z_lt_ge_dec j i).
    + rewrite nth_error_app1 by lia.
      rewrite <- (firstn_skipn (Z.to_nat i) bm) at 2. rewrite nth_error_app1 by lia. reflexivity.
    + rewrite nth_error_app2 by lia. rewrite HL.
      replace (Z.to_nat j - Z.to_nat i)%nat with (S (Z.to_nat j - Z.to_nat i - 1)) by lia. cbn [nth_error app].
      rewrite <- (firstn_skipn (Z.to_nat (i + 1)) bm) at 2. rewrite nth_error_app2; rewrite firstn_length; [f_equal|]; lia.
Qed.

Lemma presence_spec fs : forall vs bm, fits_fields fs vs -> NoDup (optional_idxs fs) ->
  Forall (fun i => 0 <= i < zlen bm) (optional_idxs fs) ->
  (forall i, In i (optional_idxs fs) -> nth_error bm (Z.to_nat i) = Some false) ->
  exists bm', presence fs vs bm = Some bm' /\ zlen bm' = zlen bm /\ shows fs vs bm' /\
    (forall j, 0 <= j -> ~ In j (optional_idxs fs) -> nth_error bm' (Z.to_nat j) = nth_error bm (Z.to_nat j)).
Proof.
  induction fs as [|i t fs IH|kf t fs IH]; intros vs bm HF HN HR HZ; destruct vs as [|o vs]; cbn in HF; try contradiction.
  - exists bm. cbn. auto.
  - cbn [optional_idxs] in *. inversion HN as [|? ? HN1 HN2]; subst. inversion HR as [|? ? HR1 HR2]; subst.
    assert (forall j, In j (optional_idxs fs) -> 0 <= j) as HP.
    { rewrite Forall_forall in HR2. intros j Hj. apply HR2 in Hj. lia. }
    destruct o as [v|]; cbn [presence shows].
    + destruct (set_true_spec bm i HR1) as (b1 & E1 & L1 & N1 & O1). rewrite E1.
      destruct (IH vs b1) as (b2 & E2 & L2 & S2 & O2); auto.
      * now rewrite L1.
      * intros j Hj. rewrite O1; [apply HZ; now right|auto|intros ->; auto].
      * exists b2. split; [assumption|]. split; [congruence|]. split; [split; [|assumption]|].
        -- rewrite O2; auto. lia.
        -- intros j Hj Hn. rewrite O2, O1; auto; intros X; apply Hn; [now left|now right].
    + destruct (IH vs bm) as (b2 & E2 & L2 & S2 & O2); auto.
      { intros j Hj. apply HZ. now right. }
      exists b2. split; [assumption|]. split; [assumption|]. split; [split; [|assumption]|].
      * rewrite O2; [apply HZ; now left|lia|assumption].
      * intros j Hj Hn. apply O2; auto. intros X; apply Hn; now right.
  - cbn [optional_idxs presence shows] in *. destruct o; [|contradiction]. apply IH; auto.
Qed.
Lemma presence_header fs vs n : fits_fields fs vs -> NoDup (optional_idxs fs) ->
  Forall (fun i => 0 <= i < n) (optional_idxs fs) -> 0 <= n ->
  exists bm, presence fs vs (repeat false (Z.to_nat n)) = Some bm /\ zlen bm = n /\ shows fs vs bm.
Proof.
  intros HF HN HR Hn.
  assert (zlen (repeat false (Z.to_nat n)) = n) as HL by (unfold zlen; rewrite repeat_length; lia).
  destruct (presence_spec fs vs (repeat false (Z.to_nat n))) as (bm & E1 & L1 & S1 & _); auto.
  - now rewrite HL.
  - intros i Hi. rewrite Forall_forall in HR. apply HR in Hi. apply nth_error_repeat. lia.
  - exists bm. split; [assumption|]. split; [lia|assumption].
Qed.

(* ---- alternatives ---- *)
Lemma dec_alts_at E al : forall n key x t pos, alt_at al n = Some (key, x, t) -> first_with_key al n key ->
  dec_alts E al key pos = (v <- dec E t ;; ret (VAlt (pos + n) v)).
Proof.
  induction al as [|k x t al IH]; intros [|n] key y u pos H HN; cbn in H; try discriminate; cbn [dec_alts].
  - injection H as -> _ ->. rewrite Z.eqb_refl. now rewrite Nat.add_0_r.
  - unfold first_with_key in *. cbn [alt_keys firstn In] in HN. destruct (key =? k) eqn:C.
    + exfalso. apply HN. left. lia.
    + rewrite (IH n key y u (S pos)); [|assumption|intros X; apply HN; now right]. now rewrite Nat.add_succ_comm.
Qed.
Lemma enc_choice_at E lb ub ext al : forall n v key x t, alt_at al n = Some (key, x, t) ->
  enc_choice E lb ub ext al n v = (encode_choice_idx E lb ub ext key x ;; enc E t v).
Proof.
  induction al as [|k x t al IH]; intros [|n] v key y u H; cbn in H; try discriminate; cbn [enc_choice].
  - injection H as -> -> ->. reflexivity.
  - eauto.
Qed.
Lemma enc_variant_at E al : forall n v key x t, alt_at al n = Some (key, x, t) -> enc_variant E al n v = enc E t v.
Proof.
  induction al as [|k x t al IH]; intros [|n] v key y u H; cbn in H; try discriminate; cbn [enc_variant].
  - injection H as -> -> ->. reflexivity.
  - eauto.
Qed.
Lemma flow_of_alt_at al : forall n key x t v s, alt_at al n = Some (key, x, t) -> flow_of_alt al n v s = flow_of t v s.
Proof.
  induction al as [|k x t al IH]; intros [|n] key y u v s H; cbn in H; try discriminate; cbn [flow_of_alt].
  - injection H as _ _ <-. reflexivity.
  - eauto.
Qed.
Lemma call_flow_mono c s s' s0 : call_flow c s = Some s' -> (s0 = true -> s = true) ->
  exists s1, call_flow c s0 = Some s1 /\ (s1 = true -> s' = true).
Proof.
  unfold call_flow. destruct (empty_call c).
  - intros [= <-] H. exists s0. auto.
  - destruct s, s0; cbn; intros H H0; try (specialize (H0 eq_refl); discriminate); destruct (negb (starts_aligned c)); try discriminate;
      injection H as <-; exists false; auto; congruence.
Qed.
Scheme ty_flow := Induction for ty Sort Prop with fields_flow := Induction for fields Sort Prop with alts_flow := Induction for alts Sort Prop.
Combined Scheme ty_flow_ind from ty_flow, fields_flow, alts_flow.
(* A type with flow has it for all its values. *)
Theorem flow_covers :
  (forall t s s', flow t s = Some s' -> forall v s0, (s0 = true -> s = true) ->
     exists s1, flow_of t v s0 = Some s1 /\ (s1 = true -> s' = true)) /\
  (forall fs s s', flow_fields fs s = Some s' -> forall vs s0, (s0 = true -> s = true) ->
     exists s1, flow_of_fields fs vs s0 = Some s1 /\ (s1 = true -> s' = true)) /\
  (forall al s s', flow_alts al s = Some s' -> forall n v s0, (s0 = true -> s = true) ->
     exists s1, flow_of_alt al n v s0 = Some s1 /\ (s1 = true -> s' = true)).
Proof.
  assert (forall s' : bool, exists s1, Some false = Some s1 /\ (s1 = true -> s' = true)) as HF by (intros s'; exists false; split; [reflexivity|discriminate]).
  apply ty_flow_ind; intros; cbn [flow flow_fields flow_alts] in *; try (cbn [flow_of]; eapply call_flow_mono; eassumption).
  - cbn [flow_of]. destruct s; [discriminate|]. destruct s0; [discriminate H0; reflexivity|]. auto.
  - injection H as <-. cbn [flow_of]. eauto.
  - injection H as <-. cbn [flow_of]. eauto.
  - destruct v; cbn [flow_of]; auto. match goal with |- context [if ?c then _ else _] => destruct c end.
    + destruct s; [discriminate|]. destruct s0; [discriminate H1; reflexivity|]. eapply H; eauto.
    + eapply H; eauto.
  - destruct v; cbn [flow_of]; auto. destruct (call_flow (PLength lb ub ext) s) as [sa|] eqn:CF; [|discriminate].
    destruct (flow t sa) as [sb|] eqn:F1; [|discriminate].
    destruct (flow t (sa || sb)) as [sc|] eqn:F2; [|discriminate]. injection H0 as <-.
    destruct (call_flow_mono _ _ _ s0 CF H1) as (s1 & -> & HI).
    assert (sc = true -> sa || sb = true) as HJ.
    { destruct sa, sb; cbn; auto. cbn in F2. rewrite F1 in F2. congruence. }
    assert (s1 = true -> sa || sb = true) as HK by (intros X; rewrite (HI X); reflexivity).
    clear -H F2 HJ HK. revert s1 HK. induction l as [|v l IH]; intros s1 HK; cbn [flow_each].
    + eauto.
    + destruct (H _ _ F2 v s1 HK) as (s2 & -> & H2). apply IH. auto.
  - destruct v; cbn [flow_of]; auto. destruct (call_flow (PChoice lb ub ext) s) as [sa|] eqn:CF; [|discriminate].
    destruct (call_flow_mono _ _ _ s0 CF H1) as (s1 & -> & HI). eapply H; eauto.
  - destruct v; cbn [flow_of]; auto. destruct (flow_alts alts false) as [sa|] eqn:CF; [|discriminate]. injection H0 as <-.
    destruct (H _ _ CF n v false) as (s1 & -> & HI); [discriminate|]. eauto.
  - injection H as <-. destruct vs; cbn [flow_of_fields]; eauto.
  - destruct (flow t s) as [sa|] eqn:F1; [|discriminate]. destruct vs as [|[v|] vs]; cbn [flow_of_fields]; auto.
    + destruct (H _ _ F1 v s0 H2) as (s1 & -> & HI). eapply H0; [eassumption|]. intros X. rewrite (HI X). apply orb_true_r.
    + eapply H0; [eassumption|]. intros X. rewrite (H2 X). reflexivity.
  - destruct (flow t s) as [sa|] eqn:F1; [|discriminate]. destruct vs as [|[v|] vs]; cbn [flow_of_fields]; auto.
    destruct (H _ _ F1 v s0 H2) as (s1 & -> & HI). eapply H0; eassumption.
  - destruct n; cbn [flow_of_alt]; auto.
  - destruct (flow t s) as [sa|] eqn:F1; [|discriminate]. destruct (flow_alts rest s) as [sb|] eqn:F2; [|discriminate]. injection H1 as <-.
    destruct n as [|n]; cbn [flow_of_alt].
    + destruct (H _ _ F1 v s0 H2) as (s1 & -> & HI). exists s1. split; [reflexivity|]. intros X. now rewrite (HI X).
    + destruct (H0 _ _ F2 n v s0 H2) as (s1 & -> & HI). exists s1. split; [reflexivity|]. intros X. rewrite (HI X). apply orb_true_r.
Qed.
Lemma flow_has t s v : flow t false = Some s -> exists s', flow_of t v false = Some s'.
Proof. intros H. destruct (proj1 flow_covers t false s H v false) as (s1 & H1 & _); [auto|]. eauto. Qed.

(* ---- the loop of SEQUENCE OF ---- *)
Lemma seqof_mono m f : forall f' count len acc d v d', (f <= f')%nat ->
  seqof_loop f m count len acc d = (Ok v, d') -> seqof_loop f' m count len acc d = (Ok v, d').
Proof.
  induction f as [|f IH]; intros [|f'] count len acc d v d' Hf; try discriminate; try lia; cbn [seqof_loop].
  unfold bind. destruct (m d) as [[x| | |] d1]; try discriminate. destruct (count + 1 =? len); [auto|].
  apply IH. lia.
Qed.
Lemma writes_ignore m a e : writes m a e -> writes (ignore_err m) a e.
Proof. intros H p o k Hp. unfold ignore_err. now rewrite (H p o k Hp). Qed.
Lemma open_length_aligned E n a e : 0 <= n < 16384 ->
  writes (encode_length_determinent E None None false n) a e -> (a + zlen e) mod 8 = 0.
Proof.
  intros Hn W. assert (length_ok None None false n) as OK.
  { unfold length_ok. split; [lia|]. split; [exact I|lia]. }
  rewrite (writes_det _ _ _ _ W (writes_len E a None None false n OK)).
  unfold len_bits, indef_bits. rewrite zlen_app, zlen_pad. destruct (n <? 128); rewrite ?zlen_cons, zlen_low_bits; lia.
Qed.

Lemma step_open E al n key x t v d k' s' : alt_at al n = Some (key, x, t) -> first_with_key al n key ->
  enc E t v new_data = (Ok tt, d) -> 0 < zlen (bits d) <= 131064 ->
  step (enc E t v) (dec E t) v (Some key) k' false s' ->
  forall s, step (enc E (TOpen al) (VAlt n v)) (dec E (TOpen al)) (VAlt n v) (Some key) k' s true.
Proof.
  intros HA HN HE HB HS s a z Hz Hs.
  destruct (HS 0 []) as (e & c & z' & Q & W & R & P & _); [now left|congruence|].
  cbn [app] in Q. change (0 - zlen (@nil bool)) with 0 in R.
  specialize (W [] 0 None eq_refl) as W0. change (mkD [] 0 None) with new_data in W0. rewrite HE in W0.
  assert (d = mkD e 0 None) as -> by (injection W0 as ->; reflexivity). cbn [bits] in HB.
  remember ((zlen e - 1) / 8 + 1) as len eqn:Elen.
  assert (0 <= len < 16384) as Hlen by lia.
  assert (call_encodable E (PLength None None false) (VNum len false)) as HC.
  { cbn [call_encodable]. split; [|left; lia]. unfold size_within, size_sane. cbn [opt0]. repeat split; lia. }
  pose proof (step_call E (PLength None None false) (VNum len false) (Some key) s false HC) as SC.
  assert (call_flow (PLength None None false) s = Some false) as HF by (cbn; now rewrite andb_false_r).
  specialize (SC HF). cbn [encode_prim decode_prim] in SC.
  apply (step_unmap _ _ (fun n => VNum n false)) in SC; [|intros y Hy; congruence].
  destruct (SC a z Hz Hs) as (e1 & c1 & z1 & Q1 & W1 & R1 & P1 & S1).
  assert (z1 = []) as -> by (destruct z1; [reflexivity|]; discriminate S1; discriminate).
  rewrite app_nil_r in Q1. pose proof (open_length_aligned E len a e1 Hlen W1) as HA1.
  exists (e1 ++ e ++ pad (zlen e)), (c1 ++ c), (z' ++ pad (zlen e)).
  split; [now rewrite Q, app_assoc, Q1, <- !app_assoc|]. split; [|split; [|split]].
  - cbn [enc]. rewrite (enc_variant_at E al n v key x t HA), HE. unfold enc_open_frame.
    unfold length_in_bytes. cbn [bits]. rewrite arith_usize_ok by lia. rewrite <- Elen.
    apply (writes_bind (encode_length_determinent E None None false len) _ a e1); [exact W1|].
    unfold append_aligned. cbn [bits].
    apply (writes_cong _ 0); [lia|].
    change (e ++ pad (zlen e)) with ([] ++ (e ++ pad (zlen e))). apply writes_bind.
    + pose proof (writes_align 0) as WA. rewrite pad_zero in WA by reflexivity. exact WA.
    + rewrite align_bits_pad. apply writes_append.
  - cbn [dec]. eapply reads_key_bind; [exact R1|].
    intros p q Hp F. unfold bind at 1, get_key. cbn [CodecModel.key].
    rewrite (dec_alts_at E al n key x t 0 HA HN). change (0 + n)%nat with n.
    assert (zlen p mod 8 = 0 mod 8) as Hp0.
    { apply (f_equal zlen) in Q1. rewrite !zlen_app in Q1. lia. }
    unfold bind. rewrite (R p q Hp0 F). reflexivity.
  - rewrite !zlen_app, zlen_pad. destruct P as [->|(P1' & P2 & P3)].
    + cbn [app]. right. split; [lia|]. split; [rewrite zlen_pad; lia|]. apply Forall_forall. intros b Hb.
      unfold pad in Hb. now apply repeat_spec in Hb.
    + rewrite pad_zero by lia. rewrite app_nil_r. right. split; [lia|]. auto.
  - reflexivity.
Qed.

Scheme carries_ind' := Minimality for carries Sort Prop
  with carries_fields_ind' := Minimality for carries_fields Sort Prop
  with carries_list_ind' := Minimality for carries_list Sort Prop.
Combined Scheme carries_mutind from carries_ind', carries_fields_ind', carries_list_ind'.

Lemma int_enc_i128 lb ub z : int_encodable lb ub z -> as_i128 z = z.
Proof.
  intros H. pose proof (int_encodable_ok _ _ _ H) as OK. unfold as_i128. apply wrap_s_small; [lia|].
  unfold int_encodable, i128 in H. lia.
Qed.

Theorem derived_steps E :
  (forall k t v k', carries E k t v k' -> forall s s', flow_of t v s = Some s' -> step (enc E t v) (dec E t) v k k' s s') /\
  (forall k fs vs k', carries_fields E k fs vs k' -> forall bm s s', shows fs vs bm -> flow_of_fields fs vs s = Some s' ->
     step (enc_fields E fs vs) (dec_fields E bm fs) vs k k' s s') /\
  (forall k t l k', carries_list E k t l k' -> forall s s', flow_each (flow_of t) l s = Some s' -> l <> [] ->
     forall count acc, step (each (enc E t) l) (seqof_loop (length l) (dec E t) count (count + zlen l) acc) (acc ++ l) k k' s s').
Proof.
  apply carries_mutind; intros.
  - (* BOOLEAN *) cbn [flow_of] in H. destruct s; [discriminate|]. injection H as <-.
    pose proof (step_call E PBool (VBool b) k false false I eq_refl) as SC. cbn [encode_prim decode_prim] in SC.
    apply (step_unmap _ _ VBool) in SC; [|congruence]. cbn [enc dec].
    eapply step_map; [exact SC|]. intros a. apply reads_key_ret.
  - cbn [flow_of] in H. injection H as <-. cbn [enc dec]. apply step_pure. intros a. apply reads_key_ret.
  - cbn [flow_of] in H1. cbn [enc dec]. rewrite (int_enc_i128 _ _ _ H).
    pose proof (step_call E (PInt lb ub ext) (VNum z false) k s s' H H1) as SC. cbn [encode_prim decode_prim] in SC.
    apply (step_unmap _ _ (fun r => VNum (fst r) (snd r)) (z, false)) in SC; [|intros [? ?] Hy; cbn in Hy; congruence].
    eapply step_map; [exact SC|]. intros a. cbn [fst]. rewrite H0. apply reads_key_ret.
  - cbn [flow_of] in H1. cbn [enc dec]. rewrite (int_enc_i128 _ _ _ H).
    pose proof (step_call E (PEnum lb ub ext) (VNum z false) k s s' H H1) as SC. cbn [encode_prim decode_prim] in SC.
    apply (step_unmap _ _ (fun r => VNum (fst r) (snd r)) (z, false)) in SC; [|intros [? ?] Hy; cbn in Hy; congruence].
    eapply step_map; [exact SC|]. intros a. cbn [fst]. rewrite H0. apply reads_key_ret.
  - cbn [flow_of] in H0. cbn [enc dec].
    pose proof (step_call E _ _ k s s' H H0) as SC. cbn [encode_prim decode_prim] in SC.
    apply (step_unmap _ _ (fun r => Api.VBits r false)) in SC; [|congruence].
    eapply step_map; [exact SC|]. intros a. apply reads_key_ret.
  - cbn [flow_of] in H0. cbn [enc dec].
    pose proof (step_call E _ _ k s s' H H0) as SC. cbn [encode_prim decode_prim] in SC.
    apply (step_unmap _ _ (fun r => Api.VBytes r false)) in SC; [|congruence].
    eapply step_map; [exact SC|]. intros a. apply reads_key_ret.
  - cbn [flow_of] in H0. cbn [enc dec].
    pose proof (step_call E _ _ k s s' H H0) as SC. cbn [encode_prim decode_prim] in SC.
    apply (step_unmap _ _ (fun r => Api.VBytes r false)) in SC; [|congruence].
    eapply step_map; [exact SC|]. intros a. apply reads_key_ret.
  - (* SEQUENCE *) cbn [flow_of] in H4. cbn [enc dec].
    destruct (presence_header fs vs n (carries_fits _ _ _ _ _ H2) H H0 H1) as (bm & E1 & L1 & S1). rewrite E1.
    assert (exists s1, step (encode_sequence_header ext bm false) (decode_sequence_header E ext n) (bm, false) k k s s1 /\
      flow_of_fields fs vs s1 = Some s') as (s1 & SC & FF).
    { destruct (ext || (0 <? n)) eqn:C.
      - destruct s; [discriminate|]. exists false. split; [|assumption].
        pose proof (step_call E (PSeqHeader ext n) (Api.VBits bm false) k false false (eq_sym L1) eq_refl) as SC.
        cbn [encode_prim decode_prim] in SC.
        apply (step_unmap _ _ (fun r => Api.VBits (fst r) (snd r)) (bm, false)) in SC; [exact SC|intros [? ?] Hy; cbn in Hy; congruence].
      - exists s. split; [|assumption]. assert (ext = false) as -> by (destruct ext; [discriminate|reflexivity]).
        assert (n = 0) as -> by (cbn in C; lia). apply zlen_zero in L1 as ->.
        intros a z Hz Hs. exists [], [], z. split; [now rewrite app_nil_r|].
        pose proof (writes_seqhdr a false []) as W. pose proof (reads_seqhdr E (a - zlen z) false []) as R.
        split; [exact W|]. split; [apply reads_key_of; exact R|]. split; [now rewrite zlen_nil, Z.add_0_r|assumption]. }
    eapply step_bind; [exact SC|]. cbn [fst].
    eapply step_map; [apply H3; eassumption|]. intros a. apply reads_key_ret.
  - (* SEQUENCE OF *) cbn [flow_of] in H3. cbn [enc dec].
    destruct (call_flow (PLength lb ub ext) s) as [s0|] eqn:CF; [|discriminate].
    pose proof (step_call E _ _ k s s0 H0 CF) as SC. cbn [encode_prim decode_prim] in SC.
    apply (step_unmap _ _ (fun r => VNum r false)) in SC; [|congruence].
    eapply step_bind; [eapply step_ext_enc; [|exact SC]; intros; now apply writes_ignore|].
    specialize (H2 s0 s' H3 H 0 []). cbn [app Z.add] in H2.
    eapply step_ext_dec; [|apply (step_map _ _ (fun items => ret (VList items)) _ (VList l) _ _ _ _ _ H2); intros a; apply reads_key_ret].
    intros d d'. unfold bind, loop_fuel. destruct (seqof_loop (length l) (dec E t) 0 (zlen l) [] d) as [[items| | |] d1] eqn:EL; try discriminate.
    match goal with |- context [seqof_loop ?f _ _ _ _ _] =>
      rewrite (seqof_mono (dec E t) (length l) f 0 (zlen l) [] d items d1) by (assumption || (unfold zlen; lia)) end. auto.
  - (* CHOICE *) cbn [flow_of] in H4. cbn [enc dec]. rewrite (enc_choice_at _ _ _ _ _ _ _ _ _ _ H).
    destruct (call_flow (PChoice lb ub ext) s) as [s0|] eqn:CF; [|discriminate].
    rewrite (flow_of_alt_at _ _ _ _ _ _ _ H) in H4.
    assert (call_encodable E (PChoice lb ub ext) (VNum key false)) as HC by exact H1.
    pose proof (step_call E _ _ k s s0 HC CF) as SC. cbn [encode_prim decode_prim] in SC.
    apply (step_unmap _ _ (fun r => VNum (fst r) (snd r)) (key, false)) in SC; [|intros [? ?] Hy; cbn in Hy; congruence].
    eapply step_bind; [exact SC|]. cbn [fst snd negb]. rewrite (dec_alts_at _ _ _ _ _ _ _ H H0). change (0 + n)%nat with n.
    eapply step_map; [apply H3; eassumption|]. intros a. apply reads_key_ret.
  - (* open type *) cbn [flow_of] in H5. rewrite (flow_of_alt_at _ _ _ _ _ _ _ H) in H5. destruct (flow_of t v false) as [s1|] eqn:F1; [|discriminate]. injection H5 as <-.
    eapply step_open; eauto.
  - cbn [flow_of_fields] in H0. injection H0 as <-. cbn [enc_fields dec_fields]. apply step_pure. intros a. apply reads_key_ret.
  - cbn [shows] in H1. destruct H1 as [HB HSh]. cbn [flow_of_fields] in H2.
    cbn [enc_fields dec_fields]. rewrite HB.
    apply (step_ext_enc (ret tt ;; enc_fields E fs vs)); [auto|].
    eapply step_bind; [apply (step_pure (ret None) None k k s); intros; apply reads_key_ret|].
    eapply step_map; [|intros a; apply reads_key_ret]. apply H0; assumption.
  - cbn [shows] in H3. destruct H3 as [HB HSh]. cbn [flow_of_fields] in H4. destruct (flow_of t v s) as [s1|] eqn:F1; [|discriminate].
    cbn [enc_fields dec_fields]. rewrite HB.
    eapply step_bind; [eapply step_map; [apply H0; exact F1|intros a; apply (reads_key_ret (Some v))]|].
    eapply step_map; [|intros a; apply reads_key_ret]. apply H2; assumption.
  - cbn [shows] in H3. cbn [flow_of_fields] in H4. destruct (flow_of t v s) as [s1|] eqn:F1; [|discriminate].
    cbn [enc_fields dec_fields].
    eapply step_bind; [apply H0; exact F1|].
    apply (step_ext_enc (ret tt ;; enc_fields E fs vs)); [auto|].
    eapply step_bind; [apply step_pure; intros; apply reads_key_ret|].
    eapply step_map; [|intros a; apply reads_key_ret]. apply H2; assumption.
  - cbn [shows] in H3. cbn [flow_of_fields] in H4. destruct (flow_of t (VI z) s) as [s1|] eqn:F1; [|discriminate].
    cbn [enc_fields dec_fields].
    eapply step_bind; [apply H0; exact F1|].
    apply (step_ext_enc (ret tt ;; enc_fields E fs vs)); [auto|].
    eapply step_bind; [apply (step_pure _ tt k1 (Some z))|].
    + intros a p q Hp F. unfold set_key_val, set_key.
      assert (as_i128 z = z) as -> by (inversion H; subst; eapply int_enc_i128; eassumption).
      cbn [app bits off]. rewrite zlen_nil, Z.add_0_r. reflexivity.
    + eapply step_map; [|intros a; apply reads_key_ret]. apply H2; assumption.
  - congruence.
  - cbn [each length seqof_loop flow_each] in *. destruct (flow_of t v s) as [s1|] eqn:F1; [|discriminate].
    eapply step_bind; [apply H0; exact F1|]. rewrite zlen_cons. destruct l as [|w l].
    + cbn [each flow_each] in *. injection H3 as <-. inversion H1; subst. rewrite zlen_nil. replace (count + 1 =? count + (1 + 0)) with true by lia.
      apply step_pure. intros a. apply reads_key_ret.
    + rewrite zlen_cons. pose proof (zlen_nonneg l).
      replace (count + 1 =? count + (1 + (1 + zlen l))) with false by lia.
      replace (acc ++ v :: w :: l) with ((acc ++ [v]) ++ w :: l) by now rewrite <- app_assoc.
      replace (count + (1 + (1 + zlen l))) with (count + 1 + zlen (w :: l)) by (rewrite zlen_cons; lia).
      apply (H2 s1 s'); auto. discriminate.
Qed.
