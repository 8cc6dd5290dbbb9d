(* Derived codecs on arbitrary input: locality, termination, absence of panics,
   and what a successful decoding means. *)
From Coq Require Import ZArith List Bool Lia.
From Coq Require Import ZifyBool ZifyNat ZifyN.
Require Import Verif.Base Verif.CodecModel Verif.BitLemmas Verif.Spec Verif.Combinators.
Require Import Verif.LengthProofs Verif.IntegerProofs Verif.StringProofs Verif.Local Verif.Ranges Verif.Loops Verif.Frame Verif.Safety Verif.Api Verif.ApiProofs Verif.AcceptProofs Verif.ApiSpec Verif.MiscProofs Verif.CodecFacts.
Require Import Verif.DeriveModel Verif.DeriveSpec Verif.DeriveProofs.
Import ListNotations.
Open Scope Z_scope.
Ltac Zify.zify_post_hook ::= Z.div_mod_to_equations.

Scheme ty_ind' := Induction for ty Sort Prop
  with fields_ind' := Induction for fields Sort Prop
  with alts_ind' := Induction for alts Sort Prop.
Combined Scheme ty_mutind from ty_ind', fields_ind', alts_ind'.

(* ---- encoding only appends ---- *)
Lemma emits_ignore m : emits m -> emits (ignore_err m).
Proof.
  intros H a. destruct (H a) as (r & e & He).
  exists (match r with Err => Ok tt | r => r end), e. intros p o k Hp. unfold ignore_err. rewrite He by assumption. now destruct r.
Qed.
Lemma emits_frame E r : emits (enc_open_frame E r).
Proof.
  destruct r as [[u| | |] d]; cbn [enc_open_frame]; try apply emits_err; try apply emits_panic; try apply emits_diverge.
  apply emits_bind; [apply emits_lift|intros n]. apply emits_bind; [apply emits_len|intros _].
  unfold append_aligned. apply emits_bind; [apply emits_align|intros _; apply emits_append].
Qed.
Lemma emits_each {A} (f : A -> M unit) l : (forall x, In x l -> emits (f x)) -> emits (each f l).
Proof.
  induction l as [|x l IH]; intros H; cbn [each]; [apply emits_ret|].
  apply emits_bind; [apply H; now left|intros _; apply IH; intros; apply H; now right].
Qed.
Lemma emits_enc E :
  (forall t v, emits (enc E t v)) /\ (forall fs vs, emits (enc_fields E fs vs)) /\
  (forall al, (forall lb ub ext n v, emits (enc_choice E lb ub ext al n v)) /\ (forall n v, emits (enc_variant E al n v))).
Proof.
  apply ty_mutind; intros.
  1-12: destruct v; cbn [enc]; try apply emits_err.
  - apply emits_bool.
  - apply emits_ret.
  - apply emits_integer.
  - apply emits_enum.
  - apply emits_bitstring.
  - apply emits_octetstring.
  - apply emits_string.
  - destruct (presence _ _ _); [|apply emits_panic]. apply emits_bind; [apply emits_seqhdr|intros _; apply H].
  - apply emits_bind; [apply emits_ignore, emits_len|intros _; apply emits_each; auto].
  - apply H.
  - apply emits_frame.
  - destruct vs; cbn [enc_fields]; [apply emits_ret|apply emits_err].
  - destruct vs as [|[v|] vs]; cbn [enc_fields]; [apply emits_err| |apply H0]. apply emits_bind; [apply H|intros _; apply H0].
  - destruct vs as [|[v|] vs]; cbn [enc_fields]; [apply emits_err| |apply emits_err]. apply emits_bind; [apply H|intros _; apply H0].
  - split; intros; cbn; apply emits_err.
  - destruct H0 as [H0 H1]. split.
    + intros lb ub ext [|n] v; cbn [enc_choice]; [|apply H0]. apply emits_bind; [apply emits_choice|intros _; apply H].
    + intros [|n] v; cbn [enc_variant]; auto.
Qed.

(* ---- decoding is local ---- *)
Lemma local_set_key z : local (set_key z).
Proof.
  intros p b k r s' F H. injection H as <- <-. exists [], b, (Some z). split; [reflexivity|].
  cbn [bits off]. change (zlen (@nil bool)) with 0. rewrite Z.add_0_r. split; [reflexivity|].
  intros p' t' Hp F'. unfold set_key. cbn [bits off app]. change (zlen (@nil bool)) with 0. rewrite Z.add_0_r. reflexivity.
Qed.
Lemma local_key {A} (f : option Z -> M A) : (forall k, local (f k)) -> local (bind get_key f).
Proof.
  intros H p b k r s' F E. unfold bind, get_key in E. cbn [key] in E.
  destruct (H k p b k r s' F E) as (e & t & k' & Hb & Hs & Hr). exists e, t, k'. split; [assumption|]. split; [assumption|].
  destruct r; auto.
Qed.
Lemma local_loop m : local m -> forall f count len acc, local (seqof_loop f m count len acc).
Proof.
  intros H. induction f as [|f IH]; intros count len acc; cbn [seqof_loop]; [apply local_diverge|].
  apply local_bind; [exact H|intros v]. cbv zeta. destruct (count + 1 =? len); [apply local_ret|apply IH].
Qed.
(* a loop that ends has made exactly len - count steps *)
Lemma loop_ok f m : forall count len acc s v s', seqof_loop f m count len acc s = (Ok v, s') ->
  exists l, v = acc ++ l /\ l <> [] /\ count + zlen l = len /\ decodes_in_order m s l s'.
Proof.
  induction f as [|f IH]; intros count len acc s v s' H; cbn [seqof_loop] in H; [discriminate|].
  unfold bind in H. destruct (m s) as [[x| | |] s1] eqn:E; try discriminate. cbv zeta in H. destruct (count + 1 =? len) eqn:C.
  - injection H as <- <-. exists [x]. split; [reflexivity|]. split; [discriminate|]. rewrite zlen_cons, zlen_nil. split; [lia|].
    econstructor; [exact E|constructor].
  - apply IH in H as (l & -> & N & L & D). exists (x :: l). rewrite <- app_assoc. split; [reflexivity|].
    split; [discriminate|]. rewrite zlen_cons. split; [lia|]. econstructor; eauto.
Qed.
Lemma loop_runs m s l s' : decodes_in_order m s l s' -> l <> [] -> forall f count acc, (length l <= f)%nat ->
  seqof_loop f m count (count + zlen l) acc s = (Ok (acc ++ l), s').
Proof.
  induction 1 as [|s s1 s' v l H D IH]; intros N [|f] count acc Hf; try congruence; cbn [length] in Hf; try lia.
  cbn [seqof_loop]. unfold bind. rewrite H. cbv zeta. rewrite zlen_cons. pose proof (zlen_nonneg l). destruct l as [|w l].
  - rewrite zlen_nil. replace (count + 1 =? count + (1 + 0)) with true by lia. inversion D; subst. reflexivity.
  - rewrite zlen_cons in *. pose proof (zlen_nonneg l). replace (count + 1 =? count + (1 + (1 + zlen l))) with false by lia.
    specialize (IH ltac:(discriminate) f (count + 1) (acc ++ [v]) ltac:(cbn [length] in *; lia)).
    replace (count + 1 + (1 + zlen l)) with (count + (1 + (1 + zlen l))) in IH by lia.
    rewrite IH. now rewrite <- app_assoc.
Qed.
Lemma local_seqof m len : local m ->
  local (fuel <- loop_fuel ;; items <- seqof_loop (fuel + Z.to_nat len) m 0 len [] ;; ret (VList items)).
Proof.
  intros H p b k r s' F E. unfold bind at 1, loop_fuel at 1 in E. cbn [bits] in E.
  set (f := (S (length (p ++ b)) + Z.to_nat len)%nat) in E.
  assert (L : local (items <- seqof_loop f m 0 len [] ;; ret (VList items))).
  { apply local_bind; [now apply local_loop|intros; apply local_ret]. }
  destruct (L p b k r s' F E) as (e & t & k' & Hb & Hs & Hr). exists e, t, k'. split; [assumption|]. split; [assumption|].
  destruct r as [v| | |]; auto. intros p' t' Hp F'. specialize (Hr p' t' Hp F').
  unfold bind at 1, loop_fuel at 1. cbn [bits].
  unfold bind in Hr |- *. destruct (seqof_loop f m 0 len [] _) as [[items| | |] s1] eqn:EL in Hr; try discriminate.
  apply loop_ok in EL as (l & -> & N & Hl & D). cbn [Z.add app] in Hl. subst len.
  rewrite (loop_runs m _ l _ D N _ 0 []) by (unfold zlen; lia). exact Hr.
Qed.
Lemma local_dec E :
  (forall t, local (dec E t)) /\ (forall fs bm, local (dec_fields E bm fs)) /\ (forall al idx pos, local (dec_alts E al idx pos)).
Proof.
  apply ty_mutind; intros; cbn [dec dec_fields dec_alts].
  1,4-8: (apply local_bind; [|intros; apply local_ret]);
    first [apply local_bool | apply local_integer | apply local_enum | apply local_bitstring | apply local_octetstring | apply local_string].
  - apply local_ret.
  - apply local_err.
  - apply local_bind; [apply local_seqhdr|intros h]. apply local_bind; [apply H|intros; apply local_ret].
  - apply local_bind; [apply local_len|intros n]. now apply local_seqof.
  - apply local_bind; [apply local_choice_idx|intros q]. destruct (negb (snd q)); [apply H|apply local_err].
  - apply local_bind; [apply local_len|intros n]. apply local_key. intros [key|]; [apply H|apply local_err].
  - apply local_ret.
  - destruct (nth_error _ _) as [pr|]; [|apply local_panic]. apply local_bind.
    + destruct pr; [apply local_bind; [apply H|intros; apply local_ret]|apply local_ret].
    + intros o. apply local_bind; [apply H0|intros; apply local_ret].
  - apply local_bind; [apply H|intros v]. apply local_bind; [|intros _; apply local_bind; [apply H0|intros; apply local_ret]].
    destruct key_field; [|apply local_ret]. destruct v; cbn [set_key_val]; try apply local_ret. apply local_set_key.
  - apply local_err.
  - destruct (idx =? key); [|apply H0]. apply local_bind; [apply H|intros; apply local_ret].
Qed.

(* ---- decoders that read something ---- *)
Definition eats {A} (m : M A) : Prop :=
  forall p b k v s', fits (p ++ b) -> m (mkD (p ++ b) (zlen p) k) = (Ok v, s') -> zlen p < off s'.
Lemma eats_l {A B} (m : M A) (f : A -> M B) : local m -> eats m -> (forall v, local (f v)) -> eats (bind m f).
Proof.
  intros L H LF p b k v s' F E. unfold bind in E. destruct (m _) as [[x| | |] s1] eqn:E1; try discriminate.
  pose proof (H p b k x s1 F E1) as H1. destruct (L p b k _ _ F E1) as (e & t & k1 & -> & -> & _).
  cbn [off] in H1. rewrite app_assoc, <- zlen_app in E. destruct (LF x (p ++ e) t k1 _ _ ltac:(now rewrite <- app_assoc) E) as (e2 & t2 & k2 & -> & -> & _).
  cbn [off]. rewrite zlen_app. pose proof (zlen_nonneg e2). lia.
Qed.
Lemma eats_r {A B} (m : M A) (f : A -> M B) (P : A -> Prop) : local m -> returns m P -> (forall v, P v -> eats (f v)) -> eats (bind m f).
Proof.
  intros L R H p b k v s' F E. unfold bind in E. destruct (m _) as [[x| | |] s1] eqn:E1; try discriminate.
  pose proof (R _ _ _ E1) as HP. destruct (L p b k _ _ F E1) as (e & t & k1 & -> & -> & _).
  rewrite app_assoc, <- zlen_app in E. apply H in E; auto; [|now rewrite <- app_assoc].
  rewrite zlen_app in E. pose proof (zlen_nonneg e). lia.
Qed.
Lemma eats_err {A} : eats (@err A). Proof. intros p b k v s' F E. discriminate. Qed.
Lemma eats_panic {A} : eats (@panic A). Proof. intros p b k v s' F E. discriminate. Qed.
Lemma eats_ext {A} (m m' : M A) : (forall s, m s = m' s) -> eats m' -> eats m.
Proof. intros H1 H p b k v s' F E. rewrite H1 in E. eapply H; eauto. Qed.

Lemma eats_bool E : eats (data_decode_bool E).
Proof.
  intros p b k v s' F H. destruct b as [|x b].
  - exfalso. rewrite app_nil_r in H. unfold data_decode_bool, bind, get_bits, get_off in H. cbn [bits off] in H.
    rewrite Z.eqb_refl in H. discriminate.
  - pose proof (reads_bool E (zlen p) x p b k eq_refl F) as R. cbn [app] in R. rewrite R in H. injection H as _ <-.
    cbn [off]. rewrite zlen_cons, zlen_nil. lia.
Qed.
Lemma eats_uint E n : 0 < n < 2 ^ 62 -> eats (decode_bits_as_integer E n false).
Proof.
  intros Hn p b k v s' F H. pose proof (fits_nonneg p b F) as (Np & Nb & Nf).
  unfold decode_bits_as_integer, bind, get_bits, get_off, lift in H. cbn [off bits negb] in H.
  destruct (arith_usize E (zlen (p ++ b) - zlen p)) as [r| | |]; try discriminate.
  destruct (r <? n); [discriminate|]. replace (n =? 0) with false in H by lia.
  unfold slice_at_off in H. cbn [off bits] in H. destruct (_ && _) eqn:C in H; [|discriminate].
  unfold load_be in H. destruct (_ && _) in H; [|discriminate]. unfold ret at 1 2 in H.
  unfold advance_maybe_err, bind, get_bits, get_off, lift in H. cbn [off bits] in H.
  rewrite arith_usize_ok in H by lia. replace (zlen (p ++ b) <? zlen p + n) with false in H by lia.
  remember (zlen p + n) as q. unfold set_off, ret in H. cbn [bits off key] in H. injection H as <- <-. cbn [off]. lia.
Qed.
Lemma eats_bitvec E n : 0 < n -> eats (get_bitvec E n).
Proof. intros Hn p b k v s' F H. apply bitvec_consumes in H; [lia|assumption]. Qed.
Lemma eats_bytes E n : 0 < n < 2 ^ 60 -> eats (get_bytes E n).
Proof. intros Hn p b k v s' F H. apply bytes_consumes in H; [lia|assumption|lia]. Qed.

Lemma dec_range_bits_pos r : 2 <= r -> 0 < dec_range_bits r <= 8.
Proof. intros H. unfold dec_range_bits. repeat match goal with |- context [if ?c then _ else _] => destruct c eqn:? end; lia. Qed.
Lemma returns_usize E z : 0 <= z < 2 ^ 64 -> returns (lift (arith_usize E z)) (fun v => v = z).
Proof. intros H. apply returns_lift. intros v E1. eapply arith_usize_inv; eauto. Qed.
Lemma returns_i128' E z : - 2 ^ 127 <= z < 2 ^ 127 -> returns (lift (arith_i128 E z)) (fun v => v = z).
Proof. intros H. apply returns_lift. intros v E1. eapply arith_i128_inv; eauto. Qed.
Lemma returns_i128_1 E l u : u - l < 2 ^ 127 -> l < u -> returns (lift (arith_i128 E (u - l))) (fun v => v = u - l).
Proof. intros. apply returns_i128'. lia. Qed.
Lemma local_con_body f E r : local (if r <? 256 then decode_bits_as_integer E (dec_range_bits r) false
         else if r =? 256 then decode_align ;; decode_bits_as_integer E 8 false
         else if r <=? 65536 then decode_align ;; decode_bits_as_integer E 16 false
         else
           let needed := bytes_needed_for_range r in
           length <-
             (r0 <- lift (arith_usize E (needed - 1)) ;;
              r <- lift (arith_usize E (r0 + 1)) ;;
              if r <=? 65536 then
                l <- decode_constrained_fuel f E 1 needed ;; ret (wrap_u 64 l)
              else panic) ;;
           decode_align ;;
           n <- lift (arith_usize E (length * 8)) ;;
           decode_bits_as_integer E n false).
Proof. loc; apply local_con_fuel. Qed.
Lemma eats_con_small f E l u : l < u -> u - l + 1 <= 65536 -> eats (decode_constrained_fuel (S f) E l u).
Proof.
  intros H1 H2. cbn [decode_constrained_fuel].
  eapply eats_r; [apply local_lift|apply returns_i128'; lia|cbv beta; intros d ->].
  eapply eats_r; [apply local_lift|apply returns_i128'; lia|cbv beta; intros r ->].
  replace (u - l + 1 <=? 0) with false by lia.
  apply eats_l; [apply local_con_body| |intros; apply local_lift].
  destruct (u - l + 1 <? 256) eqn:C1; [apply eats_uint; pose proof (dec_range_bits_pos (u - l + 1)); lia|].
  destruct (u - l + 1 =? 256) eqn:C2.
  { eapply eats_r; [apply local_align|apply returns_any|intros _ _; apply eats_uint; lia]. }
  replace (u - l + 1 <=? 65536) with true by lia.
  eapply eats_r; [apply local_align|apply returns_any|intros _ _; apply eats_uint; lia].
Qed.
Lemma needed_ge r : 65536 < r < 2 ^ 127 -> 3 <= bytes_needed_for_range r <= 16.
Proof.
  intros H. pose proof (bytes_needed_bound r ltac:(lia)) as B. split; [|lia].
  rewrite bytes_needed_octets by lia. unfold octets.
  assert (16 < bitlen r).
  { destruct (Z_lt_ge_dec 16 (bitlen r)); [assumption|]. pose proof (bitlen_le_lt r 16 ltac:(lia) ltac:(lia)). lia. }
  lia.
Qed.
Lemma eats_con E l u : eats_range l u = true -> eats (decode_constrained_whole_number E l u).
Proof.
  unfold eats_range. intros H. unfold decode_constrained_whole_number.
  destruct (Z_le_dec (u - l + 1) 65536) as [C|C]; [apply eats_con_small; lia|].
  remember 1%nat as f eqn:Ef. cbn [decode_constrained_fuel].
  eapply eats_r; [apply local_lift|apply returns_i128'; lia|cbv beta; intros d ->].
  eapply eats_r; [apply local_lift|apply returns_i128'; lia|cbv beta; intros r ->].
  replace (u - l + 1 <=? 0) with false by lia.
  apply eats_l; [apply local_con_body| |intros; apply local_lift].
  replace (u - l + 1 <? 256) with false by lia. replace (u - l + 1 =? 256) with false by lia.
  replace (u - l + 1 <=? 65536) with false by lia. cbv zeta.
  pose proof (needed_ge (u - l + 1) ltac:(lia)) as B. remember (bytes_needed_for_range (u - l + 1)) as needed.
  apply eats_l; [loc; apply local_con_fuel| |intros; loc].
  eapply eats_r; [apply local_lift|apply returns_usize; lia|cbv beta; intros r0 ->].
  eapply eats_r; [apply local_lift|apply returns_usize; lia|cbv beta; intros r1 ->].
  replace (needed - 1 + 1 <=? 65536) with true by lia. subst f.
  apply eats_l; [apply local_con_fuel|apply eats_con_small; lia|intros; apply local_ret].
Qed.
Lemma eats_indef E : eats (decode_indefinite_length_determinent E).
Proof.
  unfold decode_indefinite_length_determinent. eapply eats_r; [apply local_align|apply returns_any|intros _ _].
  apply eats_l; [apply local_bool|apply eats_bool|intros; loc].
Qed.
Lemma eats_len E lb ub ns : eats_call (PLength lb ub ns) = true -> eats (decode_length_determinent E lb ub ns).
Proof.
  cbn [eats_call]. intros H. unfold decode_length_determinent. destruct ns.
  { unfold decode_normally_small_length_determinent. apply eats_l; [apply local_bool|apply eats_bool|intros; loc; apply local_indef]. }
  cbn [orb] in H. unfold eats_size in H.
  apply eats_r with (P := fun lo => lo = opt0 lb /\ 0 <= lo); [destruct lb; loc| |intros lo [-> Hlo]].
  { destruct lb; [eapply returns_weaken; [apply returns_to_usize|cbv beta; intros v [-> ?]; cbn; lia]|apply returns_ret; cbn; lia]. }
  destruct ub as [u|]; [|apply eats_indef].
  eapply eats_r; [apply local_to_usize|apply returns_to_usize|intros hi [-> Hhi]].
  destruct (u <? 65536) eqn:C; [|apply eats_indef]. replace (opt0 lb =? u) with false by lia.
  unfold decode_constrained_length_determinent.
  eapply eats_r; [apply local_lift|apply returns_usize; lia|cbv beta; intros r0 ->].
  eapply eats_r; [apply local_lift|apply returns_usize; lia|cbv beta; intros r1 ->].
  replace (u - opt0 lb + 1 <=? 65536) with true by lia.
  apply eats_l; [apply local_con|apply eats_con; unfold eats_range; lia|intros; apply local_ret].
Qed.
Lemma eats_ext_bit {A} E ext (f : bool -> M A) : (forall x, local (f x)) -> (ext = false -> eats (f false)) ->
  eats (bind (decode_ext_bit E ext) f).
Proof.
  intros L H. destruct ext.
  - apply eats_l; [apply local_ext_bit|apply eats_bool|exact L].
  - exact (H eq_refl).
Qed.
Lemma eats_int E lb ub ext : eats_call (PInt lb ub ext) = true -> eats (decode_integer E lb ub ext).
Proof.
  cbn [eats_call]. intros H. unfold decode_integer. apply eats_ext_bit.
  { intros x. loc; first [apply local_unc|apply local_con|apply local_semi]. }
  intros ->. cbn [orb] in H. apply eats_l; [loc; first [apply local_unc|apply local_con|apply local_semi]| |intros; apply local_ret].
  destruct lb as [l|]; [destruct ub as [u|]|].
  - apply eats_con, H.
  - apply eats_l; [apply local_len|apply eats_len; reflexivity|intros; loc].
  - apply eats_l; [apply local_len|apply eats_len; reflexivity|intros; loc].
Qed.
Lemma eats_enum E lb ub ext : eats_call (PEnum lb ub ext) = true -> eats (decode_enumerated E lb ub ext).
Proof.
  cbn [eats_call]. intros H. unfold decode_enumerated. apply eats_ext_bit.
  { intros x. loc; [apply local_integer|apply local_nsnn]. }
  intros ->. cbn [negb]. apply eats_l; [|apply eats_l|intros; loc].
  - loc. apply local_integer.
  - apply local_integer.
  - apply eats_int, H.
  - intros; loc.
Qed.
Lemma eats_choice E lb ub ext : eats_call (PChoice lb ub ext) = true -> eats (decode_choice_idx E lb ub ext).
Proof.
  cbn [eats_call]. intros H. unfold decode_choice_idx. destruct ext.
  - apply eats_l; [apply local_bool|apply eats_bool|intros; loc; [apply local_integer|apply local_nsnn]].
  - apply eats_l; [apply local_integer|apply eats_int, H|intros; loc].
Qed.
Lemma eats_seqhdr E ext n : eats_call (PSeqHeader ext n) = true -> eats (decode_sequence_header E ext n).
Proof.
  cbn [eats_call]. intros H. unfold decode_sequence_header. apply eats_ext_bit; [intros; loc|].
  intros ->. cbn [orb] in H. rewrite H. apply eats_l; [apply local_bitvec|apply eats_bitvec; lia|intros; loc].
Qed.
Lemma eats_fuel {A} (f : nat -> M A) : (forall n, eats (f (S n))) -> eats (bind loop_fuel f).
Proof. intros H p b k v s' F E. unfold bind, loop_fuel in E. eapply H; eauto. Qed.
Lemma returns_fixed E n : returns (decode_length_determinent E (Some n) (Some n) false) (fun v => n < 65536 -> v = n).
Proof.
  unfold decode_length_determinent.
  eapply returns_bind; [apply returns_to_usize|intros lo [-> ?]].
  eapply returns_bind; [apply returns_to_usize|intros hi [-> ?]].
  destruct (n <? 65536) eqn:C; [|eapply returns_weaken; [apply returns_any|intros; lia]].
  rewrite Z.eqb_refl. now apply returns_ret.
Qed.
Lemma eats_frag {A} E lb ub (f : Z -> M A) :
  eats_size lb ub || match fixed lb ub with Some n => 0 <? n | None => false end = true ->
  (forall n, local (f n)) -> (forall n, 0 < n < 65536 -> eats (f n)) -> eats (bind (decode_frag_length E false lb ub) f).
Proof.
  intros H L HF. unfold decode_frag_length. destruct (eats_size lb ub) eqn:C.
  - apply eats_l; [apply local_len|apply eats_len; exact C|exact L].
  - cbn [orb] in H. destruct (fixed lb ub) as [n|] eqn:FX; [|discriminate]. apply fixed_inv in FX as (-> & -> & ?).
    eapply eats_r; [apply local_len|apply returns_fixed|cbv beta; intros v Hv]. rewrite Hv by lia. apply HF. lia.
Qed.

Lemma local_bits_cont E i lb ub : local (fuel <- loop_fuel ;; bitstring_loop fuel E i lb ub []).
Proof.
  apply (loop_local (frag_step E (get_bitvec E) 16 i lb ub) (fun n => bitstring_loop n E i lb ub)).
  - intros; apply bitstring_loop_S.
  - intros; apply frag_step_local, local_bitvec.
  - intros; apply frag_step_nodiv, nd_bitvec.
  - intros a p b k a' s' F. apply frag_step_progress; auto using local_bitvec, nd_bitvec.
    intros n p0 b0 k0 v s0 F0 Hn H0. apply bitvec_consumes in H0; auto; lia.
Qed.
Lemma local_octets_cont E i lb ub : local (fuel <- loop_fuel ;; octetstring_loop fuel E i lb ub []).
Proof.
  apply (loop_local (frag_step E (get_bytes E) 2 i lb ub) (fun n => octetstring_loop n E i lb ub)).
  - intros; apply octetstring_loop_S.
  - intros; apply frag_step_local, local_bytes.
  - intros; apply frag_step_nodiv, nd_bytes.
  - intros a p b k a' s' F. apply frag_step_progress; auto using local_bytes, nd_bytes.
    intros n p0 b0 k0 v s0 F0 Hn H0. apply bytes_consumes in H0; auto; lia.
Qed.
Lemma local_bits_loop f E i lb ub : forall acc, local (bitstring_loop f E i lb ub acc).
Proof.
  induction f as [|f IH]; intros acc; cbn [bitstring_loop]; [apply local_diverge|].
  apply local_bind; [apply local_frag|intros n]. apply local_bind; [loc|intros a]. destruct (16384 <=? n); [apply IH|apply local_ret].
Qed.
Lemma local_octets_loop f E i lb ub : forall acc, local (octetstring_loop f E i lb ub acc).
Proof.
  induction f as [|f IH]; intros acc; cbn [octetstring_loop]; [apply local_diverge|].
  apply local_bind; [apply local_frag|intros n]. apply local_bind; [loc|intros a]. destruct (16384 <=? n); [apply IH|apply local_ret].
Qed.
Lemma eats_bits E lb ub ext : eats_call (PBits lb ub ext) = true -> eats (decode_bitstring E lb ub ext).
Proof.
  cbn [eats_call]. intros H. unfold decode_bitstring. apply eats_ext_bit; [intros; apply local_bits_cont|].
  intros ->. cbn [orb] in H. apply eats_fuel. intros f. cbn [bitstring_loop].
  assert (forall n a, local (if 16384 <=? n then bitstring_loop f E false lb ub a else ret a)) as LL.
  { intros n a. destruct (16384 <=? n); [apply local_bits_loop|apply local_ret]. }
  apply eats_frag; [exact H| |].
  - intros n. apply local_bind; [loc|intros; apply LL].
  - intros n Hn. replace (0 <? n) with true by lia. apply eats_l; [loc| |intros; apply LL].
    eapply eats_r; [loc|apply returns_any|intros _ _]. apply eats_l; [apply local_bitvec|apply eats_bitvec; lia|intros; loc].
Qed.
Lemma eats_octets E lb ub ext : eats_call (POctets lb ub ext) = true -> eats (decode_octetstring E lb ub ext).
Proof.
  cbn [eats_call]. intros H. unfold decode_octetstring. apply eats_ext_bit; [intros; apply local_octets_cont|].
  intros ->. cbn [orb] in H. apply eats_fuel. intros f. cbn [octetstring_loop].
  assert (forall n a, local (if 16384 <=? n then octetstring_loop f E false lb ub a else ret a)) as LL.
  { intros n a. destruct (16384 <=? n); [apply local_octets_loop|apply local_ret]. }
  apply eats_frag; [exact H| |].
  - intros n. apply local_bind; [loc|intros; apply LL].
  - intros n Hn. replace (0 <? n) with true by lia. apply eats_l; [loc| |intros; apply LL].
    eapply eats_r; [loc|apply returns_any|intros _ _]. apply eats_l; [apply local_bytes|apply eats_bytes; lia|intros; loc].
Qed.
Lemma eats_off {A} (f : Z -> M A) : (forall h, eats (f h)) -> eats (bind get_off f).
Proof. intros H p b k v s' F E. unfold bind, get_off in E. eapply H; eauto. Qed.
Lemma local_string_cont E i lb ub : local (
  length <- decode_frag_length E i lb ub ;;
  n <- lift (arith_usize E (length * 8)) ;;
  (if 16 <? n then decode_align else ret tt) ;;
  head <- get_off ;;
  bv <- get_bitvec E n ;;
  let bytes := map (load_native E (head mod 8)) (chunks8 bv) in
  if utf8_valid bytes then ret bytes else err).
Proof.
  apply local_bind; [apply local_frag|intros l].
  apply local_bind; [apply local_lift|intros n].
  apply local_bind; [loc|intros _].
  apply (local_get_off (fun h => bv <- get_bitvec E n ;;
    let bytes := map (load_native E h) (chunks8 bv) in
    if utf8_valid bytes then ret bytes else err)).
  intros h. loc.
Qed.
Lemma eats_string E lb ub ext : eats_call (PString lb ub ext) = true -> eats (decode_string E lb ub ext).
Proof.
  cbn [eats_call]. intros H. unfold decode_string. apply eats_ext_bit; [intros; apply local_string_cont|].
  intros ->. cbn [orb] in H. apply eats_frag; [exact H| |].
  - intros n. apply local_bind; [apply local_lift|intros m].
    apply local_bind; [loc|intros _].
    apply (local_get_off (fun h => bv <- get_bitvec E m ;;
      let bytes := map (load_native E h) (chunks8 bv) in
      if utf8_valid bytes then ret bytes else err)).
    intros h. loc.
  - intros n Hn. eapply eats_r; [apply local_lift|apply returns_usize; lia|cbv beta; intros m ->].
    eapply eats_r; [loc|apply returns_any|intros _ _]. apply eats_off. intros h.
    apply eats_l; [apply local_bitvec|apply eats_bitvec; lia|intros; loc].
Qed.

(* ---- a derived decoder that succeeds has read something ---- *)
Lemma eats_dec E :
  (forall t, eats_ty t = true -> eats (dec E t)) /\
  (forall fs bm, eats_fields fs = true -> eats (dec_fields E bm fs)) /\
  (forall al idx pos, eats_alts al = true -> eats (dec_alts E al idx pos)).
Proof.
  destruct (local_dec E) as (LT & LF & LA).
  apply ty_mutind; intros; cbn [dec dec_fields dec_alts]; cbn [eats_ty eats_fields eats_alts] in *; try discriminate.
  - apply eats_l; [apply local_bool|apply eats_bool|intros; loc].
  - apply eats_l; [apply local_integer|now apply eats_int|intros; loc].
  - apply eats_l; [apply local_enum|now apply eats_enum|intros; loc].
  - apply eats_l; [apply local_bitstring|now apply eats_bits|intros; loc].
  - apply eats_l; [apply local_octetstring|now apply eats_octets|intros; loc].
  - apply eats_l; [apply local_string|now apply eats_string|intros; loc].
  - destruct (eats_call (PSeqHeader ext optional_fields)) eqn:C.
    + apply eats_l; [apply local_seqhdr|now apply eats_seqhdr|intros; apply local_bind; [apply LF|intros; loc]].
    + eapply eats_r; [apply local_seqhdr|apply returns_any|intros h _].
      apply eats_l; [apply LF|apply H; exact H0|intros; loc].
  - destruct (eats_call (PLength lb ub ext)) eqn:C.
    + apply eats_l; [apply local_len|now apply eats_len|intros; apply local_seqof; apply LT].
    + eapply eats_r; [apply local_len|apply returns_any|intros n _]. apply eats_fuel. intros f.
      cbn [Nat.add seqof_loop].
      apply eats_l; [|apply eats_l|intros; loc].
      * apply local_bind; [apply LT|intros]. cbv zeta. destruct (_ =? _); [loc|apply local_loop, LT].
      * apply LT.
      * apply H. exact H0.
      * intros. cbv zeta. destruct (_ =? _); [loc|apply local_loop, LT].
  - destruct (eats_call (PChoice lb ub ext)) eqn:C.
    + apply eats_l; [apply local_choice_idx|now apply eats_choice|].
      intros q. destruct (negb (snd q)); [apply LA|apply local_err].
    + eapply eats_r; [apply local_choice_idx|apply returns_any|intros q _].
      destruct (negb (snd q)); [apply H; exact H0|apply eats_err].
  - apply eats_l; [apply local_len|apply eats_len; reflexivity|intros]. apply local_key. intros [key|]; [apply LA|apply local_err].
  - destruct (nth_error _ _) as [pr|]; [|apply eats_panic].
    eapply eats_r; [|apply returns_any|intros o _].
    + destruct pr; [apply local_bind; [apply LT|intros; loc]|loc].
    + apply eats_l; [apply LF|now apply H0|intros; loc].
  - assert (forall v, local (if key_field then set_key_val v else ret tt)) as LK.
    { intros v. destruct key_field; [|loc]. destruct v; cbn [set_key_val]; try apply local_ret. apply local_set_key. }
    destruct (eats_ty t) eqn:C.
    + apply eats_l; [apply LT|now apply H|intros]. apply local_bind; [apply LK|intros; apply local_bind; [apply LF|intros; loc]].
    + eapply eats_r; [apply LT|apply returns_any|intros v _]. eapply eats_r; [apply LK|apply returns_any|intros u _].
      apply eats_l; [apply LF|now apply H0|intros; loc].
  - apply andb_prop in H1 as [H1 H2]. destruct (idx =? key); [|now apply H0].
    apply eats_l; [apply LT|now apply H|intros; loc].
Qed.

(* ---- decoding terminates ---- *)
Lemma nodiv_ret' {A} (v : A) : nodiv (ret v). Proof. apply nodiv_ret. Qed.
Lemma nodiv_loop m len : local m -> nodiv m -> eats m -> forall f count acc p b k, fits (p ++ b) -> (length b < f)%nat ->
  fst (seqof_loop f m count len acc (mkD (p ++ b) (zlen p) k)) <> Diverge.
Proof.
  intros L N EA. induction f as [|f IH]; intros count acc p b k F Hf; [lia|]. cbn [seqof_loop]. unfold bind.
  pose proof (N p b k F) as N1. destruct (m _) as [[v| | |] s1] eqn:E1; cbn [fst] in *; try congruence.
  pose proof (EA p b k v s1 F E1) as H1. destruct (L p b k _ _ F E1) as (e & t & k1 & -> & -> & _). cbn [off] in H1.
  cbv zeta. destruct (count + 1 =? len); [cbn; congruence|].
  rewrite app_assoc, <- zlen_app. apply IH; [now rewrite <- app_assoc|]. rewrite app_length in Hf. unfold zlen in H1. lia.
Qed.
Lemma nodiv_dec E :
  (forall t, bounded_loops t = true -> nodiv (dec E t)) /\
  (forall fs bm, bounded_fields fs = true -> nodiv (dec_fields E bm fs)) /\
  (forall al idx pos, bounded_alts al = true -> nodiv (dec_alts E al idx pos)).
Proof.
  destruct (local_dec E) as (LT & LF & LA). destruct (eats_dec E) as (ET & _ & _).
  apply ty_mutind; intros; cbn [dec dec_fields dec_alts]; cbn [bounded_loops bounded_fields bounded_alts] in *.
  - apply nodiv_bind; [apply local_bool|apply nodiv_nd, nd_bool|intros; apply nodiv_ret].
  - apply nodiv_ret.
  - apply nodiv_err.
  - apply nodiv_bind; [apply local_integer|apply nodiv_nd, nd_integer|intros; apply nodiv_ret].
  - apply nodiv_bind; [apply local_enum|apply nodiv_nd, nd_enum|intros; apply nodiv_ret].
  - apply nodiv_bind; [apply local_bitstring|apply nodiv_bitstring|intros; apply nodiv_ret].
  - apply nodiv_bind; [apply local_octetstring|apply nodiv_octetstring|intros; apply nodiv_ret].
  - apply nodiv_bind; [apply local_string|apply nodiv_nd, nd_string|intros; apply nodiv_ret].
  - apply nodiv_bind; [apply local_seqhdr|apply nodiv_nd, nd_seqhdr|intros].
    apply nodiv_bind; [apply LF|now apply H|intros; apply nodiv_ret].
  - apply andb_prop in H0 as [H0 H1].
    apply nodiv_bind; [apply local_len|apply nodiv_nd, nd_len|intros n].
    intros p b k F. unfold bind at 1, loop_fuel at 1. cbn [bits].
    unfold bind. match goal with |- context [seqof_loop ?f ?m 0 n [] ?s] => pose proof (nodiv_loop m n (LT t) (H H1) (ET t H0) f 0 [] p b k F) as HL; destruct (seqof_loop f m 0 n [] s) as [[| | |] s1] end; unfold ret; cbn [fst] in *; try congruence.
    exfalso. apply HL; [rewrite app_length; lia|reflexivity].
  - apply nodiv_bind; [apply local_choice_idx|apply nodiv_nd, nd_choice_idx|intros q].
    destruct (negb (snd q)); [now apply H|apply nodiv_err].
  - apply nodiv_bind; [apply local_len|apply nodiv_nd, nd_len|intros n].
    intros p b k F. unfold bind, get_key. cbn [key]. destruct k as [key|]; [now apply H|cbn; congruence].
  - apply nodiv_ret.
  - apply andb_prop in H1 as [H1 H2]. destruct (nth_error _ _) as [pr|]; [|apply nodiv_panic].
    apply nodiv_bind.
    + destruct pr; [apply local_bind; [apply LT|intros; loc]|loc].
    + destruct pr; [apply nodiv_bind; [apply LT|now apply H|intros; apply nodiv_ret]|apply nodiv_ret].
    + intros. apply nodiv_bind; [apply LF|now apply H0|intros; apply nodiv_ret].
  - apply andb_prop in H1 as [H1 H2].
    apply nodiv_bind; [apply LT|now apply H|intros v].
    apply nodiv_bind.
    + destruct key_field; [|loc]. destruct v; cbn [set_key_val]; try apply local_ret. apply local_set_key.
    + destruct key_field; [|apply nodiv_ret]. destruct v; cbn [set_key_val]; intros ? ? ? ?; cbn; congruence.
    + intros. apply nodiv_bind; [apply LF|now apply H0|intros; apply nodiv_ret].
  - apply nodiv_err.
  - apply andb_prop in H1 as [H1 H2]. destruct (idx =? key); [|now apply H0].
    apply nodiv_bind; [apply LT|now apply H|intros; apply nodiv_ret].
Qed.

(* ---- decoding does not panic ---- *)
Lemma safe_of_nodiv {A} (m : M A) : nodiv m -> (forall p b k, fits (p ++ b) -> zlen (p ++ b) mod 8 = 0 ->
  fst (m (mkD (p ++ b) (zlen p) k)) <> Panic) -> safe any m (fun _ => True).
Proof.
  intros N H p b k F W _. specialize (N p b k F). specialize (H p b k F W). destruct (fst _); cbn; auto; congruence.
Qed.
Lemma safe_call {A} E c (m : M A) (g : A -> pval) : calls_sane E c -> (forall s, decode_prim E c s = (x <- m ;; ret (g x)) s) ->
  safe any m (fun _ => True).
Proof.
  intros [HC HR] HE p b k F W _.
  assert (byte_buffer (mkD (p ++ b) (zlen p) k)) as HB.
  { unfold byte_buffer. cbn [bits off]. pose proof (zlen_app p b). pose proof (zlen_nonneg p). pose proof (zlen_nonneg b).
    repeat split; auto; lia. }
  pose proof (call_safe E c _ HB HC ltac:(congruence)) as S. rewrite HE in S. unfold bind in S.
  destruct (m _) as [[v| | |] s1]; destruct S as [S1 S2]; cbn in *; auto; congruence.
Qed.
Lemma safe_loop m len : local m -> eats m -> safe any m (fun _ => True) -> forall f count acc p b k, fits (p ++ b) ->
  zlen (p ++ b) mod 8 = 0 -> (length b < f)%nat ->
  outcome (fst (seqof_loop f m count len acc (mkD (p ++ b) (zlen p) k))) (fun _ => True).
Proof.
  intros L EA S. induction f as [|f IH]; intros count acc p b k F W Hf; [lia|]. cbn [seqof_loop]. unfold bind.
  pose proof (S p b k F W I) as N1. destruct (m _) as [[v| | |] s1] eqn:E1; cbn [fst outcome] in *; auto.
  pose proof (EA p b k v s1 F E1) as H1. destruct (L p b k _ _ F E1) as (e & t & k1 & -> & -> & _). cbn [off] in H1.
  cbv zeta. destruct (count + 1 =? len); [exact I|].
  rewrite app_assoc, <- zlen_app. apply IH; [now rewrite <- app_assoc|now rewrite <- app_assoc|]. rewrite app_length in Hf. unfold zlen in H1. lia.
Qed.
Lemma nth_error_some {A} (l : list A) i : 0 <= i < zlen l -> exists x, nth_error l (Z.to_nat i) = Some x.
Proof.
  intros H. destruct (nth_error l (Z.to_nat i)) eqn:E; [eauto|]. apply nth_error_None in E. unfold zlen in H. lia.
Qed.
Lemma safe_dec E :
  (forall t, ty_sane E t -> bounded_loops t = true -> safe any (dec E t) (fun _ => True)) /\
  (forall fs bm, fields_sane E fs -> bounded_fields fs = true -> Forall (fun i => 0 <= i < zlen bm) (optional_idxs fs) ->
     safe any (dec_fields E bm fs) (fun _ => True)) /\
  (forall al idx pos, alts_sane E al -> bounded_alts al = true -> safe any (dec_alts E al idx pos) (fun _ => True)).
Proof.
  destruct (local_dec E) as (LT & LF & LA). destruct (eats_dec E) as (ET & _ & _).
  apply ty_mutind; intros; cbn [dec dec_fields dec_alts]; cbn [bounded_loops bounded_fields bounded_alts ty_sane fields_sane alts_sane optional_idxs] in *.
  - eapply safe_bind; [apply any_down|apply local_bool|apply safe_bool|intros; now apply safe_ret].
  - now apply safe_ret.
  - apply safe_err.
  - eapply safe_bind; [apply any_down|apply local_integer|eapply safe_call; [exact H|reflexivity]|intros; now apply safe_ret].
  - eapply safe_bind; [apply any_down|apply local_enum|eapply safe_call; [exact H|reflexivity]|intros; now apply safe_ret].
  - eapply safe_bind; [apply any_down|apply local_bitstring|eapply safe_call; [exact H|reflexivity]|intros; now apply safe_ret].
  - eapply safe_bind; [apply any_down|apply local_octetstring|eapply safe_call; [exact H|reflexivity]|intros; now apply safe_ret].
  - eapply safe_bind; [apply any_down|apply local_string|eapply safe_call; [exact H|reflexivity]|intros; now apply safe_ret].
  - destruct H0 as (Hn & HI & HF).
    eapply safe_bind; [apply any_down|apply local_seqhdr|apply safe_seqhdr_len; [apply any_down|exact Hn]|].
    intros h Hh. eapply safe_bind; [apply any_down|apply LF|apply H; auto|intros; now apply safe_ret].
    cbv beta in Hh. now rewrite Hh.
  - destruct H0 as [HC HT]. apply andb_prop in H1 as [HE HB].
    eapply safe_bind; [apply any_down|apply local_len|eapply safe_call; [exact HC|reflexivity]|intros n _].
    intros p b k F W _. unfold bind at 1, loop_fuel at 1. cbn [bits].
    unfold bind. match goal with |- context [seqof_loop ?f ?m 0 n [] ?s] => pose proof (safe_loop m n (LT t) (ET t HE) (H HT HB) f 0 [] p b k F W) as HL; destruct (seqof_loop f m 0 n [] s) as [[| | |] s1] end; unfold ret; cbn [fst outcome] in *; auto;
    apply HL; rewrite app_length; lia.
  - destruct H0 as [HC HT].
    eapply safe_bind; [apply any_down|apply local_choice_idx|eapply safe_call; [exact HC|reflexivity]|intros q _].
    destruct (negb (snd q)); [now apply H|apply safe_err].
  - eapply safe_bind; [apply any_down|apply local_len|eapply (safe_call E (PLength None None false)); [|reflexivity]|intros n _].
    + split; [|reflexivity]. cbn. right. split; exact I.
    + intros p b k F W X. unfold bind, get_key. cbn [key]. destruct k as [key|]; [now apply H|exact I].
  - now apply safe_ret.
  - destruct H1 as [H1 H1']. apply andb_prop in H2 as [H2 H2']. inversion H3 as [|? ? H4 H5]; subst.
    destruct (nth_error_some bm optional_idx H4) as [pr ->].
    eapply safe_bind with (P := fun _ => True); [apply any_down| | |intros o _].
    + destruct pr; [apply local_bind; [apply LT|intros; loc]|loc].
    + destruct pr; [eapply safe_bind; [apply any_down|apply LT|now apply H|intros; now apply safe_ret]|now apply safe_ret].
    + eapply safe_bind; [apply any_down|apply LF|now apply H0|intros; now apply safe_ret].
  - destruct H1 as [H1 H1']. apply andb_prop in H2 as [H2 H2'].
    eapply safe_bind; [apply any_down|apply LT|now apply H|intros v _].
    eapply safe_bind with (P := fun _ => True); [apply any_down| | |intros o _].
    + destruct key_field; [|loc]. destruct v; cbn [set_key_val]; try apply local_ret. apply local_set_key.
    + destruct key_field; [|now apply safe_ret]. destruct v; cbn [set_key_val]; intros ? ? ? ? ? ?; exact I.
    + eapply safe_bind; [apply any_down|apply LF|now apply H0|intros; now apply safe_ret].
  - apply safe_err.
  - destruct H1 as [H1 H1']. apply andb_prop in H2 as [H2 H2']. destruct (idx =? key); [|now apply H0].
    eapply safe_bind; [apply any_down|apply LT|now apply H|intros; now apply safe_ret].
Qed.

(* ---- encoding does not panic ---- *)
Lemma calm_ignore m : calm m -> calm (ignore_err m).
Proof. intros H s. specialize (H s). unfold ignore_err. destruct (m s) as [[| | |] s1]; cbn [fst] in *; auto; split; congruence. Qed.
Lemma calm_each {A} (f : A -> M unit) l : Forall (fun x => calm (f x)) l -> calm (each f l).
Proof. induction 1; cbn [each]; [apply calm_ret|apply calm_bind; auto]. Qed.
Lemma calm_call E c v : args_sane c v -> calm (encode_prim E c v).
Proof.
  intros H s. pose proof (call_calm E c v s H) as C. unfold returns_normally in C. exact C.
Qed.
Lemma calm_frame E r d : r <> Panic -> r <> Diverge -> (overflow_checks E = false \/ 0 < zlen (bits d) < 2 ^ 61) -> calm (enc_open_frame E (r, d)).
Proof.
  intros H1 H2 H. destruct r as [u| | |]; try congruence; cbn [enc_open_frame]; [|apply calm_err].
  assert (exists n, length_in_bytes E d = Ok n) as [n ->].
  { unfold length_in_bytes, arith_usize. destruct (in_usize _) eqn:C; [eauto|]. destruct (overflow_checks E) eqn:O; [|eauto].
    destruct H as [H|H]; [congruence|]. exfalso. unfold in_usize in C. lia. }
  apply calm_bind; [split; cbn; congruence|intros m].
  apply calm_bind; [apply calm_len'; split; exact I|intros _].
  unfold append_aligned. apply calm_bind; [apply calm_align|intros _; apply calm_append].
Qed.
Lemma presence_calm fs : forall vs bm, Forall (fun i => 0 <= i < zlen bm) (optional_idxs fs) -> presence fs vs bm <> None.
Proof.
  induction fs as [|i t fs IH|kf t fs IH]; intros [|[v|] vs] bm H; cbn [presence optional_idxs] in *; try discriminate; try now apply IH.
  - inversion H; subst. destruct (set_true_spec bm i) as (b1 & -> & L & _); [assumption|]. apply IH. now rewrite L.
  - inversion H; subst. now apply IH.
Qed.
Lemma calm_enc E :
  (forall t v, val_sane E t v -> calm (enc E t v)) /\
  (forall fs vs, vals_sane E fs vs -> calm (enc_fields E fs vs)) /\
  (forall al, (forall lb ub ext n v, args_sane (PChoice lb ub ext) (VNum 0 false) -> alt_sane E al n v -> calm (enc_choice E lb ub ext al n v)) /\
     (forall n v, alt_sane E al n v -> calm (enc_variant E al n v))).
Proof.
  apply ty_mutind; intros.
  1-12: destruct v; cbn [enc]; try apply calm_err; cbn [val_sane] in *.
  - apply calm_append.
  - apply calm_ret.
  - exact (calm_call E (PInt lb ub ext) (VNum (as_i128 z) false) H).
  - exact (calm_call E (PEnum lb ub ext) (VNum (as_i128 z) false) H).
  - exact (calm_call E (PBits lb ub ext) (Api.VBits l false) H).
  - exact (calm_call E (POctets lb ub ext) (Api.VBytes l false) H).
  - exact (calm_call E (PString lb ub ext) (Api.VBytes l false) H).
  - destruct H0 as [H0 H1]. destruct (presence _ _ _) eqn:EP.
    + apply calm_bind; [apply calm_seqhdr|intros _; now apply H].
    + exfalso. eapply presence_calm; [|exact EP]. eapply Forall_impl; [|exact H0]. cbv beta. intros a Ha.
      rewrite zlen_repeat. lia.
  - destruct H0 as [H0 H1]. apply calm_bind; [apply calm_ignore; exact (calm_call E (PLength lb ub ext) (VNum (zlen l) false) H0)|intros _].
    apply calm_each. eapply Forall_impl; [|exact H1]. auto.
  - destruct H0 as [H0 H1]. now apply H.
  - destruct H0 as [H0 H1]. destruct H as [_ H]. specialize (H n v H0 new_data).
    destruct (enc_variant E alts n v new_data) as [r d]. cbn [fst snd] in *. apply calm_frame; tauto.
  - destruct vs; cbn [enc_fields]; [apply calm_ret|apply calm_err].
  - destruct vs as [|[v|] vs]; cbn [enc_fields]; [apply calm_err| |apply H0, H1].
    destruct H1 as [H1 H2]. apply calm_bind; [apply H, H1|intros _; apply H0, H2].
  - destruct vs as [|[v|] vs]; cbn [enc_fields]; [apply calm_err| |apply calm_err].
    destruct H1 as [H1 H2]. apply calm_bind; [apply H, H1|intros _; apply H0, H2].
  - split; intros; cbn; apply calm_err.
  - destruct H0 as [H0 H1]. split.
    + intros lb ub ext [|n] v HA HV; cbn [enc_choice alt_sane] in *; [|now apply H0].
      apply calm_bind; [|intros _; now apply H]. apply calm_choice. cbn in HA. exact HA.
    + intros [|n] v HV; cbn [enc_variant alt_sane] in *; auto.
Qed.
