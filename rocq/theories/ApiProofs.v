(* Lemmas about whole calls and histories of calls. *)
From Coq Require Import ZArith List Bool Lia.
From Coq Require Import ZifyBool ZifyNat ZifyN.
Require Import Verif.Base Verif.CodecModel Verif.BitLemmas Verif.Spec Verif.Combinators.
Require Import Verif.LengthProofs Verif.IntegerProofs Verif.StringProofs Verif.Local Verif.Ranges Verif.Loops Verif.Frame Verif.Safety Verif.Api.
Import ListNotations.
Open Scope Z_scope.
Ltac Zify.zify_post_hook ::= Z.div_mod_to_equations.

Lemma local_prim E c : local (decode_prim E c).
Proof.
  destruct c; cbn [decode_prim]; (apply local_bind; [|intros; apply local_ret]);
    [apply local_bool | apply local_integer | apply local_enum | apply local_choice_idx | apply local_seqhdr
    | apply local_bitstring | apply local_octetstring | apply local_string | apply local_len].
Qed.
Lemma nodiv_prim E c : nodiv (decode_prim E c).
Proof.
  destruct c; cbn [decode_prim];
    (apply nodiv_bind; [ | |intros; apply nodiv_ret]);
    first [apply local_bool | apply local_integer | apply local_enum | apply local_choice_idx | apply local_seqhdr
    | apply local_bitstring | apply local_octetstring | apply local_string | apply local_len
    | apply nodiv_bitstring | apply nodiv_octetstring
    | apply nodiv_nd; first [apply nd_bool | apply nd_integer | apply nd_enum | apply nd_choice_idx | apply nd_seqhdr
      | apply nd_string | apply nd_len]].
Qed.
Lemma emits_prim E c v : emits (encode_prim E c v).
Proof.
  destruct c, v; cbn [encode_prim]; try apply emits_err;
    first [apply emits_bool | apply emits_integer | apply emits_enum | apply emits_choice | apply emits_seqhdr
    | apply emits_bitstring | apply emits_octetstring | apply emits_string
    | destruct extended; [apply emits_err|apply emits_len]].
Qed.

Lemma local_all E l : local (decode_all E l).
Proof.
  induction l as [|c l IH]; cbn [decode_all]; [apply local_ret|].
  apply local_bind; [apply local_prim|intros v]. apply local_bind; [exact IH|intros; apply local_ret].
Qed.
Lemma emits_all E l : emits (encode_all E l).
Proof.
  induction l as [|[c v] l IH]; cbn [encode_all]; [apply emits_ret|].
  apply emits_bind; [apply emits_prim|intros _; exact IH].
Qed.

(* ---- consequences of locality, in terms of states ---- *)
Lemma split_state s : 0 <= off s <= zlen (bits s) ->
  exists p b, s = mkD (p ++ b) (zlen p) (key s) /\ bits s = p ++ b /\ off s = zlen p.
Proof.
  intros H. destruct (split_at (bits s) (off s) H) as (p & b & Hb & Hp).
  exists p, b. repeat split; auto. destruct s as [sb so sk]; cbn [bits off key] in *. subst. reflexivity.
Qed.
Lemma local_frame {A} (m : M A) : local m -> forall s r s', fits (bits s) -> 0 <= off s <= zlen (bits s) ->
  m s = (r, s') -> bits s' = bits s /\ off s <= off s' <= zlen (bits s).
Proof.
  intros L s r s' F H E. destruct (split_state s H) as (p & b & Hs & Hb & Ho).
  rewrite Hs in E. rewrite Hb in *. destruct (L p b (key s) r s' F E) as (e & t & k' & -> & -> & _).
  cbn [bits off]. split; [reflexivity|]. rewrite Ho, !zlen_app.
  pose proof (zlen_nonneg e). pose proof (zlen_nonneg t). lia.
Qed.
Lemma app_eq_len {A} (a b c d : list A) : a ++ b = c ++ d -> zlen a = zlen c -> a = c /\ b = d.
Proof.
  revert c. induction a as [|x a IH]; intros [|y c] H L; unfold zlen in L; cbn [length] in L; try lia.
  - auto.
  - injection H as -> H. destruct (IH c H) as [-> ->]; [unfold zlen; lia|]. auto.
Qed.
Lemma local_consumed {A} (m : M A) : local m -> forall pre mid post k v k',
  fits (pre ++ mid ++ post) ->
  m (mkD (pre ++ mid ++ post) (zlen pre) k) = (Ok v, mkD (pre ++ mid ++ post) (zlen pre + zlen mid) k') ->
  forall pre' post', zlen pre' mod 8 = zlen pre mod 8 -> fits (pre' ++ mid ++ post') ->
  m (mkD (pre' ++ mid ++ post') (zlen pre') k) = (Ok v, mkD (pre' ++ mid ++ post') (zlen pre' + zlen mid) k').
Proof.
  intros L pre mid post k v k' F H pre' post' Hp F'.
  destruct (L pre (mid ++ post) k _ _ F H) as (e & t & k1 & Hb & Hs & Hr).
  injection Hs as He Hk. destruct (app_eq_len mid post e t Hb) as [-> ->]; [lia|]. subst k1.
  now apply Hr.
Qed.
Lemma local_truncated {A} (m : M A) : local m -> forall pre mid post k v k',
  fits (pre ++ mid ++ post) ->
  m (mkD (pre ++ mid ++ post) (zlen pre) k) = (Ok v, mkD (pre ++ mid ++ post) (zlen pre + zlen mid) k') ->
  forall m1 m2, mid = m1 ++ m2 -> m2 <> [] ->
  forall w s', m (mkD (pre ++ m1) (zlen pre) k) <> (Ok w, s').
Proof.
  intros L pre mid post k v k' F H m1 m2 Hm N w s' E.
  assert (F1 : fits (pre ++ m1)).
  { unfold fits in *. subst mid. rewrite !zlen_app in *. pose proof (zlen_nonneg m2). pose proof (zlen_nonneg post). lia. }
  destruct (L pre m1 k _ _ F1 E) as (e & t & k1 & Hb & Hs & Hr).
  specialize (Hr pre (t ++ m2 ++ post) eq_refl).
  assert (EQ : e ++ t ++ m2 ++ post = mid ++ post) by (rewrite Hm, Hb, <- !app_assoc; reflexivity).
  rewrite EQ in Hr. specialize (Hr F). rewrite H in Hr. injection Hr as _ Ho _.
  rewrite Hm, Hb, !zlen_app in Ho. pose proof (zlen_nonneg t). pose proof (zlen_nonneg m2).
  assert (zlen m2 = 0) by lia. apply N. now apply zlen_zero.
Qed.

(* two readings of the same bits agree *)
Lemma reads_agree {A} (m : M A) a e t v v' : reads m a e v -> reads m a (e ++ t) v' ->
  zlen e + zlen t + 8 < 2 ^ 61 -> v = v' /\ t = [].
Proof.
  intros R1 R2 F. set (p := repeat false (Z.to_nat (a mod 8))).
  assert (HP : zlen p = a mod 8) by (unfold p; rewrite zlen_repeat; lia).
  specialize (R1 p t None ltac:(lia)). specialize (R2 p [] None ltac:(lia)).
  rewrite app_nil_r in R2. pose proof (zlen_nonneg e). pose proof (zlen_nonneg t).
  assert (FF : fits (p ++ e ++ t)) by (unfold fits; rewrite !zlen_app; lia).
  specialize (R1 FF). specialize (R2 FF). rewrite R1 in R2. injection R2 as -> Ho.
  split; [reflexivity|]. rewrite zlen_app in Ho. apply zlen_zero. lia.
Qed.

(* ---- values that round-trip ---- *)
Definition prim_ok (E : env) (c : prim) (v : pval) : Prop :=
  match c, v with
  | PBool, VBool _ => True
  | PInt lb ub _, VNum z false => int_ok lb ub z
  | PEnum lb ub _, VNum z false => int_ok lb ub z
  | PChoice lb ub _, VNum z false => int_ok (Some lb) (Some ub) z
  | PSeqHeader _ n, VBits l false => n = zlen l
  | PBits lb ub _, VBits l false => length_ok lb ub false (zlen l) /\ zlen l < 16384
  | POctets lb ub _, VBytes l false => bytes_ok l /\ length_ok lb ub false (zlen l) /\ zlen l < 16384
  | PString lb ub _, VBytes l false =>
      bytes_ok l /\ utf8_valid l = true /\ length_ok lb ub false (zlen l) /\ zlen l < 2 ^ 60
      /\ (little_endian E = false \/ 2 < zlen l \/ l = [] \/ whole_octet_length lb ub = true)
  | PLength lb ub ns, VNum n false => length_ok lb ub ns n
  | _, _ => False
  end.

Lemma reads_map {A B} (m : M A) (f : A -> B) a e v : reads m a e v -> reads (x <- m ;; ret (f x)) a e (f v).
Proof. intros H. apply reads_app_nil. eapply reads_bind; [exact H|apply reads_ret]. Qed.

Lemma rt_intro {A} enc (dec : M A) v (g : Z -> list bool) :
  (forall a, writes enc a (g a)) -> (forall a, reads dec a (g a) v) -> round_trips enc dec v.
Proof. intros H1 H2 a. exists (g a). auto. Qed.

Lemma prim_round_trips E c v : prim_ok E c v -> round_trips (encode_prim E c v) (decode_prim E c) v.
Proof.
  intros H a. destruct c, v; cbn [prim_ok] in H; try contradiction; try (destruct extended; try contradiction);
    cbn [encode_prim decode_prim].
  - eexists; split; [apply writes_append|]. apply (reads_map _ VBool). apply reads_bool.
  - eexists; split; [apply (writes_int _ _ _ _ _ _ H)|].
    apply (reads_map _ (fun r => VNum (fst r) (snd r)) _ _ (z, false)). now apply reads_int.
  - eexists; split; [apply (writes_enum _ _ _ _ _ _ H)|].
    apply (reads_map _ (fun r => VNum (fst r) (snd r)) _ _ (z, false)). now apply reads_enum.
  - eexists; split; [apply (writes_choice _ _ _ _ _ _ H)|].
    apply (reads_map _ (fun r => VNum (fst r) (snd r)) _ _ (z, false)). now apply reads_choice.
  - eexists; split; [apply writes_seqhdr|]. subst optional_count.
    apply (reads_map _ (fun r => VBits (fst r) (snd r)) _ _ (l, false)). apply reads_seqhdr.
  - destruct H. eexists; split; [apply writes_bitstring; assumption|].
    apply (reads_map _ (fun r => VBits r false)). now apply reads_bitstring.
  - destruct H as (? & ? & ?). eexists; split; [apply writes_octetstring; assumption|].
    apply (reads_map _ (fun r => VBytes r false)). now apply reads_octetstring.
  - destruct H as (? & ? & ? & ? & HE). eexists; split; [apply writes_string; assumption|].
    apply (reads_map _ (fun r => VBytes r false)). apply reads_string; auto.
    repeat match goal with H : _ /\ _ |- _ => destruct H end. match goal with D : _ \/ _ |- _ => destruct D as [D|[D|[D|D]]] end; auto. right; right; right. now apply str_content_aligned.
  - eexists; split; [apply (writes_len _ _ _ _ _ _ H)|].
    apply (reads_map _ (fun r => VNum r false)). now apply reads_len.
Qed.

Lemma all_round_trips E l : Forall (fun cv => prim_ok E (fst cv) (snd cv)) l ->
  round_trips (encode_all E l) (decode_all E (map fst l)) (map snd l).
Proof.
  induction 1 as [|[c v] l Hc Hl IH]; intros a; cbn [encode_all decode_all map fst snd].
  - exists []. split; [apply writes_ret|apply reads_ret].
  - destruct (prim_round_trips E c v Hc a) as (e1 & W1 & R1).
    destruct (IH (a + zlen e1)) as (e2 & W2 & R2).
    exists (e1 ++ e2). split; [now apply writes_bind|].
    eapply reads_bind; [exact R1|]. apply reads_app_nil. eapply reads_bind; [exact R2|apply reads_ret].
Qed.

(* through bytes: encode into a fresh buffer, take the bytes, decode them *)
Lemma bytes_round_trip {A} enc (dec : M A) v : round_trips enc dec v ->
  exists d, enc new_data = (Ok tt, d) /\
    (zlen (bits d) < 2 ^ 60 ->
     fst (dec (from_slice (into_bytes d))) = Ok v /\ off (snd (dec (from_slice (into_bytes d)))) = zlen (bits d)).
Proof.
  intros H. destruct (H 0) as (e & W & R). exists (mkD e 0 None). split.
  - apply (W [] 0 None). reflexivity.
  - intros F. unfold from_slice, into_bytes. cbn [bits] in *.
    destruct (bytes_bits_pack e) as (z & Hz & Hlt). rewrite Hz.
    specialize (R [] (repeat false z) None eq_refl). cbn [app] in R. change (zlen (@nil bool)) with 0 in R.
    rewrite R; [cbn; auto with zarith|]. unfold fits. rewrite zlen_app, zlen_repeat. lia.
Qed.
