(* Proofs of C64. *)
From Coq Require Import ZArith List Bool Lia.
Require Import Verif.Base Verif.CodecModel Verif.Spec Verif.BitLemmas Verif.Api Verif.ApiProofs
  Verif.DeriveModel Verif.DeriveSpec Verif.DeriveProofs Verif.DeriveFacts Verif.RelayProofs Verif.DeriveInversion Verif.VersionSpec.
Import ListNotations.
Open Scope Z_scope.

Scheme newer_ind2 := Minimality for newer Sort Prop with newer_fields_ind2 := Minimality for newer_fields Sort Prop with newer_alts_ind2 := Minimality for newer_alts Sort Prop.
Combined Scheme newer_mut from newer_ind2, newer_fields_ind2, newer_alts_ind2.
Scheme same_value_ind2 := Minimality for same_value Sort Prop with same_fields_ind2 := Minimality for same_fields Sort Prop with same_list_ind2 := Minimality for same_list Sort Prop.
Combined Scheme same_value_mut from same_value_ind2, same_fields_ind2, same_list_ind2.

Scheme newer_alts_alone := Minimality for newer_alts Sort Prop.

(* ---- the same octets ---- *)
Lemma choice_at E lb ub ext : forall al n k x t v, alt_at al n = Some (k, x, t) ->
  forall s, enc_choice E lb ub ext al n v s = (encode_choice_idx E lb ub ext k x ;; enc E t v) s.
Proof. induction al as [|k0 x0 t0 al IH]; intros [|n] k x t v H s; cbn [alt_at enc_choice] in *; try discriminate; [injection H as -> -> ->; reflexivity|now apply IH]. Qed.
Lemma variant_at E : forall al n k x t v, alt_at al n = Some (k, x, t) -> forall s, enc_variant E al n v s = enc E t v s.
Proof. induction al as [|k0 x0 t0 al IH]; intros [|n] k x t v H s; cbn [alt_at enc_variant] in *; try discriminate; [injection H as -> -> ->; reflexivity|now apply (IH n k x t)]. Qed.
Lemma same_octets E :
  (forall t1 t2 v1 v2, same_value t1 t2 v1 v2 -> forall s, enc E t1 v1 s = enc E t2 v2 s) /\
  (forall fs1 fs2 l1 l2, same_fields fs1 fs2 l1 l2 -> (forall s, enc_fields E fs1 l1 s = enc_fields E fs2 l2 s) /\ forall b, presence fs1 l1 b = presence fs2 l2 b) /\
  (forall t1 t2 l1 l2, same_list t1 t2 l1 l2 -> zlen l1 = zlen l2 /\ forall s, each (enc E t1) l1 s = each (enc E t2) l2 s).
Proof.
  assert (B : forall A B (m m' : M A) (f f' : A -> M B), (forall s, m s = m' s) -> (forall x s, f x s = f' x s) -> forall s, bind m f s = bind m' f' s).
  { intros A B m m' f f' H1 H2 s. unfold bind. rewrite H1. destruct (m' s) as [[x| | |] s']; auto. }
  apply same_value_mut.
  - reflexivity.
  - intros ext n fs1 fs2 l1 l2 _ [IH1 IH2] s. cbn [enc]. rewrite IH2. destruct (presence fs2 l2 _); [|reflexivity]. now apply B.
  - intros lb ub ext t1 t2 l1 l2 _ [IH1 IH2] s. cbn [enc]. rewrite IH1. now apply B.
  - intros lb ub ext al1 al2 n1 n2 k x t1 t2 v1 v2 H1 H2 _ IH s. cbn [enc]. rewrite (choice_at E lb ub ext _ _ _ _ _ v1 H1), (choice_at E lb ub ext _ _ _ _ _ v2 H2). now apply B.
  - intros al1 al2 n1 n2 k x t1 t2 v1 v2 H1 H2 _ IH s. cbn [enc]. now rewrite (variant_at E _ _ _ _ _ v1 H1), (variant_at E _ _ _ _ _ v2 H2), IH.
  - auto.
  - intros i t1 t2 fs1 fs2 l1 l2 _ [IH1 IH2]. split; [exact IH1|exact IH2].
  - intros i t1 t2 fs1 fs2 v1 v2 l1 l2 _ IH _ [IH1 IH2]. split; [intros s; cbn [enc_fields]; now apply B|]. intros b. cbn [presence]. destruct (set_true b i); [apply IH2|reflexivity].
  - intros key t1 t2 fs1 fs2 v1 v2 l1 l2 _ IH _ [IH1 IH2]. split; [intros s; cbn [enc_fields]; now apply B|]. intros b. cbn [presence]. apply IH2.
  - auto.
  - intros t1 t2 v1 v2 l1 l2 _ IH _ [IH1 IH2]. split; [rewrite !zlen_cons; lia|]. intros s. cbn [each]. now apply B.
Qed.

(* ---- the numbers that are taken as keys are the same ---- *)
Lemma same_key t1 t2 v1 v2 : same_value t1 t2 v1 v2 -> forall s, set_key_val v1 s = set_key_val v2 s.
Proof. intros H. destruct H; reflexivity. Qed.

(* ---- both ways of decoding, side by side ---- *)
Definition agreeing (E : env) (t1 t2 : ty) : Prop := forall s,
  (forall v1 s', dec E t1 s = (Ok v1, s') -> exists v2, dec E t2 s = (Ok v2, s') /\ same_value t1 t2 v1 v2) /\
  (forall v2 s', dec E t2 s = (Ok v2, s') -> (exists v1, dec E t1 s = (Ok v1, s') /\ same_value t1 t2 v1 v2) \/ fst (dec E t1 s) = Err /\ forall v1, ~ same_value t1 t2 v1 v2).
Definition agreeing_fields (E : env) (fs1 fs2 : fields) : Prop := forall bm s,
  (forall l1 s', dec_fields E bm fs1 s = (Ok l1, s') -> exists l2, dec_fields E bm fs2 s = (Ok l2, s') /\ same_fields fs1 fs2 l1 l2) /\
  (forall l2 s', dec_fields E bm fs2 s = (Ok l2, s') -> (exists l1, dec_fields E bm fs1 s = (Ok l1, s') /\ same_fields fs1 fs2 l1 l2) \/ fst (dec_fields E bm fs1 s) = Err /\ forall l1, ~ same_fields fs1 fs2 l1 l2).
Definition picks (al1 al2 : alts) (p1 p2 : nat) (v1 v2 : val) : Prop := exists n1 n2 k x t1 t2 w1 w2,
  v1 = VAlt (p1 + n1) w1 /\ v2 = VAlt (p2 + n2) w2 /\ alt_at al1 n1 = Some (k, x, t1) /\ alt_at al2 n2 = Some (k, x, t2) /\ same_value t1 t2 w1 w2.
Definition agreeing_alts (E : env) (al1 al2 : alts) : Prop := forall idx p1 p2 s,
  (forall v1 s', dec_alts E al1 idx p1 s = (Ok v1, s') -> exists v2, dec_alts E al2 idx p2 s = (Ok v2, s') /\ picks al1 al2 p1 p2 v1 v2) /\
  (forall v2 s', dec_alts E al2 idx p2 s = (Ok v2, s') -> (exists v1, dec_alts E al1 idx p1 s = (Ok v1, s') /\ picks al1 al2 p1 p2 v1 v2) \/
     fst (dec_alts E al1 idx p1 s) = Err /\ forall v1, ~ picks al1 al2 p1 p2 v1 v2).
Lemma mark_in : forall al n k x t, alt_at al n = Some (k, x, t) -> In (k, x) (marks al).
Proof. induction al as [|k0 x0 t0 al IH]; intros [|n] k x t H; cbn [alt_at marks] in *; try discriminate; [injection H as -> -> _; now left|right; eapply IH, H]. Qed.
Lemma mark_key : forall al n k x t, alt_at al n = Some (k, x, t) -> In k (alt_keys al).
Proof. induction al as [|k0 x0 t0 al IH]; intros [|n] k x t H; cbn [alt_at alt_keys] in *; try discriminate; [injection H as -> _ _; now left|right; eapply IH, H]. Qed.
Lemma no_alternative E idx : forall al p s, ~ In idx (alt_keys al) -> dec_alts E al idx p s = (Err, s).
Proof.
  induction al as [|k x t al IH]; intros p s H; cbn [dec_alts alt_keys] in *; [reflexivity|]. destruct (Z.eqb_spec idx k) as [->|_]; [exfalso; apply H; now left|]. apply IH. intros H1. apply H. now right.
Qed.

Lemma agreeing_lists E t1 t2 : agreeing E t1 t2 -> forall f count len acc1 acc2 s,
  (forall l1 s', seqof_loop f (dec E t1) count len acc1 s = (Ok l1, s') -> exists x1 x2, l1 = acc1 ++ x1 /\ seqof_loop f (dec E t2) count len acc2 s = (Ok (acc2 ++ x2), s') /\ same_list t1 t2 x1 x2) /\
  (forall l2 s', seqof_loop f (dec E t2) count len acc2 s = (Ok l2, s') -> exists x2, l2 = acc2 ++ x2 /\
     ((exists x1, seqof_loop f (dec E t1) count len acc1 s = (Ok (acc1 ++ x1), s') /\ same_list t1 t2 x1 x2) \/
      fst (seqof_loop f (dec E t1) count len acc1 s) = Err /\ forall x1, ~ same_list t1 t2 x1 x2)).
Proof.
  intros A f. induction f as [|f IH]; intros count len acc1 acc2 s; cbn [seqof_loop]; [split; intros; discriminate|]. destruct (A s) as [A1 A2]. split.
  - intros l1 s' H. step H v1 s1 Q. destruct (A1 _ _ eq_refl) as (v2 & H2 & Hv). unfold bind. rewrite H2. destruct (count + 1 =? len).
    + injection H as <- <-. exists [v1], [v2]. split; [reflexivity|]. split; [reflexivity|]. repeat constructor. exact Hv.
    + destruct (proj1 (IH (count + 1) len (acc1 ++ [v1]) (acc2 ++ [v2]) s1) _ _ H) as (x1 & x2 & -> & H3 & Hs). exists (v1 :: x1), (v2 :: x2). rewrite <- !app_assoc in *.
      split; [reflexivity|]. split; [exact H3|]. now constructor.
  - intros l2 s' H. step H v2 s1 Q. unfold bind. destruct (A2 _ _ eq_refl) as [(v1 & H1 & Hv)|[HE Hno]].
    + rewrite H1. destruct (count + 1 =? len).
      * injection H as <- <-. exists [v2]. split; [reflexivity|]. left. exists [v1]. split; [reflexivity|]. repeat constructor. exact Hv.
      * destruct (proj2 (IH (count + 1) len (acc1 ++ [v1]) (acc2 ++ [v2]) s1) _ _ H) as (x2 & -> & R). exists (v2 :: x2). rewrite <- !app_assoc in *. split; [reflexivity|].
        destruct R as [(x1 & H3 & Hs)|[HE Hno]]; [left; exists (v1 :: x1); rewrite <- app_assoc in H3; split; [exact H3|now constructor]|right; split; [exact HE|]].
        intros x1 Hs. inversion Hs; subst. now apply (Hno l1).
    + assert (L : exists x2, l2 = acc2 ++ v2 :: x2).
      { destruct (count + 1 =? len); [injection H as <- <-; now exists []|]. destruct (proj2 (IH (count + 1) len acc1 (acc2 ++ [v2]) s1) _ _ H) as (x2 & -> & _). exists x2. now rewrite <- app_assoc. }
      destruct L as [x2 ->]. exists (v2 :: x2). split; [reflexivity|]. right. split; [destruct (dec E t1 s) as [[| | |] ?]; cbn in HE |- *; congruence|].
      intros x1 Hs. inversion Hs; subst. now apply (Hno v1).
Qed.
Lemma newer_agree E :
  (forall t1 t2, newer t1 t2 -> agreeing E t1 t2) /\
  (forall fs1 fs2, newer_fields fs1 fs2 -> agreeing_fields E fs1 fs2) /\
  (forall al1 al2, newer_alts al1 al2 -> agreeing_alts E al1 al2).
Proof.
  apply newer_mut.
  - intros t Ht s. split; [intros v s' H; exists v; split; [exact H|now constructor]|intros v s' H; left; exists v; split; [exact H|now constructor]].
  - intros ext n fs1 fs2 _ IH s. cbn [dec]. unfold bind. destruct (decode_sequence_header E ext n s) as [[h| | |] s1]; [|split; intros; discriminate..].
    destruct (IH (fst h) s1) as [I1 I2]. split.
    + intros v1 s' H. destruct (dec_fields E (fst h) fs1 s1) as [[l1| | |] s2] eqn:Q; try discriminate. injection H as <- <-. destruct (I1 _ _ eq_refl) as (l2 & -> & Hs).
      exists (VSeq l2). split; [reflexivity|now constructor].
    + intros v2 s' H. destruct (dec_fields E (fst h) fs2 s1) as [[l2| | |] s2] eqn:Q; try discriminate. injection H as <- <-. destruct (I2 _ _ eq_refl) as [(l1 & -> & Hs)|[HE Hno]].
      * left. exists (VSeq l1). split; [reflexivity|now constructor].
      * right. split; [destruct (dec_fields E (fst h) fs1 s1) as [[| | |] ?]; cbn in HE |- *; congruence|]. intros v1 Hv. inversion Hv; subst; [contradiction|]. now apply (Hno l1).
  - intros lb ub ext t1 t2 _ IH s. cbn [dec]. unfold bind, loop_fuel. destruct (decode_length_determinent E lb ub ext s) as [[len| | |] s1]; [|split; intros; discriminate..].
    destruct (agreeing_lists E t1 t2 IH (S (length (bits s1)) + Z.to_nat len) 0 len [] [] s1) as [I1 I2]. split.
    + intros v1 s' H. destruct (seqof_loop _ (dec E t1) 0 len [] s1) as [[l1| | |] s2] eqn:Q; try discriminate. injection H as <- <-. destruct (I1 _ _ eq_refl) as (x1 & x2 & E1 & E2 & Hs). cbn [app] in *. subst x1.
      exists (VList x2). cbn [Nat.add] in *. rewrite E2. split; [reflexivity|now constructor].
    + intros v2 s' H. destruct (seqof_loop _ (dec E t2) 0 len [] s1) as [[l2| | |] s2] eqn:Q; try discriminate. injection H as <- <-. destruct (I2 _ _ eq_refl) as (x2 & E2 & R). cbn [app] in *. subst x2.
      cbn [Nat.add] in *. destruct R as [(x1 & E1 & Hs)|[HE Hno]].
      * left. exists (VList x1). rewrite E1. split; [reflexivity|now constructor].
      * right. split; [destruct (seqof_loop _ (dec E t1) 0 len [] s1) as [[| | |] ?]; cbn in HE |- *; congruence|]. intros v1 Hv. inversion Hv; subst; [contradiction|]. now apply (Hno l1).
  - intros lb ub ext al1 al2 _ IH s. cbn [dec]. unfold bind. destruct (decode_choice_idx E lb ub ext s) as [[q| | |] s1]; [|split; intros; discriminate..].
    destruct (negb (snd q)); [|split; intros; discriminate]. destruct (IH (fst q) 0%nat 0%nat s1) as [I1 I2]. split.
    + intros v1 s' H. destruct (I1 _ _ H) as (v2 & H2 & n1 & n2 & k & x & t1 & t2 & w1 & w2 & -> & -> & A1 & A2 & Hw). exists (VAlt (0 + n2) w2). split; [exact H2|]. eapply V_choice; eassumption.
    + intros v2 s' H. destruct (I2 _ _ H) as [(v1 & H1 & n1 & n2 & k & x & t1 & t2 & w1 & w2 & -> & -> & A1 & A2 & Hw)|[HE Hno]].
      * left. exists (VAlt (0 + n1) w1). split; [exact H1|]. eapply V_choice; eassumption.
      * right. split; [exact HE|]. intros v1 Hv. inversion Hv; subst; [contradiction|]. apply (Hno (VAlt n1 v0)). exists n1, n2, k, x, t1, t2, v0, v3. auto 10.
  - intros al1 al2 _ IH s. cbn [dec]. unfold bind, get_key. destruct (decode_length_determinent E None None false s) as [[len| | |] s1]; [|split; intros; discriminate..].
    destruct (key s1) as [key|]; [|split; intros; discriminate]. destruct (IH key 0%nat 0%nat s1) as [I1 I2]. split.
    + intros v1 s' H. destruct (I1 _ _ H) as (v2 & H2 & n1 & n2 & k & x & t1 & t2 & w1 & w2 & -> & -> & A1 & A2 & Hw). exists (VAlt (0 + n2) w2). split; [exact H2|]. eapply V_open; eassumption.
    + intros v2 s' H. destruct (I2 _ _ H) as [(v1 & H1 & n1 & n2 & k & x & t1 & t2 & w1 & w2 & -> & -> & A1 & A2 & Hw)|[HE Hno]].
      * left. exists (VAlt (0 + n1) w1). split; [exact H1|]. eapply V_open; eassumption.
      * right. split; [exact HE|]. intros v1 Hv. inversion Hv; subst; [contradiction|]. apply (Hno (VAlt n1 v0)). exists n1, n2, k, x, t1, t2, v0, v3. auto 10.
  - intros bm s. cbn [dec_fields]. split; intros l s' H; injection H as <- <-; [|left]; exists []; (split; [reflexivity|constructor]).
  - intros i t1 t2 fs1 fs2 _ IHt _ IHf bm s. cbn [dec_fields]. destruct (nth_error bm (Z.to_nat i)) as [[|]|]; [| |split; intros; discriminate].
    + destruct (IHt s) as [T1 T2]. unfold bind. split.
      * intros l s' H. destruct (dec E t1 s) as [[v1| | |] s1]; try discriminate. destruct (T1 _ _ eq_refl) as (v2 & -> & Hv). unfold ret in *. destruct (IHf bm s1) as [F1 F2].
        destruct (dec_fields E bm fs1 s1) as [[l1| | |] s2]; try discriminate. injection H as <- <-. destruct (F1 _ _ eq_refl) as (l2 & -> & Hl). exists (Some v2 :: l2). split; [reflexivity|now constructor].
      * intros l s' H. destruct (dec E t2 s) as [[v2| | |] s1]; try discriminate. unfold ret in *. destruct (IHf bm s1) as [F1 F2].
        destruct (dec_fields E bm fs2 s1) as [[l2| | |] s2] eqn:Q; try discriminate. injection H as <- <-. destruct (T2 _ _ eq_refl) as [(v1 & -> & Hv)|[HE Hno]].
        -- destruct (F2 _ _ eq_refl) as [(l1 & -> & Hl)|[HE Hno]]; [left; exists (Some v1 :: l1); split; [reflexivity|now constructor]|right].
           split; [destruct (dec_fields E bm fs1 s1) as [[| | |] ?]; cbn in HE |- *; congruence|]. intros l1 Hl. inversion Hl; subst. now apply (Hno l0).
        -- right. split; [destruct (dec E t1 s) as [[| | |] ?]; cbn in HE |- *; congruence|]. intros l1 Hl. inversion Hl; subst. now apply (Hno v1).
    + destruct (IHf bm s) as [F1 F2]. unfold bind, ret in *. split.
      * intros l s' H. destruct (dec_fields E bm fs1 s) as [[l1| | |] s2]; try discriminate. injection H as <- <-. destruct (F1 _ _ eq_refl) as (l2 & -> & Hl). exists (None :: l2). split; [reflexivity|now constructor].
      * intros l s' H. destruct (dec_fields E bm fs2 s) as [[l2| | |] s2]; try discriminate. injection H as <- <-. destruct (F2 _ _ eq_refl) as [(l1 & -> & Hl)|[HE Hno]]; [left; exists (None :: l1); split; [reflexivity|now constructor]|right].
        split; [destruct (dec_fields E bm fs1 s) as [[| | |] ?]; cbn in HE |- *; congruence|]. intros l1 Hl. inversion Hl; subst. now apply (Hno l0).
  - intros key t1 t2 fs1 fs2 _ IHt _ IHf bm s. cbn [dec_fields]. destruct (IHt s) as [T1 T2]. unfold bind. split.
    + intros l s' H. destruct (dec E t1 s) as [[v1| | |] s1]; try discriminate. destruct (T1 _ _ eq_refl) as (v2 & -> & Hv).
      assert (HK : (if key then set_key_val v2 else ret tt) s1 = (if key then set_key_val v1 else ret tt) s1) by (destruct key; [symmetry; now apply (same_key t1 t2)|reflexivity]). rewrite HK.
      destruct ((if key then set_key_val v1 else ret tt) s1) as [[u| | |] s2]; try discriminate. unfold ret in *. destruct (IHf bm s2) as [F1 F2].
      destruct (dec_fields E bm fs1 s2) as [[l1| | |] s3]; try discriminate. injection H as <- <-. destruct (F1 _ _ eq_refl) as (l2 & -> & Hl). exists (Some v2 :: l2). split; [reflexivity|now constructor].
    + intros l s' H. destruct (dec E t2 s) as [[v2| | |] s1]; try discriminate. destruct (T2 _ _ eq_refl) as [(v1 & -> & Hv)|[HE Hno]].
      * assert (HK : (if key then set_key_val v2 else ret tt) s1 = (if key then set_key_val v1 else ret tt) s1) by (destruct key; [symmetry; now apply (same_key t1 t2)|reflexivity]). rewrite HK in H.
        destruct ((if key then set_key_val v1 else ret tt) s1) as [[u| | |] s2]; try discriminate. unfold ret in *. destruct (IHf bm s2) as [F1 F2].
        destruct (dec_fields E bm fs2 s2) as [[l2| | |] s3] eqn:Q; try discriminate. injection H as <- <-.
        destruct (F2 _ _ eq_refl) as [(l1 & -> & Hl)|[HE Hno]]; [left; exists (Some v1 :: l1); split; [reflexivity|now constructor]|right].
        split; [destruct (dec_fields E bm fs1 s2) as [[| | |] ?]; cbn in HE |- *; congruence|]. intros l1 Hl. inversion Hl; subst. now apply (Hno l0).
      * right. split; [destruct (dec E t1 s) as [[| | |] ?]; cbn in HE |- *; congruence|]. intros l1 Hl.
        assert (exists l2, l = Some v2 :: l2) as [l2 ->].
        { destruct ((if key then set_key_val v2 else ret tt) s1) as [[u| | |] s2]; try discriminate. unfold ret in *. destruct (dec_fields E bm fs2 s2) as [[l2| | |] s3]; try discriminate. injection H as <- <-. eauto. }
        inversion Hl; subst. now apply (Hno v1).
  - intros idx p1 p2 s. cbn [dec_alts]. split; intros; discriminate.
  - intros k x t1 t2 r1 r2 _ IHt M1 M2 _ IHr idx p1 p2 s. cbn [dec_alts]. destruct (Z.eqb_spec idx k) as [->|Hne].
    + destruct (IHt s) as [T1 T2]. unfold bind, ret. split.
      * intros v s' H. destruct (dec E t1 s) as [[v1| | |] s1]; try discriminate. injection H as <- <-. destruct (T1 _ _ eq_refl) as (v2 & -> & Hv).
        exists (VAlt p2 v2). split; [reflexivity|]. exists 0%nat, 0%nat, k, x, t1, t2, v1, v2. rewrite !Nat.add_0_r. auto.
      * intros v s' H. destruct (dec E t2 s) as [[v2| | |] s1]; try discriminate. injection H as <- <-. destruct (T2 _ _ eq_refl) as [(v1 & -> & Hv)|[HE Hno]].
        -- left. exists (VAlt p1 v1). split; [reflexivity|]. exists 0%nat, 0%nat, k, x, t1, t2, v1, v2. rewrite !Nat.add_0_r. auto.
        -- right. split; [destruct (dec E t1 s) as [[| | |] ?]; cbn in HE |- *; congruence|]. intros v1 (n1 & n2 & k' & x' & u1 & u2 & w1 & w2 & -> & E2 & A1 & A2 & Hw).
           injection E2 as E2 <-. assert (n2 = 0%nat) by lia. subst n2. cbn [alt_at] in A2. injection A2 as <- <- <-.
           destruct n1 as [|n1]; cbn [alt_at] in A1; [injection A1 as <-; now apply (Hno w1)|]. now apply mark_in in A1.
    + destruct (IHr idx (S p1) (S p2) s) as [R1 R2]. split.
      * intros v s' H. destruct (R1 _ _ H) as (v2 & H2 & n1 & n2 & k' & x' & u1 & u2 & w1 & w2 & -> & -> & A1 & A2 & Hw). exists (VAlt (S p2 + n2) w2). split; [exact H2|].
        exists (S n1), (S n2), k', x', u1, u2, w1, w2. rewrite <- !plus_n_Sm. auto.
      * intros v s' H. destruct (R2 _ _ H) as [(v1 & H1 & n1 & n2 & k' & x' & u1 & u2 & w1 & w2 & -> & -> & A1 & A2 & Hw)|[HE Hno]].
        -- left. exists (VAlt (S p1 + n1) w1). split; [exact H1|]. exists (S n1), (S n2), k', x', u1, u2, w1, w2. rewrite <- !plus_n_Sm. auto.
        -- right. split; [exact HE|]. intros v1 (n1 & n2 & k' & x' & u1 & u2 & w1 & w2 & -> & -> & A1 & A2 & Hw).
           destruct n2 as [|n2].
           { exfalso. clear - H. rewrite Nat.add_0_r in H. revert H. generalize (Nat.lt_succ_diag_r p2). generalize (S p2). induction r2 as [|k0 x0 t0 r2 IH]; intros q Hq H; cbn [dec_alts] in H; [discriminate|].
             destruct (idx =? k0); [|exact (IH (S q) ltac:(lia) H)]. unfold bind, ret in H. destruct (dec E t0 s) as [[| | |] ?]; try discriminate. injection H as H _ _. lia. }
           cbn [alt_at] in A2. destruct n1 as [|n1]; cbn [alt_at] in A1; [injection A1 as <- <- <-; now apply mark_in in A2|].
           apply (Hno (VAlt (S p1 + n1) w1)). exists n1, n2, k', x', u1, u2, w1, w2. rewrite !Nat.add_succ_l, !plus_n_Sm. auto.
  - intros k x t r1 r2 K M2 _ IHr idx p1 p2 s. cbn [dec_alts]. destruct (Z.eqb_spec idx k) as [->|Hne].
    + split; [intros v s' H; rewrite no_alternative in H by exact K; discriminate|]. intros v s' H. right. rewrite no_alternative by exact K. split; [reflexivity|].
      unfold bind, ret in H. destruct (dec E t s) as [[v2| | |] s1]; try discriminate. injection H as <- <-.
      intros v1 (n1 & n2 & k' & x' & u1 & u2 & w1 & w2 & -> & E2 & A1 & A2 & Hw). injection E2 as E2 <-. assert (n2 = 0%nat) by lia. subst n2. cbn [alt_at] in A2. injection A2 as <- <- <-.
      now apply mark_key in A1.
    + destruct (IHr idx p1 (S p2) s) as [R1 R2]. split.
      * intros v s' H. destruct (R1 _ _ H) as (v2 & H2 & n1 & n2 & k' & x' & u1 & u2 & w1 & w2 & -> & -> & A1 & A2 & Hw). exists (VAlt (S p2 + n2) w2). split; [exact H2|].
        exists n1, (S n2), k', x', u1, u2, w1, w2. rewrite <- !plus_n_Sm. auto.
      * intros v s' H. destruct (R2 _ _ H) as [(v1 & H1 & n1 & n2 & k' & x' & u1 & u2 & w1 & w2 & -> & -> & A1 & A2 & Hw)|[HE Hno]].
        -- left. exists (VAlt (p1 + n1) w1). split; [exact H1|]. exists n1, (S n2), k', x', u1, u2, w1, w2. rewrite <- !plus_n_Sm. auto.
        -- right. split; [exact HE|]. intros v1 (n1 & n2 & k' & x' & u1 & u2 & w1 & w2 & -> & -> & A1 & A2 & Hw).
           destruct n2 as [|n2].
           { exfalso. clear - H. rewrite Nat.add_0_r in H. revert H. generalize (Nat.lt_succ_diag_r p2). generalize (S p2). induction r2 as [|k0 x0 t0 r2 IH]; intros q Hq H; cbn [dec_alts] in H; [discriminate|].
             destruct (idx =? k0); [|exact (IH (S q) ltac:(lia) H)]. unfold bind, ret in H. destruct (dec E t0 s) as [[| | |] ?]; try discriminate. injection H as H _ _. lia. }
           cbn [alt_at] in A2.
           apply (Hno (VAlt (p1 + n1) w1)). exists n1, n2, k', x', u1, u2, w1, w2. rewrite !Nat.add_succ_l, !plus_n_Sm. auto.
Qed.

(* ---- the values of two versions correspond one to one ---- *)
Lemma alt_at_unique al : forall n m k x t u, NoDup (marks al) -> alt_at al n = Some (k, x, t) -> alt_at al m = Some (k, x, u) -> n = m.
Proof.
  induction al as [|k0 x0 t0 al IH]; intros [|n] [|m] k x t u N H1 H2; cbn [alt_at marks] in *; try discriminate; [reflexivity| | |]; inversion_clear N as [|? ? N1 N2].
  - injection H1 as -> -> ->. now apply mark_in in H2.
  - injection H2 as -> -> ->. now apply mark_in in H1.
  - f_equal. eapply IH; eassumption.
Qed.
Lemma marks_kept al1 al2 : newer_alts al1 al2 -> forall m, In m (marks al1) -> In m (marks al2).
Proof.
  induction 1 as [|k x t1 t2 r1 r2 _ _ _ _ IH|k x t r1 r2 _ _ _ IH] using newer_alts_alone; auto; cbn [marks]; intros m.
  - intros [<-|H]; [now left|right; auto].
  - intros H. right. auto.
Qed.
Lemma newer_marks al1 al2 : newer_alts al1 al2 -> NoDup (marks al1) /\ NoDup (marks al2).
Proof.
  induction 1 as [|k x t1 t2 r1 r2 _ H1 H2 _ IH|k x t r1 r2 H1 H2 _ IH] using newer_alts_alone; auto; cbn [marks]; [split; constructor| |];
    destruct IH as [I1 I2]; split; try constructor; assumption.
Qed.
Lemma newer_at al1 al2 : newer_alts al1 al2 -> forall n1 n2 k x t1 t2, alt_at al1 n1 = Some (k, x, t1) -> alt_at al2 n2 = Some (k, x, t2) -> newer t1 t2.
Proof.
  induction 1 as [|k0 x0 u1 u2 r1 r2 Hu H1 H2 _ IH|k0 x0 u r1 r2 H1 H2 _ IH] using newer_alts_alone; auto; intros n1 n2 k x t1 t2 A1 A2.
  - destruct n1; discriminate.
  - destruct n1 as [|n1], n2 as [|n2]; cbn [alt_at] in A1, A2.
    + injection A1 as <- <- <-. now injection A2 as <-.
    + injection A1 as <- <- <-. now apply mark_in in A2.
    + injection A2 as <- <- <-. now apply mark_in in A1.
    + eapply IH; eassumption.
  - destruct n2 as [|n2]; cbn [alt_at] in A2; [injection A2 as <- <- <-; now apply mark_key in A1|]. eapply IH; eassumption.
Qed.
Lemma same_unique :
  (forall t1 t2 v1 v2, same_value t1 t2 v1 v2 -> newer t1 t2 -> (forall w, same_value t1 t2 v1 w -> w = v2) /\ (forall w, same_value t1 t2 w v2 -> w = v1)) /\
  (forall fs1 fs2 l1 l2, same_fields fs1 fs2 l1 l2 -> newer_fields fs1 fs2 -> (forall w, same_fields fs1 fs2 l1 w -> w = l2) /\ (forall w, same_fields fs1 fs2 w l2 -> w = l1)) /\
  (forall t1 t2 l1 l2, same_list t1 t2 l1 l2 -> newer t1 t2 -> (forall w, same_list t1 t2 l1 w -> w = l2) /\ (forall w, same_list t1 t2 w l2 -> w = l1)).
Proof.
  apply same_value_mut.
  - intros t v Ht _. split; intros w H; inversion H; subst; try reflexivity; contradiction.
  - intros ext n fs1 fs2 l1 l2 _ IH N. inversion N; subst; [contradiction|]. destruct (IH ltac:(assumption)) as [I1 I2].
    split; intros w H'; inversion H'; subst; try contradiction; f_equal; auto.
  - intros lb ub ext t1 t2 l1 l2 _ IH N. inversion N; subst; [contradiction|]. destruct (IH ltac:(assumption)) as [I1 I2].
    split; intros w H'; inversion H'; subst; try contradiction; f_equal; auto.
  - intros lb ub ext al1 al2 n1 n2 k x t1 t2 v1 v2 A1 A2 _ IH N. inversion N as [| | |? ? ? ? ? NA|]; subst; [contradiction|]. destruct (newer_marks _ _ NA) as [D1 D2].
    destruct (IH (newer_at _ _ NA _ _ _ _ _ _ A1 A2)) as [I1 I2]. split; intros w H'; inversion H' as [| | |? ? ? ? ? m1 m2 k' x' u1 u2 w1 w2 B1 B2 Hw|]; subst; try contradiction.
    + rewrite A1 in B1. injection B1 as <- <- <-. pose proof (alt_at_unique _ _ _ _ _ _ _ D2 A2 B2) as <-. rewrite A2 in B2. injection B2 as <-. f_equal. auto.
    + rewrite A2 in B2. injection B2 as <- <- <-. pose proof (alt_at_unique _ _ _ _ _ _ _ D1 A1 B1) as <-. rewrite A1 in B1. injection B1 as <-. f_equal. auto.
  - intros al1 al2 n1 n2 k x t1 t2 v1 v2 A1 A2 _ IH N. inversion N as [| | | |? ? NA]; subst; [contradiction|]. destruct (newer_marks _ _ NA) as [D1 D2].
    destruct (IH (newer_at _ _ NA _ _ _ _ _ _ A1 A2)) as [I1 I2]. split; intros w H'; inversion H' as [| | | |? ? m1 m2 k' x' u1 u2 w1 w2 B1 B2 Hw]; subst; try contradiction.
    + rewrite A1 in B1. injection B1 as <- <- <-. pose proof (alt_at_unique _ _ _ _ _ _ _ D2 A2 B2) as <-. rewrite A2 in B2. injection B2 as <-. f_equal. auto.
    + rewrite A2 in B2. injection B2 as <- <- <-. pose proof (alt_at_unique _ _ _ _ _ _ _ D1 A1 B1) as <-. rewrite A1 in B1. injection B1 as <-. f_equal. auto.
  - intros _. split; intros w H; now inversion H.
  - intros i t1 t2 fs1 fs2 l1 l2 _ IH N. inversion N; subst. destruct (IH ltac:(assumption)) as [I1 I2]. split; intros w H; inversion H; subst; f_equal; auto.
  - intros i t1 t2 fs1 fs2 v1 v2 l1 l2 _ IHv _ IH N. inversion N; subst. destruct (IH ltac:(assumption)) as [I1 I2]. destruct (IHv ltac:(assumption)) as [J1 J2]. split; intros w H; inversion H; subst; f_equal; auto; f_equal; auto.
  - intros key t1 t2 fs1 fs2 v1 v2 l1 l2 _ IHv _ IH N. inversion N; subst. destruct (IH ltac:(assumption)) as [I1 I2]. destruct (IHv ltac:(assumption)) as [J1 J2]. split; intros w H; inversion H; subst; f_equal; auto; f_equal; auto.
  - intros t1 t2 _. split; intros w H; now inversion H.
  - intros t1 t2 v1 v2 l1 l2 _ IHv _ IH N. destruct (IH N) as [I1 I2]. destruct (IHv N) as [J1 J2]. split; intros w H; inversion H; subst; f_equal; auto.
Qed.

(* ---- any octets ---- *)
Theorem new_reads_old E t1 t2 : newer t1 t2 -> forall s v1 s', dec E t1 s = (Ok v1, s') -> exists v2, dec E t2 s = (Ok v2, s') /\ same_value t1 t2 v1 v2.
Proof. intros N s. exact (proj1 (proj1 (newer_agree E) t1 t2 N s)). Qed.
Theorem old_reads_new E t1 t2 : newer t1 t2 -> forall s v2 s', dec E t2 s = (Ok v2, s') ->
  (exists v1, dec E t1 s = (Ok v1, s') /\ same_value t1 t2 v1 v2) \/ fst (dec E t1 s) = Err /\ forall v1, ~ same_value t1 t2 v1 v2.
Proof. intros N s. exact (proj2 (proj1 (newer_agree E) t1 t2 N s)). Qed.
Theorem same_sent E t1 t2 v1 v2 : same_value t1 t2 v1 v2 -> forall s, enc E t1 v1 s = enc E t2 v2 s.
Proof. apply (proj1 (same_octets E)). Qed.
Theorem one_to_one t1 t2 v1 v2 w1 w2 : newer t1 t2 -> same_value t1 t2 v1 v2 -> same_value t1 t2 w1 w2 -> (v1 = w1 <-> v2 = w2).
Proof.
  intros N H1 H2. destruct (proj1 same_unique _ _ _ _ H1 N) as [I1 I2]. split; intros <-; symmetry; auto.
Qed.

(* ---- messages ---- *)
Theorem old_message E t1 t2 v1 k s : newer t1 t2 -> carries E None t1 v1 k -> flow_of t1 v1 false = Some s ->
  exists d, enc E t1 v1 new_data = (Ok tt, d) /\
    (zlen (bits d) < 2 ^ 60 -> exists v2, fst (dec E t2 (from_slice (into_bytes d))) = Ok v2 /\ same_value t1 t2 v1 v2).
Proof.
  intros N C F. destruct (agrees_bytes _ _ _ _ (derived_agrees E None t1 v1 k s C F)) as (d & He & Hd). exists d. split; [exact He|]. intros L. specialize (Hd L).
  destruct (dec E t1 (from_slice (into_bytes d))) as [r s'] eqn:Q. cbn [fst] in Hd. subst r. destruct (new_reads_old E t1 t2 N _ _ _ Q) as (v2 & -> & Hv). exists v2. split; [reflexivity|exact Hv].
Qed.
Theorem new_message E t1 t2 v2 k s : newer t1 t2 -> carries E None t2 v2 k -> flow_of t2 v2 false = Some s ->
  exists d, enc E t2 v2 new_data = (Ok tt, d) /\
    (zlen (bits d) < 2 ^ 60 ->
       (exists v1, fst (dec E t1 (from_slice (into_bytes d))) = Ok v1 /\ same_value t1 t2 v1 v2) \/
       fst (dec E t1 (from_slice (into_bytes d))) = Err /\ forall v1, ~ same_value t1 t2 v1 v2).
Proof.
  intros N C F. destruct (agrees_bytes _ _ _ _ (derived_agrees E None t2 v2 k s C F)) as (d & He & Hd). exists d. split; [exact He|]. intros L. specialize (Hd L).
  destruct (dec E t2 (from_slice (into_bytes d))) as [r s'] eqn:Q. cbn [fst] in Hd. subst r. destruct (old_reads_new E t1 t2 N _ _ _ Q) as [(v1 & -> & Hv)|R]; [left; exists v1; split; [reflexivity|exact Hv]|right; exact R].
Qed.
