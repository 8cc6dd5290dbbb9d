(* Proofs of C63. *)
From Coq Require Import ZArith List Bool Lia.
Require Import Verif.Base Verif.CodecModel Verif.Spec Verif.BitLemmas Verif.Local Verif.Ranges Verif.Loops Verif.Frame Verif.Safety Verif.Api Verif.ApiProofs
  Verif.DeriveModel Verif.DeriveSpec Verif.DeriveProofs Verif.DeriveFacts Verif.RelayProofs Verif.SizeSpec.
Import ListNotations.
Open Scope Z_scope.

Definition inside (s : cdata) : Prop := Spec.fits (bits s) /\ 0 <= off s <= zlen (bits s).
Lemma local_inside {A} (m : M A) s r s' : local m -> inside s -> m s = (r, s') -> inside s' /\ off s <= off s'.
Proof.
  intros L [F O] H. destruct (split_state s O) as (p & b & Hs & Hb & Hp). rewrite Hs in H. rewrite Hb in F.
  destruct (L p b (key s) r s' F H) as (e & t & k' & -> & -> & _). unfold inside. cbn [bits off]. rewrite Hp.
  pose proof (zlen_nonneg p). pose proof (zlen_nonneg e). pose proof (zlen_nonneg t). rewrite !zlen_app. repeat split; try assumption; lia.
Qed.
Lemma eats_inside {A} (m : M A) s v s' : eats m -> inside s -> m s = (Ok v, s') -> off s < off s'.
Proof.
  intros L [F O] H. destruct (split_state s O) as (p & b & Hs & Hb & Hp). rewrite Hs in H. rewrite Hb in F. rewrite Hp. exact (L p b (key s) v s' F H).
Qed.
Lemma bitvec_inside E n s v s' : inside s -> get_bitvec E n s = (Ok v, s') -> off s' = off s + n.
Proof.
  intros [F O] H. destruct (split_state s O) as (p & b & Hs & Hb & Hp). rewrite Hs in H. rewrite Hb in F. rewrite Hp. exact (bitvec_consumes E n p b (key s) v s' F H).
Qed.
Lemma bytes_inside E n s v s' : 0 <= n <= 131070 -> inside s -> get_bytes E n s = (Ok v, s') -> off s' = off s + 8 * n.
Proof.
  intros Hn [F O] H. destruct (split_state s O) as (p & b & Hs & Hb & Hp). rewrite Hs in H. rewrite Hb in F. rewrite Hp. refine (bytes_consumes E n p b (key s) v s' F _ H). lia.
Qed.
Lemma bits_loop_size E x lb ub f : forall acc s l s', inside s -> bitstring_loop f E x lb ub acc s = (Ok l, s') -> inside s' /\ zlen l <= zlen acc + (off s' - off s).
Proof.
  induction f as [|f IH]; intros acc s l s' I0 H; cbn [bitstring_loop] in H; [discriminate|].
  step H n s1 Q. destruct (local_inside _ _ _ _ (local_frag E x lb ub) I0 Q) as [I1 O1]. pose proof (returns_frag _ _ _ _ _ _ _ Q) as R. cbv beta in R.
  step H acc' s2 Q2.
  assert (L : inside s2 /\ zlen acc' <= zlen acc + (off s2 - off s1)).
  { destruct (0 <? n) eqn:C; [|injection Q2 as <- <-; split; [assumption|lia]]. step Q2 u s3 Q3. step Q2 p s4 Q4. injection Q2 as <- <-.
    assert (T : local (if 16 <? n then decode_align else ret tt)) by (destruct (16 <? n); [apply local_align|apply local_ret]).
    destruct (local_inside _ _ _ _ T I1 Q3) as [I3 O3]. pose proof (bitvec_inside _ _ _ _ _ I3 Q4) as P4. destruct (local_inside _ _ _ _ (local_bitvec E n) I3 Q4) as [I4 O4].
    pose proof (returns_bitvec _ _ _ _ _ Q4) as P. cbv beta in P. rewrite zlen_app. split; [assumption|lia]. }
  destruct L as [I2 L]. destruct (16384 <=? n) eqn:C.
  - destruct (IH _ _ _ _ I2 H) as [I5 L5]. split; [assumption|lia].
  - injection H as <- <-. split; [assumption|lia].
Qed.
Lemma octets_loop_size E x lb ub f : forall acc s l s', inside s -> octetstring_loop f E x lb ub acc s = (Ok l, s') -> inside s' /\ 8 * zlen l <= 8 * zlen acc + (off s' - off s).
Proof.
  induction f as [|f IH]; intros acc s l s' I0 H; cbn [octetstring_loop] in H; [discriminate|].
  step H n s1 Q. destruct (local_inside _ _ _ _ (local_frag E x lb ub) I0 Q) as [I1 O1]. pose proof (returns_frag _ _ _ _ _ _ _ Q) as R. cbv beta in R.
  step H acc' s2 Q2.
  assert (L : inside s2 /\ 8 * zlen acc' <= 8 * zlen acc + (off s2 - off s1)).
  { destruct (0 <? n) eqn:C; [|injection Q2 as <- <-; split; [assumption|lia]]. step Q2 u s3 Q3. step Q2 p s4 Q4. injection Q2 as <- <-.
    assert (T : local (if 2 <? n then decode_align else ret tt)) by (destruct (2 <? n); [apply local_align|apply local_ret]).
    destruct (local_inside _ _ _ _ T I1 Q3) as [I3 O3]. pose proof (bytes_inside _ _ _ _ _ R I3 Q4) as P4. destruct (local_inside _ _ _ _ (local_bytes E n) I3 Q4) as [I4 O4].
    pose proof (returns_bytes _ _ R _ _ _ Q4) as P. cbv beta in P. rewrite zlen_app. split; [assumption|lia]. }
  destruct L as [I2 L]. destruct (16384 <=? n) eqn:C.
  - destruct (IH _ _ _ _ I2 H) as [I5 L5]. split; [assumption|lia].
  - injection H as <- <-. split; [assumption|lia].
Qed.
Lemma bitstring_size E lb ub ext s l s' : inside s -> decode_bitstring E lb ub ext s = (Ok l, s') -> zlen l <= off s' - off s.
Proof.
  unfold decode_bitstring. intros I0 H. step H x s1 Q. destruct (local_inside _ _ _ _ (local_ext_bit E ext) I0 Q) as [I1 O1].
  unfold bind at 1, loop_fuel at 1 in H. apply bits_loop_size in H; [|assumption]. rewrite zlen_nil in H. lia.
Qed.
Lemma octetstring_size E lb ub ext s l s' : inside s -> decode_octetstring E lb ub ext s = (Ok l, s') -> 8 * zlen l <= off s' - off s.
Proof.
  unfold decode_octetstring. intros I0 H. step H x s1 Q. destruct (local_inside _ _ _ _ (local_ext_bit E ext) I0 Q) as [I1 O1].
  unfold bind at 1, loop_fuel at 1 in H. apply octets_loop_size in H; [|assumption]. change (zlen (@nil Z)) with 0 in H. lia.
Qed.
Lemma string_size E lb ub ext s l s' : inside s -> decode_string E lb ub ext s = (Ok l, s') -> 8 * zlen l <= off s' - off s.
Proof.
  unfold decode_string. intros I0 H. step H x s0 Q0. destruct (local_inside _ _ _ _ (local_ext_bit E ext) I0 Q0) as [I1 O1].
  step H n s1 Q. destruct (local_inside _ _ _ _ (local_frag E x lb ub) I1 Q) as [I2 O2]. pose proof (returns_frag _ _ _ _ _ _ _ Q) as R. cbv beta in R.
  step H m s2 Q2. destruct (local_inside _ _ _ _ (local_lift (arith_usize E (n * 8))) I2 Q2) as [I3 O3]. apply returns_usize in Q2; [|lia]. cbv beta in Q2. subst m. step H u s3 Q3.
  assert (T : local (if 16 <? n * 8 then decode_align else ret tt)) by (destruct (16 <? n * 8); [apply local_align|apply local_ret]).
  destruct (local_inside _ _ _ _ T I3 Q3) as [I4 O4].
  step H hh s4 Q4. unfold get_off in Q4. injection Q4 as <- <-. step H bv s5 Q5. pose proof (bitvec_inside _ _ _ _ _ I4 Q5) as P5. pose proof (returns_bitvec _ _ _ _ _ Q5) as P. cbv beta in P.
  destruct (utf8_valid _); [|discriminate]. injection H as <- <-.
  assert (zlen (map (load_native E (off s3 mod 8)) (chunks8 bv)) = n) as ->; [|lia]. unfold zlen at 1. rewrite map_length. apply chunks8_count. lia.
Qed.

(* ---- whole values ---- *)
Fixpoint nodes_fields (l : list (option val)) : Z := match l with [] => 0 | None :: l => 1 + nodes_fields l | Some x :: l => nodes x + nodes_fields l end.
Fixpoint nodes_list (l : list val) : Z := match l with [] => 0 | x :: l => nodes x + nodes_list l end.
Fixpoint payload_fields (l : list (option val)) : Z := match l with [] => 0 | None :: l => payload_fields l | Some x :: l => payload x + payload_fields l end.
Fixpoint payload_list (l : list val) : Z := match l with [] => 0 | x :: l => payload x + payload_list l end.
Lemma nodes_seq l : nodes (VSeq l) = 1 + nodes_fields l.
Proof. reflexivity. Qed.
Lemma nodes_vlist l : nodes (VList l) = 1 + nodes_list l.
Proof. reflexivity. Qed.
Lemma payload_seq l : payload (VSeq l) = payload_fields l.
Proof. reflexivity. Qed.
Lemma payload_vlist l : payload (VList l) = payload_list l.
Proof. reflexivity. Qed.
Lemma span_pos : (forall t, 1 <= span t) /\ (forall fs, 0 <= span_fields fs) /\ (forall al, 0 <= span_alts al).
Proof. apply ty_mutind; intros; cbn [span span_fields span_alts]; lia. Qed.
Lemma key_inside s v kf s' : inside s -> (if kf : bool then set_key_val v else ret tt) s = (Ok tt, s') -> inside s' /\ off s' = off s.
Proof.
  intros I0 H. destruct kf; [|injection H as <-; auto]. destruct v; cbn [set_key_val] in H; try (injection H as <-; auto; fail).
Qed.

Definition carried E t : Prop := forall s v s', inside s -> dec E t s = (Ok v, s') -> payload v <= off s' - off s.
Definition carried_fields E fs : Prop := forall bm s vs s', inside s -> dec_fields E bm fs s = (Ok vs, s') -> payload_fields vs <= off s' - off s.
Definition carried_alts E al : Prop := forall idx pos s v s', inside s -> dec_alts E al idx pos s = (Ok v, s') -> payload v <= off s' - off s.
Lemma carried_list E t : carried E t -> forall s l s', decodes_in_order (dec E t) s l s' -> inside s -> inside s' /\ payload_list l <= off s' - off s.
Proof.
  intros C s l s' D. induction D as [|s s1 s' v l H D IH]; intros I0; cbn [payload_list]; [split; [assumption|lia]|].
  destruct (local_inside _ _ _ _ (proj1 (local_dec E) t) I0 H) as [I1 O1]. destruct (IH I1) as [I2 P]. specialize (C s v s1 I0 H). split; [assumption|lia].
Qed.
Lemma payload_read E : (forall t, carried E t) /\ (forall fs, carried_fields E fs) /\ (forall al, carried_alts E al).
Proof.
  destruct (local_dec E) as (LT & LF & LA).
  apply ty_mutind; unfold carried, carried_fields, carried_alts; intros;
    match goal with H : inside _, D : _ = (Ok _, _) |- _ => rename H into I0; rename D into HD end; cbn [dec dec_fields dec_alts] in HD; try discriminate.
  - step HD b s1 Q. injection HD as <- <-. destruct (local_inside _ _ _ _ (local_bool E) I0 Q) as [_ O]. cbn. lia.
  - injection HD as <- <-. cbn. lia.
  - step HD b s1 Q. injection HD as <- <-. destruct (local_inside _ _ _ _ (local_integer E lb ub ext) I0 Q) as [_ O]. cbn. lia.
  - step HD b s1 Q. injection HD as <- <-. destruct (local_inside _ _ _ _ (local_enum E lb ub ext) I0 Q) as [_ O]. cbn. lia.
  - step HD b s1 Q. injection HD as <- <-. cbn [payload]. eapply bitstring_size; eauto.
  - step HD b s1 Q. injection HD as <- <-. cbn [payload]. eapply octetstring_size; eauto.
  - step HD b s1 Q. injection HD as <- <-. cbn [payload]. eapply string_size; eauto.
  - step HD h s1 Q. destruct (local_inside _ _ _ _ (local_seqhdr E ext optional_fields) I0 Q) as [I1 O1]. step HD vs s2 Q2. injection HD as <- <-.
    rewrite payload_seq. pose proof (H _ _ _ _ I1 Q2). lia.
  - step HD n s1 Q. destruct (local_inside _ _ _ _ (local_len E lb ub ext) I0 Q) as [I1 O1]. unfold bind at 1, loop_fuel at 1 in HD. step HD l s2 Q2. injection HD as <- <-.
    apply loop_ok in Q2. destruct Q2 as (l' & -> & _ & _ & D). destruct (carried_list E t H _ _ _ D I1) as [I2 P]. rewrite payload_vlist. cbn [app]. lia.
  - step HD q s1 Q. destruct (local_inside _ _ _ _ (local_choice_idx E lb ub ext) I0 Q) as [I1 O1]. destruct (negb (snd q)); [|discriminate]. pose proof (H _ _ _ _ _ I1 HD). lia.
  - step HD n s1 Q. destruct (local_inside _ _ _ _ (local_len E None None false) I0 Q) as [I1 O1]. unfold bind at 1, get_key at 1 in HD. destruct (key s1); [|discriminate].
    pose proof (H _ _ _ _ _ I1 HD). lia.
  - injection HD as <- <-. cbn. lia.
  - destruct (nth_error bm _) as [[|]|]; [| |discriminate].
    + step HD o s1 Q. step Q v s1' Q'. injection Q as <- <-. destruct (local_inside _ _ _ _ (LT t) I0 Q') as [I1 O1]. step HD os s2 Q2. injection HD as <- <-. cbn [payload_fields].
      pose proof (H _ _ _ I0 Q'). pose proof (H0 _ _ _ _ I1 Q2). lia.
    + step HD o s1 Q. injection Q as <- <-. step HD os s2 Q2. injection HD as <- <-. cbn [payload_fields]. eapply H0; eauto.
  - step HD v s1 Q. destruct (local_inside _ _ _ _ (LT t) I0 Q) as [I1 O1]. step HD u s2 Q2. destruct u. destruct (key_inside _ _ _ _ I1 Q2) as [I2 O2]. step HD os s3 Q3. injection HD as <- <-.
    cbn [payload_fields]. pose proof (H _ _ _ I0 Q). pose proof (H0 _ _ _ _ I2 Q3). lia.
  - destruct (idx =? key); [|eapply H0; eauto]. step HD w s1 Q. injection HD as <- <-. cbn [payload]. eapply H; eauto.
Qed.

Definition small E t : Prop := forall s v s', inside s -> dec E t s = (Ok v, s') -> nodes v <= span t * Z.max 1 (off s' - off s).
Definition small_fields E fs : Prop := forall bm s vs s', inside s -> dec_fields E bm fs s = (Ok vs, s') -> nodes_fields vs <= span_fields fs * Z.max 1 (off s' - off s).
Definition small_alts E al : Prop := forall idx pos s v s', inside s -> dec_alts E al idx pos s = (Ok v, s') -> nodes v <= (1 + span_alts al) * Z.max 1 (off s' - off s).
Lemma small_list E t : small E t -> eats_ty t = true -> forall s l s', decodes_in_order (dec E t) s l s' -> inside s -> inside s' /\ off s <= off s' /\ nodes_list l <= span t * (off s' - off s).
Proof.
  intros C EA s l s' D. induction D as [|s s1 s' v l H D IH]; intros I0; cbn [nodes_list]; [split; [assumption|lia]|].
  destruct (local_inside _ _ _ _ (proj1 (local_dec E) t) I0 H) as [I1 O1]. pose proof (eats_inside _ _ _ _ (proj1 (eats_dec E) t EA) I0 H).
  destruct (IH I1) as (I2 & O2 & P). specialize (C s v s1 I0 H). split; [assumption|]. split; [lia|]. rewrite Z.max_r in C by lia. nia.
Qed.
Lemma nodes_read E : (forall t, bounded_loops t = true -> small E t) /\ (forall fs, bounded_fields fs = true -> small_fields E fs) /\ (forall al, bounded_alts al = true -> small_alts E al).
Proof.
  destruct (local_dec E) as (LT & LF & LA). destruct span_pos as (ST & SF & SA).
  assert (MX : forall a b c, 0 <= a -> 0 <= b <= c -> a * Z.max 1 b <= a * Z.max 1 c) by (intros; nia).
  apply ty_mutind; unfold small, small_fields, small_alts; intros;
    match goal with H : inside _, D : _ = (Ok _, _) |- _ => rename H into I0; rename D into HD end; cbn [dec dec_fields dec_alts] in HD;
    cbn [span span_fields span_alts bounded_loops bounded_fields bounded_alts] in *; try discriminate;
    try (step HD b s1 Q; injection HD as <- <-; cbn [nodes]; lia).
  - injection HD as <- <-. cbn [nodes]. lia.
  - step HD h s1 Q. destruct (local_inside _ _ _ _ (local_seqhdr E ext optional_fields) I0 Q) as [I1 O1]. step HD vs s2 Q2. injection HD as <- <-.
    rewrite nodes_seq. destruct (local_inside _ _ _ _ (LF fs _) I1 Q2) as [I2 O2]. pose proof (H ltac:(assumption) _ _ _ _ I1 Q2). pose proof (SF fs). nia.
  - apply andb_prop in H0 as [EA BL].
    step HD n s1 Q. destruct (local_inside _ _ _ _ (local_len E lb ub ext) I0 Q) as [I1 O1]. unfold bind at 1, loop_fuel at 1 in HD. step HD l s2 Q2. injection HD as <- <-.
    apply loop_ok in Q2. destruct Q2 as (l' & -> & _ & _ & D). destruct (small_list E t (H BL) EA _ _ _ D I1) as (I2 & O2 & P). rewrite nodes_vlist. cbn [app]. pose proof (ST t). nia.
  - step HD q s1 Q. destruct (local_inside _ _ _ _ (local_choice_idx E lb ub ext) I0 Q) as [I1 O1]. destruct (negb (snd q)); [|discriminate].
    destruct (local_inside _ _ _ _ (LA alts _ _) I1 HD) as [I2 O2]. pose proof (H ltac:(assumption) _ _ _ _ _ I1 HD). pose proof (SA alts). nia.
  - step HD n s1 Q. destruct (local_inside _ _ _ _ (local_len E None None false) I0 Q) as [I1 O1]. unfold bind at 1, get_key at 1 in HD. destruct (key s1); [|discriminate].
    destruct (local_inside _ _ _ _ (LA alts _ _) I1 HD) as [I2 O2]. pose proof (H ltac:(assumption) _ _ _ _ _ I1 HD). pose proof (SA alts). nia.
  - injection HD as <- <-. cbn. lia.
  - apply andb_prop in H1 as [B1 B2]. pose proof (ST t). pose proof (SF rest). destruct (nth_error bm _) as [[|]|]; [| |discriminate].
    + step HD o s1 Q. step Q v s1' Q'. injection Q as <- <-. destruct (local_inside _ _ _ _ (LT t) I0 Q') as [I1 O1]. step HD os s2 Q2. injection HD as <- <-. cbn [nodes_fields].
      destruct (local_inside _ _ _ _ (LF rest bm) I1 Q2) as [I2 O2]. pose proof (H B1 _ _ _ I0 Q'). pose proof (H0 B2 _ _ _ _ I1 Q2). nia.
    + step HD o s1 Q. injection Q as <- <-. step HD os s2 Q2. injection HD as <- <-. cbn [nodes_fields]. pose proof (H0 B2 _ _ _ _ I0 Q2). nia.
  - apply andb_prop in H1 as [B1 B2]. pose proof (ST t). pose proof (SF rest).
    step HD v s1 Q. destruct (local_inside _ _ _ _ (LT t) I0 Q) as [I1 O1]. step HD u s2 Q2. destruct u. destruct (key_inside _ _ _ _ I1 Q2) as [I2 O2]. step HD os s3 Q3. injection HD as <- <-.
    destruct (local_inside _ _ _ _ (LF rest bm) I2 Q3) as [I3 O3]. cbn [nodes_fields]. pose proof (H B1 _ _ _ I0 Q). pose proof (H0 B2 _ _ _ _ I2 Q3). nia.
  - apply andb_prop in H1 as [B1 B2]. pose proof (ST t). pose proof (SA rest). destruct (idx =? key).
    + step HD w s1 Q. injection HD as <- <-. cbn [nodes]. pose proof (H B1 _ _ _ I0 Q). nia.
    + pose proof (H0 B2 _ _ _ _ _ I0 HD). nia.
Qed.
Lemma payload_bounded E t s v s' : Spec.fits (bits s) -> 0 <= off s <= zlen (bits s) -> dec E t s = (Ok v, s') -> payload v <= off s' - off s.
Proof. intros F O. apply (proj1 (payload_read E)). now split. Qed.
Lemma nodes_bounded E t s v s' : bounded_loops t = true -> Spec.fits (bits s) -> 0 <= off s <= zlen (bits s) -> dec E t s = (Ok v, s') ->
  nodes v <= span t * Z.max 1 (off s' - off s).
Proof. intros B F O. apply (proj1 (nodes_read E) t B). now split. Qed.
Lemma message_bounded E t bytes v s' : bounded_loops t = true -> zlen bytes < 2 ^ 58 -> dec E t (from_slice bytes) = (Ok v, s') ->
  payload v <= 8 * zlen bytes /\ nodes v <= span t * Z.max 1 (8 * zlen bytes).
Proof.
  intros B L H. assert (I0 : inside (from_slice bytes)).
  { unfold inside, Spec.fits, from_slice. cbn [bits off]. rewrite zlen_bytes_bits. pose proof (zlen_nonneg bytes). lia. }
  pose proof (proj1 (payload_read E) t _ _ _ I0 H) as P. pose proof (proj1 (nodes_read E) t B _ _ _ I0 H) as N.
  destruct (split_state _ (proj2 I0)) as (p & b & Hs & Hb & Hp). rewrite Hs in H. pose proof (proj1 I0) as F. rewrite Hb in F.
  destruct (proj1 (local_dec E) t p b _ _ _ F H) as (e & r & k' & -> & -> & _). cbn [off] in *. rewrite Hp in *.
  assert (zlen e <= 8 * zlen bytes).
  { rewrite <- zlen_bytes_bits. change (bytes_bits bytes) with (bits (from_slice bytes)). rewrite Hb, !zlen_app. pose proof (zlen_nonneg p). pose proof (zlen_nonneg r). lia. }
  pose proof (proj1 span_pos t). split; [lia|nia].
Qed.
