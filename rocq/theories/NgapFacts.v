(* The proofs about NGAP (C65). *)
From Coq Require Import ZArith List Bool String Lia.
Require Import Verif.Base Verif.Spec Verif.CodecModel Verif.DeriveModel Verif.DeriveSpec Verif.Asn1Model Verif.GenModel Verif.ResolveModel Verif.ModuleModel Verif.DefinitionModel
  Verif.CompilerSpec Verif.RustModel Verif.RustSpec Verif.RustFacts Verif.X691 Verif.X691Spec Verif.X691Types Verif.X691TypesSpec Verif.IntegerProofs Verif.X691Proofs Verif.X691Facts Verif.X691TypesFacts Verif.CheckSpec Verif.ProtocolSpec Verif.ProtocolCheck Verif.ProtocolProofs Verif.NgapFiles Verif.NgapSpec Verif.NgapRun Verif.NgapRun1.
Require Verif.ApiSpec.
Import ListNotations.
Open Scope Z_scope.
Open Scope list_scope.

Definition periods (ub : Z) (M : meaning) (prog : list (string * gdef)) : Prop :=
  types M "NGReset" = Some ngreset_ty /\ types M "RAN-UE-NGAP-ID" = Some ran_id_ty /\ types M "AMF-UE-NGAP-ID" = Some amf_id_ty /\
  lookup "ExpectedActivityPeriod" prog = Some (period ub) /\ lookup "ExpectedIdlePeriod" prog = Some (period ub).
Lemma period_is_ok ub k p : period_is ub k p = true -> lookup k p = Some (period ub).
Proof.
  unfold period_is. destruct (lookup k p) as [d|]; [|discriminate]. intros H.
  repeat match type of H with match ?x with _ => _ end = true => destruct x; try discriminate H end.
  apply Z.eqb_eq in H. subst. reflexivity.
Qed.
Lemma periods_are_ok ub tb p : periods_are ub tb p = true -> periods ub (meaning_of tb) p.
Proof.
  unfold periods_are. rewrite !andb_true_iff. intros [[[[H1 H2] H3] H4] H5]. repeat split; try (apply has_type_ok; assumption); apply period_is_ok; assumption.
Qed.
Lemma ngap_compiled : compiled_rightly_but_for ngap_exceptions is_digit 2 2000 ngap_files ngap_modules (periods 30).
Proof. exact (proj1 (protocol_fine_ok _ _ _ 2 2 2000 _ _ (le_n 2) (periods_are_ok 30) ngap_fine)). Qed.

(* the common parts of the two values *)
Section Reset.
Context (E : env).
Lemma plain_fields n fs x k vs k' : 0 <= n -> optional_idxs fs = [] -> carries_fields E k fs vs k' -> carries E k (TSeq x n fs) (VSeq vs) k'.
Proof. intros Hz Hfs Hc. apply K_seq; [rewrite Hfs; constructor|rewrite Hfs; constructor|exact Hz|exact Hc]. Qed.
Lemma number_encodable l u z : 0 <= l <= u -> u < 65536 \/ l < z -> u < 2 ^ 62 -> l <= z <= u -> ApiSpec.int_encodable (Some l) (Some u) z.
Proof. intros H1 H2 H3 H4. unfold ApiSpec.int_encodable, i128 in *. lia. Qed.
Lemma connection_carried k a b : match a with Some z => exists y, z = VI y /\ 0 < y < 256 | None => True end ->
  match b with Some z => exists y, z = VI y /\ 0 < y < 256 | None => True end -> carries E k connection_ty (VSeq [a; b; None]) k.
Proof.
  intros Ha Hb. apply K_seq; [repeat constructor; cbn; intuition lia|repeat constructor; lia|lia|].
  assert (Hr : carries_fields E k (FOpt 1 (TInt (Some 0) (Some 4294967295) false {| signed := false; width := 32 |}) (FOpt 2 no_extensions FNil)) [b; None] k).
  { destruct b as [z|]; [|apply KF_none, KF_none; constructor]. destruct Hb as (y & -> & Hy).
    eapply KF_some; [apply K_int; [apply number_encodable; lia|unfold cast; cbn [signed width]; apply Z.mod_small; lia]|]. apply KF_none. constructor. }
  destruct a as [z|]; [|now apply KF_none]. destruct Ha as (y & -> & Hy).
  eapply KF_some; [apply K_int; [apply number_encodable; lia|unfold cast; cbn [signed width]; apply Z.mod_small; lia]|exact Hr].
Qed.
Lemma reset_of l d : l <> [] -> zlen l <= 8 -> enc E reset_type_ty (VAlt 1 (VList l)) new_data = (Ok tt, d) -> 0 < zlen (bits d) <= 131064 ->
  (forall k, carries_list E k connection_ty l k) ->
  carries E None ngreset_ty (VSeq [Some (VList [VSeq [Some (VI 15); Some (VI 1); Some (VAlt 0 (VAlt 1 (VI 0)))]; VSeq [Some (VI 88); Some (VI 0); Some (VAlt 1 (VAlt 1 (VList l)))]])]) (Some 88).
Proof.
  intros Hl Hn Hd Hb Hc.
  apply plain_fields; [lia|reflexivity|]. eapply KF_man; [|constructor]. apply K_seqof; [discriminate|cbn; repeat split; cbn; try lia; vm_compute; congruence|].
  eapply KL_cons.
  - apply plain_fields; [lia|reflexivity|]. eapply KF_key; [apply K_int; [apply number_encodable; lia|reflexivity]|].
    eapply KF_man; [apply K_enum; [apply number_encodable; lia|reflexivity]|]. eapply KF_man; [|constructor].
    eapply K_open; [reflexivity|unfold first_with_key; cbn; intuition lia| |destruct E as [[|] [|]]; vm_compute; reflexivity|vm_compute; intuition congruence].
    eapply K_choice; [reflexivity|unfold first_with_key; cbn; intuition lia|apply number_encodable; lia|]. apply K_enum; [apply number_encodable; lia|reflexivity].
  - eapply KL_cons; [|constructor]. apply plain_fields; [lia|reflexivity|]. eapply KF_key; [apply K_int; [apply number_encodable; lia|reflexivity]|].
    eapply KF_man; [apply K_enum; [apply number_encodable; lia|reflexivity]|]. eapply KF_man; [|constructor].
    eapply K_open; [reflexivity|unfold first_with_key; cbn; intuition lia| |exact Hd|exact Hb].
    eapply K_choice; [reflexivity|unfold first_with_key; cbn; intuition lia|apply number_encodable; lia|].
    apply K_seqof; [exact Hl| |apply Hc]. assert (1 <= zlen l) by (destruct l; [congruence|unfold zlen; cbn [List.length]; lia]).
    cbn; repeat split; cbn; try lia; vm_compute; congruence.
Qed.
Lemma reset_carried : carries E None ngreset_ty reset_value (Some 88) /\ flow_of ngreset_ty reset_value false = Some true.
Proof.
  split; [|vm_compute; reflexivity].
  eapply reset_of; [discriminate|vm_compute; congruence|destruct E as [[|] [|]]; vm_compute; reflexivity|vm_compute; intuition congruence|].
  intros k. eapply KL_cons; [apply connection_carried; [exists 5; split; [reflexivity|lia]|exists 7; split; [reflexivity|lia]]|].
  eapply KL_cons; [apply connection_carried; [exact I|exists 8; split; [reflexivity|lia]]|constructor].
Qed.
Lemma small_reset_carried : carries E None ngreset_ty small_reset_value (Some 88) /\ flow_of ngreset_ty small_reset_value false = Some true /\
  x_plain ngreset_ty small_reset_value /\ x_octets_of ngreset_ty small_reset_value [0; 0; 2; 0; 15; 64; 1; 32; 0; 88; 0; 4; 64; 1; 64; 5].
Proof.
  assert (HC : carries E None ngreset_ty small_reset_value (Some 88)).
  { eapply reset_of; [discriminate|vm_compute; congruence|destruct E as [[|] [|]]; vm_compute; reflexivity|vm_compute; intuition congruence|].
    intros k. eapply KL_cons; [apply connection_carried; [exists 5; split; [reflexivity|lia]|exact I]|constructor]. }
  assert (HP : x_plain ngreset_ty small_reset_value).
  { cbn. unfold int_regular, i128, x_regular. repeat split; repeat constructor; cbn; unfold int_regular, i128, x_regular; repeat split; try lia; try congruence. }
  split; [exact HC|]. split; [vm_compute; reflexivity|]. split; [exact HP|].
  assert (HN : x_numbered ngreset_ty).
  { repeat (match goal with
            | |- forall n key t, alt_at _ n = Some _ -> _ => intros [|[|[|[|[|[|n]]]]]] key t X; cbn in X; inversion X; subst; repeat split; reflexivity
            | |- _ /\ _ => split
            | |- True => exact I
            | |- 0 <= _ => lia
            | |- _ = _ => reflexivity
            | |- _ => cbn [x_numbered x_numbered_fields x_numbered_alts ngreset_ty cause_ty reset_type_ty connection_ty no_extensions small_enum]
            end). }
  destruct (C56_encoder_proof _ _ _ _ _ HC HN HP) as (d & H1 & _ & H2).
  destruct E as [[|] [|]]; vm_compute in H1; injection H1 as <-; apply H2; discriminate.
Qed.
End Reset.
(* the value 40 of the two types *)
Lemma period_unsent E : fst (enc E (TInt (Some 1) (Some 30) true {| signed := false; width := 8 |}) (VI 40) new_data) = Err.
Proof. destruct E as [[|] [|]]; vm_compute; reflexivity. Qed.
Lemma ngap_refuted : exists modules, modules_of_files is_digit ngap_files ngap_modules modules /\ forall E, exists prog orders,
  valid_orders modules orders /\ compile_files is_digit E 2 2000 ngap_files orders = Ok prog /\
  lookup "ExpectedActivityPeriod" prog = Some (GInteger 8 false (Some 1) (Some 30) true) /\
  lookup "ExpectedIdlePeriod" prog = Some (GInteger 8 false (Some 1) (Some 30) true) /\
  fst (enc E (TInt (Some 1) (Some 30) true {| signed := false; width := 8 |}) (VI 40) new_data) = Err.
Proof.
  destruct ngap_compiled as (modules & M & n & H1 & _ & H2). exists modules. split; [exact H1|]. intros E. destruct (H2 E) as (prog & _ & (_ & _ & _ & Q1 & Q2) & (orders & V & C) & _).
  exists prog, orders. split; [exact V|]. split; [exact C|]. split; [exact Q1|]. split; [exact Q2|]. apply period_unsent.
Qed.

(* the numbers of telephones *)
Lemma ids_refuted : exists modules M n, modules_of_files is_digit ngap_files ngap_modules modules /\ (forall a m, In (a, m) modules -> module_means M modules n m) /\
  types M "RAN-UE-NGAP-ID" = Some ran_id_ty /\ types M "AMF-UE-NGAP-ID" = Some amf_id_ty /\
  forall E, fst (enc E ran_id_ty (VI 0) new_data) = Err /\ fst (enc E amf_id_ty (VI 0) new_data) = Err /\
    exists d, enc E ran_id_ty (VI 65536) new_data = (Ok tt, d) /\ into_bytes d = [64; 1; 0; 0] /\
      x_octets_of ran_id_ty (VI 65536) [128; 1; 0; 0] /\ ~ x_octets_of ran_id_ty (VI 65536) [64; 1; 0; 0].
Proof.
  destruct ngap_compiled as (modules & M & n & H1 & H2 & H3). exists modules, M, n. split; [exact H1|]. split; [exact H2|].
  destruct (H3 (Env true true)) as (_ & _ & (_ & Q1 & Q2 & _) & _). split; [exact Q1|]. split; [exact Q2|].
  intros E. split; [destruct E as [[|] [|]]; vm_compute; reflexivity|]. split; [destruct E as [[|] [|]]; vm_compute; reflexivity|].
  eexists. split; [destruct E as [[|] [|]]; vm_compute; reflexivity|]. split; [vm_compute; reflexivity|].
  assert (HL : forall c, x_value ran_id_ty (VI 65536) 0 c -> c = small_range_bits 0 4 2 ++ pad (0 + zlen (small_range_bits 0 4 2)) ++ low_bits 24 65536).
  { intros c X. inversion X; subst. match goal with H : x_root _ _ _ _ |- _ => inversion H; subst; [|discriminate] end.
    match goal with H : x_root_integer _ _ _ _ _ |- _ => inversion H; subst end.
    match goal with H : x_constrained _ _ _ _ _ |- _ => apply (x_con_large_is _ _ _ _ _ 4 3) in H; [|lia|apply x_octets_is; lia|lia|apply x_octets_is; lia]; exact H end. }
  split.
  - exists ([true; false] ++ x_pad (0 + zlen [true; false]) ++ low_bits 24 65536). split.
    + constructor. apply xr_plain; [reflexivity|]. constructor.
      apply (xc_indefinite 0 4294967295 65536 0 4 3); [lia|lia|apply x_octets_is; lia|apply x_octets_is; lia| |split; reflexivity].
      apply (xc_bit_field 1 4 3 0 2); [lia|lia|apply x_width_bits; [lia|reflexivity]|split; reflexivity].
    + split; [repeat constructor; lia|vm_compute; reflexivity].
  - intros (c & X & _ & HB). apply HL in X. subst c. revert HB. vm_compute. discriminate.
Qed.
