(* The theorems on relaying put together with the compiler, and concrete
   cases. *)
From Coq Require Import ZArith NArith List Bool String Lia.
From Coq Require Import ZifyBool ZifyNat ZifyN.
Require Import Verif.Base Verif.CodecModel Verif.Spec Verif.BitLemmas Verif.ApiSpec Verif.DeriveModel Verif.DeriveSpec Verif.DeriveFacts
  Verif.X691 Verif.X691Spec Verif.X691Types Verif.X691TypesSpec Verif.X691TypesFacts
  Verif.Asn1Model Verif.GenModel Verif.ResolveModel Verif.TokenModel Verif.ParserModel Verif.ModuleModel Verif.DefinitionModel Verif.CompilerSpec Verif.GenProofs Verif.RustModel Verif.RustSpec Verif.RustProofs Verif.RustFacts Verif.ObjectFacts Verif.LinkSpec Verif.LinkProofs Verif.NumberProofs
  Verif.RelaySpec Verif.RelayProofs Verif.RelayCanonProofs.
Import Verif.Spec Verif.DeriveSpec Verif.X691Spec Verif.X691TypesFacts.
Import ListNotations.
Open Scope Z_scope.

(* ---- compiled types ---- *)
Lemma counting_sound n l : 0 <= n -> l = map Z.of_nat (seq 0 (Z.to_nat n)) -> NoDup l /\ Forall (fun i => 0 <= i < n) l.
Proof.
  intros Hn ->. split.
  - apply FinFun.Injective_map_NoDup; [intros a b; lia|apply seq_NoDup].
  - apply Forall_forall. intros i Hi. apply in_map_iff in Hi as (j & <- & Hj). apply in_seq in Hj. lia.
Qed.
Lemma width_small w s : In w [8; 16; 32; 64] -> small_int (mkIty s w).
Proof. unfold small_int. cbn. intuition lia. Qed.
Lemma sound_meaning prog n T : all_counted prog -> (forall n d, In (n, d) prog -> countable d) -> (forall n d, In (n, d) prog -> printable d) ->
  name_means prog n T -> number_keys T -> sound_ty T.
Proof.
  intros HC Hc Hp HN. assert (HX := numbered_meaning prog n T HC Hc HN). revert n T HN HX. apply (name_means_mut prog
    (fun d T => printable d -> x_numbered T -> number_keys T -> sound_ty T)
    (fun n T => x_numbered T -> number_keys T -> sound_ty T)
    (fun vs al => x_numbered_alts al -> number_keys_alts al -> sound_alts al)
    (fun fs l => x_numbered_fields l -> number_keys_fields l -> sound_fields l)); try (intros; exact I).
  - intros w s lb ub ext (Hw & _) _ _. now apply width_small.
  - intros ub ext cs _ _ _. apply width_small. cbn. auto.
  - intros lb ub ext vs al _ IH _ [_ HX] HK. exact (IH HX HK).
  - intros ext m fs l _ IH _ (H1 & H2 & HX) HK. cbn [sound_ty]. destruct (counting_sound _ _ H1 H2) as [H3 H4]. split; [exact H1|]. split; [exact H3|]. split; [exact H4|]. exact (IH HX HK).
  - intros sz t T _ IH _ HX HK. exact (IH HX HK).
  - intros t T _ IH _ HX HK. exact (IH HX HK).
  - intros vs al _ IH _ HX HK. exact (IH HX HK).
  - intros m d T Hin _ IH HX HK. exact (IH (Hp _ _ Hin) HX HK).
  - intros nm k x t T vs al _ IHt _ IHv [X1 X2] [K1 K2]. exact (conj (IHt X1 K1) (IHv X2 K2)).
  - intros nm i key t T fs l _ IHt _ IHf [X1 X2] [K1 K2]. exact (conj (IHt X1 K1) (IHf X2 K2)).
  - intros nm key t T fs l _ IHt _ IHf [X1 X2] (K0 & K1 & K2). exact (conj K0 (conj (IHt X1 K1) (IHf X2 K2))).
Qed.
Lemma C58_sound_proof num E depth fuel files orders prog : compile_files num E depth fuel files orders = Ok prog ->
  (forall n d, In (n, d) prog -> countable d /\ ~ In "Option"%string (used_types d)) ->
  forall n T, rust_means (map item_of prog) n T -> number_keys T -> sound_ty T.
Proof.
  intros H Ho n T HT. apply (C51_proof _ _ _ _ _ _ _ H Ho) in HT.
  destruct (compile_files_linked _ _ _ _ _ _ _ H) as (parsed & linked & _ & _ & Hc).
  eapply sound_meaning; [eapply compile_counted; exact Hc| | |exact HT].
  - intros n0 d Hin. now apply (Ho n0 d).
  - intros n0 d Hin. eapply compiled_printable; eassumption.
Qed.

(* ---- a message that is relayed ---- *)
Definition C58_octets : list Z := [80; 2; 1; 168; 1; 2; 3; 4; 2; 9; 8].
Lemma power_is l u k : 0 <= k <= 8 \/ k = 16 -> u - l + 1 = 2 ^ k -> power_range l u.
Proof. intros H1 H2. now exists k. Qed.
Lemma C58_case_proof E : flow_of C56_type C56_value false = Some false /\ sound_ty C56_type /\ tight E C56_type /\
  fst (dec E C56_type (from_slice C58_octets)) = Ok C56_value /\ moderate E C56_type C56_value /\ within E C56_type C56_value /\ x_brief C56_type C56_value.
Proof.
  assert (HS : sound_ty C56_type).
  { cbn. unfold small_int. cbn. repeat split; try lia; repeat constructor; cbn; intuition lia. }
  assert (HT : tight E C56_type).
  { cbn [tight tight_fields tight_alts C56_type]. unfold tight_int, tight_size, i128, lowest, highest, byte. cbn [opt0 signed width].
    split; [lia|]. split; [lia|]. split; [apply (power_is _ _ 1); lia|]. split; [intros [|[|n]] key t H; [discriminate|discriminate|destruct n; discriminate]|].
    split; [exact I|]. split; [|exact I]. split; [split; [lia|]; split; [lia|]; left; split; [reflexivity|]; split; [apply (power_is _ _ 8); lia|lia]|].
    split; [split; [split; [lia|]; split; [lia|]; left; split; [reflexivity|]; split; [apply (power_is _ _ 4); lia|lia]|split; [split; [intros _; split; [lia|]; split; [lia|apply (power_is _ _ 2); lia]|exact I]|exact I]]|].
    split; [split; [reflexivity|]; split; [lia|]; split; [lia|apply (power_is _ _ 0); lia]|]. split; [split; reflexivity|exact I]. }
  assert (HD : exists s', dec E C56_type (from_slice C58_octets) = (Ok C56_value, s')) by (destruct E as [[] []]; eexists; vm_compute; reflexivity).
  assert (HM : moderate E C56_type C56_value).
  { cbn [moderate moderate_fields moderate_alt C56_type C56_value]. split; [exact I|].
    split; [|split; [vm_compute; reflexivity|split; [vm_compute; reflexivity|exact I]]]. split; [|split; [vm_compute; reflexivity|repeat constructor]].
    intros key x t H. cbn [alt_at] in H. injection H as <- <- <-. unfold content_fits. destruct E as [[] []]; (eexists; split; [vm_compute; reflexivity|vm_compute; split; congruence]). }
  destruct HD as (s' & HD).
  split; [reflexivity|]. split; [exact HS|]. split; [exact HT|]. split; [now rewrite HD|]. split; [exact HM|].
  split; [exact (proj1 (decoded_within E) _ HS HT _ _ _ HD HM)|].
  cbn [x_brief x_brief_fields x_brief_alt C56_type C56_value]. split; [exact I|].
  split; [|split; [right; vm_compute; reflexivity|split; [right; vm_compute; reflexivity|exact I]]]. split.
  - intros key x t H c X. cbn [alt_at] in H. injection H as <- <- <-. inversion X as [| | | | | | | |lb ub ext t l a h e X1 X2 | |]; subst. inversion X1 as [a e0 _ X3|]; subst; [|discriminate].
    repeat match goal with H : x_elements _ _ _ _ |- _ => inversion H; clear H; subst | H : x_value TBool _ _ _ |- _ => inversion H; clear H; subst end.
    inversion X3 as [lb u n a e Hu X4|lb ub n a e Hu]; subst; [|discriminate]. apply constrained_short in X4; [|cbn; lia].
    rewrite zlen_app. change (zlen ([true] ++ [false] ++ [true] ++ [])) with 3. lia.
  - repeat constructor.
Qed.

(* ---- messages that are not ---- *)
Definition short := mkIty false 32.
Lemma C58_integer_proof E : let t := TInt (Some 0) (Some 2) false byte in
  fst (dec E t (from_slice [192])) = Ok (VI 3) /\ fst (enc E t (VI 3) new_data) = Err.
Proof. destruct E as [[] []]; vm_compute; auto. Qed.
Lemma C58_lowest_proof E : let t := TInt (Some 0) (Some 65536) false short in
  fst (dec E t (from_slice [0; 0])) = Ok (VI 0) /\ fst (enc E t (VI 0) new_data) = Err.
Proof. destruct E as [[] []]; vm_compute; auto. Qed.
Lemma C58_list_proof E : let t := TSeqOf (Some 1) (Some 3) false TBool in
  exists d, fst (dec E t (from_slice [252])) = Ok (VList [VB true; VB true; VB true; VB true]) /\
    enc E t (VList [VB true; VB true; VB true; VB true]) new_data = (Ok tt, d) /\ into_bytes d = [240] /\
    fst (dec E t (from_slice (into_bytes d))) = Ok (VList [VB true; VB true; VB false; VB false]).
Proof. intros t. exists (snd (enc E t (VList [VB true; VB true; VB true; VB true]) new_data)). destruct E as [[] []]; vm_compute; repeat split. Qed.
Definition six := ACons 0 false TBool (ACons 1 false TBool (ACons 2 false TBool
  (ACons 0 true TBool (ACons 1 true TBool (ACons 2 true TBool (ACons 3 true TBool ANil)))))).
Lemma C58_choice_proof E : let t := TChoice 0 2 true six in x_numbered t /\
  fst (dec E t (from_slice [112])) = Ok (VAlt 6 (VB true)) /\ fst (enc E t (VAlt 6 (VB true)) new_data) = Err.
Proof.
  intros t. split.
  - cbn. split; [|auto 10]. intros [|[|[|[|[|[|[|n]]]]]]] key u H; try discriminate; injection H as <- <-; repeat split.
  - destruct E as [[] []]; vm_compute; auto.
Qed.
Lemma C58_number_proof E : let t := TInt (Some 0) None false byte in
  exists d, fst (dec E t (from_slice [2; 0; 5])) = Ok (VI 5) /\ enc E t (VI 5) new_data = (Ok tt, d) /\ into_bytes d = [1; 5].
Proof. intros t. exists (snd (enc E t (VI 5) new_data)). destruct E as [[] []]; vm_compute; repeat split. Qed.
Lemma C58_additions_proof E : let t := TSeq true 0 (FMan false TBool FNil) in
  exists d, fst (dec E t (from_slice [192; 64; 1; 128])) = Ok (VSeq [Some (VB true)]) /\ enc E t (VSeq [Some (VB true)]) new_data = (Ok tt, d) /\ into_bytes d = [64].
Proof. intros t. exists (snd (enc E t (VSeq [Some (VB true)]) new_data)). destruct E as [[] []]; vm_compute; repeat split. Qed.
Lemma C58_enumerator_proof E : let t := TEnum (Some 0) (Some 3) true byte in
  exists d, fst (dec E t (from_slice [129])) = Ok (VI 1) /\ enc E t (VI 1) new_data = (Ok tt, d) /\ into_bytes d = [32].
Proof. intros t. exists (snd (enc E t (VI 1) new_data)). destruct E as [[] []]; vm_compute; repeat split. Qed.
