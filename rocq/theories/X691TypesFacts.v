(* The theorems on whole types put together with the compiler, and concrete
   cases. *)
From Coq Require Import ZArith NArith List Bool String Lia.
From Coq Require Import ZifyBool ZifyNat ZifyN.
Require Import Verif.Base Verif.CodecModel Verif.Spec Verif.BitLemmas Verif.ApiSpec Verif.DeriveModel Verif.DeriveSpec Verif.DeriveProofs Verif.DeriveFacts
  Verif.X691 Verif.X691Spec Verif.X691Types Verif.X691TypesSpec Verif.X691TypesProofs
  Verif.Asn1Model Verif.GenModel Verif.ResolveModel Verif.TokenModel Verif.ParserModel Verif.ModuleModel Verif.DefinitionModel Verif.ParserSpec Verif.DefinitionSpec
  Verif.CompilerSpec Verif.GenProofs Verif.RustModel Verif.RustSpec Verif.RustProofs Verif.RustFacts Verif.ObjectFacts Verif.LinkSpec Verif.LinkProofs Verif.LinkFacts Verif.NumberProofs.
Import Verif.Spec Verif.DeriveSpec.
Import ListNotations.
Open Scope Z_scope.

Lemma C56_encoder_proof E t v k k' : carries E k t v k' -> x_numbered t -> x_plain t v ->
  exists d, enc E t v new_data = (Ok tt, d) /\ x_value t v 0 (bits d) /\ (bits d <> [] -> x_octets_of t v (into_bytes d)).
Proof.
  intros HC HN HP. destruct (proj1 (x_encodes E) _ _ _ _ HC HN HP 0) as (e & W & X).
  specialize (W [] 0 None eq_refl). exists (mkD e 0 None). split; [exact W|]. cbn [bits]. split; [exact X|].
  intros He. exists e. split; [exact X|]. now apply pack_complete.
Qed.
Lemma C56_decoder_proof E t v k' s octets : x_known E None t v k' -> x_numbered t -> flow_of t v false = Some s ->
  x_octets_of t v octets -> zlen octets < 2 ^ 57 -> fst (dec E t (from_slice octets)) = Ok v.
Proof.
  intros HK HN HF (c & X & HB & Q) HL.
  destruct (proj1 (x_decodes E) _ _ _ _ HK HN _ _ HF 0 c [] X) as (c' & z' & H1 & H2 & _ & _).
  { now left. } { easy. }
  cbn [app] in H1.
  assert (exists rest, bytes_bits octets = c' ++ rest) as (rest & HR).
  { rewrite Q. destruct c as [|b c]; [destruct c'; [eexists; reflexivity|discriminate]|]. rewrite H1, <- app_assoc. eauto. }
  unfold from_slice. rewrite HR. specialize (H2 [] rest). cbn [app zlen] in H2. change (zlen []) with 0 in H2. rewrite Z.sub_0_r in H2.
  rewrite H2; [reflexivity|reflexivity|]. unfold fits. rewrite <- HR, zlen_bytes_bits. lia.
Qed.

Lemma compile_counted E inst fuel modules orders prog : compile E inst fuel modules orders = Ok prog -> all_counted prog.
Proof. unfold compile. intros H. destruct (resolve_modules E inst fuel modules orders); try discriminate. cbn [rbind] in H. eapply generated_counted. exact H. Qed.
Lemma C56_numbered_proof num E depth fuel files orders prog : compile_files num E depth fuel files orders = Ok prog ->
  (forall n d, In (n, d) prog -> countable d /\ ~ In "Option"%string (used_types d)) ->
  forall n T, rust_means (map item_of prog) n T -> x_numbered T.
Proof.
  intros H Ho n T HT. apply (C51_proof _ _ _ _ _ _ _ H Ho) in HT.
  destruct (compile_files_linked _ _ _ _ _ _ _ H) as (parsed & linked & _ & _ & Hc).
  eapply numbered_meaning; [eapply compile_counted; exact Hc| |exact HT]. intros n0 d Hin. now apply (Ho n0 d).
Qed.
Lemma C56_files_proof num E depth fuel files M n modules orders prog :
  numeric_characters num -> schema_denotes (fun z => num z = true) files modules ->
  (n <= depth)%nat -> well_named modules -> imports_defined modules ->
  (forall a m, In (a, m) modules -> module_means M modules n m) ->
  not_recursive M modules -> valid_orders modules orders -> map fst modules = map fst orders ->
  compile_files num E depth fuel files orders = Ok prog ->
  (forall n d, In (n, d) prog -> countable d /\ ~ In "Option"%string (used_types d)) -> NoDup (map fst prog) ->
  forall a m k T T', In (a, m) modules -> In k (def_names m) -> types M k = Some T ->
  rust_means (map item_of prog) (to_type_ident k) T' ->
  (forall v k', carries E None T v k' -> x_plain T v ->
     exists d, enc E T' v new_data = (Ok tt, d) /\ (bits d <> [] -> x_octets_of T v (into_bytes d))) /\
  (forall v k' s octets, x_known E None T v k' -> flow_of T v false = Some s -> x_octets_of T v octets -> zlen octets < 2 ^ 57 ->
     fst (dec E T' (from_slice octets)) = Ok v).
Proof.
  intros Hnum Hd Hn Hw Hi Hm Hr Ho Eo Hc Hp Hnd a m k T T' Ha Hk HT HT'.
  pose proof (C55_compiled_proof num E depth fuel files M n modules orders prog Hnum Hd Hn Hw Hi Hm Hr Ho Eo Hc Hp a m k T Ha Hk HT) as HT2.
  pose proof (C56_numbered_proof _ _ _ _ _ _ _ Hc Hp _ _ HT2) as HN.
  assert (T' = T) as ->.
  { apply (C51_proof _ _ _ _ _ _ _ Hc Hp) in HT', HT2. exact (means_unique prog _ _ _ Hnd HT' HT2). }
  split.
  - intros v k' HC HP. destruct (C56_encoder_proof _ _ _ _ _ HC HN HP) as (d & H1 & _ & H2). eauto.
  - intros v k' s octets HK HF HX HL. eapply C56_decoder_proof; eassumption.
Qed.

(* ------------------------------------------------------------------ *)
(* Concrete cases                                                      *)
(* ------------------------------------------------------------------ *)
Definition byte := mkIty false 8.
(* CHOICE { NULL, SEQUENCE { id INTEGER (0..255) -- key --, value OPEN { 1: INTEGER (0..15), 2: SEQUENCE (SIZE (1..4)) OF BOOLEAN },
   label OCTET STRING (SIZE (4)) OPTIONAL, more OCTET STRING, ... }, ... } *)
Definition C56_type : ty := TChoice 0 1 true (ACons 0 false TNull (ACons 1 false
  (TSeq true 1
   (FMan true (TInt (Some 0) (Some 255) false byte)
   (FMan false (TOpen (ACons 1 false (TInt (Some 0) (Some 15) false byte)
                      (ACons 2 false (TSeqOf (Some 1) (Some 4) false TBool) ANil)))
   (FOpt 0 (TOctets (Some 4) (Some 4) false)
   (FMan false (TOctets None None false) FNil))))) ANil)).
Definition C56_value : val := VAlt 1
  (VSeq [Some (VI 2); Some (VAlt 1 (VList [VB true; VB false; VB true])); Some (VOctStr [1; 2; 3; 4]); Some (VOctStr [9; 8])]).
Lemma C56_numbered_case : x_numbered C56_type.
Proof.
  cbn. split; [|repeat split; lia]. intros [|[|n]] key t H; [injection H as <- <-|injection H as <- <-|destruct n; discriminate]; repeat split.
Qed.
Ltac sane := unfold int_regular, x_regular, i128, str_regular, chars_regular, size_sane, size_within, in_usize in *; cbn; repeat split; try lia; auto.
Lemma constrained_short lb ub v a e : x_constrained lb ub v a e -> ub - lb + 1 <= 255 -> 0 <= zlen e <= 8.
Proof.
  intros H HW. split; [unfold zlen; lia|]. inversion H as [|lb' ub' v' a' w e' H1 H2 [H3 H4] [H5 H6]| | |]; subst; try lia; [cbn; lia|]. apply H4. lia.
Qed.
Lemma C56_case_proof E : (exists k', carries E None C56_type C56_value k') /\ x_numbered C56_type /\ x_plain C56_type C56_value /\
  (exists k', x_known E None C56_type C56_value k') /\ flow_of C56_type C56_value false = Some false /\
  x_octets_of C56_type C56_value [80; 2; 1; 168; 1; 2; 3; 4; 2; 9; 8].
Proof.
  assert (HC : exists k', carries E None C56_type C56_value k').
  { eexists. eapply K_choice; [reflexivity|unfold first_with_key; cbn; intuition lia|unfold int_encodable, i128; lia|].
    apply K_seq; [repeat constructor; cbn; intuition lia|repeat constructor; lia|lia|].
    eapply KF_key; [apply K_int; [unfold int_encodable, i128; lia|reflexivity]|].
    eapply KF_man; [eapply K_open; [reflexivity|unfold first_with_key; cbn; intuition lia| |vm_compute; reflexivity|vm_compute; split; [reflexivity|congruence]]|].
    { apply K_seqof; [discriminate| |repeat econstructor]. cbn. repeat split; cbn; try lia; vm_compute; congruence. }
    eapply KF_some; [apply K_octets; vm_compute; repeat split; try congruence; repeat constructor; congruence|].
    eapply KF_man; [apply K_octets; vm_compute; repeat split; try congruence; repeat constructor; congruence|]. constructor. }
  assert (HP : x_plain C56_type C56_value).
  { cbn [x_plain C56_type C56_value x_plain_fields x_plain_alt]. split; [sane|]. unfold str_regular, size_sane. repeat split; cbn; try lia; auto. }
  split; [exact HC|]. split; [exact C56_numbered_case|]. split; [exact HP|]. split; [|split; [vm_compute; reflexivity|]].
  - eexists. eapply N_choice; [sane|reflexivity|unfold first_with_key; cbn; intuition lia|]. apply N_seq.
    eapply NF_key; [unfold i128; lia|apply N_int; [sane|unfold x_readable, i128; lia|reflexivity]|].
    eapply NF_man; [eapply N_open; [reflexivity|unfold first_with_key; cbn; intuition lia| |]|].
    + intros c X. inversion X as [| | | | | | | |lb ub ext t l a h e X1 X2 | |]; subst. inversion X1 as [a e0 _ X3|]; subst; [|discriminate].
      repeat match goal with H : x_elements _ _ _ _ |- _ => inversion H; clear H; subst | H : x_value TBool _ _ _ |- _ => inversion H; clear H; subst end.
      inversion X3 as [lb u n a e Hu X4|lb ub n a e Hu]; subst; [|discriminate]. apply constrained_short in X4; [|cbn; lia].
      rewrite zlen_app. change (zlen ([true] ++ [false] ++ [true] ++ [])) with 3. lia.
    + apply N_seqof; [discriminate|sane|repeat econstructor].
    + eapply NF_some; [apply N_octets; [repeat constructor; lia|sane]|]. eapply NF_man; [apply N_octets; [repeat constructor; lia|sane]|]. constructor.
  - destruct HC as (k' & HC). destruct (C56_encoder_proof E _ _ _ _ HC C56_numbered_case HP) as (d & H1 & _ & H2).
    assert (d = mkD (bits d) 0 None) as Hd.
    { destruct (proj1 (x_encodes E) _ _ _ _ HC C56_numbered_case HP 0) as (e & W & _). specialize (W [] 0 None eq_refl). change (mkD [] 0 None) with new_data in W. rewrite H1 in W. injection W as ->. reflexivity. }
    vm_compute in H1. injection H1 as <-. apply H2. discriminate.
Qed.
(* The value of C55, from the files. *)
Lemma C56_message_case_proof : x_plain message_ty message_value /\ x_known checked_env None message_ty message_value (Some 2) /\
  x_octets_of message_ty message_value [16; 0; 1; 1; 128; 0; 2; 1; 112].
Proof.
  assert (HP : x_plain message_ty message_value).
  { cbn. unfold int_regular, i128, x_regular. repeat split; repeat constructor; cbn; unfold i128, x_regular; try lia. }
  assert (HN : x_numbered message_ty) by (cbn; repeat split; lia).
  split; [exact HP|]. split.
  - apply N_seq. apply NF_none. eapply NF_man; [|constructor]. apply N_seqof; [discriminate|sane|].
    eapply NL_cons; [|eapply NL_cons; [|constructor]].
    + apply N_seq. eapply NF_key; [unfold i128; lia|apply N_int; [sane|unfold x_readable, i128; lia|reflexivity]|].
      eapply NF_man; [|constructor]. eapply N_open; [reflexivity|unfold first_with_key; cbn; intuition lia| |constructor].
      intros c X. inversion X; subst. vm_compute. split; congruence.
    + apply N_seq. eapply NF_key; [unfold i128; lia|apply N_int; [sane|unfold x_readable, i128; lia|reflexivity]|].
      eapply NF_man; [|constructor]. eapply N_open; [reflexivity|unfold first_with_key; cbn; intuition lia| |apply N_int; [sane|unfold x_readable, i128; lia|reflexivity]].
      intros c X. inversion X as [| |lb ub ext i z a e X1| | | | | | | |]; subst. inversion X1 as [a e0 _ X3|]; subst; [|discriminate].
      inversion X3 as [l u v a e X4| |]; subst. pose proof (constrained_short _ _ _ _ _ X4 ltac:(lia)) as HS.
      destruct c; [|unfold zlen in *; cbn [List.length] in *; lia].
      exfalso. inversion X4 as [|lb' ub' v' a' w e' H1 H2 [[H3 H3'] H4] [H5 H6]|? ? ? ? ? ? ?|? ? ? ? ? ? ?|]; subst; try lia. cbn in H3'. lia.
  - destruct message_carried as [HC _]. destruct (C56_encoder_proof _ _ _ _ _ HC HN HP) as (d & H1 & _ & H2).
    vm_compute in H1. injection H1 as <-. apply H2. discriminate.
Qed.

(* Where the code and X.691 differ *)
Lemma C56_empty_proof E : exists d, enc E TNull VU new_data = (Ok tt, d) /\ into_bytes d = [] /\
  x_octets_of TNull VU [0] /\ ~ x_octets_of TNull VU [].
Proof.
  eexists. split; [reflexivity|]. split; [reflexivity|]. split.
  - exists []. split; [constructor|]. split; [repeat constructor; lia|reflexivity].
  - intros (c & X & _ & H). inversion X; subst. discriminate.
Qed.
Lemma C56_size_proof E : let t := TSeqOf (Some 1) (Some 4) true TBool in let v := VList [VB true] in
  exists d, enc E t v new_data = (Ok tt, d) /\ into_bytes d = [1] /\ x_octets_of t v [16] /\ ~ x_octets_of t v [1].
Proof.
  cbv zeta. eexists. split; [vm_compute; reflexivity|]. split; [vm_compute; reflexivity|]. split.
  - exists [false; false; false; true]. split.
    + apply (XV_sequence_of (Some 1) (Some 4) true TBool [VB true] 0 [false; false; false] [true]).
      * apply xr_marked; [reflexivity|]. apply xl_constrained; [lia|]. apply (xc_bit_field _ _ _ _ 2); [cbn; lia|cbn; lia| |].
        -- split; [cbn; lia|]. intros m [Hm Hm']. cbn in Hm'. destruct (Z.eq_dec m 0) as [->|]; [cbn in Hm'; lia|]. destruct (Z.eq_dec m 1) as [->|]; [cbn in Hm'; lia|]. lia.
        -- split; reflexivity.
      * apply (XE_cons _ _ _ _ [true] []); constructor.
    + split; [repeat constructor; lia|reflexivity].
  - intros (c & X & _ & H). inversion X as [| | | | | | | |lb ub ext t l a h e X1 X2 | |]; subst. inversion X1 as [|a e0 _ X3]; subst; [discriminate|].
    repeat match goal with H : x_elements _ _ _ _ |- _ => inversion H; clear H; subst | H : x_value TBool _ _ _ |- _ => inversion H; clear H; subst end.
    inversion X3 as [lb u n a e Hu X4|lb ub n a e Hu]; subst; [|discriminate].
    inversion X4 as [|lb' ub' v' a' w e' H1 H2 [H3 H4] [H5 H6]|? ? ? ? ? ? ?|? ? ? ? ? ? ?|]; subst; cbn in *; try lia.
    assert (zlen e0 <= 2) as HL by (apply H4; lia). destruct e0 as [|b0 [|b1 [|b2 e0]]]; unfold zlen in *; cbn [List.length] in *; try lia; try discriminate.
Qed.
Definition compiled (text : string) (names : list string) : res (list (string * gdef)) :=
  compile_files is_digit checked_env 2 11 [chars_of_text text] [("M"%string, names)].
Definition int_byte := TInt (Some 0) (Some 255) false byte.
Lemma means_by_name text names prog : compiled text names = Ok prog -> (forall n d, In (n, d) prog -> countable d /\ ~ In "Option"%string (used_types d)) ->
  forall n T, name_means prog n T -> rust_means (map item_of prog) n T.
Proof. intros H Ho n T. apply (C51_proof _ _ _ _ _ _ _ H Ho). Qed.
Ltac small_program := intros n d Hin; cbn [In] in Hin; repeat (destruct Hin as [Hin|Hin]; [injection Hin as <- <-|]); try destruct Hin;
  (split; [cbn; try lia; auto|apply not_in_dec; vm_compute; reflexivity]).

(* A UTF8String has no PER-visible SIZE (X.691 9.3.10) *)
Definition utf8_type : string := "M DEFINITIONS AUTOMATIC TAGS ::= BEGIN T ::= UTF8String (SIZE (3)) END".
Lemma C56_utf8_proof : let v := VOctStr [97; 98; 99] in
  exists prog t d, compiled utf8_type ["T"%string] = Ok prog /\ rust_means (map item_of prog) "T" t /\
    enc checked_env t v new_data = (Ok tt, d) /\ into_bytes d = [97; 98; 99] /\
    x_octets_of (TStr None None false) v [3; 97; 98; 99] /\ ~ x_octets_of (TStr None None false) v [97; 98; 99].
Proof.
  cbv zeta. assert (H : compiled utf8_type ["T"%string] = Ok [("T"%string, GCharString "UTF8String" (Some (false, Some 3, Some 3)))]) by (vm_compute; reflexivity).
  exists [("T"%string, GCharString "UTF8String" (Some (false, Some 3, Some 3)))], (TStr (Some 3) (Some 3) false). eexists.
  split; [exact H|]. split.
  { eapply (means_by_name _ _ _ H); [small_program|]. econstructor; [now left|]. apply (M_str _ "UTF8String" (Some (false, Some 3, Some 3))). reflexivity. }
  split; [vm_compute; reflexivity|]. split; [vm_compute; reflexivity|]. split.
  - eexists. split.
    + constructor. apply xr_plain; [reflexivity|]. apply xch_aligned; [discriminate|]. apply xt_unbounded; [reflexivity|].
      apply (xf_last bytes_bits [97; 98; 99] 0 [false; false; false; false; false; false; true; true]).
      apply (xl_short 3 0 [false; false; false; false; false; true; true]); [lia|]. split; reflexivity.
    + split; [repeat constructor; lia|reflexivity].
  - intros (c & X & _ & HB). inversion X as [| | | | | |lb ub ext l a e X1| | | |]; subst. inversion X1 as [a e0 _ X2|]; subst; [|discriminate].
    inversion X2 as [lb ub l a e X3 X4|]; subst. inversion X4 as [| | | |lb ub l a e _ X5]; subst.
    inversion X5 as [l a e X6|k l1 l2 a e1 e2 H1 H2 H3 H4]; subst.
    + inversion X6 as [n a e' H1 [H2 H3]|n a e' H1]; subst; [|unfold zlen in H1; cbn in H1; lia]. change (x_pad 0) with (@nil bool) in HB. cbn [app] in HB.
      apply (f_equal zlen) in HB. destruct e' as [|? [|? [|? [|? [|? [|? [|? [|? e']]]]]]]]; unfold zlen in H2; cbn [List.length] in H2; try lia. vm_compute in HB. discriminate.
    + assert (zlen (l1 ++ l2) = 3) as HL by (match goal with HH : l1 ++ l2 = _ |- _ => rewrite HH; reflexivity end). rewrite zlen_app in HL. unfold zlen in *. lia.
Qed.

(* A CHOICE of types with the tags of their own (X.691 22.2 and X.680 8.6):
   BOOLEAN, with the tag 1, comes before INTEGER, with the tag 2. *)
Definition pick (tags : string) : string :=
  ("M DEFINITIONS " ++ tags ++ " TAGS ::= BEGIN T ::= CHOICE { a INTEGER (0..255), b BOOLEAN } END")%string.
Definition universal_tag (t : ty) : Z :=
  match t with
  | TBool => 1 | TInt _ _ _ _ => 2 | TBits _ _ _ => 3 | TOctets _ _ _ => 4 | TNull => 5 | TOid => 6 | TEnum _ _ _ _ => 10 | _ => 16
  end.
Lemma C56_tags_proof : exists prog t0 t1 d,
  compiled (pick "EXPLICIT") ["T"%string] = Ok prog /\ rust_means (map item_of prog) "T" (TChoice 0 1 false (ACons 0 false t0 (ACons 1 false t1 ANil))) /\
  universal_tag t1 < universal_tag t0 /\
  enc checked_env (TChoice 0 1 false (ACons 0 false t0 (ACons 1 false t1 ANil))) (VAlt 1 (VB true)) new_data = (Ok tt, d) /\ into_bytes d = [192] /\
  x_octets_of (TChoice 0 1 false (ACons 0 false t1 (ACons 1 false t0 ANil))) (VAlt 0 (VB true)) [64].
Proof.
  set (prog := [("T"%string, GChoice 0 1 false [mkVariant "A" 0 false "INTEGER_2"; mkVariant "B" 1 false "BOOLEAN_3"]);
                ("INTEGER_2"%string, GInteger 8 false (Some 0) (Some 255) false); ("BOOLEAN_3"%string, GBoolean)]).
  assert (H : compiled (pick "EXPLICIT") ["T"%string] = Ok prog) by (vm_compute; reflexivity).
  exists prog, int_byte, TBool. eexists. split; [exact H|]. split.
  { eapply (means_by_name _ _ _ H); [unfold prog; small_program|]. econstructor; [now left|]. constructor.
    constructor; [econstructor; [right; left; reflexivity|constructor]|]. constructor; [econstructor; [right; right; left; reflexivity|constructor]|constructor]. }
  split; [cbn; lia|]. split; [vm_compute; reflexivity|]. split; [vm_compute; reflexivity|].
  exists [false; true]. split.
  - apply (XV_choice 0 1 false (ACons 0 false TBool (ACons 1 false int_byte ANil)) 0 TBool (VB true) 0 [false] [true]).
    + eexists. reflexivity.
    + apply xr_plain; [reflexivity|]. apply (xc_bit_field _ _ _ _ 1); [cbn; lia|cbn; lia| |split; reflexivity].
      split; [cbn; lia|]. intros m [Hm Hm']. cbn in Hm'. destruct (Z.eq_dec m 0) as [->|]; [cbn in Hm'; lia|]. lia.
    + constructor.
  - split; [repeat constructor; lia|reflexivity].
Qed.
