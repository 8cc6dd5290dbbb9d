(* Types in the open types of compiled modules have names. *)
From Coq Require Import ZArith NArith List Bool String Ascii Lia.
Require Import Verif.Base Verif.Asn1Model Verif.GenModel Verif.ResolveModel Verif.ModuleModel Verif.DefinitionModel Verif.CompilerSpec
  Verif.GenProofs Verif.ResolveProofs Verif.ModuleProofs Verif.RustCompileProofs Verif.RustModel Verif.RustSpec Verif.WordSpec Verif.LegalSpec Verif.LegalProofs Verif.SpelledProofs Verif.OpenNameSpec Verif.OpenNameProofs Verif.NameProofs Verif.ObjectProofs Verif.OpenProofs Verif.CompilerFacts Verif.OrderFacts.
Import ListNotations.
Open Scope Z_scope.

Definition fields_plain (o : robject) : Prop :=
  Forall (fun f => match snd f with RFType (Some t) | RFValue t _ => plain_open_types t | RFType None => True end) o.
Definition def_plain (d : rdef) : Prop :=
  match d with
  | DType t => plain_open_types t
  | DObject o => fields_plain o
  | DObjectSet s => Forall fields_plain (os_elements s)
  | _ => True
  end.

Section Resolved.
Context (E : env) (defs : list (string * rdef)) (inst : string -> list actual_param -> res rtype).
Context (Hdefs : Forall (fun kd => def_plain (snd kd)) defs).
Context (Hinst : forall r ps t, inst r ps = Ok t -> plain_open_types t).
Lemma plain_found k d : lookup k defs = Some d -> def_plain d.
Proof. intros H. apply lookup_found in H. rewrite Forall_forall in Hdefs. exact (Hdefs _ H). Qed.
Lemma plain_field f o x : lookup f o = Some x -> fields_plain o -> match x with RFType (Some t) | RFValue t _ => plain_open_types t | RFType None => True end.
Proof. intros H Ho. apply lookup_found in H. unfold fields_plain in Ho. rewrite Forall_forall in Ho. exact (Ho _ H). Qed.
Lemma base_plain b cs t : resolve_base E defs b cs = Ok t -> plain_open_types t.
Proof.
  intros H. destruct b; cbn [resolve_base] in H; try discriminate H; rsteps; try exact Logic.I.
  unfold resolve_enumerated in H. rsteps. exact Logic.I.
Qed.
Lemma einsert_plain e l : written_out (snd e) = false -> Forall (fun c => written_out (snd c) = false) l -> Forall (fun c => written_out (snd c) = false) (einsert e l).
Proof.
  intros He. induction 1 as [|x l Hx Hl IH]; cbn [einsert]; [now repeat constructor|]. destruct (entry_eqb _ _); [now constructor|].
  destruct (entry_ltb _ _); repeat constructor; assumption.
Qed.
Lemma open_plain f s : Forall (fun c => written_out (snd c) = false) (open_types f s).
Proof.
  unfold open_types. set (g := fun acc e => _).
  assert (Hg : forall l acc, Forall (fun c => written_out (snd c) = false) acc -> Forall (fun c => written_out (snd c) = false) (fold_left g l acc)).
  { induction l as [|[[z nm] o] l IH]; intros acc Ha; cbn [fold_left]; [exact Ha|]. apply IH.
    unfold g at 1. destruct (lookup f o) as [[[[]|]|]|]; try exact Ha. now apply einsert_plain. }
  apply Hg. constructor.
Qed.
Lemma class_components_plain comps r s l : def_plain (DObjectSet s) -> class_components comps r s = Ok l -> plain_open_types (RSequence false l).
Proof.
  intros Hs H. unfold class_components in H. destruct (os_elements s) as [|first els] eqn:He; [injection H as <-; exact Logic.I|].
  assert (Hfirst : fields_plain first) by (unfold def_plain in Hs; rewrite He in Hs; now inversion Hs).
  cbn [plain_open_types]. apply all_forall. eapply (rfold_ok (Forall _)); [|constructor|exact H].
  intros acc [id k] y Hin Hacc Hy.
  destruct k as [[| [ | |]| | | | |] cs]; try (injection Hy as <-; exact Hacc).
  destruct (lookup fieldref first) as [[ot|t v]|] eqn:Hl.
  - injection Hy as <-. apply Forall_app. split; [exact Hacc|]. constructor; [|constructor]. exact (open_plain fieldref s).
  - destruct cs as [[|c cs]|]; try discriminate. injection Hy as <-. apply Forall_app. split; [exact Hacc|]. constructor; [|constructor]. exact (plain_field _ _ _ Hl Hfirst).
  - injection Hy as <-. apply Forall_app. split; [exact Hacc|]. constructor; [|constructor]. exact (open_plain fieldref s).
Qed.
Lemma class_sequence_plain comps ext t : resolve_class_sequence defs comps ext = Ok t -> plain_open_types t.
Proof.
  unfold resolve_class_sequence. destruct comps as [|[id [k cs]] comps]; [discriminate|]. destruct cs as [[|c cs]|]; try discriminate.
  intros H. rsteps. destruct (lookup x defs) as [[| |s|]|] eqn:Hl; try discriminate. rsteps.
  exact (class_components_plain _ _ _ _ (plain_found _ _ Hl) H1).
Qed.
Lemma type_plain t : forall rt, resolve_type E defs inst t = Ok rt -> plain_open_types rt.
Proof.
  revert t. apply (asn_ind' (fun t => forall rt, resolve_type E defs inst t = Ok rt -> plain_open_types rt)).
  - intros b cs rt H. exact (base_plain b cs rt H).
  - intros [r|c f|r ps] cs rt H; cbn [resolve_type] in H; [|discriminate|exact (Hinst r ps rt H)].
    destruct (lookup r defs) as [[t| | |]|]; try discriminate. injection H as <-. exact Logic.I.
  - intros root adds cs IH1 IH2 rt H. rewrite resolve_choice in H. rsteps.
    assert (Hc : forall l l', Forall (fun p : string * asn_type => forall rt, resolve_type E defs inst (snd p) = Ok rt -> plain_open_types rt) l ->
      rmap (choice_component E defs inst) l = Ok l' ->
      all (fun c : string * rtype => match c with (_, t) => plain_open_types t end) l').
    { intros l l' HI. revert l'. induction HI as [|[id t] l HP _ IHl]; intros l' Hm; [injection Hm as <-; exact Logic.I|].
      rewrite rmap_cons in Hm. rsteps. unfold choice_component in H. rsteps. split; [now apply HP|now apply IHl]. }
    split; [exact (Hc _ _ IH1 H0)|]. destruct adds as [gs|]; [|rsteps; exact Logic.I]. rsteps. specialize (IH2 gs eq_refl).
    match goal with Hm : rmap (rmap _) gs = Ok ?l |- _ => revert l Hm end.
    induction IH2 as [|g gs HP _ IHg]; intros l Hm; [injection Hm as <-; exact Logic.I|]. rewrite rmap_cons in Hm. rsteps.
    cbn [List.concat]. apply all_forall, Forall_app. split; apply all_forall; [eapply Hc; eassumption|now apply IHg].
  - intros root adds ext cs IH rt H. rewrite resolve_sequence in H.
    destruct (rmap (sequence_component E defs inst) root) as [l| | |] eqn:Hl; try discriminate.
    + injection H as <-. cbn [plain_open_types]. revert l Hl. induction IH as [|[id t o d] root HP _ IHl]; intros l' Hm; [injection Hm as <-; exact Logic.I|].
      rewrite rmap_cons in Hm. rsteps. unfold sequence_component in H. rsteps. split; [now apply HP|now apply IHl].
    + eapply class_sequence_plain. exact H.
  - intros s t cs IH rt H. cbn [resolve_type] in H. rsteps. cbn [plain_open_types]. now apply IH.
  - discriminate.
  - discriminate.
Qed.
Lemma object_plain fuel v o : resolve_object E defs inst fuel v = Ok o -> fields_plain o.
Proof.
  destruct v as [fields|]; cbn [resolve_object]; [|discriminate]. intros H.
  refine (rmap_forall _ (fun _ => True) _ _ _ _ _ H); [|apply Forall_forall; intros; exact Logic.I].
  intros [k f] y _ Hy. destruct f as [[t|]|t [s|]]; rsteps; cbn; try exact Logic.I; match goal with Hr : resolve_type _ _ _ t = Ok _ |- _ => exact (type_plain t _ Hr) end.
Qed.
Lemma object_set_plain fuel u elems s : resolve_object_set E defs inst fuel u elems = Ok s -> def_plain (DObjectSet s).
Proof.
  unfold resolve_object_set. intros H. refine (rfold_ok (fun s => def_plain (DObjectSet s)) _ _ _ _ _ _ H); [|constructor].
  intros acc e y Hin Ha Hy. destruct e as [r|r|v].
  - destruct (lookup r defs) as [[| |s'|]|] eqn:Hl; try discriminate. injection Hy as <-. pose proof (plain_found _ _ Hl) as Hs.
    cbn [def_plain os_elements]. apply Forall_app. now split.
  - destruct (lookup r defs) as [[| | |o]|] eqn:Hl; try discriminate. rsteps. pose proof (plain_found _ _ Hl) as Ho.
    cbn [def_plain os_elements]. apply Forall_app. split; [exact Ha|]. constructor; [exact Ho|constructor].
  - rsteps. pose proof (object_plain _ _ _ H0) as Ho. cbn [def_plain os_elements].
    apply Forall_app. split; [exact Ha|]. constructor; [exact Ho|constructor].
Qed.
End Resolved.

Section Modules.
Context (E : env) (depth fuel : nat).
Definition state_plain (st : resolver) : Prop := Forall (fun kd => def_plain (snd kd)) (resolved_defs st).
Lemma instances_plain st : state_plain st -> forall n r ps t, instantiate E n st r ps = Ok t -> plain_open_types t.
Proof.
  intros H1. induction n as [|n IH]; intros r ps t H; cbn [instantiate] in H; [discriminate|].
  destruct (lookup r (parameterized_defs st)) as [d|] eqn:Hl; [|discriminate]. rsteps.
  eapply type_plain; [exact H1|exact IH|exact H].
Qed.
Lemma definition_plain st a d : state_plain st -> resolve_definition E (instantiate E depth) fuel st a = Ok d -> def_plain d.
Proof.
  intros H1 H. pose proof (instances_plain st H1 depth) as Hi. destruct a; cbn [resolve_definition] in H; try discriminate.
  - rsteps. exact Logic.I.
  - rsteps. cbn [def_plain]. eapply type_plain; [exact H1|exact Hi|eassumption].
  - rsteps. cbn [def_plain]. eapply object_plain; [exact H1|exact Hi|eassumption].
  - destruct (lookup class (classes st)); [|discriminate]. rsteps. eapply object_set_plain; [exact H1|exact Hi|eassumption].
Qed.
Lemma one_plain m st k st' : state_plain st -> resolve_one E (instantiate E depth) fuel m st k = Ok st' -> state_plain st'.
Proof.
  intros Hs H. unfold resolve_one in H. destruct (lookup k (m_defs m)) as [[a o]|] eqn:Hl; [|injection H as <-; exact Hs].
  cbn [d_params d_kind] in H. destruct o as [p|]; [injection H as <-; exact Hs|].
  assert (Hadd : forall r, resolve_definition E (instantiate E depth) fuel st a = Ok r -> state_plain (mkResolver (binsert k r (resolved_defs st)) (parameterized_defs st) (classes st))).
  { intros r Hr. pose proof (definition_plain st a r Hs Hr) as Hsp. unfold state_plain in *. cbn [resolved_defs]. rewrite Forall_forall in *.
    intros x Hx. apply in_binsert in Hx. destruct Hx as [->|Hx]; [exact Hsp|now apply Hs]. }
  destruct a; try (apply rbind_inv in H; destruct H as (r & Hr & H); injection H as <-; apply Hadd; exact Hr).
  injection H as <-. exact Hs.
Qed.
Lemma modules_plain modules orders st : resolve_modules E (instantiate E depth) fuel modules orders = Ok st -> state_plain st.
Proof.
  unfold resolve_modules, resolve_in_order. intros H. rsteps. refine (rfold_ok state_plain _ _ _ _ _ _ H).
  - intros acc [n o] y _ Ha Hy. cbn [fst snd] in Hy. destruct (lookup n modules) as [m|] eqn:Hl; [|discriminate].
    unfold resolve_module in Hy. refine (rfold_ok state_plain _ _ _ _ _ _ Hy); [|exact Ha]. intros acc' k y' _ Ha' Hy'. eapply one_plain; [exact Ha'|exact Hy'].
  - constructor.
Qed.
Lemma compiled_apart modules orders prog st : resolve_modules E (instantiate E depth) fuel modules orders = Ok st ->
  compile E (instantiate E depth) fuel modules orders = Ok prog ->
  NoDup (map to_type_ident (names_written (resolved_types st))) -> Forall (fun n => numbered n -> False) (names_written (resolved_types st)) ->
  NoDup (map fst prog).
Proof.
  intros Hst H. unfold compile in H. rewrite Hst in H. cbn [rbind] in H. pose proof (modules_plain _ _ _ Hst) as H1.
  apply (program_names_distinct E _ _ H). unfold resolved_types. apply Forall_flat_map. eapply Forall_impl; [|exact H1].
  intros [k []] Hd; cbn [snd fst] in *; try apply Forall_nil. apply Forall_cons; [exact Hd|apply Forall_nil].
Qed.
End Modules.

(* The variants of an open type. *)
Lemma table_names_once defs unique s : table_of defs unique s -> NoDup (map (fun x => snd (fst x)) (os_lookup s)).
Proof.
  intros (H1 & H2 & _). revert H1 H2. generalize (os_lookup s) as l. induction l as [|[[z nm] o] l IH]; intros H1 H2; [constructor|].
  cbn [map fst snd] in *. inversion_clear H1 as [|? ? Hn Hl]. constructor; [|apply IH; [exact Hl|intros; apply H2; now right]].
  intros Hin. apply in_map_iff in Hin. destruct Hin as ([[z' nm'] o'] & Heq & Hin). cbn [fst snd] in Heq. subst nm'. apply Hn, in_map_iff.
  exists ((z', nm), o'). split; [|exact Hin]. cbn [fst]. f_equal.
  destruct (H2 z nm o (or_introl eq_refl)) as [_ (u & t & v & _ & _ & Hv & Hz)].
  destruct (H2 z' nm o' (or_intror Hin)) as [_ (u' & t' & v' & _ & _ & Hv' & Hz')]. congruence.
Qed.
Lemma open_names_once defs unique f s : table_of defs unique s -> NoDup (map (fun c => fst (fst c)) (open_types f s)).
Proof.
  intros H. pose proof (open_types_sorted f s (table_names_once _ _ _ H)) as Hs. induction Hs as [|x l _ IH Hx]; [constructor|].
  cbn [map]. constructor; [|exact IH]. intros Hin. apply in_map_iff in Hin. destruct Hin as (y & Heq & Hy).
  rewrite Forall_forall in Hx. specialize (Hx y Hy). unfold by_name in Hx. rewrite Heq in Hx. now rewrite string_ltb_irrefl in Hx.
Qed.
Lemma set_names E : forall l s vs s', set_tokens E l s = Ok (vs, s') -> map gv_name vs = map (fun c => to_type_ident (fst (fst c))) l.
Proof.
  induction l as [|[[nm k] t] l IH]; intros s vs s' H; [apply gret_ok in H; now destruct H as [-> _]|].
  rewrite set_tokens_cons in H. gsteps. cbn [map gv_name fst]. f_equal. eapply IH. eassumption.
Qed.
Lemma open_variants_apart E defs unique f s setref name st d st' : table_of defs unique s ->
  Forall identifier (map (fun c => fst (fst c)) (open_types f s)) ->
  generate_for_type E (RSet setref (open_types f s)) name st = Ok (d, st') ->
  exists vs, d = GOpen false vs /\ NoDup (map gv_name vs).
Proof.
  intros Ht Hi H. rewrite generate_set in H. gsteps. eexists. split; [reflexivity|].
  match goal with Hs : set_tokens _ _ _ = Ok _ |- _ => rewrite (set_names _ _ _ _ _ Hs) end.
  pose proof (open_names_once _ _ f _ Ht) as Hn. revert Hi Hn. generalize (open_types f s) as l. clear.
  induction l as [|x l IH]; intros Hi Hn; [constructor|]. cbn [map] in *. inversion_clear Hi as [|? ? Hx Hl]. inversion_clear Hn as [|? ? Hxn Hln].
  constructor; [|now apply IH]. intros Hin. apply in_map_iff in Hin. destruct Hin as (y & Heq & Hy). apply Hxn, in_map_iff. exists y. split; [|exact Hy].
  apply identifier_names_distinct; [|exact Hx|exact Heq]. rewrite Forall_forall in Hl. apply Hl, in_map_iff. now exists y.
Qed.

Require Import Verif.ObjectFacts.
(* A schema with classes and parameterized types (OrderFacts.C57_text). *)
Lemma C36_compiled_case_proof : exists st prog, resolve_modules checked_env (instantiate checked_env 2) 10 C57_modules C57_orders = Ok st /\
  compile checked_env (instantiate checked_env 2) 10 C57_modules C57_orders = Ok prog /\
  names_written (resolved_types st) = ["Criticality"; "Flag"; "Hour"; "Message"; "MessageField"; "MessageFieldValue"; "MessageMore"; "Number"; "Time"]%string /\
  NoDup (map to_type_ident (names_written (resolved_types st))) /\ Forall (fun n => numbered n -> False) (names_written (resolved_types st)).
Proof.
  do 2 eexists. split; [vm_compute; reflexivity|]. split; [vm_compute; reflexivity|].
  match goal with |- ?a = ?b /\ _ => assert (Hw : a = b) by (vm_compute; reflexivity) end.
  split; [exact Hw|]. rewrite Hw. split.
  - change (NoDup ["Criticality"; "Flag"; "Hour"; "Message"; "MessageField"; "MessageFieldValue"; "MessageMore"; "Number"; "Time"]%string).
    repeat (constructor; [intros Hin; cbn [In] in Hin; repeat (destruct Hin as [Hin|Hin]; [discriminate Hin|]); exact Hin|]). constructor.
  - repeat (constructor; [apply letter_not_numbered; vm_compute; reflexivity|]). constructor.
Qed.
Lemma C36_variants_case_proof E : table_of C49_defs (Some "&id"%string) C49_set /\
  Forall identifier (map (fun c => fst (fst c)) (open_types "&Type" C49_set)) /\
  exists st, generate_for_type E (RSet "Set" (open_types "&Type" C49_set)) "Value" new_generator =
    Ok (GOpen false [mkVariant "Id_one" 1 false "One"; mkVariant "Id_two" 2 false "Two"], st).
Proof.
  destruct (C49_case_proof E 1) as (H1 & H2 & _). split; [exact (proj1 (object_set_table _ _ _ _ _ _ _ H1 H2))|]. split.
  - change (Forall identifier ["id-one"; "id-two"]%string).
    repeat (apply Forall_cons; [split; [reflexivity|repeat (apply Forall_cons; [first [left; reflexivity|right; reflexivity]|]); apply Forall_nil]|]). apply Forall_nil.
  - eexists. reflexivity.
Qed.
