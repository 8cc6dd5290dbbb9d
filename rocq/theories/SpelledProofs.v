(* The names in a resolved schema are those written in the modules (C68). *)
From Coq Require Import ZArith NArith List Bool String Ascii Lia.
Require Import Verif.Base Verif.Asn1Model Verif.GenModel Verif.ResolveModel Verif.ModuleModel Verif.DefinitionModel Verif.CompilerSpec
  Verif.GenProofs Verif.ResolveProofs Verif.ModuleProofs Verif.RustCompileProofs Verif.RustModel Verif.RustSpec Verif.WordSpec Verif.LegalSpec Verif.LegalProofs.
Import ListNotations.
Open Scope list_scope.
Open Scope Z_scope.

Section Named.
Context (P : string -> Prop) (HPn : forall s, P s -> asn_name s).
Notation spelled := (spelled P).
Notation neat := (neat P).
Notation named := (named P).
Notation named_field := (named_field P).
Notation named_object := (named_object P).
Notation named_definition := (named_definition P).
Notation well_spelled := (well_spelled P).
Definition fields_spelled (o : robject) : Prop := Forall (fun kf => match snd kf with RFType (Some t) | RFValue t _ => spelled t | RFType None => True end) o.
Definition table_spelled (l : list (Z * string * robject)) : Prop := Forall (fun e => P (snd (fst e)) /\ fields_spelled (snd e)) l.
Definition def_spelled (d : rdef) : Prop :=
  match d with
  | DType t => spelled t
  | DObject o => fields_spelled o
  | DObjectSet s => Forall fields_spelled (os_elements s) /\ table_spelled (os_lookup s)
  | DValue _ => True
  end.
Lemma lookup_found {A} k (l : list (string * A)) v : lookup k l = Some v -> In (k, v) l.
Proof.
  induction l as [|[a b] l IH]; [discriminate|]. cbn [lookup]. destruct (String.eqb k a) eqn:He; [|intros H; right; now apply IH].
  apply String.eqb_eq in He. subst. intros H. injection H as <-. now left.
Qed.
Lemma all_forall {A} (R : A -> Prop) l : all R l <-> Forall R l.
Proof.
  induction l as [|x l IH]; cbn; split; intros H; auto.
  - destruct H. constructor; [assumption|now apply IH].
  - inversion_clear H. split; [assumption|now apply IH].
Qed.

Section Resolved.
Context (E : env) (defs : list (string * rdef)) (inst : string -> list actual_param -> res rtype).
Context (Hdefs : Forall (fun kd => P (fst kd) /\ def_spelled (snd kd)) defs).
Context (Hinst : forall r ps t, Forall (fun p => neat (param_string p)) ps -> inst r ps = Ok t -> spelled t).
Lemma found k d : lookup k defs = Some d -> P k /\ def_spelled d.
Proof. intros H. apply lookup_found in H. rewrite Forall_forall in Hdefs. exact (Hdefs _ H). Qed.
Lemma field_found f o x : lookup f o = Some x -> fields_spelled o -> match x with RFType (Some t) | RFValue t _ => spelled t | RFType None => True end.
Proof. intros H Ho. apply lookup_found in H. unfold fields_spelled in Ho. rewrite Forall_forall in Ho. exact (Ho _ H). Qed.
Lemma enum_named l : forall i, Forall (fun v => P (ev_name v)) l -> Forall (fun c : string * Z => P (fst c)) (enum_names i l).
Proof. induction l as [|v l IH]; intros i H; cbn [enum_names]; [constructor|]. inversion_clear H. constructor; [assumption|now apply IH]. Qed.
Lemma base_spelled b cs t : named (mkType (KBuiltin b) cs) -> resolve_base E defs b cs = Ok t -> spelled t.
Proof.
  intros Hn H. destruct b; cbn [resolve_base] in H; try discriminate H; rsteps; try exact Logic.I.
  unfold resolve_enumerated in H. rsteps. cbn [spelled]. destruct x; [apply enum_named; exact Hn|constructor].
Qed.
Definition entry_spelled (c : string * Z * rtype) : Prop := match c with (id, _, t) => P id /\ spelled t end.
Lemma einsert_spelled e l : entry_spelled e -> all entry_spelled l -> all entry_spelled (einsert e l).
Proof.
  intros He. induction l as [|x l IH]; cbn [einsert]; [now split|]. intros [Hx Hl]. destruct (entry_eqb _ _); [now split|]. destruct (entry_ltb _ _); repeat split; auto.
Qed.
Lemma open_spelled f s : table_spelled (os_lookup s) -> all entry_spelled (open_types f s).
Proof.
  unfold open_types. set (g := fun acc e => _).
  assert (Hg : forall l acc, table_spelled l -> all entry_spelled acc -> all entry_spelled (fold_left g l acc)).
  { induction l as [|[[z nm] o] l IH]; intros acc Hl Ha; cbn [fold_left]; [exact Ha|]. inversion_clear Hl as [|? ? [Hz Ho] Hl']. cbn [fst snd] in *. apply IH; [exact Hl'|].
    unfold g at 1. destruct (lookup f o) as [[[[]|]|]|] eqn:Hf; try exact Ha. apply einsert_spelled; [|exact Ha]. split; [exact Hz|exact (field_found f o _ Hf Ho)]. }
  intros H. apply Hg; [exact H|exact Logic.I].
Qed.
Lemma class_components_spelled comps r s l : Forall (fun c : string * asn_type => P (fst c)) comps -> P r -> def_spelled (DObjectSet s) ->
  class_components comps r s = Ok l -> spelled (RSequence false l).
Proof.
  intros Hc Hr [Hs1 Hs2] H. unfold class_components in H. destruct (os_elements s) as [|first els] eqn:He; [injection H as <-; exact Logic.I|].
  assert (Hfirst : fields_spelled first) by now inversion Hs1.
  cbn [spelled]. apply all_forall. eapply (rfold_ok (Forall _)); [|constructor|exact H].
  intros acc [id k] y Hin Hacc Hy. assert (Hid : P id) by (rewrite Forall_forall in Hc; exact (Hc _ Hin)).
  destruct k as [[| [ | |]| | | | |] cs]; try (injection Hy as <-; exact Hacc).
  destruct (lookup fieldref first) as [[ot|t v]|] eqn:Hl.
  - injection Hy as <-. apply Forall_app. split; [exact Hacc|]. constructor; [|constructor]. split; [exact Hid|]. split; [exact Hr|exact (open_spelled fieldref s Hs2)].
  - destruct cs as [[|c cs]|]; try discriminate. injection Hy as <-. apply Forall_app. split; [exact Hacc|]. constructor; [|constructor]. split; [exact Hid|]. exact (field_found _ _ _ Hl Hfirst).
  - injection Hy as <-. apply Forall_app. split; [exact Hacc|]. constructor; [|constructor]. split; [exact Hid|]. split; [exact Hr|exact (open_spelled fieldref s Hs2)].
Qed.
Lemma class_sequence_spelled comps ext t : Forall (fun c : string * asn_type => P (fst c)) comps -> resolve_class_sequence defs comps ext = Ok t -> spelled t.
Proof.
  intros Hc. unfold resolve_class_sequence. destruct comps as [|[id [k cs]] comps]; [discriminate|]. destruct cs as [[|c cs]|]; try discriminate.
  intros H. rsteps. destruct (lookup x defs) as [[| |s|]|] eqn:Hl; try discriminate. rsteps. destruct (found _ _ Hl) as [Hx Hs].
  exact (class_components_spelled _ _ _ _ Hc Hx Hs H1).
Qed.
Lemma type_spelled t : named t -> forall rt, resolve_type E defs inst t = Ok rt -> spelled rt.
Proof.
  revert t. apply (asn_ind' (fun t => named t -> forall rt, resolve_type E defs inst t = Ok rt -> spelled rt)).
  - intros b cs Hn rt H. exact (base_spelled b cs rt Hn H).
  - intros [r|c f|r ps] cs Hn rt H; cbn [resolve_type] in H; [|discriminate|exact (Hinst r ps rt Hn H)].
    destruct (lookup r defs) as [[t| | |]|] eqn:Hl; try discriminate. injection H as <-. exact (proj1 (found _ _ Hl)).
  - intros root adds cs IH1 IH2 [Hn1 Hn2] rt H. rewrite resolve_choice in H. rsteps.
    assert (Hc : forall l l', Forall (fun p : string * asn_type => named (snd p) -> forall rt, resolve_type E defs inst (snd p) = Ok rt -> spelled rt) l ->
      all (fun c : string * asn_type => match c with (id, t) => P id /\ named t end) l -> rmap (choice_component E defs inst) l = Ok l' ->
      all (fun c : string * rtype => match c with (id, t) => P id /\ spelled t end) l').
    { intros l l' HI. revert l'. induction HI as [|[id t] l HP _ IHl]; intros l' Hn Hm; [injection Hm as <-; exact Logic.I|].
      rewrite rmap_cons in Hm. rsteps. unfold choice_component in H. rsteps. destruct Hn as [[Hid Ht] Hn]. split; [split; [exact Hid|now apply HP]|now apply IHl]. }
    split; [exact (Hc _ _ IH1 Hn1 H0)|]. destruct adds as [gs|]; [|rsteps; exact Logic.I]. rsteps. specialize (IH2 gs eq_refl).
    match goal with Hm : rmap (rmap _) gs = Ok ?l |- _ => revert l Hm end.
    induction IH2 as [|g gs HP _ IHg]; intros l Hm; [injection Hm as <-; exact Logic.I|]. rewrite rmap_cons in Hm. rsteps. destruct Hn2 as [Hg Hn2].
    cbn [List.concat]. apply all_forall, Forall_app. split; apply all_forall; [eapply Hc; eassumption|now apply IHg].
  - intros root adds ext cs IH [Hn1 Hn2] rt H. rewrite resolve_sequence in H.
    destruct (rmap (sequence_component E defs inst) root) as [l| | |] eqn:Hl; try discriminate.
    + injection H as <-. cbn [spelled]. clear Hn2. revert l Hl Hn1. induction IH as [|[id t o d] root HP _ IHl]; intros l' Hm Hn; [injection Hm as <-; exact Logic.I|].
      rewrite rmap_cons in Hm. rsteps. unfold sequence_component in H. rsteps. destruct Hn as [[Hid Ht] Hn]. split; [split; [exact Hid|now apply HP]|now apply IHl].
    + eapply class_sequence_spelled; [|exact H]. apply Forall_map, Forall_app. split.
      * apply all_forall in Hn1. eapply Forall_impl; [|exact Hn1]. intros [id t o d] [Hid _]. exact Hid.
      * apply all_forall in Hn2. apply Forall_concat. eapply Forall_impl; [|exact Hn2]. intros g Hg. apply all_forall in Hg. eapply Forall_impl; [|exact Hg]. intros [id t o d] [Hid _]. exact Hid.
  - intros s t cs IH Hn rt H. cbn [resolve_type] in H. rsteps. cbn [spelled]. now apply IH.
  - discriminate.
  - discriminate.
Qed.
Lemma object_spelled fuel v o : named_object v -> resolve_object E defs inst fuel v = Ok o -> fields_spelled o.
Proof.
  destruct v as [fields|]; cbn [resolve_object]; [|discriminate]. intros Hn H. refine (rmap_forall _ named_field _ _ _ _ Hn H).
  intros [k f] y Hf Hy. destruct f as [[t|]|t [s|]]; rsteps; cbn; try exact Logic.I; match goal with Hr : resolve_type _ _ _ t = Ok _ |- _ => exact (type_spelled t Hf _ Hr) end.
Qed.
Lemma table_insert_spelled z nm o l : P nm -> fields_spelled o -> table_spelled l -> table_spelled (table_insert z nm o l).
Proof.
  intros Hz Ho. induction 1 as [|[[z' nm'] o'] l Hx Hl IH]; cbn [table_insert]; [constructor; [now split|constructor]|].
  destruct ((z =? z') && String.eqb nm nm'); constructor; try now split. all: assumption.
Qed.
Lemma table_add_spelled u o l l' : fields_spelled o -> table_spelled l -> table_add defs u o l = Ok l' -> table_spelled l'.
Proof.
  intros Ho Hl. unfold table_add. destruct u as [u|]; [|intros H; injection H as <-; exact Hl].
  destruct (lookup u o) as [[t|t [v|]]|]; try discriminate; [intros H; injection H as <-; exact Hl|].
  destruct v; try (intros H; injection H as <-; exact Hl).
  destruct (lookup s defs) as [[|v| |]|] eqn:Hs; try discriminate; try (intros H; injection H as <-; exact Hl).
  destruct (base_integer_value v) as [z|]; [|discriminate]. intros H. injection H as <-. apply table_insert_spelled; [exact (proj1 (found _ _ Hs))|exact Ho|exact Hl].
Qed.
Lemma object_set_spelled fuel u elems s : Forall (fun e => match e with OObject v => named_object v | _ => True end) elems ->
  resolve_object_set E defs inst fuel u elems = Ok s -> def_spelled (DObjectSet s).
Proof.
  intros Hn. unfold resolve_object_set. intros H. refine (rfold_ok (fun s => def_spelled (DObjectSet s)) _ _ _ _ _ _ H); [|split; constructor].
  intros acc e y Hin [Ha1 Ha2] Hy. rewrite Forall_forall in Hn. specialize (Hn e Hin). destruct e as [r|r|v].
  - destruct (lookup r defs) as [[| |s'|]|] eqn:Hl; try discriminate. injection Hy as <-. destruct (found _ _ Hl) as [_ [Hs1 Hs2]].
    split; cbn [os_elements os_lookup]; [apply Forall_app; now split|]. generalize dependent (os_lookup acc). generalize dependent (os_lookup s'). clear.
    induction l as [|[[z nm] o] l IH]; intros Hl acc Ha; cbn [fold_left]; [exact Ha|]. inversion_clear Hl as [|? ? [Hz Ho] Hl']. apply IH; [exact Hl'|]. now apply table_insert_spelled.
  - destruct (lookup r defs) as [[| | |o]|] eqn:Hl; try discriminate. rsteps. destruct (found _ _ Hl) as [_ Ho]. split; cbn [os_elements os_lookup].
    + apply Forall_app. split; [exact Ha1|]. constructor; [exact Ho|constructor].
    + eapply table_add_spelled; [exact Ho|exact Ha2|eassumption].
  - rsteps. pose proof (object_spelled _ _ _ Hn H0) as Ho. split; cbn [os_elements os_lookup].
    + apply Forall_app. split; [exact Ha1|]. constructor; [exact Ho|constructor].
    + eapply table_add_spelled; [exact Ho|exact Ha2|eassumption].
Qed.
End Resolved.

Section Modules.
Context (E : env) (depth fuel : nat).
Definition state_spelled (st : resolver) : Prop :=
  Forall (fun kd => P (fst kd) /\ def_spelled (snd kd)) (resolved_defs st) /\
  Forall (fun kd => forall actual t, Forall (fun p => neat (param_string p)) actual -> apply_params (snd kd) actual = Ok t -> named t) (parameterized_defs st).
Lemma instances_spelled st : state_spelled st -> forall n r ps t, Forall (fun p => neat (param_string p)) ps -> instantiate E n st r ps = Ok t -> spelled t.
Proof.
  intros [H1 H2]. induction n as [|n IH]; intros r ps t Hps H; cbn [instantiate] in H; [discriminate|].
  destruct (lookup r (parameterized_defs st)) as [d|] eqn:Hl; [|discriminate]. rsteps. apply lookup_found in Hl. rewrite Forall_forall in H2.
  eapply type_spelled; [exact H1|exact IH|exact (H2 _ Hl _ _ Hps H0)|exact H].
Qed.
Lemma definition_spelled st a d : state_spelled st -> named_definition (mkDef a None) -> resolve_definition E (instantiate E depth) fuel st a = Ok d -> def_spelled d.
Proof.
  intros Hs Hn H. pose proof (instances_spelled st Hs depth) as Hi. destruct Hs as [H1 _]. destruct a; cbn [resolve_definition] in H; try discriminate.
  - rsteps. exact Logic.I.
  - rsteps. cbn [def_spelled]. eapply type_spelled; [exact H1|exact Hi|exact Hn|eassumption].
  - rsteps. cbn [def_spelled]. eapply object_spelled; [exact H1|exact Hi|exact Hn|eassumption].
  - destruct (lookup class (classes st)); [|discriminate]. rsteps. eapply object_set_spelled; [exact H1|exact Hi|exact Hn|eassumption].
Qed.
Lemma in_replace {A} k (v : A) l x : In x (replace k v l) -> x = (k, v) \/ In x l.
Proof.
  induction l as [|[a b] l IH]; cbn [replace]; [intros [<-|[]]; now left|]. destruct (String.eqb k a).
  - intros [<-|H]; [now left|right; now right].
  - intros [<-|H]; [right; now left|]. destruct (IH H); [now left|right; now right].
Qed.
Lemma one_spelled m st k st' : (forall k d, In (k, d) (m_defs m) -> P k /\ named_definition d) -> state_spelled st ->
  resolve_one E (instantiate E depth) fuel m st k = Ok st' -> state_spelled st'.
Proof.
  intros Hm Hs H. unfold resolve_one in H. destruct (lookup k (m_defs m)) as [[a o]|] eqn:Hl; [|injection H as <-; exact Hs].
  apply lookup_found in Hl. destruct (Hm _ _ Hl) as [Hk Hd]. cbn [d_params d_kind] in H. destruct o as [p|].
  - injection H as <-. destruct Hs as [H1 H2]. split; [exact H1|]. cbn [parameterized_defs]. rewrite Forall_forall in *. intros x Hx. apply in_replace in Hx. destruct Hx as [->|Hx]; [exact Hd|now apply H2].
  - assert (Hadd : forall r, resolve_definition E (instantiate E depth) fuel st a = Ok r -> state_spelled (mkResolver (binsert k r (resolved_defs st)) (parameterized_defs st) (classes st))).
    { intros r Hr. pose proof (definition_spelled st a r Hs Hd Hr) as Hsp. destruct Hs as [H1 H2]. split; [|exact H2]. cbn [resolved_defs]. rewrite Forall_forall in *.
      intros x Hx. apply in_binsert in Hx. destruct Hx as [->|Hx]; [now split|now apply H1]. }
    destruct a; try (apply rbind_inv in H; destruct H as (r & Hr & H); injection H as <-; apply Hadd; exact Hr).
    injection H as <-. exact Hs.
Qed.
Lemma modules_spelled modules orders st : well_spelled modules -> resolve_modules E (instantiate E depth) fuel modules orders = Ok st -> state_spelled st.
Proof.
  intros Hw. unfold resolve_modules, resolve_in_order. intros H. rsteps. refine (rfold_ok state_spelled _ _ _ _ _ _ H).
  - intros acc [n o] y _ Ha Hy. cbn [fst snd] in Hy. destruct (lookup n modules) as [m|] eqn:Hl; [|discriminate]. apply lookup_found in Hl.
    unfold resolve_module in Hy. refine (rfold_ok state_spelled _ _ _ _ _ _ Hy); [|exact Ha]. intros acc' k y' _ Ha' Hy'. eapply one_spelled; [|exact Ha'|exact Hy'].
    intros k' d Hin. exact (Hw n m k' d Hl Hin).
  - split; constructor.
Qed.
Lemma compiled_all (Q : string -> Prop) modules orders prog : (forall s, loose_name s -> Q (to_type_ident s)) -> (forall s, P s -> Q (to_const_ident s)) -> (forall s, P s -> Q (to_value_ident s)) ->
  well_spelled modules -> compile E (instantiate E depth) fuel modules orders = Ok prog ->
  forall n d, In (n, d) prog -> Q n /\ Forall Q (item_names d).
Proof.
  intros HT HC HF Hw H. unfold compile in H. apply rbind_inv in H. destruct H as (st & Hst & Hg). destruct (modules_spelled _ _ _ Hw Hst) as [H1 _].
  refine (program_words P Q HPn HT HC HF E (resolved_types st) prog _ Hg). unfold resolved_types. apply Forall_flat_map. eapply Forall_impl; [|exact H1].
  intros [k []] [Hk Hd]; cbn [snd fst]; try apply Forall_nil. apply Forall_cons; [now split|apply Forall_nil].
Qed.
End Modules.
End Named.
Lemma compiled_words E depth fuel modules orders prog : well_spelled asn_name modules -> compile E (instantiate E depth) fuel modules orders = Ok prog ->
  forall n d, In (n, d) prog -> word n /\ Forall word (item_names d).
Proof.
  apply compiled_all; [tauto| | |].
  - intros s H. exact (proj1 (type_word s H)).
  - intros s H. exact (proj1 (const_word s (asn_loose s H))).
  - intros s H. exact (proj1 (value_word s (asn_loose s H))).
Qed.
(* what starts with a capital letter is no keyword but for Self *)
Lemma loose_no_keyword s : loose_name s -> In (to_type_ident s) rust_keywords -> to_type_ident s = "Self"%string.
Proof.
  intros H Hin. destruct (type_word s H) as (_ & c & r & He & Hc). destruct (keyword_no_capital _ Hin) as [Hk|(c' & r' & Hk & Hc' & _)]; [exact Hk|].
  rewrite He in Hk. injection Hk as <- <-. revert Hc Hc'. destruct c as [[] [] [] [] [] [] [] []]; vm_compute; congruence.
Qed.
Lemma compiled_no_keywords E depth fuel modules orders prog : well_spelled no_keyword modules -> compile E (instantiate E depth) fuel modules orders = Ok prog ->
  forall n d x, In (n, d) prog -> In x (n :: item_names d) -> word x /\ (In x rust_keywords -> x = "Self"%string).
Proof.
  intros Hw H n d x Hin Hx.
  assert (HX : (fun x => word x /\ (In x rust_keywords -> x = "Self"%string)) n /\ Forall (fun x => word x /\ (In x rust_keywords -> x = "Self"%string)) (item_names d)).
  { refine (compiled_all no_keyword _ E depth fuel _ modules orders prog _ _ _ Hw H n d Hin).
    - intros s [Hs _]. exact Hs.
    - intros s Hs. split; [exact (proj1 (type_word s Hs))|exact (loose_no_keyword s Hs)].
    - intros s [Hs _]. split; [exact (proj1 (const_word s (asn_loose s Hs)))|]. intros Hk. destruct (constant_no_keyword s Hs Hk).
    - intros s [Hs Hk]. split; [exact (proj1 (value_word s (asn_loose s Hs)))|]. intros Hk'. destruct (field_no_keyword s Hs Hk Hk'). }
  destruct HX as [H1 H2]. destruct Hx as [<-|Hx]; [exact H1|]. rewrite Forall_forall in H2. exact (H2 x Hx).
Qed.

(* a schema: an ENUMERATED, a nested CHOICE, a keyword, a list *)
Definition C68_modules : list (string * module) :=
  [("M", mkModule [] [
     ("Cause", mkDef (DKType (mkType (KBuiltin (BEnumerated [mkEnumValue "not-allowed" None; mkEnumValue "type" None] false [])) None)) None);
     ("S1AP-PDU", mkDef (DKType (mkType (KSequence [
        mkSeqComp "the-Cause" (mkType (KReference (RefName "Cause")) None) false None;
        mkSeqComp "type" (mkType (KChoice [("fooBar", mkType (KBuiltin BNull) None)] None) None) true None;
        mkSeqComp "list" (mkType (KSequenceOf None (mkType (KBuiltin BOctetString) None)) None) false None] [] false) None)) None)])]%string.
Lemma C68_case_proof : well_spelled asn_name C68_modules /\
  compile {| overflow_checks := true; little_endian := true |} (instantiate {| overflow_checks := true; little_endian := true |} 1) 2 C68_modules [("M", ["Cause"; "S1AP-PDU"])]%string =
  Ok [("Cause", GEnumerated 1 false [("NOT_ALLOWED", 0); ("TYPE", 1)]);
      ("S1AP_PDU", GSequence false (Some 1) [mkField "the_cause" None false "Cause"; mkField "typ" (Some 0) false "S1AP_PDUType"; mkField "list" None false "S1AP_PDUList"]);
      ("NULL_2", GNull); ("S1AP_PDUType", GChoice 0 0 false [mkVariant "FooBar" 0 false "NULL_2"]);
      ("OCTET_STRING_3", GOctetString None); ("S1AP_PDUList", GSequenceOf None "OCTET_STRING_3")]%string.
Proof.
  split; [|vm_compute; reflexivity].
  intros a m k d [Hm|[]] Hk. injection Hm as <- <-. cbn [m_defs In] in Hk.
  assert (Hid : forall c r, is_lower c = true -> Forall (fun c => is_alnum c = true \/ c = "-"%char) (chars (String c r)) -> asn_name (String c r)).
  { intros c r Hc Hr. left. unfold identifier. cbn [chars] in *. now split. }
  assert (Hty : forall c r, is_upper c = true -> Forall (fun c => is_alnum c = true \/ c = "-"%char) (chars (String c r)) -> asn_name (String c r)).
  { intros c r Hc Hr. right. unfold type_reference. cbn [chars] in *. now split. }
  destruct Hk as [Hk|[Hk|[]]]; injection Hk as <- <-; cbn [named_definition d_params d_kind named all ev_name].
  all: repeat match goal with
    | |- _ /\ _ => split
    | |- True => exact Logic.I
    | |- Forall _ [] => apply Forall_nil
    | |- Forall (fun v => asn_name _) (_ :: _) => apply Forall_cons; cbn [ev_name]
    | |- asn_name _ => first [apply Hid; [reflexivity|]|apply Hty; [reflexivity|]]; cbn [chars]
    | |- Forall _ (_ :: _) => apply Forall_cons; [first [left; reflexivity|right; reflexivity]|]
    end.
Qed.
Lemma C68_self_proof :
  identifier "self" /\ to_type_ident "self" = "Self"%string /\
  compile {| overflow_checks := true; little_endian := true |} (instantiate {| overflow_checks := true; little_endian := true |} 1) 1
    [("M", mkModule [] [("T", mkDef (DKType (mkType (KChoice [("self", mkType (KBuiltin BNull) None)] None) None)) None)])]%string [("M", ["T"])]%string =
  Ok [("T", GChoice 0 0 false [mkVariant "Self" 0 false "NULL_2"]); ("NULL_2", GNull)]%string.
Proof.
  split; [|split; vm_compute; reflexivity]. split; [reflexivity|]. cbn [chars]. repeat first [apply Forall_nil|apply Forall_cons; [left; reflexivity|]].
Qed.
Lemma C68_shadow_proof :
  compile {| overflow_checks := true; little_endian := true |} (instantiate {| overflow_checks := true; little_endian := true |} 1) 1
    [("M", mkModule [] [("String", mkDef (DKType (mkType (KBuiltin (BCharacterString "UTF8String")) None)) None)])]%string [("M", ["String"])]%string =
  Ok [("String", GCharString "UTF8String" None)]%string /\
  item_of ("String", GCharString "UTF8String" None)%string = Derived "String" [asn (of_type "UTF8String")] (RStruct (Unnamed [RPath "String" []])).
Proof. split; vm_compute; reflexivity. Qed.

(* names that are no keywords *)
Definition asn_charb (c : ascii) : bool := is_alnum c || Ascii.eqb c "-".
Definition no_keywordb (s : string) : bool :=
  match chars s with
  | [] => false
  | c :: r => (is_lower c || is_upper c) && forallb asn_charb (c :: r) && (String.eqb (bare s) "type" || negb (existsb (String.eqb (bare s)) rust_keywords))
  end.
Lemma no_keyword_ok s : no_keywordb s = true -> no_keyword s.
Proof.
  unfold no_keywordb, no_keyword, asn_name, identifier, type_reference. destruct (chars s) as [|c r]; [discriminate|]. intros H.
  apply andb_prop in H. destruct H as [H H3]. apply andb_prop in H. destruct H as [H1 H2].
  assert (Hc : Forall (fun c => is_alnum c = true \/ c = "-"%char) (c :: r)).
  { apply Forall_forall. intros x Hx. rewrite forallb_forall in H2. specialize (H2 x Hx). unfold asn_charb in H2. apply orb_prop in H2. destruct H2 as [H2|H2]; [now left|right; now apply Ascii.eqb_eq]. }
  split.
  - apply orb_prop in H1. destruct H1; [left|right]; now split.
  - apply orb_prop in H3. destruct H3 as [H3|H3]; [left; now apply String.eqb_eq|right]. intros Hin. apply negb_true_iff in H3.
    assert (Hx : existsb (String.eqb (bare s)) rust_keywords = true) by (apply existsb_exists; exists (bare s); split; [exact Hin|apply String.eqb_refl]). congruence.
Qed.
Ltac no_keywords := repeat match goal with
    | |- _ /\ _ => split
    | |- True => exact Logic.I
    | |- no_keyword _ => apply no_keyword_ok; vm_compute; reflexivity
    | |- Forall _ [] => apply Forall_nil
    | |- Forall (fun v => no_keyword _) (_ :: _) => apply Forall_cons; cbn [ev_name]
    end.
Lemma C68_no_keywords_case_proof : well_spelled no_keyword C68_modules.
Proof.
  intros a m k d [Hm|[]] Hk. injection Hm as <- <-. cbn [m_defs In] in Hk.
  destruct Hk as [Hk|[Hk|[]]]; injection Hk as <- <-; cbn [named_definition d_params d_kind named all ev_name]; no_keywords.
Qed.
(* a type whose name is put together *)
Definition C68_sel : list (string * module) :=
  [("M", mkModule [] [("Sel", mkDef (DKType (mkType (KChoice [("f", mkType (KChoice [("a", mkType (KBuiltin BNull) None)] None) None)] None) None)) None)])]%string.
Lemma C68_sel_proof : well_spelled no_keyword C68_sel /\
  compile {| overflow_checks := true; little_endian := true |} (instantiate {| overflow_checks := true; little_endian := true |} 1) 1 C68_sel [("M", ["Sel"])]%string =
  Ok [("Sel", GChoice 0 0 false [mkVariant "F" 0 false "Self"]); ("NULL_2", GNull); ("Self", GChoice 0 0 false [mkVariant "A" 0 false "NULL_2"])]%string /\
  In "Self"%string rust_keywords.
Proof.
  split; [|split; [vm_compute; reflexivity|vm_compute; tauto]].
  intros a m k d [Hm|[]] Hk. injection Hm as <- <-. cbn [m_defs In] in Hk. destruct Hk as [Hk|[]]; injection Hk as <- <-; cbn [named_definition d_params d_kind named all ev_name]; no_keywords.
Qed.
