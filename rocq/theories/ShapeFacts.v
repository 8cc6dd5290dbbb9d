(* The shape of the program for the modules of files, for ENUMERATED types,
   and examples. *)
From Coq Require Import ZArith NArith List Bool String Ascii Lia.
From Coq Require Import ZifyBool ZifyNat ZifyN.
Require Import Verif.Base Verif.DeriveModel Verif.Asn1Model Verif.GenModel Verif.ResolveModel Verif.TokenModel Verif.ParserModel Verif.ModuleModel Verif.DefinitionModel
  Verif.CompilerSpec Verif.GenProofs Verif.ObjectProofs Verif.ResolveProofs Verif.ModuleProofs Verif.CompilerFacts Verif.ParserFacts Verif.ObjectFacts Verif.LinkSpec Verif.LinkFacts
  Verif.OrderFacts Verif.ShapeSpec Verif.ShapeProofs.
Import ListNotations.
Open Scope string_scope.
Open Scope list_scope.
Open Scope Z_scope.

(* ------------------------------------------------------------------ *)
(* Files                                                               *)
(* ------------------------------------------------------------------ *)
Definition definition_names (nm : string * parsed_module) : list string := map fst (pm_defs (snd nm)).
Lemma link_spec num parsed : forall order classes modules, link num parsed classes order = Ok modules ->
  Forall2 (fun a nm => fst nm = a /\ exists pm, lookup a parsed = Some pm /\ map fst (m_defs (snd nm)) = map fst (pm_defs pm) /\
    forall k d t, In (k, d) (pm_defs pm) -> pd_kind d = PAType t -> pd_params d = None -> In (k, mkDef (DKType t) None) (m_defs (snd nm))) order modules.
Proof.
  induction order as [|a order IH]; intros classes modules H; cbn [link] in H; [injection H as <-; constructor|].
  destruct (lookup a parsed) as [pm|] eqn:Hl; [|discriminate]. cbv zeta in H.
  destruct (rmap _ (pm_defs pm)) as [defs| | |] eqn:Hd; try discriminate. cbn [rbind] in H.
  destruct (link num parsed _ order) as [rest| | |] eqn:Hr; try discriminate. injection H as <-. constructor; [|eapply IH; exact Hr].
  cbn [fst snd m_defs]. split; [reflexivity|]. exists pm. split; [exact Hl|]. apply ShapeProofs.rmap_forall in Hd. clear - Hd.
  induction Hd as [|[k p] [k' d'] l r Hh _ IH]; [split; [reflexivity|intros ? ? ? []]|]. cbn [snd fst] in Hh.
  destruct (resolve_object_class num _ p) as [d| | |] eqn:Hp; try discriminate. injection Hh as <- <-. destruct IH as [IH1 IH2].
  split; [cbn [map fst]; now f_equal|]. intros k0 d0 t [Heq|Hin] Hk Hn; [|right; eauto]. injection Heq as -> ->. left. f_equal.
  unfold resolve_object_class in Hp. rewrite Hk, Hn in Hp. cbn [rbind] in Hp. now injection Hp as <-.
Qed.
Lemma linked_names parsed order (modules : list (string * module)) : NoDup order -> NoDup (flat_map definition_names parsed) ->
  Forall2 (fun a nm => fst nm = a /\ exists pm, lookup a parsed = Some pm /\ map fst (m_defs (snd nm)) = map fst (pm_defs pm)) order modules ->
  NoDup (flat_map (fun nm : string * module => def_names (snd nm)) modules).
Proof.
  intros Hnd Hp H. induction H as [|a nm order modules (Ha & pm & Hl & Hn) HF IH]; [constructor|]. cbn [flat_map].
  inversion_clear Hnd as [|? ? Hni Hnd']. specialize (IH Hnd').
  assert (Hown : NoDup (def_names (snd nm))).
  { unfold def_names. rewrite Hn. apply lookup_in in Hl. exact (nodup_flat_part definition_names parsed (a, pm) Hp Hl). }
  assert (Hap : forall k, In k (def_names (snd nm)) -> ~ In k (flat_map (fun nm : string * module => def_names (snd nm)) modules)).
  { intros k Hk Hin. apply in_flat_map in Hin. destruct Hin as (nm' & Hm' & Hk').
    destruct (in_split _ _ Hm') as (l1 & l2 & Heq). subst modules. apply Forall2_app_inv_r in HF. destruct HF as (o1 & o2 & _ & HF & ->).
    inversion HF as [|a' ? o2' ? (Ha' & pm' & Hl' & Hn') _]; subst. apply Hni, in_app_iff. right. left.
    unfold def_names in Hk, Hk'. rewrite Hn in Hk. rewrite Hn' in Hk'. apply lookup_in in Hl. apply lookup_in in Hl'.
    pose proof (nodup_flat definition_names parsed (fst nm, pm) (fst nm', pm') k Hp Hl Hl' Hk Hk') as Heq. congruence. }
  clear - Hown Hap IH. induction (def_names (snd nm)) as [|k l IHl]; [exact IH|]. cbn [app]. inversion_clear Hown. constructor.
  - rewrite in_app_iff. intros [Hin|Hin]; [easy|]. eapply Hap; [now left|exact Hin].
  - apply IHl; [assumption|]. intros k' Hk'. apply Hap. now right.
Qed.
Theorem files_shape num E depth fuel files parsed orders prog :
  add_files num files = Ok parsed -> NoDup (map fst orders) -> NoDup (flat_map definition_names parsed) ->
  compile_files num E depth fuel files orders = Ok prog ->
  exists modules, link num parsed [] (map fst orders) = Ok modules /\
  forall a o pm k d t, In (a, o) orders -> lookup a parsed = Some pm -> In k o -> In (k, d) (pm_defs pm) -> pd_kind d = PAType t -> pd_params d = None ->
  exists g, In (to_type_ident k, g) prog /\ shaped modules prog k t g.
Proof.
  intros Hf Hnd Hp H. unfold compile_files in H. rewrite Hf in H. cbn [rbind] in H.
  destruct (resolve_imports (stubs parsed)) as [stub| | |]; try discriminate. cbn [rbind] in H.
  destruct (link num parsed [] (map fst orders)) as [modules| | |] eqn:Hl; try discriminate. cbn [rbind] in H. exists modules. split; [reflexivity|].
  pose proof (link_spec _ _ _ _ _ Hl) as HF.
  assert (HF' : Forall2 (fun a nm => fst nm = a /\ exists pm, lookup a parsed = Some pm /\ map fst (m_defs (snd nm)) = map fst (pm_defs pm)) (map fst orders) modules).
  { clear - HF. induction HF as [|a nm l r (H1 & pm & H2 & H3 & _) _ IH]; constructor; eauto. }
  assert (Hfst : map fst modules = map fst orders).
  { clear - HF'. revert HF'. generalize (map fst orders). intros l HF. induction HF as [|a nm l r [H1 _] _ IH]; [reflexivity|]. cbn [map]. congruence. }
  intros a o pm k d t Ho Hpm Hko Hkd Hk Hn.
  assert (Hm : exists m, In (a, m) modules /\ In (k, mkDef (DKType t) None) (m_defs m)).
  { assert (Ha : In a (map fst orders)) by (apply in_map_iff; now exists (a, o)). destruct (in_split _ _ Ha) as (l1 & l2 & Heq). rewrite Heq in HF.
    apply Forall2_app_inv_l in HF. destruct HF as (m1 & m2 & _ & HF & Hmods). inversion HF as [|? nm ? m2' (H1 & pm' & H2 & _ & H4) _]; subst.
    exists (snd nm). split; [apply in_app_iff; right; left; now destruct nm|]. rewrite Hpm in H2. injection H2 as <-. eauto. }
  destruct Hm as (m & Hm & Hd). eapply (compiled_shape E depth fuel modules orders prog); [rewrite Hfst; exact Hnd| |exact H|exact Ho|exact Hm|exact Hko|exact Hd].
  exact (linked_names parsed (map fst orders) modules Hnd Hp HF').
Qed.

(* ------------------------------------------------------------------ *)
(* ENUMERATED                                                          *)
(* ------------------------------------------------------------------ *)
Lemma constants_nth : forall l i j v, nth_error l j = Some v -> nth_error (constants i l) j = Some (to_const_ident (ev_name v), (i + Z.of_nat j) mod 256).
Proof.
  induction l as [|x l IH]; intros i [|j] v H; try discriminate.
  - injection H as ->. cbn [constants nth_error]. now rewrite Z.add_0_r.
  - cbn [nth_error] in H. cbn [constants nth_error]. rewrite (IH (i + 1) j v H). do 3 f_equal. lia.
Qed.
Theorem enumerated_shape E depth fuel modules orders prog :
  NoDup (map fst modules) -> NoDup (flat_map (fun nm : string * module => def_names (snd nm)) modules) ->
  compile E (instantiate E depth) fuel modules orders = Ok prog ->
  forall a o m k root marker ext cs, In (a, o) orders -> In (a, m) modules -> In k o ->
  In (k, mkDef (DKType (mkType (KBuiltin (BEnumerated root marker ext)) cs)) None) (m_defs m) ->
  root <> [] -> (List.length root <= 256)%nat -> (forall v n, In v root -> ev_value v <> Some (Number n)) ->
  exists consts, In (to_type_ident k, GEnumerated (zlen root - 1) marker consts) prog /\ name_means prog (to_type_ident k) (TEnum (Some 0) (Some (zlen root - 1)) marker (mkIty false 8)) /\
    forall j v, nth_error root j = Some v -> nth_error consts j = Some (to_const_ident (ev_name v), Z.of_nat j).
Proof.
  intros H1 H2 H a o m k root marker ext cs Ho Hm Hk Hd Hne Hlen Hnum.
  destruct (compiled_shape E depth fuel modules orders prog H1 H2 H a o m k _ Ho Hm Hk Hd) as (d & Hin & Hs).
  inversion Hs as [|? ? ? ? ? ub _ Hub|? ? ? ? ? ub Hx| | | | | | | | | | | | |]; subst.
  - assert (ub = zlen root - 1) as -> by (apply Hub; destruct root; [easy|]; unfold zlen; cbn [List.length] in *; lia).
    exists (constants 0 root). split; [exact Hin|]. split; [econstructor; [exact Hin|constructor]|].
    intros j v Hj. rewrite (constants_nth _ _ _ _ Hj). do 2 f_equal. assert (j < List.length root)%nat by (apply nth_error_Some; congruence).
    rewrite Z.mod_small; lia.
  - exfalso. apply Exists_exists in Hx. destruct Hx as (v & Hv & n & Hn). now apply (Hnum v n Hv).
Qed.

(* ------------------------------------------------------------------ *)
(* Examples                                                            *)
(* ------------------------------------------------------------------ *)
Definition C61_text : string := "
  Types DEFINITIONS AUTOMATIC TAGS ::= BEGIN
    Criticality ::= ENUMERATED { reject, ignore-it, ... }
    Number ::= INTEGER (0..255)
    id-flag Number ::= 1
    id-count Number ::= 2
    CLS ::= CLASS { &id Number UNIQUE, &criticality Criticality, &Value } WITH SYNTAX { ID &id CRITICALITY &criticality TYPE &Value }
    Field{CLS:Set} ::= SEQUENCE { id CLS.&id ({Set}), criticality CLS.&criticality ({Set}{@id}), value CLS.&Value ({Set}{@id}) }
    Flag ::= BOOLEAN
    Fields CLS ::= { {ID id-flag CRITICALITY reject TYPE Flag} | {ID id-count CRITICALITY ignore-it TYPE Number}, ... }
    Message ::= SEQUENCE { messageType CHOICE { first Flag, second-one NULL, ..., third Number },
                           type Number OPTIONAL, all-fields SEQUENCE (SIZE (0..3)) OF Field{{Fields}} OPTIONAL }
  END".
Definition C61_orders : list (string * list string) :=
  [("Types", ["Criticality"; "Flag"; "Number"; "Set"; "id-count"; "id-flag"; "CLS"; "Field"; "Fields"; "Message"])].
Definition C61_modules := Eval vm_compute in modules_of C61_text ["Types"].
Definition C61_program : list (string * gdef) :=
  [("Criticality", GEnumerated 1 true [("REJECT", 0); ("IGNORE_IT", 1)]);
   ("Flag", GBoolean);
   ("Message", GSequence false (Some 2)
      [mkField "message_type" None false "MessageMessageType"; mkField "typ" (Some 0) false "Number";
       mkField "all_fields" (Some 1) false "MessageAll_fields"]);
   ("Number", GInteger 8 false (Some 0) (Some 255) false);
   ("NULL_2", GNull);
   ("MessageMessageType", GChoice 0 1 true
      [mkVariant "First" 0 false "Flag"; mkVariant "Second_one" 1 false "NULL_2"; mkVariant "Third" 0 true "Number"]);
   ("MessageAll_fields_EntryValue", GOpen true [mkVariant "Id_count" 2 false "Number"; mkVariant "Id_flag" 1 false "Flag"]);
   ("MessageAll_fields_Entry", GSequence false None
      [mkField "id" None true "Number"; mkField "criticality" None false "Criticality"; mkField "value" None false "MessageAll_fields_EntryValue"]);
   ("MessageAll_fields", GSequenceOf (Some (false, Some 0, Some 3)) "MessageAll_fields_Entry")].
Lemma C61_case_proof : linked [C61_text] ["Types"] = Ok C61_modules /\ well_named C61_modules /\ valid_orders C61_modules C61_orders /\
  compile checked_env (instantiate checked_env 2) 11 C61_modules C61_orders = Ok C61_program.
Proof.
  split; [vm_compute; reflexivity|]. split; [apply well_namedb_ok; vm_compute; reflexivity|].
  split; [apply valid_ordersb_ok; vm_compute; reflexivity|]. vm_compute. reflexivity.
Qed.
(* The shape leaves no room: SEQUENCE { aa BOOLEAN, bb Foo OPTIONAL }. *)
Lemma C61_only_proof modules prog d : shaped modules prog "T" (mkType (KSequence
    [mkSeqComp "aa" (mkType (KBuiltin BBoolean) None) false None; mkSeqComp "bb" (mkType (KReference (RefName "Foo")) None) true None] [] false) None) d ->
  exists n, In (to_type_ident ("BOOLEAN " ++ decimal n), GBoolean) prog /\
    d = GSequence false (Some 1) [mkField "aa" None false (to_type_ident ("BOOLEAN " ++ decimal n)); mkField "bb" (Some 0) false "Foo"].
Proof.
  intros H. inversion H as [| | | | | | | | | |? ? ? ? ? fs Hc|? ? ? ? ? ? ? ? ? ? ? ? ? ? He|? ? ? ? ? ? ? ? ? ? ? ? ? He| | |]; subst; try (cbn in He; discriminate He).
  inversion Hc as [| |? ? ? ? ? n l fs' Ha Hr]; subst. inversion Hr as [|? ? ? ? ? n' l' fs'' Hb Hr'|]; subst. inversion Hr'; subst.
  inversion Hb as [| | |? ? ? Hcon]; subst; [|destruct Hcon]. inversion Ha as [| |? ? ? c d0 Hi Hd|? ? ? Hcon]; subst; [|destruct Hcon].
  exists c. inversion Hd; subst. split; [exact Hi|]. reflexivity.
Qed.
(* 257 items *)
Definition many_items : list enum_value := map (fun i => mkEnumValue ("i" ++ decimal (N.of_nat i)) None) (seq 0 257).
Definition many_modules : list (string * module) := [("M", mkModule [] [("T", mkDef (DKType (mkType (KBuiltin (BEnumerated many_items false [])) None)) None)])].
Lemma C61_many_proof : exists consts, compile checked_env (instantiate checked_env 1) 2 many_modules [("M", ["T"])] = Ok [("T", GEnumerated 256 false consts)] /\
  nth_error consts 0 = Some ("I0", 0) /\ nth_error consts 256 = Some ("I256", 0).
Proof. eexists. split; [vm_compute; reflexivity|]. split; vm_compute; reflexivity. Qed.
(* SEQUENCE { a NULL, ..., [[ b NULL ]] }: there is nowhere to put b *)
Definition added_modules : list (string * module) := Eval vm_compute in
  modules_of "M DEFINITIONS ::= BEGIN T ::= SEQUENCE { a NULL, ..., [[ b NULL ]] } C ::= ENUMERATED { p, ..., q } END" ["M"].
Lemma C61_added_proof : linked ["M DEFINITIONS ::= BEGIN T ::= SEQUENCE { a NULL, ..., [[ b NULL ]] } C ::= ENUMERATED { p, ..., q } END"] ["M"] = Ok added_modules /\
  compile checked_env (instantiate checked_env 1) 3 added_modules [("M", ["T"; "C"])] =
  Ok [("C", GEnumerated 0 true [("P", 0)]); ("T", GSequence true None [mkField "a" None false "NULL_2"]); ("NULL_2", GNull)].
Proof. split; vm_compute; reflexivity. Qed.
Lemma nodupb_ok : forall l : list string, (fix nd (l : list string) : bool := match l with [] => true | x :: r => negb (existsb (String.eqb x) r) && nd r end) l = true -> NoDup l.
Proof.
  induction l as [|x l IH]; intros H; constructor; apply andb_prop in H; destruct H as [H1 H2].
  - intros Hin. apply negb_true_iff in H1. enough (existsb (String.eqb x) l = true) by congruence. apply existsb_exists. exists x. split; [exact Hin|apply String.eqb_refl].
  - apply IH, H2.
Qed.
Definition C61_parsed : list (string * parsed_module) := Eval vm_compute in match add_files is_digit [chars_of_text C61_text] with Ok p => p | _ => [] end.
Lemma C61_files_case_proof : exists parsed, add_files is_digit [chars_of_text C61_text] = Ok parsed /\ NoDup (flat_map definition_names parsed) /\
  compile_files is_digit checked_env 2 11 [chars_of_text C61_text] C61_orders = Ok C61_program.
Proof.
  exists C61_parsed. split; [vm_compute; reflexivity|]. split; [apply nodupb_ok; vm_compute; reflexivity|]. vm_compute. reflexivity.
Qed.
