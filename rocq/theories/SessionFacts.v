(* The examples and counterexamples of C62. *)
From Coq Require Import ZArith NArith List Bool String Ascii Lia Permutation.
Require Import Verif.Base Verif.Spec Verif.Asn1Model Verif.GenModel Verif.ResolveModel Verif.TokenModel Verif.ParserModel Verif.ModuleModel
  Verif.DefinitionModel Verif.ParserSpec Verif.DefinitionSpec Verif.CompilerSpec Verif.TopoProofs Verif.ObjectProofs Verif.ModuleProofs Verif.ParserFacts Verif.ObjectFacts Verif.LinkSpec Verif.LinkProofs Verif.LinkFacts
  Verif.OrderSpec Verif.OrderProofs Verif.OrderFacts Verif.SessionModel Verif.SessionSpec Verif.SessionProofs Verif.SessionReplay.
Import ListNotations.
Open Scope string_scope.
Open Scope list_scope.

Definition parsed_of (texts : list string) : list (string * parsed_module) :=
  match add_files is_digit (map chars_of_text texts) with Ok p => p | _ => [] end.
Definition run (h : list call) : list answer := snd (history is_digit checked_env 2 11 h new_compiler).
Definition C62_texts : list string := ["
  Base DEFINITIONS AUTOMATIC TAGS ::= BEGIN
    Number ::= INTEGER (0..255)
    id-flag Number ::= 1
  END
"; "
  Classes DEFINITIONS AUTOMATIC TAGS ::= BEGIN
    IMPORTS Number FROM Base;
    CLS ::= CLASS { &id Number UNIQUE, &Value } WITH SYNTAX { ID &id TYPE &Value }
  END
"; "
  Frames DEFINITIONS AUTOMATIC TAGS ::= BEGIN
    IMPORTS CLS FROM Classes id-flag FROM Base;
    Flag ::= BOOLEAN
    Flags CLS ::= { {ID id-flag TYPE Flag}, ... }
    Frame ::= SEQUENCE { id CLS.&id ({Flags}), value CLS.&Value ({Flags}{@id}) }
    Frames ::= SEQUENCE (SIZE (1..4)) OF Frame
  END
"].
Definition C62_parsed := Eval vm_compute in parsed_of C62_texts.
Definition add (name : string) : call := match lookup name C62_parsed with Some m => Add m | None => Generate end.
Definition C62_orders : list (string * list string) :=
  [("Base", ["Number"; "id-flag"]); ("Classes", ["CLS"]); ("Frames", ["Flag"; "Number"; "Flags"; "Frame"; "Frames"])].
Definition C62_history : list call :=
  [add "Classes"; Resolve [("Classes", ["CLS"])];
   add "Base"; Resolve [("Base", ["Number"; "id-flag"]); ("Classes", ["CLS"])];
   add "Frames"; Resolve [("Frames", ["Flag"; "Flags"; "Frames"; "Frame"])]; add "Base"; Resolve C62_orders].
Definition C62_program := Eval vm_compute in
  match compile_files is_digit checked_env 2 11 (map chars_of_text C62_texts) C62_orders with Ok p => p | _ => [] end.
Definition C62_modules := Eval vm_compute in match link is_digit C62_parsed [] (map fst C62_orders) with Ok m => m | _ => [] end.
Definition small_setsb (modules : list (string * module)) : bool :=
  forallb (fun nm : string * module => forallb (fun kd : string * definition =>
    match d_kind (snd kd) with DKObjectSet _ r x => Nat.leb (List.length r) 1 && Nat.leb (List.length x) 1 | _ => true end) (m_defs (snd nm))) modules.
Lemma small_setsb_ok modules : small_setsb modules = true -> small_sets modules.
Proof.
  unfold small_setsb. intros H a m k d Hm Hk. rewrite forallb_forall in H. specialize (H _ Hm). cbn [snd] in H. rewrite forallb_forall in H. specialize (H _ Hk). cbn [snd] in H.
  unfold small_set. destruct (d_kind d); try exact Logic.I. apply andb_true_iff in H. destruct H as [H1 H2]. now split; apply Nat.leb_le.
Qed.
Definition all_resolvedb (modules : list (string * module)) (orders : list (string * list string)) : bool :=
  forallb (fun nm : string * module => forallb (fun k => existsb (fun no : string * list string => String.eqb (fst no) (fst nm) && mem k (snd no)) orders) (def_names (snd nm))) modules.
Lemma all_resolvedb_ok modules orders : all_resolvedb modules orders = true -> all_resolved modules orders.
Proof.
  unfold all_resolvedb. intros H a m k Hm Hk. rewrite forallb_forall in H. specialize (H _ Hm). cbn [snd fst] in H. rewrite forallb_forall in H. specialize (H _ Hk).
  apply existsb_exists in H. destruct H as ([a' o] & Ho & H). apply andb_true_iff in H. destruct H as [H1 H2]. cbn [fst snd] in *. apply String.eqb_eq in H1. subst a'.
  exists o. split; [exact Ho|]. now apply mem_in.
Qed.
Definition all_addedb (parsed : list (string * parsed_module)) (h : list call) : bool :=
  forallb (fun a => existsb (fun x => match x with Add m => String.eqb (pm_name m) a | _ => false end) h) (map fst parsed).
Lemma all_addedb_ok parsed h : all_addedb parsed h = true -> all_added parsed h.
Proof.
  unfold all_addedb. intros H a Ha. rewrite forallb_forall in H. specialize (H a Ha). apply existsb_exists in H. destruct H as ([m|o|] & Hin & H); try discriminate.
  exists m. split; [now apply String.eqb_eq|exact Hin].
Qed.
Lemma C62_case_proof : add_files is_digit (map chars_of_text C62_texts) = Ok C62_parsed /\ link is_digit C62_parsed [] (map fst C62_orders) = Ok C62_modules /\
  Permutation (map fst C62_parsed) (map fst C62_orders) /\ well_named C62_modules /\ items_apart C62_modules /\ settled 2 C62_modules /\ small_sets C62_modules /\
  valid_orders C62_modules C62_orders /\ all_resolved C62_modules C62_orders /\
  compile_files is_digit checked_env 2 11 (map chars_of_text C62_texts) C62_orders = Ok C62_program /\ (List.length C62_program >= 5)%nat /\
  Forall (early C62_parsed) C62_history /\ all_added C62_parsed C62_history /\
  run C62_history = [Added false; Resolved Err; Added false; Resolved (Ok tt); Added false; Resolved Err; Added true; Resolved (Ok tt)].
Proof.
  split; [vm_compute; reflexivity|]. split; [vm_compute; reflexivity|]. split; [reflexivity|]. split; [apply well_namedb_ok; vm_compute; reflexivity|].
  split; [apply items_apartb_ok; vm_compute; reflexivity|]. split; [apply settledb_ok; vm_compute; reflexivity|]. split; [apply small_setsb_ok; vm_compute; reflexivity|].
  split; [apply valid_ordersb_ok; vm_compute; reflexivity|]. split; [apply all_resolvedb_ok; vm_compute; reflexivity|]. split; [vm_compute; reflexivity|].
  split; [cbn [C62_program List.length]; lia|].
  split; [repeat constructor|]. split; [apply all_addedb_ok; vm_compute; reflexivity|vm_compute; reflexivity].
Qed.
Lemma C62_command_proof : add_files is_digit (map chars_of_text C62_texts) = Ok C62_parsed /\ Permutation (map fst C62_parsed) (map fst C62_orders) /\
  hampi_asn1c is_digit checked_env 2 11 (map chars_of_text C62_texts) C62_orders = Ok C62_program.
Proof. split; [vm_compute; reflexivity|]. split; [reflexivity|]. vm_compute; reflexivity. Qed.
(* the same modules, with two calls that come too early *)
Definition C62_retry : list call := [add "Classes"; Resolve C62_orders; add "Frames"; Resolve C62_orders; add "Base"].
Lemma C62_retry_proof : Forall (early C62_parsed) C62_retry /\ all_added C62_parsed C62_retry /\ only_incomplete C62_retry /\
  run (C62_retry ++ [Resolve C62_orders; Generate]) = [Added false; Resolved Err; Added false; Resolved Err; Added false; Resolved (Ok tt); Printed (Ok C62_program)].
Proof.
  split; [repeat constructor|]. split; [apply all_addedb_ok; vm_compute; reflexivity|]. split; [|vm_compute; reflexivity].
  - assert (G : forall l, In (add "Classes") l -> (forall m, In (Add m) l -> pm_name m <> "Base") -> incomplete l).
    { intros l Hin Hno. destruct (lookup "Classes" C62_parsed) as [m|] eqn:Hm; [|discriminate]. unfold add in Hin. rewrite Hm in Hin. exists m, ("Number", "Base").
      split; [exact Hin|]. split; [|exact Hno]. injection Hm as <-. now left. }
    intros x o y H. unfold C62_retry in H. destruct x as [|x1 [|x2 [|x3 [|x4 [|x5 x]]]]]; injection H; intros; subst; try discriminate; try (apply G; [now left|]).
    + intros m [Hm|[]]. injection Hm as <-. discriminate.
    + intros m [Hm|[Hm|[Hm|[]]]]; try discriminate; injection Hm as <-; discriminate.
    + destruct x; discriminate.
Qed.

(* ------------------------------------------------------------------ *)
(* Witnesses                                                           *)
(* ------------------------------------------------------------------ *)
Definition first_of (text : string) : call := match parsed_of [text] with (_, m) :: _ => Add m | [] => Generate end.
Definition two_text : string := "
  Frames DEFINITIONS AUTOMATIC TAGS ::= BEGIN
    Number ::= INTEGER (0..255)
    one Number ::= 1
    two Number ::= 2
    CLS ::= CLASS { &id Number UNIQUE, &count Number OPTIONAL, &Value } WITH SYNTAX { ID &id [COUNT &count] TYPE &Value }
    Flags CLS ::= { {ID one COUNT 2 TYPE Number} | {ID two TYPE Number}, ... }
    Frame ::= SEQUENCE { id CLS.&id ({Flags}), count CLS.&count ({Flags}{@id}), value CLS.&Value ({Flags}{@id}) }
  END
".
Definition two_orders := [("Frames", ["Number"; "one"; "two"; "CLS"; "Flags"; "Frame"])].
Definition frames_of (count : string) (l : list (string * gdef)) : list (string * gdef) :=
  [("Frame", GSequence false None [mkField "id" None true "Number"; mkField "count" None false count; mkField "value" None false "FrameValue"]);
   ("Number", GInteger 8 false (Some 0%Z) (Some 255%Z) false)] ++ l ++
  [("FrameValue", GOpen true [mkVariant "One" 1 false "Number"; mkVariant "Two" 2 false "Number"])].
Lemma C62_resolve_twice_proof : exists m orders, first_of two_text = Add m /\
  run [Add m; Resolve orders; Generate] = [Added false; Resolved (Ok tt); Printed (Ok (frames_of "FrameCount" [("FrameCount", GOpen true [])]))] /\
  run [Add m; Resolve orders; Resolve orders; Generate] = [Added false; Resolved (Ok tt); Resolved (Ok tt); Printed (Ok (frames_of "Number" []))].
Proof. eexists _, two_orders. split; [vm_compute; reflexivity|]. split; vm_compute; reflexivity. Qed.
Definition bad_text : string := "
  Frames DEFINITIONS AUTOMATIC TAGS ::= BEGIN
    Number ::= INTEGER (0..255)
    one Number ::= 1
    two Number ::= 2
    CLS ::= CLASS { &id Number UNIQUE, &Value } WITH SYNTAX { ID &id TYPE &Value }
    Flags CLS ::= { {ID one TYPE Number} | {ID two TYPE 7}, ... }
    Frame ::= SEQUENCE { id CLS.&id ({Flags}), value CLS.&Value ({Flags}{@id}) }
  END
".
Lemma C62_lost_objects_proof : exists m orders, first_of bad_text = Add m /\
  run [Add m; Resolve orders; Resolve orders; Generate] = [Added false; Resolved Err; Resolved (Ok tt); Printed (Ok
    [("Frame", GSequence false None [mkField "id" None true "Number"; mkField "value" None false "FrameValue"]);
     ("Number", GInteger 8 false (Some 0%Z) (Some 255%Z) false);
     ("FrameValue", GOpen true [mkVariant "One" 1 false "Number"])])].
Proof. eexists _, two_orders. split; [vm_compute; reflexivity|]. vm_compute; reflexivity. Qed.
Definition old_text : string := "M DEFINITIONS ::= BEGIN A ::= BOOLEAN B ::= NULL END".
Definition new_text : string := "M DEFINITIONS ::= BEGIN A ::= INTEGER (0..255) END".
Lemma C62_replaced_proof : exists m m', first_of old_text = Add m /\ first_of new_text = Add m' /\ pm_name m = pm_name m' /\
  run [Add m; Resolve [("M", ["A"; "B"])]; Add m'; Resolve [("M", ["A"])]; Generate] =
    [Added false; Resolved (Ok tt); Added true; Resolved (Ok tt); Printed (Ok [("A", GInteger 8 false (Some 0%Z) (Some 255%Z) false); ("B", GNull)])] /\
  run [Add m'; Resolve [("M", ["A"])]; Generate] =
    [Added false; Resolved (Ok tt); Printed (Ok [("A", GInteger 8 false (Some 0%Z) (Some 255%Z) false)])].
Proof. eexists _, _. split; [vm_compute; reflexivity|]. split; [vm_compute; reflexivity|]. split; [reflexivity|]. split; vm_compute; reflexivity. Qed.
Definition again_text : string := "M DEFINITIONS ::= BEGIN A ::= SEQUENCE { b BOOLEAN } END".
Lemma C62_generate_twice_proof : exists m p, first_of again_text = Add m /\
  p = [("A", GSequence false None [mkField "b" None false "BOOLEAN_2"]); ("BOOLEAN_2", GBoolean)] /\
  run [Add m; Resolve [("M", ["A"])]; Generate; Generate] = [Added false; Resolved (Ok tt); Printed (Ok p); Printed (Ok (p ++
    [("A", GSequence false None [mkField "b" None false "BOOLEAN_3"]); ("BOOLEAN_2", GBoolean); ("BOOLEAN_3", GBoolean)]))].
Proof. eexists _, _. split; [vm_compute; reflexivity|]. split; [reflexivity|]. vm_compute; reflexivity. Qed.
