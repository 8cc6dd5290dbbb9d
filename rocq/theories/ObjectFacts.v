(* A schema with constants, a class, an object set and parameterized types, as
   a case for the theorems about compiled modules. *)
From Coq Require Import ZArith NArith List Bool String Ascii Lia Permutation.
From Coq Require Import ZifyBool ZifyNat ZifyN.
From Coq Require Sorted.
Require Import Verif.Base Verif.CodecModel Verif.Spec Verif.ApiSpec Verif.DeriveModel Verif.DeriveSpec Verif.Asn1Model Verif.GenModel Verif.ResolveModel Verif.TokenModel Verif.ParserModel Verif.ModuleModel
  Verif.DefinitionModel Verif.ParserSpec Verif.DefinitionSpec Verif.ParamSpec Verif.CompilerSpec Verif.ConstraintProofs Verif.TopoProofs
  Verif.ModuleProofs Verif.ParserFacts Verif.CompilerFacts.
Import ListNotations.
Open Scope string_scope.
Open Scope list_scope.

(* ------------------------------------------------------------------ *)
(* Checks by computation                                               *)
(* ------------------------------------------------------------------ *)
Lemma grounded_by_rank (rank : string -> nat) edges k : forallb (fun e => Nat.ltb (rank (fst e)) (rank (snd e))) edges = true -> grounded edges k.
Proof.
  intros H. apply acc_grounded. rewrite forallb_forall in H.
  assert (Hn : forall n k, (rank k < n)%nat -> Acc (needs edges) k).
  { induction n as [|n IH]; intros x Hx; [lia|]. constructor. intros y Hy. apply IH. specialize (H _ Hy). cbn [fst snd] in H. apply Nat.ltb_lt in H. lia. }
  apply (Hn (S (rank k))). lia.
Qed.
Fixpoint nodupb (l : list string) : bool := match l with [] => true | x :: r => negb (mem x r) && nodupb r end.
Lemma nodupb_ok l : nodupb l = true -> NoDup l.
Proof.
  induction l as [|x l IH]; [constructor|]. cbn. intros H. apply andb_true_iff in H. destruct H as [H1 H2]. constructor; [|now apply IH].
  apply negb_true_iff in H1. now apply mem_not_in.
Qed.
Lemma permutation_ok l l' : nodupb l && nodupb l' && forallb (fun x => mem x l') l && forallb (fun x => mem x l) l' = true -> Permutation l l'.
Proof.
  rewrite !andb_true_iff, !forallb_forall. intros [[[H1 H2] H3] H4]. apply NoDup_Permutation; [now apply nodupb_ok|now apply nodupb_ok|].
  intros x. split; intros H; [apply H3 in H|apply H4 in H]; now apply mem_in.
Qed.
Definition plainb (s : string) : bool := forallb (fun c => negb (is_space c) && negb (is_brace c)) (chars s).
Definition well_namedb (modules : list (string * module)) : bool :=
  nodupb (map fst modules) && nodupb (flat_map (fun nm => def_names (snd nm)) modules) &&
  forallb (fun nm => forallb (fun k => plainb k && match parse_i128 k with None => true | Some _ => false end) (def_names (snd nm))) modules.
Lemma well_namedb_ok modules : well_namedb modules = true -> well_named modules.
Proof.
  unfold well_namedb. rewrite !andb_true_iff. intros [[H1 H2] H3]. split; [now apply nodupb_ok|]. split; [now apply nodupb_ok|].
  rewrite forallb_forall in H3. apply Forall_forall. intros nm Hnm. specialize (H3 _ Hnm). rewrite forallb_forall in H3. apply Forall_forall.
  intros k Hk. specialize (H3 _ Hk). apply andb_true_iff in H3. destruct H3 as [H3 H4]. split; [|now destruct (parse_i128 k)].
  unfold plainb in H3. rewrite forallb_forall in H3. apply Forall_forall. intros c Hc. specialize (H3 _ Hc). apply andb_true_iff in H3.
  now rewrite !negb_true_iff in H3.
Qed.
Definition imports_definedb (modules : list (string * module)) : bool :=
  forallb (fun nm => forallb (fun i => match lookup (snd i) modules with Some m' => mem (fst i) (def_names m') | None => false end) (m_imports (snd nm))) modules.
Lemma imports_definedb_ok modules : imports_definedb modules = true -> imports_defined modules.
Proof.
  unfold imports_definedb. intros H n m r n' Hm Hr. rewrite forallb_forall in H. specialize (H _ Hm). cbn [snd] in H. rewrite forallb_forall in H.
  specialize (H _ Hr). cbn [fst snd] in H. destruct (lookup n' modules) as [m'|] eqn:Hl; [|discriminate]. exists m'. split; [|now apply mem_in].
  now apply ObjectProofs.lookup_in.
Qed.

(* ------------------------------------------------------------------ *)
(* The texts                                                           *)
(* ------------------------------------------------------------------ *)
Definition chars_of_text (s : string) : list Z := map (fun c => Z.of_nat (nat_of_ascii c)) (list_ascii_of_string s).
Definition message_texts : list string := ["
  Constants DEFINITIONS AUTOMATIC TAGS ::= BEGIN
    ID ::= INTEGER (0..65535)
    id-one ID ::= 1
    id-two ID ::= 2
  END
"; "
  Containers DEFINITIONS AUTOMATIC TAGS ::= BEGIN
    IMPORTS ID FROM Constants;
    IES ::= CLASS { &id ID UNIQUE, &Value } WITH SYNTAX { ID &id TYPE &Value }
    Container{IES:Set} ::= SEQUENCE (SIZE (1..8)) OF Field{{Set}}
    Field{IES:Set} ::= SEQUENCE { id IES.&id ({Set}), value IES.&Value ({Set}{@id}) }
  END
"; "
  Contents DEFINITIONS AUTOMATIC TAGS ::= BEGIN
    IMPORTS id-one, id-two FROM Constants IES, Container FROM Containers;
    One ::= BOOLEAN
    Two ::= INTEGER (0..15)
    MessageIEs IES ::= { {ID id-one TYPE One} | {ID id-two TYPE Two}, ... }
    Message ::= SEQUENCE { flag BOOLEAN OPTIONAL, list Container{{MessageIEs}} }
  END
"].
Definition message_orders : list (string * list string) :=
  [("Constants", ["ID"; "id-one"; "id-two"]); ("Containers", ["IES"; "Set"; "Field"; "Container"]);
   ("Contents", ["One"; "Two"; "ID"; "MessageIEs"; "Message"])].
Definition named (r : string) : asn_type := mkType (KReference (RefName r)) (Some []).
Definition range (u : string) : asn_type := mkType (KBuiltin BInteger) (Some [CSubtype (mkSet [[ERange "0" true u true]] None)]).
Definition message_constants : module := mkModule []
  [("ID", mkDef (DKType (range "65535")) None);
   ("id-one", mkDef (DKValue (named "ID") "1") None);
   ("id-two", mkDef (DKValue (named "ID") "2") None)].
Definition message_class : list (string * class_field) := [("&id", CFValue (named "ID") true); ("&Value", CFType)].
Definition container_words (s : string) : list tok :=
  [K "SEQUENCE"; L_PAREN; K "SIZE"; L_PAREN; N "1"; DOTDOT; N "8"; R_PAREN; R_PAREN; K "OF"; I "Field"; L_BRACE; L_BRACE; I s; R_BRACE; R_BRACE].
Definition container_type (s : string) : asn_type :=
  mkType (KSequenceOf (Some (CSubtype (mkSet [[ESize (mkSet [[ERange "1" true "8" true]] None)]] None)))
    (mkType (KReference (RefParam "Field" [PSet s])) (Some []))) (Some []).
Definition field_words (s : string) : list tok :=
  [K "SEQUENCE"; L_BRACE; I "id"; I "IES"; DOT; F "&id"; L_PAREN; L_BRACE; I s; R_BRACE; R_PAREN; COMMA;
   I "value"; I "IES"; DOT; F "&Value"; L_PAREN; L_BRACE; I s; R_BRACE; L_BRACE; mkTok AtComponentIdList "@id"; R_BRACE; R_PAREN; R_BRACE].
Definition field_type (s : string) : asn_type :=
  mkType (KSequence
    [mkSeqComp "id" (mkType (KReference (RefClassField "IES" "&id")) (Some [CSubtype (mkSet [[ESingle ("{ " ++ s ++ " }")]] None)])) false None;
     mkSeqComp "value" (mkType (KReference (RefClassField "IES" "&Value")) (Some [CTable (TableRelation s "@id")])) false None] [] false) (Some []).
Definition message_containers : module := mkModule [("ID", "Constants")]
  [("IES", mkDef (DKClass message_class) None);
   ("Container", mkDef (DKType (container_type "Set")) (Some (["Set"], container_words "Set")));
   ("Field", mkDef (DKType (field_type "Set")) (Some (["Set"], field_words "Set")))].
Definition message_object (id t : string) : list (string * object_field) :=
  [("&id", OFValue (named "ID") (Some id)); ("&Value", OFType (Some (named t)))].
Definition message_type : asn_type :=
  mkType (KSequence
    [mkSeqComp "flag" (mkType (KBuiltin BBoolean) (Some [])) true None;
     mkSeqComp "list" (mkType (KReference (RefParam "Container" [PSet "MessageIEs"])) (Some [])) false None] [] false) (Some []).
Definition message_contents : module := mkModule [("id-one", "Constants"); ("id-two", "Constants"); ("IES", "Containers"); ("Container", "Containers")]
  [("One", mkDef (DKType (mkType (KBuiltin BBoolean) (Some []))) None);
   ("Two", mkDef (DKType (range "15")) None);
   ("MessageIEs", mkDef (DKObjectSet "IES" [OObject (Some (message_object "id-two" "Two")); OObject (Some (message_object "id-one" "One"))] []) None);
   ("Message", mkDef (DKType message_type) None)].
Definition message_modules : list (string * module) :=
  [("Constants", message_constants); ("Containers", message_containers); ("Contents", message_contents)].
Lemma message_read : (parsed <-- add_files is_digit (map chars_of_text message_texts) ;; link is_digit parsed [] (map fst message_orders)) = Ok message_modules.
Proof. vm_compute. reflexivity. Qed.

(* ------------------------------------------------------------------ *)
(* What they mean                                                      *)
(* ------------------------------------------------------------------ *)
Definition id_ty := TInt (Some 0%Z) (Some 65535%Z) false (mkIty false 16).
Definition two_ty := TInt (Some 0%Z) (Some 15%Z) false (mkIty false 8).
Definition message_open := TOpen (ACons 1 false TBool (ACons 2 false two_ty ANil)).
Definition field_ty := TSeq false 0 (FMan true id_ty (FMan false message_open FNil)).
Definition message_ty := TSeq false 1 (FOpt 0 TBool (FMan false (TSeqOf (Some 1%Z) (Some 8%Z) false field_ty) FNil)).
Definition object_one : object_meaning := [("&id", FieldValue id_ty (Some ("id-one", 1%Z))); ("&Value", FieldType (Some TBool))].
Definition object_two : object_meaning := [("&id", FieldValue id_ty (Some ("id-two", 2%Z))); ("&Value", FieldType (Some two_ty))].
Definition message_set : set_meaning := mkSetMeaning "&id" [object_two; object_one].
Definition find {A} (l : list (string * A)) (s : string) : option A := lookup s l.
Definition message_meaning : meaning := mkMeaning
  (fun _ => None)
  (find [("id-one", 1%Z); ("id-two", 2%Z)])
  (find [("ID", id_ty); ("One", TBool); ("Two", two_ty); ("Message", message_ty)])
  (find [("MessageIEs", message_set)])
  (fun _ => None)
  (fun s => mem s ["IES"; "Container"; "Field"]).

Lemma container_syntax s : type_name s -> type_syntax (container_words s) (container_type s).
Proof.
  intros Hs. eapply same_words; [apply TS_sized_list; [apply size_constraint; apply (range_set (N "1") (N "8")); simple|]| |].
  - eapply TS_type; [|apply rep_nil]. apply KS_reference. eapply (RS_params [I "Field"]); [apply NmS_plain; tname|].
    apply sep_one. apply (PaS_set (I s)). now left.
  - reflexivity.
  - reflexivity.
Qed.
Lemma field_syntax s : type_name s -> type_syntax (field_words s) (field_type s).
Proof.
  intros Hs. eapply same_words; [eapply TS_type; [eapply KS_sequence|apply rep_nil]| |].
  - next.
    { apply SIS_component. eapply (SC "id"); [vname|eapply TS_type; [apply KS_reference; apply (RS_field "IES" "&id"); [cname|]|]|apply PS_mandatory].
      - cbn. unfold small, capital. lia.
      - apply one. apply CS_set. eapply SS_closed. apply sep_one. apply sep_one. apply El_value. apply (VS_braces [I s]).
        apply nest_tok; [cbn; intuition discriminate|apply nest_nil]. }
    apply sep_one. apply SIS_component. eapply (SC "value"); [vname|eapply TS_type; [apply KS_reference; apply (RS_field "IES" "&Value"); [cname|]|]|apply PS_mandatory].
    + cbn. unfold small, capital. lia.
    + apply one. apply CS_table. exact Hs.
  - exact (SI_closed [_; _]).
  - cbn. reflexivity.
  - reflexivity.
Qed.
Lemma one_in_sequence s : s <> "Set" -> in_sequence ["Set"] [PSet s].
Proof. intros Hs [|i] [|[|j]] f a Hij Hf Ha; cbn in Hf, Ha; try discriminate; lia. Qed.
Lemma range_means V Vs ts ss is u z : parse_i128 u = Some z -> (0 <= z < 2 ^ 127 - 1)%Z ->
  asn_means V Vs ts ss is (range u) (TInt (Some 0%Z) (Some z) false (mkIty false (chosen_width 0 z))).
Proof.
  intros Hu Hz. refine (A_integer_range _ _ _ _ _ (mkSet [[ERange "0" true u true]] None) 0 z _ _ _); [|lia|lia].
  apply single_range; [reflexivity| |lia|lia]. unfold value_of. now rewrite Hu.
Qed.
Lemma reference_means V Vs ts ss is r T : ts r = Some T -> asn_means V Vs ts ss is (named r) T.
Proof. intros H. apply A_reference; [now right|exact H]. Qed.

Lemma message_field (inside sizes : string -> bool) (is : string -> list actual_param -> ty -> Prop) : inside "MessageIEs" = true ->
  asn_means (restrict inside (numbers message_meaning)) (restrict sizes (numbers message_meaning)) (restrict inside (types message_meaning))
    (restrict inside (sets message_meaning)) is (field_type "MessageIEs") field_ty.
Proof.
  intros Hs. apply (A_class_sequence _ _ _ _ _ "MessageIEs" message_set); [now right| |discriminate|discriminate|].
  { unfold restrict. rewrite Hs. reflexivity. }
  apply (CF_value _ _ "id" "IES" "&id" _ false None id_ty).
  - exact (Over_table "MessageIEs").
  - split; reflexivity.
  - intros o [<-|[<-|[]]]; eexists; reflexivity.
  - apply (CF_type _ _ "value" "IES" "&Value" _ true None); [constructor| | |constructor].
    + intros o T v [<-|[<-|[]]]; discriminate.
    + exists [("id-one", 1%Z, TBool); ("id-two", 2%Z, two_ty)]. split; [|split; [reflexivity|]].
      * constructor; [constructor; constructor|]. constructor; [reflexivity|constructor].
      * intros nm z T. split.
        -- intros [H|[H|[]]]; injection H as <- <- <-; [exists object_one|exists object_two]; (split; [cbn; auto|split; reflexivity]).
        -- intros (o & [<-|[<-|[]]] & H1 & H2); vm_compute in H1, H2; injection H1 as <- <-; injection H2 as <-; cbn; auto.
Qed.
Lemma message_instance : instance_means message_meaning message_modules 2 (in_scope message_contents) "Container" [PSet "MessageIEs"]
  (TSeqOf (Some 1%Z) (Some 8%Z) false field_ty).
Proof.
  cbn [instance_means]. exists "Containers", message_containers, ["Set"], (container_words "Set"), (container_type "Set"), (container_type "MessageIEs").
  split; [reflexivity|]. split; [reflexivity|]. split; [right; left; reflexivity|]. split; [right; left; reflexivity|]. split; [reflexivity|].
  split; [now apply one_in_sequence|]. split; [apply (container_syntax "MessageIEs"); tname|].
  apply A_sequence_of; [now right| |].
  - apply (size_given _ (mkSet [[ERange "1" true "8" true]] None)). apply single_range; [reflexivity|reflexivity|lia|lia].
  - apply A_instance; [now right|].
    exists "Containers", message_containers, ["Set"], (field_words "Set"), (field_type "Set"), (field_type "MessageIEs").
    split; [reflexivity|]. split; [reflexivity|]. split; [right; left; reflexivity|]. split; [right; right; left; reflexivity|]. split; [reflexivity|].
    split; [now apply one_in_sequence|]. split; [apply (field_syntax "MessageIEs"); tname|].
    apply message_field. reflexivity.
Qed.
Lemma message_objects id t z T : In (id, z, t, T) [("id-one", 1%Z, "One", TBool); ("id-two", 2%Z, "Two", two_ty)] ->
  Forall2 (field_means (means_in_module message_meaning message_modules 2 message_contents) (means_in_class message_meaning message_modules 2 message_containers message_class)
    (restrict (import_of message_contents) (ids message_meaning)) (is_name message_modules))
    (message_object id t) [("&id", FieldValue id_ty (Some (id, z))); ("&Value", FieldType (Some T))].
Proof.
  intros [H|[H|[]]]; injection H as <- <- <- <-;
    (constructor; [apply FM_named; [apply reference_means; reflexivity|reflexivity]|constructor; [apply FM_type; apply reference_means; reflexivity|constructor]]).
Qed.
Lemma message_class_is : class_is message_meaning message_modules message_contents "IES" message_containers message_class.
Proof. split; [reflexivity|]. split; [reflexivity|]. exists "Containers". split; [right; left; reflexivity|left; reflexivity]. Qed.

Ltac nothing := intros; cbn in *; discriminate.
Lemma message_means a m : In (a, m) message_modules -> module_means message_meaning message_modules 2 m.
Proof.
  intros [H|[H|[H|[]]]]; injection H as <- <-; intros k d Hd.
  - destruct Hd as [Hd|[Hd|[Hd|[]]]]; injection Hd as <- <-.
    + split; [|repeat split; nothing]. intros T HT. injection HT as <-. eexists. split; [reflexivity|]. now apply (range_means _ _ _ _ _ "65535" 65535%Z).
    + split; [nothing|]. split; [nothing|]. split; [|repeat split; nothing]. intros z Hz. injection Hz as <-.
      exists (named "ID"), (Some 0%Z), (Some 65535%Z), false, (mkIty false 16), "1". split; [reflexivity|]. split; [now apply reference_means|reflexivity].
    + split; [nothing|]. split; [nothing|]. split; [|repeat split; nothing]. intros z Hz. injection Hz as <-.
      exists (named "ID"), (Some 0%Z), (Some 65535%Z), false, (mkIty false 16), "2". split; [reflexivity|]. split; [now apply reference_means|reflexivity].
  - destruct Hd as [Hd|[Hd|[Hd|[]]]]; injection Hd as <- <-; (split; [nothing|]; split; [nothing|]; split; [nothing|]; split; [nothing|]; split; [nothing|]); intros _.
    + right. now exists message_class.
    + left. eexists _, _. reflexivity.
    + left. eexists _, _. reflexivity.
  - destruct Hd as [Hd|[Hd|[Hd|[Hd|[]]]]]; injection Hd as <- <-.
    + split; [|repeat split; nothing]. intros T HT. injection HT as <-. eexists. split; [reflexivity|]. apply A_boolean. now right.
    + split; [|repeat split; nothing]. intros T HT. injection HT as <-. eexists. split; [reflexivity|]. now apply (range_means _ _ _ _ _ "15" 15%Z).
    + split; [nothing|]. split; [nothing|]. split; [nothing|]. split; [|repeat split; nothing]. intros s Hs. injection Hs as <-.
      exists "IES". do 2 eexists. exists message_containers, message_class. split; [reflexivity|]. split; [exact message_class_is|]. split; [|split].
      * split; [eexists; left; reflexivity|]. intros k t [Hk|[Hk|[]]]; [now injection Hk as <- <-|discriminate Hk].
      * apply EM_object; [apply (message_objects "id-two" "Two" 2%Z two_ty); right; left; reflexivity|].
        apply EM_object; [apply (message_objects "id-one" "One" 1%Z TBool); left; reflexivity|]. constructor.
      * split; [repeat constructor; discriminate|]. repeat constructor; cbn; intuition discriminate.
    + split; [|repeat split; nothing]. intros T HT. injection HT as <-. exists message_type. split; [reflexivity|]. unfold message_type.
      match goal with |- means_in_module _ _ _ _ (mkType (KSequence ?root _ _) _) _ => refine (A_sequence _ _ _ _ _ root [] false (Some []) _ _ _) end; [now right|].
      apply A_copt; [apply A_boolean; now right|]. apply A_cman; [apply A_instance; [now right|exact message_instance]|]. apply A_cnil.
Qed.
Definition message_rank (s : string) : nat :=
  match find [("Containers", 1); ("Contents", 2); ("ID", 0); ("Set", 0); ("id-one", 1); ("id-two", 1); ("IES", 1); ("Field", 2); ("Container", 3); ("One", 1); ("Two", 1);
    ("MessageIEs", 2); ("Message", 4)]%nat s with Some n => n | None => 0 end%nat.
Lemma C47_objects_proof : well_named message_modules /\ imports_defined message_modules /\
  (forall a m, In (a, m) message_modules -> module_means message_meaning message_modules 2 m) /\
  not_recursive message_meaning message_modules /\ valid_orders message_modules message_orders /\
  (forall a m k d, In (a, m) message_modules -> In (k, d) (m_defs m) -> has_meaning message_meaning k \/ d_params d <> None \/ exists f, d_kind d = DKClass f).
Proof.
  split; [apply well_namedb_ok; vm_compute; reflexivity|]. split; [apply imports_definedb_ok; vm_compute; reflexivity|]. split; [exact message_means|].
  split; [|split].
  - intros a m k Hm _ _. split; [apply (grounded_by_rank message_rank); vm_compute; reflexivity|].
    destruct Hm as [H|[H|[H|[]]]]; injection H as <- <-; apply (grounded_by_rank message_rank); vm_compute; reflexivity.
  - assert (Hpop : forall g batch out, ready g <> [] -> Permutation batch (ready g) -> pops (remove_nodes batch g) out -> pops g (batch ++ out)) by (intros; now apply pop_some).
    split.
    + apply (Hpop _ ["Constants"] ["Containers"; "Contents"]); [vm_compute; discriminate|vm_compute; reflexivity|].
      apply (Hpop _ ["Containers"] ["Contents"]); [vm_compute; discriminate|vm_compute; reflexivity|].
      apply (Hpop _ ["Contents"] []); [vm_compute; discriminate|vm_compute; reflexivity|]. constructor. vm_compute. reflexivity.
    + constructor; [|constructor; [|constructor; [|constructor]]]; intros m H; injection H as <-; cbn [snd].
      * apply (Hpop _ ["ID"] ["id-one"; "id-two"]); [vm_compute; discriminate|vm_compute; reflexivity|].
        apply (Hpop _ ["id-one"; "id-two"] []); [vm_compute; discriminate|vm_compute; reflexivity|]. constructor. vm_compute. reflexivity.
      * apply (Hpop _ ["IES"; "Set"] ["Field"; "Container"]); [vm_compute; discriminate|apply permutation_ok; vm_compute; reflexivity|].
        apply (Hpop _ ["Field"] ["Container"]); [vm_compute; discriminate|vm_compute; reflexivity|].
        apply (Hpop _ ["Container"] []); [vm_compute; discriminate|vm_compute; reflexivity|]. constructor. vm_compute. reflexivity.
      * apply (Hpop _ ["One"; "Two"; "ID"] ["MessageIEs"; "Message"]); [vm_compute; discriminate|apply permutation_ok; vm_compute; reflexivity|].
        apply (Hpop _ ["MessageIEs"] ["Message"]); [vm_compute; discriminate|vm_compute; reflexivity|].
        apply (Hpop _ ["Message"] []); [vm_compute; discriminate|vm_compute; reflexivity|]. constructor. vm_compute. reflexivity.
  - intros a m k d [H|[H|[H|[]]]]; injection H as <- <-; intros Hd; left.
    + destruct Hd as [Hd|[Hd|[Hd|[]]]]; injection Hd as <- <-; [left|right; right; left|right; right; left]; discriminate.
    + destruct Hd as [Hd|[Hd|[Hd|[]]]]; injection Hd as <- <-; do 5 right; reflexivity.
    + destruct Hd as [Hd|[Hd|[Hd|[Hd|[]]]]]; injection Hd as <- <-; [left|left|do 3 right; left|left]; discriminate.
Qed.
Definition checked_env : env := {| overflow_checks := true; little_endian := true |}.
Definition message_program : list (string * gdef) :=
  [("ID", GInteger 16 false (Some 0%Z) (Some 65535%Z) false);
   ("Message", GSequence false (Some 1%Z) [mkField "flag" (Some 0%Z) false "BOOLEAN_2"; mkField "list" None false "MessageList"]);
   ("One", GBoolean);
   ("Two", GInteger 8 false (Some 0%Z) (Some 15%Z) false);
   ("BOOLEAN_2", GBoolean);
   ("MessageList_EntryValue", GOpen true [mkVariant "Id_one" 1 false "One"; mkVariant "Id_two" 2 false "Two"]);
   ("MessageList_Entry", GSequence false None [mkField "id" None true "ID"; mkField "value" None false "MessageList_EntryValue"]);
   ("MessageList", GSequenceOf (Some (false, Some 1%Z, Some 8%Z)) "MessageList_Entry")].
Lemma C47_objects_program_proof : compile checked_env (instantiate checked_env 2) 11 message_modules message_orders = Ok message_program /\
  name_means message_program "Message" message_ty.
Proof.
  assert (H : compile checked_env (instantiate checked_env 2) 11 message_modules message_orders = Ok message_program) by (vm_compute; reflexivity).
  split; [exact H|]. destruct C47_objects_proof as (H1 & H2 & H3 & H4 & H5 & _).
  refine (compile_correct checked_env 2 11 message_meaning message_modules 2 message_orders (le_n 2) H1 H2 H3 H4 H5 _ H "Contents" message_contents "Message" message_ty _ _ eq_refl).
  - right. right. left. reflexivity.
  - right. right. right. left. reflexivity.
Qed.
(* { list { { id 1, value TRUE }, { id 2, value 7 } } } *)
Definition message_value : val :=
  VSeq [None; Some (VList [VSeq [Some (VI 1); Some (VAlt 0 (VB true))]; VSeq [Some (VI 2); Some (VAlt 1 (VI 7))]])].
Lemma message_carried : carries checked_env None message_ty message_value (Some 2%Z) /\ flow_of message_ty message_value false = Some true.
Proof.
  split; [|vm_compute; reflexivity].
  assert (Hn : forall n fs, (0 <= n)%Z -> optional_idxs fs = [] -> forall k vs k', carries_fields checked_env k fs vs k' -> carries checked_env k (TSeq false n fs) (VSeq vs) k').
  { intros n fs Hz Hfs k vs k' Hc. apply K_seq; [rewrite Hfs; constructor|rewrite Hfs; constructor|exact Hz|exact Hc]. }
  assert (Hint : forall l u z, (0 <= l <= u)%Z -> (u < 65536)%Z -> (l <= z <= u)%Z -> ApiSpec.int_encodable (Some l) (Some u) z).
  { intros l u z H1 H2 H3. unfold ApiSpec.int_encodable, i128 in *. lia. }
  apply K_seq; [repeat constructor; cbn; tauto|repeat constructor; lia|lia|].
  apply KF_none. eapply KF_man; [|constructor]. apply K_seqof; [discriminate|cbn; repeat split; cbn; try lia; vm_compute; congruence|].
  eapply KL_cons.
  - apply Hn; [lia|reflexivity|]. eapply KF_key; [apply K_int; [apply Hint; lia|reflexivity]|]. eapply KF_man; [|constructor].
    eapply K_open; [reflexivity|unfold first_with_key; cbn; intuition lia|apply K_bool|vm_compute; reflexivity|vm_compute; intuition congruence].
  - eapply KL_cons; [|constructor]. apply Hn; [lia|reflexivity|]. eapply KF_key; [apply K_int; [apply Hint; lia|reflexivity]|]. eapply KF_man; [|constructor].
    eapply K_open; [reflexivity|unfold first_with_key; cbn; intuition lia|apply K_int; [apply Hint; lia|reflexivity]|vm_compute; reflexivity|vm_compute; intuition congruence].
Qed.

(* ------------------------------------------------------------------ *)
(* Empty sets, CONTAINING and types written out in an object           *)
(* ------------------------------------------------------------------ *)
Definition extension_texts : list string := ["
  Constants DEFINITIONS AUTOMATIC TAGS ::= BEGIN
    ID ::= INTEGER (0..65535)
    id-one ID ::= 1
    id-two ID ::= 2
  END
"; "
  Extensions DEFINITIONS AUTOMATIC TAGS ::= BEGIN
    IMPORTS ID, id-one FROM Constants;
    IES ::= CLASS { &id ID UNIQUE, &Value } WITH SYNTAX { ID &id TYPE &Value }
    NoIEs IES ::= { ... }
    WrittenIEs IES ::= { {ID id-one TYPE OCTET STRING}, ... }
    Entry ::= SEQUENCE { id IES.&id ({NoIEs}), value IES.&Value ({NoIEs}{@id}) }
    Written ::= SEQUENCE { id IES.&id ({WrittenIEs}), value IES.&Value ({WrittenIEs}{@id}) }
    Outer ::= SEQUENCE {
      list  SEQUENCE (SIZE (1..8)) OF Entry OPTIONAL,
      inner OCTET STRING (CONTAINING Written),
      n     INTEGER (0..15) }
  END
"].
Definition extension_orders : list (string * list string) :=
  [("Constants", ["ID"; "id-one"; "id-two"]); ("Extensions", ["IES"; "NoIEs"; "WrittenIEs"; "Entry"; "Written"; "Outer"])].
Definition outer_type : asn_type :=
  mkType (KSequence
    [mkSeqComp "list" (mkType (KSequenceOf (Some (CSubtype (mkSet [[ESize (mkSet [[ERange "1" true "8" true]] None)]] None))) (named "Entry")) (Some [])) true None;
     mkSeqComp "inner" (mkType (KBuiltin BOctetString) (Some [CContents])) false None;
     mkSeqComp "n" (range "15") false None] [] false) (Some []).
Definition written_object : list (string * object_field) :=
  [("&id", OFValue (named "ID") (Some "id-one")); ("&Value", OFType (Some (mkType (KBuiltin BOctetString) (Some []))))].
Definition extension_module : module := mkModule [("ID", "Constants"); ("id-one", "Constants")]
  [("IES", mkDef (DKClass message_class) None);
   ("NoIEs", mkDef (DKObjectSet "IES" [] []) None);
   ("WrittenIEs", mkDef (DKObjectSet "IES" [OObject (Some written_object)] []) None);
   ("Entry", mkDef (DKType (field_type "NoIEs")) None);
   ("Written", mkDef (DKType (field_type "WrittenIEs")) None);
   ("Outer", mkDef (DKType outer_type) None)].
Definition extension_modules : list (string * module) := [("Constants", message_constants); ("Extensions", extension_module)].
Lemma extension_read : (parsed <-- add_files is_digit (map chars_of_text extension_texts) ;; link is_digit parsed [] (map fst extension_orders)) = Ok extension_modules.
Proof. vm_compute. reflexivity. Qed.

Definition no_entry_ty := TSeq false 0 FNil.
Definition written_ty := TSeq false 0 (FMan true id_ty (FMan false (TOpen ANil) FNil)).
Definition outer_of (entry : ty) :=
  TSeq false 1 (FOpt 0 (TSeqOf (Some 1%Z) (Some 8%Z) false entry) (FMan false (TOctets None None false) (FMan false two_ty FNil))).
Definition no_set : set_meaning := mkSetMeaning "&id" [].
Definition written_set : set_meaning :=
  mkSetMeaning "&id" [[("&id", FieldValue id_ty (Some ("id-one", 1%Z))); ("&Value", FieldWritten (TOctets None None false))]].
Definition extension_meaning : meaning := mkMeaning
  (fun _ => None)
  (find [("id-one", 1%Z); ("id-two", 2%Z)])
  (find [("ID", id_ty); ("Entry", no_entry_ty); ("Written", written_ty); ("Outer", outer_of no_entry_ty)])
  (find [("NoIEs", no_set); ("WrittenIEs", written_set)])
  (fun _ => None)
  (fun s => mem s ["IES"]).
Lemma extension_class_is : class_is extension_meaning extension_modules extension_module "IES" extension_module message_class.
Proof. split; [reflexivity|]. split; [reflexivity|]. exists "Extensions". split; [right; left; reflexivity|left; reflexivity]. Qed.
Lemma message_class_id : class_id message_class "&id".
Proof. split; [eexists; left; reflexivity|]. intros k t [Hk|[Hk|[]]]; [now injection Hk as <- <-|discriminate Hk]. Qed.
Lemma extension_means a m : In (a, m) extension_modules -> module_means extension_meaning extension_modules 2 m.
Proof.
  intros [H|[H|[]]]; injection H as <- <-; intros k d Hd.
  - destruct Hd as [Hd|[Hd|[Hd|[]]]]; injection Hd as <- <-.
    + split; [|repeat split; nothing]. intros T HT. injection HT as <-. eexists. split; [reflexivity|]. now apply (range_means _ _ _ _ _ "65535" 65535%Z).
    + split; [nothing|]. split; [nothing|]. split; [|repeat split; nothing]. intros z Hz. injection Hz as <-.
      exists (named "ID"), (Some 0%Z), (Some 65535%Z), false, (mkIty false 16), "1". split; [reflexivity|]. split; [now apply reference_means|reflexivity].
    + split; [nothing|]. split; [nothing|]. split; [|repeat split; nothing]. intros z Hz. injection Hz as <-.
      exists (named "ID"), (Some 0%Z), (Some 65535%Z), false, (mkIty false 16), "2". split; [reflexivity|]. split; [now apply reference_means|reflexivity].
  - destruct Hd as [Hd|[Hd|[Hd|[Hd|[Hd|[Hd|[]]]]]]]; injection Hd as <- <-.
    + split; [nothing|]; split; [nothing|]; split; [nothing|]; split; [nothing|]; split; [nothing|]. intros _. right. now exists message_class.
    + split; [nothing|]. split; [nothing|]. split; [nothing|]. split; [|repeat split; nothing]. intros s Hs. injection Hs as <-.
      exists "IES". do 2 eexists. exists extension_module, message_class. split; [reflexivity|]. split; [exact extension_class_is|]. split; [|split].
      * intros _. exact message_class_id.
      * constructor.
      * split; constructor.
    + split; [nothing|]. split; [nothing|]. split; [nothing|]. split; [|repeat split; nothing]. intros s Hs. injection Hs as <-.
      exists "IES". do 2 eexists. exists extension_module, message_class. split; [reflexivity|]. split; [exact extension_class_is|]. split; [|split].
      * intros _. exact message_class_id.
      * apply EM_object; [|constructor]. constructor; [apply FM_named; [apply reference_means; reflexivity|reflexivity]|]. constructor; [|constructor].
        apply FM_written; [discriminate|]. apply A_octets. constructor. now right.
      * split; [repeat constructor; discriminate|]. repeat constructor; cbn; intuition discriminate.
    + split; [|repeat split; nothing]. intros T HT. injection HT as <-. eexists. split; [reflexivity|].
      apply (A_class_sequence_none _ _ _ _ _ "NoIEs" no_set); [now right|reflexivity|reflexivity|discriminate|].
      constructor; [|constructor; [|constructor]]; do 6 eexists; (split; [reflexivity|]); [exact (Over_table "NoIEs")|exact (Over_relation "NoIEs" "@id")].
    + split; [|repeat split; nothing]. intros T HT. injection HT as <-. eexists. split; [reflexivity|].
      apply (A_class_sequence _ _ _ _ _ "WrittenIEs" written_set); [now right|reflexivity|discriminate|discriminate|].
      apply (CF_value _ _ "id" "IES" "&id" _ false None id_ty).
      * exact (Over_table "WrittenIEs").
      * split; reflexivity.
      * intros o [<-|[]]; eexists; reflexivity.
      * apply (CF_type _ _ "value" "IES" "&Value" _ true None); [constructor| | |constructor].
        -- intros o T v [<-|[]]; discriminate.
        -- exists []. split; [constructor|]. split; [reflexivity|]. intros nm z T. split; [intros []|].
           intros (o & [<-|[]] & _ & H2). discriminate.
    + split; [|repeat split; nothing]. intros T HT. injection HT as <-. exists outer_type. split; [reflexivity|]. unfold outer_type.
      match goal with |- means_in_module _ _ _ _ (mkType (KSequence ?root _ _) _) _ => refine (A_sequence _ _ _ _ _ root [] false (Some []) _ _ _) end; [now right|].
      apply A_copt; [|apply A_cman; [|apply A_cman; [|apply A_cnil]]].
      * apply A_sequence_of; [now right| |now apply reference_means].
        apply (size_given _ (mkSet [[ERange "1" true "8" true]] None)). apply single_range; [reflexivity|reflexivity|lia|lia].
      * apply A_octets_containing.
      * now apply (range_means _ _ _ _ _ "15" 15%Z).
Qed.
Definition extension_rank (s : string) : nat :=
  match find [("Extensions", 1); ("ID", 0); ("id-one", 1); ("id-two", 1); ("IES", 1); ("NoIEs", 2); ("WrittenIEs", 2); ("Entry", 3); ("Written", 3); ("Outer", 4)]%nat s with
  Some n => n | None => 0 end%nat.
Lemma C47_extension_proof : well_named extension_modules /\ imports_defined extension_modules /\
  (forall a m, In (a, m) extension_modules -> module_means extension_meaning extension_modules 2 m) /\
  not_recursive extension_meaning extension_modules /\ valid_orders extension_modules extension_orders /\
  (forall a m k d, In (a, m) extension_modules -> In (k, d) (m_defs m) -> has_meaning extension_meaning k \/ d_params d <> None \/ exists f, d_kind d = DKClass f).
Proof.
  split; [apply well_namedb_ok; vm_compute; reflexivity|]. split; [apply imports_definedb_ok; vm_compute; reflexivity|]. split; [exact extension_means|].
  split; [|split].
  - intros a m k Hm _ _. split; [apply (grounded_by_rank extension_rank); vm_compute; reflexivity|].
    destruct Hm as [H|[H|[]]]; injection H as <- <-; apply (grounded_by_rank extension_rank); vm_compute; reflexivity.
  - assert (Hpop : forall g batch out, ready g <> [] -> Permutation batch (ready g) -> pops (remove_nodes batch g) out -> pops g (batch ++ out)) by (intros; now apply pop_some).
    split.
    + apply (Hpop _ ["Constants"] ["Extensions"]); [vm_compute; discriminate|vm_compute; reflexivity|].
      apply (Hpop _ ["Extensions"] []); [vm_compute; discriminate|vm_compute; reflexivity|]. constructor. vm_compute. reflexivity.
    + constructor; [|constructor; [|constructor]]; intros m H; injection H as <-; cbn [snd].
      * apply (Hpop _ ["ID"] ["id-one"; "id-two"]); [vm_compute; discriminate|vm_compute; reflexivity|].
        apply (Hpop _ ["id-one"; "id-two"] []); [vm_compute; discriminate|vm_compute; reflexivity|]. constructor. vm_compute. reflexivity.
      * apply (Hpop _ ["IES"] ["NoIEs"; "WrittenIEs"; "Entry"; "Written"; "Outer"]); [vm_compute; discriminate|apply permutation_ok; vm_compute; reflexivity|].
        apply (Hpop _ ["NoIEs"; "WrittenIEs"] ["Entry"; "Written"; "Outer"]); [vm_compute; discriminate|apply permutation_ok; vm_compute; reflexivity|].
        apply (Hpop _ ["Entry"; "Written"] ["Outer"]); [vm_compute; discriminate|apply permutation_ok; vm_compute; reflexivity|].
        apply (Hpop _ ["Outer"] []); [vm_compute; discriminate|vm_compute; reflexivity|]. constructor. vm_compute. reflexivity.
  - intros a m k d [H|[H|[]]]; injection H as <- <-; intros Hd; left.
    + destruct Hd as [Hd|[Hd|[Hd|[]]]]; injection Hd as <- <-; [left|right; right; left|right; right; left]; discriminate.
    + destruct Hd as [Hd|[Hd|[Hd|[Hd|[Hd|[Hd|[]]]]]]]; injection Hd as <- <-; [do 5 right; reflexivity|do 3 right; left|do 3 right; left|left|left|left]; discriminate.
Qed.
Definition extension_program : list (string * gdef) :=
  [("Entry", GSequence false None []);
   ("ID", GInteger 16 false (Some 0%Z) (Some 65535%Z) false);
   ("Outer", GSequence false (Some 1%Z)
      [mkField "list" (Some 0%Z) false "OuterList"; mkField "inner" None false "OCTET_STRING_2"; mkField "n" None false "INTEGER_3"]);
   ("Written", GSequence false None [mkField "id" None true "ID"; mkField "value" None false "WrittenValue"]);
   ("OuterList", GSequenceOf (Some (false, Some 1%Z, Some 8%Z)) "Entry");
   ("OCTET_STRING_2", GOctetString None);
   ("INTEGER_3", GInteger 8 false (Some 0%Z) (Some 15%Z) false);
   ("WrittenValue", GOpen true [])].
Lemma C47_extension_program_proof : compile checked_env (instantiate checked_env 2) 11 extension_modules extension_orders = Ok extension_program /\
  name_means extension_program "Outer" (outer_of no_entry_ty).
Proof.
  assert (H : compile checked_env (instantiate checked_env 2) 11 extension_modules extension_orders = Ok extension_program) by (vm_compute; reflexivity).
  split; [exact H|]. destruct C47_extension_proof as (H1 & H2 & H3 & H4 & H5 & _).
  refine (compile_correct checked_env 2 11 extension_meaning extension_modules 2 extension_orders (le_n 2) H1 H2 H3 H4 H5 _ H "Extensions" extension_module "Outer" (outer_of no_entry_ty) _ _ eq_refl).
  - right. left. reflexivity.
  - do 5 right. left. reflexivity.
Qed.
(* The same schema when `NoIEs IES ::= { {ID id-two TYPE Two}, ... }`, and a
   value of its type Outer *)
Definition later_entry_ty := TSeq false 0 (FMan true id_ty (FMan false (TOpen (ACons 2 false two_ty ANil)) FNil)).
Definition later_value : val :=
  VSeq [Some (VList [VSeq [Some (VI 2); Some (VAlt 0 (VI 7))]]); Some (VOctStr [0xAA]%Z); Some (VI 5)].
Lemma C49_empty_set_proof : forall E, exists d,
  enc E (outer_of later_entry_ty) later_value new_data = (Ok tt, d) /\
  fst (dec E (outer_of later_entry_ty) (from_slice (into_bytes d))) = Ok later_value /\
  fst (dec E (outer_of no_entry_ty) (from_slice (into_bytes d))) = Ok (VSeq [Some (VList [VSeq []]); Some (VOctStr []); Some (VI 0)]).
Proof.
  intros [[|] [|]]; eexists; (split; [vm_compute; reflexivity|]); (split; [vm_compute; reflexivity|]); vm_compute; reflexivity.
Qed.
Lemma C49_empty_set_refuted_proof : name_means extension_program "Entry" no_entry_ty /\ forall E, exists d,
  enc E (outer_of later_entry_ty) later_value new_data = (Ok tt, d) /\
  fst (dec E (outer_of later_entry_ty) (from_slice (into_bytes d))) = Ok later_value /\
  fst (dec E (outer_of no_entry_ty) (from_slice (into_bytes d))) = Ok (VSeq [Some (VList [VSeq []]); Some (VOctStr []); Some (VI 0)]).
Proof.
  split; [|exact C49_empty_set_proof]. destruct C47_extension_proof as (H1 & H2 & H3 & H4 & H5 & _).
  refine (compile_correct checked_env 2 11 extension_meaning extension_modules 2 extension_orders (le_n 2) H1 H2 H3 H4 H5 _ (proj1 C47_extension_program_proof) "Extensions" extension_module "Entry" no_entry_ty _ _ eq_refl).
  - right. left. reflexivity.
  - do 3 right. left. reflexivity.
Qed.
