(* Two versions of a schema: the statements about files, and the schema of
   ObjectFacts with one object more (C64). *)
From Coq Require Import ZArith NArith List Bool String Ascii Lia Permutation.
From Coq Require Import ZifyBool ZifyNat ZifyN.
From Coq Require Sorted.
Require Import Verif.Base Verif.Spec Verif.CodecModel Verif.ApiSpec Verif.DeriveModel Verif.DeriveSpec Verif.DeriveInversion Verif.DeriveFacts Verif.Asn1Model Verif.GenModel Verif.ResolveModel Verif.TokenModel Verif.ParserModel Verif.ModuleModel
  Verif.DefinitionModel Verif.ParserSpec Verif.DefinitionSpec Verif.ParamSpec Verif.CompilerSpec Verif.ConstraintProofs Verif.TopoProofs Verif.GenProofs Verif.ResolveProofs Verif.ModuleProofs
  Verif.DefGrammarProofs Verif.ParserFacts Verif.CompilerFacts Verif.RustModel Verif.RustSpec Verif.RustProofs Verif.RustFacts Verif.ObjectFacts Verif.LinkSpec Verif.LinkProofs Verif.LinkFacts
  Verif.VersionSpec Verif.VersionProofs Verif.RevisionSpec Verif.RevisionProofs.
Require Verif.TokenSpec Verif.TokenProofs.
Import ListNotations.
Open Scope string_scope.
Open Scope list_scope.

Lemma C64_modules_proof M1 M2 modules1 modules2 n1 n2 :
  well_named modules1 -> well_named modules2 -> imports_defined modules1 -> imports_defined modules2 ->
  (forall a m, In (a, m) modules1 -> module_means M1 modules1 n1 m) -> (forall a m, In (a, m) modules2 -> module_means M2 modules2 n2 m) ->
  not_recursive M1 modules1 -> later_modules modules1 modules2 -> sets_kept M1 M2 ->
  forall a m k T1 T2, In (a, m) modules1 -> In k (def_names m) -> types M1 k = Some T1 -> types M2 k = Some T2 -> newer T1 T2.
Proof.
  intros W1 W2 I1 I2 H1 H2 R L S a m k T1 T2 Hm Hk. exact (revision_newer M1 M2 modules1 modules2 n1 n2 W1 W2 I1 I2 H1 H2 L S R a m k T1 T2 Hm Hk).
Qed.
Lemma compiled_type num E files modules M prog : numeric_characters num -> schema_compiled num E files modules M prog ->
  forall a m k T T', In (a, m) modules -> In k (def_names m) -> types M k = Some T -> rust_means (map item_of prog) (to_type_ident k) T' -> T' = T.
Proof.
  intros Hnum (n & depth & fuel & orders & Hd & Hn & Hw & Hi & Hm & Hr & Ho & Eo & Hc & Hp & Hnd) a m k T T' Ha Hk HT HT'.
  apply (C51_proof num E depth fuel files orders prog Hc Hp) in HT'. rewrite (files_compiled num E depth fuel files modules orders Hnum Hd Hw Hi Ho Eo) in Hc.
  exact (means_unique _ _ _ _ Hnd HT' (compile_correct E depth fuel M modules n orders Hn Hw Hi Hm Hr Ho prog Hc a m k T Ha Hk HT)).
Qed.
Lemma C64_files_proof num E files1 files2 modules1 modules2 M1 M2 prog1 prog2 : numeric_characters num ->
  schema_compiled num E files1 modules1 M1 prog1 -> schema_compiled num E files2 modules2 M2 prog2 ->
  later_modules modules1 modules2 -> sets_kept M1 M2 ->
  forall a m k, In (a, m) modules1 -> In k (def_names m) -> types M1 k <> None -> types M2 k <> None ->
  forall T1 T2, rust_means (map item_of prog1) (to_type_ident k) T1 -> rust_means (map item_of prog2) (to_type_ident k) T2 ->
  newer T1 T2 /\
  (forall bytes v1 s', dec E T1 (from_slice bytes) = (Ok v1, s') -> exists v2, dec E T2 (from_slice bytes) = (Ok v2, s') /\ same_value T1 T2 v1 v2) /\
  (forall bytes v2 s', dec E T2 (from_slice bytes) = (Ok v2, s') ->
     (exists v1, dec E T1 (from_slice bytes) = (Ok v1, s') /\ same_value T1 T2 v1 v2) \/
     fst (dec E T1 (from_slice bytes)) = Err /\ forall v1, ~ same_value T1 T2 v1 v2).
Proof.
  intros Hnum H1 H2 L S a m k Ha Hk K1 K2 T1 T2 R1 R2.
  destruct (types M1 k) as [U1|] eqn:Q1; [|now destruct K1]. destruct (types M2 k) as [U2|] eqn:Q2; [|now destruct K2].
  pose proof (compiled_type num E files1 modules1 M1 prog1 Hnum H1 a m k U1 T1 Ha Hk Q1 R1) as ->.
  assert (N2 : is_name modules2 k).
  { pose proof Hk as Hk'. apply in_def_names in Hk'. destruct Hk' as (d & Hd). destruct (L a m k d Ha Hd) as (b & m2 & d2 & Hb & Hd2 & _). exists b, m2. split; [exact Hb|].
    apply in_map_iff. now exists (k, d2). }
  destruct N2 as (a2 & m2 & Ha2 & Hk2). pose proof (compiled_type num E files2 modules2 M2 prog2 Hnum H2 a2 m2 k U2 T2 Ha2 Hk2 Q2 R2) as ->.
  assert (N : newer U1 U2).
  { destruct H1 as (n1 & _ & _ & _ & _ & _ & W1 & I1 & B1 & N1 & _). destruct H2 as (n2 & _ & _ & _ & _ & _ & W2 & I2 & B2 & _).
    exact (revision_newer M1 M2 modules1 modules2 n1 n2 W1 W2 I1 I2 B1 B2 L S N1 a m k U1 U2 Ha Hk Q1 Q2). }
  split; [exact N|]. split; intros bytes; [exact (new_reads_old E U1 U2 N _)|exact (old_reads_new E U1 U2 N _)].
Qed.

(* ------------------------------------------------------------------ *)
(* The second version of the schema of ObjectFacts                     *)
(* ------------------------------------------------------------------ *)
Definition revised_texts : list string := ["
  Constants DEFINITIONS AUTOMATIC TAGS ::= BEGIN
    ID ::= INTEGER (0..65535)
    id-one ID ::= 1
    id-two ID ::= 2
    id-new ID ::= 3
  END
"; "
  Containers DEFINITIONS AUTOMATIC TAGS ::= BEGIN
    IMPORTS ID FROM Constants;
    IES ::= CLASS { &id ID UNIQUE, &Value } WITH SYNTAX { ID &id TYPE &Value }
    Container{IES:Set} ::= SEQUENCE (SIZE (1..8)) OF Field{{Set}}
    Field{IES:Set} ::= SEQUENCE { id IES.&id ({Set}), value IES.&Value ({Set}{@id}) }
  END
"; "
  Contents DEFINITIONS AUTOMATIC TAGS ::= BEGIN
    IMPORTS id-one, id-two, id-new FROM Constants IES, Container FROM Containers;
    One ::= BOOLEAN
    Two ::= INTEGER (0..15)
    MessageIEs IES ::= { {ID id-one TYPE One} | {ID id-two TYPE Two}, ..., {ID id-new TYPE Two} }
    Message ::= SEQUENCE { flag BOOLEAN OPTIONAL, list Container{{MessageIEs}} }
  END
"].
Definition revised_orders : list (string * list string) :=
  [("Constants", ["ID"; "id-one"; "id-two"; "id-new"]); ("Containers", ["IES"; "Set"; "Field"; "Container"]);
   ("Contents", ["One"; "Two"; "ID"; "MessageIEs"; "Message"])].
Definition revised_constants : module := mkModule []
  [("ID", mkDef (DKType (range "65535")) None);
   ("id-one", mkDef (DKValue (named "ID") "1") None);
   ("id-two", mkDef (DKValue (named "ID") "2") None);
   ("id-new", mkDef (DKValue (named "ID") "3") None)].
Definition revised_contents : module := mkModule [("id-one", "Constants"); ("id-two", "Constants"); ("id-new", "Constants"); ("IES", "Containers"); ("Container", "Containers")]
  [("One", mkDef (DKType (mkType (KBuiltin BBoolean) (Some []))) None);
   ("Two", mkDef (DKType (range "15")) None);
   ("MessageIEs", mkDef (DKObjectSet "IES" [OObject (Some (message_object "id-two" "Two")); OObject (Some (message_object "id-one" "One"))]
      [OObject (Some (message_object "id-new" "Two"))]) None);
   ("Message", mkDef (DKType message_type) None)].
Definition revised_modules : list (string * module) :=
  [("Constants", revised_constants); ("Containers", message_containers); ("Contents", revised_contents)].
Lemma revised_read : (parsed <-- add_files is_digit (map chars_of_text revised_texts) ;; link is_digit parsed [] (map fst revised_orders)) = Ok revised_modules.
Proof. vm_compute. reflexivity. Qed.

Definition revised_open := TOpen (ACons 3 false two_ty (ACons 1 false TBool (ACons 2 false two_ty ANil))).
Definition revised_field_ty := TSeq false 0 (FMan true id_ty (FMan false revised_open FNil)).
Definition revised_ty := TSeq false 1 (FOpt 0 TBool (FMan false (TSeqOf (Some 1%Z) (Some 8%Z) false revised_field_ty) FNil)).
Definition object_new : object_meaning := [("&id", FieldValue id_ty (Some ("id-new", 3%Z))); ("&Value", FieldType (Some two_ty))].
Definition revised_set : set_meaning := mkSetMeaning "&id" [object_two; object_one; object_new].
Definition revised_meaning : meaning := mkMeaning
  (fun _ => None)
  (find [("id-one", 1%Z); ("id-two", 2%Z); ("id-new", 3%Z)])
  (find [("ID", id_ty); ("One", TBool); ("Two", two_ty); ("Message", revised_ty)])
  (find [("MessageIEs", revised_set)])
  (fun _ => None)
  (fun s => mem s ["IES"; "Container"; "Field"]).
Lemma revised_field (inside sizes : string -> bool) (is : string -> list actual_param -> ty -> Prop) : inside "MessageIEs" = true ->
  asn_means (restrict inside (numbers revised_meaning)) (restrict sizes (numbers revised_meaning)) (restrict inside (types revised_meaning))
    (restrict inside (sets revised_meaning)) is (field_type "MessageIEs") revised_field_ty.
Proof.
  intros Hs. apply (A_class_sequence _ _ _ _ _ "MessageIEs" revised_set); [now right| |discriminate|discriminate|].
  { unfold restrict. rewrite Hs. reflexivity. }
  apply (CF_value _ _ "id" "IES" "&id" _ false None id_ty).
  - exact (Over_table "MessageIEs").
  - split; reflexivity.
  - intros o [<-|[<-|[<-|[]]]]; eexists; reflexivity.
  - apply (CF_type _ _ "value" "IES" "&Value" _ true None); [constructor| | |constructor].
    + intros o T v [<-|[<-|[<-|[]]]]; discriminate.
    + exists [("id-new", 3%Z, two_ty); ("id-one", 1%Z, TBool); ("id-two", 2%Z, two_ty)]. split; [|split; [reflexivity|]].
      * repeat (constructor; [|repeat (constructor; [reflexivity|]); constructor]). constructor.
      * intros nm z T. split.
        -- intros [H|[H|[H|[]]]]; injection H as <- <- <-; [exists object_new|exists object_one|exists object_two]; (split; [cbn; auto|split; reflexivity]).
        -- intros (o & [<-|[<-|[<-|[]]]] & H1 & H2); vm_compute in H1, H2; injection H1 as <- <-; injection H2 as <-; cbn; auto.
Qed.
Lemma revised_instance : instance_means revised_meaning revised_modules 2 (in_scope revised_contents) "Container" [PSet "MessageIEs"]
  (TSeqOf (Some 1%Z) (Some 8%Z) false revised_field_ty).
Proof.
  cbn [instance_means]. exists "Containers", message_containers, ["Set"], (container_words "Set"), (container_type "Set"), (container_type "MessageIEs").
  split; [reflexivity|]. split; [reflexivity|]. split; [right; left; reflexivity|]. split; [right; left; reflexivity|]. split; [reflexivity|].
  split; [now apply one_in_sequence|]. split; [apply (container_syntax "MessageIEs"); tname|].
  apply A_sequence_of; [now right| |].
  - apply (size_given _ (mkSet [[ERange "1" true "8" true]] None)). apply single_range; [reflexivity|reflexivity|lia|lia].
  - apply A_instance; [now right|].
    exists "Containers", message_containers, ["Set"], (field_words "Set"), (field_type "Set"), (field_type "MessageIEs").
    split; [reflexivity|]. split; [reflexivity|]. split; [right; left; reflexivity|]. split; [right; right; left; reflexivity|]. split; [reflexivity|].
    split; [now apply one_in_sequence|]. split; [apply (field_syntax "MessageIEs"); tname|].
    apply revised_field. reflexivity.
Qed.
Lemma revised_objects id t z T : In (id, z, t, T) [("id-one", 1%Z, "One", TBool); ("id-two", 2%Z, "Two", two_ty); ("id-new", 3%Z, "Two", two_ty)] ->
  Forall2 (field_means (means_in_module revised_meaning revised_modules 2 revised_contents) (means_in_class revised_meaning revised_modules 2 message_containers message_class)
    (restrict (import_of revised_contents) (ids revised_meaning)) (is_name revised_modules))
    (message_object id t) [("&id", FieldValue id_ty (Some (id, z))); ("&Value", FieldType (Some T))].
Proof.
  intros [H|[H|[H|[]]]]; injection H as <- <- <- <-;
    (constructor; [apply FM_named; [apply reference_means; reflexivity|reflexivity]|constructor; [apply FM_type; apply reference_means; reflexivity|constructor]]).
Qed.
Lemma revised_class_is : class_is revised_meaning revised_modules revised_contents "IES" message_containers message_class.
Proof. split; [reflexivity|]. split; [reflexivity|]. exists "Containers". split; [right; left; reflexivity|left; reflexivity]. Qed.
Lemma revised_means a m : In (a, m) revised_modules -> module_means revised_meaning revised_modules 2 m.
Proof.
  assert (Hid : forall text z, parse_i128 text = Some z -> exists t lb ub ext i text', mkDef (DKValue (named "ID") text) None = mkDef (DKValue t text') None /\
    means_in_module revised_meaning revised_modules 2 revised_constants t (TInt lb ub ext i) /\ parse_i128 text' = Some z).
  { intros text z Hz. exists (named "ID"), (Some 0%Z), (Some 65535%Z), false, (mkIty false 16), text. split; [reflexivity|]. split; [now apply reference_means|exact Hz]. }
  intros [H|[H|[H|[]]]]; injection H as <- <-; intros k d Hd.
  - destruct Hd as [Hd|[Hd|[Hd|[Hd|[]]]]]; injection Hd as <- <-.
    + split; [|repeat split; nothing]. intros T HT. injection HT as <-. eexists. split; [reflexivity|]. now apply (range_means _ _ _ _ _ "65535" 65535%Z).
    + split; [nothing|]. split; [nothing|]. split; [|repeat split; nothing]. intros z Hz. injection Hz as <-. now apply Hid.
    + split; [nothing|]. split; [nothing|]. split; [|repeat split; nothing]. intros z Hz. injection Hz as <-. now apply Hid.
    + split; [nothing|]. split; [nothing|]. split; [|repeat split; nothing]. intros z Hz. injection Hz as <-. now apply Hid.
  - destruct Hd as [Hd|[Hd|[Hd|[]]]]; injection Hd as <- <-; (split; [nothing|]; split; [nothing|]; split; [nothing|]; split; [nothing|]; split; [nothing|]); intros _.
    + right. now exists message_class.
    + left. eexists _, _. reflexivity.
    + left. eexists _, _. reflexivity.
  - destruct Hd as [Hd|[Hd|[Hd|[Hd|[]]]]]; injection Hd as <- <-.
    + split; [|repeat split; nothing]. intros T HT. injection HT as <-. eexists. split; [reflexivity|]. apply A_boolean. now right.
    + split; [|repeat split; nothing]. intros T HT. injection HT as <-. eexists. split; [reflexivity|]. now apply (range_means _ _ _ _ _ "15" 15%Z).
    + split; [nothing|]. split; [nothing|]. split; [nothing|]. split; [|repeat split; nothing]. intros s Hs. injection Hs as <-.
      exists "IES". do 2 eexists. exists message_containers, message_class. split; [reflexivity|]. split; [exact revised_class_is|]. split; [|split].
      * split; [eexists; left; reflexivity|]. intros k t [Hk|[Hk|[]]]; [now injection Hk as <- <-|discriminate Hk].
      * apply EM_object; [apply (revised_objects "id-two" "Two" 2%Z two_ty); right; left; reflexivity|].
        apply EM_object; [apply (revised_objects "id-one" "One" 1%Z TBool); left; reflexivity|].
        apply EM_object; [apply (revised_objects "id-new" "Two" 3%Z two_ty); right; right; left; reflexivity|]. constructor.
      * split; [repeat constructor; discriminate|]. repeat constructor; cbn; intuition discriminate.
    + split; [|repeat split; nothing]. intros T HT. injection HT as <-. exists message_type. split; [reflexivity|]. unfold message_type.
      match goal with |- means_in_module _ _ _ _ (mkType (KSequence ?root _ _) _) _ => refine (A_sequence _ _ _ _ _ root [] false (Some []) _ _ _) end; [now right|].
      apply A_copt; [apply A_boolean; now right|]. apply A_cman; [apply A_instance; [now right|exact revised_instance]|]. apply A_cnil.
Qed.
Definition revised_rank (s : string) : nat := match s with "id-new" => 1 | _ => message_rank s end.
Lemma revised_schema : well_named revised_modules /\ imports_defined revised_modules /\
  not_recursive revised_meaning revised_modules /\ valid_orders revised_modules revised_orders.
Proof.
  split; [apply well_namedb_ok; vm_compute; reflexivity|]. split; [apply imports_definedb_ok; vm_compute; reflexivity|]. split.
  - intros a m k Hm _ _. split; [apply (grounded_by_rank revised_rank); vm_compute; reflexivity|].
    destruct Hm as [H|[H|[H|[]]]]; injection H as <- <-; apply (grounded_by_rank revised_rank); vm_compute; reflexivity.
  - assert (Hpop : forall g batch out, ModuleModel.ready g <> [] -> Permutation batch (ModuleModel.ready g) -> pops (remove_nodes batch g) out -> pops g (batch ++ out)) by (intros; now apply pop_some).
    split.
    + apply (Hpop _ ["Constants"] ["Containers"; "Contents"]); [vm_compute; discriminate|vm_compute; reflexivity|].
      apply (Hpop _ ["Containers"] ["Contents"]); [vm_compute; discriminate|vm_compute; reflexivity|].
      apply (Hpop _ ["Contents"] []); [vm_compute; discriminate|vm_compute; reflexivity|]. constructor. vm_compute. reflexivity.
    + constructor; [|constructor; [|constructor; [|constructor]]]; intros m H; injection H as <-; cbn [snd].
      * apply (Hpop _ ["ID"] ["id-one"; "id-two"; "id-new"]); [vm_compute; discriminate|vm_compute; reflexivity|].
        apply (Hpop _ ["id-one"; "id-two"; "id-new"] []); [vm_compute; discriminate|vm_compute; reflexivity|]. constructor. vm_compute. reflexivity.
      * apply (Hpop _ ["IES"; "Set"] ["Field"; "Container"]); [vm_compute; discriminate|apply permutation_ok; vm_compute; reflexivity|].
        apply (Hpop _ ["Field"] ["Container"]); [vm_compute; discriminate|vm_compute; reflexivity|].
        apply (Hpop _ ["Container"] []); [vm_compute; discriminate|vm_compute; reflexivity|]. constructor. vm_compute. reflexivity.
      * apply (Hpop _ ["One"; "Two"; "ID"] ["MessageIEs"; "Message"]); [vm_compute; discriminate|apply permutation_ok; vm_compute; reflexivity|].
        apply (Hpop _ ["MessageIEs"] ["Message"]); [vm_compute; discriminate|vm_compute; reflexivity|].
        apply (Hpop _ ["Message"] []); [vm_compute; discriminate|vm_compute; reflexivity|]. constructor. vm_compute. reflexivity.
Qed.
(* the texts *)
Definition parsed_new_constants : list parsed_def := parsed_constants ++ [mkParsed "id-new" (PAValue (named "ID") "3") None].
Definition parsed_new_contents : list parsed_def :=
  [mkParsed "One" (PAType (mkType (KBuiltin BBoolean) (Some []))) None;
   mkParsed "Two" (PAType (range "15")) None;
   mkParsed "MessageIEs" (PAObjectSet "IES" [PInput (text (object_words "id-one" "One")); PInput (text (object_words "id-two" "Two"))]
     [PInput (text (object_words "id-new" "Two"))]) None;
   mkParsed "Message" (PAType message_type) None].
Definition revised_parsed : list parsed_module :=
  [mkParsedModule "Constants" [] (with_names parsed_new_constants);
   mkParsedModule "Containers" (m_imports message_containers) (with_names parsed_containers);
   mkParsedModule "Contents" (m_imports revised_contents) (with_names parsed_new_contents)].
Lemma new_constants_syntax : repeated definition_syntax
  ([I "ID"; ASSIGN; K "INTEGER"; L_PAREN; N "0"; DOTDOT; N "65535"; R_PAREN] ++ [I "id-one"; I "ID"; ASSIGN; N "1"] ++ [I "id-two"; I "ID"; ASSIGN; N "2"] ++ [I "id-new"; I "ID"; ASSIGN; N "3"])
  parsed_new_constants.
Proof.
  eapply same_words; [more; [apply (DS_type "ID"); [tname|apply range_type]|more; [|more; [|last_one]]]| |].
  - eapply (DS_value "id-one" [I "ID"]); [vname|apply tn_type; tname|apply (VS_simple (N "1")); simple|]. intros [_ (r & E)]. discriminate.
  - eapply (DS_value "id-two" [I "ID"]); [vname|apply tn_type; tname|apply (VS_simple (N "2")); simple|]. intros [_ (r & E)]. discriminate.
  - eapply (DS_value "id-new" [I "ID"]); [vname|apply tn_type; tname|apply (VS_simple (N "3")); simple|]. intros [_ (r & E)]. discriminate.
  - reflexivity.
  - reflexivity.
Qed.
Lemma new_contents_syntax : repeated definition_syntax
  ([I "One"; ASSIGN; K "BOOLEAN"] ++
   [I "Two"; ASSIGN; K "INTEGER"; L_PAREN; N "0"; DOTDOT; N "15"; R_PAREN] ++
   ([I "MessageIEs"; I "IES"; ASSIGN; L_BRACE] ++ (object_words "id-one" "One" ++ [BAR] ++ object_words "id-two" "Two") ++ COMMA :: DOTS :: COMMA :: object_words "id-new" "Two" ++ [R_BRACE]) ++
   [I "Message"; ASSIGN; K "SEQUENCE"; L_BRACE; I "flag"; K "BOOLEAN"; K "OPTIONAL"; COMMA; I "list"; I "Container"; L_BRACE; L_BRACE; I "MessageIEs"; R_BRACE; R_BRACE; R_BRACE])
  parsed_new_contents.
Proof.
  eapply same_words; [more; [|more; [apply (DS_type "Two"); [tname|apply range_type]|more; [|last_one]]]| |].
  - apply (DS_type "One"); [tname|]. apply simple_type. apply BS_boolean.
  - apply (DS_object_set "MessageIEs" "IES"); [tname|cname|apply OSS_more].
    + eapply sep_more with (t := BAR); [apply (OS_inline [I "ID"; I "id-one"; I "TYPE"; I "One"]); unused|now left|].
      apply sep_one. apply (OS_inline [I "ID"; I "id-two"; I "TYPE"; I "Two"]). unused.
    + apply sep_one. apply (OS_inline [I "ID"; I "id-new"; I "TYPE"; I "Two"]). unused.
  - apply (DS_type "Message"); [tname|]. eapply TS_type; [eapply KS_sequence|apply rep_nil].
    + next.
      * apply SIS_component. eapply (SC "flag"); [vname|apply simple_type; apply BS_boolean|apply PS_optional].
      * apply sep_one. apply SIS_component. eapply (SC "list"); [vname| |apply PS_mandatory].
        eapply TS_type; [|apply rep_nil]. apply KS_reference. eapply (RS_params [I "Container"]); [apply NmS_plain; tname|].
        apply sep_one. apply (PaS_set (I "MessageIEs")). now left.
    + exact (SI_closed [_; _]).
  - reflexivity.
  - reflexivity.
Qed.
Lemma revised_files : Forall2 (file_denotes (fun z => is_digit z = true)) (map chars_of_text revised_texts) (map (fun pm => [pm]) revised_parsed).
Proof.
  assert (H : forall s w pm, (toks <-- tokenize is_digit (chars_of_text s) ;; Ok (uncommented toks)) = Ok w -> chars_of_text s <> [] ->
    module_syntax w pm -> ~ ends_with_bare_class pm -> file_denotes (fun z => is_digit z = true) (chars_of_text s) [pm]).
  { intros s w pm Ht Hs Hm Hb. split; [exact Hs|]. destruct (text_items s w Ht) as (l & Hl & <-). exists l. split; [exact Hl|]. split; [|split; [discriminate|]].
    - eapply same_words; [last_one; exact Hm|now rewrite app_nil_r|reflexivity].
    - intros p m Hp. assert (m = pm) as ->; [|exact Hb]. destruct p as [|a [|b p]]; cbn in Hp; congruence. }
  assert (Hb : forall n i l d, (forall c, pd_kind d <> PAClass c) -> ~ ends_with_bare_class (mkParsedModule n i (with_names (l ++ [d])))).
  { intros n i l d Hd (l' & n' & d' & E & c & Hc & _). cbn [pm_defs] in E. unfold with_names in E. rewrite map_app in E. cbn [map] in E.
    apply app_inj_tail in E. destruct E as [_ E]. injection E as <- <-. exact (Hd _ Hc). }
  cbn [map revised_texts revised_parsed]. constructor; [|constructor; [|constructor; [|constructor]]]; (eapply H; [vm_compute; reflexivity|discriminate| |]).
  - eapply same_words; [eapply (MS "Constants"); [tname|apply OIS_none|apply (TaS_some "AUTOMATIC"); cbn; auto|apply ImS_none|exact new_constants_syntax|]|reflexivity|reflexivity].
    vm_compute. repeat constructor; cbn; intuition discriminate.
  - apply (Hb _ _ [_; _; _] _). discriminate.
  - eapply same_words; [eapply (MS "Containers"); [tname|apply OIS_none|apply (TaS_some "AUTOMATIC"); cbn; auto| |exact containers_syntax|]| |].
    + apply ImS_some with (l := [[("ID", "Constants")]]); [|discriminate|repeat constructor; cbn; intuition discriminate].
      last_one. eapply (IS _ ["ID"] "Constants"); [apply sep_one; apply (SyS_plain "ID")|tname|apply OIS_none].
    + vm_compute. repeat constructor; cbn; intuition discriminate.
    + reflexivity.
    + reflexivity.
  - apply (Hb _ _ [_; _] _). discriminate.
  - eapply same_words; [eapply (MS "Contents"); [tname|apply OIS_none|apply (TaS_some "AUTOMATIC"); cbn; auto| |exact new_contents_syntax|]| |].
    + apply ImS_some with (l := [[("id-one", "Constants"); ("id-two", "Constants"); ("id-new", "Constants")]; [("IES", "Containers"); ("Container", "Containers")]]);
        [|discriminate|repeat constructor; cbn; intuition discriminate].
      more; [|last_one].
      * eapply (IS _ ["id-one"; "id-two"; "id-new"] "Constants"); [|tname|apply OIS_none]. next; [apply (SyS_plain "id-one")|]. next; [apply (SyS_plain "id-two")|]. apply sep_one. apply (SyS_plain "id-new").
      * eapply (IS _ ["IES"; "Container"] "Containers"); [|tname|apply OIS_none]. next; [apply (SyS_plain "IES")|]. apply sep_one. apply (SyS_plain "Container").
    + vm_compute. repeat constructor; cbn; intuition discriminate.
    + reflexivity.
    + reflexivity.
  - apply (Hb _ _ [_; _; _] _). discriminate.
Qed.
Lemma new_object_meant : object_denotes (fun z => is_digit z = true) message_spec (text (object_words "id-new" "Two")) (message_object "id-new" "Two").
Proof.
  split; [exact message_spec_worded|]. exists (object_words "id-new" "Two"). split; [reflexivity|].
  split; [match goal with |- Forall _ ?w => apply (text_tokens (text w) w w) end; [vm_compute; reflexivity|intros x Hx; exact Hx|reflexivity]|].
  apply object_notation; [not_class_word|not_class_word|tname].
Qed.
Lemma revised_denoted : schema_denotes (fun z => is_digit z = true) (map chars_of_text revised_texts) revised_modules.
Proof.
  exists (map (fun pm => [pm]) revised_parsed), revised_parsed. split; [exact revised_files|]. split; [apply Permutation_refl|].
  constructor; [|constructor; [|constructor; [|constructor]]]; (split; [reflexivity|]; split; [reflexivity|]); cbn [snd m_defs pm_defs revised_constants message_containers revised_contents with_names map].
  - repeat (apply Forall2_cons; [split; [reflexivity|split; [constructor|reflexivity]]|]). apply Forall2_nil.
  - repeat (apply Forall2_cons; [split; [reflexivity|split; [constructor|reflexivity]]|]). apply Forall2_nil.
  - apply Forall2_cons; [split; [reflexivity|split; [constructor|reflexivity]]|]. apply Forall2_cons; [split; [reflexivity|split; [constructor|reflexivity]]|].
    apply Forall2_cons; [|apply Forall2_cons; [split; [reflexivity|split; [constructor|reflexivity]]|apply Forall2_nil]].
    split; [reflexivity|]. split; [|reflexivity]. apply (KD_set _ _ _ "IES" message_spec).
    + right. exists (mkParsedModule "Containers" (m_imports message_containers) (with_names parsed_containers)). split; [right; left; reflexivity|].
      split; [right; right; right; left; reflexivity|]. eexists. split; [left; reflexivity|reflexivity].
    + cbn [rev app]. apply Forall2_cons; [apply ED_text; apply object_meant; right; left; reflexivity|]. apply Forall2_cons; [apply ED_text; apply object_meant; left; reflexivity|apply Forall2_nil].
    + cbn [rev app]. apply Forall2_cons; [apply ED_text; exact new_object_meant|apply Forall2_nil].
Qed.
Definition revised_program : list (string * gdef) :=
  [("ID", GInteger 16 false (Some 0%Z) (Some 65535%Z) false);
   ("Message", GSequence false (Some 1%Z) [mkField "flag" (Some 0%Z) false "BOOLEAN_2"; mkField "list" None false "MessageList"]);
   ("One", GBoolean);
   ("Two", GInteger 8 false (Some 0%Z) (Some 15%Z) false);
   ("BOOLEAN_2", GBoolean);
   ("MessageList_EntryValue", GOpen true [mkVariant "Id_new" 3 false "Two"; mkVariant "Id_one" 1 false "One"; mkVariant "Id_two" 2 false "Two"]);
   ("MessageList_Entry", GSequence false None [mkField "id" None true "ID"; mkField "value" None false "MessageList_EntryValue"]);
   ("MessageList", GSequenceOf (Some (false, Some 1%Z, Some 8%Z)) "MessageList_Entry")].
Lemma message_compiled : schema_compiled is_digit checked_env (map chars_of_text message_texts) message_modules message_meaning message_program.
Proof.
  destruct C55_case_proof as (_ & H1 & H2 & H3 & H4 & H5 & H6 & H7 & _). destruct C55_case_program_proof as (P1 & P2 & P3 & _).
  exists 2%nat, 2%nat, 11%nat, message_orders. repeat (split; [assumption||apply le_n|]). exact P3.
Qed.
Lemma revised_compiled : schema_compiled is_digit checked_env (map chars_of_text revised_texts) revised_modules revised_meaning revised_program.
Proof.
  destruct revised_schema as (H1 & H2 & H3 & H4). exists 2%nat, 2%nat, 12%nat, revised_orders. split; [exact revised_denoted|]. split; [apply le_n|].
  split; [exact H1|]. split; [exact H2|]. split; [exact revised_means|]. split; [exact H3|]. split; [exact H4|]. split; [reflexivity|]. split; [vm_compute; reflexivity|].
  split; [|apply nodupb_ok; vm_compute; reflexivity].
  intros n d Hin. cbn [In revised_program] in Hin. repeat (destruct Hin as [Hin|Hin]; [|]); [.. |destruct Hin]; injection Hin as <- <-;
    (split; [cbn; try lia; auto|apply not_in_dec; vm_compute; reflexivity]).
Qed.
Lemma message_later : later_modules message_modules revised_modules.
Proof.
  intros a m k d [H|[H|[H|[]]]]; injection H as <- <-; intros Hd.
  - exists "Constants", revised_constants, d. split; [left; reflexivity|]. split; [|constructor]. destruct Hd as [Hd|[Hd|[Hd|[]]]]; rewrite <- Hd; cbn; auto.
  - exists "Containers", message_containers, d. split; [right; left; reflexivity|]. split; [exact Hd|constructor].
  - destruct Hd as [Hd|[Hd|[Hd|[Hd|[]]]]]; injection Hd as <- <-; exists "Contents", revised_contents; eexists; (split; [right; right; left; reflexivity|]).
    + split; [left; reflexivity|constructor].
    + split; [right; left; reflexivity|constructor].
    + split; [right; right; left; reflexivity|]. apply LD_set. rewrite app_nil_r. apply incl_appl, incl_refl.
    + split; [right; right; right; left; reflexivity|constructor].
Qed.
Lemma message_sets_kept : sets_kept message_meaning revised_meaning.
Proof.
  intros S s1 s2 H1 H2. cbn [sets message_meaning revised_meaning] in H1, H2. unfold find in H1, H2. cbn [lookup] in H1, H2.
  destruct (String.eqb S "MessageIEs"); [|discriminate]. injection H1 as <-. injection H2 as <-. split; [|discriminate].
  intros o o' nm nm' z [<-|[<-|[<-|[]]]] [<-|[<-|[<-|[]]]] E1 E2; vm_compute in E1, E2; congruence.
Qed.

Definition revised_value : val :=
  VSeq [None; Some (VList [VSeq [Some (VI 1); Some (VAlt 1 (VB true))]; VSeq [Some (VI 2); Some (VAlt 2 (VI 7))]])].
Lemma C64_case_values_proof : newer message_ty revised_ty /\ same_value message_ty revised_ty message_value revised_value /\
  rust_means (map item_of message_program) "Message" message_ty /\ rust_means (map item_of revised_program) "Message" revised_ty /\
  exists d, enc checked_env message_ty message_value new_data = (Ok tt, d) /\ into_bytes d = [16; 0; 1; 1; 128; 0; 2; 1; 112]%Z /\
    fst (dec checked_env revised_ty (from_slice (into_bytes d))) = Ok revised_value.
Proof.
  assert (M1 : rust_means (map item_of message_program) "Message" message_ty) by exact (proj1 (proj2 (proj2 (proj2 (proj2 C55_case_program_proof))))).
  split; [|split; [|split; [exact M1|split]]].
  - destruct C47_objects_proof as (W1 & I1 & B1 & R1 & _). destruct revised_schema as (W2 & I2 & _).
    refine (C64_modules_proof message_meaning revised_meaning message_modules revised_modules 2 2 W1 W2 I1 I2 B1 revised_means R1 message_later message_sets_kept
      "Contents" message_contents "Message" message_ty revised_ty _ _ eq_refl eq_refl); [right; right; left; reflexivity|right; right; right; left; reflexivity].
  - apply V_seq, V_absent, V_fman; [|constructor]. apply V_seqof, V_lcons; [|apply V_lcons; [|constructor]]; (apply V_seq, V_fman; [apply V_simple; exact Logic.I|apply V_fman; [|constructor]]).
    + eapply V_open; [reflexivity|reflexivity|]. apply V_simple. exact Logic.I.
    + eapply V_open; [reflexivity|reflexivity|]. apply V_simple. exact Logic.I.
  - destruct revised_compiled as (n & depth & fuel & orders & Hd & Hn & Hw & Hi & Hm & Hr & Ho & Eo & Hc & Hp & Hnd).
    exact (C55_compiled_proof is_digit checked_env depth fuel _ revised_meaning n revised_modules orders revised_program digits_numeric Hd Hn Hw Hi Hm Hr Ho Eo Hc Hp
      "Contents" revised_contents "Message" revised_ty ltac:(right; right; left; reflexivity) ltac:(right; right; right; left; reflexivity) eq_refl).
  - eexists. split; [vm_compute; reflexivity|]. split; vm_compute; reflexivity.
Qed.
(* { list { { id 1, value TRUE }, { id 3, value 5 } } } *)
Definition novel_value : val :=
  VSeq [None; Some (VList [VSeq [Some (VI 1); Some (VAlt 1 (VB true))]; VSeq [Some (VI 3); Some (VAlt 0 (VI 5))]])].
Lemma C64_unknown_proof : exists d, enc checked_env revised_ty novel_value new_data = (Ok tt, d) /\ into_bytes d = [16; 0; 1; 1; 128; 0; 3; 1; 80]%Z /\
  fst (dec checked_env revised_ty (from_slice (into_bytes d))) = Ok novel_value /\
  fst (dec checked_env message_ty (from_slice (into_bytes d))) = Err.
Proof. eexists. split; [vm_compute; reflexivity|]. split; [vm_compute; reflexivity|]. split; vm_compute; reflexivity. Qed.
(* the SEQUENCE OF SEQUENCE { id IES.&id ({S}), value IES.&Value ({S}{@id}) },
   before and after objects have been added to S *)
Definition one_set (s : set_meaning) : meaning := mkMeaning (fun _ => None) (fun _ => None) (fun _ => None) (find [("MessageIEs", s)]) (fun _ => None) (fun _ => false).
Definition entries : asn_type :=
  mkType (KSequenceOf (Some (CSubtype (mkSet [[ESize (mkSet [[ERange "1" true "8" true]] None)]] None))) (field_type "MessageIEs")) (Some []).
Definition no_entries_ty := TSeqOf (Some 1%Z) (Some 8%Z) false (TSeq false 0 FNil).
Definition entries_ty := TSeqOf (Some 1%Z) (Some 8%Z) false field_ty.
Lemma C64_empty_set_proof :
  (forall sees, sees "MessageIEs" = true -> means_in (one_set (mkSetMeaning "&id" [])) [] 0 sees (fun _ => true) entries no_entries_ty) /\
  (forall sees, sees "MessageIEs" = true -> means_in (one_set message_set) [] 0 sees (fun _ => true) entries entries_ty) /\
  fst (dec checked_env entries_ty (from_slice [32; 0; 1; 1; 128; 0; 2; 1; 112]))%Z =
    Ok (VList [VSeq [Some (VI 1); Some (VAlt 0 (VB true))]; VSeq [Some (VI 2); Some (VAlt 1 (VI 7))]]) /\
  fst (dec checked_env no_entries_ty (from_slice [32; 0; 1; 1; 128; 0; 2; 1; 112]))%Z = Ok (VList [VSeq []; VSeq []]).
Proof.
  split; [|split; [|split; vm_compute; reflexivity]]; intros sees Hs; (apply A_sequence_of; [now right|apply (size_given _ (mkSet [[ERange "1" true "8" true]] None)); apply single_range; [reflexivity|reflexivity|lia|lia]|]).
  - apply (A_class_sequence_none _ _ _ _ _ "MessageIEs" (mkSetMeaning "&id" [])); [now right|unfold restrict; now rewrite Hs|reflexivity|discriminate|].
    constructor; [|constructor; [|constructor]]; (do 6 eexists; split; [reflexivity|]); [exact (Over_table "MessageIEs")|constructor].
  - apply (A_class_sequence _ _ _ _ _ "MessageIEs" message_set); [now right|unfold restrict; now rewrite Hs|discriminate|discriminate|].
    apply (CF_value _ _ "id" "IES" "&id" _ false None id_ty).
    + exact (Over_table "MessageIEs").
    + split; reflexivity.
    + intros o [<-|[<-|[]]]; eexists; reflexivity.
    + apply (CF_type _ _ "value" "IES" "&Value" _ true None); [constructor| | |constructor].
      * intros o T v [<-|[<-|[]]]; discriminate.
      * exists [("id-one", 1%Z, TBool); ("id-two", 2%Z, two_ty)]. split; [|split; [reflexivity|]].
        -- constructor; [constructor; constructor|]. constructor; [reflexivity|constructor].
        -- intros nm z T. split.
           ++ intros [H|[H|[]]]; injection H as <- <- <-; [exists object_one|exists object_two]; (split; [cbn; auto|split; reflexivity]).
           ++ intros (o & [<-|[<-|[]]] & H1 & H2); vm_compute in H1, H2; injection H1 as <- <-; injection H2 as <-; cbn; auto.
Qed.
