(* Files in any order of their modules, and the examples and counterexamples
   of C57. *)
From Coq Require Import ZArith NArith List Bool String Ascii Lia Permutation.
Require Import Verif.Base Verif.Spec Verif.Asn1Model Verif.GenModel Verif.ResolveModel Verif.TokenModel Verif.ParserModel Verif.ModuleModel
  Verif.DefinitionModel Verif.ParserSpec Verif.DefinitionSpec Verif.CompilerSpec Verif.TopoProofs Verif.ObjectProofs Verif.ModuleProofs Verif.ParserFacts Verif.ObjectFacts Verif.LinkSpec Verif.LinkProofs Verif.LinkFacts
  Verif.OrderSpec Verif.OrderProofs.
Require Verif.TokenSpec.
Import ListNotations.
Open Scope string_scope.
Open Scope list_scope.

(* The sort does not look at the order of the nodes. *)
Definition same_graph (g g' : graph) : Prop := Permutation (g_nodes g) (g_nodes g') /\ forall e, In e (g_edges g) <-> In e (g_edges g').
Lemma ready_same g g' : same_graph g g' -> NoDup (g_nodes g) -> Permutation (ready g) (ready g').
Proof.
  intros [Hn He] Hnd. assert (Hnd' : NoDup (g_nodes g')) by (eapply Permutation_NoDup; eassumption).
  apply NoDup_Permutation; [now apply NoDup_filter|now apply NoDup_filter|]. intros x. rewrite !in_ready. split; intros [H1 H2].
  - split; [now apply (Permutation_in _ Hn)|]. intros a Ha Hin. apply (H2 a); [now apply He|]. now apply (Permutation_in _ (Permutation_sym Hn)).
  - split; [now apply (Permutation_in _ (Permutation_sym Hn))|]. intros a Ha Hin. apply (H2 a); [now apply He|]. now apply (Permutation_in _ Hn).
Qed.
Lemma permutation_filter {A} (f : A -> bool) l l' : Permutation l l' -> Permutation (filter f l) (filter f l').
Proof.
  induction 1 as [|x l l' _ IH|x y l|l1 l2 l3 _ IH1 _ IH2]; cbn [filter]; [constructor| | |eapply perm_trans; eassumption].
  - destruct (f x); [now constructor|exact IH].
  - destruct (f x), (f y); try apply perm_swap; reflexivity.
Qed.
Lemma pops_same g out : pops g out -> forall g', same_graph g g' -> NoDup (g_nodes g) -> pops g' out.
Proof.
  induction 1 as [g Hr|g batch out Hr Hb _ IH]; intros g' Hs Hnd; pose proof (ready_same g g' Hs Hnd) as Hp.
  - constructor. rewrite Hr in Hp. now apply Permutation_nil.
  - constructor.
    + intros Hr'. rewrite Hr' in Hp. apply Hr. apply Permutation_nil. now symmetry.
    + eapply perm_trans; eassumption.
    + apply IH; [|now apply NoDup_filter]. destruct Hs as [Hn He]. split; [now apply permutation_filter|exact He].
Qed.
Lemma sorted_permutation modules modules' o : Permutation modules modules' -> sorted_modules modules o -> sorted_modules modules' o.
Proof.
  intros Hp H. eapply pops_same; [exact H| |apply graph_nodup]. unfold modules_graph.
  set (f := fun nm : string * module => map (fun i : string * string => (snd i, fst nm)) (m_imports (snd nm))).
  assert (He : forall e, In e (flat_map f modules) <-> In e (flat_map f modules')).
  { intros e. rewrite !in_flat_map. split; intros (x & Hx & Hin); exists x; (split; [|exact Hin]);
      [now apply (Permutation_in _ Hp)|now apply (Permutation_in _ (Permutation_sym Hp))]. }
  split; [|exact He]. apply NoDup_Permutation; [apply graph_nodup|apply graph_nodup|]. intros x. rewrite !graph_nodes.
  assert (Hm : forall (h : string * string -> string), In x (map h (flat_map f modules)) <-> In x (map h (flat_map f modules'))).
  { intros h. rewrite !in_map_iff. split; intros (y & Hy & Hin); exists y; (split; [exact Hy|now apply He]). }
  rewrite !Hm. assert (Hk : In x (map fst modules) <-> In x (map fst modules')); [|tauto].
  split; apply Permutation_in, Permutation_map; [exact Hp|now symmetry].
Qed.
(* Nor does the denotation of the files. *)
Lemma forall2_permutation {A B} (R : A -> B -> Prop) l l' : Permutation l l' -> forall k, Forall2 R k l -> exists k', Permutation k k' /\ Forall2 R k' l'.
Proof.
  induction 1 as [|x l l' _ IH|x y l|l1 l2 l3 _ IH1 _ IH2]; intros k H.
  - inversion H. subst. exists []. now split.
  - inversion H as [|a b k0 l0 Hab Hr]. subst. destruct (IH k0 Hr) as (k' & P & Q). exists (a :: k'). split; [now constructor|now constructor].
  - inversion H as [|a b k0 l0 Hab Hr]. subst. inversion Hr as [|a' b' k1 l1 Hab' Hr']. subst. exists (a' :: a :: k1). split; [apply perm_swap|repeat constructor; assumption].
  - destruct (IH1 k H) as (k1 & P1 & Q1). destruct (IH2 k1 Q1) as (k2 & P2 & Q2). exists k2. split; [eapply perm_trans; eassumption|exact Q2].
Qed.
Lemma denotes_same numeric ms ms' pm m : (forall x, In x ms -> In x ms') -> module_denotes numeric ms pm m -> module_denotes numeric ms' pm m.
Proof.
  intros Hi [H1 H2]. split; [exact H1|]. revert H2. generalize (pm_defs pm) (m_defs m). intros a b. induction 1 as [|p d a b (A1 & A2 & A3) _ IH]; constructor; [|exact IH].
  assert (Hc : forall name c, sees_class ms pm name c -> sees_class ms' pm name c).
  { intros name c [H|(m' & H & H')]; [now left|]. right. exists m'. split; [now apply Hi|exact H']. }
  repeat split; try assumption. destruct A2; econstructor; eauto.
Qed.
Lemma denotes_permutation numeric files modules modules' : Permutation modules modules' -> schema_denotes numeric files modules -> schema_denotes numeric files modules'.
Proof.
  intros Hp (pms & sorted & H1 & H2 & H3). destruct (forall2_permutation _ _ _ Hp _ H3) as (sorted' & P & Q). exists pms, sorted'. split; [exact H1|].
  split; [eapply perm_trans; [symmetry; exact P|exact H2]|]. eapply forall2_impl; [|exact Q]. intros a b _ _ [A B]. split; [exact A|].
  eapply denotes_same; [|exact B]. intros x. now apply Permutation_in.
Qed.
Lemma named_permutation modules modules' : Permutation modules modules' -> well_named modules -> well_named modules'.
Proof.
  intros Hp (H1 & H2 & H3). split; [eapply Permutation_NoDup; [apply Permutation_map, Hp|exact H1]|].
  split; [eapply Permutation_NoDup; [apply Permutation_flat_map, Hp|exact H2]|]. rewrite Forall_forall in *. intros x Hx.
  apply H3. now apply (Permutation_in _ (Permutation_sym Hp)).
Qed.
Lemma imports_permutation modules modules' : Permutation modules modules' -> imports_defined modules -> imports_defined modules'.
Proof.
  intros Hp H n m r n' Hm Hr. destruct (H n m r n') as (m' & A & B); [now apply (Permutation_in _ (Permutation_sym Hp))|exact Hr|].
  exists m'. split; [now apply (Permutation_in _ Hp)|exact B].
Qed.
Lemma valid_permutation modules modules' o : NoDup (map fst modules) -> Permutation modules modules' -> valid_orders modules o -> valid_orders modules' o.
Proof.
  intros Hn Hp [V1 V2]. split; [now apply (sorted_permutation modules)|]. rewrite Forall_forall in *. intros x Hx m Hm.
  apply (V2 x Hx). now rewrite <- (lookup_permutation modules modules' (fst x) Hn Hp).
Qed.
Lemma rfold_ext {A B} (f g : B -> A -> res B) l : (forall b a, f b a = g b a) -> forall b, rfold f b l = rfold g b l.
Proof.
  intros H. induction l as [|x l IH]; intros b; cbn [rfold]; [reflexivity|]. rewrite H. destruct (g b x); cbn [rbind]; try reflexivity. apply IH.
Qed.
Lemma compile_permutation E inst fuel modules modules' o : NoDup (map fst modules) -> Permutation modules modules' ->
  compile E inst fuel modules' o = compile E inst fuel modules o.
Proof.
  intros Hn Hp. unfold compile, resolve_modules.
  assert (Hi : resolve_imports modules' = resolve_imports modules).
  { unfold resolve_imports. assert (Hb : forall b b' : bool, (b = true <-> b' = true) -> b = b') by (intros [] [] [A B]; auto; symmetry; auto).
    assert (Heq : forallb (fun nm : string * module => forallb (fun i => mem (snd i) (map fst modules')) (m_imports (snd nm))) modules' =
                  forallb (fun nm : string * module => forallb (fun i => mem (snd i) (map fst modules)) (m_imports (snd nm))) modules); [|now rewrite Heq].
    apply Hb. assert (Hm : forall s, mem s (map fst modules') = true <-> mem s (map fst modules) = true).
    { intros s. rewrite !mem_in. split; apply Permutation_in, Permutation_map; [now symmetry|exact Hp]. }
    rewrite !forallb_forall. split; intros H x Hx.
    - apply (Permutation_in _ Hp), H in Hx. rewrite forallb_forall in *. intros i Hin. now apply Hm, Hx.
    - apply (Permutation_in _ (Permutation_sym Hp)), H in Hx. rewrite forallb_forall in *. intros i Hin. now apply Hm, Hx. }
  assert (Hr : resolve_in_order E inst fuel modules' o = resolve_in_order E inst fuel modules o).
  { unfold resolve_in_order. apply rfold_ext. intros st no. now rewrite (lookup_permutation modules modules' _ Hn Hp). }
  now rewrite Hi, Hr.
Qed.
Theorem files_compiled_in_order num E depth fuel files modules o : numeric_characters num -> schema_denotes (fun z => num z = true) files modules ->
  well_named modules -> imports_defined modules -> valid_orders modules o -> Permutation (map fst modules) (map fst o) ->
  compile_files num E depth fuel files o = compile E (instantiate E depth) fuel modules o.
Proof.
  intros Hnum Hd Hw Hi Ho Hp. apply Permutation_sym, Permutation_map_inv in Hp. destruct Hp as (modules' & Heq & Hp).
  rewrite (files_compiled num E depth fuel files modules' o Hnum).
  - apply compile_permutation; [apply Hw|exact Hp].
  - eapply denotes_permutation; eassumption.
  - eapply named_permutation; eassumption.
  - eapply imports_permutation; eassumption.
  - eapply valid_permutation; [apply Hw|exact Hp|exact Ho].
  - now symmetry.
Qed.
Theorem C57_files_proof num E depth fuel files modules o o' p p' : numeric_characters num -> schema_denotes (fun z => num z = true) files modules ->
  well_named modules -> imports_defined modules -> items_apart modules -> settled depth modules ->
  valid_orders modules o -> Permutation (map fst modules) (map fst o) -> valid_orders modules o' -> Permutation (map fst modules) (map fst o') ->
  compile_files num E depth fuel files o = Ok p -> compile_files num E depth fuel files o' = Ok p' -> p = p'.
Proof.
  intros Hnum Hd Hw Hi Ha Hs V P V' P'. rewrite !(files_compiled_in_order num E depth fuel files modules) by assumption.
  apply compile_deterministic with (modules := modules); auto.
Qed.
Lemma orders_exist modules : exists o, valid_orders modules o.
Proof.
  destruct (pops_exists (modules_graph modules)) as (names & Hnames).
  assert (H : exists o, map fst o = names /\ Forall (fun no => forall m, lookup (fst no) modules = Some m -> sorted_definitions m (snd no)) o).
  { clear Hnames. induction names as [|a names (o & <- & Ho)]; [now exists []|]. destruct (lookup a modules) as [m|] eqn:Hl.
    - destruct (pops_exists (definitions_graph m)) as (l & Hl'). exists ((a, l) :: o). split; [reflexivity|]. constructor; [|exact Ho].
      cbn [fst snd]. intros m' Hm'. assert (m' = m) by congruence. subst m'. exact Hl'.
    - exists ((a, []) :: o). split; [reflexivity|]. constructor; [|exact Ho]. cbn [fst]. intros m' Hm'. congruence. }
  destruct H as (o & <- & Ho). exists o. now split.
Qed.
Theorem C57_total_proof num E depth fuel files M n modules : numeric_characters num -> schema_denotes (fun z => num z = true) files modules ->
  (n <= depth)%nat -> well_named modules -> imports_defined modules ->
  (forall a m, In (a, m) modules -> module_means M modules n m) -> not_recursive M modules ->
  (List.length (flat_map (fun nm => def_names (snd nm)) modules) < fuel)%nat ->
  (forall a m k d, In (a, m) modules -> In (k, d) (m_defs m) -> has_meaning M k \/ d_params d <> None \/ exists f, d_kind d = DKClass f) ->
  items_apart modules -> settled depth modules ->
  exists p, forall o, valid_orders modules o -> Permutation (map fst modules) (map fst o) -> compile_files num E depth fuel files o = Ok p.
Proof.
  intros Hnum Hd Hn Hw Hi Hm Hr Hf Hk Ha Hs.
  assert (T : forall o, valid_orders modules o -> exists p, compile E (instantiate E depth) fuel modules o = Ok p).
  { intros o V. exact (compile_total E depth fuel M modules n o Hn Hw Hi Hm Hr V Hf Hk). }
  destruct (orders_exist modules) as (o0 & V0). destruct (T o0 V0) as (p & Hp). exists p. intros o V P.
  rewrite (files_compiled_in_order num E depth fuel files modules o Hnum Hd Hw Hi V P). destruct (T o V) as (q & Hq). rewrite Hq. f_equal.
  exact (compile_deterministic E depth fuel modules modules o o0 q p Hw Ha Hs (Permutation_refl _) V V0 Hq Hp).
Qed.

(* ------------------------------------------------------------------ *)
(* Checks by computation                                               *)
(* ------------------------------------------------------------------ *)
Definition same_names (l l' : list string) : bool := nodupb l && nodupb l' && forallb (fun x => mem x l') l && forallb (fun x => mem x l) l'.
Fixpoint popsb (fuel : nat) (g : graph) (out : list string) : bool :=
  match fuel with
  | O => false
  | S f =>
      match ready g with
      | [] => match out with [] => true | _ => false end
      | r => let batch := firstn (List.length r) out in same_names batch r && popsb f (remove_nodes batch g) (skipn (List.length r) out)
      end
  end.
Lemma popsb_ok : forall fuel g out, popsb fuel g out = true -> pops g out.
Proof.
  induction fuel as [|f IH]; intros g out; cbn [popsb]; [discriminate|]. destruct (ready g) as [|r l] eqn:Hr.
  - destruct out; [|discriminate]. intros _. now constructor.
  - intros H. apply andb_true_iff in H. destruct H as [H1 H2]. rewrite <- (firstn_skipn (List.length (r :: l)) out). constructor.
    + rewrite Hr. discriminate.
    + rewrite Hr. now apply permutation_ok.
    + now apply IH.
Qed.
Definition valid_ordersb (modules : list (string * module)) (orders : list (string * list string)) : bool :=
  popsb 100 (modules_graph modules) (map fst orders) &&
  forallb (fun no => match lookup (fst no) modules with Some m => popsb 100 (definitions_graph m) (snd no) | None => true end) orders.
Lemma valid_ordersb_ok modules orders : valid_ordersb modules orders = true -> valid_orders modules orders.
Proof.
  unfold valid_ordersb. rewrite andb_true_iff, forallb_forall. intros [H1 H2]. split; [now apply (popsb_ok 100)|].
  apply Forall_forall. intros no Hno m Hm. specialize (H2 no Hno). rewrite Hm in H2. now apply (popsb_ok 100).
Qed.
(* true if it is not known to be false *)
Fixpoint may_enum (modules : list (string * module)) (fuel : nat) (t : asn_type) : bool :=
  match fuel with
  | O => true
  | S f =>
      match t with
      | mkType (KBuiltin (BEnumerated _ _ _)) _ => true
      | mkType (KReference (RefParam _ _)) _ => true
      | mkType (KReference (RefName r)) _ =>
          existsb (fun nm : string * module => existsb (fun kd : string * definition =>
            String.eqb r (fst kd) && match d_kind (snd kd) with DKType t => may_enum modules f t | _ => false end) (m_defs (snd nm))) modules
      | _ => false
      end
  end.
Lemma may_enum_ok modules t : may_be_enumerated modules t -> forall fuel, may_enum modules fuel t = true.
Proof.
  induction 1 as [root ext more cs|r cs a m t p Hm Hr _ IH|r ps cs]; intros [|f]; try reflexivity. cbn [may_enum]. apply existsb_exists. exists (a, m). split; [exact Hm|].
  apply existsb_exists. exists (r, mkDef (DKType t) p). split; [exact Hr|]. cbn [fst snd d_kind]. now rewrite String.eqb_refl, IH.
Qed.
Definition items_apartb (modules : list (string * module)) : bool :=
  forallb (fun nm : string * module => forallb (fun kd : string * definition => forallb (fun ts : asn_type * string =>
    negb (may_enum modules 10 (fst ts) && mem (snd ts) (flat_map (fun nm : string * module => def_names (snd nm)) modules))) (value_texts (d_kind (snd kd)))) (m_defs (snd nm))) modules.
Lemma items_apartb_ok modules : items_apartb modules = true -> items_apart modules.
Proof.
  unfold items_apartb. intros H a m k d t s Hm Hk Hts Ht (a' & m' & Hm' & Hs). rewrite forallb_forall in H. specialize (H _ Hm). cbn [snd] in H.
  rewrite forallb_forall in H. specialize (H _ Hk). cbn [snd] in H. rewrite forallb_forall in H. specialize (H _ Hts). cbn [fst snd] in H.
  rewrite (may_enum_ok _ _ Ht) in H. cbn [andb] in H. apply negb_true_iff in H. apply Bool.not_true_iff_false in H. apply H, mem_in, in_flat_map. now exists (a', m').
Qed.
Definition settledb (depth : nat) (modules : list (string * module)) : bool :=
  forallb (fun nm : string * module => forallb (fun kd : string * definition =>
    match d_params (snd kd) with
    | Some _ => true
    | None => settled_assignment (set_names modules) (settled_instance modules depth) (d_kind (snd kd))
    end) (m_defs (snd nm))) modules.
Lemma settledb_ok depth modules : settledb depth modules = true -> settled depth modules.
Proof.
  unfold settledb. intros H a m k d Hm Hk Hp. rewrite forallb_forall in H. specialize (H _ Hm). cbn [snd] in H. rewrite forallb_forall in H. specialize (H _ Hk).
  cbn [snd] in H. now rewrite Hp in H.
Qed.

(* ------------------------------------------------------------------ *)
(* Cases                                                               *)
(* ------------------------------------------------------------------ *)
Definition message_orders' : list (string * list string) :=
  [("Constants", ["ID"; "id-two"; "id-one"]); ("Containers", ["Set"; "IES"; "Field"; "Container"]);
   ("Contents", ["ID"; "Two"; "One"; "MessageIEs"; "Message"])].
Lemma C57_message_proof : items_apart message_modules /\ settled 2 message_modules /\ message_orders <> message_orders' /\
  valid_orders message_modules message_orders /\ valid_orders message_modules message_orders' /\
  Permutation (map fst message_modules) (map fst message_orders) /\ Permutation (map fst message_modules) (map fst message_orders').
Proof.
  split; [apply items_apartb_ok; vm_compute; reflexivity|]. split; [apply settledb_ok; vm_compute; reflexivity|]. split; [discriminate|].
  split; [apply valid_ordersb_ok; vm_compute; reflexivity|]. split; [apply valid_ordersb_ok; vm_compute; reflexivity|]. split; reflexivity.
Qed.
(* a module that has nothing to do with the others, and items of an ENUMERATED
   type as values *)
Definition C57_text : string := "
  Types DEFINITIONS AUTOMATIC TAGS ::= BEGIN
    Criticality ::= ENUMERATED { reject, ignore }
    Number ::= INTEGER (0..255)
    first Number ::= 1
    second Number ::= 2
    CLS ::= CLASS { &id Number UNIQUE, &criticality Criticality, &Value } WITH SYNTAX { ID &id CRITICALITY &criticality TYPE &Value }
    Field{CLS:Set} ::= SEQUENCE { id CLS.&id ({Set}), criticality CLS.&criticality ({Set}{@id}), value CLS.&Value ({Set}{@id}) }
  END
  Messages DEFINITIONS AUTOMATIC TAGS ::= BEGIN
    IMPORTS CLS, Field, first, second, Number, Criticality FROM Types;
    Flag ::= BOOLEAN
    Fields CLS ::= { {ID first CRITICALITY reject TYPE Flag} | {ID second CRITICALITY ignore TYPE Number}, ... }
    Message ::= SEQUENCE { field Field{{Fields}}, more SEQUENCE (SIZE (0..3)) OF Number }
  END
  Clock DEFINITIONS AUTOMATIC TAGS ::= BEGIN
    Hour ::= INTEGER (0..23)
    Time ::= SEQUENCE { hour Hour, minute INTEGER (0..59) OPTIONAL }
  END".
Definition C57_orders : list (string * list string) :=
  [("Types", ["Criticality"; "Number"; "Set"; "first"; "second"; "CLS"; "Field"]); ("Clock", ["Hour"; "Time"]);
   ("Messages", ["Flag"; "Fields"; "Message"])].
Definition C57_orders' : list (string * list string) :=
  [("Clock", ["Hour"; "Time"]); ("Types", ["Set"; "Number"; "Criticality"; "CLS"; "second"; "first"; "Field"]);
   ("Messages", ["Flag"; "Fields"; "Message"])].
Definition modules_of (text : string) (names : list string) : list (string * module) := match linked [text] names with Ok m => m | _ => [] end.
Definition C57_modules := Eval vm_compute in modules_of C57_text ["Types"; "Clock"; "Messages"].
Definition C57_compiled (modules : list (string * module)) (orders : list (string * list string)) : res (list (string * gdef)) :=
  compile checked_env (instantiate checked_env 2) 10 modules orders.
Lemma C57_case_proof : linked [C57_text] ["Types"; "Clock"; "Messages"] = Ok C57_modules /\ well_named C57_modules /\ items_apart C57_modules /\ settled 2 C57_modules /\
  C57_orders <> C57_orders' /\ valid_orders C57_modules C57_orders /\ valid_orders C57_modules C57_orders' /\
  exists p, C57_compiled C57_modules C57_orders = Ok p /\ C57_compiled (rev C57_modules) C57_orders' = Ok p /\ (List.length p >= 10)%nat.
Proof.
  split; [vm_compute; reflexivity|]. split; [apply well_namedb_ok; vm_compute; reflexivity|].
  split; [apply items_apartb_ok; vm_compute; reflexivity|]. split; [apply settledb_ok; vm_compute; reflexivity|]. split; [discriminate|].
  split; [apply valid_ordersb_ok; vm_compute; reflexivity|]. split; [apply valid_ordersb_ok; vm_compute; reflexivity|].
  set (r := C57_compiled C57_modules C57_orders). vm_compute in r. match goal with r := Ok ?p |- _ => exists p end. subst r.
  split; [reflexivity|]. split; [vm_compute; reflexivity|]. cbn [List.length]. lia.
Qed.

(* ------------------------------------------------------------------ *)
(* Witnesses                                                           *)
(* ------------------------------------------------------------------ *)
(* red is an item of Colour and a value of another module, which no module
   imports *)
Definition red_text : string := "
  Colours DEFINITIONS AUTOMATIC TAGS ::= BEGIN
    Colour ::= ENUMERATED { red, green }
    CLS ::= CLASS { &id Colour UNIQUE, &Value } WITH SYNTAX { ID &id TYPE &Value }
    Flag ::= BOOLEAN
    Set CLS ::= { {ID red TYPE Flag} }
    Message ::= SEQUENCE { id CLS.&id ({Set}), value CLS.&Value ({Set}{@id}) }
  END
  Numbers DEFINITIONS AUTOMATIC TAGS ::= BEGIN
    red INTEGER ::= 5
  END".
Definition red_modules := Eval vm_compute in modules_of red_text ["Colours"; "Numbers"].
Definition red_order : string * list string := ("Colours", ["Colour"; "Flag"; "CLS"; "Set"; "Message"]).
Lemma C57_item_refuted_proof : exists modules o o' p p', linked [red_text] ["Colours"; "Numbers"] = Ok modules /\ well_named modules /\ settled 2 modules /\
  valid_orders modules o /\ valid_orders modules o' /\ C57_compiled modules o = Ok p /\ C57_compiled modules o' = Ok p' /\
  lookup "MessageValue" p = Some (GOpen true []) /\ lookup "MessageValue" p' = Some (GOpen true [mkVariant "Red" 5 false "Flag"]).
Proof.
  exists red_modules, [red_order; ("Numbers", ["red"])], [("Numbers", ["red"]); red_order].
  set (r := C57_compiled red_modules [red_order; ("Numbers", ["red"])]). set (r' := C57_compiled red_modules [("Numbers", ["red"]); red_order]).
  vm_compute in r. vm_compute in r'. match goal with r := Ok ?p |- _ => match goal with r' := Ok ?p' |- _ => lazymatch p with p' => fail | _ => exists p', p end end end.
  subst r r'.
  split; [vm_compute; reflexivity|]. split; [apply well_namedb_ok; vm_compute; reflexivity|]. split; [apply settledb_ok; vm_compute; reflexivity|].
  split; [apply valid_ordersb_ok; vm_compute; reflexivity|]. split; [apply valid_ordersb_ok; vm_compute; reflexivity|].
  split; [reflexivity|]. split; [reflexivity|]. split; reflexivity.
Qed.
(* a component constrained by an object set, of a type of another module,
   which no module imports *)
Definition drop_text : string := "
  Frames DEFINITIONS AUTOMATIC TAGS ::= BEGIN
    CLS ::= CLASS { &id INTEGER UNIQUE, &Value } WITH SYNTAX { ID &id TYPE &Value }
    Flag ::= BOOLEAN
    Set CLS ::= { {ID 1 TYPE Flag} }
    Message ::= SEQUENCE { id Number ({Set}) }
  END
  Numbers DEFINITIONS AUTOMATIC TAGS ::= BEGIN
    Number ::= INTEGER (0..255)
  END".
Definition drop_modules := Eval vm_compute in modules_of drop_text ["Frames"; "Numbers"].
Definition drop_order : string * list string := ("Frames", ["Flag"; "CLS"; "Number"; "Set"; "Message"]).
Lemma C57_dropped_refuted_proof : exists modules o o' p p', linked [drop_text] ["Frames"; "Numbers"] = Ok modules /\ well_named modules /\ items_apart modules /\
  valid_orders modules o /\ valid_orders modules o' /\ C57_compiled modules o = Ok p /\ C57_compiled modules o' = Ok p' /\
  lookup "Message" p = Some (GSequence false None []) /\ lookup "Message" p' = Some (GSequence false None [mkField "id" None false "Number"]).
Proof.
  exists drop_modules, [drop_order; ("Numbers", ["Number"])], [("Numbers", ["Number"]); drop_order].
  set (r := C57_compiled drop_modules [drop_order; ("Numbers", ["Number"])]). set (r' := C57_compiled drop_modules [("Numbers", ["Number"]); drop_order]).
  vm_compute in r. vm_compute in r'. match goal with r := Ok ?p |- _ => match goal with r' := Ok ?p' |- _ => lazymatch p with p' => fail | _ => exists p', p end end end.
  subst r r'.
  split; [vm_compute; reflexivity|]. split; [apply well_namedb_ok; vm_compute; reflexivity|]. split; [apply items_apartb_ok; vm_compute; reflexivity|].
  split; [apply valid_ordersb_ok; vm_compute; reflexivity|]. split; [apply valid_ordersb_ok; vm_compute; reflexivity|].
  split; [reflexivity|]. split; [reflexivity|]. split; reflexivity.
Qed.
(* two modules that define the same name *)
Definition twice_text : string := "
  First DEFINITIONS AUTOMATIC TAGS ::= BEGIN Number ::= INTEGER (0..255) END
  Second DEFINITIONS AUTOMATIC TAGS ::= BEGIN Number ::= BOOLEAN END".
Definition twice_modules := Eval vm_compute in modules_of twice_text ["First"; "Second"].
Lemma C57_twice_refuted_proof : exists modules o o' p p', linked [twice_text] ["First"; "Second"] = Ok modules /\ items_apart modules /\ settled 2 modules /\
  valid_orders modules o /\ valid_orders modules o' /\ C57_compiled modules o = Ok p /\ C57_compiled modules o' = Ok p' /\
  p = [("Number", GBoolean)] /\ p' = [("Number", GInteger 8 false (Some 0) (Some 255) false)].
Proof.
  exists twice_modules, [("First", ["Number"]); ("Second", ["Number"])], [("Second", ["Number"]); ("First", ["Number"])], [("Number", GBoolean)], [("Number", GInteger 8 false (Some 0) (Some 255) false)].
  split; [vm_compute; reflexivity|]. split; [apply items_apartb_ok; vm_compute; reflexivity|]. split; [apply settledb_ok; vm_compute; reflexivity|].
  split; [apply valid_ordersb_ok; vm_compute; reflexivity|]. split; [apply valid_ordersb_ok; vm_compute; reflexivity|].
  split; [vm_compute; reflexivity|]. split; [vm_compute; reflexivity|]. split; reflexivity.
Qed.
(* a value that names a value: not an edge of the graph, so either may come
   first *)
Definition named_text : string := "
  Values DEFINITIONS AUTOMATIC TAGS ::= BEGIN
    first INTEGER ::= 5
    second INTEGER ::= first
    Flag ::= BOOLEAN
  END".
Definition named_modules := Eval vm_compute in modules_of named_text ["Values"].
Lemma C57_success_refuted_proof : exists modules o o', linked [named_text] ["Values"] = Ok modules /\ well_named modules /\ items_apart modules /\ settled 2 modules /\
  valid_orders modules o /\ valid_orders modules o' /\ C57_compiled modules o = Ok [("Flag", GBoolean)] /\ C57_compiled modules o' = Panic.
Proof.
  exists named_modules, [("Values", ["first"; "second"; "Flag"])], [("Values", ["second"; "first"; "Flag"])].
  split; [vm_compute; reflexivity|]. split; [apply well_namedb_ok; vm_compute; reflexivity|]. split; [apply items_apartb_ok; vm_compute; reflexivity|]. split; [apply settledb_ok; vm_compute; reflexivity|].
  split; [apply valid_ordersb_ok; vm_compute; reflexivity|]. split; [apply valid_ordersb_ok; vm_compute; reflexivity|]. split; vm_compute; reflexivity.
Qed.
