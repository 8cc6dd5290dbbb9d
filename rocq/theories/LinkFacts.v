(* The statements about objects and about whole schemas put together, and
   concrete cases. *)
From Coq Require Import ZArith NArith List Bool String Ascii Lia Permutation.
From Coq Require Import ZifyBool ZifyNat ZifyN.
Require Import Verif.Base Verif.Spec Verif.CodecModel Verif.ApiSpec Verif.DeriveModel Verif.DeriveSpec Verif.Asn1Model Verif.GenModel Verif.ResolveModel Verif.TokenModel Verif.ParserModel Verif.ModuleModel
  Verif.DefinitionModel Verif.ParserSpec Verif.DefinitionSpec Verif.ParamSpec Verif.CompilerSpec Verif.GenProofs Verif.ResolveProofs Verif.ModuleProofs
  Verif.DefGrammarProofs Verif.ParserFacts Verif.CompilerFacts Verif.RustModel Verif.RustSpec Verif.RustProofs Verif.RustFacts Verif.ObjectFacts Verif.LinkSpec Verif.LinkProofs.
Require Verif.TokenSpec Verif.TokenProofs.
Import ListNotations.
Open Scope string_scope.
Open Scope list_scope.

(* ------------------------------------------------------------------ *)
(* C54                                                                 *)
(* ------------------------------------------------------------------ *)
Theorem C54_objects_proof num c w fields : numeric_characters num -> well_worded c -> object_syntax c w fields ->
  Forall (from_text (fun z => num z = true)) w -> parse_object_from_class num (text w) c = Ok (Some fields).
Proof. intros Hn Hc Hw Hf. exact (read_object c Hc num w fields Hn Hw Hf). Qed.
(* the tokens of a text *)
Theorem C54_tokens_proof numeric cs l t : TokenSpec.items numeric cs l -> Forall (fun c => (0 <= c < 0x110000)%Z) cs ->
  In t (words_of_items l) -> ~ In (t_type t) [BitString; HexString] -> from_text numeric t.
Proof.
  induction 1 as [|c rest l Hb _ IH|ty w rest l Hl _ IH]; intros Hc Ht Hty.
  - destruct Ht.
  - apply IH; auto. now inversion Hc.
  - apply Forall_app in Hc as [Hw Hr]. unfold words_of_items in *. cbn [filter fst] in Ht.
    destruct (token_type_beq ty Comment) eqn:E; cbn [negb] in Ht; [now apply IH|]. destruct Ht as [<-|Ht]; [|now apply IH].
    exists w, rest. cbn [fst snd t_type t_text] in *. split; [exact Hl|]. split; [reflexivity|]. split; [exact Hw|].
    intros [<-|Hin]; [discriminate|exact (Hty Hin)].
Qed.
(* the fields of a class that is written in a text are different, and what
   stands before them are words *)
Lemma words_clause c w l : clause_syntax c w l -> forall f x, In (f, x) l -> exists ws, Forall word ws /\ x = text ws.
Proof.
  assert (Hw : forall w p, words_syntax w p -> exists ws, Forall word ws /\ snd p = text ws) by (intros v p [ws f H _]; cbn [snd]; eauto).
  intros [v p Hp _|v ps Hr _ _] f x Hin.
  - destruct Hin as [->|[]]. exact (Hw _ _ Hp).
  - clear w l. induction Hr as [|v p u ps Hp _ IH]; [destruct Hin|]. destruct Hin as [->|Hin]; [exact (Hw _ _ Hp)|exact (IH Hin)].
Qed.
Lemma names_worded l c c' : Forall2 (worded l) c c' -> names c = names c'.
Proof. intros H. apply forall2_map. eapply forall2_impl; [|exact H]. intros a b _ _ [E _]. exact E. Qed.
Theorem C54_classes_proof w c : class_syntax w c -> NoDup (names c) /\
  forall f spec x, In (f, spec) c -> words_before_field spec = Some x -> exists ws, Forall word ws /\ x = text ws.
Proof.
  intros [v c0 Hs Hn|v c0 u l c' Hs Hn Hl _ _ Hw].
  - split; [exact Hn|]. intros f spec x Hin Hx. exfalso.
    assert (Hf : forall w a, DefinitionSpec.field_syntax w a -> words_before_field (snd a) = None) by (intros ? ? []; reflexivity).
    clear - Hs Hin Hx Hf. induction Hs as [v a Ha|v a t u l Ha _ _ IH]; (destruct Hin as [->|Hin]; [apply Hf in Ha; cbn [snd] in Ha; congruence|]); [destruct Hin|exact (IH Hin)].
  - rewrite <- (names_worded _ _ _ Hw). split; [exact Hn|]. intros f spec x Hin Hx.
    assert (Hin' : In (f, x) (List.concat l)).
    { clear - Hw Hin Hx. induction Hw as [|[g a] [g' b] ? ? [E H] _ IH]; [destruct Hin|]. destruct Hin as [Hin|Hin]; [|exact (IH Hin)].
      injection Hin as -> ->. cbn [fst snd] in *. subst g. destruct a, spec; try contradiction; cbn [words_before_field] in Hx; subst;
        decompose [and] H; unfold words_of in *; cbn in *; subst; assumption. }
    clear - Hl Hin'. induction Hl as [|v p u ps Hp _ IH]; [destruct Hin'|]. cbn [List.concat] in Hin'. apply in_app_or in Hin' as [H|H]; [exact (words_clause _ _ _ Hp _ _ H)|exact (IH H)].
Qed.
Theorem C54_files_proof num files modules : numeric_characters num -> schema_denotes (fun z => num z = true) files modules ->
  well_named modules -> imports_defined modules -> sorted_modules modules (map fst modules) ->
  exists parsed, add_files num files = Ok parsed /\ link num parsed [] (map fst modules) = Ok modules.
Proof. intros H1 H2 H3 H4 H5. destruct (files_linked num files modules H1 H2 H3 H4 H5) as (p & Ha & _ & Hl). eauto. Qed.

(* An object with two settings and a default. *)
Definition C54_class : class :=
  [("&id", FSValue int true false None (Some "ID")); ("&crit", FSValue (plain "Crit") false false (Some "low") (Some "CRITICALITY"));
   ("&Type", FSType false None (Some "HAS TYPE"))].
Definition C54_words : list tok :=
  [L_BRACE; I "HAS"; I "TYPE"; K "SEQUENCE"; L_BRACE; I "a"; K "NULL"; R_BRACE; I "ID"; N "5"; R_BRACE].
Definition C54_fields : list (string * object_field) :=
  [("&Type", OFType (Some (mkType (KSequence [mkSeqComp "a" null false None] [] false) (Some []))));
   ("&id", OFValue int (Some "5")); ("&crit", OFValue (plain "Crit") (Some "low"))].
Ltac a_word := repeat split; cbn; unfold capital; try lia; auto; intuition discriminate.
Lemma no_word_in c t : Forall (fun kf => forall ws, words_before_field (snd kf) = Some (text ws) -> Forall word ws -> ~ In t (map t_text ws)) c -> ~ word_of_class c t.
Proof. intros H (f & spec & ws & Hin & Hx & Hw & Ht). rewrite Forall_forall in H. exact (H _ Hin ws Hx Hw Ht). Qed.
Lemma words_are l x t : split_space EmptyString x = l -> ~ In t l -> forall ws, Some x = Some (text ws) -> Forall word ws -> ~ In t (map t_text ws).
Proof. intros <- H ws E Hw. injection E as ->. now rewrite (words_split ws Hw) in H. Qed.
Lemma not_in_dec (s : string) l : (if in_dec string_dec s l then true else false) = false -> ~ In s l.
Proof. destruct (in_dec string_dec s l); [discriminate|auto]. Qed.
Ltac not_class_word := apply no_word_in; repeat (apply Forall_cons; [cbn [snd words_before_field]; (discriminate || (eapply words_are; [vm_compute; reflexivity|apply not_in_dec; vm_compute; reflexivity]))|]); apply Forall_nil.
Lemma ascii_text s : Forall (fun c => (0 <= c < 0x110000)%Z) (chars_of_text s).
Proof. unfold chars_of_text. apply Forall_forall. intros c Hc. apply in_map_iff in Hc as (a & <- & _). pose proof (nat_ascii_bounded a). lia. Qed.
(* the tokens of a given text, by computation *)
Lemma text_items s w : (toks <-- tokenize is_digit (chars_of_text s) ;; Ok (uncommented toks)) = Ok w ->
  exists l, TokenSpec.items (fun c => is_digit c = true) (chars_of_text s) l /\ words_of_items l = w.
Proof.
  intros H. destruct (tokenize is_digit (chars_of_text s)) as [toks| | |] eqn:E; try discriminate. injection H as <-.
  apply (TokenProofs.C39_sound is_digit TokenProofs.numeric_digits) in E.
  destruct (TokenProofs.tokens_items is_digit _ _ _ E) as (l & Hl & Hf). exists l. split; [exact Hl|]. exact (words_of_tokens toks l Hf).
Qed.
Definition literal (t : tok) : bool := token_type_beq (t_type t) BitString || token_type_beq (t_type t) HexString.
Lemma text_tokens s w w' : (toks <-- tokenize is_digit (chars_of_text s) ;; Ok (uncommented toks)) = Ok w ->
  (forall t, In t w' -> In t w) -> forallb (fun t => negb (literal t)) w' = true -> Forall (from_text (fun z => is_digit z = true)) w'.
Proof.
  intros H Hin Hb. destruct (text_items s w H) as (l & Hl & <-). rewrite forallb_forall in Hb. apply Forall_forall. intros t Ht.
  apply (C54_tokens_proof _ _ _ _ Hl (ascii_text s)); [exact (Hin _ Ht)|]. specialize (Hb _ Ht). unfold literal in Hb.
  intros [E|[E|[]]]; rewrite <- E in Hb; discriminate.
Qed.
Lemma digits_numeric : numeric_characters is_digit.
Proof. split; [exact TokenProofs.numeric_digits|reflexivity]. Qed.
Definition C54_text : string := "{ HAS TYPE SEQUENCE { a NULL } ID 5 }".
Lemma C54_case_proof : numeric_characters is_digit /\ well_worded C54_class /\ object_syntax C54_class C54_words C54_fields /\
  Forall (from_text (fun z => is_digit z = true)) C54_words /\ text C54_words = C54_text.
Proof.
  split; [exact digits_numeric|]. split; [|split; [|split]].
  - split; [repeat constructor; cbn; intuition discriminate|]. split.
    + intros f spec x [E|[E|[E|[]]]]; injection E as <- <-; cbn; intros E; injection E as <-;
        [exists [I "ID"]|exists [I "CRITICALITY"]|exists [I "HAS"; I "TYPE"]]; (split; [repeat (apply Forall_cons; [a_word|]); apply Forall_nil|reflexivity]).
    + intros f spec f' spec' x [E|[E|[E|[]]]] [E'|[E'|[E'|[]]]]; injection E as <- <-; injection E' as <- <-; cbn; congruence.
  - eapply same_words; [refine (ObS C54_class [mkSetting [I "HAS"; I "TYPE"] [K "SEQUENCE"; L_BRACE; I "a"; K "NULL"; R_BRACE] "&Type" (OFType (Some (mkType (KSequence [mkSeqComp "a" null false None] [] false) (Some []))));
      mkSetting [I "ID"] [N "5"] "&id" (OFValue int (Some "5"))] _ _ _)| |].
    + apply Forall_cons; [|apply Forall_cons; [|apply Forall_nil]].
      * eexists. split; [right; right; left; reflexivity|]. split; [reflexivity|]. split; [repeat (apply Forall_cons; [a_word|]); apply Forall_nil|].
        eexists. split; [|reflexivity]. cbn [s_value]. eapply same_words; [eapply TS_type; [eapply KS_sequence|apply rep_nil]| |].
        -- apply sep_one. apply SIS_component. eapply (SC "a"); [vname|apply simple_type; apply BS_null|apply PS_mandatory].
        -- exact (SI_closed [_]).
        -- reflexivity.
        -- reflexivity.
      * eexists. split; [left; reflexivity|]. split; [reflexivity|]. split; [repeat (apply Forall_cons; [a_word|]); apply Forall_nil|].
        eexists. split; [apply (VS_simple (N "5")); simple|reflexivity].
    + repeat constructor; cbn; intuition discriminate.
    + split; [|split].
      * intros s t [<-|[<-|[]]]; cbn [s_value]; intros Ht; cbn [In] in Ht; decompose [or] Ht; try contradiction; subst; not_class_word.
      * intros s [<-|[<-|[]]]; discriminate.
      * left. intros f spec [E|[E|[E|[]]]]; injection E as <- <-; discriminate.
    + reflexivity.
    + reflexivity.
  - eapply (text_tokens C54_text); [vm_compute; reflexivity|intros t Ht; exact Ht|reflexivity].
  - reflexivity.
Qed.

(* ------------------------------------------------------------------ *)
(* Objects that are read differently, or not at all                    *)
(* ------------------------------------------------------------------ *)
Definition linked (texts order : list string) : res (list (string * module)) :=
  parsed <-- add_files is_digit (map chars_of_text texts) ;; link is_digit parsed [] order.
Definition linked_kind (k : string) (r : res (list (string * module))) : res (option assignment) :=
  ms <-- r ;; Ok (lookup k (map (fun kd => (fst kd, d_kind (snd kd))) (flat_map (fun nm => m_defs (snd nm)) ms))).
Lemma C54_literal_proof : linked [in_module "C ::= CLASS { &id OCTET STRING } WITH SYNTAX { ID &id } o C ::= { ID '00'H }"] ["M"] = Err.
Proof. vm_compute. reflexivity. Qed.
Lemma C54_default_syntax_proof :
  linked_kind "o" (linked [in_module "C ::= CLASS { &id INTEGER, &Type } o C ::= { &id 5, &Type NULL }"] ["M"]) = Ok (Some (DKObject "C" (Some []))).
Proof. vm_compute. reflexivity. Qed.
Lemma C54_wordless_proof :
  linked [in_module "C ::= CLASS { &id INTEGER, &Type } WITH SYNTAX { &Type ID &id } o C ::= { INTEGER (0..5) ID 5 }"] ["M"] = Err /\
  linked_kind "o" (linked [in_module "C ::= CLASS { &id INTEGER, &Type } WITH SYNTAX { &Type ID &id } o C ::= { NULL ID 5 }"] ["M"]) =
    Ok (Some (DKObject "C" (Some [("&Type", OFType (Some null)); ("&id", OFValue int (Some "5"))]))).
Proof. split; vm_compute; reflexivity. Qed.
Lemma C54_mandatory_proof :
  linked_kind "o" (linked [in_module "C ::= CLASS { &id INTEGER, &Type } WITH SYNTAX { ID &id TYPE &Type } o C ::= { ID 5 }"] ["M"]) =
    Ok (Some (DKObject "C" (Some [("&id", OFValue int (Some "5"))]))).
Proof. vm_compute. reflexivity. Qed.
Lemma C54_unknown_proof :
  linked_kind "o" (linked [in_module "C ::= CLASS { &id INTEGER, &Type } WITH SYNTAX { ID &id TYPE &Type } o C ::= { FOO 5 ID 3 }"] ["M"]) =
    Ok (Some (DKObject "C" (Some [("&id", OFValue int (Some "5"))]))).
Proof. vm_compute. reflexivity. Qed.
Lemma C54_scope_proof :
  linked_kind "o" (linked ["A DEFINITIONS ::= BEGIN C ::= CLASS { &id INTEGER } WITH SYNTAX { ID &id } END";
                           "B DEFINITIONS ::= BEGIN IMPORTS C FROM A; o C ::= { ID 3 } END"; 
                           "Z DEFINITIONS ::= BEGIN C ::= CLASS { &code INTEGER } WITH SYNTAX { CODE &code } END"] ["Z"; "A"; "B"]) =
    Ok (Some (DKObject "C" (Some [("&id", OFValue int (Some "3"))]))) /\
  linked_kind "o" (linked ["A DEFINITIONS ::= BEGIN C ::= CLASS { &id INTEGER } WITH SYNTAX { ID &id } END";
                           "B DEFINITIONS ::= BEGIN IMPORTS C FROM A; o C ::= { ID 3 } END"; 
                           "Z DEFINITIONS ::= BEGIN C ::= CLASS { &code INTEGER } WITH SYNTAX { CODE &code } END"] ["A"; "Z"; "B"]) =
    Ok (Some (DKObject "C" (Some []))).
Proof. split; vm_compute; reflexivity. Qed.

(* ------------------------------------------------------------------ *)
(* C55: the texts of ObjectFacts                                       *)
(* ------------------------------------------------------------------ *)
Definition message_spec : class := [("&id", FSValue (named "ID") true false None (Some "ID")); ("&Value", FSType false None (Some "TYPE"))].
Definition object_words (id t : string) : list tok := [L_BRACE; I "ID"; I id; I "TYPE"; I t; R_BRACE].
Definition parsed_constants : list parsed_def :=
  [mkParsed "ID" (PAType (range "65535")) None; mkParsed "id-one" (PAValue (named "ID") "1") None; mkParsed "id-two" (PAValue (named "ID") "2") None].
Definition parsed_containers : list parsed_def :=
  [mkParsed "IES" (PAClass message_spec) None;
   mkParsed "Container" (PAType (container_type "Set")) (Some (["Set"], container_words "Set"));
   mkParsed "Field" (PAType (field_type "Set")) (Some (["Set"], field_words "Set"))].
Definition parsed_contents : list parsed_def :=
  [mkParsed "One" (PAType (mkType (KBuiltin BBoolean) (Some []))) None;
   mkParsed "Two" (PAType (range "15")) None;
   mkParsed "MessageIEs" (PAObjectSet "IES" [PInput (text (object_words "id-one" "One")); PInput (text (object_words "id-two" "Two"))] []) None;
   mkParsed "Message" (PAType message_type) None].
Definition with_names (l : list parsed_def) := map (fun d => (pd_id d, d)) l.
Definition message_parsed : list parsed_module :=
  [mkParsedModule "Constants" [] (with_names parsed_constants);
   mkParsedModule "Containers" (m_imports message_containers) (with_names parsed_containers);
   mkParsedModule "Contents" (m_imports message_contents) (with_names parsed_contents)].
Lemma range_type u : type_syntax [K "INTEGER"; L_PAREN; N "0"; DOTDOT; N u; R_PAREN] (range u).
Proof.
  exact (TS_type [K "INTEGER"] _ _ _ (KS_builtin _ _ (BS_integer _ NLS_none)) (one _ _ _ _ (CS_set _ _ (range_set (N "0") (N u) ltac:(simple) ltac:(simple))))).
Qed.
Ltac more := eapply rep_cons.
Ltac last_one := apply one.
Lemma constants_syntax : repeated definition_syntax
  ([I "ID"; ASSIGN; K "INTEGER"; L_PAREN; N "0"; DOTDOT; N "65535"; R_PAREN] ++ [I "id-one"; I "ID"; ASSIGN; N "1"] ++ [I "id-two"; I "ID"; ASSIGN; N "2"])
  parsed_constants.
Proof.
  eapply same_words; [more; [apply (DS_type "ID"); [tname|apply range_type]|more; [|last_one]]| |].
  - eapply (DS_value "id-one" [I "ID"]); [vname|apply tn_type; tname|apply (VS_simple (N "1")); simple|]. intros [_ (r & E)]. discriminate.
  - eapply (DS_value "id-two" [I "ID"]); [vname|apply tn_type; tname|apply (VS_simple (N "2")); simple|]. intros [_ (r & E)]. discriminate.
  - reflexivity.
  - reflexivity.
Qed.
Definition class_words : list tok :=
  [K "CLASS"; L_BRACE; F "&id"; I "ID"; K "UNIQUE"; COMMA; F "&Value"; R_BRACE; K "WITH"; K "SYNTAX"; L_BRACE; I "ID"; F "&id"; I "TYPE"; F "&Value"; R_BRACE].
Lemma class_notation : class_syntax class_words message_spec.
Proof.
  eapply same_words; [eapply ClS_words with (l := [[("&id", "ID")]; [("&Value", "TYPE")]])
    (c := [("&id", FSValue (named "ID") true false None None); ("&Value", FSType false None None)]) (c' := message_spec)| |].
  - next.
    + eapply (FS_value "&id"); [exists "id"; split; [reflexivity|vname]|apply (tn_type "ID"); tname|apply FO_unique].
    + apply sep_one. apply (FS_type "&Value"). exists "Value". split; [reflexivity|]. cbn. unfold capital. lia.
  - repeat constructor; cbn; intuition discriminate.
  - more.
    + apply CL_one; [|cbn; auto]. apply (WS [I "ID"]); [repeat (apply Forall_cons; [a_word|]); apply Forall_nil|]. left. exists "id". split; [reflexivity|vname].
    + last_one. apply CL_one; [|cbn; auto]. apply (WS [I "TYPE"]); [repeat (apply Forall_cons; [a_word|]); apply Forall_nil|]. right. exists "Value". split; [reflexivity|]. cbn. unfold capital. lia.
  - discriminate.
  - repeat constructor; cbn; intuition discriminate.
  - constructor; [|constructor; [|constructor]]; unfold worded; cbn; repeat split; auto.
  - reflexivity.
  - reflexivity.
Qed.
Lemma containers_syntax : repeated definition_syntax
  ((I "IES" :: ASSIGN :: class_words) ++
   (I "Container" :: L_BRACE :: [I "IES"; COLON; I "Set"] ++ R_BRACE :: ASSIGN :: container_words "Set") ++
   (I "Field" :: L_BRACE :: [I "IES"; COLON; I "Set"] ++ R_BRACE :: ASSIGN :: field_words "Set"))
  parsed_containers.
Proof.
  eapply same_words; [more; [apply (DS_class "IES"); [cname|exact class_notation]|more; [|last_one]]| |].
  - eapply (DS_parameterized "Container"); [tname| |apply (container_syntax "Set"); tname].
    apply sep_one. apply (DuS_governed (I "IES") "Set"); [left; split; [reflexivity|tname]|left; tname].
  - eapply (DS_parameterized "Field"); [tname| |apply (field_syntax "Set"); tname].
    apply sep_one. apply (DuS_governed (I "IES") "Set"); [left; split; [reflexivity|tname]|left; tname].
  - reflexivity.
  - reflexivity.
Qed.
Lemma contents_syntax : repeated definition_syntax
  ([I "One"; ASSIGN; K "BOOLEAN"] ++
   [I "Two"; ASSIGN; K "INTEGER"; L_PAREN; N "0"; DOTDOT; N "15"; R_PAREN] ++
   ([I "MessageIEs"; I "IES"; ASSIGN; L_BRACE] ++ object_words "id-one" "One" ++ [BAR] ++ object_words "id-two" "Two" ++ [COMMA; DOTS; R_BRACE]) ++
   [I "Message"; ASSIGN; K "SEQUENCE"; L_BRACE; I "flag"; K "BOOLEAN"; K "OPTIONAL"; COMMA; I "list"; I "Container"; L_BRACE; L_BRACE; I "MessageIEs"; R_BRACE; R_BRACE; R_BRACE])
  parsed_contents.
Proof.
  eapply same_words; [more; [|more; [apply (DS_type "Two"); [tname|apply range_type]|more; [|last_one]]]| |].
  - apply (DS_type "One"); [tname|]. apply simple_type. apply BS_boolean.
  - apply (DS_object_set "MessageIEs" "IES"); [tname|cname|apply OSS_open].
    eapply sep_more with (t := BAR); [apply (OS_inline [I "ID"; I "id-one"; I "TYPE"; I "One"]); unused|now left|].
    apply sep_one. apply (OS_inline [I "ID"; I "id-two"; I "TYPE"; I "Two"]). unused.
  - apply (DS_type "Message"); [tname|]. eapply TS_type; [eapply KS_sequence|apply rep_nil].
    + next.
      * apply SIS_component. eapply (SC "flag"); [vname|apply simple_type; apply BS_boolean|apply PS_optional].
      * apply sep_one. apply SIS_component. eapply (SC "list"); [vname| |apply PS_mandatory].
        eapply TS_type; [|apply rep_nil]. apply KS_reference. eapply (RS_params [I "Container"]); [apply NmS_plain; tname|].
        apply sep_one. apply (PaS_set (I "MessageIEs")). now left.
    + exact (SI_closed [_; _]).
  - reflexivity.
  - reflexivity.
Qed.
Lemma message_files : Forall2 (file_denotes (fun z => is_digit z = true)) (map chars_of_text message_texts) (map (fun pm => [pm]) message_parsed).
Proof.
  assert (H : forall s w pm, (toks <-- tokenize is_digit (chars_of_text s) ;; Ok (uncommented toks)) = Ok w -> chars_of_text s <> [] ->
    module_syntax w pm -> ~ ends_with_bare_class pm -> file_denotes (fun z => is_digit z = true) (chars_of_text s) [pm]).
  { intros s w pm Ht Hs Hm Hb. split; [exact Hs|]. destruct (text_items s w Ht) as (l & Hl & <-). exists l. split; [exact Hl|]. split; [|split; [discriminate|]].
    - eapply same_words; [last_one; exact Hm|now rewrite app_nil_r|reflexivity].
    - intros p m Hp. assert (m = pm) as ->; [|exact Hb]. destruct p as [|a [|b p]]; cbn in Hp; congruence. }
  assert (Hb : forall n i l d, (forall c, pd_kind d <> PAClass c) -> ~ ends_with_bare_class (mkParsedModule n i (with_names (l ++ [d])))).
  { intros n i l d Hd (l' & n' & d' & E & c & Hc & _). cbn [pm_defs] in E. unfold with_names in E. rewrite map_app in E. cbn [map] in E.
    apply app_inj_tail in E. destruct E as [_ E]. injection E as <- <-. exact (Hd _ Hc). }
  cbn [map message_texts message_parsed]. constructor; [|constructor; [|constructor; [|constructor]]]; (eapply H; [vm_compute; reflexivity|discriminate| |]).
  - eapply same_words; [eapply (MS "Constants"); [tname|apply OIS_none|apply (TaS_some "AUTOMATIC"); cbn; auto|apply ImS_none|exact constants_syntax|]|reflexivity|reflexivity].
    vm_compute. repeat constructor; cbn; intuition discriminate.
  - apply (Hb _ _ [_; _] _). discriminate.
  - eapply same_words; [eapply (MS "Containers"); [tname|apply OIS_none|apply (TaS_some "AUTOMATIC"); cbn; auto| |exact containers_syntax|]| |].
    + apply ImS_some with (l := [[("ID", "Constants")]]); [|discriminate|repeat constructor; cbn; intuition discriminate].
      last_one. eapply (IS _ ["ID"] "Constants"); [apply sep_one; apply (SyS_plain "ID")|tname|apply OIS_none].
    + vm_compute. repeat constructor; cbn; intuition discriminate.
    + reflexivity.
    + reflexivity.
  - apply (Hb _ _ [_; _] _). discriminate.
  - eapply same_words; [eapply (MS "Contents"); [tname|apply OIS_none|apply (TaS_some "AUTOMATIC"); cbn; auto| |exact contents_syntax|]| |].
    + apply ImS_some with (l := [[("id-one", "Constants"); ("id-two", "Constants")]; [("IES", "Containers"); ("Container", "Containers")]]);
        [|discriminate|repeat constructor; cbn; intuition discriminate].
      more; [|last_one].
      * eapply (IS _ ["id-one"; "id-two"] "Constants"); [|tname|apply OIS_none]. next; [apply (SyS_plain "id-one")|]. apply sep_one. apply (SyS_plain "id-two").
      * eapply (IS _ ["IES"; "Container"] "Containers"); [|tname|apply OIS_none]. next; [apply (SyS_plain "IES")|]. apply sep_one. apply (SyS_plain "Container").
    + vm_compute. repeat constructor; cbn; intuition discriminate.
    + reflexivity.
    + reflexivity.
  - apply (Hb _ _ [_; _; _] _). discriminate.
Qed.
Lemma message_spec_worded : well_worded message_spec.
Proof.
  split; [repeat constructor; cbn; intuition discriminate|]. split.
  - intros f spec x [E|[E|[]]]; injection E as <- <-; cbn; intros E; injection E as <-;
      [exists [I "ID"]|exists [I "TYPE"]]; (split; [repeat (apply Forall_cons; [a_word|]); apply Forall_nil|reflexivity]).
  - intros f spec f' spec' x [E|[E|[]]] [E'|[E'|[]]]; injection E as <- <-; injection E' as <- <-; cbn; congruence.
Qed.
Lemma object_notation id t : ~ word_of_class message_spec id -> ~ word_of_class message_spec t -> type_name t -> object_syntax message_spec (object_words id t) (message_object id t).
Proof.
  intros Hi Ht Htn.
  eapply same_words; [refine (ObS message_spec [mkSetting [I "ID"] [I id] "&id" (OFValue (named "ID") (Some id)); mkSetting [I "TYPE"] [I t] "&Value" (OFType (Some (named t)))] _ _ _)|reflexivity|reflexivity].
  - apply Forall_cons; [|apply Forall_cons; [|apply Forall_nil]].
    + eexists. split; [left; reflexivity|]. split; [reflexivity|]. split; [repeat (apply Forall_cons; [a_word|]); apply Forall_nil|].
      eexists. split; [apply (VS_simple (I id)); simple|reflexivity].
    + eexists. split; [right; left; reflexivity|]. split; [reflexivity|]. split; [repeat (apply Forall_cons; [a_word|]); apply Forall_nil|].
      eexists. split; [|reflexivity]. now apply tn_type.
  - repeat constructor; cbn; intuition discriminate.
  - split; [|split].
    + intros s x [<-|[<-|[]]]; cbn [s_value]; intros [<-|[]]; assumption.
    + intros s [<-|[<-|[]]]; discriminate.
    + left. intros f spec [E|[E|[]]]; injection E as <- <-; discriminate.
Qed.
Lemma object_meant id t : In (id, t) [("id-one", "One"); ("id-two", "Two")] ->
  object_denotes (fun z => is_digit z = true) message_spec (text (object_words id t)) (message_object id t).
Proof.
  intros H. split; [exact message_spec_worded|]. exists (object_words id t). split; [reflexivity|].
  destruct H as [H|[H|[]]]; injection H as <- <-; (split; [match goal with |- Forall _ ?w => apply (text_tokens (text w) w w) end; [vm_compute; reflexivity|intros x Hx; exact Hx|reflexivity]|]);
    (apply object_notation; [not_class_word|not_class_word|tname]).
Qed.
Lemma message_denoted : schema_denotes (fun z => is_digit z = true) (map chars_of_text message_texts) message_modules.
Proof.
  exists (map (fun pm => [pm]) message_parsed), message_parsed. split; [exact message_files|]. split; [apply Permutation_refl|].
  constructor; [|constructor; [|constructor; [|constructor]]]; (split; [reflexivity|]; split; [reflexivity|]); cbn [snd m_defs pm_defs message_constants message_containers message_contents with_names map].
  - repeat (apply Forall2_cons; [split; [reflexivity|split; [constructor|reflexivity]]|]). apply Forall2_nil.
  - repeat (apply Forall2_cons; [split; [reflexivity|split; [constructor|reflexivity]]|]). apply Forall2_nil.
  - apply Forall2_cons; [split; [reflexivity|split; [constructor|reflexivity]]|]. apply Forall2_cons; [split; [reflexivity|split; [constructor|reflexivity]]|].
    apply Forall2_cons; [|apply Forall2_cons; [split; [reflexivity|split; [constructor|reflexivity]]|apply Forall2_nil]].
    split; [reflexivity|]. split; [|reflexivity]. apply (KD_set _ _ _ "IES" message_spec).
    + right. exists (mkParsedModule "Containers" (m_imports message_containers) (with_names parsed_containers)). split; [right; left; reflexivity|].
      split; [right; right; left; reflexivity|]. eexists. split; [left; reflexivity|reflexivity].
    + cbn [rev app]. apply Forall2_cons; [apply ED_text; apply object_meant; right; left; reflexivity|]. apply Forall2_cons; [apply ED_text; apply object_meant; left; reflexivity|apply Forall2_nil].
    + apply Forall2_nil.
Qed.

Theorem C55_compiled_proof num E depth fuel files M n modules orders prog :
  numeric_characters num -> schema_denotes (fun z => num z = true) files modules ->
  (n <= depth)%nat -> well_named modules -> imports_defined modules ->
  (forall a m, In (a, m) modules -> module_means M modules n m) ->
  not_recursive M modules -> valid_orders modules orders -> map fst modules = map fst orders ->
  compile_files num E depth fuel files orders = Ok prog ->
  (forall n d, In (n, d) prog -> countable d /\ ~ In "Option" (used_types d)) ->
  forall a m k T, In (a, m) modules -> In k (def_names m) -> types M k = Some T ->
  rust_means (map item_of prog) (to_type_ident k) T.
Proof.
  intros Hnum Hd Hn Hw Hi Hm Hr Ho Eo Hc Hp. rewrite (files_compiled num E depth fuel files modules orders Hnum Hd Hw Hi Ho Eo) in Hc.
  exact (C51_modules_proof E depth fuel M n modules orders prog Hn Hw Hi Hm Hr Ho Hc Hp).
Qed.
Theorem C55_succeeds_proof num E depth fuel files M n modules orders :
  numeric_characters num -> schema_denotes (fun z => num z = true) files modules ->
  (n <= depth)%nat -> well_named modules -> imports_defined modules ->
  (forall a m, In (a, m) modules -> module_means M modules n m) ->
  not_recursive M modules -> valid_orders modules orders -> map fst modules = map fst orders ->
  (List.length (flat_map (fun nm => def_names (snd nm)) modules) < fuel)%nat ->
  (forall a m k d, In (a, m) modules -> In (k, d) (m_defs m) ->
     has_meaning M k \/ d_params d <> None \/ exists f, d_kind d = DKClass f) ->
  exists prog, compile_files num E depth fuel files orders = Ok prog.
Proof.
  intros Hnum Hd Hn Hw Hi Hm Hr Ho Eo Hf Hk. rewrite (files_compiled num E depth fuel files modules orders Hnum Hd Hw Hi Ho Eo).
  exact (compile_total E depth fuel M modules n orders Hn Hw Hi Hm Hr Ho Hf Hk).
Qed.
Theorem C55_values_proof num E depth fuel files M n modules orders prog :
  numeric_characters num -> schema_denotes (fun z => num z = true) files modules ->
  (n <= depth)%nat -> well_named modules -> imports_defined modules ->
  (forall a m, In (a, m) modules -> module_means M modules n m) ->
  not_recursive M modules -> valid_orders modules orders -> map fst modules = map fst orders ->
  compile_files num E depth fuel files orders = Ok prog ->
  (forall n d, In (n, d) prog -> countable d /\ ~ In "Option" (used_types d)) -> NoDup (map fst prog) ->
  forall a m k T T' v k' s, In (a, m) modules -> In k (def_names m) -> types M k = Some T ->
  rust_means (map item_of prog) (to_type_ident k) T' ->
  carries E None T v k' -> flow_of T v false = Some s ->
  exists d, enc E T' v new_data = (Ok tt, d) /\
    (zlen (bits d) < 2 ^ 60 -> fst (dec E T' (from_slice (into_bytes d))) = Ok v)%Z.
Proof.
  intros Hnum Hd Hn Hw Hi Hm Hr Ho Eo Hc Hp Hnd a m k T T' v k' s Ha Hk HT HT' Hv Hs.
  apply (C51_proof num E depth fuel files orders prog Hc Hp) in HT'.
  rewrite (files_compiled num E depth fuel files modules orders Hnum Hd Hw Hi Ho Eo) in Hc.
  exact (C48_proof E depth fuel M n modules orders prog Hn Hw Hi Hm Hr Ho Hc Hnd a m k T T' v k' s Ha Hk HT HT' Hv Hs).
Qed.
Lemma C55_case_proof : numeric_characters is_digit /\
  schema_denotes (fun z => is_digit z = true) (map chars_of_text message_texts) message_modules /\
  well_named message_modules /\ imports_defined message_modules /\
  (forall a m, In (a, m) message_modules -> module_means message_meaning message_modules 2 m) /\
  not_recursive message_meaning message_modules /\ valid_orders message_modules message_orders /\
  map fst message_modules = map fst message_orders /\
  (forall a m k d, In (a, m) message_modules -> In (k, d) (m_defs m) -> has_meaning message_meaning k \/ d_params d <> None \/ exists f, d_kind d = DKClass f).
Proof. destruct C47_objects_proof as (H1 & H2 & H3 & H4 & H5 & H6). split; [exact digits_numeric|]. split; [exact message_denoted|]. repeat (split; [assumption||reflexivity|]). exact H6. Qed.
Lemma C55_case_program_proof : compile_files is_digit checked_env 2 11 (map chars_of_text message_texts) message_orders = Ok message_program /\
  (forall n d, In (n, d) message_program -> countable d /\ ~ In "Option" (used_types d)) /\ NoDup (map fst message_program) /\
  types message_meaning "Message" = Some message_ty /\ rust_means (map item_of message_program) "Message" message_ty /\
  carries checked_env None message_ty message_value (Some 2%Z) /\ flow_of message_ty message_value false = Some true.
Proof.
  assert (H : compile_files is_digit checked_env 2 11 (map chars_of_text message_texts) message_orders = Ok message_program) by (vm_compute; reflexivity).
  assert (Ho : forall n d, In (n, d) message_program -> countable d /\ ~ In "Option" (used_types d)).
  { intros n d Hin. cbn [In message_program] in Hin. repeat (destruct Hin as [Hin|Hin]; [|]); [.. |destruct Hin]; injection Hin as <- <-;
      (split; [cbn; try lia; auto|apply not_in_dec; vm_compute; reflexivity]). }
  split; [exact H|]. split; [exact Ho|]. split; [apply nodupb_ok; vm_compute; reflexivity|]. split; [reflexivity|]. split; [|exact message_carried].
  apply (C51_proof _ _ _ _ _ _ _ H Ho). exact (proj2 C47_objects_program_proof).
Qed.
