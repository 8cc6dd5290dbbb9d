(* The statements about the parser: what it reads, and that it reads texts in
   the notation as what they denote. *)
From Coq Require Import ZArith NArith List Bool String Ascii Lia.
Require Import Verif.Base Verif.Asn1Model Verif.GenModel Verif.ResolveModel Verif.TokenModel Verif.ParserModel Verif.ModuleModel Verif.DefinitionModel
  Verif.ParserSpec Verif.DefinitionSpec Verif.ReadProofs Verif.ReadDefProofs Verif.GrammarProofs Verif.DefGrammarProofs.
Require Verif.TokenSpec Verif.TokenProofs.
Import ListNotations.
Open Scope string_scope.
Open Scope list_scope.

(* ------------------------------------------------------------------ *)
(* C41                                                                 *)
(* ------------------------------------------------------------------ *)
Lemma from_fine A (p : list tok -> res (A * list tok)) : (forall ts, fine never never snd true ts (p ts)) -> always_ends p.
Proof. intros H ts. specialize (H ts). destruct (p ts) as [[x r]| | |]; exact H. Qed.
Lemma from_safe A (p : list tok -> res (A * list tok)) : (forall ts, fine cut_off opens_list snd true ts (p ts)) -> ends_unless opens_list p.
Proof. intros H ts. specialize (H ts). destruct (p ts) as [[x r]| | |]; exact H. Qed.
Lemma from_sound A (p : list tok -> res (A * list tok)) : (forall ts, ReadDefProofs.sound snd true ts (p ts)) -> ends_unless opens p.
Proof. intros H ts. specialize (H ts). destruct (p ts) as [[x r]| | |]; exact H. Qed.
Theorem C41_always_proof : always_ends parse_value /\ always_ends parse_set_ish_value /\ always_ends parse_integer_type /\
  always_ends parse_bitstring_type /\ always_ends parse_enumerated_type /\ always_ends parse_params /\
  always_ends parse_module_name /\ always_ends parse_object_assignment.
Proof.
  repeat split; apply from_fine; [apply fine_value|apply fine_set_ish_value|apply fine_integer|apply fine_bitstring|
    apply fine_enumerated|apply fine_params|apply fine_module_name|apply fine_object_assignment].
Qed.
Theorem C41_types_proof : ends_unless opens_list parse_type /\ ends_unless opens_list parse_element_set.
Proof. split; apply from_safe; [apply safe_parse_type|apply safe_parse_element_set]. Qed.
Theorem C41_definitions_proof : ends_unless opens parse_class /\ ends_unless opens parse_definition /\ ends_unless opens parse_module.
Proof. repeat split; apply from_sound; [apply sound_class|apply sound_definition|apply sound_module]. Qed.
Definition uncommented (tokens : list token) : list tok := map tok_of (filter (fun t => negb (token_type_beq (tk_type t) Comment)) tokens).
Theorem C41_file_proof tokens :
  match parse tokens with Panic => cut_off (uncommented tokens) | Diverge => opens (uncommented tokens) | _ => True end.
Proof.
  pose proof (sound_modules_loop (S (List.length (uncommented tokens))) [] (uncommented tokens) ltac:(lia)) as H.
  unfold parse. fold (uncommented tokens). cbv zeta. destruct (modules_loop _ _ _); exact H || exact Logic.I.
Qed.
Lemma C41_case_proof :
  parse_type [K "SEQUENCE"; L_BRACE; I "a"; K "INTEGER"; R_BRACE; I "B"] =
    Ok (mkType (KSequence [mkSeqComp "a" (mkType (KBuiltin BInteger) (Some [])) false None] [] false) (Some []), [I "B"]) /\
  opens_list [I "A"; K "SEQUENCE"; L_BRACE] /\ cut_off [I "A"; K "OCTET"] /\ ~ opens [I "a"; K "INTEGER"; ASSIGN; N "5"].
Proof.
  split; [reflexivity|]. split; [exists [I "A"], (K "SEQUENCE"), L_BRACE, []; cbn; auto|].
  split; [exists [I "A"], (K "OCTET"); cbn; auto|].
  intros [(a & t & b & r & E & Hb & _)|(a & c & e & b & r & E & _ & _ & _ & Hb)].
  - assert (Hin : In b [I "a"; K "INTEGER"; ASSIGN; N "5"]) by (rewrite E; apply in_or_app; cbn; auto).
    cbn in Hin. decompose [or] Hin; subst; try contradiction; discriminate.
  - assert (Hin : In b [I "a"; K "INTEGER"; ASSIGN; N "5"]) by (rewrite E; apply in_or_app; cbn; auto).
    cbn in Hin. decompose [or] Hin; subst; try contradiction; discriminate.
Qed.
(* However many turns they take, the loops do not end. *)
Lemma C41_endless_proof :
  (forall rt n r, sequence_loop rt n [] [] 0 (N "5" :: r) = Diverge) /\
  (forall n, actual_params_loop n [] [K "INTEGER"; R_BRACE] = Diverge) /\
  (forall n, object_set_loop n [] [] false [N "5"; R_BRACE] = Diverge) /\
  (forall rt n r, choice_loop rt n [] [] [] false (N "5" :: r) = Diverge).
Proof.
  repeat split; intros *.
  - induction n as [|n IH]; [reflexivity|]. cbn. exact IH.
  - induction n as [|n IH]; [reflexivity|]. cbn. exact IH.
  - induction n as [|n IH]; [reflexivity|]. cbn. exact IH.
  - induction n as [|n IH]; [reflexivity|]. cbn. exact IH.
Qed.
Lemma C41_legal_proof :
  parse_type [I "Foo"; L_BRACE; K "INTEGER"; R_BRACE] = Diverge /\
  parse_type [K "SEQUENCE"; L_BRACE; I "a"; K "BOOLEAN"; K "DEFAULT"; K "TRUE"; R_BRACE] = Diverge /\
  parse_type [K "SEQUENCE"; L_BRACE; I "a"; K "REAL"; R_BRACE] = Diverge /\
  parse_type [K "CHOICE"; L_BRACE; I "a"; L_SQUARE; N "0"; R_SQUARE; K "INTEGER"; R_BRACE] = Diverge /\
  parse_type [K "SEQUENCE"; L_BRACE; I "a"; K "CHOICE"; L_BRACE; I "b"; K "NULL"; COMMA; DOTS; COMMA; I "c"; K "NULL"; COMMA; DOTS; R_BRACE; R_BRACE] = Diverge.
Proof. repeat split; vm_compute; reflexivity. Qed.
Lemma C41_panics_proof :
  parse_type [K "OCTET"] = Panic /\ parse_type [K "CHARACTER"] = Panic /\ parse_type [K "INTEGER"; L_PAREN; N "0"; LESS] = Panic.
Proof. repeat split; vm_compute; reflexivity. Qed.

(* ------------------------------------------------------------------ *)
(* C50                                                                 *)
(* ------------------------------------------------------------------ *)
Theorem C50_unambiguous_proof w t t' : type_syntax w t -> type_syntax w t' -> t = t'.
Proof.
  intros H H'. pose proof (parse_type_complete w t [] H Logic.I) as E. pose proof (parse_type_complete w t' [] H' Logic.I) as E'. congruence.
Qed.
Theorem C50_modules_unambiguous_proof w m m' : module_syntax w m -> module_syntax w m' -> m = m'.
Proof.
  intros H H'. assert (Hx : [K "END"] <> [] \/ ~ ends_with_bare_class m) by (left; discriminate). assert (Hy : [K "END"] <> [] \/ ~ ends_with_bare_class m') by (left; discriminate).
  pose proof (parse_module_complete w m [K "END"] H Hx) as E. pose proof (parse_module_complete w m' [K "END"] H' Hy) as E'. congruence.
Qed.
Theorem C50_file_proof num cs l ms : TokenSpec.numeric_table num -> TokenSpec.items (fun c => num c = true) cs l -> cs <> [] ->
  file_syntax (words_of_items l) ms -> exists toks, tokenize num cs = Ok toks /\ parse toks = Ok ms.
Proof.
  intros Hnum Hi Hne (Hm & Hms & Hlast). destruct (TokenProofs.C39_complete num Hnum cs l Hi Hne) as (toks & Ht & Hall).
  exists toks. split; [exact Ht|]. apply (parse_complete toks (words_of_items l)); try assumption.
  clear - Hall. induction Hall as [|t x toks l [H1 H2] _ IH]; [reflexivity|]. cbn [filter words_of_items].
  unfold words_of_items in *. cbn [filter]. rewrite H1. destruct (negb (token_type_beq (fst x) Comment)); [|exact IH].
  cbn [map]. rewrite IH. unfold tok_of at 1. now rewrite H1, H2.
Qed.
(* A text with one definition of every sort. *)
Definition C50_source : string :=
  "M { iso 2 org(3) } DEFINITIONS AUTOMATIC TAGS ::= BEGIN IMPORTS B, P{} FROM N C FROM O { 1 }; " ++
  "A ::= SEQUENCE { a INTEGER (0..255), b B OPTIONAL, ..., [[ 2: c BOOLEAN ]], ..., d E DEFAULT q } -- a comment --" ++
  "C1 ::= CHOICE { x NULL, ..., y OCTET STRING (SIZE (1..4 | 8, ...)) } " ++
  "max INTEGER ::= 7 " ++
  "E ::= ENUMERATED { p, q(3), ... } " ++
  "L{T, INTEGER:n} ::= SEQUENCE (SIZE (1..n)) OF T " ++
  "CL ::= CLASS { &id INTEGER UNIQUE, &Type OPTIONAL } WITH SYNTAX { ID &id [HAS TYPE &Type] } " ++
  "o CL ::= { ID 1 HAS TYPE A } " ++
  "S CL ::= { o | {ID 2}, ... } " ++
  "END".
Definition int : asn_type := mkType (KBuiltin BInteger) (Some []).
Definition plain (r : string) : asn_type := mkType (KReference (RefName r)) (Some []).
Definition C50_module : parsed_module :=
  mkParsedModule "M" [("B", "N"); ("P", "N"); ("C", "O")]
    (map (fun d => (pd_id d, d)) [
      mkParsed "A" (PAType (mkType (KSequence
        [mkSeqComp "a" (mkType (KBuiltin BInteger) (Some [CSubtype (mkSet [[ERange "0" true "255" true]] None)])) false None;
         mkSeqComp "b" (plain "B") true None; mkSeqComp "d" (plain "E") false (Some "q")]
        [[mkSeqComp "c" (mkType (KBuiltin BBoolean) (Some [])) false None]] true) (Some []))) None;
      mkParsed "C1" (PAType (mkType (KChoice [("x", mkType (KBuiltin BNull) (Some []))]
        (Some [[("y", mkType (KBuiltin BOctetString) (Some [CSubtype (mkSet [[ESize (mkSet [[ERange "1" true "4" true]; [ESingle "8"]] (Some []))]] None)]))]])) (Some []))) None;
      mkParsed "max" (PAValue int "7") None;
      mkParsed "E" (PAType (mkType (KBuiltin (BEnumerated [mkEnumValue "p" None; mkEnumValue "q" (Some (Number "3"))] true [])) (Some []))) None;
      mkParsed "L" (PAType (mkType (KSequenceOf (Some (CSubtype (mkSet [[ESize (mkSet [[ERange "1" true "n" true]] None)]] None))) (plain "T")) (Some [])))
        (Some (["T"; "n"], [K "SEQUENCE"; L_PAREN; K "SIZE"; L_PAREN; N "1"; DOTDOT; I "n"; R_PAREN; R_PAREN; K "OF"; I "T"]));
      mkParsed "CL" (PAClass [("&id", FSValue int true false None (Some "ID")); ("&Type", FSType true None (Some "HAS TYPE"))]) None;
      mkParsed "o" (PAObject "CL" "{ ID 1 HAS TYPE A }") None;
      mkParsed "S" (PAObjectSet "CL" [PObjectRef "o"; PInput "{ ID 2 }"] []) None]).

Ltac tname := split; [cbn; unfold capital; lia|intros Hr; cbn in Hr; decompose [or] Hr; try contradiction; discriminate].
Ltac vname := cbn; unfold small; lia.
Ltac cname := split; [tname|cbn; unfold capital; lia].
Lemma tn_type s : type_name s -> type_syntax [I s] (plain s).
Proof. intros H. exact (TS_type [I s] _ [] [] (KS_reference _ _ (RS_name _ _ (NmS_plain s H))) (rep_nil _)). Qed.
Lemma simple_type w b : builtin_syntax w b -> type_syntax (w ++ []) (mkType (KBuiltin b) (Some [])).
Proof. intros H. exact (TS_type w _ [] [] (KS_builtin _ _ H) (rep_nil _)). Qed.
Lemma one A (P : list tok -> A -> Prop) w a : P w a -> repeated P (w ++ []) [a].
Proof. intros H. exact (rep_cons P w a [] [] H (rep_nil _)). Qed.
Lemma range_set lo hi : simple_kind (t_type lo) -> simple_kind (t_type hi) ->
  set_syntax [L_PAREN; lo; DOTDOT; hi; R_PAREN] (mkSet [[ERange (t_text lo) true (t_text hi) true]] None).
Proof.
  intros Hl Hh. refine (SS_closed [lo; DOTDOT; hi] [[_]] (sep_one bar _ [lo; DOTDOT; hi] [_] (sep_one caret _ [lo; DOTDOT; hi] _ _))).
  exact (El_range lo _ [DOTDOT] true true hi _ (EP_value lo Hl) DS_both (EP_value hi Hh)).
Qed.
Lemma size_constraint w s : set_syntax w s -> constraint_syntax (L_PAREN :: (K "SIZE" :: w) ++ [R_PAREN]) (CSubtype (mkSet [[ESize s]] None)).
Proof. intros H. apply CS_set. exact (SS_closed (K "SIZE" :: w) _ (sep_one bar _ _ _ (sep_one caret _ _ _ (El_size w s H)))). Qed.
Definition def_words (n : nat) : list tok :=
  nth n [
    [I "A"; ASSIGN; K "SEQUENCE"; L_BRACE; I "a"; K "INTEGER"; L_PAREN; N "0"; DOTDOT; N "255"; R_PAREN; COMMA; I "b"; I "B"; K "OPTIONAL"; COMMA; DOTS; COMMA;
     L_GROUP; N "2"; COLON; I "c"; K "BOOLEAN"; R_GROUP; COMMA; DOTS; COMMA; I "d"; I "E"; K "DEFAULT"; I "q"; R_BRACE];
    [I "C1"; ASSIGN; K "CHOICE"; L_BRACE; I "x"; K "NULL"; COMMA; DOTS; COMMA; I "y"; K "OCTET"; K "STRING"; L_PAREN; K "SIZE"; L_PAREN; N "1"; DOTDOT; N "4"; BAR; N "8"; COMMA; DOTS; R_PAREN; R_PAREN; R_BRACE];
    [I "max"; K "INTEGER"; ASSIGN; N "7"];
    [I "E"; ASSIGN; K "ENUMERATED"; L_BRACE; I "p"; COMMA; I "q"; L_PAREN; N "3"; R_PAREN; COMMA; DOTS; R_BRACE];
    [I "L"; L_BRACE; I "T"; COMMA; K "INTEGER"; COLON; I "n"; R_BRACE; ASSIGN; K "SEQUENCE"; L_PAREN; K "SIZE"; L_PAREN; N "1"; DOTDOT; I "n"; R_PAREN; R_PAREN; K "OF"; I "T"];
    [I "CL"; ASSIGN; K "CLASS"; L_BRACE; F "&id"; K "INTEGER"; K "UNIQUE"; COMMA; F "&Type"; K "OPTIONAL"; R_BRACE; K "WITH"; K "SYNTAX"; L_BRACE; I "ID"; F "&id"; L_SQUARE; I "HAS"; I "TYPE"; F "&Type"; R_SQUARE; R_BRACE];
    [I "o"; I "CL"; ASSIGN; L_BRACE; I "ID"; N "1"; I "HAS"; I "TYPE"; I "A"; R_BRACE];
    [I "S"; I "CL"; ASSIGN; L_BRACE; I "o"; BAR; L_BRACE; I "ID"; N "2"; R_BRACE; COMMA; DOTS; R_BRACE]] [].
Definition C50_defs : list parsed_def := map snd (pm_defs C50_module).
Definition C50_def (n : nat) : parsed_def := nth n C50_defs (mkParsed "" (PAType int) None).
Lemma same_words A (P : list tok -> A -> Prop) w w' a a' : P w' a' -> w = w' -> a = a' -> P w a.
Proof. now intros H -> ->. Qed.
Ltac both := [> .. | reflexivity | reflexivity].
Ltac simple := match goal with |- simple_kind _ => cbn; auto 10 end.
Ltac next := eapply sep_more with (t := COMMA); [|reflexivity|].
Ltac unused := repeat (apply nest_tok; [cbn; intuition discriminate|]); apply nest_nil.
Lemma C50_def0 : definition_syntax (def_words 0) (C50_def 0).
Proof.
  eapply same_words; [apply (DS_type "A"); [tname|eapply TS_type; [eapply KS_sequence|apply rep_nil]]| |].
  - next.
    { apply SIS_component. eapply (SC "a"); [vname|eapply TS_type; [apply KS_builtin; apply BS_integer; apply NLS_none|apply one; apply CS_set; apply (range_set (N "0") (N "255")); simple]|apply PS_mandatory]. }
    next.
    { apply SIS_component. eapply (SC "b"); [vname|apply (tn_type "B"); tname|apply PS_optional]. }
    next; [apply SIS_marker|].
    next.
    { apply SIS_group; [apply (VeS_number "2")|apply sep_one; eapply (SC "c"); [vname|apply simple_type; apply BS_boolean|apply PS_mandatory]]. }
    next; [apply SIS_marker|].
    apply sep_one. apply SIS_component. eapply (SC "d"); [vname|apply (tn_type "E"); tname|apply PS_default; apply (VS_simple (I "q")); simple].
  - exact (SI_open_root [_; _] [[_]] [_]).
  - reflexivity.
  - reflexivity.
Qed.
Lemma C50_def1 : definition_syntax (def_words 1) (C50_def 1).
Proof.
  eapply same_words; [apply (DS_type "C1"); [tname|eapply TS_type; [eapply KS_choice|apply rep_nil]]| |].
  - next; [apply CIS_component; apply (CC "x"); [vname|apply simple_type; apply BS_null]|].
    next; [apply CIS_marker|].
    apply sep_one. apply CIS_component. apply (CC "y"); [vname|].
    eapply TS_type; [apply KS_builtin; apply BS_octets|]. apply one. apply size_constraint.
    apply SS_open. eapply sep_more with (t := BAR); [|now left|].
    + apply sep_one. eapply (El_range (N "1") _ _ _ _ (N "4")); [apply EP_value; simple|apply DS_both|apply EP_value; simple].
    + apply sep_one. apply sep_one. apply El_value. apply (VS_simple (N "8")). simple.
  - refine (CI_open_more [_] [] [_] _). discriminate.
  - reflexivity.
  - reflexivity.
Qed.
Lemma C50_def2 : definition_syntax (def_words 2) (C50_def 2).
Proof.
  eapply same_words; [eapply (DS_value "max"); [vname|apply simple_type; apply BS_integer; apply NLS_none|apply (VS_simple (N "7")); simple|]| |].
  - intros [(c & E & _) _]. discriminate.
  - reflexivity.
  - reflexivity.
Qed.
Lemma C50_def3 : definition_syntax (def_words 3) (C50_def 3).
Proof.
  eapply same_words; [apply (DS_type "E"); [tname|apply simple_type; apply BS_enumerated_open]| |].
  - next; [apply (ES_plain "p"); vname|]. apply sep_one. apply (ES_number "q"); [vname|apply (NS_number "3")].
  - reflexivity.
  - reflexivity.
Qed.
Lemma C50_def4 : definition_syntax (def_words 4) (C50_def 4).
Proof.
  eapply same_words; [eapply (DS_parameterized "L"); [tname| |apply TS_sized_list; [apply size_constraint|apply (tn_type "T"); tname]]| |].
  - next; [apply (DuS_type "T"); tname|]. apply sep_one. apply (DuS_governed (K "INTEGER") "n"); [right; cbn; auto|right; vname].
  - apply (range_set (N "1") (I "n")); simple.
  - reflexivity.
  - reflexivity.
Qed.
Lemma C50_def5 : definition_syntax (def_words 5) (C50_def 5).
Proof.
  eapply same_words; [eapply (DS_class "CL"); [cname|eapply ClS_words with (l := [[("&id", "ID")]; [("&Type", "HAS TYPE")]])
    (c := [("&id", FSValue int true false None None); ("&Type", FSType true None None)])
    (c' := [("&id", FSValue int true false None (Some "ID")); ("&Type", FSType true None (Some "HAS TYPE"))])]| |].
  - next.
    + eapply (FS_value "&id"); [exists "id"; split; [reflexivity|vname]|apply simple_type; apply BS_integer; apply NLS_none|apply FO_unique].
    + apply sep_one. apply (FS_type_optional "&Type"). exists "Type". split; [reflexivity|]. cbn. unfold capital. lia.
  - repeat constructor; cbn; intuition discriminate.
  - eapply rep_cons.
    + apply CL_one; [|cbn; auto]. apply (WS [I "ID"]).
      * repeat constructor; cbn; unfold capital; try lia; auto. intuition discriminate.
      * left. exists "id". split; [reflexivity|vname].
    + apply one. apply CL_group; [|discriminate|].
      * apply one. apply (WS [I "HAS"; I "TYPE"]).
        -- repeat constructor; cbn; unfold capital; try lia; auto; intuition discriminate.
        -- right. exists "Type". split; [reflexivity|]. cbn. unfold capital. lia.
      * repeat constructor. eexists. split; [right; left; reflexivity|]. now left.
  - discriminate.
  - repeat constructor; cbn; intuition discriminate.
  - constructor; [|constructor; [|constructor]]; unfold worded; cbn; repeat split; auto.
  - reflexivity.
  - reflexivity.
Qed.
Lemma C50_def6 : definition_syntax (def_words 6) (C50_def 6).
Proof.
  refine (DS_object "o" "CL" [I "ID"; N "1"; I "HAS"; I "TYPE"; I "A"] ltac:(vname) ltac:(cname) _). unused.
Qed.
Lemma C50_def7 : definition_syntax (def_words 7) (C50_def 7).
Proof.
  eapply same_words; [apply (DS_object_set "S" "CL"); [tname|cname|apply OSS_open]| |].
  - eapply sep_more with (t := BAR); [apply (OS_object "o"); vname|now left|]. apply sep_one. apply (OS_inline [I "ID"; N "2"]). unused.
  - reflexivity.
  - reflexivity.
Qed.
Lemma C50_module_syntax : exists w, module_syntax w C50_module /\
  w = [I "M"; L_BRACE; I "iso"; N "2"; I "org"; L_PAREN; N "3"; R_PAREN; R_BRACE; K "DEFINITIONS"; K "AUTOMATIC"; K "TAGS"; ASSIGN; K "BEGIN";
       K "IMPORTS"; I "B"; COMMA; I "P"; L_BRACE; R_BRACE; K "FROM"; I "N"; I "C"; K "FROM"; I "O"; L_BRACE; N "1"; R_BRACE; SEMICOLON] ++
      List.concat (map def_words (seq 0 8)) ++ [K "END"].
Proof.
  assert (Hd : forall c d, digit c d -> (d < 2 ^ 32)%Z -> arc_number (String c "")).
  { intros c d H Hlt. exists d. split; [now apply num_one|exact Hlt]. }
  eexists. split.
  - eapply same_words; [eapply (MS "M" _ _ _ _ _ C50_defs); [tname|eapply OIS_some| | | |]| |reflexivity].
    + eapply rep_cons; [apply (AS_name "iso"); cbn; auto|]. eapply rep_cons; [apply (AS_number "2"); apply (Hd _ 2%Z); [split; [reflexivity|lia]|lia]|].
      apply one. apply (AS_both "org" "3"); [vname|apply (Hd _ 3%Z); [split; [reflexivity|lia]|lia]].
    + apply (TaS_some "AUTOMATIC"). cbn. auto.
    + apply ImS_some with (l := [[("B", "N"); ("P", "N")]; [("C", "O")]]); [|discriminate|repeat constructor; cbn; intuition discriminate].
      eapply rep_cons.
      * eapply (IS _ ["B"; "P"] "N"); [|tname|apply OIS_none]. next; [apply (SyS_plain "B")|]. apply sep_one. apply (SyS_parameterized "P").
      * apply one. eapply (IS _ ["C"] "O"); [apply sep_one; apply (SyS_plain "C")|tname|]. eapply OIS_some. apply one.
        apply (AS_number "1"). apply (Hd _ 1%Z); [split; [reflexivity|lia]|lia].
    + assert (R : forall k n, (n + k = 8)%nat -> repeated definition_syntax (List.concat (map def_words (seq n k))) (map C50_def (seq n k))).
      { induction k; intros n Hn; [apply rep_nil|]. cbn [seq map List.concat]. apply rep_cons; [|apply IHk; lia].
        assert (Hc : (n = 0 \/ n = 1 \/ n = 2 \/ n = 3 \/ n = 4 \/ n = 5 \/ n = 6 \/ n = 7)%nat) by lia.
        decompose [or] Hc; subst n; [exact C50_def0|exact C50_def1|exact C50_def2|exact C50_def3|exact C50_def4|exact C50_def5|exact C50_def6|exact C50_def7]. }
      exact (R 8%nat 0%nat eq_refl).
    + vm_compute. repeat constructor; cbn; intuition discriminate.
    + reflexivity.
  - reflexivity.
Qed.
Lemma words_of_tokens toks l : Forall2 TokenSpec.token_of toks l -> words_of_items l = uncommented toks.
Proof.
  intros Hall. unfold words_of_items, uncommented. induction Hall as [|t x toks l [H1 H2] _ IH]; [reflexivity|].
  cbn [filter]. rewrite H1. destruct (negb (token_type_beq (fst x) Comment)); [|exact IH].
  cbn [map]. rewrite IH. unfold tok_of at 2. now rewrite H1, H2.
Qed.
Lemma C50_case_proof : TokenSpec.numeric_table is_digit /\ chars_of C50_source <> [] /\
  exists l, TokenSpec.items (fun c => is_digit c = true) (chars_of C50_source) l /\ file_syntax (words_of_items l) [C50_module].
Proof.
  split; [exact TokenProofs.numeric_digits|]. split; [discriminate|].
  destruct (tokenize is_digit (chars_of C50_source)) as [toks| | |] eqn:E; [|vm_compute in E; discriminate..].
  assert (Hw : uncommented toks = match tokenize is_digit (chars_of C50_source) with Ok toks => uncommented toks | _ => [] end) by now rewrite E.
  apply (TokenProofs.C39_sound is_digit TokenProofs.numeric_digits) in E.
  destruct (TokenProofs.tokens_items is_digit _ _ _ E) as (l & Hl & Hf). exists l. split; [exact Hl|].
  rewrite (words_of_tokens toks l Hf), Hw. destruct C50_module_syntax as (w & Hm & ->). split; [|split; [discriminate|]].
  - eapply same_words; [apply one; exact Hm| |reflexivity]. vm_compute. reflexivity.
  - intros p m Hp (d & n & x & Hd & c & Hc & _).
    assert (m = C50_module) as ->. { destruct p as [|a [|b p]]; cbn in Hp; congruence. }
    assert (H : rev (pm_defs C50_module) = (n, x) :: rev d) by (rewrite Hd, rev_app_distr; reflexivity).
    vm_compute in H. inversion H. subst. discriminate.
Qed.

(* ASN.1 that is read differently, or not at all *)
Definition in_module (s : string) : string := ("M DEFINITIONS ::= BEGIN " ++ s ++ " END")%string.
Definition read_text (s : string) : res (list parsed_module) := tokens <-- tokenize is_digit (chars_of s) ;; parse tokens.
Definition only (d : parsed_def) : list parsed_module := [mkParsedModule "M" [] [(pd_id d, d)]].
Definition null : asn_type := mkType (KBuiltin BNull) (Some []).
Lemma C50_additions_proof :
  read_text (in_module "A ::= SEQUENCE { a NULL, ..., b NULL }") =
  Ok (only (mkParsed "A" (PAType (mkType (KSequence [mkSeqComp "a" null false None; mkSeqComp "b" null false None] [] true) (Some []))) None)).
Proof. vm_compute. reflexivity. Qed.
Lemma C50_order_proof :
  read_text (in_module "A ::= CHOICE { a NULL, ..., b NULL, [[ c NULL ]] }") =
  Ok (only (mkParsed "A" (PAType (mkType (KChoice [("a", null)] (Some [[("c", null)]; [("b", null)]])) (Some []))) None)).
Proof. vm_compute. reflexivity. Qed.
Lemma C50_brace_value_proof :
  read_text (in_module "LIST ::= SEQUENCE OF INTEGER v LIST ::= { 1 }") =
  Ok [mkParsedModule "M" [] [("LIST", mkParsed "LIST" (PAType (mkType (KSequenceOf None int) (Some []))) None);
                             ("v", mkParsed "v" (PAObject "LIST" "{ 1 }") None)]].
Proof. vm_compute. reflexivity. Qed.
Lemma C50_twice_proof :
  read_text (in_module "A ::= NULL A ::= INTEGER") = Ok (only (mkParsed "A" (PAType int) None)).
Proof. vm_compute. reflexivity. Qed.
Definition C50_legal : list string :=
  ["A ::= CHOICE { a NULL, ..., b NULL, ... }"; "A ::= SEQUENCE SIZE (1..5) OF NULL"; "A ::= [0] NULL"; "A ::= REAL"; "A ::= SET OF NULL";
   "A ::= INTEGER (ALL EXCEPT 5)"; "A ::= BOOLEAN (TRUE)"; "A ::= OCTET STRING (CONTAINING INTEGER)"; "A ::= B (WITH COMPONENTS { a }) B ::= SEQUENCE { a NULL }";
   "EXPORTS A; A ::= NULL"; "IMPORTS ; A ::= NULL"; "a BOOLEAN ::= TRUE"; "S INTEGER ::= { 1 | 2 }"; "A ::= CLASS { &a NULL }"].
Lemma C50_rejected_proof : Forall (fun s => read_text (in_module s) = Err) C50_legal.
Proof. unfold C50_legal. repeat constructor; vm_compute; reflexivity. Qed.
