(* What the compiler accepts is in the loose notation (C60). *)
From Coq Require Import ZArith NArith List Bool String Ascii Lia.
From Coq Require Import ZifyBool ZifyNat ZifyN.
Require Import Verif.Base Verif.Asn1Model Verif.GenModel Verif.ResolveModel Verif.TokenModel Verif.ParserModel Verif.ModuleModel Verif.DefinitionModel
  Verif.ParserSpec Verif.DefinitionSpec Verif.GrammarProofs Verif.DefGrammarProofs Verif.ParserFacts Verif.LinkSpec Verif.LinkProofs Verif.LinkFacts
  Verif.LooseSpec Verif.LooseProofs Verif.LooseDefProofs.
Require Verif.TokenSpec Verif.TokenProofs.
Import ListNotations.
Open Scope string_scope.
Open Scope list_scope.

(* ------------------------------------------------------------------ *)
(* The tokens of a text                                                *)
(* ------------------------------------------------------------------ *)
Definition plain_word (k : string) : bool :=
  String.eqb (utf8 (TokenModel.text k)) k && same (chars_of k) (TokenModel.text k).
Lemma keywords_plain : forallb plain_word KEYWORDS = true.
Proof. vm_compute. reflexivity. Qed.
Lemma same_eq a : forall b, same a b = true <-> a = b.
Proof.
  induction a as [|x a IH]; intros [|y b]; cbn; split; intros H; try discriminate; auto.
  - apply andb_prop in H as [H1 H2]. apply Z.eqb_eq in H1. apply IH in H2. now subst.
  - injection H as -> ->. rewrite Z.eqb_refl. now apply IH.
Qed.
Lemma keyword_text k : In k KEYWORDS -> utf8 (TokenModel.text k) = k /\ chars_of k = TokenModel.text k.
Proof.
  intros H. assert (X := proj1 (forallb_forall _ _) keywords_plain k H). apply andb_prop in X as [X Y]. split; [now apply String.eqb_eq|now apply same_eq].
Qed.
Lemma first_utf8 (p : Z -> Prop) c l : (0 <= c < 128)%Z -> p c -> first_letter p (utf8 (c :: l)).
Proof.
  intros Hc Hp. cbn [utf8 fold_right]. unfold utf8_char. replace (c <? 128)%Z with true by lia. cbn [first_letter].
  assert (E : Z.of_N (N_of_ascii (byte c)) = c) by (unfold byte; rewrite N_ascii_embedding; lia). now rewrite E.
Qed.
Lemma not_reserved c l : (0 <= c < 128)%Z -> ~ capital c -> ~ reserved (utf8 (c :: l)).
Proof.
  intros Hc Hn H. apply reserved_capital in H. assert (X := first_utf8 (fun z => ~ capital z) c l Hc Hn).
  destruct (utf8 (c :: l)); cbn in *; contradiction.
Qed.
Lemma word_reserved w : Forall TokenSpec.word w -> existsb (fun kw => same w (TokenModel.text kw)) KEYWORDS = false -> ~ reserved (utf8 w).
Proof.
  intros Hw He Hr. destruct (keyword_text _ Hr) as [_ E]. rewrite chars_of_utf8 in E.
  - assert (X : existsb (fun kw => same w (TokenModel.text kw)) KEYWORDS = true); [|congruence]. apply existsb_exists. exists (utf8 w). split; [exact Hr|]. now apply same_eq.
  - eapply Forall_impl; [|exact Hw]. intros c. unfold char, TokenSpec.word, TokenSpec.letter, TokenSpec.digit, TokenSpec.hyphen. lia.
Qed.
Lemma lexeme_lexed (num : Z -> Prop) ty w rest : TokenSpec.lexeme num ty w rest -> lexed (mkTok ty (utf8 (TokenSpec.text_of ty w))).
Proof.
  destruct 1 as [w rest H1 H2 H3 H4 H5| | | | | | | | | | | | | |ty c rest H| | | | |b z rest H1 H2 H3|b z rest H1 H2 H3|b rest H1 H2]; try reflexivity.
  - destruct (existsb (fun kw => same w (TokenModel.text kw)) KEYWORDS) eqn:E.
    + apply existsb_exists in E as (k & Hk & E). apply same_eq in E. subst w. unfold lexed. cbn [t_type t_text TokenSpec.text_of]. now rewrite (proj1 (keyword_text k Hk)).
    + unfold lexed. cbn [t_type t_text TokenSpec.text_of]. now apply word_reserved.
  - eexists. reflexivity.
  - destruct w as [|c w]; [contradiction|]. unfold lexed. cbn [t_type t_text TokenSpec.text_of]. cbn in H. unfold TokenSpec.digit in H. apply first_utf8; lia.
  - unfold lexed. cbn [t_type t_text TokenSpec.text_of]. apply first_utf8; unfold TokenSpec.hyphen; lia.
  - unfold lexed. cbn [t_type t_text TokenSpec.text_of]. apply not_reserved; unfold capital; lia.
  - cbn [In] in H. repeat (destruct H as [H|H]; [injection H as <- <-; reflexivity|]). destruct H.
  - apply not_reserved; unfold TokenSpec.hyphen, capital; lia.
  - apply not_reserved; unfold TokenSpec.hyphen, capital; lia.
  - apply not_reserved; unfold TokenSpec.hyphen, capital; lia.
  - apply not_reserved; unfold TokenSpec.hyphen, capital; lia.
  - unfold lexed. cbn [t_type t_text TokenSpec.text_of]. assert (E : exists l, removelast ([39%Z] ++ b ++ [39%Z; z]) = 39%Z :: l) by (destruct b as [|x b]; eexists; reflexivity).
    destruct E as [l ->]. cbn [filter]. change (is_whitespace 39) with false. apply not_reserved; unfold capital; lia.
  - unfold lexed. cbn [t_type t_text TokenSpec.text_of]. assert (E : exists l, removelast ([39%Z] ++ b ++ [39%Z; z]) = 39%Z :: l) by (destruct b as [|x b]; eexists; reflexivity).
    destruct E as [l ->]. cbn [filter]. change (is_whitespace 39) with false. apply not_reserved; unfold capital; lia.
  - unfold lexed. cbn [t_type t_text]. destruct (string_text b H1) as (b' & -> & _). apply not_reserved; unfold capital; lia.
Qed.
Lemma items_lexed (num : Z -> Prop) cs l : TokenSpec.items num cs l -> Forall lexed (words_of_items l).
Proof.
  unfold words_of_items. induction 1 as [|c rest l Hc _ IH|ty w rest l Hl _ IH]; [constructor|exact IH|]. cbn [filter fst].
  destruct (negb (token_type_beq ty Comment)); [|exact IH]. cbn [map fst snd]. constructor; [now apply (lexeme_lexed num _ _ rest)|exact IH].
Qed.

(* ------------------------------------------------------------------ *)
(* C60                                                                 *)
(* ------------------------------------------------------------------ *)
Theorem C60_types_proof w t rest : Forall lexed w -> parse_type w = Ok (t, rest) -> exists v, w = v ++ rest /\ loose_type v t.
Proof. intros L H. now apply parse_type_loose. Qed.
Theorem C60_sets_proof w s rest : Forall lexed w -> parse_element_set w = Ok (s, rest) -> exists v, w = v ++ rest /\ loose_set v s.
Proof. intros L H. now apply parse_set_loose. Qed.
Theorem C60_definitions_proof w d rest : Forall lexed w -> parse_definition w = Ok (d, rest) -> exists v, w = v ++ rest /\ loose_definition v d.
Proof. intros L H. now apply definition_loose. Qed.
Theorem C60_file_proof num cs toks ms : TokenSpec.numeric_table num -> tokenize num cs = Ok toks -> parse toks = Ok ms ->
  exists l, TokenSpec.items (fun c => num c = true) cs l /\ loose_file (words_of_items l) ms.
Proof.
  intros Hn Ht Hp. apply (TokenProofs.C39_sound num Hn) in Ht. destruct (TokenProofs.tokens_items num _ _ _ Ht) as (l & Hl & Hf). exists l. split; [exact Hl|].
  rewrite (words_of_tokens toks l Hf). assert (L := items_lexed _ _ _ Hl). rewrite (words_of_tokens toks l Hf) in L.
  unfold parse in Hp. cbv zeta in Hp. fold (uncommented toks) in Hp. apply modules_loose in Hp as (ms' & E & Hne & Hr); [|exact L]. cbn [app] in E. subst ms'. now split.
Qed.
Lemma added_readable num files : TokenSpec.numeric_table num -> forall acc r, rfold (add_file num) acc files = Ok r -> Forall (readable (fun c => num c = true)) files.
Proof.
  intros Hn. induction files as [|cs files IH]; intros acc r H; [constructor|]. cbn [rfold] in H. destruct (add_file num acc cs) as [acc'| | |] eqn:E; try discriminate H. cbn [rbind] in H.
  constructor; [|now apply (IH acc' r)]. unfold add_file in E. destruct (tokenize num cs) as [toks| | |] eqn:Et; try discriminate E. cbn [rbind] in E.
  destruct (parse toks) as [ms| | |] eqn:Ep; try discriminate E. destruct (C60_file_proof num cs toks ms Hn Et Ep) as (l & H1 & H2). now exists l, ms.
Qed.
Theorem C60_compiled_proof num E depth fuel files orders program : TokenSpec.numeric_table num ->
  compile_files num E depth fuel files orders = Ok program -> Forall (readable (fun c => num c = true)) files.
Proof.
  intros Hn H. unfold compile_files, add_files in H. destruct (rfold (add_file num) [] files) as [r| | |] eqn:Ef; try discriminate H. now apply (added_readable num files Hn [] r).
Qed.
(* what is in the notation is in the loose notation *)
Theorem C60_strict_types_proof w t : Forall lexed w -> type_syntax w t -> loose_type w t.
Proof.
  intros L H. assert (E := parse_type_complete w t [] H Logic.I). rewrite app_nil_r in E. apply parse_type_loose in E as (v & -> & Hv); [|exact L]. now rewrite app_nil_r.
Qed.
Theorem C60_strict_file_proof num cs l ms : TokenSpec.numeric_table num -> TokenSpec.items (fun c => num c = true) cs l -> cs <> [] ->
  file_syntax (words_of_items l) ms -> exists l', TokenSpec.items (fun c => num c = true) cs l' /\ loose_file (words_of_items l') ms.
Proof.
  intros Hn Hi Hne Hf. destruct (C50_file_proof num cs l ms Hn Hi Hne Hf) as (toks & Ht & Hp). now apply (C60_file_proof num cs toks ms).
Qed.

(* Texts outside the notation that are accepted. *)
Theorem C60_octets_proof : let w := [K "OCTET"; K "NULL"] in
  Forall lexed w /\ parse_type w = Ok (mkType (KBuiltin BOctetString) (Some []), []) /\ forall t, ~ type_syntax w t.
Proof.
  cbv zeta. split; [repeat constructor; unfold lexed, reserved, KEYWORDS; cbn [t_type t_text K In]; tauto|]. split; [reflexivity|].
  intros t H. assert (E := parse_type_complete _ t [] H Logic.I). cbn in E. injection E as <-.
  assert (X : forall w t, type_syntax w t -> t = mkType (KBuiltin BOctetString) (Some []) -> w = [K "OCTET"; K "STRING"]).
  { clear. intros w t [w1 k v cs Hk Hv|v t1 H|w1 c v t1 Hc H] E; try discriminate. injection E as -> ->. inversion Hv. rewrite app_nil_r. inversion Hk as [w2 b Hb| | | |]. now inversion Hb. }
  now specialize (X _ _ H eq_refl).
Qed.
Definition of (k : type_kind) : asn_type := mkType k (Some []).
Definition one (e : elements) : asn_type := mkType (KBuiltin BInteger) (Some [CSubtype (mkSet [[e]] None)]).
Theorem C60_types_liberties_proof :
  (* SEQUENCE { a NULL b NULL } and SEQUENCE { , a NULL, b NULL, } *)
  (let t := of (KSequence [mkSeqComp "a" (of (KBuiltin BNull)) false None; mkSeqComp "b" (of (KBuiltin BNull)) false None] [] false) in
   parse_type [K "SEQUENCE"; L_BRACE; I "a"; K "NULL"; I "b"; K "NULL"; R_BRACE] = Ok (t, []) /\
   parse_type [K "SEQUENCE"; L_BRACE; I "a"; K "NULL"; COMMA; I "b"; K "NULL"; COMMA; R_BRACE] = Ok (t, [])) /\
  (* SEQUENCE { a NULL, a NULL } *)
  parse_type [K "SEQUENCE"; L_BRACE; I "a"; K "NULL"; COMMA; I "a"; K "NULL"; R_BRACE] =
    Ok (of (KSequence [mkSeqComp "a" (of (KBuiltin BNull)) false None; mkSeqComp "a" (of (KBuiltin BNull)) false None] [] false), []) /\
  (* ENUMERATED { p q } *)
  parse_type [K "ENUMERATED"; L_BRACE; I "p"; I "q"; R_BRACE] =
    Ok (of (KBuiltin (BEnumerated [mkEnumValue "p" None; mkEnumValue "q" None] false [])), []) /\
  (* SET, a type without a name *)
  parse_type [K "SET"] = Ok (of (KReference (RefName "SET")), []) /\
  (* Foo{} *)
  parse_type [I "Foo"; L_BRACE; R_BRACE] = Ok (of (KReference (RefName "Foo")), []) /\
  (* INTEGER (SIZE 5), INTEGER ( | 5), INTEGER (0 < NULL 5) *)
  parse_type [K "INTEGER"; L_PAREN; K "SIZE"; N "5"; R_PAREN] = Ok (one (ESingle "5"), []) /\
  parse_type [K "INTEGER"; L_PAREN; BAR; N "5"; R_PAREN] = Ok (one (ESingle "5"), []) /\
  parse_type [K "INTEGER"; L_PAREN; N "0"; LESS; K "NULL"; N "5"; R_PAREN] = Ok (one (ERange "0" false "5" true), []).
Proof. repeat split. Qed.
(* A definition that is there twice, and words among the imports. *)
Definition C60_source : string :=
  "M DEFINITIONS ::= BEGIN IMPORTS 5 INTEGER Z FROM N; A ::= SEQUENCE { a INTEGER } A ::= BOOLEAN END".
Definition read_file (s : string) : res (list parsed_module) := toks <-- tokenize is_digit (chars_of s) ;; parse toks.
Theorem C60_file_liberties_proof :
  read_file C60_source = Ok [mkParsedModule "M" [("Z", "N")] [("A", mkParsed "A" (PAType (of (KBuiltin BBoolean))) None)]].
Proof. vm_compute. reflexivity. Qed.
(* The case: the text of C50, and texts that are reported. *)
Theorem C60_case_proof :
  read_file C50_source = Ok [C50_module] /\
  Forall (fun s => read_file s = Err) [
    "M DEFINITIONS ::= BEGIN A ::= NULL";
    "M DEFINITIONS ::= BEGIN A : NULL END";
    "M DEFINITIONS ::= BEGIN a ::= NULL END";
    "M DEFINITIONS ::= BEGIN A ::= INTEGER (1..) END";
    "M DEFINITIONS ::= BEGIN A ::= INTEGER (1..2 END";
    "M DEFINITIONS ::= BEGIN A ::= ENUMERATED { } END";
    "M DEFINITIONS ::= BEGIN A ::= CLASS { &id INTEGER, } WITH SYNTAX { ID &id } END";
    "M DEFINITIONS ::= BEGIN A ::= CLASS { &id INTEGER } WITH SYNTAX { [ID &id] } END";
    "M DEFINITIONS ::= BEGIN IMPORTS A FROM N A FROM O; END";
    "m DEFINITIONS ::= BEGIN A ::= NULL END"].
Proof.
  split; [vm_compute; reflexivity|]. repeat (apply Forall_cons; [vm_compute; reflexivity|]). apply Forall_nil.
Qed.
