(* Proofs about the reading of objects and the linking of modules. *)
From Coq Require Import ZArith NArith List Bool String Ascii Lia Permutation.
From Coq Require Import ZifyBool ZifyNat ZifyN.
Require Import Verif.Base Verif.Asn1Model Verif.GenModel Verif.ResolveModel Verif.TokenModel Verif.ParserModel Verif.ModuleModel
  Verif.DefinitionModel Verif.TokenSpec Verif.TokenProofs Verif.ParserSpec Verif.DefinitionSpec Verif.GrammarProofs Verif.DefGrammarProofs
  Verif.CompilerSpec Verif.TopoProofs Verif.ResolveProofs Verif.ParserFacts Verif.LinkSpec.
Import ListNotations.
Open Scope string_scope.
Open Scope list_scope.

(* ------------------------------------------------------------------ *)
(* Characters                                                          *)
(* ------------------------------------------------------------------ *)
Definition char (c : Z) : Prop := (0 <= c < 0x110000)%Z.
Lemma code_byte z : (0 <= z < 256)%Z -> code (byte z) = z.
Proof. intros H. unfold code, byte. rewrite N_ascii_embedding by lia. lia. Qed.
Lemma chars_of_char c r : char c -> chars_of (utf8_char c r) = c :: chars_of r.
Proof.
  intros H. unfold char in H. unfold utf8_char.
  destruct (Z.ltb_spec c 0x80); [|destruct (Z.ltb_spec c 0x800); [|destruct (Z.ltb_spec c 0x10000)]]; cbn [chars_of].
  - rewrite code_byte by lia. replace (c <? 128)%Z with true by lia. reflexivity.
  - assert (D1 := Z.div_mod c 64 ltac:(lia)). assert (D2 := Z.mod_pos_bound c 64 ltac:(lia)).
    rewrite !code_byte by lia. replace (192 + c / 64 <? 128)%Z with false by lia. replace (192 + c / 64 <? 224)%Z with true by lia.
    f_equal. lia.
  - assert (D1 := Z.div_mod c 64 ltac:(lia)). assert (D2 := Z.mod_pos_bound c 64 ltac:(lia)).
    assert (D3 := Z.div_mod (c / 64) 64 ltac:(lia)). assert (D4 := Z.mod_pos_bound (c / 64) 64 ltac:(lia)).
    assert (D5 : (c / 4096 = c / 64 / 64)%Z) by (rewrite Z.div_div by lia; reflexivity).
    rewrite D5. rewrite !code_byte by lia.
    replace (224 + c / 64 / 64 <? 128)%Z with false by lia. replace (224 + c / 64 / 64 <? 224)%Z with false by lia.
    replace (224 + c / 64 / 64 <? 240)%Z with true by lia. f_equal. lia.
  - assert (D1 := Z.div_mod c 64 ltac:(lia)). assert (D2 := Z.mod_pos_bound c 64 ltac:(lia)).
    assert (D3 := Z.div_mod (c / 64) 64 ltac:(lia)). assert (D4 := Z.mod_pos_bound (c / 64) 64 ltac:(lia)).
    assert (D5 := Z.div_mod (c / 64 / 64) 64 ltac:(lia)). assert (D6 := Z.mod_pos_bound (c / 64 / 64) 64 ltac:(lia)).
    assert (D7 : (c / 4096 = c / 64 / 64)%Z) by (rewrite Z.div_div by lia; reflexivity).
    assert (D8 : (c / 262144 = c / 64 / 64 / 64)%Z) by (rewrite !Z.div_div by lia; reflexivity).
    rewrite D7, D8. rewrite !code_byte by lia.
    replace (240 + c / 64 / 64 / 64 <? 128)%Z with false by lia. replace (240 + c / 64 / 64 / 64 <? 224)%Z with false by lia.
    replace (240 + c / 64 / 64 / 64 <? 240)%Z with false by lia. f_equal. lia.
Qed.
Lemma chars_of_utf8 l : Forall char l -> chars_of (utf8 l) = l.
Proof. induction 1 as [|c l Hc Hl IH]; [reflexivity|]. cbn [utf8 fold_right]. rewrite chars_of_char by exact Hc. f_equal. exact IH. Qed.
Lemma utf8_char_app c r s : utf8_char c (r ++ s) = (utf8_char c r ++ s)%string.
Proof. unfold utf8_char. destruct (c <? 0x80)%Z, (c <? 0x800)%Z, (c <? 0x10000)%Z; reflexivity. Qed.
Lemma utf8_app a b : utf8 (a ++ b) = (utf8 a ++ utf8 b)%string.
Proof. induction a as [|c a IH]; [reflexivity|]. cbn [app utf8 fold_right]. unfold utf8 in IH. rewrite IH. apply utf8_char_app. Qed.

(* ------------------------------------------------------------------ *)
(* Strings over several lines                                          *)
(* ------------------------------------------------------------------ *)
(* the second list is the first without some characters, none of them a quote *)
Inductive thin : list Z -> list Z -> Prop :=
| thin_nil : thin [] []
| thin_keep c l l' : thin l l' -> thin (c :: l) (c :: l')
| thin_drop c l l' : c <> 34%Z -> thin l l' -> thin (c :: l) l'.
Lemma thin_refl l : thin l l.
Proof. induction l; constructor; auto. Qed.
Lemma thin_app a a' b b' : thin a a' -> thin b b' -> thin (a ++ b) (a' ++ b').
Proof. induction 1; intros Hb; cbn [app]; auto; constructor; auto. Qed.
Lemma thin_trans a b c : thin a b -> thin b c -> thin a c.
Proof.
  intros H. revert c. induction H as [|x l l' H IH|x l l' Hx H IH]; intros c Hc.
  - exact Hc.
  - inversion Hc; subst; constructor; auto.
  - constructor; auto.
Qed.
Lemma thin_rev a b : thin a b -> thin (rev a) (rev b).
Proof.
  induction 1 as [|x l l' H IH|x l l' Hx H IH]; cbn [rev]; [constructor| |].
  - apply thin_app; [exact IH|apply thin_refl].
  - rewrite <- (app_nil_r (rev l')). apply thin_app; [exact IH|]. constructor; [exact Hx|constructor].
Qed.
Lemma thin_while p l : p 34%Z = false -> thin l (drop_while p l).
Proof.
  intros Hp. induction l as [|c l IH]; cbn [drop_while]; [constructor|].
  destruct (p c) eqn:Hc; [|apply thin_refl]. constructor; [intros ->; congruence|exact IH].
Qed.
Lemma thin_trim l : thin l (trim l).
Proof.
  unfold trim. assert (H := thin_while is_whitespace l eq_refl).
  assert (H' := thin_rev _ _ (thin_while is_whitespace (rev (drop_while is_whitespace l)) eq_refl)).
  rewrite rev_involutive in H'. eapply thin_trans; eassumption.
Qed.
Lemma thin_strip_cr l : thin l (strip_cr l).
Proof.
  unfold strip_cr. destruct (rev l) as [|c r] eqn:H; [apply thin_refl|].
  assert (Hl : l = rev r ++ [c]) by (rewrite <- (rev_involutive l), H; reflexivity).
  destruct (Z.eq_dec c 13) as [->|Hc].
  - rewrite Hl. rewrite <- (app_nil_r (rev r)) at 2. apply thin_app; [apply thin_refl|]. repeat constructor. discriminate.
  - repeat first [apply thin_refl | match goal with |- thin _ (match ?x with _ => _ end) => destruct x; try congruence end].
Qed.
Lemma thin_lines l : forall cur, thin (cur ++ l) (List.concat (map trim (split_lines cur l))).
Proof.
  induction l as [|c l IH]; intros cur; cbn [split_lines].
  - rewrite app_nil_r. destruct cur as [|x cur]; [constructor|]. cbn [map List.concat]. rewrite app_nil_r. apply thin_trim.
  - destruct (c =? 10)%Z eqn:Hc.
    + cbn [map List.concat]. apply thin_app; [eapply thin_trans; [apply thin_strip_cr|apply thin_trim]|].
      constructor; [lia|]. apply (IH []).
    + replace (cur ++ c :: l) with ((cur ++ [c]) ++ l) by (rewrite <- app_assoc; reflexivity). apply IH.
Qed.
Lemma thin_in a b c : thin a b -> In c b -> In c a.
Proof. induction 1; cbn [In]; tauto. Qed.
Lemma thin_snoc_quote a b : thin (a ++ [34%Z]) b -> exists b', b = b' ++ [34%Z] /\ thin a b'.
Proof.
  revert b. induction a as [|c a IH]; intros b H; cbn [app] in H.
  - inversion H as [|? ? l' H1|? ? l' Hc H1]; subst; [|congruence]. inversion H1; subst. exists []. split; [reflexivity|constructor].
  - inversion H as [|? ? l' H1|? ? l' Hc H1]; subst; destruct (IH _ H1) as (b' & -> & Hb).
    + exists (c :: b'). split; [reflexivity|constructor; exact Hb].
    + exists b'. split; [reflexivity|constructor; assumption].
Qed.
Lemma thin_quoted a : quoted a -> forall b, thin a b -> quoted b.
Proof.
  induction 1 as [|c l Hc H IH|l H IH]; intros b Hb.
  - inversion Hb; subst. constructor.
  - inversion Hb; subst; [constructor; auto|auto].
  - inversion Hb as [|? ? l' H1|? ? l' Hc H1]; subst; [|congruence].
    inversion H1 as [|? ? l2 H2|? ? l2 Hc H2]; subst; [|congruence]. apply Q_pair. auto.
Qed.
Lemma lines_no_break l : forall cur, ~ In 10%Z cur -> forall x, In x (split_lines cur l) -> ~ In 10%Z x.
Proof.
  induction l as [|c l IH]; intros cur Hcur x Hx; cbn [split_lines] in Hx.
  - destruct cur; [destruct Hx|]. destruct Hx as [<-|[]]. exact Hcur.
  - destruct (c =? 10)%Z eqn:Hc.
    + destruct Hx as [<-|Hx]; [|eapply (IH []); [intros []|exact Hx]]. intros Hin. apply Hcur. eapply thin_in; [apply thin_strip_cr|exact Hin].
    + eapply IH; [|exact Hx]. rewrite in_app_iff. intros [Hin|[->|[]]]; [exact (Hcur Hin)|discriminate].
Qed.
Lemma one_line l : forall cur, ~ In 10%Z l -> cur ++ l <> [] -> split_lines cur l = [cur ++ l].
Proof.
  induction l as [|c l IH]; intros cur Hn He; cbn [split_lines].
  - rewrite app_nil_r in *. destruct cur; [congruence|reflexivity].
  - destruct (c =? 10)%Z eqn:Hc; [exfalso; apply Hn; left; lia|].
    rewrite IH; [rewrite <- app_assoc; reflexivity|intros Hin; apply Hn; right; exact Hin|]. destruct cur; discriminate.
Qed.
Lemma trim_quotes b : trim (34%Z :: b ++ [34%Z]) = 34%Z :: b ++ [34%Z].
Proof.
  unfold trim. cbn [drop_while]. change (is_whitespace 34) with false. cbv iota. cbn [rev]. rewrite rev_app_distr. cbn [rev app drop_while].
  change (is_whitespace 34) with false. cbv iota. cbn [rev]. rewrite rev_app_distr, rev_involutive. reflexivity.
Qed.
Lemma string_text b : quoted b -> exists b', text_of TString ([34%Z] ++ b ++ [34%Z]) = [34%Z] ++ b' ++ [34%Z] /\
  quoted b' /\ text_of TString ([34%Z] ++ b' ++ [34%Z]) = [34%Z] ++ b' ++ [34%Z] /\ forall c, In c b' -> In c b.
Proof.
  intros Hb. cbn [text_of]. assert (H := thin_lines ([34%Z] ++ b ++ [34%Z]) []). cbn [app] in H. fold (lines (34%Z :: b ++ [34%Z])) in H.
  assert (Hl : forall x, In x (lines (34%Z :: b ++ [34%Z])) -> ~ In 10%Z x) by (intros x Hx; eapply lines_no_break; [|exact Hx]; intros []).
  assert (Hn : ~ In 10%Z (List.concat (map trim (lines (34%Z :: b ++ [34%Z]))))).
  { intros Hin. apply in_concat in Hin as (x & Hx & Hin). apply in_map_iff in Hx as (y & <- & Hy). apply (Hl _ Hy). eapply thin_in; [apply thin_trim|exact Hin]. }
  cbn [app]. set (r := List.concat _) in *. clearbody r. clear Hl.
  inversion H as [|? ? l' H1|? ? l' Hc H1]; subst; [|congruence]. destruct (thin_snoc_quote _ _ H1) as (b' & -> & Hb').
  exists b'. split; [reflexivity|]. split; [eapply thin_quoted; eassumption|]. split.
  - unfold lines. rewrite one_line; [|exact Hn|discriminate]. cbn [app map List.concat]. rewrite app_nil_r. apply trim_quotes.
  - intros c Hc. eapply thin_in; eassumption.
Qed.

(* ------------------------------------------------------------------ *)
(* The text of tokens has these tokens                                 *)
(* ------------------------------------------------------------------ *)
Section Text.
Context (num : Z -> bool) (Hnum : numeric_characters num).
Notation numeric := (fun c => num c = true).

Lemma not_begins_space (p : Z -> Prop) r : ~ p 32%Z -> ~ begins p (32%Z :: r).
Proof. exact (fun H => H). Qed.
Lemma space_no_word : ~ TokenSpec.word 32%Z.
Proof. unfold TokenSpec.word, letter, TokenSpec.digit, hyphen. lia. Qed.
Lemma lexeme_string ty w rest : lexeme numeric ty w rest -> ty = TString -> exists b, w = [34%Z] ++ b ++ [34%Z] /\ quoted b.
Proof.
  destruct 1; try discriminate; intros E.
  - destruct (existsb (fun kw => same w (TokenModel.text kw)) KEYWORDS); discriminate.
  - subst ty. cbn in H. repeat destruct H as [H|H]; try discriminate; destruct H.
  - exists b. auto.
Qed.
(* an item can be written again, followed by a space *)
Lemma lexeme_again ty w rest : lexeme numeric ty w rest -> ~ In ty [Comment; BitString; HexString] -> forall r,
  exists w', text_of ty w = w' /\ text_of ty w' = w' /\ lexeme numeric ty w' (32%Z :: r) /\ forall c, In c w' -> In c w.
Proof.
  destruct Hnum as [Ht Hs]. assert (Hs' : ~ num 32%Z = true) by congruence. intros H Hty r.
  assert (Hsame : lexeme numeric ty w (32%Z :: r) -> ty <> TString ->
    exists w', text_of ty w = w' /\ text_of ty w' = w' /\ lexeme numeric ty w' (32%Z :: r) /\ forall c, In c w' -> In c w).
  { intros Hl Hns. exists w. assert (text_of ty w = w) by (apply text_same; try assumption; intros ->; apply Hty; cbn; tauto).
    split; [assumption|]. split; [assumption|]. split; [exact Hl|auto]. }
  assert (Hdec : {ty = TString} + {ty <> TString}) by decide equality. destruct Hdec as [->|Hns].
  { destruct (lexeme_string _ _ _ H eq_refl) as (b & -> & Hb). destruct (string_text b Hb) as (b' & E & Hq & E' & Hin). exists ([34%Z] ++ b' ++ [34%Z]). split; [exact E|]. split; [exact E'|]. split.
    - constructor; [exact Hq|]. cbn [begins]. discriminate.
    - intros c Hc. cbn [app In] in *. destruct Hc as [Hc|Hc]; [tauto|]. right. rewrite in_app_iff in *. destruct Hc; auto. }
  apply Hsame; [|exact Hns].
  inversion H; subst; try (exfalso; apply Hty; cbn; tauto); try congruence;
    try (constructor; auto using space_no_word; try discriminate; apply not_begins_space; unfold TokenSpec.is; discriminate);
    try (constructor; auto using space_no_word; discriminate).
  - apply L_negative; auto; destruct w0; try discriminate. assumption.
  - constructor; auto; [destruct w0; discriminate|]. cbn [begins]. pose proof space_no_word. intros [Hw|Hw]; [tauto|discriminate].
Qed.
Lemma from_text_again t : from_text numeric t -> exists cs, Forall char cs /\ t_text t = utf8 cs /\ text_of (t_type t) cs = cs /\
  forall r, lexeme numeric (t_type t) cs (32%Z :: r).
Proof.
  intros (cs & rest & Hl & Ht & Hc & Hty). exists (text_of (t_type t) cs).
  destruct (lexeme_again _ _ _ Hl Hty []) as (w' & E & E' & _ & Hin). rewrite E in *. split; [|split; [exact Ht|split; [exact E'|]]].
  - rewrite Forall_forall in *. intros c Hc'. apply Hc. apply Hin. exact Hc'.
  - intros r. destruct (lexeme_again _ _ _ Hl Hty r) as (w2 & E2 & _ & H & _). rewrite E in E2. subst w2. exact H.
Qed.
Lemma text_cons t ws : ws <> [] -> text (t :: ws) = (t_text t ++ " " ++ text ws)%string.
Proof. intros H. unfold text. cbn [map String.concat]. destruct ws as [|u ws]; [congruence|reflexivity]. Qed.
Definition tok_of_item (x : token_type * list Z) : tok := mkTok (fst x) (utf8 (text_of (fst x) (snd x))).
Lemma text_again ws : Forall (from_text numeric) ws -> exists cs l, Forall char cs /\ cs <> [] /\ text (ws ++ [R_BRACE]) = utf8 cs /\
  items numeric cs l /\ map tok_of_item l = ws ++ [R_BRACE].
Proof.
  induction 1 as [|t ws Ht Hws IH].
  - exists [125%Z], [(CurlyEnd, [125%Z])]. split; [repeat constructor; unfold char; lia|]. split; [discriminate|]. split; [reflexivity|]. split; [|reflexivity].
    change [125%Z] with ([125%Z] ++ []) at 1. constructor; [|constructor]. apply L_single. cbn. tauto.
  - destruct IH as (cs & l & Hc & _ & Htext & Hi & Hm). destruct (from_text_again t Ht) as (w & Hw & Et & Eo & Hl).
    exists (w ++ 32%Z :: cs), ((t_type t, w) :: l). split; [|split; [destruct w; discriminate|split; [|split]]].
    + apply Forall_app. split; [exact Hw|]. constructor; [unfold char; lia|exact Hc].
    + cbn [app]. rewrite text_cons by (destruct ws; discriminate). rewrite Et, Htext. rewrite utf8_app. reflexivity.
    + constructor; [apply Hl|]. constructor; [left; reflexivity|exact Hi].
    + cbn [map app]. rewrite Hm. f_equal. unfold tok_of_item. cbn [fst snd]. rewrite Eo, <- Et. destruct t; reflexivity.
Qed.
Lemma tokens_tok toks l : Forall2 token_of toks l -> map tok_of toks = map tok_of_item l.
Proof. induction 1 as [|t x toks l [H1 H2] _ IH]; [reflexivity|]. cbn [map]. rewrite IH. unfold tok_of, tok_of_item. now rewrite H1, H2. Qed.
Theorem text_tokenized ws : Forall (from_text numeric) ws ->
  exists toks, tokenize num (chars_of (text (ws ++ [R_BRACE]))) = Ok toks /\ map tok_of toks = ws ++ [R_BRACE].
Proof.
  intros H. destruct (text_again ws H) as (cs & l & Hc & Hne & -> & Hi & <-). rewrite chars_of_utf8 by exact Hc.
  destruct (C39_complete num (proj1 Hnum) cs l Hi Hne) as (toks & E & Hf). exists toks. split; [exact E|]. apply tokens_tok. exact Hf.
Qed.
End Text.

(* ------------------------------------------------------------------ *)
(* The words of a class                                                *)
(* ------------------------------------------------------------------ *)
Lemma split_space_app a : forall cur s, Forall (fun c => is_space c = false) (list_ascii_of_string a) ->
  split_space cur (a ++ s) = split_space (cur ++ a) s.
Proof.
  induction a as [|c a IH]; intros cur s H.
  - cbn [append]. f_equal. induction cur as [|x cur IHc]; [reflexivity|]. cbn [append]. f_equal. exact IHc.
  - inversion H as [|? ? Hc Ha]; subst. cbn [append split_space]. rewrite Hc. rewrite IH by exact Ha. f_equal.
    clear. induction cur as [|x cur IHc]; [reflexivity|]. cbn [append]. f_equal. exact IHc.
Qed.
Lemma word_chars s : characters (fun z => capital z \/ z = 45%Z) s -> Forall (fun c => is_space c = false) (list_ascii_of_string s).
Proof.
  induction s as [|c s IH]; [constructor|]. cbn [characters list_ascii_of_string]. intros [Hc Hs]. constructor; [|auto].
  unfold is_space. unfold capital in Hc. destruct c as [[] [] [] [] [] [] [] []]; try reflexivity; exfalso; vm_compute in Hc;
    destruct Hc as [[H1 H2]|H1]; first [discriminate H1 | apply H1; reflexivity | apply H2; reflexivity].
Qed.
Lemma word_nonempty s : first_letter capital s -> exists c r, s = String c r.
Proof. destruct s as [|c r]; [intros []|]. eauto. Qed.
Lemma words_split ws : Forall word ws -> split_space EmptyString (text ws) = map t_text ws.
Proof.
  induction 1 as [|t ws (_ & Hf & Hc & _) Hws IH]; [reflexivity|]. destruct (word_nonempty _ Hf) as (c & r & E).
  destruct ws as [|u ws].
  - unfold text. cbn [map String.concat]. assert (H := split_space_app (t_text t) EmptyString EmptyString (word_chars _ Hc)).
    replace (t_text t ++ "")%string with (t_text t) in H. 2: { clear. induction (t_text t) as [|x s IHs]; [reflexivity|]. cbn [append]. f_equal. exact IHs. }
    rewrite H. cbn [append split_space]. rewrite E. reflexivity.
  - rewrite text_cons by discriminate. rewrite (split_space_app (t_text t)) by (apply word_chars; exact Hc). cbn [append].
    set (rest := text (u :: ws)) in *. cbn [split_space]. rewrite E. cbn [map]. change (is_space " ") with true. cbv iota. rewrite IH, <- E. reflexivity.
Qed.
Definition class_words (c : class) : list string :=
  flat_map (fun kf : string * field_spec => match syntax_of (snd kf) with Some s => split_space EmptyString s | None => [] end) c.
Lemma syntax_words s : syntax_of s = words_before_field s.
Proof. destruct s; reflexivity. Qed.
Section Object.
Context (c : class) (Hc : well_worded c).
Lemma class_words_in s : In s (class_words c) <-> word_of_class c s.
Proof.
  destruct Hc as (_ & Hw & _). unfold class_words. rewrite in_flat_map. split.
  - intros ([f spec] & Hin & Hs). cbn [snd] in Hs. rewrite syntax_words in Hs. destruct (words_before_field spec) as [x|] eqn:E; [|destruct Hs].
    destruct (Hw _ _ _ Hin E) as (ws & Hws & ->). rewrite words_split in Hs by exact Hws. exists f, spec, ws. auto.
  - intros (f & spec & ws & Hin & E & Hws & Hs). exists (f, spec). split; [exact Hin|]. cbn [snd]. rewrite syntax_words, E, words_split by exact Hws. exact Hs.
Qed.
Definition other (t : tok) : bool := negb (existsb (String.eqb (t_text t)) (class_words c)).
Lemma other_true t : ~ word_of_class c (t_text t) -> other t = true.
Proof.
  intros H. unfold other. apply negb_true_iff. apply not_true_is_false. intros Hx. apply existsb_exists in Hx as (s & Hs & E).
  apply String.eqb_eq in E. subst s. apply H. apply class_words_in. exact Hs.
Qed.
Lemma other_false t : word_of_class c (t_text t) -> other t = false.
Proof. intros H. unfold other. apply negb_false_iff. apply existsb_exists. exists (t_text t). split; [apply class_words_in; exact H|apply String.eqb_refl]. Qed.
Lemma field_found f spec x : In (f, spec) c -> words_before_field spec = Some x -> field_with_words x c = Some (f, spec).
Proof.
  destruct Hc as (Hn & _ & Hd). intros Hin Hx.
  assert (H : forall l, incl l c -> In (f, spec) l -> field_with_words x l = Some (f, spec)).
  { induction l as [|[k s] l IH]; intros Hi Hl; [destruct Hl|]. cbn [field_with_words]. rewrite syntax_words.
    assert (Hrest : (k, s) <> (f, spec) -> field_with_words x l = Some (f, spec)).
    { intros Hne. apply IH; [intros y Hy; apply Hi; right; exact Hy|]. destruct Hl as [Hl|Hl]; [congruence|exact Hl]. }
    destruct (words_before_field s) as [y|] eqn:E.
    - destruct (String.eqb_spec y x) as [->|Hne].
      + assert (k = f) by (eapply Hd; [apply Hi; left; reflexivity|exact Hin|exact E|exact Hx]). subst k.
        f_equal. f_equal. assert (Hk := Hi _ (or_introl eq_refl)).
        clear - Hn Hk Hin. unfold names in Hn. induction c as [|[k' s'] c' IH]; [destruct Hk|]. inversion Hn as [|? ? Hni Hn']; subst.
        destruct Hk as [Hk|Hk], Hin as [Hin|Hin]; try congruence.
        * inversion Hk; subst. exfalso. apply Hni. apply in_map_iff. exists (f, spec). auto.
        * inversion Hin; subst. exfalso. apply Hni. apply in_map_iff. exists (f, s). auto.
        * auto.
      + apply Hrest. intros E'. inversion E'; subst. congruence.
    - apply Hrest. intros E'. inversion E'; subst. congruence. }
  apply H; [intros y Hy; exact Hy|exact Hin].
Qed.
Lemma no_field_empty : (forall f spec, In (f, spec) c -> words_before_field spec <> Some "") -> field_with_words "" c = None.
Proof.
  intros H. induction c as [|[k s] l IH]; [reflexivity|]. cbn [field_with_words]. rewrite syntax_words.
  assert (Hl : field_with_words "" l = None). { revert H. clear. induction l as [|[k' s'] l IH]; intros H; [reflexivity|].
    cbn [field_with_words]. rewrite syntax_words. destruct (words_before_field s') as [y|] eqn:E.
    - destruct (String.eqb_spec y "") as [->|Hne]; [exfalso; eapply H; [right; left; reflexivity|exact E]|].
      apply IH. intros f spec [Hf|Hf]; [eapply H; left; exact Hf|eapply H; right; right; exact Hf].
    - apply IH. intros f spec [Hf|Hf]; [eapply H; left; exact Hf|eapply H; right; right; exact Hf]. }
  destruct (words_before_field s) as [y|] eqn:E; [|exact Hl].
  destruct (String.eqb_spec y "") as [->|Hne]; [exfalso; eapply H; [left; reflexivity|exact E]|exact Hl].
Qed.

(* ------------------------------------------------------------------ *)
(* The settings of an object                                           *)
(* ------------------------------------------------------------------ *)
Lemma split_words p ws : forall cur rest, Forall (fun t => p t = false) ws -> split_tokens p cur (ws ++ rest) = split_tokens p (cur ++ ws) rest.
Proof.
  induction ws as [|t ws IH]; intros cur rest H; [rewrite app_nil_r; reflexivity|]. inversion H as [|? ? Ht Hws]; subst.
  cbn [app split_tokens]. rewrite Ht, IH by exact Hws. rewrite <- app_assoc. reflexivity.
Qed.
Lemma split_value p t v : forall cur rest, p t = true -> Forall (fun t => p t = true) v ->
  split_tokens p cur (t :: v ++ rest) = cur :: repeat [] (List.length v) ++ split_tokens p [] rest.
Proof.
  revert t. induction v as [|u v IH]; intros t cur rest Ht H; cbn [app split_tokens List.length repeat].
  - rewrite Ht. reflexivity.
  - rewrite Ht. inversion H as [|? ? Hu Hv]; subst. f_equal. apply (IH u [] rest Hu Hv).
Qed.
Lemma skip_empty ts k : field_with_words "" c = None -> forall consumed fields segments,
  object_loop c ts consumed fields (repeat [] k ++ segments) = object_loop c ts consumed fields segments.
Proof.
  intros H. induction k as [|k IH]; intros consumed fields segments; [reflexivity|]. cbn [repeat app object_loop List.length].
  unfold concat_tokens. cbn [map String.concat]. rewrite H. rewrite Nat.add_0_r. apply IH.
Qed.
Lemma word_in_class s : sets_field c s -> Forall (fun t => other t = false) (s_words s).
Proof.
  intros (spec & Hin & E & Hw & _). rewrite Forall_forall. intros t Ht. apply other_false. exists (s_field s), spec, (s_words s).
  split; [exact Hin|]. split; [exact E|]. split; [exact Hw|]. apply in_map. exact Ht.
Qed.
Lemma value_tokens s : sets_field c s -> exists t v, s_value s = t :: v.
Proof.
  intros (spec & _ & _ & _ & H). destruct spec as [o d w|t u o d w].
  - destruct H as (ty & H & _). destruct (type_head _ _ H) as (x & v & -> & _). eauto.
  - destruct H as (x & H & _). inversion H; subst; eauto.
Qed.
Lemma slice_app (a b : list tok) : slice_from (List.length a) (a ++ b) = Ok b.
Proof.
  unfold slice_from. rewrite app_length. replace (Nat.ltb _ _) with false by (symmetry; apply Nat.ltb_ge; lia).
  f_equal. rewrite skipn_app, skipn_all, Nat.sub_diag. reflexivity.
Qed.
Lemma read_setting s rest : sets_field c s -> follows_type rest -> exists spec,
  field_with_words (concat_tokens (s_words s) " ") c = Some (s_field s, spec) /\
  value_from_field_spec spec (s_value s ++ rest) = Ok (s_content s, rest).
Proof.
  intros (spec & Hin & E & _ & H) Hr. exists spec. split; [apply field_found; [exact Hin|exact E]|].
  destruct spec as [o d w|t u o d w]; cbn [value_from_field_spec].
  - destruct H as (ty & H & ->). rewrite (parse_type_complete _ _ _ H Hr). reflexivity.
  - destruct H as (x & H & ->). rewrite (read_value _ _ _ H). reflexivity.
Qed.
Lemma follows_settings l : Forall (sets_field c) l -> (forall s, In s l -> s_words s = [] -> follows_type (s_value s)) ->
  follows_type (flat_map written l).
Proof.
  intros H Hf. destruct l as [|s l]; [exact Logic.I|]. cbn [flat_map]. unfold written. inversion H as [|? ? Hs _]; subst.
  destruct (s_words s) as [|t ws] eqn:E.
  - specialize (Hf s (or_introl eq_refl) E). destruct (value_tokens s Hs) as (t & v & Ev). rewrite Ev in *. exact Hf.
  - destruct Hs as (_ & _ & _ & Hw & _). rewrite E in Hw. inversion Hw as [|? ? Ht _]; subst. destruct Ht as (Hty & _).
    cbn [app follows_type]. cbn [In] in *. intros Hx. destruct Hty as [Hty|[Hty|[]]]; rewrite <- Hty in Hx; repeat destruct Hx as [Hx|Hx]; try discriminate; destruct Hx.
Qed.
Lemma object_loop_settings l : Forall (sets_field c) l -> told_apart c l -> forall pre fields,
  NoDup (names fields ++ map s_field l) ->
  object_loop c (pre ++ flat_map written l) (List.length pre) fields (split_tokens other [] (flat_map written l)) = Ok (fields ++ given l).
Proof.
  induction l as [|s l IH]; intros Hl Hta pre fields Hn.
  - cbn [flat_map split_tokens object_loop]. unfold concat_tokens. cbn [map String.concat]. destruct Hta as (_ & _ & [He|[He _]]); [|congruence].
    rewrite no_field_empty by exact He. unfold given. cbn [map]. rewrite app_nil_r. reflexivity.
  - inversion Hl as [|? ? Hs Hl']; subst. destruct Hta as (Hv & Hf & He).
    assert (Hrest : follows_type (flat_map written l)) by (apply follows_settings; [exact Hl'|intros s' Hs'; apply Hf; right; exact Hs']).
    destruct (read_setting s _ Hs Hrest) as (spec & Efw & Eval). destruct (value_tokens s Hs) as (t & v & Ev).
    assert (Hval : Forall (fun t => other t = true) (t :: v)).
    { rewrite <- Ev. rewrite Forall_forall. intros u Hu. apply other_true. eapply Hv; [left; reflexivity|exact Hu]. }
    inversion Hval as [|? ? Ht Hv']; subst.
    assert (Htoks : pre ++ flat_map written (s :: l) = (pre ++ s_words s) ++ s_value s ++ flat_map written l).
    { cbn [flat_map]. unfold written at 1. rewrite <- !app_assoc. reflexivity. }
    assert (Esplit : split_tokens other [] (flat_map written (s :: l)) =
      s_words s :: repeat [] (List.length v) ++ split_tokens other [] (flat_map written l)).
    { cbn [flat_map]. unfold written at 1. rewrite <- app_assoc, Ev. rewrite split_words by (apply word_in_class; exact Hs).
      cbn [app]. apply split_value; assumption. }
    rewrite Esplit. cbn [object_loop]. rewrite Efw, Htoks.
    rewrite <- app_length. rewrite slice_app. cbn [rbind]. rewrite Eval. cbn [rbind fst snd].
    assert (Hnew : ~ In (s_field s) (names fields)).
    { intros Hin. cbn [map] in Hn. apply NoDup_remove_2 in Hn. apply Hn. apply in_or_app. left. exact Hin. }
    rewrite replace_new by exact Hnew.
    replace (List.length ((pre ++ s_words s) ++ s_value s ++ flat_map written l) - List.length (flat_map written l))%nat
      with (List.length (pre ++ s_words s ++ s_value s)) by (rewrite !app_length; lia).
    destruct l as [|s' l].
    + cbn [flat_map]. rewrite !app_nil_r. replace (Nat.eqb _ _) with true by (symmetry; apply Nat.eqb_eq; rewrite !app_length; lia). reflexivity.
    + inversion Hl' as [|? ? Hs' _]; subst. destruct (value_tokens s' Hs') as (t' & v2 & Ev').
      replace (Nat.eqb _ _) with false.
      2: { symmetry. apply Nat.eqb_neq. cbn [flat_map]. unfold written at 1. rewrite !app_length, Ev'. cbn [List.length]. lia. }
      assert (Hgo : object_loop c ((pre ++ s_words s) ++ s_value s ++ flat_map written (s' :: l)) (List.length (pre ++ s_words s ++ s_value s))
        (fields ++ [(s_field s, s_content s)]) (split_tokens other [] (flat_map written (s' :: l))) = Ok (fields ++ given (s :: s' :: l))).
      { replace ((pre ++ s_words s) ++ s_value s ++ flat_map written (s' :: l)) with ((pre ++ s_words s ++ s_value s) ++ flat_map written (s' :: l))
          by (rewrite <- !app_assoc; reflexivity).
        rewrite IH.
        - unfold given. cbn [map]. rewrite <- app_assoc. reflexivity.
        - exact Hl'.
        - split; [|split].
          + intros x y Hx. apply Hv. right. exact Hx.
          + intros x Hx. apply Hf. right. exact Hx.
          + destruct He as [He|[_ He]]; [left; exact He|]. right. split; [discriminate|]. intros x Hx. apply He. right. exact Hx.
        - unfold names. rewrite map_app. cbn [map fst]. rewrite <- app_assoc. exact Hn. }
      destruct He as [He|[_ He]].
      * rewrite skip_empty by (apply no_field_empty; exact He). exact Hgo.
      * specialize (He s (or_introl eq_refl)). rewrite Ev in He. cbn [List.length] in He. assert (List.length v = 0%nat) as -> by lia. exact Hgo.
Qed.
Lemma lookup_in {A} k (l : list (string * A)) : lookup k l = None <-> ~ In k (names l).
Proof.
  unfold names. induction l as [|[k' a] l IH]; cbn [lookup map In fst]; [tauto|].
  destruct (String.eqb_spec k k') as [->|Hne]; [split; [discriminate|tauto]|]. rewrite IH. split; [intros H [H'|H']; [congruence|tauto]|tauto].
Qed.
Lemma default_fields_ok l : default_fields c (given l) = given l ++ defaults c l.
Proof.
  destruct Hc as (Hn & _). unfold default_fields, defaults.
  assert (H : forall r acc, NoDup (names r) -> (forall k, In k (names r) -> (In k (names acc) <-> In k (map s_field l))) ->
    fold_left (fun acc (kf : string * field_spec) => match lookup (fst kf) acc with
      | Some _ => acc
      | None => match snd kf with
                | FSType _ (Some t) _ => acc ++ [(fst kf, OFType (Some t))]
                | FSValue t _ _ (Some v) _ => acc ++ [(fst kf, OFValue t (Some v))]
                | _ => acc end end) r acc =
    acc ++ flat_map (fun kf : string * field_spec => if in_dec string_dec (fst kf) (map s_field l) then []
      else match snd kf with
           | FSType _ (Some t) _ => [(fst kf, OFType (Some t))]
           | FSValue t _ _ (Some v) _ => [(fst kf, OFValue t (Some v))]
           | _ => [] end) r).
  { induction r as [|[k spec] r IH]; intros acc Hr Hacc; [cbn [fold_left flat_map]; rewrite app_nil_r; reflexivity|].
    unfold names in Hr. cbn [map fst] in Hr. inversion Hr as [|? ? Hni Hr']; subst. cbn [fold_left flat_map fst snd].
    assert (Hk := Hacc k (or_introl eq_refl)).
    assert (Hstep : forall x : list (string * object_field), (forall y, In y (names x) -> y = k) ->
      forall k', In k' (names r) -> (In k' (names (acc ++ x)) <-> In k' (map s_field l))).
    { intros x Hx k' Hk'. unfold names. rewrite map_app, in_app_iff. fold (names acc) (names x). rewrite <- (Hacc k' (or_intror Hk')).
      split; [|tauto]. intros [H|H]; [exact H|]. apply Hx in H. subst k'. exfalso. apply Hni. exact Hk'. }
    destruct (in_dec string_dec k (map s_field l)) as [Hin|Hnin].
    - destruct (lookup k acc) as [o|] eqn:E; [|exfalso; apply lookup_in in E; tauto].
      cbn [app]. apply IH; [exact Hr'|]. intros k' Hk'. specialize (Hstep [] ltac:(intros y []) k' Hk'). rewrite app_nil_r in Hstep. exact Hstep.
    - destruct (lookup k acc) as [o|] eqn:E.
      { exfalso. assert (~ In k (names acc)) by tauto. apply lookup_in in H. congruence. }
      destruct spec as [o [t|] w|t u o [v|] w]; rewrite IH; try exact Hr'; try (rewrite <- app_assoc; reflexivity); try reflexivity;
        try (apply Hstep; intros y [<-|[]]; reflexivity);
        intros k' Hk'; specialize (Hstep [] ltac:(intros y []) k' Hk'); rewrite app_nil_r in Hstep; exact Hstep. }
  apply H; [exact Hn|]. intros k _. unfold names, given. rewrite map_map. cbn [fst]. reflexivity.
Qed.
Theorem read_object num w fields : numeric_characters num -> object_syntax c w fields -> Forall (from_text (fun z => num z = true)) w ->
  parse_object_from_class num (text w) c = Ok (Some fields).
Proof.
  intros Hnum H Ht. destruct H as [l Hl Hn Hta]. set (body := flat_map written l) in *.
  replace (L_BRACE :: body ++ [R_BRACE]) with ((L_BRACE :: body) ++ [R_BRACE]) in * by reflexivity.
  apply Forall_app in Ht as [Ht _]. destruct (text_tokenized num Hnum _ Ht) as (toks & E & Em).
  unfold parse_object_from_class. rewrite E. cbn [rbind]. rewrite Em.
  replace (Nat.ltb _ _) with false by (symmetry; apply Nat.ltb_ge; rewrite app_length; cbn; lia).
  cbn [app skipn]. rewrite removelast_last. cbv zeta.
  assert (Hloop := object_loop_settings l Hl Hta [] [] Hn). cbn [app List.length] in Hloop. fold body in Hloop.
  unfold other, class_words in Hloop. rewrite Hloop. cbn [rbind]. rewrite default_fields_ok. reflexivity.
Qed.
End Object.

(* ------------------------------------------------------------------ *)
(* Files                                                               *)
(* ------------------------------------------------------------------ *)
Lemma nodup_right {A} (a b : list A) : NoDup (a ++ b) -> NoDup b.
Proof. induction a as [|x a IH]; intros H; [exact H|]. inversion H; subst. auto. Qed.
Lemma nodup_disjoint {A} (a b : list A) x : NoDup (a ++ b) -> In x a -> ~ In x b.
Proof.
  induction a as [|y a IH]; intros H Hx; [destruct Hx|]. inversion H as [|? ? Hn H']; subst. destruct Hx as [->|Hx]; [|auto].
  intros Hb. apply Hn. apply in_or_app. right. exact Hb.
Qed.
Definition keyed (m : parsed_module) : string * parsed_module := (pm_name m, m).
Lemma add_modules ms : forall acc, NoDup (names acc ++ map pm_name ms) ->
  fold_left (fun acc m => replace (pm_name m) m acc) ms acc = acc ++ map keyed ms.
Proof.
  induction ms as [|m ms IH]; intros acc Hn; cbn [fold_left map]; [rewrite app_nil_r; reflexivity|].
  cbn [map] in Hn. rewrite replace_new.
  - rewrite IH; [rewrite <- app_assoc; reflexivity|]. unfold names. rewrite map_app. cbn [map fst]. rewrite <- app_assoc. exact Hn.
  - intros Hin. apply NoDup_remove_2 in Hn. apply Hn. apply in_or_app. left. exact Hin.
Qed.
Lemma add_files_from num files pms : TokenSpec.numeric_table num -> Forall2 (file_denotes (fun z => num z = true)) files pms -> forall acc,
  NoDup (names acc ++ map pm_name (List.concat pms)) ->
  exists ms, rfold (add_file num) acc files = Ok (acc ++ map keyed ms) /\ Permutation ms (List.concat pms).
Proof.
  intros Hnum. induction 1 as [|cs pm files pms (Hne & l & Hi & Hf) H IH]; intros acc Hn.
  - exists []. cbn [rfold map]. rewrite app_nil_r. split; [reflexivity|constructor].
  - cbn [List.concat] in *. cbn [rfold]. unfold add_file at 1.
    destruct (C50_file_proof num cs l pm Hnum Hi Hne Hf) as (toks & Et & Ep). rewrite Et. cbn [rbind]. rewrite Ep. cbn [rbind].
    rewrite map_app in Hn.
    assert (Hp : Permutation (names acc ++ map pm_name pm ++ map pm_name (List.concat pms))
                             ((names acc ++ map pm_name (rev pm)) ++ map pm_name (List.concat pms))).
    { rewrite <- app_assoc. apply Permutation_app_head. apply Permutation_app_tail. apply Permutation_map. apply Permutation_rev. }
    assert (Hn' := Permutation_NoDup Hp Hn).
    rewrite add_modules by (eapply nodup_left; exact Hn').
    destruct (IH (acc ++ map keyed (rev pm))) as (ms & E & Hms).
    { unfold names. rewrite map_app, map_map. cbn [fst]. exact Hn'. }
    exists (rev pm ++ ms). rewrite E. rewrite map_app, <- app_assoc. split; [reflexivity|].
    apply Permutation_app; [apply Permutation_sym; apply Permutation_rev|exact Hms].
Qed.

(* ------------------------------------------------------------------ *)
(* Linking                                                             *)
(* ------------------------------------------------------------------ *)
Lemma lookup_key {A} k (v : A) l : NoDup (names l) -> In (k, v) l -> lookup k l = Some v.
Proof.
  unfold names. induction l as [|[k' a] l IH]; intros Hn Hin; [destruct Hin|]. cbn [map fst] in Hn. inversion Hn as [|? ? Hni Hn']; subst.
  cbn [lookup]. destruct Hin as [E|Hin]; [inversion E; subst; rewrite String.eqb_refl; reflexivity|].
  destruct (String.eqb_spec k k') as [->|Hne]; [exfalso; apply Hni; apply in_map_iff; exists (k', v); auto|]. apply IH; assumption.
Qed.
Definition add_class (cs : list (string * class)) (kd : string * parsed_def) : list (string * class) :=
  match pd_kind (snd kd) with PAClass c => replace (fst kd) c cs | _ => cs end.
Lemma add_class_other l name : forall cs, ~ In name (names l) -> lookup name (fold_left add_class l cs) = lookup name cs.
Proof.
  induction l as [|[k d] l IH]; intros cs Hn; [reflexivity|]. unfold names in Hn. cbn [map fst In] in Hn. cbn [fold_left].
  rewrite IH by tauto. unfold add_class. cbn [fst snd]. destruct (pd_kind d); try reflexivity. rewrite lookup_replace.
  destruct (String.eqb_spec name k) as [->|Hne]; [tauto|reflexivity].
Qed.
Lemma add_class_own l name d c : forall cs, NoDup (names l) -> In (name, d) l -> pd_kind d = PAClass c ->
  lookup name (fold_left add_class l cs) = Some c.
Proof.
  induction l as [|[k d'] l IH]; intros cs Hn Hin Hd; [destruct Hin|]. unfold names in Hn. cbn [map fst] in Hn. inversion Hn as [|? ? Hni Hn']; subst.
  cbn [fold_left]. destruct Hin as [E|Hin]; [|apply IH; assumption]. inversion E; subst. rewrite add_class_other by exact Hni.
  unfold add_class. cbn [fst snd]. rewrite Hd, lookup_replace, String.eqb_refl. reflexivity.
Qed.
Lemma rmap_forall2 {A B} (f : A -> res B) l r : Forall2 (fun a b => f a = Ok b) l r -> rmap f l = Ok r.
Proof. induction 1 as [|a b l r Ha _ IH]; [reflexivity|]. rewrite rmap_cons, Ha. cbn [rbind]. rewrite IH. reflexivity. Qed.
Lemma forall2_impl {A B} (P Q : A -> B -> Prop) l r : (forall a b, In a l -> In b r -> P a b -> Q a b) -> Forall2 P l r -> Forall2 Q l r.
Proof.
  intros H. induction 1 as [|a b l r Hab _ IH]; constructor; [apply H; [left; reflexivity|left; reflexivity|exact Hab]|].
  apply IH. intros x y Hx Hy. apply H; right; assumption.
Qed.

Section Link.
Context (num : Z -> bool) (Hnum : numeric_characters num).
Notation numeric := (fun z => num z = true).
Lemma object_linked c input fs : object_denotes numeric c input fs -> parse_object_from_class num input c = Ok (Some fs).
Proof. intros (Hc & w & -> & Ht & Hs). apply read_object; assumption. Qed.
Lemma element_linked c e x : element_denotes numeric c e x -> element_from_class num c e = Ok x.
Proof. intros H. inversion H; subst; cbn [element_from_class]; try reflexivity. rewrite (object_linked _ _ _ H0). reflexivity. Qed.

Context (sorted : list parsed_module).
Definition knows (classes : list (string * class)) (ms : list parsed_module) : Prop :=
  forall pm name c, In pm ms -> defines_class pm name c -> lookup name classes = Some c.
Lemma definition_linked classes pm p d : (forall name c, sees_class sorted pm name c -> lookup name classes = Some c) ->
  kind_denotes numeric sorted pm (pd_kind p) (d_kind d) -> d_params d = pd_params p ->
  resolve_object_class num classes p = Ok d.
Proof.
  intros Hc H Hp. unfold resolve_object_class. destruct d as [dk dp]. cbn [d_kind d_params] in *. subst dp.
  inversion H as [t v E1 E2|t E1 E2|c E1 E2|name c input fs Hs Ho E1 E2|name c root additional root' additional' Hs Hr Ha E1 E2];
    subst; try reflexivity.
  - rewrite (Hc _ _ Hs), (object_linked _ _ _ Ho). reflexivity.
  - rewrite (Hc _ _ Hs). rewrite (rmap_forall2 _ _ root').
    2: { eapply forall2_impl; [|exact Hr]. intros a b _ _. apply element_linked. }
    cbn [rbind]. rewrite (rmap_forall2 _ _ additional').
    2: { eapply forall2_impl; [|exact Ha]. intros a b _ _. apply element_linked. }
    reflexivity.
Qed.
Context (parsed : list (string * parsed_module)) (Hparsed : forall pm, In pm sorted -> lookup (pm_name pm) parsed = Some pm).
Context (Hnames : NoDup (flat_map (fun pm => names (pm_defs pm)) sorted)) (Hmods : NoDup (map pm_name sorted)).
Context (Hbefore : forall pm pm' name a b, sorted = a ++ pm :: b -> In pm' sorted -> In (name, pm_name pm') (pm_imports pm) -> In pm' a).
Lemma names_apart_pm a pm b pm' name : sorted = a ++ pm :: b -> In pm' a -> In name (names (pm_defs pm')) -> ~ In name (names (pm_defs pm)).
Proof.
  intros E Ha H H'. rewrite E in Hnames. rewrite flat_map_app in Hnames. cbn [flat_map] in Hnames.
  apply (nodup_disjoint _ _ name Hnames); [apply in_flat_map; exists pm'; auto|apply in_or_app; left; exact H'].
Qed.
Lemma nodup_pm pm : In pm sorted -> NoDup (names (pm_defs pm)).
Proof.
  intros H. apply in_split in H as (a & b & E). rewrite E in Hnames. rewrite flat_map_app in Hnames. cbn [flat_map] in Hnames.
  apply nodup_right in Hnames. apply nodup_left in Hnames. exact Hnames.
Qed.
Lemma link_sorted b : forall a classes bm, sorted = a ++ b -> knows classes a ->
  Forall2 (fun pm nm => fst nm = pm_name pm /\ module_denotes numeric sorted pm (snd nm)) b bm ->
  link num parsed classes (map fst bm) = Ok bm.
Proof.
  induction b as [|pm b IH]; intros a classes bm E Hk H; revert E; inversion H as [|? [n m] ? bm' [En [Hi Hd]] Hrest]; subst; intros E; [reflexivity|].
  cbn [fst snd] in *. subst n. cbn [map link fst]. assert (Hin : In pm sorted) by (rewrite E; apply in_elt).
  rewrite (Hparsed pm Hin). cbn zeta. fold add_class. change (classes_of pm classes) with (fold_left add_class (pm_defs pm) classes).
  set (classes' := fold_left add_class (pm_defs pm) classes).
  assert (Hk' : knows classes' (a ++ [pm])).
  { intros pm' name c Hpm' Hc. unfold classes'. apply in_app_or in Hpm' as [Ha|[<-|[]]].
    - rewrite add_class_other; [apply (Hk pm'); assumption|]. destruct Hc as (d & Hd' & _).
      eapply names_apart_pm; [exact E|exact Ha|]. apply in_map_iff. exists (name, d). auto.
    - destruct Hc as (d & Hd' & Hkind). eapply add_class_own; [apply nodup_pm; exact Hin|exact Hd'|exact Hkind]. }
  assert (Hsee : forall name c, sees_class sorted pm name c -> lookup name classes' = Some c).
  { intros name c [Hc|(pm' & Hpm' & Himp & Hc)].
    - apply (Hk' pm); [apply in_elt|exact Hc].
    - apply (Hk' pm'); [apply in_or_app; left|exact Hc]. eapply Hbefore; [exact E|exact Hpm'|exact Himp]. }
  rewrite (rmap_forall2 _ _ (m_defs m)).
  2: { eapply forall2_impl; [|exact Hd]. intros [k p] [k' d] _ _ (Ek & Hkd & Hps). cbn [fst snd] in *. subst k'.
       rewrite (definition_linked classes' pm p d Hsee Hkd Hps). reflexivity. }
  cbn [rbind]. rewrite (IH (a ++ [pm]) classes' bm'); [|rewrite <- app_assoc; exact E|exact Hk'|exact Hrest].
  cbn [rbind]. rewrite <- Hi. destruct m; reflexivity.
Qed.
End Link.

(* ------------------------------------------------------------------ *)
(* From files to modules                                               *)
(* ------------------------------------------------------------------ *)
Lemma forall2_map {A B C} (f : A -> C) (g : B -> C) l r : Forall2 (fun a b => f a = g b) l r -> map f l = map g r.
Proof. induction 1 as [|a b l r H _ IH]; [reflexivity|]. cbn [map]. rewrite H, IH. reflexivity. Qed.
Lemma forall2_in {A B} (P : A -> B -> Prop) l r a : Forall2 P l r -> In a l -> exists b, In b r /\ P a b.
Proof.
  induction 1 as [|x y l r H _ IH]; intros Hin; [destruct Hin|]. destruct Hin as [->|Hin]; [exists y; split; [left; reflexivity|exact H]|].
  destruct (IH Hin) as (b & Hb & Hp). exists b. split; [right; exact Hb|exact Hp].
Qed.
Theorem files_linked num files modules : numeric_characters num -> schema_denotes (fun z => num z = true) files modules ->
  well_named modules -> imports_defined modules -> sorted_modules modules (map fst modules) ->
  exists parsed, add_files num files = Ok parsed /\ resolve_imports (stubs parsed) = Ok tt /\
    link num parsed [] (map fst modules) = Ok modules.
Proof.
  intros Hnum (pms & sorted & Hfiles & Hperm & Hden) (Hn1 & Hn2 & _) Himp Hsort.
  assert (Emods : map pm_name sorted = map fst modules).
  { apply forall2_map. eapply forall2_impl; [|exact Hden]. intros pm nm _ _ [H _]. symmetry. exact H. }
  assert (Hmods : NoDup (map pm_name sorted)) by (rewrite Emods; exact Hn1).
  assert (Hnames : NoDup (flat_map (fun pm => names (pm_defs pm)) sorted)).
  { replace (flat_map (fun pm => names (pm_defs pm)) sorted) with (flat_map (fun nm : string * module => def_names (snd nm)) modules); [exact Hn2|].
    rewrite !flat_map_concat_map. f_equal. symmetry. apply forall2_map. eapply forall2_impl; [|exact Hden]. intros pm [n m] _ _ [_ [_ Hd]].
    unfold names, def_names. cbn [snd] in *. apply forall2_map. eapply forall2_impl; [|exact Hd]. intros p d _ _ [H _]. exact H. }
  destruct (add_files_from num files pms (proj1 Hnum) Hfiles []) as (ms & Eadd & Hms).
  { cbn [names map app]. eapply Permutation_NoDup; [apply Permutation_map; exact Hperm|exact Hmods]. }
  cbn [app] in Eadd. exists (map keyed ms). split; [exact Eadd|].
  assert (Hsame : Permutation ms sorted) by (eapply Permutation_trans; [exact Hms|apply Permutation_sym; exact Hperm]).
  assert (Hkeys : names (map keyed ms) = map pm_name ms) by (unfold names; rewrite map_map; reflexivity).
  split.
  - unfold resolve_imports. replace (forallb _ (stubs (map keyed ms))) with true; [reflexivity|]. symmetry.
    apply forallb_forall. intros [n m] Hin. apply forallb_forall. intros [r n'] Hr. cbn [snd] in *.
    apply mem_in. unfold stubs in *. rewrite map_map. cbn [fst]. rewrite map_map. cbn [keyed fst].
    apply in_map_iff in Hin as ([n2 pm] & E & Hin). inversion E; subst. cbn [fst snd m_imports] in *.
    apply in_map_iff in Hin as (pm2 & E2 & Hin). inversion E2; subst.
    assert (Hs : In pm sorted) by (eapply Permutation_in; [exact Hsame|exact Hin]).
    destruct (forall2_in _ _ _ _ Hden Hs) as ([n3 m3] & Hm3 & En3 & Hi3 & _). cbn [fst snd] in *. subst n3.
    rewrite <- Hi3 in Hr. destruct (Himp _ _ _ _ Hm3 Hr) as (m' & Hm' & _).
    assert (Hn' : In n' (map pm_name sorted)) by (rewrite Emods; apply in_map_iff; exists (n', m'); auto).
    eapply Permutation_in; [apply Permutation_map; apply Permutation_sym; exact Hsame|exact Hn'].
  - apply (link_sorted num Hnum sorted (map keyed ms)) with (a := []) (b := sorted); try assumption; try reflexivity.
    + intros pm Hin. apply lookup_key.
      * rewrite Hkeys. eapply Permutation_NoDup; [apply Permutation_map; apply Permutation_sym; exact Hsame|exact Hmods].
      * change (pm_name pm, pm) with (keyed pm). apply in_map. eapply Permutation_in; [apply Permutation_sym; exact Hsame|exact Hin].
    + intros pm pm' name a b E Hin' Hi.
      assert (Hin : In pm sorted) by (rewrite E; apply in_elt).
      destruct (forall2_in _ _ _ _ Hden Hin) as ([n m] & Hm & En & Himps & _). cbn [fst snd] in *. subst n.
      assert (Hb : before (pm_name pm') (pm_name pm) (map fst modules)).
      { eapply sort_sorted; [exact Hsort|]. unfold needs. apply in_flat_map. exists (pm_name pm, m). split; [exact Hm|]. cbn [fst snd].
        rewrite Himps. apply in_map_iff. exists (name, pm_name pm'). auto. }
      assert (Hpre : In (pm_name pm') (map pm_name a)).
      { apply (Hb _ (map pm_name b)). rewrite <- Emods, E, map_app. reflexivity. }
      apply in_map_iff in Hpre as (pm2 & E2 & Hpm2).
      assert (pm2 = pm') as <-; [|exact Hpm2].
      assert (Hin2 : In pm2 sorted) by (rewrite E; apply in_or_app; left; exact Hpm2).
      clear - Hmods Hin2 Hin' E2. induction sorted as [|x l IH]; [destruct Hin2|]. cbn [map] in Hmods. inversion Hmods as [|? ? Hni Hn']; subst.
      destruct Hin2 as [->|Hin2], Hin' as [->|Hin']; auto.
      * exfalso. apply Hni. rewrite E2. apply in_map. exact Hin'.
      * exfalso. apply Hni. rewrite <- E2. apply in_map. exact Hin2.
    + intros pm name c [].
Qed.
Theorem files_compiled num E depth fuel files modules orders : numeric_characters num -> schema_denotes (fun z => num z = true) files modules ->
  well_named modules -> imports_defined modules -> valid_orders modules orders -> map fst modules = map fst orders ->
  compile_files num E depth fuel files orders = compile E (instantiate E depth) fuel modules orders.
Proof.
  intros Hnum Hd Hw Hi Ho Eo. destruct (files_linked num files modules Hnum Hd Hw Hi) as (parsed & Ea & Er & El).
  { rewrite Eo. exact (proj1 Ho). }
  unfold compile_files. rewrite Ea. cbn [rbind]. rewrite Er. cbn [rbind]. rewrite <- Eo, El. reflexivity.
Qed.
