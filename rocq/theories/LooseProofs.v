(* What the parser accepts is in the loose notation: values, types and
   constraints. *)
From Coq Require Import ZArith NArith List Bool String Ascii Lia.
From Coq Require Import ZifyBool ZifyNat ZifyN.
Require Import Verif.Base Verif.Asn1Model Verif.TokenModel Verif.ParserModel Verif.DefinitionModel Verif.ParserSpec Verif.DefinitionSpec
  Verif.GrammarProofs Verif.LooseSpec.
Import ListNotations.
Open Scope string_scope.
Open Scope list_scope.

(* ------------------------------------------------------------------ *)
(* Tokens                                                              *)
(* ------------------------------------------------------------------ *)
Lemma reserved_capital s : reserved s -> first_letter capital s.
Proof.
  assert (H : Forall (fun k => starts upper_ascii k = true) KEYWORDS) by (repeat constructor).
  intros Hs. apply (proj1 (Forall_forall _ _) H) in Hs. destruct s as [|c s]; [discriminate|]. cbn in *. unfold upper_ascii, capital in *. lia.
Qed.
Lemma beq_eq a b : token_type_beq a b = true -> a = b.
Proof. destruct a, b; cbn; congruence. Qed.
Lemma beq_refl a : token_type_beq a a = true.
Proof. now destruct a. Qed.
Lemma is_type ty t : is ty t = true -> t_type t = ty.
Proof. unfold is. intros H. now apply beq_eq. Qed.
Lemma is_make ty t : is ty t = true -> t = mkTok ty (t_text t).
Proof. intros H. apply is_type in H. destruct t as [ty' s]. cbn in *. now subst. Qed.
Lemma kw_make k t : kw k t = true -> t = K k.
Proof. unfold kw. intros H. apply andb_prop in H as [H1 H2]. apply is_make in H1. apply String.eqb_eq in H2. rewrite H1, H2. reflexivity. Qed.
Lemma symbols t : lexed t ->
  (is CurlyBegin t = true -> t = L_BRACE) /\ (is CurlyEnd t = true -> t = R_BRACE) /\ (is RoundBegin t = true -> t = L_PAREN) /\
  (is RoundEnd t = true -> t = R_PAREN) /\ (is AdditionGroupsBegin t = true -> t = L_GROUP) /\ (is AdditionGroupsEnd t = true -> t = R_GROUP) /\
  (is SquareBegin t = true -> t = L_SQUARE) /\ (is SquareEnd t = true -> t = R_SQUARE) /\ (is Comma t = true -> t = COMMA) /\
  (is Extension t = true -> t = DOTS) /\ (is RangeSeparator t = true -> t = DOTDOT) /\ (is LessThan t = true -> t = LESS) /\
  (is Dot t = true -> t = DOT) /\ (is Colon t = true -> t = COLON) /\ (is SemiColon t = true -> t = SEMICOLON) /\
  (is Assignment t = true -> t = ASSIGN) /\ (is SetUnionToken t = true -> t = BAR) /\ (is SetIntersectionToken t = true -> t = CARET).
Proof.
  intros L. repeat split; intros H; apply is_type in H; destruct t as [ty s]; cbn in H; subst ty; unfold lexed in L; cbn in L; subst s; reflexivity.
Qed.
Lemma l_brace t : lexed t -> is CurlyBegin t = true -> t = L_BRACE. Proof. apply symbols. Qed.
Lemma r_brace t : lexed t -> is CurlyEnd t = true -> t = R_BRACE. Proof. intros H. now apply (symbols t H). Qed.
Lemma l_paren t : lexed t -> is RoundBegin t = true -> t = L_PAREN. Proof. intros H. now apply (symbols t H). Qed.
Lemma r_paren t : lexed t -> is RoundEnd t = true -> t = R_PAREN. Proof. intros H. now apply (symbols t H). Qed.
Lemma l_group t : lexed t -> is AdditionGroupsBegin t = true -> t = L_GROUP. Proof. intros H. now apply (symbols t H). Qed.
Lemma r_group t : lexed t -> is AdditionGroupsEnd t = true -> t = R_GROUP. Proof. intros H. now apply (symbols t H). Qed.
Lemma l_square t : lexed t -> is SquareBegin t = true -> t = L_SQUARE. Proof. intros H. now apply (symbols t H). Qed.
Lemma r_square t : lexed t -> is SquareEnd t = true -> t = R_SQUARE. Proof. intros H. now apply (symbols t H). Qed.
Lemma a_comma t : lexed t -> is Comma t = true -> t = COMMA. Proof. intros H. now apply (symbols t H). Qed.
Lemma dots t : lexed t -> is Extension t = true -> t = DOTS. Proof. intros H. now apply (symbols t H). Qed.
Lemma dotdot t : lexed t -> is RangeSeparator t = true -> t = DOTDOT. Proof. intros H. now apply (symbols t H). Qed.
Lemma less t : lexed t -> is LessThan t = true -> t = LESS. Proof. intros H. now apply (symbols t H). Qed.
Lemma a_dot t : lexed t -> is Dot t = true -> t = DOT. Proof. intros H. now apply (symbols t H). Qed.
Lemma a_colon t : lexed t -> is Colon t = true -> t = COLON. Proof. intros H. now apply (symbols t H). Qed.
Lemma semicolon t : lexed t -> is SemiColon t = true -> t = SEMICOLON. Proof. intros H. now apply (symbols t H). Qed.
Lemma assign t : lexed t -> is Assignment t = true -> t = ASSIGN. Proof. intros H. now apply (symbols t H). Qed.
Lemma union_bar t : lexed t -> is_union t = true -> bar t.
Proof. intros L H. unfold is_union in H. apply orb_prop in H as [H|H]; [left; now apply (symbols t L)|right; now apply kw_make]. Qed.
Lemma intersection_caret t : lexed t -> is_intersection t = true -> caret t.
Proof. intros L H. unfold is_intersection in H. apply orb_prop in H as [H|H]; [left; now apply (symbols t L)|right; now apply kw_make]. Qed.
(* a word of the language is a keyword *)
Lemma spelled s t : lexed t -> t_text t = s -> reserved s -> t = K s.
Proof.
  intros L Hs Hr. destruct t as [ty x]. cbn in Hs. subst x. assert (Hc := reserved_capital s Hr).
  unfold lexed in L. cbn in L. destruct ty; try reflexivity; try contradiction; exfalso.
  all: try (subst s; cbn in Hc; unfold capital in Hc; lia).
  - destruct L as [r ->]. cbn in Hc. unfold capital in Hc. lia.
  - destruct s as [|c s]; cbn in *; [contradiction|]. unfold capital in Hc. lia.
Qed.
Lemma value_ref t : is_value_reference t = true -> t = I (t_text t) /\ value_name (t_text t).
Proof.
  unfold is_value_reference. intros H. apply andb_prop in H as [H1 H2]. split; [now apply is_make|]. unfold value_name.
  destruct (t_text t) as [|c s]; cbn in *; [discriminate|]. unfold lower_ascii, small in *. lia.
Qed.
Lemma type_ref_name t : lexed t -> is_type_reference t = true -> t = I (t_text t) /\ type_name (t_text t).
Proof.
  unfold is_type_reference. intros L H. apply andb_prop in H as [H1 H2]. split; [now apply is_make|]. split.
  - destruct (t_text t) as [|c s]; cbn in *; [discriminate|]. unfold upper_ascii, capital in *. lia.
  - apply is_type in H1. unfold lexed in L. now rewrite H1 in L.
Qed.
Lemma class_ref t : lexed t -> is_class_reference t = true -> t = I (t_text t) /\ class_name (t_text t).
Proof.
  unfold is_class_reference. intros L H. apply andb_prop in H as [H1 H2]. destruct (type_ref_name t L H1) as [H3 H4]. split; [exact H3|]. split; [exact H4|].
  clear - H2. induction (t_text t) as [|c s IH]; cbn in *; [exact Logic.I|]. apply andb_prop in H2 as [H2 H3]. split; [|now apply IH].
  apply orb_prop in H2 as [H2|H2]; [apply orb_prop in H2 as [H2|H2]|].
  - left. unfold upper_ascii, capital in *. lia.
  - right; left. unfold digit_ascii in H2. lia.
  - right; right. apply Ascii.eqb_eq in H2. now subst.
Qed.
Lemma value_field_ref t : lexed t -> is_value_field t = true -> t = F (t_text t) /\ value_field_name (t_text t).
Proof.
  unfold is_value_field. intros L H. apply andb_prop in H as [H1 H2]. split; [now apply is_make|].
  apply is_type in H1. unfold lexed in L. rewrite H1 in L. destruct L as [r E]. exists r. split; [exact E|]. rewrite E in H2. cbn in H2.
  destruct r as [|c r]; cbn in *; [discriminate|]. unfold lower_ascii, small in *. lia.
Qed.
Lemma type_field_ref t : lexed t -> is_type_field t = true -> t = F (t_text t) /\ type_field_name (t_text t).
Proof.
  unfold is_type_field. intros L H. apply andb_prop in H as [H1 H2]. split; [now apply is_make|].
  apply is_type in H1. unfold lexed in L. rewrite H1 in L. destruct L as [r E]. exists r. split; [exact E|]. rewrite E in H2. cbn in H2.
  destruct r as [|c r]; cbn in *; [discriminate|]. unfold upper_ascii, capital in *. lia.
Qed.

(* ------------------------------------------------------------------ *)
(* Steps                                                               *)
(* ------------------------------------------------------------------ *)
Definition from {A} (P : list tok -> A -> Prop) (ts : list tok) (x : A) (r : list tok) : Prop := exists w, ts = w ++ r /\ P w x.
Lemma take_ok p ts s r : take p ts = Ok (s, r) -> exists t, ts = t :: r /\ p t = true /\ s = t_text t.
Proof. destruct ts as [|t ts]; cbn; [discriminate|]. destruct (p t) eqn:E; [|discriminate]. intros [= <- <-]. now exists t. Qed.
Lemma expect_ok p ts b : expect p ts = Ok b -> exists t r, ts = t :: r /\ p t = b.
Proof. destruct ts as [|t ts]; cbn; [discriminate|]. intros [= <-]. now exists t, ts. Qed.
Lemma skip_comma ts r : Forall lexed ts -> skip_if (is Comma) ts = Ok r -> exists c, ts = c ++ r /\ maybe_comma c.
Proof.
  destruct ts as [|t ts]; cbn; [discriminate|]. intros L. destruct (is Comma t) eqn:E; intros [= <-].
  - exists [COMMA]. inversion_clear L as [|a b L1 L2]. rewrite (a_comma t L1 E). split; [reflexivity|now right].
  - exists []. split; [reflexivity|now left].
Qed.
Lemma attempt_ok A (m : res A) o : attempt m = Ok o -> match o with Some a => m = Ok a | None => m = Err end.
Proof. destruct m; cbn; try discriminate; intros [= <-]; reflexivity. Qed.
Lemma expect_all_ok ps ts b : expect_all ps ts = Ok b -> b = true -> (List.length ps <= List.length ts)%nat /\ all_match ps ts = true.
Proof. unfold expect_all. destruct (Nat.ltb_spec (List.length ts) (List.length ps)); [discriminate|]. intros [= <-] ->. now split. Qed.
Lemma expect_two p q ts : expect_all [p; q] ts = Ok true -> exists a b r, ts = a :: b :: r /\ p a = true /\ q b = true.
Proof.
  intros H. destruct (expect_all_ok _ _ _ H eq_refl) as [H1 H2]. destruct ts as [|a [|b r]]; cbn in H1; try lia.
  cbn in H2. exists a, b, r. destruct (p a), (q b); cbn in *; auto; discriminate.
Qed.
Lemma expect_three p q s ts : expect_all [p; q; s] ts = Ok true -> exists a b c r, ts = a :: b :: c :: r /\ p a = true /\ q b = true /\ s c = true.
Proof.
  intros H. destruct (expect_all_ok _ _ _ H eq_refl) as [H1 H2]. destruct ts as [|a [|b [|c r]]]; cbn in H1; try lia.
  cbn in H2. exists a, b, c, r. destruct (p a), (q b), (s c); cbn in *; auto; discriminate.
Qed.
Lemma lexed_app w r : Forall lexed (w ++ r) -> Forall lexed w /\ Forall lexed r.
Proof. intros H. now apply Forall_app in H. Qed.
Lemma lexed_tail t r : Forall lexed (t :: r) -> lexed t /\ Forall lexed r.
Proof. intros H. now inversion_clear H. Qed.

(* take the next step apart *)
Ltac bind H x Q := lazymatch type of H with rbind ?m _ = Ok _ => destruct m as [x| | |] eqn:Q; try discriminate H; cbn [rbind] in H end.
Ltac taking H x t r := let Q := fresh "Q" in let E := fresh "E" in let P := fresh "P" in let s := fresh "s" in
  bind H x Q; destruct x as [s r]; apply take_ok in Q as (t & E & P & ->); cbn [fst snd] in H.
Ltac lex L := repeat match type of L with
  | Forall lexed (_ ++ _) => let L1 := fresh "L" in let L2 := fresh "L" in destruct (lexed_app _ _ L) as [L1 L2]
  end.

(* ------------------------------------------------------------------ *)
(* Values                                                              *)
(* ------------------------------------------------------------------ *)
Section Brackets.
Context (b e : token_type) (NE : b <> e).
Fixpoint closes (n : nat) (r rest : list tok) : Prop :=
  exists p t r', r = p ++ t :: r' /\ paired b e p /\ t_type t = e /\ match n with O => r' = rest | S m => closes m r' rest end.
Lemma closes_cons t n r rest : t_type t <> b -> t_type t <> e -> closes n r rest -> closes n (t :: r) rest.
Proof. intros H1 H2. destruct n; cbn; intros (p & t' & r' & -> & H3 & H4); exists (t :: p), t', r'; (split; [reflexivity|]); (split; [now constructor|exact H4]). Qed.
Lemma closes_pair t n r rest : t_type t = b -> closes (S n) r rest -> closes n (t :: r) rest.
Proof.
  intros H1 (p & t' & r' & -> & H2 & H3 & H4). destruct n; cbn in *; destruct H4 as (p2 & t2 & r2 & -> & H5 & H6);
    exists (t :: p ++ t' :: p2), t2, r2; (split; [cbn; now rewrite <- app_assoc|]); (split; [now constructor|exact H6]).
Qed.
Lemma not_is ty t : is ty t = false -> t_type t <> ty.
Proof. unfold is. intros H E. rewrite E, beq_refl in H. discriminate. Qed.
Lemma set_ish_closes ts : forall t level rest n, set_ish_loop b e level (t :: ts) = Ok rest ->
  ((if is b t then level + 1 else level) = Z.of_nat (S n))%Z -> closes n ts rest.
Proof.
  induction ts as [|t' ts IH]; intros t level rest n H Hl; [discriminate|]. rewrite set_ish_step in H. cbv zeta in H. rewrite Hl in H.
  destruct (is e t') eqn:Ee.
  - assert (Eb : is b t' = false) by (unfold is in *; destruct (token_type_beq (t_type t') b) eqn:Eb; [|reflexivity]; apply beq_eq in Eb, Ee; congruence).
    apply is_type in Ee. destruct (Z.eqb_spec (Z.of_nat (S n) - 1) 0) as [E|E].
    + injection H as <-. assert (n = O) as -> by lia. exists [], t', ts. repeat split; [constructor|exact Ee].
    + destruct n as [|n]; [lia|]. cbn [closes]. exists [], t', ts. split; [reflexivity|]. split; [constructor|]. split; [exact Ee|].
      apply (IH _ _ _ _ H). rewrite Eb. lia.
  - destruct (is b t') eqn:Eb.
    + apply closes_pair; [now apply is_type|]. apply (IH _ _ _ _ H). rewrite Eb. lia.
    + apply closes_cons; [now apply not_is|now apply not_is|]. apply (IH _ _ _ _ H). rewrite Eb. lia.
Qed.
End Brackets.
Lemma set_ish_loose ts s r : Forall lexed ts -> parse_set_ish_value ts = Ok (s, r) -> exists w, ts = w ++ r /\ loose_brackets w /\ s = text w.
Proof.
  unfold parse_set_ish_value. destruct ts as [|t ts]; [discriminate|]. intros L H. destruct (lexed_tail _ _ L) as [Lt Lr].
  assert (N1 : CurlyBegin <> CurlyEnd) by discriminate. assert (N2 : RoundBegin <> RoundEnd) by discriminate.
  assert (HB : forall w, concat_tokens (before (w ++ r) r) " " = text w) by (intros w; now rewrite before_app).
  destruct (is CurlyBegin t) eqn:E1; [|destruct (is RoundBegin t) eqn:E2; [|discriminate]]; cbn [rbind fst snd] in H; bind H rest Q; injection H as <- <-.
  - apply (set_ish_closes CurlyBegin CurlyEnd N1 ts t 0%Z rest 0) in Q; [|now rewrite E1]. destruct Q as (p & t' & r' & -> & H1 & H2 & ->).
    assert (t = L_BRACE) as -> by now apply l_brace. destruct (lexed_app _ _ Lr) as [_ L2]. destruct (lexed_tail _ _ L2) as [L3 _].
    assert (t' = R_BRACE) as -> by (apply r_brace; [exact L3|unfold is; now rewrite H2]).
    exists (L_BRACE :: p ++ [R_BRACE]). assert (E : L_BRACE :: p ++ R_BRACE :: rest = (L_BRACE :: p ++ [R_BRACE]) ++ rest) by (cbn; now rewrite <- app_assoc).
    rewrite E. rewrite HB. split; [reflexivity|]. split; [|reflexivity]. left. now constructor.
  - apply (set_ish_closes RoundBegin RoundEnd N2 ts t 0%Z rest 0) in Q; [|now rewrite E2]. destruct Q as (p & t' & r' & -> & H1 & H2 & ->).
    assert (t = L_PAREN) as -> by now apply l_paren. destruct (lexed_app _ _ Lr) as [_ L2]. destruct (lexed_tail _ _ L2) as [L3 _].
    assert (t' = R_PAREN) as -> by (apply r_paren; [exact L3|unfold is; now rewrite H2]).
    exists (L_PAREN :: p ++ [R_PAREN]). assert (E : L_PAREN :: p ++ R_PAREN :: rest = (L_PAREN :: p ++ [R_PAREN]) ++ rest) by (cbn; now rewrite <- app_assoc).
    rewrite E. rewrite HB. split; [reflexivity|]. split; [|reflexivity]. now right.
Qed.
Lemma value_loose ts s r : Forall lexed ts -> parse_value ts = Ok (s, r) -> from loose_value ts s r.
Proof.
  unfold parse_value. destruct ts as [|t ts]; [discriminate|]. intros L H.
  destruct (is Identifier t || is NumberInt t || is BitString t || is HexString t || is TString t) eqn:E.
  - injection H as <- <-. exists [t]. split; [reflexivity|]. constructor. unfold simple_kind. cbn [In].
    repeat (apply orb_prop in E as [E|E]); apply is_type in E; rewrite E; tauto.
  - destruct (is CurlyBegin t || is RoundBegin t); [|discriminate]. apply set_ish_loose in H as (w & E1 & H1 & ->); [|exact L].
    exists w. split; [exact E1|]. now constructor.
Qed.

(* ------------------------------------------------------------------ *)
(* Named numbers and enumerations                                      *)
(* ------------------------------------------------------------------ *)
Lemma named_maybe_loose ts id nv r : Forall lexed ts -> parse_named_maybe_value ts = Ok (id, nv, r) ->
  exists w, ts = w ++ r /\ value_name id /\ match nv with None => w = [I id] | Some n => exists v, w = I id :: v /\ number_syntax v n end.
Proof.
  unfold parse_named_maybe_value. intros L H. taking H x t ts1. subst ts. destruct (value_ref t P) as [Et Hv].
  destruct (lexed_tail _ _ L) as [_ L1]. destruct ts1 as [|t1 ts1].
  - injection H as <- <- <-. exists [t]. split; [reflexivity|]. split; [exact Hv|]. now rewrite Et at 1.
  - destruct (lexed_tail _ _ L1) as [Lt1 L2]. destruct (is RoundBegin t1) eqn:E1.
    + apply (l_paren _ Lt1) in E1 as ->. bind H v Q. destruct v as [v ts2]. cbn [fst snd] in H. taking H y t3 ts3. injection H as <- <- <-.
      destruct ts1 as [|n ts1]; [discriminate|]. destruct (lexed_tail _ _ L2) as [Ln L3].
      destruct (is NumberInt n) eqn:En.
      * injection Q as <- <-. rewrite E in L3 |- *. destruct (lexed_tail _ _ L3) as [L4 _]. rewrite (r_paren t3 L4 P0). apply is_make in En.
        exists [t; L_PAREN; n; R_PAREN]. split; [reflexivity|]. split; [exact Hv|]. exists [L_PAREN; n; R_PAREN]. split; [now rewrite Et at 1|]. rewrite En at 1. apply NS_number.
      * destruct (is_value_reference n) eqn:Er; [|discriminate]. injection Q as <- <-. rewrite E in L3 |- *. destruct (lexed_tail _ _ L3) as [L4 _]. rewrite (r_paren t3 L4 P0).
        destruct (value_ref n Er) as [E2 Hn].
        exists [t; L_PAREN; n; R_PAREN]. split; [reflexivity|]. split; [exact Hv|]. exists [L_PAREN; n; R_PAREN]. split; [now rewrite Et at 1|]. rewrite E2 at 1. now apply NS_reference.
    + injection H as <- <- <-. exists [t]. split; [reflexivity|]. split; [exact Hv|]. now rewrite Et at 1.
Qed.
Lemma named_values_loose n : forall ts r, Forall lexed ts -> named_values_loop n ts = Ok r ->
  exists w l, ts = w ++ R_BRACE :: r /\ separated comma named_syntax w l.
Proof.
  induction n as [|n IH]; [discriminate|]. intros ts r L H. cbn [named_values_loop] in H. bind H x Q. destruct x as [[id nv] ts1]. cbn [fst snd] in H.
  apply named_maybe_loose in Q as (w & -> & Hv & Hn); [|exact L]. destruct nv as [nv|]; [|discriminate]. destruct Hn as (v & -> & Hn).
  destruct ts1 as [|t ts1]; [discriminate|]. destruct (lexed_app _ _ L) as [_ L1]. destruct (lexed_tail _ _ L1) as [Lt L2].
  assert (HN : named_syntax (I id :: v) (id, nv)) by now constructor.
  destruct (is Comma t) eqn:Ec.
  - apply (a_comma _ Lt) in Ec as ->. apply IH in H as (w2 & l & -> & H2); [|exact L2].
    exists ((I id :: v) ++ COMMA :: w2), ((id, nv) :: l). split; [now rewrite <- app_assoc|]. now constructor.
  - destruct (is CurlyEnd t) eqn:Ee; [|discriminate]. injection H as <-. apply (r_brace _ Lt) in Ee as ->.
    exists (I id :: v), [(id, nv)]. split; [reflexivity|]. now constructor.
Qed.
Lemma maybe_named_loose ts r : Forall lexed ts -> maybe_named_values ts = Ok r -> exists w, ts = w ++ r /\ named_list_syntax w.
Proof.
  unfold maybe_named_values. intros L H. destruct ts as [|t ts].
  - injection H as <-. exists []. split; [reflexivity|constructor].
  - destruct (is CurlyBegin t) eqn:E.
    + unfold parse_named_values in H. cbn [take] in H. rewrite E in H. cbn [rbind snd] in H. destruct (lexed_tail _ _ L) as [Lt L1].
      apply (l_brace _ Lt) in E as ->. apply named_values_loose in H as (w & l & -> & Hw); [|exact L1].
      exists (L_BRACE :: w ++ [R_BRACE]). split; [cbn; now rewrite <- app_assoc|]. now apply (NLS_some w l).
    + injection H as <-. exists []. split; [reflexivity|constructor].
Qed.
Lemma enum_loop_loose n : forall acc ts acc' r, Forall lexed ts -> enum_values_loop n acc ts = Ok (acc', r) ->
  exists w l, ts = w ++ r /\ acc' = acc ++ l /\ l <> [] /\ loose_enum_items w l /\ exists t r', r = t :: r' /\ (t = DOTS \/ t = R_BRACE).
Proof.
  induction n as [|n IH]; [discriminate|]. intros acc ts acc' r L H. cbn [enum_values_loop] in H. bind H x Q. destruct x as [[id nv] ts1]. cbn [fst snd] in H.
  apply named_maybe_loose in Q as (w & -> & Hv & Hn); [|exact L]. destruct (lexed_app _ _ L) as [_ L1].
  assert (HE : enum_item_syntax w (mkEnumValue id nv)) by (destruct nv as [nv|]; [destruct Hn as (v & -> & Hn)|subst w]; now constructor).
  bind H ts2 Q. apply skip_comma in Q as (c & -> & Hc); [|exact L1]. destruct (lexed_app _ _ L1) as [_ L2].
  bind H stop Q. apply expect_ok in Q as (t & r2 & -> & Hs). destruct stop.
  - injection H as <- <-. exists (w ++ c), [mkEnumValue id nv]. split; [now rewrite <- app_assoc|]. split; [reflexivity|]. split; [discriminate|].
    split; [rewrite <- (app_nil_r (w ++ c)); constructor; [now constructor|constructor]|]. exists t, r2. split; [reflexivity|].
    destruct (lexed_tail _ _ L2) as [Lt _]. apply orb_prop in Hs as [Hs|Hs]; [left; now apply dots|right; now apply r_brace].
  - apply IH in H as (w2 & l & E & -> & H1 & H2 & H3); [|exact L2]. exists ((w ++ c) ++ w2), (mkEnumValue id nv :: l). rewrite E.
    split; [now rewrite !app_assoc|]. split; [now rewrite <- app_assoc|]. split; [discriminate|]. split; [|exact H3]. constructor; [now constructor|exact H2].
Qed.
Lemma enumerated_loose ts b r : Forall lexed ts -> parse_enumerated_type ts = Ok (b, r) -> from loose_builtin ts b r.
Proof.
  unfold parse_enumerated_type. intros L H. taking H x t ts1. subst ts. apply kw_make in P as ->. destruct (lexed_tail _ _ L) as [_ L1].
  taking H x t ts2. subst ts1. destruct (lexed_tail _ _ L1) as [Lt L2]. apply (l_brace _ Lt) in P as ->.
  bind H root Q. destruct root as [root ts3]. unfold parse_enum_values in Q. apply enum_loop_loose in Q as (w & l & -> & E & Hl & Hw & t & r3 & -> & Ht); [|exact L2].
  cbn [app] in E. subst l. cbn [fst snd expect skip_if rbind] in H. destruct (lexed_app _ _ L2) as [_ L3]. destruct (lexed_tail _ _ L3) as [Lt3 L4].
  destruct Ht as [-> | ->].
  - change (is Extension DOTS) with true in H. cbv iota in H. bind H ts4 Q. apply skip_comma in Q as (c & -> & Hc); [|exact L4].
    destruct (lexed_app _ _ L4) as [_ L5]. bind H e Q. apply attempt_ok in Q.
    taking H y t5 ts5. injection H as <- <-. destruct e as [[ext ts6]|]; cbn [fst snd] in *.
    + unfold parse_enum_values in Q. apply enum_loop_loose in Q as (w2 & l & -> & E2 & Hl2 & Hw2 & _); [|exact L5]. cbn [app] in E2. subst l.
      subst ts6. destruct (lexed_app _ _ L5) as [_ L6]. destruct (lexed_tail _ _ L6) as [L7 _]. apply (r_brace _ L7) in P as ->.
      exists (K "ENUMERATED" :: L_BRACE :: w ++ DOTS :: c ++ w2 ++ [R_BRACE]). split; [cbn; now rewrite <- !app_assoc; cbn; rewrite <- !app_assoc|]. now constructor.
    + subst ts4. destruct (lexed_tail _ _ L5) as [L7 _]. apply (r_brace _ L7) in P as ->.
      exists (K "ENUMERATED" :: L_BRACE :: w ++ DOTS :: c ++ [] ++ [R_BRACE]). split; [cbn; now rewrite <- !app_assoc; cbn; rewrite <- !app_assoc|]. apply LBu_enumerated_open; auto. constructor.
  - change (is Extension R_BRACE) with false in H. cbv iota in H. cbn [skip_if rbind] in H. change (is Comma R_BRACE) with false in H. cbv iota in H.
    cbn [rbind] in H. cbn [parse_enum_values enum_values_loop attempt rbind fst snd take] in H. change (is_value_reference R_BRACE) with false in H.
    cbn in H. injection H as <- <-. exists (K "ENUMERATED" :: L_BRACE :: w ++ [R_BRACE]). split; [cbn; now rewrite <- app_assoc|]. now constructor.
Qed.

(* ------------------------------------------------------------------ *)
(* References                                                          *)
(* ------------------------------------------------------------------ *)
Lemma param_tok t : is_param t = true -> In (t_type t) [Identifier; NumberInt].
Proof. unfold is_param. intros H. apply orb_prop in H as [H|H]; apply is_type in H; rewrite H; cbn; auto. Qed.
Lemma params_loose n : forall acc ts acc' r, Forall lexed ts -> actual_params_loop n acc ts = Ok (acc', r) ->
  exists w l, ts = w ++ R_BRACE :: r /\ acc' = acc ++ l /\ loose_params w l.
Proof.
  induction n as [|n IH]; [discriminate|]. intros acc ts acc' r L H. cbn [actual_params_loop] in H.
  bind H b Q. apply expect_ok in Q as (t & r1 & -> & Hb).
  bind H s Q. assert (S1 : exists w1 l1, t :: r1 = w1 ++ snd s /\ fst s = acc ++ l1 /\ forall v l, loose_params v l -> loose_params (w1 ++ v) (l1 ++ l)).
  { destruct b.
    - cbn [skipn] in Q. taking Q p t1 r2. taking Q e t2 r3. injection Q as <-. subst r1 r2. destruct (lexed_tail _ _ L) as [L1 L2]. destruct (lexed_tail _ _ L2) as [L3 L4].
      destruct (lexed_tail _ _ L4) as [L5 _]. apply (l_brace _ L1) in Hb as ->. apply (r_brace _ L5) in P0 as ->.
      exists [L_BRACE; t1; R_BRACE], [PSet (t_text t1)]. cbn [fst snd]. split; [reflexivity|]. split; [reflexivity|]. intros v l Hv.
      apply (LP_param [L_BRACE; t1; R_BRACE] (PSet (t_text t1))); [|exact Hv]. constructor. now apply param_tok.
    - injection Q as <-. exists [], []. cbn [fst snd]. split; [reflexivity|]. split; [now rewrite app_nil_r|]. auto. }
  destruct S1 as (w1 & l1 & E1 & E2 & H1). destruct s as [acc1 ts1]. cbn [fst snd] in *. subst acc1. rewrite E1 in L |- *. destruct (lexed_app _ _ L) as [_ L1].
  bind H b2 Q2. apply expect_ok in Q2 as (t2 & r2 & -> & Hb2).
  bind H s Q2. assert (S2 : exists w2 l2, t2 :: r2 = w2 ++ snd s /\ fst s = acc ++ l1 ++ l2 /\ forall v l, loose_params v l -> loose_params (w2 ++ v) (l2 ++ l)).
  { destruct b2.
    - cbn [take] in Q2. rewrite Hb2 in Q2. cbn [rbind fst snd] in Q2. injection Q2 as <-. exists [t2], [PSingle (t_text t2)]. cbn [fst snd].
      split; [reflexivity|]. split; [now rewrite app_assoc|]. intros v l Hv. apply (LP_param [t2] (PSingle (t_text t2))); [|exact Hv]. constructor. now apply param_tok.
    - injection Q2 as <-. exists [], []. cbn [fst snd]. split; [reflexivity|]. split; [now rewrite app_nil_r|]. auto. }
  destruct S2 as (w2 & l2 & E3 & E4 & H2). destruct s as [acc2 ts2]. cbn [fst snd] in *. subst acc2. rewrite E3 in L1 |- *. destruct (lexed_app _ _ L1) as [_ L2].
  bind H ts3 Q3. apply skip_comma in Q3 as (c & -> & Hc); [|exact L2]. destruct (lexed_app _ _ L2) as [_ L3].
  assert (H3 : forall v l, loose_params v l -> loose_params (c ++ v) l) by (intros v l Hv; destruct Hc as [-> | ->]; [exact Hv|now constructor]).
  bind H stop Q4. apply expect_ok in Q4 as (t3 & r3 & -> & Hs). destruct stop.
  - injection H as <- <-. destruct (lexed_tail _ _ L3) as [L4 _]. apply (r_brace _ L4) in Hs as ->. cbn [skipn].
    exists (w1 ++ w2 ++ c ++ []), (l1 ++ l2 ++ []). split; [rewrite app_nil_r; now rewrite <- !app_assoc|]. split; [now rewrite app_nil_r|].
    apply H1, H2, H3. constructor.
  - apply IH in H as (w & l & E & -> & Hw); [|exact L3]. exists (w1 ++ w2 ++ c ++ w), (l1 ++ l2 ++ l). rewrite E. split; [now rewrite <- !app_assoc|].
    split; [now rewrite <- !app_assoc|]. now apply H1, H2, H3.
Qed.
Definition type_head (t : tok) : bool := is_type_reference t || is_builtin_type t || is_class_reference t.
Lemma field_names f : lexed f -> is_type_field f || is_value_field f = true -> f = F (t_text f) /\ field_name (t_text f).
Proof.
  intros L H. apply orb_prop in H as [H|H].
  - destruct (type_field_ref f L H) as [E (r & Er & Hr)]. split; [exact E|]. rewrite Er. cbn. destruct r; cbn in *; [contradiction|]. now right.
  - destruct (value_field_ref f L H) as [E (r & Er & Hr)]. split; [exact E|]. rewrite Er. cbn. destruct r; cbn in *; [contradiction|]. now left.
Qed.
Lemma reference_loose t ts x r : Forall lexed (t :: ts) -> is_type_reference t = true \/ t = K "SET" ->
  parse_referenced_type (t :: ts) = Ok (x, r) -> from loose_reference (t :: ts) x r.
Proof.
  unfold parse_referenced_type. intros L Ht H. bind H c Qc. apply attempt_ok in Qc.
  assert (HN : (exists f r', c = Some true /\ exists d, ts = d :: f :: r' /\ Ok (RefClassField (t_text t) (t_text f), r') = Ok (x, r) /\
      is_class_reference t = true /\ is Dot d = true /\ is_type_field f || is_value_field f = true) \/
    (m <-- attempt (expect_all [is_type_reference; is Dot; is_type_reference] (t :: ts)) ;;
      y <-- match m with
            | Some true => Ok (concat_tokens (firstn 3 (t :: ts)) "", skipn 3 (t :: ts))
            | _ => Ok (t_text t, ts)
            end ;;
      ps <-- match snd y with
             | t :: _ => if is CurlyBegin t then parse_actual_params (snd y) else Ok ([], snd y)
             | [] => Ok ([], [])
             end ;;
      Ok (match fst ps with [] => RefName (fst y) | l => RefParam (fst y) l end, snd ps)) = Ok (x, r)).
  { destruct c as [[]|].
    - apply expect_three in Qc as (a & d & f & r' & E & H1 & H2 & H3). injection E as <- ->. left. exists f, r'. split; [reflexivity|]. exists d. auto.
    - right. destruct ts as [|d [|f r']]; (bind H m Q; destruct m as [[]|]; exact H).
    - right. destruct ts as [|d [|f r']]; (bind H m Q; destruct m as [[]|]; exact H). }
  clear H Qc. destruct HN as [(f & r' & _ & d & -> & H & H1 & H2 & H3)|H].
  - injection H as <- <-. destruct (lexed_tail _ _ L) as [L1 L2]. destruct (lexed_tail _ _ L2) as [L3 L4]. destruct (lexed_tail _ _ L4) as [L5 _].
    destruct (class_ref t L1 H1) as [E Hc]. destruct (field_names f L5 H3) as [Ef Hf]. apply (a_dot _ L3) in H2 as ->.
    exists [t; DOT; f]. split; [reflexivity|]. rewrite E, Ef at 1. now constructor.
  - bind H m Qm. apply attempt_ok in Qm. bind H y Qy.
    assert (HY : exists w, t :: ts = w ++ snd y /\ loose_name w (fst y)).
    { assert (Hplain : exists w, t :: ts = w ++ ts /\ loose_name w (t_text t)).
      { exists [t]. split; [reflexivity|]. destruct Ht as [Ht | ->]; [|exact LN_set]. destruct (lexed_tail _ _ L) as [L1 _].
        destruct (type_ref_name t L1 Ht) as [E Hn]. rewrite E at 1. constructor. now constructor. }
      destruct m as [[]|]; try (injection Qy as <-; exact Hplain).
      apply expect_three in Qm as (a & d & f & r' & E & H1 & H2 & H3). injection E as <- ->. injection Qy as <-. cbn [firstn skipn fst snd].
      destruct (lexed_tail _ _ L) as [L1 L2]. destruct (lexed_tail _ _ L2) as [L3 L4]. destruct (lexed_tail _ _ L4) as [L5 _].
      destruct (type_ref_name t L1 H1) as [E1 Hn1]. destruct (type_ref_name f L5 H3) as [E3 Hn3]. apply (a_dot _ L3) in H2 as ->.
      exists [t; DOT; f]. split; [reflexivity|]. rewrite E1, E3 at 1. constructor. now apply NmS_dotted. }
    destruct HY as (w & E & Hw). destruct y as [nm ts1]. cbn [fst snd] in *. rewrite E in L |- *. destruct (lexed_app _ _ L) as [_ L1].
    bind H ps Qp. destruct ps as [l ts2]. cbn [fst snd] in *. injection H as <- <-.
    assert (HP : l = [] /\ ts2 = ts1 \/ exists v, ts1 = L_BRACE :: v ++ R_BRACE :: ts2 /\ loose_params v l).
    { destruct ts1 as [|b ts1]; [injection Qp as <- <-; now left|]. destruct (is CurlyBegin b) eqn:Eb; [|injection Qp as <- <-; now left].
      right. unfold parse_actual_params in Qp. cbn [take] in Qp. rewrite Eb in Qp. cbn [rbind snd] in Qp. destruct (lexed_tail _ _ L1) as [L2 L3].
      apply (l_brace _ L2) in Eb as ->. apply params_loose in Qp as (v & l' & -> & E2 & Hv); [|exact L3]. cbn in E2. subst l'. now exists v. }
    destruct HP as [[-> ->]|(v & -> & Hv)].
    + exists w. split; [reflexivity|]. now constructor.
    + exists (w ++ L_BRACE :: v ++ [R_BRACE]). split; [rewrite <- app_assoc; cbn; now rewrite <- app_assoc|]. destruct l as [|p l]; [now constructor|].
      constructor; [exact Hw|exact Hv|discriminate].
Qed.

(* ------------------------------------------------------------------ *)
(* Constraints                                                         *)
(* ------------------------------------------------------------------ *)
Lemma end_loose ts s r : Forall lexed ts -> parse_end_value ts = Ok (s, r) -> from loose_end ts s r.
Proof.
  unfold parse_end_value. intros L H. bind H v Q. apply attempt_ok in Q. destruct v as [[s1 r1]|].
  - injection H as <- <-. apply value_loose in Q as (w & -> & Hw); [|exact L]. exists w. split; [reflexivity|]. now constructor.
  - apply take_ok in H as (t & -> & P & ->). apply orb_prop in P as [P|P]; apply kw_make in P as ->.
    + exists [K "MIN"]. split; [reflexivity|exact LE_min].
    + exists [K "MAX"]. split; [reflexivity|exact LE_max].
Qed.
Lemma range_loose ts e r : Forall lexed ts -> parse_range_elements ts = Ok (e, r) -> from loose_plain ts e r.
Proof.
  unfold parse_range_elements. intros L H. bind H lo Q. destruct lo as [lo ts1]. apply end_loose in Q as (l & -> & Hl); [|exact L]. cbn [fst snd] in H.
  destruct (lexed_app _ _ L) as [_ L1]. bind H b Q. apply expect_ok in Q as (t & r1 & -> & Hb). destruct b; [|discriminate].
  destruct (lexed_tail _ _ L1) as [Lt L2]. cbn [expect rbind] in H.
  assert (HD : exists d, forall ts2, slice_from (if is LessThan t then 2 else 1) (t :: r1) = Ok ts2 ->
    t :: r1 = d ++ ts2 /\ loose_dots d (negb (is LessThan t)) true /\ loose_dots (d ++ [LESS]) (negb (is LessThan t)) false).
  { destruct (is LessThan t) eqn:E.
    - apply (less _ Lt) in E as ->. destruct r1 as [|u r2]; [exists []; intros ts2 X; discriminate|].
      exists [LESS; u]. intros ts2 X. injection X as <-. split; [reflexivity|]. split; constructor.
    - assert (t = DOTDOT) as -> by (apply dotdot; [exact Lt|exact Hb]).
      exists [DOTDOT]. intros ts2 X. injection X as <-. split; [reflexivity|]. split; constructor. }
  destruct HD as [d HD]. bind H ts2 Q. destruct (HD _ eq_refl) as (E & HD1 & HD2). clear HD Q. rewrite E in L1 |- *. destruct (lexed_app _ _ L1) as [_ L3].
  bind H lt' Q. apply expect_ok in Q as (t2 & r2 & -> & Hlt). bind H hi Q. destruct hi as [hi r3]. injection H as <- <-. cbn [fst snd]. destruct lt'.
  - cbn [skipn] in Q. destruct (lexed_tail _ _ L3) as [L4 L5]. apply (less _ L4) in Hlt as ->. apply end_loose in Q as (u & -> & Hu); [|exact L5].
    exists (l ++ (d ++ [LESS]) ++ u). split; [now rewrite <- !app_assoc|]. now constructor.
  - apply end_loose in Q as (u & E2 & Hu); [|exact L3]. rewrite E2. exists (l ++ d ++ u). split; [now rewrite <- !app_assoc|]. now constructor.
Qed.
Lemma table_loose ts c r : Forall lexed ts -> parse_table_constraint ts = Ok (c, r) -> from loose_constraint ts c r.
Proof.
  unfold parse_table_constraint. intros L H. taking H x t ts1. subst ts. destruct (lexed_tail _ _ L) as [Lt L1]. apply (l_paren _ Lt) in P as ->.
  bind H b Q. destruct b; [|discriminate]. apply expect_three in Q as (a & s1 & e & r1 & -> & Ha & Hs & He).
  destruct (lexed_tail _ _ L1) as [La L2]. destruct (lexed_tail _ _ L2) as [Ls L3]. destruct (lexed_tail _ _ L3) as [Le L4].
  apply (l_brace _ La) in Ha as ->. apply (r_brace _ Le) in He as ->. destruct (type_ref_name s1 Ls Hs) as [Es Hn].
  bind H c0 Q. apply attempt_ok in Q.
  assert (HT : (y <-- take (is RoundEnd) r1 ;; Ok (CTable (TableSimple (t_text s1)), snd y)) = Ok (c, r) -> from loose_constraint (L_PAREN :: L_BRACE :: s1 :: R_BRACE :: r1) c r).
  { intros X. taking X y t3 r3. injection X as <- <-. subst r1. destruct (lexed_tail _ _ L4) as [L5 _]. apply (r_paren _ L5) in P as ->.
    exists [L_PAREN; L_BRACE; s1; R_BRACE; R_PAREN]. split; [reflexivity|]. rewrite Es at 1. now constructor. }
  destruct c0 as [[]|]; [|apply HT; destruct r1 as [|a1 [|a2 [|a3 r1]]]; exact H|apply HT; destruct r1 as [|a1 [|a2 [|a3 r1]]]; exact H].
  apply expect_three in Q as (a1 & a2 & a3 & r2 & -> & H1 & H2 & H3). taking H y t3 r3. injection H as <- <-. subst r2.
  destruct (lexed_tail _ _ L4) as [L5 L6]. destruct (lexed_tail _ _ L6) as [L7 L8]. destruct (lexed_tail _ _ L8) as [L9 L10]. destruct (lexed_tail _ _ L10) as [L11 _].
  apply (l_brace _ L5) in H1 as ->. apply (r_brace _ L9) in H3 as ->. apply (r_paren _ L11) in P as ->. apply is_make in H2.
  exists [L_PAREN; L_BRACE; s1; R_BRACE; L_BRACE; a2; R_BRACE; R_PAREN]. split; [reflexivity|]. rewrite Es, H2 at 1. now constructor.
Qed.
Lemma contents_loose ts c r : Forall lexed ts -> parse_contents_constraint ts = Ok (c, r) -> from loose_constraint ts c r.
Proof.
  unfold parse_contents_constraint. intros L H. taking H x t ts1. taking H x t2 ts2. taking H x t3 ts3. taking H x t4 ts4. injection H as <- <-. subst.
  destruct (lexed_tail _ _ L) as [L1 L2]. destruct (lexed_tail _ _ L2) as [_ L3]. destruct (lexed_tail _ _ L3) as [L4 L5]. destruct (lexed_tail _ _ L5) as [L6 _].
  apply (l_paren _ L1) in P as ->. apply kw_make in P0 as ->. destruct (type_ref_name t3 L4 P1) as [E Hn]. apply (r_paren _ L6) in P2 as ->.
  exists [L_PAREN; K "CONTAINING"; t3; R_PAREN]. split; [reflexivity|]. rewrite E. now constructor.
Qed.

Section Step.
Context (rec_type : list tok -> res (asn_type * list tok)).
Context (rec_set : list tok -> res (element_set * list tok)).
Context (HT : forall ts t r, Forall lexed ts -> rec_type ts = Ok (t, r) -> from loose_type ts t r).
Context (HS : forall ts s r, Forall lexed ts -> rec_set ts = Ok (s, r) -> from loose_set ts s r).
Context (HR : forall r, rec_type (R_PAREN :: r) = Err \/ rec_type (R_PAREN :: r) = Diverge).

Lemma plain_loose ts e r b : Forall lexed ts -> expect (is RoundBegin) ts = Ok b ->
  (x <-- attempt (parse_range_elements ts) ;;
    match x with
    | Some x => Ok x
    | None =>
        if b then s <-- rec_set ts ;; Ok (ESet (fst s), snd s)
        else
          v <-- attempt (parse_value ts) ;;
          match v with
          | Some x => Ok (ESingle (fst x), snd x)
          | None => t <-- attempt (rec_type ts) ;; match t with Some x => Ok (ESubtype (fst x), snd x) | None => Err end
          end
    end) = Ok (e, r) -> from loose_plain ts e r.
Proof.
  intros L Q2 H. bind H x Q. apply attempt_ok in Q. destruct x as [x|]; [injection H as ->; now apply range_loose|].
  apply expect_ok in Q2 as (t & r1 & -> & Hb). destruct b.
  - bind H s Q2. destruct s as [s r2]. injection H as <- <-. apply HS in Q2 as (w & E & Hw); [|exact L]. exists w. split; [exact E|]. now constructor.
  - bind H v Q2. apply attempt_ok in Q2. destruct v as [[v r2]|].
    + injection H as <- <-. apply value_loose in Q2 as (w & E & Hw); [|exact L]. exists w. split; [exact E|]. constructor; [exact Hw|].
      destruct w as [|a w]; [exact Logic.I|]. injection E as <- _. intros ->. discriminate.
    + bind H y Q3. apply attempt_ok in Q3. destruct y as [[y r3]|]; [|discriminate]. injection H as <- <-.
      apply HT in Q3 as (w & E & Hw); [|exact L]. exists w. split; [exact E|]. now constructor.
Qed.
Lemma element_loose ts e r : Forall lexed ts -> parse_intersection_set rec_type rec_set ts = Ok (e, r) -> from loose_element ts e r.
Proof.
  unfold parse_intersection_set. intros L H. bind H k Q. apply expect_ok in Q as (t & r1 & -> & Hk). cbn [expect rbind] in H. cbv zeta in H.
  destruct k.
  - cbn [skipn] in H. destruct (lexed_tail _ _ L) as [_ L1].
    assert (HK : exists k, t = K k /\ In k ["SIZE"; "FROM"] /\ kw "SIZE" t = String.eqb k "SIZE").
    { apply orb_prop in Hk as [Hk|Hk]; apply kw_make in Hk as ->; [exists "SIZE"|exists "FROM"]; cbn; auto. }
    destruct HK as (k & -> & Hin & Esz). rewrite Esz in H. bind H inner Q. apply expect_ok in Q as (t1 & r2 & -> & Hi). destruct inner.
    + bind H s Q. destruct s as [s r3]. cbn [fst snd] in H. apply HS in Q as (w & E & Hw); [|exact L1]. exists (K k :: w). injection H as <- <-.
      split; [cbn; now rewrite E|]. destruct Hin as [<-|[<-|[]]]; cbn; now constructor.
    + apply (plain_loose _ _ _ false L1 ltac:(cbn; now rewrite Hi)) in H as (w & E & Hw). exists (K k :: w). split; [cbn; now rewrite E|]. apply LEl_dropped; [exact Hin|exact Hw|].
      destruct w as [|a w]; [exact Logic.I|]. injection E as <- _. intros ->. discriminate.
  - cbn [rbind] in H. apply (plain_loose _ _ _ (is RoundBegin t) L eq_refl) in H as (w & E & Hw). exists w. split; [exact E|]. now constructor.
Qed.
Lemma meet_loose n : forall expecting acc ts acc' r, Forall lexed ts -> intersection_loop rec_type rec_set n expecting acc ts = Ok (acc', r) ->
  exists w l, ts = w ++ r /\ acc' = acc ++ l /\ if expecting then separated caret loose_element w l else loose_meet w l.
Proof.
  induction n as [|n IH]; [discriminate|]. intros expecting acc ts acc' r L H. cbn [intersection_loop] in H. bind H e Q. apply attempt_ok in Q.
  destruct e as [[e r1]|].
  - cbn [rbind fst snd] in H. apply element_loose in Q as (w & -> & Hw); [|exact L]. destruct (lexed_app _ _ L) as [_ L1].
    bind H b Q. apply expect_ok in Q as (t & r2 & -> & Hb). destruct (lexed_tail _ _ L1) as [Lt L2].
    assert (HX : exists w l, w ++ r2 = w ++ r2 /\ True) by (exists [], [tt]; auto). clear HX.
    destruct b.
    + cbn [skipn] in H. apply IH in H as (w2 & l & -> & -> & H2); [|exact L2]. apply (intersection_caret _ Lt) in Hb.
      exists (w ++ t :: w2), (e :: l). split; [now rewrite <- app_assoc|]. split; [now rewrite <- app_assoc|].
      assert (X : separated caret loose_element (w ++ t :: w2) (e :: l)) by now constructor. destruct expecting; [exact X|now constructor].
    + injection H as <- <-. exists w, [e]. split; [reflexivity|]. split; [reflexivity|].
      assert (X : separated caret loose_element w [e]) by now constructor. destruct expecting; [exact X|now constructor].
  - destruct expecting; [discriminate|]. cbn [rbind fst snd] in H. bind H b Qb. apply expect_ok in Qb as (t & r2 & -> & Hb). destruct (lexed_tail _ _ L) as [Lt L2].
    destruct b.
    + cbn [skipn] in H. apply IH in H as (w2 & l & -> & -> & H2); [|exact L2]. apply (intersection_caret _ Lt) in Hb.
      exists (t :: w2), l. split; [reflexivity|]. split; [reflexivity|]. now apply LM_leading.
    + injection H as <- <-. exists [], []. split; [reflexivity|]. split; [now rewrite app_nil_r|constructor].
Qed.
Lemma union_loose n : forall acc ts acc' r, Forall lexed ts -> union_loop rec_type rec_set n acc ts = Ok (acc', r) ->
  exists w l, ts = w ++ r /\ acc' = acc ++ filter not_empty l /\ separated bar loose_meet w l.
Proof.
  induction n as [|n IH]; [discriminate|]. intros acc ts acc' r L H. cbn [union_loop] in H. bind H i Q. destruct i as [i r1]. cbn [fst snd] in H. cbv zeta in H.
  apply meet_loose in Q as (w & l & -> & E & Hw); [|exact L]. cbn [app] in E. subst l. destruct (lexed_app _ _ L) as [_ L1].
  assert (EA : match i with [] => acc | a :: l => acc ++ [a :: l] end = acc ++ filter not_empty [i]) by (destruct i; cbn; [now rewrite app_nil_r|reflexivity]).
  rewrite EA in H. bind H b Q. apply expect_ok in Q as (t & r2 & -> & Hb). destruct (lexed_tail _ _ L1) as [Lt L2]. destruct b.
  - cbn [skipn] in H. apply IH in H as (w2 & l & -> & -> & H2); [|exact L2]. apply (union_bar _ Lt) in Hb.
    exists (w ++ t :: w2), (i :: l). split; [now rewrite <- app_assoc|]. split; [|now constructor]. rewrite <- app_assoc. f_equal.
    cbn. now destruct (not_empty i).
  - injection H as <- <-. exists w, [i]. split; [reflexivity|]. split; [reflexivity|]. now constructor.
Qed.
(* before a closing parenthesis there is always a union: an empty one *)
Lemma union_empty r : parse_union_set rec_type rec_set (R_PAREN :: r) <> Err.
Proof.
  assert (E : parse_intersection_set rec_type rec_set (R_PAREN :: r) = Err \/ parse_intersection_set rec_type rec_set (R_PAREN :: r) = Diverge).
  { unfold parse_intersection_set. cbn. destruct (HR r) as [-> | ->]; cbn; auto. }
  unfold parse_union_set. cbn [union_loop intersection_loop]. destruct E as [-> | ->]; cbn; discriminate.
Qed.
Lemma element_set_loose ts s r : Forall lexed ts -> element_set_step rec_type rec_set ts = Ok (s, r) -> from loose_set ts s r.
Proof.
  unfold element_set_step. intros L H. taking H x t ts1. subst ts. destruct (lexed_tail _ _ L) as [Lt L1]. apply (l_paren _ Lt) in P as ->.
  bind H root Q. destruct root as [root ts2]. cbn [fst snd] in H. apply union_loose in Q as (w & l & -> & E & Hw); [|exact L1]. cbn [app] in E.
  assert (Hu : loose_union w root) by (rewrite E; now constructor). destruct (lexed_app _ _ L1) as [_ L2].
  destruct root as [|root0 root]; [discriminate|]. assert (Hne : root0 :: root <> []) by discriminate. set (u := root0 :: root) in *. clearbody u. clear E l Hw.
  bind H c Q. apply expect_ok in Q as (t & r1 & -> & Hc). destruct (lexed_tail _ _ L2) as [Lt1 L3]. destruct c.
  - apply (a_comma _ Lt1) in Hc as ->. cbn [skipn] in H. bind H a Q.
    taking Q x t1 ts3. subst r1. destruct (lexed_tail _ _ L3) as [L4 L5]. apply (dots _ L4) in P as ->.
    bind Q r2 Q2. apply skip_comma in Q2 as (c & -> & Hc); [|exact L5]. destruct (lexed_app _ _ L5) as [_ L6].
    bind Q y Q2. apply attempt_ok in Q2. injection Q as <-. taking H z t2 ts4. injection H as <- <-.
    destruct y as [[a ts5]|]; cbn [fst snd] in *.
    + apply union_loose in Q2 as (v & l & -> & E2 & Hv); [|exact L6]. cbn [app] in E2. subst ts5. destruct (lexed_app _ _ L6) as [_ L7]. destruct (lexed_tail _ _ L7) as [L8 _].
      apply (r_paren _ L8) in P as ->. exists (L_PAREN :: w ++ COMMA :: DOTS :: c ++ v ++ [R_PAREN]).
      split; [cbn; rewrite <- !app_assoc; cbn; now rewrite <- !app_assoc|]. constructor; [exact Hu|exact Hne|exact Hc|]. rewrite E2. now constructor.
    + subst r2. destruct (lexed_tail _ _ L6) as [L8 _]. apply (r_paren _ L8) in P as ->. now apply union_empty in Q2.
  - cbn [rbind fst snd take] in H. destruct (is RoundEnd t) eqn:Er; [|discriminate]. cbn [rbind snd] in H. injection H as <- <-. apply (r_paren _ Lt1) in Er as ->.
    exists (L_PAREN :: w ++ [R_PAREN]). split; [cbn; now rewrite <- app_assoc|]. now constructor.
Qed.
Lemma constraint_loose ts c r : Forall lexed ts -> parse_constraint rec_set ts = Ok (c, r) -> from loose_constraint ts c r.
Proof.
  unfold parse_constraint. intros L H. bind H s Q. apply attempt_ok in Q. destruct s as [[s r1]|].
  - injection H as <- <-. apply HS in Q as (w & E & Hw); [|exact L]. exists w. split; [exact E|]. now constructor.
  - clear Q. bind H t Q. apply attempt_ok in Q. destruct t as [x|]; [injection H as ->; now apply table_loose|now apply contents_loose].
Qed.
Lemma constraints_loose n : forall acc ts acc' r, Forall lexed ts -> constraints_loop rec_set n acc ts = Ok (acc', r) ->
  exists w l, ts = w ++ r /\ acc' = acc ++ l /\ repeated loose_constraint w l.
Proof.
  induction n as [|n IH]; [discriminate|]. intros acc ts acc' r L H. cbn [constraints_loop] in H. bind H c Q. apply attempt_ok in Q.
  destruct c as [[c r1]|].
  - cbn [fst snd] in H. apply constraint_loose in Q as (w & -> & Hw); [|exact L]. destruct (lexed_app _ _ L) as [_ L1].
    apply IH in H as (w2 & l & -> & -> & H2); [|exact L1]. exists (w ++ w2), (c :: l). split; [now rewrite app_assoc|]. split; [now rewrite <- app_assoc|]. now constructor.
  - injection H as <- <-. exists [], []. split; [reflexivity|]. split; [now rewrite app_nil_r|constructor].
Qed.

(* ------------------------------------------------------------------ *)
(* SEQUENCE and CHOICE                                                 *)
(* ------------------------------------------------------------------ *)
Lemma component_loose ts id t r : Forall lexed ts -> parse_component rec_type ts = Ok (id, t, r) -> from loose_component ts (id, t) r.
Proof.
  unfold parse_component. intros L H. taking H x a ts1. subst ts. destruct (value_ref a P) as [E Hv]. bind H y Q. destruct y as [y r1]. injection H as <- <- <-.
  destruct (lexed_tail _ _ L) as [_ L1]. apply HT in Q as (w & -> & Hw); [|exact L1]. exists (a :: w). split; [reflexivity|]. rewrite E at 1. now constructor.
Qed.
Lemma seq_component_loose ts c r : Forall lexed ts -> parse_seq_component rec_type ts = Ok (c, r) ->
  match c with Some c => from loose_seq_component ts c r | None => ts = r end.
Proof.
  unfold parse_seq_component. intros L H. bind H x Q. apply attempt_ok in Q. destruct x as [[[id ty] r1]|]; [|now injection H as <- <-].
  apply component_loose in Q as (w & -> & Hw); [|exact L]. destruct (lexed_app _ _ L) as [_ L1].
  bind H o Q. apply expect_ok in Q as (t & r2 & -> & Ho). cbn [skip_if] in H. rewrite Ho in H. cbn [rbind] in H.
  bind H d Q. apply expect_ok in Q as (t2 & r3 & E2 & Hd). bind H dv Q. destruct (d && o) eqn:Edo; [discriminate|]. injection H as <- <-.
  destruct o.
  - apply kw_make in Ho as ->. destruct d; [discriminate|]. injection Q as <-. cbn [fst snd]. exists (w ++ [K "OPTIONAL"]). split; [now rewrite <- app_assoc|].
    constructor; [exact Hw|constructor].
  - destruct d.
    + injection E2 as <- <-. apply kw_make in Hd as ->. cbn [skipn] in Q. bind Q v Q2. destruct v as [v r4]. injection Q as <-. cbn [fst snd].
      destruct (lexed_tail _ _ L1) as [_ L2]. apply value_loose in Q2 as (vw & -> & Hv); [|exact L2].
      exists (w ++ K "DEFAULT" :: vw). split; [now rewrite <- app_assoc|]. constructor; [exact Hw|now constructor].
    + injection Q as <-. cbn [fst snd]. exists (w ++ []). split; [now rewrite app_nil_r|]. constructor; [exact Hw|constructor].
Qed.
Lemma version_loose ts r : Forall lexed ts -> skip_version ts = Ok r -> exists w, ts = w ++ r /\ version_syntax w.
Proof.
  unfold skip_version. intros L H. destruct ts as [|t ts]; [discriminate|]. destruct (is NumberInt t) eqn:E.
  - taking H x t2 ts2. injection H as <-. subst ts. destruct (lexed_tail _ _ L) as [_ L1]. destruct (lexed_tail _ _ L1) as [L2 _]. apply (a_colon _ L2) in P as ->.
    apply is_make in E. exists [t; COLON]. split; [reflexivity|]. rewrite E. constructor.
  - injection H as <-. exists []. split; [reflexivity|constructor].
Qed.
Lemma seq_group_loop_loose n : forall acc ts acc' r, Forall lexed ts -> seq_group_loop rec_type n acc ts = Ok (acc', r) ->
  exists w l, ts = w ++ r /\ acc' = acc ++ l /\ repeated (with_comma loose_seq_component) w l.
Proof.
  induction n as [|n IH]; [discriminate|]. intros acc ts acc' r L H. cbn [seq_group_loop] in H. bind H c Q. destruct c as [c r1]. cbn [fst snd] in H.
  apply seq_component_loose in Q; [|exact L]. destruct c as [c|].
  - destruct Q as (w & -> & Hw). destruct (lexed_app _ _ L) as [_ L1]. bind H r2 Q. apply skip_comma in Q as (cm & -> & Hc); [|exact L1].
    destruct (lexed_app _ _ L1) as [_ L2]. apply IH in H as (w2 & l & -> & -> & H2); [|exact L2].
    exists ((w ++ cm) ++ w2), (c :: l). split; [now rewrite !app_assoc|]. split; [now rewrite <- app_assoc|]. constructor; [now constructor|exact H2].
  - injection H as <- <-. exists [], []. split; [reflexivity|]. split; [now rewrite app_nil_r|constructor].
Qed.
Lemma seq_group_loose ts l r : Forall lexed ts -> parse_seq_addition_group rec_type ts = Ok (l, r) -> from loose_seq_group ts l r.
Proof.
  unfold parse_seq_addition_group. intros L H. taking H x t ts1. subst ts. destruct (lexed_tail _ _ L) as [Lt L1]. apply (l_group _ Lt) in P as ->.
  bind H r1 Q. apply version_loose in Q as (v & -> & Hv); [|exact L1]. destruct (lexed_app _ _ L1) as [_ L2].
  bind H l0 Q. destruct l0 as [l0 r2]. cbn [fst snd] in H. apply seq_group_loop_loose in Q as (w & l1 & -> & E & Hw); [|exact L2]. cbn [app] in E. subst l1.
  destruct (lexed_app _ _ L2) as [_ L3].
  destruct l0 as [|c0 l0]; [discriminate|]. taking H y t3 ts3. injection H as <- <-. subst r2. destruct (lexed_tail _ _ L3) as [L4 _]. apply (r_group _ L4) in P as ->.
  exists (L_GROUP :: v ++ w ++ [R_GROUP]). split; [cbn; now rewrite <- !app_assoc|]. constructor; [exact Hv|exact Hw|discriminate].
Qed.
Lemma sequence_loose n : forall root adds markers ts root' adds' m r, Forall lexed ts ->
  sequence_loop rec_type n root adds markers ts = Ok (root', adds', m, r) ->
  exists w l g, ts = w ++ R_BRACE :: r /\ root' = root ++ l /\ adds' = adds ++ g /\ loose_sequence markers w l g m.
Proof.
  induction n as [|n IH]; [discriminate|]. intros root adds markers ts root' adds' m r L H. cbn [sequence_loop] in H.
  bind H c Q. apply attempt_ok in Q.
  assert (S1 : exists w1 l1 ts1, ts = w1 ++ ts1 /\
    match c with Some (Some x, r) => (root ++ [x], r) | Some (None, r) => (root, r) | None => (root, ts) end = (root ++ l1, ts1) /\
    forall k v l g m, loose_sequence k v l g m -> loose_sequence k (w1 ++ v) (l1 ++ l) g m).
  { destruct c as [[[c|] r1]|].
    - apply seq_component_loose in Q as (w & -> & Hw); [|exact L]. exists w, [c], r1. split; [reflexivity|]. split; [reflexivity|]. intros. now apply LS_component.
    - apply seq_component_loose in Q; [|exact L]. subst r1. exists [], [], ts. split; [reflexivity|]. split; [now rewrite app_nil_r|auto].
    - exists [], [], ts. split; [reflexivity|]. split; [now rewrite app_nil_r|auto]. }
  destruct S1 as (w1 & l1 & ts1 & -> & E1 & H1). rewrite E1 in H. cbv iota in H. clear E1 Q. destruct (lexed_app _ _ L) as [_ L1].
  bind H g Q. apply expect_ok in Q as (t & r1 & -> & Hg). bind H a Q.
  assert (S2 : exists w2 g2, t :: r1 = w2 ++ snd a /\ fst a = adds ++ g2 /\
    forall v l g m, loose_sequence markers v l g m -> loose_sequence markers (w2 ++ v) l (g2 ++ g) m).
  { destruct g.
    - destruct (Nat.eqb_spec markers 1) as [-> |]; [|discriminate]. bind Q x Q2. destruct x as [x r2]. injection Q as <-. cbn [fst snd].
      apply seq_group_loose in Q2 as (w & E & Hw); [|exact L1]. exists w, [x]. split; [exact E|]. split; [reflexivity|]. intros. now apply LS_group.
    - injection Q as <-. exists [], []. split; [reflexivity|]. cbn [fst]. split; [now rewrite app_nil_r|auto]. }
  destruct S2 as (w2 & g2 & E2 & E3 & H2). destruct a as [a ts2]. cbn [fst snd] in *. subst a. rewrite E2 in L1 |- *. clear Q. destruct (lexed_app _ _ L1) as [_ L2].
  bind H ts3 Q. apply skip_comma in Q as (c3 & -> & Hc3); [|exact L2]. destruct (lexed_app _ _ L2) as [_ L3].
  assert (H3 : forall k v l g m, loose_sequence k v l g m -> loose_sequence k (c3 ++ v) l g m) by (intros k v l g' m' X; destruct Hc3 as [-> | ->]; [exact X|now constructor]).
  bind H mk Q. apply expect_ok in Q as (t4 & r4 & -> & Hm). bind H ts5 Q.
  assert (S4 : exists w4, t4 :: r4 = w4 ++ ts5 /\ forall v l g m, loose_sequence (if mk then S markers else markers) v l g m -> loose_sequence markers (w4 ++ v) l g m).
  { destruct (lexed_tail _ _ L3) as [L4 L5]. destruct mk.
    - cbn [skipn] in Q. apply (dots _ L4) in Hm as ->. apply skip_comma in Q as (c4 & -> & Hc4); [|exact L5]. exists (DOTS :: c4). split; [reflexivity|].
      intros v l g' m' X. cbn. apply LS_marker. destruct Hc4 as [-> | ->]; [exact X|now constructor].
    - injection Q as <-. exists []. split; [reflexivity|auto]. }
  destruct S4 as (w4 & E4 & H4). rewrite E4 in L3 |- *. clear Q. destruct (lexed_app _ _ L3) as [_ L4].
  cbv zeta in H. bind H stop Q. apply expect_ok in Q as (t5 & r5 & -> & Hs). destruct stop.
  - injection H as <- <- <- <-. cbn [skipn]. destruct (lexed_tail _ _ L4) as [L5 _]. apply (r_brace _ L5) in Hs as ->.
    exists (w1 ++ w2 ++ c3 ++ w4 ++ []), (l1 ++ []), (g2 ++ []). rewrite !app_nil_r. split; [now rewrite <- !app_assoc|]. split; [reflexivity|]. split; [reflexivity|].
    rewrite <- (app_nil_r w4), <- (app_nil_r l1), <- (app_nil_r g2). apply H1, H2, H3, H4. constructor.
  - apply IH in H as (w & l & g' & E & -> & -> & Hw); [|exact L4]. exists (w1 ++ w2 ++ c3 ++ w4 ++ w), (l1 ++ l), (g2 ++ g'). rewrite E.
    split; [now rewrite <- !app_assoc|]. split; [now rewrite <- app_assoc|]. split; [now rewrite <- app_assoc|]. now apply H1, H2, H3, H4.
Qed.
Lemma group_items_loose n : forall acc ts acc' r, Forall lexed ts -> choice_group_loop rec_type n acc ts = Ok (acc', r) ->
  exists w l, ts = w ++ R_GROUP :: r /\ acc' = acc ++ l /\ loose_group_items w l.
Proof.
  induction n as [|n IH]; [discriminate|]. intros acc ts acc' r L H. cbn [choice_group_loop] in H. bind H c Q. apply attempt_ok in Q.
  assert (S1 : exists w1 l1 ts1, ts = w1 ++ ts1 /\ match c with Some x => (acc ++ [fst x], snd x) | None => (acc, ts) end = (acc ++ l1, ts1) /\
    forall v l, loose_group_items v l -> loose_group_items (w1 ++ v) (l1 ++ l)).
  { destruct c as [[[id ty] r1]|].
    - apply component_loose in Q as (w & -> & Hw); [|exact L]. exists w, [(id, ty)], r1. split; [reflexivity|]. split; [reflexivity|]. intros. now apply LGI_component.
    - exists [], [], ts. split; [reflexivity|]. split; [now rewrite app_nil_r|auto]. }
  destruct S1 as (w1 & l1 & ts1 & -> & E1 & H1). rewrite E1 in H. cbv iota in H. clear E1 Q. destruct (lexed_app _ _ L) as [_ L1].
  bind H ts3 Q. apply skip_comma in Q as (c3 & -> & Hc3); [|exact L1]. destruct (lexed_app _ _ L1) as [_ L3].
  assert (H3 : forall v l, loose_group_items v l -> loose_group_items (c3 ++ v) l) by (intros v l X; destruct Hc3 as [-> | ->]; [exact X|now constructor]).
  bind H stop Q. apply expect_ok in Q as (t5 & r5 & -> & Hs). destruct stop.
  - injection H as <- <-. cbn [skipn]. destruct (lexed_tail _ _ L3) as [L5 _]. apply (r_group _ L5) in Hs as ->.
    exists (w1 ++ c3 ++ []), (l1 ++ []). split; [rewrite app_nil_r; now rewrite <- app_assoc|]. split; [now rewrite app_nil_r|]. apply H1, H3. constructor.
  - apply IH in H as (w & l & E & -> & Hw); [|exact L3]. exists (w1 ++ c3 ++ w), (l1 ++ l). rewrite E. split; [now rewrite <- !app_assoc|]. split; [now rewrite <- app_assoc|]. now apply H1, H3.
Qed.
Lemma choice_group_loose ts l r : Forall lexed ts -> parse_choice_addition_group rec_type ts = Ok (l, r) -> from loose_choice_group ts l r.
Proof.
  unfold parse_choice_addition_group. intros L H. taking H x t ts1. subst ts. destruct (lexed_tail _ _ L) as [Lt L1]. apply (l_group _ Lt) in P as ->.
  bind H r1 Q. apply version_loose in Q as (v & -> & Hv); [|exact L1]. destruct (lexed_app _ _ L1) as [_ L2].
  bind H l0 Q. destruct l0 as [l0 r2]. cbn [fst snd] in H. apply group_items_loose in Q as (w & l1 & -> & E & Hw); [|exact L2]. cbn [app] in E. subst l1.
  destruct l0 as [|c0 l0]; [discriminate|]. injection H as <- <-.
  exists (L_GROUP :: v ++ w ++ [R_GROUP]). split; [cbn; now rewrite <- !app_assoc|]. constructor; [exact Hv|exact Hw|discriminate].
Qed.
Lemma choice_loose n : forall root groups single marker ts root' groups' single' m r, Forall lexed ts ->
  choice_loop rec_type n root groups single marker ts = Ok (root', groups', single', m, r) ->
  exists w l g s, ts = w ++ R_BRACE :: r /\ root' = root ++ l /\ groups' = groups ++ g /\ single' = single ++ s /\ loose_choice marker w l g s m.
Proof.
  induction n as [|n IH]; [discriminate|]. intros root groups single marker ts root' groups' single' m r L H. cbn [choice_loop] in H.
  bind H c Q. apply attempt_ok in Q.
  assert (S1 : exists w1 l1 s1 ts1, ts = w1 ++ ts1 /\
    match c with
    | Some x => if marker then (root, single ++ [fst x], snd x) else (root ++ [fst x], single, snd x)
    | None => (root, single, ts)
    end = (root ++ l1, single ++ s1, ts1) /\
    forall v l g s m, loose_choice marker v l g s m -> loose_choice marker (w1 ++ v) (l1 ++ l) g (s1 ++ s) m).
  { destruct c as [[[id ty] r1]|].
    - apply component_loose in Q as (w & -> & Hw); [|exact L]. destruct marker.
      + exists w, [], [(id, ty)], r1. split; [reflexivity|]. split; [now rewrite app_nil_r|]. intros. now apply LC_single.
      + exists w, [(id, ty)], [], r1. split; [reflexivity|]. split; [now rewrite app_nil_r|]. intros. now apply LC_root.
    - exists [], [], [], ts. split; [reflexivity|]. split; [now rewrite !app_nil_r|auto]. }
  destruct S1 as (w1 & l1 & s1 & ts1 & -> & E1 & H1). rewrite E1 in H. cbv iota in H. clear E1 Q. destruct (lexed_app _ _ L) as [_ L1].
  bind H g Q. apply expect_ok in Q as (t & r1 & -> & Hg). bind H a Q.
  assert (S2 : exists w2 g2, t :: r1 = w2 ++ snd a /\ fst a = groups ++ g2 /\
    forall v l g s m, loose_choice marker v l g s m -> loose_choice marker (w2 ++ v) l (g2 ++ g) s m).
  { destruct g.
    - destruct marker; [|discriminate]. bind Q x Q2. destruct x as [x r2]. injection Q as <-. cbn [fst snd].
      apply choice_group_loose in Q2 as (w & E & Hw); [|exact L1]. exists w, [x]. split; [exact E|]. split; [reflexivity|]. intros. now apply LC_group.
    - injection Q as <-. exists [], []. split; [reflexivity|]. cbn [fst]. split; [now rewrite app_nil_r|auto]. }
  destruct S2 as (w2 & g2 & E2 & E3 & H2). destruct a as [a ts2]. cbn [fst snd] in *. subst a. rewrite E2 in L1 |- *. clear Q. destruct (lexed_app _ _ L1) as [_ L2].
  bind H ts3 Q. apply skip_comma in Q as (c3 & -> & Hc3); [|exact L2]. destruct (lexed_app _ _ L2) as [_ L3].
  assert (H3 : forall k v l g s m, loose_choice k v l g s m -> loose_choice k (c3 ++ v) l g s m) by (intros k v l g' s' m' X; destruct Hc3 as [-> | ->]; [exact X|now constructor]).
  bind H mk Q. apply expect_ok in Q as (t4 & r4 & -> & Hm). bind H ts5 Q.
  assert (S4 : exists w4, t4 :: r4 = w4 ++ ts5 /\ forall v l g s m, loose_choice (mk || marker) v l g s m -> loose_choice marker (w4 ++ v) l g s m).
  { destruct (lexed_tail _ _ L3) as [L4 L5]. destruct mk.
    - destruct marker; [discriminate|]. cbn [skipn] in Q. apply (dots _ L4) in Hm as ->. apply skip_comma in Q as (c4 & -> & Hc4); [|exact L5]. exists (DOTS :: c4). split; [reflexivity|].
      intros v l g' s' m' X. cbn. apply LC_marker. destruct Hc4 as [-> | ->]; [exact X|now constructor].
    - injection Q as <-. exists []. split; [reflexivity|auto]. }
  destruct S4 as (w4 & E4 & H4). rewrite E4 in L3 |- *. clear Q. destruct (lexed_app _ _ L3) as [_ L4].
  cbv zeta in H. bind H stop Q. apply expect_ok in Q as (t5 & r5 & -> & Hs). destruct stop.
  - injection H as <- <- <- <- <-. cbn [skipn]. destruct (lexed_tail _ _ L4) as [L5 _]. apply (r_brace _ L5) in Hs as ->.
    exists (w1 ++ w2 ++ c3 ++ w4 ++ []), (l1 ++ []), (g2 ++ []), (s1 ++ []). rewrite !app_nil_r. split; [now rewrite <- !app_assoc|]. split; [reflexivity|]. split; [reflexivity|]. split; [reflexivity|].
    rewrite <- (app_nil_r w4), <- (app_nil_r l1), <- (app_nil_r g2), <- (app_nil_r s1). apply H1, H2, H3, H4. constructor.
  - apply IH in H as (w & l & g' & s' & E & -> & -> & -> & Hw); [|exact L4]. exists (w1 ++ w2 ++ c3 ++ w4 ++ w), (l1 ++ l), (g2 ++ g'), (s1 ++ s'). rewrite E.
    split; [now rewrite <- !app_assoc|]. split; [now rewrite <- app_assoc|]. split; [now rewrite <- app_assoc|]. split; [now rewrite <- app_assoc|]. now apply H1, H2, H3, H4.
Qed.

(* ------------------------------------------------------------------ *)
(* Types                                                               *)
(* ------------------------------------------------------------------ *)
Lemma seq_kind_loose ts k r : Forall lexed ts -> parse_seq_or_seq_of_type rec_type rec_set ts = Ok (k, r) -> from loose_kind ts k r.
Proof.
  unfold parse_seq_or_seq_of_type. intros L H. taking H x t ts1. subst ts. apply kw_make in P as ->. destruct (lexed_tail _ _ L) as [_ L1].
  bind H b Q. apply expect_ok in Q as (t & r1 & -> & Hb). destruct b.
  - unfold parse_sequence_type in H. cbn [skipn take] in H. rewrite Hb in H. cbn [rbind snd] in H. destruct (lexed_tail _ _ L1) as [L2 L3].
    apply (l_brace _ L2) in Hb as ->. bind H l Q. destruct l as [[[root adds] m] r2]. injection H as <- <-.
    apply sequence_loose in Q as (w & l & g & -> & E1 & E2 & Hw); [|exact L3]. cbn [app] in E1, E2. subst l g.
    exists (K "SEQUENCE" :: L_BRACE :: w ++ [R_BRACE]). split; [cbn; now rewrite <- app_assoc|]. now constructor.
  - unfold parse_sequence_of_type in H. cbn [skipn] in H. bind H s Q. apply attempt_ok in Q. destruct s as [[c r2]|].
    + cbn [fst snd] in H. apply constraint_loose in Q as (w & E & Hw); [|exact L1]. rewrite E in L1 |- *. destruct (lexed_app _ _ L1) as [_ L2].
      taking H x t2 ts2. subst r2. apply kw_make in P as ->. destruct (lexed_tail _ _ L2) as [_ L3]. bind H y Q. destruct y as [y r3]. injection H as <- <-.
      apply HT in Q as (v & -> & Hv); [|exact L3]. exists (K "SEQUENCE" :: w ++ K "OF" :: v). split; [cbn; now rewrite <- app_assoc|]. now constructor.
    + cbn [take rbind] in H. destruct (kw "OF" t) eqn:E; [|discriminate]. cbn [rbind snd] in H. apply kw_make in E as ->. destruct (lexed_tail _ _ L1) as [_ L3].
      bind H y Q2. destruct y as [y r3]. injection H as <- <-. apply HT in Q2 as (v & -> & Hv); [|exact L3].
      exists (K "SEQUENCE" :: K "OF" :: v). split; [reflexivity|]. now constructor.
Qed.
Lemma choice_kind_loose ts k r : Forall lexed ts -> parse_choice_type rec_type ts = Ok (k, r) -> from loose_kind ts k r.
Proof.
  unfold parse_choice_type. intros L H. taking H x t ts1. subst ts. apply kw_make in P as ->. destruct (lexed_tail _ _ L) as [_ L1].
  taking H x t ts2. subst ts1. destruct (lexed_tail _ _ L1) as [L2 L3]. apply (l_brace _ L2) in P as ->.
  bind H l Q. destruct l as [[[[root groups] single] m] r2]. injection H as <- <-.
  apply choice_loose in Q as (w & l & g & s & -> & E1 & E2 & E3 & Hw); [|exact L3]. cbn [app] in E1, E2, E3. subst l g s.
  exists (K "CHOICE" :: L_BRACE :: w ++ [R_BRACE]). split; [cbn; now rewrite <- app_assoc|]. apply (LK_choice w root groups single m Hw).
Qed.
Lemma kind_loose t ts k r : Forall lexed (t :: ts) -> type_head t = true -> parse_kind rec_type rec_set (t :: ts) = Ok (k, r) -> from loose_kind (t :: ts) k r.
Proof.
  unfold parse_kind. intros L Hh H. cbv zeta in H. destruct (lexed_tail _ _ L) as [Lt L1].
  assert (HK : forall s, reserved s -> String.eqb (t_text t) s = true -> t = K s) by (intros s X Y; apply String.eqb_eq in Y; now apply spelled).
  assert (HB : forall w b, t :: ts = w ++ r -> loose_builtin w b -> from loose_kind (t :: ts) (KBuiltin b) r) by (intros w b X Y; exists w; split; [exact X|now constructor]).
  assert (Rv : forall s, existsb (String.eqb s) KEYWORDS = true -> reserved s).
  { intros s X. apply existsb_exists in X as (y & X1 & X2). apply String.eqb_eq in X2. now subst. }
  destruct (String.eqb (t_text t) "BIT") eqn:E1.
  { bind H x Q. destruct x as [b r1]. injection H as <- <-. cbn [fst snd]. unfold parse_bitstring_type in Q. bind Q b2 Q2. destruct b2; [|discriminate].
    apply expect_two in Q2 as (a & b0 & r2 & E & Ha & Hb). injection E as <- ->. apply kw_make in Ha as ->. apply kw_make in Hb as ->. cbn [skipn] in Q.
    bind Q r3 Q2. injection Q as <- <-. destruct (lexed_tail _ _ L1) as [_ L2]. apply maybe_named_loose in Q2 as (w & -> & Hw); [|exact L2].
    apply (HB (K "BIT" :: K "STRING" :: w)); [reflexivity|]. constructor. now constructor. }
  destruct (String.eqb (t_text t) "OCTET") eqn:E2.
  { apply HK in E2 as ->; [|now apply Rv]. bind H x Q. injection H as <- <-. destruct ts as [|t2 ts]; [discriminate|]. injection Q as <-.
    apply (HB [K "OCTET"; t2]); [reflexivity|]. apply LBu_octets. }
  destruct (String.eqb (t_text t) "CHARACTER") eqn:E3.
  { apply HK in E3 as ->; [|now apply Rv]. bind H x Q. injection H as <- <-. destruct ts as [|t2 ts]; [discriminate|]. injection Q as <-.
    apply (HB [K "CHARACTER"; t2]); [reflexivity|]. apply LBu_characters. }
  destruct (String.eqb (t_text t) "ENUMERATED") eqn:E4.
  { bind H x Q. destruct x as [b r1]. injection H as <- <-. apply enumerated_loose in Q as (w & E & Hw); [|exact L]. now apply (HB w). }
  destruct (String.eqb (t_text t) "INTEGER") eqn:E5.
  { bind H x Q. destruct x as [b r1]. injection H as <- <-. cbn [fst snd]. unfold parse_integer_type in Q. taking Q y a ts1. injection E as <- ->. apply kw_make in P as ->.
    bind Q r3 Q2. injection Q as <- <-. apply maybe_named_loose in Q2 as (w & -> & Hw); [|exact L1].
    apply (HB (K "INTEGER" :: w)); [reflexivity|]. constructor. now constructor. }
  destruct (String.eqb (t_text t) "OBJECT") eqn:E6.
  { bind H b Q. destruct b; [|discriminate]. injection H as <- <-. apply expect_two in Q as (a & b0 & r2 & E & Ha & Hb). injection E as <- ->. apply kw_make in Ha as ->. apply kw_make in Hb as ->.
    apply (HB [K "OBJECT"; K "IDENTIFIER"]); [reflexivity|]. constructor. constructor. }
  destruct (String.eqb (t_text t) "BOOLEAN") eqn:E7.
  { injection H as <- <-. apply HK in E7 as ->; [|now apply Rv]. apply (HB [K "BOOLEAN"]); [reflexivity|]. constructor. constructor. }
  destruct (String.eqb (t_text t) "NULL") eqn:E8.
  { injection H as <- <-. apply HK in E8 as ->; [|now apply Rv]. apply (HB [K "NULL"]); [reflexivity|]. constructor. constructor. }
  destruct (existsb (fun s => String.eqb (t_text t) s) ["VisibleString"; "UTF8String"; "IA5String"; "PrintableString"]) eqn:E9.
  { injection H as <- <-. apply existsb_exists in E9 as (s & Hs & Es). apply HK in Es as ->; [|apply Rv; cbn in Hs; decompose [or] Hs; subst; try contradiction; reflexivity].
    apply (HB [K s]); [reflexivity|]. constructor. now constructor. }
  destruct (String.eqb (t_text t) "CHOICE") eqn:E10; [now apply choice_kind_loose|].
  destruct (String.eqb (t_text t) "SEQUENCE") eqn:E11; [now apply seq_kind_loose|].
  cbn in E9.
  assert (HT2 : is_type_reference t = true \/ t = K "SET").
  { unfold type_head in Hh. apply orb_prop in Hh as [Hh|Hh]; [apply orb_prop in Hh as [Hh|Hh]|]; [now left| |left; unfold is_class_reference in Hh; now apply andb_prop in Hh].
    right. apply HK; [now apply Rv|]. unfold is_builtin_type, BUILTIN_TYPES in Hh. cbn [existsb] in Hh. rewrite E1, E2, E3, E4, E5, E6, E7, E8, E10, E11 in Hh.
    cbn [orb] in Hh. destruct (String.eqb (t_text t) "VisibleString"), (String.eqb (t_text t) "UTF8String"), (String.eqb (t_text t) "IA5String"), (String.eqb (t_text t) "PrintableString"); try discriminate E9.
    cbn [orb] in Hh. now rewrite orb_false_r in Hh. }
  destruct (String.eqb (t_text t) "RELATIVE-OID") eqn:E12.
  { exfalso. apply HK in E12 as ->; [|now apply Rv]. destruct HT2 as [X|X]; discriminate. }
  bind H x Q. destruct x as [x r1]. injection H as <- <-. apply reference_loose in Q as (w & E & Hw); [|exact L|exact HT2]. exists w. split; [exact E|]. now constructor.
Qed.
Lemma type_step_loose ts t r : Forall lexed ts -> type_step rec_type rec_set ts = Ok (t, r) -> from loose_type ts t r.
Proof.
  unfold type_step. intros L H. bind H b Q. apply expect_ok in Q as (a & r1 & -> & Hb). destruct b; [|discriminate].
  bind H k Q. destruct k as [k r2]. cbn [fst snd] in H. bind H cs Q2. destruct cs as [cs r3]. injection H as <- <-. cbn [fst snd].
  apply kind_loose in Q as (w & E & Hw); [|exact L|exact Hb]. rewrite E in L |- *. destruct (lexed_app _ _ L) as [_ L1].
  apply constraints_loose in Q2 as (v & l & -> & E2 & Hv); [|exact L1]. cbn [app] in E2. subst l.
  exists (w ++ v). split; [now rewrite app_assoc|]. now constructor.
Qed.
End Step.

Lemma depth_loose n :
  (forall ts t r, Forall lexed ts -> type_depth n ts = Ok (t, r) -> from loose_type ts t r) /\
  (forall ts s r, Forall lexed ts -> set_depth n ts = Ok (s, r) -> from loose_set ts s r).
Proof.
  induction n as [|n [IHt IHs]]; [split; discriminate|]. split; intros ts x r L H; cbn [type_depth set_depth] in H.
  - now apply (type_step_loose _ _ IHt IHs) in H.
  - apply (element_set_loose _ _ IHt IHs) in H; [exact H| |exact L]. intros r'. destruct n; [now right|left; reflexivity].
Qed.
Theorem parse_type_loose ts t r : Forall lexed ts -> parse_type ts = Ok (t, r) -> exists w, ts = w ++ r /\ loose_type w t.
Proof. apply depth_loose. Qed.
Theorem parse_set_loose ts s r : Forall lexed ts -> parse_element_set ts = Ok (s, r) -> exists w, ts = w ++ r /\ loose_set w s.
Proof. apply depth_loose. Qed.
