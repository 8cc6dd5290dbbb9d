(* The parser reads every phrase of the notation as what it denotes. *)
From Coq Require Import ZArith NArith List Bool String Ascii Lia.
From Coq Require Import ZifyBool ZifyNat ZifyN.
Require Import Verif.Base Verif.Asn1Model Verif.TokenModel Verif.ParserModel Verif.ParserSpec.
Import ListNotations.
Open Scope string_scope.
Open Scope list_scope.

Ltac lens := cbn [fst snd skipn app Datatypes.length] in *; repeat (progress (rewrite ?app_length in *; cbn [app Datatypes.length] in *)); lia.

(* ------------------------------------------------------------------ *)
(* Names                                                               *)
(* ------------------------------------------------------------------ *)
Lemma value_reference s : value_name s -> is_value_reference (I s) = true.
Proof. destruct s as [|c r]; cbn; [contradiction|]. unfold small, lower_ascii. intros H. lia. Qed.
Lemma type_reference s : type_name s -> is_type_reference (I s) = true.
Proof. intros [H _]. destruct s as [|c r]; cbn in *; [contradiction|]. unfold capital, upper_ascii in *. lia. Qed.
Lemma type_not_value s : type_name s -> is_value_reference (I s) = false.
Proof. intros [H _]. destruct s as [|c r]; cbn in *; [contradiction|]. unfold capital, lower_ascii in *. lia. Qed.
Lemma value_not_type s : value_name s -> is_type_reference (I s) = false.
Proof. intros H. destruct s as [|c r]; cbn in *; [contradiction|]. unfold small, upper_ascii in *. lia. Qed.
Lemma not_reserved s k : type_name s -> In k KEYWORDS -> String.eqb s k = false.
Proof. intros [_ H] Hk. apply String.eqb_neq. intros ->. now apply H. Qed.
Lemma class_reference s : class_name s -> is_class_reference (I s) = true.
Proof.
  intros [H Hc]. unfold is_class_reference. rewrite (type_reference s H). cbn [andb].
  clear H. change (t_text (I s)) with s. induction s as [|c r IH]; cbn in *; [reflexivity|].
  destruct Hc as [Hc Hr]. rewrite (IH Hr), andb_true_r.
  unfold upper_ascii, digit_ascii, capital in *. destruct (Ascii.eqb c "-") eqn:E; [now rewrite !orb_true_r|].
  assert (Hn : Z.of_N (N_of_ascii c) <> 45%Z).
  { intros Hx. apply Ascii.eqb_neq in E. apply E. rewrite <- (ascii_N_embedding c).
    assert (Hy : N_of_ascii c = 45%N) by lia. rewrite Hy. reflexivity. }
  cbv zeta. lia.
Qed.
Lemma is_same ty s : is ty (mkTok ty s) = true.
Proof. unfold is. destruct ty; reflexivity. Qed.
Lemma kw_other s t : t_type t <> Keyword -> kw s t = false.
Proof. unfold kw, is. destruct t as [ty x]. cbn. destruct ty; cbn; congruence. Qed.
Lemma is_other ty t : t_type t <> ty -> is ty t = false.
Proof. unfold is. destruct t as [ty' x]. cbn. destruct ty', ty; cbn; congruence. Qed.

(* ------------------------------------------------------------------ *)
(* Brackets                                                            *)
(* ------------------------------------------------------------------ *)
Lemma nested_app w v : nested w -> nested v -> nested (w ++ v).
Proof.
  induction 1 as [|t w Ht Hw IH|w1 w2 H1 IH1 H2 IH2|w1 w2 H1 IH1 H2 IH2]; intros Hv; cbn; auto.
  - apply nest_tok; auto.
  - rewrite <- app_assoc. cbn. apply nest_braces; auto.
  - rewrite <- app_assoc. cbn. apply nest_parens; auto.
Qed.
Lemma nested_tok t : ~ bracket t -> nested [t].
Proof. intros H. constructor; [exact H|constructor]. Qed.
Lemma nested_in_braces w : nested w -> nested (L_BRACE :: w ++ [R_BRACE]).
Proof. intros H. apply nest_braces; [exact H|constructor]. Qed.
Lemma nested_in_parens w : nested w -> nested (L_PAREN :: w ++ [R_PAREN]).
Proof. intros H. apply nest_parens; [exact H|constructor]. Qed.
Lemma set_ish_step b e L t t' r : set_ish_loop b e L (t :: t' :: r) =
  (let L' := if is b t then (L + 1)%Z else L in
   if is e t' then if (L' - 1 =? 0)%Z then Ok r else set_ish_loop b e (L' - 1)%Z (t' :: r) else set_ish_loop b e L' (t' :: r)).
Proof. reflexivity. Qed.
Lemma set_ish_nested b e :
  (b = CurlyBegin /\ e = CurlyEnd \/ b = RoundBegin /\ e = RoundEnd) ->
  forall w, nested w -> forall rest t L, (1 <= (if is b t then L + 1 else L))%Z ->
  exists t2 L2, (if is b t2 then L2 + 1 else L2)%Z = (if is b t then L + 1 else L)%Z /\
    set_ish_loop b e L (t :: w ++ rest) = set_ish_loop b e L2 (t2 :: rest).
Proof.
  intros Hbe w Hw. induction Hw as [|t' w Ht Hw IH|w v H1 IH1 H2 IH2|w v H1 IH1 H2 IH2]; intros rest t L HL.
  - exists t, L. split; reflexivity.
  - cbn [app]. rewrite set_ish_step. cbv zeta.
    assert (He : is e t' = false). { apply is_other. intros E. apply Ht. unfold bracket. rewrite E. destruct Hbe as [[_ ->]|[_ ->]]; cbn; auto. }
    assert (Hb : is b t' = false). { apply is_other. intros E. apply Ht. unfold bracket. rewrite E. destruct Hbe as [[-> _]|[-> _]]; cbn; auto. }
    rewrite He. set (L' := if is b t then (L + 1)%Z else L) in *.
    destruct (IH rest t' L') as (t2 & L2 & E1 & E2). { rewrite Hb. exact HL. }
    rewrite Hb in E1. exists t2, L2. split; [exact E1|exact E2].
  - cbn [app]. rewrite <- app_assoc. cbn [app]. rewrite set_ish_step. cbv zeta.
    set (L' := if is b t then (L + 1)%Z else L) in *.
    assert (He : is e L_BRACE = false). { destruct Hbe as [[_ ->]|[_ ->]]; reflexivity. } rewrite He.
    destruct (IH1 (R_BRACE :: v ++ rest) L_BRACE L') as (t1 & L1 & E1 & E2). { destruct (is b L_BRACE); lia. }
    rewrite E2. clear E2.
    assert (Hgo : exists L3, (if is b R_BRACE then L3 + 1 else L3)%Z = L' /\ set_ish_loop b e L1 (t1 :: R_BRACE :: v ++ rest) = set_ish_loop b e L3 (R_BRACE :: v ++ rest)).
    { rewrite set_ish_step. cbv zeta. destruct Hbe as [[-> ->]|[-> ->]].
      - change (is CurlyBegin L_BRACE) with true in E1. cbv iota in E1. rewrite E1.
        change (is CurlyEnd R_BRACE) with true. change (is CurlyBegin R_BRACE) with false. cbv iota.
        replace (L' + 1 - 1)%Z with L' by lia. destruct (L' =? 0)%Z eqn:E0; [lia|]. exists L'. split; [reflexivity|reflexivity].
      - change (is RoundBegin L_BRACE) with false in E1. cbv iota in E1. rewrite E1.
        change (is RoundEnd R_BRACE) with false. change (is RoundBegin R_BRACE) with false. cbv iota.
        exists L'. split; reflexivity. }
    destruct Hgo as (L3 & E3 & ->).
    destruct (IH2 rest R_BRACE L3) as (t2 & L2 & E4 & E5). { rewrite E3. exact HL. }
    exists t2, L2. rewrite E5, E4. split; [exact E3|reflexivity].
  - cbn [app]. rewrite <- app_assoc. cbn [app]. rewrite set_ish_step. cbv zeta.
    set (L' := if is b t then (L + 1)%Z else L) in *.
    assert (He : is e L_PAREN = false). { destruct Hbe as [[_ ->]|[_ ->]]; reflexivity. } rewrite He.
    destruct (IH1 (R_PAREN :: v ++ rest) L_PAREN L') as (t1 & L1 & E1 & E2). { destruct (is b L_PAREN); lia. }
    rewrite E2. clear E2.
    assert (Hgo : exists L3, (if is b R_PAREN then L3 + 1 else L3)%Z = L' /\ set_ish_loop b e L1 (t1 :: R_PAREN :: v ++ rest) = set_ish_loop b e L3 (R_PAREN :: v ++ rest)).
    { rewrite set_ish_step. cbv zeta. destruct Hbe as [[-> ->]|[-> ->]].
      - change (is CurlyBegin L_PAREN) with false in E1. cbv iota in E1. rewrite E1.
        change (is CurlyEnd R_PAREN) with false. change (is CurlyBegin R_PAREN) with false. cbv iota.
        exists L'. split; reflexivity.
      - change (is RoundBegin L_PAREN) with true in E1. cbv iota in E1. rewrite E1.
        change (is RoundEnd R_PAREN) with true. change (is RoundBegin R_PAREN) with false. cbv iota.
        replace (L' + 1 - 1)%Z with L' by lia. destruct (L' =? 0)%Z eqn:E0; [lia|]. exists L'. split; [reflexivity|reflexivity]. }
    destruct Hgo as (L3 & E3 & ->).
    destruct (IH2 rest R_PAREN L3) as (t2 & L2 & E4 & E5). { rewrite E3. exact HL. }
    exists t2, L2. rewrite E5, E4. split; [exact E3|reflexivity].
Qed.
Lemma before_app w rest : before (w ++ rest) rest = w.
Proof.
  unfold before. rewrite app_length. replace (List.length w + List.length rest - List.length rest)%nat with (List.length w) by lia.
  rewrite firstn_app, Nat.sub_diag. cbn [firstn]. now rewrite app_nil_r, firstn_all.
Qed.
Lemma read_braces w rest : nested w ->
  parse_set_ish_value (L_BRACE :: w ++ R_BRACE :: rest) = Ok (String.concat " " (map t_text (L_BRACE :: w ++ [R_BRACE])), rest).
Proof.
  intros Hw. unfold parse_set_ish_value. change (is CurlyBegin L_BRACE) with true. cbv iota. cbn [rbind fst snd].
  destruct (set_ish_nested CurlyBegin CurlyEnd ltac:(auto) w Hw (R_BRACE :: rest) L_BRACE 0%Z) as (t2 & L2 & E1 & E2). { cbn. lia. }
  rewrite E2, set_ish_step. cbv zeta. rewrite E1. change (is CurlyEnd R_BRACE) with true. change (is CurlyBegin L_BRACE) with true. cbv iota. cbn [Z.add Z.sub Z.opp Z.pos_sub Z.eqb rbind].
  assert (Hx : L_BRACE :: w ++ R_BRACE :: rest = (L_BRACE :: w ++ [R_BRACE]) ++ rest) by (cbn; now rewrite <- app_assoc).
  rewrite Hx, before_app. reflexivity.
Qed.
Lemma read_parens w rest : nested w ->
  exists v, parse_set_ish_value (L_PAREN :: w ++ R_PAREN :: rest) = Ok (v, rest).
Proof.
  intros Hw. unfold parse_set_ish_value. change (is CurlyBegin L_PAREN) with false. change (is RoundBegin L_PAREN) with true. cbv iota. cbn [rbind fst snd].
  destruct (set_ish_nested RoundBegin RoundEnd ltac:(auto) w Hw (R_PAREN :: rest) L_PAREN 0%Z) as (t2 & L2 & E1 & E2). { cbn. lia. }
  rewrite E2, set_ish_step. cbv zeta. rewrite E1. change (is RoundEnd R_PAREN) with true. cbv iota. cbn. eauto.
Qed.

(* ------------------------------------------------------------------ *)
(* Values, named numbers, enumerations                                 *)
(* ------------------------------------------------------------------ *)
Lemma simple_value t rest : simple_kind (t_type t) -> parse_value (t :: rest) = Ok (t_text t, rest).
Proof. destruct t as [ty x]. unfold simple_kind. cbn [t_type]. intros H. cbn in H. intuition (subst ty; reflexivity). Qed.
Lemma read_value w v rest : value_syntax w v -> parse_value (w ++ rest) = Ok (v, rest).
Proof.
  intros [t Ht|w' Hw]; [now apply simple_value|].
  cbn [app]. rewrite <- app_assoc. cbn [app]. unfold parse_value. cbn [is]. change (is Identifier L_BRACE || is NumberInt L_BRACE || is BitString L_BRACE || is HexString L_BRACE || is TString L_BRACE) with false.
  change (is CurlyBegin L_BRACE || is RoundBegin L_BRACE) with true. cbv iota. now apply read_braces.
Qed.
Lemma value_nested w v : value_syntax w v -> nested w.
Proof.
  intros [t Ht|w' Hw]; [|now apply nested_in_braces].
  apply nested_tok. intros Hb. unfold simple_kind, bracket in *. cbn in *. destruct (t_type t); intuition discriminate.
Qed.
Lemma number_nested w n : number_syntax w n -> nested w.
Proof. intros [m|r Hr]; apply (nested_in_parens [_]), nested_tok; cbn; intuition discriminate. Qed.
Lemma named_nested w n : named_syntax w n -> nested w.
Proof. intros [id w' n' Hid Hn]. constructor; [cbn; intuition discriminate|]. now apply number_nested in Hn. Qed.
Lemma enum_item_nested w n : enum_item_syntax w n -> nested w.
Proof. intros [id Hid|id w' n' Hid Hn]; (constructor; [cbn; intuition discriminate|]); [constructor|now apply number_nested in Hn]. Qed.
Lemma separated_nested A (sep : tok -> Prop) (P : list tok -> A -> Prop) w (l : list A) :
  (forall t, sep t -> ~ bracket t) -> (forall w' a, (List.length w' <= List.length w)%nat -> P w' a -> nested w') -> separated sep P w l -> nested w.
Proof.
  intros Hsep HP H. induction H as [w a Hw|w a t v l Hw Ht Hv IH]; [now apply (HP _ a)|].
  apply nested_app; [apply (HP _ a); [rewrite app_length; lia|exact Hw]|]. constructor; [now apply Hsep|].
  apply IH. intros w' a' Hl. apply HP. rewrite app_length. cbn. lia.
Qed.
Lemma comma_bracket t : comma t -> ~ bracket t.
Proof. intros ->. cbn. intuition discriminate. Qed.
Lemma bar_bracket t : bar t -> ~ bracket t.
Proof. intros [-> | ->]; cbn; intuition discriminate. Qed.
Lemma caret_bracket t : caret t -> ~ bracket t.
Proof. intros [-> | ->]; cbn; intuition discriminate. Qed.

Definition not_paren (rest : list tok) : Prop := match rest with [] => True | t :: _ => t_type t <> RoundBegin end.
Lemma read_plain id rest : value_name id -> not_paren rest -> parse_named_maybe_value (I id :: rest) = Ok (id, None, rest).
Proof.
  intros Hid Hr. unfold parse_named_maybe_value. cbn [take]. rewrite (value_reference id Hid). cbn [rbind fst snd].
  destruct rest as [|t r]; [reflexivity|]. cbn in Hr. now rewrite (is_other RoundBegin t Hr).
Qed.
Lemma read_number id w n rest : value_name id -> number_syntax w n ->
  parse_named_maybe_value (I id :: w ++ rest) = Ok (id, Some n, rest).
Proof.
  intros Hid Hn. unfold parse_named_maybe_value. cbn [take]. rewrite (value_reference id Hid). cbn [rbind fst snd].
  destruct Hn as [m|r Hr]; cbn [app]; change (is RoundBegin L_PAREN) with true; cbv iota.
  - reflexivity.
  - change (is NumberInt (I r)) with false. cbv iota. rewrite (value_reference r Hr). reflexivity.
Qed.
Lemma read_named_loop w l : separated comma named_syntax w l -> forall n rest, (List.length (w ++ R_BRACE :: rest) < n)%nat ->
  named_values_loop n (w ++ R_BRACE :: rest) = Ok rest.
Proof.
  induction 1 as [w a [id w' v Hid Hn]|w a t v l Hw Ht Hv IH]; intros n rest Hl.
  - destruct n as [|n]; [lia|]. cbn [named_values_loop app]. rewrite (read_number id w' v _ Hid Hn). reflexivity.
  - destruct n as [|n]; [lia|]. cbn [named_values_loop]. rewrite <- app_assoc. cbn [app].
    destruct Hw as [id w' n' Hid Hn]. cbn [app]. rewrite (read_number id w' n' _ Hid Hn). cbn [rbind fst snd].
    red in Ht. subst t. cbn [is]. change (is Comma COMMA) with true. cbv iota. apply IH.
    lens.
Qed.
Definition not_brace (rest : list tok) : Prop := match rest with [] => True | t :: _ => t_type t <> CurlyBegin end.
Lemma read_named_list w rest : named_list_syntax w -> not_brace rest -> maybe_named_values (w ++ rest) = Ok rest.
Proof.
  intros [|w' l Hl] Hr; unfold maybe_named_values.
  - cbn [app]. destruct rest as [|t r]; [reflexivity|]. cbn in Hr. now rewrite (is_other CurlyBegin t Hr).
  - cbn [app]. change (is CurlyBegin L_BRACE) with true. cbv iota. unfold parse_named_values. cbn [take].
    change (is CurlyBegin L_BRACE) with true. cbv iota. cbn [rbind snd]. rewrite <- app_assoc. cbn [app].
    apply (read_named_loop w' l Hl). lia.
Qed.
Lemma named_list_nested w : named_list_syntax w -> nested w.
Proof.
  intros [|w' l Hl]; [constructor|]. apply nested_in_braces.
  apply (separated_nested _ _ _ _ _ comma_bracket) in Hl; [exact Hl|]. intros v a _. apply named_nested.
Qed.

(* items are followed by , or } *)
Lemma read_enum_item w e rest : enum_item_syntax w e -> not_paren rest -> parse_named_maybe_value (w ++ rest) = Ok (ev_name e, ev_value e, rest).
Proof. intros [id Hid|id w' n Hid Hn] Hr; [now apply read_plain|now apply read_number]. Qed.
Lemma read_enum_items w l : enum_items_syntax w l -> forall n acc mid rest, (List.length (w ++ mid ++ rest) < n)%nat ->
  (mid = [] /\ (exists r, rest = R_BRACE :: r) \/ mid = [COMMA] /\ exists r, rest = DOTS :: r) ->
  enum_values_loop n acc (w ++ mid ++ rest) = Ok (acc ++ l, rest).
Proof.
  unfold enum_items_syntax. induction 1 as [w a Ha|w a t v l Ha Ht Hv IH]; intros n acc mid rest Hl Hm.
  - destruct n as [|n]; [lia|]. cbn [enum_values_loop].
    rewrite (read_enum_item w a (mid ++ rest) Ha) by (destruct Hm as [[-> [r ->]]|[-> [r ->]]]; cbn; discriminate).
    cbn [rbind fst snd]. destruct a as [nm vl]. cbn [ev_name ev_value].
    destruct Hm as [[-> [r ->]]|[-> [r ->]]]; reflexivity.
  - destruct n as [|n]; [lia|]. cbn [enum_values_loop]. rewrite <- app_assoc. cbn [app]. red in Ht. subst t.
    rewrite (read_enum_item w a _ Ha) by (cbn; discriminate). cbn [rbind fst snd].
    destruct a as [nm vl]. cbn [ev_name ev_value skip_if]. change (is Comma COMMA) with true. cbv iota. cbn [rbind].
    assert (Hstop : expect (fun t => is Extension t || is CurlyEnd t) (v ++ mid ++ rest) = Ok false).
    { destruct Hv as [v b Hb|v b t' v' l' Hb _ _]; destruct Hb; reflexivity. }
    rewrite Hstop. cbn [rbind]. rewrite IH; [now rewrite <- app_assoc| |exact Hm].
    lens.
Qed.
Lemma read_enumerated w b rest : builtin_syntax (K "ENUMERATED" :: w) b ->
  parse_enumerated_type (K "ENUMERATED" :: w ++ rest) = Ok (b, rest).
Proof.
  intros H. inversion H; subst; unfold parse_enumerated_type; cbn [app take];
    change (kw "ENUMERATED" (K "ENUMERATED")) with true; cbv iota; cbn [rbind snd take app];
    change (is CurlyBegin L_BRACE) with true; cbv iota; cbn [rbind snd]; unfold parse_enum_values.
  - exfalso. match goal with H : In _ _ |- _ => cbn in H; intuition discriminate end.
  - rewrite <- app_assoc. cbn [app]. rewrite (read_enum_items w0 root H1 _ [] [] (R_BRACE :: rest)); [|cbn [app]; lia|left; eauto]. reflexivity.
  - rewrite <- app_assoc. cbn [app]. change (w0 ++ COMMA :: DOTS :: R_BRACE :: rest) with (w0 ++ [COMMA] ++ DOTS :: R_BRACE :: rest).
    rewrite (read_enum_items w0 root H1 _ [] [COMMA] (DOTS :: R_BRACE :: rest)); [|cbn [app]; lia|right; eauto]. reflexivity.
  - rewrite <- app_assoc. cbn [app]. rewrite <- app_assoc. cbn [app].
    change (w0 ++ COMMA :: DOTS :: COMMA :: v ++ R_BRACE :: rest) with (w0 ++ [COMMA] ++ DOTS :: COMMA :: v ++ R_BRACE :: rest).
    rewrite (read_enum_items w0 root H1 _ [] [COMMA] (DOTS :: COMMA :: v ++ R_BRACE :: rest)); [|cbn [app]; lia|right; eauto].
    cbn [rbind fst snd expect skip_if]. change (is Extension DOTS) with true. cbv iota. cbn [rbind skip_if].
    change (is Comma COMMA) with true. cbv iota. cbn [rbind].
    rewrite (read_enum_items v ext H2 _ [] [] (R_BRACE :: rest)); [|cbn [app]; lia|left; eauto]. reflexivity.
Qed.
Lemma builtin_nested w b : builtin_syntax w b -> nested w.
Proof.
  assert (Hk : forall s, ~ bracket (K s)). { intros s. cbn. intuition discriminate. }
  assert (He : forall w l, enum_items_syntax w l -> nested w).
  { intros w' l Hl. apply (separated_nested _ _ _ _ _ comma_bracket) in Hl; [exact Hl|]. intros v a _. apply enum_item_nested. }
  intros H. destruct H; repeat (apply nest_tok; [apply Hk|]); try apply nest_nil; try now apply named_list_nested.
  - apply nested_in_braces. now apply He in H.
  - change (nested (L_BRACE :: w ++ [COMMA; DOTS] ++ [R_BRACE])). rewrite app_assoc. apply nested_in_braces. apply nested_app; [now apply He in H|].
    repeat (apply nest_tok; [cbn; intuition discriminate|]). constructor.
  - change (nested (L_BRACE :: w ++ [COMMA; DOTS; COMMA] ++ v ++ [R_BRACE])). rewrite !app_assoc. apply nested_in_braces.
    apply nested_app; [apply nested_app; [now apply He in H|]|now apply He in H0].
    repeat (apply nest_tok; [cbn; intuition discriminate|]). constructor.
Qed.

(* ------------------------------------------------------------------ *)
(* References                                                          *)
(* ------------------------------------------------------------------ *)
Lemma read_params w l : separated comma param_syntax w l -> forall n acc rest, (List.length (w ++ R_BRACE :: rest) < n)%nat ->
  actual_params_loop n acc (w ++ R_BRACE :: rest) = Ok (acc ++ l, rest).
Proof.
  assert (Hone : forall w a, param_syntax w a -> forall n acc t r, t = COMMA \/ t = R_BRACE ->
    actual_params_loop (S n) acc (w ++ t :: r) =
    (r1 <-- skip_if (is Comma) (t :: r) ;; stop <-- expect (is CurlyEnd) r1 ;;
     if stop then Ok (acc ++ [a], skipn 1 r1) else actual_params_loop n (acc ++ [a]) r1)).
  { intros w' a [t Ht|t Ht] n acc t' r Ht'; cbn in Ht; destruct t as [ty x]; cbn [t_type] in Ht.
    - cbn [app actual_params_loop expect]. destruct Ht as [<-|[<-|[]]]; destruct Ht' as [-> | ->]; reflexivity.
    - cbn [app actual_params_loop expect]. destruct Ht as [<-|[<-|[]]]; destruct Ht' as [-> | ->]; reflexivity. }
  induction 1 as [w a Ha|w a t v l Ha Ht Hv IH]; intros n acc rest Hl; (destruct n as [|n]; [lia|]).
  - rewrite (Hone w a Ha n acc R_BRACE rest) by auto. reflexivity.
  - red in Ht. subst t. rewrite <- app_assoc. cbn [app]. rewrite (Hone w a Ha n acc COMMA _) by auto. cbn [skip_if].
    change (is Comma COMMA) with true. cbv iota. cbn [rbind].
    assert (Hstop : expect (is CurlyEnd) (v ++ R_BRACE :: rest) = Ok false).
    { assert (H1 : forall v b, param_syntax v b -> exists t r, v = t :: r /\ is CurlyEnd t = false).
      { intros v0 b [t Ht|t Ht]; eexists; eexists; (split; [reflexivity|]); [|reflexivity]. apply is_other. cbn in Ht. intuition congruence. }
      destruct Hv as [v b Hb|v b t' v' l' Hb _ _]; destruct (H1 _ _ Hb) as (t & r & -> & E); cbn; now rewrite E. }
    rewrite Hstop. cbn [rbind]. rewrite IH by lens. now rewrite <- app_assoc.
Qed.
Definition not_dot (rest : list tok) : Prop := match rest with [] => True | t :: _ => t_type t <> Dot end.
Lemma expect_three_no p q s a rest : not_dot rest -> p a = true \/ p a = false ->
  match attempt (expect_all [p; is Dot; q] (I s :: rest)) with Ok (Some true) => False | Ok _ => True | _ => False end.
Proof.
  intros Hd _. unfold expect_all. destruct (Nat.ltb _ _) eqn:E; [exact Logic.I|].
  destruct rest as [|d rest]; [discriminate|]. cbn [all_match attempt]. rewrite (is_other Dot d Hd).
  cbn. now rewrite andb_false_r.
Qed.
Lemma read_name w r rest : name_syntax w r -> not_dot rest -> not_brace rest ->
  parse_referenced_type (w ++ rest) = Ok (RefName r, rest).
Proof.
  intros Hn Hd Hb. unfold parse_referenced_type. destruct Hn as [r Hr|m r Hm Hr]; cbn [app].
  - pose proof (expect_three_no is_class_reference (fun t => is_type_field t || is_value_field t) r (I r) rest Hd ltac:(destruct (is_class_reference (I r)); auto)) as H1.
    destruct (attempt (expect_all [is_class_reference; is Dot; _] (I r :: rest))) as [[[|]|]| | |]; try contradiction; cbn [rbind];
    pose proof (expect_three_no is_type_reference is_type_reference r (I r) rest Hd ltac:(destruct (is_type_reference (I r)); auto)) as H2;
    (destruct (attempt (expect_all [is_type_reference; is Dot; _] (I r :: rest))) as [[[|]|]| | |]; try contradiction); cbn [rbind fst snd];
    (destruct rest as [|t rest]; [reflexivity|]; cbn in Hb; rewrite (is_other CurlyBegin t Hb); reflexivity).
  - assert (E1 : attempt (expect_all [is_class_reference; is Dot; fun t => is_type_field t || is_value_field t] (I m :: DOT :: I r :: rest)) = Ok (Some false)).
    { unfold expect_all. cbn [Nat.ltb Nat.leb Datatypes.length all_match attempt]. change (is_type_field (I r)) with false. change (is_value_field (I r)) with false.
      cbn [orb andb]. now rewrite !andb_false_r. }
    rewrite E1. cbn [rbind].
    assert (E2 : attempt (expect_all [is_type_reference; is Dot; is_type_reference] (I m :: DOT :: I r :: rest)) = Ok (Some true)).
    { unfold expect_all. cbn [Nat.ltb Nat.leb Datatypes.length all_match attempt]. rewrite (type_reference m Hm), (type_reference r Hr). reflexivity. }
    rewrite E2. cbn [rbind fst snd firstn skipn].
    destruct rest as [|t rest]; [reflexivity|]; cbn in Hb; rewrite (is_other CurlyBegin t Hb); reflexivity.
Qed.
Lemma read_name_params w r v l rest : name_syntax w r -> separated comma param_syntax v l ->
  parse_referenced_type (w ++ L_BRACE :: v ++ R_BRACE :: rest) = Ok (RefParam r l, rest).
Proof.
  intros Hn Hv.
  assert (Hp : parse_actual_params (L_BRACE :: v ++ R_BRACE :: rest) = Ok (l, rest)).
  { unfold parse_actual_params. cbn [take]. change (is CurlyBegin L_BRACE) with true. cbv iota. cbn [rbind snd].
    rewrite (read_params v l Hv) by lia. reflexivity. }
  assert (Hl : l <> []). { destruct Hv; discriminate. }
  set (tail := L_BRACE :: v ++ R_BRACE :: rest) in *.
  assert (Hd : not_dot tail) by (cbn; discriminate).
  assert (Hhead : exists r0, tail = L_BRACE :: r0) by (eexists; reflexivity). clearbody tail. destruct Hhead as [r0 Hr0].
  unfold parse_referenced_type. destruct Hn as [r Hr|m r Hm Hr]; cbn [app].
  - pose proof (expect_three_no is_class_reference (fun t => is_type_field t || is_value_field t) r (I r) tail Hd ltac:(destruct (is_class_reference (I r)); auto)) as H1.
    destruct (attempt (expect_all [is_class_reference; is Dot; _] (I r :: tail))) as [[[|]|]| | |]; try contradiction; cbn [rbind];
    pose proof (expect_three_no is_type_reference is_type_reference r (I r) tail Hd ltac:(destruct (is_type_reference (I r)); auto)) as H2;
    (destruct (attempt (expect_all [is_type_reference; is Dot; _] (I r :: tail))) as [[[|]|]| | |]; try contradiction); cbn [rbind fst snd];
    rewrite Hp; rewrite Hr0; change (is CurlyBegin L_BRACE) with true; cbv iota; cbn [rbind fst snd t_text I]; (destruct l; [congruence|reflexivity]).
  - assert (E1 : attempt (expect_all [is_class_reference; is Dot; fun t => is_type_field t || is_value_field t] (I m :: DOT :: I r :: tail)) = Ok (Some false)).
    { unfold expect_all. cbn [Nat.ltb Nat.leb Datatypes.length all_match attempt]. change (is_type_field (I r)) with false. change (is_value_field (I r)) with false.
      cbn [orb andb]. now rewrite !andb_false_r. }
    rewrite E1. cbn [rbind].
    assert (E2 : attempt (expect_all [is_type_reference; is Dot; is_type_reference] (I m :: DOT :: I r :: tail)) = Ok (Some true)).
    { unfold expect_all. cbn [Nat.ltb Nat.leb Datatypes.length all_match attempt]. rewrite (type_reference m Hm), (type_reference r Hr). reflexivity. }
    rewrite E2. cbn [rbind fst snd firstn skipn]. rewrite Hp, Hr0. change (is CurlyBegin L_BRACE) with true. cbv iota. cbn [rbind fst snd].
    destruct l; [congruence|reflexivity].
Qed.
Lemma field_reference f : field_name f -> is_type_field (mkTok AndIdentifier f) || is_value_field (mkTok AndIdentifier f) = true.
Proof.
  destruct f as [|c [|d r]]; cbn; try contradiction.
  unfold is_type_field, is_value_field. cbn [is t_type t_text tail starts]. unfold small, capital, upper_ascii, lower_ascii.
  change (is AndIdentifier _) with true. cbn [andb]. cbv zeta. lia.
Qed.
Lemma read_reference w r rest : reference_syntax w r -> not_dot rest -> not_brace rest ->
  parse_referenced_type (w ++ rest) = Ok (r, rest).
Proof.
  intros [w' r' Hn|c f Hc Hf|w' r' v l Hn Hv] Hd Hb.
  - now apply read_name.
  - unfold parse_referenced_type. cbn [app].
    assert (E1 : attempt (expect_all [is_class_reference; is Dot; fun t => is_type_field t || is_value_field t] (I c :: DOT :: mkTok AndIdentifier f :: rest)) = Ok (Some true)).
    { unfold expect_all. cbn [Nat.ltb Nat.leb Datatypes.length all_match attempt]. rewrite (class_reference c Hc), (field_reference f Hf). reflexivity. }
    rewrite E1. reflexivity.
  - rewrite <- app_assoc. cbn [app]. rewrite <- app_assoc. cbn [app]. now apply read_name_params.
Qed.
Lemma not_bracket_other t ty : t_type t = ty -> ~ In ty [CurlyBegin; CurlyEnd; RoundBegin; RoundEnd] -> ~ bracket t.
Proof. unfold bracket. now intros ->. Qed.
Lemma name_nested w r : name_syntax w r -> nested w.
Proof. intros [r0 H|m r0 H H0]; repeat (apply nest_tok; [cbn; intuition discriminate|]); apply nest_nil. Qed.
Lemma param_nested w a : param_syntax w a -> nested w.
Proof.
  intros [t Ht|t Ht].
  - apply nested_tok. unfold bracket. cbn in *. destruct (t_type t); intuition discriminate.
  - apply (nested_in_braces [t]), nested_tok. unfold bracket. cbn in *. destruct (t_type t); intuition discriminate.
Qed.
Lemma reference_nested w r : reference_syntax w r -> nested w.
Proof.
  intros [w' r' Hn|c f Hc Hf|w' r' v l Hn Hv].
  - now apply name_nested in Hn.
  - repeat (apply nest_tok; [cbn; intuition discriminate|]); apply nest_nil.
  - apply nested_app; [now apply name_nested in Hn|]. apply nested_in_braces.
    apply (separated_nested _ _ _ _ _ comma_bracket) in Hv; [exact Hv|]. intros u a _. apply param_nested.
Qed.

(* how phrases begin *)
Lemma name_head w r : name_syntax w r -> exists s v, w = I s :: v /\ type_name s.
Proof. intros [s H|m s H H0]; eauto. Qed.
Lemma reference_head w r : reference_syntax w r -> exists s v, w = I s :: v /\ type_name s.
Proof.
  intros [w' r' Hn|c f Hc Hf|w' r' v l Hn Hv].
  - now apply name_head in Hn.
  - exists c. eexists. split; [reflexivity|]. apply Hc.
  - apply name_head in Hn. destruct Hn as (s & u & -> & Hs). exists s. eexists. split; [reflexivity|exact Hs].
Qed.
Lemma builtin_head w b : builtin_syntax w b -> exists s v, w = K s :: v /\ In s BUILTIN_TYPES.
Proof.
  intros H. destruct H; try (eexists; eexists; split; [reflexivity|cbn; tauto]).
  exists s. eexists. split; [reflexivity|]. cbn in *. intuition (subst; auto).
Qed.
Lemma kind_head w k : kind_syntax w k -> exists x v, w = x :: v /\ ((exists s, x = I s /\ type_name s) \/ (exists s, x = K s /\ In s BUILTIN_TYPES)).
Proof.
  intros H. destruct H.
  - apply builtin_head in H. destruct H as (s & v & -> & Hs). eauto 8.
  - apply reference_head in H. destruct H as (s & v & -> & Hs). eauto 8.
  - eexists; eexists; (split; [reflexivity|]). right. eexists. split; [reflexivity|cbn; tauto].
  - eexists; eexists; (split; [reflexivity|]). right. eexists. split; [reflexivity|cbn; tauto].
  - eexists; eexists; (split; [reflexivity|]). right. eexists. split; [reflexivity|cbn; tauto].
Qed.
Lemma type_head w t : type_syntax w t -> exists x v, w = x :: v /\ ((exists s, x = I s /\ type_name s) \/ (exists s, x = K s /\ In s BUILTIN_TYPES)).
Proof.
  intros H. destruct H as [w k v cs Hk Hcs|v t Ht|w c v t Hc Ht].
  - apply kind_head in Hk. destruct Hk as (x & u & -> & Hx). exists x. eexists. split; [reflexivity|exact Hx].
  - eexists; eexists; (split; [reflexivity|]). right. eexists. split; [reflexivity|cbn; tauto].
  - eexists; eexists; (split; [reflexivity|]). right. eexists. split; [reflexivity|cbn; tauto].
Qed.
Definition type_guard (t : tok) : bool := is_type_reference t || is_builtin_type t || is_class_reference t.
Lemma guard_true x : ((exists s, x = I s /\ type_name s) \/ (exists s, x = K s /\ In s BUILTIN_TYPES)) -> type_guard x = true.
Proof.
  intros [(s & -> & Hs)|(s & -> & Hs)]; unfold type_guard.
  - now rewrite (type_reference s Hs).
  - unfold is_builtin_type. cbn [t_text K]. replace (existsb (String.eqb s) BUILTIN_TYPES) with true; [now rewrite orb_true_r|].
    symmetry. apply existsb_exists. exists s. split; [exact Hs|]. apply String.eqb_refl.
Qed.
Lemma set_head w s : set_syntax w s -> exists v, w = L_PAREN :: v.
Proof. intros H. destruct H; eauto. Qed.

(* ------------------------------------------------------------------ *)
(* Every phrase is well bracketed                                      *)
(* ------------------------------------------------------------------ *)
Lemma presence_nested w o d : presence_syntax w o d -> nested w.
Proof. intros [| |v s Hv]; [apply nest_nil|apply nested_tok; cbn; intuition discriminate|]. apply nest_tok; [cbn; intuition discriminate|]. now apply value_nested in Hv. Qed.
Lemma version_nested w : version_syntax w -> nested w.
Proof. intros [|n]; repeat (apply nest_tok; [cbn; intuition discriminate|]); apply nest_nil. Qed.
Lemma dots_nested w a b : dots_syntax w a b -> nested w.
Proof. intros []; repeat (apply nest_tok; [cbn; intuition discriminate|]); apply nest_nil. Qed.
Lemma endpoint_bracket t s : endpoint_syntax t s -> ~ bracket t.
Proof. intros [t' Ht| |]; [|cbn; intuition discriminate|cbn; intuition discriminate]. unfold simple_kind, bracket in *. cbn in *. destruct (t_type t'); intuition discriminate. Qed.

Lemma all_nested : forall n,
  (forall w t, (List.length w <= n)%nat -> type_syntax w t -> nested w) /\
  (forall w c, (List.length w <= n)%nat -> constraint_syntax w c -> nested w) /\
  (forall w s, (List.length w <= n)%nat -> set_syntax w s -> nested w).
Proof.
  induction n as [|n (IHt & IHc & IHs)].
  { repeat split; intros w x Hl H; destruct w; try (cbn in Hl; lia); apply nest_nil. }
  assert (Hel : forall w e, (List.length w <= n)%nat -> element_syntax w e -> nested w).
  { intros w e Hl H. destruct H as [w v Hv|l lo w li hi_in u hi Hlo Hd Hhi|w s Hs|w s Hs|w s Hs|k w t Ht].
    - now apply value_nested in Hv.
    - apply nest_tok; [now apply endpoint_bracket in Hlo|]. apply nested_app; [now apply dots_nested in Hd|]. apply nested_tok. now apply endpoint_bracket in Hhi.
    - apply nest_tok; [cbn; intuition discriminate|]. apply (IHs _ s); [lens|exact Hs].
    - apply nest_tok; [cbn; intuition discriminate|]. apply (IHs _ s); [lens|exact Hs].
    - now apply (IHs _ s).
    - now apply (IHt _ t). }
  assert (Hun : forall w u, (List.length w <= n)%nat -> separated bar (separated caret element_syntax) w u -> nested w).
  { intros w u Hl H. apply (separated_nested _ _ _ _ _ bar_bracket) in H; [exact H|]. intros v a Hv Ha.
    apply (separated_nested _ _ _ _ _ caret_bracket) in Ha; [exact Ha|]. intros v' a' Hv' Ha'. apply (Hel v' a'); [lia|exact Ha']. }
  assert (Hset : forall w s, (List.length w <= S n)%nat -> set_syntax w s -> nested w).
  { intros w s Hl H. destruct H as [w u Hu|w u Hu|w u v a Hu Ha].
    - apply nested_in_parens. apply (Hun _ u); [lens|exact Hu].
    - change (nested (L_PAREN :: w ++ [COMMA; DOTS] ++ [R_PAREN])). rewrite app_assoc. apply nested_in_parens. apply nested_app; [apply (Hun _ u); [lens|exact Hu]|].
      repeat (apply nest_tok; [cbn; intuition discriminate|]). apply nest_nil.
    - change (nested (L_PAREN :: w ++ [COMMA; DOTS; COMMA] ++ v ++ [R_PAREN])). rewrite !app_assoc. apply nested_in_parens.
      apply nested_app; [apply nested_app; [apply (Hun _ u); [lens|exact Hu]|]|apply (Hun _ a); [lens|exact Ha]].
      repeat (apply nest_tok; [cbn; intuition discriminate|]). apply nest_nil. }
  assert (Hcon : forall w c, (List.length w <= S n)%nat -> constraint_syntax w c -> nested w).
  { intros w c Hl H. destruct H as [w s Hs|s a Hs|r Hr].
    - now apply (Hset _ s).
    - apply (nest_parens [L_BRACE; I s; R_BRACE; L_BRACE; mkTok AtComponentIdList a; R_BRACE] []); [|apply nest_nil].
      apply (nest_braces [I s] [L_BRACE; mkTok AtComponentIdList a; R_BRACE]); [apply nested_tok; cbn; intuition discriminate|].
      apply (nested_in_braces [mkTok AtComponentIdList a]). apply nested_tok. cbn. intuition discriminate.
    - apply (nested_in_parens [K "CONTAINING"; I r]). repeat (apply nest_tok; [cbn; intuition discriminate|]). apply nest_nil. }
  split; [|split; assumption].
  assert (Hcons : forall w cs, repeated constraint_syntax w cs -> (List.length w <= S n)%nat -> nested w).
  { intros w cs H. induction H as [|w a v l Hw Hv IH]; intros Hl; [apply nest_nil|]. apply nested_app; [apply (Hcon _ a); [lens|exact Hw]|apply IH; lens]. }
  assert (Hsc : forall w c, (List.length w <= S n)%nat -> seq_component_syntax w c -> nested w).
  { intros w c Hl H. destruct H as [id w t v o d Hid Ht Hp]. apply nest_tok; [cbn; intuition discriminate|].
    apply nested_app; [apply (IHt _ t); [lens|exact Ht]|now apply presence_nested in Hp]. }
  assert (Hcc : forall w c, (List.length w <= S n)%nat -> choice_component_syntax w c -> nested w).
  { intros w c Hl H. destruct H as [id w t Hid Ht]. apply nest_tok; [cbn; intuition discriminate|]. apply (IHt _ t); [lens|exact Ht]. }
  intros w t Hl H. destruct H as [w k v cs Hk Hcs|v t Ht|w c v t Hc Ht].
  - apply nested_app; [|apply (Hcons _ cs); [exact Hcs|lens]].
    destruct Hk as [w b Hb|w r Hr| |w items root groups ext Hi Hx|w items root additions Hi Hx].
    + now apply builtin_nested in Hb.
    + now apply reference_nested in Hr.
    + apply nest_tok; [cbn; intuition discriminate|]. apply (nested_in_braces []), nest_nil.
    + apply nest_tok; [cbn; intuition discriminate|]. apply nested_in_braces.
      apply (separated_nested _ _ _ _ _ comma_bracket) in Hi; [exact Hi|]. intros u i Hu Hui.
      destruct Hui as [u c Hc| |vv u l Hvv Hu2].
      * apply (Hsc _ c); [lens|exact Hc].
      * apply nested_tok. cbn. intuition discriminate.
      * apply nest_tok; [cbn; intuition discriminate|]. apply nested_app; [now apply version_nested|].
        apply nested_app; [|apply nested_tok; cbn; intuition discriminate].
        apply (separated_nested _ _ _ _ _ comma_bracket) in Hu2; [exact Hu2|]. intros u' c Hu' Hc. apply (Hsc _ c); [lens|exact Hc].
    + apply nest_tok; [cbn; intuition discriminate|]. apply nested_in_braces.
      apply (separated_nested _ _ _ _ _ comma_bracket) in Hi; [exact Hi|]. intros u i Hu Hui.
      destruct Hui as [u c Hc| |vv u l Hvv Hu2].
      * apply (Hcc _ c); [lens|exact Hc].
      * apply nested_tok. cbn. intuition discriminate.
      * apply nest_tok; [cbn; intuition discriminate|]. apply nested_app; [now apply version_nested|].
        apply nested_app; [|apply nested_tok; cbn; intuition discriminate].
        apply (separated_nested _ _ _ _ _ comma_bracket) in Hu2; [exact Hu2|]. intros u' c Hu' Hc. apply (Hcc _ c); [lens|exact Hc].
  - repeat (apply nest_tok; [cbn; intuition discriminate|]). apply (IHt _ t); [lens|exact Ht].
  - apply nest_tok; [cbn; intuition discriminate|]. apply nested_app; [apply (Hcon _ c); [lens|exact Hc]|].
    apply nest_tok; [cbn; intuition discriminate|]. apply (IHt _ t); [lens|exact Ht].
Qed.
Lemma set_nested w s : set_syntax w s -> nested w.
Proof. apply (all_nested (List.length w)). lia. Qed.
Lemma type_nested w t : type_syntax w t -> nested w.
Proof. apply (all_nested (List.length w)). lia. Qed.
Lemma element_nested w e : element_syntax w e -> nested w.
Proof.
  intros H. destruct H as [w v Hv|l lo w li hi_in u hi Hlo Hd Hhi|w s Hs|w s Hs|w s Hs|k w t Ht].
  - now apply value_nested in Hv.
  - apply nest_tok; [now apply endpoint_bracket in Hlo|]. apply nested_app; [now apply dots_nested in Hd|]. apply nested_tok. now apply endpoint_bracket in Hhi.
  - apply nest_tok; [cbn; intuition discriminate|]. now apply set_nested in Hs.
  - apply nest_tok; [cbn; intuition discriminate|]. now apply set_nested in Hs.
  - now apply set_nested in Hs.
  - now apply type_nested in Ht.
Qed.
Lemma union_nested w u : separated bar (separated caret element_syntax) w u -> nested w.
Proof.
  intros H. apply (separated_nested _ _ _ _ _ bar_bracket) in H; [exact H|]. intros v a _ Ha.
  apply (separated_nested _ _ _ _ _ caret_bracket) in Ha; [exact Ha|]. intros v' a' _ Ha'. now apply element_nested in Ha'.
Qed.
Lemma set_parens w s : set_syntax w s -> exists v, w = L_PAREN :: v ++ [R_PAREN] /\ nested v.
Proof.
  intros [w' u Hu|w' u Hu|w' u v a Hu Ha].
  - exists w'. split; [reflexivity|]. now apply union_nested in Hu.
  - exists (w' ++ [COMMA; DOTS]). split; [now rewrite <- app_assoc|]. apply nested_app; [now apply union_nested in Hu|].
    repeat (apply nest_tok; [cbn; intuition discriminate|]). apply nest_nil.
  - exists (w' ++ COMMA :: DOTS :: COMMA :: v). split.
    { cbn [app]. now rewrite <- app_assoc. }
    apply nested_app; [now apply union_nested in Hu|].
    repeat (apply nest_tok; [cbn; intuition discriminate|]). now apply union_nested in Ha.
Qed.
Lemma set_as_value w s rest : set_syntax w s -> exists v, parse_value (w ++ rest) = Ok (v, rest).
Proof.
  intros H. destruct (set_parens w s H) as (v & -> & Hv). destruct (read_parens v rest Hv) as [x Hx].
  exists x. cbn [app]. rewrite <- app_assoc. cbn [app]. unfold parse_value. exact Hx.
Qed.

(* ------------------------------------------------------------------ *)
(* Types and constraints                                               *)
(* ------------------------------------------------------------------ *)
Definition after_element (t : tok) : Prop := t = R_PAREN \/ t = COMMA \/ bar t \/ caret t.
Definition after_component (t : tok) : Prop := t = COMMA \/ t = R_BRACE \/ t = R_GROUP.

Section Step.
Context (N : nat) (rt : list tok -> res (asn_type * list tok)) (rs : list tok -> res (element_set * list tok)).
Context (Ht : forall w t rest, type_syntax w t -> follows_type rest -> (List.length (w ++ rest) < N)%nat -> rt (w ++ rest) = Ok (t, rest)).
Context (Hs : forall w s rest, set_syntax w s -> (List.length (w ++ rest) < N)%nat -> rs (w ++ rest) = Ok (s, rest)).
Context (Ht_no : forall t r, (List.length (t :: r) < N)%nat -> type_guard t = false -> rt (t :: r) = Err).
Context (Hs_no : forall rest, (List.length rest < N)%nat -> not_paren rest -> rs rest = Err).
Context (Hs_table : forall s a rest, type_name s ->
  (List.length ([L_PAREN; L_BRACE; I s; R_BRACE; L_BRACE; mkTok AtComponentIdList a; R_BRACE; R_PAREN] ++ rest) < N)%nat ->
  rs ([L_PAREN; L_BRACE; I s; R_BRACE; L_BRACE; mkTok AtComponentIdList a; R_BRACE; R_PAREN] ++ rest) = Err).
Context (Hs_containing : forall r rest,
  (List.length ([L_PAREN; K "CONTAINING"; I r; R_PAREN] ++ rest) < N)%nat ->
  rs ([L_PAREN; K "CONTAINING"; I r; R_PAREN] ++ rest) = Err).

Lemma read_endpoint t s rest : endpoint_syntax t s -> parse_end_value (t :: rest) = Ok (s, rest).
Proof. intros [t' H| |]; [|reflexivity|reflexivity]. unfold parse_end_value. now rewrite (simple_value t' rest H). Qed.
Lemma not_size_from t : t_type t <> Keyword -> kw "SIZE" t || kw "FROM" t = false.
Proof. intros H. now rewrite !kw_other. Qed.

Lemma endpoint_not_size l lo : endpoint_syntax l lo -> kw "SIZE" l || kw "FROM" l = false.
Proof.
  intros [t' H| |]; [|reflexivity|reflexivity]. apply not_size_from. unfold simple_kind in H. cbn in H. destruct (t_type t'); intuition discriminate.
Qed.
Lemma value_head w v : value_syntax w v -> exists t r, w = t :: r /\ t_type t <> Keyword /\ is RoundBegin t = false.
Proof.
  intros [t H|w' Hw].
  - exists t, []. split; [reflexivity|]. unfold simple_kind in H. cbn in H. split; [|apply is_other]; destruct (t_type t); intuition discriminate.
  - eexists; eexists; (split; [reflexivity|]). split; [discriminate|reflexivity].
Qed.
Lemma parse_value_keyword k r : parse_value (K k :: r) = Err.
Proof. reflexivity. Qed.
Lemma after_element_no t : after_element t -> is LessThan t || is RangeSeparator t = false.
Proof. intros [->|[->|[[-> | ->]|[-> | ->]]]]; reflexivity. Qed.
Lemma after_element_type t r : after_element t -> follows_type (t :: r).
Proof. intros [->|[->|[[-> | ->]|[-> | ->]]]]; cbn; intuition discriminate. Qed.

Lemma read_element w e t r : element_syntax w e -> after_element t -> (List.length (w ++ t :: r) < N)%nat ->
  parse_intersection_set rt rs (w ++ t :: r) = Ok (e, t :: r).
Proof.
  intros He Hf Hl. unfold parse_intersection_set. cbv zeta.
  destruct He as [w v Hv|l lo w li hi_in u hi Hlo Hd Hhi|w s Hset|w s Hset|w s Hset|k w ty Hty].
  - destruct (value_head w v Hv) as (t0 & r0 & -> & Hk & Hr). pose proof (read_value _ v (t :: r) Hv) as E. cbn [app] in *.
    cbn [expect rbind]. rewrite (not_size_from t0 Hk). cbn [rbind].
    unfold parse_range_elements, parse_end_value. rewrite E. cbn [attempt rbind fst snd expect]. rewrite (after_element_no t Hf). cbn [attempt rbind].
    rewrite Hr. reflexivity.
  - cbn [app expect rbind]. rewrite (endpoint_not_size l lo Hlo). cbn [rbind].
    unfold parse_range_elements. rewrite (read_endpoint l lo _ Hlo). cbn [rbind fst snd].
    assert (Hu : parse_end_value (u :: t :: r) = Ok (hi, t :: r)) by now apply read_endpoint.
    assert (Hul : is LessThan u = false).
    { destruct Hhi as [t' H| |]; [|reflexivity|reflexivity]. apply is_other. unfold simple_kind in H. cbn in H. destruct (t_type t'); intuition discriminate. }
    destruct Hd; cbn [app expect rbind];
      repeat match goal with |- context [is ?a LESS] => change (is a LESS) with (token_type_beq LessThan a)
                           | |- context [is ?a DOTDOT] => change (is a DOTDOT) with (token_type_beq RangeSeparator a) end;
      cbn [token_type_beq orb rbind slice_from Nat.ltb Nat.leb Datatypes.length skipn expect]; rewrite ?Hul; cbn [token_type_beq rbind skipn];
      repeat match goal with |- context [is ?a LESS] => change (is a LESS) with (token_type_beq LessThan a)
                           | |- context [is ?a DOTDOT] => change (is a DOTDOT) with (token_type_beq RangeSeparator a) end;
      cbn [token_type_beq rbind skipn]; rewrite Hu; reflexivity.
  - cbn [app expect rbind]. change (kw "SIZE" (K "SIZE")) with true. cbn [orb skipn].
    destruct (set_head w s Hset) as [v Hv]. rewrite Hv at 1. cbn [app expect rbind]. change (is RoundBegin L_PAREN) with true. cbv iota.
    rewrite (Hs w s _ Hset) by lens. reflexivity.
  - cbn [app expect rbind]. change (kw "SIZE" (K "FROM")) with false. change (kw "FROM" (K "FROM")) with true. cbn [orb skipn].
    destruct (set_head w s Hset) as [v Hv]. rewrite Hv at 1. cbn [app expect rbind]. change (is RoundBegin L_PAREN) with true. cbv iota.
    rewrite (Hs w s _ Hset) by lens. reflexivity.
  - destruct (set_as_value w s (t :: r) Hset) as [x Hx].
    assert (Hw : exists v, w ++ t :: r = L_PAREN :: v). { destruct (set_head w s Hset) as [v ->]. eexists. reflexivity. }
    destruct Hw as [v Hw].
    assert (Hres : rs (w ++ t :: r) = Ok (s, t :: r)) by now apply Hs.
    rewrite Hw in *. cbn [expect rbind]. change (kw "SIZE" L_PAREN) with false. change (kw "FROM" L_PAREN) with false. cbn [orb rbind].
    unfold parse_range_elements, parse_end_value. rewrite Hx. cbn [attempt rbind fst snd expect]. rewrite (after_element_no t Hf). cbn [attempt rbind].
    change (is RoundBegin L_PAREN) with true. cbv iota. rewrite Hres. reflexivity.
  - assert (Hk : In k BUILTIN_TYPES).
    { destruct (type_head _ _ Hty) as (x & v & E & [(s & -> & _)|(s & -> & Hin)]); injection E as E1 E2; [discriminate|]. now subst. }
    assert (Hno : kw "SIZE" (K k) = false /\ kw "FROM" (K k) = false /\ kw "MIN" (K k) = false /\ kw "MAX" (K k) = false).
    { cbn in Hk. repeat (destruct Hk as [<-|Hk]; [repeat split; reflexivity|]). contradiction. }
    destruct Hno as (H1 & H2 & H3 & H4).
    pose proof (Ht (K k :: w) ty (t :: r) Hty (after_element_type t r Hf) Hl) as E. cbn [app] in *.
    cbn [expect rbind]. rewrite H1, H2. cbn [orb rbind].
    unfold parse_range_elements, parse_end_value. rewrite parse_value_keyword. cbn [attempt rbind take]. rewrite H3, H4. cbn [orb attempt rbind].
    change (is RoundBegin (K k)) with false. cbv iota. cbn [attempt rbind]. rewrite E. reflexivity.
Qed.
Lemma no_element t r : (List.length (t :: r) < N)%nat -> (t = R_PAREN \/ t = K "CONTAINING") ->
  parse_intersection_set rt rs (t :: r) = Err.
Proof.
  intros Hl Hx. unfold parse_intersection_set. cbv zeta.
  assert (Hr : rt (t :: r) = Err). { apply Ht_no; [exact Hl|]. destruct Hx as [-> | ->]; reflexivity. }
  cbn [expect rbind]. destruct Hx as [-> | ->]; cbn [kw is t_type t_text]; cbn -[parse_range_elements]; rewrite Hr; reflexivity.
Qed.
Lemma read_intersection w l : separated caret element_syntax w l -> forall n ex acc t r,
  (t = R_PAREN \/ t = COMMA \/ bar t) -> (List.length (w ++ t :: r) < N)%nat -> (List.length (w ++ t :: r) < n)%nat ->
  intersection_loop rt rs n ex acc (w ++ t :: r) = Ok (acc ++ l, t :: r).
Proof.
  induction 1 as [w a Ha|w a t' v l Ha Ht' Hv IH]; intros n ex acc t r Hx HN Hn; (destruct n as [|n]; [lia|]); cbn [intersection_loop].
  - rewrite (read_element w a t r Ha) by (unfold after_element; tauto || exact HN). cbn [attempt rbind fst snd expect].
    replace (is_intersection t) with false; [reflexivity|]. symmetry. destruct Hx as [->|[->|[-> | ->]]]; reflexivity.
  - rewrite <- app_assoc in *. cbn [app] in *. rewrite (read_element w a t' (v ++ t :: r) Ha) by (unfold after_element; tauto || exact HN).
    cbn [attempt rbind fst snd expect].
    replace (is_intersection t') with true; [|symmetry; destruct Ht' as [-> | ->]; reflexivity]. cbn [skipn].
    rewrite IH; [now rewrite <- app_assoc|exact Hx|lens|lens].
Qed.
Lemma read_union w u : separated bar (separated caret element_syntax) w u -> forall n acc t r,
  (t = R_PAREN \/ t = COMMA) -> (List.length (w ++ t :: r) < N)%nat -> (List.length (w ++ t :: r) < n)%nat ->
  union_loop rt rs n acc (w ++ t :: r) = Ok (acc ++ u, t :: r).
Proof.
  assert (Hne : forall w l, separated caret element_syntax w l -> l <> []) by (intros w' l' []; discriminate).
  induction 1 as [w a Ha|w a t' v l Ha Ht' Hv IH]; intros n acc t r Hx HN Hn; (destruct n as [|n]; [lia|]); cbn [union_loop].
  - rewrite (read_intersection w a Ha) by (tauto || lia). cbn [app rbind fst snd expect].
    pose proof (Hne _ _ Ha) as Hna. destruct a as [|a0 a]; [congruence|].
    replace (is_union t) with false; [reflexivity|]. symmetry. destruct Hx as [-> | ->]; reflexivity.
  - rewrite <- app_assoc in *. cbn [app] in *. rewrite (read_intersection w a Ha) by (tauto || lia).
    cbn [app rbind fst snd expect]. pose proof (Hne _ _ Ha) as Hna. destruct a as [|a0 a]; [congruence|].
    replace (is_union t') with true; [|symmetry; destruct Ht' as [-> | ->]; reflexivity]. cbn [skipn].
    rewrite IH; [now rewrite <- app_assoc|exact Hx|lens|lens].
Qed.
Lemma no_union t r : (List.length (t :: r) < N)%nat -> (t = R_PAREN \/ t = K "CONTAINING") ->
  parse_union_set rt rs (t :: r) = Ok ([], t :: r).
Proof.
  intros Hl Hx. unfold parse_union_set. cbn [union_loop]. cbn [intersection_loop]. rewrite (no_element t r Hl Hx).
  cbn [attempt rbind fst snd expect].
  replace (is_intersection t) with false by (symmetry; destruct Hx as [-> | ->]; reflexivity). cbn [rbind fst snd expect].
  replace (is_union t) with false by (symmetry; destruct Hx as [-> | ->]; reflexivity). reflexivity.
Qed.
Lemma read_set w s rest : set_syntax w s -> (List.length (w ++ rest) <= N)%nat ->
  element_set_step rt rs (w ++ rest) = Ok (s, rest).
Proof.
  intros H Hl. unfold element_set_step.
  destruct H as [w u Hu|w u Hu|w u v a Hu Ha]; cbn [app take]; change (is RoundBegin L_PAREN) with true; cbv iota; cbn [rbind snd];
    rewrite <- ?app_assoc; cbn [app]; rewrite <- ?app_assoc; cbn [app]; unfold parse_union_set;
    assert (Hne : u <> []) by (destruct Hu; discriminate); rewrite (read_union w u Hu) by (tauto || lens); cbn [app rbind fst snd];
    (destruct u as [|u0 u]; [congruence|]); cbn [expect rbind].
  - reflexivity.
  - change (is Comma COMMA) with true. cbv iota. cbn [skipn take]. change (is Extension DOTS) with true. cbv iota. cbn [rbind snd skip_if].
    change (is Comma R_PAREN) with false. cbv iota. cbn [rbind].
    pose proof (no_union R_PAREN rest) as E. unfold parse_union_set in E. rewrite E by (tauto || lens). reflexivity.
  - change (is Comma COMMA) with true. cbv iota. cbn [skipn take]. change (is Extension DOTS) with true. cbv iota. cbn [rbind snd skip_if].
    change (is Comma COMMA) with true. cbv iota. cbn [rbind].
    rewrite (read_union v a Ha) by (tauto || lens). reflexivity.
Qed.
Lemma read_constraint w c rest : constraint_syntax w c -> (List.length (w ++ rest) < N)%nat ->
  parse_constraint rs (w ++ rest) = Ok (c, rest).
Proof.
  intros H Hl. unfold parse_constraint. destruct H as [w s Hset|s a Hn|r Hn].
  - rewrite (Hs w s rest Hset Hl). reflexivity.
  - rewrite (Hs_table s a rest Hn Hl). cbn [attempt rbind]. unfold parse_table_constraint. cbn [app take].
    change (is RoundBegin L_PAREN) with true. cbv iota. cbn [rbind snd].
    unfold expect_all. cbn [Datatypes.length Nat.ltb Nat.leb all_match]. rewrite (type_reference s Hn). reflexivity.
  - rewrite (Hs_containing r rest Hl). cbn [attempt rbind app]. unfold parse_table_constraint, parse_contents_constraint. cbn [take].
    change (is RoundBegin L_PAREN) with true. cbv iota. cbn [rbind snd].
    assert (E : attempt (b <-- expect_all [is CurlyBegin; is_type_reference; is CurlyEnd] (K "CONTAINING" :: I r :: R_PAREN :: rest) ;;
      match b, K "CONTAINING" :: I r :: R_PAREN :: rest with
      | true, _ :: s :: _ :: r => c <-- attempt (expect_all [is CurlyBegin; is AtComponentIdList; is CurlyEnd] r) ;;
         match c, r with
         | Some true, _ :: a :: _ :: r' => y <-- take (is RoundEnd) r' ;; Ok (CTable (TableRelation (t_text s) (t_text a)), snd y)
         | _, _ => y <-- take (is RoundEnd) r ;; Ok (CTable (TableSimple (t_text s)), snd y)
         end
      | _, _ => Err
      end) = Ok None) by reflexivity.
    rewrite E. cbn [rbind]. cbn [take]. change (kw "CONTAINING" (K "CONTAINING")) with true. cbv iota. cbn [rbind snd take].
    rewrite (type_reference r Hn). reflexivity.
Qed.
Lemma no_constraint rest : not_paren rest -> (List.length rest < N)%nat -> parse_constraint rs rest = Err.
Proof.
  intros Hp Hl. unfold parse_constraint. rewrite (Hs_no rest Hl Hp). cbn [attempt rbind].
  unfold parse_table_constraint, parse_contents_constraint. destruct rest as [|t r]; [reflexivity|].
  cbn [take]. cbn in Hp. now rewrite (is_other RoundBegin t Hp).
Qed.
Lemma read_constraints w cs : repeated constraint_syntax w cs -> forall n acc rest, not_paren rest ->
  (List.length (w ++ rest) < N)%nat -> (List.length (w ++ rest) < n)%nat ->
  constraints_loop rs n acc (w ++ rest) = Ok (acc ++ cs, rest).
Proof.
  induction 1 as [|w a v l Ha Hv IH]; intros n acc rest Hp HN Hn; (destruct n as [|n]; [lia|]); cbn [constraints_loop].
  - cbn [app] in *. rewrite (no_constraint rest Hp HN). cbn. now rewrite app_nil_r.
  - rewrite <- app_assoc in *. rewrite (read_constraint w a _ Ha HN). cbn [attempt rbind fst snd].
    assert (Hw : (1 <= List.length w)%nat). { destruct Ha as [w s Hset| |]; [destruct (set_head w s Hset) as [? ->]|..]; cbn; lia. }
    rewrite IH; [now rewrite <- app_assoc|exact Hp|lens|lens].
Qed.

(* ------------------------------------------------------------------ *)
(* SEQUENCE                                                            *)
(* ------------------------------------------------------------------ *)
Lemma after_component_type t r : after_component t -> follows_type (t :: r).
Proof. intros [->|[-> | ->]]; cbn; intuition discriminate. Qed.
Lemma read_seq_component w c t r : seq_component_syntax w c -> after_component t -> (List.length (w ++ t :: r) <= N)%nat ->
  parse_seq_component rt (w ++ t :: r) = Ok (Some c, t :: r).
Proof.
  intros H Hx Hl. destruct H as [id w ty v o d Hid Hty Hp]. unfold parse_seq_component, parse_component. cbn [app take].
  rewrite (value_reference id Hid). cbn [rbind fst snd]. rewrite <- app_assoc.
  assert (Hf : follows_type (v ++ t :: r)). { destruct Hp; [now apply after_component_type|cbn; intuition discriminate ..]. }
  rewrite (Ht w ty _ Hty Hf) by lens. cbn [rbind attempt fst snd].
  destruct Hp as [| |w' s Hv].
  - cbn [app expect rbind skip_if]. destruct Hx as [->|[-> | ->]]; reflexivity.
  - cbn [app expect rbind skip_if]. change (kw "OPTIONAL" (K "OPTIONAL")) with true. cbv iota. cbn [rbind expect].
    destruct Hx as [->|[-> | ->]]; reflexivity.
  - cbn [app expect rbind skip_if]. change (kw "OPTIONAL" (K "DEFAULT")) with false. cbv iota. cbn [rbind expect].
    change (kw "DEFAULT" (K "DEFAULT")) with true. cbv iota. cbn [skipn rbind]. rewrite (read_value w' s _ Hv). reflexivity.
Qed.
Lemma no_component t r : is_value_reference t = false -> parse_component rt (t :: r) = Err.
Proof. intros H. unfold parse_component. cbn [take]. now rewrite H. Qed.
Lemma no_seq_component t r : is_value_reference t = false -> parse_seq_component rt (t :: r) = Ok (None, t :: r).
Proof. intros H. unfold parse_seq_component. now rewrite (no_component t r H). Qed.
Lemma read_version v ts : version_syntax v -> (exists id r, ts = I id :: r) -> skip_version (v ++ ts) = Ok ts.
Proof. intros [|n] (id & r & ->); reflexivity. Qed.
Lemma seq_component_head w c : seq_component_syntax w c -> exists id r, w = I id :: r /\ value_name id.
Proof. intros [id w' t v o d H _ _]. eauto. Qed.
Lemma choice_component_head w c : choice_component_syntax w c -> exists id r, w = I id :: r /\ value_name id.
Proof. intros [id w' t H _]. eauto. Qed.
Lemma separated_head A (P : list tok -> A -> Prop) (sep : tok -> Prop) w l (Q : tok -> Prop) :
  (forall v a, P v a -> exists t r, v = t :: r /\ Q t) -> separated sep P w l -> exists t r, w = t :: r /\ Q t.
Proof.
  intros HP [v a Ha|v a t u l' Ha _ _]; destruct (HP _ _ Ha) as (t0 & r & -> & Hq); exists t0; eexists; (split; [reflexivity|exact Hq]).
Qed.
Lemma read_seq_group_loop w l : separated comma seq_component_syntax w l -> forall n acc r,
  (List.length (w ++ R_GROUP :: r) <= N)%nat -> (List.length (w ++ R_GROUP :: r) < n)%nat ->
  seq_group_loop rt n acc (w ++ R_GROUP :: r) = Ok (acc ++ l, R_GROUP :: r).
Proof.
  induction 1 as [w a Ha|w a t v l Ha Ht' Hv IH]; intros n acc r HN Hn; (destruct n as [|n]; [lia|]); cbn [seq_group_loop].
  - rewrite (read_seq_component w a R_GROUP r Ha) by (unfold after_component; tauto || exact HN). cbn [rbind fst snd skip_if].
    change (is Comma R_GROUP) with false. cbv iota. cbn [rbind].
    assert (Hn' : (1 <= List.length w)%nat). { destruct (seq_component_head w a Ha) as (id & r' & -> & _). cbn. lia. }
    destruct n as [|n]; [lens|]. cbn [seq_group_loop]. rewrite no_seq_component by reflexivity. reflexivity.
  - red in Ht'. subst t. rewrite <- app_assoc in *. cbn [app] in *.
    rewrite (read_seq_component w a COMMA _ Ha) by (unfold after_component; tauto || exact HN). cbn [rbind fst snd skip_if].
    change (is Comma COMMA) with true. cbv iota. cbn [rbind]. rewrite IH; [now rewrite <- app_assoc|lens|lens].
Qed.
Lemma read_seq_group v w l r : version_syntax v -> separated comma seq_component_syntax w l ->
  (List.length (L_GROUP :: v ++ w ++ R_GROUP :: r) <= N)%nat ->
  parse_seq_addition_group rt (L_GROUP :: v ++ w ++ R_GROUP :: r) = Ok (l, r).
Proof.
  intros Hv Hw Hl. unfold parse_seq_addition_group. cbn [take]. change (is AdditionGroupsBegin L_GROUP) with true. cbv iota. cbn [rbind snd].
  rewrite (read_version v _ Hv).
  2:{ destruct (separated_head _ _ _ w l (fun t => exists id, t = I id) ltac:(intros u c Hc; destruct (seq_component_head u c Hc) as (id & r' & -> & _); eauto) Hw) as (t & r' & -> & id & ->). eexists; eexists; reflexivity. }
  cbn [rbind]. rewrite (read_seq_group_loop w l Hw) by lens. cbn [app rbind fst snd].
  destruct l; [inversion Hw|]. reflexivity.
Qed.
(* the part of a turn after a component or group *)
Definition seq_tail (n : nat) (root : list seq_component) (additions : list (list seq_component)) (markers : nat) (ts : list tok) :=
  ts <-- skip_if (is Comma) ts ;;
  m <-- expect (is Extension) ts ;;
  ts <-- (if m then skip_if (is Comma) (skipn 1 ts) else Ok ts) ;;
  let markers := if m then S markers else markers in
  stop <-- expect (is CurlyEnd) ts ;;
  if stop then Ok (root, additions, markers, skipn 1 ts) else sequence_loop rt n root additions markers ts.
Lemma loop_component n root additions markers w c t r : seq_component_syntax w c -> t = COMMA \/ t = R_BRACE ->
  (List.length (w ++ t :: r) <= N)%nat ->
  sequence_loop rt (S n) root additions markers (w ++ t :: r) = seq_tail n (root ++ [c]) additions markers (t :: r).
Proof.
  intros Hc Hx Hl. cbn [sequence_loop]. rewrite (read_seq_component w c t r Hc) by (unfold after_component; tauto || exact Hl).
  cbn [attempt rbind expect]. replace (is AdditionGroupsBegin t) with false by (symmetry; destruct Hx as [-> | ->]; reflexivity). reflexivity.
Qed.
Lemma loop_group n root additions v w l t r : version_syntax v -> separated comma seq_component_syntax w l -> t = COMMA \/ t = R_BRACE ->
  (List.length (L_GROUP :: v ++ w ++ R_GROUP :: t :: r) <= N)%nat ->
  sequence_loop rt (S n) root additions 1 (L_GROUP :: v ++ w ++ R_GROUP :: t :: r) = seq_tail n root (additions ++ [l]) 1 (t :: r).
Proof.
  intros Hv Hw Hx Hl. cbn [sequence_loop]. rewrite no_seq_component by reflexivity. cbn [attempt rbind expect].
  change (is AdditionGroupsBegin L_GROUP) with true. cbv iota. cbn [Nat.eqb]. rewrite (read_seq_group v w l (t :: r) Hv Hw Hl). reflexivity.
Qed.
Lemma loop_marker n root additions markers r :
  sequence_loop rt (S n) root additions markers (DOTS :: r) = seq_tail n root additions markers (DOTS :: r).
Proof. cbn [sequence_loop]. rewrite no_seq_component by reflexivity. reflexivity. Qed.
Lemma tail_end n root additions markers r : seq_tail n root additions markers (R_BRACE :: r) = Ok (root, additions, markers, r).
Proof. reflexivity. Qed.
Lemma tail_marker_end n root additions markers r : seq_tail n root additions markers (DOTS :: R_BRACE :: r) = Ok (root, additions, S markers, r).
Proof. reflexivity. Qed.
Lemma tail_comma n root additions markers ts : (exists t r, ts = t :: r /\ is Comma t = false) ->
  seq_tail n root additions markers (COMMA :: ts) = seq_tail n root additions markers ts.
Proof. intros (t & r & -> & E). unfold seq_tail. cbn [skip_if]. change (is Comma COMMA) with true. cbv iota. now rewrite E. Qed.
Lemma tail_other n root additions markers t r : is Comma t = false -> is Extension t = false -> is CurlyEnd t = false ->
  seq_tail n root additions markers (t :: r) = sequence_loop rt n root additions markers (t :: r).
Proof. intros H1 H2 H3. unfold seq_tail. cbn [skip_if]. rewrite H1. cbn [rbind expect]. rewrite H2. cbn [rbind expect]. now rewrite H3. Qed.
Lemma tail_marker n root additions markers t r : is CurlyEnd t = false ->
  seq_tail n root additions markers (DOTS :: COMMA :: t :: r) = sequence_loop rt n root additions (S markers) (t :: r).
Proof. intros H. unfold seq_tail. cbn. now rewrite H. Qed.
Fixpoint items_ok (m : nat) (items : list (item seq_component)) : Prop :=
  match items with
  | [] => True
  | Component _ :: l => items_ok m l
  | Marker :: l => items_ok (S m) l
  | Group _ :: l => m = 1%nat /\ items_ok m l
  end.
Fixpoint items_run (root : list seq_component) (additions : list (list seq_component)) (m : nat) (items : list (item seq_component)) :=
  match items with
  | [] => (root, additions, m)
  | Component c :: l => items_run (root ++ [c]) additions m l
  | Marker :: l => items_run root additions (S m) l
  | Group g :: l => items_run root (additions ++ [g]) m l
  end.
Lemma seq_item_head w i : seq_item_syntax w i -> exists t r, w = t :: r /\ is Comma t = false /\ is CurlyEnd t = false.
Proof.
  intros [w' c Hc| |v w' l Hv Hw]; [destruct (seq_component_head _ _ Hc) as (id & r & -> & _)|..];
    eexists; eexists; (split; [reflexivity|]); split; reflexivity.
Qed.
Lemma seq_items_head w l : separated comma seq_item_syntax w l -> exists t r, w = t :: r /\ is Comma t = false /\ is CurlyEnd t = false.
Proof. intros H. exact (separated_head _ _ _ w l _ seq_item_head H). Qed.
Lemma seq_item_not_dots w i : seq_item_syntax w i -> i <> Marker -> exists t r, w = t :: r /\ is Comma t = false /\ is Extension t = false /\ is CurlyEnd t = false.
Proof.
  intros [w' c Hc| |v w' l Hv Hw] Hm; [destruct (seq_component_head _ _ Hc) as (id & r & -> & _)|congruence|];
    eexists; eexists; (split; [reflexivity|]); repeat split; reflexivity.
Qed.
Lemma read_seq_items w items : separated comma seq_item_syntax w items -> forall n root additions m r,
  items_ok m items -> (List.length (w ++ R_BRACE :: r) <= N)%nat -> (List.length (w ++ R_BRACE :: r) < n)%nat ->
  let '(root', additions', m') := items_run root additions m items in
  sequence_loop rt n root additions m (w ++ R_BRACE :: r) = Ok (root', additions', m', r) /\
  seq_tail n root additions m (w ++ R_BRACE :: r) = Ok (root', additions', m', r).
Proof.
  induction 1 as [w i Hi|w i t v l Hi Ht' Hv IH]; intros n root additions m r Hok HN Hn.
  - (* the last item *)
    assert (Hloop : forall n, (List.length (w ++ R_BRACE :: r) < n)%nat ->
      let '(root', additions', m') := items_run root additions m [i] in
      sequence_loop rt n root additions m (w ++ R_BRACE :: r) = Ok (root', additions', m', r)).
    { clear n Hn. intros n Hn. destruct n as [|n]; [lia|]. destruct Hi as [w' c Hc| |v w' l Hv Hw]; cbn [items_run].
      - rewrite (loop_component n root additions m w' c R_BRACE r Hc) by (auto || exact HN). apply tail_end.
      - cbn [app]. rewrite loop_marker. apply tail_marker_end.
      - destruct Hok as [-> _]. cbn [app]. rewrite <- !app_assoc. cbn [app].
        rewrite (loop_group n root additions v w' l R_BRACE r Hv Hw) by (auto || (cbn [app] in HN; rewrite <- !app_assoc in HN; exact HN)).
        apply tail_end. }
    specialize (Hloop n Hn). destruct (items_run root additions m [i]) as [[root' additions'] m'] eqn:E. split; [exact Hloop|].
    assert (Hm : i = Marker \/ i <> Marker) by (destruct i; (now left) || (right; discriminate)). destruct Hm as [-> |Hm].
    + inversion Hi; subst. cbn [app]. rewrite tail_marker_end. cbn in E. now injection E as <- <- <-.
    + destruct (seq_item_not_dots w i Hi Hm) as (t0 & r0 & Hw & H1 & H2 & H3).
      rewrite Hw in *. cbn [app] in *. now rewrite tail_other.
  - red in Ht'. subst t. rewrite <- app_assoc in *. cbn [app] in *.
    destruct (seq_items_head v l Hv) as (tv & rv & Hve & Hv1 & Hv2).
    assert (Hcom : forall n root additions m, seq_tail n root additions m (COMMA :: v ++ R_BRACE :: r) = seq_tail n root additions m (v ++ R_BRACE :: r)).
    { intros. apply tail_comma. rewrite Hve. cbn [app]. eauto. }
    assert (Hmark : forall n, (List.length (v ++ R_BRACE :: r) < n)%nat -> i = Marker ->
      let '(root', additions', m') := items_run root additions m (i :: l) in
      seq_tail n root additions m (DOTS :: COMMA :: v ++ R_BRACE :: r) = Ok (root', additions', m', r)).
    { intros k Hk ->. specialize (IH k root additions (S m) r Hok ltac:(lens) Hk). cbn [items_run].
      destruct (items_run root additions (S m) l) as [[root' additions'] m']. destruct IH as [IH _].
      rewrite Hve in *. cbn [app] in *. now rewrite tail_marker. }
    assert (Hloop : forall n, (List.length (w ++ COMMA :: v ++ R_BRACE :: r) < n)%nat ->
      let '(root', additions', m') := items_run root additions m (i :: l) in
      sequence_loop rt n root additions m (w ++ COMMA :: v ++ R_BRACE :: r) = Ok (root', additions', m', r)).
    { intros k Hk. destruct k as [|k]; [lia|]. destruct Hi as [w' c Hc| |vv w' g Hvv Hw]; cbn [items_run].
      - specialize (IH k (root ++ [c]) additions m r Hok ltac:(lens) ltac:(lens)).
        destruct (items_run (root ++ [c]) additions m l) as [[root' additions'] m']. destruct IH as [_ IH].
        rewrite (loop_component k root additions m w' c COMMA _ Hc) by (auto || exact HN). now rewrite Hcom.
      - specialize (Hmark k ltac:(lens) eq_refl). cbn [items_run] in Hmark. cbn [app]. now rewrite loop_marker.
      - destruct Hok as [-> Hok]. specialize (IH k root (additions ++ [g]) 1%nat r Hok ltac:(lens) ltac:(lens)).
        destruct (items_run root (additions ++ [g]) 1 l) as [[root' additions'] m']. destruct IH as [_ IH].
        cbn [app]. rewrite <- !app_assoc. cbn [app].
        rewrite (loop_group k root additions vv w' g COMMA _ Hvv Hw) by (auto || (cbn [app] in HN; rewrite <- !app_assoc in HN; exact HN)). now rewrite Hcom. }
    specialize (Hloop n Hn). 
    assert (Hm : i = Marker \/ i <> Marker) by (destruct i; (now left) || (right; discriminate)). destruct Hm as [-> |Hm].
    + specialize (Hmark n ltac:(lens) eq_refl). destruct (items_run root additions m (Marker :: l)) as [[root' additions'] m'].
      split; [exact Hloop|]. inversion Hi; subst. exact Hmark.
    + destruct (items_run root additions m (i :: l)) as [[root' additions'] m']. split; [exact Hloop|].
      destruct (seq_item_not_dots w i Hi Hm) as (t0 & r0 & Hw & H1 & H2 & H3).
      rewrite Hw in *. cbn [app] in *. now rewrite tail_other.
Qed.
Lemma run_components : forall l root additions m rest,
  items_run root additions m (map Component l ++ rest) = items_run (root ++ l) additions m rest.
Proof. induction l as [|c l IH]; intros; cbn; [now rewrite app_nil_r|]. rewrite IH. now rewrite <- app_assoc. Qed.
Lemma run_groups : forall l root additions m rest,
  items_run root additions m (map Group l ++ rest) = items_run root (additions ++ l) m rest.
Proof. induction l as [|c l IH]; intros; cbn; [now rewrite app_nil_r|]. rewrite IH. now rewrite <- app_assoc. Qed.
Lemma ok_components : forall l m rest, items_ok m (map Component l ++ rest) <-> items_ok m rest.
Proof. induction l as [|c l IH]; intros; cbn; [tauto|]. apply IH. Qed.
Lemma ok_groups : forall l rest, items_ok 1 rest -> items_ok 1 (map Group l ++ rest).
Proof. induction l as [|c l IH]; intros; cbn; [assumption|]. split; [reflexivity|]. now apply IH. Qed.
Lemma sequence_items_run items root groups ext : sequence_items items root groups ext ->
  items_ok 0 items /\ exists m, items_run [] [] 0 items = (root, groups, m) /\ ext = negb (Nat.eqb m 0).
Proof.
  intros [root'|root' groups'|root' groups' root2].
  - rewrite <- (app_nil_r (map Component root')). rewrite ok_components, run_components. split; [exact Logic.I|]. exists 0%nat. now split.
  - rewrite ok_components, run_components. cbn [items_ok items_run]. rewrite <- (app_nil_r (map Group groups')). rewrite run_groups.
    split; [now apply ok_groups|]. exists 1%nat. now split.
  - rewrite ok_components, run_components. cbn [items_ok items_run]. rewrite run_groups. cbn [items_run].
    rewrite <- (app_nil_r (map Component root2)). rewrite run_components.
    split; [apply ok_groups; cbn [items_ok]; now rewrite ok_components|]. exists 2%nat. now split.
Qed.
Lemma read_sequence w k rest : kind_syntax (K "SEQUENCE" :: w) k -> (List.length (K "SEQUENCE" :: w ++ rest) <= N)%nat ->
  parse_seq_or_seq_of_type rt rs (K "SEQUENCE" :: w ++ rest) = Ok (k, rest).
Proof.
  intros H Hl. unfold parse_seq_or_seq_of_type. cbn [take]. change (kw "SEQUENCE" (K "SEQUENCE")) with true. cbv iota. cbn [rbind snd].
  inversion H as [? b Hb|? r Hr| |w' items root groups ext Hi Hx| ]; subst.
  - destruct (builtin_head _ _ Hb) as (s & v & E & Hin). injection E as <- <-. inversion Hb; subst; cbn in *; intuition discriminate.
  - destruct (reference_head _ _ Hr) as (s & v & E & _). discriminate.
  - cbn [app expect]. change (is CurlyBegin L_BRACE) with true. cbn [rbind]. cbv iota. unfold parse_sequence_type. cbn [skipn take].
    change (is CurlyBegin L_BRACE) with true. cbv iota. cbn [rbind snd sequence_loop]. rewrite no_seq_component by reflexivity. reflexivity.
  - cbn [app expect]. change (is CurlyBegin L_BRACE) with true. cbn [rbind]. cbv iota. unfold parse_sequence_type. cbn [skipn take].
    change (is CurlyBegin L_BRACE) with true. cbv iota. cbn [rbind snd]. rewrite <- app_assoc. cbn [app].
    destruct (sequence_items_run _ _ _ _ Hx) as (Hok & m & Hrun & ->).
    pose proof (read_seq_items w' items Hi (S (List.length (w' ++ R_BRACE :: rest))) [] [] 0%nat rest Hok ltac:(lens) ltac:(lia)) as E.
    rewrite Hrun in E. destruct E as [E _]. rewrite E. reflexivity.
Qed.

(* ------------------------------------------------------------------ *)
(* CHOICE                                                              *)
(* ------------------------------------------------------------------ *)
Lemma read_choice_component w c t r : choice_component_syntax w c -> after_component t -> (List.length (w ++ t :: r) <= N)%nat ->
  parse_component rt (w ++ t :: r) = Ok (c, t :: r).
Proof.
  intros H Hx Hl. destruct H as [id w ty Hid Hty]. unfold parse_component. cbn [app take].
  rewrite (value_reference id Hid). cbn [rbind fst snd].
  rewrite (Ht w ty _ Hty (after_component_type t r Hx)) by lens. reflexivity.
Qed.
Lemma read_choice_group_loop w l : separated comma choice_component_syntax w l -> forall n acc r,
  (List.length (w ++ R_GROUP :: r) <= N)%nat -> (List.length (w ++ R_GROUP :: r) < n)%nat ->
  choice_group_loop rt n acc (w ++ R_GROUP :: r) = Ok (acc ++ l, r).
Proof.
  induction 1 as [w a Ha|w a t v l Ha Ht' Hv IH]; intros n acc r HN Hn; (destruct n as [|n]; [lia|]); cbn [choice_group_loop].
  - rewrite (read_choice_component w a R_GROUP r Ha) by (unfold after_component; tauto || exact HN). reflexivity.
  - red in Ht'. subst t. rewrite <- app_assoc in *. cbn [app] in *.
    rewrite (read_choice_component w a COMMA _ Ha) by (unfold after_component; tauto || exact HN). cbn [attempt rbind fst snd skip_if].
    change (is Comma COMMA) with true. cbv iota. cbn [rbind].
    destruct (separated_head _ _ _ v l (fun t => is AdditionGroupsEnd t = false) ltac:(intros u c Hc; destruct (choice_component_head u c Hc) as (id & r' & -> & _); eexists; eexists; split; reflexivity) Hv) as (t & r' & Hve & Et).
    assert (Hstop : expect (is AdditionGroupsEnd) (v ++ R_GROUP :: r) = Ok false). { rewrite Hve. cbn. now rewrite Et. }
    rewrite Hstop. cbn [rbind]. rewrite IH; [now rewrite <- app_assoc|lens|lens].
Qed.
Lemma read_choice_group v w l r : version_syntax v -> separated comma choice_component_syntax w l ->
  (List.length (L_GROUP :: v ++ w ++ R_GROUP :: r) <= N)%nat ->
  parse_choice_addition_group rt (L_GROUP :: v ++ w ++ R_GROUP :: r) = Ok (l, r).
Proof.
  intros Hv Hw Hl. unfold parse_choice_addition_group. cbn [take]. change (is AdditionGroupsBegin L_GROUP) with true. cbv iota. cbn [rbind snd].
  rewrite (read_version v _ Hv).
  2:{ destruct (separated_head _ _ _ w l (fun t => exists id, t = I id) ltac:(intros u c Hc; destruct (choice_component_head u c Hc) as (id & r' & -> & _); eauto) Hw) as (t & r' & -> & id & ->). eexists; eexists; reflexivity. }
  cbn [rbind]. rewrite (read_choice_group_loop w l Hw) by lens. cbn [app rbind fst snd].
  destruct l; [inversion Hw|]. reflexivity.
Qed.
Definition choice_tail (n : nat) root groups single (marker : bool) (ts : list tok) :=
  ts <-- skip_if (is Comma) ts ;;
  m <-- expect (is Extension) ts ;;
  ts <-- (if m then if marker then Err else skip_if (is Comma) (skipn 1 ts) else Ok ts) ;;
  let marker := m || marker in
  stop <-- expect (is CurlyEnd) ts ;;
  if stop then Ok (root, groups, single, marker, skipn 1 ts) else choice_loop rt n root groups single marker ts.
Lemma choice_component n root groups single (marker : bool) w c t r : choice_component_syntax w c -> t = COMMA \/ t = R_BRACE ->
  (List.length (w ++ t :: r) <= N)%nat ->
  choice_loop rt (S n) root groups single marker (w ++ t :: r) =
  choice_tail n (if marker then root else root ++ [c]) groups (if marker then single ++ [c] else single) marker (t :: r).
Proof.
  intros Hc Hx Hl. cbn [choice_loop]. rewrite (read_choice_component w c t r Hc) by (unfold after_component; tauto || exact Hl).
  cbn [attempt rbind expect fst snd].
  destruct marker; cbn [expect rbind]; (replace (is AdditionGroupsBegin t) with false by (symmetry; destruct Hx as [-> | ->]; reflexivity)); reflexivity.
Qed.
Lemma choice_group n root groups single v w l t r : version_syntax v -> separated comma choice_component_syntax w l -> t = COMMA \/ t = R_BRACE ->
  (List.length (L_GROUP :: v ++ w ++ R_GROUP :: t :: r) <= N)%nat ->
  choice_loop rt (S n) root groups single true (L_GROUP :: v ++ w ++ R_GROUP :: t :: r) = choice_tail n root (groups ++ [l]) single true (t :: r).
Proof.
  intros Hv Hw Hx Hl. cbn [choice_loop]. rewrite no_component by reflexivity. cbn [attempt rbind expect].
  change (is AdditionGroupsBegin L_GROUP) with true. cbv iota. rewrite (read_choice_group v w l (t :: r) Hv Hw Hl). reflexivity.
Qed.
Lemma choice_marker n root groups single marker r :
  choice_loop rt (S n) root groups single marker (DOTS :: r) = choice_tail n root groups single marker (DOTS :: r).
Proof. cbn [choice_loop]. rewrite no_component by reflexivity. reflexivity. Qed.
Lemma ctail_comma n root groups single marker ts : (exists t r, ts = t :: r /\ is Comma t = false) ->
  choice_tail n root groups single marker (COMMA :: ts) = choice_tail n root groups single marker ts.
Proof. intros (t & r & -> & E). unfold choice_tail. cbn [skip_if]. change (is Comma COMMA) with true. cbv iota. now rewrite E. Qed.
Lemma ctail_other n root groups single marker t r : is Comma t = false -> is Extension t = false -> is CurlyEnd t = false ->
  choice_tail n root groups single marker (t :: r) = choice_loop rt n root groups single marker (t :: r).
Proof. intros H1 H2 H3. unfold choice_tail. cbn [skip_if]. rewrite H1. cbn [rbind expect]. rewrite H2. cbn [rbind expect]. rewrite H3. reflexivity. Qed.
Lemma ctail_marker n root groups single t r : is CurlyEnd t = false ->
  choice_tail n root groups single false (DOTS :: COMMA :: t :: r) = choice_loop rt n root groups single true (t :: r).
Proof. intros H. unfold choice_tail. cbn. now rewrite H. Qed.
Fixpoint choices_ok (marker : bool) (items : list (item (string * asn_type))) : Prop :=
  match items with
  | [] => True
  | Component _ :: l => choices_ok marker l
  | Marker :: l => marker = false /\ choices_ok true l
  | Group _ :: l => marker = true /\ choices_ok marker l
  end.
Fixpoint choices_run root groups single (marker : bool) (items : list (item (string * asn_type))) :=
  match items with
  | [] => (root, groups, single, marker)
  | Component c :: l => choices_run (if marker then root else root ++ [c]) groups (if marker then single ++ [c] else single) marker l
  | Marker :: l => choices_run root groups single true l
  | Group g :: l => choices_run root (groups ++ [g]) single marker l
  end.
Lemma choice_item_head w i : choice_item_syntax w i -> exists t r, w = t :: r /\ is Comma t = false /\ is CurlyEnd t = false.
Proof.
  intros [w' c Hc| |v w' l Hv Hw]; [destruct (choice_component_head _ _ Hc) as (id & r & -> & _)|..];
    eexists; eexists; (split; [reflexivity|]); split; reflexivity.
Qed.
Lemma choice_item_not_dots w i : choice_item_syntax w i -> i <> Marker -> exists t r, w = t :: r /\ is Comma t = false /\ is Extension t = false /\ is CurlyEnd t = false.
Proof.
  intros [w' c Hc| |v w' l Hv Hw] Hm; [destruct (choice_component_head _ _ Hc) as (id & r & -> & _)|congruence|];
    eexists; eexists; (split; [reflexivity|]); repeat split; reflexivity.
Qed.
Lemma read_choice_items w items : separated comma choice_item_syntax w items -> forall n root groups single marker r,
  choices_ok marker items -> (List.length (w ++ R_BRACE :: r) <= N)%nat -> (List.length (w ++ R_BRACE :: r) < n)%nat ->
  let '(root', groups', single', marker') := choices_run root groups single marker items in
  choice_loop rt n root groups single marker (w ++ R_BRACE :: r) = Ok (root', groups', single', marker', r) /\
  choice_tail n root groups single marker (w ++ R_BRACE :: r) = Ok (root', groups', single', marker', r).
Proof.
  induction 1 as [w i Hi|w i t v l Hi Ht' Hv IH]; intros n root groups single marker r Hok HN Hn.
  - assert (Hloop : forall n, (List.length (w ++ R_BRACE :: r) < n)%nat ->
      let '(root', groups', single', marker') := choices_run root groups single marker [i] in
      choice_loop rt n root groups single marker (w ++ R_BRACE :: r) = Ok (root', groups', single', marker', r)).
    { clear n Hn. intros n Hn. destruct n as [|n]; [lia|]. destruct Hi as [w' c Hc| |v w' l Hv Hw]; cbn [choices_run].
      - rewrite (choice_component n root groups single marker w' c R_BRACE r Hc) by (auto || exact HN). reflexivity.
      - cbn [app]. destruct Hok as [-> _]. rewrite choice_marker. reflexivity.
      - destruct Hok as [-> _]. cbn [app]. rewrite <- !app_assoc. cbn [app].
        rewrite (choice_group n root groups single v w' l R_BRACE r Hv Hw) by (auto || (cbn [app] in HN; rewrite <- !app_assoc in HN; exact HN)).
        reflexivity. }
    specialize (Hloop n Hn). destruct (choices_run root groups single marker [i]) as [[[root' groups'] single'] marker'] eqn:E. split; [exact Hloop|].
    assert (Hm : i = Marker \/ i <> Marker) by (destruct i; (now left) || (right; discriminate)). destruct Hm as [-> |Hm].
    + inversion Hi; subst. cbn [app]. cbn in E, Hok. destruct Hok as [-> _]. injection E as <- <- <- <-. reflexivity.
    + destruct (choice_item_not_dots w i Hi Hm) as (t0 & r0 & Hw & H1 & H2 & H3).
      rewrite Hw in *. cbn [app] in *. now rewrite ctail_other.
  - red in Ht'. subst t. rewrite <- app_assoc in *. cbn [app] in *.
    destruct (separated_head _ _ _ v l _ choice_item_head Hv) as (tv & rv & Hve & Hv1 & Hv2).
    assert (Hcom : forall n root groups single marker, choice_tail n root groups single marker (COMMA :: v ++ R_BRACE :: r) = choice_tail n root groups single marker (v ++ R_BRACE :: r)).
    { intros. apply ctail_comma. rewrite Hve. cbn [app]. eauto. }
    assert (Hmark : forall n, (List.length (v ++ R_BRACE :: r) < n)%nat -> i = Marker ->
      let '(root', groups', single', marker') := choices_run root groups single marker (i :: l) in
      choice_tail n root groups single marker (DOTS :: COMMA :: v ++ R_BRACE :: r) = Ok (root', groups', single', marker', r)).
    { intros k Hk ->. cbn [choices_ok] in Hok. destruct Hok as [-> Hok]. specialize (IH k root groups single true r Hok ltac:(lens) Hk). cbn [choices_run].
      destruct (choices_run root groups single true l) as [[[root' groups'] single'] marker']. destruct IH as [IH _].
      rewrite Hve in *. cbn [app] in *. now rewrite ctail_marker. }
    assert (Hloop : forall n, (List.length (w ++ COMMA :: v ++ R_BRACE :: r) < n)%nat ->
      let '(root', groups', single', marker') := choices_run root groups single marker (i :: l) in
      choice_loop rt n root groups single marker (w ++ COMMA :: v ++ R_BRACE :: r) = Ok (root', groups', single', marker', r)).
    { intros k Hk. destruct k as [|k]; [lia|]. destruct Hi as [w' c Hc| |vv w' g Hvv Hw]; cbn [choices_run].
      - match goal with |- context [choices_run ?a ?b ?c ?d l] => specialize (IH k a b c d r Hok ltac:(lens) ltac:(lens)); destruct (choices_run a b c d l) as [[[root' groups'] single'] marker'] end.
        destruct IH as [_ IH].
        rewrite (choice_component k root groups single marker w' c COMMA _ Hc) by (auto || exact HN). now rewrite Hcom.
      - specialize (Hmark k ltac:(lens) eq_refl). cbn [choices_run] in Hmark. cbn [app]. now rewrite choice_marker.
      - destruct Hok as [-> Hok]. specialize (IH k root (groups ++ [g]) single true r Hok ltac:(lens) ltac:(lens)).
        destruct (choices_run root (groups ++ [g]) single true l) as [[[root' groups'] single'] marker']. destruct IH as [_ IH].
        cbn [app]. rewrite <- !app_assoc. cbn [app].
        rewrite (choice_group k root groups single vv w' g COMMA _ Hvv Hw) by (auto || (cbn [app] in HN; rewrite <- !app_assoc in HN; exact HN)). now rewrite Hcom. }
    specialize (Hloop n Hn).
    assert (Hm : i = Marker \/ i <> Marker) by (destruct i; (now left) || (right; discriminate)). destruct Hm as [-> |Hm].
    + specialize (Hmark n ltac:(lens) eq_refl). destruct (choices_run root groups single marker (Marker :: l)) as [[[root' groups'] single'] marker'].
      split; [exact Hloop|]. inversion Hi; subst. exact Hmark.
    + destruct (choices_run root groups single marker (i :: l)) as [[[root' groups'] single'] marker']. split; [exact Hloop|].
      destruct (choice_item_not_dots w i Hi Hm) as (t0 & r0 & Hw & H1 & H2 & H3).
      rewrite Hw in *. cbn [app] in *. now rewrite ctail_other.
Qed.
Lemma crun_components : forall l root groups single (marker : bool) rest,
  choices_run root groups single marker (map Component l ++ rest) =
  choices_run (if marker then root else root ++ l) groups (if marker then single ++ l else single) marker rest.
Proof. induction l as [|c l IH]; intros; cbn; [destruct marker; now rewrite app_nil_r|]. rewrite IH. destruct marker; now rewrite <- app_assoc. Qed.
Lemma crun_groups : forall l root groups single marker rest,
  choices_run root groups single marker (map Group l ++ rest) = choices_run root (groups ++ l) single marker rest.
Proof. induction l as [|c l IH]; intros; cbn; [now rewrite app_nil_r|]. rewrite IH. now rewrite <- app_assoc. Qed.
Lemma cok_components : forall l m rest, choices_ok m (map Component l ++ rest) <-> choices_ok m rest.
Proof. induction l as [|c l IH]; intros; cbn; [tauto|]. apply IH. Qed.
Lemma cok_groups : forall l rest, choices_ok true rest -> choices_ok true (map Group l ++ rest).
Proof. induction l as [|c l IH]; intros; cbn; [assumption|]. split; [reflexivity|]. now apply IH. Qed.
Lemma choice_items_run items root additions : choice_items items root additions ->
  choices_ok false items /\ exists groups single marker, choices_run [] [] [] false items = (root, groups, single, marker) /\
    additions = if marker then Some (groups ++ match single with [] => [] | _ => [single] end) else None.
Proof.
  intros [root'|root' groups'|root' groups' more Hmore].
  - rewrite <- (app_nil_r (map Component root')). rewrite cok_components, crun_components. split; [exact Logic.I|]. exists [], [], false. now split.
  - rewrite cok_components, crun_components. cbn [choices_ok choices_run]. rewrite <- (app_nil_r (map Group groups')). rewrite crun_groups.
    split; [split; [reflexivity|now apply cok_groups]|]. exists groups', [], true. rewrite app_nil_r. now split.
  - rewrite cok_components, crun_components. cbn [choices_ok choices_run]. rewrite crun_groups.
    rewrite <- (app_nil_r (map Component more)). rewrite crun_components.
    split; [split; [reflexivity|apply cok_groups; now rewrite cok_components]|]. exists groups', more, true. split; [reflexivity|].
    destruct more; [congruence|reflexivity].
Qed.
Lemma read_choice w k rest : kind_syntax (K "CHOICE" :: w) k -> (List.length (K "CHOICE" :: w ++ rest) <= N)%nat ->
  parse_choice_type rt (K "CHOICE" :: w ++ rest) = Ok (k, rest).
Proof.
  intros H Hl. unfold parse_choice_type. cbn [take]. change (kw "CHOICE" (K "CHOICE")) with true. cbv iota. cbn [rbind snd].
  inversion H as [? b Hb|? r Hr| | |w' items root additions Hi Hx]; subst.
  - destruct (builtin_head _ _ Hb) as (s & v & E & Hin). injection E as <- <-. inversion Hb; subst; cbn in *; intuition discriminate.
  - destruct (reference_head _ _ Hr) as (s & v & E & _). discriminate.
  - cbn [app take]. change (is CurlyBegin L_BRACE) with true. cbv iota. cbn [rbind snd]. rewrite <- app_assoc. cbn [app].
    destruct (choice_items_run _ _ _ Hx) as (Hok & groups & single & marker & Hrun & ->).
    pose proof (read_choice_items w' items Hi (S (List.length (w' ++ R_BRACE :: rest))) [] [] [] false rest Hok ltac:(lens) ltac:(lia)) as E.
    rewrite Hrun in E. destruct E as [E _]. rewrite E. reflexivity.
Qed.

(* ------------------------------------------------------------------ *)
(* Types                                                               *)
(* ------------------------------------------------------------------ *)
Lemma follows_brace rest : follows_type rest -> not_brace rest.
Proof. destruct rest as [|t r]; cbn; [auto|]. intros H E. apply H. rewrite E. auto. Qed.
Lemma follows_paren rest : follows_type rest -> not_paren rest.
Proof. destruct rest as [|t r]; cbn; [auto|]. intros H E. apply H. rewrite E. auto. Qed.
Lemma follows_dot rest : follows_type rest -> not_dot rest.
Proof. destruct rest as [|t r]; cbn; [auto|]. intros H E. apply H. rewrite E. auto. Qed.
Lemma read_builtin w b rest : builtin_syntax w b -> not_brace rest -> parse_kind rt rs (w ++ rest) = Ok (KBuiltin b, rest).
Proof.
  intros H Hb. inversion H; subst; try reflexivity.
  - cbn [app]. unfold parse_kind. cbv zeta. cbn [t_text K String.eqb Ascii.eqb Bool.eqb].
    unfold parse_integer_type. cbn [take]. change (kw "INTEGER" (K "INTEGER")) with true. cbv iota. cbn [rbind snd].
    rewrite read_named_list by assumption. reflexivity.
  - cbn [app]. unfold parse_kind. cbv zeta. cbn [t_text K String.eqb Ascii.eqb Bool.eqb].
    unfold parse_bitstring_type. cbn [expect_all Nat.ltb Nat.leb Datatypes.length all_match]. change (kw "BIT" (K "BIT")) with true. change (kw "STRING" (K "STRING")) with true. cbn [andb rbind skipn].
    rewrite read_named_list by assumption. reflexivity.
  - cbn in H0. cbn [app]. repeat (destruct H0 as [<-|H0]; [reflexivity|]). contradiction.
  - change (K "ENUMERATED" :: L_BRACE :: w0 ++ [R_BRACE]) with (K "ENUMERATED" :: (L_BRACE :: w0 ++ [R_BRACE])) in *.
    pose proof (read_enumerated _ _ rest H) as E. cbn [app] in *. unfold parse_kind. cbv zeta. cbn [t_text K String.eqb Ascii.eqb Bool.eqb].
    rewrite E. reflexivity.
  - pose proof (read_enumerated _ _ rest H) as E. cbn [app] in *. unfold parse_kind. cbv zeta. cbn [t_text K String.eqb Ascii.eqb Bool.eqb].
    rewrite E. reflexivity.
  - pose proof (read_enumerated _ _ rest H) as E. cbn [app] in *. unfold parse_kind. cbv zeta. cbn [t_text K String.eqb Ascii.eqb Bool.eqb].
    rewrite E. reflexivity.
Qed.
Lemma read_kind w k rest : kind_syntax w k -> not_brace rest -> not_dot rest -> (List.length (w ++ rest) <= N)%nat ->
  parse_kind rt rs (w ++ rest) = Ok (k, rest).
Proof.
  intros H Hb Hd Hl. inversion H as [w' b Hbu|w' r Hr| |w' items root groups ext Hi Hx|w' items root additions Hi Hx]; subst.
  - now apply read_builtin.
  - pose proof (read_reference w r rest Hr Hd Hb) as E. destruct (reference_head w r Hr) as (s & v & -> & Hn). cbn [app] in *.
    unfold parse_kind. cbv zeta. cbn [t_text I existsb].
    rewrite !(not_reserved s _ Hn) by (vm_compute; tauto). cbn [orb]. rewrite E. reflexivity.
  - pose proof (read_sequence _ _ rest H) as E. cbn [app] in *. unfold parse_kind. cbv zeta. cbn [t_text K String.eqb Ascii.eqb Bool.eqb existsb orb].
    apply E. exact Hl.
  - pose proof (read_sequence _ _ rest H) as E. cbn [app] in *. unfold parse_kind. cbv zeta. cbn [t_text K String.eqb Ascii.eqb Bool.eqb existsb orb].
    apply E. exact Hl.
  - pose proof (read_choice _ _ rest H) as E. cbn [app] in *. unfold parse_kind. cbv zeta. cbn [t_text K String.eqb Ascii.eqb Bool.eqb existsb orb].
    apply E. exact Hl.
Qed.
Lemma constraints_head w cs : repeated constraint_syntax w cs -> w = [] \/ exists r, w = L_PAREN :: r.
Proof.
  intros [|w' a v l Ha Hv]; [now left|]. right. destruct Ha as [u0 s Hset|s x Hn|r Hn]; [destruct (set_head u0 s Hset) as [u ->]|..]; eexists; reflexivity.
Qed.
Lemma read_type w t rest : type_syntax w t -> follows_type rest -> (List.length (w ++ rest) <= N)%nat ->
  type_step rt rs (w ++ rest) = Ok (t, rest).
Proof.
  intros H Hf Hl. unfold type_step.
  assert (Hg : expect (fun t => is_type_reference t || is_builtin_type t || is_class_reference t) (w ++ rest) = Ok true).
  { destruct (type_head w t H) as (x & v & -> & Hx). cbn. f_equal. exact (guard_true x Hx). }
  rewrite Hg. cbn [rbind].
  destruct H as [w k v cs Hk Hcs|v t Hty|w c v t Hc Hty].
  - rewrite <- app_assoc in *. 
    assert (Hw : (1 <= List.length w)%nat). { destruct (kind_head w k Hk) as (x & u & -> & _). cbn. lia. }
    rewrite (read_kind w k (v ++ rest) Hk); [| | |exact Hl].
    + cbn [rbind fst snd]. unfold parse_constraints. rewrite (read_constraints v cs Hcs) by (first [apply follows_paren; assumption | lens]). reflexivity.
    + destruct (constraints_head v cs Hcs) as [-> |[r ->]]; [now apply follows_brace|cbn; discriminate].
    + destruct (constraints_head v cs Hcs) as [-> |[r ->]]; [now apply follows_dot|cbn; discriminate].
  - cbn [app]. unfold parse_kind. cbv zeta. cbn [t_text K String.eqb Ascii.eqb Bool.eqb existsb orb].
    unfold parse_seq_or_seq_of_type. cbn [take]. change (kw "SEQUENCE" (K "SEQUENCE")) with true. cbv iota. cbn [rbind snd expect].
    change (is CurlyBegin (K "OF")) with false. cbv iota. unfold parse_sequence_of_type. cbn [skipn].
    rewrite no_constraint by (first [cbn; discriminate | lens]). cbn [attempt rbind take]. change (kw "OF" (K "OF")) with true. cbv iota. cbn [rbind snd].
    rewrite (Ht v t rest Hty Hf) by lens. cbn [rbind fst snd]. unfold parse_constraints. cbn [constraints_loop].
    rewrite no_constraint by (first [apply follows_paren; assumption | lens]). reflexivity.
  - cbn [app]. rewrite <- app_assoc in *. cbn [app] in *. unfold parse_kind. cbv zeta. cbn [t_text K String.eqb Ascii.eqb Bool.eqb existsb orb].
    unfold parse_seq_or_seq_of_type. cbn [take]. change (kw "SEQUENCE" (K "SEQUENCE")) with true. cbv iota. cbn [rbind snd].
    assert (Hw : expect (is CurlyBegin) (w ++ K "OF" :: v ++ rest) = Ok false).
    { destruct Hc as [w s Hset|s a Hn|r Hn]; [destruct (set_head w s Hset) as [u ->]|..]; reflexivity. }
    rewrite Hw. cbn [rbind]. unfold parse_sequence_of_type. cbn [skipn].
    rewrite (read_constraint w c _ Hc) by lens. cbn [attempt rbind fst snd take]. change (kw "OF" (K "OF")) with true. cbv iota. cbn [rbind snd].
    rewrite (Ht v t rest Hty Hf) by lens. cbn [rbind fst snd]. unfold parse_constraints. cbn [constraints_loop].
    rewrite no_constraint by (first [apply follows_paren; assumption | lens]). reflexivity.
Qed.
End Step.

Lemma type_depth_no n t r : type_guard t = false -> type_depth (S n) (t :: r) = Err.
Proof. intros H. unfold type_guard in H. cbn [type_depth]. unfold type_step. cbn [expect rbind]. now rewrite H. Qed.
Lemma set_depth_no n rest : not_paren rest -> set_depth (S n) rest = Err.
Proof. intros H. cbn [set_depth]. unfold element_set_step. destruct rest as [|t r]; [reflexivity|]. cbn [take]. cbn in H. now rewrite (is_other RoundBegin t H). Qed.
Lemma set_depth_table n s a rest :
  set_depth (S n) ([L_PAREN; L_BRACE; I s; R_BRACE; L_BRACE; mkTok AtComponentIdList a; R_BRACE; R_PAREN] ++ rest) = Err.
Proof. reflexivity. Qed.
Lemma set_depth_containing n r rest : set_depth (S (S n)) ([L_PAREN; K "CONTAINING"; I r; R_PAREN] ++ rest) = Err.
Proof. reflexivity. Qed.
Theorem read_depth : forall n,
  (forall w t rest, type_syntax w t -> follows_type rest -> (List.length (w ++ rest) < n)%nat -> type_depth n (w ++ rest) = Ok (t, rest)) /\
  (forall w s rest, set_syntax w s -> (List.length (w ++ rest) < n)%nat -> set_depth n (w ++ rest) = Ok (s, rest)).
Proof.
  induction n as [|n [IHt IHs]]; [split; intros; lia|].
  assert (H1 : forall t r, (List.length (t :: r) < n)%nat -> type_guard t = false -> type_depth n (t :: r) = Err).
  { intros t r Hl Hg. destruct n; [lens|]. now apply type_depth_no. }
  assert (H2 : forall rest, (List.length rest < n)%nat -> not_paren rest -> set_depth n rest = Err).
  { intros rest Hl Hp. destruct n; [lia|]. now apply set_depth_no. }
  assert (H3 : forall s a rest, type_name s ->
    (List.length ([L_PAREN; L_BRACE; I s; R_BRACE; L_BRACE; mkTok AtComponentIdList a; R_BRACE; R_PAREN] ++ rest) < n)%nat ->
    set_depth n ([L_PAREN; L_BRACE; I s; R_BRACE; L_BRACE; mkTok AtComponentIdList a; R_BRACE; R_PAREN] ++ rest) = Err).
  { intros s a rest _ Hl. destruct n; [lens|]. apply set_depth_table. }
  assert (H4 : forall r rest, (List.length ([L_PAREN; K "CONTAINING"; I r; R_PAREN] ++ rest) < n)%nat ->
    set_depth n ([L_PAREN; K "CONTAINING"; I r; R_PAREN] ++ rest) = Err).
  { intros r rest Hl. destruct n as [|[|n]]; [lens|lens|]. apply set_depth_containing. }
  split.
  - intros w t rest Hw Hf Hl. cbn [type_depth]. apply (read_type n); auto. lia.
  - intros w s rest Hw Hl. cbn [set_depth]. apply (read_set n); auto. lia.
Qed.
Theorem parse_type_complete w t rest : type_syntax w t -> follows_type rest -> parse_type (w ++ rest) = Ok (t, rest).
Proof. intros Hw Hf. apply read_depth; auto. Qed.
Theorem parse_element_set_complete w s rest : set_syntax w s -> parse_element_set (w ++ rest) = Ok (s, rest).
Proof. intros Hw. apply read_depth; auto. Qed.
