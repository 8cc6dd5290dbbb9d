(* Concrete cases for the theorems on parameters. *)
From Coq Require Import ZArith NArith List Bool String Ascii Lia.
From Coq Require Import ZifyBool ZifyNat ZifyN.
Require Import Verif.Base Verif.Asn1Model Verif.GenModel Verif.ResolveModel Verif.TokenModel Verif.ParserModel Verif.ModuleModel Verif.DefinitionModel
  Verif.ParserSpec Verif.DefinitionSpec Verif.ReadProofs Verif.GrammarProofs Verif.ParserFacts Verif.ParamSpec Verif.ParamProofs.
Import ListNotations.
Open Scope string_scope.
Open Scope list_scope.

(* F{T, INTEGER:max} ::= SEQUENCE { id INTEGER (0..max), value T OPTIONAL, list SEQUENCE (SIZE (1..max)) OF T }, as F{Foo, 7} *)
Definition C42_body : list tok :=
  [K "SEQUENCE"; L_BRACE; I "id"; K "INTEGER"; L_PAREN; N "0"; DOTDOT; I "max"; R_PAREN; COMMA; I "value"; I "T"; K "OPTIONAL"; COMMA;
   I "list"; K "SEQUENCE"; L_PAREN; K "SIZE"; L_PAREN; N "1"; DOTDOT; I "max"; R_PAREN; R_PAREN; K "OF"; I "T"; R_BRACE].
Definition C42_type (T max : string) : asn_type :=
  mkType (KSequence
    [mkSeqComp "id" (mkType (KBuiltin BInteger) (Some [CSubtype (mkSet [[ERange "0" true max true]] None)])) false None;
     mkSeqComp "value" (plain T) true None;
     mkSeqComp "list" (mkType (KSequenceOf (Some (CSubtype (mkSet [[ESize (mkSet [[ERange "1" true max true]] None)]] None))) (plain T)) (Some [])) false None]
    [] false) (Some []).
Definition C42_def : definition := mkDef (DKType (C42_type "T" "max")) (Some (["T"; "max"], C42_body)).
Definition C42_actuals : list actual_param := [PSingle "Foo"; PSingle "7"].
Lemma C42_syntax : type_syntax C42_body (C42_type "T" "max").
Proof.
  eapply same_words; [eapply TS_type; [eapply KS_sequence|apply rep_nil]| |].
  - next.
    { apply SIS_component. eapply (SC "id"); [vname|eapply TS_type; [apply KS_builtin; apply BS_integer; apply NLS_none|apply one; apply CS_set; apply (range_set (N "0") (I "max")); simple]|apply PS_mandatory]. }
    next.
    { apply SIS_component. eapply (SC "value"); [vname|apply (tn_type "T"); tname|apply PS_optional]. }
    apply sep_one. apply SIS_component. eapply (SC "list"); [vname| |apply PS_mandatory].
    apply TS_sized_list; [apply size_constraint; apply (range_set (N "1") (I "max")); simple|apply (tn_type "T"); tname].
  - exact (SI_closed [_; _; _]).
  - reflexivity.
  - reflexivity.
Qed.
Lemma find_dotted (w a b : list tok) c f : w = a ++ I c :: DOT :: F f :: b -> In DOT w.
Proof. intros ->. apply in_or_app. right. cbn. auto. Qed.
Fixpoint before_paren (w : list tok) : list (tok * tok) :=
  match w with
  | x :: w' => match w' with y :: t :: _ => if is (t_type L_PAREN) y then [(x, t)] else [] | _ => [] end ++ before_paren w'
  | [] => []
  end.
Lemma in_before_paren w a x t b : w = a ++ x :: L_PAREN :: t :: b -> In (x, t) (before_paren w).
Proof.
  intros ->. induction a as [|y a IH]; [left; reflexivity|]. cbn [app before_paren]. apply in_or_app. now right.
Qed.

Lemma C42_fits : fits (instead ["T"; "max"] C42_actuals) C42_body.
Proof.
  split; [|split; [|split]].
  - intros t Hin Ht. cbn in Hin. decompose [or] Hin; subst; try contradiction; try reflexivity; now destruct Ht.
  - intros t Hin Ht Hn. cbn in Hin. decompose [or] Hin; subst; try contradiction; try discriminate; try exact Hn; first [exfalso; destruct Hn as [Hn _]; cbn in Hn; unfold capital in Hn; lia|change (type_name "Foo"); tname].
  - intros a c f b H _. apply find_dotted in H. cbn in H. decompose [or] H; try contradiction; discriminate.
  - intros a x t b H Hx. apply in_before_paren in H. vm_compute in H. decompose [or] H; try contradiction; congruence.
Qed.
Lemma C42_case_proof : type_syntax C42_body (C42_type "T" "max") /\ in_sequence ["T"; "max"] C42_actuals /\
  fits (instead ["T"; "max"] C42_actuals) C42_body /\ apart (instead ["T"; "max"] C42_actuals) (C42_type "T" "max") /\
  apply_params C42_def C42_actuals = Ok (C42_type "Foo" "7").
Proof.
  split; [exact C42_syntax|]. split; [|split; [exact C42_fits|split]].
  - intros [|[|i]] [|[|[|j]]] f a Hij Hf Ha; cbn in Hf, Ha; try discriminate; try lia. inversion Hf. inversion Ha. subst. discriminate.
  - repeat constructor.
  - vm_compute. reflexivity.
Qed.
Definition parameterized (formals : list string) (w : list tok) : definition := mkDef (DKType null) (Some (formals, w)).
Lemma C42_capture_proof :
  apply_params (parameterized ["A"; "B"] [K "SEQUENCE"; L_BRACE; I "a"; I "A"; COMMA; I "b"; I "B"; R_BRACE]) [PSingle "B"; PSingle "C"] =
  Ok (mkType (KSequence [mkSeqComp "a" (plain "C") false None; mkSeqComp "b" (plain "C") false None] [] false) (Some [])).
Proof. vm_compute. reflexivity. Qed.
Lemma C42_component_proof :
  apply_params (parameterized ["size"] [K "SEQUENCE"; L_BRACE; I "size"; K "INTEGER"; L_PAREN; N "0"; DOTDOT; I "size"; R_PAREN; R_BRACE]) [PSingle "max"] =
  Ok (mkType (KSequence [mkSeqComp "max" (mkType (KBuiltin BInteger) (Some [CSubtype (mkSet [[ERange "0" true "max" true]] None)])) false None] [] false) (Some [])).
Proof. vm_compute. reflexivity. Qed.
Lemma C42_number_given_proof :
  type_syntax [K "INTEGER"; L_BRACE; I "a"; L_PAREN; I "n"; R_PAREN; R_BRACE] int /\
  apply_params (parameterized ["n"] [K "INTEGER"; L_BRACE; I "a"; L_PAREN; I "n"; R_PAREN; R_BRACE]) [PSingle "5"] = Err.
Proof.
  split; [|vm_compute; reflexivity].
  eapply same_words; [apply simple_type; apply BS_integer; eapply NLS_some; eapply sep_one; eapply (NaS "a"); [vname|apply (NS_reference "n"); vname]|reflexivity|reflexivity].
Qed.
(* X{T} ::= T{T}, as X{X} *)
Lemma C42_endless_proof E depth resolved classes :
  instantiate E depth (mkResolver resolved [("X", parameterized ["T"] [I "T"; L_BRACE; I "T"; R_BRACE])] classes) "X" [PSingle "X"] = Diverge.
Proof.
  induction depth as [|n IH]; [reflexivity|]. cbn [instantiate]. cbn [lookup parameterized_defs].
  change (String.eqb "X" "X") with true. cbv iota.
  assert (Ht : apply_params (parameterized ["T"] [I "T"; L_BRACE; I "T"; R_BRACE]) [PSingle "X"] = Ok (mkType (KReference (RefParam "X" [PSingle "X"])) (Some []))).
  { vm_compute. reflexivity. }
  rewrite Ht. cbn [rbind resolved_defs]. cbn. now rewrite IH.
Qed.
