(* What add_module answers, after any calls. *)
From Coq Require Import ZArith NArith List Bool String.
Require Import Verif.Base Verif.Asn1Model Verif.GenModel Verif.ResolveModel Verif.ParserModel Verif.ModuleModel Verif.DefinitionModel Verif.DefGrammarProofs Verif.SessionModel.
Import ListNotations.

Section Answers.
Context (num : Z -> bool) (E : env) (depth fuel : nat).
Notation history := (history num E depth fuel).
Notation step := (step num E depth fuel).
Definition held (n : string) (c : compiler) : Prop := lookup n (c_modules c) <> None.
Definition added (n : string) (h : list call) : Prop := exists m, In (Add m) h /\ pm_name m = n.

Lemma resolve_module_holds name m order c n : held name c -> (held n (fst (resolve_module_call num E depth fuel name m order c)) <-> held n c).
Proof.
  intros Hn. unfold resolve_module_call. destruct (read_defs _ _ _) as [defs r].
  assert (H : lookup n (replace name (mkLiveModule (lm_imports m) defs) (c_modules c)) <> None <-> held n c).
  { rewrite lookup_replace. destruct (String.eqb_spec n name) as [->|_]; [|reflexivity]. split; [intros _; exact Hn|discriminate]. }
  destruct r; try exact H. destruct (resolve_each _ _ _ _ _ _) as [st r]. exact H.
Qed.
Lemma resolve_modules_holds orders n : forall c, held n (fst (resolve_modules_call num E depth fuel orders c)) <-> held n c.
Proof.
  induction orders as [|[name order] orders IH]; intros c; [reflexivity|]. cbn [resolve_modules_call].
  destruct (lookup name (c_modules c)) as [m|] eqn:Hl; [|reflexivity].
  assert (Hn : held name c) by (unfold held; now rewrite Hl).
  pose proof (resolve_module_holds name m order c n Hn) as H. destruct (resolve_module_call _ _ _ _ name m order c) as [c' r]. cbn [fst] in H.
  destruct r; cbn [fst]; try exact H. rewrite IH. exact H.
Qed.
Lemma step_holds x c n : held n (fst (step x c)) <-> held n c \/ added n [x].
Proof.
  destruct x as [m|orders|]; cbn [SessionModel.step fst].
  - unfold held. cbn [add_call fst with_modules c_modules]. rewrite lookup_replace. destruct (String.eqb_spec n (pm_name m)) as [->|Hne].
    + split; [intros _; right; exists m; split; [now left|reflexivity]|discriminate].
    + split; [now left|]. intros [H|(m' & [He|[]] & Hm)]; [exact H|]. injection He as ->. now destruct Hne.
  - unfold resolve_call. transitivity (held n c).
    + destruct (imports_found (c_modules c)); [apply resolve_modules_holds|reflexivity].
    + split; [now left|]. intros [H|(m' & [He|[]] & _)]; [exact H|discriminate He].
  - unfold generate_call. transitivity (held n c).
    + destruct (generate_items _ _ _) as [[items g]| | |]; reflexivity.
    + split; [now left|]. intros [H|(m' & [He|[]] & _)]; [exact H|discriminate He].
Qed.
Lemma last_answer m : forall h c, List.length (snd (history (h ++ [Add m]) c)) = S (List.length h) ->
  exists b, last (snd (history (h ++ [Add m]) c)) (Resolved Panic) = Added b /\ (b = true <-> held (pm_name m) c \/ added (pm_name m) h).
Proof.
  induction h as [|x h IH]; intros c H.
  - cbn. eexists. split; [reflexivity|]. unfold held. destruct (lookup (pm_name m) (c_modules c)).
    + split; [intros _; left; discriminate|reflexivity].
    + split; [discriminate|]. intros [H'|(m' & [] & _)]. now destruct H'.
  - cbn [app SessionModel.history] in *. pose proof (step_holds x c (pm_name m)) as Hs. destruct (step x c) as [c' a]. cbn [fst] in Hs.
    destruct (goes_on a).
    + specialize (IH c'). destruct (history (h ++ [Add m]) c') as [c'' l]. cbn [snd List.length] in *. injection H as H. destruct (IH H) as (b & Hl & Hb).
      exists b. split; [destruct l; [discriminate H|exact Hl]|]. rewrite Hb, Hs. unfold added. split.
      * intros [[H1|(m' & [H1|[]] & H2)]|(m' & H1 & H2)]; [now left|right; exists m'; split; [now left|exact H2]|right; exists m'; split; [now right|exact H2]].
      * intros [H1|(m' & [H1|H1] & H2)]; [left; now left|left; right; exists m'; split; [now left|exact H2]|right; now exists m'].
    + cbn [snd List.length] in H. discriminate H.
Qed.
Lemma add_answers h m : List.length (snd (history (h ++ [Add m]) new_compiler)) = S (List.length h) ->
  exists b, last (snd (history (h ++ [Add m]) new_compiler)) (Resolved Panic) = Added b /\
    (b = true <-> exists m', In (Add m') h /\ pm_name m' = pm_name m).
Proof.
  intros H. destruct (last_answer m h new_compiler H) as (b & H1 & H2). exists b. split; [exact H1|]. rewrite H2. unfold held. cbn.
  split; [intros [H'|H']; [now destruct H'|exact H']|now right].
Qed.
End Answers.
