(* The same for definitions and modules. *)
From Coq Require Import ZArith NArith List Bool String Ascii Lia.
From Coq Require Import ZifyBool ZifyNat ZifyN.
Require Import Verif.Base Verif.Asn1Model Verif.ResolveModel Verif.TokenModel Verif.ParserModel Verif.ModuleModel Verif.DefinitionModel
  Verif.ParserSpec Verif.ReadProofs.
Import ListNotations.
Open Scope string_scope.
Open Scope list_scope.

Definition opens (ts : list tok) : Prop := opens_list ts \/ opens_set ts.
Lemma up_opens : up opens.
Proof.
  intros w ts [H|H]; [left; now apply up_opens_list|right].
  destruct H as (a & c & e & b & r & -> & H). exists (w ++ a), c, e, b, r. rewrite app_assoc. now split.
Qed.
#[global] Hint Resolve up_opens : core.
Notation sound := (fine cut_off opens).
Lemma safe_sound A (f : A -> list tok) s ts m : fine cut_off opens_list f s ts m -> sound f s ts m.
Proof. apply fine_weaken; auto. now left. Qed.
Lemma sound_type ts : sound snd true ts (parse_type ts).
Proof. apply safe_sound, safe_parse_type. Qed.

(* ------------------------------------------------------------------ *)
(* Object identifiers                                                  *)
(* ------------------------------------------------------------------ *)
Lemma fine_named_oid ts : fine never never id true ts (parse_named_oid_component ts).
Proof.
  unfold parse_named_oid_component. destruct ts as [|t r]; [exact Logic.I|]. destruct (is_value_reference t); [|exact Logic.I].
  destruct (expect_all_cases [is RoundBegin; is NumberInt; is RoundEnd] r) as [[b E]|E]; rewrite E; cbn [attempt rbind].
  - apply expect_all_ok in E. destruct E as [E _]. destruct r as [|t1 [|t2 [|t3 r]]]; cbn in E; try lia.
    destruct b; [destruct (parse_u32 (t_text t2))|destruct (existsb _ _)]; cbn; auto; now tails.
  - destruct (existsb _ _); cbn; auto; now tails.
Qed.
Lemma fine_oid_component ts : fine never never id true ts (parse_oid_component ts).
Proof.
  unfold parse_oid_component. destruct ts as [|t r]; [exact Logic.I|]. destruct (is Identifier t); [apply fine_named_oid|].
  destruct (is NumberInt t); [|exact Logic.I]. destruct (parse_u32 (t_text t)); cbn; auto; now tails.
Qed.
Lemma fine_oid_loop : forall n ts, (List.length ts < n)%nat -> fine never never id true ts (oid_loop n ts).
Proof.
  induction n as [|n IH]; intros ts Hn; [lia|]. cbn [oid_loop]. apply fine_expect. intros t r ->.
  destruct (is CurlyEnd t); [cbn; now tails|]. eapply fine_bind; [auto|auto|apply fine_oid_component|now tails|].
  intros r1 H. parts. pose proof (IH r1) as Hf. apply (f_equal (@List.length tok)) in H as Hl. specialize (Hf ltac:(lens)).
  finish Hf.
Qed.
Lemma fine_oid ts : fine never never id true ts (parse_object_identifier ts).
Proof.
  unfold parse_object_identifier. eapply fine_bind; [auto|auto|apply fine_take|now tails|]. intros [x r] H. parts.
  pose proof (fine_oid_loop (S (List.length r)) r ltac:(lia)) as Hf. finish Hf.
Qed.

(* ------------------------------------------------------------------ *)
(* Classes                                                             *)
(* ------------------------------------------------------------------ *)
Lemma sound_value_field ts : sound snd true ts (parse_value_field_spec ts).
Proof.
  unfold parse_value_field_spec. call fine_take. intros [id r] H. parts.
  eapply fine_bind; [auto|auto|apply sound_type|now tails|]. intros [ty r1] H. parts.
  set (u := attempt (expect (kw "UNIQUE") r1)).
  assert (Hu : exists o, u = Ok o /\ (o = Some true -> exists t r, r1 = t :: r)).
  { subst u. destruct r1; cbn; eexists; (split; [reflexivity|]); [discriminate|eauto]. }
  destruct Hu as (o & -> & Ho). cbn [rbind fst snd]. cbv zeta.
  match goal with |- context [expect (kw "OPTIONAL") ?x] => set (r2 := x) end.
  assert (Hr2 : suffix r2 r1).
  { subst r2. destruct o as [[|]|]; try apply suffix_refl. destruct (Ho eq_refl) as (t2 & r & ->). cbn. now tails. }
  clearbody r2. destruct Hr2 as [w2 ->]. clear Ho.
  apply fine_expect. intros t2 r3 ->. apply fine_expect. intros t3 r4 E. injection E as <- <-.
  destruct (kw "OPTIONAL" t2); [cbn; now tails|]. destruct (kw "DEFAULT" t2); [|cbn; now tails]. cbn [skipn].
  eapply fine_bind; [auto|auto|apply fine_to, fine_value|now tails|]. intros [v r4] H.
  destruct (match o with Some true => true | _ => false end); [exact Logic.I|]. parts. cbn. now tails.
Qed.
Lemma sound_type_field ts : sound snd true ts (parse_type_field_spec ts).
Proof.
  unfold parse_type_field_spec. call fine_take. intros [id r] H. parts. cbv zeta.
  apply fine_expect. intros t2 r3 ->. apply fine_expect. intros t3 r4 E. injection E as <- <-.
  destruct (kw "OPTIONAL" t2); [cbn; now tails|]. destruct (kw "DEFAULT" t2); [|cbn; now tails]. cbn [skipn].
  eapply fine_bind; [auto|auto|apply sound_type|now tails|]. intros [v r4] H. parts. cbn. now tails.
Qed.
Lemma sound_field ts : sound snd true ts (parse_field_spec ts).
Proof.
  unfold parse_field_spec. apply fine_expect. intros t r ->. destruct (is_value_field t); [apply sound_value_field|].
  apply fine_expect. intros t' r' E. injection E as <- <-. destruct (is_type_field t); [apply sound_type_field|exact Logic.I].
Qed.
Lemma sound_fields_loop : forall n fields ts, (List.length ts < n)%nat -> sound snd true ts (fields_loop n fields ts).
Proof.
  induction n as [|n IH]; intros fields ts Hn; [lia|]. cbn [fields_loop].
  eapply fine_bind; [auto|auto|apply sound_field|now tails|]. intros [[id f] r] H. parts. cbv zeta.
  destruct r as [|t1 r]; [exact Logic.I|]. destruct (is Comma t1).
  - match goal with |- context [fields_loop n ?a ?r] => pose proof (IH a r ltac:(lens)) as Hf end. finish Hf.
    + apply (up_cut_off (t :: w)). now apply (up_cut_off [t1]).
    + apply (up_opens (t :: w)). now apply (up_opens [t1]).
  - destruct (is CurlyEnd t1); [|exact Logic.I]. cbn. now tails.
Qed.
Lemma words_before_suffix p : forall ts, suffix (snd (words_before p ts)) ts.
Proof.
  induction ts as [|t r IH]; cbn; [apply suffix_refl|]. destruct (p t); [apply suffix_refl|].
  destruct (words_before p r) as [w rest]. now apply suffix_cons.
Qed.
Lemma fine_with_syntax_loop : forall n o fields ts, (List.length ts < n)%nat -> fine never never snd true ts (with_syntax_loop n o fields ts).
Proof.
  induction n as [|n IH]; intros o fields ts Hn; [lia|]. cbn [with_syntax_loop].
  apply fine_expect. intros t r ->. cbv zeta.
  set (ts1 := if is SquareBegin t then _ else _).
  assert (H1 : suffix ts1 (t :: r)). { subst ts1. destruct (is SquareBegin t); cbn; now tails. } clearbody ts1.
  pose proof (words_before_suffix (is AndIdentifier) ts1) as H2.
  destruct (words_before (is AndIdentifier) ts1) as [words r1]. cbn [snd] in H2. destruct H1 as [w1 H1], H2 as [w2 ->].
  rewrite H1 in *. clear H1 r.
  destruct (existsb _ _); [exact Logic.I|]. call fine_take. intros [id r] H. parts.
  destruct (lookup id fields) as [f|]; [|exact Logic.I]. destruct (_ && _); [exact Logic.I|].
  call fine_skip_if. intros r2 H. parts. apply fine_expect. intros t2 r3 ->.
  set (oo := if is SquareEnd t2 then _ else _).
  assert (Hoo : (exists b, oo = Ok b) \/ oo = Err). { subst oo. destruct (is SquareEnd t2); [destruct (_ || _)|]; eauto. }
  destruct Hoo as [[b ->]| ->]; cbn [rbind]; [|exact Logic.I].
  set (r4 := if is SquareEnd t2 then _ else _).
  assert (H4 : suffix r4 (t2 :: r3)). { subst r4. destruct (is SquareEnd t2); cbn; now tails. } clearbody r4.
  destruct H4 as [w4 H4]. rewrite H4 in *. clear H4 t2 r3.
  apply fine_expect. intros t2 r3 ->. destruct (is CurlyEnd t2).
  - destruct b; [exact Logic.I|]. cbn. now tails.
  - match goal with |- context [with_syntax_loop n ?a ?b ?r] => pose proof (IH a b r ltac:(lens)) as Hf end. finish Hf.
Qed.
Lemma fine_with_syntax fields ts : fine never never snd false ts (parse_with_syntax fields ts).
Proof.
  unfold parse_with_syntax.
  destruct (expect_all_cases [kw "WITH"; kw "SYNTAX"] ts) as [[b E]|E]; rewrite E; cbn [rbind]; [|exact Logic.I].
  destruct b; [|cbn; now tails]. apply expect_all_ok in E. destruct E as [E _]. destruct ts as [|t [|t1 ts]]; cbn in E; try lia.
  cbn [skipn]. call fine_take. intros [x r] H. parts.
  match goal with |- context [with_syntax_loop ?n ?a ?b ?r] => pose proof (fine_with_syntax_loop n a b r ltac:(lia)) as Hf end. finish Hf.
Qed.
Lemma sound_class ts : sound snd true ts (parse_class ts).
Proof.
  unfold parse_class. call fine_take. intros [x r] H. parts. call fine_take. intros [x1 r1] H. parts.
  eapply fine_bind; [auto|auto|apply sound_fields_loop; cbn; lia|now tails|]. intros [f r2] H. parts.
  pose proof (fine_to cut_off opens _ _ _ _ _ (fine_with_syntax f r2)) as Hf. cbn [fst snd]. finish Hf.
  - apply (up_cut_off (t :: w)). apply (up_cut_off (t0 :: w0)). now apply (up_cut_off (t1 :: w1)).
  - apply (up_opens (t :: w)). apply (up_opens (t0 :: w0)). now apply (up_opens (t1 :: w1)).
Qed.

(* ------------------------------------------------------------------ *)
(* Object sets                                                         *)
(* ------------------------------------------------------------------ *)
Notation always := (fun _ : list tok => True).
#[local] Hint Resolve up_always : core.
Lemma fine_object_set_loop : forall n root additional marker ts, fine never always snd true ts (object_set_loop n root additional marker ts).
Proof.
  induction n as [|n IH]; intros root additional marker ts; [exact Logic.I|]. cbn [object_set_loop].
  apply fine_expect. intros t r ->.
  eapply fine_bind with (f := id) (s := false) (cur := t :: r); [auto|auto| |now tails|].
  - destruct (is Extension t); [|cbn; now tails]. destruct marker; [exact Logic.I|]. cbn [skipn].
    pose proof (fine_skip_if never always (is Comma) r) as Hf. finish Hf.
  - intros ts1 H. unfold id in H. cbn in H. destruct H as [w H]. rewrite H. cbv zeta. generalize (is Extension t || marker). intros mk. clear H t r.
    assert (Hk : forall (e : option parsed_element * list tok), suffix (snd e) ts1 ->
      fine never always snd true (w ++ ts1) (
        let '(root, additional) :=
        match fst e with
        | None => (root, additional)
        | Some x => if mk then (root, additional ++ [x]) else (root ++ [x], additional)
        end in
      ts <-- skip_if (is Comma) (snd e) ;;
      ts <-- skip_if is_union ts ;;
      stop <-- expect (is CurlyEnd) ts ;;
      if stop then Ok (root, additional, skipn 1 ts) else object_set_loop n root additional mk ts)).
    { intros [e r] [v Hv]. cbn [fst snd] in *. subst ts1.
      destruct (match e with None => _ | Some x => _ end) as [root' additional'].
      call fine_skip_if. intros r1 H1. parts. call fine_skip_if. intros r2 H2. parts.
      apply fine_expect. intros t r3 ->. destruct (is CurlyEnd t); [cbn; now tails|].
      match goal with |- context [object_set_loop n ?a ?b ?c ?r] => pose proof (IH a b c r) as Hf end. finish Hf. }
    eapply fine_attempt; [auto|auto|apply fine_to, fine_set_ish_value|now tails| |].
    + intros [s r] H. cbn in H. apply reads_suffix in H. exact (Hk (Some (PInput s), r) H).
    + destruct ts1 as [|t r]; [exact Logic.I|].
      destruct (is_value_reference t); [apply (Hk (Some (PObjectRef (t_text t)), r)); cbn; now tails|].
      destruct (is_type_reference t); [apply (Hk (Some (PSetRef (t_text t)), r)); cbn; now tails|].
      apply (Hk (None, t :: r)). cbn. now tails.
Qed.

(* ------------------------------------------------------------------ *)
(* Definitions                                                         *)
(* ------------------------------------------------------------------ *)
Lemma fine_params_loop : forall n acc ts, (List.length ts < n)%nat -> fine never never snd true ts (params_loop n acc ts).
Proof.
  induction n as [|n IH]; intros acc ts Hn; [lia|]. cbn [params_loop].
  destruct (expect_all_cases [is_governor; is Colon; is_dummy] ts) as [[b E]|E]; rewrite E; cbn [rbind]; [|exact Logic.I].
  apply expect_all_ok in E. destruct E as [E _]. destruct ts as [|t [|t1 [|t2 ts]]]; cbn in E; try lia.
  eapply fine_bind with (f := snd) (s := true) (cur := t :: t1 :: t2 :: ts); [auto|auto| |now tails|].
  - destruct b; [cbn [skipn]|apply fine_take]. pose proof (fine_take never never is_dummy (t2 :: ts)) as Hf. finish Hf.
  - intros [x r] H. cbn in H. destruct H as (t3 & w & H). rewrite H in *. cbv zeta. call fine_skip_if. intros r1 H1. parts.
    apply fine_expect. intros t4 r2 ->. destruct (is CurlyEnd t4); [cbn; now tails|].
    match goal with |- context [params_loop n ?a ?r] => pose proof (IH a r) as Hf end.
    specialize (Hf ltac:(lens)). finish Hf.
Qed.
Lemma fine_params ts : fine never never snd true ts (parse_params ts).
Proof.
  unfold parse_params. call fine_take. intros [x r] H. parts.
  match goal with |- context [params_loop ?n ?a ?r] => pose proof (fine_params_loop n a r ltac:(cbn; lia)) as Hf end. finish Hf.
Qed.
Lemma fine_object_assignment ts : fine never never snd true ts (parse_object_assignment ts).
Proof.
  unfold parse_object_assignment.
  destruct (expect_all_cases [is_value_reference; is_class_reference] ts) as [[b E]|E]; rewrite E; cbn [rbind]; [|exact Logic.I].
  apply expect_all_ok in E. destruct E as [E _]. destruct ts as [|t [|t1 ts]]; cbn in E; try lia. destruct b; [|exact Logic.I].
  call fine_take. intros [x r] H. parts. call fine_set_ish_value. intros [v r1] H1. parts. cbn. now tails.
Qed.
Lemma sound_value_assignment ts : sound snd true ts (parse_value_assignment ts).
Proof.
  unfold parse_value_assignment. call fine_take. intros [x r] H. parts. call sound_type. intros [ty r1] H. parts.
  call fine_take. intros [x1 r2] H. parts. eapply fine_bind; [auto|auto|apply fine_to, fine_value|now tails|].
  intros [v r3] H. parts. cbn. now tails.
Qed.
Lemma sound_type_assignment ts : sound snd true ts (parse_type_assignment ts).
Proof.
  unfold parse_type_assignment. call fine_take. intros [x r] H. parts.
  eapply fine_attempt; [auto|auto|apply fine_to, fine_params|now tails| |].
  - intros [ps r1] H. parts. cbv zeta. call fine_take. intros [x1 r2] H. parts. call sound_type. intros [ty r3] H. parts. cbn. now tails.
  - cbv zeta. call fine_take. intros [x1 r2] H. parts. call sound_type. intros [ty r3] H. parts. cbn. now tails.
Qed.
Lemma sound_class_assignment ts : sound snd true ts (parse_class_assignment ts).
Proof.
  unfold parse_class_assignment. call fine_take. intros [x r] H. parts. call fine_take. intros [x1 r1] H. parts.
  call sound_class. intros [c r2] H. parts. cbn. now tails.
Qed.
Lemma sound_object_set_assignment ts : sound snd true ts (parse_object_set_assignment ts).
Proof.
  unfold parse_object_set_assignment. call fine_take. intros [x r] H. parts.
  destruct r as [|c r]; [exact Logic.I|]. cbn [take]. destruct (is_class_reference c) eqn:Hc; [|exact Logic.I]. cbn [rbind snd fst].
  destruct r as [|e r]; [exact Logic.I|]. cbn [take]. destruct (is Assignment e) eqn:He; [|exact Logic.I]. cbn [rbind snd fst].
  unfold parse_object_set.
  destruct r as [|b r]; [exact Logic.I|]. cbn [take]. destruct (is CurlyBegin b) eqn:Hb; [|exact Logic.I]. cbn [rbind snd fst].
  match goal with |- context [object_set_loop ?n ?a ?b ?c ?r] => pose proof (fine_object_set_loop n a b c r) as Hf;
    destruct (object_set_loop n a b c r) as [[[]]| | |] end; cbn in *; auto; try contradiction.
  - parts. now tails.
  - right. exists (t :: w), c, e, b, r. split; [reflexivity|].
    unfold is_class_reference in Hc. apply andb_prop in Hc. destruct Hc as [Hc _].
    unfold is_type_reference in Hc. apply andb_prop in Hc. destruct Hc as [Hc1 Hc2].
    repeat split; try (now apply is_true). now apply starts_upper.
Qed.
Lemma sound_definition ts : sound snd true ts (parse_definition ts).
Proof.
  unfold parse_definition. destruct ts as [|t r]; [exact Logic.I|].
  destruct (is_value_reference t).
  - unfold parse_valueish. eapply fine_attempt; [auto|auto|apply fine_to, fine_object_assignment|now tails| |].
    + now intros [x r1] H.
    + apply sound_value_assignment.
  - destruct (is_type_reference t); [|exact Logic.I]. unfold parse_typeish.
    eapply fine_attempt; [auto|auto|apply sound_type_assignment|now tails| |].
    + now intros [x r1] H.
    + eapply fine_attempt; [auto|auto|apply sound_class_assignment|now tails| |].
      * now intros [x r1] H.
      * apply sound_object_set_assignment.
Qed.

(* ------------------------------------------------------------------ *)
(* Modules                                                             *)
(* ------------------------------------------------------------------ *)
Lemma fine_module_name ts : fine never never snd true ts (parse_module_name ts).
Proof.
  unfold parse_module_name. call fine_take. intros [x r] H. parts. cbn [snd].
  destruct r as [|t1 r]; [cbn; now tails|]. destruct (is CurlyBegin t1); [|cbn; now tails].
  eapply fine_bind; [auto|auto|apply fine_oid|now tails|]. intros r1 H. parts. cbn. now tails.
Qed.
Lemma fine_imported_loop : forall n acc ts, (List.length ts < n)%nat -> fine never never snd true ts (imported_loop n acc ts).
Proof.
  induction n as [|n IH]; intros acc ts Hn; [lia|]. cbn [imported_loop]. apply fine_expect. intros t r ->.
  destruct (kw "FROM" t); [cbn; now tails|]. call fine_skip_if. intros r1 H. parts.
  match goal with |- context [imported_loop n ?a ?r] => pose proof (IH a r ltac:(lens)) as Hf end. finish Hf.
Qed.
Lemma rfold_imports name : forall l m,
  (exists m', rfold (fun m k => match lookup k m with Some _ => Err | None => Ok (m ++ [(k, name)]) end) m l = Ok m') \/
  rfold (fun (m : list (string * string)) k => match lookup k m with Some _ => Err | None => Ok (m ++ [(k, name)]) end) m l = Err.
Proof.
  induction l as [|k l IH]; intros m; cbn; [eauto|]. destruct (lookup k m); cbn; auto.
Qed.
Lemma fine_imports_loop : forall n imports ts, (List.length ts < n)%nat -> fine never never snd true ts (imports_loop n imports ts).
Proof.
  induction n as [|n IH]; intros imports ts Hn; [lia|]. cbn [imports_loop].
  eapply fine_bind; [auto|auto|apply fine_imported_loop; lia|now tails|]. intros [l r] H. parts.
  call fine_module_name. intros [name r1] H. parts. cbn [fst snd].
  destruct (rfold_imports name l imports) as [[m ->]| ->]; cbn [rbind]; [|exact Logic.I].
  apply fine_expect. intros t1 r2 ->. destruct (is SemiColon t1); [cbn; now tails|].
  match goal with |- context [imports_loop n ?a ?r] => pose proof (IH a r ltac:(lens)) as Hf end. finish Hf.
Qed.
Lemma fine_imports ts : fine never never snd false ts (parse_module_imports ts).
Proof.
  unfold parse_module_imports. apply fine_expect. intros t r ->. destruct (kw "IMPORTS" t); [|cbn; now tails]. cbn [skipn].
  match goal with |- context [imports_loop ?n ?a ?r] => pose proof (fine_imports_loop n a r ltac:(cbn; lia)) as Hf end. finish Hf.
Qed.
Lemma fine_header_tags ts : fine never never id false ts (skip_header_tags ts).
Proof.
  unfold skip_header_tags. apply fine_expect. intros t r ->. destruct (_ || _); [|cbn; now tails]. cbn [skipn].
  call fine_take. intros [x r1] H. parts. cbn. now tails.
Qed.
Lemma sound_definitions_loop : forall n defs ts, (List.length ts < n)%nat -> sound snd true ts (definitions_loop n defs ts).
Proof.
  induction n as [|n IH]; intros defs ts Hn; [lia|]. cbn [definitions_loop]. apply fine_expect. intros t r ->.
  destruct (kw "END" t); [cbn; now tails|]. call sound_definition. intros [d r1] H.
  destruct H as (t1 & w & H). cbn [snd fst] in *. rewrite H in *. clear H.
  match goal with |- context [definitions_loop n ?a ?r] => pose proof (IH a r ltac:(lens)) as Hf end. finish Hf.
  - now apply (up_cut_off (t1 :: w)).
  - now apply (up_opens (t1 :: w)).
Qed.
Lemma sound_module ts : sound snd true ts (parse_module ts).
Proof.
  unfold parse_module.
  eapply fine_bind; [auto|auto|apply fine_to, fine_module_name|now tails|]. intros [name r] H. parts.
  call fine_take. intros [x r1] H. parts.
  eapply fine_bind; [auto|auto|apply fine_to, fine_header_tags|now tails|]. intros r2 H. parts.
  call fine_take. intros [x1 r3] H. parts. call fine_take. intros [x2 r4] H. parts.
  eapply fine_bind; [auto|auto|apply fine_to, fine_imports|now tails|]. intros [i r5] H. parts.
  eapply fine_bind; [auto|auto|apply sound_definitions_loop; cbn; lia|now tails|]. intros [d r6] H. parts. cbn. now tails.
Qed.
Lemma sound_modules_loop : forall n acc ts, (List.length ts < n)%nat -> sound (fun _ => []) false ts (modules_loop n acc ts).
Proof.
  induction n as [|n IH]; intros acc ts Hn; [lia|]. cbn [modules_loop]. call sound_module. intros [m r] H. parts. cbn [fst snd].
  destruct r as [|t1 r].
  - cbn. exists (t :: w). reflexivity.
  - match goal with |- context [modules_loop n ?a ?r] => pose proof (IH a r ltac:(lens)) as Hf end.
    destruct (modules_loop n _ _); cbn in *; auto.
    + eexists. now rewrite app_nil_r.
    + now apply (up_cut_off (t :: w)).
    + now apply (up_opens (t :: w)).
Qed.
