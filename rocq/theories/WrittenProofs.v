(* The names in the modules that the parser reads are names of ASN.1 (C68). *)
From Coq Require Import ZArith NArith List Bool String Ascii Lia.
From Coq Require Import ZifyBool ZifyNat ZifyN.
Require Import Verif.Base Verif.Asn1Model Verif.GenModel Verif.ResolveModel Verif.TokenModel Verif.ParserModel Verif.ModuleModel Verif.DefinitionModel
  Verif.CompilerSpec Verif.ModuleProofs Verif.ResolveProofs Verif.LegalSpec Verif.SpelledProofs Verif.ReadProofs Verif.ReadDefProofs.
Require Verif.TokenSpec Verif.TokenProofs.
Import ListNotations.
Open Scope string_scope.
Open Scope list_scope.
Notation neat := (LegalSpec.neat asn_name).
Notation named := (LegalSpec.named asn_name).
Notation named_field := (LegalSpec.named_field asn_name).
Notation named_object := (LegalSpec.named_object asn_name).
Notation named_definition := (LegalSpec.named_definition asn_name).
Notation well_spelled := (LegalSpec.well_spelled asn_name).

(* ------------------------------------------------------------------ *)
(* Tokens                                                              *)
(* ------------------------------------------------------------------ *)
Definition clean (t : tok) : Prop := (t_type t = Identifier \/ t_type t = NumberInt) -> neat (t_text t).
Notation Clean := (Forall clean).
Lemma clean_suffix r ts : suffix r ts -> Clean ts -> Clean r.
Proof. intros [w ->] H. now apply Forall_app in H. Qed.
Lemma len_suffix (r ts : list tok) : suffix r ts -> (List.length r <= List.length ts)%nat.
Proof. intros [w ->]. rewrite app_length. lia. Qed.
Lemma lower_same c : lower_ascii c = GenModel.is_lower c.
Proof. unfold lower_ascii, GenModel.is_lower, code. lia. Qed.
Lemma upper_same c : upper_ascii c = GenModel.is_upper c.
Proof. unfold upper_ascii, GenModel.is_upper, code. lia. Qed.
Lemma is_eq ty t : is ty t = true -> t_type t = ty.
Proof. unfold is. destruct (t_type t), ty; cbn; congruence. Qed.
Lemma value_name_ok t : clean t -> is_value_reference t = true -> asn_name (t_text t).
Proof.
  intros Hc H. apply andb_prop in H. destruct H as [H1 H2]. apply is_eq in H1. specialize (Hc (or_introl H1)).
  unfold LegalSpec.neat in Hc. destruct (t_text t) as [|c s]; [discriminate|]. cbn [starts chars] in *. rewrite lower_same in H2. apply Hc. now rewrite H2.
Qed.
Lemma type_name_ok t : clean t -> is_type_reference t = true -> asn_name (t_text t).
Proof.
  intros Hc H. apply andb_prop in H. destruct H as [H1 H2]. apply is_eq in H1. specialize (Hc (or_introl H1)).
  unfold LegalSpec.neat in Hc. destruct (t_text t) as [|c s]; [discriminate|]. cbn [starts chars] in *. rewrite upper_same in H2. apply Hc. rewrite H2. apply orb_true_r.
Qed.
Lemma param_ok t : clean t -> is_param t = true -> neat (t_text t).
Proof. intros Hc H. apply orb_prop in H. destruct H as [H|H]; apply is_eq in H; apply Hc; tauto. Qed.

Ltac bind H x Q := lazymatch type of H with rbind ?m _ = Ok _ => destruct m as [x| | |] eqn:Q; try discriminate H; cbn [rbind] in H end.
Lemma took p ts s r : take p ts = Ok (s, r) -> exists t, ts = t :: r /\ p t = true /\ s = t_text t.
Proof. destruct ts as [|t ts]; cbn [take]; [discriminate|]. destruct (p t) eqn:Hp; [|discriminate]. intros H. injection H as <- <-. now exists t. Qed.
Lemma skipped p ts r : skip_if p ts = Ok r -> suffix r ts.
Proof. destruct ts as [|t ts]; cbn [skip_if]; [discriminate|]. intros H. injection H as <-. destruct (p t); [apply suffix_cons|]; apply suffix_refl. Qed.
Lemma expected p ts b : expect p ts = Ok b -> exists t r, ts = t :: r /\ b = p t.
Proof. destruct ts as [|t ts]; cbn; [discriminate|]. intros H. injection H as <-. now exists t, ts. Qed.
Lemma got (P D : list tok -> Prop) A (f : A -> list tok) s ts m a : fine P D f s ts m -> m = Ok a -> suffix (f a) ts.
Proof. intros H ->. destruct s; cbn in H; [now apply reads_suffix|exact H]. Qed.
Lemma attempted {A} (m : res A) o : attempt m = Ok o -> match o with Some a => m = Ok a | None => True end.
Proof. destruct m; cbn; intros H; try discriminate H; injection H as <-; auto. Qed.
Lemma skipn_suffix n (ts : list tok) : suffix (skipn n ts) ts.
Proof. exists (firstn n ts). symmetry. apply firstn_skipn. Qed.
Lemma suffix_trans a b c : suffix a b -> suffix b c -> suffix a c.
Proof. intros [u ->] [v ->]. exists (v ++ u). now rewrite app_assoc. Qed.

(* ------------------------------------------------------------------ *)
(* Enumerations and parameters                                         *)
(* ------------------------------------------------------------------ *)
Definition enum_ok (v : enum_value) : Prop := asn_name (ev_name v).
Lemma named_maybe_ok ts x r : Clean ts -> parse_named_maybe_value ts = Ok (x, r) -> asn_name (fst x) /\ Clean r.
Proof.
  intros Hc H. pose proof (clean_suffix _ _ (got _ _ _ _ _ _ _ _ (fine_named_maybe ts) H) Hc) as Hr. split; [|exact Hr].
  unfold parse_named_maybe_value in H. bind H y Q. destruct y as [s r1]. apply took in Q. destruct Q as (t & -> & Hp & ->). inversion_clear Hc as [|? ? Ht _].
  cbn [fst snd] in H. pose proof (value_name_ok t Ht Hp). destruct r1 as [|t1 r1]; [injection H as <- <-; assumption|].
  destruct (is RoundBegin t1); [|injection H as <- <-; assumption]. bind H v Q. bind H w Q2. injection H as <- <-. assumption.
Qed.
Lemma enum_loop_ok n : forall acc ts l r, Clean ts -> Forall enum_ok acc -> enum_values_loop n acc ts = Ok (l, r) -> Forall enum_ok l.
Proof.
  induction n as [|n IH]; intros acc ts l r Hc Ha H; cbn [enum_values_loop] in H; [discriminate|].
  bind H x Q. destruct x as [x r1]. cbn [fst snd] in H. apply named_maybe_ok in Q; [|exact Hc]. destruct Q as [Hx Hr1].
  bind H r2 Q2. apply skipped in Q2. pose proof (clean_suffix _ _ Q2 Hr1) as Hr2. bind H b Q3.
  assert (Ha' : Forall enum_ok (acc ++ [mkEnumValue (fst x) (snd x)])) by (apply Forall_app; split; [exact Ha|constructor; [exact Hx|constructor]]).
  destruct b; [injection H as <- <-; exact Ha'|eapply IH; eassumption].
Qed.
Lemma enumerated_ok ts b r cs : Clean ts -> parse_enumerated_type ts = Ok (b, r) -> named (mkType (KBuiltin b) cs).
Proof.
  unfold parse_enumerated_type. intros Hc H. bind H x Q. destruct x as [s r1]. apply took in Q. destruct Q as (t & -> & _ & _). inversion_clear Hc as [|? ? _ Hc1]. cbn [snd] in H.
  bind H x Q. destruct x as [s1 r2]. apply took in Q. destruct Q as (t1 & -> & _ & _). inversion_clear Hc1 as [|? ? _ Hc2]. cbn [snd] in H.
  bind H root Q. destruct root as [l r3]. unfold parse_enum_values in Q. apply enum_loop_ok in Q; [|exact Hc2|constructor].
  bind H m Q1. bind H r4 Q2. bind H r5 Q3. bind H e Q4. bind H y Q5. injection H as <- <-. exact Q.
Qed.
Definition param_neat (p : actual_param) : Prop := neat (param_string p).
Lemma actual_loop_ok n : forall acc ts l r, Clean ts -> Forall param_neat acc -> actual_params_loop n acc ts = Ok (l, r) -> Forall param_neat l.
Proof.
  induction n as [|n IH]; intros acc ts l r Hc Ha H; cbn [actual_params_loop] in H; [discriminate|].
  bind H b Q. bind H s Q1.
  assert (H1 : Forall param_neat (fst s) /\ Clean (snd s)).
  { destruct b; [|injection Q1 as <-; now split]. apply expected in Q. destruct Q as (t & r1 & -> & _). cbn [skipn] in Q1. inversion_clear Hc as [|? ? _ Hc1].
    bind Q1 p Qp. destruct p as [p r2]. apply took in Qp. destruct Qp as (t1 & -> & Hp & ->). inversion_clear Hc1 as [|? ? Ht1 Hc2]. cbn [fst snd] in Q1.
    bind Q1 e Qe. destruct e as [e r3]. apply took in Qe. destruct Qe as (t2 & -> & _ & _). inversion_clear Hc2 as [|? ? _ Hc3]. injection Q1 as <-. cbn [fst snd]. split; [|exact Hc3].
    apply Forall_app. split; [exact Ha|]. constructor; [exact (param_ok t1 Ht1 Hp)|constructor]. }
  clear Q Q1. destruct H1 as [Hs1 Hs2]. destruct s as [acc1 ts1]. cbn [fst snd] in *. bind H b2 Q. bind H s Q1.
  assert (H1 : Forall param_neat (fst s) /\ Clean (snd s)).
  { destruct b2; [|injection Q1 as <-; now split]. bind Q1 p Qp. destruct p as [p r2]. apply took in Qp. destruct Qp as (t1 & -> & Hp & ->). inversion_clear Hs2 as [|? ? Ht1 Hc2].
    injection Q1 as <-. cbn [fst snd]. split; [|exact Hc2]. apply Forall_app. split; [exact Hs1|]. constructor; [exact (param_ok t1 Ht1 Hp)|constructor]. }
  destruct H1 as [Hu1 Hu2]. bind H r1 Q2. apply skipped in Q2. bind H stop Q3. destruct stop; [injection H as <- <-; exact Hu1|].
  eapply IH; [|exact Hu1|exact H]. exact (clean_suffix _ _ Q2 Hu2).
Qed.
Lemma referenced_ok ts k r cs : Clean ts -> parse_referenced_type ts = Ok (k, r) -> named (mkType (KReference k) cs).
Proof.
  intros Hc H. unfold parse_referenced_type in H. bind H c Q.
  assert (HK : forall m : option bool,
    (x <-- match m, ts with
            | Some true, _ => Ok (concat_tokens (firstn 3 ts) "", skipn 3 ts)
            | _, t :: r => Ok (t_text t, r)
            | _, [] => Panic
            end ;;
      ps <-- match snd x with
             | t :: _ => if is CurlyBegin t then parse_actual_params (snd x) else Ok ([], snd x)
             | [] => Ok ([], [])
             end ;;
      Ok (match fst ps with [] => RefName (fst x) | l => RefParam (fst x) l end, snd ps)) = Ok (k, r) -> named (mkType (KReference k) cs)).
  { clear H Q. intros m H. bind H x Q.
    assert (Hs : suffix (snd x) ts).
    { destruct m as [[|]|]; [injection Q as <-; apply (skipn_suffix 3)|destruct ts; [discriminate|]; injection Q as <-; apply suffix_cons, suffix_refl..]. }
    pose proof (clean_suffix _ _ Hs Hc) as Hx. clear Q Hs. destruct x as [s r1]. cbn [fst snd] in *. bind H ps Q. injection H as <- <-.
    assert (Hp : Forall param_neat (fst ps)).
    { destruct r1 as [|t r1]; [injection Q as <-; constructor|]. destruct (is CurlyBegin t); [|injection Q as <-; constructor].
      unfold parse_actual_params in Q. bind Q y Qy. destruct y as [z r2]. apply took in Qy. destruct Qy as (t2 & [= -> ->] & _ & _). cbn [snd] in Q. destruct ps as [l r3].
      inversion_clear Hx as [|? ? _ Hx2]. eapply actual_loop_ok; [exact Hx2|constructor|exact Q]. }
    destruct (fst ps); [exact Logic.I|exact Hp]. }
  destruct c as [[|]|]; [destruct ts as [|t [|d [|f ts]]]; try (injection H as <- <-; exact Logic.I)| |]; bind H m Q2; exact (HK m H).
Qed.

(* ------------------------------------------------------------------ *)
(* Types                                                               *)
(* ------------------------------------------------------------------ *)
Notation seq_ok := (fun c => match c with mkSeqComp id t _ _ => asn_name id /\ named t end).
Notation alt_ok := (fun c : string * asn_type => match c with (id, t) => asn_name id /\ named t end).
Lemma all_app {A} (P : A -> Prop) l x : all P l -> P x -> all P (l ++ [x]).
Proof. induction l as [|y l IH]; cbn; [now split|]. intros [Hy Hl] Hx. split; [exact Hy|now apply IH]. Qed.
Section Step.
Context (N : nat) (rec_type : list tok -> res (asn_type * list tok)) (rec_set : list tok -> res (element_set * list tok)).
Context (Htype : forall ts, (List.length ts < N)%nat -> safe snd true ts (rec_type ts)).
Context (Hset : forall ts, (List.length ts < N)%nat -> safe snd true ts (rec_set ts)).
Context (Hnamed : forall ts t r, (List.length ts < N)%nat -> Clean ts -> rec_type ts = Ok (t, r) -> named t).
Definition G (ts : list tok) : Prop := Clean ts /\ (List.length ts <= N)%nat.
Lemma G_suffix r ts : suffix r ts -> G ts -> G r.
Proof. intros H [H1 H2]. split; [exact (clean_suffix _ _ H H1)|]. apply len_suffix in H. lia. Qed.
Lemma component_ok ts id t r : G ts -> parse_component rec_type ts = Ok (id, t, r) -> asn_name id /\ named t /\ G r.
Proof.
  intros Hg H. pose proof (got _ _ _ _ _ _ _ _ (safe_component N rec_type rec_set Htype Hset ts (proj2 Hg)) H) as Hr. pose proof (G_suffix _ _ Hr Hg) as Hgr. cbn [snd] in Hgr.
  unfold parse_component in H. bind H x Q. destruct x as [s r1]. apply took in Q. destruct Q as (t1 & -> & Hp & ->). destruct Hg as [Hc Hl]. inversion_clear Hc as [|? ? Ht Hc1].
  cbn [fst snd List.length] in *. bind H y Q. injection H as <- <- <-. destruct y as [ty r2]. split; [now apply value_name_ok|]. split; [|exact Hgr].
  eapply Hnamed; [|exact Hc1|exact Q]. lia.
Qed.
Lemma seq_component_ok ts c r : G ts -> parse_seq_component rec_type ts = Ok (c, r) -> match c with Some c => seq_ok c | None => True end /\ G r.
Proof.
  intros Hg H. pose proof (got _ _ _ _ _ _ _ _ (safe_seq_component N rec_type rec_set Htype Hset ts (proj2 Hg)) H) as Hr. split; [|exact (G_suffix _ _ Hr Hg)].
  unfold parse_seq_component in H. bind H o Q. apply attempted in Q. destruct o as [[[id t] r1]|]; [|injection H as <- <-; exact Logic.I].
  apply component_ok in Q; [|exact Hg]. destruct Q as (Hid & Ht & _). bind H o Q. bind H r2 Q2. bind H d Q3. bind H v Q4. destruct (d && o); [discriminate|].
  injection H as <- <-. now split.
Qed.
Lemma seq_group_loop_ok n : forall acc ts l r, G ts -> all seq_ok acc -> seq_group_loop rec_type n acc ts = Ok (l, r) -> all seq_ok l.
Proof.
  induction n as [|n IH]; intros acc ts l r Hg Ha H; cbn [seq_group_loop] in H; [discriminate|]. bind H c Q. destruct c as [c r1]. apply seq_component_ok in Q; [|exact Hg].
  destruct Q as [Hc Hg1]. cbn [fst snd] in H. destruct c as [c|]; [|injection H as <- <-; exact Ha]. bind H r2 Q2. apply skipped in Q2.
  eapply IH; [exact (G_suffix _ _ Q2 Hg1)| |exact H]. now apply all_app.
Qed.
Lemma seq_group_ok ts l r : G ts -> parse_seq_addition_group rec_type ts = Ok (l, r) -> all seq_ok l /\ G r.
Proof.
  intros Hg H. pose proof (got _ _ _ _ _ _ _ _ (safe_seq_group N rec_type rec_set Htype Hset ts (proj2 Hg)) H) as Hr. split; [|exact (G_suffix _ _ Hr Hg)].
  unfold parse_seq_addition_group in H. bind H x Q. destruct x as [s r1]. apply took in Q. destruct Q as (t1 & -> & _ & _). assert (Hg1 : G r1) by (apply (G_suffix _ _ (suffix_cons _ t1 _ (suffix_refl r1)) Hg)).
  cbn [snd] in H. bind H r2 Q. apply (got _ _ _ _ _ _ _ _ (fine_version r1)) in Q. pose proof (G_suffix _ _ Q Hg1) as Hg2. unfold id in Hg2.
  bind H y Q2. destruct y as [l1 r3]. apply seq_group_loop_ok in Q2; [|exact Hg2|exact Logic.I]. cbn [fst snd] in H. destruct l1; [discriminate|]. bind H z Q3. injection H as <- <-. exact Q2.
Qed.
Lemma sequence_loop_ok n : forall root adds m ts root' adds' m' r, G ts -> all seq_ok root -> all (all seq_ok) adds ->
  sequence_loop rec_type n root adds m ts = Ok (root', adds', m', r) -> all seq_ok root' /\ all (all seq_ok) adds'.
Proof.
  induction n as [|n IH]; intros root adds m ts root' adds' m' r Hg Hroot Hadds H; cbn [sequence_loop] in H; [discriminate|].
  bind H c Q. apply attempted in Q.
  set (p := match c with Some (Some x, r) => (root ++ [x], r) | Some (None, r) => (root, r) | None => (root, ts) end) in *.
  assert (Hp : all seq_ok (fst p) /\ G (snd p)).
  { subst p. destruct c as [[[c|] r1]|]; [apply seq_component_ok in Q; [|exact Hg]; destruct Q as [Q1 Q2]..|]; cbn [fst snd]; split; auto. now apply all_app. }
  clearbody p. clear Q. destruct p as [root1 ts1]. cbn [fst snd] in Hp. destruct Hp as [Hroot1 Hg1].
  bind H g Q. bind H a Q2.
  assert (Hp : all (all seq_ok) (fst a) /\ G (snd a)).
  { destruct g; [|injection Q2 as <-; now split]. destruct (Nat.eqb m 1); [|discriminate]. bind Q2 x Q3. destruct x as [l r1]. injection Q2 as <-. apply seq_group_ok in Q3; [|exact Hg1].
    destruct Q3 as [Q3 Q4]. cbn [fst snd]. split; [now apply all_app|exact Q4]. }
  destruct Hp as [Hadds1 Hg2]. bind H ts2 Q3. apply skipped in Q3. pose proof (G_suffix _ _ Q3 Hg2) as Hg3. bind H mk Q4. bind H ts3 Q5.
  assert (Hg4 : G ts3).
  { destruct mk; [|injection Q5 as <-; exact Hg3]. apply skipped in Q5. eapply G_suffix; [|exact Hg3]. eapply suffix_trans; [exact Q5|apply (skipn_suffix 1)]. }
  bind H stop Q6. destruct stop; [injection H as <- <- <- <-; now split|]. eapply IH; [exact Hg4|exact Hroot1|exact Hadds1|exact H].
Qed.
Lemma choice_group_loop_ok n : forall acc ts l r, G ts -> all alt_ok acc -> choice_group_loop rec_type n acc ts = Ok (l, r) -> all alt_ok l.
Proof.
  induction n as [|n IH]; intros acc ts l r Hg Ha H; cbn [choice_group_loop] in H; [discriminate|]. bind H c Q. apply attempted in Q.
  set (p := match c with Some x => (acc ++ [fst x], snd x) | None => (acc, ts) end) in *.
  assert (Hp : all alt_ok (fst p) /\ G (snd p)).
  { subst p. destruct c as [[[id t] r1]|]; [apply component_ok in Q; [|exact Hg]; destruct Q as (Q1 & Q2 & Q3)|]; cbn [fst snd]; split; auto. apply all_app; [exact Ha|now split]. }
  clearbody p. clear Q. destruct p as [acc1 ts1]. cbn [fst snd] in Hp. destruct Hp as [Ha1 Hg1]. bind H ts2 Q. apply skipped in Q. bind H stop Q2.
  destruct stop; [injection H as <- <-; exact Ha1|]. eapply IH; [exact (G_suffix _ _ Q Hg1)|exact Ha1|exact H].
Qed.
Lemma choice_group_ok ts l r : G ts -> parse_choice_addition_group rec_type ts = Ok (l, r) -> all alt_ok l /\ G r.
Proof.
  intros Hg H. pose proof (got _ _ _ _ _ _ _ _ (anyway_choice_group N rec_type rec_set Htype Hset ts (proj2 Hg)) H) as Hr. split; [|exact (G_suffix _ _ Hr Hg)].
  unfold parse_choice_addition_group in H. bind H x Q. destruct x as [s r1]. apply took in Q. destruct Q as (t1 & -> & _ & _). assert (Hg1 : G r1) by (apply (G_suffix _ _ (suffix_cons _ t1 _ (suffix_refl r1)) Hg)).
  cbn [snd] in H. bind H r2 Q. apply (got _ _ _ _ _ _ _ _ (fine_version r1)) in Q. pose proof (G_suffix _ _ Q Hg1) as Hg2. unfold id in Hg2.
  bind H y Q2. destruct y as [l1 r3]. apply choice_group_loop_ok in Q2; [|exact Hg2|exact Logic.I]. cbn [fst snd] in H. destruct l1; [discriminate|]. injection H as <- <-. exact Q2.
Qed.
Lemma choice_loop_ok n : forall root gs single m ts root' gs' single' m' r, G ts -> all alt_ok root -> all (all alt_ok) gs -> all alt_ok single ->
  choice_loop rec_type n root gs single m ts = Ok (root', gs', single', m', r) -> all alt_ok root' /\ all (all alt_ok) gs' /\ all alt_ok single'.
Proof.
  induction n as [|n IH]; intros root gs single m ts root' gs' single' m' r Hg Hroot Hgs Hsingle H; cbn [choice_loop] in H; [discriminate|].
  bind H c Q. apply attempted in Q.
  set (p := match c with Some x => if m then (root, single ++ [fst x], snd x) else (root ++ [fst x], single, snd x) | None => (root, single, ts) end) in *.
  assert (Hp : all alt_ok (fst (fst p)) /\ all alt_ok (snd (fst p)) /\ G (snd p)).
  { subst p. destruct c as [[[id t] r1]|]; [apply component_ok in Q; [|exact Hg]; destruct Q as (Q1 & Q2 & Q3); destruct m|]; cbn [fst snd]; (split; [|split]); auto; apply all_app; auto. }
  clearbody p. clear Q. destruct p as [[root1 single1] ts1]. cbn [fst snd] in Hp. destruct Hp as (Hroot1 & Hsingle1 & Hg1).
  bind H g Q. bind H a Q2.
  assert (Hp : all (all alt_ok) (fst a) /\ G (snd a)).
  { destruct g; [|injection Q2 as <-; now split]. destruct m; [|discriminate]. bind Q2 x Q3. destruct x as [l r1]. injection Q2 as <-. apply choice_group_ok in Q3; [|exact Hg1].
    destruct Q3 as [Q3 Q4]. cbn [fst snd]. split; [now apply all_app|exact Q4]. }
  destruct Hp as [Hgs1 Hg2]. bind H ts2 Q3. apply skipped in Q3. pose proof (G_suffix _ _ Q3 Hg2) as Hg3. bind H mk Q4. bind H ts3 Q5.
  assert (Hg4 : G ts3).
  { destruct mk; [destruct m; [discriminate|]|injection Q5 as <-; exact Hg3]. apply skipped in Q5. eapply G_suffix; [|exact Hg3]. eapply suffix_trans; [exact Q5|apply (skipn_suffix 1)]. }
  bind H stop Q6. destruct stop; [injection H as <- <- <- <- <-; now repeat split|]. eapply IH; [exact Hg4|exact Hroot1|exact Hgs1|exact Hsingle1|exact H].
Qed.
Lemma choice_ok ts k r cs : G ts -> parse_choice_type rec_type ts = Ok (k, r) -> named (mkType k cs).
Proof.
  unfold parse_choice_type. intros Hg H. bind H x Q. destruct x as [s r1]. apply took in Q. destruct Q as (t1 & -> & _ & _). cbn [snd] in H.
  bind H x Q. destruct x as [s1 r2]. apply took in Q. destruct Q as (t2 & -> & _ & _). cbn [snd] in H.
  assert (Hg2 : G r2) by (apply (G_suffix _ _ (suffix_cons _ t1 _ (suffix_cons _ t2 _ (suffix_refl r2))) Hg)).
  bind H l Q. destruct l as [[[[root gs] single] m] r3]. apply choice_loop_ok in Q; [|exact Hg2|exact Logic.I..]. destruct Q as (Q1 & Q2 & Q3). injection H as <- <-.
  split; [exact Q1|]. destruct m; [|exact Logic.I]. destruct single; [rewrite app_nil_r; exact Q2|]. now apply all_app.
Qed.
Lemma sequence_ok ts k r cs : G ts -> parse_seq_or_seq_of_type rec_type rec_set ts = Ok (k, r) -> named (mkType k cs).
Proof.
  unfold parse_seq_or_seq_of_type. intros Hg H. bind H x Q. destruct x as [s r1]. apply took in Q. destruct Q as (t1 & -> & _ & _). cbn [snd] in H. bind H b Q.
  assert (Hg1 : G r1) by (apply (G_suffix _ _ (suffix_cons _ t1 _ (suffix_refl r1)) Hg)). destruct b.
  - unfold parse_sequence_type in H. cbn [skipn] in H. bind H x Q2. destruct x as [s1 r2]. apply took in Q2. destruct Q2 as (t2 & -> & _ & _). cbn [snd] in H.
    assert (Hg2 : G r2) by (apply (G_suffix _ _ (suffix_cons _ t2 _ (suffix_refl r2)) Hg1)).
    bind H l Q2. destruct l as [[[root adds] m] r3]. apply sequence_loop_ok in Q2; [|exact Hg2|exact Logic.I..]. injection H as <- <-. exact Q2.
  - unfold parse_sequence_of_type in H. cbn [skipn] in H. bind H o Q2. apply attempted in Q2.
    set (p := match o with Some x => (Some (fst x), snd x) | None => (None, r1) end) in *.
    assert (Hp : Clean (snd p) /\ (List.length (snd p) < N)%nat).
    { destruct Hg as [Hc Hl]. cbn [List.length] in Hl. subst p. destruct o as [[c r2]|]; cbn [fst snd]; [|split; [apply Hg1|lia]].
      apply (got _ _ _ _ _ _ _ _ (safe_constraint N rec_type rec_set Htype Hset r1 ltac:(lia))) in Q2. cbn [snd] in Q2. pose proof (len_suffix _ _ Q2). split; [exact (clean_suffix _ _ Q2 (proj1 Hg1))|lia]. }
    clearbody p. destruct p as [size r2]. cbn [snd] in Hp. bind H x Q3. destruct x as [s2 r3]. apply took in Q3. destruct Q3 as (t3 & -> & _ & _). cbn [snd] in H.
    destruct Hp as [Hc Hl]. inversion_clear Hc as [|? ? _ Hc3]. cbn [List.length] in Hl. bind H y Q4. destruct y as [ty r4]. injection H as <- <-. cbn [fst]. cbn [LegalSpec.named]. eapply Hnamed; [|exact Hc3|exact Q4]. lia.
Qed.
Lemma kind_ok ts k r cs : G ts -> parse_kind rec_type rec_set ts = Ok (k, r) -> named (mkType k cs).
Proof.
  intros Hg H. unfold parse_kind in H. destruct ts as [|t ts]; [discriminate|].
  destruct (String.eqb _ "BIT"). { bind H x Q. unfold parse_bitstring_type in Q. bind Q b Qb. destruct b; [|discriminate]. bind Q y Qy. injection Q as <-. injection H as <- <-. exact Logic.I. }
  destruct (String.eqb _ "OCTET"). { bind H x Q. injection H as <- <-. exact Logic.I. }
  destruct (String.eqb _ "CHARACTER"). { bind H x Q. injection H as <- <-. exact Logic.I. }
  destruct (String.eqb _ "ENUMERATED"). { bind H x Q. destruct x as [b r1]. injection H as <- <-. eapply enumerated_ok; [exact (proj1 Hg)|exact Q]. }
  destruct (String.eqb _ "INTEGER"). { bind H x Q. unfold parse_integer_type in Q. bind Q y Qy. bind Q z Qz. injection Q as <-. injection H as <- <-. exact Logic.I. }
  destruct (String.eqb _ "OBJECT"). { bind H b Q. destruct b; [|discriminate]. injection H as <- <-. exact Logic.I. }
  destruct (String.eqb _ "BOOLEAN"). { injection H as <- <-. exact Logic.I. }
  destruct (String.eqb _ "NULL"). { injection H as <- <-. exact Logic.I. }
  destruct (existsb _ _). { injection H as <- <-. exact Logic.I. }
  destruct (String.eqb _ "CHOICE"). { eapply choice_ok; [exact Hg|exact H]. }
  destruct (String.eqb _ "SEQUENCE"). { eapply sequence_ok; [exact Hg|exact H]. }
  destruct (String.eqb _ "RELATIVE-OID"). { injection H as <- <-. exact Logic.I. }
  bind H x Q. destruct x as [y r1]. injection H as <- <-. eapply referenced_ok; [exact (proj1 Hg)|exact Q].
Qed.
Lemma type_ok ts t r : G ts -> type_step rec_type rec_set ts = Ok (t, r) -> named t.
Proof.
  intros Hg H. unfold type_step in H. bind H b Q. destruct b; [|discriminate]. bind H k Q2. destruct k as [k r1]. bind H cs Q3. injection H as <- <-. eapply kind_ok; [exact Hg|exact Q2].
Qed.
End Step.
Lemma depth_ok n : forall ts t r, (List.length ts < n)%nat -> Clean ts -> type_depth n ts = Ok (t, r) -> named t.
Proof.
  induction n as [|n IH]; intros ts t r Hl Hc H; [discriminate|]. cbn [type_depth] in H.
  refine (type_ok n _ _ _ _ _ ts t r _ H); [intros; now apply safe_depth..|exact IH|]. split; [exact Hc|lia].
Qed.
Lemma parse_type_ok ts t r : Clean ts -> parse_type ts = Ok (t, r) -> named t.
Proof. unfold parse_type. intros Hc H. eapply depth_ok; [|exact Hc|exact H]. lia. Qed.

(* ------------------------------------------------------------------ *)
(* What the tokenizer yields                                           *)
(* ------------------------------------------------------------------ *)
Lemma byte_code z : (0 <= z < 128)%Z -> code (byte z) = z.
Proof. intros H. unfold code, byte. rewrite N_ascii_embedding by lia. lia. Qed.
Lemma utf8_small z r : (z < 128)%Z -> utf8_char z r = String (byte z) r.
Proof. intros H. unfold utf8_char. replace (z <? 128)%Z with true by lia. reflexivity. Qed.
Lemma word_chars w : Forall TokenSpec.word w -> Forall (fun c => GenModel.is_alnum c = true \/ c = "-"%char) (chars (utf8 w)).
Proof.
  induction 1 as [|z w Hz _ IH]; cbn [utf8 fold_right]; [constructor|]. fold (utf8 w). unfold TokenSpec.word, TokenSpec.letter, TokenSpec.digit, TokenSpec.hyphen in Hz.
  rewrite utf8_small by lia. cbn [chars]. constructor; [|exact IH]. destruct (Z.eq_dec z 45) as [->|]; [right; reflexivity|left].
  unfold GenModel.is_alnum, GenModel.is_lower, GenModel.is_upper, GenModel.is_digit. rewrite byte_code by lia. lia.
Qed.
Lemma name_lexeme num ty w rest : TokenSpec.lexeme num ty w rest -> ty = Identifier \/ ty = NumberInt ->
  match w with
  | [] => False
  | z :: _ => (TokenSpec.letter z /\ Forall TokenSpec.word w /\ TokenSpec.text_of ty w = w) \/
      ((TokenSpec.digit z \/ z = TokenSpec.hyphen) /\ TokenSpec.text_of ty w = w)
  end.
Proof.
  intros H. destruct H as [w rest Hb Hw H1 H2 H3|w rest H0 Hw H1 H2 H3|w rest Hb Hw H1|w rest Hb Hw H1 H2| | | | | | | | | | |ty c rest Hin| | | | | | |]; intros Hk;
    try (destruct Hk as [Hk|Hk]; discriminate Hk).
  - destruct w as [|z w]; [destruct Hb|]. left. split; [exact Hb|]. split; [exact Hw|]. destruct Hk as [-> | ->]; reflexivity.
  - destruct w as [|z w]; [destruct Hb|]. right. split; [now left|reflexivity].
  - right. split; [now right|reflexivity].
  - exfalso. destruct Hk as [-> | ->]; repeat destruct Hin as [Hin|Hin]; try discriminate Hin; exact Hin.
Qed.
Lemma token_clean num t w rest : TokenSpec.lexeme (fun c => num c = true) (tk_type t) w rest -> tk_text t = TokenSpec.text_of (tk_type t) w -> clean (tok_of t).
Proof.
  intros H Ht Hk. unfold tok_of in *. cbn [t_type t_text] in *. rewrite Ht. clear Ht. pose proof (name_lexeme _ _ _ _ H Hk) as Hw.
  destruct w as [|z w]; [destruct Hw|]. destruct Hw as [(Hz & Hw & Htx)|[Hz Htx]]; rewrite Htx.
  - pose proof (word_chars _ Hw) as Hc. unfold LegalSpec.neat, asn_name, identifier, type_reference. cbn [utf8 fold_right] in *. fold (utf8 w) in *. unfold TokenSpec.letter in Hz. rewrite utf8_small in * by lia.
    cbn [chars] in *. intros Hl. apply orb_prop in Hl. destruct Hl as [Hl|Hl]; [left|right]; now split.
  - unfold LegalSpec.neat. cbn [utf8 fold_right]. unfold TokenSpec.digit, TokenSpec.hyphen in Hz. rewrite utf8_small by lia. cbn [chars].
    unfold GenModel.is_lower, GenModel.is_upper. rewrite byte_code by lia. lia.
Qed.
Lemma tokens_clean num pre cs toks : TokenSpec.tokens_of (fun c => num c = true) pre cs toks -> Clean (map tok_of toks).
Proof. induction 1; cbn [map]; auto. constructor; [|assumption]. eapply token_clean; eassumption. Qed.

(* ------------------------------------------------------------------ *)
(* Definitions                                                         *)
(* ------------------------------------------------------------------ *)
Definition spec_ok (kf : string * field_spec) : Prop :=
  match snd kf with FSType _ (Some t) _ | FSValue t _ _ _ _ => named t | FSType _ None _ => True end.
Lemma forall_replace {A} (P : string * A -> Prop) k v l : P (k, v) -> Forall P l -> Forall P (replace k v l).
Proof.
  intros Hk. induction 1 as [|[a b] l Hx Hl IH]; cbn [replace]; [constructor; [exact Hk|constructor]|]. destruct (String.eqb k a); constructor; auto.
Qed.
Lemma field_ok ts k f r : Clean ts -> parse_field_spec ts = Ok (k, f, r) -> spec_ok (k, f) /\ Clean r.
Proof.
  intros Hc H. split; [|exact (clean_suffix _ _ (got _ _ _ _ _ _ _ _ (sound_field ts) H) Hc)].
  unfold parse_field_spec in H. bind H v Q. destruct v.
  - unfold parse_value_field_spec in H. bind H x Q1. destruct x as [s r1]. apply took in Q1. destruct Q1 as (t & -> & _ & _). inversion_clear Hc as [|? ? _ Hc1]. cbn [fst snd] in H.
    bind H y Q2. destruct y as [ty r2]. apply parse_type_ok in Q2; [|exact Hc1]. bind H u Q3. bind H o Q4. bind H d Q5. cbn [fst snd] in H.
    destruct o; [injection H as <- <- <-; exact Q2|]. destruct d; [|injection H as <- <- <-; exact Q2]. bind H w Q6. destruct u as [[|]|]; try discriminate H; injection H as <- <- <-; exact Q2.
  - bind H v Q1. destruct v; [|discriminate]. unfold parse_type_field_spec in H. bind H x Q2. destruct x as [s r1]. apply took in Q2. destruct Q2 as (t & -> & _ & _). inversion_clear Hc as [|? ? _ Hc1]. cbn [fst snd] in H.
    bind H o Q4. bind H d Q5. destruct o; [injection H as <- <- <-; exact Logic.I|]. destruct d; [|injection H as <- <- <-; exact Logic.I].
    bind H y Q6. destruct y as [ty r2]. injection H as <- <- <-. apply parse_type_ok in Q6; [exact Q6|]. exact (clean_suffix _ _ (skipn_suffix 1 r1) Hc1).
Qed.
Lemma fields_ok n : forall fields ts c r, Clean ts -> Forall spec_ok fields -> fields_loop n fields ts = Ok (c, r) -> Forall spec_ok c.
Proof.
  induction n as [|n IH]; intros fields ts c r Hc Hf H; cbn [fields_loop] in H; [discriminate|]. bind H f Q. destruct f as [[k f] r1]. apply field_ok in Q; [|exact Hc]. destruct Q as [Q1 Q2].
  cbn [fst snd] in H. pose proof (forall_replace _ k f fields Q1 Hf) as Hf1. destruct r1 as [|t r1]; [discriminate|]. inversion_clear Q2 as [|? ? _ Q3].
  destruct (is Comma t); [eapply IH; eassumption|]. destruct (is CurlyEnd t); [|discriminate]. injection H as <- <-. exact Hf1.
Qed.
Lemma found_in {A} k (l : list (string * A)) v : lookup k l = Some v -> In (k, v) l.
Proof.
  induction l as [|[a b] l IH]; [discriminate|]. cbn [lookup]. destruct (String.eqb k a) eqn:He; [|intros H; right; now apply IH].
  apply String.eqb_eq in He. subst. intros H. injection H as <-. now left.
Qed.
Lemma with_syntax_ok n : forall o fields ts c r, Forall spec_ok fields -> with_syntax_loop n o fields ts = Ok (c, r) -> Forall spec_ok c.
Proof.
  induction n as [|n IH]; intros o fields ts c r Hf H; cbn [with_syntax_loop] in H; [discriminate|]. bind H g Q. cbv zeta in H.
  destruct (words_before _ _) as [words r1]. destruct (existsb _ words); [discriminate|]. bind H x Q1. destruct (lookup (fst x) fields) as [f|] eqn:Hl; [|discriminate].
  assert (Hf1 : Forall spec_ok (replace (fst x) (with_syntax (concat_tokens words " ") f) fields)).
  { apply forall_replace; [|exact Hf]. apply found_in in Hl. rewrite Forall_forall in Hf. specialize (Hf _ Hl). destruct f as [? [t|] ?|]; exact Hf. }
  destruct (_ && _); [discriminate|]. bind H r2 Q2. bind H e Q3. bind H o2 Q4. bind H stop Q5. destruct stop; [destruct o2; [discriminate|]; injection H as <- <-; exact Hf1|].
  eapply IH; eassumption.
Qed.
Lemma class_ok ts c r : Clean ts -> parse_class ts = Ok (c, r) -> Forall spec_ok c.
Proof.
  unfold parse_class. intros Hc H. bind H x Q. destruct x as [s r1]. apply took in Q. destruct Q as (t & -> & _ & _). inversion_clear Hc as [|? ? _ Hc1]. cbn [snd] in H.
  bind H x Q. destruct x as [s1 r2]. apply took in Q. destruct Q as (t1 & -> & _ & _). inversion_clear Hc1 as [|? ? _ Hc2]. cbn [snd] in H.
  bind H f Q. destruct f as [f r3]. apply fields_ok in Q; [|exact Hc2|constructor]. cbn [fst snd] in H. unfold parse_with_syntax in H. bind H b Q2.
  destruct b; [|injection H as <- <-; exact Q]. bind H y Q3. eapply with_syntax_ok; eassumption.
Qed.
Definition parsed_ok (d : parsed_def) : Prop :=
  asn_name (pd_id d) /\ match pd_params d with Some p => Clean (snd p) | None => True end /\
  match pd_kind d with PAType t => named t | PAClass c => Forall spec_ok c | _ => True end.
Lemma definition_ok ts d r : Clean ts -> parse_definition ts = Ok (d, r) -> parsed_ok d /\ Clean r.
Proof.
  intros Hc H. split; [|exact (clean_suffix _ _ (got _ _ _ _ _ _ _ _ (sound_definition ts) H) Hc)].
  unfold parse_definition in H. destruct ts as [|t ts]; [discriminate|]. destruct (is_value_reference t) eqn:Hv.
  - assert (Hn : asn_name (t_text t)) by (inversion_clear Hc; now apply value_name_ok). unfold parse_valueish in H. bind H o Q. apply attempted in Q. destruct o as [x|].
    + injection H as ->. unfold parse_object_assignment in Q. bind Q b Q1. destruct b; [|discriminate]. destruct ts as [|c ts]; [discriminate|]. bind Q x Q2. bind Q v Q3. injection Q as <- _.
      split; [exact Hn|]. split; exact Logic.I.
    + unfold parse_value_assignment in H. bind H i Q1. destruct i as [s r1]. apply took in Q1. destruct Q1 as (t1 & [= <- <-] & _ & ->). bind H y Q2. bind H z Q3. bind H v Q4. injection H as <- _.
      split; [exact Hn|]. split; exact Logic.I.
  - destruct (is_type_reference t) eqn:Ht; [|discriminate]. assert (Hn : asn_name (t_text t)) by (inversion_clear Hc; now apply type_name_ok).
    assert (Hc1 : Clean ts) by now inversion Hc.
    unfold parse_typeish in H. bind H o Q. apply attempted in Q. destruct o as [x|].
    + injection H as ->. unfold parse_type_assignment in Q. bind Q i Q1. destruct i as [s r1]. apply took in Q1. destruct Q1 as (t1 & [= <- <-] & _ & ->). cbn [fst snd] in Q. bind Q p Q1. apply attempted in Q1.
      assert (Hr1 : Clean (match p with Some x => snd x | None => ts end)).
      { destruct p as [[l r2]|]; [|exact Hc1]. apply (got _ _ _ _ _ _ _ _ (fine_params ts)) in Q1. exact (clean_suffix _ _ Q1 Hc1). }
      bind Q x Q2. destruct x as [s r2]. apply took in Q2. destruct Q2 as (t2 & E2 & _ & _). rewrite E2 in Hr1. inversion_clear Hr1 as [|? ? _ Hr2]. cbn [snd] in Q.
      bind Q y Q3. destruct y as [ty r3]. cbn [fst snd] in Q. injection Q as <- _. apply parse_type_ok in Q3; [|exact Hr2]. split; [exact Hn|]. split; [|exact Q3]. cbn [pd_params].
      destruct p as [q|]; [|exact Logic.I]. cbn [snd]. unfold before. apply Forall_forall. intros z Hz. rewrite Forall_forall in Hr2. apply Hr2. rewrite <- (firstn_skipn (List.length r2 - List.length r3) r2). apply in_or_app. now left.
    + bind H o Q1. apply attempted in Q1. destruct o as [x|].
      * injection H as ->. unfold parse_class_assignment in Q1. bind Q1 i Q2. destruct i as [s r1]. apply took in Q2. destruct Q2 as (t1 & [= <- <-] & _ & ->). cbn [fst snd] in Q1.
        bind Q1 x Q2. destruct x as [s r2]. apply took in Q2. destruct Q2 as (t2 & -> & _ & _). inversion_clear Hc1 as [|? ? _ Hc2]. cbn [snd] in Q1. bind Q1 c Q3. destruct c as [c r3]. injection Q1 as <- _.
        split; [exact Hn|]. split; [exact Logic.I|]. eapply class_ok; eassumption.
      * unfold parse_object_set_assignment in H. bind H i Q2. destruct i as [s r1]. apply took in Q2. destruct Q2 as (t1 & [= <- <-] & _ & ->). bind H c Q3. bind H x Q4. bind H z Q5. injection H as <- _.
        split; [exact Hn|]. split; exact Logic.I.
Qed.
Definition entry_ok (kd : string * parsed_def) : Prop := asn_name (fst kd) /\ parsed_ok (snd kd).
Definition module_ok (m : parsed_module) : Prop := Forall entry_ok (pm_defs m).
Lemma definitions_ok n : forall defs ts l r, Clean ts -> Forall entry_ok defs -> definitions_loop n defs ts = Ok (l, r) -> Forall entry_ok l.
Proof.
  induction n as [|n IH]; intros defs ts l r Hc Hd H; cbn [definitions_loop] in H; [discriminate|]. bind H stop Q. destruct stop; [injection H as <- <-; exact Hd|].
  bind H d Q1. destruct d as [d r1]. apply definition_ok in Q1; [|exact Hc]. destruct Q1 as [Q1 Q2]. cbn [fst snd] in H. eapply IH; [exact Q2| |exact H]. apply forall_replace; [|exact Hd]. split; [exact (proj1 Q1)|exact Q1].
Qed.
Lemma parse_module_ok ts m r : Clean ts -> parse_module ts = Ok (m, r) -> module_ok m /\ Clean r.
Proof.
  intros Hc H. split; [|exact (clean_suffix _ _ (got _ _ _ _ _ _ _ _ (sound_module ts) H) Hc)]. unfold parse_module in H.
  bind H nm Q. apply (got _ _ _ _ _ _ _ _ (fine_module_name ts)) in Q. apply clean_suffix in Q; [|exact Hc]. clear Hc. rename Q into Hc. destruct nm as [nm r1]. cbn [fst snd] in *.
  bind H x Q. destruct x as [s r2]. apply took in Q. destruct Q as (t & -> & _ & _). inversion_clear Hc as [|? ? _ Hc2]. cbn [snd] in H.
  bind H r3 Q. apply (got _ _ _ _ _ _ _ _ (fine_header_tags r2)) in Q. apply clean_suffix in Q; [|exact Hc2]. unfold id in Q.
  bind H x Q1. destruct x as [s1 r4]. apply took in Q1. destruct Q1 as (t1 & -> & _ & _). inversion_clear Q as [|? ? _ Hc3]. cbn [snd] in H.
  bind H x Q1. destruct x as [s2 r5]. apply took in Q1. destruct Q1 as (t2 & -> & _ & _). inversion_clear Hc3 as [|? ? _ Hc4]. cbn [snd] in H.
  bind H i Q1. apply (got _ _ _ _ _ _ _ _ (fine_imports r5)) in Q1. apply clean_suffix in Q1; [|exact Hc4]. destruct i as [i r6]. cbn [fst snd] in *.
  bind H d Q2. destruct d as [d r7]. injection H as <- <-. eapply definitions_ok; [exact Q1|constructor|exact Q2].
Qed.
Lemma modules_ok n : forall acc ts ms, Clean ts -> Forall module_ok acc -> modules_loop n acc ts = Ok ms -> Forall module_ok ms.
Proof.
  induction n as [|n IH]; intros acc ts ms Hc Ha H; cbn [modules_loop] in H; [discriminate|]. bind H m Q. destruct m as [m r]. apply parse_module_ok in Q; [|exact Hc]. destruct Q as [Q1 Q2]. cbn [fst snd] in H.
  assert (Ha1 : Forall module_ok (acc ++ [m])) by (apply Forall_app; split; [exact Ha|constructor; [exact Q1|constructor]]). destruct r as [|t r]; [injection H as <-; exact Ha1|]. eapply IH; eassumption.
Qed.
Lemma substitute_clean a b ts : neat b -> Clean ts -> Clean (substitute a b ts).
Proof.
  intros Hb H. unfold substitute. apply Forall_map. eapply Forall_impl; [|exact H]. intros t Ht. cbn beta. destruct (String.eqb _ _); [|exact Ht]. intros _. exact Hb.
Qed.
Lemma apply_params_ok d p actual t : d_params d = Some p -> Clean (snd p) -> Forall param_neat actual -> apply_params d actual = Ok t -> named t.
Proof.
  intros Hd Hc Ha H. unfold apply_params in H. rewrite Hd in H. destruct p as [l toks]. cbn [snd] in Hc. destruct (Nat.eqb _ _); [|discriminate]. bind H x Q. injection H as <-. destruct x as [ty r].
  eapply parse_type_ok; [|exact Q]. clear Q Hd. revert toks Hc. revert l. induction Ha as [|a actual Hp _ IH]; intros l toks Hc; destruct l as [|n l]; cbn [combine fold_left]; try exact Hc.
  apply IH. now apply substitute_clean.
Qed.

(* ------------------------------------------------------------------ *)
(* Objects and files                                                   *)
(* ------------------------------------------------------------------ *)
Section Files.
Context (num : Z -> bool) (Hnum : TokenSpec.numeric_table num).
Lemma tokenized cs toks : tokenize num cs = Ok toks -> Clean (map tok_of toks).
Proof. intros H. eapply tokens_clean. exact (TokenProofs.C39_sound num Hnum cs toks H). Qed.
Lemma field_spec_found words c k f : field_with_words words c = Some (k, f) -> In (k, f) c.
Proof.
  induction c as [|[a b] c IH]; cbn [field_with_words]; [discriminate|]. destruct (syntax_of b) as [s|]; [destruct (String.eqb s words)|]; intros H; try (right; now apply IH). injection H as <- <-. now left.
Qed.
Lemma object_loop_ok c toks : Forall spec_ok c -> Clean toks -> forall segs n fields l, Forall named_field fields -> object_loop c toks n fields segs = Ok l -> Forall named_field l.
Proof.
  intros Hc Ht. induction segs as [|w segs IH]; intros n fields l Hf H; cbn [object_loop] in H; [injection H as <-; exact Hf|]. cbv zeta in H.
  destruct (field_with_words _ c) as [[k f]|] eqn:Hk; [|eapply IH; eassumption]. apply field_spec_found in Hk. rewrite Forall_forall in Hc. specialize (Hc _ Hk). bind H ts Q. bind H v Q1.
  assert (Hts : Clean ts). { unfold slice_from in Q. destruct (Nat.ltb _ _); [discriminate|]. injection Q as <-. exact (clean_suffix _ _ (skipn_suffix _ _) Ht). }
  assert (Hv : named_field (k, fst v)).
  { destruct f as [o d s|t u o d s]; cbn [value_from_field_spec] in Q1; bind Q1 y Q2; injection Q1 as <-; unfold LegalSpec.named_field; cbn [fst snd]; [|exact Hc].
    destruct y as [ty r]. eapply parse_type_ok; eassumption. }
  pose proof (forall_replace _ k (fst v) fields Hv Hf) as Hf1. destruct (Nat.eqb _ _); [injection H as <-; exact Hf1|]. eapply IH; eassumption.
Qed.
Lemma default_ok c : Forall spec_ok c -> forall fields, Forall named_field fields -> Forall named_field (default_fields c fields).
Proof.
  unfold default_fields. induction 1 as [|[k f] c Hf _ IH]; intros fields H; cbn [fold_left]; [exact H|]. apply IH. cbn [fst snd]. destruct (lookup k fields); [exact H|].
  destruct f as [o [t|] s|t u o [v|] s]; try exact H; apply Forall_app; (split; [exact H|]); (constructor; [exact Hf|constructor]).
Qed.
Lemma removelast_suffix {A} (P : A -> Prop) l : Forall P l -> Forall P (removelast l).
Proof. induction 1 as [|x l Hx Hl IH]; cbn; [constructor|]. destruct l; [constructor|]. constructor; assumption. Qed.
Lemma object_ok s c v : Forall spec_ok c -> parse_object_from_class num s c = Ok v -> named_object v.
Proof.
  intros Hc H. unfold parse_object_from_class in H. bind H toks Q. apply tokenized in Q. cbv zeta in H. destruct (Nat.ltb _ 2); [discriminate|]. bind H fields Q1. injection H as <-.
  cbn [LegalSpec.named_object]. apply default_ok; [exact Hc|]. eapply object_loop_ok; [exact Hc| |constructor|exact Q1]. apply removelast_suffix. exact (clean_suffix _ _ (skipn_suffix 1 _) Q).
Qed.
Definition classes_ok (l : list (string * class)) : Prop := Forall (fun kc => Forall spec_ok (snd kc)) l.
Lemma element_ok c e y : Forall spec_ok c -> element_from_class num c e = Ok y -> match y with OObject v => named_object v | _ => True end.
Proof. intros Hc H. destruct e; cbn [element_from_class] in H; [injection H as <-; exact Logic.I..|]. bind H v Q. injection H as <-. eapply object_ok; eassumption. Qed.
Lemma elements_ok c : Forall spec_ok c -> forall l l', rmap (element_from_class num c) l = Ok l' -> Forall (fun e => match e with OObject v => named_object v | _ => True end) l'.
Proof.
  intros Hc. induction l as [|e l IH]; intros l' H; [injection H as <-; constructor|]. rewrite rmap_cons in H. bind H y Q. bind H l1 Q1. injection H as <-. constructor; [eapply element_ok; eassumption|now apply IH].
Qed.
Lemma linked_ok classes d d' : classes_ok classes -> parsed_ok d -> resolve_object_class num classes d = Ok d' -> named_definition d'.
Proof.
  intros Hcl (Hn & Hp & Hk) H. unfold resolve_object_class in H. bind H a Q. injection H as <-. unfold LegalSpec.named_definition. cbn [d_params d_kind].
  destruct (pd_params d) as [p|]; [intros actual t Ha Ht; eapply apply_params_ok; [|exact Hp|exact Ha|exact Ht]; reflexivity|].
  assert (Hfound : forall cls c, lookup cls classes = Some c -> Forall spec_ok c) by (intros cls c Hl; apply found_in in Hl; unfold classes_ok in Hcl; rewrite Forall_forall in Hcl; exact (Hcl _ Hl)).
  destruct (pd_kind d) as [t v|t|c|cls input|cls root more]; try (injection Q as <-); try exact Logic.I; try exact Hk.
  - destruct (lookup cls classes) as [c|] eqn:Hl; [|discriminate]. bind Q v Q1. injection Q as <-. exact (object_ok _ _ _ (Hfound _ _ Hl) Q1).
  - destruct (lookup cls classes) as [c|] eqn:Hl; [|discriminate]. bind Q r Q1. bind Q m Q2. injection Q as <-. apply Forall_app. split; [exact (elements_ok _ (Hfound _ _ Hl) _ _ Q1)|exact (elements_ok _ (Hfound _ _ Hl) _ _ Q2)].
Qed.
Lemma classes_of_ok m classes : module_ok m -> classes_ok classes -> classes_ok (classes_of m classes).
Proof.
  unfold module_ok, classes_of. intros H. revert classes. induction H as [|[k d] l Hd _ IH]; intros classes Hc; cbn [fold_left]; [exact Hc|]. apply IH. cbn [fst snd].
  destruct Hd as (_ & _ & _ & Hk). cbn [snd] in Hk. destruct (pd_kind d); try exact Hc. apply forall_replace; assumption.
Qed.
Lemma link_ok modules : Forall (fun nm => module_ok (snd nm)) modules -> forall order classes linked, classes_ok classes -> link num modules classes order = Ok linked -> well_spelled linked.
Proof.
  intros Hm. induction order as [|name order IH]; intros classes linked Hc H; cbn [link] in H; [injection H as <-; intros a m k d []|].
  destruct (lookup name modules) as [pm|] eqn:Hl; [|discriminate]. apply found_in in Hl. rewrite Forall_forall in Hm. specialize (Hm _ Hl) as Hpm. cbn [snd] in Hpm. rewrite <- Forall_forall in Hm. cbv zeta in H.
  pose proof (classes_of_ok pm classes Hpm Hc) as Hc1. bind H defs Q. bind H rest Q1. injection H as <-. apply IH in Q1; [|exact Hc1].
  intros a m k d [E|Hin] Hk; [|exact (Q1 a m k d Hin Hk)]. injection E as <- <-. cbn [m_defs] in Hk.
  revert defs Q Hk. unfold module_ok in Hpm. induction Hpm as [|[n p] l [Hn Hp] _ IHl]; intros defs Q Hk; [injection Q as <-; destruct Hk|].
  rewrite rmap_cons in Q. bind Q y Qy. bind Q l1 Ql. injection Q as <-. cbn [snd] in Qy. bind Qy d1 Qd. injection Qy as <-. cbn [fst snd] in *. destruct Hk as [E|Hk].
  - injection E as <- <-. split; [exact Hn|]. eapply linked_ok; [exact Hc1|exact Hp|exact Qd].
  - exact (IHl l1 eq_refl Hk).
Qed.
Lemma add_file_ok modules text modules' : Forall (fun nm => module_ok (snd nm)) modules -> add_file num modules text = Ok modules' -> Forall (fun nm => module_ok (snd nm)) modules'.
Proof.
  intros Hm H. unfold add_file in H. bind H toks Q. apply tokenized in Q. bind H ms Q1. injection H as <-. unfold parse in Q1. cbv zeta in Q1.
  apply modules_ok in Q1; [|rewrite Forall_map in *; rewrite Forall_forall in *; intros x Hx; apply filter_In in Hx; now apply Q|constructor].
  apply Forall_rev in Q1. revert modules Hm. induction Q1 as [|m l Hx _ IH]; intros modules Hm; cbn [fold_left]; [exact Hm|]. apply IH. now apply forall_replace.
Qed.
Lemma add_files_ok files : forall modules modules', Forall (fun nm => module_ok (snd nm)) modules -> rfold (add_file num) modules files = Ok modules' -> Forall (fun nm => module_ok (snd nm)) modules'.
Proof.
  induction files as [|f files IH]; intros modules modules' Hm H; cbn [rfold] in H; [injection H as <-; exact Hm|]. bind H m1 Q. eapply IH; [|exact H]. eapply add_file_ok; eassumption.
Qed.
Lemma files_words E depth fuel files orders prog : compile_files num E depth fuel files orders = Ok prog ->
  forall n d, In (n, d) prog -> LegalSpec.word n /\ Forall LegalSpec.word (item_names d).
Proof.
  unfold compile_files. intros H. bind H parsed Q. bind H u Q1. bind H linked Q2. apply add_files_ok in Q; [|constructor]. apply link_ok in Q2; [|exact Q|constructor].
  exact (compiled_words E depth fuel linked orders prog Q2 H).
Qed.
End Files.

(* a text with a parameterized definition *)
Definition C68_text : string := "M DEFINITIONS AUTOMATIC TAGS ::= BEGIN
  Cause ::= ENUMERATED { not-allowed, type }
  Pair{T} ::= SEQUENCE { the-First T, second CHOICE { fooBar T } }
  S1AP-PDU ::= Pair{Cause}
END".
Lemma C68_files_case_proof :
  TokenSpec.numeric_table TokenModel.is_digit /\
  exists prog, compile_files TokenModel.is_digit {| overflow_checks := true; little_endian := true |} 2 2 [chars_of C68_text] [("M", ["Cause"; "Pair"; "S1AP-PDU"])] = Ok prog /\
  In ("S1AP_PDU", GSequence false None [mkField "the_first" None false "Cause"; mkField "second" None false "S1AP_PDUSecond"]) prog /\
  In ("S1AP_PDUSecond", GChoice 0 0 false [mkVariant "FooBar" 0 false "Cause"]) prog.
Proof.
  split; [exact TokenProofs.numeric_digits|]. eexists. split; [vm_compute; reflexivity|]. split; cbn [In]; auto 10.
Qed.
