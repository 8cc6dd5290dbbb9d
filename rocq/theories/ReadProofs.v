(* What the parser does on any tokens: it reads a beginning of them, it panics
   only where the text is cut off and runs for ever only where a list opens. *)
From Coq Require Import ZArith NArith List Bool String Ascii Lia.
From Coq Require Import ZifyBool ZifyNat ZifyN.
Require Import Verif.Base Verif.Asn1Model Verif.TokenModel Verif.ParserModel Verif.ParserSpec.
Import ListNotations.
Open Scope string_scope.
Open Scope list_scope.

Definition suffix (r ts : list tok) : Prop := exists w, ts = w ++ r.
Lemma suffix_refl r : suffix r r. Proof. now exists []. Qed.
Lemma suffix_cons r t ts : suffix r ts -> suffix r (t :: ts).
Proof. intros [w ->]. now exists (t :: w). Qed.
Lemma suffix_app r w ts : suffix r ts -> suffix r (w ++ ts).
Proof. intros [v ->]. exists (w ++ v). now rewrite app_assoc. Qed.
Lemma reads_cons r t ts : suffix r ts -> reads (t :: ts) r.
Proof. intros [w ->]. now exists t, w. Qed.
Lemma reads_app r w ts : reads ts r -> reads (w ++ ts) r.
Proof. intros (t & v & ->). destruct w as [|t' w]; [now exists t, v|]. exists t', (w ++ t :: v). cbn. now rewrite <- app_assoc. Qed.
Lemma reads_suffix r ts : reads ts r -> suffix r ts.
Proof. intros (t & v & ->). now exists (t :: v). Qed.

Definition Rel (strict : bool) (r ts : list tok) : Prop := if strict then reads ts r else suffix r ts.
Definition up (P : list tok -> Prop) : Prop := forall w ts, P ts -> P (w ++ ts).

Lemma up_cut_off : up cut_off.
Proof. intros w ts (v & t & -> & H). exists (w ++ v), t. rewrite app_assoc. now split. Qed.
Lemma up_opens_list : up opens_list.
Proof. intros w ts (a & t & b & r & -> & H). exists (w ++ a), t, b, r. rewrite app_assoc. now split. Qed.
Lemma up_False : up (fun _ => False). Proof. now intros w ts H. Qed.

Definition fine (P D : list tok -> Prop) {A} (f : A -> list tok) (strict : bool) (ts : list tok) (m : res A) : Prop :=
  match m with Ok a => Rel strict (f a) ts | Err => True | Panic => P ts | Diverge => D ts end.

Lemma fine_weaken (P D P' D' : list tok -> Prop) A (f : A -> list tok) s s' ts m :
  (forall ts, P ts -> P' ts) -> (forall ts, D ts -> D' ts) -> (s' = true -> s = true) ->
  fine P D f s ts m -> fine P' D' f s' ts m.
Proof.
  intros HP HD Hs H. destruct m; cbn in *; auto. destruct s, s'; cbn in *; auto; [now apply reads_suffix|].
  now specialize (Hs eq_refl).
Qed.

Section Fine.
Context (P D : list tok -> Prop) (UP : up P) (UD : up D).
Notation fine := (fine P D).

Lemma fine_bind A B (f : A -> list tok) s (g : B -> list tok) s' ts cur m k :
  fine f s cur m -> suffix cur ts -> (forall a, Rel s (f a) cur -> fine g s' ts (k a)) -> fine g s' ts (rbind m k).
Proof.
  intros H [w ->] Hk. destruct m; cbn in *; auto.
Qed.
Lemma fine_attempt A B (f : A -> list tok) s (g : B -> list tok) s' ts cur m k :
  fine f s cur m -> suffix cur ts -> (forall a, Rel s (f a) cur -> fine g s' ts (k (Some a))) -> fine g s' ts (k None) ->
  fine g s' ts (rbind (attempt m) k).
Proof.
  intros H [w ->] Hk. destruct m; cbn in *; auto.
Qed.
Lemma fine_expect B (g : B -> list tok) s ts p cur k :
  (forall t r, cur = t :: r -> fine g s ts (k (p t))) -> fine g s ts (rbind (expect p cur) k).
Proof. intros H. destruct cur; cbn; eauto. Qed.
Lemma fine_take p ts : fine snd true ts (take p ts).
Proof. destruct ts as [|t r]; cbn; auto. destruct (p t); cbn; auto. now exists t, []. Qed.
Lemma fine_skip_if p ts : fine id false ts (skip_if p ts).
Proof. destruct ts as [|t r]; cbn; auto. destruct (p t); [apply suffix_cons|]; apply suffix_refl. Qed.
End Fine.
#[global] Hint Resolve up_cut_off up_opens_list up_False : core.

Ltac tail_step :=
  lazymatch goal with
  | |- suffix ?r ?r => apply suffix_refl
  | |- suffix _ (_ :: _) => apply suffix_cons
  | |- suffix _ (_ ++ _) => apply suffix_app
  | |- reads (_ :: _) _ => apply reads_cons
  | |- reads (_ ++ _) _ => apply reads_app
  end.
Ltac tails := unfold id in *; cbn [Rel fst snd id skipn] in *; repeat tail_step.
(* split what a call has read off its tokens *)
Ltac parts := unfold id in *;
  cbn [Rel fst snd id skipn] in *;
  repeat match goal with
  | H : reads ?c _ |- _ => let t := fresh "t" in let w := fresh "w" in destruct H as (t & w & H); first [subst c | rewrite ?H]
  | H : suffix _ ?c |- _ => let w := fresh "w" in destruct H as (w & H); first [subst c | rewrite ?H]
  end.
Ltac lens := unfold id in *; cbn [fst snd skipn Datatypes.length] in *; repeat (progress (rewrite ?app_length in *; cbn [Datatypes.length] in *)); lia.

(* ------------------------------------------------------------------ *)
(* Values, named numbers, enumerations                                 *)
(* ------------------------------------------------------------------ *)
Notation never := (fun _ : list tok => False).

Lemma fine_set_ish b e : forall ts level, fine never never id true ts (set_ish_loop b e level ts).
Proof.
  intros ts. induction ts as [|t r IH]; intros level; cbn [set_ish_loop]; [exact Logic.I|].
  cbv zeta. destruct r as [|t' r']; [exact Logic.I|].
  set (l := if is b t then _ else _). clearbody l.
  assert (Hgo : forall l, fine never never id true (t :: t' :: r') (set_ish_loop b e l (t' :: r'))).
  { intros l'. specialize (IH l'). destruct (set_ish_loop b e l' (t' :: r')); cbn in *; auto.
    destruct IH as (t1 & w & Hw). rewrite Hw. exists t, (t1 :: w). reflexivity. }
  destruct (is e t'); [|apply Hgo].
  destruct (_ =? 0)%Z; [|apply Hgo].
  cbn. exists t, [t']. reflexivity.
Qed.
Lemma fine_set_ish_value ts : fine never never snd true ts (parse_set_ish_value ts).
Proof.
  unfold parse_set_ish_value. destruct ts as [|t r]; [exact Logic.I|].
  destruct (is CurlyBegin t); [|destruct (is RoundBegin t); [|exact Logic.I]]; cbn [rbind fst snd];
  (eapply fine_bind; [auto|auto|apply fine_set_ish|tails|intros a Ha; exact Ha]).
Qed.
Lemma fine_value ts : fine never never snd true ts (parse_value ts).
Proof.
  unfold parse_value. destruct ts as [|t r]; [exact Logic.I|].
  destruct (_ || _); [cbn; now tails|].
  destruct (_ || _); [apply fine_set_ish_value|exact Logic.I].
Qed.
Lemma fine_named_maybe ts : fine never never snd true ts (parse_named_maybe_value ts).
Proof.
  unfold parse_named_maybe_value.
  eapply fine_bind; [auto|auto|apply fine_take|tails|]. intros [s r] H. parts.
  destruct r as [|t1 r]; [cbn; now tails|].
  destruct (is RoundBegin t1); [|cbn; now tails].
  destruct r as [|n r]; [exact Logic.I|].
  destruct (is NumberInt n); [|destruct (is_value_reference n); [|exact Logic.I]]; cbn [rbind fst snd];
  (eapply fine_bind; [auto|auto|apply fine_take|tails; now tails|]; intros [s' r'] H; parts; cbn; now tails).
Qed.
Lemma fine_named_values_loop : forall n ts, (List.length ts < n)%nat -> fine never never id true ts (named_values_loop n ts).
Proof.
  induction n as [|n IH]; intros ts Hn; [lia|]. cbn [named_values_loop].
  eapply fine_bind; [auto|auto|apply fine_named_maybe|tails|]. intros [[s o] r] H. parts.
  destruct o; [|exact Logic.I]. destruct r as [|t1 r]; [exact Logic.I|].
  destruct (is Comma t1).
  - assert (Hl : (List.length r < n)%nat) by lens. specialize (IH r Hl).
    destruct (named_values_loop n r); cbn in *; auto. parts. now tails.
  - destruct (is CurlyEnd t1); [|exact Logic.I]. cbn. now tails.
Qed.
Lemma fine_maybe_named ts : fine never never id false ts (maybe_named_values ts).
Proof.
  unfold maybe_named_values. destruct ts as [|t r]; [apply suffix_refl|].
  destruct (is CurlyBegin t); [|apply suffix_refl]. unfold parse_named_values.
  eapply fine_bind; [auto|auto|apply fine_take|tails|]. intros [s r'] H. parts.
  pose proof (fine_named_values_loop (S (List.length r')) r' ltac:(lia)) as Hf.
  destruct (named_values_loop _ r'); cbn in *; auto. parts. now tails.
Qed.
Lemma fine_integer ts : fine never never snd true ts (parse_integer_type ts).
Proof.
  unfold parse_integer_type. eapply fine_bind; [auto|auto|apply fine_take|tails|]. intros [s r] H. parts.
  eapply fine_bind; [auto|auto|apply fine_maybe_named|tails; now tails|]. intros r' H. parts. cbn. now tails.
Qed.
Lemma expect_all_ok ps ts b : expect_all ps ts = Ok b -> (List.length ps <= List.length ts)%nat /\ b = all_match ps ts.
Proof. unfold expect_all. destruct (Nat.ltb _ _) eqn:H; [discriminate|]. intros E. injection E as <-. apply Nat.ltb_ge in H. now split. Qed.
Lemma expect_all_cases ps ts : (exists b, expect_all ps ts = Ok b) \/ expect_all ps ts = Err.
Proof. unfold expect_all. destruct (Nat.ltb _ _); eauto. Qed.
Lemma fine_bitstring ts : fine never never snd true ts (parse_bitstring_type ts).
Proof.
  unfold parse_bitstring_type.
  destruct (expect_all_cases [kw "BIT"; kw "STRING"] ts) as [[b E]|E]; rewrite E; cbn [rbind]; [|exact Logic.I].
  apply expect_all_ok in E. destruct E as [Hl _]. destruct b; [|exact Logic.I].
  destruct ts as [|t [|t' ts]]; cbn in Hl; try lia.
  eapply fine_bind; [auto|auto|apply fine_maybe_named|cbn [skipn]; tails; now tails|]. intros r' H. parts. cbn. now tails.
Qed.
Lemma fine_enum_loop : forall n acc ts, (List.length ts < n)%nat -> fine never never snd true ts (enum_values_loop n acc ts).
Proof.
  induction n as [|n IH]; intros acc ts Hn; [lia|]. cbn [enum_values_loop].
  eapply fine_bind; [auto|auto|apply fine_named_maybe|tails|]. intros [x r] H. parts.
  eapply fine_bind; [auto|auto|apply fine_skip_if|tails; now tails|]. intros r' H. parts.
  apply fine_expect. intros t1 r1 ->.
  destruct (_ || _); [cbn; now tails|].
  match goal with |- context [enum_values_loop n ?a ?r] => pose proof (IH a r ltac:(lens)) as Hf; destruct (enum_values_loop n a r) as [[]| | |]; cbn in *; auto end.
  parts. now tails.
Qed.
Lemma fine_enumerated ts : fine never never snd true ts (parse_enumerated_type ts).
Proof.
  unfold parse_enumerated_type, parse_enum_values.
  eapply fine_bind; [auto|auto|apply fine_take|tails|]. intros [s r] H. parts.
  eapply fine_bind; [auto|auto|apply fine_take|tails; now tails|]. intros [s' r'] H. parts.
  eapply fine_bind; [auto|auto|apply fine_enum_loop; cbn; lia|tails; now tails|]. intros [root r] H. parts.
  apply fine_expect. intros t2 r2 Heq. cbn in Heq. subst r.
  eapply fine_bind; [auto|auto|apply fine_skip_if|tails; now tails|]. intros r' H. parts.
  eapply fine_bind; [auto|auto|apply fine_skip_if|tails; now tails|]. intros r3 H1. parts.
  eapply fine_attempt; [auto|auto|apply fine_enum_loop; lia|tails; now tails| |].
  - intros [ext r4] H2. parts.
    eapply fine_bind; [auto|auto|apply fine_take|tails; now tails|]. intros [s5 r5] H3. parts. cbn. now tails.
  - cbn [fst snd].
    eapply fine_bind; [auto|auto|apply fine_take|tails; now tails|]. intros [s5 r5] H3. parts. cbn. now tails.
Qed.

(* ------------------------------------------------------------------ *)
(* References                                                          *)
(* ------------------------------------------------------------------ *)
Lemma is_true ty t : is ty t = true -> t_type t = ty.
Proof. unfold is. destruct (t_type t), ty; cbn; congruence. Qed.
Lemma starts_upper s : starts upper_ascii s = true -> first_letter capital s.
Proof. destruct s as [|c r]; cbn; [discriminate|]. unfold upper_ascii, capital. intros H. lia. Qed.
Definition list_head (t : tok) : Prop :=
  In (t_text t) ["SEQUENCE"; "SET"; "CHOICE"] \/ t_type t = Identifier /\ first_letter capital (t_text t).
Lemma type_reference_head t : is_type_reference t = true -> list_head t.
Proof.
  unfold is_type_reference. intros H. apply andb_prop in H. destruct H as [H1 H2].
  right. split; [now apply is_true|now apply starts_upper].
Qed.

Notation always := (fun _ : list tok => True).
Lemma up_always : up always. Proof. now intros w ts H. Qed.
#[local] Hint Resolve up_always : core.
Lemma fine_actual_loop : forall n acc ts, fine never always snd true ts (actual_params_loop n acc ts).
Proof.
  induction n as [|n IH]; intros acc ts; [exact Logic.I|]. cbn [actual_params_loop].
  apply fine_expect. intros t r ->.
  eapply fine_bind with (f := snd) (s := false); [auto|auto| |apply suffix_refl|].
  - destruct (is CurlyBegin t); [|cbn; now tails]. cbn [skipn].
    eapply fine_bind; [auto|auto|apply fine_take|now tails|]. intros [p r1] H. parts.
    eapply fine_bind; [auto|auto|apply fine_take|now tails|]. intros [e r2] H. parts. cbn. now tails.
  - intros [acc1 r1] H. parts. apply fine_expect. intros t1 r2 Heq. cbn in Heq. subst r1. cbn [fst snd].
    eapply fine_bind with (f := snd) (s := false) (cur := t1 :: r2); [auto|auto| |rewrite ?H; now tails|].
    + destruct (is_param t1); [|cbn; now tails].
      eapply fine_bind; [auto|auto|apply fine_take|tails|]. intros [p r3] H'. parts. cbn. rewrite ?H'. now tails.
    + intros [acc2 r3] H'. parts.
      eapply fine_bind; [auto|auto|apply fine_skip_if|rewrite ?H, ?H'; now tails|]. intros r4 H''. parts.
      apply fine_expect. intros t3 r5 ->. destruct (is CurlyEnd t3).
      * cbn. rewrite ?H, ?H'. now tails.
      * match goal with |- context [actual_params_loop n ?a ?r] => pose proof (IH a r) as Hf; destruct (actual_params_loop n a r) as [[]| | |]; cbn in *; auto end.
        rewrite ?H, ?H'. destruct Hf as (x & y & ->). now tails.
Qed.
Lemma fine_actual ts : fine never always snd true ts (parse_actual_params ts).
Proof.
  unfold parse_actual_params. eapply fine_bind; [auto|auto|apply fine_take|now tails|]. intros [s r] H. parts.
  match goal with |- context [actual_params_loop ?n ?a ?r] => pose proof (fine_actual_loop n a r) as Hf; destruct (actual_params_loop n a r) as [[]| | |]; cbn in *; auto end.
  parts. now tails.
Qed.
Lemma opens_here a t b r : list_head t -> is CurlyBegin b = true -> opens_list (a ++ t :: b :: r).
Proof. intros Ht Hb. exists a, t, b, r. split; [reflexivity|]. split; [now apply is_true|exact Ht]. Qed.
Lemma fine_referenced t r : list_head t -> fine never opens_list snd true (t :: r) (parse_referenced_type (t :: r)).
Proof.
  intros Ht. unfold parse_referenced_type.
  set (C := attempt (expect_all _ (t :: r))).
  assert (HC : exists c, C = Ok c /\ (c = Some true -> exists d f r', r = d :: f :: r')).
  { subst C. destruct (expect_all_cases [is_class_reference; is Dot; fun t0 => is_type_field t0 || is_value_field t0] (t :: r)) as [[b E]|E];
      rewrite E; cbn; eexists; (split; [reflexivity|]); intros Hb; [|discriminate].
    apply expect_all_ok in E. destruct E as [E _]. destruct r as [|d [|f r']]; cbn in E; try lia. eauto. }
  destruct HC as (c & -> & Hc). cbn [rbind].
  assert (Hrest : forall m, fine never opens_list snd true (t :: r) (rbind m (fun m =>
      x <-- match m, t :: r with
            | Some true, _ => Ok (concat_tokens (firstn 3 (t :: r)) "", skipn 3 (t :: r))
            | _, t :: r => Ok (t_text t, r)
            | _, [] => Panic
            end ;;
      ps <-- match snd x with
             | t :: _ => if is CurlyBegin t then parse_actual_params (snd x) else Ok ([], snd x)
             | [] => Ok ([], [])
             end ;;
      Ok (match fst ps with [] => RefName (fst x) | l => RefParam (fst x) l end, snd ps))) \/
      ~ exists c, m = Ok c /\ (c = Some true -> exists d t' r', r = d :: t' :: r' /\ is_type_reference t' = true)).
  { intros m.
    assert (Hgo : forall s t' r', list_head t' -> (exists a, t :: r = a ++ t' :: r') ->
       fine never opens_list snd true (t :: r) (rbind (Ok (s, r')) (fun x : string * list tok =>
      ps <-- match snd x with
             | t :: _ => if is CurlyBegin t then parse_actual_params (snd x) else Ok ([], snd x)
             | [] => Ok ([], [])
             end ;;
      Ok (match fst ps with [] => RefName (fst x) | l => RefParam (fst x) l end, snd ps)))).
    { intros s t' r' Ht' [a Ha]. cbn [rbind fst snd]. rewrite Ha.
      eapply fine_bind with (f := snd) (s := true) (cur := t' :: r'); [auto|auto| | |].
      - destruct r' as [|b r']; [cbn; now tails|].
        destruct (is CurlyBegin b) eqn:Hb; [|cbn; now tails].
        pose proof (fine_actual (b :: r')) as Hf. destruct (parse_actual_params (b :: r')) as [[l rest]| | |]; cbn in *; auto.
        + parts. now tails.
        + apply (opens_here []); assumption.
      - now tails.
      - intros [l rest] Hr. cbn in *. now apply reads_app. }
    destruct m as [c'| | |]; [|left; cbn; exact Logic.I|right; now intros (? & ? & _)|right; now intros (? & ? & _)].
    cbn [rbind].
    destruct c' as [[|]|].
    - destruct r as [|d [|t' r']]; [right|right|]; [intros (c' & E & Hc'); injection E as <-; destruct (Hc' eq_refl) as (? & ? & ? & ? & ?); discriminate ..|].
      destruct (is_type_reference t') eqn:Ht'.
      + left. apply (Hgo _ t' r'); [now apply type_reference_head|]. exists [t; d]. reflexivity.
      + right. intros (c' & E & Hc'). injection E as <-. destruct (Hc' eq_refl) as (? & ? & ? & E & Hx). injection E as -> -> ->. congruence.
    - left. apply (Hgo _ t r); [assumption|]. now exists [].
    - left. apply (Hgo _ t r); [assumption|]. now exists []. }
  assert (Hm : exists c, attempt (expect_all [is_type_reference; is Dot; is_type_reference] (t :: r)) = Ok c /\
      (c = Some true -> exists d t' r', r = d :: t' :: r' /\ is_type_reference t' = true)).
  { destruct (expect_all_cases [is_type_reference; is Dot; is_type_reference] (t :: r)) as [[b E]|E];
      rewrite E; cbn [attempt]; eexists; (split; [reflexivity|]); intros Hb; [|discriminate].
    apply expect_all_ok in E. destruct E as [E ->]. destruct r as [|d [|f r']]; cbn in E; try lia.
    injection Hb as Hb. cbn [all_match] in Hb. exists d, f, r'. split; [reflexivity|].
    repeat (apply andb_prop in Hb; destruct Hb as [? Hb]). now destruct (is_type_reference f). }
  destruct (Hrest (attempt (expect_all [is_type_reference; is Dot; is_type_reference] (t :: r)))) as [H|H]; [|contradiction].
  destruct c as [[|]|]; [|exact H|exact H].
  destruct (Hc eq_refl) as (d & f & r' & ->). cbn. now tails.
Qed.

(* ------------------------------------------------------------------ *)
(* Ranges and the other constraints                                    *)
(* ------------------------------------------------------------------ *)
Lemma fine_end_value ts : fine never never snd true ts (parse_end_value ts).
Proof.
  unfold parse_end_value. eapply fine_attempt; [auto|auto|apply fine_value|now tails| |].
  - intros [s r] H. exact H.
  - apply fine_take.
Qed.
Lemma fine_to (P D : list tok -> Prop) A (f : A -> list tok) s ts m : fine never never f s ts m -> fine P D f s ts m.
Proof. apply fine_weaken; tauto. Qed.
Lemma fine_to_D (D : list tok -> Prop) P A (f : A -> list tok) s ts m : fine P never f s ts m -> fine P D f s ts m.
Proof. apply fine_weaken; tauto. Qed.
Lemma fine_to_P (D : list tok -> Prop) P A (f : A -> list tok) s ts m : fine never D f s ts m -> fine P D f s ts m.
Proof. apply fine_weaken; tauto. Qed.
Lemma fine_range ts : fine cut_off never snd true ts (parse_range_elements ts).
Proof.
  unfold parse_range_elements.
  eapply fine_bind; [auto|auto|apply fine_to, fine_end_value|now tails|]. intros [lo r] H. parts.
  apply fine_expect. intros t1 r1 ->. destruct (_ || _); [|exact Logic.I].
  apply fine_expect. intros t2 r2 E. injection E as -> ->.
  destruct (is LessThan t2) eqn:Hlt.
  - unfold slice_from. destruct (Nat.ltb _ _) eqn:Hl; cbn [rbind].
    + apply Nat.ltb_lt in Hl. destruct r2; cbn in Hl; [|lia]. cbn. exists (t :: w), t2. split; [reflexivity|]. left. now apply is_true.
    + destruct r2 as [|t3 r2]; [discriminate|]. cbn [skipn].
      apply fine_expect. intros t4 r4 ->. cbn [skipn].
      eapply fine_bind; [auto|auto|apply fine_to, fine_end_value|destruct (is LessThan t4); now tails|]. intros [hi r5] H.
      cbn. destruct (is LessThan t4); parts; now tails.
  - cbn [slice_from Nat.ltb Nat.leb Datatypes.length rbind skipn].
    apply fine_expect. intros t4 r4 ->. cbn [skipn].
    eapply fine_bind; [auto|auto|apply fine_to, fine_end_value|destruct (is LessThan t4); now tails|]. intros [hi r5] H.
    cbn. destruct (is LessThan t4); parts; now tails.
Qed.
Lemma fine_table ts : fine never never snd true ts (parse_table_constraint ts).
Proof.
  unfold parse_table_constraint.
  eapply fine_bind; [auto|auto|apply fine_take|now tails|]. intros [x r] H. parts.
  destruct (expect_all_cases [is CurlyBegin; is_type_reference; is CurlyEnd] r) as [[b E]|E]; rewrite E; cbn [rbind]; [|exact Logic.I].
  destruct b; [|exact Logic.I]. apply expect_all_ok in E. destruct E as [E _].
  destruct r as [|a [|s [|b r]]]; cbn in E; try lia.
  destruct (expect_all_cases [is CurlyBegin; is AtComponentIdList; is CurlyEnd] r) as [[b' E']|E']; rewrite E'; cbn [rbind attempt].
  - apply expect_all_ok in E'. destruct E' as [E' _].
    destruct r as [|a' [|s' [|b'' r]]]; cbn in E'; try lia.
    destruct b'; (eapply fine_bind; [auto|auto|apply fine_take|now tails|]; intros [y r'] H; parts; cbn; now tails).
  - eapply fine_bind; [auto|auto|apply fine_take|now tails|]. intros [y r'] H. parts. cbn. now tails.
Qed.
Lemma fine_contents ts : fine never never snd true ts (parse_contents_constraint ts).
Proof.
  unfold parse_contents_constraint.
  eapply fine_bind; [auto|auto|apply fine_take|now tails|]. intros [x r] H. parts.
  eapply fine_bind; [auto|auto|apply fine_take|now tails|]. intros [x1 r1] H. parts.
  eapply fine_bind; [auto|auto|apply fine_take|now tails|]. intros [x2 r2] H. parts.
  eapply fine_bind; [auto|auto|apply fine_take|now tails|]. intros [x3 r3] H. parts. cbn. now tails.
Qed.

(* ------------------------------------------------------------------ *)
(* Types and constraints                                               *)
(* ------------------------------------------------------------------ *)
Notation safe := (fine cut_off opens_list).
Ltac call H := eapply fine_bind; [auto|auto|apply H|now tails|].
Ltac maybe H := eapply fine_attempt; [auto|auto|apply H|now tails| |].
Ltac finish Hf :=
  match type of Hf with fine _ _ _ _ _ ?m => destruct m as [?x| | |] end; unfold fine in *; cbn [Rel] in *; auto; try (repeat match goal with x : _ * _ |- _ => destruct x end; parts; now tails).

Section Step.
Context (N : nat) (rec_type : list tok -> res (asn_type * list tok)) (rec_set : list tok -> res (element_set * list tok)).
Context (Htype : forall ts, (List.length ts < N)%nat -> safe snd true ts (rec_type ts)).
Context (Hset : forall ts, (List.length ts < N)%nat -> safe snd true ts (rec_set ts)).

Lemma safe_intersection_set ts : (List.length ts < N)%nat -> safe snd true ts (parse_intersection_set rec_type rec_set ts).
Proof.
  intros Hn. unfold parse_intersection_set. cbv zeta.
  apply fine_expect. intros t r ->. apply fine_expect. intros t' r' E. injection E as <- <-.
  set (k := _ || _). set (cur := if k then skipn 1 (t :: r) else t :: r).
  assert (Hc : exists w, t :: r = w ++ cur).
  { subst cur. destruct k; cbn; [now exists [t]|now exists []]. }
  assert (Hcl : (List.length cur < N)%nat). { subst cur. destruct k; cbn [skipn]; lens. }
  destruct Hc as [w Hc].
  set (inner := if k then _ else _).
  assert (Hi : (exists b, inner = Ok b) \/ inner = Err). { subst inner. destruct k; [destruct cur; cbn; eauto|eauto]. }
  destruct Hi as [[b ->]| ->]; cbn [rbind]; [|exact Logic.I]. clearbody k. clearbody cur. rewrite Hc in *. clear Hc.
  destruct b.
  - eapply fine_bind; [auto|auto|apply Hset; lens|now tails|]. intros [s r1] H. parts. cbn. now tails.
  - maybe (fine_to_D opens_list cut_off _ (@snd elements (list tok)) true cur (parse_range_elements cur) (fine_range cur)).
    + intros [x r1] H. parts. cbn. now tails.
    + apply fine_expect. intros t1 r1 ->. destruct (is RoundBegin t1).
      * eapply fine_bind; [auto|auto|apply Hset; lens|now tails|]. intros [s r2] H. parts. cbn. rewrite ?H. now tails.
      * eapply fine_attempt; [auto|auto|apply fine_to, fine_value|now tails| |].
        -- intros [s r2] H. parts. cbn. rewrite ?H. now tails.
        -- eapply fine_attempt; [auto|auto|apply Htype; lens|now tails| |exact Logic.I].
           intros [s r2] H. parts. cbn. rewrite ?H. now tails.
Qed.
Lemma safe_intersection_loop : forall n ex acc ts, (List.length ts < N)%nat -> (List.length ts < n)%nat ->
  safe snd false ts (intersection_loop rec_type rec_set n ex acc ts).
Proof.
  induction n as [|n IH]; intros ex acc ts HN Hn; [lia|]. cbn [intersection_loop].
  assert (Hk : forall acc' cur w, ts = w ++ cur -> safe snd false ts
     (rbind (Ok (acc', cur)) (fun s : list elements * list tok => b <-- expect is_intersection (snd s) ;;
      if b then intersection_loop rec_type rec_set n true (fst s) (skipn 1 (snd s)) else Ok s))).
  { intros acc' cur w ->. cbn [rbind fst snd]. apply fine_expect. intros t r ->. destruct (is_intersection t); [|cbn; now tails].
    cbn [skipn]. pose proof (IH true acc' r ltac:(lens) ltac:(lens)) as Hf. finish Hf.
    - apply up_cut_off. now apply (up_cut_off [t]).
    - apply up_opens_list. now apply (up_opens_list [t]). }
  eapply fine_attempt; [auto|auto|apply safe_intersection_set; lia|now tails| |].
  - intros [x r] H. cbn in H. destruct H as (t & w & E). now apply (Hk _ _ (t :: w)).
  - destruct ex; [exact Logic.I|]. now apply (Hk _ _ []).
Qed.
Lemma safe_union_loop : forall n acc ts, (List.length ts < N)%nat -> (List.length ts < n)%nat ->
  safe snd false ts (union_loop rec_type rec_set n acc ts).
Proof.
  induction n as [|n IH]; intros acc ts HN Hn; [lia|]. cbn [union_loop].
  eapply fine_bind; [auto|auto|apply safe_intersection_loop; lia|now tails|]. intros [l r] H. parts.
  apply fine_expect. intros t r1 ->. destruct (is_union t); [|cbn; now tails].
  match goal with |- context [union_loop _ _ n ?a ?r] => pose proof (IH a r ltac:(cbn; lens) ltac:(cbn; lens)) as Hf end.
  finish Hf.
  - apply up_cut_off. now apply (up_cut_off [t]).
  - apply up_opens_list. now apply (up_opens_list [t]).
Qed.
Lemma safe_element_set ts : (List.length ts <= N)%nat -> safe snd true ts (element_set_step rec_type rec_set ts).
Proof.
  intros HN. unfold element_set_step, parse_union_set.
  call fine_take. intros [x r] H. parts.
  eapply fine_bind; [auto|auto|apply safe_union_loop; lens|now tails|]. intros [u r1] H. parts.
  destruct u as [|u0 u]; [exact Logic.I|].
  apply fine_expect. intros t1 r2 ->. destruct (is Comma t1).
  - cbn [skipn].
    eapply fine_bind with (f := snd) (s := false) (cur := r2); [auto|auto| |now tails|].
    + call fine_take. intros [x1 r3] H. parts. call fine_skip_if. intros r4 H. parts.
      eapply fine_attempt; [auto|auto|apply safe_union_loop; lens|now tails| |].
      * intros [u1 r5] H. parts. cbn. now tails.
      * cbn. now tails.
    + intros [a r3] H. parts. call fine_take. intros [x1 r4] H. parts. cbn. now tails.
  - cbn [rbind fst snd]. call fine_take. intros [x1 r4] H. cbn in *. parts. now tails.
Qed.
Lemma safe_constraint ts : (List.length ts < N)%nat -> safe snd true ts (parse_constraint rec_set ts).
Proof.
  intros HN. unfold parse_constraint.
  eapply fine_attempt; [auto|auto|apply Hset; lia|now tails| |].
  - intros [x r] H. exact H.
  - eapply fine_attempt; [auto|auto|apply fine_to, fine_table|now tails| |].
    + intros [x r] H. exact H.
    + apply fine_to, fine_contents.
Qed.
Lemma safe_constraints_loop : forall n acc ts, (List.length ts < N)%nat -> (List.length ts < n)%nat ->
  safe snd false ts (constraints_loop rec_set n acc ts).
Proof.
  induction n as [|n IH]; intros acc ts HN Hn; [lia|]. cbn [constraints_loop].
  eapply fine_attempt; [auto|auto|apply safe_constraint; lia|now tails| |cbn; now tails].
  intros [x r] H. parts.
  match goal with |- context [constraints_loop _ n ?a ?r] => pose proof (IH a r ltac:(cbn; lens) ltac:(cbn; lens)) as Hf end.
  finish Hf.
  - apply (up_cut_off (t :: w)). assumption.
  - apply (up_opens_list (t :: w)). assumption.
Qed.
Lemma safe_component ts : (List.length ts <= N)%nat -> safe snd true ts (parse_component rec_type ts).
Proof.
  intros HN. unfold parse_component. call fine_take. intros [x r] H. parts.
  eapply fine_bind; [auto|auto|apply Htype; lens|now tails|]. intros [t1 r1] H. parts. cbn. now tails.
Qed.
Lemma safe_seq_component ts : (List.length ts <= N)%nat -> safe snd false ts (parse_seq_component rec_type ts).
Proof.
  intros HN. unfold parse_seq_component.
  eapply fine_attempt; [auto|auto|apply safe_component; lia|now tails| |cbn; now tails].
  intros [[id ty] r] H. parts. apply fine_expect. intros t1 r1 ->.
  eapply fine_bind; [auto|auto|apply fine_skip_if|now tails|]. intros r2 H. parts.
  apply fine_expect. intros t2 r3 ->.
  eapply fine_bind with (f := snd) (s := false) (cur := t2 :: r3); [auto|auto| |rewrite ?H; now tails|].
  - destruct (kw "DEFAULT" t2); [|cbn; now tails]. cbn [skipn].
    eapply fine_bind; [auto|auto|apply fine_to, fine_value|now tails|]. intros [v r4] H'. parts. cbn. now tails.
  - intros [d r4] H'. destruct (_ && _); [exact Logic.I|]. cbn in *. destruct H' as [w' H']. rewrite ?H, ?H'. now tails.
Qed.
(* a component that is found is read *)
Lemma seq_component_some ts c r : parse_seq_component rec_type ts = Ok (Some c, r) -> (List.length ts <= N)%nat -> reads ts r.
Proof.
  intros E HN. unfold parse_seq_component in E.
  pose proof (safe_component ts HN) as Hc.
  destruct (parse_component rec_type ts) as [[[id ty] r1]| | |]; cbn [attempt rbind] in E; try discriminate.
  cbn in Hc. destruct Hc as (t & w & ->).
  destruct r1 as [|t1 r1]; [discriminate|]. cbn [expect rbind skip_if] in E.
  set (r2 := if kw "OPTIONAL" t1 then r1 else t1 :: r1) in *.
  assert (Hr2 : suffix r2 (t1 :: r1)). { subst r2. destruct (kw _ t1); now tails. } clearbody r2.
  destruct r2 as [|t2 r2]; [discriminate|]. cbn [expect rbind] in E.
  destruct Hr2 as [w2 Hr2]. rewrite Hr2. destruct (kw "DEFAULT" t2).
  - cbn [skipn] in E. pose proof (fine_value r2) as Hv.
    destruct (parse_value r2) as [[v r3]| | |]; cbn [rbind fst snd] in E; try discriminate.
    cbn in Hv. destruct Hv as (t3 & w3 & ->).
    destruct (_ && _); [discriminate|]. injection E as <- <-. now tails.
  - cbn [rbind fst snd] in E. destruct (_ && _); [discriminate|]. injection E as <- <-. now tails.
Qed.
Lemma fine_version ts : fine never never id false ts (skip_version ts).
Proof.
  unfold skip_version. destruct ts as [|t r]; [exact Logic.I|]. destruct (is NumberInt t); [|cbn; now tails].
  call fine_take. intros [x r1] H. parts. cbn. now tails.
Qed.
Lemma safe_seq_group_loop : forall n acc ts, (List.length ts < n)%nat -> (List.length ts <= N)%nat ->
  safe snd false ts (seq_group_loop rec_type n acc ts).
Proof.
  induction n as [|n IH]; intros acc ts Hn HN; [lia|]. cbn [seq_group_loop].
  pose proof (safe_seq_component ts HN) as Hc. pose proof (seq_component_some ts) as Hs.
  destruct (parse_seq_component rec_type ts) as [[c r]| | |]; cbn [rbind fst snd] in *; auto.
  destruct c as [c|]; [|cbn; now tails].
  specialize (Hs c r eq_refl HN). clear Hc. parts.
  call fine_skip_if. intros r1 H. parts.
  match goal with |- context [seq_group_loop _ n ?a ?r] => pose proof (IH a r ltac:(cbn; lens) ltac:(cbn; lens)) as Hf end.
  finish Hf.
  - apply (up_cut_off (t :: w)). now apply up_cut_off.
  - apply (up_opens_list (t :: w)). now apply up_opens_list.
Qed.
Lemma safe_seq_group ts : (List.length ts <= N)%nat -> safe snd true ts (parse_seq_addition_group rec_type ts).
Proof.
  intros HN. unfold parse_seq_addition_group. call fine_take. intros [x r] H. parts.
  eapply fine_bind; [auto|auto|apply fine_to, fine_version|now tails|]. intros r1 H. parts.
  eapply fine_bind; [auto|auto|apply safe_seq_group_loop; lens|now tails|]. intros [l r2] H. parts.
  destruct l; [exact Logic.I|]. call fine_take. intros [y r3] H. parts. cbn. now tails.
Qed.
Notation anyway := (fine cut_off always).
Lemma safe_any A (f : A -> list tok) s ts m : safe f s ts m -> anyway f s ts m.
Proof. apply fine_weaken; tauto. Qed.
Lemma anyway_sequence_loop : forall n root additions markers ts, (List.length ts <= N)%nat ->
  anyway snd true ts (sequence_loop rec_type n root additions markers ts).
Proof.
  induction n as [|n IH]; intros root additions markers ts HN; [exact Logic.I|]. cbn [sequence_loop].
  assert (Hk : forall root cur w, ts = w ++ cur -> anyway snd true ts (
      g <-- expect (is AdditionGroupsBegin) cur ;;
      a <-- (if g then
               if Nat.eqb markers 1 then x <-- parse_seq_addition_group rec_type cur ;; Ok (additions ++ [fst x], snd x)
               else Err
             else Ok (additions, cur)) ;;
      ts <-- skip_if (is Comma) (snd a) ;;
      m <-- expect (is Extension) ts ;;
      ts <-- (if m then skip_if (is Comma) (skipn 1 ts) else Ok ts) ;;
      let markers := if m then S markers else markers in
      stop <-- expect (is CurlyEnd) ts ;;
      if stop then Ok (root, fst a, markers, skipn 1 ts) else sequence_loop rec_type n root (fst a) markers ts)).
  { intros root' cur w ->. apply fine_expect. intros t r ->.
    eapply fine_bind with (f := snd) (s := false) (cur := t :: r); [auto|auto| |now tails|].
    - destruct (is AdditionGroupsBegin t); [|cbn; now tails]. destruct (Nat.eqb markers 1); [|exact Logic.I].
      eapply fine_bind; [auto|auto|apply safe_any, safe_seq_group; lens|now tails|]. intros [l r1] H. parts. cbn. now tails.
    - intros [a r1] H. parts. eapply fine_bind; [auto|auto|apply fine_skip_if|now tails|]. intros r2 H'. parts.
      apply fine_expect. intros t2 r3 ->.
      eapply fine_bind with (f := id) (s := false) (cur := t2 :: r3); [auto|auto| |now tails|].
      + destruct (is Extension t2); [|cbn; now tails]. cbn [skipn].
        pose proof (fine_skip_if never always (is Comma) r3) as Hf. finish Hf.
      + intros r4 H''. cbn in H''. destruct H'' as [w'' H'']. rewrite H''. cbv zeta. apply fine_expect. intros t5 r5 ->.
        destruct (is CurlyEnd t5); [cbn; now tails|].
        match goal with |- context [sequence_loop _ n ?a ?b ?c ?r] => pose proof (IH a b c r) as Hf end.
        assert (Hl : (List.length (t5 :: r5) <= N)%nat).
        { apply (f_equal (@List.length tok)) in H, H''. lens. }
        specialize (Hf Hl). unfold id in *. finish Hf. }
  eapply fine_attempt; [auto|auto|apply safe_any, safe_seq_component; lia|now tails| |].
  - intros [c r] [w Hw]. cbn in Hw. destruct c; exact (Hk _ r w Hw).
  - exact (Hk _ ts [] eq_refl).
Qed.
Lemma safe_seq_or_seq_of ts : (List.length ts <= N)%nat -> safe snd true ts (parse_seq_or_seq_of_type rec_type rec_set ts).
Proof.
  intros HN. unfold parse_seq_or_seq_of_type.
  destruct ts as [|t r]; [exact Logic.I|]. cbn [take]. destruct (kw "SEQUENCE" t) eqn:Hk; [|exact Logic.I]. cbn [rbind snd].
  apply fine_expect. intros t1 r1 ->. destruct (is CurlyBegin t1) eqn:Hb.
  - unfold parse_sequence_type. cbn [skipn take]. rewrite Hb. cbn [rbind snd].
    match goal with |- context [sequence_loop _ ?n ?a ?b ?c ?r] => pose proof (anyway_sequence_loop n a b c r ltac:(lens)) as Hf;
      destruct (sequence_loop rec_type n a b c r) as [[[[]]]| | |] end; cbn in *; auto.
    + parts. now tails.
    + now apply (up_cut_off [t; t1]).
    + apply (opens_here []); [|assumption]. left. unfold kw in Hk. apply andb_prop in Hk. destruct Hk as [_ Hk]. apply String.eqb_eq in Hk. now left.
  - unfold parse_sequence_of_type. cbn [skipn].
    eapply fine_attempt; [auto|auto|apply safe_constraint; lens|now tails| |].
    + intros [c r2] H. parts. call fine_take. intros [x r3] H1. parts.
      eapply fine_bind; [auto|auto|apply Htype|rewrite ?H; now tails|]. { apply (f_equal (@List.length tok)) in H. lens. }
      intros [t2' r4] H2. cbn in *. parts. now tails.
    + call fine_take. intros [x r3] H1. parts.
      eapply fine_bind; [auto|auto|apply Htype|rewrite ?H1; now tails|]. { apply (f_equal (@List.length tok)) in H1. lens. }
      intros [t2' r4] H2. cbn in *. parts. now tails.
Qed.
Lemma anyway_choice_group_loop : forall n acc ts, (List.length ts <= N)%nat -> anyway snd true ts (choice_group_loop rec_type n acc ts).
Proof.
  induction n as [|n IH]; intros acc ts HN; [exact Logic.I|]. cbn [choice_group_loop].
  assert (Hk : forall acc cur w, ts = w ++ cur -> anyway snd true ts (
      ts <-- skip_if (is Comma) cur ;;
      stop <-- expect (is AdditionGroupsEnd) ts ;;
      if stop then Ok (acc, skipn 1 ts) else choice_group_loop rec_type n acc ts)).
  { intros acc' cur w ->. call fine_skip_if. intros r H. parts. apply fine_expect. intros t r1 ->.
    destruct (is AdditionGroupsEnd t); [cbn; now tails|].
    match goal with |- context [choice_group_loop _ n ?a ?r] => pose proof (IH a r) as Hf end.
    specialize (Hf ltac:(lens)). finish Hf. }
  eapply fine_attempt; [auto|auto|apply safe_any, safe_component; lia|now tails| |].
  - intros [c r] (t & w & Hw). cbn in Hw. exact (Hk _ r (t :: w) Hw).
  - exact (Hk _ ts [] eq_refl).
Qed.
Lemma anyway_choice_group ts : (List.length ts <= N)%nat -> anyway snd true ts (parse_choice_addition_group rec_type ts).
Proof.
  intros HN. unfold parse_choice_addition_group. call fine_take. intros [x r] H. parts.
  eapply fine_bind; [auto|auto|apply fine_to, fine_version|now tails|]. intros r1 H. parts.
  eapply fine_bind; [auto|auto|apply anyway_choice_group_loop; lens|now tails|]. intros [l r2] H. parts.
  destruct l; [exact Logic.I|]. cbn. now tails.
Qed.
Lemma anyway_choice_loop : forall n root groups single marker ts, (List.length ts <= N)%nat ->
  anyway snd true ts (choice_loop rec_type n root groups single marker ts).
Proof.
  induction n as [|n IH]; intros root groups single marker ts HN; [exact Logic.I|]. cbn [choice_loop].
  assert (Hk : forall root single cur w, ts = w ++ cur -> anyway snd true ts (
      g <-- expect (is AdditionGroupsBegin) cur ;;
      a <-- (if g then
               if marker then x <-- parse_choice_addition_group rec_type cur ;; Ok (groups ++ [fst x], snd x) else Err
             else Ok (groups, cur)) ;;
      ts <-- skip_if (is Comma) (snd a) ;;
      m <-- expect (is Extension) ts ;;
      ts <-- (if m then if marker then Err else skip_if (is Comma) (skipn 1 ts) else Ok ts) ;;
      let marker := m || marker in
      stop <-- expect (is CurlyEnd) ts ;;
      if stop then Ok (root, fst a, single, marker, skipn 1 ts) else choice_loop rec_type n root (fst a) single marker ts)).
  { intros root' single' cur w ->. apply fine_expect. intros t r ->.
    eapply fine_bind with (f := snd) (s := false) (cur := t :: r); [auto|auto| |now tails|].
    - destruct (is AdditionGroupsBegin t); [|cbn; now tails]. destruct marker; [|exact Logic.I].
      eapply fine_bind; [auto|auto|apply anyway_choice_group; lens|now tails|]. intros [l r1] H. parts. cbn. now tails.
    - intros [a r1] H. parts. eapply fine_bind; [auto|auto|apply fine_skip_if|now tails|]. intros r2 H'. parts.
      apply fine_expect. intros t2 r3 ->.
      eapply fine_bind with (f := id) (s := false) (cur := t2 :: r3); [auto|auto| |now tails|].
      + destruct (is Extension t2); [|cbn; now tails]. destruct marker; [exact Logic.I|]. cbn [skipn].
        pose proof (fine_skip_if never always (is Comma) r3) as Hf. finish Hf.
      + intros r4 H''. cbn in H''. destruct H'' as [w'' H'']. rewrite H''. cbv zeta. apply fine_expect. intros t5 r5 ->.
        destruct (is CurlyEnd t5); [cbn; now tails|].
        match goal with |- context [choice_loop _ n ?a ?b ?c ?d ?r] => pose proof (IH a b c d r) as Hf end.
        assert (Hl : (List.length (t5 :: r5) <= N)%nat).
        { apply (f_equal (@List.length tok)) in H, H''. lens. }
        specialize (Hf Hl). unfold id in *. finish Hf. }
  eapply fine_attempt; [auto|auto|apply safe_any, safe_component; lia|now tails| |].
  - intros [c r] (t & w & Hw). cbn in Hw. destruct marker; exact (Hk _ _ r (t :: w) Hw).
  - exact (Hk _ _ ts [] eq_refl).
Qed.
Lemma safe_choice ts : (List.length ts <= N)%nat -> safe snd true ts (parse_choice_type rec_type ts).
Proof.
  intros HN. unfold parse_choice_type.
  destruct ts as [|t r]; [exact Logic.I|]. cbn [take]. destruct (kw "CHOICE" t) eqn:Hk; [|exact Logic.I]. cbn [rbind snd].
  destruct r as [|t1 r1]; [exact Logic.I|]. cbn [take]. destruct (is CurlyBegin t1) eqn:Hb; [|exact Logic.I]. cbn [rbind snd].
  match goal with |- context [choice_loop _ ?n ?a ?b ?c ?d ?r] => pose proof (anyway_choice_loop n a b c d r ltac:(lens)) as Hf;
      destruct (choice_loop rec_type n a b c d r) as [[[[[]]]]| | |] end; cbn in *; auto.
  - parts. now tails.
  - now apply (up_cut_off [t; t1]).
  - apply (opens_here []); [|assumption]. left. unfold kw in Hk. apply andb_prop in Hk. destruct Hk as [_ Hk]. apply String.eqb_eq in Hk. cbn. auto.
Qed.
Lemma cut_off_slice t r : In (t_text t) ["OCTET"; "CHARACTER"] ->
  safe id true (t :: r) (slice_from 2 (t :: r)).
Proof.
  intros Ht. unfold slice_from. destruct (Nat.ltb _ _) eqn:E.
  - apply Nat.ltb_lt in E. destruct r; cbn in E; [|lia]. exists [], t. split; [reflexivity|now right].
  - destruct r as [|t1 r]; [discriminate|]. cbn. now tails.
Qed.
Lemma safe_kind t r : (is_type_reference t || is_builtin_type t || is_class_reference t) = true ->
  (List.length (t :: r) <= N)%nat -> safe snd true (t :: r) (parse_kind rec_type rec_set (t :: r)).
Proof.
  intros Hg HN. unfold parse_kind. cbv zeta.
  destruct (String.eqb (t_text t) "BIT") eqn:E1. { eapply fine_bind; [auto|auto|apply fine_to, fine_bitstring|now tails|]. now intros [b r1] H. }
  destruct (String.eqb (t_text t) "OCTET") eqn:E2. { apply String.eqb_eq in E2. eapply fine_bind; [auto|auto|apply cut_off_slice; rewrite E2; cbn; auto|now tails|]. now intros r1 H. }
  destruct (String.eqb (t_text t) "CHARACTER") eqn:E3. { apply String.eqb_eq in E3. eapply fine_bind; [auto|auto|apply cut_off_slice; rewrite E3; cbn; auto|now tails|]. now intros r1 H. }
  destruct (String.eqb (t_text t) "ENUMERATED") eqn:E4. { eapply fine_bind; [auto|auto|apply fine_to, fine_enumerated|now tails|]. now intros [b r1] H. }
  destruct (String.eqb (t_text t) "INTEGER") eqn:E5. { eapply fine_bind; [auto|auto|apply fine_to, fine_integer|now tails|]. now intros [b r1] H. }
  destruct (String.eqb (t_text t) "OBJECT") eqn:E6.
  { destruct (expect_all_cases [kw "OBJECT"; kw "IDENTIFIER"] (t :: r)) as [[b E]|E]; rewrite E; cbn [rbind]; [|exact Logic.I].
    destruct b; [|exact Logic.I]. apply expect_all_ok in E. destruct E as [E _]. destruct r as [|t1 r]; cbn in E; [lia|]. cbn. now tails. }
  destruct (String.eqb (t_text t) "BOOLEAN") eqn:E7. { cbn. now tails. }
  destruct (String.eqb (t_text t) "NULL") eqn:E8. { cbn. now tails. }
  destruct (existsb (fun s => String.eqb (t_text t) s) ["VisibleString"; "UTF8String"; "IA5String"; "PrintableString"]) eqn:E9. { cbn. now tails. }
  destruct (String.eqb (t_text t) "CHOICE") eqn:E10. { now apply safe_choice. }
  destruct (String.eqb (t_text t) "SEQUENCE") eqn:E11. { now apply safe_seq_or_seq_of. }
  destruct (String.eqb (t_text t) "RELATIVE-OID") eqn:E12. { cbn. now tails. }
  assert (Hh : list_head t).
  { unfold is_class_reference in Hg. destruct (is_type_reference t) eqn:Hr; [now apply type_reference_head|].
    cbn [orb andb] in Hg. rewrite orb_false_r in Hg. unfold is_builtin_type, BUILTIN_TYPES in Hg. cbn [existsb] in Hg, E9.
    left. cbn. right. left. symmetry. apply String.eqb_eq.
    repeat match goal with H : String.eqb _ _ = false |- _ => rewrite H in Hg; clear H end.
    repeat (apply orb_false_iff in E9; destruct E9 as [?E E9]).
    repeat match goal with H : String.eqb _ _ = false |- _ => rewrite H in Hg; clear H end.
    cbn in Hg. now rewrite orb_false_r in Hg. }
  eapply fine_bind; [auto|auto|apply fine_to_P, fine_referenced; exact Hh|now tails|]. now intros [b r1] H.
Qed.
Lemma safe_type ts : (List.length ts <= N)%nat -> safe snd true ts (type_step rec_type rec_set ts).
Proof.
  intros HN. unfold type_step. apply fine_expect. intros t r ->. destruct (_ || _) eqn:Hg; [|exact Logic.I].
  eapply fine_bind; [auto|auto|apply safe_kind; assumption|now tails|]. intros [k r1] H. cbn in H.
  assert (Hl : (List.length r1 < N)%nat). { destruct H as (t1 & w & H). rewrite H in HN. lens. }
  eapply fine_bind with (cur := r1); [auto|auto|apply safe_constraints_loop; [exact Hl|lia]|now apply reads_suffix|].
  intros [cs r2] H1. cbn in *. parts. now tails.
Qed.
End Step.

Theorem safe_depth : forall n ts, (List.length ts < n)%nat ->
  safe snd true ts (type_depth n ts) /\ safe snd true ts (set_depth n ts).
Proof.
  induction n as [|n IH]; intros ts Hn; [lia|].
  split; [apply (safe_type n)|apply (safe_element_set n)]; try lia; intros ts' H; now apply IH.
Qed.
Theorem safe_parse_type ts : safe snd true ts (parse_type ts).
Proof. apply safe_depth. lia. Qed.
Theorem safe_parse_element_set ts : safe snd true ts (parse_element_set ts).
Proof. apply safe_depth. lia. Qed.
