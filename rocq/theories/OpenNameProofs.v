(* The names of the generated definitions are distinct, with open types. *)
From Coq Require Import ZArith NArith List Bool String Ascii Permutation Lia.
From Coq Require Import ZifyBool ZifyNat ZifyN.
Require Import Verif.Base Verif.Asn1Model Verif.GenModel Verif.CompilerSpec Verif.GenProofs Verif.NameProofs Verif.UniqueProofs Verif.OpenNameSpec.
Import ListNotations.
Open Scope Z_scope.

Section Unique.
Context (E : env).
Definition Nested (t : rtype) : Prop := plain_open_types t -> forall name, Names (generate_for_type E t name) (nested_names t name).

Lemma Names_made_up gen base : (forall n, Names (gen n) []) ->
  Names (name <~ get_unique_name base ;; d <~ gen name ;; _ <~ push_aux (to_type_ident name, d) ;; gret (to_type_ident name)) [].
Proof.
  intros Hg s a s' H. apply gbind_ok in H. destruct H as (nm & s1 & Hn & H).
  unfold get_unique_name in Hn. injection Hn as <- <-.
  apply gbind_ok in H. destruct H as (d & s2 & Hd & H). apply Hg in Hd.
  apply gbind_ok in H. destruct H as (u & s3 & Hp & H). apply gret_ok in H. destruct H as [_ ->].
  destruct Hd as (L & added & ns & Ha & Hperm & Hnd & Hf). cbn [counter aux_items] in *.
  injection Hp as _ <-. split; [cbn [counter]; lia|].
  exists (added ++ [(to_type_ident (base ++ " " ++ decimal (counter s + 1)), d)]), ((base, (counter s + 1)%N) :: ns).
  cbn [aux_items counter]. split; [now rewrite Ha, <- app_assoc|]. split; [|split].
  - rewrite map_app, Hperm. cbn [map app fst]. change (numname (base, (counter s + 1)%N)) with (to_type_ident (base ++ " " ++ decimal (counter s + 1))).
    symmetry. apply Permutation_cons_append.
  - cbn [map snd]. constructor; [|exact Hnd]. intros Hin. apply in_map_iff in Hin. destruct Hin as (p & Heq & Hin).
    rewrite Forall_forall in Hf. specialize (Hf p Hin). lia.
  - constructor; [cbn [snd]; lia|]. eapply Forall_impl; [|exact Hf]. cbn. intros; lia.
Qed.
Lemma Names_pushed (m : G gdef) w i f : Names m w ->
  Names (d <~ m ;; _ <~ push_aux (to_type_ident i, f d) ;; gret (to_type_ident i)) (i :: w).
Proof.
  intros Hm s a s' H. apply gbind_ok in H. destruct H as (d & s2 & Hd & H). apply Hm in Hd.
  apply gbind_ok in H. destruct H as (u & s3 & Hp & H). apply gret_ok in H. destruct H as [_ ->]. apply push_adds in Hp.
  pose proof (adds_trans _ _ _ _ _ Hd Hp) as (L & app & ns & Ha & Hperm & Hr). split; [exact L|]. exists app, ns.
  split; [exact Ha|]. split; [|exact Hr]. rewrite Hperm. apply Permutation_app_tail. apply Permutation_map.
  symmetry. apply Permutation_cons_append.
Qed.
Lemma Names_plain t input : Nested t -> plain_open_types t -> written_out t = false ->
  Names (name_maybe_aux (generate_for_type E t) t input) [].
Proof.
  intros Ht Hp Hw. destruct t; try discriminate Hw; cbn [name_maybe_aux aux_base_name];
    try (apply Names_made_up; intros n; exact (Ht Hp n)). apply Names_ret.
Qed.
Lemma Names_nested t i : Nested t -> plain_open_types t ->
  Names (name_maybe_aux (generate_for_type E t) t (Some i)) (if written_out t then i :: nested_names t i else []).
Proof.
  intros Ht Hp. destruct (written_out t) eqn:Hw; [|now apply Names_plain].
  destruct t; try discriminate Hw; cbn [name_maybe_aux aux_base_name];
    try (intros s a s' H; apply (Names_pushed _ _ i (fun d => d) (Ht Hp i) s a s'); exact H).
  exact (Names_pushed _ _ i (fun d => match d with GOpen _ vs => GOpen true vs | d => d end) (Ht Hp i)).
Qed.
Lemma Nested_choice_tokens name x : forall l i, Forall (fun p => Nested (snd p)) l ->
  all (fun c : string * rtype => match c with (_, t) => plain_open_types t end) l ->
  Names (choice_tokens E name x i l)
    (flat_map (fun c => match c with (id, t) => if written_out t then (name ++ id)%string :: nested_names t (name ++ id)%string else [] end) l).
Proof.
  induction l as [|[id t] l IH]; intros i H Hno; [apply Names_ret|]. rewrite choice_tokens_cons. inversion_clear H. destruct Hno as [Hn Hno].
  cbn [flat_map]. apply Names_bind; [now apply Names_nested|intros ?]. apply Names_bind0; [now apply IH|intros; apply Names_ret].
Qed.
Lemma Nested_seq_tokens name : forall l i, Forall (fun c => Nested (rc_ty c)) l ->
  all (fun c => match c with mkRComp _ t _ _ => plain_open_types t end) l ->
  Names (seq_tokens E name i l)
    (flat_map (fun c => match c with mkRComp id t _ _ =>
      if written_out t then (name ++ to_type_ident id)%string :: nested_names t (name ++ to_type_ident id)%string else [] end) l).
Proof.
  induction l as [|[id t o k] l IH]; intros i H Hno; [apply Names_ret|]. rewrite seq_tokens_cons. inversion_clear H. destruct Hno as [Hn Hno].
  cbn [flat_map]. apply Names_bind; [now apply Names_nested|intros ?]. apply Names_bind0; [now apply IH|intros; apply Names_ret].
Qed.
Lemma plain_written t : written_out t = false -> plain_open_types t.
Proof. destruct t; intros H; try discriminate H; exact I. Qed.
Lemma Nested_set_tokens : forall l, Forall (fun p => Nested (snd p)) l -> Forall (fun c => written_out (snd c) = false) l ->
  Names (set_tokens E l) [].
Proof.
  induction l as [|[[nm k] t] l IH]; intros H Hw; [apply Names_ret|]. rewrite set_tokens_cons. inversion_clear H. inversion_clear Hw.
  apply Names_bind0; [apply Names_plain; [assumption|now apply plain_written|assumption]|intros ?].
  apply Names_bind0; [now apply IH|intros; apply Names_ret].
Qed.
Lemma nested_generated t : Nested t.
Proof.
  induction t using rtype_ind'; intros Hno name;
    try (cbn [generate_for_type nested_names]; first [apply Names_lift|apply Names_gsize|apply Names_ret]).
  - rewrite generate_choice. destruct Hno as [Hr Ha]. cbn [nested_names].
    apply Names_bind; [now apply Nested_choice_tokens|intros ?].
    apply Names_bind0; [|intros ?; apply Names_bind0; [apply Names_lift|intros; apply Names_ret]].
    match goal with |- context [match ?a with Some _ => choice_tokens _ _ _ _ _ | None => _ end] => destruct a as [l|] end; [now apply Nested_choice_tokens; auto|apply Names_ret].
  - rewrite generate_seq. cbn [nested_names]. apply Names_bind0; [now apply Nested_seq_tokens|intros; apply Names_ret].
  - cbn [generate_for_type nested_names]. apply (Names_bind _ _ [] _); [apply Names_lift|intros ?].
    apply Names_bind0; [now apply Names_nested|intros; apply Names_ret].
  - rewrite generate_set. cbn [nested_names]. apply Names_bind0; [now apply Nested_set_tokens|intros; apply Names_ret].
Qed.
Lemma nested_items defs : Forall (fun kt => plain_open_types (snd kt)) defs ->
  Names (generate_items E defs) (flat_map (fun kt => nested_names (snd kt) (fst kt)) defs) /\
  forall s items s', generate_items E defs s = Ok (items, s') -> map fst items = map (fun kt => to_type_ident (fst kt)) defs.
Proof.
  induction defs as [|[k t] defs IH]; intros H; cbn [generate_items flat_map].
  - split; [apply Names_ret|]. intros s items s' Hi. apply gret_ok in Hi. now destruct Hi as [-> _].
  - inversion_clear H. destruct (IH H1) as [IH1 IH2]. split.
    + apply Names_bind; [now apply nested_generated|intros ?]. apply Names_bind0; [exact IH1|intros; apply Names_ret].
    + intros s items s' Hi. gsteps. cbn [map fst]. f_equal. eapply IH2. eassumption.
Qed.
Theorem program_names_distinct defs prog : generate E defs = Ok prog ->
  Forall (fun kt => plain_open_types (snd kt)) defs ->
  NoDup (map to_type_ident (names_written defs)) -> Forall (fun n => numbered n -> False) (names_written defs) ->
  NoDup (map fst prog).
Proof.
  intros Hg Hno Hnd Hnum. unfold generate in Hg.
  destruct (generate_items E defs new_generator) as [[items s']| | |] eqn:Hi; try discriminate. cbn [rbind fst snd] in Hg. injection Hg as <-.
  destruct (nested_items defs Hno) as [Hn Hf]. pose proof (Hf _ _ _ Hi) as Hfst. specialize (Hn _ _ _ Hi).
  destruct Hn as (L & added & ns & Ha & Hperm & Hndn & _). cbn [new_generator aux_items app] in Ha. rewrite Ha, map_app, Hfst.
  assert (Hp2 : Permutation (map (fun kt => to_type_ident (fst kt)) defs ++ map fst added)
     (map to_type_ident (names_written defs) ++ map numname ns)).
  { rewrite Hperm, app_assoc. apply Permutation_app_tail. clear. induction defs as [|[k t] defs IH]; [constructor|].
    cbn [map flat_map names_written fst snd app]. rewrite !map_app. cbn [map]. apply perm_skip.
    rewrite app_assoc. rewrite (Permutation_app_comm (map _ defs)). rewrite <- app_assoc. now apply Permutation_app_head. }
  eapply Permutation_NoDup; [symmetry; exact Hp2|].
  assert (Hnn : NoDup (map numname ns)).
  { clear - Hndn. induction ns as [|[b n] ns IH]; [constructor|]. cbn [map snd] in *. inversion_clear Hndn. constructor; [|now apply IH].
    intros Hin. apply in_map_iff in Hin. destruct Hin as ([b' n'] & Heq & Hin). unfold numname in Heq. cbn [fst snd] in Heq.
    apply H. apply in_map_iff. exists (b', n'). split; [|exact Hin]. cbn [snd].
    exact (unique_name_ident _ _ _ _ _ Heq eq_refl). }
  revert Hnd Hnum. generalize (names_written defs) as w. induction w as [|x w IH]; intros Hnd Hnum; [exact Hnn|].
  cbn [map app] in *. inversion_clear Hnd. inversion_clear Hnum. constructor; [|now apply IH].
  rewrite in_app_iff. intros [Hin|Hin]; [contradiction|]. apply in_map_iff in Hin. destruct Hin as ([b n] & Heq & _).
  apply H1. exists b, n. unfold numname in Heq. symmetry. exact Heq.
Qed.
End Unique.

(* Names that end in a letter do not look made up. *)
Lemma letter_not_numbered s : (let c := last (chars (to_type_ident s)) "0"%char in is_lower c || is_upper c) = true -> numbered s -> False.
Proof.
  intros H (base & n & He). rewrite He in H. cbv zeta in H. rewrite to_type_ident_chars in H.
  change (" " ++ decimal n)%string with (String " " (decimal n)) in H.
  destruct (capitalize_app base " " (decimal n)) as (a & Ha & _). rewrite Ha, map_app in H. cbn [map] in H.
  assert (Hend : Forall (fun c => is_lower c || is_upper c = false)
    (ident_char match base with EmptyString => to_upper " " | _ => " "%char end :: map ident_char (chars (decimal n)))).
  { constructor; [now destruct base|]. apply Forall_map. eapply Forall_impl; [|apply decimal_digits].
    intros c Hc. clear - Hc. destruct c as [[] [] [] [] [] [] [] []]; vm_compute in *; auto; discriminate. }
  assert (Hlast : forall (A : list ascii) B d, B <> [] -> last (A ++ B) d = last B d).
  { clear. induction A as [|x A IH]; intros B d HB; [reflexivity|]. rewrite <- (IH B d HB). cbn [app last].
    destruct (A ++ B) eqn:Hab; [destruct A; [now destruct HB|discriminate]|reflexivity]. }
  rewrite Hlast in H by discriminate. revert H Hend. generalize (map ident_char (chars (decimal n))). intros l.
  generalize (ident_char match base with EmptyString => to_upper " " | _ => " "%char end). clear. induction l as [|y l IH]; intros x H Hend.
  - inversion_clear Hend. cbn [last] in H. congruence.
  - inversion_clear Hend. apply (IH y); assumption.
Qed.
(* Msg ::= SEQUENCE { id ..., value open type }, and a list of such *)
Definition C36_table : rtype := RSequence false
  [mkRComp "id" (RReference "ProtocolIE-ID") false true;
   mkRComp "value" (RSet "MsgIEs" [("id-Cause"%string, 15, RReference "Cause"); ("id-PDU"%string, 38, ROctetString None)]) false false].
Definition C36_open_defs : list (string * rtype) :=
  [("Cause"%string, RNull); ("Msg"%string, C36_table); ("MsgList"%string, RSequenceOf C36_table None)].
Lemma C36_open_case_proof : Forall (fun kt => plain_open_types (snd kt)) C36_open_defs /\
  NoDup (map to_type_ident (names_written C36_open_defs)) /\ Forall (fun n => numbered n -> False) (names_written C36_open_defs) /\
  exists prog, generate {| overflow_checks := true; little_endian := true |} C36_open_defs = Ok prog /\
    map fst prog = ["Cause"; "Msg"; "MsgList"; "OCTET_STRING_2"; "MsgValue"; "OCTET_STRING_3"; "MsgList_EntryValue"; "MsgList_Entry"]%string.
Proof.
  split; [|split; [|split]].
  - repeat constructor.
  - change (NoDup ["Cause"; "Msg"; "MsgValue"; "MsgList"; "MsgList_Entry"; "MsgList_EntryValue"]%string).
    repeat (constructor; [cbn; intuition discriminate|]). constructor.
  - change (Forall (fun n => numbered n -> False) ["Cause"; "Msg"; "MsgValue"; "MsgList"; "MsgList_Entry"; "MsgList_EntryValue"]%string).
    repeat (constructor; [apply letter_not_numbered; vm_compute; reflexivity|]). constructor.
  - eexists. split; [vm_compute; reflexivity|reflexivity].
Qed.
