(* The names of the generated definitions are distinct. *)
From Coq Require Import ZArith NArith List Bool String Ascii Permutation Lia.
From Coq Require Import ZifyBool ZifyNat ZifyN.
Require Import Verif.Base Verif.Asn1Model Verif.GenModel Verif.CompilerSpec Verif.GenProofs Verif.NameProofs.
Import ListNotations.
Open Scope Z_scope.

Definition numname (p : string * N) : string := to_type_ident (fst p ++ " " ++ decimal (snd p)).
(* m adds definitions with the names w, and some with made up names *)
Definition adds (s s' : gstate) (w : list string) : Prop :=
  (counter s <= counter s')%N /\
  exists app ns, aux_items s' = aux_items s ++ app /\
    Permutation (map fst app) (map to_type_ident w ++ map numname ns) /\
    NoDup (map snd ns) /\ Forall (fun p => counter s < snd p <= counter s')%N ns.
Definition Names {A} (m : G A) (w : list string) : Prop := forall s a s', m s = Ok (a, s') -> adds s s' w.

Lemma adds_refl s : adds s s [].
Proof. split; [lia|]. exists [], []. rewrite app_nil_r. repeat constructor. Qed.
Lemma adds_trans a b c w1 w2 : adds a b w1 -> adds b c w2 -> adds a c (w1 ++ w2).
Proof.
  intros (L1 & app1 & ns1 & A1 & P1 & N1 & F1) (L2 & app2 & ns2 & A2 & P2 & N2 & F2). split; [lia|].
  exists (app1 ++ app2), (ns1 ++ ns2). split; [now rewrite A2, A1, app_assoc|]. split; [|split].
  - rewrite !map_app. rewrite P1, P2. rewrite <- !app_assoc. apply Permutation_app_head.
    rewrite !app_assoc. apply Permutation_app_tail. apply Permutation_app_comm.
  - rewrite map_app. clear - N1 N2 F1 F2 L1 L2. induction ns1 as [|[x n] ns1 IH]; [exact N2|].
    cbn [map app] in *. inversion_clear N1. inversion_clear F1. constructor; [|now apply IH].
    rewrite in_app_iff. intros [Hin|Hin]; [contradiction|]. apply in_map_iff in Hin. destruct Hin as ([y m] & Heq & Hin).
    rewrite Forall_forall in F2. specialize (F2 _ Hin). cbn [snd] in *. lia.
  - apply Forall_app. split; eapply Forall_impl; try eassumption; cbn; intros; lia.
Qed.
Lemma Names_ret {A} (a : A) : Names (gret a) [].
Proof. intros s x s' H. apply gret_ok in H. destruct H as [_ ->]. apply adds_refl. Qed.
Lemma Names_lift {A} (r : res A) : Names (glift r) [].
Proof. intros s x s' H. apply glift_ok in H. destruct H as [_ ->]. apply adds_refl. Qed.
Lemma Names_bind {A B} (m : G A) (f : A -> G B) w1 w2 : Names m w1 -> (forall a, Names (f a) w2) -> Names (gbind m f) (w1 ++ w2).
Proof.
  intros H1 H2 s b s' H. apply gbind_ok in H. destruct H as (a & s1 & Ha & Hb).
  eapply adds_trans; [eapply H1, Ha|eapply H2, Hb].
Qed.
Lemma Names_bind0 {A B} (m : G A) (f : A -> G B) w : Names m w -> (forall a, Names (f a) []) -> Names (gbind m f) w.
Proof. intros H1 H2. rewrite <- (app_nil_r w). now apply Names_bind. Qed.
Lemma Names_gsize E size f : Names (gsize E size f) [].
Proof. unfold gsize. apply Names_bind0; [apply Names_lift|intros; apply Names_ret]. Qed.
Lemma push_adds n d s u s' : push_aux (to_type_ident n, d) s = Ok (u, s') -> adds s s' [n].
Proof.
  intros H. injection H as _ <-. split; [cbn; lia|]. exists [(to_type_ident n, d)], []. cbn. repeat constructor.
Qed.
Lemma push_named n d s u s' b c : n = (b ++ " " ++ decimal c)%string -> push_aux (to_type_ident n, d) s = Ok (u, s') ->
  counter s' = counter s /\ aux_items s' = aux_items s ++ [(to_type_ident n, d)].
Proof. intros _ H. injection H as _ <-. split; reflexivity. Qed.

Section Unique.
Context (E : env).
Definition Named (t : rtype) : Prop := no_open_types t -> forall name, Names (generate_for_type E t name) (inner_names t name).

Lemma Names_maybe t i : Named t -> no_open_types t ->
  Names (name_maybe_aux (generate_for_type E t) t (Some i)) (if constructed t then i :: inner_names t i else []).
Proof.
  intros Ht Hno.
  assert (Hbase : forall base w, (forall n, Names (generate_for_type E t n) w) -> w = [] ->
    Names (name <~ get_unique_name base ;; d <~ generate_for_type E t name ;;
           _ <~ push_aux (to_type_ident name, d) ;; gret (to_type_ident name)) []).
  { intros base w Hg -> s a s' H. apply gbind_ok in H. destruct H as (nm & s1 & Hn & H).
    unfold get_unique_name in Hn. injection Hn as <- <-.
    apply gbind_ok in H. destruct H as (d & s2 & Hd & H). apply Hg in Hd.
    apply gbind_ok in H. destruct H as (u & s3 & Hp & H). apply gret_ok in H. destruct H as [_ ->].
    destruct Hd as (L & added & ns & Ha & Hperm & Hnd & Hf). cbn [counter aux_items] in *.
    injection Hp as _ <-. split; [cbn [counter]; lia|].
    exists (added ++ [(to_type_ident (base ++ " " ++ decimal (counter s + 1)), d)]), ((base, (counter s + 1)%N) :: ns).
    cbn [aux_items counter]. split; [now rewrite Ha, <- app_assoc|]. split; [|split].
    - rewrite map_app, Hperm. cbn [map app fst]. change (numname (base, (counter s + 1)%N)) with (to_type_ident (base ++ " " ++ decimal (counter s + 1))).
      symmetry. apply Permutation_cons_append.
    - cbn [map snd]. constructor; [|exact Hnd]. intros Hin. apply in_map_iff in Hin. destruct Hin as (p & Heq & Hin).
      rewrite Forall_forall in Hf. specialize (Hf p Hin). lia.
    - constructor; [cbn [snd]; lia|]. eapply Forall_impl; [|exact Hf]. cbn. intros; lia. }
  assert (Hcon : constructed t = true -> Names (d <~ generate_for_type E t i ;; _ <~ push_aux (to_type_ident i, d) ;; gret (to_type_ident i)) (i :: inner_names t i)).
  { intros _ s a s' H. apply gbind_ok in H. destruct H as (d & s2 & Hd & H). apply (Ht Hno) in Hd.
    apply gbind_ok in H. destruct H as (u & s3 & Hp & H). apply gret_ok in H. destruct H as [_ ->]. apply push_adds in Hp.
    pose proof (adds_trans _ _ _ _ _ Hd Hp) as (L & app & ns & Ha & Hperm & Hr). split; [exact L|]. exists app, ns.
    split; [exact Ha|]. split; [|exact Hr]. rewrite Hperm. apply Permutation_app_tail. apply Permutation_map.
    symmetry. apply Permutation_cons_append. }
  destruct t; cbn [name_maybe_aux aux_base_name constructed];
    try (apply (Hbase _ []); [intros n; exact (Ht Hno n)|reflexivity]);
    try (specialize (Hcon eq_refl); intros s a s' H; apply (Hcon s a s'); exact H).
  - apply Names_ret.
  - destruct Hno.
Qed.

Lemma Names_choice_tokens name x : forall l i, Forall (fun p => Named (snd p)) l ->
  all (fun c : string * rtype => match c with (_, t) => no_open_types t end) l ->
  Names (choice_tokens E name x i l)
    (flat_map (fun c => match c with (id, t) => if constructed t then (name ++ id)%string :: inner_names t (name ++ id)%string else [] end) l).
Proof.
  induction l as [|[id t] l IH]; intros i H Hno; [apply Names_ret|]. rewrite choice_tokens_cons. inversion_clear H. destruct Hno as [Hn Hno].
  cbn [flat_map]. apply Names_bind; [now apply Names_maybe|intros ?]. apply Names_bind0; [now apply IH|intros; apply Names_ret].
Qed.
Lemma Names_seq_tokens name : forall l i, Forall (fun c => Named (rc_ty c)) l ->
  all (fun c => match c with mkRComp _ t _ _ => no_open_types t end) l ->
  Names (seq_tokens E name i l)
    (flat_map (fun c => match c with mkRComp id t _ _ =>
      if constructed t then (name ++ to_type_ident id)%string :: inner_names t (name ++ to_type_ident id)%string else [] end) l).
Proof.
  induction l as [|[id t o k] l IH]; intros i H Hno; [apply Names_ret|]. rewrite seq_tokens_cons. inversion_clear H. destruct Hno as [Hn Hno].
  cbn [flat_map]. apply Names_bind; [now apply Names_maybe|intros ?]. apply Names_bind0; [now apply IH|intros; apply Names_ret].
Qed.
Lemma generate_names t : Named t.
Proof.
  induction t using rtype_ind'; intros Hno name;
    try (cbn [generate_for_type inner_names]; first [apply Names_lift|apply Names_gsize|apply Names_ret]).
  - rewrite generate_choice. destruct Hno as [Hr Ha]. cbn [inner_names].
    apply Names_bind; [now apply Names_choice_tokens|intros ?].
    apply Names_bind0; [|intros ?; apply Names_bind0; [apply Names_lift|intros; apply Names_ret]].
    destruct adds0 as [l|]; [now apply Names_choice_tokens; auto|apply Names_ret].
  - rewrite generate_seq. cbn [inner_names]. apply Names_bind0; [now apply Names_seq_tokens|intros; apply Names_ret].
  - cbn [generate_for_type inner_names]. apply (Names_bind _ _ [] _); [apply Names_lift|intros ?].
    apply Names_bind0; [now apply Names_maybe|intros; apply Names_ret].
  - destruct Hno.
Qed.
Lemma items_names defs : Forall (fun kt => no_open_types (snd kt)) defs ->
  Names (generate_items E defs) (flat_map (fun kt => inner_names (snd kt) (fst kt)) defs) /\
  forall s items s', generate_items E defs s = Ok (items, s') -> map fst items = map (fun kt => to_type_ident (fst kt)) defs.
Proof.
  induction defs as [|[k t] defs IH]; intros H; cbn [generate_items flat_map].
  - split; [apply Names_ret|]. intros s items s' Hi. apply gret_ok in Hi. now destruct Hi as [-> _].
  - inversion_clear H. destruct (IH H1) as [IH1 IH2]. split.
    + apply Names_bind; [now apply generate_names|intros ?]. apply Names_bind0; [exact IH1|intros; apply Names_ret].
    + intros s items s' Hi. gsteps. cbn [map fst]. f_equal. eapply IH2. eassumption.
Qed.
Theorem generated_names_distinct defs prog : generate E defs = Ok prog ->
  Forall (fun kt => no_open_types (snd kt)) defs ->
  NoDup (map to_type_ident (written_names defs)) -> Forall (fun n => ~ numbered n) (written_names defs) ->
  NoDup (map fst prog).
Proof.
  intros Hg Hno Hnd Hnum. unfold generate in Hg.
  destruct (generate_items E defs new_generator) as [[items s']| | |] eqn:Hi; try discriminate. cbn [rbind fst snd] in Hg. injection Hg as <-.
  destruct (items_names defs Hno) as [Hn Hf]. pose proof (Hf _ _ _ Hi) as Hfst. specialize (Hn _ _ _ Hi).
  destruct Hn as (L & added & ns & Ha & Hperm & Hndn & _). cbn [new_generator aux_items app] in Ha. rewrite Ha, map_app, Hfst.
  assert (Hp2 : Permutation (map (fun kt => to_type_ident (fst kt)) defs ++ map fst added)
     (map to_type_ident (written_names defs) ++ map numname ns)).
  { rewrite Hperm, app_assoc. apply Permutation_app_tail. clear. induction defs as [|[k t] defs IH]; [constructor|].
    cbn [map flat_map written_names fst snd app]. rewrite !map_app. cbn [map]. apply perm_skip.
    rewrite app_assoc. rewrite (Permutation_app_comm (map _ defs)). rewrite <- app_assoc. now apply Permutation_app_head. }
  eapply Permutation_NoDup; [symmetry; exact Hp2|].
  assert (Hnn : NoDup (map numname ns)).
  { clear - Hndn. induction ns as [|[b n] ns IH]; [constructor|]. cbn [map snd] in *. inversion_clear Hndn. constructor; [|now apply IH].
    intros Hin. apply in_map_iff in Hin. destruct Hin as ([b' n'] & Heq & Hin). unfold numname in Heq. cbn [fst snd] in Heq.
    apply H. apply in_map_iff. exists (b', n'). split; [|exact Hin]. cbn [snd].
    exact (unique_name_ident _ _ _ _ _ Heq eq_refl). }
  revert Hnd Hnum. generalize (written_names defs) as w. induction w as [|x w IH]; intros Hnd Hnum; [exact Hnn|].
  cbn [map app] in *. inversion_clear Hnd. inversion_clear Hnum. constructor; [|now apply IH].
  rewrite in_app_iff. intros [Hin|Hin]; [contradiction|]. apply in_map_iff in Hin. destruct Hin as ([b n] & Heq & _).
  apply H1. exists b, n. unfold numname in Heq. symmetry. exact Heq.
Qed.
End Unique.
(* Names of letters and digits do not look made up. *)
Lemma alnum_not_numbered s : Forall (fun c => is_alnum c = true) (chars s) -> ~ numbered s.
Proof. intros H (base & n & He). now apply (unique_name_fresh base n s H). Qed.
