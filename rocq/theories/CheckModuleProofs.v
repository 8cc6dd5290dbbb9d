(* The meaning that the functions of CheckSpec find for modules is theirs. *)
From Coq Require Import ZArith NArith List Bool String Ascii Lia.
Require Import Verif.Base Verif.DeriveModel Verif.DeriveSpec Verif.Asn1Model Verif.GenModel Verif.ResolveModel Verif.TokenModel Verif.ParserModel
  Verif.ModuleModel Verif.DefinitionModel Verif.CompilerSpec Verif.CheckSpec Verif.CheckProofs.
Require Verif.ParserSpec Verif.ParamSpec Verif.ObjectProofs Verif.ModuleProofs Verif.ObjectFacts.
Import ListNotations.
Open Scope Z_scope.

Local Opaque nesting find_type type_of_words.
Definition more (M M' : meaning) : Prop :=
  le (numbers M) (numbers M') /\ le (ids M) (ids M') /\ le (types M) (types M') /\ le (sets M) (sets M') /\ le (objects M) (objects M') /\
  forall r, generics M r = true -> generics M' r = true.

Lemma find_def_ok : forall l k m d, find_def l k = Some (m, d) -> exists name, In (name, m) l /\ In (k, d) (m_defs m).
Proof.
  induction l as [|[n m0] l IH]; intros k m d; cbn [find_def]; [discriminate|]. destruct (lookup k (m_defs m0)) as [d0|] eqn:E.
  - intros [= <- <-]. exists n. split; [now left|now apply ObjectProofs.lookup_in].
  - intros H. destruct (IH _ _ _ H) as (name & H1 & H2). exists name. split; [now right|exact H2].
Qed.
Lemma lookup_none_names {A} (l : list (string * A)) k : lookup k l = None -> ~ In k (map fst l).
Proof.
  induction l as [|[x a] l IH]; cbn; [tauto|]. destruct (String.eqb_spec k x); [discriminate|]. intros H [H1|H1]; [congruence|now apply IH].
Qed.
Lemma find_def_none l k : find_def l k = None -> forall n m, In (n, m) l -> ~ In k (def_names m).
Proof.
  induction l as [|[n0 m0] l IH]; cbn [find_def]; [intros _ ? ? []|]. destruct (lookup k (m_defs m0)) as [d0|] eqn:E; [discriminate|].
  intros H n m [H1|H1]; [|now apply (IH H n)]. injection H1 as <- <-. now apply lookup_none_names.
Qed.
Lemma apart_ok : forall formals ps, apart formals ps = true -> ParamSpec.in_sequence formals ps.
Proof.
  induction formals as [|f fs IH]; intros ps H i j g a Hij Hj Hi.
  - destruct j; discriminate.
  - destruct ps as [|p ps]; [destruct i; discriminate|]. cbn [apart] in H. apply andb_true_iff in H. destruct H as [H1 H2].
    destruct j as [|j]; [lia|]. cbn in Hj. destruct i as [|i]; cbn in Hi.
    + injection Hi as <-. intros E. apply negb_true_iff in H1. assert (H : mem (param_string p) fs = true); [|congruence].
      apply existsb_exists. exists g. split; [now apply nth_error_In in Hj|]. rewrite E. apply String.eqb_refl.
    + apply (IH ps H2 i j); [lia|assumption|assumption].
Qed.

Section Modules.
Context (modules : list (string * module)).
Section Means.
Context (M : meaning).
Lemma instance_ok : forall n sees r ps T, find_instance M modules n sees r ps = Some T -> instance_means M modules n sees r ps T.
Proof.
  induction n as [|n IH]; intros sees r ps T; cbn [find_instance instance_means]; [discriminate|].
  destruct (find_def modules r) as [[m [kind params]]|] eqn:Hd; [|discriminate]. destruct kind as [|t0| | |]; try discriminate. destruct params as [[formals w]|]; [|discriminate].
  intros E. apply look_some in E. destruct E as (t & Ht & E). apply only_if_some in E. destruct E as [Hb E]. rewrite !andb_true_iff in Hb.
  destruct Hb as [[[H1 H2] H3] H4]. apply Nat.eqb_eq in H3. apply find_def_ok in Hd. destruct Hd as (name & Hm & Hr).
  exists name, m, formals, w, t0, t. repeat (split; [first [assumption|now apply apart_ok|now apply type_of_words_ok]|]).
  cbn zeta. eapply type_ok; [|exact E]. intros r' ps' T'. apply IH.
Qed.
Lemma in_ok n sees sizes t T : find_in M modules n sees sizes t = Some T -> means_in M modules n sees sizes t T.
Proof. apply type_ok. apply instance_ok. Qed.
Lemma field_ok (type_is class_type_is : asn_type -> option ty) ids (P Q : asn_type -> ty -> Prop) f g :
  (forall t T, type_is t = Some T -> P t T) -> (forall t T, class_type_is t = Some T -> Q t T) ->
  find_field modules type_is class_type_is ids f = Some g -> field_means P Q ids (is_name modules) f g.
Proof.
  intros HP HQ. destruct f as [k [[t|]|t [v|]]]; cbn [find_field].
  - intros E. apply look_some in E. destruct E as (T & HT & E). destruct t as [kind cs].
    assert (Hw : (forall r, kind <> KReference r) -> Some (k, FieldWritten T) = Some g -> field_means P Q ids (is_name modules) (k, OFType (Some (mkType kind cs))) g).
    { intros Hk [= <-]. apply FM_written; auto. }
    destruct kind as [| [r| |] | | | | |]; try discriminate; try (apply Hw; [discriminate|assumption]). injection E as <-. apply FM_type. auto.
  - intros [= <-]. constructor.
  - intros E. apply look_some in E. destruct E as (T & HT & E). destruct (ids v) as [z|] eqn:Hv.
    + injection E as <-. apply FM_named; auto.
    + apply only_if_some in E. destruct E as [Hb E]. injection E as <-. apply andb_true_iff in Hb. destruct Hb as [H1 H2]. apply FM_literal; auto.
      * destruct T; cbn in H1 |- *; try discriminate; auto. now destruct (parse_i128 v).
      * destruct (find_def modules v) eqn:Hd; [discriminate|]. intros (a & m & Ha & Hk). now apply (find_def_none _ _ Hd a m).
  - intros E. apply look_some in E. destruct E as (T & HT & E). injection E as <-. constructor. auto.
Qed.
Lemma fields_ok (type_is class_type_is : asn_type -> option ty) ids (P Q : asn_type -> ty -> Prop) fs o :
  (forall t T, type_is t = Some T -> P t T) -> (forall t T, class_type_is t = Some T -> Q t T) ->
  each (find_field modules type_is class_type_is ids) fs = Some o -> Forall2 (field_means P Q ids (is_name modules)) fs o.
Proof.
  intros HP HQ H. apply each_some in H. induction H as [|f g fs o H _ IH]; constructor; [|exact IH]. now apply (field_ok type_is class_type_is).
Qed.
Lemma class_ok m class m' fields : find_class M modules m class = Some (m', fields) -> class_is M modules m class m' fields.
Proof.
  unfold find_class. destruct (find_def modules class) as [[m0 [kind params]]|] eqn:Hd; [|discriminate]. destruct kind; try discriminate. destruct params; [discriminate|].
  intros E. apply only_if_some in E. destruct E as [Hb E]. injection E as <- <-. apply andb_true_iff in Hb. apply find_def_ok in Hd. destruct Hd as (n & H1 & H2).
  split; [apply Hb|]. split; [apply Hb|]. exists n. auto.
Qed.
Lemma unique_ok fields u : find_unique fields = Some u -> class_id fields u.
Proof.
  unfold find_unique. destruct (filter _ fields) as [|[k c] [|? ?]] eqn:Hf; try discriminate. intros [= <-].
  assert (H : forall x, In x [(k, c)] <-> In x fields /\ match snd x with CFValue _ u => u | CFType => false end = true).
  { intros x. rewrite <- Hf. apply filter_In. }
  split.
  - destruct (proj1 (H (k, c)) (or_introl eq_refl)) as [H1 H2]. cbn in H2. destruct c as [|t u]; [discriminate|]. subst u. eauto.
  - intros k' t Hk. destruct (proj2 (H (k', CFValue t true)) (conj Hk eq_refl)) as [E|[]]. congruence.
Qed.
Lemma elements_ok n m m' fields u : forall l os, find_elements M modules n m m' fields u l = Some os -> elements_mean M modules n m m' fields u l os.
Proof.
  induction l as [|e l IH]; intros os; cbn [find_elements]; [intros [= <-]; constructor|]. intros E. apply look_some in E. destruct E as (r & Hr & E). specialize (IH _ Hr).
  destruct e as [k|k|[fs|]]; try discriminate.
  - apply look_some in E. destruct E as (s & Hs & E). apply only_if_some in E. destruct E as [Hu E]. injection E as <-. apply String.eqb_eq in Hu. now constructor.
  - apply look_some in E. destruct E as (o & Ho & E). injection E as <-. now constructor.
  - apply look_some in E. destruct E as (o & Ho & E). injection E as <-. constructor; [|exact IH]. eapply fields_ok; [| |exact Ho]; intros t T; apply in_ok.
Qed.
Lemma ids_apart_ok u os : ids_apart (map (id_of u) os) = true -> well_identified (mkSetMeaning u os).
Proof.
  intros H. unfold well_identified. cbn [sm_unique sm_objects]. split.
  - induction os as [|o os IH]; constructor; cbn [map ids_apart] in H; destruct (id_of u o); try discriminate. apply andb_true_iff in H. now apply IH.
  - induction (map (id_of u) os) as [|x l IH]; constructor; cbn [ids_apart] in H; destruct x as [[nm z]|]; try discriminate; apply andb_true_iff in H; destruct H as [H1 H2].
    + intros Hin. apply negb_true_iff in H1. assert (E : existsb (id_eqb (Some (nm, z))) l = true); [|congruence]. apply existsb_exists. exists (Some (nm, z)). split; [exact Hin|].
      cbn. now rewrite String.eqb_refl, Z.eqb_refl.
    + now apply IH.
Qed.
Definition entry_means (n : nat) (m : module) (d : definition) (e : entry) : Prop :=
  match e with
  | IsType T => exists t, d = mkDef (DKType t) None /\ means_in_module M modules n m t T
  | IsNumber z => exists cs lb ub ext i text,
      d = mkDef (DKValue (mkType (KBuiltin BInteger) cs) text) None /\
      means_in_module M modules n m (mkType (KBuiltin BInteger) cs) (TInt lb ub ext i) /\ parse_i128 text = Some z
  | IsId z => exists t lb ub ext i text,
      d = mkDef (DKValue t text) None /\ means_in_module M modules n m t (TInt lb ub ext i) /\ parse_i128 text = Some z
  | IsSet s => exists class root additional m' fields,
       d = mkDef (DKObjectSet class root additional) None /\ class_is M modules m class m' fields /\
       (sm_objects s <> [] -> class_id fields (sm_unique s)) /\
       elements_mean M modules n m m' fields (sm_unique s) (root ++ additional) (sm_objects s) /\ well_identified s
  | IsObject o => exists class fs m' fields,
       d = mkDef (DKObject class (Some fs)) None /\ class_is M modules m class m' fields /\
       Forall2 (field_means (means_in M modules n (import_of m) (import_of m)) (means_in_class M modules n m' fields) (restrict (import_of m) (ids M)) (is_name modules)) fs o
  | IsGeneric => (exists t ps, d = mkDef (DKType t) (Some ps)) \/ exists fields, d = mkDef (DKClass fields) None
  end.
Lemma entry_ok n m d e : find_entry M modules n m d = Some e -> entry_means n m d e.
Proof.
  destruct d as [kind params]. destruct kind as [t text|t|fields|class v|class root additional]; destruct params as [ps|]; cbn [find_entry]; try discriminate.
  - intros E. apply look_some in E. destruct E as (T & HT & E). apply look_some in E. destruct E as (z & Hz & E). apply in_ok in HT.
    destruct T; try discriminate. destruct t as [k cs].
    assert (Hi : Some (IsId z) = Some e -> entry_means n m (mkDef (DKValue (mkType k cs) text) None) e).
    { intros [= <-]. cbn. eauto 10. }
    destruct k as [b| | | | | |]; try exact (Hi E). destruct b; try exact (Hi E). injection E as <-. cbn. eauto 10.
  - intros [= <-]. left. eauto.
  - intros E. apply look_some in E. destruct E as (T & HT & E). injection E as <-. exists t. split; [reflexivity|]. now apply in_ok.
  - intros [= <-]. right. eauto.
  - destruct v; discriminate.
  - destruct v as [fs|]; [|discriminate]. intros E. apply look_some in E. destruct E as ([m' fields] & Hc & E). apply look_some in E. destruct E as (o & Ho & E). injection E as <-.
    exists class, fs, m', fields. split; [reflexivity|]. split; [now apply class_ok|]. eapply fields_ok; [| |exact Ho]; intros t T; apply in_ok.
  - intros E. apply look_some in E. destruct E as ([m' fields] & Hc & E). apply class_ok in Hc.
    destruct (root ++ additional) as [|x l] eqn:Hl.
    + injection E as <-. exists class, root, additional, m', fields. split; [reflexivity|]. split; [exact Hc|].
      cbn [sm_objects sm_unique]. rewrite Hl. split; [tauto|]. split; [constructor|]. split; constructor.
    + apply look_some in E. destruct E as (u & Hu & E). apply look_some in E. destruct E as (os & Hos & E). apply only_if_some in E. destruct E as [Hi E]. injection E as <-.
      exists class, root, additional, m', fields. split; [reflexivity|]. split; [exact Hc|].
      cbn [sm_objects sm_unique]. rewrite Hl. split; [intros _; now apply unique_ok|]. split; [now apply elements_ok|]. now apply ids_apart_ok.
Qed.
End Means.

(* ------------------------------------------------------------------ *)
(* More is found when more is known                                    *)
(* ------------------------------------------------------------------ *)
Section More.
Context (M M' : meaning) (H : more M M').
Context (Hids : forall v z, ids M' v = Some z -> find_def modules v <> None).
Lemma instance_le : forall n sees r, le (find_instance M modules n sees r) (find_instance M' modules n sees r).
Proof.
  destruct H as (H1 & H2 & H3 & H4 & H5 & H6). induction n as [|n IH]; intros sees r ps T; cbn [find_instance]; [discriminate|].
  destruct (find_def modules r) as [[m [kind params]]|] eqn:Hd; [|discriminate]. destruct kind as [|t0| | |]; [discriminate| |discriminate..]. destruct params as [[formals w]|]; [|discriminate].
  intros E. apply look_some in E. destruct E as (t & Ht & E). rewrite Ht. cbn [then_]. apply only_if_some in E. destruct E as [Hb E]. rewrite !andb_true_iff in Hb.
  destruct Hb as [[[G1 G2] G3] G4]. rewrite G1, (H6 _ G2), G3, G4. cbn [andb only_if].
  revert E. apply type_le; try apply restrict_le; try assumption. intros r'. apply IH.
Qed.
Lemma in_le n sees sizes : le (find_in M modules n sees sizes) (find_in M' modules n sees sizes).
Proof. destruct H as (H1 & H2 & H3 & H4 & H5 & H6). apply type_le; try apply restrict_le; try assumption. intros r. apply instance_le. Qed.
Lemma field_le f f' g g' sees : le f f' -> le g g' ->
  le (find_field modules f g (restrict sees (ids M))) (find_field modules f' g' (restrict sees (ids M'))).
Proof.
  intros Hf Hg [k [[t|]|t [v|]]] x; cbn [find_field]; try exact (fun e => e).
  - intros E. apply look_some in E. destruct E as (T & HT & E). rewrite (Hf _ _ HT). exact E.
  - intros E. apply look_some in E. destruct E as (T & HT & E). rewrite (Hg _ _ HT). cbn [then_]. unfold restrict in *. destruct (sees v); [|exact E].
    destruct (ids M v) as [z|] eqn:Hv.
    + now rewrite (proj1 (proj2 H) _ _ Hv).
    + destruct (ids M' v) as [z|] eqn:Hv'; [|exact E]. exfalso. apply Hids in Hv'. apply only_if_some in E. destruct E as [Hb _]. apply andb_true_iff in Hb.
      destruct Hb as [_ Hb]. now destruct (find_def modules v).
  - intros E. apply look_some in E. destruct E as (T & HT & E). rewrite (Hg _ _ HT). exact E.
Qed.
Lemma class_le m : le (find_class M modules m) (find_class M' modules m).
Proof.
  destruct H as (H1 & H2 & H3 & H4 & H5 & H6). intros class x. unfold find_class. destruct (find_def modules class) as [[m0 [kind params]]|]; [|discriminate]. destruct kind as [| |fields| |]; [discriminate|discriminate| |discriminate|discriminate]. destruct params; [discriminate|].
  intros E. apply only_if_some in E. destruct E as [Hb E]. apply andb_true_iff in Hb. destruct Hb as [Hb1 Hb2]. now rewrite Hb1, (H6 _ Hb2).
Qed.
Lemma elements_le n m m' fields u : le (find_elements M modules n m m' fields u) (find_elements M' modules n m m' fields u).
Proof.
  intros l. induction l as [|e l IH]; intros os; cbn [find_elements]; [exact (fun e => e)|]. intros E. apply look_some in E. destruct E as (r & Hr & E). rewrite (IH _ Hr). cbn [then_].
  destruct H as (H1 & H2 & H3 & H4 & H5 & H6).
  destruct e as [k|k|[fs|]]; [| | |discriminate E].
  - apply look_some in E. destruct E as (o & Ho & E). unfold scoped in *. rewrite (restrict_le (in_scope m) _ _ H4 _ _ Ho). exact E.
  - apply look_some in E. destruct E as (o & Ho & E). unfold scoped in *. rewrite (restrict_le (in_scope m) _ _ H5 _ _ Ho). exact E.
  - apply look_some in E. destruct E as (o & Ho & E). unfold in_class in *. rewrite (each_le _ _ (field_le _ _ _ _ (import_of m) (in_le n _ _) (in_le n _ _)) _ _ Ho). exact E.
Qed.
Lemma entry_le n m : le (find_entry M modules n m) (find_entry M' modules n m).
Proof.
  intros [kind params] e. destruct kind as [t text|t|fields|class v|class root additional]; destruct params as [ps|]; cbn [find_entry];
    [discriminate| | | |discriminate| |destruct v; discriminate| |discriminate|].
  - intros E. apply look_some in E. destruct E as (T & HT & E). rewrite (in_le _ _ _ _ _ HT). exact E.
  - exact (fun e => e).
  - intros E. apply look_some in E. destruct E as (T & HT & E). rewrite (in_le _ _ _ _ _ HT). exact E.
  - exact (fun e => e).
  - destruct v as [fs|]; [|discriminate]. intros E. apply look_some in E. destruct E as ([m' fields] & Hc & E). rewrite (class_le _ _ _ Hc). cbn [then_].
    apply look_some in E. destruct E as (o & Ho & E). unfold in_class in *. rewrite (each_le _ _ (field_le _ _ _ _ (import_of m) (in_le n _ _) (in_le n _ _)) _ _ Ho). exact E.
  - intros E. apply look_some in E. destruct E as ([m' fields] & Hc & E). rewrite (class_le _ _ _ Hc). cbn [then_]. destruct (root ++ additional); [exact E|].
    apply look_some in E. destruct E as (u & Hu & E). rewrite Hu. cbn [then_]. apply look_some in E. destruct E as (os & Hos & E). rewrite (elements_le _ _ _ _ _ _ _ Hos). exact E.
Qed.
End More.

(* ------------------------------------------------------------------ *)
(* All definitions                                                     *)
(* ------------------------------------------------------------------ *)
Context (n : nat) (Hw : well_named modules).
Definition found (tb : table) : Prop :=
  forall k e, lookup k tb = Some e -> exists name m d, In (name, m) modules /\ In (k, d) (m_defs m) /\ find_entry (meaning_of tb) modules n m d = Some e.
Lemma more_of (tb tb' : table) : (forall k e, lookup k tb = Some e -> lookup k tb' = Some e) -> more (meaning_of tb) (meaning_of tb').
Proof.
  intros H. repeat split; cbn; try intros k x; try intros k; destruct (lookup k tb) as [e|] eqn:E; try discriminate; rewrite (H _ _ E); auto.
Qed.
Lemma in_find_def k : (exists name m d, In (name, m) modules /\ In (k, d) (m_defs m)) -> find_def modules k <> None.
Proof.
  intros (name & m & d & H1 & H2) E. apply (find_def_none _ _ E _ _ H1). apply in_map_iff. exists (k, d). auto.
Qed.
Lemma extend_found m tb k name : In (name, m) modules -> found tb -> found (extend modules n m tb k).
Proof.
  intros Hm Hf. unfold extend. destruct (lookup k (m_defs m)) as [d|] eqn:Hd; [|exact Hf]. destruct (lookup k tb) eqn:Hk; [exact Hf|].
  destruct (find_entry (meaning_of tb) modules n m d) as [e|] eqn:He; [|exact Hf]. apply ObjectProofs.lookup_in in Hd.
  assert (Hmore : more (meaning_of tb) (meaning_of ((k, e) :: tb))).
  { apply more_of. intros k' e' H. cbn. destruct (String.eqb_spec k' k); [congruence|exact H]. }
  assert (Hnames : forall v e', lookup v ((k, e) :: tb) = Some e' -> find_def modules v <> None).
  { intros v e' H. cbn in H. apply in_find_def. destruct (String.eqb_spec v k); [subst; eauto|]. destruct (Hf _ _ H) as (a & m' & d' & H1 & H2 & _). eauto. }
  assert (Hids : forall v z, ids (meaning_of ((k, e) :: tb)) v = Some z -> find_def modules v <> None).
  { intros v z H. unfold meaning_of in H. cbn [ids] in H. destruct (lookup v ((k, e) :: tb)) as [e'|] eqn:Hv; [|discriminate]. now apply (Hnames _ e'). }
  intros k' e' H. cbn in H. destruct (String.eqb_spec k' k).
  - injection H as <-. subst. exists name, m, d. split; [exact Hm|]. split; [exact Hd|]. now apply (entry_le _ _ Hmore Hids).
  - destruct (Hf _ _ H) as (a & m' & d' & H1 & H2 & H3). exists a, m', d'. split; [exact H1|]. split; [exact H2|]. now apply (entry_le _ _ Hmore Hids).
Qed.
Lemma generic_found : found (flat_map (fun nm => generic_entries (snd nm)) modules).
Proof.
  intros k e H. apply ObjectProofs.lookup_in in H. apply in_flat_map in H. destruct H as ([name m] & Hm & H). cbn [snd] in H. unfold generic_entries in H.
  apply in_flat_map in H. destruct H as ([k' [kind params]] & Hd & H). cbn [fst snd] in H. exists name, m.
  destruct kind; destruct params; cbn in H; try tauto; destruct H as [H|[]]; injection H as <- <-; eauto.
Qed.
Lemma meaning_found orders : found (find_meaning modules n orders).
Proof.
  unfold find_meaning. generalize generic_found. generalize (flat_map (fun nm => generic_entries (snd nm)) modules). induction orders as [|[a order] orders IH]; intros tb Hf; [exact Hf|].
  cbn [fold_left fst snd]. apply IH. destruct (lookup a modules) as [m|] eqn:Hm; [|exact Hf]. apply ObjectProofs.lookup_in in Hm.
  clear IH. revert tb Hf. induction order as [|k order IH]; intros tb Hf; [exact Hf|]. cbn [fold_left]. apply IH. now apply (extend_found m tb k a).
Qed.
Lemma meaning_right orders a m : In (a, m) modules -> module_means (meaning_of (find_meaning modules n orders)) modules n m.
Proof.
  intros Hm k d Hk. set (tb := find_meaning modules n orders).
  assert (Hu : forall e, lookup k tb = Some e -> entry_means (meaning_of tb) n m d e).
  { intros e He. destruct (meaning_found orders k e He) as (a' & m' & d' & H1 & H2 & H3). apply entry_ok in H3.
    destruct (ModuleProofs.def_unique modules Hw a m a' m' k d d' Hm H1 Hk H2) as [<- <-]. exact H3. }
  assert (E1 : types (meaning_of tb) k = match lookup k tb with Some (IsType t) => Some t | _ => None end) by reflexivity.
  assert (E2 : numbers (meaning_of tb) k = match lookup k tb with Some (IsNumber z) => Some z | _ => None end) by reflexivity.
  assert (E3 : ids (meaning_of tb) k = match lookup k tb with Some (IsNumber z) | Some (IsId z) => Some z | _ => None end) by reflexivity.
  assert (E4 : sets (meaning_of tb) k = match lookup k tb with Some (IsSet s) => Some s | _ => None end) by reflexivity.
  assert (E5 : objects (meaning_of tb) k = match lookup k tb with Some (IsObject o) => Some o | _ => None end) by reflexivity.
  assert (E6 : generics (meaning_of tb) k = match lookup k tb with Some IsGeneric => true | _ => false end) by reflexivity.
  rewrite E1, E2, E3, E4, E5, E6. clear E1 E2 E3 E4 E5 E6.
  destruct (lookup k tb) as [e|]; [|repeat (split; [intros x; discriminate|]); discriminate].
  specialize (Hu e eq_refl).
  destruct e as [z|z|T|s|o|]; cbn [entry_means] in Hu;
    (split; [try (intros x; discriminate)|split; [try (intros x; discriminate)|split; [try (intros x; discriminate)|split; [try (intros x; discriminate)|split; try discriminate]]]]).
  - intros x [= <-]. destruct Hu as (cs & lb & ub & ext & i & text & H1 & H2 & H3). eauto 10.
  - intros x [= <-]. destruct Hu as (cs & lb & ub & ext & i & text & H1 & H2 & H3). eauto 10.
  - intros x [= <-]. exact Hu.
  - intros x [= <-]. exact Hu.
  - intros x [= <-]. exact Hu.
  - intros x [= <-]. exact Hu.
  - intros _. exact Hu.
Qed.
End Modules.

Lemma same_eqb s : forall s', same s s' = String.eqb s s'.
Proof. reflexivity. Qed.
Lemma has_mem s l : has s l = mem s l.
Proof. unfold mem. induction l as [|x r IH]; [reflexivity|]. cbn [has existsb]. now rewrite same_eqb, IH. Qed.
Lemma different_ok l : different l = true -> NoDup l.
Proof.
  intros H. apply ObjectFacts.nodupb_ok. revert H. induction l as [|x r IH]; [reflexivity|]. cbn. rewrite has_mem. destruct (mem x r); [discriminate|]. exact IH.
Qed.
Lemma forallb_same {A} (f g : A -> bool) l : (forall x, f x = g x) -> forallb f l = forallb g l.
Proof. intros H. induction l as [|x r IH]; [reflexivity|]. cbn. now rewrite H, IH. Qed.
Lemma definition_edges_ok m : definition_edges m = definition_needs m.
Proof.
  unfold definition_edges, definition_needs, definitions_graph, graph_of. cbn [g_edges]. apply flat_map_ext. intros kd. f_equal. apply filter_ext. intros r.
  rewrite has_mem. reflexivity.
Qed.
Lemma module_edges_ok modules : module_edges modules = module_needs modules.
Proof. reflexivity. Qed.
Lemma schema_fine_ok modules orders n : schema_fine modules orders = true ->
  let M := meaning_of (find_meaning modules n orders) in
  well_named modules /\ imports_defined modules /\ (forall a m, In (a, m) modules -> module_means M modules n m) /\ not_recursive M modules.
Proof.
  intros H M. unfold schema_fine in H. rewrite !andb_true_iff in H. destruct H as [[[[[H1 H2] H3] H4] H5] H6].
  rewrite module_edges_ok in H5.
  assert (Hw : well_named modules).
  { split; [now apply different_ok|]. split; [now apply different_ok|]. rewrite forallb_forall in H3. apply Forall_forall. intros nm Hnm. specialize (H3 _ Hnm).
    rewrite forallb_forall in H3. apply Forall_forall. intros k Hk. specialize (H3 _ Hk). unfold plain_name in H3. apply andb_true_iff in H3. destruct H3 as [H3 H3'].
    split; [|now destruct (parse_i128 k)]. rewrite forallb_forall in H3. apply Forall_forall. intros c Hc. specialize (H3 _ Hc). apply andb_true_iff in H3. now rewrite !negb_true_iff in H3. }
  split; [exact Hw|]. split; [|split].
  - apply ObjectFacts.imports_definedb_ok. unfold ObjectFacts.imports_definedb. erewrite forallb_same; [exact H4|]. intros nm. apply forallb_same. intros i.
    destruct (lookup (snd i) modules); [|reflexivity]. symmetry. apply has_mem.
  - intros a m Hm. apply (meaning_right modules n Hw orders a m Hm).
  - intros a m k Hm Hk _. split; [apply (ObjectFacts.grounded_by_rank _ _ _ H5)|]. rewrite forallb_forall in H6. specialize (H6 _ Hm). rewrite definition_edges_ok in H6. apply (ObjectFacts.grounded_by_rank _ _ _ H6).
Qed.
