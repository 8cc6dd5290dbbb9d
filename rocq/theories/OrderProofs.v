(* The resolved definitions do not depend on the order of resolution. *)
From Coq Require Import ZArith NArith List Bool String Ascii Lia Permutation OrderedTypeEx.
Require Import Verif.Base Verif.Asn1Model Verif.GenModel Verif.ResolveModel Verif.ParserModel Verif.ModuleModel Verif.DefinitionModel Verif.CompilerSpec
  Verif.ConstraintProofs Verif.GenProofs Verif.TopoProofs Verif.ObjectProofs Verif.ResolveProofs Verif.ModuleProofs Verif.RustCompileProofs Verif.OrderSpec.
Import ListNotations.
Open Scope Z_scope.

(* ------------------------------------------------------------------ *)
(* More known values                                                   *)
(* ------------------------------------------------------------------ *)
Ltac rok := repeat match goal with
  | H : ?m = Ok _ |- context [rbind ?m _] => rewrite H; cbn [rbind]
  end.
Lemma rfold_mono {A B} (f g : B -> A -> res B) l : (forall x acc y, In x l -> f acc x = Ok y -> g acc x = Ok y) ->
  forall acc y, rfold f acc l = Ok y -> rfold g acc l = Ok y.
Proof.
  induction l as [|x l IH]; intros H acc y; cbn [rfold]; [easy|]. intros Hf. rsteps.
  rewrite (H x acc x0) by (now left || assumption). cbn [rbind]. apply IH; [|exact Hf]. intros z a b Hz. apply H. now right.
Qed.
Lemma rmap_mono {A B} (f g : A -> res B) l : (forall x y, In x l -> f x = Ok y -> g x = Ok y) ->
  forall y, rmap f l = Ok y -> rmap g l = Ok y.
Proof.
  induction l as [|x l IH]; intros H y; [easy|]. rewrite !rmap_cons. intros Hf. rsteps.
  rewrite (H x x0) by (now left || assumption). cbn [rbind]. rewrite (IH (fun z a Hz => H z a (or_intror Hz)) x1) by assumption. reflexivity.
Qed.
Section Known.
Context (E : env) (K K' : string -> option Z) (HK : forall s z, K s = Some z -> K' s = Some z).
Lemma number_mono s z : parse_or_resolve_value K s = Ok z -> parse_or_resolve_value K' s = Ok z.
Proof.
  unfold parse_or_resolve_value. destruct (parse_i128 s); [easy|]. destruct (K s) eqn:H; [|easy]. apply HK in H. now rewrite H.
Qed.
Definition Me (e : elements) : Prop := forall v, elements_values E K e = Ok v -> elements_values E K' e = Ok v.
Definition Ms (s : element_set) : Prop := forall v, set_values E K s = Ok v -> set_values E K' s = Ok v.
Definition Mc (c : constraint) : Prop := forall v, constraint_values E K c = Ok v -> constraint_values E K' c = Ok v.
Definition Mt (t : asn_type) : Prop := forall v, type_values E K t = Ok v -> type_values E K' t = Ok v.
Lemma union_mono u : Forall (Forall Me) u -> forall acc v,
  rfold (fun acc i => v <-- intersection E K i ;; Ok (cv_append acc v)) acc u = Ok v ->
  rfold (fun acc i => v <-- intersection E K' i ;; Ok (cv_append acc v)) acc u = Ok v.
Proof.
  intros HF. apply rfold_mono. intros i acc y Hi H. rewrite Forall_forall in HF. specialize (HF i Hi). rewrite Forall_forall in HF. rsteps.
  match goal with H : intersection E K i = Ok ?x |- _ => assert (H' : intersection E K' i = Ok x) end.
  { unfold intersection in *. revert H0. apply rfold_mono. intros e a b He Ha. rsteps. rewrite (HF e He x0) by assumption. reflexivity. }
  rewrite H'. reflexivity.
Qed.
Lemma set_mono_step root add : Forall (Forall Me) root -> (forall a, add = Some a -> Forall (Forall Me) a) -> Ms (mkSet root add).
Proof.
  intros HF HA v. rewrite !set_values_eq. intros H. apply rbind_inv in H. destruct H as (r & Hr & H).
  rewrite (union_mono root HF _ _ Hr). cbn [rbind]. destruct add as [a|]; [|exact H]. apply rbind_inv in H. destruct H as (s & Hs & H).
  rewrite (union_mono a (HA a eq_refl) _ _ Hs). exact H.
Qed.
Lemma type_mono_step k cs : (forall l, cs = Some l -> Forall Mc l) -> Mt (mkType k cs).
Proof.
  intros H v. destruct k as [[]| | | | | |]; try easy. destruct cs as [[|c r]|]; try easy. specialize (H _ eq_refl). inversion_clear H as [|? ? Hc _].
  exact (Hc v).
Qed.
Lemma mono_steps : (forall e, Me e) /\ (forall s, Ms s) /\ (forall t, Mt t).
Proof.
  assert (He : forall e, Me e).
  { apply (elements_ind' Me Ms Mc Mt).
    - intros v w H. cbn [elements_values] in *. rsteps. rewrite (number_mono _ _ H0). reflexivity.
    - intros t Ht w H. change (rbind (type_values E K t) (fun vs => Ok (root_values vs)) = Ok w) in H.
      change (rbind (type_values E K' t) (fun vs => Ok (root_values vs)) = Ok w). rsteps. rewrite (Ht _ H0). reflexivity.
    - intros l li u ui w H. cbn [elements_values] in *. unfold range_values in *. rsteps.
      rewrite (number_mono _ _ H0). cbn [rbind]. rok. rewrite (number_mono _ _ H2). cbn [rbind]. rok. reflexivity.
    - intros s Hs w H. change (rbind (set_values E K s) (fun vs => Ok match additional_values vs with
         | None => root_values vs | Some a => cv_append (root_values vs) a end) = Ok w) in H.
      change (rbind (set_values E K' s) (fun vs => Ok match additional_values vs with
         | None => root_values vs | Some a => cv_append (root_values vs) a end) = Ok w).
      apply rbind_inv in H. destruct H as (x & Hx & H). rewrite (Hs _ Hx). exact H.
    - intros s w H. discriminate H.
    - intros s _ w H. discriminate H.
    - exact set_mono_step.
    - intros s Hs w H. exact (Hs w H).
    - intros t w H. discriminate H.
    - intros w H. discriminate H.
    - exact type_mono_step. }
  assert (Hs : forall s, Ms s).
  { intros [root add]. apply set_mono_step; [|intros a _]; apply Forall_forall; intros i _; apply Forall_forall; intros e _; apply He. }
  split; [exact He|]. split; [exact Hs|]. intros [k cs]. apply type_mono_step. intros l _. apply Forall_forall. intros [s| |] _ w H; [exact (Hs s w H)|discriminate H..].
Qed.
Lemma size_mono c v : size_values E K c = Ok v -> size_values E K' c = Ok v.
Proof.
  unfold size_values. destruct c as [[[|i [|]] a]| |]; try easy. destruct i as [|[] i]; try easy. apply mono_steps.
Qed.
Lemma integer_mono t v : resolve_integer E K t = Ok v -> resolve_integer E K' t = Ok v.
Proof.
  unfold resolve_integer. destruct t as [k [[|c cs]|]]; try easy. intros H. apply rbind_inv in H. destruct H as (x & Hx & H).
  rewrite (proj2 (proj2 mono_steps) _ _ Hx). exact H.
Qed.
End Known.

(* ------------------------------------------------------------------ *)
(* More resolved definitions                                           *)
(* ------------------------------------------------------------------ *)
Definition sub {A} (l l' : list (string * A)) : Prop := forall k d, lookup k l = Some d -> lookup k l' = Some d.
Section More.
Context (E : env) (defs defs' : list (string * rdef)) (inst inst' : string -> list actual_param -> res rtype).
Context (sets : list string) (instance : string -> list actual_param -> bool).
Context (Hsub : sub defs defs').
Context (Hinst : forall r ps t, instance r ps = true -> inst r ps = Ok t -> inst' r ps = Ok t).
Context (Hsets : forall r s, lookup r defs' = Some (DObjectSet s) -> In r sets).
Lemma known_mono s z : known defs s = Some z -> known defs' s = Some z.
Proof.
  unfold known. destruct (lookup s defs) as [d|] eqn:H; [|easy]. now rewrite (Hsub _ _ H).
Qed.
Lemma resolve_size_mono strict cs v : resolve_size E defs strict cs = Ok v -> resolve_size E defs' strict cs = Ok v.
Proof.
  unfold resolve_size. destruct cs as [[|c cs]|]; try easy. intros H. apply rbind_inv in H. destruct H as (b & Hb & H). rewrite Hb. cbn [rbind].
  destruct b; [|exact H]. rsteps. rewrite (size_mono _ _ _ known_mono _ _ H0). reflexivity.
Qed.
Lemma resolve_base_mono b cs t : resolve_base E defs b cs = Ok t -> resolve_base E defs' b cs = Ok t.
Proof.
  destruct b; cbn [resolve_base]; intros H; try exact H; rsteps.
  - rewrite (integer_mono _ _ _ known_mono _ _ H0). reflexivity.
  - rewrite (resolve_size_mono _ _ _ H0). reflexivity.
  - rewrite (resolve_size_mono _ _ _ H0). reflexivity.
  - rewrite (resolve_size_mono _ _ _ H0). reflexivity.
Qed.
Lemma class_sequence_mono comps ext t : resolve_class_sequence defs comps ext = Ok t -> resolve_class_sequence defs' comps ext = Ok t.
Proof.
  unfold resolve_class_sequence. destruct comps as [|[i [k [[|c cs]|]]] comps]; try easy. intros H. apply rbind_inv in H. destruct H as (r & Hr & H).
  rewrite Hr. cbn [rbind]. destruct (lookup r defs) as [[]|] eqn:Hl; try easy. now rewrite (Hsub _ _ Hl).
Qed.
Lemma settled_choice root additions cs : settled_type sets instance (mkType (KChoice root additions) cs) = true ->
  Forall (fun c => settled_type sets instance (snd c) = true) root /\
  forall gs, additions = Some gs -> Forall (Forall (fun c => settled_type sets instance (snd c) = true)) gs.
Proof.
  cbn [settled_type]. rewrite andb_true_iff. intros [H1 H2]. split.
  - rewrite forallb_forall in H1. apply Forall_forall. intros [i t] Hx. exact (H1 _ Hx).
  - intros gs ->. rewrite forallb_forall in H2. apply Forall_forall. intros g Hg. specialize (H2 g Hg). rewrite forallb_forall in H2.
    apply Forall_forall. intros [i t] Hx. exact (H2 _ Hx).
Qed.
Lemma settled_sequence root additions ext cs : settled_type sets instance (mkType (KSequence root additions ext) cs) = true ->
  match root with [] => True | c :: _ => settled_first sets c = true end /\
  Forall (fun c => settled_type sets instance (comp_ty c) = true) root.
Proof.
  cbn [settled_type]. rewrite andb_true_iff. intros [H1 H2]. split; [now destruct root|].
  rewrite forallb_forall in H2. apply Forall_forall. intros [i t o d] Hx. exact (H2 _ Hx).
Qed.
Definition Mtype (t : asn_type) : Prop := forall r, settled_type sets instance t = true ->
  resolve_type E defs inst t = Ok r -> resolve_type E defs' inst' t = Ok r.
Lemma choice_components_mono l : Forall (fun c => Mtype (snd c)) l -> Forall (fun c => settled_type sets instance (snd c) = true) l ->
  forall y, rmap (choice_component E defs inst) l = Ok y -> rmap (choice_component E defs' inst') l = Ok y.
Proof.
  intros H1 H2. apply rmap_mono. intros [i t] y Hin H. rewrite Forall_forall in H1, H2. unfold choice_component in *. rsteps.
  pose proof (H1 _ Hin _ (H2 _ Hin) H0) as H'. cbn [snd] in H'. rewrite H'. reflexivity.
Qed.
Lemma choice_mono root additions cs : Forall (fun c => Mtype (snd c)) root -> (forall gs, additions = Some gs -> Forall (Forall (fun c => Mtype (snd c))) gs) ->
  Mtype (mkType (KChoice root additions) cs).
Proof.
  intros H1 H2 r Hs. apply settled_choice in Hs. destruct Hs as [S1 S2]. rewrite !resolve_choice. intros H. apply rbind_inv in H. destruct H as (l & Hl & H).
  rewrite (choice_components_mono _ H1 S1 _ Hl). cbn [rbind]. destruct additions as [gs|]; [|exact H]. specialize (H2 _ eq_refl). specialize (S2 _ eq_refl).
  apply rbind_inv in H. destruct H as (a & Ha & H). rsteps.
  match goal with H : rmap (rmap _) gs = Ok ?x |- _ => assert (H' : rmap (rmap (choice_component E defs' inst')) gs = Ok x); [revert H|] end.
  { apply rmap_mono. intros g y Hg. rewrite Forall_forall in H2, S2. apply choice_components_mono; auto. }
  rewrite H'. reflexivity.
Qed.
Lemma sequence_mono root additions ext cs : Forall (fun c => Mtype (comp_ty c)) root -> Mtype (mkType (KSequence root additions ext) cs).
Proof.
  intros H1 r Hs. apply settled_sequence in Hs. destruct Hs as [S1 S2]. rewrite !resolve_sequence.
  destruct (rmap (sequence_component E defs inst) root) as [l| | |] eqn:Hr; try easy.
  - intros H. assert (H' : rmap (sequence_component E defs' inst') root = Ok l).
    { revert Hr. apply rmap_mono. intros [i t o d] y Hin Hy. rewrite Forall_forall in H1, S2. unfold sequence_component in *. rsteps.
      pose proof (H1 _ Hin _ (S2 _ Hin) H0) as H'. cbn [comp_ty] in H'. rewrite H'. reflexivity. }
    rewrite H'. exact H.
  - intros H. destruct root as [|c root]; [discriminate Hr|].
    assert (Hc : exists i k f cs' o d, c = mkSeqComp i (mkType (KReference (RefClassField k f)) cs') o d).
    { unfold resolve_class_sequence in H. cbn [app map] in H. destruct c as [i [kd cs'] o d]. cbn [comp_id comp_ty] in H.
      destruct cs' as [[|x cs']|]; try easy. apply rbind_inv in H. destruct H as (y & Hy & H).
      destruct (lookup y defs) as [[]|] eqn:Hl; try easy. apply Hsub, Hsets in Hl. 
      destruct kd as [b|[r'|k f|r' ps]|a b|a b e|a b| |]; cbn [settled_first] in S1; rewrite ?Hy in S1; try (apply negb_true_iff in S1;
        apply mem_in in Hl; congruence). now exists i, k, f, (Some (x :: cs')), o, d. }
    destruct Hc as (i & k & f & cs' & o & d & ->). rewrite rmap_cons. cbn [sequence_component resolve_type rbind].
    now apply class_sequence_mono.
Qed.
Lemma type_mono : forall t, Mtype t.
Proof.
  fix IH 1. intros [[b|[r|c f|r ps]|root additions|root additions ext|size t| |] cs].
  - intros r _. apply resolve_base_mono.
  - intros t _. cbn [resolve_type]. destruct (lookup r defs) as [d|] eqn:Hl; [|easy]. now rewrite (Hsub _ _ Hl).
  - intros t _ H. discriminate H.
  - intros t Hs. cbn [settled_type resolve_type] in *. now apply Hinst.
  - apply choice_mono.
    + induction root as [|[i t] root IHr]; constructor; [apply IH|exact IHr].
    + destruct additions as [gs|]; [|discriminate]. assert (HA : Forall (Forall (fun c => Mtype (snd c))) gs).
      { induction gs as [|g gs IHg]; constructor; [|exact IHg]. clear IHg gs. induction g as [|[i t] g IHr]; constructor; [apply IH|exact IHr]. }
      intros gs' Hgs. injection Hgs as <-. exact HA.
  - apply sequence_mono. induction root as [|[i t o d] root IHr]; constructor; [apply IH|exact IHr].
  - intros r Hs H. cbn [settled_type] in Hs. cbn [resolve_type] in *. apply rbind_inv in H. destruct H as (x & Hx & H). rewrite (IH t x Hs Hx). cbn [rbind].
    destruct size as [c|]; [|exact H]. apply rbind_inv in H. destruct H as (sz & Hsz & H). apply rbind_inv in Hsz. destruct Hsz as (vs & Hvs & Hsz).
    rewrite (size_mono _ _ _ known_mono _ _ Hvs). cbn [rbind]. injection Hsz as <-. exact H.
  - intros r _ H. discriminate H.
  - intros r _ H. discriminate H.
Qed.
End More.

(* ------------------------------------------------------------------ *)
(* Values                                                              *)
(* ------------------------------------------------------------------ *)
Lemma value_mono defs defs' fuel value : sub defs defs' -> forall rt v, (lookup value defs = None -> lookup value defs' = None) ->
  resolve_value defs fuel value rt = Ok v -> resolve_value defs' fuel value rt = Ok v.
Proof.
  intros Hsub. induction fuel as [|f IH]; intros rt v Hn; cbn [resolve_value]; destruct (lookup value defs) as [d|] eqn:Hl;
    try (rewrite (Hsub _ _ Hl); easy); rewrite (Hn eq_refl); destruct rt; try easy.
  - destruct (lookup r defs) as [d|] eqn:Hr; [|easy]. now rewrite (Hsub _ _ Hr).
  - destruct (lookup r defs) as [d|] eqn:Hr; [|easy]. rewrite (Hsub _ _ Hr). destruct d; try easy. intros H. apply rbind_inv in H.
    destruct H as (w & Hw & H). rewrite (IH _ _ (fun _ => Hn eq_refl) Hw). exact H.
Qed.
Inductive ends_enumerated (defs : list (string * rdef)) : rtype -> Prop :=
| EE_here e l : ends_enumerated defs (REnumerated e l)
| EE_ref r t : lookup r defs = Some (DType t) -> ends_enumerated defs t -> ends_enumerated defs (RReference r).
Lemma value_none defs fuel value : lookup value defs = None -> forall rt v, resolve_value defs fuel value rt = Ok v ->
  parse_i128 value <> None \/ ends_enumerated defs rt.
Proof.
  intros Hn. induction fuel as [|f IH]; intros rt v; cbn [resolve_value]; rewrite Hn; destruct rt; try easy.
  - destruct (parse_i128 value); [now left|easy].
  - right. constructor.
  - destruct (lookup r defs) as [[]|]; easy.
  - destruct (parse_i128 value); [now left|easy].
  - right. constructor.
  - destruct (lookup r defs) as [[]|] eqn:Hl; try easy. intros H. apply rbind_inv in H. destruct H as (w & Hw & _).
    destruct (IH _ _ Hw) as [H|H]; [now left|]. right. econstructor; eassumption.
Qed.
Lemma resolved_shape E defs inst t rt : resolve_type E defs inst t = Ok rt ->
  (exists r ps cs, t = mkType (KReference (RefParam r ps)) cs) \/
  match rt with
  | REnumerated _ _ => exists root ext more cs, t = mkType (KBuiltin (BEnumerated root ext more)) cs
  | RReference r => exists cs, t = mkType (KReference (RefName r)) cs
  | _ => True
  end.
Proof.
  destruct t as [[b|[r|c f|r ps]|root additions|root additions ext|size t| |] cs]; try discriminate.
  - cbn [resolve_type]. intros H. right. destruct b; cbn [resolve_base] in H; rsteps; try easy. 
    unfold resolve_enumerated in H. rsteps. repeat eexists.
  - cbn [resolve_type]. destruct (lookup r defs) as [[]|]; try easy. intros H. injection H as <-. right. eauto.
  - intros _. left. eauto.
  - rewrite resolve_choice. intros H. right. rsteps. exact I.
  - rewrite resolve_sequence. destruct (rmap (sequence_component E defs inst) root) as [l| | |]; try easy.
    + intros H. injection H as <-. now right.
    + unfold resolve_class_sequence. destruct (map _ _) as [|[i [k [[|c cs']|]]] l]; try easy. intros H. apply rbind_inv in H. destruct H as (r & _ & H).
      destruct (lookup r defs) as [[]|]; try easy. rsteps. now right.
  - cbn [resolve_type]. intros H. rsteps. now right.
Qed.

(* ------------------------------------------------------------------ *)
(* Definitions                                                         *)
(* ------------------------------------------------------------------ *)
Section Definitions.
Context (E : env) (depth fuel : nat) (modules : list (string * module)).
Context (Hnamed : well_named modules) (Hitems : items_apart modules) (Hsettled : settled depth modules).
Notation inst := (instantiate E depth).

(* everything that has been resolved comes from the modules *)
Record from (st : resolver) : Prop := {
  from_defs : forall k r, lookup k (resolved_defs st) = Some r -> exists a m kd st', In (a, m) modules /\ In (k, mkDef kd None) (m_defs m) /\
    resolve_definition E inst fuel st' kd = Ok r;
  from_params : forall k d, lookup k (parameterized_defs st) = Some d -> exists a m, In (a, m) modules /\ In (k, d) (m_defs m) /\ d_params d <> None;
  from_classes : forall k f, lookup k (classes st) = Some f -> exists a m p, In (a, m) modules /\ In (k, mkDef (DKClass f) p) (m_defs m) }.
Definition within (st st' : resolver) : Prop :=
  sub (resolved_defs st) (resolved_defs st') /\ sub (parameterized_defs st) (parameterized_defs st') /\ sub (classes st) (classes st').

Lemma from_name st k r : from st -> lookup k (resolved_defs st) = Some r -> is_name modules k /\ parse_i128 k = None.
Proof.
  intros Hf Hl. destruct (from_defs st Hf k r Hl) as (a & m & kd & st' & Hm & Hk & _). now destruct (name_of modules Hnamed a m k _ Hm Hk) as (_ & H1 & H2).
Qed.
Lemma from_set st r s : from st -> lookup r (resolved_defs st) = Some (DObjectSet s) -> In r (set_names modules).
Proof.
  intros Hf Hl. destruct (from_defs st Hf _ _ Hl) as (a & m & kd & st' & Hm & Hk & Hr). apply in_flat_map. exists (a, m). split; [exact Hm|].
  apply in_flat_map. exists (r, mkDef kd None). split; [exact Hk|]. cbn [d_kind snd fst].
  destruct kd; cbn [resolve_definition] in Hr; rsteps; try discriminate; now left.
Qed.
Lemma generic_lookup st r d : from st -> lookup r (parameterized_defs st) = Some d -> lookup r (generic_definitions modules) = Some d.
Proof.
  intros Hf Hl. destruct (from_params st Hf _ _ Hl) as (a & m & Hm & Hd & Hp).
  assert (Hin : In (r, d) (generic_definitions modules)).
  { apply in_flat_map. exists (a, m). split; [exact Hm|]. apply filter_In. split; [exact Hd|]. cbn [snd]. now destruct (d_params d). }
  destruct (lookup r (generic_definitions modules)) as [d'|] eqn:Hl'.
  - apply lookup_in in Hl'. apply in_flat_map in Hl'. destruct Hl' as ([a' m'] & Hm' & Hd'). apply filter_In in Hd'. destruct Hd' as [Hd' _].
    now destruct (def_unique modules Hnamed a m a' m' r d d' Hm Hm' Hd Hd') as [_ ->].
  - apply lookup_none in Hl'. destruct Hl'. apply in_map_iff. now exists (r, d).
Qed.
Lemma instance_mono st J : within st J -> from J -> forall n r ps t, settled_instance modules n r ps = true ->
  instantiate E n st r ps = Ok t -> instantiate E n J r ps = Ok t.
Proof.
  intros (H1 & H2 & H3) HJ. induction n as [|n IH]; intros r ps t; cbn [settled_instance instantiate]; [easy|]. intros Hs.
  destruct (lookup r (parameterized_defs st)) as [d|] eqn:Hl; [|easy]. apply H2 in Hl. rewrite Hl. rewrite (generic_lookup _ _ _ HJ Hl) in Hs.
  intros H. apply rbind_inv in H. destruct H as (x & Hx & H). rewrite Hx in *. cbn [rbind].
  revert H. apply (type_mono E _ _ _ _ (set_names modules) (settled_instance modules n)); try assumption. intros r' s. now apply from_set.
Qed.
Lemma type_kind st kd t : resolve_definition E inst fuel st kd = Ok (DType t) -> exists t0, kd = DKType t0 /\ resolve_type E (resolved_defs st) (inst st) t0 = Ok t.
Proof.
  destruct kd; cbn [resolve_definition]; intros H; try discriminate; try (rsteps; discriminate).
  - apply rbind_inv in H. destruct H as (x & Hx & H). injection H as ->. eauto.
  - destruct (lookup class (classes st)); [|easy]. rsteps. discriminate.
Qed.
Lemma ends_may st : from st -> forall rt, ends_enumerated (resolved_defs st) rt -> forall t st',
  resolve_type E (resolved_defs st') (inst st') t = Ok rt -> may_be_enumerated modules t.
Proof.
  intros Hf. induction 1 as [e l|r t0 Hl He IH]; intros t st' Ht; destruct (resolved_shape _ _ _ _ _ Ht) as [(p & ps & cs & ->)|H]; try constructor.
  - destruct H as (root & ext & more & cs & ->). constructor.
  - destruct H as (cs & ->). destruct (from_defs st Hf _ _ Hl) as (a & m & kd & st2 & Hm & Hk & Hr). apply type_kind in Hr. destruct Hr as (t1 & -> & Hr).
    econstructor; [exact Hm|exact Hk|]. eapply IH, Hr.
Qed.

Context (st J : resolver) (Hst : from st) (HJ : from J) (Hw : within st J).
Notation stl := (settled_type (set_names modules) (settled_instance modules depth)).
Lemma type_mono_in t r : stl t = true -> resolve_type E (resolved_defs st) (inst st) t = Ok r -> resolve_type E (resolved_defs J) (inst J) t = Ok r.
Proof.
  apply type_mono; [apply Hw|now apply instance_mono|intros; now apply (from_set J _ s)].
Qed.
(* a text that may stand for a value of the type t *)
Definition text_fine (t : asn_type) (s : string) : Prop := may_be_enumerated modules t -> ~ is_name modules s.
Lemma value_mono_in t s rt v : text_fine t s -> resolve_type E (resolved_defs st) (inst st) t = Ok rt ->
  resolve_value (resolved_defs st) fuel s rt = Ok v -> resolve_value (resolved_defs J) fuel s rt = Ok v.
Proof.
  intros Hs Ht Hv. eapply value_mono; [apply Hw| |exact Hv]. intros Hn. destruct (lookup s (resolved_defs J)) as [d|] eqn:Hl; [|reflexivity].
  destruct (from_name J s d HJ Hl) as [H1 H2]. destruct (value_none _ _ _ Hn _ _ Hv) as [H|H]; [congruence|].
  destruct (Hs (ends_may st Hst _ H _ _ Ht) H1).
Qed.
Lemma object_mono v o : settled_object (set_names modules) (settled_instance modules depth) v = true -> (forall t s, In (t, s) (object_texts v) -> text_fine t s) ->
  resolve_object E (resolved_defs st) (inst st) fuel v = Ok o -> resolve_object E (resolved_defs J) (inst J) fuel v = Ok o.
Proof.
  destruct v as [fields|]; [|easy]. cbn [settled_object object_texts resolve_object]. intros Hs Ht. rewrite forallb_forall in Hs. apply rmap_mono.
  intros [k f] y Hin. specialize (Hs _ Hin). cbn [snd] in Hs. destruct f as [[t|]|t [s|]].
  - intros H. rsteps. rewrite (type_mono_in _ _ Hs H0). reflexivity.
  - easy.
  - intros H. rsteps. rewrite (type_mono_in _ _ Hs H0). cbn [rbind]. rewrite (value_mono_in t s x x0); [reflexivity| |assumption|assumption].
    apply Ht, in_flat_map. exists (k, OFValue t (Some s)). split; [exact Hin|now left].
  - intros H. rsteps. rewrite (type_mono_in _ _ Hs H0). reflexivity.
Qed.
Lemma table_mono unique o table t : table_add (resolved_defs st) unique o table = Ok t -> table_add (resolved_defs J) unique o table = Ok t.
Proof.
  unfold table_add. destruct unique as [u|]; [|easy]. destruct (lookup u o) as [[|ty [[s| | |]|]]|]; try easy.
  destruct (lookup s (resolved_defs st)) as [d|] eqn:Hl; [|easy]. now rewrite (proj1 Hw _ _ Hl).
Qed.
Lemma object_set_mono unique elems s :
  forallb (fun e => match e with OObject v => settled_object (set_names modules) (settled_instance modules depth) v | _ => true end) elems = true ->
  (forall t s, In (t, s) (flat_map (fun e => match e with OObject v => object_texts v | _ => [] end) elems) -> text_fine t s) ->
  resolve_object_set E (resolved_defs st) (inst st) fuel unique elems = Ok s -> resolve_object_set E (resolved_defs J) (inst J) fuel unique elems = Ok s.
Proof.
  intros Hs Ht. rewrite forallb_forall in Hs. unfold resolve_object_set. apply rfold_mono. intros e acc y Hin. specialize (Hs _ Hin). destruct e as [r|r|v].
  - destruct (lookup r (resolved_defs st)) as [d|] eqn:Hl; [|easy]. now rewrite (proj1 Hw _ _ Hl).
  - destruct (lookup r (resolved_defs st)) as [d|] eqn:Hl; [|easy]. rewrite (proj1 Hw _ _ Hl). destruct d; try easy. intros H. rsteps.
    rewrite (table_mono _ _ _ _ H0). reflexivity.
  - intros H. rsteps. rewrite (object_mono v x Hs); [|intros t s' H'; apply Ht, in_flat_map; now exists (OObject v)|assumption].
    cbn [rbind]. rewrite (table_mono _ _ _ _ H1). reflexivity.
Qed.
Lemma definition_mono a m k d r : In (a, m) modules -> In (k, d) (m_defs m) -> d_params d = None ->
  resolve_definition E inst fuel st (d_kind d) = Ok r -> resolve_definition E inst fuel J (d_kind d) = Ok r.
Proof.
  intros Hm Hk Hp. pose proof (Hsettled a m k d Hm Hk Hp) as Hs. assert (Ht : forall t s, In (t, s) (value_texts (d_kind d)) -> text_fine t s).
  { intros t s Hin. exact (Hitems a m k d t s Hm Hk Hin). }
  destruct (d_kind d) as [t s|t|f|c v|c root additional]; cbn [settled_assignment value_texts resolve_definition] in *; intros H.
  - rsteps. rewrite (type_mono_in _ _ Hs H0). cbn [rbind]. rewrite (value_mono_in t s x x0); [reflexivity| |assumption|assumption]. apply Ht. now left.
  - rsteps. rewrite (type_mono_in _ _ Hs H0). reflexivity.
  - discriminate H.
  - rsteps. rewrite (object_mono _ _ Hs Ht H0). reflexivity.
  - destruct (lookup c (classes st)) as [f|] eqn:Hl; [|easy]. rewrite (proj2 (proj2 Hw) _ _ Hl). rsteps. rewrite (object_set_mono _ _ _ Hs Ht H0). reflexivity.
Qed.
End Definitions.

(* Two states that agree resolve a definition in the same way, if both do. *)
Section Confluence.
Context (E : env) (depth fuel : nat) (modules : list (string * module)).
Context (Hnamed : well_named modules) (Hitems : items_apart modules) (Hsettled : settled depth modules).
Notation inst := (instantiate E depth).
Notation from := (from E depth fuel modules).
Lemma lookup_app {A} k (a b : list (string * A)) : lookup k (a ++ b) = match lookup k a with Some v => Some v | None => lookup k b end.
Proof. induction a as [|[k' v] a IH]; [reflexivity|]. cbn [app lookup]. now destruct (String.eqb k k'). Qed.
Definition agreeing (l l' : list (string * rdef)) : Prop := forall k d d', lookup k l = Some d -> lookup k l' = Some d' -> d = d'.
Theorem confluent st st' a m k d r r' : from st -> from st' -> agreeing (resolved_defs st) (resolved_defs st') ->
  In (a, m) modules -> In (k, d) (m_defs m) -> d_params d = None ->
  resolve_definition E inst fuel st (d_kind d) = Ok r -> resolve_definition E inst fuel st' (d_kind d) = Ok r' -> r = r'.
Proof.
  intros Hf Hf' Hag Hm Hk Hp Hr Hr'.
  set (J := mkResolver (resolved_defs st ++ resolved_defs st') (parameterized_defs st ++ parameterized_defs st') (classes st ++ classes st')).
  assert (HJ : from J).
  { constructor; unfold J; cbn [resolved_defs parameterized_defs classes]; intros x y; rewrite lookup_app.
    - destruct (lookup x (resolved_defs st)) eqn:H; [intros H'; injection H' as <-; now apply (from_defs _ _ _ _ st)|now apply (from_defs _ _ _ _ st')].
    - destruct (lookup x (parameterized_defs st)) eqn:H; [intros H'; injection H' as <-; now apply (from_params _ _ _ _ st Hf)|now apply (from_params _ _ _ _ st' Hf')].
    - destruct (lookup x (classes st)) eqn:H; [intros H'; injection H' as <-; now apply (from_classes _ _ _ _ st Hf)|now apply (from_classes _ _ _ _ st' Hf')]. }
  assert (H1 : within st J).
  { repeat split; intros x y H; unfold J; cbn [resolved_defs parameterized_defs classes]; now rewrite lookup_app, H. }
  assert (H2 : within st' J).
  { repeat split; intros x y H; unfold J; cbn [resolved_defs parameterized_defs classes]; rewrite lookup_app.
    - destruct (lookup x (resolved_defs st)) eqn:H'; [|exact H]. now rewrite (Hag _ _ _ H' H).
    - destruct (lookup x (parameterized_defs st)) eqn:H'; [|exact H]. destruct (from_params _ _ _ _ st Hf _ _ H') as (a1 & m1 & A1 & A2 & _).
      destruct (from_params _ _ _ _ st' Hf' _ _ H) as (a2 & m2 & B1 & B2 & _). now destruct (def_unique modules Hnamed _ _ _ _ _ _ _ A1 B1 A2 B2) as [_ ->].
    - destruct (lookup x (classes st)) eqn:H'; [|exact H]. destruct (from_classes _ _ _ _ st Hf _ _ H') as (a1 & m1 & p1 & A1 & A2).
      destruct (from_classes _ _ _ _ st' Hf' _ _ H) as (a2 & m2 & p2 & B1 & B2). destruct (def_unique modules Hnamed _ _ _ _ _ _ _ A1 B1 A2 B2) as [_ Heq].
      now injection Heq as ->. }
  pose proof (definition_mono E depth fuel modules Hnamed Hitems Hsettled st J Hf HJ H1 _ _ _ _ _ Hm Hk Hp Hr) as R1.
  pose proof (definition_mono E depth fuel modules Hnamed Hitems Hsettled st' J Hf' HJ H2 _ _ _ _ _ Hm Hk Hp Hr') as R2. congruence.
Qed.
End Confluence.

(* ------------------------------------------------------------------ *)
(* Tables in the order of their keys                                   *)
(* ------------------------------------------------------------------ *)
Lemma string_ltb_irrefl a : string_ltb a a = false.
Proof.
  unfold string_ltb. pose proof (String.compare_antisym a a) as H. now destruct (String.compare a a).
Qed.
Lemma string_ltb_total a b : a <> b -> string_ltb a b = false -> string_ltb b a = true.
Proof.
  unfold string_ltb. intros Hne. rewrite (String.compare_antisym b a). destruct (String.compare a b) eqn:H; cbn; try easy.
  apply String.compare_eq_iff in H. congruence.
Qed.
Lemma string_ltb_trans : forall a b c, string_ltb a b = true -> string_ltb b c = true -> string_ltb a c = true.
Proof.
  unfold string_ltb. induction a as [|x a IH]; intros [|y b] [|z c]; cbn [String.compare]; try easy.
  unfold Ascii.compare. destruct (N.compare_spec (N_of_ascii x) (N_of_ascii y)) as [H1|H1|H1]; try easy;
    destruct (N.compare_spec (N_of_ascii y) (N_of_ascii z)) as [H2|H2|H2]; try easy; intros A B.
  - rewrite (proj2 (N.compare_eq_iff _ _)) by congruence. eapply IH; eassumption.
  - rewrite (proj2 (N.compare_lt_iff _ _)) by lia. reflexivity.
  - rewrite (proj2 (N.compare_lt_iff _ _)) by lia. reflexivity.
  - rewrite (proj2 (N.compare_lt_iff _ _)) by lia. reflexivity.
Qed.
Fixpoint ordered {A} (l : list (string * A)) : Prop :=
  match l with [] => True | (k, _) :: r => Forall (fun e => string_ltb k (fst e) = true) r /\ ordered r end.
Lemma binsert_ordered {A} k (v : A) l : ordered l -> ordered (binsert k v l).
Proof.
  induction l as [|[k' v'] l IH]; cbn [binsert ordered]; [now split; [constructor|]|]. intros [H1 H2].
  destruct (String.eqb_spec k k') as [->|Hne]; [now split|]. destruct (string_ltb k k') eqn:Hlt; cbn [ordered].
  - split; [|now split]. constructor; [exact Hlt|]. eapply Forall_impl; [|exact H1]. intros e He. cbn [fst] in *. eapply string_ltb_trans; eassumption.
  - split; [|now apply IH]. apply Forall_forall. intros e He. apply in_binsert in He. destruct He as [->|He].
    + cbn [fst]. now apply string_ltb_total.
    + rewrite Forall_forall in H1. now apply H1.
Qed.
Lemma ordered_head {A} k (v : A) l k' : ordered ((k, v) :: l) -> lookup k' l <> None -> string_ltb k k' = true.
Proof.
  intros [H _] Hl. destruct (lookup k' l) as [w|] eqn:H'; [|easy]. apply lookup_in in H'. rewrite Forall_forall in H. exact (H _ H').
Qed.
Lemma ordered_equal {A} : forall l l' : list (string * A), ordered l -> ordered l' -> (forall k, lookup k l = lookup k l') -> l = l'.
Proof.
  induction l as [|[k v] l IH]; intros [|[k' v'] l'] H H' Hl.
  - reflexivity.
  - specialize (Hl k'). cbn [lookup] in Hl. rewrite String.eqb_refl in Hl. discriminate.
  - specialize (Hl k). cbn [lookup] in Hl. rewrite String.eqb_refl in Hl. discriminate.
  - assert (Heq : k = k').
    { destruct (String.eqb_spec k k') as [|Hne]; [assumption|exfalso].
      pose proof (Hl k) as A1. pose proof (Hl k') as A2. cbn [lookup] in A1, A2. rewrite String.eqb_refl in A1, A2.
      rewrite (proj2 (String.eqb_neq k k') Hne) in A1. rewrite (proj2 (String.eqb_neq k' k)) in A2 by congruence.
      assert (B1 : string_ltb k' k = true) by (eapply ordered_head; [exact H'|rewrite <- A1; discriminate]).
      assert (B2 : string_ltb k k' = true) by (eapply ordered_head; [exact H|rewrite A2; discriminate]).
      pose proof (string_ltb_trans _ _ _ B1 B2) as B. rewrite string_ltb_irrefl in B. discriminate. }
    subst k'. assert (Hv : v = v'). { specialize (Hl k). cbn [lookup] in Hl. rewrite String.eqb_refl in Hl. congruence. } subst v'.
    f_equal. apply IH; [apply H|apply H'|]. intros x. specialize (Hl x). cbn [lookup] in Hl. destruct (String.eqb_spec x k) as [Hx|Hne]; [subst x|exact Hl].
    assert (N : forall l0, ordered ((k, v) :: l0) -> lookup k l0 = None).
    { intros l0 H0. destruct (lookup k l0) eqn:Hk; [|reflexivity]. assert (B : string_ltb k k = true) by (eapply ordered_head; [exact H0|rewrite Hk; discriminate]).
      rewrite string_ltb_irrefl in B. discriminate. }
    now rewrite (N l H), (N l' H').
Qed.

(* ------------------------------------------------------------------ *)
(* Runs of the resolver                                                *)
(* ------------------------------------------------------------------ *)
Section Run.
Context (E : env) (depth fuel : nat) (modules : list (string * module)) (Hnamed : well_named modules).
Notation inst := (instantiate E depth).
Context (P : list string -> resolver -> Prop).
Context (Pone : forall a m k d done st st', In (a, m) modules -> In (k, d) (m_defs m) -> ~ In k done -> P done st ->
  resolve_one E inst fuel m st k = Ok st' -> P (k :: done) st').
Context (Pclasses : forall a m done st, In (a, m) modules -> P done st -> P done (add_classes m st)).
Lemma module_run a m : In (a, m) modules -> forall order done st F, NoDup order ->
  (forall k, In k order -> In k (def_names m) -> ~ In k done) -> P done st -> rfold (resolve_one E inst fuel m) st order = Ok F ->
  exists done', P done' F /\ forall k, In k done' <-> In k done \/ (In k order /\ In k (def_names m)).
Proof.
  intros Hm. induction order as [|k order IH]; intros done st F Hnd Hnew HP H; cbn [rfold] in H.
  - injection H as <-. exists done. split; [exact HP|]. cbn. tauto.
  - apply rbind_inv in H. destruct H as (st' & Hs & H). inversion_clear Hnd as [|? ? Hk Hnd'].
    destruct (lookup k (m_defs m)) as [d|] eqn:Hl.
    + assert (Hkd : In (k, d) (m_defs m)) by now apply lookup_in. assert (Hkn : In k (def_names m)) by (apply in_map_iff; now exists (k, d)).
      destruct (IH (k :: done) st' F) as (done' & H1 & H2); try assumption.
      * intros x Hx Hxm [->|Hxd]; [contradiction|]. apply (Hnew x); [now right|exact Hxm|exact Hxd].
      * apply (Pone a m k d done st st' Hm Hkd); try assumption. apply Hnew; [now left|exact Hkn].
      * exists done'. split; [exact H1|]. intros x. rewrite H2. cbn [In]. split; [|intuition congruence].
        intros [[<-|Hx]|[Hx Hy]]; tauto.
    + unfold resolve_one in Hs. rewrite Hl in Hs. injection Hs as <-. apply lookup_none in Hl.
      destruct (IH done st F) as (done' & H1 & H2); try assumption.
      * intros x Hx. apply Hnew. now right.
      * exists done'. split; [exact H1|]. intros x. rewrite H2. cbn [In]. split; [tauto|]. intros [Hx|[[<-|Hx] Hy]]; [tauto|contradiction|tauto].
Qed.
Context (modules' : list (string * module)) (Hsame : forall a m, lookup a modules' = Some m -> In (a, m) modules).
Lemma orders_run : forall orders done st F, NoDup (map fst orders) -> Forall (fun o => NoDup (snd o)) orders ->
  (forall a o m k, In (a, o) orders -> lookup a modules' = Some m -> In k (def_names m) -> ~ In k done) -> P done st ->
  rfold (fun st no => match lookup (fst no) modules' with None => Panic | Some m => resolve_module E inst fuel m (snd no) st end) st orders = Ok F ->
  exists done', P done' F /\ forall k, In k done' <-> In k done \/ exists a o m, In (a, o) orders /\ lookup a modules' = Some m /\ In k o /\ In k (def_names m).
Proof.
  induction orders as [|[a o] orders IH]; intros done st F Hnd Ho Hnew HP H; cbn [rfold] in H.
  - injection H as <-. exists done. split; [exact HP|]. intros k. split; [tauto|]. intros [H|(a & o & m & [] & _)]. exact H.
  - apply rbind_inv in H. destruct H as (st' & Hs & H). cbn [fst snd] in Hs. destruct (lookup a modules') as [m|] eqn:Hl; [|discriminate].
    inversion_clear Hnd as [|? ? Ha Hnd']. inversion_clear Ho as [|? ? Ho1 Ho2]. cbn [snd] in Ho1.
    destruct (module_run a m (Hsame _ _ Hl) o done (add_classes m st) st') as (done1 & A1 & A2); try assumption.
    { intros k _ Hk. apply (Hnew a o m k); [now left|exact Hl|exact Hk]. }
    { eapply Pclasses; [apply (Hsame _ _ Hl)|exact HP]. }
    destruct (IH done1 st' F) as (done2 & B1 & B2); try assumption.
    { intros a' o' m' k Hin Hl' Hk Hd. apply A2 in Hd. destruct Hd as [Hd|[_ Hd]].
      - apply (Hnew a' o' m' k); try assumption. now right.
      - pose proof (nodup_flat (fun nm : string * module => def_names (snd nm)) modules (a, m) (a', m') k (proj1 (proj2 Hnamed)) (Hsame _ _ Hl) (Hsame _ _ Hl') Hd Hk) as Heq.
        injection Heq as <- _. apply Ha. apply in_map_iff. now exists (a, o'). }
    exists done2. split; [exact B1|]. intros k. rewrite B2, A2. split.
    + intros [[H'|[H1 H2]]|(a' & o' & m' & H1 & H2 & H3)]; [now left| |].
      * right. exists a, o, m. repeat split; try assumption. now left.
      * right. exists a', o', m'. split; [now right|]. now split.
    + intros [H'|(a' & o' & m' & [H1|H1] & H2 & H3 & H4)]; [tauto| |].
      * injection H1 as <- <-. left. right. split; [exact H3|]. congruence.
      * right. exists a', o', m'. repeat split; assumption.
Qed.
End Run.

Section Invariant.
Context (E : env) (depth fuel : nat) (modules : list (string * module)).
Context (Hnamed : well_named modules) (Hitems : items_apart modules) (Hsettled : settled depth modules).
Notation inst := (instantiate E depth).
Notation from := (from E depth fuel modules).
(* a definition of its own, and not a class *)
Definition own (k : string) (d : definition) : Prop :=
  d_params d = None /\ (forall f, d_kind d <> DKClass f) /\ exists a m, In (a, m) modules /\ In (k, d) (m_defs m).
Record Reached (done : list string) (st : resolver) : Prop := {
  re_from : from st;
  re_ordered : ordered (resolved_defs st);
  re_done : forall k r, lookup k (resolved_defs st) = Some r -> In k done;
  re_all : forall k d, In k done -> own k d -> exists r, lookup k (resolved_defs st) = Some r;
  re_how : forall k r, lookup k (resolved_defs st) = Some r -> exists d st', own k d /\ from st' /\ sub (resolved_defs st') (resolved_defs st) /\
    resolve_definition E inst fuel st' (d_kind d) = Ok r }.
Lemma reached_start : Reached [] new_resolver.
Proof. constructor; easy. Qed.
Lemma own_unique k d d' : own k d -> own k d' -> d = d'.
Proof.
  intros (_ & _ & a & m & H1 & H2) (_ & _ & a' & m' & H1' & H2'). now destruct (def_unique modules Hnamed _ _ _ _ _ _ _ H1 H1' H2 H2').
Qed.
Lemma reached_same done k st st' : resolved_defs st' = resolved_defs st -> (forall d, ~ own k d) -> from st' -> Reached done st -> Reached (k :: done) st'.
Proof.
  intros He Hk Hf [R1 R2 R3 R4 R5]. constructor; rewrite ?He; try assumption.
  - intros x r H. right. eapply R3, H.
  - intros x d [<-|Hx] Ho; [now destruct (Hk d)|]. now apply (R4 x d).
Qed.
Lemma reached_one a m k d done st st' : In (a, m) modules -> In (k, d) (m_defs m) -> ~ In k done -> Reached done st ->
  resolve_one E inst fuel m st k = Ok st' -> Reached (k :: done) st' /\
  (resolved_defs st' = resolved_defs st \/ own k d /\ exists r, resolved_defs st' = binsert k r (resolved_defs st) /\ resolve_definition E inst fuel st (d_kind d) = Ok r).
Proof.
  intros Hm Hk Hnew HR H. pose proof HR as [R1 R2 R3 R4 R5]. unfold resolve_one in H.
  assert (Hlk : lookup k (m_defs m) = Some d).
  { apply lookup_nodup; [|exact Hk]. apply (nodup_flat_part (fun nm : string * module => def_names (snd nm)) modules (a, m) (proj1 (proj2 Hnamed)) Hm). }
  rewrite Hlk in H. destruct (d_params d) as [p|] eqn:Hp.
  { injection H as <-. split; [|now left]. apply (reached_same done k st); [reflexivity| | |exact HR].
    - intros d' (D1 & _ & a' & m' & D2 & D3). destruct (def_unique modules Hnamed _ _ _ _ _ _ _ Hm D2 Hk D3) as [_ <-]. congruence.
    - destruct R1 as [F1 F2 F3]. constructor; cbn [resolved_defs parameterized_defs classes]; try assumption. intros x e. rewrite lookup_replace.
      destruct (String.eqb_spec x k) as [->|Hne]; [|apply F2]. intros He. injection He as <-. exists a, m. repeat split; try assumption. congruence. }
  assert (Hclass : (exists f, d_kind d = DKClass f) \/ forall f, d_kind d <> DKClass f) by (destruct (d_kind d); (right; discriminate) || (left; eauto)).
  destruct Hclass as [(f & Hf)|Hf].
  { rewrite Hf in H. injection H as <-. split; [|now left]. apply (reached_same done k st); [reflexivity| | |exact HR].
    - intros d' (_ & D1 & a' & m' & D2 & D3). destruct (def_unique modules Hnamed _ _ _ _ _ _ _ Hm D2 Hk D3) as [_ <-]. now apply (D1 f).
    - destruct R1 as [F1 F2 F3]. constructor; cbn [resolved_defs parameterized_defs classes]; try assumption. intros x e. rewrite lookup_replace.
      destruct (String.eqb_spec x k) as [->|Hne]; [|apply F3]. intros He. injection He as <-. exists a, m, None. split; [exact Hm|].
      destruct d as [kd pd]. cbn in Hp, Hf. now subst. }
  assert (Hown : own k d) by (repeat split; [exact Hp|exact Hf|now exists a, m]).
  assert (exists r, resolve_definition E inst fuel st (d_kind d) = Ok r /\ st' = mkResolver (binsert k r (resolved_defs st)) (parameterized_defs st) (classes st)) as (r & Hr & ->).
  { destruct (d_kind d); try (apply rbind_inv in H; destruct H as (r & Hr & H); injection H as <-; now exists r). now destruct (Hf fields). }
  assert (Hfresh : lookup k (resolved_defs st) = None).
  { destruct (lookup k (resolved_defs st)) eqn:Hx; [|reflexivity]. apply R3 in Hx. contradiction. }
  assert (Hsub : sub (resolved_defs st) (binsert k r (resolved_defs st))).
  { intros x e Hx. rewrite lookup_binsert. destruct (String.eqb_spec x k) as [->|_]; [congruence|exact Hx]. }
  split; [|right; split; [exact Hown|exists r; split; [reflexivity|exact Hr]]]. constructor; cbn [resolved_defs parameterized_defs classes].
  - destruct R1 as [F1 F2 F3]. constructor; cbn [resolved_defs parameterized_defs classes]; try assumption. intros x e. rewrite lookup_binsert.
    destruct (String.eqb_spec x k) as [->|Hne]; [|apply F1]. intros He. injection He as <-. exists a, m, (d_kind d), st. repeat split; try assumption.
    destruct d as [kd pd]. cbn in Hp. now subst.
  - now apply binsert_ordered.
  - intros x e. rewrite lookup_binsert. destruct (String.eqb_spec x k) as [->|Hne]; [now left|]. intros Hx. right. eapply R3, Hx.
  - intros x e [<-|Hx] Ho; rewrite lookup_binsert; [rewrite String.eqb_refl; eauto|]. destruct (String.eqb x k); [eauto|]. now apply (R4 x e).
  - intros x e. rewrite lookup_binsert. destruct (String.eqb_spec x k) as [->|Hne].
    + intros He. injection He as <-. exists d, st. split; [exact Hown|]. split; [exact R1|]. split; [exact Hsub|exact Hr].
    + intros Hx. destruct (R5 x e Hx) as (d' & s' & A1 & A2 & A3 & A4). exists d', s'. split; [exact A1|]. split; [exact A2|]. split; [|exact A4].
      intros y w Hy. apply Hsub, A3, Hy.
Qed.
Lemma from_add_classes a m st : In (a, m) modules -> from st -> from (add_classes m st).
Proof.
  intros Hm [F1 F2 F3]. constructor; try assumption. unfold add_classes. cbn [classes].
  assert (G : forall l cs, incl l (m_defs m) -> (forall k f, lookup k cs = Some f -> exists a m p, In (a, m) modules /\ In (k, mkDef (DKClass f) p) (m_defs m)) ->
    forall k f, lookup k (fold_left (fun cs kd => match d_kind (snd kd) with DKClass f => replace (fst kd) f cs | _ => cs end) l cs) = Some f ->
    exists a m p, In (a, m) modules /\ In (k, mkDef (DKClass f) p) (m_defs m)).
  { induction l as [|[x d] l IH]; intros cs Hi Hcs; [exact Hcs|]. cbn [fold_left fst snd]. apply IH; [intros y Hy; apply Hi; now right|].
    destruct (d_kind d) eqn:Hd; try exact Hcs. intros k f. rewrite lookup_replace. destruct (String.eqb_spec k x) as [->|Hne]; [|apply Hcs].
    intros Hf. injection Hf as <-. exists a, m, (d_params d). split; [exact Hm|]. rewrite <- Hd. apply Hi. left. now destruct d. }
  apply G; [apply incl_refl|exact F3].
Qed.
Lemma reached_classes a m done st : In (a, m) modules -> Reached done st -> Reached done (add_classes m st).
Proof. intros Hm [R1 R2 R3 R4 R5]. constructor; try assumption. now apply (from_add_classes a). Qed.

(* The names that a run goes through *)
Definition covered (orders : list (string * list string)) (k : string) : Prop :=
  exists a o m, In (a, o) orders /\ lookup a modules = Some m /\ In k o /\ In k (def_names m).
Theorem run_reaches modules' orders F : (forall a, lookup a modules' = lookup a modules) -> NoDup (map fst orders) -> Forall (fun o => NoDup (snd o)) orders ->
  resolve_in_order E inst fuel modules' orders = Ok F -> exists done, Reached done F /\ forall k, In k done <-> covered orders k.
Proof.
  intros Hs Hnd Ho H. destruct (orders_run E depth fuel modules Hnamed Reached) with (modules' := modules') (orders := orders) (done := @nil string) (st := new_resolver) (F := F)
    as (done & H1 & H2); try assumption.
  - intros a m k d done st st' A1 A2 A3 A4 A5. exact (proj1 (reached_one a m k d done st st' A1 A2 A3 A4 A5)).
  - exact reached_classes.
  - intros a m Hl. rewrite Hs in Hl. now apply lookup_in.
  - intros a o m k _ _ _ [].
  - apply reached_start.
  - exists done. split; [exact H1|]. intros k. rewrite H2. unfold covered. cbn [In]. split.
    + intros [[]|(a & o & m & A & B & C)]. rewrite Hs in B. now exists a, o, m.
    + intros (a & o & m & A & B & C). right. exists a, o, m. now rewrite Hs.
Qed.
(* The second run agrees with the first *)
Theorem run_agrees modules' orders F done1 F1 : (forall a, lookup a modules' = lookup a modules) -> NoDup (map fst orders) -> Forall (fun o => NoDup (snd o)) orders ->
  Reached done1 F1 -> resolve_in_order E inst fuel modules' orders = Ok F -> agreeing (resolved_defs F) (resolved_defs F1).
Proof.
  intros Hs Hnd Ho HF1 H.
  destruct (orders_run E depth fuel modules Hnamed (fun done st => Reached done st /\ agreeing (resolved_defs st) (resolved_defs F1)))
    with (modules' := modules') (orders := orders) (done := @nil string) (st := new_resolver) (F := F) as (done & [H1 H2] & _); try assumption.
  - intros a m k d done st st' A1 A2 A3 [A4 A5] A6. destruct (reached_one a m k d done st st' A1 A2 A3 A4 A6) as [B1 B2]. split; [exact B1|].
    destruct B2 as [->|(Hown & r & -> & Hr)]; [exact A5|]. intros x e e'. rewrite lookup_binsert. destruct (String.eqb_spec x k) as [->|Hne]; [|apply A5].
    intros He He'. injection He as <-. destruct (re_how _ _ HF1 _ _ He') as (d' & s' & C1 & C2 & C3 & C4).
    rewrite (own_unique k d' d C1 Hown) in C4.
    eapply (confluent E depth fuel modules Hnamed Hitems Hsettled st s' a m k d); try eassumption; [apply A4| |apply Hown].
    intros y w w' Hy Hy'. eapply A5; [exact Hy|apply C3, Hy'].
  - intros a m done st A1 [A2 A3]. split; [now apply (reached_classes a)|exact A3].
  - intros a m Hl. rewrite Hs in Hl. now apply lookup_in.
  - intros a o m k _ _ _ [].
  - split; [apply reached_start|]. intros x e e' Hx. discriminate Hx.
Qed.
Theorem runs_equal modules' orders orders' F F' : (forall a, lookup a modules' = lookup a modules) ->
  NoDup (map fst orders) -> Forall (fun o => NoDup (snd o)) orders -> NoDup (map fst orders') -> Forall (fun o => NoDup (snd o)) orders' ->
  (forall k, covered orders k <-> covered orders' k) ->
  resolve_in_order E inst fuel modules orders = Ok F -> resolve_in_order E inst fuel modules' orders' = Ok F' -> resolved_defs F = resolved_defs F'.
Proof.
  intros Hs N1 N2 N3 N4 Hc H H'. destruct (run_reaches modules orders F (fun _ => eq_refl) N1 N2 H) as (done & R & D).
  destruct (run_reaches modules' orders' F' Hs N3 N4 H') as (done' & R' & D').
  pose proof (run_agrees modules' orders' F' done F Hs N3 N4 R H') as Hag.
  apply ordered_equal; [apply R|apply R'|]. intros k. destruct (lookup k (resolved_defs F)) as [r|] eqn:Hk.
  - destruct (re_how _ _ R _ _ Hk) as (d & _ & Hown & _). pose proof (re_done _ _ R _ _ Hk) as Hd. apply D, Hc, D' in Hd.
    destruct (re_all _ _ R' k d Hd Hown) as (r' & Hr'). rewrite Hr'. f_equal. symmetry. eapply Hag; eassumption.
  - destruct (lookup k (resolved_defs F')) as [r|] eqn:Hk'; [|reflexivity]. exfalso.
    destruct (re_how _ _ R' _ _ Hk') as (d & _ & Hown & _). pose proof (re_done _ _ R' _ _ Hk') as Hd. apply D', Hc, D in Hd.
    destruct (re_all _ _ R k d Hd Hown) as (r' & Hr'). congruence.
Qed.
End Invariant.

(* ------------------------------------------------------------------ *)
(* The compiler                                                        *)
(* ------------------------------------------------------------------ *)
Lemma lookup_permutation {A} (l l' : list (string * A)) k : NoDup (map fst l) -> Permutation l l' -> lookup k l' = lookup k l.
Proof.
  intros Hnd Hp. destruct (lookup k l) as [v|] eqn:H.
  - apply lookup_nodup; [eapply Permutation_NoDup; [apply Permutation_map, Hp|exact Hnd]|]. eapply Permutation_in; [exact Hp|]. now apply lookup_in.
  - apply lookup_none. apply lookup_none in H. intros Hin. apply H. eapply Permutation_in; [symmetry; apply Permutation_map, Hp|exact Hin].
Qed.
Lemma sorted_same modules modules' o o' : Permutation modules modules' -> sorted_modules modules o -> sorted_modules modules' o' -> forall a, In a o -> In a o'.
Proof.
  intros Hp H H' a. unfold sorted_modules, modules_graph in *. rewrite (sort_exactly _ _ _ a H), (sort_exactly _ _ _ a H').
  set (f := fun nm : string * module => map (fun i : string * string => (snd i, fst nm)) (m_imports (snd nm))).
  assert (He : forall e, In e (flat_map f modules) -> In e (flat_map f modules')).
  { intros e Hin. apply in_flat_map in Hin. destruct Hin as (x & Hx & Hin). apply in_flat_map. exists x. split; [now apply (Permutation_in _ Hp)|exact Hin]. }
  assert (He' : forall e, In e (flat_map f modules') -> In e (flat_map f modules)).
  { intros e Hin. apply in_flat_map in Hin. destruct Hin as (x & Hx & Hin). apply in_flat_map. exists x. split; [now apply (Permutation_in _ (Permutation_sym Hp))|exact Hin]. }
  intros [Hn Ha]. split.
  - apply graph_nodes in Hn. apply graph_nodes. destruct Hn as [Hn|[Hn|Hn]].
    + left. eapply Permutation_in; [apply Permutation_map, Hp|exact Hn].
    + right. left. apply in_map_iff in Hn. destruct Hn as (e & <- & Hin). apply in_map, He, Hin.
    + right. right. apply in_map_iff in Hn. destruct Hn as (e & <- & Hin). apply in_map, He, Hin.
  - eapply acc_iff; [|exact Ha]. intros x y. split; [apply He|apply He'].
Qed.
Lemma definitions_same m o o' k : sorted_definitions m o -> sorted_definitions m o' -> In k o -> In k o'.
Proof.
  unfold sorted_definitions, definitions_graph. intros H H'. now rewrite (sort_exactly _ _ _ k H), (sort_exactly _ _ _ k H').
Qed.
Lemma covered_same modules modules' o o' : (forall a, lookup a modules' = lookup a modules) -> Permutation modules modules' ->
  valid_orders modules o -> valid_orders modules' o' -> forall k, covered modules o k -> covered modules o' k.
Proof.
  intros Hl Hp [V1 V2] [V1' V2'] k (a & l & m & H1 & H2 & H3 & H4).
  assert (Ha : In a (map fst o')). { eapply sorted_same; [exact Hp|exact V1|exact V1'|]. apply in_map_iff. now exists (a, l). }
  apply in_map_iff in Ha. destruct Ha as ([a' l'] & Heq & Hin). cbn in Heq. subst a'. exists a, l', m. repeat split; try assumption.
  rewrite Forall_forall in V2, V2'. eapply definitions_same; [exact (V2 _ H1 m H2)| |exact H3]. apply (V2' _ Hin m). cbn. now rewrite Hl.
Qed.
Lemma valid_nodup E depth fuel modules o F : valid_orders modules o -> resolve_in_order E (instantiate E depth) fuel modules o = Ok F ->
  NoDup (map fst o) /\ Forall (fun o => NoDup (snd o)) o.
Proof.
  intros [V1 V2] H. split; [eapply sort_nodup, V1|]. 
  assert (G : forall l st F, rfold (fun st no => match lookup (fst no) modules with None => Panic | Some m => resolve_module E (instantiate E depth) fuel m (snd no) st end) st l = Ok F ->
    forall x, In x l -> exists m, lookup (fst x) modules = Some m).
  { induction l as [|y l IH]; intros st F0 HF x [].
    - subst y. cbn [rfold] in HF. destruct (lookup (fst x) modules); [eauto|discriminate].
    - cbn [rfold] in HF. apply rbind_inv in HF. destruct HF as (s & _ & HF). eapply IH; eassumption. }
  rewrite Forall_forall in *. intros x Hx. destruct (G _ _ _ H x Hx) as (m & Hm). eapply sort_nodup, (V2 x Hx m Hm).
Qed.
Theorem compile_deterministic E depth fuel modules modules' o o' p p' :
  well_named modules -> items_apart modules -> settled depth modules -> Permutation modules modules' ->
  valid_orders modules o -> valid_orders modules' o' ->
  compile E (instantiate E depth) fuel modules o = Ok p -> compile E (instantiate E depth) fuel modules' o' = Ok p' -> p = p'.
Proof.
  intros Hn Hi Hs Hp V V' H H'. unfold compile, resolve_modules in *.
  apply rbind_inv in H. destruct H as (F & HF & H). apply rbind_inv in HF. destruct HF as (_ & _ & HF).
  apply rbind_inv in H'. destruct H' as (F' & HF' & H'). apply rbind_inv in HF'. destruct HF' as (_ & _ & HF').
  assert (Hl : forall a, lookup a modules' = lookup a modules) by (intros a; apply lookup_permutation; [apply Hn|exact Hp]).
  destruct (valid_nodup E depth fuel _ _ _ V HF) as [N1 N2]. destruct (valid_nodup E depth fuel _ _ _ V' HF') as [N3 N4].
  assert (Heq : resolved_defs F = resolved_defs F').
  { eapply (runs_equal E depth fuel modules Hn Hi Hs modules' o o'); try eassumption. intros k. split.
    - now apply (covered_same modules modules').
    - intros Hk. assert (Hk' : covered modules' o' k). { destruct Hk as (a & l & m & A & B & C). exists a, l, m. rewrite Hl. now split. }
      apply (covered_same modules' modules o' o) in Hk'; try assumption; [|intros a; now rewrite Hl|now symmetry].
      destruct Hk' as (a & l & m & A & B & C). exists a, l, m. rewrite <- Hl. now split. }
  unfold resolved_types in *. rewrite Heq in H. congruence.
Qed.
