(* Resolution of modules, and the whole compiler. *)
From Coq Require Import ZArith NArith List Bool String Ascii Permutation Lia.
From Coq Require Import ZifyBool ZifyNat ZifyN.
Require Import Verif.Base Verif.DeriveModel Verif.DeriveSpec Verif.Asn1Model Verif.GenModel Verif.ResolveModel
  Verif.ModuleModel Verif.CompilerSpec Verif.ConstraintProofs Verif.GenProofs Verif.NameProofs Verif.TopoProofs
  Verif.DefinitionModel Verif.OpenProofs Verif.ObjectProofs Verif.ResolveProofs.
Require Verif.ParserSpec Verif.ParamSpec Verif.GrammarProofs Verif.ParamProofs.
Import ListNotations.
Open Scope Z_scope.

(* ------------------------------------------------------------------ *)
(* The generator accepts every type with a meaning                     *)
(* ------------------------------------------------------------------ *)
Section GenerateTotal.
Context (E : env) (defs : list (string * rtype)).
Definition Total {A} (m : G A) : Prop := forall s, exists a s', m s = Ok (a, s').
Lemma Total_ret {A} (a : A) : Total (gret a).
Proof. intros s. now exists a, s. Qed.
Lemma Total_bind {A B} (m : G A) (f : A -> G B) : Total m -> (forall a, Total (f a)) -> Total (gbind m f).
Proof. intros Hm Hf s. destruct (Hm s) as (a & s1 & H1). destruct (Hf a s1) as (b & s2 & H2). exists b, s2. unfold gbind. now rewrite H1. Qed.
Lemma Total_lift {A} (r : res A) a : r = Ok a -> Total (glift r).
Proof. intros -> s. now exists a, s. Qed.
Lemma Total_unique n : Total (get_unique_name n).
Proof. intros s. unfold get_unique_name. eauto. Qed.
Lemma Total_push i : Total (push_aux i).
Proof. intros s. unfold push_aux. eauto. Qed.
Lemma Total_maybe gen t input : (forall n, Total (gen n)) -> Total (name_maybe_aux gen t input).
Proof.
  intros H. unfold name_maybe_aux.
  destruct t; cbn [aux_base_name]; try apply Total_ret;
    try (apply Total_bind; [apply Total_unique|intros ?; apply Total_bind; [apply H|intros ?; apply Total_bind; [apply Total_push|intros ?; apply Total_ret]]]);
    try (apply Total_bind; [destruct input; [apply Total_ret|apply Total_unique]|intros ?; apply Total_bind; [apply H|intros ?; apply Total_bind; [apply Total_push|intros ?; apply Total_ret]]]).
  apply Total_bind; [apply H|intros ?; apply Total_bind; [apply Total_push|intros ?; apply Total_ret]].
Qed.
Lemma size_total sz u : max_is E sz u -> exists a, size_attributes E sz = Ok a.
Proof. unfold max_is, size_attributes. destruct sz; [intros ->; cbn; eauto|eauto]. Qed.
Lemma Total_size sz u f : max_is E sz u -> Total (gsize E sz f).
Proof.
  intros H. destruct (size_total sz u H) as (a & Ha). apply Total_bind; [eapply Total_lift, Ha|intros; apply Total_ret].
Qed.
Lemma len_ok {A} (l : list A) : l <> [] -> zlen l < 2 ^ 64 -> arith_usize E (zlen l - 1) = Ok (zlen l - 1).
Proof. intros Hl Hb. apply arith_usize_ok. destruct l; [easy|]. unfold zlen in *. cbn [List.length] in *. lia. Qed.

Theorem generate_for_type_total t T : type_means E defs t T -> forall name, Total (generate_for_type E t name).
Proof.
  apply (type_means_mut E defs (fun t _ => forall name, Total (generate_for_type E t name))
    (fun x i l _ => forall name, Total (choice_tokens E name x i l))
    (fun a _ => forall name, Total (match a with Some l => choice_tokens E name true 0 l | None => gret [] end))
    (fun i l _ => forall name, Total (seq_tokens E name i l))
    (fun l _ => Total (set_tokens E l))); clear t T.
  - intros i u _ Hu name. cbn [generate_for_type]. unfold generate_integer, max_is in *. destruct (int_constraints i).
    + rewrite Hu. cbn [rbind]. eapply Total_lift. reflexivity.
    + eapply Total_lift. reflexivity.
  - intros ext l Hl Hb name. cbn [generate_for_type]. unfold generate_enumerated. rewrite len_ok by assumption. eapply Total_lift. reflexivity.
  - intros sz u Hu name. eapply Total_size, Hu.
  - intros name. apply Total_ret.
  - intros name. apply Total_ret.
  - intros sz u Hu name. eapply Total_size, Hu.
  - intros st sz u _ Hu name. cbn [generate_for_type]. eapply Total_size, Hu.
  - intros name. apply Total_ret.
  - intros root additions roots adds al Hl Hb _ IHr _ IHa _ name. rewrite generate_choice.
    apply Total_bind; [apply IHr|intros ?]. apply Total_bind; [apply IHa|intros ?].
    apply Total_bind; [|intros; apply Total_ret]. rewrite len_ok by assumption. eapply Total_lift. reflexivity.
  - intros ext comps fs _ IH name. rewrite generate_seq. apply Total_bind; [apply IH|intros; apply Total_ret].
  - intros t T sz u _ IH Hu name. cbn [generate_for_type]. destruct (size_total sz u Hu) as (a & Ha).
    apply Total_bind; [eapply Total_lift, Ha|intros ?]. apply Total_bind; [now apply Total_maybe|intros; apply Total_ret].
  - intros r t T _ _ _ name. apply Total_ret.
  - intros setref types al _ IH name. rewrite generate_set. apply Total_bind; [exact IH|intros; apply Total_ret].
  - intros x i name. apply Total_ret.
  - intros x i id t T r al _ IH _ IHr name. rewrite choice_tokens_cons.
    apply Total_bind; [now apply Total_maybe|intros ?]. apply Total_bind; [apply IHr|intros; apply Total_ret].
  - intros name. apply Total_ret.
  - intros l al _ IH name. apply IH.
  - intros i name. apply Total_ret.
  - intros i id t T key r l _ IH _ IHr name. rewrite seq_tokens_cons.
    apply Total_bind; [now apply Total_maybe|intros ?]. apply Total_bind; [apply IHr|intros; apply Total_ret].
  - intros i id t T key r l _ IH _ IHr name. rewrite seq_tokens_cons.
    apply Total_bind; [now apply Total_maybe|intros ?]. apply Total_bind; [apply IHr|intros; apply Total_ret].
  - apply Total_ret.
  - intros nm key t T r al _ IH _ IHr. rewrite set_tokens_cons.
    apply Total_bind; [now apply Total_maybe|intros ?]. apply Total_bind; [apply IHr|intros; apply Total_ret].
Qed.
End GenerateTotal.
Theorem generate_total E defs : (forall k t, In (k, t) defs -> exists T, type_means E defs t T) -> exists prog, generate E defs = Ok prog.
Proof.
  intros H. assert (Ht : forall l, incl l defs -> Total (generate_items E l)).
  { induction l as [|[k t] l IH]; intros Hi; cbn [generate_items]; [apply Total_ret|].
    destruct (H k t) as (T & HT); [apply Hi; now left|].
    apply Total_bind; [eapply generate_for_type_total, HT|intros ?].
    apply Total_bind; [apply IH; intros x Hx; apply Hi; now right|intros; apply Total_ret]. }
  destruct (Ht defs (incl_refl _) new_generator) as (items & s' & Hg). unfold generate. rewrite Hg. cbn. eauto.
Qed.

(* ------------------------------------------------------------------ *)
(* The table of resolved definitions                                   *)
(* ------------------------------------------------------------------ *)
Lemma lookup_binsert {A} k (v : A) l k' :
  lookup k' (binsert k v l) = if String.eqb k' k then Some v else lookup k' l.
Proof.
  induction l as [|[a b] l IH]; cbn [binsert lookup].
  - reflexivity.
  - destruct (String.eqb k a) eqn:Hka.
    + apply String.eqb_eq in Hka. subst a. cbn [lookup]. now destruct (String.eqb k' k).
    + destruct (string_ltb k a); cbn [lookup].
      * reflexivity.
      * rewrite IH. destruct (String.eqb k' a) eqn:Ha; [|reflexivity]. apply String.eqb_eq in Ha. subst a.
        rewrite String.eqb_sym in Hka. now rewrite Hka.
Qed.
Lemma in_binsert {A} k (v : A) l x : In x (binsert k v l) -> x = (k, v) \/ In x l.
Proof.
  induction l as [|[a b] l IH]; cbn [binsert].
  - intros [<-|[]]. now left.
  - destruct (String.eqb k a); [|destruct (string_ltb k a)].
    + intros [<-|H]; [now left|right; now right].
    + intros [<-|H]; [now left|now right].
    + intros [<-|H]; [right; now left|]. destruct (IH H) as [->|H']; [now left|right; now right].
Qed.
Lemma binsert_in {A} k (v : A) l x : (forall v', ~ In (k, v') l) -> In x l -> In x (binsert k v l).
Proof.
  induction l as [|[a b] l IH]; [easy|]. intros Hf Hin. cbn [binsert]. destruct (String.eqb k a) eqn:He.
  - apply String.eqb_eq in He. subst a. exfalso. apply (Hf b). now left.
  - destruct (string_ltb k a); [now right|]. destruct Hin as [<-|Hin]; [now left|]. right. apply IH; [|exact Hin].
    intros v' H. apply (Hf v'). now right.
Qed.

Lemma type_means_incl E D D' t T : incl D D' -> type_means E D t T -> type_means E D' t T.
Proof.
  intros Hi. apply (type_means_mut E D (type_means E D') (alternatives_mean E D') (additions_mean E D') (components_mean E D') (open_mean E D'));
    try (intros; now constructor).
  - intros. econstructor; eassumption.
  - intros. econstructor; [apply Hi; eassumption|assumption].
Qed.
Lemma types_of_incl a b : incl a b -> incl (types_of a) (types_of b).
Proof.
  intros H x Hx. apply in_flat_map in Hx. destruct Hx as (y & Hy & Hx). apply in_flat_map. exists y. split; [now apply H|exact Hx].
Qed.
Lemma types_of_spec defs k t : In (k, t) (types_of defs) <-> In (k, DType t) defs.
Proof.
  split; [|apply types_of_in]. intros H. apply in_flat_map in H. destruct H as ([k' d] & Hin & H). cbn in H.
  destruct d; try easy. destruct H as [H|[]]. injection H as -> ->. exact Hin.
Qed.
Lemma lookup_nodup {A} k (v : A) l : NoDup (map fst l) -> In (k, v) l -> lookup k l = Some v.
Proof.
  induction l as [|[a b] l IH]; [easy|]. cbn [map fst]. intros Hnd [H|H].
  - injection H as -> ->. cbn. now rewrite String.eqb_refl.
  - inversion_clear Hnd. cbn. destruct (String.eqb k a) eqn:He; [|now apply IH].
    apply String.eqb_eq in He. subst a. destruct H0. apply in_map_iff. now exists (k, v).
Qed.
Lemma lookup_none {A} k (l : list (string * A)) : lookup k l = None <-> ~ In k (map fst l).
Proof.
  induction l as [|[a b] l IH]; [easy|]. cbn. destruct (String.eqb k a) eqn:He.
  - apply String.eqb_eq in He. subst. split; [discriminate|]. intros H. destruct H. now left.
  - rewrite IH. apply String.eqb_neq in He. split; [intros H [->|H']; tauto|tauto].
Qed.

(* ------------------------------------------------------------------ *)
(* Resolution never yields a bare open type                            *)
(* ------------------------------------------------------------------ *)
Lemma resolve_type_not_set E defs inst t rt : (forall r ps t, inst r ps = Ok t -> not_set t) ->
  resolve_type E defs inst t = Ok rt -> not_set rt.
Proof.
  intros Hinst H. assert (Hseq : forall cs ext, resolve_class_sequence defs cs ext = Ok rt -> not_set rt).
  { intros cs ext Hc. unfold resolve_class_sequence in Hc. destruct cs as [|[id [k c]] l]; try discriminate.
    destruct c as [[|c cs]|]; try discriminate. destruct (set_reference c) as [s| | |]; try discriminate. cbn [rbind] in Hc.
    destruct (lookup s defs) as [[]|]; try discriminate. destruct (class_components _ _ _); try discriminate.
    injection Hc as <-. easy. }
  destruct t as [k cs]. destruct k as [b|r|root adds|root adds ext|size t| |]; cbn [resolve_type] in H; try discriminate.
  - destruct b; cbn [resolve_base] in H;
      try (injection H as <-; easy); try discriminate;
      try (destruct (resolve_size E defs _ cs); try discriminate; injection H as <-; easy).
    + destruct (resolve_integer E (known defs) _); try discriminate. injection H as <-. easy.
    + unfold resolve_enumerated in H. destruct (enum_numbers root); try discriminate. cbn [rbind] in H.
      destruct (enum_numbers ext); try discriminate. injection H as <-. easy.
  - destruct r as [r| |r ps]; try discriminate.
    + destruct (lookup r defs) as [[]|]; try discriminate. injection H as <-. easy.
    + eapply Hinst, H.
  - destruct (rmap _ root); try discriminate. cbn [rbind] in H.
    destruct adds as [gs|]; [|injection H as <-; easy].
    destruct (rmap _ gs); try discriminate. injection H as <-. easy.
  - destruct (rmap _ root); try discriminate.
    + injection H as <-. easy.
    + eapply Hseq, H.
  - destruct (resolve_type E defs inst t); try discriminate. cbn [rbind] in H.
    destruct size as [c|]; [|injection H as <-; easy]. destruct (size_values E (known defs) c); try discriminate. injection H as <-. easy.
Qed.

Lemma instantiate_not_set E depth st r ps t : instantiate E depth st r ps = Ok t -> not_set t.
Proof.
  revert r ps t. induction depth as [|n IH]; intros r ps t H; cbn [instantiate] in H; [discriminate|].
  destruct (lookup r (parameterized_defs st)) as [d|]; [|discriminate]. destruct (apply_params d ps); try discriminate.
  eapply resolve_type_not_set; [|exact H]. exact IH.
Qed.
(* a reference is to a type that is there *)
Definition bound_reference (defs : list (string * rdef)) (t : rtype) : Prop :=
  forall r, t = RReference r -> exists t', lookup r defs = Some (DType t').
Lemma resolve_type_bound E defs inst t rt : (forall r ps t, inst r ps = Ok t -> bound_reference defs t) ->
  resolve_type E defs inst t = Ok rt -> bound_reference defs rt.
Proof.
  intros Hinst H. assert (Hseq : forall cs ext, resolve_class_sequence defs cs ext = Ok rt -> bound_reference defs rt).
  { intros cs ext Hc. unfold resolve_class_sequence in Hc. destruct cs as [|[id [k c]] l]; try discriminate.
    destruct c as [[|c cs]|]; try discriminate. destruct (set_reference c) as [s| | |]; try discriminate. cbn [rbind] in Hc.
    destruct (lookup s defs) as [[]|]; try discriminate. destruct (class_components _ _ _); try discriminate.
    injection Hc as <-. intros r; discriminate. }
  destruct t as [k cs]. destruct k as [b|r|root adds|root adds ext|size t| |]; cbn [resolve_type] in H; try discriminate.
  - destruct b; cbn [resolve_base] in H;
      try (injection H as <-; intros r; discriminate); try discriminate;
      try (destruct (resolve_size E defs _ cs); try discriminate; injection H as <-; intros r; discriminate).
    + destruct (resolve_integer E (known defs) _); try discriminate. injection H as <-. intros r; discriminate.
    + unfold resolve_enumerated in H. destruct (enum_numbers root); try discriminate. cbn [rbind] in H.
      destruct (enum_numbers ext); try discriminate. injection H as <-. intros r; discriminate.
  - destruct r as [r| |r ps]; try discriminate.
    + destruct (lookup r defs) as [[]|] eqn:Hl; try discriminate. injection H as <-. intros r' Heq. injection Heq as <-. eauto.
    + eapply Hinst, H.
  - destruct (rmap _ root); try discriminate. cbn [rbind] in H.
    destruct adds as [gs|]; [|injection H as <-; intros r; discriminate].
    destruct (rmap _ gs); try discriminate. injection H as <-. intros r; discriminate.
  - destruct (rmap _ root); try discriminate.
    + injection H as <-. intros r; discriminate.
    + eapply Hseq, H.
  - destruct (resolve_type E defs inst t); try discriminate. cbn [rbind] in H.
    destruct size as [c|]; [|injection H as <-; intros r; discriminate]. destruct (size_values E (known defs) c); try discriminate. injection H as <-. intros r; discriminate.
Qed.
Lemma instantiate_bound E depth st r ps t : instantiate E depth st r ps = Ok t -> bound_reference (resolved_defs st) t.
Proof.
  revert r ps t. induction depth as [|n IH]; intros r ps t H; cbn [instantiate] in H; [discriminate|].
  destruct (lookup r (parameterized_defs st)) as [d|]; [|discriminate]. destruct (apply_params d ps); try discriminate.
  eapply resolve_type_bound; [|exact H]. exact IH.
Qed.

(* ------------------------------------------------------------------ *)
(* Values of referenced types                                          *)
(* ------------------------------------------------------------------ *)
(* references to references, at most n of them *)
Inductive chain (defs : list (string * rdef)) : nat -> rtype -> Prop :=
| chain_other n t : (forall r, t <> RReference r) -> chain defs n t
| chain_ref n r t : lookup r defs = Some (DType t) -> chain defs n t -> chain defs (S n) (RReference r).
Lemma chain_le defs n n' t : (n <= n')%nat -> chain defs n t -> chain defs n' t.
Proof.
  intros H Hc. revert n' H. induction Hc as [n t Ht|n r t Hl _ IH]; intros n' H; [now constructor|].
  destruct n' as [|n']; [lia|]. econstructor; [exact Hl|apply IH; lia].
Qed.
Lemma chain_more defs defs' n t : (forall k d, lookup k defs = Some d -> lookup k defs' = Some d) -> chain defs n t -> chain defs' n t.
Proof. intros H. induction 1 as [n t Ht|n r t Hl _ IH]; [now constructor|]. econstructor; [apply H; exact Hl|exact IH]. Qed.
Section Values.
Context (E : env) (defs : list (string * rdef)) (Hnd : NoDup (map fst defs)).
Lemma type_lookup k t : In (k, t) (types_of defs) -> lookup k defs = Some (DType t).
Proof. intros H. apply lookup_nodup; [exact Hnd|]. now apply types_of_spec. Qed.
(* a number is found under every reference *)
Lemma value_int text z : lookup text defs = None -> parse_i128 text = Some z -> forall fuel rt lb ub ext i v,
  type_means E (types_of defs) rt (TInt lb ub ext i) -> resolve_value defs fuel text rt = Ok v -> base_integer_value v = Some z.
Proof.
  intros Hn Hz. induction fuel as [|fuel IH]; intros rt lb ub ext i v Hm H; cbn [resolve_value] in H; rewrite Hn in H;
    inversion Hm; subst; try (rewrite Hz in H; injection H as <-; reflexivity); destruct (lookup r defs) as [[t'| | |]|] eqn:Hl; try discriminate.
  destruct (resolve_value defs fuel text t') as [v'| | |] eqn:Hv; try discriminate. injection H as <-. cbn [base_integer_value].
  eapply IH; [|exact Hv]. assert (Heq : lookup r defs = Some (DType t)) by now apply type_lookup. rewrite Hl in Heq. injection Heq as ->. eassumption.
Qed.
Lemma value_found text T : lookup text defs = None -> literal T text -> forall n rt, chain defs n rt -> forall fuel, (n <= fuel)%nat ->
  type_means E (types_of defs) rt T -> exists v, resolve_value defs fuel text rt = Ok v.
Proof.
  intros Hn Hlit. induction 1 as [n t Ht|n r t Hl _ IH]; intros fuel Hf Hm.
  - destruct T; try contradiction; inversion Hm; subst; try (now destruct (Ht r)).
    + cbn [literal] in Hlit. destruct (parse_i128 text) as [z|] eqn:Hz; [|congruence]. exists (VInteger z). destruct fuel; cbn [resolve_value]; now rewrite Hn, Hz.
    + exists VEnum. destruct fuel; cbn [resolve_value]; now rewrite Hn.
  - destruct fuel as [|fuel]; [lia|]. inversion Hm as [| | | | | | | | | | |? t' ? Hin Hm'|]; subst. apply type_lookup in Hin.
    assert (t' = t) by congruence. subst t'. destruct (IH fuel) as (v & Hv); [lia|exact Hm'|]. exists (VOfType r v). cbn [resolve_value]. rewrite Hn, Hl, Hv. reflexivity.
Qed.
End Values.

(* ------------------------------------------------------------------ *)
(* More definitions                                                    *)
(* ------------------------------------------------------------------ *)
Section More.
Context (E : env) (defs defs' : list (string * rdef)).
Context (Hmore : forall k d, lookup k defs = Some d -> lookup k defs' = Some d) (Hincl : incl (types_of defs) (types_of defs')).
Lemma object_more o ao : object_is E defs o ao -> object_is E defs' o ao.
Proof.
  induction 1 as [|a b o ao Hab _ IH]; constructor; [|exact IH]. destruct Hab as [k|k r T Hm|k t T Hno|k t v T i Hm Hi].
  - constructor.
  - constructor. eapply type_means_incl; eassumption.
  - now constructor.
  - constructor; [eapply type_means_incl; eassumption|]. intros nm z Heq. destruct (Hi nm z Heq) as (-> & v' & H1 & H2). split; [reflexivity|]. eauto.
Qed.
Lemma set_more os s : set_is E defs os s -> set_is E defs' os s.
Proof.
  intros (H1 & pairs & H2 & H3 & H4 & H5). split; [exact H1|]. exists pairs. split; [exact H2|]. split; [exact H3|]. split; [|exact H5].
  eapply Forall_impl; [|exact H4]. intros p. apply object_more.
Qed.
End More.
Lemma lookup_replace {A} k (v : A) l k' : lookup k' (replace k v l) = if String.eqb k' k then Some v else lookup k' l.
Proof.
  induction l as [|[a b] l IH]; cbn [replace lookup]; [reflexivity|].
  destruct (String.eqb k a) eqn:Hka.
  - apply String.eqb_eq in Hka. subst a. cbn [lookup]. now destruct (String.eqb k' k).
  - cbn [lookup]. rewrite IH. destruct (String.eqb k' a) eqn:Ha; [|reflexivity]. apply String.eqb_eq in Ha. subst a.
    rewrite String.eqb_sym in Hka. now rewrite Hka.
Qed.
Lemma binsert_length {A} k (v : A) l : ~ In k (map fst l) -> List.length (binsert k v l) = S (List.length l).
Proof.
  induction l as [|[a b] l IH]; cbn [binsert map fst]; [reflexivity|]. intros H. destruct (String.eqb k a) eqn:He.
  - apply String.eqb_eq in He. subst a. destruct H. now left.
  - destruct (string_ltb k a); [reflexivity|]. cbn [List.length]. rewrite IH; [reflexivity|]. intros Hc. apply H. now right.
Qed.
Lemma binsert_nodup {A} k (v : A) l : NoDup (map fst l) -> ~ In k (map fst l) -> NoDup (map fst (binsert k v l)).
Proof.
  induction l as [|[a b] l IH]; cbn [binsert map fst]; intros Hnd H; [repeat constructor; auto|]. destruct (String.eqb k a) eqn:He.
  - apply String.eqb_eq in He. subst a. destruct H. now left.
  - destruct (string_ltb k a); cbn [map fst]; [now constructor|]. inversion_clear Hnd as [|? ? Hn Hnd']. constructor; [|apply IH; [exact Hnd'|intros Hc; apply H; now right]].
    intros Hc. apply in_map_iff in Hc. destruct Hc as ([a' b'] & Heq & Hin). cbn [fst] in Heq. subst a'. apply in_binsert in Hin.
    destruct Hin as [Heq|Hin]; [injection Heq as -> ->; apply H; now left|]. apply Hn. apply in_map_iff. now exists (a, b').
Qed.

Lemma nodup_flat {A B} (f : A -> list B) l x y b : NoDup (flat_map f l) -> In x l -> In y l -> In b (f x) -> In b (f y) -> x = y.
Proof.
  induction l as [|a l IH]; [intros _ []|]. cbn [flat_map]. intros Hnd Hx Hy Hbx Hby.
  assert (Hdis : forall b, In b (f a) -> ~ In b (flat_map f l)).
  { clear - Hnd. intros b H1 H2. induction (f a) as [|c r IHr]; [easy|]. cbn [app] in Hnd. inversion_clear Hnd.
    destruct H1 as [->|H1]; [|now apply IHr]. apply H, in_app_iff. now right. }
  destruct Hx as [<-|Hx], Hy as [<-|Hy].
  - reflexivity.
  - exfalso. apply (Hdis b Hbx). apply in_flat_map. now exists y.
  - exfalso. apply (Hdis b Hby). apply in_flat_map. now exists x.
  - apply IH; try assumption. clear - Hnd. induction (f a); [exact Hnd|]. cbn [app] in Hnd. inversion_clear Hnd. auto.
Qed.
Lemma nodup_flat_part {A B} (f : A -> list B) l x : NoDup (flat_map f l) -> In x l -> NoDup (f x).
Proof.
  induction l as [|a l IH]; [intros _ []|]. cbn [flat_map]. intros Hnd [<-|Hx].
  - clear - Hnd. induction (f a) as [|c r IHr]; [constructor|]. cbn [app] in Hnd. inversion_clear Hnd. constructor; [|now apply IHr].
    intros Hc. apply H, in_app_iff. now left.
  - apply IH; [|exact Hx]. clear - Hnd. induction (f a); [exact Hnd|]. cbn [app] in Hnd. inversion_clear Hnd. auto.
Qed.


(* ------------------------------------------------------------------ *)
(* Object sets                                                         *)
(* ------------------------------------------------------------------ *)
Lemma table_fold_in l : forall t x, NoDup (map fst t) -> NoDup (map fst l) -> (forall k, In k (map fst t) -> ~ In k (map fst l)) ->
  let t' := fold_left (fun t x => match x with (z, nm, o) => table_insert z nm o t end) l t in
  NoDup (map fst t') /\ (In x t' <-> In x t \/ In x l).
Proof.
  induction l as [|[[z nm] o] l IH]; intros t x Ht Hl Hd; cbn [fold_left].
  - split; [exact Ht|]. split; [now left|intros [H|[]]; exact H].
  - cbn [map fst] in Hl. inversion_clear Hl as [|? ? Hn Hl'].
    assert (Hnew : ~ In (z, nm) (map fst t)) by (intros Hc; apply (Hd _ Hc); now left).
    assert (Hin : forall y, In y (table_insert z nm o t) <-> y = (z, nm, o) \/ In y t).
    { intros y. rewrite (table_insert_in _ _ _ _ _ Ht). split; [tauto|]. intros [H|H]; [now left|right]. split; [exact H|].
      intros Heq. apply Hnew. rewrite <- Heq. now apply in_map. }
    destruct (IH (table_insert z nm o t) x) as [I1 I2].
    + now apply table_insert_nodup.
    + exact Hl'.
    + intros k Hk Hc. apply in_map_iff in Hk. destruct Hk as (y & <- & Hy). apply Hin in Hy. destruct Hy as [->|Hy]; [now apply Hn|].
      apply (Hd (fst y)); [now apply in_map|now right].
    + split; [exact I1|]. rewrite I2, Hin. cbn [In]. split; [intros [[->|H]|H]; auto|intros [H|[<-|H]]; auto].
Qed.
Section SetPairs.
Context (E : env) (defs : list (string * rdef)) (u : string).
Notation id := (id_of u).
Lemma nodup_app_apart {A} (a b : list A) x : NoDup (a ++ b) -> In x a -> ~ In x b.
Proof.
  induction a as [|y a IH]; [intros _ []|]. cbn [app]. intros Hnd [->|Hx] Hb; inversion_clear Hnd.
  - apply H, in_app_iff. now right.
  - now apply IH.
Qed.
Lemma nodup_app_left {A} (a b : list A) : NoDup (a ++ b) -> NoDup a.
Proof.
  induction a as [|x a IH]; [constructor|]. cbn [app]. intros H. inversion_clear H as [|? ? Hn H']. constructor; [|now apply IH].
  intros Hc. apply Hn, in_app_iff. now left.
Qed.
Lemma pairs_app p t p' t' : set_pairs E defs u p t -> set_pairs E defs u p' t' -> NoDup (map id (map snd (p ++ p'))) ->
  set_pairs E defs u (p ++ p') (fold_left (fun t x => match x with (z, nm, o) => table_insert z nm o t end) t' t).
Proof.
  intros (H1 & H2 & H3) (G1 & G2 & G3) Hnd.
  assert (Hd : forall k, In k (map fst t) -> ~ In k (map fst t')).
  { intros k Hk Hk'. apply in_map_iff in Hk. destruct Hk as ([[z nm] o] & <- & Hin). apply in_map_iff in Hk'. destruct Hk' as ([[z' nm'] o'] & Heq & Hin').
    cbn [fst] in Heq. injection Heq as -> ->. apply H3 in Hin. apply G3 in Hin'. destruct Hin as (a & Ha & Ia), Hin' as (a' & Ha' & Ia').
    rewrite !map_app in Hnd. apply (nodup_app_apart _ _ (id a) Hnd).
    - apply in_map. now apply pairs_in in Ha.
    - rewrite Ia, <- Ia'. apply in_map. now apply pairs_in in Ha'. }
  split; [apply Forall_app; now split|]. split; [exact (proj1 (table_fold_in t' t (0, EmptyString, []) H2 G2 Hd))|].
  intros z nm o. rewrite (proj2 (table_fold_in t' t (z, nm, o) H2 G2 Hd)). rewrite H3, G3. split.
  - intros [(a & Ha & Hi)|(a & Ha & Hi)]; exists a; (split; [apply in_app_iff; auto|exact Hi]).
  - intros (a & Ha & Hi). apply in_app_iff in Ha. destruct Ha; [left|right]; eauto.
Qed.
Lemma pairs_one o ao nm z : object_is E defs o ao -> id ao = Some (nm, z) -> set_pairs E defs u [(o, ao)] [(z, nm, o)].
Proof.
  intros Ho Hi. split; [now constructor|]. split; [repeat constructor; intros []|]. intros z' nm' o'. split.
  - intros [Heq|[]]. injection Heq as -> -> ->. exists ao. split; [now left|exact Hi].
  - intros (a & [Heq|[]] & Hi'). injection Heq as -> ->. left. congruence.
Qed.
Lemma pairs_add p t o ao nm z : set_pairs E defs u p t -> object_is E defs o ao -> id ao = Some (nm, z) -> NoDup (map id (map snd (p ++ [(o, ao)]))) ->
  table_add defs (Some u) o t = Ok (table_insert z nm o t) /\ set_pairs E defs u (p ++ [(o, ao)]) (table_insert z nm o t).
Proof.
  intros Hp Ho Hi Hnd. split; [|exact (pairs_app p t _ _ Hp (pairs_one o ao nm z Ho Hi) Hnd)].
  destruct (id_known E defs u o ao nm z Ho Hi) as (t0 & v & H1 & H2 & H3). unfold table_add. now rewrite H1, H2, H3.
Qed.
End SetPairs.
Lemma unique_field_is fields u : (exists t, In (u, CFValue t true) fields) -> (forall k t, In (k, CFValue t true) fields -> k = u) -> unique_field fields = Some u.
Proof.
  induction fields as [|[k f] r IH]; intros (t & Hin) Hu; [destruct Hin|]. destruct f as [|t' b]; cbn [unique_field].
  - apply IH; [|intros; eapply Hu; right; eassumption]. destruct Hin as [Heq|Hin]; [discriminate|eauto].
  - destruct b.
    + f_equal. eapply Hu. now left.
    + apply IH; [|intros; eapply Hu; right; eassumption]. destruct Hin as [Heq|Hin]; [discriminate|eauto].
Qed.

(* ------------------------------------------------------------------ *)
(* One definition                                                      *)
(* ------------------------------------------------------------------ *)
Section Modules.
Context (E : env) (depth fuel : nat) (M : meaning) (modules : list (string * module)) (n : nat).
Context (Hdepth : (n <= depth)%nat) (Hnamed : well_named modules) (Himp : imports_defined modules).
Notation inst := (instantiate E depth).

Lemma def_unique a m b m' k d d' : In (a, m) modules -> In (b, m') modules -> In (k, d) (m_defs m) -> In (k, d') (m_defs m') -> m = m' /\ d = d'.
Proof.
  intros Hm Hm' Hd Hd'. destruct Hnamed as (H1 & H2 & _).
  assert (K : In k (def_names m)) by (apply in_map_iff; now exists (k, d)).
  assert (K' : In k (def_names m')) by (apply in_map_iff; now exists (k, d')).
  pose proof (nodup_flat (fun nm : string * module => def_names (snd nm)) modules (a, m) (b, m') k H2 Hm Hm' K K') as Heq.
  injection Heq as -> ->. split; [reflexivity|].
  pose proof (nodup_flat_part (fun nm : string * module => def_names (snd nm)) modules (b, m') H2 Hm') as Hnd. cbn [snd] in Hnd.
  apply (lookup_nodup _ _ _ Hnd) in Hd. apply (lookup_nodup _ _ _ Hnd) in Hd'. congruence.
Qed.
Lemma in_def_names m k : In k (def_names m) -> exists d, In (k, d) (m_defs m).
Proof. intros H. apply in_map_iff in H. destruct H as ([k' d] & <- & H). now exists d. Qed.
Lemma name_of a m k d : In (a, m) modules -> In (k, d) (m_defs m) -> plain k /\ parse_i128 k = None /\ is_name modules k.
Proof.
  intros Hm Hd. destruct Hnamed as (_ & _ & H). rewrite Forall_forall in H. specialize (H _ Hm). cbn [snd] in H. rewrite Forall_forall in H.
  assert (Hk : In k (def_names m)) by (apply in_map_iff; now exists (k, d)). destruct (H k Hk). repeat split; try assumption. now exists a, m.
Qed.
Lemma scope_plain a m k : In (a, m) modules -> in_scope m k = true -> plain k.
Proof.
  intros Hm Hk. unfold in_scope in Hk. apply orb_true_iff in Hk. destruct Hk as [Hk|Hk]; apply mem_in in Hk.
  - apply in_def_names in Hk. destruct Hk as (d & Hd). now destruct (name_of a m k d Hm Hd).
  - apply in_map_iff in Hk. destruct Hk as ([r b] & <- & Hr). destruct (Himp a m r b Hm Hr) as (m' & Hm' & Hk').
    apply in_def_names in Hk'. destruct Hk' as (d & Hd). now destruct (name_of b m' r d Hm' Hd).
Qed.

(* the names in P have been resolved, and nothing else has; the classes in Cl
   are known *)
Record Inv (P Cl : string -> Prop) (st : resolver) : Prop := {
  inv_types : forall k T, P k -> types M k = Some T ->
    exists rt, lookup k (resolved_defs st) = Some (DType rt) /\ type_means E (types_of (resolved_defs st)) rt T;
  inv_values : forall k z, P k -> numbers M k = Some z -> known (resolved_defs st) k = Some z;
  inv_ids : forall k z, P k -> ids M k = Some z -> exists v, lookup k (resolved_defs st) = Some (DValue v) /\ base_integer_value v = Some z;
  inv_sets : forall k s, P k -> sets M k = Some s ->
    exists os, lookup k (resolved_defs st) = Some (DObjectSet os) /\ set_is E (resolved_defs st) os s;
  inv_objects : forall k o, P k -> objects M k = Some o ->
    exists ro, lookup k (resolved_defs st) = Some (DObject ro) /\ object_is E (resolved_defs st) ro o;
  inv_generics : forall k a m d, P k -> generics M k = true -> In (a, m) modules -> In (k, d) (m_defs m) ->
    (d_params d <> None -> lookup k (parameterized_defs st) = Some d) /\
    forall u, has_meaning M u -> (In u (assignment_refs (d_kind d)) /\ in_scope m u = true) \/ In u (import_names m) -> P u;
  inv_classes : forall k a m f, Cl k -> In (a, m) modules -> In (k, mkDef (DKClass f) None) (m_defs m) -> lookup k (classes st) = Some f;
  inv_names : forall k d, In (k, d) (resolved_defs st) -> P k;
  inv_nodup : NoDup (map fst (resolved_defs st));
  inv_plain : forall k, P k -> plain k /\ parse_i128 k = None /\ is_name modules k;
  inv_set : forall k t, In (k, DType t) (resolved_defs st) -> not_set t;
  inv_chain : forall k t, In (k, DType t) (resolved_defs st) -> chain (resolved_defs st) (List.length (resolved_defs st)) t;
  inv_kind : forall k t, In (k, DType t) (resolved_defs st) -> exists a m t0, In (a, m) modules /\ In (k, mkDef (DKType t0) None) (m_defs m) }.
Definition represents (st : resolver) (k : string) (r : rdef) : Prop :=
  (forall T, types M k = Some T -> exists rt, r = DType rt /\ type_means E (types_of (resolved_defs st)) rt T) /\
  (forall z, numbers M k = Some z -> r = DValue (VInteger z)) /\
  (forall z, ids M k = Some z -> exists v, r = DValue v /\ base_integer_value v = Some z) /\
  (forall s, sets M k = Some s -> exists os, r = DObjectSet os /\ set_is E (resolved_defs st) os s) /\
  (forall o, objects M k = Some o -> exists ro, r = DObject ro /\ object_is E (resolved_defs st) ro o).
Lemma Inv_lookup P Cl st k d : Inv P Cl st -> In (k, d) (resolved_defs st) -> lookup k (resolved_defs st) = Some d.
Proof. intros HI. apply lookup_nodup. apply (inv_nodup _ _ _ HI). Qed.

Lemma Inv_insert P Cl st k r : Inv P Cl st -> ~ P k -> plain k /\ parse_i128 k = None /\ is_name modules k ->
  represents st k r -> generics M k = false ->
  (forall t, r = DType t -> not_set t /\ bound_reference (resolved_defs st) t /\ exists a m t0, In (a, m) modules /\ In (k, mkDef (DKType t0) None) (m_defs m)) ->
  Inv (fun s => P s \/ s = k) Cl (mkResolver (binsert k r (resolved_defs st)) (parameterized_defs st) (classes st)).
Proof.
  intros HI Hnew Hpl (HT & HV & HIds & HS & HO) Hgen Hty.
  assert (Hfresh : forall v', ~ In (k, v') (resolved_defs st)) by (intros v' H; apply Hnew; eapply inv_names; eassumption).
  assert (Hfresh' : ~ In k (map fst (resolved_defs st))).
  { intros H. apply in_map_iff in H. destruct H as ([k' d] & <- & H). now apply (Hfresh d). }
  assert (Hmore : forall s d, lookup s (resolved_defs st) = Some d -> lookup s (binsert k r (resolved_defs st)) = Some d).
  { intros s d Hs. rewrite lookup_binsert. destruct (String.eqb s k) eqn:He; [|exact Hs]. apply String.eqb_eq in He. subst s. apply lookup_in in Hs. now destruct (Hfresh d). }
  assert (Hincl : incl (types_of (resolved_defs st)) (types_of (binsert k r (resolved_defs st)))).
  { apply types_of_incl. intros x. now apply binsert_in. }
  assert (Hneq : forall s, P s -> String.eqb s k = false).
  { intros s Hs. apply String.eqb_neq. intros ->. contradiction. }
  assert (Hk : lookup k (binsert k r (resolved_defs st)) = Some r) by (rewrite lookup_binsert, String.eqb_refl; reflexivity).
  assert (Hlen : List.length (binsert k r (resolved_defs st)) = S (List.length (resolved_defs st))) by now apply binsert_length.
  constructor; cbn [resolved_defs parameterized_defs classes].
  - intros s T [Hs| ->] Hs'.
    + destruct (inv_types _ _ _ HI s T Hs Hs') as (rt & Hl & Hm). exists rt. split; [now apply Hmore|]. eapply type_means_incl; eassumption.
    + destruct (HT T Hs') as (rt & -> & Hm). exists rt. split; [exact Hk|]. eapply type_means_incl; eassumption.
  - intros s z [Hs| ->] Hv; unfold known.
    + rewrite lookup_binsert, (Hneq _ Hs). exact (inv_values _ _ _ HI s z Hs Hv).
    + rewrite Hk. now rewrite (HV z Hv).
  - intros s z [Hs| ->] Hv.
    + destruct (inv_ids _ _ _ HI s z Hs Hv) as (v & Hl & Hb). eauto.
    + destruct (HIds z Hv) as (v & -> & Hb). eauto.
  - intros s x [Hs| ->] Hx.
    + destruct (inv_sets _ _ _ HI s x Hs Hx) as (os & Hl & Ho). exists os. split; [now apply Hmore|]. eapply set_more; eassumption.
    + destruct (HS x Hx) as (os & -> & Ho). exists os. split; [exact Hk|]. eapply set_more; eassumption.
  - intros s x [Hs| ->] Hx.
    + destruct (inv_objects _ _ _ HI s x Hs Hx) as (os & Hl & Ho). exists os. split; [now apply Hmore|]. eapply object_more; eassumption.
    + destruct (HO x Hx) as (os & -> & Ho). exists os. split; [exact Hk|]. eapply object_more; eassumption.
  - intros s a m d [Hs| ->] Hg Hm Hd; [|congruence]. destruct (inv_generics _ _ _ HI s a m d Hs Hg Hm Hd) as [H1 H2].
    split; [exact H1|]. intros u Hu Hr. left. now apply H2.
  - apply (inv_classes _ _ _ HI).
  - intros s d Hin. apply in_binsert in Hin. destruct Hin as [Heq|Hin]; [injection Heq as -> ->; now right|left; eapply inv_names; eassumption].
  - apply binsert_nodup; [apply (inv_nodup _ _ _ HI)|exact Hfresh'].
  - intros s [Hs| ->]; [now apply (inv_plain _ _ _ HI)|exact Hpl].
  - intros s t Hin. apply in_binsert in Hin. destruct Hin as [Heq|Hin]; [injection Heq as -> <-; now apply Hty|].
    eapply (inv_set _ _ _ HI); eassumption.
  - intros s t Hin. rewrite Hlen. apply (chain_more (resolved_defs st)); [exact Hmore|]. apply in_binsert in Hin. destruct Hin as [Heq|Hin].
    + injection Heq as -> <-. destruct (Hty t eq_refl) as (_ & Hb & _).
      assert (Hdec : (exists r, t = RReference r) \/ forall r, t <> RReference r) by (destruct t; (right; congruence) || (left; eauto)).
      destruct Hdec as [(x & ->)|Hx]; [|now constructor]. destruct (Hb x eq_refl) as (t' & Hl). econstructor; [exact Hl|].
      apply (inv_chain _ _ _ HI x). now apply lookup_in.
    + apply (chain_le _ (List.length (resolved_defs st))); [lia|]. eapply (inv_chain _ _ _ HI); eassumption.
  - intros s t Hin. apply in_binsert in Hin. destruct Hin as [Heq|Hin]; [injection Heq as -> <-; now destruct (Hty t eq_refl) as (_ & _ & H)|].
    eapply (inv_kind _ _ _ HI); eassumption.
Qed.
Lemma Inv_skip P Cl st k params cls : Inv P Cl st -> ~ P k -> plain k /\ parse_i128 k = None /\ is_name modules k ->
  types M k = None -> numbers M k = None -> ids M k = None -> sets M k = None -> objects M k = None ->
  (forall s, P s -> lookup s params = lookup s (parameterized_defs st)) ->
  (generics M k = true -> forall a m d, In (a, m) modules -> In (k, d) (m_defs m) ->
     (d_params d <> None -> lookup k params = Some d) /\
     forall u, has_meaning M u -> (In u (assignment_refs (d_kind d)) /\ in_scope m u = true) \/ In u (import_names m) -> P u) ->
  (forall s a m f, Cl s -> In (a, m) modules -> In (s, mkDef (DKClass f) None) (m_defs m) -> lookup s (classes st) = Some f -> lookup s cls = Some f) ->
  Inv (fun s => P s \/ s = k) Cl (mkResolver (resolved_defs st) params cls).
Proof.
  intros HI Hnew Hpl HT HV HIds HS HO Hpar Hgen Hcls. constructor; cbn [resolved_defs parameterized_defs classes].
  - intros s T [Hs| ->] Hty; [now apply (inv_types _ _ _ HI)|congruence].
  - intros s z [Hs| ->] Hv; [now apply (inv_values _ _ _ HI)|congruence].
  - intros s z [Hs| ->] Hv; [now apply (inv_ids _ _ _ HI)|congruence].
  - intros s z [Hs| ->] Hv; [now apply (inv_sets _ _ _ HI)|congruence].
  - intros s z [Hs| ->] Hv; [now apply (inv_objects _ _ _ HI)|congruence].
  - intros s a m d [Hs| ->] Hg Hm Hd.
    + destruct (inv_generics _ _ _ HI s a m d Hs Hg Hm Hd) as [H1 H2]. rewrite Hpar by exact Hs. split; [exact H1|]. intros u Hu Hr. left. now apply H2.
    + destruct (Hgen Hg a m d Hm Hd) as [H1 H2]. split; [exact H1|]. intros u Hu Hr. left. now apply H2.
  - intros s a m f Hs Hm Hd. eapply Hcls; try eassumption. eapply (inv_classes _ _ _ HI); eassumption.
  - intros s d Hin. left. eapply (inv_names _ _ _ HI); eassumption.
  - apply (inv_nodup _ _ _ HI).
  - intros s [Hs| ->]; [now apply (inv_plain _ _ _ HI)|exact Hpl].
  - apply (inv_set _ _ _ HI).
  - apply (inv_chain _ _ _ HI).
  - apply (inv_kind _ _ _ HI).
Qed.
Lemma Inv_ext (P Q Cl Cl' : string -> Prop) st : (forall s, P s <-> Q s) -> (forall s, Cl' s -> Cl s) -> Inv P Cl st -> Inv Q Cl' st.
Proof.
  intros H H' HI. constructor.
  - intros k T Hk. apply (inv_types _ _ _ HI). now apply H.
  - intros k z Hk. apply (inv_values _ _ _ HI). now apply H.
  - intros k z Hk. apply (inv_ids _ _ _ HI). now apply H.
  - intros k z Hk. apply (inv_sets _ _ _ HI). now apply H.
  - intros k z Hk. apply (inv_objects _ _ _ HI). now apply H.
  - intros k a m d Hk Hg Hm Hd. apply H in Hk. destruct (inv_generics _ _ _ HI k a m d Hk Hg Hm Hd) as [H1 H2]. split; [exact H1|].
    intros u Hu Hr. apply H. now apply H2.
  - intros k a m f Hk. apply (inv_classes _ _ _ HI). now apply H'.
  - intros k d Hin. apply H. eapply (inv_names _ _ _ HI); eassumption.
  - apply (inv_nodup _ _ _ HI).
  - intros k Hk. apply (inv_plain _ _ _ HI). now apply H.
  - apply (inv_set _ _ _ HI).
  - apply (inv_chain _ _ _ HI).
  - apply (inv_kind _ _ _ HI).
Qed.

(* ---- types ---- *)
Section Types.
Context (P Cl : string -> Prop) (st : resolver) (HI : Inv P Cl st).
Notation defs := (resolved_defs st).

Lemma type_resolves_with (sees sizes : string -> bool) (instances : string -> list actual_param -> ty -> Prop) (res_inst : string -> list actual_param -> res rtype) t T :
  (forall u, sees u = true -> plain u) -> (forall u, sizes u = true -> has_meaning M u -> plain u /\ P u) ->
  (forall u, In u (type_refs t) -> sees u = true -> has_meaning M u -> P u) ->
  (forall r ps T, instances r ps T -> (forall u, In u (r :: map param_string ps) -> sees u = true -> has_meaning M u -> P u) ->
     exists rt, res_inst r ps = Ok rt /\ type_means E (types_of defs) rt T /\ not_set rt) ->
  asn_means (restrict sees (numbers M)) (restrict sizes (numbers M)) (restrict sees (types M)) (restrict sees (sets M)) instances t T ->
  exists rt, resolve_type E defs res_inst t = Ok rt /\ type_means E (types_of defs) rt T /\ not_set rt.
Proof.
  intros Hpl Hsz Hrefs Hinst Ht.
  assert (Hr : forall A (f : string -> option A) s x, restrict sees f s = Some x -> sees s = true /\ f s = Some x).
  { intros A f s x H. unfold restrict in H. destruct (sees s); [auto|discriminate]. }
  refine (resolve_type_means E defs res_inst _ _ _ _ instances P (fun u => sees u = true /\ has_meaning M u) _ _ _ _ _ _ _ _ t T Ht _).
  - intros s z Hs. apply Hr in Hs. now apply Hpl.
  - intros s z Hs. unfold restrict in Hs. destruct (sizes s) eqn:Hss; [|discriminate]. apply Hsz; [exact Hss|right; left; congruence].
  - intros s z Hs. apply Hr in Hs. now apply Hpl.
  - intros s z Hp Hs. apply Hr in Hs. now apply (inv_values _ _ _ HI).
  - intros s z Hs. unfold restrict in Hs. destruct (sizes s) eqn:Hss; [|discriminate]. apply (inv_values _ _ _ HI); [|exact Hs]. apply Hsz; [exact Hss|right; left; congruence].
  - intros s z Hp Hs. apply Hr in Hs. now apply (inv_types _ _ _ HI).
  - intros s z Hp Hs. apply Hr in Hs. now apply (inv_sets _ _ _ HI).
  - intros r ps T0 Hi Hrdy. apply (Hinst r ps T0 Hi). intros u Hu Hs Hm. apply Hrdy; [exact Hu|]. right. right. right. now split.
  - intros u Hu H. assert (Hs : sees u = true) by (unfold restrict in H; destruct (sees u); [reflexivity|tauto]).
    apply Hrefs; [exact Hu|exact Hs|]. unfold restrict in H. rewrite Hs in H. unfold has_meaning in *. tauto.
Qed.
Lemma instance_resolves : forall n depth sees, (n <= depth)%nat -> (forall u, sees u = true -> plain u) -> forall r ps T,
  instance_means M modules n sees r ps T -> (forall u, In u (r :: map param_string ps) -> sees u = true -> has_meaning M u -> P u) ->
  exists rt, instantiate E depth st r ps = Ok rt /\ type_means E (types_of defs) rt T /\ not_set rt.
Proof.
  induction n0 as [|n0 IH]; intros dep sees Hd Hpl r ps T Hi Hrdy; [destruct Hi|].
  destruct dep as [|dep]; [lia|]. destruct Hi as (a & m & formals & w & t0 & t & Hsr & Hgen & Hm & Hdef & Hlen & Hseq & Hsyn & Ht).
  assert (HPr : P r). { apply Hrdy; [now left|exact Hsr|]. unfold has_meaning. tauto. }
  destruct (inv_generics _ _ _ HI r a m _ HPr Hgen Hm Hdef) as [Hl Hin]. cbn [d_params d_kind assignment_refs] in Hl, Hin. specialize (Hl ltac:(discriminate)).
  assert (Happ : apply_params (mkDef (DKType t0) (Some (formals, w))) ps = Ok t).
  { rewrite (ParamProofs.C42_tokens_proof (mkDef (DKType t0) (Some (formals, w))) formals w ps eq_refl Hlen Hseq).
    pose proof (GrammarProofs.parse_type_complete _ _ [] Hsyn Logic.I) as He. rewrite app_nil_r in He. now rewrite He. }
  cbn [instantiate]. rewrite Hl. cbv beta iota. replace (apply_params _ ps) with (@Ok asn_type t) by (symmetry; exact Happ). cbn [rbind]. cbv zeta in Ht.
  match type of Ht with asn_means (restrict ?a _) (restrict ?b _) _ _ _ _ _ => set (inside := a) in *; set (in_sizes := b) in * end.
  assert (Hin' : forall u, inside u = true -> has_meaning M u -> P u).
  { intros u Hu Hmean. unfold inside in Hu. apply orb_true_iff in Hu. destruct Hu as [Hu|Hu]; apply andb_true_iff in Hu; destruct Hu as [H1 H2].
    - apply Hrdy; [right; now apply mem_in|exact H2|exact Hmean].
    - apply Hin; [exact Hmean|]. left. split; [now apply mem_in|exact H2]. }
  assert (Hpl' : forall u, inside u = true -> plain u).
  { intros u Hu. unfold inside in Hu. apply orb_true_iff in Hu. destruct Hu as [Hu|Hu]; apply andb_true_iff in Hu; destruct Hu as [H1 H2];
      [now apply Hpl|eapply scope_plain; eassumption]. }
  apply (type_resolves_with inside in_sizes (instance_means M modules n0 inside)).
  - exact Hpl'.
  - intros u Hu Hmean. unfold in_sizes in Hu. apply orb_true_iff in Hu. destruct Hu as [Hu|Hu].
    + apply andb_true_iff in Hu. destruct Hu as [H1 H2]. split; [now apply Hpl|]. apply Hrdy; [right; now apply mem_in|exact H2|exact Hmean].
    + split; [|apply Hin; [exact Hmean|right; now apply mem_in]]. eapply scope_plain; [exact Hm|]. unfold in_scope. rewrite Hu. apply orb_true_r.
  - intros u _ Hu Hmean. now apply Hin'.
  - intros r' ps' T' Hi' _. apply (IH dep inside); [lia|exact Hpl'|exact Hi'|]. intros u _ Hu Hmean. now apply Hin'.
  - exact Ht.
Qed.
Lemma type_resolves (sees sizes : string -> bool) t T :
  (forall u, sees u = true -> plain u) -> (forall u, sizes u = true -> has_meaning M u -> plain u /\ P u) ->
  (forall u, In u (type_refs t) -> sees u = true -> has_meaning M u -> P u) ->
  asn_means (restrict sees (numbers M)) (restrict sizes (numbers M)) (restrict sees (types M)) (restrict sees (sets M)) (instance_means M modules n sees) t T ->
  exists rt, resolve_type E defs (inst st) t = Ok rt /\ type_means E (types_of defs) rt T /\ not_set rt.
Proof.
  intros Hpl Hsz Hrefs. apply (type_resolves_with sees sizes (instance_means M modules n sees)); try assumption.
  intros r ps T0. apply instance_resolves; [exact Hdepth|exact Hpl].
Qed.

(* ---- values ---- *)
Lemma type_chain t rt : resolve_type E defs (inst st) t = Ok rt -> chain defs (S (List.length defs)) rt.
Proof.
  intros H. assert (Hb : bound_reference defs rt) by (eapply resolve_type_bound; [apply instantiate_bound|exact H]).
  assert (Hdec : (exists r, rt = RReference r) \/ forall r, rt <> RReference r) by (destruct rt; (right; congruence) || (left; eauto)).
  destruct Hdec as [(x & ->)|Hx]; [|now constructor]. destruct (Hb x eq_refl) as (t' & Hl). econstructor; [exact Hl|].
  apply (inv_chain _ _ _ HI x). now apply lookup_in.
Qed.
Lemma not_defined text : parse_i128 text <> None \/ ~ is_name modules text -> lookup text defs = None.
Proof.
  intros H. destruct (lookup text defs) as [d|] eqn:Hl; [|reflexivity]. apply lookup_in in Hl. apply (inv_names _ _ _ HI) in Hl.
  apply (inv_plain _ _ _ HI) in Hl. destruct Hl as (_ & H1 & H2). tauto.
Qed.

(* ---- objects ---- *)
Lemma written_out w cs rt : (forall r, w <> KReference r) -> resolve_type E defs (inst st) (mkType w cs) = Ok rt -> forall r, rt <> RReference r.
Proof.
  intros Hw H r ->. destruct w as [b|x|root adds|root adds ext|size t| |]; try discriminate.
  - destruct b; cbn [resolve_type resolve_base] in H; unfold resolve_enumerated in H;
      repeat match type of H with rbind ?m _ = _ => destruct m; try discriminate; cbn [rbind] in H end; discriminate.
  - now destruct (Hw x).
  - rewrite resolve_choice in H. repeat match type of H with rbind ?m _ = _ => destruct m; try discriminate; cbn [rbind] in H end.
  - rewrite resolve_sequence in H. destruct (rmap _ _); try discriminate. unfold resolve_class_sequence in H.
    repeat match type of H with
      | match ?m with _ => _ end = _ => destruct m; try discriminate
      | rbind ?m _ = _ => destruct m; try discriminate; cbn [rbind] in H end.
  - cbn [resolve_type] in H. repeat match type of H with rbind ?m _ = _ => destruct m; try discriminate; cbn [rbind] in H end.
Qed.
Definition enough : Prop := (S (List.length defs) <= fuel)%nat.
Section Object.
Context (sees sizes idnames : string -> bool) (Hpl : forall u, sees u = true -> plain u).
Context (Hsz : forall u, sizes u = true -> has_meaning M u -> plain u /\ P u) (Hidn : forall u, idnames u = true -> has_meaning M u -> P u).
Context (m' : module) (cls : list (string * class_field)).
Context (Hclass : forall u, mem u (assignment_refs (DKClass cls)) && in_scope m' u = true -> plain u /\ (has_meaning M u -> P u)).
Context (Hclass_sizes : forall u, import_of m' u = true -> has_meaning M u -> plain u /\ P u).
Notation fmeans := (field_means (means_in M modules n sees sizes) (means_in_class M modules n m' cls) (restrict idnames (ids M)) (is_name modules)).
Lemma object_resolves fields o : Forall2 fmeans fields o ->
  (forall u, In u (object_refs (Some fields)) -> sees u = true -> has_meaning M u -> P u) ->
  (enough -> exists ro, resolve_object E defs (inst st) fuel (Some fields) = Ok ro) /\
  (forall ro, resolve_object E defs (inst st) fuel (Some fields) = Ok ro -> object_is E defs ro o).
Proof.
  unfold resolve_object. match goal with |- _ -> _ -> (_ -> exists ro, rmap ?g _ = _) /\ _ => set (f := g) end.
  induction 1 as [|x y fields o Hxy _ IH]; intros Hrefs.
  - split; [intros; now exists []|]. cbn. intros ro H. injection H as <-. constructor.
  - cbn [object_refs flat_map] in Hrefs.
    destruct IH as [IH1 IH2]; [intros u Hu; apply Hrefs, in_app_iff; now right|].
    assert (Hx : (enough -> exists rx, f x = Ok rx) /\ forall rx, f x = Ok rx -> field_is E defs rx y).
    { assert (Htype : forall t T, (forall u, In u (type_refs t) -> sees u = true -> has_meaning M u -> P u) ->
        asn_means (restrict sees (numbers M)) (restrict sizes (numbers M)) (restrict sees (types M)) (restrict sees (sets M)) (instance_means M modules n sees) t T ->
        exists rt, resolve_type E defs (inst st) t = Ok rt /\ type_means E (types_of defs) rt T /\ not_set rt).
      { intros t T. now apply type_resolves. }
      assert (Hvtype : forall t T, means_in_class M modules n m' cls t T ->
        exists rt, resolve_type E defs (inst st) t = Ok rt /\ type_means E (types_of defs) rt T /\ not_set rt).
      { intros t T. apply type_resolves; [intros u Hu; now apply Hclass|exact Hclass_sizes|intros u _ Hu; now apply Hclass]. }
      destruct Hxy as [k|k r cs T Ht|k w cs T Hw Ht|k t T Ht|k t T nm z Ht Hid|k t T v Ht Hlit Hname]; cbn [snd] in Hrefs.
      - split; [intros; eexists; reflexivity|]. intros rx H. injection H as <-. constructor.
      - destruct (Htype (mkType (KReference (RefName r)) cs) T) as (rt & Hrt & Hm & _); [intros u Hu; apply Hrefs, in_app_iff; now left|exact Ht|].
        assert (rt = RReference r). { cbn [resolve_type] in Hrt. destruct (lookup r defs) as [[]|]; try discriminate. now injection Hrt as <-. }
        subst rt. unfold f. rewrite Hrt. cbn [rbind]. split; [eauto|]. intros rx H. injection H as <-. now constructor.
      - destruct (Htype (mkType w cs) T) as (rt & Hrt & Hm & _); [intros u Hu; apply Hrefs, in_app_iff; now left|exact Ht|].
        assert (Hno : forall r, rt <> RReference r) by (eapply written_out; eassumption).
        unfold f. rewrite Hrt. cbn [rbind]. split; [eauto|]. intros rx H. injection H as <-. now constructor.
      - destruct (Hvtype t T Ht) as (rt & Hrt & Hm & _).
        unfold f. rewrite Hrt. cbn [rbind]. split; [eauto|]. intros rx H. injection H as <-. constructor; [exact Hm|discriminate].
      - destruct (Hvtype t T Ht) as (rt & Hrt & Hm & _).
        unfold f. rewrite Hrt. cbn [rbind]. unfold restrict in Hid. destruct (idnames nm) eqn:Hnm; [|discriminate].
        assert (Hp : P nm) by (apply Hidn; [exact Hnm|right; right; left; congruence]).
        destruct (inv_ids _ _ _ HI nm z Hp Hid) as (v & Hl & Hb).
        assert (Hv : resolve_value defs fuel nm rt = Ok (VReference nm)) by (destruct fuel; cbn [resolve_value]; now rewrite Hl).
        rewrite Hv. cbn [rbind]. split; [eauto|]. intros rx H. injection H as <-. constructor; [exact Hm|].
        intros nm' z' Heq. injection Heq as <- <-. split; [reflexivity|]. eauto.
      - destruct (Hvtype t T Ht) as (rt & Hrt & Hm & _).
        unfold f. rewrite Hrt. cbn [rbind]. split.
        + intros Hen. destruct (value_found E defs (inv_nodup _ _ _ HI) v T) with (n := S (List.length defs)) (rt := rt) (fuel := fuel) as (rv & Hrv); try assumption.
          * apply not_defined. now right.
          * eapply type_chain. exact Hrt.
          * rewrite Hrv. cbn [rbind]. eauto.
        + intros rx H. destruct (resolve_value defs fuel v rt); try discriminate. injection H as <-. constructor; [exact Hm|discriminate]. }
    destruct Hx as [X1 X2]. rewrite rmap_cons. split.
    + intros Hen. destruct (X1 Hen) as (rx & ->). destruct (IH1 Hen) as (ro & Hro). cbn [rbind]. fold f in Hro. rewrite Hro. cbn [rbind]. eauto.
    + intros ro H. destruct (f x) as [rx| | |]; try discriminate. cbn [rbind] in H. destruct (rmap f fields) as [rl| | |]; try discriminate.
      injection H as <-. constructor; [now apply X2|now apply IH2].
Qed.
End Object.

(* ---- sets of objects ---- *)
Section Elements.
Context (name : string) (m : module) (Hm : In (name, m) modules) (Himports : forall u, In u (import_names m) -> has_meaning M u -> P u).
Lemma module_sees u : in_scope m u = true -> plain u.
Proof. eapply scope_plain. exact Hm. Qed.
Lemma module_sizes u : import_of m u = true -> has_meaning M u -> plain u /\ P u.
Proof. intros Hu Hmean. split; [|apply Himports; [now apply mem_in|exact Hmean]]. apply module_sees. unfold in_scope. unfold import_of in Hu. rewrite Hu. apply orb_true_r. Qed.
Context (m' : module) (cls : list (string * class_field)).
Context (Hclass : forall u, mem u (assignment_refs (DKClass cls)) && in_scope m' u = true -> plain u /\ (has_meaning M u -> P u)).
Context (Hclass_sizes : forall u, import_of m' u = true -> has_meaning M u -> plain u /\ P u).
Lemma elements_resolve u uo elems objs : elements_mean M modules n m m' cls u elems objs -> (objs <> [] -> uo = Some u) ->
  (forall x, In x (flat_map set_element_refs elems) -> in_scope m x = true -> has_meaning M x -> P x) ->
  forall pairs table, set_pairs E defs u pairs table -> NoDup (map (id_of u) (map snd pairs ++ objs)) -> Forall (fun o => id_of u o <> None) objs ->
  let f := fun acc e =>
    match e with
    | OSetRef r =>
        match lookup r defs with
        | Some (DObjectSet s) =>
            Ok (mkObjectSet (os_elements acc ++ os_elements s)
                  (fold_left (fun t x => match x with (z, nm, o) => table_insert z nm o t end) (os_lookup s) (os_lookup acc)))
        | _ => Err
        end
    | OObjectRef r =>
        match lookup r defs with
        | Some (DObject o) =>
            table <-- table_add defs uo o (os_lookup acc) ;; Ok (mkObjectSet (os_elements acc ++ [o]) table)
        | _ => Err
        end
    | OObject v =>
        o <-- resolve_object E defs (inst st) fuel v ;;
        table <-- table_add defs uo o (os_lookup acc) ;; Ok (mkObjectSet (os_elements acc ++ [o]) table)
    end in
  (enough -> exists s, rfold f (mkObjectSet (map fst pairs) table) elems = Ok s) /\
  (forall s, rfold f (mkObjectSet (map fst pairs) table) elems = Ok s ->
     exists pairs', os_elements s = map fst pairs' /\ map snd pairs' = map snd pairs ++ objs /\ set_pairs E defs u pairs' (os_lookup s)).
Proof.
  intros Hel. induction Hel as [|fields o r l Ho _ IH|k o r l Hk _ IH|k s r l Hk Hu _ IH]; intros Huo Hrefs pairs table Hp Hnd Hid f.
  - cbn. split; [eauto|]. intros s H. injection H as <-. exists pairs. cbn [os_elements os_lookup]. rewrite app_nil_r. auto.
  - specialize (Huo ltac:(discriminate)). cbn [flat_map set_element_refs] in Hrefs.
    destruct (object_resolves (in_scope m) (import_of m) (import_of m) module_sees module_sizes
      ltac:(intros x Hx; apply Himports; now apply mem_in) m' cls Hclass Hclass_sizes fields o Ho) as [O1 O2].
    { intros x Hx. apply Hrefs, in_app_iff. now left. }
    change (rfold f ?acc (OObject (Some fields) :: r)) with (acc1 <-- f acc (OObject (Some fields)) ;; rfold f acc1 r).
    inversion_clear Hid as [|? ? Ho' Hid']. destruct (id_of u o) as [[nm z]|] eqn:Hidz; [|congruence].
    assert (Hstep : forall ro, resolve_object E defs (inst st) fuel (Some fields) = Ok ro ->
      f (mkObjectSet (map fst pairs) table) (OObject (Some fields)) = Ok (mkObjectSet (map fst (pairs ++ [(ro, o)])) (table_insert z nm ro table)) /\
      set_pairs E defs u (pairs ++ [(ro, o)]) (table_insert z nm ro table)).
    { intros ro Hro. destruct (pairs_add E defs u pairs table ro o nm z Hp (O2 ro Hro) Hidz) as [A1 A2].
      { rewrite map_app. cbn [map snd]. change (o :: l) with ([o] ++ l) in Hnd. rewrite app_assoc, map_app in Hnd. exact (nodup_app_left _ _ Hnd). }
      split; [|exact A2]. unfold f. rewrite Hro. cbn [rbind os_lookup os_elements]. rewrite Huo, A1. cbn [rbind]. now rewrite map_app. }
    assert (Hrest : forall ro, resolve_object E defs (inst st) fuel (Some fields) = Ok ro ->
       (enough -> exists s, rfold f (mkObjectSet (map fst (pairs ++ [(ro, o)])) (table_insert z nm ro table)) r = Ok s) /\
       (forall s, rfold f (mkObjectSet (map fst (pairs ++ [(ro, o)])) (table_insert z nm ro table)) r = Ok s ->
         exists pairs', os_elements s = map fst pairs' /\ map snd pairs' = map snd pairs ++ o :: l /\ set_pairs E defs u pairs' (os_lookup s))).
    { intros ro Hro. destruct (Hstep ro Hro) as [_ A2].
      assert (Hs : map snd (pairs ++ [(ro, o)]) ++ l = map snd pairs ++ o :: l) by (rewrite map_app, <- app_assoc; reflexivity).
      rewrite <- Hs. apply IH; [intros _; exact Huo|intros x Hx; apply Hrefs, in_app_iff; now right|exact A2|rewrite Hs; exact Hnd|exact Hid']. }
    split.
    + intros Hen. destruct (O1 Hen) as (ro & Hro). destruct (Hstep ro Hro) as [-> _]. cbn [rbind]. now apply Hrest.
    + intros s H. destruct (resolve_object E defs (inst st) fuel (Some fields)) as [ro| | |] eqn:Hro.
      * destruct (Hstep ro eq_refl) as [Hf _]. rewrite Hf in H. cbn [rbind] in H. now apply (Hrest ro eq_refl).
      * unfold f in H at 1. rewrite Hro in H. discriminate.
      * unfold f in H at 1. rewrite Hro in H. discriminate.
      * unfold f in H at 1. rewrite Hro in H. discriminate.
  - specialize (Huo ltac:(discriminate)). cbn [flat_map set_element_refs] in Hrefs. unfold scoped, restrict in Hk. destruct (in_scope m k) eqn:Hsc; [|discriminate].
    assert (Hpk : P k). { apply Hrefs; [now left|exact Hsc|]. unfold has_meaning. do 4 right. left. congruence. }
    destruct (inv_objects _ _ _ HI k o Hpk Hk) as (ro & Hl & Hro).
    change (rfold f ?acc (OObjectRef k :: r)) with (acc1 <-- f acc (OObjectRef k) ;; rfold f acc1 r).
    inversion_clear Hid as [|? ? Ho' Hid']. destruct (id_of u o) as [[nm z]|] eqn:Hidz; [|congruence].
    destruct (pairs_add E defs u pairs table ro o nm z Hp Hro Hidz) as [A1 A2].
    { rewrite map_app. cbn [map snd]. change (o :: l) with ([o] ++ l) in Hnd. rewrite app_assoc, map_app in Hnd. exact (nodup_app_left _ _ Hnd). }
    assert (Hf : f (mkObjectSet (map fst pairs) table) (OObjectRef k) = Ok (mkObjectSet (map fst (pairs ++ [(ro, o)])) (table_insert z nm ro table))).
    { unfold f. rewrite Hl. cbn [os_lookup os_elements]. rewrite Huo, A1. cbn [rbind]. now rewrite map_app. }
    rewrite Hf. cbn [rbind].
    assert (Hs : map snd (pairs ++ [(ro, o)]) ++ l = map snd pairs ++ o :: l) by (rewrite map_app, <- app_assoc; reflexivity).
    rewrite <- Hs. apply IH; [intros _; exact Huo|intros x Hx; apply Hrefs, in_app_iff; now right|exact A2|rewrite Hs; exact Hnd|exact Hid'].
  - cbn [flat_map set_element_refs] in Hrefs. unfold scoped, restrict in Hk. destruct (in_scope m k) eqn:Hsc; [|discriminate].
    assert (Hpk : P k). { apply Hrefs; [now left|exact Hsc|]. unfold has_meaning. do 3 right. left. congruence. }
    destruct (inv_sets _ _ _ HI k s Hpk Hk) as (os & Hl & _ & pairs2 & Hel2 & Hob2 & Hp2). rewrite Hu in Hp2.
    change (rfold f ?acc (OSetRef k :: r)) with (acc1 <-- f acc (OSetRef k) ;; rfold f acc1 r).
    apply Forall_app in Hid. destruct Hid as [_ Hid'].
    assert (Hf : f (mkObjectSet (map fst pairs) table) (OSetRef k) = Ok (mkObjectSet (map fst (pairs ++ pairs2))
       (fold_left (fun t x => match x with (z, nm, o) => table_insert z nm o t end) (os_lookup os) table))).
    { unfold f. rewrite Hl. cbn [os_lookup os_elements]. now rewrite Hel2, map_app. }
    rewrite Hf. cbn [rbind].
    assert (Hs : map snd (pairs ++ pairs2) ++ l = map snd pairs ++ sm_objects s ++ l) by (rewrite map_app, <- Hob2, <- app_assoc; reflexivity).
    rewrite <- Hs. apply IH; [intros Hne; apply Huo; intros Hap; apply Hne; now apply app_eq_nil in Hap|intros x Hx; apply Hrefs, in_app_iff; now right| |rewrite Hs; exact Hnd|exact Hid'].
    apply pairs_app; try assumption. rewrite <- Hs, map_app in Hnd. exact (nodup_app_left _ _ Hnd).
Qed.
End Elements.
End Types.

Definition all_names : list string := flat_map (fun nm : string * module => def_names (snd nm)) modules.
Lemma Inv_length P Cl st : Inv P Cl st -> (List.length (resolved_defs st) <= List.length all_names)%nat.
Proof.
  intros HI. rewrite <- (map_length fst (resolved_defs st)). apply NoDup_incl_length; [apply (inv_nodup _ _ _ HI)|].
  intros k Hk. apply in_map_iff in Hk. destruct Hk as ([k' d] & <- & Hk). apply (inv_names _ _ _ HI) in Hk. apply (inv_plain _ _ _ HI) in Hk.
  destruct Hk as (_ & _ & a & m & Hm & Hd). apply in_flat_map. now exists (a, m).
Qed.

Section OneModule.
Context (name : string) (m : module) (Hm : In (name, m) modules) (P0 Cl : string -> Prop).
Context (Hmeans : module_means M modules n m).
Context (HP0 : forall k, P0 k -> ~ In k (def_names m)).
(* what is imported is there *)
Context (Himports : forall r, In r (import_names m) -> has_meaning M r -> P0 r).
Context (Hclasses : forall c, in_scope m c = true -> Cl c).

(* what needs no meaning: classes and parameterized definitions are kept *)
Definition kept (d : definition) : Prop := d_params d <> None \/ exists f, d_kind d = DKClass f.
Lemma resolve_one_step P st k : Inv P Cl st -> In k (def_names m) -> ~ P k -> (forall s, P0 s -> P s) ->
  (forall d r, In (k, d) (m_defs m) -> In r (assignment_refs (d_kind d)) -> In r (def_names m) -> ~ In r (import_names m) -> P r) ->
  (enough st -> (forall d, In (k, d) (m_defs m) -> has_meaning M k \/ kept d) -> exists st', resolve_one E inst fuel m st k = Ok st') /\
  (forall st', resolve_one E inst fuel m st k = Ok st' -> Inv (fun s => P s \/ s = k) Cl st').
Proof.
  intros HI Hk Hnew HP Hdeps.
  assert (Hd : exists d, lookup k (m_defs m) = Some d).
  { destruct (lookup k (m_defs m)) eqn:Hl; [eauto|]. apply lookup_none in Hl. contradiction. }
  destruct Hd as (d & Hl). pose proof (lookup_in _ _ _ Hl) as Hin.
  destruct (Hmeans k d Hin) as (HT & HV & HIds & HS & HO & HG).
  pose proof (name_of name m k d Hm Hin) as Hpl.
  assert (Himp' : forall u, In u (import_names m) -> has_meaning M u -> P u) by (intros; now apply HP, Himports).
  assert (Hscope : forall r, In r (assignment_refs (d_kind d)) -> in_scope m r = true -> has_meaning M r -> P r).
  { intros r Hr Hs Hmean. unfold in_scope in Hs. destruct (mem r (import_names m)) eqn:Hi.
    - apply Himp'; [now apply mem_in|exact Hmean].
    - rewrite orb_false_r in Hs. apply mem_in in Hs. apply mem_not_in in Hi. eapply Hdeps; eassumption. }
  (* types of this definition resolve *)
  assert (Hres : forall t T, incl (type_refs t) (assignment_refs (d_kind d)) ->
     means_in_module M modules n m t T ->
     exists rt, resolve_type E (resolved_defs st) (inst st) t = Ok rt /\ type_means E (types_of (resolved_defs st)) rt T /\ not_set rt).
  { intros t T Hrefs. apply (type_resolves P Cl st HI).
    - eapply module_sees. exact Hm.
    - eapply module_sizes; eassumption.
    - intros u Hu. apply Hscope. now apply Hrefs. }
  assert (Hvalue : forall t text lb ub ext i z, d = mkDef (DKValue t text) None ->
     means_in_module M modules n m t (TInt lb ub ext i) ->
     parse_i128 text = Some z ->
     exists rt, resolve_type E (resolved_defs st) (inst st) t = Ok rt /\
       (enough st -> exists v, resolve_value (resolved_defs st) fuel text rt = Ok v) /\
       (forall v, resolve_value (resolved_defs st) fuel text rt = Ok v -> base_integer_value v = Some z) /\
       (forall cs, t = mkType (KBuiltin BInteger) cs -> forall v, resolve_value (resolved_defs st) fuel text rt = Ok v -> v = VInteger z)).
  { intros t text lb ub ext i z -> Ht Hz. destruct (Hres t _ (incl_refl _) Ht) as (rt & Hrt & Hmn & _). exists rt. split; [exact Hrt|].
    assert (Hnot : lookup text (resolved_defs st) = None) by (eapply not_defined; [exact HI|left; congruence]). split; [|split].
    - intros Hen. refine (value_found E (resolved_defs st) (inv_nodup _ _ _ HI) text _ Hnot _ _ rt (type_chain P Cl st HI t rt Hrt) fuel Hen Hmn). cbn. congruence.
    - intros v. eapply value_int; try eassumption. apply (inv_nodup _ _ _ HI).
    - intros cs -> v Hv. cbn [resolve_type resolve_base] in Hrt. destruct (resolve_integer _ _ _) as [i'| | |]; try discriminate. injection Hrt as <-.
      destruct fuel; cbn [resolve_value] in Hv; rewrite Hnot, Hz in Hv; now injection Hv as <-. }
  assert (Hclass : forall class m' fields, In class (assignment_refs (d_kind d)) -> class_is M modules m class m' fields ->
     (forall u, mem u (assignment_refs (DKClass fields)) && in_scope m' u = true -> plain u /\ (has_meaning M u -> P u)) /\
     (forall u, import_of m' u = true -> has_meaning M u -> plain u /\ P u)).
  { intros class m' fields Hr (Hsc & Hgc & a' & Hm' & Hdc). assert (HPc : P class) by (apply Hscope; [exact Hr|exact Hsc|unfold has_meaning; tauto]).
    destruct (inv_generics _ _ _ HI class a' m' _ HPc Hgc Hm' Hdc) as [_ Hin']. cbn [d_kind] in Hin'. split.
    - intros u Hu. apply andb_true_iff in Hu. destruct Hu as [H1 H2]. split; [eapply scope_plain; eassumption|].
      intros Hmu. apply Hin'; [exact Hmu|]. left. split; [now apply mem_in|exact H2].
    - intros u Hu Hmu. split; [|apply Hin'; [exact Hmu|right; now apply mem_in]]. eapply scope_plain; [exact Hm'|]. unfold in_scope. unfold import_of in Hu. rewrite Hu. apply orb_true_r. }
  assert (Hobject : forall class fields o m' cls, d = mkDef (DKObject class (Some fields)) None -> class_is M modules m class m' cls ->
     Forall2 (field_means (means_in M modules n (import_of m) (import_of m)) (means_in_class M modules n m' cls) (restrict (import_of m) (ids M)) (is_name modules)) fields o ->
     (enough st -> exists ro, resolve_object E (resolved_defs st) (inst st) fuel (Some fields) = Ok ro) /\
     (forall ro, resolve_object E (resolved_defs st) (inst st) fuel (Some fields) = Ok ro -> object_is E (resolved_defs st) ro o)).
  { intros class fields o m' cls -> Hcl Ho. destruct (Hclass class m' cls (or_introl eq_refl) Hcl) as [Hc1 Hc2].
    refine (object_resolves P Cl st HI (import_of m) (import_of m) (import_of m) _ _ _ m' cls Hc1 Hc2 fields o Ho _).
    - intros u Hu. eapply module_sees; [exact Hm|]. unfold in_scope. unfold import_of in Hu. rewrite Hu. apply orb_true_r.
    - eapply module_sizes; eassumption.
    - intros u Hu. apply Himp'. now apply mem_in.
    - intros u _ Hu. apply Himp'. now apply mem_in. }
  assert (Hsetres : forall class root additional s m' fields, d = mkDef (DKObjectSet class root additional) None -> class_is M modules m class m' fields ->
     (sm_objects s <> [] -> class_id fields (sm_unique s)) ->
     elements_mean M modules n m m' fields (sm_unique s) (root ++ additional) (sm_objects s) -> well_identified s ->
     lookup class (classes st) = Some fields /\
     (enough st -> exists os, resolve_object_set E (resolved_defs st) (inst st) fuel (unique_field fields) (root ++ additional) = Ok os) /\
     (forall os, resolve_object_set E (resolved_defs st) (inst st) fuel (unique_field fields) (root ++ additional) = Ok os -> set_is E (resolved_defs st) os s)).
  { intros class root additional s m' fields -> Hcl Hu Hel Hwi. destruct (Hclass class m' fields (or_introl eq_refl) Hcl) as [Hc1 Hc2].
    destruct Hcl as (Hcs & _ & a & Hm' & Hcd).
    split; [eapply (inv_classes _ _ _ HI); [now apply Hclasses|exact Hm'|exact Hcd]|].
    destruct (elements_resolve P Cl st HI name m Hm Himp' m' fields Hc1 Hc2 (sm_unique s) (unique_field fields) _ _ Hel) with (pairs := @nil (robject * object_meaning)) (table := @nil (Z * string * robject)) as [R1 R2].
    - intros Hne. destruct (Hu Hne) as [Hu1 Hu2]. exact (unique_field_is fields _ Hu1 Hu2).
    - intros x Hx. apply Hscope. cbn [d_kind assignment_refs]. now right.
    - split; [constructor|]. split; [constructor|]. intros z nm o. split; [intros []|intros (ao & [] & _)].
    - cbn [map app]. apply Hwi.
    - apply Hwi.
    - split; [exact R1|]. intros os Hos. split; [exact Hwi|]. destruct (R2 os Hos) as (pairs & H1 & H2 & H3). exists pairs. split; [exact H1|]. split; [now symmetry|exact H3]. }
  unfold resolve_one. rewrite Hl. split.
  - intros Hen Hok. destruct (Hok d Hin) as [[Hs|[Hs|[Hs|[Hs|[Hs|Hs]]]]]|Hs].
    + destruct (types M k) as [T|] eqn:HTk; [|congruence]. destruct (HT T eq_refl) as (t & -> & Ht).
      cbn [d_params d_kind resolve_definition]. destruct (Hres t T (incl_refl _) Ht) as (rt & Hr & _). rewrite Hr. cbn [rbind]. eauto.
    + destruct (numbers M k) as [z|] eqn:HVk; [|congruence]. destruct (HV z eq_refl) as (cs & T & text & -> & Ht & Hz).
      cbn [d_params d_kind resolve_definition]. assert (Hint : exists lb ub ext i, T = TInt lb ub ext i) by (inversion Ht; eauto).
      destruct Hint as (lb & ub & ext & i & ->). destruct (Hvalue _ text lb ub ext i z eq_refl Ht Hz) as (rt & -> & Hv & _).
      destruct (Hv Hen) as (v & Hv'). cbn [rbind]. rewrite Hv'. cbn [rbind]. eauto.
    + destruct (ids M k) as [z|] eqn:HVk; [|congruence]. destruct (HIds z eq_refl) as (t & lb & ub & ext & i & text & -> & Ht & Hz).
      cbn [d_params d_kind resolve_definition]. destruct (Hvalue _ text lb ub ext i z eq_refl Ht Hz) as (rt & -> & Hv & _).
      destruct (Hv Hen) as (v & Hv'). cbn [rbind]. rewrite Hv'. cbn [rbind]. eauto.
    + destruct (sets M k) as [s|] eqn:HSk; [|congruence]. destruct (HS s eq_refl) as (class & root & additional & m' & fields & -> & Hc & Hu & Hel & Hwi).
      cbn [d_params d_kind resolve_definition]. destruct (Hsetres class root additional s m' fields eq_refl Hc Hu Hel Hwi) as (-> & H1 & _).
      destruct (H1 Hen) as (os & ->). cbn [rbind]. eauto.
    + destruct (objects M k) as [o|] eqn:HOk; [|congruence]. destruct (HO o eq_refl) as (class & fields & m' & cls & -> & Hc & Ho).
      cbn [d_params d_kind resolve_definition]. destruct (Hobject class fields o m' cls eq_refl Hc Ho) as [H1 _]. destruct (H1 Hen) as (ro & ->). cbn [rbind]. eauto.
    + destruct (HG Hs) as [(t & ps & ->)|(f & ->)]; cbn [d_params d_kind]; eauto.
    + destruct (d_params d) as [ps|] eqn:Hpar; [eauto|]. destruct Hs as [Hs|(f & Hs)]; [congruence|]. rewrite Hs. eauto.
  - intros st' Hst.
    assert (Hnone : (forall t, d_kind d = DKType t -> d_params d <> None) -> (forall t text, d_kind d <> DKValue t text \/ d_params d <> None) ->
       (forall c r a, d_kind d <> DKObjectSet c r a \/ d_params d <> None) -> (forall c v, d_kind d <> DKObject c v \/ d_params d <> None) ->
       types M k = None /\ numbers M k = None /\ ids M k = None /\ sets M k = None /\ objects M k = None).
    { intros N1 N2 N3 N4. repeat split.
      - destruct (types M k) as [T|]; [|reflexivity]. destruct (HT T eq_refl) as (t & -> & _). now destruct (N1 t eq_refl).
      - destruct (numbers M k) as [z|]; [|reflexivity]. destruct (HV z eq_refl) as (cs & T & text & -> & _). destruct (N2 (mkType (KBuiltin BInteger) cs) text) as [H|H]; now destruct H.
      - destruct (ids M k) as [z|]; [|reflexivity]. destruct (HIds z eq_refl) as (t & lb & ub & ext & i & text & -> & _). destruct (N2 t text) as [H|H]; now destruct H.
      - destruct (sets M k) as [z|]; [|reflexivity]. destruct (HS z eq_refl) as (class & root & additional & m' & fields & -> & _). destruct (N3 class root additional) as [H|H]; now destruct H.
      - destruct (objects M k) as [z|]; [|reflexivity]. destruct (HO z eq_refl) as (class & fields & m' & cls & -> & _). destruct (N4 class (Some fields)) as [H|H]; now destruct H. }
    destruct (d_params d) as [ps|] eqn:Hpar.
    + injection Hst as <-. destruct Hnone as (N1 & N2 & N3 & N4 & N5); try congruence; try (intros; right; discriminate).
      apply Inv_skip; try assumption.
      * intros s Hs. rewrite lookup_replace. destruct (String.eqb s k) eqn:He; [|reflexivity]. apply String.eqb_eq in He. subst s. contradiction.
      * intros Hg a m' d' Hm' Hd'. destruct (def_unique a m' name m k _ d Hm' Hm Hd' Hin) as [-> ->].
        rewrite lookup_replace, String.eqb_refl. split; [reflexivity|]. intros u Hu [[H1 H2]|H]; [|now apply Himp'].
        now apply Hscope.
      * auto.
    + assert (Hg : (forall f, d_kind d <> DKClass f) -> generics M k = false).
      { intros Hnf. destruct (generics M k) eqn:Hg; [|reflexivity]. destruct (HG eq_refl) as [(t & ps & ->)|(f & ->)]; [discriminate|]. now destruct (Hnf f). }
      assert (Hdk : d = mkDef (d_kind d) None) by (destruct d; cbn in *; congruence).
      destruct (d_kind d) as [t text|t|f|c v|c r a] eqn:Hkind.
      * (* value *) destruct (resolve_definition E inst fuel st (DKValue t text)) as [r| | |] eqn:Hr; try discriminate.
        injection Hst as <-. cbn [resolve_definition] in Hr.
        destruct (resolve_type E (resolved_defs st) (inst st) t) as [rt| | |] eqn:Hrt; try discriminate. cbn [rbind] in Hr.
        destruct (resolve_value (resolved_defs st) fuel text rt) as [v| | |] eqn:Hrv; try discriminate. injection Hr as <-.
        apply Inv_insert; try assumption; try discriminate; try (apply Hg; intros f0; discriminate). repeat split.
        -- intros T Hty. destruct (HT T Hty) as (t' & -> & _). discriminate.
        -- intros z Hz. destruct (HV z Hz) as (cs & T & text' & -> & Ht & Hpz). cbn [d_kind] in Hkind. injection Hkind as <- <-.
           assert (Hint : exists lb ub ext i, T = TInt lb ub ext i) by (inversion Ht; eauto). destruct Hint as (lb & ub & ext & i & ->).
           destruct (Hvalue _ text' lb ub ext i z eq_refl Ht Hpz) as (rt' & Hrt' & _ & _ & Hx). assert (rt' = rt) by congruence. subst rt'.
           now rewrite (Hx cs eq_refl v Hrv).
        -- intros z Hz. destruct (HIds z Hz) as (t' & lb & ub & ext & i & text' & -> & Ht & Hpz). cbn [d_kind] in Hkind. injection Hkind as -> ->.
           destruct (Hvalue _ text lb ub ext i z eq_refl Ht Hpz) as (rt' & Hrt' & _ & Hx & _). assert (rt' = rt) by congruence. subst rt'. eauto.
        -- intros z Hz. destruct (HS z Hz) as (class & root & additional & m' & fields & -> & _). discriminate.
        -- intros z Hz. destruct (HO z Hz) as (class & fields & m' & cls & -> & _). discriminate.
      * (* type *) destruct (resolve_definition E inst fuel st (DKType t)) as [r| | |] eqn:Hr; try discriminate.
        injection Hst as <-. cbn [resolve_definition] in Hr.
        destruct (resolve_type E (resolved_defs st) (inst st) t) as [rt| | |] eqn:Hrt; try discriminate. injection Hr as <-.
        apply Inv_insert; try assumption; try discriminate; try (apply Hg; intros f0; discriminate); [repeat split|].
        -- intros T Hty. destruct (HT T Hty) as (t' & -> & Ht). cbn [d_kind] in Hkind. injection Hkind as ->.
           destruct (Hres t T (incl_refl _) Ht) as (rt' & Hr' & Hmn & _). exists rt. split; [reflexivity|]. congruence.
        -- intros z Hz. destruct (HV z Hz) as (cs & T & text & -> & _). discriminate.
        -- intros z Hz. destruct (HIds z Hz) as (t' & lb & ub & ext & i & text & -> & _). discriminate.
        -- intros z Hz. destruct (HS z Hz) as (class & root & additional & m' & fields & -> & _). discriminate.
        -- intros z Hz. destruct (HO z Hz) as (class & fields & m' & cls & -> & _). discriminate.
        -- intros t0 Heq. injection Heq as <-. split; [|split].
           ++ eapply resolve_type_not_set; [|exact Hrt]. intros; eapply instantiate_not_set; eassumption.
           ++ eapply resolve_type_bound; [|exact Hrt]. intros; eapply instantiate_bound; eassumption.
           ++ exists name, m, t. split; [exact Hm|]. rewrite <- Hdk. exact Hin.
      * (* class *) injection Hst as <-. destruct Hnone as (N1 & N2 & N3 & N4 & N5); try congruence; try (intros; left; discriminate).
        apply Inv_skip; try assumption.
        -- auto.
        -- intros _ a m' d' Hm' Hd'. destruct (def_unique a m' name m k _ d Hm' Hm Hd' Hin) as [-> ->]. rewrite Hpar, Hkind.
           split; [congruence|]. intros u Hu [[H1 H2]|H]; [|now apply Himp']. now apply Hscope.
        -- intros s a m' f' Hs Hm' Hd' Hc. rewrite lookup_replace. destruct (String.eqb s k) eqn:He; [|exact Hc]. apply String.eqb_eq in He. subst s.
           destruct (def_unique a m' name m k _ d Hm' Hm Hd' Hin) as [_ Heq]. rewrite <- Heq in Hkind. cbn [d_kind] in Hkind. now injection Hkind as ->.
      * destruct (resolve_definition E inst fuel st (DKObject c v)) as [r| | |] eqn:Hr; try discriminate.
        injection Hst as <-. cbn [resolve_definition] in Hr.
        destruct (resolve_object E (resolved_defs st) (inst st) fuel v) as [ro| | |] eqn:Hro; try discriminate. injection Hr as <-.
        apply Inv_insert; try assumption; try discriminate; try (apply Hg; intros f0; discriminate). repeat split.
        -- intros T Hty. destruct (HT T Hty) as (t' & -> & _). discriminate.
        -- intros z Hz. destruct (HV z Hz) as (cs & T & text' & -> & _). discriminate.
        -- intros z Hz. destruct (HIds z Hz) as (t' & lb & ub & ext & i & text' & -> & _). discriminate.
        -- intros z Hz. destruct (HS z Hz) as (class & root & additional & m' & fields & -> & _). discriminate.
        -- intros z Hz. destruct (HO z Hz) as (class & fields & m' & cls & Heq & Hcl & Ho). exists ro. split; [reflexivity|]. pose proof Heq as Heq'.
           rewrite Heq in Hkind. cbn [d_kind] in Hkind. injection Hkind as <- <-. now apply (Hobject class fields z m' cls Heq' Hcl Ho).
      * destruct (resolve_definition E inst fuel st (DKObjectSet c r a)) as [r'| | |] eqn:Hr; try discriminate.
        injection Hst as <-. cbn [resolve_definition] in Hr.
        destruct (lookup c (classes st)) as [fields|] eqn:Hcl; try discriminate.
        destruct (resolve_object_set _ _ _ _ _ _) as [os| | |] eqn:Hos; try discriminate. injection Hr as <-.
        apply Inv_insert; try assumption; try discriminate; try (apply Hg; intros f0; discriminate). repeat split.
        -- intros T Hty. destruct (HT T Hty) as (t' & -> & _). discriminate.
        -- intros z Hz. destruct (HV z Hz) as (cs & T & text' & -> & _). discriminate.
        -- intros z Hz. destruct (HIds z Hz) as (t' & lb & ub & ext & i & text' & -> & _). discriminate.
        -- intros s Hs. destruct (HS s Hs) as (class & root & additional & m' & fields' & Heq & Hc & Hu & Hel & Hwi). exists os. split; [reflexivity|]. pose proof Heq as Heq'.
           rewrite Heq in Hkind. cbn [d_kind] in Hkind. injection Hkind as <- <- <-.
           destruct (Hsetres class root additional s m' fields' Heq' Hc Hu Hel Hwi) as (Hcl' & _ & Hx). assert (fields' = fields) by congruence. subst fields'. now apply Hx.
        -- intros z Hz. destruct (HO z Hz) as (class & fields' & m' & cls & -> & _). discriminate.
Qed.

(* ------------------------------------------------------------------ *)
(* One module                                                          *)
(* ------------------------------------------------------------------ *)
Lemma definition_edge k d r : In (k, d) (m_defs m) -> In r (assignment_refs (d_kind d)) -> ~ In r (import_names m) ->
  needs (definition_needs m) r k.
Proof.
  intros Hd Hr Hi. unfold needs, definition_needs, definitions_graph, graph_of. cbn [g_edges]. apply in_flat_map.
  exists (k, d). split; [exact Hd|]. cbn [fst snd]. apply in_map_iff. exists r. split; [reflexivity|].
  apply filter_In. split; [exact Hr|]. rewrite negb_true_iff. now apply mem_not_in.
Qed.
Definition all_fine : Prop := forall a m' k d, In (a, m') modules -> In (k, d) (m_defs m') -> has_meaning M k \/ kept d.
Lemma resolve_order_step order : sorted_definitions m order ->
  forall post pre st, order = pre ++ post -> Inv (fun s => P0 s \/ (In s pre /\ In s (def_names m))) Cl st ->
  ((List.length all_names < fuel)%nat -> all_fine -> exists st', rfold (resolve_one E inst fuel m) st post = Ok st') /\
  (forall st', rfold (resolve_one E inst fuel m) st post = Ok st' ->
     Inv (fun s => P0 s \/ (In s order /\ In s (def_names m))) Cl st').
Proof.
  intros Hso. unfold sorted_definitions in Hso.
  induction post as [|k post IH]; intros pre st Horder HI.
  - rewrite app_nil_r in Horder. subst pre. split; [cbn; eauto|]. cbn. intros st' H. injection H as <-. exact HI.
  - change (rfold (resolve_one E inst fuel m) st (k :: post)) with
      (st1 <-- resolve_one E inst fuel m st k ;; rfold (resolve_one E inst fuel m) st1 post).
    assert (Hshift : order = (pre ++ [k]) ++ post) by (rewrite <- app_assoc; exact Horder).
    destruct (in_dec string_dec k (def_names m)) as [Hk|Hk].
    + assert (Hfresh : ~ (P0 k \/ (In k pre /\ In k (def_names m)))).
      { intros [H|[H _]]; [now apply (HP0 k)|].
        pose proof (sort_nodup _ _ _ Hso) as Hnd. rewrite Horder in Hnd. apply NoDup_remove_2 in Hnd.
        apply Hnd, in_app_iff. now left. }
      destruct (resolve_one_step _ st k HI Hk Hfresh) as [Hok Hinv].
      { intros s Hs. now left. }
      { intros d r Hd Hr Hrd Hri. right. split; [|exact Hrd].
        pose proof (sort_sorted _ _ _ r k Hso) as Hb. refine (Hb _ pre post Horder).
        eapply definition_edge; eassumption. }
      assert (Hnext : forall st1, resolve_one E inst fuel m st k = Ok st1 ->
        Inv (fun s => P0 s \/ (In s (pre ++ [k]) /\ In s (def_names m))) Cl st1).
      { intros st1 H1. eapply Inv_ext; [| |exact (Hinv _ H1)]; [|auto]. intros s. rewrite in_app_iff. cbn [In]. split.
        - intros [[H|[H H']]| ->]; tauto.
        - intros [H|[[H|[->|[]]] H']]; tauto. }
      split.
      * intros Hfuel Hall. destruct Hok as (st1 & H1).
        { unfold enough. pose proof (Inv_length _ _ _ HI). lia. }
        { intros d Hd. eapply Hall; eassumption. }
        rewrite H1. cbn [rbind].
        destruct (IH (pre ++ [k]) st1 Hshift (Hnext _ H1)) as [IH1 _]. now apply IH1.
      * intros st' H. destruct (resolve_one E inst fuel m st k) as [st1| | |] eqn:H1; try discriminate. cbn [rbind] in H.
        destruct (IH (pre ++ [k]) st1 Hshift (Hnext _ eq_refl)) as [_ IH2]. now apply IH2.
    + assert (H1 : resolve_one E inst fuel m st k = Ok st).
      { unfold resolve_one. now replace (lookup k (m_defs m)) with (@None definition) by (symmetry; now apply lookup_none). }
      rewrite H1. cbn [rbind]. apply (IH (pre ++ [k]) st Hshift).
      eapply Inv_ext; [| |exact HI]; [|auto]. intros s. rewrite in_app_iff. cbn [In]. split; [tauto|].
      intros [H|[[H|[->|[]]] H']]; tauto.
Qed.
End OneModule.

Lemma add_classes_keeps P Cl name m st : In (name, m) modules -> Inv P Cl st ->
  Inv P (fun s => Cl s \/ In s (def_names m)) (add_classes m st).
Proof.
  intros Hm HI. unfold add_classes.
  assert (Hnd : NoDup (map fst (m_defs m))).
  { destruct Hnamed as (_ & H & _). exact (nodup_flat_part (fun nm : string * module => def_names (snd nm)) modules (name, m) H Hm). }
  set (f := fun cs kd => _). assert (Hfold : forall l cs, NoDup (map fst l) ->
    (forall k, ~ In k (map fst l) -> lookup k (fold_left f l cs) = lookup k cs) /\
    (forall k fs ps, In (k, mkDef (DKClass fs) ps) l -> lookup k (fold_left f l cs) = Some fs) /\
    (forall k, (forall fs ps, ~ In (k, mkDef (DKClass fs) ps) l) -> lookup k (fold_left f l cs) = lookup k cs)).
  { induction l as [|[k d] l IH]; intros cs Hn; [split; [reflexivity|split; [intros ? ? ? []|reflexivity]]|]. cbn [map fst] in Hn. inversion_clear Hn as [|? ? Hnk Hn'].
    cbn [fold_left]. destruct (IH (f cs (k, d)) Hn') as (I1 & I2 & I3).
    assert (Hother : forall x, x <> k -> lookup x (f cs (k, d)) = lookup x cs).
    { intros x Hx. unfold f. cbn [fst snd]. destruct (d_kind d); try reflexivity. rewrite lookup_replace. apply String.eqb_neq in Hx. now rewrite Hx. }
    split; [|split].
    - intros x Hx. cbn [map fst In] in Hx. rewrite I1 by tauto. apply Hother. intros ->. tauto.
    - intros x fs ps [Heq|Hin]; [|eapply I2; exact Hin]. injection Heq as -> ->. rewrite I1 by exact Hnk. unfold f. cbn [fst snd d_kind].
      rewrite lookup_replace, String.eqb_refl. reflexivity.
    - intros x Hx. rewrite I3 by (intros fs ps Hc; apply (Hx fs ps); now right). destruct (string_dec x k) as [->|Hne]; [|now apply Hother].
      unfold f. cbn [fst snd]. destruct (d_kind d) as [| |fs| |] eqn:Hkd; try reflexivity. exfalso. apply (Hx fs (d_params d)). left. destruct d; cbn in *; congruence. }
  destruct (Hfold (m_defs m) (classes st) Hnd) as (F1 & F2 & _). destruct HI as [I1 I2 I3 I4 I5 I6 I7 I8 I9 I10 I11 I12 I13].
  constructor; cbn [resolved_defs parameterized_defs classes]; try assumption.
  intros k a m' fs Hk Hm' Hd. destruct (in_dec string_dec k (def_names m)) as [Hin|Hin].
  - apply in_def_names in Hin. destruct Hin as (d & Hd'). destruct (def_unique a m' name m k _ d Hm' Hm Hd Hd') as [-> <-]. eapply F2. exact Hd'.
  - rewrite F1 by exact Hin. eapply I7; [|exact Hm'|exact Hd]. tauto.
Qed.
End Modules.

(* ------------------------------------------------------------------ *)
(* All modules                                                         *)
(* ------------------------------------------------------------------ *)
Section Compile.
Context (E : env) (depth fuel : nat) (M : meaning) (modules : list (string * module)) (n : nat) (orders : list (string * list string)).
Context (Hdepth : (n <= depth)%nat) (Hnamed : well_named modules) (Himp : imports_defined modules).
Context (Hmeans : forall a m, In (a, m) modules -> module_means M modules n m).
Context (Hacyc : not_recursive M modules).
Context (Hord : valid_orders modules orders).
Notation inst := (instantiate E depth).

Let done (pre : list (string * list string)) (s : string) : Prop :=
  exists n o m, In (n, o) pre /\ In (n, m) modules /\ In s o /\ In s (def_names m).
Let loaded (pre : list (string * list string)) (s : string) : Prop :=
  exists n o m, In (n, o) pre /\ In (n, m) modules /\ In s (def_names m).
Let step := fun st no => match lookup (fst no) modules with None => Panic | Some m => resolve_module E inst fuel m (snd no) st end.

Lemma order_of_module a m : In (a, m) modules -> (exists k, In k (def_names m) /\ has_meaning M k) -> exists o, In (a, o) orders.
Proof.
  intros Hin (k & Hk & Hs). destruct Hord as [Hm _]. unfold sorted_modules, modules_graph in Hm.
  assert (In a (map fst orders)).
  { apply (sort_exactly _ _ _ _ Hm). split; [apply graph_nodes; left; apply in_map_iff; now exists (a, m)|].
    destruct (Hacyc a m k Hin Hk Hs) as [Hg _]. now apply grounded_acc in Hg. }
  apply in_map_iff in H. destruct H as ([n' o] & <- & H). now exists o.
Qed.
Lemma name_in_order a m o k : In (a, m) modules -> In (a, o) orders -> In k (def_names m) -> has_meaning M k -> In k o.
Proof.
  intros Hin Ho Hk Hs. destruct Hord as [_ Hf]. rewrite Forall_forall in Hf.
  specialize (Hf _ Ho m). cbn [fst snd] in Hf.
  assert (Hl : lookup a modules = Some m) by (apply lookup_nodup; [apply Hnamed|exact Hin]).
  specialize (Hf Hl). unfold sorted_definitions, definitions_graph in Hf.
  apply (sort_exactly _ _ _ _ Hf). split; [apply graph_nodes; now left|].
  destruct (Hacyc a m k Hin Hk Hs) as [_ Hg]. apply grounded_acc in Hg. exact Hg.
Qed.

Lemma modules_step : forall post pre st, orders = pre ++ post -> Inv E M modules (done pre) (loaded pre) st ->
  ((List.length (all_names modules) < fuel)%nat -> all_fine M modules -> exists st', rfold step st post = Ok st') /\
  (forall st', rfold step st post = Ok st' -> Inv E M modules (done orders) (loaded orders) st').
Proof.
  induction post as [|[a o] post IH]; intros pre st Horders HI.
  - rewrite app_nil_r in Horders. rewrite Horders. split; [cbn; eauto|]. cbn. intros st' H. injection H as <-. exact HI.
  - change (rfold step st ((a, o) :: post)) with (st1 <-- step st (a, o) ;; rfold step st1 post).
    assert (Hshift : orders = (pre ++ [(a, o)]) ++ post) by (rewrite <- app_assoc; exact Horders).
    assert (Hin_o : In (a, o) orders) by (rewrite Horders; apply in_app_iff; right; now left).
    assert (Hnd : NoDup (map fst orders)).
    { destruct Hord as [Hm _]. eapply sort_nodup. exact Hm. }
    assert (Hmod : exists m, In (a, m) modules).
    { destruct Hord as [Hm _]. assert (Hn : In a (map fst orders)) by (apply in_map_iff; now exists (a, o)).
      apply (sort_exactly _ _ _ _ Hm) in Hn. destruct Hn as [Hn _]. apply graph_nodes in Hn.
      destruct Hn as [Hn|[Hn|Hn]].
      - apply in_map_iff in Hn. destruct Hn as ([n' m] & <- & Hn). now exists m.
      - apply in_map_iff in Hn. destruct Hn as ([x b] & <- & Hn). apply in_flat_map in Hn. destruct Hn as ([n1 m1] & H1 & Hn).
        cbn [fst snd] in Hn. apply in_map_iff in Hn. destruct Hn as ([r n2] & He & Hn). injection He as <- <-.
        destruct (Himp n1 m1 r n2 H1 Hn) as (m' & Hm' & _). now exists m'.
      - apply in_map_iff in Hn. destruct Hn as ([x b] & <- & Hn). apply in_flat_map in Hn. destruct Hn as ([n1 m1] & H1 & Hn).
        cbn [fst snd] in Hn. apply in_map_iff in Hn. destruct Hn as ([r n2] & He & Hn). injection He as <- <-. now exists m1. }
    destruct Hmod as (m & Hm).
    assert (Hl : lookup a modules = Some m) by (apply lookup_nodup; [apply Hnamed|exact Hm]).
    assert (Hstep : step st (a, o) = resolve_module E inst fuel m o st) by (unfold step; cbn [fst snd]; now rewrite Hl).
    pose proof Hnamed as (Hmods & Hdefs & Hpl).
    assert (Hnot : ~ In a (map fst pre)).
    { rewrite Horders, map_app in Hnd. cbn [map fst] in Hnd. apply NoDup_remove_2 in Hnd. intros H. apply Hnd, in_app_iff. now left. }
    assert (Hbefore : forall r n', In (r, n') (m_imports m) -> exists o1 m', In (n', o1) pre /\ In (n', m') modules /\ In r (def_names m')).
    { intros r n' Hr. destruct (Himp a m r n' Hm Hr) as (m' & Hm' & Hd).
      assert (Hb : before n' a (map fst orders)).
      { destruct Hord as [Hms _]. eapply sort_sorted; [exact Hms|]. unfold needs. apply in_flat_map. exists (a, m). split; [exact Hm|].
        cbn [fst snd]. apply in_map_iff. exists (r, n'). now split. }
      rewrite Horders, map_app in Hb. specialize (Hb _ _ eq_refl). apply in_map_iff in Hb. destruct Hb as ([n1 o1] & Heq & Hb).
      cbn [fst] in Heq. subst n1. now exists o1, m'. }
    destruct (resolve_order_step E depth fuel M modules n Hdepth Hnamed Himp a m Hm (done pre) (fun s => loaded pre s \/ In s (def_names m))) with
      (order := o) (post := o) (pre := @nil string) (st := add_classes m st) as [Hok Hinv].
    + eapply Hmeans, Hm.
    + intros k (n1 & o1 & m1 & H1 & H2 & H3 & H4) Hk.
      pose proof (nodup_flat (fun nm : string * module => def_names (snd nm)) modules (n1, m1) (a, m) k Hdefs H2 Hm H4 Hk) as Heq.
      injection Heq as -> ->. apply Hnot, in_map_iff. now exists (a, o1).
    + intros r Hr Hs. apply in_map_iff in Hr. destruct Hr as ([r' n'] & <- & Hr). cbn [fst] in *.
      destruct (Hbefore r' n' Hr) as (o1 & m' & Hb & Hm' & Hd). exists n', o1, m'. split; [exact Hb|]. split; [exact Hm'|]. split; [|exact Hd].
      eapply name_in_order; [exact Hm'| |exact Hd|exact Hs]. rewrite Horders. apply in_app_iff. now left.
    + intros c Hc. unfold in_scope in Hc. apply orb_true_iff in Hc. destruct Hc as [Hc|Hc]; apply mem_in in Hc; [now right|left].
      apply in_map_iff in Hc. destruct Hc as ([r' n'] & <- & Hr). cbn [fst] in *.
      destruct (Hbefore r' n' Hr) as (o1 & m' & Hb & Hm' & Hd). now exists n', o1, m'.
    + destruct Hord as [_ Hf]. rewrite Forall_forall in Hf. exact (Hf _ Hin_o m Hl).
    + reflexivity.
    + eapply Inv_ext; [| |exact (add_classes_keeps E M modules Hnamed _ _ a m st Hm HI)]; [|auto]. intros s. cbn [In]. tauto.
    + assert (Hnext : forall st1, resolve_module E inst fuel m o st = Ok st1 -> Inv E M modules (done (pre ++ [(a, o)])) (loaded (pre ++ [(a, o)])) st1).
      { intros st1 H1. eapply Inv_ext; [| |exact (Hinv _ H1)].
        - intros s. split.
          + intros [(n1 & o1 & m1 & H2 & H3)|[H2 H3]].
            * exists n1, o1, m1. split; [apply in_app_iff; now left|exact H3].
            * exists a, o, m. split; [apply in_app_iff; right; now left|now repeat split].
          + intros (n1 & o1 & m1 & H2 & H3 & H4 & H5). apply in_app_iff in H2. destruct H2 as [H2|[H2|[]]].
            * left. exists n1, o1, m1. now repeat split.
            * injection H2 as <- <-. right. split; [exact H4|].
              replace m with m1; [exact H5|]. apply (lookup_nodup a m1 modules Hmods) in H3. congruence.
        - intros s (n1 & o1 & m1 & H2 & H3 & H4). apply in_app_iff in H2. destruct H2 as [H2|[H2|[]]].
          + left. now exists n1, o1, m1.
          + injection H2 as <- <-. right. replace m with m1; [exact H4|]. apply (lookup_nodup a m1 modules Hmods) in H3. congruence. }
      rewrite Hstep. split.
      * intros Hfuel Hall. destruct Hok as (st1 & H1); [exact Hfuel|exact Hall|]. change (resolve_module E inst fuel m o st = Ok st1) in H1. rewrite H1. cbn [rbind].
        destruct (IH (pre ++ [(a, o)]) st1 Hshift (Hnext _ H1)) as [IH1 _]. now apply IH1.
      * intros st' H. destruct (resolve_module E inst fuel m o st) as [st1| | |] eqn:H1; try discriminate. cbn [rbind] in H.
        destruct (IH (pre ++ [(a, o)]) st1 Hshift (Hnext _ eq_refl)) as [_ IH2]. now apply IH2.
Qed.
Lemma Inv_start : Inv E M modules (done []) (loaded []) new_resolver.
Proof.
  constructor; cbn [new_resolver resolved_defs]; intros; repeat match goal with
    | H : done [] _ |- _ => destruct H as (? & ? & ? & [] & _)
    | H : loaded [] _ |- _ => destruct H as (? & ? & ? & [] & _)
    | H : In _ [] |- _ => destruct H
    end.
  constructor.
Qed.
Lemma imports_ok : resolve_imports modules = Ok tt.
Proof.
  unfold resolve_imports. replace (forallb _ modules) with true; [reflexivity|]. symmetry.
  apply forallb_forall. intros [a m] Hm. apply forallb_forall. intros [r n'] Hr. apply mem_in. cbn [fst snd] in *.
  destruct (Himp a m r n' Hm Hr) as (m' & Hm' & _). apply in_map_iff. now exists (n', m').
Qed.
Lemma meaning_done a m k : In (a, m) modules -> In k (def_names m) -> has_meaning M k -> done orders k.
Proof.
  intros Hm Hk Hs. destruct (order_of_module a m Hm) as (o & Ho); [eauto|].
  exists a, o, m. split; [exact Ho|]. split; [exact Hm|]. split; [|exact Hk]. eapply name_in_order; eassumption.
Qed.

(* What is generated for a definition with a meaning has that meaning. *)
Theorem compile_correct prog : compile E inst fuel modules orders = Ok prog ->
  forall a m k T, In (a, m) modules -> In k (def_names m) -> types M k = Some T -> name_means prog (to_type_ident k) T.
Proof.
  intros H a m k T Hm Hk HT. unfold compile, resolve_modules in H. rewrite imports_ok in H. cbn [rbind] in H.
  destruct (resolve_in_order E inst fuel modules orders) as [st| | |] eqn:Hst; try discriminate. cbn [rbind] in H.
  destruct (modules_step orders [] new_resolver eq_refl Inv_start) as [_ Hinv]. specialize (Hinv st Hst).
  destruct (inv_types _ _ _ _ _ _ Hinv k T) as (rt & Hl & Hmn); [|exact HT|].
  { eapply meaning_done; [exact Hm|exact Hk|left; congruence]. }
  change (types_of (resolved_defs st)) with (resolved_types st) in Hmn.
  eapply generate_correct; [exact H| | |exact Hmn].
  - intros k' t' Hin. apply types_of_spec in Hin. eapply (inv_set _ _ _ _ _ _ Hinv); eassumption.
  - apply types_of_spec. now apply lookup_in.
Qed.
(* If every definition has a meaning, or is a class or parameterized, the
   compiler succeeds. *)
Theorem compile_total : (List.length (all_names modules) < fuel)%nat -> all_fine M modules ->
  exists prog, compile E inst fuel modules orders = Ok prog.
Proof.
  intros Hfuel Hall. unfold compile, resolve_modules. rewrite imports_ok. cbn [rbind].
  destruct (modules_step orders [] new_resolver eq_refl Inv_start) as [Hok Hinv].
  destruct (Hok Hfuel Hall) as (st & Hst). change (resolve_in_order E inst fuel modules orders = Ok st) in Hst. rewrite Hst. cbn [rbind].
  specialize (Hinv st Hst). apply generate_total. intros k t Hin.
  apply types_of_spec in Hin. pose proof (inv_names _ _ _ _ _ _ Hinv k _ Hin) as Hd.
  pose proof (Inv_lookup _ _ _ _ _ _ _ _ Hinv Hin) as Hl.
  destruct (inv_kind _ _ _ _ _ _ Hinv k t Hin) as (a & m & t0 & Hm & Hdef).
  destruct (Hmeans a m Hm k _ Hdef) as (_ & _ & _ & _ & _ & HG).
  destruct (Hall a m k _ Hm Hdef) as [[H|[H|[H|[H|[H|H]]]]]|[H|(f & H)]].
  - destruct (types M k) as [T|] eqn:HT; [|congruence]. destruct (inv_types _ _ _ _ _ _ Hinv k T Hd HT) as (rt & Hl' & Hmn). rewrite Hl in Hl'. injection Hl' as ->. now exists T.
  - destruct (numbers M k) as [z|] eqn:HV; [|congruence]. pose proof (inv_values _ _ _ _ _ _ Hinv k z Hd HV) as Hkn. unfold known in Hkn. rewrite Hl in Hkn. discriminate.
  - destruct (ids M k) as [z|] eqn:HV; [|congruence]. destruct (inv_ids _ _ _ _ _ _ Hinv k z Hd HV) as (v & Hl' & _). congruence.
  - destruct (sets M k) as [z|] eqn:HV; [|congruence]. destruct (inv_sets _ _ _ _ _ _ Hinv k z Hd HV) as (v & Hl' & _). congruence.
  - destruct (objects M k) as [z|] eqn:HV; [|congruence]. destruct (inv_objects _ _ _ _ _ _ Hinv k z Hd HV) as (v & Hl' & _). congruence.
  - destruct (HG H) as [(t1 & ps & Heq)|(f & Heq)]; discriminate.
  - now destruct H.
  - discriminate.
Qed.
End Compile.
