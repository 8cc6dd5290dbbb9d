(* What the resolver and the generator make of a type has the shape of
   ShapeSpec. *)
From Coq Require Import ZArith NArith List Bool String Ascii Lia.
From Coq Require Import ZifyBool ZifyNat ZifyN.
Require Import Verif.Base Verif.Asn1Model Verif.GenModel Verif.ResolveModel Verif.TokenModel Verif.ParserModel Verif.ModuleModel Verif.DefinitionModel
  Verif.CompilerSpec Verif.GenProofs Verif.ObjectProofs Verif.ResolveProofs Verif.ModuleProofs Verif.ShapeSpec.
Require Verif.ParamSpec Verif.ParamProofs.
Import ListNotations.
Open Scope string_scope.
Open Scope list_scope.
Open Scope Z_scope.

(* ------------------------------------------------------------------ *)
(* Induction over the components of types                              *)
(* ------------------------------------------------------------------ *)
Section AsnInd.
Context (P : asn_type -> Prop).
Context (H_builtin : forall b cs, P (mkType (KBuiltin b) cs)) (H_ref : forall r cs, P (mkType (KReference r) cs))
  (H_ch : forall root adds cs, Forall (fun c => P (snd c)) root ->
     (forall gs, adds = Some gs -> Forall (Forall (fun c => P (snd c))) gs) -> P (mkType (KChoice root adds) cs))
  (H_seq : forall root adds ext cs, Forall (fun c => P (comp_ty c)) root -> P (mkType (KSequence root adds ext) cs))
  (H_of : forall size t cs, P t -> P (mkType (KSequenceOf size t) cs))
  (H_set : forall cs, P (mkType KSet cs)) (H_setof : forall cs, P (mkType KSetOf cs)).
Fixpoint asn_ind' (t : asn_type) : P t :=
  let alts := fix go (l : list (string * asn_type)) : Forall (fun c => P (snd c)) l :=
    match l with [] => Forall_nil _ | p :: r => Forall_cons p (match p as p0 return P (snd p0) with (_, x) => asn_ind' x end) (go r) end in
  match t with
  | mkType (KBuiltin b) cs => H_builtin b cs
  | mkType (KReference r) cs => H_ref r cs
  | mkType (KChoice root adds) cs => H_ch root adds cs (alts root)
      match adds as a return forall gs, a = Some gs -> Forall (Forall (fun c => P (snd c))) gs with
      | None => fun gs H => False_ind _ (eq_ind None (fun o => match o with None => True | Some _ => False end) I (Some gs) H)
      | Some g0 => fun gs H =>
          eq_ind (Some g0) (fun o => match o with Some gs => Forall (Forall (fun c => P (snd c))) gs | None => True end)
            ((fix gg (l : list (list (string * asn_type))) : Forall (Forall (fun c => P (snd c))) l :=
                match l with [] => Forall_nil _ | g :: r => Forall_cons g (alts g) (gg r) end) g0) (Some gs) H
      end
  | mkType (KSequence root adds ext) cs => H_seq root adds ext cs
      ((fix go (l : list seq_component) : Forall (fun c => P (comp_ty c)) l :=
          match l with
          | [] => Forall_nil _
          | c :: r => Forall_cons c (match c as c0 return P (comp_ty c0) with mkSeqComp _ x _ _ => asn_ind' x end) (go r)
          end) root)
  | mkType (KSequenceOf size t) cs => H_of size t cs (asn_ind' t)
  | mkType KSet cs => H_set cs
  | mkType KSetOf cs => H_setof cs
  end.
End AsnInd.

Scheme shaped_mut := Minimality for shaped Sort Prop
  with called_mut := Minimality for called Sort Prop
  with alternatives_mut := Minimality for alternatives Sort Prop
  with components_mut := Minimality for components Sort Prop
  with class_fields_mut := Minimality for class_fields Sort Prop
  with open_variants_mut := Minimality for open_variants Sort Prop.

Lemma rmap_forall {A B} (f : A -> res B) : forall l l', rmap f l = Ok l' -> Forall2 (fun a b => f a = Ok b) l l'.
Proof.
  induction l as [|a l IH]; intros l' H; cbn [rmap] in H; [injection H as <-; constructor|].
  change (rmap f (a :: l)) with (x <-- f a ;; r <-- rmap f l ;; Ok (x :: r)) in H.
  destruct (f a) as [x| | |] eqn:D; try discriminate. cbn [rbind] in H.
  destruct (rmap f l) as [r| | |]; try discriminate. injection H as <-. constructor; [exact D|now apply IH].
Qed.

Lemma forall2_length {A B} (P : A -> B -> Prop) l r : Forall2 P l r -> List.length r = List.length l.
Proof. induction 1; cbn; congruence. Qed.

Section Shapes.
Context (E : env) (modules : list (string * module)) (prog : list (string * gdef)).

(* what is generated from the resolved type rt has the shape of t *)
Definition fits (t : asn_type) (rt : rtype) : Prop :=
  (forall p s d s', generate_for_type E rt p s = Ok (d, s') -> incl (aux_items s') prog -> shaped modules prog p t d) /\
  (forall p s n s', name_maybe_aux (generate_for_type E rt) rt (Some p) s = Ok (n, s') -> incl (aux_items s') prog -> called modules prog p t n).

Lemma pushed nm d s s' (u : unit) : push_aux (nm, d) s = Ok (u, s') -> incl (aux_items s') prog ->
  In (nm, d) prog /\ incl (aux_items s) prog.
Proof.
  intros Hp Hi. unfold push_aux in Hp. injection Hp as _ <-. cbn in Hi. split.
  - apply Hi, in_app_iff. right. now left.
  - intros x Hx. apply Hi, in_app_iff. now left.
Qed.
Lemma maybe_base rt base input s n s' : aux_base_name rt = Some base ->
  name_maybe_aux (generate_for_type E rt) rt input s = Ok (n, s') -> incl (aux_items s') prog ->
  exists c d s1 s2, n = to_type_ident (base ++ " " ++ decimal c) /\ In (n, d) prog /\
    generate_for_type E rt (base ++ " " ++ decimal c) s1 = Ok (d, s2) /\ incl (aux_items s2) prog.
Proof.
  intros Hb H Hin. destruct rt; try discriminate; unfold name_maybe_aux in H; rewrite Hb in H; gsteps;
    (match goal with Hp : push_aux _ _ = Ok _ |- _ => apply pushed in Hp; [|exact Hin]; destruct Hp as [Hi1 Hi2] end);
    match goal with Hu : get_unique_name _ _ = Ok _ |- _ => unfold get_unique_name in Hu; injection Hu as <- <- end; exists (counter s + 1)%N; do 3 eexists;
    (split; [reflexivity|]); (split; [exact Hi1|]); (split; [eassumption|exact Hi2]).
Qed.
Definition made (rt : rtype) : Prop := match rt with RChoice _ _ | RSequence _ _ | RSequenceOf _ _ => True | _ => False end.
Lemma maybe_made rt p s n s' : made rt ->
  name_maybe_aux (generate_for_type E rt) rt (Some p) s = Ok (n, s') -> incl (aux_items s') prog ->
  exists d s1 s2, n = to_type_ident p /\ In (n, d) prog /\ generate_for_type E rt p s1 = Ok (d, s2) /\ incl (aux_items s2) prog.
Proof.
  intros Hm H Hin. destruct rt; try destruct Hm; unfold name_maybe_aux in H; cbn [aux_base_name] in H; gsteps;
    (match goal with Hp : push_aux _ _ = Ok _ |- _ => apply pushed in Hp; [|exact Hin]; destruct Hp as [Hi1 Hi2] end); eauto 10.
Qed.
Lemma fits_base b cs rt : aux_base_name rt = Some (base_name b) ->
  (forall p s d s', generate_for_type E rt p s = Ok (d, s') -> shaped modules prog p (mkType (KBuiltin b) cs) d) ->
  (forall p q s, generate_for_type E rt p s = generate_for_type E rt q s) ->
  fits (mkType (KBuiltin b) cs) rt.
Proof.
  intros Hb Hs Hp. split; [eauto|]. intros p s n s' H Hin.
  destruct (maybe_base _ _ _ _ _ _ Hb H Hin) as (c & d & s1 & s2 & -> & Hd & Hg & _).
  apply C_base with (d := d); [exact Hd|]. rewrite (Hp _ p) in Hg. eauto.
Qed.
Lemma fits_made t rt : made rt -> constructed t ->
  (forall p s d s', generate_for_type E rt p s = Ok (d, s') -> incl (aux_items s') prog -> shaped modules prog p t d) -> fits t rt.
Proof.
  intros Hm Hc Hs. split; [exact Hs|]. intros p s n s' H Hin.
  destruct (maybe_made _ _ _ _ _ Hm H Hin) as (d & s1 & s2 & -> & Hd & Hg & Hi). eapply C_constructed; eauto.
Qed.

(* ------------------------------------------------------------------ *)
(* The loops of the generator                                          *)
(* ------------------------------------------------------------------ *)
Lemma choice_fits x p : forall l rl, Forall2 (fun c rc => fst c = fst rc /\ fits (snd c) (snd rc)) l rl ->
  forall i s vs s', choice_tokens E p x i rl s = Ok (vs, s') -> incl (aux_items s') prog -> alternatives modules prog p x i l vs.
Proof.
  intros l rl H. induction H as [|[id t] [id' rt] l rl [Hid [_ Hc]] _ IH]; intros i s vs s' Hg Hin.
  - cbn in Hg. gsteps. constructor.
  - cbn [fst snd] in *. subst id'. rewrite choice_tokens_cons in Hg. gsteps. constructor.
    + eapply Hc; [eassumption|]. eapply grows_incl; [|exact Hin].
      eapply Grows_choice_tokens in H0; [exact H0|]. apply Forall_forall. intros. apply generate_grows.
    + eapply IH; eassumption.
Qed.
Definition rc_like (c : seq_component) (rc : rcomp) : Prop :=
  rc_id rc = comp_id c /\ rc_optional rc = comp_optional c /\ rc_key rc = false /\ fits (comp_ty c) (rc_ty rc).
Lemma sequence_fits p : forall l rl, Forall2 rc_like l rl ->
  forall i s r s', seq_tokens E p i rl s = Ok (r, s') -> incl (aux_items s') prog -> components modules prog p i l (fst r) /\ snd r = i + zlen (filter comp_optional l).
Proof.
  intros l rl H. induction H as [|[id t o d] [id' rt o' k'] l rl (Hid & Ho & Hk & [_ Hc]) _ IH]; intros i s r s' Hg Hin.
  - cbn in Hg. gsteps. split; [constructor|cbn; unfold zlen; cbn; lia].
  - cbn [rc_id rc_optional rc_key rc_ty comp_id comp_optional comp_ty] in *. subst id' o' k'. rewrite seq_tokens_cons in Hg. gsteps. cbn [fst].
    assert (Hn : called modules prog (p ++ to_type_ident id) t x).
    { eapply Hc; [eassumption|]. eapply grows_incl; [|exact Hin].
      eapply Grows_seq_tokens in H0; [exact H0|]. apply Forall_forall. intros. apply generate_grows. }
    destruct (IH _ _ _ _ H0 Hin) as [H1 H2]. rewrite H2. unfold zlen. cbn [filter comp_optional].
    destruct o; (split; [first [apply P_optional|apply P_mandatory]; assumption|cbn [List.length snd]; lia]).
Qed.

(* ------------------------------------------------------------------ *)
(* Objects                                                             *)
(* ------------------------------------------------------------------ *)
Definition field_fits (f : string * object_field) (rf : string * rfield) : Prop :=
  fst f = fst rf /\
  match snd f, snd rf with
  | OFType None, RFType None => True
  | OFType (Some t), RFType (Some rt) => fits t rt
  | OFValue t v, RFValue rt rv => fits t rt /\ forall s, rv = Some (VReference s) -> v = Some s
  | _, _ => False
  end.
Definition object_fits (fs : list (string * object_field)) (o : robject) : Prop := Forall2 field_fits fs o.
Lemma object_lookup fs o f rf : object_fits fs o -> lookup f o = Some rf -> exists a, lookup f fs = Some a /\ field_fits (f, a) (f, rf).
Proof.
  intros H. induction H as [|[k a] [k' b] fs o Hf _ IH]; [discriminate|]. pose proof Hf as [Hk Hf']. cbn [fst snd] in Hk. subst k'.
  cbn [lookup]. destruct (String.eqb f k) eqn:D; [|exact IH]. intros H1. injection H1 as ->. exists a. split; [reflexivity|].
  apply String.eqb_eq in D. now subst k.
Qed.

(* The objects of the resolved set os are objects of S. *)
Definition entry_of (S : string) (e : Z * string * robject) : Prop :=
  match e with (_, nm, o) => exists fs u tu, object_of modules S fs /\ object_fits fs o /\ lookup u fs = Some (OFValue tu (Some nm)) end.
Definition set_fits (S : string) (os : robject_set) : Prop :=
  Forall (fun o => exists fs, object_of modules S fs /\ object_fits fs o) (os_elements os) /\
  Forall (entry_of S) (os_lookup os) /\
  (os_elements os = [] -> no_object modules S).

Definition open_entry (S f : string) (e : string * Z * rtype) : Prop :=
  match e with (nm, _, rt) => exists r obj u tu t, rt = RReference r /\ object_of modules S obj /\ lookup u obj = Some (OFValue tu (Some nm)) /\
    lookup f obj = Some (OFType (Some t)) /\ fits t rt end.
Lemma einsert_forall (P : string * Z * rtype -> Prop) e : forall l, P e -> Forall P l -> Forall P (einsert e l).
Proof.
  induction l as [|x l IH]; intros He Hl; cbn [einsert]; [now repeat constructor|]. inversion_clear Hl.
  destruct (entry_eqb _ _); [now constructor|]. destruct (entry_ltb _ _); constructor; auto.
Qed.
Lemma open_types_fit S os f : set_fits S os -> Forall (open_entry S f) (open_types f os).
Proof.
  intros (_ & Hl & _). unfold open_types. assert (H0 : Forall (open_entry S f) []) by constructor. revert H0. generalize (@nil (string * Z * rtype)).
  induction Hl as [|[[z nm] o] l He Hl IH]; intros acc Hacc; cbn [fold_left]; [exact Hacc|]. apply IH.
  destruct (lookup f o) as [[[rt|]|]|] eqn:D; try exact Hacc. destruct rt; try exact Hacc. apply einsert_forall; [|exact Hacc].
  destruct He as (fs & u & tu & H1 & H2 & H3). destruct (object_lookup _ _ _ _ H2 D) as (a & Ha & [_ Hf]). cbn [snd] in Hf.
  destruct a as [[t|]|]; try contradiction. cbn [open_entry]. eauto 12.
Qed.
Lemma open_fits S f : forall l, Forall (open_entry S f) l -> forall s vs s', set_tokens E l s = Ok (vs, s') ->
  incl (aux_items s') prog -> open_variants modules prog S f vs.
Proof.
  intros l H. induction H as [|[[nm z] rt] l He _ IH]; intros s vs s' Hg Hin; [cbn in Hg; gsteps; constructor|].
  rewrite set_tokens_cons in Hg. gsteps. destruct He as (r & obj & u & tu & t & -> & Ho & Hu & Hf & [_ Hc]).
  cbn [name_maybe_aux] in H. gsteps.
  eapply (V_cons modules prog S f obj u tu nm t "" (to_type_ident r)); [exact Ho|exact Hu|exact Hf| |eapply IH; eassumption].
  eapply (Hc "" s (to_type_ident r) s); [reflexivity|]. eapply grows_incl; [|exact Hin].
  eapply Grows_set_tokens in H0; [exact H0|]. apply Forall_forall. intros. apply generate_grows.
Qed.

(* ------------------------------------------------------------------ *)
(* SEQUENCEs of class fields                                           *)
(* ------------------------------------------------------------------ *)
Inductive class_like (S : string) : list seq_component -> list rcomp -> Prop :=
| Cl_nil : class_like S [] []
| Cl_value id cl f c more o d l rl obj t v rt : object_of modules S obj -> lookup f obj = Some (OFValue t v) -> fits t rt -> class_like S l rl ->
    class_like S (mkSeqComp id (mkType (KReference (RefClassField cl f)) (Some (c :: more))) o d :: l)
      (mkRComp id rt false (negb (has_comp_reference c)) :: rl)
| Cl_open id cl f cs o d l rl setref types : Forall (open_entry S f) types -> class_like S l rl ->
    class_like S (mkSeqComp id (mkType (KReference (RefClassField cl f)) cs) o d :: l) (mkRComp id (RSet setref types) false false :: rl)
| Cl_other id t o d l rl : (forall cl f cs, t <> mkType (KReference (RefClassField cl f)) cs) -> class_like S l rl ->
    class_like S (mkSeqComp id t o d :: l) rl.
Lemma class_like_tokens S p l rl : class_like S l rl -> forall i s r s', seq_tokens E p i rl s = Ok (r, s') -> incl (aux_items s') prog ->
  class_fields modules prog p S l (fst r) /\ snd r = i.
Proof.
  induction 1 as [|id cl f c more o d l rl obj t v rt Ho Hf [_ Hc] _ IH|id cl f cs o d l rl setref types Ht _ IH|id t o d l rl Hn _ IH]; intros i s r s' Hg Hin.
  - cbn in Hg. gsteps. split; [constructor|reflexivity].
  - rewrite seq_tokens_cons in Hg. gsteps. cbn [fst snd]. destruct (IH _ _ _ _ H0 Hin) as [H1 H2]. split; [|exact H2].
    eapply F_value; [exact Ho|exact Hf| | |exact H1].
    + eapply Hc; [eassumption|]. eapply grows_incl; [|exact Hin].
      eapply Grows_seq_tokens in H0; [exact H0|]. apply Forall_forall. intros. apply generate_grows.
    + unfold is_relation. destruct c as [e|[v0|v0 a]|]; cbn; split; try discriminate; try (intros (? & ? & ?); discriminate); eauto.
  - rewrite seq_tokens_cons in Hg. gsteps. cbn [fst snd]. destruct (IH _ _ _ _ H0 Hin) as [H1 H2]. split; [|exact H2].
    assert (Hi0 : incl (aux_items x0) prog).
    { eapply grows_incl; [|exact Hin]. eapply Grows_seq_tokens in H0; [exact H0|]. apply Forall_forall. intros. apply generate_grows. }
    unfold name_maybe_aux in H. rewrite generate_set in H. gsteps.
    match goal with Hp : push_aux _ _ = Ok _ |- _ => apply pushed in Hp; [|exact Hi0]; destruct Hp as [Hi1 Hi2] end.
    eapply F_open; [exact Hi1| |exact H1]. eapply open_fits; eassumption.
  - destruct (IH _ _ _ _ Hg Hin) as [H1 H2]. split; [|exact H2]. now constructor.
Qed.
Lemma class_like_app S l rl l' rl' : class_like S l rl -> class_like S l' rl' -> class_like S (l ++ l') (rl ++ rl').
Proof. induction 1; intros H'; cbn; [exact H'|econstructor; eauto..]. Qed.

Definition id_ty (c : seq_component) : string * asn_type := (comp_id c, comp_ty c).
Lemma components_like S setref os comps : set_fits S os -> os_elements os <> [] -> forall rl,
  class_components (map id_ty comps) setref os = Ok rl -> class_like S comps rl.
Proof.
  intros Hos Hne rl. unfold class_components. destruct (os_elements os) as [|first more] eqn:Hel; [easy|].
  match goal with |- rfold ?g [] _ = _ -> _ => set (step := g) end.
  assert (Hgen : forall comps acc done, class_like S done acc -> rfold step acc (map id_ty comps) = Ok rl -> class_like S (done ++ comps) rl).
  { clear comps. induction comps as [|[id [k cs] o d] comps IH]; intros acc done Hd H.
    - cbn in H. injection H as <-. now rewrite app_nil_r.
    - change (rfold step acc (map id_ty (mkSeqComp id (mkType k cs) o d :: comps))) with
        (acc' <-- step acc (id, mkType k cs) ;; rfold step acc' (map id_ty comps)) in H.
      replace (done ++ mkSeqComp id (mkType k cs) o d :: comps) with ((done ++ [mkSeqComp id (mkType k cs) o d]) ++ comps) by now rewrite <- app_assoc.
      assert (Hother : (forall cl f cs', mkType k cs <> mkType (KReference (RefClassField cl f)) cs') -> step acc (id, mkType k cs) = Ok acc ->
        class_like S ((done ++ [mkSeqComp id (mkType k cs) o d]) ++ comps) rl).
      { intros Hn Hs. rewrite Hs in H. cbn [rbind] in H. eapply IH; [|exact H]. rewrite <- (app_nil_r acc). apply class_like_app; [exact Hd|].
        constructor; [exact Hn|constructor]. }
      destruct k as [b|[r|cl f|r ps]|root adds|root adds ext|size t| |]; try (apply Hother; [discriminate|reflexivity]).
      clear Hother. cbn [step] in H. unfold step in H at 1.
      destruct (lookup f first) as [rf|] eqn:Hlf.
      + assert (Hfirst : exists fs, object_of modules S fs /\ object_fits fs first).
        { destruct Hos as (He & _). rewrite Hel in He. now apply Forall_inv in He. }
        destruct Hfirst as (fs & Ho & Hf). destruct (object_lookup _ _ _ _ Hf Hlf) as (a & Ha & [_ Hff]). cbn [snd] in Hff.
        destruct rf as [ot|rt rv].
        * cbn [rbind] in H. eapply IH; [|exact H]. apply class_like_app; [exact Hd|]. constructor; [now apply open_types_fit|constructor].
        * destruct cs as [[|c cs]|]; try discriminate. cbn [rbind] in H. eapply IH; [|exact H]. apply class_like_app; [exact Hd|].
          destruct a as [|t v]; [destruct t; contradiction|]. econstructor; [exact Ho|exact Ha|apply Hff|constructor].
      + cbn [rbind] in H. eapply IH; [|exact H]. apply class_like_app; [exact Hd|]. constructor; [now apply open_types_fit|constructor]. }
  intros H. apply (Hgen comps [] []); [constructor|exact H].
Qed.
Lemma set_reference_of c S : set_reference c = Ok S -> set_of c S.
Proof.
  unfold set_reference. destruct c as [[root more]|[v|v a]|]; try discriminate.
  - destruct root as [|[|[v| | | | |] [|]] [|]]; try discriminate. intros H. injection H as <-. constructor.
  - intros H. injection H as <-. constructor.
  - intros H. injection H as <-. constructor.
Qed.

(* ------------------------------------------------------------------ *)
(* Types                                                               *)
(* ------------------------------------------------------------------ *)
Section Types.
Context (defs : list (string * rdef)) (inst : string -> list actual_param -> res rtype).
Context (Hsets : forall S os, lookup S defs = Some (DObjectSet os) -> set_fits S os).
Context (Hinst : forall r ps rt, inst r ps = Ok rt -> exists t, instance_of modules r ps t /\ fits t rt).

Lemma enum_consts : forall l i, map (fun nv => (to_const_ident (fst nv), suffixed_literal 8 false (snd nv))) (enum_names i l) = constants i l.
Proof. induction l as [|v l IH]; intros i; [reflexivity|]. cbn [enum_names map fst snd constants]. f_equal. apply IH. Qed.
Lemma numbers_spec l : forall acc r, rfold (fun acc v => match ev_value v with
    | Some (Number s) => match parse_i128 s with Some z => Ok (acc ++ [z]) | None => Panic end
    | _ => Ok acc
    end) acc l = Ok r -> (r = [] <-> acc = [] /\ ~ Exists has_number l).
Proof.
  induction l as [|v l IH]; intros acc r H.
  - cbn in H. injection H as <-. split; [intros ->; split; [reflexivity|]|tauto]. intros Hx. inversion Hx.
  - match type of H with rfold ?g _ _ = _ => change (rfold g acc (v :: l)) with (acc' <-- g acc v ;; rfold g acc' l) in H end. cbv beta in H.
    destruct (ev_value v) as [[s|s]|] eqn:D.
    + destruct (parse_i128 s) as [z|]; try discriminate. cbn [rbind] in H. apply IH in H. rewrite H. split.
      * intros [Hn _]. destruct acc; discriminate.
      * intros [_ Hn]. destruct Hn. left. now exists s.
    + cbn [rbind] in H. apply IH in H. rewrite H. split; intros [H1 H2]; (split; [exact H1|]); intros Hx; apply H2.
      * inversion_clear Hx; [destruct H0; congruence|assumption].
      * now right.
    + cbn [rbind] in H. apply IH in H. rewrite H. split; intros [H1 H2]; (split; [exact H1|]); intros Hx; apply H2.
      * inversion_clear Hx; [destruct H0; congruence|assumption].
      * now right.
Qed.

Lemma greatest_len n n' ub : n' = n -> arith_usize E (n' - 1) = Ok ub -> greatest n ub.
Proof. intros -> H Hn. rewrite arith_usize_ok in H by lia. congruence. Qed.

Theorem resolved_fits t : forall rt, resolve_type E defs inst t = Ok rt -> fits t rt.
Proof.
  induction t as [b cs|r cs|root adds cs Hroot Hadds|root adds ext cs Hroot|size t cs IH|cs|cs] using asn_ind'; intros rt H; try discriminate.
  - cbn [resolve_type] in H. destruct b; cbn [resolve_base] in H; try discriminate.
    + destruct (resolve_integer E (known defs) _) as [i| | |]; try discriminate. injection H as <-. apply fits_base; [reflexivity| |reflexivity].
      intros p s d s' Hg. cbn in Hg. gsteps. unfold generate_integer in H. destruct (int_constraints i) as [vs|].
      * destruct (cv_max E (root_values vs)); try discriminate. injection H as <-. constructor.
      * injection H as <-. constructor.
    + unfold resolve_enumerated in H. destruct (enum_numbers root) as [ns| | |] eqn:Hn; try discriminate. cbn [rbind] in H.
      destruct (enum_numbers ext); try discriminate. injection H as <-. apply fits_base; [reflexivity| |reflexivity].
      intros p s d s' Hg. cbn in Hg. gsteps. unfold generate_enumerated in H. destruct (arith_usize E _) eqn:H0; try discriminate. injection H as <-.
      apply numbers_spec in Hn. destruct ns as [|z ns].
      * rewrite enum_consts. constructor; [now apply Hn|]. eapply greatest_len; [|exact H0]. now rewrite enum_names_length.
      * apply H_numbered. destruct (Exists_dec has_number root) as [Hx|Hx]; [|exact Hx|].
        { intros v. unfold has_number. destruct (ev_value v) as [[s0|s0]|]; [left; eauto|right; intros (? & ?); discriminate..]. }
        destruct Hn as [_ Hn]. specialize (Hn (conj eq_refl Hx)). discriminate.
    + destruct (resolve_size E defs _ cs); try discriminate. injection H as <-. apply fits_base; [reflexivity| |reflexivity].
      intros p s d s' Hg. cbn in Hg. unfold gsize in Hg. gsteps. constructor.
    + injection H as <-. apply fits_base; [reflexivity| |reflexivity]. intros p s d s' Hg. cbn in Hg. gsteps. constructor.
    + injection H as <-. apply fits_base; [reflexivity| |reflexivity]. intros p s d s' Hg. cbn in Hg. gsteps. constructor.
    + destruct (resolve_size E defs _ cs); try discriminate. injection H as <-. apply fits_base; [reflexivity| |reflexivity].
      intros p s d s' Hg. cbn in Hg. unfold gsize in Hg. gsteps. constructor.
    + injection H as <-. apply fits_base; [reflexivity| |reflexivity]. intros p s d s' Hg. cbn in Hg. gsteps. constructor.
    + destruct (resolve_size E defs _ cs); try discriminate. injection H as <-. apply fits_base; [reflexivity| |reflexivity].
      intros p s d s' Hg. cbn in Hg. unfold gsize in Hg. gsteps. constructor.
  - cbn [resolve_type] in H. destruct r as [r|cl f|r ps]; try discriminate.
    + destruct (lookup r defs) as [[]|]; try discriminate. injection H as <-. split.
      * intros p s d s' Hg _. cbn in Hg. gsteps. constructor.
      * intros p s n s' Hg _. cbn in Hg. gsteps. constructor.
    + destruct (Hinst _ _ _ H) as (t & Ht & Hs & Hc). split.
      * intros p s d s' Hg Hin. eapply H_instance; eauto.
      * intros p s n s' Hg Hin. eapply C_instance; eauto.
  - rewrite resolve_choice in H. destruct (rmap _ root) as [rl| | |] eqn:Hr; try discriminate. cbn [rbind] in H.
    assert (Hlike : forall l rl, Forall (fun c => forall rt, resolve_type E defs inst (snd c) = Ok rt -> fits (snd c) rt) l ->
      rmap (choice_component E defs inst) l = Ok rl -> Forall2 (fun c rc => fst c = fst rc /\ fits (snd c) (snd rc)) l rl).
    { intros l rl0 HF Hl. apply rmap_forall in Hl. induction Hl as [|[id t] rc l rl0 Hc _ IHl]; [constructor|]. constructor.
      - cbn [choice_component] in Hc. destruct (resolve_type E defs inst t) as [rt0| | |] eqn:Hrt; try discriminate. injection Hc as <-.
        cbn [fst snd]. split; [reflexivity|]. now apply (Forall_inv HF).
      - apply IHl. now apply Forall_inv_tail in HF. }
    pose proof (Hlike _ _ Hroot Hr) as Hrl. destruct adds as [gs|].
    + destruct (rmap (rmap _) gs) as [rgs| | |] eqn:Hg; try discriminate. cbn [rbind] in H. injection H as <-.
      specialize (Hadds gs eq_refl).
      assert (Hal : Forall2 (fun c rc => fst c = fst rc /\ fits (snd c) (snd rc)) (List.concat gs) (List.concat rgs)).
      { apply rmap_forall in Hg. clear - Hg Hadds Hlike. induction Hg as [|g rg gs rgs Hg _ IHg]; [constructor|]. cbn [List.concat].
        apply Forall2_app; [apply Hlike; [apply (Forall_inv Hadds)|exact Hg]|apply IHg; now apply Forall_inv_tail in Hadds]. }
      apply fits_made; [exact Logic.I|exact Logic.I|]. intros p s d s' Hgen Hin. rewrite generate_choice in Hgen. gsteps.
      eapply (H_choice modules prog p root (Some gs)); [eapply greatest_len; [|eassumption]; unfold zlen; now rewrite (forall2_length _ _ _ Hrl)|eapply choice_fits; [exact Hrl|eassumption|]|eapply choice_fits; eassumption].
      eapply grows_incl; [|exact Hin].
      eapply Grows_choice_tokens in H0; [exact H0|]. apply Forall_forall. intros. apply generate_grows.
    + injection H as <-. apply fits_made; [exact Logic.I|exact Logic.I|]. intros p s d s' Hgen Hin. rewrite generate_choice in Hgen. gsteps.
      eapply (H_choice modules prog p root None); [eapply greatest_len; [|eassumption]; unfold zlen; now rewrite (forall2_length _ _ _ Hrl)|eapply choice_fits; [exact Hrl|eassumption|exact Hin]|constructor].
  - rewrite resolve_sequence in H. destruct (rmap _ root) as [rl| | |] eqn:Hr; try discriminate.
    + injection H as <-. apply fits_made; [exact Logic.I|exact Logic.I|]. intros p s d s' Hgen Hin. rewrite generate_seq in Hgen. gsteps.
      destruct (sequence_fits p root rl) with (i := 0) (s := s) (r := x) (s' := x0) as [H1 H2]; [|eassumption|exact Hin|].
      2: { replace (if 0 <? snd x then Some (snd x) else None) with (optional_count root); [now constructor|].
        unfold optional_count. rewrite H2. destruct (filter comp_optional root); [reflexivity|]. unfold zlen. cbn [List.length].
        replace (0 <? _) with true by lia. f_equal. }
      apply rmap_forall in Hr. clear - Hr Hroot. induction Hr as [|[id t o d] rc l rl Hc _ IHl]; [constructor|]. constructor.
      * cbn [sequence_component] in Hc. destruct (resolve_type E defs inst t) as [rt0| | |] eqn:Hrt; try discriminate. injection Hc as <-.
        (split; [reflexivity|]); (split; [reflexivity|]); (split; [reflexivity|]); now apply (Forall_inv Hroot).
      * apply IHl. now apply Forall_inv_tail in Hroot.
    + unfold resolve_class_sequence in H.
      destruct (root ++ List.concat adds) as [|[id [k c] o d] rest] eqn:Hcomps; [discriminate|]. cbn [map comp_id comp_ty] in H.
      destruct c as [[|c more]|]; try discriminate. destruct (set_reference c) as [S| | |] eqn:HS; try discriminate. cbn [rbind] in H.
      destruct (lookup S defs) as [[| |os|]|] eqn:Hos; try discriminate. pose proof (Hsets _ _ Hos) as Hfit.
      change ((id, mkType k (Some (c :: more))) :: map (fun c => (comp_id c, comp_ty c)) rest) with
        (map id_ty (mkSeqComp id (mkType k (Some (c :: more))) o d :: rest)) in H. rewrite <- Hcomps in H.
      destruct (class_components _ S os) as [l| | |] eqn:Hcc; try discriminate. injection H as <-.
      apply fits_made; [exact Logic.I|exact Logic.I|]. intros p s d0 s' Hgen Hin. rewrite generate_seq in Hgen. gsteps.
      destruct (os_elements os) as [|first others] eqn:Hel.
      * unfold class_components in Hcc. rewrite Hel in Hcc. injection Hcc as <-. cbn in H. gsteps. cbn.
        eapply H_no_object; [exact Hcomps|apply set_reference_of, HS|]. now apply Hfit.
      * assert (Hl : class_like S (root ++ List.concat adds) l).
        { eapply components_like; [exact Hfit|rewrite Hel; discriminate|exact Hcc]. }
        destruct (class_like_tokens _ p _ _ Hl _ _ _ _ H Hin) as [H1 ->]. cbn.
        eapply H_class; [exact Hcomps|apply set_reference_of, HS|exact H1].
  - cbn [resolve_type] in H. destruct (resolve_type E defs inst t) as [rt0| | |] eqn:Hrt; try discriminate. cbn [rbind] in H.
    destruct (match size with Some c => _ | None => _ end) as [sz| | |]; try discriminate. injection H as <-.
    destruct (IH _ eq_refl) as [_ Hc]. apply fits_made; [exact Logic.I|exact Logic.I|]. intros p s d s' Hgen Hin. cbn [generate_for_type] in Hgen. gsteps.
    constructor. eapply Hc; eassumption.
Qed.

Lemma resolved_object fuel fs o : resolve_object E defs inst fuel (Some fs) = Ok o -> object_fits fs o.
Proof.
  cbn [resolve_object]. intros H. apply rmap_forall in H. induction H as [|[k f] rf fs o Hf _ IH]; [constructor|]. constructor; [|exact IH]. clear IH.
  destruct f as [[t|]|t [v|]].
  - destruct (resolve_type E defs inst t) eqn:Ht; try discriminate. injection Hf as <-. split; [reflexivity|]. now apply resolved_fits.
  - injection Hf as <-. now split.
  - destruct (resolve_type E defs inst t) as [rt| | |] eqn:Ht; try discriminate. cbn [rbind] in Hf.
    destruct (resolve_value defs fuel v rt) as [rv| | |] eqn:Hv; try discriminate. injection Hf as <-. split; [reflexivity|]. cbn [snd].
    split; [now apply resolved_fits|]. intros s Hs. injection Hs as ->.
    destruct fuel; cbn [resolve_value] in Hv; (destruct (lookup v defs) as [[| | |]|]; [try discriminate..|]);
      try (injection Hv as ->; reflexivity); destruct rt; try discriminate; try (destruct (parse_i128 v); discriminate);
      (destruct (lookup r defs) as [[]|]; try discriminate); (destruct (resolve_value defs fuel v t0); discriminate).
  - destruct (resolve_type E defs inst t) eqn:Ht; try discriminate. injection Hf as <-. split; [reflexivity|]. cbn [snd].
    split; [now apply resolved_fits|discriminate].
Qed.
Context (Hobjects : forall r o, lookup r defs = Some (DObject o) -> exists c fs, defines modules r (mkDef (DKObject c (Some fs)) None) /\ object_fits fs o).

Lemma table_insert_forall (P : Z * string * robject -> Prop) z nm o : forall l, P (z, nm, o) -> Forall P l -> Forall P (table_insert z nm o l).
Proof.
  induction l as [|[[z' nm'] o'] l IH]; intros He Hl; cbn [table_insert]; [now repeat constructor|]. inversion_clear Hl.
  destruct ((z =? z') && String.eqb nm nm'); constructor; auto.
Qed.
Lemma table_add_forall S unique fs o table table' : object_of modules S fs -> object_fits fs o -> Forall (entry_of S) table ->
  table_add defs unique o table = Ok table' -> Forall (entry_of S) table'.
Proof.
  intros Ho Hf Ht H. unfold table_add in H. destruct unique as [u|]; [|now injection H as <-].
  destruct (lookup u o) as [[ot|rt [v|]]|] eqn:D; try discriminate; [now injection H as <-|].
  destruct v; try (now injection H as <-). destruct (lookup _ defs) as [[]|]; try discriminate; try (now injection H as <-).
  destruct (base_integer_value v); try discriminate. injection H as <-. apply table_insert_forall; [|exact Ht].
  destruct (object_lookup _ _ _ _ Hf D) as (a & Ha & [_ Hff]). cbn [snd] in Hff. destruct a as [|t v0]; [destruct t; contradiction|].
  destruct Hff as [_ Hv]. specialize (Hv _ eq_refl). subst v0. cbn [entry_of]. eauto 10.
Qed.
Lemma resolved_set fuel unique S cls root more os : defines modules S (mkDef (DKObjectSet cls root more) None) ->
  resolve_object_set E defs inst fuel unique (root ++ more) = Ok os -> set_fits S os.
Proof.
  intros Hdef. unfold resolve_object_set. match goal with |- rfold ?g _ _ = _ -> _ => set (step := g) end.
  assert (Hgen : forall l acc before, before ++ l = root ++ more ->
    Forall (fun o => exists fs, object_of modules S fs /\ object_fits fs o) (os_elements acc) -> Forall (entry_of S) (os_lookup acc) ->
    (os_elements acc = [] -> forall e, In e before -> exists r, e = OSetRef r /\ no_object modules r) ->
    rfold step acc l = Ok os -> set_fits S os).
  { induction l as [|e l IH]; intros acc before Hb H1 H2 H3 H.
    - cbn in H. injection H as <-. rewrite app_nil_r in Hb. subst before. split; [exact H1|]. split; [exact H2|].
      intros Hel. econstructor; [exact Hdef|]. now apply H3.
    - change (rfold step acc (e :: l)) with (acc' <-- step acc e ;; rfold step acc' l) in H.
      assert (Hin : In e (root ++ more)) by (rewrite <- Hb; apply in_app_iff; right; now left).
      assert (Hb' : (before ++ [e]) ++ l = root ++ more) by now rewrite <- app_assoc.
      destruct (step acc e) as [acc'| | |] eqn:Hs; try discriminate. cbn [rbind] in H. eapply (IH acc' (before ++ [e]) Hb'); [..|exact H]; clear IH H.
      + destruct e as [r|r|v]; cbn [step] in Hs.
        * destruct (lookup r defs) as [[| |s|]|] eqn:Hl; try discriminate. injection Hs as <-. cbn [os_elements]. apply Forall_app. split; [exact H1|].
          destruct (Hsets _ _ Hl) as (He & _). eapply Forall_impl; [|exact He]. intros o (fs & Ho & Hf). exists fs. split; [|exact Hf]. eapply O_included; eassumption.
        * destruct (lookup r defs) as [[| | |o]|] eqn:Hl; try discriminate. destruct (table_add _ _ _ _); try discriminate. injection Hs as <-. cbn [os_elements].
          apply Forall_app. split; [exact H1|]. destruct (Hobjects _ _ Hl) as (c & fs & Hd & Hf). constructor; [|constructor]. exists fs. split; [|exact Hf].
          eapply O_named; eassumption.
        * destruct v as [fs|]; [|discriminate]. destruct (resolve_object E defs inst fuel (Some fs)) as [o| | |] eqn:Hr; try discriminate. cbn [rbind] in Hs.
          destruct (table_add _ _ _ _); try discriminate. injection Hs as <-. cbn [os_elements]. apply Forall_app. split; [exact H1|]. constructor; [|constructor].
          exists fs. split; [eapply O_written; eassumption|]. eapply resolved_object. exact Hr.
      + destruct e as [r|r|v]; cbn [step] in Hs.
        * destruct (lookup r defs) as [[| |s|]|] eqn:Hl; try discriminate. injection Hs as <-. cbn [os_lookup].
          destruct (Hsets _ _ Hl) as (_ & He & _). clear - He H2 Hdef Hin. revert H2. generalize (os_lookup acc).
          induction He as [|[[z nm] o] t Hx _ IHt]; intros table Ht; [exact Ht|]. cbn [fold_left]. apply IHt, table_insert_forall; [|exact Ht].
          destruct Hx as (fs & u & tu & Ho & Hf & Hu). exists fs, u, tu. split; [|now split]. eapply O_included; eassumption.
        * destruct (lookup r defs) as [[| | |o]|] eqn:Hl; try discriminate. destruct (table_add _ _ _ _) eqn:Ht; try discriminate. injection Hs as <-. cbn [os_lookup].
          destruct (Hobjects _ _ Hl) as (c & fs & Hd & Hf). eapply table_add_forall; [eapply O_named; eassumption|exact Hf|exact H2|exact Ht].
        * destruct v as [fs|]; [|discriminate]. destruct (resolve_object E defs inst fuel (Some fs)) as [o| | |] eqn:Hr; try discriminate. cbn [rbind] in Hs.
          destruct (table_add _ _ _ _) eqn:Ht; try discriminate. injection Hs as <-. cbn [os_lookup].
          eapply table_add_forall; [eapply O_written; eassumption|eapply resolved_object; exact Hr|exact H2|exact Ht].
      + intros Hel e' He'. apply in_app_iff in He'. destruct e as [r|r|v]; cbn [step] in Hs.
        * destruct (lookup r defs) as [[| |s|]|] eqn:Hl; try discriminate. injection Hs as <-. cbn [os_elements] in Hel. apply app_eq_nil in Hel. destruct Hel as [Ha Hs].
          destruct He' as [He'|[<-|[]]]; [now apply H3|]. exists r. split; [reflexivity|]. now apply (Hsets _ _ Hl).
        * destruct (lookup r defs) as [[| | |o]|] eqn:Hl; try discriminate. destruct (table_add _ _ _ _) eqn:Ht; try discriminate. injection Hs as <-. cbn [os_elements] in Hel.
          destruct (os_elements acc); discriminate.
        * destruct (resolve_object E defs inst fuel v) as [o| | |] eqn:Hr; try discriminate. cbn [rbind] in Hs.
          destruct (table_add _ _ _ _) eqn:Ht; try discriminate. injection Hs as <-. cbn [os_elements] in Hel. destruct (os_elements acc); discriminate. }
  intros H. apply (Hgen (root ++ more) (mkObjectSet [] []) [] eq_refl); [constructor|constructor|intros _ e []|exact H].
Qed.
End Types.

(* ------------------------------------------------------------------ *)
(* The resolver                                                        *)
(* ------------------------------------------------------------------ *)
Definition def_fits (k : string) (r : rdef) : Prop :=
  match r with
  | DType rt => exists t, defines modules k (mkDef (DKType t) None) /\ fits t rt
  | DObject o => exists c fs, defines modules k (mkDef (DKObject c (Some fs)) None) /\ object_fits fs o
  | DObjectSet os => set_fits k os
  | DValue _ => exists t v, defines modules k (mkDef (DKValue t v) None)
  end.
Record Shaped (st : resolver) : Prop := {
  sh_defs : forall k r, In (k, r) (resolved_defs st) -> def_fits k r;
  sh_params : forall k d, In (k, d) (parameterized_defs st) -> defines modules k d }.

Lemma in_turn_fold formals : forall actuals w,
  fold_left (fun ts p => substitute (fst p) (param_string (snd p)) ts) (combine formals actuals) w = in_turn formals actuals w.
Proof.
  induction formals as [|f fs IH]; intros [|a l] w; try reflexivity. cbn [combine fold_left fst snd in_turn]. rewrite IH. f_equal.
  apply ParamProofs.substitute_renamed.
Qed.
Lemma instance_fits st (HS : Shaped st) : forall depth r ps rt, instantiate E depth st r ps = Ok rt ->
  exists t, instance_of modules r ps t /\ fits t rt.
Proof.
  induction depth as [|n IH]; intros r ps rt H; cbn [instantiate] in H; [discriminate|].
  destruct (lookup r (parameterized_defs st)) as [d|] eqn:Hl; [|discriminate]. apply lookup_in in Hl. apply (sh_params _ HS) in Hl.
  destruct (apply_params d ps) as [t| | |] eqn:Ha; try discriminate. cbn [rbind] in H. exists t. split.
  - unfold apply_params in Ha. destruct d as [kind [[formals w]|]]; cbn [d_params] in Ha; [|discriminate].
    destruct (Nat.eqb_spec (List.length formals) (List.length ps)) as [Hlen|]; [|discriminate]. cbv zeta in Ha. rewrite in_turn_fold in Ha.
    destruct (parse_type (in_turn formals ps w)) as [[t' rest]| | |] eqn:Hp; try discriminate. injection Ha as <-. cbn [fst].
    exists kind, formals, w, rest. now repeat split.
  - eapply resolved_fits; [|exact IH|exact H]. intros S os HSl. apply lookup_in in HSl. exact (sh_defs _ HS _ _ HSl).
Qed.
Lemma replace_in {A} k (v : A) l x : In x (replace k v l) -> x = (k, v) \/ In x l.
Proof.
  induction l as [|[k' v'] l IH]; cbn [replace]; [intros [<-|[]]; now left|]. destruct (String.eqb k k').
  - intros [<-|H]; [now left|right; now right].
  - intros [<-|H]; [right; now left|]. destruct (IH H); [now left|right; now right].
Qed.
Lemma one_shaped depth fuel a m st k st' : In (a, m) modules -> Shaped st -> resolve_one E (instantiate E depth) fuel m st k = Ok st' -> Shaped st'.
Proof.
  intros Hm HS H. unfold resolve_one in H. destruct (lookup k (m_defs m)) as [d|] eqn:Hl; [|now injection H as <-].
  apply lookup_in in Hl. assert (Hdef : defines modules k d) by now exists a, m.
  destruct (d_params d) as [ps|] eqn:Hp.
  - injection H as <-. constructor; cbn [resolved_defs parameterized_defs]; [apply HS|]. intros k' d' Hin. apply replace_in in Hin.
    destruct Hin as [Heq|Hin]; [injection Heq as -> ->; exact Hdef|now apply HS].
  - assert (Hsets : forall S os, lookup S (resolved_defs st) = Some (DObjectSet os) -> set_fits S os).
    { intros S os HSl. apply lookup_in in HSl. exact (sh_defs _ HS _ _ HSl). }
    assert (Hobj : forall r o, lookup r (resolved_defs st) = Some (DObject o) -> exists c fs, defines modules r (mkDef (DKObject c (Some fs)) None) /\ object_fits fs o).
    { intros r o Ho. apply lookup_in in Ho. exact (sh_defs _ HS _ _ Ho). }
    pose proof (instance_fits st HS depth) as Hinst.
    destruct d as [kind ps]. cbn [d_params d_kind] in *. subst ps.
    assert (Hnext : forall r, resolve_definition E (instantiate E depth) fuel st kind = Ok r -> def_fits k r).
    { intros r Hr. destruct kind as [t v|t|fs|c v|cls root more]; cbn [resolve_definition] in Hr; try discriminate.
      - destruct (resolve_type E (resolved_defs st) _ t) as [rt| | |]; try discriminate. cbn [rbind] in Hr.
        destruct (resolve_value _ _ _ _); try discriminate. injection Hr as <-. cbn [def_fits]. eauto.
      - destruct (resolve_type E (resolved_defs st) _ t) as [rt| | |] eqn:Ht; try discriminate. injection Hr as <-. cbn [def_fits]. exists t.
        split; [exact Hdef|]. eapply resolved_fits; [exact Hsets|exact Hinst|exact Ht].
      - destruct (resolve_object E (resolved_defs st) _ fuel v) as [o| | |] eqn:Ho; try discriminate. injection Hr as <-. cbn [def_fits].
        destruct v as [fs|]; [|discriminate]. exists c, fs. split; [exact Hdef|]. eapply resolved_object; [exact Hsets|exact Hinst|exact Ho].
      - destruct (lookup cls (classes st)) as [fields|]; [|discriminate].
        destruct (resolve_object_set E (resolved_defs st) _ fuel _ _) as [os| | |] eqn:Hos; try discriminate. injection Hr as <-. cbn [def_fits].
        eapply resolved_set; [exact Hsets|exact Hinst|exact Hobj|exact Hdef|exact Hos]. }
    assert (Hins : forall r, def_fits k r -> Shaped (mkResolver (binsert k r (resolved_defs st)) (parameterized_defs st) (classes st))).
    { intros r Hr. constructor; cbn [resolved_defs parameterized_defs]; [|apply HS]. intros k' r' Hin. apply in_binsert in Hin.
      destruct Hin as [Heq|Hin]; [injection Heq as -> ->; exact Hr|now apply HS]. }
    destruct kind as [t v|t|fs|c v|cls root more];
      try (destruct (resolve_definition E _ fuel st _) as [r| | |]; try discriminate; injection H as <-; apply Hins; now apply Hnext).
    injection H as <-. constructor; cbn [resolved_defs parameterized_defs]; apply HS.
Qed.
Lemma module_shaped depth fuel a m order st st' : In (a, m) modules -> Shaped st ->
  resolve_module E (instantiate E depth) fuel m order st = Ok st' -> Shaped st'.
Proof.
  intros Hm HS. unfold resolve_module. assert (HS' : Shaped (add_classes m st)) by (constructor; apply HS). revert HS'. generalize (add_classes m st). clear st HS.
  induction order as [|k order IH]; intros st HS H; [cbn in H; now injection H as <-|].
  match type of H with rfold ?g _ _ = _ => change (rfold g st (k :: order)) with (st1 <-- g st k ;; rfold g st1 order) in H end.
  destruct (resolve_one E _ fuel m st k) as [st1| | |] eqn:H1; try discriminate. cbn [rbind] in H. eapply IH; [|exact H]. eapply one_shaped; eassumption.
Qed.
Lemma order_shaped depth fuel orders : forall st st', Shaped st ->
  rfold (fun st no => match lookup (fst no) modules with None => Panic | Some m => resolve_module E (instantiate E depth) fuel m (snd no) st end) st orders = Ok st' ->
  Shaped st'.
Proof.
  induction orders as [|[a o] orders IH]; intros st st' HS H; [cbn in H; now injection H as <-|].
  match type of H with rfold ?g _ _ = _ => change (rfold g st ((a, o) :: orders)) with (st1 <-- g st (a, o) ;; rfold g st1 orders) in H end.
  cbn [fst snd] in H. destruct (lookup a modules) as [m|] eqn:Hl; [|discriminate]. apply lookup_in in Hl.
  destruct (resolve_module E _ fuel m o st) as [st1| | |] eqn:H1; try discriminate. cbn [rbind] in H. eapply IH; [|exact H]. eapply module_shaped; eassumption.
Qed.
End Shapes.

(* ------------------------------------------------------------------ *)
(* Every definition in an order is resolved                            *)
(* ------------------------------------------------------------------ *)
Definition has_type (st : resolver) (k : string) : Prop := exists rt, In (k, DType rt) (resolved_defs st).
Section Resolved.
Context (E : env) (inst : resolver -> string -> list actual_param -> res rtype) (fuel : nat) (modules : list (string * module)).
Context (Hnd : NoDup (map fst modules)) (Hdefs : NoDup (flat_map (fun nm : string * module => def_names (snd nm)) modules)).
Context (k : string) (t : asn_type) (Hk : defines modules k (mkDef (DKType t) None)).

Lemma the_definition a m d : In (a, m) modules -> In (k, d) (m_defs m) -> d = mkDef (DKType t) None.
Proof.
  intros Hm Hd. destruct Hk as (a' & m' & Hm' & Hd').
  assert (Heq : (a, m) = (a', m')).
  { eapply (nodup_flat (fun nm : string * module => def_names (snd nm)) modules); [exact Hdefs|exact Hm|exact Hm'|..];
      cbn [snd]; unfold def_names; apply in_map_iff; [exists (k, d)|exists (k, mkDef (DKType t) None)]; now split. }
  injection Heq as <- <-.
  assert (Hn : NoDup (map fst (m_defs m))) by exact (nodup_flat_part (fun nm : string * module => def_names (snd nm)) modules (a, m) Hdefs Hm).
  pose proof (lookup_nodup k d _ Hn Hd) as H1. pose proof (lookup_nodup k _ _ Hn Hd') as H2. congruence.
Qed.
Lemma binsert_other {A} k0 (v : A) k1 x l : k1 <> k0 -> In (k1, x) l -> In (k1, x) (binsert k0 v l).
Proof.
  induction l as [|[k' v'] l IH]; intros Hn; cbn [binsert]; [intros []|]. intros [Heq|Hin].
  - injection Heq as -> ->. destruct (String.eqb_spec k0 k1) as [->|]; [easy|]. destruct (string_ltb k0 k1); [right; now left|now left].
  - destruct (String.eqb k0 k'); [now right|]. destruct (string_ltb k0 k'); [right; now right|]. right. now apply IH.
Qed.
Lemma binsert_self {A} k0 (v : A) l : In (k0, v) (binsert k0 v l).
Proof. induction l as [|[k' v'] l IH]; cbn [binsert]; [now left|]. destruct (String.eqb k0 k'); [now left|]. destruct (string_ltb k0 k'); [now left|now right]. Qed.
Lemma one_has a m st k0 st' : In (a, m) modules -> resolve_one E inst fuel m st k0 = Ok st' ->
  (has_type st k -> has_type st' k) /\ (k0 = k -> lookup k (m_defs m) <> None -> has_type st' k).
Proof.
  intros Hm H. unfold resolve_one in H. destruct (lookup k0 (m_defs m)) as [d|] eqn:Hl; [|injection H as <-; split; [auto|intros ->; congruence]].
  apply lookup_in in Hl. destruct (string_dec k0 k) as [->|Hne].
  - pose proof (the_definition a m d Hm Hl) as ->. cbn [d_params d_kind resolve_definition] in H.
    destruct (resolve_type E (resolved_defs st) (inst st) t) as [rt| | |]; try discriminate. injection H as <-.
    assert (has_type (mkResolver (binsert k (DType rt) (resolved_defs st)) (parameterized_defs st) (classes st)) k) by (exists rt; apply binsert_self).
    split; auto.
  - split; [|easy]. intros (rt & Hin). destruct (d_params d); [injection H as <-; now exists rt|].
    destruct (d_kind d); try (destruct (resolve_definition E inst fuel st _); try discriminate; injection H as <-; exists rt; apply binsert_other; [congruence|exact Hin]).
    injection H as <-. now exists rt.
Qed.
Lemma module_has a m : In (a, m) modules -> forall order st st', rfold (resolve_one E inst fuel m) st order = Ok st' ->
  (has_type st k -> has_type st' k) /\ (In k order -> lookup k (m_defs m) <> None -> has_type st' k).
Proof.
  intros Hm. induction order as [|k0 order IH]; intros st st' H; [cbn in H; injection H as <-; split; [auto|intros []]|].
  match type of H with rfold ?g _ _ = _ => change (rfold g st (k0 :: order)) with (st1 <-- g st k0 ;; rfold g st1 order) in H end.
  destruct (resolve_one E inst fuel m st k0) as [st1| | |] eqn:H1; try discriminate. cbn [rbind] in H.
  destruct (one_has a m st k0 st1 Hm H1) as [Hkeep Hnew]. destruct (IH _ _ H) as [IH1 IH2]. split; [auto|]. intros [->|Hin] Hl; auto.
Qed.
Lemma order_has : forall orders st st',
  rfold (fun st no => match lookup (fst no) modules with None => Panic | Some m => resolve_module E inst fuel m (snd no) st end) st orders = Ok st' ->
  (has_type st k -> has_type st' k) /\
  (forall a o m, In (a, o) orders -> In (a, m) modules -> In k o -> In k (def_names m) -> has_type st' k).
Proof.
  induction orders as [|[a0 o0] orders IH]; intros st st' H; [cbn in H; injection H as <-; split; [auto|intros ? ? ? []]|].
  match type of H with rfold ?g _ _ = _ => change (rfold g st ((a0, o0) :: orders)) with (st1 <-- g st (a0, o0) ;; rfold g st1 orders) in H end.
  cbn [fst snd] in H. destruct (lookup a0 modules) as [m0|] eqn:Hl; [|discriminate]. pose proof (lookup_in _ _ _ Hl) as Hm0.
  destruct (resolve_module E inst fuel m0 o0 st) as [st1| | |] eqn:H1; try discriminate. cbn [rbind] in H.
  destruct (module_has a0 m0 Hm0 _ _ _ H1) as [Hkeep Hnew]. destruct (IH _ _ H) as [IH1 IH2]. split; [auto|].
  intros a o m [Heq|Hin] Hm Hko Hkd; [|eauto]. injection Heq as -> ->. apply IH1, Hnew; [exact Hko|].
  apply (lookup_nodup a m modules Hnd) in Hm. rewrite Hl in Hm. injection Hm as ->. intros Hn. now apply lookup_none in Hn.
Qed.
End Resolved.

Theorem compiled_shape E depth fuel modules orders prog :
  NoDup (map fst modules) -> NoDup (flat_map (fun nm : string * module => def_names (snd nm)) modules) ->
  compile E (instantiate E depth) fuel modules orders = Ok prog ->
  forall a o m k t, In (a, o) orders -> In (a, m) modules -> In k o -> In (k, mkDef (DKType t) None) (m_defs m) ->
  exists d, In (to_type_ident k, d) prog /\ shaped modules prog k t d.
Proof.
  intros Hnd Hdefs H a o m k t Ho Hm Hko Hkd. unfold compile, resolve_modules in H.
  destruct (resolve_imports modules) as [[]| | |]; try discriminate. cbn [rbind] in H.
  destruct (resolve_in_order E _ fuel modules orders) as [st| | |] eqn:Hst; try discriminate. cbn [rbind] in H. unfold resolve_in_order in Hst.
  assert (HS : Shaped E modules prog st).
  { eapply order_shaped; [|exact Hst]. constructor; cbn; intros ? ? []. }
  assert (Hdef : defines modules k (mkDef (DKType t) None)) by now exists a, m.
  destruct (order_has E _ fuel modules Hnd Hdefs k t Hdef _ _ _ Hst) as [_ Hhas].
  destruct (Hhas a o m Ho Hm Hko) as (rt & Hrt); [unfold def_names; apply in_map_iff; exists (k, mkDef (DKType t) None); now split|].
  destruct (sh_defs _ _ _ _ HS _ _ Hrt) as (t' & Hdef' & Hfit & _).
  assert (t' = t) as ->.
  { destruct Hdef' as (a' & m' & Hm' & Hd'). pose proof (the_definition modules Hdefs k t Hdef a' m' _ Hm' Hd') as Heq. congruence. }
  unfold generate in H. destruct (generate_items E (resolved_types st) new_generator) as [[items s']| | |] eqn:Hg; try discriminate.
  cbn [rbind fst snd] in H. injection H as <-.
  assert (Hin : In (k, rt) (resolved_types st)) by now apply types_of_spec.
  destruct (generate_items_spec E _ _ _ _ Hg k rt Hin) as (d & s1 & s2 & H1 & H2 & H3). exists d.
  split; [apply in_app_iff; now left|]. eapply Hfit; [exact H1|]. eapply grows_incl; [exact H3|]. apply incl_appr, incl_refl.
Qed.
