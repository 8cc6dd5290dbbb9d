(* What the compiler puts into a program: numbers in range, type names that are
   defined. *)
From Coq Require Import ZArith NArith List Bool String Lia.
From Coq Require Import ZifyBool ZifyNat ZifyN.
Require Import Verif.Base Verif.DeriveModel Verif.Asn1Model Verif.GenModel Verif.ResolveModel Verif.ModuleModel Verif.ParserModel Verif.DefinitionModel
  Verif.CompilerSpec Verif.ConstraintProofs Verif.GenProofs Verif.ObjectProofs Verif.ResolveProofs Verif.ModuleProofs Verif.RustModel Verif.RustSpec Verif.RustProofs.
Import ListNotations.
Open Scope string_scope.
Open Scope Z_scope.
Open Scope list_scope.

Lemma rbind_inv {A B} (m : res A) (f : A -> res B) b : rbind m f = Ok b -> exists a, m = Ok a /\ f a = Ok b.
Proof. destruct m; cbn; try discriminate. eauto. Qed.
Ltac rsteps := repeat match goal with
  | H : rbind _ _ = Ok _ |- _ => apply rbind_inv in H; destruct H as (? & ? & H)
  | H : Ok _ = Ok _ |- _ => injection H as <-
  end.

(* ------------------------------------------------------------------ *)
(* Value sets                                                          *)
(* ------------------------------------------------------------------ *)
Definition cv_ok (c : cvalues) : Prop := Forall (fun r => i128 (fst r) /\ i128 (snd r)) (ranges c) /\ Forall i128 (values c).
Definition vs_ok (v : value_set) : Prop := cv_ok (root_values v) /\ match additional_values v with Some a => cv_ok a | None => True end.

Lemma wrap_i128 z : i128 (wrap_s 128 z).
Proof.
  unfold i128, in_i128, wrap_s. cbv zeta. change (2 ^ (128 - 1)) with (2 ^ 127). pose proof (Z.mod_pos_bound z (2 ^ 128) eq_refl) as H.
  assert (2 ^ 128 = 2 * 2 ^ 127) by reflexivity. set (m := z mod 2 ^ 128) in *. set (p := 2 ^ 127) in *. clearbody m. rewrite H0 in *. clear H0.
  assert (0 < p) by reflexivity. clearbody p. destruct (Z.ltb_spec m p); apply andb_true_intro; split; [apply Z.leb_le|apply Z.ltb_lt|apply Z.leb_le|apply Z.ltb_lt]; lia.
Qed.
Lemma arith_i128_ok E z x : arith_i128 E z = Ok x -> i128 x.
Proof.
  unfold arith_i128, i128. destruct (in_i128 z) eqn:H; [intros H'; injection H' as <-; exact H|].
  destruct (overflow_checks E); intros H'; [discriminate|]. injection H' as <-. apply wrap_i128.
Qed.
Lemma cv_append_ok a b : cv_ok a -> cv_ok b -> cv_ok (cv_append a b).
Proof. intros [H1 H2] [H3 H4]. split; cbn; apply Forall_app; auto. Qed.
Lemma cv_new_ok : cv_ok cv_new. Proof. split; constructor. Qed.
Lemma Forall_filter {A} (P : A -> Prop) f l : Forall P l -> Forall P (filter f l).
Proof. induction 1; cbn; [constructor|]. destruct (f x); [now constructor|assumption]. Qed.
Lemma intersect_ok a b : cv_ok a -> cv_ok b -> cv_ok (intersect a b).
Proof.
  intros Ha Hb. unfold intersect. destruct (cv_is_empty a); [now apply cv_append_ok|]. destruct Ha. split; cbn; now apply Forall_filter.
Qed.
Lemma cv_min_ok c : cv_ok c -> oi128 (cv_min c).
Proof.
  intros [Hr Hv]. unfold cv_min. pose proof (list_min_spec (values c)) as H1. pose proof (list_min_spec (map fst (ranges c))) as H2.
  assert (Hf : forall m, In m (map fst (ranges c)) -> i128 m).
  { intros m Hm. apply in_map_iff in Hm. destruct Hm as (r & <- & Hin). rewrite Forall_forall in Hr. now apply Hr. }
  rewrite Forall_forall in Hv.
  destruct (list_min (values c)) as [v|]; destruct (list_min (map fst (ranges c))) as [r|]; cbn; try exact I.
  - destruct (Z.min_spec r v) as [[_ ->]|[_ ->]]; [apply Hf|apply Hv]; tauto.
  - apply Hv; tauto.
  - apply Hf; tauto.
Qed.
Lemma range_ends_ok E l : forall xs, range_ends E l = Ok xs -> Forall i128 xs.
Proof.
  induction l as [|[a b] l IH]; cbn [range_ends]; intros xs H; rsteps; [constructor|].
  constructor; [eapply arith_i128_ok; eassumption|now apply IH].
Qed.
Lemma cv_max_ok E c x : cv_ok c -> cv_max E c = Ok x -> oi128 x.
Proof.
  intros [Hr Hv] H. unfold cv_max in H. rsteps. rename x0 into ends. pose proof (range_ends_ok E _ _ H0) as He.
  pose proof (list_max_spec (values c)) as H1. pose proof (list_max_spec ends) as H2. rewrite Forall_forall in He, Hv.
  destruct (list_max (values c)) as [v|]; destruct (list_max ends) as [r|]; cbn; try exact I.
  - destruct (Z.min_spec r v) as [[_ ->]|[_ ->]]; [apply He|apply Hv]; tauto.
  - apply Hv; tauto.
  - apply He; tauto.
Qed.

Section Values.
Context (E : env) (kn : string -> option Z) (Hkn : forall s z, kn s = Some z -> i128 z).
Lemma parse_i128_ok s z : parse_i128 s = Some z -> i128 z.
Proof.
  unfold parse_i128. set (o := match s with EmptyString => _ | _ => _ end). destruct o as [n|]; [|discriminate].
  destruct (in_i128 n) eqn:H; [|discriminate]. intros H'. injection H' as <-. exact H.
Qed.
Lemma resolve_number_ok s z : parse_or_resolve_value kn s = Ok z -> i128 z.
Proof.
  unfold parse_or_resolve_value. destruct (parse_i128 s) as [n|] eqn:H.
  - intros H'. injection H' as <-. now apply (parse_i128_ok s).
  - destruct (kn s) as [n|] eqn:Hk; [|discriminate]. intros H'. injection H' as <-. now apply (Hkn s).
Qed.
Lemma rfold_ok {A B} (P : B -> Prop) (f : B -> A -> res B) l : (forall acc x y, In x l -> P acc -> f acc x = Ok y -> P y) ->
  forall acc y, P acc -> rfold f acc l = Ok y -> P y.
Proof.
  induction l as [|x l IH]; intros Hf acc y Ha H; cbn [rfold] in H; [injection H as <-; exact Ha|]. rsteps.
  eapply IH; [|eapply Hf; [now left|exact Ha|eassumption]|exact H]. intros a b c Hin. apply Hf. now right.
Qed.
Definition PE (e : elements) : Prop := forall c, elements_values E kn e = Ok c -> cv_ok c.
Definition PS (s : element_set) : Prop := forall v, set_values E kn s = Ok v -> vs_ok v.
Definition PC (c : constraint) : Prop := forall v, constraint_values E kn c = Ok v -> vs_ok v.
Definition PT (t : asn_type) : Prop := forall v, type_values E kn t = Ok v -> vs_ok v.
Lemma p_single v : PE (ESingle v).
Proof. intros c H. cbn [elements_values] in H. rsteps. split; constructor; [eapply resolve_number_ok; eassumption|constructor]. Qed.
Lemma p_sub t : PT t -> PE (ESubtype t).
Proof. intros IH c H. cbn [elements_values] in H. rsteps. now apply (IH x). Qed.
Lemma p_range l li u ui : PE (ERange l li u ui).
Proof.
  intros c H. cbn [elements_values] in H. unfold range_values in H. rsteps. split; cbn; [|constructor].
  constructor; [|constructor]. cbn. split; [|eapply arith_i128_ok; eassumption].
  destruct li; rsteps; [eapply resolve_number_ok; eassumption|eapply arith_i128_ok; eassumption].
Qed.
Lemma p_size s : PS s -> PE (ESize s).
Proof.
  intros IH c H. cbn [elements_values] in H. rsteps. destruct (IH x H0) as [H1 H2].
  destruct (additional_values x); [now apply cv_append_ok|assumption].
Qed.
Lemma p_alpha s : PE (EAlphabet s). Proof. intros c H. discriminate. Qed.
Lemma p_eset s : PS s -> PE (ESet s). Proof. intros _ c H. discriminate. Qed.
Lemma p_set root add : Forall (Forall PE) root -> (forall a, add = Some a -> Forall (Forall PE) a) -> PS (mkSet root add).
Proof.
  intros Hr Ha v.
  assert (Hu : forall u, Forall (Forall PE) u -> forall c,
    rfold (fun acc i => v <-- rfold (fun acc e => v <-- elements_values E kn e ;; Ok (intersect acc v)) cv_new i ;; Ok (cv_append acc v)) cv_new u = Ok c -> cv_ok c).
  { intros u Hf c Hc. eapply (rfold_ok cv_ok); [|exact cv_new_ok|exact Hc]. intros acc i y Hin Hacc Hy. cbv beta in Hy. rsteps.
    apply cv_append_ok; [exact Hacc|]. rewrite Forall_forall in Hf. pose proof (Hf i Hin) as Hi.
    eapply (rfold_ok cv_ok); [|exact cv_new_ok|eassumption]. intros acc' e y' Hin' Hacc' Hy'. cbv beta in Hy'. rsteps. apply intersect_ok; [exact Hacc'|].
    rewrite Forall_forall in Hi. eapply (Hi e Hin'). eassumption. }
  intros H. cbn [set_values] in H. apply rbind_inv in H. destruct H as (rv & Hrv & H). apply Hu in Hrv; [|exact Hr]. destruct add as [a|].
  - apply rbind_inv in H. destruct H as (av & Hav & H). apply Hu in Hav; [|now apply Ha]. injection H as <-. now split.
  - injection H as <-. now split.
Qed.
Lemma p_csub s : PS s -> PC (CSubtype s). Proof. intros H v Hv. now apply H. Qed.
Lemma p_ctable t : PC (CTable t). Proof. intros v H. discriminate. Qed.
Lemma p_ccont : PC CContents. Proof. intros v H. discriminate. Qed.
Lemma p_type k cs : (forall l, cs = Some l -> Forall PC l) -> PT (mkType k cs).
Proof.
  intros H v Hv. cbn [type_values] in Hv. destruct k as [[]| | | | | |]; try discriminate. destruct cs as [[|c l]|]; try discriminate.
  specialize (H _ eq_refl). inversion_clear H. auto.
Qed.
Lemma set_values_ok s : PS s.
Proof. apply (set_ind' PE PS PC PT p_single p_sub p_range p_size p_alpha p_eset p_set p_csub p_ctable p_ccont p_type). Qed.
Lemma type_values_ok t : PT t.
Proof. apply (type_ind' PE PS PC PT p_single p_sub p_range p_size p_alpha p_eset p_set p_csub p_ctable p_ccont p_type). Qed.
Lemma size_values_ok c v : size_values E kn c = Ok v -> vs_ok v.
Proof.
  unfold size_values. destruct c as [[root add]| |]; try discriminate. destruct root as [|i [|? ?]]; try discriminate.
  destruct i as [|[] ?]; try discriminate. apply set_values_ok.
Qed.
Definition ovs_ok (o : option value_set) : Prop := match o with Some v => vs_ok v | None => True end.
Lemma resolve_integer_ok t i : resolve_integer E kn t = Ok i -> ovs_ok (int_constraints i).
Proof.
  unfold resolve_integer. destruct t as [k [[|c l]|]]; intros H; try (injection H as <-; exact I).
  rsteps. cbn. eapply type_values_ok. eassumption.
Qed.
End Values.

(* ------------------------------------------------------------------ *)
(* Resolved types                                                      *)
(* ------------------------------------------------------------------ *)
(* numbers in range, no component both optional and a key, references to names
   of R *)
Fixpoint rok (R : string -> Prop) (t : rtype) : Prop :=
  match t with
  | RInteger i => ovs_ok (int_constraints i)
  | RBitString s | ROctetString s | RCharString _ s => ovs_ok s
  | RChoice root adds =>
      let check := all (fun c : string * rtype => match c with (_, t) => rok R t end) in
      check root /\ match adds with Some l => check l | None => True end
  | RSequence _ cs => all (fun c => match c with mkRComp _ t o k => rok R t /\ (o = true -> k = false) end) cs
  | RSequenceOf t s => rok R t /\ ovs_ok s
  | RReference r => R r
  | RSet _ l => all (fun c : string * Z * rtype => match c with (_, z, t) => i128 z /\ rok R t end) l
  | _ => True
  end.
Lemma all_Forall {A} (P : A -> Prop) l : all P l <-> Forall P l.
Proof. induction l as [|x l IH]; cbn; [split; constructor|]. rewrite IH. split; [intros []; now constructor|intros H; inversion H; auto]. Qed.
Lemma rok_weaken (R R' : string -> Prop) : (forall r, R r -> R' r) -> forall t, rok R t -> rok R' t.
Proof.
  intros HR. apply (rtype_ind' (fun t => rok R t -> rok R' t)); cbn [rok]; auto.
  - intros root adds H1 H2. rewrite !all_Forall. intros [H3 H4]. split.
    + rewrite Forall_forall in *. intros [id t] Hin. apply (H1 _ Hin), (H3 _ Hin).
    + destruct adds as [l|]; [|exact I]. specialize (H2 l eq_refl). rewrite all_Forall in *. rewrite Forall_forall in *. intros [id t] Hin. apply (H2 _ Hin), (H4 _ Hin).
  - intros e cs H. rewrite !all_Forall, !Forall_forall in *. intros H' [id t o k] Hin. destruct (H' _ Hin) as [H1 H2]. split; [apply (H _ Hin H1)|exact H2].
  - intros t s H [H1 H2]. auto.
  - intros r l H. rewrite !all_Forall, !Forall_forall in *. intros H' [[nm z] t] Hin. destruct (H' _ Hin) as [H1 H2]. split; [exact H1|apply (H _ Hin H2)].
Qed.

Definition field_ok (R : string -> Prop) (f : ResolveModel.rfield) : Prop :=
  match f with RFType (Some t) => rok R t | RFType None => True | RFValue t _ => rok R t end.
Definition object_ok (R : string -> Prop) (o : robject) : Prop := Forall (fun kf => field_ok R (snd kf)) o.
Definition table_ok (R : string -> Prop) (l : list (Z * string * robject)) : Prop := Forall (fun e => i128 (fst (fst e)) /\ object_ok R (snd e)) l.
Definition set_ok (R : string -> Prop) (s : robject_set) : Prop := Forall (object_ok R) (os_elements s) /\ table_ok R (os_lookup s).
Definition def_ok (R : string -> Prop) (d : rdef) : Prop :=
  match d with
  | DType t => rok R t /\ not_set t
  | DValue v => match base_integer_value v with Some z => i128 z | None => True end
  | DObjectSet s => set_ok R s
  | DObject o => object_ok R o
  end.
Lemma object_weaken (R R' : string -> Prop) o : (forall r, R r -> R' r) -> object_ok R o -> object_ok R' o.
Proof.
  intros HR H. eapply Forall_impl; [|exact H]. intros [k [[t|]|t v]] Hf; cbn in *; try exact I; now apply (rok_weaken R R').
Qed.
Lemma def_weaken (R R' : string -> Prop) d : (forall r, R r -> R' r) -> def_ok R d -> def_ok R' d.
Proof.
  intros HR. destruct d; cbn; auto.
  - intros [H1 H2]. split; [now apply (rok_weaken R R')|exact H2].
  - intros [H1 H2]. split; (eapply Forall_impl; [|eassumption]); cbn; intros x Hx; [now apply (object_weaken R R')|].
    destruct Hx as [Hx1 Hx2]. split; [exact Hx1|now apply (object_weaken R R')].
  - now apply object_weaken.
Qed.

Section AsnInd.
Context (P : asn_type -> Prop).
Context (H1 : forall b cs, P (mkType (KBuiltin b) cs)) (H2 : forall r cs, P (mkType (KReference r) cs))
  (H3 : forall root adds cs, Forall (fun p => P (snd p)) root -> (forall gs, adds = Some gs -> Forall (Forall (fun p => P (snd p))) gs) -> P (mkType (KChoice root adds) cs))
  (H4 : forall root adds ext cs, Forall (fun c => P (comp_ty c)) root -> P (mkType (KSequence root adds ext) cs))
  (H5 : forall s t cs, P t -> P (mkType (KSequenceOf s t) cs)) (H6 : forall cs, P (mkType KSet cs)) (H7 : forall cs, P (mkType KSetOf cs)).
Fixpoint asn_ind' (t : asn_type) : P t :=
  match t with
  | mkType (KBuiltin b) cs => H1 b cs
  | mkType (KReference r) cs => H2 r cs
  | mkType (KChoice root adds) cs => H3 root adds cs
      ((fix go (l : list (string * asn_type)) : Forall (fun p => P (snd p)) l := match l with [] => Forall_nil _ | p :: r => Forall_cons p (match p as p0 return P (snd p0) with (_, x) => asn_ind' x end) (go r) end) root)
      match adds as o return forall gs, o = Some gs -> Forall (Forall (fun p => P (snd p))) gs with
      | None => fun l H => False_ind _ (eq_ind None (fun o => match o with None => True | Some _ => False end) I (Some l) H)
      | Some l0 => fun l H =>
          eq_ind (Some l0) (fun o => match o with Some l => Forall (Forall (fun p => P (snd p))) l | None => True end)
            ((fix gg (l : list (list (string * asn_type))) : Forall (Forall (fun p => P (snd p))) l :=
                match l with
                | [] => Forall_nil _
                | g :: r => Forall_cons g ((fix go (l : list (string * asn_type)) : Forall (fun p => P (snd p)) l := match l with [] => Forall_nil _ | p :: r => Forall_cons p (match p as p0 return P (snd p0) with (_, x) => asn_ind' x end) (go r) end) g) (gg r)
                end) l0)
            (Some l) H
      end
  | mkType (KSequence root adds ext) cs => H4 root adds ext cs
      ((fix go (l : list seq_component) : Forall (fun c => P (comp_ty c)) l :=
          match l with [] => Forall_nil _ | c :: r => Forall_cons c (match c as c0 return P (comp_ty c0) with mkSeqComp _ x _ _ => asn_ind' x end) (go r) end) root)
  | mkType (KSequenceOf s t) cs => H5 s t cs (asn_ind' t)
  | mkType KSet cs => H6 cs
  | mkType KSetOf cs => H7 cs
  end.
End AsnInd.

Lemma rmap_forall {A B} (f : A -> res B) (P : A -> Prop) (Q : B -> Prop) : (forall x y, P x -> f x = Ok y -> Q y) ->
  forall l l', Forall P l -> rmap f l = Ok l' -> Forall Q l'.
Proof.
  intros Hf. induction l as [|x l IH]; intros l' Hl H.
  - injection H as <-. constructor.
  - rewrite rmap_cons in H. rsteps. inversion_clear Hl. constructor; eauto.
Qed.
Lemma rmap_forall' {A B} (f : A -> res B) (Q : B -> Prop) : (forall x y, f x = Ok y -> Q y) -> forall l l', rmap f l = Ok l' -> Forall Q l'.
Proof. intros Hf l l'. apply (rmap_forall f (fun _ => True) Q); [eauto|]. induction l; constructor; auto. Qed.

Section ResolveOk.
Context (E : env) (R : string -> Prop) (defs : list (string * rdef)) (inst : string -> list actual_param -> res rtype).
Context (Hdefs : Forall (fun kd => def_ok R (snd kd)) defs) (HR : forall r t, lookup r defs = Some (DType t) -> R r).
Context (Hinst : forall r ps t, inst r ps = Ok t -> rok R t).

Lemma lookup_ok k d : lookup k defs = Some d -> def_ok R d.
Proof. intros H. apply lookup_in in H. rewrite Forall_forall in Hdefs. apply (Hdefs _ H). Qed.
Lemma known_ok s z : known defs s = Some z -> i128 z.
Proof.
  unfold known. destruct (lookup s defs) as [[|v| |]|] eqn:H; try discriminate. destruct v; try discriminate.
  intros H'. injection H' as <-. apply (lookup_ok _ _ H).
Qed.
Lemma resolve_size_ok strict cs o : resolve_size E defs strict cs = Ok o -> ovs_ok o.
Proof.
  unfold resolve_size. destruct cs as [[|c l]|]; intros H; try (injection H as <-; exact I). rsteps. destruct x.
  - rsteps. cbn. eapply size_values_ok; [exact known_ok|eassumption].
  - destruct strict; [discriminate|injection H as <-; exact I].
Qed.
Lemma resolve_base_ok b cs t : resolve_base E defs b cs = Ok t -> rok R t.
Proof.
  destruct b; cbn [resolve_base]; intros H; try discriminate; rsteps; cbn; try exact I.
  all: try (eapply resolve_size_ok; eassumption).
  - eapply resolve_integer_ok; [exact known_ok|eassumption].
  - unfold resolve_enumerated in H. rsteps. exact I.
Qed.
Lemma einsert_ok e l : (let '(_, z, t) := e in i128 z /\ rok R t) -> all (fun c : string * Z * rtype => let '(_, z, t) := c in i128 z /\ rok R t) l ->
  all (fun c : string * Z * rtype => let '(_, z, t) := c in i128 z /\ rok R t) (einsert e l).
Proof.
  intros He. induction l as [|x l IH]; cbn; [tauto|]. intros [Hx Hl]. destruct (entry_eqb _ _); cbn; [tauto|]. destruct (entry_ltb _ _); cbn; tauto.
Qed.
Lemma open_types_ok f s : set_ok R s -> all (fun c : string * Z * rtype => let '(_, z, t) := c in i128 z /\ rok R t) (open_types f s).
Proof.
  intros [_ H]. unfold open_types. set (g := fun acc e => _).
  assert (Hg : forall l acc, table_ok R l -> all (fun c : string * Z * rtype => let '(_, z, t) := c in i128 z /\ rok R t) acc ->
    all (fun c : string * Z * rtype => let '(_, z, t) := c in i128 z /\ rok R t) (fold_left g l acc)).
  { induction l as [|[[z nm] o] l IH]; intros acc Hl Ha; cbn [fold_left]; [exact Ha|]. inversion_clear Hl as [|? ? [Hz Ho] Hl']. apply IH; [exact Hl'|].
    unfold g at 1. destruct (lookup f o) as [[[[]|]|]|] eqn:Hf; try exact Ha. apply einsert_ok; [|exact Ha]. split; [exact Hz|].
    apply lookup_in in Hf. unfold object_ok in Ho. rewrite Forall_forall in Ho. apply (Ho _ Hf). }
  apply Hg; [exact H|exact I].
Qed.
Lemma class_components_ok comps r s l : set_ok R s -> class_components comps r s = Ok l -> rok R (RSequence false l).
Proof.
  intros Hs H. unfold class_components in H. destruct (os_elements s) as [|first els] eqn:He; [injection H as <-; exact I|].
  assert (Hfirst : object_ok R first). { destruct Hs as [Hs _]. rewrite He in Hs. now inversion Hs. }
  cbn [rok]. apply all_Forall. eapply (rfold_ok (Forall _)); [|constructor|exact H]. intros acc [id [[| [ | |]| | | | |] cs]] y Hin Hacc Hy; try (injection Hy as <-; exact Hacc).
  destruct (lookup fieldref first) as [[ot|t v]|] eqn:Hl.
  - injection Hy as <-. apply Forall_app. split; [exact Hacc|]. constructor; [|constructor]. split; [apply (open_types_ok fieldref s Hs)|reflexivity].
  - destruct cs as [[|c cs]|]; try discriminate. injection Hy as <-. apply Forall_app. split; [exact Hacc|]. constructor; [|constructor]. split; [|discriminate].
    apply lookup_in in Hl. unfold object_ok in Hfirst. rewrite Forall_forall in Hfirst. apply (Hfirst _ Hl).
  - injection Hy as <-. apply Forall_app. split; [exact Hacc|]. constructor; [|constructor]. split; [apply (open_types_ok fieldref s Hs)|reflexivity].
Qed.
Lemma class_sequence_ok comps ext t : resolve_class_sequence defs comps ext = Ok t -> rok R t.
Proof.
  unfold resolve_class_sequence. destruct comps as [|[id [k cs]] comps]; [discriminate|]. destruct cs as [[|c cs]|]; try discriminate.
  intros H. rsteps. destruct (lookup x defs) as [[| |s|]|] eqn:Hl; try discriminate. rsteps.
  exact (class_components_ok _ _ _ _ (lookup_ok _ _ Hl) H1).
Qed.
Lemma resolve_type_ok t : forall rt, resolve_type E defs inst t = Ok rt -> rok R rt.
Proof.
  revert t. apply (asn_ind' (fun t => forall rt, resolve_type E defs inst t = Ok rt -> rok R rt)).
  - intros b cs rt H. cbn [resolve_type] in H. eapply resolve_base_ok; eassumption.
  - intros [r|c f|r ps] cs rt H; cbn [resolve_type] in H; [|discriminate|now apply (Hinst r ps)].
    destruct (lookup r defs) as [[t| | |]|] eqn:Hl; try discriminate. injection H as <-. apply (HR r t Hl).
  - intros root adds cs IH1 IH2 rt H. cbn [resolve_type] in H. apply rbind_inv in H. destruct H as (root' & Hr & H).
    apply rbind_inv in H. destruct H as (adds' & Ha & H). injection H as <-. cbn [rok].
    assert (Hc : forall (x : string * asn_type) y, (forall rt, resolve_type E defs inst (snd x) = Ok rt -> rok R rt) ->
      (let (id, t) := x in r <-- resolve_type E defs inst t ;; Ok (id, r)) = Ok y -> (let (_, t) := y in rok R t)).
    { intros [id t] y Hx Hy. cbn [snd] in Hx. rsteps. now apply Hx. }
    split.
    + apply all_Forall. exact (rmap_forall _ _ (fun c : string * rtype => let (_, t) := c in rok R t) Hc _ _ IH1 Hr).
    + destruct adds as [gs|]; [|injection Ha as <-; exact I]. rsteps. apply all_Forall. apply Forall_concat.
      refine (rmap_forall _ _ (Forall (fun c : string * rtype => let (_, t) := c in rok R t)) _ _ _ (IH2 gs eq_refl) H).
      intros g g' Hg Hg'. exact (rmap_forall _ _ (fun c : string * rtype => let (_, t) := c in rok R t) Hc _ _ Hg Hg').
  - intros root adds ext cs IH rt H. cbn [resolve_type] in H. set (comp := fun c => _) in H. destruct (rmap comp root) as [l| | |] eqn:Hl; try discriminate.
    + injection H as <-. cbn [rok]. apply all_Forall.
      refine (rmap_forall comp _ _ _ _ _ IH Hl). intros [id t o d] [id' t' o' k'] Hx Hy. cbn [comp_ty] in Hx. unfold comp in Hy. apply rbind_inv in Hy. destruct Hy as (t0 & Ht0 & Hy). injection Hy as <- <- <- <-. split; [now apply Hx|reflexivity].
    + eapply class_sequence_ok; eassumption.
  - intros s t cs IH rt H. cbn [resolve_type] in H. rsteps. cbn [rok]. split; [now apply IH|]. destruct s; rsteps; [|exact I].
    cbn. eapply size_values_ok; [exact known_ok|eassumption].
  - discriminate.
  - discriminate.
Qed.
Lemma resolve_value_ok fuel : forall v t r, resolve_value defs fuel v t = Ok r -> match base_integer_value r with Some z => i128 z | None => True end.
Proof.
  induction fuel as [|fuel IH]; intros v t r H; cbn [resolve_value] in H; destruct (lookup v defs) as [[]|] eqn:Hl; try discriminate; try (injection H as <-; exact I);
    destruct t; try discriminate; try (injection H as <-; exact I).
  - destruct (parse_i128 v) as [z|] eqn:Hp; [|discriminate]. injection H as <-. now apply (parse_i128_ok v).
  - destruct (lookup r0 defs) as [[]|]; discriminate.
  - destruct (parse_i128 v) as [z|] eqn:Hp; [|discriminate]. injection H as <-. now apply (parse_i128_ok v).
  - destruct (lookup r0 defs) as [[]|]; try discriminate. rsteps. cbn. eapply IH. eassumption.
Qed.
Lemma resolve_object_ok fuel v o : resolve_object E defs inst fuel v = Ok o -> object_ok R o.
Proof.
  destruct v as [fields|]; cbn [resolve_object]; [|discriminate]. intros H. refine (rmap_forall' _ _ _ _ _ H).
  intros [k f] y Hy. destruct f as [[t|]|t [s|]]; rsteps; cbn; try exact I; eapply resolve_type_ok; eassumption.
Qed.
Lemma table_insert_ok z nm o l : i128 z -> object_ok R o -> table_ok R l -> table_ok R (table_insert z nm o l).
Proof.
  intros Hz Ho. induction 1 as [|[[z' nm'] o'] l Hx Hl IH]; cbn; [constructor; [now split|constructor]|].
  destruct ((z =? z') && String.eqb nm nm'); constructor; try now split. all: auto.
Qed.
Lemma table_add_ok u o l l' : object_ok R o -> table_ok R l -> table_add defs u o l = Ok l' -> table_ok R l'.
Proof.
  intros Ho Hl. unfold table_add. destruct u as [u|]; [|intros H; injection H as <-; exact Hl].
  destruct (lookup u o) as [[t|t [v|]]|]; try discriminate; [intros H; injection H as <-; exact Hl|].
  destruct v; try (intros H; injection H as <-; exact Hl).
  destruct (lookup s defs) as [[|v| |]|] eqn:Hs; try discriminate; try (intros H; injection H as <-; exact Hl).
  pose proof (lookup_ok _ _ Hs) as Hv. cbn in Hv. destruct (base_integer_value v) as [z|]; [|discriminate].
  intros H. injection H as <-. now apply table_insert_ok.
Qed.
Lemma resolve_object_set_ok fuel u elems s : resolve_object_set E defs inst fuel u elems = Ok s -> set_ok R s.
Proof.
  unfold resolve_object_set. intros H. refine (rfold_ok (set_ok R) _ _ _ _ _ _ H); [|split; constructor].
  intros acc e y Hin [Ha1 Ha2] Hy. destruct e as [r|r|v].
  - destruct (lookup r defs) as [[| |s'|]|] eqn:Hl; try discriminate. injection Hy as <-. destruct (lookup_ok _ _ Hl) as [Hs1 Hs2].
    split; cbn; [apply Forall_app; auto|]. generalize dependent (os_lookup acc). generalize dependent (os_lookup s'). clear - R.
    induction l as [|[[z nm] o] l IH]; intros Hl acc Ha; cbn [fold_left]; [exact Ha|]. inversion_clear Hl as [|? ? [Hz Ho] Hl']. apply IH; [exact Hl'|]. now apply table_insert_ok.
  - destruct (lookup r defs) as [[| | |o]|] eqn:Hl; try discriminate. rsteps. pose proof (lookup_ok _ _ Hl) as Ho. split; cbn.
    + apply Forall_app. split; [exact Ha1|]. constructor; [exact Ho|constructor].
    + eapply table_add_ok; [exact Ho|exact Ha2|eassumption].
  - rsteps. pose proof (resolve_object_ok _ _ _ H0) as Ho. split; cbn.
    + apply Forall_app. split; [exact Ha1|]. constructor; [exact Ho|constructor].
    + eapply table_add_ok; [exact Ho|exact Ha2|eassumption].
Qed.
End ResolveOk.

(* ------------------------------------------------------------------ *)
(* Generated definitions                                               *)
(* ------------------------------------------------------------------ *)
(* printable, but for fields that are of a type called Option *)
Definition sound_field (f : gfield) : Prop := oi128 (gf_optional f) /\ (gf_optional f <> None -> gf_key f = false).
Definition sound (d : gdef) : Prop := match d with GSequence _ n fs => oi128 n /\ Forall sound_field fs | d => printable d end.
Definition deriving (d : gdef) : Prop := match d with GOpen a _ => a = true | _ => True end.
Definition good (N : string -> Prop) (d : gdef) : Prop := Forall N (used_types d) /\ (countable d -> sound d).
Lemma sound_printable d : sound d -> ~ In "Option" (used_types d) -> printable d.
Proof.
  destruct d; cbn; auto. intros [H1 H2] Hn. split; [exact H1|]. rewrite Forall_forall in *. intros f Hf. destruct (H2 f Hf) as [H3 H4].
  repeat split; auto. intros _ Ht. apply Hn. rewrite <- Ht. now apply in_map.
Qed.

Section GenerateOk.
Context (E : env) (R N : string -> Prop) (HN : forall r, R r -> N (to_type_ident r)).
Definition aux_good (s : gstate) : Prop := Forall (fun i => good N (snd i) /\ deriving (snd i)) (aux_items s).
Definition aux_named (s : gstate) : Prop := forall i, In i (aux_items s) -> N (fst i).
Definition GOk {A} (m : G A) (Q : A -> Prop) : Prop :=
  Grows m /\ forall s a s', m s = Ok (a, s') -> aux_named s' -> aux_good s -> aux_good s' /\ Q a.
Lemma GOk_ret {A} (a : A) (Q : A -> Prop) : Q a -> GOk (gret a) Q.
Proof. intros H. split; [apply Grows_ret|]. intros s b s' Hm _ Hs. gsteps. auto. Qed.
Lemma GOk_lift {A} (r : res A) (Q : A -> Prop) : (forall a, r = Ok a -> Q a) -> GOk (glift r) Q.
Proof. intros H. split; [apply Grows_lift|]. intros s b s' Hm _ Hs. gsteps. auto. Qed.
Lemma aux_named_grows s s' : grows s s' -> aux_named s' -> aux_named s.
Proof. intros [[l H] _] Hn i Hi. apply Hn. rewrite H. apply in_app_iff. now left. Qed.
Lemma GOk_bind {A B} (m : G A) (f : A -> G B) Q Q' : GOk m Q -> (forall a, Grows (f a)) -> (forall a, Q a -> GOk (f a) Q') -> GOk (gbind m f) Q'.
Proof.
  intros [Hg Hm] Hfg Hf. split; [now apply Grows_bind|]. intros s b s' H Hn Hs. gsteps.
  destruct (Hm _ _ _ H0) as [H1 H2]; [|exact Hs|]; [eapply aux_named_grows; [eapply Hfg; eassumption|exact Hn]|].
  destruct (Hf _ H2) as [_ Hf']. eapply Hf'; eassumption.
Qed.
Lemma GOk_weaken {A} (m : G A) (Q Q' : A -> Prop) : (forall a, Q a -> Q' a) -> GOk m Q -> GOk m Q'.
Proof. intros HQ [Hg Hm]. split; [exact Hg|]. intros s a s' H1 H2 H3. destruct (Hm _ _ _ H1 H2 H3). auto. Qed.

Definition TOk (t : rtype) : Prop := rok R t -> forall name, GOk (generate_for_type E t name) (fun d => good N d /\ (not_set t -> deriving d)).
Lemma TOk_maybe t input : TOk t -> rok R t -> GOk (name_maybe_aux (generate_for_type E t) t input) N.
Proof.
  intros Ht Hr. split; [apply Grows_maybe, generate_grows|]. intros s a s' H Hn Hs.
  assert (Hpush : forall d s1 name, (exists s0, generate_for_type E t name s0 = Ok (d, s1) /\ aux_good s0) ->
    let d' := match d with GOpen _ vs => if match t with RSet _ _ => true | _ => false end then GOpen true vs else d | d => d end in
    s' = mkG (counter s1) (aux_items s1 ++ [(to_type_ident name, d')]) -> a = to_type_ident name -> aux_good s' /\ N a).
  { intros d s1 name (s0 & H0 & Hs0) d' -> ->. assert (Hn1 : aux_named s1) by (intros i Hi; apply Hn; cbn; apply in_app_iff; now left).
    destruct (Ht Hr name) as [_ Hg]. destruct (Hg _ _ _ H0 Hn1 Hs0) as [H1 [[H2 H2'] H3]]. split.
    - unfold aux_good. cbn [aux_items]. apply Forall_app. split; [exact H1|]. constructor; [|constructor]. cbn [snd]. subst d'.
      destruct t; cbn [not_set] in *; try (destruct d; (split; [now split|apply H3; discriminate])).
      destruct d; (split; [now split|]); cbn; auto.
    - apply (Hn (to_type_ident name, d')). cbn. apply in_app_iff. right. now left. }
  assert (Hu : forall b n s0, get_unique_name b s = Ok (n, s0) -> aux_good s0).
  { intros b n s0 Hb. unfold get_unique_name in Hb. injection Hb as <- <-. exact Hs. }
  unfold name_maybe_aux, push_aux in H. destruct t.
  all: try (gsteps; split; [exact Hs|apply HN, Hr]).
  all: cbn [aux_base_name aux_constructed_name] in H.
  all: try (gsteps; injection H2 as <- <-; eapply Hpush; [eexists; split; [eassumption|eapply Hu; eassumption]| |reflexivity]; destruct x0 || destruct x1; reflexivity).
  all: try (destruct input; gsteps; injection H2 as <- <-; (eapply Hpush; [eexists; split; [eassumption|first [exact Hs|eapply Hu; eassumption]]| |reflexivity]; cbn; reflexivity || (destruct x0; reflexivity) || (destruct x1; reflexivity))).
  all: try (destruct input; gsteps; injection H1 as <- <-; (eapply Hpush; [eexists; split; [eassumption|exact Hs]| |reflexivity]; cbn; reflexivity || (destruct x; reflexivity))).
Qed.
Lemma Grows_all {A} (m : G A) Q : GOk m Q -> Grows m. Proof. now intros []. Qed.
Lemma grows_choice name x i l : Grows (choice_tokens E name x i l).
Proof. apply Grows_choice_tokens. apply Forall_forall. intros. apply generate_grows. Qed.
Lemma grows_seq name i l : Grows (seq_tokens E name i l).
Proof. apply Grows_seq_tokens. apply Forall_forall. intros. apply generate_grows. Qed.
Lemma grows_set l : Grows (set_tokens E l).
Proof. apply Grows_set_tokens. apply Forall_forall. intros. apply generate_grows. Qed.
Lemma choice_ok name x : forall l i, Forall (fun p => TOk (snd p)) l -> all (fun c : string * rtype => let (_, t) := c in rok R t) l ->
  GOk (choice_tokens E name x i l) (fun vs => Forall N (map gv_type vs) /\ Forall (fun v => i <= gv_key v < i + zlen vs) vs).
Proof.
  induction l as [|[id t] l IH]; intros i Ht Hr; [apply GOk_ret; split; constructor|]. rewrite choice_tokens_cons.
  inversion_clear Ht as [|? ? H1 H2]. destruct Hr as [Hr1 Hr2]. eapply GOk_bind; [apply (TOk_maybe t _ H1 Hr1)| |].
  { intros a. apply Grows_bind; [apply grows_choice|intros; apply Grows_ret]. }
  intros ty Hty. eapply GOk_bind; [apply IH; assumption|intros; apply Grows_ret|]. intros vs [Hv1 Hv2]. apply GOk_ret. cbn [map gv_type]. split; [now constructor|].
  unfold zlen in *. cbn [List.length]. constructor; [cbn [gv_key]; lia|]. eapply Forall_impl; [|exact Hv2]. intros v Hv. cbv beta in Hv. lia.
Qed.
Lemma seq_ok name : forall l n, Forall (fun c => TOk (rc_ty c)) l -> all (fun c => match c with mkRComp _ t o k => rok R t /\ (o = true -> k = false) end) l ->
  GOk (seq_tokens E name n l) (fun p => Forall N (map gf_type (fst p)) /\ n <= snd p <= n + zlen (fst p) /\
    Forall (fun f => (forall i, gf_optional f = Some i -> n <= i < n + zlen (fst p)) /\ (gf_optional f <> None -> gf_key f = false)) (fst p)).
Proof.
  induction l as [|[id t o k] l IH]; intros n Ht Hr; [apply GOk_ret; split; [constructor|split; [cbn; unfold zlen; cbn; lia|constructor]]|]. rewrite seq_tokens_cons.
  inversion_clear Ht as [|? ? H1 H2]. destruct Hr as [[Hr1 Hk] Hr2]. eapply GOk_bind; [apply (TOk_maybe t _ H1 Hr1)| |].
  { intros a. apply Grows_bind; [apply grows_seq|intros; apply Grows_ret]. }
  intros ty Hty. eapply GOk_bind; [apply IH; assumption|intros; apply Grows_ret|]. intros [fs m] [Hv1 [Hm Hv2]]. apply GOk_ret. cbn [fst snd map gf_type] in *. split; [now constructor|].
  unfold zlen in *. cbn [List.length]. split; [destruct o; lia|]. constructor; cbn [gf_optional gf_key].
  - split; [|destruct o; [intros _; now apply Hk|congruence]]. intros i Hi. destruct o; [injection Hi as <-; lia|discriminate].
  - eapply Forall_impl; [|exact Hv2]. intros f [Hf1 Hf2]. split; [|exact Hf2]. intros i Hi. specialize (Hf1 i Hi). destruct o; lia.
Qed.
Lemma types_ok : forall l, Forall (fun p => TOk (snd p)) l -> all (fun c : string * Z * rtype => match c with (_, z, t) => i128 z /\ rok R t end) l ->
  GOk (set_tokens E l) (fun vs => Forall N (map gv_type vs) /\ Forall (fun v => i128 (gv_key v) /\ gv_extended v = false) vs).
Proof.
  induction l as [|[[nm z] t] l IH]; intros Ht Hr; [apply GOk_ret; split; constructor|]. rewrite set_tokens_cons.
  inversion_clear Ht as [|? ? H1 H2]. destruct Hr as [[Hz Hr1] Hr2]. eapply GOk_bind; [apply (TOk_maybe t _ H1 Hr1)| |].
  { intros a. apply Grows_bind; [apply grows_set|intros; apply Grows_ret]. }
  intros ty Hty. eapply GOk_bind; [apply IH; assumption|intros; apply Grows_ret|]. intros vs [Hv1 Hv2]. apply GOk_ret. cbn [map gv_type]. split; now constructor.
Qed.
Lemma size_attributes_ok s a : ovs_ok s -> size_attributes E s = Ok a -> printable_size a.
Proof.
  unfold size_attributes. destruct s as [v|]; intros Hs H; [|injection H as <-; exact I]. rsteps. destruct Hs as [Hv _]. split; [now apply cv_min_ok|].
  eapply cv_max_ok; eassumption.
Qed.
Lemma usize_ok z r : arith_usize E z = Ok r -> 0 <= r < 2 ^ 64.
Proof.
  unfold arith_usize, in_usize. destruct ((0 <=? z) && (z <? 2 ^ 64)) eqn:H; [intros H'; injection H' as <-; lia|].
  destruct (overflow_checks E); intros H'; [discriminate|]. injection H' as <-. apply Z.mod_pos_bound. reflexivity.
Qed.
Lemma small_i128 z : 0 <= z <= 2 ^ 64 + 2 ^ 64 -> i128 z.
Proof.
  intros H. unfold i128, in_i128. assert (2 ^ 64 + 2 ^ 64 < 2 ^ 127) by reflexivity. assert (- 2 ^ 127 <= 0) by discriminate.
  set (p := 2 ^ 64) in *. set (q := 2 ^ 127) in *. clearbody p q. apply andb_true_intro. split; [apply Z.leb_le|apply Z.ltb_lt]; lia.
Qed.
Lemma inner_width_in b : In (inner_width b) [8; 16; 32; 64].
Proof. unfold inner_width. destruct (b =? 8); [now left|]. destruct (b =? 16); [right; now left|]. destruct (b =? 32); [do 2 right; now left|do 3 right; now left]. Qed.
Lemma GOk_size s f : ovs_ok s -> (forall a, used_types (f a) = []) -> (forall a, printable_size a -> sound (f a)) -> (forall a, deriving (f a)) -> forall P : Prop,
  GOk (gsize E s f) (fun d => good N d /\ (P -> deriving d)).
Proof.
  intros Hs Hu Hf Hd P. unfold gsize. eapply GOk_bind; [apply (GOk_lift _ printable_size); intros a; now apply size_attributes_ok|intros; apply Grows_ret|].
  intros a Ha. apply GOk_ret. split; [split; [rewrite Hu; constructor|auto]|auto].
Qed.
Lemma generate_ok t : TOk t.
Proof.
  induction t using rtype_ind'; intros Hr name.
  - cbn [generate_for_type]. apply GOk_lift. intros d Hd. unfold generate_integer in Hd. cbn in Hr. destruct (int_constraints i) as [v|].
    + rsteps. split; [split; [constructor|intros _]|intros _; exact I]. cbn. destruct Hr as [Hv _]. split; [apply inner_width_in|]. split; [now apply cv_min_ok|].
      eapply cv_max_ok; eassumption.
    + injection Hd as <-. split; [split; [constructor|intros _]|intros _; exact I]. cbn. split; [apply inner_width_in|auto].
  - cbn [generate_for_type]. apply GOk_lift. intros d Hd. unfold generate_enumerated in Hd. rsteps. split; [split; [constructor|intros _]|intros _; exact I]. cbn.
    apply usize_ok in H. apply small_i128. lia.
  - cbn [generate_for_type]. apply GOk_size; auto; reflexivity.
  - apply GOk_ret. repeat split; constructor.
  - apply GOk_ret. repeat split; constructor.
  - cbn [generate_for_type]. apply GOk_size; auto; reflexivity.
  - cbn [generate_for_type]. apply GOk_size; auto; reflexivity.
  - apply GOk_ret. repeat split; constructor.
  - rewrite generate_choice. destruct Hr as [Hr1 Hr2]. eapply GOk_bind; [now apply choice_ok| |].
    { intros a. apply Grows_bind; [destruct adds; [apply grows_choice|apply Grows_ret]|]. intros b. apply Grows_bind; [apply Grows_lift|intros; apply Grows_ret]. }
    intros vs [Hv1 Hv2]. eapply (GOk_bind _ _ (fun ws => Forall N (map gv_type ws) /\ Forall (fun v => 0 <= gv_key v < 0 + zlen ws) ws)).
    { destruct adds as [l|]; [apply choice_ok; auto|apply GOk_ret; split; constructor]. }
    { intros a. apply Grows_bind; [apply Grows_lift|intros; apply Grows_ret]. }
    intros ws [Hw1 Hw2]. eapply GOk_bind; [apply (GOk_lift _ (fun ub => 0 <= ub < 2 ^ 64)); intros ub; apply usize_ok|intros; apply Grows_ret|].
    intros ub Hub. cbv beta in Hub. apply GOk_ret. split; [|intros _; exact I]. split; [cbn [used_types]; rewrite map_app; now apply Forall_app|].
    intros Hc. cbn [countable] in Hc. cbn [sound printable]. split; [reflexivity|]. split; [apply small_i128; lia|].
    unfold zlen in *. rewrite app_length in Hc. apply Forall_app. split; eapply Forall_impl; try eassumption; intros v Hv; apply small_i128; cbv beta in Hv; lia.
  - rewrite generate_seq. cbn [rok] in Hr. eapply GOk_bind; [now apply seq_ok|intros; apply Grows_ret|]. intros [fs n] [Hf1 [Hn Hf2]]. cbn [fst snd] in *. apply GOk_ret.
    split; [|intros _; exact I]. split; [exact Hf1|]. intros Hc. cbn [countable sound] in *. split.
    + destruct (0 <? n); [apply small_i128; lia|exact I].
    + eapply Forall_impl; [|exact Hf2]. intros f [Hg1 Hg2]. split; [|exact Hg2]. destruct (gf_optional f) as [i|]; [|exact I]. specialize (Hg1 i eq_refl). apply small_i128. lia.
  - cbn [generate_for_type]. destruct Hr as [Hr1 Hr2]. eapply GOk_bind; [apply (GOk_lift _ printable_size); intros a; now apply size_attributes_ok| |].
    { intros a. apply Grows_bind; [apply Grows_maybe, generate_grows|intros; apply Grows_ret]. }
    intros a Ha. eapply GOk_bind; [now apply TOk_maybe|intros; apply Grows_ret|]. intros ty Hty. apply GOk_ret. split; [|intros _; exact I]. split; [repeat constructor; exact Hty|auto].
  - apply GOk_ret. split; [|intros _; exact I]. split; [repeat constructor; apply HN, Hr|auto].
  - rewrite generate_set. eapply GOk_bind; [now apply types_ok|intros; apply Grows_ret|]. intros vs [Hv1 Hv2]. apply GOk_ret.
    split; [split; [exact Hv1|auto]|]. intros Hns. now destruct (Hns r l).
Qed.
Lemma items_ok defs : Forall (fun kt => rok R (snd kt) /\ not_set (snd kt)) defs ->
  GOk (generate_items E defs) (Forall (fun i => good N (snd i) /\ deriving (snd i))).
Proof.
  induction defs as [|[k t] defs IH]; intros H; cbn [generate_items]; [apply GOk_ret; constructor|]. inversion_clear H as [|? ? [H1 H2] H3]. cbn [snd] in *.
  eapply GOk_bind; [now apply generate_ok| |].
  { intros a. apply Grows_bind; [apply generate_items_grows|intros; apply Grows_ret]. }
  intros d [Hd1 Hd2]. eapply GOk_bind; [now apply IH|intros; apply Grows_ret|]. intros items Hi. apply GOk_ret. constructor; auto.
Qed.
End GenerateOk.

(* every definition of a generated program is printable and uses defined types
   only *)
Theorem generated_ok E R defs prog : generate E defs = Ok prog -> Forall (fun kt => rok R (snd kt) /\ not_set (snd kt)) defs ->
  forall N : string -> Prop, (forall r, R r -> N (to_type_ident r)) -> (forall n d, In (n, d) prog -> N n) ->
  Forall (fun i => good N (snd i) /\ deriving (snd i)) prog.
Proof.
  unfold generate. intros H Hd N HR HN. rsteps. destruct x as [items s]. cbn [fst snd] in *.
  destruct (items_ok E R N HR defs Hd) as [_ Hi]. destruct (Hi _ _ _ H0) as [H1 H2].
  - intros [n d] Hin. apply (HN n d). apply in_app_iff. now right.
  - constructor.
  - apply Forall_app. split; assumption.
Qed.

(* ------------------------------------------------------------------ *)
(* The resolver                                                        *)
(* ------------------------------------------------------------------ *)
Definition inv (R : string -> Prop) (st : resolver) : Prop :=
  Forall (fun kd => def_ok R (snd kd)) (resolved_defs st) /\ forall r t, lookup r (resolved_defs st) = Some (DType t) -> R r.
Lemma instantiate_ok E R st : inv R st -> forall depth r ps t, instantiate E depth st r ps = Ok t -> rok R t /\ not_set t.
Proof.
  intros [H1 H2]. induction depth as [|n IH]; cbn [instantiate]; [discriminate|]. intros r ps t H. destruct (lookup r (parameterized_defs st)); [|discriminate]. rsteps.
  split; [eapply resolve_type_ok; try eassumption; intros; now apply (IH r0 ps0)|].
  eapply resolve_type_not_set; [|exact H]. intros r0 ps0 t0 Ht0. now apply (IH r0 ps0).
Qed.
Section States.
Context (E : env) (depth fuel : nat).
Lemma resolve_definition_ok R st a d : inv R st -> resolve_definition E (instantiate E depth) fuel st a = Ok d -> def_ok R d.
Proof.
  intros Hi H. pose proof Hi as [H1 H2]. pose proof (instantiate_ok E R st Hi depth) as Hinst.
  destruct a; cbn [resolve_definition] in H; try discriminate.
  - rsteps. cbn. eapply resolve_value_ok; eassumption.
  - rsteps. cbn. split; [eapply resolve_type_ok; try eassumption; intros; now apply (Hinst r ps)|].
    eapply resolve_type_not_set; [|eassumption]. intros r ps t0 Ht. now apply (Hinst r ps).
  - rsteps. cbn. eapply resolve_object_ok; try eassumption. intros; now apply (Hinst r ps).
  - destruct (lookup class (classes st)); [|discriminate]. rsteps. cbn. eapply resolve_object_set_ok; try eassumption. intros; now apply (Hinst r ps).
Qed.
Definition is_type (d : definition) : Prop := d_params d = None /\ match d_kind d with DKType _ => True | _ => False end.
Definition is_other (d : definition) : Prop := d_params d = None /\ match d_kind d with DKValue _ _ | DKObject _ _ | DKObjectSet _ _ _ => True | _ => False end.
Lemma resolve_definition_kind st a r : resolve_definition E (instantiate E depth) fuel st a = Ok r ->
  match a with DKType _ => exists t, r = DType t | DKClass _ => False | _ => forall t, r <> DType t end.
Proof.
  destruct a; cbn [resolve_definition]; intros H; try discriminate.
  - rsteps. discriminate.
  - rsteps. eauto.
  - rsteps. discriminate.
  - destruct (lookup class (classes st)); [|discriminate]. rsteps. discriminate.
Qed.
Lemma resolve_one_cases m st k st' : resolve_one E (instantiate E depth) fuel m st k = Ok st' ->
  (resolved_defs st' = resolved_defs st /\ forall d, lookup k (m_defs m) = Some d -> ~ is_type d) \/
  exists d r, lookup k (m_defs m) = Some d /\ resolve_definition E (instantiate E depth) fuel st (d_kind d) = Ok r /\
    resolved_defs st' = binsert k r (resolved_defs st) /\ ((is_type d /\ exists t, r = DType t) \/ (is_other d /\ forall t, r <> DType t)).
Proof.
  unfold resolve_one. destruct (lookup k (m_defs m)) as [[a o]|]; [|intros H; injection H as <-; left; split; [reflexivity|discriminate]].
  cbn [d_params d_kind]. destruct o as [p|].
  { intros H; injection H as <-. left. split; [reflexivity|]. intros d' Hd. injection Hd as <-. intros [? _]. discriminate. }
  destruct a; intros H.
  3: { injection H as <-. left. split; [reflexivity|]. intros d' Hd. injection Hd as <-. intros [_ []]. }
  all: apply rbind_inv in H; destruct H as (r & Hr & H); injection H as <-; right; eexists; exists r.
  all: split; [reflexivity|]; split; [exact Hr|]; split; [reflexivity|]; apply resolve_definition_kind in Hr.
  2: left. 1,3,4: right. all: now repeat split.
Qed.
Lemma resolve_one_ok (R R' : string -> Prop) m st k st' : inv R st -> (forall r, R r -> R' r) ->
  (forall d, lookup k (m_defs m) = Some d -> is_type d -> R' k) ->
  resolve_one E (instantiate E depth) fuel m st k = Ok st' -> inv R' st'.
Proof.
  intros Hi HR Hk H. pose proof Hi as [H1 H2].
  assert (Hw : Forall (fun kd => def_ok R' (snd kd)) (resolved_defs st)) by (eapply Forall_impl; [|exact H1]; intros a; now apply def_weaken).
  apply resolve_one_cases in H. destruct H as [[H _]|(d & r & Hl & Hr & H & Hc)]; unfold inv; rewrite H.
  - split; [exact Hw|]. intros r t Hr. eapply HR, H2. eassumption.
  - pose proof (resolve_definition_ok R st _ _ Hi Hr) as Hd. split.
    + rewrite Forall_forall in *. intros x Hx. apply in_binsert in Hx. destruct Hx as [-> |Hx]; [now apply (def_weaken R R')|]. now apply Hw.
    + intros r0 t Hr0. rewrite lookup_binsert in Hr0. destruct (String.eqb r0 k) eqn:He; [|eapply HR, H2; eassumption].
      apply String.eqb_eq in He. subst r0. injection Hr0 as ->. destruct Hc as [[Ht _]|[_ Hn]]; [now apply (Hk d)|now destruct (Hn t)].
Qed.

(* numbers in range, for all schemas *)
Lemma resolve_module_ok m order st st' : inv (fun _ => True) st -> resolve_module E (instantiate E depth) fuel m order st = Ok st' -> inv (fun _ => True) st'.
Proof.
  intros Hi H. unfold resolve_module in H. refine (rfold_ok (inv (fun _ => True)) _ _ _ _ _ _ H); [|exact Hi].
  intros acc k y _ Ha Hy. eapply resolve_one_ok; try eassumption; auto.
Qed.
Lemma resolve_modules_ok modules orders st : resolve_modules E (instantiate E depth) fuel modules orders = Ok st -> inv (fun _ => True) st.
Proof.
  unfold resolve_modules, resolve_in_order. intros H. rsteps. refine (rfold_ok (inv (fun _ => True)) _ _ _ _ _ _ H).
  - intros acc [n o] y _ Ha Hy. cbn [fst snd] in Hy. destruct (lookup n modules); [|discriminate]. eapply resolve_module_ok; eassumption.
  - split; [constructor|discriminate].
Qed.
Lemma types_inv R st : inv R st -> Forall (fun kt => rok R (snd kt) /\ not_set (snd kt)) (resolved_types st).
Proof.
  intros [H _]. unfold resolved_types. apply Forall_flat_map. eapply Forall_impl; [|exact H]. intros [k []] Hd; cbn in *; repeat constructor; tauto.
Qed.
Theorem compile_sound modules orders prog : compile E (instantiate E depth) fuel modules orders = Ok prog ->
  Forall (fun i => (countable (snd i) -> sound (snd i)) /\ deriving (snd i)) prog.
Proof.
  unfold compile. intros H. rsteps. apply resolve_modules_ok in H0. apply types_inv in H0.
  pose proof (generated_ok E _ _ _ H H0 (fun _ => True) (fun _ _ => I) (fun _ _ _ => I)) as Hg.
  eapply Forall_impl; [|exact Hg]. intros i [[_ Hi] Hd]. auto.
Qed.

(* references are to types *)
Definition type_in (st : resolver) (r : string) : Prop := exists t, lookup r (resolved_defs st) = Some (DType t).
Definition types_kept (modules : list (string * module)) : Prop := forall n m n' m' k d d',
  In (n, m) modules -> In (n', m') modules -> In (k, d) (m_defs m) -> In (k, d') (m_defs m') -> is_type d -> is_other d' -> False.
Section Kept.
Context (modules : list (string * module)) (Hkept : types_kept modules).
Definition inv_kept (st : resolver) : Prop := inv (type_in st) st /\
  forall k, type_in st k -> exists n m d, In (n, m) modules /\ In (k, d) (m_defs m) /\ is_type d.
Lemma resolve_one_kept n m st k st' : In (n, m) modules -> inv_kept st ->
  resolve_one E (instantiate E depth) fuel m st k = Ok st' -> inv_kept st'.
Proof.
  intros Hm [Hi Hp] H. pose proof (resolve_one_cases _ _ _ _ H) as [[Hs Hn]|(d & r & Hl & Hr & Hs & Hc)].
  - assert (Heq : forall r, type_in st r <-> type_in st' r) by (intros r; unfold type_in; now rewrite Hs). split.
    + eapply resolve_one_ok; [exact Hi|intros r; apply Heq| |exact H]. intros d Hd Ht. now destruct (Hn d Hd).
    + intros r Hr. apply Hp, Heq, Hr.
  - assert (Heq : forall r0, type_in st' r0 <-> (r0 = k /\ is_type d) \/ (r0 <> k /\ type_in st r0)).
    { intros r0. unfold type_in. rewrite Hs. setoid_rewrite lookup_binsert. destruct (String.eqb r0 k) eqn:He.
      - apply String.eqb_eq in He. subst r0. split.
        + intros [t Ht]. injection Ht as ->. left. split; [reflexivity|]. destruct Hc as [[]|[_ Hn]]; [assumption|now destruct (Hn t)].
        + intros [[_ Ht]|[Hk _]]; [|now destruct Hk]. destruct Hc as [[_ [t ->]]|[[_ Ho] _]]; [eauto|]. destruct Ht as [_ Ht]. now destruct (d_kind d).
      - apply String.eqb_neq in He. split; [intros H'; right; auto|]. intros [[]|[]]; [now destruct He|assumption]. }
    split.
    + eapply resolve_one_ok; [exact Hi| | |exact H].
      * intros r0 Hr0. apply Heq. destruct (string_dec r0 k) as [-> |]; [|auto]. left. split; [reflexivity|]. destruct Hc as [[]|[Ho _]]; [assumption|]. exfalso.
        destruct (Hp k Hr0) as (n1 & m1 & d1 & Hm1 & Hd1 & Ht1). apply lookup_in in Hl. eapply Hkept; [exact Hm1|exact Hm| | | |]; eassumption.
      * intros d' Hd' Ht. apply Heq. left. split; [reflexivity|]. congruence.
    + intros r0 Hr0. apply Heq in Hr0. destruct Hr0 as [[-> Ht]|[_ Hr0]]; [|now apply Hp]. exists n, m, d. apply lookup_in in Hl. auto.
Qed.
Lemma resolve_modules_kept orders st : resolve_modules E (instantiate E depth) fuel modules orders = Ok st -> inv_kept st.
Proof.
  unfold resolve_modules, resolve_in_order. intros H. rsteps. refine (rfold_ok inv_kept _ _ _ _ _ _ H).
  - intros acc [n o] y _ Ha Hy. cbn [fst snd] in Hy. destruct (lookup n modules) as [m|] eqn:Hm; [|discriminate]. apply lookup_in in Hm. unfold resolve_module in Hy.
    refine (rfold_ok inv_kept _ _ _ _ _ _ Hy); [|exact Ha]. intros acc' k y' _ Ha' Hy'. eapply resolve_one_kept; eassumption.
  - split; [split; [constructor|discriminate]|]. intros k [t Ht]. discriminate.
Qed.
Lemma in_resolved_types st r : type_in st r -> exists t, In (r, t) (resolved_types st).
Proof. intros [t Ht]. apply lookup_in in Ht. exists t. unfold resolved_types. apply in_flat_map. exists (r, DType t). split; [exact Ht|now left]. Qed.
Theorem compile_closed orders prog : compile E (instantiate E depth) fuel modules orders = Ok prog ->
  Forall (fun i => Forall (fun t => In t (map fst prog)) (used_types (snd i))) prog.
Proof.
  unfold compile. intros H. rsteps. apply resolve_modules_kept in H0. destruct H0 as [Hi _]. pose proof (types_inv _ _ Hi) as Ht.
  pose proof (generated_ok E _ _ _ H Ht (fun t => In t (map fst prog))) as Hg.
  eapply Forall_impl; [|apply Hg].
  - intros i [[Hu _] _]. exact Hu.
  - intros r Hr. apply in_resolved_types in Hr. destruct Hr as [t Hr]. unfold generate in H. rsteps. destruct x0 as [items s]. cbn [fst snd] in *.
    destruct (generate_items_spec _ _ _ _ _ H0 _ _ Hr) as (d & s1 & s2 & _ & Hd & _).
    rewrite map_app. apply in_app_iff. left. apply in_map_iff. now exists (to_type_ident r, d).
  - intros n d Hin. apply in_map_iff. now exists (n, d).
Qed.
End Kept.
End States.

(* ------------------------------------------------------------------ *)
(* From the files on                                                   *)
(* ------------------------------------------------------------------ *)
Lemma link_in num modules : forall order cls linked, link num modules cls order = Ok linked ->
  forall n m, In (n, m) linked -> exists pm, lookup n modules = Some pm /\ m_imports m = pm_imports pm /\
    forall k d, In (k, d) (m_defs m) -> exists pd cls', In (k, pd) (pm_defs pm) /\ resolve_object_class num cls' pd = Ok d.
Proof.
  induction order as [|name order IH]; intros cls linked H n m Hin; cbn [link] in H; [injection H as <-; destruct Hin|].
  destruct (lookup name modules) as [pm|] eqn:Hl; [|discriminate]. apply rbind_inv in H. destruct H as (defs & Hd & H). apply rbind_inv in H. destruct H as (rest & Hr & H).
  injection H as <-. destruct Hin as [Hin|Hin]; [|now apply (IH _ _ Hr)]. injection Hin as <- <-. exists pm. split; [exact Hl|]. split; [reflexivity|]. cbn [m_defs].
  clear Hr Hl IH. revert defs Hd. induction (pm_defs pm) as [|[k0 pd0] l IHl]; intros defs Hd k d Hk.
  - injection Hd as <-. destruct Hk.
  - rewrite rmap_cons in Hd. apply rbind_inv in Hd. destruct Hd as (x & Hx & Hd). apply rbind_inv in Hd. destruct Hd as (l' & Hl' & Hd). injection Hd as <-.
    cbn [fst snd] in Hx. apply rbind_inv in Hx. destruct Hx as (d0 & Hd0 & Hx). injection Hx as <-.
    destruct Hk as [Hk|Hk].
    + injection Hk as <- <-. exists pd0. eexists. split; [now left|exact Hd0].
    + destruct (IHl _ Hl' _ _ Hk) as (pd & c & Hin & Hc). exists pd, c. split; [now right|exact Hc].
Qed.
Definition parsed_type (d : parsed_def) : Prop := pd_params d = None /\ match pd_kind d with PAType _ => True | _ => False end.
Definition parsed_other (d : parsed_def) : Prop := pd_params d = None /\ match pd_kind d with PAValue _ _ | PAObject _ _ | PAObjectSet _ _ _ => True | _ => False end.
