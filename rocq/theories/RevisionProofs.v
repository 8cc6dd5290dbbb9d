(* A later version of a schema has newer types (C64). *)
From Coq Require Import ZArith NArith List Bool String Ascii Sorted Lia.
From Coq Require Import ZifyBool ZifyNat ZifyN.
Require Import Verif.Base Verif.DeriveModel Verif.DeriveSpec Verif.Asn1Model Verif.GenModel Verif.ResolveModel
  Verif.ModuleModel Verif.CompilerSpec Verif.ConstraintProofs Verif.TopoProofs
  Verif.DefinitionModel Verif.ObjectProofs Verif.ResolveProofs Verif.ModuleProofs Verif.VersionSpec Verif.VersionProofs Verif.RevisionSpec.
Require Verif.ParserSpec Verif.ParamSpec Verif.GrammarProofs Verif.ParamProofs.
Import ListNotations.
Open Scope Z_scope.

(* ---- objects and their sets ---- *)
Definition later_object (u : string) (o1 o2 : object_meaning) : Prop :=
  (forall i, id_of u o1 = Some i -> id_of u o2 = Some i) /\
  (forall f T, lookup f o1 = Some (FieldType (Some T)) -> exists T', lookup f o2 = Some (FieldType (Some T')) /\ newer T T') /\
  (forall f T i, lookup f o1 = Some (FieldValue T i) -> exists T' i', lookup f o2 = Some (FieldValue T' i') /\ newer T T') /\
  (forall f T' i', lookup f o2 = Some (FieldValue T' i') -> exists T i, lookup f o1 = Some (FieldValue T i)).
Definition later_set (s1 s2 : set_meaning) : Prop :=
  (sm_objects s1 <> [] -> sm_unique s1 = sm_unique s2) /\ numbers_apart s2 /\ (sm_objects s1 = [] -> sm_objects s2 = []) /\
  forall o1, In o1 (sm_objects s1) -> exists o2, In o2 (sm_objects s2) /\ later_object (sm_unique s1) o1 o2.

Notation by_name := (fun a b : string * Z * ty => string_ltb (fst (fst a)) (fst (fst b)) = true).
Lemma alternatives_of_nil al : alternatives al = [] -> al = ANil.
Proof. destruct al; [reflexivity|discriminate]. Qed.
Lemma alternatives_of_cons al k x t l : alternatives al = (k, x, t) :: l -> exists r, al = ACons k x t r /\ alternatives r = l.
Proof. destruct al as [|k0 x0 t0 r]; [discriminate|]. intros H. injection H as -> -> -> H. now exists r. Qed.
Lemma marks_alternatives al : marks al = map fst (alternatives al).
Proof. induction al as [|k x t r IH]; [reflexivity|]. cbn. now rewrite IH. Qed.
Lemma keys_alternatives al : alt_keys al = map (fun e => fst (fst e)) (alternatives al).
Proof. induction al as [|k x t r IH]; [reflexivity|]. cbn. now rewrite IH. Qed.
Lemma open_newer : forall l2 l1 al1 al2, StronglySorted by_name l1 -> StronglySorted by_name l2 ->
  (forall nm z T1, In (nm, z, T1) l1 -> exists T2, In (nm, z, T2) l2 /\ newer T1 T2) ->
  (forall nm nm' z T T', In (nm, z, T) l2 -> In (nm', z, T') l2 -> nm = nm') ->
  alternatives al1 = map (fun e => (snd (fst e), false, snd e)) l1 -> alternatives al2 = map (fun e => (snd (fst e), false, snd e)) l2 ->
  newer_alts al1 al2.
Proof.
  induction l2 as [|[[nm z] T2] l2 IH]; intros l1 al1 al2 S1 S2 Hin Hn A1 A2; cbn [map fst snd] in *.
  - apply alternatives_of_nil in A2. subst al2. destruct l1 as [|[[nm z] T1] l1]; [apply alternatives_of_nil in A1; subst; constructor|].
    destruct (Hin nm z T1 ltac:(now left)) as (? & [] & _).
  - apply alternatives_of_cons in A2. destruct A2 as (r2 & -> & A2). inversion_clear S2 as [|? ? S2' F2]. rewrite Forall_forall in F2. cbn [fst snd] in F2.
    assert (Hlater : forall nm' z' T', In (nm', z', T') l2 -> nm' <> nm) by (intros nm' z' T' H ->; specialize (F2 _ H); cbn in F2; rewrite string_ltb_irrefl in F2; discriminate).
    assert (Hz : forall nm' T', ~ In (nm', z, T') l2).
    { intros nm' T' H. apply (Hlater _ _ _ H). eapply Hn; [right; exact H|left; reflexivity]. }
    assert (M2 : ~ In (z, false) (marks r2)).
    { rewrite marks_alternatives, A2, map_map. intros H. apply in_map_iff in H. destruct H as ([[nm' z'] T'] & Heq & H). cbn in Heq. injection Heq as ->. now apply Hz in H. }
    assert (Hn' : forall nm nm' z T T', In (nm, z, T) l2 -> In (nm', z, T') l2 -> nm = nm') by (intros ? ? ? ? ? H1 H2; eapply Hn; right; eassumption).
    destruct l1 as [|[[n1 z1] T1] l1].
    { apply alternatives_of_nil in A1. subst al1. constructor; [cbn; tauto|exact M2|]. eapply (IH []); try eassumption; [intros ? ? ? []|reflexivity]. }
    cbn [map fst snd] in A1. inversion S1 as [|? ? S1' F1]; subst. rewrite Forall_forall in F1. cbn [fst snd] in F1.
    destruct (string_dec n1 nm) as [->|Hne].
    + apply alternatives_of_cons in A1. destruct A1 as (r1 & -> & A1).
      assert (Hrest : forall nm' z' T', In (nm', z', T') l1 -> exists T2, In (nm', z', T2) l2 /\ newer T' T2).
      { intros nm' z' T' H. destruct (Hin nm' z' T' ltac:(now right)) as (U & [Heq|HU] & HN); [|eauto]. injection Heq as <- <- <-.
        specialize (F1 _ H). cbn in F1. rewrite string_ltb_irrefl in F1. discriminate. }
      destruct (Hin nm z1 T1 ltac:(now left)) as (U & [Heq|HU] & HN); [|exfalso; exact (Hlater _ _ _ HU eq_refl)]. injection Heq as <- <-.
      constructor; [exact HN| |exact M2|eapply IH; eassumption].
      rewrite marks_alternatives, A1, map_map. intros H. apply in_map_iff in H. destruct H as ([[nm' z'] T'] & Heq & H). cbn in Heq. injection Heq as ->.
      destruct (Hrest _ _ _ H) as (U' & HU' & _). now apply Hz in HU'.
    + assert (Hbefore : string_ltb nm n1 = true).
      { destruct (Hin n1 z1 T1 ltac:(now left)) as (U & [Heq|HU] & _); [injection Heq as Heq _ _; now destruct Hne|]. exact (F2 _ HU). }
      assert (Hrest : forall nm' z' T', In (nm', z', T') ((n1, z1, T1) :: l1) -> exists T2, In (nm', z', T2) l2 /\ newer T' T2).
      { intros nm' z' T' H. destruct (Hin nm' z' T' H) as (U & [Heq|HU] & HN); [|eauto]. injection Heq as <- <- <-.
        exfalso. destruct H as [H|H]; [injection H as H _ _; now destruct Hne|]. specialize (F1 _ H). cbn in F1.
        pose proof (string_ltb_trans _ _ _ Hbefore F1) as H'. rewrite string_ltb_irrefl in H'. discriminate. }
      constructor; [|exact M2|].
      * rewrite keys_alternatives, A1. change ((z1, false, T1) :: map (fun e : string * Z * ty => (snd (fst e), false, snd e)) l1) with
          (map (fun e : string * Z * ty => (snd (fst e), false, snd e)) ((n1, z1, T1) :: l1)). rewrite map_map. intros H. apply in_map_iff in H.
        destruct H as ([[nm' z'] T'] & Heq & H). cbn in Heq. subst z'. destruct (Hrest _ _ _ H) as (U & HU & _). now apply Hz in HU.
      * eapply (IH ((n1, z1, T1) :: l1)); eassumption.
Qed.
Lemma open_type_newer s1 s2 f al1 al2 : later_set s1 s2 -> open_type s1 f al1 -> open_type s2 f al2 -> newer_alts al1 al2.
Proof.
  intros (HU & HN & _ & Ho) (l1 & S1 & A1 & I1) (l2 & S2 & A2 & I2). apply (open_newer l2 l1 al1 al2 S1 S2); [| |exact A1|exact A2].
  - intros nm z T H. apply I1 in H. destruct H as (o1 & Ho1 & Hi & Hf). destruct (Ho o1 Ho1) as (o2 & Ho2 & L1 & L2 & _). destruct (L2 f T Hf) as (T' & Hf' & HT).
    exists T'. split; [|exact HT]. apply I2. exists o2. split; [exact Ho2|]. split; [|exact Hf']. rewrite <- HU; [now apply L1|]. intros E. now rewrite E in Ho1.
  - intros nm nm' z T T' H H'. apply I2 in H. apply I2 in H'. destruct H as (o & Ho1 & Hi & _), H' as (o' & Ho1' & Hi' & _). exact (HN o o' nm nm' z Ho1 Ho1' Hi Hi').
Qed.
Lemma class_newer S s1 s2 root fs1 : class_fields S s1 root fs1 -> later_set s1 s2 -> sm_objects s1 <> [] -> forall fs2, class_fields S s2 root fs2 -> newer_fields fs1 fs2.
Proof.
  intros H1 L Hne. destruct (sm_objects s1) as [|o1 os] eqn:Eo; [now destruct Hne|]. clear Hne.
  assert (I1 : In o1 (sm_objects s1)) by (rewrite Eo; now left). destruct (proj2 (proj2 (proj2 L)) o1 I1) as (o2 & I2 & L1 & L2 & L3 & L4).
  induction H1 as [|id cl f c rel d T r l Hc Hrel Hv Hr IH|id cl f c rel d al r l Hc Hv Ho Hr IH]; intros fs2 H2; inversion H2 as [|? ? ? ? rel' ? T' ? ? Hc' Hrel' Hv' Hr'|? ? ? ? rel' ? al' ? ? Hc' Hv' Ho' Hr']; subst.
  - constructor.
  - assert (rel' = rel) by (destruct Hc; inversion Hc'; reflexivity). subst rel'. constructor; [|auto]. destruct (Hv o1 I1) as (v & Hl). destruct (L3 f T v Hl) as (T2 & v2 & Hl2 & HN).
    destruct (Hv' o2 I2) as (v2' & Hl2'). rewrite Hl2 in Hl2'. now injection Hl2' as <- _.
  - exfalso. destruct (Hv o1 I1) as (v & Hl). destruct (L3 f T v Hl) as (T2 & v2 & Hl2 & HN). now apply (Hv' o2 T2 v2 I2).
  - exfalso. destruct (Hv' o2 I2) as (v & Hl). destruct (L4 f T' v Hl) as (T2 & v2 & Hl2). now apply (Hv o1 T2 v2 I1).
  - constructor; [|auto]. constructor. eapply open_type_newer; eassumption.
Qed.

(* ---- types ---- *)
Lemma least_unique P a b : is_least P a -> is_least P b -> a = b.
Proof. intros [H1 H2] [H3 H4]. specialize (H2 b H3). specialize (H4 a H1). lia. Qed.
Lemma greatest_unique P a b : is_greatest P a -> is_greatest P b -> a = b.
Proof. intros [H1 H2] [H3 H4]. specialize (H2 b H3). specialize (H4 a H1). lia. Qed.
Section Bounds.
Context (V1 V2 : string -> option Z) (Hp1 : forall s z, V1 s = Some z -> plain s) (Hp2 : forall s z, V2 s = Some z -> plain s).
Context (HV : forall s z1 z2, V1 s = Some z1 -> V2 s = Some z2 -> z1 = z2).
Lemma bounds_same s l1 u1 l2 u2 : bounds_are V1 s l1 u1 -> bounds_are V2 s l2 u2 -> l1 = l2 /\ u1 = u2.
Proof.
  intros H1 H2. set (V := fun s => match V1 s with Some z => Some z | None => V2 s end).
  assert (A1 : bounds_are V s l1 u1). { apply (bounds_agree V1 V Hp1); [|exact H1]. intros x z _ Hz. unfold V. now rewrite Hz. }
  assert (A2 : bounds_are V s l2 u2). { apply (bounds_agree V2 V Hp2); [|exact H2]. intros x z _ Hz. unfold V. destruct (V1 x) as [z1|] eqn:Q; [|exact Hz]. f_equal. eapply HV; eassumption. }
  destruct A1 as (_ & _ & L1 & G1), A2 as (_ & _ & L2 & G2). split; [eapply least_unique|eapply greatest_unique]; eassumption.
Qed.
Lemma size_same cs lb1 ub1 x1 lb2 ub2 x2 : size_is V1 cs lb1 ub1 x1 -> size_is V2 cs lb2 ub2 x2 -> lb1 = lb2 /\ ub1 = ub2 /\ x1 = x2.
Proof.
  intros H1 H2. destruct H1 as [cs Hu|s l u Hb].
  - inversion H2; subst; [auto|]. destruct Hu; discriminate.
  - inversion H2 as [? Hu|s' l' u' Hb' Heq]; subst; [destruct Hu; discriminate|]. destruct (bounds_same _ _ _ _ _ Hb Hb') as [-> ->]. auto.
Qed.
End Bounds.

Section Env.
Context (V1 V2 Vs1 Vs2 : string -> option Z) (types1 types2 : string -> option ty) (sets1 sets2 : string -> option set_meaning).
Context (inst1 inst2 : string -> list actual_param -> ty -> Prop) (P : string -> Prop).
Context (Hp1 : forall s z, V1 s = Some z -> plain s) (Hp2 : forall s z, V2 s = Some z -> plain s).
Context (Hps1 : forall s z, Vs1 s = Some z -> plain s) (Hps2 : forall s z, Vs2 s = Some z -> plain s).
Context (HV : forall s z1 z2, V1 s = Some z1 -> V2 s = Some z2 -> z1 = z2) (HVs : forall s z1 z2, Vs1 s = Some z1 -> Vs2 s = Some z2 -> z1 = z2).
Context (Htypes : forall r T1 T2, P r -> types1 r = Some T1 -> types2 r = Some T2 -> newer T1 T2).
Context (Hplain : forall S s, sets1 S = Some s -> plain S).
Context (Hsets : forall S s1 s2, P S -> sets1 S = Some s1 -> sets2 S = Some s2 -> later_set s1 s2).
Context (Hinst : forall r ps T1 T2, (forall u, In u (r :: map param_string ps) -> P u) -> inst1 r ps T1 -> inst2 r ps T2 -> newer T1 T2).
Notation means2 := (asn_means V2 Vs2 types2 sets2 inst2).
Definition ready (l : list string) : Prop := forall u, In u l -> P u.
Lemma ready_apart a b : ready (a ++ b) -> ready a /\ ready b.
Proof. intros H. split; intros u Hu; apply H, in_app_iff; tauto. Qed.
Definition D_type (t1 : asn_type) (T1 : ty) : Prop := forall t2 T2, ready (type_refs t1) -> later_type t1 t2 -> means2 t2 T2 -> newer T1 T2.
Definition D_alts (x : bool) (i : Z) (l1 : list (string * asn_type)) (al1 : alts) : Prop := forall more l2 al2 r1 r2,
  ready (flat_map (fun c => match c with (_, t) => type_refs t end) l1) -> later_alternatives more l1 l2 ->
  asn_alternatives V2 Vs2 types2 sets2 inst2 x i l2 al2 -> (more = true -> r1 = ANil /\ r2 = ANil) ->
  (forall k, ~ In (k, x) (marks r1)) -> (forall k, ~ In (k, x) (marks r2)) -> newer_alts r1 r2 ->
  newer_alts (append_alts al1 r1) (append_alts al2 r2).
Definition D_adds (a1 : option (list (list (string * asn_type)))) (al1 : alts) : Prop := forall al2,
  ready (match a1 with Some gs => flat_map (flat_map (fun c => match c with (_, t) => type_refs t end)) gs | None => [] end) ->
  match a1 with
  | None => asn_additions V2 Vs2 types2 sets2 inst2 None al2 -> newer_alts al1 al2
  | Some gs1 => forall gs2, later_alternatives true (List.concat gs1) (List.concat gs2) -> asn_additions V2 Vs2 types2 sets2 inst2 (Some gs2) al2 -> newer_alts al1 al2
  end.
Definition D_comps (i : Z) (l1 : list seq_component) (fs1 : fields) : Prop := forall l2 fs2,
  ready (flat_map (fun c => match c with mkSeqComp _ t _ _ => type_refs t end) l1) -> later_components l1 l2 ->
  asn_components V2 Vs2 types2 sets2 inst2 i l2 fs2 -> newer_fields fs1 fs2.

Lemma alternatives_refl more l : later_alternatives more l l.
Proof. induction l as [|[id t] l IH]; [destruct more; constructor|]. constructor; [constructor|exact IH]. Qed.
Lemma components_refl l : later_components l l.
Proof. induction l as [|[id t o d] l IH]; constructor; [constructor|exact IH]. Qed.
Lemma marks_of Va Vsa ta sa ia x l : forall i al r k x', asn_alternatives Va Vsa ta sa ia x i l al -> In (k, x') (marks (append_alts al r)) -> (x' = x /\ i <= k) \/ In (k, x') (marks r).
Proof.
  induction l as [|[id t] l IH]; intros i al r k x' H Hin; inversion H; subst; cbn [append_alts marks] in Hin; [now right|].
  destruct Hin as [Heq|Hin]; [injection Heq as <- <-; left; split; [reflexivity|lia]|]. destruct (IH _ _ _ _ _ ltac:(eassumption) Hin) as [[-> Hk]|Hr]; [left; split; [reflexivity|lia]|now right].
Qed.
Lemma added_newer x l : forall i al, asn_alternatives V2 Vs2 types2 sets2 inst2 x i l al -> newer_alts ANil (append_alts al ANil).
Proof.
  induction l as [|[id t] l IH]; intros i al H; inversion H; subst; cbn [append_alts]; constructor; [cbn; tauto| |eapply IH; eassumption].
  intros Hin. destruct (marks_of _ _ _ _ _ _ _ _ _ _ _ _ ltac:(eassumption) Hin) as [[_ Hk]|Hr]; [lia|destruct Hr].
Qed.
Lemma append_nil al : append_alts al ANil = al.
Proof. induction al as [|k x t r IH]; [reflexivity|]. cbn. now rewrite IH. Qed.
(* the first component of a SEQUENCE over a set of objects has no type of its own *)
Definition class_headed (root : list seq_component) : Prop := exists id cl f cs o d l, root = mkSeqComp id (mkType (KReference (RefClassField cl f)) cs) o d :: l.
Lemma class_fields_headed S s root fs : root <> [] -> class_fields S s root fs -> class_headed root.
Proof. intros Hne H. destruct H; [now destruct Hne|unfold class_headed; eauto 10..]. Qed.
Lemma over_headed S root : root <> [] -> Forall (over_component S) root -> class_headed root.
Proof. intros Hne H. destruct H as [|c l (id & cl & f & k & rel & d & -> & _) _]; [now destruct Hne|]. unfold class_headed. eauto 10. Qed.
Lemma headed_later root1 root2 : later_components root1 root2 -> class_headed root1 \/ class_headed root2 -> class_headed root1 /\ class_headed root2.
Proof.
  intros H [C|C]; (split; [|try exact C]; try exact C); destruct C as (id & cl & f & cs & o & d & l & ->); inversion H as [|? t1 t2 ? ? ? ? Ht]; subst; inversion Ht; subst; unfold class_headed; eauto 10.
Qed.
Lemma headed_components Va Vsa ta sa ia i root fs : class_headed root -> ~ asn_components Va Vsa ta sa ia i root fs.
Proof. intros (id & cl & f & cs & o & d & l & ->) H. inversion H; subst; match goal with H : asn_means _ _ _ _ _ _ _ |- _ => inversion H end. Qed.
Lemma class_root_same S s1 root1 root2 fs1 : class_fields S s1 root1 fs1 -> later_components root1 root2 -> root2 = root1.
Proof.
  intros H. revert root2. induction H as [|id cl f c rel d T r l Hc Hrel Hv Hr IH|id cl f c rel d al r l Hc Hv Ho Hr IH]; intros root2 L; inversion L as [|? ? t2 ? ? ? ? Ht HL]; subst; [reflexivity| |];
    inversion Ht; subst; f_equal; auto.
Qed.
Lemma over_root_same S root1 : Forall (over_component S) root1 -> forall root2, later_components root1 root2 -> root2 = root1.
Proof.
  induction 1 as [|c l (id & cl & f & k & rel & d & -> & _) _ IH]; intros root2 L; inversion L as [|? ? t2 ? ? ? ? Ht HL]; subst; [reflexivity|]. inversion Ht; subst; f_equal; auto.
Qed.
Lemma class_refs S s root fs : root <> [] -> class_fields S s root fs -> plain S -> In S (flat_map (fun c => match c with mkSeqComp _ t _ _ => type_refs t end) root).
Proof.
  intros Hne H Hp. assert (R : forall c rel, over_set c S rel -> forall id cl f o d, In S (match mkSeqComp id (mkType (KReference (RefClassField cl f)) (Some [c])) o d with mkSeqComp _ t _ _ => type_refs t end)).
  { intros c rel Hc id cl f o d. cbn [type_refs flat_map]. rewrite (over_set_refs _ _ _ Hc Hp). cbn. auto. }
  destruct H as [|id cl f c rel d T r l Hc|id cl f c rel d al r l Hc]; [now destruct Hne|..]; cbn [flat_map]; apply in_app_iff; left; eapply (R c rel Hc id cl f false d).
Qed.
Lemma over_refs S root : root <> [] -> Forall (over_component S) root -> plain S -> In S (flat_map (fun c => match c with mkSeqComp _ t _ _ => type_refs t end) root).
Proof.
  intros Hne H Hp. destruct H as [|c l (id & cl & f & k & rel & d & -> & Hc) _]; [now destruct Hne|]. cbn [flat_map type_refs]. rewrite (over_set_refs _ _ _ Hc Hp). cbn. auto.
Qed.
Lemma append_end b : forall x y, (x ++ b)%string = (y ++ b)%string -> x = y.
Proof.
  assert (L : forall x, String.length (x ++ b)%string = (String.length x + String.length b)%nat) by (induction x as [|c x IH]; cbn; [reflexivity|now rewrite IH]).
  induction x as [|c x IH]; intros [|d y] H.
  - reflexivity.
  - apply (f_equal String.length) in H. rewrite !L in H. cbn in H. lia.
  - apply (f_equal String.length) in H. rewrite !L in H. cbn in H. lia.
  - cbn in H. injection H as -> H. f_equal. auto.
Qed.
Lemma over_component_set S S' c : over_component S c -> over_component S' c -> S = S'.
Proof.
  intros (id & cl & f & k & rel & d & -> & H1) (id' & cl' & f' & k' & rel' & d' & Heq & H2).
  assert (k = k') by congruence. subst k'. clear Heq. destruct H1 as [S|S component].
  - remember (CSubtype (mkSet [[ESingle ("{ " ++ S ++ " }")]] None)) as q eqn:Q. destruct H2 as [T|T component]; [|discriminate].
    assert (E : ("{ " ++ T ++ " }")%string = ("{ " ++ S ++ " }")%string) by congruence. cbn in E. injection E as E. symmetry. exact (append_end " }" _ _ E).
  - remember (CTable (TableRelation S component)) as q eqn:Q. destruct H2 as [T|T component']; congruence.
Qed.
Lemma fields_over S s root fs : class_fields S s root fs -> Forall (over_component S) root.
Proof. induction 1; constructor; auto; unfold over_component; eauto 10. Qed.
Lemma same_set S S' root : root <> [] -> Forall (over_component S) root -> Forall (over_component S') root -> S = S'.
Proof. intros Hne H H'. destruct H as [|c l Hc _]; [now destruct Hne|]. apply Forall_inv in H'. eapply over_component_set; eassumption. Qed.
Lemma alternatives_length more l1 l2 : later_alternatives more l1 l2 -> more = false -> zlen l1 = zlen l2.
Proof. unfold zlen. revert l2. induction l1 as [|c l1 IH]; intros l2 H E; inversion H; subst; try discriminate; [reflexivity|]. cbn [List.length]. specialize (IH _ ltac:(eassumption) eq_refl). lia. Qed.
Lemma components_optional l1 l2 : later_components l1 l2 -> zlen (filter comp_optional l1) = zlen (filter comp_optional l2).
Proof. unfold zlen. revert l2. induction l1 as [|c l1 IH]; intros l2 H; inversion H as [|? ? ? o]; subst; [reflexivity|]. cbn [filter comp_optional]. specialize (IH _ ltac:(eassumption)). destruct o; cbn [List.length]; lia. Qed.

Theorem later_newer t1 T1 : asn_means V1 Vs1 types1 sets1 inst1 t1 T1 -> D_type t1 T1.
Proof.
  apply (asn_mind V1 Vs1 types1 sets1 inst1 D_type D_alts D_adds D_comps).
  - intros cs Hcs t2 T2 _ L M2. inversion L; subst. inversion M2; subst; [now constructor|]. destruct Hcs; discriminate.
  - intros s l u Hb Hl Hu t2 T2 _ L M2. inversion L; subst. inversion M2; subst; [match goal with H : unconstrained (Some [_]) |- _ => destruct H; discriminate end|].
    destruct (bounds_same V1 V2 Hp1 Hp2 HV _ _ _ _ _ Hb ltac:(eassumption)) as [-> ->]. now constructor.
  - intros root marker ext cs Hcs _ _ _ t2 T2 _ L M2. inversion L; subst; inversion M2; subst; now constructor.
  - intros cs Hcs t2 T2 _ L M2. inversion L; subst. inversion M2; subst. now constructor.
  - intros cs Hcs t2 T2 _ L M2. inversion L; subst. inversion M2; subst. now constructor.
  - intros cs Hcs t2 T2 _ L M2. inversion L; subst. inversion M2; subst. now constructor.
  - intros cs lb ub ext Hs t2 T2 _ L M2. inversion L; subst. inversion M2; subst.
    + destruct (size_same V1 V2 Hp1 Hp2 HV _ _ _ _ _ _ _ Hs ltac:(eassumption)) as (-> & -> & ->). now constructor.
    + inversion Hs as [? [?|?]|]; discriminate.
  - intros cs lb ub ext Hs t2 T2 _ L M2. inversion L; subst. inversion M2; subst.
    + destruct (size_same V1 V2 Hp1 Hp2 HV _ _ _ _ _ _ _ Hs ltac:(eassumption)) as (-> & -> & ->). now constructor.
    + inversion Hs as [? [?|?]|]; discriminate.
  - intros st cs lb ub ext Hst Hs t2 T2 _ L M2. inversion L; subst. inversion M2; subst.
    destruct (size_same V1 V2 Hp1 Hp2 HV _ _ _ _ _ _ _ Hs ltac:(eassumption)) as (-> & -> & ->). now constructor.
  - intros t2 T2 _ L M2. inversion L; subst. inversion M2; subst; [match goal with H : size_is _ _ _ _ _ |- _ => inversion H as [? [?|?]|]; discriminate end|now constructor].
  - intros t2 T2 _ L M2. inversion L; subst. inversion M2; subst; [match goal with H : size_is _ _ _ _ _ |- _ => inversion H as [? [?|?]|]; discriminate end|now constructor].
  - intros root additions cs roots adds Hcs _ _ _ IHr _ IHa t2 T2 R L M2. cbn [type_refs] in R. apply ready_apart in R. destruct R as [R _]. apply ready_apart in R. destruct R as [Rr Ra].
    assert (L' : exists root2 a2, t2 = mkType (KChoice root2 a2) cs /\ later_alternatives false root root2 /\
      match additions, a2 with None, None => True | Some gs1, Some gs2 => later_alternatives true (List.concat gs1) (List.concat gs2) | _, _ => False end).
    { inversion L; subst; [exists root, additions|exists root2, None|exists root2, (Some gs2)]; (split; [reflexivity|]); (split; [apply alternatives_refl || assumption|]); try exact Logic.I; [|assumption].
      destruct additions; [apply alternatives_refl|exact Logic.I]. }
    destruct L' as (root2 & a2 & -> & Lr & La). inversion M2; subst. match goal with A : asn_alternatives _ _ _ _ _ false 0 _ ?r, B : asn_additions _ _ _ _ _ _ ?a |- _ => rename A into Mr, B into Ma, r into roots2, a into adds2 end.
    assert (Hadds : newer_alts adds adds2).
    { specialize (IHa adds2 Ra). destruct additions as [gs1|], a2 as [gs2|]; try contradiction; [exact (IHa gs2 La Ma)|exact (IHa Ma)]. }
    rewrite (alternatives_length _ _ _ Lr eq_refl). replace (match a2 with Some _ => true | None => false end) with (match additions with Some _ => true | None => false end) by (destruct additions, a2; tauto).
    constructor. eapply IHr; [exact Rr|exact Lr|exact Mr|discriminate| | |exact Hadds].
    + intros k Hin. destruct (newer_marks _ _ Hadds) as [_ _]. apply (marks_kept _ _ Hadds) in Hin. inversion Ma as [|? ? Mx]; subst; [destruct Hin|]. rewrite <- (append_nil adds2) in Hin.
      destruct (marks_of _ _ _ _ _ _ _ _ _ _ _ _ Mx Hin) as [[? _]|[]]. discriminate.
    + intros k Hin. inversion Ma as [|? ? Mx]; subst; [destruct Hin|]. rewrite <- (append_nil adds2) in Hin.
      destruct (marks_of _ _ _ _ _ _ _ _ _ _ _ _ Mx Hin) as [[? _]|[]]. discriminate.
  - intros root additions ext cs fs Hcs Hc IHc t2 T2 R L M2. cbn [type_refs] in R. apply ready_apart in R. destruct R as [R _]. apply ready_apart in R. destruct R as [Rr _].
    assert (L' : exists root2 a2, t2 = mkType (KSequence root2 a2 ext) cs /\ later_components root root2).
    { inversion L; subst; [exists root, additions|exists root2, a2]; (split; [reflexivity|]); [apply components_refl|assumption]. }
    destruct L' as (root2 & a2 & -> & Lr). inversion M2; subst.
    + rewrite (components_optional _ _ Lr). constructor. eapply IHc; eassumption.
    + exfalso. apply (headed_components V1 Vs1 types1 sets1 inst1 0 root fs); [|exact Hc]. refine (proj1 (headed_later root root2 Lr (or_intror _))). eapply class_fields_headed; eassumption.
    + exfalso. apply (headed_components V1 Vs1 types1 sets1 inst1 0 root fs); [|exact Hc]. refine (proj1 (headed_later root root2 Lr (or_intror _))). eapply over_headed; eassumption.
  - intros size t T cs lb ub ext Hcs Hs _ IH t2 T2 R L M2. cbn [type_refs] in R. apply ready_apart in R. destruct R as [R _].
    assert (L' : exists u2, t2 = mkType (KSequenceOf size u2) cs /\ later_type t u2) by (inversion L; subst; eexists; (split; [reflexivity|]); [constructor|assumption]).
    destruct L' as (u2 & -> & Lt). inversion M2; subst. destruct (size_same Vs1 Vs2 Hps1 Hps2 HVs _ _ _ _ _ _ _ Hs ltac:(eassumption)) as (-> & -> & ->). constructor. eapply IH; eassumption.
  - intros r cs T Hcs HT t2 T2 R L M2. inversion L; subst. inversion M2; subst. eapply Htypes; [apply R; cbn; now left|eassumption|eassumption].
  - intros r ps cs T Hcs HT t2 T2 R L M2. inversion L; subst. inversion M2; subst. eapply Hinst; [|eassumption|eassumption]. intros u Hu. apply R. cbn [type_refs]. apply in_app_iff. now left.
  - intros S s root ext cs fs Hcs HS Hne Hroot Hf t2 T2 R L M2. cbn [type_refs] in R. apply ready_apart in R. destruct R as [R _]. apply ready_apart in R. destruct R as [Rr _].
    assert (L' : exists root2 a2, t2 = mkType (KSequence root2 a2 ext) cs /\ later_components root root2).
    { inversion L; subst; [exists root, []|exists root2, a2]; (split; [reflexivity|]); [apply components_refl|assumption]. }
    destruct L' as (root2 & a2 & -> & Lr). pose proof (class_root_same _ _ _ _ _ Hf Lr) as ->. pose proof (Hplain _ _ HS) as Hpl.
    assert (HP : P S) by (apply Rr; eapply class_refs; eassumption).
    inversion M2; subst.
    + exfalso. eapply headed_components; [|eassumption]. eapply class_fields_headed; eassumption.
    + assert (S0 = S) by (eapply (same_set S0 S root); [exact Hroot|eapply fields_over; eassumption..]). subst S0. constructor. eapply class_newer; [exact Hf| |exact Hne|eassumption]. eapply Hsets; eassumption.
    + assert (S0 = S) by (eapply (same_set S0 S root); [exact Hroot|eassumption|eapply fields_over; eassumption]). subst S0. exfalso.
      destruct (Hsets S s s0 HP HS ltac:(eassumption)) as (_ & _ & _ & Ho). destruct (sm_objects s) as [|o os] eqn:Eo; [now destruct Hne|]. destruct (Ho o ltac:(now left)) as (o2 & Hin & _).
      replace (sm_objects s0) with (@nil object_meaning) in Hin by (symmetry; assumption). destruct Hin.
  - intros S s root ext cs Hcs HS He Hroot Hf t2 T2 R L M2. cbn [type_refs] in R. apply ready_apart in R. destruct R as [R _]. apply ready_apart in R. destruct R as [Rr _].
    assert (L' : exists root2 a2, t2 = mkType (KSequence root2 a2 ext) cs /\ later_components root root2).
    { inversion L; subst; [exists root, []|exists root2, a2]; (split; [reflexivity|]); [apply components_refl|assumption]. }
    destruct L' as (root2 & a2 & -> & Lr). pose proof (over_root_same _ _ Hf _ Lr) as ->. pose proof (Hplain _ _ HS) as Hpl.
    assert (HP : P S) by (apply Rr; eapply over_refs; eassumption).
    inversion M2; subst.
    + exfalso. eapply headed_components; [|eassumption]. eapply over_headed; eassumption.
    + assert (S0 = S) by (eapply (same_set S0 S root); [exact Hroot|eapply fields_over; eassumption|eassumption]). subst S0. exfalso.
      destruct (Hsets S s s0 HP HS ltac:(eassumption)) as (_ & _ & He' & _). auto.
    + apply N_seq, N_fnil.
  - intros x i more l2 al2 r1 r2 _ L M2 Hm N1 N2 Hr. inversion L; subst; inversion M2; subst; cbn [append_alts]; try exact Hr.
    + destruct (Hm eq_refl) as [-> ->]. exact (added_newer _ _ _ _ M2).
  - intros x i id t T r al Ht IHt Hr IHr more l2 al2 r1 r2 R L M2 Hm N1 N2 Hn. cbn [flat_map] in R. apply ready_apart in R. destruct R as [Rt Rr].
    inversion L as [| |? ? ? t2 ? l2' Lt Lr]; subst. inversion M2 as [|? ? ? ? T2 ? al2' Mt Mr]; subst. cbn [append_alts]. constructor.
    + eapply IHt; eassumption.
    + intros Hin. destruct (marks_of _ _ _ _ _ _ _ _ _ _ _ _ Hr Hin) as [[_ Hk]|Hin']; [lia|now apply N1 in Hin'].
    + intros Hin. destruct (marks_of _ _ _ _ _ _ _ _ _ _ _ _ Mr Hin) as [[_ Hk]|Hin']; [lia|now apply N2 in Hin'].
    + eapply IHr; eassumption.
  - intros al2 _ M2. inversion M2; subst. constructor.
  - intros gs al Ha IH al2 R gs2 L M2. inversion M2; subst. rewrite <- (append_nil al), <- (append_nil al2). eapply IH; [|exact L|eassumption|auto|intros k []|intros k []|constructor].
    rewrite <- flat_concat. exact R.
  - intros i l2 fs2 _ L M2. inversion L; subst. inversion M2; subst. constructor.
  - intros i id t T d r l _ IHt _ IHr l2 fs2 R L M2. cbn [flat_map] in R. apply ready_apart in R. destruct R as [Rt Rr].
    inversion L; subst. inversion M2; subst. constructor; [eapply IHt; eassumption|eapply IHr; eassumption].
  - intros i id t T d r l _ IHt _ IHr l2 fs2 R L M2. cbn [flat_map] in R. apply ready_apart in R. destruct R as [Rt Rr].
    inversion L; subst. inversion M2; subst. constructor; [eapply IHt; eassumption|eapply IHr; eassumption].
Qed.
End Env.

(* ---- schemas ---- *)
Section Schemas.
Context (M1 M2 : meaning) (mods1 mods2 : list (string * module)) (n1 n2 : nat).
Context (Hw1 : well_named mods1) (Hw2 : well_named mods2) (Hi1 : imports_defined mods1) (Hi2 : imports_defined mods2).
Context (Hm1 : forall a m, In (a, m) mods1 -> module_means M1 mods1 n1 m) (Hm2 : forall a m, In (a, m) mods2 -> module_means M2 mods2 n2 m).
Context (Hlater : later_modules mods1 mods2) (Hkept : sets_kept M1 M2) (Hacyc : not_recursive M1 mods1).

Lemma scope_name mods (Hi : imports_defined mods) a m u : In (a, m) mods -> in_scope m u = true -> is_name mods u.
Proof.
  intros Hm Hu. unfold in_scope in Hu. apply orb_true_iff in Hu. destruct Hu as [Hu|Hu]; apply mem_in in Hu; [now exists a, m|].
  apply in_map_iff in Hu. destruct Hu as ([r b] & <- & Hr). destruct (Hi a m r b Hm Hr) as (m' & Hm' & Hk). now exists b, m'.
Qed.
Lemma import_scope m u : import_of m u = true -> in_scope m u = true.
Proof. unfold import_of, in_scope. intros ->. apply orb_true_r. Qed.
Lemma name_plain mods (Hw : well_named mods) u : is_name mods u -> plain u.
Proof. intros (a & m & Hm & Hu). apply in_def_names in Hu. destruct Hu as (d & Hd). now destruct (name_of mods Hw a m u d Hm Hd). Qed.
Lemma name_later u : is_name mods1 u -> is_name mods2 u.
Proof.
  intros (a & m & Hm & Hu). apply in_def_names in Hu. destruct Hu as (d & Hd). destruct (Hlater a m u d Hm Hd) as (b & m2 & d2 & Hb & Hd2 & _).
  exists b, m2. split; [exact Hb|]. apply in_map_iff. now exists (u, d2).
Qed.
Lemma def_later a1 m1 a2 m2 k d1 d2 : In (a1, m1) mods1 -> In (k, d1) (m_defs m1) -> In (a2, m2) mods2 -> In (k, d2) (m_defs m2) -> later_def d1 d2.
Proof.
  intros H1 K1 H2 K2. destruct (Hlater a1 m1 k d1 H1 K1) as (b & m & d & Hb & Hd & L). now destruct (def_unique mods2 Hw2 _ _ _ _ _ _ _ Hb H2 Hd K2) as [_ <-].
Qed.
Lemma both_defined u : is_name mods1 u -> exists a1 m1 d1 a2 m2 d2, In (a1, m1) mods1 /\ In (u, d1) (m_defs m1) /\ In (a2, m2) mods2 /\ In (u, d2) (m_defs m2) /\ later_def d1 d2.
Proof.
  intros (a & m & Hm & Hu). apply in_def_names in Hu. destruct Hu as (d & Hd). destruct (Hlater a m u d Hm Hd) as (b & m2 & d2 & Hb & Hd2 & L). exists a, m, d, b, m2, d2. auto.
Qed.
Lemma numbers_same u z1 z2 : is_name mods1 u -> numbers M1 u = Some z1 -> numbers M2 u = Some z2 -> z1 = z2.
Proof.
  intros Hu H1 H2. destruct (both_defined u Hu) as (a1 & m1 & d1 & a2 & m2 & d2 & Ha1 & Hd1 & Ha2 & Hd2 & L).
  destruct (Hm1 a1 m1 Ha1 u d1 Hd1) as (_ & N1 & _). destruct (Hm2 a2 m2 Ha2 u d2 Hd2) as (_ & N2 & _).
  destruct (N1 z1 H1) as (cs & T & text & -> & _ & Hp). destruct (N2 z2 H2) as (cs2 & T2 & text2 & -> & _ & Hp2). inversion L; subst. congruence.
Qed.
Lemma ids_same u z1 z2 : is_name mods1 u -> ids M1 u = Some z1 -> ids M2 u = Some z2 -> z1 = z2.
Proof.
  intros Hu H1 H2. destruct (both_defined u Hu) as (a1 & m1 & d1 & a2 & m2 & d2 & Ha1 & Hd1 & Ha2 & Hd2 & L).
  destruct (Hm1 a1 m1 Ha1 u d1 Hd1) as (_ & _ & N1 & _). destruct (Hm2 a2 m2 Ha2 u d2 Hd2) as (_ & _ & N2 & _).
  destruct (N1 z1 H1) as (t & lb & ub & ext & i & text & -> & _ & Hp). destruct (N2 z2 H2) as (t2 & lb2 & ub2 & ext2 & i2 & text2 & -> & _ & Hp2). inversion L; subst. congruence.
Qed.

(* what has been shown of a name, and of all that its definition uses *)
Definition fine (u : string) : Prop :=
  (forall T1 T2, types M1 u = Some T1 -> types M2 u = Some T2 -> newer T1 T2) /\
  (forall s1 s2, sets M1 u = Some s1 -> sets M2 u = Some s2 -> later_set s1 s2) /\
  (forall o1 o2, objects M1 u = Some o1 -> objects M2 u = Some o2 -> forall f, later_object f o1 o2).
Inductive deep (u : string) : Prop :=
| deep_fine : fine u ->
    (forall a m d w, In (a, m) mods1 -> In (u, d) (m_defs m) -> In w (assignment_refs (d_kind d)) \/ In w (import_names m) ->
       in_scope m w = true -> has_meaning M1 w -> deep w) -> deep u.
Lemma deep_is_fine u : deep u -> fine u.
Proof. now intros []. Qed.

Section SomeTypes.
Context (sees1 sizes1 sees2 sizes2 : string -> bool).
Context (S1 : forall u, sees1 u = true -> is_name mods1 u) (S2 : forall u, sees2 u = true -> is_name mods2 u).
Context (Z1 : forall u, sizes1 u = true -> is_name mods1 u) (Z2 : forall u, sizes2 u = true -> is_name mods2 u).
Lemma types_newer_with (inst1 inst2 : string -> list actual_param -> ty -> Prop) t1 t2 T1 T2 :
  (forall r ps T1 T2, (forall u, In u (r :: map param_string ps) -> sees1 u = true -> has_meaning M1 u -> deep u) -> inst1 r ps T1 -> inst2 r ps T2 -> newer T1 T2) ->
  (forall u, In u (type_refs t1) -> sees1 u = true -> has_meaning M1 u -> deep u) -> later_type t1 t2 ->
  asn_means (restrict sees1 (numbers M1)) (restrict sizes1 (numbers M1)) (restrict sees1 (types M1)) (restrict sees1 (sets M1)) inst1 t1 T1 ->
  asn_means (restrict sees2 (numbers M2)) (restrict sizes2 (numbers M2)) (restrict sees2 (types M2)) (restrict sees2 (sets M2)) inst2 t2 T2 ->
  newer T1 T2.
Proof.
  intros HI HR L A1 A2.
  assert (R : forall A sees (f : string -> option A) s x, restrict sees f s = Some x -> sees s = true /\ f s = Some x).
  { intros A sees f s x H. unfold restrict in H. destruct (sees s); [auto|discriminate]. }
  refine (later_newer _ _ _ _ _ _ _ _ _ _ (fun u => sees1 u = true -> has_meaning M1 u -> deep u) _ _ _ _ _ _ _ _ _ _ t1 T1 A1 t2 T2 HR L A2).
  - intros s z H. apply R in H. eapply name_plain; [exact Hw1|]. now apply S1.
  - intros s z H. apply R in H. eapply name_plain; [exact Hw2|]. now apply S2.
  - intros s z H. apply R in H. eapply name_plain; [exact Hw1|]. now apply Z1.
  - intros s z H. apply R in H. eapply name_plain; [exact Hw2|]. now apply Z2.
  - intros s z1 z2 H1 H2. apply R in H1. apply R in H2. apply (numbers_same s); [now apply S1|easy|easy].
  - intros s z1 z2 H1 H2. apply R in H1. apply R in H2. apply (numbers_same s); [now apply Z1|easy|easy].
  - intros r U1 U2 HP H1 H2. apply R in H1. apply R in H2. destruct H1 as [Hs H1], H2 as [_ H2]. destruct (HP Hs) as [(F & _) _]; [left; congruence|]. now apply F.
  - intros S s H. apply R in H. eapply name_plain; [exact Hw1|]. now apply S1.
  - intros S s1 s2 HP H1 H2. apply R in H1. apply R in H2. destruct H1 as [Hs H1], H2 as [_ H2]. destruct (HP Hs) as [(_ & F & _) _]; [right; right; right; left; congruence|]. now apply F.
  - intros r ps U1 U2 HP. now apply HI.
Qed.
End SomeTypes.
Lemma instances_newer : forall p1 p2 sees1 sees2, (forall u, sees1 u = true -> is_name mods1 u) -> (forall u, sees2 u = true -> is_name mods2 u) ->
  forall r ps T1 T2, (forall u, In u (r :: map param_string ps) -> sees1 u = true -> has_meaning M1 u -> deep u) ->
  instance_means M1 mods1 p1 sees1 r ps T1 -> instance_means M2 mods2 p2 sees2 r ps T2 -> newer T1 T2.
Proof.
  induction p1 as [|p1 IH]; intros p2 sees1 sees2 S1 S2 r ps T1 T2 HR H1 H2; [destruct H1|]. destruct p2 as [|p2]; [destruct H2|].
  destruct H1 as (a1 & m1 & formals & w & t0 & t & Hs & Hg & Ha & Hd & Hlen & Hseq & Hsyn & HT).
  destruct H2 as (a2 & m2 & formals2 & w2 & t02 & t2 & Hs2 & Hg2 & Ha2 & Hd2 & Hlen2 & Hseq2 & Hsyn2 & HT2).
  pose proof (def_later _ _ _ _ _ _ _ Ha Hd Ha2 Hd2) as L. inversion L; subst; clear L.
  assert (t2 = t). { pose proof (GrammarProofs.parse_type_complete _ _ [] Hsyn Logic.I) as E1. pose proof (GrammarProofs.parse_type_complete _ _ [] Hsyn2 Logic.I) as E2. rewrite E1 in E2. now injection E2. }
  subst t2. cbv zeta in HT, HT2.
  match type of HT with asn_means (restrict ?a _) (restrict ?b _) _ _ _ _ _ => set (in1 := a) in *; set (sz1 := b) in * end.
  match type of HT2 with asn_means (restrict ?a _) (restrict ?b _) _ _ _ _ _ => set (in2 := a) in *; set (sz2 := b) in * end.
  assert (I1 : forall u, in1 u = true -> is_name mods1 u).
  { intros u Hu. unfold in1 in Hu. apply orb_true_iff in Hu. destruct Hu as [Hu|Hu]; apply andb_true_iff in Hu; [now apply S1|]. eapply scope_name; [exact Hi1|exact Ha|easy]. }
  assert (I2 : forall u, in2 u = true -> is_name mods2 u).
  { intros u Hu. unfold in2 in Hu. apply orb_true_iff in Hu. destruct Hu as [Hu|Hu]; apply andb_true_iff in Hu; [now apply S2|]. eapply scope_name; [exact Hi2|exact Ha2|easy]. }
  assert (D : forall u, in1 u = true -> has_meaning M1 u -> deep u).
  { intros u Hu Hmean. unfold in1 in Hu. apply orb_true_iff in Hu. destruct Hu as [Hu|Hu]; apply andb_true_iff in Hu; destruct Hu as [Hu1 Hu2].
    - apply HR; [right; now apply mem_in|exact Hu2|exact Hmean].
    - destruct (HR r ltac:(now left) Hs) as [_ Hin]; [unfold has_meaning; tauto|]. eapply Hin; [exact Ha|exact Hd| |exact Hu2|exact Hmean]. left. cbn [d_kind assignment_refs]. now apply mem_in. }
  refine (types_newer_with in1 sz1 in2 sz2 I1 I2 _ _ _ _ t t T1 T2 _ _ (L_same t) HT HT2).
  - intros u Hu. unfold sz1 in Hu. apply orb_true_iff in Hu. destruct Hu as [Hu|Hu]; [apply andb_true_iff in Hu; now apply S1|]. eapply scope_name; [exact Hi1|exact Ha|]. now apply import_scope.
  - intros u Hu. unfold sz2 in Hu. apply orb_true_iff in Hu. destruct Hu as [Hu|Hu]; [apply andb_true_iff in Hu; now apply S2|]. eapply scope_name; [exact Hi2|exact Ha2|]. now apply import_scope.
  - intros r' ps' U1 U2 _ V1 V2. exact (IH p2 in1 in2 I1 I2 r' ps' U1 U2 (fun u _ => D u) V1 V2).
  - intros u _. apply D.
Qed.
Lemma types_newer sees1 sizes1 sees2 sizes2 t1 t2 T1 T2 :
  (forall u, sees1 u = true -> is_name mods1 u) -> (forall u, sees2 u = true -> is_name mods2 u) ->
  (forall u, sizes1 u = true -> is_name mods1 u) -> (forall u, sizes2 u = true -> is_name mods2 u) ->
  (forall u, In u (type_refs t1) -> sees1 u = true -> has_meaning M1 u -> deep u) -> later_type t1 t2 ->
  means_in M1 mods1 n1 sees1 sizes1 t1 T1 -> means_in M2 mods2 n2 sees2 sizes2 t2 T2 -> newer T1 T2.
Proof.
  intros S1 S2 Z1 Z2 HR L A1 A2. refine (types_newer_with sees1 sizes1 sees2 sizes2 S1 S2 Z1 Z2 _ _ t1 t2 T1 T2 _ HR L A1 A2).
  intros r ps U1 U2 HP. now apply instances_newer.
Qed.

(* objects *)
Definition field_kept (x1 x2 : field_meaning) : Prop :=
  match x1, x2 with
  | FieldType None, FieldType None | FieldWritten _, FieldWritten _ => True
  | FieldType (Some T1), FieldType (Some T2) => newer T1 T2
  | FieldValue T1 i1, FieldValue T2 i2 => newer T1 T2 /\ (i1 <> None -> i2 = i1)
  | _, _ => False
  end.
Lemma object_later o1 o2 : Forall2 (fun a b : string * field_meaning => fst a = fst b /\ field_kept (snd a) (snd b)) o1 o2 -> forall u, later_object u o1 o2.
Proof.
  intros H u. assert (L : forall f, match lookup f o1, lookup f o2 with None, None => True | Some x1, Some x2 => field_kept x1 x2 | _, _ => False end).
  { intros f. induction H as [|[k1 x1] [k2 x2] o1 o2 [Hk Hx] _ IH]; cbn [lookup]; [exact Logic.I|]. cbn [fst snd] in *. subst k2. destruct (String.eqb f k1); [exact Hx|exact IH]. }
  split; [|split; [|split]].
  - intros i. unfold id_of. specialize (L u). destruct (lookup u o1) as [[t|t i1|t]|]; try discriminate. intros ->. destruct (lookup u o2) as [[t'|t' i2|t']|]; cbn in L; try contradiction. now apply L.
  - intros f T Hf. specialize (L f). rewrite Hf in L. destruct (lookup f o2) as [[[T'|]|t' i2|t']|]; cbn in L; try contradiction. now exists T'.
  - intros f T i Hf. specialize (L f). rewrite Hf in L. destruct (lookup f o2) as [[t'|t' i2|t']|]; cbn in L; try contradiction. now exists t', i2.
  - intros f T' i' Hf. specialize (L f). rewrite Hf in L. destruct (lookup f o1) as [[[T|]|t i|t]|]; cbn in L; try contradiction. now exists t, i.
Qed.
Lemma fields_later (t1 c1 t2 c2 : asn_type -> ty -> Prop) (i1 i2 : string -> option Z) (na1 na2 : string -> Prop) fs :
  (forall k t T1 T2, In (k, OFType (Some t)) fs -> t1 t T1 -> t2 t T2 -> newer T1 T2) -> (forall t T1 T2, c1 t T1 -> c2 t T2 -> newer T1 T2) ->
  (forall u z1 z2, i1 u = Some z1 -> i2 u = Some z2 -> z1 = z2) -> (forall u z, i1 u = Some z -> na2 u) ->
  forall o1 o2, Forall2 (field_means t1 c1 i1 na1) fs o1 -> Forall2 (field_means t2 c2 i2 na2) fs o2 ->
  forall u, later_object u o1 o2.
Proof.
  intros HT HC HI HN o1 o2 H1 H2. apply object_later. revert o2 H2. induction H1 as [|x y fs o1 Hxy _ IH]; intros o2 H2; inversion H2 as [|? y2 ? o2' Hxy2 H2']; subst; [constructor|].
  constructor; [|apply IH; [intros k t T1 T2 Hin; apply (HT k); now right|exact H2']].
  destruct Hxy as [k|k r cs T Ht|k w cs T Hw Ht|k t T Ht|k t T nm z Ht Hid|k t T v Ht Hlit Hname]; inversion Hxy2; subst; cbn [fst snd field_kept]; (split; [reflexivity|]);
    try exact Logic.I; try (exfalso; match goal with H : forall r, _ <> KReference r |- _ => now eapply H end); try (split; [eapply HC; eassumption|]); try (intros Hx; now destruct Hx).
  - eapply HT; [left; reflexivity|eassumption|eassumption].
  - intros _. do 2 f_equal. symmetry. eapply HI; eassumption.
  - intros _. exfalso. match goal with H : ~ na2 nm |- _ => apply H end. eapply HN; eassumption.
Qed.

(* the objects of sets *)
Section Elements.
Context (M : meaning) (mods : list (string * module)) (n : nat) (m m' : module) (F : list (string * class_field)) (u : string).
Notation fmeans := (field_means (means_in_module M mods n m) (means_in_class M mods n m' F) (restrict (import_of m) (ids M)) (is_name mods)).
Lemma elements_from elems l o : elements_mean M mods n m m' F u elems l -> In o l -> exists e, In e elems /\
  ((exists fs, e = OObject (Some fs) /\ Forall2 fmeans fs o) \/ (exists k, e = OObjectRef k /\ scoped m (objects M) k = Some o) \/
   exists k s, e = OSetRef k /\ scoped m (sets M) k = Some s /\ sm_unique s = u /\ In o (sm_objects s)).
Proof.
  induction 1 as [|fs o' r l Ho _ IH|k o' r l Ho _ IH|k s r l Hs Hu _ IH]; intros Hin; [destruct Hin|..].
  - destruct Hin as [->|Hin]; [exists (OObject (Some fs)); split; [now left|left; eauto]|]. destruct (IH Hin) as (e & He & R). exists e. split; [now right|exact R].
  - destruct Hin as [->|Hin]; [exists (OObjectRef k); split; [now left|right; left; eauto]|]. destruct (IH Hin) as (e & He & R). exists e. split; [now right|exact R].
  - apply in_app_iff in Hin. destruct Hin as [Hin|Hin]; [exists (OSetRef k); split; [now left|right; right; exists k, s; auto]|]. destruct (IH Hin) as (e & He & R). exists e. split; [now right|exact R].
Qed.
Lemma elements_give elems l e : elements_mean M mods n m m' F u elems l -> In e elems ->
  match e with
  | OObject (Some fs) => exists o, In o l /\ Forall2 fmeans fs o
  | OObjectRef k => exists o, scoped m (objects M) k = Some o /\ In o l
  | OSetRef k => exists s, scoped m (sets M) k = Some s /\ sm_unique s = u /\ incl (sm_objects s) l
  | _ => False
  end.
Proof.
  induction 1 as [|fs o' r l Ho _ IH|k o' r l Ho _ IH|k s r l Hs Hu _ IH]; intros Hin; [destruct Hin|..]; (destruct Hin as [<-|Hin]; [|specialize (IH Hin)]).
  - exists o'. split; [now left|exact Ho].
  - destruct e as [k|k|[fs'|]]; [destruct IH as (s & ? & ? & Hl); exists s; repeat split; try assumption; intros x Hx; right; now apply Hl|destruct IH as (o & ? & ?); exists o; split; [assumption|now right]|destruct IH as (o & ? & ?); exists o; split; [now right|assumption]|exact IH].
  - exists o'. split; [exact Ho|now left].
  - destruct e as [k'|k'|[fs'|]]; [destruct IH as (s & ? & ? & Hl); exists s; repeat split; try assumption; intros x Hx; right; now apply Hl|destruct IH as (o & ? & ?); exists o; split; [assumption|now right]|destruct IH as (o & ? & ?); exists o; split; [now right|assumption]|exact IH].
  - exists s. repeat split; try assumption. intros x Hx. apply in_app_iff. now left.
  - destruct e as [k'|k'|[fs'|]]; [destruct IH as (s' & ? & ? & Hl); exists s'; repeat split; try assumption; intros x Hx; apply in_app_iff; right; now apply Hl|destruct IH as (o & ? & ?); exists o; split; [assumption|apply in_app_iff; now right]|destruct IH as (o & ? & ?); exists o; split; [apply in_app_iff; now right|assumption]|exact IH].
Qed.
End Elements.

Lemma class_later m1 m2 class m1' m2' F1 F2 : class_is M1 mods1 m1 class m1' F1 -> class_is M2 mods2 m2 class m2' F2 -> F1 = F2.
Proof.
  intros (_ & _ & a1 & Ha1 & Hd1) (_ & _ & a2 & Ha2 & Hd2). pose proof (def_later _ _ _ _ _ _ _ Ha1 Hd1 Ha2 Hd2) as L. now inversion L.
Qed.
Lemma class_types m1 m2 class m1' m2' F : class_is M1 mods1 m1 class m1' F -> class_is M2 mods2 m2 class m2' F -> deep class ->
  forall t T1 T2, means_in_class M1 mods1 n1 m1' F t T1 -> means_in_class M2 mods2 n2 m2' F t T2 -> newer T1 T2.
Proof.
  intros (_ & _ & a1 & Ha1 & Hd1) (_ & _ & a2 & Ha2 & Hd2) [_ D] t T1 T2 H1 H2.
  refine (types_newer _ _ _ _ t t T1 T2 _ _ _ _ _ (L_same t) H1 H2).
  - intros u Hu. apply andb_true_iff in Hu. eapply scope_name; [exact Hi1|exact Ha1|easy].
  - intros u Hu. apply andb_true_iff in Hu. eapply scope_name; [exact Hi2|exact Ha2|easy].
  - intros u Hu. eapply scope_name; [exact Hi1|exact Ha1|]. now apply import_scope.
  - intros u Hu. eapply scope_name; [exact Hi2|exact Ha2|]. now apply import_scope.
  - intros u _ Hu Hmean. apply andb_true_iff in Hu. destruct Hu as [Hu1 Hu2]. eapply D; [exact Ha1|exact Hd1| |exact Hu2|exact Hmean]. left. now apply mem_in.
Qed.
Lemma scoped_some {A} m (f : string -> option A) k x : scoped m f k = Some x -> in_scope m k = true /\ f k = Some x.
Proof. unfold scoped, restrict. destruct (in_scope m k); [auto|discriminate]. Qed.
Lemma restrict_some {A} sees (f : string -> option A) k x : restrict sees f k = Some x -> sees k = true /\ f k = Some x.
Proof. unfold restrict. destruct (sees k); [auto|discriminate]. Qed.

Section OneName.
Context (a1 : string) (m1 : module) (k : string) (d1 : definition) (Ha1 : In (a1, m1) mods1) (Hd1 : In (k, d1) (m_defs m1)).
Context (D : forall w, In w (assignment_refs (d_kind d1)) \/ In w (import_names m1) -> in_scope m1 w = true -> has_meaning M1 w -> deep w).
Let scope1 u (H : in_scope m1 u = true) : is_name mods1 u := scope_name mods1 Hi1 a1 m1 u Ha1 H.

Lemma here_newer a2 m2 t1 t2 T1 T2 : In (a2, m2) mods2 -> incl (type_refs t1) (assignment_refs (d_kind d1)) -> later_type t1 t2 ->
  means_in_module M1 mods1 n1 m1 t1 T1 -> means_in_module M2 mods2 n2 m2 t2 T2 -> newer T1 T2.
Proof.
  intros Ha2 Hin L H1 H2. refine (types_newer _ _ _ _ t1 t2 T1 T2 scope1 _ _ _ _ L H1 H2).
  - intros u Hu. eapply scope_name; [exact Hi2|exact Ha2|exact Hu].
  - intros u Hu. now apply scope1, import_scope.
  - intros u Hu. eapply scope_name; [exact Hi2|exact Ha2|]. now apply import_scope.
  - intros u Hu. apply D. left. now apply Hin.
Qed.
Lemma imports_ids m2 u z1 z2 : restrict (import_of m1) (ids M1) u = Some z1 -> restrict (import_of m2) (ids M2) u = Some z2 -> z1 = z2.
Proof. intros H1 H2. apply restrict_some in H1. apply restrict_some in H2. apply (ids_same u); [apply scope1, import_scope|..]; easy. Qed.
Lemma imports_name u z : restrict (import_of m1) (ids M1) u = Some z -> is_name mods2 u.
Proof. intros H1. apply restrict_some in H1. now apply name_later, scope1, import_scope. Qed.

Lemma name_fine : fine k.
Proof.
  destruct (Hlater a1 m1 k d1 Ha1 Hd1) as (a2 & m2 & d2 & Ha2 & Hd2 & L).
  destruct (Hm1 a1 m1 Ha1 k d1 Hd1) as (T1m & _ & _ & S1m & O1m & _). destruct (Hm2 a2 m2 Ha2 k d2 Hd2) as (T2m & _ & _ & S2m & O2m & _).
  split; [|split].
  - intros T1 T2 H1 H2. destruct (T1m T1 H1) as (t1 & E1 & A1). destruct (T2m T2 H2) as (t2 & E2 & A2).
    apply (here_newer a2 m2 t1 t2 T1 T2 Ha2); try assumption; [rewrite E1; intros u Hu; exact Hu|].
    rewrite E1, E2 in L. inversion L; subst; [constructor|assumption].
  - intros s1 s2 H1 H2. destruct (S1m s1 H1) as (class & r1 & b1 & m1' & F & E1 & C1 & U1 & EM1 & W1).
    destruct (S2m s2 H2) as (class2 & r2 & b2 & m2' & F2 & E2 & C2 & U2 & EM2 & W2).
    assert (class2 = class /\ incl (r1 ++ b1) (r2 ++ b2)) as [-> Hincl].
    { rewrite E1, E2 in L. inversion L; subst; [split; [reflexivity|apply incl_refl]|auto]. }
    pose proof (class_later _ _ _ _ _ _ _ C1 C2) as <-.
    assert (Dc : deep class).
    { destruct C1 as (Hs & Hg & _). apply D; [left; rewrite E1; now left|exact Hs|]. unfold has_meaning. tauto. }
    destruct (Hkept k s1 s2 H1 H2) as [Hnum Hemp].
    assert (Hobj : forall o1, In o1 (sm_objects s1) -> exists o2, In o2 (sm_objects s2) /\ (later_object (sm_unique s1) o1 o2 \/ sm_unique s1 <> sm_unique s2)).
    { intros o1 Ho1. destruct (elements_from _ _ _ _ _ _ _ _ _ _ EM1 Ho1) as (e & He & Hwhat).
      pose proof (elements_give _ _ _ _ _ _ _ _ _ _ EM2 (Hincl _ He)) as Hgive.
      assert (Hrefs : incl (set_element_refs e) (assignment_refs (d_kind d1))).
      { rewrite E1. cbn [d_kind assignment_refs]. intros u Hu. right. apply in_flat_map. now exists e. }
      destruct Hwhat as [(fs & -> & Hfs)|[(n & -> & Hn)|(n & s & -> & Hn & Hu & Ho)]].
      - destruct Hgive as (o2 & Ho2 & Hfs2). exists o2. split; [exact Ho2|left].
        refine (fields_later _ _ _ _ _ _ _ _ fs _ _ _ _ o1 o2 Hfs Hfs2 _).
        + intros f t T1 T2 Hf. apply (here_newer a2 m2 t t T1 T2 Ha2); [|constructor]. intros u Hu. apply Hrefs. cbn [set_element_refs object_refs].
          apply in_flat_map. now exists (f, OFType (Some t)).
        + exact (class_types _ _ _ _ _ _ C1 C2 Dc).
        + apply imports_ids.
        + apply imports_name.
      - destruct Hgive as (o2 & Hn2 & Ho2). exists o2. split; [exact Ho2|left]. apply scoped_some in Hn. apply scoped_some in Hn2. destruct Hn as [Hs Hn], Hn2 as [_ Hn2].
        destruct (D n) as [(_ & _ & F3) _]; [left; apply Hrefs; now left|exact Hs|unfold has_meaning; right; right; right; right; left; congruence|]. now apply F3.
      - destruct Hgive as (s' & Hn2 & Hu2 & Hl2). apply scoped_some in Hn. apply scoped_some in Hn2. destruct Hn as [Hs Hn], Hn2 as [_ Hn2].
        destruct (D n) as [(_ & F3 & _) _]; [left; apply Hrefs; now left|exact Hs|unfold has_meaning; right; right; right; left; congruence|].
        destruct (F3 s s' Hn Hn2) as (_ & _ & _ & F4). destruct (F4 o1 Ho) as (o2 & Ho2 & Hlo). exists o2. split; [now apply Hl2|left]. now rewrite <- Hu. }
    assert (Hun : sm_objects s1 <> [] -> sm_unique s1 = sm_unique s2).
    { intros Hne. destruct (U1 Hne) as [(t & Ht) _]. assert (Hne2 : sm_objects s2 <> []).
      { destruct (sm_objects s1) as [|o l]; [now destruct Hne|]. destruct (Hobj o ltac:(now left)) as (o2 & Ho2 & _). intros E. now rewrite E in Ho2. }
      destruct (U2 Hne2) as [_ Hu]. now apply (Hu _ t). }
    split; [exact Hun|]. split; [exact Hnum|]. split; [exact Hemp|]. intros o1 Ho1. destruct (Hobj o1 Ho1) as (o2 & Ho2 & [Hl|Hne]); [now exists o2|].
    destruct Hne. apply Hun. intros E. now rewrite E in Ho1.
  - intros o1 o2 H1 H2 f. destruct (O1m o1 H1) as (class & fs & m1' & F & E1 & C1 & A1). destruct (O2m o2 H2) as (class2 & fs2 & m2' & F2 & E2 & C2 & A2).
    assert (class2 = class /\ fs2 = fs) as [-> ->] by (rewrite E1, E2 in L; inversion L; auto).
    pose proof (class_later _ _ _ _ _ _ _ C1 C2) as <-.
    assert (Dc : deep class).
    { destruct C1 as (Hs & Hg & _). apply D; [left; rewrite E1; now left|exact Hs|]. unfold has_meaning. tauto. }
    refine (fields_later _ _ _ _ _ _ _ _ fs _ _ _ _ o1 o2 A1 A2 f).
    + intros g t U1 U2 _ B1 B2. refine (types_newer _ _ _ _ t t U1 U2 _ _ _ _ _ (L_same t) B1 B2).
      * intros u Hu. now apply scope1, import_scope.
      * intros u Hu. eapply scope_name; [exact Hi2|exact Ha2|]. now apply import_scope.
      * intros u Hu. now apply scope1, import_scope.
      * intros u Hu. eapply scope_name; [exact Hi2|exact Ha2|]. now apply import_scope.
      * intros u _ Hu. apply D; [right; now apply mem_in|now apply import_scope].
    + exact (class_types _ _ _ _ _ _ C1 C2 Dc).
    + apply imports_ids.
    + apply imports_name.
Qed.
End OneName.

Lemma all_deep : forall a, Acc (needs (module_needs mods1)) a -> forall m, In (a, m) mods1 -> forall k, In k (def_names m) -> has_meaning M1 k -> deep k.
Proof.
  intros a Hacc. induction Hacc as [a _ IHm]. intros m Ha k Hk Hmean.
  assert (Himp : forall w, In w (import_names m) -> has_meaning M1 w -> deep w).
  { intros w Hw Hmw. apply in_map_iff in Hw. destruct Hw as ([r b] & <- & Hw). destruct (Hi1 a m r b Ha Hw) as (m' & Hb & Hr).
    refine (IHm b _ m' Hb r Hr Hmw). unfold needs, module_needs, modules_graph, graph_of. cbn [g_edges]. apply in_flat_map. exists (a, m). split; [exact Ha|].
    apply in_map_iff. exists (r, b). split; [reflexivity|exact Hw]. }
  destruct (Hacyc a m k Ha Hk Hmean) as [_ Hg]. apply grounded_acc in Hg. induction Hg as [k _ IHk].
  assert (Down : forall d, In (k, d) (m_defs m) -> forall w, In w (assignment_refs (d_kind d)) \/ In w (import_names m) -> in_scope m w = true -> has_meaning M1 w -> deep w).
  { intros d Hd w Hw Hsc Hmw. destruct (in_dec string_dec w (import_names m)) as [Hi|Hi]; [now apply Himp|]. destruct Hw as [Hw|Hw]; [|contradiction].
    apply IHk; [eapply definition_edge; eassumption| |exact Hmw]. unfold in_scope in Hsc. apply orb_true_iff in Hsc. destruct Hsc as [Hsc|Hsc]; [now apply mem_in|]. apply mem_in in Hsc. contradiction. }
  pose proof Hk as Hk'. apply in_def_names in Hk'. destruct Hk' as (d & Hd).
  constructor; [exact (name_fine a m k d Ha Hd (Down d Hd))|].
  intros b m' d' w Hb Hd'. destruct (def_unique mods1 Hw1 _ _ _ _ _ _ _ Ha Hb Hd Hd') as [<- <-]. exact (Down d Hd w).
Qed.
Theorem revision_newer a m k T1 T2 : In (a, m) mods1 -> In k (def_names m) -> types M1 k = Some T1 -> types M2 k = Some T2 -> newer T1 T2.
Proof.
  intros Ha Hk H1 H2. assert (Hmean : has_meaning M1 k) by (left; congruence).
  destruct (Hacyc a m k Ha Hk Hmean) as [Hg _]. apply grounded_acc in Hg.
  destruct (all_deep a Hg m Ha k Hk Hmean) as [(F & _) _]. now apply F.
Qed.
End Schemas.
