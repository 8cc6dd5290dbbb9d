(* Bounds computed from constraints, and the Rust integer type chosen for
   them. *)
From Coq Require Import ZArith List Bool String Ascii Lia.
From Coq Require Import ZifyBool ZifyNat ZifyN.
Require Import Verif.Base Verif.DeriveModel Verif.DeriveSpec Verif.Asn1Model Verif.GenModel Verif.CompilerSpec.
Import ListNotations.
Open Scope Z_scope.

(* ------------------------------------------------------------------ *)
(* Induction over constraints                                          *)
(* ------------------------------------------------------------------ *)
Section ElementsInd.
Context (Pe : elements -> Prop) (Ps : element_set -> Prop) (Pc : constraint -> Prop) (Pt : asn_type -> Prop).
Context (H_single : forall v, Pe (ESingle v)) (H_sub : forall t, Pt t -> Pe (ESubtype t))
  (H_range : forall l li u ui, Pe (ERange l li u ui)) (H_size : forall s, Ps s -> Pe (ESize s))
  (H_alpha : forall s, Pe (EAlphabet s)) (H_eset : forall s, Ps s -> Pe (ESet s))
  (H_set : forall root add, Forall (Forall Pe) root -> (forall a, add = Some a -> Forall (Forall Pe) a) ->
           Ps (mkSet root add))
  (H_csub : forall s, Ps s -> Pc (CSubtype s)) (H_ctable : forall t, Pc (CTable t)) (H_ccont : Pc CContents)
  (H_type : forall k cs, (forall l, cs = Some l -> Forall Pc l) -> Pt (mkType k cs)).
Fixpoint elements_ind' (e : elements) : Pe e :=
  match e with
  | ESingle v => H_single v
  | ESubtype t => H_sub t (type_ind' t)
  | ERange l li u ui => H_range l li u ui
  | ESize s => H_size s (set_ind' s)
  | EAlphabet s => H_alpha s
  | ESet s => H_eset s (set_ind' s)
  end
with set_ind' (s : element_set) : Ps s :=
  match s with
  | mkSet root add =>
      H_set root add
        ((fix go (l : list (list elements)) : Forall (Forall Pe) l :=
            match l with
            | [] => Forall_nil _
            | i :: r => Forall_cons i
                ((fix g (l : list elements) : Forall Pe l :=
                    match l with [] => Forall_nil _ | e :: r => Forall_cons e (elements_ind' e) (g r) end) i)
                (go r)
            end) root)
        match add as o return forall a, o = Some a -> Forall (Forall Pe) a with
        | None => fun a H => False_ind _ (eq_ind None (fun o => match o with None => True | Some _ => False end) I (Some a) H)
        | Some a0 => fun a H =>
            eq_ind (Some a0) (fun o => match o with Some a => Forall (Forall Pe) a | None => True end)
              ((fix go (l : list (list elements)) : Forall (Forall Pe) l :=
                  match l with
                  | [] => Forall_nil _
                  | i :: r => Forall_cons i
                      ((fix g (l : list elements) : Forall Pe l :=
                          match l with [] => Forall_nil _ | e :: r => Forall_cons e (elements_ind' e) (g r) end) i)
                      (go r)
                  end) a0)
              (Some a) H
        end
  end
with constraint_ind' (c : constraint) : Pc c :=
  match c with CSubtype s => H_csub s (set_ind' s) | CTable t => H_ctable t | CContents => H_ccont end
with type_ind' (t : asn_type) : Pt t :=
  match t with
  | mkType k cs => H_type k cs
      match cs as o return forall l, o = Some l -> Forall Pc l with
      | None => fun l H => False_ind _ (eq_ind (@None (list constraint)) (fun o => match o with None => True | Some _ => False end) I (Some l) H)
      | Some l0 => fun l H =>
          eq_ind (Some l0) (fun o => match o with Some l => Forall Pc l | None => True end)
            ((fix g (l : list constraint) : Forall Pc l :=
                match l with [] => Forall_nil _ | c :: r => Forall_cons c (constraint_ind' c) (g r) end) l0)
            (Some l) H
      end
  end.
End ElementsInd.

(* ------------------------------------------------------------------ *)
(* Sets of values                                                      *)
(* ------------------------------------------------------------------ *)
Definition in_cv (V : cvalues) (z : Z) : Prop :=
  In z (values V) \/ exists a b, In (a, b) (ranges V) /\ a <= z < b.
Definition good_ranges (V : cvalues) : Prop :=
  Forall (fun r => - 2 ^ 127 <= fst r < snd r /\ snd r < 2 ^ 127) (ranges V).
Definition repr (V : cvalues) (P : Z -> Prop) : Prop := good_ranges V /\ forall z, P z <-> in_cv V z.

Lemma list_min_spec l :
  match list_min l with
  | Some m => In m l /\ forall z, In z l -> m <= z
  | None => l = []
  end.
Proof.
  induction l as [|x r IH]; simpl; [easy|].
  destruct (list_min r) as [m|].
  - destruct IH as [H1 H2]. split.
    + destruct (Z.min_spec x m) as [[_ ->]|[_ ->]]; auto.
    + intros z [->|Hz]; [lia|]. specialize (H2 z Hz). lia.
  - subst r. split; [auto|]. intros z [->|[]]. lia.
Qed.
Lemma list_max_spec l :
  match list_max l with
  | Some m => In m l /\ forall z, In z l -> z <= m
  | None => l = []
  end.
Proof.
  induction l as [|x r IH]; simpl; [easy|].
  destruct (list_max r) as [m|].
  - destruct IH as [H1 H2]. split.
    + destruct (Z.max_spec x m) as [[_ ->]|[_ ->]]; auto.
    + intros z [->|Hz]; [lia|]. specialize (H2 z Hz). lia.
  - subst r. split; [auto|]. intros z [->|[]]. lia.
Qed.

Lemma arith_ok E z : - 2 ^ 127 <= z < 2 ^ 127 -> arith_i128 E z = Ok z.
Proof. intros H. unfold arith_i128, in_i128. now replace ((- 2 ^ 127 <=? z) && (z <? 2 ^ 127)) with true by lia. Qed.

Lemma range_ends_ok E l :
  Forall (fun r => - 2 ^ 127 <= fst r < snd r /\ snd r < 2 ^ 127) l ->
  range_ends E l = Ok (map (fun r => snd r - 1) l).
Proof.
  induction 1 as [|[a b] l H _ IH]; [easy|].
  cbn [fst snd] in H. cbn [range_ends map snd]. rewrite arith_ok by lia. cbn [rbind]. now rewrite IH.
Qed.

Lemma cv_min_spec V P : repr V P ->
  match cv_min V with Some m => is_least P m | None => forall z, ~ P z end.
Proof.
  intros [G HP]. unfold cv_min. unfold good_ranges in G; rewrite Forall_forall in G.
  pose proof (list_min_spec (values V)) as Hv. pose proof (list_min_spec (map fst (ranges V))) as Hr.
  assert (Hlow : forall a, In a (map fst (ranges V)) -> P a).
  { intros a Ha. apply in_map_iff in Ha. destruct Ha as [[a' b] [<- Hin]]. apply HP. right. exists a', b.
    split; [exact Hin|]. specialize (G _ Hin). simpl in *. lia. }
  assert (Hge : forall m, (forall z, In z (map fst (ranges V)) -> m <= z) ->
                forall a b z, In (a, b) (ranges V) -> a <= z < b -> m <= z).
  { intros m Hm a b z Hin Hz. specialize (Hm a (in_map fst _ _ Hin)). lia. }
  destruct (list_min (values V)) as [v|].
  - destruct Hv as [Hv1 Hv2]. assert (Pv : P v) by (apply HP; now left).
    destruct (list_min (map fst (ranges V))) as [r|].
    + destruct Hr as [Hr1 Hr2]. split.
      * destruct (Z.min_spec r v) as [[_ ->]|[_ ->]]; auto.
      * intros z Hz. apply HP in Hz. destruct Hz as [Hz|[a [b [Hin Hz]]]].
        -- specialize (Hv2 z Hz). lia.
        -- specialize (Hge r Hr2 a b z Hin Hz). lia.
    + split; [exact Pv|]. intros z Hz. apply HP in Hz. destruct Hz as [Hz|[a [b [Hin Hz]]]]; [auto|].
      apply map_eq_nil in Hr. now rewrite Hr in Hin.
  - destruct (list_min (map fst (ranges V))) as [r|].
    + destruct Hr as [Hr1 Hr2]. split; [auto|].
      intros z Hz. apply HP in Hz. destruct Hz as [Hz|[a [b [Hin Hz]]]]; [now rewrite Hv in Hz|].
      exact (Hge r Hr2 a b z Hin Hz).
    + intros z Hz. apply HP in Hz. apply map_eq_nil in Hr.
      destruct Hz as [Hz|[a [b [Hin Hz]]]]; [now rewrite Hv in Hz|now rewrite Hr in Hin].
Qed.

Lemma cv_max_spec E V P : repr V P ->
  exists o, cv_max E V = Ok o /\
  match o with
  | Some m => P m /\ (values V = [] \/ ranges V = [] -> is_greatest P m)
  | None => forall z, ~ P z
  end.
Proof.
  intros [G HP]. unfold cv_max. rewrite (range_ends_ok E _ G). cbn [rbind]. eexists. split; [reflexivity|].
  unfold good_ranges in G; rewrite Forall_forall in G.
  pose proof (list_max_spec (values V)) as Hv. pose proof (list_max_spec (map (fun r => snd r - 1) (ranges V))) as Hr.
  assert (Hhigh : forall a, In a (map (fun r => snd r - 1) (ranges V)) -> P a).
  { intros x Ha. apply in_map_iff in Ha. destruct Ha as [[a b] [<- Hin]]. apply HP. right. exists a, b.
    split; [exact Hin|]. specialize (G _ Hin). simpl in *. lia. }
  assert (Hle : forall m, (forall z, In z (map (fun r => snd r - 1) (ranges V)) -> z <= m) ->
                forall a b z, In (a, b) (ranges V) -> a <= z < b -> z <= m).
  { intros m Hm a b z Hin Hz. specialize (Hm (b - 1) (in_map (fun r => snd r - 1) _ _ Hin)). lia. }
  destruct (list_max (values V)) as [v|].
  - destruct Hv as [Hv1 Hv2]. assert (Pv : P v) by (apply HP; now left).
    destruct (list_max (map _ (ranges V))) as [r|].
    + destruct Hr as [Hr1 Hr2]. split.
      * destruct (Z.min_spec r v) as [[_ ->]|[_ ->]]; auto.
      * intros [H|H]; [now rewrite H in Hv1|now rewrite H in Hr1].
    + split; [exact Pv|]. intros _. split; [exact Pv|]. intros z Hz. apply HP in Hz.
      destruct Hz as [Hz|[a [b [Hin Hz]]]]; [auto|]. apply map_eq_nil in Hr. now rewrite Hr in Hin.
  - destruct (list_max (map _ (ranges V))) as [r|].
    + destruct Hr as [Hr1 Hr2]. split; [auto|]. intros _. split; [auto|].
      intros z Hz. apply HP in Hz. destruct Hz as [Hz|[a [b [Hin Hz]]]]; [now rewrite Hv in Hz|].
      exact (Hle r Hr2 a b z Hin Hz).
    + intros z Hz. apply HP in Hz. apply map_eq_nil in Hr.
      destruct Hz as [Hz|[a [b [Hin Hz]]]]; [now rewrite Hv in Hz|now rewrite Hr in Hin].
Qed.

Lemma repr_append V W P Q : repr V P -> repr W Q -> repr (cv_append V W) (fun z => P z \/ Q z).
Proof.
  intros [GV HV] [GW HW]. split.
  - unfold good_ranges, cv_append. cbn [ranges]. now apply Forall_app.
  - intros z. rewrite HV, HW. unfold in_cv, cv_append. cbn [ranges values]. rewrite in_app_iff. split.
    + intros [[H|[a [b [H H']]]]|[H|[a [b [H H']]]]]; auto; right; exists a, b; rewrite in_app_iff; auto.
    + intros [[H|H]|[a [b [H H']]]]; auto. rewrite in_app_iff in H. destruct H; [left|right]; right; eauto.
Qed.
Lemma repr_new : repr cv_new (fun _ => False).
Proof.
  split; [constructor|]. intros z. split; [easy|]. intros [[]|[a [b [[] _]]]].
Qed.
Lemma repr_ext V P Q : repr V P -> (forall z, P z <-> Q z) -> repr V Q.
Proof. intros [G H] HQ. split; [exact G|]. intros z. now rewrite <- HQ. Qed.

Section Known.
Context (E : env) (known : string -> option Z).

Lemma value_of_resolves s z : value_of known s = Some z <-> parse_or_resolve_value known s = Ok z.
Proof.
  unfold value_of, parse_or_resolve_value. destruct (parse_i128 s); [split; congruence|].
  destruct (known s); split; congruence.
Qed.

Lemma range_repr l li u ui V : regular known (ERange l li u ui) -> range_values E known l li u ui = Ok V ->
  repr V (permits known (ERange l li u ui)) /\ values V = [].
Proof.
  intros (a & b & Ha & Hb & Hlo & Hhi) H. unfold range_values in H.
  pose proof (proj1 (value_of_resolves _ _) Ha) as Ha'. pose proof (proj1 (value_of_resolves _ _) Hb) as Hb'.
  rewrite Ha', Hb' in H. cbn [rbind] in H.
  assert (Hl : (if li then Ok a else arith_i128 E (a + 1)) = Ok (if li then a else a + 1)).
  { destruct li; [easy|]. apply arith_ok. lia. }
  assert (Hu : (if ui then Ok b else arith_i128 E (b - 1)) = Ok (if ui then b else b - 1)).
  { destruct ui; [easy|]. apply arith_ok. lia. }
  rewrite Hl, Hu in H. cbn [rbind] in H. rewrite arith_ok in H by lia. injection H as <-.
  split; [|easy]. split.
  - constructor; [|constructor]. cbn [fst snd]. lia.
  - intros z. unfold in_cv. cbn [values ranges permits]. split.
    + intros (a' & b' & Ha2 & Hb2 & H1 & H2). right. eexists _, _. split; [left; reflexivity|].
      assert (a' = a) by congruence. assert (b' = b) by congruence. subst. destruct li, ui; lia.
    + intros [[]|(x & y & [Heq|[]] & Hz)]. injection Heq as <- <-. exists a, b.
      repeat split; [exact Ha|exact Hb|destruct li; lia|destruct ui; lia].
Qed.

Definition intersection (i : list elements) : res cvalues :=
  rfold (fun acc e => v <-- elements_values E known e ;; Ok (intersect acc v)) cv_new i.
Lemma set_values_eq root add :
  set_values E known (mkSet root add) =
  (r <-- rfold (fun acc i => v <-- intersection i ;; Ok (cv_append acc v)) cv_new root ;;
   match add with
   | None => Ok (mkVS r None)
   | Some a => more <-- rfold (fun acc i => v <-- intersection i ;; Ok (cv_append acc v)) cv_new a ;; Ok (mkVS r (Some more))
   end).
Proof. reflexivity. Qed.

Lemma intersect_new V : intersect cv_new V = V.
Proof. destruct V as [r v]. reflexivity. Qed.

Lemma intersection_single e : intersection [e] = elements_values E known e.
Proof.
  unfold intersection. cbn [rfold]. destruct (elements_values E known e); cbn [rbind]; try easy.
  now rewrite intersect_new.
Qed.

Lemma intersection_same z i :
  i <> [] -> all (fun e => exists v, e = ESingle v /\ value_of known v = Some z) i ->
  intersection i = Ok (mkCV [] [z]).
Proof.
  intros Hne H. destruct i as [|e i]; [easy|]. destruct H as [(v & -> & Hv) H].
  assert (Hrest : forall i, all (fun e => exists v, e = ESingle v /\ value_of known v = Some z) i ->
     rfold (fun acc e => v <-- elements_values E known e ;; Ok (intersect acc v)) (mkCV [] [z]) i = Ok (mkCV [] [z])).
  { clear. induction i as [|e i IH]; intros H; [easy|]. destruct H as [(v & -> & Hv) H].
    cbn [rfold]. cbn [elements_values]. apply value_of_resolves in Hv. rewrite Hv. cbn [rbind].
    replace (intersect (mkCV [] [z]) (mkCV [] [z])) with (mkCV [] [z]); [now apply IH|].
    unfold intersect. cbn. now rewrite Z.eqb_refl. }
  unfold intersection. cbn [rfold elements_values]. apply value_of_resolves in Hv. rewrite Hv. cbn [rbind].
  rewrite intersect_new. now apply Hrest.
Qed.

(* the shape of the result: without ranges, or without values *)
Definition shape (single : bool) (V : cvalues) : Prop := if single then ranges V = [] else values V = [].

Definition Pe (e : elements) : Prop := regular known e -> forall V, elements_values E known e = Ok V ->
  repr V (permits known e) /\ forall b, only b e -> shape b V.
Definition Ps (s : element_set) : Prop := regular_set known s -> forall vs, set_values E known s = Ok vs ->
  repr (root_values vs) (set_permits known s) /\ forall b, only_set b s -> shape b (root_values vs).
Definition Pc (c : constraint) : Prop := regular_constraint known c -> forall vs, constraint_values E known c = Ok vs ->
  repr (root_values vs) (constraint_permits known c) /\ forall b, only_constraint b c -> shape b (root_values vs).
Definition Pt (t : asn_type) : Prop := regular_type known t -> forall vs, type_values E known t = Ok vs ->
  repr (root_values vs) (type_permits known t) /\ forall b, only_type b t -> shape b (root_values vs).

Lemma all_iff {A} (P Q : A -> Prop) l : (forall x, In x l -> (P x <-> Q x)) -> (all P l <-> all Q l).
Proof.
  induction l as [|x l IH]; intros H; [easy|]. cbn. rewrite (H x (or_introl eq_refl)).
  rewrite IH; [easy|]. intros y Hy. apply H. now right.
Qed.

Lemma intersection_repr i V : Forall Pe i ->
  (match i with
   | [e] => regular known e
   | _ => i <> [] /\ exists z, all (fun e => exists v, e = ESingle v /\ value_of known v = Some z) i
   end) ->
  intersection i = Ok V ->
  repr V (fun z => all (fun e => permits known e z) i) /\ forall b, all (only b) i -> shape b V.
Proof.
  intros HP Hreg H.
  assert (Hsame : (i <> [] /\ exists z, all (fun e => exists v, e = ESingle v /\ value_of known v = Some z) i) ->
     repr V (fun z => all (fun e => permits known e z) i) /\ forall b, all (only b) i -> shape b V).
  { intros [Hne (z & Hz)]. rewrite (intersection_same z) in H by assumption. injection H as <-. split.
    - split; [constructor|]. intros y. unfold in_cv. cbn [values ranges].
      transitivity (z = y).
      + clear - Hne Hz. induction i as [|e i IH]; [easy|]. destruct Hz as [(v & -> & Hv) Hz]. cbn [all permits].
        destruct i as [|e' i].
        * cbn. rewrite Hv. split; [intros [H _]; congruence|intros ->; auto].
        * rewrite (IH ltac:(easy) Hz), Hv. split; [intros [_ H]; exact H|intros ->; auto].
      + split; [intros ->; left; now left|]. intros [[->|[]]|(a & b & [] & _)]. reflexivity.
    - intros b Hb. destruct i as [|e i]; [easy|]. destruct Hz as [(v & -> & _) _]. destruct Hb as [-> _]. reflexivity. }
  destruct i as [|e [|e' i]]; [now apply Hsame| |now apply Hsame].
  rewrite intersection_single in H. inversion_clear HP as [|? ? He _].
  destruct (He Hreg V H) as [H1 H2]. split.
  - eapply repr_ext; [exact H1|]. intros z. cbn. tauto.
  - intros b [Hb _]. now apply H2.
Qed.

Lemma shape_append b V W : shape b V -> shape b W -> shape b (cv_append V W).
Proof. destruct b; cbn; intros -> ->; reflexivity. Qed.
Lemma shape_new b : shape b cv_new.
Proof. now destruct b. Qed.

Lemma union_repr root : Forall (Forall Pe) root -> forall acc P V,
  all (fun i => match i with
                | [e] => regular known e
                | _ => i <> [] /\ exists z, all (fun e => exists v, e = ESingle v /\ value_of known v = Some z) i
                end) root ->
  repr acc P ->
  rfold (fun acc i => v <-- intersection i ;; Ok (cv_append acc v)) acc root = Ok V ->
  repr V (fun z => P z \/ any (all (fun e => permits known e z)) root) /\
  forall b, shape b acc -> all (all (only b)) root -> shape b V.
Proof.
  induction 1 as [|i root Hi _ IH]; intros acc P V Hreg Hacc H.
  - injection H as <-. split; [|easy]. eapply repr_ext; [exact Hacc|]. intros z. cbn. tauto.
  - destruct Hreg as [Hr1 Hr2]. cbn [rfold] in H.
    destruct (intersection i) as [W| | |] eqn:HW; try discriminate. cbn [rbind] in H.
    destruct (intersection_repr i W Hi Hr1 HW) as [HW1 HW2].
    destruct (IH _ _ V Hr2 (repr_append _ _ _ _ Hacc HW1) H) as [H1 H2]. split.
    + eapply repr_ext; [exact H1|]. intros z. cbn. tauto.
    + intros b Hb [Hb1 Hb2]. apply H2; [|exact Hb2]. apply shape_append; auto.
Qed.

Lemma set_repr_step root add : Forall (Forall Pe) root -> Ps (mkSet root add).
Proof.
  intros HF [Hreg _] vs H. rewrite set_values_eq in H.
  destruct (rfold (fun acc i => v <-- intersection i ;; Ok (cv_append acc v)) cv_new root) as [R| | |] eqn:HR; try discriminate.
  cbn [rbind] in H.
  assert (root_values vs = R) as ->.
  { destruct add as [a|].
    - destruct (rfold (fun acc i => v <-- intersection i ;; Ok (cv_append acc v)) cv_new a); try discriminate.
      injection H as <-. reflexivity.
    - injection H as <-. reflexivity. }
  destruct (union_repr root HF cv_new _ R Hreg repr_new HR) as [H1 H2]. split.
  - eapply repr_ext; [exact H1|]. intros z. cbn [set_permits]. tauto.
  - intros b Hb. apply H2; [apply shape_new|exact Hb].
Qed.

Lemma type_repr_step k cs : (forall l, cs = Some l -> Forall Pc l) -> Pt (mkType k cs).
Proof.
  intros H Hreg vs Hvs. destruct k as [[]| | | | | |]; try easy. destruct cs as [[|c [|c' r]]|]; try easy.
  specialize (H _ eq_refl). inversion_clear H as [|? ? Hc _].
  destruct (Hc Hreg vs Hvs) as [H1 H2]. split.
  - eapply repr_ext; [exact H1|]. intros z. cbn. tauto.
  - intros b Hb. now apply H2.
Qed.

Lemma elements_repr e : Pe e.
Proof.
  apply (elements_ind' Pe Ps Pc Pt).
  - intros v _ V H. cbn [elements_values] in H.
    destruct (parse_or_resolve_value known v) as [z| | |] eqn:Hz; try discriminate. injection H as <-.
    apply value_of_resolves in Hz. split.
    + split; [constructor|]. intros y. unfold in_cv. cbn [values ranges permits]. rewrite Hz. split.
      * intros H. left. left. congruence.
      * intros [[->|[]]|(a & b & [] & _)]. reflexivity.
    + intros b Hb. cbn in Hb. subst b. reflexivity.
  - intros t Ht Hreg V H. change (rbind (type_values E known t) (fun vs => Ok (root_values vs)) = Ok V) in H.
    destruct (type_values E known t) as [vs| | |] eqn:Hvs; try discriminate. cbn [rbind] in H. injection H as <-.
    exact (Ht Hreg vs Hvs).
  - intros l li u ui Hreg V H. cbn [elements_values] in H. destruct (range_repr _ _ _ _ _ Hreg H) as [H1 H2].
    split; [exact H1|]. intros b Hb. cbn in Hb. subst b. exact H2.
  - intros s _ [].
  - intros s [].
  - intros s _ [].
  - intros root add HF _. now apply set_repr_step.
  - intros s Hs Hreg vs H. exact (Hs Hreg vs H).
  - intros t [].
  - intros [].
  - intros k cs H. now apply type_repr_step.
Qed.
Lemma set_repr s : Ps s.
Proof.
  destruct s as [root add]. apply set_repr_step. apply Forall_forall. intros i _. apply Forall_forall. intros e _.
  apply elements_repr.
Qed.

(* Such constraints are accepted. *)
Definition Te (e : elements) : Prop := regular known e -> exists V, elements_values E known e = Ok V.
Definition Ts (s : element_set) : Prop := regular_set known s -> exists vs, set_values E known s = Ok vs.
Definition Tc (c : constraint) : Prop := regular_constraint known c -> exists vs, constraint_values E known c = Ok vs.
Definition Tt (t : asn_type) : Prop := regular_type known t -> exists vs, type_values E known t = Ok vs.

Lemma union_total root : Forall (Forall Te) root -> forall acc,
  all (fun i => match i with
                | [e] => regular known e
                | _ => i <> [] /\ exists z, all (fun e => exists v, e = ESingle v /\ value_of known v = Some z) i
                end) root ->
  exists V, rfold (fun acc i => v <-- intersection i ;; Ok (cv_append acc v)) acc root = Ok V.
Proof.
  induction 1 as [|i root Hi _ IH]; intros acc Hreg; [now eexists|].
  destruct Hreg as [Hr1 Hr2]. cbn [rfold].
  assert (exists W, intersection i = Ok W) as [W ->].
  { destruct i as [|e [|e' i]].
    - destruct Hr1 as [Hr1 _]. easy.
    - rewrite intersection_single. inversion_clear Hi as [|? ? He _]. exact (He Hr1).
    - destruct Hr1 as [Hne (z & Hz)]. eexists. exact (intersection_same z _ Hne Hz). }
  cbn [rbind]. now apply IH.
Qed.

Lemma elements_total e : Te e.
Proof.
  apply (elements_ind' Te Ts Tc Tt).
  - intros v (z & Hz). apply value_of_resolves in Hz. cbn [elements_values]. rewrite Hz. now eexists.
  - intros t Ht Hreg. destruct (Ht Hreg) as (vs & Hvs). exists (root_values vs).
    change (rbind (type_values E known t) (fun vs => Ok (root_values vs)) = Ok (root_values vs)). now rewrite Hvs.
  - intros l li u ui (a & b & Ha & Hb & Hlo & Hhi).
    apply value_of_resolves in Ha. apply value_of_resolves in Hb.
    cbn [elements_values]. unfold range_values. rewrite Ha, Hb. cbn [rbind].
    assert (Hl : (if li then Ok a else arith_i128 E (a + 1)) = Ok (if li then a else a + 1)).
    { destruct li; [easy|]. apply arith_ok. lia. }
    assert (Hu : (if ui then Ok b else arith_i128 E (b - 1)) = Ok (if ui then b else b - 1)).
    { destruct ui; [easy|]. apply arith_ok. lia. }
    rewrite Hl, Hu. cbn [rbind]. rewrite arith_ok by lia. now eexists.
  - intros s _ [].
  - intros s [].
  - intros s _ [].
  - intros root add HF HA [Hreg Hadd]. rewrite set_values_eq.
    destruct (union_total root HF cv_new Hreg) as [R ->]. cbn [rbind].
    destruct add as [a|]; [|now eexists].
    destruct (union_total a (HA a eq_refl) cv_new Hadd) as [M ->]. now eexists.
  - intros s Hs Hreg. exact (Hs Hreg).
  - intros t [].
  - intros [].
  - intros k cs H Hreg. destruct k as [[]| | | | | |]; try easy. destruct cs as [[|c [|c' r]]|]; try easy.
    specialize (H _ eq_refl). inversion_clear H as [|? ? Hc _]. exact (Hc Hreg).
Qed.
Lemma set_total s : Ts s.
Proof.
  destruct s as [root add]. intros [Hreg Hadd]. rewrite set_values_eq.
  assert (HF : forall l, Forall (Forall Te) l).
  { intros l. apply Forall_forall. intros i _. apply Forall_forall. intros e _. apply elements_total. }
  destruct (union_total root (HF _) cv_new Hreg) as [R ->]. cbn [rbind].
  destruct add as [a|]; [|now eexists].
  destruct (union_total a (HF _) cv_new Hadd) as [M ->]. now eexists.
Qed.

(* ------------------------------------------------------------------ *)
(* C32                                                                 *)
(* ------------------------------------------------------------------ *)
Theorem lower_bound s vs : regular_set known s -> set_values E known s = Ok vs ->
  match cv_min (root_values vs) with
  | Some m => is_least (set_permits known s) m
  | None => forall z, ~ set_permits known s z
  end.
Proof. intros Hreg H. apply cv_min_spec. now apply set_repr. Qed.

Theorem upper_bound s vs b : regular_set known s -> only_set b s -> set_values E known s = Ok vs ->
  exists o, cv_max E (root_values vs) = Ok o /\
  match o with
  | Some m => is_greatest (set_permits known s) m
  | None => forall z, ~ set_permits known s z
  end.
Proof.
  intros Hreg Hb H. destruct (set_repr s Hreg vs H) as [Hr Hs]. specialize (Hs b Hb).
  destruct (cv_max_spec E _ _ Hr) as (o & Ho & Hm). exists o. split; [exact Ho|].
  destruct o as [m|]; [|exact Hm]. destruct Hm as [_ Hm]. apply Hm. destruct b; [now right|now left].
Qed.

Theorem upper_bound_permitted s vs : regular_set known s -> set_values E known s = Ok vs ->
  exists o, cv_max E (root_values vs) = Ok o /\
  match o with
  | Some m => set_permits known s m
  | None => forall z, ~ set_permits known s z
  end.
Proof.
  intros Hreg H. destruct (set_repr s Hreg vs H) as [Hr _].
  destruct (cv_max_spec E _ _ Hr) as (o & Ho & Hm). exists o. split; [exact Ho|].
  destruct o as [m|]; [|exact Hm]. now destruct Hm.
Qed.
End Known.

(* ------------------------------------------------------------------ *)
(* C32 and C33 for INTEGER types                                       *)
(* ------------------------------------------------------------------ *)
Lemma least_unique P a b : is_least P a -> is_least P b -> a = b.
Proof. intros [Ha Ha'] [Hb Hb']. specialize (Ha' b Hb). specialize (Hb' a Ha). lia. Qed.
Lemma greatest_unique P a b : is_greatest P a -> is_greatest P b -> a = b.
Proof. intros [Ha Ha'] [Hb Hb']. specialize (Ha' b Hb). specialize (Hb' a Ha). lia. Qed.

Lemma set_values_ext E known s vs : set_values E known s = Ok vs -> has_extension vs = extensible_set s.
Proof.
  destruct s as [root add]. rewrite set_values_eq. intros H.
  destruct (rfold _ cv_new root) as [R| | |]; try discriminate. cbn [rbind] in H.
  destruct add as [a|].
  - destruct (rfold _ cv_new a); try discriminate. injection H as <-. reflexivity.
  - injection H as <-. reflexivity.
Qed.

Lemma bitlen_le n m : 0 <= n -> 0 <= m -> (bitlen m <= n <-> m < 2 ^ n).
Proof.
  intros Hn Hm. unfold bitlen. destruct (m <=? 0) eqn:Hz.
  - assert (m = 0) by lia. subst. split; [|lia]. intros _. apply Z.pow_pos_nonneg; lia.
  - rewrite (Z.log2_lt_pow2 m n) by lia. lia.
Qed.

Lemma width_of_bitlen m : 0 <= m -> inner_width (round_bits (bitlen m)) = width_for m.
Proof.
  intros Hm. unfold round_bits, width_for.
  pose proof (bitlen_le 8 m ltac:(lia) Hm). pose proof (bitlen_le 16 m ltac:(lia) Hm).
  pose proof (bitlen_le 32 m ltac:(lia) Hm). pose proof (bitlen_le 64 m ltac:(lia) Hm).
  destruct (bitlen m <=? 8) eqn:H8.
  - now replace (m <? 2 ^ 8) with true by lia.
  - replace (m <? 2 ^ 8) with false by lia. destruct (bitlen m <=? 16) eqn:H16.
    + now replace (m <? 2 ^ 16) with true by lia.
    + replace (m <? 2 ^ 16) with false by lia. destruct (bitlen m <=? 32) eqn:H32.
      * now replace (m <? 2 ^ 32) with true by lia.
      * replace (m <? 2 ^ 32) with false by lia. now destruct (bitlen m <=? 64).
Qed.
Lemma bitlen_max a b : 0 <= a -> 0 <= b -> Z.max (bitlen a) (bitlen b) = bitlen (Z.max a b).
Proof.
  intros Ha Hb. unfold bitlen. destruct (Z.max_spec a b) as [[H ->]|[H ->]].
  - replace (b <=? 0) with false by lia. destruct (a <=? 0) eqn:Hz.
    + pose proof (Z.log2_nonneg b). lia.
    + pose proof (Z.log2_le_mono a b). lia.
  - destruct (a <=? 0) eqn:Hz.
    + replace (b <=? 0) with true by lia. lia.
    + destruct (b <=? 0).
      * pose proof (Z.log2_nonneg a). lia.
      * pose proof (Z.log2_le_mono b a). lia.
Qed.

Lemma wrap_s_fix w z : 0 < w -> (wrap_s w z = z <-> - 2 ^ (w - 1) <= z < 2 ^ (w - 1)).
Proof.
  intros Hw. unfold wrap_s. assert (H2 : 2 ^ w = 2 * 2 ^ (w - 1)).
  { rewrite <- Z.pow_succ_r by lia. f_equal. lia. }
  assert (Hp : 0 < 2 ^ (w - 1)) by (apply Z.pow_pos_nonneg; lia).
  set (h := 2 ^ (w - 1)) in *. clearbody h. rewrite H2.
  pose proof (Z.mod_pos_bound z (2 * h) ltac:(lia)) as Hb.
  pose proof (Z.div_mod z (2 * h) ltac:(lia)) as Hd.
  destruct (z mod (2 * h) <? h) eqn:Hc.
  - split; [lia|]. intros Hz. assert (z / (2 * h) = 0); [|nia].
    assert (-1 < z / (2 * h) < 1) by nia. lia.
  - split; [lia|]. intros Hz. assert (z / (2 * h) = -1); [|nia].
    assert (-2 < z / (2 * h) < 0) by nia. lia.
Qed.
Lemma wrap_u_fix w z : 0 <= w -> (wrap_u w z = z <-> 0 <= z < 2 ^ w).
Proof.
  intros Hw. unfold wrap_u. assert (0 < 2 ^ w) by (apply Z.pow_pos_nonneg; lia).
  split; [|apply Z.mod_small]. intros <-. apply Z.mod_pos_bound. lia.
Qed.

Section Integers.
Context (E : env) (known : string -> option Z).

Lemma integer_type_resolves s b l u :
  regular_set known s -> only_set b s ->
  is_least (set_permits known s) l -> is_greatest (set_permits known s) u ->
  - 2 ^ 127 < l -> u < 2 ^ 127 ->
  exists i, resolve_integer E known (integer_type s) = Ok i /\
    In (int_bits i) [8; 16; 32; 64; 128] /\
    generate_integer E i = Ok (GInteger (chosen_width l u) (l <? 0) (Some l) (Some u) (extensible_set s)).
Proof.
  intros Hreg Hb Hl Hu Hl' Hu'.
  destruct (set_total E known s Hreg) as (vs & Hvs).
  pose proof (lower_bound E known s vs Hreg Hvs) as Hmin.
  destruct (cv_min (root_values vs)) as [l'|] eqn:Hm; [|destruct (Hmin l); apply Hl].
  assert (l' = l) by (eapply least_unique; eassumption). subst l'.
  destruct (upper_bound E known s vs b Hreg Hb Hvs) as (o & Ho & Hmax).
  destruct o as [u'|]; [|destruct (Hmax l); apply Hl].
  assert (u' = u) by (eapply greatest_unique; eassumption). subst u'.
  assert (Hlu : l <= u) by (apply Hl, Hu).
  unfold resolve_integer, integer_type. change (type_values E known (mkType (KBuiltin BInteger) (Some [CSubtype s]))) with (set_values E known s).
  rewrite Hvs. cbn [rbind]. rewrite Hm, Ho. cbn [rbind]. unfold chosen_width.
  assert (Hr : forall w, In (round_bits w) [8; 16; 32; 64; 128]).
  { intros w. unfold round_bits. repeat (destruct (_ <=? _); [cbn; tauto|]). cbn. tauto. }
  destruct (l <? 0) eqn:Hneg.
  - rewrite (arith_ok E (Z.abs u)) by lia. rewrite (arith_ok E (Z.abs l)) by lia. cbn [rbind].
    eexists. split; [reflexivity|]. split; [apply Hr|]. unfold generate_integer. cbn [int_constraints int_bits int_signed].
    rewrite Ho, Hm. cbn [rbind]. rewrite (set_values_ext E known s vs Hvs). unfold leading_zeros128.
    replace (Z.abs l <? 0) with false by lia. replace (Z.abs u <? 0) with false by lia.
    replace (128 - (128 - bitlen (Z.abs l))) with (bitlen (Z.abs l)) by lia.
    replace (128 - (128 - bitlen (Z.abs u))) with (bitlen (Z.abs u)) by lia.
    rewrite bitlen_max by lia. rewrite width_of_bitlen by lia. reflexivity.
  - eexists. split; [reflexivity|]. split; [apply Hr|]. unfold generate_integer. cbn [int_constraints int_bits int_signed].
    rewrite Ho, Hm. cbn [rbind]. rewrite (set_values_ext E known s vs Hvs). unfold leading_zeros128.
    replace (u <? 0) with false by lia.
    replace (128 - (128 - bitlen u)) with (bitlen u) by lia. rewrite width_of_bitlen by lia. reflexivity.
Qed.
End Integers.

Lemma signed_width_cases m : 0 <= m ->
  (width_for m = 8 /\ m < 2 ^ 8) \/ (width_for m = 16 /\ 2 ^ 8 <= m < 2 ^ 16) \/
  (width_for m = 32 /\ 2 ^ 16 <= m < 2 ^ 32) \/ (width_for m = 64 /\ 2 ^ 32 <= m).
Proof.
  intros H. unfold width_for.
  destruct (m <? 2 ^ 8) eqn:H8; [left; split; lia|]. destruct (m <? 2 ^ 16) eqn:H16; [right; left; split; lia|].
  destruct (m <? 2 ^ 32) eqn:H32; [right; right; left; split; lia|right; right; right; split; lia].
Qed.

Lemma unsigned_holds l u : 0 <= l <= u -> (holds_range (mkIty false (width_for u)) l u <-> u < 2 ^ 64).
Proof.
  intros H. unfold holds_range, cast. cbn [signed width].
  assert (Hw : 0 <= width_for u) by (pose proof (signed_width_cases u); lia).
  assert (u < 2 ^ 64 <-> u < 2 ^ width_for u).
  { destruct (signed_width_cases u ltac:(lia)) as [[-> Hu]|[[-> Hu]|[[-> Hu]|[-> Hu]]]]; lia. }
  rewrite H0. split.
  - intros Hc. specialize (Hc u ltac:(lia)). apply wrap_u_fix in Hc; lia.
  - intros Hc z Hz. apply wrap_u_fix; lia.
Qed.

Lemma signed_holds l u : l < 0 -> l <= u ->
  (holds_range (mkIty true (width_for (Z.max (Z.abs l) (Z.abs u)))) l u <->
   exists w, In w [8; 16; 32; 64] /\ - 2 ^ (w - 1) <= l /\ u < 2 ^ (w - 1) /\
             (w = 8 \/ 2 ^ (w / 2) <= Z.max (Z.abs l) (Z.abs u))).
Proof.
  intros Hl Hlu. set (m := Z.max (Z.abs l) (Z.abs u)).
  assert (Hm : 0 <= m) by lia.
  assert (Hw : 0 < width_for m) by (pose proof (signed_width_cases m Hm); lia).
  assert (Hfit : holds_range (mkIty true (width_for m)) l u <-> - 2 ^ (width_for m - 1) <= l /\ u < 2 ^ (width_for m - 1)).
  { unfold holds_range, cast. cbn [signed width]. split.
    - intros Hc. pose proof (Hc l ltac:(lia)) as H1. pose proof (Hc u ltac:(lia)) as H2.
      apply wrap_s_fix in H1; [|exact Hw]. apply wrap_s_fix in H2; [|exact Hw]. lia.
    - intros Hc z Hz. apply wrap_s_fix; [exact Hw|lia]. }
  rewrite Hfit. clear Hfit.
  destruct (signed_width_cases m Hm) as [[-> Hu]|[[-> Hu]|[[-> Hu]|[-> Hu]]]].
  - split.
    + intros H. exists 8. cbn [In]. split; [tauto|]. split; [lia|]. split; [lia|]. now left.
    + intros (w & Hin & H1 & H2 & H3). cbn [In] in Hin.
      destruct Hin as [<-|[<-|[<-|[<-|[]]]]]; [lia| | |]; destruct H3 as [H3|H3]; try lia;
        [change (16 / 2) with 8 in H3|change (32 / 2) with 16 in H3|change (64 / 2) with 32 in H3]; lia.
  - split.
    + intros H. exists 16. cbn [In]. split; [tauto|]. split; [lia|]. split; [lia|]. right. change (16 / 2) with 8. lia.
    + intros (w & Hin & H1 & H2 & H3). cbn [In] in Hin. destruct Hin as [<-|[<-|[<-|[<-|[]]]]].
      * lia.
      * lia.
      * destruct H3 as [H3|H3]; [lia|]. change (32 / 2) with 16 in H3. lia.
      * destruct H3 as [H3|H3]; [lia|]. change (64 / 2) with 32 in H3. lia.
  - split.
    + intros H. exists 32. cbn [In]. split; [tauto|]. split; [lia|]. split; [lia|]. right. change (32 / 2) with 16. lia.
    + intros (w & Hin & H1 & H2 & H3). cbn [In] in Hin. destruct Hin as [<-|[<-|[<-|[<-|[]]]]].
      * lia.
      * lia.
      * lia.
      * destruct H3 as [H3|H3]; [lia|]. change (64 / 2) with 32 in H3. lia.
  - split.
    + intros H. exists 64. cbn [In]. split; [tauto|]. split; [lia|]. split; [lia|]. right. change (64 / 2) with 32. lia.
    + intros (w & Hin & H1 & H2 & H3). cbn [In] in Hin. destruct Hin as [<-|[<-|[<-|[<-|[]]]]]; lia.
Qed.
