(* The resolution of a definition finds the bounds and the structure that the
   ASN.1 text gives. *)
From Coq Require Import ZArith NArith List Bool String Ascii Lia.
From Coq Require Import ZifyBool ZifyNat ZifyN.
Require Import Verif.Base Verif.DeriveModel Verif.DeriveSpec Verif.Asn1Model Verif.GenModel Verif.ResolveModel
  Verif.ModuleModel Verif.CompilerSpec Verif.ConstraintProofs Verif.GenProofs Verif.NameProofs Verif.TopoProofs
  Verif.OpenProofs Verif.ObjectProofs.
Import ListNotations.
Open Scope Z_scope.

(* ------------------------------------------------------------------ *)
(* Constraints only use the names they refer to                        *)
(* ------------------------------------------------------------------ *)
Section Agree.
Context (V K : string -> option Z).
Context (Hplain : forall s z, V s = Some z -> plain s).

Definition agree (l : list string) : Prop := forall s z, In s l -> V s = Some z -> K s = Some z.
Lemma agree_app a b : agree (a ++ b) -> agree a /\ agree b.
Proof. intros H. split; intros s z Hs; apply H, in_app_iff; tauto. Qed.
Lemma agree_in {A} (f : A -> list string) l x : agree (flat_map f l) -> In x l -> agree (f x).
Proof. intros H Hx s z Hs. apply H, in_flat_map. eauto. Qed.

Lemma value_of_agree s z : agree (if is_number s then [] else [s]) -> value_of V s = Some z -> value_of K s = Some z.
Proof.
  unfold value_of, is_number. intros H. destruct (parse_i128 s); [easy|]. intros Hz. apply H; [now left|exact Hz].
Qed.
Lemma value_single v z : agree (elements_refs (ESingle v)) -> value_of V v = Some z -> value_of K v = Some z.
Proof.
  intros H Hz. apply value_of_agree; [|exact Hz]. cbn [elements_refs] in H. unfold value_of, is_number in *.
  destruct (parse_i128 v); [intros s y []|]. now rewrite strip_braces_plain in H by (eapply Hplain; eassumption).
Qed.
Lemma value_bound v z : agree (if is_number v then [] else [strip v]) -> value_of V v = Some z -> value_of K v = Some z.
Proof.
  intros H Hz. apply value_of_agree; [|exact Hz]. unfold value_of, is_number in *.
  destruct (parse_i128 v); [intros s y []|]. now rewrite strip_plain in H by (eapply Hplain; eassumption).
Qed.

Definition Ae (e : elements) : Prop := agree (elements_refs e) -> regular V e ->
  regular K e /\ forall z, permits V e z <-> permits K e z.
Definition As (s : element_set) : Prop := agree (set_refs s) -> regular_set V s ->
  regular_set K s /\ forall z, set_permits V s z <-> set_permits K s z.
Definition Ac (c : constraint) : Prop := agree (constraint_refs c) -> regular_constraint V c ->
  regular_constraint K c /\ forall z, constraint_permits V c z <-> constraint_permits K c z.
Definition At (t : asn_type) : Prop := agree (type_refs t) -> regular_type V t ->
  regular_type K t /\ forall z, type_permits V t z <-> type_permits K t z.

Definition regular_intersection (known : string -> option Z) (i : list elements) : Prop :=
  match i with
  | [e] => regular known e
  | _ => i <> [] /\ exists z, all (fun e => exists v, e = ESingle v /\ value_of known v = Some z) i
  end.
Lemma same_agree i z : agree (flat_map elements_refs i) ->
  all (fun e => exists v, e = ESingle v /\ value_of V v = Some z) i ->
  all (fun e => exists v, e = ESingle v /\ value_of K v = Some z) i /\
  forall y, all (fun e => permits V e y) i <-> all (fun e => permits K e y) i.
Proof.
  induction i as [|e i IH]; intros H Ha; [easy|]. cbn [flat_map] in H. apply agree_app in H. destruct H as [H1 H2].
  destruct Ha as [(v & -> & Hv) Ha]. destruct (IH H2 Ha) as [I1 I2]. pose proof (value_single v z H1 Hv) as Hk. split.
  - cbn. split; [|exact I1]. now exists v.
  - intros y. cbn [all permits]. rewrite I2, Hv, Hk. tauto.
Qed.
Lemma intersection_agree i : Forall Ae i -> agree (flat_map elements_refs i) -> regular_intersection V i ->
  regular_intersection K i /\ forall y, all (fun e => permits V e y) i <-> all (fun e => permits K e y) i.
Proof.
  intros HF Hag Hreg.
  assert (Hsame : (i <> [] /\ exists z, all (fun e => exists v, e = ESingle v /\ value_of V v = Some z) i) ->
    (i <> [] /\ exists z, all (fun e => exists v, e = ESingle v /\ value_of K v = Some z) i) /\
    forall y, all (fun e => permits V e y) i <-> all (fun e => permits K e y) i).
  { intros (Hne & z & Hz). destruct (same_agree i z Hag Hz) as [H1 H2]. split; [|exact H2]. split; [exact Hne|now exists z]. }
  destruct i as [|e [|e' i]]; [now apply Hsame| |now apply Hsame].
  inversion_clear HF as [|? ? He _]. cbn [flat_map] in Hag. rewrite app_nil_r in Hag.
  destruct (He Hag Hreg) as [H1 H2]. split; [exact H1|]. intros y. cbn. now rewrite H2.
Qed.
Lemma union_agree root : Forall (Forall Ae) root -> agree (flat_map (flat_map elements_refs) root) ->
  all (regular_intersection V) root ->
  all (regular_intersection K) root /\
  forall y, any (all (fun e => permits V e y)) root <-> any (all (fun e => permits K e y)) root.
Proof.
  induction 1 as [|i root Hi _ IH]; intros Hag Hreg; [easy|]. cbn [flat_map] in Hag. apply agree_app in Hag.
  destruct Hag as [H1 H2]. destruct Hreg as [R1 R2]. destruct (IH H2 R2) as [I1 I2].
  destruct (intersection_agree i Hi H1 R1) as [J1 J2]. split; [now split|]. intros y. cbn. now rewrite I2, J2.
Qed.
Lemma elements_agree_all : (forall e, Ae e) /\ (forall s, As s).
Proof.
  assert (Hset : forall root add, Forall (Forall Ae) root -> (forall a, add = Some a -> Forall (Forall Ae) a) -> As (mkSet root add)).
  { intros root add Hr Hadd Hag [R1 R2]. cbn [set_refs] in Hag. apply agree_app in Hag. destruct Hag as [G1 G2].
    destruct (union_agree root Hr G1 R1) as [I1 I2]. split; [|exact I2]. split; [exact I1|].
    destruct add as [a|]; [|exact I]. now destruct (union_agree a (Hadd _ eq_refl) G2 R2). }
  assert (He : forall e, Ae e).
  { apply (elements_ind' Ae As Ac At).
    - intros v Hag (z & Hz). pose proof (value_single v z Hag Hz) as Hk. split; [now exists z|].
      intros y. cbn [permits]. now rewrite Hz, Hk.
    - intros t Ht Hag Hreg. exact (Ht Hag Hreg).
    - intros l li u ui Hag (a & b & Ha & Hb & H). cbn [elements_refs] in Hag. apply agree_app in Hag. destruct Hag as [G1 G2].
      pose proof (value_bound l a G1 Ha) as Ka. pose proof (value_bound u b G2 Hb) as Kb. split.
      + exists a, b. auto.
      + intros y. cbn [permits]. rewrite Ha, Hb, Ka, Kb. reflexivity.
    - intros s _ _ [].
    - intros s _ [].
    - intros s _ _ [].
    - exact Hset.
    - intros s Hs. exact Hs.
    - intros t _ [].
    - intros _ [].
    - intros k cs Hcs Hag Hreg. destruct k as [[]| | | | | |]; try easy. destruct cs as [[|c [|c' r]]|]; try easy.
      specialize (Hcs _ eq_refl). inversion_clear Hcs as [|? ? Hc _]. cbn [type_refs flat_map app] in Hag.
      rewrite app_nil_r in Hag. destruct (Hc Hag Hreg) as [H1 H2]. split; [exact H1|].
      intros z. cbn [type_permits all]. now rewrite H2. }
  split; [exact He|]. intros [root add]. apply Hset.
  - apply Forall_forall. intros i _. apply Forall_forall. auto.
  - intros a _. apply Forall_forall. intros i _. apply Forall_forall. auto.
Qed.
Lemma bounds_agree s l u : agree (set_refs s) -> bounds_are V s l u -> bounds_are K s l u.
Proof.
  intros Hag (Hr & Hb & [Hl Hl'] & [Hu Hu']). destruct (proj2 elements_agree_all s Hag Hr) as [H1 H2].
  split; [exact H1|]. split; [exact Hb|]. split; split.
  - now apply H2.
  - intros z Hz. now apply Hl', H2.
  - now apply H2.
  - intros z Hz. now apply Hu', H2.
Qed.
End Agree.

(* ------------------------------------------------------------------ *)
(* Resolution of a type                                                *)
(* ------------------------------------------------------------------ *)
Lemma bounds_values E K s l u : bounds_are K s l u ->
  exists vs, set_values E K s = Ok vs /\ cv_min (root_values vs) = Some l /\ cv_max E (root_values vs) = Ok (Some u) /\
    has_extension vs = extensible_set s.
Proof.
  intros (Hreg & (b & Hb) & Hl & Hu).
  destruct (set_total E K s Hreg) as (vs & Hvs). exists vs. split; [exact Hvs|].
  pose proof (lower_bound E K s vs Hreg Hvs) as Hmin.
  destruct (cv_min (root_values vs)) as [l'|] eqn:Hm; [|destruct (Hmin l); apply Hl].
  destruct (upper_bound E K s vs b Hreg Hb Hvs) as (o & Ho & Hmax).
  destruct o as [u'|]; [|destruct (Hmax l); apply Hl].
  split; [|split].
  - f_equal. eapply least_unique; eassumption.
  - rewrite Ho. do 2 f_equal. eapply greatest_unique; eassumption.
  - eapply set_values_ext. exact Hvs.
Qed.

Lemma rmap_app {A B} (f : A -> res B) a b x y : rmap f a = Ok x -> rmap f b = Ok y -> rmap f (a ++ b) = Ok (x ++ y).
Proof.
  revert x. induction a as [|e a IH]; intros x Ha Hb.
  - injection Ha as <-. exact Hb.
  - cbn [rmap app] in *. destruct (f e) as [v| | |]; try discriminate. cbn [rbind] in *.
    change ((fix go (l : list A) : res (list B) := match l with [] => Ok [] | x :: r => y <-- f x ;; ys <-- go r ;; Ok (y :: ys) end) a) with (rmap f a) in Ha.
    change ((fix go (l : list A) : res (list B) := match l with [] => Ok [] | x :: r => y <-- f x ;; ys <-- go r ;; Ok (y :: ys) end) (a ++ b)) with (rmap f (a ++ b)).
    destruct (rmap f a) as [vs| | |]; try discriminate. cbn [rbind] in Ha. injection Ha as <-.
    rewrite (IH vs eq_refl Hb). reflexivity.
Qed.
Lemma rmap_cons {A B} (f : A -> res B) a l : rmap f (a :: l) = (y <-- f a ;; ys <-- rmap f l ;; Ok (y :: ys)).
Proof. reflexivity. Qed.
Lemma rmap_split {A B} (f : A -> res B) a b z : rmap f (a ++ b) = Ok z ->
  exists x y, rmap f a = Ok x /\ rmap f b = Ok y /\ z = x ++ y.
Proof.
  revert z. induction a as [|e a IH]; intros z H.
  - exists [], z. auto.
  - cbn [app] in H. rewrite rmap_cons in *. destruct (f e) as [v| | |]; try discriminate. cbn [rbind] in *.
    destruct (rmap f (a ++ b)) as [vs| | |] eqn:Hvs; try discriminate. cbn [rbind] in H. injection H as <-.
    destruct (IH vs eq_refl) as (x & y & Hx & Hy & ->). exists (v :: x), y. rewrite Hx. auto.
Qed.
Lemma rmap_concat {A B} (f : A -> res B) gs : forall l, rmap f (List.concat gs) = Ok l ->
  exists ls, rmap (rmap f) gs = Ok ls /\ List.concat ls = l.
Proof.
  induction gs as [|g gs IH]; intros l H.
  - injection H as <-. now exists [].
  - cbn [List.concat] in H. apply rmap_split in H. destruct H as (x & y & Hx & Hy & ->).
    destruct (IH y Hy) as (ls & Hls & <-). exists (x :: ls). rewrite rmap_cons, Hx. cbn [rbind]. rewrite Hls. auto.
Qed.

Lemma enum_numbers_none l : Forall (fun v => ev_value v = None) l -> enum_numbers l = Ok [].
Proof.
  unfold enum_numbers. intros H. assert (Hg : forall acc, rfold (fun acc v => match ev_value v with
                      | Some (Number s) => match parse_i128 s with Some z => Ok (acc ++ [z]) | None => Panic end
                      | _ => Ok acc
                      end) acc l = Ok acc); [|apply Hg].
  induction H as [|v l Hv _ IH]; intros acc; [reflexivity|]. cbn [rfold]. rewrite Hv. cbn [rbind]. apply IH.
Qed.
Lemma enum_names_length l : forall i, zlen (enum_names i l) = zlen l.
Proof.
  unfold zlen. induction l as [|v l IH]; intros i; [reflexivity|]. cbn [enum_names List.length]. specialize (IH (i + 1)). lia.
Qed.

Scheme asn_mind := Minimality for asn_means Sort Prop
  with asn_alts_mind := Minimality for asn_alternatives Sort Prop
  with asn_adds_mind := Minimality for asn_additions Sort Prop
  with asn_comps_mind := Minimality for asn_components Sort Prop.
Combined Scheme asn_mutual from asn_mind, asn_alts_mind, asn_adds_mind, asn_comps_mind.

Section ResolveType.
Context (E : env) (defs : list (string * rdef)) (inst : string -> list actual_param -> res rtype).
Context (V Vsize : string -> option Z) (types : string -> option ty) (sets : string -> option set_meaning).
Context (instances : string -> list actual_param -> ty -> Prop).
(* the names of definitions that are there, and the names of parameterized types *)
Context (P G : string -> Prop).
Notation K := (known defs).
Notation D := (types_of defs).
Definition ready_for (l : list string) : Prop := forall u, In u l -> V u <> None \/ types u <> None \/ sets u <> None \/ G u -> P u.
Context (HplainV : forall s z, V s = Some z -> plain s) (HplainS : forall s z, Vsize s = Some z -> plain s).
Context (Hplain_sets : forall S s, sets S = Some s -> plain S).
Context (HV : forall s z, P s -> V s = Some z -> K s = Some z) (Hsize : forall s z, Vsize s = Some z -> K s = Some z).
Context (Htypes : forall r T, P r -> types r = Some T -> exists rt, lookup r defs = Some (DType rt) /\ type_means E D rt T).
Context (Hsets : forall S s, P S -> sets S = Some s -> exists os, lookup S defs = Some (DObjectSet os) /\ set_is E defs os s).
Context (Hinst : forall r ps T, instances r ps T -> ready_for (r :: map param_string ps) ->
  exists rt, inst r ps = Ok rt /\ type_means E D rt T /\ not_set rt).

Lemma ready_app a b : ready_for (a ++ b) -> ready_for a /\ ready_for b.
Proof. intros H. split; intros r Hr; apply H, in_app_iff; tauto. Qed.
Lemma ready_agree l : ready_for l -> agree V K l.
Proof. intros H s z Hs Hz. apply HV; [|exact Hz]. apply H; [exact Hs|left; congruence]. Qed.

Definition choice_component (c : string * asn_type) : res (string * rtype) :=
  match c with (id, t) => r <-- resolve_type E defs inst t ;; Ok (id, r) end.
Definition sequence_component (c : seq_component) : res rcomp :=
  match c with mkSeqComp id t optional _ => r <-- resolve_type E defs inst t ;; Ok (mkRComp id r optional false) end.
Lemma resolve_choice root additions cs :
  resolve_type E defs inst (mkType (KChoice root additions) cs) =
  (root <-- rmap choice_component root ;;
   adds <-- match additions with
            | None => Ok None
            | Some gs => l <-- rmap (rmap choice_component) gs ;; Ok (Some (List.concat l))
            end ;;
   Ok (RChoice root adds)).
Proof. reflexivity. Qed.
Lemma resolve_sequence root additions ext cs :
  resolve_type E defs inst (mkType (KSequence root additions ext) cs) =
  match rmap sequence_component root with
  | Ok l => Ok (RSequence ext l)
  | Err => resolve_class_sequence defs (map (fun c => (comp_id c, comp_ty c)) (root ++ List.concat additions)) ext
  | Panic => Panic
  | Diverge => Diverge
  end.
Proof. reflexivity. Qed.

Lemma size_resolves (U : string -> option Z) strict cs lb ub ext :
  (forall s z, U s = Some z -> plain s) ->
  agree U K (match cs with Some l => flat_map constraint_refs l | None => [] end) -> size_is U cs lb ub ext ->
  exists sz, resolve_size E defs strict cs = Ok sz /\ max_is E sz ub /\ min_of sz = lb /\ ext_of sz = ext.
Proof.
  intros Hp Hag H. destruct H as [cs [->| ->]|s l u Hb].
  - exists None. repeat split.
  - exists None. repeat split.
  - cbn [flat_map constraint_refs size_constraint set_refs elements_refs app] in Hag. rewrite !app_nil_r in Hag.
    apply (bounds_agree U K Hp) in Hb; [|exact Hag].
    destruct (bounds_values E K s l u Hb) as (vs & Hvs & Hmin & Hmax & Hext).
    exists (Some vs). cbn [resolve_size size_constraint is_size_constraint rbind size_values].
    rewrite Hvs. cbn [rbind max_is min_of ext_of]. auto.
Qed.

Definition R_type (t : asn_type) (T : ty) : Prop := ready_for (type_refs t) ->
  exists rt, resolve_type E defs inst t = Ok rt /\ type_means E D rt T /\ not_set rt.
Definition R_alts (x : bool) (i : Z) (l : list (string * asn_type)) (al : alts) : Prop :=
  ready_for (flat_map (fun c => match c with (_, t) => type_refs t end) l) ->
  exists rl, rmap choice_component l = Ok rl /\ alternatives_mean E D x i rl al /\ zlen rl = zlen l.
Definition R_adds (a : option (list (list (string * asn_type)))) (al : alts) : Prop :=
  ready_for (match a with Some gs => flat_map (flat_map (fun c => match c with (_, t) => type_refs t end)) gs | None => [] end) ->
  exists ra, match a with
             | None => Ok None
             | Some gs => l <-- rmap (rmap choice_component) gs ;; Ok (Some (List.concat l))
             end = Ok ra /\ additions_mean E D ra al /\ is_some ra = is_some a.
Definition R_comps (i : Z) (l : list seq_component) (fs : fields) : Prop :=
  ready_for (flat_map (fun c => match c with mkSeqComp _ t _ _ => type_refs t end) l) ->
  exists rl, rmap sequence_component l = Ok rl /\ components_mean E D i rl fs /\
    zlen (filter rc_optional rl) = zlen (filter comp_optional l).

Lemma flat_concat {A B} (f : A -> list B) l : flat_map (flat_map f) l = flat_map f (List.concat l).
Proof. induction l as [|x l IH]; [reflexivity|]. cbn. now rewrite flat_map_app, IH. Qed.

Theorem resolve_type_means t T : asn_means V Vsize types sets instances t T -> R_type t T.
Proof.
  apply (asn_mind V Vsize types sets instances R_type R_alts R_adds R_comps).
  - intros cs Hcs _. exists (RInteger default_integer). split; [|split; [|easy]].
    + destruct Hcs as [->| ->]; reflexivity.
    + change (TInt None None false (mkIty true 64)) with
        (TInt (min_of (int_constraints default_integer)) None (ext_of (int_constraints default_integer))
           (mkIty (int_signed default_integer) (Z.min 64 (int_bits default_integer)))).
      constructor; [cbn; tauto|reflexivity].
  - intros s l u Hb Hl Hu Hag. apply ready_agree in Hag. cbn [type_refs integer_type flat_map constraint_refs app] in Hag. rewrite app_nil_r in Hag.
    apply (bounds_agree V K HplainV) in Hb; [|exact Hag].
    destruct (bounds_values E K s l u Hb) as (vs & Hvs & Hmin & Hmax & Hext).
    destruct Hb as (Hreg & (b & Hb) & Hleast & Hgreat).
    destruct (integer_type_resolves E K s b l u Hreg Hb Hleast Hgreat Hl Hu) as (i & Hi & Hbits & Hgen).
    exists (RInteger i). split; [|split; [|easy]].
    + cbn [resolve_type integer_type resolve_base]. unfold integer_type in Hi. rewrite Hi. reflexivity.
    + assert (Hic : int_constraints i = Some vs).
      { unfold resolve_integer, integer_type in Hi.
        change (type_values E K (mkType (KBuiltin BInteger) (Some [CSubtype s]))) with (set_values E K s) in Hi.
        rewrite Hvs in Hi. cbn [rbind] in Hi. destruct (if match cv_min (root_values vs) with Some x => x <? 0 | None => true end then _ else _);
          try discriminate. cbn [rbind] in Hi. injection Hi as <-. reflexivity. }
      unfold generate_integer in Hgen. rewrite Hic in Hgen. rewrite Hmax in Hgen. cbn [rbind] in Hgen.
      injection Hgen as Hw Hs _ _.
      replace (TInt (Some l) (Some u) (extensible_set s) (mkIty (l <? 0) (chosen_width l u))) with
        (TInt (min_of (int_constraints i)) (Some u) (ext_of (int_constraints i)) (mkIty (int_signed i) (Z.min 64 (int_bits i)))).
      * constructor; [exact Hbits|]. rewrite Hic. exact Hmax.
      * rewrite Hic. cbn [min_of ext_of]. rewrite Hmin, Hext, Hs. do 2 f_equal. rewrite <- Hw. clear - Hbits.
        cbn in Hbits. unfold inner_width. destruct Hbits as [<-|[<-|[<-|[<-|[<-|[]]]]]]; reflexivity.
  - intros root marker ext cs _ Hnone Hne Hlen _. apply Forall_app in Hnone. destruct Hnone as [H1 H2].
    exists (REnumerated marker (enum_names 0 root)). split; [|split; [|easy]].
    + cbn [resolve_type resolve_base]. unfold resolve_enumerated. rewrite (enum_numbers_none _ H1), (enum_numbers_none _ H2). reflexivity.
    + rewrite <- (enum_names_length root 0). constructor; [|now rewrite enum_names_length]. destruct root; [contradiction|]. cbn [enum_names]. discriminate.
  - intros cs _ _. exists RBoolean. split; [reflexivity|split; [constructor|discriminate]].
  - intros cs _ _. exists RNull. split; [reflexivity|split; [constructor|discriminate]].
  - intros cs _ _. exists ROid. split; [reflexivity|split; [constructor|discriminate]].
  - intros cs lb ub ext Hs Hag. apply ready_agree in Hag. cbn [type_refs app] in Hag.
    destruct (size_resolves V false cs lb ub ext HplainV Hag Hs) as (sz & Hr & Hmax & <- & <-).
    exists (RBitString sz). split; [|split; [now constructor|easy]]. cbn [resolve_type resolve_base]. now rewrite Hr.
  - intros cs lb ub ext Hs Hag. apply ready_agree in Hag. cbn [type_refs app] in Hag.
    destruct (size_resolves V false cs lb ub ext HplainV Hag Hs) as (sz & Hr & Hmax & <- & <-).
    exists (ROctetString sz). split; [|split; [now constructor|easy]]. cbn [resolve_type resolve_base]. now rewrite Hr.
  - intros st cs lb ub ext Hst Hs Hag. apply ready_agree in Hag. cbn [type_refs app] in Hag.
    destruct (size_resolves V true cs lb ub ext HplainV Hag Hs) as (sz & Hr & Hmax & <- & <-).
    exists (RCharString st sz). split; [|split; [now constructor|easy]]. cbn [resolve_type resolve_base]. now rewrite Hr.
  - intros _. exists (RBitString None). split; [reflexivity|split; [|easy]]. exact (S_bits E D None None eq_refl).
  - intros _. exists (ROctetString None). split; [reflexivity|split; [|easy]]. exact (S_octets E D None None eq_refl).
  - intros root additions cs roots adds _ Hne Hlen _ IHr _ IHa Hrdy. cbn [type_refs] in Hrdy.
    apply ready_app in Hrdy. destruct Hrdy as [Hrdy _]. apply ready_app in Hrdy. destruct Hrdy as [Hr Ha].
    destruct (IHr Hr) as (rl & Hrl & Hrm & Hz). destruct (IHa Ha) as (ra & Hra & Ham & Hsome).
    exists (RChoice rl ra). split; [|split; [|easy]].
    + rewrite resolve_choice, Hrl. cbn [rbind]. rewrite Hra. reflexivity.
    + rewrite <- Hz. replace (match additions with Some _ => true | None => false end) with (match ra with Some _ => true | None => false end)
        by (destruct ra, additions; easy).
      econstructor; [|now rewrite Hz|exact Hrm|exact Ham|reflexivity].
      intros ->. apply Hne. clear - Hz. destruct root; [reflexivity|]. unfold zlen in Hz. cbn [List.length] in Hz. lia.
  - intros root additions ext cs fs _ _ IH Hrdy. cbn [type_refs] in Hrdy.
    apply ready_app in Hrdy. destruct Hrdy as [Hrdy _]. apply ready_app in Hrdy. destruct Hrdy as [Hr _].
    destruct (IH Hr) as (rl & Hrl & Hm & Hz). exists (RSequence ext rl). split; [|split; [|easy]].
    + rewrite resolve_sequence, Hrl. reflexivity.
    + rewrite <- Hz. now constructor.
  - intros size t0 T0 cs lb ub ext _ Hs _ IH Hrdy. cbn [type_refs] in Hrdy. apply ready_app in Hrdy. destruct Hrdy as [Hr _].
    destruct (IH Hr) as (rt & Hrt & Hm & _).
    assert (Hsz : exists sz, match size with Some c => vs <-- size_values E K c ;; Ok (Some vs) | None => Ok None end = Ok sz /\
       max_is E sz ub /\ min_of sz = lb /\ ext_of sz = ext).
    { destruct size as [c|].
      - destruct (size_resolves Vsize true (Some [c]) lb ub ext HplainS ltac:(intros s z _; apply Hsize) Hs) as (sz & Hr' & H).
        exists sz. split; [|exact H]. inversion Hs as [? Hun|]; subst.
        + destruct Hun; discriminate.
        + cbn [resolve_size size_constraint is_size_constraint rbind size_values] in Hr'. exact Hr'.
      - inversion Hs; subst. exists None. repeat split. }
    destruct Hsz as (sz & Hsz & Hmax & <- & <-). exists (RSequenceOf rt sz). split; [|split; [now constructor|easy]].
    cbn [resolve_type]. rewrite Hrt. cbn [rbind]. rewrite Hsz. reflexivity.
  - intros r cs T0 Hcs HT Hrdy. destruct (Htypes r T0) as (rt & Hl & Hm); [|exact HT|].
    { apply Hrdy; [cbn; now left|right; left; congruence]. }
    exists (RReference r). split; [|split; [|easy]].
    + cbn [resolve_type]. now rewrite Hl.
    + econstructor; [|exact Hm]. now apply types_of_in, lookup_in.
  - intros r ps cs T0 Hcs Hi Hrdy. cbn [type_refs] in Hrdy. apply ready_app in Hrdy. destruct Hrdy as [Hrdy _].
    cbn [resolve_type]. now apply Hinst.
  - intros S s root ext cs fs Hcs HS Hne Hroot Hcf Hrdy. cbn [type_refs flat_map] in Hrdy. rewrite app_nil_r in Hrdy.
    apply ready_app in Hrdy. destruct Hrdy as [Hrdy _]. pose proof (Hplain_sets S s HS) as Hpl.
    assert (Hfirst : exists id cl f c rel d root', root = mkSeqComp id (mkType (KReference (RefClassField cl f)) (Some [c])) false d :: root' /\ over_set c S rel).
    { inversion Hcf; subst; [contradiction|eauto 10|eauto 10]. }
    destruct Hfirst as (id & cl & f & c & rel & d & root' & -> & Hov).
    destruct (Hsets S s) as (os & Hl & Hos); [|exact HS|].
    { apply Hrdy; [|right; right; left; congruence]. cbn [flat_map type_refs]. rewrite (over_set_refs _ _ _ Hov Hpl). cbn. now right; left. }
    destruct (class_fields_mean E defs os s Hos S _ fs Hne Hcf) as (l & Hcc & Hm & Hopt).
    exists (RSequence ext l). split; [|split; [|easy]].
    + rewrite resolve_sequence, rmap_cons. cbn [sequence_component resolve_type rbind List.concat]. rewrite app_nil_r.
      unfold resolve_class_sequence. cbn [map comp_ty comp_id] in *. rewrite (over_set_reference _ _ _ Hov Hpl). cbn [rbind].
      rewrite Hl. rewrite Hcc. reflexivity.
    + replace 0 with (zlen (filter rc_optional l)) by now rewrite Hopt. constructor. apply Hm.
  - intros S s root ext cs Hcs HS Hno Hroot Hcf Hrdy. cbn [type_refs flat_map] in Hrdy. rewrite app_nil_r in Hrdy.
    apply ready_app in Hrdy. destruct Hrdy as [Hrdy _]. pose proof (Hplain_sets S s HS) as Hpl.
    destruct root as [|c0 root']; [contradiction|]. pose proof (Forall_inv Hcf) as (id & cl & f & c & rel & d & -> & Hov).
    destruct (Hsets S s) as (os & Hl & Hos); [|exact HS|].
    { apply Hrdy; [|right; right; left; congruence]. cbn [flat_map type_refs]. rewrite (over_set_refs _ _ _ Hov Hpl). cbn. now right; left. }
    assert (Hel : os_elements os = []).
    { destruct Hos as (_ & pairs & Hel & Hob & _). rewrite Hno in Hob. destruct pairs; [exact Hel|discriminate]. }
    exists (RSequence ext []). split; [|split; [|easy]].
    + rewrite resolve_sequence, rmap_cons. cbn [sequence_component resolve_type rbind List.concat]. rewrite app_nil_r.
      unfold resolve_class_sequence. cbn [map comp_ty comp_id]. rewrite (over_set_reference _ _ _ Hov Hpl). cbn [rbind].
      rewrite Hl. unfold class_components. rewrite Hel. reflexivity.
    + change 0 with (zlen (filter rc_optional [])). constructor. constructor.
  - intros x i _. exists []. repeat split. constructor.
  - intros x i id t0 T0 r al _ IH _ IHr Hrdy. cbn [flat_map] in Hrdy. apply ready_app in Hrdy. destruct Hrdy as [H1 H2].
    destruct (IH H1) as (rt & Hrt & Hm & _). destruct (IHr H2) as (rl & Hrl & Hms & Hz).
    exists ((id, rt) :: rl). split; [|split].
    + rewrite rmap_cons. cbn [choice_component]. rewrite Hrt. cbn [rbind]. rewrite Hrl. reflexivity.
    + now constructor.
    + unfold zlen in *. cbn [List.length]. lia.
  - intros _. exists None. repeat split. constructor.
  - intros gs al _ IH Hrdy. rewrite flat_concat in Hrdy. destruct (IH Hrdy) as (rl & Hrl & Hm & _).
    destruct (rmap_concat _ _ _ Hrl) as (ls & Hls & <-). exists (Some (List.concat ls)). split; [|split; [now constructor|reflexivity]].
    rewrite Hls. reflexivity.
  - intros i _. exists []. repeat split. constructor.
  - intros i id t0 T0 d r l _ IH _ IHr Hrdy. cbn [flat_map] in Hrdy. apply ready_app in Hrdy. destruct Hrdy as [H1 H2].
    destruct (IH H1) as (rt & Hrt & Hm & _). destruct (IHr H2) as (rl & Hrl & Hms & Hz).
    exists (mkRComp id rt true false :: rl). split; [|split].
    + rewrite rmap_cons. cbn [sequence_component]. rewrite Hrt. cbn [rbind]. rewrite Hrl. reflexivity.
    + now constructor.
    + cbn [filter rc_optional comp_optional]. unfold zlen in *. cbn [List.length]. lia.
  - intros i id t0 T0 d r l _ IH _ IHr Hrdy. cbn [flat_map] in Hrdy. apply ready_app in Hrdy. destruct Hrdy as [H1 H2].
    destruct (IH H1) as (rt & Hrt & Hm & _). destruct (IHr H2) as (rl & Hrl & Hms & Hz).
    exists (mkRComp id rt false false :: rl). split; [|split].
    + rewrite rmap_cons. cbn [sequence_component]. rewrite Hrt. cbn [rbind]. rewrite Hrl. reflexivity.
    + now constructor.
    + cbn [filter rc_optional comp_optional]. exact Hz.
Qed.
End ResolveType.
