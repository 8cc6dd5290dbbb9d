(* The generator preserves the meaning of resolved types; the numbers it gives
   to alternatives and optional components. *)
From Coq Require Import ZArith NArith List Bool String Ascii Lia.
From Coq Require Import ZifyBool ZifyNat ZifyN.
Require Import Verif.Base Verif.DeriveModel Verif.DeriveSpec Verif.Asn1Model Verif.GenModel Verif.CompilerSpec
  Verif.ConstraintProofs.
Import ListNotations.
Open Scope Z_scope.

Scheme type_means_mut := Minimality for type_means Sort Prop
  with alternatives_mean_mut := Minimality for alternatives_mean Sort Prop
  with additions_mean_mut := Minimality for additions_mean Sort Prop
  with components_mean_mut := Minimality for components_mean Sort Prop
  with open_mean_mut := Minimality for open_mean Sort Prop.

Scheme def_means_mut := Minimality for def_means Sort Prop
  with name_means_mut := Minimality for name_means Sort Prop
  with variants_mean_mut := Minimality for variants_mean Sort Prop
  with fields_mean_mut := Minimality for fields_mean Sort Prop.

(* ------------------------------------------------------------------ *)
(* The loops of the generator, by name                                 *)
(* ------------------------------------------------------------------ *)
Section Loops.
Context (E : env).
Definition choice_tokens (name : string) (extended : bool) : Z -> list (string * rtype) -> G (list gvariant) :=
  fix go i l :=
  match l with
  | [] => gret []
  | (id, t) :: r =>
      ty <~ name_maybe_aux (generate_for_type E t) t (Some (name ++ id)%string) ;;
      vs <~ go (i + 1) r ;;
      gret (mkVariant (to_type_ident id) i extended ty :: vs)
  end.
Lemma choice_tokens_cons name x i id t r :
  choice_tokens name x i ((id, t) :: r) =
  (ty <~ name_maybe_aux (generate_for_type E t) t (Some (name ++ id)%string) ;;
   vs <~ choice_tokens name x (i + 1) r ;;
   gret (mkVariant (to_type_ident id) i x ty :: vs)).
Proof. reflexivity. Qed.
Definition seq_tokens (name : string) : Z -> list rcomp -> G (list gfield * Z) :=
  fix go n l :=
  match l with
  | [] => gret ([], n)
  | mkRComp id t optional key :: r =>
      ty <~ name_maybe_aux (generate_for_type E t) t (Some (name ++ to_type_ident id)%string) ;;
      p <~ go (if optional then n + 1 else n) r ;;
      gret (mkField (to_value_ident id) (if optional then Some n else None) key ty :: fst p, snd p)
  end.
Lemma seq_tokens_cons name n id t (optional key : bool) r :
  seq_tokens name n (mkRComp id t optional key :: r) =
  (ty <~ name_maybe_aux (generate_for_type E t) t (Some (name ++ to_type_ident id)%string) ;;
   p <~ seq_tokens name (if optional then n + 1 else n) r ;;
   gret (mkField (to_value_ident id) (if optional then Some n else None) key ty :: fst p, snd p)).
Proof. reflexivity. Qed.
Definition set_tokens : list (string * Z * rtype) -> G (list gvariant) :=
  fix go l :=
  match l with
  | [] => gret []
  | (nm, key, t) :: r =>
      ty <~ name_maybe_aux (generate_for_type E t) t None ;;
      vs <~ go r ;;
      gret (mkVariant (to_type_ident nm) key false ty :: vs)
  end.
Lemma set_tokens_cons nm key t r :
  set_tokens ((nm, key, t) :: r) =
  (ty <~ name_maybe_aux (generate_for_type E t) t None ;;
   vs <~ set_tokens r ;;
   gret (mkVariant (to_type_ident nm) key false ty :: vs)).
Proof. reflexivity. Qed.
Lemma generate_choice root additions name :
  generate_for_type E (RChoice root additions) name =
  (roots <~ choice_tokens name false 0 root ;;
   adds <~ (match additions with Some l => choice_tokens name true 0 l | None => gret [] end) ;;
   ub <~ glift (arith_usize E (zlen root - 1)) ;;
   gret (GChoice 0 ub (match additions with Some _ => true | None => false end) (roots ++ adds))).
Proof. reflexivity. Qed.
Lemma generate_seq ext comps name :
  generate_for_type E (RSequence ext comps) name =
  (p <~ seq_tokens name 0 comps ;;
   gret (GSequence ext (if 0 <? snd p then Some (snd p) else None) (fst p))).
Proof. reflexivity. Qed.
Lemma generate_set setref types name :
  generate_for_type E (RSet setref types) name = (vs <~ set_tokens types ;; gret (GOpen false vs)).
Proof. reflexivity. Qed.
End Loops.

Lemma gbind_ok {A B} (m : G A) (f : A -> G B) s b s' :
  gbind m f s = Ok (b, s') -> exists a s1, m s = Ok (a, s1) /\ f a s1 = Ok (b, s').
Proof. unfold gbind. intros H. destruct (m s) as [[a s1]| | |]; try discriminate. eauto. Qed.
Lemma glift_ok {A} (r : res A) s a s' : glift r s = Ok (a, s') -> r = Ok a /\ s' = s.
Proof. unfold glift. destruct r; cbn [rbind]; intros H; try discriminate. injection H as <- <-. auto. Qed.
Lemma gret_ok {A} (x : A) s a s' : gret x s = Ok (a, s') -> a = x /\ s' = s.
Proof. unfold gret. intros H. injection H as <- <-. auto. Qed.

Ltac gsteps :=
  repeat match goal with
  | H : gbind _ _ _ = Ok _ |- _ => apply gbind_ok in H; destruct H as (? & ? & ? & H)
  | H : glift _ _ = Ok _ |- _ => apply glift_ok in H; destruct H as (? & ->)
  | H : gret _ _ = Ok _ |- _ => apply gret_ok in H; destruct H as (-> & ->)
  end.

(* ------------------------------------------------------------------ *)
(* Generated items are never dropped                                   *)
(* ------------------------------------------------------------------ *)
Definition grows (s s' : gstate) : Prop :=
  (exists l, aux_items s' = aux_items s ++ l) /\ (counter s <= counter s')%N.
Lemma grows_refl s : grows s s.
Proof. split; [exists []; now rewrite app_nil_r|lia]. Qed.
Lemma grows_trans a b c : grows a b -> grows b c -> grows a c.
Proof.
  intros [[l Hl] H] [[l' Hl'] H']. split; [|lia]. exists (l ++ l'). now rewrite Hl', Hl, app_assoc.
Qed.
Lemma grows_incl s s' p : grows s s' -> incl (aux_items s') p -> incl (aux_items s) p.
Proof. intros [[l ->] _] H x Hx. apply H. apply in_app_iff. now left. Qed.

Definition Grows {A} (m : G A) : Prop := forall s a s', m s = Ok (a, s') -> grows s s'.
Lemma Grows_bind {A B} (m : G A) (f : A -> G B) : Grows m -> (forall a, Grows (f a)) -> Grows (gbind m f).
Proof. intros Hm Hf s b s' H. gsteps. eapply grows_trans; [eapply Hm|eapply Hf]; eassumption. Qed.
Lemma Grows_ret {A} (a : A) : Grows (gret a).
Proof. intros s b s' H. gsteps. apply grows_refl. Qed.
Lemma Grows_lift {A} (r : res A) : Grows (glift r).
Proof. intros s b s' H. gsteps. apply grows_refl. Qed.
Lemma Grows_unique n : Grows (get_unique_name n).
Proof.
  intros s b s' H. unfold get_unique_name in H. injection H as <- <-. split; cbn; [|lia].
  exists []. now rewrite app_nil_r.
Qed.
Lemma Grows_push i : Grows (push_aux i).
Proof. intros s b s' H. unfold push_aux in H. injection H as <- <-. split; cbn; [now eexists|lia]. Qed.
Lemma Grows_maybe gen t input : (forall n, Grows (gen n)) -> Grows (name_maybe_aux gen t input).
Proof.
  intros Hg. unfold name_maybe_aux.
  destruct t; try (apply Grows_ret);
    repeat (apply Grows_bind; [|intros ?]);
    try apply Hg; try apply Grows_ret; try apply Grows_push; try apply Grows_unique; cbn [aux_base_name];
    try apply Grows_unique; destruct input; try apply Grows_ret; apply Grows_unique.
Qed.

Section RtypeInd.
Context (P : rtype -> Prop).
Context (H1 : forall i, P (RInteger i)) (H2 : forall e l, P (REnumerated e l)) (H3 : forall s, P (RBitString s))
  (H4 : P RBoolean) (H5 : P RNull) (H6 : forall s, P (ROctetString s)) (H7 : forall c s, P (RCharString c s))
  (H8 : P ROid)
  (H9 : forall root adds, Forall (fun p => P (snd p)) root ->
        (forall l, adds = Some l -> Forall (fun p => P (snd p)) l) -> P (RChoice root adds))
  (H10 : forall e cs, Forall (fun c => P (rc_ty c)) cs -> P (RSequence e cs))
  (H11 : forall t s, P t -> P (RSequenceOf t s)) (H12 : forall r, P (RReference r))
  (H13 : forall r l, Forall (fun p => P (snd p)) l -> P (RSet r l)).
Fixpoint rtype_ind' (t : rtype) : P t :=
  match t with
  | RInteger i => H1 i | REnumerated e l => H2 e l | RBitString s => H3 s | RBoolean => H4 | RNull => H5
  | ROctetString s => H6 s | RCharString c s => H7 c s | ROid => H8
  | RChoice root adds => H9 root adds
      ((fix go (l : list (string * rtype)) : Forall (fun p => P (snd p)) l := match l with [] => Forall_nil _ | p :: r => Forall_cons p (match p as p0 return P (snd p0) with (_, x) => rtype_ind' x end) (go r) end) root)
      match adds as o return forall l, o = Some l -> Forall (fun p => P (snd p)) l with
      | None => fun l H => False_ind _ (eq_ind None (fun o => match o with None => True | Some _ => False end) I (Some l) H)
      | Some l0 => fun l H =>
          eq_ind (Some l0) (fun o => match o with Some l => Forall (fun p => P (snd p)) l | None => True end)
            ((fix go (l : list (string * rtype)) : Forall (fun p => P (snd p)) l := match l with [] => Forall_nil _ | p :: r => Forall_cons p (match p as p0 return P (snd p0) with (_, x) => rtype_ind' x end) (go r) end) l0)
            (Some l) H
      end
  | RSequence e cs => H10 e cs
      ((fix gc (l : list rcomp) : Forall (fun c => P (rc_ty c)) l :=
          match l with [] => Forall_nil _ | c :: r =>
            Forall_cons c (match c as c0 return P (rc_ty c0) with mkRComp _ x _ _ => rtype_ind' x end) (gc r) end) cs)
  | RSequenceOf t s => H11 t s (rtype_ind' t)
  | RReference r => H12 r
  | RSet r l => H13 r l
      ((fix go (l : list (string * Z * rtype)) : Forall (fun p => P (snd p)) l := match l with [] => Forall_nil _ | p :: r => Forall_cons p (match p as p0 return P (snd p0) with (_, x) => rtype_ind' x end) (go r) end) l)
  end.
End RtypeInd.

Lemma Grows_choice_tokens E name x : forall l i,
  Forall (fun p => forall n, Grows (generate_for_type E (snd p) n)) l -> Grows (choice_tokens E name x i l).
Proof.
  induction l as [|[id t] l IH]; intros i H; [apply Grows_ret|rewrite choice_tokens_cons].
  inversion_clear H. repeat (apply Grows_bind; [|intros ?]); [now apply Grows_maybe|now apply IH|apply Grows_ret].
Qed.
Lemma Grows_seq_tokens E name : forall l i,
  Forall (fun c => forall n, Grows (generate_for_type E (rc_ty c) n)) l -> Grows (seq_tokens E name i l).
Proof.
  induction l as [|[id t o k] l IH]; intros i H; [apply Grows_ret|rewrite seq_tokens_cons].
  inversion_clear H. repeat (apply Grows_bind; [|intros ?]); [now apply Grows_maybe|now apply IH|apply Grows_ret].
Qed.
Lemma Grows_set_tokens E : forall l,
  Forall (fun p => forall n, Grows (generate_for_type E (snd p) n)) l -> Grows (set_tokens E l).
Proof.
  induction l as [|[[nm k] t] l IH]; intros H; [apply Grows_ret|rewrite set_tokens_cons].
  inversion_clear H. repeat (apply Grows_bind; [|intros ?]); [now apply Grows_maybe|now apply IH|apply Grows_ret].
Qed.
Lemma Grows_gsize E size f : Grows (gsize E size f).
Proof. unfold gsize. apply Grows_bind; [apply Grows_lift|intros ?; apply Grows_ret]. Qed.

Lemma generate_grows E t : forall name, Grows (generate_for_type E t name).
Proof.
  induction t using rtype_ind'; intros name;
    try (cbn [generate_for_type]; first [apply Grows_lift|apply Grows_gsize|apply Grows_ret]).
  - rewrite generate_choice. apply Grows_bind; [now apply Grows_choice_tokens|intros vs].
    apply Grows_bind; [destruct adds; [now apply Grows_choice_tokens; auto|apply Grows_ret]|intros ws].
    apply Grows_bind; [apply Grows_lift|intros ub; apply Grows_ret].
  - rewrite generate_seq. apply Grows_bind; [now apply Grows_seq_tokens|intros p; apply Grows_ret].
  - cbn [generate_for_type]. apply Grows_bind; [apply Grows_lift|intros a].
    apply Grows_bind; [now apply Grows_maybe|intros ty; apply Grows_ret].
  - rewrite generate_set. apply Grows_bind; [now apply Grows_set_tokens|intros vs; apply Grows_ret].
Qed.
Lemma generate_items_grows E defs : Grows (generate_items E defs).
Proof.
  induction defs as [|[k t] r IH]; cbn [generate_items]; [apply Grows_ret|].
  apply Grows_bind; [apply generate_grows|intros d]. apply Grows_bind; [exact IH|intros i; apply Grows_ret].
Qed.

(* ------------------------------------------------------------------ *)
(* Meaning is preserved                                                *)
(* ------------------------------------------------------------------ *)
Definition attributed (d : gdef) : gdef := match d with GOpen _ vs => GOpen true vs | d => d end.

Section Preserve.
Context (E : env) (defs : list (string * rtype)) (prog : list (string * gdef)).
(* every definition has been generated, and what was generated with it is in
   the program *)
Context (Hprog : forall k t, In (k, t) defs -> exists d s s',
  generate_for_type E t k s = Ok (d, s') /\ In (to_type_ident k, d) prog /\ incl (aux_items s') prog).
Context (Hnoset : forall k t, In (k, t) defs -> forall r l, t <> RSet r l).

Definition P_type (t : rtype) (T : ty) : Prop := forall name s d s',
  generate_for_type E t name s = Ok (d, s') -> incl (aux_items s') prog -> def_means prog (attributed d) T.

Lemma attributed_id t name s d s' : (forall r l, t <> RSet r l) ->
  generate_for_type E t name s = Ok (d, s') -> attributed d = d.
Proof.
  intros Hn H. destruct t; try (cbn in H; gsteps; try reflexivity).
  - unfold generate_integer in H. destruct (int_constraints i) as [vs|].
    + destruct (cv_max E (root_values vs)); try discriminate. injection H as <-. reflexivity.
    + injection H as <-. reflexivity.
  - unfold generate_enumerated in H. destruct (arith_usize E _); try discriminate. injection H as <-. reflexivity.
  - unfold gsize in H. gsteps. reflexivity.
  - unfold gsize in H. gsteps. reflexivity.
  - unfold gsize in H. gsteps. reflexivity.
  - exfalso. eapply Hn. reflexivity.
Qed.

Lemma maybe_means t T input s n s' : P_type t T ->
  (forall r, t = RReference r -> name_means prog (to_type_ident r) T) ->
  name_maybe_aux (generate_for_type E t) t input s = Ok (n, s') -> incl (aux_items s') prog -> name_means prog n T.
Proof.
  intros HP Href H Hin. unfold name_maybe_aux in H.
  assert (Hpush : forall nm d s1 s2 (u : unit), push_aux (nm, d) s1 = Ok (u, s2) -> incl (aux_items s2) prog ->
            In (nm, d) prog /\ incl (aux_items s1) prog).
  { intros nm d s1 s2 u Hp Hi. unfold push_aux in Hp. injection Hp as _ <-. cbn in Hi. split.
    - apply Hi, in_app_iff. right. now left.
    - intros x Hx. apply Hi, in_app_iff. now left. }
  assert (Hgen : (forall r l, t <> RSet r l) -> forall nm s0 d s1, generate_for_type E t nm s0 = Ok (d, s1) ->
            incl (aux_items s1) prog -> def_means prog d T).
  { intros Hn nm s0 d s1 Hg Hi. pose proof (HP _ _ _ _ Hg Hi) as Hd. now rewrite (attributed_id t _ _ _ _ Hn Hg) in Hd. }
  destruct t; try (specialize (Hgen ltac:(discriminate)); gsteps;
    match goal with Hp : push_aux _ _ = Ok _ |- _ => apply Hpush in Hp; [|exact Hin]; destruct Hp as [Hi1 Hi2] end;
    econstructor; [exact Hi1|]; eapply Hgen; eassumption).
  - (* reference *) gsteps. now apply Href.
  - (* set *) gsteps.
    match goal with Hp : push_aux _ _ = Ok _ |- _ => apply Hpush in Hp; [|exact Hin]; destruct Hp as [Hi1 Hi2] end.
    econstructor; [exact Hi1|]. fold (attributed x). eapply HP; eassumption.
Qed.

Definition Q_type (t : rtype) (T : ty) : Prop :=
  P_type t T /\ forall r, t = RReference r -> name_means prog (to_type_ident r) T.
Definition Q_alts (x : bool) (i : Z) (l : list (string * rtype)) (al : alts) : Prop := forall name s vs s',
  choice_tokens E name x i l s = Ok (vs, s') -> incl (aux_items s') prog -> variants_mean prog vs al.
Definition Q_adds (a : option (list (string * rtype))) (al : alts) : Prop := forall name s vs s',
  (match a with Some l => choice_tokens E name true 0 l | None => gret [] end) s = Ok (vs, s') ->
  incl (aux_items s') prog -> variants_mean prog vs al.
Definition Q_comps (i : Z) (l : list rcomp) (fs : fields) : Prop := forall name s p s',
  seq_tokens E name i l s = Ok (p, s') -> incl (aux_items s') prog ->
  fields_mean prog (fst p) fs /\ snd p = i + zlen (filter rc_optional l).
Definition Q_open (l : list (string * Z * rtype)) (al : alts) : Prop := forall s vs s',
  set_tokens E l s = Ok (vs, s') -> incl (aux_items s') prog -> variants_mean prog vs al.

Lemma size_attrs_mean sz u a : max_is E sz u -> size_attributes E sz = Ok a ->
  size_lb a = min_of sz /\ size_ub a = u /\ size_ext a = ext_of sz.
Proof.
  unfold max_is, size_attributes. destruct sz as [v|].
  - intros ->. cbn [rbind]. intros H. injection H as <-. auto.
  - intros -> H. injection H as <-. auto.
Qed.
Lemma variants_app vs ws a b : variants_mean prog vs a -> variants_mean prog ws b ->
  variants_mean prog (vs ++ ws) (append_alts a b).
Proof.
  intros H Hb. revert a H. induction vs as [|v vs IH]; intros a H; inversion_clear H; cbn; [exact Hb|].
  constructor; auto.
Qed.
Lemma not_ref t T : P_type t T -> (forall r, t <> RReference r) -> Q_type t T.
Proof. intros H Hn. split; [exact H|]. intros r ->. now destruct (Hn r). Qed.

Lemma arith_usize_ok n : 0 <= n < 2 ^ 64 -> arith_usize E n = Ok n.
Proof. intros H. unfold arith_usize, in_usize. now replace ((0 <=? n) && (n <? 2 ^ 64)) with true by lia. Qed.
Lemma arith_usize_len {A} (l : list A) r : l <> [] -> zlen l < 2 ^ 64 -> arith_usize E (zlen l - 1) = Ok r -> r = zlen l - 1.
Proof.
  intros Hl Hb H. rewrite arith_usize_ok in H; [congruence|]. destruct l; [easy|]. unfold zlen in *. cbn [List.length] in *. lia.
Qed.

Theorem generated_means t T : type_means E defs t T -> Q_type t T.
Proof.
  apply (type_means_mut E defs Q_type Q_alts Q_adds Q_comps Q_open); clear t T.
  - (* integer *) intros i u Hbits Hu. apply not_ref; [|discriminate]. intros name s d s' H _. cbn in H. gsteps.
    assert (Hw : inner_width (int_bits i) = Z.min 64 (int_bits i)).
    { cbn [In] in Hbits. destruct Hbits as [<-|[<-|[<-|[<-|[<-|[]]]]]]; reflexivity. }
    unfold generate_integer, max_is, min_of, ext_of in *. destruct (int_constraints i) as [vs|].
    + rewrite Hu in H. cbn [rbind] in H. injection H as <-. cbn. rewrite Hw. constructor.
    + injection H as <-. subst u. cbn. rewrite Hw. constructor.
  - (* enumerated *) intros ext l Hl Hb. apply not_ref; [|discriminate]. intros name s d s' H _. cbn in H. gsteps.
    unfold generate_enumerated in H. destruct (arith_usize E (zlen l - 1)) as [ub| | |] eqn:Hub; try discriminate.
    apply arith_usize_len in Hub; [|exact Hl|exact Hb]. subst ub. injection H as <-. constructor.
  - intros sz u Hu. apply not_ref; [|discriminate]. intros name s d s' H _. cbn in H. unfold gsize in H. gsteps.
    destruct (size_attrs_mean _ _ _ Hu H0) as (<- & <- & <-). constructor.
  - apply not_ref; [|discriminate]. intros name s d s' H _. cbn in H. gsteps. constructor.
  - apply not_ref; [|discriminate]. intros name s d s' H _. cbn in H. gsteps. constructor.
  - intros sz u Hu. apply not_ref; [|discriminate]. intros name s d s' H _. cbn in H. unfold gsize in H. gsteps.
    destruct (size_attrs_mean _ _ _ Hu H0) as (<- & <- & <-). constructor.
  - intros st sz u Hst Hu. apply not_ref; [|discriminate]. intros name s d s' H _. cbn in H. unfold gsize in H. gsteps.
    destruct (size_attrs_mean _ _ _ Hu H0) as (<- & <- & <-). now constructor.
  - apply not_ref; [|discriminate]. intros name s d s' H _. cbn in H. gsteps. constructor.
  - (* choice *) intros root additions roots adds al Hroot Hb _ IHr _ IHa ->. apply not_ref; [|discriminate].
    intros name s d s' H Hin. rewrite generate_choice in H. gsteps.
    apply arith_usize_len in H2; [|exact Hroot|exact Hb]. subst. constructor. apply variants_app.
    + eapply IHr; [eassumption|]. eapply grows_incl; [|exact Hin].
      destruct additions; [eapply Grows_choice_tokens in H1; [exact H1|]|gsteps; apply grows_refl].
      apply Forall_forall. intros. apply generate_grows.
    + eapply IHa; eassumption.
  - (* sequence *) intros ext comps fs _ IH. apply not_ref; [|discriminate].
    intros name s d s' H Hin. rewrite generate_seq in H. gsteps. destruct (IH _ _ _ _ H0 Hin) as [H1 H2].
    replace (zlen (filter rc_optional comps)) with
      (match (if 0 <? snd x then Some (snd x) else None) with Some n => n | None => 0 end); [now constructor|].
    rewrite H2. assert (0 <= zlen (filter rc_optional comps)) by (unfold zlen; lia).
    destruct (0 <? 0 + zlen (filter rc_optional comps)) eqn:Hc; lia.
  - (* sequence of *) intros t T sz u _ [IHt IHr] Hu. apply not_ref; [|discriminate].
    intros name s d s' H Hin. cbn [generate_for_type] in H. gsteps.
    destruct (size_attrs_mean _ _ _ Hu H0) as (<- & <- & <-). constructor.
    eapply maybe_means; eassumption.
  - (* reference *) intros r t T Hdef _ [IHt IHr].
    assert (Hname : name_means prog (to_type_ident r) T).
    { destruct (Hprog r t Hdef) as (d & s & s' & Hg & Hd & Hi). econstructor; [exact Hd|].
      rewrite <- (attributed_id t r s d s' (Hnoset r t Hdef) Hg). eapply IHt; eassumption. }
    split.
    + intros name s d s' H _. cbn in H. gsteps. cbn. now constructor.
    + intros r' Heq. injection Heq as <-. exact Hname.
  - (* set *) intros setref types al _ IH. apply not_ref; [|discriminate].
    intros name s d s' H Hin. rewrite generate_set in H. gsteps. cbn. constructor. eapply IH; eassumption.
  - intros x i name s vs s' H _. cbn in H. gsteps. constructor.
  - intros x i id t T r al _ [IHt IHr] _ IH name s vs s' H Hin. rewrite choice_tokens_cons in H. gsteps.
    constructor.
    + eapply maybe_means; [exact IHt|exact IHr|eassumption|]. eapply grows_incl; [|exact Hin].
      eapply Grows_choice_tokens in H1; [exact H1|]. apply Forall_forall. intros. apply generate_grows.
    + eapply IH; eassumption.
  - intros name s vs s' H _. gsteps. constructor.
  - intros l al _ IH name s vs s' H Hin. eapply IH; eassumption.
  - intros i name s p s' H _. cbn in H. gsteps. cbn. split; [constructor|]. unfold zlen. cbn. lia.
  - intros i id t T key r l _ [IHt IHr] _ IH name s p s' H Hin. rewrite seq_tokens_cons in H. gsteps.
    destruct (IH _ _ _ _ H1 Hin) as [H2 H3]. cbn [fst snd]. split.
    + constructor; [|exact H2]. eapply maybe_means; [exact IHt|exact IHr|eassumption|]. eapply grows_incl; [|exact Hin].
      eapply Grows_seq_tokens in H1; [exact H1|]. apply Forall_forall. intros. apply generate_grows.
    + rewrite H3. unfold zlen. cbn. lia.
  - intros i id t T key r l _ [IHt IHr] _ IH name s p s' H Hin. rewrite seq_tokens_cons in H. gsteps.
    destruct (IH _ _ _ _ H1 Hin) as [H2 H3]. cbn [fst snd]. split.
    + constructor; [|exact H2]. eapply maybe_means; [exact IHt|exact IHr|eassumption|]. eapply grows_incl; [|exact Hin].
      eapply Grows_seq_tokens in H1; [exact H1|]. apply Forall_forall. intros. apply generate_grows.
    + rewrite H3. unfold zlen. cbn. lia.
  - intros s vs s' H _. cbn in H. gsteps. constructor.
  - intros nm key t T r al _ [IHt IHr] _ IH s vs s' H Hin. rewrite set_tokens_cons in H. gsteps.
    constructor.
    + eapply maybe_means; [exact IHt|exact IHr|eassumption|]. eapply grows_incl; [|exact Hin].
      eapply Grows_set_tokens in H1; [exact H1|]. apply Forall_forall. intros. apply generate_grows.
    + eapply IH; eassumption.
Qed.
End Preserve.

Lemma generate_items_spec E : forall defs s items s', generate_items E defs s = Ok (items, s') ->
  forall k t, In (k, t) defs -> exists d s1 s2,
    generate_for_type E t k s1 = Ok (d, s2) /\ In (to_type_ident k, d) items /\ grows s2 s'.
Proof.
  induction defs as [|[k0 t0] defs IH]; intros s items s' H k t Hin; [destruct Hin|].
  cbn [generate_items] in H. gsteps. destruct Hin as [Heq|Hin].
  - injection Heq as -> ->. exists x, s, x0. repeat split; [assumption|now left|..];
      destruct (generate_items_grows E defs _ _ _ H1) as [? ?]; assumption.
  - destruct (IH _ _ _ H1 k t Hin) as (d & s1 & s2 & Hg & Hd & Hi). exists d, s1, s2. repeat split; [assumption|now right|apply Hi..].
Qed.

Definition not_set (t : rtype) : Prop := forall r l, t <> RSet r l.

Theorem generate_correct E defs prog k t T :
  generate E defs = Ok prog -> (forall k t, In (k, t) defs -> not_set t) ->
  In (k, t) defs -> type_means E defs t T -> name_means prog (to_type_ident k) T.
Proof.
  intros H Hns Hin HT. unfold generate in H.
  destruct (generate_items E defs new_generator) as [[items s']| | |] eqn:Hg; try discriminate.
  cbn [rbind fst snd] in H. injection H as <-.
  assert (Hprog : forall k t, In (k, t) defs -> exists d s s0,
    generate_for_type E t k s = Ok (d, s0) /\ In (to_type_ident k, d) (items ++ aux_items s') /\
    incl (aux_items s0) (items ++ aux_items s')).
  { intros k0 t0 H0. destruct (generate_items_spec E _ _ _ _ Hg k0 t0 H0) as (d & s1 & s2 & H1 & H2 & H3).
    exists d, s1, s2. repeat split; [exact H1|apply in_app_iff; now left|].
    eapply grows_incl; [exact H3|]. apply incl_appr, incl_refl. }
  destruct (Hprog k t Hin) as (d & s & s0 & H1 & H2 & H3). econstructor; [exact H2|].
  rewrite <- (attributed_id E t k s d s0 (Hns k t Hin) H1).
  eapply (generated_means E defs _ Hprog Hns); eassumption.
Qed.

(* ------------------------------------------------------------------ *)
(* A program in which no name is defined twice has one meaning         *)
(* ------------------------------------------------------------------ *)
Lemma nodup_fst {A B} (l : list (A * B)) k a b : NoDup (map fst l) -> In (k, a) l -> In (k, b) l -> a = b.
Proof.
  induction l as [|[k' x] l IH]; cbn; [easy|]. intros Hn Ha Hb. inversion_clear Hn as [|? ? Hk Hn'].
  destruct Ha as [Ha|Ha], Hb as [Hb|Hb]; [congruence| | |now apply IH].
  - injection Ha as -> ->. destruct Hk. now apply (in_map fst) in Hb.
  - injection Hb as -> ->. destruct Hk. now apply (in_map fst) in Ha.
Qed.

Theorem means_unique prog n T T' : NoDup (map fst prog) -> name_means prog n T -> name_means prog n T' -> T = T'.
Proof.
  intros Hn H. revert T'.
  revert n T H. apply (name_means_mut prog
    (fun d T => forall T', def_means prog d T' -> T = T')
    (fun n T => forall T', name_means prog n T' -> T = T')
    (fun vs al => forall al', variants_mean prog vs al' -> al = al')
    (fun fs l => forall l', fields_mean prog fs l' -> l = l'));
    try (intros; match goal with H : def_means _ _ ?x |- _ = ?x => inversion H; subst end; try reflexivity; f_equal; auto; fail).
  - intros n d T Hin _ IH T' H. inversion H; subst.
    match goal with Hi : In (n, ?d') prog, Hd : def_means prog ?d' T' |- _ =>
      rewrite (nodup_fst prog n d' d Hn Hi Hin) in Hd; auto end.
  - intros al' H. inversion H. reflexivity.
  - intros nm k x t T vs al _ IH _ IH' al' H. inversion H; subst. f_equal; auto.
  - intros l' H. inversion H. reflexivity.
  - intros nm i key t T fs l _ IH _ IH' l' H. inversion H; subst. f_equal; auto.
  - intros nm key t T fs l _ IH _ IH' l' H. inversion H; subst. f_equal; auto.
Qed.
