(* Every program that the compiler produces numbers alternatives and presence
   bits as X.691 does. *)
From Coq Require Import ZArith NArith List Bool String Lia.
From Coq Require Import ZifyBool ZifyNat ZifyN.
Require Import Verif.Base Verif.Spec Verif.CodecModel Verif.DeriveModel Verif.DeriveSpec Verif.Asn1Model Verif.GenModel Verif.ResolveModel Verif.ModuleModel Verif.DefinitionModel
  Verif.CompilerSpec Verif.ConstraintProofs Verif.GenProofs Verif.NameProofs Verif.RustModel Verif.RustSpec Verif.RustProofs Verif.LinkSpec
  Verif.X691 Verif.X691Types Verif.X691TypesSpec.
Import ListNotations.
Open Scope Z_scope.

Definition root_variants (vs : list gvariant) : Z := zlen (filter (fun v => negb (gv_extended v)) vs).
Definition counted (d : gdef) : Prop :=
  match d with
  | GChoice lb ub _ vs => zlen vs <= 2 ^ 64 -> forall before v after, vs = before ++ v :: after -> gv_extended v = false ->
      lb = 0 /\ ub = root_variants vs - 1 /\ gv_key v = root_variants before
  | GSequence _ n fs =>
      let n := match n with Some n => n | None => 0 end in 0 <= n /\ somes (map gf_optional fs) = counting (Z.to_nat n)
  | _ => True
  end.

Lemma root_variants_app a b : root_variants (a ++ b) = root_variants a + root_variants b.
Proof. unfold root_variants, zlen. rewrite filter_app, app_length. lia. Qed.
Lemma root_variants_root vs : Forall (fun v => gv_extended v = false) vs -> root_variants vs = zlen vs.
Proof.
  intros H. unfold root_variants. f_equal. induction H as [|v vs H HF IH]; [reflexivity|]. cbn [filter]. rewrite H. cbn [negb]. now rewrite IH.
Qed.
Lemma root_variants_added vs : Forall (fun v => gv_extended v = true) vs -> root_variants vs = 0.
Proof.
  intros H. unfold root_variants. induction H as [|v vs H HF IH]; [reflexivity|]. cbn [filter]. rewrite H. exact IH.
Qed.

Lemma choice_counted E root additions name s d s' : generate_for_type E (RChoice root additions) name s = Ok (d, s') -> counted d.
Proof.
  intros H. rewrite generate_choice in H. gsteps. cbn [counted]. intros Hlen before v after Hvs Hx.
  destruct (choice_tokens_spec E _ _ _ _ _ _ _ H0) as (Hk & _ & HF).
  assert (HF' : Forall (fun v => gv_extended v = true) x1).
  { destruct additions as [l|]; [now destruct (choice_tokens_spec E _ _ _ _ _ _ _ H1) as (_ & _ & ?)|gsteps; constructor]. }
  assert (HL : List.length x = List.length root).
  { apply (f_equal (@List.length Z)) in Hk. now rewrite !map_length, seq_length in Hk. }
  (* v is among the root alternatives *)
  assert (exists rest, x = before ++ v :: rest) as (rest & Hr).
  { clear - Hvs Hx HF'. revert x Hvs. induction before as [|b before IH]; intros [|w x] Hvs; cbn [app] in Hvs.
    - subst x1. inversion HF'. congruence.
    - injection Hvs as -> _. now exists x.
    - subst x1. rewrite Forall_forall in HF'. specialize (HF' v ltac:(right; apply in_app_iff; right; now left)). congruence.
    - injection Hvs as -> Hvs. destruct (IH x Hvs) as (rest & ->). now exists rest. }
  assert (HR : root <> []) by (intros ->; subst x; rewrite app_length in HL; cbn in HL; lia).
  rewrite root_variants_app, (root_variants_root _ HF), (root_variants_added _ HF').
  assert (HZ : zlen x <= 2 ^ 64) by (revert Hlen; unfold zlen; rewrite app_length; lia).
  assert (HZ' : zlen x = zlen root) by (unfold zlen; lia).
  split; [reflexivity|]. split.
  - rewrite arith_usize_ok in H2; [injection H2 as <-; lia|]. destruct root; [easy|]. revert HZ. rewrite HZ'. unfold zlen. cbn [List.length]. lia.
  - subst x. rewrite Forall_app in HF. rewrite (root_variants_root before) by tauto.
    apply (f_equal (fun l => nth (List.length before) l 0)) in Hk. rewrite map_app, app_nth2 in Hk by (rewrite map_length; lia).
    rewrite map_length, Nat.sub_diag in Hk. cbn [map nth] in Hk. rewrite Hk. rewrite app_length in HL. cbn [List.length] in HL.
    rewrite (nth_indep _ 0 (0 + Z.of_nat 0)) by (rewrite map_length, seq_length; lia).
    rewrite (map_nth (fun k => 0 + Z.of_nat k)), seq_nth by lia. unfold zlen. lia.
Qed.
Lemma sequence_counted E ext comps name s d s' : generate_for_type E (RSequence ext comps) name s = Ok (d, s') -> counted d.
Proof.
  intros H. destruct (sequence_numbers _ _ _ _ _ _ _ H) as (n & fs & -> & _ & H2 & -> & _). cbn [counted]. rewrite H2.
  assert (0 <= zlen (filter rc_optional comps)) by (unfold zlen; lia).
  destruct (0 <? zlen (filter rc_optional comps)) eqn:D; split; try lia; f_equal; unfold zlen in *; lia.
Qed.
Lemma type_counted E t name s d s' : generate_for_type E t name s = Ok (d, s') -> counted d.
Proof.
  intros H. destruct t; try (cbn in H; unfold gsize in H; gsteps; exact I).
  - cbn in H. gsteps. unfold generate_integer in H. destruct (int_constraints i) as [vs|]; [destruct (cv_max E (root_values vs)); try discriminate|]; injection H as <-; exact I.
  - cbn in H. gsteps. unfold generate_enumerated in H. destruct (arith_usize E _); try discriminate. injection H as <-. exact I.
  - now apply choice_counted in H.
  - now apply sequence_counted in H.
Qed.

Definition all_counted (l : list (string * gdef)) : Prop := Forall (fun p => counted (snd p)) l.
Definition Counts {A} (m : G A) : Prop := forall s a s', m s = Ok (a, s') -> all_counted (aux_items s) -> all_counted (aux_items s').
Lemma Counts_bind {A B} (m : G A) (f : A -> G B) : Counts m -> (forall a, Counts (f a)) -> Counts (gbind m f).
Proof. intros Hm Hf s b s' H Hs. gsteps. eapply Hf; [eassumption|]. eapply Hm; eassumption. Qed.
Lemma Counts_ret {A} (a : A) : Counts (gret a).
Proof. intros s b s' H. gsteps. auto. Qed.
Lemma Counts_lift {A} (r : res A) : Counts (glift r).
Proof. intros s b s' H. gsteps. auto. Qed.
Lemma Counts_unique n : Counts (get_unique_name n).
Proof. intros s b s' H. unfold get_unique_name in H. injection H as <- <-. auto. Qed.
Lemma Counts_push n d : counted d -> Counts (push_aux (n, d)).
Proof. intros Hd s b s' H Hs. unfold push_aux in H. injection H as <- <-. cbn. apply Forall_app. split; [exact Hs|]. now repeat constructor. Qed.
Lemma Counts_maybe E t input : (forall n, Counts (generate_for_type E t n)) -> Counts (name_maybe_aux (generate_for_type E t) t input).
Proof.
  intros Hg.
  assert (Hgen : forall n (f : gdef -> gdef) m, (forall d, counted d -> counted (f d)) ->
            Counts (d <~ generate_for_type E t n ;; _ <~ push_aux (m, f d) ;; gret (to_type_ident n))).
  { intros n f m Hf s b s' H Hs. gsteps. eapply Counts_push; [|eassumption|eapply Hg; eassumption]. apply Hf. eapply type_counted. eassumption. }
  unfold name_maybe_aux.
  destruct t; try (apply Counts_ret); try (apply Counts_bind; [|intros nm; now apply (Hgen nm (fun d => d))]);
    cbn [aux_base_name]; try apply Counts_unique; try (destruct input; [apply Counts_ret|apply Counts_unique]).
  apply (Hgen _ (fun d => match d with GOpen _ vs => GOpen true vs | d => d end)). now intros [].
Qed.
Lemma Counts_choice_tokens E name x : forall l i,
  Forall (fun p => forall n, Counts (generate_for_type E (snd p) n)) l -> Counts (choice_tokens E name x i l).
Proof.
  induction l as [|[id t] l IH]; intros i H; [apply Counts_ret|rewrite choice_tokens_cons].
  inversion_clear H. repeat (apply Counts_bind; [|intros ?]); [now apply Counts_maybe|now apply IH|apply Counts_ret].
Qed.
Lemma Counts_seq_tokens E name : forall l i,
  Forall (fun c => forall n, Counts (generate_for_type E (rc_ty c) n)) l -> Counts (seq_tokens E name i l).
Proof.
  induction l as [|[id t o k] l IH]; intros i H; [apply Counts_ret|rewrite seq_tokens_cons].
  inversion_clear H. repeat (apply Counts_bind; [|intros ?]); [now apply Counts_maybe|now apply IH|apply Counts_ret].
Qed.
Lemma Counts_set_tokens E : forall l,
  Forall (fun p => forall n, Counts (generate_for_type E (snd p) n)) l -> Counts (set_tokens E l).
Proof.
  induction l as [|[[nm k] t] l IH]; intros H; [apply Counts_ret|rewrite set_tokens_cons].
  inversion_clear H. repeat (apply Counts_bind; [|intros ?]); [now apply Counts_maybe|now apply IH|apply Counts_ret].
Qed.
Lemma Counts_gsize E size f : Counts (gsize E size f).
Proof. unfold gsize. apply Counts_bind; [apply Counts_lift|intros ?; apply Counts_ret]. Qed.
Lemma generate_counts E t : forall name, Counts (generate_for_type E t name).
Proof.
  induction t using rtype_ind'; intros name;
    try (cbn [generate_for_type]; first [apply Counts_lift|apply Counts_gsize|apply Counts_ret]).
  - rewrite generate_choice. apply Counts_bind; [now apply Counts_choice_tokens|intros vs].
    apply Counts_bind; [destruct adds; [now apply Counts_choice_tokens; auto|apply Counts_ret]|intros ws].
    apply Counts_bind; [apply Counts_lift|intros ub; apply Counts_ret].
  - rewrite generate_seq. apply Counts_bind; [now apply Counts_seq_tokens|intros p; apply Counts_ret].
  - cbn [generate_for_type]. apply Counts_bind; [apply Counts_lift|intros a].
    apply Counts_bind; [now apply Counts_maybe|intros ty; apply Counts_ret].
  - rewrite generate_set. apply Counts_bind; [now apply Counts_set_tokens|intros vs; apply Counts_ret].
Qed.
Lemma items_counted E : forall defs s items s', generate_items E defs s = Ok (items, s') ->
  all_counted (aux_items s) -> all_counted items /\ all_counted (aux_items s').
Proof.
  induction defs as [|[k t] r IH]; intros s items s' H Hs; cbn [generate_items] in H; gsteps; [split; [constructor|exact Hs]|].
  destruct (IH _ _ _ H1 (generate_counts E t _ _ _ _ H0 Hs)) as [H2 H3]. split; [|exact H3]. constructor; [|exact H2].
  eapply type_counted. eassumption.
Qed.
Theorem generated_counted E defs prog : generate E defs = Ok prog -> all_counted prog.
Proof.
  unfold generate. intros H. destruct (generate_items E defs new_generator) as [[items s]| | |] eqn:HG; try discriminate. injection H as <-.
  destruct (items_counted _ _ _ _ _ HG) as [H1 H2]; [constructor|]. now apply Forall_app.
Qed.

(* From the items to the types they mean. *)
Fixpoint alts_keys (al : alts) : list (Z * bool) := match al with ANil => [] | ACons k x _ al => (k, x) :: alts_keys al end.
Lemma numbered_meaning prog n T : all_counted prog -> (forall n d, In (n, d) prog -> countable d) -> name_means prog n T -> x_numbered T.
Proof.
  intros HC Hc. revert n T. apply (name_means_mut prog
    (fun d T => counted d -> countable d -> x_numbered T)
    (fun n T => x_numbered T)
    (fun vs al => x_numbered_alts al /\ alts_keys al = map (fun v => (gv_key v, gv_extended v)) vs)
    (fun fs l => x_numbered_fields l /\ optional_idxs l = somes (map gf_optional fs))); try (intros; exact I).
  - (* choice *) intros lb ub ext vs al _ [Hal Hks] Hd Hcount. cbn [x_numbered counted countable] in *. split; [|exact Hal].
    intros n key t Hat. specialize (Hd Hcount). clear Hcount Hal.
    assert (exists before v after, vs = before ++ v :: after /\ gv_extended v = false /\ gv_key v = key /\
              x_index al n = root_variants before) as (before & v & after & H1 & H2 & H3 & H4).
    { clear Hd lb ub ext. revert n vs Hat Hks. induction al as [|k x u al IH]; intros n vs Hat Hks; [destruct n; discriminate|].
      cbn [alts_keys] in Hks. destruct vs as [|v vs]; [discriminate|]. cbn [map] in Hks. injection Hks as Hk Hx Hks. destruct n as [|n]; cbn [alt_at] in Hat.
      - injection Hat as -> -> ->. exists [], v, vs. auto.
      - destruct (IH n vs Hat Hks) as (before & w & after & -> & H2 & H3 & H4). exists (v :: before), w, after. repeat split; auto.
        cbn [x_index]. rewrite H4, Hx. unfold root_variants, zlen. cbn [filter]. destruct (gv_extended v); cbn [negb List.length]; lia. }
    destruct (Hd before v after H1 H2) as (-> & -> & H5). repeat split; [|congruence]. f_equal. clear - Hks.
    revert vs Hks. induction al as [|k x u al IH]; intros [|v vs] Hks; try discriminate; [reflexivity|]. cbn [alts_keys map] in Hks. injection Hks as _ -> Hks.
    cbn [x_root_alternatives]. rewrite <- (IH vs Hks). unfold root_variants, zlen. cbn [filter]. destruct (gv_extended v); cbn [negb List.length]; lia.
  - (* sequence *) intros ext n fs l _ [Hl Ho] Hd _. cbn [x_numbered counted] in *. destruct Hd as [H1 H2]. rewrite Ho, H2. auto.
  - (* sequence of *) intros sz t T _ H _ _. exact H.
  - intros t T _ H _ _. exact H.
  - intros vs al _ [H _] _ _. exact H.
  - intros n d T Hin _ H. apply H; [|now apply (Hc n)]. unfold all_counted in HC. rewrite Forall_forall in HC. now apply (HC (n, d)).
  - split; [exact I|reflexivity].
  - intros nm k x t T vs al _ HT _ [H1 H2]. cbn. rewrite H2. auto.
  - split; [exact I|reflexivity].
  - intros nm i key t T fs l _ HT _ [H1 H2]. cbn. rewrite H2. auto.
  - intros nm key t T fs l _ HT _ [H1 H2]. cbn. rewrite H2. auto.
Qed.
