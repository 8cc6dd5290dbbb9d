(* Proofs about attributes written by hand. *)
From Coq Require Import ZArith NArith List Bool String Ascii Lia Permutation.
Require Import Verif.Base Verif.DeriveModel Verif.Asn1Model Verif.GenModel Verif.RustModel Verif.RustSpec Verif.RustProofs.
Import ListNotations.
Open Scope string_scope.
Open Scope list_scope.

Definition lit_of (v : avalue) : lit := match v with VText s => LStr s | VNumber z => LInt (show z) | VFlag b => LBool b end.
Definition meta_of (kv : string * avalue) : meta := NameValue (fst kv) (lit_of (snd kv)).
Lemma parse_value v r : parse_lit (value_tokens v ++ r) = Some (lit_of v, r).
Proof. destruct v as [s|z|[]]; try reflexivity. apply parse_number. Qed.
Lemma parse_item k v r : parse_nested (([AIdent k; AEq] ++ value_tokens v) ++ r) = Some (meta_of (k, v), r).
Proof. cbn [app parse_nested]. now rewrite parse_value. Qed.
Lemma parse_written_metas : forall l n, (List.length (commas (map (fun kv => [AIdent (fst kv); AEq] ++ value_tokens (snd kv)) l)) < n)%nat ->
  parse_metas n (commas (map (fun kv => [AIdent (fst kv); AEq] ++ value_tokens (snd kv)) l)) = Some (map meta_of l).
Proof.
  induction l as [|[k v] l IH]; intros n Hn; [destruct n; [inversion Hn|reflexivity]|].
  destruct n as [|n]; [inversion Hn|]. destruct l as [|kv l].
  - cbn [map commas fst snd]. pose proof (parse_item k v []) as H. rewrite app_nil_r in H. cbn [parse_metas]. rewrite H. reflexivity.
  - cbn [map] in *. set (y := [AIdent (fst kv); AEq] ++ value_tokens (snd kv)) in *. set (ys := map _ l) in *.
    change (commas (([AIdent (fst (k, v)); AEq] ++ value_tokens (snd (k, v))) :: y :: ys)) with
      (([AIdent k; AEq] ++ value_tokens v) ++ [AComma] ++ commas (y :: ys)) in *.
    set (rest := commas (y :: ys)) in *. clearbody rest. pose proof (parse_item k v ([AComma] ++ rest)) as H. cbn [parse_metas]. rewrite H.
    cbn [app]. rewrite IH; [reflexivity|]. rewrite !app_length in Hn. cbn [List.length] in Hn. lia.
Qed.
Lemma parse_written l : parse_meta (written l) = Some (map meta_of l).
Proof. unfold parse_meta, written, asn. cbn [at_args]. apply parse_written_metas. lia. Qed.

Section Reading.
Context {P : Type} (one : P -> meta -> option P) (seen : P -> P).
Context (Hseen : forall p m, one (seen p) m = option_map seen (one p m)) (Hidem : forall p, seen (seen p) = seen p).
Context (Hcomm : forall p k v k' v', k <> k' ->
  match one p (meta_of (k, v)) with Some q => one q (meta_of (k', v')) | None => None end =
  match one p (meta_of (k', v')) with Some q => one q (meta_of (k, v)) | None => None end).
Lemma metas_app p l l' : metas one p (l ++ l') = match metas one p l with Some q => metas one q l' | None => None end.
Proof. revert p. induction l as [|m l IH]; intros p; cbn; [reflexivity|]. destruct (one p m); auto. Qed.
Lemma metas_seen : forall l p, metas one (seen p) l = option_map seen (metas one p l).
Proof. induction l as [|m l IH]; intros p; cbn; [reflexivity|]. rewrite Hseen. destruct (one p m); cbn; [apply IH|reflexivity]. Qed.
Lemma attributes_written : forall ls p, attributes one seen p (map written ls) =
  option_map (match ls with [] => fun q => q | _ => seen end) (metas one p (map meta_of (List.concat ls))).
Proof.
  assert (H : forall ls p, attributes one seen (seen p) (map written ls) = option_map seen (metas one p (map meta_of (List.concat ls)))).
  { induction ls as [|l ls IH]; intros p; cbn [map attributes List.concat]; [reflexivity|]. change (String.eqb (at_path (written l)) "asn") with true. cbv iota.
    rewrite parse_written, Hidem, metas_seen, map_app, metas_app. destruct (metas one p (map meta_of l)) as [q|]; cbn [option_map]; [apply IH|reflexivity]. }
  destruct ls as [|l ls]; intros p; [reflexivity|]. cbn [map attributes List.concat]. change (String.eqb (at_path (written l)) "asn") with true. cbv iota.
  rewrite parse_written, metas_seen, map_app, metas_app. destruct (metas one p (map meta_of l)) as [q|]; cbn [option_map]; [apply H|reflexivity].
Qed.
Lemma metas_permuted l l' : Permutation l l' -> NoDup (map fst l) -> forall p, metas one p (map meta_of l) = metas one p (map meta_of l').
Proof.
  induction 1 as [|x l l' H IH|[k v] [k' v'] l|l l' l'' H1 IH1 H2 IH2]; intros Hn p; cbn [map metas].
  - reflexivity.
  - inversion_clear Hn. destruct (one p (meta_of x)); auto.
  - cbn [map fst] in Hn. inversion_clear Hn as [|? ? Hk _]. assert (Hne : k <> k') by (intros ->; apply Hk; now left).
    pose proof (Hcomm p k v k' v' Hne) as Hc.
    assert (Hb : forall a b, match one p a with Some q => match one q b with Some r => metas one r (map meta_of l) | None => None end | None => None end =
      match (match one p a with Some q => one q b | None => None end) with Some r => metas one r (map meta_of l) | None => None end)
      by (intros a b; destruct (one p a); reflexivity).
    rewrite !Hb, Hc. reflexivity.
  - rewrite IH1 by assumption. apply IH2. eapply Permutation_NoDup; [apply Permutation_map; exact H1|exact Hn].
Qed.
Lemma same_read a b : same_attrs a b -> forall p, 
  option_map seen (attributes one seen p a) = option_map seen (attributes one seen p b).
Proof.
  intros (l & l' & (ls & -> & ->) & (ls' & -> & ->) & Hn & Hp) p. rewrite !attributes_written, (metas_permuted _ _ Hp Hn p).
  destruct (metas one p (map meta_of (List.concat ls'))); cbn; [|reflexivity]. destruct ls, ls'; rewrite ?Hidem; reflexivity.
Qed.
Lemma rejected a l k v p : says a l -> In (k, v) l -> (forall q, one q (meta_of (k, v)) = None) -> attributes one seen p a = None.
Proof.
  intros (ls & -> & ->) Hin Hk. rewrite attributes_written. apply in_split in Hin. destruct Hin as (l1 & l2 & ->).
  rewrite map_app, metas_app. destruct (metas one p (map meta_of l1)); [|reflexivity]. cbn [map metas]. now rewrite Hk.
Qed.
End Reading.

Definition seen_ty (p : ty_params) : ty_params :=
  let '(mkTyParams ty lb ub ext sz_lb sz_ub sz_ext opt _) := p in mkTyParams ty lb ub ext sz_lb sz_ub sz_ext opt true.
Ltac keys n := repeat match goal with |- context [String.eqb n ?s] => destruct (String.eqb_spec n s) as [->|] end.
Lemma seen_meta p m : ty_meta (seen_ty p) m = option_map seen_ty (ty_meta p m).
Proof.
  destruct p, m as [n v|n|v]; try reflexivity. cbn [ty_meta seen_ty].
  destruct v; repeat match goal with |- context [String.eqb n ?s] => destruct (String.eqb n s); try reflexivity end.
Qed.
Lemma ty_comm p k v k' v' : k <> k' ->
  match ty_meta p (meta_of (k, v)) with Some q => ty_meta q (meta_of (k', v')) | None => None end =
  match ty_meta p (meta_of (k', v')) with Some q => ty_meta q (meta_of (k, v)) | None => None end.
Proof.
  intros H. destruct p. unfold meta_of. cbn [fst snd ty_meta]. destruct v, v'; cbn [lit_of];
    repeat match goal with |- context [String.eqb k ?s] => destruct (String.eqb_spec k s); subst; try (cbn; reflexivity) end;
    repeat match goal with |- context [String.eqb k' ?s] => destruct (String.eqb_spec k' s); subst; try congruence; try (cbn; reflexivity) end;
    cbn [ty_meta]; repeat match goal with H : ?x <> ?s |- context [String.eqb ?x ?s] => rewrite (proj2 (String.eqb_neq x s) H) end; reflexivity.
Qed.
Lemma fld_comm p k v k' v' : k <> k' ->
  match fld_meta p (meta_of (k, v)) with Some q => fld_meta q (meta_of (k', v')) | None => None end =
  match fld_meta p (meta_of (k', v')) with Some q => fld_meta q (meta_of (k, v)) | None => None end.
Proof.
  intros H. destruct p. unfold meta_of. cbn [fst snd fld_meta]. destruct v, v'; cbn [lit_of];
    repeat match goal with |- context [String.eqb k ?s] => destruct (String.eqb_spec k s); subst; try (cbn; reflexivity) end;
    repeat match goal with |- context [String.eqb k' ?s] => destruct (String.eqb_spec k' s); subst; try congruence; try (cbn; reflexivity) end;
    cbn [fld_meta]; repeat match goal with H : ?x <> ?s |- context [String.eqb ?x ?s] => rewrite (proj2 (String.eqb_neq x s) H) end; reflexivity.
Qed.

(* fields and variants *)
Lemma same_fld a b : same_attrs a b -> parse_fld_attrs a = parse_fld_attrs b.
Proof.
  intros H. unfold parse_fld_attrs. assert (Hid : forall o : option fld_params, option_map (fun p => p) o = o) by (intros []; reflexivity).
  rewrite <- (Hid (attributes fld_meta (fun p => p) no_fld_params a)), <- (Hid (attributes fld_meta (fun p => p) no_fld_params b)).
  apply (same_read fld_meta (fun p => p)); [intros p m; now rewrite Hid|reflexivity|exact fld_comm|exact H].
Qed.
Lemma collect_same {A B} (R : A -> A -> Prop) (f : A -> res B) : (forall x y, R x y -> f x = f y) -> forall l l', Forall2 R l l' -> collect f l = collect f l'.
Proof. intros Hf. induction 1 as [|x y l l' H _ IH]; cbn; [reflexivity|]. now rewrite (Hf _ _ H), IH. Qed.
Lemma same_seq_field f g : same_field f g -> seq_field f = seq_field g.
Proof. intros (_ & Ht & Ha). unfold seq_field. now rewrite Ht, (same_fld _ _ Ha). Qed.
Lemma same_choice v w : same_variant v w -> choice_variant_impl v = choice_variant_impl w.
Proof. intros (_ & Ht & Ha). unfold choice_variant_impl. now rewrite Ht, (same_fld _ _ Ha). Qed.
Lemma same_open v w : same_variant v w -> open_variant_impl v = open_variant_impl w.
Proof. intros (_ & Ht & Ha). unfold open_variant_impl. now rewrite Ht, (same_fld _ _ Ha). Qed.
Lemma same_codec p ty d d' : same_data d d' -> generate_codec p ty d = generate_codec p ty d'.
Proof.
  intros H. unfold generate_codec, derive_choice, derive_open, derive_sequence, derive_sequence_of, derive_number, sized.
  assert (Hs : single d = single d') by (destruct H; reflexivity). rewrite Hs.
  assert (H1 : collect seq_field (match d with RStruct (Named fs) => fs | _ => [] end) = collect seq_field (match d' with RStruct (Named fs) => fs | _ => [] end)).
  { destruct H; try reflexivity. apply (collect_same same_field); [exact same_seq_field|assumption]. }
  assert (H2 : collect choice_variant_impl (match d with REnum vs => vs | _ => [] end) = collect choice_variant_impl (match d' with REnum vs => vs | _ => [] end)).
  { destruct H; try reflexivity. apply (collect_same same_variant); [exact same_choice|assumption]. }
  assert (H3 : collect open_variant_impl (match d with REnum vs => vs | _ => [] end) = collect open_variant_impl (match d' with REnum vs => vs | _ => [] end)).
  { destruct H; try reflexivity. apply (collect_same same_variant); [exact same_open|assumption]. }
  now rewrite H1, H2, H3.
Qed.
Lemma seen_codec p ty d : generate_codec (seen_ty p) ty d = generate_codec p ty d.
Proof. destruct p; reflexivity. Qed.
Lemma derive_read a d : derive a d = match parse_ty_attrs a with
  | Some p => if tp_attr p then match tp_ty p with Some ty => generate_codec p ty d | None => Err end else Err
  | None => Err
  end.
Proof. unfold derive. destruct (parse_ty_attrs a) as [p|]; [|reflexivity]. cbn [argument rbind]. destruct (tp_attr p); [|reflexivity]. destruct (tp_ty p); reflexivity. Qed.
Lemma unseen_type : forall ls p, attributes ty_meta seen_ty no_params (map written ls) = Some p -> tp_attr p = false -> tp_ty p = None.
Proof.
  intros ls p H Ht. rewrite (attributes_written ty_meta seen_ty seen_meta) in H by (intros []; reflexivity).
  destruct (metas ty_meta no_params (map meta_of (List.concat ls))) as [q|] eqn:Hq; [|discriminate]. injection H as <-. destruct ls.
  - cbn in Hq. injection Hq as <-. reflexivity.
  - destruct q; discriminate.
Qed.
Theorem same_derive a a' d d' : same_attrs a a' -> same_data d d' -> derive a d = derive a' d'.
Proof.
  intros Ha Hd. rewrite !derive_read.
  pose proof (same_read ty_meta seen_ty seen_meta ltac:(intros []; reflexivity) ty_comm a a' Ha no_params) as H.
  change (parse_ty_attrs a) with (attributes ty_meta seen_ty no_params a). change (parse_ty_attrs a') with (attributes ty_meta seen_ty no_params a').
  destruct Ha as (l & l' & (ls & -> & _) & (ls' & -> & _) & _).
  pose proof (unseen_type ls) as U. pose proof (unseen_type ls') as U'.
  destruct (attributes ty_meta seen_ty no_params (map written ls)) as [p|], (attributes ty_meta seen_ty no_params (map written ls')) as [p'|]; try discriminate; [|reflexivity].
  cbn in H. injection H as H. specialize (U p eq_refl). specialize (U' p' eq_refl).
  assert (Hty : tp_ty p = tp_ty p') by (destruct p, p'; cbn in H |- *; congruence).
  assert (Hg : forall ty, generate_codec p ty d = generate_codec p' ty d').
  { intros ty. rewrite <- (seen_codec p), <- (seen_codec p'), H. now apply same_codec. }
  destruct (tp_attr p), (tp_attr p').
  - rewrite Hty. destruct (tp_ty p'); auto.
  - rewrite Hty, U' by reflexivity. reflexivity.
  - rewrite <- Hty, U by reflexivity. reflexivity.
  - reflexivity.
Qed.

(* what is not an attribute is refused *)
Lemma bad_type_attribute k v : ~ type_attribute k v -> forall q, ty_meta q (meta_of (k, v)) = None.
Proof.
  intros H q. destruct q. unfold meta_of. cbn [fst snd ty_meta]. destruct v; cbn [lit_of type_attribute In] in *;
    repeat match goal with |- context [String.eqb k ?s] => destruct (String.eqb_spec k s); subst; try reflexivity; try (exfalso; apply H; tauto) end; reflexivity.
Qed.
Lemma bad_field_attribute k v : ~ field_attribute k v -> forall q, fld_meta q (meta_of (k, v)) = None.
Proof.
  intros H q. destruct q. unfold meta_of. cbn [fst snd fld_meta]. destruct v; cbn [lit_of field_attribute In] in *;
    repeat match goal with |- context [String.eqb k ?s] => destruct (String.eqb_spec k s); subst; try reflexivity; try (exfalso; apply H; tauto) end; reflexivity.
Qed.
Theorem type_attribute_refused a l k v d : says a l -> In (k, v) l -> ~ type_attribute k v -> derive a d = Err.
Proof.
  intros Ha Hin Hk. rewrite derive_read. change (parse_ty_attrs a) with (attributes ty_meta seen_ty no_params a).
  rewrite (rejected ty_meta seen_ty seen_meta ltac:(intros []; reflexivity) a l k v no_params Ha Hin (bad_type_attribute k v Hk)). reflexivity.
Qed.
Lemma field_refused a l k v : says a l -> In (k, v) l -> ~ field_attribute k v -> parse_fld_attrs a = None.
Proof.
  intros Ha Hin Hk. unfold parse_fld_attrs. apply (rejected fld_meta (fun p => p)) with (l := l) (k := k) (v := v); try assumption; try reflexivity.
  - intros p m. destruct (fld_meta p m); reflexivity.
  - now apply bad_field_attribute.
Qed.
Lemma collect_err {A B} (f : A -> res B) l x : In x l -> f x = Err -> (forall y, f y <> Panic /\ f y <> Diverge) -> collect f l = Err.
Proof.
  intros Hin Hx Hf. induction l as [|y l IH]; [destruct Hin|]. cbn. destruct Hin as [->|Hin]; [now rewrite Hx|].
  destruct (f y) eqn:Hy; cbn; [now rewrite IH|reflexivity|..]; now destruct (Hf y).
Qed.
Lemma collect_in {A B} (f : A -> res B) : forall l ys x, collect f l = Ok ys -> In x l -> exists y, f x = Ok y.
Proof.
  induction l as [|z l IH]; intros ys x H Hin; [destruct Hin|]. cbn [collect] in H. destruct (f z) eqn:Hz; cbn [rbind] in H; try discriminate.
  destruct (collect f l) eqn:Hl; cbn [rbind] in H; try discriminate. destruct Hin as [<-|Hin]; [eauto|]. eapply IH; eauto.
Qed.
Lemma fld_attrs_ok a l : parse_fld_attrs a <> None -> says a l -> Forall (fun kv => field_attribute (fst kv) (snd kv)) l.
Proof.
  intros H Ha. apply Forall_forall. intros [k v] Hin. cbn [fst snd].
  assert (Hd : field_attribute k v \/ ~ field_attribute k v).
  { destruct v; cbn [field_attribute]; [now right|..]; match goal with |- In ?x ?l \/ _ => destruct (in_dec string_dec x l); auto end. }
  destruct Hd as [Hd|Hd]; [exact Hd|]. destruct H. now apply (field_refused a l k v).
Qed.
Lemma derive_codec a d c : derive a d = Ok c -> exists p ty, generate_codec p ty d = Ok c.
Proof. rewrite derive_read. destruct (parse_ty_attrs a) as [p|]; [|discriminate]. destruct (tp_attr p); [|discriminate]. destruct (tp_ty p) as [ty|]; [|discriminate]. eauto. Qed.
Ltac codec H := unfold generate_codec, derive_choice, derive_open, derive_sequence, derive_sequence_of, derive_number, sized in H;
  repeat match type of H with (if ?b then _ else _) = _ => destruct b end; try discriminate;
  repeat match type of H with rbind ?m _ = Ok _ => let E := fresh "E" in destruct m eqn:E; cbn [rbind] in H; try discriminate end; try discriminate.
Theorem sequence_fields_checked a d ext n l : derive a d = Ok (ISequence ext n l) ->
  forall fs f al, d = RStruct (Named fs) -> In f fs -> says (rf_attrs f) al -> Forall (fun kv => field_attribute (fst kv) (snd kv)) al.
Proof.
  intros H fs f al -> Hin Ha. apply derive_codec in H. destruct H as (p & ty & H). codec H.
  eapply collect_in in E0; [|exact Hin]. destruct E0 as [y Hy]. unfold seq_field in Hy. apply (fld_attrs_ok _ _) with (2 := Ha). destruct (parse_fld_attrs (rf_attrs f)); discriminate.
Qed.
Theorem choice_variants_checked a d lb ub ext l : derive a d = Ok (IChoice lb ub ext l) ->
  forall vs v al, d = REnum vs -> In v vs -> says (rv_attrs v) al -> Forall (fun kv => field_attribute (fst kv) (snd kv)) al.
Proof.
  intros H vs v al -> Hin Ha. apply derive_codec in H. destruct H as (p & ty & H). codec H.
  match goal with E : collect _ _ = _ |- _ => eapply collect_in in E; [|exact Hin]; destruct E as [y Hy] end.
  unfold choice_variant_impl in Hy. apply (fld_attrs_ok _ _) with (2 := Ha). destruct (parse_fld_attrs (rv_attrs v)); discriminate.
Qed.
Theorem open_variants_checked a d l : derive a d = Ok (IOpen l) ->
  forall vs v al, d = REnum vs -> In v vs -> says (rv_attrs v) al -> Forall (fun kv => field_attribute (fst kv) (snd kv)) al.
Proof.
  intros H vs v al -> Hin Ha. apply derive_codec in H. destruct H as (p & ty & H). codec H.
  match goal with E : collect _ _ = _ |- _ => eapply collect_in in E; [|exact Hin]; destruct E as [y Hy] end.
  unfold open_variant_impl in Hy. apply (fld_attrs_ok _ _) with (2 := Ha). destruct (parse_fld_attrs (rv_attrs v)); discriminate.
Qed.

(* when the macro panics *)
Definition from (l : list (string * avalue)) (k : string) (o : option string) : Prop := match o with Some s => In (k, VText s) l | None => forall s, ~ In (k, VText s) l end.
Definition params_from (l : list (string * avalue)) (p : ty_params) : Prop :=
  from l "lb" (tp_lb p) /\ from l "ub" (tp_ub p) /\ from l "sz_lb" (tp_sz_lb p) /\ from l "sz_ub" (tp_sz_ub p) /\ from l "type" (tp_ty p).
Lemma from_other l k o k' v : from l k o -> (k' <> k \/ forall s, v <> VText s) -> from (l ++ [(k', v)]) k o.
Proof.
  intros H Hk. destruct o as [s|]; cbn in *; [apply in_or_app; now left|]. intros s Hin. apply in_app_or in Hin. destruct Hin as [Hin|[Hin|[]]]; [now apply (H s)|].
  injection Hin as -> ->. destruct Hk as [Hk|Hk]; [now apply Hk|now apply (Hk s)].
Qed.
Lemma from_last l k s : from (l ++ [(k, VText s)]) k (Some s).
Proof. cbn. apply in_or_app. right. now left. Qed.
Lemma params_step l p k v q : params_from l p -> ty_meta p (meta_of (k, v)) = Some q -> params_from (l ++ [(k, v)]) q.
Proof.
  intros (H1 & H2 & H3 & H4 & H5) H. destruct p as [ty0 lb0 ub0 ext0 slb0 sub0 sext0 opt0 at0]. unfold meta_of in H. cbn [fst snd ty_meta] in H. cbn [tp_lb tp_ub tp_sz_lb tp_sz_ub tp_ty] in *.
  destruct v; cbn [lit_of] in H;
  repeat match type of H with (if String.eqb k ?s then _ else _) = _ => destruct (String.eqb_spec k s); [subst k; try discriminate; injection H as <-|] end; try discriminate;
  unfold params_from; cbn [tp_lb tp_ub tp_sz_lb tp_sz_ub tp_ty]; repeat split;
    solve [apply from_last|apply from_other; [assumption|left; discriminate]|apply from_other; [assumption|right; discriminate]].
Qed.
Lemma params_metas : forall l l0 p q, params_from l0 p -> metas ty_meta p (map meta_of l) = Some q -> params_from (l0 ++ l) q.
Proof.
  induction l as [|[k v] l IH]; intros l0 p q Hp H; cbn [map metas] in H; [injection H as <-; now rewrite app_nil_r|].
  destruct (ty_meta p (meta_of (k, v))) as [p'|] eqn:Hm; [|discriminate]. replace (l0 ++ (k, v) :: l) with ((l0 ++ [(k, v)]) ++ l) by (rewrite <- app_assoc; reflexivity).
  eapply IH; [|exact H]. eapply params_step; eassumption.
Qed.
Lemma params_says a l p : says a l -> parse_ty_attrs a = Some p -> params_from l p.
Proof.
  intros (ls & -> & ->) H. change (parse_ty_attrs (map written ls)) with (attributes ty_meta seen_ty no_params (map written ls)) in H.
  rewrite (attributes_written ty_meta seen_ty seen_meta) in H by (intros []; reflexivity).
  destruct (metas ty_meta no_params (map meta_of (List.concat ls))) as [q|] eqn:Hq; [|discriminate]. injection H as <-.
  assert (Hp : params_from (List.concat ls) q) by (apply (params_metas _ [] no_params q); [repeat split; intros s []|exact Hq]).
  destruct ls; [exact Hp|]. destruct q; exact Hp.
Qed.
Lemma bound_from l k o : (forall s, In (k, VText s) l -> parse_i128 s <> None) -> from l k o -> exists z, bound o = Ok z /\ (o <> None -> z <> None).
Proof.
  intros H Hf. destruct o as [s|]; cbn in *; [|exists None; split; [reflexivity|tauto]]. specialize (H s Hf). destruct (parse_i128 s) as [z|]; [|now destruct H].
  exists (Some z). split; [reflexivity|discriminate].
Qed.
Definition calm {A} (r : res A) : Prop := r <> Panic /\ r <> Diverge.
Lemma calm_bind {A B} (m : res A) (f : A -> res B) : calm m -> (forall a, m = Ok a -> calm (f a)) -> calm (rbind m f).
Proof. intros [H1 H2] Hf. destruct m; cbn; [apply Hf; reflexivity|split; discriminate|now destruct H1|now destruct H2]. Qed.
Lemma calm_ok {A} (a : A) : calm (Ok a). Proof. split; discriminate. Qed.
Lemma calm_err {A} : calm (@Err A). Proof. split; discriminate. Qed.
Lemma calm_argument {A} (o : option A) : calm (argument o). Proof. destruct o; split; discriminate. Qed.
Lemma calm_literal s : calm (literal s). Proof. unfold literal. destruct (parse_i128 s); split; discriminate. Qed.
Lemma calm_collect {A B} (f : A -> res B) l : (forall x, calm (f x)) -> calm (collect f l).
Proof. intros Hf. induction l as [|x l IH]; cbn; [apply calm_ok|]. apply calm_bind; [apply Hf|]. intros y _. apply calm_bind; [exact IH|]. intros; apply calm_ok. Qed.
Ltac calm := repeat first [apply calm_ok|apply calm_err|apply calm_argument|apply calm_literal|apply calm_bind; [|intros ? ?]|apply calm_collect; intros].
Theorem derive_calm a l d : says a l ->
  (forall k s, In k ["lb"; "ub"; "sz_lb"; "sz_ub"] -> In (k, VText s) l -> parse_i128 s <> None) ->
  (In ("type", VText "CHOICE") l -> (exists s, In ("lb", VText s) l) /\ (exists s, In ("ub", VText s) l)) ->
  derive a d <> Panic /\ derive a d <> Diverge.
Proof.
  intros Ha Hn Hc. rewrite derive_read. destruct (parse_ty_attrs a) as [p|] eqn:Hp; [|split; discriminate].
  destruct (params_says _ _ _ Ha Hp) as (H1 & H2 & H3 & H4 & H5). destruct (tp_attr p); [|split; discriminate]. destruct (tp_ty p) as [ty|]; [|split; discriminate].
  destruct (bound_from l "lb" _ (fun s => Hn "lb" s ltac:(cbn; tauto)) H1) as (lb & Hlb & Klb).
  destruct (bound_from l "ub" _ (fun s => Hn "ub" s ltac:(cbn; tauto)) H2) as (ub & Hub & Kub).
  destruct (bound_from l "sz_lb" _ (fun s => Hn "sz_lb" s ltac:(cbn; tauto)) H3) as (slb & Hslb & _).
  destruct (bound_from l "sz_ub" _ (fun s => Hn "sz_ub" s ltac:(cbn; tauto)) H4) as (sub & Hsub & _).
  change (calm (generate_codec p ty d)). unfold generate_codec.
  assert (Hsingle : forall d, calm (single d)) by (intros [[[|? []]| |]|]; split; discriminate).
  assert (Hsized : forall f, calm (sized p d f)) by (intros f; unfold sized; rewrite Hslb, Hsub; apply calm_bind; [apply Hsingle|intros; cbn; calm]).
  assert (Hnum : forall f, calm (derive_number p d f)) by (intros f; unfold derive_number; rewrite Hlb, Hub; apply calm_bind; [apply Hsingle|intros; cbn; calm]).
  destruct (String.eqb ty "BOOLEAN"); [calm|]. destruct (String.eqb_spec ty "CHOICE") as [-> |_].
  { unfold derive_choice. rewrite Hlb, Hub. destruct (Hc H5) as [[s1 I1] [s2 I2]]. destruct (tp_lb p) as [t1|]; [|now destruct (H1 s1)]. destruct (tp_ub p) as [t2|]; [|now destruct (H2 s2)].
    destruct lb as [lb|]; [|now destruct Klb]. destruct ub as [ub|]; [|now destruct Kub]. cbn [rbind]. calm. unfold choice_variant_impl. calm. destruct (rv_fields x) as [[|? []]| |]; calm. }
  destruct (String.eqb ty "INTEGER"); [apply Hnum|]. destruct (String.eqb ty "ENUMERATED"); [apply Hnum|].
  destruct (String.eqb ty "BITSTRING"); [apply Hsized|]. destruct (String.eqb ty "OCTET-STRING"); [apply Hsized|].
  destruct (_ || _ || _); [apply Hsized|]. destruct (String.eqb ty "NULL"); [calm|].
  destruct (String.eqb ty "SEQUENCE").
  { unfold derive_sequence. apply calm_bind; [destruct (tp_optional p); calm|]. intros n _. calm. unfold seq_field. calm. destruct (fst a1); calm. }
  destruct (String.eqb ty "OPEN").
  { unfold derive_open. calm. unfold open_variant_impl. calm. destruct (rv_fields x) as [[|? []]| |]; calm. }
  destruct (String.eqb ty "SEQUENCE-OF").
  { unfold derive_sequence_of. rewrite Hslb, Hsub. apply calm_bind; [apply Hsingle|]. intros t _. cbn [rbind]. apply calm_bind; [|intros; calm]. destruct t as [id [|[i2 a2] r]]; calm. }
  destruct (String.eqb ty "OBJECT-IDENTIFIER"); calm.
Qed.
