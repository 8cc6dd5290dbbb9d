(* Parameters: what apply_params makes of the tokens, and of the type they
   denote. *)
From Coq Require Import ZArith NArith List Bool String Ascii Lia.
From Coq Require Import ZifyBool ZifyNat ZifyN.
Require Import Verif.Base Verif.Asn1Model Verif.GenModel Verif.ResolveModel Verif.TokenModel Verif.ParserModel Verif.ModuleModel Verif.DefinitionModel
  Verif.ParserSpec Verif.DefinitionSpec Verif.ReadProofs Verif.GrammarProofs Verif.ParamSpec.
Import ListNotations.
Open Scope string_scope.
Open Scope list_scope.

(* ------------------------------------------------------------------ *)
(* One after the other is all at once                                  *)
(* ------------------------------------------------------------------ *)
Lemma substitute_text f x ts : map t_text (substitute f x ts) = map (fun s => if string_dec s f then x else s) (map t_text ts).
Proof.
  induction ts as [|t ts IH]; [reflexivity|]. unfold substitute in *. cbn [map]. rewrite IH. f_equal.
  destruct (String.eqb_spec (t_text t) f); destruct (string_dec (t_text t) f); congruence || reflexivity.
Qed.
Lemma substitute_renamed f x ts : substitute f x ts = map (renamed (fun s => if string_dec s f then x else s)) ts.
Proof.
  induction ts as [|t ts IH]; [reflexivity|]. unfold substitute in *. cbn [map]. rewrite IH. f_equal. unfold renamed.
  destruct (String.eqb_spec (t_text t) f); destruct (string_dec (t_text t) f); try congruence; now destruct t.
Qed.
Lemma renamed_renamed f g ts : map (renamed g) (map (renamed f) ts) = map (renamed (fun s => g (f s))) ts.
Proof. rewrite map_map. reflexivity. Qed.
Lemma renamed_same f g ts : (forall s, f s = g s) -> map (renamed f) ts = map (renamed g) ts.
Proof. intros H. apply map_ext. intros t. unfold renamed. now rewrite H. Qed.
Lemma instead_other formals actuals s : ~ In s formals -> instead formals actuals s = s.
Proof.
  revert actuals; induction formals as [|f fs IH]; intros [|a l] H; try reflexivity. cbn. destruct (string_dec s f); [subst; now destruct H; left|].
  apply IH. intros Hin. apply H. now right.
Qed.
Lemma in_sequence_tail f fs a l : in_sequence (f :: fs) (a :: l) -> in_sequence fs l.
Proof. intros H i j g b Hij Hg Hb. apply (H (S i) (S j) g b); [lia|exact Hg|exact Hb]. Qed.
Lemma in_sequence_head f fs a l : in_sequence (f :: fs) (a :: l) -> ~ In (param_string a) fs.
Proof. intros H Hin. apply In_nth_error in Hin as (j & Hj). apply (H 0%nat (S j) (param_string a) a); [lia|exact Hj|reflexivity|reflexivity]. Qed.
Lemma sequential formals : forall actuals ts, List.length formals = List.length actuals -> in_sequence formals actuals ->
  fold_left (fun ts p => substitute (fst p) (param_string (snd p)) ts) (combine formals actuals) ts = map (renamed (instead formals actuals)) ts.
Proof.
  induction formals as [|f fs IH]; intros [|a l] ts Hl Hs; try discriminate.
  - cbn. rewrite <- (map_id ts) at 1. apply map_ext. now intros [].
  - cbn [combine fold_left fst snd]. rewrite IH by (cbn in Hl; lia || eapply in_sequence_tail; eassumption).
    rewrite substitute_renamed, renamed_renamed. apply renamed_same. intros s. cbn [instead]. destruct (string_dec s f); [|reflexivity].
    apply instead_other. eapply in_sequence_head. eassumption.
Qed.

Section Trees.
Context (to : string -> string).
Notation rn := (renamed to).
Notation fits := (fits to).
Notation kept := (kept to).

Lemma fits_part a w b : fits (a ++ w ++ b) -> fits w.
Proof.
  intros (H1 & H2 & H3 & H4). split; [|split; [|split]].
  - intros t Hin. apply H1. apply in_or_app. right. apply in_or_app. now left.
  - intros t Hin. apply H2. apply in_or_app. right. apply in_or_app. now left.
  - intros a' c f b' -> Hc. apply (H3 (a ++ a') c f (b' ++ b)); [rewrite <- !app_assoc; reflexivity|exact Hc].
  - intros a' x t b' -> Hx. apply (H4 (a ++ a') x t (b' ++ b)); [rewrite <- !app_assoc; reflexivity|exact Hx].
Qed.
Lemma fits_left w b : fits (w ++ b) -> fits w.
Proof. apply (fits_part []). Qed.
Lemma fits_right a w : fits (a ++ w) -> fits w.
Proof. intros H. apply (fits_part a w []). now rewrite app_nil_r. Qed.
Lemma fits_tail t w : fits (t :: w) -> fits w.
Proof. apply (fits_right [t]). Qed.
Lemma fits_token t w : fits (t :: w) -> t_type t <> Identifier -> rn t = t.
Proof. intros (H & _) Ht. unfold renamed. rewrite H; [now destruct t|now left|exact Ht]. Qed.
Lemma fits_type s w : fits (I s :: w) -> type_name s -> type_name (to s).
Proof. intros (_ & H & _) Hs. apply (H (I s)); [now left|reflexivity|exact Hs]. Qed.
(* leaves the tokens that are not names alone *)
Ltac parts H :=
  lazymatch type of H with
  | ParamSpec.fits _ (_ ++ _) => let H1 := fresh in let H2 := fresh in
      pose proof (fits_left _ _ H) as H1; pose proof (fits_right _ _ H) as H2; parts H1; parts H2
  | ParamSpec.fits _ (_ :: _) => let H1 := fresh in pose proof (fits_tail _ _ H) as H1; parts H1
  | _ => idtac
  end.
Ltac part := match goal with H : ParamSpec.fits _ _ |- ParamSpec.fits _ _ => solve [parts H; assumption] end.
Ltac fixed :=
  repeat match goal with
  | H : ParamSpec.fits _ (?t :: ?w) |- context [renamed to ?t] =>
      rewrite (fits_token t w H) by discriminate; apply fits_tail in H
  end.
Ltac inside := first [now left | right; inside | apply in_or_app; left; inside | apply in_or_app; right; inside].
Ltac mem := first [discriminate | inside].
Lemma rn_identifier s : rn (I s) = I (to s).
Proof. reflexivity. Qed.
Lemma fits_no_name t : fits [t] -> t_type t <> Identifier -> rn t = t.
Proof. apply fits_token. Qed.
Lemma fits_in t w : fits w -> In t w -> t_type t <> Identifier -> rn t = t.
Proof. intros (H & _) Hin Ht. unfold renamed. rewrite H; [now destruct t|exact Hin|exact Ht]. Qed.

Lemma separated_subst A (sep : tok -> Prop) (P : list tok -> A -> Prop) (R : A -> A -> Prop) (ok : A -> Prop) w l :
  (forall t, sep t -> t_type t <> Identifier) -> separated sep P w l ->
  (forall v a, (List.length v <= List.length w)%nat -> P v a -> fits v -> ok a -> exists a', P (map rn v) a' /\ R a a') ->
  fits w -> Forall ok l -> exists l', separated sep P (map rn w) l' /\ Forall2 R l l'.
Proof.
  intros Hsep H. induction H as [w a Ha|w a t v l Ha Ht Hv IH]; intros Hp Hf Hok.
  - inversion Hok as [|? ? Ho _]; subst. destruct (Hp w a (le_n _) Ha Hf Ho) as (a' & H1 & H2). exists [a']. split; [now apply sep_one|now repeat constructor].
  - inversion Hok as [|? ? Ho Hr]; subst. destruct (Hp w a) as (a' & H1 & H2); [lens|exact Ha|part|exact Ho|].
    destruct IH as (l' & H3 & H4); [intros v0 a0 Hl; apply Hp; lens|part|exact Hr|].
    exists (a' :: l'). split; [|now constructor]. rewrite map_app. cbn [map].
    rewrite (fits_in t _ Hf) by (first [mem|now apply Hsep]). now apply sep_more.
Qed.
Lemma repeated_subst A (P : list tok -> A -> Prop) (R : A -> A -> Prop) (ok : A -> Prop) w l :
  repeated P w l ->
  (forall v a, (List.length v <= List.length w)%nat -> P v a -> fits v -> ok a -> exists a', P (map rn v) a' /\ R a a') ->
  fits w -> Forall ok l -> exists l', repeated P (map rn w) l' /\ Forall2 R l l'.
Proof.
  intros H. induction H as [|w a v l Ha Hv IH]; intros Hp Hf Hok.
  - exists []. split; [apply rep_nil|constructor].
  - inversion Hok as [|? ? Ho Hr]; subst. destruct (Hp w a) as (a' & H1 & H2); [lens|exact Ha|part|exact Ho|].
    destruct IH as (l' & H3 & H4); [intros v0 a0 Hl; apply Hp; lens|part|exact Hr|].
    exists (a' :: l'). split; [|now constructor]. rewrite map_app. now apply rep_cons.
Qed.
Lemma comma_other t : comma t -> t_type t <> Identifier.
Proof. now intros ->. Qed.
Lemma bar_other t : bar t -> t_type t <> Identifier.
Proof. now intros [-> | ->]. Qed.
Lemma caret_other t : caret t -> t_type t <> Identifier.
Proof. now intros [-> | ->]. Qed.
Lemma any_ok A (l : list A) : Forall (fun _ => True) l.
Proof. induction l; constructor; auto. Qed.

Lemma nested_renamed w : nested w -> fits w -> nested (map rn w).
Proof.
  intros H. induction H as [|t w Ht _ IH|w v _ IH1 _ IH2|w v _ IH1 _ IH2]; intros Hf.
  - apply nest_nil.
  - cbn [map]. apply nest_tok; [exact Ht|apply IH; part].
  - cbn [map]. rewrite (fits_token _ _ Hf) by discriminate. rewrite map_app. cbn [map].
    rewrite (fits_in R_BRACE _ Hf) by mem. apply nest_braces; [apply IH1; part|apply IH2; part].
  - cbn [map]. rewrite (fits_token _ _ Hf) by discriminate. rewrite map_app. cbn [map].
    rewrite (fits_in R_PAREN _ Hf) by mem. apply nest_parens; [apply IH1; part|apply IH2; part].
Qed.
Lemma value_subst w v : value_syntax w v -> fits w -> exists v', value_syntax (map rn w) v' /\ subst_value to v v'.
Proof.
  intros [t Ht|u Hu] Hf.
  - exists (to (t_text t)). split; [exact (VS_simple (rn t) Ht)|]. exists [t]. split; reflexivity.
  - exists (text (map rn (L_BRACE :: u ++ [R_BRACE]))). split; [|exists (L_BRACE :: u ++ [R_BRACE]); split; reflexivity].
    cbn [map]. rewrite map_app. cbn [map]. rewrite (fits_token _ _ Hf) by discriminate.
    rewrite (fits_in R_BRACE _ Hf) by mem. apply VS_braces. apply nested_renamed; [exact Hu|part].
Qed.
Lemma endpoint_subst t s : endpoint_syntax t s -> fits [t] -> endpoint_syntax (rn t) (to s).
Proof.
  intros [t' Ht| |] Hf; [exact (EP_value (rn t') Ht)| |];
    pose proof (fits_token _ _ Hf ltac:(discriminate)) as E; rewrite E; apply (f_equal t_text) in E; cbn in E; rewrite E; apply EP_min || apply EP_max.
Qed.
Lemma dots_subst w a b : dots_syntax w a b -> fits w -> map rn w = w.
Proof. intros [] Hf; cbn [map]; fixed; reflexivity. Qed.
Lemma version_subst w : version_syntax w -> fits w -> map rn w = w.
Proof. intros [] Hf; cbn [map]; fixed; reflexivity. Qed.
Lemma presence_subst w o d : presence_syntax w o d -> fits w -> exists d', presence_syntax (map rn w) o d' /\ subst_option (subst_value to) d d'.
Proof.
  intros [ | |u v Hv] Hf.
  - exists None. split; constructor.
  - cbn [map]. fixed. exists None. split; constructor.
  - destruct (value_subst u v Hv) as (v' & H1 & H2); [part|]. exists (Some v'). cbn [map]. fixed. split; now constructor.
Qed.
Lemma number_subst x w n : number_syntax w n -> value_name x -> fits (I x :: w) -> exists n', number_syntax (map rn w) n' /\ subst_number to n n'.
Proof.
  intros [s|r Hr] Hx Hf.
  - exists (Number s). split; [|constructor]. apply fits_tail in Hf. cbn [map]. fixed. constructor.
  - exists (ValueRef (to r)). split; [|constructor].
    assert (Hv : value_name (to r)). { destruct Hf as (_ & _ & _ & H). exact (proj2 (H [] x (I r) [R_PAREN] eq_refl Hx) Hr eq_refl). }
    apply fits_tail in Hf. cbn [map]. rewrite (fits_token _ _ Hf) by discriminate. apply fits_tail, fits_tail in Hf. rewrite (fits_token _ _ Hf) by discriminate.
    rewrite rn_identifier. now apply NS_reference.
Qed.
Lemma number_kept x w n : number_syntax w n -> value_name x -> fits (I x :: w) -> kept x.
Proof. intros [s|r Hr] Hx (_ & _ & _ & H); [exact (proj1 (H [] x (N s) [R_PAREN] eq_refl Hx))|exact (proj1 (H [] x (I r) [R_PAREN] eq_refl Hx))]. Qed.
Lemma rn_kept x : kept x -> rn (I x) = I x.
Proof. intros H. rewrite rn_identifier. now rewrite H. Qed.
Lemma named_subst w n : named_syntax w n -> fits w -> exists n', named_syntax (map rn w) n'.
Proof.
  intros [x u m Hx Hm] Hf. destruct (number_subst x u m Hm Hx Hf) as (m' & H1 & _). exists (x, m'). cbn [map].
  rewrite (rn_kept x) by exact (number_kept x u m Hm Hx Hf). now apply NaS.
Qed.
Lemma enum_subst w e : enum_item_syntax w e -> fits w -> kept (ev_name e) -> exists e', enum_item_syntax (map rn w) e' /\ subst_enum to e e'.
Proof.
  intros [x Hx|x u n Hx Hn] Hf Hk; cbn [ev_name] in Hk; cbn [map]; rewrite (rn_kept x Hk).
  - exists (mkEnumValue x None). split; [now apply ES_plain|]. repeat constructor.
  - destruct (number_subst x u n Hn Hx Hf) as (n' & H1 & H2). exists (mkEnumValue x (Some n')). split; [now apply ES_number|]. now repeat constructor.
Qed.
Lemma named_list_subst w : named_list_syntax w -> fits w -> named_list_syntax (map rn w).
Proof.
  intros [|u l Hl] Hf; [apply NLS_none|].
  destruct (separated_subst _ comma named_syntax (fun _ _ => True) (fun _ => True) u l comma_other Hl) as (l' & H & _).
  - intros v a _ Ha Hv _. destruct (named_subst v a Ha Hv) as (a' & Ha'). now exists a'.
  - part.
  - apply any_ok.
  - cbn [map]. rewrite map_app. cbn [map]. rewrite (fits_token _ _ Hf) by discriminate.
    rewrite (fits_in R_BRACE _ Hf) by mem. now apply (NLS_some _ l').
Qed.
Lemma enums_subst w l : enum_items_syntax w l -> fits w -> Forall kept (map ev_name l) ->
  exists l', enum_items_syntax (map rn w) l' /\ Forall2 (subst_enum to) l l'.
Proof.
  intros H Hf Hk. apply (separated_subst _ comma enum_item_syntax (subst_enum to) (fun e => kept (ev_name e)) w l comma_other H).
  - intros v a _. apply enum_subst.
  - exact Hf.
  - now rewrite Forall_map in Hk.
Qed.
Lemma builtin_subst w b : builtin_syntax w b -> fits w ->
  Forall kept (match b with BEnumerated root _ ext => map ev_name (root ++ ext) | _ => [] end) ->
  exists b', builtin_syntax (map rn w) b' /\ subst_builtin to b b'.
Proof.
  intros H Hf Hk. destruct H as [ | |u Hu|u Hu| | | |s Hs|u root Hr|u root Hr|u root v ext Hr He].
  - exists BBoolean. cbn [map]. fixed. split; [constructor|now apply Su_builtin].
  - exists BNull. cbn [map]. fixed. split; [constructor|now apply Su_builtin].
  - exists BInteger. cbn [map]. fixed. split; [apply BS_integer; now apply named_list_subst|now apply Su_builtin].
  - exists BBitString. cbn [map]. fixed. split; [apply BS_bits; now apply named_list_subst|now apply Su_builtin].
  - exists BOctetString. cbn [map]. fixed. split; [constructor|now apply Su_builtin].
  - exists BObjectIdentifier. cbn [map]. fixed. split; [constructor|now apply Su_builtin].
  - exists (BCharacterString "CHARACTER-STRING"). cbn [map]. fixed. split; [constructor|now apply Su_builtin].
  - exists (BCharacterString s). cbn [map]. fixed. split; [now constructor|now apply Su_builtin].
  - rewrite app_nil_r in Hk. destruct (enums_subst u root Hr) as (root' & H1 & H2); [part|exact Hk|].
    exists (BEnumerated root' false []). cbn [map]. rewrite map_app. cbn [map]. rewrite (fits_in R_BRACE _ Hf) by mem.
    fixed. split; [now apply BS_enumerated|now apply Su_enumerated].
  - rewrite app_nil_r in Hk. destruct (enums_subst u root Hr) as (root' & H1 & H2); [part|exact Hk|].
    exists (BEnumerated root' true []). cbn [map]. rewrite map_app. cbn [map].
    rewrite (fits_in R_BRACE _ Hf) by mem.
    rewrite (fits_in COMMA _ Hf) by mem.
    rewrite (fits_in DOTS _ Hf) by mem.
    fixed. split; [now apply BS_enumerated_open|now apply Su_enumerated].
  - rewrite map_app, Forall_app in Hk. destruct Hk as [Hk1 Hk2].
    destruct (enums_subst u root Hr) as (root' & H1 & H2); [part|exact Hk1|].
    destruct (enums_subst v ext He) as (ext' & H3 & H4); [part|exact Hk2|].
    exists (BEnumerated root' true ext'). cbn [map]. rewrite map_app. cbn [map]. rewrite map_app. cbn [map].
    rewrite (fits_in R_BRACE _ Hf) by mem.
    rewrite (fits_in COMMA _ Hf) by mem.
    rewrite (fits_in DOTS _ Hf) by mem.
    fixed. split; [now apply BS_enumerated_more|now apply Su_enumerated].
Qed.
Lemma param_subst w p : param_syntax w p -> fits w -> exists p', param_syntax (map rn w) p' /\ subst_param to p p'.
Proof.
  intros [t Ht|t Ht] Hf.
  - exists (PSingle (to (t_text t))). split; [exact (PaS_single (rn t) Ht)|constructor].
  - exists (PSet (to (t_text t))). split; [|constructor]. cbn [map]. rewrite (fits_token _ _ Hf) by discriminate.
    rewrite (fits_in R_BRACE _ Hf) by mem. exact (PaS_set (rn t) Ht).
Qed.
Lemma name_subst w r : name_syntax w r -> fits w -> exists r', name_syntax (map rn w) r' /\ subst_name to r r'.
Proof.
  intros [s Hs|m s Hm Hs] Hf.
  - exists (to s). split; [|constructor]. apply NmS_plain. eapply fits_type; eassumption.
  - exists (to m ++ "." ++ to s)%string. split; [|constructor]. cbn [map]. rewrite (fits_in DOT _ Hf) by mem.
    apply NmS_dotted; [eapply fits_type; eassumption|]. apply fits_tail, fits_tail in Hf. eapply fits_type; eassumption.
Qed.
Lemma reference_subst w r : reference_syntax w r -> fits w -> exists r', reference_syntax (map rn w) r' /\ subst_ref to r r'.
Proof.
  intros [u s Hu|c f Hc Hf'|u s v l Hu Hl] Hf.
  - destruct (name_subst u s Hu Hf) as (r' & H1 & H2). exists (RefName r'). split; now constructor.
  - exists (RefClassField (to c) f). split; [|constructor]. cbn [map]. rewrite (fits_in DOT _ Hf) by mem.
    assert (Hc' : class_name (to c)). { destruct Hf as (_ & _ & H & _). exact (H [] c f [] eq_refl Hc). }
    apply fits_tail, fits_tail in Hf. fixed. now apply RS_field.
  - destruct (name_subst u s Hu) as (r' & H1 & H2); [part|].
    destruct (separated_subst _ comma param_syntax (subst_param to) (fun _ => True) v l comma_other Hl) as (l' & H3 & H4).
    + intros v0 a _ Ha Hv _. now apply param_subst.
    + part.
    + apply any_ok.
    + exists (RefParam r' l'). split; [|now constructor]. rewrite map_app. cbn [map]. rewrite map_app. cbn [map].
      rewrite (fits_in L_BRACE _ Hf) by mem.
      rewrite (fits_in R_BRACE _ Hf) by mem.
      now apply RS_params.
Qed.

Lemma Forall_flat A (f : A -> list string) l : Forall kept (flat_map f l) -> Forall (fun a => Forall kept (f a)) l.
Proof. induction l as [|a l IH]; intros H; [constructor|]. cbn in H. apply Forall_app in H as [H1 H2]. constructor; auto. Qed.
Lemma sequence_items_subst (R : seq_component -> seq_component -> Prop) items root groups ext : sequence_items items root groups ext ->
  forall items', Forall2 (fun i i' => match i, i' with Component c, Component c' => R c c' | Marker, Marker => True | Group l, Group l' => Forall2 R l l' | _, _ => False end) items items' ->
  exists root' groups', sequence_items items' root' groups' ext /\ Forall2 R root root' /\ Forall2 (Forall2 R) groups groups'.
Proof.
  assert (Hc : forall l l', Forall2 (fun i i' => match i, i' with Component c, Component c' => R c c' | Marker, Marker => True | Group l, Group l' => Forall2 R l l' | _, _ => False end) (map Component l) l' ->
    exists m, l' = map Component m /\ Forall2 R l m).
  { induction l as [|c l IH]; intros l' H; inversion H as [|? y ? ys Hy Hys]; subst; [exists []; split; [reflexivity|constructor]|].
    destruct y; try contradiction. destruct (IH _ Hys) as (m & -> & Hm). exists (c0 :: m). split; [reflexivity|now constructor]. }
  assert (Hg : forall l l', Forall2 (fun i i' => match i, i' with Component c, Component c' => R c c' | Marker, Marker => True | Group l, Group l' => Forall2 R l l' | _, _ => False end) (map Group l) l' ->
    exists m, l' = map Group m /\ Forall2 (Forall2 R) l m).
  { induction l as [|c l IH]; intros l' H; inversion H as [|? y ? ys Hy Hys]; subst; [exists []; split; [reflexivity|constructor]|].
    destruct y; try contradiction. destruct (IH _ Hys) as (m & -> & Hm). exists (l0 :: m). split; [reflexivity|now constructor]. }
  intros [root0|root0 groups0|root0 groups0 root2] items' H.
  - destruct (Hc _ _ H) as (m & -> & Hm). exists m, []. split; [constructor|]. split; [exact Hm|constructor].
  - apply Forall2_app_inv_l in H as (a & b & Ha & Hb & ->). destruct (Hc _ _ Ha) as (m & -> & Hm).
    inversion Hb as [|? y ? ys Hy Hys]; subst. destruct y; try contradiction. destruct (Hg _ _ Hys) as (g & -> & Hgs).
    exists m, g. split; [constructor|]. now split.
  - apply Forall2_app_inv_l in H as (a & b & Ha & Hb & ->). destruct (Hc _ _ Ha) as (m & -> & Hm).
    inversion Hb as [|? y ? ys Hy Hys]; subst. destruct y; try contradiction.
    apply Forall2_app_inv_l in Hys as (a2 & b2 & Ha2 & Hb2 & ->). destruct (Hg _ _ Ha2) as (g & -> & Hgs).
    inversion Hb2 as [|? y ? ys Hy2 Hys2]; subst. destruct y; try contradiction. destruct (Hc _ _ Hys2) as (m2 & -> & Hm2).
    exists (m ++ m2), g. split; [constructor|]. split; [now apply Forall2_app|exact Hgs].
Qed.
Lemma choice_items_subst (R : string * asn_type -> string * asn_type -> Prop) items root additions : choice_items items root additions ->
  forall items', Forall2 (fun i i' => match i, i' with Component c, Component c' => R c c' | Marker, Marker => True | Group l, Group l' => Forall2 R l l' | _, _ => False end) items items' ->
  exists root' additions', choice_items items' root' additions' /\ Forall2 R root root' /\ subst_option (Forall2 (Forall2 R)) additions additions'.
Proof.
  assert (Hc : forall l l', Forall2 (fun i i' => match i, i' with Component c, Component c' => R c c' | Marker, Marker => True | Group l, Group l' => Forall2 R l l' | _, _ => False end) (map Component l) l' ->
    exists m, l' = map Component m /\ Forall2 R l m).
  { induction l as [|c l IH]; intros l' H; inversion H as [|? y ? ys Hy Hys]; subst; [exists []; split; [reflexivity|constructor]|].
    destruct y; try contradiction. destruct (IH _ Hys) as (m & -> & Hm). exists (c0 :: m). split; [reflexivity|now constructor]. }
  assert (Hg : forall l l', Forall2 (fun i i' => match i, i' with Component c, Component c' => R c c' | Marker, Marker => True | Group l, Group l' => Forall2 R l l' | _, _ => False end) (map Group l) l' ->
    exists m, l' = map Group m /\ Forall2 (Forall2 R) l m).
  { induction l as [|c l IH]; intros l' H; inversion H as [|? y ? ys Hy Hys]; subst; [exists []; split; [reflexivity|constructor]|].
    destruct y; try contradiction. destruct (IH _ Hys) as (m & -> & Hm). exists (l0 :: m). split; [reflexivity|now constructor]. }
  intros [root0|root0 groups0|root0 groups0 more Hne] items' H.
  - destruct (Hc _ _ H) as (m & -> & Hm). exists m, None. split; [constructor|]. split; [exact Hm|constructor].
  - apply Forall2_app_inv_l in H as (a & b & Ha & Hb & ->). destruct (Hc _ _ Ha) as (m & -> & Hm).
    inversion Hb as [|? y ? ys Hy Hys]; subst. destruct y; try contradiction. destruct (Hg _ _ Hys) as (g & -> & Hgs).
    exists m, (Some g). split; [constructor|]. split; [exact Hm|now constructor].
  - apply Forall2_app_inv_l in H as (a & b & Ha & Hb & ->). destruct (Hc _ _ Ha) as (m & -> & Hm).
    inversion Hb as [|? y ? ys Hy Hys]; subst. destruct y; try contradiction.
    apply Forall2_app_inv_l in Hys as (a2 & b2 & Ha2 & Hb2 & ->). destruct (Hg _ _ Ha2) as (g & -> & Hgs).
    destruct (Hc _ _ Hb2) as (m2 & -> & Hm2).
    exists m, (Some (g ++ [m2])). split; [apply CI_open_more; destruct Hm2; [easy|discriminate]|]. split; [exact Hm|].
    constructor. apply Forall2_app; [exact Hgs|]. now repeat constructor.
Qed.

(* the names declared in what stands in a SEQUENCE or CHOICE *)
Definition declared_component (c : seq_component) : list string := match c with mkSeqComp id t _ _ => id :: declared_type t end.
Definition declared_alternative (c : string * asn_type) : list string := match c with (id, t) => id :: declared_type t end.
Definition declared_item {A} (f : A -> list string) (i : item A) : list string :=
  match i with Component c => f c | Marker => [] | Group l => flat_map f l end.
Lemma Forall_flat_item A (f : A -> list string) (l : list A) : Forall (fun a => Forall kept (f a)) l -> Forall (fun i => Forall kept (declared_item f i)) (map Component l).
Proof. intros H. rewrite Forall_map. exact H. Qed.
Lemma Forall_flat_groups A (f : A -> list string) (l : list (list A)) : Forall kept (flat_map (flat_map f) l) -> Forall (fun i => Forall kept (declared_item f i)) (map Group l).
Proof. intros H. rewrite Forall_map. now apply Forall_flat in H. Qed.
Lemma sequence_items_declared items root groups ext : sequence_items items root groups ext ->
  Forall kept (flat_map declared_component root ++ flat_map (flat_map declared_component) groups) ->
  Forall (fun i => Forall kept (declared_item declared_component i)) items.
Proof.
  intros [root0|root0 groups0|root0 groups0 root2] H; apply Forall_app in H as [H1 H2].
  - apply Forall_flat_item. now apply Forall_flat.
  - apply Forall_app. split; [apply Forall_flat_item; now apply Forall_flat|]. constructor; [constructor|]. now apply Forall_flat_groups.
  - rewrite flat_map_app in H1. apply Forall_app in H1 as [H1 H3].
    apply Forall_app. split; [apply Forall_flat_item; now apply Forall_flat|]. constructor; [constructor|].
    apply Forall_app. split; [now apply Forall_flat_groups|]. constructor; [constructor|]. apply Forall_flat_item. now apply Forall_flat.
Qed.
Lemma choice_items_declared items root additions : choice_items items root additions ->
  Forall kept (flat_map declared_alternative root ++ match additions with Some gs => flat_map (flat_map declared_alternative) gs | None => [] end) ->
  Forall (fun i => Forall kept (declared_item declared_alternative i)) items.
Proof.
  intros [root0|root0 groups0|root0 groups0 more Hne] H; apply Forall_app in H as [H1 H2].
  - apply Forall_flat_item. now apply Forall_flat.
  - apply Forall_app. split; [apply Forall_flat_item; now apply Forall_flat|]. constructor; [constructor|]. now apply Forall_flat_groups.
  - rewrite flat_map_app in H2. apply Forall_app in H2 as [H2 H3]. cbn in H3. rewrite app_nil_r in H3.
    apply Forall_app. split; [apply Forall_flat_item; now apply Forall_flat|]. constructor; [constructor|].
    apply Forall_app. split; [now apply Forall_flat_groups|]. apply Forall_flat_item. now apply Forall_flat.
Qed.

Definition P_type n := forall w t, (List.length w <= n)%nat -> type_syntax w t -> fits w -> Forall kept (declared_type t) ->
  exists t', type_syntax (map rn w) t' /\ subst_type to t t'.
Definition P_set n := forall w s, (List.length w <= n)%nat -> set_syntax w s -> fits w -> Forall kept (declared_set s) ->
  exists s', set_syntax (map rn w) s' /\ subst_set to s s'.
Lemma element_subst n : P_type n -> P_set n -> forall w e, (List.length w <= n)%nat -> element_syntax w e -> fits w -> Forall kept (declared_element e) ->
  exists e', element_syntax (map rn w) e' /\ subst_element to e e'.
Proof.
  intros IHt IHs w e Hl H Hf Hk. destruct H as [w v Hv|l lo w li hi_in u hi Hlo Hd Hhi|w s Hs|w s Hs|w s Hs|k w t Ht].
  - destruct (value_subst w v Hv Hf) as (v' & H1 & H2). exists (ESingle v'). split; now constructor.
  - exists (ERange (to lo) li (to hi) hi_in). split; [|constructor]. cbn [map]. rewrite map_app. cbn [map].
    rewrite (dots_subst w li hi_in Hd) by part. apply El_range; [apply endpoint_subst; [exact Hlo|apply (fits_left [l] (w ++ [u])); exact Hf]|exact Hd|].
    apply endpoint_subst; [exact Hhi|part].
  - destruct (IHs w s) as (s' & H1 & H2); [lens|exact Hs|part|exact Hk|]. exists (ESize s'). cbn [map]. fixed. split; now constructor.
  - destruct (IHs w s) as (s' & H1 & H2); [lens|exact Hs|part|exact Hk|]. exists (EAlphabet s'). cbn [map]. fixed. split; now constructor.
  - destruct (IHs w s Hl Hs Hf Hk) as (s' & H1 & H2). exists (ESet s'). split; now constructor.
  - destruct (IHt (K k :: w) t Hl Ht Hf Hk) as (t' & H1 & H2). exists (ESubtype t'). cbn [map] in *. rewrite (fits_token _ _ Hf) in * by discriminate.
    split; now constructor.
Qed.
Lemma union_subst n : P_type n -> P_set n -> forall w u, (List.length w <= n)%nat -> separated bar (separated caret element_syntax) w u -> fits w ->
  Forall kept (flat_map (flat_map declared_element) u) ->
  exists u', separated bar (separated caret element_syntax) (map rn w) u' /\ Forall2 (Forall2 (subst_element to)) u u'.
Proof.
  intros IHt IHs w u Hl H Hf Hk.
  apply (separated_subst _ bar (separated caret element_syntax) (Forall2 (subst_element to)) (fun l => Forall kept (flat_map declared_element l)) w u bar_other H); [|exact Hf|now apply Forall_flat].
  intros v l Hv Hvl Hfv Hkl.
  apply (separated_subst _ caret element_syntax (subst_element to) (fun e => Forall kept (declared_element e)) v l caret_other Hvl); [|exact Hfv|now apply Forall_flat].
  intros v' e Hv' He Hfe Hke. apply (element_subst n); try assumption. lia.
Qed.
Lemma set_subst n : P_type n -> P_set n -> P_set (S n).
Proof.
  intros IHt IHs w s Hl H Hf Hk. destruct H as [w u Hu|w u Hu|w u v a Hu Ha]; cbn [declared_set] in Hk; apply Forall_app in Hk as [Hk1 Hk2].
  - destruct (union_subst n IHt IHs w u) as (u' & H1 & H2); [lens|exact Hu|part|exact Hk1|].
    exists (mkSet u' None). split; [|now repeat constructor]. cbn [map]. rewrite map_app. cbn [map].
    rewrite (fits_in R_PAREN _ Hf) by mem. rewrite (fits_token _ _ Hf) by discriminate. now apply SS_closed.
  - destruct (union_subst n IHt IHs w u) as (u' & H1 & H2); [lens|exact Hu|part|exact Hk1|].
    exists (mkSet u' (Some [])). split; [|now repeat constructor]. cbn [map]. rewrite map_app. cbn [map].
    rewrite (fits_in R_PAREN _ Hf), (fits_in COMMA _ Hf), (fits_in DOTS _ Hf) by mem. rewrite (fits_token _ _ Hf) by discriminate. now apply SS_open.
  - destruct (union_subst n IHt IHs w u) as (u' & H1 & H2); [lens|exact Hu|part|exact Hk1|].
    destruct (union_subst n IHt IHs v a) as (a' & H3 & H4); [lens|exact Ha|part|exact Hk2|].
    exists (mkSet u' (Some a')). split; [|now repeat constructor]. cbn [map]. rewrite map_app. cbn [map]. rewrite map_app. cbn [map].
    rewrite (fits_in R_PAREN _ Hf), (fits_in COMMA _ Hf), (fits_in DOTS _ Hf) by mem. rewrite (fits_token _ _ Hf) by discriminate. now apply SS_more.
Qed.
Lemma constraint_subst n w c : P_set n -> (List.length w <= n)%nat -> constraint_syntax w c -> fits w -> Forall kept (declared_constraint c) ->
  exists c', constraint_syntax (map rn w) c' /\ subst_constraint to c c'.
Proof.
  intros IHs Hl H Hf Hk. destruct H as [w s Hs|s a Hs|r Hr].
  - destruct (IHs w s Hl Hs Hf Hk) as (s' & H1 & H2). exists (CSubtype s'). split; now constructor.
  - exists (CTable (TableRelation (to s) a)). split; [|constructor].
    assert (Hs' : type_name (to s)). { pose proof (fits_tail _ _ (fits_tail _ _ Hf)) as Hf'. exact (fits_type _ _ Hf' Hs). }
    cbn [map]. rewrite rn_identifier. rewrite (fits_in R_PAREN _ Hf), (fits_in L_PAREN _ Hf), (fits_in R_BRACE _ Hf), (fits_in L_BRACE _ Hf), (fits_in (mkTok AtComponentIdList a) _ Hf) by mem.
    now apply CS_table.
  - exists CContents. split; [|constructor].
    assert (Hs' : type_name (to r)). { pose proof (fits_tail _ _ (fits_tail _ _ Hf)) as Hf'. exact (fits_type _ _ Hf' Hr). }
    cbn [map]. rewrite rn_identifier. rewrite (fits_in R_PAREN _ Hf), (fits_in L_PAREN _ Hf), (fits_in (K "CONTAINING") _ Hf) by mem. now apply CS_containing.
Qed.
Lemma component_subst n w c : P_type n -> (List.length w <= S n)%nat -> seq_component_syntax w c -> fits w -> Forall kept (declared_component c) ->
  exists c', seq_component_syntax (map rn w) c' /\ subst_component to c c'.
Proof.
  intros IHt Hl H Hf Hk. destruct H as [id w t v o d Hid Ht Hp]. inversion Hk as [|? ? Hk1 Hk2]; subst.
  destruct (IHt w t) as (t' & H1 & H2); [lens|exact Ht|part|exact Hk2|]. destruct (presence_subst v o d Hp) as (d' & H3 & H4); [part|].
  exists (mkSeqComp id t' o d'). split; [|now constructor]. cbn [map]. rewrite map_app, (rn_kept id Hk1). now apply SC.
Qed.
Lemma alternative_subst n w c : P_type n -> (List.length w <= S n)%nat -> choice_component_syntax w c -> fits w -> Forall kept (declared_alternative c) ->
  exists c', choice_component_syntax (map rn w) c' /\ subst_alternative to c c'.
Proof.
  intros IHt Hl H Hf Hk. destruct H as [id w t Hid Ht]. inversion Hk as [|? ? Hk1 Hk2]; subst.
  destruct (IHt w t) as (t' & H1 & H2); [lens|exact Ht|part|exact Hk2|].
  exists (id, t'). split; [|now constructor]. cbn [map]. rewrite (rn_kept id Hk1). now apply CC.
Qed.
Notation same_item R := (fun i i' => match i, i' with Component c, Component c' => R c c' | Marker, Marker => True | Group l, Group l' => Forall2 R l l' | _, _ => False end).
Lemma seq_item_subst n w i : P_type n -> (List.length w <= S n)%nat -> seq_item_syntax w i -> fits w -> Forall kept (declared_item declared_component i) ->
  exists i', seq_item_syntax (map rn w) i' /\ same_item (subst_component to) i i'.
Proof.
  intros IHt Hl H Hf Hk. destruct H as [w c Hc| |v w l Hv Hw].
  - destruct (component_subst n w c IHt Hl Hc Hf Hk) as (c' & H1 & H2). exists (Component c'). split; [now constructor|exact H2].
  - exists Marker. split; [|exact Logic.I]. cbn [map]. fixed. constructor.
  - destruct (separated_subst _ comma seq_component_syntax (subst_component to) (fun c => Forall kept (declared_component c)) w l comma_other Hw) as (l' & H1 & H2).
    + intros u c Hu. apply (component_subst n); [exact IHt|lens].
    + part.
    + now apply Forall_flat.
    + exists (Group l'). split; [|exact H2]. cbn [map]. rewrite !map_app. cbn [map]. rewrite (version_subst v Hv) by part.
      rewrite (fits_in R_GROUP _ Hf) by mem. rewrite (fits_token _ _ Hf) by discriminate. now apply SIS_group.
Qed.
Lemma choice_item_subst n w i : P_type n -> (List.length w <= S n)%nat -> choice_item_syntax w i -> fits w -> Forall kept (declared_item declared_alternative i) ->
  exists i', choice_item_syntax (map rn w) i' /\ same_item (subst_alternative to) i i'.
Proof.
  intros IHt Hl H Hf Hk. destruct H as [w c Hc| |v w l Hv Hw].
  - destruct (alternative_subst n w c IHt Hl Hc Hf Hk) as (c' & H1 & H2). exists (Component c'). split; [now constructor|exact H2].
  - exists Marker. split; [|exact Logic.I]. cbn [map]. fixed. constructor.
  - destruct (separated_subst _ comma choice_component_syntax (subst_alternative to) (fun c => Forall kept (declared_alternative c)) w l comma_other Hw) as (l' & H1 & H2).
    + intros u c Hu. apply (alternative_subst n); [exact IHt|lens].
    + part.
    + now apply Forall_flat.
    + exists (Group l'). split; [|exact H2]. cbn [map]. rewrite !map_app. cbn [map]. rewrite (version_subst v Hv) by part.
      rewrite (fits_in R_GROUP _ Hf) by mem. rewrite (fits_token _ _ Hf) by discriminate. now apply CIS_group.
Qed.
Lemma kind_subst n w k : P_type n -> (List.length w <= S n)%nat -> kind_syntax w k -> fits w -> Forall kept (declared_type (mkType k (Some []))) ->
  exists k', kind_syntax (map rn w) k' /\ subst_kind to k k'.
Proof.
  intros IHt Hl H Hf Hk. cbn [declared_type flat_map] in Hk. rewrite app_nil_r in Hk.
  destruct H as [w b Hb|w r Hr| |w items root groups ext Hi Hx|w items root additions Hi Hx].
  - destruct (builtin_subst w b Hb Hf) as (b' & H1 & H2); [destruct b; exact Hk|]. exists (KBuiltin b'). split; now constructor.
  - destruct (reference_subst w r Hr Hf) as (r' & H1 & H2). exists (KReference r'). split; now constructor.
  - exists (KSequence [] [] false). cbn [map]. fixed. split; [constructor|]. now repeat constructor.
  - pose proof (sequence_items_declared _ _ _ _ Hx Hk) as Hki.
    destruct (separated_subst _ comma seq_item_syntax (same_item (subst_component to)) (fun i => Forall kept (declared_item declared_component i)) w items comma_other Hi) as (items' & H1 & H2).
    + intros u i Hu. apply (seq_item_subst n); [exact IHt|lens].
    + part.
    + exact Hki.
    + destruct (sequence_items_subst _ _ _ _ _ Hx items' H2) as (root' & groups' & H3 & H4 & H5).
      exists (KSequence root' groups' ext). split; [|now constructor]. cbn [map]. rewrite map_app. cbn [map].
      rewrite (fits_in R_BRACE _ Hf), (fits_in L_BRACE _ Hf) by mem. rewrite (fits_token _ _ Hf) by discriminate. now apply (KS_sequence _ items').
  - pose proof (choice_items_declared _ _ _ Hx Hk) as Hki.
    destruct (separated_subst _ comma choice_item_syntax (same_item (subst_alternative to)) (fun i => Forall kept (declared_item declared_alternative i)) w items comma_other Hi) as (items' & H1 & H2).
    + intros u i Hu. apply (choice_item_subst n); [exact IHt|lens].
    + part.
    + exact Hki.
    + destruct (choice_items_subst _ _ _ _ Hx items' H2) as (root' & additions' & H3 & H4 & H5).
      exists (KChoice root' additions'). split; [|now constructor]. cbn [map]. rewrite map_app. cbn [map].
      rewrite (fits_in R_BRACE _ Hf), (fits_in L_BRACE _ Hf) by mem. rewrite (fits_token _ _ Hf) by discriminate. now apply (KS_choice _ items').
Qed.
Lemma all_subst n : P_type n /\ P_set n.
Proof.
  induction n as [|n [IHt IHs]].
  { split; intros w x Hl H; (destruct w; [|cbn in Hl; lia]); [|now inversion H].
    exfalso. apply type_head in H as (y & u & E & _). discriminate. }
  assert (Hset : P_set (S n)) by now apply set_subst. split; [|exact Hset].
  intros w t Hl H Hf Hk. destruct H as [w k v cs Hk0 Hcs|v t Ht|w c v t Hc Ht].
  - assert (Hkk : Forall kept (declared_type (mkType k (Some []))) /\ Forall kept (flat_map declared_constraint cs)).
    { cbn [declared_type flat_map] in *. rewrite app_nil_r. now apply Forall_app in Hk. }
    destruct (kind_subst n w k IHt) as (k' & H1 & H2); [lens|exact Hk0|part|apply Hkk|].
    destruct (repeated_subst _ constraint_syntax (subst_constraint to) (fun c => Forall kept (declared_constraint c)) v cs Hcs) as (cs' & H3 & H4).
    + intros u c Hu. apply (constraint_subst (S n)); [exact Hset|lens].
    + part.
    + apply Forall_flat, Hkk.
    + exists (mkType k' (Some cs')). split; [|now constructor]. rewrite map_app. now apply TS_type.
  - cbn [declared_type flat_map] in Hk. rewrite app_nil_r in Hk. destruct (IHt v t) as (t' & H1 & H2); [lens|exact Ht|part|exact Hk|].
    exists (mkType (KSequenceOf None t') (Some [])). split; [|now repeat constructor]. cbn [map]. fixed. now apply TS_list.
  - cbn [declared_type flat_map] in Hk. rewrite app_nil_r in Hk. apply Forall_app in Hk as [Hk1 Hk2].
    destruct (IHt v t) as (t' & H1 & H2); [lens|exact Ht|part|exact Hk2|].
    destruct (constraint_subst (S n) w c Hset) as (c' & H3 & H4); [lens|exact Hc|part|exact Hk1|].
    exists (mkType (KSequenceOf (Some c') t') (Some [])). split; [|now repeat constructor]. cbn [map]. rewrite map_app. cbn [map].
    rewrite (fits_in (K "OF") _ Hf) by mem. rewrite (fits_token _ _ Hf) by discriminate. now apply TS_sized_list.
Qed.
Theorem type_subst w t : type_syntax w t -> fits w -> apart to t -> exists t', type_syntax (map rn w) t' /\ subst_type to t t'.
Proof. intros H Hf Hk. apply (proj1 (all_subst (List.length w)) w t (le_n _) H Hf Hk). Qed.
End Trees.

(* ------------------------------------------------------------------ *)
(* Definitions                                                         *)
(* ------------------------------------------------------------------ *)
Theorem C42_tokens_proof d formals w actuals : d_params d = Some (formals, w) -> List.length formals = List.length actuals -> in_sequence formals actuals ->
  apply_params d actuals = (t <-- parse_type (map (renamed (instead formals actuals)) w) ;; Ok (fst t)).
Proof. intros Hd Hl Hs. unfold apply_params. rewrite Hd, Hl, Nat.eqb_refl. cbv zeta. now rewrite sequential. Qed.
Theorem C42_instance_proof d formals w t actuals : d_params d = Some (formals, w) -> type_syntax w t ->
  List.length formals = List.length actuals -> in_sequence formals actuals -> fits (instead formals actuals) w -> apart (instead formals actuals) t ->
  exists t', apply_params d actuals = Ok t' /\ subst_type (instead formals actuals) t t'.
Proof.
  intros Hd Ht Hl Hs Hf Ha. destruct (type_subst _ w t Ht Hf Ha) as (t' & H1 & H2). exists t'. split; [|exact H2].
  rewrite (C42_tokens_proof d formals w actuals Hd Hl Hs).
  pose proof (parse_type_complete _ _ [] H1 Logic.I) as E. rewrite app_nil_r in E. now rewrite E.
Qed.
Theorem C42_number_proof d actuals : match d_params d with Some (formals, _) => List.length formals <> List.length actuals | None => True end ->
  apply_params d actuals = Err.
Proof.
  unfold apply_params. destruct (d_params d) as [[formals w]|]; [|reflexivity]. intros H. apply Nat.eqb_neq in H. now rewrite H.
Qed.
