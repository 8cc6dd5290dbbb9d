(* Histories of calls on a compiler object. *)
From Coq Require Import ZArith NArith List Bool String Ascii Lia Permutation.
Require Import Verif.Base Verif.Asn1Model Verif.GenModel Verif.ResolveModel Verif.TokenModel Verif.ParserModel Verif.ModuleModel Verif.DefinitionModel
  Verif.CompilerSpec Verif.ConstraintProofs Verif.GenProofs Verif.TopoProofs Verif.ObjectProofs Verif.ResolveProofs Verif.ModuleProofs Verif.RustCompileProofs
  Verif.OrderSpec Verif.OrderProofs Verif.LooseDefProofs Verif.SessionModel.
Import ListNotations.
Open Scope list_scope.
Open Scope Z_scope.

(* ------------------------------------------------------------------ *)
(* Resolvers that say the same                                         *)
(* ------------------------------------------------------------------ *)
Definition alike (st st' : resolver) : Prop :=
  resolved_defs st = resolved_defs st' /\ parameterized_defs st = parameterized_defs st' /\ forall k, lookup k (classes st) = lookup k (classes st').
Lemma instantiate_alike E : forall depth st st', alike st st' -> instantiate E depth st = instantiate E depth st'.
Proof.
  intros depth st st' (H1 & H2 & _). destruct st as [d p c], st' as [d' p' c']. cbn in H1, H2. subst.
  destruct depth as [|n]; [reflexivity|]. change (instantiate E (S n) (mkResolver d' p' c) = instantiate E (S n) (mkResolver d' p' c')).
  assert (G : forall n, instantiate E n (mkResolver d' p' c) = instantiate E n (mkResolver d' p' c')).
  { clear. induction n as [|n IH]; [reflexivity|]. cbn [instantiate parameterized_defs resolved_defs]. now rewrite IH. }
  apply G.
Qed.
Lemma definition_alike E depth fuel st st' a : alike st st' ->
  resolve_definition E (instantiate E depth) fuel st a = resolve_definition E (instantiate E depth) fuel st' a.
Proof.
  intros H. pose proof (instantiate_alike E depth _ _ H) as Hi. destruct H as (H1 & H2 & H3).
  unfold resolve_definition. rewrite Hi, H1. destruct a; try reflexivity. now rewrite H3.
Qed.
Lemma one_alike E depth fuel m st st' k F : alike st st' -> resolve_one E (instantiate E depth) fuel m st k = Ok F ->
  exists F', resolve_one E (instantiate E depth) fuel m st' k = Ok F' /\ alike F F'.
Proof.
  intros Ha. pose proof Ha as (H1 & H2 & H3). unfold resolve_one. destruct (lookup k (m_defs m)) as [d|]; [|intros H; injection H as <-; eauto].
  destruct (d_params d).
  { intros H. injection H as <-. eexists. split; [reflexivity|]. repeat split; cbn [resolved_defs parameterized_defs classes]; congruence. }
  destruct (d_kind d) eqn:Hk; try (rewrite <- (definition_alike E depth fuel _ _ _ Ha); intros H; apply rbind_inv in H; destruct H as (r & Hr & H); rewrite Hr;
    cbn [rbind]; injection H as <-; eexists; (split; [reflexivity|]); repeat split; cbn [resolved_defs parameterized_defs classes]; congruence).
  intros H. injection H as <-. eexists. split; [reflexivity|]. repeat split; cbn [resolved_defs parameterized_defs classes]; try congruence.
  intros x. rewrite !lookup_replace. now rewrite H3.
Qed.
Lemma each_rfold E depth fuel m : forall o st F, resolve_each E depth fuel m o st = (F, Ok tt) <-> rfold (resolve_one E (instantiate E depth) fuel m) st o = Ok F.
Proof.
  induction o as [|k o IH]; intros st F; cbn [resolve_each rfold].
  - split; intros H; now injection H as <-.
  - destruct (resolve_one _ _ _ m st k) as [st'| | |]; cbn [rbind]; [apply IH|split; discriminate..].
Qed.
Lemma rfold_alike E depth fuel m : forall o st st' F, alike st st' -> rfold (resolve_one E (instantiate E depth) fuel m) st o = Ok F ->
  exists F', rfold (resolve_one E (instantiate E depth) fuel m) st' o = Ok F' /\ alike F F'.
Proof.
  induction o as [|k o IH]; intros st st' F Ha H; cbn [rfold] in *; [injection H as <-; eauto|].
  apply rbind_inv in H. destruct H as (s & Hs & H). destruct (one_alike _ _ _ _ _ _ _ _ Ha Hs) as (s' & Hs' & Ha'). rewrite Hs'. cbn [rbind]. eauto.
Qed.
Lemma alike_sym st st' : alike st st' -> alike st' st.
Proof. intros (H1 & H2 & H3). repeat split; congruence. Qed.
Lemma alike_trans st st' st'' : alike st st' -> alike st' st'' -> alike st st''.
Proof. intros (H1 & H2 & H3) (G1 & G2 & G3). repeat split; congruence. Qed.

(* ------------------------------------------------------------------ *)
(* Reading the objects of a module                                     *)
(* ------------------------------------------------------------------ *)
Definition lift_element (e : set_element) : live_element :=
  match e with OSetRef r => LSetRef r | OObjectRef r => LObjectRef r | OObject v => LObject (LRead v) end.
Lemma seen_lift l : map seen_element (map lift_element l) = l.
Proof. induction l as [|[] l IH]; cbn; congruence. Qed.
Lemma pop_unread num c : forall l done, 
  match rmap (element_from_class num c) l with
  | Ok es => pop_all num c (map live_element_of l) done = (done ++ map lift_element es, Ok tt)
  | _ => snd (pop_all num c (map live_element_of l) done) <> Ok tt
  end.
Proof.
  induction l as [|e l IH]; intros done; [cbn [rmap map pop_all]; now rewrite app_nil_r|]. rewrite rmap_cons. cbn [map pop_all].
  assert (He : match element_from_class num c e with Ok x => read_element num c (live_element_of e) = Ok (lift_element x)
    | Err => read_element num c (live_element_of e) = Err | Panic => read_element num c (live_element_of e) = Panic | Diverge => read_element num c (live_element_of e) = Diverge end).
  { destruct e as [r|r|s]; cbn [element_from_class live_element_of read_element lift_element read_object rbind]; try reflexivity.
    destruct (parse_object_from_class num s c); reflexivity. }
  destruct (element_from_class num c e) as [x| | |]; rewrite He; cbn [rbind]; try (cbn [snd]; discriminate).
  specialize (IH (done ++ [lift_element x])). destruct (rmap (element_from_class num c) l); cbn [rbind]; try exact IH.
  rewrite IH. cbn [map]. now rewrite <- app_assoc.
Qed.
Definition unread (p : parsed_def) : live_def := mkLive (live_kind_of (pd_kind p)) (pd_params p).
(* everything in it has been read *)
Definition is_read_element (e : live_element) : Prop := match e with LObject (LText _) => False | _ => True end.
Definition is_read (d : live_def) : Prop :=
  match l_kind d with
  | LKObject _ (LText _) => False
  | LKObjectSet _ root additional => Forall is_read_element root /\ Forall is_read_element additional
  | _ => True
  end.
Lemma lift_read l : Forall is_read_element (map lift_element l).
Proof. induction l as [|[] l IH]; constructor; cbn; tauto. Qed.
Lemma read_unread num classes p :
  match resolve_object_class num classes p with
  | Ok d => exists l, read_def num classes (unread p) = (l, Ok tt) /\ seen l = d /\ is_read l /\ l_params l = pd_params p /\
              (forall c, l_kind l = LKClass c <-> pd_kind p = PAClass c)
  | _ => snd (read_def num classes (unread p)) <> Ok tt
  end.
Proof.
  unfold resolve_object_class, read_def, unread. destruct p as [i k ps]. cbn [pd_kind pd_params l_kind l_params].
  destruct k as [t v|t|c|cls s|cls root more]; cbn [live_kind_of l_kind].
  - eexists; repeat split; cbn; intros; discriminate.
  - eexists; repeat split; cbn; intros; discriminate.
  - eexists; repeat split; cbn; intros; congruence.
  - destruct (lookup cls classes) as [c|]; [|cbn; discriminate]. cbn [read_object rbind]. destruct (parse_object_from_class num s c); cbn; try discriminate.
    eexists; repeat split; cbn; intros; discriminate.
  - destruct (lookup cls classes) as [c|]; [|cbn; discriminate]. rewrite <- !map_rev.
    pose proof (pop_unread num c (rev root) []) as Hr. destruct (rmap (element_from_class num c) (rev root)) as [r| | |]; cbn [rbind].
    + rewrite Hr. pose proof (pop_unread num c (rev more) []) as Hm. destruct (rmap (element_from_class num c) (rev more)) as [a| | |]; cbn [rbind].
      * rewrite Hm. cbn [app]. eexists; split; [reflexivity|]. split; [unfold seen; cbn [l_kind seen_kind l_params]; now rewrite !seen_lift|].
        split; [split; apply lift_read|]. split; [reflexivity|]. intros c'. split; discriminate.
      * destruct (pop_all num c (map live_element_of (rev more)) []). exact Hm.
      * destruct (pop_all num c (map live_element_of (rev more)) []). exact Hm.
      * destruct (pop_all num c (map live_element_of (rev more)) []). exact Hm.
    + destruct (pop_all num c (map live_element_of (rev root)) []) as [l [[]| | |]]; cbn in Hr |- *; congruence.
    + destruct (pop_all num c (map live_element_of (rev root)) []) as [l [[]| | |]]; cbn in Hr |- *; congruence.
    + destruct (pop_all num c (map live_element_of (rev root)) []) as [l [[]| | |]]; cbn in Hr |- *; congruence.
Qed.
Definition unread_defs (pm : parsed_module) : list (string * live_def) := map (fun kd => (fst kd, unread (snd kd))) (pm_defs pm).
(* a live module in which all has been read, seen as m *)
Definition reads (l : list (string * live_def)) (defs : list (string * definition)) : Prop :=
  Forall2 (fun x y => fst x = fst y /\ seen (snd x) = snd y /\ is_read (snd x)) l defs.
Lemma reads_seen l defs : reads l defs -> map (fun kd => (fst kd, seen (snd kd))) l = defs.
Proof. induction 1 as [|[k x] [k' y] l r (H1 & H2 & _) _ IH]; [reflexivity|]. cbn in *. congruence. Qed.
Lemma read_unread_defs num classes : forall l : list (string * parsed_def),
  match rmap (fun kd => d <-- resolve_object_class num classes (snd kd) ;; Ok (fst kd, d)) l with
  | Ok defs => exists ls, read_defs num classes (map (fun kd => (fst kd, unread (snd kd))) l) = (ls, Ok tt) /\ reads ls defs
  | _ => snd (read_defs num classes (map (fun kd => (fst kd, unread (snd kd))) l)) <> Ok tt
  end.
Proof.
  induction l as [|[k p] l IH]; [exists []; split; [reflexivity|constructor]|]. rewrite rmap_cons. cbn [fst snd map read_defs].
  pose proof (read_unread num classes p) as Hp. destruct (resolve_object_class num classes p) as [d| | |]; cbn [rbind].
  - destruct Hp as (x & Hx & H1 & H2 & _). rewrite Hx.
    destruct (rmap (fun kd => d0 <-- resolve_object_class num classes (snd kd) ;; Ok (fst kd, d0)) l) as [defs| | |]; cbn [rbind].
    + destruct IH as (ls & Hls & H). rewrite Hls. exists ((k, x) :: ls). split; [reflexivity|]. constructor; [|exact H]. cbn. now repeat split.
    + destruct (read_defs num classes _); exact IH.
    + destruct (read_defs num classes _); exact IH.
    + destruct (read_defs num classes _); exact IH.
  - destruct (read_def num classes (unread p)) as [x [[]| | |]]; cbn in Hp |- *; congruence.
  - destruct (read_def num classes (unread p)) as [x [[]| | |]]; cbn in Hp |- *; congruence.
  - destruct (read_def num classes (unread p)) as [x [[]| | |]]; cbn in Hp |- *; congruence.
Qed.

(* ------------------------------------------------------------------ *)
(* Classes                                                             *)
(* ------------------------------------------------------------------ *)
Lemma classes_live pm classes : resolve_classes (live_of pm) classes = classes_of pm classes.
Proof.
  unfold resolve_classes, classes_of, live_of. cbn [lm_defs]. generalize (pm_defs pm). intros l. revert classes.
  induction l as [|[k p] l IH]; intros classes; [reflexivity|]. cbn [map fold_left fst snd l_kind]. rewrite IH. now destruct (pd_kind p).
Qed.
Lemma lookup_class_fields k (cs : list (string * class)) :
  lookup k (map (fun kc => (fst kc, class_fields_of (snd kc))) cs) = option_map class_fields_of (lookup k cs).
Proof. induction cs as [|[k' c] cs IH]; [reflexivity|]. cbn [map lookup fst snd]. destruct (String.eqb k k'); [reflexivity|exact IH]. Qed.
(* the classes of a module, as the resolver and as the session note them *)
Lemma classes_alike num cls : forall (l : list (string * parsed_def)) defs,
  rmap (fun kd => d <-- resolve_object_class num cls (snd kd) ;; Ok (fst kd, d)) l = Ok defs ->
  forall cs cs', (forall k, lookup k cs = option_map class_fields_of (lookup k cs')) ->
  forall k, lookup k (fold_left (fun cs kd => match d_kind (snd kd) with DKClass f => replace (fst kd) f cs | _ => cs end) defs cs) =
    option_map class_fields_of (lookup k (fold_left (fun cs kd => match pd_kind (snd kd) with PAClass c => replace (fst kd) c cs | _ => cs end) l cs')).
Proof.
  induction l as [|[k0 p] l IH]; intros defs H cs cs' Hcs k; [injection H as <-; apply Hcs|]. rewrite rmap_cons in H. rsteps. cbn [fst snd fold_left].
  pose proof (read_unread num cls p) as Hp. cbn [snd] in *.
  match goal with H : resolve_object_class num cls p = Ok ?y |- _ => rewrite H in Hp; rename y into d end.
  destruct Hp as (ld & _ & Hs & _ & _ & Hc). apply IH; [assumption|]. intros x.
  destruct (pd_kind p) as [| |c| |] eqn:Hk; subst d; unfold seen; cbn [d_kind].
  3: { rewrite (proj2 (Hc c) eq_refl). cbn [seen_kind]. rewrite !lookup_replace. destruct (String.eqb x k0); [reflexivity|apply Hcs]. }
  all: assert (N : forall f, seen_kind (l_kind ld) <> DKClass f) by (intros f; destruct (l_kind ld) as [| |c0| |]; try discriminate; pose proof (proj1 (Hc c0) eq_refl); discriminate).
  all: destruct (seen_kind (l_kind ld)) eqn:Hsk; try (now apply Hcs); now destruct (N fields).
Qed.
Lemma class_kept (l : list (string * definition)) : NoDup (map fst l) -> forall cs k d f, In (k, d) l -> d_kind d = DKClass f ->
  lookup k (fold_left (fun cs kd => match d_kind (snd kd) with DKClass f => replace (fst kd) f cs | _ => cs end) l cs) = Some f.
Proof.
  assert (Hno : forall (l : list (string * definition)) cs k, ~ In k (map fst l) ->
    lookup k (fold_left (fun cs kd => match d_kind (snd kd) with DKClass f => replace (fst kd) f cs | _ => cs end) l cs) = lookup k cs).
  { clear. induction l as [|[k' d] l IH]; intros cs k Hk; [reflexivity|]. cbn [fold_left fst snd]. rewrite IH by (intros H; apply Hk; now right).
    destruct (d_kind d); try reflexivity. rewrite lookup_replace. destruct (String.eqb_spec k k') as [->|]; [|reflexivity]. destruct Hk. now left. }
  induction l as [|[k' d'] l IH]; intros Hnd cs k d f Hin Hk; [easy|]. cbn [map fst] in Hnd. inversion_clear Hnd as [|? ? Hn Hnd']. cbn [fold_left fst snd].
  destruct Hin as [Heq|Hin]; [|now apply (IH Hnd' _ k d f)]. injection Heq as -> ->. rewrite Hno by exact Hn. rewrite Hk, lookup_replace, String.eqb_refl. reflexivity.
Qed.
Lemma loop_classes E depth fuel m : NoDup (map fst (m_defs m)) -> forall o st F, (forall k d f, In (k, d) (m_defs m) -> d_kind d = DKClass f -> lookup k (classes st) = Some f) ->
  rfold (resolve_one E (instantiate E depth) fuel m) st o = Ok F -> forall k, lookup k (classes F) = lookup k (classes st).
Proof.
  intros Hnd. induction o as [|x o IH]; intros st F Hc H k; cbn [rfold] in H; [now injection H as <-|].
  apply rbind_inv in H. destruct H as (s & Hs & H).
  assert (Hsame : forall k, lookup k (classes s) = lookup k (classes st)).
  { intros y. unfold resolve_one in Hs. destruct (lookup x (m_defs m)) as [d|] eqn:Hl; [|now injection Hs as <-]. apply ObjectProofs.lookup_in in Hl.
    destruct (d_params d); [now injection Hs as <-|].
    destruct (d_kind d) eqn:Hk; try (apply rbind_inv in Hs; destruct Hs as (r & _ & Hs); now injection Hs as <-).
    injection Hs as <-. cbn [classes]. rewrite lookup_replace. destruct (String.eqb_spec y x) as [->|]; [|reflexivity]. symmetry. eapply Hc; eassumption. }
  rewrite <- (Hsame k). eapply IH; [|exact H]. intros k' d f Hin Hk. rewrite Hsame. eauto.
Qed.

(* ------------------------------------------------------------------ *)
(* A module that has not been read yet                                 *)
(* ------------------------------------------------------------------ *)
Section First.
Context (num : Z -> bool) (E : env) (depth fuel : nat).
Notation inst := (instantiate E depth).
Notation linked_defs classes pm := (rmap (fun kd => d <-- resolve_object_class num classes (snd kd) ;; Ok (fst kd, d)) (pm_defs pm)).
Lemma rmap_names classes : forall (l : list (string * parsed_def)) defs,
  rmap (fun kd => d <-- resolve_object_class num classes (snd kd) ;; Ok (fst kd, d)) l = Ok defs -> map fst defs = map fst l.
Proof.
  induction l as [|[k p] l IH]; intros defs H; [now injection H as <-|]. rewrite rmap_cons in H. rsteps. cbn [map fst]. f_equal. now apply IH.
Qed.
(* what the resolver knows when the definitions of the module are resolved *)
Definition prepared (a : string) (pm : parsed_module) (ls : list (string * live_def)) (c : compiler) : compiler :=
  with_modules (replace a (mkLiveModule (pm_imports pm) ls) (c_modules c)) (with_classes (classes_of pm (c_classes c)) c).
Lemma prepared_alike a pm ls defs c st : alike (resolver_of c) st -> linked_defs (classes_of pm (c_classes c)) pm = Ok defs ->
  alike (resolver_of (prepared a pm ls c)) (add_classes (mkModule (pm_imports pm) defs) st).
Proof.
  intros (H1 & H2 & H3) Hd. split; [exact H1|]. split; [exact H2|]. intros k. unfold prepared, resolver_of, add_classes.
  cbn [classes m_defs c_classes with_modules with_classes]. rewrite lookup_class_fields. symmetry. apply (classes_alike num _ _ _ Hd).
  intros x. rewrite <- H3. cbn [classes resolver_of]. apply lookup_class_fields.
Qed.
Lemma first_module a pm o c st : NoDup (map fst (pm_defs pm)) -> alike (resolver_of c) st -> forall c',
  resolve_module_call num E depth fuel a (live_of pm) o c = (c', Ok tt) <->
  exists defs ls F F', linked_defs (classes_of pm (c_classes c)) pm = Ok defs /\ reads ls defs /\
    resolve_module E inst fuel (mkModule (pm_imports pm) defs) o st = Ok F /\
    rfold (resolve_one E inst fuel (mkModule (pm_imports pm) defs)) (resolver_of (prepared a pm ls c)) o = Ok F' /\
    read_defs num (classes_of pm (c_classes c)) (unread_defs pm) = (ls, Ok tt) /\ c' = with_resolver F' (prepared a pm ls c) /\ alike (resolver_of c') F.
Proof.
  intros Hnd Ha c'. unfold resolve_module_call. rewrite classes_live. cbn [c_classes with_classes].
  change (lm_defs (live_of pm)) with (unread_defs pm). change (lm_imports (live_of pm)) with (pm_imports pm).
  pose proof (read_unread_defs num (classes_of pm (c_classes c)) (pm_defs pm)) as Hr. fold (unread_defs pm) in Hr.
  destruct (linked_defs (classes_of pm (c_classes c)) pm) as [defs| | |] eqn:Hd.
  2-4: (split; [|intros (? & ? & ? & ? & H & _); discriminate]); destruct (read_defs num (classes_of pm (c_classes c)) (unread_defs pm)) as [ls [[]| | |]]; cbn in Hr; (congruence || discriminate).
  destruct Hr as (ls & Hls & Hreads). rewrite Hls. fold (prepared a pm ls c).
  unfold seen_module. cbn [lm_imports lm_defs]. rewrite (reads_seen _ _ Hreads).
  change (with_modules (replace a {| lm_imports := pm_imports pm; lm_defs := ls |} (c_modules (with_classes (classes_of pm (c_classes c)) c)))
          (with_classes (classes_of pm (c_classes c)) c)) with (prepared a pm ls c).
  pose proof (prepared_alike a pm ls defs c st Ha Hd) as Hp. set (m := mkModule (pm_imports pm) defs) in *.
  assert (Hafter : forall F F', rfold (resolve_one E inst fuel m) (add_classes m st) o = Ok F -> rfold (resolve_one E inst fuel m) (resolver_of (prepared a pm ls c)) o = Ok F' -> alike F' F ->
    alike (resolver_of (with_resolver F' (prepared a pm ls c))) F).
  { intros F F' HF HF' (A1 & A2 & A3). split; [exact A1|]. split; [exact A2|]. intros k.
    assert (Hm : NoDup (map fst (m_defs m))) by (cbn [m_defs m]; rewrite (rmap_names _ _ _ Hd); exact Hnd).
    rewrite (loop_classes E depth fuel m Hm o (add_classes m st) F); [|intros k' d f Hin Hk; cbn [classes add_classes]; now apply (class_kept (m_defs m) Hm _ k' d f)|exact HF].
    destruct Hp as (_ & _ & Hp). rewrite <- Hp. reflexivity. }
  split.
  - destruct (resolve_each E depth fuel m o (resolver_of (prepared a pm ls c))) as [F' r] eqn:He. intros H. injection H as <- ->.
    apply each_rfold in He. destruct (rfold_alike _ _ _ _ _ _ _ _ Hp He) as (F & HF & HA).
    exists defs, ls, F, F'. split; [reflexivity|]. split; [exact Hreads|]. split; [exact HF|]. split; [exact He|]. split; [reflexivity|]. split; [reflexivity|].
    apply (Hafter F F' HF He HA).
  - intros (defs' & ls' & F & F' & H1 & H2 & H3 & H4 & H5 & H6 & H7). injection H1 as <-. injection H5 as <-. apply each_rfold in H4. fold m in H4.
    rewrite H4. now subst c'.
Qed.
Lemma prepared_complete a pm o c st defs F : NoDup (map fst (pm_defs pm)) -> alike (resolver_of c) st ->
  linked_defs (classes_of pm (c_classes c)) pm = Ok defs -> resolve_module E inst fuel (mkModule (pm_imports pm) defs) o st = Ok F ->
  exists c' ls F', resolve_module_call num E depth fuel a (live_of pm) o c = (c', Ok tt) /\ c' = with_resolver F' (prepared a pm ls c) /\ alike (resolver_of c') F.
Proof.
  intros Hnd Ha Hd HF. pose proof (read_unread_defs num (classes_of pm (c_classes c)) (pm_defs pm)) as Hr. fold (unread_defs pm) in Hr. rewrite Hd in Hr.
  destruct Hr as (ls & Hls & Hreads). pose proof (prepared_alike a pm ls defs c st Ha Hd) as Hp.
  destruct (rfold_alike _ _ _ _ _ _ _ _ (alike_sym _ _ Hp) HF) as (F' & HF' & HA).
  exists (with_resolver F' (prepared a pm ls c)), ls, F'.
  assert (alike (resolver_of (with_resolver F' (prepared a pm ls c))) F).
  { destruct HA as (A1 & A2 & A3). split; [now symmetry|]. split; [now symmetry|]. intros k. set (m := mkModule (pm_imports pm) defs) in *.
    assert (Hm : NoDup (map fst (m_defs m))) by (cbn [m_defs m]; rewrite (rmap_names _ _ _ Hd); exact Hnd).
    rewrite (loop_classes E depth fuel m Hm o (add_classes m st) F); [|intros k' d f Hin Hk; cbn [classes add_classes]; now apply (class_kept (m_defs m) Hm _ k' d f)|exact HF].
    destruct Hp as (_ & _ & Hp). rewrite <- Hp. reflexivity. }
  split; [|split; [reflexivity|assumption]]. apply (first_module a pm o c st Hnd Ha). exists defs, ls, F, F'. repeat split; assumption || apply H.
Qed.

(* ------------------------------------------------------------------ *)
(* All modules, none of which has been read yet                        *)
(* ------------------------------------------------------------------ *)
Context (parsed : list (string * parsed_module)).
Context (Hparsed : forall a pm, lookup a parsed = Some pm -> NoDup (map fst (pm_defs pm))).
Notation turn L := (fun st (no : string * list string) => match lookup (fst no) L with None => Panic | Some m => resolve_module E inst fuel m (snd no) st end).
Definition same_rest (c c' : compiler) : Prop := c_items c' = c_items c /\ c_generator c' = c_generator c.
Lemma all_fresh L : forall orders c st, NoDup (map fst orders) ->
  (forall a, In a (map fst orders) -> lookup a (c_modules c) = option_map live_of (lookup a parsed)) -> alike (resolver_of c) st ->
  (forall linked F, link num parsed (c_classes c) (map fst orders) = Ok linked -> (forall a m, In (a, m) linked -> lookup a L = Some m) -> rfold (turn L) st orders = Ok F ->
     exists c', resolve_modules_call num E depth fuel orders c = (c', Ok tt) /\ alike (resolver_of c') F /\ same_rest c c') /\
  (forall c', resolve_modules_call num E depth fuel orders c = (c', Ok tt) ->
     exists linked, link num parsed (c_classes c) (map fst orders) = Ok linked /\
       ((forall a m, In (a, m) linked -> lookup a L = Some m) -> exists F, rfold (turn L) st orders = Ok F /\ alike (resolver_of c') F) /\ same_rest c c').
Proof.
  induction orders as [|[a o] orders IH]; intros c st Hnd Hmods Ha.
  - split.
    + intros linked F _ _ H. injection H as <-. exists c. repeat split; apply Ha.
    + intros c' H. injection H as <-. exists []. split; [reflexivity|]. split; [|now split]. intros _. exists st. split; [reflexivity|exact Ha].
  - cbn [map fst link rfold resolve_modules_call] in *. inversion_clear Hnd as [|? ? Hn Hnd']. rewrite (Hmods a (or_introl eq_refl)).
    destruct (lookup a parsed) as [pm|] eqn:Hpm; cbn [option_map]; [|split; [intros linked F H; discriminate H|intros c' H; discriminate H]]. cbv zeta.
    pose proof (Hparsed _ _ Hpm) as Hpn.
    assert (Hnext : forall F ls, forall b, In b (map fst orders) -> lookup b (c_modules (with_resolver F (prepared a pm ls c))) = option_map live_of (lookup b parsed)).
    { intros F ls b Hb. cbn [prepared with_resolver with_modules c_modules with_classes]. rewrite lookup_replace.
      destruct (String.eqb_spec b a) as [->|]; [contradiction|]. apply Hmods. now right. }
    split.
    + intros linked F Hl HL HF. apply rbind_inv in Hl. destruct Hl as (defs & Hd & Hl). apply rbind_inv in Hl. destruct Hl as (rest & Hrest & Hl). injection Hl as <-.
      rewrite (HL a _ (or_introl eq_refl)) in HF. apply rbind_inv in HF. destruct HF as (st' & Hst & HF).
      destruct (prepared_complete a pm o c st defs st' Hpn Ha Hd Hst) as (c1 & ls & F1 & Hc1 & Heq & Ha1). rewrite Hc1.
      assert (Hcl : c_classes c1 = classes_of pm (c_classes c)) by now subst c1.
      destruct (IH c1 st' Hnd') as [IH1 _]; [intros b Hb; subst c1; now apply Hnext|exact Ha1|]. rewrite Hcl in IH1.
      destruct (IH1 rest F Hrest) as (c' & Hc' & Ha' & Hs1 & Hs2); [intros b m Hb; apply HL; now right|exact HF|].
      exists c'. split; [exact Hc'|]. split; [exact Ha'|]. subst c1. split; [exact Hs1|exact Hs2].
    + intros c' H. destruct (resolve_module_call num E depth fuel a (live_of pm) o c) as [c1 r] eqn:Hc1. destruct r as [[]| | |]; try discriminate.
      apply (first_module a pm o c st Hpn Ha) in Hc1. destruct Hc1 as (defs & ls & F1 & F1' & Hd & _ & HF1 & _ & _ & Heq & Ha1). rewrite Hd. cbn [rbind].
      assert (Hcl : c_classes c1 = classes_of pm (c_classes c)) by now subst c1.
      destruct (IH c1 F1 Hnd') as [_ IH2]; [intros b Hb; subst c1; now apply Hnext|exact Ha1|]. rewrite Hcl in IH2.
      destruct (IH2 c' H) as (rest & Hrest & HF & Hs1 & Hs2). rewrite Hrest. cbn [rbind]. eexists. split; [reflexivity|].
      split; [|subst c1; split; [exact Hs1|exact Hs2]].
      intros HL. cbn [fst snd]. rewrite (HL a _ (or_introl eq_refl)). cbv beta iota. rewrite HF1. cbn [rbind]. apply HF. intros b m Hb. apply HL. now right.
Qed.
End First.

(* ------------------------------------------------------------------ *)
(* The program hampi-asn1c                                             *)
(* ------------------------------------------------------------------ *)
Definition named_defs (pm : parsed_module) : Prop := NoDup (map fst (pm_defs pm)).
Lemma definitions_named n : forall defs ts r, NoDup (map fst defs) -> definitions_loop n defs ts = Ok r -> NoDup (map fst (fst r)).
Proof.
  induction n as [|n IH]; intros defs ts r Hn H; [discriminate|]. cbn [definitions_loop] in H. apply rbind_inv in H. destruct H as (stop & _ & H).
  destruct stop; [now injection H as <-|]. apply rbind_inv in H. destruct H as (d & _ & H). apply IH in H; [exact H|]. now apply LooseDefProofs.nodup_replace.
Qed.
Lemma parsed_named ts ms : parse ts = Ok ms -> Forall named_defs ms.
Proof.
  unfold parse. generalize (S (List.length (map tok_of (filter (fun t => negb (token_type_beq (tk_type t) Comment)) ts)))). intros n.
  generalize (map tok_of (filter (fun t => negb (token_type_beq (tk_type t) Comment)) ts)). intros l.
  assert (G : forall n l acc ms, Forall named_defs acc -> modules_loop n acc l = Ok ms -> Forall named_defs ms).
  { clear. induction n as [|n IH]; intros l acc ms Ha H; [discriminate|]. cbn [modules_loop] in H. apply rbind_inv in H. destruct H as (m & Hm & H).
    assert (Hs : Forall named_defs (acc ++ [fst m])).
    { apply Forall_app. split; [exact Ha|]. constructor; [|constructor]. unfold parse_module in Hm. rsteps. unfold named_defs. cbn [fst pm_defs].
      match goal with H : definitions_loop _ _ _ = _ |- _ => apply definitions_named in H; [exact H|constructor] end. }
    destruct (snd m); [now injection H as <-|]. exact (IH _ _ _ Hs H). }
  apply G. constructor.
Qed.
Definition lives (parsed : list (string * parsed_module)) : list (string * live_module) := map (fun nm => (fst nm, live_of (snd nm))) parsed.
Lemma lookup_lives a parsed : lookup a (lives parsed) = option_map live_of (lookup a parsed).
Proof. unfold lives. induction parsed as [|[k m] l IH]; [reflexivity|]. cbn [map fst snd lookup]. now destruct (String.eqb a k). Qed.
Lemma replace_lives a m parsed : replace a (live_of m) (lives parsed) = lives (replace a m parsed).
Proof. unfold lives. induction parsed as [|[k m'] l IH]; [reflexivity|]. cbn [map fst snd replace]. destruct (String.eqb a k); [reflexivity|]. cbn [map fst snd]. now rewrite IH. Qed.
Definition holding (parsed : list (string * parsed_module)) : compiler := mkCompiler (lives parsed) [] [] [] [] new_generator.
Lemma history_app num E depth fuel : forall x y c, (forall m, In m x -> exists pm, m = Add pm) ->
  fst (history num E depth fuel (x ++ y) c) = fst (history num E depth fuel y (fst (history num E depth fuel x c))).
Proof.
  induction x as [|m x IH]; intros y c H; [reflexivity|]. destruct (H m (or_introl eq_refl)) as (pm & ->). cbn [app history step add_call fst snd goes_on].
  specialize (IH y (with_modules (replace (pm_name pm) (live_of pm) (c_modules c)) c) (fun m Hm => H m (or_intror Hm))).
  destruct (history num E depth fuel (x ++ y) _) as [c1 l1]. destruct (history num E depth fuel x _) as [c2 l2]. exact IH.
Qed.
Lemma history_adds num E depth fuel : forall ms parsed,
  fst (history num E depth fuel (map Add ms) (holding parsed)) = holding (fold_left (fun acc m => replace (pm_name m) m acc) ms parsed).
Proof.
  induction ms as [|m ms IH]; intros parsed; [reflexivity|]. cbn [map history step add_call fst snd goes_on fold_left]. rewrite <- IH.
  change (with_modules (replace (pm_name m) (live_of m) (c_modules (holding parsed))) (holding parsed)) with
    (mkCompiler (replace (pm_name m) (live_of m) (lives parsed)) [] [] [] [] new_generator). rewrite replace_lives. fold (holding (replace (pm_name m) m parsed)).
  now destruct (history num E depth fuel (map Add ms) _).
Qed.
Definition fine_modules (parsed : list (string * parsed_module)) : Prop := NoDup (map fst parsed) /\ forall a pm, In (a, pm) parsed -> named_defs pm.
Lemma fine_replace m parsed : fine_modules parsed -> named_defs m -> fine_modules (replace (pm_name m) m parsed).
Proof.
  intros [H1 H2] Hm. split; [now apply LooseDefProofs.nodup_replace|]. intros a pm Hin. apply LooseDefProofs.in_replace in Hin; [|exact H1].
  destruct Hin as [[_ ->]|[_ Hin]]; [exact Hm|now apply (H2 a)].
Qed.
Lemma calls_files num E depth fuel : forall files parsed, fine_modules parsed ->
  match rfold (add_file num) parsed files with
  | Ok r => exists calls, add_calls num files = Ok calls /\ fst (history num E depth fuel calls (holding parsed)) = holding r /\ fine_modules r
  | _ => forall calls, add_calls num files <> Ok calls
  end.
Proof.
  induction files as [|text files IH]; intros parsed Hf; [cbn; eauto|]. cbn [rfold add_calls]. unfold add_file at 1.
  destruct (tokenize num text) as [ts| | |]; try discriminate. cbn [rbind]. destruct (parse ts) as [ms| | |] eqn:Hp; try discriminate. cbn [rbind].
  assert (Hf' : fine_modules (fold_left (fun acc m => replace (pm_name m) m acc) (rev ms) parsed)).
  { pose proof (Forall_rev (parsed_named _ _ Hp)) as Hr. revert Hf Hr. generalize (rev ms). clear. intros l. revert parsed.
    induction l as [|m l IH]; intros parsed Hf Hl; [exact Hf|]. cbn [fold_left]. apply IH; [|now inversion Hl]. apply fine_replace; [exact Hf|now inversion Hl]. }
  specialize (IH _ Hf'). destruct (rfold _ _ files) as [r| | |].
  - destruct IH as (calls & Hc & Hh & Hr). rewrite Hc. cbn [rbind]. eexists. split; [reflexivity|]. split; [|exact Hr].
    rewrite history_app, history_adds; [exact Hh|]. intros m Hin. apply in_map_iff in Hin as (pm & <- & _). eauto.
  - intros calls. destruct (add_calls num files); cbn [rbind]; try discriminate. now destruct (IH a).
  - intros calls. destruct (add_calls num files); cbn [rbind]; try discriminate. now destruct (IH a).
  - intros calls. destruct (add_calls num files); cbn [rbind]; try discriminate. now destruct (IH a).
Qed.
Lemma lookup_some_in {A} k (l : list (string * A)) v : lookup k l = Some v -> In (k, v) l.
Proof. induction l as [|[a x] l IH]; [discriminate|]. cbn [lookup]. destruct (String.eqb_spec k a) as [->|]; [intros H; injection H as ->; now left|right; now apply IH]. Qed.
Lemma link_heads num parsed : forall order classes modules, link num parsed classes order = Ok modules ->
  map fst modules = order /\ forall a m, In (a, m) modules -> exists pm, lookup a parsed = Some pm /\ m_imports m = pm_imports pm.
Proof.
  induction order as [|a order IH]; intros classes modules H; cbn [link] in H; [injection H as <-; split; [reflexivity|intros ? ? []]|].
  destruct (lookup a parsed) as [pm|] eqn:Hp; [|discriminate]. rsteps.
  match goal with H : link _ _ _ _ = _ |- _ => apply IH in H as (Hn & Hi) end. split; [cbn [map fst]; now rewrite Hn|].
  intros b m [H|H]; [injection H as <- <-; eauto|now apply Hi].
Qed.
Lemma mem_incl a l l' : incl l l' -> mem a l = true -> mem a l' = true.
Proof. intros Hi H. apply existsb_exists in H as (x & Hx & He). apply existsb_exists. exists x. split; [now apply Hi|exact He]. Qed.
Lemma link_imports num parsed order modules : Permutation (map fst parsed) order -> link num parsed [] order = Ok modules ->
  resolve_imports (stubs parsed) = Ok tt -> resolve_imports modules = Ok tt.
Proof.
  intros Hp Hl Hr. unfold resolve_imports in *. destruct (forallb _ (stubs parsed)) eqn:Hf; [|discriminate].
  destruct (forallb _ modules) eqn:G; [reflexivity|]. exfalso. apply Bool.diff_false_true. rewrite <- G. clear G Hr. apply forallb_forall. rewrite forallb_forall in Hf. intros [a m] Hin. cbn [snd].
  destruct (link_heads _ _ _ _ _ Hl) as (Hn & Hi). destruct (Hi _ _ Hin) as (pm & Hpm & ->). apply lookup_some_in in Hpm.
  specialize (Hf (a, mkModule (pm_imports pm) [])). cbn [snd m_imports] in Hf. apply forallb_forall. intros i Hi'.
  specialize (Hf ltac:(unfold stubs; apply in_map_iff; exists (a, pm); split; [reflexivity|exact Hpm])).
  rewrite forallb_forall in Hf. specialize (Hf i Hi'). apply (mem_incl _ (map fst (stubs parsed))); [|exact Hf].
  unfold stubs. rewrite map_map. cbn [fst]. rewrite Hn. intros x Hx. apply (Permutation_in _ Hp). exact Hx.
Qed.
Lemma forallb_mapped {A B} (f : A -> B) p l : forallb p (map f l) = forallb (fun x => p (f x)) l.
Proof. induction l as [|x l IH]; [reflexivity|]. cbn. now rewrite IH. Qed.
Lemma imports_stubs parsed : imports_found (lives parsed) = true <-> resolve_imports (stubs parsed) = Ok tt.
Proof.
  unfold imports_found, resolve_imports, lives, stubs. rewrite !forallb_mapped, !map_map. cbn [fst snd live_of lm_imports m_imports].
  destruct (forallb _ parsed); split; (reflexivity || discriminate).
Qed.
Lemma generate_first E c : c_items c = [] -> c_generator c = new_generator ->
  forall prog, snd (generate_call E c) = Ok prog <-> generate E (resolved_types (resolver_of c)) = Ok prog.
Proof.
  intros H1 H2 prog. unfold generate_call, generate. rewrite H2. destruct (generate_items E _ new_generator) as [[items g]| | |]; cbn [snd rbind]; try reflexivity.
  now rewrite H1.
Qed.
Theorem first_session num E depth fuel files parsed orders : add_files num files = Ok parsed -> Permutation (map fst parsed) (map fst orders) ->
  forall prog, hampi_asn1c num E depth fuel files orders = Ok prog <-> compile_files num E depth fuel files orders = Ok prog.
Proof.
  intros Hadd Hperm prog. unfold hampi_asn1c, compile_files. rewrite Hadd. cbn [rbind].
  pose proof (calls_files num E depth fuel files [] ltac:(split; [constructor|intros ? ? []])) as Hc. unfold add_files in Hadd. rewrite Hadd in Hc.
  destruct Hc as (calls & -> & Hh & Hnd & Hfine). cbn [rbind]. change new_compiler with (holding []). rewrite Hh. clear Hh calls Hadd.
  assert (Ho : NoDup (map fst orders)) by (apply (Permutation_NoDup Hperm Hnd)).
  unfold resolve_call. cbn [holding c_modules].
  destruct (imports_found (lives parsed)) eqn:Hi.
  2:{ split; [discriminate|]. intros H. apply rbind_inv in H. destruct H as (x & H & _). destruct x. apply imports_stubs in H. congruence. }
  apply imports_stubs in Hi. rewrite Hi. cbn [rbind].
  assert (Hfresh : forall L, _) by (intros L; refine (all_fresh num E depth fuel parsed _ L orders (holding parsed) new_resolver Ho _ _);
    [intros a pm H; apply (Hfine a pm); now apply lookup_some_in|intros a _; apply lookup_lives|repeat split]).
  change (c_classes (holding parsed)) with (@nil (string * class)) in Hfresh.
  assert (Htypes : forall c F, alike (resolver_of c) F -> resolved_types (resolver_of c) = resolved_types F) by (intros c F (H & _); unfold resolved_types; now rewrite H).
  split.
  - destruct (resolve_modules_call num E depth fuel orders (holding parsed)) as [c r] eqn:Hc. destruct r as [[]| | |]; try discriminate. intros Hg.
    destruct (proj2 (Hfresh []) c eq_refl) as (linked & Hl & _). rewrite Hl. cbn [rbind].
    destruct (proj2 (Hfresh linked) c eq_refl) as (linked' & Hl' & HF & Hs1 & Hs2). rewrite Hl in Hl'. injection Hl' as <-.
    destruct HF as (F & HF & Ha). { destruct (link_heads _ _ _ _ _ Hl) as (Hn & _). intros a m Hin. apply lookup_nodup; [rewrite Hn; exact Ho|exact Hin]. }
    unfold compile, resolve_modules. rewrite (link_imports _ _ _ _ Hperm Hl Hi). cbn [rbind]. unfold resolve_in_order. rewrite HF. cbn [rbind].
    rewrite <- (Htypes _ _ Ha). apply generate_first; assumption.
  - intros H. apply rbind_inv in H. destruct H as (linked & Hl & H). unfold compile, resolve_modules in H. rewrite (link_imports _ _ _ _ Hperm Hl Hi) in H. cbn [rbind] in H.
    apply rbind_inv in H. destruct H as (F & HF & Hg).
    destruct (proj1 (Hfresh linked) linked F Hl) as (c & Hc & Ha & Hs1 & Hs2); [|exact HF|].
    { destruct (link_heads _ _ _ _ _ Hl) as (Hn & _). intros a m Hin. apply lookup_nodup; [rewrite Hn; exact Ho|exact Hin]. }
    rewrite Hc. apply generate_first; [exact Hs1|exact Hs2|]. now rewrite (Htypes _ _ Ha).
Qed.
