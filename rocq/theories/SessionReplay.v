(* What is left of earlier calls does not show in the program that is printed
   in the end. *)
From Coq Require Import ZArith NArith List Bool String Ascii Lia Permutation.
Require Import Verif.Base Verif.Asn1Model Verif.GenModel Verif.ResolveModel Verif.TokenModel Verif.ParserModel Verif.ModuleModel Verif.DefinitionModel
  Verif.CompilerSpec Verif.ConstraintProofs Verif.GenProofs Verif.TopoProofs Verif.ObjectProofs Verif.ResolveProofs Verif.ModuleProofs Verif.RustCompileProofs
  Verif.OrderSpec Verif.OrderProofs Verif.LooseDefProofs Verif.SessionModel Verif.SessionSpec Verif.SessionProofs.
Import ListNotations.
Open Scope list_scope.
Open Scope Z_scope.

Lemma rev_small {A} (l : list A) : (List.length l <= 1)%nat -> rev l = l.
Proof. destruct l as [|x [|y l]]; cbn; (reflexivity || lia). Qed.
Lemma rmap_length {A B} (f : A -> res B) : forall l r, rmap f l = Ok r -> List.length r = List.length l.
Proof. induction l as [|x l IH]; intros r H; [now injection H as <-|]. rewrite rmap_cons in H. rsteps. cbn. f_equal. now apply IH. Qed.

Lemma forall2_found {A B} (R : A -> B -> Prop) l l' : Forall2 R l l' -> forall x, In x l -> exists y, In y l' /\ R x y.
Proof. induction 1 as [|x y l l' H _ IH]; intros z Hz; [easy|]. destruct Hz as [<-|Hz]; [exists y; split; [now left|exact H]|]. destruct (IH z Hz) as (w & Hw & Hr). exists w. split; [now right|exact Hr]. Qed.

Section Replay.
Context (num : Z -> bool) (E : env) (depth fuel : nat) (parsed : list (string * parsed_module)).
Notation inst := (instantiate E depth).

(* ------------------------------------------------------------------ *)
(* A definition, unread and read                                       *)
(* ------------------------------------------------------------------ *)
Definition known_class (k : string) (c : class) : Prop :=
  exists a pm p, lookup a parsed = Some pm /\ In (k, p) (pm_defs pm) /\ pd_kind p = PAClass c.
Context (Hclass : forall k c c', known_class k c -> known_class k c' -> c = c').
Definition classes_known (cs : list (string * class)) : Prop := forall k c, lookup k cs = Some c -> known_class k c.
Definition becomes (p : parsed_def) (d : definition) : Prop := exists cs, classes_known cs /\ resolve_object_class num cs p = Ok d.
Definition reread (p : parsed_def) (d : definition) : live_def :=
  mkLive (match d_kind d with
          | DKObject cls v => LKObject cls (LRead v)
          | DKObjectSet cls root additional => LKObjectSet cls (map lift_element root) (map lift_element additional)
          | _ => live_kind_of (pd_kind p)
          end) (pd_params p).
Lemma seen_reread p d : becomes p d -> seen (reread p d) = d.
Proof.
  intros (cs & _ & H). unfold resolve_object_class in H. rsteps. destruct p as [i k ps]. cbn [pd_kind pd_params] in *.
  destruct k as [t v|t|c|cls s|cls root more].
  - now injection H0 as <-.
  - now injection H0 as <-.
  - now injection H0 as <-.
  - destruct (lookup cls cs); [|discriminate]. rsteps. reflexivity.
  - destruct (lookup cls cs); [|discriminate]. rsteps. unfold seen, reread. cbn [d_kind l_kind l_params seen_kind pd_params]. now rewrite !seen_lift.
Qed.
Lemma kind_reread p d c : becomes p d -> l_kind (reread p d) = LKClass c <-> pd_kind p = PAClass c.
Proof.
  intros (cs & _ & H). unfold resolve_object_class in H. rsteps. destruct p as [i k ps]. cbn [pd_kind pd_params] in *.
  destruct k as [t v|t|c'|cls s|cls root more].
  - injection H0 as <-. cbn. split; discriminate.
  - injection H0 as <-. cbn. split; discriminate.
  - injection H0 as <-. cbn. split; congruence.
  - destruct (lookup cls cs); [|discriminate]. rsteps. cbn. split; discriminate.
  - destruct (lookup cls cs); [|discriminate]. rsteps. cbn. split; discriminate.
Qed.
Lemma kind_unread p c : l_kind (unread p) = LKClass c <-> pd_kind p = PAClass c.
Proof. destruct p as [i k ps]. cbn. destruct k; cbn; split; congruence. Qed.
Definition stage (p : parsed_def) (d : definition) (l : live_def) : Prop := l = unread p \/ l = reread p d.
Definition class_used (p : parsed_def) : option string := match pd_kind p with PAObject c _ => Some c | PAObjectSet c _ _ => Some c | _ => None end.
Lemma pop_lifted c : forall l done, pop_all num c (map lift_element l) done = (done ++ map lift_element l, Ok tt).
Proof.
  induction l as [|e l IH]; intros done; [cbn; now rewrite app_nil_r|]. cbn [map pop_all].
  assert (H : read_element num c (lift_element e) = Ok (lift_element e)) by now destruct e. rewrite H, IH, <- app_assoc. reflexivity.
Qed.
Lemma read_stage cs p d l : classes_known cs -> becomes p d -> small_set d -> stage p d l ->
  (read_def num cs l = (reread p d, Ok tt) \/ read_def num cs l = (l, Err)) /\
  ((forall cls, class_used p = Some cls -> lookup cls cs <> None) -> read_def num cs l = (reread p d, Ok tt)).
Proof.
  intros Hcs (cs0 & Hcs0 & H) Hs Hl. unfold resolve_object_class in H. apply rbind_inv in H. destruct H as (x & Hx & H). injection H as <-.
  destruct p as [i k ps]. cbn [pd_kind pd_params class_used] in *.
  destruct k as [t v|t|c'|cls s|cls root more].
  - injection Hx as <-. destruct Hl as [->| ->]; split; try (left; reflexivity); reflexivity.
  - injection Hx as <-. destruct Hl as [->| ->]; split; try (left; reflexivity); reflexivity.
  - injection Hx as <-. destruct Hl as [->| ->]; split; try (left; reflexivity); reflexivity.
  - destruct (lookup cls cs0) as [c0|] eqn:H1; [|discriminate]. apply rbind_inv in Hx. destruct Hx as (v & Hv & Hx). injection Hx as <-.
    destruct (lookup cls cs) as [c|] eqn:Hc.
    + assert (c0 = c) as -> by (apply (Hclass cls); [now apply Hcs0|now apply Hcs]).
      assert (G : read_def num cs l = (reread (mkParsed i (PAObject cls s) ps) (mkDef (DKObject cls v) ps), Ok tt)); [|now split; [left|]].
      destruct Hl as [->| ->]; unfold read_def; cbn [unread reread l_kind l_params pd_kind pd_params live_kind_of d_kind]; rewrite Hc; cbn [read_object rbind]; [rewrite Hv|]; reflexivity.
    + split; [right|intros G; now destruct (G cls eq_refl)].
      destruct Hl as [->| ->]; unfold read_def; cbn [unread reread l_kind l_params pd_kind pd_params live_kind_of d_kind]; rewrite Hc; reflexivity.
  - destruct (lookup cls cs0) as [c0|] eqn:H1; [|discriminate]. apply rbind_inv in Hx. destruct Hx as (r & Hr & Hx). apply rbind_inv in Hx. destruct Hx as (r' & Hr' & Hx). injection Hx as <-.
    unfold small_set in Hs. cbn [d_kind] in Hs. destruct Hs as [Hs1 Hs2].
    destruct (lookup cls cs) as [c|] eqn:Hc.
    + assert (c0 = c) as -> by (apply (Hclass cls); [now apply Hcs0|now apply Hcs]).
      assert (G : read_def num cs l = (reread (mkParsed i (PAObjectSet cls root more) ps) (mkDef (DKObjectSet cls r r') ps), Ok tt)); [|now split; [left|]].
      destruct Hl as [->| ->]; unfold read_def; cbn [unread reread l_kind l_params pd_kind pd_params live_kind_of d_kind]; rewrite Hc.
      * rewrite <- !map_rev. pose proof (pop_unread num c (rev root) []) as Q. rewrite Hr in Q. rewrite Q.
        pose proof (pop_unread num c (rev more) []) as Q'. rewrite Hr' in Q'. rewrite Q'. reflexivity.
      * rewrite <- !map_rev, (rev_small r Hs1), (rev_small r' Hs2), !pop_lifted. reflexivity.
    + split; [right|intros G; now destruct (G cls eq_refl)].
      destruct Hl as [->| ->]; unfold read_def; cbn [unread reread l_kind l_params pd_kind pd_params live_kind_of d_kind]; rewrite Hc; reflexivity.
Qed.
Inductive staged : list (string * parsed_def) -> list (string * definition) -> list (string * live_def) -> Prop :=
| staged_nil : staged [] [] []
| staged_cons k p d l ps ds ls : becomes p d -> small_set d -> stage p d l -> staged ps ds ls -> staged ((k, p) :: ps) ((k, d) :: ds) ((k, l) :: ls).
Lemma read_stages cs : classes_known cs -> forall ps ds ls, staged ps ds ls ->
  (exists ls', staged ps ds ls' /\ ((read_defs num cs ls = (ls', Ok tt) /\ map (fun kd => (fst kd, seen (snd kd))) ls' = ds) \/ read_defs num cs ls = (ls', Err))) /\
  ((forall k p cls, In (k, p) ps -> class_used p = Some cls -> lookup cls cs <> None) -> snd (read_defs num cs ls) = Ok tt).
Proof.
  intros Hcs. induction 1 as [|k p d l ps ds ls Hb Hs Hl Hrest [(ls' & Hst & IH) IHok]].
  - split; [exists []; split; [constructor|left; now split]|reflexivity].
  - destruct (read_stage cs p d l Hcs Hb Hs Hl) as [R Rok]. cbn [read_defs]. split.
    + destruct R as [->| ->].
      * exists ((k, reread p d) :: ls'). split; [constructor; try assumption; now right|]. destruct IH as [[-> Hseen]| ->]; [left|now right].
        split; [reflexivity|]. cbn [map fst snd]. now rewrite seen_reread, Hseen.
      * exists ((k, l) :: ls). split; [now constructor|now right].
    + intros H. rewrite Rok by (intros cls; apply (H k p); now left). specialize (IHok (fun k p cls Hin => H k p cls (or_intror Hin))).
      destruct (read_defs num cs ls). exact IHok.
Qed.
Lemma staged_classes pm ds : forall lm, staged (pm_defs pm) ds (lm_defs lm) -> forall cs, resolve_classes lm cs = classes_of pm cs.
Proof.
  intros lm H. unfold resolve_classes, classes_of. induction H as [|k p d l ps ds ls Hb Hs Hl _ IH]; intros cs; [reflexivity|]. cbn [fold_left fst snd].
  rewrite IH. f_equal. assert (Hk : forall c, l_kind l = LKClass c <-> pd_kind p = PAClass c) by (destruct Hl as [->| ->]; intros c; [apply kind_unread|now apply kind_reread]).
  destruct (l_kind l) as [| |c| |] eqn:Hlk; [| |now rewrite (proj1 (Hk c) eq_refl)| |];
    destruct (pd_kind p) as [| |c'| |] eqn:Hpk; try reflexivity; pose proof (proj2 (Hk c') eq_refl); discriminate.
Qed.
Lemma known_classes_of a pm cs : lookup a parsed = Some pm -> classes_known cs -> classes_known (classes_of pm cs).
Proof.
  intros Ha. unfold classes_of. assert (G : forall l cs, incl l (pm_defs pm) -> classes_known cs ->
    classes_known (fold_left (fun cs kd => match pd_kind (snd kd) with PAClass c => replace (fst kd) c cs | _ => cs end) l cs)).
  { induction l as [|[k p] l IH]; intros cs0 Hi Hc; [exact Hc|]. cbn [fold_left fst snd]. apply IH; [intros x Hx; apply Hi; now right|].
    destruct (pd_kind p) as [| |c| |] eqn:Hk; try exact Hc. intros k' c'. rewrite lookup_replace. destruct (String.eqb_spec k' k) as [->|]; [|apply Hc].
    intros He. injection He as <-. exists a, pm, p. split; [exact Ha|]. split; [apply Hi; now left|exact Hk]. }
  intros Hc. apply G; [apply incl_refl|exact Hc].
Qed.
Lemma sub_classes_of pm cs cs' : sub cs cs' -> sub (classes_of pm cs) (classes_of pm cs').
Proof.
  unfold classes_of. generalize (pm_defs pm). intros l. revert cs cs'. induction l as [|[k p] l IH]; intros cs cs' H; [exact H|]. cbn [fold_left fst snd]. apply IH.
  destruct (pd_kind p); try exact H. intros x y. rewrite !lookup_replace. destruct (String.eqb x k); [easy|apply H].
Qed.
Lemma link_becomes : forall order cs modules', link num parsed cs order = Ok modules' -> classes_known cs -> forall a m, In (a, m) modules' ->
  exists pm, lookup a parsed = Some pm /\ m_imports m = pm_imports pm /\ Forall2 (fun x y => fst x = fst y /\ becomes (snd x) (snd y)) (pm_defs pm) (m_defs m).
Proof.
  induction order as [|n order IH]; intros cs modules' H Hcs a m Hin; cbn [link] in H; [injection H as <-; easy|].
  destruct (lookup n parsed) as [pm|] eqn:Hp; [|discriminate]. pose proof (known_classes_of n pm cs Hp Hcs) as Hcs'. cbv zeta in H.
  apply rbind_inv in H. destruct H as (defs & Hd & H). apply rbind_inv in H. destruct H as (rest & Hrest & H). injection H as <-.
  destruct Hin as [Heq|Hin]; [|exact (IH _ _ Hrest Hcs' a m Hin)]. injection Heq as <- <-. exists pm. split; [exact Hp|]. split; [reflexivity|]. cbn [m_defs].
  revert defs Hd. generalize (pm_defs pm). clear - Hcs'. intros l.
  induction l as [|[k p] l IH]; intros defs H; [injection H as <-; constructor|]. rewrite rmap_cons in H. cbn [fst snd] in H.
  apply rbind_inv in H. destruct H as (y & Hy & H). apply rbind_inv in Hy. destruct Hy as (d & Hd & Hy). injection Hy as <-.
  apply rbind_inv in H. destruct H as (r & Hr & H). injection H as <-. constructor; [|now apply IH].
  cbn [fst snd]. split; [reflexivity|]. eexists. split; [exact Hcs'|eassumption].
Qed.

(* ------------------------------------------------------------------ *)
(* What all calls keep                                                 *)
(* ------------------------------------------------------------------ *)
Context (modules : list (string * module)).
Context (Hnamed : well_named modules) (Hitems : items_apart modules) (Hsettled : settled depth modules).
Context (Hfind : forall a pm, lookup a parsed = Some pm -> exists m, In (a, m) modules /\ m_imports m = pm_imports pm /\
  Forall2 (fun x y => fst x = fst y /\ becomes (snd x) (snd y) /\ small_set (snd y)) (pm_defs pm) (m_defs m)).
Notation from := (from E depth fuel modules).
Context (F : resolver) (done : list string) (HF : Reached E depth fuel modules done F).
Context (Hall : forall k d, own modules k d -> exists r, lookup k (resolved_defs F) = Some r).
Definition good (st : resolver) : Prop := from st /\ ordered (resolved_defs st) /\ sub (resolved_defs st) (resolved_defs F).
Lemma find_def a m k d : In (a, m) modules -> lookup k (m_defs m) = Some d -> In (k, d) (m_defs m).
Proof. intros _. apply ObjectProofs.lookup_in. Qed.
Lemma from_one a m st k st' : In (a, m) modules -> from st -> resolve_one E inst fuel m st k = Ok st' -> from st'.
Proof.
  intros Hm [F1 F2 F3] H. unfold resolve_one in H. destruct (lookup k (m_defs m)) as [d|] eqn:Hl; [|injection H as <-; now constructor].
  apply ObjectProofs.lookup_in in Hl. destruct (d_params d) as [p|] eqn:Hp.
  { injection H as <-. constructor; cbn [resolved_defs parameterized_defs classes]; try assumption. intros x e. rewrite lookup_replace.
    destruct (String.eqb_spec x k) as [->|Hne]; [|apply F2]. intros He. injection He as <-. exists a, m. repeat split; try assumption. congruence. }
  destruct d as [kd pd]. cbn [d_params d_kind] in *. subst pd.
  assert (G : (exists f, kd = DKClass f /\ st' = mkResolver (resolved_defs st) (parameterized_defs st) (replace k f (classes st))) \/
    exists r, resolve_definition E inst fuel st kd = Ok r /\ st' = mkResolver (binsert k r (resolved_defs st)) (parameterized_defs st) (classes st)).
  { destruct kd; try (right; apply rbind_inv in H; destruct H as (r & Hr & H); injection H as <-; exists r; split; [exact Hr|reflexivity]).
    left. injection H as <-. eexists. split; reflexivity. }
  destruct G as [(f & -> & ->)|(r & Hr & ->)]; constructor; cbn [resolved_defs parameterized_defs classes]; try assumption; intros x e.
  - rewrite lookup_replace. destruct (String.eqb_spec x k) as [->|Hne]; [|apply F3]. intros He. injection He as <-. exists a, m, None. now split.
  - rewrite lookup_binsert. destruct (String.eqb_spec x k) as [->|Hne]; [|apply F1]. intros He. injection He as <-. exists a, m, kd, st. now repeat split.
Qed.
Lemma good_one a m st k st' : In (a, m) modules -> good st -> resolve_one E inst fuel m st k = Ok st' -> good st'.
Proof.
  intros Hm (G1 & G2 & G3) H. split; [now apply (from_one a m st k)|]. unfold resolve_one in H.
  destruct (lookup k (m_defs m)) as [d|] eqn:Hl; [|injection H as <-; now split]. apply ObjectProofs.lookup_in in Hl.
  destruct (d_params d) as [p|] eqn:Hp; [injection H as <-; now split|].
  assert (G : (exists f, d_kind d = DKClass f /\ st' = mkResolver (resolved_defs st) (parameterized_defs st) (replace k f (classes st))) \/
    (forall f, d_kind d <> DKClass f) /\ exists r, resolve_definition E inst fuel st (d_kind d) = Ok r /\ st' = mkResolver (binsert k r (resolved_defs st)) (parameterized_defs st) (classes st)).
  { destruct (d_kind d); try (right; split; [discriminate|]; apply rbind_inv in H; destruct H as (r & Hr & H); injection H as <-; exists r; split; [exact Hr|reflexivity]).
    left. injection H as <-. eexists. split; reflexivity. }
  destruct G as [(f & _ & ->)|(Hk & r & Hr & ->)]; [now split|]. cbn [resolved_defs]. split; [now apply binsert_ordered|].
  intros x e. rewrite lookup_binsert. destruct (String.eqb_spec x k) as [->|Hne]; [|apply G3]. intros He. injection He as <-.
  assert (Hown : own modules k d) by (repeat split; [exact Hp|exact Hk|now exists a, m]).
  destruct (Hall k d Hown) as (r' & Hr'). rewrite Hr'. f_equal. destruct (re_how _ _ _ _ _ _ HF _ _ Hr') as (d' & s' & C1 & C2 & C3 & C4).
  rewrite (own_unique modules Hnamed k d' d C1 Hown) in C4. symmetry.
  eapply (confluent E depth fuel modules Hnamed Hitems Hsettled st s' a m k d); try eassumption.
  intros y w w' Hy Hy'. apply G3 in Hy. apply C3 in Hy'. congruence.
Qed.
Lemma good_each a m : In (a, m) modules -> forall o st, good st -> good (fst (resolve_each E depth fuel m o st)).
Proof.
  intros Hm. induction o as [|k o IH]; intros st Hg; [exact Hg|]. cbn [resolve_each].
  destruct (resolve_one E inst fuel m st k) as [st'| | |] eqn:H; try exact Hg. apply IH. now apply (good_one a m st k).
Qed.
Definition kept_module (a : string) (lm : live_module) : Prop :=
  exists pm m, lookup a parsed = Some pm /\ In (a, m) modules /\ m_imports m = pm_imports pm /\ lm_imports lm = pm_imports pm /\ staged (pm_defs pm) (m_defs m) (lm_defs lm).
Record Kept (c : compiler) : Prop := {
  kept_modules : forall a lm, lookup a (c_modules c) = Some lm -> kept_module a lm;
  kept_nodup : NoDup (map fst (c_modules c));
  kept_classes : classes_known (c_classes c);
  kept_good : good (resolver_of c);
  kept_items : c_items c = [];
  kept_generator : c_generator c = new_generator }.
Lemma known_from cs k f : classes_known cs -> lookup k (map (fun kc => (fst kc, class_fields_of (snd kc))) cs) = Some f ->
  exists a m p, In (a, m) modules /\ In (k, mkDef (DKClass f) p) (m_defs m).
Proof.
  intros Hc. rewrite lookup_class_fields. destruct (lookup k cs) as [c|] eqn:Hl; [|discriminate]. cbn [option_map]. intros H. injection H as <-.
  destruct (Hc _ _ Hl) as (a & pm & p & Ha & Hin & Hk). destruct (Hfind a pm Ha) as (m & Hm & _ & H2).
  destruct (forall2_found _ _ _ H2 _ Hin) as ([k' d] & Hd & A1 & (cs' & _ & A2) & _). cbn [fst snd] in *. subst k'.
  unfold resolve_object_class in A2. rewrite Hk in A2. cbn [rbind] in A2. injection A2 as <-. exists a, m, (pd_params p). now split.
Qed.
Lemma kept_add m c : lookup (pm_name m) parsed = Some m -> Kept c -> Kept (fst (add_call m c)).
Proof.
  intros Hp [K1 Kn K2 K3 K4 K5]. constructor; try assumption; [|now apply LooseDefProofs.nodup_replace]. cbn [add_call fst with_modules c_modules]. intros a lm. rewrite lookup_replace.
  destruct (String.eqb_spec a (pm_name m)) as [->|Hne]; [|apply K1]. intros H. injection H as <-.
  destruct (Hfind _ _ Hp) as (mm & Hm & Hi & H2). exists m, mm. repeat split; try assumption. cbn [live_of lm_defs].
  clear - H2. induction H2 as [|[k p] [k' d] l l' (A1 & A2 & A3) _ IH]; [constructor|]. cbn [fst snd map] in *. subst k'. constructor; try assumption. now left.
Qed.
Lemma good_resolver st c : good st -> classes_known (c_classes c) -> good (resolver_of (with_resolver st c)).
Proof.
  intros ([F1 F2 F3] & G2 & G3) Hc. split; [|now split]. constructor; try assumption. intros k f. cbn [resolver_of with_resolver classes c_classes]. now apply known_from.
Qed.
Lemma kept_module_call a lm o c : lookup a (c_modules c) = Some lm -> Kept c -> Kept (fst (resolve_module_call num E depth fuel a lm o c)).
Proof.
  intros Ha [K1 Kn K2 K3 K4 K5]. destruct (K1 _ _ Ha) as (pm & m & Hp & Hm & Hi & Hi' & Hst). unfold resolve_module_call.
  rewrite (staged_classes pm (m_defs m) lm Hst). cbn [c_classes with_classes].
  pose proof (known_classes_of a pm (c_classes c) Hp K2) as Hc.
  destruct (read_stages _ Hc _ _ _ Hst) as [(ls' & Hst' & Hr) _].
  set (c1 := with_modules (replace a {| lm_imports := lm_imports lm; lm_defs := ls' |} (c_modules (with_classes (classes_of pm (c_classes c)) c))) (with_classes (classes_of pm (c_classes c)) c)).
  assert (Hm1 : forall b lb, lookup b (c_modules c1) = Some lb -> kept_module b lb).
  { intros b lb. cbn [c1 with_modules c_modules with_classes]. rewrite lookup_replace. destruct (String.eqb_spec b a) as [->|]; [|apply K1].
    intros H. injection H as <-. exists pm, m. repeat split; assumption. }
  assert (Hg1 : good (resolver_of c1)).
  { destruct K3 as ([F1 F2 F3] & G2 & G3). split; [|now split]. constructor; try assumption. intros k f. cbn [resolver_of c1 with_modules with_classes classes c_classes]. now apply known_from. }
  assert (Hk1 : Kept c1) by (constructor; try assumption; now apply LooseDefProofs.nodup_replace).
  destruct Hr as [[-> Hseen]| ->]; [|exact Hk1]. fold c1. unfold seen_module. cbn [lm_imports lm_defs]. rewrite Hseen, Hi', <- Hi.
  replace {| m_imports := m_imports m; m_defs := m_defs m |} with m by now destruct m.
  pose proof (good_each a m Hm o (resolver_of c1) Hg1) as Hg. destruct (resolve_each E depth fuel m o (resolver_of c1)) as [st r]. cbn [fst] in *.
  constructor; try assumption; [now apply LooseDefProofs.nodup_replace|now apply good_resolver].
Qed.
Lemma kept_modules_call : forall o c, Kept c -> Kept (fst (resolve_modules_call num E depth fuel o c)).
Proof.
  induction o as [|[a o] os IH]; intros c Hk; [exact Hk|]. cbn [resolve_modules_call]. destruct (lookup a (c_modules c)) as [lm|] eqn:Ha; [|exact Hk].
  pose proof (kept_module_call a lm o c Ha Hk) as H. destruct (resolve_module_call num E depth fuel a lm o c) as [c1 [[]| | |]]; cbn [fst] in *; try exact H. now apply IH.
Qed.
Lemma kept_resolve o c : Kept c -> Kept (fst (resolve_call num E depth fuel o c)).
Proof. intros H. unfold resolve_call. destruct (imports_found (c_modules c)); [now apply kept_modules_call|exact H]. Qed.

(* The modules that have been added stay. *)
Definition present (a : string) (c : compiler) : Prop := lookup a (c_modules c) <> None.
Lemma present_modules a : forall o c, present a c -> present a (fst (resolve_modules_call num E depth fuel o c)).
Proof.
  assert (G : forall b lm o c, present a c -> present a (fst (resolve_module_call num E depth fuel b lm o c))).
  { intros b lm o c H. unfold resolve_module_call. destruct (read_defs num _ (lm_defs lm)) as [ls r].
    assert (P : forall im ls, present a (with_modules (replace b (mkLiveModule im ls) (c_modules (with_classes (resolve_classes lm (c_classes c)) c))) (with_classes (resolve_classes lm (c_classes c)) c))).
    { intros im l. unfold present. cbn [c_modules with_modules with_classes]. rewrite lookup_replace. destruct (String.eqb a b); [discriminate|exact H]. }
    destruct r as [u| | |]; try apply P. destruct (resolve_each E depth fuel _ o _) as [st r]. apply P. }
  induction o as [|[b o] os IH]; intros c H; [exact H|]. cbn [resolve_modules_call]. destruct (lookup b (c_modules c)) as [lm|]; [|exact H].
  specialize (G b lm o c H). destruct (resolve_module_call num E depth fuel b lm o c) as [c1 [[]| | |]]; cbn [fst] in *; try exact G. now apply IH.
Qed.
Lemma kept_history : forall h c c' answers, Forall (early parsed) h -> Kept c -> history num E depth fuel h c = (c', answers) -> forallb goes_on answers = true ->
  Kept c' /\ (forall a, present a c \/ (exists m, pm_name m = a /\ In (Add m) h) -> present a c').
Proof.
  induction h as [|x h IH]; intros c c' answers He Hk H Hg.
  { injection H as <- <-. split; [exact Hk|]. intros a [Ha|(m & _ & [])]. exact Ha. }
  inversion_clear He as [|? ? Hx He']. cbn [history] in H. destruct (step num E depth fuel x c) as [c1 y] eqn:Hs.
  destruct (goes_on y) eqn:Hy; [|injection H as <- <-; cbn [forallb] in Hg; rewrite Hy in Hg; discriminate].
  destruct (history num E depth fuel h c1) as [c2 l] eqn:Hh. injection H as <- <-. cbn [forallb] in Hg. rewrite Hy in Hg. cbn [andb] in Hg.
  assert (Hk1 : Kept c1 /\ (forall a, present a c \/ (exists m, pm_name m = a /\ x = Add m) -> present a c1)).
  { destruct x as [m|o|]; cbn [step early] in *; [| |easy]; injection Hs as <- _.
    - split; [now apply (kept_add m c)|]. intros a Ha. unfold present. cbn [add_call fst with_modules c_modules]. rewrite lookup_replace.
      destruct (String.eqb_spec a (pm_name m)) as [->|Hne]; [discriminate|]. destruct Ha as [Ha|(m' & Hn & Hm')]; [exact Ha|]. injection Hm' as <-. now symmetry in Hn.
    - split; [now apply kept_resolve|]. intros a [Ha|(m' & _ & Hm')]; [|discriminate]. unfold resolve_call. destruct (imports_found (c_modules c)); [now apply present_modules|exact Ha]. }
  destruct Hk1 as [Hk1 Hp1]. destruct (IH c1 c2 l He' Hk1 Hh Hg) as [Hk2 Hp2]. split; [exact Hk2|]. intros a Ha. apply Hp2.
  destruct Ha as [Ha|(m & Hn & [Hin|Hin])]; [left; apply Hp1; now left|left; apply Hp1; right; now exists m|right; now exists m].
Qed.

(* ------------------------------------------------------------------ *)
(* The last call                                                       *)
(* ------------------------------------------------------------------ *)
Lemma sub_binsert {A} k (r : A) l l' : sub l l' -> sub (binsert k r l) (binsert k r l').
Proof. intros H x y. rewrite !lookup_binsert. destruct (String.eqb x k); [easy|apply H]. Qed.
Lemma sub_replace {A} k (r : A) l l' : sub l l' -> sub (replace k r l) (replace k r l').
Proof. intros H x y. rewrite !lookup_replace. destruct (String.eqb x k); [easy|apply H]. Qed.
Lemma within_one a m st J k st' : In (a, m) modules -> from st -> from J -> within st J -> resolve_one E inst fuel m st k = Ok st' ->
  exists J', resolve_one E inst fuel m J k = Ok J' /\ within st' J'.
Proof.
  intros Hm Hs HJ Hw H. pose proof Hw as (W1 & W2 & W3). unfold resolve_one in *. destruct (lookup k (m_defs m)) as [d|] eqn:Hl.
  2:{ injection H as <-. eauto. }
  apply ObjectProofs.lookup_in in Hl. destruct (d_params d) as [p|] eqn:Hp.
  { injection H as <-. eexists. split; [reflexivity|]. split; [exact W1|]. split; [|exact W3]. now apply sub_replace. }
  pose proof (definition_mono E depth fuel modules Hnamed Hitems Hsettled st J Hs HJ Hw a m k d) as Hd.
  destruct (d_kind d) eqn:Hk; try (apply rbind_inv in H; destruct H as (r & Hr & H); injection H as <-; rewrite (Hd r Hm Hl Hp Hr); cbn [rbind];
    eexists; split; [reflexivity|]; split; [now apply sub_binsert|now split]).
  injection H as <-. eexists. split; [reflexivity|]. split; [exact W1|]. split; [exact W2|]. now apply sub_replace.
Qed.
Lemma within_all a m : In (a, m) modules -> forall o st J st', from st -> from J -> within st J -> rfold (resolve_one E inst fuel m) st o = Ok st' ->
  exists J', rfold (resolve_one E inst fuel m) J o = Ok J' /\ within st' J' /\ from st'.
Proof.
  intros Hm. induction o as [|k o IH]; intros st J st' Hs HJ Hw H; cbn [rfold] in *; [injection H as <-; eauto|].
  apply rbind_inv in H. destruct H as (s & Hs1 & H). destruct (within_one a m st J k s Hm Hs HJ Hw Hs1) as (J1 & HJ1 & Hw1). rewrite HJ1. cbn [rbind].
  apply (IH s J1 st'); try assumption; [now apply (from_one a m st k)|now apply (from_one a m J k)].
Qed.
Lemma last_resolve : forall orders' modules' cs st c F',
  link num parsed cs (map fst orders') = Ok modules' -> incl modules' modules ->
  rfold (fun st no => match lookup (fst no) modules with None => Panic | Some m => resolve_module E inst fuel m (snd no) st end) st orders' = Ok F' ->
  (forall a pm, lookup a parsed = Some pm -> present a c) -> Kept c -> from st -> within st (resolver_of c) ->
  sub cs (c_classes c) -> (forall k, lookup k (classes st) = option_map class_fields_of (lookup k cs)) ->
  exists c', resolve_modules_call num E depth fuel orders' c = (c', Ok tt) /\ Kept c' /\ within F' (resolver_of c').
Proof.
  induction orders' as [|[a o] orders' IH]; intros modules' cs st c F' Hl Hincl H Hpres Hk Hs Hw Hcs Hcl.
  { cbn [rfold] in H. injection H as <-. exists c. now split. }
  cbn [map fst link rfold snd] in *. destruct (lookup a parsed) as [pm|] eqn:Hp; [|discriminate]. cbv zeta in Hl.
  apply rbind_inv in Hl. destruct Hl as (defs & Hd & Hl). apply rbind_inv in Hl. destruct Hl as (rest & Hrest & Hl). injection Hl as <-.
  assert (Hin : In (a, mkModule (pm_imports pm) defs) modules) by (apply Hincl; now left).
  assert (Hla : lookup a modules = Some (mkModule (pm_imports pm) defs)) by (apply lookup_nodup; [apply Hnamed|exact Hin]).
  rewrite Hla in H. apply rbind_inv in H. destruct H as (F1 & HF1 & H). unfold resolve_module in HF1. cbn [resolve_modules_call].
  destruct (lookup a (c_modules c)) as [lm|] eqn:Hlm; [|now destruct (Hpres a pm Hp)].
  pose proof (kept_module_call a lm o c Hlm Hk) as Hk'. pose proof Hk as [K1 Kn K2 K3 K4 K5].
  destruct (K1 _ _ Hlm) as (pm' & m' & Hp' & Hm' & Hi & Hi' & Hst). assert (pm' = pm) by congruence. subst pm'.
  assert (m' = mkModule (pm_imports pm) defs).
  { assert (lookup a modules = Some m') by (apply lookup_nodup; [apply Hnamed|exact Hm']). congruence. } subst m'. cbn [m_imports m_defs] in *.
  set (m := mkModule (pm_imports pm) defs) in *.
  pose proof (known_classes_of a pm (c_classes c) Hp K2) as Hc.
  destruct (read_stages _ Hc _ _ _ Hst) as [(ls' & Hst' & Hr) Hok].
  assert (Hu : forall k p cls, In (k, p) (pm_defs pm) -> class_used p = Some cls -> lookup cls (classes_of pm (c_classes c)) <> None).
  { intros k p cls Hkp Hcu. pose proof (sub_classes_of pm _ _ Hcs) as Hsub. clear - Hd Hkp Hcu Hsub. revert defs Hd Hkp. generalize (pm_defs pm). intros l.
    induction l as [|[k1 p1] l IH]; intros defs Hd Hkp; [easy|]. rewrite rmap_cons in Hd. cbn [fst snd] in Hd. apply rbind_inv in Hd. destruct Hd as (y & Hy & Hd).
    apply rbind_inv in Hd. destruct Hd as (r & Hr & _). destruct Hkp as [Heq|Hkp]; [|exact (IH r Hr Hkp)]. injection Heq as -> ->.
    apply rbind_inv in Hy. destruct Hy as (d & Hy & _). unfold resolve_object_class in Hy. unfold class_used in Hcu.
    destruct (pd_kind p); try discriminate; injection Hcu as ->; destruct (lookup cls (classes_of pm cs)) eqn:Hx; try discriminate; rewrite (Hsub _ _ Hx); discriminate. }
  specialize (Hok Hu). revert Hk'. unfold resolve_module_call. rewrite (staged_classes pm defs lm Hst). cbn [c_classes with_classes].
  destruct Hr as [[Hr Hseen]|Hr]; [|rewrite Hr in Hok; discriminate]. rewrite Hr.
  set (c1 := with_modules (replace a {| lm_imports := lm_imports lm; lm_defs := ls' |} (c_modules (with_classes (classes_of pm (c_classes c)) c))) (with_classes (classes_of pm (c_classes c)) c)).
  fold c1. unfold seen_module. cbn [lm_imports lm_defs]. rewrite Hseen, Hi'. fold m.
  assert (Hcl1 : forall k, lookup k (classes (add_classes m st)) = option_map class_fields_of (lookup k (classes_of pm cs))) by (intros k; now apply (classes_alike num _ _ _ Hd)).
  assert (Hg1 : from (resolver_of c1)).
  { destruct K3 as ([G1 G2 G3] & _). constructor; try assumption. intros k f. cbn [resolver_of c1 with_modules with_classes classes c_classes]. now apply known_from. }
  assert (Hw1 : within (add_classes m st) (resolver_of c1)).
  { destruct Hw as (W1 & W2 & W3). split; [exact W1|]. split; [exact W2|]. intros k f. rewrite Hcl1. unfold resolver_of. cbn [classes c1 with_modules with_classes c_classes].
    rewrite lookup_class_fields. destruct (lookup k (classes_of pm cs)) as [cc|] eqn:Hx; [|discriminate]. now rewrite (sub_classes_of pm _ _ Hcs _ _ Hx). }
  assert (Hs1 : from (add_classes m st)) by now apply (from_add_classes E depth fuel modules a).
  destruct (within_all a m Hin o _ (resolver_of c1) F1 Hs1 Hg1 Hw1 HF1) as (J & HJ & HwJ & HfF).
  apply each_rfold in HJ. rewrite HJ. cbn [fst]. intros Hk'.
  assert (Hnd : NoDup (map fst (m_defs m))) by exact (nodup_flat_part (fun nm : string * module => def_names (snd nm)) modules (a, m) (proj1 (proj2 Hnamed)) Hin).
  assert (HclF : forall k, lookup k (classes F1) = option_map class_fields_of (lookup k (classes_of pm cs))).
  { intros k. rewrite (loop_classes E depth fuel m Hnd o (add_classes m st) F1); [apply Hcl1| |exact HF1].
    intros k' d f Hkd Hdk. cbn [classes add_classes]. now apply (class_kept (m_defs m) Hnd _ k' d f). }
  apply (IH rest (classes_of pm cs) F1 (with_resolver J c1) F' Hrest); try assumption.
  - intros x Hx. apply Hincl. now right.
  - intros b pb Hb. specialize (Hpres b pb Hb). unfold present in *. cbn [c_modules with_resolver c1 with_modules with_classes]. rewrite lookup_replace.
    destruct (String.eqb b a); [discriminate|exact Hpres].
  - destruct HwJ as (W1 & W2 & _). split; [exact W1|]. split; [exact W2|]. intros k f. rewrite HclF. unfold resolver_of. cbn [classes with_resolver c1 with_modules with_classes c_classes].
    rewrite lookup_class_fields. destruct (lookup k (classes_of pm cs)) as [cc|] eqn:Hx; [|discriminate]. now rewrite (sub_classes_of pm _ _ Hcs _ _ Hx).
  - cbn [c_classes with_resolver c1 with_modules with_classes]. now apply sub_classes_of.
Qed.
End Replay.

Lemma alive_goes answers : alive answers -> forallb goes_on answers = true.
Proof. intros H. apply forallb_forall. intros [b|[[]| | |]|[p| | |]] Hin; try reflexivity; exfalso; specialize (H _ Hin); decompose [and] H; congruence. Qed.
Lemma goes_alive answers : forallb goes_on answers = true -> alive answers.
Proof. intros H a Ha. rewrite forallb_forall in H. specialize (H a Ha). repeat split; intros ->; discriminate H. Qed.
Lemma forall2_fst {A B} (R : string * A -> string * B -> Prop) l l' : (forall x y, R x y -> fst x = fst y) -> Forall2 R l l' -> map fst l = map fst l'.
Proof. intros Hr. induction 1 as [|x y l l' H _ IH]; [reflexivity|]. cbn. f_equal; [now apply Hr|exact IH]. Qed.
Theorem replayed num E depth fuel files parsed modules orders prog :
  add_files num files = Ok parsed -> link num parsed [] (map fst orders) = Ok modules -> Permutation (map fst parsed) (map fst orders) ->
  well_named modules -> items_apart modules -> settled depth modules -> small_sets modules -> valid_orders modules orders -> all_resolved modules orders ->
  compile_files num E depth fuel files orders = Ok prog ->
  forall h c answers, Forall (early parsed) h -> all_added parsed h ->
  history num E depth fuel h new_compiler = (c, answers) -> alive answers ->
  snd (history num E depth fuel [Resolve orders; Generate] c) = [Resolved (Ok tt); Printed (Ok prog)].
Proof.
  intros Hadd Hlink Hperm Hn Hi Hs Hsmall Hv Hall Hc h c answers He Hadded Hh Hg. apply alive_goes in Hg.
  unfold compile_files in Hc. rewrite Hadd in Hc. cbn [rbind] in Hc. apply rbind_inv in Hc. destruct Hc as (u & Himp & Hc). destruct u. rewrite Hlink in Hc. cbn [rbind] in Hc.
  unfold compile, resolve_modules in Hc. apply rbind_inv in Hc. destruct Hc as (F & HF & Hgen). apply rbind_inv in HF. destruct HF as (u & _ & HF). clear u.
  destruct (valid_nodup E depth fuel _ _ _ Hv HF) as [N1 N2].
  destruct (run_reaches E depth fuel modules Hn modules orders F (fun _ => eq_refl) N1 N2 HF) as (done & HR & Hdone).
  destruct (link_heads _ _ _ _ _ Hlink) as (Hnames & _).
  assert (Hbec : forall a m, In (a, m) modules -> exists pm, lookup a parsed = Some pm /\ m_imports m = pm_imports pm /\
    Forall2 (fun x y => fst x = fst y /\ becomes num parsed (snd x) (snd y)) (pm_defs pm) (m_defs m)).
  { intros a m Hin. apply (link_becomes num parsed _ _ _ Hlink); [intros k cl H; discriminate H|exact Hin]. }
  assert (Hfind : forall a pm, lookup a parsed = Some pm -> exists m, In (a, m) modules /\ m_imports m = pm_imports pm /\
    Forall2 (fun x y => fst x = fst y /\ becomes num parsed (snd x) (snd y) /\ small_set (snd y)) (pm_defs pm) (m_defs m)).
  { intros a pm Hl. assert (Ha : In a (map fst modules)). { rewrite Hnames. apply (Permutation_in _ Hperm). apply lookup_some_in in Hl. apply in_map_iff. now exists (a, pm). }
    apply in_map_iff in Ha. destruct Ha as ([a' m] & Heq & Hm). cbn in Heq. subst a'. destruct (Hbec a m Hm) as (pm' & Hl' & Him & H2).
    assert (pm' = pm) by congruence. subst pm'. exists m. split; [exact Hm|]. split; [exact Him|].
    assert (G : forall k d, In (k, d) (m_defs m) -> small_set d) by (intros k d; now apply (Hsmall a)).
    clear - H2 G. induction H2 as [|[k p] [k' d] l l' [A1 A2] _ IH]; [constructor|]. constructor; [|apply IH; intros x y Hxy; apply (G x); now right].
    split; [exact A1|]. split; [exact A2|]. apply (G k'). now left. }
  assert (Hclass : forall k c c', known_class parsed k c -> known_class parsed k c' -> c = c').
  { intros k c1 c2 (a1 & pm1 & p1 & A1 & A2 & A3) (a2 & pm2 & p2 & B1 & B2 & B3).
    destruct (Hfind _ _ A1) as (m1 & M1 & _ & G1). destruct (Hfind _ _ B1) as (m2 & M2 & _ & G2).
    assert (D1 : def_names m1 = map fst (pm_defs pm1)) by (symmetry; eapply forall2_fst; [|exact G1]; now intros x y [H _]).
    assert (D2 : def_names m2 = map fst (pm_defs pm2)) by (symmetry; eapply forall2_fst; [|exact G2]; now intros x y [H _]).
    assert (K1 : In k (def_names m1)) by (rewrite D1; apply in_map_iff; now exists (k, p1)).
    assert (K2 : In k (def_names m2)) by (rewrite D2; apply in_map_iff; now exists (k, p2)).
    pose proof (nodup_flat (fun nm : string * module => def_names (snd nm)) modules (a1, m1) (a2, m2) k (proj1 (proj2 Hn)) M1 M2 K1 K2) as Heq.
    injection Heq as <- <-. assert (pm2 = pm1) by congruence. subst pm2.
    assert (Hnd : NoDup (map fst (pm_defs pm1))) by (rewrite <- D1; exact (nodup_flat_part (fun nm : string * module => def_names (snd nm)) modules (a1, m1) (proj1 (proj2 Hn)) M1)).
    pose proof (lookup_nodup k p1 _ Hnd A2). pose proof (lookup_nodup k p2 _ Hnd B2). congruence. }
  assert (Hown : forall k d, own modules k d -> exists r, lookup k (resolved_defs F) = Some r).
  { intros k d Ho. apply (re_all _ _ _ _ _ _ HR k d); [|exact Ho]. apply Hdone. destruct Ho as (_ & _ & a & m & Hm & Hd). destruct (Hall a m k Hm) as (o & Ho & Hko); [apply in_map_iff; now exists (k, d)|].
    exists a, o, m. split; [exact Ho|]. split; [apply lookup_nodup; [apply Hn|exact Hm]|]. split; [exact Hko|]. apply in_map_iff. now exists (k, d). }
  assert (Hk0 : Kept num E depth fuel parsed modules F new_compiler).
  { constructor; try reflexivity; try (intros a b H; discriminate H); [constructor|]. split; [constructor; intros k r H; discriminate H|]. split; [exact Logic.I|intros k r H; discriminate H]. }
  destruct (kept_history num E depth fuel parsed Hclass modules Hn Hi Hs Hfind F done HR Hown h new_compiler c answers He Hk0 Hh Hg) as [Hk Hpres].
  assert (Hp : forall a pm, lookup a parsed = Some pm -> present a c).
  { intros a pm Hl. apply Hpres. right. apply Hadded. apply lookup_some_in in Hl. apply in_map_iff. now exists (a, pm). }
  destruct (last_resolve num E depth fuel parsed Hclass modules Hn Hi Hs Hfind F done HR Hown orders modules [] new_resolver c F Hlink (incl_refl _) HF Hp Hk) as (c' & Hc' & Hk' & Hw).
  { constructor; intros k r H; discriminate H. } { repeat split; intros k r H; discriminate H. } { intros k r H; discriminate H. } { reflexivity. }
  assert (Hfound : imports_found (c_modules c) = true).
  { unfold imports_found. unfold resolve_imports in Himp. destruct (forallb _ (stubs parsed)) eqn:Hf; [|discriminate]. rewrite forallb_forall in Hf.
    assert (Hnames' : forall a, In a (map fst parsed) -> mem a (map fst (c_modules c)) = true).
    { intros a Ha. apply mem_in. apply in_map_iff in Ha. destruct Ha as ([a' pm] & Heq & Hin). cbn in Heq. subst a'. 
      assert (Hne : lookup a parsed <> None) by (intros Hx; apply lookup_none in Hx; apply Hx, in_map_iff; now exists (a, pm)).
      destruct (lookup a parsed) as [pm'|] eqn:Hl; [|congruence]. specialize (Hp a pm' Hl). unfold present in Hp. destruct (lookup a (c_modules c)) as [lm|] eqn:Hlm; [|congruence].
      apply lookup_some_in in Hlm. apply in_map_iff. now exists (a, lm). }
    assert (Hnd : forall a lm, In (a, lm) (c_modules c) -> exists pm, lookup a parsed = Some pm /\ lm_imports lm = pm_imports pm).
    { intros a lm Hin. apply (lookup_nodup a lm _ (kept_nodup _ _ _ _ _ _ _ _ Hk)) in Hin. destruct (kept_modules _ _ _ _ _ _ _ _ Hk _ _ Hin) as (pm & m & H1 & _ & _ & H2 & _). now exists pm. }
    apply forallb_forall. intros [a lm] Hin. cbn [snd]. destruct (Hnd a lm Hin) as (pm & Hl & ->). apply forallb_forall. intros i Hii. apply Hnames'.
    apply lookup_some_in in Hl. specialize (Hf (a, mkModule (pm_imports pm) [])). cbn [snd m_imports] in Hf.
    specialize (Hf ltac:(unfold stubs; apply in_map_iff; exists (a, pm); split; [reflexivity|exact Hl])). rewrite forallb_forall in Hf. specialize (Hf i Hii).
    apply mem_in in Hf. unfold stubs in Hf. rewrite map_map in Hf. exact Hf. }
  cbn [history step]. unfold resolve_call. rewrite Hfound, Hc'. cbn [fst snd goes_on].
  assert (Heq : resolved_defs (resolver_of c') = resolved_defs F).
  { destruct (kept_good _ _ _ _ _ _ _ _ Hk') as (_ & O & S). apply ordered_equal; [exact O|apply HR|]. intros k.
    destruct (lookup k (resolved_defs F)) as [r|] eqn:Hr; [exact (proj1 Hw _ _ Hr)|].
    destruct (lookup k (resolved_defs (resolver_of c'))) as [r|] eqn:Hr'; [|reflexivity]. apply S in Hr'. congruence. }
  assert (Hgen' : snd (generate_call E c') = Ok prog).
  { apply generate_first; [apply Hk'|apply Hk'|]. unfold resolved_types. rewrite Heq. exact Hgen. }
  destruct (generate_call E c') as [c2 r]. cbn [snd fst] in *. subst r. reflexivity.
Qed.

(* ------------------------------------------------------------------ *)
(* Resolving too early                                                 *)
(* ------------------------------------------------------------------ *)
Record Quiet (parsed : list (string * parsed_module)) (h : list call) (c : compiler) : Prop := {
  q_modules : forall a lm, lookup a (c_modules c) = Some lm -> exists m, In (Add m) h /\ pm_name m = a /\ lookup a parsed = Some m /\ lm = live_of m;
  q_added : forall m, In (Add m) h -> lookup (pm_name m) (c_modules c) <> None;
  q_nodup : NoDup (map fst (c_modules c));
  q_rest : c_defs c = [] /\ c_params c = [] /\ c_classes c = [] /\ c_items c = [] /\ c_generator c = new_generator }.
Lemma lookup_in_some {A} a (v : A) l : In (a, v) l -> lookup a l <> None.
Proof. intros H Hn. apply lookup_none in Hn. apply Hn, in_map_iff. now exists (a, v). Qed.
Lemma quiet_incomplete parsed h c : Forall (early parsed) h -> Quiet parsed h c -> incomplete h -> imports_found (c_modules c) = false.
Proof.
  intros He [Q1 Q2 Q3 _] (m & i & Hm & Hi & Hno). destruct (imports_found (c_modules c)) eqn:Hf; [exfalso|reflexivity].
  pose proof (Q2 m Hm) as Hl. destruct (lookup (pm_name m) (c_modules c)) as [lm|] eqn:Hlm; [|congruence].
  destruct (Q1 _ _ Hlm) as (m' & _ & _ & Hp & ->). rewrite Forall_forall in He. pose proof (He _ Hm) as Hpm. cbn [early] in Hpm.
  assert (m' = m) by congruence. subst m'. unfold imports_found in Hf. rewrite forallb_forall in Hf. specialize (Hf _ (lookup_some_in _ _ _ Hlm)). cbn [snd live_of lm_imports] in Hf.
  rewrite forallb_forall in Hf. specialize (Hf i Hi). apply mem_in in Hf. apply in_map_iff in Hf. destruct Hf as ([a lm'] & Heq & Hin). cbn in Heq. subst a.
  destruct (Q1 _ _ (lookup_nodup _ _ _ Q3 Hin)) as (m2 & Hm2 & Hn2 & _). now apply (Hno m2).
Qed.
Lemma quiet_history num E depth fuel parsed : forall h2 h1 c, Forall (early parsed) (h1 ++ h2) -> Quiet parsed h1 c ->
  (forall x o y, h2 = x ++ Resolve o :: y -> incomplete (h1 ++ x)) ->
  exists c' answers, history num E depth fuel h2 c = (c', answers) /\ forallb goes_on answers = true /\ Quiet parsed (h1 ++ h2) c'.
Proof.
  induction h2 as [|x h2 IH]; intros h1 c He Hq Hinc; [exists c, []; rewrite app_nil_r; now split|].
  assert (Heq : h1 ++ x :: h2 = (h1 ++ [x]) ++ h2) by now rewrite <- app_assoc. rewrite Heq in *.
  assert (Hex : Forall (early parsed) (h1 ++ [x])) by now apply Forall_app in He.
  assert (Hx : early parsed x) by (apply Forall_app in Hex; destruct Hex as [_ Hx]; now inversion Hx).
  assert (Hstep : exists c1 y, step num E depth fuel x c = (c1, y) /\ goes_on y = true /\ Quiet parsed (h1 ++ [x]) c1).
  { destruct x as [m|o|]; [| |easy].
    - eexists _, _. split; [reflexivity|]. split; [reflexivity|]. destruct Hq as [Q1 Q2 Q3 Q4]. cbn [early] in Hx.
      cbn [add_call fst]. constructor; cbn [with_modules c_modules c_defs c_params c_classes c_items c_generator]; [| |now apply LooseDefProofs.nodup_replace|exact Q4].
      + intros a lm. rewrite lookup_replace. destruct (String.eqb_spec a (pm_name m)) as [->|Hne].
        * intros H. injection H as <-. exists m. split; [apply in_or_app; right; now left|]. now repeat split.
        * intros H. destruct (Q1 _ _ H) as (m' & A & B). exists m'. split; [apply in_or_app; now left|exact B].
      + intros m' Hin. rewrite lookup_replace. destruct (String.eqb_spec (pm_name m') (pm_name m)) as [|Hne]; [discriminate|].
        apply Q2. apply in_app_or in Hin. destruct Hin as [Hin|[Hin|[]]]; [exact Hin|congruence].
    - exists c, (Resolved Err). cbn [step]. unfold resolve_call. rewrite (quiet_incomplete parsed h1 c); [|now apply Forall_app in Hex|exact Hq|].
      + split; [reflexivity|]. split; [reflexivity|]. destruct Hq as [Q1 Q2 Q3 Q4]. constructor; try assumption.
        * intros a lm H. destruct (Q1 _ _ H) as (m' & A & B). exists m'. split; [apply in_or_app; now left|exact B].
        * intros m' Hin. apply Q2. apply in_app_or in Hin. destruct Hin as [Hin|[Hin|[]]]; [exact Hin|discriminate].
      + specialize (Hinc [] o h2 eq_refl). now rewrite app_nil_r in Hinc. }
  destruct Hstep as (c1 & y & Hs & Hy & Hq1). destruct (IH (h1 ++ [x]) c1 He Hq1) as (c' & answers & Hh & Hg & Hq').
  { intros z o w Hz. rewrite <- app_assoc. cbn [app]. apply (Hinc (x :: z) o w). now rewrite Hz. }
  exists c', (y :: answers). cbn [history forallb]. rewrite Hs, Hy, Hh. split; [reflexivity|]. split; [exact Hg|exact Hq'].
Qed.
Theorem retried num E depth fuel files parsed orders h : add_files num files = Ok parsed -> Permutation (map fst parsed) (map fst orders) ->
  Forall (early parsed) h -> all_added parsed h -> only_incomplete h ->
  exists c answers, history num E depth fuel h new_compiler = (c, answers) /\ alive answers /\
    forall prog, snd (history num E depth fuel [Resolve orders; Generate] c) = [Resolved (Ok tt); Printed (Ok prog)] <-> compile_files num E depth fuel files orders = Ok prog.
Proof.
  intros Hadd Hperm He Hadded Hinc.
  destruct (quiet_history num E depth fuel parsed h [] new_compiler He) as (c & answers & Hh & Hg & Hq); [|exact Hinc|].
  { constructor; [intros a lm H; discriminate H|intros m []|constructor|repeat split]. }
  exists c, answers. split; [exact Hh|]. split; [now apply goes_alive|]. clear Hh Hg answers. cbn [app] in Hq. intros prog.
  pose proof (calls_files num E depth fuel files [] ltac:(split; [constructor|intros ? ? []])) as Hc. unfold compile_files. rewrite Hadd. unfold add_files in Hadd. rewrite Hadd in Hc.
  destruct Hc as (_ & _ & _ & Hnd & Hfine). cbn [rbind].
  assert (Ho : NoDup (map fst orders)) by (apply (Permutation_NoDup Hperm Hnd)).
  assert (Hlook : forall a, lookup a (c_modules c) = option_map live_of (lookup a parsed)).
  { intros a. destruct (lookup a (c_modules c)) as [lm|] eqn:Hl.
    - destruct (q_modules _ _ _ Hq _ _ Hl) as (m & _ & _ & -> & ->). reflexivity.
    - destruct (lookup a parsed) as [pm|] eqn:Hp; [exfalso|reflexivity]. destruct (Hadded a) as (m & <- & Hm); [apply lookup_some_in in Hp; apply in_map_iff; now exists (a, pm)|].
      now apply (q_added _ _ _ Hq m). }
  assert (Hsame : imports_found (c_modules c) = true <-> resolve_imports (stubs parsed) = Ok tt).
  { rewrite <- imports_stubs. unfold imports_found.
    assert (Hmem : forall a, mem a (map fst (c_modules c)) = mem a (map fst (lives parsed))).
    { intros a. apply Bool.eq_true_iff_eq. rewrite !mem_in.
      assert (G : forall l : list (string * live_module), In a (map fst l) <-> lookup a l <> None).
      { intros l. split; [intros H Hx; apply lookup_none in Hx; contradiction|]. intros H. destruct (lookup a l) as [v|] eqn:Hx; [|congruence]. apply lookup_some_in in Hx. apply in_map_iff. now exists (a, v). }
      rewrite !G, Hlook, lookup_lives. reflexivity. }
    assert (Hndl : NoDup (map fst (lives parsed))) by (unfold lives; rewrite map_map; exact Hnd).
    rewrite !forallb_forall. split; intros H [a lm] Hin.
    - assert (Hl : lookup a (c_modules c) = Some lm) by (rewrite Hlook, <- lookup_lives; now apply lookup_nodup).
      specialize (H _ (lookup_some_in _ _ _ Hl)). rewrite forallb_forall in *. intros i Hi. rewrite <- Hmem. now apply H.
    - assert (Hl : lookup a (lives parsed) = Some lm) by (rewrite lookup_lives, <- Hlook; apply lookup_nodup; [apply Hq|exact Hin]).
      specialize (H _ (lookup_some_in _ _ _ Hl)). rewrite forallb_forall in *. intros i Hi. rewrite Hmem. now apply H. }
  destruct (q_rest _ _ _ Hq) as (R1 & R2 & R3 & R4 & R5).
  assert (Hr0 : resolver_of c = new_resolver) by (unfold resolver_of; now rewrite R1, R2, R3).
  assert (Hfresh : forall L, _) by (intros L; refine (all_fresh num E depth fuel parsed _ L orders c new_resolver Ho _ _);
    [intros a pm H; apply (Hfine a pm); now apply lookup_some_in|intros a _; apply Hlook|rewrite Hr0; repeat split]).
  rewrite R3 in Hfresh.
  assert (Htypes : forall c F, alike (resolver_of c) F -> resolved_types (resolver_of c) = resolved_types F) by (intros c0 F (H & _); unfold resolved_types; now rewrite H).
  assert (Hans : snd (history num E depth fuel [Resolve orders; Generate] c) = [Resolved (Ok tt); Printed (Ok prog)] <->
    exists c', imports_found (c_modules c) = true /\ resolve_modules_call num E depth fuel orders c = (c', Ok tt) /\ snd (generate_call E c') = Ok prog).
  { cbn [history step]. unfold resolve_call. destruct (imports_found (c_modules c)).
    - destruct (resolve_modules_call num E depth fuel orders c) as [c' r]. cbn [fst snd]. destruct r as [[]| | |]; cbn [goes_on].
      + destruct (generate_call E c') as [c2 r] eqn:Hge. cbn [fst snd]. split.
        * intros H. exists c'. split; [reflexivity|]. split; [reflexivity|]. rewrite Hge. destruct r; cbn [goes_on snd] in H |- *; congruence.
        * intros (c3 & _ & H & H'). injection H as <-. rewrite Hge in H'. cbn [snd] in H'. subst r. reflexivity.
      + split; [|intros (c3 & _ & H & _); discriminate H]. destruct (generate_call E c') as [c2 r]. cbn [fst snd]. destruct r; cbn [goes_on snd]; intros H; discriminate H.
      + split; [discriminate|intros (c3 & _ & H & _); discriminate H].
      + split; [discriminate|intros (c3 & _ & H & _); discriminate H].
    - split; [|intros (c3 & H & _); discriminate H]. cbn [fst snd goes_on]. destruct (generate_call E c) as [c2 r]. cbn [fst snd]. destruct r; cbn [goes_on snd]; intros H; discriminate H. }
  rewrite Hans. clear Hans. split.
  - intros (c' & Hi & Hc & Hg). apply Hsame in Hi. rewrite Hi. cbn [rbind].
    destruct (proj2 (Hfresh []) c' Hc) as (linked & Hl & _). rewrite Hl. cbn [rbind].
    destruct (proj2 (Hfresh linked) c' Hc) as (linked' & Hl' & HF & Hs1 & Hs2). rewrite Hl in Hl'. injection Hl' as <-.
    destruct HF as (F & HF & Ha). { destruct (link_heads _ _ _ _ _ Hl) as (Hn & _). intros a m Hin. apply lookup_nodup; [rewrite Hn; exact Ho|exact Hin]. }
    unfold compile, resolve_modules. rewrite (link_imports _ _ _ _ Hperm Hl Hi). cbn [rbind]. unfold resolve_in_order. rewrite HF. cbn [rbind].
    rewrite <- (Htypes _ _ Ha). apply generate_first; [congruence|congruence|exact Hg].
  - intros H. apply rbind_inv in H. destruct H as (u & Hi & H). destruct u. apply rbind_inv in H. destruct H as (linked & Hl & H).
    unfold compile, resolve_modules in H. rewrite (link_imports _ _ _ _ Hperm Hl Hi) in H. cbn [rbind] in H.
    apply rbind_inv in H. destruct H as (F & HF & Hg).
    destruct (proj1 (Hfresh linked) linked F Hl) as (c' & Hc & Ha & Hs1 & Hs2); [|exact HF|].
    { destruct (link_heads _ _ _ _ _ Hl) as (Hn & _). intros a m Hin. apply lookup_nodup; [rewrite Hn; exact Ho|exact Hin]. }
    exists c'. split; [now apply Hsame|]. split; [exact Hc|]. apply generate_first; [congruence|congruence|]. now rewrite (Htypes _ _ Ha).
Qed.
