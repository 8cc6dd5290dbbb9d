(* Orders produced by TopologicalSort. *)
From Coq Require Import ZArith NArith List Bool String Ascii Permutation Lia.
Require Import Verif.Base Verif.Asn1Model Verif.GenModel Verif.ResolveModel Verif.ModuleModel Verif.CompilerSpec.
Import ListNotations.

Lemma mem_in s l : mem s l = true <-> In s l.
Proof.
  unfold mem. rewrite existsb_exists. split.
  - intros (x & Hx & He). apply String.eqb_eq in He. now subst.
  - intros H. exists s. split; [exact H|apply String.eqb_refl].
Qed.
Lemma mem_not_in s l : mem s l = false <-> ~ In s l.
Proof. rewrite <- mem_in. destruct (mem s l); split; congruence. Qed.

Lemma in_ready g n : In n (ready g) <-> In n (g_nodes g) /\ forall a, In (a, n) (g_edges g) -> ~ In a (g_nodes g).
Proof.
  unfold ready. rewrite filter_In. rewrite forallb_forall. split; intros [Hn H]; split; try exact Hn.
  - intros a Ha Hin. specialize (H _ Ha). cbn [fst snd] in H. rewrite String.eqb_refl in H.
    apply mem_in in Hin. rewrite Hin in H. discriminate.
  - intros [a b] He. cbn [fst snd]. destruct (String.eqb b n) eqn:Hb; [|reflexivity].
    apply String.eqb_eq in Hb. subst b. specialize (H _ He). apply mem_not_in in H. now rewrite H.
Qed.
Lemma in_remove batch g n : In n (g_nodes (remove_nodes batch g)) <-> In n (g_nodes g) /\ ~ In n batch.
Proof.
  unfold remove_nodes. cbn [g_nodes]. rewrite filter_In. rewrite negb_true_iff. now rewrite mem_not_in.
Qed.
Lemma nodup_filter {A} (f : A -> bool) l : NoDup l -> NoDup (filter f l).
Proof. apply NoDup_filter. Qed.
Lemma graph_nodup nodes edges : NoDup (g_nodes (graph_of nodes edges)).
Proof. apply NoDup_nodup. Qed.
Lemma graph_nodes nodes edges n :
  In n (g_nodes (graph_of nodes edges)) <-> In n nodes \/ In n (map fst edges) \/ In n (map snd edges).
Proof. unfold graph_of. cbn [g_nodes]. now rewrite nodup_In, !in_app_iff. Qed.

Lemma pops_nodes g out : pops g out -> NoDup (g_nodes g) -> NoDup out /\ incl out (g_nodes g).
Proof.
  induction 1 as [g Hr|g batch out Hr Hp Hs IH]; intros Hnd.
  - split; [constructor|intros x []].
  - destruct IH as [IHn IHi]; [now apply NoDup_filter|].
    assert (Hb : forall x, In x batch <-> In x (ready g)).
    { intros x. split; apply Permutation_in; [exact Hp|now symmetry]. }
    assert (Hbn : NoDup batch).
    { eapply Permutation_NoDup; [symmetry; exact Hp|]. now apply NoDup_filter. }
    split.
    + clear Hr Hp Hs. induction batch as [|x b IHb]; [exact IHn|].
      assert (H : forall y, In y out -> ~ In y (x :: b)).
      { intros y Hy. now apply IHi, in_remove in Hy. }
      cbn [app]. inversion_clear Hbn. constructor.
      * rewrite in_app_iff. intros [Hx|Hx]; [easy|]. apply (H _ Hx). now left.
      * clear IHb. assert (H' : forall y, In y out -> ~ In y b) by (intros y Hy Hin; apply (H y Hy); now right).
        clear - H1 IHn H'. induction b as [|z b IHb]; [exact IHn|]. inversion_clear H1. cbn [app]. constructor.
        -- rewrite in_app_iff. intros [Hz|Hz]; [easy|]. apply (H' _ Hz). now left.
        -- apply IHb; [assumption|]. intros y Hy Hin. apply (H' y Hy). now right.
    + intros x Hx. apply in_app_iff in Hx. destruct Hx as [Hx|Hx].
      * apply Hb, in_ready in Hx. tauto.
      * apply IHi, in_remove in Hx. tauto.
Qed.

Lemma split_app {A} (x : A) a b : forall pre post, a ++ b = pre ++ x :: post -> ~ In x a ->
  exists pre', pre = a ++ pre' /\ b = pre' ++ x :: post.
Proof.
  induction a as [|y a IH]; intros pre post H Hn.
  - exists pre. now split.
  - destruct pre as [|z pre]; cbn [app] in H; injection H as -> H.
    + destruct Hn. now left.
    + destruct (IH pre post H) as (p & -> & ->); [intros Hin; apply Hn; now right|]. now exists p.
Qed.

(* What is needed comes first. *)
Theorem pops_sorted g out a b : pops g out -> NoDup (g_nodes g) -> In (a, b) (g_edges g) -> In a (g_nodes g) -> before a b out.
Proof.
  induction 1 as [g Hr|g batch out Hr Hp Hs IH]; intros Hnd He Ha pre post Heq.
  - now destruct pre.
  - assert (Hb : ~ In b batch).
    { intros Hin. apply (Permutation_in _ Hp), in_ready in Hin. destruct Hin as [_ Hin]. now apply (Hin a He). }
    destruct (split_app b batch out pre post Heq Hb) as (pre' & -> & Heq').
    apply in_app_iff. destruct (in_dec string_dec a batch) as [Hab|Hab]; [now left|].
    right. eapply IH; try eassumption.
    + now apply NoDup_filter.
    + now apply in_remove.
Qed.

(* Exactly the nodes whose chains of needs all end are popped. *)
Definition pending (g : graph) (a b : string) : Prop := In (a, b) (g_edges g) /\ In a (g_nodes g).
Lemma pops_acc g out n : pops g out -> In n out -> Acc (pending g) n.
Proof.
  induction 1 as [g Hr|g batch out Hr Hp Hs IH]; intros Hin; [easy|].
  assert (Hbatch : forall x, In x batch -> Acc (pending g) x).
  { intros x Hx. constructor. intros y [Hy Hy']. apply (Permutation_in _ Hp), in_ready in Hx. destruct Hx as [_ Hx].
    now destruct (Hx y Hy). }
  apply in_app_iff in Hin. destruct Hin as [Hin|Hin]; [now apply Hbatch|].
  specialize (IH Hin). clear Hin. induction IH as [n Hn IHn]. constructor. intros a [He Ha].
  destruct (in_dec string_dec a batch) as [Hab|Hab]; [now apply Hbatch|].
  apply IHn. split; [exact He|]. now apply in_remove.
Qed.
Lemma acc_pops g out n : pops g out -> In n (g_nodes g) -> Acc (pending g) n -> In n out.
Proof.
  induction 1 as [g Hr|g batch out Hr Hp Hs IH]; intros Hin Hacc.
  - exfalso. induction Hacc as [n _ IHn].
    assert (Hnr : ~ In n (ready g)) by now rewrite Hr.
    apply Hnr, in_ready. split; [exact Hin|]. intros a Ha Hin'. apply (IHn a); [now split|exact Hin'].
  - apply in_app_iff. destruct (in_dec string_dec n batch) as [Hb|Hb]; [now left|]. right.
    apply IH; [now apply in_remove|]. clear - Hacc. induction Hacc as [n _ IHn]. constructor.
    intros a [He Ha]. apply IHn. apply in_remove in Ha. split; [exact He|tauto].
Qed.
Theorem pops_exactly g out n : pops g out -> NoDup (g_nodes g) -> (In n out <-> In n (g_nodes g) /\ Acc (pending g) n).
Proof.
  intros H Hnd. split.
  - intros Hin. split; [now apply (pops_nodes g out H Hnd)|eapply pops_acc; eassumption].
  - intros [Hn Ha]. eapply acc_pops; eassumption.
Qed.

Lemma filter_le {A} (f : A -> bool) l : (List.length (filter f l) <= List.length l)%nat.
Proof. induction l as [|y l IH]; [easy|]. cbn [filter]. destruct (f y); cbn [List.length]; lia. Qed.
Lemma filter_shorter {A} (f : A -> bool) x l : In x l -> f x = false -> (List.length (filter f l) < List.length l)%nat.
Proof.
  induction l as [|y l IH]; [easy|]. intros [->|Hin] Hf; cbn [filter].
  - rewrite Hf. cbn [List.length]. pose proof (filter_le f l). lia.
  - specialize (IH Hin Hf). destruct (f y); cbn [List.length]; lia.
Qed.
(* The sort always ends. *)
Theorem pops_exists : forall g, exists out, pops g out.
Proof.
  intros g. remember (List.length (g_nodes g)) as k eqn:Hk. revert g Hk.
  induction k as [k IH] using (well_founded_induction Wf_nat.lt_wf). intros g Hk.
  destruct (ready g) as [|r l] eqn:Hr; [exists []; now constructor|].
  destruct (IH (List.length (g_nodes (remove_nodes (ready g) g)))) with (g := remove_nodes (ready g) g) as [out Ho].
  - subst k. unfold remove_nodes. cbn [g_nodes].
    assert (Hin : In r (g_nodes g)). { assert (H : In r (ready g)) by (rewrite Hr; now left). now apply in_ready in H. }
    assert (Hf : negb (mem r (ready g)) = false). { apply negb_false_iff, mem_in. rewrite Hr. now left. }
    exact (filter_shorter (fun n => negb (mem n (ready g))) r (g_nodes g) Hin Hf).
  - reflexivity.
  - exists (ready g ++ out). constructor; [now rewrite Hr|reflexivity|exact Ho].
Qed.

Lemma before_mono a b l pre post : before a b l -> l = pre ++ b :: post -> In a pre.
Proof. intros H E. eapply H, E. Qed.

(* For graphs made from nodes and edges every end of an edge is a node. *)
Lemma graph_pending nodes edges a b : pending (graph_of nodes edges) a b <-> needs edges a b.
Proof.
  unfold pending, needs. cbn [graph_of g_edges]. split; [tauto|]. intros H. split; [exact H|].
  apply graph_nodes. right. left. apply in_map_iff. now exists (a, b).
Qed.
Lemma acc_iff {A} (R S : A -> A -> Prop) x : (forall a b, R a b <-> S a b) -> Acc R x -> Acc S x.
Proof. intros H. induction 1 as [x _ IH]. constructor. intros y Hy. apply IH. now apply H. Qed.
Theorem sort_exactly nodes edges out n : pops (graph_of nodes edges) out ->
  (In n out <-> In n (g_nodes (graph_of nodes edges)) /\ Acc (needs edges) n).
Proof.
  intros H. rewrite (pops_exactly _ _ _ H (graph_nodup _ _)). split; intros [Hn Ha]; split; try exact Hn.
  - eapply acc_iff; [|exact Ha]. intros. apply graph_pending.
  - eapply acc_iff; [|exact Ha]. intros. symmetry. apply graph_pending.
Qed.
Theorem sort_sorted nodes edges out a b : pops (graph_of nodes edges) out -> needs edges a b -> before a b out.
Proof.
  intros H He. eapply pops_sorted; [exact H|apply graph_nodup|exact He|]. now apply (graph_pending nodes edges a b).
Qed.
Theorem sort_nodup nodes edges out : pops (graph_of nodes edges) out -> NoDup out.
Proof. intros H. eapply pops_nodes; [exact H|apply graph_nodup]. Qed.
(* Nothing on a cycle is popped. *)
Lemma acc_no_cycle edges x : Acc (needs edges) x -> ~ reaches edges x x.
Proof.
  intros Ha.
  assert (Htrans : forall a b c, reaches edges a b -> reaches edges b c -> reaches edges a c).
  { intros a b c H1 H2. induction H1; [eapply reach_more; eassumption|eapply reach_more; [eassumption|auto]]. }
  assert (Hacc : Acc (reaches edges) x).
  { induction Ha as [x Hx IH]. constructor. intros y Hy.
    assert (Hlast : exists z, needs edges z x /\ (y = z \/ reaches edges y z)).
    { clear - Hy. induction Hy as [a b H|a b c H Hr (z & Hz & [->|Hr'])].
      - exists a. split; [exact H|now left].
      - exists z. split; [exact Hz|]. right. now constructor.
      - exists z. split; [exact Hz|]. right. eapply reach_more; eassumption. }
    destruct Hlast as (z & Hz & Hd). specialize (IH z Hz). destruct Hd as [->|Hyz]; [exact IH|].
    eapply Acc_inv; eassumption. }
  clear Ha. intros Hc. induction Hacc as [x _ IH]. now apply (IH x).
Qed.

(* In a finite graph what depends on no cycle is well-founded. *)
Lemma reaches_trans edges a b c : reaches edges a b -> reaches edges b c -> reaches edges a c.
Proof. intros H1 H2. induction H1; [eapply reach_more; eassumption|eapply reach_more; [eassumption|auto]]. Qed.
Theorem grounded_acc edges k : grounded edges k -> Acc (needs edges) k.
Proof.
  set (nodes := map fst edges ++ map snd edges).
  assert (Hgen : forall n S x, (List.length nodes <= n + List.length S)%nat -> NoDup S -> incl S nodes ->
     (forall s, In s S -> reaches edges x s) -> grounded edges x -> ~ In x S -> Acc (needs edges) x).
  { induction n as [|n IH]; intros S x Hlen Hnd Hincl Hre Hg Hx.
    - constructor. intros y Hy. exfalso.
      assert (Hin : In x nodes) by (apply in_app_iff; right; apply in_map_iff; now exists (y, x)).
      assert (H : (List.length (x :: S) <= List.length nodes)%nat).
      { apply NoDup_incl_length; [now constructor|]. intros z [<-|Hz]; [exact Hin|now apply Hincl]. }
      cbn [List.length] in H. lia.
    - constructor. intros y Hy.
      assert (Hin : In x nodes) by (apply in_app_iff; right; apply in_map_iff; now exists (y, x)).
      apply (IH (x :: S) y).
      + cbn [List.length]. lia.
      + now constructor.
      + intros z [<-|Hz]; [exact Hin|now apply Hincl].
      + intros s [<-|Hs]; [now constructor|]. eapply reach_more; [exact Hy|now apply Hre].
      + intros a Ha. apply Hg. right. destruct Ha as [->|Ha]; [now constructor|].
        eapply reaches_trans; [exact Ha|now constructor].
      + intros Hc. apply (Hg y); [right; now constructor|].
        destruct Hc as [<-|Hc]; [now constructor|]. eapply reach_more; [exact Hy|now apply Hre]. }
  intros Hg. apply (Hgen (List.length nodes) [] k); [cbn; lia|constructor|intros ? []|intros ? []|exact Hg|intros []].
Qed.
Theorem acc_grounded edges k : Acc (needs edges) k -> grounded edges k.
Proof.
  intros Ha. assert (Hlast : forall a b, reaches edges a b -> Acc (needs edges) b -> Acc (needs edges) a).
  { intros a b H Hb. induction H as [a b H|a b c H Hr IH]; [eapply Acc_inv; eassumption|].
    eapply Acc_inv; [apply IH; exact Hb|exact H]. }
  intros a [->|H]; apply acc_no_cycle; [exact Ha|eapply Hlast; eassumption].
Qed.
Theorem sort_grounded nodes edges out n : pops (graph_of nodes edges) out ->
  (In n out <-> In n (g_nodes (graph_of nodes edges)) /\ grounded edges n).
Proof.
  intros H. rewrite (sort_exactly _ _ _ _ H). split; intros [Hn Hg]; split; try exact Hn; [now apply acc_grounded|now apply grounded_acc].
Qed.
