(* What the functions of CheckSpec find is the meaning of CompilerSpec. *)
From Coq Require Import ZArith NArith List Bool String Ascii Lia.
From Coq Require Sorted.
Require Import Verif.Base Verif.DeriveModel Verif.DeriveSpec Verif.Asn1Model Verif.GenModel Verif.ResolveModel Verif.TokenModel Verif.ParserModel
  Verif.ModuleModel Verif.DefinitionModel Verif.CompilerSpec Verif.CheckSpec.
Require Verif.ParserSpec Verif.ParamSpec Verif.ObjectProofs Verif.ModuleProofs.
Import ListNotations.
Open Scope Z_scope.

Lemma look_some {A B} (o : option A) (f : A -> option B) b : then_ o f = Some b -> exists a, o = Some a /\ f a = Some b.
Proof. destruct o; cbn; [eauto|discriminate]. Qed.
Lemma only_if_some {A} b (o : option A) x : only_if b o = Some x -> b = true /\ o = Some x.
Proof. destruct b; cbn; [auto|discriminate]. Qed.
Lemma each_some {A B} (f : A -> option B) : forall l ys, each f l = Some ys -> Forall2 (fun x y => f x = Some y) l ys.
Proof.
  induction l as [|x l IH]; intros ys H; cbn [each] in H; [injection H as <-; constructor|].
  apply look_some in H. destruct H as (y & Hy & H). apply look_some in H. destruct H as (r & Hr & H). injection H as <-. constructor; auto.
Qed.
Ltac peel := repeat match goal with
  | H : then_ _ _ = Some _ |- _ => let a := fresh "a" in apply look_some in H; destruct H as (a & ? & H)
  | H : only_if _ _ = Some _ |- _ => apply only_if_some in H; destruct H as [? H]
  | H : _ && _ = true |- _ => apply andb_true_iff in H; destruct H
  | H : Some _ = Some _ |- _ => injection H as H; subst
  | H : None = Some _ |- _ => discriminate
  | p : (_ * _)%type |- _ => destruct p
  end.

(* ------------------------------------------------------------------ *)
(* More is found when more is known                                    *)
(* ------------------------------------------------------------------ *)
Definition le {A B} (f g : A -> option B) : Prop := forall k x, f k = Some x -> g k = Some x.
Lemma each_le {A B} (f g : A -> option B) : le f g -> le (each f) (each g).
Proof.
  intros H l. induction l as [|x l IH]; intros ys; cbn [each]; [auto|]. intros E. peel. rewrite (H _ _ H0). cbn. rewrite (IH _ H1). reflexivity.
Qed.
Lemma restrict_le {A} (sees : string -> bool) (f g : string -> option A) : le f g -> le (restrict sees f) (restrict sees g).
Proof. intros H k x. unfold restrict. destruct (sees k); [apply H|discriminate]. Qed.
Lemma value_le V V' : le V V' -> le (value_of V) (value_of V').
Proof. intros H k x. unfold value_of. destruct (parse_i128 k); [auto|apply H]. Qed.
Ltac use H := first [rewrite (H _ _ ltac:(eassumption)) | erewrite H by eassumption]; cbn [then_].
Lemma bounds_le V V' : le V V' -> le (set_bounds V) (set_bounds V').
Proof.
  intros H. assert (H1 : le (one_element V) (one_element V')).
  { pose proof (value_le _ _ H) as Hv. intros [|e [|e' l]] x; cbn [one_element]; try discriminate. destruct e; cbn [element_bounds]; try discriminate; intros E.
    - peel. now use Hv.
    - apply look_some in E. destruct E as (a & Ha & E). apply look_some in E. destruct E as (b & Hb & E). use Hv. use Hv. exact E. }
  pose proof (each_le _ _ H1) as H2. intros [root additional] x. cbn [set_bounds]. intros E. apply look_some in E. destruct E as (l & Hl & E).
  apply look_some in E. destruct E as (l' & Hl' & E). use H2. destruct additional; [use H2|cbn [then_]]; exact E.
Qed.
Lemma size_le V V' : le V V' -> le (size_bounds V) (size_bounds V').
Proof.
  intros H cs x. unfold size_bounds. destruct cs as [[|c [|? ?]]|]; auto; destruct c as [[[|[|e [|? ?]] [|? ?]] [?|]]| |]; auto.
  destruct e; auto. intros E. apply look_some in E. destruct E as (b & Hb & E). use (bounds_le _ _ H). exact E.
Qed.

Section Types.
Context (V V' Vs Vs' : string -> option Z) (ts ts' : string -> option ty) (ss ss' : string -> option set_meaning).
Context (is is' : string -> list actual_param -> option ty).
Context (HV : le V V') (HVs : le Vs Vs') (Hts : le ts ts') (Hss : le ss ss') (His : forall r, le (is r) (is' r)).
Lemma alternatives_le f g : le f g -> forall l x i al, find_alternatives f x i l = Some al -> find_alternatives g x i l = Some al.
Proof.
  intros H. induction l as [|[id t] l IH]; intros x i al; cbn [find_alternatives]; [auto|]. intros E. apply look_some in E. destruct E as (T & HT & E).
  apply look_some in E. destruct E as (r & Hr & E). use H. rewrite (IH _ _ _ Hr). exact E.
Qed.
Lemma components_le f g : le f g -> forall l i fs, find_components f i l = Some fs -> find_components g i l = Some fs.
Proof.
  intros H. induction l as [|[id t o d] l IH]; intros i al; cbn [find_components]; [auto|]. destruct o; intros E; apply look_some in E; destruct E as (T & HT & E);
  apply look_some in E; destruct E as (r & Hr & E); use H; rewrite (IH _ _ Hr); exact E.
Qed.
Lemma class_sequence_le root ext T : find_class_sequence ss root ext = Some T -> find_class_sequence ss' root ext = Some T.
Proof.
  unfold find_class_sequence. destruct root as [|c r]; [auto|]. intros E. apply look_some in E. destruct E as ([[S rel] f] & Hc & E).
  apply look_some in E. destruct E as (s & Hs & E). rewrite Hc. cbn [then_]. use Hss. exact E.
Qed.
Lemma type_le : forall n, le (find_type V Vs ts ss is n) (find_type V' Vs' ts' ss' is' n).
Proof.
  induction n as [|n IH]; intros [k cs] T; cbn [find_type]; [auto|]. pose proof (bounds_le _ _ HV) as Hb. pose proof (size_le _ _ HV) as Hsz.
  pose proof (size_le _ _ HVs) as Hszs.
  destruct k as [b|r|root additions|root additions ext|size t| |]; auto.
  - destruct b; auto.
    + destruct (free cs); [auto|]. destruct cs as [[|[s| |] [|? ?]]|]; auto. intros E. apply look_some in E. destruct E as (b & Hbb & E). use Hb. exact E.
    + destruct cs as [[|[s| |] [|? ?]]|]; auto; intros E; apply look_some in E; destruct E as (b & Hbb & E); use Hsz; exact E.
    + destruct cs as [[|[s| |] [|? ?]]|]; auto; intros E; apply look_some in E; destruct E as (b & Hbb & E); use Hsz; exact E.
    + intros E; apply look_some in E; destruct E as (b & Hbb & E); use Hsz; exact E.
  - destruct r as [r|c f|r ps]; auto; intros E; apply look_some in E; destruct E as (b & Hbb & E).
    + use Hts. exact E.
    + use (His r). exact E.
  - intros E. apply look_some in E. destruct E as (r & Hr & E). apply look_some in E. destruct E as (a & Ha & E).
    rewrite (alternatives_le _ _ IH _ _ _ _ Hr). cbn [then_]. destruct additions; [rewrite (alternatives_le _ _ IH _ _ _ _ Ha); exact E|]. cbn [then_] in *. now injection Ha as <-.
  - destruct (free cs); cbn [only_if]; [|auto].
    assert (Hc : then_ (find_components (find_type V Vs ts ss is n) 0 root) (fun fs => Some (TSeq ext (zlen (filter comp_optional root)) fs)) = Some T ->
                 then_ (find_components (find_type V' Vs' ts' ss' is' n) 0 root) (fun fs => Some (TSeq ext (zlen (filter comp_optional root)) fs)) = Some T).
    { intros E. apply look_some in E. destruct E as (fs & Hfs & E). rewrite (components_le _ _ IH _ _ _ Hfs). exact E. }
    destruct root as [|[id [k cs'] o d] root]; [exact Hc|]. destruct k as [b|r|? ?|? ? ?|? ?| |]; try exact Hc. destruct r; try exact Hc.
    destruct additions; [apply class_sequence_le|exact Hc].
  - intros E. apply look_some in E. destruct E as ([[l u] x] & Hs & E). apply look_some in E. destruct E as (T' & HT & E).
    use Hszs. use IH. exact E.
Qed.
End Types.

(* ------------------------------------------------------------------ *)
(* What is found is right                                              *)
(* ------------------------------------------------------------------ *)
Lemma element_ok V e k a b : element_bounds V e = Some (k, a, b) ->
  regular V e /\ only k e /\ (forall z, permits V e z <-> a <= z <= b) /\ a <= b.
Proof.
  destruct e; cbn [element_bounds]; try discriminate; intros E.
  - apply look_some in E. destruct E as (z & Hz & E). injection E as <- <- <-. cbn [regular only permits]. split; [eauto|]. split; [reflexivity|].
    split; [|lia]. intros y. rewrite Hz. split; [intros [= ->]; lia|intros H; f_equal; lia].
  - apply look_some in E. destruct E as (x & Hx & E). apply look_some in E. destruct E as (y & Hy & E). apply only_if_some in E. destruct E as [Hb E].
    injection E as <- <- <-. rewrite !andb_true_iff, !Z.leb_le, Z.ltb_lt in Hb. destruct Hb as [[Hb1 Hb2] Hb3].
    cbn [regular only permits]. split; [exists x, y; repeat split; auto; lia|]. split; [reflexivity|]. split; [|exact Hb2].
    intros z. split.
    + intros (x' & y' & Hx' & Hy' & H1 & H2). rewrite Hx in Hx'. rewrite Hy in Hy'. injection Hx' as <-. injection Hy' as <-.
      destruct lower_inclusive, upper_inclusive; lia.
    + intros H. exists x, y. repeat split; auto; destruct lower_inclusive, upper_inclusive; lia.
Qed.
Definition one V (i : list elements) (x : bool * Z * Z) : Prop := exists e k a b, i = [e] /\ x = (k, a, b) /\ regular V e /\ only k e /\ (forall z, permits V e z <-> a <= z <= b) /\ a <= b.
Lemma elements_ok V l xs : each (one_element V) l = Some xs -> Forall2 (one V) l xs.
Proof.
  intros H. apply each_some in H. induction H as [|i x l xs Hi _ IH]; constructor; [|exact IH].
  destruct i as [|e [|? ?]]; cbn [one_element] in Hi; try discriminate. destruct x as [[k a] b]. exists e, k, a, b. split; [reflexivity|]. split; [reflexivity|].
  now apply element_ok.
Qed.
Lemma regular_all V l xs : Forall2 (one V) l xs ->
  all (fun i => match i with [e] => regular V e | _ => i <> [] /\ exists z, all (fun e => exists v, e = ESingle v /\ value_of V v = Some z) i end) l.
Proof. induction 1 as [|i x l xs (e & k & a & b & -> & -> & H & _) _ IH]; cbn; auto. Qed.
Lemma set_bounds_ok V s l u : set_bounds V s = Some (l, u) -> bounds_are V s l u.
Proof.
  destruct s as [root additional]. cbn [set_bounds]. intros E. apply look_some in E. destruct E as (xs & Hxs & E).
  apply look_some in E. destruct E as (ys & Hys & E). apply elements_ok in Hxs.
  assert (Hr : regular_set V (mkSet root additional)).
  { cbn [regular_set]. split; [now apply (regular_all _ _ xs)|]. destruct additional; [|exact Logic.I]. apply elements_ok in Hys. now apply (regular_all _ _ ys). }
  clear Hys ys. inversion Hxs as [|i x root' xs' (e & k & a & b & -> & -> & He1 & He2 & He3 & He4) Hr']; subst; cbn [hull] in E; [discriminate|].
  apply only_if_some in E. destruct E as [Hk E]. injection E as <- <-.
  split; [exact Hr|]. clear Hr Hxs.
  assert (G : all (all (only k)) root' /\
    (forall z, any (all (fun e => permits V e z)) root' -> fold_right (fun x m => Z.min (snd (fst x)) m) a xs' <= z <= fold_right (fun x m => Z.max (snd x) m) b xs') /\
    (fold_right (fun x m => Z.min (snd (fst x)) m) a xs' <= a) /\ (b <= fold_right (fun x m => Z.max (snd x) m) b xs') /\
    (fold_right (fun x m => Z.min (snd (fst x)) m) a xs' = a \/ any (all (fun e => permits V e (fold_right (fun x m => Z.min (snd (fst x)) m) a xs'))) root') /\
    (fold_right (fun x m => Z.max (snd x) m) b xs' = b \/ any (all (fun e => permits V e (fold_right (fun x m => Z.max (snd x) m) b xs'))) root')).
  { clear He1 He2 He3 He4 e. induction Hr' as [|i x l xs (e & k' & c & d & -> & -> & He1 & He2 & He3 & He4) _ IH]; cbn [fold_right all any fst snd].
    - repeat split; auto; try lia; tauto.
    - cbn [forallb fst] in Hk. apply andb_true_iff in Hk. destruct Hk as [Hk1 Hk2]. apply Bool.eqb_prop in Hk1. subst k'.
      destruct (IH Hk2) as (I1 & I2 & I3 & I4 & I5 & I6). clear IH.
      split; [auto|]. split; [|split; [lia|split; [lia|split]]].
      + intros z [[H _]|H]; [apply He3 in H; lia|apply I2 in H; lia].
      + destruct (Z.min_spec c (fold_right (fun x m => Z.min (snd (fst x)) m) a xs)) as [[H1 ->]|[H1 ->]]; [right; left; split; [|exact Logic.I]; apply He3; lia|].
        destruct I5; auto.
      + destruct (Z.max_spec d (fold_right (fun x m => Z.max (snd x) m) b xs)) as [[H1 ->]|[H1 ->]]; [|right; left; split; [|exact Logic.I]; apply He3; lia].
        destruct I6; auto. }
  destruct G as (G1 & G2 & G3 & G4 & G5 & G6). cbn [only_set set_permits]. split; [exists k; cbn; auto|].
  assert (Ha : permits V e a) by (apply He3; lia). assert (Hb : permits V e b) by (apply He3; lia). split.
  - split.
    + destruct G5 as [->|G5]; cbn [any all]; auto.
    + intros z [[H _]|H]; [apply He3 in H; lia|apply G2 in H; lia].
  - split.
    + destruct G6 as [->|G6]; cbn [any all]; auto.
    + intros z [[H _]|H]; [apply He3 in H; lia|apply G2 in H; lia].
Qed.
Lemma free_ok cs : free cs = true -> unconstrained cs.
Proof. destruct cs as [[|? ?]|]; cbn; [now right|discriminate|now left]. Qed.
Lemma size_ok V cs l u x : size_bounds V cs = Some (l, u, x) -> size_is V cs l u x.
Proof.
  unfold size_bounds. destruct cs as [[|c [|? ?]]|].
  - intros [= <- <- <-]. constructor. now right.
  - destruct c as [[[|[|e [|? ?]] [|? ?]] [?|]]| |]; try discriminate; destruct e; try discriminate. intros E. apply look_some in E. destruct E as ([a b] & Hb & E).
    injection E as <- <- <-. cbn [fst snd]. apply (size_given V). now apply set_bounds_ok.
  - destruct c as [[[|[|e [|? ?]] [|? ?]] [?|]]| |]; try discriminate; destruct e; try discriminate.
  - intros [= <- <- <-]. constructor. now left.
Qed.
Lemma oz_eqb_ok a b : oz_eqb a b = true -> a = b.
Proof. destruct a, b; cbn; try discriminate; auto. intros H. apply Z.eqb_eq in H. now subst. Qed.
Lemma ity_eqb_ok a b : ity_eqb a b = true -> a = b.
Proof. destruct a, b. unfold ity_eqb. cbn. rewrite andb_true_iff, Z.eqb_eq. intros [H ->]. apply Bool.eqb_prop in H. now subst. Qed.
Lemma same_simple_ok a b : same_simple a b = true -> a = b.
Proof.
  destruct a, b; cbn; try discriminate; rewrite !andb_true_iff; intros [[[H1 H2] H3] H4];
    apply oz_eqb_ok in H1; apply oz_eqb_ok in H2; apply Bool.eqb_prop in H3; apply ity_eqb_ok in H4; now subst.
Qed.
Lemma between_braces_ok v s : between_braces v = Some s -> v = ("{ " ++ s ++ " }")%string.
Proof. unfold between_braces. intros H. apply only_if_some in H. destruct H as [H [= <-]]. now apply String.eqb_eq in H. Qed.
Lemma set_of_ok c s rel : set_of c = Some (s, rel) -> over_set c s rel.
Proof.
  destruct c as [[[|[|e [|? ?]] [|? ?]] [?|]]|[?|? ?]|]; cbn [set_of]; try discriminate; try (destruct e; discriminate).
  - destruct e; try discriminate. intros H. apply look_some in H. destruct H as (x & Hx & H). injection H as <- <-. rewrite (between_braces_ok _ _ Hx). constructor.
  - intros [= <- <-]. constructor.
Qed.
Lemma over_ok c S rel f : over c = Some (S, rel, f) ->
  exists id cl k d, c = mkSeqComp id (mkType (KReference (RefClassField cl f)) (Some [k])) false d /\ over_set k S rel.
Proof.
  destruct c as [id [k cs] o d]. cbn [over]. destruct k as [|r| | | | |]; try discriminate. destruct r as [|cl f'|]; try discriminate.
  destruct cs as [[|c [|? ?]]|]; try discriminate. destruct o; try discriminate. intros H. apply look_some in H. destruct H as ([s r] & Hs & H).
  injection H as <- <- <-. exists id, cl, c, d. split; [reflexivity|now apply set_of_ok].
Qed.
Lemma over_setb_ok S c : over_setb S c = true -> over_component S c.
Proof.
  unfold over_setb. destruct (over c) as [[[S' rel] f]|] eqn:E; [|discriminate]. intros H. apply String.eqb_eq in H. subst. apply over_ok in E.
  destruct E as (id & cl & k & d & -> & E). exists id, cl, f, k, rel, d. auto.
Qed.
Lemma insert_named_in e l x : In x (insert_named e l) <-> x = e \/ In x l.
Proof.
  induction l as [|y l IH]; cbn [insert_named]; [cbn; intuition|]. destruct (string_ltb _ _); cbn [In]; [intuition|]. rewrite IH. intuition.
Qed.
Lemma sorted_in l x : In x (fold_right insert_named [] l) <-> In x l.
Proof. induction l as [|y l IH]; [reflexivity|]. cbn [fold_right]. rewrite insert_named_in, IH. cbn. intuition. Qed.
Lemma ascending_ok l : ascending l = true -> Sorted.StronglySorted (fun a b => string_ltb (fst (fst a)) (fst (fst b)) = true) l.
Proof.
  intros H. apply Sorted.Sorted_StronglySorted; [intros a b c; apply ObjectProofs.string_ltb_trans|].
  induction l as [|x l IH]; [constructor|]. cbn [ascending] in H. apply andb_true_iff in H. destruct H as [H1 H2]. constructor; [auto|].
  destruct l; constructor. exact H1.
Qed.
Lemma open_ok s f al : open_alternatives s f = Some al -> open_type s f al.
Proof.
  unfold open_alternatives. intros H. apply only_if_some in H. destruct H as [Hs H]. injection H as <-.
  eexists. split; [apply ascending_ok, Hs|]. split.
  - generalize (fold_right insert_named [] (flat_map (given_type (sm_unique s) f) (sm_objects s))). intros l.
    induction l as [|x l IH]; [reflexivity|]. cbn [fold_right alternatives map]. now rewrite IH.
  - intros nm z T. rewrite sorted_in, in_flat_map. split.
    + intros (o & Ho & H). exists o. split; [exact Ho|]. unfold given_type in H. destruct (id_of (sm_unique s) o) as [[nm' z']|]; [|destruct H].
      destruct (lookup f o) as [[[T'|]| |]|]; cbn in H; try tauto. destruct H as [H|[]]. injection H as <- <- <-. auto.
    + intros (o & Ho & H1 & H2). exists o. split; [exact Ho|]. unfold given_type. rewrite H1, H2. now left.
Qed.
Lemma class_fields_ok S s : forall l fs, find_class_fields S s l = Some fs -> class_fields S s l fs.
Proof.
  induction l as [|c l IH]; intros fs; cbn [find_class_fields]; [intros [= <-]; constructor|]. intros H. apply look_some in H. destruct H as ([[S' rel] f] & Hc & H).
  apply look_some in H. destruct H as (fs' & Hfs & H). apply only_if_some in H. destruct H as [HS H]. apply String.eqb_eq in HS. subst S'.
  apply over_ok in Hc. destruct Hc as (id & cl & k & d & -> & Hk). specialize (IH _ Hfs).
  destruct (sm_objects s) as [|o os] eqn:Ho; [discriminate|].
  assert (Hopen : then_ (open_alternatives s f) (fun al => only_if (forallb (fun o => negb (is_value f o)) (o :: os)) (Some (FMan false (TOpen al) fs'))) = Some fs ->
    class_fields S s (mkSeqComp id (mkType (KReference (RefClassField cl f)) (Some [k])) false d :: l) fs).
  { clear H. intros H. apply look_some in H. destruct H as (al & Hal & H). apply only_if_some in H. destruct H as [Hv H]. injection H as <-.
    apply CF_type with (rel := rel); auto; [|now apply open_ok]. intros x T v Hx Hl. rewrite Ho in Hx. rewrite forallb_forall in Hv. specialize (Hv _ Hx).
    unfold is_value in Hv. rewrite Hl in Hv. discriminate. }
  destruct (lookup f o) as [[?|T v|?]|] eqn:Hl; auto. clear Hopen. apply only_if_some in H. destruct H as [Hb H]. injection H as <-.
  apply andb_true_iff in Hb. destruct Hb as [Hb1 Hb2]. apply Bool.eqb_prop in Hb1. apply CF_value; auto.
  - destruct (String.eqb_spec f (sm_unique s)); destruct rel; cbn in Hb1; try discriminate; split; intros; try discriminate; auto; tauto.
  - intros x Hx. rewrite Ho in Hx. rewrite forallb_forall in Hb2. specialize (Hb2 _ Hx). unfold has_value in Hb2.
    destruct (lookup f x) as [[?|T' v'|?]|]; try discriminate. apply same_simple_ok in Hb2. subst. eauto.
Qed.

Section Means.
Context (V Vs : string -> option Z) (ts : string -> option ty) (ss : string -> option set_meaning).
Context (is : string -> list actual_param -> option ty) (inst : string -> list actual_param -> ty -> Prop).
Context (Hinst : forall r ps T, is r ps = Some T -> inst r ps T).
Lemma alternatives_ok f : (forall t T, f t = Some T -> asn_means V Vs ts ss inst t T) ->
  forall l x i al, find_alternatives f x i l = Some al -> asn_alternatives V Vs ts ss inst x i l al.
Proof.
  intros H. induction l as [|[id t] l IH]; intros x i al; cbn [find_alternatives]; [intros [= <-]; constructor|]. intros E.
  apply look_some in E. destruct E as (T & HT & E). apply look_some in E. destruct E as (r & Hr & E). injection E as <-. constructor; auto.
Qed.
Lemma components_ok f : (forall t T, f t = Some T -> asn_means V Vs ts ss inst t T) ->
  forall l i fs, find_components f i l = Some fs -> asn_components V Vs ts ss inst i l fs.
Proof.
  intros H. induction l as [|[id t o d] l IH]; intros i al; cbn [find_components]; [intros [= <-]; constructor|]. destruct o; intros E;
  apply look_some in E; destruct E as (T & HT & E); apply look_some in E; destruct E as (r & Hr & E); injection E as <-; constructor; auto.
Qed.
Lemma class_sequence_ok root ext cs T : unconstrained cs -> find_class_sequence ss root ext = Some T ->
  asn_means V Vs ts ss inst (mkType (KSequence root [] ext) cs) T.
Proof.
  intros Hcs. unfold find_class_sequence. destruct root as [|c r]; [discriminate|]. intros E. apply look_some in E. destruct E as ([[S rel] f] & Hc & E).
  apply look_some in E. destruct E as (s & Hs & E). destruct (sm_objects s) as [|o os] eqn:Ho.
  - apply only_if_some in E. destruct E as [Hb E]. injection E as <-. apply A_class_sequence_none with (S := S) (s := s); auto; [discriminate|].
    apply Forall_forall. intros x Hx. rewrite forallb_forall in Hb. now apply over_setb_ok, Hb.
  - apply look_some in E. destruct E as (fs & Hfs & E). injection E as <-. apply A_class_sequence with (S := S) (s := s); auto; [rewrite Ho; discriminate|discriminate|].
    now apply class_fields_ok.
Qed.
Lemma nonempty_ok {A} (l : list A) : nonempty l = true -> l <> [].
Proof. destruct l; cbn; [discriminate|intros _; discriminate]. Qed.
Lemma type_ok : forall n t T, find_type V Vs ts ss is n t = Some T -> asn_means V Vs ts ss inst t T.
Proof.
  induction n as [|n IH]; intros [k cs] T; cbn [find_type]; [discriminate|].
  destruct k as [b|r|root additions|root additions ext|size t| |]; try discriminate.
  - destruct b; try discriminate.
    + destruct (free cs) eqn:Hf; [intros [= <-]; constructor; now apply free_ok|]. destruct cs as [[|[s| |] [|? ?]]|]; try discriminate.
      intros E. apply look_some in E. destruct E as ([l u] & Hb & E). apply only_if_some in E. destruct E as [Hlu E]. injection E as <-.
      apply andb_true_iff in Hlu. rewrite !Z.ltb_lt in Hlu. apply A_integer_range; [now apply set_bounds_ok|apply Hlu|apply Hlu].
    + intros E. apply only_if_some in E. destruct E as [Hb E]. injection E as <-. rewrite !andb_true_iff in Hb. destruct Hb as [[[H1 H2] H3] H4].
      apply Z.ltb_lt in H4. apply A_enumerated; [now apply free_ok| |now apply nonempty_ok|exact H4].
      apply Forall_forall. intros v Hv. rewrite forallb_forall in H2. specialize (H2 _ Hv). now destruct (ev_value v).
    + assert (Hs : then_ (size_bounds V cs) (fun x => let '(l, u, x) := x in Some (TBits l u x)) = Some T -> asn_means V Vs ts ss inst (mkType (KBuiltin BBitString) cs) T).
      { intros E. apply look_some in E. destruct E as ([[l u] x] & Hb & E). injection E as <-. constructor. now apply size_ok. }
      destruct cs as [[|[s| |] [|? ?]]|]; try exact Hs. intros [= <-]. apply A_bits_containing.
    + intros E. apply only_if_some in E. destruct E as [Hf E]. injection E as <-. constructor. now apply free_ok.
    + intros E. apply only_if_some in E. destruct E as [Hf E]. injection E as <-. constructor. now apply free_ok.
    + assert (Hs : then_ (size_bounds V cs) (fun x => let '(l, u, x) := x in Some (TOctets l u x)) = Some T -> asn_means V Vs ts ss inst (mkType (KBuiltin BOctetString) cs) T).
      { intros E. apply look_some in E. destruct E as ([[l u] x] & Hb & E). injection E as <-. constructor. now apply size_ok. }
      destruct cs as [[|[s| |] [|? ?]]|]; try exact Hs. intros [= <-]. apply A_octets_containing.
    + intros E. apply only_if_some in E. destruct E as [Hf E]. injection E as <-. constructor. now apply free_ok.
    + intros E; apply look_some in E; destruct E as ([[l u] x] & Hb & E). apply only_if_some in E. destruct E as [Hk E]. injection E as <-.
      constructor; [exact Hk|now apply size_ok].
  - destruct r as [r|c f|r ps]; try discriminate; intros E; apply look_some in E; destruct E as (T' & HT & E); apply only_if_some in E; destruct E as [Hf E]; injection E as <-;
    apply free_ok in Hf; [now apply A_reference|apply A_instance; auto].
  - intros E. apply look_some in E. destruct E as (r & Hr & E). apply look_some in E. destruct E as (a & Ha & E). apply only_if_some in E. destruct E as [Hb E].
    injection E as <-. rewrite !andb_true_iff in Hb. destruct Hb as [[H1 H2] H3]. apply Z.ltb_lt in H3.
    apply A_choice; [now apply free_ok|now apply nonempty_ok|exact H3|now apply (alternatives_ok _ IH)|].
    destruct additions; [constructor; now apply (alternatives_ok _ IH)|injection Ha as <-; constructor].
  - intros E. apply only_if_some in E. destruct E as [Hf E]. apply free_ok in Hf.
    assert (Hc : then_ (find_components (find_type V Vs ts ss is n) 0 root) (fun fs => Some (TSeq ext (zlen (filter comp_optional root)) fs)) = Some T ->
                 asn_means V Vs ts ss inst (mkType (KSequence root additions ext) cs) T).
    { clear E. intros E. apply look_some in E. destruct E as (fs & Hfs & E). injection E as <-. apply A_sequence; [exact Hf|]. now apply (components_ok _ IH). }
    destruct root as [|[id [k cs'] o d] root]; [exact (Hc E)|]. destruct k as [b|r|? ?|? ? ?|? ?| |]; try exact (Hc E). destruct r; try exact (Hc E).
    destruct additions; [|exact (Hc E)]. now apply class_sequence_ok.
  - intros E. apply look_some in E. destruct E as ([[l u] x] & Hs & E). apply look_some in E. destruct E as (T' & HT & E).
    apply only_if_some in E. destruct E as [Hf E]. injection E as <-. apply A_sequence_of; [now apply free_ok|now apply size_ok|auto].
Qed.
End Means.

(* ------------------------------------------------------------------ *)
(* Words                                                               *)
(* ------------------------------------------------------------------ *)
Section Words.
Import ParserSpec.
Open Scope list_scope.
Lemma matches_app : forall p q w, matches_words w (p ++ q) = true -> exists w1 w2, w = w1 ++ w2 /\ matches_words w1 p = true /\ matches_words w2 q = true.
Proof.
  induction p as [|x p IH]; intros q w H; [exists [], w; auto|]. destruct w as [|t w]; [discriminate|]. cbn in H. apply andb_true_iff in H. destruct H as [H1 H2].
  destruct (IH _ _ H2) as (w1 & w2 & -> & H3 & H4). exists (t :: w1), w2. split; [reflexivity|]. split; [|exact H4]. cbn. now rewrite H1, H3.
Qed.
Lemma token_beq_ok a b : token_type_beq a b = true -> a = b.
Proof. destruct a, b; cbn; intros H; first [reflexivity|discriminate H]. Qed.
Lemma matches_tok t u : matches_word t (Word u) = true -> t = u.
Proof.
  destruct t, u. cbn. intros H. apply andb_true_iff in H. destruct H as [H1 H2]. apply token_beq_ok in H1. apply String.eqb_eq in H2. now subst.
Qed.
Lemma matches_atom t s : matches_word t (Atom s) = true -> In (t_type t) [Identifier; NumberInt] /\ t_text t = s.
Proof.
  cbn. intros H. apply andb_true_iff in H. destruct H as [H1 H2]. apply String.eqb_eq in H2. split; [|exact H2]. apply orb_true_iff in H1.
  destruct H1 as [H1|H1]; apply token_beq_ok in H1; rewrite H1; [now left|right; now left].
Qed.
Lemma matches_words_ok : forall l w, matches_words w (words l) = true -> w = l.
Proof.
  induction l as [|u l IH]; intros [|t w] H; cbn in H; try discriminate; [reflexivity|]. apply andb_true_iff in H. destruct H as [H1 H2].
  apply matches_tok in H1. apply IH in H2. now subst.
Qed.
Lemma matches_cons t p w : matches_words w (Word t :: p) = true -> exists v, w = t :: v /\ matches_words v p = true.
Proof. destruct w as [|u w]; [discriminate|]. cbn [matches_words]. intros H. apply andb_true_iff in H. destruct H as [H1 H2]. apply matches_tok in H1. subst. eauto. Qed.
Lemma matches_cons_atom s p w : matches_words w (Atom s :: p) = true -> exists t v, w = t :: v /\ In (t_type t) [Identifier; NumberInt] /\ t_text t = s /\ matches_words v p = true.
Proof. destruct w as [|u w]; [discriminate|]. cbn [matches_words]. intros H. apply andb_true_iff in H. destruct H as [H1 H2]. apply matches_atom in H1. exists u, w. tauto. Qed.
Lemma matches_nil w : matches_words w [] = true -> w = [].
Proof. destruct w; [auto|discriminate]. Qed.
Lemma with_commas_ok {A} (P : list tok -> A -> Prop) : forall ws l, Forall2 (fun p a => forall w, matches_words w p = true -> P w a) ws l -> l <> [] ->
  forall w, matches_words w (with_commas ws) = true -> separated comma P w l.
Proof.
  induction 1 as [|p a ws l Hp Hr IH]; [tauto|]. intros _ w H. cbn [with_commas] in H. destruct Hr as [|q b ws l Hq Hr].
  - apply sep_one. auto.
  - apply matches_app in H. destruct H as (w1 & w2 & -> & H1 & H2). apply matches_cons in H2. destruct H2 as (v & -> & H2).
    apply (sep_more comma P); [auto|reflexivity|]. apply IH; [discriminate|exact H2].
Qed.
Lemma letter_ok lo hi s : letter lo hi s = true -> first_letter (fun z => lo <= z <= hi) s.
Proof. destruct s; cbn; [discriminate|]. rewrite andb_true_iff, !Z.leb_le. tauto. Qed.
Lemma value_nameb_ok s : value_nameb s = true -> value_name s.
Proof. apply letter_ok. Qed.
Lemma type_nameb_ok s : type_nameb s = true -> type_name s.
Proof.
  unfold type_nameb. rewrite andb_true_iff, negb_true_iff. intros [H1 H2]. split; [now apply letter_ok|]. intros H.
  assert (mem s KEYWORDS = true) by (apply existsb_exists; exists s; split; [exact H|apply String.eqb_refl]). congruence.
Qed.
Lemma class_nameb_ok s : class_nameb s = true -> class_name s.
Proof.
  unfold class_nameb. rewrite andb_true_iff. intros [H1 H2]. split; [now apply type_nameb_ok|]. clear H1. induction s as [|c s IH]; [exact Logic.I|].
  cbn [all_characters] in H2. apply andb_true_iff in H2. destruct H2 as [H2 H3]. split; [|auto].
  rewrite !orb_true_iff, !andb_true_iff, !Z.leb_le, Z.eqb_eq in H2. unfold capital. tauto.
Qed.
Lemma field_nameb_ok s : field_nameb s = true -> field_name s.
Proof.
  destruct s as [|c [|d s]]; cbn; try discriminate. rewrite orb_true_iff, !andb_true_iff, !Z.leb_le. unfold small, capital. tauto.
Qed.
Lemma params_words ps w : ps <> [] -> matches_words w (with_commas (map words_of_param ps)) = true -> separated comma param_syntax w ps.
Proof.
  intros Hps. apply with_commas_ok; [|exact Hps]. clear Hps. induction ps as [|p ps IH]; cbn [map]; constructor; [|exact IH]. clear.
  intros w H. destruct p as [s|s]; cbn [words_of_param] in H.
  - apply matches_cons in H. destruct H as (v & -> & H). apply matches_cons_atom in H. destruct H as (t & v' & -> & Ht & <- & H).
    apply matches_cons in H. destruct H as (v & -> & H). apply matches_nil in H. subst. now constructor.
  - apply matches_cons_atom in H. destruct H as (t & v' & -> & Ht & <- & H). apply matches_nil in H. subst. now constructor.
Qed.
Lemma ref_words r p : words_of_ref r = Some p -> forall w, matches_words w p = true -> reference_syntax w r.
Proof.
  destruct r as [r|c f|r ps]; cbn [words_of_ref]; intros E; apply only_if_some in E; destruct E as [Hb E]; injection E as <-; intros w H.
  - apply (matches_words_ok [I r]) in H. subst. constructor. constructor. now apply type_nameb_ok.
  - apply (matches_words_ok [I c; DOT; mkTok AndIdentifier f]) in H. subst. apply andb_true_iff in Hb. constructor; [now apply class_nameb_ok|now apply field_nameb_ok].
  - apply andb_true_iff in Hb. destruct Hb as [Hb1 Hb2]. apply (matches_app (words [I r])) in H. destruct H as (w1 & w2 & -> & H1 & H2).
    apply matches_words_ok in H1. subst. apply matches_cons in H2. destruct H2 as (v & -> & H2). apply matches_app in H2. destruct H2 as (w1 & w2 & -> & H1 & H2).
    apply (matches_words_ok [R_BRACE]) in H2. subst. constructor; [constructor; now apply type_nameb_ok|]. apply params_words; [now apply nonempty_ok|exact H1].
Qed.
Lemma builtin_words b p : words_of_builtin b = Some p -> forall w, matches_words w p = true -> builtin_syntax w b.
Proof.
  destruct b; cbn [words_of_builtin]; intros E; try discriminate; injection E as <-; intros w H.
  - apply (matches_words_ok [K "INTEGER"]) in H. subst. constructor. constructor.
  - apply (matches_words_ok [K "BIT"; K "STRING"]) in H. subst. constructor. constructor.
  - apply (matches_words_ok [K "BOOLEAN"]) in H. subst. constructor.
  - apply (matches_words_ok [K "NULL"]) in H. subst. constructor.
  - apply (matches_words_ok [K "OCTET"; K "STRING"]) in H. subst. constructor.
  - apply (matches_words_ok [K "OBJECT"; K "IDENTIFIER"]) in H. subst. constructor.
Qed.
Lemma atom_simple t : In (t_type t) [Identifier; NumberInt] -> simple_kind (t_type t).
Proof. intros [H|[H|[]]]; rewrite <- H; [now left|right; now left]. Qed.
Lemma element_words e p : words_of_element e = Some p -> forall w, matches_words w p = true -> element_syntax w e.
Proof.
  destruct e; cbn [words_of_element]; try discriminate.
  - destruct (between_braces v) as [s|] eqn:Hb; intros [= <-] w H.
    + apply (matches_words_ok [L_BRACE; I s; R_BRACE]) in H. subst. rewrite (between_braces_ok _ _ Hb). apply El_value.
      apply (VS_braces [I s]). apply nest_tok; [|constructor]. cbn. intros [H|[H|[H|[H|[]]]]]; discriminate.
    + apply matches_cons_atom in H. destruct H as (t & v' & -> & Ht & <- & H). apply matches_nil in H. subst. apply El_value. constructor. now apply atom_simple.
  - destruct lower_inclusive, upper_inclusive; try discriminate. intros [= <-] w H.
    apply matches_cons_atom in H. destruct H as (t & v & -> & Ht & <- & H). apply matches_cons in H. destruct H as (v' & -> & H).
    apply matches_cons_atom in H. destruct H as (u & v & -> & Hu & <- & H). apply matches_nil in H. subst.
    apply (El_range t (t_text t) [DOTDOT] true true u (t_text u)); [constructor; now apply atom_simple|constructor|constructor; now apply atom_simple].
Qed.
Lemma set_words e w p : words_of_element e = Some p -> matches_words w (Word L_PAREN :: p ++ [Word R_PAREN]) = true -> set_syntax w (mkSet [[e]] None).
Proof.
  intros E H. apply matches_cons in H. destruct H as (v & -> & H). apply matches_app in H. destruct H as (w1 & w2 & -> & H1 & H2).
  apply (matches_words_ok [R_PAREN]) in H2. subst. apply SS_closed. apply sep_one. apply sep_one. now apply (element_words _ _ E).
Qed.
Lemma constraint_words c p : words_of_constraint c = Some p -> forall w, matches_words w p = true -> constraint_syntax w c.
Proof.
  destruct c as [[root add]|[?|s a]|]; cbn [words_of_constraint]; try discriminate.
  - assert (Hp : forall e, then_ (words_of_element e) (fun w => Some (Word L_PAREN :: w ++ [Word R_PAREN])) = Some p ->
      forall w, matches_words w p = true -> constraint_syntax w (CSubtype (mkSet [[e]] None))).
    { intros e E w H. apply look_some in E. destruct E as (q & Hq & E). injection E as <-. apply CS_set. now apply (set_words e w q). }
    destruct root as [|[|e [|? ?]] [|? ?]]; try discriminate; destruct add;
      try (destruct e; try discriminate; match goal with x : element_set |- _ => destruct x as [[|[|? [|? ?]] [|? ?]] [?|]]; discriminate end).
    destruct e as [| | |s| |]; try exact (Hp _). destruct s as [[|[|e [|? ?]] [|? ?]] [?|]]; try exact (Hp _).
    intros E w H. apply look_some in E. destruct E as (q & Hq & E). injection E as <-.
    apply matches_cons in H. destruct H as (v & -> & H). apply (matches_app (Word (K "SIZE") :: Word L_PAREN :: q ++ [Word R_PAREN]) [Word R_PAREN]) in H. destruct H as (w1 & w2 & -> & H1 & H2).
    apply (matches_words_ok [R_PAREN]) in H2. subst. apply CS_set. apply SS_closed. apply sep_one. apply sep_one.
    apply matches_cons in H1. destruct H1 as (v & -> & H1). apply El_size. now apply (set_words e v q).
  - intros E. apply only_if_some in E. destruct E as [Hb E]. injection E as <-. intros w H.
    apply (matches_words_ok [L_PAREN; L_BRACE; I s; R_BRACE; L_BRACE; mkTok AtComponentIdList a; R_BRACE; R_PAREN]) in H. subst. constructor. now apply type_nameb_ok.
Qed.
Lemma constraints_words cs : forall vs, each words_of_constraint cs = Some vs -> forall w, matches_words w (List.concat vs) = true -> repeated constraint_syntax w cs.
Proof.
  intros vs H. apply each_some in H. induction H as [|c v cs vs Hc _ IH]; intros w H; cbn [List.concat] in H.
  - apply matches_nil in H. subst. constructor.
  - apply matches_app in H. destruct H as (w1 & w2 & -> & H1 & H2). constructor; [now apply (constraint_words _ _ Hc)|auto].
Qed.
Definition fine_words (f : asn_type -> option (list pattern)) : Prop := forall t p, f t = Some p -> forall w, matches_words w p = true -> type_syntax w t.
Lemma component_words f c p : fine_words f -> words_of_component f c = Some p -> forall w, matches_words w p = true -> seq_item_syntax w (Component c).
Proof.
  intros Hf. destruct c as [id t o [d|]]; cbn [words_of_component]; [discriminate|]. intros E. apply look_some in E. destruct E as (q & Hq & E).
  apply only_if_some in E. destruct E as [Hb E]. injection E as <-. intros w H. apply matches_cons in H. destruct H as (v & -> & H).
  apply matches_app in H. destruct H as (w1 & w2 & -> & H1 & H2). apply matches_words_ok in H2. subst. constructor.
  constructor; [now apply value_nameb_ok|now apply (Hf _ _ Hq)|]. destruct o; constructor.
Qed.
Lemma kind_words f k p : fine_words f -> words_of_kind f k = Some p -> forall w, matches_words w p = true -> kind_syntax w k.
Proof.
  intros Hf. destruct k as [b|r|? ?|root add ext|? ?| |]; cbn [words_of_kind]; try discriminate.
  - intros E w H. constructor. now apply (builtin_words _ _ E).
  - intros E w H. apply KS_reference. now apply (ref_words _ _ E).
  - destruct add; [|discriminate]. destruct ext; [discriminate|]. intros E w H. apply look_some in E. destruct E as (ws & Hws & E).
    apply only_if_some in E. destruct E as [Hn E]. injection E as <-. apply (matches_app (words [K "SEQUENCE"; L_BRACE])) in H. destruct H as (w1 & w2 & -> & H1 & H2).
    apply matches_words_ok in H1. subst. apply matches_app in H2. destruct H2 as (v & w3 & -> & H1 & H2). apply (matches_words_ok [R_BRACE]) in H2. subst.
    apply (KS_sequence v (map Component root) root [] false); [|constructor].
    apply (with_commas_ok seq_item_syntax ws (map Component root)); [|now destruct root|exact H1].
    apply each_some in Hws. clear -Hws Hf. induction Hws as [|c p l ps Hc _ IH]; cbn [map]; constructor; [|exact IH]. intros w. now apply (component_words f).
Qed.
Lemma type_words : forall n, fine_words (words_of_type n).
Proof.
  induction n as [|n IH]; intros [k cs] p; cbn [words_of_type]; [discriminate|]. destruct cs as [cs|]; [|destruct k as [| | | |[?|] ?| |]; discriminate].
  assert (Hk : then_ (words_of_kind (words_of_type n) k) (fun w => look vs := each words_of_constraint cs in Some (w ++ List.concat vs)) = Some p ->
    forall w, matches_words w p = true -> type_syntax w (mkType k (Some cs))).
  { intros E w H. apply look_some in E. destruct E as (q & Hq & E). apply look_some in E. destruct E as (vs & Hvs & E). injection E as <-.
    apply matches_app in H. destruct H as (w1 & w2 & -> & H1 & H2). constructor; [now apply (kind_words _ _ _ IH Hq)|now apply (constraints_words _ _ Hvs)]. }
  destruct k as [b|r|? ?|root add ext|size t| |]; try exact Hk.
  destruct cs as [|c cs]; [|destruct size; exact Hk]. clear Hk. destruct size as [c|].
  - intros E w H. apply look_some in E. destruct E as (v & Hv & E). apply look_some in E. destruct E as (q & Hq & E). injection E as <-.
    apply matches_cons in H. destruct H as (w' & -> & H). apply matches_app in H. destruct H as (w1 & w2 & -> & H1 & H2).
    apply matches_cons in H2. destruct H2 as (w & -> & H2). apply TS_sized_list; [now apply (constraint_words _ _ Hv)|now apply (IH _ _ Hq)].
  - intros E w H. apply look_some in E. destruct E as (q & Hq & E). injection E as <-. apply (matches_app (words [K "SEQUENCE"; K "OF"])) in H.
    destruct H as (w1 & w2 & -> & H1 & H2). apply matches_words_ok in H1. subst. apply TS_list. now apply (IH _ _ Hq).
Qed.
Lemma type_of_words_ok w t : type_of_words w = Some t -> type_syntax w t.
Proof.
  unfold type_of_words. destruct (parse_type w) as [[t' r]| | |]; try discriminate. intros E. apply look_some in E. destruct E as (p & Hp & E).
  apply only_if_some in E. destruct E as [Hm E]. injection E as <-. now apply (type_words _ _ _ Hp).
Qed.
End Words.
