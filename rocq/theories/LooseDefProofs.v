(* What the parser accepts is in the loose notation: classes, object sets,
   definitions and modules. *)
From Coq Require Import ZArith NArith List Bool String Ascii Lia.
From Coq Require Import ZifyBool ZifyNat ZifyN.
Require Import Verif.Base Verif.Asn1Model Verif.ResolveModel Verif.TokenModel Verif.ParserModel Verif.ModuleModel Verif.DefinitionModel
  Verif.ParserSpec Verif.DefinitionSpec Verif.ResolveProofs Verif.GrammarProofs Verif.DefGrammarProofs Verif.LooseSpec Verif.LooseProofs.
Import ListNotations.
Open Scope string_scope.
Open Scope list_scope.

(* ------------------------------------------------------------------ *)
(* Tables                                                              *)
(* ------------------------------------------------------------------ *)
Lemma in_replace {A} k (v : A) l : NoDup (names l) -> forall k' x, In (k', x) (replace k v l) <-> (k' = k /\ x = v) \/ (k' <> k /\ In (k', x) l).
Proof.
  induction l as [|[k1 v1] l IH]; intros N k' x; cbn.
  - split; [intros [[= <- <-]|[]]; now left|intros [[-> ->]|[_ []]]; now left].
  - cbn in N. inversion_clear N as [|a b N1 N2]. destruct (String.eqb_spec k k1) as [<- |Hk]; cbn.
    + split.
      * intros [[= <- <-]|H]; [now left|]. right. split; [|now right]. intros ->. apply N1. now apply (in_map fst) in H.
      * intros [[-> ->]|[H [[= <- <-]|H1]]]; [now left|contradiction|now right].
    + rewrite (IH N2). split.
      * intros [[= <- <-]|[[-> ->]|[H1 H2]]]; [right; split; [congruence|now left]|now left|right; split; [exact H1|now right]].
      * intros [[-> ->]|[H1 [[= <- <-]|H2]]]; [right; now left|now left|right; right; now split].
Qed.
Lemma nodup_replace {A} k (v : A) l : NoDup (names l) -> NoDup (names (replace k v l)).
Proof.
  intros N. destruct (in_dec string_dec k (names l)) as [H|H]; [now rewrite replace_names|]. rewrite replace_new by exact H. unfold names in *. rewrite map_app. cbn.
  clear - N H. induction (map fst l) as [|a m IH]; cbn; [repeat constructor; intros []|]. inversion_clear N as [|? ? N1 N2]. constructor.
  - rewrite in_app_iff. cbn in *. intros [X|[X|[]]]; [contradiction|]. apply H. now left.
  - apply IH; [exact N2|]. intros X. apply H. now right.
Qed.
Lemma last_snoc {A} (l : list (string * A)) k v k' x : last_of (l ++ [(k, v)]) k' x <-> (k' = k /\ x = v) \/ (k' <> k /\ last_of l k' x).
Proof.
  split.
  - intros (a & b & E & H). destruct b as [|y b0 _] using rev_ind.
    + apply app_inj_tail in E as [<- E]. injection E as <- <-. now left.
    + right. assert (E1 : l ++ [(k, v)] = (a ++ (k', x) :: b0) ++ [y]) by (rewrite <- app_assoc; exact E). apply app_inj_tail in E1 as [-> E1]. subst y.
      unfold names in H. rewrite map_app in H. split; [intros ->; apply H, in_or_app; right; now left|]. exists a, b0. split; [reflexivity|]. intros X. apply H, in_or_app. now left.
  - intros [[-> ->]|[H (a & b & -> & Hb)]]; [exists l, []; split; [reflexivity|intros []]|].
    exists a, (b ++ [(k, v)]). split; [now rewrite <- app_assoc|]. unfold names. rewrite map_app, in_app_iff. cbn. intros [X|[X|[]]]; [contradiction|congruence].
Qed.
Lemma table_nil {A} : @table_of A [] [].
Proof. split; [constructor|]. intros k x. split; [intros []|]. intros (a & b & E & _). destruct a; discriminate. Qed.
Lemma table_snoc {A} (l t : list (string * A)) k v : table_of l t -> table_of (l ++ [(k, v)]) (replace k v t).
Proof.
  intros [N H]. split; [now apply nodup_replace|]. intros k' x. rewrite (in_replace k v t N), last_snoc, H. reflexivity.
Qed.
Definition tabulate {A} (l t : list (string * A)) : list (string * A) := fold_left (fun m kv => replace (fst kv) (snd kv) m) l t.
Lemma tabulate_table {A} (l : list (string * A)) : forall done t, table_of done t -> table_of (done ++ l) (tabulate l t).
Proof.
  induction l as [|[k v] l IH]; intros done t H; cbn; [now rewrite app_nil_r|].
  replace (done ++ (k, v) :: l) with ((done ++ [(k, v)]) ++ l) by (now rewrite <- app_assoc). apply IH. now apply table_snoc.
Qed.

(* ------------------------------------------------------------------ *)
(* Classes                                                             *)
(* ------------------------------------------------------------------ *)
Lemma value_field_loose ts f s r : Forall lexed ts -> parse_value_field_spec ts = Ok (f, s, r) -> from loose_field ts (f, s) r.
Proof.
  unfold parse_value_field_spec. intros L H. taking H x a ts1. subst ts. destruct (lexed_tail _ _ L) as [La L1]. destruct (value_field_ref a La P) as [Ea Hf].
  bind H t Q. destruct t as [t ts2]. apply parse_type_loose in Q as (w & -> & Hw); [|exact L1]. destruct (lexed_app _ _ L1) as [_ L2]. cbn [fst snd] in H.
  bind H u Q. apply attempt_ok in Q. cbv zeta in H.
  assert (HU : exists v, ts2 = v ++ (if match u with Some true => true | _ => false end then skipn 1 ts2 else ts2) /\
    (v = [] /\ match u with Some true => true | _ => false end = false \/ v = [K "UNIQUE"] /\ match u with Some true => true | _ => false end = true)).
  { destruct u as [[]|]; [|exists []; auto|exists []; auto]. apply expect_ok in Q as (b & r1 & -> & Hb). apply kw_make in Hb as ->. exists [K "UNIQUE"]. cbn. auto. }
  destruct HU as (v & E & Hv). set (unique := match u with Some true => true | _ => false end) in *. clearbody unique. clear Q u.
  set (ts3 := if unique then skipn 1 ts2 else ts2) in *. clearbody ts3. subst ts2. destruct (lexed_app _ _ L2) as [_ L3].
  bind H o Q. apply expect_ok in Q as (b & r3 & -> & Ho). cbn [expect rbind] in H. destruct (lexed_tail _ _ L3) as [_ L4].
  destruct o.
  - injection H as <- <- <-. apply kw_make in Ho as ->. cbn [skipn]. exists (a :: w ++ v ++ [K "OPTIONAL"]). split; [cbn; now rewrite <- !app_assoc|]. rewrite Ea at 1.
    constructor; [exact Hf|exact Hw|]. apply LO_strict. destruct Hv as [[-> ->]|[-> ->]]; constructor.
  - destruct (kw "DEFAULT" b) eqn:Eb.
    + apply kw_make in Eb as ->. cbn [skipn] in H. bind H y Q. destruct y as [y r4]. cbn [fst snd] in H. destruct unique; [discriminate|]. injection H as <- <- <-.
      destruct Hv as [[-> _]|[_ X]]; [|discriminate]. apply value_loose in Q as (x & -> & Hx); [|exact L4].
      exists (a :: w ++ K "DEFAULT" :: x). split; [cbn; now rewrite <- app_assoc|]. rewrite Ea at 1. constructor; [exact Hf|exact Hw|]. now apply LO_default.
    + injection H as <- <- <-. exists (a :: w ++ v). split; [cbn; now rewrite <- app_assoc|]. rewrite Ea at 1.
      constructor; [exact Hf|exact Hw|]. apply LO_strict. destruct Hv as [[-> ->]|[-> ->]]; constructor.
Qed.
Lemma type_field_loose ts f s r : Forall lexed ts -> parse_type_field_spec ts = Ok (f, s, r) -> from loose_field ts (f, s) r.
Proof.
  unfold parse_type_field_spec. intros L H. taking H x a ts1. subst ts. destruct (lexed_tail _ _ L) as [La L1]. destruct (type_field_ref a La P) as [Ea Hf].
  cbv zeta in H. bind H o Q. apply expect_ok in Q as (b & r3 & -> & Ho). cbn [expect rbind] in H. destruct (lexed_tail _ _ L1) as [_ L4]. destruct o.
  - injection H as <- <- <-. apply kw_make in Ho as ->. exists [a; K "OPTIONAL"]. split; [reflexivity|]. rewrite Ea at 1. now constructor.
  - destruct (kw "DEFAULT" b) eqn:Eb.
    + apply kw_make in Eb as ->. cbn [skipn] in H. bind H y Q. destruct y as [y r4]. injection H as <- <- <-. apply parse_type_loose in Q as (w & -> & Hw); [|exact L4].
      exists (a :: K "DEFAULT" :: w). split; [reflexivity|]. rewrite Ea at 1. now constructor.
    + injection H as <- <- <-. exists [a]. split; [reflexivity|]. rewrite Ea at 1. now constructor.
Qed.
Lemma field_loose ts f s r : Forall lexed ts -> parse_field_spec ts = Ok (f, s, r) -> from loose_field ts (f, s) r.
Proof.
  unfold parse_field_spec. intros L H. bind H v Q. destruct v; [now apply value_field_loose|]. bind H t Q2. destruct t; [now apply type_field_loose|discriminate].
Qed.
Lemma fields_loose n : forall fields ts fields' r, Forall lexed ts -> fields_loop n fields ts = Ok (fields', r) ->
  exists w l, ts = w ++ R_BRACE :: r /\ separated comma loose_field w l /\ fields' = tabulate l fields.
Proof.
  induction n as [|n IH]; [discriminate|]. intros fields ts fields' r L H. cbn [fields_loop] in H. bind H f Q. destruct f as [[f s] r1]. cbn [fst snd] in H. cbv zeta in H.
  apply field_loose in Q as (w & -> & Hw); [|exact L]. destruct (lexed_app _ _ L) as [_ L1]. destruct r1 as [|t r1]; [discriminate|]. destruct (lexed_tail _ _ L1) as [Lt L2].
  destruct (is Comma t) eqn:Ec.
  - apply (a_comma _ Lt) in Ec as ->. apply IH in H as (v & l & -> & Hv & ->); [|exact L2]. exists (w ++ COMMA :: v), ((f, s) :: l). split; [now rewrite <- app_assoc|]. split; [now constructor|reflexivity].
  - destruct (is CurlyEnd t) eqn:Ee; [|discriminate]. apply (r_brace _ Lt) in Ee as ->. injection H as <- <-. exists w, [(f, s)]. split; [reflexivity|]. split; [now constructor|reflexivity].
Qed.
Lemma words_before_ok p ts w r : words_before p ts = (w, r) -> ts = w ++ r /\ Forall (fun t => p t = false) w.
Proof.
  revert w r. induction ts as [|t ts IH]; cbn; intros w r H; [injection H as <- <-; now split|]. destruct (p t) eqn:E; [injection H as <- <-; now split|].
  destruct (words_before p ts) as [w1 r1]. injection H as <- <-. destruct (IH _ _ eq_refl) as [-> H1]. split; [reflexivity|now constructor].
Qed.
Lemma unreserved t : is_reserved_word t = false -> In (t_text t) no_word -> t_text t = "OCTET".
Proof.
  unfold is_reserved_word. intros H Hin. destruct (string_dec (t_text t) "OCTET") as [E|E]; [exact E|]. exfalso.
  assert (X : existsb (String.eqb (t_text t)) RESERVED_WORDS = true); [|congruence]. apply existsb_exists. exists (t_text t). split; [|apply String.eqb_refl].
  assert (E1 : "OCTET" <> t_text t) by congruence. unfold no_word in Hin. unfold RESERVED_WORDS. cbn [In] in *. tauto.
Qed.
Lemma words_loose w : existsb is_reserved_word w = false -> Forall (fun t => is AndIdentifier t = false) w -> Forall loose_word w.
Proof.
  induction w as [|t w IH]; intros H1 H2; [constructor|]. cbn in H1. apply orb_false_elim in H1 as [H1 H3]. inversion_clear H2 as [|a b H4 H5].
  constructor; [|now apply IH]. split; [now apply not_is|now apply unreserved].
Qed.
Lemma worded_snoc done k v a b : loose_worded done a b -> fst a <> k -> loose_worded (done ++ [(k, v)]) a b.
Proof.
  intros [H1 H2] Hk. split; [exact H1|].
  assert (HW : forall s, loose_words_of (fst a) done s -> loose_words_of (fst a) (done ++ [(k, v)]) s).
  { intros [s|]; cbn; [intros X; apply last_snoc; now right|]. intros X. unfold names. rewrite map_app, in_app_iff. cbn. intros [Y|[Y|[]]]; [contradiction|congruence]. }
  destruct (snd a), (snd b); try contradiction; intuition.
Qed.
Lemma worded_step c done fields f ws s : NoDup (names c) -> Forall2 (loose_worded done) c fields -> lookup f fields = Some s ->
  Forall2 (loose_worded (done ++ [(f, ws)])) c (replace f (with_syntax ws s) fields) /\ In f (names c) /\ (may_be_absent s = true -> optional_field c f).
Proof.
  intros N H. revert N. induction H as [|[ka a] [kb b] c fields H HF IH]; intros N E; [discriminate|]. cbn in E, N. inversion_clear N as [|? ? N1 N2].
  destruct H as [H1 H2]. cbn in H1. subst kb. cbn [replace]. destruct (String.eqb_spec f ka) as [-> |Hk].
  - injection E as ->. split; [|split].
    + constructor.
      * split; [reflexivity|]. assert (X : last_of (done ++ [(ka, ws)]) ka ws) by (apply last_snoc; now left). cbn in *. destruct a, s; try contradiction; cbn; intuition.
      * clear - HF N1. induction HF as [|x y c fields H HF IH]; constructor; [apply worded_snoc; [exact H|]; intros E; apply N1; left; exact E|]. apply IH. intros X. apply N1. now right.
    + now left.
    + intros Hm. exists a. split; [now left|]. cbn in H2. destruct a as [o d sy|ty un o d sy], s as [o' d' sy'|ty' un' o' d' sy']; try contradiction; cbn in Hm; intuition subst.
      * apply orb_prop in Hm as [Hm|Hm]; [now left|right; now destruct d'].
      * apply orb_prop in Hm as [Hm|Hm]; [now left|right; now destruct d'].
  - destruct (IH N2 E) as (I1 & I2 & I3). split; [|split].
    + constructor; [|exact I1]. apply worded_snoc; [now split|]. cbn. congruence.
    + now right.
    + intros Hm. destruct (I3 Hm) as (x & X1 & X2). exists x. split; [now right|exact X2].
Qed.
Lemma clauses_loose c n : NoDup (names c) -> forall done inside fields ts fields' r, Forall lexed ts -> Forall2 (loose_worded done) c fields ->
  with_syntax_loop n inside fields ts = Ok (fields', r) ->
  exists w l, ts = w ++ R_BRACE :: r /\ l <> [] /\ loose_clauses c inside w l /\ Forall2 (loose_worded (done ++ l)) c fields'.
Proof.
  intros N. induction n as [|n IH]; [discriminate|]. intros done inside fields ts fields' r L HF H. cbn [with_syntax_loop] in H.
  bind H g Q. apply expect_ok in Q as (t & r1 & -> & Hg). cbv zeta in H.
  assert (EG : exists ts1, t :: r1 = when g L_SQUARE ++ ts1 /\ (if g then skipn 1 (t :: r1) else t :: r1) = ts1).
  { destruct g; [|now exists (t :: r1)]. exists r1. destruct (lexed_tail _ _ L) as [Lt _]. apply (l_square _ Lt) in Hg as ->. now split. }
  destruct EG as (ts1 & E1 & E2). rewrite E2 in H. rewrite E1 in L |- *. clear E1 E2 Hg. destruct (lexed_app _ _ L) as [_ L1].
  destruct (words_before (is AndIdentifier) ts1) as [ws ts2] eqn:Ew. apply words_before_ok in Ew as [-> Hws].
  destruct (existsb is_reserved_word ws) eqn:Er; [discriminate|]. assert (HW := words_loose _ Er Hws). destruct (lexed_app _ _ L1) as [_ L2].
  taking H nm a ts3. subst ts2. apply is_make in P. destruct (lexed_tail _ _ L2) as [_ L3]. set (f := t_text a) in *.
  destruct (lookup f fields) as [s|] eqn:El; [|discriminate].
  destruct ((g || inside) && negb (may_be_absent s)) eqn:Eo; [discriminate|].
  destruct (worded_step c done fields f (text ws) s N HF El) as (HF' & Hin & Hopt).
  change (concat_tokens ws " ") with (text ws) in H.
  bind H ts4 Q. apply skip_comma in Q as (cm & -> & Hcm); [|exact L3]. destruct (lexed_app _ _ L3) as [_ L4].
  bind H e Q. apply expect_ok in Q as (t5 & r5 & -> & He). bind H o Q.
  assert (E5 : exists ts5, t5 :: r5 = when e R_SQUARE ++ ts5 /\ (if e then skipn 1 (t5 :: r5) else t5 :: r5) = ts5).
  { destruct e; [|now exists (t5 :: r5)]. exists r5. destruct (lexed_tail _ _ L4) as [Lt _]. apply (r_square _ Lt) in He as ->. now split. }
  destruct E5 as (ts5 & E1 & E2). rewrite E2 in H. rewrite E1 in L4 |- *. clear E1 E2 He. destruct (lexed_app _ _ L4) as [_ L5].
  assert (HO : o = (if e then false else g || inside) /\ (e = true -> g || inside = true)).
  { destruct e; [|injection Q as <-; now split]. destruct (g || inside); [injection Q as <-; now split|discriminate]. }
  destruct HO as [-> He]. clear Q. bind H stop Q. apply expect_ok in Q as (t6 & r6 & -> & Hs).
  assert (HA : forall v l, loose_clauses c (if e then false else g || inside) v l ->
    loose_clauses c inside (when g L_SQUARE ++ ws ++ F f :: cm ++ when e R_SQUARE ++ v) ((f, text ws) :: l)).
  { intros v l Hv. apply LCl_field; auto. intros X. apply Hopt. rewrite X in Eo. cbn in Eo. now apply negb_false_iff in Eo. }
  rewrite P. change (mkTok AndIdentifier (t_text a)) with (F f).
  destruct stop.
  - destruct (if e then false else g || inside) eqn:Ei; [discriminate|]. injection H as <- <-. cbn [skipn]. destruct (lexed_tail _ _ L5) as [Lt _]. apply (r_brace _ Lt) in Hs as ->.
    exists (when g L_SQUARE ++ ws ++ F f :: cm ++ when e R_SQUARE ++ []), [(f, text ws)].
    split; [rewrite app_nil_r, <- !app_assoc; cbn; now rewrite <- !app_assoc|]. split; [discriminate|]. split; [|exact HF']. apply HA. constructor.
  - apply (IH (done ++ [(f, text ws)])) in H as (w & l & E & Hl & Hw & HX); [|exact L5|exact HF'].
    exists (when g L_SQUARE ++ ws ++ F f :: cm ++ when e R_SQUARE ++ w), ((f, text ws) :: l). rewrite E.
    split; [rewrite <- !app_assoc; cbn; now rewrite <- !app_assoc|]. split; [discriminate|]. split; [now apply HA|]. now rewrite <- app_assoc in HX.
Qed.
Lemma field_no_words w x : loose_field w x -> syntax_of (snd x) = None.
Proof. now intros []. Qed.
Lemma fields_no_words w l : separated comma loose_field w l -> Forall (fun x => syntax_of (snd x) = None) l.
Proof. induction 1; constructor; eauto using field_no_words. Qed.
Lemma worded_nil c : Forall (fun x => syntax_of (snd x) = None) c -> Forall2 (loose_worded []) c c.
Proof.
  induction 1 as [|[k x] c H _ IH]; constructor; [|exact IH]. split; [reflexivity|]. cbn in *. destruct x; cbn in H; subst; cbn; auto 10.
Qed.
Lemma class_loose ts c r : Forall lexed ts -> parse_class ts = Ok (c, r) -> from loose_class ts c r.
Proof.
  unfold parse_class. intros L H. taking H x t ts1. subst ts. apply kw_make in P as ->. destruct (lexed_tail _ _ L) as [_ L1].
  taking H x t ts2. subst ts1. destruct (lexed_tail _ _ L1) as [L2 L3]. apply (l_brace _ L2) in P as ->.
  bind H f Q. destruct f as [fields ts3]. cbn [fst snd] in H. apply fields_loose in Q as (w & l & -> & Hw & Ef); [|exact L3].
  assert (HT : table_of l fields) by (rewrite Ef; exact (tabulate_table l [] [] table_nil)). destruct (lexed_app _ _ L3) as [_ L4]. destruct (lexed_tail _ _ L4) as [_ L5].
  unfold parse_with_syntax in H. bind H b Q. destruct b.
  - apply expect_two in Q as (a1 & a2 & r2 & -> & H1 & H2). apply kw_make in H1 as ->. apply kw_make in H2 as ->. cbn [skipn] in H.
    taking H x t ts4. subst r2. destruct (lexed_tail _ _ L5) as [_ L6]. destruct (lexed_tail _ _ L6) as [_ L7]. destruct (lexed_tail _ _ L7) as [L8 L9]. apply (l_brace _ L8) in P as ->.
    apply (clauses_loose fields _ (proj1 HT) []) in H as (v & cl & -> & Hne & Hv & HF); [|exact L9|].
    + exists (K "CLASS" :: L_BRACE :: w ++ R_BRACE :: K "WITH" :: K "SYNTAX" :: L_BRACE :: v ++ [R_BRACE]). split; [cbn; rewrite <- !app_assoc; cbn; now rewrite <- app_assoc|].
      now apply (LCs_words w l fields v cl).
    + apply worded_nil. apply Forall_forall. intros [k x] Hx. apply (proj2 HT) in Hx as (a & b & -> & _). apply fields_no_words in Hw. apply Forall_app in Hw as [_ Hw]. now inversion_clear Hw.
  - injection H as <- <-. exists (K "CLASS" :: L_BRACE :: w ++ [R_BRACE]). split; [cbn; now rewrite <- app_assoc|]. now apply (LCs_plain w l).
Qed.

(* ------------------------------------------------------------------ *)
(* Object sets                                                         *)
(* ------------------------------------------------------------------ *)
Lemma object_set_loop_loose n : forall root more marker ts root' more' r, Forall lexed ts ->
  object_set_loop n root more marker ts = Ok (root', more', r) ->
  exists w l g, ts = w ++ R_BRACE :: r /\ root' = root ++ l /\ more' = more ++ g /\ loose_object_set marker w l g.
Proof.
  induction n as [|n IH]; [discriminate|]. intros root more marker ts root' more' r L H. cbn [object_set_loop] in H.
  bind H mk Q. apply expect_ok in Q as (t4 & r4 & -> & Hm). bind H ts5 Q.
  assert (S4 : exists w4, t4 :: r4 = w4 ++ ts5 /\ forall v l g, loose_object_set (mk || marker) v l g -> loose_object_set marker (w4 ++ v) l g).
  { destruct (lexed_tail _ _ L) as [L4 L5]. destruct mk.
    - destruct marker; [discriminate|]. cbn [skipn] in Q. apply (dots _ L4) in Hm as ->. apply skip_comma in Q as (c4 & -> & Hc4); [|exact L5]. exists (DOTS :: c4). split; [reflexivity|].
      intros v l g X. cbn. apply LOS_marker. destruct Hc4 as [-> | ->]; [exact X|now constructor].
    - injection Q as <-. exists []. split; [reflexivity|auto]. }
  destruct S4 as (w4 & E4 & H4). rewrite E4 in L |- *. clear Q. destruct (lexed_app _ _ L) as [_ L4]. cbv zeta in H. set (b := mk || marker) in *. clearbody b.
  bind H v Qv. apply attempt_ok in Qv. bind H e Qe. destruct e as [e ts6]. cbn [fst snd] in H.
  assert (S1 : exists w1, ts5 = w1 ++ ts6 /\ match e with None => w1 = [] | Some x => loose_set_item w1 x end).
  { destruct v as [[v r7]|].
    - injection Qe as <- <-. apply set_ish_loose in Qv as (w & -> & Hw & E); [|exact L4]. cbn in E. subst v. exists w. split; [reflexivity|]. now constructor.
    - destruct ts5 as [|t5 r5]; [discriminate|]. destruct (lexed_tail _ _ L4) as [Lt _].
      destruct (is_value_reference t5) eqn:E1; [|destruct (is_type_reference t5) eqn:E2].
      + injection Qe as <- <-. destruct (value_ref _ E1) as [E Hn]. exists [t5]. split; [reflexivity|]. rewrite E at 1. now constructor.
      + injection Qe as <- <-. destruct (type_ref_name _ Lt E2) as [E Hn]. exists [t5]. split; [reflexivity|]. rewrite E at 1. now constructor.
      + injection Qe as <- <-. exists []. now split. }
  destruct S1 as (w1 & -> & Hw1). clear Qv Qe. destruct (lexed_app _ _ L4) as [_ L6].
  assert (S2 : exists l1 g1, match e with None => (root, more) | Some x => if b then (root, more ++ [x]) else (root ++ [x], more) end = (root ++ l1, more ++ g1) /\
    forall v l g, loose_object_set b v l g -> loose_object_set b (w1 ++ v) (l1 ++ l) (g1 ++ g)).
  { destruct e as [x|]; [destruct b|].
    - exists [], [x]. split; [now rewrite app_nil_r|]. intros. now apply LOS_more.
    - exists [x], []. split; [now rewrite app_nil_r|]. intros. now apply LOS_root.
    - exists [], []. split; [now rewrite !app_nil_r|]. subst w1. auto. }
  destruct S2 as (l1 & g1 & E1 & H1). rewrite E1 in H. cbv iota in H. clear E1.
  bind H ts7 Q. apply skip_comma in Q as (c3 & -> & Hc3); [|exact L6]. destruct (lexed_app _ _ L6) as [_ L7].
  assert (H3 : forall v l g, loose_object_set b v l g -> loose_object_set b (c3 ++ v) l g) by (intros v0 l g X; destruct Hc3 as [-> | ->]; [exact X|now constructor]).
  bind H ts8 Q.
  assert (S5 : exists u, ts7 = u ++ ts8 /\ forall v l g, loose_object_set b v l g -> loose_object_set b (u ++ v) l g).
  { destruct ts7 as [|t7 r7]; [discriminate|]. cbn in Q. injection Q as <-. destruct (is_union t7) eqn:Eu; [|exists []; auto].
    exists [t7]. split; [reflexivity|]. intros v0 l g X. cbn. apply LOS_bar; [|exact X]. apply union_bar; [|exact Eu]. now destruct (lexed_tail _ _ L7). }
  destruct S5 as (u & -> & H5). clear Q. destruct (lexed_app _ _ L7) as [_ L8].
  bind H stop Q. apply expect_ok in Q as (t9 & r9 & -> & Hs). destruct stop.
  - injection H as <- <- <-. cbn [skipn]. destruct (lexed_tail _ _ L8) as [L9 _]. apply (r_brace _ L9) in Hs as ->.
    exists (w4 ++ w1 ++ c3 ++ u ++ []), (l1 ++ []), (g1 ++ []). rewrite !app_nil_r. split; [now rewrite <- !app_assoc|]. split; [reflexivity|]. split; [reflexivity|].
    rewrite <- (app_nil_r u), <- (app_nil_r l1), <- (app_nil_r g1). apply H4, H1, H3, H5. constructor.
  - apply IH in H as (w & l & g & E & -> & -> & Hw); [|exact L8]. exists (w4 ++ w1 ++ c3 ++ u ++ w), (l1 ++ l), (g1 ++ g). rewrite E.
    split; [now rewrite <- !app_assoc|]. split; [now rewrite <- app_assoc|]. split; [now rewrite <- app_assoc|]. now apply H4, H1, H3, H5.
Qed.

(* ------------------------------------------------------------------ *)
(* Definitions                                                         *)
(* ------------------------------------------------------------------ *)
Definition GOVERNORS : list string :=
  ["INTEGER"; "BOOLEAN"; "ENUMERATED"; "NULL"; "UTF8String"; "IA5String"; "PrintableString"; "VisibleString"] ++
  ["OBJECT"; "OCTET"; "BIT"; "CHARACTER"; "SEQUENCE"; "SET"; "CHOICE"].
Lemma forallb_in a b : forallb (fun s => existsb (String.eqb s) b) a = true <-> forall s, In s a -> In s b.
Proof.
  rewrite forallb_forall. split; intros H s Hs; specialize (H s Hs).
  - apply existsb_exists in H as (x & Hx & E). apply String.eqb_eq in E. now subst x.
  - apply existsb_exists. exists s. split; [exact H|apply String.eqb_refl].
Qed.
Lemma governor_loose t : lexed t -> is_governor t = true -> loose_governor t.
Proof.
  intros L H. unfold is_governor in H. assert (HT : is_type_reference t = true -> loose_governor t).
  { intros X. destruct (type_ref_name t L X) as [E Hn]. left; left. split; [now rewrite E|exact Hn]. }
  apply orb_prop in H as [H|H]; [apply orb_prop in H as [H|H]|]; [now apply HT| |apply HT; unfold is_class_reference in H; now apply andb_prop in H].
  unfold is_builtin_type in H. apply existsb_exists in H as (s & Hs & E). apply String.eqb_eq in E.
  assert (Hr : reserved s) by exact (proj1 (forallb_in _ _) (eq_refl : forallb (fun b => existsb (String.eqb b) KEYWORDS) BUILTIN_TYPES = true) s Hs).
  rewrite (spelled s t L E Hr). assert (X := proj1 (forallb_in _ _) (eq_refl : forallb (fun b => existsb (String.eqb b) GOVERNORS) BUILTIN_TYPES = true) s Hs).
  unfold GOVERNORS in X. apply in_app_or in X as [X|X]; [left; right; now split|right; now split].
Qed.
Lemma dummy_name t : lexed t -> is_dummy t = true -> t = I (t_text t) /\ (type_name (t_text t) \/ value_name (t_text t)).
Proof.
  intros L H. unfold is_dummy in H. apply orb_prop in H as [H|H]; [destruct (value_ref t H)|destruct (type_ref_name t L H)]; auto.
Qed.
Lemma dummies_loose n : forall acc ts acc' r, Forall lexed ts -> params_loop n acc ts = Ok (acc', r) ->
  exists w l, ts = w ++ R_BRACE :: r /\ acc' = acc ++ l /\ l <> [] /\ repeated (with_comma loose_dummy) w l.
Proof.
  induction n as [|n IH]; [discriminate|]. intros acc ts acc' r L H. cbn [params_loop] in H. bind H b Q. bind H x Qx. destruct x as [x ts1]. cbn [fst snd] in H. cbv zeta in H.
  assert (S1 : exists w1, ts = w1 ++ ts1 /\ loose_dummy w1 x).
  { destruct b.
    - apply expect_three in Q as (g & c & d & r1 & -> & Hg & Hc & Hd). cbn [skipn take] in Qx. rewrite Hd in Qx. injection Qx as <- <-.
      destruct (lexed_tail _ _ L) as [L1 L2]. destruct (lexed_tail _ _ L2) as [L3 L4]. destruct (lexed_tail _ _ L4) as [L5 _]. apply (a_colon _ L3) in Hc as ->.
      destruct (dummy_name d L5 Hd) as [E Hn]. exists [g; COLON; d]. split; [reflexivity|]. rewrite E at 1. constructor; [now apply governor_loose|exact Hn].
    - apply take_ok in Qx as (t & -> & P & ->). destruct (lexed_tail _ _ L) as [L1 _].
      assert (Ht : is_type_reference t = true) by (apply orb_prop in P as [P|P]; [exact P|unfold is_class_reference in P; now apply andb_prop in P]).
      destruct (type_ref_name t L1 Ht) as [E Hn]. exists [t]. split; [reflexivity|]. rewrite E at 1. now constructor. }
  destruct S1 as (w1 & -> & Hw1). clear Q Qx. destruct (lexed_app _ _ L) as [_ L1].
  bind H ts2 Q. apply skip_comma in Q as (c & -> & Hc); [|exact L1]. destruct (lexed_app _ _ L1) as [_ L2].
  bind H stop Q. apply expect_ok in Q as (t & r2 & -> & Hs). destruct stop.
  - injection H as <- <-. cbn [skipn]. destruct (lexed_tail _ _ L2) as [Lt _]. apply (r_brace _ Lt) in Hs as ->.
    exists ((w1 ++ c) ++ []), [x]. split; [rewrite app_nil_r; now rewrite <- app_assoc|]. split; [reflexivity|]. split; [discriminate|]. constructor; [now constructor|constructor].
  - apply IH in H as (w & l & E & -> & _ & Hw); [|exact L2]. exists ((w1 ++ c) ++ w), (x :: l). rewrite E. split; [now rewrite <- !app_assoc|]. split; [now rewrite <- app_assoc|].
    split; [discriminate|]. constructor; [now constructor|exact Hw].
Qed.
Lemma type_assignment_loose ts d r : Forall lexed ts -> parse_type_assignment ts = Ok (d, r) -> from loose_definition ts d r.
Proof.
  unfold parse_type_assignment. intros L H. taking H x a ts1. subst ts. destruct (lexed_tail _ _ L) as [La L1]. destruct (type_ref_name a La P) as [Ea Hn]. clear P.
  bind H p Q. apply attempt_ok in Q. cbv zeta in H. taking H y b ts2. bind H t Qt. destruct t as [t ts3]. injection H as <- <-. cbn [fst snd] in *.
  destruct p as [[l ts4]|]; cbn [fst snd] in *.
  - unfold parse_params in Q. taking Q z c ts5. subst ts1 ts4. destruct (lexed_tail _ _ L1) as [Lc L2]. apply (l_brace _ Lc) in P0 as ->.
    apply dummies_loose in Q as (v & l' & -> & El & Hne & Hv); [|exact L2]. cbn [app] in El. subst l'. destruct (lexed_app _ _ L2) as [_ L3]. destruct (lexed_tail _ _ L3) as [_ L4].
    destruct (lexed_tail _ _ L4) as [Lb L5]. apply (assign _ Lb) in P as ->. apply parse_type_loose in Qt as (w & -> & Hw); [|exact L5].
    exists (a :: L_BRACE :: v ++ R_BRACE :: ASSIGN :: w). split; [cbn; now rewrite <- app_assoc|]. rewrite before_app. rewrite Ea at 1. now constructor.
  - subst ts1. destruct (lexed_tail _ _ L1) as [Lb L5]. apply (assign _ Lb) in P as ->. apply parse_type_loose in Qt as (w & -> & Hw); [|exact L5].
    exists (a :: ASSIGN :: w). split; [reflexivity|]. rewrite Ea at 1. now constructor.
Qed.
Lemma valueish_loose ts d r : Forall lexed ts -> parse_valueish ts = Ok (d, r) -> from loose_definition ts d r.
Proof.
  unfold parse_valueish. intros L H. bind H o Q. apply attempt_ok in Q. destruct o as [x|].
  - injection H as ->. unfold parse_object_assignment in Q. bind Q b Q2. destruct b; [|discriminate]. apply expect_two in Q2 as (i & c & r1 & -> & Hi & Hc).
    taking Q y a ts2. subst r1. bind Q v Q2. destruct v as [v r3]. injection Q as <- <-. cbn [fst snd].
    destruct (lexed_tail _ _ L) as [_ L1]. destruct (lexed_tail _ _ L1) as [Lc L2]. destruct (lexed_tail _ _ L2) as [La L3]. apply (assign _ La) in P as ->.
    destruct (value_ref i Hi) as [Ei Hni]. destruct (class_ref c Lc Hc) as [Ec Hnc]. apply set_ish_loose in Q2 as (w & -> & Hw & ->); [|exact L3].
    exists (i :: c :: ASSIGN :: w). split; [reflexivity|]. rewrite Ei, Ec at 1. now constructor.
  - unfold parse_value_assignment in H. taking H x i ts1. subst ts. destruct (value_ref i P) as [Ei Hni]. destruct (lexed_tail _ _ L) as [_ L1].
    bind H t Qt. destruct t as [t ts2]. cbn [fst snd] in H. apply parse_type_loose in Qt as (w & -> & Hw); [|exact L1]. destruct (lexed_app _ _ L1) as [_ L2].
    taking H y a ts3. subst ts2. destruct (lexed_tail _ _ L2) as [La L3]. apply (assign _ La) in P0 as ->.
    bind H v Qv. destruct v as [v r3]. injection H as <- <-. cbn [fst snd]. assert (Qv' := Qv). apply value_loose in Qv as (u & -> & Hu); [|exact L3].
    exists (i :: w ++ ASSIGN :: u). split; [cbn; now rewrite <- app_assoc|]. rewrite Ei at 1. constructor; [exact Hni|exact Hw|exact Hu|].
    intros [(c & -> & Hc) (t1 & u1 & -> & Ht)]. unfold parse_object_assignment in Q. cbn [app] in Q.
    assert (X : expect_all [is_value_reference; is_class_reference] (i :: I c :: ASSIGN :: t1 :: u1 ++ r3) = Ok true).
    { unfold expect_all. cbn [Datatypes.length Nat.ltb Nat.leb all_match]. rewrite P, (class_reference c Hc). reflexivity. }
    cbn [app] in Qv'. rewrite X in Q. cbn [rbind take] in Q. change (is Assignment ASSIGN) with true in Q. cbn [rbind snd] in Q.
    assert (Y : parse_value (t1 :: u1 ++ r3) = parse_set_ish_value (t1 :: u1 ++ r3)) by (destruct Ht as [-> | ->]; reflexivity).
    rewrite Y in Qv'. rewrite Qv' in Q. discriminate.
Qed.
Lemma typeish_loose ts d r : Forall lexed ts -> parse_typeish ts = Ok (d, r) -> from loose_definition ts d r.
Proof.
  unfold parse_typeish. intros L H. bind H o Q. apply attempt_ok in Q. destruct o as [x|]; [injection H as ->; now apply type_assignment_loose|]. clear Q.
  bind H o Q. apply attempt_ok in Q. destruct o as [x|].
  - injection H as ->. unfold parse_class_assignment in Q. taking Q x a ts1. taking Q y b ts2. bind Q c Qc. destruct c as [c r3]. injection Q as <- <-. subst. cbn [fst snd].
    destruct (lexed_tail _ _ L) as [La L1]. destruct (lexed_tail _ _ L1) as [Lb L2]. destruct (class_ref a La P) as [Ea Hn]. apply (assign _ Lb) in P0 as ->.
    apply class_loose in Qc as (w & -> & Hw); [|exact L2]. exists (a :: ASSIGN :: w). split; [reflexivity|]. rewrite Ea at 1. now constructor.
  - clear Q. unfold parse_object_set_assignment in H. taking H x a ts1. taking H y c ts2. taking H z b ts3. bind H s Qs. destruct s as [[root more] r3]. injection H as <- <-. subst. cbn [fst snd].
    destruct (lexed_tail _ _ L) as [La L1]. destruct (lexed_tail _ _ L1) as [Lc L2]. destruct (lexed_tail _ _ L2) as [Lb L3].
    destruct (type_ref_name a La P) as [Ea Hn]. destruct (class_ref c Lc P0) as [Ec Hc]. apply (assign _ Lb) in P1 as ->.
    unfold parse_object_set in Qs. taking Qs x b ts4. subst ts3. destruct (lexed_tail _ _ L3) as [Lb2 L4]. apply (l_brace _ Lb2) in P1 as ->.
    apply object_set_loop_loose in Qs as (w & l & g & -> & E1 & E2 & Hw); [|exact L4]. cbn [app] in E1, E2. subst l g.
    exists (a :: c :: ASSIGN :: L_BRACE :: w ++ [R_BRACE]). split; [cbn; now rewrite <- app_assoc|]. rewrite Ea, Ec at 1. now constructor.
Qed.
Theorem definition_loose ts d r : Forall lexed ts -> parse_definition ts = Ok (d, r) -> from loose_definition ts d r.
Proof.
  unfold parse_definition. intros L H. destruct ts as [|t ts]; [discriminate|]. destruct (is_value_reference t); [now apply valueish_loose|].
  destruct (is_type_reference t); [now apply typeish_loose|discriminate].
Qed.

(* ------------------------------------------------------------------ *)
(* Modules                                                             *)
(* ------------------------------------------------------------------ *)
Lemma digits_numeral s : forall p acc z, digits acc s = Some z -> numeral p acc -> numeral (p ++ s)%string z.
Proof.
  induction s as [|c s IH]; intros p acc z H Hp; cbn in H.
  - injection H as <-. replace (p ++ "")%string with p; [exact Hp|]. clear. induction p as [|a p IH]; cbn; congruence.
  - destruct (digit_of c) as [d|] eqn:Ed; [|discriminate]. replace (p ++ String c s)%string with ((p ++ String c "") ++ s)%string.
    + apply (IH _ _ _ H). constructor; [exact Hp|]. unfold digit_of in Ed. unfold digit. destruct ((48 <=? Z.of_N (N_of_ascii c)) && (Z.of_N (N_of_ascii c) <=? 57))%Z eqn:E; [|discriminate]. injection Ed as <-. lia.
    + clear. induction p as [|a p IH]; cbn; congruence.
Qed.
Lemma u32_arc t z : lexed t -> is NumberInt t = true -> parse_u32 (t_text t) = Some z -> arc_number (t_text t).
Proof.
  intros L Hi H. apply is_type in Hi. unfold lexed in L. rewrite Hi in L. unfold parse_u32 in H. exists z.
  destruct (t_text t) as [|c s]; [contradiction|]. cbn in L.
  assert (E : match String c s with String "+" r => unsigned r | _ => unsigned (String c s) end = digits 0 (String c s)).
  { destruct c as [b0 b1 b2 b3 b4 b5 b6 b7]. destruct b0, b1, b2, b3, b4, b5, b6, b7; try reflexivity; exfalso; cbn in L; lia. }
  rewrite E in H. destruct (digits 0 (String c s)) as [y|] eqn:Ed; [|discriminate]. destruct (Z.ltb_spec y (2 ^ 32)); [|discriminate]. injection H as <-. split; [|assumption].
  cbn [digits] in Ed. destruct (digit_of c) as [d|] eqn:Edc; [|discriminate]. change (String c s) with (String c "" ++ s)%string. apply (digits_numeral s _ _ _ Ed).
  replace (10 * 0 + d)%Z with d by lia. constructor. unfold digit_of in Edc. unfold digit. destruct ((48 <=? Z.of_N (N_of_ascii c)) && (Z.of_N (N_of_ascii c) <=? 57))%Z eqn:E2; [|discriminate]. injection Edc as <-. lia.
Qed.
Lemma arc_loose ts r : Forall lexed ts -> parse_oid_component ts = Ok r -> exists w, ts = w ++ r /\ arc_syntax w tt.
Proof.
  unfold parse_oid_component. intros L H. destruct ts as [|t ts]; [discriminate|]. destruct (lexed_tail _ _ L) as [Lt L1]. destruct (is Identifier t) eqn:E.
  - unfold parse_named_oid_component in H. destruct (is_value_reference t) eqn:Er; [|discriminate]. destruct (value_ref t Er) as [Et Hn]. bind H b Q. apply attempt_ok in Q.
    assert (HK : (if existsb (String.eqb (t_text t)) WELL_KNOWN_OID_NAMES then Ok ts else Err) = Ok r -> exists w, t :: ts = w ++ r /\ arc_syntax w tt).
    { intros X. destruct (existsb (String.eqb (t_text t)) WELL_KNOWN_OID_NAMES) eqn:Ek; [|discriminate]. injection X as <-. exists [t]. split; [reflexivity|]. rewrite Et. constructor.
      apply existsb_exists in Ek as (s & Hs & Es). apply String.eqb_eq in Es. rewrite Es. unfold WELL_KNOWN_OID_NAMES in Hs. unfold known_arcs. cbn [In] in *. intuition. }
    destruct b as [[]|]; [|apply HK; destruct ts as [|a1 [|a2 [|a3 ts]]]; exact H|apply HK; destruct ts as [|a1 [|a2 [|a3 ts]]]; exact H].
    apply expect_three in Q as (a1 & a2 & a3 & r1 & -> & H1 & H2 & H3). destruct (parse_u32 (t_text a2)) as [z|] eqn:Ez; [|discriminate]. injection H as <-.
    destruct (lexed_tail _ _ L1) as [Ll L2]. destruct (lexed_tail _ _ L2) as [Lm L3]. destruct (lexed_tail _ _ L3) as [Lr _]. apply (l_paren _ Ll) in H1 as ->. apply (r_paren _ Lr) in H3 as ->.
    assert (Ha := u32_arc a2 z Lm H2 Ez). apply is_make in H2. exists [t; L_PAREN; a2; R_PAREN]. split; [reflexivity|]. rewrite Et, H2. now constructor.
  - destruct (is NumberInt t) eqn:En; [|discriminate]. destruct (parse_u32 (t_text t)) as [z|] eqn:Ez; [|discriminate]. injection H as <-.
    assert (Ha := u32_arc t z Lt En Ez). apply is_make in En. exists [t]. split; [reflexivity|]. rewrite En. now constructor.
Qed.
Lemma oid_loose n : forall ts r, Forall lexed ts -> oid_loop n ts = Ok r -> exists w l, ts = w ++ R_BRACE :: r /\ repeated arc_syntax w l.
Proof.
  induction n as [|n IH]; [discriminate|]. intros ts r L H. cbn [oid_loop] in H. bind H stop Q. apply expect_ok in Q as (t & r1 & -> & Hs). destruct stop.
  - injection H as <-. destruct (lexed_tail _ _ L) as [Lt _]. apply (r_brace _ Lt) in Hs as ->. exists [], []. split; [reflexivity|constructor].
  - bind H r2 Q. apply arc_loose in Q as (w & E & Hw); [|exact L]. rewrite E in L |- *. destruct (lexed_app _ _ L) as [_ L1]. apply IH in H as (v & l & -> & Hv); [|exact L1].
    exists (w ++ v), (tt :: l). split; [now rewrite app_assoc|]. now constructor.
Qed.
Lemma module_name_loose ts n r : Forall lexed ts -> parse_module_name ts = Ok (n, r) -> exists v, ts = I n :: v ++ r /\ type_name n /\ oid_syntax v.
Proof.
  unfold parse_module_name. intros L H. taking H x t ts1. subst ts. destruct (lexed_tail _ _ L) as [Lt L1]. destruct (type_ref_name t Lt P) as [Et Hn].
  assert (HX : exists v, ts1 = v ++ r /\ n = t_text t /\ oid_syntax v).
  { destruct ts1 as [|b ts1]; [injection H as <- <-; exists []; repeat split; constructor|].
    destruct (is CurlyBegin b) eqn:Eb; [|injection H as <- <-; exists []; repeat split; constructor].
    bind H r1 Q. injection H as <- <-. unfold parse_object_identifier in Q. cbn [take] in Q. rewrite Eb in Q. cbn [rbind snd] in Q. destruct (lexed_tail _ _ L1) as [Lb L2].
    apply (l_brace _ Lb) in Eb as ->. apply oid_loose in Q as (w & l & -> & Hw); [|exact L2]. exists (L_BRACE :: w ++ [R_BRACE]). split; [cbn; now rewrite <- app_assoc|]. split; [reflexivity|]. now apply (OIS_some w l). }
  destruct HX as (v & -> & -> & Hv). exists v. rewrite Et at 1. auto.
Qed.
Lemma imported_loose n : forall acc ts acc' r, Forall lexed ts -> imported_loop n acc ts = Ok (acc', r) ->
  exists w, ts = w ++ K "FROM" :: r /\ acc' = acc ++ flat_map name_of w /\ ~ In (K "FROM") w.
Proof.
  induction n as [|n IH]; [discriminate|]. intros acc ts acc' r L H. cbn [imported_loop] in H. bind H stop Q. apply expect_ok in Q as (t & r1 & -> & Hs). destruct stop.
  - injection H as <- <-. apply kw_make in Hs as ->. exists []. split; [reflexivity|]. split; [now rewrite app_nil_r|intros []].
  - bind H r2 Q. destruct (lexed_tail _ _ L) as [_ L1]. apply skip_comma in Q as (c & -> & Hc); [|exact L1]. destruct (lexed_app _ _ L1) as [_ L2].
    apply IH in H as (w & -> & -> & Hw); [|exact L2]. exists (t :: c ++ w). split; [cbn; now rewrite <- app_assoc|].
    assert (Ec : flat_map name_of (c ++ w) = flat_map name_of w) by (destruct Hc as [-> | ->]; reflexivity). cbn [flat_map]. rewrite Ec. split.
    + unfold name_of at 2, is. destruct (t_type t); cbn [token_type_beq app]; try reflexivity. now rewrite <- app_assoc.
    + intros [X|X]; [subst t; discriminate|]. apply in_app_iff in X as [X|X]; [|contradiction]. destruct Hc as [-> | ->]; [destruct X|destruct X as [X|[]]; discriminate].
Qed.
Lemma imports_fold nm l : forall imports imports' : list (string * string), NoDup (names imports) ->
  rfold (fun m k => match lookup k m with Some _ => Err | None => Ok (m ++ [(k, nm)]) end) imports l = Ok imports' ->
  imports' = imports ++ map (fun s => (s, nm)) l /\ NoDup (names imports').
Proof.
  induction l as [|k l IH]; intros imports imports' N H; cbn in H; [injection H as <-; now rewrite app_nil_r|].
  destruct (lookup k imports) eqn:E; [discriminate|]. apply IH in H as [-> H2].
  - split; [now rewrite <- app_assoc|exact H2].
  - unfold names. rewrite map_app. cbn. assert (X : ~ In k (map fst imports)).
    { clear - E. induction imports as [|[k1 v1] m IH]; cbn in *; [tauto|]. destruct (String.eqb_spec k k1); [discriminate|]. intros [X|X]; [congruence|now apply IH]. }
    unfold names in N. clear - N X. induction (map fst imports) as [|a m IH]; cbn; [repeat constructor; intros []|]. inversion_clear N as [|? ? N1 N2]. constructor.
    + rewrite in_app_iff. cbn in *. intros [Y|[Y|[]]]; [contradiction|]. apply X. now left.
    + apply IH; [exact N2|]. intros Y. apply X. now right.
Qed.
Lemma imports_loose n : forall imports ts imports' r, Forall lexed ts -> NoDup (names imports) -> imports_loop n imports ts = Ok (imports', r) ->
  exists w l, ts = w ++ SEMICOLON :: r /\ repeated loose_import w l /\ l <> [] /\ imports' = imports ++ List.concat l /\ NoDup (names imports').
Proof.
  induction n as [|n IH]; [discriminate|]. intros imports ts imports' r L N H. cbn [imports_loop] in H. bind H d Q. destruct d as [d ts1]. cbn [fst snd] in H.
  apply imported_loose in Q as (w & -> & E & Hw); [|exact L]. cbn [app] in E. subst d. destruct (lexed_app _ _ L) as [_ L1]. destruct (lexed_tail _ _ L1) as [_ L2].
  bind H nm Q. destruct nm as [nm ts2]. cbn [fst snd] in H. apply module_name_loose in Q as (v & -> & Hn & Hv); [|exact L2].
  bind H imps Q. apply imports_fold in Q as [Ei Ni]; [|exact N]. destruct (lexed_tail _ _ L2) as [_ L3]. destruct (lexed_app _ _ L3) as [_ L4].
  assert (HI : loose_import (w ++ K "FROM" :: I nm :: v) (map (fun s => (s, nm)) (flat_map name_of w))) by now constructor.
  bind H stop Q. apply expect_ok in Q as (t & r3 & -> & Hs). destruct stop.
  - injection H as <- <-. cbn [skipn]. destruct (lexed_tail _ _ L4) as [Lt _]. apply (semicolon _ Lt) in Hs as ->.
    exists ((w ++ K "FROM" :: I nm :: v) ++ []), [map (fun s => (s, nm)) (flat_map name_of w)]. split; [rewrite app_nil_r, <- app_assoc; reflexivity|].
    split; [constructor; [exact HI|constructor]|]. split; [discriminate|]. split; [cbn; now rewrite app_nil_r|exact Ni].
  - apply IH in H as (u & l & E & Hu & _ & -> & N2); [|exact L4|exact Ni]. exists ((w ++ K "FROM" :: I nm :: v) ++ u), (map (fun s => (s, nm)) (flat_map name_of w) :: l).
    split; [rewrite E, <- !app_assoc; cbn; now rewrite <- ?app_assoc|]. split; [now constructor|]. split; [discriminate|]. split; [|exact N2]. rewrite Ei. cbn. now rewrite <- app_assoc.
Qed.
Lemma definitions_loose n : forall defs ts defs' r, Forall lexed ts -> definitions_loop n defs ts = Ok (defs', r) ->
  exists w l, ts = w ++ K "END" :: r /\ repeated loose_definition w l /\ defs' = tabulate (map (fun d => (pd_id d, d)) l) defs.
Proof.
  induction n as [|n IH]; [discriminate|]. intros defs ts defs' r L H. cbn [definitions_loop] in H. bind H stop Q. apply expect_ok in Q as (t & r1 & -> & Hs). destruct stop.
  - injection H as <- <-. apply kw_make in Hs as ->. exists [], []. split; [reflexivity|]. split; [constructor|reflexivity].
  - bind H d Q. destruct d as [d r2]. cbn [fst snd] in H. apply definition_loose in Q as (w & E & Hw); [|exact L]. rewrite E in L |- *. destruct (lexed_app _ _ L) as [_ L1].
    apply IH in H as (v & l & -> & Hv & ->); [|exact L1]. exists (w ++ v), (d :: l). split; [now rewrite app_assoc|]. split; [now constructor|reflexivity].
Qed.
Theorem module_loose ts m r : Forall lexed ts -> parse_module ts = Ok (m, r) -> from loose_module ts m r.
Proof.
  unfold parse_module. intros L H. bind H nm Q. destruct nm as [nm ts1]. cbn [fst snd] in H. apply module_name_loose in Q as (oid & -> & Hn & Ho); [|exact L].
  destruct (lexed_tail _ _ L) as [_ L1]. destruct (lexed_app _ _ L1) as [_ L2]. taking H x t ts2. subst ts1. apply kw_make in P as ->. destruct (lexed_tail _ _ L2) as [_ L3].
  bind H ts3 Q. assert (HT : exists tags, ts2 = tags ++ ts3 /\ tags_syntax tags).
  { unfold skip_header_tags in Q. bind Q b Qb. apply expect_ok in Qb as (a & r3 & -> & Hb). destruct b; [|injection Q as <-; exists []; split; [reflexivity|constructor]].
    cbn [skipn] in Q. taking Q y c ts4. injection Q as <-. subst r3. apply kw_make in P as ->.
    assert (Ha : exists k, a = K k /\ In k ["EXPLICIT"; "IMPLICIT"; "AUTOMATIC"]).
    { apply orb_prop in Hb as [Hb|Hb]; [apply orb_prop in Hb as [Hb|Hb]|]; apply kw_make in Hb as ->; eexists; (split; [reflexivity|cbn; tauto]). }
    destruct Ha as (k & -> & Hk). exists [K k; K "TAGS"]. split; [reflexivity|now constructor]. }
  destruct HT as (tags & -> & Ht). clear Q. destruct (lexed_app _ _ L3) as [_ L4]. taking H x t ts4. subst ts3. destruct (lexed_tail _ _ L4) as [Lt L5]. apply (assign _ Lt) in P as ->.
  taking H x t ts5. subst ts4. destruct (lexed_tail _ _ L5) as [_ L6]. apply kw_make in P as ->.
  bind H i Q. destruct i as [i ts6]. cbn [fst snd] in H. assert (HI : exists v, ts5 = v ++ ts6 /\ loose_imports v i).
  { unfold parse_module_imports in Q. bind Q b Qb. apply expect_ok in Qb as (a & r3 & -> & Hb). destruct b; [|injection Q as <- <-; exists []; split; [reflexivity|constructor]].
    cbn [skipn] in Q. apply kw_make in Hb as ->. destruct (lexed_tail _ _ L6) as [_ L7]. apply imports_loose in Q as (w & l & -> & Hw & Hl & Ei & Ni); [|exact L7|constructor]. cbn [app] in Ei. subst i.
    exists (K "IMPORTS" :: w ++ [SEMICOLON]). split; [cbn; now rewrite <- app_assoc|]. now constructor. }
  destruct HI as (v & -> & Hi). clear Q. destruct (lexed_app _ _ L6) as [_ L7]. bind H d Q. destruct d as [d ts7]. injection H as <- <-. cbn [fst snd].
  apply definitions_loose in Q as (w & l & -> & Hw & ->); [|exact L7].
  exists (I nm :: oid ++ K "DEFINITIONS" :: tags ++ ASSIGN :: K "BEGIN" :: v ++ w ++ [K "END"]). split; [cbn; rewrite <- !app_assoc; cbn; rewrite <- !app_assoc; cbn; now rewrite <- !app_assoc|].
  apply (LMo nm oid tags v i w l); auto. exact (tabulate_table _ [] [] table_nil).
Qed.
Lemma modules_loose n : forall acc ts ms, Forall lexed ts -> modules_loop n acc ts = Ok ms -> exists l, ms = acc ++ l /\ l <> [] /\ repeated loose_module ts l.
Proof.
  induction n as [|n IH]; [discriminate|]. intros acc ts ms L H. cbn [modules_loop] in H. bind H m Q. destruct m as [m r]. cbn [fst snd] in H.
  apply module_loose in Q as (w & -> & Hw); [|exact L]. destruct (lexed_app _ _ L) as [_ L1]. destruct r as [|t r].
  - injection H as <-. exists [m]. split; [reflexivity|]. split; [discriminate|]. constructor; [exact Hw|constructor].
  - apply IH in H as (l & -> & _ & Hl); [|exact L1]. exists (m :: l). split; [now rewrite <- app_assoc|]. split; [discriminate|]. now constructor.
Qed.
