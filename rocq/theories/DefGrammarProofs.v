(* The parser reads every definition and module of the notation as what it
   denotes. *)
From Coq Require Import ZArith NArith List Bool String Ascii Lia.
From Coq Require Import ZifyBool ZifyNat ZifyN.
Require Import Verif.Base Verif.Asn1Model Verif.ResolveModel Verif.TokenModel Verif.ParserModel Verif.ModuleModel Verif.DefinitionModel
  Verif.ParserSpec Verif.DefinitionSpec Verif.ObjectProofs Verif.ResolveProofs Verif.ModuleProofs Verif.GrammarProofs.
Import ListNotations.
Open Scope string_scope.
Open Scope list_scope.

(* ------------------------------------------------------------------ *)
(* Tables                                                              *)
(* ------------------------------------------------------------------ *)
Lemma replace_new {A} k (v : A) l : ~ In k (names l) -> replace k v l = l ++ [(k, v)].
Proof.
  induction l as [|[k' v'] l IH]; cbn; [reflexivity|]. intros H. destruct (String.eqb_spec k k') as [-> |Hk]; [now destruct H; left|].
  f_equal. apply IH. tauto.
Qed.
Lemma replace_names {A} k (v : A) l : In k (names l) -> names (replace k v l) = names l.
Proof.
  induction l as [|[k' v'] l IH]; cbn; [contradiction|]. intros H. destruct (String.eqb_spec k k') as [-> |Hk]; [reflexivity|].
  cbn. f_equal. apply IH. destruct H; [congruence|assumption].
Qed.
Lemma lookup_replace {A} k (v : A) l k' : lookup k' (replace k v l) = if String.eqb k' k then Some v else lookup k' l.
Proof.
  induction l as [|[k1 v1] l IH]; cbn; [reflexivity|]. destruct (String.eqb_spec k k1) as [-> |Hk]; cbn.
  - now destruct (String.eqb k' k1).
  - rewrite IH. destruct (String.eqb_spec k' k1) as [-> |Hk']; [|reflexivity].
    now destruct (String.eqb_spec k1 k); [congruence|].
Qed.

(* ------------------------------------------------------------------ *)
(* Classes                                                             *)
(* ------------------------------------------------------------------ *)
Lemma value_field f : value_field_name f -> is_value_field (F f) = true.
Proof. intros (r & -> & H). unfold is_value_field. cbn. destruct r as [|c r]; cbn in *; [contradiction|]. unfold small, lower_ascii in *. lia. Qed.
Lemma type_field f : type_field_name f -> is_type_field (F f) = true.
Proof. intros (r & -> & H). unfold is_type_field. cbn. destruct r as [|c r]; cbn in *; [contradiction|]. unfold capital, upper_ascii in *. lia. Qed.
Lemma type_not_value_field f : type_field_name f -> is_value_field (F f) = false.
Proof. intros (r & -> & H). unfold is_value_field. cbn. destruct r as [|c r]; cbn in *; [contradiction|]. unfold capital, lower_ascii in *. lia. Qed.
Definition ends_item (t : tok) : Prop := t = COMMA \/ t = R_BRACE.
Lemma options_head v u o d t r : field_options v u o d -> ends_item t -> follows_type (v ++ t :: r).
Proof. intros [| | | |w x Hw] [-> | ->]; cbn; intuition discriminate. Qed.
Lemma read_field w kf t r : field_syntax w kf -> ends_item t -> parse_field_spec (w ++ t :: r) = Ok (kf, t :: r).
Proof.
  intros H Ht. unfold parse_field_spec. destruct H as [f w ty v u o d Hf Hty Ho|f Hf|f Hf|f w ty Hf Hty]; cbn [app expect rbind].
  - rewrite (value_field f Hf). unfold parse_value_field_spec. cbn [take]. rewrite (value_field f Hf). cbn [rbind fst snd].
    rewrite <- app_assoc. rewrite (parse_type_complete w ty (v ++ t :: r) Hty (options_head v u o d t r Ho Ht)). cbn [rbind fst snd].
    destruct Ho as [| | | |x y Hx].
    1-4: destruct Ht as [-> | ->]; reflexivity.
    cbn [app expect attempt]. change (kw "UNIQUE" (K "DEFAULT")) with false. cbn [rbind expect].
    change (kw "OPTIONAL" (K "DEFAULT")) with false. change (kw "DEFAULT" (K "DEFAULT")) with true. cbv iota. cbn [rbind skipn].
    rewrite (read_value x y _ Hx). reflexivity.
  - rewrite (type_not_value_field f Hf), (type_field f Hf). cbv iota. unfold parse_type_field_spec. cbn [take]. rewrite (type_field f Hf).
    destruct Ht as [-> | ->]; reflexivity.
  - rewrite (type_not_value_field f Hf), (type_field f Hf). cbv iota. unfold parse_type_field_spec. cbn [take]. rewrite (type_field f Hf).
    destruct Ht as [-> | ->]; reflexivity.
  - rewrite (type_not_value_field f Hf), (type_field f Hf). cbv iota. unfold parse_type_field_spec. cbn [take]. rewrite (type_field f Hf).
    cbn [rbind fst snd expect]. change (kw "OPTIONAL" (K "DEFAULT")) with false. change (kw "DEFAULT" (K "DEFAULT")) with true. cbv iota. cbn [rbind skipn].
    rewrite (parse_type_complete w ty (t :: r) Hty) by (destruct Ht as [-> | ->]; cbn; intuition discriminate). reflexivity.
Qed.
Lemma read_fields w l : separated comma field_syntax w l -> forall n acc r, NoDup (names (acc ++ l)) ->
  (List.length (w ++ R_BRACE :: r) < n)%nat -> fields_loop n acc (w ++ R_BRACE :: r) = Ok (acc ++ l, r).
Proof.
  induction 1 as [w a Ha|w a t v l Ha Ht Hv IH]; intros n acc r Hnd Hn; (destruct n as [|n]; [lia|]); cbn [fields_loop].
  - rewrite (read_field w a R_BRACE r Ha) by (unfold ends_item; tauto). cbn [rbind fst snd].
    rewrite replace_new. { destruct a. reflexivity. }
    unfold names in *. rewrite map_app in Hnd. apply NoDup_remove_2 in Hnd. now rewrite app_nil_r in Hnd.
  - red in Ht. subst t. rewrite <- app_assoc. cbn [app].
    rewrite (read_field w a COMMA _ Ha) by (unfold ends_item; tauto). cbn [rbind fst snd].
    change (is Comma COMMA) with true. cbv iota. rewrite replace_new.
    + replace (fst a, snd a) with a by now destruct a. rewrite IH; [now rewrite <- app_assoc|now rewrite <- app_assoc|lens].
    + unfold names in *. rewrite map_app in Hnd. cbn [map] in Hnd. apply NoDup_remove_2 in Hnd. rewrite in_app_iff in Hnd. tauto.
Qed.

(* the words of the fields *)
Definition put (acc : class) (p : string * string) : class :=
  match lookup (fst p) acc with Some s => replace (fst p) (with_syntax (snd p) s) acc | None => acc end.
Lemma reserved_words t : word t -> is_reserved_word t = false.
Proof.
  intros (_ & _ & _ & H). unfold is_reserved_word. destruct (existsb (String.eqb (t_text t)) RESERVED_WORDS) eqn:E; [|reflexivity].
  exfalso. apply H. apply existsb_exists in E as (s & Hs & E). apply String.eqb_eq in E. subst s. unfold RESERVED_WORDS, no_word in *. cbn [In] in *. tauto.
Qed.
Lemma word_kind t ty : word t -> ty <> Identifier -> ty <> Keyword -> is ty t = false.
Proof. intros (H & _) H1 H2. apply is_other. cbn in H. intuition congruence. Qed.
Lemma words_read ws f r : Forall word ws -> words_before (is AndIdentifier) (ws ++ F f :: r) = (ws, F f :: r).
Proof.
  induction 1 as [|t ws Ht _ IH]; cbn; [reflexivity|]. rewrite (word_kind t AndIdentifier Ht) by discriminate. now rewrite IH.
Qed.
Lemma words_fine ws : Forall word ws -> existsb is_reserved_word ws = false.
Proof. induction 1 as [|t ws Ht _ IH]; cbn [existsb]; [reflexivity|]. now rewrite (reserved_words t Ht), IH. Qed.
Definition absent (acc : class) (f : string) : Prop := exists s, lookup f acc = Some s /\ may_be_absent s = true.
(* what is after the field *)
Definition words_tail (n : nat) (optional : bool) (acc : class) (ts : list tok) : res (class * list tok) :=
  r <-- skip_if (is Comma) ts ;;
  e <-- expect (is SquareEnd) r ;;
  o <-- (if e then if optional then Ok false else Err else Ok optional) ;;
  let r := if e then skipn 1 r else r in
  stop <-- expect (is CurlyEnd) r ;;
  if stop then if o then Err else Ok (acc, skipn 1 r) else with_syntax_loop n o acc r.
Lemma words_turn n (square optional : bool) acc w p r : words_syntax w p -> (exists s, lookup (fst p) acc = Some s) ->
  (square || optional = true -> absent acc (fst p)) ->
  with_syntax_loop (S n) optional acc ((if square then [L_SQUARE] else []) ++ w ++ r) = words_tail n (square || optional) (put acc p) r.
Proof.
  intros [ws f Hws Hf] [s Hs] Hopt. cbn [fst snd] in *. cbn [with_syntax_loop].
  assert (Hg : expect (is SquareBegin) ((if square then [L_SQUARE] else []) ++ (ws ++ [F f]) ++ r) = Ok square).
  { destruct square; [reflexivity|]. cbn [app]. destruct Hws as [|t ws Ht _]; [reflexivity|]. cbn. now rewrite (word_kind t SquareBegin Ht) by discriminate. }
  rewrite Hg. cbn [rbind].
  replace (if square then skipn 1 ((if square then [L_SQUARE] else []) ++ (ws ++ [F f]) ++ r) else (if square then [L_SQUARE] else []) ++ (ws ++ [F f]) ++ r)
    with (ws ++ F f :: r) by (destruct square; cbn; now rewrite <- app_assoc).
  rewrite (words_read ws f r Hws). rewrite (words_fine ws Hws). cbn [take]. change (is AndIdentifier (F f)) with true. cbv iota. cbn [rbind fst snd t_text F].
  unfold put. cbn [fst snd]. rewrite Hs.
  replace ((square || optional) && negb (may_be_absent s)) with false; [reflexivity|].
  destruct (square || optional) eqn:E; [|reflexivity]. destruct (Hopt eq_refl) as (s' & Hs' & Ha). rewrite Hs in Hs'. injection Hs' as <-. now rewrite Ha.
Qed.
Definition starts_clause (ts : list tok) : Prop := exists t r, ts = t :: r /\ is Comma t = false /\ is SquareEnd t = false.
Lemma words_starts w p r : words_syntax w p -> starts_clause (w ++ r).
Proof.
  intros [ws f Hws Hf]. destruct Hws as [|t ws Ht _]; [exists (F f), r; now repeat split|].
  exists t. eexists. split; [reflexivity|]. split; now apply word_kind; [|discriminate..].
Qed.
Lemma words_not_end w p r : words_syntax w p -> expect (is CurlyEnd) (w ++ r) = Ok false.
Proof.
  intros [ws f Hws Hf]. destruct Hws as [|t ws Ht _]; [reflexivity|]. cbn. now rewrite (word_kind t CurlyEnd Ht) by discriminate.
Qed.
Lemma tail_on n optional acc ts : starts_clause ts -> expect (is CurlyEnd) ts = Ok false -> words_tail n optional acc ts = with_syntax_loop n optional acc ts.
Proof. intros (t & r & -> & H1 & H2) H3. unfold words_tail. cbn [skip_if]. rewrite H1. cbn [rbind expect]. rewrite H2. cbn [rbind]. now rewrite H3. Qed.
Lemma tail_stop n acc r : words_tail n false acc (R_BRACE :: r) = Ok (acc, r).
Proof. reflexivity. Qed.
Lemma tail_square n acc r : (exists t r0, r = t :: r0 /\ is CurlyEnd t = false) -> words_tail n true acc (R_SQUARE :: r) = with_syntax_loop n false acc r.
Proof. intros (t & r0 & -> & H). unfold words_tail. cbn. now rewrite H. Qed.
Lemma tail_square_stop n acc r : words_tail n true acc (R_SQUARE :: R_BRACE :: r) = Ok (acc, r).
Proof. reflexivity. Qed.
Lemma put_names acc p : (exists s, lookup (fst p) acc = Some s) -> names (put acc p) = names acc.
Proof. intros [s Hs]. unfold put. rewrite Hs. apply replace_names. apply lookup_in in Hs. exact (in_map fst _ _ Hs). Qed.
Lemma absent_put acc p f : absent acc f -> absent (put acc p) f.
Proof.
  intros (s & Hs & Ha). unfold put. destruct (lookup (fst p) acc) as [s'|] eqn:E; [|now exists s].
  unfold absent. rewrite lookup_replace. destruct (String.eqb_spec f (fst p)) as [-> |Hf]; [|eauto].
  rewrite Hs in E. injection E as <-. eexists. split; [reflexivity|]. now destruct s.
Qed.
Lemma known_put acc p f : (exists s, lookup f acc = Some s) -> exists s, lookup f (put acc p) = Some s.
Proof.
  intros (s & Hs). unfold put. destruct (lookup (fst p) acc) as [s'|] eqn:E; [|now exists s].
  rewrite lookup_replace. destruct (String.eqb f (fst p)); eauto.
Qed.
Lemma in_known (c : class) f : In f (names c) -> exists s, lookup f c = Some s.
Proof. intros H. destruct (lookup f c) eqn:E; [eauto|]. apply lookup_none in E. contradiction. Qed.
Lemma optional_absent c f : NoDup (names c) -> optional_field c f -> absent c f.
Proof.
  intros Hnd (s & Hs & Ho). exists s. split; [now apply lookup_nodup|]. destruct s as [o d ?|? ? o d ?]; cbn; destruct Ho as [-> |Hd]; try reflexivity;
    (destruct d; [now rewrite orb_true_r|congruence]).
Qed.
(* a group up to its bracket: the first field with the bracket, the others without *)
Lemma read_group w l : repeated words_syntax w l -> forall n (square : bool) acc r, l <> [] ->
  Forall (fun p => absent acc (fst p)) l -> (List.length ((if square then [L_SQUARE] else []) ++ w ++ R_SQUARE :: r) < n)%nat ->
  exists k, (List.length r < k)%nat /\
  with_syntax_loop n (negb square) acc ((if square then [L_SQUARE] else []) ++ w ++ R_SQUARE :: r) = words_tail k true (fold_left put l acc) (R_SQUARE :: r).
Proof.
  induction 1 as [|w p v l Hp Hv IH]; intros n square acc r Hne Hab Hn; [congruence|]. clear Hne. inversion Hab as [|? ? Ha1 Ha2]; subst.
  destruct n as [|n]; [lia|]. rewrite <- app_assoc.
  rewrite (words_turn n square (negb square) acc w p (v ++ R_SQUARE :: r) Hp) by (intros; assumption || (destruct Ha1 as (s & Hs & _); eauto)).
  replace (square || negb square) with true by now destruct square. cbn [fold_left].
  assert (Hw : (1 <= List.length w)%nat) by (destruct Hp; rewrite app_length; cbn; lia).
  destruct l as [|q l].
  - inversion Hv; subst. cbn [app fold_left]. exists n. split; [lens|reflexivity].
  - destruct (IH n false (put acc p) r ltac:(discriminate)) as (k & Hk & E).
    { eapply Forall_impl; [|exact Ha2]. intros q' Hq. now apply absent_put. }
    { clear IH. destruct square; lens. }
    exists k. split; [exact Hk|]. cbn [negb app] in E. rewrite <- E. apply tail_on.
    + inversion Hv; subst. rewrite <- app_assoc. eapply words_starts; eassumption.
    + inversion Hv; subst. rewrite <- app_assoc. eapply words_not_end; eassumption.
Qed.
Lemma clause_starts c w l r : clause_syntax c w l -> starts_clause (w ++ r) /\ exists t r0, w ++ r = t :: r0 /\ is CurlyEnd t = false.
Proof.
  intros [w' p Hp _|w' l' Hw _ _].
  - split; [eapply words_starts; eassumption|]. pose proof (words_not_end w' p r Hp) as H. destruct (w' ++ r) as [|t r0]; [discriminate|].
    exists t, r0. split; [reflexivity|]. cbn in H. now injection H.
  - split; [exists L_SQUARE|exists L_SQUARE]; eexists; now repeat split.
Qed.
Lemma read_clauses c : NoDup (names c) -> forall w l, repeated (clause_syntax c) w l -> forall n acc r, l <> [] ->
  (forall f, In f (names c) -> exists s, lookup f acc = Some s) -> (forall f, absent c f -> absent acc f) ->
  (List.length (w ++ R_BRACE :: r) < n)%nat ->
  with_syntax_loop n false acc (w ++ R_BRACE :: r) = Ok (fold_left put (List.concat l) acc, r).
Proof.
  intros Hnd w l H. induction H as [|w a v l Ha Hv IH]; intros n acc r Hne Hkn Hab Hn; [congruence|]. clear Hne.
  rewrite <- app_assoc. cbn [List.concat]. rewrite fold_left_app.
  assert (Hgo : exists k acc', acc' = fold_left put a acc /\ (List.length (v ++ R_BRACE :: r) < k)%nat /\
    with_syntax_loop n false acc (w ++ v ++ R_BRACE :: r) =
    match l with [] => Ok (acc', r) | _ => with_syntax_loop k false acc' (v ++ R_BRACE :: r) end).
  { destruct Ha as [w p Hp Hin|w a Hw Hane Hall].
    - destruct n as [|n]; [lia|]. exists n, (put acc p). split; [reflexivity|].
      assert (Hw : (1 <= List.length w)%nat) by (destruct Hp; rewrite app_length; cbn; lia).
      split; [lens|].
      pose proof (words_turn n false false acc w p (v ++ R_BRACE :: r) Hp (Hkn _ Hin)) as E. cbn [app orb] in E. rewrite E by discriminate.
      destruct l as [|a' l]; [inversion Hv; subst; apply tail_stop|].
      inversion Hv; subst. rewrite <- app_assoc. apply tail_on; [|pose proof (words_not_end)].
      + eapply clause_starts; eassumption.
      + match goal with H : clause_syntax c ?u _ |- context [?u ++ ?x] => destruct (clause_starts c u _ x H) as [_ (t & r0 & -> & E')] end. cbn. now rewrite E'.
    - destruct (read_group w a Hw n true acc (v ++ R_BRACE :: r) Hane) as (k & Hk & E).
      { eapply Forall_impl; [|exact Hall]. intros p Hp. apply Hab. now apply optional_absent. }
      { clear IH. lens. }
      exists k, (fold_left put a acc). split; [reflexivity|]. split; [exact Hk|]. cbn [negb app] in E. cbn [app]. rewrite <- app_assoc. cbn [app]. rewrite E.
      destruct l as [|a' l]; [inversion Hv; subst; apply tail_square_stop|].
      apply tail_square. inversion Hv; subst. rewrite <- app_assoc.
      match goal with H : clause_syntax c ?u _ |- context [?u ++ ?x] => destruct (clause_starts c u _ x H) as [_ (t & r0 & -> & E')] end. eauto. }
  destruct Hgo as (k & acc' & -> & Hk & ->). destruct l as [|a' l]; [reflexivity|].
  apply IH; [discriminate| | |exact Hk].
  - intros f Hf. specialize (Hkn f Hf). clear - Hkn. revert acc Hkn. induction a as [|p a IH]; intros acc Hkn; [exact Hkn|]. cbn. apply IH. now apply known_put.
  - intros f Hf. specialize (Hab f Hf). clear - Hab. revert acc Hab. induction a as [|p a IH]; intros acc Hab; [exact Hab|]. cbn. apply IH. now apply absent_put.
Qed.
Lemma lookup_put acc p k : lookup k (put acc p) = if String.eqb k (fst p) then option_map (with_syntax (snd p)) (lookup k acc) else lookup k acc.
Proof.
  unfold put. destruct (lookup (fst p) acc) as [s|] eqn:E.
  - rewrite lookup_replace. destruct (String.eqb_spec k (fst p)) as [-> |H]; [now rewrite E|reflexivity].
  - destruct (String.eqb_spec k (fst p)) as [-> |H]; [now rewrite E|reflexivity].
Qed.
Lemma lookup_puts : forall ps acc k, NoDup (names ps) ->
  lookup k (fold_left put ps acc) =
  option_map (fun s => match lookup k ps with Some ws => with_syntax ws s | None => s end) (lookup k acc).
Proof.
  induction ps as [|[f ws] ps IH]; intros acc k Hnd; cbn [fold_left].
  - cbn [lookup]. now destruct (lookup k acc).
  - cbn in Hnd. inversion Hnd as [|? ? Hf Hnd']; subst. rewrite (IH _ _ Hnd'), lookup_put. cbn [fst snd lookup].
    destruct (String.eqb_spec k f) as [-> |H]; [|reflexivity].
    apply lookup_none in Hf. rewrite Hf. now destruct (lookup f acc).
Qed.
Lemma names_puts ps : forall acc, (forall p, In p ps -> exists s, lookup (fst p) acc = Some s) -> names (fold_left put ps acc) = names acc.
Proof.
  induction ps as [|p ps IH]; intros acc H; [reflexivity|]. cbn [fold_left]. rewrite IH; [apply put_names, H; now left|].
  intros q Hq. apply known_put. apply H. now right.
Qed.
Lemma same_table {A} : forall (a b : list (string * A)), names a = names b -> NoDup (names a) -> (forall k, lookup k a = lookup k b) -> a = b.
Proof.
  induction a as [|[k v] a IH]; intros [|[k' v'] b] Hn Hnd Hl; try discriminate; [reflexivity|].
  cbn in Hn, Hnd. injection Hn as <- Hn. inversion Hnd as [|? ? Hk Hnd']; subst.
  pose proof (Hl k) as E. cbn in E. rewrite String.eqb_refl in E. injection E as <-. f_equal. apply IH; [exact Hn|exact Hnd'|].
  intros x. specialize (Hl x). cbn in Hl. destruct (String.eqb_spec x k) as [Hx|Hx]; [|exact Hl]. rewrite Hx.
  rewrite Hn in Hk. rewrite Hn in Hnd'. assert (Ha : lookup k a = None) by (apply lookup_none; now rewrite Hn). assert (Hb : lookup k b = None) by now apply lookup_none.
  now rewrite Ha, Hb.
Qed.
Definition wordless (kf : string * field_spec) : Prop := syntax_of (snd kf) = None.
Lemma field_wordless w kf : field_syntax w kf -> wordless kf.
Proof. now intros []. Qed.
Lemma fields_wordless w l : separated comma field_syntax w l -> Forall wordless l.
Proof. induction 1 as [w a H|w a t v l H _ _ IH]; constructor; try constructor; try assumption; now apply field_wordless in H. Qed.
Lemma worded_names ps c c' : Forall2 (worded ps) c c' -> names c = names c'.
Proof. induction 1 as [|a b c c' [H _] _ IH]; [reflexivity|]. unfold names in *. cbn [map]. now rewrite H, IH. Qed.
Lemma worded_lookup ps c c' : NoDup (names ps) -> Forall2 (worded ps) c c' -> Forall wordless c -> forall k,
  lookup k c' = option_map (fun s => match lookup k ps with Some ws => with_syntax ws s | None => s end) (lookup k c).
Proof.
  intros Hnd H. induction H as [|[k1 s1] [k2 s2] c c' [Hk Hs] _ IH]; intros Hw k; [reflexivity|].
  cbn [fst snd] in *. subst k2. inversion Hw as [|? ? Hw1 Hw2]; subst. cbn [lookup].
  destruct (String.eqb_spec k k1) as [-> |Hne]; [|now apply IH]. cbn [option_map]. f_equal.
  unfold wordless in Hw1. cbn [snd] in Hw1.
  assert (Hx : forall s, words_of k1 ps s -> s = lookup k1 ps).
  { intros [ws|] Hws; cbn in Hws; symmetry; [now apply lookup_nodup|now apply lookup_none]. }
  destruct s1 as [o d s|t u o d s], s2 as [o' d' s'|t' u' o' d' s']; try contradiction; cbn [syntax_of] in Hw1; subst s.
  - destruct Hs as (-> & -> & Hs). apply Hx in Hs. subst s'. now destruct (lookup k1 ps).
  - destruct Hs as (-> & -> & -> & -> & Hs). apply Hx in Hs. subst s'. now destruct (lookup k1 ps).
Qed.
Lemma clause_known c w l : clause_syntax c w l -> forall p, In p l -> In (fst p) (names c).
Proof.
  intros [w' p Hp Hin|w' l' Hw _ Hall] q Hq.
  - destruct Hq as [<-|[]]. exact Hin.
  - rewrite Forall_forall in Hall. destruct (Hall q Hq) as (s & Hs & _). exact (in_map fst _ _ Hs).
Qed.
Lemma clauses_known c w l : repeated (clause_syntax c) w l -> forall p, In p (List.concat l) -> In (fst p) (names c).
Proof. induction 1 as [|w a v l Ha Hv IH]; cbn; [contradiction|]. intros p Hp. apply in_app_iff in Hp as [Hp|Hp]; [eapply clause_known; eassumption|auto]. Qed.
Lemma puts_worded c c' ps : NoDup (names c) -> NoDup (names ps) -> Forall wordless c -> (forall p, In p ps -> In (fst p) (names c)) ->
  Forall2 (worded ps) c c' -> fold_left put ps c = c'.
Proof.
  intros Hc Hps Hw Hin H.
  assert (Hn : names (fold_left put ps c) = names c) by (apply names_puts; intros p Hp; now apply in_known, Hin).
  apply same_table; [rewrite Hn; eapply worded_names; eassumption|now rewrite Hn|].
  intros k. now rewrite (lookup_puts ps c k Hps), (worded_lookup ps c c' Hps H Hw).
Qed.
Definition with_free (rest : list tok) : Prop := exists t t2 r, rest = t :: t2 :: r /\ kw "WITH" t = false.
Lemma read_class w c rest : class_syntax w c -> (Forall wordless c -> with_free rest) -> parse_class (w ++ rest) = Ok (c, rest).
Proof.
  intros H Hr. unfold parse_class. destruct H as [w c Hw Hnd|w c v l c' Hw Hnd Hv Hne Hndl Hc']; cbn [app take].
  - change (kw "CLASS" (K "CLASS")) with true. cbv iota. cbn [rbind snd take]. change (is CurlyBegin L_BRACE) with true. cbv iota. cbn [rbind snd].
    rewrite <- app_assoc. cbn [app]. rewrite (read_fields w c Hw) by (assumption || lia). cbn [app rbind fst snd].
    destruct (Hr (fields_wordless w c Hw)) as (t & t2 & r & -> & E). unfold parse_with_syntax, expect_all. cbn [Nat.ltb Nat.leb Datatypes.length all_match].
    rewrite E. reflexivity.
  - change (kw "CLASS" (K "CLASS")) with true. cbv iota. cbn [rbind snd take]. change (is CurlyBegin L_BRACE) with true. cbv iota. cbn [rbind snd].
    rewrite <- app_assoc. cbn [app]. rewrite <- app_assoc. cbn [app]. rewrite (read_fields w c Hw) by (assumption || lia). cbn [app rbind fst snd].
    unfold parse_with_syntax, expect_all. cbn [Nat.ltb Nat.leb Datatypes.length all_match].
    change (kw "WITH" (K "WITH")) with true. change (kw "SYNTAX" (K "SYNTAX")) with true. cbn [andb rbind skipn take]. change (is CurlyBegin L_BRACE) with true. cbv iota. cbn [rbind snd].
    rewrite (read_clauses c Hnd v l Hv _ c rest Hne); [|intros f Hf; now apply in_known|auto|lia].
    rewrite (puts_worded c c' (List.concat l) Hnd Hndl); [reflexivity|eapply fields_wordless; eassumption|eapply clauses_known; eassumption|exact Hc'].
Qed.

(* ------------------------------------------------------------------ *)
(* Object sets                                                         *)
(* ------------------------------------------------------------------ *)
Definition set_tail (n : nat) root additional (marker : bool) (ts : list tok) :=
  ts <-- skip_if (is Comma) ts ;;
  ts <-- skip_if is_union ts ;;
  stop <-- expect (is CurlyEnd) ts ;;
  if stop then Ok (root, additional, skipn 1 ts) else object_set_loop n root additional marker ts.
Definition push (marker : bool) (x : parsed_element) (root additional : list parsed_element) :=
  if marker then (root, additional ++ [x]) else (root ++ [x], additional).
Lemma item_head w e : set_item_syntax w e -> exists t r, w = t :: r /\
  is Comma t = false /\ is Extension t = false /\ is CurlyEnd t = false /\ is_union t = false.
Proof. intros [o H|s H|w' H]; eexists; eexists; (split; [reflexivity|]); repeat split; reflexivity. Qed.
Lemma items_head w l : separated bar set_item_syntax w l -> exists t r, w = t :: r /\
  is Comma t = false /\ is Extension t = false /\ is CurlyEnd t = false /\ is_union t = false.
Proof. intros H. exact (separated_head _ _ _ w l _ item_head H). Qed.
Lemma read_item w e r :
  set_item_syntax w e ->
  exists v, attempt (parse_set_ish_value (w ++ r)) = Ok v /\
  match v with
  | Some x => Ok (Some (PInput (fst x)), snd x)
  | None =>
      match w ++ r with
      | [] => Err
      | t :: r0 =>
          if is_value_reference t then Ok (Some (PObjectRef (t_text t)), r0)
          else if is_type_reference t then Ok (Some (PSetRef (t_text t)), r0)
          else Ok (None, w ++ r)
      end
  end = Ok (Some e, r).
Proof.
  intros [o H|s H|w' H]; cbn [app].
  - exists None. split; [reflexivity|]. now rewrite (value_reference o H).
  - exists None. split; [reflexivity|]. now rewrite (type_not_value s H), (type_reference s H).
  - rewrite <- app_assoc. cbn [app]. rewrite (read_braces w' r H). eexists. split; [reflexivity|]. reflexivity.
Qed.
Lemma rbind_ok {A B} (a : A) (f : A -> res B) : rbind (Ok a) f = f a.
Proof. reflexivity. Qed.
Lemma rbind_eq {A B} (m : res A) (a : A) (f : A -> res B) : m = Ok a -> rbind m f = f a.
Proof. now intros ->. Qed.
Lemma set_turn n root additional marker w e r : set_item_syntax w e ->
  object_set_loop (S n) root additional marker (w ++ r) = let '(root, additional) := push marker e root additional in set_tail n root additional marker r.
Proof.
  intros H. cbn [object_set_loop].
  assert (Hm : expect (is Extension) (w ++ r) = Ok false). { destruct (item_head w e H) as (t & r0 & -> & _ & E & _). cbn. now rewrite E. }
  rewrite Hm. cbn [rbind orb].
  destruct (read_item w e r H) as (v & -> & E). rewrite rbind_ok. cbv beta. etransitivity; [exact (rbind_eq _ _ _ E)|]. cbn [rbind fst snd].
  unfold push. destruct marker; reflexivity.
Qed.
Lemma marker_turn n root additional w e r : set_item_syntax w e ->
  object_set_loop (S n) root additional false (DOTS :: COMMA :: w ++ r) = set_tail n root (additional ++ [e]) true r.
Proof.
  intros H. cbn [object_set_loop expect]. change (is Extension DOTS) with true. cbv iota. cbn [rbind skipn skip_if orb]. change (is Comma COMMA) with true. cbv iota. cbn [rbind].
  destruct (read_item w e r H) as (v & -> & E). rewrite rbind_ok. cbv beta. etransitivity; [exact (rbind_eq _ _ _ E)|]. reflexivity.
Qed.
Lemma marker_stop n root additional r : object_set_loop (S n) root additional false (DOTS :: R_BRACE :: r) = Ok (root, additional, r).
Proof. reflexivity. Qed.
Lemma bar_union t : bar t -> is_union t = true /\ is Comma t = false.
Proof. intros [-> | ->]; now split. Qed.
Definition pushes (marker : bool) (l : list parsed_element) root additional := if marker then (root, additional ++ l) else (root ++ l, additional).
(* the items from an item on, up to what comes after the last *)
Lemma read_items w l : separated bar set_item_syntax w l -> forall n root additional marker r, (List.length (w ++ r) < n)%nat ->
  exists k, (List.length r < k)%nat /\ object_set_loop n root additional marker (w ++ r) =
    let '(root', additional') := pushes marker l root additional in set_tail k root' additional' marker r.
Proof.
  induction 1 as [w a Ha|w a t v l Ha Ht Hv IH]; intros n root additional marker r Hn; (destruct n as [|n]; [lia|]).
  - exists n. destruct (item_head w a Ha) as (t & r0 & Hw & _). split; [rewrite Hw in Hn; lens|].
    rewrite (set_turn n root additional marker w a r Ha). unfold push, pushes. destruct marker; reflexivity.
  - rewrite <- app_assoc. cbn [app]. rewrite (set_turn n root additional marker w a _ Ha).
    destruct (bar_union t Ht) as [Hu Hc]. destruct (items_head v l Hv) as (tv & rv & Hve & Hc1 & Hx1 & He1 & Hu1).
    assert (Hn' : (List.length (v ++ r) < n)%nat) by (clear IH; destruct (item_head w a Ha) as (t0 & r0 & Hw & _); lens).
    assert (Hgo : forall root additional, set_tail n root additional marker (t :: v ++ r) = object_set_loop n root additional marker (v ++ r)).
    { intros. unfold set_tail. cbn [skip_if]. rewrite Hc. cbn [rbind skip_if]. rewrite Hu. cbn [rbind]. rewrite Hve. cbn [app expect rbind]. now rewrite He1. }
    unfold push, pushes. destruct marker; rewrite Hgo.
    + destruct (IH n root (additional ++ [a]) true r Hn') as (k & Hk & E). exists k. split; [exact Hk|]. rewrite E. cbn. now rewrite <- app_assoc.
    + destruct (IH n (root ++ [a]) additional false r Hn') as (k & Hk & E). exists k. split; [exact Hk|]. rewrite E. cbn. now rewrite <- app_assoc.
Qed.
Lemma items_after_marker v l n root rest : separated bar set_item_syntax v l -> (List.length (v ++ R_BRACE :: rest) < n)%nat ->
  object_set_loop (S n) root [] false (DOTS :: COMMA :: v ++ R_BRACE :: rest) = Ok (root, l, rest).
Proof.
  intros Hv Hn. inversion Hv as [w a Ha|w a t v' l' Ha Ht Hv']; subst.
  - rewrite (marker_turn n root [] v a (R_BRACE :: rest) Ha). reflexivity.
  - rewrite <- app_assoc. cbn [app]. rewrite (marker_turn n root [] w a _ Ha).
    destruct (bar_union t Ht) as [Hu Hc]. destruct (items_head v' l' Hv') as (tv & rv & Hve & Hc1 & Hx1 & He1 & Hu1).
    assert (Hgo : set_tail n root [a] true (t :: v' ++ R_BRACE :: rest) = object_set_loop n root [a] true (v' ++ R_BRACE :: rest)).
    { unfold set_tail. cbn [skip_if]. rewrite Hc. cbn [rbind skip_if]. rewrite Hu. cbn [rbind]. rewrite Hve. cbn [app expect rbind]. now rewrite He1. }
    cbn [app]. rewrite Hgo. destruct (read_items v' l' Hv' n root [a] true (R_BRACE :: rest)) as (k & Hk & E); [lens|]. rewrite E. reflexivity.
Qed.
Lemma read_object_set w root additional rest : object_set_syntax w root additional ->
  parse_object_set (L_BRACE :: w ++ R_BRACE :: rest) = Ok (root, additional, rest).
Proof.
  intros H. unfold parse_object_set. cbn [take]. change (is CurlyBegin L_BRACE) with true. cbv iota. cbn [rbind snd].
  destruct H as [w root Hw|w root Hw|w root v more Hw Hv| |v more Hv].
  - destruct (read_items w root Hw (S (List.length (w ++ R_BRACE :: rest))) [] [] false (R_BRACE :: rest)) as (k & Hk & E); [lia|]. rewrite E. reflexivity.
  - rewrite <- app_assoc. cbn [app].
    destruct (read_items w root Hw (S (List.length (w ++ COMMA :: DOTS :: R_BRACE :: rest))) [] [] false (COMMA :: DOTS :: R_BRACE :: rest)) as (k & Hk & E); [lia|]. rewrite E.
    cbn. destruct k as [|k]; [lens|]. reflexivity.
  - rewrite <- app_assoc. cbn [app].
    destruct (read_items w root Hw (S (List.length (w ++ COMMA :: DOTS :: COMMA :: v ++ R_BRACE :: rest))) [] [] false (COMMA :: DOTS :: COMMA :: v ++ R_BRACE :: rest)) as (k & Hk & E); [lia|]. rewrite E.
    unfold pushes, set_tail. cbn [skip_if]. change (is Comma COMMA) with true. cbv iota. cbn [rbind skip_if]. change (is_union DOTS) with false. cbv iota. cbn [rbind expect].
    change (is CurlyEnd DOTS) with false. cbv iota. destruct k as [|k]; [lens|]. apply items_after_marker; [exact Hv|lens].
  - reflexivity.
  - cbn [app]. apply items_after_marker; [exact Hv|lens].
Qed.

(* ------------------------------------------------------------------ *)
(* Definitions                                                         *)
(* ------------------------------------------------------------------ *)
Lemma read_dummies w l : separated comma dummy_syntax w l -> forall n acc x r, (List.length (w ++ R_BRACE :: x :: r) < n)%nat ->
  params_loop n acc (w ++ R_BRACE :: x :: r) = Ok (acc ++ l, x :: r).
Proof.
  assert (Hd : forall s, type_name s \/ value_name s -> is_dummy (I s) = true).
  { intros s [H|H]; unfold is_dummy; [rewrite (type_reference s H); apply orb_true_r|now rewrite (value_reference s H)]. }
  assert (Hg : forall g, governor g -> is_governor g = true).
  { intros [ty s] [[H1 H2]|[H1 H2]]; cbn [t_type t_text] in *; subst ty; unfold is_governor.
    - change (mkTok Identifier s) with (I s). now rewrite (type_reference s H2).
    - assert (E : is_builtin_type (mkTok Keyword s) = true).
      { apply existsb_exists. exists s. split; [|apply String.eqb_refl]. unfold BUILTIN_TYPES. cbn [In] in *. tauto. }
      rewrite E. now rewrite orb_true_r. }
  assert (Hone : forall w s, dummy_syntax w s -> forall n acc t x r, ends_item t ->
    params_loop (S n) acc (w ++ t :: x :: r) =
    (r1 <-- skip_if (is Comma) (t :: x :: r) ;; stop <-- expect (is CurlyEnd) r1 ;;
     if stop then Ok (acc ++ [s], skipn 1 r1) else params_loop n (acc ++ [s]) r1)).
  { intros w' s [m Hm|g m Hgov Hm] n acc t x r Ht; cbn [app params_loop].
    - assert (Hb : expect_all [is_governor; is Colon; is_dummy] (I m :: t :: x :: r) = Ok false).
      { unfold expect_all. cbn [Nat.ltb Nat.leb Datatypes.length all_match]. destruct Ht as [-> | ->]; cbn [is t_type token_type_beq COMMA R_BRACE andb]; now rewrite andb_false_r. }
      rewrite Hb. cbn [rbind take]. rewrite (type_reference m Hm). reflexivity.
    - assert (Hb : expect_all [is_governor; is Colon; is_dummy] (g :: COLON :: I m :: t :: x :: r) = Ok true).
      { unfold expect_all. cbn [Nat.ltb Nat.leb Datatypes.length all_match]. rewrite (Hg g Hgov), (Hd m Hm). reflexivity. }
      rewrite Hb. cbn [rbind skipn take]. rewrite (Hd m Hm). reflexivity. }
  assert (Hhead : forall w s, dummy_syntax w s -> exists t r, w = t :: r /\ is CurlyEnd t = false).
  { intros w' s [m Hm|g m Hgov Hm]; eexists; eexists; (split; [reflexivity|]); [reflexivity|].
    destruct Hgov as [[H _]|[H _]]; apply is_other; rewrite H; discriminate. }
  induction 1 as [w a Ha|w a t v l Ha Ht Hv IH]; intros n acc x r Hl; (destruct n as [|n]; [lia|]).
  - rewrite (Hone w a Ha n acc R_BRACE x r) by (unfold ends_item; tauto). reflexivity.
  - red in Ht. subst t. rewrite <- app_assoc. cbn [app].
    destruct (separated_head _ _ _ v l _ Hhead Hv) as (tv & rv & Hve & Hc).
    pose proof (IH n (acc ++ [a]) x r) as IH'. rewrite Hve in *. cbn [app] in *.
    rewrite (Hone w a Ha n acc COMMA tv _) by (unfold ends_item; tauto). cbn [skip_if].
    change (is Comma COMMA) with true. cbv iota. cbn [rbind expect]. rewrite Hc. cbv iota. rewrite IH' by lens. now rewrite <- app_assoc.
Qed.
Definition ends_definition (rest : list tok) : Prop := exists t r, rest = t :: r /\ ((exists n, t = I n) \/ t = K "END").
Lemma ends_follows rest : ends_definition rest -> follows_type rest.
Proof. intros (t & r & -> & [[n ->]| ->]); cbn; intuition discriminate. Qed.
Lemma parse_type_no t r : type_guard t = false -> parse_type (t :: r) = Err.
Proof. intros H. unfold parse_type. cbn [Datatypes.length]. now apply type_depth_no. Qed.
Lemma name_second s w r : name_syntax (I s :: w) r -> w = [] \/ exists t u, w = t :: u /\ is Assignment t = false.
Proof. intros H. inversion H; subst; [now left|]. right. eexists; eexists. split; reflexivity. Qed.
Lemma type_second s w t : type_syntax (I s :: w) t -> w = [] \/ exists x u, w = x :: u /\ is Assignment x = false.
Proof.
  intros H. inversion H as [w1 k v cs Hk Hcs Heq Ht| |]; subst.
  assert (Hw1 : exists u, w1 = I s :: u). { destruct (kind_head w1 k Hk) as (x & u & -> & _). injection Heq as -> _. eauto. }
  destruct Hw1 as [u ->]. cbn in Heq. injection Heq as Heq.
  assert (Hu : u = [] \/ exists x u', u = x :: u' /\ is Assignment x = false).
  { inversion Hk as [? b Hb|? r Hr| | |]; subst.
    - destruct (builtin_head _ _ Hb) as (? & ? & E & _). discriminate.
    - inversion Hr as [? ? Hn|c f Hc Hf|w2 r2 v2 l2 Hn Hv]; subst.
      + eapply name_second; eassumption.
      + right. eexists; eexists; split; reflexivity.
      + destruct (name_head w2 r2 Hn) as (s2 & u2 & -> & _). match goal with E : _ ++ _ = _ :: _ |- _ => cbn in E; injection E as -> <- end.
        apply name_second in Hn as [-> |(x & u' & -> & Hx)]; right; [|exists x; eexists; split; [reflexivity|exact Hx]].
        eexists; eexists; split; reflexivity. }
  subst w. destruct Hu as [-> |(x & u' & -> & Hx)]; [|right; exists x; eexists; split; [reflexivity|exact Hx]].
  cbn. destruct (constraints_head v cs Hcs) as [-> |[r ->]]; [now left|]. right. eexists; eexists; split; reflexivity.
Qed.
Lemma is_class_name s : type_name s -> is_class_reference (I s) = true -> class_name s.
Proof.
  intros H Hc. split; [exact H|]. unfold is_class_reference in Hc. apply andb_prop in Hc as [_ Hc]. cbn [t_text I] in Hc. clear H.
  induction s as [|c s IH]; cbn in *; [exact Logic.I|]. apply andb_prop in Hc as [Hc Hs]. split; [|now apply IH].
  unfold upper_ascii, digit_ascii, capital in *. destruct (Ascii.eqb_spec c "-") as [-> |]; [right; right; reflexivity|]. cbv zeta in Hc. lia.
Qed.
Lemma value_no_object w t v x rest n : type_syntax w t -> value_syntax v x -> ~ like_object w v ->
  parse_object_assignment (I n :: w ++ ASSIGN :: v ++ rest) = Err.
Proof.
  intros Hw Hv Hno. unfold parse_object_assignment. destruct (type_head w t Hw) as (y & u & -> & Hy). cbn [app].
  unfold expect_all. cbn [Nat.ltb Nat.leb Datatypes.length all_match]. cbn [rbind].
  destruct (is_value_reference (I n) && (is_class_reference y && true)) eqn:E; [|reflexivity].
  apply andb_prop in E as [_ E]. rewrite andb_true_r in E.
  destruct Hy as [(s & -> & Hs)|(s & -> & _)]; [|discriminate].
  destruct (type_second s u t Hw) as [-> |(z & u' & -> & Hz)]; cbn [app take]; [|now rewrite Hz].
  change (is Assignment ASSIGN) with true. cbv iota. cbn [rbind snd].
  destruct Hv as [z Hz|v' Hv'].
  - cbn [app]. unfold parse_set_ish_value.
    assert (H1 : is CurlyBegin z = false) by (apply is_other; unfold simple_kind in Hz; cbn in Hz; intuition congruence).
    assert (H2 : is RoundBegin z = false) by (apply is_other; unfold simple_kind in Hz; cbn in Hz; intuition congruence).
    rewrite H1, H2. reflexivity.
  - exfalso. apply Hno. split; [exists s; split; [reflexivity|now apply is_class_name]|]. eexists. reflexivity.
Qed.
Lemma wordless_bare n c p : Forall wordless c -> bare_class (mkParsed n (PAClass c) p).
Proof. intros H. exists c. split; [reflexivity|]. eapply Forall_impl; [|exact H]. intros [k [|]] E; exact E. Qed.
Theorem parse_definition_complete w d rest : definition_syntax w d -> ends_definition rest ->
  (bare_class d -> exists t t2 r, rest = t :: t2 :: r) -> parse_definition (w ++ rest) = Ok (d, rest).
Proof.
  intros H He Hb. pose proof (ends_follows rest He) as Hf. unfold parse_definition.
  destruct H as [n w t Hn Hw|n v l w t Hn Hv Hw|n w t v x Hn Hw Hv Hno|n w c Hn Hw|n c w Hn Hc Hw|n c w root additional Hn Hc Hw]; cbn [app].
  - rewrite (type_not_value n Hn), (type_reference n Hn). unfold parse_typeish, parse_type_assignment. cbn [take]. rewrite (type_reference n Hn). cbn [rbind fst snd].
    change (attempt (parse_params (ASSIGN :: w ++ rest))) with (@Ok (option (list string * list tok)) None). cbn [rbind fst snd take].
    change (is Assignment ASSIGN) with true. cbv iota. cbn [rbind snd]. rewrite (parse_type_complete w t rest Hw Hf). reflexivity.
  - rewrite (type_not_value n Hn), (type_reference n Hn). unfold parse_typeish, parse_type_assignment. cbn [take]. rewrite (type_reference n Hn). cbn [rbind fst snd].
    unfold parse_params. cbn [take]. change (is CurlyBegin L_BRACE) with true. cbv iota. cbn [rbind snd]. rewrite <- app_assoc. cbn [app].
    rewrite (read_dummies v l Hv) by lia. cbn [app attempt rbind fst snd take].
    change (is Assignment ASSIGN) with true. cbv iota. cbn [rbind fst snd]. rewrite (parse_type_complete w t rest Hw Hf). cbn [attempt rbind fst snd].
    now rewrite before_app.
  - rewrite (value_reference n Hn). unfold parse_valueish. rewrite <- app_assoc. cbn [app]. rewrite (value_no_object w t v x rest n Hw Hv Hno). cbn [attempt rbind].
    unfold parse_value_assignment. cbn [take]. rewrite (value_reference n Hn). cbn [rbind fst snd].
    rewrite (parse_type_complete w t _ Hw) by (cbn; intuition discriminate). cbn [rbind fst snd take]. change (is Assignment ASSIGN) with true. cbv iota. cbn [rbind snd].
    rewrite (read_value v x rest Hv). reflexivity.
  - pose proof (proj1 Hn) as Hn1. rewrite (type_not_value n Hn1), (type_reference n Hn1). unfold parse_typeish, parse_type_assignment. cbn [take]. rewrite (type_reference n Hn1). cbn [rbind fst snd].
    change (attempt (parse_params (ASSIGN :: w ++ rest))) with (@Ok (option (list string * list tok)) None). cbn [rbind fst snd take].
    change (is Assignment ASSIGN) with true. cbv iota. cbn [rbind snd].
    assert (Hno : parse_type (w ++ rest) = Err). { destruct Hw; cbn [app]; now apply parse_type_no. }
    rewrite Hno. cbn [attempt rbind]. unfold parse_class_assignment. cbn [take]. rewrite (class_reference n Hn). cbn [rbind fst snd take].
    change (is Assignment ASSIGN) with true. cbv iota. cbn [rbind snd].
    rewrite (read_class w c rest Hw); [reflexivity|]. intros Hbare. destruct (Hb (wordless_bare n c None Hbare)) as (t & t2 & r & ->).
    exists t, t2, r. split; [reflexivity|]. destruct He as (? & ? & E & Ht). injection E as <- _. destruct Ht as [[m ->]| ->]; reflexivity.
  - rewrite (value_reference n Hn). unfold parse_valueish, parse_object_assignment, expect_all. cbn [Nat.ltb Nat.leb Datatypes.length all_match].
    rewrite (value_reference n Hn), (class_reference c Hc). cbn [andb rbind take]. change (is Assignment ASSIGN) with true. cbv iota. cbn [rbind snd].
    rewrite <- app_assoc. cbn [app]. rewrite (read_braces w rest Hw). reflexivity.
  - rewrite (type_not_value n Hn), (type_reference n Hn). unfold parse_typeish, parse_type_assignment. cbn [take]. rewrite (type_reference n Hn). cbn [rbind fst snd].
    match goal with |- context [attempt (parse_params ?x)] => change (attempt (parse_params x)) with (@Ok (option (list string * list tok)) None) end. cbn [rbind fst snd take].
    change (is Assignment (I c)) with false. cbv iota. cbn [attempt rbind].
    assert (Hno : parse_class_assignment (I n :: I c :: ASSIGN :: L_BRACE :: (w ++ [R_BRACE]) ++ rest) = Err).
    { unfold parse_class_assignment. cbn [take]. destruct (is_class_reference (I n)); reflexivity. }
    rewrite Hno. cbn [attempt rbind]. unfold parse_object_set_assignment. cbn [take]. rewrite (type_reference n Hn). cbn [rbind fst snd take].
    rewrite (class_reference c Hc). cbn [rbind fst snd take]. change (is Assignment ASSIGN) with true. cbv iota. cbn [rbind snd].
    rewrite <- app_assoc. cbn [app]. rewrite (read_object_set w root additional rest Hw). reflexivity.
Qed.

(* ------------------------------------------------------------------ *)
(* Modules                                                             *)
(* ------------------------------------------------------------------ *)
Lemma digit_code c d : digit c d -> digit_of c = Some d.
Proof. intros [H1 H2]. unfold digit_of. cbv zeta. destruct (_ && _) eqn:E; [f_equal; lia|lia]. Qed.
Lemma digits_app s : forall acc c d, digit c d -> forall n, digits acc s = Some n -> digits acc (s ++ String c "") = Some (10 * n + d)%Z.
Proof.
  induction s as [|a s IH]; intros acc c d Hc n H; cbn in *.
  - rewrite (digit_code c d Hc). now injection H as ->.
  - destruct (digit_of a); [now apply IH|discriminate].
Qed.
Lemma numeral_digits s n : numeral s n -> digits 0 s = Some n /\ exists c r, s = String c r /\ c <> "+"%char /\ (0 <= n)%Z.
Proof.
  induction 1 as [c d Hc|s n c d Hs [IH (a & r & -> & Ha & Hn)] Hc].
  - split; [cbn [digits]; now rewrite (digit_code c d Hc)|]. exists c, "". split; [reflexivity|]. destruct Hc as [H1 H2]. split; [|lia]. intros ->. change (43 = 48 + d)%Z in H1. lia.
  - split; [now apply digits_app|]. exists a. eexists. split; [reflexivity|]. destruct Hc. split; [exact Ha|lia].
Qed.
Lemma arc_u32 s : arc_number s -> exists z, parse_u32 s = Some z.
Proof.
  intros (n & Hs & Hn). destruct (numeral_digits s n Hs) as (Hd & c & r & -> & Hc & Hp). unfold parse_u32.
  assert (Hu : unsigned (String c r) = Some n) by exact Hd.
  assert (E : match String c r with String "+" r0 => unsigned r0 | _ => unsigned (String c r) end = Some n).
  { rewrite <- Hu. destruct c as [[] [] [] [] [] [] [] []]; try reflexivity. now contradiction Hc. }
  rewrite E. exists n. destruct (n <? 2 ^ 32)%Z eqn:El; [reflexivity|lia].
Qed.
Lemma arc_name a : In a known_arcs -> value_name a /\ existsb (String.eqb a) WELL_KNOWN_OID_NAMES = true.
Proof. intros H. unfold known_arcs in H. cbn [In] in H. decompose [or] H; try contradiction; subst a; (split; [cbn; unfold small; lia|reflexivity]). Qed.
Lemma arc_head w u : arc_syntax w u -> exists t r, w = t :: r /\ is CurlyEnd t = false /\ is RoundBegin t = false.
Proof. intros [n H|a H|a n H H1]; eexists; eexists; (split; [reflexivity|]); split; reflexivity. Qed.
Lemma read_arc w u r : arc_syntax w u -> match r with [] => True | t :: _ => is RoundBegin t = false end -> parse_oid_component (w ++ r) = Ok r.
Proof.
  intros [n Hn|a Ha|a n Ha Hn] Hr; cbn [app parse_oid_component].
  - change (is Identifier (ParserSpec.N n)) with false. change (is NumberInt (ParserSpec.N n)) with true. cbv iota. destruct (arc_u32 n Hn) as [z E]. cbn [t_text ParserSpec.N]. now rewrite E.
  - change (is Identifier (I a)) with true. cbv iota. destruct (arc_name a Ha) as [Hv E]. unfold parse_named_oid_component. rewrite (value_reference a Hv).
    assert (Hb : attempt (expect_all [is RoundBegin; is NumberInt; is RoundEnd] r) = Ok None \/ attempt (expect_all [is RoundBegin; is NumberInt; is RoundEnd] r) = Ok (Some false)).
    { unfold expect_all. destruct (Nat.ltb _ _) eqn:El; [now left|]. right. destruct r as [|t r]; [discriminate|]. cbn [all_match]. now rewrite Hr. }
    cbn [t_text I]. rewrite E. destruct Hb as [-> | ->]; cbn [rbind]; reflexivity.
  - change (is Identifier (I a)) with true. cbv iota. unfold parse_named_oid_component. rewrite (value_reference a Ha).
    destruct (arc_u32 n Hn) as [z E]. unfold expect_all. cbn [Nat.ltb Nat.leb Datatypes.length all_match attempt].
    change (is RoundBegin L_PAREN && (is NumberInt (ParserSpec.N n) && (is RoundEnd R_PAREN && true))) with true. cbn [rbind t_text ParserSpec.N]. now rewrite E.
Qed.
Lemma read_arcs w l : repeated arc_syntax w l -> forall n r, (List.length (w ++ R_BRACE :: r) < n)%nat -> oid_loop n (w ++ R_BRACE :: r) = Ok r.
Proof.
  induction 1 as [|w a v l Ha Hv IH]; intros n r Hn; (destruct n as [|n]; [lia|]); [reflexivity|]. rewrite <- app_assoc. cbn [oid_loop].
  destruct (arc_head w a Ha) as (t & u & Hw & Hc & Hb).
  assert (Hs : expect (is CurlyEnd) (w ++ v ++ R_BRACE :: r) = Ok false) by (rewrite Hw; cbn; now rewrite Hc).
  rewrite Hs. cbn [rbind]. rewrite (read_arc w a _ Ha).
  - cbn [rbind]. apply IH. rewrite Hw in Hn. lens.
  - destruct Hv as [|v' b v2 l' Hb' _]; [reflexivity|]. destruct (arc_head v' b Hb') as (t' & u' & -> & _ & E). exact E.
Qed.
Lemma read_module_name n oid rest : type_name n -> oid_syntax oid -> not_brace rest -> parse_module_name (I n :: oid ++ rest) = Ok (n, rest).
Proof.
  intros Hn Ho Hr. unfold parse_module_name. cbn [take]. rewrite (type_reference n Hn). cbn [rbind fst snd].
  destruct Ho as [|w l Hw]; cbn [app].
  - destruct rest as [|t r]; [reflexivity|]. cbn in Hr. now rewrite (is_other CurlyBegin t Hr).
  - change (is CurlyBegin L_BRACE) with true. cbv iota. unfold parse_object_identifier. cbn [take]. change (is CurlyBegin L_BRACE) with true. cbv iota. cbn [rbind snd].
    rewrite <- app_assoc. cbn [app]. now rewrite (read_arcs w l Hw) by lia.
Qed.
Lemma read_symbols w l : separated comma symbol_syntax w l -> forall n acc r, (List.length (w ++ K "FROM" :: r) < n)%nat ->
  imported_loop n acc (w ++ K "FROM" :: r) = Ok (acc ++ l, r).
Proof.
  assert (Hend : forall n acc r, imported_loop (S n) acc (K "FROM" :: r) = Ok (acc, r)) by reflexivity.
  induction 1 as [w a Ha|w a t v l Ha Ht Hv IH]; intros n acc r Hn.
  - destruct Ha as [s|s]; cbn [app] in *.
    + destruct n as [|[|n]]; [lens|lens|]. reflexivity.
    + destruct n as [|[|[|[|n]]]]; [lens|lens|lens|lens|]. reflexivity.
  - red in Ht. subst t. rewrite <- app_assoc. cbn [app]. destruct Ha as [s|s]; cbn [app] in *.
    + destruct n as [|n]; [lens|]. change (imported_loop (S n) acc (I s :: COMMA :: v ++ K "FROM" :: r)) with (imported_loop n (acc ++ [s]) (v ++ K "FROM" :: r)).
      rewrite IH by lens. now rewrite <- app_assoc.
    + destruct n as [|[|[|n]]]; [lens|lens|lens|].
      change (imported_loop (S (S (S n))) acc (I s :: L_BRACE :: R_BRACE :: COMMA :: v ++ K "FROM" :: r)) with (imported_loop n (acc ++ [s]) (v ++ K "FROM" :: r)).
      rewrite IH by lens. now rewrite <- app_assoc.
Qed.
Lemma add_imports m : forall l imports, NoDup (names (imports ++ map (fun s => (s, m)) l)) ->
  rfold (fun (i : list (string * string)) k => match lookup k i with Some _ => Err | None => Ok (i ++ [(k, m)]) end) imports l = Ok (imports ++ map (fun s => (s, m)) l).
Proof.
  induction l as [|s l IH]; intros imports Hnd; cbn [rfold map]; [now rewrite app_nil_r|].
  assert (E : lookup s imports = None).
  { apply lookup_none. unfold names in Hnd. rewrite map_app in Hnd. cbn [map] in Hnd. apply NoDup_remove_2 in Hnd. rewrite in_app_iff in Hnd. tauto. }
  rewrite E. cbn [rbind]. rewrite IH; now rewrite <- app_assoc.
Qed.
Lemma symbols_head w l : separated comma symbol_syntax w l -> exists s r, w = I s :: r.
Proof. intros [v a Ha|v a t u l' Ha _ _]; destruct Ha; eexists; eexists; reflexivity. Qed.
Lemma nodup_left {A} (a b : list A) : NoDup (a ++ b) -> NoDup a.
Proof. induction a as [|x a IH]; cbn; intros H; constructor; inversion H; subst; [rewrite in_app_iff in *; tauto|auto]. Qed.
Lemma read_imports w l : repeated import_syntax w l -> l <> [] -> forall n imports r, NoDup (names (imports ++ List.concat l)) ->
  (List.length (w ++ SEMICOLON :: r) < n)%nat -> imports_loop n imports (w ++ SEMICOLON :: r) = Ok (imports ++ List.concat l, r).
Proof.
  induction 1 as [|w a v l Ha Hv IH]; intros Hne n imports r Hnd Hn; [congruence|]. clear Hne. destruct n as [|n]; [lia|]. cbn [imports_loop List.concat].
  destruct Ha as [w s m oid Hw Hm Ho]. rewrite <- !app_assoc. cbn [app]. rewrite <- ?app_assoc.
  rewrite (read_symbols w s Hw) by lens. cbn [rbind fst snd app].
  assert (Hnb : not_brace (v ++ SEMICOLON :: r)).
  { destruct Hv as [|v1 b v2 l' [w1 l1 m1 v1' Hw1 _ _] _]; [discriminate|]. destruct (symbols_head w1 l1 Hw1) as (x & y & ->). cbn. discriminate. }
  rewrite (read_module_name m oid _ Hm Ho Hnb). cbn [rbind fst snd].
  rewrite add_imports; [|cbn [List.concat] in Hnd; rewrite app_assoc in Hnd; unfold names in *; rewrite map_app in Hnd; now apply nodup_left in Hnd].
  cbn [rbind]. destruct l as [|b l].
  - inversion Hv; subst. cbn. now rewrite app_nil_r.
  - assert (Hs : expect (is SemiColon) (v ++ SEMICOLON :: r) = Ok false).
    { inversion Hv as [|v1 b' v2 l' Hb]; subst. destruct Hb as [w1 l1 m1 v1' Hw1 _ _]. destruct (symbols_head w1 l1 Hw1) as (x & y & ->). reflexivity. }
    rewrite Hs. cbn [rbind]. rewrite IH; [now rewrite <- app_assoc|discriminate| |lens].
    rewrite <- app_assoc. exact Hnd.
Qed.
Definition named (d : parsed_def) : string * parsed_def := (pd_id d, d).
Lemma definition_head w d : definition_syntax w d -> exists n r, w = I n :: r.
Proof. intros []; eauto. Qed.
Lemma definition_long w d : definition_syntax w d -> exists t t2 r, w = t :: t2 :: r.
Proof.
  intros [n w' t Hn Hw|n v l w' t Hn Hv Hw|n w' t v x Hn Hw Hv Hno|n w' c Hn Hw|n c w' Hn Hc Hw|n c w' root additional Hn Hc Hw]; eauto.
  destruct (type_head w' t Hw) as (y & u & -> & _). cbn. eauto.
Qed.
Lemma names_named l : names (map named l) = map pd_id l.
Proof. unfold names. rewrite map_map. reflexivity. Qed.
Lemma read_definitions w l : repeated definition_syntax w l -> forall n acc r, NoDup (names (acc ++ map named l)) ->
  (r <> [] \/ forall p d, l = p ++ [d] -> ~ bare_class d) ->
  (List.length (w ++ K "END" :: r) < n)%nat -> definitions_loop n acc (w ++ K "END" :: r) = Ok (acc ++ map named l, r).
Proof.
  induction 1 as [|w a v l Ha Hv IH]; intros n acc r Hnd Hlast Hn; (destruct n as [|n]; [lia|]); cbn [definitions_loop].
  - cbn [app map]. rewrite app_nil_r. reflexivity.
  - rewrite <- app_assoc. destruct (definition_head w a Ha) as (nm & u & Hw).
    assert (Hs : expect (kw "END") (w ++ v ++ K "END" :: r) = Ok false) by (rewrite Hw; reflexivity).
    rewrite Hs. cbn [rbind].
    rewrite (parse_definition_complete w a _ Ha).
    + cbn [rbind fst snd]. cbn [map] in Hnd |- *. rewrite replace_new.
      * rewrite IH; [unfold named at 2; now rewrite <- app_assoc|now rewrite <- app_assoc| |rewrite Hw in Hn; lens].
        destruct Hlast as [H|H]; [now left|right]. intros p d ->. apply (H (a :: p) d). reflexivity.
      * unfold names in *. rewrite map_app in Hnd. cbn [map] in Hnd. apply NoDup_remove_2 in Hnd. rewrite in_app_iff in Hnd. tauto.
    + destruct Hv as [|v1 b v2 l' Hb _]; [exists (K "END"), r; auto|]. destruct (definition_head v1 b Hb) as (nm' & u' & ->). eexists; eexists; split; [reflexivity|]. eauto.
    + intros Hbare. destruct Hv as [|v1 b v2 l' Hb _].
      * destruct Hlast as [H|H]; [|exfalso; now apply (H [] a)]. destruct r as [|t r]; [congruence|]. cbn. eauto.
      * destruct (definition_long v1 b Hb) as (t & t2 & u' & ->). cbn. eauto.
Qed.
Lemma tags_read tags r : tags_syntax tags -> skip_header_tags (tags ++ ASSIGN :: r) = Ok (ASSIGN :: r).
Proof. intros [|k Hk]; [reflexivity|]. cbn [In] in Hk. decompose [or] Hk; try contradiction; subst k; reflexivity. Qed.
Theorem parse_module_complete w m rest : module_syntax w m -> rest <> [] \/ ~ ends_with_bare_class m ->
  parse_module (w ++ rest) = Ok (m, rest).
Proof.
  intros [n oid tags v imports w' defs Hn Ho Ht Hi Hd Hnd] Hrest. unfold parse_module.
  cbn [app]. rewrite <- !app_assoc. cbn [app]. rewrite (read_module_name n oid _ Hn Ho) by (cbn; discriminate). cbn [rbind fst snd take].
  change (kw "DEFINITIONS" (K "DEFINITIONS")) with true. cbv iota. cbn [rbind snd]. rewrite <- !app_assoc. cbn [app]. rewrite (tags_read tags _ Ht). cbn [rbind take].
  change (is Assignment ASSIGN) with true. cbv iota. cbn [rbind snd take]. change (kw "BEGIN" (K "BEGIN")) with true. cbv iota. cbn [rbind snd].
  rewrite <- !app_assoc. cbn [app].
  assert (Himp : parse_module_imports (v ++ w' ++ K "END" :: rest) = Ok (imports, w' ++ K "END" :: rest)).
  { unfold parse_module_imports. destruct Hi as [|v l Hv Hne Hndi].
    - cbn [app]. assert (E : expect (kw "IMPORTS") (w' ++ K "END" :: rest) = Ok false).
      { destruct Hd as [|v1 b v2 l' Hb _]; [reflexivity|]. destruct (definition_head v1 b Hb) as (x & y & ->). reflexivity. }
      rewrite E. reflexivity.
    - cbn [app expect]. change (kw "IMPORTS" (K "IMPORTS")) with true. cbn [rbind skipn]. rewrite <- app_assoc. cbn [app].
      now rewrite (read_imports v l Hv Hne) by (assumption || (cbn [Datatypes.length]; lia)). }
  rewrite Himp. cbn [rbind fst snd].
  rewrite (read_definitions w' defs Hd); [reflexivity|cbn [app]; now rewrite names_named| |lia].
  destruct Hrest as [H|H]; [now left|right]. intros p d -> Hb. apply H. exists (map named p), (pd_id d), d. split; [|exact Hb].
  cbn [pm_defs]. now rewrite map_app.
Qed.
Lemma module_head w m : module_syntax w m -> exists n r, w = I n :: r.
Proof. intros []; eauto. Qed.
Lemma read_modules w l : repeated module_syntax w l -> forall n acc, l <> [] ->
  (forall p m, l = p ++ [m] -> ~ ends_with_bare_class m) -> (List.length w < n)%nat -> modules_loop n acc w = Ok (acc ++ l).
Proof.
  induction 1 as [|w a v l Ha Hv IH]; intros n acc Hne Hlast Hn; [congruence|]. clear Hne. destruct n as [|n]; [lia|]. cbn [modules_loop].
  destruct l as [|b l].
  - inversion Hv; subst. rewrite (parse_module_complete w a [] Ha) by (right; now apply (Hlast [] a)). reflexivity.
  - assert (Hv' : exists nm r, v = I nm :: r).
    { inversion Hv as [|v1 b' v2 l' Hb]; subst. destruct (module_head v1 b Hb) as (x & y & ->). cbn. eauto. }
    destruct Hv' as (nm & r & Hve). destruct (module_head w a Ha) as (nm2 & r2 & Hw).
    rewrite (parse_module_complete w a v Ha) by (left; rewrite Hve; discriminate). cbn [rbind fst snd].
    assert (Hn' : (List.length v < n)%nat) by (rewrite Hw in Hn; lens).
    assert (Hl : forall p m, b :: l = p ++ [m] -> ~ ends_with_bare_class m).
    { intros p m E. apply (Hlast (a :: p)). now rewrite E. }
    specialize (IH n (acc ++ [a]) ltac:(discriminate) Hl Hn'). rewrite Hve in *. rewrite IH. now rewrite <- app_assoc.
Qed.
Theorem parse_complete tokens w ms : map tok_of (filter (fun t => negb (token_type_beq (tk_type t) Comment)) tokens) = w ->
  repeated module_syntax w ms -> ms <> [] -> (forall p m, ms = p ++ [m] -> ~ ends_with_bare_class m) -> parse tokens = Ok ms.
Proof. intros Hw H Hne Hlast. unfold parse. cbv zeta. rewrite Hw. rewrite (read_modules w ms H) by (assumption || lia). reflexivity. Qed.
