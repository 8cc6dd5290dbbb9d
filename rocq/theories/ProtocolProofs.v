(* The check of ProtocolCheck is sound (C65). *)
From Coq Require Import ZArith NArith List Bool String Ascii Lia Permutation.
Require Import Verif.Base Verif.Spec Verif.CodecModel Verif.DeriveModel Verif.DeriveSpec Verif.Asn1Model Verif.GenModel Verif.ResolveModel Verif.TokenModel Verif.ParserModel Verif.ModuleModel
  Verif.DefinitionModel Verif.CompilerSpec Verif.RustModel Verif.RustSpec Verif.TopoProofs Verif.GenProofs Verif.ModuleProofs Verif.CompilerFacts Verif.ObjectFacts Verif.RustFacts Verif.DeriveFacts Verif.OrderSpec Verif.OrderProofs Verif.OrderFacts Verif.X691Types Verif.X691TypesSpec Verif.X691TypesFacts
  Verif.ShapeSpec Verif.ShapeProofs Verif.CheckSpec Verif.CheckProofs Verif.CheckModuleProofs Verif.ProtocolSpec Verif.BuildProofs Verif.ProtocolCheck.
Require Verif.TokenProofs Verif.LooseFacts.
Import ListNotations.
Open Scope Z_scope.
Open Scope list_scope.
Local Opaque nesting find_type type_of_words.

Lemma once_nodup l : once l = nodup string_dec l.
Proof.
  induction l as [|x r IH]; [reflexivity|]. cbn [once nodup]. rewrite has_mem, IH. destruct (in_dec string_dec x r) as [H|H].
  - now rewrite (proj2 (mem_in x r) H).
  - destruct (mem x r) eqn:Hm; [|reflexivity]. now apply mem_in in Hm.
Qed.
Lemma once_graph nodes edges : graph_once nodes edges = graph_of nodes edges.
Proof. unfold graph_once, graph_of. now rewrite once_nodup. Qed.
Lemma definitions_same m : definitions_once m = definitions_graph m.
Proof.
  unfold definitions_once. rewrite once_graph, definition_edges_ok. reflexivity.
Qed.
Lemma modules_same modules : modules_once modules = modules_graph modules.
Proof. apply once_graph. Qed.
Lemma first_ready g : first_nodes g = ready g.
Proof.
  unfold first_nodes, ready. apply filter_ext. intros n. rewrite has_mem. apply eq_true_iff_eq. rewrite negb_true_iff, forallb_forall. split.
  - intros H e He. apply negb_true_iff. destruct (String.eqb (snd e) n && mem (fst e) (g_nodes g))%bool eqn:Hb; [|reflexivity]. exfalso.
    apply andb_true_iff in Hb. destruct Hb as [Hb1 Hb2]. apply Bool.not_true_iff_false in H. apply H, mem_in, in_map_iff. exists e. apply String.eqb_eq in Hb1.
    split; [exact Hb1|]. apply filter_In. now rewrite has_mem.
  - intros H. apply Bool.not_true_iff_false. intros Hm. apply mem_in, in_map_iff in Hm. destruct Hm as (e & <- & He). apply filter_In in He. destruct He as [He Hb].
    specialize (H e He). rewrite has_mem in Hb. now rewrite String.eqb_refl, Hb in H.
Qed.
Lemma without_removes b g : without b g = remove_nodes b g.
Proof. unfold without, remove_nodes. f_equal. apply filter_ext. intros n. now rewrite has_mem. Qed.
Lemma sorted_pops : forall fuel g l, sorted fuel g = Some l -> pops g l.
Proof.
  induction fuel as [|f IH]; intros g l; cbn [sorted]; [discriminate|]. destruct (first_nodes g) as [|x b] eqn:Hb.
  - intros [= <-]. apply pop_none. now rewrite <- first_ready.
  - destruct (sorted f (without (x :: b) g)) as [l'|] eqn:Hl; [|discriminate]. intros [= <-]. apply (pop_some g (x :: b) l').
    + rewrite <- first_ready, Hb. discriminate.
    + rewrite <- first_ready, Hb. apply Permutation_refl.
    + rewrite <- without_removes. now apply IH.
Qed.
Lemma chain_only : forall fuel g l, chain fuel g = Some l -> forall o, pops g o -> o = l.
Proof.
  induction fuel as [|f IH]; intros g l; cbn [chain]; [discriminate|]. rewrite first_ready. intros H o Ho. inversion Ho as [g' Hr|g' batch out Hr Hp Hq]; subst.
  - rewrite Hr in H. now injection H as <-.
  - destruct (ready g) as [|x [|y b]] eqn:Hb; [congruence| |discriminate]. apply Permutation_sym, Permutation_length_1_inv in Hp. subst batch.
    destruct (chain f (without [x] g)) as [l'|] eqn:Hl; [|discriminate]. injection H as <-. cbn [app]. f_equal. apply (IH _ _ Hl). now rewrite without_removes.
Qed.
Lemma chain_pops : forall fuel g l, chain fuel g = Some l -> pops g l.
Proof.
  induction fuel as [|f IH]; intros g l; cbn [chain]; [discriminate|]. destruct (first_nodes g) as [|x [|y b]] eqn:Hb; [| |discriminate].
  - intros [= <-]. apply pop_none. now rewrite <- first_ready.
  - destruct (chain f (without [x] g)) as [l'|] eqn:Hl; [|discriminate]. intros [= <-]. apply (pop_some g [x] l').
    + rewrite <- first_ready, Hb. discriminate.
    + rewrite <- first_ready, Hb. apply Permutation_refl.
    + rewrite <- without_removes. now apply IH.
Qed.
Lemma orders_found modules : forall names os, find_orders modules names = Some os -> map fst os = names /\
  Forall (fun no => forall m, lookup (fst no) modules = Some m -> sorted_definitions m (snd no)) os.
Proof.
  induction names as [|a r IH]; cbn [find_orders]; intros os; [intros [= <-]; now split|].
  destruct (lookup a modules) as [m|] eqn:Hm; [|discriminate]. destruct (find_orders modules r) as [os'|]; [|discriminate].
  destruct (sorted 1000 (definitions_once m)) as [l|] eqn:Hl; [|discriminate]. intros [= <-]. destruct (IH _ eq_refl) as [H1 H2]. cbn [map fst]. split; [now f_equal|].
  constructor; [|exact H2]. cbn [fst snd]. intros m' Hm'. assert (m' = m) by congruence. subst m'. unfold sorted_definitions. rewrite <- definitions_same. now apply (sorted_pops 1000).
Qed.
Lemma some_existsb {A} (f : A -> bool) l : some f l = existsb f l.
Proof. induction l as [|x r IH]; [reflexivity|]. cbn [some existsb]. rewrite IH. now destruct (f x). Qed.
Lemma perhaps_ok modules t : may_be_enumerated modules t -> forall fuel, perhaps_enum modules fuel t = true.
Proof.
  induction 1 as [root ext more cs|r cs a m t p Hm Hr _ IH|r ps cs]; intros [|f]; try reflexivity. cbn [perhaps_enum]. rewrite some_existsb. apply existsb_exists. exists (a, m).
  split; [exact Hm|]. rewrite some_existsb. apply existsb_exists. exists (r, mkDef (DKType t) p). split; [exact Hr|]. cbn [fst snd d_kind]. now rewrite same_eqb, String.eqb_refl, IH.
Qed.
Lemma items_fine_ok modules : items_fine modules = true -> items_apart modules.
Proof.
  unfold items_fine. intros H a m k d t s Hm Hk Hts Ht (a' & m' & Hm' & Hs). rewrite forallb_forall in H. specialize (H _ Hm). cbn [snd] in H.
  rewrite forallb_forall in H. specialize (H _ Hk). cbn [snd] in H. rewrite forallb_forall in H. specialize (H _ Hts). cbn [fst snd] in H.
  rewrite has_mem, (perhaps_ok _ _ Ht) in H. destruct (mem s (flat_map (fun nm => def_names (snd nm)) modules)) eqn:Hb; [discriminate|].
  apply Bool.not_true_iff_false in Hb. apply Hb, mem_in, in_flat_map. now exists (a', m').
Qed.
Lemma program_fine_ok prog : program_fine prog = true -> NoDup (map fst prog) /\ forall n d, In (n, d) prog -> countable d /\ ~ In "Option"%string (used_types d).
Proof.
  unfold program_fine. destruct (different (map fst prog)) eqn:Hd; [|discriminate]. intros H. split; [now apply different_ok|]. intros n d Hn.
  rewrite forallb_forall in H. specialize (H _ Hn). cbn [snd] in H. destruct (small d) eqn:Hs; [|discriminate]. rewrite has_mem, negb_true_iff in H. split.
  - destruct d; cbn [small countable] in *; try exact I; now apply Z.leb_le.
  - intros Hi. apply mem_in in Hi. congruence.
Qed.
Lemma same_type_ok a : forall b, same_type a b = true -> a = b.
Proof.
  revert a. refine (proj1 (ty_mutind (fun a => forall b, same_type a b = true -> a = b) (fun a => forall b, same_fields a b = true -> a = b)
    (fun a => forall b, same_alts a b = true -> a = b) _ _ _ _ _ _ _ _ _ _ _ _ _ _ _ _ _)); intros;
  match goal with H : _ ?a ?b = true |- ?a = ?b => destruct b; try discriminate H; cbn [same_type same_fields same_alts] in H; rewrite ?andb_true_iff in H end;
  repeat match goal with
  | H : _ /\ _ |- _ => destruct H
  | H : oz_eqb _ _ = true |- _ => apply oz_eqb_ok in H
  | H : Bool.eqb _ _ = true |- _ => apply Bool.eqb_prop in H
  | H : ity_eqb _ _ = true |- _ => apply ity_eqb_ok in H
  | H : (_ =? _) = true |- _ => apply Z.eqb_eq in H
  | IH : forall b, same_type ?t b = true -> ?t = b, H : same_type ?t _ = true |- _ => apply IH in H
  | IH : forall b, same_fields ?t b = true -> ?t = b, H : same_fields ?t _ = true |- _ => apply IH in H
  | IH : forall b, same_alts ?t b = true -> ?t = b, H : same_alts ?t _ = true |- _ => apply IH in H
  end; subst; reflexivity.
Qed.
Lemma has_type_ok k T tb : has_type k T tb = true -> types (meaning_of tb) k = Some T.
Proof.
  unfold has_type. cbn [types meaning_of]. destruct (lookup k tb) as [[z|z|T'|s|ob|]|]; try discriminate. intros H. apply same_type_ok in H. now subst.
Qed.

(* the modules that are read are those of the texts *)
Lemma add_all_in : forall (ms : list parsed_module) acc x, In x (fold_left (fun acc m => replace (pm_name m) m acc) ms acc) -> In x acc \/ exists m, In m ms /\ x = (pm_name m, m).
Proof.
  induction ms as [|m r IH]; intros acc x; cbn [fold_left]; [now left|]. intros H. destruct (IH _ _ H) as [H1|(m' & H1 & H2)].
  - apply replace_in in H1. destruct H1 as [->|H1]; [right; exists m; split; [now left|reflexivity]|now left].
  - right. exists m'. split; [now right|exact H2].
Qed.
Lemma replace_keeps {A} k (v : A) l a : a = k \/ In a (map fst l) -> In a (map fst (replace k v l)).
Proof.
  intros H. assert (Hl : lookup a (replace k v l) <> None).
  { rewrite lookup_replace. destruct (String.eqb_spec a k); [discriminate|]. destruct H as [H|H]; [contradiction|]. clear -H.
    induction l as [|[b w] r IH]; [contradiction|]. cbn [lookup]. destruct (String.eqb_spec a b); [discriminate|]. apply IH. destruct H as [H|H]; [cbn [fst] in H; congruence|exact H]. }
  clear H. destruct (lookup a (replace k v l)) as [w|] eqn:E; [|congruence]. apply in_map_iff. exists (a, w). split; [reflexivity|].
  revert E. generalize (replace k v l). intros l'. induction l' as [|[b u] r IH]; cbn [lookup]; [discriminate|]. destruct (String.eqb_spec a b) as [->|]; [intros [= ->]; now left|right; auto].
Qed.
Lemma add_all_names : forall (ms : list parsed_module) acc a, In a (map fst acc) \/ In a (map pm_name ms) -> In a (map fst (fold_left (fun acc m => replace (pm_name m) m acc) ms acc)).
Proof.
  induction ms as [|m r IH]; intros acc a; cbn [fold_left map]; [intros [H|[]]; exact H|]. intros H. apply IH. destruct H as [H|[H|H]].
  - left. apply replace_keeps. now right.
  - left. apply replace_keeps. now left.
  - now right.
Qed.
Lemma read_texts num : TokenSpec.numeric_table num -> forall files acc parsed, rfold (add_file num) acc files = Ok parsed ->
  exists texts, Forall2 (fun cs ms => exists l, TokenSpec.items (fun c => num c = true) cs l /\ LooseSpec.loose_file (DefinitionSpec.words_of_items l) ms) files texts /\
    (forall x, In x parsed -> In x acc \/ exists ms pm, In ms texts /\ In pm ms /\ x = (pm_name pm, pm)) /\
    (forall a, In a (map fst acc) -> In a (map fst parsed)) /\
    (forall ms pm, In ms texts -> In pm ms -> In (pm_name pm) (map fst parsed)).
Proof.
  intros Hnum. induction files as [|cs files IH]; intros acc parsed; cbn [rfold].
  - intros [= <-]. exists []. repeat split; [constructor|now left|trivial|contradiction].
  - destruct (add_file num acc cs) as [acc'| | |] eqn:E; cbn [rbind]; try discriminate. intros H. destruct (IH _ _ H) as (texts & H1 & H2 & H3 & H4). unfold add_file in E.
    destruct (tokenize num cs) as [toks| | |] eqn:Et; cbn [rbind] in E; try discriminate E. destruct (parse toks) as [ms| | |] eqn:Ep; cbn [rbind] in E; try discriminate E.
    injection E as <-. exists (ms :: texts). split; [|split; [|split]].
    + constructor; [exact (LooseFacts.C60_file_proof num cs toks ms Hnum Et Ep)|exact H1].
    + intros x Hx. destruct (H2 x Hx) as [Ha|(ms' & pm & Ha & Hb & Hc)].
      * apply add_all_in in Ha. destruct Ha as [Ha|(m & Ha & Hb)]; [now left|]. right. exists ms, m. split; [now left|]. split; [now apply in_rev|exact Hb].
      * right. exists ms', pm. split; [now right|]. now split.
    + intros a Ha. apply H3, add_all_names. now left.
    + intros ms' pm [<-|Ha] Hb; [|exact (H4 _ _ Ha Hb)]. apply H3, add_all_names. right. apply in_map_iff. exists pm. split; [reflexivity|]. now apply -> in_rev.
Qed.
Lemma texts_read files parsed : add_files is_digit files = Ok parsed -> texts_of is_digit files parsed.
Proof.
  intros H. destruct (read_texts is_digit TokenProofs.numeric_digits files [] parsed H) as (texts & H1 & H2 & _ & H4). exists texts. split; [exact H1|]. split; [|exact H4].
  intros a pm Hx. destruct (H2 _ Hx) as [[]|(ms & pm' & Ha & Hb & [= -> ->])]. split; [reflexivity|]. exists ms. now split.
Qed.

(* ------------------------------------------------------------------ *)
(* The check is sound                                                  *)
(* ------------------------------------------------------------------ *)
Section Sound.
Context (also : table -> list (string * gdef) -> bool) (exceptions : list string) (n depth fuel : nat) (files : list (list Z)) (names : list string).
Context (parsed : list (string * parsed_module)) (modules : list (string * module)) (orders : list (string * list string)).
Context (Hn : (n <= depth)%nat) (Hp : add_files is_digit files = Ok parsed) (Hi : resolve_imports (stubs parsed) = Ok tt) (Hl : link is_digit parsed [] names = Ok modules)
  (Hc : chain 100 (modules_once modules) = Some names) (Ho : find_orders modules names = Some orders)
  (Hf : schema_fine modules orders = true) (Ha : items_fine modules = true) (Hs : settledb depth modules = true)
  (Hm : all_meant exceptions modules (find_meaning modules n orders) = true)
  (Hlen : (List.length (flat_map (fun nm => def_names (snd nm)) modules) < fuel)%nat)
  (Hall : match compile checked (instantiate checked depth) fuel modules orders with Ok p => if program_fine p then also (find_meaning modules n orders) p else false | _ => false end = true).
Let M := meaning_of (find_meaning modules n orders).
Lemma files_modules E o : valid_orders modules o -> compile_files is_digit E depth fuel files o = compile E (instantiate E depth) fuel modules o.
Proof.
  intros V. unfold compile_files. rewrite Hp. cbn [rbind]. rewrite Hi. cbn [rbind].
  assert (Hno : map fst o = names). { apply (chain_only _ _ _ Hc). rewrite modules_same. apply V. }
  rewrite Hno, Hl. reflexivity.
Qed.
Lemma found_valid : valid_orders modules orders.
Proof.
  destruct (orders_found _ _ _ Ho) as [H1 H2]. split; [|exact H2]. rewrite H1. unfold sorted_modules. rewrite <- modules_same. exact (chain_pops _ _ _ Hc).
Qed.
Lemma found_program E : exists p, compile E (instantiate E depth) fuel modules orders = Ok p /\ program_fine p = true /\ also (find_meaning modules n orders) p = true.
Proof.
  pose proof Hall as H. assert (Ht := tally_compile checked E (or_introl eq_refl) (instantiate checked depth) (instantiate E depth) fuel modules orders
    (fun st r ps => tally_instantiate checked E (or_introl eq_refl) depth st r ps)).
  destruct (compile checked (instantiate checked depth) fuel modules orders) as [p| | |]; try discriminate H. destruct Ht as [Ht|Ht]; [discriminate Ht|].
  destruct (program_fine p) eqn:Hp'; [|discriminate H]. exists p. split; [exact Ht|]. split; [exact Hp'|exact H].
Qed.
Lemma only_program E p o p' : compile E (instantiate E depth) fuel modules orders = Ok p -> valid_orders modules o ->
  compile E (instantiate E depth) fuel modules o = Ok p' -> p' = p.
Proof.
  intros H V H'. destruct (schema_fine_ok modules orders n Hf) as (Hw & _).
  exact (compile_deterministic E depth fuel modules modules o orders p' p Hw (items_fine_ok _ Ha) (settledb_ok _ _ Hs) (Permutation_refl _) V found_valid H' H).
Qed.
Lemma shape_found E p : compile E (instantiate E depth) fuel modules orders = Ok p -> forall a m k t T, In (a, m) modules -> In (k, mkDef (DKType t) None) (m_defs m) ->
  types M k = Some T -> exists d, In (to_type_ident k, d) p /\ shaped modules p k t d.
Proof.
  intros H a m k t T Hin Hk HT. destruct (schema_fine_ok modules orders n Hf) as (Hw & Himp & Hmm & Hnr). fold M in Hmm, Hnr.
  assert (Hk' : In k (def_names m)) by (apply in_map_iff; exists (k, mkDef (DKType t) None); split; [reflexivity|exact Hk]).
  assert (Hh : has_meaning M k) by (left; rewrite HT; discriminate).
  destruct (order_of_module M modules orders Hnr found_valid a m Hin) as (o & Ho'); [exists k; split; [exact Hk'|exact Hh]|].
  pose proof (name_in_order M modules orders Hw Hnr found_valid a m o k Hin Ho' Hk' Hh) as Hko.
  destruct Hw as (W1 & W2 & _). exact (compiled_shape E depth fuel modules orders p W1 W2 H a o m k t Ho' Hin Hko Hk).
Qed.
Lemma right_found E p : compile E (instantiate E depth) fuel modules orders = Ok p -> program_fine p = true -> right_program E M modules exceptions p.
Proof.
  intros H Hp'. destruct (program_fine_ok p Hp') as [Hnd Hor]. destruct (schema_fine_ok modules orders n Hf) as (Hw & Himp & Hmm & Hnr). fold M in Hmm, Hnr.
  split; [exact Hnd|]. intros a m k t Hin Hk He.
  assert (HT : exists T, types M k = Some T).
  { pose proof Hm as H1. unfold all_meant in H1. rewrite forallb_forall in H1. specialize (H1 _ Hin). cbn [snd] in H1. rewrite forallb_forall in H1. specialize (H1 _ Hk).
    cbn [fst snd d_params d_kind] in H1. unfold M. cbn [types meaning_of]. rewrite has_mem in H1. assert (Hx : mem k exceptions = false).
    { apply Bool.not_true_iff_false. intros Hx. apply mem_in in Hx. exact (He Hx). }
    rewrite Hx in H1. destruct (lookup k (find_meaning modules n orders)) as [[z|z|T|s|ob|]|]; try discriminate H1. exists T. reflexivity. }
  destruct HT as (T & HT). exists T. split; [exact HT|]. assert (Hk' : In k (def_names m)) by (apply in_map_iff; exists (k, mkDef (DKType t) None); split; [reflexivity|exact Hk]).
  assert (Hr : rust_means (map item_of p) (to_type_ident k) T).
  { exact (C51_modules_proof E depth fuel M n modules orders p Hn Hw Himp Hmm Hnr found_valid H Hor a m k T Hin Hk' HT). }
  assert (Hcf : compile_files is_digit E depth fuel files orders = Ok p) by (rewrite files_modules; [exact H|exact found_valid]).
  assert (Hu : forall T', rust_means (map item_of p) (to_type_ident k) T' -> T' = T).
  { intros T' HT'. apply (C51_proof is_digit E depth fuel files orders p Hcf Hor) in HT', Hr. exact (means_unique p _ _ _ Hnd HT' Hr). }
  split; [exact Hr|]. split; [exact Hu|]. rewrite <- and_assoc. split; [|exact (shape_found E p H a m k t T Hin Hk HT)]. pose proof (C56_numbered_proof is_digit E depth fuel files orders p Hcf Hor _ _ Hr) as Hx. split.
  2: { split.
    - intros v k' Hv Hpl. destruct (C56_encoder_proof E T v None k' Hv Hx Hpl) as (d & H1 & _ & H2). exists d. split; [exact H1|exact H2].
    - intros v k' s octets Hkn Hfl Hoc Hlt. exact (C56_decoder_proof E T v k' s octets Hkn Hx Hfl Hoc Hlt). }
  intros v k' s Hv Hfl. apply (C51_proof is_digit E depth fuel files orders p Hcf Hor) in Hr.
  exact (C48_proof E depth fuel M n modules orders p Hn Hw Himp Hmm Hnr found_valid H Hnd a m k T T v k' s Hin Hk' HT Hr Hv Hfl).
Qed.
Lemma sound_but (Q : meaning -> list (string * gdef) -> Prop) : (forall tb p, also tb p = true -> Q (meaning_of tb) p) -> compiled_rightly_but_for exceptions is_digit depth fuel files names Q.
Proof.
  intros HQ. destruct (schema_fine_ok modules orders n Hf) as (_ & _ & Hmm & _). fold M in Hmm. exists modules, M, n. split; [exists parsed; split; [exact (texts_read _ _ Hp)|split; [exact Hp|exact Hl]]|]. split; [exact Hmm|].
  intros E. destruct (found_program E) as (p & H & Hp' & Hal). exists p. split; [apply right_found; [exact H|exact Hp']|]. split; [exact (HQ _ _ Hal)|]. split.
  - exists orders. split; [exact found_valid|]. rewrite files_modules; [exact H|exact found_valid].
  - intros o p' V H'. rewrite files_modules in H' by exact V. exact (only_program E p o p' H V H').
Qed.
Lemma sound_all (Q : meaning -> list (string * gdef) -> Prop) : (forall tb p, also tb p = true -> Q (meaning_of tb) p) -> exceptions = [] -> compiled_rightly is_digit depth fuel files names Q.
Proof.
  intros HQ He. destruct (schema_fine_ok modules orders n Hf) as (Hw & Himp & Hmm & Hnr). fold M in Hmm, Hnr. exists modules, M, n. split; [exists parsed; split; [exact (texts_read _ _ Hp)|split; [exact Hp|exact Hl]]|]. split; [exact Hmm|].
  intros E. destruct (found_program E) as (p & H & Hp' & Hal). exists p. split; [rewrite <- He; apply right_found; [exact H|exact Hp']|]. split; [exact (HQ _ _ Hal)|]. split; [exists orders; exact found_valid|].
  intros o V. rewrite files_modules by exact V.
  destruct (compile_total E depth fuel M modules n o Hn Hw Himp Hmm Hnr V Hlen) as (p' & Hp2).
  { intros a m k d Hin Hk. unfold kept. pose proof Hm as H1. unfold all_meant in H1. rewrite forallb_forall in H1. specialize (H1 _ Hin). cbn [snd] in H1. rewrite forallb_forall in H1.
    specialize (H1 _ Hk). cbn [fst snd] in H1. destruct (d_params d) as [ps|]; [right; left; discriminate|]. rewrite He in H1. cbn [has] in H1. unfold M, has_meaning.
    cbn [types numbers ids sets objects generics meaning_of].
    destruct (d_kind d) as [| | | |] eqn:Hd; try (right; right; eexists; reflexivity); left;
      destruct (lookup k (find_meaning modules n orders)) as [[z|z|T|s'|ob|]|]; try discriminate H1;
      first [left; discriminate|right; left; discriminate|right; right; left; discriminate|right; right; right; left; discriminate|right; right; right; right; left; discriminate
            |right; right; right; right; right; reflexivity]. }
  rewrite Hp2. f_equal. exact (only_program E p o p' H V Hp2).
Qed.
End Sound.
Theorem protocol_fine_ok also (Q : meaning -> list (string * gdef) -> Prop) exceptions n depth fuel files names : (n <= depth)%nat -> (forall tb p, also tb p = true -> Q (meaning_of tb) p) ->
  protocol_fine also exceptions n depth fuel files names = true ->
  compiled_rightly_but_for exceptions is_digit depth fuel files names Q /\ (exceptions = [] -> compiled_rightly is_digit depth fuel files names Q).
Proof.
  intros Hn HQ. unfold protocol_fine. destruct (add_files is_digit files) as [parsed| | |] eqn:Hp; try discriminate.
  destruct (resolve_imports (stubs parsed)) as [[]| | |] eqn:Hi; try discriminate. destruct (link is_digit parsed [] names) as [modules| | |] eqn:Hl; try discriminate.
  unfold modules_fine. destruct (chain 100 (modules_once modules)) as [l|] eqn:Hc; [|discriminate]. destruct (find_orders modules names) as [orders|] eqn:Ho; [|discriminate].
  destruct (list_eq_dec string_dec l names) as [->|]; [|discriminate]. destruct (schema_fine modules orders) eqn:Hf; [|discriminate]. cbv zeta.
  destruct (items_fine modules) eqn:Ha; [|discriminate]. destruct (settledb depth modules) eqn:Hs; [|discriminate].
  destruct (all_meant exceptions modules (find_meaning modules n orders)) eqn:Hm; [|discriminate].
  destruct (Nat.ltb (List.length (flat_map (fun nm => def_names (snd nm)) modules)) fuel) eqn:Hlen; [|discriminate]. apply Nat.ltb_lt in Hlen. intros Hall. split.
  - exact (sound_but also exceptions n depth fuel files names parsed modules orders Hn Hp Hi Hl Hc Ho Hf Ha Hs Hm Hall Q HQ).
  - exact (sound_all also exceptions n depth fuel files names parsed modules orders Hn Hp Hi Hl Hc Ho Hf Ha Hs Hm Hlen Hall Q HQ).
Qed.
