(* All names in a generated program are words of Rust (C68). *)
From Coq Require Import ZArith NArith List Bool String Ascii Lia.
Require Import Verif.Base Verif.Asn1Model Verif.GenModel Verif.CompilerSpec Verif.GenProofs Verif.NameProofs Verif.RustModel Verif.RustSpec
  Verif.WordSpec Verif.WordProofs Verif.LegalSpec.
Import ListNotations.
Open Scope list_scope.

(* names as the generator hands them on *)
Definition loose (c : ascii) : Prop := is_alnum c = true \/ c = "-"%char \/ c = " "%char \/ c = "_"%char.
Definition loose_name (s : string) : Prop := match chars s with [] => False | c :: r => (is_lower c || is_upper c) = true /\ Forall loose r end.

Lemma letter_alnum c : (is_lower c || is_upper c) = true -> is_alnum c = true.
Proof. destruct c as [[] [] [] [] [] [] [] []]; vm_compute; auto. Qed.
Lemma upper_letter c : (is_lower c || is_upper c) = true -> is_upper (to_upper c) = true.
Proof. destruct c as [[] [] [] [] [] [] [] []]; vm_compute; auto. Qed.
Lemma lower_letter c : (is_lower c || is_upper c) = true -> is_lower (to_lower c) = true.
Proof. destruct c as [[] [] [] [] [] [] [] []]; vm_compute; auto. Qed.
Lemma lower_alnum c : is_alnum c = true -> is_alnum (to_lower c) = true /\ is_upper (to_lower c) = false.
Proof. destruct c as [[] [] [] [] [] [] [] []]; vm_compute; auto. Qed.
Lemma upper_alnum c : is_alnum c = true -> is_alnum (to_upper c) = true /\ is_lower (to_upper c) = false.
Proof. destruct c as [[] [] [] [] [] [] [] []]; vm_compute; auto. Qed.
Lemma loose_ident c : loose c -> is_alnum (ident_char c) = true \/ ident_char c = "_"%char.
Proof.
  intros [H|[->|[->| ->]]]; [|now right|now right|now right]. left.
  revert H. destruct c as [[] [] [] [] [] [] [] []]; vm_compute; auto.
Qed.
Lemma letter_ident c : is_upper c = true -> ident_char c = c.
Proof. destruct c as [[] [] [] [] [] [] [] []]; vm_compute; auto; discriminate. Qed.
Lemma asn_loose s : asn_name s -> loose_name s.
Proof.
  unfold asn_name, identifier, type_reference, loose_name. intros H. destruct (chars s) as [|c r]; [destruct H; contradiction|].
  assert (H' : (is_lower c || is_upper c) = true /\ Forall (fun c => is_alnum c = true \/ c = "-"%char) (c :: r)).
  { destruct H as [[H1 H2]|[H1 H2]]; (split; [rewrite H1; try apply orb_true_r; reflexivity|exact H2]). }
  destruct H' as [H1 H2]. split; [exact H1|]. inversion_clear H2. eapply Forall_impl; [|eassumption]. intros a [Ha|Ha]; [now left|right; now left].
Qed.
Lemma loose_app s t : loose_name s -> Forall loose (chars t) -> loose_name (s ++ t).
Proof.
  unfold loose_name. rewrite chars_app. destruct (chars s) as [|c r]; [intros []|]. cbn [app]. intros [H1 H2] H. split; [exact H1|]. now apply Forall_app.
Qed.
Lemma loose_all s : loose_name s -> Forall loose (chars s).
Proof.
  unfold loose_name. destruct (chars s) as [|c r]; [intros []|]. intros [H1 H2]. constructor; [left; now apply letter_alnum|exact H2].
Qed.
Lemma word_all s : word s -> Forall loose (chars s).
Proof.
  unfold word. destruct (chars s) as [|c r]; [intros []|]. intros [H1 H2]. constructor; [left; now apply letter_alnum|].
  eapply Forall_impl; [|exact H2]. intros a [Ha|Ha]; [now left|do 3 right; exact Ha] || (intros a [Ha|Ha]; [now left|right; right; now right]).
Qed.
Lemma type_word s : loose_name s -> word (to_type_ident s) /\ exists c r, to_type_ident s = String c r /\ is_upper c = true.
Proof.
  unfold loose_name, word. rewrite to_type_ident_chars. destruct s as [|c r]; [intros []|]. cbn [chars capitalize_first map]. intros [H1 H2].
  pose proof (upper_letter _ H1) as Hu. rewrite (letter_ident _ Hu). split.
  - split; [now rewrite Hu, orb_true_r|]. apply Forall_map. eapply Forall_impl; [|exact H2]. exact loose_ident.
  - exists (to_upper c), (smap ident_char r). split; [|exact Hu]. unfold to_type_ident. cbn [capitalize_first smap]. change (if (to_upper c =? "-")%char || (to_upper c =? " ")%char then "_"%char else to_upper c) with (ident_char (to_upper c)). rewrite (letter_ident _ Hu). reflexivity.
Qed.
Lemma digits_loose n : Forall loose (chars (decimal n)).
Proof.
  eapply Forall_impl; [|apply decimal_digits]. intros c Hc. left. revert Hc. destruct c as [[] [] [] [] [] [] [] []]; vm_compute; auto.
Qed.
Lemma unique_loose b n : loose_name b -> loose_name (b ++ " " ++ decimal n).
Proof.
  intros H. apply loose_app; [exact H|]. rewrite chars_app. apply Forall_app. split; [|apply digits_loose]. constructor; [right; right; now left|constructor].
Qed.

(* the words of a name *)
Lemma words_head : forall s mode c w, exists w' l, heck_words mode (String c w) s = String c w' :: l.
Proof.
  induction s as [|d s IH]; intros mode c w; [cbn [heck_words]; eauto|]. cbn [heck_words].
  destruct (negb (is_alnum d)); [eauto|]. destruct s as [|n s']; [cbn [append]; eauto|].
  remember (String n s') as s eqn:Hs. destruct (negb (is_alnum n)); [cbn [append]; eauto|].
  cbn [append].
  repeat match goal with
  | |- context[if ?b then _ else _] => destruct b
  | |- context[match ?m with Boundary => _ | Lowercase => _ | Uppercase => _ end] => destruct m
  end; first [apply IH|eauto].
Qed.
Lemma words_start c s : (is_lower c || is_upper c) = true -> exists w l, heck_words Boundary "" (String c s) = String c w :: l.
Proof.
  intros Hc. cbn [heck_words]. rewrite (letter_alnum _ Hc). cbn [negb]. destruct s as [|n s']; [cbn [append]; eauto|].
  remember (String n s') as s eqn:Hs. cbn [append].
  repeat match goal with
  | |- context[if ?b then _ else _] => destruct b
  | |- context[match ?m with Boundary => _ | Lowercase => _ | Uppercase => _ end] => destruct m
  end; first [apply words_head|eauto].
Qed.
Definition alnums (s : string) : Prop := Forall (fun c => is_alnum c = true) (chars s).
Lemma words_alnum : forall s mode w, alnums w -> Forall alnums (heck_words mode w s).
Proof.
  assert (Hf : forall (w : string) l, alnums w -> Forall alnums l -> Forall alnums (match w with EmptyString => l | _ => w :: l end)).
  { intros [|c w] l H1 H2; [exact H2|constructor; assumption]. }
  induction s as [|d s IH]; intros mode w Hw; [cbn [heck_words]; apply Hf; [exact Hw|constructor]|]. cbn [heck_words].
  destruct (is_alnum d) eqn:Hd; cbn [negb]; [|apply Hf; [exact Hw|apply IH; constructor]].
  assert (Hwd : alnums (w ++ String d "")) by (unfold alnums; rewrite chars_app; apply Forall_app; split; [exact Hw|repeat constructor; exact Hd]).
  assert (Hd1 : alnums (String d "")) by (repeat constructor; exact Hd).
  destruct s as [|n s']; [repeat constructor; exact Hwd|].
  remember (String n s') as s eqn:Hs.
  repeat match goal with
  | |- context[if ?b then _ else _] => destruct b
  | |- context[match ?m with Boundary => _ | Lowercase => _ | Uppercase => _ end] => destruct m
  end; lazymatch goal with
  | |- Forall alnums (match _ with EmptyString => _ | _ => _ end) => apply Hf; [exact Hw|apply IH; first [exact Hd1|apply Forall_nil]]
  | |- Forall alnums (_ :: _) => apply Forall_cons; [first [exact Hwd|exact Hw]|apply IH; first [apply Forall_nil|exact Hd1]]
  | |- _ => apply IH; first [exact Hwd|exact Hd1]
  end.
Qed.
Lemma concat_chars (P : ascii -> Prop) ws : P "_"%char -> Forall (fun w => Forall P (chars w)) ws -> Forall P (chars (String.concat "_" ws)).
Proof.
  intros Hu. induction ws as [|w ws IH]; intros H; [constructor|]. inversion_clear H as [|? ? H1 H2]. specialize (IH H2). destruct ws as [|w' ws]; [exact H1|].
  change (String.concat "_" (w :: w' :: ws)) with (w ++ ("_" ++ String.concat "_" (w' :: ws)))%string. rewrite !chars_app. apply Forall_app. split; [exact H1|]. apply Forall_app. split; [|exact IH]. repeat constructor. exact Hu.
Qed.
Lemma concat_head c w l : exists r, String.concat "_" (String c w :: l) = String c r.
Proof. destruct l; cbn [String.concat append]; eauto. Qed.
Lemma case_word (f : ascii -> ascii) (P : ascii -> Prop) s : (forall c, is_alnum c = true -> P (f c)) -> P "_"%char -> loose_name s ->
  exists c r, String.concat "_" (map (smap f) (heck_words Boundary "" s)) = String (f c) r /\ (is_lower c || is_upper c) = true /\ Forall P (chars r).
Proof.
  intros Hf Hu H. unfold loose_name in H. destruct s as [|c s]; [destruct H|]. cbn [chars] in H. destruct H as [Hc _].
  destruct (words_start c s Hc) as (w & l & Hw). destruct (concat_head (f c) (smap f w) (map (smap f) l)) as (r & Hr).
  exists c, r. rewrite Hw. cbn [map smap]. split; [exact Hr|]. split; [exact Hc|].
  assert (Ha : Forall alnums (heck_words Boundary "" (String c s))) by (apply words_alnum; constructor).
  assert (HP : Forall P (chars (String (f c) r))).
  { rewrite <- Hr. change (String (f c) (smap f w) :: map (smap f) l) with (map (smap f) (String c w :: l)). rewrite <- Hw.
    apply concat_chars; [exact Hu|]. apply Forall_map. eapply Forall_impl; [|exact Ha]. intros a Haa. rewrite chars_smap. apply Forall_map. eapply Forall_impl; [|exact Haa]. exact Hf. }
  cbn [chars] in HP. now inversion_clear HP.
Qed.
Definition wchar (c : ascii) : Prop := is_alnum c = true \/ c = "_"%char.
Lemma const_word s : loose_name s -> word (to_const_ident s) /\ Forall (fun c => is_lower c = false) (chars (to_const_ident s)).
Proof.
  intros H. unfold to_const_ident, to_shouty_snake_case.
  destruct (case_word to_upper (fun c => wchar c /\ is_lower c = false) s) as (c & r & -> & Hc & Hr).
  - intros c Hc. destruct (upper_alnum c Hc). split; [now left|assumption].
  - split; [now right|reflexivity].
  - exact H.
  - unfold word. cbn [chars]. split.
    + split; [rewrite (upper_letter _ Hc); apply orb_true_r|]. eapply Forall_impl; [|exact Hr]. now intros a [Ha _].
    + constructor; [exact (proj2 (upper_alnum c (letter_alnum c Hc)))|]. eapply Forall_impl; [|exact Hr]. now intros a [_ Ha].
Qed.
Lemma capital_loose s : loose_name s -> loose_name (capitalize_first s).
Proof.
  unfold loose_name. destruct s as [|c s]; [exact (fun H => H)|]. cbn [capitalize_first chars]. intros [H1 H2]. split; [now rewrite (upper_letter _ H1), orb_true_r|exact H2].
Qed.
Lemma value_word s : loose_name s -> word (to_value_ident s) /\ Forall (fun c => is_upper c = false) (chars (to_value_ident s)).
Proof.
  intros H. apply capital_loose in H. unfold to_value_ident, to_snake_case.
  destruct (case_word to_lower (fun c => wchar c /\ is_upper c = false) (capitalize_first s)) as (c & r & -> & Hc & Hr).
  - intros c Hc. destruct (lower_alnum c Hc). split; [now left|assumption].
  - split; [now right|reflexivity].
  - exact H.
  - destruct (String.eqb (String (to_lower c) r) "type").
    + split; [|repeat constructor]. split; [reflexivity|]. repeat constructor; left; reflexivity.
    + unfold word. cbn [chars]. split.
      * split; [now rewrite (lower_letter _ Hc)|]. eapply Forall_impl; [|exact Hr]. now intros a [Ha _].
      * constructor; [exact (proj2 (lower_alnum c (letter_alnum c Hc)))|]. eapply Forall_impl; [|exact Hr]. now intros a [_ Ha].
Qed.

(* programs *)
Open Scope Z_scope.
Section Programs.
(* P: the names that are written; Q: what holds of the names in the program *)
Context (P Q : string -> Prop) (HP : forall s, P s -> asn_name s).
Context (HT : forall s, loose_name s -> Q (to_type_ident s)) (HC : forall s, P s -> Q (to_const_ident s)) (HF : forall s, P s -> Q (to_value_ident s)).
Notation spelled := (spelled P).
Lemma P_loose s : P s -> loose_name s.
Proof. intros H. apply asn_loose, HP, H. Qed.
Definition item_ok (nd : string * gdef) : Prop := Q (fst nd) /\ Forall Q (item_names (snd nd)).
Definition Good {A} (m : G A) (R : A -> Prop) : Prop := forall s a s', Forall item_ok (aux_items s) -> m s = Ok (a, s') -> Forall item_ok (aux_items s') /\ R a.
Lemma Good_ret {A} (a : A) (R : A -> Prop) : R a -> Good (gret a) R.
Proof. intros Hr s x s' Hs H. apply gret_ok in H. destruct H as [-> ->]. split; assumption. Qed.
Lemma Good_lift {A} (r : res A) (R : A -> Prop) : (forall a, r = Ok a -> R a) -> Good (glift r) R.
Proof. intros Hr s x s' Hs H. apply glift_ok in H. destruct H as [Hx ->]. split; auto. Qed.
Lemma Good_bind {A B} (m : G A) (f : A -> G B) (R : A -> Prop) (S : B -> Prop) : Good m R -> (forall a, R a -> Good (f a) S) -> Good (gbind m f) S.
Proof.
  intros H1 H2 s b s' Hs H. apply gbind_ok in H. destruct H as (a & s1 & Ha & Hb). destruct (H1 _ _ _ Hs Ha) as [Hs1 Hr]. exact (H2 a Hr _ _ _ Hs1 Hb).
Qed.
Lemma Good_push n d : loose_name n -> Forall Q (item_names d) -> Good (push_aux (to_type_ident n, d)) (fun _ => True).
Proof.
  intros Hn Hd s u s' Hs H. injection H as _ <-. cbn [aux_items]. split; [|exact Logic.I]. apply Forall_app. split; [exact Hs|]. repeat constructor; [exact (HT n Hn)|exact Hd].
Qed.
Lemma Good_unique b : loose_name b -> Good (get_unique_name b) loose_name.
Proof. intros Hb s n s' Hs H. injection H as <- <-. cbn [aux_items]. split; [exact Hs|now apply unique_loose]. Qed.
Definition words_of (d : gdef) : Prop := Forall Q (item_names d).

Section Legal.
Context (E : env).
Definition Fine (t : rtype) : Prop := spelled t -> forall name, loose_name name -> Good (generate_for_type E t name) words_of.
Lemma base_loose t b : aux_base_name t = Some b -> loose_name b.
Proof.
  intros H. destruct t; cbn [aux_base_name] in H; try discriminate; injection H as <-; (split; [reflexivity|]); cbn [chars];
    repeat first [apply Forall_nil | apply Forall_cons; [first [left; reflexivity|right; right; left; reflexivity]|]].
Qed.
Lemma constructed_loose t : loose_name (aux_constructed_name t).
Proof.
  destruct t; cbn [aux_constructed_name]; (split; [reflexivity|]); cbn [chars]; repeat first [apply Forall_nil | apply Forall_cons; [left; reflexivity|]].
Qed.
Lemma Good_maybe t i : Fine t -> spelled t -> (forall n, i = Some n -> loose_name n) -> Good (name_maybe_aux (generate_for_type E t) t i) Q.
Proof.
  intros Ht Hsp Hi.
  assert (Hend : forall n, loose_name n -> Good (d <~ generate_for_type E t n ;; _ <~ push_aux (to_type_ident n, d) ;; gret (to_type_ident n)) Q).
  { intros n Hn. eapply Good_bind; [exact (Ht Hsp n Hn)|]. intros d Hd. eapply Good_bind; [apply Good_push; [exact Hn|exact Hd]|]. intros _ _. apply Good_ret. exact (HT n Hn). }
  assert (Hgen : Good (name <~ (match aux_base_name t with Some base => get_unique_name base | None => match i with Some i => gret i | None => get_unique_name (aux_constructed_name t) end end) ;;
      d <~ generate_for_type E t name ;; _ <~ push_aux (to_type_ident name, d) ;; gret (to_type_ident name)) Q).
  { eapply Good_bind; [|exact Hend]. destruct (aux_base_name t) as [b|] eqn:Hb; [apply Good_unique; exact (base_loose t b Hb)|].
    destruct i as [n|]; [apply Good_ret, Hi; reflexivity|apply Good_unique, constructed_loose]. }
  destruct t; try exact Hgen.
  - apply Good_ret. exact (HT _ (P_loose _ Hsp)).
  - cbn [name_maybe_aux]. assert (Hn : loose_name (match i with Some n => n | None => setref end)).
    { destruct i as [n|]; [apply Hi; reflexivity|]. exact (P_loose _ (proj1 Hsp)). }
    eapply Good_bind; [exact (Ht Hsp _ Hn)|]. intros d Hd. eapply Good_bind; [apply Good_push; [exact Hn|]|intros _ _; apply Good_ret; exact (HT _ Hn)].
    destruct d; exact Hd.
Qed.
Definition variant_ok (v : gvariant) : Prop := Q (gv_name v) /\ Q (gv_type v).
Definition field_ok (f : gfield) : Prop := Q (gf_name f) /\ Q (gf_type f).
Lemma Good_choice_tokens name x : loose_name name -> forall l i, Forall (fun p => Fine (snd p)) l ->
  all (fun c : string * rtype => match c with (id, t) => P id /\ spelled t end) l -> Good (choice_tokens E name x i l) (Forall variant_ok).
Proof.
  intros Hn. induction l as [|[id t] l IH]; intros i H Hs; [apply Good_ret; constructor|]. rewrite choice_tokens_cons. inversion_clear H. destruct Hs as [[Hid Ht] Hs].
  eapply Good_bind; [apply Good_maybe; [assumption|exact Ht|]|].
  - intros n Hx. injection Hx as <-. apply loose_app; [exact Hn|apply loose_all, P_loose; exact Hid].
  - intros ty Hty. eapply Good_bind; [now apply IH|]. intros vs Hvs. apply Good_ret. constructor; [|exact Hvs]. split; [exact (HT id (P_loose id Hid))|exact Hty].
Qed.
Lemma Good_seq_tokens name : loose_name name -> forall l i, Forall (fun c => Fine (rc_ty c)) l ->
  all (fun c => match c with mkRComp id t _ _ => P id /\ spelled t end) l -> Good (seq_tokens E name i l) (fun p => Forall field_ok (fst p)).
Proof.
  intros Hn. induction l as [|[id t o k] l IH]; intros i H Hs; [apply Good_ret; constructor|]. rewrite seq_tokens_cons. inversion_clear H. destruct Hs as [[Hid Ht] Hs].
  eapply Good_bind; [apply Good_maybe; [assumption|exact Ht|]|].
  - intros n Hx. injection Hx as <-. apply loose_app; [exact Hn|]. apply word_all. exact (proj1 (type_word id (P_loose id Hid))).
  - intros ty Hty. eapply Good_bind; [now apply IH|]. intros vs Hvs. apply Good_ret. constructor; [|exact Hvs]. split; [exact (HF id Hid)|exact Hty].
Qed.
Lemma Good_set_tokens : forall l, Forall (fun p => Fine (snd p)) l ->
  all (fun c : string * Z * rtype => match c with (id, _, t) => P id /\ spelled t end) l -> Good (set_tokens E l) (Forall variant_ok).
Proof.
  induction l as [|[[id k] t] l IH]; intros H Hs; [apply Good_ret; constructor|]. rewrite set_tokens_cons. inversion_clear H. destruct Hs as [[Hid Ht] Hs].
  eapply Good_bind; [apply Good_maybe; [assumption|exact Ht|discriminate]|].
  intros ty Hty. eapply Good_bind; [now apply IH|]. intros vs Hvs. apply Good_ret. constructor; [|exact Hvs]. split; [exact (HT id (P_loose id Hid))|exact Hty].
Qed.
Lemma variants_words vs : Forall variant_ok vs -> Forall Q (map gv_name vs ++ map gv_type vs).
Proof. intros H. apply Forall_app. split; apply Forall_map; (eapply Forall_impl; [|exact H]); now intros v [H1 H2]. Qed.
Lemma fields_words fs : Forall field_ok fs -> Forall Q (map gf_name fs ++ map gf_type fs).
Proof. intros H. apply Forall_app. split; apply Forall_map; (eapply Forall_impl; [|exact H]); now intros v [H1 H2]. Qed.
Lemma Good_gsize size f : (forall a, words_of (f a)) -> Good (gsize E size f) words_of.
Proof. intros H. unfold gsize. eapply Good_bind; [apply (Good_lift _ (fun _ => True)); auto|]. intros a _. apply Good_ret, H. Qed.
Lemma generate_fine t : Fine t.
Proof.
  induction t using rtype_ind'; intros Hsp name Hn;
    try solve [cbn [generate_for_type]; first [apply Good_gsize; intros; constructor|apply Good_ret; constructor]].
  - cbn [generate_for_type]. apply Good_lift. intros d Hd. unfold generate_integer in Hd. destruct (int_constraints i).
    + destruct (cv_max E _); try discriminate. injection Hd as <-. constructor.
    + injection Hd as <-. constructor.
  - cbn [generate_for_type]. apply Good_lift. intros d Hd. unfold generate_enumerated in Hd. destruct (arith_usize E _); try discriminate. injection Hd as <-.
    unfold words_of. cbn [item_names]. rewrite map_map. apply Forall_map. eapply Forall_impl; [|exact Hsp]. intros c Hc. exact (HC _ Hc).
  - rewrite generate_choice. destruct Hsp as [Hr Ha].
    eapply Good_bind; [now apply Good_choice_tokens|]. intros vs Hvs.
    eapply (Good_bind _ _ (Forall variant_ok)); [destruct adds as [l|]; [apply Good_choice_tokens; auto|apply Good_ret; constructor]|]. intros ws Hws.
    eapply Good_bind; [apply (Good_lift _ (fun _ => True)); auto|]. intros ub _. apply Good_ret. unfold words_of. cbn [item_names]. apply variants_words, Forall_app. now split.
  - rewrite generate_seq. eapply Good_bind; [now apply Good_seq_tokens|]. intros p Hp. apply Good_ret. unfold words_of. cbn [item_names]. now apply fields_words.
  - cbn [generate_for_type]. eapply Good_bind; [apply (Good_lift _ (fun _ => True)); auto|]. intros a _.
    eapply Good_bind; [apply Good_maybe; [exact IHt|exact Hsp|]|].
    + intros n Hx. injection Hx as <-. apply loose_app; [exact Hn|]. cbn [chars].
      repeat first [apply Forall_nil | apply Forall_cons; [first [left; reflexivity|right; right; right; reflexivity]|]].
    + intros ty Hty. apply Good_ret. constructor; [exact Hty|constructor].
  - cbn [generate_for_type]. apply Good_ret. constructor; [exact (HT _ (P_loose _ Hsp))|constructor].
  - rewrite generate_set. eapply Good_bind; [apply Good_set_tokens; [assumption|exact (proj2 Hsp)]|]. intros vs Hvs. apply Good_ret. unfold words_of. cbn [item_names]. now apply variants_words.
Qed.
Lemma items_fine defs : Forall (fun kt => P (fst kt) /\ spelled (snd kt)) defs -> Good (generate_items E defs) (Forall item_ok).
Proof.
  induction defs as [|[k t] defs IH]; intros H; cbn [generate_items]; [apply Good_ret; constructor|]. inversion_clear H as [|? ? [Hk Ht] Hd]. cbn [fst snd] in *.
  apply P_loose in Hk. eapply Good_bind; [exact (generate_fine t Ht k Hk)|]. intros d Hw. eapply Good_bind; [now apply IH|]. intros items Hi. apply Good_ret.
  constructor; [|exact Hi]. split; [exact (HT k Hk)|exact Hw].
Qed.
Lemma program_words defs prog : Forall (fun kt => P (fst kt) /\ spelled (snd kt)) defs -> generate E defs = Ok prog ->
  forall n d, In (n, d) prog -> Q n /\ Forall Q (item_names d).
Proof.
  intros Hd Hg n d Hin. unfold generate in Hg. destruct (generate_items E defs new_generator) as [[items s']| | |] eqn:Hi; try discriminate.
  cbn [rbind fst snd] in Hg. injection Hg as <-. destruct (items_fine defs Hd new_generator items s' (Forall_nil _) Hi) as [H1 H2].
  assert (H : Forall item_ok (items ++ aux_items s')) by (apply Forall_app; now split). rewrite Forall_forall in H. exact (H _ Hin).
Qed.
End Legal.
End Programs.

(* keywords *)
Lemma keyword_no_capital k : In k rust_keywords -> k = "Self"%string \/ exists c r, k = String c r /\ is_lower c = true /\ bare k = k.
Proof.
  intros H. cbn [In rust_keywords] in H. repeat (destruct H as [<-|H]; [first [left; reflexivity|right; do 2 eexists; split; [reflexivity|split; vm_compute; reflexivity]]|]). destruct H.
Qed.
Lemma constant_no_keyword s : asn_name s -> ~ In (to_const_ident s) rust_keywords.
Proof.
  intros H Hin. destruct (const_word s (asn_loose s H)) as [_ Hl]. destruct (keyword_no_capital _ Hin) as [Hk|(c & r & Hk & Hc & _)]; rewrite Hk in Hl; cbn [chars] in Hl.
  - inversion_clear Hl as [|? ? _ Hl']. inversion_clear Hl' as [|? ? Hx _]. discriminate Hx.
  - inversion_clear Hl as [|? ? Hx _]. congruence.
Qed.
Lemma type_no_keyword s : asn_name s -> s <> "Self"%string -> s <> "self"%string -> ~ In (to_type_ident s) rust_keywords.
Proof.
  intros H H1 H2 Hin. destruct (type_word s (asn_loose s H)) as (_ & c & r & He & Hc). destruct (keyword_no_capital _ Hin) as [Hk|(c' & r' & Hk & Hc' & _)].
  - assert (Hs : type_reference "Self" /\ identifier "self") by (split; (split; [reflexivity|]); cbn [chars]; repeat first [apply Forall_nil|apply Forall_cons; [left; reflexivity|]]).
    destruct H as [H|H].
    + apply H2. apply identifier_names_distinct; [exact H|exact (proj2 Hs)|]. rewrite Hk. reflexivity.
    + apply H1. apply type_names_distinct; [exact H|exact (proj1 Hs)|]. rewrite Hk. reflexivity.
  - rewrite He in Hk. injection Hk as <- <-. revert Hc Hc'. destruct c as [[] [] [] [] [] [] [] []]; vm_compute; congruence.
Qed.
Lemma field_no_keyword s : asn_name s -> bare s = "type"%string \/ ~ In (bare s) rust_keywords -> ~ In (to_value_ident s) rust_keywords.
Proof.
  intros H Hb Hin. destruct (value_word s (asn_loose s H)) as [_ Hl]. destruct (keyword_no_capital _ Hin) as [Hk|(c & r & Hk & Hc & Hbk)].
  - rewrite Hk in Hl. cbn [chars] in Hl. inversion_clear Hl as [|? ? Hx _]. discriminate Hx.
  - unfold to_value_ident in Hin, Hbk. destruct (String.eqb_spec (to_snake_case (capitalize_first s)) "type") as [Ht|Ht].
    + revert Hin. vm_compute. intuition discriminate.
    + rewrite bare_snake, bare_capital in Hbk. destruct Hb as [Hb|Hb]; [congruence|]. apply Hb. rewrite Hbk. exact Hin.
Qed.
Lemma keyword_case : to_const_ident "match" = "MATCH"%string /\ to_type_ident "match" = "Match"%string /\ to_value_ident "type" = "typ"%string /\ to_value_ident "matched" = "matched"%string /\
  In "match"%string rust_keywords /\ In (to_value_ident "match") rust_keywords.
Proof. repeat split; vm_compute; auto 20. Qed.
