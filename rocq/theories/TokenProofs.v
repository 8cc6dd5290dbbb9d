(* The tokenizer against TokenSpec.v. *)
From Coq Require Import ZArith NArith List Bool String Lia Sorted.
From Coq Require Import ZifyBool ZifyNat ZifyN.
Require Import Verif.Base Verif.Asn1Model Verif.TokenModel Verif.TokenSpec.
Import ListNotations.
Open Scope Z_scope.

(* ------------------------------------------------------------------ *)
(* Characters and scanning                                             *)
(* ------------------------------------------------------------------ *)
Lemma is_alnum_spec c : is_alnum c = true <-> letter c \/ digit c.
Proof. unfold is_alnum, is_lower, is_upper, is_digit, letter, digit. lia. Qed.
Lemma word_spec c : is_alnum c || (c =? 45) = true <-> word c.
Proof. unfold word, hyphen. rewrite orb_true_iff, is_alnum_spec, Z.eqb_eq. tauto. Qed.
Lemma at_spec c : is_alnum c || (c =? 45) || (c =? 46) = true <-> word c \/ c = 46.
Proof. rewrite orb_true_iff, word_spec, Z.eqb_eq. tauto. Qed.
Lemma span_split p l : exists w rest, l = w ++ rest /\ List.length w = span_len p l /\ firstn (span_len p l) l = w /\
  skipn (span_len p l) l = rest /\ Forall (fun c => p c = true) w /\ ~ begins (fun c => p c = true) rest.
Proof.
  induction l as [|c l (w & rest & -> & H1 & H2 & H3 & H4 & H5)].
  - exists [], []. cbn. repeat split; auto.
  - cbn [span_len]. destruct (p c) eqn:Hc.
    + exists (c :: w), rest. cbn [app List.length firstn skipn]. repeat split; try congruence; auto.
    + exists [], (c :: w ++ rest). cbn. repeat split; auto. congruence.
Qed.
Lemma span_app p w rest : Forall (fun c => p c = true) w -> ~ begins (fun c => p c = true) rest -> span_len p (w ++ rest) = List.length w.
Proof.
  induction 1 as [|c w Hc Hw IH]; intros Hr; cbn [app span_len List.length].
  - destruct rest as [|c r]; [reflexivity|]. cbn in *. destruct (p c); [contradiction|reflexivity].
  - rewrite Hc. now rewrite IH.
Qed.
Lemma firstn_app_l {A} (w rest : list A) : firstn (List.length w) (w ++ rest) = w.
Proof. rewrite firstn_app, firstn_all, Nat.sub_diag. apply app_nil_r. Qed.
Lemma skipn_app_l {A} (w rest : list A) : skipn (List.length w) (w ++ rest) = rest.
Proof. rewrite skipn_app, skipn_all, Nat.sub_diag. reflexivity. Qed.

Lemma double_dash l : has_double_dash l = true <-> contains [hyphen; hyphen] l.
Proof.
  induction l as [|a [|b l] IH].
  - split; [discriminate|]. intros (x & y & H). destruct x; discriminate.
  - split; [discriminate|]. intros (x & y & H). destruct x as [|? [|]]; discriminate.
  - change (has_double_dash (a :: b :: l)) with (((a =? 45) && (b =? 45)) || has_double_dash (b :: l)). rewrite orb_true_iff, IH. split.
    + intros [H|(x & y & H)].
      * exists [], l. unfold hyphen. cbn. f_equal; [lia|f_equal; lia].
      * exists (a :: x), y. rewrite H. reflexivity.
    + intros ([|a' x] & y & H).
      * left. injection H as -> -> _. reflexivity.
      * right. injection H as -> H. now exists x, y.
Qed.
Lemma double_dash_false l : has_double_dash l = false <-> ~ contains [hyphen; hyphen] l.
Proof. rewrite <- double_dash. apply not_true_iff_false || (symmetry; apply not_true_iff_false). Qed.
Lemma nth_last {A} (u : list A) c rest : nth_error (u ++ [c] ++ rest) (List.length u) = Some c.
Proof. induction u; [reflexivity|exact IHu]. Qed.

(* ------------------------------------------------------------------ *)
(* String literals and comments                                        *)
(* ------------------------------------------------------------------ *)
Lemma pairs_ind (P : list Z -> Prop) : P [] -> (forall c, P [c]) -> (forall c d l, P (d :: l) -> P l -> P (c :: d :: l)) -> forall l, P l.
Proof.
  intros H0 H1 H2 l. assert (P l /\ forall c, P (c :: l)) as [H _]; [|exact H].
  induction l as [|c l [IH1 IH2]]; [split; auto|]. split; [apply IH2|]. intros d. apply H2; [apply IH2|exact IH1].
Qed.
Lemma string_end_sound l : forall i k, string_end i l = Some k ->
  exists b rest, l = b ++ 34 :: rest /\ quoted b /\ ~ begins (is 34) rest /\ k = (i + List.length b)%nat.
Proof.
  induction l as [|c|c d l IH1 IH2] using pairs_ind; intros i k H.
  - discriminate.
  - cbn in H. destruct (c =? 34) eqn:Hc; [|discriminate]. apply Z.eqb_eq in Hc. subst c. injection H as <-.
    exists [], []. cbn. repeat split; [constructor|auto|lia].
  - change (string_end i (c :: d :: l)) with (if c =? 34 then if d =? 34 then string_end (i + 2) l else Some i else string_end (i + 1) (d :: l)) in H.
    destruct (c =? 34) eqn:Hc.
    + apply Z.eqb_eq in Hc. subst c. destruct (d =? 34) eqn:Hd.
      * apply Z.eqb_eq in Hd. subst d. destruct (IH2 _ _ H) as (b & rest & -> & Hq & Hr & ->).
        exists (34 :: 34 :: b), rest. cbn [app List.length]. repeat split; [now constructor|exact Hr|lia].
      * injection H as <-. exists [], (d :: l). cbn. repeat split; [constructor|unfold is; lia|lia].
    + destruct (IH1 _ _ H) as (b & rest & Heq & Hq & Hr & ->). exists (c :: b), rest. cbn [app List.length].
      repeat split; [now rewrite Heq|constructor; [lia|exact Hq]|exact Hr|lia].
Qed.
Lemma string_end_complete b rest : quoted b -> ~ begins (is 34) rest -> forall i, string_end i (b ++ 34 :: rest) = Some (i + List.length b)%nat.
Proof.
  intros Hq Hr. induction Hq as [|c l Hc Hq IH|l Hq IH]; intros i.
  - cbn [app List.length]. destruct rest as [|d r]; cbn; [f_equal; lia|]. replace (d =? 34) with false; [f_equal; lia|].
    cbn in Hr. unfold is in Hr. lia.
  - cbn [app List.length]. assert (Hne : exists d r, l ++ 34 :: rest = d :: r) by (destruct l; cbn; eauto).
    destruct Hne as (d & r & Hd). rewrite Hd in *.
    change (string_end i (c :: d :: r)) with (if c =? 34 then if d =? 34 then string_end (i + 2) r else Some i else string_end (i + 1) (d :: r)).
    replace (c =? 34) with false by lia. rewrite IH. f_equal. lia.
  - cbn [app List.length]. change (string_end i (34 :: 34 :: l ++ 34 :: rest)) with (string_end (i + 2) (l ++ 34 :: rest)). rewrite IH. f_equal. lia.
Qed.

Lemma comment_text_cons c b : comment_text b -> c <> 10 -> (c = 45 -> ~ begins (is 45) b) -> comment_text (c :: b).
Proof.
  intros [H1 H2] Hc Hd. split; [intros [H|H]; [lia|now apply H1]|]. intros ([|x a] & y & H).
  - injection H as -> Hb. apply (Hd eq_refl). rewrite Hb. reflexivity.
  - injection H as -> H. apply H2. now exists a, y.
Qed.
Lemma comment_text_tail c b : comment_text (c :: b) -> comment_text b.
Proof. intros [H1 H2]. split; [intros H; apply H1; now right|]. intros (x & y & H). apply H2. exists (c :: x), y. now rewrite H. Qed.
Lemma comment_text_app a b : comment_text (a ++ b) -> comment_text a.
Proof. intros [H1 H2]. split; [intros H; apply H1, in_app_iff; now left|]. intros (x & y & H). apply H2. exists x, (y ++ b). rewrite H. now rewrite <- !app_assoc. Qed.
Lemma comment_text_nil : comment_text [].
Proof. split; [intros []|]. intros (x & y & H). destruct x; discriminate. Qed.
Lemma comment_dash : comment_text [hyphen].
Proof. split; [unfold hyphen; intros [H|[]]; lia|]. intros (x & y & H). destruct x as [|? [|]]; discriminate. Qed.
Lemma comment_end_cons i a b l : comment_end i (a :: b :: l) =
  if a =? 10 then Some (2 + i)%nat else if (a =? 45) && (b =? 45) then Some (2 + i + 2)%nat else comment_end (S i) (b :: l).
Proof. reflexivity. Qed.
Lemma comment_end_sound l : forall i,
  match comment_end i l with
  | Some n => (exists b rest, l = b ++ [hyphen; hyphen] ++ rest /\ comment_text (b ++ [hyphen]) /\ n = (2 + i + List.length b + 2)%nat) \/
              (exists b rest, l = b ++ rest /\ begins (is 10) rest /\ rest <> [10] /\ comment_text b /\ n = (2 + i + List.length b)%nat)
  | None => comment_text l \/ exists b, l = b ++ [10] /\ comment_text b
  end.
Proof.
  induction l as [|a [|b l] IH]; intros i.
  - left. apply comment_text_nil.
  - cbn. destruct (Z.eq_dec a 10) as [->|Ha]; [right; exists []; split; [reflexivity|apply comment_text_nil]|left].
    apply comment_text_cons; [apply comment_text_nil|exact Ha|intros _ []].
  - rewrite comment_end_cons. destruct (a =? 10) eqn:Ha.
    + right. exists [], (a :: b :: l). cbn. repeat split; [unfold is; lia|discriminate|apply comment_text_nil|apply comment_text_nil|lia].
    + destruct ((a =? 45) && (b =? 45)) eqn:Hd.
      * left. exists [], l. unfold hyphen. cbn. repeat split; [f_equal; [lia|f_equal; lia]|apply comment_dash|apply comment_dash|lia].
      * specialize (IH (S i)). destruct (comment_end (S i) (b :: l)) as [n|].
        -- destruct IH as [(u & rest & Hl & Ht & ->)|(u & rest & Hl & Hr & Hr' & Ht & ->)].
           ++ left. exists (a :: u), rest. cbn [app List.length]. split; [now rewrite Hl|]. split; [|lia].
              apply comment_text_cons; [exact Ht|lia|]. intros -> Hb. destruct u as [|u0 u].
              ** injection Hl as -> _. cbn in Hd. discriminate.
              ** injection Hl as -> _. cbn in Hb. unfold is in Hb. subst u0. discriminate.
           ++ right. exists (a :: u), rest. cbn [app List.length]. split; [now rewrite Hl|]. split; [exact Hr|]. split; [exact Hr'|]. split; [|lia].
              apply comment_text_cons; [exact Ht|lia|]. intros -> Hb. destruct u as [|u0 u]; [destruct Hb|].
              injection Hl as -> _. cbn in Hb. unfold is in Hb. subst u0. discriminate.
        -- destruct IH as [Ht|(u & Hl & Ht)].
           ++ left. apply comment_text_cons; [exact Ht|lia|]. intros -> Hb. cbn in Hb. unfold is in Hb. subst b. discriminate.
           ++ right. exists (a :: u). cbn [app]. split; [now rewrite Hl|]. apply comment_text_cons; [exact Ht|lia|].
              intros -> Hb. destruct u as [|u0 u]; [destruct Hb|]. injection Hl as -> _. cbn in Hb. unfold is in Hb. subst u0. discriminate.
Qed.
Lemma no_dashes a b l : comment_text (a :: b :: l) -> (a =? 10) = false /\ ((a =? 45) && (b =? 45)) = false.
Proof.
  intros [H1 H2]. split; [apply Z.eqb_neq; intros ->; apply H1; now left|].
  destruct ((a =? 45) && (b =? 45)) eqn:H; [|reflexivity]. exfalso. apply H2. exists [], l. unfold hyphen. cbn. f_equal; [lia|f_equal; lia].
Qed.
Lemma comment_end_closed b rest : comment_text (b ++ [hyphen]) -> forall i, comment_end i (b ++ [hyphen; hyphen] ++ rest) = Some (2 + i + List.length b + 2)%nat.
Proof.
  induction b as [|a [|a' b] IH]; intros Ht i.
  - cbn. f_equal. lia.
  - cbn [app] in *. rewrite comment_end_cons. destruct (no_dashes _ _ _ Ht) as [-> ->].
    change (hyphen :: hyphen :: rest) with ([] ++ [hyphen; hyphen] ++ rest). rewrite IH by (apply comment_text_tail in Ht; exact Ht). cbn. f_equal. lia.
  - cbn [app] in *. rewrite comment_end_cons. destruct (no_dashes _ _ _ Ht) as [-> ->].
    apply comment_text_tail in Ht. rewrite (IH Ht). cbn. f_equal. lia.
Qed.
Lemma comment_end_line b rest : comment_text b -> begins (is 10) rest -> rest <> [10] -> forall i, comment_end i (b ++ rest) = Some (2 + i + List.length b)%nat.
Proof.
  intros Ht Hr Hr'. destruct rest as [|r0 [|r1 rest]]; [destruct Hr|cbn in Hr; unfold is in Hr; congruence|]. cbn in Hr. unfold is in Hr. subst r0. clear Hr'.
  induction b as [|a [|a' b] IH]; intros i.
  - cbn. f_equal. lia.
  - cbn [app] in *. rewrite comment_end_cons. destruct Ht as [H1 _].
    replace (a =? 10) with false by (symmetry; apply Z.eqb_neq; intros ->; apply H1; now left). replace ((a =? 45) && (10 =? 45)) with false by lia.
    change (10 :: r1 :: rest) with ([] ++ 10 :: r1 :: rest). rewrite (IH comment_text_nil). cbn. f_equal. lia.
  - cbn [app] in *. rewrite comment_end_cons. destruct (no_dashes _ _ _ Ht) as [-> ->]. apply comment_text_tail in Ht. rewrite (IH Ht). cbn. f_equal. lia.
Qed.
Lemma comment_end_none b : comment_text b -> forall i, comment_end i b = None.
Proof.
  induction b as [|a [|a' b] IH]; intros Ht i; try reflexivity. rewrite comment_end_cons. destruct (no_dashes _ _ _ Ht) as [-> ->].
  apply comment_text_tail in Ht. now apply IH.
Qed.
Lemma comment_end_none_line b : comment_text b -> forall i, comment_end i (b ++ [10]) = None.
Proof.
  induction b as [|a [|a' b] IH]; intros Ht i; try reflexivity.
  - cbn [app]. rewrite comment_end_cons. destruct Ht as [H1 _].
    replace (a =? 10) with false by (symmetry; apply Z.eqb_neq; intros ->; apply H1; now left). replace ((a =? 45) && (10 =? 45)) with false by lia. reflexivity.
  - cbn [app] in *. rewrite comment_end_cons. destruct (no_dashes _ _ _ Ht) as [-> ->]. apply comment_text_tail in Ht. now apply IH.
Qed.

(* ------------------------------------------------------------------ *)
(* Lines                                                               *)
(* ------------------------------------------------------------------ *)
Lemma newlines_app a b : newlines (a ++ b) = newlines a + newlines b.
Proof. unfold newlines, zlen. rewrite filter_app, app_length. lia. Qed.
Lemma newlines_cons c l : newlines (c :: l) = (if c =? 10 then 1 else 0) + newlines l.
Proof. unfold newlines, zlen. cbn [filter]. destruct (c =? 10); cbn [List.length]; lia. Qed.
Lemma newlines_pos l : 0 <= newlines l.
Proof. unfold newlines, zlen. lia. Qed.
Lemma newlines_none l : newlines l = 0 <-> ~ In 10 l.
Proof.
  induction l as [|c l IH]; [split; [intros _ []|reflexivity]|]. rewrite newlines_cons. pose proof (newlines_pos l). cbn [In].
  destruct (c =? 10) eqn:Hc; split; intros H'.
  - lia.
  - exfalso. apply H'. left. lia.
  - intros [->|Hin]; [discriminate|]. apply IH in Hin; [exact Hin|lia].
  - assert (~ In 10 l) by tauto. apply IH in H0. lia.
Qed.
Lemma split_lines_length l c : c <> 10 -> forall cur, zlen (split_lines cur (l ++ [c])) = 1 + newlines l.
Proof.
  intros Hc. induction l as [|x l IH]; intros cur; cbn [app split_lines].
  - replace (c =? 10) with false by lia. destruct (cur ++ [c]) eqn:H; [destruct cur; discriminate|]. reflexivity.
  - rewrite newlines_cons. destruct (x =? 10).
    + change (zlen (strip_cr cur :: split_lines [] (l ++ [c]))) with (Z.of_nat (S (List.length (split_lines [] (l ++ [c]))))).
      specialize (IH []). unfold zlen in IH. lia.
    + rewrite IH. lia.
Qed.
Lemma lines_of_spec u c begin n : c <> 10 -> exists col, lines_of (u ++ [c]) begin n = Ok (newlines (u ++ [c]), col) /\
  (newlines (u ++ [c]) = 0 -> col = begin + Z.of_nat n).
Proof.
  intros Hc. unfold lines_of. pose proof (split_lines_length u c Hc []) as Hl. fold (lines (u ++ [c])) in Hl.
  rewrite newlines_app, newlines_cons. replace (c =? 10) with false by lia. change (newlines []) with 0. replace (newlines u + (0 + 0)) with (newlines u) by lia.
  destruct (rev (lines (u ++ [c]))) as [|last before] eqn:Hr.
  - apply (f_equal (@List.length _)) in Hr. rewrite rev_length in Hr. unfold zlen in Hl. pose proof (newlines_pos u). cbn in Hr. lia.
  - assert (Hz : zlen before = newlines u).
    { apply (f_equal (@List.length _)) in Hr. rewrite rev_length in Hr. unfold zlen in *. cbn [List.length] in Hr. lia. }
    rewrite Hz. eexists. split; [reflexivity|]. intros H0. rewrite H0. reflexivity.
Qed.

Section Proofs.
Context (is_numeric : Z -> bool) (Hnum : forall c, digit c -> is_numeric c = true).
Notation numeric := (fun c => is_numeric c = true).
Notation lex := (lexeme numeric).

(* ------------------------------------------------------------------ *)
(* One token                                                           *)
(* ------------------------------------------------------------------ *)
Definition step_ok (chars : list Z) (line col : Z) (r : option token * nat * Z * Z) : Prop :=
  match r with (tok, n, line', col') =>
    exists w rest, chars = w ++ rest /\ w <> [] /\ List.length w = n /\
    match tok with
    | None => exists c, w = [c] /\ blank c /\ line' = line + newlines w /\ (c <> 0xFEFF -> col' = column col w) /\
                        (newlines w = 0 -> col <= col')
    | Some t => lex (tk_type t) w rest /\ tk_text t = text_of (tk_type t) w /\ tk_line t = line /\ tk_column t = col /\
                (rest <> [] -> line' = line + newlines w) /\ (newlines w = 0 -> col' = col + zlen w) /\
                (rest <> [] -> tk_end_line t = tk_line t + newlines w)
    end end.
(* a token of one line *)
Lemma plain_step chars line col t n w rest : chars = w ++ rest -> w <> [] -> List.length w = n ->
  lex (tk_type t) w rest -> tk_text t = text_of (tk_type t) w -> tk_line t = line -> tk_column t = col -> tk_end_line t = line ->
  (rest <> [] -> newlines w = 0) ->
  step_ok chars line col (Some t, n, line, col + Z.of_nat n).
Proof.
  intros -> Hw Hn Hl Ht H1 H2 H3 H0. exists w, rest. repeat split; try assumption.
  - intros Hr. rewrite (H0 Hr). lia.
  - unfold zlen. lia.
  - intros Hr. rewrite (H0 Hr). lia.
Qed.
Lemma literal_step chars line col t n w rest c : chars = w ++ rest -> w <> [] -> List.length w = n ->
  lex (tk_type t) w rest -> tk_text t = text_of (tk_type t) w -> tk_line t = line -> tk_column t = col -> tk_end_line t = line + newlines w ->
  step_ok chars line col (Some t, n, line + newlines w, if 0 <? newlines w then c else col + Z.of_nat n).
Proof.
  intros -> Hw Hn Hl Ht H1 H2 H3. exists w, rest. repeat split; try assumption.
  - intros ->. cbn. unfold zlen. lia.
  - intros _. lia.
Qed.
Lemma no_newline (p : Z -> Prop) w : Forall p w -> ~ p 10 -> newlines w = 0.
Proof. intros Hf Hp. apply newlines_none. intros Hin. rewrite Forall_forall in Hf. now apply Hp, Hf. Qed.
Lemma text_same ty w : ty <> TString -> ty <> BitString -> ty <> HexString -> text_of ty w = w.
Proof. destruct ty; try congruence; reflexivity. Qed.

Lemma word_step c l line col t n : (c = 38 \/ letter c) -> get_identifier_or_keyword_token (c :: l) line col = Ok (t, n) ->
  step_ok (c :: l) line col (Some t, n, line, col + Z.of_nat n).
Proof.
  intros Hc H. unfold get_identifier_or_keyword_token in H.
  set (wp := fun c => is_alnum c || (c =? 45)) in H.
  assert (Hbeg : forall r, ~ begins (fun c => wp c = true) r -> ~ begins word r) by (intros [|x r] Hr Hb; [exact Hb|]; apply Hr, word_spec, Hb).
  assert (Hfor : forall w, Forall (fun c => wp c = true) w -> Forall word w) by (intros w; apply Forall_impl; intros a; apply word_spec).
  assert (Hw10 : ~ word 10) by (unfold word, letter, digit, hyphen; lia).
  destruct (c =? 38) eqn:Ha.
  - apply Z.eqb_eq in Ha. subst c. destruct (zlen (38 :: l) =? 1) eqn:Hone; [discriminate|]. cbn [andb] in H.
    destruct (span_split wp l) as (w & rest & -> & H1 & H2 & H3 & H4 & H5). rewrite <- H1 in *.
    cbn [firstn] in H. rewrite firstn_app_l in H.
    destruct (nth_error (38 :: w ++ rest) (List.length w)) as [c'|] eqn:Hn; [|discriminate].
    destruct (c' =? 45) eqn:H45; [discriminate|]. destruct (Nat.eqb (S (List.length w)) 1) eqn:Hz; [discriminate|].
    destruct (has_double_dash (38 :: w)) eqn:Hdd; [discriminate|]. injection H as <- <-.
    assert (Hne : w <> []) by (intros ->; discriminate).
    apply (plain_step _ _ _ _ _ (38 :: w) rest); try reflexivity; [discriminate| |].
    + cbn [tk_type token_at]. apply L_and; [exact Hne|now apply Hfor| | |now apply Hbeg].
      * intros (u & c2 & Hu & <-). subst w. rewrite app_length in Hn. cbn [List.length] in Hn.
        rewrite Nat.add_1_r in Hn. cbn [nth_error] in Hn. rewrite <- app_assoc, nth_last in Hn. injection Hn as <-. discriminate.
      * apply double_dash_false in Hdd. intros (x & y & Hxy). apply Hdd. exists (38 :: x), y. now rewrite Hxy.
    + intros _. rewrite newlines_cons. rewrite (no_newline word); [reflexivity|now apply Hfor|exact Hw10].
  - destruct Hc as [->|Hlet]; [discriminate|]. cbn [andb] in H.
    destruct (span_split wp (c :: l)) as (w & rest & Heq & H1 & H2 & H3 & H4 & H5). rewrite <- H1 in *. rewrite Heq in *.
    destruct (List.length w) as [|k] eqn:Hk; [discriminate|]. rewrite <- Hk in *. rewrite firstn_app_l in H.
    destruct (nth_error (w ++ rest) k) as [c'|] eqn:Hn; [|discriminate].
    destruct (c' =? 45) eqn:H45; [discriminate|].
    destruct (has_double_dash w) eqn:Hdd; [discriminate|]. injection H as <- <-.
    assert (Hne : w <> []) by (intros ->; discriminate).
    apply (plain_step _ _ _ _ _ w rest); try reflexivity; [exact Hne| | |].
    + cbn [tk_type token_at]. apply L_word; [|now apply Hfor| |now apply double_dash_false|now apply Hbeg].
      * destruct w as [|w0 w]; [discriminate|]. injection Heq as <- _. exact Hlet.
      * intros (u & c2 & Hu & <-). subst w. rewrite app_length in Hk. cbn [List.length] in Hk. assert (k = List.length u) by lia. subst k.
        rewrite <- app_assoc, nth_last in Hn. injection Hn as <-. discriminate.
    + symmetry. apply text_same; cbn [tk_type token_at]; match goal with |- context [if ?b then Keyword else Identifier] => destruct b end; discriminate.
    + intros _. apply (no_newline word); [now apply Hfor|exact Hw10].
Qed.
(* a line break is not numeric: otherwise line numbers would be wrong *)
Context (Hnl : is_numeric 10 = false).
Lemma number_step c l line col t n : digit c -> get_number_token is_numeric (c :: l) line col = Ok (t, n) ->
  step_ok (c :: l) line col (Some t, n, line, col + Z.of_nat n).
Proof.
  intros Hc H. unfold get_number_token in H. replace (c =? 45) with false in H by (unfold digit in Hc; lia). cbn [andb] in H.
  destruct (span_split is_numeric (c :: l)) as (w & rest & Heq & H1 & H2 & H3 & H4 & H5). rewrite H2 in H. rewrite <- H1 in H. injection H as <- <-.
  rewrite Heq. assert (Hne : begins digit w).
  { destruct w as [|w0 w]; [|injection Heq as <- _; exact Hc]. cbn in Heq. subst rest. exfalso. apply H5. cbn. now apply Hnum. }
  apply (plain_step _ _ _ _ _ w rest); try reflexivity.
  - intros ->. destruct Hne.
  - cbn [tk_type token_at]. now apply L_number.
  - intros _. apply (no_newline numeric); [exact H4|congruence].
Qed.
Lemma dash_step l line col : match one_token is_numeric (45 :: l) line col with
  | Ok r => step_ok (45 :: l) line col r | _ => True end.
Proof.
  unfold one_token. cbn [Z.eqb Pos.eqb orb]. unfold get_maybe_comment_token. destruct l as [|b l]; [exact I|].
  destruct (b =? 45) eqn:Hb; cbn [negb].
  - apply Z.eqb_eq in Hb. subst b. cbn [rbind].
    pose proof (comment_end_sound l 0%nat) as Hs. destruct (comment_end 0 l) as [n|].
    + destruct Hs as [(b & rest & -> & Ht & ->)|(b & rest & -> & Hr & Hr' & Ht & ->)].
      * set (w := [hyphen; hyphen] ++ b ++ [hyphen; hyphen]).
        assert (Hlen : (2 + 0 + List.length b + 2)%nat = List.length w) by (unfold w; rewrite !app_length; cbn; lia).
        assert (Heq : 45 :: 45 :: b ++ [hyphen; hyphen] ++ rest = w ++ rest) by (unfold w; cbn; now rewrite <- app_assoc).
        rewrite Hlen. apply (plain_step _ _ _ _ _ w rest); try reflexivity; [exact Heq|discriminate| | |].
        -- cbn. now apply L_comment_closed.
        -- cbn [tk_text tk_type text_of]. rewrite Heq. apply firstn_app_l.
        -- intros _. unfold w. rewrite !newlines_app. apply comment_text_app in Ht. destruct Ht as [Ht _]. apply newlines_none in Ht. rewrite Ht. reflexivity.
      * set (w := [hyphen; hyphen] ++ b).
        assert (Hlen : (2 + 0 + List.length b)%nat = List.length w) by reflexivity.
        rewrite Hlen. apply (plain_step _ _ _ _ _ w rest); try reflexivity; [discriminate| | |].
        -- cbn. now apply L_comment_line.
        -- cbn [tk_text tk_type text_of]. change (45 :: 45 :: b ++ rest) with (w ++ rest). apply firstn_app_l.
        -- intros _. unfold w. rewrite newlines_app. destruct Ht as [Ht _]. apply newlines_none in Ht. rewrite Ht. reflexivity.
    + apply (plain_step _ _ _ _ _ (45 :: 45 :: l) []); try reflexivity; [now rewrite app_nil_r|discriminate| | |].
      * cbn [tk_type]. destruct Hs as [Ht|(b & -> & Ht)]; [now apply (L_comment_end _ l)|now apply (L_comment_end_line _ b)].
      * cbn [tk_text tk_type text_of]. apply firstn_all.
      * congruence.
  - cbn [rbind]. destruct (get_number_token is_numeric (45 :: b :: l) line col) as [[t n]| | |] eqn:Hg; try exact I. cbn [rbind fst snd].
    unfold get_number_token in Hg. cbn [Z.eqb Pos.eqb] in Hg. cbn [andb] in Hg. destruct (zlen (45 :: b :: l) =? 1) eqn:Hz; [discriminate|].
    destruct (span_split is_numeric (b :: l)) as (w & rest & Heq & H1 & H2 & H3 & H4 & H5). cbn [firstn] in Hg. rewrite H2 in Hg. rewrite <- H1 in Hg. injection Hg as <- <-.
    rewrite Heq. apply (plain_step _ _ _ _ _ (45 :: w) rest); try reflexivity; [discriminate| |].
    + cbn [tk_type token_at]. apply L_negative; [exact H4| |rewrite <- Heq; discriminate|exact H5]. rewrite <- Heq. cbn. unfold is, hyphen. lia.
    + intros _. rewrite newlines_cons. rewrite (no_newline numeric); [reflexivity|exact H4|congruence].
Qed.
Lemma at_step l line col t n : get_at_component_id_list (64 :: l) line col = Ok (t, n) ->
  step_ok (64 :: l) line col (Some t, n, line, col + Z.of_nat n).
Proof.
  intros H. unfold get_at_component_id_list in H. destruct l as [|b l]; [discriminate|].
  set (wp := fun c => is_alnum c || (c =? 45) || (c =? 46)) in H.
  destruct (span_split wp (b :: l)) as (w & rest & Heq & H1 & H2 & H3 & H4 & H5). cbn [firstn] in H. rewrite H2 in H. rewrite <- H1 in H.
  replace (S (List.length w) - 1)%nat with (List.length w) in H by lia. rewrite Heq in *.
  destruct (nth_error (64 :: w ++ rest) (List.length w)) as [c'|] eqn:Hn; [|discriminate].
  destruct ((c' =? 46) || (c' =? 45)) eqn:Hd; [discriminate|]. injection H as <- <-.
  assert (Hfor : Forall (fun c => word c \/ c = 46) w) by (eapply Forall_impl; [|exact H4]; intros a; apply at_spec).
  apply (plain_step _ _ _ _ _ (64 :: w) rest); try reflexivity; [discriminate| |].
  - cbn [tk_type token_at]. apply L_at; [exact Hfor| |rewrite <- Heq; discriminate|].
    + intros (u & c2 & -> & Hc2). rewrite app_length in Hn. cbn [List.length] in Hn. rewrite Nat.add_1_r in Hn. cbn [nth_error] in Hn.
      rewrite <- app_assoc, nth_last in Hn. injection Hn as <-. unfold hyphen in Hc2. lia.
    + destruct rest as [|x r]; [auto|]. intros Hb. apply H5. now apply at_spec.
  - intros _. rewrite newlines_cons. rewrite (no_newline (fun c => word c \/ c = 46)); [reflexivity|exact Hfor|unfold word, letter, digit, hyphen; lia].
Qed.
Lemma dots_step l line col t n : get_range_or_extension_token (46 :: l) line col = Ok (t, n) ->
  step_ok (46 :: l) line col (Some t, n, line, col + Z.of_nat n).
Proof.
  intros H. unfold get_range_or_extension_token in H.
  destruct l as [|b [|c l]]; [|destruct (b =? 46) eqn:Hb|destruct (b =? 46) eqn:Hb; [destruct (c =? 46) eqn:Hc|]]; injection H as <- <-;
    repeat match goal with H : (_ =? _) = true |- _ => apply Z.eqb_eq in H; subst end; cbn [firstn].
  - apply (plain_step _ _ _ _ _ [46] []); try reflexivity; [discriminate|]. constructor. auto.
  - apply (plain_step _ _ _ _ _ [46; 46] []); try reflexivity; [discriminate|]. constructor. auto.
  - apply (plain_step _ _ _ _ _ [46] [b]); try reflexivity; [discriminate|]. constructor. cbn. unfold is. lia.
  - apply (plain_step _ _ _ _ _ [46; 46; 46] l); try reflexivity; [discriminate|]. constructor.
  - apply (plain_step _ _ _ _ _ [46; 46] (c :: l)); try reflexivity; [discriminate|]. constructor. cbn. unfold is. lia.
  - apply (plain_step _ _ _ _ _ [46] (b :: c :: l)); try reflexivity; [discriminate|]. constructor. cbn. unfold is. lia.
Qed.
Lemma colon_step l line col t n : get_assignment_or_colon_token (58 :: l) line col = Ok (t, n) ->
  step_ok (58 :: l) line col (Some t, n, line, col + Z.of_nat n).
Proof.
  intros H. unfold get_assignment_or_colon_token in H.
  destruct l as [|b [|c l]]; [|destruct (b =? 58) eqn:Hb|destruct (b =? 58) eqn:Hb; [destruct (c =? 61) eqn:Hc|]]; try discriminate; injection H as <- <-;
    repeat match goal with H : (_ =? _) = true |- _ => apply Z.eqb_eq in H; subst end; cbn [firstn].
  - apply (plain_step _ _ _ _ _ [58] []); try reflexivity; [discriminate|]. constructor. auto.
  - apply (plain_step _ _ _ _ _ [58] [b]); try reflexivity; [discriminate|]. constructor. cbn. unfold is. lia.
  - apply (plain_step _ _ _ _ _ [58; 58; 61] l); try reflexivity; [discriminate|]. constructor.
  - apply (plain_step _ _ _ _ _ [58] (b :: c :: l)); try reflexivity; [discriminate|]. constructor. cbn. unfold is. lia.
Qed.
Lemma square_step a l line col t n : a = 91 \/ a = 93 -> get_seq_extension_or_square_brackets_token (a :: l) line col = Ok (t, n) ->
  step_ok (a :: l) line col (Some t, n, line, col + Z.of_nat n).
Proof.
  intros Ha H. unfold get_seq_extension_or_square_brackets_token in H. destruct l as [|b l]; [discriminate|].
  destruct Ha as [-> | ->]; cbn [Z.eqb Pos.eqb] in H.
  - destruct (b =? 91) eqn:Hb; injection H as <- <-.
    + apply Z.eqb_eq in Hb. subst b. apply (plain_step _ _ _ _ _ [91; 91] l); try reflexivity; [discriminate|]. constructor.
    + apply (plain_step _ _ _ _ _ [91] (b :: l)); try reflexivity; [discriminate|]. constructor; [discriminate|]. cbn. unfold is. lia.
  - destruct (b =? 93) eqn:Hb; injection H as <- <-.
    + apply Z.eqb_eq in Hb. subst b. apply (plain_step _ _ _ _ _ [93; 93] l); try reflexivity; [discriminate|]. constructor.
    + apply (plain_step _ _ _ _ _ [93] (b :: l)); try reflexivity; [discriminate|]. constructor; [discriminate|]. cbn. unfold is. lia.
Qed.
Lemma position_sound l : forall k, position (fun c => c =? 39) l = Some k -> exists b rest, l = b ++ 39 :: rest /\ ~ In 39 b /\ k = List.length b.
Proof.
  induction l as [|c l IH]; intros k H; [discriminate|]. cbn [position] in H. destruct (c =? 39) eqn:Hc.
  - injection H as <-. apply Z.eqb_eq in Hc. subst c. exists [], l. repeat split. auto.
  - destruct (position _ l) as [k'|]; [|discriminate]. injection H as <-. destruct (IH k' eq_refl) as (b & rest & -> & Hb & ->).
    exists (c :: b), rest. repeat split. intros [Hin|Hin]; [lia|contradiction].
Qed.
Lemma position_complete b rest : ~ In 39 b -> position (fun c => c =? 39) (b ++ 39 :: rest) = Some (List.length b).
Proof.
  induction b as [|c b IH]; intros H; [reflexivity|]. cbn [app position List.length].
  replace (c =? 39) with false by (symmetry; apply Z.eqb_neq; intros ->; apply H; now left). rewrite IH; [reflexivity|]. intros Hin. apply H. now right.
Qed.
Lemma bits_text (p : Z -> bool) (q : Z -> Prop) b : ~ In 39 b -> (forall c, c <> 39 -> (p c = true <-> q c)) -> p 39 = true ->
  (forallb p (filter (fun c => negb (is_whitespace c)) (39 :: b ++ [39])) = true <-> Forall (fun c => is_whitespace c = true \/ q c) b).
Proof.
  intros Hb Hpq H39. cbn [filter is_whitespace]. change (negb (is_whitespace 39)) with true. cbn [forallb]. rewrite H39. cbn [andb].
  induction b as [|c b IH].
  - cbn. rewrite H39. split; auto.
  - cbn [app filter]. assert (Hc : c <> 39) by (intros ->; apply Hb; now left). assert (Hb' : ~ In 39 b) by (intros H; apply Hb; now right).
    destruct (is_whitespace c) eqn:Hw; cbn [negb].
    + rewrite (IH Hb'). split; [intros H; constructor; auto|]. now inversion 1.
    + cbn [forallb]. rewrite andb_true_iff, (IH Hb'), (Hpq c Hc). split; [intros [H1 H2]; constructor; auto|].
      inversion_clear 1 as [|? ? [H1|H1] H2]; [congruence|auto].
Qed.
Lemma removelast_snoc {A} (l : list A) a b : removelast (l ++ [a; b]) = l ++ [a].
Proof. change [a; b] with ([a] ++ [b]). rewrite app_assoc. apply removelast_last. Qed.
Lemma quote_step l line col t n k c : get_bit_or_hex_string_token (39 :: l) line col = Ok (t, n, k, c) ->
  step_ok (39 :: l) line col (Some t, n, line + k, if 0 <? k then c else col + Z.of_nat n).
Proof.
  intros H. unfold get_bit_or_hex_string_token in H. destruct l as [|l0 l']; [discriminate|]. set (l := l0 :: l') in *.
  destruct (position (fun c => c =? 39) l) as [last|] eqn:Hp; [|discriminate].
  destruct (position_sound _ _ Hp) as (b & rest0 & Hl & Hb & ->). rewrite Hl in *. clear Hl Hp l l0 l'.
  replace (List.length b + 2)%nat with (S (S (List.length b))) in H by lia.
  assert (Hnth : nth_error (39 :: b ++ 39 :: rest0) (S (S (List.length b))) = nth_error rest0 0).
  { change (nth_error (b ++ 39 :: rest0) (S (List.length b)) = nth_error rest0 0). rewrite nth_error_app2 by lia. replace (S (List.length b) - List.length b)%nat with 1%nat by lia. reflexivity. }
  rewrite Hnth in H. destruct rest0 as [|z rest]; [discriminate|]. cbn [nth_error] in H.
  assert (Hfn : firstn (S (S (List.length b))) (39 :: b ++ 39 :: z :: rest) = (39 :: b) ++ [39]).
  { change (39 :: firstn (S (List.length b)) (b ++ 39 :: z :: rest) = 39 :: b ++ [39]). f_equal. replace (b ++ 39 :: z :: rest) with ((b ++ [39]) ++ z :: rest) by (now rewrite <- app_assoc).
    replace (S (List.length b)) with (List.length (b ++ [39])) by (rewrite app_length; cbn; lia). apply firstn_app_l. }
  rewrite Hfn in H. cbv zeta in H.
  destruct (lines_of_spec (39 :: b) 39 col (S (S (List.length b))) ltac:(lia)) as (cl & Hlo & _). 
  set (w := [39] ++ b ++ [39; z]).
  assert (Heq : 39 :: b ++ 39 :: z :: rest = w ++ rest) by (unfold w; cbn; now rewrite <- app_assoc).
  assert (Hlen : (S (S (List.length b)) + 1)%nat = List.length w) by (unfold w; rewrite !app_length; cbn; lia).
  assert (Hrem : removelast w = 39 :: b ++ [39]) by (unfold w; rewrite app_assoc; rewrite removelast_snoc; reflexivity).
  assert (Hnlz : z <> 10 -> newlines w = newlines ((39 :: b) ++ [39])).
  { intros Hz. unfold w. rewrite !newlines_app, !newlines_cons. replace (z =? 10) with false by lia. change (newlines []) with 0. cbn. lia. }
  destruct (if (z =? 104) || (z =? 72) then Some HexString else if (z =? 98) || (z =? 66) then Some BitString else None) as [ty|] eqn:Hty; [|discriminate].
  rewrite Hlo in H. cbn [rbind fst snd] in H.
  assert (Hz10 : z <> 10) by (destruct ((z =? 104) || (z =? 72)) eqn:H1; [lia|destruct ((z =? 98) || (z =? 66)) eqn:H2; [lia|discriminate]]).
  rewrite <- (Hnlz Hz10), Hlen in H.
  destruct ((z =? 104) || (z =? 72)) eqn:H1.
  - injection Hty as <-. cbn [app] in H. destruct (forallb _ _) eqn:Hf in H; [|discriminate]. injection H as <- <- <- <-.
    rewrite Heq. apply (literal_step _ _ _ _ _ w rest); try reflexivity; [discriminate| |].
    + cbn [tk_type]. apply L_hex; [exact Hb| |lia].
      apply (bits_text (fun c => is_hexdigit c || (c =? 39)) (fun c => is_hexdigit c = true) b Hb) in Hf; [exact Hf| |reflexivity].
      intros c Hc. rewrite orb_true_iff, Z.eqb_eq. tauto.
    + cbn [tk_text tk_type text_of]. now rewrite Hrem.
  - destruct ((z =? 98) || (z =? 66)) eqn:H2; [|discriminate]. injection Hty as <-. cbn [app] in H. destruct (forallb _ _) eqn:Hf in H; [|discriminate]. injection H as <- <- <- <-.
    rewrite Heq. apply (literal_step _ _ _ _ _ w rest); try reflexivity; [discriminate| |].
    + cbn [tk_type]. apply L_bits; [exact Hb| |lia].
      apply (bits_text (fun c => (c =? 48) || (c =? 49) || (c =? 39)) (fun c => c = 48 \/ c = 49) b Hb) in Hf; [exact Hf| |reflexivity].
      intros c Hc. rewrite !orb_true_iff, !Z.eqb_eq. tauto.
    + cbn [tk_text tk_type text_of]. now rewrite Hrem.
Qed.
Lemma string_step l line col t n k c : get_string_token (34 :: l) line col = Ok (t, n, k, c) ->
  step_ok (34 :: l) line col (Some t, n, line + k, if 0 <? k then c else col + Z.of_nat n).
Proof.
  intros H. unfold get_string_token in H. destruct l as [|l0 l']; [discriminate|]. set (l := l0 :: l') in *.
  destruct (string_end 1 l) as [last|] eqn:Hp; [|discriminate].
  destruct (string_end_sound _ _ _ Hp) as (b & rest & Hl & Hq & Hr & ->). rewrite Hl in *. clear Hl Hp l l0 l'.
  set (w := [34] ++ b ++ [34]).
  assert (Heq : 34 :: b ++ 34 :: rest = w ++ rest) by (unfold w; cbn; now rewrite <- app_assoc).
  assert (Hlen : S (1 + List.length b) = List.length w) by (unfold w; rewrite !app_length; cbn; lia).
  rewrite Heq, Hlen, firstn_app_l in H.
  destruct (lines_of_spec (34 :: b) 34 col (List.length w) ltac:(lia)) as (cl & Hlo & _).
  change ((34 :: b) ++ [34]) with w in Hlo. rewrite Hlo in H. cbn [rbind fst snd] in H. injection H as <- <- <- <-.
  rewrite Heq. apply (literal_step _ _ _ _ _ w rest); try reflexivity; [discriminate|].
  cbn [tk_type]. now apply L_string.
Qed.

Theorem one_token_sound chars line col r : one_token is_numeric chars line col = Ok r -> step_ok chars line col r.
Proof.
  intros H. destruct chars as [|c l]; [discriminate|].
  assert (Hd : c = 45 -> step_ok (c :: l) line col r) by (intros ->; pose proof (dash_step l line col) as Hds; now rewrite H in Hds).
  unfold one_token in H. cbv zeta in H.
  destruct ((c =? 32) || (c =? 9)) eqn:H1.
  { injection H as <-. exists [c], l. split; [reflexivity|]. split; [discriminate|]. split; [reflexivity|]. exists c. split; [reflexivity|].
    split; [unfold blank; lia|]. rewrite newlines_cons. cbn [column]. replace (c =? 10) with false by lia. change (newlines []) with 0. split; [lia|]. split; lia. }
  destruct (c =? 10) eqn:H2.
  { injection H as <-. exists [c], l. split; [reflexivity|]. split; [discriminate|]. split; [reflexivity|]. exists c. split; [reflexivity|].
    split; [unfold blank; lia|]. rewrite newlines_cons. cbn [column]. rewrite H2. change (newlines []) with 0. split; [lia|]. split; [reflexivity|lia]. }
  destruct (c =? 45) eqn:H3; [apply Hd; lia|]. clear Hd.
  destruct (single_char c) as [ty|] eqn:H4.
  { unfold get_single_char_token in H. rewrite H4 in H. cbn [rbind] in H. injection H as <-.
    change (col + 1) with (col + Z.of_nat 1). apply (plain_step _ _ _ _ _ [c] l); try reflexivity; [discriminate| | |].
    - cbn [tk_type token_at]. apply L_single. unfold single_char in H4.
      repeat (match type of H4 with (if ?b then _ else _) = _ => destruct b eqn:? end; [injection H4 as <-; repeat (try (left; f_equal; lia); right); fail|]). discriminate.
    - cbn [tk_type tk_text token_at]. symmetry. apply text_same; intros ->; unfold single_char in H4;
        repeat (match type of H4 with (if ?b then _ else _) = _ => destruct b end; [discriminate|]); discriminate.
    - intros _. rewrite newlines_cons, H2. reflexivity. }
  destruct ((c =? 91) || (c =? 93)) eqn:H5.
  { destruct (get_seq_extension_or_square_brackets_token (c :: l) line col) as [[t n]| | |] eqn:Hg; cbn [rbind fst snd] in H; try discriminate. injection H as <-. eapply square_step; [lia|exact Hg]. }
  destruct (c =? 58) eqn:H6.
  { destruct (get_assignment_or_colon_token (c :: l) line col) as [[t n]| | |] eqn:Hg; cbn [rbind fst snd] in H; try discriminate. injection H as <-. apply Z.eqb_eq in H6. subst c. now apply colon_step. }
  destruct (c =? 46) eqn:H7.
  { destruct (get_range_or_extension_token (c :: l) line col) as [[t n]| | |] eqn:Hg; cbn [rbind fst snd] in H; try discriminate. injection H as <-. apply Z.eqb_eq in H7. subst c. now apply dots_step. }
  destruct ((c =? 38) || is_lower c || is_upper c) eqn:H8.
  { destruct (get_identifier_or_keyword_token (c :: l) line col) as [[t n]| | |] eqn:Hg; cbn [rbind fst snd] in H; try discriminate. injection H as <-. apply word_step; [|exact Hg].
    unfold is_lower, is_upper, letter in *. lia. }
  destruct (is_digit c) eqn:H9.
  { destruct (get_number_token is_numeric (c :: l) line col) as [[t n]| | |] eqn:Hg; cbn [rbind fst snd] in H; try discriminate. injection H as <-. apply number_step; [|exact Hg].
    unfold is_digit, digit in *. lia. }
  destruct (c =? 64) eqn:H10.
  { destruct (get_at_component_id_list (c :: l) line col) as [[t n]| | |] eqn:Hg; cbn [rbind fst snd] in H; try discriminate. injection H as <-. apply Z.eqb_eq in H10. subst c. now apply at_step. }
  destruct (c =? 39) eqn:H11.
  { destruct (get_bit_or_hex_string_token (c :: l) line col) as [[[[t n] k] cc]| | |] eqn:Hg; cbn [rbind fst snd] in H; try discriminate. injection H as <-. apply Z.eqb_eq in H11. subst c. now apply quote_step. }
  destruct (c =? 34) eqn:H12.
  { destruct (get_string_token (c :: l) line col) as [[[[t n] k] cc]| | |] eqn:Hg; cbn [rbind fst snd] in H; try discriminate. injection H as <-. apply Z.eqb_eq in H12. subst c. now apply string_step. }
  destruct (c =? 0xFEFF) eqn:H13; [|discriminate].
  injection H as <-. exists [c], l. split; [reflexivity|]. split; [discriminate|]. split; [reflexivity|]. exists c. split; [reflexivity|].
  split; [unfold blank; lia|]. rewrite newlines_cons, H2. change (newlines []) with 0. split; [lia|]. split; lia.
Qed.

(* ------------------------------------------------------------------ *)
(* Every lexical item is recognised                                    *)
(* ------------------------------------------------------------------ *)
Definition recognised (ty : token_type) (w rest : list Z) (line col : Z) : Prop :=
  exists t line' col', one_token is_numeric (w ++ rest) line col = Ok (Some t, List.length w, line', col') /\
  tk_type t = ty /\ tk_text t = text_of ty w.
Lemma letter_first c : letter c -> (c =? 32) || (c =? 9) = false /\ (c =? 10) = false /\ (c =? 45) = false /\ single_char c = None /\
  (c =? 91) || (c =? 93) = false /\ (c =? 58) = false /\ (c =? 46) = false /\ (c =? 38) || is_lower c || is_upper c = true /\ (c =? 38) = false.
Proof.
  intros H. unfold letter in H. unfold single_char, is_lower, is_upper.
  repeat match goal with |- context [c =? ?k] => replace (c =? k) with false by lia end. cbn. repeat split. lia.
Qed.
Lemma digit_first c : digit c -> (c =? 32) || (c =? 9) = false /\ (c =? 10) = false /\ (c =? 45) = false /\ single_char c = None /\
  (c =? 91) || (c =? 93) = false /\ (c =? 58) = false /\ (c =? 46) = false /\ (c =? 38) || is_lower c || is_upper c = false /\ is_digit c = true.
Proof.
  intros H. unfold digit in H. unfold single_char, is_lower, is_upper, is_digit.
  repeat match goal with |- context [c =? ?k] => replace (c =? k) with false by lia end. cbn. repeat split; lia.
Qed.
Lemma not_begins_impl (p q : Z -> Prop) l : (forall c, p c -> q c) -> ~ begins q l -> ~ begins p l.
Proof. intros H. destruct l; cbn; auto. Qed.
Lemma last_char (w : list Z) : w <> [] -> exists u c, w = u ++ [c].
Proof. intros H. destruct (exists_last H) as (u & c & ->). eauto. Qed.
Lemma word_recognised w rest line col : begins letter w -> Forall word w -> ~ ends_in (is hyphen) w -> ~ contains [hyphen; hyphen] w ->
    ~ begins word rest -> recognised (if existsb (fun kw => same w (text kw)) KEYWORDS then Keyword else Identifier) w rest line col.
Proof.
  intros Hb Hf He Hd Hr. unfold recognised. destruct w as [|c w]; [destruct Hb|].
  destruct (letter_first c Hb) as (H1 & H2 & H3 & H4 & H5 & H6 & H7 & H8 & H9).
  unfold one_token. cbn [app]. rewrite H1, H2, H3, H4, H5, H6, H7, H8.
  unfold get_identifier_or_keyword_token. rewrite H9. cbn [andb]. cbv zeta. change (c :: w ++ rest) with ((c :: w) ++ rest).
  rewrite span_app; [|eapply Forall_impl; [|exact Hf]; intros a; apply word_spec|].
  2:{ apply (not_begins_impl _ word); [|exact Hr]. intros a; apply word_spec. }
  destruct (last_char (c :: w) ltac:(discriminate)) as (u & z & Hu). rewrite Hu in *. clear Hu.
  rewrite app_length. cbn [List.length]. rewrite Nat.add_1_r.
  rewrite <- !(app_assoc u [z] rest). change ([z] ++ rest) with (z :: rest).
  assert (Hnth : nth_error (u ++ z :: rest) (List.length u) = Some z) by exact (nth_last u z rest). rewrite Hnth.
  replace (z =? 45) with false by (symmetry; apply Z.eqb_neq; intros ->; apply He; now exists u, 45).
  assert (Hfn : firstn (S (List.length u)) (u ++ z :: rest) = u ++ [z]).
  { replace (u ++ z :: rest) with ((u ++ [z]) ++ rest) by (now rewrite <- app_assoc).
    replace (S (List.length u)) with (List.length (u ++ [z])) by (rewrite app_length; cbn; lia). apply firstn_app_l. }
  rewrite Hfn. apply double_dash_false in Hd. rewrite Hd. cbn [rbind fst snd]. eexists _, _, _. split; [reflexivity|]. split; [reflexivity|].
  cbn [tk_text token_at]. symmetry. apply text_same; match goal with |- context [if ?b then Keyword else Identifier] => destruct b end; discriminate.
Qed.
Lemma and_recognised w rest line col : w <> [] -> Forall word w -> ~ ends_in (is hyphen) w -> ~ contains [hyphen; hyphen] w ->
    ~ begins word rest -> recognised AndIdentifier (38 :: w) rest line col.
Proof.
  intros Hb Hf He Hd Hr. unfold recognised.
  unfold one_token. cbn [app]. change (single_char 38) with (@None token_type). cbn [Z.eqb Pos.eqb orb].
  unfold get_identifier_or_keyword_token. cbn [Z.eqb Pos.eqb andb]. cbv zeta.
  rewrite span_app; [|eapply Forall_impl; [|exact Hf]; intros a; apply word_spec|].
  2:{ apply (not_begins_impl _ word); [|exact Hr]. intros a; apply word_spec. }
  destruct (last_char w Hb) as (u & z & Hu). rewrite Hu in *. clear Hu.
  replace (zlen (38 :: (u ++ [z]) ++ rest) =? 1) with false by (unfold zlen; cbn [List.length]; rewrite !app_length; cbn [List.length]; lia).
  replace (List.length (u ++ [z])) with (S (List.length u)) by (rewrite app_length; cbn; lia).
  assert (Hnth : nth_error (38 :: (u ++ [z]) ++ rest) (S (List.length u)) = Some z) by (cbn [nth_error]; rewrite <- app_assoc; exact (nth_last u z rest)). rewrite Hnth.
  replace (z =? 45) with false by (symmetry; apply Z.eqb_neq; intros ->; apply He; now exists u, 45).
  assert (Hfn : firstn (S (S (List.length u))) (38 :: (u ++ [z]) ++ rest) = 38 :: u ++ [z]).
  { change (38 :: firstn (S (List.length u)) ((u ++ [z]) ++ rest) = 38 :: u ++ [z]). f_equal.
    replace (S (List.length u)) with (List.length (u ++ [z])) by (rewrite app_length; cbn; lia). apply firstn_app_l. }
  rewrite Hfn. cbn [Nat.eqb].
  replace (has_double_dash (38 :: u ++ [z])) with false.
  - cbn [rbind fst snd List.length]. replace (List.length (u ++ [z])) with (S (List.length u)) by (rewrite app_length; cbn; lia).
    eexists _, _, _. split; [reflexivity|]. split; reflexivity.
  - symmetry. apply double_dash_false. intros ([|x a] & b & Hab); [discriminate|]. injection Hab as _ Hab. apply Hd. exists a, b. exact Hab.
Qed.
Lemma number_recognised w rest line col : begins digit w -> Forall numeric w -> ~ begins numeric rest -> recognised NumberInt w rest line col.
Proof.
  intros Hb Hf Hr. unfold recognised. destruct w as [|c w]; [destruct Hb|].
  destruct (digit_first c Hb) as (H1 & H2 & H3 & H4 & H5 & H6 & H7 & H8 & H9).
  unfold one_token. cbn [app]. rewrite H1, H2, H3, H4, H5, H6, H7, H8, H9.
  unfold get_number_token. rewrite H3. cbn [andb]. cbv zeta. change (c :: w ++ rest) with ((c :: w) ++ rest).
  rewrite (span_app is_numeric (c :: w)) by assumption. cbn [rbind fst snd]. eexists _, _, _. split; [reflexivity|]. split; [reflexivity|].
  apply firstn_app_l.
Qed.
Lemma negative_recognised w rest line col : Forall numeric w -> ~ begins (is hyphen) (w ++ rest) -> w ++ rest <> [] -> ~ begins numeric rest ->
    recognised NumberInt (hyphen :: w) rest line col.
Proof.
  intros Hf Hh Hne Hr. unfold recognised. unfold one_token, hyphen. cbn [app Z.eqb Pos.eqb orb].
  unfold get_maybe_comment_token. destruct (w ++ rest) as [|b l] eqn:Heq; [contradiction|].
  cbn in Hh. unfold is, hyphen in Hh. replace (b =? 45) with false by lia. cbn [negb rbind].
  unfold get_number_token. cbn [Z.eqb Pos.eqb andb]. replace (zlen (45 :: b :: l) =? 1) with false by (unfold zlen; cbn [List.length]; lia).
  rewrite <- Heq. cbv zeta. rewrite (span_app is_numeric w) by assumption. cbn [rbind fst snd]. eexists _, _, _. split; [reflexivity|]. split; [reflexivity|].
  cbn [tk_text token_at text_of firstn]. now rewrite firstn_app_l.
Qed.
Lemma at_recognised w rest line col : Forall (fun c => word c \/ c = 46) w -> ~ ends_in (fun c => c = 46 \/ c = hyphen) w -> w ++ rest <> [] ->
    ~ begins (fun c => word c \/ c = 46) rest -> recognised AtComponentIdList (64 :: w) rest line col.
Proof.
  intros Hf He Hne Hr. unfold recognised. unfold one_token. cbn [app]. change (single_char 64) with (@None token_type).
  change (is_lower 64) with false. change (is_upper 64) with false. change (is_digit 64) with false. cbn [Z.eqb Pos.eqb orb].
  unfold get_at_component_id_list. destruct (w ++ rest) as [|b l] eqn:Heq; [contradiction|]. rewrite <- Heq. cbv zeta.
  rewrite (span_app _ w); [|eapply Forall_impl; [|exact Hf]; intros a; apply at_spec|].
  2:{ apply (not_begins_impl _ (fun c => word c \/ c = 46)); [|exact Hr]. intros a; apply at_spec. }
  replace (S (List.length w) - 1)%nat with (List.length w) by lia.
  assert (Hnth : exists z, nth_error (64 :: w ++ rest) (List.length w) = Some z /\ z <> 46 /\ z <> 45).
  { destruct w as [|c w]; [exists 64; repeat split; lia|]. destruct (last_char (c :: w) ltac:(discriminate)) as (u & z & Hu). rewrite Hu in *.
    exists z. rewrite app_length. cbn [List.length]. rewrite Nat.add_1_r. cbn [nth_error]. rewrite <- app_assoc. split; [exact (nth_last u z rest)|].
    split; intros ->; apply He; eexists _, _; (split; [reflexivity|]); unfold hyphen; auto. }
  destruct Hnth as (z & -> & Hz1 & Hz2). replace ((z =? 46) || (z =? 45)) with false by lia. cbn [rbind fst snd].
  eexists _, _, _. split; [reflexivity|]. split; [reflexivity|]. cbn [tk_text token_at text_of firstn]. now rewrite firstn_app_l.
Qed.
Lemma closed_recognised b rest line col : comment_text (b ++ [hyphen]) -> recognised Comment ([hyphen; hyphen] ++ b ++ [hyphen; hyphen]) rest line col.
Proof.
  intros Ht. unfold recognised. set (w := [hyphen; hyphen] ++ b ++ [hyphen; hyphen]).
  assert (Heq : w ++ rest = 45 :: 45 :: b ++ [hyphen; hyphen] ++ rest) by (unfold w; cbn; now rewrite <- app_assoc).
  rewrite Heq. unfold one_token. cbn [Z.eqb Pos.eqb orb]. unfold get_maybe_comment_token. cbn [Z.eqb Pos.eqb negb].
  rewrite (comment_end_closed _ _ Ht). cbn [rbind].
  assert (Hlen : (2 + 0 + List.length b + 2)%nat = List.length w) by (unfold w; rewrite !app_length; cbn; lia).
  rewrite Hlen, <- Heq, firstn_app_l. eexists _, _, _. split; [reflexivity|]. split; reflexivity.
Qed.
Lemma line_recognised b rest line col : comment_text b -> begins (is 10) rest -> rest <> [10] -> recognised Comment ([hyphen; hyphen] ++ b) rest line col.
Proof.
  intros Ht Hr Hr'. unfold recognised. set (w := [hyphen; hyphen] ++ b). change (w ++ rest) with (45 :: 45 :: b ++ rest).
  unfold one_token. cbn [Z.eqb Pos.eqb orb]. unfold get_maybe_comment_token. cbn [Z.eqb Pos.eqb negb].
  rewrite (comment_end_line _ _ Ht Hr Hr'). cbn [rbind]. change (2 + 0 + List.length b)%nat with (List.length w).
  change (45 :: 45 :: b ++ rest) with (w ++ rest). rewrite firstn_app_l. eexists _, _, _. split; [reflexivity|]. split; reflexivity.
Qed.
Lemma end_recognised b line col : comment_text b -> recognised Comment ([hyphen; hyphen] ++ b) [] line col.
Proof.
  intros Ht. unfold recognised. rewrite app_nil_r. cbn [app].
  unfold one_token, hyphen. cbn [Z.eqb Pos.eqb orb]. unfold get_maybe_comment_token. cbn [Z.eqb Pos.eqb negb].
  rewrite (comment_end_none _ Ht). cbn [rbind]. rewrite firstn_all. eexists _, _, _. split; [reflexivity|]. split; reflexivity.
Qed.
Lemma end_line_recognised b line col : comment_text b -> recognised Comment ([hyphen; hyphen] ++ b ++ [10]) [] line col.
Proof.
  intros Ht. unfold recognised. rewrite app_nil_r. cbn [app].
  unfold one_token, hyphen. cbn [Z.eqb Pos.eqb orb]. unfold get_maybe_comment_token. cbn [Z.eqb Pos.eqb negb].
  rewrite (comment_end_none_line _ Ht). cbn [rbind]. rewrite firstn_all. eexists _, _, _. split; [reflexivity|]. split; reflexivity.
Qed.
Lemma quote_recognised ty b z rest line col : ~ In 39 b ->
  (ty = BitString /\ Forall (fun c => is_whitespace c = true \/ c = 48 \/ c = 49) b /\ (z = 98 \/ z = 66)) \/
  (ty = HexString /\ Forall (fun c => is_whitespace c = true \/ is_hexdigit c = true) b /\ (z = 104 \/ z = 72)) ->
  recognised ty ([39] ++ b ++ [39; z]) rest line col.
Proof.
  intros Hb Hty. unfold recognised. set (w := [39] ++ b ++ [39; z]).
  assert (Heq : w ++ rest = 39 :: b ++ 39 :: z :: rest) by (unfold w; cbn; now rewrite <- app_assoc).
  rewrite Heq. unfold one_token. change (single_char 39) with (@None token_type).
  change (is_lower 39) with false. change (is_upper 39) with false. change (is_digit 39) with false. cbn [Z.eqb Pos.eqb orb]. cbv zeta.
  assert (Hg : exists t k c, get_bit_or_hex_string_token (39 :: b ++ 39 :: z :: rest) line col = Ok (t, List.length w, k, c) /\
     tk_type t = ty /\ tk_text t = text_of ty w).
  { unfold get_bit_or_hex_string_token. destruct (b ++ 39 :: z :: rest) as [|x y] eqn:Hxy; [destruct b; discriminate|]. rewrite <- Hxy in *. clear Hxy x y.
    rewrite (position_complete b _ Hb). replace (List.length b + 2)%nat with (S (S (List.length b))) by lia.
    assert (Hnth : nth_error (39 :: b ++ 39 :: z :: rest) (S (S (List.length b))) = Some z).
    { change (nth_error (b ++ 39 :: z :: rest) (S (List.length b)) = Some z). rewrite nth_error_app2 by lia. replace (S (List.length b) - List.length b)%nat with 1%nat by lia. reflexivity. }
    rewrite Hnth.
    assert (Hfn : firstn (S (S (List.length b))) (39 :: b ++ 39 :: z :: rest) = (39 :: b) ++ [39]).
    { change (39 :: firstn (S (List.length b)) (b ++ 39 :: z :: rest) = 39 :: b ++ [39]). f_equal. replace (b ++ 39 :: z :: rest) with ((b ++ [39]) ++ z :: rest) by (now rewrite <- app_assoc).
      replace (S (List.length b)) with (List.length (b ++ [39])) by (rewrite app_length; cbn; lia). apply firstn_app_l. }
    rewrite Hfn.
    destruct (lines_of_spec (39 :: b) 39 col (S (S (List.length b))) ltac:(lia)) as (cl & Hlo & _).
    assert (Hlen : (S (S (List.length b)) + 1)%nat = List.length w) by (unfold w; rewrite !app_length; cbn; lia).
    assert (Hrem : removelast w = (39 :: b) ++ [39]) by (unfold w; rewrite app_assoc; rewrite removelast_snoc; reflexivity).
    destruct Hty as [(-> & Hf & Hz)|(-> & Hf & Hz)].
    - replace ((z =? 104) || (z =? 72)) with false by lia. replace ((z =? 98) || (z =? 66)) with true by lia. cbv zeta.
      rewrite Hlo. cbn [rbind fst snd]. cbn [app].
      rewrite (proj2 (bits_text (fun c => (c =? 48) || (c =? 49) || (c =? 39)) (fun c => c = 48 \/ c = 49) b Hb
         ltac:(intros c Hc; rewrite !orb_true_iff, !Z.eqb_eq; tauto) eq_refl) Hf).
      rewrite Hlen. eexists _, _, _. split; [reflexivity|]. split; [reflexivity|]. cbn [tk_text text_of]. now rewrite Hrem.
    - replace ((z =? 104) || (z =? 72)) with true by lia. cbv zeta.
      rewrite Hlo. cbn [rbind fst snd]. cbn [app].
      rewrite (proj2 (bits_text (fun c => is_hexdigit c || (c =? 39)) (fun c => is_hexdigit c = true) b Hb
         ltac:(intros c Hc; rewrite !orb_true_iff, !Z.eqb_eq; tauto) eq_refl) Hf).
      rewrite Hlen. eexists _, _, _. split; [reflexivity|]. split; [reflexivity|]. cbn [tk_text text_of]. now rewrite Hrem. }
  destruct Hg as (t & k & c & -> & H1 & H2). cbn [rbind]. eexists _, _, _. split; [reflexivity|]. auto.
Qed.
Lemma string_recognised b rest line col : quoted b -> ~ begins (is 34) rest -> recognised TString ([34] ++ b ++ [34]) rest line col.
Proof.
  intros Hq Hr. unfold recognised. set (w := [34] ++ b ++ [34]).
  assert (Heq : w ++ rest = 34 :: b ++ 34 :: rest) by (unfold w; cbn; now rewrite <- app_assoc).
  rewrite Heq. unfold one_token. change (single_char 34) with (@None token_type).
  change (is_lower 34) with false. change (is_upper 34) with false. change (is_digit 34) with false. cbn [Z.eqb Pos.eqb orb]. cbv zeta.
  unfold get_string_token. destruct (b ++ 34 :: rest) as [|x y] eqn:Hxy; [destruct b; discriminate|]. rewrite <- Hxy in *. clear Hxy x y.
  rewrite (string_end_complete b rest Hq Hr).
  assert (Hlen : S (1 + List.length b) = List.length w) by (unfold w; rewrite !app_length; cbn; lia).
  rewrite Hlen, <- Heq, firstn_app_l.
  destruct (lines_of_spec (34 :: b) 34 col (List.length w) ltac:(lia)) as (cl & Hlo & _). change ((34 :: b) ++ [34]) with w in Hlo. rewrite Hlo.
  cbn [rbind fst snd]. eexists _, _, _. split; [reflexivity|]. split; reflexivity.
Qed.
Theorem one_token_complete ty w rest line col : lex ty w rest -> recognised ty w rest line col.
Proof.
  intros H. destruct H.
  - now apply word_recognised.
  - now apply and_recognised.
  - now apply number_recognised.
  - now apply negative_recognised.
  - now apply at_recognised.
  - unfold recognised, one_token. cbn. eexists _, _, _. split; [reflexivity|]. split; reflexivity.
  - unfold recognised, one_token. destruct rest as [|r0 rest]; cbn; [|cbn in H; unfold is in H; replace (r0 =? 46) with false by lia; cbn];
      eexists _, _, _; (split; [reflexivity|]); split; reflexivity.
  - unfold recognised, one_token. destruct rest as [|r0 [|r1 rest]]; cbn; [|cbn in H; unfold is in H; replace (r0 =? 46) with false by lia; cbn..];
      eexists _, _, _; (split; [reflexivity|]); split; reflexivity.
  - unfold recognised, one_token. cbn. eexists _, _, _. split; [reflexivity|]. split; reflexivity.
  - unfold recognised, one_token. destruct rest as [|r0 [|r1 rest]]; cbn; [|cbn in H; unfold is in H; replace (r0 =? 58) with false by lia; cbn..];
      eexists _, _, _; (split; [reflexivity|]); split; reflexivity.
  - unfold recognised, one_token. cbn. eexists _, _, _. split; [reflexivity|]. split; reflexivity.
  - unfold recognised, one_token. destruct rest as [|r0 rest]; [contradiction|]. cbn. cbn in H0; unfold is in H0; replace (r0 =? 91) with false by lia; cbn.
      eexists _, _, _; (split; [reflexivity|]); split; reflexivity.
  - unfold recognised, one_token. cbn. eexists _, _, _. split; [reflexivity|]. split; reflexivity.
  - unfold recognised, one_token. destruct rest as [|r0 rest]; [contradiction|]. cbn. cbn in H0; unfold is in H0; replace (r0 =? 93) with false by lia; cbn.
      eexists _, _, _; (split; [reflexivity|]); split; reflexivity.
  - unfold recognised, one_token. cbn [In] in H.
    repeat (destruct H as [H|H]; [injection H as <- <-; cbn; eexists _, _, _; (split; [reflexivity|]); split; reflexivity|]). destruct H.
  - now apply closed_recognised.
  - now apply line_recognised.
  - now apply end_recognised.
  - now apply end_line_recognised.
  - apply quote_recognised; auto.
  - apply quote_recognised; auto.
  - now apply string_recognised.
Qed.
Lemma lexeme_nonempty ty w rest : lex ty w rest -> w <> [].
Proof. intros H. destruct H; try discriminate; destruct w; try discriminate; destruct H. Qed.

(* ------------------------------------------------------------------ *)
(* The loop                                                            *)
(* ------------------------------------------------------------------ *)
Lemma loop_step fuel chars line col r : one_token is_numeric chars line col = Ok r ->
  tokenize_loop is_numeric (S fuel) chars line col =
  match r with (tok, consumed, line', column') =>
    toks <-- (if match skipn consumed chars with [] => true | _ => false end then Ok [] else tokenize_loop is_numeric fuel (skipn consumed chars) line' column') ;;
    Ok (match tok with Some t => t :: toks | None => toks end) end.
Proof. intros H. cbn [tokenize_loop]. rewrite H. cbn [rbind]. destruct r as [[[? ?] ?] ?]. reflexivity. Qed.
Lemma loop_inv fuel chars line col toks : tokenize_loop is_numeric fuel chars line col = Ok toks ->
  exists f w rest tok line' col' toks', fuel = S f /\ chars = w ++ rest /\ w <> [] /\
    step_ok chars line col (tok, List.length w, line', col') /\
    (rest = [] /\ toks' = [] \/ rest <> [] /\ tokenize_loop is_numeric f rest line' col' = Ok toks') /\
    toks = match tok with Some t => t :: toks' | None => toks' end.
Proof.
  destruct fuel as [|f]; [discriminate|]. intros H.
  destruct (one_token is_numeric chars line col) as [r| | |] eqn:Ho; try (cbn [tokenize_loop] in H; rewrite Ho in H; discriminate).
  pose proof (one_token_sound _ _ _ _ Ho) as Hs. rewrite (loop_step _ _ _ _ _ Ho) in H. destruct r as [[[tok n] line'] col'].
  pose proof Hs as Hs'. destruct Hs as (w & rest & -> & Hw & <- & _). rewrite skipn_app_l in H.
  exists f, w, rest, tok, line', col'. destruct rest as [|r0 rest].
  - cbn [rbind] in H. injection H as <-. exists []. repeat split; auto.
  - destruct (tokenize_loop is_numeric f (r0 :: rest) line' col') as [toks'| | |] eqn:Ht; try discriminate. cbn [rbind] in H. injection H as <-.
    exists toks'. repeat split; auto. right. split; [discriminate|reflexivity].
Qed.
Lemma step_split chars line col tok w rest line' col' : chars = w ++ rest -> step_ok chars line col (tok, List.length w, line', col') ->
  match tok with
  | None => exists c, w = [c] /\ blank c /\ line' = line + newlines w /\ (c <> 0xFEFF -> col' = column col w) /\
                      (newlines w = 0 -> col <= col')
  | Some t => lex (tk_type t) w rest /\ tk_text t = text_of (tk_type t) w /\ tk_line t = line /\ tk_column t = col /\
              (rest <> [] -> line' = line + newlines w) /\ (newlines w = 0 -> col' = col + zlen w) /\
              (rest <> [] -> tk_end_line t = tk_line t + newlines w)
  end.
Proof.
  intros -> (w' & rest' & Heq & _ & Hl & H). assert (w' = w /\ rest' = rest) as [-> ->]; [|exact H].
  assert (Hw : w' = w) by (rewrite <- (firstn_app_l w rest), <- (firstn_app_l w' rest'), Heq, Hl; reflexivity).
  subst w'. apply app_inv_head in Heq. auto.
Qed.
Theorem loop_sound fuel : forall pre cs line col toks, tokenize_loop is_numeric fuel cs line col = Ok toks -> line = 1 + newlines pre ->
  tokens_of numeric pre cs toks.
Proof.
  induction fuel as [|fuel IH]; intros pre cs line col toks H Hline; [discriminate|].
  destruct (loop_inv _ _ _ _ _ H) as (f & w & rest & tok & line' & col' & toks' & Hf & Hcs & Hw & Hs & Hr & ->).
  injection Hf as <-. apply (step_split _ _ _ _ _ _ _ _ Hcs) in Hs. subst cs.
  assert (Hrest : (rest <> [] -> line' = line + newlines w) -> tokens_of numeric (pre ++ w) rest toks').
  { intros Hl. destruct Hr as [[-> ->]|[Hne Hr]]; [constructor|]. apply (IH _ _ _ _ _ Hr). rewrite newlines_app, (Hl Hne). lia. }
  destruct tok as [t|].
  - destruct Hs as (Hlex & Htext & Hl & Hc & Hl' & _). constructor; [exact Hlex|exact Htext|lia|now apply Hrest].
  - destruct Hs as (c & -> & Hb & Hl' & _). cbn [app]. constructor; [exact Hb|]. apply Hrest. auto.
Qed.
Theorem loop_columns fuel : forall pre cs line col toks, tokenize_loop is_numeric fuel cs line col = Ok toks -> col = column 0 pre ->
  ~ In 0xFEFF cs -> Forall (fun t => tk_end_line t = tk_line t) toks -> columns_of numeric pre cs toks.
Proof.
  assert (Happ : forall l l' n, column n (l ++ l') = column (column n l) l').
  { induction l as [|x l IHl]; intros l' n; [reflexivity|]. cbn [app column]. destruct (x =? 10); apply IHl. }
  assert (Hplain : forall l n, newlines l = 0 -> column n l = n + zlen l).
  { induction l as [|x l IHl]; intros n Hn; [cbn; unfold zlen; cbn; lia|]. rewrite newlines_cons in Hn. pose proof (newlines_pos l). cbn [column].
    destruct (x =? 10); [lia|]. rewrite IHl by lia. unfold zlen. cbn [List.length]. lia. }
  induction fuel as [|fuel IH]; intros pre cs line col toks H Hcol Hno Hall; [discriminate|].
  destruct (loop_inv _ _ _ _ _ H) as (f & w & rest & tok & line' & col' & toks' & Hf & Hcs & Hw & Hs & Hr & ->).
  injection Hf as <-. apply (step_split _ _ _ _ _ _ _ _ Hcs) in Hs. subst cs.
  assert (Hno' : ~ In 0xFEFF rest) by (intros Hin; apply Hno, in_app_iff; now right).
  destruct tok as [t|].
  - destruct Hs as (Hlex & Htext & Hl & Hc & Hl' & Hcol' & Hend). inversion_clear Hall as [|? ? Ht Hall'].
    constructor; [exact Hlex|lia|]. destruct Hr as [[-> ->]|[Hne Hr]]; [constructor|]. apply (IH _ _ _ _ _ Hr); [|exact Hno'|exact Hall'].
    specialize (Hend Hne). assert (Hz : newlines w = 0) by lia. rewrite Happ, <- Hcol, (Hplain _ _ Hz). auto.
  - destruct Hs as (c & -> & Hb & Hl' & Hcol' & _). cbn [app]. constructor; [exact Hb|].
    destruct Hr as [[-> ->]|[Hne Hr]]; [constructor|]. apply (IH _ _ _ _ _ Hr); [|exact Hno'|exact Hall].
    rewrite Happ, <- Hcol. apply Hcol'. intros ->. apply Hno. now left.
Qed.
Theorem loop_positions fuel : forall cs line col toks, tokenize_loop is_numeric fuel cs line col = Ok toks ->
  Forall (fun t => line < tk_line t \/ line = tk_line t /\ col <= tk_column t) toks /\ StronglySorted earlier toks.
Proof.
  induction fuel as [|fuel IH]; intros cs line col toks H; [discriminate|].
  destruct (loop_inv _ _ _ _ _ H) as (f & w & rest & tok & line' & col' & toks' & Hf & Hcs & Hw & Hs & Hr & ->).
  injection Hf as <-. apply (step_split _ _ _ _ _ _ _ _ Hcs) in Hs. pose proof (newlines_pos w) as Hp.
  assert (Hz : 0 < zlen w) by (unfold zlen; destruct w; [contradiction|cbn; lia]).
  destruct tok as [t|].
  - destruct Hs as (Hlex & Htext & Hl & Hc & Hl' & Hcol' & _).
    destruct Hr as [[-> ->]|[Hne Hr]]; [split; [constructor; [lia|constructor]|repeat constructor]|].
    destruct (IH _ _ _ _ Hr) as [H1 H2]. specialize (Hl' Hne).
    split.
    + constructor; [lia|]. eapply Forall_impl; [|exact H1]. intros a Ha. cbn beta in Ha.
      destruct (Z.eq_dec (newlines w) 0) as [E|E]; [specialize (Hcol' E)|]; lia.
    + constructor; [exact H2|]. eapply Forall_impl; [|exact H1]. intros a Ha. unfold earlier. cbn beta in Ha.
      destruct (Z.eq_dec (newlines w) 0) as [E|E]; [specialize (Hcol' E)|]; lia.
  - destruct Hs as (c & -> & Hb & Hl' & _ & Hcol').
    destruct Hr as [[-> ->]|[Hne Hr]]; [split; constructor|].
    destruct (IH _ _ _ _ Hr) as [H1 H2]. split; [|exact H2]. eapply Forall_impl; [|exact H1]. intros a Ha. cbn beta in Ha.
    destruct (Z.eq_dec (newlines [c]) 0) as [E|E]; [specialize (Hcol' E)|]; lia.
Qed.
Lemma blank_step c rest line col : blank c -> exists line' col', one_token is_numeric (c :: rest) line col = Ok (None, 1%nat, line', col').
Proof.
  intros [->|[->|[->| ->]]]; [cbn; eauto..|]. unfold one_token. change (single_char 0xFEFF) with (@None token_type).
  change (is_lower 0xFEFF) with false. change (is_upper 0xFEFF) with false. change (is_digit 0xFEFF) with false. cbn. eauto.
Qed.
Theorem loop_complete cs l : items numeric cs l -> cs <> [] -> forall fuel line col, (List.length cs < fuel)%nat ->
  exists toks, tokenize_loop is_numeric fuel cs line col = Ok toks /\
    Forall2 (fun t x => tk_type t = fst x /\ tk_text t = text_of (fst x) (snd x)) toks l.
Proof.
  induction 1 as [|c rest l Hb Hi IH|ty w rest l Hlex Hi IH]; intros Hne fuel line col Hf; [contradiction| |].
  - destruct fuel as [|fuel]; [lia|]. destruct (blank_step c rest line col Hb) as (line' & col' & Ho). rewrite (loop_step _ _ _ _ _ Ho). cbn [skipn].
    destruct rest as [|r0 rest].
    + inversion Hi; subst; [|destruct w; [exfalso; eapply lexeme_nonempty; [eassumption|reflexivity]|discriminate]].
      exists []. split; [reflexivity|constructor].
    + cbn [List.length] in Hf. destruct (IH ltac:(discriminate) fuel line' col' ltac:(cbn [List.length]; lia)) as (toks & -> & H2). exists toks. split; [reflexivity|exact H2].
  - pose proof (lexeme_nonempty _ _ _ Hlex) as Hw.
    assert (Hlw : (0 < List.length w)%nat) by (destruct w; [contradiction|cbn; lia]). rewrite app_length in Hf.
    destruct fuel as [|fuel]; [lia|]. destruct (one_token_complete ty w rest line col Hlex) as (t & line' & col' & Ho & Ht & Hx).
    rewrite (loop_step _ _ _ _ _ Ho), skipn_app_l. destruct rest as [|r0 rest].
    + inversion Hi; subst; [|destruct w0; [exfalso; eapply lexeme_nonempty; [eassumption|reflexivity]|discriminate]].
      exists [t]. split; [reflexivity|]. constructor; [|constructor]. cbn [fst snd]. auto.
    + destruct (IH ltac:(discriminate) fuel line' col' ltac:(lia)) as (toks & -> & H2). exists (t :: toks). split; [reflexivity|]. constructor; auto.
Qed.
Lemma tokens_items pre cs toks : tokens_of numeric pre cs toks ->
  exists l, items numeric cs l /\ Forall2 (fun t x => tk_type t = fst x /\ tk_text t = text_of (fst x) (snd x)) toks l.
Proof.
  induction 1 as [|pre c rest l Hb _ (x & Hi & Hx)|pre w rest t l Hlex Ht _ _ (x & Hi & Hx)].
  - exists []. split; constructor.
  - exists x. split; [now constructor|exact Hx].
  - exists ((tk_type t, w) :: x). split; [now constructor|]. constructor; auto.
Qed.
Lemma items_text cs l : items numeric cs l ->
  filter (fun c => negb ((c =? 32) || (c =? 9) || (c =? 10) || (c =? 0xFEFF))) cs =
  filter (fun c => negb ((c =? 32) || (c =? 9) || (c =? 10) || (c =? 0xFEFF))) (List.concat (map snd l)).
Proof.
  induction 1 as [|c rest l Hb _ IH|ty w rest l _ _ IH]; [reflexivity| |].
  - cbn [filter]. destruct Hb as [->|[->|[->| ->]]]; cbn; exact IH.
  - cbn [map snd List.concat]. rewrite !filter_app. now f_equal.
Qed.

(* ------------------------------------------------------------------ *)
(* Termination and absence of panics                                   *)
(* ------------------------------------------------------------------ *)
Lemma one_token_no_diverge chars line col : one_token is_numeric chars line col <> Diverge.
Proof.
  unfold one_token. cbv zeta. destruct chars as [|c l]; [discriminate|].
  destruct ((c =? 32) || (c =? 9)); [discriminate|]. destruct (c =? 10); [discriminate|].
  assert (Hnumb : forall chars, (tn <-- get_number_token is_numeric chars line col;; Ok (Some (fst tn), snd tn, line, col + Z.of_nat (snd tn))) <> Diverge).
  { intros [|x y]; [discriminate|]. unfold get_number_token. destruct ((x =? 45) && _); discriminate. }
  destruct (c =? 45).
  { unfold get_maybe_comment_token. destruct l as [|b l]; [discriminate|]. destruct (b =? 45); cbn [negb rbind]; [discriminate|]. apply Hnumb. }
  destruct (single_char c) eqn:Hsc; [unfold get_single_char_token; rewrite Hsc; discriminate|].
  destruct ((c =? 91) || (c =? 93)).
  { unfold get_seq_extension_or_square_brackets_token. destruct l as [|b l]; [discriminate|]. destruct (c =? 91); [destruct (b =? 91)|destruct (b =? 93)]; discriminate. }
  destruct (c =? 58).
  { unfold get_assignment_or_colon_token. destruct l as [|b [|x l]]; [discriminate|destruct (b =? 58); discriminate|]. destruct (b =? 58); [destruct (x =? 61)|]; discriminate. }
  destruct (c =? 46).
  { unfold get_range_or_extension_token. destruct l as [|b [|x l]]; [discriminate|destruct (b =? 46); discriminate|]. destruct (b =? 46); [destruct (x =? 46)|]; discriminate. }
  destruct ((c =? 38) || is_lower c || is_upper c).
  { unfold get_identifier_or_keyword_token. cbv zeta. destruct ((c =? 38) && _); [discriminate|].
    match goal with |- context [match ?n with O => Panic | S _ => _ end] => destruct n as [|k] end; [discriminate|].
    destruct (nth_error (c :: l) k) as [c'|]; [|discriminate]. destruct (c' =? 45); [discriminate|]. destruct ((c =? 38) && _); [discriminate|].
    destruct (has_double_dash _); discriminate. }
  destruct (is_digit c); [apply Hnumb|].
  destruct (c =? 64).
  { unfold get_at_component_id_list. destruct l as [|b l]; [discriminate|]. cbv zeta. destruct (nth_error _ _) as [c'|]; [|discriminate]. destruct ((c' =? 46) || (c' =? 45)); discriminate. }
  assert (Hlo : forall t b n, lines_of t b n <> Diverge) by (intros t b n; unfold lines_of; destruct (rev (lines t)); discriminate).
  destruct (c =? 39).
  { unfold get_bit_or_hex_string_token. destruct l as [|b l]; [discriminate|]. destruct (position _ _); [|discriminate]. cbv zeta.
    destruct (nth_error _ _) as [z|]; [|discriminate].
    match goal with |- context [match ?x with Some _ => _ | None => Err end] => destruct x as [ty|] end; [|discriminate].
    match goal with |- context [lines_of ?t ?b ?n] => pose proof (Hlo t b n); destruct (lines_of t b n) as [[? ?]| | |] end; cbn [rbind]; try discriminate; [|contradiction].
    match goal with |- context [if ?x then Ok _ else Err] => destruct x end; discriminate. }
  destruct (c =? 34).
  { unfold get_string_token. destruct l as [|b l]; [discriminate|]. destruct (string_end _ _); [|discriminate]. cbv zeta.
    match goal with |- context [lines_of ?t ?b ?n] => pose proof (Hlo t b n); destruct (lines_of t b n) as [[? ?]| | |] end; cbn [rbind]; try discriminate. contradiction. }
  destruct (c =? 0xFEFF); discriminate.
Qed.
Theorem loop_terminates fuel : forall cs line col, (List.length cs < fuel)%nat -> tokenize_loop is_numeric fuel cs line col <> Diverge.
Proof.
  induction fuel as [|fuel IH]; intros cs line col Hf; [lia|].
  pose proof (one_token_no_diverge cs line col) as Hd.
  destruct (one_token is_numeric cs line col) as [r| | |] eqn:Ho; try (cbn [tokenize_loop]; rewrite Ho; discriminate); [|contradiction].
  rewrite (loop_step _ _ _ _ _ Ho). destruct r as [[[tok n] line'] col'].
  destruct (one_token_sound _ _ _ _ Ho) as (w & rest & -> & Hw & <- & _). rewrite skipn_app_l. rewrite app_length in Hf.
  assert (Hlw : (0 < List.length w)%nat) by (destruct w; [contradiction|cbn; lia]).
  destruct rest as [|r0 rest]; [discriminate|]. specialize (IH (r0 :: rest) line' col' ltac:(lia)).
  destruct (tokenize_loop is_numeric fuel (r0 :: rest) line' col'); cbn [rbind]; try discriminate. contradiction.
Qed.
(* where a panic can come from *)
Lemma one_token_panic c l line col : one_token is_numeric (c :: l) line col = Panic ->
  ~ supported_char c \/ (l = [] /\ (c = 91 \/ c = 93 \/ c = 45)).
Proof.
  unfold one_token. cbv zeta.
  destruct ((c =? 32) || (c =? 9)) eqn:H1; [discriminate|]. destruct (c =? 10) eqn:H2; [discriminate|].
  assert (Hnumb : forall x y, (tn <-- get_number_token is_numeric (x :: y) line col;; Ok (Some (fst tn), snd tn, line, col + Z.of_nat (snd tn))) <> Panic).
  { intros x y. unfold get_number_token. destruct ((x =? 45) && _); discriminate. }
  destruct (c =? 45) eqn:H3.
  { unfold get_maybe_comment_token. destruct l as [|b l]; [right; split; [reflexivity|lia]|]. destruct (b =? 45); cbn [negb rbind]; [discriminate|]. intros H. now apply Hnumb in H. }
  destruct (single_char c) eqn:Hsc; [unfold get_single_char_token; rewrite Hsc; discriminate|].
  destruct ((c =? 91) || (c =? 93)) eqn:H4.
  { unfold get_seq_extension_or_square_brackets_token. destruct l as [|b l]; [right; split; [reflexivity|lia]|]. destruct (c =? 91); [destruct (b =? 91)|destruct (b =? 93)]; discriminate. }
  destruct (c =? 58) eqn:H5.
  { unfold get_assignment_or_colon_token. destruct l as [|b [|x l]]; [discriminate|destruct (b =? 58); discriminate|]. destruct (b =? 58); [destruct (x =? 61)|]; discriminate. }
  destruct (c =? 46) eqn:H6.
  { unfold get_range_or_extension_token. destruct l as [|b [|x l]]; [discriminate|destruct (b =? 46); discriminate|]. destruct (b =? 46); [destruct (x =? 46)|]; discriminate. }
  destruct ((c =? 38) || is_lower c || is_upper c) eqn:H7.
  { unfold get_identifier_or_keyword_token. cbv zeta. set (wp := fun c => is_alnum c || (c =? 45)). destruct (c =? 38) eqn:H38; cbn [andb].
    - destruct (zlen (c :: l) =? 1); [discriminate|]. destruct (span_split wp l) as (w & rest & -> & Hl & _). rewrite <- Hl.
      destruct (nth_error (c :: w ++ rest) (List.length w)) as [c'|] eqn:Hn.
      + destruct (c' =? 45); [discriminate|]. destruct (Nat.eqb _ _); [discriminate|]. destruct (has_double_dash _); discriminate.
      + apply nth_error_None in Hn. cbn [List.length] in Hn. rewrite app_length in Hn. lia.
    - destruct (span_split wp (c :: l)) as (w & rest & Heq & Hl & _ & _ & _ & Hr). rewrite <- Hl. rewrite Heq.
      assert (Hw : w <> []).
      { intros ->. cbn in Heq. subst rest. apply Hr. cbn. unfold wp, is_alnum. cbn [orb] in H7. rewrite H7. reflexivity. }
      destruct (List.length w) as [|k] eqn:Hk; [destruct w; [contradiction|discriminate]|].
      destruct (nth_error (w ++ rest) k) as [c'|] eqn:Hn.
      + destruct (c' =? 45); [discriminate|]. destruct (has_double_dash _); discriminate.
      + apply nth_error_None in Hn. rewrite app_length in Hn. lia. }
  destruct (is_digit c) eqn:H8; [intros H; now apply Hnumb in H|].
  destruct (c =? 64) eqn:H9.
  { unfold get_at_component_id_list. destruct l as [|b l]; [discriminate|]. cbv zeta.
    match goal with |- context [span_len ?p ?x] => destruct (span_split p x) as (w & rest & Heq & Hl & _) end. rewrite <- Hl, Heq.
    replace (S (List.length w) - 1)%nat with (List.length w) by lia.
    destruct (nth_error (c :: w ++ rest) (List.length w)) as [c'|] eqn:Hn.
    - destruct ((c' =? 46) || (c' =? 45)); discriminate.
    - apply nth_error_None in Hn. cbn [List.length] in Hn. rewrite app_length in Hn. lia. }
  destruct (c =? 39) eqn:H10.
  { unfold get_bit_or_hex_string_token. destruct l as [|l0 l']; [discriminate|]. set (l := l0 :: l').
    destruct (position (fun c => c =? 39) l) as [last|] eqn:Hp; [|discriminate]. cbv zeta.
    destruct (position_sound _ _ Hp) as (b & rest & Hl & Hb & ->). rewrite Hl.
    destruct (nth_error _ _) as [z|]; [|discriminate].
    match goal with |- context [match ?x with Some _ => _ | None => Err end] => destruct x as [ty|] end; [|discriminate].
    apply Z.eqb_eq in H10. subst c.
    assert (Hfn : firstn (List.length b + 2) (39 :: b ++ 39 :: rest) = (39 :: b) ++ [39]).
    { replace (List.length b + 2)%nat with (List.length ((39 :: b) ++ [39])) by (rewrite app_length; cbn [List.length]; lia).
      replace (39 :: b ++ 39 :: rest) with (((39 :: b) ++ [39]) ++ rest) by (now rewrite <- app_assoc). apply firstn_app_l. }
    rewrite Hfn. destruct (lines_of_spec (39 :: b) 39 col (List.length b + 2) ltac:(lia)) as (cl & Hlo & _). rewrite Hlo. cbn [rbind].
    match goal with |- context [if ?x then Ok _ else Err] => destruct x end; discriminate. }
  destruct (c =? 34) eqn:H11.
  { unfold get_string_token. destruct l as [|l0 l']; [discriminate|]. set (l := l0 :: l').
    destruct (string_end 1 l) as [last|] eqn:Hp; [|discriminate]. cbv zeta.
    destruct (string_end_sound _ _ _ Hp) as (b & rest & Hl & Hq & Hr & ->). rewrite Hl. apply Z.eqb_eq in H11. subst c.
    assert (Hfn : firstn (S (1 + List.length b)) (34 :: b ++ 34 :: rest) = (34 :: b) ++ [34]).
    { replace (S (1 + List.length b)) with (List.length ((34 :: b) ++ [34])) by (rewrite app_length; cbn [List.length]; lia).
      replace (34 :: b ++ 34 :: rest) with (((34 :: b) ++ [34]) ++ rest) by (now rewrite <- app_assoc). apply firstn_app_l. }
    rewrite Hfn. destruct (lines_of_spec (34 :: b) 34 col (S (1 + List.length b)) ltac:(lia)) as (cl & Hlo & _). rewrite Hlo. cbn [rbind]. discriminate. }
  destruct (c =? 0xFEFF) eqn:H12; [discriminate|]. intros _. left. intros Hs.
  unfold single_char in Hsc. unfold supported_char, blank, letter, digit in Hs. cbn [In] in Hs. unfold is_lower, is_upper, is_digit in *.
  repeat match type of Hsc with (if ?b then _ else _) = _ => destruct b eqn:?; [discriminate|] end. lia.
Qed.
Lemma unreadable_panic rest line col : unreadable rest -> one_token is_numeric rest line col = Panic.
Proof.
  intros [H|[->|[-> | ->]]]; [|reflexivity..]. destruct rest as [|c l]; [destruct H|]. cbn in H.
  unfold supported_char, blank, letter, digit in H. cbn [In] in H. unfold one_token, single_char, is_lower, is_upper, is_digit.
  repeat match goal with |- context [c =? ?k] => replace (c =? k) with false by lia end. cbn [orb].
  replace (((97 <=? c) && (c <=? 122)) || ((65 <=? c) && (c <=? 90))) with false by lia. replace ((48 <=? c) && (c <=? 57)) with false by lia. reflexivity.
Qed.
Theorem loop_panic fuel : forall cs line col, tokenize_loop is_numeric fuel cs line col = Panic ->
  cs = [] \/ exists rest, reaches numeric cs rest /\ unreadable rest.
Proof.
  induction fuel as [|fuel IH]; intros cs line col H; [discriminate|]. destruct cs as [|c l]; [now left|]. right.
  destruct (one_token is_numeric (c :: l) line col) as [r| | |] eqn:Ho; try (cbn [tokenize_loop] in H; rewrite Ho in H; discriminate).
  - rewrite (loop_step _ _ _ _ _ Ho) in H. destruct r as [[[tok n] line'] col'].
    pose proof (one_token_sound _ _ _ _ Ho) as Hs. pose proof Hs as Hs'.
    destruct Hs as (w & rest & Heq & Hw & <- & _). apply (step_split _ _ _ _ _ _ _ _ Heq) in Hs'. rewrite Heq, skipn_app_l in H. rewrite Heq.
    destruct rest as [|r0 rest]; [discriminate|].
    destruct (tokenize_loop is_numeric fuel (r0 :: rest) line' col') as [x| | |] eqn:Hl; try discriminate.
    destruct (IH _ _ _ Hl) as [Hn|(u & Hu & Hun)]; [discriminate|]. exists u. split; [|exact Hun].
    destruct tok as [t|]; [eapply R_item; [exact (proj1 Hs')|exact Hu]|]. destruct Hs' as (d & -> & Hb & _). cbn [app]. now constructor.
  - exists (c :: l). split; [constructor|]. destruct (one_token_panic _ _ _ _ Ho) as [Hs|[-> Hc]]; [now left|right].
    destruct Hc as [->|[-> | ->]]; auto.
Qed.
Theorem loop_unreadable cs rest : reaches numeric cs rest -> unreadable rest -> forall fuel line col, (List.length cs < fuel)%nat ->
  tokenize_loop is_numeric fuel cs line col = Panic.
Proof.
  intros H Hun. assert (Hr : rest <> []) by (intros ->; destruct Hun as [[]|[?|[?|?]]]; discriminate).
  assert (Hne : forall cs, reaches numeric cs rest -> cs <> []).
  { intros x Hx. destruct Hx as [|? ? ? ? ?|? w ? ? Hl ?]; [exact Hr|discriminate|]. pose proof (lexeme_nonempty _ _ _ Hl). destruct w; [contradiction|discriminate]. }
  induction H as [cs|c cs rest Hb Hcs IH|ty w cs rest Hlex Hcs IH]; intros fuel line col Hf; (destruct fuel as [|fuel]; [lia|]).
  - cbn [tokenize_loop]. now rewrite (unreadable_panic _ _ _ Hun).
  - destruct (blank_step c cs line col Hb) as (line' & col' & Ho). rewrite (loop_step _ _ _ _ _ Ho). cbn [skipn]. cbn [List.length] in Hf.
    specialize (IH Hun Hr Hne fuel line' col' ltac:(lia)). specialize (Hne _ Hcs). destruct cs; [contradiction|]. now rewrite IH.
  - destruct (one_token_complete ty w cs line col Hlex) as (t & line' & col' & Ho & _). rewrite (loop_step _ _ _ _ _ Ho), skipn_app_l.
    pose proof (lexeme_nonempty _ _ _ Hlex) as Hw. assert (0 < List.length w)%nat by (destruct w; [contradiction|cbn; lia]). rewrite app_length in Hf.
    specialize (IH Hun Hr Hne fuel line' col' ltac:(lia)). specialize (Hne _ Hcs). destruct cs; [contradiction|]. now rewrite IH.
Qed.
End Proofs.

(* ------------------------------------------------------------------ *)
(* The properties                                                      *)
(* ------------------------------------------------------------------ *)
Section Facts.
Context (num : Z -> bool) (Hnum : numeric_table num).
Notation numeric := (fun c => num c = true).
Lemma C39_sound cs toks : tokenize num cs = Ok toks -> tokens_of numeric [] cs toks.
Proof. intros H. destruct Hnum as [H1 H2]. exact (loop_sound num H1 H2 _ [] _ _ _ _ H eq_refl). Qed.
Lemma C39_complete cs l : items numeric cs l -> cs <> [] -> exists toks, tokenize num cs = Ok toks /\ Forall2 token_of toks l.
Proof. intros H Hne. destruct Hnum as [H1 H2]. unfold tokenize. eapply loop_complete; try eassumption. lia. Qed.
Lemma C39_exact cs : cs <> [] -> (exists toks, tokenize num cs = Ok toks) <-> (exists l, items numeric cs l).
Proof.
  intros Hne. split.
  - intros (toks & H). apply C39_sound in H. destruct (tokens_items num  _ _ _ H) as (l & Hl & _). now exists l.
  - intros (l & H). destruct (C39_complete cs l H Hne) as (toks & Ht & _). now exists toks.
Qed.
Lemma C39_lossless cs toks : tokenize num cs = Ok toks -> exists l, Forall2 token_of toks l /\ visible cs = visible (List.concat (map snd l)).
Proof.
  intros H. apply C39_sound in H. destruct (tokens_items num  _ _ _ H) as (l & Hi & Hl). exists l. split; [exact Hl|]. exact (items_text num _ _ Hi).
Qed.
Lemma C39_increasing cs toks : tokenize num cs = Ok toks -> StronglySorted earlier toks.
Proof. intros H. destruct Hnum as [H1 H2]. exact (proj2 (loop_positions num H1 H2 _ _ _ _ _ H)). Qed.
Lemma C39_columns_of cs toks : tokenize num cs = Ok toks -> ~ In 0xFEFF cs -> Forall (fun t => tk_end_line t = tk_line t) toks -> columns_of numeric [] cs toks.
Proof. intros H H' H''. destruct Hnum as [H1 H2]. exact (loop_columns num H1 H2 _ [] _ _ _ _ H eq_refl H' H''). Qed.
Lemma C40_terminates_proof cs : tokenize num cs <> Diverge.
Proof. destruct Hnum as [H1 H2]. apply (loop_terminates num H1 H2). lia. Qed.
Lemma C40_exact cs : tokenize num cs = Panic <-> cs = [] \/ exists rest, reaches numeric cs rest /\ unreadable rest.
Proof.
  destruct Hnum as [H1 H2]. split; [apply (loop_panic num H1 H2)|]. intros [->|(rest & Hr & Hu)]; [reflexivity|].
  unfold tokenize. eapply loop_unreadable; try eassumption. lia.
Qed.
End Facts.
Lemma items_unique num (Hnum : numeric_table num) cs l l' : items (fun c => num c = true) cs l -> items (fun c => num c = true) cs l' -> map fst l = map fst l'.
Proof.
  intros H H'. destruct (list_eq_dec Z.eq_dec cs []) as [->|Hne].
  - assert (He : forall l, items (fun c => num c = true) [] l -> l = []).
    { intros x Hx. inversion Hx as [| |ty w rest l0 Hlex Hi Hw Hl]; [reflexivity|]. destruct w; [|discriminate]. exfalso. exact (lexeme_nonempty num _ _ _ Hlex eq_refl). }
    now rewrite (He _ H), (He _ H').
  - destruct (C39_complete num Hnum cs l H Hne) as (toks & Ht & HF). destruct (C39_complete num Hnum cs l' H' Hne) as (toks' & Ht' & HF').
    rewrite Ht in Ht'. injection Ht' as <-. clear - HF HF'. revert l' HF'. induction HF as [|t x ts l [H1 _] _ IH]; intros l' HF'; inversion HF' as [|? y ? l2 [H2 _] H3]; [reflexivity|].
    cbn [map]. f_equal; [congruence|now apply IH].
Qed.

(* "A ::= SEQUENCE { a INTEGER (0..10), -- the a<line> b B.&id } '0F'H "x"" *)
Definition C39_text : list Z :=
  text "A ::= SEQUENCE { a INTEGER (-5..10), -- the a" ++ [10] ++ text "  b B.&id } '0F'H " ++ [34] ++ text "x" ++ [34].
Lemma numeric_digits : numeric_table is_digit.
Proof. split; [intros c H; unfold digit in H; unfold is_digit; lia|reflexivity]. Qed.
Definition C39_tokens : list token := [
  mkToken Identifier 1 0 1 1 (text "A"); mkToken Assignment 1 2 1 5 (text "::="); mkToken Keyword 1 6 1 14 (text "SEQUENCE");
  mkToken CurlyBegin 1 15 1 16 (text "{"); mkToken Identifier 1 17 1 18 (text "a"); mkToken Keyword 1 19 1 26 (text "INTEGER");
  mkToken RoundBegin 1 27 1 28 (text "("); mkToken NumberInt 1 28 1 30 (text "-5"); mkToken RangeSeparator 1 30 1 32 (text "..");
  mkToken NumberInt 1 32 1 34 (text "10"); mkToken RoundEnd 1 34 1 35 (text ")"); mkToken Comma 1 35 1 36 (text ",");
  mkToken Comment 1 37 1 8 (text "-- the a"); mkToken Identifier 2 2 2 3 (text "b"); mkToken Identifier 2 4 2 5 (text "B"); mkToken Dot 2 5 2 6 (text ".");
  mkToken AndIdentifier 2 6 2 9 (text "&id"); mkToken CurlyEnd 2 10 2 11 (text "}"); mkToken HexString 2 12 2 16 (text "'0F'");
  mkToken TString 2 18 2 21 ([34] ++ text "x" ++ [34])].
Lemma C39_case_proof : tokenize is_digit C39_text = Ok C39_tokens /\ numeric_table is_digit /\
  Forall (fun t => tk_end_line t = tk_line t) C39_tokens /\ ~ In 0xFEFF C39_text /\ C39_text <> [] /\
  exists l, items (fun c => is_digit c = true) C39_text l /\ Forall2 token_of C39_tokens l.
Proof.
  assert (H : tokenize is_digit C39_text = Ok C39_tokens) by (vm_compute; reflexivity).
  split; [exact H|]. split; [exact numeric_digits|]. split; [repeat constructor|].
  split; [intros Hin; vm_compute in Hin; repeat (destruct Hin as [Hin|Hin]; [discriminate|]); exact Hin|]. split; [discriminate|].
  apply (C39_sound is_digit numeric_digits) in H. exact (tokens_items is_digit _ _ _ H).
Qed.
Lemma C40_case_proof : reaches (fun c => is_digit c = true) (text "A *") (text "*") /\ unreadable (text "*") /\
  tokenize is_digit (text "A :: =") = Err.
Proof.
  split.
  - change (text "A *") with (text "A" ++ text " *"). apply (R_item _ Identifier).
    + apply (L_word _ (text "A")); cbn; unfold letter, word, hyphen.
      * lia.
      * constructor; [|constructor]. unfold letter. lia.
      * intros (u & c & H & Hc). destruct u as [|? [|]]; try discriminate. injection H as <-. discriminate.
      * intros (u & c & H). destruct u as [|? [|]]; discriminate.
      * unfold letter, digit. lia.
    + change (text " *") with (32 :: text "*"). apply R_blank; [now left|]. apply R_here.
  - split; [|reflexivity]. left. cbn. unfold supported_char, blank, letter, digit. cbn [In]. lia.
Qed.
Lemma C39_hyphen_proof : tokenize is_digit (text "- a") = Ok [mkToken NumberInt 1 0 1 1 [45]; mkToken Identifier 1 2 1 3 (text "a")].
Proof. reflexivity. Qed.
Lemma C39_columns_refuted_proof : ~ (forall cs c toks t, tokenize is_digit (cs ++ [c]) = Ok (toks ++ [t]) -> tk_text t = [c] -> tk_column t = column 0 cs).
Proof.
  intros H. specialize (H (text "'A" ++ [10] ++ text "B'H ") 120 [mkToken HexString 1 0 2 2 (text "'AB'")] (mkToken Identifier 2 3 2 4 [120]) eq_refl eq_refl).
  discriminate.
Qed.
Lemma C40_panics_proof :
  tokenize is_digit [] = Panic /\ tokenize is_digit (text "A ::= [") = Panic /\ tokenize is_digit (text "A ]") = Panic /\
  tokenize is_digit (text "A -") = Panic /\ tokenize is_digit (text "A" ++ [13; 10]) = Panic /\ tokenize is_digit (text "A*B") = Panic.
Proof. repeat split; reflexivity. Qed.
