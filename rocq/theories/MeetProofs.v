(* Intersections of two ranges or numbers. *)
From Coq Require Import ZArith List Bool String Lia.
From Coq Require Import ZifyBool.
Require Import Verif.Base Verif.Asn1Model Verif.GenModel Verif.ResolveModel Verif.CompilerSpec Verif.ConstraintProofs Verif.CompilerFacts.
Import ListNotations.
Open Scope Z_scope.

Section Meet.
Context (E : env) (defs : list (string * rdef)) (inst : string -> list actual_param -> res rtype).
Notation V := (known defs).

Lemma range_element l u a b : value_of V l = Some a -> value_of V u = Some b -> - 2 ^ 127 <= a <= b -> b < 2 ^ 127 - 1 ->
  elements_values E V (rng l u) = Ok (mkCV [(a, b + 1)] []).
Proof.
  intros Ha Hb H1 H2. apply value_of_resolves in Ha, Hb. cbn [elements_values rng]. unfold range_values. rewrite Ha, Hb. cbn [rbind].
  rewrite arith_ok by lia. reflexivity.
Qed.
Lemma number_element v z : value_of V v = Some z -> elements_values E V (ESingle v) = Ok (mkCV [] [z]).
Proof. intros H. apply value_of_resolves in H. cbn [elements_values]. rewrite H. reflexivity. Qed.
Lemma two_elements x y X Y : elements_values E V x = Ok X -> elements_values E V y = Ok Y ->
  set_values E V (mkSet [[x; y]] None) = Ok (mkVS (intersect X Y) None).
Proof.
  intros HX HY. rewrite set_values_eq. unfold intersection. cbn [rfold]. rewrite HX. cbn [rbind]. rewrite HY, intersect_new. cbn [rbind].
  destruct (intersect X Y). reflexivity.
Qed.
Lemma one_element x X : elements_values E V x = Ok X -> set_values E V (mkSet [[x]] None) = Ok (mkVS X None).
Proof. intros HX. rewrite set_values_eq. cbn [rfold]. rewrite intersection_single, HX. cbn [rbind]. destruct X. reflexivity. Qed.
(* Sets with the same values give the same definitions. *)
Lemma same_integer s s' name st : set_values E V s = set_values E V s' ->
  definition_of E defs inst (integer_type s) name st = definition_of E defs inst (integer_type s') name st.
Proof.
  intros H. unfold definition_of, integer_type. cbn [resolve_type resolve_base]. unfold resolve_integer.
  change (type_values E V (mkType (KBuiltin BInteger) (Some [CSubtype s]))) with (set_values E V s).
  change (type_values E V (mkType (KBuiltin BInteger) (Some [CSubtype s']))) with (set_values E V s'). now rewrite H.
Qed.
Lemma no_values_panics s name st : set_values E V s = Ok (mkVS cv_new None) -> definition_of E defs inst (integer_type s) name st = Panic.
Proof.
  intros H. unfold definition_of, integer_type. cbn [resolve_type resolve_base]. unfold resolve_integer.
  change (type_values E V (mkType (KBuiltin BInteger) (Some [CSubtype s]))) with (set_values E V s). rewrite H. reflexivity.
Qed.
Lemma meet_ranges X a b c d : X = (a, b + 1) -> intersect (mkCV [X] []) (mkCV [(c, d + 1)] []) = if (a =? c) && (b =? d) then mkCV [X] [] else cv_new.
Proof.
  intros ->. unfold intersect. cbn [cv_is_empty values ranges filter contains_range existsb fst snd]. replace (b + 1 =? d + 1) with (b =? d) by lia.
  destruct ((a =? c) && (b =? d)); reflexivity.
Qed.
Lemma two_ranges_proof l u l' u' a b c d name st :
  value_of V l = Some a -> value_of V u = Some b -> - 2 ^ 127 < a <= b -> b < 2 ^ 127 - 1 ->
  value_of V l' = Some c -> value_of V u' = Some d -> - 2 ^ 127 < c <= d -> d < 2 ^ 127 - 1 ->
  definition_of E defs inst (integer_type (mkSet [[ERange l true u true; ERange l' true u' true]] None)) name st =
  if (a =? c) && (b =? d) then Ok (GInteger (chosen_width a b) (a <? 0) (Some a) (Some b) false, st) else Panic.
Proof.
  intros Ha Hb H1 H2 Hc Hd H3 H4.
  assert (Hx := range_element l u a b Ha Hb ltac:(lia) H2). assert (Hy := range_element l' u' c d Hc Hd ltac:(lia) H4).
  assert (Hs := two_elements _ _ _ _ Hx Hy). rewrite (meet_ranges _ a b c d eq_refl) in Hs. unfold rng in *.
  destruct ((a =? c) && (b =? d)).
  - rewrite (same_integer _ (mkSet [[rng l u]] None)) by (rewrite Hs; symmetry; apply one_element; exact Hx).
    rewrite (C32_integer_proof E defs inst (mkSet [[rng l u]] None) a b name st); [reflexivity| |lia|lia]. apply single_range; [exact Ha|exact Hb|lia|lia].
  - now apply no_values_panics.
Qed.
Lemma single_number v z : value_of V v = Some z -> bounds_are V (mkSet [[ESingle v]] None) z z.
Proof.
  intros H. assert (Hin : forall x, set_permits V (mkSet [[ESingle v]] None) x <-> x = z).
  { intros x. cbn [set_permits any all permits]. rewrite H. split; [intros [[Hx _]|[]]; congruence|intros ->; now left]. }
  split; [|split; [|split]].
  - cbn [regular_set all regular]. repeat split. now exists z.
  - exists true. cbn. auto.
  - split; [now apply Hin|]. intros x Hx. apply Hin in Hx. lia.
  - split; [now apply Hin|]. intros x Hx. apply Hin in Hx. lia.
Qed.
Lemma two_numbers_proof v w y z name st : value_of V v = Some y -> value_of V w = Some z -> - 2 ^ 127 < y < 2 ^ 127 ->
  definition_of E defs inst (integer_type (mkSet [[ESingle v; ESingle w]] None)) name st =
  if y =? z then Ok (GInteger (chosen_width y y) (y <? 0) (Some y) (Some y) false, st) else Panic.
Proof.
  intros Hv Hw H1. assert (Hs := two_elements _ _ _ _ (number_element v y Hv) (number_element w z Hw)).
  unfold intersect in Hs. cbn [cv_is_empty values ranges filter contains_value existsb] in Hs.
  destruct (y =? z); cbn [orb] in Hs.
  - rewrite (same_integer _ (mkSet [[ESingle v]] None)) by (rewrite Hs; symmetry; apply one_element, number_element; exact Hv).
    rewrite (C32_integer_proof E defs inst (mkSet [[ESingle v]] None) y y name st); [reflexivity| |lia|lia]. now apply single_number.
  - now apply no_values_panics.
Qed.
Lemma range_and_number_proof l u w a b z name st : value_of V l = Some a -> value_of V u = Some b -> - 2 ^ 127 <= a <= b -> b < 2 ^ 127 - 1 ->
  value_of V w = Some z ->
  definition_of E defs inst (integer_type (mkSet [[ERange l true u true; ESingle w]] None)) name st = Panic /\
  definition_of E defs inst (integer_type (mkSet [[ESingle w; ERange l true u true]] None)) name st = Panic.
Proof.
  intros Ha Hb H1 H2 Hw. assert (Hx := range_element l u a b Ha Hb H1 H2). assert (Hy := number_element w z Hw). unfold rng in *.
  split; apply no_values_panics; [rewrite (two_elements _ _ _ _ Hx Hy)|rewrite (two_elements _ _ _ _ Hy Hx)]; reflexivity.
Qed.
Lemma three_elements x y z X Y Z' : elements_values E V x = Ok X -> elements_values E V y = Ok Y -> elements_values E V z = Ok Z' ->
  set_values E V (mkSet [[x; y; z]] None) = Ok (mkVS (intersect (intersect X Y) Z') None).
Proof.
  intros HX HY HZ. rewrite set_values_eq. unfold intersection. cbn [rfold]. rewrite HX. cbn [rbind]. rewrite HY, intersect_new. cbn [rbind].
  rewrite HZ. cbn [rbind]. destruct (intersect (intersect X Y) Z'). reflexivity.
Qed.
Lemma third_range_proof l u l' u' l'' u'' a b c d e f name st :
  value_of V l = Some a -> value_of V u = Some b -> - 2 ^ 127 < a <= b -> b < 2 ^ 127 - 1 ->
  value_of V l' = Some c -> value_of V u' = Some d -> - 2 ^ 127 < c <= d -> d < 2 ^ 127 - 1 ->
  value_of V l'' = Some e -> value_of V u'' = Some f -> - 2 ^ 127 < e <= f -> f < 2 ^ 127 - 1 ->
  (a <> c \/ b <> d) ->
  definition_of E defs inst (integer_type (mkSet [[ERange l true u true; ERange l' true u' true; ERange l'' true u'' true]] None)) name st =
  Ok (GInteger (chosen_width e f) (e <? 0) (Some e) (Some f) false, st).
Proof.
  intros Ha Hb H1 H2 Hc Hd H3 H4 He Hf H5 H6 Hn.
  assert (Hx := range_element l u a b Ha Hb ltac:(lia) H2). assert (Hy := range_element l' u' c d Hc Hd ltac:(lia) H4).
  assert (Hz := range_element l'' u'' e f He Hf ltac:(lia) H6).
  assert (Hs := three_elements _ _ _ _ _ _ Hx Hy Hz). rewrite (meet_ranges _ a b c d eq_refl) in Hs.
  replace ((a =? c) && (b =? d)) with false in Hs by lia. rewrite intersect_new in Hs. unfold rng in *.
  rewrite (same_integer _ (mkSet [[rng l'' u'']] None)) by (rewrite Hs; symmetry; apply one_element; exact Hz).
  rewrite (C32_integer_proof E defs inst (mkSet [[rng l'' u'']] None) e f name st); [reflexivity| |lia|lia]. apply single_range; [exact He|exact Hf|lia|lia].
Qed.
Lemma same_fold rs a b : - 2 ^ 127 < a <= b -> b < 2 ^ 127 - 1 ->
  Forall (fun r => value_of V (fst r) = Some a /\ value_of V (snd r) = Some b) rs ->
  rfold (fun acc e => v <-- elements_values E V e ;; Ok (intersect acc v)) (mkCV [(a, b + 1)] []) (map (fun r => ERange (fst r) true (snd r) true) rs) =
  Ok (mkCV [(a, b + 1)] []).
Proof.
  intros H1 H2 H. induction H as [|r rs [Ha Hb] _ IH]; [reflexivity|]. cbn [map rfold].
  assert (Hx := range_element (fst r) (snd r) a b Ha Hb ltac:(lia) H2). unfold rng in Hx. rewrite Hx. cbn [rbind].
  rewrite (meet_ranges _ a b a b eq_refl), !Z.eqb_refl. cbn [andb]. exact IH.
Qed.
Lemma same_ranges_proof rs a b name st : rs <> [] -> - 2 ^ 127 < a <= b -> b < 2 ^ 127 - 1 ->
  Forall (fun r => value_of V (fst r) = Some a /\ value_of V (snd r) = Some b) rs ->
  definition_of E defs inst (integer_type (mkSet [map (fun r => ERange (fst r) true (snd r) true) rs] None)) name st =
  Ok (GInteger (chosen_width a b) (a <? 0) (Some a) (Some b) false, st).
Proof.
  intros Hne H1 H2 H. destruct rs as [|r rs]; [now destruct Hne|]. inversion H as [|? ? [Ha Hb] Hr]; subst.
  assert (Hx := range_element (fst r) (snd r) a b Ha Hb ltac:(lia) H2).
  rewrite (same_integer _ (mkSet [[rng (fst r) (snd r)]] None)).
  - rewrite (C32_integer_proof E defs inst (mkSet [[rng (fst r) (snd r)]] None) a b name st); [reflexivity| |lia|lia]. apply single_range; [exact Ha|exact Hb|lia|lia].
  - rewrite (one_element _ _ Hx). unfold rng in Hx. rewrite set_values_eq. cbn [map rfold]. unfold intersection. cbn [rfold]. rewrite Hx. cbn [rbind].
    rewrite intersect_new. assert (Hs := same_fold rs a b H1 H2 Hr). rewrite Hs. reflexivity.
Qed.
End Meet.
