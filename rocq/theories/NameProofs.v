(* Keys, presence indices and names given out by the generator. *)
From Coq Require Import ZArith NArith List Bool String Ascii Lia DecimalString Decimal DecimalFacts DecimalN.
From Coq Require Import ZifyBool ZifyNat ZifyN FinFun.
Require Import Verif.Base Verif.DeriveModel Verif.DeriveSpec Verif.Asn1Model Verif.GenModel Verif.CompilerSpec
  Verif.ConstraintProofs Verif.GenProofs.
Import ListNotations.
Open Scope Z_scope.

Lemma counting_from i n : map (fun k => i + Z.of_nat k) (seq 0 (S n)) = i :: map (fun k => (i + 1) + Z.of_nat k) (seq 0 n).
Proof.
  cbn [seq map]. f_equal; [lia|]. rewrite <- seq_shift, map_map. apply map_ext. intros. lia.
Qed.
Lemma counting_eq n : counting n = map (fun k => 0 + Z.of_nat k) (seq 0 n).
Proof. unfold counting. apply map_ext. intros. lia. Qed.

Lemma choice_tokens_spec E name x : forall l i s vs s', choice_tokens E name x i l s = Ok (vs, s') ->
  map gv_key vs = map (fun k => i + Z.of_nat k) (seq 0 (List.length l)) /\
  map gv_name vs = map (fun p => to_type_ident (fst p)) l /\ Forall (fun v => gv_extended v = x) vs.
Proof.
  induction l as [|[id t] l IH]; intros i s vs s' H.
  - cbn in H. gsteps. cbn. auto.
  - rewrite choice_tokens_cons in H. gsteps. destruct (IH _ _ _ _ H1) as (Hk & Hn & Hx).
    cbn [List.length]. rewrite counting_from. cbn [map gv_key gv_name fst]. rewrite Hk, Hn. auto.
Qed.

Theorem choice_numbers E root additions name s d s' :
  root <> [] -> zlen root < 2 ^ 64 ->
  generate_for_type E (RChoice root additions) name s = Ok (d, s') ->
  exists vs ws, d = GChoice 0 (zlen root - 1) (is_some additions) (vs ++ ws) /\
    map gv_key vs = counting (List.length root) /\
    map gv_name vs = map (fun p => to_type_ident (fst p)) root /\
    Forall (fun v => gv_extended v = false) vs /\
    map gv_key ws = counting (match additions with Some l => List.length l | None => 0 end) /\
    map gv_name ws = match additions with Some l => map (fun p => to_type_ident (fst p)) l | None => [] end /\
    Forall (fun v => gv_extended v = true) ws.
Proof.
  intros Hne Hb H. rewrite generate_choice in H. gsteps.
  apply arith_usize_len in H2; [|exact Hne|exact Hb]. subst.
  exists x, x1. destruct (choice_tokens_spec E _ _ _ _ _ _ _ H0) as (Hk & Hn & Hx).
  rewrite counting_eq. split; [now destruct additions|]. split; [exact Hk|]. split; [exact Hn|]. split; [exact Hx|].
  destruct additions as [l|].
  - destruct (choice_tokens_spec E _ _ _ _ _ _ _ H1) as (Hk' & Hn' & Hx'). rewrite counting_eq. auto.
  - gsteps. cbn. auto.
Qed.

Lemma seq_tokens_spec E name : forall l n s p s', seq_tokens E name n l s = Ok (p, s') ->
  map (fun f => is_some (gf_optional f)) (fst p) = map rc_optional l /\
  map gf_key (fst p) = map rc_key l /\
  map gf_name (fst p) = map (fun c => to_value_ident (rc_id c)) l /\
  somes (map gf_optional (fst p)) = map (fun k => n + Z.of_nat k) (seq 0 (List.length (filter rc_optional l))) /\
  snd p = n + zlen (filter rc_optional l).
Proof.
  induction l as [|[id t o k] l IH]; intros n s p s' H.
  - cbn in H. gsteps. cbn. repeat split. unfold zlen. cbn. lia.
  - rewrite seq_tokens_cons in H. gsteps. destruct (IH _ _ _ _ H1) as (H2 & H3 & H4 & H5 & H6).
    cbn [map fst snd gf_optional gf_key gf_name rc_optional rc_key rc_id filter]. rewrite H2, H3, H4, H6.
    destruct o; cbn [is_some somes map].
    + rewrite H5. cbn [List.length]. rewrite counting_from. repeat split. unfold zlen. cbn [List.length]. lia.
    + rewrite H5. repeat split.
Qed.

Theorem sequence_numbers E ext comps name s d s' :
  generate_for_type E (RSequence ext comps) name s = Ok (d, s') ->
  exists n fs, d = GSequence ext n fs /\
    map (fun f => is_some (gf_optional f)) fs = map rc_optional comps /\
    somes (map gf_optional fs) = counting (List.length (filter rc_optional comps)) /\
    n = (if 0 <? zlen (filter rc_optional comps) then Some (zlen (filter rc_optional comps)) else None) /\
    map gf_key fs = map rc_key comps /\
    map gf_name fs = map (fun c => to_value_ident (rc_id c)) comps.
Proof.
  intros H. rewrite generate_seq in H. gsteps. destruct (seq_tokens_spec E _ _ _ _ _ _ H0) as (H2 & H3 & H4 & H5 & H6).
  eexists _, _. split; [reflexivity|]. rewrite counting_eq, H6. auto.
Qed.

Lemma counting_bounds n k : In k (counting n) <-> 0 <= k < Z.of_nat n.
Proof.
  unfold counting. rewrite in_map_iff. split.
  - intros (x & <- & Hx). apply in_seq in Hx. lia.
  - intros H. exists (Z.to_nat k). rewrite in_seq. lia.
Qed.
Lemma counting_nodup n : NoDup (counting n).
Proof.
  unfold counting. apply FinFun.Injective_map_NoDup; [intros a b; lia|apply seq_NoDup].
Qed.

(* ------------------------------------------------------------------ *)
(* Strings                                                             *)
(* ------------------------------------------------------------------ *)
Lemma chars_app a b : chars (a ++ b) = chars a ++ chars b.
Proof. induction a; cbn; congruence. Qed.
Lemma chars_inj a : forall b, chars a = chars b -> a = b.
Proof. induction a as [|c a IH]; destruct b; cbn; intros H; try easy. injection H as -> H. f_equal. auto. Qed.
Lemma chars_smap f s : chars (smap f s) = map f (chars s).
Proof. induction s; cbn; congruence. Qed.

Lemma uint_digits d : Forall (fun c => is_digit c = true) (chars (NilZero.string_of_uint d)).
Proof.
  unfold NilZero.string_of_uint.
  assert (H : forall d, Forall (fun c => is_digit c = true) (chars (NilEmpty.string_of_uint d))).
  { clear. induction d; cbn; constructor; auto. }
  destruct d; try apply H. cbn. now constructor.
Qed.
Lemma decimal_digits n : Forall (fun c => is_digit c = true) (chars (decimal n)).
Proof. apply uint_digits. Qed.
Lemma decimal_inj a b : decimal a = decimal b -> a = b.
Proof.
  unfold decimal. intros H.
  assert (Hs : forall d, d <> Nil -> NilZero.uint_of_string (NilZero.string_of_uint d) = Some d) by (intros; now apply NilZero.usu).
  assert (Hn : forall n, N.to_uint n <> Nil).
  { intros n. destruct n; cbn; [discriminate|]. apply DecimalPos.Unsigned.to_uint_nonnil. }
  assert (N.to_uint a = N.to_uint b).
  { pose proof (Hs _ (Hn a)) as Ha. pose proof (Hs _ (Hn b)) as Hb. rewrite H in Ha. congruence. }
  now apply Unsigned.to_uint_inj.
Qed.

(* a digit string after a separator determines where it starts *)
Lemma split_last (sep : ascii -> bool) (c c' : ascii) : sep c = true -> sep c' = true -> forall a b x y,
  Forall (fun c => sep c = false) x -> Forall (fun c => sep c = false) y ->
  a ++ c :: x = b ++ c' :: y -> a = b /\ x = y.
Proof.
  intros Hc Hc'. induction a as [|p a IH]; intros b x y Hx Hy H.
  - destruct b as [|q b]; cbn in H; [injection H as -> ->; auto|].
    injection H as -> H. subst x. apply Forall_app in Hx. destruct Hx as [_ Hx]. inversion_clear Hx. congruence.
  - destruct b as [|q b]; cbn in H.
    + injection H as -> H. subst y. apply Forall_app in Hy. destruct Hy as [_ Hy]. inversion_clear Hy. congruence.
    + injection H as -> H. destruct (IH b x y Hx Hy H) as [-> ->]. auto.
Qed.

Definition ident_char (c : ascii) : ascii := if Ascii.eqb c "-" || Ascii.eqb c " " then "_"%char else c.
Lemma to_type_ident_chars s : chars (to_type_ident s) = map ident_char (chars (capitalize_first s)).
Proof. unfold to_type_ident. now rewrite chars_smap. Qed.

Lemma digit_ident c : is_digit c = true -> ident_char c = c /\ Ascii.eqb c "_" = false.
Proof. destruct c as [[] [] [] [] [] [] [] []]; vm_compute; intros; auto; discriminate. Qed.

Lemma capitalize_app a c r : exists a', chars (capitalize_first (a ++ String c r)) = a' ++ (match a with EmptyString => to_upper c | _ => c end) :: chars r
  /\ a' = chars (capitalize_first a).
Proof. destruct a as [|p a]; cbn; [now exists []|]. eexists. split; [|reflexivity]. rewrite chars_app. reflexivity. Qed.

Lemma unique_name_ident base n m m' base' :
  to_type_ident (base ++ " " ++ decimal n) = to_type_ident (base' ++ " " ++ decimal m) -> m = m' -> n = m'.
Proof.
  intros H <-. apply (f_equal chars) in H. rewrite !to_type_ident_chars in H. cbn [append] in H.
  destruct (capitalize_app base " " (decimal n)) as (a & Ha & _). rewrite Ha in H.
  destruct (capitalize_app base' " " (decimal m)) as (b & Hb & _). rewrite Hb in H.
  rewrite !map_app in H. cbn [map] in H.
  assert (Hsp : forall (z : string), ident_char (match z with EmptyString => to_upper " " | _ => " "%char end) = "_"%char)
    by (intros []; reflexivity).
  rewrite !Hsp in H.
  assert (Hd : forall k, map ident_char (chars (decimal k)) = chars (decimal k)).
  { intros k. pose proof (decimal_digits k) as F. induction F as [|c l Hc _ IH]; cbn; [easy|].
    rewrite IH. f_equal. now apply digit_ident. }
  rewrite !Hd in H.
  apply (split_last (fun c => Ascii.eqb c "_")) in H; try reflexivity.
  - destruct H as [_ H]. apply chars_inj in H. now apply decimal_inj.
  - eapply Forall_impl; [|apply decimal_digits]. intros c Hc. now apply digit_ident.
  - eapply Forall_impl; [|apply decimal_digits]. intros c Hc. now apply digit_ident.
Qed.

Lemma unique_names_spec : forall l s us s', unique_names l s = Ok (us, s') ->
  (counter s <= counter s')%N /\
  forall u, In u us -> exists base n, u = (base ++ " " ++ decimal n)%string /\ (counter s < n <= counter s')%N.
Proof.
  induction l as [|b l IH]; intros s us s' H; cbn [unique_names] in H; gsteps.
  - split; [lia|]. intros u [].
  - unfold get_unique_name in H0. injection H0 as <- <-. destruct (IH _ _ _ H1) as [Hle Hu]. cbn [counter] in *.
    split; [lia|]. intros u [<-|Hin].
    + exists b, (counter s + 1)%N. split; [reflexivity|lia].
    + destruct (Hu u Hin) as (base & n & -> & Hn). exists base, n. split; [reflexivity|lia].
Qed.
Theorem unique_names_nodup l s us s' : unique_names l s = Ok (us, s') -> NoDup (map to_type_ident us).
Proof.
  revert s us s'. induction l as [|b l IH]; intros s us s' H; cbn [unique_names] in H; gsteps; [constructor|].
  unfold get_unique_name in H0. injection H0 as <- <-. pose proof (unique_names_spec _ _ _ _ H1) as [_ Hu].
  cbn [map]. constructor; [|eapply IH; eassumption].
  intros Hin. apply in_map_iff in Hin. destruct Hin as (u & Heq & Hin). destruct (Hu u Hin) as (base & n & -> & Hn).
  cbn [counter] in Hn. pose proof (unique_name_ident _ _ _ _ _ Heq eq_refl). lia.
Qed.
Theorem unique_names_total l s : exists us s', unique_names l s = Ok (us, s') /\ List.length us = List.length l.
Proof.
  revert s. induction l as [|b l IH]; intros s; [now eexists _, _|].
  destruct (IH (mkG (counter s + 1)%N (aux_items s))) as (us & s' & H & Hl).
  cbn [unique_names]. unfold gbind at 1. unfold get_unique_name. unfold gbind. rewrite H. eexists _, _. split; [reflexivity|].
  cbn. now rewrite Hl.
Qed.

(* a generated name is not the Rust name of a type reference without hyphens *)
Theorem unique_name_fresh base n s : Forall (fun c => is_alnum c = true) (chars s) ->
  to_type_ident (base ++ " " ++ decimal n) <> to_type_ident s.
Proof.
  intros Hs H. apply (f_equal chars) in H. rewrite !to_type_ident_chars in H. cbn [append] in H.
  destruct (capitalize_app base " " (decimal n)) as (a & Ha & _). rewrite Ha in H.
  assert (Hin : In "_"%char (map ident_char (chars (capitalize_first s)))).
  { rewrite <- H, map_app. apply in_app_iff. right. left. now destruct base. }
  apply in_map_iff in Hin. destruct Hin as (c & Hc & Hin).
  assert (Halnum : is_alnum c = true).
  { destruct s as [|c0 s]; cbn in *; [easy|]. inversion_clear Hs as [|? ? H0 Hr]. destruct Hin as [<-|Hin].
    - clear - H0. destruct c0 as [[] [] [] [] [] [] [] []]; vm_compute in *; auto.
    - rewrite Forall_forall in Hr. auto. }
  clear - Hc Halnum. destruct c as [[] [] [] [] [] [] [] []]; vm_compute in *; discriminate.
Qed.

(* distinct type references have distinct Rust names *)
Theorem type_names_distinct s t : type_reference s -> type_reference t -> to_type_ident s = to_type_ident t -> s = t.
Proof.
  unfold type_reference. intros Hs Ht H. apply (f_equal chars) in H. rewrite !to_type_ident_chars in H.
  assert (Hcap : forall s, type_reference s -> chars (capitalize_first s) = chars s).
  { intros [|c r] Hr; [easy|]. cbn in *. f_equal. destruct Hr as [Hu _]. unfold to_upper.
    replace (is_lower c) with false; [easy|]. unfold is_lower, is_upper in *. lia. }
  rewrite !Hcap in H by assumption. apply chars_inj.
  assert (Fs : Forall (fun c => is_alnum c = true \/ c = "-"%char) (chars s)) by (destruct (chars s); [constructor|apply Hs]).
  assert (Ft : Forall (fun c => is_alnum c = true \/ c = "-"%char) (chars t)) by (destruct (chars t); [constructor|apply Ht]).
  clear - H Fs Ft. revert Fs Ft H. generalize (chars s) (chars t). intros l m Fs. revert m.
  induction Fs as [|c l Hc _ IH]; intros m Ft H; destruct m as [|d m]; try easy.
  inversion_clear Ft as [|? ? Hd Hm]. cbn [map] in H. injection H as Hcd H. rewrite (IH m Hm H). f_equal.
  clear - Hc Hd Hcd. unfold ident_char in Hcd.
  assert (Ha : forall x, is_alnum x = true -> Ascii.eqb x "-" = false /\ Ascii.eqb x " " = false /\ x <> "_"%char).
  { intros x. destruct x as [[] [] [] [] [] [] [] []]; vm_compute; intros; repeat split; try easy; discriminate. }
  destruct Hc as [Hc| ->], Hd as [Hd| ->].
  - destruct (Ha c Hc) as (E1 & E2 & _). destruct (Ha d Hd) as (E3 & E4 & _). now rewrite E1, E2, E3, E4 in Hcd.
  - destruct (Ha c Hc) as (E1 & E2 & E3). rewrite E1, E2 in Hcd. cbn in Hcd. congruence.
  - destruct (Ha d Hd) as (E1 & E2 & E3). rewrite E1, E2 in Hcd. cbn in Hcd. congruence.
  - reflexivity.
Qed.
(* and so have distinct identifiers *)
Lemma ident_char_inj l : Forall (fun c => is_alnum c = true \/ c = "-"%char) l -> forall m,
  Forall (fun c => is_alnum c = true \/ c = "-"%char) m -> map ident_char l = map ident_char m -> l = m.
Proof.
  intros Fs. induction Fs as [|c l Hc _ IH]; intros m Ft H; destruct m as [|d m]; try easy.
  inversion_clear Ft as [|? ? Hd Hm]. cbn [map] in H. injection H as Hcd H. rewrite (IH m Hm H). f_equal.
  clear - Hc Hd Hcd. unfold ident_char in Hcd.
  assert (Ha : forall x, is_alnum x = true -> Ascii.eqb x "-" = false /\ Ascii.eqb x " " = false /\ x <> "_"%char).
  { intros x. destruct x as [[] [] [] [] [] [] [] []]; vm_compute; intros; repeat split; try easy; discriminate. }
  destruct Hc as [Hc| ->], Hd as [Hd| ->].
  - destruct (Ha c Hc) as (E1 & E2 & _). destruct (Ha d Hd) as (E3 & E4 & _). now rewrite E1, E2, E3, E4 in Hcd.
  - destruct (Ha c Hc) as (E1 & E2 & E3). rewrite E1, E2 in Hcd. cbn in Hcd. congruence.
  - destruct (Ha d Hd) as (E1 & E2 & E3). rewrite E1, E2 in Hcd. cbn in Hcd. congruence.
  - reflexivity.
Qed.
Theorem identifier_names_distinct s t : identifier s -> identifier t -> to_type_ident s = to_type_ident t -> s = t.
Proof.
  unfold identifier. intros Hs Ht H. apply (f_equal chars) in H. rewrite !to_type_ident_chars in H.
  destruct s as [|c s]; [contradiction|]. destruct t as [|d t]; [contradiction|]. cbn [chars capitalize_first map] in *.
  destruct Hs as [Hc Hs], Ht as [Hd Ht]. inversion_clear Hs as [|? ? _ Fs]. inversion_clear Ht as [|? ? _ Ft].
  injection H as Hcd H. apply ident_char_inj in H; try assumption. apply chars_inj in H. subst t. f_equal.
  clear - Hc Hd Hcd.
  assert (Hup : forall x, is_lower x = true -> ident_char (to_upper x) = ascii_of_N (N_of_ascii x - 32) /\ (97 <= N_of_ascii x <= 122)%N).
  { intros x. destruct x as [[] [] [] [] [] [] [] []]; vm_compute; intros Hx; try discriminate Hx; repeat split; discriminate. }
  destruct (Hup c Hc) as [E1 B1], (Hup d Hd) as [E2 B2]. rewrite E1, E2 in Hcd.
  apply (f_equal N_of_ascii) in Hcd. rewrite !N_ascii_embedding in Hcd by lia.
  rewrite <- (ascii_N_embedding c), <- (ascii_N_embedding d). f_equal. lia.
Qed.
