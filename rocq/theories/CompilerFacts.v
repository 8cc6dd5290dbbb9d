(* The facts about the compiler that Theorems_Compiler.v states. *)
From Coq Require Import ZArith NArith List Bool String Ascii Permutation Lia.
From Coq Require Import ZifyBool ZifyNat ZifyN.
Require Import Verif.Base Verif.CodecModel Verif.Spec Verif.ApiSpec Verif.DeriveModel Verif.DeriveSpec Verif.Asn1Model Verif.GenModel Verif.ResolveModel
  Verif.ModuleModel Verif.DefinitionModel Verif.CompilerSpec Verif.ConstraintProofs Verif.GenProofs Verif.NameProofs Verif.TopoProofs
  Verif.ResolveProofs Verif.ModuleProofs Verif.UniqueProofs Verif.OpenProofs Verif.Api Verif.DeriveFacts Verif.ApiProofs Verif.DeriveProofs Verif.DeriveInversion.
Import ListNotations.
Open Scope Z_scope.

(* ------------------------------------------------------------------ *)
(* C32, C33                                                            *)
(* ------------------------------------------------------------------ *)
Section Bounds.
Context (E : env) (defs : list (string * rdef)) (inst : string -> list actual_param -> res rtype).
Notation V := (known defs).

Lemma C32_integer_proof s l u name st : bounds_are V s l u -> - 2 ^ 127 < l -> u < 2 ^ 127 ->
  definition_of E defs inst (integer_type s) name st =
  Ok (GInteger (chosen_width l u) (l <? 0) (Some l) (Some u) (extensible_set s), st).
Proof.
  intros (Hreg & (b & Hb) & Hl & Hu) H1 H2.
  destruct (integer_type_resolves E V s b l u Hreg Hb Hl Hu H1 H2) as (i & Hr & _ & Hg).
  unfold definition_of, integer_type in *. cbn [resolve_type resolve_base]. rewrite Hr. cbn [rbind generate_for_type].
  unfold glift. now rewrite Hg.
Qed.
Lemma C32_integer_mixed_proof s l name st d st' : regular_set V s -> is_least (set_permits V s) l ->
  definition_of E defs inst (integer_type s) name st = Ok (d, st') ->
  exists w sg u, d = GInteger w sg (Some l) (Some u) (extensible_set s) /\ set_permits V s u.
Proof.
  intros Hreg Hl H. unfold definition_of, integer_type in H. cbn [resolve_type resolve_base] in H.
  destruct (resolve_integer E V (mkType (KBuiltin BInteger) (Some [CSubtype s]))) as [i| | |] eqn:Hi; try discriminate.
  cbn [rbind generate_for_type] in H. unfold resolve_integer in Hi.
  change (type_values E V (mkType (KBuiltin BInteger) (Some [CSubtype s]))) with (set_values E V s) in Hi.
  destruct (set_values E V s) as [vs| | |] eqn:Hvs; try discriminate. cbn [rbind] in Hi.
  pose proof (lower_bound E V s vs Hreg Hvs) as Hmin.
  destruct (upper_bound_permitted E V s vs Hreg Hvs) as (o & Ho & Hmax).
  pose proof (set_values_ext E V s vs Hvs) as Hext.
  assert (Hic : int_constraints i = Some vs).
  { destruct (if _ : bool then _ else _); try discriminate. cbn [rbind] in Hi. injection Hi as <-. reflexivity. }
  unfold glift, generate_integer in H. rewrite Hic, Ho in H. cbn [rbind] in H. injection H as <- <-.
  destruct (cv_min (root_values vs)) as [l'|]; [|destruct (Hmin l); apply Hl].
  assert (l' = l) by (eapply least_unique; eassumption). subst l'.
  destruct o as [u|]; [|destruct (Hmax l); apply Hl]. rewrite Hext. eauto.
Qed.
Lemma size_attrs_known s l u strict : bounds_are V s l u ->
  exists sz, resolve_size E defs strict (Some [size_constraint s]) = Ok sz /\
    size_attributes E sz = Ok (Some (extensible_set s, Some l, Some u)).
Proof.
  intros Hb. destruct (bounds_values E V s l u Hb) as (vs & Hvs & Hmin & Hmax & Hext).
  exists (Some vs). cbn [resolve_size size_constraint is_size_constraint rbind size_values].
  rewrite Hvs. cbn [rbind size_attributes]. rewrite Hmax, Hmin, Hext. auto.
Qed.
Lemma C32_sizes_proof s l u name st : bounds_are V s l u ->
  let size := Some (extensible_set s, Some l, Some u) in
  definition_of E defs inst (mkType (KBuiltin BBitString) (Some [size_constraint s])) name st = Ok (GBitString size, st) /\
  definition_of E defs inst (mkType (KBuiltin BOctetString) (Some [size_constraint s])) name st = Ok (GOctetString size, st) /\
  forall ty, definition_of E defs inst (mkType (KBuiltin (BCharacterString ty)) (Some [size_constraint s])) name st = Ok (GCharString ty size, st).
Proof.
  intros Hb. cbv zeta. unfold definition_of. cbn [resolve_type resolve_base].
  destruct (size_attrs_known s l u false Hb) as (sz & H1 & H2). destruct (size_attrs_known s l u true Hb) as (sz' & H3 & H4).
  rewrite H1. cbn [rbind generate_for_type]. unfold gsize, gbind, glift. rewrite H2. cbn [rbind]. repeat split.
  intros ty. rewrite H3. cbn [rbind generate_for_type]. unfold gsize, gbind, glift. rewrite H4. reflexivity.
Qed.
Lemma C32_sequence_of_proof s l u t name st d st' : bounds_are V s l u ->
  definition_of E defs inst (mkType (KSequenceOf (Some (size_constraint s)) t) None) name st = Ok (d, st') ->
  exists element, d = GSequenceOf (Some (extensible_set s, Some l, Some u)) element.
Proof.
  intros Hb H. unfold definition_of in H. cbn [resolve_type] in H.
  destruct (resolve_type E defs inst t) as [r| | |]; try discriminate. cbn [rbind] in H.
  destruct (bounds_values E V s l u Hb) as (vs & Hvs & Hmin & Hmax & Hext).
  cbn [size_constraint size_values] in H. rewrite Hvs in H. cbn [rbind generate_for_type] in H.
  unfold gbind at 1, glift in H. cbn [size_attributes] in H. rewrite Hmax, Hmin, Hext in H. cbn [rbind] in H.
  apply gbind_ok in H. destruct H as (a & s1 & _ & H). apply gret_ok in H. destruct H as [-> _]. eauto.
Qed.
End Bounds.

Definition run (t : asn_type) : res gdef :=
  p <-- definition_of {| overflow_checks := true; little_endian := true |} [] no_instances t "T" new_generator ;; Ok (fst p).
Definition num (z : string) := [ESingle z].
Definition rng (l u : string) := ERange l true u true.

Definition C32_mixed_set := mkSet [[rng "0" "10"]; num "20"] None.
Lemma C32_mixed_refuted_proof :
  run (integer_type C32_mixed_set) = Ok (GInteger 8 false (Some 0) (Some 10) false) /\
  set_permits (known []) C32_mixed_set 20.
Proof. split; [vm_compute; reflexivity|]. right. left. split; [reflexivity|exact I]. Qed.
Definition C32_meet_set := mkSet [[rng "0" "10"; rng "5" "20"]] None.
Lemma C32_meet_refuted_proof :
  run (integer_type C32_meet_set) = Panic /\
  run (mkType (KBuiltin BOctetString) (Some [size_constraint C32_meet_set])) = Ok (GOctetString (Some (false, None, None))) /\
  is_least (set_permits (known []) C32_meet_set) 5 /\ is_greatest (set_permits (known []) C32_meet_set) 10.
Proof.
  split; [vm_compute; reflexivity|]. split; [vm_compute; reflexivity|].
  assert (Hin : forall z, set_permits (known []) C32_meet_set z <-> 5 <= z <= 10).
  { intros z. cbn [C32_meet_set set_permits any all permits rng]. split.
    - intros [[(a & b & Ha & Hb & H1) [(a' & b' & Ha' & Hb' & H2) _]]|[]].
      vm_compute in Ha, Hb, Ha', Hb'. injection Ha as <-. injection Hb as <-. injection Ha' as <-. injection Hb' as <-. lia.
    - intros H. left. split; [exists 0, 10|split; [exists 5, 20|exact I]]; (split; [reflexivity|split; [reflexivity|lia]]). }
  split; (split; [apply Hin; lia|intros z Hz; apply Hin in Hz; lia]).
Qed.
(* INTEGER (0..100) (0..10) *)
Definition C32_serial_type := mkType (KBuiltin BInteger) (Some [CSubtype (mkSet [[rng "0" "100"]] None); CSubtype (mkSet [[rng "0" "10"]] None)]).
Lemma C32_serial_refuted_proof :
  run C32_serial_type = Ok (GInteger 8 false (Some 0) (Some 100) false) /\
  is_greatest (type_permits (known []) C32_serial_type) 10.
Proof.
  split; [vm_compute; reflexivity|].
  assert (Hin : forall z, type_permits (known []) C32_serial_type z <-> 0 <= z <= 10).
  { intros z. cbn [C32_serial_type type_permits constraint_permits set_permits any all permits rng]. split.
    - intros (_ & [[(a & b & Ha & Hb & H) _]|[]] & _). vm_compute in Ha, Hb. injection Ha as <-. injection Hb as <-. lia.
    - intros H. split; [|split; [|exact I]]; left; (split; [|exact I]); [exists 0, 100|exists 0, 10];
        (split; [reflexivity|split; [reflexivity|lia]]). }
  split; [apply Hin; lia|intros z Hz; apply Hin in Hz; lia].
Qed.
(* INTEGER (MIN..10) and INTEGER (0..MAX) *)
Lemma C32_min_max_refuted_proof :
  run (integer_type (mkSet [[rng "MIN" "10"]] None)) = Err /\ run (integer_type (mkSet [[rng "0" "MAX"]] None)) = Err.
Proof. split; vm_compute; reflexivity. Qed.

Lemma single_range V l u a b : value_of V l = Some a -> value_of V u = Some b ->
  - 2 ^ 127 <= a <= b -> b < 2 ^ 127 - 1 -> bounds_are V (mkSet [[rng l u]] None) a b.
Proof.
  intros Ha Hb H1 H2.
  assert (Hin : forall z, set_permits V (mkSet [[rng l u]] None) z <-> a <= z <= b).
  { intros z. cbn [set_permits any all permits rng]. split.
    - intros [[(a' & b' & Ha' & Hb' & H) _]|[]]. rewrite Ha in Ha'. rewrite Hb in Hb'. injection Ha' as <-. injection Hb' as <-. lia.
    - intros H. left. split; [|exact I]. exists a, b. repeat split; try assumption; lia. }
  split; [|split; [|split]].
  - cbn. split; [|exact I]. split; [|exact I]. exists a, b. repeat split; try assumption; lia.
  - exists false. cbn. tauto.
  - split; [apply Hin; lia|intros z Hz; apply Hin in Hz; lia].
  - split; [apply Hin; lia|intros z Hz; apply Hin in Hz; lia].
Qed.

(* C33 *)
Lemma C33_unsigned_proof E defs inst s l u name st : bounds_are (known defs) s l u -> 0 <= l -> u < 2 ^ 64 ->
  exists w, definition_of E defs inst (integer_type s) name st = Ok (GInteger w false (Some l) (Some u) (extensible_set s), st) /\
    holds_range (mkIty false w) l u.
Proof.
  intros Hb Hl Hu. exists (chosen_width l u).
  assert (Hlu : l <= u) by (destruct Hb as (_ & _ & [H1 _] & [_ H2]); now apply H2).
  split.
  - rewrite (C32_integer_proof E defs inst s l u name st Hb) by lia. replace (l <? 0) with false by lia. reflexivity.
  - unfold chosen_width. replace (l <? 0) with false by lia. apply unsigned_holds; lia.
Qed.
Lemma C33_signed_proof E defs inst s l u name st : bounds_are (known defs) s l u -> - 2 ^ 127 < l < 0 -> u < 2 ^ 127 ->
  exists w, definition_of E defs inst (integer_type s) name st = Ok (GInteger w true (Some l) (Some u) (extensible_set s), st) /\
    In w [8; 16; 32; 64] /\ (holds_range (mkIty true w) l u <-> - 2 ^ (w - 1) <= l /\ u < 2 ^ (w - 1)) /\
    (w = 64 \/ Z.max (- l) u < 2 ^ w) /\ (w = 8 \/ 2 ^ (w / 2) <= Z.max (- l) u).
Proof.
  intros Hb Hl Hu. exists (chosen_width l u).
  assert (Hlu : l <= u) by (destruct Hb as (_ & _ & [H1 _] & [_ H2]); now apply H2).
  assert (Habs : Z.max (Z.abs l) (Z.abs u) = Z.max (- l) u) by lia.
  split; [|split; [|split]].
  - rewrite (C32_integer_proof E defs inst s l u name st Hb) by lia. replace (l <? 0) with true by lia. reflexivity.
  - unfold chosen_width. replace (l <? 0) with true by lia. unfold width_for. repeat destruct (_ <? _); cbn; tauto.
  - assert (Hw : 0 < chosen_width l u) by (unfold chosen_width, width_for; repeat destruct (_ <? _); lia).
    unfold holds_range, cast. cbn [signed width]. split.
    + intros H. pose proof (H l ltac:(lia)) as H1. pose proof (H u ltac:(lia)) as H2.
      apply wrap_s_fix in H1; [|exact Hw]. apply wrap_s_fix in H2; [|exact Hw]. lia.
    + intros H z Hz. apply wrap_s_fix; [exact Hw|lia].
  - unfold chosen_width. replace (l <? 0) with true by lia. rewrite Habs.
    destruct (signed_width_cases (Z.max (- l) u)) as [[-> H]|[[-> H]|[[-> H]|[-> H]]]]; [lia| | | |];
      [change (8 / 2) with 4|change (16 / 2) with 8|change (32 / 2) with 16|change (64 / 2) with 32]; lia.
Qed.
Lemma C33_signed_refuted_proof :
  run (integer_type (mkSet [[rng "-200" "200"]] None)) = Ok (GInteger 8 true (Some (-200)) (Some 200) false) /\
  cast (mkIty true 8) 200 = -56.
Proof. split; vm_compute; reflexivity. Qed.
Lemma C33_wide_refuted_proof :
  run (integer_type (mkSet [[rng "0" "18446744073709551616"]] None)) = Ok (GInteger 64 false (Some 0) (Some (2 ^ 64)) false) /\
  cast (mkIty false 64) (2 ^ 64) = 0.
Proof. split; vm_compute; reflexivity. Qed.

(* ------------------------------------------------------------------ *)
(* C34                                                                 *)
(* ------------------------------------------------------------------ *)
Lemma enum_names_spec l : forall i, map fst (enum_names i l) = map ev_name l /\
  map snd (enum_names i l) = map (fun k => i + Z.of_nat k) (seq 0 (List.length l)).
Proof.
  induction l as [|v l IH]; intros i; cbn [enum_names map fst snd List.length]; [split; reflexivity|].
  destruct (IH (i + 1)) as [H1 H2]. rewrite counting_from, H1, H2. split; reflexivity.
Qed.
Lemma C34_proof E defs inst root marker ext cs name st : Forall (fun v => ev_value v = None) (root ++ ext) ->
  root <> [] -> zlen root <= 256 ->
  exists consts, definition_of E defs inst (mkType (KBuiltin (BEnumerated root marker ext)) cs) name st =
      Ok (GEnumerated (zlen root - 1) marker consts, st) /\
    map snd consts = counting (List.length root) /\ map fst consts = map (fun v => to_const_ident (ev_name v)) root.
Proof.
  intros Hv Hne Hlen. apply Forall_app in Hv. destruct Hv as [H1 H2].
  unfold definition_of. cbn [resolve_type resolve_base]. unfold resolve_enumerated.
  rewrite (enum_numbers_none _ H1), (enum_numbers_none _ H2). cbn [rbind generate_for_type].
  unfold glift, generate_enumerated. rewrite enum_names_length.
  rewrite arith_usize_ok by (destruct root; [easy|]; unfold zlen in *; cbn [List.length] in *; lia). cbn [rbind].
  eexists. split; [reflexivity|]. rewrite !map_map. cbn [fst snd].
  destruct (enum_names_spec root 0) as [Hf Hs]. split.
  - rewrite <- (map_map snd (suffixed_literal 8 false)), Hs, map_map. unfold counting. apply map_ext_in. intros k Hk.
    apply in_seq in Hk. unfold suffixed_literal, inner_width. cbn [Z.eqb Pos.eqb]. apply wrap_u_fix; unfold zlen in *; lia.
  - rewrite <- (map_map fst to_const_ident), Hf, map_map. reflexivity.
Qed.
Lemma C34_explicit_refuted_proof :
  run (mkType (KBuiltin (BEnumerated [mkEnumValue "a" (Some (Number "0")); mkEnumValue "b" (Some (Number "1"))] false [])) None) = Panic.
Proof. vm_compute. reflexivity. Qed.
Lemma C34_explicit_release_refuted_proof : forall name st,
  definition_of {| overflow_checks := false; little_endian := true |} [] no_instances
    (mkType (KBuiltin (BEnumerated [mkEnumValue "a" (Some (Number "0")); mkEnumValue "b" (Some (Number "1"))] false [])) None) name st =
  Ok (GEnumerated (2 ^ 64 - 1) false [], st).
Proof. intros. vm_compute. reflexivity. Qed.
(* { a (one), b (zero) } with one = 1 and zero = 0: X.691 gives b the index 0 *)
Lemma C34_named_refuted_proof E name st :
  definition_of E [("one"%string, DValue (VInteger 1)); ("zero"%string, DValue (VInteger 0))] no_instances
    (mkType (KBuiltin (BEnumerated [mkEnumValue "a" (Some (ValueRef "one")); mkEnumValue "b" (Some (ValueRef "zero"))] false [])) None) name st =
  Ok (GEnumerated 1 false [("A"%string, 0); ("B"%string, 1)], st).
Proof. vm_compute. reflexivity. Qed.
Lemma C34_many_refuted_proof : exists consts,
  run (mkType (KBuiltin (BEnumerated (repeat (mkEnumValue "a" None) 257) false [])) None) = Ok (GEnumerated 256 false consts) /\
  nth_error (map snd consts) 0 = Some 0 /\ nth_error (map snd consts) 256 = Some 0.
Proof. eexists. split; [vm_compute; reflexivity|]. split; vm_compute; reflexivity. Qed.

(* ------------------------------------------------------------------ *)
(* C35                                                                 *)
(* ------------------------------------------------------------------ *)
Lemma rmap_length {A B} (f : A -> res B) l : forall r, rmap f l = Ok r -> List.length r = List.length l.
Proof.
  induction l as [|a l IH]; intros r H; [injection H as <-; reflexivity|]. rewrite rmap_cons in H.
  destruct (f a); try discriminate. cbn [rbind] in H. destruct (rmap f l) as [ys| | |]; try discriminate.
  injection H as <-. cbn [List.length]. now rewrite (IH ys eq_refl).
Qed.
Lemma rmap_map {A B C} (f : A -> res B) (g : A -> C) (h : B -> C) l : (forall a b, f a = Ok b -> h b = g a) ->
  forall r, rmap f l = Ok r -> map h r = map g l.
Proof.
  intros Hf. induction l as [|a l IH]; intros r H; [injection H as <-; reflexivity|]. rewrite rmap_cons in H.
  destruct (f a) as [b| | |] eqn:Ha; try discriminate. cbn [rbind] in H. destruct (rmap f l) as [ys| | |]; try discriminate.
  injection H as <-. cbn [map]. rewrite (IH ys eq_refl), (Hf a b Ha). reflexivity.
Qed.
Lemma choice_component_id E defs inst c r : choice_component E defs inst c = Ok r -> fst r = fst c.
Proof. destruct c as [id t]. unfold choice_component. destruct (resolve_type E defs inst t); try discriminate. cbn. now injection 1 as <-. Qed.
Lemma C35_choice_proof E defs inst root additions cs name st d st' :
  root <> [] -> zlen root < 2 ^ 64 ->
  definition_of E defs inst (mkType (KChoice root additions) cs) name st = Ok (d, st') ->
  exists roots adds, d = GChoice 0 (zlen root - 1) (is_some additions) (roots ++ adds) /\
    map gv_key roots = counting (List.length root) /\
    map gv_name roots = map (fun c => to_type_ident (fst c)) root /\
    Forall (fun v => gv_extended v = false) roots /\
    map gv_key adds = counting (match additions with Some gs => List.length (List.concat gs) | None => 0 end) /\
    map gv_name adds = match additions with Some gs => map (fun c => to_type_ident (fst c)) (List.concat gs) | None => [] end /\
    Forall (fun v => gv_extended v = true) adds.
Proof.
  intros Hne Hlen H. unfold definition_of in H. rewrite resolve_choice in H.
  destruct (rmap (choice_component E defs inst) root) as [rl| | |] eqn:Hr; try discriminate. cbn [rbind] in H.
  assert (Hrl : List.length rl = List.length root) by (eapply rmap_length; exact Hr).
  assert (Hrn : map fst rl = map fst root) by (eapply rmap_map; [|exact Hr]; intros; now apply choice_component_id in H0).
  assert (Hzl : zlen rl = zlen root) by (unfold zlen; now rewrite Hrl).
  assert (Hne' : rl <> []) by (destruct rl; [destruct root; [contradiction|discriminate]|discriminate]).
  destruct additions as [gs|].
  - destruct (rmap (rmap (choice_component E defs inst)) gs) as [ls| | |] eqn:Hg; try discriminate. cbn [rbind] in H.
    destruct (choice_numbers E rl (Some (List.concat ls)) name st d st' Hne' ltac:(lia) H) as (vs & ws & -> & H1 & H2 & H3 & H4 & H5 & H6).
    exists vs, ws.
    assert (Hcc : List.length (List.concat ls) = List.length (List.concat gs) /\ map fst (List.concat ls) = map fst (List.concat gs)).
    { clear - Hg. revert ls Hg. induction gs as [|g gs IH]; intros ls Hg; [injection Hg as <-; now split|].
      rewrite rmap_cons in Hg. destruct (rmap _ g) as [l| | |] eqn:Hl; try discriminate. cbn [rbind] in Hg.
      destruct (rmap _ gs) as [ls'| | |]; try discriminate. injection Hg as <-.
      destruct (IH ls' eq_refl) as [H1 H2]. cbn [List.concat]. rewrite !app_length, !map_app, H1, H2.
      rewrite (rmap_length _ _ _ Hl). split; [reflexivity|]. f_equal.
      eapply rmap_map; [|exact Hl]. intros a b Hab. now apply choice_component_id in Hab. }
    destruct Hcc as [Hc1 Hc2]. rewrite Hzl. repeat split; try assumption.
    + now rewrite H1, Hrl.
    + rewrite H2. rewrite <- (map_map fst to_type_ident), Hrn, map_map. reflexivity.
    + now rewrite H4, Hc1.
    + rewrite H5. rewrite <- (map_map fst to_type_ident), Hc2, map_map. reflexivity.
  - cbn [rbind] in H.
    destruct (choice_numbers E rl None name st d st' Hne' ltac:(lia) H) as (vs & ws & -> & H1 & H2 & H3 & H4 & H5 & H6).
    exists vs, ws. rewrite Hzl. repeat split; try assumption.
    + now rewrite H1, Hrl.
    + rewrite H2. rewrite <- (map_map fst to_type_ident), Hrn, map_map. reflexivity.
Qed.
Lemma nodup_app {A} (a b : list A) : NoDup a -> NoDup b -> (forall x, In x a -> ~ In x b) -> NoDup (a ++ b).
Proof.
  intros Ha Hb Hd. induction Ha as [|x a Hx Ha IH]; [exact Hb|]. cbn [app]. constructor.
  - rewrite in_app_iff. intros [H|H]; [contradiction|]. apply (Hd x); [now left|exact H].
  - apply IH. intros y Hy. apply Hd. now right.
Qed.
Lemma C35_distinct_proof E defs inst root additions cs name st d st' :
  root <> [] -> zlen root < 2 ^ 64 ->
  definition_of E defs inst (mkType (KChoice root additions) cs) name st = Ok (d, st') ->
  exists ub ext vs, d = GChoice 0 ub ext vs /\ NoDup (map (fun v => (gv_extended v, gv_key v)) vs) /\
    forall v, In v vs -> gv_extended v = false -> 0 <= gv_key v <= ub.
Proof.
  intros Hne Hlen H. destruct (C35_choice_proof _ _ _ _ _ _ _ _ _ _ Hne Hlen H) as (vs & ws & -> & H1 & _ & H3 & H4 & _ & H6).
  do 3 eexists. split; [reflexivity|].
  assert (Hmap : forall x l, Forall (fun v => gv_extended v = x) l -> map (fun v => (gv_extended v, gv_key v)) l = map (pair x) (map gv_key l)).
  { intros x l Hl. rewrite map_map. apply map_ext_in. intros v Hv. rewrite Forall_forall in Hl. now rewrite (Hl v Hv). }
  split.
  - rewrite map_app, (Hmap false vs H3), (Hmap true ws H6), H1, H4.
    assert (Hnd : forall x n, NoDup (map (pair x) (counting n) : list (bool * Z))).
    { intros x n. apply FinFun.Injective_map_NoDup; [|apply counting_nodup]. intros a b Hab. now injection Hab. }
    apply nodup_app; [apply Hnd|apply Hnd|]. intros p Hp Hp'. apply in_map_iff in Hp, Hp'.
    destruct Hp as (x & <- & _), Hp' as (y & Hy & _). discriminate.
  - intros v Hv He. apply in_app_iff in Hv. destruct Hv as [Hv|Hv].
    + assert (Hk : In (gv_key v) (counting (List.length root))) by (rewrite <- H1; now apply in_map).
      apply counting_bounds in Hk. unfold zlen. lia.
    + rewrite Forall_forall in H6. specialize (H6 v Hv). congruence.
Qed.
Lemma sequence_component_id E defs inst c r : sequence_component E defs inst c = Ok r ->
  rc_id r = comp_id c /\ rc_optional r = comp_optional c /\ rc_key r = false.
Proof.
  destruct c as [id t o d]. unfold sequence_component. destruct (resolve_type E defs inst t); try discriminate. cbn. now injection 1 as <-.
Qed.
Lemma C35_sequence_proof E defs inst root additions ext cs name st d st' :
  (exists l, rmap (fun c => resolve_type E defs inst (comp_ty c)) root = Ok l) ->
  definition_of E defs inst (mkType (KSequence root additions ext) cs) name st = Ok (d, st') ->
  let n := List.length (filter comp_optional root) in
  exists fs, d = GSequence ext (match n with O => None | _ => Some (Z.of_nat n) end) fs /\
    map (fun f => is_some (gf_optional f)) fs = map comp_optional root /\
    somes (map gf_optional fs) = counting n /\
    map gf_name fs = map (fun c => to_value_ident (comp_id c)) root /\
    Forall (fun f => gf_key f = false) fs.
Proof.
  intros (l0 & Hl0) H. cbv zeta. unfold definition_of in H. rewrite resolve_sequence in H.
  assert (Hok : exists l, rmap (sequence_component E defs inst) root = Ok l).
  { clear - Hl0. revert l0 Hl0. induction root as [|[id t o dd] root IH]; intros l0 Hl0; [exists []; reflexivity|].
    rewrite rmap_cons in Hl0. rewrite rmap_cons. cbn [comp_ty sequence_component] in *. destruct (resolve_type E defs inst t); try discriminate.
    cbn [rbind] in *. destruct (rmap _ root) as [ys| | |] eqn:Hy in Hl0; try discriminate. destruct (IH ys Hy) as (l & Hl). rewrite Hl. cbn. eauto. }
  destruct Hok as (l & Hl). rewrite Hl in H. cbn [rbind] in H.
  destruct (sequence_numbers E ext l name st d st' H) as (n & fs & -> & H1 & H2 & H3 & H4 & H5).
  assert (Hopt : map rc_optional l = map comp_optional root) by (eapply rmap_map; [|exact Hl]; intros; now apply sequence_component_id in H0).
  assert (Hids : map rc_id l = map comp_id root) by (eapply rmap_map; [|exact Hl]; intros; now apply sequence_component_id in H0).
  assert (Hkeys : map rc_key l = map (fun _ => false) root) by (eapply rmap_map; [|exact Hl]; intros; now apply sequence_component_id in H0).
  assert (Hcount : List.length (filter rc_optional l) = List.length (filter comp_optional root)).
  { clear - Hopt. revert root Hopt. induction l as [|c l IH]; intros [|c' root] Ho; try discriminate; [reflexivity|].
    cbn [map] in Ho. injection Ho as Hc Ho. cbn [filter]. rewrite Hc. destruct (comp_optional c'); cbn [List.length]; now rewrite (IH root Ho). }
  rewrite Hcount in H2. unfold zlen in H3. rewrite Hcount in H3.
  exists fs. split; [|split; [|split; [|split]]].
  - f_equal. rewrite H3. destruct (List.length (filter comp_optional root)) as [|k]; [reflexivity|].
    replace (0 <? Z.of_nat (S k)) with true by lia. reflexivity.
  - now rewrite H1.
  - exact H2.
  - rewrite H5, <- (map_map rc_id to_value_ident), Hids, map_map. reflexivity.
  - rewrite Forall_forall. intros f Hf. apply (in_map gf_key) in Hf. rewrite H4, Hkeys in Hf. apply in_map_iff in Hf. now destruct Hf as (? & <- & _).
Qed.
Lemma C35_empty_refuted_proof : run (mkType (KChoice [] None) None) = Panic /\
  forall name st, definition_of {| overflow_checks := false; little_endian := true |} [] no_instances (mkType (KChoice [] None) None) name st =
    Ok (GChoice 0 (2 ^ 64 - 1) false [], st).
Proof. split; [vm_compute; reflexivity|intros; vm_compute; reflexivity]. Qed.
(* SEQUENCE { a BOOLEAN, ..., [[ b BOOLEAN OPTIONAL ]] }: b is left out *)
Lemma C35_additions_refuted_proof :
  run (mkType (KSequence [mkSeqComp "a" (mkType (KBuiltin BBoolean) None) false None]
                [[mkSeqComp "b" (mkType (KBuiltin BBoolean) None) true None]] true) None) =
  Ok (GSequence true None [mkField "a" None false "BOOLEAN_2"]).
Proof. vm_compute. reflexivity. Qed.

(* ------------------------------------------------------------------ *)
(* C36                                                                 *)
(* ------------------------------------------------------------------ *)
Lemma C36_made_up_refuted_proof : exists prog,
  generate {| overflow_checks := true; little_endian := true |}
    [("INTEGER-2"%string, RBoolean); ("S"%string, RSequence false [mkRComp "a" (RInteger default_integer) false false])] = Ok prog /\
  type_reference "INTEGER-2" /\ In ("INTEGER_2"%string, GBoolean) prog /\ In ("INTEGER_2"%string, GInteger 64 true None None false) prog.
Proof.
  eexists. split; [vm_compute; reflexivity|]. split; [|split; [left; reflexivity|right; right; left; reflexivity]].
  split; [reflexivity|]. repeat (constructor; [first [left; reflexivity|right; reflexivity]|]). constructor.
Qed.
Lemma C36_nested_refuted_proof : exists prog,
  generate {| overflow_checks := true; little_endian := true |}
    [("Foo"%string, RSequence false [mkRComp "bar" (RSequence false []) false false]); ("FooBar"%string, RBoolean)] = Ok prog /\
  In ("FooBar"%string, GBoolean) prog /\ In ("FooBar"%string, GSequence false None []) prog.
Proof. eexists. split; [vm_compute; reflexivity|]. split; [right; left; reflexivity|right; right; left; reflexivity]. Qed.
Lemma C36_fields_refuted_proof :
  run (mkType (KSequence [mkSeqComp "fooBar" (mkType (KBuiltin BBoolean) None) false None;
                          mkSeqComp "foo-bar" (mkType (KBuiltin BBoolean) None) false None] [] false) None) =
  Ok (GSequence false None [mkField "foo_bar" None false "BOOLEAN_2"; mkField "foo_bar" None false "BOOLEAN_3"]) /\
  to_value_ident "type" = to_value_ident "typ".
Proof. split; vm_compute; reflexivity. Qed.
Lemma C36_constants_refuted_proof :
  run (mkType (KBuiltin (BEnumerated [mkEnumValue "fooBar" None; mkEnumValue "foo-bar" None] false [])) None) =
  Ok (GEnumerated 1 false [("FOO_BAR"%string, 0); ("FOO_BAR"%string, 1)]).
Proof. vm_compute. reflexivity. Qed.
Definition C36_defs : list (string * rtype) :=
  [("Foo"%string, RSequence false [mkRComp "bar" (RSequence false [mkRComp "x" RBoolean true false]) false false; mkRComp "n" RNull false false]);
   ("Number"%string, RInteger default_integer)].
Lemma C36_case_proof : Forall (fun kt => no_open_types (snd kt)) C36_defs /\
  NoDup (map to_type_ident (written_names C36_defs)) /\ Forall (fun n => ~ numbered n) (written_names C36_defs) /\
  exists prog, generate {| overflow_checks := true; little_endian := true |} C36_defs = Ok prog /\
    map fst prog = ["Foo"; "Number"; "BOOLEAN_2"; "FooBar"; "NULL_3"]%string.
Proof.
  split; [|split; [|split]].
  - repeat constructor.
  - change (NoDup ["Foo"; "FooBar"; "Number"]%string). repeat (constructor; [cbn; intuition discriminate|]). constructor.
  - change (Forall (fun n => ~ numbered n) ["Foo"; "FooBar"; "Number"]%string).
    repeat (constructor; [apply alnum_not_numbered; repeat constructor|]). constructor.
  - eexists. split; [vm_compute; reflexivity|reflexivity].
Qed.

(* ------------------------------------------------------------------ *)
(* C37                                                                 *)
(* ------------------------------------------------------------------ *)
Lemma C37_definitions_proof m order : sorted_definitions m order ->
  NoDup order /\
  (forall k, In k (def_names m) -> (In k order <-> grounded (definition_needs m) k)) /\
  (forall k d r, In (k, d) (m_defs m) -> In r (assignment_refs (d_kind d)) -> ~ In r (import_names m) -> before r k order).
Proof.
  intros H. unfold sorted_definitions, definitions_graph in H. split; [eapply sort_nodup, H|]. split.
  - intros k Hk. rewrite (sort_grounded _ _ _ k H). unfold definition_needs. cbn [definitions_graph graph_of g_edges]. split; [tauto|].
    intros Hg. split; [|exact Hg]. apply graph_nodes. now left.
  - intros k d r Hd Hr Hi. eapply sort_sorted; [exact H|]. eapply definition_edge; eassumption.
Qed.
Lemma C37_modules_proof modules order : sorted_modules modules order ->
  NoDup order /\
  (forall n, In n (map fst modules) -> (In n order <-> grounded (module_needs modules) n)) /\
  (forall n m r n', In (n, m) modules -> In (r, n') (m_imports m) -> before n' n order).
Proof.
  intros H. unfold sorted_modules, modules_graph in H. split; [eapply sort_nodup, H|]. split.
  - intros k Hk. rewrite (sort_grounded _ _ _ k H). unfold module_needs. cbn [modules_graph graph_of g_edges]. split; [tauto|].
    intros Hg. split; [|exact Hg]. apply graph_nodes. now left.
  - intros n m r n' Hm Hr. eapply sort_sorted; [exact H|]. unfold needs. apply in_flat_map. exists (n, m). split; [exact Hm|].
    cbn [fst snd]. apply in_map_iff. now exists (r, n').
Qed.
Lemma C37_exists_proof modules : exists orders, valid_orders modules orders.
Proof.
  destruct (pops_exists (modules_graph modules)) as (out & Ho).
  assert (Hl : forall l, exists orders, map fst orders = l /\
    Forall (fun no => forall m, lookup (fst no) modules = Some m -> sorted_definitions m (snd no)) orders).
  { induction l as [|n l (orders & H1 & H2)]; [exists []; now split|].
    destruct (lookup n modules) as [m|] eqn:Hm.
    - destruct (pops_exists (definitions_graph m)) as (o & Hd). exists ((n, o) :: orders). split; [cbn; now f_equal|].
      constructor; [|exact H2]. cbn [fst snd]. intros m' Hm'. rewrite Hm in Hm'. injection Hm' as <-. exact Hd.
    - exists ((n, []) :: orders). split; [cbn; now f_equal|]. constructor; [|exact H2]. cbn [fst snd]. intros m' Hm'. congruence. }
  destruct (Hl out) as (orders & H1 & H2). exists orders. split; [now rewrite H1|exact H2].
Qed.
(* List ::= SEQUENCE { next List OPTIONAL } *)
Definition list_module := mkModule []
  [("List"%string, mkDef (DKType (mkType (KSequence [mkSeqComp "next" (mkType (KReference (RefName "List")) None) true None] [] false) None)) None)].
Lemma sort_empty g order : ready g = [] -> pops g order -> order = [].
Proof. intros Hr H. inversion H; congruence. Qed.
Lemma sort_single g order x : ready g = [x] -> ready (remove_nodes [x] g) = [] -> pops g order -> order = [x].
Proof.
  intros Hr Hr' H. inversion H as [g' H0|g' batch out Hne Hp Hs]; subst; [congruence|]. rewrite Hr in Hp.
  apply Permutation_sym, Permutation_length_1_inv in Hp. subst batch. apply sort_empty in Hs; [now subst out|exact Hr'].
Qed.
Lemma C37_recursive_refuted_proof E inst fuel : forall orders, valid_orders [("M"%string, list_module)] orders ->
  compile E inst fuel [("M"%string, list_module)] orders = Ok [].
Proof.
  intros orders [Hm Hd].
  assert (Ho : map fst orders = ["M"%string]).
  { eapply sort_single; [| |exact Hm]; vm_compute; reflexivity. }
  destruct orders as [|[n o] [|? ?]]; try discriminate. cbn in Ho. injection Ho as ->.
  inversion_clear Hd. specialize (H list_module eq_refl). cbn [snd] in H. apply sort_empty in H; [|vm_compute; reflexivity]. now subst o.
Qed.
Lemma C37_cyclic_imports_refuted_proof E inst fuel :
  let a := mkModule [("B"%string, "N"%string)] [("A"%string, mkDef (DKType (mkType (KBuiltin BBoolean) None)) None)] in
  let b := mkModule [("A"%string, "M"%string)] [("B"%string, mkDef (DKType (mkType (KBuiltin BBoolean) None)) None)] in
  forall orders, valid_orders [("M"%string, a); ("N"%string, b)] orders ->
  compile E inst fuel [("M"%string, a); ("N"%string, b)] orders = Ok [].
Proof.
  intros a b orders [Hm _]. assert (Ho : map fst orders = []) by (eapply sort_empty; [|exact Hm]; vm_compute; reflexivity).
  destruct orders; [reflexivity|discriminate].
Qed.
(* n INTEGER ::= 5   L ::= SEQUENCE (SIZE (1..n)) OF BOOLEAN *)
Definition size_module := mkModule []
  [("n"%string, mkDef (DKValue (mkType (KBuiltin BInteger) None) "5") None);
   ("L"%string, mkDef (DKType (mkType (KSequenceOf (Some (size_constraint (mkSet [[rng "1" "n"]] None))) (mkType (KBuiltin BBoolean) None)) None)) None)].
Lemma C37_size_refuted_proof E inst fuel :
  valid_orders [("M"%string, size_module)] [("M"%string, ["n"; "L"]%string)] /\
  valid_orders [("M"%string, size_module)] [("M"%string, ["L"; "n"]%string)] /\
  compile E inst fuel [("M"%string, size_module)] [("M"%string, ["L"; "n"]%string)] = Err /\
  exists prog, compile {| overflow_checks := true; little_endian := true |} inst fuel [("M"%string, size_module)] [("M"%string, ["n"; "L"]%string)] = Ok prog.
Proof.
  assert (Hm : sorted_modules [("M"%string, size_module)] ["M"%string]).
  { apply (pop_some _ ["M"%string] []); [vm_compute; discriminate|vm_compute; reflexivity|]. constructor. vm_compute. reflexivity. }
  split; [|split; [|split]].
  - split; [exact Hm|]. constructor; [|constructor]. intros m H. injection H as <-. cbn [snd].
    apply (pop_some _ ["n"; "L"]%string []); [vm_compute; discriminate|vm_compute; reflexivity|]. constructor. vm_compute. reflexivity.
  - split; [exact Hm|]. constructor; [|constructor]. intros m H. injection H as <-. cbn [snd].
    apply (pop_some _ ["L"; "n"]%string []); [vm_compute; discriminate|vm_compute; apply perm_swap|]. constructor. vm_compute. reflexivity.
  - vm_compute. reflexivity.
  - eexists. destruct fuel; vm_compute; reflexivity.
Qed.

(* ------------------------------------------------------------------ *)
(* C38                                                                 *)
(* ------------------------------------------------------------------ *)
Lemma C38_modules_proof E inst fuel modules orders st : resolve_modules E inst fuel modules orders = Ok st ->
  forall n m r n', In (n, m) modules -> In (r, n') (m_imports m) -> exists m', In (n', m') modules.
Proof.
  intros H n m r n' Hm Hr. unfold resolve_modules, resolve_imports in H.
  destruct (forallb _ modules) eqn:Hf; [|discriminate]. rewrite forallb_forall in Hf. specialize (Hf _ Hm). cbn [snd] in Hf.
  rewrite forallb_forall in Hf. specialize (Hf _ Hr). cbn [snd] in Hf. apply mem_in in Hf.
  apply in_map_iff in Hf. destruct Hf as ([n1 m'] & <- & Hin). now exists m'.
Qed.
Lemma C38_missing_module_proof E inst fuel modules orders n m r n' :
  In (n, m) modules -> In (r, n') (m_imports m) -> ~ In n' (map fst modules) ->
  compile E inst fuel modules orders = Err.
Proof.
  intros Hm Hr Hn. unfold compile, resolve_modules, resolve_imports. destruct (forallb _ modules) eqn:Hf; [|reflexivity]. exfalso.
  rewrite forallb_forall in Hf. specialize (Hf _ Hm). cbn [snd] in Hf. rewrite forallb_forall in Hf. specialize (Hf _ Hr). cbn [snd] in Hf.
  apply mem_in in Hf. contradiction.
Qed.
Definition C38_missing_name := [("M"%string, mkModule [("Nothing"%string, "N"%string)] [("A"%string, mkDef (DKType (mkType (KBuiltin BBoolean) None)) None)]);
  ("N"%string, mkModule [] [])].
Lemma C38_names_refuted_proof E inst fuel :
  valid_orders C38_missing_name [("N"%string, []); ("M"%string, ["A"%string])] /\
  compile E inst fuel C38_missing_name [("N"%string, []); ("M"%string, ["A"%string])] = Ok [("A"%string, GBoolean)].
Proof.
  split; [|vm_compute; reflexivity]. split.
  - apply (pop_some _ ["N"%string] ["M"%string]); [vm_compute; discriminate|vm_compute; reflexivity|].
    apply (pop_some _ ["M"%string] []); [vm_compute; discriminate|vm_compute; reflexivity|]. constructor. vm_compute. reflexivity.
  - constructor; [|constructor; [|constructor]]; intros m H; injection H as <-; cbn [snd].
    + constructor. vm_compute. reflexivity.
    + apply (pop_some _ ["A"%string] []); [vm_compute; discriminate|vm_compute; reflexivity|]. constructor. vm_compute. reflexivity.
Qed.
Lemma C36_alternatives_proof E defs inst root additions cs name st d st' :
  root <> [] -> zlen root < 2 ^ 64 ->
  definition_of E defs inst (mkType (KChoice root additions) cs) name st = Ok (d, st') ->
  let ids := map fst (root ++ match additions with Some gs => List.concat gs | None => [] end) in
  NoDup ids -> Forall identifier ids ->
  exists ub ext vs, d = GChoice 0 ub ext vs /\ NoDup (map gv_name vs).
Proof.
  intros Hne Hlen H ids Hnd Hid. destruct (C35_choice_proof _ _ _ _ _ _ _ _ _ _ Hne Hlen H) as (vs & ws & -> & _ & H2 & _ & _ & H5 & _).
  do 3 eexists. split; [reflexivity|]. rewrite map_app, H2, H5.
  replace (map (fun c => to_type_ident (fst c)) root ++ match additions with Some gs => map (fun c => to_type_ident (fst c)) (List.concat gs) | None => [] end)
    with (map to_type_ident ids).
  2:{ unfold ids. rewrite !map_map, map_app. f_equal. now destruct additions. }
  clear - Hnd Hid. induction Hnd as [|x l Hx Hnd IH]; [constructor|]. inversion_clear Hid. cbn [map]. constructor; [|now apply IH].
  intros Hin. apply in_map_iff in Hin. destruct Hin as (y & Heq & Hin). apply Hx. rewrite Forall_forall in H0.
  rewrite <- (identifier_names_distinct y x (H0 y Hin) H Heq). exact Hin.
Qed.

(* ------------------------------------------------------------------ *)
(* C47, C48                                                            *)
(* ------------------------------------------------------------------ *)
Definition int_n := mkType (KBuiltin BInteger) (Some [CSubtype (mkSet [[rng "0" "n"]] None)]).
Definition ref (r : string) := mkType (KReference (RefName r)) None.
(* M: n INTEGER ::= 1000   Num ::= INTEGER (0..n) *)
Definition C47_m := mkModule []
  [("n"%string, mkDef (DKValue (mkType (KBuiltin BInteger) None) "1000") None);
   ("Num"%string, mkDef (DKType int_n) None)].
(* N: IMPORTS Num FROM M
      Pair ::= SEQUENCE { first Num, second CHOICE { a BOOLEAN, b Num } OPTIONAL } *)
Definition C47_choice := mkType (KChoice [("a"%string, mkType (KBuiltin BBoolean) None); ("b"%string, ref "Num")] None) None.
Definition C47_pair := mkType (KSequence [mkSeqComp "first" (ref "Num") false None; mkSeqComp "second" C47_choice true None] [] false) None.
Definition C47_n := mkModule [("Num"%string, "M"%string)] [("Pair"%string, mkDef (DKType C47_pair) None)].
Definition C47_modules := [("M"%string, C47_m); ("N"%string, C47_n)].
Definition C47_num_ty := TInt (Some 0) (Some 1000) false (mkIty false 16).
Definition C47_pair_ty := TSeq false 1 (FMan false C47_num_ty (FOpt 0 (TChoice 0 1 false (ACons 0 false TBool (ACons 1 false C47_num_ty ANil))) FNil)).
Definition C47_values (s : string) : option Z := if String.eqb s "n" then Some 1000 else None.
Definition C47_types (s : string) : option ty :=
  if String.eqb s "Num" then Some C47_num_ty else if String.eqb s "Pair" then Some C47_pair_ty else None.
Definition C47_meaning := mkMeaning C47_values (fun _ => None) C47_types (fun _ => None) (fun _ => None) (fun _ => false).
Definition C47_orders := [("M"%string, ["n"; "Num"]%string); ("N"%string, ["Pair"%string])].

Lemma C47_case_proof : well_named C47_modules /\ imports_defined C47_modules /\
  (forall a m, In (a, m) C47_modules -> module_means C47_meaning C47_modules 0 m) /\
  not_recursive C47_meaning C47_modules /\ valid_orders C47_modules C47_orders /\
  (forall a m k d, In (a, m) C47_modules -> In (k, d) (m_defs m) -> has_meaning C47_meaning k \/ d_params d <> None \/ exists f, d_kind d = DKClass f).
Proof.
  split; [|split; [|split; [|split; [|split]]]].
  - split; [|split].
    + repeat (constructor; [cbn; intuition discriminate|]). constructor.
    + repeat (constructor; [cbn; intuition discriminate|]). constructor.
    + repeat constructor.
  - intros n m r n' [H|[H|[]]] Hr; injection H as <- <-; [destruct Hr|]. destruct Hr as [Hr|[]]. injection Hr as <- <-.
    exists C47_m. split; [left; reflexivity|right; left; reflexivity].
  - intros n m [H|[H|[]]]; injection H as <- <-; intros k d Hd.
    + destruct Hd as [Hd|[Hd|[]]]; injection Hd as <- <-; repeat split; try discriminate.
      * intros z Hz. injection Hz as <-. exists None, (TInt None None false (mkIty true 64)), "1000"%string.
        split; [reflexivity|]. split; [constructor; now left|reflexivity].
      * intros T HT. injection HT as <-. exists int_n. split; [reflexivity|].
        refine (A_integer_range _ _ _ _ _ (mkSet [[rng "0" "n"]] None) 0 1000 _ _ _); [|lia|lia].
        apply single_range; [reflexivity|reflexivity|lia|lia].
    + destruct Hd as [Hd|[]]. injection Hd as <- <-. repeat split; try discriminate.
      intros T HT. injection HT as <-. exists C47_pair. split; [reflexivity|].
      refine (A_sequence _ _ _ _ _ _ [] false None _ _ _); [now left|].
      apply A_cman; [apply A_reference; [now left|reflexivity]|].
      apply A_copt; [|apply A_cnil].
      refine (A_choice _ _ _ _ _ _ None None (ACons 0 false TBool (ACons 1 false C47_num_ty ANil)) ANil _ _ _ _ _); [now left|discriminate|vm_compute; reflexivity| |constructor].
      apply A_acons; [constructor; now left|]. apply A_acons; [apply A_reference; [now left|reflexivity]|constructor].
  - assert (Hstart : forall edges k, Acc (needs edges) k -> grounded edges k) by (intros; now apply acc_grounded).
    assert (A0 : forall edges k, (forall a, ~ needs edges a k) -> Acc (needs edges) k) by (intros edges k H; constructor; intros y Hy; destruct (H y Hy)).
    assert (HM : grounded (module_needs C47_modules) "M").
    { apply Hstart, A0. intros a Ha. vm_compute in Ha. repeat destruct Ha as [Ha|Ha]; try discriminate; contradiction. }
    assert (HN : grounded (module_needs C47_modules) "N").
    { apply Hstart. constructor. intros y Hy. vm_compute in Hy. destruct Hy as [Hy|[]]. injection Hy as <-.
      apply A0. intros a Ha. vm_compute in Ha. repeat destruct Ha as [Ha|Ha]; try discriminate; contradiction. }
    intros n m k [H|[H|[]]] Hk _; injection H as <- <-.
    + split; [exact HM|]. destruct Hk as [<-|[<-|[]]]; apply Hstart.
      * apply A0. intros a Ha. vm_compute in Ha. repeat destruct Ha as [Ha|Ha]; try discriminate; contradiction.
      * constructor. intros y Hy. vm_compute in Hy. destruct Hy as [Hy|[]]. injection Hy as <-.
        apply A0. intros a Ha. vm_compute in Ha. repeat destruct Ha as [Ha|Ha]; try discriminate; contradiction.
    + split; [exact HN|]. destruct Hk as [<-|[]]. apply Hstart. constructor. intros y Hy. vm_compute in Hy. destruct Hy.
  - split.
    + apply (pop_some _ ["M"%string] ["N"%string]); [vm_compute; discriminate|vm_compute; reflexivity|].
      apply (pop_some _ ["N"%string] []); [vm_compute; discriminate|vm_compute; reflexivity|]. constructor. vm_compute. reflexivity.
    + constructor; [|constructor; [|constructor]]; intros m H; injection H as <-; cbn [snd].
      * apply (pop_some _ ["n"%string] ["Num"%string]); [vm_compute; discriminate|vm_compute; reflexivity|].
        apply (pop_some _ ["Num"%string] []); [vm_compute; discriminate|vm_compute; reflexivity|]. constructor. vm_compute. reflexivity.
      * apply (pop_some _ ["Pair"%string] []); [vm_compute; discriminate|vm_compute; reflexivity|]. constructor. vm_compute. reflexivity.
  - intros a m k d [H|[H|[]]] Hk; injection H as <- <-; left.
    + destruct Hk as [Hk|[Hk|[]]]; injection Hk as <- <-; [right; left|left]; discriminate.
    + destruct Hk as [Hk|[]]. injection Hk as <- <-. left. discriminate.
Qed.
Lemma C47_case_program_proof : compile {| overflow_checks := true; little_endian := true |} (instantiate {| overflow_checks := true; little_endian := true |} 0) 4 C47_modules C47_orders =
  Ok [("Num"%string, GInteger 16 false (Some 0) (Some 1000) false);
      ("Pair"%string, GSequence false (Some 1) [mkField "first" None false "Num"; mkField "second" (Some 0) false "PairSecond"]);
      ("BOOLEAN_2"%string, GBoolean);
      ("PairSecond"%string, GChoice 0 1 false [mkVariant "A" 0 false "BOOLEAN_2"; mkVariant "B" 1 false "Num"])].
Proof. vm_compute. reflexivity. Qed.

(* ------------------------------------------------------------------ *)
(* C49                                                                 *)
(* ------------------------------------------------------------------ *)
(* id-one INTEGER ::= 1   id-two INTEGER ::= 2   One ::= BOOLEAN   Two ::= NULL *)
Definition C49_defs : list (string * rdef) :=
  [("id-one"%string, DValue (VInteger 1)); ("id-two"%string, DValue (VInteger 2));
   ("One"%string, DType RBoolean); ("Two"%string, DType RNull)].
Definition C49_object (n t : string) : object_value :=
  Some [("&id"%string, OFValue (mkType (KBuiltin BInteger) None) (Some n)); ("&Type"%string, OFType (Some (ref t)))].
Definition C49_elems := [OObject (C49_object "id-two" "Two"); OObject (C49_object "id-one" "One")].
Definition C49_set : robject_set :=
  let o n t := [("&id"%string, RFValue (RInteger default_integer) (Some (VReference n))); ("&Type"%string, RFType (Some (RReference t)))] in
  let o1 := o "id-one"%string "One"%string in let o2 := o "id-two"%string "Two"%string in
  mkObjectSet [o2; o1] [(2, "id-two"%string, o2); (1, "id-one"%string, o1)].
Definition C49_message : asn_type :=
  mkType (KSequence
    [mkSeqComp "id" (mkType (KReference (RefClassField "CLASS" "&id")) (Some [CTable (TableSimple "{Set}")])) false None;
     mkSeqComp "value" (mkType (KReference (RefClassField "CLASS" "&Type")) (Some [CTable (TableRelation "{Set}" "{@id}")])) false None] [] false) None.
Lemma C49_case_proof E fuel :
  sets_known C49_defs (Some "&id"%string) C49_elems /\
  resolve_object_set E C49_defs no_instances fuel (Some "&id"%string) C49_elems = Ok C49_set /\
  distinct_ids C49_defs (Some "&id"%string) (os_elements C49_set) /\
  open_types "&Type" C49_set = [("id-one"%string, 1, RReference "One"); ("id-two"%string, 2, RReference "Two")] /\
  resolve_type E (("Set"%string, DObjectSet C49_set) :: C49_defs) no_instances C49_message =
    Ok (RSequence false [mkRComp "id" (RInteger default_integer) false true;
                         mkRComp "value" (RSet "Set" [("id-one"%string, 1, RReference "One"); ("id-two"%string, 2, RReference "Two")]) false false]) /\
  type_means E [("One"%string, RBoolean); ("Two"%string, RNull)] (RSet "Set" (open_types "&Type" C49_set))
    (TOpen (ACons 1 false TBool (ACons 2 false TNull ANil))).
Proof.
  split; [|split; [|split; [|split; [|split]]]].
  - intros r s [H|[H|[]]]; discriminate.
  - destruct fuel; reflexivity.
  - intros o o' nm z Ho Ho' (u & t & v & Hu & Hl & _) (u' & t' & v' & Hu' & Hl' & _). injection Hu as <-. injection Hu' as <-.
    cbn in Ho, Ho'. destruct Ho as [<-|[<-|[]]], Ho' as [<-|[<-|[]]]; try reflexivity; vm_compute in Hl, Hl'; congruence.
  - reflexivity.
  - reflexivity.
  - change (open_types "&Type" C49_set) with [("id-one"%string, 1, RReference "One"); ("id-two"%string, 2, RReference "Two")].
    constructor. constructor; [apply (S_ref _ _ _ RBoolean); [now left|constructor]|].
    constructor; [apply (S_ref _ _ _ RNull); [right; now left|constructor]|constructor].
Qed.
(* An object whose id is a literal, and one whose type is written in place, get
   no alternative. *)
Lemma C49_literal_refuted_proof E fuel : exists s,
  resolve_object_set E C49_defs no_instances fuel (Some "&id"%string) [OObject (C49_object "1" "One")] = Ok s /\
  open_types "&Type" s = [].
Proof. eexists. split; [destruct fuel; reflexivity|reflexivity]. Qed.
Lemma C49_inline_refuted_proof E fuel : exists s,
  resolve_object_set E C49_defs no_instances fuel (Some "&id"%string)
    [OObject (Some [("&id"%string, OFValue (mkType (KBuiltin BInteger) None) (Some "id-one"%string));
                    ("&Type"%string, OFType (Some (mkType (KBuiltin BBoolean) None)))])] = Ok s /\
  open_types "&Type" s = [].
Proof. eexists. split; [destruct fuel; reflexivity|reflexivity]. Qed.
(* SEQUENCE { id CLASS.&id ({Set}), flag BOOLEAN }: the flag is left out;
   id ... OPTIONAL: the component is mandatory *)
Lemma C49_components_refuted_proof E :
  resolve_type E (("Set"%string, DObjectSet C49_set) :: C49_defs) no_instances
    (mkType (KSequence
      [mkSeqComp "id" (mkType (KReference (RefClassField "CLASS" "&id")) (Some [CTable (TableSimple "{Set}")])) true None;
       mkSeqComp "flag" (mkType (KBuiltin BBoolean) None) false None] [] false) None) =
  Ok (RSequence false [mkRComp "id" (RInteger default_integer) false true]).
Proof. reflexivity. Qed.

(* C48 *)
Lemma C48_proof E depth fuel M n modules orders prog :
  (n <= depth)%nat -> well_named modules -> imports_defined modules ->
  (forall a m, In (a, m) modules -> module_means M modules n m) ->
  not_recursive M modules -> valid_orders modules orders ->
  compile E (instantiate E depth) fuel modules orders = Ok prog -> NoDup (map fst prog) ->
  forall a m k T T' v k' s, In (a, m) modules -> In k (def_names m) -> types M k = Some T ->
  name_means prog (to_type_ident k) T' ->
  carries E None T v k' -> flow_of T v false = Some s ->
  exists d, enc E T' v new_data = (Ok tt, d) /\
    (zlen (bits d) < 2 ^ 60 -> fst (dec E T' (from_slice (into_bytes d))) = Ok v).
Proof.
  intros Hd Hw Hi Hm Hr Ho Hc Hnd a m k T T' v k' s Hin Hk HT HT' Hv Hf.
  pose proof (compile_correct E depth fuel M modules n orders Hd Hw Hi Hm Hr Ho prog Hc a m k T Hin Hk HT) as HT2.
  rewrite (means_unique _ _ _ _ Hnd HT' HT2). exact (agrees_bytes _ _ _ _ (derived_agrees E None T v k' s Hv Hf)).
Qed.
Lemma C48_case_proof : forall E, carries E None C47_pair_ty (VSeq [Some (VI 700); Some (VAlt 1 (VI 5))]) None /\
  exists s, flow_of C47_pair_ty (VSeq [Some (VI 700); Some (VAlt 1 (VI 5))]) false = Some s.
Proof.
  intros E. split; [|eexists; vm_compute; reflexivity].
  apply K_seq.
  { repeat constructor; cbn; intuition lia. }
  { repeat constructor; lia. }
  { lia. }
  eapply KF_man; [apply K_int; [unfold int_encodable, i128; lia|reflexivity]|].
  eapply KF_some; [|constructor].
  eapply K_choice with (key := 1) (t := C47_num_ty); [reflexivity| | |].
  { unfold first_with_key; cbn; intuition lia. }
  { unfold int_encodable, i128; lia. }
  apply K_int; [unfold int_encodable, i128; lia|reflexivity].
Qed.
Definition C47_choice_booleans := mkType (KChoice [("a"%string, mkType (KBuiltin BBoolean) None); ("b"%string, mkType (KBuiltin BBoolean) None)]
  (Some [[("c"%string, mkType (KBuiltin BNull) None)]])) None.
Definition C35_three := mkType (KSequence (map (fun io => mkSeqComp (fst io) (mkType (KBuiltin BBoolean) None) (snd io) None)
  [("a"%string, true); ("b"%string, false); ("c"%string, true)]) [] false) None.
