(* Names of components and of enumeration items (C36). *)
From Coq Require Import ZArith NArith List Bool String Ascii Lia.
Require Import Verif.Base Verif.Asn1Model Verif.GenModel Verif.ResolveModel Verif.CompilerSpec Verif.CompilerFacts Verif.WordSpec.
Import ListNotations.
Open Scope list_scope.

Lemma small_alnum c : match small c with Some _ => is_alnum c = true | None => is_alnum c = false end.
Proof. destruct c as [[] [] [] [] [] [] [] []]; vm_compute; reflexivity. Qed.
Lemma small_lower c : small (to_lower c) = small c.
Proof. destruct c as [[] [] [] [] [] [] [] []]; vm_compute; reflexivity. Qed.
Lemma small_upper c : small (to_upper c) = small c.
Proof. destruct c as [[] [] [] [] [] [] [] []]; vm_compute; reflexivity. Qed.
Lemma bare_app a b : bare (a ++ b) = (bare a ++ bare b)%string.
Proof. induction a as [|c a IH]; [reflexivity|]. cbn [append bare]. destruct (small c); [cbn [append]; now rewrite IH|exact IH]. Qed.
Lemma bare_smap f s : (forall c, small (f c) = small c) -> bare (smap f s) = bare s.
Proof. intros H. induction s as [|c s IH]; [reflexivity|]. cbn [smap bare]. rewrite H, IH. reflexivity. Qed.
Lemma bare_concat f ws : (forall c, small (f c) = small c) -> bare (String.concat "_" (map (smap f) ws)) = String.concat "" (map bare ws).
Proof.
  intros H. induction ws as [|w ws IH]; [reflexivity|]. destruct ws as [|w' ws]; [cbn [map String.concat]; now apply bare_smap|].
  change (String.concat "_" (map (smap f) (w :: w' :: ws))) with (smap f w ++ ("_" ++ String.concat "_" (map (smap f) (w' :: ws))))%string.
  rewrite !bare_app, bare_smap by exact H. rewrite IH. reflexivity.
Qed.
Lemma concat_cons w ws : String.concat "" (w :: ws) = (w ++ String.concat "" ws)%string.
Proof.
  destruct ws as [|x ws]; [|reflexivity]. cbn [String.concat]. induction w as [|c w IH]; [reflexivity|]. cbn [append]. now rewrite <- IH.
Qed.
Lemma app_nil_s w : (w ++ "")%string = w.
Proof. induction w as [|c w IH]; [reflexivity|]. cbn [append]. now rewrite IH. Qed.
Lemma app_assoc_s a b c : ((a ++ b) ++ c)%string = (a ++ (b ++ c))%string.
Proof. induction a as [|x a IH]; [reflexivity|]. cbn [append]. now rewrite IH. Qed.
(* all letters of a name are in its words, in their order *)
Lemma words_bare s : forall mode word, String.concat "" (map bare (heck_words mode word s)) = (bare word ++ bare s)%string.
Proof.
  assert (Hf : forall (word : string) l, String.concat "" (map bare (match word with EmptyString => l | _ => word :: l end)) = (bare word ++ String.concat "" (map bare l))%string).
  { intros [|c w] l; [reflexivity|]. cbn [map]. now rewrite concat_cons. }
  induction s as [|c s IH]; intros mode word.
  - cbn [heck_words]. rewrite Hf. reflexivity.
  - cbn [heck_words]. pose proof (small_alnum c) as Hc.
    assert (Hb : bare (word ++ String c "") = (bare word ++ bare (String c ""))%string) by apply bare_app.
    assert (Hcons : bare (String c s) = (bare (String c "") ++ bare s)%string) by (cbn [bare]; destruct (small c); reflexivity).
    destruct (is_alnum c) eqn:Ha; cbn [negb].
    + destruct s as [|n s'].
      * cbn [map]. rewrite concat_cons, Hb, Hcons. cbn [map String.concat]. rewrite ?app_nil_s. cbn [bare]. rewrite ?app_nil_s. reflexivity.
      * remember (String n s') as s eqn:Hs. rewrite Hcons.
        assert (H1 : forall m, String.concat "" (map bare ((word ++ String c "")%string :: heck_words m "" s)) = (bare word ++ (bare (String c "") ++ bare s))%string).
        { intros m. cbn [map]. rewrite concat_cons, Hb, IH. cbn [bare append]. now rewrite app_assoc_s. }
        assert (H2 : forall m, String.concat "" (map bare (heck_words m (word ++ String c "")%string s)) = (bare word ++ (bare (String c "") ++ bare s))%string).
        { intros m. rewrite IH, Hb. now rewrite app_assoc_s. }
        assert (H3 : String.concat "" (map bare (match word with EmptyString => heck_words Boundary (String c "") s | _ => word :: heck_words Boundary (String c "") s end)) = (bare word ++ (bare (String c "") ++ bare s))%string).
        { rewrite Hf, IH. reflexivity. }
        rewrite Hs in *. clear Hs.
        repeat match goal with
        | |- context[if ?b then _ else _] => destruct b
        | |- context[match ?m with Boundary => _ | Lowercase => _ | Uppercase => _ end] => destruct m
        end; first [apply H1|apply H2|apply H3].
    + rewrite Hf, IH. rewrite Hcons. cbn [bare append]. destruct (small c); [congruence|reflexivity].
Qed.
Lemma bare_snake s : bare (to_snake_case s) = bare s.
Proof. unfold to_snake_case. rewrite (bare_concat _ _ small_lower), words_bare. reflexivity. Qed.
Lemma bare_shouty s : bare (to_shouty_snake_case s) = bare s.
Proof. unfold to_shouty_snake_case. rewrite (bare_concat _ _ small_upper), words_bare. reflexivity. Qed.
Lemma bare_capital s : bare (capitalize_first s) = bare s.
Proof. destruct s as [|c s]; [reflexivity|]. cbn [capitalize_first bare]. now rewrite small_upper. Qed.
Lemma constant_names_apart s t : to_const_ident s = to_const_ident t -> bare s = bare t.
Proof. unfold to_const_ident. intros H. rewrite <- (bare_shouty s), <- (bare_shouty t). now rewrite H. Qed.
Lemma field_of_name s : bare_field s = bare_field (to_value_ident s).
Proof.
  unfold bare_field, to_value_ident. destruct (String.eqb_spec (to_snake_case (capitalize_first s)) "type") as [H|H].
  - assert (Hb : bare s = "type"%string) by (rewrite <- (bare_capital s), <- bare_snake, H; reflexivity). rewrite Hb. reflexivity.
  - now rewrite bare_snake, bare_capital.
Qed.
Lemma field_names_apart s t : to_value_ident s = to_value_ident t -> bare_field s = bare_field t.
Proof. intros H. now rewrite (field_of_name s), (field_of_name t), H. Qed.
Lemma kept_apart {A} (f : A -> string) (g : string -> string) (h : string -> string) l : (forall s t, g s = g t -> h s = h t) ->
  NoDup (map (fun x => h (f x)) l) -> NoDup (map (fun x => g (f x)) l).
Proof.
  intros Hg. induction l as [|x l IH]; intros H; [constructor|]. cbn [map] in *. inversion_clear H as [|? ? H1 H2]. constructor; [|now apply IH].
  intros Hin. apply in_map_iff in Hin. destruct Hin as (y & He & Hy). apply H1, in_map_iff. exists y. split; [now apply Hg|exact Hy].
Qed.
Open Scope Z_scope.
Lemma components_apart E defs inst root additions ext cs name st d st' : (exists l, rmap (fun c => resolve_type E defs inst (comp_ty c)) root = Ok l) ->
  definition_of E defs inst (mkType (KSequence root additions ext) cs) name st = Ok (d, st') -> NoDup (map (fun c => bare_field (comp_id c)) root) ->
  exists n fs, d = GSequence ext n fs /\ NoDup (map gf_name fs).
Proof.
  intros H1 H2 H. destruct (C35_sequence_proof E defs inst root additions ext cs name st d st' H1 H2) as (fs & -> & _ & _ & Hn & _). do 2 eexists. split; [reflexivity|].
  rewrite Hn. exact (kept_apart comp_id to_value_ident bare_field root field_names_apart H).
Qed.
Lemma items_apart_proof E defs inst root marker ext cs name st : Forall (fun v => ev_value v = None) (root ++ ext) -> root <> [] -> zlen root <= 256 ->
  NoDup (map (fun v => bare (ev_name v)) root) ->
  exists consts, definition_of E defs inst (mkType (KBuiltin (BEnumerated root marker ext)) cs) name st = Ok (GEnumerated (zlen root - 1) marker consts, st) /\ NoDup (map fst consts).
Proof.
  intros H1 H2 H3 H. destruct (C34_proof E defs inst root marker ext cs name st H1 H2 H3) as (consts & Hd & _ & Hn). exists consts. split; [exact Hd|].
  rewrite Hn. exact (kept_apart ev_name to_const_ident bare root constant_names_apart H).
Qed.
Lemma all_items_apart E defs inst root marker ext cs name st d st' :
  definition_of E defs inst (mkType (KBuiltin (BEnumerated root marker ext)) cs) name st = Ok (d, st') ->
  NoDup (map (fun v => bare (ev_name v)) root) ->
  exists ub consts, d = GEnumerated ub marker consts /\ NoDup (map fst consts).
Proof.
  intros H Hn. unfold definition_of in H. cbn [resolve_type resolve_base] in H. unfold resolve_enumerated in H.
  destruct (enum_numbers root) as [ns| | |]; try discriminate. cbn [rbind] in H.
  destruct (enum_numbers ext) as [ms| | |]; try discriminate. cbn [rbind generate_for_type] in H.
  unfold glift, generate_enumerated in H.
  match type of H with context [arith_usize E ?x] => destruct (arith_usize E x) as [ub| | |]; try discriminate end. cbn [rbind] in H. injection H as <- <-.
  do 2 eexists. split; [reflexivity|]. rewrite map_map. cbn [fst]. destruct ns as [|? ?]; [|constructor].
  rewrite <- (map_map fst to_const_ident). destruct (enum_names_spec root 0) as [-> _]. rewrite map_map.
  exact (kept_apart ev_name to_const_ident bare root constant_names_apart Hn).
Qed.
Lemma letters_kept s : bare (to_const_ident s) = bare s /\ bare_field (to_value_ident s) = bare_field s.
Proof. split; [apply bare_shouty|symmetry; apply field_of_name]. Qed.
Lemma names_case :
  NoDup (map bare_field ["amfUENgapID"; "ran-UE-NGAP-ID"; "type"; "nas-pdu"; "nASC"]%string) /\
  map to_value_ident ["amfUENgapID"; "ran-UE-NGAP-ID"; "type"; "nas-pdu"; "nASC"]%string = ["amf_ue_ngap_id"; "ran_ue_ngap_id"; "typ"; "nas_pdu"; "nasc"]%string /\
  NoDup (map bare ["not-allowed"; "allowedOnce"; "n32"]%string) /\
  run (mkType (KBuiltin (BEnumerated [mkEnumValue "not-allowed" None; mkEnumValue "allowedOnce" None; mkEnumValue "n32" None] true [])) None) =
    Ok (GEnumerated 2 true [("NOT_ALLOWED", 0); ("ALLOWED_ONCE", 1); ("N32", 2)]%string) /\
  run (mkType (KSequence [mkSeqComp "type" (mkType (KBuiltin BBoolean) None) false None;
                          mkSeqComp "nas-pdu" (mkType (KBuiltin BBoolean) None) false None] [] false) None) =
    Ok (GSequence false None [mkField "typ" None false "BOOLEAN_2"; mkField "nas_pdu" None false "BOOLEAN_3"]).
Proof.
  split; [|split; [vm_compute; reflexivity|split; [|split; vm_compute; reflexivity]]].
  all: vm_compute; repeat (constructor; [intros Hin; cbn [In] in Hin; repeat (destruct Hin as [Hin|Hin]; [discriminate Hin|]); exact Hin|]); constructor.
Qed.
