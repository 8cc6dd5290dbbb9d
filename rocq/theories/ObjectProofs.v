(* Resolved objects and object sets with a meaning, and the components that are
   made from them. *)
From Coq Require Import ZArith NArith List Bool String Ascii Sorted Lia.
From Coq Require Import ZifyBool ZifyNat ZifyN.
Require Import Verif.Base Verif.DeriveModel Verif.DeriveSpec Verif.Asn1Model Verif.GenModel Verif.ResolveModel
  Verif.ModuleModel Verif.CompilerSpec Verif.GenProofs Verif.NameProofs Verif.OpenProofs.
Import ListNotations.
Open Scope Z_scope.

(* ------------------------------------------------------------------ *)
(* Names without spaces are left alone by trimming                     *)
(* ------------------------------------------------------------------ *)
Lemma ltrim_none p s : Forall (fun c => p c = false) (chars s) -> ltrim p s = s.
Proof. destruct s as [|c r]; [easy|]. cbn. intros H. inversion_clear H. now rewrite H0. Qed.
Lemma srev_chars s : forall acc, chars (srev acc s) = rev (chars s) ++ chars acc.
Proof.
  induction s as [|c r IH]; intros acc; [reflexivity|]. cbn [srev chars rev]. rewrite IH. cbn [chars].
  now rewrite <- app_assoc.
Qed.
Lemma srev_srev s : srev EmptyString (srev EmptyString s) = s.
Proof. apply chars_inj. rewrite !srev_chars. cbn [chars]. rewrite !app_nil_r. apply rev_involutive. Qed.
Lemma trim_none p s : Forall (fun c => p c = false) (chars s) -> trim_matches p s = s.
Proof.
  intros H. unfold trim_matches. rewrite (ltrim_none p s H). rewrite ltrim_none; [apply srev_srev|].
  rewrite srev_chars. cbn [chars]. rewrite app_nil_r. now apply Forall_rev.
Qed.
Lemma strip_plain s : plain s -> strip s = s.
Proof. intros H. apply trim_none. eapply Forall_impl; [|exact H]. now intros c [Hc _]. Qed.
Lemma strip_braces_plain s : plain s -> strip_braces s = s.
Proof.
  intros H. unfold strip_braces. rewrite trim_none; [now apply strip_plain|].
  eapply Forall_impl; [|exact H]. now intros c [_ Hc].
Qed.

Lemma srev_app a b : srev EmptyString (a ++ b) = (srev EmptyString b ++ srev EmptyString a)%string.
Proof. apply chars_inj. rewrite chars_app, !srev_chars. cbn [chars]. rewrite !app_nil_r, chars_app. apply rev_app_distr. Qed.
(* the name in `{ S }` *)
Lemma strip_spaced s : plain s -> strip (" " ++ s ++ " ") = s.
Proof.
  intros H. unfold strip, trim_matches.
  replace (ltrim is_space (" " ++ s ++ " ")) with (if string_dec s EmptyString then EmptyString else (s ++ " ")%string).
  2:{ destruct s as [|c r]; [reflexivity|]. inversion_clear H as [|? ? [Hc _] _]. cbn. now rewrite Hc. }
  destruct (string_dec s EmptyString) as [->|Hs]; [reflexivity|]. rewrite srev_app. cbn [srev append ltrim]. change (is_space " ") with true. cbn match.
  rewrite ltrim_none; [apply srev_srev|]. rewrite srev_chars. cbn [chars]. rewrite app_nil_r. apply Forall_rev.
  eapply Forall_impl; [|exact H]. now intros c [Hc _].
Qed.
Lemma trim_braces s : trim_matches is_brace ("{ " ++ s ++ " }") = (" " ++ s ++ " ")%string.
Proof.
  unfold trim_matches. cbn [append ltrim]. change (is_brace "{") with true. change (is_brace " ") with false. cbn match.
  change (String " " (s ++ " }")) with (" " ++ (s ++ " }"))%string. rewrite !srev_app. cbn [srev append ltrim].
  change (is_brace "}") with true. change (is_brace " ") with false. cbn match.
  change (String " " (srev "" s ++ " ")) with (" " ++ (srev "" s ++ " "))%string. rewrite !srev_app, srev_srev. reflexivity.
Qed.
Lemma strip_braced s : plain s -> strip_braces ("{ " ++ s ++ " }") = s.
Proof. intros H. unfold strip_braces. rewrite trim_braces. now apply strip_spaced. Qed.
Lemma over_set_reference c S rel : over_set c S rel -> plain S -> set_reference c = Ok S.
Proof.
  intros [S0|S0 a] H; cbn [set_reference]; f_equal.
  - exact (strip_braced S0 H).
  - exact (strip_braces_plain S0 H).
Qed.
Lemma over_set_refs c S rel : over_set c S rel -> plain S -> constraint_refs c = [S].
Proof.
  intros [S0|S0 a] H; cbn [constraint_refs set_refs flat_map elements_refs app].
  - change (is_number ("{ " ++ S0 ++ " }")) with false. cbn [app]. f_equal. exact (strip_braced S0 H).
  - f_equal. exact (strip_braces_plain S0 H).
Qed.
Lemma over_set_key c S rel : over_set c S rel -> has_comp_reference c = rel.
Proof. now intros []. Qed.

(* ------------------------------------------------------------------ *)
(* The order of names                                                  *)
(* ------------------------------------------------------------------ *)
Lemma string_ltb_irrefl a : string_ltb a a = false.
Proof. unfold string_ltb. pose proof (String.compare_antisym a a) as H. now destruct (String.compare a a). Qed.
Lemma ascii_compare_lt a b : Ascii.compare a b = Lt <-> (N_of_ascii a < N_of_ascii b)%N.
Proof. unfold Ascii.compare. apply N.compare_lt_iff. Qed.
Lemma ascii_compare_eq a b : Ascii.compare a b = Eq <-> a = b.
Proof.
  unfold Ascii.compare. rewrite N.compare_eq_iff. split; [|now intros ->]. intros H.
  rewrite <- (ascii_N_embedding a), <- (ascii_N_embedding b). now rewrite H.
Qed.
Lemma string_ltb_cons a r b s : string_ltb (String a r) (String b s) = true <->
  (N_of_ascii a < N_of_ascii b)%N \/ (a = b /\ string_ltb r s = true).
Proof.
  unfold string_ltb. cbn [String.compare]. destruct (Ascii.compare a b) eqn:H.
  - apply ascii_compare_eq in H. subst b. split; [auto|intros [H|[_ H]]; [lia|exact H]].
  - apply ascii_compare_lt in H. split; [auto|reflexivity].
  - assert (~ (N_of_ascii a < N_of_ascii b)%N) by (rewrite <- ascii_compare_lt; congruence).
    assert (a <> b) by (rewrite <- ascii_compare_eq; congruence). split; [discriminate|tauto].
Qed.
Lemma string_ltb_trans a : forall b c, string_ltb a b = true -> string_ltb b c = true -> string_ltb a c = true.
Proof.
  induction a as [|x a IH]; intros [|y b] [|z c]; try discriminate; try reflexivity.
  rewrite !string_ltb_cons. intros [H1|[-> H1]] [H2|[-> H2]]; auto; try (left; lia). right. split; [reflexivity|]. eapply IH; eassumption.
Qed.
Lemma string_ltb_total a b : string_ltb a b = false -> a <> b -> string_ltb b a = true.
Proof.
  unfold string_ltb. rewrite (String.compare_antisym b a). destruct (String.compare a b) eqn:H; cbn; try discriminate; [|reflexivity].
  apply String.compare_eq_iff in H. contradiction.
Qed.

Section Sorted.
Context {A : Type} (R : A -> A -> Prop) (Hirr : forall a, ~ R a a) (Htr : forall a b c, R a b -> R b c -> R a c).
Lemma sorted_unique : forall a b, StronglySorted R a -> StronglySorted R b -> (forall x, In x a <-> In x b) -> a = b.
Proof.
  induction a as [|x a IH]; intros b Ha Hb Hin.
  - destruct b as [|y b]; [reflexivity|]. destruct (proj2 (Hin y)). now left.
  - destruct b as [|y b]; [destruct (proj1 (Hin x)); now left|].
    inversion_clear Ha as [|? ? Ha' Hxa]. inversion_clear Hb as [|? ? Hb' Hyb]. rewrite Forall_forall in Hxa, Hyb.
    assert (x = y).
    { destruct (proj1 (Hin x)) as [->|Hx]; [now left|reflexivity|]. destruct (proj2 (Hin y)) as [->|Hy]; [now left|reflexivity|].
      exfalso. apply (Hirr x). eapply Htr; [apply Hxa, Hy|apply Hyb, Hx]. }
    subst y. f_equal. apply IH; try assumption. intros z. split; intros Hz.
    + destruct (proj1 (Hin z)) as [->|H]; [now right| |exact H]. destruct (Hirr z). now apply Hxa.
    + destruct (proj2 (Hin z)) as [->|H]; [now right| |exact H]. destruct (Hirr z). now apply Hyb.
Qed.
End Sorted.
Definition by_name {B} (a b : string * Z * B) : Prop := string_ltb (fst (fst a)) (fst (fst b)) = true.
Definition key_by_name (a b : string * Z) : Prop := string_ltb (fst a) (fst b) = true.
Lemma sorted_keys {B} (l : list (string * Z * B)) : StronglySorted by_name l -> StronglySorted key_by_name (map fst l).
Proof.
  induction 1 as [|x l H IH Hx]; cbn [map]; constructor; [exact IH|]. rewrite Forall_forall in *. intros k Hk.
  apply in_map_iff in Hk. destruct Hk as (y & <- & Hy). exact (Hx y Hy).
Qed.
Lemma einsert_new e l x : ~ In (fst (fst e)) (map (fun y : string * Z * rtype => fst (fst y)) l) -> (In x (einsert e l) <-> x = e \/ In x l).
Proof.
  intros H. apply einsert_in. intros Hc. apply H. apply in_map_iff in Hc. destruct Hc as (y & Hy & Hin). apply in_map_iff. exists y. now rewrite Hy.
Qed.
Lemma einsert_sorted e l : ~ In (fst (fst e)) (map (fun x : string * Z * rtype => fst (fst x)) l) ->
  StronglySorted by_name l -> StronglySorted by_name (einsert e l).
Proof.
  intros Hn Hs. induction Hs as [|x l Hs IH Hx]; cbn [einsert].
  - constructor; [constructor|constructor].
  - assert (Hne : String.eqb (fst (fst e)) (fst (fst x)) = false).
    { apply String.eqb_neq. intros Heq. apply Hn. cbn [map]. left. congruence. }
    unfold entry_eqb, entry_ltb. rewrite Hne. cbn [andb]. rewrite orb_false_r.
    destruct (string_ltb (fst (fst e)) (fst (fst x))) eqn:Hlt.
    + constructor; [now constructor|]. constructor; [exact Hlt|]. rewrite Forall_forall in *. intros y Hy.
      eapply string_ltb_trans; [exact Hlt|]. exact (Hx y Hy).
    + assert (Hn' : ~ In (fst (fst e)) (map (fun x : string * Z * rtype => fst (fst x)) l)) by (intros H; apply Hn; now right).
      constructor; [now apply IH|]. rewrite Forall_forall in *. intros y Hy. apply (einsert_new e l y Hn') in Hy.
      destruct Hy as [->|Hy]; [|exact (Hx y Hy)]. apply string_ltb_total; [exact Hlt|]. now apply String.eqb_neq.
Qed.
Lemma open_types_sorted f s : NoDup (map (fun x => snd (fst x)) (os_lookup s)) -> StronglySorted by_name (open_types f s).
Proof.
  unfold open_types. generalize (os_lookup s) as l. clear s. intros l Hnd.
  match goal with |- StronglySorted _ (fold_left ?g _ _) => set (g0 := g) end.
  assert (Hgen : forall l acc, NoDup (map (fun x => snd (fst x)) l) ->
    (forall z nm o, In (z, nm, o) l -> ~ In nm (map (fun x : string * Z * rtype => fst (fst x)) acc)) ->
    StronglySorted by_name acc -> StronglySorted by_name (fold_left g0 l acc)).
  { clear l Hnd. induction l as [|[[z1 nm1] o1] l IH]; intros acc Hnd Hfresh Hs; cbn [fold_left]; [exact Hs|].
    cbn [map fst snd] in Hnd. inversion_clear Hnd as [|? ? Hn Hnd'].
    assert (Hnew : ~ In nm1 (map (fun x : string * Z * rtype => fst (fst x)) acc)) by (eapply Hfresh; now left).
    assert (Hcase : (exists r, g0 acc (z1, nm1, o1) = einsert (nm1, z1, RReference r) acc) \/ g0 acc (z1, nm1, o1) = acc).
    { unfold g0. destruct (lookup f o1) as [[[[]|]|]|]; try (now right). left. eauto. }
    destruct Hcase as [(r & ->)| ->].
    - apply IH; [exact Hnd'| |now apply einsert_sorted]. intros z2 nm2 o2 Hin2 Hc. apply in_map_iff in Hc. destruct Hc as (x & <- & Hc).
      apply (einsert_new (nm1, z1, RReference r) acc x Hnew) in Hc. destruct Hc as [->|Hc].
      + apply Hn. apply in_map_iff. exists (z2, nm1, o2). now split.
      + apply (Hfresh z2 (fst (fst x)) o2); [now right|]. now apply (in_map (fun x : string * Z * rtype => fst (fst x))).
    - apply IH; [exact Hnd'| |exact Hs]. intros z2 nm2 o2 Hin2. apply (Hfresh z2 nm2 o2). now right. }
  apply Hgen; [exact Hnd|intros ? ? ? _ []|constructor].
Qed.

(* ------------------------------------------------------------------ *)
(* Objects and sets of objects with a meaning                          *)
(* ------------------------------------------------------------------ *)
Definition types_of (defs : list (string * rdef)) : list (string * rtype) :=
  flat_map (fun kd => match snd kd with DType t => [(fst kd, t)] | _ => [] end) defs.
Lemma lookup_in {A} k (l : list (string * A)) v : lookup k l = Some v -> In (k, v) l.
Proof.
  induction l as [|[k' v'] r IH]; [easy|]. cbn [lookup]. destruct (String.eqb k k') eqn:He.
  - apply String.eqb_eq in He. subst. injection 1 as ->. now left.
  - intros H. right. now apply IH.
Qed.
Lemma types_of_in defs r t : In (r, DType t) defs -> In (r, t) (types_of defs).
Proof. intros H. apply in_flat_map. exists (r, DType t). split; [exact H|now left]. Qed.

Section Objects.
Context (E : env) (defs : list (string * rdef)).
Notation D := (types_of defs).

Inductive field_is : string * rfield -> string * field_meaning -> Prop :=
| Fi_no_type k : field_is (k, RFType None) (k, FieldType None)
| Fi_type k r T : type_means E D (RReference r) T -> field_is (k, RFType (Some (RReference r))) (k, FieldType (Some T))
| Fi_written k t T : (forall r, t <> RReference r) -> field_is (k, RFType (Some t)) (k, FieldWritten T)
| Fi_value k t v T i : type_means E D t T ->
    (forall nm z, i = Some (nm, z) -> v = Some (VReference nm) /\
       exists v', lookup nm defs = Some (DValue v') /\ base_integer_value v' = Some z) ->
    field_is (k, RFValue t v) (k, FieldValue T i).
Definition object_is : robject -> object_meaning -> Prop := Forall2 field_is.
(* the objects and the table of the set *)
Definition set_pairs (u : string) (pairs : list (robject * object_meaning)) (table : list (Z * string * robject)) : Prop :=
  Forall (fun p => object_is (fst p) (snd p)) pairs /\ NoDup (map fst table) /\
  forall z nm o, In (z, nm, o) table <-> exists ao, In (o, ao) pairs /\ id_of u ao = Some (nm, z).
Definition set_is (os : robject_set) (s : set_meaning) : Prop :=
  well_identified s /\ exists pairs, os_elements os = map fst pairs /\ sm_objects s = map snd pairs /\ set_pairs (sm_unique s) pairs (os_lookup os).

Lemma field_lookup f o ao : object_is o ao ->
  match lookup f o, lookup f ao with
  | Some a, Some b => field_is (f, a) (f, b)
  | None, None => True
  | _, _ => False
  end.
Proof.
  induction 1 as [|[k a] [k' b] o ao H _ IH]; [exact I|]. cbn [lookup].
  assert (k = k') by (inversion H; reflexivity). subst k'. destruct (String.eqb f k) eqn:He; [|exact IH].
  apply String.eqb_eq in He. subst k. exact H.
Qed.
Lemma id_known u o ao nm z : object_is o ao -> id_of u ao = Some (nm, z) ->
  exists t v, lookup u o = Some (RFValue t (Some (VReference nm))) /\ lookup nm defs = Some (DValue v) /\ base_integer_value v = Some z.
Proof.
  intros Ho Hid. pose proof (field_lookup u o ao Ho) as Hl. unfold id_of in Hid. destruct (lookup u ao) as [[T|T i|T]|]; try discriminate. subst i.
  destruct (lookup u o) as [a|]; [|contradiction]. inversion Hl as [| | |k t v T' i' Hm Hi]; subst.
  destruct (Hi nm z eq_refl) as (-> & v' & H1 & H2). eauto.
Qed.
Lemma nodup_image {A B} (f : A -> B) l x y : NoDup (map f l) -> In x l -> In y l -> f x = f y -> x = y.
Proof.
  induction l as [|a l IH]; [intros _ []|]. cbn [map]. intros Hnd Hx Hy Heq. inversion_clear Hnd as [|? ? Hn Hnd'].
  destruct Hx as [->|Hx], Hy as [->|Hy].
  - reflexivity.
  - destruct Hn. rewrite Heq. now apply in_map.
  - destruct Hn. rewrite <- Heq. now apply in_map.
  - now apply IH.
Qed.
Lemma pairs_in {A B} (p : list (A * B)) a b : In (a, b) p -> In b (map snd p).
Proof. intros H. apply in_map_iff. now exists (a, b). Qed.

Section Set_.
Context (os : robject_set) (s : set_meaning) (Hset : set_is os s).

Lemma table_names : NoDup (map (fun x => snd (fst x)) (os_lookup os)).
Proof.
  destruct Hset as (_ & pairs & _ & _ & Hp & Hnd & Ht). rewrite Forall_forall in Hp.
  assert (Hz : forall z nm o z' o', In (z, nm, o) (os_lookup os) -> In (z', nm, o') (os_lookup os) -> z = z').
  { intros z nm o z' o' H1 H2. apply Ht in H1. apply Ht in H2. destruct H1 as (a & H1 & I1), H2 as (a' & H2 & I2).
    destruct (id_known _ _ _ _ _ (Hp _ H1) I1) as (t & v & _ & L1 & B1). destruct (id_known _ _ _ _ _ (Hp _ H2) I2) as (t' & v' & _ & L2 & B2).
    congruence. }
  clear Ht Hp. induction (os_lookup os) as [|[[z nm] o] l IH]; [constructor|]. cbn [map fst snd] in *. inversion_clear Hnd as [|? ? Hn Hnd'].
  constructor; [|apply IH; [exact Hnd'|intros; eapply Hz; right; eassumption]].
  intros Hin. apply in_map_iff in Hin. destruct Hin as ([[z' nm'] o'] & Heq & Hin). cbn [fst snd] in Heq. subst nm'.
  apply Hn. apply in_map_iff. exists (z', nm, o'). split; [|exact Hin]. cbn. f_equal. symmetry. eapply Hz; [now left|right; exact Hin].
Qed.
Theorem open_types_mean f al : open_type s f al -> open_mean E D (open_types f os) al.
Proof.
  intros (l & Hsort & Hal & Hl). destruct Hset as ((_ & Hids) & pairs & Hel & Hob & Hp & Hnd & Ht).
  rewrite Forall_forall in Hp. pose proof (open_types_sorted f os table_names) as Hsort'.
  set (L := open_types f os) in *.
  assert (HL : forall nm z t, In (nm, z, t) L <-> exists o r, In (z, nm, o) (os_lookup os) /\ object_type f o r /\ t = RReference r).
  { intros. now apply open_types_in. }
  assert (Hkeys : map fst L = map fst l).
  { apply (sorted_unique key_by_name).
    - intros a. unfold key_by_name. rewrite string_ltb_irrefl. discriminate.
    - intros a b c. apply string_ltb_trans.
    - now apply sorted_keys.
    - apply sorted_keys. exact Hsort.
    - intros [nm z]. rewrite !in_map_iff. split.
      + intros ([[nm' z'] t] & Heq & Hin). cbn [fst] in Heq. injection Heq as -> ->. apply HL in Hin. destruct Hin as (o & r & Ho & Hty & ->).
        apply Ht in Ho. destruct Ho as (ao & Ho & Hid). pose proof (field_lookup f o ao (Hp _ Ho)) as Hf. rewrite Hty in Hf.
        destruct (lookup f ao) as [b|] eqn:Hb; [|contradiction]. inversion Hf as [|k r' T Hm|k t' T Hno|]; subst; [|now destruct (Hno r)].
        exists (nm, z, T). split; [reflexivity|]. apply Hl. exists ao. rewrite Hob. split; [now apply pairs_in in Ho|]. now split.
      + intros ([[nm' z'] T] & Heq & Hin). cbn [fst] in Heq. injection Heq as -> ->. apply Hl in Hin. destruct Hin as (ao & Hin & Hid & Hty).
        rewrite Hob in Hin. apply in_map_iff in Hin. destruct Hin as ([o ao'] & Heq & Ho). cbn [snd] in Heq. subst ao'.
        pose proof (field_lookup f o ao (Hp _ Ho)) as Hf. rewrite Hty in Hf. destruct (lookup f o) as [a|] eqn:Ha; [|contradiction].
        inversion Hf as [|k r T' Hm| |]; subst. exists (nm, z, RReference r). split; [reflexivity|]. apply HL. exists o, r.
        split; [|now split]. apply Ht. now exists ao. }
  assert (Hmean : forall nm z t T, In (nm, z, t) L -> In (nm, z, T) l -> type_means E D t T).
  { intros nm z t T H1 H2. apply HL in H1. destruct H1 as (o & r & Ho & Hty & ->). apply Ht in Ho. destruct Ho as (ao & Ho & Hid).
    apply Hl in H2. destruct H2 as (ao' & Hin & Hid' & Hty'). assert (ao' = ao).
    { apply (nodup_image (id_of (sm_unique s)) (sm_objects s)); try assumption; [|congruence]. rewrite Hob. now apply pairs_in in Ho. }
    subst ao'. pose proof (field_lookup f o ao (Hp _ Ho)) as Hf. rewrite Hty, Hty' in Hf. inversion Hf; subst. assumption. }
  clear - Hkeys Hmean Hal. revert l al Hkeys Hal Hmean. induction L as [|[[nm z] t] L IH]; intros [|[[nm' z'] T] l] al Hk Hal Hm; try discriminate.
  - destruct al; [constructor|discriminate].
  - cbn [map fst] in Hk. injection Hk as <- <- Hk. destruct al as [|k x T' al]; [discriminate|]. cbn [alternatives map fst snd] in Hal.
    injection Hal as -> -> -> Hal. constructor; [apply (Hm nm z); now left|]. apply (IH l); try assumption.
    intros; eapply Hm; right; eassumption.
Qed.
Theorem class_fields_mean S root fs : sm_objects s <> [] -> class_fields S s root fs ->
  exists l, class_components (map (fun c => (comp_id c, comp_ty c)) root) S os = Ok l /\
    (forall i, components_mean E D i l fs) /\ filter rc_optional l = [].
Proof.
  intros Hne Hcf. pose proof open_types_mean as Hopen. destruct Hset as (_ & pairs & Hel & Hob & Hp & _). rewrite Forall_forall in Hp.
  destruct pairs as [|[first fm] pairs]; [cbn in Hob; congruence|]. cbn [map fst snd] in *.
  unfold class_components. rewrite Hel. assert (Hfm : In fm (sm_objects s)) by (rewrite Hob; now left).
  pose proof (Hp _ (or_introl eq_refl)) as Hfirst. cbn [fst snd] in Hfirst.
  match goal with |- exists l, rfold ?g _ _ = _ /\ _ => set (g0 := g) end.
  assert (Hgen : forall acc, exists l, rfold g0 acc (map (fun c => (comp_id c, comp_ty c)) root) = Ok (acc ++ l) /\
     (forall i, components_mean E D i l fs) /\ filter rc_optional l = []); [|exact (Hgen [])].
  induction Hcf as [|id cl f c rel d T r fl Hov _ Hv Hr IH|id cl f c rel d al r fl Hov Hnv Hop Hr IH]; intros acc.
  - exists []. split; [cbn; now rewrite app_nil_r|]. split; [constructor|reflexivity].
  - destruct (Hv fm Hfm) as (v & Hlv). pose proof (field_lookup f first fm Hfirst) as Hf. rewrite Hlv in Hf.
    destruct (lookup f first) as [a|] eqn:Ha; [|contradiction]. inversion Hf as [| | |k t v' T' i' Hm Hi]; subst.
    destruct (IH (acc ++ [mkRComp id t false (negb (has_comp_reference c))])) as (l & H1 & H2 & H3).
    exists (mkRComp id t false (negb (has_comp_reference c)) :: l). split; [|split].
    + cbn [map comp_id comp_ty]. change (rfold g0 acc (?x :: ?y)) with (acc1 <-- g0 acc x ;; rfold g0 acc1 y).
      replace (g0 acc (id, mkType (KReference (RefClassField cl f)) (Some [c]))) with (@Ok (list rcomp) (acc ++ [mkRComp id t false (negb (has_comp_reference c))])).
      2:{ unfold g0. now rewrite Ha. }
      cbn [rbind]. rewrite H1, <- app_assoc. reflexivity.
    + intros i. rewrite (over_set_key _ _ _ Hov). constructor; [exact Hm|apply H2].
    + cbn [filter rc_optional]. exact H3.
  - pose proof (field_lookup f first fm Hfirst) as Hf.
    destruct (IH (acc ++ [mkRComp id (RSet S (open_types f os)) false false])) as (l & H1 & H2 & H3).
    exists (mkRComp id (RSet S (open_types f os)) false false :: l). split; [|split].
    + cbn [map comp_id comp_ty]. change (rfold g0 acc (?x :: ?y)) with (acc1 <-- g0 acc x ;; rfold g0 acc1 y).
      replace (g0 acc (id, mkType (KReference (RefClassField cl f)) (Some [c]))) with (@Ok (list rcomp) (acc ++ [mkRComp id (RSet S (open_types f os)) false false])).
      2:{ unfold g0. destruct (lookup f first) as [[t|t v]|] eqn:Ha; try reflexivity. exfalso.
          destruct (lookup f fm) as [b|] eqn:Hb; [|contradiction]. inversion Hf as [| | |k t0 v0 T' i' Hm Hi]; subst. eapply Hnv; eassumption. }
      cbn [rbind]. rewrite H1, <- app_assoc. reflexivity.
    + intros i. constructor; [|apply H2]. constructor. now apply Hopen.
    + cbn [filter rc_optional]. exact H3.
Qed.
End Set_.
End Objects.
