(* Object sets, and the open types made from them. *)
From Coq Require Import ZArith NArith List Bool String Ascii Lia.
From Coq Require Import ZifyBool ZifyNat ZifyN.
Require Import Verif.Base Verif.Asn1Model Verif.GenModel Verif.ResolveModel Verif.ModuleModel Verif.DeriveModel Verif.CompilerSpec Verif.GenProofs.
Import ListNotations.
Open Scope Z_scope.

Lemma table_insert_in z nm o l x : NoDup (map fst l) ->
  (In x (table_insert z nm o l) <-> x = (z, nm, o) \/ (In x l /\ fst x <> (z, nm))).
Proof.
  induction l as [|[[z' nm'] o'] l IH]; cbn [table_insert map fst]; intros Hnd.
  - cbn. split; [intros [<-|[]]; now left|intros [->|[[] _]]; now left].
  - inversion_clear Hnd as [|? ? Hn Hnd']. destruct ((z =? z') && String.eqb nm nm') eqn:He.
    + apply andb_true_iff in He. destruct He as [H1 H2]. apply Z.eqb_eq in H1. apply String.eqb_eq in H2. subst z' nm'.
      split.
      * intros [<-|Hin]; [now left|]. right. split; [now right|]. intros Hx. apply Hn. rewrite <- Hx. now apply in_map.
      * intros [->|[[<-|Hin] Hx]]; [now left|cbn in Hx; congruence|now right].
    + assert (Hne : (z', nm') <> (z, nm)).
      { intros Heq. injection Heq as -> ->. rewrite Z.eqb_refl, String.eqb_refl in He. discriminate. }
      cbn [In]. rewrite (IH Hnd'). split.
      * intros [<-|[->|[Hin Hx]]]; [right; split; [now left|exact Hne]|now left|right; split; [now right|exact Hx]].
      * intros [->|[[<-|Hin] Hx]]; [right; now left|now left|right; right; now split].
Qed.
Lemma table_insert_nodup z nm o l : NoDup (map fst l) -> NoDup (map fst (table_insert z nm o l)).
Proof.
  induction l as [|[[z' nm'] o'] l IH]; cbn [table_insert map fst]; intros Hnd; [repeat constructor; intros []|].
  destruct ((z =? z') && String.eqb nm nm') eqn:He.
  - apply andb_true_iff in He. destruct He as [H1 H2]. apply Z.eqb_eq in H1. apply String.eqb_eq in H2. subst z' nm'. exact Hnd.
  - inversion_clear Hnd as [|? ? Hn Hnd']. cbn [map fst]. constructor; [|now apply IH].
    intros Hin. apply in_map_iff in Hin. destruct Hin as (x & Hx & Hin). apply (table_insert_in _ _ _ _ _ Hnd') in Hin.
    destruct Hin as [->|[Hin _]].
    + cbn [fst] in Hx. injection Hx as -> ->. rewrite Z.eqb_refl, String.eqb_refl in He. discriminate.
    + apply Hn. rewrite <- Hx. now apply in_map.
Qed.

Section Sets.
Context (E : env) (defs : list (string * rdef)) (inst : string -> list actual_param -> res rtype) (fuel : nat).
Context (unique : option string).
Notation id := (object_id defs unique).

Lemma object_id_fun o nm z nm' z' : id o nm z -> id o nm' z' -> nm = nm' /\ z = z'.
Proof.
  intros (u & t & v & Hu & Hl & Hd & Hv) (u' & t' & v' & Hu' & Hl' & Hd' & Hv').
  rewrite Hu in Hu'. injection Hu' as <-. rewrite Hl in Hl'. injection Hl' as _ <-. split; [reflexivity|].
  rewrite Hd in Hd'. injection Hd' as <-. congruence.
Qed.
(* an insertion keeps the table right *)
Lemma table_insert_keeps els t z nm o :
  table_of defs unique (mkObjectSet els t) -> id o nm z -> table_of defs unique (mkObjectSet (els ++ [o]) (table_insert z nm o t)).
Proof.
  intros (H1 & H2 & H3) Ho. split; [|split]; cbn [os_lookup os_elements] in *.
  - now apply table_insert_nodup.
  - intros z' nm' o' Hin. apply (table_insert_in _ _ _ _ _ H1) in Hin. destruct Hin as [Heq|[Hin _]].
    + injection Heq as -> -> ->. split; [apply in_app_iff; right; now left|exact Ho].
    + destruct (H2 _ _ _ Hin). split; [apply in_app_iff; now left|assumption].
  - intros o' nm' z' Hin Hid. destruct (string_dec nm' nm) as [->|Hn].
    + destruct (Z.eq_dec z' z) as [->|Hz].
      * exists o. apply (table_insert_in _ _ _ _ _ H1). now left.
      * apply in_app_iff in Hin. destruct Hin as [Hin|[<-|[]]].
        -- destruct (H3 _ _ _ Hin Hid) as (o2 & Ho2). exists o2. apply (table_insert_in _ _ _ _ _ H1). right. split; [exact Ho2|]. cbn. congruence.
        -- destruct (object_id_fun _ _ _ _ _ Ho Hid). congruence.
    + apply in_app_iff in Hin. destruct Hin as [Hin|[<-|[]]].
      * destruct (H3 _ _ _ Hin Hid) as (o2 & Ho2). exists o2. apply (table_insert_in _ _ _ _ _ H1). right. split; [exact Ho2|]. cbn. congruence.
      * destruct (object_id_fun _ _ _ _ _ Ho Hid). congruence.
Qed.
Lemma table_skip_keeps els t o :
  table_of defs unique (mkObjectSet els t) -> (forall nm z, ~ id o nm z) -> table_of defs unique (mkObjectSet (els ++ [o]) t).
Proof.
  intros (H1 & H2 & H3) Ho. split; [exact H1|]. split; cbn [os_lookup os_elements] in *.
  - intros z nm o' Hin. destruct (H2 _ _ _ Hin). split; [apply in_app_iff; now left|assumption].
  - intros o' nm z Hin Hid. apply in_app_iff in Hin. destruct Hin as [Hin|[<-|[]]]; [eapply H3; eassumption|destruct (Ho _ _ Hid)].
Qed.
Lemma table_add_keeps els t o t' : table_of defs unique (mkObjectSet els t) -> table_add defs unique o t = Ok t' ->
  table_of defs unique (mkObjectSet (els ++ [o]) t').
Proof.
  intros Ht H. unfold table_add in H. destruct unique as [u|] eqn:Hu.
  2:{ injection H as <-. rewrite <- Hu in *. apply table_skip_keeps; [exact Ht|]. intros nm z (u & ty & v & Hu' & _). congruence. }
  rewrite <- Hu in *.
  assert (Hno : (forall ty nm, lookup u o <> Some (RFValue ty (Some (VReference nm)))) -> forall nm z, ~ id o nm z).
  { intros Hl nm z (u' & ty & v & Hu' & Hl' & _). rewrite Hu in Hu'. injection Hu' as <-. eapply Hl, Hl'. }
  destruct (lookup u o) as [[ty|ty [v|]]|] eqn:Hl; try discriminate.
  - injection H as <-. apply table_skip_keeps; [exact Ht|]. apply Hno. discriminate.
  - destruct v as [s|? ?|z|].
    + destruct (lookup s defs) as [d|] eqn:Hs; try discriminate.
      destruct d as [t0|v|os|o0].
      * injection H as <-. apply table_skip_keeps; [exact Ht|]. intros nm z (u' & ty' & v' & Hu' & Hl' & Hd & _).
        rewrite Hu in Hu'. injection Hu' as <-. rewrite Hl in Hl'. injection Hl' as _ <-. congruence.
      * destruct (base_integer_value v) as [z|] eqn:Hv; try discriminate. injection H as <-.
        apply table_insert_keeps; [exact Ht|]. exists u, ty, v. auto.
      * injection H as <-. apply table_skip_keeps; [exact Ht|]. intros nm z (u' & ty' & v' & Hu' & Hl' & Hd & _).
        rewrite Hu in Hu'. injection Hu' as <-. rewrite Hl in Hl'. injection Hl' as _ <-. congruence.
      * injection H as <-. apply table_skip_keeps; [exact Ht|]. intros nm z (u' & ty' & v' & Hu' & Hl' & Hd & _).
        rewrite Hu in Hu'. injection Hu' as <-. rewrite Hl in Hl'. injection Hl' as _ <-. congruence.
    + injection H as <-. apply table_skip_keeps; [exact Ht|]. apply Hno. intros; discriminate.
    + injection H as <-. apply table_skip_keeps; [exact Ht|]. apply Hno. intros; discriminate.
    + injection H as <-. apply table_skip_keeps; [exact Ht|]. apply Hno. intros; discriminate.
Qed.
Lemma table_merge els t : forall l, table_of defs unique (mkObjectSet els t) ->
  (forall z nm o, In (z, nm, o) l -> In o els /\ id o nm z) ->
  table_of defs unique (mkObjectSet els (fold_left (fun t x => match x with (z, nm, o) => table_insert z nm o t end) l t)).
Proof.
  intros l. revert t. induction l as [|[[z nm] o] l IH]; intros t Ht Hl; [exact Ht|]. cbn [fold_left]. apply IH.
  - destruct (Hl z nm o) as [Ho Hid]; [now left|].
    destruct (table_insert_keeps els t z nm o Ht Hid) as (G1 & G2 & G3). split; [exact G1|]. split; cbn [os_lookup os_elements] in *.
    + intros z' nm' o' Hin. destruct (G2 _ _ _ Hin) as [G4 G5]. split; [|exact G5]. apply in_app_iff in G4. destruct G4 as [G4|[<-|[]]]; assumption.
    + intros o' nm' z' Hin. apply G3. apply in_app_iff. now left.
  - intros z' nm' o' Hin. apply Hl. now right.
Qed.
Lemma table_weaken els els' t : table_of defs unique (mkObjectSet els t) -> (forall o, In o els -> In o els') ->
  (forall o nm z, In o els' -> id o nm z -> In o els \/ exists o', In (z, nm, o') t) -> table_of defs unique (mkObjectSet els' t).
Proof.
  intros (H1 & H2 & H3) Hi Hn. split; [exact H1|]. split; cbn [os_lookup os_elements] in *.
  - intros z nm o Hin. destruct (H2 _ _ _ Hin). auto.
  - intros o nm z Hin Hid. destruct (Hn o nm z Hin Hid) as [Ho|Ho]; [eapply H3; eassumption|exact Ho].
Qed.
Lemma fold_keeps l : forall t z nm, NoDup (map fst t) -> (exists o, In (z, nm, o) t) \/ (exists o, In (z, nm, o) l) ->
  exists o, In (z, nm, o) (fold_left (fun t x => match x with (z, nm, o) => table_insert z nm o t end) l t).
Proof.
  induction l as [|[[z nm] o] l IH]; intros t z' nm' Hnd H; cbn [fold_left].
  - destruct H as [H|(o & [])]. exact H.
  - apply IH; [now apply table_insert_nodup|].
    assert (Hd : {(z', nm') = (z, nm)} + {(z', nm') <> (z, nm)}) by (decide equality; [apply string_dec|apply Z.eq_dec]).
    destruct Hd as [Heq|Hne].
    + injection Heq as -> ->. left. exists o. apply (table_insert_in _ _ _ _ _ Hnd). now left.
    + destruct H as [(o' & Ho')|(o' & [Heq|Ho'])].
      * left. exists o'. apply (table_insert_in _ _ _ _ _ Hnd). right. now split.
      * injection Heq as -> -> ->. congruence.
      * right. now exists o'.
Qed.

Theorem object_set_table elems s : sets_known defs unique elems ->
  resolve_object_set E defs inst fuel unique elems = Ok s ->
  table_of defs unique s /\ forall o, In o (os_elements s) <-> exists e, In e elems /\ element_of E defs inst fuel e o.
Proof.
  unfold resolve_object_set. intros Hsets.
  match goal with |- rfold ?g _ _ = _ -> _ => set (f := g) end.
  assert (Hgen : forall elems acc, sets_known defs unique elems -> table_of defs unique acc -> rfold f acc elems = Ok s ->
    table_of defs unique s /\ forall o, In o (os_elements s) <-> In o (os_elements acc) \/ exists e, In e elems /\ element_of E defs inst fuel e o).
  { induction elems0 as [|e l IH]; intros acc Hs Hacc H.
    - injection H as <-. split; [exact Hacc|]. intros o. split; [now left|intros [H|(e & [] & _)]; exact H].
    - change (rfold f acc (e :: l)) with (acc1 <-- f acc e ;; rfold f acc1 l) in H.
      destruct (f acc e) as [acc1| | |] eqn:Hf; try discriminate. cbn [rbind] in H.
      assert (Hs' : sets_known defs unique l) by (intros r s0 Hr; apply Hs; now right).
      assert (Hstep : table_of defs unique acc1 /\ forall o, In o (os_elements acc1) <-> In o (os_elements acc) \/ element_of E defs inst fuel e o).
      { destruct acc as [els t]. destruct e as [r|r|v]; cbn [f] in Hf; unfold f in Hf.
        - destruct (lookup r defs) as [[| |s0|]|] eqn:Hr; try discriminate. injection Hf as <-. cbn [os_elements os_lookup].
          destruct (Hs r s0 (or_introl eq_refl) Hr) as (G1 & G2 & G3). split.
          + assert (Hbig : table_of defs unique (mkObjectSet (els ++ os_elements s0) t) -> True) by auto. clear Hbig.
            assert (Hm : table_of defs unique (mkObjectSet els t)) by exact Hacc.
            destruct Hm as (M1 & M2 & M3). cbn [os_elements os_lookup] in *. split; [|split]; cbn [os_elements os_lookup].
            * clear - M1. revert t M1. induction (os_lookup s0) as [|[[z nm] o] l IH]; intros t M1; [exact M1|]. cbn [fold_left]. apply IH. now apply table_insert_nodup.
            * assert (Hsrc : forall l t, (forall x, In x t -> In x t) -> NoDup (map fst t) -> forall x,
                In x (fold_left (fun t x => match x with (z, nm, o) => table_insert z nm o t end) l t) -> In x t \/ In x l).
              { clear. induction l as [|[[z nm] o] l IH]; intros t _ Hnd x Hx; [now left|]. cbn [fold_left] in Hx.
                apply IH in Hx; [|auto|now apply table_insert_nodup]. destruct Hx as [Hx|Hx]; [|right; now right].
                apply (table_insert_in _ _ _ _ _ Hnd) in Hx. destruct Hx as [->|[Hx _]]; [right; now left|now left]. }
              intros z nm o Hin. apply Hsrc in Hin; [|auto|exact M1]. destruct Hin as [Hin|Hin].
              -- destruct (M2 _ _ _ Hin). split; [apply in_app_iff; now left|assumption].
              -- destruct (G2 _ _ _ Hin). split; [apply in_app_iff; now right|assumption].
            * intros o nm z Hin Hid. apply fold_keeps; [exact M1|]. apply in_app_iff in Hin.
              destruct Hin as [Hin|Hin]; [left; eapply M3; eassumption|right; eapply G3; eassumption].
          + intros o. rewrite in_app_iff. split; intros [Ho|Ho]; try (now left).
            * right. econstructor; eassumption.
            * inversion Ho as [| |? s1 ? Hr' Hin]; subst. rewrite Hr in Hr'. injection Hr' as <-. now right.
        - destruct (lookup r defs) as [[| | |o]|] eqn:Hr; try discriminate. cbn [os_elements os_lookup] in Hf.
          destruct (table_add defs unique o t) as [t'| | |] eqn:Ha; try discriminate. injection Hf as <-. split.
          + eapply table_add_keeps; eassumption.
          + intros o'. cbn [os_elements]. rewrite in_app_iff. split.
            * intros [Ho|[<-|[]]]; [now left|right; now constructor].
            * intros [Ho|Ho]; [now left|]. inversion Ho as [|? ? Hr'|]; subst. rewrite Hr in Hr'. injection Hr' as <-. right. now left.
        - destruct (resolve_object E defs inst fuel v) as [o| | |] eqn:Hr; try discriminate. cbn [rbind os_elements os_lookup] in Hf.
          destruct (table_add defs unique o t) as [t'| | |] eqn:Ha; try discriminate. injection Hf as <-. split.
          + eapply table_add_keeps; eassumption.
          + intros o'. cbn [os_elements]. rewrite in_app_iff. split.
            * intros [Ho|[<-|[]]]; [now left|right; now constructor].
            * intros [Ho|Ho]; [now left|]. inversion Ho as [? ? Hr'| |]; subst. rewrite Hr in Hr'. injection Hr' as <-. right. now left. }
      destruct Hstep as [Ht1 Hel]. destruct (IH acc1 Hs' Ht1 H) as [Ht2 Hel2]. split; [exact Ht2|].
      intros o. rewrite Hel2, Hel. split.
      + intros [[Ho|Ho]|(e' & He' & Ho)]; [now left|right; exists e; split; [now left|exact Ho]|right; exists e'; split; [now right|exact Ho]].
      + intros [Ho|(e' & [<-|He'] & Ho)]; [left; now left|left; now right|right; now exists e']. }
  intros H. destruct (Hgen elems (mkObjectSet [] []) Hsets) as [H1 H2]; [|exact H|].
  - split; [constructor|]. split; [intros ? ? ? []|intros ? ? ? []].
  - split; [exact H1|]. intros o. rewrite H2. cbn [os_elements In]. split; [intros [[]|Ho]; exact Ho|now right].
Qed.

End Sets.

Section Open.
Context (defs : list (string * rdef)) (unique : option string).
Notation id := (object_id defs unique).
(* ---- the open type of a field ---- *)
Lemma einsert_in e l x : ~ In (fst e) (map fst l) -> (In x (einsert e l) <-> x = e \/ In x l).
Proof.
  induction l as [|y l IH]; intros Hn; cbn [einsert].
  - cbn. split; [intros [<-|[]]; now left|intros [->|[]]; now left].
  - destruct (entry_eqb (fst e) (fst y)) eqn:He.
    + exfalso. apply Hn. left. unfold entry_eqb in He. apply andb_true_iff in He. destruct He as [H1 H2].
      apply String.eqb_eq in H1. apply Z.eqb_eq in H2. destruct (fst e), (fst y); cbn in *; congruence.
    + destruct (entry_ltb (fst e) (fst y)).
      * cbn [In]. split; [intros [<-|H]; tauto|intros [->|H]; tauto].
      * cbn [In]. rewrite IH by (intros H; apply Hn; now right). split; [intros [<-|[->|H]]; tauto|intros [->|[<-|H]]; tauto].
Qed.
Lemma open_types_in f s nm z t : NoDup (map fst (os_lookup s)) ->
  (In (nm, z, t) (open_types f s) <-> exists o r, In (z, nm, o) (os_lookup s) /\ object_type f o r /\ t = RReference r).
Proof.
  unfold open_types. generalize (os_lookup s) as l. clear s. intros l Hnd.
  match goal with |- In _ (fold_left ?g _ _) <-> _ => set (g0 := g) end.
  assert (Hgen : forall l acc, NoDup (map fst l) -> (forall z nm o, In (z, nm, o) l -> ~ In (nm, z) (map fst acc)) ->
    (In (nm, z, t) (fold_left g0 l acc) <-> In (nm, z, t) acc \/ exists o r, In (z, nm, o) l /\ object_type f o r /\ t = RReference r)).
  { clear l Hnd. induction l as [|[[z1 nm1] o1] l IH]; intros acc Hnd Hfresh; cbn [fold_left].
    - split; [now left|intros [H|(o & r & [] & _)]; exact H].
    - inversion_clear Hnd as [|? ? Hn Hnd'].
      assert (Hcase : (exists r, lookup f o1 = Some (RFType (Some (RReference r))) /\ g0 acc (z1, nm1, o1) = einsert (nm1, z1, RReference r) acc) \/
                      ((forall r, lookup f o1 <> Some (RFType (Some (RReference r)))) /\ g0 acc (z1, nm1, o1) = acc)).
      { unfold g0. destruct (lookup f o1) as [[[[]|]|]|]; try (right; split; [discriminate|reflexivity]). left. eauto. }
      destruct Hcase as [(r & Hr & ->)|[Hr ->]].
      + assert (Hnew : ~ In (nm1, z1) (map fst acc)) by (eapply Hfresh; now left).
        rewrite IH; [|exact Hnd'|].
        * rewrite (einsert_in (nm1, z1, RReference r) acc (nm, z, t) Hnew). split.
          -- intros [[Heq|Hin]|(o & r' & Hin & Hrest)]; [|now left|right; exists o, r'; split; [now right|exact Hrest]].
             injection Heq as -> -> ->. right. exists o1, r. split; [now left|]. now split.
          -- intros [Hin|(o & r' & [Heq|Hin] & Ho & Ht)]; [left; now right| |right; now exists o, r'].
             injection Heq as -> -> ->. unfold object_type in Ho. rewrite Hr in Ho. injection Ho as ->. left. left. now subst t.
        * intros z2 nm2 o2 Hin2 Hc. apply in_map_iff in Hc. destruct Hc as (x & Hx & Hc). apply (einsert_in (nm1, z1, RReference r) acc x Hnew) in Hc.
          destruct Hc as [->|Hc].
          -- cbn [fst] in Hx. injection Hx as -> ->. apply Hn. apply in_map_iff. now exists (z2, nm2, o2).
          -- apply (Hfresh z2 nm2 o2); [now right|]. rewrite <- Hx. now apply in_map.
      + rewrite IH; [|exact Hnd'|intros; eapply Hfresh; right; eassumption]. split.
        * intros [H|(o & r & Hin & Hrest)]; [now left|right; exists o, r; split; [now right|exact Hrest]].
        * intros [H|(o & r & [Heq|Hin] & Ho & Ht)]; [now left| |right; now exists o, r].
          injection Heq as -> -> ->. destruct (Hr r Ho). }
  rewrite Hgen; [|exact Hnd|intros z0 nm0 o0 _ []]. split; [intros [[]|H]; exact H|now right].
Qed.
(* One alternative for every object with the field, under the number and the
   name of its id. *)
Theorem open_types_objects f s : table_of defs unique s -> distinct_ids defs unique (os_elements s) ->
  forall nm z t, In (nm, z, t) (open_types f s) <->
    exists o r, In o (os_elements s) /\ id o nm z /\ object_type f o r /\ t = RReference r.
Proof.
  intros (H1 & H2 & H3) Hd nm z t. rewrite (open_types_in f s nm z t H1). split; intros (o & r & Ho & Hrest).
  - destruct (H2 _ _ _ Ho). exists o, r. tauto.
  - destruct Hrest as (Hid & Ht). destruct (H3 o nm z Ho Hid) as (o' & Ho'). destruct (H2 _ _ _ Ho') as [Hin' Hid'].
    exists o, r. split; [|exact Ht]. now rewrite (Hd o o' nm z Ho Hin' Hid Hid').
Qed.
End Open.

(* ---- the components of a SEQUENCE of class fields ---- *)
Lemma class_components_spec comps setref s first rest l :
  os_elements s = first :: rest -> class_components comps setref s = Ok l ->
  Forall (fun c => exists cl f cs, snd c = mkType (KReference (RefClassField cl f)) cs) comps ->
  Forall2 (class_component setref s first) comps l.
Proof.
  intros Hs H Hall. unfold class_components in H. rewrite Hs in H.
  match type of H with rfold ?g _ _ = _ => set (g0 := g) in H end.
  assert (Hgen : forall comps acc l, Forall (fun c => exists cl f cs, snd c = mkType (KReference (RefClassField cl f)) cs) comps ->
    rfold g0 acc comps = Ok l -> exists l', l = acc ++ l' /\ Forall2 (class_component setref s first) comps l').
  { clear. induction comps as [|[id t] comps IH]; intros acc l Hall H.
    - injection H as <-. exists []. rewrite app_nil_r. split; [reflexivity|constructor].
    - change (rfold g0 acc ((id, t) :: comps)) with (acc1 <-- g0 acc (id, t) ;; rfold g0 acc1 comps) in H.
      inversion_clear Hall as [|? ? (cl & f & cs & Ht) Hall']. cbn [snd] in Ht. subst t.
      assert (Hone : exists x, g0 acc (id, mkType (KReference (RefClassField cl f)) cs) = Ok (acc ++ [x]) /\
                class_component setref s first (id, mkType (KReference (RefClassField cl f)) cs) x).
      { unfold g0 in *. cbn beta iota in *. destruct (lookup f first) as [[ty|ty v]|] eqn:Hf.
        - eexists. split; [reflexivity|]. constructor. intros; congruence.
        - destruct cs as [[|c cs]|]; try discriminate. eexists. split; [reflexivity|]. econstructor. exact Hf.
        - eexists. split; [reflexivity|]. constructor. intros; congruence. }
      destruct Hone as (w & Hx & Hcc). rewrite Hx in H. cbn [rbind] in H. apply IH in H; [|exact Hall'].
      destruct H as (l' & -> & Hl'). exists (w :: l'). rewrite <- app_assoc. split; [reflexivity|now constructor]. }
  destruct (Hgen comps [] l Hall H) as (l' & -> & Hl'). exact Hl'.
Qed.
Theorem class_sequence_spec E defs inst root ext cs0 c cs first rest s r d t0 comps :
  resolve_type E defs inst (mkType (KSequence root [] ext) t0) = Ok d ->
  comps = map (fun c => (comp_id c, comp_ty c)) root ->
  hd_error comps = Some (cs0, mkType c (Some cs)) ->
  Forall (fun c => exists cl f cs, snd c = mkType (KReference (RefClassField cl f)) cs) comps ->
  (exists c1 cs', cs = c1 :: cs' /\ set_reference c1 = Ok r) -> lookup r defs = Some (DObjectSet s) ->
  os_elements s = first :: rest ->
  exists l, d = RSequence ext l /\ Forall2 (class_component r s first) comps l.
Proof.
  intros H Hc Hhd Hall (c1 & cs' & -> & Hr) Hs Hel. cbn [resolve_type] in H.
  match type of H with match rmap ?g _ with _ => _ end = _ => set (g0 := g) in H end.
  assert (Herr : rmap g0 root = Err).
  { destruct root as [|[id t o dd] root]; [subst comps; discriminate|]. subst comps. cbn in Hhd. injection Hhd as -> ->.
    inversion_clear Hall as [|? ? (cl & f & cs2 & Ht) _]. cbn in Ht. injection Ht as -> _. reflexivity. }
  rewrite Herr in H. cbn [List.concat] in H. rewrite app_nil_r, <- Hc in H. unfold resolve_class_sequence in H.
  destruct comps as [|[id t] comps]; [discriminate|]. cbn in Hhd. injection Hhd as <- ->. rewrite Hr in H. cbn [rbind] in H.
  rewrite Hs in H. destruct (class_components _ r s) as [l| | |] eqn:Hl; try discriminate. injection H as <-.
  exists l. split; [reflexivity|]. eapply class_components_spec; eassumption.
Qed.

(* ---- what the alternatives of an open type mean ---- *)
Theorem open_alternatives E defs unique f s types setref al :
  table_of defs unique s -> distinct_ids defs unique (os_elements s) ->
  type_means E types (RSet setref (open_types f s)) (TOpen al) ->
  (forall key x T, In (key, x, T) (alternatives al) ->
     x = false /\ exists o nm r, In o (os_elements s) /\ object_id defs unique o nm key /\ object_type f o r /\ type_means E types (RReference r) T) /\
  (forall o nm r key, In o (os_elements s) -> object_id defs unique o nm key -> object_type f o r ->
     exists T, In (key, false, T) (alternatives al) /\ type_means E types (RReference r) T).
Proof.
  intros Ht Hd Hm. pose proof (open_types_objects defs unique f s Ht Hd) as Hot.
  inversion Hm as [| | | | | | | | | | | |? ? ? Ho]; subst. clear Hm.
  assert (Hgen : forall l al, open_mean E types l al ->
    (forall key x T, In (key, x, T) (alternatives al) -> x = false /\ exists nm t, In (nm, key, t) l /\ type_means E types t T) /\
    (forall nm key t, In (nm, key, t) l -> exists T, In (key, false, T) (alternatives al) /\ type_means E types t T)).
  { clear. induction 1 as [|nm key t T r al Ht Hr [IH1 IH2]]; split.
    - intros ? ? ? [].
    - intros ? ? ? [].
    - intros key' x T' [Heq|Hin].
      + injection Heq as <- <- <-. split; [reflexivity|]. exists nm, t. split; [now left|exact Ht].
      + destruct (IH1 _ _ _ Hin) as (-> & nm' & t' & Hin' & Ht'). split; [reflexivity|]. exists nm', t'. split; [now right|exact Ht'].
    - intros nm' key' t' [Heq|Hin].
      + injection Heq as <- <- <-. exists T. split; [now left|exact Ht].
      + destruct (IH2 _ _ _ Hin) as (T' & Hin' & Ht'). exists T'. split; [now right|exact Ht']. }
  destruct (Hgen _ _ Ho) as [H1 H2]. split.
  - intros key x T Hin. destruct (H1 _ _ _ Hin) as (-> & nm & t & Hin' & Ht'). split; [reflexivity|].
    apply Hot in Hin'. destruct Hin' as (o & r & Hel & Hid & Hty & ->). exists o, nm, r. auto.
  - intros o nm r key Hel Hid Hty. apply (H2 nm). apply Hot. exists o, r. auto.
Qed.
