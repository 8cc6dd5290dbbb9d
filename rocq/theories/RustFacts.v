(* The theorems on the Rust items of a program put together, and concrete
   cases. *)
From Coq Require Import ZArith NArith List Bool String Ascii Lia Permutation.
From Coq Require Import ZifyBool ZifyNat ZifyN.
Require Import Verif.Base Verif.DeriveModel Verif.Asn1Model Verif.GenModel Verif.ResolveModel Verif.TokenModel Verif.ParserModel Verif.ModuleModel
  Verif.DefinitionModel Verif.CompilerSpec Verif.GenProofs Verif.ObjectProofs Verif.ResolveProofs Verif.ModuleProofs Verif.RustModel Verif.RustSpec Verif.RustProofs Verif.RustCompileProofs Verif.AttributeProofs.
Import ListNotations.
Open Scope string_scope.
Open Scope list_scope.

Lemma compile_files_linked num E depth fuel files orders prog : compile_files num E depth fuel files orders = Ok prog ->
  exists parsed linked, add_files num files = Ok parsed /\ link num parsed [] (map fst orders) = Ok linked /\ compile E (instantiate E depth) fuel linked orders = Ok prog.
Proof. unfold compile_files. intros H. rsteps. eauto. Qed.

(* the definitions of a compiled program are printable *)
Definition ordinary (prog : list (string * gdef)) : Prop := forall n d, In (n, d) prog -> countable d /\ ~ In "Option" (used_types d).
Lemma compiled_printable num E depth fuel files orders prog : compile_files num E depth fuel files orders = Ok prog -> ordinary prog ->
  forall n d, In (n, d) prog -> printable d /\ deriving d.
Proof.
  intros H Ho n d Hin. destruct (compile_files_linked _ _ _ _ _ _ _ H) as (parsed & linked & _ & _ & Hc).
  pose proof (compile_sound _ _ _ _ _ _ Hc) as Hs. rewrite Forall_forall in Hs. destruct (Hs _ Hin) as [H1 H2]. destruct (Ho _ _ Hin) as [H3 H4].
  split; [|exact H2]. apply sound_printable; auto.
Qed.
Lemma C51_proof num E depth fuel files orders prog : compile_files num E depth fuel files orders = Ok prog ->
  (forall n d, In (n, d) prog -> countable d /\ ~ In "Option" (used_types d)) ->
  forall n T, rust_means (map item_of prog) n T <-> name_means prog n T.
Proof.
  intros H Ho n T. assert (Hp : forall n d, In (n, d) prog -> printable d) by (intros n0 d Hin; now apply (compiled_printable _ _ _ _ _ _ _ H Ho n0 d)).
  split; [now apply items_mean|now apply printed_means].
Qed.
Lemma compiled_modules_printable E depth fuel modules orders prog : compile E (instantiate E depth) fuel modules orders = Ok prog -> ordinary prog ->
  forall n d, In (n, d) prog -> printable d.
Proof.
  intros Hc Ho n d Hin. pose proof (compile_sound _ _ _ _ _ _ Hc) as Hs. rewrite Forall_forall in Hs. destruct (Hs _ Hin) as [H1 _]. destruct (Ho _ _ Hin) as [H3 H4].
  apply sound_printable; auto.
Qed.
Lemma C51_modules_proof E depth fuel M n modules orders prog :
  (n <= depth)%nat -> well_named modules -> imports_defined modules ->
  (forall a m, In (a, m) modules -> module_means M modules n m) ->
  not_recursive M modules -> valid_orders modules orders ->
  compile E (instantiate E depth) fuel modules orders = Ok prog ->
  (forall n d, In (n, d) prog -> countable d /\ ~ In "Option" (used_types d)) ->
  forall a m k T, In (a, m) modules -> In k (def_names m) -> types M k = Some T ->
  rust_means (map item_of prog) (to_type_ident k) T.
Proof.
  intros H0 H1 H2 H3 H4 H5 H6 H7 a m k T Hm Hk HT. apply printed_means; [exact (compiled_modules_printable _ _ _ _ _ _ H6 H7)|].
  exact (compile_correct E depth fuel M modules n orders H0 H1 H2 H3 H4 H5 prog H6 a m k T Hm Hk HT).
Qed.

Lemma supported_impl d : supported_item d -> deriving d -> exists c, impl_of d = Some c.
Proof.
  destruct d; cbn [supported_item deriving impl_of]; intros H Ha; try (eexists; reflexivity); [|destruct H|subst attributed; eexists; reflexivity].
  destruct H as [-> |[-> | ->]]; eexists; reflexivity.
Qed.
Lemma C52_accepted_proof num E depth fuel files orders prog : compile_files num E depth fuel files orders = Ok prog ->
  (forall n d, In (n, d) prog -> countable d /\ ~ In "Option" (used_types d)) ->
  forall n d, In (n, d) prog -> supported_item d ->
  exists attrs data c, item_of (n, d) = Derived n attrs data /\ derive attrs data = Ok c /\ fits data c.
Proof.
  intros H Ho n d Hin Hs. destruct (compiled_printable _ _ _ _ _ _ _ H Ho n d Hin) as [Hp Hd]. destruct (supported_impl d Hs Hd) as [c Hc].
  destruct (derive_printed n d c Hp Hc) as (attrs & data & H1 & H2 & H3). eauto 6.
Qed.
Lemma C52_closed_proof num E depth fuel files parsed orders prog : compile_files num E depth fuel files orders = Ok prog ->
  add_files num files = Ok parsed -> names_apart parsed ->
  forall n d t, In (n, d) prog -> In t (used_types d) -> exists d', In (t, d') prog.
Proof.
  intros H Hparsed Hn n d t Hin Ht. destruct (compile_files_linked _ _ _ _ _ _ _ H) as (parsed' & linked & Hp & Hl & Hc). rewrite Hparsed in Hp. injection Hp as <-.
  assert (Hk : types_kept linked).
  { intros n1 m1 n2 m2 k d1 d2 I1 I2 K1 K2 [T1 T1'] [T2 T2'].
    destruct (link_in _ _ _ _ _ Hl _ _ I1) as (pm1 & L1 & _ & D1). destruct (link_in _ _ _ _ _ Hl _ _ I2) as (pm2 & L2 & _ & D2).
    destruct (D1 _ _ K1) as (pd1 & c1 & P1 & R1). destruct (D2 _ _ K2) as (pd2 & c2 & P2 & R2). apply lookup_in in L1, L2.
    unfold resolve_object_class in R1, R2. apply rbind_inv in R1, R2. destruct R1 as (a1 & A1 & R1), R2 as (a2 & A2 & R2). injection R1 as <-. injection R2 as <-. cbn [d_params d_kind] in *.
    assert (Ht1 : exists ty, pd_kind pd1 = PAType ty).
    { destruct (pd_kind pd1); try (injection A1 as <-); try destruct T1'; eauto; destruct (lookup cls c1); try discriminate; rsteps; destruct T1'. }
    destruct Ht1 as [ty Ht1]. pose proof (Hn _ _ _ _ _ _ _ _ L1 L2 P1 P2 T1 Ht1 T2) as Hx. destruct (pd_kind pd2); try destruct Hx; injection A2 as <-; destruct T2'. }
  pose proof (compile_closed _ _ _ _ Hk _ _ Hc) as Hcl. rewrite Forall_forall in Hcl. specialize (Hcl _ Hin). cbn [snd] in Hcl. rewrite Forall_forall in Hcl. specialize (Hcl _ Ht).
  apply in_map_iff in Hcl. destruct Hcl as ([t' d'] & <- & Hd). eauto.
Qed.

(* ------------------------------------------------------------------ *)
(* Cases                                                               *)
(* ------------------------------------------------------------------ *)
Definition is_digit (c : Z) : bool := ((48 <=? c) && (c <=? 57))%Z.
Definition file (s : string) : list Z := map (fun c => Z.of_nat (nat_of_ascii c)) (list_ascii_of_string s).
Definition checked : env := {| overflow_checks := true; little_endian := true |}.
Definition compiled (s : string) (orders : list (string * list string)) : res (list (string * gdef)) := compile_files is_digit checked 10 10 [file s] orders.

Definition C51_text : string :=
  "M DEFINITIONS AUTOMATIC TAGS ::= BEGIN Num ::= INTEGER (-5..1000) Item ::= SEQUENCE { id Num, flag BOOLEAN OPTIONAL, alt CHOICE { a NULL, b Num, ..., c UTF8String (SIZE (1..5)) } } END".
Definition C51_program : list (string * gdef) :=
  [("Item", GSequence false (Some 1%Z) [mkField "id" None false "Num"; mkField "flag" (Some 0%Z) false "BOOLEAN_2"; mkField "alt" None false "ItemAlt"]);
   ("Num", GInteger 16 true (Some (-5)%Z) (Some 1000%Z) false); ("BOOLEAN_2", GBoolean); ("NULL_3", GNull);
   ("CharacterString_4", GCharString "UTF8String" (Some (false, Some 1%Z, Some 5%Z)));
   ("ItemAlt", GChoice 0 1 true [mkVariant "A" 0 false "NULL_3"; mkVariant "B" 1 false "Num"; mkVariant "C" 0 true "CharacterString_4"])].
Lemma C51_case_proof : compiled C51_text [("M", ["Num"; "Item"])] = Ok C51_program /\
  (forall n d, In (n, d) C51_program -> countable d /\ ~ In "Option" (used_types d) /\ supported_item d) /\
  exists parsed, add_files is_digit [file C51_text] = Ok parsed /\ names_apart parsed.
Proof.
  split; [vm_compute; reflexivity|]. split.
  - intros n d Hin. cbn in Hin. decompose [or] Hin; try contradiction; match goal with H : (_, _) = (_, _) |- _ => injection H as <- <- end;
      (split; [first [exact I|vm_compute; discriminate]|split; [cbn; intros Hx; decompose [or] Hx; try contradiction; discriminate|cbn; tauto]]).
  - eexists. split; [vm_compute; reflexivity|]. intros n m n' m' k d d' t H1 H2 H3 H4 _ _ _. cbn in H1, H2. destruct H1 as [H1|[]]. destruct H2 as [H2|[]]. injection H1 as <- <-. injection H2 as <- <-.
    cbn in H4. decompose [or] H4; try contradiction; match goal with H : (_, _) = (_, d') |- _ => injection H as <- <- end; exact I.
Qed.
Lemma C51_case_item : item_of ("Num", GInteger 16 true (Some (-5)%Z) (Some 1000%Z) false) =
  Derived "Num" [written [("type", VText "INTEGER"); ("lb", VText "-5"); ("ub", VText "1000")]] (RStruct (Unnamed [RPath "i16" []])) /\
  derive [written [("type", VText "INTEGER"); ("lb", VText "-5"); ("ub", VText "1000")]] (RStruct (Unnamed [RPath "i16" []])) =
    Ok (IInteger (Some (-5)%Z) (Some 1000%Z) false (RPath "i16" [])).
Proof. split; vm_compute; reflexivity. Qed.

(* refutations *)
Lemma C52_option_proof : exists prog fs, compiled "M DEFINITIONS AUTOMATIC TAGS ::= BEGIN Option ::= BOOLEAN S ::= SEQUENCE { x Option } END" [("M", ["Option"; "S"])] = Ok prog /\
  In ("S", GSequence false None fs) prog /\
  exists attrs data, item_of ("S", GSequence false None fs) = Derived "S" attrs data /\ derive attrs data = Err.
Proof. eexists. eexists. split; [vm_compute; reflexivity|]. split; [right; left; reflexivity|]. eexists. eexists. split; [reflexivity|]. vm_compute. reflexivity. Qed.
Lemma C52_string_proof : exists d, compiled "M DEFINITIONS AUTOMATIC TAGS ::= BEGIN S ::= IA5String (SIZE (1..5)) END" [("M", ["S"])] = Ok [("S", d)] /\
  exists attrs data, item_of ("S", d) = Derived "S" attrs data /\ derive attrs data = Err.
Proof. eexists. split; [vm_compute; reflexivity|]. eexists. eexists. split; [reflexivity|]. vm_compute. reflexivity. Qed.
Lemma C52_keyword_proof : exists prog f fs, compiled "M DEFINITIONS AUTOMATIC TAGS ::= BEGIN S ::= SEQUENCE { match BOOLEAN } END" [("M", ["S"])] = Ok prog /\
  In ("S", GSequence false None (f :: fs)) prog /\ rf_name (field_item f) = "match" /\ In "match" rust_keywords.
Proof. eexists. eexists. eexists. split; [vm_compute; reflexivity|]. split; [left; reflexivity|]. split; [reflexivity|]. cbn. tauto. Qed.
Lemma C52_replaced_proof : exists d, compiled "A DEFINITIONS AUTOMATIC TAGS ::= BEGIN T ::= BOOLEAN U ::= SEQUENCE { x T } END B DEFINITIONS ::= BEGIN CLS ::= CLASS { &id INTEGER UNIQUE } WITH SYNTAX {ID &id} one INTEGER ::= 1 T CLS ::= { {ID one} } END"
    [("A", ["T"; "U"]); ("B", ["CLS"; "one"; "T"])] = Ok [("U", d)] /\ In "T" (used_types d).
Proof. eexists. split; [vm_compute; reflexivity|]. cbn. auto. Qed.

(* attributes *)
Lemma C53_case_proof :
  same_attrs [written [("type", VText "INTEGER"); ("lb", VText "0"); ("ub", VText "9")]]
             [written [("ub", VText "9")]; written [("lb", VText "0"); ("type", VText "INTEGER")]] /\
  derive [written [("ub", VText "9")]; written [("lb", VText "0"); ("type", VText "INTEGER")]] (RStruct (Unnamed [RPath "u8" []])) =
    Ok (IInteger (Some 0%Z) (Some 9%Z) false (RPath "u8" [])).
Proof.
  split; [|vm_compute; reflexivity]. eexists. eexists. split; [exists [[("type", VText "INTEGER"); ("lb", VText "0"); ("ub", VText "9")]]; split; reflexivity|].
  split; [exists [[("ub", VText "9")]; [("lb", VText "0"); ("type", VText "INTEGER")]]; split; reflexivity|]. cbn. split.
  - repeat constructor; cbn; intuition discriminate.
  - exact (Permutation_rev [_; _; _]).
Qed.
Lemma C53_panic_proof :
  derive [written [("type", VText "INTEGER"); ("lb", VText "zero")]] (RStruct (Unnamed [RPath "u8" []])) = Panic /\
  derive [written [("type", VText "CHOICE"); ("extensible", VFlag false)]] (REnum []) = Panic.
Proof. split; vm_compute; reflexivity. Qed.
Lemma C53_twice_proof :
  derive [written [("type", VText "INTEGER"); ("lb", VText "0"); ("lb", VText "5")]] (RStruct (Unnamed [RPath "u8" []])) = Ok (IInteger (Some 5%Z) None false (RPath "u8" [])) /\
  derive [written [("type", VText "INTEGER"); ("lb", VText "5"); ("lb", VText "0")]] (RStruct (Unnamed [RPath "u8" []])) = Ok (IInteger (Some 0%Z) None false (RPath "u8" [])).
Proof. split; vm_compute; reflexivity. Qed.
Lemma C53_ignored_proof :
  derive [written [("type", VText "OCTET-STRING"); ("lb", VText "1"); ("ub", VText "4")]] (RStruct (Unnamed [RPath "Vec" [RPath "u8" []]])) = Ok (IOctetString None None false) /\
  derive [written [("type", VText "INTEGER"); ("lb", VText "0"); ("sz_extensible", VFlag true)]] (RStruct (Unnamed [RPath "u8" []])) = Ok (IInteger (Some 0%Z) None false (RPath "u8" [])).
Proof. split; vm_compute; reflexivity. Qed.
(* a documentation comment is an attribute called doc *)
Lemma C53_comment_proof a d : derive (mkAttr "doc" None :: a) d = Err.
Proof. reflexivity. Qed.
