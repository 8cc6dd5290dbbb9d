(* Proofs about the items of a generated program and the derive macro. *)
From Coq Require Import ZArith NArith List Bool String Ascii Lia.
From Coq Require Import ZifyBool ZifyNat ZifyN.
From Coq Require Import DecimalString DecimalN DecimalFacts Decimal.
Require Import Verif.Base Verif.DeriveModel Verif.Asn1Model Verif.GenModel Verif.CompilerSpec Verif.GenProofs Verif.RustModel Verif.RustSpec.
Import ListNotations.
Open Scope string_scope.
Open Scope Z_scope.
Open Scope list_scope.

(* ------------------------------------------------------------------ *)
(* Numbers                                                             *)
(* ------------------------------------------------------------------ *)
Lemma digits_acc d : forall p, digits (Zpos p) (NilEmpty.string_of_uint d) = Some (Zpos (Pos.of_uint_acc d p)).
Proof.
  induction d as [|d IH|d IH|d IH|d IH|d IH|d IH|d IH|d IH|d IH|d IH]; intros p; [reflexivity|..];
    cbn [NilEmpty.string_of_uint digits Pos.of_uint_acc]; rewrite <- IH;
    match goal with |- context [digit_of ?c] => let v := eval vm_compute in (digit_of c) in change (digit_of c) with v end; cbn [digits]; f_equal; lia.
Qed.
Lemma digits_uint d : digits 0 (NilEmpty.string_of_uint d) = Some (Z.of_N (Pos.of_uint d)).
Proof.
  induction d as [|d IH|d IH|d IH|d IH|d IH|d IH|d IH|d IH|d IH|d IH]; [reflexivity|exact IH|..];
    cbn [NilEmpty.string_of_uint digits];
    match goal with |- context [digit_of ?c] => let v := eval vm_compute in (digit_of c) in change (digit_of c) with v end; cbn [digits];
    change (10 * 0 + ?x) with x; (etransitivity; [apply digits_acc|reflexivity]).
Qed.
Lemma unsigned_decimal n : unsigned (decimal n) = Some (Z.of_N n).
Proof.
  unfold decimal. rewrite <- (Unsigned.of_to n) at 2. unfold N.of_uint. rewrite <- digits_uint.
  destruct (N.to_uint n) eqn:H; try reflexivity.
Qed.
Lemma decimal_digit n : exists c r, decimal n = String c r /\ digit_of c <> None.
Proof.
  pose proof (unsigned_decimal n) as H. destruct (decimal n) as [|c r]; [discriminate|]. exists c, r. split; [reflexivity|].
  cbn in H. destruct (digit_of c); discriminate.
Qed.
Lemma parse_unsigned s : (exists c r, s = String c r /\ digit_of c <> None) ->
  parse_i128 s = match unsigned s with Some n => if in_i128 n then Some n else None | None => None end.
Proof.
  intros (c & r & -> & H). unfold parse_i128.
  destruct c as [[] [] [] [] [] [] [] []]; try reflexivity; exfalso; apply H; reflexivity.
Qed.
Lemma parse_decimal n : Z.of_N n < 2 ^ 127 -> parse_i128 (decimal n) = Some (Z.of_N n).
Proof.
  intros H. rewrite (parse_unsigned _ (decimal_digit n)), unsigned_decimal. unfold in_i128.
  replace ((- 2 ^ 127 <=? Z.of_N n) && (Z.of_N n <? 2 ^ 127)) with true by lia. reflexivity.
Qed.
Lemma parse_negative n : Z.of_N n <= 2 ^ 127 -> parse_i128 ("-" ++ decimal n)%string = Some (- Z.of_N n).
Proof.
  intros H. cbn [append]. unfold parse_i128. rewrite unsigned_decimal. cbn [option_map]. unfold in_i128.
  replace ((- 2 ^ 127 <=? - Z.of_N n) && (- Z.of_N n <? 2 ^ 127)) with true by lia. reflexivity.
Qed.
Lemma parse_show z : in_i128 z = true -> parse_i128 (show z) = Some z.
Proof.
  unfold in_i128, show. intros H. destruct (z <? 0) eqn:Hz.
  - rewrite parse_negative by lia. f_equal. lia.
  - rewrite parse_decimal by lia. f_equal. lia.
Qed.
(* the literal that is read for a printed number *)
Lemma parse_number z r : parse_lit (number z ++ r) = Some (LInt (show z), r).
Proof. unfold number, show. destruct (z <? 0); reflexivity. Qed.

(* ------------------------------------------------------------------ *)
(* Definitions that are printed so that they are read as they are       *)
(* ------------------------------------------------------------------ *)
Definition i128 (z : Z) : Prop := in_i128 z = true.
Definition oi128 (z : option Z) : Prop := match z with Some z => i128 z | None => True end.
Definition printable_size (s : size_attrs) : Prop :=
  match s with Some (_, lb, ub) => oi128 lb /\ oi128 ub | None => True end.
Definition printable_field (f : gfield) : Prop :=
  oi128 (gf_optional f) /\ (gf_optional f = None -> gf_type f <> "Option") /\ (gf_optional f <> None -> gf_key f = false).
Definition printable (d : gdef) : Prop :=
  match d with
  | GInteger w _ lb ub _ => In w [8; 16; 32; 64] /\ oi128 lb /\ oi128 ub
  | GEnumerated ub _ _ => i128 ub
  | GBitString s | GOctetString s | GCharString _ s | GSequenceOf s _ => printable_size s
  | GChoice lb ub _ vs => i128 lb /\ i128 ub /\ Forall (fun v => i128 (gv_key v)) vs
  | GSequence _ n fs => oi128 n /\ Forall printable_field fs
  | GOpen _ vs => Forall (fun v => i128 (gv_key v) /\ gv_extended v = false) vs
  | _ => True
  end.

Definition field_impl (f : gfield) : fimpl :=
  match gf_optional f with Some i => FieldOptional i (gf_type f) | None => FieldMandatory (gf_key f) (gf_type f) end.
(* what the macro is to make of a definition *)
Definition impl_of (d : gdef) : option impl :=
  match d with
  | GInteger w s lb ub ext => Some (IInteger lb ub ext (plain_ty (inner_type w s)))
  | GEnumerated ub ext _ => Some (IEnumerated (Some 0) (Some ub) ext (plain_ty "u8"))
  | GBitString s => Some (IBitString (size_lb s) (size_ub s) (size_ext s))
  | GBoolean => Some IBoolean
  | GNull => Some INull
  | GOctetString s => Some (IOctetString (size_lb s) (size_ub s) (size_ext s))
  | GCharString st s => if known_string st then Some (ICharString st (size_lb s) (size_ub s) (size_ext s)) else None
  | GOid => Some IOid
  | GChoice lb ub ext vs => Some (IChoice lb ub ext (map (fun v => (gv_key v, gv_extended v, plain_ty (gv_type v))) vs))
  | GSequence ext n fs => Some (ISequence ext (match n with Some n => n | None => 0 end) (map field_impl fs))
  | GSequenceOf s t => Some (ISequenceOf (size_lb s) (size_ub s) (size_ext s) t)
  | GAlias _ => None
  | GOpen a vs => if a then Some (IOpen (map (fun v => (gv_key v, plain_ty (gv_type v))) vs)) else None
  end.

Lemma bound_show z : i128 z -> bound (Some (show z)) = Ok (Some z).
Proof. intros H. unfold bound. now rewrite (parse_show _ H). Qed.
Lemma literal_show z : i128 z -> literal (show z) = Ok z.
Proof. intros H. unfold literal. now rewrite (parse_show _ H). Qed.
Lemma bound_given o : oi128 o -> bound (option_map show o) = Ok o.
Proof. destruct o as [z|]; intros H; [apply (bound_show _ H)|reflexivity]. Qed.

(* reading back the attributes *)
Definition base_params (ty : string) : ty_params := mkTyParams (Some ty) None None None None None None None true.
Lemma read_plain ty : parse_ty_attrs [asn (of_type ty)] = Some (base_params ty).
Proof. reflexivity. Qed.
Lemma read_integer ty lb ub (ext : bool) :
  parse_ty_attrs [asn (of_type ty ++ given "lb" lb ++ given "ub" ub ++ (if ext then [AComma; AIdent "extensible"; AEq; boolean true] else []))] =
  Some (mkTyParams (Some ty) (option_map show lb) (option_map show ub) (if ext then Some true else None) None None None None true).
Proof. destruct lb, ub, ext; reflexivity. Qed.
Lemma read_enumerated ty lb ub (ext : bool) :
  parse_ty_attrs [asn (of_type ty ++ (if ext then [AComma; AIdent "extensible"; AEq; boolean true] else []) ++ given "lb" lb ++ given "ub" ub)] =
  Some (mkTyParams (Some ty) (option_map show lb) (option_map show ub) (if ext then Some true else None) None None None None true).
Proof. destruct lb, ub, ext; reflexivity. Qed.
Lemma read_choice ty lb ub ext :
  parse_ty_attrs [asn (of_type ty ++ given "lb" lb ++ given "ub" ub ++ [AComma; AIdent "extensible"; AEq; boolean ext])] =
  Some (mkTyParams (Some ty) (option_map show lb) (option_map show ub) (Some ext) None None None None true).
Proof. destruct lb, ub, ext; reflexivity. Qed.
Lemma read_size ty s :
  parse_ty_attrs [asn (of_type ty ++ size_tokens s)] =
  Some (mkTyParams (Some ty) None None None (option_map show (size_lb s)) (option_map show (size_ub s))
          (match s with Some (ext, _, _) => Some ext | None => None end) None true).
Proof. destruct s as [[[[] [|]] [|]]|]; reflexivity. Qed.
Lemma read_sequence ty ext n :
  parse_ty_attrs [asn (of_type ty ++ [AComma; AIdent "extensible"; AEq; boolean ext] ++
                      match n with Some k => [AComma; AIdent "optional_fields"; AEq] ++ number k | None => [] end)] =
  Some (mkTyParams (Some ty) None None (Some ext) None None None (option_map show n) true).
Proof. destruct n as [k|], ext; try reflexivity; cbn [option_map]; unfold number, show; destruct (k <? 0); reflexivity. Qed.
Lemma read_variant v : parse_fld_attrs (rv_attrs (choice_variant v)) = Some (mkFldParams (Some (show (gv_key v))) (Some (gv_extended v)) None None).
Proof. destruct v as [nm k [] t]; cbn [choice_variant rv_attrs gv_key gv_extended]; unfold number, show; destruct (k <? 0); reflexivity. Qed.
Lemma read_open v : parse_fld_attrs (rv_attrs (open_variant v)) = Some (mkFldParams (Some (show (gv_key v))) None None None).
Proof. destruct v as [nm k x t]; cbn [open_variant rv_attrs gv_key]; unfold number, show; destruct (k <? 0); reflexivity. Qed.
Lemma read_field f : printable_field f ->
  parse_fld_attrs (rf_attrs (field_item f)) = Some (mkFldParams None None (option_map show (gf_optional f)) (if gf_key f then Some true else None)).
Proof.
  intros (_ & _ & H). destruct f as [nm o key t]. cbn [gf_optional gf_key] in *. destruct o as [i|].
  - rewrite H by discriminate. cbn [field_item rf_attrs gf_optional gf_key option_map]. unfold number, show. destruct (i <? 0); reflexivity.
  - destruct key; reflexivity.
Qed.

Lemma collect_map {A B C} (f : B -> res C) (g : A -> B) (h : A -> C) l :
  Forall (fun x => f (g x) = Ok (h x)) l -> collect f (map g l) = Ok (map h l).
Proof. induction 1 as [|x l H _ IH]; cbn; [reflexivity|]. rewrite H. cbn. now rewrite IH. Qed.
Lemma seq_field_ok f : printable_field f -> seq_field (field_item f) = Ok (field_impl f).
Proof.
  intros H. unfold seq_field. rewrite (read_field f H). destruct H as (H1 & H2 & H3). destruct f as [nm o key t].
  unfold field_impl. cbn [gf_optional gf_key gf_type] in *. destruct o as [i|]; cbn.
  - now rewrite (literal_show i H1).
  - destruct (String.eqb_spec t "Option") as [->|Hn]; [now destruct (H2 eq_refl)|]. cbn. destruct key; reflexivity.
Qed.

Lemma sized_ok ty s d f t : printable_size s -> d = tuple t ->
  sized (mkTyParams (Some ty) None None None (option_map show (size_lb s)) (option_map show (size_ub s))
          (match s with Some (ext, _, _) => Some ext | None => None end) None true) d f =
  Ok (f (size_lb s) (size_ub s) (size_ext s)).
Proof.
  intros H ->. unfold sized. cbn [single tuple rbind tp_sz_lb tp_sz_ub tp_sz_ext].
  destruct s as [[[ext lb] ub]|]; [|reflexivity]. cbn [printable_size size_lb size_ub size_ext] in *.
  destruct H as [H1 H2]. now rewrite (bound_given _ H1), (bound_given _ H2).
Qed.

(* The macro makes of a printed definition what it is to make of it. *)
Lemma derive_printed n d c : printable d -> impl_of d = Some c ->
  exists attrs data, item_of (n, d) = Derived n attrs data /\ derive attrs data = Ok c /\ fits data c.
Proof.
  intros H Hc. destruct d as [w s lb ub ext|ub ext cs|sz| | |sz|st sz| |lb ub ext vs|ext k fs|sz t|t|a vs];
    cbn [impl_of] in Hc; try discriminate; try (injection Hc as <-); cbn [item_of printable] in *; (eexists _, _; split; [reflexivity|]);
    unfold derive.
  - rewrite read_integer. cbn [argument rbind tp_attr tp_ty]. split; [|reflexivity].
    unfold generate_codec, derive_number. cbn. destruct H as (_ & H1 & H2). rewrite (bound_given _ H1), (bound_given _ H2). destruct ext; reflexivity.
  - rewrite read_enumerated. cbn [argument rbind tp_attr tp_ty]. split; [|reflexivity].
    unfold generate_codec, derive_number. cbn -[show bound]. rewrite (bound_show 0 eq_refl), (bound_show ub H). destruct ext; reflexivity.
  - rewrite read_size. cbn [argument rbind tp_attr tp_ty]. split; [|reflexivity]. unfold generate_codec. cbn -[show sized tuple size_lb size_ub size_ext]. exact (sized_ok _ _ _ _ _ H eq_refl).
  - split; reflexivity.
  - split; reflexivity.
  - rewrite read_size. cbn [argument rbind tp_attr tp_ty]. split; [|reflexivity]. unfold generate_codec. cbn -[show sized tuple size_lb size_ub size_ext]. exact (sized_ok _ _ _ _ _ H eq_refl).
  - destruct (known_string st) eqn:Hk; [|discriminate]. injection Hc as <-.
    rewrite read_size. cbn [argument rbind tp_attr tp_ty]. split; [|reflexivity].
    unfold known_string in Hk. unfold generate_codec. rewrite Hk.
    assert (Hs : st = "UTF8String" \/ st = "PrintableString" \/ st = "VisibleString").
    { apply orb_prop in Hk. destruct Hk as [Hk|Hk]; [apply orb_prop in Hk; destruct Hk as [Hk|Hk]|]; apply String.eqb_eq in Hk; auto. }
    destruct Hs as [->|[->| ->]]; exact (sized_ok _ _ _ _ _ H eq_refl).
  - split; reflexivity.
  - rewrite read_choice. cbn [argument rbind tp_attr tp_ty]. destruct H as (H1 & H2 & H3). split.
    + unfold generate_codec, derive_choice. cbn -[show bound]. rewrite (bound_show lb H1), (bound_show ub H2). cbn [rbind].
      erewrite collect_map; [reflexivity|]. eapply Forall_impl; [|exact H3]. intros v Hv. unfold choice_variant_impl.
      rewrite read_variant. cbn [argument rbind fp_key]. now rewrite (literal_show _ Hv).
    + eexists. split; [reflexivity|]. clear. induction vs; constructor; auto.
  - rewrite read_sequence. cbn [argument rbind tp_attr tp_ty]. destruct H as (H1 & H2). split.
    + unfold generate_codec, derive_sequence. cbn -[show]. 
      replace (match option_map show k with Some s => literal s | None => Ok 0 end) with (Ok (match k with Some n => n | None => 0 end)).
      2:{ destruct k as [k|]; [|reflexivity]. now rewrite <- (literal_show k H1). }
      cbn [rbind]. erewrite collect_map; [reflexivity|]. eapply Forall_impl; [|exact H2]. intros f Hf. now apply seq_field_ok.
    + eexists. split; [reflexivity|]. clear. induction fs as [|[nm o key t] fs IH]; constructor; [|exact IH]. destruct o; reflexivity.
  - rewrite read_size. cbn [argument rbind tp_attr tp_ty]. split; [|reflexivity]. unfold generate_codec. cbn -[show bound].
    unfold derive_sequence_of. cbn -[show bound]. destruct sz as [[[ext lb] ub]|]; [|reflexivity]. destruct H as [H1 H2].
    cbn [size_lb size_ub size_ext]. now rewrite (bound_given _ H1), (bound_given _ H2).
  - destruct a; [|discriminate]. injection Hc as <-. split.
    + change (parse_ty_attrs [asn (of_type "OPEN")]) with (Some (base_params "OPEN")). unfold generate_codec, derive_open. cbn -[show].
      erewrite collect_map; [reflexivity|]. eapply Forall_impl; [|exact H]. intros v [Hv _]. unfold open_variant_impl.
      rewrite read_open. cbn [argument rbind fp_key]. now rewrite (literal_show _ Hv).
    + eexists. split; [reflexivity|]. clear. induction vs; constructor; auto.
Qed.

(* The macro makes nothing else of it that would have a meaning. *)
Lemma unknown_string_no_meaning items st sz c T : known_string st = false ->
  derive [asn (of_type st ++ size_tokens sz)] (tuple (plain_ty "String")) = Ok c -> fits (tuple (plain_ty "String")) c -> impl_means items c T -> False.
Proof.
  intros Hk Hd Hf Hm. unfold derive in Hd. rewrite read_size in Hd. cbn [argument rbind tp_attr tp_ty] in Hd.
  unfold generate_codec in Hd. unfold known_string in Hk. rewrite Hk in Hd.
  repeat match type of Hd with (if String.eqb st ?x then _ else _) = _ => destruct (String.eqb st x) end.
  all: try discriminate Hd.
  all: try (injection Hd as <-; discriminate Hf).
  all: try (unfold derive_number in Hd; cbn [single tuple rbind plain_ty bound tp_lb tp_ub flag tp_ext] in Hd; injection Hd as <-; inversion Hm; subst; discriminate).
  all: try (unfold sized in Hd; cbn [single tuple rbind plain_ty] in Hd; destruct (bound _); try discriminate Hd; cbn [rbind] in Hd; destruct (bound _); try discriminate Hd; injection Hd as <-; discriminate Hf).
  - unfold derive_open in Hd. cbn in Hd. injection Hd as <-. destruct Hf as (l & Hf & _). discriminate Hf.
  - unfold derive_sequence_of in Hd. cbn [single tuple rbind plain_ty] in Hd. destruct (bound _); try discriminate Hd; cbn [rbind] in Hd; destruct (bound _); discriminate Hd.
Qed.
Lemma derive_means items n d attrs data c T : printable d -> item_of (n, d) = Derived n attrs data -> derive attrs data = Ok c -> fits data c ->
  impl_means items c T -> impl_of d = Some c.
Proof.
  intros Hp Hi Hd Hf Hm. destruct (impl_of d) as [c'|] eqn:Hc.
  - destruct (derive_printed n d c' Hp Hc) as (a & dt & H1 & H2 & _). rewrite Hi in H1. injection H1 as <- <-. rewrite Hd in H2. now injection H2 as ->.
  - exfalso. destruct d as [| | | | | |st sz| | | | | |[] vs]; try discriminate.
    + cbn [impl_of] in Hc. cbn [item_of] in Hi. injection Hi as <- <-. destruct (known_string st) eqn:Hk; [discriminate|].
      now apply (unknown_string_no_meaning items st sz c T Hk Hd Hf).
    + cbn [item_of] in Hi. injection Hi as <- <-. discriminate Hd.
Qed.

(* ------------------------------------------------------------------ *)
(* Items mean what the definitions mean                                *)
(* ------------------------------------------------------------------ *)
Scheme impl_means_mut := Minimality for impl_means Sort Prop
  with rust_means_mut := Minimality for rust_means Sort Prop
  with choices_mean_mut := Minimality for choices_mean Sort Prop
  with opens_mean_mut := Minimality for opens_mean Sort Prop
  with members_mean_mut := Minimality for members_mean Sort Prop.

Lemma inner_int_type w s : In w [8; 16; 32; 64] -> int_type (inner_type w s) = Some (mkIty s w).
Proof. intros [<-|[<-|[<-|[<-|[]]]]]; destruct s; reflexivity. Qed.

Section Items.
Context (prog : list (string * gdef)) (Hprog : forall n d, In (n, d) prog -> printable d).
Notation items := (map item_of prog).

Lemma printed_means n T : name_means prog n T -> rust_means items n T.
Proof.
  revert n T. apply (name_means_mut prog
    (fun d T => printable d -> match d with GAlias t => rust_means items t T | _ => exists c, impl_of d = Some c /\ impl_means items c T end)
    (fun n T => rust_means items n T)
    (fun vs al => choices_mean items (map (fun v => (gv_key v, gv_extended v, plain_ty (gv_type v))) vs) al /\
       (Forall (fun v => i128 (gv_key v) /\ gv_extended v = false) vs -> opens_mean items (map (fun v => (gv_key v, plain_ty (gv_type v))) vs) al))
    (fun fs l => members_mean items (map field_impl fs) l)).
  - intros w s lb ub ext [Hw _]. eexists. split; [reflexivity|]. constructor. now apply inner_int_type.
  - intros. eexists. split; [reflexivity|]. now constructor.
  - intros. eexists. split; [reflexivity|]. constructor.
  - intros. eexists. split; [reflexivity|]. constructor.
  - intros. eexists. split; [reflexivity|]. constructor.
  - intros. eexists. split; [reflexivity|]. constructor.
  - intros st sz Hk _. cbn [impl_of]. rewrite Hk. eexists. split; [reflexivity|]. constructor.
  - intros. eexists. split; [reflexivity|]. constructor.
  - intros lb ub ext vs al _ [IH _] _. eexists. split; [reflexivity|]. now constructor.
  - intros ext n fs l _ IH _. eexists. split; [reflexivity|]. now constructor.
  - intros sz t T _ IH _. eexists. split; [reflexivity|]. now constructor.
  - auto.
  - intros vs al _ [_ IH] Hp. eexists. split; [reflexivity|]. constructor. auto.
  - intros n d T Hin _ IH. pose proof (Hprog n d Hin) as Hp. specialize (IH Hp). apply (in_map item_of) in Hin.
    destruct (match d with GAlias _ => true | _ => false end) eqn:Ha.
    + destruct d; try discriminate. now apply V_alias with t.
    + assert (IH' : exists c, impl_of d = Some c /\ impl_means items c T) by (destruct d; try discriminate; exact IH).
      destruct IH' as (c & Hc & Hm). destruct (derive_printed n d c Hp Hc) as (a & dt & H1 & H2 & H3). rewrite H1 in Hin.
      now apply (V_item items n a dt c T).
  - split; [constructor|intros; constructor].
  - intros nm k x t T vs al _ IH _ [IH1 IH2]. split; [now constructor|]. intros H. inversion_clear H as [|? ? [_ Hx] Hr]. cbn in Hx. subst x. constructor; auto.
  - constructor.
  - intros nm i key t T fs l _ IH _ IH'. now constructor.
  - intros nm key t T fs l _ IH _ IH'. now constructor.
Qed.

Lemma items_mean n T : rust_means items n T -> name_means prog n T.
Proof.
  revert n T. apply (rust_means_mut items
    (fun c T => forall d, impl_of d = Some c -> printable d -> def_means prog d T)
    (fun n T => name_means prog n T)
    (fun vs al => forall l, vs = map (fun v => (gv_key v, gv_extended v, plain_ty (gv_type v))) l -> variants_mean prog l al)
    (fun vs al => forall l, vs = map (fun v => (gv_key v, plain_ty (gv_type v))) l -> Forall (fun v => i128 (gv_key v) /\ gv_extended v = false) l -> variants_mean prog l al)
    (fun fs l => forall fs', fs = map field_impl fs' -> fields_mean prog fs' l)).
  - intros d H _. destruct d as [| | | | | |st ?| | | | | |[] ?]; try discriminate; [constructor|]. cbn in H. destruct (known_string st); discriminate.
  - intros d H _. destruct d as [| | | | | |st ?| | | | | |[] ?]; try discriminate; [constructor|]. cbn in H. destruct (known_string st); discriminate.
  - intros d H _. destruct d as [| | | | | |st ?| | | | | |[] ?]; try discriminate; [|constructor]. cbn in H. destruct (known_string st); discriminate.
  - intros lb ub ext id i Hi d H Hp. destruct d as [w s| | | | | |st ?| | | | | |[] ?]; try discriminate.
    + injection H as -> -> -> <-. cbn [printable] in Hp. rewrite (inner_int_type _ _ (proj1 Hp)) in Hi. injection Hi as <-. constructor.
    + cbn in H. destruct (known_string st); discriminate.
  - intros lb ub ext id i Hi d H Hp. destruct d as [w s| | | | | |st ?| | | | | |[] ?]; try discriminate.
    + injection H as <- <- -> <-. injection Hi as <-. constructor.
    + cbn in H. destruct (known_string st); discriminate.
  - intros lb ub ext d H _. destruct d as [| | | | | |st ?| | | | | |[] ?]; try discriminate; [injection H as <- <- <-; constructor|]. cbn in H. destruct (known_string st); discriminate.
  - intros lb ub ext d H _. destruct d as [| | | | | |st ?| | | | | |[] ?]; try discriminate; [injection H as <- <- <-; constructor|]. cbn in H. destruct (known_string st); discriminate.
  - intros kind lb ub ext d H _. destruct d as [| | | | | |st ?| | | | | |[] ?]; try discriminate. cbn in H. destruct (known_string st) eqn:Hk; [|discriminate]. injection H as _ <- <- <-. now constructor.
  - intros lb ub ext vs al _ IH d H Hp. destruct d as [| | | | | |st ?| | | | | |[] ?]; try discriminate; [cbn in H; destruct (known_string st); discriminate|]. injection H as -> -> -> <-. constructor. now apply IH.
  - intros ext n fs l _ IH d H Hp. destruct d as [| | | | | |st ?| | | | | |[] ?]; try discriminate; [cbn in H; destruct (known_string st); discriminate|]. injection H as -> <- <-. constructor. now apply IH.
  - intros lb ub ext t T _ IH d H Hp. destruct d as [| | | | | |st ?| | | | | |[] ?]; try discriminate; [cbn in H; destruct (known_string st); discriminate|]. injection H as <- <- <- ->. now constructor.
  - intros vs al _ IH d H Hp. destruct d as [| | | | | |st ?| | | | | |[] ?]; try discriminate; [cbn in H; destruct (known_string st); discriminate|]. injection H as <-. constructor. now apply IH.
  - intros n attrs data c T Hin Hd Hf Hm IH. apply in_map_iff in Hin. destruct Hin as ([n' d] & Hi & Hin).
    assert (n' = n) by (destruct d; try discriminate Hi; injection Hi; auto). subst n'.
    pose proof (Hprog n d Hin) as Hp. apply M_name with d; [exact Hin|]. apply IH; [|exact Hp]. now apply (derive_means items n d attrs data c T).
  - intros n t T Hin _ IH. apply in_map_iff in Hin. destruct Hin as ([n' d] & Hi & Hin). destruct d; try discriminate. injection Hi as -> ->.
    apply M_name with (GAlias t); [exact Hin|now constructor].
  - intros [|v l] H; [constructor|discriminate].
  - intros k x t T vs al _ IH _ IH' [|[nm k' x' t'] l] H; [discriminate|]. injection H as <- <- <- ->. constructor; auto.
  - intros [|v l] H; [constructor|discriminate].
  - intros k t T vs al _ IH _ IH' [|[nm k' x' t'] l] H HF; [discriminate|]. injection H as <- <- ->. inversion_clear HF as [|? ? [_ Hx] HF']. cbn in Hx. subst x'. constructor; auto.
  - intros [|v l] H; [constructor|discriminate].
  - intros i t T fs l _ IH _ IH' [|[nm o key t'] fs'] H; [discriminate|]. destruct o as [i'|]; cbn in H; [|discriminate]. injection H as <- <- ->. constructor; auto.
  - intros key t T fs l _ IH _ IH' [|[nm o key' t'] fs'] H; [discriminate|]. destruct o as [i'|]; cbn in H; [discriminate|]. injection H as <- <- ->. constructor; auto.
Qed.
End Items.
