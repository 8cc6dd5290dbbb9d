(* Builds with and without overflow checks (C67): where the one with the checks
   does not panic, the results are the same.  First the compiler. *)
From Coq Require Import ZArith List Bool String Lia.
Require Import Verif.Base Verif.Asn1Model Verif.GenModel Verif.ResolveModel Verif.ModuleModel Verif.DefinitionModel Verif.ConstraintProofs Verif.ResolveProofs Verif.GenProofs.
Import ListNotations.
Open Scope Z_scope.
Open Scope list_scope.

Definition tally {A} (a b : res A) : Prop := a = Panic \/ b = a.
Lemma tally_refl {A} (a : res A) : tally a a.
Proof. now right. Qed.
Lemma tally_bind {A B} (a b : res A) (f g : A -> res B) : tally a b -> (forall x, tally (f x) (g x)) -> tally (rbind a f) (rbind b g).
Proof. intros [->| ->] H; [now left|]. destruct a as [x| | |]; [apply H|now right..]. Qed.
Lemma tally_fold {A B} (f g : A -> B -> res A) l : (forall x acc, In x l -> tally (f acc x) (g acc x)) -> forall acc, tally (rfold f acc l) (rfold g acc l).
Proof.
  induction l as [|x l IH]; intros H acc; [now right|]. change (tally (rbind (f acc x) (fun a => rfold f a l)) (rbind (g acc x) (fun a => rfold g a l))).
  apply tally_bind; [apply H; now left|]. intros y. apply IH. intros z a Hz. apply H. now right.
Qed.
Lemma tally_map {A B} (f g : A -> res B) l : (forall x, In x l -> tally (f x) (g x)) -> tally (rmap f l) (rmap g l).
Proof.
  induction l as [|x l IH]; intros H; [now right|]. change (tally (y <-- f x ;; r <-- rmap f l ;; Ok (y :: r)) (y <-- g x ;; r <-- rmap g l ;; Ok (y :: r))).
  apply tally_bind; [apply H; now left|]. intros y. apply tally_bind; [|intros r; apply tally_refl]. apply IH. intros z Hz. apply H. now right.
Qed.

Section Builds.
Context (E1 E2 : env) (Hc : overflow_checks E1 = true \/ overflow_checks E2 = overflow_checks E1).
Lemma tally_i128 z : tally (arith_i128 E1 z) (arith_i128 E2 z).
Proof. unfold arith_i128. destruct (in_i128 z); [now right|]. destruct Hc as [H|H]; rewrite H; [now left|now right]. Qed.
Lemma tally_usize z : tally (arith_usize E1 z) (arith_usize E2 z).
Proof. unfold arith_usize. destruct (in_usize z); [now right|]. destruct Hc as [H|H]; rewrite H; [now left|now right]. Qed.
Lemma tally_ends l : tally (range_ends E1 l) (range_ends E2 l).
Proof.
  induction l as [|[a e] l IH]; [now right|]. cbn [range_ends]. apply tally_bind; [apply tally_i128|]. intros x. apply tally_bind; [exact IH|]. intros xs. apply tally_refl.
Qed.
Lemma tally_max a : tally (cv_max E1 a) (cv_max E2 a).
Proof. unfold cv_max. apply tally_bind; [apply tally_ends|]. intros l. apply tally_refl. Qed.

(* ------------------------------------------------------------------ *)
(* Constraints                                                         *)
(* ------------------------------------------------------------------ *)
Section Known.
Context (K : string -> option Z).
Let Ae (e : elements) : Prop := tally (elements_values E1 K e) (elements_values E2 K e).
Let As (s : element_set) : Prop := tally (set_values E1 K s) (set_values E2 K s).
Let Ac (c : constraint) : Prop := tally (constraint_values E1 K c) (constraint_values E2 K c).
Let At (t : asn_type) : Prop := tally (type_values E1 K t) (type_values E2 K t).
Lemma tally_range l li u ui : tally (range_values E1 K l li u ui) (range_values E2 K l li u ui).
Proof.
  unfold range_values. apply tally_bind; [apply tally_refl|]. intros a. apply tally_bind; [destruct li; [apply tally_refl|apply tally_i128]|]. intros b.
  apply tally_bind; [apply tally_refl|]. intros c. apply tally_bind; [destruct ui; [apply tally_refl|apply tally_i128]|]. intros d. apply tally_bind; [apply tally_i128|].
  intros e. apply tally_refl.
Qed.
Lemma tally_union u : Forall (Forall Ae) u -> tally (rfold (fun acc i => v <-- intersection E1 K i ;; Ok (cv_append acc v)) cv_new u) (rfold (fun acc i => v <-- intersection E2 K i ;; Ok (cv_append acc v)) cv_new u).
Proof.
  intros H. rewrite Forall_forall in H. apply tally_fold. intros i acc Hi. apply tally_bind; [|intros x; apply tally_refl]. unfold intersection. specialize (H i Hi). rewrite Forall_forall in H.
  apply tally_fold. intros e acc' He. apply tally_bind; [exact (H e He)|]. intros x. apply tally_refl.
Qed.
Lemma tally_set_step root add : Forall (Forall Ae) root -> (forall a, add = Some a -> Forall (Forall Ae) a) -> As (mkSet root add).
Proof.
  intros H1 H2. unfold As. rewrite !set_values_eq. apply tally_bind; [now apply tally_union|]. intros r. destruct add as [a|]; [|apply tally_refl].
  apply tally_bind; [apply tally_union; now apply H2|]. intros s. apply tally_refl.
Qed.
Lemma tally_type_step k cs : (forall l, cs = Some l -> Forall Ac l) -> At (mkType k cs).
Proof.
  intros H. unfold At. destruct k as [[]| | | | | |]; try (apply tally_refl). destruct cs as [[|c r]|]; try (apply tally_refl). specialize (H _ eq_refl). inversion_clear H as [|? ? Hx _]. exact Hx.
Qed.
Lemma tally_elements e : Ae e.
Proof.
  revert e. apply (elements_ind' Ae As Ac At).
  - intros v. apply tally_refl.
  - intros t Ht. change (tally (rbind (type_values E1 K t) (fun vs => Ok (root_values vs))) (rbind (type_values E2 K t) (fun vs => Ok (root_values vs)))).
    apply tally_bind; [exact Ht|]. intros x. apply tally_refl.
  - intros l li u ui. apply tally_range.
  - intros s Hs. set (f := fun vs => Ok match additional_values vs with None => root_values vs | Some a => cv_append (root_values vs) a end).
    change (tally (rbind (set_values E1 K s) f) (rbind (set_values E2 K s) f)). apply tally_bind; [exact Hs|]. intros x. apply tally_refl.
  - intros s. apply tally_refl.
  - intros s _. apply tally_refl.
  - exact tally_set_step.
  - intros s Hs. exact Hs.
  - intros t. apply tally_refl.
  - apply tally_refl.
  - exact tally_type_step.
Qed.
Lemma tally_set s : As s.
Proof. destruct s as [root add]. apply tally_set_step; [|intros a _]; apply Forall_forall; intros i _; apply Forall_forall; intros e _; apply tally_elements. Qed.
Lemma tally_type t : At t.
Proof. destruct t as [k cs]. apply tally_type_step. intros l _. apply Forall_forall. intros [s| |] _; [exact (tally_set s)|apply tally_refl..]. Qed.
Lemma tally_size c : tally (size_values E1 K c) (size_values E2 K c).
Proof. unfold size_values. destruct c as [[[|i [|]] a]| |]; try apply tally_refl. destruct i as [|[] i]; try apply tally_refl. apply tally_set. Qed.
Lemma tally_integer t : tally (resolve_integer E1 K t) (resolve_integer E2 K t).
Proof.
  unfold resolve_integer. destruct t as [k [[|c cs]|]]; try apply tally_refl. apply tally_bind; [apply tally_type|]. intros vs. cbv zeta. apply tally_bind; [|intros w; apply tally_refl].
  destruct (match cv_min (root_values vs) with Some x => x <? 0 | None => true end).
  - destruct (cv_min (root_values vs)) as [lo|]; [|apply tally_refl]. apply tally_bind; [apply tally_max|]. intros [hi|]; [|apply tally_refl].
    apply tally_bind; [apply tally_i128|]. intros a. apply tally_bind; [apply tally_i128|]. intros b. apply tally_refl.
  - apply tally_bind; [apply tally_max|]. intros [hi|]; apply tally_refl.
Qed.
End Known.

(* ------------------------------------------------------------------ *)
(* Types                                                               *)
(* ------------------------------------------------------------------ *)
Section Types.
Context (defs : list (string * rdef)) (inst1 inst2 : string -> list actual_param -> res rtype).
Context (Hi : forall r ps, tally (inst1 r ps) (inst2 r ps)).
Lemma tally_resolve_size strict cs : tally (resolve_size E1 defs strict cs) (resolve_size E2 defs strict cs).
Proof.
  unfold resolve_size. destruct cs as [[|c cs]|]; try apply tally_refl. apply tally_bind; [apply tally_refl|]. intros b. destruct b; [|apply tally_refl].
  apply tally_bind; [apply tally_size|]. intros x. apply tally_refl.
Qed.
Lemma tally_base b cs : tally (resolve_base E1 defs b cs) (resolve_base E2 defs b cs).
Proof.
  unfold resolve_base. destruct b; try apply tally_refl; (apply tally_bind; [first [apply tally_integer|apply tally_resolve_size]|]; intros x; apply tally_refl).
Qed.
Lemma tally_resolve t : tally (resolve_type E1 defs inst1 t) (resolve_type E2 defs inst2 t).
Proof.
  revert t. fix IH 1. intros [[b|[r|c f|r ps]|root additions|root additions ext|size t| |] cs].
  - apply tally_base.
  - apply tally_refl.
  - apply tally_refl.
  - apply Hi.
  - rewrite !resolve_choice. apply tally_bind.
    + apply tally_map. assert (HA : Forall (fun c => tally (choice_component E1 defs inst1 c) (choice_component E2 defs inst2 c)) root).
      { induction root as [|[i t] root IHr]; constructor; [|exact IHr]. unfold choice_component. apply tally_bind; [apply IH|]. intros y. apply tally_refl. }
      rewrite Forall_forall in HA. exact HA.
    + intros rl. apply tally_bind; [|intros y; apply tally_refl]. destruct additions as [gs|]; [|apply tally_refl]. apply tally_bind; [|intros y; apply tally_refl].
      apply tally_map. assert (HA : Forall (Forall (fun c => tally (choice_component E1 defs inst1 c) (choice_component E2 defs inst2 c))) gs).
      { induction gs as [|g gs IHg]; constructor; [|exact IHg]. clear IHg gs. induction g as [|[i t] g IHr]; constructor; [|exact IHr].
        unfold choice_component. apply tally_bind; [apply IH|]. intros y. apply tally_refl. }
      intros g Hg. rewrite Forall_forall in HA. specialize (HA g Hg). rewrite Forall_forall in HA. apply tally_map. exact HA.
  - rewrite !resolve_sequence. assert (HR : tally (rmap (sequence_component E1 defs inst1) root) (rmap (sequence_component E2 defs inst2) root)).
    { apply tally_map. assert (HA : Forall (fun c => tally (sequence_component E1 defs inst1 c) (sequence_component E2 defs inst2 c)) root).
      { induction root as [|[i t o d] root IHr]; constructor; [|exact IHr]. unfold sequence_component. apply tally_bind; [apply IH|]. intros y. apply tally_refl. }
      rewrite Forall_forall in HA. exact HA. }
    destruct HR as [->| ->]; [now left|now right].
  - cbn [resolve_type]. apply tally_bind; [apply IH|]. intros r. apply tally_bind; [|intros y; apply tally_refl]. destruct size as [c|]; [|apply tally_refl].
    apply tally_bind; [apply tally_size|]. intros y. apply tally_refl.
  - apply tally_refl.
  - apply tally_refl.
Qed.
Lemma tally_object fuel v : tally (resolve_object E1 defs inst1 fuel v) (resolve_object E2 defs inst2 fuel v).
Proof.
  destruct v as [fields|]; [|apply tally_refl]. unfold resolve_object. apply tally_map. intros [k f] _. destruct f as [[t|]|t [s|]]; try apply tally_refl;
    (apply tally_bind; [apply tally_resolve|]; intros r; apply tally_refl).
Qed.
Lemma tally_object_set fuel unique elems : tally (resolve_object_set E1 defs inst1 fuel unique elems) (resolve_object_set E2 defs inst2 fuel unique elems).
Proof.
  unfold resolve_object_set. apply tally_fold. intros e acc _. destruct e as [r|r|v]; try apply tally_refl. apply tally_bind; [apply tally_object|]. intros o. apply tally_refl.
Qed.
End Types.

(* ------------------------------------------------------------------ *)
(* Modules                                                             *)
(* ------------------------------------------------------------------ *)
Section Modules.
Context (inst1 inst2 : resolver -> string -> list actual_param -> res rtype) (fuel : nat).
Context (Hi : forall st r ps, tally (inst1 st r ps) (inst2 st r ps)).
Lemma tally_definition st a : tally (resolve_definition E1 inst1 fuel st a) (resolve_definition E2 inst2 fuel st a).
Proof.
  destruct a; cbn [resolve_definition]; try apply tally_refl;
    try (match goal with |- tally (match lookup ?c ?l with _ => _ end) _ => destruct (lookup c l); [|apply tally_refl] end);
    (apply tally_bind; [first [apply tally_resolve, Hi|apply tally_object, Hi|apply tally_object_set, Hi]|]; intros x; apply tally_refl).
Qed.
Lemma tally_one m st k : tally (resolve_one E1 inst1 fuel m st k) (resolve_one E2 inst2 fuel m st k).
Proof.
  unfold resolve_one. destruct (lookup k (m_defs m)) as [d|]; [|apply tally_refl]. destruct (d_params d); [apply tally_refl|].
  destruct (d_kind d); first [apply tally_refl|apply tally_bind; [apply tally_definition|]; intros x; apply tally_refl].
Qed.
Lemma tally_modules modules orders : tally (resolve_modules E1 inst1 fuel modules orders) (resolve_modules E2 inst2 fuel modules orders).
Proof.
  unfold resolve_modules. apply tally_bind; [apply tally_refl|]. intros _. unfold resolve_in_order. apply tally_fold. intros [n o] st _. cbn [fst snd].
  destruct (lookup n modules) as [m|]; [|apply tally_refl]. unfold resolve_module. apply tally_fold. intros k acc _. apply tally_one.
Qed.
End Modules.
Lemma tally_instantiate depth st r ps : tally (instantiate E1 depth st r ps) (instantiate E2 depth st r ps).
Proof.
  revert r ps. induction depth as [|n IH]; intros r ps; [apply tally_refl|]. cbn [instantiate]. destruct (lookup r (parameterized_defs st)) as [d|]; [|apply tally_refl].
  apply tally_bind; [apply tally_refl|]. intros t. apply tally_resolve. exact IH.
Qed.

(* ------------------------------------------------------------------ *)
(* The generator                                                       *)
(* ------------------------------------------------------------------ *)
Definition tallyG {A} (m n : G A) : Prop := forall s, tally (m s) (n s).
Lemma tallyG_refl {A} (m : G A) : tallyG m m.
Proof. intros s. apply tally_refl. Qed.
Lemma tallyG_bind {A B} (m n : G A) (f g : A -> G B) : tallyG m n -> (forall x, tallyG (f x) (g x)) -> tallyG (gbind m f) (gbind n g).
Proof. intros H Hf s. unfold gbind. destruct (H s) as [->| ->]; [now left|]. destruct (m s) as [[a s']| | |]; [apply Hf|now right..]. Qed.
Lemma tallyG_lift {A} (a b : res A) : tally a b -> tallyG (glift a) (glift b).
Proof. intros H s. unfold glift. apply tally_bind; [exact H|]. intros x. apply tally_refl. Qed.
Lemma tally_attributes size : tally (size_attributes E1 size) (size_attributes E2 size).
Proof. destruct size as [vs|]; [|apply tally_refl]. cbn [size_attributes]. apply tally_bind; [apply tally_max|]. intros x. apply tally_refl. Qed.
Lemma tallyG_size size f : tallyG (gsize E1 size f) (gsize E2 size f).
Proof. unfold gsize. apply tallyG_bind; [apply tallyG_lift, tally_attributes|]. intros a. apply tallyG_refl. Qed.
Lemma tallyG_maybe g1 g2 t input : (forall n, tallyG (g1 n) (g2 n)) -> tallyG (name_maybe_aux g1 t input) (name_maybe_aux g2 t input).
Proof.
  intros H. unfold name_maybe_aux. destruct t; try apply tallyG_refl; try (apply tallyG_bind; [apply tallyG_refl|]; intros nm; apply tallyG_bind; [apply H|]; intros d; apply tallyG_refl).
  apply tallyG_bind; [apply H|]. intros d. apply tallyG_refl.
Qed.
Lemma tallyG_choice name x : forall l i, Forall (fun p => forall n, tallyG (generate_for_type E1 (snd p) n) (generate_for_type E2 (snd p) n)) l ->
  tallyG (choice_tokens E1 name x i l) (choice_tokens E2 name x i l).
Proof.
  induction l as [|[id t] l IH]; intros i H; [apply tallyG_refl|]. rewrite !choice_tokens_cons. inversion_clear H as [|? ? H1 H2].
  apply tallyG_bind; [now apply tallyG_maybe|]. intros y. apply tallyG_bind; [now apply IH|]. intros z. apply tallyG_refl.
Qed.
Lemma tallyG_seq name : forall l i, Forall (fun c => forall n, tallyG (generate_for_type E1 (rc_ty c) n) (generate_for_type E2 (rc_ty c) n)) l ->
  tallyG (seq_tokens E1 name i l) (seq_tokens E2 name i l).
Proof.
  induction l as [|[id t o k] l IH]; intros i H; [apply tallyG_refl|]. rewrite !seq_tokens_cons. inversion_clear H as [|? ? H1 H2].
  apply tallyG_bind; [now apply tallyG_maybe|]. intros y. apply tallyG_bind; [now apply IH|]. intros z. apply tallyG_refl.
Qed.
Lemma tallyG_set : forall l, Forall (fun p => forall n, tallyG (generate_for_type E1 (snd p) n) (generate_for_type E2 (snd p) n)) l ->
  tallyG (set_tokens E1 l) (set_tokens E2 l).
Proof.
  induction l as [|[[nm k] t] l IH]; intros H; [apply tallyG_refl|]. rewrite !set_tokens_cons. inversion_clear H as [|? ? H1 H2].
  apply tallyG_bind; [now apply tallyG_maybe|]. intros y. apply tallyG_bind; [now apply IH|]. intros z. apply tallyG_refl.
Qed.
Lemma tallyG_type t : forall name, tallyG (generate_for_type E1 t name) (generate_for_type E2 t name).
Proof.
  induction t using rtype_ind'; intros name; try (cbn [generate_for_type]; first [apply tallyG_size|apply tallyG_refl]).
  - cbn [generate_for_type]. apply tallyG_lift. unfold generate_integer. destruct (int_constraints i); [|apply tally_refl]. apply tally_bind; [apply tally_max|]. intros x. apply tally_refl.
  - cbn [generate_for_type]. apply tallyG_lift. unfold generate_enumerated. apply tally_bind; [apply tally_usize|]. intros x. apply tally_refl.
  - rewrite !generate_choice. apply tallyG_bind; [now apply tallyG_choice|]. intros vs. apply tallyG_bind; [destruct adds; [apply tallyG_choice; auto|apply tallyG_refl]|].
    intros ws. apply tallyG_bind; [apply tallyG_lift, tally_usize|]. intros ub. apply tallyG_refl.
  - rewrite !generate_seq. apply tallyG_bind; [now apply tallyG_seq|]. intros p. apply tallyG_refl.
  - cbn [generate_for_type]. apply tallyG_bind; [apply tallyG_lift, tally_attributes|]. intros a. apply tallyG_bind; [now apply tallyG_maybe|]. intros y. apply tallyG_refl.
  - rewrite !generate_set. apply tallyG_bind; [now apply tallyG_set|]. intros p. apply tallyG_refl.
Qed.
Lemma tallyG_items defs : tallyG (generate_items E1 defs) (generate_items E2 defs).
Proof.
  induction defs as [|[k t] r IH]; cbn [generate_items]; [apply tallyG_refl|]. apply tallyG_bind; [apply tallyG_type|]. intros d.
  apply tallyG_bind; [exact IH|]. intros i. apply tallyG_refl.
Qed.
Lemma tally_generate defs : tally (generate E1 defs) (generate E2 defs).
Proof.
  unfold generate. apply tally_bind; [|intros p; apply tally_refl]. apply tallyG_items.
Qed.
Lemma tally_compile inst1 inst2 fuel modules orders : (forall st r ps, tally (inst1 st r ps) (inst2 st r ps)) ->
  tally (compile E1 inst1 fuel modules orders) (compile E2 inst2 fuel modules orders).
Proof. intros H. unfold compile. apply tally_bind; [now apply tally_modules|]. intros st. apply tally_generate. Qed.
Lemma tally_compile_files num depth fuel files orders :
  tally (compile_files num E1 depth fuel files orders) (compile_files num E2 depth fuel files orders).
Proof.
  unfold compile_files. apply tally_bind; [apply tally_refl|]. intros p. apply tally_bind; [apply tally_refl|]. intros _. apply tally_bind; [apply tally_refl|].
  intros l. apply tally_compile. intros st r ps. apply tally_instantiate.
Qed.
End Builds.
