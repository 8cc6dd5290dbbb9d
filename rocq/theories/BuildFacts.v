(* C67: the two profiles and the two byte orders. *)
From Coq Require Import ZArith List Bool String Lia.
Require Import Verif.Base Verif.CodecModel Verif.Spec Verif.Api Verif.ApiSpec Verif.DeriveModel Verif.DeriveSpec Verif.GenModel Verif.DefinitionModel Verif.Asn1Model Verif.ResolveModel Verif.ModuleModel Verif.SessionModel Verif.BuildProofs Verif.BuildSpec Verif.BuildCodec
  Verif.Theorems_Codec Verif.Theorems_Derive.
Import ListNotations.
Open Scope Z_scope.
Open Scope list_scope.

Lemma t_encode_prim E1 E2 c v : (overflow_checks E1 = true \/ overflow_checks E2 = overflow_checks E1) -> tallyM (encode_prim E1 c v) (encode_prim E2 c v).
Proof.
  intros H. destruct c, v; cbn [encode_prim]; try (destruct extended); lazymatch goal with
  | |- tallyM ?x ?x => apply tallyM_refl
  | |- tallyM (encode_integer _ _ _ _ _ _) _ => apply t_enc_integer, H
  | |- tallyM (encode_enumerated _ _ _ _ _ _) _ => apply t_enc_enum, H
  | |- tallyM (encode_choice_idx _ _ _ _ _ _) _ => apply t_enc_choice, H
  | |- tallyM (encode_bitstring _ _ _ _ _ _) _ => apply t_enc_bits, H
  | |- tallyM (encode_octetstring _ _ _ _ _ _) _ => apply t_enc_octets, H
  | |- tallyM (encode_string _ _ _ _ _ _) _ => apply t_enc_string, H
  | |- tallyM (encode_length_determinent _ _ _ _ _) _ => apply t_enc_length, H
  end.
Qed.
Lemma t_decode_prim E1 E2 c : (overflow_checks E1 = true \/ overflow_checks E2 = overflow_checks E1) -> little_endian E2 = little_endian E1 \/ no_string_call c ->
  tallyM (decode_prim E1 c) (decode_prim E2 c).
Proof.
  intros H Hl. destruct c; cbn [decode_prim]; (apply tallyM_bind; [|intros ?; apply tallyM_refl]); unfold decode_bool; lazymatch goal with
  | |- tallyM (data_decode_bool _) _ => apply t_bool, H
  | |- tallyM (decode_integer _ _ _ _) _ => apply t_dec_integer, H
  | |- tallyM (decode_enumerated _ _ _ _) _ => apply t_dec_enum, H
  | |- tallyM (decode_choice_idx _ _ _ _) _ => apply t_dec_choice, H
  | |- tallyM (decode_sequence_header _ _ _) _ => apply t_dec_header, H
  | |- tallyM (decode_bitstring _ _ _ _) _ => apply t_dec_bits, H
  | |- tallyM (decode_octetstring _ _ _ _) _ => apply t_dec_octets, H
  | |- tallyM (decode_length_determinent _ _ _ _) _ => apply t_dec_length, H
  | |- _ => destruct Hl as [Hl|[]]; apply t_dec_string; [exact H|exact Hl]
  end.
Qed.
Lemma tally_same {A} (m n : M A) : tallyM m n -> tallyM n m -> forall s, does_same (m s) (n s).
Proof.
  intros H1 H2 s. destruct (H1 s) as [H| ->]; [|split; reflexivity]. destruct (H2 s) as [H'| ->]; [|split; reflexivity]. split; [congruence|]. intros Hn. now destruct Hn.
Qed.
Lemma prims_encode le c v s : panics_or_does_same (encode_prim (debug_build le) c v s) (encode_prim (release_build le) c v s).
Proof. apply (t_encode_prim (debug_build le)). now left. Qed.
Lemma prims_decode le c s : panics_or_does_same (decode_prim (debug_build le) c s) (decode_prim (release_build le) c s).
Proof. apply (t_decode_prim (debug_build le)); [now left|now left]. Qed.
Lemma types_encode le t v s : panics_or_does_same (enc (debug_build le) t v s) (enc (release_build le) t v s).
Proof. apply (proj1 (t_enc (debug_build le) (release_build le) (or_introl eq_refl))). Qed.
Lemma types_decode le t s : panics_or_does_same (dec (debug_build le) t s) (dec (release_build le) t s).
Proof. apply (proj1 (t_dec (debug_build le) (release_build le) (or_introl eq_refl))). now left. Qed.
Lemma sane_encode le t v s : val_sane (debug_build le) t v -> enc (release_build le) t v s = enc (debug_build le) t v s.
Proof. intros H. destruct (types_encode le t v s) as [Hp|Hp]; [|exact Hp]. destruct (C20_derived_encoding_never_panics_partial _ t v s H) as [Hn _]. now destruct Hn. Qed.
Lemma sane_decode le t s : byte_buffer s -> ty_sane (debug_build le) t -> bounded_loops t = true -> dec (release_build le) t s = dec (debug_build le) t s.
Proof.
  intros Hb Ht Hl. destruct (types_decode le t s) as [Hp|Hp]; [|exact Hp]. destruct (C18_derived_decoding_never_panics_partial _ t s Hb Ht Hl) as [Hn _]. now destruct Hn.
Qed.
Lemma compilers le num depth fuel files orders :
  panics_or_same (compile_files num (debug_build le) depth fuel files orders) (compile_files num (release_build le) depth fuel files orders).
Proof. apply tally_compile_files. now left. Qed.
Lemma order_encode E E' t v s : same_profile E E' -> does_same (enc E t v s) (enc E' t v s).
Proof.
  intros H. apply tally_same.
  - apply (proj1 (t_enc E E' (or_intror (eq_sym H)))).
  - apply (proj1 (t_enc E' E (or_intror H))).
Qed.
Lemma order_decode E E' t s : same_profile E E' -> no_strings t -> does_same (dec E t s) (dec E' t s).
Proof.
  intros H Hn. apply tally_same.
  - apply (proj1 (t_dec E E' (or_intror (eq_sym H)))). now right.
  - apply (proj1 (t_dec E' E (or_intror H))). now right.
Qed.
Lemma order_compile E E' num depth fuel files orders : same_profile E E' -> compile_files num E depth fuel files orders = compile_files num E' depth fuel files orders.
Proof.
  intros H. destruct (tally_compile_files E E' (or_intror (eq_sym H)) num depth fuel files orders) as [Hp|Hp]; [|now symmetry].
  destruct (tally_compile_files E' E (or_intror H) num depth fuel files orders) as [Hq|Hq]; [congruence|exact Hq].
Qed.

Section Histories.
Context (num : Z -> bool) (E1 E2 : env) (Hc : overflow_checks E1 = true \/ overflow_checks E2 = overflow_checks E1) (depth fuel : nat).
Lemma t_each_def m order : forall st, snd (resolve_each E1 depth fuel m order st) = Panic \/ resolve_each E2 depth fuel m order st = resolve_each E1 depth fuel m order st.
Proof.
  induction order as [|k order IH]; intros st; [now right|]. cbn [resolve_each].
  destruct (tally_one E1 E2 Hc (instantiate E1 depth) (instantiate E2 depth) fuel (fun st r ps => tally_instantiate E1 E2 Hc depth st r ps) m st k) as [-> | ->]; [now left|].
  destruct (resolve_one E1 (instantiate E1 depth) fuel m st k) as [st'| | |]; [apply IH|now right..].
Qed.
Lemma t_module_call name m order c : snd (resolve_module_call num E1 depth fuel name m order c) = Panic \/
  resolve_module_call num E2 depth fuel name m order c = resolve_module_call num E1 depth fuel name m order c.
Proof.
  unfold resolve_module_call. cbv zeta. destruct (read_defs _ _ _) as [defs r]. destruct r as [u| | |]; try (now right).
  match goal with |- context[resolve_each E1 depth fuel ?a ?b ?c'] => destruct (t_each_def a b c') as [H| ->]; [left; destruct (resolve_each E1 depth fuel a b c'); exact H|now right] end.
Qed.
Lemma t_modules_call orders : forall c, snd (resolve_modules_call num E1 depth fuel orders c) = Panic \/
  resolve_modules_call num E2 depth fuel orders c = resolve_modules_call num E1 depth fuel orders c.
Proof.
  induction orders as [|[name order] orders IH]; intros c; [now right|]. cbn [resolve_modules_call]. destruct (lookup name (c_modules c)) as [m|]; [|now right].
  destruct (t_module_call name m order c) as [H| ->].
  - left. destruct (resolve_module_call num E1 depth fuel name m order c) as [c' r]. cbn [snd] in H. subst. reflexivity.
  - destruct (resolve_module_call num E1 depth fuel name m order c) as [c' [u| | |]]; [apply IH|now right..].
Qed.
Lemma t_resolve_call orders c : snd (resolve_call num E1 depth fuel orders c) = Panic \/ resolve_call num E2 depth fuel orders c = resolve_call num E1 depth fuel orders c.
Proof. unfold resolve_call. destruct (imports_found (c_modules c)); [apply t_modules_call|now right]. Qed.
Lemma t_generate_call c : snd (generate_call E1 c) = Panic \/ generate_call E2 c = generate_call E1 c.
Proof.
  unfold generate_call. destruct (tallyG_items E1 E2 Hc (resolved_types (resolver_of c)) (c_generator c)) as [-> | ->]; [now left|now right].
Qed.
Lemma t_history calls : forall c, some_call_panics (snd (history num E1 depth fuel calls c)) \/ history num E2 depth fuel calls c = history num E1 depth fuel calls c.
Proof.
  induction calls as [|x calls IH]; intros c; [now right|]. cbn [history].
  assert (Hs : (snd (step num E1 depth fuel x c) = Resolved Panic \/ snd (step num E1 depth fuel x c) = Printed Panic) \/ step num E2 depth fuel x c = step num E1 depth fuel x c).
  { destruct x as [m|orders|]; cbn [step]; [now right| |].
    - destruct (t_resolve_call orders c) as [H| ->]; [left; left; cbn [snd]; now rewrite H|now right].
    - destruct (t_generate_call c) as [H| ->]; [left; right; cbn [snd]; now rewrite H|now right]. }
  destruct Hs as [Hs| ->].
  - left. destruct (step num E1 depth fuel x c) as [c' a]. cbn [snd] in Hs. unfold some_call_panics. destruct Hs; subst a; cbn; auto.
  - destruct (step num E1 depth fuel x c) as [c' a]. destruct (goes_on a); [|now right]. destruct (IH c') as [H| ->]; [left|now right].
    destruct (history num E1 depth fuel calls c') as [c'' l]. unfold some_call_panics in *. cbn [snd In] in *. tauto.
Qed.
End Histories.
Lemma histories le num depth fuel calls c : some_call_panics (snd (history num (debug_build le) depth fuel calls c)) \/
  history num (release_build le) depth fuel calls c = history num (debug_build le) depth fuel calls c.
Proof. apply t_history. now left. Qed.
