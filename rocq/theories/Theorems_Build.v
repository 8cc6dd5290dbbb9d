(* C67: the profile of the build and the byte order of the host.  Vocabulary:
   BuildSpec.v, and byte_buffer, ty_sane, val_sane, bounded_loops of DeriveSpec.v. *)
From Coq Require Import ZArith List Bool String Lia.
Require Import Verif.Base Verif.CodecModel Verif.Spec Verif.Api Verif.ApiSpec Verif.DeriveModel Verif.DeriveSpec Verif.GenModel Verif.DefinitionModel Verif.SessionModel Verif.SessionFacts Verif.RustFacts Verif.BuildSpec Verif.BuildFacts
  Verif.Theorems_Codec Verif.Theorems_Derive.
Import ListNotations.
Open Scope Z_scope.

(* ===== C67 Debug and release builds agree ===== *)
(* Every function of the codec crate, on every buffer: what a debug build returns
   without panicking a release build returns too, and leaves the same buffer. *)
Theorem C67_calls_encode : forall le c v s, panics_or_does_same (encode_prim (debug_build le) c v s) (encode_prim (release_build le) c v s).
Proof. exact prims_encode. Qed.
Print Assumptions C67_calls_encode.
Theorem C67_calls_decode : forall le c s, panics_or_does_same (decode_prim (debug_build le) c s) (decode_prim (release_build le) c s).
Proof. exact prims_decode. Qed.
Print Assumptions C67_calls_decode.
(* Every derived codec. *)
Theorem C67_encoders : forall le t v s, panics_or_does_same (enc (debug_build le) t v s) (enc (release_build le) t v s).
Proof. exact types_encode. Qed.
Print Assumptions C67_encoders.
Theorem C67_decoders : forall le t s, panics_or_does_same (dec (debug_build le) t s) (dec (release_build le) t s).
Proof. exact types_decode. Qed.
Print Assumptions C67_decoders.
(* The compiler. *)
Theorem C67_compilers : forall le num depth fuel files orders,
  panics_or_same (compile_files num (debug_build le) depth fuel files orders) (compile_files num (release_build le) depth fuel files orders).
Proof. exact compilers. Qed.
Print Assumptions C67_compilers.
(* A Compiler object, for all histories of calls on it and all states it starts in. *)
Theorem C67_histories : forall le num depth fuel calls c, some_call_panics (snd (history num (debug_build le) depth fuel calls c)) \/
  history num (release_build le) depth fuel calls c = history num (debug_build le) depth fuel calls c.
Proof. exact histories. Qed.
Print Assumptions C67_histories.
Example C67_history_case :
  (some_call_panics (snd (history is_digit (debug_build true) 2 11 (C62_retry ++ [Resolve C62_orders; Generate]) new_compiler)) -> False) /\
  snd (history is_digit (release_build true) 2 11 (C62_retry ++ [Resolve C62_orders; Generate]) new_compiler) =
    [Added false; Resolved Err; Added false; Resolved Err; Added false; Resolved (Ok tt); Printed (Ok C62_program)].
Proof. split; [|vm_compute; reflexivity]. vm_compute. intros [H|H]; repeat (destruct H as [H|H]; [discriminate H|]); exact H. Qed.
(* Where the debug build is known not to panic (C18, C20), there is no difference. *)
Theorem C67_sane_values_encoded_alike : forall le t v s, val_sane (debug_build le) t v -> enc (release_build le) t v s = enc (debug_build le) t v s.
Proof. exact sane_encode. Qed.
Print Assumptions C67_sane_values_encoded_alike.
Theorem C67_sane_types_decoded_alike : forall le t s, byte_buffer s -> ty_sane (debug_build le) t -> bounded_loops t = true ->
  dec (release_build le) t s = dec (debug_build le) t s.
Proof. exact sane_decode. Qed.
Print Assumptions C67_sane_types_decoded_alike.
Example C67_case : byte_buffer (from_slice [255; 255; 255]) /\ ty_sane (debug_build true) message /\ bounded_loops message = true /\ val_sane (debug_build true) message message_value /\
  fst (enc (release_build true) message message_value new_data) = Ok tt.
Proof.
  split; [exact (proj1 C18_derived_case)|]. split; [exact (proj1 (proj2 C18_derived_case))|]. split; [reflexivity|]. split; [exact C20_derived_case|]. vm_compute. reflexivity.
Qed.
(* Full claim: the profiles always agree.  Where the debug build panics, the release
   build may go on: it sends and reads the value 0 of INTEGER (-2^127..MAX). *)
Theorem C67_always_alike_refuted : exists t v d d', fst (enc (debug_build true) t v new_data) = Panic /\ enc (release_build true) t v new_data = (Ok tt, d) /\
  fst (dec (debug_build true) t (from_slice (into_bytes d))) = Panic /\ dec (release_build true) t (from_slice (into_bytes d)) = (Ok v, d').
Proof.
  exists (TInt (Some (- 2 ^ 127)) None false (mkIty true 64)), (VI 0). eexists _, _. split; [vm_compute; reflexivity|]. split; [vm_compute; reflexivity|].
  split; vm_compute; reflexivity.
Qed.
Print Assumptions C67_always_alike_refuted.

(* The byte order of the host: encoders, the compiler, and decoders of types without
   character strings do the same on all hosts. *)
Theorem C67_hosts_encode_alike : forall E E' t v s, same_profile E E' -> does_same (enc E t v s) (enc E' t v s).
Proof. exact order_encode. Qed.
Print Assumptions C67_hosts_encode_alike.
Theorem C67_hosts_compile_alike : forall E E' num depth fuel files orders, same_profile E E' ->
  compile_files num E depth fuel files orders = compile_files num E' depth fuel files orders.
Proof. exact order_compile. Qed.
Print Assumptions C67_hosts_compile_alike.
(* Full claim: all types.  Missing: types with character strings, for which it is
   false. *)
Theorem C67_hosts_decode_alike_partial : forall E E' t s, same_profile E E' -> no_strings t -> does_same (dec E t s) (dec E' t s).
Proof. exact order_decode. Qed.
Print Assumptions C67_hosts_decode_alike_partial.
Example C67_host_case : same_profile (release_build true) (release_build false) /\ release_build true <> release_build false /\ no_strings ie /\
  fst (dec (release_build false) ie (from_slice [0; 38; 64; 1; 128])) = Ok (VSeq [Some (VI 38); Some (VI 1); Some (VAlt 1 (VB true))]).
Proof. split; [reflexivity|]. split; [discriminate|]. split; [cbn; tauto|]. vm_compute. reflexivity. Qed.
Theorem C67_strings_by_host_refuted : forall checks, exists t bytes v w d d',
  dec {| overflow_checks := checks; little_endian := true |} t (from_slice bytes) = (Ok v, d) /\
  dec {| overflow_checks := checks; little_endian := false |} t (from_slice bytes) = (Ok w, d') /\ v <> w.
Proof.
  intros [|]; exists (TSeq true 0 (FMan false (TStr (Some 2) (Some 2) false) FNil)), [33; 33; 0]; eexists _, _, _, _; (split; [vm_compute; reflexivity|]; split; [vm_compute; reflexivity|]; discriminate).
Qed.
Print Assumptions C67_strings_by_host_refuted.
