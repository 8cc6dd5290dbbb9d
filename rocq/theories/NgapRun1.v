(* NGAP, as it is. *)
From Coq Require Import ZArith List String.
Require Import Verif.Base Verif.ProtocolCheck Verif.NgapFiles Verif.NgapSpec Verif.NgapRun.
Lemma ngap_fine : protocol_fine (periods_are 30) ngap_exceptions 2 2 2000 ngap_files ngap_modules = true.
Proof. vm_cast_no_check (eq_refl true). Qed.
