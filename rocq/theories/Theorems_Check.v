(* The theorems about the NGAP protocol that comes with the compiler (C65).
   What is claimed is in ProtocolSpec; the files are in NgapFiles and NgapSpec. *)
From Coq Require Import ZArith List String.
Require Import Verif.Base Verif.Spec Verif.CodecModel Verif.DeriveModel Verif.DeriveSpec Verif.Asn1Model Verif.GenModel Verif.ResolveModel Verif.ModuleModel Verif.DefinitionModel
  Verif.CompilerSpec Verif.RustFacts Verif.X691 Verif.X691Types Verif.X691TypesSpec Verif.CheckSpec Verif.CheckModuleProofs Verif.ProtocolSpec Verif.ProtocolCheck Verif.ProtocolProofs Verif.NgapSpec Verif.NgapFacts.
Import ListNotations.
Open Scope Z_scope.
Open Scope string_scope.

(* ===== C65  The NGAP protocol is compiled rightly ===== *)
(* The meaning that the check finds in a schema is its meaning, so that the
   theorems of C47, C48 and C55 apply to what it accepts. *)
Theorem C65_check_is_sound : forall modules orders n, schema_fine modules orders = true ->
  let M := meaning_of (find_meaning modules n orders) in
  well_named modules /\ imports_defined modules /\ (forall a m, In (a, m) modules -> module_means M modules n m) /\ not_recursive M modules.
Proof. exact schema_fine_ok. Qed.
Print Assumptions C65_check_is_sound.
Theorem C65_protocol_check_is_sound : forall also (Q : meaning -> list (string * gdef) -> Prop) exceptions n depth fuel files names,
  (n <= depth)%nat -> (forall tb p, also tb p = true -> Q (meaning_of tb) p) -> protocol_fine also exceptions n depth fuel files names = true ->
  compiled_rightly_but_for exceptions is_digit depth fuel files names Q /\ (exceptions = [] -> compiled_rightly is_digit depth fuel files names Q).
Proof. exact protocol_fine_ok. Qed.
Print Assumptions C65_protocol_check_is_sound.
(* The files of specs/ngap as they are.  Missing: 24 of their 1782 definitions,
   two of which are compiled wrongly, while the others contain these; and, as in
   C47, sets without objects, and the three objects with types written out, have
   the meaning that the compiler gives them (C49). *)
Theorem C65_ngap_compiled_partial :
  compiled_rightly_but_for ngap_exceptions is_digit 2 2000 ngap_files ngap_modules
    (fun M prog => types M "NGReset" = Some ngreset_ty /\ types M "RAN-UE-NGAP-ID" = Some ran_id_ty /\ types M "AMF-UE-NGAP-ID" = Some amf_id_ty /\
      lookup "ExpectedActivityPeriod" prog = Some (period 30) /\ lookup "ExpectedIdlePeriod" prog = Some (period 30)).
Proof. exact ngap_compiled. Qed.
Print Assumptions C65_ngap_compiled_partial.
(* INTEGER (1..30|40|50|60|80|100|120|150|180|181, ...) loses all above 30. *)
Theorem C65_ngap_periods_refuted : exists modules, modules_of_files is_digit ngap_files ngap_modules modules /\ forall E, exists prog orders,
  valid_orders modules orders /\ compile_files is_digit E 2 2000 ngap_files orders = Ok prog /\
  lookup "ExpectedActivityPeriod" prog = Some (GInteger 8 false (Some 1) (Some 30) true) /\
  lookup "ExpectedIdlePeriod" prog = Some (GInteger 8 false (Some 1) (Some 30) true) /\
  fst (enc E (TInt (Some 1) (Some 30) true {| signed := false; width := 8 |}) (VI 40) new_data) = Err.
Proof. exact ngap_refuted. Qed.
Print Assumptions C65_ngap_periods_refuted.
(* Telephones with the number 0 cannot be spoken of, and some numbers are not
   sent as X.691 prescribes. *)
Theorem C65_ngap_numbers_refuted : exists modules M n, modules_of_files is_digit ngap_files ngap_modules modules /\
  (forall a m, In (a, m) modules -> module_means M modules n m) /\
  types M "RAN-UE-NGAP-ID" = Some ran_id_ty /\ types M "AMF-UE-NGAP-ID" = Some amf_id_ty /\
  forall E, fst (enc E ran_id_ty (VI 0) new_data) = Err /\ fst (enc E amf_id_ty (VI 0) new_data) = Err /\
    exists d, enc E ran_id_ty (VI 65536) new_data = (Ok tt, d) /\ into_bytes d = [64; 1; 0; 0] /\
      x_octets_of ran_id_ty (VI 65536) [128; 1; 0; 0] /\ ~ x_octets_of ran_id_ty (VI 65536) [64; 1; 0; 0].
Proof. exact ids_refuted. Qed.
Print Assumptions C65_ngap_numbers_refuted.
(* Values of NGReset that survive; the octets of the first are those of X.691. *)
Example C65_octets : forall E, carries E None ngreset_ty small_reset_value (Some 88) /\ flow_of ngreset_ty small_reset_value false = Some true /\
  x_plain ngreset_ty small_reset_value /\ x_octets_of ngreset_ty small_reset_value [0; 0; 2; 0; 15; 64; 1; 32; 0; 88; 0; 4; 64; 1; 64; 5].
Proof. exact small_reset_carried. Qed.
Example C65_reset : forall E, carries E None ngreset_ty reset_value (Some 88) /\ flow_of ngreset_ty reset_value false = Some true.
Proof. exact reset_carried. Qed.
