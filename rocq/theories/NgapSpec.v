(* The NGAP protocol as it comes with the compiler, and the names for which
   the compiler is wrong or whose meaning rests on these (C65). *)
From Coq Require Import ZArith List String.
Require Import Verif.Base Verif.DeriveModel Verif.DeriveSpec Verif.GenModel Verif.NgapFiles.
Import ListNotations.
Open Scope string_scope.
Open Scope Z_scope.

Definition ngap_files : list (list Z) := map file_of_lines ngap_lines.
(* the modules, in the order of their imports *)
Definition ngap_modules : list string :=
  ["NGAP-CommonDataTypes"; "NGAP-Constants"; "NGAP-Containers"; "NGAP-IEs"; "NGAP-PDU-Contents"; "NGAP-PDU-Descriptions"].
(* Two types are wrong, see C65_ngap_periods_refuted.  The others contain one
   of them. *)
Definition ngap_exceptions : list string :=
  ["ExpectedActivityPeriod"; "ExpectedIdlePeriod";
   "ExpectedUEActivityBehaviour"; "ExpectedUEBehaviour"; "CNAssistedRANTuning"; "CoreNetworkAssistanceInformationForInactive";
   "InitialContextSetupRequestIEs"; "InitialContextSetupRequest"; "UEContextModificationRequestIEs"; "UEContextModificationRequest";
   "HandoverRequestIEs"; "HandoverRequest"; "PathSwitchRequestAcknowledgeIEs"; "PathSwitchRequestAcknowledge";
   "handoverResourceAllocation"; "initialContextSetup"; "pathSwitchRequest"; "uEContextModification";
   "NGAP-ELEMENTARY-PROCEDURES"; "NGAP-ELEMENTARY-PROCEDURES-CLASS-1";
   "InitiatingMessage"; "SuccessfulOutcome"; "UnsuccessfulOutcome"; "NGAP-PDU"].
(* NGReset: a list of fields, each of which is the cause, or what is reset. *)
Definition small_enum (ub : Z) : ty := TEnum (Some 0) (Some ub) true {| signed := false; width := 8 |}.
Definition no_extensions : ty := TSeqOf (Some 1) (Some 65535) false (TSeq false 0 FNil).
Definition cause_ty : ty :=
  TChoice 0 5 false
    (ACons 0 false (small_enum 44) (ACons 1 false (small_enum 1) (ACons 2 false (small_enum 3) (ACons 3 false (small_enum 6)
      (ACons 4 false (small_enum 5) (ACons 5 false (TSeq false 0 FNil) ANil)))))).
Definition connection_ty : ty :=
  TSeq true 3
    (FOpt 0 (TInt (Some 0) (Some 1099511627775) false {| signed := false; width := 64 |})
      (FOpt 1 (TInt (Some 0) (Some 4294967295) false {| signed := false; width := 32 |}) (FOpt 2 no_extensions FNil))).
Definition reset_type_ty : ty :=
  TChoice 0 2 false
    (ACons 0 false (small_enum 0) (ACons 1 false (TSeqOf (Some 1) (Some 65536) false connection_ty) (ACons 2 false (TSeq false 0 FNil) ANil))).
Definition ngreset_ty : ty :=
  TSeq true 0
    (FMan false
      (TSeqOf (Some 0) (Some 65535) false
        (TSeq false 0
          (FMan true (TInt (Some 0) (Some 65535) false {| signed := false; width := 16 |})
            (FMan false (TEnum (Some 0) (Some 2) false {| signed := false; width := 8 |})
              (FMan false (TOpen (ACons 15 false cause_ty (ACons 88 false reset_type_ty ANil))) FNil))))) FNil).
(* a reset of two connections, caused by the transport layer *)
Definition reset_value : val :=
  VSeq [Some (VList [VSeq [Some (VI 15); Some (VI 1); Some (VAlt 0 (VAlt 1 (VI 0)))];
                     VSeq [Some (VI 88); Some (VI 0);
                           Some (VAlt 1 (VAlt 1 (VList [VSeq [Some (VI 5); Some (VI 7); None]; VSeq [None; Some (VI 8); None]])))]])].
(* the same for one connection, which only the AMF has a number for *)
Definition small_reset_value : val :=
  VSeq [Some (VList [VSeq [Some (VI 15); Some (VI 1); Some (VAlt 0 (VAlt 1 (VI 0)))];
                     VSeq [Some (VI 88); Some (VI 0); Some (VAlt 1 (VAlt 1 (VList [VSeq [Some (VI 5); None; None]])))]])].
(* The bounds that the compiler has for the two types. *)
Definition period (ub : Z) : gdef := GInteger 8 false (Some 1) (Some ub) true.

(* The numbers by which the radio network and the core network name a
   telephone. *)
Definition ran_id_ty : ty := TInt (Some 0) (Some 4294967295) false {| signed := false; width := 32 |}.
Definition amf_id_ty : ty := TInt (Some 0) (Some 1099511627775) false {| signed := false; width := 64 |}.
