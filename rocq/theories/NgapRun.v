(* The check of NGAP, as it is. *)
From Coq Require Import ZArith List Bool String.
Require Import Verif.Base Verif.DeriveModel Verif.GenModel Verif.ResolveModel Verif.CheckSpec Verif.ProtocolCheck Verif.NgapFiles Verif.NgapSpec.
Open Scope string_scope.

Definition period_is (ub : Z) (k : string) (p : list (string * gdef)) : bool :=
  match lookup k p with Some (GInteger 8 false (Some 1%Z) (Some z) true) => Z.eqb z ub | _ => false end.
Definition periods_are (ub : Z) (tb : table) (p : list (string * gdef)) : bool :=
  has_type "NGReset" ngreset_ty tb && has_type "RAN-UE-NGAP-ID" ran_id_ty tb && has_type "AMF-UE-NGAP-ID" amf_id_ty tb && period_is ub "ExpectedActivityPeriod" p && period_is ub "ExpectedIdlePeriod" p.
