(* Two versions of a schema (C64): what may be changed from one to the next. *)
From Coq Require Import ZArith List Bool String.
Require Import Verif.Base Verif.CodecModel Verif.DeriveModel Verif.DeriveSpec Verif.Asn1Model Verif.ModuleModel Verif.CompilerSpec Verif.VersionSpec.
Require Verif.Spec Verif.LinkSpec Verif.RustModel Verif.RustSpec Verif.TokenModel Verif.ParserSpec Verif.DefinitionModel Verif.GenModel.
Import ListNotations.
Open Scope Z_scope.

(* `later_type t1 t2`: t2 is t1, or it has more behind the extension markers:
   items of ENUMERATED types, alternatives of CHOICE types (behind those that
   were added before), additions of SEQUENCE types; anywhere in the type. *)
Inductive later_type : asn_type -> asn_type -> Prop :=
| L_same t : later_type t t
| L_enumerated root ext1 ext2 cs :
    later_type (mkType (KBuiltin (BEnumerated root true ext1)) cs) (mkType (KBuiltin (BEnumerated root true ext2)) cs)
| L_choice root1 root2 cs : later_alternatives false root1 root2 ->
    later_type (mkType (KChoice root1 None) cs) (mkType (KChoice root2 None) cs)
| L_extensible_choice root1 root2 gs1 gs2 cs : later_alternatives false root1 root2 -> later_alternatives true (List.concat gs1) (List.concat gs2) ->
    later_type (mkType (KChoice root1 (Some gs1)) cs) (mkType (KChoice root2 (Some gs2)) cs)
| L_sequence root1 root2 a1 a2 ext cs : later_components root1 root2 -> (ext = false -> a1 = a2) ->
    later_type (mkType (KSequence root1 a1 ext) cs) (mkType (KSequence root2 a2 ext) cs)
| L_sequence_of size t1 t2 cs : later_type t1 t2 -> later_type (mkType (KSequenceOf size t1) cs) (mkType (KSequenceOf size t2) cs)
(* the flag: there may be more at the end *)
with later_alternatives : bool -> list (string * asn_type) -> list (string * asn_type) -> Prop :=
| LA_nil : later_alternatives false [] []
| LA_more l : later_alternatives true [] l
| LA_cons more id t1 t2 l1 l2 : later_type t1 t2 -> later_alternatives more l1 l2 -> later_alternatives more ((id, t1) :: l1) ((id, t2) :: l2)
with later_components : list seq_component -> list seq_component -> Prop :=
| LC_nil : later_components [] []
| LC_cons id t1 t2 o d l1 l2 : later_type t1 t2 -> later_components l1 l2 ->
    later_components (mkSeqComp id t1 o d :: l1) (mkSeqComp id t2 o d :: l2).

(* A definition is kept, or its type is extended, or objects are added to its
   object set. *)
Inductive later_def : definition -> definition -> Prop :=
| LD_same d : later_def d d
| LD_type t1 t2 : later_type t1 t2 -> later_def (mkDef (DKType t1) None) (mkDef (DKType t2) None)
| LD_set class r1 a1 r2 a2 : incl (r1 ++ a1) (r2 ++ a2) ->
    later_def (mkDef (DKObjectSet class r1 a1) None) (mkDef (DKObjectSet class r2 a2) None).
(* All names are still there, with such definitions.  (They may have moved to
   other modules, and there may be new ones.) *)
Definition later_modules (modules1 modules2 : list (string * module)) : Prop :=
  forall a1 m1 k d1, In (a1, m1) modules1 -> In (k, d1) (m_defs m1) ->
    exists a2 m2 d2, In (a2, m2) modules2 /\ In (k, d2) (m_defs m2) /\ later_def d1 d2.
(* The objects of a set have different numbers. *)
Definition numbers_apart (s : set_meaning) : Prop :=
  forall o o' nm nm' z, In o (sm_objects s) -> In o' (sm_objects s) ->
    id_of (sm_unique s) o = Some (nm, z) -> id_of (sm_unique s) o' = Some (nm', z) -> nm = nm'.
(* The sets of the new version have such numbers, and no object has been added
   to a set that had none. *)
Definition sets_kept (M1 M2 : meaning) : Prop :=
  forall S s1 s2, sets M1 S = Some s1 -> sets M2 S = Some s2 ->
    numbers_apart s2 /\ (sm_objects s1 = [] -> sm_objects s2 = []).

(* The texts denote the modules, the modules mean M, and they are compiled to
   the program (as in C55). *)
Definition schema_compiled (num : Z -> bool) (E : env) (files : list (list Z)) (modules : list (string * module)) (M : meaning)
    (prog : list (string * GenModel.gdef)) : Prop :=
  exists n depth fuel orders,
  LinkSpec.schema_denotes (fun z => num z = true) files modules /\
  (n <= depth)%nat /\ well_named modules /\ imports_defined modules /\
  (forall a m, In (a, m) modules -> module_means M modules n m) /\
  not_recursive M modules /\ valid_orders modules orders /\ map fst modules = map fst orders /\
  DefinitionModel.compile_files num E depth fuel files orders = Ok prog /\
  (forall n d, In (n, d) prog -> RustSpec.countable d /\ ~ In "Option"%string (RustSpec.used_types d)) /\ NoDup (map fst prog).
