(* What it means that the files of a protocol are compiled rightly (C65).  The
   meaning of modules is the one of CompilerSpec, the items of the program mean
   what RustSpec says, and the values are those of DeriveSpec. *)
From Coq Require Import ZArith List Bool String.
Require Import Verif.Base Verif.Spec Verif.CodecModel Verif.DeriveModel Verif.DeriveSpec Verif.Asn1Model Verif.GenModel Verif.ResolveModel Verif.ModuleModel
  Verif.DefinitionModel Verif.CompilerSpec Verif.RustModel Verif.RustSpec Verif.X691 Verif.X691Types Verif.X691TypesSpec Verif.ShapeSpec.
Require Verif.TokenSpec Verif.DefinitionSpec Verif.LooseSpec.
Import ListNotations.
Open Scope Z_scope.

(* The modules that the files are texts of: a file is cut into the words of X.680
   (TokenSpec) and these have the form of modules (LooseSpec, C60). *)
Definition texts_of (num : Z -> bool) (files : list (list Z)) (parsed : list (string * parsed_module)) : Prop :=
  exists texts, Forall2 (fun cs ms => exists l, TokenSpec.items (fun c => num c = true) cs l /\ LooseSpec.loose_file (DefinitionSpec.words_of_items l) ms) files texts /\
    (forall a pm, In (a, pm) parsed -> a = pm_name pm /\ exists ms, In ms texts /\ In pm ms) /\
    (forall ms pm, In ms texts -> In pm ms -> In (pm_name pm) (map fst parsed)).
(* The modules of the files: what is read, with the objects of the modules
   parsed in the order of their classes. *)
Definition modules_of_files (num : Z -> bool) (files : list (list Z)) (names : list string) (modules : list (string * module)) : Prop :=
  exists parsed, texts_of num files parsed /\ add_files num files = Ok parsed /\ link num parsed [] names = Ok modules.
(* The values of the type T survive encoding and decoding. *)
Definition values_survive (E : env) (T : ty) : Prop :=
  forall v k s, carries E None T v k -> flow_of T v false = Some s ->
  exists d, enc E T v new_data = (Ok tt, d) /\ (zlen (bits d) < 2 ^ 60 -> fst (dec E T (from_slice (into_bytes d))) = Ok v).
(* They are encoded and decoded as X.691 prescribes, but for the parts of values
   for which C30 and C31 show that they are not. *)
Definition encoded_as_prescribed (E : env) (T : ty) : Prop :=
  (forall v k, carries E None T v k -> x_plain T v ->
     exists d, enc E T v new_data = (Ok tt, d) /\ (bits d <> [] -> x_octets_of T v (into_bytes d))) /\
  (forall v k s octets, x_known E None T v k -> flow_of T v false = Some s -> x_octets_of T v octets -> zlen octets < 2 ^ 57 ->
     fst (dec E T (from_slice octets)) = Ok v).
(* The program has, for every type that the modules define, but for the given
   exceptions, an item that means the type as M has it and looks like it (C61);
   and it has it only once. *)
Definition right_program (E : env) (M : meaning) (modules : list (string * module)) (exceptions : list string) (prog : list (string * gdef)) : Prop :=
  NoDup (map fst prog) /\
  forall a m k t, In (a, m) modules -> In (k, mkDef (DKType t) None) (m_defs m) -> ~ In k exceptions ->
  exists T, types M k = Some T /\ rust_means (map item_of prog) (to_type_ident k) T /\
    (forall T', rust_means (map item_of prog) (to_type_ident k) T' -> T' = T) /\
    values_survive E T /\ encoded_as_prescribed E T /\
    exists d, In (to_type_ident k, d) prog /\ shaped modules prog k t d.
(* In every order that the compiler may take, it makes of the files the same
   program, which is right.  Q is what else is said of the meaning of the
   modules, and of the program. *)
Definition compiled_rightly (num : Z -> bool) (depth fuel : nat) (files : list (list Z)) (names : list string)
    (Q : meaning -> list (string * gdef) -> Prop) : Prop :=
  exists modules M n, modules_of_files num files names modules /\ (forall a m, In (a, m) modules -> module_means M modules n m) /\
  forall E, exists prog, right_program E M modules [] prog /\ Q M prog /\ (exists orders, valid_orders modules orders) /\
    forall orders, valid_orders modules orders -> compile_files num E depth fuel files orders = Ok prog.
(* The same, but for some names: in every order in which the compiler comes to
   an end, and it does so in one. *)
Definition compiled_rightly_but_for (exceptions : list string) (num : Z -> bool) (depth fuel : nat) (files : list (list Z)) (names : list string)
    (Q : meaning -> list (string * gdef) -> Prop) : Prop :=
  exists modules M n, modules_of_files num files names modules /\ (forall a m, In (a, m) modules -> module_means M modules n m) /\
  forall E, exists prog, right_program E M modules exceptions prog /\ Q M prog /\
    (exists orders, valid_orders modules orders /\ compile_files num E depth fuel files orders = Ok prog) /\
    forall orders prog', valid_orders modules orders -> compile_files num E depth fuel files orders = Ok prog' -> prog' = prog.
