(* A check, by computation, that the files of a protocol are compiled rightly
   (C65).  It models nothing of the code.  The functions are written so that
   they are fast when they are evaluated from the inside out.  ProtocolProofs
   shows that it is sound. *)
From Coq Require Import ZArith NArith List Bool String Ascii.
Require Import Verif.Base Verif.Spec Verif.CodecModel Verif.DeriveModel Verif.DeriveSpec Verif.Asn1Model Verif.GenModel Verif.ResolveModel Verif.TokenModel Verif.ParserModel Verif.ModuleModel
  Verif.DefinitionModel Verif.CompilerSpec Verif.RustModel Verif.RustSpec Verif.RustFacts Verif.OrderSpec Verif.OrderFacts Verif.CheckSpec.
Import ListNotations.
Open Scope Z_scope.
Open Scope list_scope.

(* ------------------------------------------------------------------ *)
(* Orders                                                              *)
(* ------------------------------------------------------------------ *)
Fixpoint once (l : list string) : list string :=
  match l with [] => [] | x :: r => if has x r then once r else x :: once r end.
Definition graph_once (nodes : list string) (edges : list (string * string)) : graph :=
  mkGraph (once (nodes ++ map fst edges ++ map snd edges)) edges.
Definition first_nodes (g : graph) : list string :=
  let targets := map snd (filter (fun e => has (fst e) (g_nodes g)) (g_edges g)) in
  filter (fun n => negb (has n targets)) (g_nodes g).
Definition without (batch : list string) (g : graph) : graph :=
  mkGraph (filter (fun n => negb (has n batch)) (g_nodes g)) (g_edges g).
Fixpoint sorted (fuel : nat) (g : graph) : option (list string) :=
  match fuel with
  | O => None
  | S f => match first_nodes g with
           | [] => Some []
           | b => match sorted f (without b g) with Some l => Some (b ++ l) | None => None end
           end
  end.
(* the only order *)
Fixpoint chain (fuel : nat) (g : graph) : option (list string) :=
  match fuel with
  | O => None
  | S f => match first_nodes g with
           | [] => Some []
           | [x] => match chain f (without [x] g) with Some l => Some (x :: l) | None => None end
           | _ => None
           end
  end.
Definition definitions_once (m : module) : graph :=
  graph_once (map fst (m_defs m)) (definition_edges m).
Definition modules_once (modules : list (string * module)) : graph :=
  graph_once (map fst modules) (module_edges modules).
Fixpoint find_orders (modules : list (string * module)) (names : list string) : option (list (string * list string)) :=
  match names with
  | [] => Some []
  | a :: r =>
      match lookup a modules, find_orders modules r with
      | Some m, Some os => match sorted 1000 (definitions_once m) with Some l => Some ((a, l) :: os) | None => None end
      | _, _ => None
      end
  end.


(* ------------------------------------------------------------------ *)
(* Items of ENUMERATED types                                           *)
(* ------------------------------------------------------------------ *)
Fixpoint some {A} (f : A -> bool) (l : list A) : bool := match l with [] => false | x :: r => if f x then true else some f r end.
Fixpoint perhaps_enum (modules : list (string * module)) (fuel : nat) (t : asn_type) : bool :=
  match fuel with
  | O => true
  | S f =>
      match t with
      | mkType (KBuiltin (BEnumerated _ _ _)) _ => true
      | mkType (KReference (RefParam _ _)) _ => true
      | mkType (KReference (RefName r)) _ =>
          some (fun nm : string * module => some (fun kd : string * definition =>
            if same r (fst kd) then match d_kind (snd kd) with DKType t => perhaps_enum modules f t | _ => false end else false) (m_defs (snd nm))) modules
      | _ => false
      end
  end.
Definition items_fine (modules : list (string * module)) : bool :=
  let names := flat_map (fun nm : string * module => def_names (snd nm)) modules in
  forallb (fun nm : string * module => forallb (fun kd : string * definition => forallb (fun ts : asn_type * string =>
    if has (snd ts) names then negb (perhaps_enum modules 10 (fst ts)) else true) (value_texts (d_kind (snd kd)))) (m_defs (snd nm))) modules.

(* ------------------------------------------------------------------ *)
(* The program                                                         *)
(* ------------------------------------------------------------------ *)
Definition small (d : gdef) : bool :=
  match d with
  | GChoice _ _ _ vs | GOpen _ vs => zlen vs <=? 2 ^ 64
  | GSequence _ _ fs => zlen fs <=? 2 ^ 64
  | _ => true
  end.
Definition program_fine (prog : list (string * gdef)) : bool :=
  if different (map fst prog) then forallb (fun nd => if small (snd nd) then negb (has "Option"%string (used_types (snd nd))) else false) prog else false.
(* equality of type trees *)
Fixpoint same_type (a b : ty) : bool :=
  match a, b with
  | TBool, TBool | TNull, TNull | TOid, TOid => true
  | TInt l u x i, TInt l' u' x' i' | TEnum l u x i, TEnum l' u' x' i' => oz_eqb l l' && oz_eqb u u' && Bool.eqb x x' && ity_eqb i i'
  | TBits l u x, TBits l' u' x' | TOctets l u x, TOctets l' u' x' | TStr l u x, TStr l' u' x' => oz_eqb l l' && oz_eqb u u' && Bool.eqb x x'
  | TSeq x n fs, TSeq x' n' fs' => Bool.eqb x x' && (n =? n') && same_fields fs fs'
  | TSeqOf l u x t, TSeqOf l' u' x' t' => oz_eqb l l' && oz_eqb u u' && Bool.eqb x x' && same_type t t'
  | TChoice l u x al, TChoice l' u' x' al' => (l =? l') && (u =? u') && Bool.eqb x x' && same_alts al al'
  | TOpen al, TOpen al' => same_alts al al'
  | _, _ => false
  end
with same_fields (a b : fields) : bool :=
  match a, b with
  | FNil, FNil => true
  | FOpt i t r, FOpt i' t' r' => (i =? i') && same_type t t' && same_fields r r'
  | FMan k t r, FMan k' t' r' => Bool.eqb k k' && same_type t t' && same_fields r r'
  | _, _ => false
  end
with same_alts (a b : alts) : bool :=
  match a, b with
  | ANil, ANil => true
  | ACons k x t r, ACons k' x' t' r' => (k =? k') && Bool.eqb x x' && same_type t t' && same_alts r r'
  | _, _ => false
  end.
Definition has_type (k : string) (T : ty) (tb : table) : bool := match lookup k tb with Some (IsType T') => same_type T' T | _ => false end.
(* every definition is a class, a parameterized definition or an exception, or
   has a meaning *)
Definition all_meant (exceptions : list string) (modules : list (string * module)) (tb : table) : bool :=
  forallb (fun nm : string * module => forallb (fun kd : string * definition =>
    match d_params (snd kd), d_kind (snd kd) with
    | Some _, _ => true
    | None, DKClass _ => true
    | None, DKType _ => match lookup (fst kd) tb with Some (IsType _) => true | _ => has (fst kd) exceptions end
    | None, _ => match lookup (fst kd) tb with Some _ => true | None => has (fst kd) exceptions end
    end) (m_defs (snd nm))) modules.
(* one build is enough (BuildProofs): where the build with overflow checks does not
   panic, the others have its result *)
Definition checked : env := {| overflow_checks := true; little_endian := true |}.
Definition modules_fine (also : table -> list (string * gdef) -> bool) (exceptions : list string) (n depth fuel : nat) (modules : list (string * module)) (names : list string) : bool :=
  match chain 100 (modules_once modules), find_orders modules names with
  | Some l, Some orders =>
      if list_eq_dec string_dec l names then
      if schema_fine modules orders then
      if items_fine modules then
      if settledb depth modules then
      let tb := find_meaning modules n orders in
      if all_meant exceptions modules tb then
      if Nat.ltb (List.length (flat_map (fun nm => def_names (snd nm)) modules)) fuel then
        match compile checked (instantiate checked depth) fuel modules orders with Ok p => if program_fine p then also tb p else false | _ => false end
      else false else false else false else false else false else false
  | _, _ => false
  end.
(* the files of a protocol whose modules are resolved in the order given *)
Definition protocol_fine (also : table -> list (string * gdef) -> bool) (exceptions : list string) (n depth fuel : nat) (files : list (list Z)) (names : list string) : bool :=
  match add_files is_digit files with
  | Ok parsed =>
      match resolve_imports (stubs parsed), link is_digit parsed [] names with
      | Ok _, Ok modules => modules_fine also exceptions n depth fuel modules names
      | _, _ => false
      end
  | _ => false
  end.
