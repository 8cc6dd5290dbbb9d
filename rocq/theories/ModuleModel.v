(* Definitions, modules, the order in which they are resolved, and imports
   (asn-compiler/src/parser/asn/structs/{defs,module}.rs, resolver/int.rs,
   compiler.rs).  A HashMap is a list of entries; the order in which Rust
   iterates over one is not fixed, so the order that TopologicalSort produces
   is a relation here, and the functions that depend on it take an order as
   an argument. *)
From Coq Require Import ZArith NArith List Bool String Ascii Permutation.
Require Import Verif.Base Verif.Asn1Model Verif.GenModel Verif.ResolveModel Verif.ParserModel.
Import ListNotations.
Open Scope Z_scope.

(* ------------------------------------------------------------------ *)
(* Definitions (parser/asn/structs)                                    *)
(* ------------------------------------------------------------------ *)
(* types/ioc.rs:7-33; defaults, OPTIONAL and WITH SYNTAX are used up by
   resolve_object_classes *)
Inductive class_field := CFType | CFValue (t : asn_type) (unique : bool).
(* defs.rs:86-92.  Objects are as they are after Asn1Module::
   resolve_object_classes (parser/asn/module.rs:20, modelled in DefinitionModel). *)
Inductive assignment :=
| DKValue (typeref : asn_type) (value : string)
| DKType (t : asn_type)
| DKClass (fields : list (string * class_field))
| DKObject (class : string) (v : object_value)
| DKObjectSet (class : string) (root additional : list set_element).
(* structs/defs.rs:117-121, 175-193: with the names of the parameters and the
   tokens of the type that they stand in; kinds and governors are not kept *)
Definition params : Type := list string * list tok.
Record definition := mkDef { d_kind : assignment; d_params : option params }.
(* module.rs:55-63: imports (name => module) and definitions *)
Record module := mkModule { m_imports : list (string * string); m_defs : list (string * definition) }.

(* ------------------------------------------------------------------ *)
(* dependent_references                                                *)
(* ------------------------------------------------------------------ *)
Definition is_number (s : string) : bool := match parse_i128 s with Some _ => true | None => false end.
Definition strip (s : string) : string := trim_matches is_space s.
Definition strip_braces (s : string) : string := strip (trim_matches is_brace s).

(* resolver/asn/types/constraints.rs:74-81, 204-217, 262-268, 291-296, 378-403,
   406-413; structs/types/mod.rs:38-58, 123-138, 152-159;
   structs/types/constructed.rs *)
Fixpoint elements_refs (e : elements) : list string :=
  match e with
  | ESingle v => if is_number v then [] else [strip_braces v]
  | ESubtype t => type_refs t
  | ERange l _ u _ => (if is_number l then [] else [strip l]) ++ (if is_number u then [] else [strip u])
  | ESize s => set_refs s
  | EAlphabet _ => []
  | ESet s => set_refs s
  end
with set_refs (s : element_set) : list string :=
  match s with
  | mkSet root additional =>
      flat_map (flat_map elements_refs) root ++
      match additional with Some a => flat_map (flat_map elements_refs) a | None => [] end
  end
with constraint_refs (c : constraint) : list string :=
  match c with
  | CTable (TableSimple s) | CTable (TableRelation s _) => [strip_braces s]
  | CSubtype s => set_refs s
  | CContents => []
  end
with type_refs (t : asn_type) : list string :=
  match t with
  | mkType k cs =>
      match k with
      | KBuiltin _ => []
      | KReference (RefName r) => [r]
      | KReference (RefClassField c _) => [c]
      | KReference (RefParam r ps) => r :: map param_string ps
      | KChoice root additions =>
          let component (c : string * asn_type) := match c with (_, t) => type_refs t end in
          flat_map component root ++
          match additions with Some gs => flat_map (flat_map component) gs | None => [] end
      | KSequence root additions _ =>
          let component (c : seq_component) := match c with mkSeqComp _ t _ _ => type_refs t end in
          flat_map component root ++ flat_map (flat_map component) additions
      | KSequenceOf _ t => type_refs t                     (* the SIZE is not looked at *)
      | KSet | KSetOf => []
      end ++
      match cs with Some l => flat_map constraint_refs l | None => [] end
  end.
(* types/ioc.rs:111-124, 134-144 *)
Definition object_refs (v : object_value) : list string :=
  match v with
  | None => []
  | Some fields =>
      flat_map (fun f : string * object_field =>
        match snd f with
        | OFType None => []
        | OFType (Some t) => type_refs t
        | OFValue t _ => type_refs t
        end) fields
  end.
(* types/ioc.rs:184-191 *)
Definition set_element_refs (e : set_element) : list string :=
  match e with OSetRef r | OObjectRef r => [r] | OObject v => object_refs v end.
(* defs.rs:105-113, types/ioc.rs:56-65, 93-97, 162-171 *)
Definition assignment_refs (a : assignment) : list string :=
  match a with
  | DKValue t _ => type_refs t
  | DKType t => type_refs t
  | DKObject class _ => [class]
  | DKObjectSet class root additional => class :: flat_map set_element_refs (root ++ additional)
  | DKClass fields =>
      flat_map (fun f : string * class_field => match snd f with CFValue t _ => type_refs t | CFType => [] end) fields
  end.

(* ------------------------------------------------------------------ *)
(* TopologicalSort                                                     *)
(* ------------------------------------------------------------------ *)
Definition mem (s : string) (l : list string) : bool := existsb (String.eqb s) l.
(* The nodes, each once, and the dependencies (before, after). *)
Record graph := mkGraph { g_nodes : list string; g_edges : list (string * string) }.
(* insert and add_dependency *)
Definition graph_of (nodes : list string) (edges : list (string * string)) : graph :=
  mkGraph (nodup string_dec (nodes ++ map fst edges ++ map snd edges)) edges.
(* the nodes without a predecessor among the nodes *)
Definition ready (g : graph) : list string :=
  filter (fun n => forallb (fun e => negb (String.eqb (snd e) n && mem (fst e) (g_nodes g))) (g_edges g)) (g_nodes g).
Definition remove_nodes (batch : list string) (g : graph) : graph :=
  mkGraph (filter (fun n => negb (mem n batch)) (g_nodes g)) (g_edges g).
(* compiler.rs:150-159, module.rs:104-113: pop_all, in any order, until it
   yields nothing *)
Inductive pops : graph -> list string -> Prop :=
| pop_none g : ready g = [] -> pops g []
| pop_some g batch out : ready g <> [] -> Permutation batch (ready g) ->
    pops (remove_nodes batch g) out -> pops g (batch ++ out).

(* module.rs:91-115 *)
Definition definitions_graph (m : module) : graph :=
  graph_of (map fst (m_defs m))
    (flat_map (fun kd : string * definition =>
       map (fun r => (r, fst kd)) (filter (fun r => negb (mem r (map fst (m_imports m)))) (assignment_refs (d_kind (snd kd))))) (m_defs m)).
Definition sorted_definitions (m : module) (order : list string) : Prop := pops (definitions_graph m) order.
(* compiler.rs:139-160 *)
Definition modules_graph (modules : list (string * module)) : graph :=
  graph_of (map fst modules)
    (flat_map (fun nm : string * module => map (fun i => (snd i, fst nm)) (m_imports (snd nm))) modules).
Definition sorted_modules (modules : list (string * module)) (order : list string) : Prop :=
  pops (modules_graph modules) order.

(* ------------------------------------------------------------------ *)
(* The resolver (resolver/int.rs)                                      *)
(* ------------------------------------------------------------------ *)
(* 13-23 *)
Record resolver := mkResolver {
  resolved_defs : list (string * rdef);
  parameterized_defs : list (string * definition);
  classes : list (string * list (string * class_field)) }.
Definition new_resolver := mkResolver [] [] [].                       (* 26-32 *)

(* structs/types/ioc.rs:67-76, the first in the order of the list, in Rust in
   the order of a HashMap *)
Fixpoint unique_field (fields : list (string * class_field)) : option string :=
  match fields with
  | [] => None
  | (k, CFValue _ true) :: _ => Some k
  | _ :: r => unique_field r
  end.

Section Resolver.
Context (E : env).
(* the resolution of a parameterized type reference (types/int.rs:81-92) *)
Context (inst : resolver -> string -> list actual_param -> res rtype).
(* the depth to which values of referenced types are followed *)
Context (fuel : nat).

(* resolver/asn/defs.rs:17-66 *)
Definition resolve_definition (st : resolver) (a : assignment) : res rdef :=
  let defs := resolved_defs st in
  match a with
  | DKValue t value =>
      r <-- resolve_type E defs (inst st) t ;; v <-- resolve_value defs fuel value r ;; Ok (DValue v)
  | DKType t => r <-- resolve_type E defs (inst st) t ;; Ok (DType r)
  | DKObjectSet class root additional =>
      match lookup class (classes st) with
      | None => Err
      | Some fields =>
          s <-- resolve_object_set E defs (inst st) fuel (unique_field fields) (root ++ additional) ;; Ok (DObjectSet s)
      end
  | DKObject _ v => o <-- resolve_object E defs (inst st) fuel v ;; Ok (DObject o)
  | DKClass _ => Err
  end.
(* 54-75, one turn of the loop *)
Definition resolve_one (m : module) (st : resolver) (k : string) : res resolver :=
  match lookup k (m_defs m) with
  | None => Ok st
  | Some d =>
      match d_params d with
      | Some _ => Ok (mkResolver (resolved_defs st) (replace k d (parameterized_defs st)) (classes st))
      | None =>
        match d_kind d with
        | DKClass f => Ok (mkResolver (resolved_defs st) (parameterized_defs st) (replace k f (classes st)))
        | a => r <-- resolve_definition st a ;; Ok (mkResolver (binsert k r (resolved_defs st)) (parameterized_defs st) (classes st))
        end
      end
  end.
(* 108-115 *)
Definition add_classes (m : module) (st : resolver) : resolver :=
  mkResolver (resolved_defs st) (parameterized_defs st)
    (fold_left (fun cs kd => match d_kind (snd kd) with DKClass f => replace (fst kd) f cs | _ => cs end) (m_defs m) (classes st)).
(* 48-96; the second loop only prints *)
Definition resolve_module (m : module) (order : list string) (st : resolver) : res resolver :=
  rfold (resolve_one m) (add_classes m st) order.

(* ------------------------------------------------------------------ *)
(* The compiler (compiler.rs)                                          *)
(* ------------------------------------------------------------------ *)
(* 122-137 *)
Definition resolve_imports (modules : list (string * module)) : res unit :=
  if forallb (fun nm => forallb (fun i => mem (snd i) (map fst modules)) (m_imports (snd nm))) modules then Ok tt else Err.
(* 162-181, for the given orders of modules and of the definitions of each *)
Definition resolve_in_order (modules : list (string * module)) (orders : list (string * list string)) : res resolver :=
  rfold (fun st no =>
    match lookup (fst no) modules with
    | None => Panic                                                   (* unwrap *)
    | Some m => resolve_module m (snd no) st
    end) new_resolver orders.
(* 69-72 *)
Definition resolve_modules (modules : list (string * module)) (orders : list (string * list string)) : res resolver :=
  _ <-- resolve_imports modules ;; resolve_in_order modules orders.
(* resolver/int.rs:98-106 *)
Definition resolved_types (st : resolver) : list (string * rtype) :=
  flat_map (fun kd => match snd kd with DType t => [(fst kd, t)] | _ => [] end) (resolved_defs st).
(* 75-77, up to the text that is printed *)
Definition compile (modules : list (string * module)) (orders : list (string * list string)) : res (list (string * gdef)) :=
  st <-- resolve_modules modules orders ;; generate E (resolved_types st).
End Resolver.

(* The orders that the two sorts may produce. *)
Definition valid_orders (modules : list (string * module)) (orders : list (string * list string)) : Prop :=
  sorted_modules modules (map fst orders) /\
  Forall (fun no => forall m, lookup (fst no) modules = Some m -> sorted_definitions m (snd no)) orders.
(* 51-56 *)
Definition add_module (name : string) (m : module) (modules : list (string * module)) : bool * list (string * module) :=
  (match lookup name modules with Some _ => true | None => false end, replace name m modules).
