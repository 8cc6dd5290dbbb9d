(* A compiler object and the calls that can be made on it: add_module,
   resolve_modules and generate, in any order and any number
   (asn-compiler/src/compiler.rs, resolver/int.rs, generator/int.rs,
   src/bin/hampi-asn1c.rs).  Unlike compile_files, this keeps what a call that
   fails has changed. *)
From Coq Require Import ZArith NArith List Bool String Ascii.
Require Import Verif.Base Verif.Asn1Model Verif.GenModel Verif.ResolveModel Verif.TokenModel Verif.ParserModel Verif.ModuleModel Verif.DefinitionModel.
Import ListNotations.
Open Scope list_scope.
Open Scope Z_scope.

(* ------------------------------------------------------------------ *)
(* Modules whose objects are read in place                             *)
(* ------------------------------------------------------------------ *)
(* parser structs/types/ioc.rs:92-99 (Asn1ObjectValue) *)
Inductive live_object := LText (s : string) | LRead (v : object_value).
(* structs/types/ioc.rs:161-172 *)
Inductive live_element := LSetRef (r : string) | LObjectRef (r : string) | LObject (o : live_object).
(* structs/defs.rs (Asn1AssignmentKind) *)
Inductive live_kind :=
| LKValue (typeref : asn_type) (value : string)
| LKType (t : asn_type)
| LKClass (c : class)
| LKObject (cls : string) (o : live_object)
| LKObjectSet (cls : string) (root additional : list live_element).
Record live_def := mkLive { l_kind : live_kind; l_params : option params }.
Record live_module := mkLiveModule { lm_imports : list (string * string); lm_defs : list (string * live_def) }.

(* what the parser delivers *)
Definition live_element_of (e : parsed_element) : live_element :=
  match e with PSetRef r => LSetRef r | PObjectRef r => LObjectRef r | PInput s => LObject (LText s) end.
Definition live_kind_of (a : parsed_assignment) : live_kind :=
  match a with
  | PAValue t v => LKValue t v
  | PAType t => LKType t
  | PAClass c => LKClass c
  | PAObject cls s => LKObject cls (LText s)
  | PAObjectSet cls root additional => LKObjectSet cls (map live_element_of root) (map live_element_of additional)
  end.
Definition live_of (m : parsed_module) : live_module :=
  mkLiveModule (pm_imports m) (map (fun kd => (fst kd, mkLive (live_kind_of (pd_kind (snd kd))) (pd_params (snd kd)))) (pm_defs m)).

(* what the sort and the resolver see of it *)
Definition seen_object (o : live_object) : object_value := match o with LText _ => None | LRead v => v end.
Definition seen_element (e : live_element) : set_element :=
  match e with LSetRef r => OSetRef r | LObjectRef r => OObjectRef r | LObject o => OObject (seen_object o) end.
Definition class_fields_of (c : class) : list (string * class_field) := map (fun kf => (fst kf, class_field_of (snd kf))) c.
Definition seen_kind (k : live_kind) : assignment :=
  match k with
  | LKValue t v => DKValue t v
  | LKType t => DKType t
  | LKClass c => DKClass (class_fields_of c)
  | LKObject cls o => DKObject cls (seen_object o)
  | LKObjectSet cls root additional => DKObjectSet cls (map seen_element root) (map seen_element additional)
  end.
Definition seen (d : live_def) : definition := mkDef (seen_kind (l_kind d)) (l_params d).
Definition seen_module (m : live_module) : module := mkModule (lm_imports m) (map (fun kd => (fst kd, seen (snd kd))) (lm_defs m)).

Section Read.
Context (is_numeric : Z -> bool).
(* parser/asn/defs.rs:49-53 *)
Definition read_object (c : class) (o : live_object) : res live_object :=
  match o with
  | LText s => v <-- parse_object_from_class is_numeric s c ;; Ok (LRead v)
  | LRead v => Ok (LRead v)
  end.
Definition read_element (c : class) (e : live_element) : res live_element :=
  match e with LObject o => o' <-- read_object c o ;; Ok (LObject o') | _ => Ok e end.
(* parser/asn/types/ioc.rs:390-404, 407-422: `popped` is what is left, last
   first.  When an element cannot be read, it and those that were popped before
   it are gone. *)
Fixpoint pop_all (c : class) (popped done : list live_element) : list live_element * res unit :=
  match popped with
  | [] => (done, Ok tt)
  | e :: rest =>
      match read_element c e with
      | Ok e' => pop_all c rest (done ++ [e'])
      | Err => (rev rest, Err)
      | Panic => (rev rest, Panic)
      | Diverge => (rev rest, Diverge)
      end
  end.
(* parser/asn/module.rs:25-39, defs.rs:45-61, types/ioc.rs:384-425 *)
Definition read_def (classes : list (string * class)) (d : live_def) : live_def * res unit :=
  match l_kind d with
  | LKObject cls o =>
      match lookup cls classes with
      | None => (d, Err)
      | Some c =>
          match read_object c o with
          | Ok o' => (mkLive (LKObject cls o') (l_params d), Ok tt)
          | Err => (d, Err)
          | Panic => (d, Panic)
          | Diverge => (d, Diverge)
          end
      end
  | LKObjectSet cls root additional =>
      match lookup cls classes with
      | None => (d, Err)
      | Some c =>
          match pop_all c (rev root) [] with
          | (root, Ok _) =>
              match pop_all c (rev additional) [] with
              | (additional, r) => (mkLive (LKObjectSet cls root additional) (l_params d), r)
              end
          | (root, r) => (mkLive (LKObjectSet cls root additional) (l_params d), r)
          end
      end
  | _ => (d, Ok tt)
  end.
(* module.rs:24-41, in the order of the list, in Rust in that of a HashMap *)
Fixpoint read_defs (classes : list (string * class)) (l : list (string * live_def)) : list (string * live_def) * res unit :=
  match l with
  | [] => ([], Ok tt)
  | (k, d) :: l =>
      match read_def classes d with
      | (d, Ok _) => match read_defs classes l with (l, r) => ((k, d) :: l, r) end
      | (d, r) => ((k, d) :: l, r)
      end
  end.

(* ------------------------------------------------------------------ *)
(* The object (compiler.rs:23-49, resolver/int.rs:13-33,               *)
(* generator/int.rs:14-37)                                             *)
(* ------------------------------------------------------------------ *)
Record compiler := mkCompiler {
  c_modules : list (string * live_module);
  c_defs : list (string * rdef);
  c_params : list (string * definition);
  c_classes : list (string * class);
  c_items : list (string * gdef);
  c_generator : gstate }.
Definition new_compiler : compiler := mkCompiler [] [] [] [] [] new_generator.
Definition resolver_of (c : compiler) : resolver :=
  mkResolver (c_defs c) (c_params c) (map (fun kc => (fst kc, class_fields_of (snd kc))) (c_classes c)).
Definition with_modules (m : list (string * live_module)) (c : compiler) : compiler :=
  mkCompiler m (c_defs c) (c_params c) (c_classes c) (c_items c) (c_generator c).
Definition with_classes (cs : list (string * class)) (c : compiler) : compiler :=
  mkCompiler (c_modules c) (c_defs c) (c_params c) cs (c_items c) (c_generator c).
(* the classes are in c_classes already, see resolve_classes *)
Definition with_resolver (st : resolver) (c : compiler) : compiler :=
  mkCompiler (c_modules c) (resolved_defs st) (parameterized_defs st) (c_classes c) (c_items c) (c_generator c).

Context (E : env) (depth fuel : nat).
(* compiler.rs:51-56 *)
Definition add_call (m : parsed_module) (c : compiler) : compiler * bool :=
  (with_modules (replace (pm_name m) (live_of m) (c_modules c)) c,
   match lookup (pm_name m) (c_modules c) with Some _ => true | None => false end).
(* resolver/int.rs:108-115 *)
Definition resolve_classes (m : live_module) (classes : list (string * class)) : list (string * class) :=
  fold_left (fun cs kd => match l_kind (snd kd) with LKClass c => replace (fst kd) c cs | _ => cs end) (lm_defs m) classes.
(* resolver/int.rs:54-75; what was resolved before an error is kept *)
Fixpoint resolve_each (m : module) (order : list string) (st : resolver) : resolver * res unit :=
  match order with
  | [] => (st, Ok tt)
  | k :: order =>
      match resolve_one E (instantiate E depth) fuel m st k with
      | Ok st => resolve_each m order st
      | Err => (st, Err)
      | Panic => (st, Panic)
      | Diverge => (st, Diverge)
      end
  end.
(* resolver/int.rs:48-75 *)
Definition resolve_module_call (name : string) (m : live_module) (order : list string) (c : compiler) : compiler * res unit :=
  let c := with_classes (resolve_classes m (c_classes c)) c in
  match read_defs (c_classes c) (lm_defs m) with
  | (defs, r) =>
      let m := mkLiveModule (lm_imports m) defs in
      let c := with_modules (replace name m (c_modules c)) c in
      match r with
      | Ok _ => match resolve_each (seen_module m) order (resolver_of c) with (st, r) => (with_resolver st c, r) end
      | _ => (c, r)
      end
  end.
(* compiler.rs:162-170 *)
Fixpoint resolve_modules_call (orders : list (string * list string)) (c : compiler) : compiler * res unit :=
  match orders with
  | [] => (c, Ok tt)
  | (name, order) :: orders =>
      match lookup name (c_modules c) with
      | None => (c, Panic)                                              (* unwrap *)
      | Some m =>
          match resolve_module_call name m order c with
          | (c, Ok _) => resolve_modules_call orders c
          | (c, r) => (c, r)
          end
      end
  end.
(* compiler.rs:122-137 *)
Definition imports_found (modules : list (string * live_module)) : bool :=
  forallb (fun nm => forallb (fun i => mem (snd i) (map fst modules)) (lm_imports (snd nm))) modules.
(* compiler.rs:69-72; `orders` are the orders of the two sorts *)
Definition resolve_call (orders : list (string * list string)) (c : compiler) : compiler * res unit :=
  if imports_found (c_modules c) then resolve_modules_call orders c else (c, Err).
(* compiler.rs:75-91, generator/int.rs:40-65; the item with the `use` lines is
   left out, and so is what a generation that fails leaves behind *)
Definition generate_call (c : compiler) : compiler * res (list (string * gdef)) :=
  match generate_items E (resolved_types (resolver_of c)) (c_generator c) with
  | Ok (items, g) =>
      let all := c_items c ++ items ++ aux_items g in
      (mkCompiler (c_modules c) (c_defs c) (c_params c) (c_classes c) all g, Ok all)
  | Err => (c, Err)
  | Panic => (c, Panic)
  | Diverge => (c, Diverge)
  end.

(* ------------------------------------------------------------------ *)
(* Histories                                                           *)
(* ------------------------------------------------------------------ *)
Inductive call := Add (m : parsed_module) | Resolve (orders : list (string * list string)) | Generate.
Inductive answer := Added (existed : bool) | Resolved (r : res unit) | Printed (r : res (list (string * gdef))).
Definition step (x : call) (c : compiler) : compiler * answer :=
  match x with
  | Add m => let p := add_call m c in (fst p, Added (snd p))
  | Resolve orders => let p := resolve_call orders c in (fst p, Resolved (snd p))
  | Generate => let p := generate_call c in (fst p, Printed (snd p))
  end.
(* an answer after which the program goes on; a panic ends it *)
Definition goes_on (a : answer) : bool :=
  match a with
  | Resolved Panic | Resolved Diverge | Printed Panic | Printed Diverge => false
  | _ => true
  end.
Fixpoint history (calls : list call) (c : compiler) : compiler * list answer :=
  match calls with
  | [] => (c, [])
  | x :: calls =>
      match step x c with
      | (c, a) => if goes_on a then match history calls c with (c, l) => (c, a :: l) end else (c, [a])
      end
  end.

(* src/bin/hampi-asn1c.rs:11-43 *)
Fixpoint add_calls (files : list (list Z)) : res (list call) :=
  match files with
  | [] => Ok []
  | text :: files =>
      tokens <-- tokenize is_numeric text ;;
      ms <-- parse tokens ;;
      rest <-- add_calls files ;;
      Ok (map Add (rev ms) ++ rest)
  end.
Definition hampi_asn1c (files : list (list Z)) (orders : list (string * list string)) : res (list (string * gdef)) :=
  calls <-- add_calls files ;;
  match resolve_call orders (fst (history calls new_compiler)) with
  | (c, Ok _) => snd (generate_call c)
  | (_, Err) => Err
  | (_, Panic) => Panic
  | (_, Diverge) => Diverge
  end.
End Read.
