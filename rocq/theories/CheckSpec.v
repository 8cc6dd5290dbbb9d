(* An executable reading of the meaning of a schema (C65): functions that find
   the type trees of the definitions of modules, as far as they go.  They model
   nothing of the code.  CheckProofs shows that what they find is the meaning
   of CompilerSpec, so that its theorems can be applied to whole protocols. *)
From Coq Require Import ZArith NArith List Bool String Ascii.
Require Import Verif.Base Verif.DeriveModel Verif.DeriveSpec Verif.Asn1Model Verif.GenModel Verif.ResolveModel Verif.TokenModel Verif.ParserModel
  Verif.ModuleModel Verif.DefinitionModel Verif.CompilerSpec.
Require Verif.ParserSpec Verif.ParamSpec.
Import ListNotations.
Open Scope Z_scope.

Definition then_ {A B} (o : option A) (f : A -> option B) : option B := match o with Some a => f a | None => None end.
Notation "'look' x := o 'in' f" := (then_ o (fun x => f)) (at level 61, x pattern, right associativity).
Definition only_if {A} (b : bool) (o : option A) : option A := if b then o else None.
Fixpoint each {A B} (f : A -> option B) (l : list A) : option (list B) :=
  match l with [] => Some [] | x :: r => look y := f x in look ys := each f r in Some (y :: ys) end.

(* ------------------------------------------------------------------ *)
(* Constraints                                                         *)
(* ------------------------------------------------------------------ *)
Section Bounds.
Context (V : string -> option Z).
(* whether it is a single number, and the bounds *)
Definition element_bounds (e : elements) : option (bool * Z * Z) :=
  match e with
  | ESingle v => look z := value_of V v in Some (true, z, z)
  | ERange l li u ui =>
      look a := value_of V l in look b := value_of V u in
      let a := if li then a else a + 1 in
      let b := if ui then b else b - 1 in
      only_if ((- 2 ^ 127 <=? a) && (a <=? b) && (b <? 2 ^ 127 - 1)) (Some (false, a, b))
  | _ => None
  end.
Definition one_element (i : list elements) : option (bool * Z * Z) := match i with [e] => element_bounds e | _ => None end.
Definition hull (l : list (bool * Z * Z)) : option (Z * Z) :=
  match l with
  | [] => None
  | (k, a, b) :: r =>
      only_if (forallb (fun x => Bool.eqb (fst (fst x)) k) r)
        (Some (fold_right (fun x m => Z.min (snd (fst x)) m) a r, fold_right (fun x m => Z.max (snd x) m) b r))
  end.
Definition set_bounds (s : element_set) : option (Z * Z) :=
  match s with
  | mkSet root additional =>
      look l := each one_element root in
      look _ := match additional with Some a => each one_element a | None => Some [] end in
      hull l
  end.
Definition free (cs : option (list constraint)) : bool := match cs with None | Some [] => true | _ => false end.
Definition size_bounds (cs : option (list constraint)) : option (option Z * option Z * bool) :=
  match cs with
  | None | Some [] => Some (None, None, false)
  | Some [CSubtype (mkSet [[ESize s]] None)] => look b := set_bounds s in Some (Some (fst b), Some (snd b), extensible_set s)
  | _ => None
  end.
End Bounds.

(* ------------------------------------------------------------------ *)
(* Components over object sets                                         *)
(* ------------------------------------------------------------------ *)
Definition ity_eqb (i j : ity) : bool := Bool.eqb (signed i) (signed j) && (width i =? width j).
Definition oz_eqb (a b : option Z) : bool :=
  match a, b with Some x, Some y => x =? y | None, None => true | _, _ => false end.
(* for numbers and enumerations *)
Definition same_simple (a b : ty) : bool :=
  match a, b with
  | TInt l u x i, TInt l' u' x' i' | TEnum l u x i, TEnum l' u' x' i' => oz_eqb l l' && oz_eqb u u' && Bool.eqb x x' && ity_eqb i i'
  | _, _ => false
  end.
(* the name of the set between "{ " and " }" *)
Definition between_braces (v : string) : option string :=
  let s := substring 2 (String.length v - 4) v in only_if (String.eqb v ("{ " ++ s ++ " }")) (Some s).
Definition set_of (c : constraint) : option (string * bool) :=
  match c with
  | CSubtype (mkSet [[ESingle v]] None) => look s := between_braces v in Some (s, false)
  | CTable (TableRelation s _) => Some (s, true)
  | _ => None
  end.
(* the set, whether it is selected by another component, and the field *)
Definition over (c : seq_component) : option (string * bool * string) :=
  match c with
  | mkSeqComp _ (mkType (KReference (RefClassField _ f)) (Some [k])) false _ => look x := set_of k in Some (x, f)
  | _ => None
  end.
Fixpoint insert_named (e : string * Z * ty) (l : list (string * Z * ty)) : list (string * Z * ty) :=
  match l with
  | [] => [e]
  | x :: r => if string_ltb (fst (fst e)) (fst (fst x)) then e :: l else x :: insert_named e r
  end.
Fixpoint ascending (l : list (string * Z * ty)) : bool :=
  match l with
  | [] => true
  | x :: r => match r with [] => true | y :: _ => string_ltb (fst (fst x)) (fst (fst y)) end && ascending r
  end.
Definition given_type (u f : string) (o : object_meaning) : list (string * Z * ty) :=
  match id_of u o, lookup f o with Some (nm, z), Some (FieldType (Some T)) => [(nm, z, T)] | _, _ => [] end.
Definition open_alternatives (s : set_meaning) (f : string) : option alts :=
  let l := fold_right insert_named [] (flat_map (given_type (sm_unique s) f) (sm_objects s)) in
  only_if (ascending l) (Some (fold_right (fun e al => ACons (snd (fst e)) false (snd e) al) ANil l)).
Definition is_value (f : string) (o : object_meaning) : bool := match lookup f o with Some (FieldValue _ _) => true | _ => false end.
Definition has_value (T : ty) (f : string) (o : object_meaning) : bool :=
  match lookup f o with Some (FieldValue T' _) => same_simple T T' | _ => false end.
Fixpoint find_class_fields (S : string) (s : set_meaning) (l : list seq_component) : option fields :=
  match l with
  | [] => Some FNil
  | c :: r =>
      look (S', rel, f) := over c in
      look fs := find_class_fields S s r in
      only_if (String.eqb S' S)
        match sm_objects s with
        | [] => None
        | o :: _ =>
            match lookup f o with
            | Some (FieldValue T _) =>
                only_if (Bool.eqb (negb rel) (String.eqb f (sm_unique s)) && forallb (has_value T f) (sm_objects s)) (Some (FMan (negb rel) T fs))
            | _ =>
                look al := open_alternatives s f in
                only_if (forallb (fun o => negb (is_value f o)) (sm_objects s)) (Some (FMan false (TOpen al) fs))
            end
        end
  end.
Definition over_setb (S : string) (c : seq_component) : bool :=
  match over c with Some (S', _, _) => String.eqb S' S | None => false end.

(* ------------------------------------------------------------------ *)
(* Types                                                               *)
(* ------------------------------------------------------------------ *)
Section Types.
Context (V Vsize : string -> option Z) (types : string -> option ty) (sets : string -> option set_meaning).
Context (instances : string -> list actual_param -> option ty).

Section Lists.
Context (f : asn_type -> option ty).
Fixpoint find_alternatives (x : bool) (i : Z) (l : list (string * asn_type)) : option alts :=
  match l with
  | [] => Some ANil
  | (_, t) :: r => look T := f t in look al := find_alternatives x (i + 1) r in Some (ACons i x T al)
  end.
Fixpoint find_components (i : Z) (l : list seq_component) : option fields :=
  match l with
  | [] => Some FNil
  | mkSeqComp _ t true _ :: r => look T := f t in look fs := find_components (i + 1) r in Some (FOpt i T fs)
  | mkSeqComp _ t false _ :: r => look T := f t in look fs := find_components i r in Some (FMan false T fs)
  end.
End Lists.
Definition nonempty {A} (l : list A) : bool := match l with [] => false | _ => true end.
Definition find_class_sequence (root : list seq_component) (ext : bool) : option ty :=
  match root with
  | [] => None
  | c :: _ =>
      look (set, _, _) := over c in
      look s := sets set in
      match sm_objects s with
      | [] => only_if (forallb (over_setb set) root) (Some (TSeq ext 0 FNil))
      | _ => look fs := find_class_fields set s root in Some (TSeq ext 0 fs)
      end
  end.
(* n bounds the nesting of the type *)
Fixpoint find_type (n : nat) (t : asn_type) : option ty :=
  match n with
  | O => None
  | S n =>
      match t with
      | mkType k cs =>
          match k with
          | KBuiltin BInteger =>
              if free cs then Some (TInt None None false (mkIty true 64))
              else match cs with
                   | Some [CSubtype s] =>
                       look b := set_bounds V s in let (l, u) := b in
                       only_if ((- 2 ^ 127 <? l) && (u <? 2 ^ 127)) (Some (TInt (Some l) (Some u) (extensible_set s) (mkIty (l <? 0) (chosen_width l u))))
                   | _ => None
                   end
          | KBuiltin (BEnumerated root marker ext) =>
              only_if (free cs && forallb (fun v => match ev_value v with None => true | Some _ => false end) (root ++ ext) &&
                       nonempty root && (zlen root <? 2 ^ 64))
                (Some (TEnum (Some 0) (Some (zlen root - 1)) marker (mkIty false 8)))
          | KBuiltin BBoolean => only_if (free cs) (Some TBool)
          | KBuiltin BNull => only_if (free cs) (Some TNull)
          | KBuiltin BObjectIdentifier => only_if (free cs) (Some TOid)
          | KBuiltin BRelativeOid => None
          | KBuiltin BBitString =>
              match cs with
              | Some [CContents] => Some (TBits None None false)
              | _ => look (l, u, x) := size_bounds V cs in Some (TBits l u x)
              end
          | KBuiltin BOctetString =>
              match cs with
              | Some [CContents] => Some (TOctets None None false)
              | _ => look (l, u, x) := size_bounds V cs in Some (TOctets l u x)
              end
          | KBuiltin (BCharacterString st) => look (l, u, x) := size_bounds V cs in only_if (known_string st) (Some (TStr l u x))
          | KChoice root additions =>
              look roots := find_alternatives (find_type n) false 0 root in
              look adds := match additions with Some gs => find_alternatives (find_type n) true 0 (List.concat gs) | None => Some ANil end in
              only_if (free cs && nonempty root && (zlen root <? 2 ^ 64))
                (Some (TChoice 0 (zlen root - 1) (match additions with Some _ => true | None => false end) (append_alts roots adds)))
          | KSequence root additions ext =>
              only_if (free cs)
                match root, additions with
                | mkSeqComp _ (mkType (KReference (RefClassField _ _)) _) _ _ :: _, [] => find_class_sequence root ext
                | _, _ => look fs := find_components (find_type n) 0 root in Some (TSeq ext (zlen (filter comp_optional root)) fs)
                end
          | KSequenceOf size t =>
              look (l, u, x) := size_bounds Vsize (match size with Some c => Some [c] | None => None end) in
              look T := find_type n t in only_if (free cs) (Some (TSeqOf l u x T))
          | KReference (RefName r) => look T := types r in only_if (free cs) (Some T)
          | KReference (RefParam r ps) => look T := instances r ps in only_if (free cs) (Some T)
          | _ => None
          end
      end
  end.
End Types.

(* ------------------------------------------------------------------ *)
(* The words of a type                                                 *)
(* ------------------------------------------------------------------ *)
(* The words in which a type is written (they are not the only ones): a word,
   or a name or number, which may have taken the place of a parameter. *)
Section Words.
Import ParserSpec.
Open Scope Z_scope.
Open Scope list_scope.
Inductive pattern := Word (t : tok) | Atom (s : string).
Definition letter (lo hi : Z) (s : string) : bool :=
  match s with String c _ => (lo <=? Z.of_N (N_of_ascii c)) && (Z.of_N (N_of_ascii c) <=? hi) | EmptyString => false end.
Definition value_nameb := letter 97 122.
Definition type_nameb (s : string) : bool := letter 65 90 s && negb (mem s KEYWORDS).
Fixpoint all_characters (p : Z -> bool) (s : string) : bool :=
  match s with EmptyString => true | String c r => p (Z.of_N (N_of_ascii c)) && all_characters p r end.
Definition class_nameb (s : string) : bool :=
  type_nameb s && all_characters (fun z => (65 <=? z) && (z <=? 90) || (48 <=? z) && (z <=? 57) || (z =? 45)) s.
Definition field_nameb (s : string) : bool :=
  match s with String _ r => letter 97 122 r || letter 65 90 r | EmptyString => false end.
Definition words := map Word.
Fixpoint with_commas (l : list (list pattern)) : list pattern :=
  match l with [] => [] | w :: r => match r with [] => w | _ => w ++ Word COMMA :: with_commas r end end.
Definition words_of_param (p : actual_param) : list pattern :=
  match p with PSingle s => [Atom s] | PSet s => [Word L_BRACE; Atom s; Word R_BRACE] end.
Definition words_of_ref (r : type_ref) : option (list pattern) :=
  match r with
  | RefName r => only_if (type_nameb r) (Some (words [I r]))
  | RefClassField c f => only_if (class_nameb c && field_nameb f) (Some (words [I c; DOT; mkTok AndIdentifier f]))
  | RefParam r ps => only_if (type_nameb r && nonempty ps) (Some (words [I r] ++ Word L_BRACE :: with_commas (map words_of_param ps) ++ [Word R_BRACE]))
  end.
Definition words_of_builtin (b : builtin) : option (list pattern) :=
  match b with
  | BBoolean => Some (words [K "BOOLEAN"])
  | BNull => Some (words [K "NULL"])
  | BInteger => Some (words [K "INTEGER"])
  | BBitString => Some (words [K "BIT"; K "STRING"])
  | BOctetString => Some (words [K "OCTET"; K "STRING"])
  | BObjectIdentifier => Some (words [K "OBJECT"; K "IDENTIFIER"])
  | _ => None
  end.
Definition words_of_element (e : elements) : option (list pattern) :=
  match e with
  | ERange l true u true => Some [Atom l; Word DOTDOT; Atom u]
  | ESingle v => match between_braces v with Some s => Some (words [L_BRACE; I s; R_BRACE]) | None => Some [Atom v] end
  | _ => None
  end.
Definition words_of_constraint (c : constraint) : option (list pattern) :=
  match c with
  | CSubtype (mkSet [[ESize (mkSet [[e]] None)]] None) =>
      look w := words_of_element e in Some (Word L_PAREN :: (Word (K "SIZE") :: Word L_PAREN :: w ++ [Word R_PAREN]) ++ [Word R_PAREN])
  | CSubtype (mkSet [[e]] None) => look w := words_of_element e in Some (Word L_PAREN :: w ++ [Word R_PAREN])
  | CTable (TableRelation s a) =>
      only_if (type_nameb s) (Some (words [L_PAREN; L_BRACE; I s; R_BRACE; L_BRACE; mkTok AtComponentIdList a; R_BRACE; R_PAREN]))
  | _ => None
  end.
Section Components.
Context (f : asn_type -> option (list pattern)).
Definition words_of_component (c : seq_component) : option (list pattern) :=
  match c with
  | mkSeqComp id t o None =>
      look w := f t in only_if (value_nameb id) (Some (Word (I id) :: w ++ words (if o then [K "OPTIONAL"] else [])))
  | _ => None
  end.
Definition words_of_kind (k : type_kind) : option (list pattern) :=
  match k with
  | KBuiltin b => words_of_builtin b
  | KReference r => words_of_ref r
  | KSequence root [] false =>
      look ws := each words_of_component root in
      only_if (nonempty root) (Some (words [K "SEQUENCE"; L_BRACE] ++ with_commas ws ++ [Word R_BRACE]))
  | _ => None
  end.
End Components.
Fixpoint words_of_type (n : nat) (t : asn_type) : option (list pattern) :=
  match n with
  | O => None
  | S n =>
      match t with
      | mkType (KSequenceOf None t) (Some []) => look w := words_of_type n t in Some (words [K "SEQUENCE"; K "OF"] ++ w)
      | mkType (KSequenceOf (Some c) t) (Some []) =>
          look v := words_of_constraint c in look w := words_of_type n t in Some (Word (K "SEQUENCE") :: v ++ Word (K "OF") :: w)
      | mkType k (Some cs) =>
          look w := words_of_kind (words_of_type n) k in
          look vs := each words_of_constraint cs in Some (w ++ List.concat vs)
      | _ => None
      end
  end.
Definition matches_word (t : tok) (p : pattern) : bool :=
  match p with
  | Word u => token_type_beq (t_type t) (t_type u) && String.eqb (t_text t) (t_text u)
  | Atom s => (token_type_beq (t_type t) Identifier || token_type_beq (t_type t) NumberInt) && String.eqb (t_text t) s
  end.
Fixpoint matches_words (w : list tok) (p : list pattern) : bool :=
  match w, p with [], [] => true | t :: w, x :: p => matches_word t x && matches_words w p | _, _ => false end.
(* the type that the words denote *)
Definition type_of_words (w : list tok) : option asn_type :=
  match parse_type w with
  | Ok (t, _) => look p := words_of_type 20 t in only_if (matches_words w p) (Some t)
  | _ => None
  end.
End Words.

(* ------------------------------------------------------------------ *)
(* Modules                                                             *)
(* ------------------------------------------------------------------ *)
Inductive entry := IsNumber (z : Z) | IsId (z : Z) | IsType (t : ty) | IsSet (s : set_meaning) | IsObject (o : object_meaning) | IsGeneric.
Definition table := list (string * entry).
Definition meaning_of (tb : table) : meaning := {|
  numbers := fun k => match lookup k tb with Some (IsNumber z) => Some z | _ => None end;
  ids := fun k => match lookup k tb with Some (IsNumber z) | Some (IsId z) => Some z | _ => None end;
  types := fun k => match lookup k tb with Some (IsType t) => Some t | _ => None end;
  sets := fun k => match lookup k tb with Some (IsSet s) => Some s | _ => None end;
  objects := fun k => match lookup k tb with Some (IsObject o) => Some o | _ => None end;
  generics := fun k => match lookup k tb with Some IsGeneric => true | _ => false end |}.

Section Modules.
Context (M : meaning) (modules : list (string * module)).
Fixpoint find_def (l : list (string * module)) (k : string) : option (module * definition) :=
  match l with
  | [] => None
  | (_, m) :: r => match lookup k (m_defs m) with Some d => Some (m, d) | None => find_def r k end
  end.
(* no actual parameter is the name of a later formal one *)
Fixpoint apart (formals : list string) (ps : list actual_param) : bool :=
  match formals, ps with
  | _ :: fs, p :: ps => negb (mem (param_string p) fs) && apart fs ps
  | _, _ => true
  end.
Definition nesting : nat := 50.
Fixpoint find_instance (n : nat) (sees : string -> bool) (r : string) (ps : list actual_param) : option ty :=
  match n with
  | O => None
  | S n =>
      match find_def modules r with
      | Some (m, mkDef (DKType t0) (Some (formals, w))) =>
          look t := type_of_words (map (ParamSpec.renamed (ParamSpec.instead formals ps)) w) in
          let given u := mem u (map param_string ps) && sees u in
          let inside u := given u || (mem u (type_refs t0) && in_scope m u) in
          let in_sizes u := given u || mem u (import_names m) in
          only_if (sees r && generics M r && Nat.eqb (List.length formals) (List.length ps) && apart formals ps)
            (find_type (restrict inside (numbers M)) (restrict in_sizes (numbers M)) (restrict inside (types M)) (restrict inside (sets M))
              (find_instance n inside) nesting t)
      | _ => None
      end
  end.
Definition find_in (n : nat) (sees sizes : string -> bool) : asn_type -> option ty :=
  find_type (restrict sees (numbers M)) (restrict sizes (numbers M)) (restrict sees (types M)) (restrict sees (sets M)) (find_instance n sees) nesting.
Definition literalb (T : ty) (v : string) : bool :=
  match T with TInt _ _ _ _ => match parse_i128 v with Some _ => true | None => false end | TEnum _ _ _ _ => true | _ => false end.
Definition find_field (type_is class_type_is : asn_type -> option ty) (ids : string -> option Z) (f : string * object_field)
    : option (string * field_meaning) :=
  let (k, f) := f in
  match f with
  | OFType None => Some (k, FieldType None)
  | OFType (Some t) =>
      look T := type_is t in
      match t with
      | mkType (KReference (RefName _)) _ => Some (k, FieldType (Some T))
      | mkType (KReference _) _ => None
      | _ => Some (k, FieldWritten T)
      end
  | OFValue t v =>
      look T := class_type_is t in
      match v with
      | None => Some (k, FieldValue T None)
      | Some v =>
          match ids v with
          | Some z => Some (k, FieldValue T (Some (v, z)))
          | None => only_if (literalb T v && negb (match find_def modules v with Some _ => true | None => false end)) (Some (k, FieldValue T None))
          end
      end
  end.
Definition find_class (m : module) (class : string) : option (module * list (string * class_field)) :=
  match find_def modules class with
  | Some (m', mkDef (DKClass fields) None) => only_if (in_scope m class && generics M class) (Some (m', fields))
  | _ => None
  end.
Definition find_unique (fields : list (string * class_field)) : option string :=
  match filter (fun f => match snd f with CFValue _ u => u | CFType => false end) fields with
  | [(k, _)] => Some k
  | _ => None
  end.
Definition in_class (n : nat) (m' : module) (fields : list (string * class_field)) :=
  find_in n (fun r => mem r (assignment_refs (DKClass fields)) && in_scope m' r) (import_of m').
Fixpoint find_elements (n : nat) (m m' : module) (fields : list (string * class_field)) (u : string) (l : list set_element) : option (list object_meaning) :=
  match l with
  | [] => Some []
  | e :: r =>
      look os := find_elements n m m' fields u r in
      match e with
      | OObject (Some fs) =>
          look o := each (find_field (find_in n (in_scope m) (import_of m)) (in_class n m' fields) (restrict (import_of m) (ids M))) fs in Some (o :: os)
      | OObject None => None
      | OObjectRef k => look o := scoped m (objects M) k in Some (o :: os)
      | OSetRef k => look s := scoped m (sets M) k in only_if (String.eqb (sm_unique s) u) (Some (sm_objects s ++ os))
      end
  end.
Definition id_eqb (a b : option (string * Z)) : bool :=
  match a, b with Some (x, y), Some (x', y') => String.eqb x x' && (y =? y') | None, None => true | _, _ => false end.
Fixpoint ids_apart (l : list (option (string * Z))) : bool :=
  match l with
  | [] => true
  | x :: r => match x with None => false | Some _ => negb (existsb (id_eqb x) r) && ids_apart r end
  end.
Definition find_entry (n : nat) (m : module) (d : definition) : option entry :=
  match d with
  | mkDef (DKType t) None => look T := find_in n (in_scope m) (import_of m) t in Some (IsType T)
  | mkDef (DKType _) (Some _) | mkDef (DKClass _) None => Some IsGeneric
  | mkDef (DKValue t text) None =>
      look T := find_in n (in_scope m) (import_of m) t in
      look z := parse_i128 text in
      match T, t with
      | TInt _ _ _ _, mkType (KBuiltin BInteger) _ => Some (IsNumber z)
      | TInt _ _ _ _, _ => Some (IsId z)
      | _, _ => None
      end
  | mkDef (DKObjectSet class root additional) None =>
      look (m', fields) := find_class m class in
      match root ++ additional with
      | [] => Some (IsSet (mkSetMeaning (match find_unique fields with Some u => u | None => "" end) []))
      | l =>
          look u := find_unique fields in
          look os := find_elements n m m' fields u l in
          only_if (ids_apart (map (id_of u) os)) (Some (IsSet (mkSetMeaning u os)))
      end
  | mkDef (DKObject class (Some fs)) None =>
      look (m', fields) := find_class m class in
      look o := each (find_field (find_in n (import_of m) (import_of m)) (in_class n m' fields) (restrict (import_of m) (ids M))) fs in Some (IsObject o)
  | _ => None
  end.
End Modules.
(* The definitions are read in the given order. *)
Definition extend (modules : list (string * module)) (n : nat) (m : module) (tb : table) (k : string) : table :=
  match lookup k (m_defs m), lookup k tb with
  | Some d, None => match find_entry (meaning_of tb) modules n m d with Some e => (k, e) :: tb | None => tb end
  | _, _ => tb
  end.
Definition generic_entries (m : module) : table :=
  flat_map (fun kd => match snd kd with mkDef (DKType _) (Some _) | mkDef (DKClass _) None => [(fst kd, IsGeneric)] | _ => [] end) (m_defs m).
Definition find_meaning (modules : list (string * module)) (n : nat) (orders : list (string * list string)) : table :=
  fold_left (fun tb o => match lookup (fst o) modules with
                         | Some m => fold_left (extend modules n m) (snd o) tb
                         | None => tb
                         end)
    orders (flat_map (fun nm => generic_entries (snd nm)) modules).
(* ------------------------------------------------------------------ *)
(* The check of a schema                                               *)
(* ------------------------------------------------------------------ *)
(* Equality of strings, and membership in lists of strings, that stop at the
   first difference and at the first hit, however they are evaluated. *)
Fixpoint same (s s' : string) : bool :=
  match s, s' with
  | EmptyString, EmptyString => true
  | String c r, String c' r' => if Ascii.eqb c c' then same r r' else false
  | _, _ => false
  end.
Fixpoint has (s : string) (l : list string) : bool :=
  match l with [] => false | x :: r => if same s x then true else has s r end.
(* 0 if it is not there *)
Fixpoint position (l : list string) (k : string) : nat :=
  match l with
  | [] => 0
  | x :: r => if same x k then 1 else match position r k with O => 0 | S i => S (S i) end
  end.
(* the order of the definitions of a module *)
Definition order_of (orders : list (string * list string)) (name : string) : list string :=
  match lookup name orders with Some l => l | None => [] end.
Definition in_order (order : list string) (edges : list (string * string)) : bool :=
  forallb (fun e => Nat.ltb (position order (fst e)) (position order (snd e))) edges.
(* what definitions and modules need, see definition_needs and module_needs *)
Definition definition_edges (m : module) : list (string * string) :=
  flat_map (fun kd : string * definition =>
    map (fun r => (r, fst kd)) (filter (fun r => negb (has r (map fst (m_imports m)))) (assignment_refs (d_kind (snd kd))))) (m_defs m).
Definition module_edges (modules : list (string * module)) : list (string * string) :=
  flat_map (fun nm : string * module => map (fun i => (snd i, fst nm)) (m_imports (snd nm))) modules.
(* The names are fine, everything that is imported is there, and in the given
   orders everything comes after what it needs. *)
Definition different (l : list string) : bool :=
  (fix go l := match l with [] => true | x :: r => if has x r then false else go r end) l.
Definition plain_name (s : string) : bool :=
  forallb (fun c => negb (is_space c) && negb (is_brace c)) (chars s) && match parse_i128 s with None => true | Some _ => false end.
Definition schema_fine (modules : list (string * module)) (orders : list (string * list string)) : bool :=
  different (map fst modules) &&
  different (flat_map (fun nm => def_names (snd nm)) modules) &&
  forallb (fun nm => forallb plain_name (def_names (snd nm))) modules &&
  forallb (fun nm => forallb (fun i => match lookup (snd i) modules with Some m' => has (fst i) (def_names m') | None => false end) (m_imports (snd nm))) modules &&
  in_order (map fst orders) (module_edges modules) &&
  forallb (fun nm => in_order (order_of orders (fst nm)) (definition_edges (snd nm))) modules.
