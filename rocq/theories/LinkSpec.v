(* Objects in the notation of their class (X.681, 10.6 and 11.7), and the
   modules that the files of a schema denote.  Nothing of the parser is used
   here, except the names of the parts of a parsed module. *)
From Coq Require Import ZArith List Bool String Ascii Permutation.
Require Import Verif.Base Verif.Asn1Model Verif.GenModel Verif.ResolveModel Verif.TokenModel Verif.ParserModel Verif.ModuleModel
  Verif.DefinitionModel Verif.ParserSpec Verif.DefinitionSpec.
Require Verif.TokenSpec.
Import ListNotations.
Open Scope string_scope.
Open Scope list_scope.

(* ------------------------------------------------------------------ *)
(* Objects                                                             *)
(* ------------------------------------------------------------------ *)
(* the words that stand before the field in WITH SYNTAX *)
Definition words_before_field (s : field_spec) : option string :=
  match s with FSType _ _ w => w | FSValue _ _ _ _ w => w end.
(* a word of the class *)
Definition word_of_class (c : class) (s : string) : Prop :=
  exists f spec ws, In (f, spec) c /\ words_before_field spec = Some (text ws) /\ Forall word ws /\ In s (map t_text ws).
(* each field once, no two with the same words, and nothing but words *)
Definition well_worded (c : class) : Prop :=
  NoDup (names c) /\
  (forall f spec x, In (f, spec) c -> words_before_field spec = Some x -> exists ws, Forall word ws /\ x = text ws) /\
  (forall f spec f' spec' x, In (f, spec) c -> In (f', spec') c ->
     words_before_field spec = Some x -> words_before_field spec' = Some x -> f = f').
(* the setting of a field: words, and a type or a value *)
Record setting := mkSetting { s_words : list tok; s_value : list tok; s_field : string; s_content : object_field }.
Definition written (s : setting) : list tok := s_words s ++ s_value s.
Definition sets_field (c : class) (s : setting) : Prop :=
  exists spec, In (s_field s, spec) c /\ words_before_field spec = Some (text (s_words s)) /\ Forall word (s_words s) /\
  match spec with
  | FSType _ _ _ => exists t, type_syntax (s_value s) t /\ s_content s = OFType (Some t)
  | FSValue t _ _ _ _ => exists v, value_syntax (s_value s) v /\ s_content s = OFValue t (Some v)
  end.
Definition given (l : list setting) : list (string * object_field) := map (fun s => (s_field s, s_content s)) l.
(* the fields that are not set and have a default *)
Definition defaults (c : class) (l : list setting) : list (string * object_field) :=
  flat_map (fun kf : string * field_spec =>
    if in_dec string_dec (fst kf) (map s_field l) then []
    else match snd kf with
         | FSType _ (Some t) _ => [(fst kf, OFType (Some t))]
         | FSValue t _ _ (Some v) _ => [(fst kf, OFValue t (Some v))]
         | _ => []
         end) c.
(* Where one setting ends and the next begins can be told without looking at
   the types of the fields: no word of the class stands in a setting, a setting
   without words does not begin with a bracket, and if some field has no words,
   all settings but the last are single items. *)
Definition told_apart (c : class) (l : list setting) : Prop :=
  (forall s t, In s l -> In t (s_value s) -> ~ word_of_class c (t_text t)) /\
  (forall s, In s l -> s_words s = [] -> follows_type (s_value s)) /\
  ((forall f spec, In (f, spec) c -> words_before_field spec <> Some "") \/
   l <> [] /\ forall s, In s (removelast l) -> List.length (s_value s) = 1%nat).
(* { WORDS setting WORDS setting ... }, each field at most once *)
Inductive object_syntax (c : class) : list tok -> list (string * object_field) -> Prop :=
| ObS l : Forall (sets_field c) l -> NoDup (map s_field l) -> told_apart c l ->
    object_syntax c (L_BRACE :: flat_map written l ++ [R_BRACE]) (given l ++ defaults c l).

(* A token of a text: an item of it, but no comment and no 'literal'B or
   'literal'H. *)
Definition from_text (numeric : Z -> Prop) (t : tok) : Prop :=
  exists cs rest, TokenSpec.lexeme numeric (t_type t) cs rest /\ t_text t = utf8 (TokenSpec.text_of (t_type t) cs) /\
    Forall (fun c => (0 <= c < 0x110000)%Z) cs /\ ~ In (t_type t) [Comment; BitString; HexString].
(* what is needed of the Unicode table of numeric characters: digits are, and
   space and line break are not *)
Definition numeric_characters (num : Z -> bool) : Prop := TokenSpec.numeric_table num /\ num 32%Z = false.

(* ------------------------------------------------------------------ *)
(* Modules                                                             *)
(* ------------------------------------------------------------------ *)
Section Denotation.
Context (numeric : Z -> Prop).
(* one file: the modules that are written in it *)
Definition file_denotes (cs : list Z) (ms : list parsed_module) : Prop :=
  cs <> [] /\ exists l, TokenSpec.items numeric cs l /\ file_syntax (words_of_items l) ms.

(* all modules *)
Context (modules : list parsed_module).
Definition defines_class (m : parsed_module) (name : string) (c : class) : Prop :=
  exists d, In (name, d) (pm_defs m) /\ pd_kind d = PAClass c.
(* the class that m knows under the name: its own, or an imported one *)
Definition sees_class (m : parsed_module) (name : string) (c : class) : Prop :=
  defines_class m name c \/
  exists m', In m' modules /\ In (name, pm_name m') (pm_imports m) /\ defines_class m' name c.
(* an object is what its text denotes in the notation of the class *)
Definition object_denotes (c : class) (input : string) (fields : list (string * object_field)) : Prop :=
  well_worded c /\ exists w, input = text w /\ Forall (from_text numeric) w /\ object_syntax c w fields.
Inductive element_denotes (c : class) : parsed_element -> set_element -> Prop :=
| ED_set r : element_denotes c (PSetRef r) (OSetRef r)
| ED_object r : element_denotes c (PObjectRef r) (OObjectRef r)
| ED_text input fs : object_denotes c input fs -> element_denotes c (PInput input) (OObject (Some fs)).
Definition field_kind (s : field_spec) : class_field :=
  match s with FSType _ _ _ => CFType | FSValue t unique _ _ _ => CFValue t unique end.
(* the elements of an object set are kept last first *)
Inductive kind_denotes (m : parsed_module) : parsed_assignment -> assignment -> Prop :=
| KD_value t v : kind_denotes m (PAValue t v) (DKValue t v)
| KD_type t : kind_denotes m (PAType t) (DKType t)
| KD_class c : kind_denotes m (PAClass c) (DKClass (map (fun kf => (fst kf, field_kind (snd kf))) c))
| KD_object name c input fs : sees_class m name c -> object_denotes c input fs ->
    kind_denotes m (PAObject name input) (DKObject name (Some fs))
| KD_set name c root additional root' additional' : sees_class m name c ->
    Forall2 (element_denotes c) (rev root) root' -> Forall2 (element_denotes c) (rev additional) additional' ->
    kind_denotes m (PAObjectSet name root additional) (DKObjectSet name root' additional').
Definition module_denotes (pm : parsed_module) (m : module) : Prop :=
  m_imports m = pm_imports pm /\
  Forall2 (fun p d => fst p = fst d /\ kind_denotes pm (pd_kind (snd p)) (d_kind (snd d)) /\ d_params (snd d) = pd_params (snd p))
    (pm_defs pm) (m_defs m).
End Denotation.
(* `schema_denotes numeric files modules`: the modules, in some order, are
   those that the files denote. *)
Definition schema_denotes (numeric : Z -> Prop) (files : list (list Z)) (modules : list (string * module)) : Prop :=
  exists pms sorted, Forall2 (file_denotes numeric) files pms /\ Permutation sorted (List.concat pms) /\
    Forall2 (fun pm nm => fst nm = pm_name pm /\ module_denotes numeric sorted pm (snd nm)) sorted modules.
