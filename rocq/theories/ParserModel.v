(* The parser of values, types and constraints
   (asn-compiler/src/parser/utils.rs, parser/asn/values.rs, parser/asn/types).
   A parser takes the tokens that are left and returns what it read together
   with the tokens after it; in Rust it returns how many tokens it read.  Where
   Rust takes a slice that may begin past the end, the model says Panic.
   Comments have been dropped before (parser/int.rs:17), spans are left out,
   and error values carry no message.

   Every loop runs with as many turns as there are tokens left, and one more.
   A turn that reads nothing leaves the loop in the state it was in, so a loop
   that uses up its turns is one that never ends: Diverge. *)
From Coq Require Import ZArith NArith List Bool String Ascii.
Require Import Verif.Base Verif.Asn1Model Verif.TokenModel.
Import ListNotations.
Open Scope string_scope.
Open Scope list_scope.

Record tok := mkTok { t_type : token_type; t_text : string }.

(* ------------------------------------------------------------------ *)
(* Kinds of tokens (tokenizer/mod.rs:95-137, 196-332)                  *)
(* ------------------------------------------------------------------ *)
Scheme Boolean Equality for token_type.
Definition is (ty : token_type) (t : tok) : bool := token_type_beq (t_type t) ty.
(* 292-294 *)
Definition kw (k : string) (t : tok) : bool := is Keyword t && String.eqb (t_text t) k.
(* the letters a-z and A-Z: no other letter begins a word (TokenSpec.L_word) *)
Definition lower_ascii (c : ascii) : bool := let n := N_of_ascii c in ((97 <=? n) && (n <=? 122))%N.
Definition upper_ascii (c : ascii) : bool := let n := N_of_ascii c in ((65 <=? n) && (n <=? 90))%N.
Definition digit_ascii (c : ascii) : bool := let n := N_of_ascii c in ((48 <=? n) && (n <=? 57))%N.
Definition starts (p : ascii -> bool) (s : string) : bool := match s with String c _ => p c | EmptyString => false end.
Definition tail (s : string) : string := match s with String _ r => r | EmptyString => EmptyString end.
Definition is_value_reference (t : tok) : bool := is Identifier t && starts lower_ascii (t_text t).   (* 231-233 *)
Definition is_type_reference (t : tok) : bool := is Identifier t && starts upper_ascii (t_text t).    (* 236-238 *)
Fixpoint all_chars (p : ascii -> bool) (s : string) : bool :=
  match s with EmptyString => true | String c r => p c && all_chars p r end.
(* 246-252 *)
Definition is_class_reference (t : tok) : bool :=
  is_type_reference t && all_chars (fun c => upper_ascii c || digit_ascii c || Ascii.eqb c "-") (t_text t).
(* 265-271 *)
Definition is_type_field (t : tok) : bool := is AndIdentifier t && starts upper_ascii (tail (t_text t)).
Definition is_value_field (t : tok) : bool := is AndIdentifier t && starts lower_ascii (tail (t_text t)).
(* 96-112, 297-300 *)
Definition BUILTIN_TYPES : list string :=
  ["INTEGER"; "BOOLEAN"; "ENUMERATED"; "NULL"; "UTF8String"; "IA5String"; "PrintableString"; "VisibleString";
   "OBJECT"; "OCTET"; "BIT"; "CHARACTER"; "SEQUENCE"; "SET"; "CHOICE"].
Definition is_builtin_type (t : tok) : bool := existsb (String.eqb (t_text t)) BUILTIN_TYPES.
(* 114-137, 303-307 *)
Definition RESERVED_WORDS : list string :=
  ["BIT"; "BOOLEAN"; "CHARACTER"; "CHOICE"; "EMBEDDED"; "END"; "ENUMERATED"; "EXTERNAL"; "FALSE"; "INSTANCE"; "INTEGER";
   "INTERSECTION"; "MINUS-INFINITY"; "NULL"; "OBJECT"; "PLUS-INFINITY"; "REAL"; "RELATIVE-OID"; "SEQUENCE"; "SET"; "TRUE"; "UNION"].
Definition is_reserved_word (t : tok) : bool := existsb (String.eqb (t_text t)) RESERVED_WORDS.
Definition is_intersection (t : tok) : bool := is SetIntersectionToken t || kw "INTERSECTION" t.     (* 324-326 *)
Definition is_union (t : tok) : bool := is SetUnionToken t || kw "UNION" t.                          (* 329-331 *)
(* 315-321 *)
Definition concat_tokens (ts : list tok) (sep : string) : string := String.concat sep (map t_text ts).

(* ------------------------------------------------------------------ *)
(* parser/utils.rs                                                     *)
(* ------------------------------------------------------------------ *)
(* `if let Ok(x) = m`, `match m { Err(_) => .. }` *)
Definition attempt {A} (m : res A) : res (option A) :=
  match m with Ok a => Ok (Some a) | Err => Ok None | Panic => Panic | Diverge => Diverge end.
(* 7-13, 28-55: what the first token is *)
Definition expect (p : tok -> bool) (ts : list tok) : res bool :=
  match ts with [] => Err | t :: _ => Ok (p t) end.
(* 58-67, and 16-25 for keywords *)
Fixpoint all_match (ps : list (tok -> bool)) (ts : list tok) : bool :=
  match ps, ts with p :: ps, t :: ts => p t && all_match ps ts | _, _ => true end.
Definition expect_all (ps : list (tok -> bool)) (ts : list tok) : res bool :=
  if Nat.ltb (List.length ts) (List.length ps) then Err else Ok (all_match ps ts).
(* if !expect_token(..)? { return Err } consumed += 1 *)
Definition take (p : tok -> bool) (ts : list tok) : res (string * list tok) :=
  match ts with [] => Err | t :: r => if p t then Ok (t_text t, r) else Err end.
(* if expect_token(..)? { consumed += 1 } *)
Definition skip_if (p : tok -> bool) (ts : list tok) : res (list tok) :=
  match ts with [] => Err | t :: r => Ok (if p t then r else ts) end.
(* &tokens[n..] *)
Definition slice_from (n : nat) (ts : list tok) : res (list tok) :=
  if Nat.ltb (List.length ts) n then Panic else Ok (skipn n ts).

(* 82-97.  `level` counts what is open before the first token of ts. *)
Fixpoint set_ish_loop (b e : token_type) (level : Z) (ts : list tok) : res (list tok) :=
  match ts with
  | [] => Err
  | t :: r =>
      let level := if is b t then (level + 1)%Z else level in
      match r with
      | [] => Err
      | t' :: r' =>
          if is e t' then
            if (level - 1 =? 0)%Z then Ok r' else set_ish_loop b e (level - 1)%Z r
          else set_ish_loop b e level r
      end
  end.
(* the tokens of ts before rest *)
Definition before (ts rest : list tok) : list tok := firstn (List.length ts - List.length rest) ts.
(* 72-98 *)
Definition parse_set_ish_value (ts : list tok) : res (string * list tok) :=
  match ts with
  | [] => Err
  | t :: _ =>
      be <-- (if is CurlyBegin t then Ok (CurlyBegin, CurlyEnd)
              else if is RoundBegin t then Ok (RoundBegin, RoundEnd) else Err) ;;
      rest <-- set_ish_loop (fst be) (snd be) 0%Z ts ;;
      Ok (concat_tokens (before ts rest) " ", rest)
  end.

(* ------------------------------------------------------------------ *)
(* parser/asn/values.rs:11-39                                          *)
(* ------------------------------------------------------------------ *)
Definition parse_value (ts : list tok) : res (string * list tok) :=
  match ts with
  | [] => Err
  | t :: r =>
      if is Identifier t || is NumberInt t || is BitString t || is HexString t || is TString t then Ok (t_text t, r)
      else if is CurlyBegin t || is RoundBegin t then parse_set_ish_value ts
      else Err
  end.

(* ------------------------------------------------------------------ *)
(* parser/asn/types/base                                               *)
(* ------------------------------------------------------------------ *)
(* utils.rs:11-55 *)
Definition parse_named_maybe_value (ts : list tok) : res (string * option named_value * list tok) :=
  x <-- take is_value_reference ts ;;
  match snd x with
  | t :: r =>
      if is RoundBegin t then
        v <-- match r with
              | [] => Err
              | n :: r' =>
                  if is NumberInt n then Ok (Number (t_text n), r')
                  else if is_value_reference n then Ok (ValueRef (t_text n), r')
                  else Err
              end ;;
        y <-- take (is RoundEnd) (snd v) ;;
        Ok (fst x, Some (fst v), snd y)
      else Ok (fst x, None, snd x)
  | [] => Ok (fst x, None, [])
  end.
(* utils.rs:67-90; the values are read and dropped, as nothing uses them *)
Fixpoint named_values_loop (n : nat) (ts : list tok) : res (list tok) :=
  match n with
  | O => Diverge
  | S n =>
      x <-- parse_named_maybe_value ts ;;
      match snd (fst x) with
      | None => Err
      | Some _ =>
          match snd x with
          | [] => Err
          | t :: r => if is Comma t then named_values_loop n r else if is CurlyEnd t then Ok r else Err
          end
      end
  end.
(* utils.rs:57-93 *)
Definition parse_named_values (ts : list tok) : res (list tok) :=
  x <-- take (is CurlyBegin) ts ;; named_values_loop (S (List.length (snd x))) (snd x).
(* integer.rs:20-32, bitstring.rs:20-32 *)
Definition maybe_named_values (ts : list tok) : res (list tok) :=
  match ts with t :: _ => if is CurlyBegin t then parse_named_values ts else Ok ts | [] => Ok ts end.
(* integer.rs:12-35 *)
Definition parse_integer_type (ts : list tok) : res (builtin * list tok) :=
  x <-- take (kw "INTEGER") ts ;; r <-- maybe_named_values (snd x) ;; Ok (BInteger, r).
(* bitstring.rs:12-35 *)
Definition parse_bitstring_type (ts : list tok) : res (builtin * list tok) :=
  b <-- expect_all [kw "BIT"; kw "STRING"] ts ;;
  if b then r <-- maybe_named_values (skipn 2 ts) ;; Ok (BBitString, r) else Err.
(* enumerated.rs:13-40 *)
Fixpoint enum_values_loop (n : nat) (acc : list enum_value) (ts : list tok) : res (list enum_value * list tok) :=
  match n with
  | O => Diverge
  | S n =>
      x <-- parse_named_maybe_value ts ;;
      let acc := acc ++ [mkEnumValue (fst (fst x)) (snd (fst x))] in
      r <-- skip_if (is Comma) (snd x) ;;
      stop <-- expect (fun t => is Extension t || is CurlyEnd t) r ;;
      if stop then Ok (acc, r) else enum_values_loop n acc r
  end.
Definition parse_enum_values (ts : list tok) : res (list enum_value * list tok) := enum_values_loop (S (List.length ts)) [] ts.
(* enumerated.rs:43-92; of the marker only its presence is kept *)
Definition parse_enumerated_type (ts : list tok) : res (builtin * list tok) :=
  x <-- take (kw "ENUMERATED") ts ;;
  x <-- take (is CurlyBegin) (snd x) ;;
  root <-- parse_enum_values (snd x) ;;
  marker <-- expect (is Extension) (snd root) ;;
  r <-- skip_if (is Extension) (snd root) ;;
  r <-- skip_if (is Comma) r ;;
  e <-- attempt (parse_enum_values r) ;;
  let ext := match e with Some x => x | None => ([], r) end in
  x <-- take (is CurlyEnd) (snd ext) ;;
  Ok (BEnumerated (fst root) marker (fst ext), snd x).

(* ------------------------------------------------------------------ *)
(* parser/asn/types/int.rs:112-234                                     *)
(* ------------------------------------------------------------------ *)
Definition is_param (t : tok) : bool := is NumberInt t || is Identifier t.
(* 196-232 *)
Fixpoint actual_params_loop (n : nat) (acc : list actual_param) (ts : list tok) : res (list actual_param * list tok) :=
  match n with
  | O => Diverge
  | S n =>
      b <-- expect (is CurlyBegin) ts ;;
      s <-- (if b then
               p <-- take is_param (skipn 1 ts) ;;
               e <-- take (is CurlyEnd) (snd p) ;;
               Ok (acc ++ [PSet (fst p)], snd e)
             else Ok (acc, ts)) ;;
      b <-- expect is_param (snd s) ;;
      s <-- (if b then p <-- take is_param (snd s) ;; Ok (fst s ++ [PSingle (fst p)], snd p) else Ok s) ;;
      r <-- skip_if (is Comma) (snd s) ;;
      stop <-- expect (is CurlyEnd) r ;;
      if stop then Ok (fst s, skipn 1 r) else actual_params_loop n (fst s) r
  end.
(* 188-234 *)
Definition parse_actual_params (ts : list tok) : res (list actual_param * list tok) :=
  x <-- take (is CurlyBegin) ts ;; actual_params_loop (S (List.length (snd x))) [] (snd x).
(* 112-186 *)
Definition parse_referenced_type (ts : list tok) : res (type_ref * list tok) :=
  c <-- attempt (expect_all [is_class_reference; is Dot; fun t => is_type_field t || is_value_field t] ts) ;;
  match c, ts with
  | Some true, t :: _ :: f :: r => Ok (RefClassField (t_text t) (t_text f), r)
  | _, _ =>
      m <-- attempt (expect_all [is_type_reference; is Dot; is_type_reference] ts) ;;
      x <-- match m, ts with
            | Some true, _ => Ok (concat_tokens (firstn 3 ts) "", skipn 3 ts)
            | _, t :: r => Ok (t_text t, r)
            | _, [] => Panic                                  (* tokens[0] *)
            end ;;
      ps <-- match snd x with
             | t :: _ => if is CurlyBegin t then parse_actual_params (snd x) else Ok ([], snd x)
             | [] => Ok ([], [])
             end ;;
      Ok (match fst ps with [] => RefName (fst x) | l => RefParam (fst x) l end, snd ps)
  end.

(* ------------------------------------------------------------------ *)
(* parser/asn/types/constraints.rs                                     *)
(* ------------------------------------------------------------------ *)
(* 275-279, 281-293, 318-330 *)
Definition parse_end_value (ts : list tok) : res (string * list tok) :=
  v <-- attempt (parse_value ts) ;;
  match v with
  | Some x => Ok x
  | None => take (fun t => kw "MIN" t || kw "MAX" t) ts
  end.
(* 272-342 *)
Definition parse_range_elements (ts : list tok) : res (elements * list tok) :=
  lo <-- parse_end_value ts ;;
  b <-- expect (fun t => is LessThan t || is RangeSeparator t) (snd lo) ;;
  if b then
    lt <-- expect (is LessThan) (snd lo) ;;
    r <-- slice_from (if lt then 2 else 1) (snd lo) ;;        (* the token after '<' is not looked at *)
    lt' <-- expect (is LessThan) r ;;
    hi <-- parse_end_value (if lt' then skipn 1 r else r) ;;
    Ok (ERange (fst lo) (negb lt) (fst hi) (negb lt'), snd hi)
  else Err.
(* 42-98 *)
Definition parse_table_constraint (ts : list tok) : res (constraint * list tok) :=
  x <-- take (is RoundBegin) ts ;;
  b <-- expect_all [is CurlyBegin; is_type_reference; is CurlyEnd] (snd x) ;;
  match b, snd x with
  | true, _ :: s :: _ :: r =>
      c <-- attempt (expect_all [is CurlyBegin; is AtComponentIdList; is CurlyEnd] r) ;;
      match c, r with
      | Some true, _ :: a :: _ :: r' =>
          y <-- take (is RoundEnd) r' ;; Ok (CTable (TableRelation (t_text s) (t_text a)), snd y)
      | _, _ => y <-- take (is RoundEnd) r ;; Ok (CTable (TableSimple (t_text s)), snd y)
      end
  | _, _ => Err
  end.
(* 344-377 *)
Definition parse_contents_constraint (ts : list tok) : res (constraint * list tok) :=
  x <-- take (is RoundBegin) ts ;;
  x <-- take (kw "CONTAINING") (snd x) ;;
  x <-- take is_type_reference (snd x) ;;
  x <-- take (is RoundEnd) (snd x) ;;
  Ok (CContents, snd x).

(* parse_type and parse_element_set call each other and themselves, always with
   fewer tokens: `rec_type` and `rec_set` stand for these calls. *)
Section Step.
Context (rec_type : list tok -> res (asn_type * list tok)).
Context (rec_set : list tok -> res (element_set * list tok)).

(* 204-265 *)
Definition parse_intersection_set (ts : list tok) : res (elements * list tok) :=
  k <-- expect (fun t => kw "SIZE" t || kw "FROM" t) ts ;;
  size <-- expect (kw "SIZE") ts ;;
  let ts := if k then skipn 1 ts else ts in
  inner <-- (if k then expect (is RoundBegin) ts else Ok false) ;;
  if inner then s <-- rec_set ts ;; Ok (if size then ESize (fst s) else EAlphabet (fst s), snd s)
  else
    r <-- attempt (parse_range_elements ts) ;;
    match r with
    | Some x => Ok x
    | None =>
        b <-- expect (is RoundBegin) ts ;;
        if b then s <-- rec_set ts ;; Ok (ESet (fst s), snd s)
        else
          v <-- attempt (parse_value ts) ;;
          match v with
          | Some x => Ok (ESingle (fst x), snd x)
          | None => t <-- attempt (rec_type ts) ;; match t with Some x => Ok (ESubtype (fst x), snd x) | None => Err end
          end
    end.
(* 162-183 *)
Fixpoint intersection_loop (n : nat) (expecting : bool) (acc : list elements) (ts : list tok) : res (list elements * list tok) :=
  match n with
  | O => Diverge
  | S n =>
      e <-- attempt (parse_intersection_set ts) ;;
      s <-- match e with
            | Some x => Ok (acc ++ [fst x], snd x)
            | None => if expecting then Err else Ok (acc, ts)
            end ;;
      b <-- expect is_intersection (snd s) ;;
      if b then intersection_loop n true (fst s) (skipn 1 (snd s)) else Ok s
  end.
(* 160-195 *)
Fixpoint union_loop (n : nat) (acc : list (list elements)) (ts : list tok) : res (list (list elements) * list tok) :=
  match n with
  | O => Diverge
  | S n =>
      i <-- intersection_loop (S (List.length ts)) false [] ts ;;
      let acc := match fst i with [] => acc | l => acc ++ [l] end in
      b <-- expect is_union (snd i) ;;
      if b then union_loop n acc (skipn 1 (snd i)) else Ok (acc, snd i)
  end.
(* 155-198 *)
Definition parse_union_set (ts : list tok) : res (list (list elements) * list tok) := union_loop (S (List.length ts)) [] ts.
(* 105-153 *)
Definition element_set_step (ts : list tok) : res (element_set * list tok) :=
  x <-- take (is RoundBegin) ts ;;
  root <-- parse_union_set (snd x) ;;
  match fst root with
  | [] => Err
  | _ =>
      c <-- expect (is Comma) (snd root) ;;
      a <-- (if c then
               x <-- take (is Extension) (skipn 1 (snd root)) ;;
               r <-- skip_if (is Comma) (snd x) ;;
               u <-- attempt (parse_union_set r) ;;
               Ok (match u with Some y => (Some (fst y), snd y) | None => (None, r) end)
             else Ok (None, snd root)) ;;
      y <-- take (is RoundEnd) (snd a) ;;
      Ok (mkSet (fst root) (fst a), snd y)
  end.
(* 28-40, 100-103 *)
Definition parse_constraint (ts : list tok) : res (constraint * list tok) :=
  s <-- attempt (rec_set ts) ;;
  match s with
  | Some x => Ok (CSubtype (fst x), snd x)
  | None =>
      t <-- attempt (parse_table_constraint ts) ;;
      match t with
      | Some x => Ok x
      | None => parse_contents_constraint ts
      end
  end.
(* 17-26 *)
Fixpoint constraints_loop (n : nat) (acc : list constraint) (ts : list tok) : res (list constraint * list tok) :=
  match n with
  | O => Diverge
  | S n =>
      c <-- attempt (parse_constraint ts) ;;
      match c with Some x => constraints_loop n (acc ++ [fst x]) (snd x) | None => Ok (acc, ts) end
  end.
Definition parse_constraints (ts : list tok) : res (list constraint * list tok) := constraints_loop (S (List.length ts)) [] ts.

(* ------------------------------------------------------------------ *)
(* parser/asn/types/constructed                                        *)
(* ------------------------------------------------------------------ *)
(* utils.rs:10-22 *)
Definition parse_component (ts : list tok) : res (string * asn_type * list tok) :=
  x <-- take is_value_reference ts ;; t <-- rec_type (snd x) ;; Ok (fst x, fst t, snd t).
(* seq.rs:129-172 *)
Definition parse_seq_component (ts : list tok) : res (option seq_component * list tok) :=
  c <-- attempt (parse_component ts) ;;
  match c with
  | None => Ok (None, ts)
  | Some (id, ty, r) =>
      optional <-- expect (kw "OPTIONAL") r ;;
      r <-- skip_if (kw "OPTIONAL") r ;;
      default <-- expect (kw "DEFAULT") r ;;
      d <-- (if default then v <-- parse_value (skipn 1 r) ;; Ok (Some (fst v), snd v) else Ok (None, r)) ;;
      if default && optional then Err else Ok (Some (mkSeqComp id ty optional (fst d)), snd d)
  end.
(* seq.rs:182-197, choice.rs:119-129: [[ 3: *)
Definition skip_version (ts : list tok) : res (list tok) :=
  match ts with
  | t :: r => if is NumberInt t then x <-- take (is Colon) r ;; Ok (snd x) else Ok ts
  | [] => Err
  end.
(* seq.rs:200-211 *)
Fixpoint seq_group_loop (n : nat) (acc : list seq_component) (ts : list tok) : res (list seq_component * list tok) :=
  match n with
  | O => Diverge
  | S n =>
      c <-- parse_seq_component ts ;;
      match fst c with
      | None => Ok (acc, ts)
      | Some x => r <-- skip_if (is Comma) (snd c) ;; seq_group_loop n (acc ++ [x]) r
      end
  end.
(* seq.rs:174-227; with no token after '[[' Rust goes on to fail at ']]' *)
Definition parse_seq_addition_group (ts : list tok) : res (list seq_component * list tok) :=
  x <-- take (is AdditionGroupsBegin) ts ;;
  r <-- skip_version (snd x) ;;
  l <-- seq_group_loop (S (List.length r)) [] r ;;
  match fst l with
  | [] => Err
  | _ => y <-- take (is AdditionGroupsEnd) (snd l) ;; Ok (fst l, snd y)
  end.
(* seq.rs:45-86; `markers` counts the `...` met *)
Fixpoint sequence_loop (n : nat) (root : list seq_component) (additions : list (list seq_component)) (markers : nat)
    (ts : list tok) : res (list seq_component * list (list seq_component) * nat * list tok) :=
  match n with
  | O => Diverge
  | S n =>
      c <-- attempt (parse_seq_component ts) ;;
      let '(root, ts) := match c with
                         | Some (Some x, r) => (root ++ [x], r)
                         | Some (None, r) => (root, r)
                         | None => (root, ts)
                         end in
      g <-- expect (is AdditionGroupsBegin) ts ;;
      a <-- (if g then
               if Nat.eqb markers 1 then x <-- parse_seq_addition_group ts ;; Ok (additions ++ [fst x], snd x)
               else Err
             else Ok (additions, ts)) ;;
      ts <-- skip_if (is Comma) (snd a) ;;
      m <-- expect (is Extension) ts ;;
      ts <-- (if m then skip_if (is Comma) (skipn 1 ts) else Ok ts) ;;
      let markers := if m then S markers else markers in
      stop <-- expect (is CurlyEnd) ts ;;
      if stop then Ok (root, fst a, markers, skipn 1 ts) else sequence_loop n root (fst a) markers ts
  end.
(* seq.rs:31-97 *)
Definition parse_sequence_type (ts : list tok) : res (type_kind * list tok) :=
  x <-- take (is CurlyBegin) (skipn 1 ts) ;;
  l <-- sequence_loop (S (List.length (snd x))) [] [] 0 (snd x) ;;
  match l with (root, additions, markers, r) => Ok (KSequence root additions (negb (Nat.eqb markers 0)), r) end.
(* seq.rs:99-127 *)
Definition parse_sequence_of_type (ts : list tok) : res (type_kind * list tok) :=
  s <-- attempt (parse_constraint (skipn 1 ts)) ;;
  let '(size, r) := match s with Some x => (Some (fst x), snd x) | None => (None, skipn 1 ts) end in
  x <-- take (kw "OF") r ;;
  t <-- rec_type (snd x) ;;
  Ok (KSequenceOf size (fst t), snd t).
(* seq.rs:19-29 *)
Definition parse_seq_or_seq_of_type (ts : list tok) : res (type_kind * list tok) :=
  x <-- take (kw "SEQUENCE") ts ;;
  b <-- expect (is CurlyBegin) (snd x) ;;
  if b then parse_sequence_type ts else parse_sequence_of_type ts.

(* choice.rs:132-151 *)
Fixpoint choice_group_loop (n : nat) (acc : list (string * asn_type)) (ts : list tok) : res (list (string * asn_type) * list tok) :=
  match n with
  | O => Diverge
  | S n =>
      c <-- attempt (parse_component ts) ;;
      let '(acc, ts) := match c with Some x => (acc ++ [fst x], snd x) | None => (acc, ts) end in
      ts <-- skip_if (is Comma) ts ;;
      stop <-- expect (is AdditionGroupsEnd) ts ;;
      if stop then Ok (acc, skipn 1 ts) else choice_group_loop n acc ts
  end.
(* choice.rs:111-163 *)
Definition parse_choice_addition_group (ts : list tok) : res (list (string * asn_type) * list tok) :=
  x <-- take (is AdditionGroupsBegin) ts ;;
  r <-- skip_version (snd x) ;;
  l <-- choice_group_loop (S (List.length r)) [] r ;;
  match fst l with [] => Err | _ => Ok l end.
(* choice.rs:34-87 *)
Fixpoint choice_loop (n : nat) (root : list (string * asn_type)) (groups : list (list (string * asn_type)))
    (single : list (string * asn_type)) (marker : bool) (ts : list tok)
    : res (list (string * asn_type) * list (list (string * asn_type)) * list (string * asn_type) * bool * list tok) :=
  match n with
  | O => Diverge
  | S n =>
      c <-- attempt (parse_component ts) ;;
      let '(root, single, ts) := match c with
                                 | Some x => if marker then (root, single ++ [fst x], snd x) else (root ++ [fst x], single, snd x)
                                 | None => (root, single, ts)
                                 end in
      g <-- expect (is AdditionGroupsBegin) ts ;;
      a <-- (if g then
               if marker then x <-- parse_choice_addition_group ts ;; Ok (groups ++ [fst x], snd x) else Err
             else Ok (groups, ts)) ;;
      ts <-- skip_if (is Comma) (snd a) ;;
      m <-- expect (is Extension) ts ;;
      ts <-- (if m then if marker then Err else skip_if (is Comma) (skipn 1 ts) else Ok ts) ;;
      let marker := m || marker in
      stop <-- expect (is CurlyEnd) ts ;;
      if stop then Ok (root, fst a, single, marker, skipn 1 ts) else choice_loop n root (fst a) single marker ts
  end.
(* choice.rs:17-109 *)
Definition parse_choice_type (ts : list tok) : res (type_kind * list tok) :=
  x <-- take (kw "CHOICE") ts ;;
  x <-- take (is CurlyBegin) (snd x) ;;
  l <-- choice_loop (S (List.length (snd x))) [] [] [] false (snd x) ;;
  match l with
  | (root, groups, single, marker, r) =>
      Ok (KChoice root (if marker then Some (groups ++ match single with [] => [] | _ => [single] end) else None), r)
  end.

(* ------------------------------------------------------------------ *)
(* parser/asn/types/int.rs:17-110                                      *)
(* ------------------------------------------------------------------ *)
(* 37-100 *)
Definition parse_kind (ts : list tok) : res (type_kind * list tok) :=
  match ts with
  | [] => Err
  | t :: r =>
      let is_text s := String.eqb (t_text t) s in
      let builtin_of (m : res (builtin * list tok)) := x <-- m ;; Ok (KBuiltin (fst x), snd x) in
      if is_text "BIT" then builtin_of (parse_bitstring_type ts)
      else if is_text "OCTET" then x <-- slice_from 2 ts ;; Ok (KBuiltin BOctetString, x)
      else if is_text "CHARACTER" then x <-- slice_from 2 ts ;; Ok (KBuiltin (BCharacterString "CHARACTER-STRING"), x)
      else if is_text "ENUMERATED" then builtin_of (parse_enumerated_type ts)
      else if is_text "INTEGER" then builtin_of (parse_integer_type ts)
      else if is_text "OBJECT" then
        b <-- expect_all [kw "OBJECT"; kw "IDENTIFIER"] ts ;;
        if b then Ok (KBuiltin BObjectIdentifier, skipn 2 ts) else Err
      else if is_text "BOOLEAN" then Ok (KBuiltin BBoolean, r)
      else if is_text "NULL" then Ok (KBuiltin BNull, r)
      else if existsb is_text ["VisibleString"; "UTF8String"; "IA5String"; "PrintableString"] then
        Ok (KBuiltin (BCharacterString (t_text t)), r)
      else if is_text "CHOICE" then parse_choice_type ts
      else if is_text "SEQUENCE" then parse_seq_or_seq_of_type ts
      else if is_text "RELATIVE-OID" then Ok (KBuiltin BRelativeOid, r)
      else x <-- parse_referenced_type ts ;; Ok (KReference (fst x), snd x)
  end.
(* 17-110; parse_constraints never fails *)
Definition type_step (ts : list tok) : res (asn_type * list tok) :=
  b <-- expect (fun t => is_type_reference t || is_builtin_type t || is_class_reference t) ts ;;
  if b then
    k <-- parse_kind ts ;;
    cs <-- parse_constraints (snd k) ;;
    Ok (mkType (fst k) (Some (fst cs)), snd cs)
  else Err.
End Step.

(* `n` is more than the number of tokens: each call within reads fewer *)
Fixpoint type_depth (n : nat) (ts : list tok) : res (asn_type * list tok) :=
  match n with O => Diverge | S n => type_step (type_depth n) (set_depth n) ts end
with set_depth (n : nat) (ts : list tok) : res (element_set * list tok) :=
  match n with O => Diverge | S n => element_set_step (type_depth n) (set_depth n) ts end.
(* types/int.rs:17 *)
Definition parse_type (ts : list tok) : res (asn_type * list tok) := type_depth (S (List.length ts)) ts.
(* types/constraints.rs:105 *)
Definition parse_element_set (ts : list tok) : res (element_set * list tok) := set_depth (S (List.length ts)) ts.
