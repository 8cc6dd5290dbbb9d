(* The tokenizer (asn-compiler/src/tokenizer/mod.rs).  A character is its
   Unicode code point.  Error numbers are dropped; line and column numbers are
   taken to fit usize. *)
From Coq Require Import ZArith NArith List Bool String Ascii.
Require Import Verif.Base Verif.Asn1Model Verif.GenModel.
Import ListNotations.
Open Scope Z_scope.

(* tokenizer/types.rs:9-38 *)
Inductive token_type :=
| CurlyBegin | CurlyEnd | RoundBegin | RoundEnd | ExceptionMarker | SquareBegin | SquareEnd
| AdditionGroupsBegin | AdditionGroupsEnd | Extension | RangeSeparator | Assignment | Colon | SemiColon
| Identifier | Keyword | Comment | AndIdentifier | NumberInt | BitString | HexString | TString | Dot | Comma
| SetUnionToken | SetIntersectionToken | AtComponentIdList | LessThan.
(* mod.rs:131-184; span.end is kept, nothing reads it *)
Record token := mkToken { tk_type : token_type; tk_line : Z; tk_column : Z; tk_end_line : Z; tk_end_column : Z; tk_text : list Z }.

(* text of a literal in the source *)
Fixpoint text (s : string) : list Z :=
  match s with EmptyString => [] | String c r => code c :: text r end.
Fixpoint same (a b : list Z) : bool :=
  match a, b with [], [] => true | x :: a, y :: b => (x =? y) && same a b | _, _ => false end.

(* mod.rs:12-93 *)
Definition KEYWORDS : list string := [
  "ABSENT"; "ABSTRACT-SYNTAX"; "ALL"; "APPLICATION"; "AUTOMATIC"; "BEGIN"; "BIT"; "BMPString"; "BOOLEAN"; "BY";
  "CHARACTER"; "CHOICE"; "CLASS"; "COMPONENT"; "COMPONENTS"; "CONSTRAINED"; "CONTAINING"; "DEFAULT"; "DEFINITIONS";
  "EMBEDDED"; "ENCODED"; "END"; "ENUMERATED"; "EXCEPT"; "EXPLICIT"; "EXPORTS"; "EXTENSIBILITY"; "EXTERNAL"; "FALSE";
  "FROM"; "GeneralizedTime"; "GeneralString"; "GraphicString"; "IA5String"; "IDENTIFIER"; "IMPLIED"; "IMPLICIT";
  "IMPORTS"; "INCLUDES"; "INSTANCE"; "INTEGER"; "INTERSECTION"; "ISO646String"; "MAX"; "MIN"; "MINUS-INFINITY";
  "NULL"; "NumericString"; "OBJECT"; "ObjectDescriptor"; "OCTET"; "OF"; "OPTIONAL"; "PATTERN"; "PDV";
  "Plus-Infinity"; "PRESENT"; "PrintableString"; "PRIVATE"; "REAL"; "RELATIVE-OID"; "SEQUENCE"; "SET"; "SIZE";
  "STRING"; "SYNTAX"; "T61String"; "TAGS"; "TeletexString"; "TRUE"; "TYPE-IDENTIFIER"; "UNION"; "UNIQUE";
  "UNIVERSAL"; "UniversalString"; "UTCTime"; "UTF8String"; "VideotexString"; "VisibleString"; "WITH"]%string.

(* ------------------------------------------------------------------ *)
(* Characters                                                          *)
(* ------------------------------------------------------------------ *)
Definition is_lower (c : Z) : bool := (97 <=? c) && (c <=? 122).
Definition is_upper (c : Z) : bool := (65 <=? c) && (c <=? 90).
Definition is_digit (c : Z) : bool := (48 <=? c) && (c <=? 57).
(* char::is_ascii_alphanumeric *)
Definition is_alnum (c : Z) : bool := is_lower c || is_upper c || is_digit c.
(* char::is_ascii_hexdigit *)
Definition is_hexdigit (c : Z) : bool := is_digit c || ((97 <=? c) && (c <=? 102)) || ((65 <=? c) && (c <=? 70)).
(* char::is_whitespace: the 25 White_Space characters of Unicode *)
Definition is_whitespace (c : Z) : bool :=
  ((9 <=? c) && (c <=? 13)) || (c =? 32) || (c =? 0x85) || (c =? 0xA0) || (c =? 0x1680) ||
  ((0x2000 <=? c) && (c <=? 0x200A)) || (c =? 0x2028) || (c =? 0x2029) || (c =? 0x202F) || (c =? 0x205F) || (c =? 0x3000).
(* char::len_utf8 *)
Definition len_utf8 (c : Z) : Z := if c <? 0x80 then 1 else if c <? 0x800 then 2 else if c <? 0x10000 then 3 else 4.
Definition str_len (l : list Z) : Z := fold_right (fun c n => len_utf8 c + n) 0 l.

(* str::lines: split at '\n'; a line loses one '\r' before its '\n'; nothing
   after a final '\n' *)
Definition strip_cr (l : list Z) : list Z :=
  match rev l with 13 :: r => rev r | _ => l end.
Fixpoint split_lines (cur l : list Z) : list (list Z) :=
  match l with
  | [] => match cur with [] => [] | _ => [cur] end
  | c :: r => if c =? 10 then strip_cr cur :: split_lines [] r else split_lines (cur ++ [c]) r
  end.
Definition lines (l : list Z) : list (list Z) := split_lines [] l.
(* str::trim *)
Fixpoint drop_while (p : Z -> bool) (l : list Z) : list Z :=
  match l with c :: r => if p c then drop_while p r else l | [] => [] end.
Definition trim (l : list Z) : list Z := rev (drop_while is_whitespace (rev (drop_while is_whitespace l))).

Section Tokenizer.
(* char::is_numeric: categories Nd, Nl and No of the Unicode tables *)
Context (is_numeric : Z -> bool).

Definition token_at (ty : token_type) (line begin consumed : Z) (text : list Z) : token :=
  mkToken ty line begin line (begin + consumed) text.
(* position(..).unwrap_or(len) *)
Fixpoint span_len (p : Z -> bool) (l : list Z) : nat :=
  match l with c :: r => if p c then S (span_len p r) else O | [] => O end.

(* mod.rs:335-414: the end of the string, looked for from index i on *)
Fixpoint string_end (i : nat) (l : list Z) : option nat :=
  match l with
  | [] => None
  | [c] => if c =? 34 then Some i else None
  | c :: ((d :: r) as l') => if c =? 34 then if d =? 34 then string_end (i + 2) r else Some i else string_end (i + 1) l'
  end.
Definition lines_of (text : list Z) (begin : Z) (consumed : nat) : res (Z * Z) :=
  match rev (lines text) with
  | [] => Panic                                                  (* count() - 1, last().unwrap() *)
  | last_line :: before =>
      let n := zlen before in
      Ok (n, if 0 <? n then str_len last_line else begin + Z.of_nat consumed)
  end.
(* the token, the characters consumed, the lines and the column *)
Definition literal := (token * nat * Z * Z)%type.
Definition get_string_token (chars : list Z) (line begin : Z) : res literal :=
  match chars with
  | [] => Panic                                                  (* chars.len() - 1 *)
  | [_] => Err
  | _ :: l =>
      match string_end 1 l with
      | None => Err
      | Some last =>
          let consumed := S last in
          let text := firstn consumed chars in
          nc <-- lines_of text begin consumed ;;
          Ok (mkToken TString line begin (line + fst nc) (snd nc) (List.concat (map trim (lines text))), consumed, fst nc, snd nc)
      end
  end.
(* 416-480; `'h'` and `'b'` are the only characters whose lower case is h or b *)
Definition get_bit_or_hex_string_token (chars : list Z) (line begin : Z) : res literal :=
  match chars with
  | [] => Panic                                                  (* chars[1..] *)
  | [_] => Err
  | _ :: l =>
      match position (fun c => c =? 39) l with
      | None => Err
      | Some last =>
          let consumed := (last + 2)%nat in
          match nth_error chars consumed with
          | None => Err
          | Some c =>
              let ty := if (c =? 104) || (c =? 72) then Some HexString
                        else if (c =? 98) || (c =? 66) then Some BitString else None in
              match ty with
              | None => Err
              | Some ty =>
                  let text := firstn consumed chars in
                  nc <-- lines_of text begin consumed ;;
                  let text := filter (fun c => negb (is_whitespace c)) text in
                  let fine := match ty with
                              | BitString => forallb (fun c => (c =? 48) || (c =? 49) || (c =? 39)) text
                              | _ => forallb (fun c => is_hexdigit c || (c =? 39)) text
                              end in
                  if fine then Ok (mkToken ty line begin (line + fst nc) (snd nc) text, (consumed + 1)%nat, fst nc, snd nc)
                  else Err
              end
          end
      end
  end.
(* 483-517 *)
Definition get_at_component_id_list (chars : list Z) (line begin : Z) : res (token * nat) :=
  match chars with
  | [] => Panic
  | [_] => Err
  | _ :: l =>
      let consumed := S (span_len (fun c => is_alnum c || (c =? 45) || (c =? 46)) l) in
      match nth_error chars (consumed - 1) with
      | None => Panic
      | Some c => if (c =? 46) || (c =? 45) then Err
                  else Ok (token_at AtComponentIdList line begin (Z.of_nat consumed) (firstn consumed chars), consumed)
      end
  end.
(* 519-545 *)
Definition get_number_token (chars : list Z) (line begin : Z) : res (token * nat) :=
  match chars with
  | [] => Panic                                                  (* chars[0] *)
  | c :: l =>
      let neg := c =? 45 in
      if neg && (zlen chars =? 1) then Err
      else
        let consumed := if neg then S (span_len is_numeric l) else span_len is_numeric chars in
        Ok (token_at NumberInt line begin (Z.of_nat consumed) (firstn consumed chars), consumed)
  end.
Fixpoint has_double_dash (l : list Z) : bool :=
  match l with
  | a :: ((b :: _) as r) => ((a =? 45) && (b =? 45)) || has_double_dash r
  | _ => false
  end.
(* 552-608 *)
Definition get_identifier_or_keyword_token (chars : list Z) (line begin : Z) : res (token * nat) :=
  match chars with
  | [] => Panic                                                  (* chars[0] *)
  | c :: l =>
      let and := c =? 38 in
      if and && (zlen chars =? 1) then Err
      else
        let word := fun c => is_alnum c || (c =? 45) in
        let consumed := if and then S (span_len word l) else span_len word chars in
        match consumed with
        | O => Panic                                             (* consumed - 1 *)
        | S k =>
            match nth_error chars k with
            | None => Panic
            | Some c' =>
                if c' =? 45 then Err
                else if and && (Nat.eqb consumed 1) then Err
                else
                  let text' := firstn consumed chars in
                  if has_double_dash text' then Err
                  else
                    let ty := if and then AndIdentifier
                              else if existsb (fun kw => same text' (text kw)) KEYWORDS then Keyword else Identifier in
                    Ok (token_at ty line begin (Z.of_nat consumed) text', consumed)
            end
        end
  end.
(* 611-645 *)
Definition get_range_or_extension_token (chars : list Z) (line begin : Z) : res (token * nat) :=
  let done ty n := Ok (token_at ty line begin (Z.of_nat n) (firstn n chars), n) in
  match chars with
  | _ :: b :: c :: _ => if b =? 46 then if c =? 46 then done Extension 3%nat else done RangeSeparator 2%nat else done Dot 1%nat
  | [_; b] => if b =? 46 then done RangeSeparator 2%nat else done Dot 1%nat
  | [_] => done Dot 1%nat
  | [] => Panic
  end.
(* 648-682 *)
Definition get_assignment_or_colon_token (chars : list Z) (line begin : Z) : res (token * nat) :=
  let done ty n := Ok (token_at ty line begin (Z.of_nat n) (firstn n chars), n) in
  match chars with
  | _ :: b :: c :: _ => if b =? 58 then if c =? 61 then done Assignment 3%nat else Err else done Colon 1%nat
  | [_; b] => if b =? 58 then Err else done Colon 1%nat
  | [_] => done Colon 1%nat
  | [] => Panic
  end.
(* 687-714 *)
Definition get_seq_extension_or_square_brackets_token (chars : list Z) (line begin : Z) : res (token * nat) :=
  let done ty n := Ok (token_at ty line begin (Z.of_nat n) (firstn n chars), n) in
  match chars with
  | a :: b :: _ =>
      if a =? 91 then if b =? 91 then done AdditionGroupsBegin 2%nat else done SquareBegin 1%nat
      else if b =? 93 then done AdditionGroupsEnd 2%nat else done SquareEnd 1%nat
  | _ => Panic                                                   (* chars[1] *)
  end.
(* 719-742 *)
Definition single_char (c : Z) : option token_type :=
  if c =? 123 then Some CurlyBegin else if c =? 125 then Some CurlyEnd
  else if c =? 40 then Some RoundBegin else if c =? 41 then Some RoundEnd
  else if c =? 33 then Some ExceptionMarker else if c =? 59 then Some SemiColon
  else if c =? 44 then Some Comma else if c =? 124 then Some SetUnionToken
  else if c =? 94 then Some SetIntersectionToken else if c =? 60 then Some LessThan else None.
Definition get_single_char_token (c line begin : Z) : res token :=
  match single_char c with Some ty => Ok (token_at ty line begin 1 [c]) | None => Err end.
(* 751-796: chars[2..].windows(2); the number of characters of the comment *)
Fixpoint comment_end (i : nat) (l : list Z) : option nat :=
  match l with
  | a :: ((b :: _) as r) =>
      if a =? 10 then Some (2 + i)%nat
      else if (a =? 45) && (b =? 45) then Some (2 + i + 2)%nat
      else comment_end (S i) r
  | _ => None
  end.
Definition get_maybe_comment_token (chars : list Z) (line begin : Z) : res (option token * nat) :=
  match chars with
  | _ :: b :: l =>
      if negb (b =? 45) then Ok (None, O)
      else
        let consumed := match comment_end 0 l with Some n => n | None => List.length chars end in
        Ok (Some (mkToken Comment line begin line (Z.of_nat consumed) (firstn consumed chars)), consumed)
  | _ => Panic                                                   (* chars[1] *)
  end.

(* 811-931: one round of the loop: the token, the characters consumed, and the
   line and column after it *)
Definition one_token (chars : list Z) (line column : Z) : res (option token * nat * Z * Z) :=
  let plain (r : res (token * nat)) : res (option token * nat * Z * Z) :=
    tn <-- r ;; Ok (Some (fst tn), snd tn, line, column + Z.of_nat (snd tn)) in
  let literal (r : res literal) : res (option token * nat * Z * Z) :=
    t <-- r ;;
    match t with (tok, consumed, l, c) => Ok (Some tok, consumed, line + l, if 0 <? l then c else column + Z.of_nat consumed) end in
  match chars with
  | [] => Panic                                                  (* chars[processed] *)
  | c :: _ =>
      if (c =? 32) || (c =? 9) then Ok (None, 1%nat, line, column + 1)
      else if c =? 10 then Ok (None, 1%nat, line + 1, 0)
      else if c =? 45 then
        tn <-- get_maybe_comment_token chars line column ;;
        match tn with
        | (Some tok, consumed) => Ok (Some tok, consumed, line, column + Z.of_nat consumed)
        | (None, _) => plain (get_number_token chars line column)
        end
      else match single_char c with
      | Some _ => tok <-- get_single_char_token c line column ;; Ok (Some tok, 1%nat, line, column + 1)
      | None =>
      if (c =? 91) || (c =? 93) then plain (get_seq_extension_or_square_brackets_token chars line column)
      else if c =? 58 then plain (get_assignment_or_colon_token chars line column)
      else if c =? 46 then plain (get_range_or_extension_token chars line column)
      else if (c =? 38) || is_lower c || is_upper c then plain (get_identifier_or_keyword_token chars line column)
      else if is_digit c then plain (get_number_token chars line column)
      else if c =? 64 then plain (get_at_component_id_list chars line column)
      else if c =? 39 then literal (get_bit_or_hex_string_token chars line column)
      else if c =? 34 then literal (get_string_token chars line column)
      else if c =? 0xFEFF then Ok (None, 1%nat, line, column)
      else Panic                                                 (* panic! *)
      end
  end.
Fixpoint tokenize_loop (fuel : nat) (chars : list Z) (line column : Z) : res (list token) :=
  match fuel with
  | O => Diverge
  | S f =>
      r <-- one_token chars line column ;;
      match r with
      | (tok, consumed, line', column') =>
          let rest := skipn consumed chars in
          toks <-- (if match rest with [] => true | _ => false end then Ok [] else tokenize_loop f rest line' column') ;;
          Ok (match tok with Some t => t :: toks | None => toks end)
      end
  end.
(* 798-810: reading the input and String::from_utf8 are not part of this; the
   argument is the characters of the text *)
Definition tokenize (chars : list Z) : res (list token) := tokenize_loop (S (List.length chars)) chars 1 0.
End Tokenizer.
