(* What the tokens of a text are, after X.680 clause 12, stated without the
   tokenizer.  A character is its code point. *)
From Coq Require Import ZArith List Bool String.
Require Import Verif.Base Verif.TokenModel.
Import ListNotations.
Open Scope Z_scope.

Definition blank (c : Z) : Prop := c = 32 \/ c = 9 \/ c = 10 \/ c = 0xFEFF.
Definition letter (c : Z) : Prop := 65 <= c <= 90 \/ 97 <= c <= 122.
Definition digit (c : Z) : Prop := 48 <= c <= 57.
Definition hyphen : Z := 45.
(* letters, digits and hyphens *)
Definition word (c : Z) : Prop := letter c \/ digit c \/ c = hyphen.
Definition begins (p : Z -> Prop) (l : list Z) : Prop := match l with c :: _ => p c | [] => False end.
Definition ends_in (p : Z -> Prop) (l : list Z) : Prop := exists u c, l = u ++ [c] /\ p c.
Definition contains (u l : list Z) : Prop := exists a b, l = a ++ u ++ b.
Definition is (z : Z) : Z -> Prop := eq z.

(* the characters between the quotes: quotes come in pairs *)
Inductive quoted : list Z -> Prop :=
| Q_nil : quoted []
| Q_char c l : c <> 34 -> quoted l -> quoted (c :: l)
| Q_pair l : quoted l -> quoted (34 :: 34 :: l).
(* inside a comment *)
Definition comment_text (b : list Z) : Prop := ~ In 10 b /\ ~ contains [hyphen; hyphen] b.

Section Lexemes.
Context (numeric : Z -> Prop).       (* the digits and the other numeric characters of Unicode *)

(* `lexeme ty w rest`: w is a lexical item of kind ty when rest follows it. *)
Inductive lexeme : token_type -> list Z -> list Z -> Prop :=
| L_word w rest : begins letter w -> Forall word w -> ~ ends_in (is hyphen) w -> ~ contains [hyphen; hyphen] w ->
    ~ begins word rest ->
    lexeme (if existsb (fun kw => same w (text kw)) KEYWORDS then Keyword else Identifier) w rest
| L_and w rest : w <> [] -> Forall word w -> ~ ends_in (is hyphen) w -> ~ contains [hyphen; hyphen] w ->
    ~ begins word rest -> lexeme AndIdentifier (38 :: w) rest
| L_number w rest : begins digit w -> Forall numeric w -> ~ begins numeric rest -> lexeme NumberInt w rest
| L_negative w rest : Forall numeric w -> ~ begins (is hyphen) (w ++ rest) -> w ++ rest <> [] -> ~ begins numeric rest ->
    lexeme NumberInt (hyphen :: w) rest
| L_at w rest : Forall (fun c => word c \/ c = 46) w -> ~ ends_in (fun c => c = 46 \/ c = hyphen) w -> w ++ rest <> [] ->
    ~ begins (fun c => word c \/ c = 46) rest -> lexeme AtComponentIdList (64 :: w) rest
| L_extension rest : lexeme Extension [46; 46; 46] rest
| L_range rest : ~ begins (is 46) rest -> lexeme RangeSeparator [46; 46] rest
| L_dot rest : ~ begins (is 46) rest -> lexeme Dot [46] rest
| L_assignment rest : lexeme Assignment [58; 58; 61] rest
| L_colon rest : ~ begins (is 58) rest -> lexeme Colon [58] rest
| L_groups_begin rest : lexeme AdditionGroupsBegin [91; 91] rest
| L_square_begin rest : rest <> [] -> ~ begins (is 91) rest -> lexeme SquareBegin [91] rest
| L_groups_end rest : lexeme AdditionGroupsEnd [93; 93] rest
| L_square_end rest : rest <> [] -> ~ begins (is 93) rest -> lexeme SquareEnd [93] rest
| L_single ty c rest :
    In (ty, c) [(CurlyBegin, 123); (CurlyEnd, 125); (RoundBegin, 40); (RoundEnd, 41); (ExceptionMarker, 33); (SemiColon, 59);
                (Comma, 44); (SetUnionToken, 124); (SetIntersectionToken, 94); (LessThan, 60)] ->
    lexeme ty [c] rest
| L_comment_closed b rest : comment_text (b ++ [hyphen]) -> lexeme Comment ([hyphen; hyphen] ++ b ++ [hyphen; hyphen]) rest
| L_comment_line b rest : comment_text b -> begins (is 10) rest -> rest <> [10] -> lexeme Comment ([hyphen; hyphen] ++ b) rest
| L_comment_end b : comment_text b -> lexeme Comment ([hyphen; hyphen] ++ b) []
| L_comment_end_line b : comment_text b -> lexeme Comment ([hyphen; hyphen] ++ b ++ [10]) []
| L_bits b z rest : ~ In 39 b -> Forall (fun c => is_whitespace c = true \/ c = 48 \/ c = 49) b -> z = 98 \/ z = 66 ->
    lexeme BitString ([39] ++ b ++ [39; z]) rest
| L_hex b z rest : ~ In 39 b -> Forall (fun c => is_whitespace c = true \/ is_hexdigit c = true) b -> z = 104 \/ z = 72 ->
    lexeme HexString ([39] ++ b ++ [39; z]) rest
| L_string b rest : quoted b -> ~ begins (is 34) rest -> lexeme TString ([34] ++ b ++ [34]) rest.

(* The text of a token: what is written, but for literals, where blanks do not
   count (BIT STRING and OCTET STRING) or those around a line break. *)
Definition text_of (ty : token_type) (w : list Z) : list Z :=
  match ty with
  | TString => List.concat (map trim (lines w))
  | BitString | HexString => filter (fun c => negb (is_whitespace c)) (removelast w)
  | _ => w
  end.

(* The lexical items of a text. *)
Inductive items : list Z -> list (token_type * list Z) -> Prop :=
| I_end : items [] []
| I_blank c rest l : blank c -> items rest l -> items (c :: rest) l
| I_item ty w rest l : lexeme ty w rest -> items rest l -> items (w ++ rest) ((ty, w) :: l).

(* The text begins with items, after which `rest` is left. *)
Inductive reaches : list Z -> list Z -> Prop :=
| R_here cs : reaches cs cs
| R_blank c cs rest : blank c -> reaches cs rest -> reaches (c :: cs) rest
| R_item ty w cs rest : lexeme ty w cs -> reaches cs rest -> reaches (w ++ cs) rest.

Definition newlines (l : list Z) : Z := zlen (filter (fun c => c =? 10) l).
(* the characters after the last line break *)
Fixpoint column (n : Z) (l : list Z) : Z :=
  match l with [] => n | c :: r => if c =? 10 then column 0 r else column (n + 1) r end.

(* Each token stands for an item of the text and carries the number of its
   line.  `pre` is the text before. *)
Inductive tokens_of : list Z -> list Z -> list token -> Prop :=
| T_end pre : tokens_of pre [] []
| T_blank pre c rest l : blank c -> tokens_of (pre ++ [c]) rest l -> tokens_of pre (c :: rest) l
| T_item pre w rest t l : lexeme (tk_type t) w rest -> tk_text t = text_of (tk_type t) w ->
    tk_line t = 1 + newlines pre -> tokens_of (pre ++ w) rest l -> tokens_of pre (w ++ rest) (t :: l).
(* The same with the column. *)
Inductive columns_of : list Z -> list Z -> list token -> Prop :=
| Co_end pre : columns_of pre [] []
| Co_blank pre c rest l : blank c -> columns_of (pre ++ [c]) rest l -> columns_of pre (c :: rest) l
| Co_item pre w rest t l : lexeme (tk_type t) w rest -> tk_column t = column 0 pre ->
    columns_of (pre ++ w) rest l -> columns_of pre (w ++ rest) (t :: l).
End Lexemes.

(* (line, column) comes before (line', column') *)
Definition earlier (t t' : token) : Prop :=
  tk_line t < tk_line t' \/ (tk_line t = tk_line t' /\ tk_column t < tk_column t').

(* characters that may begin an item *)
Definition supported_char (c : Z) : Prop :=
  blank c \/ letter c \/ digit c \/
  In c [45; 123; 125; 40; 41; 33; 59; 44; 124; 94; 60; 91; 93; 58; 46; 38; 64; 39; 34].

(* what the tokenizer cannot take: nothing at all, a character no item begins
   with, and one of three characters at the very end of the text *)
Definition unreadable (rest : list Z) : Prop :=
  begins (fun c => ~ supported_char c) rest \/ rest = [91] \/ rest = [93] \/ rest = [45].

(* what is needed of the Unicode table of numeric characters *)
Definition numeric_table (is_numeric : Z -> bool) : Prop := (forall c, digit c -> is_numeric c = true) /\ is_numeric 10 = false.
Definition visible (l : list Z) : list Z := filter (fun c => negb ((c =? 32) || (c =? 9) || (c =? 10) || (c =? 0xFEFF))) l.
(* the token of an item *)
Definition token_of (t : token) (x : token_type * list Z) : Prop := tk_type t = fst x /\ tk_text t = text_of (fst x) (snd x).
