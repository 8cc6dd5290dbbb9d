(* The tokenizer: C39 and C40.  What the lexical items of a text are is defined
   in TokenSpec.v, after X.680 clause 12, without the tokenizer.  The characters
   Unicode counts as numeric are a parameter. *)
From Coq Require Import ZArith List Bool String Sorted.
Require Import Verif.Base Verif.TokenModel Verif.TokenSpec Verif.TokenProofs.
Import ListNotations.
Open Scope Z_scope.

(* ===== C39  Tokenizer is lossless and ordered ===== *)
(* Every token is a lexical item of the text, with its line, and what lies
   between the tokens is blank. *)
Theorem C39_tokens_are_the_items : forall num, numeric_table num -> forall cs toks,
  tokenize num cs = Ok toks -> tokens_of (fun c => num c = true) [] cs toks.
Proof. exact C39_sound. Qed.
Print Assumptions C39_tokens_are_the_items.
(* Every text made of lexical items is accepted, and gives those items. *)
Theorem C39_every_text_of_items : forall num, numeric_table num -> forall cs l,
  items (fun c => num c = true) cs l -> cs <> [] -> exists toks, tokenize num cs = Ok toks /\ Forall2 token_of toks l.
Proof. exact C39_complete. Qed.
Print Assumptions C39_every_text_of_items.
Theorem C39_accepts_exactly_the_texts_of_items : forall num, numeric_table num -> forall cs, cs <> [] ->
  (exists toks, tokenize num cs = Ok toks) <-> (exists l, items (fun c => num c = true) cs l).
Proof. exact C39_exact. Qed.
Print Assumptions C39_accepts_exactly_the_texts_of_items.
(* A text is made of items in one way only, as far as their kinds go. *)
Theorem C39_items_unique : forall num, numeric_table num -> forall cs l l',
  items (fun c => num c = true) cs l -> items (fun c => num c = true) cs l' -> map fst l = map fst l'.
Proof. exact items_unique. Qed.
Print Assumptions C39_items_unique.
(* Nothing but blanks is lost. *)
Theorem C39_nothing_lost : forall num, numeric_table num -> forall cs toks, tokenize num cs = Ok toks ->
  exists l, Forall2 token_of toks l /\ visible cs = visible (List.concat (map snd l)).
Proof. exact C39_lossless. Qed.
Print Assumptions C39_nothing_lost.
Theorem C39_positions_increase : forall num, numeric_table num -> forall cs toks, tokenize num cs = Ok toks -> StronglySorted earlier toks.
Proof. exact C39_increasing. Qed.
Print Assumptions C39_positions_increase.
Theorem C39_columns_partial : forall num, numeric_table num -> forall cs toks, tokenize num cs = Ok toks ->
  ~ In 0xFEFF cs -> Forall (fun t => tk_end_line t = tk_line t) toks -> columns_of (fun c => num c = true) [] cs toks.
Proof. exact C39_columns_of. Qed.
Print Assumptions C39_columns_partial.
Example C39_case : tokenize is_digit C39_text = Ok C39_tokens /\ numeric_table is_digit /\
  Forall (fun t => tk_end_line t = tk_line t) C39_tokens /\ ~ In 0xFEFF C39_text /\ C39_text <> [] /\
  exists l, items (fun c => is_digit c = true) C39_text l /\ Forall2 token_of C39_tokens l.
Proof. exact C39_case_proof. Qed.
(* After a hexadecimal string over two lines the columns are one too small. *)
Theorem C39_columns_refuted : ~ (forall cs c toks t,
  tokenize is_digit (cs ++ [c]) = Ok (toks ++ [t]) -> tk_text t = [c] -> tk_column t = column 0 cs).
Proof. exact C39_columns_refuted_proof. Qed.
Print Assumptions C39_columns_refuted.
(* A hyphen alone is a number. *)
Theorem C39_hyphen_is_a_number_refuted : tokenize is_digit (text "- a") = Ok [mkToken NumberInt 1 0 1 1 [45]; mkToken Identifier 1 2 1 3 (text "a")].
Proof. exact C39_hyphen_proof. Qed.
Print Assumptions C39_hyphen_is_a_number_refuted.

(* ===== C40  Tokenizer is total ===== *)
Theorem C40_terminates : forall num, numeric_table num -> forall cs, tokenize num cs <> Diverge.
Proof. exact C40_terminates_proof. Qed.
Print Assumptions C40_terminates.
(* It panics on just these texts; on all others it gives tokens or an error. *)
Theorem C40_panics_exactly : forall num, numeric_table num -> forall cs,
  tokenize num cs = Panic <-> cs = [] \/ exists rest, reaches (fun c => num c = true) cs rest /\ unreadable rest.
Proof. exact C40_exact. Qed.
Print Assumptions C40_panics_exactly.
Example C40_case : reaches (fun c => is_digit c = true) (text "A *") (text "*") /\ unreadable (text "*") /\
  tokenize is_digit (text "A :: =") = Err.
Proof. exact C40_case_proof. Qed.
(* The empty text, a bracket or hyphen at the end, a carriage return, and any
   other character no item begins with. *)
Theorem C40_panics_refuted :
  tokenize is_digit [] = Panic /\ tokenize is_digit (text "A ::= [") = Panic /\ tokenize is_digit (text "A ]") = Panic /\
  tokenize is_digit (text "A -") = Panic /\ tokenize is_digit (text "A" ++ [13; 10]) = Panic /\ tokenize is_digit (text "A*B") = Panic.
Proof. exact C40_panics_proof. Qed.
Print Assumptions C40_panics_refuted.
