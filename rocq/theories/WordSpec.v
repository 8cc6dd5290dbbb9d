(* When the names of components and of enumeration items are kept apart (C36). *)
From Coq Require Import ZArith NArith List Bool String Ascii.
Open Scope string_scope.
Open Scope N_scope.

(* A name without hyphens (and whatever else is neither letter nor digit), in small
   letters. *)
Definition small (c : ascii) : option ascii :=
  let n := N_of_ascii c in
  if (97 <=? n) && (n <=? 122) || (48 <=? n) && (n <=? 57) then Some c
  else if (65 <=? n) && (n <=? 90) then Some (ascii_of_N (n + 32)) else None.
Fixpoint bare (s : string) : string :=
  match s with
  | EmptyString => EmptyString
  | String c r => match small c with Some c' => String c' (bare r) | None => bare r end
  end.
(* The same, where `type` is spelled `typ`, as fields of that name are. *)
Definition bare_field (s : string) : string := if String.eqb (bare s) "type" then "typ" else bare s.
