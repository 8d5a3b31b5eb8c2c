(* SpecSummary.v -- SPECIFICATION vocabulary for the summary of a series (C97). *)
From Verif Require Export SpecAccess Summary.

(* Texts one after the other, with this between them *)
Fixpoint separated (sep : string) (l : list string) : string := match l with [] => EmptyString | [x] => x | x :: r => (x ++ sep ++ separated sep r)%string end.
(* The line breaks are written, or there is a space in their place. *)
Definition break (newlines : bool) : string := if newlines then String "010"%char EmptyString else " "%string.
Definition items_text (newlines : bool) (l : list string) : string := separated ("," ++ break newlines ++ " ")%string l.
Definition brackets (newlines : bool) (title body : string) : string := (title ++ ":" ++ break newlines ++ break newlines ++ "[" ++ body ++ "]")%string.
(* What is left out *)
Definition left_out (newlines : bool) : string := ("," ++ break newlines ++ " ..." ++ (if newlines then "" else ",") ++ break newlines)%string.
(* The text has neither line breaks nor three dots in a row. *)
Definition no_break (s : string) : Prop := ~ In "010"%char (list_ascii_of_string s).
Definition no_dots (s : string) : Prop := ~ exists a b, s = (a ++ "..." ++ b)%string.
Definition clean (s : string) : Prop := no_break s /\ no_dots s.
