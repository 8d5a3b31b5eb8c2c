(* SpecLoad.v -- SPECIFICATION vocabulary for saving and loading a series (C82). *)
From Verif Require Export SpecSave SpecCsv SpecTransform Load.

(* Texts which can be written in quotes as they are: printable, without quotes and backslashes. *)
Definition quotable (s : string) : Prop := Forall (fun c => 32 <= nat_of_ascii c <= 126 /\ c <> """"%char /\ c <> "\"%char) (chars s).
(* A JSON object with three such texts is read as it is. *)
Definition reads_json (jl : string -> result (dict string)) : Prop :=
  forall a b c, quotable a -> quotable b -> quotable c -> jl (" {""type"": """ ++ a ++ """, ""tz"": """ ++ b ++ """, ""resolution"": """ ++ c ++ """}")%string = Ok [("type", a); ("tz", b); ("resolution", c)]%string.
(* No comment at the beginning of the file has the parameters of the series. *)
Definition no_parameters (lines : list string) : Prop :=
  exists comments rest, lines = comments ++ rest /\ (forall l, In l comments -> exists t, l = String "#" t /\ forall r, l <> ("# Extra parameters:" ++ r)%string) /\ (forall t r, rest <> String "#" t :: r).
