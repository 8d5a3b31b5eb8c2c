(* Summary.v -- MODEL of Series.summary and Series.inspect (datastructures.py 1059-1122). *)
From Verif Require Export Access.

Definition newline_s : string := String "010"%char EmptyString.
Fixpoint texts_concat (l : list string) : string := match l with [] => EmptyString | x :: r => (x ++ texts_concat r)%string end.
Definition numbered {A} (l : list A) : list (nat * A) := combine (seq 0 (length l)) l.

(* 1066-1076: all the items (the break at 1068-1069 would leave out those from the limit on).  The text of an item is
   str(item), which is a parameter. *)
Definition summary_all (str : item -> string) (l : list item) (limit : nat) : string :=
  texts_concat (map (fun ix => let '(i, x) := ix in
    if negb (Nat.eqb limit 0) && Nat.leb limit i then EmptyString
    else if Nat.eqb i 0 then (str x ++ "," ++ newline_s)%string
    else if Nat.eqb i (length l - 1) then (" " ++ str x)%string
    else (" " ++ str x ++ "," ++ newline_s)%string) (numbered l)).
(* 1087-1091 *)
Definition summary_head (str : item -> string) (l : list item) : string :=
  texts_concat (map (fun ix => let '(i, x) := ix in
    if Nat.eqb i 0 then (str x ++ "," ++ newline_s)%string else (" " ++ str x ++ "," ++ newline_s)%string) (numbered l)).
(* 1095-1099 *)
Definition summary_tail (str : item -> string) (tail_n : nat) (l : list item) : string :=
  texts_concat (map (fun ix => let '(i, x) := ix in
    if Nat.eqb i (tail_n - 1) then (" " ++ str x)%string else (" " ++ str x ++ "," ++ newline_s)%string) (numbered l)).
(* 1059-1102, printed by inspect (1122): the limit is not negative, and None is as 0; the title is str(self) *)
Definition ts_summary_lines (e : env) (str : item -> string) (title : string) (s : series) (limit : nat) : result string :=
  let n := length (s_items s) in
  let start := (title ++ ":" ++ newline_s ++ newline_s ++ "[")%string in
  if Nat.eqb limit 0 || Nat.ltb n limit then Ok (start ++ summary_all str (s_items s) limit ++ "]")%string
  else
    let head_n := if Nat.eqb limit 1 then 1 else if Nat.even limit then limit / 2 else limit / 2 + 1 in
    let tail_n := if Nat.eqb limit 1 then 0 else limit / 2 in
    do h <- ts_head e s (Z.of_nat head_n);
    do t <- (if Nat.eqb tail_n 0 then Ok EmptyString else do t <- ts_tail e s (Z.of_nat tail_n); Ok (summary_tail str tail_n t));
    Ok (start ++ summary_head str h ++ (if Nat.ltb limit n then " ..." ++ newline_s else EmptyString) ++ t ++ "]")%string.

(* Python's replace('\n', ' ') and replace('...', '...,') *)
Fixpoint spaces_for_newlines (s : string) : string :=
  match s with EmptyString => EmptyString | String a r => String (if Ascii.eqb a "010"%char then " "%char else a) (spaces_for_newlines r) end.
Definition is_dot (a : ascii) : bool := Ascii.eqb a "."%char.
Fixpoint commas_after_dots (s : string) : string :=
  match s with
  | String a (String b (String c r) as t) => if is_dot a && is_dot b && is_dot c then ("...," ++ commas_after_dots r)%string else String a (commas_after_dots t)
  | String a r => String a (commas_after_dots r)
  | EmptyString => EmptyString
  end.
(* 1104-1114 *)
Definition ts_summary (e : env) (str : item -> string) (title : string) (s : series) (limit : nat) (newlines : bool) : result string :=
  do r <- ts_summary_lines e str title s limit; Ok (if newlines then r else commas_after_dots (spaces_for_newlines r)).
