(* Utils.v -- MODEL of the error metrics, of rescale and of the time unit strings (utilities.py 221-324,
   956-971), and of the arithmetic of units (units.py 15-108, 150-176). *)
From Verif Require Export Ops.

(* ---------------- error metrics ---------------- *)

(* for i in range(len(list1)): f(list1[i], list2[i]), in order, of two lists of the same length *)
Fixpoint map2M {A B C} (f : A -> B -> result C) (l : list A) (r : list B) : result (list C) :=
  match l, r with
  | x :: l, y :: r => do z <- f x y; do zs <- map2M f l r; Ok (z :: zs)
  | _, _ => Ok []
  end.
Definition sum_of (l : list Qc) : Qc := fold_left Qcplus l q0.
Definition same_lengths (a b : list Qc) : result unit := if Nat.eqb (length a) (length b) then Ok tt else Err ValueError.
(* the loops summing up the errors, and the final division *)
Definition mean_error (f : Qc -> Qc -> result Qc) (a b : list Qc) : result Qc :=
  do _ <- same_lengths a b;
  do es <- map2M f a b;
  qdiv (sum_of es) (qn (length a)).
(* the loops looking for the maximum, starting from None *)
Definition max_step (m : option Qc) (x : Qc) : option Qc :=
  match m with None => Some x | Some y => if qltb y x then Some x else Some y end.
Definition max_error (f : Qc -> Qc -> result Qc) (a b : list Qc) : result (option Qc) :=
  do _ <- same_lengths a b;
  do es <- map2M f a b;
  Ok (fold_left max_step es None).

Definition abs_err (x y : Qc) : result Qc := Ok (qabs (Qcminus x y)).
Definition sq_err (x y : Qc) : result Qc := Ok (Qcmult (Qcminus x y) (Qcminus x y)).
Definition perc_err (x y : Qc) : result Qc := do q <- qdiv (Qcminus x y) x; Ok (qabs q).
(* log of the ratio: math.log raises for non-positive arguments; its values (which are floating point numbers,
   thus rationals) are those of lg *)
Definition log_err (lg : Qc -> Qc) (x y : Qc) : result Qc :=
  do q <- qdiv x y; if qleb q q0 then Err ValueError else Ok (qabs (lg q)).

(* utilities.py 244-246 and 288-290: sklearn's, on lists of numbers; they also refuse empty lists *)
Definition mae (a b : list Qc) : result Qc :=
  match a, b with [], [] => Err ValueError | _, _ => mean_error abs_err a b end.
Definition mse (a b : list Qc) : result Qc :=
  match a, b with [], [] => Err ValueError | _, _ => mean_error sq_err a b end.
(* utilities.py 221-229 *)
Definition mape (a b : list Qc) : result Qc := mean_error perc_err a b.
(* utilities.py 232-241 *)
Definition max_ape (a b : list Qc) : result (option Qc) := max_error perc_err a b.
(* utilities.py 249-261 *)
Definition max_ae (a b : list Qc) : result (option Qc) := max_error abs_err a b.
(* utilities.py 264-271 *)
Definition male (lg : Qc -> Qc) (a b : list Qc) : result Qc := mean_error (log_err lg) a b.
(* utilities.py 274-285 *)
Definition max_ale (lg : Qc -> Qc) (a b : list Qc) : result (option Qc) := max_error (log_err lg) a b.

(* ---------------- rescale ---------------- *)

(* utilities.py 293-319 (how is not used) *)
Definition rescale (v sf st tf tt : Qc) : result Qc :=
  if qltb v q0 then Err ValueError
  else if qltb sf q0 then Err ValueError
  else if qltb st q0 then Err ValueError
  else if qltb tf q0 then Err ValueError
  else if qltb tt q0 then Err ValueError
  else if qltb v sf then Err ValueError
  else if qltb st v then Err ValueError
  else
    do ratio <- qdiv (Qcminus v sf) (Qcminus st sf);
    if qeqb tf q0 && qeqb tt q1 then Ok ratio
    else Ok (Qcplus (Qcmult ratio (Qcminus tt tf)) tf).

(* ---------------- time unit strings ---------------- *)

(* s.replace('.0', '') *)
Fixpoint drop_dot_zero (s : string) : string :=
  match s with
  | String "." (String "0" r) => drop_dot_zero r
  | String c r => String c (drop_dot_zero r)
  | EmptyString => EmptyString
  end.
(* utilities.py 956-971, on the string of the seconds *)
Definition to_time_unit_string (seconds : string) (friendlier : bool) : string :=
  let s := drop_dot_zero seconds in
  if friendlier then
    if String.eqb s "60" then "1m"%string
    else if String.eqb s "600" then "10m"%string
    else if String.eqb s "3600" then "1h"%string
    else (s ++ "s")%string
  else (s ++ "s")%string.

(* ---------------- units ---------------- *)

(* The value of a Unit: a number or a list of numbers. *)
Inductive uval := UNum (q : Qc) | UList (l : list Qc).
(* What it is combined with: a number, another Unit, a Point with some coordinates, anything else without
   value nor coordinates. *)
Inductive operand := ONum (q : Qc) | OUnit (v : uval) | OPoint (l : list Qc) | OOther.
(* The results are numbers, lists or points. *)
Inductive ures := RNum (q : Qc) | RList (l : list Qc) | RPoint (l : list Qc).

(* units.py 29-44; also number + unit and point + unit (46-47) *)
Definition unit_add (u : uval) (o : operand) : result ures :=
  match u, o with
  | UNum a, ONum b => Ok (RNum (Qcplus a b))
  | UNum a, OUnit (UNum b) => Ok (RNum (Qcplus a b))
  | UList a, OUnit (UList b) => Ok (RList (a ++ b))       (* lists are concatenated *)
  | _, OUnit _ => Err TypeError
  | UNum a, OPoint [b] => Ok (RPoint [Qcplus a b])
  | _, _ => Err NotImplementedError
  end.
(* units.py 49-64 *)
Definition unit_sub (u : uval) (o : operand) : result ures :=
  match u, o with
  | UNum a, ONum b => Ok (RNum (Qcminus a b))
  | UNum a, OUnit (UNum b) => Ok (RNum (Qcminus a b))
  | _, OUnit _ => Err TypeError
  | UNum a, OPoint [b] => Ok (RPoint [Qcminus a b])
  | _, _ => Err NotImplementedError
  end.
(* units.py 66-67: number - unit and point - unit; points have no negation *)
Definition unit_rsub (u : uval) (o : operand) : result ures :=
  do r <- unit_sub u o;
  match r with RNum q => Ok (RNum (Qcopp q)) | _ => Err TypeError end.
(* units.py 69-78 *)
Definition unit_div (u : uval) (o : operand) : result Qc :=
  match u, o with
  | UNum a, ONum b => qdiv a b
  | _, _ => Err NotImplementedError
  end.
(* units.py 80-81: number / unit *)
Definition unit_rdiv (u : uval) (o : operand) : result Qc := do r <- unit_div u o; qdiv q1 r.
(* units.py 83-95: and number * unit *)
Definition unit_mul (u : uval) (o : operand) : result Qc :=
  match u, o with
  | UNum a, ONum b => Ok (Qcmult a b)
  | _, _ => Err NotImplementedError
  end.
(* units.py 97-106: a number or a list is compared with the value *)
Fixpoint list_eqb (a b : list Qc) : bool :=
  match a, b with
  | [], [] => true
  | x :: a, y :: b => qeqb x y && list_eqb a b
  | _, _ => false
  end.
Definition uval_eqb (u v : uval) : bool :=
  match u, v with
  | UNum a, UNum b => qeqb a b
  | UList a, UList b => list_eqb a b
  | _, _ => false
  end.
Definition unit_eq (u : uval) (o : operand) : bool :=
  match o with
  | ONum b => uval_eqb u (UNum b)
  | OUnit v => uval_eqb u v
  | OPoint _ | OOther => false
  end.

(* units.py 155-160, 171-176: TimePoint + TimeUnit and TimePoint - TimeUnit, as the instant of the result *)
Definition time_plus (c : cal) (t : Qc) (u : tunit) : Qc := unit_shift c u t 1.
Definition time_minus (c : cal) (t : Qc) (u : tunit) : Qc := unit_shift c u t (-1).

(* units.py 143-149: the value can be given by position; if given by name, 'seconds' is looked for *)
Definition time_unit_by_name (value seconds : option Qc) : result unit :=
  match value, seconds with
  | Some _, None => Err KeyError
  | _, _ => Ok tt
  end.
