(* Base.v -- shared vocabulary: exact rationals, Python exceptions as values,
   insertion-ordered dictionaries.  Nothing here models a specific function
   of Timeseria; it is the language in which the model files are written. *)
From Coq Require Export String Ascii ZArith QArith Qcanon Bool Lia Lqa List.
Export ListNotations.
(* QArith/Qcanon leave their scopes closed; we open what we need explicitly. *)
Close Scope Q_scope.
Close Scope Qc_scope.
Global Open Scope list_scope.
Global Open Scope nat_scope.

(* ------------------------------------------------------------------ *)
(* Python exceptions as values                                         *)
(* ------------------------------------------------------------------ *)

(* The exception classes the modelled code raises (explicitly, or through
   the Python operations it uses). *)
Inductive exc :=
| ValueError | TypeError | IndexError | KeyError | AttributeError
| NotImplementedError | ZeroDivisionError | UnboundLocalError
| NotFittedError | ConsistencyException | StopIteration | GenericException
| AlreadyExists
| OutOfFuel (* not an exception: a loop modelled with fuel is still running *)
| NotANumber. (* not an exception: a float which is infinite or not a number, see Anomaly.v *)

Inductive result (A : Type) :=
| Ok (a : A)
| Err (e : exc).
Arguments Ok {A} a.
Arguments Err {A} e.

Definition bind {A B} (r : result A) (f : A -> result B) : result B :=
  match r with Ok a => f a | Err e => Err e end.
Notation "'do' x <- r ; k" := (bind r (fun x => k))
  (at level 200, x pattern, r at level 100, k at level 200, right associativity).

Definition is_ok {A} (r : result A) : bool := match r with Ok _ => true | Err _ => false end.

(* for x in l: f(x), collecting the results and stopping at the first exception *)
Fixpoint mapM {A B} (f : A -> result B) (l : list A) : result (list B) :=
  match l with
  | [] => Ok []
  | x :: xs => do y <- f x; do ys <- mapM f xs; Ok (y :: ys)
  end.

(* for x in l: acc = f(acc, x), stopping at the first exception *)
Fixpoint foldM {A B} (f : A -> B -> result A) (l : list B) (a : A) : result A :=
  match l with
  | [] => Ok a
  | x :: xs => do a' <- f a x; foldM f xs a'
  end.

(* ------------------------------------------------------------------ *)
(* Numbers                                                             *)
(* ------------------------------------------------------------------ *)

(* Boolean comparisons on exact rationals (Python's ==, <, <=). *)
Definition qeqb (x y : Qc) : bool := Qeq_bool (this x) (this y).
Definition qleb (x y : Qc) : bool := Qle_bool (this x) (this y).
Definition qltb (x y : Qc) : bool := negb (Qle_bool (this y) (this x)).

Definition qmin (x y : Qc) : Qc := if qleb x y then x else y.
Definition qmax (x y : Qc) : Qc := if qleb x y then y else x.
Definition qabs (x : Qc) : Qc := if qltb x (Q2Qc 0) then Qcopp x else x.

(* Integers and fractions as exact rationals. *)
Definition qz (z : Z) : Qc := Q2Qc (inject_Z z).
Definition qn (n : nat) : Qc := qz (Z.of_nat n).
Definition q0 : Qc := qz 0.
Definition q1 : Qc := qz 1.
Definition q2 : Qc := qz 2.
Definition qfrac (a : Z) (b : positive) : Qc := Q2Qc (a # b).

(* Python's int(x): truncation towards zero. *)
Definition qtrunc (x : Qc) : Z := Z.quot (Qnum (this x)) (Zpos (Qden (this x))).

(* Python's x / y: raises on a zero divisor. *)
Definition qdiv (x y : Qc) : result Qc :=
  if qeqb y q0 then Err ZeroDivisionError else Ok (Qcdiv x y).

(* ------------------------------------------------------------------ *)
(* Dictionaries (insertion ordered, as Python's), keys are strings      *)
(* ------------------------------------------------------------------ *)

Definition dict (V : Type) := list (string * V).

Fixpoint dget {V} (k : string) (d : dict V) : option V :=
  match d with
  | [] => None
  | (k', v) :: r => if String.eqb k k' then Some v else dget k r
  end.

(* d[k] = v : replaces in place, or appends at the end *)
Fixpoint dset {V} (k : string) (v : V) (d : dict V) : dict V :=
  match d with
  | [] => [(k, v)]
  | (k', v') :: r => if String.eqb k k' then (k', v) :: r else (k', v') :: dset k v r
  end.

(* del d[k] / d.pop(k), no effect if missing *)
Fixpoint ddel {V} (k : string) (d : dict V) : dict V :=
  match d with
  | [] => []
  | (k', v') :: r => if String.eqb k k' then r else (k', v') :: ddel k r
  end.

Definition dkeys {V} (d : dict V) : list string := map fst d.
Definition dmem {V} (k : string) (d : dict V) : bool :=
  match dget k d with Some _ => true | None => false end.

Definition str_mem (k : string) (l : list string) : bool := existsb (String.eqb k) l.

(* set(a) == set(b) *)
Definition same_set (a b : list string) : bool :=
  forallb (fun k => str_mem k b) a && forallb (fun k => str_mem k a) b.

(* sorted() on strings: insertion sort with Python's (code point) order *)
Definition str_leb (a b : string) : bool :=
  match String.compare a b with Gt => false | _ => true end.
Fixpoint str_insert (x : string) (l : list string) : list string :=
  match l with
  | [] => [x]
  | y :: r => if str_leb x y then x :: l else y :: str_insert x r
  end.
Definition str_sort (l : list string) : list string := fold_right str_insert [] l.

(* str(n) for a natural number: decimal digits *)
Definition digit_str (n : nat) : string :=
  match n with
  | 0 => "0" | 1 => "1" | 2 => "2" | 3 => "3" | 4 => "4"
  | 5 => "5" | 6 => "6" | 7 => "7" | 8 => "8" | _ => "9"
  end%string.
Fixpoint nat_str_fuel (fuel n : nat) : string :=
  match fuel with
  | 0 => ""%string
  | S f => if Nat.ltb n 10 then digit_str n
           else (nat_str_fuel f (Nat.div n 10) ++ digit_str (Nat.modulo n 10))%string
  end.
Definition nat_str (n : nat) : string := nat_str_fuel (S n) n.
