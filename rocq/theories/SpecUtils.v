(* SpecUtils.v -- SPECIFICATION vocabulary for C64-C67. *)
From Verif Require Export SpecSeries Utils.

(* The sum of a function over two sequences, element by element. *)
Fixpoint sum2 (f : Qc -> Qc -> Qc) (a b : list Qc) : Qc :=
  match a, b with x :: a, y :: b => Qcplus (f x y) (sum2 f a b) | _, _ => q0 end.
(* m is the greatest of the values of the function over the two sequences. *)
Definition greatest (f : Qc -> Qc -> Qc) (a b : list Qc) (m : Qc) : Prop :=
  (exists i x y, nth_error a i = Some x /\ nth_error b i = Some y /\ m = f x y) /\
  forall i x y, nth_error a i = Some x -> nth_error b i = Some y -> Qcle (f x y) m.
(* How far two numbers are. *)
Definition distance (x y : Qc) : Qc := qabs (Qcminus x y).
Definition squared (x y : Qc) : Qc := Qcmult (Qcminus x y) (Qcminus x y).
Definition relative (x y : Qc) : Qc := qabs (Qcdiv (Qcminus x y) x).
Definition log_ratio (lg : Qc -> Qc) (x y : Qc) : Qc := qabs (lg (Qcdiv x y)).
(* A logarithm: zero only in one. *)
Definition log_like (lg : Qc -> Qc) : Prop := forall q, Qclt q0 q -> (lg q = q0 <-> q = q1).

(* Decimal digits. *)
Definition digit (n : nat) : ascii := ascii_of_nat (48 + n).
Fixpoint digits (l : list nat) : string := match l with [] => EmptyString | n :: r => String (digit n) (digits r) end.
Definition are_digits (l : list nat) : Prop := Forall (fun n => n < 10) l.
Fixpoint value10 (acc : Z) (l : list nat) : Z := match l with [] => acc | n :: r => value10 (10 * acc + Z.of_nat n) r end.
(* The number written as i.f (or just as i), where i and f are lists of digits. *)
Definition decimal_string (i f : list nat) : string :=
  match f with [] => digits i | _ => (digits i ++ String "." (digits f))%string end.
Definition decimal (i f : list nat) : Qc := Qcplus (qz (value10 0 i)) (Qcdiv (qz (value10 0 f)) (qz (10 ^ Z.of_nat (length f)))).
(* The length in seconds of the time unit with the given string. *)
Definition letter_seconds (c : string) : option Qc :=
  if String.eqb c "s" then Some (qz 1) else if String.eqb c "m" then Some (qz 60) else if String.eqb c "h" then Some (qz 3600) else None.
Definition unit_string_lasts (s : string) (q : Qc) : Prop :=
  exists i f letter k, s = (decimal_string i f ++ letter)%string /\ i <> [] /\ are_digits i /\ are_digits f /\ letter_seconds letter = Some k /\ q = Qcmult (decimal i f) k.

(* The things Unit's equality can compare: numbers and units. *)
Inductive thing := TNum (q : Qc) | TUnit (v : uval).
Definition thing_eq (a b : thing) : bool :=
  match a, b with
  | TNum x, TNum y => qeqb x y
  | TUnit u, TNum y => unit_eq u (ONum y)
  | TNum x, TUnit v => unit_eq v (ONum x)          (* Python tries the reflected comparison *)
  | TUnit u, TUnit v => unit_eq u (OUnit v)
  end.
