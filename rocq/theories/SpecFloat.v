(* SpecFloat.v -- what a double is, and what it means to be nearest to a number. *)
From Verif Require Import Base Items Series SpecSeries SpecOps Float.
Open Scope Z_scope.

(* an integer of at most 53 bits times a power of two, not below the smallest one *)
Definition is_double (x : Qc) : Prop :=
  exists m k, Z.abs m < 2 ^ 53 /\ -1074 <= k /\ x = Qcmult (qz m) (pow2 k).

(* y is a double, and no double is nearer to x *)
Definition closest (x y : Qc) : Prop :=
  is_double y /\
  forall z, is_double z -> Qcle (qabs (Qcminus x y)) (qabs (Qcminus x z)).

(* The distances the program sees between neighbours are all d. *)
Definition seems_spaced (d : Qc) (l : list Qc) : Prop :=
  consecutive (fun a b => rnd (Qcminus b a) = d) l.

(* Times of the same age: later, and not more than twice as far from 1970. *)
Definition same_age (a b : Qc) : Prop := Qcle a b /\ Qcle b (Qcmult q2 a).

(* A multiple of 2^k seconds. *)
Definition multiple (k : Z) (x : Qc) : Prop := exists z, x = Qcmult (qz z) (pow2 k).

(* The points of the program when the intended times are ts: Python stores the nearest double. *)
Definition stored (ts : list Qc) (xs : list item) : Prop :=
  Forall2 (fun t x => is_point x = true /\ i_t x = rnd t) ts xs.

(* How much n roundings can make a number grow, relatively: (1 + 2^-53)^n - 1. *)
Definition grow (n : nat) : Qc := Qcminus (Qcpower (Qcplus q1 (pow2 (-53))) n) q1.

(* All the values are doubles, as they are in Python. *)
Definition of_doubles (l : list item) : Prop := forall x lb v, In x l -> has_value x lb v -> is_double v.

(* The values of y are named after those of the other item, and each satisfies f. *)
Definition values_near (like y : item) (p : string) (f : string -> Qc -> Prop) : Prop :=
  is_list y = is_list like /\
  (forall label, has_label y label <-> exists lb, has_label like lb /\ label = named like p lb) /\
  forall lb w, has_label like lb -> has_value y (named like p lb) w -> f lb w.
