(* SpecFloatCalc.v -- SPECIFICATION vocabulary for the derivative of floats (C102). *)
From Verif Require Export SpecCalculus Float SpecFloat.
Local Open Scope nat_scope.

(* w is a double close to the slope q / dt (a few roundings away), on the same side of zero. *)
Definition near_slope (q dt w : Qc) : Prop :=
  is_double w /\ Qcle (qabs (Qcminus w (Qcdiv q dt))) (Qcplus (Qcmult (grow 4) (qabs (Qcdiv q dt))) (pow2 (-1075))) /\
  (Qcle q0 q -> Qcle q0 w) /\ (Qcle q q0 -> Qcle w q0).
(* The derivative at the i-th item: between two doubles close to the slopes before and after it; at the ends, close to the only change
   over the sampling interval. *)
Definition near_derivative_at (l : list item) (a : Qc) (i : nat) (lb : string) (w : Qc) : Prop :=
  is_double w /\
  if Nat.eqb i 0 then exists q dt, change l 0 lb q dt /\ near_slope q a w
  else if Nat.eqb i (length l - 1) then exists q dt, change l (i - 1) lb q dt /\ near_slope q a w
  else exists q dt q' dt' x y, change l (i - 1) lb q dt /\ change l i lb q' dt' /\ near_slope q dt x /\ near_slope q' dt' y /\
    Qcle (qmin x y) w /\ Qcle w (qmax x y).
