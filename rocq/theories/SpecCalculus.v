(* SpecCalculus.v -- SPECIFICATION vocabulary for derivatives and integrals (C101). *)
From Verif Require Export SpecOps.

(* From the i-th item to the next one the label changes by q in the time dt. *)
Definition change (l : list item) (i : nat) (lb : string) (q dt : Qc) : Prop :=
  exists x y v w, nth_error l i = Some x /\ nth_error l (S i) = Some y /\ has_value x lb v /\ has_value y lb w /\
    q = Qcminus w v /\ dt = Qcminus (i_t y) (i_t x).
(* The derivative at the i-th item: the mean of the slopes before and after it; at the ends, there is only one change,
   which is divided by the sampling interval a. *)
Definition derivative_at (l : list item) (a : Qc) (i : nat) (lb : string) (w : Qc) : Prop :=
  if Nat.eqb i 0 then exists q dt, change l 0 lb q dt /\ w = Qcdiv q a
  else if Nat.eqb i (length l - 1) then exists q dt, change l (i - 1) lb q dt /\ w = Qcdiv q a
  else exists q dt q' dt', change l (i - 1) lb q dt /\ change l i lb q' dt' /\ w = Qcdiv (Qcplus (Qcdiv q dt) (Qcdiv q' dt')) q2.
(* The sampling interval a of the series: constant, or the one detected for a variable resolution. *)
Definition sampled (e : env) (s : series) (auto : result Qc) (a : Qc) : Prop :=
  regular e s a \/ (built e s /\ numeric (s_items s) /\ wf_items (s_items s) /\ resolution s = Some RVar /\ auto = Ok a /\ Qclt q0 a).
(* The slopes of r (with the label lb') are such that their mean at each inner item is the value of s (with the label lb), and the first
   one is the first value. *)
Definition antiderivative (s r : list item) (lb lb' : string) : Prop :=
  forall i x v, nth_error s i = Some x -> has_value x lb v -> S i < length s ->
    if Nat.eqb i 0 then exists q dt, change r 0 lb' q dt /\ v = Qcdiv q dt
    else exists q dt q' dt', change r (i - 1) lb' q dt /\ change r i lb' q' dt' /\ v = Qcdiv (Qcplus (Qcdiv q dt) (Qcdiv q' dt')) q2.
