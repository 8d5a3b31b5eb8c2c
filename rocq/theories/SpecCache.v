(* SpecCache.v -- SPECIFICATION vocabulary for the sampling interval and the resolution guessed (C81). *)
From Verif Require Export SpecIntervals SpecTransform Cache.

(* The calls which ask something, and those which change the series. *)
Definition question (c : call) : bool := match c with Ask | Guess | Describe => true | Change _ | Duplicate => false end.
(* What is kept is the interval of the points the series has now. *)
Definition up_to_date (k : kept) : Prop := forall v, k_interval k = Some v -> exists fuel, detect_interval fuel (s_items (k_series k)) = Some (Ok v).
(* A series of points. *)
Definition of_points (l : list item) : Prop := exists x, nth_error l 0 = Some x /\ is_slot x = false.
(* A distance between neighbours which is the most frequent. *)
Definition most_frequent (l : list item) (d : Qc) : Prop := exists ds, spacings (times l) ds /\ In d ds /\ forall x, occurrences x ds <= occurrences d ds.
(* The distances are not almost all different: 19 / 20 of the number of points, at most. *)
Definition some_repeated (l : list item) : Prop := exists ds ks, spacings (times l) ds /\ distinct_values ds ks /\ 20 * length ks <= 19 * length l.
