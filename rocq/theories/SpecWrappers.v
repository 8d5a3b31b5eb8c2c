(* SpecWrappers.v -- SPECIFICATION vocabulary for the models which delegate to another library (C78, C79). *)
From Verif Require Export SpecEvaluate Wrappers.

(* The library answers, for each of the times asked for, with the value of g there. *)
Definition answers (ask : list Qc -> result (list Qc)) (g : Qc -> Qc) : Prop := forall ts, ask ts = Ok (map g ts).
(* Given samples of g, at two different times at least, the library learns g. *)
Definition learns (train : list (Qc * Qc) -> result (list Qc -> result (list Qc))) (g : Qc -> Qc) : Prop :=
  forall rows, (exists r r', In r rows /\ In r' rows /\ fst r <> fst r') -> (forall t y, In (t, y) rows -> y = g t) -> exists ask, train rows = Ok ask /\ answers ask g.
Definition two_times (clock : string -> Qc -> Qc) (l : list item) : Prop := exists x y, In x l /\ In y l /\ clock (i_tz x) (i_t x) <> clock (i_tz y) (i_t y).
(* The values of the items in P are those of g at their local times. *)
Definition local_signal (clock : string -> Qc -> Qc) (g : Qc -> Qc) (lb : string) (P : item -> Prop) (l : list item) : Prop :=
  forall x, In x l -> P x -> has_value x lb (g (clock (i_tz x) (i_t x))).
(* The rows of the items: the local time and the value. *)
Definition rows_of (clock : string -> Qc -> Qc) (lb : string) (l : list item) (rows : list (Qc * Qc)) : Prop :=
  Forall2 (fun x r => fst r = clock (i_tz x) (i_t x) /\ has_value x lb (snd r)) l rows.
(* Slots last one unit. *)
Definition unit_long (c : cal) (u : tunit) (l : list item) : Prop := forall x, In x l -> is_slot x = true -> i_end x = unit_shift c u (i_t x) 1.
Definition in_zone (tz : string) (l : list item) : Prop := forall x, In x l -> i_tz x = tz.
(* The items appended to those of s. *)
Definition appended (s s' : series) : list item := skipn (length (s_items s)) (s_items s').
(* At least two labels. *)
Definition many_labels (l : list item) : Prop := exists lb1 lb2, lb1 <> lb2 /\ forall x, In x l -> has_label x lb1 /\ has_label x lb2.
