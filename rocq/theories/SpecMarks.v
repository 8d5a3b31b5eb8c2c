(* SpecMarks.v -- SPECIFICATION vocabulary for the mark of a plot (C98). *)
From Verif Require Export SpecPlots Marks.

(* JavaScript's Date.UTC: the milliseconds since 1970, from the year, the month (from zero), the day, the hours, minutes, seconds and
   (whole) milliseconds. *)
Definition date_utc (args : list Qc) : Qc :=
  let z n := qtrunc (nth n args q0) in
  qz (1000 * (86400 * days_of (z 0) (z 1 + 1) (z 2) + 3600 * z 3 + 60 * z 4 + z 5) + z 6).

(* The date is one that is read back if written in UTC (propertime reads what Python writes). *)
Definition read_back (K : clocks) (c : clock) : Prop := k_parse K (dt_str (mkDtime c (Some 0%Z))) = Ok (mkDtime c (Some 0%Z)).
(* A text which has neither a T nor a space between the date and the time is refused. *)
Definition needs_a_time (K : clocks) : Prop := forall t, ~ In "T"%char (chars t) -> ~ In " "%char (chars t) -> exists x, k_parse K t = Err x.
(* The datetime d is the one for the instant t; its timezone is so many minutes ahead of UTC; its clock shows whole milliseconds. *)
Definition instant (d : dtime) (t : Qc) (minutes : Z) : Prop := d_offset d = Some minutes /\ s_from_dt d = Ok t.
Definition whole_ms (d : dtime) : Prop := exists n, c_micro (d_clock d) = 1000 * n.
Definition real_clock (d : dtime) : Prop := 1 <= c_month (d_clock d).
(* The position on the axis of a row of the plot *)
Definition drawn_at (K : clocks) (w : row_) (x : Qc) : Prop := exists l, row_args K w = Ok l /\ x = date_utc l.
