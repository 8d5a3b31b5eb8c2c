(* Marks.v -- MODEL of where the plots draw the items and the mark (plots.py 103-110, 128-135, 149-151, 344, 893-911).

   The position on the axis is in milliseconds.  The drawing itself is done by JavaScript code, which is not modelled, but for Date.UTC
   (see SpecMarks).  The start and the end of the mark are datetimes. *)
From Verif Require Export Plots.

(* A datetime: what the clock of its timezone shows, and how many minutes that timezone is ahead of UTC; None without a timezone *)
Record clock := mkClock { c_year : nat; c_month : nat; c_day : nat; c_hour : nat; c_minute : nat; c_second : nat; c_micro : nat }.
Record dtime := mkDtime { d_clock : clock; d_offset : option Z }.

(* A number with (at least) so many digits *)
Fixpoint pad (k n : nat) : string := match k with 0 => EmptyString | S k => (pad k (Nat.div n 10) ++ digit_str (Nat.modulo n 10))%string end.
(* Python's isoformat(), which is what str_from_dt returns *)
Definition clock_str (c : clock) : string :=
  (pad 4 (c_year c) ++ "-" ++ pad 2 (c_month c) ++ "-" ++ pad 2 (c_day c) ++ "T" ++ pad 2 (c_hour c) ++ ":" ++ pad 2 (c_minute c) ++ ":" ++ pad 2 (c_second c) ++
   (if Nat.eqb (c_micro c) 0 then "" else "." ++ pad 6 (c_micro c)))%string.
Definition offset_str (o : Z) : string :=
  ((if Z.ltb o 0 then "-" else "+") ++ pad 2 (Z.to_nat (Z.div (Z.abs o) 60)) ++ ":" ++ pad 2 (Z.to_nat (Z.modulo (Z.abs o) 60)))%string.
Definition dt_str (d : dtime) : string := (clock_str (d_clock d) ++ match d_offset d with None => "" | Some o => offset_str o end)%string.

(* The days from the first of January 1970 in the Gregorian calendar (days_from_civil), used by s_from_dt and by Date.UTC *)
Definition days_of (y m d : Z) : Z :=
  let y := (if Z.leb m 2 then y - 1 else y)%Z in
  let era := Z.div y 400 in
  let yoe := (y - era * 400)%Z in
  let doy := (Z.div (153 * (m + (if Z.ltb 2 m then -3 else 9)) + 2) 5 + d - 1)%Z in
  (era * 146097 + (yoe * 365 + Z.div yoe 4 - Z.div yoe 100 + doy) - 719468)%Z.
(* What a clock shows, in seconds since 1970 by that clock *)
Definition clock_seconds (c : clock) : Qc :=
  Qcplus (qz (86400 * days_of (Z.of_nat (c_year c)) (Z.of_nat (c_month c)) (Z.of_nat (c_day c)) + 3600 * Z.of_nat (c_hour c) + 60 * Z.of_nat (c_minute c) + Z.of_nat (c_second c)))
         (qfrac (Z.of_nat (c_micro c)) 1000000).
(* propertime's s_from_dt: the seconds since 1970; it refuses a datetime without a timezone *)
Definition s_from_dt (d : dtime) : result Qc :=
  match d_offset d with None => Err ValueError | Some o => Ok (Qcminus (clock_seconds (d_clock d)) (qz (60 * o))) end.

(* propertime's dt_from_str and dt_from_s *)
Record clocks := mkClocks { k_parse : string -> result dtime; k_from_s : Qc -> string -> result dtime }.

(* plots.py 103-110 *)
Definition utc_fake_s (K : clocks) (d : dtime) : result Qc :=
  let s := dt_str d in
  if char_in "+" s then do x <- k_parse K (hd EmptyString (split_on "+" s) ++ "+00:00")%string; s_from_dt x
  else if char_in "-" s then do x <- k_parse K (hd EmptyString (split_on "-" s) ++ "+00:00")%string; s_from_dt x
  else Err ValueError.
(* plots.py 128-135: the arguments of Date.UTC, with months from zero and the milliseconds only if there are some *)
Definition dg_args (d : dtime) : list Qc :=
  let c := d_clock d in
  let six := [qn (c_year c); Qcminus (qn (c_month c)) q1; qn (c_day c); qn (c_hour c); qn (c_minute c); qn (c_second c)] in
  if Nat.eqb (c_micro c) 0 then six else six ++ [Qcdiv (qn (c_micro c)) (qz 1000)].
(* plots.py 276, 344: the date written for a row *)
Definition row_args (K : clocks) (w : row_) : result (list Qc) := do d <- k_from_s K (w_t w) (w_tz w); Ok (dg_args d).

(* A plot with a mark: the start and the end of what is highlighted.  149-151 (before the rows, which do not depend on the mark, as
   RENDER_MARK_AS_INDEX is false), 717, 893-909 *)
Record marked := mkMarked { m_plot : plotted; m_dates : list (list Qc); m_start : Qc; m_end : Qc }.
Definition plot_marked (K : clocks) (threshold : nat) (s : series) (labels indexes : choice) (aggregate : option bool) (aggregate_by : option nat) (height : option Qc) (value_range : option (Qc * Qc)) (from_ to_ : dtime) : result marked :=
  do _ <- s_from_dt from_; do _ <- s_from_dt to_;
  do p <- plot threshold s labels indexes aggregate aggregate_by height value_range;
  do ds <- mapM (row_args K) (p_rows p);
  do a <- utc_fake_s K from_;
  do b <- utc_fake_s K to_;
  Ok (mkMarked p ds (Qcmult a (qz 1000)) (Qcmult b (qz 1000))).
