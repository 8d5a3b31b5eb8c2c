(* SpecForecast.v -- SPECIFICATION vocabulary for forecasting (C54, C55). *)
From Verif Require Export SpecRecon Forecast.

(* The same item but for the forecast index, which has the given value. *)
Definition as_it_was (x y : item) : Prop :=
  same_shell x y /\ i_data y = i_data x /\ forall k, k <> "forecast"%string -> dget k (i_idx y) = dget k (i_idx x).
Definition forecast_is (v : Qc) (x : item) : Prop := dget "forecast" (i_idx x) = Some (Some v).

(* x comes right after prev: a slot which starts where prev ends and lasts one unit, or a point one step later. *)
Definition right_after (c : cal) (u : tunit) (prev x : item) : Prop :=
  if is_slot prev then is_slot x = true /\ i_t x = i_end prev /\ i_unit x = u /\ i_end x = unit_shift c u (i_end prev) 1 /\ i_tz x = i_tz prev
  else is_point x = true /\ exists d, u = UPhys d /\ i_t x = Qcplus (i_t prev) d.

(* The series has the constant resolution u; for points, it is the actual distance between them. *)
Definition steady (s : series) (u : tunit) : Prop :=
  resolution s = Some (RUnit u) /\
  (all_slots (s_items s) \/ (all_points (s_items s) /\ 2 <= length (s_items s) /\ exists d, u = UPhys d /\ equally_spaced d (times (s_items s)))).

(* The forecaster, if it needs the resolution, was fitted on the one of the series (otherwise it is refused: C50). *)
Definition fitted_like (F : forecaster) (s : series) : Prop := forall r, fc_res F = Some r -> r = resolution s.

(* The data of a forecast with the context data: those win. *)
Definition in_context (ctx : option (dict Qc)) (d d' : data) : Prop :=
  match ctx with
  | None => d' = d
  | Some k => exists m m', d = DDict m /\ d' = DDict m' /\
      forall lb, dget lb m' = match dget lb k with Some v => Some v | None => dget lb m end
  end.

(* Where the data of the forecasts come from: a call for all the steps, or one call for each step, on the
   series with the forecasts so far, if the call for all the steps is not implemented. *)
Definition predicted (F : forecaster) (steps : nat) (ctx : option (dict Qc)) (s1 : series) (fs : list item) : Prop :=
  (exists ds, fc_predict F s1 steps ctx = Ok (FList ds) /\ map i_data fs = map Some ds) \/
  (exists d d' x, fc_predict F s1 steps ctx = Ok (FOne d) /\ in_context ctx d d' /\ fs = [x] /\ i_data x = Some d') \/
  ((fc_predict F s1 steps ctx = Err NotImplementedError \/ exists ds, ctx <> None /\ fc_predict F s1 steps ctx = Ok (FList ds)) /\
   forall k x, nth_error fs k = Some x -> exists sk d d',
     s_items sk = s_items s1 ++ firstn k fs /\ fc_predict F sk 1 ctx = Ok (FOne d) /\ in_context ctx d d' /\ i_data x = Some d').

(* Applied, in place or not, it gives s'. *)
Definition forecasts (e : env) (c : cal) (nadd : string -> Qc -> result Qc) (F : forecaster) (s : series) (steps : nat) (ctx : option (dict Qc)) (s' : series) : Prop :=
  fc_apply_inplace e c nadd F s steps ctx = (s', Ok tt) \/ fc_apply e c nadd F s steps ctx = Ok s'.

(* The data has exactly the labels of the series. *)
Definition labelled (s : series) (d : data) : Prop :=
  exists m, d = DDict m /\ forall x lb, In x (s_items s) -> (In lb (dkeys m) <-> has_label x lb).

(* The items have, for each of the labels, the value of its signal, and are on the grid. *)
Definition signals (f : string -> Qc -> Qc) (ls : list string) (o d : Qc) (P : item -> Prop) (l : list item) : Prop :=
  forall lb, In lb ls -> samples (f lb) lb o d P l.
(* The series has exactly these labels. *)
Definition has_labels (ls : list string) (l : list item) : Prop := NoDup ls /\ forall x lb, In x l -> (has_label x lb <-> In lb ls).
(* Each phase of the grid is seen in an item which is in P. *)
Definition all_phases (o d : Qc) (p : Z) (P : item -> Prop) (l : list item) : Prop :=
  forall t n, on_grid o d t n -> exists y k, In y l /\ P y /\ t = Qcplus (i_t y) (Qcmult (qz (k * p)) d).
(* Slots last what their unit says. *)
Definition exact_slots (d : Qc) (l : list item) : Prop := forall x, In x l -> is_slot x = true -> i_end x = Qcplus (i_t x) d.
