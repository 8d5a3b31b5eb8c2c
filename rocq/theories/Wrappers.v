(* Wrappers.v -- MODEL of the models which delegate to another library: Prophet (models/base.py 453-486,
   models/forecasters.py 603-668, models/reconstructors.py 481-541) and ARIMA (models/forecasters.py 674-788).

   What the other library learns and answers is an arbitrary function, which can also fail.  The conversion of an epoch to the
   naive local time of a timezone (item.dt without tzinfo) is an arbitrary function, called clock: timezone, epoch -> naive time
   as a number.  The checks done by the decorators before fit, predict, apply and evaluate are in Models.v. *)
From Verif Require Export Evaluate.

(* ===================== Prophet ===================== *)

(* item.data[0] if the first item of the series has a list, otherwise the value of the first key *)
Definition first_value (by_index : bool) (x : item) : result Qc :=
  match by_index, i_data x with
  | _, None => Err TypeError
  | true, Some (DList (v :: _)) => Ok v
  | true, Some (DList []) => Err IndexError
  | true, Some (DDict _) => Err KeyError
  | false, Some (DDict ((_, v) :: _)) => Ok v
  | false, Some (DDict []) => Err IndexError
  | false, Some (DList _) => Err AttributeError
  end.
(* models/base.py 459-486: the rows given to Prophet, with the naive time and the value *)
Definition prophet_rows (clock : string -> Qc -> Qc) (s : series) : result (list (Qc * Qc)) :=
  do x0 <- ts_get_i s 0;
  do by_index <- match i_data x0 with
                 | Some (DList []) => Err IndexError
                 | Some (DList _) => Ok true
                 | Some (DDict _) => Ok false
                 | None => Err TypeError
                 end;
  mapM (fun x => do v <- first_value by_index x; Ok (clock (i_tz x) (i_t x), v)) (s_items s).

(* A fitted model: the first of data['data_labels'], and what Prophet answers (the column yhat) to the times asked for *)
Record prophet := mkProphet { pr_label : string; pr_ask : list Qc -> result (list Qc) }.

(* models/forecasters.py 610-637 and models/reconstructors.py 491-510: train is the fit of Prophet; the two refuse more than one
   label with different exceptions *)
Definition prophet_fit (refused : exc) (clock : string -> Qc -> Qc) (train : list (Qc * Qc) -> result (list Qc -> result (list Qc))) (s : series) : result prophet :=
  do ls <- labels_of s;
  match ls with
  | [] => Err IndexError
  | [lb] => do rows <- prophet_rows clock s; do ask <- train rows; Ok (mkProphet lb ask)
  | _ => Err refused
  end.
(* Exception('Multivariate time series are not yet supported') *)
Definition prophet_forecaster_fit := prophet_fit GenericException.
Definition prophet_reconstructor_fit := prophet_fit NotImplementedError.

(* models/forecasters.py 646-656: the naive times of the steps after the last item, one resolution after the other *)
Definition prophet_times (c : cal) (clock : string -> Qc -> Qc) (last : item) (r : option res) (steps : nat) : result (list Qc) :=
  mapM (fun k => match r with
                 | Some (RUnit u) => Ok (clock (i_tz last) (slot_step c u (i_t last) k))
                 | _ => Err TypeError
                 end) (seq 1 steps).
(* forecast['yhat'][i]: the index of the data frame starts from zero *)
Definition answer_at (ys : list Qc) (i : nat) : result Qc := match nth_error ys i with Some y => Ok y | None => Err KeyError end.
(* models/forecasters.py 639-668, given series[-1] and series.resolution *)
Definition prophet_predict (c : cal) (clock : string -> Qc -> Qc) (m : prophet) (last : item) (r : option res) (steps : nat) : result (list (dict Qc)) :=
  do ts <- prophet_times c clock last r steps;
  do ys <- pr_ask m ts;
  mapM (fun i => do y <- answer_at ys i; Ok [(pr_label m, y)]) (seq 0 steps).

(* The forecaster, for use with apply; r is the resolution it was fitted on.  Context data are refused (models/base.py 234-235) *)
Definition prophet_forecaster (c : cal) (clock : string -> Qc -> Qc) (m : prophet) (r : option res) : forecaster :=
  mkForecaster None (Some r) (fun s steps ctx =>
    match ctx with
    | Some _ => Err ValueError
    | None => do last <- ts_get_i s (-1); do l <- prophet_predict c clock m last (resolution s) steps; Ok (FList (map DDict l))
    end).
(* The forecaster, for use with evaluate: data['window'] is 0 (models/forecasters.py 637) and predict is given a view, whose
   resolution is the one of the series (datastructures.py 1893-1898) *)
Definition prophet_evaluated (c : cal) (clock : string -> Qc -> Qc) (m : prophet) : evaluated :=
  mkEvaluated (Some 0) false None None (fun v _ =>
    do last <- view_get v (-1); do l <- prophet_predict c clock m last (resolution (v_series v)) 1; Ok (PrList l)).

(* models/reconstructors.py 512-541; dt_from_s(item.t) has no timezone argument, so it is in UTC *)
Definition prophet_rec_predict (clock : string -> Qc -> Qc) (m : prophet) (s : series) (from_i to_i : nat) : result pdata :=
  do ls <- labels_of s;
  match ls with
  | [] => Err IndexError
  | [lb] =>
    do xs <- mapM (fun j => ts_get_i s (Z.of_nat j)) (seq from_i (S to_i - from_i));
    do ys <- pr_ask m (map (fun x => clock "UTC"%string (i_t x)) xs);
    do vs <- mapM (answer_at ys) (seq 0 (S to_i - from_i));
    Ok (PDict [(lb, vs)])
  | _ => Err NotImplementedError
  end.
(* The reconstructor, for use with evaluate: the window is 0 and there is no periodicity *)
Definition prophet_reconstructor (clock : string -> Qc -> Qc) (m : prophet) : reconstructor := mkReconstructor 0 None (prophet_rec_predict clock m).

(* ===================== ARIMA ===================== *)

(* A fitted model: the label, and the forecasts of the library for a number of steps, which do not depend on anything else *)
Record arima := mkArima { ar_label : string; ar_forecasts : nat -> result (list Qc) }.

(* models/forecasters.py 698-719, 747-777 with datastructures.py 1728-1752: the library is given the column of the label *)
Definition arima_fit (train : list Qc -> result (nat -> result (list Qc))) (s : series) : result arima :=
  do ls <- labels_of s;
  match ls with
  | [] => Err IndexError
  | [lb] => do vs <- mapM (fun x => data_at x lb) (s_items s); do f <- train vs; Ok (mkArima lb f)
  | _ => Err GenericException
  end.

(* models/forecasters.py 721-735, 779-788, given fit_series[-1] and series[-1]; NonContiguityError is a GenericException *)
Definition arima_predict (m : arima) (fit_last last : item) (steps : nat) : result (list (dict Qc)) :=
  if qeqb (i_t fit_last) (i_t last) then
    do ys <- ar_forecasts m steps;
    Ok (map (fun y => [(ar_label m, y)]) ys)
  else Err GenericException.

(* The fit series is kept by reference.  Its last item when predict is called: if the series given to predict is the fit series
   itself, as when applying in place on it, it is the last item of that; otherwise it does not depend on it. *)
Definition fit_itself (s : series) : result item := ts_get_i s (-1).
Definition fit_other (fit : series) (s : series) : result item := ts_get_i fit (-1).

(* The forecaster, for use with apply *)
Definition arima_forecaster (m : arima) (fit_last : series -> result item) (r : option res) : forecaster :=
  mkForecaster None (Some r) (fun s steps ctx =>
    match ctx with
    | Some _ => Err ValueError
    | None => do f <- fit_last s; do last <- ts_get_i s (-1); do l <- arima_predict m f last steps; Ok (FList (map DDict l))
    end).
(* The forecaster, for use with evaluate (data['window'] is 0): predict is given views on a series, and the fit series is that
   series itself (the copy of it made for the results is not used) or another one: in both cases its last item does not change *)
Definition arima_evaluated (m : arima) (fit : series) : evaluated :=
  mkEvaluated (Some 0) false None None (fun v _ =>
    do f <- ts_get_i fit (-1); do last <- view_get v (-1); do l <- arima_predict m f last 1; Ok (PrList l)).
