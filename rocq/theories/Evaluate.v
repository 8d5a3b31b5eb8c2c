(* Evaluate.v -- MODEL of the evaluation of the forecasters (models/forecasters.py 55-83, 195-430) and of the reconstructors
   (models/reconstructors.py 126-308).

   The checks done by the decorator before evaluate are in Models.v.  The predict of the model is an arbitrary function (it
   includes the checks of its own decorator), and so are the square root and the logarithm.  The plots, verbose, the log messages
   are not modelled; NotEnoughDataError is a GenericException. *)
From Verif Require Export Forecast Anomaly Utils.

(* ===================== forecasters ===================== *)

(* A fitted forecaster as evaluate sees it: data['window'] (None: no such key), if there are data['context_data_labels'],
   data['target_data_labels'] and data['minimized_error_metric'] (None: missing or empty), and predict with steps=1, given a
   view and possibly the context data. *)
Record evaluated := mkEvaluated {
  ev_window : option nat;
  ev_context : bool;
  ev_targets : option (list string);
  ev_minimized : option string;
  ev_predict : view -> option data -> result prediction }.

(* models/forecasters.py 63-83 *)
Definition ev_predicted (F : evaluated) (s : series) (i : nat) (lb : string) : result Qc :=
  let v := mkView s 0 (Z.of_nat i) in
  do p <- (if ev_context F
           then do x <- ts_get_i s (Z.of_nat i); do d <- item_data x; ev_predict F v (Some d)
           else ev_predict F v None);
  predicted_value p lb.

(* models/forecasters.py 278-284: where to start; 0 and None are the same *)
Definition start_of (F : evaluated) : nat := match ev_window F with Some w => w | None => 0 end.
(* models/forecasters.py 291-313: the actual and predicted values of a label *)
Definition ev_pairs (F : evaluated) (s : series) (lb : string) : result (list (Qc * Qc)) :=
  mapM (fun i => do a <- actual_of s i lb; do p <- ev_predicted F s i lb; Ok (a, p))
       (filter (fun i => negb (Nat.ltb i (start_of F))) (seq 0 (length (s_items s)))).

(* The aggregate metrics, in the order in which they are computed: the name, the value (None for the maximum of no values), and
   the name and the values of the column added to the results series, if any (models/forecasters.py 323-384) *)
Definition num (r : result Qc) : result (option Qc) := do v <- r; Ok (Some v).
Definition aggregates (sq lg : Qc -> Qc) : list (string * (list Qc -> list Qc -> result (option Qc)) * option (string * (Qc -> Qc -> result Qc))) :=
  [ ("MSE"%string,  fun a p => num (mse a p), None);
    ("RMSE"%string, fun a p => num (do v <- mse a p; Ok (sq v)), None);
    ("MAE"%string,  fun a p => num (mae a p), Some ("AE"%string, abs_err));
    ("HAE"%string,  max_ae, None);
    ("MAPE"%string, fun a p => num (mape a p), Some ("APE"%string, perc_err));
    ("HAPE"%string, max_ape, None);
    ("MALE"%string, fun a p => num (male lg a p), Some ("ALE"%string, log_err lg));
    ("HALE"%string, max_ale lg, None) ].
(* The punctual metrics: only columns (models/forecasters.py 386-426) *)
Definition punctuals (lg : Qc -> Qc) : list (string * (Qc -> Qc -> result Qc)) :=
  [ ("E"%string,  fun a p => Ok (Qcminus a p));
    ("PE"%string, fun a p => qdiv (Qcminus a p) a);
    ("LE"%string, fun a p => do q <- qdiv a p; if qleb q q0 then Err ValueError else Ok (lg q)) ].
Definition metric_names : list string := ["MSE"; "RMSE"; "MAE"; "HAE"; "MAPE"; "HAPE"; "MALE"; "HALE"]%string.
Definition punctual_names : list string := ["E"; "PE"; "LE"]%string.

(* results_series[i].data[name] = value, for all the values *)
Fixpoint set_column (name : string) (vs : list Qc) (l : list item) : result (list item) :=
  match vs, l with
  | [], _ => Ok l
  | _ :: _, [] => Err IndexError
  | v :: vs, x :: l => do y <- Anomaly.set_value x name v; do r <- set_column name vs l; Ok (y :: r)
  end.
(* A column of the results series, if there is one *)
Definition add_column (name : string) (f : Qc -> Qc -> result Qc) (a p : list Qc) (l : option (list item)) : result (option (list item)) :=
  match l with
  | None => Ok None
  | Some l => do vs <- map2M f a p; do l <- set_column name vs l; Ok (Some l)
  end.

(* models/forecasters.py 318-426: a label; the state is made of the results so far and of the items of the results series *)
Definition key (lb name : string) : string := (lb ++ "_" ++ name)%string.
Definition ev_aggregate (metrics : list string) (lb : string) (a p : list Qc) (st : dict (option Qc) * option (list item))
    (m : string * (list Qc -> list Qc -> result (option Qc)) * option (string * (Qc -> Qc -> result Qc))) : result (dict (option Qc) * option (list item)) :=
  let '(name, f, col) := m in
  if str_mem name metrics then
    do v <- f a p;
    do l <- match col with Some (suffix, g) => add_column (key lb suffix) g a p (snd st) | None => Ok (snd st) end;
    Ok (dset (key lb name) v (fst st), l)
  else Ok st.
Definition ev_punctual (metrics : list string) (lb : string) (a p : list Qc) (st : dict (option Qc) * option (list item))
    (m : string * (Qc -> Qc -> result Qc)) : result (dict (option Qc) * option (list item)) :=
  if str_mem (fst m) metrics then do l <- add_column (key lb (fst m)) (snd m) a p (snd st); Ok (fst st, l) else Ok st.
Definition ev_label (sq lg : Qc -> Qc) (metrics punctual : list string) (st : dict (option Qc) * option (list item)) (lp : string * list (Qc * Qc)) : result (dict (option Qc) * option (list item)) :=
  let lb := fst lp in
  let a := map fst (snd lp) in
  let p := map snd (snd lp) in
  do l <- add_column (key lb "pred") (fun _ p => Ok p) a p (snd st);
  do st <- foldM (ev_aggregate metrics lb a p) (aggregates sq lg) (fst st, l);
  foldM (ev_punctual punctual lb a p) (punctuals lg) st.

(* models/forecasters.py 227-242: the metrics; None is 'auto' *)
Definition metrics_of (F : evaluated) (metrics : option (list string)) : list string :=
  match metrics with
  | Some l => l
  | None => match ev_minimized F with Some m => [m] | None => ["RMSE"; "MAE"]%string end
  end.
(* models/forecasters.py 195-430: evaluate(series, steps, error_metrics, punctual_error_metrics, return_results_series).  The
   result is made of the values of the metrics and of the results series, under the key 'series' (if both are missing, the code
   returns None). *)
Definition ev_evaluate (e : env) (sq lg : Qc -> Qc) (F : evaluated) (s : series) (steps : nat) (metrics : option (list string)) (punctual : list string) (results : bool)
    : result (dict (option Qc) * option series) :=
  match s_items s with
  | [] => Err ValueError
  | _ =>
    if Nat.ltb 1 steps then Err NotImplementedError
    else
      let metrics := metrics_of F metrics in
      if negb (forallb (fun m => str_mem m metric_names) metrics) then Err ValueError
      else if negb (forallb (fun m => str_mem m punctual_names) punctual) then Err ValueError
      else
        do rs <- (if results then
                    if negb (Nat.eqb steps 1) then Err ValueError
                    else do k <- ts_duplicate e s;
                         match ev_window F with
                         | None => Err KeyError
                         | Some 0 => Ok (Some k)
                         | Some w => do k <- ts_brackets e k (BInt (Z.of_nat w)) BNone; Ok (Some k)
                         end
                  else Ok None);
        do ls <- match ev_targets F with Some t => Ok t | None => labels_of s end;
        do lps <- mapM (fun lb => do l <- ev_pairs F s lb; Ok (lb, l)) ls;
        do st <- foldM (ev_label sq lg metrics punctual) lps ([], option_map s_items rs);
        Ok (fst st, match rs, snd st with Some k, Some l => Some (set_items k l) | _, _ => None end)
  end.

(* ===================== reconstructors ===================== *)

(* A fitted reconstructor as evaluate sees it: the window, data['periodicity'] if there is one, and predict *)
Record reconstructor := mkReconstructor {
  rm_window : nat;
  rm_period : option nat;
  rm_predict : series -> nat -> nat -> result pdata }.

(* models/reconstructors.py 330-355: the linear interpolation, which has no parameters *)
Definition linear_reconstructor : reconstructor := mkReconstructor 1 None linear_predict.
(* models/reconstructors.py 369-465: a fitted periodic average reconstructor *)
Definition pa_reconstructor (c : cal) (dst : string -> Qc -> Z) (m : pa_params) : reconstructor := mkReconstructor 1 (Some (Z.to_nat (pa_period m))) (pa_predict c dst m).

(* models/reconstructors.py 149-159: how many steps; a number stands for all those up to it *)
Inductive steps_arg := StepsAuto | StepsList (l : list nat) | StepsUpTo (n : nat).
Definition rounds_of (R : reconstructor) (st : steps_arg) : list nat :=
  match st with
  | StepsAuto => match rm_period R with Some p => [1; p] | None => [1; 2; 3] end
  | StepsList l => l
  | StepsUpTo n => seq 1 n
  end.

(* models/reconstructors.py 189-237: if the k items from position i, and the windows before and after them, can be used *)
Definition good_area (thr : Qc) (w : nat) (s : series) (i k : nat) : result bool :=
  if Nat.ltb i w then Ok false else
  do b <- any_lossy thr s (seq (i - w) w);
  if b then Ok false else
  if Nat.leb (length (s_items s)) (i + k + w) then Ok false else
  do b <- any_lossy thr s (seq (i + k) w);
  if b then Ok false else
  do b <- any_lossy thr s (seq i k);
  Ok (negb b).
(* models/reconstructors.py 239-250: the predicted and the actual values of the k items from position i (k at least 1: with no
   steps the code asks for the items up to i - 1).  The prediction must be
   a dictionary of lists: a list of dictionaries has no labels. *)
Definition gap_values (R : reconstructor) (s : series) (lb : string) (i k : nat) : result (list Qc * list Qc) :=
  do pd <- rm_predict R s i (i + k - 1);
  do acts <- mapM (fun j => actual_of s j lb) (seq i k);
  do preds <- match pd with
              | PDict d => match dget lb d with Some l => Ok l | None => Err KeyError end
              | PList _ => Err TypeError
              end;
  Ok (preds, acts).
(* models/reconstructors.py 176-251: the loop on the positions, for k steps; the state is made of how many samples were
   processed, and of the predicted and actual values so far *)
Definition rec_step (R : reconstructor) (thr : Qc) (limit : option nat) (s : series) (lb : string) (k : nat) (st : nat * list Qc * list Qc) (i : nat) : result (nat * list Qc * list Qc) :=
  let '(n, preds, acts) := st in
  if match limit with Some l => Nat.leb l n | None => false end then Ok st
  else do b <- good_area thr (rm_window R) s i k;
       if b then do g <- gap_values R s lb i k; Ok (S n, preds ++ fst g, acts ++ snd g)
       else Ok st.
(* models/reconstructors.py 168-267: the scores for k steps *)
Definition score_key (m : string) (k : nat) : string := (m ++ "_" ++ nat_str k ++ "_steps")%string.
Definition rec_metrics (sq : Qc -> Qc) : list (string * (list Qc -> list Qc -> result Qc)) :=
  [ ("RMSE"%string, fun p a => do v <- mse p a; Ok (sq v)); ("MAE"%string, mae); ("MAPE"%string, mape) ].
Definition rec_round (sq : Qc -> Qc) (R : reconstructor) (thr : Qc) (limit : option nat) (metrics : list string) (s : series) (lb : string) (sc : dict Qc) (k : nat) : result (dict Qc) :=
  do st <- foldM (rec_step R thr limit s lb k) (seq 0 (length (s_items s))) (0, [], []);
  let '(_, preds, acts) := st in
  match preds with
  | [] => Err GenericException
  | _ => foldM (fun sc m => if str_mem (fst m) metrics then do v <- snd m preds acts; Ok (dset (score_key (fst m) k) v sc) else Ok sc) (rec_metrics sq) sc
  end.
(* models/reconstructors.py 269-297: the overall value of a metric *)
Definition rec_overall (metrics : list string) (sc : dict Qc) (m : string) : result (dict Qc) :=
  if str_mem m metrics then
    let vs := map snd (filter (fun kv => prefix (m ++ "_") (fst kv)) sc) in
    do v <- qdiv (sum_of vs) (qn (length vs));
    Ok (dset m v sc)
  else Ok sc.
(* models/reconstructors.py 126-308 *)
Definition rec_evaluate (sq : Qc -> Qc) (R : reconstructor) (s : series) (steps : steps_arg) (limit : option nat) (thr : Qc) (metrics : list string) (details : bool) : result (dict Qc) :=
  do ls <- labels_of s;
  match ls with
  | _ :: _ :: _ => Err NotImplementedError
  | _ =>
    do sc <- foldM (fun sc lb => foldM (rec_round sq R thr limit metrics s lb) (rounds_of R steps) sc) ls [];
    do sc <- foldM (rec_overall metrics) ["RMSE"; "MAE"; "MAPE"]%string sc;
    if details then Ok sc
    else Ok (flat_map (fun m => if str_mem m metrics then match dget m sc with Some v => [(m, v)] | None => [] end else []) ["RMSE"; "MAE"; "MAPE"]%string)
  end.
