(* Inspect.v -- MODEL of the inspection of a fitted anomaly detector (models/anomaly_detectors.py 429-481), with the actual and the
   predicted values stored by its fit (346-375, 418-425).  What is printed and plotted is returned: for each label, the numbers which are printed,
   the limits of the plot of the distribution and the series which is plotted.  The name, the parameters and the statistics of the distribution,
   which are printed as they were stored, are not modelled, and neither are the drawings. *)
From Verif Require Export Anomaly.

(* The fitted detector with the values stored by the fit *)
Record fitted_detector := mkFitted { fd_model : detector_model; fd_actual : dict (list Qc); fd_predicted : dict (list Qc) }.
(* 360-375, for one label *)
Definition stored_values (f : nat -> string -> result Qc) (is : list nat) (lb : string) : result (string * list Qc) := do l <- mapM (fun i => f i lb) is; Ok (lb, l).
(* 255-427; without store_errors nothing of this is stored: inspect stops before reading these two, so that they are kept here anyway *)
Definition an_fit_stored (m : inner) (w : nat) (k : metric) (store : bool) (fit_dist : list Qc -> result dist) (stdev : list Qc -> result Qc) (s : series) : result fitted_detector :=
  do D <- an_fit m w k store fit_dist stdev s;
  do ls <- labels_of s;
  let is := positions m w (length (s_items s)) in
  do av <- mapM (stored_values (actual_of s) is) ls;
  do pv <- mapM (stored_values (predicted_of m s) is) ls;
  Ok (mkFitted D av pv).

Definition at_index {A} (l : list A) (i : nat) : result A := match nth_error l i with Some v => Ok v | None => Err IndexError end.
(* 473-479 *)
Definition fit_data (F : fitted_detector) (errors : dict (list Qc)) (i : nat) : result (dict Qc) :=
  foldM (fun d p => let lb := fst p in
    do a <- at_index (snd p) i;
    do q <- (do l <- by_key (fd_predicted F) lb; at_index l i);
    do r <- (do l <- by_key errors lb; at_index l i);
    Ok (dset (lb ++ "_err")%string r (dset (lb ++ "_pred")%string q (dset lb a d)))) (fd_actual F) [].
Definition fit_point (F : fitted_detector) (errors : dict (list Qc)) (i : nat) : result item :=
  do d <- fit_data F errors i; Ok (mkItem CDataTimePoint (qn i) (qn i) (UPhys q0) "UTC" (Some (DDict d)) [] None).
(* 469-480: the points are made one at a time before their append; here all of them, then the appends *)
Definition fit_series (e : env) (F : fitted_detector) (errors : dict (list Qc)) : result series :=
  do n <- match fd_actual F with [] => Err IndexError | (_, l) :: _ => Ok (length l) end;
  do pts <- mapM (fit_point F errors) (seq 0 n);
  ts_new e None pts.

Record panel := mkPanel { pn_label : string; pn_avg : Qc; pn_min : Qc; pn_max : Qc; pn_range : option (Qc * Qc); pn_series : option series }.
(* 446-449: 'auto' (None) is replaced by the value found, which is then there for the next labels *)
Definition or_auto (given : option Qc) (auto : result Qc) : result Qc := match given with Some q => Ok q | None => auto end.
(* 432-481 *)
Fixpoint inspect_loop (e : env) (F : fitted_detector) (plot series_ : bool) (x_min x_max : option Qc) (labels : list string) : result (list panel) :=
  match labels with
  | [] => Ok []
  | lb :: rest =>
    do all <- match an_errors (fd_model F) with None => Err KeyError | Some d => Ok d end;
    do errors <- by_key all lb;
    let absolute := map qabs errors in
    do avg <- lavg absolute;
    do lo <- lmin absolute;
    do hi <- lmax absolute;
    do lim <- (if plot then do a <- or_auto x_min (lmin errors); do b <- or_auto x_max (lmax errors); Ok (Some (a, b)) else Ok None);
    do fs <- (if series_ then do s <- fit_series e F all; Ok (Some s) else Ok None);
    do more <- inspect_loop e F plot series_ (match lim with Some l => Some (fst l) | None => x_min end) (match lim with Some l => Some (snd l) | None => x_max end) rest;
    Ok (mkPanel lb avg lo hi lim fs :: more)
  end.
Definition an_inspect (e : env) (F : fitted_detector) (plot : bool) (x_min x_max : option Qc) (series_ : bool) : result (list panel) :=
  inspect_loop e F plot series_ x_min x_max (dkeys (an_dists (fd_model F))).
