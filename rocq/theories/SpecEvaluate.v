(* SpecEvaluate.v -- SPECIFICATION vocabulary for the evaluation of forecasters and reconstructors (C76, C77). *)
From Verif Require Export SpecUtils SpecForecast SpecAnomaly Evaluate.
From Coq Require Export Sorted.

(* A square root: not negative, zero only in zero. *)
Definition sqrt_like (sq : Qc -> Qc) : Prop := forall q, Qcle q0 q -> Qcle q0 (sq q) /\ (sq q = q0 <-> q = q0).
Definition mean (f : Qc -> Qc -> Qc) (a p : list Qc) : Qc := Qcdiv (sum2 f a p) (qn (length a)).

(* ---------------- forecasters ---------------- *)
(* The label is one of those to evaluate: the targets of the model, or all. *)
Definition evaluates (F : evaluated) (s : series) (lb : string) : Prop :=
  match ev_targets F with Some t => In lb t | None => forall x, In x (s_items s) -> has_label x lb end.
(* The metrics asked for; by default the one minimized in the fit, or RMSE and MAE. *)
Definition asks (F : evaluated) (metrics : option (list string)) (m : string) : Prop :=
  match metrics, ev_minimized F with
  | Some l, _ => In m l
  | None, Some k => m = k
  | None, None => m = "RMSE"%string \/ m = "MAE"%string
  end.
(* What the forecaster predicts for a label of the item i, given (a view on) the items before it and, if it is fitted with context
   data, the data of the item. *)
Definition foresees (F : evaluated) (s : series) (i : nat) (lb : string) (v : Qc) : Prop :=
  exists p, gives p lb v /\
  if ev_context F
  then exists x d, nth_error (s_items s) i = Some x /\ i_data x = Some d /\ ev_predict F (mkView s 0 (Z.of_nat i)) (Some d) = Ok p
  else ev_predict F (mkView s 0 (Z.of_nat i)) None = Ok p.
(* The first item to be evaluated: the one after the window, if there is a window. *)
Definition begins (F : evaluated) (w : nat) : Prop := match ev_window F with Some v => w = v | None => w = 0 end.
(* The actual and the predicted values of a label, one for each item after the window, in order. *)
Definition compared (F : evaluated) (s : series) (lb : string) (acts preds : list Qc) : Prop :=
  exists w, begins F w /\ length acts = length (s_items s) - w /\ length preds = length acts /\
  forall k a p, nth_error acts k = Some a -> nth_error preds k = Some p ->
    exists x, nth_error (s_items s) (w + k) = Some x /\ has_value x lb a /\ foresees F s (w + k) lb p.

(* The metrics. *)
Definition positive_ratios (a p : list Qc) : Prop := forall i x y, nth_error a i = Some x -> nth_error p i = Some y -> Qclt q0 (Qcdiv x y).
Inductive scored (sq lg : Qc -> Qc) (a p : list Qc) : string -> option Qc -> Prop :=
| ScoredMSE : a <> [] -> scored sq lg a p "MSE" (Some (mean squared a p))
| ScoredRMSE : a <> [] -> scored sq lg a p "RMSE" (Some (sq (mean squared a p)))
| ScoredMAE : a <> [] -> scored sq lg a p "MAE" (Some (mean distance a p))
| ScoredHAE v : greatest distance a p v -> scored sq lg a p "HAE" (Some v)
| ScoredMAPE : a <> [] -> ~ In q0 a -> scored sq lg a p "MAPE" (Some (mean relative a p))
| ScoredHAPE v : greatest relative a p v -> ~ In q0 a -> scored sq lg a p "HAPE" (Some v)
| ScoredMALE : a <> [] -> positive_ratios a p -> scored sq lg a p "MALE" (Some (mean (log_ratio lg) a p))
| ScoredHALE v : greatest (log_ratio lg) a p v -> positive_ratios a p -> scored sq lg a p "HALE" (Some v)
(* nothing to compare *)
| ScoredNone m : a = [] -> In m ["HAE"; "HAPE"; "HALE"]%string -> scored sq lg a p m None.

(* The predictions of a label are exact. *)
Definition exact_on (F : evaluated) (s : series) (lb : string) : Prop :=
  forall w i x a, begins F w -> w <= i -> nth_error (s_items s) i = Some x -> has_value x lb a -> foresees F s i lb a.
(* Errors relative to the actual values, and logarithms of the ratios of the actual to the predicted values, are asked for. *)
Definition percentages (F : evaluated) (metrics : option (list string)) (punctual : list string) : Prop := asks F metrics "MAPE" \/ asks F metrics "HAPE" \/ In "PE"%string punctual.
Definition logarithms (F : evaluated) (metrics : option (list string)) (punctual : list string) : Prop := asks F metrics "MALE" \/ asks F metrics "HALE" \/ In "LE"%string punctual.

(* The columns added to the results series for a label, named label_suffix: the prediction, and the errors of the metrics asked. *)
Inductive added (lg : Qc -> Qc) (metrics : string -> Prop) (punctual : list string) (a p : Qc) : string -> Qc -> Prop :=
| AddedPred : added lg metrics punctual a p "pred" p
| AddedAE : metrics "MAE"%string -> added lg metrics punctual a p "AE" (distance a p)
| AddedAPE : metrics "MAPE"%string -> added lg metrics punctual a p "APE" (relative a p)
| AddedALE : metrics "MALE"%string -> added lg metrics punctual a p "ALE" (log_ratio lg a p)
| AddedE : In "E"%string punctual -> added lg metrics punctual a p "E" (Qcminus a p)
| AddedPE : In "PE"%string punctual -> added lg metrics punctual a p "PE" (Qcdiv (Qcminus a p) a)
| AddedLE : In "LE"%string punctual -> added lg metrics punctual a p "LE" (lg (Qcdiv a p)).
(* The item of the results series for the item x at position i. *)
Definition result_item (lg : Qc -> Qc) (F : evaluated) (metrics : string -> Prop) (punctual : list string) (s : series) (i : nat) (x y : item) : Prop :=
  same_shell x y /\ i_idx y = i_idx x /\
  exists d d', i_data x = Some (DDict d) /\ i_data y = Some (DDict d') /\
    (forall lb a p suffix v, evaluates F s lb -> has_value x lb a -> foresees F s i lb p -> added lg metrics punctual a p suffix v -> dget (lb ++ "_" ++ suffix)%string d' = Some v) /\
    (forall k, (forall lb a p suffix v, evaluates F s lb -> k = (lb ++ "_" ++ suffix)%string -> ~ added lg metrics punctual a p suffix v) -> dget k d' = dget k d).

(* ---------------- reconstructors ---------------- *)
(* The k items from position i, with the window before and after, can be used: no data loss at or above the threshold.  One more
   item is required at the end of the series. *)
Definition usable (thr : Qc) (w : nat) (s : series) (k i : nat) : Prop :=
  w <= i /\ i + k + w < length (s_items s) /\ forall j x, i - w <= j < i + k + w -> nth_error (s_items s) j = Some x -> ~ lossy thr x.
(* All the usable positions in order, up to the limit. *)
Definition used (thr : Qc) (w : nat) (limit : option nat) (s : series) (k : nat) (is : list nat) : Prop :=
  exists all, StronglySorted lt all /\ (forall i, In i all <-> usable thr w s k i) /\ is = match limit with None => all | Some l => firstn l all end.
(* The values predicted for the k items from each of the positions, and the actual ones. *)
Definition rebuilds (R : reconstructor) (s : series) (lb : string) (k i : nat) (p : list Qc) : Prop :=
  exists d, rm_predict R s i (i + k - 1) = Ok (PDict d) /\ dget lb d = Some p.
Definition holds (s : series) (lb : string) (k i : nat) (a : list Qc) : Prop :=
  length a = k /\ forall j v, nth_error a j = Some v -> exists x, nth_error (s_items s) (i + j) = Some x /\ has_value x lb v.
Definition rebuilt (R : reconstructor) (s : series) (lb : string) (k : nat) (is : list nat) (preds acts : list Qc) : Prop :=
  exists ps qs, Forall2 (rebuilds R s lb k) is ps /\ Forall2 (holds s lb k) is qs /\ preds = concat ps /\ acts = concat qs.
(* How many steps: those given, up to a number, or by default one and the periodicity (or 1, 2 and 3). *)
Definition round (R : reconstructor) (st : steps_arg) (k : nat) : Prop :=
  match st, rm_period R with
  | StepsList l, _ => In k l
  | StepsUpTo n, _ => 1 <= k <= n
  | StepsAuto, Some p => k = 1 \/ k = p
  | StepsAuto, None => 1 <= k <= 3
  end.
(* The metrics: the percentage error is relative to the prediction. *)
Inductive rec_scored (sq : Qc -> Qc) (preds acts : list Qc) : string -> Qc -> Prop :=
| RecRMSE : rec_scored sq preds acts "RMSE" (sq (mean squared preds acts))
| RecMAE : rec_scored sq preds acts "MAE" (mean distance preds acts)
| RecMAPE : ~ In q0 preds -> rec_scored sq preds acts "MAPE" (mean relative preds acts).
(* The score of a round of k steps. *)
Definition round_score (sq : Qc -> Qc) (R : reconstructor) (thr : Qc) (limit : option nat) (s : series) (lb m : string) (k : nat) (v : Qc) : Prop :=
  exists is preds acts, used thr (rm_window R) limit s k is /\ rebuilt R s lb k is preds acts /\ length preds = length acts /\ preds <> [] /\ rec_scored sq preds acts m v.
(* The overall score: the average of the scores of the rounds (one for each number of steps). *)
Definition overall_score (sq : Qc -> Qc) (R : reconstructor) (st : steps_arg) (thr : Qc) (limit : option nat) (s : series) (lb m : string) (v : Qc) : Prop :=
  exists ks vs, NoDup ks /\ (forall k, In k ks <-> round R st k) /\ Forall2 (round_score sq R thr limit s lb m) ks vs /\ v = Qcdiv (total vs) (qn (length ks)).
(* The model predicts exactly the k items from each of the positions used. *)
Definition exact_round (R : reconstructor) (thr : Qc) (limit : option nat) (s : series) (lb : string) (k : nat) : Prop :=
  forall is i vs, used thr (rm_window R) limit s k is -> In i is -> holds s lb k i vs -> rebuilds R s lb k i vs.
(* The predictions have a value for each item. *)
Definition returns_all (R : reconstructor) (thr : Qc) (s : series) (lb : string) (k : nat) : Prop := forall i p, usable thr (rm_window R) s k i -> rebuilds R s lb k i p -> length p = k.
