(* PropEvaluate.v -- THEOREMS C76 (evaluation of the forecasters), C77 (evaluation of the reconstructors). *)
From Verif Require Import SpecEvaluate SpecAnomaly BaseLemmas PropTactics DictLemmas SeriesProofs2 SeriesProofs3 OpsProofs InterpProofs ReconProofs2 ReconProofs3 ReconProofs4 LstmProofs LstmProofs2 LstmProofs4 UtilsProofs AnomalyProofs AnomalyProofs2 AnomalyProofs3 AnomalyProofs4 AnomalyProofs5 EvaluateProofs EvaluateProofs2 EvaluateProofs3 EvaluateProofs4 EvaluateProofs5 EvaluateProofs6 Witness PropTransform PropRecon PropAccess PropAnomaly.
From Coq Require Import Lia.

(* ===================== C76 ===================== *)
(* The result has an entry label_metric for each evaluated label and each metric asked for, and no others: the value of the metric
   on the actual values of the items after the window and on what the model predicts for each given the items before it. *)
Theorem C76_scores : forall e sq lg F s steps metrics punctual results sc rs, ready e s -> ev_evaluate e sq lg F s steps metrics punctual results = Ok (sc, rs) ->
  (forall lb m, evaluates F s lb -> asks F metrics m -> exists a p v, compared F s lb a p /\ scored sq lg a p m v /\ dget (lb ++ "_" ++ m)%string sc = Some v) /\
  (forall k v, dget k sc = Some v -> exists lb m, evaluates F s lb /\ asks F metrics m /\ k = (lb ++ "_" ++ m)%string).
Proof. exact evaluate_scores. Qed.
Print Assumptions C76_scores.

(* The results series, if asked for, has the items after the window with the same times and indexes, and with the predictions and
   the errors of each added to the data. *)
Theorem C76_results_series : forall e sq lg F s steps metrics punctual sc rs, ready e s -> ev_evaluate e sq lg F s steps metrics punctual true = Ok (sc, rs) ->
  exists r w, rs = Some r /\ ev_window F = Some w /\ length (s_items r) = length (s_items s) - w /\
  forall k x, nth_error (s_items s) (w + k) = Some x -> exists y, nth_error (s_items r) k = Some y /\ result_item lg F (asks F metrics) punctual s (w + k) x y.
Proof. exact evaluate_series. Qed.
Print Assumptions C76_results_series.

(* No score is negative, and a score is zero if and only if the model predicts exactly the value of each of the items after the
   window (of which there is at least one). *)
Theorem C76_zero_iff_exact : forall e sq lg F s steps metrics punctual results sc rs lb m w, sqrt_like sq -> log_like lg -> ready e s -> ev_evaluate e sq lg F s steps metrics punctual results = Ok (sc, rs) ->
  begins F w -> w < length (s_items s) -> evaluates F s lb -> asks F metrics m ->
  exists v, dget (lb ++ "_" ++ m)%string sc = Some (Some v) /\ Qcle q0 v /\ (v = q0 <-> exact_on F s lb).
Proof.
  intros e sq lg F s steps metrics punctual results sc rs lb m w Sq Lg R H B W Ev As. destruct (proj1 (evaluate_scores _ _ _ _ _ _ _ _ _ _ _ R H) lb m Ev As) as (a & p & v & C & Sc & D).
  pose proof C as (w' & B' & La & Lp & _). apply begins_start in B, B'. assert (N : a <> []) by (intros ->; cbn in La; lia).
  destruct (scored_zero sq lg a p m v Sq Lg ltac:(lia) Sc N) as [(q & -> & Q) Z]. exists q. split; [exact D|]. split; [exact Q|]. rewrite <- (compared_exact e F s lb a p R C), <- Z. split; [intros ->; reflexivity|intros E; injection E as E; exact E].
Qed.
Print Assumptions C76_zero_iff_exact.

(* It succeeds if there is an item after the window, the metrics exist, and the model predicts each of the items after the window,
   provided that none is zero if errors relative to the values are asked for, and that all have the sign of their predictions if
   logarithmic errors are. *)
Theorem C76_succeeds : forall e sq lg F s steps metrics punctual results w,
  parses_units e -> ready e s -> begins F w -> w < length (s_items s) -> steps <= 1 -> (results = true -> steps = 1 /\ ev_window F <> None) ->
  (forall m, asks F metrics m -> In m ["MSE"; "RMSE"; "MAE"; "HAE"; "MAPE"; "HAPE"; "MALE"; "HALE"]%string) -> (forall m, In m punctual -> In m ["E"; "PE"; "LE"]%string) ->
  (forall lb i x, evaluates F s lb -> w <= i -> nth_error (s_items s) i = Some x -> exists a p, has_value x lb a /\ foresees F s i lb p /\
     (percentages F metrics punctual -> a <> q0) /\ (logarithms F metrics punctual -> Qclt q0 (Qcdiv a p))) ->
  exists sc rs, ev_evaluate e sq lg F s steps metrics punctual results = Ok (sc, rs).
Proof. exact evaluate_total. Qed.
Print Assumptions C76_succeeds.

(* The prediction compared with an item depends only on the items before it (and on its own data, if they are the context), for
   a model which only reads what it is given. *)
Theorem C76_only_the_past : forall e F s1 s2 n i lb v, ready e s1 -> n <= length (s_items s1) -> n <= length (s_items s2) -> firstn n (s_items s1) = firstn n (s_items s2) -> resolution s1 = resolution s2 ->
  i < n -> (forall c, reads_items (fun w => ev_predict F w c)) -> foresees F s1 i lb v -> foresees F s2 i lb v.
Proof. intros e F s1 s2 n i lb v R L1 L2 E Er. apply (foresees_past e F s1 s2 n i lb v R). split; [exact E|]. split; [exact L1|]. split; [exact L2|exact Er]. Qed.
Print Assumptions C76_only_the_past.

(* What is refused: empty series, more than one step, unknown metrics, results series for a model with no window. *)
Theorem C76_refusals : forall e sq lg F s steps metrics punctual results,
  (s_items s = [] -> ev_evaluate e sq lg F s steps metrics punctual results = Err ValueError) /\
  (s_items s <> [] -> 1 < steps -> ev_evaluate e sq lg F s steps metrics punctual results = Err NotImplementedError) /\
  (s_items s <> [] -> steps <= 1 -> (exists m, asks F metrics m /\ ~ In m ["MSE"; "RMSE"; "MAE"; "HAE"; "MAPE"; "HAPE"; "MALE"; "HALE"]%string) \/ (exists m, In m punctual /\ ~ In m ["E"; "PE"; "LE"]%string) ->
     ev_evaluate e sq lg F s steps metrics punctual results = Err ValueError).
Proof.
  intros e sq lg F s steps metrics punctual results. unfold ev_evaluate. split; [intros ->; reflexivity|]. split.
  - intros N L. destruct (s_items s); [contradiction|]. destruct (Nat.ltb_spec 1 steps); [reflexivity|lia].
  - intros N L Bad. destruct (s_items s) as [|x l]; [contradiction|]. clear N. destruct (Nat.ltb_spec 1 steps) as [|_]; [lia|].
    destruct (forallb (fun m => str_mem m metric_names) (metrics_of F metrics)) eqn:E1; cbn [negb]; [|reflexivity].
    destruct (forallb (fun m => str_mem m punctual_names) punctual) eqn:E2; cbn [negb]; [|reflexivity]. exfalso. destruct Bad as [(m & A & B)|(m & A & B)]; apply B, str_mem_In.
    + rewrite forallb_forall in E1. apply E1, asks_iff, A.
    + rewrite forallb_forall in E2. apply E2, A.
Qed.
Print Assumptions C76_refusals.

(* a forecaster which predicts the last value, with a window of one *)
Definition F1 : evaluated := mkEvaluated (Some 1) false None None (fun v _ => last_forecast v).
Definition score (k : string) (r : result (dict (option Qc) * option series)) : option (option Qc) := match r with Ok (sc, _) => dget k sc | Err _ => None end.
Definition score_is (k : string) (q : Qc) (r : result (dict (option Qc) * option series)) : bool := match score k r with Some (Some v) => qeqb v q | _ => false end.
Lemma observed_evaluates lb : evaluates F1 (ms (clean observed)) lb -> lb = "value"%string.
Proof.
  intros H. unfold evaluates in H. cbn [ev_targets F1] in H. rewrite observed_items in H. destruct (H _ (or_introl eq_refl)) as [v [V|[]]]. injection V as V _. symmetry. exact V.
Qed.
Example C76_nonvacuous : forall sq lg, parses_units ideal_env /\ ready ideal_env (ms (clean observed)) /\ begins F1 1 /\ 1 < length (s_items (ms (clean observed))) /\ evaluates F1 (ms (clean observed)) "value" /\
  (forall lb i x, evaluates F1 (ms (clean observed)) lb -> 1 <= i -> nth_error (s_items (ms (clean observed))) i = Some x -> exists a p, has_value x lb a /\ foresees F1 (ms (clean observed)) i lb p) /\
  (forall c, reads_items (fun w => ev_predict F1 w c)) /\
  score_is "value_MAE" (qfrac 25 6) (ev_evaluate ideal_env sq lg F1 (ms (clean observed)) 1 (Some ["MAE"; "HAE"]%string) ["E"%string] true) = true /\
  score_is "value_HAE" (qz 12) (ev_evaluate ideal_env sq lg F1 (ms (clean observed)) 1 (Some ["MAE"; "HAE"]%string) ["E"%string] true) = true.
Proof.
  intros sq lg. split; [exact ideal_parses|]. split; [exact observed_ready|]. split; [reflexivity|]. split; [rewrite observed_items; vm_compute; lia|]. split.
  - unfold evaluates. cbn [ev_targets F1]. rewrite observed_items. intros x I. repeat (destruct I as [<-|I]; [eexists; left; reflexivity|]). destruct I.
  - split.
    + intros lb i x Ev L X. apply observed_evaluates in Ev. subst lb. rewrite observed_items in X.
      do 7 (destruct i as [|i]; [first [lia|cbn in X; injection X as <-; eexists; eexists; split; [left; reflexivity|]; eexists; split; [|reflexivity]; eexists; eexists; split; reflexivity]|]). destruct i; discriminate X.
    + split; [intros c v v' Ev _; unfold F1; cbn [ev_predict]; unfold last_forecast; rewrite Ev; reflexivity|]. split; vm_compute; reflexivity.
Qed.
(* all the scores of an exact forecaster are zero *)
Definition noon_forecast (v : view) : result prediction := Ok (PrList [[("value"%string, qz 5)]]).
Example C76_exact : forall lg, score_is "value_RMSE" q0 (ev_evaluate ideal_env (fun q => q) lg (mkEvaluated (Some 2) false None None (fun v _ => noon_forecast v)) (ms (clean [1; 2; 5; 5; 5]%Z)) 1 None [] false) = true /\
  score_is "value_RMSE" q0 (ev_evaluate ideal_env (fun q => q) lg (mkEvaluated (Some 1) false None None (fun v _ => noon_forecast v)) (ms (clean [1; 2; 5; 5; 5]%Z)) 1 None [] false) = false.
Proof. intros lg. split; vm_compute; reflexivity. Qed.
(* the results series *)
Example C76_results_example : forall sq lg, exists sc r, ev_evaluate ideal_env sq lg F1 (ms (clean [0; 3; 1]%Z)) 1 (Some ["MAE"%string]) ["E"%string] true = Ok (sc, Some r) /\
  map (fun x => match i_data x with Some (DDict d) => map fst d | _ => [] end) (s_items r) = [["value"; "value_pred"; "value_AE"; "value_E"]; ["value"; "value_pred"; "value_AE"; "value_E"]]%string /\
  forallb (fun kx => match i_data (snd kx) with Some (DDict d) => match dget "value_E" d with Some v => qeqb v (fst kx) | None => false end | _ => false end) (combine [qz 3; qz (-2)] (s_items r)) = true.
Proof.
  intros sq lg. destruct (ev_evaluate ideal_env sq lg F1 (ms (clean [0; 3; 1]%Z)) 1 (Some ["MAE"%string]) ["E"%string] true) as [[sc [r|]]|] eqn:E; vm_compute in E; [|discriminate E|discriminate E]. injection E as <- <-. eexists; eexists; split; [reflexivity|]. split; vm_compute; reflexivity.
Qed.
(* With no items after the window most of the metrics raise, but the maxima are None. *)
Example C76_window_as_long_as_the_series : forall sq lg, ev_evaluate ideal_env sq lg (mkEvaluated (Some 3) false None None (fun v _ => last_forecast v)) (ms (clean [0; 3; 1]%Z)) 1 None [] false = Err ValueError /\
  score "value_HAE" (ev_evaluate ideal_env sq lg (mkEvaluated (Some 3) false None None (fun v _ => last_forecast v)) (ms (clean [0; 3; 1]%Z)) 1 (Some ["HAE"%string]) [] false) = Some None.
Proof. intros sq lg. split; vm_compute; reflexivity. Qed.
(* A value which is zero makes the percentage errors raise. *)
Example C76_percentages_of_zero : forall sq lg, ev_evaluate ideal_env sq lg F1 (ms (clean [5; 0; 1]%Z)) 1 (Some ["MAPE"%string]) [] false = Err ZeroDivisionError.
Proof. intros sq lg. vm_compute. reflexivity. Qed.
(* Without a window a forecaster is asked for the first item given an empty view, whose last item is the last one of the whole
   series: what it is compared with depends on what follows.  So it would be for Prophet and ARIMA, which have no window. *)
Definition peek_forecast (v : view) : result prediction := do x <- view_get v (-1); do q <- data_at x "value"; Ok (PrList [[("value"%string, q)]]).
Theorem C76_without_window_looks_ahead : exists F s1 s2 v, ready ideal_env s1 /\ ready ideal_env s2 /\ resolution s1 = resolution s2 /\ firstn 3 (s_items s1) = firstn 3 (s_items s2) /\ ev_window F = Some 0 /\
  foresees F s1 0 "value" v /\ ~ foresees F s2 0 "value" v.
Proof.
  exists (mkEvaluated (Some 0) false None None (fun v _ => peek_forecast v)), (ms (clean [0; 3; 1; 7]%Z)), (ms (clean [0; 3; 1; 8]%Z)), (qz 7).
  split; [unfold clean; values_ready_tac|]. split; [unfold clean; values_ready_tac|]. split; [vm_compute; reflexivity|]. split; [vm_compute; reflexivity|]. split; [reflexivity|]. split.
  - eexists. split; [|reflexivity]. eexists; eexists; split; reflexivity.
  - intros (p & G & E). cbn [ev_context] in E. cbn [ev_predict] in E. assert (P : p = PrList [[("value"%string, qz 8)]]) by (assert (Q : peek_forecast (mkView (ms (clean [0; 3; 1; 8]%Z)) 0 (Z.of_nat 0)) = Ok (PrList [[("value"%string, qz 8)]])) by reflexivity; congruence).
    subst p. destruct G as (d & r & L & D). injection L as <- <-. vm_compute in D. congruence.
Qed.
Print Assumptions C76_without_window_looks_ahead.

(* ===================== C77 ===================== *)
(* With the details, the result has for each metric asked for (of those which exist) the score of each number of steps, and their
   average; and no other entries. *)
Theorem C77_scores : forall e sq R s st limit thr metrics sc lb, ready e s -> single_label (s_items s) lb -> (forall k, round R st k -> 1 <= k) -> rec_evaluate sq R s st limit thr metrics true = Ok sc ->
  (forall m, In m ["RMSE"; "MAE"; "MAPE"]%string -> In m metrics ->
     (exists v, dget m sc = Some v /\ overall_score sq R st thr limit s lb m v) /\
     forall k, round R st k -> exists v, dget (m ++ "_" ++ nat_str k ++ "_steps")%string sc = Some v /\ round_score sq R thr limit s lb m k v) /\
  (forall key v, dget key sc = Some v -> exists m, In m ["RMSE"; "MAE"; "MAPE"]%string /\ In m metrics /\ (key = m \/ exists k, round R st k /\ key = (m ++ "_" ++ nat_str k ++ "_steps")%string)).
Proof.
  intros e sq R s st limit thr metrics sc lb Rd Sl _ H. destruct (rec_evaluate_unfold e sq R s st limit thr metrics true sc lb Rd Sl H) as (ks & sc0 & avg & Ek & (Nd & Ks & Al) & Ov & _ & ->). split.
  - intros m Nm Mm. assert (D0 : dget m sc0 = None) by (destruct (dget m sc0) as [v|] eqn:D; [|reflexivity]; destruct (Ks m v D) as (m' & k & N' & _ & _ & E & _); exfalso; exact (score_not_name m' m k N' Nm (eq_sym E))). split.
    + exists (avg m). split; [|apply Ov; assumption]. rewrite dget_app, D0, overalls_get, (proj2 (str_mem_In m rec_names) Nm), (proj2 (str_mem_In m metrics) Mm). reflexivity.
    + intros k K. destruct (Al m k Nm Mm (proj2 (Ek k) K)) as [v V]. exists v. split; [rewrite dget_app; unfold score_key in V; rewrite V; reflexivity|]. destruct (Ks _ _ V) as (m' & k' & N' & _ & _ & E & Sc). destruct (score_key_inj _ _ _ _ Nm N' E) as [-> ->]. exact Sc.
  - intros key v V. rewrite dget_app in V. destruct (dget key sc0) as [w|] eqn:D.
    + destruct (Ks key w D) as (m & k & Nm & Mm & K & -> & _). exists m. split; [exact Nm|]. split; [exact Mm|]. right. exists k. split; [apply Ek, K|reflexivity].
    + rewrite overalls_get in V. destruct (str_mem key rec_names) eqn:N; [|discriminate]. destruct (str_mem key metrics) eqn:M; [|discriminate]. exists key. split; [apply str_mem_In; exact N|]. split; [apply str_mem_In; exact M|]. left. reflexivity.
Qed.
Print Assumptions C77_scores.

(* The scores are determined by the series and the model. *)
Theorem C77_score_unique : forall e sq R s limit thr lb m k v v', ready e s -> round_score sq R thr limit s lb m k v -> round_score sq R thr limit s lb m k v' -> v = v'.
Proof.
  intros e sq R s limit thr lb m k v v' Rd (is & p & a & U & (ps & qs & Fp & Fq & -> & ->) & L & N & Sc) (is' & p' & a' & U' & (ps' & qs' & Fp' & Fq' & -> & ->) & L' & N' & Sc'). apply used_iff in U, U'. rewrite U in Fp, Fq. rewrite U' in Fp', Fq'.
  assert (G : forall (P : nat -> list Qc -> Prop) l ys zs, (forall i y z, P i y -> P i z -> y = z) -> Forall2 P l ys -> Forall2 P l zs -> ys = zs). { intros P l ys zs Un F. revert zs. induction F as [|i y l ys H F IH]; intros zs Z; inversion Z as [|? z ? zs' H' Z']; subst; [reflexivity|]. f_equal; [exact (Un i y z H H')|apply IH; exact Z']. }
  rewrite (G _ _ _ _ (fun i y z => rebuilds_unique R s lb k i y z) Fp' Fp) in Sc'. rewrite (G _ _ _ _ (fun i y z => holds_unique e s lb k i y z Rd) Fq' Fq) in Sc'. destruct Sc; inversion Sc'; reflexivity.
Qed.
Print Assumptions C77_score_unique.

(* Without the details there are only the averages, which are the same. *)
Theorem C77_without_details : forall e sq R s st limit thr metrics sc lb, ready e s -> single_label (s_items s) lb -> rec_evaluate sq R s st limit thr metrics false = Ok sc ->
  exists sc', rec_evaluate sq R s st limit thr metrics true = Ok sc' /\
    (forall m, In m ["RMSE"; "MAE"; "MAPE"]%string -> dget m sc = dget m sc') /\ (forall m, ~ In m ["RMSE"; "MAE"; "MAPE"]%string -> dget m sc = None).
Proof.
  intros e sq R s st limit thr metrics sc lb Rd Sl H. destruct (rec_evaluate_unfold e sq R s st limit thr metrics false sc lb Rd Sl H) as (ks & sc0 & avg & Ek & (Nd & Ks & Al) & _ & E & ->). eexists. split; [exact E|]. cbn [app]. split.
  - intros m Nm. rewrite dget_app. destruct (dget m sc0) as [v|] eqn:D; [|reflexivity]. destruct (Ks m v D) as (m' & k & N' & _ & _ & Em & _). exfalso. exact (score_not_name m' m k N' Nm (eq_sym Em)).
  - intros m Nm. rewrite overalls_get. destruct (str_mem m rec_names) eqn:N; [|reflexivity]. apply str_mem_In in N. contradiction.
Qed.
Print Assumptions C77_without_details.

(* No score is negative; the score of a number of steps is zero if and only if all the items asked for in that round are predicted
   exactly, and the average if and only if those of all the rounds are. *)
Theorem C77_zero_iff_exact : forall e sq R s st limit thr lb m, sqrt_like sq -> ready e s -> (forall k, round R st k -> returns_all R thr s lb k) -> (exists k, round R st k) ->
  (forall k v, round R st k -> round_score sq R thr limit s lb m k v -> Qcle q0 v /\ (v = q0 <-> exact_round R thr limit s lb k)) /\
  (forall v, overall_score sq R st thr limit s lb m v -> Qcle q0 v /\ (v = q0 <-> forall k, round R st k -> exact_round R thr limit s lb k)).
Proof.
  intros e sq R s st limit thr lb m Sq Rd Ra Ex. split.
  - intros k v K. apply (round_score_zero e sq R thr limit s lb m k v Sq Rd (Ra k K)).
  - intros v. apply (overall_zero e sq R st thr limit s lb m v Sq Rd Ra Ex).
Qed.
Print Assumptions C77_zero_iff_exact.

(* It succeeds if for each number of steps there is a place where to evaluate it, and the model predicts there (no zeros, for the
   percentage errors). *)
Theorem C77_succeeds : forall e sq R s st limit thr metrics details lb, ready e s -> single_label (s_items s) lb -> limit <> Some 0 -> (exists k, round R st k) ->
  (forall k, round R st k -> 1 <= k /\ (exists i, usable thr (rm_window R) s k i) /\ forall i, usable thr (rm_window R) s k i -> exists p, rebuilds R s lb k i p /\ length p = k /\ (In "MAPE"%string metrics -> ~ In q0 p)) ->
  exists sc, rec_evaluate sq R s st limit thr metrics details = Ok sc.
Proof. exact rec_evaluate_total. Qed.
Print Assumptions C77_succeeds.

(* A periodic average reconstructor has all scores zero on the periodic signal it is fitted on, also if moved by a constant. *)
Theorem C77_periodic_signal : forall e c dst auto f p d o lb limit thr offset_method train s shift sq st lim metrics details,
  periodic f p d -> (0 < p)%Z ->
  ready e train -> single_label (s_items train) lb -> resolution train = Some (RUnit (UPhys d)) ->
  samples f lb o d (included limit) (s_items train) -> (forall x, In x (s_items train) -> loss_known x) ->
  (offset_method = "average"%string \/ offset_method = "extremes"%string) ->
  ready e s -> single_label (s_items s) lb -> resolution s = Some (RUnit (UPhys d)) ->
  samples (fun t => Qcplus (f t) shift) lb o d (fun x => ~ lossy thr x) (s_items s) ->
  phases_seen p d (included limit) (s_items train) (s_items s) ->
  sqrt_like sq -> lim <> Some 0 -> ~ In "MAPE"%string metrics ->
  exists m, pa_fit c dst auto train (Some p) false offset_method limit = Ok m /\
    ((exists k, round (pa_reconstructor c dst m) st k) -> (forall k, round (pa_reconstructor c dst m) st k -> 1 <= k /\ exists i, usable thr 1 s k i) ->
     exists sc, rec_evaluate sq (pa_reconstructor c dst m) s st lim thr metrics details = Ok sc /\
       forall k v, dget k sc = Some v -> v = q0).
Proof.
  intros e c dst auto f p d o lb limit thr om tr s shift sq st lim metrics details Pf Hp Rt Lt Ut St Kt Ho R Ls Us Ss Ph Sq Nl Nm.
  destruct (pa_fit_ok e c dst f p d o lb limit tr Pf Hp Rt Lt Ut St Kt auto om Ho) as (avgs & E & Av). exists (mkPa p false avgs). split; [exact E|]. intros Ex Us2. set (M := pa_reconstructor c dst (mkPa p false avgs)) in *.
  assert (Av' : forall x n, In x (s_items s) -> on_grid o d (i_t x) n -> zget (n mod p)%Z avgs = Some (f (i_t x))) by (intros x n Ix G; apply Av; [exact G|]; destruct (Ph x Ix) as (y & k & Iy & Inc & Et); eauto).
  assert (Pr : forall k i, 1 <= k -> usable thr 1 s k i -> exists vs, rebuilds M s lb k i vs /\ holds s lb k i vs) by (intros k i; apply (pa_rebuilds e c dst f p d o lb s avgs shift thr k i Hp R Ls Us Ss Av')).
  destruct (rec_evaluate_total e sq M s st lim thr metrics details lb R Ls Nl Ex) as [sc Hsc].
  { intros k K. destruct (Us2 k K) as [Lk Uk]. split; [exact Lk|]. split; [exact Uk|]. intros i U. destruct (Pr k i Lk U) as (vs & Rb & Ho'). exists vs. split; [exact Rb|]. split; [apply Ho'|]. intros X. contradiction. }
  exists sc. split; [exact Hsc|]. assert (Ra : forall k, round M st k -> returns_all M thr s lb k). { intros k K i q U Rq. destruct (Us2 k K) as [Lk _]. destruct (Pr k i Lk U) as (vs & Rb & Ho'). rewrite (rebuilds_unique M s lb k i q vs Rq Rb). apply Ho'. }
  assert (Er : forall k, round M st k -> exact_round M thr lim s lb k). { intros k K is i vs Ui I Hv. destruct (Us2 k K) as [Lk _]. destruct (Pr k i Lk (used_usable _ _ _ _ _ _ _ Ui I)) as (ws & Rb & Ho'). rewrite (holds_unique e s lb k i vs ws R Hv Ho'). exact Rb. }
  destruct (rec_evaluate_unfold e sq M s st lim thr metrics details sc lb R Ls Hsc) as (ks & sc0 & avg & Ek & (Nd & Ks & Al) & Ov & _ & ->). intros key v V. rewrite dget_app in V.
  assert (V' : dget key sc0 = Some v \/ dget key (overalls metrics rec_names avg) = Some v) by (destruct details; [destruct (dget key sc0); [left|right]; exact V|right; exact V]). clear V. destruct V' as [V|V].
  - destruct (Ks key v V) as (m & k & _ & _ & K & _ & Sc). apply Ek in K. apply (round_score_zero e sq M thr lim s lb m k v Sq R (Ra k K) Sc). apply Er, K.
  - rewrite overalls_get in V. destruct (str_mem key rec_names) eqn:N; [|discriminate]. destruct (str_mem key metrics) eqn:Mm; [|discriminate]. cbn [andb] in V. injection V as <-. apply str_mem_In in N, Mm. apply (overall_zero e sq M st thr lim s lb key (avg key) Sq R Ra Ex); [apply Ov; assumption|exact Er].
Qed.
Print Assumptions C77_periodic_signal.

(* The linear interpolation reconstructor, "to be used as a baseline", can never be evaluated. *)
Theorem C77_linear_cannot_be_evaluated : forall e sq s st limit thr metrics details lb m, ready e s -> single_label (s_items s) lb -> (forall k, round linear_reconstructor st k -> 1 <= k) -> In m ["RMSE"; "MAE"; "MAPE"]%string -> In m metrics ->
  ~ exists sc, rec_evaluate sq linear_reconstructor s st limit thr metrics details = Ok sc.
Proof.
  intros e sq s st limit thr metrics details lb m Rd Sl Lk Nm Mm [sc H]. destruct (rec_evaluate_unfold e sq linear_reconstructor s st limit thr metrics details sc lb Rd Sl H) as (ks & sc0 & avg & Ek & _ & Ov & E & _).
  assert (No : forall k v, ~ round_score sq linear_reconstructor thr limit s lb m k v). { intros k v (is & p & a & U & (ps & qs & Fp & Fq & -> & ->) & L & N & Sc). destruct Fp as [|i q is' ps' (d & P & _) Fp]; [apply N; reflexivity|]. unfold linear_reconstructor in P. cbn [rm_predict] in P. unfold linear_predict in P. destruct (check_window s i (i + k - 1)); cbn [bind] in P; [|discriminate]. destruct (mapM _ _); cbn [bind] in P; discriminate. }
  destruct (Ov m Nm Mm) as (js & vs & Nd & Ej & F2 & Ea). destruct F2 as [|k v js vs Sc _]; [|exact (No k v Sc)].
  clear -E Ej Nm Mm Rd Sl. assert (Er : rounds_of linear_reconstructor st = []) by (destruct (rounds_of linear_reconstructor st) as [|k l] eqn:Er; [reflexivity|]; exfalso; apply (Ej k), round_iff; rewrite Er; left; reflexivity).
  unfold rec_evaluate in E. rewrite (labels_single e s lb Rd Sl) in E. cbn [bind] in E. rewrite foldM_one, Er in E. cbn [foldM bind] in E. unfold rec_overall at 1 in E. destruct (str_mem "RMSE" metrics) eqn:S1; [vm_compute in E; discriminate E|]. cbn [bind] in E. unfold rec_overall at 1 in E. destruct (str_mem "MAE" metrics) eqn:S2; [vm_compute in E; discriminate E|]. cbn [bind] in E. unfold rec_overall at 1 in E. destruct (str_mem "MAPE" metrics) eqn:S3; [vm_compute in E; discriminate E|].
  apply str_mem_In in Mm. destruct (names_cases m Nm) as [-> | [-> | ->]]; congruence.
Qed.
Print Assumptions C77_linear_cannot_be_evaluated.
(* seven items of the alternating signal, moved by 5; each number of steps has a place where to be evaluated *)
Definition up7 : list Z := [6; 7; 6; 7; 6; 7; 6]%Z.
Definition pa0 : result pa_params := pa_fit ex_cal (fun _ _ => 0%Z) (Err ValueError) (ms gap6) (Some 2%Z) false "average" (Some (qz 1)).
Definition entry_is (k : string) (q : Qc) (r : result (dict Qc)) : bool := match r with Ok sc => match dget k sc with Some v => qeqb v q | None => false end | Err _ => false end.
Lemma up7_items : s_items (ms (clean up7)) = clean up7. Proof. vm_compute. reflexivity. Qed.
Lemma up7_single : single_label (s_items (ms (clean up7))) "value".
Proof. rewrite up7_items. intros x I lb'. unfold clean, values, up7 in I. cbn [map combine seq length fst snd] in I. repeat (destruct I as [<-|I]; [unfold has_label, has_value; cbn; split; [intros (v & [X|[]]); injection X as <- _; reflexivity|intros ->; eauto]|]). destruct I. Qed.
Lemma clean_fine l j x : s_items (ms (clean l)) = clean l -> nth_error (s_items (ms (clean l))) j = Some x -> ~ lossy q1 x.
Proof. intros E X (v & V & L). rewrite E in X. apply nth_error_In in X. unfold clean, values in X. apply in_map_iff in X. destruct X as ([i [a b]] & <- & I). apply in_combine_r in I. apply in_map_iff in I. destruct I as (z & Z & _). injection Z as <- <-. cbn in V. injection V as <-. apply (Qcle_not_lt _ _ L). apply qltb_lt. vm_compute. reflexivity. Qed.
Lemma up7_usable k i : 1 <= i -> i + k + 1 < 7 -> usable q1 1 (ms (clean up7)) k i.
Proof. intros A B. split; [exact A|]. split; [rewrite up7_items; cbn; lia|]. intros j x _ X. exact (clean_fine up7 j x up7_items X). Qed.
Example C77_nonvacuous : ready ideal_env (ms (clean up7)) /\ single_label (s_items (ms (clean up7))) "value" /\ resolution (ms (clean up7)) = Some (RUnit (UPhys (qz 10))) /\
  samples (fun t => Qcplus (wave t) (qz 5)) "value" q0 (qz 10) (fun x => ~ lossy q1 x) (s_items (ms (clean up7))) /\ phases_seen 2 (qz 10) (included (Some (qz 1))) (s_items (ms gap6)) (s_items (ms (clean up7))) /\
  exists m, pa0 = Ok m /\ (forall k, round (pa_reconstructor ex_cal (fun _ _ => 0%Z) m) StepsAuto k -> 1 <= k /\ exists i, usable q1 1 (ms (clean up7)) k i) /\ (exists k, round (pa_reconstructor ex_cal (fun _ _ => 0%Z) m) StepsAuto k) /\
    forall sq, entry_is "MAE_2_steps" q0 (rec_evaluate sq (pa_reconstructor ex_cal (fun _ _ => 0%Z) m) (ms (clean up7)) StepsAuto None q1 ["MAE"%string] true) = true.
Proof.
  split; [unfold clean; values_ready_tac|]. split; [exact up7_single|]. split; [apply unit_is_eq; vm_compute; reflexivity|].
  assert (GR : forall t n, (t = n * 10)%Z -> on_grid q0 (qz 10) (qz t) n) by (intros t n ->; split; [apply Qcle_refl|]; split; [apply qltb_lt; vm_compute; reflexivity|]; split; [rewrite qz_mult, q0_eq; ring|left; reflexivity]).
  split; [|split].
  - rewrite up7_items. intros x Hx. unfold clean, values, up7 in Hx. cbn [map combine seq length fst snd] in Hx.
    repeat (destruct Hx as [<-|Hx]; [split; [eexists; apply GR; cbn; match goal with |- (?a = _)%Z => let k := eval vm_compute in (a / 10)%Z in instantiate (1 := k); reflexivity end|intros _; left; f_equal; apply qeqb_eq; vm_compute; reflexivity]|]). destruct Hx.
  - rewrite up7_items, gap6_items. intros x Hx. unfold clean, values, up7 in Hx. cbn [map combine seq length fst snd] in Hx.
    assert (Ph : forall n v l, (n = 0%Z \/ n = 1%Z) -> forall k y, y = ptl (10 * (n + 2 * k)) v l -> exists y0 j, In y0 gap6 /\ included (Some (qz 1)) y0 /\ i_t y = Qcplus (i_t y0) (Qcmult (qz (j * 2)) (qz 10))).
    { intros n v l [-> | ->] k y ->; [exists (ptl 0 1 0)|exists (ptl 10 2 0)]; exists k; (split; [unfold gap6; cbn [In]; tauto|]); (split; [intros q Q w W; injection Q as <-; cbn in W; injection W as <-; apply qltb_lt; vm_compute; reflexivity|]); cbn [i_t ptl pt set_idx]; rewrite <- qz_mult, <- qz_plus; f_equal; lia. }
    destruct Hx as [<-|Hx]; [apply (Ph 0%Z 6%Z 0%Z ltac:(tauto) 0%Z); reflexivity|].
    destruct Hx as [<-|Hx]; [apply (Ph 1%Z 7%Z 0%Z ltac:(tauto) 0%Z); reflexivity|].
    destruct Hx as [<-|Hx]; [apply (Ph 0%Z 6%Z 0%Z ltac:(tauto) 1%Z); reflexivity|].
    destruct Hx as [<-|Hx]; [apply (Ph 1%Z 7%Z 0%Z ltac:(tauto) 1%Z); reflexivity|].
    destruct Hx as [<-|Hx]; [apply (Ph 0%Z 6%Z 0%Z ltac:(tauto) 2%Z); reflexivity|].
    destruct Hx as [<-|Hx]; [apply (Ph 1%Z 7%Z 0%Z ltac:(tauto) 2%Z); reflexivity|].
    destruct Hx as [<-|Hx]; [apply (Ph 0%Z 6%Z 0%Z ltac:(tauto) 3%Z); reflexivity|].
    destruct Hx.
  - destruct pa0 as [m|] eqn:M; [|vm_compute in M; discriminate M]. exists m. split; [reflexivity|]. assert (Pm : pa_period m = 2%Z) by (vm_compute in M; injection M as <-; reflexivity). assert (Ro : forall k, round (pa_reconstructor ex_cal (fun _ _ => 0%Z) m) StepsAuto k <-> k = 1 \/ k = 2) by (intros k; unfold round, pa_reconstructor; cbn [rm_period]; rewrite Pm; reflexivity).
    split; [intros k K; apply Ro in K; split; [lia|]; exists 1; apply up7_usable; lia|]. split; [exists 1; apply Ro; left; reflexivity|]. intros sq. vm_compute in M. injection M as <-. vm_compute. reflexivity.
Qed.
(* the scores of a reconstructor which always answers zero: the percentage error is relative to the prediction *)
Definition constant_rec (v : Z) (w : nat) : reconstructor := mkReconstructor w None (fun s i j => Ok (PDict [("value"%string, repeat (qz v) (S j - i))])).
Example C77_scores_example : forall sq, entry_is "MAE_1_steps" (qfrac 26 4) (rec_evaluate sq (constant_rec 0 1) (ms (clean up7)) (StepsUpTo 2) None q1 ["MAE"%string] true) = true /\
  entry_is "MAE_2_steps" (qfrac 13 2) (rec_evaluate sq (constant_rec 0 1) (ms (clean up7)) (StepsUpTo 2) None q1 ["MAE"%string] true) = true /\
  entry_is "MAPE" (qfrac 3 2) (rec_evaluate sq (constant_rec 2 1) (ms (clean [5; 5; 5; 5]%Z)) (StepsList [1]) None q1 ["MAPE"%string] false) = true.
Proof. intros sq. repeat split; vm_compute; reflexivity. Qed.
(* The last place where the items could be predicted is never used: a series of three items cannot be evaluated although the item
   in the middle can be predicted. *)
Theorem C77_last_place_not_used : (forall thr w s k i, i + k + w = length (s_items s) -> ~ usable thr w s k i) /\
  exists m, pa0 = Ok m /\ (exists d, pa_predict ex_cal (fun _ _ => 0%Z) m (ms (clean [6; 7; 6]%Z)) 1 1 = Ok (PDict d)) /\
    forall sq, rec_evaluate sq (pa_reconstructor ex_cal (fun _ _ => 0%Z) m) (ms (clean [6; 7; 6]%Z)) (StepsList [1]) None q1 ["MAE"%string] true = Err GenericException.
Proof.
  split; [intros thr w s k i E (_ & U & _); lia|]. destruct pa0 as [m|] eqn:M; [|vm_compute in M; discriminate M]. exists m. split; [reflexivity|]. vm_compute in M. injection M as <-. split; [eexists; vm_compute; reflexivity|]. intros sq. vm_compute. reflexivity.
Qed.
Print Assumptions C77_last_place_not_used.
(* no steps at all, and a limit of zero *)
Example C77_nothing_to_do : forall sq, rec_evaluate sq (constant_rec 0 1) (ms (clean up7)) (StepsList []) None q1 ["MAE"%string] true = Err ZeroDivisionError /\
  rec_evaluate sq (constant_rec 0 1) (ms (clean up7)) (StepsUpTo 2) (Some 0) q1 ["MAE"%string] true = Err GenericException.
Proof. intros sq. split; vm_compute; reflexivity. Qed.
