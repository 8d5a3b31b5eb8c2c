(* PropWrappers.v -- THEOREMS C78 (the models which delegate to Prophet), C79 (those which delegate to ARIMA). *)
From Verif Require Import SpecWrappers SpecEvaluate BaseLemmas PropTactics DictLemmas SeriesProofs2 SeriesProofs3 OpsProofs InterpProofs AccessProofs ReconProofs ReconProofs2 ReconProofs3 ReconProofs4 LstmProofs LstmProofs2 LstmProofs3 LstmProofs4 LstmProofs5 AnomalyProofs AnomalyProofs2 AnomalyProofs4 EvaluateProofs EvaluateProofs2 EvaluateProofs3 EvaluateProofs4 EvaluateProofs5 ForecastProofs ForecastProofs2 ForecastProofs3 WrappersProofs WrappersProofs2 WrappersProofs3 Witness PropTransform PropRecon PropForecast PropLstm PropAnomaly PropEvaluate.
From Coq Require Import Lia.

(* ===================== C78 ===================== *)
(* The fit gives Prophet one row for each item, with its local time (in the timezone of the item) and its value; a series with more
   than one label is refused. *)
Theorem C78_fit : forall e clock train s,
  ready e s ->
  (forall lb, single_label (s_items s) lb -> exists rows, rows_of clock lb (s_items s) rows /\
     (forall ask, train rows = Ok ask -> prophet_forecaster_fit clock train s = Ok (mkProphet lb ask) /\ prophet_reconstructor_fit clock train s = Ok (mkProphet lb ask)) /\
     (forall x, train rows = Err x -> prophet_forecaster_fit clock train s = Err x /\ prophet_reconstructor_fit clock train s = Err x)) /\
  (many_labels (s_items s) -> prophet_forecaster_fit clock train s = Err GenericException /\ prophet_reconstructor_fit clock train s = Err NotImplementedError).
Proof.
  intros e clock train s R. split.
  - intros lb S1. destruct (fit_ok GenericException clock train e s lb R S1) as (rows & F & E). destruct (rows_ok clock e s lb R S1) as (rows' & E' & _). exists rows. split; [exact F|].
    assert (X : forall refused, prophet_fit refused clock train s = prophet_fit GenericException clock train s) by (intros; unfold prophet_fit; rewrite (labels_single e s lb R S1); reflexivity).
    unfold prophet_forecaster_fit, prophet_reconstructor_fit. rewrite (X NotImplementedError), E. split; intros z ->; split; reflexivity.
  - intros M. split; apply (fit_many _ clock train e s R M).
Qed.
Print Assumptions C78_fit.

(* Applied to a series, it appends as many items as the steps, whose times go on with the resolution; their values are, in order,
   those which Prophet answers for their local times (in the timezone of the last item). *)
Theorem C78_forecasts : forall e c nadd clock m s u steps s' la, ready e s -> steady s u -> unit_long c u (s_items s) -> 0 < steps ->
  forecasts e c nadd (prophet_forecaster c clock m (resolution s)) s steps None s' -> last_item (s_items s) = Some la ->
  length (appended s s') = steps /\ exists ys, pr_ask m (map (fun x => clock (i_tz la) (i_t x)) (appended s s')) = Ok ys /\
  forall k x, nth_error (appended s s') k = Some x -> i_t x = slot_step c u (i_t la) (S k) /\ exists y, nth_error ys k = Some y /\ i_data x = Some (DDict [(pr_label m, y)]).
Proof. exact prophet_appends. Qed.
Print Assumptions C78_forecasts.

(* If Prophet learns the signal, the forecasts go on with the signal, whatever the values of the series it is applied to. *)
Theorem C78_continues_the_signal : forall e c nadd clock train g lb fit s u steps, learns train g ->
  ready e fit -> single_label (s_items fit) lb -> two_times clock (s_items fit) -> local_signal clock g lb (fun _ => True) (s_items fit) ->
  ready e s -> single_label (s_items s) lb -> steady s u -> unit_long c u (s_items s) -> resolution fit = resolution s -> 0 < steps ->
  exists m s', prophet_forecaster_fit clock train fit = Ok m /\ fc_apply e c nadd (prophet_forecaster c clock m (resolution fit)) s steps None = Ok s' /\ length (s_items s') = length (s_items s) + steps /\
  forall la k x, last_item (s_items s) = Some la -> nth_error (s_items s') (length (s_items s) + k) = Some x ->
    i_t x = slot_step c u (i_t la) (S k) /\ i_data x = Some (DDict [(lb, g (clock (i_tz la) (i_t x)))]).
Proof.
  intros e c nadd clock train g lb fit s u steps T Rf Lf Tf Sf R Ls St Ul Er Hs. destruct (learned GenericException clock train g e fit lb T Rf Lf Tf Sf) as (ask & E & A). rewrite Er.
  destruct (prophet_succeeds e c nadd clock (mkProphet lb ask) g lb s u steps R Ls eq_refl St A) as (s' & E1 & E2). exists (mkProphet lb ask), s'. split; [exact E|]. split; [exact E1|].
  assert (La : exists la, last_item (s_items s) = Some la). { destruct R as (_ & (Nn & _) & _). unfold last_item. destruct (rev (s_items s)) as [|x r] eqn:Erv; [|eauto]. exfalso. apply Nn. rewrite <- (rev_involutive (s_items s)), Erv. reflexivity. }
  destruct La as [la0 Hla0]. destruct (prophet_appends e c nadd clock (mkProphet lb ask) s u steps s' la0 R St Ul Hs (or_intror E1) Hla0) as (L & ys & Ay & V). cbn [pr_ask pr_label] in *. rewrite A in Ay. injection Ay as <-.
  assert (Len : length (s_items s') = length (s_items s) + steps).
  { unfold fc_apply_inplace in E2. destruct (check_targets _ s None); [|discriminate]. destruct (mark_all (s_items s)) as [l [[]|]]; [|discriminate]. match type of E2 with (let '(_, _) := ?a in _) = _ => destruct a as [z [[]|]] end; [|discriminate]. destruct (Nat.eqb_spec (length (s_items s) + steps) (length (s_items z))) as [Q|]; [|discriminate]. injection E2 as ->. symmetry. exact Q. }
  split; [exact Len|]. intros la k x Hla Hx. assert (la = la0) by congruence. subst la0. assert (Hx' : nth_error (appended s s') k = Some x) by (unfold appended; rewrite AccessProofs2.nth_error_skipn; exact Hx).
  destruct (V k x Hx') as (T1 & y & Hy & D). split; [exact T1|]. rewrite !nth_error_map, Hx' in Hy. cbn in Hy. injection Hy as <-. exact D.
Qed.
Print Assumptions C78_continues_the_signal.

(* The reconstructor fills each missing item (also at the ends of the series) with what Prophet answers for the UTC time of it. *)
Theorem C78_reconstructs : forall e clock m g lb thr s, answers (pr_ask m) g -> ready e s -> single_label (s_items s) lb ->
  exists s', rec_apply e (prophet_rec_predict clock m) thr s = Ok s' /\ length (s_items s') = length (s_items s) /\
  forall i x, nth_error (s_items s) i = Some x -> exists x', nth_error (s_items s') i = Some x' /\ same_time x x' /\
    (~ lossy thr x -> i_data x' = i_data x) /\ (lossy thr x -> i_data x' = Some (DDict [(lb, g (clock "UTC"%string (i_t x)))])).
Proof.
  intros e clock m g lb thr s A R Ls. destruct (pointwise_done (prophet_rec_predict clock m) thr lb (fun t => g (clock "UTC"%string t)) e s R Ls) as (s' & E & (_ & Len & U)).
  - intros sk from to Lb Ln Ht Hf. destruct (prophet_points clock m g lb s A sk from to Lb Ln Ht Hf) as (vs & E & _ & V). exists vs. split; [exact E|exact V].
  - exists s'. split; [unfold rec_apply; rewrite (ready_duplicate e s R); cbn [bind]; rewrite E; reflexivity|]. split; [exact Len|]. intros i x Hx. destruct (U i x Hx) as (y & Hy & (Sh & _) & _ & NL & LL). exists y. split; [exact Hy|]. split; [exact Sh|]. split; [exact NL|]. intros L. apply LL; [exact L|]. apply nth_lt in Hx. exact Hx.
Qed.
Print Assumptions C78_reconstructs.

(* So on series in UTC, if Prophet learns the signal, the missing items get the signal. *)
Theorem C78_restores : forall e clock train g lb thr fit s, learns train g ->
  ready e fit -> single_label (s_items fit) lb -> two_times clock (s_items fit) -> local_signal clock g lb (fun _ => True) (s_items fit) ->
  ready e s -> single_label (s_items s) lb -> in_zone "UTC" (s_items s) -> local_signal clock g lb (fun x => ~ lossy thr x) (s_items s) ->
  exists m s', prophet_reconstructor_fit clock train fit = Ok m /\ rec_apply e (prophet_rec_predict clock m) thr s = Ok s' /\ length (s_items s') = length (s_items s) /\
  (forall i x, nth_error (s_items s) i = Some x -> exists x', nth_error (s_items s') i = Some x' /\ same_time x x') /\ local_signal clock g lb (fun _ => True) (s_items s').
Proof.
  intros e clock train g lb thr fit s T Rf Lf Tf Sf R Ls Z Ss. destruct (learned NotImplementedError clock train g e fit lb T Rf Lf Tf Sf) as (ask & E & A). exists (mkProphet lb ask).
  destruct (C78_reconstructs e clock (mkProphet lb ask) g lb thr s A R Ls) as (s' & E' & Len & H). exists s'. split; [exact E|]. split; [exact E'|]. split; [exact Len|]. split; [intros i x Hx; destruct (H i x Hx) as (x' & Hx' & Sx & _); eauto|].
  intros y Hy _. apply In_nth_error in Hy. destruct Hy as [i Hy]. destruct (lt_nth (s_items s) i) as [x Hx]; [apply nth_lt in Hy; lia|]. destruct (H i x Hx) as (x' & Hx' & (_ & Tx & _ & _ & Zx) & NL & LL). assert (x' = y) by congruence. subst x'. rewrite Tx, Zx.
  pose proof (nth_error_In _ _ Hx) as Ix. destruct (lossy_dec thr e s R x Ix) as [L|L].
  - unfold has_value. rewrite (LL L), (Z x Ix). left. reflexivity.
  - pose proof (Ss x Ix L) as V. unfold has_value in *. rewrite (NL L). exact V.
Qed.
Print Assumptions C78_restores.

(* The scores of such a reconstructor are zero. *)
Lemma zero_scores e sq M s st lim thr metrics details lb : sqrt_like sq -> ready e s -> single_label (s_items s) lb -> lim <> Some 0 -> ~ In "MAPE"%string metrics ->
  (forall k i, 1 <= k -> usable thr (rm_window M) s k i -> exists vs, rebuilds M s lb k i vs /\ holds s lb k i vs) ->
  (exists k, round M st k) -> (forall k, round M st k -> 1 <= k /\ exists i, usable thr (rm_window M) s k i) ->
  exists sc, rec_evaluate sq M s st lim thr metrics details = Ok sc /\ forall k v, dget k sc = Some v -> v = q0.
Proof.
  intros Sq R Ls Nl Nm Pr Ex Us2. destruct (rec_evaluate_total e sq M s st lim thr metrics details lb R Ls Nl Ex) as [sc Hsc].
  { intros k K. destruct (Us2 k K) as [Lk Uk]. split; [exact Lk|]. split; [exact Uk|]. intros i U. destruct (Pr k i Lk U) as (vs & Rb & Ho'). exists vs. split; [exact Rb|]. split; [apply Ho'|]. intros X. contradiction. }
  exists sc. split; [exact Hsc|]. assert (Ra : forall k, round M st k -> returns_all M thr s lb k). { intros k K i q U Rq. destruct (Us2 k K) as [Lk _]. destruct (Pr k i Lk U) as (vs & Rb & Ho'). rewrite (rebuilds_unique M s lb k i q vs Rq Rb). apply Ho'. }
  assert (Er : forall k, round M st k -> exact_round M thr lim s lb k). { intros k K is i vs Ui I Hv. destruct (Us2 k K) as [Lk _]. destruct (Pr k i Lk (used_usable _ _ _ _ _ _ _ Ui I)) as (ws & Rb & Ho'). rewrite (holds_unique e s lb k i vs ws R Hv Ho'). exact Rb. }
  destruct (rec_evaluate_unfold e sq M s st lim thr metrics details sc lb R Ls Hsc) as (ks & sc0 & avg & Ek & (Nd & Ks & Al) & Ov & _ & ->). intros key v V. rewrite dget_app in V.
  assert (V' : dget key sc0 = Some v \/ dget key (overalls metrics rec_names avg) = Some v) by (destruct details; [destruct (dget key sc0); [left|right]; exact V|right; exact V]). clear V. destruct V' as [V|V].
  - destruct (Ks key v V) as (m & k & _ & _ & K & _ & Sc). apply Ek in K. apply (round_score_zero e sq M thr lim s lb m k v Sq R (Ra k K) Sc). apply Er, K.
  - rewrite overalls_get in V. destruct (str_mem key rec_names) eqn:N; [|discriminate]. destruct (str_mem key metrics) eqn:Mm; [|discriminate]. cbn [andb] in V. injection V as <-. apply str_mem_In in N, Mm. apply (overall_zero e sq M st thr lim s lb key (avg key) Sq R Ra Ex); [apply Ov; assumption|exact Er].
Qed.
Theorem C78_reconstructor_scores : forall e clock m g lb thr s sq st lim metrics details, answers (pr_ask m) g ->
  ready e s -> single_label (s_items s) lb -> in_zone "UTC" (s_items s) -> local_signal clock g lb (fun x => ~ lossy thr x) (s_items s) ->
  sqrt_like sq -> lim <> Some 0 -> ~ In "MAPE"%string metrics ->
  (exists k, round (prophet_reconstructor clock m) st k) -> (forall k, round (prophet_reconstructor clock m) st k -> 1 <= k /\ exists i, usable thr 0 s k i) ->
  exists sc, rec_evaluate sq (prophet_reconstructor clock m) s st lim thr metrics details = Ok sc /\ forall k v, dget k sc = Some v -> v = q0.
Proof.
  intros e clock m g lb thr s sq st lim metrics details A R Ls Z Ss Sq Nl Nm Ex Us. apply (zero_scores e sq (prophet_reconstructor clock m) s st lim thr metrics details lb Sq R Ls Nl Nm); [|exact Ex|exact Us].
  intros k i Hk (_ & Hi & Nl'). cbn [rm_window prophet_reconstructor] in *. destruct (prophet_points clock m g lb s A s i (i + k - 1) (labels_single e s lb R Ls) eq_refl) as (vs & E & Lv & V); [intros j x Hx; eauto|lia|].
  exists vs. split; [exists [(lb, vs)]; split; [exact E|]; cbn; rewrite String.eqb_refl; reflexivity|]. split; [lia|]. intros j v Hv. destruct (lt_nth (s_items s) (i + j)) as [x Hx]; [apply nth_lt in Hv; lia|]. exists x. split; [exact Hx|].
  pose proof (nth_lt _ _ _ Hv) as Lj. rewrite (V j x Hx ltac:(lia)) in Hv. injection Hv as <-. pose proof (nth_error_In _ _ Hx) as Ix. rewrite <- (Z x Ix). apply (Ss x Ix). apply (Nl' (i + j) x); [lia|exact Hx].
Qed.
Print Assumptions C78_reconstructor_scores.

(* The evaluation of the forecaster compares each item with the answer for the time right after the item before it, but the first
   item with the answer for the time right after the end of the series. *)
Theorem C78_evaluation : forall e c clock m g lb s u, answers (pr_ask m) g -> pr_label m = lb -> ready e s -> steady s u ->
  (forall i before v, nth_error (s_items s) i = Some before -> foresees (prophet_evaluated c clock m) s (S i) lb v <-> v = g (clock (i_tz before) (unit_shift c u (i_t before) 1))) /\
  (forall la v, last_item (s_items s) = Some la -> foresees (prophet_evaluated c clock m) s 0 lb v <-> v = g (clock (i_tz la) (unit_shift c u (i_t la) 1))).
Proof.
  intros e c clock m g lb s u A El R (Rs & _). split.
  - intros i b v Hb. apply (prophet_foresees c clock m g lb s u (S i) b v A El Rs). apply view_before. exact Hb.
  - intros la v Hla. apply (prophet_foresees c clock m g lb s u 0 la v A El Rs). apply view_empty. exact Hla.
Qed.
Print Assumptions C78_evaluation.
(* So the scores of a model which has learnt the signal are zero if and only if the signal after the end is the value of the first item. *)
Theorem C78_scores_of_a_perfect_model : forall e c clock m g lb s u tz sq lg steps metrics punctual results sc rs k x0 la, answers (pr_ask m) g -> pr_label m = lb ->
  ready e s -> steady s u -> unit_long c u (s_items s) -> single_label (s_items s) lb -> in_zone tz (s_items s) -> local_signal clock g lb (fun _ => True) (s_items s) ->
  sqrt_like sq -> log_like lg -> ev_evaluate e sq lg (prophet_evaluated c clock m) s steps metrics punctual results = Ok (sc, rs) -> asks (prophet_evaluated c clock m) metrics k ->
  nth_error (s_items s) 0 = Some x0 -> last_item (s_items s) = Some la ->
  exists v, dget (lb ++ "_" ++ k)%string sc = Some (Some v) /\ Qcle q0 v /\ (v = q0 <-> has_value x0 lb (g (clock tz (unit_shift c u (i_t la) 1)))).
Proof.
  intros e c clock m g lb s u tz sq lg steps metrics punctual results sc rs k x0 la A El R St Ul Ls Z Ss Sq Lg Ev As H0 Hla.
  destruct (C76_zero_iff_exact e sq lg (prophet_evaluated c clock m) s steps metrics punctual results sc rs lb k 0 Sq Lg R Ev) as (v & D & P & Ex); [reflexivity|apply nth_lt in H0; exact H0|intros x Hx; apply (Ls x Hx); reflexivity|exact As|].
  exists v. split; [exact D|]. split; [exact P|]. rewrite Ex. destruct (C78_evaluation e c clock m g lb s u A El R St) as [Ev1 Ev0]. pose proof (last_In _ _ Hla) as Ila. split.
  - intros H. specialize (Ev0 la). rewrite (Z la Ila) in Ev0. assert (I0 : In x0 (s_items s)) by (apply nth_error_In in H0; exact H0). pose proof (Ss x0 I0 Logic.I) as V0.
    pose proof (H 0 0 x0 _ eq_refl (Nat.le_refl 0) H0 V0) as F0. apply (Ev0 _ Hla) in F0. rewrite <- F0. exact V0.
  - intros H w i x a B Hw Hx Ha. destruct i as [|i].
    + assert (x = x0) by congruence. subst x. apply (Ev0 la a Hla). rewrite (Z la Ila). apply nth_error_In in H0. apply (has_value_unique x0 lb); [apply (ready_dict e s x0 R H0)|exact Ha|exact H].
    + destruct (lt_nth (s_items s) i) as [b Hb]; [apply nth_lt in Hx; lia|]. apply (Ev1 i b a Hb). pose proof (nth_error_In _ _ Hx) as Ix. pose proof (nth_error_In _ _ Hb) as Ib. pose proof (Ss x Ix Logic.I) as Vx. rewrite (Z x Ix) in Vx. rewrite (Z b Ib).
      assert (T : i_t x = unit_shift c u (i_t b) 1).
      { destruct St as (_ & [Sl|(Pt & _ & d & -> & Sp)]).
        - pose proof R as (_ & _ & W & _). destruct W as [(Pt & _)|(_ & Co & _)]; [exfalso; specialize (Pt b Ib); specialize (Sl b Ib); rewrite point_slot, Sl in Pt; discriminate|]. rewrite (Co i b x Hb Hx). apply (Ul b Ib). apply Sl. exact Ib.
        - rewrite shift_phys. assert (Q : Qcminus (i_t x) (i_t b) = d) by (apply (Sp i); unfold times; rewrite nth_error_map; [rewrite Hb|rewrite Hx]; reflexivity). rewrite <- Q. ring. }
      rewrite <- T. apply (has_value_unique x lb); [apply (ready_dict e s x R Ix)|exact Ha|exact Vx].
Qed.
Print Assumptions C78_scores_of_a_perfect_model.

(* The witness: a library which draws the line through the first row and the first one with another time. *)
Fixpoint other_time (t : Qc) (l : list (Qc * Qc)) : option (Qc * Qc) := match l with [] => None | r :: l => if qeqb (fst r) t then other_time t l else Some r end.
Definition line_train (rows : list (Qc * Qc)) : result (list Qc -> result (list Qc)) :=
  match rows with
  | (t0, y0) :: l => match other_time t0 l with
                     | Some (t1, y1) => Ok (fun ts => Ok (map (fun t => Qcplus y0 (Qcmult (Qcdiv (Qcminus y1 y0) (Qcminus t1 t0)) (Qcminus t t0))) ts))
                     | None => Err ValueError
                     end
  | [] => Err ValueError
  end.
Lemma other_time_some t : forall l r, other_time t l = Some r -> In r l /\ fst r <> t.
Proof. induction l as [|x l IH]; intros r H; [discriminate|]. cbn in H. destruct (qeqb_spec (fst x) t) as [E|E]; [destruct (IH r H); split; [right|]; assumption|]. injection H as <-. split; [left; reflexivity|exact E]. Qed.
Lemma other_time_none t : forall l r, other_time t l = None -> In r l -> fst r = t.
Proof. induction l as [|x l IH]; intros r H I; [destruct I|]. cbn in H. destruct (qeqb_spec (fst x) t) as [E|E]; [|discriminate]. destruct I as [<-|I]; [exact E|apply IH; assumption]. Qed.
Lemma line_learns a b : learns line_train (fun t => Qcplus (Qcmult a t) b).
Proof.
  intros rows (r & r' & I & I' & Ne) H. destruct rows as [|(t0, y0) l]; [destruct I|]. unfold line_train. destruct (other_time t0 l) as [[t1 y1]|] eqn:O.
  - destruct (other_time_some _ _ _ O) as [J N]. eexists. split; [reflexivity|]. intros ts. f_equal. apply map_ext. intros t. rewrite (H t0 y0 (or_introl eq_refl)), (H t1 y1 (or_intror J)). cbn [fst] in N. field. intros X. apply N. apply LstmProofs2.minus_eq. exact X.
  - exfalso. apply Ne. assert (X : forall z, In z ((t0, y0) :: l) -> fst z = t0) by (intros z [<-|Hz]; [reflexivity|apply (other_time_none _ _ _ O Hz)]). rewrite (X r I), (X r' I'). reflexivity.
Qed.
Definition tens (t : Qc) : Qc := Qcplus (Qcmult (qfrac 1 10) t) q1.
Definition utc (_ : string) (t : Qc) : Qc := t.
Definition rome (tz : string) (t : Qc) : Qc := if String.eqb tz "UTC" then t else Qcplus t (qz 3600).
Definition gap4 : list item := [ptl 0 1 0; ptl 10 2 0; ptl 20 7 1; ptl 30 4 0].
Lemma gap4_items : s_items (ms gap4) = gap4.
Proof. vm_compute. reflexivity. Qed.
Lemma gap4_ready : ready ideal_env (ms gap4).
Proof.
  assert (E := gap4_items). assert (D : dict_points (ms gap4)) by (apply one_label_dict; rewrite E; [discriminate|one_label_tac|vm_compute; reflexivity]).
  split; [exists None; rewrite E; vm_compute; reflexivity|]. split; [apply D|]. split; [left; apply D|]. split; [apply D|]. cbn. discriminate.
Qed.
Lemma d1_single l : (forall x, In x l -> exists w, i_data x = Some (d1 w)) -> single_label l "value".
Proof. intros H x Hx lb. destruct (H x Hx) as [w Hw]. unfold has_label, has_value. rewrite Hw. cbn. split; [intros (v & [X|[]]); congruence|]. intros ->. exists (qz w). left. reflexivity. Qed.
Lemma d1_has x w v : i_data x = Some (d1 w) -> qeqb v (qz w) = true -> has_value x "value" v.
Proof. intros D E. apply qeqb_eq in E. unfold has_value. rewrite D, E. left. reflexivity. Qed.
Lemma gap4_steady : steady (ms gap4) (UPhys (qz 10)).
Proof.
  split; [apply unit_is_eq; vm_compute; reflexivity|]. right. rewrite gap4_items. split; [intros x Hx; repeat (destruct Hx as [<-|Hx]; [reflexivity|]); destruct Hx|]. split; [cbn; lia|]. exists (qz 10). split; [reflexivity|].
  intros i a b Ha Hb. do 4 (destruct i as [|i]; [cbn in Ha, Hb; try discriminate; injection Ha as <-; injection Hb as <-; apply qeqb_eq; vm_compute; reflexivity|]). destruct i; discriminate.
Qed.
(* the hypotheses of the theorems above *)
Example C78_nonvacuous : learns line_train tens /\
  (let s := ms slots3 in ready ideal_env s /\ single_label (s_items s) "value" /\ two_times utc (s_items s) /\ local_signal utc tens "value" (fun _ => True) (s_items s) /\ steady s (UPhys (qz 10)) /\ unit_long ex_cal (UPhys (qz 10)) (s_items s) /\ in_zone "UTC" (s_items s)) /\
  (let s := ms gap4 in ready ideal_env s /\ single_label (s_items s) "value" /\ in_zone "UTC" (s_items s) /\ steady s (UPhys (qz 10)) /\ unit_long ex_cal (UPhys (qz 10)) (s_items s) /\ local_signal utc tens "value" (fun x => ~ lossy q1 x) (s_items s) /\ usable q1 0 s 1 1 /\
   exists x, nth_error (s_items s) 2 = Some x /\ lossy q1 x).
Proof.
  split; [apply line_learns|]. split; cbv zeta.
  - split; [exact slots3_ready|]. rewrite slots3_items. split; [apply d1_single, slots3_d1|]. split; [exists (slot 0 10 1), (slot 10 10 2); split; [left; reflexivity|]; split; [right; left; reflexivity|]; apply qeqb_neq; vm_compute; reflexivity|].
    split; [intros x Hx _; repeat (destruct Hx as [<-|Hx]; [eapply d1_has; [reflexivity|vm_compute; reflexivity]|]); destruct Hx|]. split; [exact slots3_steady|].
    split; [intros x Hx _; repeat (destruct Hx as [<-|Hx]; [apply qeqb_eq; vm_compute; reflexivity|]); destruct Hx|]. intros x Hx; repeat (destruct Hx as [<-|Hx]; [reflexivity|]); destruct Hx.
  - split; [exact gap4_ready|]. assert (St := gap4_steady). unfold usable. rewrite gap4_items in *. split; [apply d1_single; intros x Hx; repeat (destruct Hx as [<-|Hx]; [eexists; reflexivity|]); destruct Hx|].
    split; [intros x Hx; repeat (destruct Hx as [<-|Hx]; [reflexivity|]); destruct Hx|]. split; [exact St|]. split; [intros x Hx X; repeat (destruct Hx as [<-|Hx]; [discriminate|]); destruct Hx|].
    split; [intros x Hx L; repeat (destruct Hx as [<-|Hx]; [try (eapply d1_has; [reflexivity|vm_compute; reflexivity]); exfalso; apply L; apply (ptl_lossy _ _ _ 1); lia|]); destruct Hx|].
    split; [split; [lia|]; split; [cbn; lia|]; intros j x Hj Hx; assert (j = 1 \/ j = 2) as [-> | ->] by lia; injection Hx as <-; intros L; apply (ptl_lossy _ _ _ 1) in L; lia|].
    exists (ptl 20 7 1). split; [reflexivity|apply (ptl_lossy _ _ _ 1); lia].
Qed.
(* A series in another timezone, with one missing item: the model is asked for the UTC time of it although it was fitted on the
   local times, so it gets the value of the signal one hour before. *)
Definition in_rome (x : item) : item := mkItem (i_cls x) (i_t x) (i_end x) (i_unit x) "Europe/Rome" (i_data x) (i_idx x) (i_weight x).
Definition rome4 : list item := map in_rome [ptl 0 361 0; ptl 10 362 0; ptl 20 7 1; ptl 30 364 0].
Definition rome_fit : list item := map in_rome [ptl 0 361 0; ptl 10 362 0; ptl 20 363 0].
Theorem C78_elsewhere_differs : exists m s' x x' v, learns line_train tens /\
  ready ideal_env (ms rome_fit) /\ single_label (s_items (ms rome_fit)) "value" /\ two_times rome (s_items (ms rome_fit)) /\ local_signal rome tens "value" (fun _ => True) (s_items (ms rome_fit)) /\
  ready ideal_env (ms rome4) /\ single_label (s_items (ms rome4)) "value" /\ in_zone "Europe/Rome" (s_items (ms rome4)) /\ local_signal rome tens "value" (fun x => ~ lossy q1 x) (s_items (ms rome4)) /\
  prophet_reconstructor_fit rome line_train (ms rome_fit) = Ok m /\ rec_apply ideal_env (prophet_rec_predict rome m) q1 (ms rome4) = Ok s' /\
  nth_error (s_items (ms rome4)) 2 = Some x /\ lossy q1 x /\ nth_error (s_items s') 2 = Some x' /\ i_data x' = Some (DDict [("value"%string, v)]) /\ v = qz 3 /\ tens (rome (i_tz x) (i_t x)) = qz 363.
Proof.
  assert (E : s_items (ms rome4) = rome4) by (vm_compute; reflexivity). assert (Ef : s_items (ms rome_fit) = rome_fit) by (vm_compute; reflexivity).
  assert (R : ready ideal_env (ms rome4)).
  { assert (D : dict_points (ms rome4)) by (apply one_label_dict; rewrite E; [discriminate|one_label_tac|vm_compute; reflexivity]). split; [exists None; rewrite E; vm_compute; reflexivity|]. split; [apply D|]. split; [left; apply D|]. split; [apply D|]. cbn. discriminate. }
  assert (Rf : ready ideal_env (ms rome_fit)).
  { assert (D : dict_points (ms rome_fit)) by (apply one_label_dict; rewrite Ef; [discriminate|one_label_tac|vm_compute; reflexivity]). split; [exists None; rewrite Ef; vm_compute; reflexivity|]. split; [apply D|]. split; [left; apply D|]. split; [apply D|]. cbn. discriminate. }
  assert (Lf : single_label (s_items (ms rome_fit)) "value") by (rewrite Ef; apply d1_single; intros x Hx; repeat (destruct Hx as [<-|Hx]; [eexists; reflexivity|]); destruct Hx).
  assert (Ls : single_label (s_items (ms rome4)) "value") by (rewrite E; apply d1_single; intros x Hx; repeat (destruct Hx as [<-|Hx]; [eexists; reflexivity|]); destruct Hx).
  assert (Tf : two_times rome (s_items (ms rome_fit))) by (rewrite Ef; exists (in_rome (ptl 0 361 0)), (in_rome (ptl 10 362 0)); split; [left; reflexivity|]; split; [right; left; reflexivity|]; apply qeqb_neq; vm_compute; reflexivity).
  assert (Sf : local_signal rome tens "value" (fun _ => True) (s_items (ms rome_fit))) by (rewrite Ef; intros x Hx _; repeat (destruct Hx as [<-|Hx]; [eapply d1_has; [reflexivity|vm_compute; reflexivity]|]); destruct Hx).
  assert (Lo : forall t v l, lossy q1 (in_rome (ptl t v l)) <-> (1 <= l)%Z) by (intros t v l; apply (ptl_lossy t v l 1)).
  assert (Ss : local_signal rome tens "value" (fun x => ~ lossy q1 x) (s_items (ms rome4))) by (rewrite E; intros x Hx L; repeat (destruct Hx as [<-|Hx]; [try (eapply d1_has; [reflexivity|vm_compute; reflexivity]); exfalso; apply L; apply Lo; lia|]); destruct Hx).
  destruct (learned NotImplementedError rome line_train tens ideal_env (ms rome_fit) "value" (line_learns _ _) Rf Lf Tf Sf) as (ask & F & A).
  destruct (C78_reconstructs ideal_env rome (mkProphet "value" ask) tens "value" q1 (ms rome4) A R Ls) as (s' & E' & _ & H). rewrite E in H. destruct (H 2 _ eq_refl) as (x' & Hx' & _ & _ & LL).
  exists (mkProphet "value" ask), s', (in_rome (ptl 20 7 1)), x', (qz 3). split; [apply line_learns|]. repeat (split; [assumption|]). split; [rewrite E; intros x Hx; repeat (destruct Hx as [<-|Hx]; [reflexivity|]); destruct Hx|].
  split; [assumption|]. split; [exact F|]. split; [exact E'|]. split; [rewrite E; reflexivity|]. assert (L : lossy q1 (in_rome (ptl 20 7 1))) by (apply Lo; lia). split; [exact L|]. split; [exact Hx'|].
  split; [|split; [reflexivity|apply qeqb_eq; vm_compute; reflexivity]]. rewrite (LL L). assert (Q : tens (rome "UTC" (i_t (in_rome (ptl 20 7 1)))) = qz 3) by (apply qeqb_eq; vm_compute; reflexivity). rewrite Q. reflexivity.
Qed.
Print Assumptions C78_elsewhere_differs.

(* ===================== C79 ===================== *)
(* The fit gives the library the values in order; a series with more than one label is refused. *)
Theorem C79_fit : forall e train s, ready e s ->
  (forall lb, single_label (s_items s) lb -> exists vs, Forall2 (fun x v => has_value x lb v) (s_items s) vs /\
     (forall f, train vs = Ok f -> arima_fit train s = Ok (mkArima lb f)) /\ (forall x, train vs = Err x -> arima_fit train s = Err x)) /\
  (many_labels (s_items s) -> arima_fit train s = Err GenericException).
Proof.
  intros e train s R. split.
  - intros lb S1. destruct (arima_fit_ok train e s lb R S1) as (vs & F & E). exists vs. split; [exact F|]. rewrite E. split; intros z ->; reflexivity.
  - apply (arima_many train e s R).
Qed.
Print Assumptions C79_fit.

(* Applied to a series, it appends as many items as the steps, whose times go on with the resolution and whose values are, in order,
   the forecasts of the library for that number of steps. *)
Theorem C79_forecasts : forall e c nadd m fl s u steps s' la, ready e s -> steady s u -> unit_long c u (s_items s) -> 0 < steps ->
  forecasts e c nadd (arima_forecaster m fl (resolution s)) s steps None s' -> last_item (s_items s) = Some la ->
  exists ys, ar_forecasts m steps = Ok ys /\ length ys = steps /\ length (appended s s') = steps /\
  forall k x, nth_error (appended s s') k = Some x -> i_t x = slot_step c u (i_t la) (S k) /\ exists y, nth_error ys k = Some y /\ i_data x = Some (DDict [(ar_label m, y)]).
Proof.
  intros e c nadd m fl s u steps s' la R St Ul Hs H Hla. destruct (arima_appends e c nadd m fl (resolution s) s steps s' Hs H) as (L & ys & Ey & D & _). exists ys. split; [exact Ey|].
  assert (Ly : length ys = steps). { rewrite <- L. apply (f_equal (@length _)) in D. rewrite !map_length in D. symmetry. exact D. } split; [exact Ly|]. split; [exact L|]. intros k x Hx. split.
  - destruct (list_forecasts e c nadd (arima_forecaster m fl (resolution s)) s u steps s' R St) as (fs & s1 & ds & Ea & _ & C & _); [intros r X; injection X as <-; reflexivity|exact Hs|apply arima_no_one|exact H|]. rewrite Ea in Hx. destruct (C la Hla) as [C1 _].
    apply (after_step c u fs la C1 (Ul la (last_In _ _ Hla)) (S k) x Hx).
  - pose proof (f_equal (fun l => nth_error l k) D) as Q. cbn beta in Q. rewrite !nth_error_map, Hx in Q. cbn [option_map] in Q. destruct (nth_error ys k) as [y|]; [|discriminate]. exists y. split; [reflexivity|]. cbn in Q. congruence.
Qed.
Print Assumptions C79_forecasts.

(* It can be applied to the series it was fitted on, and to any other one with the same label and resolution which ends at the same time. *)
Theorem C79_succeeds : forall e c nadd m lb s u steps ys, ready e s -> single_label (s_items s) lb -> ar_label m = lb -> steady s u -> ar_forecasts m steps = Ok ys -> length ys = steps ->
  (exists s', fc_apply_inplace e c nadd (arima_forecaster m fit_itself (resolution s)) s steps None = (s', Ok tt)) /\
  (forall fit la lf, last_item (s_items s) = Some la -> last_item (s_items fit) = Some lf -> i_t lf = i_t la -> 
     exists s', fc_apply e c nadd (arima_forecaster m (fit_other fit) (resolution s)) s steps None = Ok s' /\ fc_apply_inplace e c nadd (arima_forecaster m (fit_other fit) (resolution s)) s steps None = (s', Ok tt)).
Proof.
  intros e c nadd m lb s u steps ys R Ls El St Ey Ly. split.
  - destruct (arima_succeeds e c nadd m fit_itself lb s u steps ys R Ls El St) as (s' & _ & H); [|exact Ey|exact Ly|exists s'; exact H]. intros s1 la1 H1 _. exists la1. split; [apply last_get; exact H1|reflexivity].
  - intros fit la lf Hla Hlf T. apply (arima_succeeds e c nadd m (fit_other fit) lb s u steps ys R Ls El St); [|exact Ey|exact Ly]. intros s1 la1 H1 (la2 & H2 & T2). exists lf. split; [apply last_get; exact Hlf|congruence].
Qed.
Print Assumptions C79_succeeds.

(* On a series which ends at another time it is refused: the series is not extended, but in place its items are marked as not forecasts. *)
Theorem C79_refused : forall e c nadd m fit r s steps la lf, ready e s -> last_item (s_items s) = Some la -> last_item (s_items fit) = Some lf -> i_t lf <> i_t la ->
  fc_apply e c nadd (arima_forecaster m (fit_other fit) r) s steps None = Err GenericException /\
  exists s', fc_apply_inplace e c nadd (arima_forecaster m (fit_other fit) r) s steps None = (s', Err GenericException) /\ Forall2 (fun x y => as_it_was x y /\ forecast_is q0 y) (s_items s) (s_items s').
Proof.
  intros e c nadd m fit r s steps la lf R Hla Hlf Ne. destruct (arima_refused e c nadd m fit r s steps la lf) as [H1 H2]; [|exact Hla|exact Hlf|exact Ne|].
  - intros x Hx. destruct (ready_data e s R x Hx) as [d ->]. discriminate.
  - split; [apply (H2 s), (ready_duplicate e s R)|]. eexists. split; [exact H1|]. cbn [s_items set_items]. clear. induction (s_items s) as [|x l IH]; cbn [map]; constructor; [apply mark_was|exact IH].
Qed.
Print Assumptions C79_refused.

(* So the forecasts cannot be continued: applied to what it returned, the same model is refused. *)
Theorem C79_cannot_go_on : forall e c nadd m fit s u steps more s' r, ready e s -> steady s u -> unit_long c u (s_items s) -> (forall t, Qclt t (unit_shift c u t 1)) -> 0 < steps ->
  forecasts e c nadd (arima_forecaster m (fit_other fit) (resolution s)) s steps None s' ->
  (forall x, fc_apply e c nadd (arima_forecaster m (fit_other fit) r) s' more None <> Ok x) /\ (forall x, fc_apply_inplace e c nadd (arima_forecaster m (fit_other fit) r) s' more None <> (x, Ok tt)).
Proof.
  intros e c nadd m fit s u steps more s' r R St Ul Fw Hs H. assert (La : exists la, last_item (s_items s) = Some la). { destruct R as (_ & (Nn & _) & _). unfold last_item. destruct (rev (s_items s)) as [|x q] eqn:E; [|eauto]. exfalso. apply Nn. rewrite <- (rev_involutive (s_items s)), E. reflexivity. }
  destruct La as [la Hla]. destruct (C79_forecasts e c nadd m (fit_other fit) s u steps s' la R St Ul Hs H Hla) as (ys & _ & _ & L & V).
  destruct (arima_appends e c nadd m (fit_other fit) (resolution s) s steps s' Hs H) as (_ & _ & _ & _ & s1 & la' & f & _ & Hla' & Ef & Tf). assert (la' = la) by congruence. subst la'. unfold fit_other in Ef.
  assert (Lf : last_item (s_items fit) = Some f). { unfold last_item. destruct (rev (s_items fit)) as [|x q] eqn:E; [exfalso|]. - assert (N : s_items fit = []) by (rewrite <- (rev_involutive (s_items fit)), E; reflexivity). unfold ts_get_i in Ef. rewrite N in Ef. vm_compute in Ef. discriminate. - rewrite (last_get fit x) in Ef by (unfold last_item; rewrite E; reflexivity). congruence. }
  destruct (C54_apply e c nadd (arima_forecaster m (fit_other fit) (resolution s)) s u steps None s' R St) as (before & fs & s2 & I & _ & _ & F2 & _ & _ & _ & _ & _); [intros q X; injection X as <-; reflexivity|discriminate|exact H|].
  assert (Lb : length before = length (s_items s)) by (symmetry; apply (F2_len _ _ _ F2)). assert (Ea : appended s s' = fs) by (unfold appended; rewrite I, <- Lb; apply skipn_exact). rewrite Ea in L, V.
  assert (Up : forall k, Qcle (i_t la) (slot_step c u (i_t la) k)). { induction k as [|k IH]; [apply Qcle_refl|]. cbn [slot_step]. apply Qclt_le_weak, (Qcle_lt_trans _ _ _ IH), Fw. }
  destruct (rev fs) as [|x q] eqn:E; [exfalso; assert (fs = []) by (rewrite <- (rev_involutive fs), E; reflexivity); rewrite H0 in L; cbn in L; lia|].
  assert (Ex : fs = rev q ++ [x]) by (rewrite <- (rev_involutive fs), E; reflexivity). assert (Hx : nth_error fs (length q) = Some x) by (rewrite Ex, nth_error_app2 by (rewrite rev_length; lia); rewrite rev_length, Nat.sub_diag; reflexivity).
  destruct (V _ _ Hx) as (Tx & _). assert (Lx : last_item (s_items s') = Some x) by (unfold last_item; rewrite I, rev_app_distr, E; reflexivity).
  assert (Ne : i_t f <> i_t x). { rewrite Tf, Tx. cbn [slot_step]. intros X. pose proof (Qcle_lt_trans _ _ _ (Up (length q)) (Fw _)) as Y. rewrite <- X in Y. exact (Qclt_not_eq _ _ Y eq_refl). }
  destruct (arima_refused e c nadd m fit r s' more x f) as [H1 H2]; [|exact Lx|exact Lf|exact Ne|].
  - intros z Hz. rewrite I in Hz. apply in_app_or in Hz. destruct Hz as [Hz|Hz].
    + destruct (F2_In_r _ _ _ z F2 Hz) as (w & Hw & (_ & D & _) & _). rewrite D. destruct (ready_data e s R w Hw) as [d ->]. discriminate.
    + apply In_nth_error in Hz. destruct Hz as [k Hk]. destruct (V k z Hk) as (_ & y & _ & ->). discriminate.
  - split; [|rewrite H1; intros z; discriminate]. intros z X. destruct (ts_duplicate e s') as [k|] eqn:D; [rewrite (H2 k eq_refl) in X; discriminate|]. unfold fc_apply in X. destruct (check_targets _ s' None); cbn [bind] in X; [rewrite D in X; discriminate|discriminate].
Qed.
Print Assumptions C79_cannot_go_on.

(* Applied again in place on the series it was fitted on, which is now longer, it is not refused and repeats the same forecasts. *)
Theorem C79_again_in_place_repeats : forall e c nadd m s steps s1 s2 r, 0 < steps ->
  fc_apply_inplace e c nadd (arima_forecaster m fit_itself r) s steps None = (s1, Ok tt) -> fc_apply_inplace e c nadd (arima_forecaster m fit_itself r) s1 steps None = (s2, Ok tt) ->
  length (appended s1 s2) = steps /\ map i_data (appended s1 s2) = map i_data (appended s s1).
Proof.
  intros e c nadd m s steps s1 s2 r Hs H1 H2. destruct (arima_appends e c nadd m fit_itself r s steps s1 Hs (or_introl H1)) as (_ & ys & Ey & D & _). destruct (arima_appends e c nadd m fit_itself r s1 steps s2 Hs (or_introl H2)) as (L & ys' & Ey' & D' & _).
  split; [exact L|]. rewrite D, D'. congruence.
Qed.
Print Assumptions C79_again_in_place_repeats.

(* It can never be evaluated on a series of at least two items. *)
Theorem C79_cannot_be_evaluated : forall e sq lg m fit s steps metrics punctual results sc rs, ready e s -> 2 <= length (s_items s) -> s_items fit <> [] ->
  ev_evaluate e sq lg (arima_evaluated m fit) s steps metrics punctual results <> Ok (sc, rs).
Proof. exact arima_never. Qed.
Print Assumptions C79_cannot_be_evaluated.

(* the witness: a library which repeats the last value *)
Definition last_train (vs : list Qc) : result (nat -> result (list Qc)) := match rev vs with v :: _ => Ok (fun n => Ok (repeat v n)) | [] => Err ValueError end.
Definition values_of (s : series) : list Z := map (fun x => match i_data x with Some (DDict [(_, v)]) => qtrunc v | _ => 0%Z end) (s_items s).
Definition times_of (s : series) : list Z := map (fun x => qtrunc (i_t x)) (s_items s).
Example C79_nonvacuous : exists m s1 s2, ready ideal_env (ms slots3) /\ single_label (s_items (ms slots3)) "value" /\ steady (ms slots3) (UPhys (qz 10)) /\ unit_long ex_cal (UPhys (qz 10)) (s_items (ms slots3)) /\ (forall t, Qclt t (unit_shift ex_cal (UPhys (qz 10)) t 1)) /\
  arima_fit last_train (ms slots3) = Ok m /\
  fc_apply_inplace ideal_env ex_cal ex_nadd (arima_forecaster m fit_itself (resolution (ms slots3))) (ms slots3) 2 None = (s1, Ok tt) /\ fc_apply_inplace ideal_env ex_cal ex_nadd (arima_forecaster m fit_itself (resolution (ms slots3))) s1 2 None = (s2, Ok tt) /\
  times_of s2 = [0; 10; 20; 30; 40; 50; 60]%Z /\ values_of s2 = [1; 2; 3; 3; 3; 3; 3]%Z /\
  forecasts ideal_env ex_cal ex_nadd (arima_forecaster m (fit_other (ms slots3)) (resolution (ms slots3))) (ms slots3) 2 None s1 /\
  fc_apply ideal_env ex_cal ex_nadd (arima_forecaster m (fit_other (ms slots3)) (resolution (ms slots3))) s1 2 None = Err GenericException.
Proof.
  eexists. eexists. eexists. split; [exact slots3_ready|]. split; [rewrite slots3_items; apply d1_single, slots3_d1|]. split; [exact slots3_steady|].
  split; [rewrite slots3_items; intros x Hx _; repeat (destruct Hx as [<-|Hx]; [apply qeqb_eq; vm_compute; reflexivity|]); destruct Hx|].
  split; [intros t; rewrite shift_phys; qlra|]. split; [vm_compute; reflexivity|]. split; [vm_compute; reflexivity|]. split; [vm_compute; reflexivity|]. split; [vm_compute; reflexivity|]. split; [vm_compute; reflexivity|]. split; [left; vm_compute; reflexivity|vm_compute; reflexivity].
Qed.
