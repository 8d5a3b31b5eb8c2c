(* WrappersProofs3.v -- proofs for C79 (ARIMA). *)
From Verif Require Import SpecWrappers BaseLemmas PropTactics DictLemmas SeriesProofs SeriesProofs2 SeriesProofs3 OpsProofs InterpProofs ReconProofs ReconProofs2 ReconProofs3 ReconProofs4 LstmProofs LstmProofs3 LstmProofs4 LstmProofs5 ForecastProofs ForecastProofs2 ForecastProofs3 AccessProofs AccessProofs2 SeriesProofs4 PropForecast EvaluateProofs2 EvaluateProofs3 EvaluateProofs4 EvaluateProofs5 AnomalyProofs AnomalyProofs2 AnomalyProofs4 WrappersProofs WrappersProofs2.
From Coq Require Import Lia.

Lemma arima_fit_ok train e s lb : ready e s -> single_label (s_items s) lb ->
  exists vs, Forall2 (fun x v => has_value x lb v) (s_items s) vs /\ arima_fit train s = match train vs with Ok f => Ok (mkArima lb f) | Err x => Err x end.
Proof.
  intros R S1. pose proof R as (_ & N & _ & D & _). destruct (mapM_with (fun x => data_at x lb) (fun x v => has_value x lb v) (s_items s)) as (vs & E & F).
  - intros x Hx. destruct (D x Hx) as [d Ed]. destruct (one_value x lb d) as [v ->]; [apply N; exact Hx|exact Ed|apply S1; exact Hx|]. exists v. assert (V : has_value x lb v) by (unfold has_value; rewrite Ed; left; reflexivity). split; [apply (ready_value e s x lb v R Hx V)|exact V].
  - exists vs. split; [exact F|]. unfold arima_fit. rewrite (labels_single e s lb R S1). cbn [bind]. rewrite E. cbn [bind]. destruct (train vs); reflexivity.
Qed.
Lemma arima_many train e s : ready e s -> many_labels (s_items s) -> arima_fit train s = Err GenericException.
Proof.
  intros R (a & b & Nab & H). pose proof R as ((tz & B) & N & _). assert (RM : ref_missing s = false) by (apply (history_ref e); [apply built_history; [exists tz; exact B|exact N]|exact N]).
  destruct (labels_of_ok s RM N) as (x & l & E & L). unfold arima_fit. rewrite L. cbn [bind]. assert (I : In x (s_items s)) by (rewrite E; left; reflexivity). destruct (H x I) as [Ha Hb]. apply item_labels_In in Ha, Hb.
  destruct (item_labels x) as [|p [|q r]]; [destruct Ha| |reflexivity]. exfalso. destruct Ha as [<-|[]]. destruct Hb as [<-|[]]. apply Nab. reflexivity.
Qed.

Definition fits_last (fl : series -> result item) (s : series) : Prop := forall s1 la1, last_item (s_items s1) = Some la1 -> (exists la, last_item (s_items s) = Some la /\ i_t la1 = i_t la) -> exists f, fl s1 = Ok f /\ i_t f = i_t la1.
Notation points m ys := (map (fun y => Some (DDict [(ar_label m, y)])) ys).

Lemma arima_no_one m fl r s1 n d : fc_predict (arima_forecaster m fl r) s1 n None <> Ok (FOne d).
Proof. cbn. destruct (fl s1) as [f|]; cbn [bind]; [|discriminate]. destruct (ts_get_i s1 (-1)) as [x|]; cbn [bind]; [|discriminate]. destruct (arima_predict m f x n); cbn [bind]; discriminate. Qed.
Lemma arima_list m fl r s1 n ds : fc_predict (arima_forecaster m fl r) s1 n None = Ok (FList ds) ->
  exists f x ys, fl s1 = Ok f /\ ts_get_i s1 (-1) = Ok x /\ i_t f = i_t x /\ ar_forecasts m n = Ok ys /\ map Some ds = points m ys.
Proof.
  cbn. destruct (fl s1) as [f|]; cbn [bind]; [|discriminate]. destruct (ts_get_i s1 (-1)) as [x|]; cbn [bind]; [|discriminate]. unfold arima_predict. destruct (qeqb_spec (i_t f) (i_t x)) as [E|E]; [|discriminate].
  destruct (ar_forecasts m n) as [ys|]; cbn [bind]; [|discriminate]. intros H. injection H as <-. exists f, x, ys. repeat (split; [auto|]). rewrite !map_map. reflexivity.
Qed.
(* what a successful application in place appends, whatever the series *)
Lemma append_all_items e : forall l s s', append_all e s l = (s', Ok tt) -> s_items s' = s_items s ++ map (mark q1) l.
Proof.
  unfold append_all. induction l as [|x l IH]; intros s s' H; cbn [forM map] in *; [injection H as <-; rewrite app_nil_r; reflexivity|]. destruct (ts_append e s (mark q1 x)) as [s1 [[]|]] eqn:A; [|discriminate].
  rewrite (IH _ _ H). destruct (ts_append_ok _ _ _ _ A) as [-> _]. rewrite <- app_assoc. reflexivity.
Qed.
Lemma next_items_data c nadd s first : forall ds la xs, next_items c nadd s first la ds = Ok xs -> map i_data xs = map Some ds.
Proof.
  induction ds as [|d ds IH]; intros la xs H; cbn [next_items] in H; [injection H as <-; reflexivity|]. destruct (next_of c nadd s (resolution s) first la d) as [x|] eqn:N; cbn [bind] in H; [|discriminate]. destruct (next_items c nadd s first x ds) as [r|] eqn:M; cbn [bind] in H; [|discriminate].
  injection H as <-. cbn [map]. f_equal; [|apply (IH x); exact M]. unfold next_of in N. destruct (is_slot first); [destruct (resolution s) as [[|u]|]; try discriminate; injection N as <-; reflexivity|]. destruct (number_plus nadd (i_t la) (resolution s)); cbn [bind] in N; [injection N as <-; reflexivity|discriminate].
Qed.
Lemma list_inplace_any e c nadd F s steps s' : 0 < steps -> (forall s1 n d, fc_predict F s1 n None <> Ok (FOne d)) -> fc_apply_inplace e c nadd F s steps None = (s', Ok tt) ->
  length (appended s s') = steps /\ exists s1 ds, s_items s1 = map (mark q0) (s_items s) /\ fc_predict F s1 steps None = Ok (FList ds) /\ map i_data (appended s s') = map Some ds /\ (forall x, In x (s_items s) -> i_data x <> None) /\ (exists l, s_items s' = map (mark q0) (s_items s) ++ l).
Proof.
  intros Hs No H. unfold fc_apply_inplace in H. destruct (check_targets F s None); [|discriminate]. destruct (mark_all (s_items s)) as [l o] eqn:M. destruct o as [[]|]; [|discriminate].
  assert (D : l = map (mark q0) (s_items s) /\ forall x, In x (s_items s) -> i_data x <> None).
  { clear - M. revert l M. induction (s_items s) as [|x r IH]; intros l M; cbn in M; [injection M as <-; split; [reflexivity|intros x []]|]. destruct (i_data x) as [d|] eqn:E; [|discriminate]. destruct (mark_all r) as [m o]. injection M as <- ->. destruct (IH m eq_refl) as [-> K]. split; [reflexivity|]. intros y [<-|Hy]; [rewrite E; discriminate|apply K, Hy]. }
  destruct D as [-> D]. set (s1 := set_items s (map (mark q0) (s_items s))) in *. assert (I1 : s_items s1 = map (mark q0) (s_items s)) by reflexivity.
  assert (NoOne : forall z n x, forecast c nadd F z n None <> Ok (IOne x)).
  { intros z n x E. unfold forecast in E. destruct (check_targets F z None); cbn [bind] in E; [|discriminate]. destruct (fc_predict F z n None) as [[d|ds]|] eqn:P; cbn [bind] in E; [apply (No _ _ _ P)| |discriminate].
    destruct (ts_get_i z (-1)); cbn [bind] in E; [|discriminate]. destruct ds as [|d ds]; [discriminate|]. destruct (ts_get_i z 0); cbn [bind] in E; [|discriminate]. match type of E with bind ?a _ = _ => destruct a end; cbn [bind] in E; discriminate. }
  destruct (forecast c nadd F s1 steps None) as [[x|xs]|ex] eqn:Fo; [exfalso; apply (NoOne _ _ _ Fo)| |].
  - unfold forecast in Fo. destruct (check_targets F s1 None); cbn [bind] in Fo; [|discriminate]. destruct (fc_predict F s1 steps None) as [[d|ds]|] eqn:P; cbn [bind] in Fo; [exfalso; apply (No _ _ _ P)| |discriminate].
    destruct (ts_get_i s1 (-1)) as [la|]; cbn [bind] in Fo; [|discriminate].
    assert (Dx : map i_data xs = map Some ds).
    { destruct ds as [|d ds]; [injection Fo as <-; reflexivity|]. destruct (ts_get_i s1 0) as [f|]; cbn [bind] in Fo; [|discriminate]. destruct (next_items c nadd s1 f la (d :: ds)) as [l|] eqn:Ni; cbn [bind] in Fo; [|discriminate]. injection Fo as <-. apply (next_items_data c nadd s1 f _ la); exact Ni. }
    destruct (append_all e s1 xs) as [s2 [[]|ey]] eqn:A.
    + destruct (Nat.eqb_spec (length (s_items s) + steps) (length (s_items s2))) as [L|L]; [|discriminate]. injection H as <-. pose proof (append_all_items e xs s1 s2 A) as I2. rewrite I1 in I2.
      assert (Ap : appended s s2 = map (mark q1) xs) by (unfold appended; rewrite I2; rewrite <- (map_length (mark q0) (s_items s)); apply skipn_exact). rewrite Ap. split; [rewrite I2, app_length, map_length in L; lia|].
      exists s1, ds. split; [exact I1|]. split; [exact P|]. split; [rewrite map_map; cbn; rewrite <- Dx; apply map_ext; reflexivity|]. split; [exact D|eauto].
    + exfalso. destruct ey; try discriminate. destruct steps as [|n]; [lia|]. cbn [seq forM] in H. unfold one_step in H. destruct (forecast c nadd F s2 1 None) as [[x|ys]|] eqn:F1; [apply (NoOne _ _ _ F1)|discriminate|discriminate].
  - exfalso. destruct ex; try discriminate. destruct steps as [|n]; [lia|]. cbn [seq forM] in H. unfold one_step in H. destruct (forecast c nadd F s1 1 None) as [[x|ys]|] eqn:F1; [apply (NoOne _ _ _ F1)|discriminate|discriminate].
Qed.
Lemma apply_then e c nadd F s steps s' : fc_apply e c nadd F s steps None = Ok s' -> exists k, ts_duplicate e s = Ok k /\ fc_apply_inplace e c nadd F k steps None = (s', Ok tt).
Proof.
  unfold fc_apply. destruct (check_targets F s None); cbn [bind]; [|discriminate]. destruct (ts_duplicate e s) as [k|]; cbn [bind]; [|discriminate]. destruct (fc_apply_inplace e c nadd F k steps None) as [z [[]|]] eqn:A; cbn [bind]; [|discriminate]. intros H. injection H as <-. eauto.
Qed.
Lemma appended_same s k s' : s_items k = s_items s -> appended k s' = appended s s'.
Proof. unfold appended. intros ->. reflexivity. Qed.
Lemma last_marked s s1 v : s_items s1 = map (mark v) (s_items s) -> forall x, ts_get_i s1 (-1) = Ok x -> exists la, last_item (s_items s) = Some la /\ x = mark v la.
Proof.
  intros E x H. destruct (last_item (s_items s)) as [la|] eqn:L.
  - exists la. split; [reflexivity|]. assert (H1 : last_item (s_items s1) = Some (mark v la)) by (rewrite E; unfold last_item in *; rewrite <- map_rev; destruct (rev (s_items s)); [discriminate|]; injection L as ->; reflexivity). rewrite (last_get _ _ H1) in H. congruence.
  - exfalso. unfold last_item in L. destruct (rev (s_items s)) as [|a r] eqn:Er; [|discriminate]. assert (s_items s = []) by (rewrite <- (rev_involutive (s_items s)), Er; reflexivity). rewrite H0 in E. cbn in E. unfold ts_get_i in H. rewrite E in H. vm_compute in H. discriminate.
Qed.
Lemma arima_appends e c nadd m fl r s steps s' : 0 < steps -> forecasts e c nadd (arima_forecaster m fl r) s steps None s' ->
  length (appended s s') = steps /\ exists ys, ar_forecasts m steps = Ok ys /\ map i_data (appended s s') = points m ys /\
  exists s1 la f, s_items s1 = map (mark q0) (s_items s) /\ last_item (s_items s) = Some la /\ fl s1 = Ok f /\ i_t f = i_t la.
Proof.
  intros Hs H. assert (X : exists k, s_items k = s_items s /\ fc_apply_inplace e c nadd (arima_forecaster m fl r) k steps None = (s', Ok tt)).
  { destruct H as [H|H]; [eauto|]. destruct (apply_then _ _ _ _ _ _ _ H) as (k & D & A). exists k. split; [apply (duplicate_items e); exact D|exact A]. }
  destruct X as (k & Ek & A). destruct (list_inplace_any e c nadd _ k steps s' Hs (arima_no_one m fl r) A) as (L & s1 & ds & I1 & P & D & _). rewrite (appended_same s k s' Ek) in *. split; [exact L|].
  destruct (arima_list m fl r s1 steps ds P) as (f & x & ys & Ef & Ex & T & Ey & Ed). exists ys. split; [exact Ey|]. split; [rewrite D; exact Ed|]. rewrite Ek in I1. destruct (last_marked s s1 q0 I1 x Ex) as (la & Hla & ->). exists s1, la, f. auto.
Qed.
Lemma arima_refused e c nadd m fit r s steps la lf : (forall x, In x (s_items s) -> i_data x <> None) -> last_item (s_items s) = Some la -> last_item (s_items fit) = Some lf -> i_t lf <> i_t la ->
  fc_apply_inplace e c nadd (arima_forecaster m (fit_other fit) r) s steps None = (set_items s (map (mark q0) (s_items s)), Err GenericException) /\
  forall k, ts_duplicate e s = Ok k -> fc_apply e c nadd (arima_forecaster m (fit_other fit) r) s steps None = Err GenericException.
Proof.
  assert (X : forall s la, (forall x, In x (s_items s) -> i_data x <> None) -> last_item (s_items s) = Some la -> last_item (s_items fit) = Some lf -> i_t lf <> i_t la ->
    fc_apply_inplace e c nadd (arima_forecaster m (fit_other fit) r) s steps None = (set_items s (map (mark q0) (s_items s)), Err GenericException)).
  { clear s la. intros s la D L Lf Ne. unfold fc_apply_inplace, check_targets. cbn [fc_targets arima_forecaster]. rewrite (mark_all_ok _ D). set (s1 := set_items s (map (mark q0) (s_items s))).
    assert (H1 : last_item (s_items s1) = Some (mark q0 la)) by (cbn; unfold last_item in *; rewrite <- map_rev; destruct (rev (s_items s)); [discriminate|]; injection L as ->; reflexivity).
    unfold forecast, check_targets. cbn [fc_targets fc_predict arima_forecaster bind]. unfold fit_other. rewrite (last_get _ _ Lf). cbn [bind]. rewrite (last_get _ _ H1). cbn [bind]. unfold arima_predict. change (i_t (mark q0 la)) with (i_t la). rewrite qeqb_false by exact Ne. reflexivity. }
  intros D L Lf Ne. split; [apply (X s la); assumption|]. intros k Dk. unfold fc_apply, check_targets. cbn [fc_targets arima_forecaster bind]. rewrite Dk. cbn [bind]. pose proof (duplicate_items e s k Dk) as Ek. rewrite (X k la); [reflexivity| | |exact Lf|exact Ne]; rewrite Ek; assumption.
Qed.
Lemma arima_succeeds e c nadd m fl lb s u steps ys : ready e s -> single_label (s_items s) lb -> ar_label m = lb -> steady s u -> fits_last fl s -> ar_forecasts m steps = Ok ys -> length ys = steps ->
  exists s', fc_apply e c nadd (arima_forecaster m fl (resolution s)) s steps None = Ok s' /\ fc_apply_inplace e c nadd (arima_forecaster m fl (resolution s)) s steps None = (s', Ok tt).
Proof.
  intros R Ls El S Hf Ey Ly. set (F := arima_forecaster m fl (resolution s)). assert (La : exists la, last_item (s_items s) = Some la).
  { destruct R as (_ & (Nn & _) & _). unfold last_item. destruct (rev (s_items s)) as [|x r] eqn:E; [|eauto]. exfalso. apply Nn. rewrite <- (rev_involutive (s_items s)), E. reflexivity. }
  destruct La as [la Hla]. set (s1 := set_items s (map (mark q0) (s_items s))).
  assert (H1 : last_item (s_items s1) = Some (mark q0 la)) by (cbn; unfold last_item in *; rewrite <- map_rev; destruct (rev (s_items s)); [discriminate|]; injection Hla as ->; reflexivity).
  destruct (Hf s1 _ H1) as (f & Ef & Tf); [exists la; split; [exact Hla|reflexivity]|].
  destruct (succeeds_list e c nadd u F s steps R S) with (ds := map (fun y => DDict [(lb, y)]) ys) as [s' E].
  - reflexivity.
  - cbn [fc_predict F arima_forecaster]. fold s1. rewrite Ef. cbn [bind]. rewrite (last_get _ _ H1). cbn [bind]. unfold arima_predict. destruct (qeqb_spec (i_t f) (i_t (mark q0 la))) as [_|Ne]; [|contradiction]. rewrite Ey. cbn [bind]. rewrite map_map, El. reflexivity.
  - rewrite map_length. exact Ly.
  - intros d Hd. apply in_map_iff in Hd. destruct Hd as (y & <- & _). eexists. split; [reflexivity|]. intros x lb' Hx. rewrite (Ls x Hx lb'). cbn. split; [intros [<-|[]]; reflexivity|intros ->; left; reflexivity].
  - exists s'. split; [apply inplace_apply; assumption|exact E].
Qed.
(* ---------------- evaluation ---------------- *)
Lemma arima_foresees m fit s i lb v la lf : view_get (mkView s 0 (Z.of_nat i)) (-1) = Ok la -> last_item (s_items fit) = Some lf -> foresees (arima_evaluated m fit) s i lb v -> i_t lf = i_t la.
Proof.
  intros V L (p & G & E). cbn [ev_context ev_predict arima_evaluated] in E. rewrite (last_get _ _ L) in E. cbn [bind] in E. rewrite V in E. cbn [bind] in E. unfold arima_predict in E. destruct (qeqb_spec (i_t lf) (i_t la)); [assumption|discriminate].
Qed.
Lemma arima_never e sq lg m fit s steps metrics punctual results sc rs : ready e s -> 2 <= length (s_items s) -> s_items fit <> [] -> ev_evaluate e sq lg (arima_evaluated m fit) s steps metrics punctual results <> Ok (sc, rs).
Proof.
  intros R L2 Nf H. destruct (evaluate_unfold _ _ _ _ _ _ _ _ _ _ _ R H) as (ls & lps & rs0 & st & _ & _ & _ & Hl & M & _).
  assert (Lb : exists lb, In lb ls).
  { pose proof R as ((tz & B) & N & _). assert (RM : ref_missing s = false) by (apply (history_ref e); [apply built_history; [exists tz; exact B|exact N]|exact N]). destruct (labels_of_ok s RM N) as (x & l & E & L). destruct (ready_labels_of e s _ R L) as [_ Q].
    assert (Nx : numeric_item x) by (apply N; rewrite E; left; reflexivity). pose proof (item_labels_nonempty x Nx) as Ne. destruct (item_labels x) as [|lb r]; [contradiction|]. exists lb. apply Hl. cbn. intros y Hy. apply (Q y lb Hy). left. reflexivity. }
  destruct Lb as [lb Il]. apply mapM_F2 in M. apply In_nth_error in Il. destruct Il as [k Hk]. destruct (F2_get _ _ _ M _ _ Hk) as (lp & _ & E). destruct (ev_pairs (arima_evaluated m fit) s lb) as [l|] eqn:P; [|discriminate].
  apply pairs_shape in P. cbn [start_of ev_window arima_evaluated] in P. rewrite Nat.sub_0_r in P.
  assert (Lf : exists lf, last_item (s_items fit) = Some lf) by (unfold last_item; destruct (rev (s_items fit)) as [|x r] eqn:Er; [exfalso; apply Nf; rewrite <- (rev_involutive (s_items fit)), Er; reflexivity|eauto]). destruct Lf as [lf Lf].
  assert (La : exists la, last_item (s_items s) = Some la) by (unfold last_item; destruct (rev (s_items s)) as [|x r] eqn:Er; [exfalso; rewrite <- (rev_involutive (s_items s)), Er in L2; cbn in L2; lia|eauto]). destruct La as [la La].
  destruct (lt_nth (s_items s) 0) as [x0 H0]; [lia|].
  assert (F : forall i p, i < length (s_items s) -> view_get (mkView s 0 (Z.of_nat i)) (-1) = Ok p -> i_t lf = i_t p).
  { intros i p Hi V. assert (Hq : nth_error (seq 0 (length (s_items s))) i = Some i) by (apply seq_nth_error; lia). destruct (F2_get _ _ _ P _ _ Hq) as (ap & _ & _ & Q). apply foresees_iff in Q. apply (arima_foresees m fit s i lb _ p lf V Lf Q). }
  pose proof (F 0 la ltac:(lia) (view_empty s la La)) as T0. pose proof (F 1 x0 ltac:(lia) (view_before s 0 x0 H0)) as T1.
  (* the first and the last item have different times *)
  assert (Hlast : nth_error (s_items s) (length (s_items s) - 1) = Some la). { clear - La. unfold last_item in La. rewrite <- (rev_involutive (s_items s)). destruct (rev (s_items s)) as [|z r]; [discriminate|]. injection La as ->. cbn [rev]. rewrite app_length. cbn [length]. replace (length (rev r) + 1 - 1) with (length (rev r)) by lia. rewrite nth_error_app2 by lia. rewrite Nat.sub_diag. reflexivity. }
  assert (Lt : Qclt (i_t x0) (i_t la)).
  { pose proof R as (_ & _ & W & _). apply wf_items_times in W. apply (W 0 (length (s_items s) - 1)); [lia| |]; unfold times; rewrite nth_error_map; [rewrite H0|rewrite Hlast]; reflexivity. }
  rewrite <- T0, T1 in Lt. apply Qclt_not_eq in Lt. apply Lt. reflexivity.
Qed.
