(* EvaluateProofs2.v -- the evaluation of a forecaster: what it reports (C76). *)
From Verif Require Import SeriesProofs3 SeriesProofs4 AccessProofs AccessProofs2 OpsProofs OpsProofs2 OpsProofs5 InterpProofs ReconProofs2 LstmProofs LstmProofs4 LstmProofs5 AnomalyProofs AnomalyProofs2 AnomalyProofs3 AnomalyProofs4 AnomalyProofs5 DictLemmas UtilsProofs PropTactics BaseLemmas.
From Verif Require Export EvaluateProofs.
From Coq Require Import Lia.

Lemma ready_item e s i x : ready e s -> nth_error (s_items s) i = Some x -> exists d, i_data x = Some (DDict d) /\ numeric_item x.
Proof. intros (_ & N & _ & D & _) X. apply nth_error_In in X. destruct (D x X) as [d Hd]. exists d. split; [exact Hd|]. apply N. exact X. Qed.
Lemma actual_iff e s i lb a : ready e s -> (actual_of s i lb = Ok a <-> exists x, nth_error (s_items s) i = Some x /\ has_value x lb a).
Proof.
  intros R. split.
  - intros H. apply actual_ok in H. destruct H as (x & X & V). exists x. split; [exact X|apply data_at_value; exact V].
  - intros (x & X & V). unfold actual_of. rewrite (ts_get_i_nat _ _ _ X). cbn [bind]. destruct (ready_item e s i x R X) as (d & D & N). exact (data_at_ok x lb a d N D V).
Qed.
Lemma foresees_iff F s i lb v : ev_predicted F s i lb = Ok v <-> foresees F s i lb v.
Proof.
  unfold ev_predicted, foresees. destruct (ev_context F) eqn:C; cbn [bind]; split.
  - destruct (ts_get_i s (Z.of_nat i)) as [x|] eqn:X; cbn [bind]; [|discriminate]. apply get_nat in X. unfold item_data. destruct (i_data x) as [d|] eqn:D; cbn [bind]; [|discriminate]. destruct (ev_predict F (mkView s 0 (Z.of_nat i)) (Some d)) as [p|] eqn:P; cbn [bind]; [|discriminate].
    intros H. apply predicted_value_iff in H. exists p. split; [exact H|]. exists x, d. auto.
  - intros (p & G & x & d & X & D & P). rewrite (ts_get_i_nat _ _ _ X). cbn [bind]. unfold item_data. rewrite D. cbn [bind]. rewrite P. cbn [bind]. apply predicted_value_iff. exact G.
  - destruct (ev_predict F (mkView s 0 (Z.of_nat i)) None) as [p|] eqn:P; cbn [bind]; [|discriminate]. intros H. apply predicted_value_iff in H. exists p. auto.
  - intros (p & G & P). rewrite P. cbn [bind]. apply predicted_value_iff. exact G.
Qed.
Lemma foresees_unique F s i lb v w : foresees F s i lb v -> foresees F s i lb w -> v = w.
Proof. intros A B. apply foresees_iff in A, B. congruence. Qed.
Lemma start_begins F : begins F (start_of F).
Proof. unfold begins, start_of. destruct (ev_window F); reflexivity. Qed.
Lemma begins_start F w : begins F w -> w = start_of F.
Proof. unfold begins, start_of. destruct (ev_window F); exact (fun H => H). Qed.

(* ---------------- the pairs ---------------- *)
Lemma filter_from w : forall n a, filter (fun i => negb (Nat.ltb i w)) (seq a n) = seq (Nat.max a w) (a + n - Nat.max a w).
Proof.
  induction n as [|n IH]; intros a; cbn [seq filter]; [replace (a + 0 - Nat.max a w) with 0 by lia; reflexivity|]. rewrite IH. destruct (Nat.ltb_spec a w) as [H|H]; cbn [negb].
  - replace (Nat.max (S a) w) with (Nat.max a w) by lia. f_equal. lia.
  - replace (Nat.max (S a) w) with (S (Nat.max a w)) by lia. replace (a + S n - Nat.max a w) with (S (S a + n - S (Nat.max a w))) by lia. cbn [seq]. f_equal. lia.
Qed.
Lemma pairs_shape F s lb l : ev_pairs F s lb = Ok l -> Forall2 (fun i ap => actual_of s i lb = Ok (fst ap) /\ ev_predicted F s i lb = Ok (snd ap)) (seq (start_of F) (length (s_items s) - start_of F)) l.
Proof.
  unfold ev_pairs. rewrite filter_from, Nat.max_0_l. cbn [plus]. intros H. apply mapM_F2 in H. revert H. apply F2_impl. intros i ap E.
  destruct (actual_of s i lb) as [a|]; cbn [bind] in E; [|discriminate]. destruct (ev_predicted F s i lb) as [p|]; cbn [bind] in E; [|discriminate]. injection E as <-. split; reflexivity.
Qed.
Lemma nth_error_map' {A B} (f : A -> B) l : forall k b, nth_error (map f l) k = Some b -> exists a, nth_error l k = Some a /\ f a = b.
Proof. induction l as [|x l IH]; intros [|k] b H; cbn in H; try discriminate; [injection H as <-; exists x; split; reflexivity|exact (IH k b H)]. Qed.
Lemma pairs_compared e F s lb l : ready e s -> ev_pairs F s lb = Ok l -> compared F s lb (map fst l) (map snd l).
Proof.
  intros R H. apply pairs_shape in H. exists (start_of F). split; [apply start_begins|]. assert (Ln := F2_len _ _ _ H). rewrite seq_length in Ln. split; [rewrite map_length; lia|]. split; [rewrite !map_length; reflexivity|].
  intros k a p A P. apply nth_error_map' in A, P. destruct A as ([a' p'] & A & <-), P as ([a2 p2] & P & <-). rewrite A in P. injection P as <- <-. cbn [fst snd].
  destruct (F2_get_r _ _ _ H k _ A) as (i & I & Ha & Hp). assert (K : k < length (s_items s) - start_of F) by (rewrite <- (seq_length (length (s_items s) - start_of F) (start_of F)); apply nth_error_Some; rewrite I; discriminate).
  rewrite seq_nth_error in I by exact K. injection I as <-. cbn [fst snd] in *. apply (actual_iff e) in Ha; [|exact R]. destruct Ha as (x & X & V). exists x. split; [exact X|]. split; [exact V|]. apply foresees_iff. exact Hp.
Qed.

(* ---------------- the metrics ---------------- *)
Lemma map2M_inv (f : Qc -> Qc -> result Qc) (g : Qc -> Qc -> Qc) : (forall x y v, f x y = Ok v -> v = g x y) -> forall a b vs, map2M f a b = Ok vs -> vs = map (fun xy => g (fst xy) (snd xy)) (combine a b) /\ forall x y, In (x, y) (combine a b) -> exists v, f x y = Ok v.
Proof.
  intros H a. induction a as [|x a IH]; intros [|y b] vs E; cbn [map2M] in E; try (injection E as <-; split; [reflexivity|intros u w []]).
  destruct (f x y) as [z|] eqn:Z; cbn [bind] in E; [|discriminate]. destruct (map2M f a b) as [zs|] eqn:Zs; cbn [bind] in E; [|discriminate]. injection E as <-. destruct (IH b zs Zs) as [-> A]. cbn [combine map fst snd]. rewrite (H x y z Z). split; [reflexivity|]. intros u w [E|I]; [injection E as <- <-; exists z; exact Z|exact (A u w I)].
Qed.
Lemma mean_inv f g a b v : (forall x y v, f x y = Ok v -> v = g x y) -> mean_error f a b = Ok v -> a <> [] /\ v = mean g a b /\ forall x y, In (x, y) (combine a b) -> exists v, f x y = Ok v.
Proof.
  intros H E. unfold mean_error, same_lengths in E. destruct (Nat.eqb (length a) (length b)); cbn [bind] in E; [|discriminate]. destruct (map2M f a b) as [vs|] eqn:V; cbn [bind] in E; [|discriminate]. destruct (map2M_inv f g H a b vs V) as [-> D]. rewrite sum_sum2 in E. unfold qdiv in E. destruct (qeqb_spec (qn (length a)) q0) as [Z|Z]; [discriminate|]. injection E as <-.
  split; [intros ->; apply Z; reflexivity|]. split; [reflexivity|exact D].
Qed.
Lemma max_inv f g a b v : (forall x y v, f x y = Ok v -> v = g x y) -> max_error f a b = Ok v -> ((a = [] /\ v = None) \/ (exists m, v = Some m /\ greatest g a b m)) /\ forall x y, In (x, y) (combine a b) -> exists v, f x y = Ok v.
Proof.
  intros H E. pose proof E as E'. unfold max_error, same_lengths in E. destruct (Nat.eqb_spec (length a) (length b)) as [L|L]; cbn [bind] in E; [|discriminate]. destruct (map2M f a b) as [vs|] eqn:V; cbn [bind] in E; [|discriminate]. destruct (map2M_inv f g H a b vs V) as [_ D]. split; [|exact D].
  destruct a as [|x a]; [left; destruct b; [|discriminate]; cbn in V; injection V as <-; injection E as <-; split; reflexivity|]. right. destruct (max_metric f g (x :: a) b L ltac:(discriminate)) as (m & M & G).
  { intros u w I. destruct (D u w I) as [z Z]. rewrite Z. f_equal. apply (H u w z Z). }
  rewrite E' in M. injection M as ->. exists m. split; [reflexivity|exact G].
Qed.
Lemma abs_err_is x y v : abs_err x y = Ok v -> v = distance x y. Proof. intros H. injection H as <-. reflexivity. Qed.
Lemma sq_err_is x y v : sq_err x y = Ok v -> v = squared x y. Proof. intros H. injection H as <-. reflexivity. Qed.
Lemma perc_err_is x y v : perc_err x y = Ok v -> v = relative x y.
Proof. unfold perc_err, qdiv. destruct (qeqb x q0); cbn [bind]; [discriminate|]. intros H. injection H as <-. reflexivity. Qed.
Lemma perc_err_nz x y v : perc_err x y = Ok v -> x <> q0.
Proof. unfold perc_err, qdiv. destruct (qeqb_spec x q0) as [E|E]; cbn [bind]; [discriminate|]. intros _. exact E. Qed.
Lemma log_err_is lg x y v : log_err lg x y = Ok v -> v = log_ratio lg x y.
Proof. unfold log_err, qdiv. destruct (qeqb y q0); cbn [bind]; [discriminate|]. destruct (qleb (Qcdiv x y) q0); [discriminate|]. intros H. injection H as <-. reflexivity. Qed.
Lemma log_err_pos lg x y v : log_err lg x y = Ok v -> Qclt q0 (Qcdiv x y).
Proof. unfold log_err, qdiv. destruct (qeqb y q0); cbn [bind]; [discriminate|]. destruct (qleb_spec (Qcdiv x y) q0) as [H|H]; [discriminate|]. intros _. apply Qcnot_le_lt. exact H. Qed.
Lemma in_first (a b : list Qc) x : length a = length b -> In x a -> exists y, In (x, y) (combine a b).
Proof.
  revert b. induction a as [|u a IH]; intros [|w b] L I; cbn [length] in L; try discriminate; [destruct I|]. cbn [combine]. destruct I as [<-|I]; [exists w; left; reflexivity|]. destruct (IH b ltac:(lia) I) as [y Y]. exists y. right. exact Y.
Qed.
Lemma no_zero a b : length a = length b -> (forall x y, In (x, y) (combine a b) -> exists v, perc_err x y = Ok v) -> ~ In q0 a.
Proof. intros L D I. destruct (in_first a b q0 L I) as [y Y]. destruct (D _ _ Y) as [v V]. exact (perc_err_nz _ _ _ V eq_refl). Qed.
Lemma ratios lg a b : (forall x y, In (x, y) (combine a b) -> exists v, log_err lg x y = Ok v) -> positive_ratios a b.
Proof. intros D i x y X Y. destruct (D x y) as [v V]; [apply combine_nth_iff; exists i; split; assumption|]. exact (log_err_pos _ _ _ _ V). Qed.
Lemma mae_inv a b v : length a = length b -> mae a b = Ok v -> a <> [] /\ v = mean distance a b.
Proof.
  intros L H. assert (M : mean_error abs_err a b = Ok v) by (destruct a as [|x a]; [destruct b; discriminate|exact H]). destruct (mean_inv _ _ _ _ _ abs_err_is M) as (N & E & _). split; assumption.
Qed.
Lemma mse_inv a b v : length a = length b -> mse a b = Ok v -> a <> [] /\ v = mean squared a b.
Proof.
  intros L H. assert (M : mean_error sq_err a b = Ok v) by (destruct a as [|x a]; [destruct b; discriminate|exact H]). destruct (mean_inv _ _ _ _ _ sq_err_is M) as (N & E & _). split; assumption.
Qed.
Lemma aggregate_scored sq lg m f col a p v : In (m, f, col) (aggregates sq lg) -> length a = length p -> f a p = Ok v -> scored sq lg a p m v.
Proof.
  intros I L V. unfold aggregates, num in I. repeat (destruct I as [I|I]; [injection I as <- <- _|]); [| | | | | | | |destruct I].
  - destruct (mse a p) as [q|] eqn:Q; cbn [bind] in V; [|discriminate]. injection V as <-. destruct (mse_inv a p q L Q) as [N ->]. constructor. exact N.
  - destruct (mse a p) as [q|] eqn:Q; cbn [bind] in V; [|discriminate]. injection V as <-. destruct (mse_inv a p q L Q) as [N ->]. constructor. exact N.
  - destruct (mae a p) as [q|] eqn:Q; cbn [bind] in V; [|discriminate]. injection V as <-. destruct (mae_inv a p q L Q) as [N ->]. constructor. exact N.
  - destruct (max_inv _ _ _ _ _ abs_err_is V) as [[[-> ->]|(z & -> & G)] _]; [apply ScoredNone; [reflexivity|cbn; tauto]|constructor; exact G].
  - destruct (mape a p) as [q|] eqn:Q; cbn [bind] in V; [|discriminate]. injection V as <-. destruct (mean_inv _ _ _ _ _ perc_err_is Q) as (N & -> & D). constructor; [exact N|exact (no_zero a p L D)].
  - destruct (max_inv _ _ _ _ _ perc_err_is V) as [[[-> ->]|(z & -> & G)] D]; [apply ScoredNone; [reflexivity|cbn; tauto]|constructor; [exact G|exact (no_zero a p L D)]].
  - destruct (male lg a p) as [q|] eqn:Q; cbn [bind] in V; [|discriminate]. injection V as <-. destruct (mean_inv _ _ _ _ _ (log_err_is lg) Q) as (N & -> & D). constructor; [exact N|exact (ratios lg a p D)].
  - destruct (max_inv _ _ _ _ _ (log_err_is lg) V) as [[[-> ->]|(z & -> & G)] D]; [apply ScoredNone; [reflexivity|cbn; tauto]|constructor; [exact G|exact (ratios lg a p D)]].
Qed.

(* ---------------- the whole ---------------- *)
Lemma sel_from a : forall l i, sel_i (Some a) None i l = skipn (Z.to_nat (a - i)) l.
Proof.
  induction l as [|x l IH]; intros i; cbn [sel_i]; [rewrite skipn_nil; reflexivity|]. destruct (Z.ltb_spec i a) as [H|H].
  - rewrite IH. replace (Z.to_nat (a - i)) with (S (Z.to_nat (a - (i + 1)))) by lia. reflexivity.
  - rewrite IH. replace (Z.to_nat (a - i)) with 0 by lia. replace (Z.to_nat (a - (i + 1))) with 0 by lia. reflexivity.
Qed.
Lemma slice_from e s w k : ts_brackets e s (BInt (Z.of_nat w)) BNone = Ok k -> s_items k = skipn w (s_items s).
Proof.
  unfold ts_brackets. destruct (s_items s) as [|x l] eqn:E; [discriminate|]. cbn [bound_i bind]. unfold ts_slice_i. rewrite E. cbn [option_map].
  assert (Nn : norm_i (length (x :: l)) (Z.of_nat w) = Z.of_nat w) by (unfold norm_i; destruct (Z.ltb_spec (Z.of_nat w) 0); [lia|reflexivity]). rewrite Nn, sel_from, Z.sub_0_r, Nat2Z.id.
  destruct (ts_of_items e (skipn w (x :: l))) as [r|] eqn:T; cbn [bind]; [|discriminate]. intros H. injection H as <-. unfold ts_of_items in T. apply ts_new_items in T. rewrite <- T. unfold reset_ref. destruct (s_items r) as [|y r'] eqn:Er; [exact Er|]. destruct (i_data y); [unfold set_ref; cbn [s_items]|]; exact Er.
Qed.
Lemma asks_iff F metrics m : In m (metrics_of F metrics) <-> asks F metrics m.
Proof. unfold metrics_of, asks. destruct metrics as [l|]; [reflexivity|]. destruct (ev_minimized F) as [k|]; cbn [In]; firstorder congruence. Qed.
Lemma labels_evaluates e F s ls : ready e s -> match ev_targets F with Some t => Ok t | None => labels_of s end = Ok ls -> forall lb, In lb ls <-> evaluates F s lb.
Proof.
  intros R H lb. unfold evaluates. destruct (ev_targets F) as [t|]; [injection H as ->; reflexivity|]. destruct (ready_labels_of e s ls R H) as [_ L]. pose proof R as ((tz & B) & N & _). destruct (ready_labels_known e s R) as (x & l & E & _).
  split; [intros I y J; apply (L y lb J); exact I|]. intros A. apply (L x lb); [rewrite E; left; reflexivity|]. apply A. rewrite E. left. reflexivity.
Qed.
Lemma evaluate_unfold e sq lg F s steps metrics punctual results sc rs : ready e s -> ev_evaluate e sq lg F s steps metrics punctual results = Ok (sc, rs) ->
  exists ls lps rs0 st, steps <= 1 /\ (forall m, asks F metrics m -> In m metric_names) /\ (forall m, In m punctual -> In m punctual_names) /\
    (forall lb, In lb ls <-> evaluates F s lb) /\ mapM (fun lb => do l <- ev_pairs F s lb; Ok (lb, l)) ls = Ok lps /\
    foldM (ev_label sq lg (metrics_of F metrics) punctual) lps ([], option_map s_items rs0) = Ok st /\ sc = fst st /\
    rs = match rs0, snd st with Some k, Some l => Some (set_items k l) | _, _ => None end /\
    ((results = false /\ rs0 = None) \/ (results = true /\ steps = 1 /\ exists k w, rs0 = Some k /\ ev_window F = Some w /\ s_items k = skipn w (s_items s))).
Proof.
  intros R H. unfold ev_evaluate in H. destruct (s_items s) as [|x0 l0] eqn:Es; [discriminate|]. rewrite <- Es in *. clear Es x0 l0. destruct (Nat.ltb_spec 1 steps) as [S1|S1]; [discriminate|].
  destruct (forallb (fun m => str_mem m metric_names) (metrics_of F metrics)) eqn:Fm; cbn [negb] in H; [|discriminate]. destruct (forallb (fun m => str_mem m punctual_names) punctual) eqn:Fp; cbn [negb] in H; [|discriminate].
  rewrite forallb_forall in Fm, Fp. rewrite (ready_duplicate e s R) in H. cbn [bind] in H.
  match type of H with bind ?a _ = _ => destruct a as [rs0|] eqn:E0; cbn [bind] in H; [|discriminate] end. match type of H with bind ?a _ = _ => destruct a as [ls|] eqn:El; cbn [bind] in H; [|discriminate] end.
  match type of H with bind ?a _ = _ => destruct a as [lps|] eqn:Ep; cbn [bind] in H; [|discriminate] end. match type of H with bind ?a _ = _ => destruct a as [st|] eqn:Ef; cbn [bind] in H; [|discriminate] end.
  injection H as <- <-. exists ls, lps, rs0, st. split; [exact S1|]. split; [intros m A; apply asks_iff in A; apply str_mem_In, Fm, A|]. split; [intros m A; apply str_mem_In, Fp, A|]. split; [exact (labels_evaluates e F s ls R El)|].
  split; [exact Ep|]. split; [exact Ef|]. split; [reflexivity|]. split; [reflexivity|].
  destruct results; [|left; injection E0 as <-; split; reflexivity]. right. split; [reflexivity|]. destruct (Nat.eqb_spec steps 1) as [->|N1]; cbn [negb] in E0; [|discriminate]. split; [reflexivity|]. destruct (ev_window F) as [[|w]|] eqn:W; [| |discriminate].
  - injection E0 as <-. exists s, 0. split; [reflexivity|]. split; reflexivity.
  - destruct (ts_brackets e s (BInt (Z.of_nat (S w))) BNone) as [k|] eqn:K; cbn [bind] in E0; [|discriminate]. injection E0 as <-. exists k, (S w). split; [reflexivity|]. split; [reflexivity|]. exact (slice_from _ _ _ _ K).
Qed.
Lemma pairs_functional F s ls lps : mapM (fun lb => do l <- ev_pairs F s lb; Ok (lb, l)) ls = Ok lps -> functional lps /\ forall lb, In lb ls <-> exists l, In (lb, l) lps /\ ev_pairs F s lb = Ok l.
Proof.
  intros H. apply mapM_keys in H. destruct H as [K V]. split.
  - intros lb l l' I J. apply V in I, J. congruence.
  - intros lb. split.
    + intros I. rewrite <- K in I. apply in_map_iff in I. destruct I as ([lb' l] & E & I). cbn in E. subst lb'. exists l. split; [exact I|exact (V lb l I)].
    + intros (l & I & _). rewrite <- K. apply in_map_iff. exists (lb, l). split; [reflexivity|exact I].
Qed.
Lemma in_score_keys metrics lb k : In k (score_keys metrics lb) <-> exists m, In m metric_names /\ In m metrics /\ k = key lb m.
Proof.
  unfold score_keys. rewrite in_map_iff. split.
  - intros (m & <- & I). apply filter_In in I. destruct I as [I J]. apply str_mem_In in J. exists m. auto.
  - intros (m & I & J & ->). exists m. split; [reflexivity|]. apply filter_In. split; [exact I|apply str_mem_In; exact J].
Qed.
Lemma evaluate_scores e sq lg F s steps metrics punctual results sc rs : ready e s -> ev_evaluate e sq lg F s steps metrics punctual results = Ok (sc, rs) ->
  (forall lb m, evaluates F s lb -> asks F metrics m -> exists a p v, compared F s lb a p /\ scored sq lg a p m v /\ dget (lb ++ "_" ++ m)%string sc = Some v) /\
  (forall k v, dget k sc = Some v -> exists lb m, evaluates F s lb /\ asks F metrics m /\ k = (lb ++ "_" ++ m)%string).
Proof.
  intros R H. destruct (evaluate_unfold _ _ _ _ _ _ _ _ _ _ _ R H) as (ls & lps & rs0 & st & _ & Km & _ & L & P & E & -> & _ & Rs0). destruct (pairs_functional F s ls lps P) as [Fu Pa].
  assert (M := labels_moves sq lg (metrics_of F metrics) punctual lps Fu _ _ E). destruct M as (SW & W & OS & _ & KS & PS & _).
  { intros l El. cbn [snd] in El. destruct rs0 as [k|]; cbn [option_map] in El; [|discriminate]. injection El as <-. destruct Rs0 as [[_ Z]|(_ & _ & k' & w & Z & _ & I)]; [discriminate|]. injection Z as <-. rewrite I. apply Forall_forall. intros x X. destruct R as (_ & _ & _ & D & _). apply D.
    rewrite <- (firstn_skipn w (s_items s)). apply in_or_app. right. exact X. }
  destruct PS as [A B]. cbn [fst] in B. split.
  - intros lb m Ev As. apply L in Ev. apply Pa in Ev. destruct Ev as (l & I & Pl). assert (K : In (key lb m) (map fst SW)) by (rewrite KS; apply in_flat_map; exists (lb, l); split; [exact I|]; apply in_score_keys; exists m; split; [exact (Km m As)|]; split; [apply asks_iff; exact As|reflexivity]).
    apply in_map_iff in K. destruct K as ([k v] & Ek & Iw). cbn in Ek. subst k. assert (V := A _ _ Iw). destruct (OS _ _ Iw) as (lb' & l' & m' & f & col & I' & J & _ & Ek & Fv).
    destruct (names_plain _ _ _ _ _ J) as [Nm' _]. assert (Nm : no_underscore m = true) by (specialize (Km m As); unfold metric_names in Km; repeat (destruct Km as [<-|Km]; [reflexivity|]); destruct Km). destruct (key_inj _ _ _ _ Nm Nm' Ek) as [<- <-].
    rewrite (Fu lb l' l I' I) in Fv. exists (map fst l), (map snd l), v. split; [exact (pairs_compared e F s lb l R Pl)|]. split; [|exact V]. apply (aggregate_scored sq lg m f col); [exact J|rewrite !map_length; reflexivity|exact Fv].
  - intros k v V. destruct (in_dec string_dec k (map fst SW)) as [I|I]; [|rewrite (B k I) in V; discriminate]. rewrite KS in I. apply in_flat_map in I. destruct I as ([lb l] & I & J). apply in_score_keys in J. destruct J as (m & _ & J & ->). exists lb, m. split; [apply L, Pa; exists l; split; [exact I|]|split; [apply asks_iff; exact J|reflexivity]].
    apply mapM_keys in P. exact (proj2 P lb l I).
Qed.

(* ---------------- the results series ---------------- *)
Lemma map2M_nth (g : Qc -> Qc -> result Qc) : forall a b vs, map2M g a b = Ok vs -> forall k x y, nth_error a k = Some x -> nth_error b k = Some y -> exists v, g x y = Ok v /\ nth_error vs k = Some v.
Proof.
  intros a. induction a as [|u a IH]; intros [|w b] vs E [|k] x y X Y; cbn [nth_error] in X, Y; try discriminate; cbn [map2M] in E.
  - injection X as <-. injection Y as <-. destruct (g u w) as [z|] eqn:Z; cbn [bind] in E; [|discriminate]. destruct (map2M g a b) as [zs|]; cbn [bind] in E; [|discriminate]. injection E as <-. exists z. split; reflexivity.
  - destruct (g u w) as [z|] eqn:Z; cbn [bind] in E; [|discriminate]. destruct (map2M g a b) as [zs|] eqn:Zs; cbn [bind] in E; [|discriminate]. injection E as <-. exact (IH b zs Zs k x y X Y).
Qed.
Lemma added_column sq lg F metrics punctual a p suffix v : added lg (asks F metrics) punctual a p suffix v -> exists g, In (suffix, g) (columns sq lg (metrics_of F metrics) punctual) /\ forall q, g a p = Ok q -> q = v.
Proof.
  intros A. assert (Ag : forall m sfx g, asks F metrics m -> In (m, Some (sfx, g)) (map (fun x => (fst (fst x), snd x)) (aggregates sq lg)) -> In (sfx, g) (columns sq lg (metrics_of F metrics) punctual)).
  { intros m sfx g As I. apply in_map_iff in I. destruct I as ([[m' f] col] & E & I). cbn [fst snd] in E. injection E as -> ->. right. apply in_or_app. left. apply in_flat_map. exists (m, f, Some (sfx, g)). split; [exact I|]. apply asks_iff, str_mem_In in As. rewrite As. left. reflexivity. }
  assert (Pu : forall m g, In m punctual -> In (m, g) (punctuals lg) -> In (m, g) (columns sq lg (metrics_of F metrics) punctual)).
  { intros m g I J. right. apply in_or_app. right. apply filter_In. split; [exact J|]. apply str_mem_In. exact I. }
  destruct A as [|A|A|A|A|A|A].
  - eexists. split; [left; reflexivity|]. intros q E. injection E as <-. reflexivity.
  - exists abs_err. split; [apply (Ag _ _ _ A); cbn; tauto|apply abs_err_is].
  - exists perc_err. split; [apply (Ag _ _ _ A); cbn; tauto|apply perc_err_is].
  - exists (log_err lg). split; [apply (Ag _ _ _ A); cbn; tauto|apply log_err_is].
  - eexists. split; [apply (Pu _ _ A); left; reflexivity|]. intros q E. injection E as <-. reflexivity.
  - eexists. split; [apply (Pu _ _ A); right; left; reflexivity|]. cbv beta. unfold qdiv. intros q E. destruct (qeqb a q0); [discriminate|]. injection E as <-. reflexivity.
  - eexists. split; [apply (Pu _ _ A); right; right; left; reflexivity|]. cbv beta. unfold qdiv. intros q E. destruct (qeqb p q0); cbn [bind] in E; [discriminate|]. destruct (qleb (Qcdiv a p) q0); [discriminate|]. injection E as <-. reflexivity.
Qed.
Lemma column_added sq lg F metrics punctual suffix g : In (suffix, g) (columns sq lg (metrics_of F metrics) punctual) -> exists a p v, added lg (asks F metrics) punctual a p suffix v.
Proof.
  intros I. exists q0, q0. unfold columns in I. destruct I as [I|I]; [injection I as <- _; eexists; constructor|]. apply in_app_or in I. destruct I as [I|I].
  - apply in_flat_map in I. destruct I as ([[m f] col] & J & I). destruct col as [c|]; [|destruct I]. destruct (str_mem m (metrics_of F metrics)) eqn:Mm; [|destruct I]. destruct I as [->|[]]. apply str_mem_In, asks_iff in Mm.
    unfold aggregates in J. repeat (destruct J as [J|J]; [try discriminate J; injection J as <- _ <- _; eexists; constructor; exact Mm|]). destruct J.
  - apply filter_In in I. destruct I as [J Mm]. cbn [fst] in Mm. apply str_mem_In in Mm. unfold punctuals in J. repeat (destruct J as [J|J]; [injection J as <- _; eexists; constructor; exact Mm|]). destruct J.
Qed.
Lemma evaluate_series e sq lg F s steps metrics punctual sc rs : ready e s -> ev_evaluate e sq lg F s steps metrics punctual true = Ok (sc, rs) ->
  exists r w, rs = Some r /\ ev_window F = Some w /\ length (s_items r) = length (s_items s) - w /\
  forall k x, nth_error (s_items s) (w + k) = Some x -> exists y, nth_error (s_items r) k = Some y /\ result_item lg F (asks F metrics) punctual s (w + k) x y.
Proof.
  intros R H. destruct (evaluate_unfold _ _ _ _ _ _ _ _ _ _ _ R H) as (ls & lps & rs0 & st & _ & Km & _ & L & P & E & -> & Ers & Rs0). destruct (pairs_functional F s ls lps P) as [Fu Pa].
  destruct Rs0 as [[Z _]|(_ & _ & k & w & -> & W0 & Ik)]; [discriminate|]. cbn [option_map] in E.
  assert (M := labels_moves sq lg (metrics_of F metrics) punctual lps Fu _ _ E). destruct M as (SW & W & _ & OW & _ & _ & PW).
  { intros l El. cbn [snd] in El. injection El as <-. rewrite Ik. apply Forall_forall. intros x X. destruct R as (_ & _ & _ & D & _). apply D. rewrite <- (firstn_skipn w (s_items s)). apply in_or_app. right. exact X. }
  cbn [snd] in PW. destruct (snd st) as [l'|] eqn:Sl; [|contradiction]. destruct PW as [KW [Ln PW]]. exists (set_items k l'), w. split; [exact Ers|]. split; [exact W0|]. unfold set_items. cbn [s_items]. rewrite Ik in Ln. split; [rewrite Ln; apply skipn_length|].
  intros i x X. destruct (PW i x) as (y & Y & S1 & I1 & d & d' & D & D' & A & B); [rewrite Ik, nth_error_skipn; exact X|]. exists y. split; [exact Y|]. split; [exact S1|]. split; [exact I1|]. exists d, d'. split; [exact D|]. split; [exact D'|]. split.
  - intros lb a p suffix v Ev Ha Hp Ad. apply L, Pa in Ev. destruct Ev as (l & Il & Pl). destruct (added_column sq lg F metrics punctual a p suffix v Ad) as (g & Ic & Eg).
    assert (K : In (key lb suffix) (map fst W)) by (rewrite KW; apply in_flat_map; exists (lb, l); split; [exact Il|]; apply in_map_iff; exists (suffix, g); split; [reflexivity|exact Ic]).
    apply in_map_iff in K. destruct K as ([k' vs] & Ek & Iw). cbn in Ek. subst k'. destruct (OW _ _ Iw) as (lb' & l2 & sfx & g' & I2 & Ic2 & Ek & Mv). destruct (key_inj _ _ _ _ (columns_plain _ _ _ _ _ _ Ic) (columns_plain _ _ _ _ _ _ Ic2) Ek) as [<- <-].
    rewrite (Fu lb l2 l I2 Il) in Mv. rewrite (column_det _ _ _ _ _ _ _ Ic2 Ic) in Mv. assert (Sh := pairs_shape F s lb l Pl). assert (St : start_of F = w) by (unfold start_of; rewrite W0; reflexivity). rewrite St in Sh.
    assert (Lt : w + i < length (s_items s)) by (apply nth_error_Some; rewrite X; discriminate).
    destruct (F2_get _ _ _ Sh i (w + i)) as ([a1 p1] & N1 & A1 & P1); [apply seq_nth_error; lia|]. cbn [fst snd] in *. assert (a1 = a) by (assert (Q : actual_of s (w + i) lb = Ok a) by (apply (actual_iff e _ _ _ _ R); exists x; split; assumption); congruence). assert (p1 = p) by (apply foresees_iff in Hp; congruence). subst a1 p1.
    destruct (map2M_nth g _ _ _ Mv i a p) as (q & G & Q); [rewrite nth_error_map, N1; reflexivity|rewrite nth_error_map, N1; reflexivity|]. rewrite <- (Eg q G). exact (A _ _ _ Iw Q).
  - intros k0 No. apply B. intros I. rewrite KW in I. apply in_flat_map in I. destruct I as ([lb l] & Il & I). apply in_map_iff in I. destruct I as ([sfx g] & <- & Ic). cbn [fst] in *. destruct (column_added sq lg F metrics punctual sfx g Ic) as (a & p & v & Ad).
    apply (No lb a p sfx v); [apply L, Pa; exists l; split; [exact Il|]; apply mapM_keys in P; exact (proj2 P lb l Il)|reflexivity|exact Ad].
Qed.
