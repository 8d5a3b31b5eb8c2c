(* EvaluateProofs3.v -- the evaluation of a forecaster: exact predictions, success, what is looked at (C76). *)
From Verif Require Import SpecAccess SeriesProofs3 SeriesProofs4 AccessProofs AccessProofs2 OpsProofs OpsProofs2 OpsProofs5 InterpProofs ReconProofs2 LstmProofs LstmProofs4 LstmProofs5 AnomalyProofs AnomalyProofs2 AnomalyProofs3 AnomalyProofs4 AnomalyProofs5 DictLemmas UtilsProofs PropTactics BaseLemmas.
From Verif Require Export EvaluateProofs2.
From Coq Require Import Lia.

(* ---------------- zero ---------------- *)
Definition pairwise (P : Qc -> Qc -> Prop) (a p : list Qc) : Prop := forall i x y, nth_error a i = Some x -> nth_error p i = Some y -> P x y.
Lemma mean_nonneg g a p : (forall x y, Qcle q0 (g x y)) -> a <> [] -> Qcle q0 (mean g a p).
Proof. intros H N. apply div_nonneg; [apply qn_len_pos; exact N|apply sum2_nonneg; exact H]. Qed.
Lemma mean_zero g a p : (forall x y, Qcle q0 (g x y)) -> pairwise (fun x y => g x y = q0 <-> x = y) a p -> length a = length p -> a <> [] -> (mean g a p = q0 <-> a = p).
Proof.
  intros H Z L N. unfold mean. rewrite div_zero_iff by (apply qn_len_pos; exact N). split.
  - intros E. apply combine_eq; [exact L|]. intros x y I. assert (G := sum2_zero g a H p L E x y I). apply combine_nth_iff in I. destruct I as (i & X & Y). apply (Z i x y X Y). exact G.
  - intros E. apply sum2_all_zero. intros x y I. pose proof I as I'. apply combine_nth_iff in I. destruct I as (i & X & Y). apply (Z i x y X Y). subst p. exact (combine_same a x y I').
Qed.
Lemma greatest_nonneg g a p v : (forall x y, Qcle q0 (g x y)) -> greatest g a p v -> Qcle q0 v.
Proof. intros H [(i & x & y & _ & _ & ->) _]. apply H. Qed.
Lemma greatest_zero g a p v : (forall x y, Qcle q0 (g x y)) -> pairwise (fun x y => g x y = q0 <-> x = y) a p -> length a = length p -> greatest g a p v -> (v = q0 <-> a = p).
Proof.
  intros H Z L [(i & x & y & X & Y & ->) M]. split.
  - intros E. apply combine_eq; [exact L|]. intros x' y' I. apply combine_nth_iff in I. destruct I as (j & X' & Y'). apply (Z j x' y' X' Y'). specialize (M j x' y' X' Y'). rewrite E in M. specialize (H x' y'). apply Qcle_antisym; assumption.
  - intros ->. rewrite X in Y. injection Y as <-. apply (Z i x x X X). reflexivity.
Qed.
Lemma distance_zero' a p : pairwise (fun x y => distance x y = q0 <-> x = y) a p.
Proof. intros i x y _ _. unfold distance. rewrite qabs_zero. apply minus_zero. Qed.
Lemma squared_zero' a p : pairwise (fun x y => squared x y = q0 <-> x = y) a p.
Proof. intros i x y _ _. unfold squared. rewrite square_zero. apply minus_zero. Qed.
Lemma relative_zero' a p : ~ In q0 a -> pairwise (fun x y => relative x y = q0 <-> x = y) a p.
Proof.
  intros N i x y X _. assert (Nx : x <> q0) by (intros ->; apply N; exact (nth_error_In _ _ X)). unfold relative. rewrite qabs_zero. split; intros H.
  - apply minus_zero. assert (Q : Qcminus x y = Qcmult (Qcdiv (Qcminus x y) x) x) by (field; rewrite q0_eq in Nx; exact Nx). rewrite Q, H, q0_eq. ring.
  - rewrite H. assert (Z : Qcminus y y = q0) by (rewrite q0_eq; ring). rewrite Z. rewrite H in Nx. rewrite q0_eq in *. field. exact Nx.
Qed.
Lemma log_zero' lg a p : log_like lg -> positive_ratios a p -> pairwise (fun x y => log_ratio lg x y = q0 <-> x = y) a p.
Proof.
  intros G P i x y X Y. assert (Pq := P i x y X Y). assert (Ny : y <> q0).
  { intros ->. assert (E : Qcdiv x q0 = q0) by (unfold Qcdiv; assert (E0 : Qcinv q0 = q0) by (apply qeqb_eq; vm_compute; reflexivity); rewrite E0, q0_eq; ring). rewrite E in Pq. exact (Qclt_not_eq _ _ Pq eq_refl). }
  unfold log_ratio. rewrite qabs_zero, (G _ Pq), q1_eq. rewrite q0_eq in Ny. split; intros H.
  - assert (Q : x = Qcmult (Qcdiv x y) y) by (field; exact Ny). rewrite Q, H. ring.
  - rewrite H. field. exact Ny.
Qed.
Lemma scored_zero sq lg a p m v : sqrt_like sq -> log_like lg -> length a = length p -> scored sq lg a p m v -> a <> [] -> (exists q, v = Some q /\ Qcle q0 q) /\ (v = Some q0 <-> a = p).
Proof.
  intros Sq Lg L H N. assert (So : forall u : Qc, Some u = Some q0 <-> u = q0) by (intros u; split; [intros E; injection E as E; exact E|intros ->; reflexivity]).
  assert (Nn : forall x y, Qcle q0 (distance x y)) by (intros; apply qabs_nonneg). assert (Ns : forall x y, Qcle q0 (squared x y)) by (intros; apply square_nonneg).
  assert (Nr : forall x y, Qcle q0 (relative x y)) by (intros; apply qabs_nonneg). assert (Nl : forall x y, Qcle q0 (log_ratio lg x y)) by (intros; apply qabs_nonneg).
  destruct H as [H|H|H|q H|H Z|q H Z|H Z|q H Z|k H Z]; [| | | | | | | |contradiction]; (split; [eexists; split; [reflexivity|]|rewrite So]).
  - apply mean_nonneg; assumption.
  - apply mean_zero; [exact Ns|apply squared_zero'|exact L|exact N].
  - apply Sq, mean_nonneg; assumption.
  - rewrite (proj2 (Sq _ (mean_nonneg squared a p Ns N))). apply mean_zero; [exact Ns|apply squared_zero'|exact L|exact N].
  - apply mean_nonneg; assumption.
  - apply mean_zero; [exact Nn|apply distance_zero'|exact L|exact N].
  - exact (greatest_nonneg _ _ _ _ Nn H).
  - apply (greatest_zero distance); [exact Nn|apply distance_zero'|exact L|exact H].
  - apply mean_nonneg; assumption.
  - apply mean_zero; [exact Nr|apply relative_zero'; exact Z|exact L|exact N].
  - exact (greatest_nonneg _ _ _ _ Nr H).
  - apply (greatest_zero relative); [exact Nr|apply relative_zero'; exact Z|exact L|exact H].
  - apply mean_nonneg; assumption.
  - apply mean_zero; [exact Nl|apply log_zero'; assumption|exact L|exact N].
  - exact (greatest_nonneg _ _ _ _ Nl H).
  - apply (greatest_zero (log_ratio lg)); [exact Nl|apply log_zero'; assumption|exact L|exact H].
Qed.
Lemma compared_exact e F s lb a p : ready e s -> compared F s lb a p -> (a = p <-> exact_on F s lb).
Proof.
  intros R (w & B & La & Lp & C). split.
  - intros <- w' i x v B' Wi X V. apply begins_start in B, B'. subst w w'. assert (Lt : i < length (s_items s)) by (apply nth_error_Some; rewrite X; discriminate). destruct (nth_error a (i - start_of F)) as [v'|] eqn:A; [|apply nth_error_None in A; lia].
    destruct (C _ _ _ A A) as (x' & X' & V' & Fo). replace (start_of F + (i - start_of F)) with i in * by lia. rewrite X in X'. injection X' as <-. assert (v = v') as -> by (assert (Q1 := proj2 (actual_iff e s i lb v R) (ex_intro _ x (conj X V))); assert (Q2 := proj2 (actual_iff e s i lb v' R) (ex_intro _ x (conj X V'))); congruence). exact Fo.
  - intros E. apply combine_eq; [lia|]. intros u v I. apply combine_nth_iff in I. destruct I as (i & A & P). destruct (C i u v A P) as (x & X & V & Fo). apply (foresees_unique F s (w + i) lb); [|exact Fo]. apply (E w (w + i) x u B); [lia|exact X|exact V].
Qed.

(* ---------------- success ---------------- *)
Lemma foldM_total {A B} (Inv : B -> Prop) (f : B -> A -> result B) : forall l, (forall st x, In x l -> Inv st -> exists st', f st x = Ok st' /\ Inv st') -> forall st, Inv st -> exists st', foldM f l st = Ok st' /\ Inv st'.
Proof.
  induction l as [|x l IH]; intros H st I; cbn [foldM]; [exists st; split; [reflexivity|exact I]|]. destruct (H st x (or_introl eq_refl) I) as (st1 & E & I1). rewrite E. cbn [bind]. apply IH; [intros s y J; apply H; right; exact J|exact I1].
Qed.
Lemma set_column_total name : forall vs l, length vs <= length l -> Forall with_data l -> exists l', set_column name vs l = Ok l'.
Proof.
  induction vs as [|v vs IH]; intros l L A; cbn [set_column]; [eauto|]. destruct l as [|x l]; [cbn in L; lia|]. inversion A as [|x' l0 [d D] Al]; subst. unfold Anomaly.set_value. rewrite D. cbn [bind]. destruct (IH l) as [l' ->]; [cbn in L; lia|exact Al|]. cbn [bind]. eauto.
Qed.
Lemma map2M_total (g : Qc -> Qc -> result Qc) : forall a b, pairwise (fun x y => exists v, g x y = Ok v) a b -> exists vs, map2M g a b = Ok vs /\ length vs <= length a.
Proof.
  induction a as [|x a IH]; intros [|y b] H; cbn [map2M length]; try (eexists; split; [reflexivity|cbn; lia]). destruct (H 0 x y eq_refl eq_refl) as [v V]. rewrite V. cbn [bind]. destruct (IH b) as (vs & -> & Lv); [intros i u w U W; exact (H (S i) u w U W)|]. cbn [bind]. eexists. split; [reflexivity|]. cbn [length]. lia.
Qed.
Section Total.
Variables (sq lg : Qc -> Qc) (metrics punctual : list string) (lb : string) (a p : list Qc) (N : nat).
Definition fits (st : dict (option Qc) * option (list item)) : Prop := forall l, snd st = Some l -> N = length l /\ Forall with_data l.
Lemma add_column_total name g (st : dict (option Qc) * option (list item)) : length a = N -> fits st -> pairwise (fun x y => exists v, g x y = Ok v) a p -> exists l, add_column name g a p (snd st) = Ok l /\ forall sc, fits (sc, l).
Proof.
  intros La Fi H. unfold add_column. destruct (snd st) as [l|] eqn:E; [|exists None; split; [reflexivity|intros sc l0 Z; discriminate]]. destruct (Fi l E) as [Ln D]. destruct (map2M_total g a p H) as (vs & -> & Lv). cbn [bind]. destruct (set_column_total name vs l) as [l' S']; [lia|exact D|]. rewrite S'. cbn [bind]. exists (Some l'). split; [reflexivity|].
  intros sc l0 Z. cbn in Z. injection Z as <-. assert (Pi := set_column_put name vs l l' D S'). split; [destruct Pi as [Q _]; lia|exact (put_with_data _ _ _ Pi)].
Qed.
Hypothesis La : length a = N.
Hypothesis Lp : length p = N.
Hypothesis Na : 0 < N.
Hypothesis Perc : In "MAPE"%string metrics \/ In "HAPE"%string metrics \/ In "PE"%string punctual -> ~ In q0 a.
Hypothesis Loga : In "MALE"%string metrics \/ In "HALE"%string metrics \/ In "LE"%string punctual -> positive_ratios a p.
Lemma perc_total : ~ In q0 a -> pairwise (fun x y => exists v, perc_err x y = Ok v) a p.
Proof. intros H i x y X _. assert (Nx : x <> q0) by (intros ->; apply H; exact (nth_error_In _ _ X)). unfold perc_err, qdiv. rewrite qeqb_false by exact Nx. cbn [bind]. eauto. Qed.
Lemma div_some x y : Qclt q0 (Qcdiv x y) -> qdiv x y = Ok (Qcdiv x y) /\ qleb (Qcdiv x y) q0 = false.
Proof.
  intros P. assert (Ny : y <> q0).
  { intros ->. assert (E : Qcdiv x q0 = q0) by (unfold Qcdiv; assert (E0 : Qcinv q0 = q0) by (apply qeqb_eq; vm_compute; reflexivity); rewrite E0, q0_eq; ring). rewrite E in P. exact (Qclt_not_eq _ _ P eq_refl). }
  unfold qdiv. rewrite qeqb_false by exact Ny. split; [reflexivity|]. apply qleb_false. exact P.
Qed.
Lemma log_total : positive_ratios a p -> pairwise (fun x y => exists v, log_err lg x y = Ok v) a p.
Proof. intros H i x y X Y. destruct (div_some x y (H i x y X Y)) as [D Q]. unfold log_err. rewrite D. cbn [bind]. rewrite Q. eauto. Qed.
Lemma mean_total f : pairwise (fun x y => exists v, f x y = Ok v) a p -> exists v, mean_error f a p = Ok v.
Proof.
  intros H. unfold mean_error, same_lengths. rewrite La, Lp, Nat.eqb_refl. cbn [bind]. destruct (map2M_total f a p H) as (vs & -> & _). cbn [bind]. unfold qdiv. rewrite qeqb_false; [eauto|]. intros E. assert (Q := qn_len_pos a). rewrite La, E in Q. apply (Qclt_not_eq _ _ (Q ltac:(intros Z; rewrite Z in La; cbn in La; lia)) eq_refl).
Qed.
Lemma max_total f : pairwise (fun x y => exists v, f x y = Ok v) a p -> exists v, max_error f a p = Ok v.
Proof. intros H. unfold max_error, same_lengths. rewrite La, Lp, Nat.eqb_refl. cbn [bind]. destruct (map2M_total f a p H) as (vs & -> & _). cbn [bind]. eauto. Qed.
Lemma mse_total : exists v, mse a p = Ok v.
Proof. destruct (mean_total sq_err) as [v V]; [intros i x y _ _; unfold sq_err; eauto|]. exists v. rewrite <- V. destruct a; [cbn in La; lia|reflexivity]. Qed.
Lemma mae_total : exists v, mae a p = Ok v.
Proof. destruct (mean_total abs_err) as [v V]; [intros i x y _ _; unfold abs_err; eauto|]. exists v. rewrite <- V. destruct a; [cbn in La; lia|reflexivity]. Qed.
Lemma aggregate_total m f col : In (m, f, col) (aggregates sq lg) -> In m metrics -> (exists v, f a p = Ok v) /\ (forall sfx g, col = Some (sfx, g) -> pairwise (fun x y => exists v, g x y = Ok v) a p).
Proof.
  intros I M. unfold aggregates in I. repeat (destruct I as [I|I]; [injection I as <- <- <-|]); [| | | | | | | |destruct I]; unfold num.
  - destruct mse_total as [v ->]. cbn [bind]. split; [eauto|intros sfx g Z; discriminate].
  - destruct mse_total as [v ->]. cbn [bind]. split; [eauto|intros sfx g Z; discriminate].
  - destruct mae_total as [v ->]. cbn [bind]. split; [eauto|intros sfx g Z; injection Z as <- <-]. intros i x y _ _. unfold abs_err. eauto.
  - split; [apply max_total; intros i x y _ _; unfold abs_err; eauto|intros sfx g Z; discriminate].
  - assert (T := perc_total (Perc (or_introl M))). destruct (mean_total perc_err T) as [v V]. unfold mape. rewrite V. cbn [bind]. split; [eauto|intros sfx g Z; injection Z as <- <-; exact T].
  - assert (T := perc_total (Perc (or_intror (or_introl M)))). split; [exact (max_total _ T)|intros sfx g Z; discriminate].
  - assert (T := log_total (Loga (or_introl M))). destruct (mean_total (log_err lg) T) as [v V]. unfold male. rewrite V. cbn [bind]. split; [eauto|intros sfx g Z; injection Z as <- <-; exact T].
  - assert (T := log_total (Loga (or_intror (or_introl M)))). split; [exact (max_total _ T)|intros sfx g Z; discriminate].
Qed.
Lemma punctual_total m g : In (m, g) (punctuals lg) -> In m punctual -> pairwise (fun x y => exists v, g x y = Ok v) a p.
Proof.
  intros I M. unfold punctuals in I. repeat (destruct I as [I|I]; [injection I as <- <-|]); [| | |destruct I]; intros i x y X Y.
  - eauto.
  - assert (Nx : x <> q0) by (intros ->; apply (Perc (or_intror (or_intror M))); exact (nth_error_In _ _ X)). unfold qdiv. rewrite qeqb_false by exact Nx. eauto.
  - destruct (div_some x y (Loga (or_intror (or_intror M)) i x y X Y)) as [D Q]. rewrite D. cbn [bind]. rewrite Q. eauto.
Qed.
Lemma label_total l st : a = map fst l -> p = map snd l -> fits st -> exists st', ev_label sq lg metrics punctual st (lb, l) = Ok st' /\ fits st'.
Proof.
  intros Ea Ep Fi. unfold ev_label. cbn [fst snd]. rewrite <- Ea, <- Ep. destruct (add_column_total (key lb "pred") (fun _ q => Ok q) st La Fi) as (l1 & -> & F1); [intros i x y _ _; eauto|]. cbn [bind].
  destruct (foldM_total fits (ev_aggregate metrics lb a p) (aggregates sq lg)) with (st := (fst st, l1)) as (st2 & -> & F2); [|apply F1|].
  - intros s0 [[m f] col] I F0. unfold ev_aggregate. destruct (str_mem m metrics) eqn:Mm; [|eauto]. apply str_mem_In in Mm. destruct (aggregate_total m f col I Mm) as [[v ->] T]. cbn [bind]. destruct col as [[sfx g]|].
    + destruct (add_column_total (key lb sfx) g s0 La F0 (T sfx g eq_refl)) as (l2 & -> & F3). cbn [bind]. eexists. split; [reflexivity|apply F3].
    + cbn [bind]. eexists. split; [reflexivity|]. exact F0.
  - cbn [bind]. apply foldM_total; [|exact F2]. intros s0 [m g] I F0. unfold ev_punctual. cbn [fst snd]. destruct (str_mem m punctual) eqn:Mm; [|eauto]. apply str_mem_In in Mm. destruct (add_column_total (key lb m) g s0 La F0 (punctual_total m g I Mm)) as (l2 & -> & F3). cbn [bind]. eexists. split; [reflexivity|apply F3].
Qed.
End Total.
Lemma evaluate_total e sq lg F s steps metrics punctual results w :
  parses_units e -> ready e s -> begins F w -> w < length (s_items s) -> steps <= 1 -> (results = true -> steps = 1 /\ ev_window F <> None) ->
  (forall m, asks F metrics m -> In m metric_names) -> (forall m, In m punctual -> In m punctual_names) ->
  (forall lb i x, evaluates F s lb -> w <= i -> nth_error (s_items s) i = Some x -> exists a p, has_value x lb a /\ foresees F s i lb p /\
     (percentages F metrics punctual -> a <> q0) /\ (logarithms F metrics punctual -> Qclt q0 (Qcdiv a p))) ->
  exists sc rs, ev_evaluate e sq lg F s steps metrics punctual results = Ok (sc, rs).
Proof.
  intros He R B Wn St Rs Km Kp H. unfold ev_evaluate. destruct (s_items s) as [|x0 l0] eqn:Es; [cbn in Wn; lia|]. rewrite <- Es in *. destruct (Nat.ltb_spec 1 steps) as [S1|S1]; [lia|].
  assert (E1 : forallb (fun m => str_mem m metric_names) (metrics_of F metrics) = true) by (apply forallb_forall; intros m I; apply str_mem_In, Km, asks_iff, I). assert (E2 : forallb (fun m => str_mem m punctual_names) punctual = true) by (apply forallb_forall; intros m I; apply str_mem_In, Kp, I).
  rewrite E1, E2. cbn [negb]. rewrite (ready_duplicate e s R). cbn [bind]. pose proof R as (_ & _ & Wf & Dd & _).
  assert (K : exists rs0, (if results then if negb (Nat.eqb steps 1) then Err ValueError else match ev_window F with None => Err KeyError | Some 0 => Ok (Some s) | Some (S n as w) => do k <- ts_brackets e s (BInt (Z.of_nat w)) BNone; Ok (Some k) end else Ok None) = Ok rs0 /\
     forall k, rs0 = Some k -> length (s_items s) - w = length (s_items k) /\ Forall with_data (s_items k)).
  { destruct results; [|exists None; split; [reflexivity|discriminate]]. destruct (Rs eq_refl) as [-> Nw]. cbn [Nat.eqb negb]. apply begins_start in B. unfold start_of in B. destruct (ev_window F) as [[|n]|] eqn:Ew; [| |contradiction]; subst w.
    - exists (Some s). split; [reflexivity|]. intros k E. injection E as <-. split; [lia|]. apply Forall_forall. exact Dd.
    - assert (Sl : exists k, ts_brackets e s (BInt (Z.of_nat (S n))) BNone = Ok k).
      { unfold ts_brackets. rewrite Es. cbn [bound_i bind]. destruct (slice_i_spec e s (Some (Z.of_nat (S n))) None He Wf) as (r & Hr & _); [rewrite Es; discriminate|]. exists r. exact Hr. }
      destruct Sl as [k Ek]. rewrite Ek. cbn [bind]. exists (Some k). split; [reflexivity|]. intros k' E. injection E as <-. rewrite (slice_from _ _ _ _ Ek), skipn_length. split; [reflexivity|]. apply Forall_forall. intros x X. apply Dd. rewrite <- (firstn_skipn (S n) (s_items s)). apply in_or_app. right. exact X. }
  destruct K as (rs0 & Ek & Kd). match goal with |- exists sc rs, bind ?a _ = _ => assert (Ea : a = Ok rs0) by exact Ek; rewrite Ea; clear Ea Ek end. cbn [bind].
  assert (L : exists ls, match ev_targets F with Some t => Ok t | None => labels_of s end = Ok ls).
  { destruct (ev_targets F) as [t|]; [eauto|]. destruct (ready_labels_known e s R) as (x & l & _ & ->). eauto. }
  destruct L as [ls Els]. rewrite Els. cbn [bind]. assert (Lv := labels_evaluates e F s ls R Els).
  assert (Pt : forall lb, In lb ls -> exists l, ev_pairs F s lb = Ok l).
  { intros lb I. apply Lv in I. unfold ev_pairs. apply mapM_some. intros i J. rewrite filter_from, Nat.max_0_l in J. apply in_seq in J. assert (Lt : i < length (s_items s)) by lia. apply nth_error_Some in Lt. destruct (nth_error (s_items s) i) as [x|] eqn:X; [|contradiction].
    apply begins_start in B. destruct (H lb i x I) as (a & p & Ha & Hp & _); [lia|exact X|]. rewrite (proj2 (actual_iff e s i lb a R)) by (exists x; split; assumption). cbn [bind]. rewrite (proj2 (foresees_iff F s i lb p) Hp). cbn [bind]. eauto. }
  destruct (mapM_some (fun lb => do l <- ev_pairs F s lb; Ok (lb, l)) ls) as [lps Elp]; [intros lb I; destruct (Pt lb I) as [l ->]; cbn [bind]; eauto|]. rewrite Elp. cbn [bind].
  destruct (foldM_total (fits (length (s_items s) - w)) (ev_label sq lg (metrics_of F metrics) punctual) lps) with (st := ([] : dict (option Qc), option_map s_items rs0)) as (st & Est & _).
  - intros st [lb l] I Fi. apply mapM_keys in Elp. destruct Elp as [Kl Vl]. assert (Il : In lb ls) by (rewrite <- Kl; apply in_map_iff; exists (lb, l); split; [reflexivity|exact I]). apply Lv in Il. assert (Pl := Vl lb l I). assert (Sh := pairs_shape F s lb l Pl). apply begins_start in B. rewrite <- B in Sh.
    assert (Ln := F2_len _ _ _ Sh). rewrite seq_length in Ln.
    assert (Pw : forall k a p, nth_error (map fst l) k = Some a -> nth_error (map snd l) k = Some p -> (percentages F metrics punctual -> a <> q0) /\ (logarithms F metrics punctual -> Qclt q0 (Qcdiv a p))).
    { intros k a p A P. apply nth_error_map' in A, P. destruct A as ([a1 p1] & A & <-), P as ([a2 p2] & P & <-). rewrite A in P. injection P as <- <-. cbn [fst snd]. destruct (F2_get_r _ _ _ Sh k _ A) as (i & Ii & Ha & Hp). cbn [fst snd] in Ha, Hp.
      assert (Kk : k < length (s_items s) - w) by (rewrite Ln; apply nth_error_Some; rewrite A; discriminate). rewrite seq_nth_error in Ii by exact Kk. injection Ii as <-. apply (actual_iff e) in Ha; [|exact R]. destruct Ha as (x & X & V). apply foresees_iff in Hp. destruct (H lb (w + k) x Il) as (a & p & Ha & Hp' & Q); [lia|exact X|].
      rewrite (foresees_unique _ _ _ _ _ _ Hp Hp'). assert (a1 = a) as -> by (assert (Q1 := proj2 (actual_iff e s (w + k) lb a1 R) (ex_intro _ x (conj X V))); assert (Q2 := proj2 (actual_iff e s (w + k) lb a R) (ex_intro _ x (conj X Ha))); congruence). exact Q. }
    apply (label_total sq lg (metrics_of F metrics) punctual lb (map fst l) (map snd l) (length (s_items s) - w)); [rewrite map_length; lia|rewrite map_length; lia|lia| | |reflexivity|reflexivity|exact Fi].
    + intros C I0. assert (C' : percentages F metrics punctual) by (unfold percentages; rewrite <- !asks_iff; exact C). apply In_nth_error in I0. destruct I0 as [k Hk]. destruct (nth_error (map snd l) k) as [p|] eqn:Hp; [|apply nth_error_None in Hp; assert (Q : k < length (map fst l)) by (apply nth_error_Some; rewrite Hk; discriminate); rewrite map_length in *; lia].
      exact (proj1 (Pw k q0 p Hk Hp) C' eq_refl).
    + intros C i x y X Y. assert (C' : logarithms F metrics punctual) by (unfold logarithms; rewrite <- !asks_iff; exact C). exact (proj2 (Pw i x y X Y) C').
  - intros l E. cbn [snd] in E. destruct rs0 as [k|]; cbn [option_map] in E; [|discriminate]. injection E as <-. apply Kd. reflexivity.
  - match goal with |- exists sc rs, bind ?a _ = _ => assert (Ea : a = Ok st) by exact Est; rewrite Ea end. cbn [bind]. eauto.
Qed.

(* ---------------- only the past ---------------- *)
Lemma foresees_past e F s1 s2 n i lb v : ready e s1 -> agree n s1 s2 -> i < n -> (forall c, reads_items (fun w => ev_predict F w c)) -> foresees F s1 i lb v -> foresees F s2 i lb v.
Proof.
  intros R A I Rd (p & G & H). exists p. split; [exact G|]. assert (Ev := agree_view n s1 s2 i A ltac:(lia)). assert (Er : resolution s1 = resolution s2) by (destruct A as (_ & _ & _ & A); exact A).
  destruct (ev_context F).
  - destruct H as (x & d & X & D & P). exists x, d. split; [rewrite <- (agree_nth n s1 s2 i A I); exact X|]. split; [exact D|]. rewrite <- P. symmetry. apply Rd; [exact Ev|exact Er].
  - rewrite <- H. symmetry. apply Rd; [exact Ev|exact Er].
Qed.
