(* PropAnomaly.v -- THEOREMS C57 (anomaly index), C69 (only the past matters), C70 (pre-processing), C71 (details). *)
From Verif Require Import SpecAnomaly Events SpecEvents BaseLemmas PropTactics DictLemmas SeriesProofs2 OpsProofs InterpProofs ReconProofs2 ReconProofs4 LstmProofs LstmProofs2 LstmProofs4 UtilsProofs AnomalyProofs AnomalyProofs2 AnomalyProofs3 AnomalyProofs4 AnomalyProofs5 Witness PropTransform PropRecon.
From Coq Require Import Lia.

Lemma ready_data e s : ready e s -> forall x, In x (s_items s) -> exists d, i_data x = Some (DDict d).
Proof. intros (_ & _ & _ & D & _). exact D. Qed.

(* ===================== C57 ===================== *)
(* The k-th item of the result is the one at position window + 1 + k of the series: unchanged if it, or one of the items in the
   window before it, has too much data loss, and otherwise with its anomaly index, the same time, the same other indexes and the
   same data (but for the details, if any).  A forecaster leaves out only the first window + 1 items. *)
Theorem C57_items_of_the_result : forall e lg D A s s', ready e s -> an_apply e lg D A None s = Ok s' ->
  exists ls, labels_of s = Ok ls /\
    (forall k y, nth_error (s_items s') k = Some y -> exists x, nth_error (s_items s) (an_window D + 1 + k) = Some x /\
       ((skipped D (aa_loss A) s (an_window D + 1 + k) /\ y = x) \/
        (~ skipped D (aa_loss A) s (an_window D + 1 + k) /\ with_details ls x y /\ (aa_details A = DNone -> i_data y = i_data x) /\
         exists v, item_index_is lg D A s (an_window D + 1 + k) v /\ dget "anomaly" (i_idx y) = Some (Some v)))) /\
    (is_reconstructor (an_inner D) = false -> length (s_items s') = length (s_items s) - (an_window D + 1)) /\
    (length (s_items s') <= length (s_items s) - (an_window D + 1)).
Proof.
  intros e lg D A s s' R H. destruct (apply_ok e lg D A None s s' (fun ls i _ _ => no_store D s i ls) (ready_data e s R) H) as (ls & L & O & L1 & L2). exists ls. split; [exact L|]. rewrite Nat.add_1_r. split; [exact O|]. split; [exact L2|lia].
Qed.
Print Assumptions C57_items_of_the_result.

Lemma apply_index e lg D A s s' k y v : ready e s -> an_apply e lg D A None s = Ok s' -> nth_error (s_items s') k = Some y -> ~ skipped D (aa_loss A) s (an_window D + 1 + k) ->
  dget "anomaly" (i_idx y) = Some (Some v) -> item_index_is lg D A s (an_window D + 1 + k) v.
Proof.
  intros R H Y N V. destruct (C57_items_of_the_result e lg D A s s' R H) as (ls & L & O & _). destruct (O k y Y) as (x & X & [[C _]|(_ & _ & _ & w & W & Vw)]); [contradiction|]. rewrite V in Vw. injection Vw as ->. exact W.
Qed.

(* In the unit interval, if the density decreases from the start to the end of the range of the index. *)
Theorem C57_in_the_unit_interval_partial : forall e lg D A s s' ls k y v, ready e s -> labels_of s = Ok ls -> proper_ranges lg D A ls -> standard (aa_strategy A) ->
  an_apply e lg D A None s = Ok s' -> nth_error (s_items s') k = Some y -> ~ skipped D (aa_loss A) s (an_window D + 1 + k) -> dget "anomaly" (i_idx y) = Some (Some v) ->
  Qcle q0 v /\ Qcle v q1.
Proof.
  intros e lg D A s s' ls k y v R L P St H Y N V. apply (item_range lg D A s (an_window D + 1 + k) v ls L P St). apply (apply_index e lg D A s s' k y v R H Y N V).
Qed.
Print Assumptions C57_in_the_unit_interval_partial.

(* Zero if no label deviates more than the start of the range. *)
Theorem C57_zero_up_to_the_start : forall e lg D A s s' ls k y v, ready e s -> labels_of s = Ok ls -> standard (aa_strategy A) -> (forall t, aa_threshold A = Some t -> Qclt q0 t) ->
  an_apply e lg D A None s = Ok s' -> nth_error (s_items s') k = Some y -> ~ skipped D (aa_loss A) s (an_window D + 1 + k) -> dget "anomaly" (i_idx y) = Some (Some v) ->
  (forall lb x xs, In lb ls -> deviates D s (an_window D + 1 + k) lb x -> bound_is D lb (aa_start A) xs -> Qcle x xs) -> v = q0.
Proof.
  intros e lg D A s s' ls k y v R L St T H Y N V Z. apply (item_zero lg D A s (an_window D + 1 + k) v ls L St); [apply (apply_index e lg D A s s' k y v R H Y N V)|exact T|exact Z].
Qed.
Print Assumptions C57_zero_up_to_the_start.
(* One if every label deviates as much as the end of the range, or more. *)
Theorem C57_one_from_the_end : forall e lg D A s s' ls k y v, ready e s -> labels_of s = Ok ls -> standard (aa_strategy A) -> (forall t, aa_threshold A = Some t -> Qcle t q1) ->
  an_apply e lg D A None s = Ok s' -> nth_error (s_items s') k = Some y -> ~ skipped D (aa_loss A) s (an_window D + 1 + k) -> dget "anomaly" (i_idx y) = Some (Some v) ->
  (forall lb x xs xe, In lb ls -> deviates D s (an_window D + 1 + k) lb x -> bound_is D lb (aa_start A) xs -> bound_is D lb (aa_end A) xe -> Qclt xs x /\ Qcle xe x) -> v = q1.
Proof.
  intros e lg D A s s' ls k y v R L St T H Y N V Z. apply (item_one lg D A s (an_window D + 1 + k) v ls L St); [apply (apply_index e lg D A s s' k y v R H Y N V)|exact T|exact Z].
Qed.
Print Assumptions C57_one_from_the_end.
(* Between two items, of the same series or not, the one which deviates more, for every label, does not have a smaller index. *)
Theorem C57_follows_the_deviation : forall e e' lg D A s1 s1' s2 s2' ls k1 k2 y1 y2 v1 v2, ready e s1 -> ready e' s2 -> labels_of s1 = Ok ls -> labels_of s2 = Ok ls ->
  proper_ranges lg D A ls -> standard (aa_strategy A) -> an_apply e lg D A None s1 = Ok s1' -> an_apply e' lg D A None s2 = Ok s2' ->
  nth_error (s_items s1') k1 = Some y1 -> ~ skipped D (aa_loss A) s1 (an_window D + 1 + k1) -> dget "anomaly" (i_idx y1) = Some (Some v1) ->
  nth_error (s_items s2') k2 = Some y2 -> ~ skipped D (aa_loss A) s2 (an_window D + 1 + k2) -> dget "anomaly" (i_idx y2) = Some (Some v2) ->
  (forall lb x1 x2, In lb ls -> deviates D s1 (an_window D + 1 + k1) lb x1 -> deviates D s2 (an_window D + 1 + k2) lb x2 -> Qcle x1 x2) -> Qcle v1 v2.
Proof.
  intros e e' lg D A s1 s1' s2 s2' ls k1 k2 y1 y2 v1 v2 R1 R2 L1 L2 P St H1 H2 Y1 N1 V1 Y2 N2 V2 Le.
  apply (item_mono lg D A s1 (an_window D + 1 + k1) s2 (an_window D + 1 + k2) v1 v2 ls L1 L2 P St); [apply (apply_index e lg D A s1 s1' k1 y1 v1 R1 H1 Y1 N1 V1)|apply (apply_index e' lg D A s2 s2' k2 y2 v2 R2 H2 Y2 N2 V2)|exact Le].
Qed.
Print Assumptions C57_follows_the_deviation.
Lemma centred_deviation D s i lb x : (forall d, dget lb (an_dists D) = Some d -> loc d = q0) -> deviates D s i lb x -> exists err, item_error D s i lb err /\ x = qabs err.
Proof.
  intros C (d & err & Dd & E & X). exists err. split; [exact E|]. rewrite (C d Dd) in X. rewrite q0_eq in X. destruct X as [[L ->]|[L ->]].
  - unfold qabs. destruct (qltb_spec err (Q2Qc 0)) as [Q|Q]; [exfalso; qlra|reflexivity].
  - ring.
Qed.
(* With distributions of the errors centred in zero, the one with the larger errors (in absolute value). *)
Theorem C57_follows_the_error_partial : forall e e' lg D A s1 s1' s2 s2' ls k1 k2 y1 y2 v1 v2, ready e s1 -> ready e' s2 -> labels_of s1 = Ok ls -> labels_of s2 = Ok ls ->
  proper_ranges lg D A ls -> standard (aa_strategy A) -> (forall lb d, In lb ls -> dget lb (an_dists D) = Some d -> loc d = q0) ->
  an_apply e lg D A None s1 = Ok s1' -> an_apply e' lg D A None s2 = Ok s2' ->
  nth_error (s_items s1') k1 = Some y1 -> ~ skipped D (aa_loss A) s1 (an_window D + 1 + k1) -> dget "anomaly" (i_idx y1) = Some (Some v1) ->
  nth_error (s_items s2') k2 = Some y2 -> ~ skipped D (aa_loss A) s2 (an_window D + 1 + k2) -> dget "anomaly" (i_idx y2) = Some (Some v2) ->
  (forall lb err1 err2, In lb ls -> item_error D s1 (an_window D + 1 + k1) lb err1 -> item_error D s2 (an_window D + 1 + k2) lb err2 -> Qcle (qabs err1) (qabs err2)) -> Qcle v1 v2.
Proof.
  intros e e' lg D A s1 s1' s2 s2' ls k1 k2 y1 y2 v1 v2 R1 R2 L1 L2 P St C H1 H2 Y1 N1 V1 Y2 N2 V2 Le. apply (C57_follows_the_deviation e e' lg D A s1 s1' s2 s2' ls k1 k2 y1 y2 v1 v2); try assumption.
  intros lb x1 x2 Il X1 X2. destruct (centred_deviation D s1 _ lb x1 (fun d => C lb d Il) X1) as (err1 & E1 & ->). destruct (centred_deviation D s2 _ lb x2 (fun d => C lb d Il) X2) as (err2 & E2 & ->). apply (Le lb); assumption.
Qed.
Print Assumptions C57_follows_the_error_partial.

(* The detector can always be applied, without details, if it has a forecaster, the bounds have a value, the index can be computed
   along the range, and every item which is not skipped has its errors. *)
Theorem C57_succeeds : forall e lg D A s ls, parses_units e -> ready e s -> labels_of s = Ok ls -> is_reconstructor (an_inner D) = false -> an_metric D <> MSle -> an_metric D <> MUnknown ->
  aa_type A = ILin \/ aa_type A = ILog -> standard (aa_strategy A) -> aa_details A = DNone -> bounded D A ls -> proper_ranges lg D A ls -> predictable D (aa_loss A) s ls ->
  exists s', an_apply e lg D A None s = Ok s' /\ fresh e s'.
Proof. exact apply_total. Qed.
Print Assumptions C57_succeeds.

(* fit stores, for every label, the errors on the items from window + 1 on (for a reconstructor, up to the last but window), and
   the distribution and the standard deviation of these. *)
Theorem C57_fit_stores_the_errors : forall m w k fit_dist stdev s D ls, an_fit m w k true fit_dist stdev s = Ok D -> labels_of s = Ok ls -> NoDup ls ->
  an_inner D = m /\ an_window D = w /\ an_metric D = k /\ exists al, an_errors D = Some al /\ forall lb, In lb ls -> exists es d sd,
    dget lb al = Some es /\ dget lb (an_dists D) = Some d /\ fit_dist es = Ok d /\ dget lb (an_stdevs D) = Some sd /\ stdev es = Ok sd /\
    length es = length (s_items s) - (w + 1) - (if is_reconstructor m then w else 0) /\
    forall j err, nth_error es j = Some err -> item_error D s (w + 1 + j) lb err.
Proof.
  intros m w k fd sd s D ls H L Nd. destruct (fit_unfold _ _ _ _ _ _ _ _ H) as (ls' & es & L' & K & Es & D1 & D2 & D3 & D4 & D5 & D6 & D7 & D8). rewrite L in L'. injection L' as <-.
  do 3 (split; [assumption|]). exists es. split; [exact D4|]. intros lb Il.
  assert (Gt : forall V (dd : dict V), map fst dd = ls -> exists v, dget lb dd = Some v /\ In (lb, v) dd). { intros V dd E. destruct (dget lb dd) as [v|] eqn:G; [exists v; split; [reflexivity|apply dget_Some_In; exact G]|]. apply (proj1 (dget_None lb dd)) in G. destruct G. unfold dkeys. rewrite E. exact Il. }
  destruct (Gt _ es K) as (l & G1 & I1). destruct (Gt _ _ D5) as (d & G2 & I2). destruct (Gt _ _ D6) as (q & G3 & I3). destruct (D7 lb d I2) as (l2 & J2 & F2). destruct (D8 lb q I3) as (l3 & J3 & F3).
  assert (Un : forall l', In (lb, l') es -> l' = l). { intros l' J. rewrite <- K in Nd. assert (Q := dget_NoDup lb es l' Nd J). rewrite G1 in Q. injection Q as ->. reflexivity. }
  rewrite (Un l2 J2) in F2. rewrite (Un l3 J3) in F3. exists l, d, q. do 5 (split; [assumption|]).
  assert (Fe := errors_are m w k s lb l D D1 D2 D3 (Es lb l I1)). rewrite positions_seq in Fe. split; [assert (Q := F2_len _ _ _ Fe); rewrite seq_length in Q; lia|].
  intros j err J. destruct (F2_get_r _ _ _ Fe j err J) as (i & Ji & E). assert (Lj : j < length (seq (S w) (length (s_items s) - S w - (if is_reconstructor m then w else 0)))) by (apply nth_error_Some; congruence). rewrite seq_length in Lj. rewrite (seq_nth_error _ _ _ Lj) in Ji. injection Ji as <-. rewrite Nat.add_1_r. exact E.
Qed.
Print Assumptions C57_fit_stores_the_errors.

(* If the range starts from the maximum error of the fit and the distributions are not centred above zero, the series of the fit
   is nowhere anomalous; the average error is never above the maximum one. *)
Theorem C57_fit_series_is_not_anomalous : forall e lg m w k fit_dist stdev D A s s' ls j y v, ready e s -> labels_of s = Ok ls -> an_fit m w k true fit_dist stdev s = Ok D ->
  aa_start A = BMaxErr -> (forall lb d, In lb ls -> dget lb (an_dists D) = Some d -> Qcle (loc d) q0) -> standard (aa_strategy A) -> (forall t, aa_threshold A = Some t -> Qclt q0 t) ->
  an_apply e lg D A None s = Ok s' -> nth_error (s_items s') j = Some y -> ~ skipped D (aa_loss A) s (w + 1 + j) -> dget "anomaly" (i_idx y) = Some (Some v) -> v = q0.
Proof.
  intros e lg m w k fd sd D A s s' ls j y v R L F St Lc Sd T H Y N V. destruct (ready_labels_of e s ls R L) as [Nd _].
  destruct (C57_fit_stores_the_errors m w k fd sd s D ls F L Nd) as (E1 & E2 & E3 & al & Al & Fe). rewrite <- E2 in N.
  apply (C57_zero_up_to_the_start e lg D A s s' ls j y v R L Sd T H Y N V). intros lb x xs Il (d & err & Dd & Er & X) B. rewrite St in B. destruct B as (al' & es & d' & B1 & B2 & B3 & _ & B4). rewrite Al in B1. injection B1 as <-.
  destruct (Fe lb Il) as (es' & d2 & sd2 & G1 & _ & _ & _ & _ & Ln & Fi). rewrite G1 in B2. injection B2 as <-. assert (Lk := proj1 (nth_error_Some (s_items s') j) ltac:(congruence)).
  destruct (apply_ok e lg D A None s s' (fun ls i _ _ => no_store D s i ls) (ready_data e s R) H) as (_ & _ & _ & Le & _). rewrite E1, E2 in Le.
  destruct (nth_error es' j) as [err'|] eqn:Ej; [|apply nth_error_None in Ej; lia]. assert (Ee := Fi j err' Ej). rewrite <- E2 in Ee. rewrite (item_error_unique D s _ lb err err' (ready_dicts e s R) Er Ee) in X.
  assert (Bj := B4 err' (nth_error_In _ _ Ej)). specialize (Lc lb d Il Dd). assert (Ab : Qcle err' (qabs err')) by (unfold qabs; destruct (qltb_spec err' (Q2Qc 0)) as [Q|Q]; [qlra|apply Qcle_refl]). rewrite q0_eq in Lc. destruct X as [[_ ->]|[_ ->]]; qlra.
Qed.
Print Assumptions C57_fit_series_is_not_anomalous.
Theorem C57_average_not_above_maximum : forall D lb x y, bound_is D lb BAvgErr x -> bound_is D lb BMaxErr y -> Qcle x y.
Proof. exact avg_le_max. Qed.
Print Assumptions C57_average_not_above_maximum.

(* Fitted without storing the errors, the detector can never be applied. *)
Theorem C57_not_without_errors : forall e lg m w k fit_dist stdev D A pre s s', ready e s' -> an_fit m w k false fit_dist stdev s = Ok D -> an_apply e lg D A pre s' = Err KeyError.
Proof.
  intros e lg m w k fd sd D A pre s s' R F. destruct (fit_unfold _ _ _ _ _ _ _ _ F) as (ls & es & _ & _ & _ & _ & _ & _ & D4 & _). destruct (ready_labels_known e s' R) as (x & l & X & L).
  assert (Ny : numeric_item x) by (apply R; rewrite X; left; reflexivity). assert (Ne := item_labels_nonempty x Ny). unfold an_apply. rewrite L. cbn [bind]. destruct (item_labels x) as [|lb lbs]; [congruence|]. cbn [mapM]. unfold range_of at 1 3 5 7. rewrite D4. cbn [bind]. destruct (an_metric D); reflexivity.
Qed.
Print Assumptions C57_not_without_errors.
(* With the bounds as a tuple, the documented type, the default ones 'avg_err' and 'max_err' are a TypeError. *)
Theorem C57_no_names_in_a_tuple : forall e lg D A pre s x0 al lb lbs er es d, ready e s -> nth_error (s_items s) 0 = Some x0 -> item_labels x0 = lb :: lbs -> an_metric D <> MSle -> an_metric D <> MUnknown ->
  an_errors D = Some al -> dget lb al = Some (er :: es) -> dget lb (an_dists D) = Some d -> aa_tuple A = true -> aa_start A = BAvgErr \/ aa_start A = BMaxErr -> an_apply e lg D A pre s = Err TypeError.
Proof.
  intros e lg D A pre s x0 al lb lbs er es d R X0 Li M1 M2 Al G Dd T St. destruct (ready_labels_known e s R) as (x & l & X & L). rewrite X in X0. injection X0 as <-. unfold an_apply. rewrite L, Li. cbn [bind mapM]. unfold range_of at 1 3 5 7. rewrite Al. cbn [bind]. unfold by_key. rewrite G. cbn [bind]. rewrite Dd. cbn [bind]. rewrite T.
  assert (E : bound_of D lb d (map qabs (er :: es)) true (aa_start A) = Err TypeError).
  { destruct St as [->| ->]; cbn [bound_of]; [|reflexivity]. destruct (lavg_some (map qabs (er :: es))) as [q ->]; [discriminate|reflexivity]. }
  rewrite E. cbn [bind]. destruct (an_metric D); try reflexivity; congruence.
Qed.
Print Assumptions C57_no_names_in_a_tuple.

(* ---- a detector whose model predicts zero: the errors are the values ---- *)
Definition zero_forecast (v : view) : result prediction := Ok (PrList [[("value"%string, q0)]]).
Definition zero_reconstruct (s : series) (from to : nat) : result prediction := Ok (PrDict [("value"%string, PvList [q0])]).
(* a decreasing "density" centred in c, and its inverse *)
Definition slope (c : Qc) : dist := mkDist (fun x => Qcminus (qz 100) x) c (fun y => Ok (Qcminus (qz 100) y)).
(* one which grows up to c and then decreases *)
Definition tent (c : Qc) : dist := mkDist (fun x => Qcminus (qz 100) (qabs (Qcminus x c))) c (fun y => Ok (Qcminus (qz 100) y)).
Definition detector_of (m : inner) (d : dist) (l : list item) : detector_model :=
  match an_fit m 1 ME true (fun _ => Ok d) (fun _ => Ok q1) (ms l) with Ok D => D | Err _ => mkDetector INeither 0 MUnknown None [] [] end.
Definition values (l : list (Z * Z)) : list item := map (fun ia => ptl (10 * Z.of_nat (fst ia)) (fst (snd ia)) (snd (snd ia))) (combine (seq 0 (length l)) l).
Definition clean (l : list Z) : list item := values (map (fun v => (v, 0%Z)) l).
Definition usual : apply_args := mkArgs false BAvgErr BMaxErr ILin None SMax q1 DNone.
Definition anomaly_of_items (s : series) : list (option (option Qc)) := map (fun x => dget "anomaly" (i_idx x)) (s_items s).
Definition same_indexes (r : result series) (l : list (option Qc)) : bool :=
  match r with
  | Ok s => Nat.eqb (length (s_items s)) (length l) && forallb (fun p => match dget "anomaly" (i_idx (fst p)), snd p with Some (Some v), Some w => qeqb v w | None, None => true | _, _ => false end) (combine (s_items s) l)
  | Err _ => false
  end.
Definition training : list Z := [5; 0; 1; 2; -3; 0]%Z.
Definition observed : list Z := [0; 0; 1; 2; -2; 10; 3]%Z.
Definition D0 : detector_model := detector_of (IForecaster zero_forecast) (slope q0) (clean training).
Lemma values_ready l : s_items (ms (values l)) = values l -> sortedb (times (values l)) = true -> values l <> [] -> ts_new ideal_env None (values l) = Ok (ms (values l)) -> ready ideal_env (ms (values l)).
Proof.
  intros E S1 N B. assert (One : one_label (values l)). { intros x X. apply in_map_iff in X. destruct X as ([i [a b]] & <- & _). split; [reflexivity|eexists; reflexivity]. }
  assert (D : dict_points (ms (values l))) by (apply one_label_dict; rewrite E; assumption). split; [exists None; rewrite E; exact B|]. split; [apply D|]. split; [left; apply D|]. split; [apply D|]. cbn. discriminate.
Qed.
Ltac values_ready_tac := apply values_ready; [vm_compute; reflexivity|vm_compute; reflexivity|discriminate|vm_compute; reflexivity].
Lemma observed_ready : ready ideal_env (ms (clean observed)).
Proof. unfold clean. values_ready_tac. Qed.
Lemma training_ready : ready ideal_env (ms (clean training)).
Proof. unfold clean. values_ready_tac. Qed.
Lemma qlt_dec a b : qltb a b = true -> Qclt a b. Proof. apply qltb_lt. Qed.
Lemma slope_proper lg c it xs xe : it = ILin -> proper lg it (slope c) xs xe.
Proof. intros -> L. split; [intros x y _ H _; cbn; qlra|cbn; qlra]. Qed.
Lemma D0_dist lb d : dget lb (an_dists D0) = Some d -> lb = "value"%string /\ d = slope q0.
Proof.
  assert (E : an_dists D0 = [("value"%string, slope q0)]) by (vm_compute; reflexivity). rewrite E. cbn. destruct (String.eqb_spec lb "value") as [->|N]; intros H; [injection H as <-; split; reflexivity|discriminate].
Qed.
Lemma D0_errors : exists a b c d, an_errors D0 = Some [("value"%string, [a; b; c; d])] /\ qeqb a (qz 1) = true /\ qeqb b (qz 2) = true /\ qeqb c (qz (-3)) = true /\ qeqb d (qz 0) = true.
Proof. eexists _, _, _, _. split; [vm_compute; reflexivity|]. do 3 (split; [vm_compute; reflexivity|]). vm_compute. reflexivity. Qed.
Lemma D0_bound_avg : bound_is D0 "value" BAvgErr (qfrac 3 2).
Proof.
  destruct D0_errors as (a & b & c & d & E & A & B & C & Dd). apply qeqb_eq in A, B, C, Dd. subst. eexists _, _, (slope q0). split; [exact E|]. split; [reflexivity|]. split; [vm_compute; reflexivity|]. split; [discriminate|]. apply qeqb_eq. vm_compute. reflexivity.
Qed.
Lemma D0_bound_max : bound_is D0 "value" BMaxErr (qz 3).
Proof.
  destruct D0_errors as (a & b & c & d & E & A & B & C & Dd). apply qeqb_eq in A, B, C, Dd. subst. eexists _, _, (slope q0). split; [exact E|]. split; [reflexivity|]. split; [vm_compute; reflexivity|]. split.
  - exists (qz (-3)). split; [cbn; tauto|]. apply qeqb_eq. vm_compute. reflexivity.
  - intros q [<- | [<- | [<- | [<- | []]]]]; apply qleb_le; vm_compute; reflexivity.
Qed.
Lemma clean_error l i v D : s_items (ms (clean l)) = clean l -> nth_error l i = Some v -> an_inner D = IForecaster zero_forecast -> an_metric D = ME -> item_error D (ms (clean l)) i "value" (qz v).
Proof.
  intros E N Di Dm. assert (X : forall l k i, nth_error (map (fun ia => ptl (10 * Z.of_nat (fst ia)) (fst (snd ia)) (snd (snd ia))) (combine (seq k (length l)) l)) i = option_map (fun q => ptl (10 * Z.of_nat (k + i)) (fst q) (snd q)) (nth_error l i)).
  { clear. induction l as [|a l IH]; intros k [|i]; cbn [length seq combine map nth_error option_map fst snd]; [reflexivity|reflexivity|rewrite Nat.add_0_r; reflexivity|]. rewrite IH. rewrite Nat.add_succ_r. reflexivity. }
  eexists _, (qz v), q0. split; [rewrite E; unfold clean, values; rewrite (X _ 0 i); rewrite nth_error_map, N; reflexivity|]. split; [left; reflexivity|]. split.
  - eexists. rewrite Di. split; [|reflexivity]. eexists _, _. split; [reflexivity|]. reflexivity.
  - rewrite Dm. cbn. rewrite q0_eq. ring.
Qed.
Lemma clean_not_skipped D l i : s_items (ms (clean l)) = clean l -> ~ skipped D q1 (ms (clean l)) i.
Proof.
  intros E (j & x & _ & _ & N & (q & Dl & Lq)). apply nth_error_In in N. rewrite E in N. apply in_map_iff in N. destruct N as ([k [a b]] & <- & I1). apply in_combine_r in I1. apply in_map_iff in I1. destruct I1 as (z & Ez & _). injection Ez as <- <-.
  cbn in Dl. assert (Eq : q = qz 0) by congruence. rewrite Eq in Lq. unfold q1 in Lq. apply (proj1 (qz_le_iff 1 0)) in Lq. lia.
Qed.
Lemma observed_items : s_items (ms (clean observed)) = clean observed.
Proof. vm_compute. reflexivity. Qed.
(* The hypotheses of the theorems are met, and the indexes are those expected: 0, 1/3, 1/3, 1 and 1 for the errors 1, 2, -2, 10 and
   3 with the range from 3/2 to 3. *)
Example C57_nonvacuous : forall lg, parses_units ideal_env /\ ready ideal_env (ms (clean observed)) /\ labels_of (ms (clean observed)) = Ok ["value"%string] /\
  is_reconstructor (an_inner D0) = false /\ an_metric D0 = ME /\ standard (aa_strategy usual) /\ bounded D0 usual ["value"%string] /\ proper_ranges lg D0 usual ["value"%string] /\
  predictable D0 (aa_loss usual) (ms (clean observed)) ["value"%string] /\
  same_indexes (an_apply ideal_env lg D0 usual None (ms (clean observed))) [Some q0; Some (qfrac 1 3); Some (qfrac 1 3); Some q1; Some q1] = true.
Proof.
  intros lg. split; [intros x; eexists; reflexivity|]. split; [exact observed_ready|]. split; [vm_compute; reflexivity|]. split; [vm_compute; reflexivity|]. split; [vm_compute; reflexivity|]. split; [exact I|]. split; [|split; [|split]].
  - split; [discriminate|]. intros lb [<- | []]. exists (qfrac 3 2), (qz 3), (slope q0). split; [vm_compute; reflexivity|]. split; [exact D0_bound_avg|]. split; [exact D0_bound_max|discriminate].
  - intros lb d xs xe _ Dd _ _. destruct (D0_dist _ _ Dd) as [_ ->]. apply slope_proper. reflexivity.
  - intros i lb Li _ [<- | []]. rewrite observed_items in Li. assert (W : an_window D0 = 1) by (vm_compute; reflexivity). rewrite W in Li. change (length (clean observed)) with 7 in Li.
    assert (X : exists v, nth_error observed i = Some v). { destruct (nth_error observed i) as [v|] eqn:Q; [exists v; reflexivity|]. apply nth_error_None in Q. cbn in Q. lia. }
    destruct X as [v X]. exists (qz v). apply clean_error; [exact observed_items|exact X|vm_compute; reflexivity|vm_compute; reflexivity].
  - vm_compute. reflexivity.
Qed.
(* the series of the fit itself, with the range from the maximum error on *)
Example C57_fit_series_example : forall lg, ready ideal_env (ms (clean training)) /\ an_fit (IForecaster zero_forecast) 1 ME true (fun _ => Ok (slope q0)) (fun _ => Ok q1) (ms (clean training)) = Ok D0 /\
  same_indexes (an_apply ideal_env lg D0 (mkArgs false BMaxErr (BNum (qz 10)) ILin None SMax q1 DNone) None (ms (clean training))) [Some q0; Some q0; Some q0; Some q0] = true.
Proof. intros lg. split; [exact training_ready|]. split; vm_compute; reflexivity. Qed.

(* ---- what does not hold ---- *)
(* The index is not always in the unit interval: with errors centred in 5, which start from 1, it is negative for an error of 5. *)
Definition numbers (a b : Z) (it : itype) : apply_args := mkArgs false (BNum (qz a)) (BNum (qz b)) it None SMax q1 DNone.
Theorem C57_in_the_unit_interval_refuted : ~ (forall e lg D A s s' k y v, ready e s -> standard (aa_strategy A) -> aa_type A = ILin -> an_apply e lg D A None s = Ok s' ->
  nth_error (s_items s') k = Some y -> ~ skipped D (aa_loss A) s (an_window D + 1 + k) -> dget "anomaly" (i_idx y) = Some (Some v) -> Qcle q0 v).
Proof.
  intros H. set (D := detector_of (IForecaster zero_forecast) (tent (qz 5)) (clean training)). set (s := ms (clean [0; 0; 5]%Z)).
  assert (Rs : ready ideal_env s) by (unfold s, clean; values_ready_tac).
  assert (X : exists s' y v, an_apply ideal_env (fun x => x) D (numbers 1 20 ILin) None s = Ok s' /\ nth_error (s_items s') 0 = Some y /\ dget "anomaly" (i_idx y) = Some (Some v) /\ qltb v q0 = true).
  { eexists _, _, _. split; [vm_compute; reflexivity|]. split; [reflexivity|]. split; [reflexivity|]. vm_compute. reflexivity. }
  destruct X as (s' & y & v & X & Y & V & L). apply qltb_lt in L. assert (W : an_window D = 1) by (vm_compute; reflexivity).
  assert (Q := H ideal_env (fun x => x) D (numbers 1 20 ILin) s s' 0 y v Rs I eq_refl X Y). rewrite W in Q. apply (Qclt_not_le _ _ L), Q; [|exact V].
  apply clean_not_skipped. vm_compute. reflexivity.
Qed.
Print Assumptions C57_in_the_unit_interval_refuted.
(* It can grow while the error gets smaller: with errors centred in 2, and the same decreasing density above the start of the
   range, an error of 1 has a greater index than one of 2 (and of 3). *)
Theorem C57_follows_the_error_refuted : ~ (forall e lg D A s s' k1 k2 y1 y2 v1 v2 err1 err2, ready e s -> labels_of s = Ok ["value"%string] -> proper_ranges lg D A ["value"%string] -> standard (aa_strategy A) -> an_apply e lg D A None s = Ok s' ->
  nth_error (s_items s') k1 = Some y1 -> dget "anomaly" (i_idx y1) = Some (Some v1) -> nth_error (s_items s') k2 = Some y2 -> dget "anomaly" (i_idx y2) = Some (Some v2) ->
  item_error D s (an_window D + 1 + k1) "value" err1 -> item_error D s (an_window D + 1 + k2) "value" err2 -> Qcle (qabs err1) (qabs err2) -> Qcle v1 v2).
Proof.
  intros H. set (D := detector_of (IForecaster zero_forecast) (slope (qz 2)) (clean training)). set (s := ms (clean [0; 0; 1; 2; 3]%Z)).
  assert (Rs : ready ideal_env s) by (unfold s, clean; values_ready_tac). assert (Es : s_items s = clean [0; 0; 1; 2; 3]%Z) by (vm_compute; reflexivity).
  assert (X : exists s' y1 y2 v1 v2, an_apply ideal_env (fun x => x) D (numbers 2 20 ILin) None s = Ok s' /\ nth_error (s_items s') 0 = Some y1 /\ dget "anomaly" (i_idx y1) = Some (Some v1) /\
    nth_error (s_items s') 1 = Some y2 /\ dget "anomaly" (i_idx y2) = Some (Some v2) /\ qltb v2 v1 = true).
  { eexists _, _, _, _, _. split; [vm_compute; reflexivity|]. split; [reflexivity|]. split; [reflexivity|]. split; [reflexivity|]. split; [reflexivity|]. vm_compute. reflexivity. }
  destruct X as (s' & y1 & y2 & v1 & v2 & X & Y1 & V1 & Y2 & V2 & L). apply qltb_lt in L. apply (Qclt_not_le _ _ L).
  assert (W : an_window D = 1) by (vm_compute; reflexivity).
  apply (H ideal_env (fun x => x) D (numbers 2 20 ILin) s s' 0 1 y1 y2 v1 v2 (qz 1) (qz 2) Rs); try assumption; [vm_compute; reflexivity| |exact I| | |].
  - intros lb d xs xe _ Dd _ _. assert (E : an_dists D = [("value"%string, slope (qz 2))]) by (vm_compute; reflexivity). rewrite E in Dd. cbn in Dd. destruct (String.eqb lb "value"); [|discriminate]. injection Dd as <-. apply slope_proper. reflexivity.
  - rewrite W. apply clean_error; [exact Es|reflexivity|vm_compute; reflexivity|vm_compute; reflexivity].
  - rewrite W. apply clean_error; [exact Es|reflexivity|vm_compute; reflexivity|vm_compute; reflexivity].
  - apply qleb_le. vm_compute. reflexivity.
Qed.
Print Assumptions C57_follows_the_error_refuted.
(* A reconstructor does not always give an index to all the items which have a window on both sides: the result ends before the
   first item with too much data loss. *)
Theorem C57_all_items_with_a_reconstructor_refuted : ~ (forall e lg D A s s', ready e s -> is_reconstructor (an_inner D) = true -> an_apply e lg D A None s = Ok s' ->
  length (s_items s') = length (s_items s) - (an_window D + 1) - an_window D).
Proof.
  intros H. set (D := detector_of (IReconstructor zero_reconstruct) (slope q0) (clean training)). set (s := ms (values [(0, 0); (0, 0); (1, 0); (2, 0); (1, 0); (9, 1); (1, 0); (1, 0); (1, 0); (1, 0)]%Z)).
  assert (Rs : ready ideal_env s) by (unfold s; values_ready_tac).
  assert (X : exists s', an_apply ideal_env (fun x => x) D usual None s = Ok s' /\ length (s_items s') = 2) by (eexists; split; [vm_compute; reflexivity|reflexivity]). destruct X as (s' & X & Ln).
  assert (Q := H ideal_env (fun x => x) D usual s s' Rs ltac:(vm_compute; reflexivity) X). rewrite Ln in Q. vm_compute in Q. discriminate.
Qed.
Print Assumptions C57_all_items_with_a_reconstructor_refuted.
(* the same detector: missing data losses after some known ones *)
Example C57_reconstructor_missing_loss : an_apply ideal_env (fun x => x) (detector_of (IReconstructor zero_reconstruct) (slope q0) (clean training)) usual None
  (ms [ptl 0 0 0; ptl 10 0 0; ptl 20 0 0; ptl 30 1 0; pt 40 2; pt 50 3]) = Err TypeError.
Proof. vm_compute. reflexivity. Qed.
(* the range where the density is the same at the two ends: ZeroDivisionError with the (default) logarithmic index, not a number
   with the linear one *)
Example C57_flat_range : an_apply ideal_env (fun x => x) (detector_of (IForecaster zero_forecast) (tent (qz 5)) (clean training)) (numbers 3 7 ILog) None (ms (clean [0; 0; 6]%Z)) = Err ZeroDivisionError /\
  an_apply ideal_env (fun x => x) (detector_of (IForecaster zero_forecast) (tent (qz 5)) (clean training)) (numbers 3 7 ILin) None (ms (clean [0; 0; 6]%Z)) = Err NotANumber.
Proof. split; vm_compute; reflexivity. Qed.
(* the squared logarithmic error is accepted by fit, which then fails *)
Example C57_squared_log_error : an_fit (IForecaster zero_forecast) 1 MSle true (fun _ => Ok (slope q0)) (fun _ => Ok q1) (ms (clean training)) = Err ValueError.
Proof. vm_compute. reflexivity. Qed.
Example C57_tuple_example : an_apply ideal_env (fun x => x) D0 (mkArgs true BAvgErr BMaxErr ILin None SMax q1 DNone) None (ms (clean observed)) = Err TypeError.
Proof. vm_compute. reflexivity. Qed.
(* skipped items have no anomaly index, and then the events of the result can not be marked *)
Example C57_skipped_items : exists s', an_apply ideal_env (fun x => x) D0 usual None (ms (values [(0, 0); (0, 0); (1, 0); (9, 1); (1, 0); (10, 0)]%Z)) = Ok s' /\
  same_indexes (Ok s') [Some q0; None; None; Some q1] = true /\ mark_events ideal_env q1 2 2 false false s' = Err KeyError.
Proof. eexists. split; [vm_compute; reflexivity|]. split; vm_compute; reflexivity. Qed.

(* ===================== C69 ===================== *)
(* Two series with the same first n items (and the same resolution): the first n - window - 1 items of the results are the same,
   whatever follows. *)
Theorem C69_only_the_past_matters : forall e lg D A n s1 s2 s1' s2', ready e s1 -> ready e s2 -> n <= length (s_items s1) -> n <= length (s_items s2) ->
  firstn n (s_items s1) = firstn n (s_items s2) -> resolution s1 = resolution s2 -> reads_past (an_inner D) ->
  an_apply e lg D A None s1 = Ok s1' -> an_apply e lg D A None s2 = Ok s2' ->
  firstn (n - (an_window D + 1)) (s_items s1') = firstn (n - (an_window D + 1)) (s_items s2').
Proof.
  intros e lg D A n s1 s2 s1' s2' R1 R2 L1 L2 E Rs Rp H1 H2. rewrite Nat.add_1_r. apply (apply_agree e lg D A n s1 s2 s1' s2' R1 R2); [|exact Rp|exact H1|exact H2]. split; [exact E|]. split; [exact L1|]. split; [exact L2|exact Rs].
Qed.
Print Assumptions C69_only_the_past_matters.
(* If a series can be processed then also its first items can, and the result is the same on these: nothing changes when more
   items arrive. *)
Theorem C69_on_the_first_items : forall e lg D A s1 s2 s2', ready e s1 -> ready e s2 -> s_items s1 = firstn (length (s_items s1)) (s_items s2) -> resolution s1 = resolution s2 -> reads_past (an_inner D) ->
  an_apply e lg D A None s2 = Ok s2' ->
  exists s1', an_apply e lg D A None s1 = Ok s1' /\ s_items s1' = firstn (length (s_items s1) - (an_window D + 1)) (s_items s2').
Proof.
  intros e lg D A s1 s2 s2' R1 R2 E Rs Rp H. rewrite Nat.add_1_r. assert (Ln : length (s_items s1) <= length (s_items s2)) by (assert (Q := f_equal (@length item) E); rewrite firstn_length in Q; lia).
  apply (apply_prefix e lg D A s1 s2 s2' R1 R2); [|exact Rp|exact H]. split; [rewrite firstn_all; exact E|]. split; [lia|]. split; [exact Ln|exact Rs].
Qed.
Print Assumptions C69_on_the_first_items.
(* a forecaster which predicts the last value *)
Definition last_forecast (v : view) : result prediction :=
  do l <- view_items v; match rev l with x :: _ => do q <- data_at x "value"; Ok (PrList [[("value"%string, q)]]) | [] => Err IndexError end.
Definition D1 : detector_model := detector_of (IForecaster last_forecast) (slope q0) (clean training).
Lemma last_reads_past : reads_past (an_inner D1).
Proof. assert (E : an_inner D1 = IForecaster last_forecast) by reflexivity. rewrite E. intros v v' Ev _. unfold last_forecast. rewrite Ev. reflexivity. Qed.
Example C69_nonvacuous : forall lg, ready ideal_env (ms (clean (firstn 5 observed))) /\ ready ideal_env (ms (clean observed)) /\ reads_past (an_inner D1) /\
  s_items (ms (clean (firstn 5 observed))) = firstn 5 (s_items (ms (clean observed))) /\ resolution (ms (clean (firstn 5 observed))) = resolution (ms (clean observed)) /\
  same_indexes (an_apply ideal_env lg D1 usual None (ms (clean observed))) [Some q0; Some q0; Some (qfrac 3 5); Some q1; Some q1] = true /\
  same_indexes (an_apply ideal_env lg D1 usual None (ms (clean (firstn 5 observed)))) [Some q0; Some q0; Some (qfrac 3 5)] = true.
Proof.
  intros lg. split; [unfold clean; values_ready_tac|]. split; [exact observed_ready|]. split; [exact last_reads_past|]. split; [vm_compute; reflexivity|]. split; [vm_compute; reflexivity|]. split; vm_compute; reflexivity.
Qed.

(* ===================== C70 ===================== *)
(* Once the series is pre-processed, the result is the same, errors included. *)
Theorem C70_preprocessing_changes_nothing : forall e lg D A s P, an_preprocess D s = Ok P -> an_apply e lg D A (Some P) s = an_apply e lg D A None s.
Proof. exact preprocess_same. Qed.
Print Assumptions C70_preprocessing_changes_nothing.
Example C70_nonvacuous : forall lg, exists P, an_preprocess D1 (ms (clean observed)) = Ok P /\ length P = 5 /\
  same_indexes (an_apply ideal_env lg D1 usual (Some P) (ms (clean observed))) [Some q0; Some q0; Some (qfrac 3 5); Some q1; Some q1] = true.
Proof. intros lg. eexists. split; [vm_compute; reflexivity|]. split; [reflexivity|]. vm_compute. reflexivity. Qed.

(* ===================== C71 ===================== *)
(* The details: the prediction of each label under label_pred, its deviation (the error brought to the right side of the
   distribution) under label_err, its adherence under label_adh; the other labels keep their values. *)
Theorem C71_details_partial : forall e lg D A s s' ls k y lb, ready e s -> labels_of s = Ok ls -> an_apply e lg D A None s = Ok s' -> nth_error (s_items s') k = Some y ->
  ~ skipped D (aa_loss A) s (an_window D + 1 + k) -> In lb ls ->
  (wants_pred (aa_details A) -> exists p, predicts (an_inner D) s (an_window D + 1 + k) lb p /\ has_value y (lb ++ "_pred") p) /\
  (wants_err (aa_details A) -> exists x, deviates D s (an_window D + 1 + k) lb x /\ has_value y (lb ++ "_err") x) /\
  (aa_details A = DAll -> exists a, adheres D s (an_window D + 1 + k) lb a /\ has_value y (lb ++ "_adh") a).
Proof.
  intros e lg D A s s' ls k y lb R L H Y N Il. rewrite Nat.add_1_r in *. destruct (ready_labels_of e s ls R L) as [Nd _].
  destruct (apply_details e lg D A s s' ls L Nd (ready_data e s R) H k y Y N lb Il) as (Q1 & Q2 & Q3). split; [|split].
  - intros W. destruct (Q1 W) as (p & P & V). exists p. split; [exact P|apply value_has; exact V].
  - intros W. destruct (Q2 W) as (p & P & V). exists p. split; [exact P|apply value_has; exact V].
  - intros W. assert (Wa : wants_adh (aa_details A)) by (rewrite W; exact I). destruct (Q3 Wa) as (p & P & V). exists p. split; [exact P|]. rewrite W in V. apply value_has. exact V.
Qed.
Print Assumptions C71_details_partial.
Theorem C71_other_data_kept : forall e lg D A s s' ls k y, ready e s -> labels_of s = Ok ls -> an_apply e lg D A None s = Ok s' -> nth_error (s_items s') k = Some y ->
  exists x d d', nth_error (s_items s) (an_window D + 1 + k) = Some x /\ i_data x = Some (DDict d) /\ i_data y = Some (DDict d') /\ forall lb, ~ detail_name ls lb -> dget lb d' = dget lb d.
Proof.
  intros e lg D A s s' ls k y R L H Y. destruct (C57_items_of_the_result e lg D A s s' R H) as (ls' & L' & O & _). rewrite L in L'. injection L' as <-. destruct (O k y Y) as (x & X & [[_ ->]|(_ & (_ & _ & d & d' & E1 & E2 & Kp) & _)]).
  - destruct (ready_data e s R x (nth_error_In _ _ X)) as [d Dx]. exists x, d, d. repeat split; assumption.
  - exists x, d, d'. repeat split; assumption.
Qed.
Print Assumptions C71_other_data_kept.
Definition with_all (dt : details) : apply_args := mkArgs false BAvgErr BMaxErr ILin None SMax q1 dt.
(* asked for in a list, the adherence is under another label; the error loses its sign *)
Theorem C71_details_in_a_list_refuted : ~ (forall e lg D A s s' k y lb, ready e s -> labels_of s = Ok [lb] -> an_apply e lg D A None s = Ok s' -> nth_error (s_items s') k = Some y ->
  ~ skipped D (aa_loss A) s (an_window D + 1 + k) -> wants_adh (aa_details A) -> exists a, has_value y (lb ++ "_adh") a).
Proof.
  intros H. assert (X : exists s' y, an_apply ideal_env (fun x => x) D0 (with_all (DSome true true true)) None (ms (clean observed)) = Ok s' /\ nth_error (s_items s') 0 = Some y /\ forallb (fun p => negb (String.eqb (fst p) "value_adh")) (match i_data y with Some (DDict d) => d | _ => [] end) = true).
  { eexists _, _. split; [vm_compute; reflexivity|]. split; [reflexivity|]. vm_compute. reflexivity. }
  destruct X as (s' & y & X & Y & B). destruct (H ideal_env (fun x => x) D0 (with_all (DSome true true true)) (ms (clean observed)) s' 0 y "value"%string observed_ready ltac:(vm_compute; reflexivity) X Y) as [a V]; [apply clean_not_skipped; exact observed_items|reflexivity|].
  unfold has_value in V. destruct (i_data y) as [[?|d]|]; [|rewrite forallb_forall in B; specialize (B _ V); cbn in B; discriminate|destruct V].
  destruct V as (n & E & _). assert (Q := parse_nat_str n). rewrite <- E in Q. vm_compute in Q. discriminate.
Qed.
Print Assumptions C71_details_in_a_list_refuted.
(* label_err is not always the error: its sign is lost *)
Theorem C71_error_detail_refuted : ~ (forall e lg D A s s' k y lb err, ready e s -> labels_of s = Ok [lb] -> an_apply e lg D A None s = Ok s' -> nth_error (s_items s') k = Some y ->
  ~ skipped D (aa_loss A) s (an_window D + 1 + k) -> wants_err (aa_details A) -> item_error D s (an_window D + 1 + k) lb err -> has_value y (lb ++ "_err") err).
Proof.
  intros H. assert (X : exists s' y, an_apply ideal_env (fun x => x) D0 (with_all DAll) None (ms (clean observed)) = Ok s' /\ nth_error (s_items s') 2 = Some y /\
    match i_data y with Some (DDict d) => forallb (fun p => negb (String.eqb (fst p) "value_err" && qeqb (snd p) (qz (-2)))) d | _ => false end = true).
  { eexists _, _. split; [vm_compute; reflexivity|]. split; [reflexivity|]. vm_compute. reflexivity. }
  destruct X as (s' & y & X & Y & B). assert (W : an_window D0 = 1) by (vm_compute; reflexivity).
  assert (V := H ideal_env (fun x => x) D0 (with_all DAll) (ms (clean observed)) s' 2 y "value"%string (qz (-2)) observed_ready ltac:(vm_compute; reflexivity) X Y (clean_not_skipped D0 observed _ observed_items) I).
  rewrite W in V. specialize (V (clean_error observed 4 (-2) D0 observed_items eq_refl ltac:(vm_compute; reflexivity) ltac:(vm_compute; reflexivity))).
  unfold has_value in V. destruct (i_data y) as [[?|d]|]; [discriminate| |destruct V]. rewrite forallb_forall in B. specialize (B _ V). cbn [fst snd] in B. rewrite qeqb_refl in B. discriminate.
Qed.
Print Assumptions C71_error_detail_refuted.
(* label_err is the error where it is not below the centre of its distribution, as always with absolute errors centred in zero *)
Theorem C71_error_detail_not_below_the_centre : forall e lg D A s s' ls k y lb d err, ready e s -> labels_of s = Ok ls -> an_apply e lg D A None s = Ok s' -> nth_error (s_items s') k = Some y ->
  ~ skipped D (aa_loss A) s (an_window D + 1 + k) -> In lb ls -> wants_err (aa_details A) -> dget lb (an_dists D) = Some d -> item_error D s (an_window D + 1 + k) lb err -> Qcle (loc d) err ->
  has_value y (lb ++ "_err") err.
Proof.
  intros e lg D A s s' ls k y lb d err R L H Y N Il W Dd E Le. destruct (C71_details_partial e lg D A s s' ls k y lb R L H Y N Il) as (_ & Q & _). destruct (Q W) as (x & Dv & V).
  assert (Dv' : deviates D s (an_window D + 1 + k) lb err) by (exists d, err; split; [exact Dd|]; split; [exact E|left; split; [exact Le|reflexivity]]). rewrite (deviates_unique D s _ lb x err (ready_dicts e s R) Dv Dv') in V. exact V.
Qed.
Print Assumptions C71_error_detail_not_below_the_centre.
(* for the error -2: prediction 0, deviation 2, adherence 98/100 *)
Example C71_nonvacuous : exists s' y, an_apply ideal_env (fun x => x) D0 (with_all DAll) None (ms (clean observed)) = Ok s' /\ nth_error (s_items s') 2 = Some y /\
  match i_data y with Some (DDict d) => Nat.eqb (length d) 4 && forallb (fun p => String.eqb (fst (fst p)) (fst (snd p)) && qeqb (snd (fst p)) (snd (snd p)))
    (combine d [("value"%string, qz (-2)); ("value_pred"%string, q0); ("value_err"%string, qz 2); ("value_adh"%string, qfrac 98 100)]) | _ => false end = true.
Proof. eexists _, _. split; [vm_compute; reflexivity|]. split; [reflexivity|]. vm_compute. reflexivity. Qed.
(* with details, and some item skipped but not all, the items of the result do not have the same labels *)
Example C71_skipped_items : an_apply ideal_env (fun x => x) D0 (with_all DAll) None (ms (values [(0, 0); (0, 0); (1, 0); (9, 1); (1, 0); (10, 0)]%Z)) = Err ValueError.
Proof. vm_compute. reflexivity. Qed.
