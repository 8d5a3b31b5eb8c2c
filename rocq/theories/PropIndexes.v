(* PropIndexes.v -- THEOREMS C100: the indexes of resampled and aggregated items. *)
From Verif Require Import SpecTransform BaseLemmas PropTactics Witness PropAccess PropOps PropIntervals AccessProofs AccessProofs3 OpsProofs OpsProofs2 SamplingProofs SeriesProofs2 IntervalsProofs IntervalsProofs2 IntervalsProofs3
  TransformProofs TransformProofs2 TransformProofs4 TransformProofs10 TransformProofs11 TransformProofs12 TransformProofs13 TransformProofs14 CsvProofs2 PropTransform.

Lemma named l F T pts x ix : indexes_are (all_indexes l) F T pts x -> ix <> "data_loss"%string ->
  ((exists y, In y l /\ In ix (dkeys (i_idx y))) -> dget ix (i_idx x) = Some (index_mean ix F T pts)) /\
  ((forall y, In y l -> ~ In ix (dkeys (i_idx y))) -> dget ix (i_idx x) = None).
Proof.
  intros I N. destruct (I ix N) as [A B]. split; intros H; [apply A, all_indexes_In, H|]. apply B. rewrite all_indexes_In. intros (y & Y & K). exact (H y Y K).
Qed.

(* ---------------- C100 ---------------- *)
(* A resampled point has the indexes of the points of the series, each with its mean on the interval. *)
Theorem C100_resample_indexes : forall e c rd d s start stop validity auto si t0 tl from to,
  parses_units e -> dict_points s -> Qclt q0 d -> interval_is validity auto si ->
  first_time (s_items s) t0 -> last_time (s_items s) tl ->
  (forall z, tz_is s z -> limit_is rd (UPhys d) start (Qcplus (rd_ceil rd (UPhys d) z (Qcminus t0 (Qcdiv d (qz 2)))) (Qcdiv d (qz 2))) from) ->
  limit_is rd (UPhys d) stop tl to -> Qcle t0 from ->
  exists N r src pts,
    (forall fuel, N <= fuel -> resample fuel e c rd (UPhys d) s start stop validity auto = Ok (r, src)) /\ with_regions si (s_items s) pts /\
    forall k x ix, nth_error (s_items r) k = Some x -> ix <> "data_loss"%string ->
      ((exists y, In y (s_items s) /\ In ix (dkeys (i_idx y))) -> dget ix (i_idx x) = Some (index_mean ix (Qcplus from (Qcmult (qn k) d)) (Qcplus from (Qcmult (qn (S k)) d)) pts)) /\
      ((forall y, In y (s_items s) -> ~ In ix (dkeys (i_idx y))) -> dget ix (i_idx x) = None).
Proof.
  intros e c rd d s start stop validity auto si t0 tl from to He HD Hd HV HF HL Hfrom Hto Hle.
  destruct (attach_ok (s_items s) si auto (points_increasing s HD) (proj1 HV)) as (_ & pts & _ & _ & HR).
  destruct (resample_run e c rd d s start stop validity auto si t0 tl from to pts He HD Hd HV HR HF HL Hfrom Hto Hle) as (N & r & src & E1 & E2 & E3 & E4 & _).
  exists N, r, src, pts. split; [exact E1|split; [exact HR|]]. intros k x ix Hx Ni. destruct (E4 k x Hx) as (_ & _ & _ & _ & _ & _ & _ & _ & _ & _ & I). exact (named _ _ _ _ _ _ I Ni).
Qed.
Print Assumptions C100_resample_indexes.

(* And so has an aggregated slot. *)
Theorem C100_aggregate_indexes : forall e c rd u ops s start stop validity auto si t0 tl from to,
  dict_points s -> lasting c u -> (exists q, unit_seconds c u t0 = Ok q) -> ops <> [] -> (forall o, In o ops -> standard o) ->
  interval_is validity auto si -> first_time (s_items s) t0 -> last_time (s_items s) tl ->
  (forall z, tz_is s z -> limit_is rd u start (if rd_on rd u z t0 then t0 else rd_ceil rd u z t0) from) ->
  limit_is rd u stop tl to -> Qcle t0 from ->
  (no_losses (s_items s) \/ forall k, Qcle (units_after c u from (S k)) tl -> has_point (s_items s) (units_after c u from k) (units_after c u from (S k))) ->
  exists N r src pts,
    (forall fuel, N <= fuel -> aggregate fuel e c rd u ops s start stop validity None None auto = Ok (r, src)) /\ with_regions si (s_items s) pts /\
    forall x ix, In x (s_items r) -> ix <> "data_loss"%string ->
      ((exists y, In y (s_items s) /\ In ix (dkeys (i_idx y))) -> dget ix (i_idx x) = Some (index_mean ix (i_t x) (i_end x) pts)) /\
      ((forall y, In y (s_items s) -> ~ In ix (dkeys (i_idx y))) -> dget ix (i_idx x) = None).
Proof.
  intros e c rd u ops s start stop validity auto si t0 tl from to HD HU Hsec Hne Hops HV HF HL Hfrom Hto Hle Hn.
  destruct (attach_ok (s_items s) si auto (points_increasing s HD) (proj1 HV)) as (_ & pts & _ & _ & HR).
  destruct (aggregate_run e c rd u ops s start stop validity auto si t0 tl from to pts) as (N & r & src & E1 & E2 & E3 & E4 & _); try assumption.
  exists N, r, src, pts. split; [exact E1|split; [exact HR|]]. intros x ix Hx Ni. apply In_nth_error in Hx. destruct Hx as [k Hx]. destruct (E3 k x Hx) as (_ & -> & -> & _ & _ & _ & _ & _ & I). exact (named _ _ _ _ _ _ I Ni).
Qed.
Print Assumptions C100_aggregate_indexes.

(* The mean of an index on an interval is between the least and the greatest value it has on the points whose regions have some part of
   the interval, and there is none exactly if no such point has a value. *)
Definition shares (F T : Qc) (p : vpoint) : Prop := Qclt q0 (overlap (vp_from p) (vp_to p) F T).
Lemma den_pos ix F T pts : Qcle q0 (total (map (ix_den ix (ov F T)) pts)) /\
  (Qclt q0 (total (map (ix_den ix (ov F T)) pts)) <-> exists p v, In p pts /\ index_value_of ix (vp_item p) = Some v /\ shares F T p).
Proof.
  induction pts as [|p l [IH1 IH2]]; cbn [map total].
  - split; [apply Qcle_refl|]. split; [intros H; exfalso; exact (Qcle_not_lt _ _ (Qcle_refl _) H)|intros (p & v & [] & _)].
  - assert (P : Qcle q0 (ix_den ix (ov F T) p)) by (unfold ix_den; destruct (index_value_of ix (vp_item p)); [apply overlap_nonneg|apply Qcle_refl]).
    rewrite q0_eq in *. split; [qlra|]. split.
    + intros H. destruct (Qclt_le_dec (Q2Qc 0) (ix_den ix (ov F T) p)) as [X|X].
      * unfold ix_den in X. destruct (index_value_of ix (vp_item p)) as [v|] eqn:Ev; [|rewrite q0_eq in X; exfalso; exact (Qcle_not_lt _ _ (Qcle_refl _) X)]. exists p, v. split; [left; reflexivity|]. split; [exact Ev|]. unfold shares. rewrite q0_eq. exact X.
      * assert (Y : Qclt (Q2Qc 0) (total (map (ix_den ix (ov F T)) l))) by qlra. apply IH2 in Y. destruct Y as (q & v & Y1 & Y2 & Y3). exists q, v. split; [right; exact Y1|]. split; assumption.
    + intros (q & v & [<-|Y1] & Y2 & Y3).
      * assert (Z : ix_den ix (ov F T) p = overlap (vp_from p) (vp_to p) F T) by (unfold ix_den, ov; rewrite Y2; reflexivity). unfold shares in Y3. rewrite q0_eq in Y3. rewrite Z. qlra.
      * assert (Y : Qclt (Q2Qc 0) (total (map (ix_den ix (ov F T)) l))) by (apply IH2; exists q, v; split; [exact Y1|]; split; assumption). qlra.
Qed.
Lemma num_bounds ix F T pts m M : (forall p v, In p pts -> index_value_of ix (vp_item p) = Some v -> shares F T p -> Qcle m v /\ Qcle v M) ->
  Qcle (Qcmult m (total (map (ix_den ix (ov F T)) pts))) (total (map (ix_num ix (ov F T)) pts)) /\ Qcle (total (map (ix_num ix (ov F T)) pts)) (Qcmult M (total (map (ix_den ix (ov F T)) pts))).
Proof.
  induction pts as [|p l IH]; intros H; cbn [map total]; [rewrite q0_eq; split; qlra|]. destruct IH as [I1 I2]; [intros q v Q; apply H; right; exact Q|].
  assert (K : Qcle (Qcmult m (ix_den ix (ov F T) p)) (ix_num ix (ov F T) p) /\ Qcle (ix_num ix (ov F T) p) (Qcmult M (ix_den ix (ov F T) p))).
  { unfold ix_den, ix_num. destruct (index_value_of ix (vp_item p)) as [v|] eqn:Ev; [|rewrite q0_eq; split; qlra]. pose proof (overlap_nonneg (vp_from p) (vp_to p) F T) as O. unfold ov. specialize (H p v (or_introl eq_refl) Ev). unfold shares in H.
    destruct (Qclt_le_dec q0 (overlap (vp_from p) (vp_to p) F T)) as [X|X].
    - destruct (H X) as [H1 H2]. revert X H1 H2. generalize (overlap (vp_from p) (vp_to p) F T). intros w X H1 H2. rewrite q0_eq in X. split; qnra.
    - assert (Z : overlap (vp_from p) (vp_to p) F T = q0) by (apply Qcle_antisym; assumption). rewrite Z, q0_eq. split; qlra. }
  destruct K as [K1 K2]. rewrite !Qcmult_plus_distr_r. split; qlra.
Qed.
Theorem C100_mean : forall ix F T pts,
  (index_mean ix F T pts = None <-> forall p v, In p pts -> index_value_of ix (vp_item p) = Some v -> ~ shares F T p) /\
  (forall q m M, index_mean ix F T pts = Some q -> (forall p v, In p pts -> index_value_of ix (vp_item p) = Some v -> shares F T p -> Qcle m v /\ Qcle v M) -> Qcle m q /\ Qcle q M).
Proof.
  intros ix F T pts. rewrite index_mean_eq. destruct (den_pos ix F T pts) as [D1 D2]. split.
  - split.
    + destruct (qltb_spec q0 (total (map (ix_den ix (ov F T)) pts))) as [X|X]; [discriminate|]. intros _ p v P V Sh. apply X, D2. exists p, v. split; [exact P|]. split; assumption.
    + intros H. destruct (qltb_spec q0 (total (map (ix_den ix (ov F T)) pts))) as [X|X]; [|reflexivity]. exfalso. apply D2 in X. destruct X as (p & v & P & V & Sh). exact (H p v P V Sh).
  - intros q m M E B. destruct (num_bounds ix F T pts m M B) as [B1 B2]. destruct (qltb_spec q0 (total (map (ix_den ix (ov F T)) pts))) as [X|X]; [|discriminate]. injection E as <-.
    revert X B1 B2. generalize (total (map (ix_den ix (ov F T)) pts)) (total (map (ix_num ix (ov F T)) pts)). intros w n X B1 B2.
    assert (Nz : w <> Q2Qc 0) by (intros ->; rewrite q0_eq in X; exact (Qcle_not_lt _ _ (Qcle_refl _) X)). assert (E : Qcmult (Qcdiv n w) w = n) by (field; exact Nz). revert E. generalize (Qcdiv n w). intros q E. rewrite <- E in B1, B2. rewrite q0_eq in X.
    split; [destruct (Qclt_le_dec q m) as [Y|Y]; [exfalso; qnra|exact Y]|destruct (Qclt_le_dec M q) as [Y|Y]; [exfalso; qnra|exact Y]].
Qed.
Print Assumptions C100_mean.

(* ---- examples: five points every 10 seconds but for a gap, with an anomaly index on three of them (one of which is None) ---- *)
Definition ipt (t v : Z) (ix : dict (option Qc)) : item := mkItem CDataTimePoint (qz t) (qz t) (UPhys q0) "UTC" (Some (DDict [("value"%string, qz v)])) ix None.
Definition marked_five : list item := [ipt 0 1 [("anomaly"%string, Some (qz 1))]; ipt 10 2 []; ipt 20 4 [("anomaly"%string, None)]; ipt 30 8 [("anomaly"%string, Some q0); ("forecast"%string, Some q1)]; ipt 60 2 [("anomaly"%string, Some q0)]].
Definition index_list (r : result (series * list item)) (ix : string) : list (option (option Qc)) := match r with Ok (r, _) => map (fun x => dget ix (i_idx x)) (s_items r) | Err _ => [] end.
Definition same_list (a b : list (option (option Qc))) : bool :=
  Nat.eqb (length a) (length b) && forallb (fun p => match fst p, snd p with None, None => true | Some None, Some None => true | Some (Some x), Some (Some y) => qeqb x y | _, _ => false end) (combine a b).
Definition marked_resampled := resample 20 ideal_env ex_cal ex_round (UPhys (qz 10)) (ms marked_five) None None ten (Err ValueError).
Definition marked_aggregated := aggregate 20 ideal_env ex_cal ex_round (UPhys (qz 20)) [agg_avg] (ms marked_five) None None ten None None (Err ValueError).
(* The slot from 0 to 20 has the region of the first point, up to 5, all of the second one and half of the third one, of which only the first has an
   anomaly index: it is that one.  From 20 to 40 it is that of the fourth.  Of the resampled points, only the one at 30 has a region with an
   anomaly index (that of the fourth). *)
Example C100_nonvacuous : length (s_items (ms marked_five)) = 5 /\ no_losses (s_items (ms marked_five)) /\
  same_list (index_list marked_aggregated "anomaly") [Some (Some (qz 1)); Some (Some q0); Some (Some q0)] = true /\
  same_list (index_list marked_aggregated "forecast") [Some None; Some (Some q1); Some None] = true /\
  same_list (index_list marked_aggregated "other") [None; None; None] = true /\
  same_list (index_list marked_resampled "anomaly") [Some None; Some None; Some (Some q0); Some None; Some None] = true.
Proof.
  split; [vm_compute; reflexivity|]. split; [|vm_compute; repeat split; reflexivity]. assert (E : s_items (ms marked_five) = marked_five) by (vm_compute; reflexivity). rewrite E. intros w Hw. repeat destruct Hw as [<- |Hw]; try destruct Hw; left; reflexivity.
Qed.
