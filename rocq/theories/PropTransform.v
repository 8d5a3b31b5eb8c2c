(* PropTransform.v -- THEOREMS C42-C47 and C68: resampling and aggregation. *)
From Verif Require Import SpecTransform BaseLemmas PropTactics Witness PropAccess PropOps PropIntervals AccessProofs AccessProofs3 OpsProofs OpsProofs2 SamplingProofs SeriesProofs2 IntervalsProofs IntervalsProofs2 IntervalsProofs3
  TransformProofs2 TransformProofs10 TransformProofs11 TransformProofs12 TransformProofs13 TransformProofs14.

(* ---------------- a concrete library, for the examples ---------------- *)
Definition qfloor (x : Qc) : Z := (Qnum (this x) / Zpos (Qden (this x)))%Z.
Definition ex_round : rounding := mkRounding
  (fun u _ t => match u with UPhys d => qeqb (Qcmult (qz (qfloor (Qcdiv t d))) d) t | UCal _ => false end)
  (fun u _ t => match u with UPhys d => Qcmult (qz (qfloor (Qcdiv t d) + 1)) d | UCal _ => t end).
Definition ex_cal : cal := mkCal (fun _ _ => Err ValueError) (fun _ t _ => t).
Lemma qfloor_spec x : Qcle (qz (qfloor x)) x /\ Qclt x (qz (qfloor x + 1)).
Proof.
  unfold qfloor, Qcle, Qclt, qz, Q2Qc. cbn [this]. rewrite !Qred_correct. unfold Qle, Qlt. cbn [Qnum Qden]. destruct x as [[n p] c]. cbn [this Qnum Qden].
  pose proof (Z.mul_div_le n (Zpos p) ltac:(lia)). pose proof (Z.mul_succ_div_gt n (Zpos p) ltac:(lia)). unfold inject_Z. cbn [Qnum Qden]. split; lia.
Qed.
Lemma scale_le a b d : Qclt q0 d -> Qcle a (Qcdiv b d) -> Qcle (Qcmult a d) b.
Proof. intros L H. assert (N : d <> q0) by (intros ->; apply (Qclt_not_eq _ _ L); reflexivity). apply (Qcmult_le_compat_r _ _ d) in H; [|apply Qclt_le_weak; exact L]. replace (Qcmult (Qcdiv b d) d) with b in H by (field; exact N). exact H. Qed.
Lemma scale_lt a b d : Qclt q0 d -> Qclt (Qcdiv b d) a -> Qclt b (Qcmult a d).
Proof. intros L H. assert (N : d <> q0) by (intros ->; apply (Qclt_not_eq _ _ L); reflexivity). apply (Qcmult_lt_compat_r _ _ d L) in H. replace (Qcmult (Qcdiv b d) d) with b in H by (field; exact N). exact H. Qed.
Lemma ex_rounds d : Qclt q0 d -> rounds ex_round (UPhys d) /\ rounds_up ex_round (UPhys d).
Proof.
  intros L. assert (N : d <> q0) by (intros ->; apply (Qclt_not_eq _ _ L); reflexivity).
  assert (Up : forall t, Qclt t (Qcmult (qz (qfloor (Qcdiv t d) + 1)) d)) by (intros t; apply scale_lt; [exact L|apply qfloor_spec]).
  assert (Fl : forall z, qfloor (Qcdiv (Qcmult (qz z) d) d) = z).
  { intros z. replace (Qcdiv (Qcmult (qz z) d) d) with (qz z) by (field; exact N). destruct (qfloor_spec (qz z)) as [A B]. apply (proj1 (qz_le_iff _ _)) in A. apply (proj1 (qz_lt_iff _ _)) in B. clear - A B; lia. }
  split; [|intros tz t; unfold ex_round; cbn [rd_ceil]; apply Qclt_le_weak, Up]. intros tz t H. unfold first_boundary, ex_round in *. cbn [rd_on rd_ceil] in *. split; [rewrite Fl; apply qeqb_refl|split; [apply Qclt_le_weak, Up|]].
  intros b Hb K. destruct (qeqb_spec (Qcmult (qz (qfloor (Qcdiv b d))) d) b) as [E|]; [|discriminate]. rewrite <- E in K. rewrite <- E. clear Hb.
  destruct (qeqb_spec (Qcmult (qz (qfloor (Qcdiv t d))) d) t) as [|Nt]; [discriminate|].
  assert (Lt : Qclt t (Qcmult (qz (qfloor (Qcdiv b d))) d)).
  { destruct (Qcle_lt_or_eq _ _ K) as [X|X]; [exact X|]. exfalso. apply Nt. rewrite X at 1. rewrite Fl. symmetry. exact X. }
  apply Qcmult_le_compat_r; [|apply Qclt_le_weak; exact L]. apply qz_le_iff.
  assert (Qclt (qz (qfloor (Qcdiv t d))) (qz (qfloor (Qcdiv b d)))); [|apply (proj1 (qz_lt_iff _ _)) in H0; lia].
  destruct (qfloor_spec (Qcdiv t d)) as [A _]. apply (scale_le _ _ d L) in A. apply Qcnot_le_lt. intros X. apply (Qcmult_le_compat_r _ _ d) in X; [|apply Qclt_le_weak; exact L].
  apply (Qclt_not_le _ _ Lt). eapply Qcle_trans; eassumption.
Qed.
Definition ms (l : list item) : series := match ts_new ideal_env None l with Ok s => s | Err _ => empty_series None end.

(* ===================== C42 ===================== *)

Theorem C42_resample_constant_grid : forall e c rd d s validity auto si t0 tl,
  parses_units e -> dict_points s -> Qclt q0 d -> interval_is validity auto si -> rounds_up rd (UPhys d) ->
  first_time (s_items s) t0 -> last_time (s_items s) tl ->
  exists N r src from,
    (forall fuel, N <= fuel -> resample fuel e c rd (UPhys d) s None None validity auto = Ok (r, src)) /\ fresh e r /\
    (exists z, tz_is s z /\ from = Qcplus (rd_ceil rd (UPhys d) z (Qcminus t0 (Qcdiv d (qz 2)))) (Qcdiv d (qz 2))) /\ Qcle t0 from /\
    (forall k x, nth_error (s_items r) k = Some x -> i_cls x = CDataTimePoint /\ tz_is s (i_tz x) /\
       i_t x = Qcplus (Qcplus from (Qcmult (qn k) d)) (Qcdiv d (qz 2)) /\ forall y lb, In y (s_items s) -> (has_label x lb <-> has_label y lb)) /\
    equally_spaced d (times (s_items r)) /\ strictly_increasing (times (s_items r)) /\
    (forall k, k < length (s_items r) <-> Qcle (Qcplus from (Qcmult (qn (S k)) d)) tl).
Proof.
  intros e c rd d s validity auto si t0 tl He HD Hd HV Hrd HF HL.
  set (z := match series_tz s with Some z => z | None => "UTC"%string end).
  set (from := Qcplus (rd_ceil rd (UPhys d) z (Qcminus t0 (Qcdiv d (qz 2)))) (Qcdiv d (qz 2))).
  assert (Hle : Qcle t0 from) by (unfold from; pose proof (Hrd z (Qcminus t0 (Qcdiv d (qz 2)))) as X; qlra).
  destruct (attach_ok (s_items s) si auto (points_increasing s HD) (proj1 HV)) as (_ & pts & _ & _ & HR).
  destruct (resample_run e c rd d s None None validity auto si t0 tl from tl pts He HD Hd HV HR HF HL) as (N & r & src & E1 & E2 & E3 & E4 & E5 & _).
  - intros z' ->. reflexivity.
  - reflexivity.
  - exact Hle.
  - exists N, r, src, from. split; [exact E1|split; [exact E2|split; [exists z; split; reflexivity|split; [exact Hle|]]]].
    assert (T : forall k x, nth_error (s_items r) k = Some x -> i_t x = Qcplus (Qcplus from (Qcmult (qn k) d)) (Qcdiv d (qz 2))).
    { intros k x Hx. destruct (E4 k x Hx) as (_ & T & _). rewrite T. unfold midpoint. rewrite qn_S. replace (Qcmult (Qcplus q1 (qn k)) d) with (Qcplus d (Qcmult (qn k) d)) by (rewrite q1_eq; ring). generalize (Qcmult (qn k) d). intros y. qlra. }
    split; [|split; [|split; [|apply E5; apply Qcle_refl]]].
    + intros k x Hx. destruct (E4 k x Hx) as (A & _ & _ & B & _ & _ & C & _). split; [exact A|split; [exact B|split; [apply T; exact Hx|exact C]]].
    + intros k a b Ha Hb. unfold times in Ha, Hb. rewrite nth_error_map in Ha, Hb. destruct (nth_error (s_items r) k) as [x|] eqn:Ex; [|discriminate]. destruct (nth_error (s_items r) (S k)) as [y|] eqn:Ey; [|discriminate].
      injection Ha as <-. injection Hb as <-. rewrite (T k x Ex), (T (S k) y Ey), qn_S. rewrite q1_eq. ring.
    + intros i j a b L Ha Hb. unfold times in Ha, Hb. rewrite nth_error_map in Ha, Hb. destruct (nth_error (s_items r) i) as [x|] eqn:Ex; [|discriminate]. destruct (nth_error (s_items r) j) as [y|] eqn:Ey; [|discriminate].
      injection Ha as <-. injection Hb as <-. rewrite (T i x Ex), (T j y Ey). assert (Qclt (Qcmult (qn i) d) (Qcmult (qn j) d)); [|qlra]. apply Qcmult_lt_compat_r; [exact Hd|]. apply qz_lt_iff. lia.
Qed.
Print Assumptions C42_resample_constant_grid.

Definition five : list item := [pt 0 1; pt 10 2; pt 20 4; pt 30 8; pt 60 2].
(* a list of points with one label, sorted *)
Fixpoint sortedb (l : list Qc) : bool := match l with a :: ((b :: _) as r) => qltb a b && sortedb r | _ => true end.
Lemma sortedb_ok l : sortedb l = true -> strictly_increasing l.
Proof.
  induction l as [|a l IH]; intros H; [intros i j x y _ Hx; destruct i; discriminate|].
  assert (H' : sortedb l = true) by (destruct l; [reflexivity|cbn in H; apply andb_prop in H; apply H]). specialize (IH H').
  intros i j x y L Hx Hy. destruct j as [|j]; [lia|]. cbn in Hy. destruct i as [|i]; [|cbn in Hx; apply (IH i j); [lia|assumption|assumption]]. cbn in Hx. injection Hx as <-.
  destruct l as [|b l]; [destruct j; discriminate|]. cbn in H. apply andb_prop in H. destruct H as [H _]. apply qltb_lt in H.
  destruct j as [|j]; [cbn in Hy; injection Hy as <-; exact H|]. eapply Qclt_trans; [exact H|]. apply (IH 0 (S j)); [lia|reflexivity|exact Hy].
Qed.
Definition one_label (l : list item) : Prop := forall x, In x l -> i_cls x = CDataTimePoint /\ exists v, i_data x = Some (d1 v).
Lemma one_label_dict s : s_items s <> [] -> one_label (s_items s) -> sortedb (times (s_items s)) = true -> dict_points s.
Proof.
  intros N F H. assert (SS : forall x y, In x (s_items s) -> In y (s_items s) -> same_item_shape x y).
  { intros x y Hx Hy. destruct (F x Hx) as (Cx & v & Dx), (F y Hy) as (Cy & w & Dy). split; [congruence|]. rewrite Dx, Dy. cbn. intros k. reflexivity. }
  split; [|split].
  - split; [exact N|]. split; [|exact SS]. intros x Hx. destruct (F x Hx) as (Cx & v & Dx). split; [left; exact Cx|]. rewrite Dx. split; [discriminate|repeat constructor; intros []].
  - split; [|split; [apply sortedb_ok; exact H|exact SS]]. intros x Hx. destruct (F x Hx) as (Cx & v & Dx). unfold is_point; rewrite Cx. reflexivity.
  - intros x Hx. destruct (F x Hx) as (Cx & v & Dx). eexists. exact Dx.
Qed.
Ltac one_label_tac := intros ? Hw; repeat destruct Hw as [<- |Hw]; try destruct Hw; (split; [reflexivity|eexists; reflexivity]).
Lemma five_dict : dict_points (ms five).
Proof. assert (E : s_items (ms five) = five) by (vm_compute; reflexivity). apply one_label_dict; rewrite E; [discriminate|one_label_tac|vm_compute; reflexivity]. Qed.
Definition ten : option Qc := Some (qz 10).
Lemma five_interval : interval_is ten (Err ValueError) (qz 10).
Proof. split; [apply qltb_lt; vm_compute; reflexivity|left; reflexivity]. Qed.
Lemma five_first : first_time (s_items (ms five)) (qz 0).
Proof. exists (pt 0 1). split; [vm_compute; reflexivity|reflexivity]. Qed.
Lemma five_last : last_time (s_items (ms five)) (qz 60).
Proof. exists (pt 60 2). split; [vm_compute; reflexivity|reflexivity]. Qed.
Example C42_nonvacuous : parses_units ideal_env /\ dict_points (ms five) /\ rounds_up ex_round (UPhys (qz 20)) /\
  match resample 10 ideal_env ex_cal ex_round (UPhys (qz 20)) (ms five) None None ten (Err ValueError) with
  | Ok (r, _) => forallb (fun p => qeqb (fst p) (snd p)) (combine (map i_t (s_items r)) [qz 20; qz 40]) && Nat.eqb (length (s_items r)) 2 = true
  | Err _ => False
  end.
Proof. split; [exact ideal_parses|split; [exact five_dict|split; [apply ex_rounds, qltb_lt; vm_compute; reflexivity|vm_compute; reflexivity]]]. Qed.

(* ===================== C43 ===================== *)

(* the start of the slots *)
Lemma boundary_is rd u z t0 : rounds rd u -> first_boundary rd u z t0 (if rd_on rd u z t0 then t0 else rd_ceil rd u z t0).
Proof.
  intros H. destruct (rd_on rd u z t0) eqn:E; [|apply H; exact E]. split; [exact E|split; [apply Qcle_refl|]]. intros b _ Hb. exact Hb.
Qed.
Lemma first_boundary_unique rd u z t b b' : first_boundary rd u z t b -> first_boundary rd u z t b' -> b = b'.
Proof. intros (A & B & C) (A' & B' & C'). apply Qcle_antisym; auto. Qed.

Theorem C43_aggregate_slots_partial : forall e c rd u ops s validity auto si t0 tl from z,
  dict_points s -> lasting c u -> (exists q, unit_seconds c u t0 = Ok q) -> ops <> [] -> (forall o, In o ops -> standard o) ->
  interval_is validity auto si -> rounds rd u -> first_time (s_items s) t0 -> last_time (s_items s) tl ->
  tz_is s z -> first_boundary rd u z t0 from ->
  (* missing: some previous data loss and a slot with no point *)
  no_losses (s_items s) \/ (forall k, Qcle (units_after c u from (S k)) tl -> has_point (s_items s) (units_after c u from k) (units_after c u from (S k))) ->
  exists N r src,
    (forall fuel, N <= fuel -> aggregate fuel e c rd u ops s None None validity None None auto = Ok (r, src)) /\ fresh e r /\
    (forall k x, nth_error (s_items r) k = Some x ->
       i_cls x = CDataTimeSlot /\ i_t x = units_after c u from k /\ i_end x = units_after c u from (S k) /\ i_unit x = u /\ tz_is s (i_tz x) /\
       forall y key, In y (s_items s) -> (has_label x key <-> exists lb o, has_label y lb /\ In o ops /\ key = (lb ++ "_" ++ o_name o)%string)) /\
    (forall k, k < length (s_items r) <-> Qcle (units_after c u from (S k)) tl).
Proof.
  intros e c rd u ops s validity auto si t0 tl from z HD HU Hsec Hne Hops HV Hrd HF HL Hz HB NP.
  destruct (attach_ok (s_items s) si auto (points_increasing s HD) (proj1 HV)) as (_ & pts & _ & _ & HR).
  destruct (aggregate_run e c rd u ops s None None validity auto si t0 tl from tl pts) as (N & r & src & E1 & E2 & E3 & E4 & _); try assumption.
  - intros z' Hz'. assert (z' = z) by (unfold tz_is in *; congruence). subst z'. apply (first_boundary_unique rd u z t0); [exact HB|apply boundary_is; exact Hrd].
  - reflexivity.
  - apply HB.
  - exists N, r, src. split; [exact E1|split; [exact E2|split; [|apply E4; apply Qcle_refl]]].
    intros k x Hx. destruct (E3 k x Hx) as (A1 & A2 & A3 & A4 & A5 & _ & A7 & _). auto 8.
Qed.
Print Assumptions C43_aggregate_slots_partial.

Definition five_agg (fuel : nat) (u : Z) (ops : list operation) := aggregate fuel ideal_env ex_cal ex_round (UPhys (qz u)) ops (ms five) None None ten None None (Err ValueError).
Lemma five_lossless : no_losses (s_items (ms five)).
Proof. assert (E : s_items (ms five) = five) by (vm_compute; reflexivity). rewrite E. intros w Hw. repeat destruct Hw as [<- |Hw]; try destruct Hw; left; reflexivity. Qed.
Lemma pos20 : Qclt q0 (qz 20).
Proof. apply qltb_lt; vm_compute; reflexivity. Qed.
Lemma std1 o : In o [agg_avg] -> standard o.
Proof. intros [<- |[]]. left. reflexivity. Qed.
Example C43_nonvacuous : dict_points (ms five) /\ lasting ex_cal (UPhys (qz 20)) /\ rounds ex_round (UPhys (qz 20)) /\ interval_is ten (Err ValueError) (qz 10) /\
  first_boundary ex_round (UPhys (qz 20)) "UTC" (qz 0) (qz 0) /\ no_losses (s_items (ms five)) /\
  match five_agg 10 20 [agg_avg] with
  | Ok (r, _) => forallb (fun p => qeqb (fst p) (snd p)) (combine (map i_t (s_items r)) [qz 0; qz 20; qz 40]) && Nat.eqb (length (s_items r)) 3 = true
  | Err _ => False
  end.
Proof.
  split; [exact five_dict|split; [apply phys_lasting, pos20|split; [apply ex_rounds, pos20|split; [exact five_interval|split; [|split; [exact five_lossless|vm_compute; reflexivity]]]]]].
  apply (boundary_is ex_round (UPhys (qz 20)) "UTC" (qz 0)). apply ex_rounds, pos20.
Qed.

(* Points which already carry a data loss, and slots with no point: the aggregation stops with an error. *)
Definition lossy3 : list item := [PropIntervals.lossy 0 1 q1; PropIntervals.lossy 10 1 q1; PropIntervals.lossy 20 1 q1].
Theorem C43_refuted : exists N s, fresh ideal_env s /\ dict_points s /\
  aggregate N ideal_env ex_cal ex_round (UPhys (qz 5)) [agg_avg] s None None ten None None (Err ValueError) = Err ConsistencyException.
Proof.
  assert (E : s_items (ms lossy3) = lossy3) by (vm_compute; reflexivity).
  exists 10, (ms lossy3). split; [unfold fresh; rewrite E; vm_compute; reflexivity|split; [|vm_compute; reflexivity]]. apply one_label_dict; rewrite E; [discriminate|one_label_tac|vm_compute; reflexivity].
Qed.
Print Assumptions C43_refuted.

(* ===================== C44 ===================== *)

(* What the data loss of an item on [F, T] is, given the regions of the points. *)
Definition loss_is (pts : list vpoint) (F T : Qc) (x : item) : Prop :=
  exists loss, data_loss x = Some loss /\ Qcle q0 loss /\ Qcle loss q1 /\
    Qcmult loss (Qcminus T F) = Qcminus (Qcminus T F) (covered_length pts F T) /\
    ((forall t, Qclt F t -> Qclt t T -> covered pts t) -> loss = q0) /\
    ((forall t, covered pts t -> ~ (Qclt F t /\ Qclt t T)) -> loss = q1).
Lemma loss_is_ok si s pts F T x : dict_points s -> with_regions si (s_items s) pts -> Qclt F T -> data_loss x = Some (missing_fraction pts F T) -> loss_is pts F T x.
Proof.
  intros HD HR L H. destruct (missing_bounds pts F T) as (A & B & C & D); [apply placed_disjoint; apply (regions_placed si (s_items s)); [exact HR|apply points_increasing; exact HD]|exact L|].
  eexists. split; [exact H|]. split; [exact A|split; [exact B|split; [|split; [exact C|exact D]]]]. unfold missing_fraction. rewrite q1_eq. field. intros X. apply (Qclt_not_eq _ _ L). qlra.
Qed.

Theorem C44_resample_data_loss : forall e c rd d s start stop validity auto si t0 tl from to,
  parses_units e -> dict_points s -> Qclt q0 d -> interval_is validity auto si ->
  first_time (s_items s) t0 -> last_time (s_items s) tl ->
  (forall z, tz_is s z -> limit_is rd (UPhys d) start (Qcplus (rd_ceil rd (UPhys d) z (Qcminus t0 (Qcdiv d (qz 2)))) (Qcdiv d (qz 2))) from) ->
  limit_is rd (UPhys d) stop tl to -> Qcle t0 from -> no_losses (s_items s) ->
  exists N r src pts,
    (forall fuel, N <= fuel -> resample fuel e c rd (UPhys d) s start stop validity auto = Ok (r, src)) /\ with_regions si (s_items s) pts /\
    forall k x, nth_error (s_items r) k = Some x ->
      loss_is pts (Qcplus from (Qcmult (qn k) d)) (Qcplus from (Qcmult (qn (S k)) d)) x.
Proof.
  intros e c rd d s start stop validity auto si t0 tl from to He HD Hd HV HF HL Hfrom Hto Hle Hn.
  destruct (attach_ok (s_items s) si auto (points_increasing s HD) (proj1 HV)) as (_ & pts & _ & _ & HR).
  destruct (resample_run e c rd d s start stop validity auto si t0 tl from to pts He HD Hd HV HR HF HL Hfrom Hto Hle) as (N & r & src & E1 & E2 & E3 & E4 & _).
  exists N, r, src, pts. split; [exact E1|split; [exact HR|]]. intros k x Hx. apply (loss_is_ok si s); [exact HD|exact HR| |apply (E4 k x Hx); exact Hn].
  assert (Qclt (Qcmult (qn k) d) (Qcmult (qn (S k)) d)); [|qlra]. apply Qcmult_lt_compat_r; [exact Hd|]. apply qz_lt_iff. lia.
Qed.
Print Assumptions C44_resample_data_loss.

Theorem C44_aggregate_data_loss : forall e c rd u ops s start stop validity auto si t0 tl from to,
  dict_points s -> lasting c u -> (exists q, unit_seconds c u t0 = Ok q) -> ops <> [] -> (forall o, In o ops -> standard o) ->
  interval_is validity auto si -> first_time (s_items s) t0 -> last_time (s_items s) tl ->
  (forall z, tz_is s z -> limit_is rd u start (if rd_on rd u z t0 then t0 else rd_ceil rd u z t0) from) ->
  limit_is rd u stop tl to -> Qcle t0 from -> no_losses (s_items s) ->
  exists N r src pts,
    (forall fuel, N <= fuel -> aggregate fuel e c rd u ops s start stop validity None None auto = Ok (r, src)) /\ with_regions si (s_items s) pts /\
    forall x, In x (s_items r) -> loss_is pts (i_t x) (i_end x) x.
Proof.
  intros e c rd u ops s start stop validity auto si t0 tl from to HD HU Hsec Hne Hops HV HF HL Hfrom Hto Hle Hn.
  destruct (attach_ok (s_items s) si auto (points_increasing s HD) (proj1 HV)) as (_ & pts & _ & _ & HR).
  destruct (aggregate_run e c rd u ops s start stop validity auto si t0 tl from to pts) as (N & r & src & E1 & E2 & E3 & E4 & _); try assumption.
  - left. exact Hn.
  - exists N, r, src, pts. split; [exact E1|split; [exact HR|]]. intros x Hx. apply In_nth_error in Hx. destruct Hx as [k Hx]. destruct (E3 k x Hx) as (_ & -> & -> & _ & _ & _ & _ & A). apply (loss_is_ok si s); [exact HD|exact HR| |apply A; exact Hn].
    apply (lasting_inc c u HU).
Qed.
Print Assumptions C44_aggregate_data_loss.

Definition losses_are (r : result (series * list item)) (l : list Qc) : bool :=
  match r with
  | Ok (r, _) => Nat.eqb (length (s_items r)) (length l) && forallb (fun p => match data_loss (fst p) with Some q => qeqb q (snd p) | None => false end) (combine (s_items r) l)
  | Err _ => false
  end.
(* three slots: covered, partly covered, mostly in the gap; with a unit of 5, [40, 45] is in the gap *)
Example C44_nonvacuous : no_losses (s_items (ms five)) /\
  losses_are (five_agg 10 20 [agg_avg]) [q0; qfrac 1 4; qfrac 3 4] = true /\
  losses_are (resample 10 ideal_env ex_cal ex_round (UPhys (qz 20)) (ms five) None None ten (Err ValueError)) [q0; qfrac 3 4] = true /\
  match resample 20 ideal_env ex_cal ex_round (UPhys (qz 10)) (ms five) None None ten (Err ValueError) with Ok (r, _) => existsb (fun x => match data_loss x with Some q => qeqb q q1 | None => false end) (s_items r) = true | _ => False end.
Proof. split; [exact five_lossless|]. vm_compute. auto. Qed.

(* ===================== C45 ===================== *)

Theorem C45_resample_bounds : forall e c rd d s start stop validity auto si t0 tl from to,
  parses_units e -> dict_points s -> Qclt q0 d -> interval_is validity auto si ->
  first_time (s_items s) t0 -> last_time (s_items s) tl ->
  (forall z, tz_is s z -> limit_is rd (UPhys d) start (Qcplus (rd_ceil rd (UPhys d) z (Qcminus t0 (Qcdiv d (qz 2)))) (Qcdiv d (qz 2))) from) ->
  limit_is rd (UPhys d) stop tl to -> Qcle t0 from ->
  exists N r src pts,
    (forall fuel, N <= fuel -> resample fuel e c rd (UPhys d) s start stop validity auto = Ok (r, src)) /\ with_regions si (s_items s) pts /\
    (forall x lb v m M, In x (s_items r) -> has_value x lb v -> in_range (s_items s) lb m M -> Qcle m v /\ Qcle v M) /\
    (forall x lb v a, In x (s_items r) -> has_value x lb v -> in_range (s_items s) lb a a -> v = a) /\
    (* each value is the mean over the slot of the signal with a straight line in the gaps *)
    (forall k x lb v vs, nth_error (s_items r) k = Some x -> has_value x lb v -> column lb (s_items s) vs ->
       v = mean_over (Qcplus from (Qcmult (qn k) d)) (Qcplus from (Qcmult (qn (S k)) d)) (combine pts vs)).
Proof.
  intros e c rd d s start stop validity auto si t0 tl from to He HD Hd HV HF HL Hfrom Hto Hle.
  destruct (attach_ok (s_items s) si auto (points_increasing s HD) (proj1 HV)) as (_ & pts & _ & _ & HR).
  destruct (resample_run e c rd d s start stop validity auto si t0 tl from to pts He HD Hd HV HR HF HL Hfrom Hto Hle) as (N & r & src & E1 & E2 & E3 & E4 & _).
  exists N, r, src, pts. split; [exact E1|split; [exact HR|]].
  assert (B : forall x lb v m M, In x (s_items r) -> has_value x lb v -> in_range (s_items s) lb m M -> Qcle m v /\ Qcle v M).
  { intros x lb v m M Hx Hv Hr. apply In_nth_error in Hx. destruct Hx as [k Hx]. destruct (E4 k x Hx) as (_ & _ & _ & _ & _ & _ & _ & _ & A & _). apply (A lb v m M Hr Hv). }
  split; [exact B|split].
  - intros x lb v a Hx Hv Hr. destruct (B x lb v a a Hx Hv Hr). apply Qcle_antisym; assumption.
  - intros k x lb v vs Hx Hv Hc. destruct (E4 k x Hx) as (_ & _ & _ & _ & _ & _ & _ & A & _). apply (A lb vs v Hc Hv).
Qed.
Print Assumptions C45_resample_bounds.

(* A slot is sound when a point of the series is in it, or it is in a gap. *)
Definition sound_slots (c : cal) (u : tunit) (s : series) (pts : list vpoint) (from tl : Qc) : Prop :=
  forall k, Qcle (units_after c u from (S k)) tl ->
    has_point (s_items s) (units_after c u from k) (units_after c u from (S k)) \/ covered_length pts (units_after c u from k) (units_after c u from (S k)) = q0.
Theorem C45_aggregate_bounds_partial : forall e c rd u ops s start stop validity auto si t0 tl from to pts,
  dict_points s -> lasting c u -> (exists q, unit_seconds c u t0 = Ok q) -> ops <> [] -> (forall o, In o ops -> standard o) ->
  interval_is validity auto si -> with_regions si (s_items s) pts -> first_time (s_items s) t0 -> last_time (s_items s) tl ->
  (forall z, tz_is s z -> limit_is rd u start (if rd_on rd u z t0 then t0 else rd_ceil rd u z t0) from) ->
  limit_is rd u stop tl to -> Qcle t0 from -> no_losses (s_items s) ->
  sound_slots c u s pts from tl ->
  exists N r src,
    (forall fuel, N <= fuel -> aggregate fuel e c rd u ops s start stop validity None None auto = Ok (r, src)) /\
    (forall x lb o v m M, In x (s_items r) -> In o ops -> o = agg_avg \/ o = agg_min \/ o = agg_max -> has_value x (lb ++ "_" ++ o_name o)%string v ->
       in_range (s_items s) lb m M -> Qcle m v /\ Qcle v M) /\
    (forall x lb o v a, In x (s_items r) -> In o ops -> o = agg_avg \/ o = agg_min \/ o = agg_max -> has_value x (lb ++ "_" ++ o_name o)%string v ->
       in_range (s_items s) lb a a -> v = a) /\
    (forall x lb v vs, In x (s_items r) -> In agg_avg ops -> has_value x (lb ++ "_avg")%string v -> column lb (s_items s) vs ->
       v = mean_over (i_t x) (i_end x) (combine pts vs)).
Proof.
  intros e c rd u ops s start stop validity auto si t0 tl from to pts HD HU Hsec Hne Hops HV HR HF HL Hfrom Hto Hle Hn Hs.
  destruct (aggregate_run e c rd u ops s start stop validity auto si t0 tl from to pts) as (N & r & src & E1 & E2 & E3 & E4 & E5 & E6); try assumption; [left; exact Hn|].
  destruct (E6 Hs) as [_ V]. exists N, r, src. split; [exact E1|].
  assert (B : forall x lb o v m M, In x (s_items r) -> In o ops -> o = agg_avg \/ o = agg_min \/ o = agg_max -> has_value x (lb ++ "_" ++ o_name o)%string v ->
       in_range (s_items s) lb m M -> Qcle m v /\ Qcle v M).
  { intros x lb o v m M Hx Ho Ho' Hv Hr. apply In_nth_error in Hx. destruct Hx as [k Hx]. destruct (V k x Hx lb o v Ho Hv) as (_ & A & _). apply (A Ho' m M Hr). }
  split; [exact B|split].
  - intros x lb o v a Hx Ho Ho' Hv Hr. destruct (B x lb o v a a Hx Ho Ho' Hv Hr). apply Qcle_antisym; assumption.
  - intros x lb v vs Hx Ho Hv Hc. apply In_nth_error in Hx. destruct Hx as [k Hx]. destruct (V k x Hx lb agg_avg v Ho Hv) as (A & _). destruct (E3 k x Hx) as (_ & -> & -> & _). apply (A eq_refl vs Hc).
Qed.
Print Assumptions C45_aggregate_bounds_partial.

Definition values_are (lb : string) (r : result (series * list item)) (l : list Qc) : bool :=
  match r with
  | Ok (r, _) => Nat.eqb (length (s_items r)) (length l) &&
      forallb (fun p => match i_data (fst p) with Some (DDict d) => match dget lb d with Some q => qeqb q (snd p) | None => false end | _ => false end) (combine (s_items r) l)
  | Err _ => false
  end.
Lemma five_range : in_range (s_items (ms five)) "value" (qz 1) (qz 8).
Proof.
  assert (E : s_items (ms five) = five) by (vm_compute; reflexivity). rewrite E. intros x v Hx Hv.
  repeat destruct Hx as [<- |Hx]; try destruct Hx; destruct Hv as [X|[]]; injection X as <-; split; apply qleb_le; vm_compute; reflexivity.
Qed.
Lemma five_sound pts : sound_slots ex_cal (UPhys (qz 30)) (ms five) pts (qz 0) (qz 60).
Proof.
  assert (E : s_items (ms five) = five) by (vm_compute; reflexivity). intros k H. left. rewrite !phys_after in *. rewrite E.
  destruct k as [|[|k]].
  - exists (pt 0 1). split; [left; reflexivity|]. split; [apply qleb_le|apply qltb_lt]; vm_compute; reflexivity.
  - exists (pt 30 8). split; [do 3 right; left; reflexivity|]. split; [apply qleb_le|apply qltb_lt]; vm_compute; reflexivity.
  - exfalso. assert (X : Qcle (Qcmult (qn 3) (qz 30)) (Qcmult (qn (S (S (S k)))) (qz 30))) by (apply Qcmult_le_compat_r; [apply qz_le_iff; lia|apply qleb_le; vm_compute; reflexivity]).
    assert (Y : Qclt (qz 60) (Qcplus (qz 0) (Qcmult (qn 3) (qz 30)))) by (apply qltb_lt; vm_compute; reflexivity). clear E. revert X Y H. generalize (Qcmult (qn (S (S (S k)))) (qz 30)) (Qcmult (qn 3) (qz 30)). intros a b X Y H. qlra.
Qed.
Example C45_nonvacuous : in_range (s_items (ms five)) "value" (qz 1) (qz 8) /\ (forall pts, sound_slots ex_cal (UPhys (qz 30)) (ms five) pts (qz 0) (qz 60)) /\
  values_are "value_avg" (five_agg 10 30 [agg_avg]) [qfrac 7 2; qz 5] = true /\
  values_are "value" (resample 10 ideal_env ex_cal ex_round (UPhys (qz 20)) (ms five) None None ten (Err ValueError)) [qfrac 9 2; qfrac 49 8] = true.
Proof. split; [exact five_range|split; [exact five_sound|split; vm_compute; reflexivity]]. Qed.

(* A constant signal, aggregated on a unit shorter than its sampling interval, is not constant any more. *)
Definition flat3 : list item := [pt 0 1; pt 10 1; pt 20 1].
Definition not_one : result (series * list item) -> bool := (fun res : result (series * list item) => match res with Ok (r, _) => match nth_error (s_items r) 1 with Some x => match i_data x with Some (DDict [(lb, v)]) => String.eqb lb "value_avg" && negb (qeqb v (qz 1)) | _ => false end | None => false end | Err _ => false end).
Theorem C45_aggregate_refuted : exists N s r src, fresh ideal_env s /\ dict_points s /\ no_losses (s_items s) /\ in_range (s_items s) "value" (qz 1) (qz 1) /\
  aggregate N ideal_env ex_cal ex_round (UPhys (qz 5)) [agg_avg] s None None ten None None (Err ValueError) = Ok (r, src) /\
  exists x v, In x (s_items r) /\ has_value x "value_avg" v /\ v <> qz 1.
Proof.
  assert (E : s_items (ms flat3) = flat3) by (vm_compute; reflexivity).
  exists 10, (ms flat3).
  destruct (aggregate 10 ideal_env ex_cal ex_round (UPhys (qz 5)) [agg_avg] (ms flat3) None None ten None None (Err ValueError)) as [[r src]|] eqn:R; [|vm_compute in R; discriminate].
  exists r, src. split; [unfold fresh; rewrite E; vm_compute; reflexivity|]. split; [apply one_label_dict; rewrite E; [discriminate|one_label_tac|vm_compute; reflexivity]|].
  split; [|split; [|split; [reflexivity|]]].
  - rewrite E. intros w Hw. repeat destruct Hw as [<- |Hw]; try destruct Hw; left; reflexivity.
  - rewrite E. intros x v Hx Hv. repeat destruct Hx as [<- |Hx]; try destruct Hx; destruct Hv as [X|[]]; injection X as <-; split; apply qleb_le; vm_compute; reflexivity.
  - assert (V : not_one (Ok (r, src)) = true) by (rewrite <- R; vm_compute; reflexivity). clear E R. unfold not_one in V.
    cbn beta iota in V. destruct (nth_error (s_items r) 1) as [x|] eqn:Ex; [|discriminate]. destruct (i_data x) as [[?|[|[lb v] [|? ?]]]|] eqn:Ed; try discriminate.
    apply andb_prop in V. destruct V as [V1 V2]. apply String.eqb_eq in V1. subst lb. exists x, v. split; [eapply nth_error_In; exact Ex|]. split; [unfold has_value; rewrite Ed; left; reflexivity|].
    intros ->. rewrite qeqb_refl in V2. discriminate.
Qed.
Print Assumptions C45_aggregate_refuted.

(* ===================== C46 ===================== *)

Theorem C46_resample_start_end_partial : forall e c rd d s start stop validity auto si t0 tl from to,
  parses_units e -> dict_points s -> Qclt q0 d -> interval_is validity auto si ->
  first_time (s_items s) t0 -> last_time (s_items s) tl ->
  (* start and end, if given: not the number zero, on a boundary of the unit, not before the series *)
  (forall z, tz_is s z -> limit_is rd (UPhys d) start (Qcplus (rd_ceil rd (UPhys d) z (Qcminus t0 (Qcdiv d (qz 2)))) (Qcdiv d (qz 2))) from) ->
  limit_is rd (UPhys d) stop tl to -> Qcle t0 from ->
  exists N r src,
    (forall fuel, N <= fuel -> resample fuel e c rd (UPhys d) s start stop validity auto = Ok (r, src)) /\
    (* nothing before the start *)
    (forall x, In x (s_items r) -> Qclt from (i_t x)) /\
    (* nothing after the last point *)
    (Qcle tl to -> forall x, In x (s_items r) -> Qcle (Qcplus (i_t x) (Qcdiv d (qz 2))) tl) /\
    (* nothing after the end, when it is a whole number of units after the start and not in a gap *)
    (forall K, to = Qcplus from (Qcmult (qn K) d) -> has_point (s_items s) to (Qcplus to d) ->
       length (s_items r) = K /\ forall x, In x (s_items r) -> Qcle (Qcplus (i_t x) (Qcdiv d (qz 2))) to).
Proof.
  intros e c rd d s start stop validity auto si t0 tl from to He HD Hd HV HF HL Hfrom Hto Hle.
  destruct (attach_ok (s_items s) si auto (points_increasing s HD) (proj1 HV)) as (_ & pts & _ & _ & HR).
  destruct (resample_run e c rd d s start stop validity auto si t0 tl from to pts He HD Hd HV HR HF HL Hfrom Hto Hle) as (N & r & src & E1 & E2 & E3 & E4 & E5 & E6).
  exists N, r, src. split; [exact E1|].
  assert (S' : forall k, Qcmult (qn (S k)) d = Qcplus d (Qcmult (qn k) d)) by (intros k; rewrite qn_S; rewrite q1_eq; ring).
  assert (T : forall k x, nth_error (s_items r) k = Some x -> Qcplus (i_t x) (Qcdiv d (qz 2)) = Qcplus from (Qcmult (qn (S k)) d)).
  { intros k x Hx. destruct (E4 k x Hx) as (_ & T & _). rewrite T. unfold midpoint. rewrite S'. generalize (Qcmult (qn k) d). intros y. qlra. }
  split; [|split].
  - intros x Hx. apply In_nth_error in Hx. destruct Hx as [k Hx]. specialize (T k x Hx). rewrite S' in T. assert (P : Qcle q0 (Qcmult (qn k) d)) by (replace q0 with (Qcmult q0 d) by (rewrite q0_eq; ring); apply Qcmult_le_compat_r; [apply (qz_le_iff 0); lia|apply Qclt_le_weak; exact Hd]).
    revert T P. generalize (Qcmult (qn k) d). intros y T P. qlra.
  - intros L x Hx. apply In_nth_error in Hx. destruct Hx as [k Hx]. rewrite (T k x Hx). apply (E5 L). apply nth_error_Some. congruence.
  - intros K -> HP. assert (L : length (s_items r) = K) by (apply E6; [reflexivity|]; rewrite S'; replace (Qcplus from (Qcplus d (Qcmult (qn K) d))) with (Qcplus (Qcplus from (Qcmult (qn K) d)) d) by ring; exact HP).
    split; [exact L|]. intros x Hx. apply In_nth_error in Hx. destruct Hx as [k Hx]. rewrite (T k x Hx). assert (k < K) by (rewrite <- L; apply nth_error_Some; congruence).
    assert (Qcle (Qcmult (qn (S k)) d) (Qcmult (qn K) d)) by (apply Qcmult_le_compat_r; [apply qz_le_iff; lia|apply Qclt_le_weak; exact Hd]). qlra.
Qed.
Print Assumptions C46_resample_start_end_partial.

Lemma units_mono c u from : lasting c u -> forall j k, j <= k -> Qcle (units_after c u from j) (units_after c u from k).
Proof. intros H j k L. induction L as [|k L IH]; [apply Qcle_refl|]. eapply Qcle_trans; [exact IH|]. cbn [units_after]. apply Qclt_le_weak. apply (lasting_inc c u H). Qed.
Theorem C46_aggregate_start_end_partial : forall e c rd u ops s start stop validity auto si t0 tl from to,
  dict_points s -> lasting c u -> (exists q, unit_seconds c u t0 = Ok q) -> ops <> [] -> (forall o, In o ops -> standard o) ->
  interval_is validity auto si -> first_time (s_items s) t0 -> last_time (s_items s) tl ->
  (forall z, tz_is s z -> limit_is rd u start (if rd_on rd u z t0 then t0 else rd_ceil rd u z t0) from) ->
  limit_is rd u stop tl to -> Qcle t0 from -> no_losses (s_items s) ->
  exists N r src,
    (forall fuel, N <= fuel -> aggregate fuel e c rd u ops s start stop validity None None auto = Ok (r, src)) /\
    (forall x, In x (s_items r) -> Qcle from (i_t x)) /\
    (Qcle tl to -> forall x, In x (s_items r) -> Qcle (i_end x) tl) /\
    (forall K, to = units_after c u from K -> has_point (s_items s) to (unit_shift c u to 1) ->
       length (s_items r) = K /\ forall x, In x (s_items r) -> Qcle (i_end x) to).
Proof.
  intros e c rd u ops s start stop validity auto si t0 tl from to HD HU Hsec Hne Hops HV HF HL Hfrom Hto Hle Hn.
  destruct (attach_ok (s_items s) si auto (points_increasing s HD) (proj1 HV)) as (_ & pts & _ & _ & HR).
  destruct (aggregate_run e c rd u ops s start stop validity auto si t0 tl from to pts) as (N & r & src & E1 & E2 & E3 & E4 & E5 & _); try assumption; [left; exact Hn|].
  exists N, r, src. split; [exact E1|]. split; [|split].
  - intros x Hx. apply In_nth_error in Hx. destruct Hx as [k Hx]. destruct (E3 k x Hx) as (_ & -> & _). apply (units_mono c u from HU 0). lia.
  - intros L x Hx. apply In_nth_error in Hx. destruct Hx as [k Hx]. destruct (E3 k x Hx) as (_ & _ & -> & _). apply (E4 L). apply nth_error_Some. congruence.
  - intros K -> HP. assert (L : length (s_items r) = K) by (apply E5; [reflexivity|exact HP]). split; [exact L|].
    intros x Hx. apply In_nth_error in Hx. destruct Hx as [k Hx]. destruct (E3 k x Hx) as (_ & _ & -> & _). apply (units_mono c u from HU). rewrite <- L. apply nth_error_Some. congruence.
Qed.
Print Assumptions C46_aggregate_start_end_partial.

Example C46_nonvacuous : limit_is ex_round (UPhys (qz 10)) (Some (LNum (qz 10))) (qz 0) (qz 10) /\ limit_is ex_round (UPhys (qz 10)) (Some (LNum (qz 30))) (qz 60) (qz 30) /\
  qz 30 = units_after ex_cal (UPhys (qz 10)) (qz 10) 2 /\ has_point (s_items (ms five)) (qz 30) (unit_shift ex_cal (UPhys (qz 10)) (qz 30) 1) /\
  match aggregate 10 ideal_env ex_cal ex_round (UPhys (qz 10)) [agg_avg] (ms five) (Some (LNum (qz 10))) (Some (LNum (qz 30))) ten None None (Err ValueError) with
  | Ok (r, _) => forallb (fun p => qeqb (fst p) (snd p)) (combine (map i_t (s_items r)) [qz 10; qz 20]) && Nat.eqb (length (s_items r)) 2 = true | Err _ => False end.
Proof.
  assert (E : s_items (ms five) = five) by (vm_compute; reflexivity).
  split; [split; [|split; [vm_compute; reflexivity|reflexivity]]|split; [split; [|split; [vm_compute; reflexivity|reflexivity]]|split; [|split; [|vm_compute; reflexivity]]]].
  - apply qeqb_neq. vm_compute. reflexivity.
  - apply qeqb_neq. vm_compute. reflexivity.
  - apply qeqb_eq. vm_compute. reflexivity.
  - rewrite E. exists (pt 30 8). split; [do 3 right; left; reflexivity|]. split; [apply qleb_le|apply qltb_lt]; vm_compute; reflexivity.
Qed.

(* An end in a gap: items go on until the next point.  A start of zero (or an end): ignored. *)
Definition gappy : list item := [pt 0 1; pt 10 1; pt 20 1; pt 30 1; pt 40 1; pt 50 1; pt 60 1; pt 70 1; pt 80 1; pt 200 1; pt 210 1].
Definition around : list item := [pt (-20) 1; pt (-10) 1; pt 0 1; pt 10 1; pt 20 1].
Definition some_item (f : item -> bool) (r : result (series * list item)) : Prop := match r with Ok (r, _) => existsb f (s_items r) = true | Err _ => False end.
Theorem C46_refuted :
  (exists N s, fresh ideal_env s /\ dict_points s /\ no_losses (s_items s) /\
     some_item (fun x => qltb (qz 90) (i_t x)) (resample N ideal_env ex_cal ex_round (UPhys (qz 30)) s (Some (LNum (qz 60))) (Some (LNum (qz 90))) ten (Err ValueError)) /\
     some_item (fun x => qltb (qz 90) (i_t x)) (aggregate N ideal_env ex_cal ex_round (UPhys (qz 30)) [agg_avg] s (Some (LNum (qz 60))) (Some (LNum (qz 90))) ten None None (Err ValueError))) /\
  (exists N s, fresh ideal_env s /\ dict_points s /\ no_losses (s_items s) /\
     some_item (fun x => qltb (i_t x) q0) (resample N ideal_env ex_cal ex_round (UPhys (qz 10)) s (Some (LNum q0)) None ten (Err ValueError)) /\
     some_item (fun x => qltb (i_t x) q0) (aggregate N ideal_env ex_cal ex_round (UPhys (qz 10)) [agg_avg] s (Some (LNum q0)) None ten None None (Err ValueError)) /\
     some_item (fun x => qltb q0 (i_t x)) (aggregate N ideal_env ex_cal ex_round (UPhys (qz 10)) [agg_avg] s None (Some (LNum q0)) ten None None (Err ValueError))).
Proof.
  split.
  - assert (E : s_items (ms gappy) = gappy) by (vm_compute; reflexivity).
    exists 20, (ms gappy). split; [unfold fresh; rewrite E; vm_compute; reflexivity|split; [apply one_label_dict; rewrite E; [discriminate|one_label_tac|vm_compute; reflexivity]|split; [|split; vm_compute; reflexivity]]].
    rewrite E. intros w Hw. repeat destruct Hw as [<- |Hw]; try destruct Hw; left; reflexivity.
  - assert (E : s_items (ms around) = around) by (vm_compute; reflexivity).
    exists 20, (ms around). split; [unfold fresh; rewrite E; vm_compute; reflexivity|split; [apply one_label_dict; rewrite E; [discriminate|one_label_tac|vm_compute; reflexivity]|split; [|split; [|split]; vm_compute; reflexivity]]].
    rewrite E. intros w Hw. repeat destruct Hw as [<- |Hw]; try destruct Hw; left; reflexivity.
Qed.
Print Assumptions C46_refuted.

(* ===================== C47 ===================== *)

Theorem C47_dense_aggregate : forall e c rd u ops s validity auto si t0 tl from z,
  dict_points s -> lasting c u -> (exists q, unit_seconds c u t0 = Ok q) -> ops <> [] -> (forall o, In o ops -> standard o) ->
  interval_is validity auto si -> rounds rd u -> first_time (s_items s) t0 -> last_time (s_items s) tl ->
  tz_is s z -> first_boundary rd u z t0 from ->
  (* no gaps, and the unit is not shorter than the sampling interval *)
  close si (s_items s) -> (forall t, Qcle (Qcplus t si) (unit_shift c u t 1)) ->
  exists N r src pts,
    (forall fuel, N <= fuel -> aggregate fuel e c rd u ops s None None validity None None auto = Ok (r, src)) /\
    with_regions si (s_items s) pts /\ untouched (s_items s) src /\
    forall x, In x (s_items r) ->
      let weights := map (fun p => overlap (vp_from p) (vp_to p) (i_t x) (i_end x)) pts in
      (* the weights of the points make up the whole slot *)
      total weights = Qcminus (i_end x) (i_t x) /\ Qclt (i_t x) (i_end x) /\
      (no_losses (s_items s) -> data_loss x = Some q0) /\
      (forall lb v vs, In agg_avg ops -> has_value x (lb ++ "_avg")%string v -> column lb (s_items s) vs ->
         Qcmult v (Qcminus (i_end x) (i_t x)) = total (map (fun vw => Qcmult (fst vw) (snd vw)) (combine vs weights))) /\
      (forall lb v vs, In agg_sum ops -> has_value x (lb ++ "_sum")%string v -> column lb (points_in (s_items s) (i_t x) (i_end x)) vs -> v = total vs) /\
      (forall lb v, In agg_min ops -> has_value x (lb ++ "_min")%string v -> is_min lb (points_in (s_items s) (i_t x) (i_end x)) v) /\
      (forall lb v, In agg_max ops -> has_value x (lb ++ "_max")%string v -> is_max lb (points_in (s_items s) (i_t x) (i_end x)) v).
Proof.
  intros e c rd u ops s validity auto si t0 tl from z HD HU Hsec Hne Hops HV Hrd HF HL Hz HB HC Hsi.
  pose proof (points_increasing s HD) as HI. pose proof (proj1 HV) as Psi.
  destruct (attach_ok (s_items s) si auto HI Psi) as (_ & pts & _ & _ & HR).
  assert (HP : forall k, Qcle (units_after c u from (S k)) tl -> has_point (s_items s) (units_after c u from k) (units_after c u from (S k))).
  { intros k L. apply (close_has_point si (s_items s) t0 tl); try assumption; [|apply Hsi]. eapply Qcle_trans; [apply HB|]. apply (units_mono c u from HU 0). lia. }
  destruct (aggregate_run e c rd u ops s None None validity auto si t0 tl from tl pts) as (N & r & src & E1 & E2 & E3 & E4 & _ & E6); try assumption.
  - intros z' Hz'. assert (z' = z) by (unfold tz_is in *; congruence). subst z'. apply (first_boundary_unique rd u z t0); [exact HB|apply boundary_is; exact Hrd].
  - reflexivity.
  - apply HB.
  - right. exact HP.
  - destruct (E6 (fun k L => or_introl (HP k L))) as [E7 V]. exists N, r, src, pts. split; [exact E1|split; [exact HR|split; [exact E7|]]].
    intros x Hx weights. apply In_nth_error in Hx. destruct Hx as [k Hx]. destruct (E3 k x Hx) as (_ & Ef & Et & _ & _ & _ & _ & L & _). specialize (V k x Hx).
    assert (Lk : Qcle (units_after c u from (S k)) tl) by (apply (E4 (Qcle_refl _)); apply nth_error_Some; congruence).
    set (F := units_after c u from k) in *. set (T := units_after c u from (S k)) in *. assert (FT : Qclt F T) by apply (lasting_inc c u HU).
    assert (t0F : Qcle t0 F) by (eapply Qcle_trans; [apply HB|]; apply (units_mono c u from HU 0); lia).
    assert (DJ : disjoint_regions pts) by (apply placed_disjoint; apply (regions_placed si (s_items s)); assumption).
    assert (M : missing_fraction pts F T = q0). { apply (missing_bounds pts F T DJ FT). apply (close_covers si (s_items s) pts t0 tl); assumption. }
    pose proof (missing_zero pts F T FT M) as CL. assert (NZ : Qcminus T F <> q0) by (intros X; apply (Qclt_not_eq _ _ FT); qlra).
    assert (CG : close si (points_in (s_items s) F T)) by (apply consecutive_filter_block; assumption).
    unfold weights. rewrite Ef, Et. split; [|split; [exact FT|split; [intros Hn; rewrite (L Hn), M; reflexivity|split; [|split; [|split]]]]].
    + rewrite <- CL. rewrite (placed_covered pts F T); [reflexivity|apply (regions_placed si (s_items s)); assumption].
    + intros lb v vs Ho Hv Hc. destruct (V lb agg_avg v Ho Hv) as (A & _). rewrite (A eq_refl vs Hc). unfold mean_over. rewrite (close_no_line si (s_items s)) by assumption.
      transitivity (total (map (fun pv => Qcmult (snd pv) (overlap (vp_from (fst pv)) (vp_to (fst pv)) F T)) (combine pts vs))).
      { rewrite q0_eq. field. exact NZ. }
      clear. revert vs. induction pts as [|p l IH]; intros [|v vs]; try reflexivity. cbn [map combine total fst snd]. f_equal. apply IH.
    + intros lb v vs Ho Hv Hc. destruct (V lb agg_sum v Ho Hv) as (_ & _ & A). destruct (A (HP k Lk) CG) as (B & _). apply (B eq_refl vs Hc).
    + intros lb v Ho Hv. destruct (V lb agg_min v Ho Hv) as (_ & _ & A). apply (A (HP k Lk) CG). reflexivity.
    + intros lb v Ho Hv. destruct (V lb agg_max v Ho Hv) as (_ & _ & A). apply (A (HP k Lk) CG). reflexivity.
Qed.
Print Assumptions C47_dense_aggregate.

Definition regular5 : list item := [pt 0 1; pt 10 2; pt 20 4; pt 30 8; pt 40 2].
Example C47_nonvacuous : dict_points (ms regular5) /\ close (qz 10) (s_items (ms regular5)) /\ (forall t, Qcle (Qcplus t (qz 10)) (unit_shift ex_cal (UPhys (qz 20)) t 1)) /\
  first_boundary ex_round (UPhys (qz 20)) "UTC" (qz 0) (qz 0) /\
  match aggregate 10 ideal_env ex_cal ex_round (UPhys (qz 20)) [agg_avg; agg_sum; agg_min; agg_max] (ms regular5) None None ten None None (Err ValueError) with
  | Ok (r, src) => values_are "value_avg" (Ok (r, src)) [qfrac 9 4; qfrac 11 2] && values_are "value_sum" (Ok (r, src)) [qz 3; qz 12] &&
                   values_are "value_min" (Ok (r, src)) [qz 1; qz 4] && values_are "value_max" (Ok (r, src)) [qz 2; qz 8] = true
  | Err _ => False end.
Proof.
  assert (E : s_items (ms regular5) = regular5) by (vm_compute; reflexivity).
  split; [apply one_label_dict; rewrite E; [discriminate|one_label_tac|vm_compute; reflexivity]|]. split; [|split; [|split]].
  - rewrite E. intros i a b Ha Hb. do 4 (destruct i as [|i]; [cbn in Ha, Hb; injection Ha as <-; injection Hb as <-; apply qleb_le; vm_compute; reflexivity|]). destruct i as [|[|i]]; discriminate.
  - intros t. cbn. assert (X : Qcle (qz 10) (Qcmult (qz 20) (qz 1))) by (apply qleb_le; vm_compute; reflexivity). qlra.
  - apply (boundary_is ex_round (UPhys (qz 20)) "UTC" (qz 0)). apply ex_rounds, pos20.
  - vm_compute. reflexivity.
Qed.

(* ===================== C68 ===================== *)

Theorem C68_resample_source_untouched : forall e c rd d s start stop validity auto si t0 tl from to,
  parses_units e -> dict_points s -> Qclt q0 d -> interval_is validity auto si ->
  first_time (s_items s) t0 -> last_time (s_items s) tl ->
  (forall z, tz_is s z -> limit_is rd (UPhys d) start (Qcplus (rd_ceil rd (UPhys d) z (Qcminus t0 (Qcdiv d (qz 2)))) (Qcdiv d (qz 2))) from) ->
  limit_is rd (UPhys d) stop tl to -> Qcle t0 from ->
  exists N r src, (forall fuel, N <= fuel -> resample fuel e c rd (UPhys d) s start stop validity auto = Ok (r, src)) /\ untouched (s_items s) src.
Proof.
  intros e c rd d s start stop validity auto si t0 tl from to He HD Hd HV HF HL Hfrom Hto Hle.
  destruct (attach_ok (s_items s) si auto (points_increasing s HD) (proj1 HV)) as (_ & pts & _ & _ & HR).
  destruct (resample_run e c rd d s start stop validity auto si t0 tl from to pts He HD Hd HV HR HF HL Hfrom Hto Hle) as (N & r & src & E1 & E2 & E3 & _).
  exists N, r, src. auto.
Qed.
Print Assumptions C68_resample_source_untouched.

Theorem C68_aggregate_source_untouched_partial : forall e c rd u ops s start stop validity auto si t0 tl from to pts,
  dict_points s -> lasting c u -> (exists q, unit_seconds c u t0 = Ok q) -> ops <> [] -> (forall o, In o ops -> standard o) ->
  interval_is validity auto si -> with_regions si (s_items s) pts -> first_time (s_items s) t0 -> last_time (s_items s) tl ->
  (forall z, tz_is s z -> limit_is rd u start (if rd_on rd u z t0 then t0 else rd_ceil rd u z t0) from) ->
  limit_is rd u stop tl to -> Qcle t0 from -> no_losses (s_items s) ->
  sound_slots c u s pts from tl ->
  exists N r src, (forall fuel, N <= fuel -> aggregate fuel e c rd u ops s start stop validity None None auto = Ok (r, src)) /\ untouched (s_items s) src.
Proof.
  intros e c rd u ops s start stop validity auto si t0 tl from to pts HD HU Hsec Hne Hops HV HR HF HL Hfrom Hto Hle Hn Hs.
  destruct (aggregate_run e c rd u ops s start stop validity auto si t0 tl from to pts) as (N & r & src & E1 & E2 & E3 & E4 & E5 & E6); try assumption; [left; exact Hn|].
  exists N, r, src. split; [exact E1|]. apply (E6 Hs).
Qed.
Print Assumptions C68_aggregate_source_untouched_partial.

Definition changed (src : list item) : bool :=
  match nth_error src 1 with Some x => match i_data x with Some (DDict [(_, v)]) => negb (qeqb v (qz 1)) | _ => false end | None => false end.
Definition changed_in (res : result (series * list item)) : bool :=
  match res with Ok (_, l) => changed (map (fun x => set_weight x None) l) | Err _ => false end.
Theorem C68_aggregate_refuted : exists N s r src, fresh ideal_env s /\ dict_points s /\ no_losses (s_items s) /\
  aggregate N ideal_env ex_cal ex_round (UPhys (qz 5)) [agg_avg] s None None ten None None (Err ValueError) = Ok (r, src) /\ ~ untouched (s_items s) src.
Proof.
  assert (E : s_items (ms flat3) = flat3) by (vm_compute; reflexivity).
  exists 10, (ms flat3).
  destruct (aggregate 10 ideal_env ex_cal ex_round (UPhys (qz 5)) [agg_avg] (ms flat3) None None ten None None (Err ValueError)) as [[r src]|] eqn:R; [|vm_compute in R; discriminate].
  exists r, src. split; [unfold fresh; rewrite E; vm_compute; reflexivity|]. split; [apply one_label_dict; rewrite E; [discriminate|one_label_tac|vm_compute; reflexivity]|].
  split; [|split; [reflexivity|]].
  - rewrite E. intros w Hw. repeat destruct Hw as [<- |Hw]; try destruct Hw; left; reflexivity.
  - assert (V : changed_in (Ok (r, src)) = true) by (rewrite <- R; vm_compute; reflexivity). clear R. unfold changed_in in V.
    cbn beta iota in V. intros U. unfold untouched in U. rewrite U, E in V. vm_compute in V. discriminate.
Qed.
Print Assumptions C68_aggregate_refuted.
Example C68_nonvacuous : (forall pts, sound_slots ex_cal (UPhys (qz 30)) (ms five) pts (qz 0) (qz 60)) /\
  match five_agg 10 30 [agg_avg; agg_min] with Ok (_, src) => forallb (fun xy => match i_data (fst xy), i_data (snd xy) with Some (DDict [(_, v)]), Some (DDict [(_, w)]) => qeqb v w | _, _ => false end) (combine src five) = true | Err _ => False end.
Proof. split; [exact five_sound|vm_compute; reflexivity]. Qed.
