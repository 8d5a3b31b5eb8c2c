(* TransformProofs13.v -- aggregate in the terms of the specification. *)
From Verif Require Import SpecTransform BaseLemmas AccessProofs AccessProofs3 DictLemmas OpsProofs OpsProofs2 OpsProofs3
  IntervalsProofs IntervalsProofs2 IntervalsProofs3 InterpProofs TransformProofs TransformProofs2 TransformProofs3 TransformProofs4 TransformProofs5 TransformProofs6 TransformProofs7 TransformProofs8 TransformProofs9 TransformProofs10 TransformProofs11 TransformProofs12.

(* ---------------- the names of the new labels ---------------- *)
Lemma append_length a b : String.length (a ++ b)%string = String.length a + String.length b.
Proof. induction a as [|x a IH]; [reflexivity|]. cbn. rewrite IH. reflexivity. Qed.
Lemma append_inj_tail : forall a a' b b', String.length b = String.length b' -> (a ++ b)%string = (a' ++ b')%string -> a = a' /\ b = b'.
Proof.
  induction a as [|x a IH]; intros [|x' a'] b b' L E; cbn in E.
  - auto.
  - exfalso. apply (f_equal String.length) in E. cbn in E. rewrite append_length in E. lia.
  - exfalso. apply (f_equal String.length) in E. cbn in E. rewrite append_length in E. lia.
  - injection E as -> E. destruct (IH a' b b' L E) as [-> ->]. auto.
Qed.
Lemma standard_key lb lb' o o' : standard o -> standard o' -> slot_key lb o = slot_key lb' o' -> lb = lb' /\ o = o'.
Proof.
  intros S S' E. unfold slot_key in E. apply append_inj_tail in E.
  - destruct E as [E1 E2]. split; [exact E1|]. destruct S as [-> |[-> |[-> | ->]]], S' as [-> |[-> |[-> | ->]]]; cbn in E2; try discriminate E2; reflexivity.
  - destruct S as [-> |[-> |[-> | ->]]], S' as [-> |[-> |[-> | ->]]]; reflexivity.
Qed.
Lemma standard_fine o : standard o -> op_fine o.
Proof. intros [-> |[-> |[-> | ->]]]; [apply (exact_fine _ _ avg_exact)|apply (exact_fine _ _ sum_exact)|apply (exact_fine _ _ min_exact)|apply (exact_fine _ _ max_exact)]. Qed.

(* ---------------- the points of a slot are consecutive ---------------- *)
Lemma inside_block F T (l : list vpoint) : strictly_increasing (map tm l) -> exists A C, l = A ++ inside_list F T l ++ C.
Proof.
  unfold inside_list. induction l as [|x l IH]; intros H; [exists [], []; reflexivity|]. cbn [map] in H. apply si_cons in H. destruct H as [H1 H2]. destruct (IH H1) as (A & C & E). cbn [filter].
  destruct (inside_slot F T x) eqn:Ex; [|exists (x :: A), C; cbn; rewrite <- E; reflexivity].
  unfold inside_slot in Ex. apply andb_true_iff in Ex. destruct Ex as [E1 E2]. destruct (qleb_spec F (tm x)) as [K|]; [|discriminate].
  destruct A as [|a A]; [exists [], C; cbn; f_equal; exact E|].
  (* if the block is not at the beginning, the points before it are not before F, hence not before T: the block is empty *)
  assert (Ha : In a l) by (rewrite E; left; reflexivity). pose proof (H2 (tm a) (in_map _ _ _ Ha)) as La.
  destruct (filter (inside_slot F T) l) as [|b f] eqn:Ef; [exists [], l; reflexivity|].
  assert (Hb : In b (filter (inside_slot F T) l)) by (rewrite Ef; left; reflexivity). apply filter_In in Hb. destruct Hb as [Hb1 Hb2]. unfold inside_slot in Hb2. apply andb_true_iff in Hb2. destruct Hb2 as [B1 B2].
  destruct (qltb_spec (tm b) T) as [Kb|]; [|discriminate].
  assert (Lab : Qclt (tm a) (tm b)).
  { rewrite E in H1. cbn [app map] in H1. apply si_cons in H1. apply H1. apply in_map. apply in_app_iff. right. left. reflexivity. }
  assert (Ia : In a (filter (inside_slot F T) l)) by (apply filter_In; split; [exact Ha|]; unfold inside_slot; rewrite qleb_true, qltb_true by qlra; reflexivity).
  exfalso. rewrite Ef in Ia. assert (In a (b :: f ++ C)) by (destruct Ia as [Ia|Ia]; [left; exact Ia|right; apply in_app_iff; left; exact Ia]).
  rewrite E in H1. cbn [app map] in H1. apply si_cons in H1. destruct H1 as [_ H1]. assert (X : Qclt (tm a) (tm a)) by (apply H1; apply in_map; apply in_app_iff; right; exact H). qlra.
Qed.
Lemma inside_items F T pts : map vp_item (inside_list F T pts) = points_in (map vp_item pts) F T.
Proof. unfold inside_list, points_in. induction pts as [|x l IH]; [reflexivity|]. cbn [map filter]. unfold inside_slot at 1, tm. destruct (qleb F (i_t (vp_item x)) && qltb (i_t (vp_item x)) T)%bool; cbn [map]; rewrite IH; reflexivity. Qed.
Lemma close_touch si l pts i p q : with_regions si l pts -> nth_error pts i = Some p -> nth_error pts (S i) = Some q -> Qcle (Qcminus (tm q) (tm p)) si -> Qcle (vp_from q) (vp_to p).
Proof.
  intros (_ & _ & T) Hp Hq L. destruct T as (_ & _ & _ & C & _). specialize (C i (reg_of p) (reg_of q)). rewrite !nth_error_map, Hp, Hq in C. specialize (C eq_refl eq_refl).
  unfold reg_of in C. cbn [r_t r_from r_to] in C. unfold tm in L. destruct (qltb (Qcminus (i_t (vp_item q)) (i_t (vp_item p))) si).
  - destruct C as [-> ->]. apply Qcle_refl.
  - destruct C as [-> ->]. qlra.
Qed.
Lemma no_gap_block si l pts F T : with_regions si l pts -> strictly_increasing (times l) -> consecutive (fun x y => Qcle (Qcminus (i_t y) (i_t x)) si) (points_in l F T) -> no_gap_in F T pts.
Proof.
  intros HR H C k a b Ha Hb. pose proof HR as (E & _). rewrite <- E in H. unfold times in H. rewrite map_map in H. destruct (inside_block F T pts H) as (A & B & EA).
  assert (Nth : forall j w, nth_error (inside_list F T pts) j = Some w -> nth_error pts (length A + j) = Some w).
  { intros j w Hw. rewrite EA, nth_error_app2 by lia. replace (length A + j - length A) with j by lia. rewrite nth_error_app1; [exact Hw|]. apply nth_error_Some. congruence. }
  apply (close_touch si l pts (length A + k)); [exact HR|apply Nth; exact Ha|replace (S (length A + k)) with (length A + S k) by lia; apply Nth; exact Hb|].
  rewrite <- E, <- inside_items in C. apply (C k (vp_item a) (vp_item b)); rewrite nth_error_map; [rewrite Ha|rewrite Hb]; reflexivity.
Qed.

Definition aggregated (s : series) (pts : list vpoint) (u : tunit) (ops : list operation) (F T : Qc) (x : item) : Prop :=
  i_cls x = CDataTimeSlot /\ i_t x = F /\ i_end x = T /\ i_unit x = u /\ tz_is s (i_tz x) /\ numeric_item x /\
  (forall y key, In y (s_items s) -> (has_label x key <-> exists lb o, has_label y lb /\ In o ops /\ key = (lb ++ "_" ++ o_name o)%string)) /\
  (no_losses (s_items s) -> data_loss x = Some (missing_fraction pts F T)) /\ indexes_are (all_indexes (s_items s)) F T pts x.
Definition slot_values (s : series) (si : Qc) (pts : list vpoint) (ops : list operation) (F T : Qc) (x : item) : Prop :=
  forall lb o v, In o ops -> has_value x (lb ++ "_" ++ o_name o)%string v ->
    (o = agg_avg -> forall vs, column lb (s_items s) vs -> v = mean_over F T (combine pts vs)) /\
    (o = agg_avg \/ o = agg_min \/ o = agg_max -> forall m M, in_range (s_items s) lb m M -> Qcle m v /\ Qcle v M) /\
    (has_point (s_items s) F T -> consecutive (fun x y => Qcle (Qcminus (i_t y) (i_t x)) si) (points_in (s_items s) F T) ->
      (o = agg_sum -> forall vs, column lb (points_in (s_items s) F T) vs -> v = total vs) /\
      (o = agg_min -> is_min lb (points_in (s_items s) F T) v) /\ (o = agg_max -> is_max lb (points_in (s_items s) F T) v)).

Section Slots.
Variables (P : tparams) (s : series) (si from : Qc) (pts : list vpoint).
Hypothesis HR : with_regions si (s_items s) pts.
Hypothesis HD : dict_points s.
Hypothesis Hinc : forall t, Qclt t (unit_shift (tp_cal P) (tp_unit P) t 1).
Hypothesis Hops : forall o, In o (tp_ops P) -> standard o.
Hypothesis Hforce : tp_force P = None.
Hypothesis Hfill : tp_fill P = None.
Let g := units_after (tp_cal P) (tp_unit P) from.

Lemma new_aggregated k x : new_slot P s (all_indexes (s_items s)) from pts k x -> aggregated s pts (tp_unit P) (tp_ops P) (g k) (g (S k)) x.
Proof.
  intros (d & ix & Ex & D1 & D2 & D3 & (loss & L1 & L2) & _ & L3). rewrite Hforce in L1. unfold g. rewrite <- !grid_after. pose proof HR as (E & _).
  assert (Hd : i_data x = Some (DDict d)) by (rewrite Ex; reflexivity).
  split; [rewrite Ex; reflexivity|split; [rewrite Ex; reflexivity|split; [rewrite Ex; reflexivity|split; [rewrite Ex; reflexivity|split; [rewrite Ex; reflexivity|split; [|split; [|split; [|exact L3]]]]]]]].
  - split; [right; rewrite Ex; reflexivity|]. rewrite Hd. auto.
  - intros y key Hy. rewrite <- E in Hy. apply in_map_iff in Hy. destruct Hy as (q & <- & Hq). fold (slot_key). rewrite <- (D3 q key Hq). unfold has_label at 1, has_value. rewrite Hd. split.
    + intros (v & Hv). apply (in_map fst) in Hv. exact Hv.
    + intros Hv. apply in_map_iff in Hv. destruct Hv as ((k' & v) & <- & Hv). exists v. exact Hv.
  - intros Hn. rewrite L1. f_equal. apply L2. apply (regions_prior s si pts HR Hn).
Qed.
Lemma new_values k x : clean_all P from pts -> new_slot P s (all_indexes (s_items s)) from pts k x -> slot_values s si pts (tp_ops P) (g k) (g (S k)) x.
Proof.
  intros CA (d & ix & Ex & D1 & D2 & D3 & _ & V & _) lb o v Ho Hv. assert (Hd : i_data x = Some (DDict d)) by (rewrite Ex; reflexivity). unfold has_value in Hv. rewrite Hd in Hv.
  destruct (V Hfill CA _ _ Hv) as (o' & lb' & Ho' & Ek & (W1 & W2 & W3)). fold (slot_key lb o) in Ek. destruct (standard_key lb lb' o o' (Hops o Ho) (Hops o' Ho') Ek) as [<- <-].
  unfold g. rewrite <- (grid_after _ _ _ k), <- (grid_after _ _ _ (S k)). pose proof HR as (E & _). pose proof (Hinc (grid (tp_cal P) (tp_unit P) from k)) as L. change (unit_shift (tp_cal P) (tp_unit P) (grid (tp_cal P) (tp_unit P) from k) 1) with (grid (tp_cal P) (tp_unit P) from (S k)) in L.
  set (F := grid (tp_cal P) (tp_unit P) from k) in *. set (T := grid (tp_cal P) (tp_unit P) from (S k)) in *. split; [|split].
  - intros A vs Hc. rewrite (W1 A). apply (regions_values s si pts HR HD); assumption.
  - intros A m M Hr. apply (W2 A). apply (range_bounds (s_items s)); assumption.
  - intros (y & Hy & Y1 & Y2) Hg. assert (NG : no_gap_in F T pts) by (apply (no_gap_block si (s_items s)); [exact HR|apply points_increasing; exact HD|exact Hg]).
    assert (NE : inside_list F T pts <> []).
    { intros X. apply (f_equal (map vp_item)) in X. rewrite inside_items, E in X. cbn [map] in X. assert (In y (points_in (s_items s) F T)) by (apply filter_In; split; [exact Hy|]; rewrite qleb_true, qltb_true by assumption; reflexivity). rewrite X in H. destruct H. }
    rewrite inside_items, E in W3. split; [|split].
    + intros -> vs Hc. pose proof (W3 is_total sum_exact eq_refl weightless_sum NE NG) as X. unfold is_total in X. rewrite X. f_equal.
      assert (N : forall y, In y (points_in (s_items s) F T) -> numeric_item y) by (intros z Hz; apply filter_In in Hz; apply HD; apply Hz).
      clear - Hc N. revert N Hc. generalize (points_in (s_items s) F T). intros l0 N Hc. unfold column in Hc. induction Hc as [|z w l vs Hz Hc IH]; [reflexivity|]. cbn. f_equal; [apply valof_spec; [apply N; left; reflexivity|exact Hz]|apply IH; auto using in_cons].
    + intros ->. apply (W3 is_min min_exact eq_refl weightless_min NE NG).
    + intros ->. apply (W3 is_max max_exact eq_refl weightless_max NE NG).
Qed.
End Slots.

Section Aggregate.
Variables (e : env) (c : cal) (rd : rounding) (u : tunit) (ops : list operation) (s : series) (start stop : option tlimit) (validity : option Qc) (auto : result Qc).
Variables (si t0 tl from to : Qc) (pts : list vpoint).
Hypothesis HD : dict_points s.
Hypothesis HU : lasting c u.
Hypothesis Hsec : exists q, unit_seconds c u t0 = Ok q.
Hypothesis Hne : ops <> [].
Hypothesis Hops : forall o, In o ops -> standard o.
Hypothesis HV : interval_is validity auto si.
Hypothesis HR : with_regions si (s_items s) pts.
Hypothesis HF : first_time (s_items s) t0.
Hypothesis HL : last_time (s_items s) tl.
Hypothesis Hfrom : forall z, tz_is s z -> limit_is rd u start (if rd_on rd u z t0 then t0 else rd_ceil rd u z t0) from.
Hypothesis Hto : limit_is rd u stop tl to.
Hypothesis Hle : Qcle t0 from.
Let g := units_after c u from.
Hypothesis NP : no_losses (s_items s) \/ (forall k, Qcle (g (S k)) tl -> has_point (s_items s) (g k) (g (S k))).

Lemma at_slot_le P k prev i : tp_cal P = c -> tp_unit P = u -> at_slot P from (map tm pts) k prev i -> Qcle (g (S k)) tl.
Proof.
  intros Ec Eu ((t & Ht & Hg) & _). unfold g. rewrite <- grid_after, <- Ec, <- Eu. pose proof (core_last s si tl pts HR HL) as Hl.
  assert (Hsi : strictly_increasing (map tm pts)) by (rewrite (core_times s si pts HR); apply points_increasing; exact HD).
  assert (Li : i < length (map tm pts)) by (apply nth_error_Some; congruence). destruct (Nat.eq_dec i (length (map tm pts) - 1)) as [-> |N]; [assert (t = tl) by congruence; subst; exact Hg|].
  assert (Qclt t tl) by (apply (Hsi i (length (map tm pts) - 1)); [lia|exact Ht|exact Hl]). qlra.
Qed.

Lemma aggregate_run : exists N r src, (forall fuel, N <= fuel -> aggregate fuel e c rd u ops s start stop validity None None auto = Ok (r, src)) /\
  fresh e r /\ (forall k x, nth_error (s_items r) k = Some x -> aggregated s pts u ops (g k) (g (S k)) x) /\
  (Qcle tl to -> forall k, k < length (s_items r) <-> Qcle (g (S k)) tl) /\
  (forall K0, to = g K0 -> has_point (s_items s) (g K0) (g (S K0)) -> length (s_items r) = K0) /\
  ((forall k, Qcle (g (S k)) tl -> has_point (s_items s) (g k) (g (S k)) \/ covered_length pts (g k) (g (S k)) = q0) ->
     untouched (s_items s) src /\ forall k x, nth_error (s_items r) k = Some x -> slot_values s si pts ops (g k) (g (S k)) x).
Proof.
  set (P := mkTp e c rd linear_interp u TSlots ops None None). pose proof (lasting_inc c u HU) as Hinc.
  assert (HP : placed pts) by (apply (regions_placed si (s_items s)); [exact HR|apply points_increasing; exact HD]). assert (G : good pts) by (apply (regions_good si s); assumption).
  assert (H0 : forall t, nth_error (map tm pts) 0 = Some t -> Qcle t from) by (apply (core_first s si t0 from pts HR HF Hle)).
  pose proof (proj1 HV) as Psi. pose proof HR as (E & _).
  assert (PIN : forall k, has_point (s_items s) (g k) (g (S k)) -> point_in P from pts k).
  { intros k (y & Hy & Y1 & Y2). rewrite <- E in Hy. apply in_map_iff in Hy. destruct Hy as (q & <- & Hq). exists q. unfold g in *. rewrite <- !grid_after in *. auto. }
  assert (NP' : (forall q, In q pts -> prior_loss q = q0) \/ (forall k prev i, at_slot P from (map tm pts) k prev i -> point_in P from pts k)).
  { destruct NP as [H|H]; [left; apply (regions_prior s si pts HR H)|right]. intros k prev i HA. apply PIN, H. apply (at_slot_le P k prev i); [reflexivity|reflexivity|exact HA]. }
  destruct (core_ok P s start stop validity auto si t0 tl (if rd_on rd u (tz_of s) t0 then t0 else rd_ceil rd u (tz_of s) t0) from to pts) with (Same := same_slots P from pts) (R := new_slot P s (all_indexes (s_items s)) from pts)
    as (N & r & pts' & E1 & E2 & E3 & E4 & E5 & E6); try assumption.
  - reflexivity.
  - apply limit_is_or. cbn [tp_round tp_unit P]. apply Hfrom. reflexivity.
  - apply limit_is_or. exact Hto.
  - intros p Hp. apply (same_slots_times P from pts). exact Hp.
  - intros. apply (emit_slot P s (all_indexes (s_items s)) auto si from pts); try assumption; try reflexivity. intros o Ho. apply standard_fine, Hops, Ho.
  - intros xs Hx. apply (out_slots P s (all_indexes (s_items s)) from pts Hinc G xs Hx).
  - split; [apply F2_refl; apply G|reflexivity].
  - exists N, r, (map vp_item pts'). split; [intros fuel Hf; unfold aggregate; destruct ops; [congruence|apply E1; exact Hf]|split; [exact E3|split; [|split; [|split]]]].
    + intros k x Hx. apply (new_aggregated P s si from pts HR eq_refl). apply E4. exact Hx.
    + exact E5.
    + intros K0 Et (x & Hx & T1 & T2). apply (E6 K0 (i_t x)); try assumption. unfold times. apply in_map. exact Hx.
    + intros CL. assert (CA : clean_all P from pts).
      { intros k prev i HA. pose proof (at_slot_le P k prev i eq_refl eq_refl HA) as Hk. destruct (CL k Hk) as [X|X]; [left; apply PIN; exact X|right]. unfold g in X. rewrite <- !grid_after in X. exact X. }
      split; [rewrite <- E; apply unweigh_untouched; apply E2; exact CA|]. intros k x Hx. apply (new_values P s si from pts HR HD Hinc Hops eq_refl k x CA). apply E4. exact Hx.
Qed.
End Aggregate.
