(* TransformProofs12.v -- resample and aggregate in the terms of the specification. *)
From Verif Require Import SpecTransform BaseLemmas AccessProofs AccessProofs3 DictLemmas OpsProofs OpsProofs2 OpsProofs3
  IntervalsProofs IntervalsProofs2 IntervalsProofs3 InterpProofs TransformProofs TransformProofs2 TransformProofs3 TransformProofs4 TransformProofs5 TransformProofs6 TransformProofs7 TransformProofs8 TransformProofs9 TransformProofs10 TransformProofs11.

Lemma limit_is_or P l a t : limit_is (tp_round P) (tp_unit P) l a t -> limit_or P l a = Ok t.
Proof.
  destruct l as [[x|x z]|]; cbn; [intros (N & H & ->)|intros (H & ->)|intros ->; reflexivity].
  - rewrite qeqb_false by exact N. rewrite H. reflexivity.
  - rewrite H. reflexivity.
Qed.
Lemma range_bounds l lb m M pts : map vp_item pts = l -> in_range l lb m M -> bounds_on pts lb m M.
Proof. intros <- H q v Hq Hv. apply (H (vp_item q) v); [apply in_map; exact Hq|exact Hv]. Qed.

(* ---------------- resampling ---------------- *)
Definition resampled (s : series) (pts : list vpoint) (F T : Qc) (x : item) : Prop :=
  i_cls x = CDataTimePoint /\ i_t x = midpoint F T /\ i_end x = i_t x /\ tz_is s (i_tz x) /\ numeric_item x /\ (exists d, i_data x = Some (DDict d)) /\
  (forall y lb, In y (s_items s) -> (has_label x lb <-> has_label y lb)) /\
  (forall lb vs v, column lb (s_items s) vs -> has_value x lb v -> v = mean_over F T (combine pts vs)) /\
  (forall lb v m M, in_range (s_items s) lb m M -> has_value x lb v -> Qcle m v /\ Qcle v M) /\
  (no_losses (s_items s) -> data_loss x = Some (missing_fraction pts F T)) /\ indexes_are (all_indexes (s_items s)) F T pts x.

Section Points.
Variables (P : tparams) (s : series) (si from : Qc) (pts : list vpoint).
Hypothesis HR : with_regions si (s_items s) pts.
Hypothesis HD : dict_points s.
Hypothesis Hinc : forall t, Qclt t (unit_shift (tp_cal P) (tp_unit P) t 1).

Lemma pts_nonempty : exists p, In p pts.
Proof. destruct HR as (E & _). destruct HD as ((N & _) & _). destruct pts as [|p l]; [destruct N; rewrite <- E; reflexivity|]. exists p. left. reflexivity. Qed.
Lemma half_mid a b : Qcplus a (qhalf (Qcminus b a)) = midpoint a b.
Proof. unfold qhalf, midpoint, q2. qlra. Qed.
Lemma regions_values lb vs F T : Qclt F T -> column lb (s_items s) vs -> signal_mean lb F T pts = mean_over F T (combine pts vs).
Proof.
  intros L H. destruct HR as (E & _). assert (Hpl : placed pts) by (apply (regions_placed si (s_items s)); [exact HR|apply points_increasing; exact HD]).
  rewrite (mean_signal lb F T pts L Hpl), (column_valued lb pts vs); [reflexivity|rewrite E; apply HD|rewrite E; exact H].
Qed.
Lemma regions_prior : no_losses (s_items s) -> forall q, In q pts -> prior_loss q = q0.
Proof. intros H q Hq. destruct HR as (E & _). apply (data_loss_prior (s_items s) H). rewrite <- E. apply in_map. exact Hq. Qed.
Lemma new_resampled k x : new_point P s (all_indexes (s_items s)) from pts k x -> resampled s pts (units_after (tp_cal P) (tp_unit P) from k) (units_after (tp_cal P) (tp_unit P) from (S k)) x.
Proof.
  intros (X1 & X2 & X3 & X4 & (d & D1 & D2 & D3 & D4) & (loss & L1 & L2) & L3). rewrite <- !grid_after in *. destruct HR as (E & _).
  assert (Hlab : forall y lb, In y (s_items s) -> has_label x lb <-> has_label y lb).
  { intros y lb Hy. rewrite <- E in Hy. apply in_map_iff in Hy. destruct Hy as (q & <- & Hq). rewrite <- (D3 q lb Hq). unfold has_label, has_value. rewrite D1. split.
    - intros (v & Hv). apply (in_map fst) in Hv. exact Hv.
    - intros Hv. apply in_map_iff in Hv. destruct Hv as ((k' & v) & <- & Hv). exists v. exact Hv. }
  split; [exact X1|split; [rewrite X2; apply half_mid|split; [exact X3|split; [exact X4|split; [|split; [|split; [exact Hlab|split; [|split; [|split; [|exact L3]]]]]]]]]].
  - split; [left; exact X1|]. rewrite D1. split; [|exact D2]. intros ->. destruct pts_nonempty as (q & Hq).
    assert (Nq : numeric_item (vp_item q)) by (apply (good_numeric pts); [apply (regions_good si s); assumption|exact Hq]).
    pose proof (item_labels_nonempty _ Nq) as Hne. destruct (item_labels (vp_item q)) as [|lb ls] eqn:El; [congruence|].
    assert (Hl : has_label (vp_item q) lb) by (apply item_labels_In; rewrite El; left; reflexivity). apply (D3 q lb Hq) in Hl. destruct Hl.
  - exists d. exact D1.
  - intros lb vs v Hc Hv. unfold has_value in Hv. rewrite D1 in Hv. rewrite (proj1 (D4 lb v Hv)). apply regions_values; [cbn [grid]; apply Hinc|exact Hc].
  - intros lb v m M Hm Hv. unfold has_value in Hv. rewrite D1 in Hv. apply (D4 lb v Hv). apply (range_bounds (s_items s)); assumption.
  - intros Hn. rewrite L1. f_equal. apply L2. apply regions_prior. exact Hn.
Qed.
End Points.

Section Resample.
Variables (e : env) (c : cal) (rd : rounding) (d : Qc) (s : series) (start stop : option tlimit) (validity : option Qc) (auto : result Qc).
Variables (si t0 tl from to : Qc) (pts : list vpoint).
Hypothesis He : parses_units e.
Hypothesis HD : dict_points s.
Hypothesis Hd : Qclt q0 d.
Hypothesis HV : interval_is validity auto si.
Hypothesis HR : with_regions si (s_items s) pts.
Hypothesis HF : first_time (s_items s) t0.
Hypothesis HL : last_time (s_items s) tl.
Hypothesis Hfrom : forall z, tz_is s z -> limit_is rd (UPhys d) start (Qcplus (rd_ceil rd (UPhys d) z (Qcminus t0 (Qcdiv d (qz 2)))) (Qcdiv d (qz 2))) from.
Hypothesis Hto : limit_is rd (UPhys d) stop tl to.
Hypothesis Hle : Qcle t0 from.
Let g k := Qcplus from (Qcmult (qn k) d).

Lemma resample_run : exists N r src, (forall fuel, N <= fuel -> resample fuel e c rd (UPhys d) s start stop validity auto = Ok (r, src)) /\
  fresh e r /\ untouched (s_items s) src /\ (forall k x, nth_error (s_items r) k = Some x -> resampled s pts (g k) (g (S k)) x) /\
  (Qcle tl to -> forall k, k < length (s_items r) <-> Qcle (g (S k)) tl) /\
  (forall K0, to = g K0 -> has_point (s_items s) (g K0) (g (S K0)) -> length (s_items r) = K0).
Proof.
  set (P := mkTp e c rd linear_interp (UPhys d) TPoints [] None None). pose proof (phys_lasting c d Hd) as HU. pose proof (lasting_inc c (UPhys d) HU) as Hinc.
  assert (HP : placed pts) by (apply (regions_placed si (s_items s)); [exact HR|apply points_increasing; exact HD]). assert (G : good pts) by (apply (regions_good si s); assumption).
  assert (H0 : forall t, nth_error (map tm pts) 0 = Some t -> Qcle t from) by (apply (core_first s si t0 from pts HR HF Hle)).
  pose proof (proj1 HV) as Psi.
  destruct (core_ok P s start stop validity auto si t0 tl (Qcplus (rd_ceil rd (UPhys d) (tz_of s) (Qcminus t0 (qhalf d))) (qhalf d)) from to pts) with (Same := same_points pts) (R := new_point P s (all_indexes (s_items s)) from pts)
    as (N & r & pts' & E1 & E2 & E3 & E4 & E5 & E6); try assumption.
  - exists d. reflexivity.
  - reflexivity.
  - apply limit_is_or. cbn [tp_round tp_unit P]. specialize (Hfrom (tz_of s) eq_refl). exact Hfrom.
  - apply limit_is_or. exact Hto.
  - intros p Hp. apply same_points_times. exact Hp.
  - intros. apply (emit_point P s (all_indexes (s_items s)) auto si from pts); try assumption; reflexivity.
  - intros xs Hx. apply (out_points P s (all_indexes (s_items s)) from pts Hinc HP G H0 xs He Hx).
  - reflexivity.
  - assert (Eg : forall k, units_after c (UPhys d) from k = g k) by (intros; apply phys_after).
    exists N, r, (map vp_item pts'). split; [exact E1|split; [exact E3|split; [|split; [|split]]]].
    + destruct HR as (E & _). rewrite <- E. apply unweigh_untouched. exact E2.
    + intros k x Hx. rewrite <- !Eg. apply (new_resampled P s si from pts HR HD Hinc k x). apply E4. exact Hx.
    + intros Hl k. rewrite <- Eg. apply E5. exact Hl.
    + intros K0 Et (x & Hx & T1 & T2). apply (E6 K0 (i_t x)); cbn [tp_cal tp_unit P]; rewrite ?Eg; try assumption. unfold times. apply in_map. exact Hx.
Qed.
End Resample.
