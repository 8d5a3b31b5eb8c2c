(* TransformProofs8.v -- closing a slot: the points around it; the items of the result. *)
From Verif Require Import SpecTransform SpecIntervals BaseLemmas AccessProofs AccessProofs3 DictLemmas OpsProofs OpsProofs2 OpsProofs3
  IntervalsProofs IntervalsProofs2 IntervalsProofs3 InterpProofs Transform TransformProofs TransformProofs2 TransformProofs3 TransformProofs4 TransformProofs5 TransformProofs6 TransformProofs7.

Lemma list_split_at {A} (l : list A) i x : nth_error l i = Some x -> exists a b, l = a ++ x :: b /\ length a = i.
Proof. intros H. destruct (nth_error_split l i H) as (a & b & E & L). exists a, b. auto. Qed.

Section Around.
Variables (P : tparams) (from : Qc) (pts : list vpoint).
Let g := grid (tp_cal P) (tp_unit P) from.
Let ts := map tm pts.
Hypothesis H0 : forall t, nth_error ts 0 = Some t -> Qcle t from.

Lemma in_slot_ok a b j p : nth_error pts j = Some p -> in_slot pts a b (Z.of_nat j) = Ok (qleb a (tm p) && qltb (tm p) b)%bool.
Proof.
  intros H. unfold in_slot, list_get. assert (L : j < length pts) by (apply nth_error_Some; congruence).
  replace (Z.of_nat j <? 0)%Z with false by (symmetry; apply Z.ltb_ge; lia). replace ((0 <=? Z.of_nat j) && (Z.of_nat j <? Z.of_nat (length pts)))%Z%bool with true by (symmetry; apply andb_true_iff; split; [apply Z.leb_le|apply Z.ltb_lt]; lia).
  rewrite Nat2Z.id, H. reflexivity.
Qed.

Lemma around k prev i : at_slot P from ts k prev i -> exists A p r z C,
  pts = A ++ p :: r ++ z :: C /\ i = length A + S (length r) /\ window (g k) (g (S k)) A p r z C /\
  ((prev = Some (length A) /\ slot_bounds pts (g k) (g (S k)) prev i = Ok (match r with [] => (None, None) | _ => (Some (S (length A)), Some (length A + length r)) end)) \/
   (prev = None /\ k = 0 /\ A = [] /\ Qcle (g k) (tm p) /\ slot_bounds pts (g k) (g (S k)) prev i = Ok (Some 0, Some (length r)))).
Proof.
  intros ((t & Hi & Hgt) & Hlt & Hprev). unfold ts in Hi. rewrite nth_error_map in Hi. destruct (nth_error pts i) as [z|] eqn:Ez; [|discriminate]. injection Hi as Ht.
  assert (NT : forall j p, nth_error pts j = Some p -> nth_error ts j = Some (tm p)) by (intros j p Hp; unfold ts; rewrite nth_error_map, Hp; reflexivity).
  destruct (list_split_at pts i z Ez) as (B & C & EB & LB).
  assert (HB : forall j p, j < i -> nth_error B j = Some p -> nth_error pts j = Some p) by (intros j p Hj Hp; rewrite EB, nth_error_app1 by lia; exact Hp).
  destruct prev as [j|].
  - destruct Hprev as (Pj & P1 & P2). destruct (nth_error B j) as [p|] eqn:Ep; [|apply nth_error_None in Ep; lia].
    destruct (list_split_at B j p Ep) as (A & r & EA & LA). exists A, p, r, z, C. split; [rewrite EB, EA, <- app_assoc; reflexivity|].
    assert (Ei : i = length A + S (length r)) by (rewrite <- LB, EA, app_length; reflexivity). split; [exact Ei|].
    assert (Hr : forall q, In q r -> Qcle (g k) (tm q) /\ Qclt (tm q) (g (S k))).
    { intros q Hq. apply In_nth_error in Hq. destruct Hq as [m Hm]. assert (Lm : m < length r) by (apply nth_error_Some; congruence).
      assert (Q : nth_error pts (j + S m) = Some q) by (apply HB; [lia|]; rewrite EA, nth_error_app2 by lia; replace (j + S m - length A) with (S m) by lia; exact Hm).
      apply NT in Q. split; [apply (P2 (j + S m)); [lia|exact Q]|apply (Hlt (j + S m)); [lia|exact Q]]. }
    split; [split; [apply Qclt_le_weak, P1, NT, HB; [exact Pj|exact Ep]|split; [exact Hr|rewrite Ht; exact Hgt]]|].
    left. split; [rewrite LA; reflexivity|]. unfold slot_bounds. destruct r as [|q r'].
    + cbn [length] in Ei. replace (Nat.eqb (i - j) 1) with true by (symmetry; apply Nat.eqb_eq; lia). reflexivity.
    + set (r := q :: r') in *. assert (Lr : length r = S (length r')) by reflexivity.
      replace (Nat.eqb (i - j) 1) with false by (symmetry; apply Nat.eqb_neq; lia). replace (Nat.eqb (j - i) 1) with false by (symmetry; apply Nat.eqb_neq; lia). cbn [orb].
      assert (Qs : nth_error pts (S j) = Some q) by (apply HB; [lia|]; rewrite EA, nth_error_app2 by lia; replace (S j - length A) with 1 by lia; reflexivity).
      destruct (nth_error r (length r')) as [w|] eqn:Ew; [|apply nth_error_None in Ew; lia].
      assert (Qw : nth_error pts (i - 1) = Some w) by (apply HB; [lia|]; rewrite EA, nth_error_app2 by lia; replace (i - 1 - length A) with (S (length r')) by lia; exact Ew).
      rewrite (in_slot_ok _ _ (S j) q Qs). cbn [bind]. replace (Z.of_nat i - 1)%Z with (Z.of_nat (i - 1)) by lia. rewrite (in_slot_ok _ _ (i - 1) w Qw). cbn [bind].
      destruct (Hr q (or_introl eq_refl)) as [Q1 Q2]. destruct (Hr w (nth_error_In _ _ Ew)) as [W1 W2].
      rewrite !qleb_true, !qltb_true by assumption. cbn [andb]. rewrite LA. do 3 f_equal. lia.
  - destruct Hprev as (-> & Pi & P1). destruct B as [|p r]; [cbn in LB; lia|]. exists [], p, r, z, C. split; [exact EB|]. split; [cbn in *; lia|].
    assert (Hp0 : nth_error pts 0 = Some p) by (rewrite EB; reflexivity).
    assert (Hall : forall q, In q (p :: r) -> Qcle (g 0) (tm q) /\ Qclt (tm q) (g 1)).
    { intros q Hq. apply In_nth_error in Hq. destruct Hq as [m Hm]. assert (Lm : m < length (p :: r)) by (apply nth_error_Some; congruence). rewrite LB in Lm.
      assert (Q : nth_error pts m = Some q) by (apply HB; assumption). apply NT in Q. split; [apply (P1 m); assumption|apply (Hlt m); assumption]. }
    split; [split; [apply H0, NT, Hp0|split; [intros q Hq; apply Hall; right; exact Hq|rewrite Ht; exact Hgt]]|].
    right. split; [reflexivity|split; [reflexivity|split; [reflexivity|split; [apply Hall; left; reflexivity|]]]]. unfold slot_bounds. cbn [bind].
    destruct (nth_error (p :: r) (length r)) as [w|] eqn:Ew; [|apply nth_error_None in Ew; cbn in Ew; lia].
    cbn [length] in LB. assert (Qw : nth_error pts (i - 1) = Some w) by (apply HB; [lia|]; replace (i - 1) with (length r) by lia; exact Ew).
    replace (Z.of_nat i - 1)%Z with (Z.of_nat (i - 1)) by lia. rewrite (in_slot_ok _ _ (i - 1) w Qw). cbn [bind].
    destruct (Hall w (nth_error_In _ _ Ew)) as [W1 W2]. rewrite qleb_true, qltb_true by assumption. cbn [andb]. do 3 f_equal. lia.
Qed.
End Around.

(* ---------------- what does not depend on the weights ---------------- *)
Lemma signal_mean_unweigh lb F T pts : signal_mean lb F T (map unweigh pts) = signal_mean lb F T pts.
Proof.
  unfold signal_mean. f_equal. f_equal; [rewrite map_map; reflexivity|]. induction pts as [|p l IH]; [reflexivity|]. destruct l as [|q l]; [reflexivity|].
  change (fills lb F T (map unweigh (p :: q :: l))) with (Qcplus (fill lb F T p q) (fills lb F T (map unweigh (q :: l)))). rewrite IH. reflexivity.
Qed.
Lemma covered_unweigh F T pts : covered_length (map unweigh pts) F T = covered_length pts F T.
Proof.
  unfold covered_length, measured. induction pts as [|p l IH]; [reflexivity|]. cbn [map filter]. change (vp_interp (unweigh p)) with (vp_interp p). destruct (negb (vp_interp p)); cbn [map total]; rewrite IH; reflexivity.
Qed.
Lemma covered_keeps F T pts' pts : Forall2 keeps pts' pts -> covered_length pts' F T = covered_length pts F T.
Proof.
  unfold covered_length, measured. induction 1 as [|p' p l' l K H IH]; [reflexivity|]. cbn [filter]. destruct K as (S & _). apply skel_eq in S. destruct S as (_ & _ & S1 & S2 & S3 & _). rewrite S3.
  destruct (negb (vp_interp p)); cbn [map total]; [rewrite IH, S1, S2; reflexivity|exact IH].
Qed.
Lemma same_unweigh_mean lb F T a b : map unweigh a = map unweigh b -> signal_mean lb F T a = signal_mean lb F T b.
Proof. intros H. rewrite <- (signal_mean_unweigh lb F T a), <- (signal_mean_unweigh lb F T b), H. reflexivity. Qed.
Lemma index_keeps ix F T pts' pts : Forall2 keeps pts' pts -> index_mean ix F T pts' = index_mean ix F T pts.
Proof.
  intros H. rewrite !index_mean_eq. assert (K : map (ix_num ix (ov F T)) pts' = map (ix_num ix (ov F T)) pts /\ map (ix_den ix (ov F T)) pts' = map (ix_den ix (ov F T)) pts); [|destruct K as [-> ->]; reflexivity].
  induction H as [|a b l l' [Sk _] H [IH1 IH2]]; [split; reflexivity|]. cbn [map]. rewrite IH1, IH2. apply skel_eq in Sk. destruct Sk as (_ & _ & S1 & S2 & _ & S3). unfold ix_num, ix_den, index_value_of, ov. rewrite S1, S2, S3. split; reflexivity.
Qed.
Lemma indexes_keep names F T pts' pts x : Forall2 keeps pts' pts -> indexes_are names F T pts' x -> indexes_are names F T pts x.
Proof. intros H I ix N. rewrite <- (index_keeps ix F T pts' pts H). exact (I ix N). Qed.
Lemma prior_keeps pts' pts : Forall2 keeps pts' pts -> (forall q, In q pts -> prior_loss q = q0) -> forall q, In q pts' -> prior_loss q = q0.
Proof. intros H N q Hq. destruct (F2_in _ _ _ _ H Hq) as (p & Hp & K). rewrite (keeps_prior _ _ K). apply N. exact Hp. Qed.

(* ---------------- bounds ---------------- *)
Definition bounds_on (pts : list vpoint) (lb : string) (m M : Qc) : Prop := forall q v, In q pts -> has_value (vp_item q) lb v -> Qcle m v /\ Qcle v M.

Lemma weighted_bounds {A} (f w : A -> Qc) m M l : (forall x, In x l -> Qcle m (f x) /\ Qcle (f x) M /\ Qcle q0 (w x)) ->
  Qcle (Qcmult m (total (map w l))) (total (map (fun x => Qcmult (f x) (w x)) l)) /\ Qcle (total (map (fun x => Qcmult (f x) (w x)) l)) (Qcmult M (total (map w l))).
Proof.
  induction l as [|x l IH]; intros H; [cbn; rewrite !q0_eq, !Qcmult_0_r; split; apply Qcle_refl|].
  destruct IH as [I1 I2]; [auto using in_cons|]. destruct (H x (or_introl eq_refl)) as (H1 & H2 & H3). cbn [map total]. set (S1 := total (map (fun x => Qcmult (f x) (w x)) l)) in *. set (S2 := total (map w l)) in *. clearbody S1 S2.
  generalize dependent (f x). generalize dependent (w x). intros wx Hw fx Hm HM. clear H.
  assert (X1 : Qcle q0 (Qcmult (Qcminus fx m) wx)) by (clear - Hw Hm; assert (Qcle q0 (Qcminus fx m)) by qlra; qnra).
  assert (X2 : Qcle q0 (Qcmult (Qcminus M fx) wx)) by (clear - Hw HM; assert (Qcle q0 (Qcminus M fx)) by qlra; qnra).
  replace (Qcmult (Qcminus fx m) wx) with (Qcminus (Qcmult fx wx) (Qcmult m wx)) in X1 by ring. replace (Qcmult (Qcminus M fx) wx) with (Qcminus (Qcmult M wx) (Qcmult fx wx)) in X2 by ring.
  rewrite !Qcmult_plus_distr_r. split; qlra.
Qed.

Section Means.
Variables (pts : list vpoint) (F T : Qc) (A r C : list vpoint) (p z : vpoint).
Hypothesis HP : placed pts.
Hypothesis G : good pts.
Hypothesis E : pts = A ++ p :: r ++ z :: C.
Hypothesis W : window F T A p r z C.
Hypothesis L : Qclt F T.
Variable out : list vpoint.
Hypothesis D : dense F T p (r ++ [z]) out.

Lemma ext_mean lb : has_label (vp_item p) lb -> total (map (fun x => Qcmult (valof (vp_item x) lb) (point_weight F T x)) (p :: out)) = signal_mean lb F T pts.
Proof.
  intros Hl. assert (N : Qcminus T F <> q0) by (intros X; apply (Qclt_not_eq _ _ L); qlra).
  apply (mul_cancel _ _ (Qcminus T F)); [exact N|]. rewrite (ext_values pts F T A r C p z HP G E W L out D lb Hl). unfold signal_mean. field. exact N.
Qed.
Lemma mean_bounds lb m M : has_label (vp_item p) lb -> bounds_on pts lb m M -> Qcle m (signal_mean lb F T pts) /\ Qcle (signal_mean lb F T pts) M.
Proof.
  intros Hl B. rewrite <- (ext_mean lb Hl).
  destruct (weighted_bounds (fun x => valof (vp_item x) lb) (point_weight F T) m M (p :: out)) as [K1 K2].
  - intros x Hx. destruct (ext_items pts F T A r C p z G E out D x Hx) as (Q1 & Q2 & _). assert (Hlx : has_label (vp_item x) lb) by (apply Q2; exact Hl).
    destruct (valof_ok _ _ Q1 Hlx) as [_ Hv]. destruct (ext_bounds pts F T A r C p z HP E W L out D lb m M B x _ Hx Hv) as [B1 B2].
    split; [exact B1|split; [exact B2|]]. apply (ext_weight_nonneg pts F T A r C p z HP E L out D x Hx).
  - rewrite (ext_weights pts F T A r C p z HP E W L out D) in K1, K2. rewrite q1_eq, Qcmult_1_r in K1, K2. split; assumption.
Qed.
End Means.
Lemma set_weight_value x x' lb v : set_weight x None = set_weight x' None -> has_value x lb v -> has_value x' lb v.
Proof. intros H. unfold has_value. injection H as _ _ _ _ _ -> _. auto. Qed.
Lemma bounds_unweigh a b lb m M : map unweigh a = map unweigh b -> bounds_on a lb m M -> bounds_on b lb m M.
Proof.
  intros H B q v Hq Hv. apply (in_map unweigh) in Hq. rewrite <- H in Hq. apply in_map_iff in Hq. destruct Hq as (y & Ey & Hy). apply (B y v Hy).
  apply (set_weight_value (vp_item q)); [|exact Hv]. injection Ey as Ey1 Ey2 Ey3. unfold unweigh, vp_set in Ey1. unfold set_weight. congruence.
Qed.

(* ---------------- points ---------------- *)
Section Points.
Variables (P : tparams) (s : series) (names : list string) (auto : result Qc) (si from : Qc) (pts0 : list vpoint).
Let g := grid (tp_cal P) (tp_unit P) from.
Let ts := map tm pts0.
Hypothesis HI : tp_interp P = linear_interp.
Hypothesis HT : tp_target P = TPoints.
Hypothesis HF : tp_force P = None.
Hypothesis Hinc : forall t, Qclt t (unit_shift (tp_cal P) (tp_unit P) t 1).
Hypothesis HS : Qclt q0 si.
Hypothesis HP : placed pts0.
Hypothesis G : good pts0.
Hypothesis H0 : forall t, nth_error ts 0 = Some t -> Qcle t from.

Definition same_points (pts : list vpoint) : Prop := map unweigh pts = map unweigh pts0.
Definition new_point (k : nat) (x : item) : Prop :=
  i_cls x = CDataTimePoint /\ i_t x = Qcplus (g k) (qhalf (Qcminus (g (S k)) (g k))) /\ i_end x = i_t x /\ i_tz x = tz_of s /\
  (exists d, i_data x = Some (DDict d) /\ NoDup (map fst d) /\ (forall p lb, In p pts0 -> In lb (map fst d) <-> has_label (vp_item p) lb) /\
     forall lb v, In (lb, v) d -> v = signal_mean lb (g k) (g (S k)) pts0 /\ forall m M, bounds_on pts0 lb m M -> Qcle m v /\ Qcle v M) /\
  (exists loss, data_loss x = Some loss /\ ((forall q, In q pts0 -> prior_loss q = q0) -> loss = loss_of pts0 (g k) (g (S k)))) /\ indexes_are names (g k) (g (S k)) pts0 x.

Lemma same_points_times pts : same_points pts -> map tm pts = ts.
Proof. intros H. unfold ts. change tm with (fun p => tm (unweigh p)) at 1. rewrite <- (map_map unweigh tm), H, map_map. reflexivity. Qed.
Lemma emit_point pts k prev i first : same_points pts -> at_slot P from ts k prev i ->
  exists fl pts' x, slot_bounds pts (g k) (g (S k)) prev i = Ok fl /\
    compute_new P s names auto si first pts (g k) (g (S k)) (fst fl) (snd fl) prev i = Ok (pts', x) /\ same_points pts' /\ new_point k x.
Proof.
  intros Hsame HA. assert (F2 : Forall2 keeps pts pts0) by (apply unweigh_F2; assumption). pose proof (same_points_times pts Hsame) as Et.
  assert (HP' : placed pts) by (apply (keeps_placed _ pts0); assumption). assert (G' : good pts) by (apply (keeps_good _ pts0); assumption).
  rewrite <- Et in HA. destruct (around P from pts) with (k := k) (prev := prev) (i := i) as (A & p & r & z & C & E & -> & W & D); [rewrite Et; exact H0|exact HA|].
  assert (Hp : In p pts) by (rewrite E; apply in_app_iff; right; left; reflexivity).
  assert (K : forall fl, slot_bounds pts (g k) (g (S k)) prev (length A + S (length r)) = Ok fl -> (match prev with Some i => Some i | None => fst fl end) = Some (length A) ->
    exists fl pts' x, slot_bounds pts (g k) (g (S k)) prev (length A + S (length r)) = Ok fl /\
    compute_new P s names auto si first pts (g k) (g (S k)) (fst fl) (snd fl) prev (length A + S (length r)) = Ok (pts', x) /\ same_points pts' /\ new_point k x).
  { intros fl Es Ef. destruct (compute_point P s names auto si first pts (g k) (g (S k)) A r C p z HI HS HP' G' E W (Hinc _) (fst fl) (snd fl) prev HT Ef)
      as (pts' & x & loss & Ec & Eu & X1 & X2 & X3 & X4 & (d & X5 & X6 & X7) & X8 & X9 & X10).
    exists fl, pts', x. split; [exact Es|split; [exact Ec|split; [unfold same_points in *; congruence|]]]. rewrite HF in X8.
    split; [exact X1|split; [exact X2|split; [exact X3|split; [exact X4|split; [|split]]]]].
    - exists d. split; [exact X5|split; [exact X6|split]].
      + intros q lb Hq. destruct (F2_in2 _ _ _ _ F2 Hq) as (q' & Hq' & Kq). rewrite <- (keeps_label _ _ lb Kq). split.
        * intros Hd. apply in_map_iff in Hd. destruct Hd as ((lb' & v) & El & Hv). cbn in El. subst lb'. apply X7 in Hv. apply (good_labels pts p q'); [exact G'|exact Hp|exact Hq'|apply Hv].
        * intros Hl. apply (in_map fst d (lb, signal_mean lb (g k) (g (S k)) pts)). apply X7. split; [|reflexivity]. apply (good_labels pts q' p); assumption.
      + intros lb v Hv. apply X7 in Hv. destruct Hv as [Hl ->]. split; [apply same_unweigh_mean; exact Hsame|]. intros m M B.
        destruct (ext_view_ok s pts (g k) (g (S k)) A r C p z HP' G' E W (Hinc _)) as (out & _ & D0).
        apply (mean_bounds pts (g k) (g (S k)) A r C p z HP' G' E W (Hinc _) out D0 lb m M Hl). apply (bounds_unweigh pts0 pts); [symmetry; exact Hsame|exact B].
    - exists loss. split; [exact X8|]. intros Hpr. rewrite X9; [|apply (prior_keeps pts pts0); assumption]. unfold loss_of. rewrite (covered_keeps _ _ pts pts0 F2). reflexivity.
    - exact (indexes_keep names _ _ pts pts0 x F2 X10). }
  destruct D as [(-> & Es)|(-> & _ & -> & _ & Es)].
  - apply (K _ Es). reflexivity.
  - apply (K _ Es). reflexivity.
Qed.

Lemma out_points xs : parses_units (tp_env P) -> (forall j x, nth_error xs j = Some x -> new_point j x) -> wf_points xs /\ exists o, ts_new (tp_env P) None xs = Ok o.
Proof.
  intros He H. assert (Wf : wf_points xs); [|split; [exact Wf|apply ts_new_points_ok; assumption]].
  split; [|split].
  - intros x Hx. apply In_nth_error in Hx. destruct Hx as [j Hj]. destruct (H j x Hj) as (E & _). unfold is_point. rewrite E. reflexivity.
  - intros i j a b K Ha Hb. unfold times in *. rewrite nth_error_map in Ha, Hb. destruct (nth_error xs i) as [x|] eqn:Ex; [|discriminate]. destruct (nth_error xs j) as [y|] eqn:Ey; [|discriminate].
    injection Ha as <-. injection Hb as <-. destruct (H i x Ex) as (_ & -> & _), (H j y Ey) as (_ & -> & _).
    pose proof (g_le P from Hinc (S i) j K) as L1. pose proof (g_step P from Hinc i) as L2. pose proof (g_step P from Hinc j) as L3. unfold g, qhalf, q2. qlra.
  - intros x y Hx Hy. apply In_nth_error in Hx, Hy. destruct Hx as [i Hx], Hy as [j Hy]. destruct (H i x Hx) as (C1 & _ & _ & _ & (d1 & D1 & _ & L1 & _) & _), (H j y Hy) as (C2 & _ & _ & _ & (d2 & D2 & _ & L2 & _) & _).
    split; [congruence|]. rewrite D1, D2. cbn. intros k. destruct pts0 as [|p0 l0]; [destruct G as ((N & _) & _); destruct N; reflexivity|]. rewrite (L1 p0 k (or_introl eq_refl)), (L2 p0 k (or_introl eq_refl)). reflexivity.
Qed.
End Points.
