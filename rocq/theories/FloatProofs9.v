(* FloatProofs9.v -- slopes of floats (C102). *)
From Coq Require Import Reals.
From Flocq Require Import Core.
From Verif Require Import Base BaseLemmas Items Series SpecSeries SpecAccess SpecOps SpecIntervals SeriesProofs AccessProofs DictLemmas AccessProofs3 OpsProofs OpsProofs2 OpsProofs3 OpsProofs4 OpsProofs5 OpsProofs6 OpsProofs7 OpsProofs8 OpsProofs10 Float FloatOps SpecFloat FloatProofs FloatProofs2 FloatProofs3 FloatProofs4 FloatProofs5 FloatProofs6 FloatProofs7 FloatProofs8 Periodicity PropTactics PropCalculus FloatCalc SpecFloatCalc.
From Coq Require Import Lra.
Local Close Scope R_scope.
Local Open Scope nat_scope.

Lemma f_div_ok x y : y <> q0 -> f_div x y = Ok (fdiv x y).
Proof. intros H. unfold f_div. destruct (qeqb y q0) eqn:E; [apply qeqb_eq in E; contradiction|reflexivity]. Qed.
Lemma q2_nz : q2 <> q0.
Proof. exact q2_neq_q0. Qed.
Lemma double_twice x : is_double x -> is_double (Qcmult q2 x).
Proof.
  intros (m & k & A & B & ->). exists m, (k + 1)%Z. split; [exact A|]. split; [lia|]. apply real_inj. rewrite !real_mult, !real_pow2, bpow_plus. unfold q2. rewrite !real_qz. cbn [bpow]. change (IZR (Z.pow_pos radix2 1)) with 2%R. ring.
Qed.
Lemma twice x : Qcmult q2 x = Qcplus x x.
Proof. assert (E : q2 = Qcplus 1 1) by (apply qeqb_eq; vm_compute; reflexivity). rewrite E. ring. Qed.
(* the mean of two doubles is between them *)
Lemma mid_up x y : is_double x -> is_double y -> (x <= y)%Qc -> (x <= fdiv (fadd x y) q2)%Qc /\ (fdiv (fadd x y) q2 <= y)%Qc.
Proof.
  intros Dx Dy L. assert (A : (Qcmult q2 x <= fadd x y)%Qc) by (rewrite <- (rnd_id _ (double_twice x Dx)); apply rnd_mono; rewrite twice; qlra).
  assert (B : (fadd x y <= Qcmult q2 y)%Qc) by (rewrite <- (rnd_id _ (double_twice y Dy)); apply rnd_mono; rewrite twice; qlra).
  assert (P2 : (q0 < q2)%Qc) by (apply qltb_lt; vm_compute; reflexivity).
  assert (E : forall z, is_double z -> fdiv (Qcmult q2 z) q2 = z) by (intros z Dz; unfold fdiv; replace (Qcdiv (Qcmult q2 z) q2) with z by (field; exact q2_nz); apply rnd_id, Dz).
  split; [rewrite <- (E x Dx) at 1|rewrite <- (E y Dy) at 2]; apply div_mono; assumption.
Qed.
Lemma mid_between x y : is_double x -> is_double y -> (qmin x y <= fdiv (fadd x y) q2)%Qc /\ (fdiv (fadd x y) q2 <= qmax x y)%Qc.
Proof.
  intros Dx Dy. unfold qmin, qmax. destruct (qleb_spec x y) as [L|L]; [apply mid_up; assumption|]. apply Qcnot_le_lt in L. assert (C : fadd x y = fadd y x) by (unfold fadd; f_equal; ring). rewrite C. apply mid_up; try assumption. apply Qclt_le_weak, L.
Qed.
Lemma div_pos q t : (q0 < t)%Qc -> ((q0 <= q)%Qc -> (q0 <= fdiv q t)%Qc) /\ ((q <= q0)%Qc -> (fdiv q t <= q0)%Qc).
Proof.
  intros P. assert (Z : fdiv q0 t = q0). { unfold fdiv. replace (Qcdiv q0 t) with q0 by (rewrite q0_eq; field; intros Z; apply (pos_nz t P); rewrite q0_eq; exact Z). apply rnd_id, double_0. }
  split; intros H; rewrite <- Z at 1; apply div_mono; assumption.
Qed.
Lemma sub_sign a b : ((q0 <= b - a)%Qc -> (q0 <= fsub b a)%Qc) /\ ((b - a <= q0)%Qc -> (fsub b a <= q0)%Qc).
Proof. split; intros H; rewrite <- (fsub_self a); apply fsub_mono; qlra. Qed.

(* a slope computed with floats, the time being exact or rounded *)
Lemma slope_err D D' T T' : (0 < T)%R -> (Rabs (D' - D) <= u * Rabs D)%R -> (Rabs (T' - T) <= u * T)%R -> (Rabs (rndR (D' / T') - D / T) <= ((1 + u) ^ 4 - 1) * Rabs (D / T) + eta)%R.
Proof.
  intros HT HD HT'. assert (Up : forall D D', (0 <= D)%R -> (Rabs (D' - D) <= u * D)%R -> (Rabs (rndR (D' / T') - D / T) <= ((1 + u) ^ 4 - 1) * (D / T) + eta)%R).
  { clear D D' HD. intros D D' P HD. change 4 with (1 + 3). apply ratio_err; try assumption. replace ((1 + u) ^ 1 - 1)%R with u by ring. exact HD. }
  destruct (Rle_or_lt 0 D) as [P|N].
  - assert (Q : (0 <= D / T)%R) by (apply Rmult_le_pos; [exact P|left; apply Rinv_0_lt_compat; exact HT]). rewrite (Rabs_pos_eq (D / T) Q). apply Up; [exact P|]. rewrite (Rabs_pos_eq D P) in HD. exact HD.
  - assert (Q : (0 <= (- D) / T)%R) by (apply Rmult_le_pos; [lra|left; apply Rinv_0_lt_compat; exact HT]). replace (D / T)%R with (- ((- D) / T))%R by (field; lra). rewrite Rabs_Ropp, (Rabs_pos_eq _ Q).
    assert (E : (rndR (D' / T') = - rndR ((- D') / T'))%R) by (rewrite <- rndR_opp; f_equal; unfold Rdiv; ring). rewrite E. replace (- rndR (- D' / T') - - (- D / T))%R with (- (rndR (- D' / T') - - D / T))%R by ring. rewrite Rabs_Ropp. apply Up; [lra|].
    replace (- D' - - D)%R with (- (D' - D))%R by ring. rewrite Rabs_Ropp. rewrite (Rabs_left D N) in HD. exact HD.
Qed.
Lemma slope_near a b dt dt' : is_double a -> is_double b -> (q0 < dt)%Qc -> (q0 < dt')%Qc -> (Rabs (real dt' - real dt) <= u * real dt)%R ->
  near_slope (b - a)%Qc dt (fdiv (fsub b a) dt').
Proof.
  intros Da Db P P' E. split; [apply rnd_double|]. split.
  - apply real_le. rewrite real_abs, real_plus, real_mult, real_abs, real_minus, real_grow, real_pow2, real_div, real_minus by (apply pos_nz, P). unfold fdiv. rewrite rnd_flocq, real_div by (apply pos_nz, P').
    apply slope_err; [apply real_lt in P; rewrite real_0 in P; exact P|exact (sub_R b a Db Da)|exact E].
  - destruct (div_pos (fsub b a) dt' P') as [H1 H2]. destruct (sub_sign a b) as [H3 H4]. split; intros H; [apply H1, H3, H|apply H2, H4, H].
Qed.
Lemma slope_near_exact a b dt : is_double a -> is_double b -> (q0 < dt)%Qc -> near_slope (b - a)%Qc dt (fdiv (fsub b a) dt).
Proof.
  intros Da Db P. apply slope_near; try assumption. rewrite Rminus_diag_eq by reflexivity. rewrite Rabs_R0. pose proof u_pos. apply real_lt in P. rewrite real_0 in P. apply Rmult_le_pos; lra.
Qed.
