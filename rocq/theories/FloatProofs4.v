(* FloatProofs4.v -- sums and averages of floats (C90). *)
From Coq Require Import Reals.
From Flocq Require Import Core Relative Plus_error.
From Verif Require Import Base BaseLemmas Items Series SpecSeries SpecOps OpsProofs OpsProofs2 Float FloatOps SpecFloat FloatProofs FloatProofs2 FloatProofs3 Periodicity.
From Coq Require Import Lra.
Open Scope R_scope.

Lemma real_pow x n : real (Qcpower x n) = real x ^ n.
Proof. induction n as [|n IH]; cbn [Qcpower pow]; [change (1%Qc) with q1; apply real_1|]. rewrite real_mult, IH. reflexivity. Qed.
Lemma real_grow n : real (grow n) = (1 + u) ^ n - 1.
Proof. unfold grow. rewrite real_minus, real_pow, real_plus, real_pow2, real_1, u_bpow. reflexivity. Qed.
Lemma pow_ge_1 n : 1 <= (1 + u) ^ n.
Proof. apply pow_R1_Rle. pose proof u_pos. lra. Qed.

Definition absum (vs : list Qc) : R := real (total (map qabs vs)).
Lemma absum_cons v vs : absum (v :: vs) = Rabs (real v) + absum vs.
Proof. unfold absum. cbn [map total]. rewrite real_plus, real_abs. reflexivity. Qed.
Lemma absum_pos vs : 0 <= absum vs.
Proof. induction vs as [|v vs IH]; [unfold absum; cbn; rewrite real_0; lra|]. rewrite absum_cons. pose proof (Rabs_pos (real v)). lra. Qed.
Lemma total_absum vs : Rabs (real (total vs)) <= absum vs.
Proof.
  induction vs as [|v vs IH]; [cbn; rewrite real_0, Rabs_R0; apply (absum_pos [])|]. rewrite absum_cons. cbn [total]. rewrite real_plus.
  eapply Rle_trans; [apply Rabs_triang|]. lra.
Qed.

Lemma fold_err vs : Forall is_double vs -> forall a, is_double a ->
  is_double (fold_left fadd vs a) /\
  Rabs (real (fold_left fadd vs a) - (real a + real (total vs))) <= ((1 + u) ^ length vs - 1) * (Rabs (real a) + absum vs).
Proof.
  intros H. induction H as [|v vs Hv Hvs IH]; intros a Ha; cbn [fold_left].
  - split; [exact Ha|]. cbn [total length pow]. rewrite real_0. replace (real a - (real a + 0)) with 0 by ring. rewrite Rabs_R0. lra.
  - destruct (IH (fadd a v) (rnd_double _)) as (D & E). split; [exact D|]. cbn [total length]. rewrite real_plus, absum_cons.
    apply double_iff in Ha, Hv. pose proof (err_add_R (real a) (real v) Ha Hv) as F.
    assert (Ef : real (fadd a v) = rndR (real a + real v)) by (unfold fadd; rewrite rnd_flocq, real_plus; reflexivity).
    rewrite <- Ef in F. set (f := real (fadd a v)) in *. set (r := real (fold_left fadd vs (fadd a v))) in *.
    set (g := (1 + u) ^ length vs) in *. assert (G1 : 1 <= g) by apply pow_ge_1. pose proof u_pos as U.
    pose proof (absum_pos vs) as A. set (B := absum vs) in *. set (x := Rabs (real a) + Rabs (real v)).
    assert (X : Rabs (real a + real v) <= x) by apply Rabs_triang.
    assert (X0 : 0 <= x) by (eapply Rle_trans; [apply Rabs_pos|exact X]).
    assert (F1 : Rabs (f - (real a + real v)) <= u * x) by (eapply Rle_trans; [exact F|apply Rmult_le_compat_l; lra]).
    assert (F2 : Rabs f <= x + u * x).
    { replace f with ((f - (real a + real v)) + (real a + real v)) by ring. eapply Rle_trans; [apply Rabs_triang|]. lra. }
    assert (E' : Rabs (r - (f + real (total vs))) <= (g - 1) * (x + u * x + B)).
    { eapply Rle_trans; [exact E|]. apply Rmult_le_compat_l; lra. }
    replace (r - (real a + (real v + real (total vs)))) with ((r - (f + real (total vs))) + (f - (real a + real v))) by ring.
    eapply Rle_trans; [apply Rabs_triang|]. cbn [pow]. fold g.
    replace (Rabs (real a) + (Rabs (real v) + B)) with (x + B) by (unfold x; ring).
    assert (UB : 0 <= u * g * B) by (apply Rmult_le_pos; [apply Rmult_le_pos; lra|exact A]).
    nra.
Qed.

Lemma double_0 : is_double q0.
Proof. apply (int_double 0). reflexivity. Qed.
Lemma fadd_0 v : is_double v -> fadd q0 v = v.
Proof. intros H. unfold fadd. rewrite Qcplus_0_l. apply rnd_id. exact H. Qed.

Lemma sum_err vs : Forall is_double vs ->
  is_double (fold_left fadd vs q0) /\ Rabs (real (fold_left fadd vs q0) - real (total vs)) <= ((1 + u) ^ (length vs - 1) - 1) * absum vs.
Proof.
  intros H. destruct vs as [|v vs].
  - split; [exact double_0|]. cbn. replace (real q0 - real q0) with 0 by ring. rewrite Rabs_R0. lra.
  - inversion H as [|? ? Hv Hvs]; subst. cbn [fold_left]. rewrite fadd_0 by exact Hv. destruct (fold_err vs Hvs v Hv) as (D & E).
    split; [exact D|]. cbn [length total]. rewrite Nat.sub_succ, Nat.sub_0_r, absum_cons, real_plus. exact E.
Qed.

Lemma sum_err_q vs : Forall is_double vs ->
  is_double (fold_left fadd vs q0) /\ (qabs (fold_left fadd vs q0 - total vs) <= grow (length vs - 1) * total (map qabs vs))%Qc.
Proof.
  intros H. destruct (sum_err vs H) as (D & E). split; [exact D|]. apply real_le. rewrite real_abs, real_minus, real_mult, real_grow. exact E.
Qed.

Lemma f_sum_label_ok l lb : (forall x, In x l -> numeric_item x /\ has_label x lb) ->
  f_sum_label lb l = Ok (fold_left fadd (map (fun x => valof x lb) l) q0).
Proof.
  intros H. unfold f_sum_label. rewrite (foldM_total _ (fun a x => fadd a (valof x lb))).
  - f_equal. generalize q0. clear. induction l as [|x l IH]; intros a; cbn; [reflexivity|]. apply IH.
  - intros a x Hx. destruct (H x Hx) as [H1 H2]. destruct (valof_ok x lb H1 H2) as [-> _]. reflexivity.
Qed.

(* exact sums *)
Lemma multiple_double k v : (-1074 <= k)%Z -> multiple k v -> Rabs (real v) < bpow radix2 (53 + k) -> is_double v.
Proof.
  intros Hk (z & ->) H. exists z, k. split; [|split; [exact Hk|reflexivity]].
  rewrite real_mult, real_qz, real_pow2, Rabs_mult, (Rabs_pos_eq (bpow radix2 k)), bpow_plus in H by apply bpow_ge_0.
  apply Rmult_lt_reg_r in H; [|apply bpow_gt_0]. rewrite <- abs_IZR in H. rewrite <- two_IZR in H by lia. apply lt_IZR in H. exact H.
Qed.
Lemma multiple_plus k a b : multiple k a -> multiple k b -> multiple k (Qcplus a b).
Proof. intros (x & ->) (y & ->). exists (x + y)%Z. apply real_inj. rewrite real_plus, !real_mult, !real_qz, plus_IZR. ring. Qed.
Lemma multiple_0 k : multiple k q0.
Proof. exists 0%Z. apply real_inj. rewrite real_mult, real_qz, real_0. ring. Qed.

Lemma exact_sum k vs : (-1074 <= k)%Z -> Forall (multiple k) vs -> forall a, multiple k a ->
  Rabs (real a) + absum vs < bpow radix2 (53 + k) -> fold_left fadd vs a = Qcplus a (total vs).
Proof.
  intros Hk H. induction H as [|v vs Hv Hvs IH]; intros a Ha B; cbn [fold_left total]; [apply real_inj; rewrite real_plus, real_0; ring|].
  rewrite absum_cons in B. pose proof (absum_pos vs) as P. pose proof (Rabs_triang (real a) (real v)) as T.
  assert (E : fadd a v = Qcplus a v).
  { apply rnd_id. apply (multiple_double k); [exact Hk|apply multiple_plus; assumption|]. rewrite real_plus. lra. }
  rewrite E, IH; [ring|apply multiple_plus; assumption|]. rewrite real_plus. lra.
Qed.

Lemma qn_nz n : (0 < n)%nat -> qn n <> q0.
Proof. intros H E. apply (f_equal real) in E. unfold qn in E. rewrite real_qz, real_0 in E. apply eq_IZR in E. lia. Qed.

(* averages *)
Lemma avg_err vs : Forall is_double vs -> vs <> [] ->
  Rabs (real (fdiv (fold_left fadd vs q0) (qn (length vs))) - real (mean vs)) <= ((1 + u) ^ length vs - 1) * (absum vs / INR (length vs)) + eta.
Proof.
  intros H NE. destruct (sum_err vs H) as (D & E). set (n := length vs) in *. assert (Hn : (0 < n)%nat) by (destruct vs; [contradiction|unfold n; cbn; lia]).
  set (S := fold_left fadd vs q0) in *. unfold fdiv. rewrite rnd_flocq. unfold mean. fold n. rewrite !real_div by (apply qn_nz; exact Hn).
  assert (Q : real (qn n) = INR n) by (unfold qn; rewrite real_qz, <- INR_IZR_INZ; reflexivity). rewrite !Q.
  assert (N : 0 < INR n) by (apply lt_0_INR; exact Hn).
  pose proof (err_R (real S / INR n)) as F. set (s := real S) in *. set (t := real (total vs)) in *. set (A := absum vs) in *.
  assert (A0 : 0 <= A) by apply absum_pos. pose proof (total_absum vs) as TA. fold t A in TA.
  replace (rndR (s / INR n) - t / INR n) with ((rndR (s / INR n) - s / INR n) + (s - t) / INR n) by (field; lra).
  eapply Rle_trans; [apply Rabs_triang|].
  set (g := (1 + u) ^ (n - 1)) in *. assert (G1 : 1 <= g) by apply pow_ge_1. pose proof u_pos as U.
  assert (Gn : (1 + u) ^ n = (1 + u) * g) by (unfold g; replace n with (Datatypes.S (n - 1)) at 1 by lia; reflexivity). rewrite Gn.
  assert (I : 0 <= / INR n) by (left; apply Rinv_0_lt_compat; exact N).
  assert (E2 : Rabs ((s - t) / INR n) <= (g - 1) * (A / INR n)).
  { unfold Rdiv. rewrite Rabs_mult, (Rabs_pos_eq (/ INR n)) by exact I. rewrite <- Rmult_assoc. apply Rmult_le_compat_r; [exact I|exact E]. }
  assert (S2 : Rabs (s / INR n) <= g * (A / INR n)).
  { replace (s / INR n) with ((s - t) / INR n + t / INR n) by (field; lra). eapply Rle_trans; [apply Rabs_triang|].
    assert (Rabs (t / INR n) <= A / INR n).
    { unfold Rdiv. rewrite Rabs_mult, (Rabs_pos_eq (/ INR n)) by exact I. apply Rmult_le_compat_r; [exact I|exact TA]. }
    lra. }
  assert (US : u * Rabs (s / INR n) <= u * (g * (A / INR n))) by (apply Rmult_le_compat_l; lra).
  nra.
Qed.

Lemma f_sum_spec e s : from_history e s -> numeric (s_items s) ->
  exists m, f_op_sum s = Ok m /\ by_label (s_items s) m (fun lb S => forall vs, column lb (s_items s) vs -> S = fold_left fadd vs q0).
Proof.
  intros Hh Hn. eapply per_label_by; [exact Hh|exact Hn|]. intros lb Hb.
  eexists. split.
  - apply f_sum_label_ok. intros x Hx. eapply label_all; eassumption.
  - intros vs Hv. apply column_total in Hv; [congruence|exact Hn].
Qed.
Lemma f_avg_spec e s : from_history e s -> numeric (s_items s) -> (forall ws, ~ weights (s_items s) ws) ->
  exists m, f_op_avg s = Ok m /\
    by_label (s_items s) m (fun lb A => forall vs, column lb (s_items s) vs -> vs <> [] /\ A = fdiv (fold_left fadd vs q0) (qn (length vs))).
Proof.
  intros Hh Hn Hw. unfold f_op_avg. set (l := s_items s) in *.
  destruct (weighted l) eqn:W; [apply weighted_iff in W; destruct W as (ws & W); destruct (Hw ws W)|].
  assert (NE : l <> []) by apply Hn.
  eapply per_label_by; [exact Hh|exact Hn|]. intros lb Hb. eexists. split.
  - fold l. rewrite f_sum_label_ok; [|intros x Hx; eapply label_all; eassumption]. cbn [bind]. unfold f_div.
    destruct (qeqb (qn (length l)) q0) eqn:E; [|reflexivity]. apply real_eqb in E. exfalso. revert E. apply qn_nz. destruct l; [congruence|cbn; lia].
  - intros vs Hv. rewrite (column_total _ _ _ Hn Hv), map_length. split; [|reflexivity]. intros E. apply map_eq_nil in E. contradiction.
Qed.

Lemma mean_in vs (lo hi : Qc) : vs <> [] -> (forall v, In v vs -> (lo <= v)%Qc /\ (v <= hi)%Qc) -> (lo <= mean vs)%Qc /\ (mean vs <= hi)%Qc.
Proof.
  intros NE H. assert (N : (0 < length vs)%nat) by (destruct vs; [contradiction|cbn; lia]).
  assert (T : real lo * INR (length vs) <= real (total vs) <= real hi * INR (length vs)).
  { clear N NE. induction vs as [|v vs IH]; [cbn; rewrite real_0; lra|].
    destruct IH as (I1 & I2); [intros w Hw; apply H; right; exact Hw|]. destruct (H v (or_introl eq_refl)) as (A & B). apply real_le in A, B.
    cbn [total length]. rewrite real_plus, S_INR. lra. }
  assert (P : 0 < INR (length vs)) by (apply lt_0_INR; exact N).
  assert (Q : real (mean vs) = real (total vs) / INR (length vs)).
  { unfold mean. rewrite real_div by (apply qn_nz; exact N). unfold qn. rewrite real_qz, <- INR_IZR_INZ. reflexivity. }
  split; apply real_le; rewrite Q; apply Rmult_le_reg_r with (INR (length vs)); try exact P; unfold Rdiv; rewrite Rmult_assoc, Rinv_l, Rmult_1_r by lra; lra.
Qed.
Lemma column_in lb l vs lo hi : column lb l vs -> is_min lb l lo -> is_max lb l hi -> forall v, In v vs -> (lo <= v)%Qc /\ (v <= hi)%Qc.
Proof.
  intros Hc [_ Hlo] [_ Hhi] v Hv. unfold column in Hc.
  assert (exists x, In x l /\ has_value x lb v) as (x & Hx & Hxv).
  { clear - Hc Hv. induction Hc as [|x w l vs H Hc IH]; [contradiction|]. destruct Hv as [->|Hv]; [exists x; split; [left; reflexivity|exact H]|].
    destruct (IH Hv) as (y & A & B). exists y. split; [right; exact A|exact B]. }
  eauto.
Qed.
Lemma avg_err_q vs : Forall is_double vs -> vs <> [] ->
  (qabs (fdiv (fold_left fadd vs q0) (qn (length vs)) - mean vs) <= grow (length vs) * mean (map qabs vs) + pow2 (-1075))%Qc.
Proof.
  intros H NE. pose proof (avg_err vs H NE) as E. assert (N : (0 < length vs)%nat) by (destruct vs; [contradiction|cbn; lia]).
  apply real_le. rewrite real_abs, real_minus, real_plus, real_mult, real_grow, real_pow2.
  unfold mean at 2. rewrite map_length, real_div by (apply qn_nz; exact N). unfold qn at 2. rewrite real_qz, <- INR_IZR_INZ. exact E.
Qed.

Lemma pow_frac n : INR n * u < 1 -> (1 + u) ^ n <= / (1 - INR n * u).
Proof.
  pose proof u_pos as U. induction n as [|n IH]; intros H; [cbn; rewrite Rmult_0_l, Rminus_0_r, Rinv_1; lra|].
  rewrite S_INR in *. assert (P : 0 < 1 - INR n * u) by lra. assert (P' : 0 < 1 - (INR n + 1) * u) by lra. pose proof (pos_INR n) as N.
  cbn [pow]. assert (I : (1 + u) ^ n <= / (1 - INR n * u)) by (apply IH; lra).
  apply Rle_trans with ((1 + u) * / (1 - INR n * u)); [apply Rmult_le_compat_l; lra|].
  apply Rmult_le_reg_r with (1 - INR n * u); [exact P|]. rewrite Rmult_assoc, Rinv_l, Rmult_1_r by lra.
  apply Rmult_le_reg_l with (1 - (INR n + 1) * u); [exact P'|]. rewrite <- Rmult_assoc, Rinv_r, Rmult_1_l by lra.
  assert (0 <= INR n * u * u) by (apply Rmult_le_pos; [apply Rmult_le_pos; lra|lra]). nra.
Qed.
Lemma grow_small n : (Z.of_nat n <= 2 ^ 52)%Z -> (grow n <= qn n * pow2 (-52))%Qc.
Proof.
  intros H. apply real_le. rewrite real_grow, real_mult, real_pow2. unfold qn. rewrite real_qz.
  assert (B : bpow radix2 (-52) = 2 * u) by (rewrite <- u_bpow; change (-52)%Z with (1 + -53)%Z; rewrite bpow_plus; reflexivity).
  rewrite B, <- INR_IZR_INZ. pose proof u_pos as U. set (x := INR n * u).
  assert (X : x <= / 2).
  { unfold x. rewrite INR_IZR_INZ. apply IZR_le in H. rewrite two_IZR in H by lia.
    apply Rle_trans with (bpow radix2 52 * u); [apply Rmult_le_compat_r; lra|]. rewrite <- u_bpow, <- bpow_plus. cbn. lra. }
  assert (X0 : 0 <= x) by (apply Rmult_le_pos; [apply pos_INR|lra]).
  pose proof (pow_frac n) as P. fold x in P. specialize (P ltac:(lra)).
  assert (Q : / (1 - x) <= 1 + 2 * x).
  { apply Rmult_le_reg_r with (1 - x); [lra|]. rewrite Rinv_l by lra. nra. }
  replace (INR n * (2 * u)) with (2 * x) by (unfold x; ring). lra.
Qed.
