From Coq Require Import Qround Reals Qreals.
From Flocq Require Import Core Relative Sterbenz Plus_error.
From Verif Require Import Base BaseLemmas Items Series Float SpecFloat Periodicity PropTactics.
From Coq Require Import Lra.
Open Scope R_scope.

Notation fexp := (FLT_exp (-1074) 53).
Notation rndR := (round radix2 fexp ZnearestE).
Notation dbl := (generic_format radix2 fexp).

#[export] Instance prec53 : Prec_gt_0 53 := eq_refl.

(* ---- exact rationals as reals ---- *)
Lemma real_red q : Q2R (Qred q) = Q2R q.
Proof. apply Qeq_eqR. apply Qred_correct. Qed.
Lemma real_plus x y : real (Qcplus x y) = real x + real y.
Proof. unfold real, Qcplus. cbn [this Q2Qc]. rewrite real_red. apply Q2R_plus. Qed.
Lemma real_mult x y : real (Qcmult x y) = real x * real y.
Proof. unfold real, Qcmult. cbn [this Q2Qc]. rewrite real_red. apply Q2R_mult. Qed.
Lemma real_opp x : real (Qcopp x) = - real x.
Proof. unfold real, Qcopp. cbn [this Q2Qc]. rewrite real_red. apply Q2R_opp. Qed.
Lemma real_minus x y : real (Qcminus x y) = real x - real y.
Proof. unfold Qcminus. rewrite real_plus, real_opp. reflexivity. Qed.
Lemma real_qz z : real (qz z) = IZR z.
Proof. unfold real, qz. cbn [this Q2Qc]. rewrite real_red. unfold Q2R, inject_Z. cbn [Qnum Qden]. rewrite Rinv_1. ring. Qed.
Lemma real_0 : real q0 = 0.
Proof. apply real_qz. Qed.
Lemma real_1 : real q1 = 1.
Proof. apply real_qz. Qed.
Lemma real_inj x y : real x = real y -> x = y.
Proof. intros H. apply Qc_is_canon. apply eqR_Qeq. exact H. Qed.
Lemma real_le x y : Qcle x y <-> real x <= real y.
Proof. split; intros H; [apply Qle_Rle|apply Rle_Qle]; exact H. Qed.
Lemma real_lt x y : Qclt x y <-> real x < real y.
Proof. split; intros H; [apply Qlt_Rlt|apply Rlt_Qlt]; exact H. Qed.
Lemma real_nz x : x <> q0 -> real x <> 0.
Proof. intros H E. apply H. apply real_inj. rewrite real_0. exact E. Qed.
Lemma real_inv x : x <> q0 -> real (Qcinv x) = / real x.
Proof.
  intros H. unfold real, Qcinv. cbn [this Q2Qc]. rewrite real_red. apply Q2R_inv.
  intros E. apply H. apply Qc_is_canon. exact E.
Qed.
Lemma real_div x y : y <> q0 -> real (Qcdiv x y) = real x / real y.
Proof. intros H. unfold Qcdiv. rewrite real_mult, real_inv by exact H. reflexivity. Qed.
Lemma real_frac a b : real (qfrac a b) = IZR a / IZR (Zpos b).
Proof. unfold real, qfrac. cbn [this Q2Qc]. rewrite real_red. reflexivity. Qed.
Lemma real_ltb x y : qltb x y = true <-> real x < real y.
Proof. rewrite <- real_lt. split; [apply qltb_lt|]. intros H. unfold qltb. apply Bool.negb_true_iff. destruct (Qle_bool (this y) (this x)) eqn:E; [|reflexivity]. exfalso. apply Qle_bool_iff in E. exact (Qlt_not_le _ _ H E). Qed.
Lemma real_nltb x y : qltb x y = false <-> real y <= real x.
Proof.
  split; intros H.
  - apply Rnot_lt_le. intros C. apply real_ltb in C. congruence.
  - destruct (qltb x y) eqn:E; [|reflexivity]. apply real_ltb in E. lra.
Qed.
Lemma real_eqb x y : qeqb x y = true <-> x = y.
Proof. split; [apply qeqb_eq|]. intros ->. unfold qeqb. apply Qeq_bool_iff. reflexivity. Qed.
Lemma real_abs x : real (qabs x) = Rabs (real x).
Proof.
  unfold qabs. change (Q2Qc 0) with q0. destruct (qltb x q0) eqn:E.
  - apply real_ltb in E. rewrite real_0 in E. rewrite real_opp, Rabs_left by exact E. reflexivity.
  - apply real_nltb in E. rewrite real_0 in E. rewrite Rabs_pos_eq by exact E. reflexivity.
Qed.

(* ---- the powers of two ---- *)
Lemma real_pow2 k : real (pow2 k) = bpow radix2 k.
Proof.
  destruct k as [|p|p]; cbn [pow2].
  - rewrite real_qz. reflexivity.
  - rewrite real_qz. reflexivity.
  - rewrite real_inv.
    + rewrite real_qz. reflexivity.
    + intros E. apply (f_equal real) in E. rewrite real_qz, real_0 in E.
      assert (0 < 2 ^ Zpos p)%Z by (apply Z.pow_pos_nonneg; lia). apply eq_IZR in E. lia.
Qed.
Lemma pow2_nz k : pow2 k <> q0.
Proof. intros E. apply (f_equal real) in E. rewrite real_pow2, real_0 in E. pose proof (bpow_gt_0 radix2 k). lra. Qed.

(* ---- the exponent ---- *)
Lemma two_IZR k : (0 <= k)%Z -> IZR (2 ^ k) = bpow radix2 k.
Proof. intros H. change 2%Z with (radix_val radix2). apply IZR_Zpower. exact H. Qed.

Lemma log2_bounds z : (0 < z)%Z -> bpow radix2 (Z.log2 z) <= IZR z < bpow radix2 (Z.log2 z + 1).
Proof.
  intros H. pose proof (Z.log2_spec z H) as [A B]. pose proof (Z.log2_nonneg z).
  rewrite <- !two_IZR by lia. rewrite Z.add_1_r. split; [apply IZR_le; exact A|apply IZR_lt; exact B].
Qed.

Lemma expo_ok x : x <> q0 -> bpow radix2 (expo x) <= Rabs (real x) < bpow radix2 (expo x + 1).
Proof.
  intros Hx. set (n := Z.abs (Qnum (this x))). set (d := Zpos (Qden (this x))).
  assert (Hr : Rabs (real x) = IZR n / IZR d).
  { unfold real, Q2R. fold d. rewrite Rabs_mult. rewrite <- abs_IZR. fold n. rewrite (Rabs_pos_eq (/ IZR d)); [reflexivity|].
    left. apply Rinv_0_lt_compat. apply IZR_lt. reflexivity. }
  assert (Hn : (0 < n)%Z).
  { unfold n. assert (Qnum (this x) <> 0)%Z; [|lia]. intros E. apply Hx. apply Qc_is_canon. unfold Qeq. rewrite E. reflexivity. }
  assert (Hd : (0 < d)%Z) by reflexivity.
  pose proof (log2_bounds n Hn) as [A1 A2]. pose proof (log2_bounds d Hd) as [B1 B2].
  assert (Pd : 0 < IZR d) by (apply IZR_lt; exact Hd).
  assert (Lo : bpow radix2 (Z.log2 n - Z.log2 d - 1) <= Rabs (real x)).
  { rewrite Hr. apply Rmult_le_reg_r with (IZR d); [exact Pd|]. unfold Rdiv. rewrite Rmult_assoc, Rinv_l, Rmult_1_r by lra.
    apply Rle_trans with (2 := A1). replace (Z.log2 n) with (Z.log2 n - Z.log2 d - 1 + (Z.log2 d + 1))%Z at 2 by ring. rewrite bpow_plus.
    apply Rmult_le_compat_l; [apply bpow_ge_0|lra]. }
  assert (Hi : Rabs (real x) < bpow radix2 (Z.log2 n - Z.log2 d + 1)).
  { rewrite Hr. apply Rmult_lt_reg_r with (IZR d); [exact Pd|]. unfold Rdiv. rewrite Rmult_assoc, Rinv_l, Rmult_1_r by lra.
    apply Rlt_le_trans with (1 := A2). replace (Z.log2 n + 1)%Z with (Z.log2 n - Z.log2 d + 1 + Z.log2 d)%Z by ring. rewrite bpow_plus.
    apply Rmult_le_compat_l; [apply bpow_ge_0|lra]. }
  unfold expo. fold n d. destruct (qltb (qabs x) (pow2 (Z.log2 n - Z.log2 d))) eqn:E.
  - apply real_ltb in E. rewrite real_abs, real_pow2 in E. split; [exact Lo|]. replace (Z.log2 n - Z.log2 d - 1 + 1)%Z with (Z.log2 n - Z.log2 d)%Z by ring. exact E.
  - apply real_nltb in E. rewrite real_abs, real_pow2 in E. split; [exact E|exact Hi].
Qed.

(* ---- the nearest integer ---- *)
Lemma floor_ok x : Zfloor (real x) = Qfloor (this x).
Proof.
  apply Zfloor_imp. pose proof (Qle_Rle _ _ (Qfloor_le (this x))) as A. pose proof (Qlt_Rlt _ _ (Qlt_floor (this x))) as B.
  assert (I : forall z, Q2R (inject_Z z) = IZR z) by (intros z; unfold Q2R, inject_Z; cbn [Qnum Qden]; rewrite Rinv_1; ring).
  rewrite I in A, B. split; assumption.
Qed.

Lemma near_ok x : near_even x = ZnearestE (real x).
Proof.
  unfold near_even, Znearest. rewrite floor_ok. set (f := Qfloor (this x)).
  assert (Hf : Zfloor (real x) = f) by apply floor_ok.
  assert (Hr : real (Qcminus x (qz f)) = real x - IZR f) by (rewrite real_minus, real_qz; reflexivity).
  assert (Hh : real (qfrac 1 2) = / 2) by (rewrite real_frac; lra).
  assert (C : / 2 <= real x - IZR f -> Zceil (real x) = (f + 1)%Z).
  { intros G. rewrite Zceil_floor_neq; rewrite Hf; [reflexivity|]. lra. }
  destruct (qltb (Qcminus x (qz f)) (qfrac 1 2)) eqn:E1.
  - apply real_ltb in E1. rewrite Hr, Hh in E1. rewrite Rcompare_Lt by exact E1. reflexivity.
  - apply real_nltb in E1. rewrite Hr, Hh in E1. rewrite (C E1).
    destruct (qltb (qfrac 1 2) (Qcminus x (qz f))) eqn:E2.
    + apply real_ltb in E2. rewrite Hr, Hh in E2. rewrite Rcompare_Gt by exact E2. reflexivity.
    + apply real_nltb in E2. rewrite Hr, Hh in E2. rewrite Rcompare_Eq by lra. destruct (Z.even f); reflexivity.
Qed.

(* ---- rounding is IEEE 754 rounding, as Flocq defines it ---- *)
Theorem rnd_flocq x : real (rnd x) = rndR (real x).
Proof.
  unfold rnd. destruct (qeqb x q0) eqn:E.
  - apply real_eqb in E. subst x. rewrite !real_0. rewrite round_0; [reflexivity|apply valid_rnd_N].
  - assert (Hx : x <> q0) by (intros ->; rewrite (proj2 (real_eqb q0 q0) eq_refl) in E; discriminate).
    pose proof (expo_ok x Hx) as B.
    assert (M : mag radix2 (real x) = (expo x + 1)%Z :> Z).
    { apply mag_unique. replace (expo x + 1 - 1)%Z with (expo x) by ring. exact B. }
    set (k := Z.max (expo x - 52) (-1074)).
    assert (K : cexp radix2 fexp (real x) = k).
    { unfold cexp. rewrite M. unfold FLT_exp, k. f_equal. ring. }
    unfold round, F2R, scaled_mantissa. cbn [Fnum Fexp]. rewrite K. rewrite real_mult, real_qz, real_pow2, near_ok.
    rewrite real_div by apply pow2_nz. rewrite real_pow2, bpow_opp. reflexivity.
Qed.

(* ---- doubles ---- *)
Lemma double_iff x : is_double x <-> dbl (real x).
Proof.
  split.
  - intros (m & k & Hm & Hk & ->). apply generic_format_FLT. exists (Float radix2 m k).
    + unfold F2R. cbn [Fnum Fexp]. rewrite real_mult, real_qz, real_pow2. reflexivity.
    + exact Hm.
    + exact Hk.
  - intros H. apply FLT_format_generic in H; [|exact prec53]. destruct H as [[m k] E Hm Hk]. cbn [Fnum Fexp] in *.
    exists m, k. split; [exact Hm|split; [exact Hk|]]. apply real_inj. rewrite E. unfold F2R. cbn [Fnum Fexp]. rewrite real_mult, real_qz, real_pow2. reflexivity.
Qed.

Lemma rnd_double x : is_double (rnd x).
Proof. apply double_iff. rewrite rnd_flocq. apply generic_format_round; [apply FLT_exp_valid; exact prec53|apply valid_rnd_N]. Qed.

Lemma rnd_id x : is_double x -> rnd x = x.
Proof. intros H. apply real_inj. rewrite rnd_flocq. apply round_generic; [apply valid_rnd_N|]. apply double_iff. exact H. Qed.

Lemma rnd_closest x : closest x (rnd x).
Proof.
  split; [apply rnd_double|]. intros z Hz. apply real_le. rewrite !real_abs, !real_minus, rnd_flocq.
  pose proof (round_N_pt radix2 fexp (fun z => negb (Z.even z)) (real x)) as [_ H].
  specialize (H (real z) (proj1 (double_iff z) Hz)). rewrite (Rabs_minus_sym (real x) (rndR (real x))), (Rabs_minus_sym (real x) (real z)). exact H.
Qed.

Lemma rnd_mono x y : Qcle x y -> Qcle (rnd x) (rnd y).
Proof. intros H. apply real_le. rewrite !rnd_flocq. apply round_le; [apply FLT_exp_valid; exact prec53|apply valid_rnd_N|]. apply real_le. exact H. Qed.

Lemma rnd_opp x : rnd (Qcopp x) = Qcopp (rnd x).
Proof. apply real_inj. rewrite rnd_flocq, !real_opp, rnd_flocq. apply round_NE_opp. Qed.
