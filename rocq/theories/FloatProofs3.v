(* FloatProofs3.v -- how far a rounded result is from the exact one, and the truncation
   of the resolution (C89). *)
From Coq Require Import Reals.
From Flocq Require Import Core Relative Plus_error.
From Verif Require Import Base BaseLemmas Items Series SpecSeries SeriesProofs4 Float SpecFloat FloatProofs FloatProofs2 Periodicity.
From Coq Require Import Lra.
Open Scope R_scope.

Definition u : R := / 9007199254740992.
Definition eta : R := bpow radix2 (-1075).
Lemma u_bpow : bpow radix2 (-53) = u.
Proof. unfold u. cbn. reflexivity. Qed.
Lemma u_pos : 0 < u.
Proof. unfold u. lra. Qed.
Lemma eta_pos : 0 < eta.
Proof. apply bpow_gt_0. Qed.
Lemma eta_small : eta <= u * u * u.
Proof. rewrite <- u_bpow, <- !bpow_plus. apply bpow_le. lia. Qed.
Lemma half_ulp : / 2 * bpow radix2 (-53 + 1) = u.
Proof. rewrite bpow_plus, u_bpow. cbn. lra. Qed.

Lemma err_R x : Rabs (rndR x - x) <= u * Rabs x + eta.
Proof.
  destruct (error_N_FLT radix2 (-1074) 53 eq_refl (fun z => negb (Z.even z)) x) as (eps & et & H1 & H2 & _ & ->).
  replace (x * (1 + eps) + et - x) with (x * eps + et) by ring. eapply Rle_trans; [apply Rabs_triang|].
  apply Rplus_le_compat.
  - rewrite Rabs_mult, Rmult_comm. apply Rmult_le_compat_r; [apply Rabs_pos|]. rewrite <- half_ulp. exact H1.
  - eapply Rle_trans; [exact H2|]. unfold eta. replace (-1074)%Z with (-1075 + 1)%Z by ring. rewrite bpow_plus. cbn. lra.
Qed.
Lemma err_add_R x y : dbl x -> dbl y -> Rabs (rndR (x + y) - (x + y)) <= u * Rabs (x + y).
Proof.
  intros Hx Hy. destruct (FLT_plus_error_N_ex radix2 (-1074) 53 (fun z => negb (Z.even z)) x y Hx Hy) as (eps & H1 & ->).
  replace ((x + y) * (1 + eps) - (x + y)) with ((x + y) * eps) by ring. rewrite Rabs_mult, Rmult_comm.
  apply Rmult_le_compat_r; [apply Rabs_pos|]. eapply Rle_trans; [exact H1|]. rewrite <- half_ulp. apply u_rod1pu_ro_le_u_ro.
Qed.

Lemma rnd_err x : (qabs (rnd x - x) <= pow2 (-53) * qabs x + pow2 (-1075))%Qc.
Proof.
  apply real_le. rewrite real_plus, real_mult, !real_abs, real_minus, !real_pow2, rnd_flocq, u_bpow. apply err_R.
Qed.
Lemma add_err x y : is_double x -> is_double y -> (qabs (fadd x y - (x + y)) <= pow2 (-53) * qabs (x + y))%Qc.
Proof.
  intros Hx Hy. apply double_iff in Hx. apply double_iff in Hy.
  apply real_le. unfold fadd. rewrite real_mult, !real_abs, real_minus, real_pow2, rnd_flocq, u_bpow, real_plus. apply err_add_R; assumption.
Qed.
Lemma double_opp x : is_double x -> is_double (Qcopp x).
Proof. intros (m & k & A & B & ->). exists (- m)%Z, k. split; [rewrite Z.abs_opp; exact A|split; [exact B|]]. apply real_inj. rewrite real_opp, !real_mult, !real_qz, opp_IZR. ring. Qed.
Lemma sub_err x y : is_double x -> is_double y -> (qabs (fsub x y - (x - y)) <= pow2 (-53) * qabs (x - y))%Qc.
Proof. intros Hx Hy. exact (add_err x (Qcopp y) Hx (double_opp y Hy)). Qed.

(* ---- the truncation ---- *)
Lemma int_double z : (Z.abs z < 2 ^ 53)%Z -> is_double (qz z).
Proof. intros H. exists z, 0%Z. split; [exact H|split; [lia|]]. apply real_inj. rewrite real_mult, real_pow2. cbn. ring. Qed.

Lemma e7_nz : qz 10000000 <> q0.
Proof. intros E. apply (f_equal real) in E. rewrite real_qz, real_0 in E. lra. Qed.

Lemma f_trunc7_exact j : (Z.abs j * 78125 < 2 ^ 53)%Z -> f_trunc7 (Qcmult (qz j) (pow2 (-7))) = Qcmult (qz j) (pow2 (-7)).
Proof.
  intros H. unfold f_trunc7, fmul, fdiv.
  assert (E : Qcmult (Qcmult (qz j) (pow2 (-7))) (qz 10000000) = qz (j * 78125)).
  { apply real_inj. rewrite !real_mult, !real_qz, real_pow2, mult_IZR. cbn. lra. }
  rewrite E, (rnd_id (qz (j * 78125))) by (apply int_double; rewrite Z.abs_mul; exact H). rewrite qtrunc_qz.
  assert (E2 : Qcdiv (qz (j * 78125)) (qz 10000000) = Qcmult (qz j) (pow2 (-7))).
  { apply real_inj. rewrite real_div by apply e7_nz. rewrite real_mult, !real_qz, real_pow2, mult_IZR. cbn. lra. }
  rewrite E2. apply rnd_id. exists j, (-7)%Z. split; [lia|split; [lia|reflexivity]].
Qed.

Lemma qtrunc_bounds x : (q0 <= x)%Qc -> IZR (qtrunc x) <= real x < IZR (qtrunc x) + 1 /\ (0 <= qtrunc x)%Z.
Proof.
  intros H. apply real_le in H. rewrite real_0 in H. unfold qtrunc, real, Q2R in *. set (n := Qnum (this x)) in *. set (d := Zpos (Qden (this x))) in *.
  assert (Hd : (0 < d)%Z) by reflexivity. assert (Pd : 0 < IZR d) by (apply IZR_lt; exact Hd).
  assert (Hn : (0 <= n)%Z).
  { apply le_IZR. apply Rmult_le_reg_r with (/ IZR d); [apply Rinv_0_lt_compat; exact Pd|]. lra. }
  rewrite Z.quot_div_nonneg by lia. pose proof (Z.div_mod n d ltac:(lia)) as D. pose proof (Z.mod_pos_bound n d Hd) as M.
  split; [|apply Z.div_pos; lia]. split.
  - apply Rmult_le_reg_r with (IZR d); [exact Pd|]. rewrite Rmult_assoc, Rinv_l, Rmult_1_r by lra. rewrite <- mult_IZR. apply IZR_le. lia.
  - apply Rmult_lt_reg_r with (IZR d); [exact Pd|]. rewrite Rmult_assoc, Rinv_l, Rmult_1_r by lra. rewrite <- plus_IZR, <- mult_IZR. apply IZR_lt. lia.
Qed.

Lemma rnd_nonneg x : (q0 <= x)%Qc -> (q0 <= rnd x)%Qc.
Proof. intros H. apply rnd_mono in H. rewrite (rnd_id q0) in H; [exact H|]. apply (int_double 0). reflexivity. Qed.

Lemma f_trunc7_err d : (q0 <= d)%Qc -> (qabs (f_trunc7 d - d) <= qfrac 1 10000000 + pow2 (-51) * d)%Qc.
Proof.
  intros H. set (y := fmul d (qz 10000000)).
  assert (Hm : (q0 <= d * qz 10000000)%Qc).
  { apply real_le. apply real_le in H. rewrite real_mult, real_qz, real_0 in *. apply Rmult_le_pos; lra. }
  pose proof (rnd_nonneg _ Hm) as Hy. change (q0 <= y)%Qc in Hy. destruct (qtrunc_bounds y Hy) as (B & P).
  pose proof (err_R (real (d * qz 10000000)%Qc)) as E1. rewrite <- rnd_flocq in E1. change (rnd (d * qz 10000000)%Qc) with y in E1.
  rewrite real_mult, real_qz in E1. apply real_le in H. rewrite real_0 in H.
  rewrite (Rabs_pos_eq (real d * 10000000)) in E1 by (apply Rmult_le_pos; lra).
  set (n := qtrunc y) in *. set (q := Qcdiv (qz n) (qz 10000000)).
  assert (Q : real q = IZR n / 10000000) by (unfold q; rewrite real_div, !real_qz by apply e7_nz; reflexivity).
  pose proof (err_R (real q)) as E2. rewrite <- rnd_flocq in E2. apply IZR_le in P.
  rewrite (Rabs_pos_eq (real q)) in E2 by (rewrite Q; lra).
  apply real_le. rewrite real_plus, real_mult, real_abs, real_minus, real_frac, real_pow2.
  assert (Ef : f_trunc7 d = rnd q) by reflexivity. rewrite Ef.
  replace (bpow radix2 (-51)) with (4 * u) by (rewrite <- u_bpow; cbn; lra).
  pose proof eta_pos as N0. pose proof eta_small as N1. pose proof u_pos as U0.
  assert (U1 : u <= / 1000000000000000) by (unfold u; lra).
  assert (N2 : eta <= u * / 1000000000000000 * / 1000000000000000).
  { apply Rle_trans with (1 := N1). rewrite 2!Rmult_assoc. apply Rmult_le_compat_l; [lra|]. apply Rmult_le_compat; lra. }
  apply Rabs_le_inv in E1. apply Rabs_le_inv in E2. apply Rabs_le.
  set (D := real d) in *. set (Y := real y) in *. set (Z := real (rnd q)) in *. set (w := real q) in *. set (N := IZR n) in *.
  assert (W0 : w <= D + u * D + eta) by lra.
  assert (W1 : D - u * D - eta - / 10000000 <= w) by lra.
  assert (UW : u * w <= u * (D + u * D + eta)) by (apply Rmult_le_compat_l; lra).
  assert (UD : u * (u * D) <= / 1000000000000000 * (u * D)) by (apply Rmult_le_compat_r; [apply Rmult_le_pos; lra|lra]).
  assert (UE : u * eta <= eta) by (rewrite <- (Rmult_1_l eta) at 2; apply Rmult_le_compat_r; lra).
  assert (UD0 : 0 <= u * D) by (apply Rmult_le_pos; lra).
  assert (V : (1 - u) * (D - u * D - eta - / 10000000) <= (1 - u) * w) by (apply Rmult_le_compat_l; lra).
  assert (UUD : 0 <= u * (u * D)) by (apply Rmult_le_pos; lra).
  assert (UE0 : 0 <= u * eta) by (apply Rmult_le_pos; lra).
  clear E1 B. split; lra.
Qed.

(* ---- from the intended times to the distance the program sees ---- *)
Lemma distance_err a b : (q0 <= a)%Qc -> (a <= b)%Qc -> (q1 <= b)%Qc ->
  (qabs (rnd (rnd b - rnd a) - (b - a)) <= pow2 (-51) * b)%Qc.
Proof.
  intros Ha Hab Hb. apply real_le. rewrite real_mult, real_abs, real_pow2, !real_minus, rnd_flocq, real_minus.
  apply real_le in Ha, Hab, Hb. rewrite real_0 in Ha. rewrite real_1 in Hb.
  pose proof (rnd_double a) as Da. pose proof (rnd_double b) as Db. apply double_iff in Da, Db.
  pose proof (err_add_R (real (rnd b)) (- real (rnd a)) Db (generic_format_opp _ _ _ Da)) as E.
  pose proof (err_R (real a)) as Ea. pose proof (err_R (real b)) as Eb. rewrite <- rnd_flocq in Ea, Eb.
  rewrite (Rabs_pos_eq (real a)) in Ea by lra. rewrite (Rabs_pos_eq (real b)) in Eb by lra.
  change (real (rnd b) + - real (rnd a)) with (real (rnd b) - real (rnd a)) in E.
  set (A := real a) in *. set (B := real b) in *. set (ra := real (rnd a)) in *. set (rb := real (rnd b)) in *.
  replace (bpow radix2 (-51)) with (4 * u) by (rewrite <- u_bpow; cbn; lra).
  pose proof eta_pos as N0. pose proof eta_small as N1. pose proof u_pos as U0.
  assert (U1 : u <= / 1000000000000000) by (unfold u; lra).
  assert (N2 : eta <= u * / 1000000000000000 * / 1000000000000000).
  { apply Rle_trans with (1 := N1). rewrite 2!Rmult_assoc. apply Rmult_le_compat_l; [lra|]. apply Rmult_le_compat; lra. }
  apply Rabs_le_inv in Ea, Eb.
  assert (X : Rabs (rb - ra) <= B - A + (u * A + eta) + (u * B + eta)) by (apply Rabs_le; lra).
  assert (UX : u * Rabs (rb - ra) <= u * (B - A + (u * A + eta) + (u * B + eta))) by (apply Rmult_le_compat_l; lra).
  apply Rabs_le_inv in E. apply Rabs_le.
  assert (UA : 0 <= u * A) by (apply Rmult_le_pos; lra).
  assert (UB : u * 1 <= u * B) by (apply Rmult_le_compat_l; lra).
  assert (UAB : u * A <= u * B) by (apply Rmult_le_compat_l; lra).
  assert (UUA : u * (u * A) <= / 1000000000000000 * (u * A)) by (apply Rmult_le_compat_r; lra).
  assert (UUB : u * (u * B) <= / 1000000000000000 * (u * B)) by (apply Rmult_le_compat_r; lra).
  assert (UE : u * eta <= eta) by (rewrite <- (Rmult_1_l eta) at 2; apply Rmult_le_compat_r; lra).
  lra.
Qed.
