(* FloatProofs11.v -- weighted averages of floats (C90). *)
From Coq Require Import Reals.
From Flocq Require Import Core.
From Verif Require Import Base BaseLemmas Items Series SpecSeries SpecAccess SpecOps OpsProofs OpsProofs2 Float FloatOps SpecFloat FloatProofs FloatProofs2 FloatProofs3 FloatProofs4 FloatProofs5 FloatProofs6 FloatProofs7 Periodicity.
From Coq Require Import Lra.
Open Scope R_scope.

(* a sum of floats which are not negative is not much smaller than the real one *)
Lemma fold_low ws : Forall (fun w => is_double w /\ 0 <= real w) ws -> forall a, is_double a -> 0 <= real a ->
  real a + real (total ws) <= (1 + u) ^ (2 * length ws) * real (fold_left fadd ws a) /\ 0 <= real (total ws).
Proof.
  induction 1 as [|w ws [Dw W0] _ IH]; intros a Da A0.
  - cbn [fold_left total length]. change (2 * 0)%nat with 0%nat. cbn [pow]. rewrite real_0. lra.
  - cbn [fold_left total]. rewrite real_plus. pose proof (add_err a w Da Dw) as E. apply real_le in E. rewrite real_abs, real_minus, real_mult, real_abs, !real_plus, real_pow2, u_bpow in E.
    rewrite (Rabs_pos_eq (real a + real w)) in E by lra. apply Rabs_le_inv in E. pose proof u_pos as U. pose proof u_small as Us.
    assert (L : (1 - u) * (real a + real w) <= real (fadd a w)) by lra. assert (L0 : 0 <= real (fadd a w)) by nra.
    assert (L2 : real a + real w <= (1 + u) ^ 2 * real (fadd a w)). { assert (1 <= (1 + u) ^ 2 * (1 - u)) by nra. assert (0 <= real a + real w) by lra. set (z := real a + real w) in *. set (y := real (fadd a w)) in *. apply Rle_trans with ((1 + u) ^ 2 * ((1 - u) * z)); [nra|]. apply Rmult_le_compat_l; [nra|exact L]. }
    destruct (IH (fadd a w) (rnd_double _) L0) as [I1 I2]. split; [|lra].
    replace (2 * length (w :: ws))%nat with (2 + 2 * length ws)%nat by (cbn [length]; lia). rewrite pow_add. set (g := (1 + u) ^ (2 * length ws)) in *. set (h := (1 + u) ^ 2) in *. set (y := real (fadd a w)) in *. set (F := real (fold_left fadd ws (fadd a w))) in *.
    assert (H1 : 1 <= h) by (unfold h; nra). apply Rle_trans with (h * (y + real (total ws))); [|rewrite Rmult_assoc; apply Rmult_le_compat_l; lra]. nra.
Qed.
(* products *)
Definition prods (ps : list (Qc * Qc)) : list Qc := map (fun p => (fst p * snd p)%Qc) ps.
Definition fprods (ps : list (Qc * Qc)) : list Qc := map (fun p => fmul (fst p) (snd p)) ps.
Definition aprods (ps : list (Qc * Qc)) : list Qc := map (fun p => (qabs (fst p) * snd p)%Qc) ps.
Lemma prods_err ps : Forall (fun p => 0 <= real (snd p)) ps ->
  0 <= real (total (aprods ps)) /\ Rabs (real (total (prods ps))) <= real (total (aprods ps)) /\
  Rabs (real (total (fprods ps)) - real (total (prods ps))) <= u * real (total (aprods ps)) + INR (length ps) * eta /\
  absum (fprods ps) <= (1 + u) * real (total (aprods ps)) + INR (length ps) * eta.
Proof.
  induction 1 as [|[v w] ps W0 _ IH]; unfold prods, fprods, aprods in *; cbn [map total length fst snd] in *.
  - rewrite real_0. unfold absum. cbn [map total INR]. rewrite real_0. replace (0 - 0) with 0 by ring. rewrite Rabs_R0. repeat split; lra.
  - destruct IH as (I0 & I1 & I2 & I3). rewrite absum_cons, !real_plus, S_INR, !real_mult, real_abs. unfold fmul in *. rewrite rnd_flocq, real_mult. set (x := real v * real w).
    pose proof (err_R x) as E. assert (X : Rabs x = Rabs (real v) * real w) by (unfold x; rewrite Rabs_mult, (Rabs_pos_eq (real w)) by exact W0; reflexivity). rewrite <- X.
    pose proof (Rabs_pos x) as P. set (T := real (total (map (fun p : Qc * Qc => (qabs (fst p) * snd p)%Qc) ps))) in *. set (n := INR (length ps)) in *.
    split; [lra|]. split; [eapply Rle_trans; [apply Rabs_triang|]; lra|]. split.
    + match goal with |- Rabs (?r + ?a - (x + ?b)) <= _ => replace (r + a - (x + b)) with ((r - x) + (a - b)) by ring end. eapply Rle_trans; [apply Rabs_triang|]. lra.
    + assert (B : Rabs (rndR x) <= (1 + u) * Rabs x + eta). { replace (rndR x) with ((rndR x - x) + x) by ring. eapply Rle_trans; [apply Rabs_triang|]. lra. } lra.
Qed.
(* the quotient *)
Lemma wavg_R n S A W S' W' N : 0 <= A -> 0 < W -> Rabs S <= A -> 0 <= N ->
  Rabs (S' - S) <= ((1 + u) ^ (n + 1) - 1) * A + N -> Rabs (W' - W) <= ((1 + u) ^ n - 1) * W -> W <= (1 + u) ^ (2 * n) * W' ->
  Rabs (rndR (S' / W') - S / W) <= ((1 + u) ^ (4 * n + 2) - 1) * (A / W) + (1 + u) ^ (2 * n + 1) * (N / W) + eta.
Proof.
  intros A0 W0 SA N0 HS HW HL. pose proof u_pos as U. pose proof (pow_ge_1 (n + 1)) as Gx. pose proof (pow_ge_1 n) as Gy. pose proof (pow_ge_1 (2 * n)) as Gz.
  assert (W'0 : 0 < W') by nra. set (x := (1 + u) ^ (n + 1)) in *. set (y := (1 + u) ^ n) in *. set (z := (1 + u) ^ (2 * n)) in *.
  assert (XYZ : (1 + u) ^ (4 * n + 2) = x * y * z * (1 + u)). { unfold x, y, z. rewrite <- !pow_add. replace (4 * n + 2)%nat with (n + 1 + n + 2 * n + 1)%nat by lia. rewrite (pow_add (1 + u) (n + 1 + n + 2 * n) 1). cbn [pow]. ring. }
  assert (Z1 : (1 + u) ^ (2 * n + 1) = z * (1 + u)) by (unfold z; rewrite pow_add; ring). rewrite XYZ, Z1. clear XYZ Z1.
  set (m := A / W). assert (M : A = m * W) by (unfold m; field; lra). assert (m0 : 0 <= m) by (unfold m; apply Rmult_le_pos; [exact A0|left; apply Rinv_0_lt_compat; exact W0]).
  set (k := N / W). assert (K : N = k * W) by (unfold k; field; lra). assert (k0 : 0 <= k) by (unfold k; apply Rmult_le_pos; [exact N0|left; apply Rinv_0_lt_compat; exact W0]).
  set (s := S / W). assert (Es : S = s * W) by (unfold s; field; lra).
  assert (sm : Rabs s <= m). { apply (Rmult_le_reg_r W); [exact W0|]. replace (Rabs s * W) with (Rabs S) by (rewrite Es, Rabs_mult, (Rabs_pos_eq W) by lra; reflexivity). rewrite <- M. exact SA. }
  set (q := S' / W'). assert (Q : S' = q * W') by (unfold q; field; lra).
  assert (D : Rabs (q - s) <= (x * y * z - 1) * m + z * k).
  { apply (Rmult_le_reg_r W'); [exact W'0|]. replace (Rabs (q - s) * W') with (Rabs ((q - s) * W')) by (rewrite Rabs_mult, (Rabs_pos_eq W') by lra; reflexivity).
    replace ((q - s) * W') with ((S' - S) + s * (W - W')) by (rewrite Q, Es; ring). eapply Rle_trans; [apply Rabs_triang|]. rewrite Rabs_mult. rewrite Rabs_minus_sym in HW.
    assert (A1 : Rabs s * Rabs (W - W') <= m * ((y - 1) * W)) by (apply Rmult_le_compat; try apply Rabs_pos; assumption).
    assert (A2 : ((x - 1) + (y - 1)) * (m * W) + k * W <= ((x * y - 1) * m + k) * W).
    { assert (0 <= (x - 1) * (y - 1)) by nra. assert (0 <= m * W) by nra. nra. }
    assert (A3 : 0 <= (x * y - 1) * m + k). { assert (1 <= x * y) by nra. nra. }
    assert (A4 : ((x * y - 1) * m + k) * W <= ((x * y - 1) * m + k) * (z * W')) by (apply Rmult_le_compat_l; assumption).
    assert (A5 : ((x * y - 1) * m + k) * z <= (x * y * z - 1) * m + z * k) by nra.
    assert (A6 : ((x * y - 1) * m + k) * z * W' <= ((x * y * z - 1) * m + z * k) * W') by (apply Rmult_le_compat_r; lra).
    rewrite M, K in HS. lra. }
  assert (Qa : Rabs q <= x * y * z * m + z * k). { replace q with ((q - s) + s) by ring. eapply Rle_trans; [apply Rabs_triang|]. lra. }
  pose proof (err_R q) as E. replace (rndR q - s) with ((rndR q - q) + (q - s)) by ring. eapply Rle_trans; [apply Rabs_triang|].
  assert (u * Rabs q <= u * (x * y * z * m + z * k)) by (apply Rmult_le_compat_l; lra). set (p := x * y * z) in *. nra.
Qed.
