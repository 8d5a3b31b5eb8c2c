(* PeriodicityProofs.v -- lemmas on the discrete Fourier transform. *)

From Verif Require Import SpecPeriodicity.
From Coq Require Import Lra.
Local Open Scope R_scope.

Lemma rsum_ext n f g : (forall m, (m < n)%nat -> f m = g m) -> rsum n f = rsum n g.
Proof. induction n as [|n IH]; intros H; [reflexivity|]. cbn [rsum]. rewrite IH; [rewrite (H n); [reflexivity|lia]|]. intros m Hm. apply H. lia. Qed.
Lemma rsum_plus n f g : rsum n (fun m => f m + g m) = rsum n f + rsum n g.
Proof. induction n as [|n IH]; cbn [rsum]; [lra|]. rewrite IH. lra. Qed.
Lemma rsum_scal n c f : rsum n (fun m => c * f m) = c * rsum n f.
Proof. induction n as [|n IH]; cbn [rsum]; [lra|]. rewrite IH. lra. Qed.
Lemma rsum_R0 n f : rsum (S n) f = sum_f_R0 f n.
Proof. induction n as [|n IH]; [cbn [rsum sum_f_R0]; lra|]. change (rsum (S (S n)) f) with (rsum (S n) f + f (S n)). rewrite IH. reflexivity. Qed.
Lemma rsum_shift1 n g : rsum n (fun m => g (S m)) = rsum n g + g n - g 0%nat.
Proof. induction n as [|n IH]; cbn [rsum]; [lra|]. rewrite IH. lra. Qed.
Lemma rsum_shift n g p : (forall m, g (m + n)%nat = g m) -> rsum n (fun m => g (m + p)%nat) = rsum n g.
Proof.
  intros P. induction p as [|p IH]; [apply rsum_ext; intros m _; f_equal; lia|].
  rewrite <- IH. rewrite (rsum_ext n (fun m => g (m + S p)%nat) (fun m => (fun j => g (j + p)%nat) (S m))) by (intros m _; f_equal; lia).
  rewrite (rsum_shift1 n (fun j => g (j + p)%nat)). cbv beta. rewrite <- (P (0 + p)%nat). replace (0 + p + n)%nat with (n + p)%nat by lia. lra.
Qed.

Lemma real_nth (v : list Qc) m : nth m (map real v) 0 = real (nth m v q0).
Proof. assert (Z : 0 = real q0) by (unfold real; cbn [rsum]; unfold Q2R; cbn; lra). rewrite Z. apply map_nth. Qed.
Lemma angle_eq n k m : angle n k m = 2 * PI * INR (k * m) / INR n.
Proof. unfold angle. rewrite mult_INR. unfold Rdiv. ring. Qed.
Lemma dft_eq f v k : (1 <= length v)%nat -> dft f (map real v) k = sum_f_R0 (fun m => real (nth m v q0) * f (2 * PI * INR (k * m) / INR (length v))) (length v - 1).
Proof.
  intros L. unfold dft. rewrite map_length. rewrite <- rsum_R0. replace (S (length v - 1)) with (length v) by lia. apply rsum_ext. intros m _. rewrite real_nth, angle_eq. reflexivity.
Qed.
Lemma magnitude_strength v k : (1 <= length v)%nat -> magnitude (map real v) k = strength v k.
Proof. intros L. unfold magnitude, strength. rewrite !dft_eq by exact L. reflexivity. Qed.
Lemma strength_nonneg v k : 0 <= strength v k.
Proof. apply sqrt_pos. Qed.

(* a sum over a whole number of periods is the same when everything is shifted by one period *)
Definition arg (n k m : nat) : R := 2 * PI * INR (k * m) / INR n.
Lemma arg_add n k m p : arg n k (m + p) = arg n k m + arg n k p.
Proof. unfold arg. replace (k * (m + p))%nat with (k * m + k * p)%nat by lia. rewrite plus_INR. unfold Rdiv. ring. Qed.
Lemma arg_n n k : (1 <= n)%nat -> arg n k n = 2 * INR k * PI.
Proof. intros L. unfold arg. rewrite mult_INR. assert (INR n <> 0) by (apply not_0_INR; lia). field. assumption. Qed.
Lemma cos_arg_n n k m : (1 <= n)%nat -> cos (arg n k (m + n)) = cos (arg n k m).
Proof. intros L. rewrite arg_add, arg_n by exact L. apply cos_period. Qed.
Lemma sin_arg_n n k m : (1 <= n)%nat -> sin (arg n k (m + n)) = sin (arg n k m).
Proof. intros L. rewrite arg_add, arg_n by exact L. apply sin_period. Qed.
Lemma not_full x : cos x = 1 -> exists z : Z, x = 2 * IZR z * PI.
Proof.
  intros H. assert (S0 : sin (x / 2) = 0). { replace x with (2 * (x / 2)) in H by lra. rewrite cos_2a_sin in H. nra. }
  destruct (sin_eq_0_0 _ S0) as [z Hz]. exists z. lra.
Qed.
Lemma full_divides n k p : (1 <= n)%nat -> cos (arg n k p) = 1 -> Nat.divide n (k * p).
Proof.
  intros L H. destruct (not_full _ H) as [z Hz]. unfold arg in Hz. assert (N : INR n <> 0) by (apply not_0_INR; lia). pose proof PI_neq0 as P.
  assert (E : INR (k * p) = IZR z * INR n). { apply (Rmult_eq_reg_r PI); [|exact P]. apply (Rmult_eq_compat_r (INR n)) in Hz. unfold Rdiv in Hz. rewrite Rmult_assoc, Rinv_l in Hz by exact N. lra. }
  rewrite !INR_IZR_INZ, <- mult_IZR in E. apply eq_IZR in E. assert (Z0 : (0 <= z)%Z) by nia. exists (Z.to_nat z). nia.
Qed.
Lemma vanishes n k p (y : nat -> R) : (1 <= n)%nat -> (forall m, y (m + p)%nat = y m) -> (forall m, y (m + n)%nat = y m) -> ~ Nat.divide n (k * p) ->
  rsum n (fun m => y m * cos (arg n k m)) = 0 /\ rsum n (fun m => y m * sin (arg n k m)) = 0.
Proof.
  intros L P N D. set (C := rsum n (fun m => y m * cos (arg n k m))). set (Q := rsum n (fun m => y m * sin (arg n k m))).
  set (c := cos (arg n k p)). set (s := sin (arg n k p)).
  assert (EC : C = C * c - Q * s).
  { transitivity (rsum n (fun m => y (m + p)%nat * cos (arg n k (m + p)))); [symmetry; apply (rsum_shift n (fun m => y m * cos (arg n k m))); intros m; rewrite N, cos_arg_n by exact L; reflexivity|].
    rewrite (rsum_ext n _ (fun m => c * (y m * cos (arg n k m)) + (- s) * (y m * sin (arg n k m)))); [|intros m _; rewrite P, arg_add, cos_plus; unfold c, s; ring]. rewrite rsum_plus, !rsum_scal. fold C Q. ring. }
  assert (EQ : Q = Q * c + C * s).
  { transitivity (rsum n (fun m => y (m + p)%nat * sin (arg n k (m + p)))); [symmetry; apply (rsum_shift n (fun m => y m * sin (arg n k m))); intros m; rewrite N, sin_arg_n by exact L; reflexivity|].
    rewrite (rsum_ext n _ (fun m => s * (y m * cos (arg n k m)) + c * (y m * sin (arg n k m)))); [|intros m _; rewrite P, arg_add, sin_plus; unfold c, s; ring]. rewrite rsum_plus, !rsum_scal. fold C Q. ring. }
  assert (U : s * s + c * c = 1) by (pose proof (sin2_cos2 (arg n k p)) as H; unfold Rsqr in H; exact H).
  assert (c1 : c <> 1) by (intros H; apply D; apply (full_divides n k p L H)).
  assert (A : (C * C + Q * Q) * (2 * (1 - c)) = 0).
  { replace ((C * C + Q * Q) * (2 * (1 - c))) with ((C * C + Q * Q) * ((1 - c) * (1 - c) + s * s) + (C * C + Q * Q) * (1 - (s * s + c * c))) by ring. rewrite U.
    replace ((C * C + Q * Q) * ((1 - c) * (1 - c) + s * s)) with ((C - (C * c - Q * s)) * (C - (C * c - Q * s)) + (Q - (Q * c + C * s)) * (Q - (Q * c + C * s))) by ring. rewrite <- EC, <- EQ. ring. }
  apply Rmult_integral in A. destruct A as [A|A]; [|exfalso; apply c1; lra]. split; nra.
Qed.

(* the signal, prolonged for ever *)
Lemma repeats_mod p v m : (1 <= p)%nat -> repeats p v -> (m < length v)%nat -> nth m v q0 = nth (m mod p) v q0.
Proof.
  intros P H. induction m as [m IH] using lt_wf_ind. intros L. destruct (Nat.lt_ge_cases m p) as [A|A]; [rewrite Nat.mod_small by exact A; reflexivity|].
  replace m with (m - p + p)%nat at 1 by lia. rewrite H by lia. rewrite IH by lia. f_equal. replace m with (m - p + 1 * p)%nat at 2 by lia. rewrite Nat.mod_add by lia. reflexivity.
Qed.
Lemma strength_zero p v k : (1 <= p)%nat -> (1 <= length v)%nat -> repeats p v -> Nat.divide p (length v) -> ~ Nat.divide (length v) (k * p) -> strength v k = 0.
Proof.
  intros P L H [q D] ND. rewrite <- magnitude_strength by exact L. unfold magnitude, dft. rewrite map_length.
  destruct (vanishes (length v) k p (fun m => real (nth (m mod p) v q0))) as [C S].
  - exact L.
  - intros m. replace (m + p)%nat with (m + 1 * p)%nat by lia. rewrite Nat.mod_add by lia. reflexivity.
  - intros m. rewrite D. rewrite Nat.mod_add by lia. reflexivity.
  - exact ND.
  - rewrite (rsum_ext (length v) _ (fun m => real (nth (m mod p) v q0) * cos (arg (length v) k m))); [|intros m Hm; rewrite real_nth, (repeats_mod p v m P H Hm), angle_eq; reflexivity].
    rewrite (rsum_ext (length v) (fun m => nth m (map real v) 0 * sin _) (fun m => real (nth (m mod p) v q0) * sin (arg (length v) k m))); [|intros m Hm; rewrite real_nth, (repeats_mod p v m P H Hm), angle_eq; reflexivity].
    rewrite C, S. replace (0 * 0 + 0 * 0) with 0 by ring. apply sqrt_0.
Qed.
