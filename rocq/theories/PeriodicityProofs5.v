(* PeriodicityProofs5.v -- a pattern repeated several times. *)
From Verif Require Import SpecPeriodicity PropTactics BaseLemmas ReconProofs4 ReconProofs3 OpsProofs OpsProofs2 SeriesProofs SeriesProofs2 SamplingProofs LstmProofs PeriodicityProofs PeriodicityProofs2 PeriodicityProofs3 PeriodicityProofs4.
From Coq Require Import Lra.
Local Open Scope R_scope.

Lemma rsum_app n m f : rsum (n + m) f = rsum n f + rsum m (fun j => f (n + j)%nat).
Proof. induction m as [|m IH]; [rewrite Nat.add_0_r; cbn [rsum]; lra|]. rewrite Nat.add_succ_r. cbn [rsum]. rewrite IH. lra. Qed.
Lemma rsum_periodic q p f : (forall m, f (m + p)%nat = f m) -> rsum (q * p) f = INR q * rsum p f.
Proof.
  intros P. induction q as [|q IH]; [cbn [Nat.mul rsum INR]; lra|]. cbn [Nat.mul]. rewrite rsum_app. rewrite (rsum_ext (q * p) (fun j => f (p + j)%nat) f) by (intros m _; rewrite Nat.add_comm; apply P). rewrite IH, S_INR. lra.
Qed.
(* the strength in q copies of a pattern of the j-th multiple of its frequency *)
Lemma strength_pattern p q v j : (1 <= p)%nat -> (1 <= q)%nat -> length v = (q * p)%nat -> repeats p v -> strength v (q * j) = INR q * strength (firstn p v) j.
Proof.
  intros P Q L H. assert (LF : length (firstn p v) = p) by (rewrite firstn_length; nia). rewrite <- !magnitude_strength by (rewrite ?LF; nia). unfold magnitude.
  assert (QR : INR q <> 0) by (apply not_0_INR; lia). assert (PR : INR p <> 0) by (apply not_0_INR; lia).
  assert (E : forall f, (forall x k, f (x + 2 * INR k * PI) = f x) -> dft f (map real v) (q * j) = INR q * dft f (map real (firstn p v)) j).
  { intros f F. unfold dft. rewrite !map_length, LF, L. rewrite (rsum_ext (q * p) _ (fun m => real (nth (m mod p) v q0) * f (2 * PI * INR (j * m) / INR p))).
    - rewrite (rsum_periodic q p).
      + f_equal. apply rsum_ext. intros m Hm. rewrite real_nth, angle_eq. f_equal. f_equal. rewrite Nat.mod_small by exact Hm. rewrite <- (firstn_skipn p v) at 1. rewrite app_nth1 by (rewrite LF; exact Hm). reflexivity.
      + intros m. f_equal; [f_equal; f_equal; replace (m + p)%nat with (m + 1 * p)%nat by lia; apply Nat.mod_add; lia|]. rewrite <- (F (2 * PI * INR (j * m) / INR p) j). f_equal. replace (j * (m + p))%nat with (j * m + j * p)%nat by lia. rewrite plus_INR, !mult_INR. field. exact PR.
    - intros m Hm. rewrite real_nth, angle_eq. rewrite <- (repeats_mod p v m P H) by lia. f_equal. f_equal. rewrite !mult_INR. field. split; assumption. }
  rewrite (E cos) by (intros; apply cos_period). rewrite (E sin) by (intros; apply sin_period). set (C := dft cos (map real (firstn p v)) j). set (S := dft sin (map real (firstn p v)) j).
  replace (INR q * C * (INR q * C) + INR q * S * (INR q * S)) with (Rsqr (INR q) * (C * C + S * S)) by (unfold Rsqr; ring). rewrite sqrt_mult; [|apply Rle_0_sqr|nra]. rewrite sqrt_Rsqr; [reflexivity|apply pos_INR].
Qed.
Lemma fundamental_first p q v ks : (2 <= q)%nat -> (3 < q * (p - 2))%nat -> length v = (q * p)%nat -> repeats p v ->
  0 < strength (firstn p v) 1 -> (forall j, (2 <= j)%nat -> (2 * j < p)%nat -> strength (firstn p v) j < strength (firstn p v) 1) ->
  ranking v ks -> nth_error ks 0 = Some q.
Proof.
  intros Q PQ L H POS DOM [A B]. assert (P : (3 <= p)%nat) by (destruct p as [|[|[|p]]]; cbn in PQ; lia). assert (QR : 0 < INR q) by (apply lt_0_INR; lia).
  assert (DV : Nat.divide p (length v)) by (exists q; exact L).
  assert (S1 : strength v q = INR q * strength (firstn p v) 1) by (rewrite <- (strength_pattern p q v 1); [f_equal; lia|lia|lia|exact L|exact H]). assert (SP : 0 < strength v q) by (rewrite S1; nra).
  assert (ZERO : forall k, (k = q - 1 \/ k = S q)%nat -> strength v k = 0).
  { intros k K. apply (strength_zero p); [lia|nia|exact H|exact DV|]. rewrite L. intros [z Z]. assert (E : (k = z * q)%nat) by nia. destruct K as [-> | ->].
    - destruct z as [|z]; [lia|]. assert (q <= S z * q)%nat by nia. lia.
    - destruct z as [|[|z]]; [lia|lia|]. assert (2 * q <= S (S z) * q)%nat by nia. lia. }
  assert (C : candidate v q).
  { apply candidate_iff. exists q, q. pose proof (half_bounds (length v)) as HB. rewrite L in HB |- *. split; [lia|]. split; [nia|]. split; [symmetry; replace (q + q)%nat with (q * 2)%nat by lia; apply Nat.div_mul; lia|]. split; [intros j Hj; f_equal; lia|]. rewrite (ZERO (q - 1)%nat), (ZERO (S q)) by auto. split; exact SP. }
  apply B in C. destruct A as [|k ks A F]; [destruct C|]. cbn [nth_error]. f_equal. destruct C as [C|C]; [exact C|]. exfalso. rewrite Forall_forall in F. specialize (F q C).
  assert (CK : candidate v k) by (apply B; left; reflexivity). destruct (candidate_multiple p v k) as (j & J1 & J2 & J3); [lia|exact H|exact DV|exact CK|]. assert (E : k = (q * j)%nat) by (rewrite L in J3; nia).
  assert (SK : strength v k <= strength v q /\ (strength v k = strength v q -> k = q)).
  { destruct (Nat.eq_dec j 1) as [-> |NJ]; [replace k with q by lia; split; [lra|reflexivity]|]. rewrite E, S1, (strength_pattern p q v j); [|lia|lia|exact L|exact H]. specialize (DOM j ltac:(lia) J2). split; [nra|]. intros X. exfalso. nra. }
  destruct SK as [SK1 SK2]. destruct F as [F|[F1 F2]]; [lra|]. specialize (SK2 (eq_sym F1)). lia.
Qed.
Lemma detect_pattern e s v p q : signal e s v -> (2 <= q)%nat -> (3 < q * (p - 2))%nat -> length v = (q * p)%nat -> repeats p v -> (10 <= q \/ p <= 22)%nat ->
  0 < strength (firstn p v) 1 -> (forall j, (2 <= j)%nat -> (2 * j < p)%nat -> strength (firstn p v) j < strength (firstn p v) 1) ->
  detect_periodicity s = Ok (Some (Z.of_nat p)).
Proof.
  intros S1 Q PQ L H SMALL POS DOM. assert (P : (3 <= p)%nat) by (destruct p as [|[|[|p]]]; cbn in PQ; lia). destruct (detect_char e s v S1) as (ks & K & D). pose proof (fundamental_first p q v ks Q PQ L H POS DOM K) as F.
  destruct D as [[-> _]|(i & a & z & A & B & C & N & D)]; [discriminate F|]. rewrite D. f_equal. f_equal. destruct i as [|i].
  - rewrite F in A. injection A as <-. rewrite L in N. rewrite (div_eq (q * p) q p 1) in N by lia. rewrite div_one in N. apply (nearest_unique _ _ _ N). apply nearest_z.
  - exfalso. destruct (B 0%nat ltac:(lia)) as (x & y & w & X & Y & _ & _ & M1 & M2). rewrite F in X. injection X as <-. assert (CY : candidate v y) by (apply K; eapply nth_error_In; exact Y).
    destruct (candidate_multiple p v y) as (j & J1 & J2 & J3); [lia|exact H|exists q; exact L|exact CY|]. assert (E : y = (q * j)%nat) by (rewrite L in J3; nia). subst y. assert (11 <= j)%nat by nia. lia.
Qed.
