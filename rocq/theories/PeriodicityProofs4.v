(* PeriodicityProofs4.v -- periodic signals, and signals which are rescaled or shifted. *)
From Verif Require Import SpecPeriodicity PropTactics BaseLemmas ReconProofs4 ReconProofs3 OpsProofs OpsProofs2 SeriesProofs SeriesProofs2 SamplingProofs LstmProofs PeriodicityProofs PeriodicityProofs2 PeriodicityProofs3.
From Coq Require Import Lra.
Local Open Scope R_scope.

Lemma candidate_range v k : candidate v k -> (1 <= k)%nat /\ (2 * k + 3 <= length v)%nat.
Proof. intros C. apply candidate_iff in C. apply local_max_range in C. pose proof (half_bounds (length v)). lia. Qed.
Lemma candidate_pos v k : candidate v k -> 0 < strength v k.
Proof. intros C. apply candidate_iff in C. apply (local_max_pos _ _ _ (strength_nonneg v) C). Qed.

Lemma div_eq n a p j : (1 <= a)%nat -> (1 <= j)%nat -> (n * j = p * a)%nat -> Qcdiv (qn n) (qn a) = Qcdiv (qn p) (qn j).
Proof.
  intros A J E. assert (E' : Qcmult (qn n) (qn j) = Qcmult (qn p) (qn a)) by (unfold qn; rewrite <- !qz_mult; f_equal; lia).
  destruct (pos_inv (qn a) (qn_pos_R a A)) as [XI _]. destruct (pos_inv (qn j) (qn_pos_R j J)) as [YI _]. unfold Qcdiv. set (x := (/ qn a)%Qc) in *. set (y := (/ qn j)%Qc) in *.
  transitivity (Qcmult (Qcmult (qn n) x) (Qcmult (qn j) y)); [rewrite YI; ring|]. transitivity (Qcmult (Qcmult (qn n) (qn j)) (Qcmult x y)); [ring|]. rewrite E'. transitivity (Qcmult (Qcmult (qn p) y) (Qcmult (qn a) x)); [ring|]. rewrite XI. ring.
Qed.
Lemma div_one p : Qcdiv (qn p) (qn 1) = qz (Z.of_nat p).
Proof. unfold Qcdiv. replace (/ qn 1)%Qc with 1%Qc; [unfold qn; ring|]. apply qeqb_eq. vm_compute. reflexivity. Qed.

(* of a signal with period p, only the multiples of the fundamental are there *)
Lemma candidate_multiple p v k : (1 <= p)%nat -> repeats p v -> Nat.divide p (length v) -> candidate v k ->
  exists j, (1 <= j)%nat /\ (2 * j < p)%nat /\ (length v * j = p * k)%nat.
Proof.
  intros P H D C. pose proof (candidate_pos v k C) as POS. destruct (candidate_range v k C) as [K1 K2]. destruct (Nat.eq_dec ((k * p) mod length v) 0) as [Z|Z].
  - apply Nat.mod_divide in Z; [|lia]. destruct Z as [j Hj]. exists j. split; [|split]; nia.
  - exfalso. rewrite (strength_zero p v k) in POS; [lra|exact P|lia|exact H|exact D|]. intros DV. apply Z. apply Nat.mod_divide; [lia|exact DV].
Qed.
Lemma ranking_unique v ks ks' : ranking v ks -> ranking v ks' -> ks = ks'.
Proof.
  intros [A B] [A' B']. assert (I : forall k, In k ks <-> In k ks') by (intros k; rewrite B, B'; reflexivity). clear B B'. revert ks' A' I. induction A as [|k ks A IH F]; intros ks' A' I.
  - destruct ks' as [|k' ks']; [reflexivity|]. exfalso. apply (proj2 (I k')). left. reflexivity.
  - destruct A' as [|k' ks' A' F']; [exfalso; apply (proj1 (I k)); left; reflexivity|]. rewrite Forall_forall in F, F'.
    assert (AS : forall a b, before v a b -> before v b a -> False) by (intros a b [X|[X1 X2]] [Y|[Y1 Y2]]; [lra|lra|lra|lia]).
    assert (E : k = k'). { destruct (proj1 (I k) (or_introl eq_refl)) as [X|X]; [symmetry; exact X|]. destruct (proj2 (I k') (or_introl eq_refl)) as [Y|Y]; [exact Y|]. exfalso. apply (AS k k'); [apply F; exact Y|apply F'; exact X]. }
    subst k'. f_equal. apply IH; [exact A'|]. intros x. assert (NN : before v k k -> False) by (intros Z; exact (AS k k Z Z)). split; intros X.
    + destruct (proj1 (I x) (or_intror X)) as [<- |Y]; [exfalso; apply NN; apply F; exact X|exact Y].
    + destruct (proj2 (I x) (or_intror X)) as [<- |Y]; [exfalso; apply NN; apply F'; exact X|exact Y].
Qed.

(* detection only depends on the ranking and on what is discarded *)
Lemma detect_same e s v e' s' v' : signal e s v -> signal e' s' v' -> length v = length v' -> (forall ks, ranking v ks -> ranking v' ks) -> (forall ks i, ranking v ks -> discarded v ks i <-> discarded v' ks i) ->
  detect_periodicity s = detect_periodicity s'.
Proof.
  intros S1 S2 L RK D. destruct (detect_char e s v S1) as (ks & K & H). destruct (detect_char e' s' v' S2) as (ks' & K' & H'). assert (ks' = ks) by (apply (ranking_unique v'); [exact K'|apply RK; exact K]). subst ks'.
  destruct H as [[E H]|(i & a & p & A & B & C & N & H)], H' as [[E' H']|(i' & a' & p' & A' & B' & C' & N' & H')]; rewrite H, H'.
  - reflexivity.
  - subst ks. destruct i'; discriminate.
  - subst ks. destruct i; discriminate.
  - assert (I : i = i'). { destruct (Nat.lt_trichotomy i i') as [G|[G|G]]; [|exact G|]; exfalso; [apply C; apply D; [exact K|apply B'; exact G]|apply C'; apply D; [exact K|apply B; exact G]]. }
    subst i'. rewrite A in A'. injection A' as <-. rewrite <- L in N'. rewrite (nearest_unique _ _ _ N N'). reflexivity.
Qed.

(* rescaled *)
Lemma real_mult a b : real (Qcmult a b) = real a * real b.
Proof. unfold real. unfold Qcmult. cbn [this Q2Qc]. rewrite (Qreals.Qeq_eqR _ _ (Qred_correct _)). apply Qreals.Q2R_mult. Qed.
Lemma real_plus a b : real (Qcplus a b) = real a + real b.
Proof. unfold real. unfold Qcplus. cbn [this Q2Qc]. rewrite (Qreals.Qeq_eqR _ _ (Qred_correct _)). apply Qreals.Q2R_plus. Qed.
Lemma real_zero a : real a = 0 -> a = q0.
Proof. intros H. apply Qc_is_canon. unfold real in H. replace 0 with (Q2R (this q0)) in H by (unfold Q2R; cbn; lra). apply Qreals.eqR_Qeq. exact H. Qed.
Lemma nth_scaled c v m : nth m (map (Qcmult c) v) q0 = Qcmult c (nth m v q0).
Proof. assert (Z : q0 = Qcmult c q0) by (rewrite q0_eq; ring). rewrite Z at 1. apply map_nth. Qed.
Lemma strength_scaled c v k : (1 <= length v)%nat -> strength (map (Qcmult c) v) k = Rabs (real c) * strength v k.
Proof.
  intros L. rewrite <- !magnitude_strength by (rewrite ?map_length; exact L). unfold magnitude. assert (E : forall f, dft f (map real (map (Qcmult c) v)) k = real c * dft f (map real v) k).
  { intros f. unfold dft. rewrite !map_length. rewrite <- rsum_scal. apply rsum_ext. intros m _. rewrite !real_nth, nth_scaled, real_mult. ring. }
  rewrite !E. replace (real c * dft cos (map real v) k * (real c * dft cos (map real v) k) + real c * dft sin (map real v) k * (real c * dft sin (map real v) k)) with (Rsqr (real c) * (dft cos (map real v) k * dft cos (map real v) k + dft sin (map real v) k * dft sin (map real v) k)) by (unfold Rsqr; ring).
  rewrite sqrt_mult; [|apply Rle_0_sqr|nra]. rewrite sqrt_Rsqr_abs. reflexivity.
Qed.
Lemma local_max_scaled f c h i : 0 < c -> local_max (fun k => c * f k) h i <-> local_max f h i.
Proof.
  intros P. split; intros (a & b & H1 & H2 & E & F & A & B); exists a, b; (split; [exact H1|]); (split; [exact H2|]); (split; [exact E|]).
  - split; [intros j Hj; apply (Rmult_eq_reg_l c); [apply F; exact Hj|lra]|]. split; apply (Rmult_lt_reg_l c); assumption.
  - split; [intros j Hj; cbv beta; rewrite (F j Hj); reflexivity|]. split; apply Rmult_lt_compat_l; assumption.
Qed.
Lemma scaled_same c v : (1 <= length v)%nat -> c <> q0 -> (forall ks, ranking v ks -> ranking (map (Qcmult c) v) ks) /\ (forall ks i, discarded v ks i <-> discarded (map (Qcmult c) v) ks i).
Proof.
  intros L C. assert (P : 0 < Rabs (real c)) by (apply Rabs_pos_lt; intros Z; apply C, real_zero; exact Z). set (r := Rabs (real c)) in *. pose proof (fun k => strength_scaled c v k L) as SS. fold r in SS. split.
  - intros ks [A B]. split.
    + assert (G : forall a b, before v a b -> before (map (Qcmult c) v) a b) by (intros a b [H|[H1 H2]]; [left; rewrite !SS; apply Rmult_lt_compat_l; assumption|right; rewrite !SS, H1; split; [reflexivity|exact H2]]).
      clear B. induction A as [|k ks A IH F]; constructor; [exact IH|]. rewrite Forall_forall in F |- *. intros x Hx. apply G, F, Hx.
    + intros k. rewrite B, !candidate_iff, map_length. split; intros H.
      * apply (local_max_ext (fun k => r * strength v k)); [intros j _; symmetry; apply SS|]. apply local_max_scaled; [exact P|exact H].
      * apply (local_max_scaled (strength v) r); [exact P|]. apply (local_max_ext (strength (map (Qcmult c) v))); [intros j _; apply SS|exact H].
  - intros ks i. unfold discarded. split; intros (a & b & d & A & B & D & H & M); exists a, b, d; (split; [exact A|]); (split; [exact B|]); (split; [exact D|]); (split; [|exact M]).
    + rewrite !SS. apply (Rmult_lt_compat_l r) in H; [lra|exact P].
    + rewrite !SS in H. apply (Rmult_lt_reg_l r); [exact P|lra].
Qed.

(* shifted *)
Lemma nth_shifted c v m : (m < length v)%nat -> nth m (map (Qcplus c) v) q0 = Qcplus c (nth m v q0).
Proof. intros L. rewrite (nth_indep _ q0 (Qcplus c q0)) by (rewrite map_length; exact L). apply map_nth. Qed.
Lemma strength_shifted c v k : (1 <= k)%nat -> (k < length v)%nat -> strength (map (Qcplus c) v) k = strength v k.
Proof.
  intros K L. rewrite <- !magnitude_strength by (rewrite ?map_length; lia). unfold magnitude.
  destruct (vanishes (length v) k 1 (fun _ => real c)) as [C S]; [lia|reflexivity|reflexivity|intros [[|z] Z]; cbn [Nat.mul] in Z; lia|].
  assert (E : forall f, rsum (length v) (fun m => real c * f (arg (length v) k m)) = 0 -> dft f (map real (map (Qcplus c) v)) k = dft f (map real v) k).
  { intros f Z. unfold dft. rewrite !map_length. rewrite (rsum_ext (length v) _ (fun m => real c * f (arg (length v) k m) + nth m (map real v) 0 * f (angle (length v) k m))); [rewrite rsum_plus, Z; ring|]. intros m Hm. rewrite !real_nth, nth_shifted by exact Hm. rewrite real_plus, angle_eq. unfold arg. ring. }
  rewrite (E cos C), (E sin S). reflexivity.
Qed.
Lemma shifted_max c v i : (1 <= length v)%nat -> (strength v 0 < strength v 1 <-> strength (map (Qcplus c) v) 0 < strength (map (Qcplus c) v) 1) -> local_max (strength v) (half (length v)) i -> local_max (strength (map (Qcplus c) v)) (half (length v)) i.
Proof.
  intros L D (a & b & H1 & H2 & E & F & A & B). exists a, b. pose proof (half_bounds (length v)) as HB. assert (SS : forall k, (1 <= k)%nat -> (k <= S b)%nat -> strength (map (Qcplus c) v) k = strength v k) by (intros k K1 K2; apply strength_shifted; lia).
  split; [exact H1|]. split; [exact H2|]. split; [exact E|]. rewrite !(SS a), (SS (S b)) by lia. split; [intros j Hj; rewrite SS by lia; apply F; exact Hj|]. split; [|exact B].
  destruct (Nat.eq_dec a 1) as [-> |NE]; [|rewrite SS by lia; exact A]. change (1 - 1)%nat with 0%nat in *. rewrite <- (SS 1%nat) by lia. apply D. exact A.
Qed.
Lemma unshift c v : map (Qcplus (Qcopp c)) (map (Qcplus c) v) = v.
Proof. rewrite map_map. rewrite <- (map_id v) at 2. apply map_ext. intros a. ring. Qed.
Lemma candidate_shifted c v k : (1 <= length v)%nat -> (strength v 0 < strength v 1 <-> strength (map (Qcplus c) v) 0 < strength (map (Qcplus c) v) 1) -> candidate v k <-> candidate (map (Qcplus c) v) k.
Proof.
  intros L D. rewrite !candidate_iff, map_length. split; intros H; [apply shifted_max; assumption|].
  assert (G := shifted_max (Qcopp c) (map (Qcplus c) v) k). rewrite map_length, unshift in G. apply G; [exact L|symmetry; exact D|exact H].
Qed.
Lemma shifted_same c v : (1 <= length v)%nat -> (strength v 0 < strength v 1 <-> strength (map (Qcplus c) v) 0 < strength (map (Qcplus c) v) 1) ->
  (forall ks, ranking v ks -> ranking (map (Qcplus c) v) ks) /\ (forall ks i, ranking v ks -> discarded v ks i <-> discarded (map (Qcplus c) v) ks i).
Proof.
  intros L D. assert (SC : forall k, candidate v k -> strength (map (Qcplus c) v) k = strength v k) by (intros k C; apply candidate_range in C; apply strength_shifted; lia). split.
  - intros ks [A B]. split; [|intros k; rewrite B; apply candidate_shifted; assumption].
    assert (I : forall k, In k ks -> candidate v k) by (intros k; apply B). clear B. induction A as [|k ks A IH F]; constructor; [apply IH; intros x Hx; apply I; right; exact Hx|]. rewrite Forall_forall in F |- *. intros x Hx. specialize (F x Hx). unfold before in *. rewrite !SC; [exact F| |]; apply I; [left; reflexivity|right; exact Hx].
  - intros ks i [_ B]. unfold discarded. assert (I : forall j k, nth_error ks j = Some k -> candidate v k) by (intros j k H; apply B; eapply nth_error_In; exact H).
    split; intros (x & y & z & X & Y & Z & H & M); exists x, y, z; (split; [exact X|]); (split; [exact Y|]); (split; [exact Z|]); (split; [|exact M]).
    + rewrite (SC x (I _ _ X)), (SC y (I _ _ Y)), (SC z (I _ _ Z)). exact H.
    + rewrite (SC x (I _ _ X)), (SC y (I _ _ Y)), (SC z (I _ _ Z)) in H. exact H.
Qed.
