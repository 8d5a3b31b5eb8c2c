(* FloatProofs6.v -- interpolation of floats (C92). *)
From Coq Require Import Reals.
From Flocq Require Import Core Plus_error.
From Verif Require Import Base BaseLemmas Items Series SpecSeries SpecAccess SpecOps SpecIntervals OpsProofs OpsProofs2 OpsProofs3 InterpProofs Float FloatOps SpecFloat FloatProofs FloatProofs2 FloatProofs3 FloatProofs4 FloatProofs5 Periodicity.
From Coq Require Import Lra.
Open Scope R_scope.

(* the values *)
Definition f_line (t0 t1 at_ a b : Qc) : Qc := fadd a (fmul (fsub at_ t0) (fdiv (fsub b a) (fsub t1 t0))).
Definition f_half (a b : Qc) : Qc := fadd a (fdiv (fsub b a) q2).

Lemma rndR_opp x : rndR (- x) = - rndR x.
Proof. apply round_NE_opp. Qed.
Lemma rndR_mono x y : x <= y -> rndR x <= rndR y.
Proof. apply round_le; typeclasses eauto. Qed.
Lemma rndR_0 : rndR 0 = 0.
Proof. apply round_0. typeclasses eauto. Qed.
Lemma rndR_id x : dbl x -> rndR x = x.
Proof. apply round_generic. typeclasses eauto. Qed.

Lemma sub_R x y : is_double x -> is_double y -> Rabs (real (fsub x y) - (real x - real y)) <= u * Rabs (real x - real y).
Proof. intros A B. pose proof (sub_err x y A B) as E. apply real_le in E. rewrite real_abs, real_mult, real_abs, !real_minus, real_pow2, u_bpow in E. exact E. Qed.

(* the real value of the line, the increment being R * K *)
Definition lineR (a D' T' K' : R) : R := rndR (a + rndR (K' * rndR (D' / T'))).
Lemma f_line_real t0 t1 at_ a b : is_double t0 -> is_double t1 -> (t0 < t1)%Qc ->
  real (f_line t0 t1 at_ a b) = lineR (real a) (real (fsub b a)) (real (fsub t1 t0)) (real (fsub at_ t0)).
Proof.
  intros A B L. unfold f_line, fadd, fmul, fdiv. rewrite rnd_flocq, real_plus, rnd_flocq, real_mult, rnd_flocq, real_div by (apply pos_nz, fsub_pos; assumption). reflexivity.
Qed.
Lemma lineR_opp a D T K : lineR (- a) (- D) T K = - lineR a D T K.
Proof.
  unfold lineR. replace (- D / T) with (- (D / T)) by (unfold Rdiv; ring). rewrite rndR_opp. replace (K * - rndR (D / T)) with (- (K * rndR (D / T))) by ring.
  rewrite rndR_opp. replace (- a + - rndR (K * rndR (D / T))) with (- (a + rndR (K * rndR (D / T)))) by ring. apply rndR_opp.
Qed.

Lemma u_small : u * 1000 < 1.
Proof. unfold u. lra. Qed.

(* an upward step: the increment is at least 0 and at most the exact one, increased by six roundings *)
Lemma increment D D' T T' K K' : 0 <= D -> 0 < T -> 0 <= K -> K <= T -> Rabs (D' - D) <= u * D -> Rabs (T' - T) <= u * T -> Rabs (K' - K) <= u * K ->
  0 <= rndR (K' * rndR (D' / T')) /\ Rabs (rndR (K' * rndR (D' / T')) - K / T * D) <= 7 * u * (K / T * D) + (2 * T + 1) * eta.
Proof.
  intros D0 T0 K0 KT ED ET EK. apply Rabs_le_inv in ED, ET, EK. pose proof u_pos as U. pose proof u_small as U1. pose proof eta_pos as Et.
  assert (UD : u * D <= / 1000 * D) by (apply Rmult_le_compat_r; lra). assert (UT : u * T <= / 1000 * T) by (apply Rmult_le_compat_r; lra). assert (UK : u * K <= / 1000 * K) by (apply Rmult_le_compat_r; lra).
  assert (D'0 : 0 <= D') by lra. assert (T'0 : 0 < T') by lra. assert (K'0 : 0 <= K') by lra.
  pose proof (Rinv_0_lt_compat T T0) as I. pose proof (Rinv_0_lt_compat T' T'0) as I'.
  set (q := D / T). assert (Q0 : 0 <= q) by (apply Rmult_le_pos; lra).
  assert (EI : Rabs (D' / T' - q) <= (2 * u + 4 * u * u) * q).
  { unfold q. replace (D' / T' - D / T) with ((D' * T - D * T') / (T' * T)) by (field; lra).
    unfold Rdiv. rewrite Rabs_mult, (Rabs_pos_eq (/ (T' * T))) by (left; apply Rinv_0_lt_compat; apply Rmult_lt_0_compat; lra).
    apply Rmult_le_reg_r with (T' * T); [apply Rmult_lt_0_compat; lra|]. rewrite Rmult_assoc, Rinv_l, Rmult_1_r by (apply Rgt_not_eq; apply Rmult_lt_0_compat; lra).
    replace ((2 * u + 4 * u * u) * (D * / T) * (T' * T)) with ((2 * u + 4 * u * u) * D * T') by (field; lra).
    assert (L : Rabs (D' * T - D * T') <= 2 * u * (D * T)).
    { replace (D' * T - D * T') with ((D' - D) * T - D * (T' - T)) by ring. apply Rabs_le.
      assert (X1 : - (u * D) * T <= (D' - D) * T <= u * D * T) by (split; apply Rmult_le_compat_r; lra).
      assert (X2 : D * - (u * T) <= D * (T' - T) <= D * (u * T)) by (split; apply Rmult_le_compat_l; lra). lra. }
    eapply Rle_trans; [exact L|]. assert (UU : 0 <= 2 * u + 4 * u * u) by nra.
    apply Rle_trans with ((2 * u + 4 * u * u) * D * (T - u * T)); [|apply Rmult_le_compat_l; [apply Rmult_le_pos; lra|lra]].
    replace ((2 * u + 4 * u * u) * D * (T - u * T)) with ((2 * u + 4 * u * u) * (1 - u) * (D * T)) by ring. apply Rmult_le_compat_r; [apply Rmult_le_pos; lra|].
    assert (u * u <= u * / 1000) by (apply Rmult_le_compat_l; lra). nra. }
  set (q' := D' / T') in *. assert (Q'0 : 0 <= q') by (apply Rmult_le_pos; lra).
  pose proof (err_R q') as E1. rewrite (Rabs_pos_eq q') in E1 by exact Q'0. set (R := rndR q') in *.
  assert (R0 : 0 <= R) by (unfold R; rewrite <- rndR_0; apply rndR_mono; exact Q'0).
  apply Rabs_le_inv in EI, E1.
  assert (UU : u * u <= / 1000 * u) by (apply Rmult_le_compat_r; lra).
  assert (Uq : 0 <= u * q) by (apply Rmult_le_pos; lra).
  assert (UUq : u * u * q <= / 1000 * u * q) by (apply Rmult_le_compat_r; lra).
  assert (Uq' : u * q' <= 11 / 10 * (u * q)).
  { apply Rle_trans with (u * (q + (2 * u + 4 * u * u) * q)); [apply Rmult_le_compat_l; lra|].
    assert (u * (u * u * q) <= / 1000 * (u * u * q)) by (apply Rmult_le_compat_r; [apply Rmult_le_pos; [apply Rmult_le_pos; lra|lra]|lra]). lra. }
  assert (E2 : - (32 / 10 * (u * q) + eta) <= R - q <= 32 / 10 * (u * q) + eta) by lra. clear EI E1.
  set (p := K' * R). assert (P0 : 0 <= p) by (apply Rmult_le_pos; assumption).
  pose proof (err_R p) as E3. rewrite (Rabs_pos_eq p) in E3 by exact P0. apply Rabs_le_inv in E3.
  assert (PP : 0 <= rndR p) by (rewrite <- rndR_0; apply rndR_mono; exact P0). split; [exact PP|].
  replace (K / T * D) with (K * q) by (unfold q, Rdiv; ring). set (kq := K * q). assert (KQ : 0 <= kq) by (apply Rmult_le_pos; lra).
  assert (Ukq : 0 <= u * kq) by (apply Rmult_le_pos; lra). assert (UUkq : u * (u * kq) <= / 1000 * (u * kq)) by (apply Rmult_le_compat_r; lra).
  (* p - kq = (K' - K) R + K (R - q) *)
  assert (KR : K * R <= kq + 32 / 10 * (u * kq) + T * eta /\ kq - (32 / 10 * (u * kq) + T * eta) <= K * R).
  { assert (X : K * (- (32 / 10 * (u * q) + eta)) <= K * (R - q) <= K * (32 / 10 * (u * q) + eta)) by (split; apply Rmult_le_compat_l; lra).
    replace (K * (R - q)) with (K * R - kq) in X by (unfold kq; ring).
    replace (K * (32 / 10 * (u * q) + eta)) with (32 / 10 * (u * kq) + K * eta) in X by (unfold kq; field).
    replace (K * - (32 / 10 * (u * q) + eta)) with (- (32 / 10 * (u * kq) + K * eta)) in X by (unfold kq; field).
    assert (K * eta <= T * eta) by (apply Rmult_le_compat_r; lra). lra. }
  assert (Te : 0 <= T * eta) by (apply Rmult_le_pos; lra). assert (UTe : u * (T * eta) <= / 1000 * (T * eta)) by (apply Rmult_le_compat_r; lra).
  assert (UKR : u * (K * R) <= 11 / 10 * (u * kq) + / 1000 * (T * eta)).
  { apply Rle_trans with (u * (kq + 32 / 10 * (u * kq) + T * eta)); [apply Rmult_le_compat_l; lra|]. lra. }
  assert (X : - (u * (K * R)) <= (K' - K) * R <= u * (K * R)).
  { replace (u * (K * R)) with (u * K * R) by ring. replace (- (u * K * R)) with ((- (u * K)) * R) by ring. split; apply Rmult_le_compat_r; lra. }
  replace ((K' - K) * R) with (p - K * R) in X by (unfold p; ring).
  assert (Pb : - (43 / 10 * (u * kq) + 11 / 10 * (T * eta)) <= p - kq <= 43 / 10 * (u * kq) + 11 / 10 * (T * eta)) by lra.
  assert (UP : u * p <= 12 / 10 * (u * kq) + / 100 * (T * eta)).
  { apply Rle_trans with (u * (kq + 43 / 10 * (u * kq) + 11 / 10 * (T * eta))); [apply Rmult_le_compat_l; lra|]. lra. }
  apply Rabs_le. lra.
Qed.

(* between the neighbours: away from the right end, and with a difference large enough to have digits *)
Lemma lineR_up a b D' T T' K K' : dbl a -> dbl b -> a <= b -> 0 < T -> 0 <= K -> K <= T * (1 - 16 * u) ->
  (b - a = 0 \/ bpow radix2 (-1000) * (1 + T) <= b - a) ->
  Rabs (D' - (b - a)) <= u * (b - a) -> Rabs (T' - T) <= u * T -> Rabs (K' - K) <= u * K -> a <= lineR a D' T' K' <= b.
Proof.
  intros Da Db L T0 K0 KT HD ED ET EK. pose proof u_pos as U. pose proof u_small as U1. pose proof eta_pos as Et.
  assert (UT : 0 <= u * T) by (apply Rmult_le_pos; lra).
  destruct (increment (b - a) D' T T' K K') as (P0 & P1); try assumption; try lra.
  unfold lineR. set (P := rndR (K' * rndR (D' / T'))) in *. apply Rabs_le_inv in P1.
  assert (LP : P <= b - a).
  { destruct HD as [Z|HD].
    - assert (D' = 0) as -> by (rewrite Z, Rmult_0_r in ED; apply Rabs_le_inv in ED; lra). unfold P. unfold Rdiv. rewrite Rmult_0_l, rndR_0, Rmult_0_r, rndR_0. lra.
    - set (D := b - a) in *. pose proof (Rinv_0_lt_compat T T0) as I.
      assert (KD : K / T * D <= (1 - 16 * u) * D).
      { apply Rmult_le_compat_r; [unfold D; lra|]. apply Rmult_le_reg_r with T; [exact T0|]. unfold Rdiv. rewrite Rmult_assoc, Rinv_l by lra. lra. }
      assert (D0 : 0 <= D) by (unfold D; lra). assert (UD : 0 <= u * D) by (apply Rmult_le_pos; lra).
      assert (UKD : u * (K / T * D) <= u * D).
      { apply Rmult_le_compat_l; [lra|]. eapply Rle_trans; [exact KD|]. lra. }
      assert (E : (2 * T + 1) * eta <= u * D).
      { apply Rle_trans with (u * (bpow radix2 (-1000) * (1 + T))); [|apply Rmult_le_compat_l; lra].
        assert (X : 2 * eta <= u * bpow radix2 (-1000)).
        { rewrite <- u_bpow, <- bpow_plus. unfold eta. change 2 with (bpow radix2 1). rewrite <- bpow_plus. apply bpow_le. lia. }
        apply Rle_trans with (2 * eta * (1 + T)); [|rewrite <- Rmult_assoc; apply Rmult_le_compat_r; lra].
        replace ((2 * T + 1) * eta) with (2 * eta * (1 + T) - eta) by ring. lra. }
      lra. }
  split.
  - rewrite <- (rndR_id a Da) at 1. apply rndR_mono. lra.
  - rewrite <- (rndR_id b Db). apply rndR_mono. lra.
Qed.
Lemma line_between t0 t1 at_ a b : is_double t0 -> is_double t1 -> is_double at_ -> is_double a -> is_double b ->
  (t0 < t1)%Qc -> (t0 <= at_)%Qc -> (pow2 (-49) * (t1 - t0) <= t1 - at_)%Qc ->
  (a = b \/ (pow2 (-1000) * (q1 + (t1 - t0)) <= qabs (b - a))%Qc) ->
  (qmin a b <= f_line t0 t1 at_ a b)%Qc /\ (f_line t0 t1 at_ a b <= qmax a b)%Qc.
Proof.
  intros D0 D1 Dat Da Db L L1 L2 HD. pose proof (f_line_real t0 t1 at_ a b D0 D1 L) as E. pose proof (sub_R b a Db Da) as ED. pose proof (sub_R t1 t0 D1 D0) as ET. pose proof (sub_R at_ t0 Dat D0) as EK.
  apply real_lt in L. apply real_le in L1, L2. rewrite real_mult, !real_minus, real_pow2 in L2.
  replace (bpow radix2 (-49)) with (16 * u) in L2 by (rewrite <- u_bpow; change (-49)%Z with (4 + -53)%Z; rewrite bpow_plus; reflexivity).
  assert (HD' : real b - real a = 0 \/ bpow radix2 (-1000) * (1 + (real t1 - real t0)) <= Rabs (real b - real a)).
  { destruct HD as [->|HD]; [left; ring|right]. apply real_le in HD. rewrite real_mult, real_plus, real_abs, !real_minus, real_1, real_pow2 in HD. exact HD. }
  rewrite (Rabs_pos_eq (real t1 - real t0)) in ET by lra. rewrite (Rabs_pos_eq (real at_ - real t0)) in EK by lra.
  apply double_iff in Da, Db. unfold qmin, qmax. destruct (qleb_spec a b) as [LE|LE].
  - apply real_le in LE. rewrite (Rabs_pos_eq (real b - real a)) in ED, HD' by lra.
    destruct (lineR_up (real a) (real b) (real (fsub b a)) (real t1 - real t0) (real (fsub t1 t0)) (real at_ - real t0) (real (fsub at_ t0))) as (A & B); try assumption; try lra.
    rewrite <- E in A, B. split; apply real_le; assumption.
  - apply Qcnot_le_lt in LE. apply real_lt in LE. rewrite (Rabs_minus_sym (real b)), (Rabs_pos_eq (real a - real b)) in ED, HD' by lra.
    assert (Oa : dbl (- real a)) by (apply generic_format_opp; exact Da). assert (Ob : dbl (- real b)) by (apply generic_format_opp; exact Db).
    destruct (lineR_up (- real a) (- real b) (- real (fsub b a)) (real t1 - real t0) (real (fsub t1 t0)) (real at_ - real t0) (real (fsub at_ t0))) as (A & B); try assumption; try lra.
    { replace (- real (fsub b a) - (- real b - - real a)) with (- (real (fsub b a) - (real b - real a))) by ring. rewrite Rabs_Ropp. replace (- real b - - real a) with (real a - real b) by ring. exact ED. }
    rewrite lineR_opp, <- E in A, B. split; apply real_le; lra.
Qed.

(* accuracy, wherever *)
Lemma line_err t0 t1 at_ a b : is_double t0 -> is_double t1 -> is_double at_ -> is_double a -> is_double b ->
  (t0 < t1)%Qc -> (t0 <= at_)%Qc -> (at_ <= t1)%Qc ->
  Rabs (real (f_line t0 t1 at_ a b) - (real a + (real at_ - real t0) / (real t1 - real t0) * (real b - real a)))
    <= 16 * u * (Rabs (real a) + Rabs (real b)) + 4 * (1 + (real t1 - real t0)) * eta.
Proof.
  intros D0 D1 Dat Da Db L L1 L2. pose proof (f_line_real t0 t1 at_ a b D0 D1 L) as E. pose proof (sub_R b a Db Da) as ED. pose proof (sub_R t1 t0 D1 D0) as ET. pose proof (sub_R at_ t0 Dat D0) as EK.
  apply real_lt in L. apply real_le in L1, L2. rewrite (Rabs_pos_eq (real t1 - real t0)) in ET by lra. rewrite (Rabs_pos_eq (real at_ - real t0)) in EK by lra.
  apply double_iff in Da, Db. rewrite E. clear E. set (T := real t1 - real t0) in *. set (K := real at_ - real t0) in *. set (D' := real (fsub b a)) in *. set (T' := real (fsub t1 t0)) in *. set (K' := real (fsub at_ t0)) in *.
  set (av := real a) in *. set (bv := real b) in *. assert (T0 : 0 < T) by (unfold T; lra). assert (K0 : 0 <= K) by (unfold K; lra). assert (KT : K <= T) by (unfold K, T; lra). clearbody T K D' T' K' av bv.
  clear t0 t1 at_ a b D0 D1 Dat L L1 L2.
  assert (Up : forall a b D', dbl a -> dbl b -> a <= b -> Rabs (D' - (b - a)) <= u * (b - a) -> Rabs (lineR a D' T' K' - (a + K / T * (b - a))) <= 16 * u * (Rabs a + Rabs b) + 4 * (1 + T) * eta).
  { clear Da Db ED av bv D'. intros a b D' Da Db LE ED. destruct (increment (b - a) D' T T' K K') as (P0 & P1); try assumption; try lra.
    unfold lineR. set (P := rndR (K' * rndR (D' / T'))) in *. assert (DP : dbl P) by (apply generic_format_round; typeclasses eauto).
    pose proof (err_add_R a P Da DP) as E4. pose proof u_pos as U. pose proof u_small as U1. pose proof eta_pos as Et. pose proof (Rinv_0_lt_compat T T0) as I.
    set (D := b - a) in *. assert (D0 : 0 <= D) by (unfold D; lra). set (k := K / T) in *. assert (k0 : 0 <= k) by (apply Rmult_le_pos; lra).
    assert (k1 : k <= 1) by (apply Rmult_le_reg_r with T; [exact T0|]; unfold k, Rdiv; rewrite Rmult_assoc, Rinv_l by lra; lra).
    assert (kD : k * D <= D) by (rewrite <- (Rmult_1_l D) at 2; apply Rmult_le_compat_r; lra). assert (kD0 : 0 <= k * D) by (apply Rmult_le_pos; lra).
    set (A := Rabs a + Rabs b). assert (DA : D <= A) by (unfold D, A; pose proof (Rle_abs b); pose proof (Rle_abs (- a)); rewrite Rabs_Ropp in *; lra).
    assert (AA : Rabs a <= A) by (unfold A; pose proof (Rabs_pos b); lra).
    assert (UA : u * (k * D) <= u * A) by (apply Rmult_le_compat_l; lra). assert (UA0 : 0 <= u * A) by (apply Rmult_le_pos; lra).
    assert (UUA : u * (u * A) <= / 1000 * (u * A)) by (apply Rmult_le_compat_r; lra).
    assert (TE : 0 <= (2 * T + 1) * eta) by (apply Rmult_le_pos; lra). assert (UTE : u * ((2 * T + 1) * eta) <= / 1000 * ((2 * T + 1) * eta)) by (apply Rmult_le_compat_r; lra).
    pose proof P1 as P1'. apply Rabs_le_inv in P1'.
    assert (S : Rabs (a + P) <= 2 * A + 7 * (u * A) + (2 * T + 1) * eta) by (eapply Rle_trans; [apply Rabs_triang|]; rewrite (Rabs_pos_eq P) by exact P0; lra).
    assert (US : u * Rabs (a + P) <= 2 * (u * A) + 7 * (u * (u * A)) + u * ((2 * T + 1) * eta)).
    { apply Rle_trans with (u * (2 * A + 7 * (u * A) + (2 * T + 1) * eta)); [apply Rmult_le_compat_l; lra|]. lra. }
    replace (rndR (a + P) - (a + k * D)) with ((rndR (a + P) - (a + P)) + (P - k * D)) by ring. eapply Rle_trans; [apply Rabs_triang|].
    assert (Te0 : 0 <= T * eta) by (apply Rmult_le_pos; lra). lra. }
  destruct (Rle_or_lt av bv) as [LE|LE].
  - rewrite (Rabs_pos_eq (bv - av)) in ED by lra. apply Up; assumption.
  - rewrite (Rabs_minus_sym bv), (Rabs_pos_eq (av - bv)) in ED by lra.
    assert (Oa : dbl (- av)) by (apply generic_format_opp; exact Da). assert (Ob : dbl (- bv)) by (apply generic_format_opp; exact Db).
    specialize (Up (- av) (- bv) (- D') Oa Ob ltac:(lra)). rewrite lineR_opp, !Rabs_Ropp in Up.
    replace (- D' - (- bv - - av)) with (- (D' - (bv - av))) in Up by ring. rewrite Rabs_Ropp in Up. replace (- bv - - av) with (av - bv) in Up by ring. specialize (Up ED).
    replace (- lineR av D' T' K' - (- av + K / T * (av - bv))) with (- (lineR av D' T' K' - (av + K / T * (bv - av)))) in Up by ring. rewrite Rabs_Ropp in Up. exact Up.
Qed.

(* on the left end *)
Lemma line_left t0 t1 a b : is_double t0 -> is_double t1 -> is_double a -> (t0 < t1)%Qc -> f_line t0 t1 t0 a b = a.
Proof.
  intros D0 D1 Da L. apply real_inj. rewrite f_line_real by assumption. rewrite fsub_self, real_0. unfold lineR. rewrite Rmult_0_l, rndR_0, Rplus_0_r. apply rndR_id. apply double_iff. exact Da.
Qed.

(* half way *)
Lemma halfR_up a b : dbl a -> dbl b -> a <= b -> rndR (rndR (b - a) / 2) <= b - a /\ 0 <= rndR (rndR (b - a) / 2).
Proof.
  intros Da Db L. assert (P : 0 <= rndR (b - a)) by (rewrite <- rndR_0; apply rndR_mono; lra).
  assert (P2 : 0 <= rndR (rndR (b - a) / 2)) by (rewrite <- rndR_0 at 1; apply rndR_mono; lra). split; [|exact P2].
  destruct (Rle_or_lt (b - a) (bpow radix2 (-1021))) as [S|S].
  - assert (F : dbl (b - a)).
    { apply (FLT_format_plus_small radix2 (-1074) 53 b (- a)); [exact Db|apply generic_format_opp; exact Da|].
      replace (b + - a) with (b - a) by ring. rewrite Rabs_pos_eq by lra. eapply Rle_trans; [exact S|]. apply bpow_le. lia. }
    rewrite (rndR_id (b - a) F). rewrite <- (rndR_id (b - a) F) at 2. apply rndR_mono. lra.
  - pose proof (err_add_R b (- a) Db (generic_format_opp _ _ _ Da)) as E1. replace (b + - a) with (b - a) in E1 by ring. rewrite (Rabs_pos_eq (b - a)) in E1 by lra. apply Rabs_le_inv in E1.
    pose proof (err_R (rndR (b - a) / 2)) as E2. rewrite (Rabs_pos_eq (rndR (b - a) / 2)) in E2 by lra. apply Rabs_le_inv in E2.
    set (D := b - a) in *. pose proof u_pos as U. pose proof u_small as U1.
    assert (Et : eta <= D / 4).
    { unfold eta. replace (bpow radix2 (-1075)) with (bpow radix2 (-1021) * bpow radix2 (-54)) by (rewrite <- bpow_plus; reflexivity).
      pose proof (bpow_gt_0 radix2 (-1021)) as B. assert (bpow radix2 (-54) <= / 4) by (cbn; lra).
      apply Rle_trans with (bpow radix2 (-1021) * / 4); [apply Rmult_le_compat_l; lra|lra]. }
    assert (D0 : 0 <= D) by (unfold D; lra). assert (UD : u * D <= / 1000 * D) by (apply Rmult_le_compat_r; lra).
    assert (UR : u * (rndR D / 2) <= / 1000 * (rndR D / 2)) by (apply Rmult_le_compat_r; lra). lra.
Qed.
Lemma half_between a b : is_double a -> is_double b -> (qmin a b <= f_half a b)%Qc /\ (f_half a b <= qmax a b)%Qc.
Proof.
  intros Da Db. assert (E : real (f_half a b) = rndR (real a + rndR (rndR (real b - real a) / 2))).
  { unfold f_half, fadd, fdiv, fsub. rewrite rnd_flocq, real_plus, rnd_flocq, real_div by (intros Z; apply real_eqb in Z; discriminate). rewrite rnd_flocq, real_minus. unfold q2. rewrite real_qz. reflexivity. }
  apply double_iff in Da, Db. unfold qmin, qmax. destruct (qleb_spec a b) as [LE|LE].
  - apply real_le in LE. destruct (halfR_up (real a) (real b) Da Db LE) as (A & B). split; apply real_le; rewrite E.
    + rewrite <- (rndR_id (real a) Da) at 1. apply rndR_mono. lra.
    + rewrite <- (rndR_id (real b) Db) at 2. apply rndR_mono. lra.
  - apply Qcnot_le_lt in LE. apply real_lt in LE. assert (Oa : dbl (- real a)) by (apply generic_format_opp; exact Da). assert (Ob : dbl (- real b)) by (apply generic_format_opp; exact Db).
    destruct (halfR_up (- real a) (- real b) Oa Ob ltac:(lra)) as (A & B).
    assert (N : rndR (rndR (- real b - - real a) / 2) = - rndR (rndR (real b - real a) / 2)).
    { replace (- real b - - real a) with (- (real b - real a)) by ring. rewrite rndR_opp. replace (- rndR (real b - real a) / 2) with (- (rndR (real b - real a) / 2)) by (unfold Rdiv; ring). apply rndR_opp. }
    rewrite N in A, B. split; apply real_le; rewrite E.
    + rewrite <- (rndR_id (real b) Db) at 1. apply rndR_mono. lra.
    + apply Rle_trans with (rndR (real a)); [apply rndR_mono; lra|rewrite (rndR_id (real a) Da); lra].
Qed.
