(* FloatProofs5.v -- normalisation of floats (C91). *)
From Coq Require Import Reals.
From Flocq Require Import Core.
From Verif Require Import Base BaseLemmas Items Series SpecSeries SpecAccess SpecOps OpsProofs OpsProofs2 OpsProofs3 OpsProofs4 Float FloatOps SpecFloat FloatProofs FloatProofs2 FloatProofs3 FloatProofs4 Periodicity.
From Coq Require Import Lra.
Open Scope R_scope.

Lemma fsub_self x : fsub x x = q0.
Proof. unfold fsub. replace (Qcminus x x) with q0; [apply rnd_id, double_0|]. apply real_inj. rewrite real_minus, real_0. ring. Qed.
Lemma fsub_pos a b : is_double a -> is_double b -> (a < b)%Qc -> (q0 < fsub b a)%Qc.
Proof.
  intros Da Db L. pose proof (sub_err b a Db Da) as E. apply real_le in E. apply real_lt in L. apply real_lt.
  rewrite real_abs, real_mult, real_abs, !real_minus, real_pow2, u_bpow in E. apply Rabs_le_inv in E. rewrite real_0.
  rewrite (Rabs_pos_eq (real b - real a)) in E by lra. assert (U : u < 1) by (unfold u; lra). nra.
Qed.
Lemma fsub_mono a b c : (a <= b)%Qc -> (fsub a c <= fsub b c)%Qc.
Proof. intros H. apply rnd_mono. apply real_le in H. apply real_le. rewrite !real_minus. lra. Qed.
Lemma pos_nz x : (q0 < x)%Qc -> x <> q0.
Proof. intros H E. rewrite E in H. apply real_lt in H. lra. Qed.
Lemma div_mono a b c : (q0 < c)%Qc -> (a <= b)%Qc -> (fdiv a c <= fdiv b c)%Qc.
Proof.
  intros C H. apply rnd_mono. apply real_le. rewrite !real_div by (apply pos_nz; exact C). apply real_lt in C. rewrite real_0 in C. apply real_le in H.
  apply Rmult_le_compat_r; [left; apply Rinv_0_lt_compat; exact C|exact H].
Qed.
Lemma double_1 : is_double q1.
Proof. apply (int_double 1). reflexivity. Qed.

Definition f_unit (lo hi v : Qc) : Qc := fdiv (fsub v lo) (fsub hi lo).
Definition f_map (lo hi : string -> Qc) (a b : Qc) (lb : string) (v : Qc) : Qc :=
  if qeqb a q0 && qeqb b q1 then f_unit (lo lb) (hi lb) v
  else fadd (fmul (f_unit (lo lb) (hi lb) v) (fsub b a)) a.

Lemma unit_mono lo hi v w : is_double lo -> is_double hi -> (lo < hi)%Qc -> (v <= w)%Qc -> (f_unit lo hi v <= f_unit lo hi w)%Qc.
Proof. intros A B C H. apply div_mono; [apply fsub_pos; assumption|apply fsub_mono; exact H]. Qed.
Lemma unit_lo lo hi : is_double lo -> is_double hi -> (lo < hi)%Qc -> f_unit lo hi lo = q0.
Proof.
  intros A B C. unfold f_unit. rewrite fsub_self. unfold fdiv. replace (Qcdiv q0 (fsub hi lo)) with q0; [apply rnd_id, double_0|].
  apply real_inj. rewrite real_div, real_0 by (apply pos_nz, fsub_pos; assumption). unfold Rdiv. ring.
Qed.
Lemma unit_hi lo hi : is_double lo -> is_double hi -> (lo < hi)%Qc -> f_unit lo hi hi = q1.
Proof.
  intros A B C. unfold f_unit, fdiv. pose proof (pos_nz _ (fsub_pos lo hi A B C)) as P.
  replace (Qcdiv (fsub hi lo) (fsub hi lo)) with q1; [apply rnd_id, double_1|]. apply real_inj. rewrite real_div, real_1 by exact P. field. apply real_nz. exact P.
Qed.
Lemma unit_range lo hi v : is_double lo -> is_double hi -> (lo < hi)%Qc -> (lo <= v)%Qc -> (v <= hi)%Qc -> (q0 <= f_unit lo hi v)%Qc /\ (f_unit lo hi v <= q1)%Qc.
Proof.
  intros A B C H1 H2. split.
  - pattern q0 at 1. rewrite <- (unit_lo lo hi A B C). apply unit_mono; assumption.
  - pattern q1 at 1. rewrite <- (unit_hi lo hi A B C). apply unit_mono; assumption.
Qed.
Lemma unit_err lo hi v : is_double lo -> is_double hi -> is_double v -> (lo < hi)%Qc -> (lo <= v)%Qc -> (v <= hi)%Qc ->
  Rabs (real (f_unit lo hi v) - (real v - real lo) / (real hi - real lo)) <= 4 * u.
Proof.
  intros A B D C H1 H2. pose proof (sub_err v lo D A) as E1. pose proof (sub_err hi lo B A) as E2. pose proof (fsub_pos lo hi A B C) as P.
  pose proof (fsub_mono v hi lo H2) as M. pose proof (rnd_nonneg (Qcminus v lo)) as Z0.
  assert (Z1 : (q0 <= fsub v lo)%Qc) by (apply Z0; apply real_le; apply real_le in H1; rewrite real_0, real_minus; lra). clear Z0.
  unfold f_unit, fdiv. rewrite rnd_flocq, real_div by (apply pos_nz; exact P).
  apply real_le in E1, E2, M, Z1, H1, H2. apply real_lt in P, C. rewrite !real_abs, real_mult, real_abs, !real_minus, real_pow2, u_bpow in E1, E2. rewrite real_0 in *.
  set (a := real v - real lo) in *. set (b := real hi - real lo) in *. set (a' := real (fsub v lo)) in *. set (b' := real (fsub hi lo)) in *.
  assert (A0 : 0 <= a) by (unfold a; lra). assert (B0 : 0 < b) by (unfold b; lra). assert (AB : a <= b) by (unfold a, b; lra).
  rewrite (Rabs_pos_eq a) in E1 by exact A0. rewrite (Rabs_pos_eq b) in E2 by lra. apply Rabs_le_inv in E1, E2.
  clearbody a b a' b'. clear - E1 E2 P M Z1 A0 B0 AB. pose proof u_pos as U. assert (U1 : u * 100 < 1) by (unfold u; lra).
  pose proof (err_R (a' / b')) as F. pose proof eta_small as ES.
  assert (I : 0 < / b') by (apply Rinv_0_lt_compat; exact P). assert (I' : 0 < / b) by (apply Rinv_0_lt_compat; exact B0).
  assert (Q0 : 0 <= a' / b') by (apply Rmult_le_pos; lra).
  assert (Q1 : a' / b' <= 1) by (apply Rmult_le_reg_r with b'; [exact P|]; unfold Rdiv; rewrite Rmult_assoc, Rinv_l by lra; lra).
  rewrite (Rabs_pos_eq (a' / b')) in F by exact Q0.
  assert (G : Rabs (a' / b' - a / b) <= 2 * u + 4 * u * u).
  { replace (a' / b' - a / b) with ((a' * b - a * b') / (b' * b)) by (field; lra).
    unfold Rdiv. rewrite Rabs_mult, (Rabs_pos_eq (/ (b' * b))) by (left; apply Rinv_0_lt_compat; apply Rmult_lt_0_compat; lra).
    apply Rmult_le_reg_r with (b' * b); [apply Rmult_lt_0_compat; lra|]. rewrite Rmult_assoc, Rinv_l, Rmult_1_r by (apply Rgt_not_eq; apply Rmult_lt_0_compat; lra).
    assert (L : Rabs (a' * b - a * b') <= 2 * u * (b * b)).
    { replace (a' * b - a * b') with ((a' - a) * b - a * (b' - b)) by ring. apply Rabs_le. assert (X1 : - (u * a) * b <= (a' - a) * b <= u * a * b) by (split; apply Rmult_le_compat_r; lra).
      assert (X2 : a * - (u * b) <= a * (b' - b) <= a * (u * b)) by (split; apply Rmult_le_compat_l; lra).
      assert (X3 : u * a * b <= u * b * b) by (apply Rmult_le_compat_r; [lra|apply Rmult_le_compat_l; lra]). nra. }
    eapply Rle_trans; [exact L|]. replace (2 * u * (b * b)) with ((2 * u * b) * b) by ring. rewrite <- Rmult_assoc. apply Rmult_le_compat_r; [lra|].
    assert (b - u * b <= b') by lra. assert (UU : u * u <= u * / 100) by (apply Rmult_le_compat_l; lra).
    apply Rle_trans with ((2 * u + 4 * u * u) * (b - u * b)); [|apply Rmult_le_compat_l; nra].
    replace ((2 * u + 4 * u * u) * (b - u * b)) with ((2 * u + 4 * u * u) * (1 - u) * b) by ring. apply Rmult_le_compat_r; [lra|]. nra. }
  replace (rndR (a' / b') - a / b) with ((rndR (a' / b') - a' / b') + (a' / b' - a / b)) by ring. eapply Rle_trans; [apply Rabs_triang|].
  assert (u * (a' / b') <= u * 1) by (apply Rmult_le_compat_l; lra). assert (UU : u * u <= u * / 100) by (apply Rmult_le_compat_l; lra).
  assert (UUU : u * u * u <= u * u * 1) by (apply Rmult_le_compat_l; nra). lra.
Qed.

Lemma f_norm_value_ok lo hi a b lb v : is_double (lo lb) -> is_double (hi lb) -> (lo lb < hi lb)%Qc -> f_norm_value (lo lb) (hi lb) (a, b) v = Ok (f_map lo hi a b lb v).
Proof.
  intros A B C. unfold f_norm_value, f_div, f_map, f_unit. cbn [fst snd].
  destruct (qeqb (fsub (hi lb) (lo lb)) q0) eqn:E; [apply real_eqb in E; destruct (pos_nz _ (fsub_pos _ _ A B C) E)|]. cbn [bind].
  destruct (qeqb a q0 && qeqb b q1); reflexivity.
Qed.

Lemma f_normalize_gen e s a b source lo hi : parses_units e -> from_history e s -> numeric (s_items s) -> wf_items (s_items s) ->
  (forall lb, label_in (s_items s) lb -> norm_range (s_items s) source lb = Ok (lo lb, hi lb) /\ is_double (lo lb) /\ is_double (hi lb) /\ (lo lb < hi lb)%Qc) ->
  exists r, f_op_normalize e s (a, b) source = Ok r /\ fresh e r /\ numeric (s_items r) /\ wf_items (s_items r) /\
    Forall2 (fun x y => same_time x y /\ i_idx y = i_idx x /\ derived x y (f_map lo hi a b)) (s_items s) (s_items r).
Proof.
  intros He Hh Hn Hw Hr. unfold f_op_normalize. destruct (prep_ok e s Hh Hn) as (x & l & El & Hp). rewrite Hp. cbn [bind snd].
  assert (HL : forall lb, label_in (s_items s) lb <-> In lb (item_labels x)) by (intros lb; eapply label_in_first; eassumption).
  rewrite (per_label_ok _ _ (fun lb => (lo lb, hi lb))); [|intros lb Hlb; apply Hr, HL, Hlb]. cbn [bind].
  apply pointwise_spec; try assumption. intros lb y Hy Hb.
  unfold pick. rewrite dget_map_label by (apply HL, Hb). cbn [bind fst snd]. destruct (Hr lb Hb) as (_ & A & B & C). apply f_norm_value_ok; assumption.
Qed.

(* custom ranges *)
Lemma fadd_mono a b c : (a <= b)%Qc -> (fadd a c <= fadd b c)%Qc.
Proof. intros H. apply rnd_mono. apply real_le in H. apply real_le. rewrite !real_plus. lra. Qed.
Lemma fmul_mono a b c : (q0 <= c)%Qc -> (a <= b)%Qc -> (fmul a c <= fmul b c)%Qc.
Proof. intros C H. apply rnd_mono. apply real_le in H, C. rewrite real_0 in C. apply real_le. rewrite !real_mult. apply Rmult_le_compat_r; assumption. Qed.
Lemma f_map_mono lo hi a b lb v w : is_double (lo lb) -> is_double (hi lb) -> (lo lb < hi lb)%Qc -> (a <= b)%Qc -> (v <= w)%Qc ->
  (f_map lo hi a b lb v <= f_map lo hi a b lb w)%Qc.
Proof.
  intros A B C Hab H. pose proof (unit_mono _ _ v w A B C H) as U. unfold f_map. destruct (qeqb a q0 && qeqb b q1); [exact U|].
  apply fadd_mono, fmul_mono; [|exact U]. apply rnd_nonneg. apply real_le in Hab. apply real_le. rewrite real_minus, real_0. lra.
Qed.
Lemma f_map_err lo hi a b lb v : is_double (lo lb) -> is_double (hi lb) -> is_double v -> is_double a -> is_double b -> (lo lb < hi lb)%Qc -> (lo lb <= v)%Qc -> (v <= hi lb)%Qc ->
  Rabs (real (f_map lo hi a b lb v) - (real a + (real v - real (lo lb)) / (real (hi lb) - real (lo lb)) * (real b - real a))) <= 16 * u * (Rabs (real a) + Rabs (real b)) + 2 * eta.
Proof.
  intros A B D Da Db C H1 H2. pose proof (unit_err _ _ v A B D C H1 H2) as E. destruct (unit_range _ _ v A B C H1 H2) as (R0 & R1).
  unfold f_map. pose proof u_pos as U. pose proof eta_pos as Et. pose proof (Rabs_pos (real a)) as Pa. pose proof (Rabs_pos (real b)) as Pb. assert (U1 : u * 100 < 1) by (unfold u; lra).
  set (x := f_unit (lo lb) (hi lb) v) in *. set (y := (real v - real (lo lb)) / (real (hi lb) - real (lo lb))) in *.
  destruct (qeqb a q0 && qeqb b q1) eqn:Q.
  - apply andb_prop in Q. destruct Q as (Q0 & Q1). apply real_eqb in Q0, Q1. subst a b. rewrite real_0, real_1 in *. replace (real x - (0 + y * (1 - 0))) with (real x - y) by ring.
    rewrite Rabs_R0, Rabs_R1. lra.
  - pose proof (sub_err b a Db Da) as E2. apply real_le in E2, R0, R1. rewrite real_0 in R0. rewrite real_1 in R1.
    rewrite real_abs, real_mult, real_abs, !real_minus, real_pow2, u_bpow in E2.
    set (w := fsub b a) in *. pose proof (rnd_err (Qcmult x w)) as E3. fold (fmul x w) in E3. apply real_le in E3.
    rewrite real_abs, real_plus, real_mult, real_abs, real_minus, real_mult, !real_pow2, u_bpow in E3. fold eta in E3.
    pose proof (add_err (fmul x w) a (rnd_double _) Da) as E4. apply real_le in E4.
    rewrite real_abs, real_mult, real_abs, real_minus, real_plus, real_pow2, u_bpow in E4.
    set (p := real (fmul x w)) in *. set (o := real (fadd (fmul x w) a)) in *.
    set (W := real b - real a) in *. set (W' := real w) in *. set (X := real x) in *. set (av := real a) in *. set (bv := real b) in *.
    assert (HW : Rabs W <= Rabs av + Rabs bv) by (unfold W; eapply Rle_trans; [apply Rabs_triang|]; rewrite Rabs_Ropp; lra).
    clearbody p o W' X y. set (T := Rabs av + Rabs bv) in *. pose proof (Rabs_pos W) as PW.
    assert (W1 : Rabs W' <= (1 + u) * Rabs W).
    { replace W' with ((W' - W) + W) by ring. eapply Rle_trans; [apply Rabs_triang|]. lra. }
    assert (W2 : Rabs (X * W') <= (1 + u) * Rabs W).
    { rewrite Rabs_mult, (Rabs_pos_eq X) by exact R0. apply Rle_trans with (1 * Rabs W'); [apply Rmult_le_compat_r; [apply Rabs_pos|exact R1]|lra]. }
    assert (G1 : Rabs (X * W' - y * W) <= 6 * u * Rabs W).
    { replace (X * W' - y * W) with ((X - y) * W + X * (W' - W)) by ring. eapply Rle_trans; [apply Rabs_triang|]. rewrite !Rabs_mult, (Rabs_pos_eq X) by exact R0.
      assert (Rabs (X - y) * Rabs W <= 4 * u * Rabs W) by (apply Rmult_le_compat_r; lra).
      assert (X * Rabs (W' - W) <= 1 * (u * Rabs W)) by (apply Rmult_le_compat; try lra; apply Rabs_pos). nra. }
    assert (UW : u * Rabs W <= u * T) by (apply Rmult_le_compat_l; lra). assert (UW0 : 0 <= u * Rabs W) by (apply Rmult_le_pos; lra). assert (UT : 0 <= u * T) by (apply Rmult_le_pos; lra).
    assert (UUT : u * (u * T) <= / 100 * (u * T)) by (apply Rmult_le_compat_r; lra).
    assert (W3 : u * Rabs (X * W') <= u * ((1 + u) * Rabs W)) by (apply Rmult_le_compat_l; lra).
    assert (UUW : u * (u * Rabs W) <= / 100 * (u * Rabs W)) by (apply Rmult_le_compat_r; lra).
    assert (G2 : Rabs (p - X * W') <= 2 * (u * Rabs W) + eta) by (eapply Rle_trans; [exact E3|]; nra).
    assert (UW1 : u * Rabs W <= / 100 * Rabs W) by (apply Rmult_le_compat_r; lra).
    assert (P1 : Rabs p <= 2 * T + eta).
    { replace p with ((p - X * W') + X * W') by ring. eapply Rle_trans; [apply Rabs_triang|]. lra. }
    assert (G3 : Rabs (o - (p + av)) <= u * (3 * T + eta)).
    { eapply Rle_trans; [exact E4|]. apply Rmult_le_compat_l; [lra|]. eapply Rle_trans; [apply Rabs_triang|]. assert (Rabs av <= T) by (unfold T; lra). lra. }
    replace (o - (av + y * W)) with ((o - (p + av)) + ((p - X * W') + (X * W' - y * W))) by ring.
    eapply Rle_trans; [apply Rabs_triang|]. eapply Rle_trans; [apply Rplus_le_compat_l; apply Rabs_triang|].
    assert (UE : u * eta <= 1 * eta) by (apply Rmult_le_compat_r; lra). nra.
Qed.
