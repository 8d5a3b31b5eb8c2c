(* FloatProofs7.v -- the coverage with floats (C93). *)
From Coq Require Import Reals.
From Flocq Require Import Core Plus_error.
From Verif Require Import Base BaseLemmas Items Series SpecSeries SpecAccess SpecOps SpecIntervals OpsProofs IntervalsProofs IntervalsProofs2 IntervalsProofs3 Float FloatOps SpecFloat FloatProofs FloatProofs2 FloatProofs3 FloatProofs4 FloatProofs5 FloatProofs6 Periodicity.
From Coq Require Import Lra.
Open Scope R_scope.

Definition bound_from (l : list vpoint) (f a : Qc) : Prop := a = f \/ exists x, In x l /\ a = vp_from x.
Definition bound_to (l : list vpoint) (t b : Qc) : Prop := b = t \/ exists x, In x l /\ b = vp_to x.
Definition piece (l : list vpoint) (f t p : Qc) : Prop :=
  exists a b, p = (b - a)%Qc /\ bound_from l f a /\ bound_to l t b /\ (a <= b)%Qc.
Lemma piece_more l x f t p : piece l f t p -> piece (x :: l) f t p.
Proof.
  intros (a & b & E & A & B & L). exists a, b. split; [exact E|split; [|split; [|exact L]]].
  - destruct A as [A|(y & Hy & A)]; [left; exact A|right; exists y; split; [right; exact Hy|exact A]].
  - destruct B as [B|(y & Hy & B)]; [left; exact B|right; exists y; split; [right; exact Hy|exact B]].
Qed.

Lemma f_loop f t : (f < t)%Qc -> forall l acc,
  (forall p, In p l -> vp_interp p = false -> (vp_from p <= vp_to p)%Qc) -> stops t l ->
  exists ps, f_coverage_loop f t acc l = fold_left fadd (map rnd ps) acc /\ total ps = olen (ivs_of l) f t /\
    (length ps <= length (measured l))%nat /\ Forall (piece l f t) ps.
Proof.
  intros L. induction l as [|p l IH]; intros acc Hab Hs.
  { exists []. split; [reflexivity|split; [reflexivity|split; [apply le_n|constructor]]]. }
  cbn [f_coverage_loop].
  assert (IH' : forall acc, exists ps, f_coverage_loop f t acc l = fold_left fadd (map rnd ps) acc /\ total ps = olen (ivs_of l) f t /\
    (length ps <= length (measured l))%nat /\ Forall (piece (p :: l) f t) ps).
  { intros acc'. destruct (IH acc') as (ps & E & T & N & F); [intros x Hx; apply Hab; right; exact Hx|apply (stops_tail t p l Hs)|].
    exists ps. split; [exact E|split; [exact T|split; [exact N|]]]. revert F. apply Forall_impl. intros q. apply piece_more. }
  clear IH. rewrite ivs_cons. assert (Mc : (length (measured l) <= length (measured (p :: l)))%nat).
  { unfold measured. cbn [filter]. destruct (negb (vp_interp p)); cbn [length]; lia. }
  destruct (qltb_spec (vp_to p) f) as [L1|L1].
  { destruct (IH' acc) as (ps & E & T & N & F). exists ps. split; [exact E|split; [|split; [lia|exact F]]]. rewrite T.
    destruct (vp_interp p) eqn:I; [reflexivity|]. rewrite olen_cons, overlap_outside by (left; apply Qclt_le_weak; exact L1).
    generalize (olen (ivs_of l) f t). intros; qlra. }
  destruct (qleb_spec t (vp_from p)) as [L2|L2].
  { exists []. split; [reflexivity|split; [|split; [cbn; lia|constructor]]]. cbn [total].
    assert (Z : olen (ivs_of l) f t = q0).
    { clear IH' Mc. assert (K : forall q, In q l -> vp_interp q = false -> Qcle t (vp_from q)).
      { intros q Hq Iq. apply In_nth_error in Hq. destruct Hq as [n Hn]. apply (Hs 0%nat (S n) p q); [lia|reflexivity|exact Hn|exact Iq|exact L2]. }
      clear Hs Hab. induction l as [|q l IHl]; [reflexivity|]. rewrite ivs_cons. destruct (vp_interp q) eqn:I; [apply IHl; intros; apply K; [right; assumption|assumption]|].
      rewrite olen_cons, IHl by (intros; apply K; [right; assumption|assumption]). rewrite overlap_outside by (right; apply K; [left; reflexivity|exact I]). qlra. }
    destruct (vp_interp p) eqn:I; [rewrite Z; reflexivity|]. rewrite olen_cons, Z, overlap_outside by (right; exact L2). qlra. }
  destruct (vp_interp p) eqn:I.
  { destruct (IH' acc) as (ps & E & T & N & F). exists ps. split; [exact E|split; [exact T|split; [lia|exact F]]]. }
  set (a := if qleb f (vp_from p) then vp_from p else f). set (b := if qltb (vp_to p) t then vp_to p else t).
  destruct (IH' (fadd acc (fsub b a))) as (ps & E & T & N & F). exists ((b - a)%Qc :: ps).
  assert (Hp : Qcle (vp_from p) (vp_to p)) by (apply Hab; [left; reflexivity|exact I]).
  split; [exact E|split; [|split]].
  - cbn [total]. rewrite T, olen_cons. generalize (olen (ivs_of l) f t). intros S. unfold overlap, a, b.
    destruct (qleb_spec f (vp_from p)); destruct (qltb_spec (vp_to p) t); qmm; qlra.
  - unfold measured. cbn [filter]. rewrite I. cbn [negb length]. fold (measured l). lia.
  - constructor; [|exact F]. exists a, b. split; [reflexivity|]. split; [|split].
    + unfold a. destruct (qleb f (vp_from p)); [right; exists p; split; [left|]; reflexivity|left; reflexivity].
    + unfold b. destruct (qltb (vp_to p) t); [right; exists p; split; [left|]; reflexivity|left; reflexivity].
    + unfold a, b. destruct (qleb_spec f (vp_from p)); destruct (qltb_spec (vp_to p) t); qlra.
Qed.

(* rounding the pieces, which are not negative *)
Lemma pieces_err ps : Forall (fun p => (q0 <= p)%Qc /\ Rabs (real (rnd p) - real p) <= u * real p) ps ->
  0 <= real (total ps) /\ Rabs (real (total (map rnd ps)) - real (total ps)) <= u * real (total ps) /\ absum (map rnd ps) <= (1 + u) * real (total ps).
Proof.
  pose proof u_pos as U. induction 1 as [|p ps (P & E) H (I0 & I1 & I2)].
  - cbn [map total]. unfold absum. cbn [map total]. rewrite real_0. replace (0 - 0) with 0 by ring. rewrite Rabs_R0. lra.
  - cbn [map total]. rewrite absum_cons, !real_plus. apply real_le in P. rewrite real_0 in P. split; [lra|split].
    + replace (real (rnd p) + real (total (map rnd ps)) - (real p + real (total ps))) with ((real (rnd p) - real p) + (real (total (map rnd ps)) - real (total ps))) by ring.
      eapply Rle_trans; [apply Rabs_triang|]. lra.
    + assert (Rabs (real (rnd p)) <= (1 + u) * real p).
      { replace (real (rnd p)) with ((real (rnd p) - real p) + real p) by ring. eapply Rle_trans; [apply Rabs_triang|]. rewrite (Rabs_pos_eq (real p)) by exact P. lra. }
      lra.
Qed.
Lemma fsum_err ps : Forall (fun p => (q0 <= p)%Qc /\ Rabs (real (rnd p) - real p) <= u * real p) ps ->
  Rabs (real (fold_left fadd (map rnd ps) q0) - real (total ps)) <= ((1 + u) ^ length ps - 1) * real (total ps).
Proof.
  intros H. destruct (pieces_err ps H) as (P0 & P1 & P2).
  assert (D : Forall is_double (map rnd ps)) by (apply Forall_forall; intros y Hy; apply in_map_iff in Hy; destruct Hy as (x & <- & _); apply rnd_double).
  destruct (sum_err _ D) as (_ & E). rewrite map_length in E. destruct ps as [|p ps].
  - cbn [map fold_left total length pow]. rewrite real_0. replace (0 - 0) with 0 by ring. rewrite Rabs_R0. lra.
  - set (n := length ps) in *. cbn [length] in E |- *. fold n in E |- *. rewrite Nat.sub_succ, Nat.sub_0_r in E. set (S := real (fold_left fadd _ q0)) in *. set (T := real (total (map rnd (p :: ps)))) in *. set (P := real (total (p :: ps))) in *.
    replace (S - P) with ((S - T) + (T - P)) by ring. eapply Rle_trans; [apply Rabs_triang|]. cbn [pow].
    pose proof (pow_ge_1 n) as G. set (g := (1 + u) ^ n) in *.
    assert ((g - 1) * absum (map rnd (p :: ps)) <= (g - 1) * ((1 + u) * P)) by (apply Rmult_le_compat_l; lra). nra.
Qed.
Lemma fsum_nonneg vs : Forall (fun v => (q0 <= v)%Qc) vs -> forall a, (q0 <= a)%Qc -> (q0 <= fold_left fadd vs a)%Qc.
Proof.
  induction 1 as [|v vs Hv H IH]; intros a Ha; cbn [fold_left]; [exact Ha|]. apply IH. apply rnd_nonneg. qlra.
Qed.

(* dividing *)
Lemma ratio_err n S P W W' : 0 <= P -> 0 < W -> Rabs (S - P) <= ((1 + u) ^ n - 1) * P -> Rabs (W' - W) <= u * W ->
  Rabs (rndR (S / W') - P / W) <= ((1 + u) ^ (n + 3) - 1) * (P / W) + eta.
Proof.
  intros HP HW HS HW'. pose proof u_pos as U. pose proof u_small as Us.
  pose proof (pow_ge_1 n) as G. rewrite pow_add. set (g := (1 + u) ^ n) in *.
  assert (W1 : (1 - u) * W <= W') by (apply Rabs_le_inv in HW'; nra).
  assert (W0 : 0 < W') by nra.
  set (x := P / W). assert (X : P = x * W) by (unfold x; field; lra). assert (X0 : 0 <= x) by (unfold x; apply Rmult_le_pos; [exact HP|left; apply Rinv_0_lt_compat; exact HW]).
  set (y := S / W'). assert (Y : S = y * W') by (unfold y; field; lra).
  assert (D : Rabs (y - x) <= (g * (1 + u) ^ 2 - 1) * x).
  { apply (Rmult_le_reg_r W'); [exact W0|]. replace (Rabs (y - x) * W') with (Rabs ((y - x) * W')) by (rewrite Rabs_mult, (Rabs_pos_eq W') by lra; reflexivity).
    replace ((y - x) * W') with ((S - P) + x * (W - W')) by (rewrite Y, X; ring).
    eapply Rle_trans; [apply Rabs_triang|]. rewrite Rabs_mult, (Rabs_pos_eq x) by exact X0. rewrite Rabs_minus_sym in HW'.
    assert (A1 : x * Rabs (W - W') <= x * (u * W)) by (apply Rmult_le_compat_l; assumption).
    assert (A2 : (g * (1 + u) ^ 2 - 1) * x * ((1 - u) * W) <= (g * (1 + u) ^ 2 - 1) * x * W').
    { apply Rmult_le_compat_l; [|exact W1]. apply Rmult_le_pos; [|exact X0]. nra. }
    assert (A3 : ((g - 1) + u) <= (g * (1 + u) ^ 2 - 1) * (1 - u)).
    { assert (1 <= (1 + u) ^ 2 * (1 - u)) by nra. nra. }
    assert (A4 : ((g - 1) + u) * (x * W) <= (g * (1 + u) ^ 2 - 1) * (1 - u) * (x * W)) by (apply Rmult_le_compat_r; [apply Rmult_le_pos; lra|exact A3]).
    assert (A5 : (g - 1) * P = (g - 1) * (x * W)) by (rewrite <- X; reflexivity). lra. }
  pose proof (err_R y) as E. replace (rndR y - x) with ((rndR y - y) + (y - x)) by ring. eapply Rle_trans; [apply Rabs_triang|].
  assert (Ya : Rabs y <= g * (1 + u) ^ 2 * x).
  { replace y with ((y - x) + x) by ring. eapply Rle_trans; [apply Rabs_triang|]. rewrite (Rabs_pos_eq x) by exact X0. lra. }
  assert (u * Rabs y <= u * (g * (1 + u) ^ 2 * x)) by (apply Rmult_le_compat_l; lra).
  replace (g * (1 + u) ^ 3 - 1) with ((g * (1 + u) ^ 2 - 1) + u * (g * (1 + u) ^ 2)) by ring. nra.
Qed.
Lemma grow_mono n m x : (n <= m)%nat -> 0 <= x -> ((1 + u) ^ n - 1) * x <= ((1 + u) ^ m - 1) * x.
Proof.
  intros H X. apply Rmult_le_compat_r; [exact X|]. assert ((1 + u) ^ n <= (1 + u) ^ m) by (apply Rle_pow; [pose proof u_pos; lra|exact H]). lra.
Qed.

Definition timed (l : list vpoint) (P : Qc -> Prop) : Prop := forall p, In p l -> P (vp_from p) /\ P (vp_to p).
Lemma piece_bounds l f t p (P : Qc -> Prop) : timed l P -> P f -> P t -> piece l f t p -> (q0 <= p)%Qc /\ exists a b, p = (b - a)%Qc /\ P a /\ P b.
Proof.
  intros H Hf Ht (a & b & -> & A & B & L). split; [qlra|]. exists a, b. split; [reflexivity|]. split.
  - destruct A as [->|(x & Hx & ->)]; [exact Hf|apply H; exact Hx].
  - destruct B as [->|(x & Hx & ->)]; [exact Ht|apply H; exact Hx].
Qed.
Lemma f_coverage_eq l f t : disjoint_regions l -> (f < t)%Qc -> exists ps, Forall (piece l f t) ps /\ total ps = covered_length l f t /\ (length ps <= length (measured l))%nat /\
  (fsub t f <> q0 -> f_coverage l f t = Ok (fdiv (fold_left fadd (map rnd ps) q0) (fsub t f))).
Proof.
  intros D L. destruct (f_loop f t L l q0) as (ps & E & T & N & F); [intros p Hp _; apply D; exact Hp|apply disjoint_stops; exact D|].
  exists ps. split; [exact F|split; [rewrite covered_length_olen; exact T|split; [exact N|]]]. intros W. unfold f_coverage. rewrite qleb_false by exact L.
  destruct l as [|p l].
  - destruct ps as [|q ps]; [|cbn in N; lia]. reflexivity.
  - rewrite E. unfold f_div. rewrite qeqb_false by exact W. reflexivity.
Qed.
Lemma coverage_err l f t : disjoint_regions l -> (f < t)%Qc -> timed l is_double -> is_double f -> is_double t ->
  exists c, f_coverage l f t = Ok c /\ is_double c /\ (q0 <= c)%Qc /\
    Rabs (real c - real (covered_length l f t / (t - f))%Qc) <= ((1 + u) ^ (length (measured l) + 3) - 1) * real (covered_length l f t / (t - f))%Qc + eta.
Proof.
  intros D L Dl Df Dt. destruct (f_coverage_eq l f t D L) as (ps & F & T & N & E). pose proof (fsub_pos f t Df Dt L) as W.
  assert (W' : fsub t f <> q0) by (apply pos_nz; exact W). assert (Wn : (t - f)%Qc <> q0) by (apply pos_nz; qlra).
  assert (Q : Forall (fun p => (q0 <= p)%Qc /\ Rabs (real (rnd p) - real p) <= u * real p) ps).
  { revert F. apply Forall_impl. intros p Hp. destruct (piece_bounds l f t p is_double Dl Df Dt Hp) as (P0 & a & b & -> & Da & Db). split; [exact P0|].
    pose proof (sub_err b a Db Da) as S. apply real_le in S. rewrite real_abs, real_minus, real_mult, real_abs, real_pow2, u_bpow in S. unfold fsub in S. apply real_le in P0. rewrite real_0 in P0. rewrite (Rabs_pos_eq (real (b - a)%Qc)) in S by exact P0. exact S. }
  eexists. split; [apply E; exact W'|split; [apply rnd_double|split]].
  - apply rnd_nonneg. apply real_le. rewrite real_div, real_0 by exact W'.
    assert (S0 : (q0 <= fold_left fadd (map rnd ps) q0)%Qc).
    { apply fsum_nonneg; [|apply Qcle_refl]. apply Forall_forall. intros y Hy. apply in_map_iff in Hy. destruct Hy as (x & <- & Hx). apply rnd_nonneg. rewrite Forall_forall in Q. apply (Q x Hx). }
    apply real_le in S0. rewrite real_0 in S0. apply real_lt in W. rewrite real_0 in W. apply Rmult_le_pos; [exact S0|left; apply Rinv_0_lt_compat; exact W].
  - rewrite <- T. unfold fdiv. rewrite rnd_flocq, !real_div by assumption. destruct (pieces_err ps Q) as (P0 & _).
    assert (W0 : 0 < real (t - f)%Qc) by (rewrite <- real_0; apply real_lt; qlra).
    eapply Rle_trans; [apply (ratio_err (length ps)); [exact P0|exact W0|apply fsum_err; exact Q|]|].
    + pose proof (sub_err t f Dt Df) as S. apply real_le in S. rewrite real_abs, real_minus, real_mult, real_abs, real_pow2, u_bpow in S. rewrite (Rabs_pos_eq (real (t - f)%Qc)) in S by lra. exact S.
    + apply Rplus_le_compat_r. apply grow_mono; [lia|]. apply Rmult_le_pos; [exact P0|left; apply Rinv_0_lt_compat; exact W0].
Qed.

(* exact bounds *)
Lemma multiple_minus k a b : multiple k a -> multiple k b -> multiple k (a - b)%Qc.
Proof. intros (x & ->) (y & ->). exists (x - y)%Z. apply real_inj. rewrite real_minus, !real_mult, !real_qz, minus_IZR. ring. Qed.
Lemma multiple_total k vs : Forall (multiple k) vs -> multiple k (total vs).
Proof. induction 1; cbn [total]; [apply multiple_0|apply multiple_plus; assumption]. Qed.
Lemma nonneg_absum vs : Forall (fun v => (q0 <= v)%Qc) vs -> absum vs = real (total vs).
Proof.
  induction 1 as [|v vs H _ IH]; [reflexivity|]. rewrite absum_cons, IH. cbn [total]. rewrite real_plus. apply real_le in H. rewrite real_0 in H. rewrite Rabs_pos_eq by exact H. reflexivity.
Qed.
Lemma nonneg_total vs : Forall (fun v => (q0 <= v)%Qc) vs -> forall v, In v vs -> (v <= total vs)%Qc.
Proof.
  induction 1 as [|w vs Hw H IH]; intros v Hv; [destruct Hv|]. cbn [total].
  assert (G : (q0 <= total vs)%Qc).
  { clear IH Hv. induction H as [|x xs Hx Hxs IHx]; cbn [total]; [apply Qcle_refl|]. generalize dependent (total xs). intros; qlra. }
  destruct Hv as [->|Hv]; [|specialize (IH v Hv)]; generalize dependent (total vs); intros; qlra.
Qed.
Lemma coverage_exact k l f t : (-1074 <= k)%Z -> disjoint_regions l -> (f < t)%Qc -> timed l (multiple k) -> multiple k f -> multiple k t -> (t - f < pow2 (53 + k))%Qc ->
  multiple k (covered_length l f t) /\ (q0 <= covered_length l f t)%Qc /\ (covered_length l f t <= t - f)%Qc /\
  f_coverage l f t = Ok (rnd (covered_length l f t / (t - f))).
Proof.
  intros Hk D L Ml Mf Mt B. destruct (f_coverage_eq l f t D L) as (ps & F & T & _ & E).
  assert (F1 : Forall (fun p => (q0 <= p)%Qc) ps) by (revert F; apply Forall_impl; intros p Hp; apply (piece_bounds l f t p _ Ml Mf Mt Hp)).
  assert (F2 : Forall (multiple k) ps).
  { revert F. apply Forall_impl. intros p Hp. destruct (piece_bounds l f t p _ Ml Mf Mt Hp) as (_ & a & b & -> & Ma & Mb). apply multiple_minus; assumption. }
  assert (U : (covered_length l f t <= t - f)%Qc).
  { destruct (disjoint_chain_ex l D) as [lo C]. rewrite covered_length_olen. apply (olen_le _ lo); [exact C|apply Qclt_le_weak; exact L]. }
  assert (Z : (q0 <= covered_length l f t)%Qc) by (rewrite covered_length_olen; apply olen_nonneg).
  split; [rewrite <- T; apply multiple_total; exact F2|split; [exact Z|split; [exact U|]]].
  assert (Small : forall v, multiple k v -> (q0 <= v)%Qc -> (v <= t - f)%Qc -> rnd v = v).
  { intros v Mv V0 V1. apply rnd_id, (multiple_double k v Hk Mv). apply real_le in V0, V1. apply real_lt in B. rewrite real_pow2 in B. rewrite real_0 in V0. rewrite Rabs_pos_eq by exact V0. lra. }
  assert (W : fsub t f = (t - f)%Qc) by (apply Small; [apply multiple_minus; assumption|qlra|qlra]).
  rewrite E by (rewrite W; apply pos_nz; qlra). rewrite W. f_equal. unfold fdiv. f_equal. f_equal.
  assert (R : map rnd ps = ps).
  { rewrite <- (map_id ps) at 2. apply map_ext_in. intros p Hp. apply Small; [rewrite Forall_forall in F2; apply F2; exact Hp|rewrite Forall_forall in F1; apply F1; exact Hp|].
    eapply Qcle_trans; [apply (nonneg_total ps F1 p Hp)|rewrite T; exact U]. }
  rewrite R, (exact_sum k ps Hk F2 q0 (multiple_0 k)), T; [apply real_inj; rewrite real_plus, real_0; ring|].
  rewrite real_0, Rabs_R0, (nonneg_absum ps F1), T. apply real_le in U. apply real_lt in B. rewrite real_pow2 in B. lra.
Qed.

Lemma fraction_extremes k C W : multiple k C -> multiple k W -> (q0 <= C)%Qc -> (C <= W)%Qc -> (q0 < W)%Qc -> (W < pow2 (53 + k))%Qc ->
  let c := rnd (C / W) in (q0 <= c)%Qc /\ (c <= q1)%Qc /\ (c = q1 <-> C = W) /\ (c = q0 <-> C = q0) /\ (C <> q0 -> (pow2 (-53) <= c)%Qc).
Proof.
  intros (zc & EC) (zw & EW) C0 CW W0 B c. assert (Wn : W <> q0) by (apply pos_nz; exact W0).
  assert (K : 0 < real (pow2 k)) by (rewrite real_pow2; apply bpow_gt_0).
  apply real_le in C0, CW. apply real_lt in W0, B. rewrite real_0 in *. rewrite real_pow2, bpow_plus, <- real_pow2, <- real_pow2 in B.
  assert (RC : real C = IZR zc * real (pow2 k)) by (rewrite EC, real_mult, real_qz; reflexivity).
  assert (RW : real W = IZR zw * real (pow2 k)) by (rewrite EW, real_mult, real_qz; reflexivity).
  rewrite RC, RW in *.
  assert (I1 : (0 <= zc)%Z) by (apply le_IZR; apply (Rmult_le_reg_r (real (pow2 k))); [exact K|lra]).
  assert (I2 : (zc <= zw)%Z) by (apply le_IZR; apply (Rmult_le_reg_r (real (pow2 k))); [exact K|lra]).
  assert (I3 : (0 < zw)%Z) by (apply lt_IZR; apply (Rmult_lt_reg_r (real (pow2 k))); [exact K|lra]).
  assert (I4 : IZR zw < 9007199254740992).
  { apply (Rmult_lt_reg_r (real (pow2 k))); [exact K|]. replace 9007199254740992 with (real (pow2 53)) by (rewrite real_pow2, <- two_IZR by lia; reflexivity). lra. }
  assert (X : real (C / W)%Qc = IZR zc / IZR zw).
  { rewrite real_div by exact Wn. rewrite RC, RW. apply IZR_lt in I3. field. split; lra. }
  apply IZR_lt in I3. assert (Iv : 0 < / IZR zw) by (apply Rinv_0_lt_compat; exact I3).
  assert (Iu : u <= / IZR zw) by (unfold u; apply Rinv_le_contravar; lra).
  assert (P53 : is_double (pow2 (-53))) by (exists 1%Z, (-53)%Z; split; [reflexivity|split; [discriminate|apply real_inj; rewrite real_mult, real_qz; ring]]).
  assert (Up : (C / W <= q1)%Qc).
  { apply real_le. rewrite X, real_1. apply IZR_le in I2. apply (Rmult_le_reg_r (IZR zw)); [exact I3|]. unfold Rdiv. rewrite Rmult_assoc, Rinv_l by lra. lra. }
  assert (Lo : (q0 <= C / W)%Qc).
  { apply real_le. rewrite X, real_0. apply Rmult_le_pos; [apply IZR_le; exact I1|lra]. }
  assert (c0 : (q0 <= c)%Qc) by (apply rnd_nonneg; exact Lo).
  assert (c1 : (c <= q1)%Qc) by (rewrite <- (rnd_id q1 double_1); apply rnd_mono; exact Up).
  assert (Big : C <> q0 -> (pow2 (-53) <= c)%Qc).
  { intros NC. rewrite <- (rnd_id _ P53). apply rnd_mono. apply real_le. rewrite X, real_pow2, u_bpow.
    assert (zc <> 0)%Z by (intros ->; apply NC; apply real_inj; rewrite RC, real_0; ring). assert (1 <= IZR zc) by (apply IZR_le; lia). unfold Rdiv. nra. }
  split; [exact c0|split; [exact c1|split; [|split; [|exact Big]]]].
  - split.
    + intros E. destruct (Z.eq_dec zc zw) as [->|N]; [rewrite EC, EW; reflexivity|]. exfalso.
      assert (Dd : is_double (q1 - pow2 (-53))%Qc).
      { exists (2 ^ 53 - 1)%Z, (-53)%Z. split; [reflexivity|split; [discriminate|]]. apply (real_eqb _ _). vm_compute. reflexivity. }
      assert (c <= q1 - pow2 (-53))%Qc.
      { rewrite <- (rnd_id _ Dd). apply rnd_mono. apply real_le. rewrite X, real_minus, real_1, real_pow2, u_bpow.
        assert (IZR zc <= IZR zw - 1) by (rewrite <- minus_IZR; apply IZR_le; lia).
        apply (Rmult_le_reg_r (IZR zw)); [exact I3|]. unfold Rdiv. rewrite Rmult_assoc, Rinv_l by lra. assert (u * IZR zw <= 1) by (apply (Rmult_le_compat_r (IZR zw)) in Iu; [|lra]; rewrite Rinv_l in Iu by lra; exact Iu). lra. }
      rewrite E in H. apply real_le in H. rewrite real_minus, real_1, real_pow2, u_bpow in H. pose proof u_pos. lra.
    + intros E. unfold c. replace (C / W)%Qc with q1; [apply rnd_id; exact double_1|]. apply real_inj. rewrite real_1, real_div, E by exact Wn. field. lra.
  - split.
    + intros E. destruct (Z.eq_dec zc 0) as [->|N]; [apply real_inj; rewrite RC, real_0; ring|]. exfalso.
      assert (NC : C <> q0). { intros Q. rewrite Q, real_0 in RC. symmetry in RC. apply Rmult_integral in RC. destruct RC as [RC|RC]; [apply N; apply eq_IZR; exact RC|lra]. }
      apply Big in NC. rewrite E in NC. apply real_le in NC. rewrite real_0, real_pow2, u_bpow in NC. pose proof u_pos. lra.
    + intros E. unfold c. replace (C / W)%Qc with q0; [apply rnd_id; exact double_0|]. apply real_inj. rewrite real_0, real_div, E, real_0 by exact Wn. unfold Rdiv. ring.
Qed.

(* what is missing *)
Lemma missing_extremes c : is_double c -> (q0 <= c)%Qc -> (c <= q1)%Qc -> (c <> q0 -> (pow2 (-53) <= c)%Qc) ->
  let d := fsub q1 c in (q0 <= d)%Qc /\ (d <= q1)%Qc /\ (d = q0 <-> c = q1) /\ (d = q1 <-> c = q0).
Proof.
  intros Dc C0 C1 Big d. split; [apply rnd_nonneg; qlra|]. split; [rewrite <- (rnd_id q1 double_1); apply rnd_mono; qlra|]. split; split; intros E.
  - destruct (Qc_eq_dec c q1) as [H|H]; [exact H|]. exfalso. assert (L : (c < q1)%Qc) by (apply Qcle_lt_or_eq in C1; destruct C1; [assumption|contradiction]).
    pose proof (fsub_pos c q1 Dc double_1 L) as P. fold d in P. rewrite E in P. apply Qclt_not_eq in P. apply P. reflexivity.
  - unfold d. rewrite E. apply fsub_self.
  - destruct (Qc_eq_dec c q0) as [H|H]; [exact H|]. exfalso. apply Big in H.
    assert (Dd : is_double (q1 - pow2 (-53))%Qc).
    { exists (2 ^ 53 - 1)%Z, (-53)%Z. split; [reflexivity|split; [discriminate|]]. apply (real_eqb _ _). vm_compute. reflexivity. }
    assert (K : (d <= q1 - pow2 (-53))%Qc) by (rewrite <- (rnd_id _ Dd); apply rnd_mono; qlra).
    rewrite E in K. apply real_le in K. rewrite real_minus, real_1, real_pow2, u_bpow in K. pose proof u_pos. lra.
  - unfold d, fsub. rewrite E. replace (q1 - q0)%Qc with q1; [apply rnd_id; exact double_1|]. qlra.
Qed.
Lemma missing_err c x g : is_double c -> 0 <= real x <= 1 -> 0 <= g -> Rabs (real c - real x) <= g * real x + eta ->
  Rabs (real (fsub q1 c) - (1 - real x)) <= ((1 + g) * (1 + u) - 1) + 2 * eta.
Proof.
  intros Dc (X0 & X1) G H. pose proof (sub_err q1 c double_1 Dc) as S. apply real_le in S. rewrite real_abs, !real_minus, real_mult, real_abs, real_minus, real_pow2, u_bpow, real_1 in S.
  pose proof u_pos as U. pose proof u_small as Us. pose proof eta_pos as Et. set (r := real (fsub q1 c)) in *. set (y := real x) in *. set (z := real c) in *.
  replace (r - (1 - y)) with ((r - (1 - z)) + (y - z)) by ring. eapply Rle_trans; [apply Rabs_triang|]. rewrite (Rabs_minus_sym y z).
  assert (A : Rabs (1 - z) <= (1 - y) + (g * y + eta)).
  { replace (1 - z) with ((1 - y) + - (z - y)) by ring. eapply Rle_trans; [apply Rabs_triang|]. rewrite Rabs_Ropp, (Rabs_pos_eq (1 - y)) by lra. lra. }
  assert (A2 : u * Rabs (1 - z) <= u * ((1 - y) + (g * y + eta))) by (apply Rmult_le_compat_l; lra).
  assert (A3 : g * y <= g) by nra. assert (A4 : u * eta <= eta) by nra. assert (A5 : u * (g * y) <= u * g) by nra. assert (0 <= u * y) by nra. nra.
Qed.

Lemma f_previous_none si f t l : (forall p, In p l -> prior_loss p = q0) -> f_previous_losses si f t l = Ok q0.
Proof.
  intros H. unfold f_previous_losses. induction l as [|p l IH]; [reflexivity|]. cbn [foldM].
  assert (E : f_loss_contribution si f t p = Ok q0).
  { specialize (H p (or_introl eq_refl)). unfold prior_loss in H. unfold f_loss_contribution. destruct (data_loss (vp_item p)) as [d|]; [|reflexivity]. rewrite H, qeqb_refl. reflexivity. }
  rewrite E. cbn [bind]. rewrite (fadd_0 q0 double_0). apply IH. intros; apply H; right; assumption.
Qed.
Lemma f_loss_none l has_res force f t si auto c : si <> q0 -> (forall p, In p l -> prior_loss p = q0) -> f_coverage l f t = Ok c ->
  f_compute_data_loss l has_res force f t (Some si) auto = Ok (fsub q1 c).
Proof.
  intros Hs Hp E. unfold f_compute_data_loss, interval_or. rewrite qeqb_false by exact Hs. cbn [bind]. rewrite E. cbn [bind].
  assert (P : (if has_res || force then f_previous_losses si f t l else Ok q0) = Ok q0) by (destruct (has_res || force); [apply f_previous_none; exact Hp|reflexivity]).
  rewrite P. cbn [bind]. f_equal. unfold fadd. replace (fsub q1 c + q0)%Qc with (fsub q1 c) by (generalize (fsub q1 c); intros; qlra). apply rnd_id, rnd_double.
Qed.
