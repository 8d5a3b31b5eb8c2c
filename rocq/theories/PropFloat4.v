(* PropFloat4.v -- property theorems C94 (cumulative sums, differences and moving averages of floats) and C95 (offsets and rescaling of floats). *)
From Coq Require Import Reals.
From Flocq Require Import Core.
From Verif Require Import Base BaseLemmas Items Series SpecSeries SpecAccess SpecOps SpecIntervals SeriesProofs AccessProofs DictLemmas AccessProofs3 OpsProofs OpsProofs2 OpsProofs3 OpsProofs4 OpsProofs5 OpsProofs6 OpsProofs7 OpsProofs10 Float FloatOps SpecFloat FloatProofs FloatProofs2 FloatProofs3 FloatProofs4 FloatProofs5 FloatProofs7 FloatProofs8 Periodicity Witness PropTactics PropOps PropOps2 PropFloat2.
From Coq Require Import Lra.
Local Close Scope R_scope.
Local Open Scope nat_scope.

(* ===================== C94 ===================== *)
Lemma sub_values l m lb vs : numeric l -> (forall x, In x m -> In x l) -> label_in l lb -> column lb m vs -> vs = map (fun x => valof x lb) m.
Proof. intros N H L C. apply (column_fun lb m vs); [|exact C]. intros z Hz. apply (label_all l lb z N L (H z Hz)). Qed.
Lemma in_label s i x lb : nth_error (s_items s) i = Some x -> has_label x lb -> label_in (s_items s) lb.
Proof. intros H L. exists x. split; [apply nth_error_In in H; exact H|exact L]. Qed.
Lemma firstn_sub {A} n (l : list A) x : In x (firstn n l) -> In x l. Proof. apply In_firstn. Qed.

(* Each value of the cumulative sum is the sum of the values up to there, but for the roundings ... *)
Theorem C94_csum_error : forall e s, parses_units e -> healthy e s -> resolution s <> Some RVar ->
  exists r, f_op_csum e s = Ok r /\ healthy e r /\ length (s_items r) = length (s_items s) /\
    forall i x y, nth_error (s_items s) i = Some x -> nth_error (s_items r) i = Some y ->
      in_place_of x y /\
      values_near x y "csum" (fun lb w => forall vs, column lb (firstn (S i) (s_items s)) vs -> Forall is_double vs ->
        is_double w /\ (qabs (w - total vs) <= grow i * total (map qabs vs))%Qc).
Proof.
  intros e s He (H & N & W) Hr. destruct (f_csum_spec e s He H N W Hr) as (r & E & F1 & F2 & F3 & F4 & _ & F5).
  exists r. split; [exact E|split; [split; [apply fresh_history; assumption|auto]|split; [exact F4|]]]. intros i x y Hx Hy.
  destruct (F5 i x y Hx Hy) as (S1 & S2 & S3). split; [split; assumption|]. apply (near_of_by _ _ _ _ _ S3). intros lb Hl vs Hc D.
  rewrite (sub_values (s_items s) _ lb vs N (firstn_sub _ _) (in_label s i x lb Hx Hl) Hc) in *. destruct (sum_err_q _ D) as (D1 & D2). split; [exact D1|].
  rewrite map_length, firstn_length, Nat.min_l in D2 by (apply nth_error_Some_lt in Hx; lia). rewrite Nat.sub_succ, Nat.sub_0_r in D2. exact D2.
Qed.
Print Assumptions C94_csum_error.

(* ... it is exact for multiples of a power of two, while there are less than 2^53 units ... *)
Theorem C94_csum_exact : forall e s k, parses_units e -> healthy e s -> resolution s <> Some RVar -> (-1074 <= k)%Z ->
  exists r, f_op_csum e s = Ok r /\
    forall i x y, nth_error (s_items s) i = Some x -> nth_error (s_items r) i = Some y ->
      values_near x y "csum" (fun lb w => forall vs, column lb (firstn (S i) (s_items s)) vs -> Forall (multiple k) vs ->
        (total (map qabs vs) < pow2 (53 + k))%Qc -> w = total vs).
Proof.
  intros e s k He (H & N & W) Hr Hk. destruct (f_csum_spec e s He H N W Hr) as (r & E & F1 & F2 & F3 & F4 & _ & F5).
  exists r. split; [exact E|]. intros i x y Hx Hy.
  destruct (F5 i x y Hx Hy) as (S1 & S2 & S3). apply (near_of_by _ _ _ _ _ S3). intros lb Hl vs Hc M T.
  rewrite (sub_values (s_items s) _ lb vs N (firstn_sub _ _) (in_label s i x lb Hx Hl) Hc) in *. unfold f_psum. rewrite (exact_sum k _ Hk M q0 (multiple_0 k)).
  - apply Qcplus_0_l.
  - apply real_lt in T. rewrite real_pow2 in T. rewrite real_0, Rabs_R0. unfold absum. lra.
Qed.
Print Assumptions C94_csum_exact.

(* ... the last value is, to the last digit, the sum of the series ... *)
Theorem C94_last_is_sum : forall e s, parses_units e -> healthy e s -> resolution s <> Some RVar ->
  exists r m x y, f_op_csum e s = Ok r /\ f_op_sum s = Ok m /\
    last_item (s_items s) = Some x /\ last_item (s_items r) = Some y /\
    forall lb v, dget lb m = Some v -> has_value y (named x "csum" lb) v.
Proof.
  intros e s He (H & N & W) Hr. destruct (f_csum_spec e s He H N W Hr) as (r & R1 & R2 & R3 & R4 & R5 & _ & R6).
  destruct (f_sum_spec e s H N) as (m & M1 & M2 & M3).
  assert (G : forall l : list item, l <> [] -> exists x, last_item l = Some x /\ nth_error l (length l - 1) = Some x).
  { intros l Hl. unfold last_item. destruct l as [|a l _] using rev_ind; [congruence|]. rewrite rev_unit. exists a. split; [reflexivity|].
    rewrite app_length. cbn. rewrite nth_error_app2 by lia. replace (length l + 1 - 1 - length l) with 0 by lia. reflexivity. }
  destruct (G (s_items s)) as (x & X1 & X2); [apply N|]. destruct (G (s_items r)) as (y & Y1 & Y2); [apply R3|].
  exists r, m, x, y. split; [exact R1|split; [exact M1|split; [exact X1|split; [exact Y1|]]]]. intros lb v Hm.
  rewrite R5 in Y2. destruct (R6 _ x y X2 Y2) as (_ & _ & V). apply V.
  assert (Hlb : label_in (s_items s) lb).
  { apply M2. clear - Hm. induction m as [|[k a] m IH]; cbn in *; [discriminate|]. destruct (String.eqb_spec lb k); [left; congruence|right; auto]. }
  assert (All : forall z, In z (s_items s) -> numeric_item z /\ has_label z lb) by (intros z Hz; apply (label_all _ lb z N Hlb Hz)).
  exists lb. split; [apply (All x (nth_error_In _ _ X2))|]. split; [reflexivity|].
  rewrite (M3 lb v Hm _ (column_map lb _ (fun z Hz => proj1 (All z Hz)) (fun z Hz => proj2 (All z Hz)))).
  unfold f_psum. rewrite firstn_all2 by lia. reflexivity.
Qed.
Print Assumptions C94_last_is_sum.

Lemma fadd_up a v : is_double a -> (q0 <= v)%Qc -> (a <= fadd a v)%Qc.
Proof. intros D V. rewrite <- (rnd_id a D) at 1. apply rnd_mono. qlra. Qed.
Lemma psum_double l i lb : is_double (f_psum l i lb).
Proof.
  unfold f_psum. destruct (map _ _) as [|v vs] using rev_ind; [exact double_0|]. rewrite fold_left_app. apply rnd_double.
Qed.
(* ... and it never decreases while the values are not negative. *)
Theorem C94_csum_increases : forall e s, parses_units e -> healthy e s -> resolution s <> Some RVar ->
  exists r, f_op_csum e s = Ok r /\
    forall i x x' y y' lb w w' v, nth_error (s_items s) i = Some x -> nth_error (s_items s) (S i) = Some x' ->
      nth_error (s_items r) i = Some y -> nth_error (s_items r) (S i) = Some y' -> has_label x lb ->
      has_value y (named x "csum" lb) w -> has_value y' (named x' "csum" lb) w' -> has_value x' lb v -> (q0 <= v)%Qc -> (w <= w')%Qc.
Proof.
  intros e s He (H & N & W) Hr. destruct (f_csum_spec e s He H N W Hr) as (r & R1 & R2 & R3 & R4 & R5 & _ & R6). exists r. split; [exact R1|].
  intros i x x' y y' lb w w' v Hx Hx' Hy Hy' Hl Hw Hw' Hv V0.
  destruct (R6 i x y Hx Hy) as (_ & _ & S3). destruct (R6 (S i) x' y' Hx' Hy') as (_ & _ & S3').
  apply S3 in Hw. destruct Hw as (lb1 & _ & E1 & ->). apply named_inj in E1. subst lb1.
  apply S3' in Hw'. destruct Hw' as (lb1 & Hl' & E1 & ->). apply named_inj in E1. subst lb1.
  rewrite (f_psum_S (s_items s) (S i)) by (apply nth_error_Some_lt in Hx'; exact Hx').
  apply fadd_up; [apply psum_double|]. unfold nval. rewrite Hx'. rewrite (valof_spec x' lb v); [exact V0| |exact Hv]. apply N. apply nth_error_In in Hx'. exact Hx'.
Qed.
Print Assumptions C94_csum_increases.

(* Each difference has a single rounding, and the right sign; it is exact between values of the same size. *)
Theorem C94_diff : forall e s, parses_units e -> healthy e s -> resolution s <> Some RVar -> 2 <= length (s_items s) -> of_doubles (s_items s) ->
  exists r, f_op_diff e s = Ok r /\ healthy e r /\ length (s_items r) = length (s_items s) - 1 /\
    forall i x x' y, nth_error (s_items s) i = Some x -> nth_error (s_items s) (S i) = Some x' -> nth_error (s_items r) i = Some y ->
      in_place_of x' y /\
      values_near x' y "diff" (fun lb w => forall a b, has_value x lb a -> has_value x' lb b ->
        is_double w /\ (qabs (w - (b - a)) <= pow2 (-53) * qabs (b - a))%Qc /\
        ((q0 < w)%Qc <-> (a < b)%Qc) /\ (w = q0 <-> a = b) /\ (same_age a b -> w = (b - a)%Qc)).
Proof.
  intros e s He (H & N & W) Hr Hn Dv. destruct (f_diff_spec e s He H N W Hr Hn) as (r & R1 & R2 & R3 & R4 & R5 & R6).
  exists r. split; [exact R1|split; [split; [apply fresh_history; assumption|auto]|split; [exact R5|]]]. intros i x x' y Hx Hx' Hy.
  destruct (R6 i x' y Hx' Hy) as (S1 & S2 & S3). split; [split; assumption|]. apply (near_of_by _ _ _ _ _ S3). intros lb Hl a b Ha Hb.
  pose proof (nth_error_In _ _ Hx) as Ix. pose proof (nth_error_In _ _ Hx') as Ix'. destruct N as (_ & N & _).
  unfold nval. cbn [Nat.add]. rewrite Hx, Hx', (valof_spec x lb a (N x Ix) Ha), (valof_spec x' lb b (N x' Ix') Hb).
  pose proof (Dv x lb a Ix Ha) as Da. pose proof (Dv x' lb b Ix' Hb) as Db.
  split; [apply rnd_double|split; [apply sub_err; assumption|split; [split|split; [split|]]]].
  - intros P. destruct (Qclt_le_dec a b) as [L|L]; [exact L|]. exfalso. assert (K : (fsub b a <= q0)%Qc) by (rewrite <- (fsub_self a); apply fsub_mono; exact L). apply (Qclt_not_le _ _ P K).
  - apply fsub_pos; assumption.
  - intros Z. destruct (Q_dec a b) as [[L|L]|L].
    + exfalso. pose proof (fsub_pos a b Da Db L) as P. rewrite Z in P. apply Qclt_not_eq in P. apply P. reflexivity.
    + exfalso. pose proof (fsub_pos b a Db Da L) as P. assert (K : fsub a b = Qcopp (fsub b a)) by (unfold fsub; rewrite <- rnd_opp; f_equal; ring).
      rewrite K, Z in P. apply (Qclt_not_eq _ _ P). reflexivity.
    + apply Qc_is_canon. exact L.
  - intros ->. apply fsub_self.
  - intros A. apply sterbenz_exact; assumption.
Qed.
Print Assumptions C94_diff.

(* The moving average: within the roundings of the mean of the window ... *)
Theorem C94_mavg_error : forall e s w, parses_units e -> healthy e s -> 1 <= w <= length (s_items s) ->
  exists r, f_op_mavg e s (Z.of_nat w) = Ok r /\ healthy e r /\ length (s_items r) = length (s_items s) - w + 1 /\
    forall i x y, nth_error (s_items s) (w - 1 + i) = Some x -> nth_error (s_items r) i = Some y ->
      same_time x y /\
      values_near x y ("mavg_" ++ nat_str w) (fun lb v => forall vs, column lb (firstn w (skipn i (s_items s))) vs -> Forall is_double vs ->
        is_double v /\ (qabs (v - mean vs) <= grow w * mean (map qabs vs) + pow2 (-1075))%Qc).
Proof.
  intros e s w He (H & N & W) Hw. destruct (f_mavg_spec e s w He H N W Hw) as (r & R1 & R2 & R3 & R4 & R5 & R6).
  exists r. split; [exact R1|split; [split; [apply fresh_history; assumption|auto]|split; [lia|]]]. intros i x y Hx Hy.
  destruct (R6 i x y Hx Hy) as (S1 & S2 & S3). split; [exact S1|]. apply (near_of_by _ _ _ _ _ S3). intros lb Hl vs Hc D. split; [apply rnd_double|].
  pose proof (nth_error_Some_lt _ _ _ Hx) as Hlt. unfold f_window. rewrite map_nval_window by lia.
  rewrite <- (sub_values (s_items s) _ lb vs N (fun z Hz => In_skipn _ _ _ (In_firstn _ _ _ Hz)) (in_label s _ x lb Hx Hl) Hc).
  assert (Len : length vs = w) by (pose proof (proj1 (Forall2_nth_inv _ _ _ Hc)) as K; rewrite firstn_length, skipn_length in K; lia).
  rewrite <- Len. apply avg_err_q; [exact D|]. intros ->. cbn in Len. lia.
Qed.
Print Assumptions C94_mavg_error.

(* ... the nearest to it, and between the smallest and the largest value of the window, for multiples of a power of two. *)
Theorem C94_mavg_exact : forall e s w k, parses_units e -> healthy e s -> 1 <= w <= length (s_items s) -> (-1074 <= k)%Z ->
  exists r, f_op_mavg e s (Z.of_nat w) = Ok r /\
    forall i x y, nth_error (s_items s) (w - 1 + i) = Some x -> nth_error (s_items r) i = Some y ->
      values_near x y ("mavg_" ++ nat_str w) (fun lb v => forall vs, column lb (firstn w (skipn i (s_items s))) vs -> Forall (multiple k) vs ->
        (total (map qabs vs) < pow2 (53 + k))%Qc ->
        closest (mean vs) v /\ forall lo hi, Forall (fun z => (lo <= z)%Qc /\ (z <= hi)%Qc) vs -> is_double lo -> is_double hi -> (lo <= v)%Qc /\ (v <= hi)%Qc).
Proof.
  intros e s w k He (H & N & W) Hw Hk. destruct (f_mavg_spec e s w He H N W Hw) as (r & R1 & R2 & R3 & R4 & R5 & R6).
  exists r. split; [exact R1|]. intros i x y Hx Hy.
  destruct (R6 i x y Hx Hy) as (S1 & S2 & S3). apply (near_of_by _ _ _ _ _ S3). intros lb Hl vs Hc M T.
  pose proof (nth_error_Some_lt _ _ _ Hx) as Hlt. unfold f_window. rewrite map_nval_window by lia.
  rewrite <- (sub_values (s_items s) _ lb vs N (fun z Hz => In_skipn _ _ _ (In_firstn _ _ _ Hz)) (in_label s _ x lb Hx Hl) Hc).
  assert (Len : length vs = w) by (pose proof (proj1 (Forall2_nth_inv _ _ _ Hc)) as K; rewrite firstn_length, skipn_length in K; lia).
  assert (E : fdiv (fold_left fadd vs q0) (qn w) = rnd (mean vs)).
  { unfold fdiv, mean. rewrite (exact_sum k vs Hk M q0 (multiple_0 k)); [rewrite Qcplus_0_l, Len; reflexivity|].
    apply real_lt in T. rewrite real_pow2 in T. rewrite real_0, Rabs_R0. unfold absum. lra. }
  rewrite E. split; [apply rnd_closest|]. intros lo hi B Dl Dh. destruct (mean_in vs lo hi) as [B1 B2]; [intros ->; cbn in Len; lia|rewrite Forall_forall in B; exact B|].
  split; [rewrite <- (rnd_id lo Dl)|rewrite <- (rnd_id hi Dh)]; apply rnd_mono; assumption.
Qed.
Print Assumptions C94_mavg_exact.

(* The differences of the cumulative sum are the values again, for multiples of a power of two ... *)
Theorem C94_diff_of_csum_exact : forall e s k, parses_units e -> healthy e s -> resolution s <> Some RVar -> 2 <= length (s_items s) -> (-1074 <= k)%Z ->
  exists r1, f_op_csum e s = Ok r1 /\ (resolution r1 <> Some RVar -> exists r2, f_op_diff e r1 = Ok r2 /\
    forall i x y, nth_error (s_items s) (S i) = Some x -> nth_error (s_items r2) i = Some y ->
      same_time x y /\
      forall lb w v, has_value y (named x "diff" (named x "csum" lb)) w -> has_value x lb v ->
        (forall vs, column lb (s_items s) vs -> Forall (multiple k) vs /\ (total (map qabs vs) < pow2 (53 + k))%Qc) -> w = v).
Proof.
  intros e s k He (H & N & W) Hr Hn Hk. destruct (f_csum_spec e s He H N W Hr) as (r & R1 & R2 & R3 & R4 & R5 & _ & R6). exists r. split; [exact R1|]. intros Hr1.
  destruct (f_diff_spec e r He (fresh_history _ _ R2 R3) R3 R4 Hr1) as (r2 & D1 & D2 & D3 & D4 & D5 & D6); [lia|]. exists r2. split; [exact D1|].
  intros i x y Hx Hy. pose proof (nth_error_Some_lt _ _ _ Hx) as Hi.
  destruct (nth_error (s_items r) (S i)) as [z|] eqn:Hz; [|apply nth_error_None in Hz; lia].
  destruct (nth_error (s_items r) i) as [z0|] eqn:Hz0; [|apply nth_error_None in Hz0; lia].
  destruct (nth_error (s_items s) i) as [x0|] eqn:Hx0; [|apply nth_error_None in Hx0; lia].
  destruct (R6 (S i) x z Hx Hz) as (A1 & _ & A3). destruct (R6 i x0 z0 Hx0 Hz0) as (_ & _ & B3). destruct (D6 i z y Hz Hy) as (C1 & _ & C3).
  assert (Time : same_time x y) by (revert A1 C1; unfold same_time; intros; intuition congruence). split; [exact Time|].
  intros lb w v Hw Hv M. assert (Nx : named z "diff" (named x "csum" lb) = named x "diff" (named x "csum" lb)).
  { destruct A3 as (K & _). unfold is_list, named in *. destruct (i_data z) as [[?|?]|], (i_data x) as [[?|?]|]; try reflexivity; discriminate. }
  rewrite <- Nx in Hw. apply C3 in Hw. destruct Hw as (lb1 & _ & E1 & ->). apply named_inj in E1. subst lb1.
  assert (Hl : label_in (s_items s) lb) by (apply (in_label s (S i) x lb Hx); exists v; exact Hv).
  assert (All : forall q, In q (s_items s) -> numeric_item q /\ has_label q lb) by (intros q Hq; apply (label_all _ lb q N Hl Hq)).
  assert (V : forall j q t, nth_error (s_items s) j = Some q -> nth_error (s_items r) j = Some t -> nval (s_items r) j (named x "csum" lb) = f_psum (s_items s) (S j) lb).
  { intros j q t Hq Ht. destruct (R6 j q t Hq Ht) as (_ & _ & Q3). unfold nval. rewrite Ht. apply valof_spec; [apply R3; apply nth_error_In in Ht; exact Ht|]. apply Q3. exists lb.
    split; [apply (All q (nth_error_In _ _ Hq))|split; [|reflexivity]]. assert (K : same_item_shape q x) by (apply N; [apply nth_error_In in Hq; exact Hq|apply nth_error_In in Hx; exact Hx]).
    symmetry. apply named_kind. destruct K as [_ K]. unfold is_list. destruct (i_data q) as [[]|], (i_data x) as [[]|]; cbn in K; try contradiction; reflexivity. }
  cbn [Nat.add]. rewrite (V (S i) x z Hx Hz), (V i x0 z0 Hx0 Hz0).
  destruct (M _ (column_map lb _ (fun q Hq => proj1 (All q Hq)) (fun q Hq => proj2 (All q Hq)))) as (M1 & M2).
  assert (P : forall j, j <= length (s_items s) -> f_psum (s_items s) j lb = psum (s_items s) j lb).
  { intros j Hj. unfold f_psum, psum. rewrite <- firstn_map. set (vs := map (fun x1 => valof x1 lb) (s_items s)) in *. rewrite (exact_sum k (firstn j vs) Hk).
    - apply Qcplus_0_l.
    - rewrite Forall_forall in M1 |- *. intros q Hq. apply M1. apply In_firstn in Hq. exact Hq.
    - apply multiple_0.
    - apply real_lt in M2. rewrite real_pow2 in M2. rewrite real_0, Rabs_R0. fold (absum vs) in M2. assert (K : (absum (firstn j vs) <= absum vs)%R).
      { rewrite <- (firstn_skipn j vs) at 2. generalize (firstn j vs) (skipn j vs). clear. induction l as [|a l IH]; intros m; cbn [app]; [unfold absum at 1; cbn; rewrite real_0; apply absum_pos|rewrite !absum_cons; specialize (IH m); lra]. }
      lra. }
  rewrite !P by lia. rewrite (psum_S (s_items s) (S i)) by exact Hi. unfold fsub.
  assert (Nv : nval (s_items s) (S i) lb = v) by (unfold nval; rewrite Hx; apply valof_spec; [apply All; apply nth_error_In in Hx; exact Hx|exact Hv]). rewrite Nv.
  replace (psum (s_items s) (S i) lb + v - psum (s_items s) (S i) lb)%Qc with v by ring. apply rnd_id.
  assert (Iv : In v (map (fun x1 => valof x1 lb) (s_items s))).
  { apply in_map_iff. exists x. split; [rewrite <- Nv; unfold nval; rewrite Hx; reflexivity|apply nth_error_In in Hx; exact Hx]. }
  apply (multiple_double k); [exact Hk|rewrite Forall_forall in M1; apply M1; exact Iv|]. apply real_lt in M2. rewrite real_pow2 in M2. eapply Rle_lt_trans; [|exact M2].
  fold (absum (map (fun x1 => valof x1 lb) (s_items s))). clear - Iv. induction (map (fun x1 => valof x1 lb) (s_items s)) as [|a l IH]; [destruct Iv|]. rewrite absum_cons.
  pose proof (absum_pos l). pose proof (Rabs_pos (real a)). destruct Iv as [->|Iv]; [|specialize (IH Iv)]; lra.
Qed.
Print Assumptions C94_diff_of_csum_exact.

(* ... but not in general: of 0.1, 0.2 and 0.3 the second comes back as 0.20000000000000004. *)
Theorem C94_diff_of_csum_refuted : let vs := [rnd (qfrac 1 10); rnd (qfrac 2 10); rnd (qfrac 3 10)] in
  exists r1 r2 y w, f_op_csum ideal_env (signal vs) = Ok r1 /\ f_op_diff ideal_env r1 = Ok r2 /\ nth_error (s_items r2) 0 = Some y /\
    has_value y "value_csum_diff" w /\ (rnd (qfrac 2 10) < w)%Qc.
Proof.
  intros vs. set (a := f_op_csum ideal_env (signal vs)). set (b := match a with Ok r1 => f_op_diff ideal_env r1 | Err x => Err x end).
  assert (K : match b with Ok r2 => match s_items r2 with y :: _ => match i_data y with Some (DDict [(lb, w)]) => String.eqb lb "value_csum_diff" && qltb (rnd (qfrac 2 10)) w | _ => false end | [] => false end | Err _ => false end = true) by (vm_compute; reflexivity).
  unfold b in K. clear b. destruct a as [r1|] eqn:A; [|discriminate]. destruct (f_op_diff ideal_env r1) as [r2|] eqn:B; [|discriminate].
  destruct (s_items r2) as [|y ys] eqn:Ey; [discriminate|]. destruct (i_data y) as [[|[|[lb w] [|]]]|] eqn:Ed; try discriminate. apply andb_prop in K. destruct K as [K1 K2]. apply String.eqb_eq in K1. subst lb.
  exists r1, r2, y, w. split; [reflexivity|split; [exact B|split; [rewrite Ey; reflexivity|split; [|apply qltb_lt; exact K2]]]]. unfold has_value. rewrite Ed. left. reflexivity.
Qed.
Print Assumptions C94_diff_of_csum_refuted.

(* And a moving average may be above every value of the window: that of 0.1, 0.1 and 0.1 is above 0.1. *)
Theorem C94_mavg_refuted : let v := rnd (qfrac 1 10) in
  exists r y w, f_op_mavg ideal_env (signal [v; v; v]) 3 = Ok r /\ nth_error (s_items r) 0 = Some y /\ has_value y "value_mavg_3" w /\ (v < w)%Qc.
Proof.
  intros v. set (b := f_op_mavg ideal_env (signal [v; v; v]) 3).
  assert (K : match b with Ok r2 => match s_items r2 with y :: _ => match i_data y with Some (DDict [(lb, w)]) => String.eqb lb "value_mavg_3" && qltb v w | _ => false end | [] => false end | Err _ => false end = true) by (vm_compute; reflexivity).
  destruct b as [r2|] eqn:B; [|discriminate].
  destruct (s_items r2) as [|y ys] eqn:Ey; [discriminate|]. destruct (i_data y) as [[|[|[lb w] [|]]]|] eqn:Ed; try discriminate. apply andb_prop in K. destruct K as [K1 K2]. apply String.eqb_eq in K1. subst lb.
  exists r2, y, w. split; [reflexivity|split; [rewrite Ey; reflexivity|split; [|apply qltb_lt; exact K2]]]. unfold has_value. rewrite Ed. left. reflexivity.
Qed.
Print Assumptions C94_mavg_refuted.

Example C94_nonvacuous : let vs := [qz 3; qz 1; qz 4] in
  healthy ideal_env (signal vs) /\ resolution (signal vs) <> Some RVar /\ 2 <= length (s_items (signal vs)) /\
  (forall ws, column "value" (s_items (signal vs)) ws -> Forall (multiple 0) ws /\ (total (map qabs ws) < pow2 (53 + 0))%Qc) /\
  (exists r1, f_op_csum ideal_env (signal vs) = Ok r1 /\ resolution r1 <> Some RVar).
Proof.
  intros vs. split; [apply signal_healthy; discriminate|split; [vm_compute; discriminate|split; [vm_compute; lia|split]]].
  - intros ws Hc. rewrite (signal_unique _ _ Hc). split; [|apply qltb_lt; vm_compute; reflexivity].
    constructor; [exists 3%Z|constructor; [exists 1%Z|constructor; [exists 4%Z|constructor]]]; apply qeqb_eq; vm_compute; reflexivity.
  - eexists. split; [vm_compute; reflexivity|vm_compute; discriminate].
Qed.

(* ===================== C95 ===================== *)
Definition g_offset (k : konst) (lb : string) (v : Qc) : Qc := match f_offset_value k lb v with Ok w => w | Err _ => v end.
Definition g_rescale (k : konst) (lb : string) (v : Qc) : Qc := match f_rescale_value k lb v with Ok w => w | Err _ => v end.
Lemma g_offset_eq k lb v : is_double v -> g_offset k lb v = fadd v (setting k q0 lb).
Proof.
  intros D. unfold g_offset, f_offset_value, setting. destruct k as [q|d]; [reflexivity|]. destruct (dget lb d); [reflexivity|]. unfold fadd.
  replace (v + q0)%Qc with v by (rewrite q0_eq; ring). symmetry. apply rnd_id, D.
Qed.
Lemma g_rescale_eq k lb v : is_double v -> g_rescale k lb v = fmul v (setting k q1 lb).
Proof.
  intros D. unfold g_rescale, f_rescale_value, setting. destruct k as [q|d]; [reflexivity|]. destruct (dget lb d); [reflexivity|]. unfold fmul.
  replace (v * q1)%Qc with v by (rewrite q1_eq; ring). symmetry. apply rnd_id, D.
Qed.
Lemma exact_of_closest x y : closest x y -> is_double x -> y = x.
Proof.
  intros (_ & H) D. specialize (H x D). apply real_le in H. rewrite !real_abs, !real_minus in H. replace (real x - real x)%R with 0%R in H by ring. rewrite Rabs_R0 in H.
  apply real_inj. pose proof (Rabs_pos (real x - real y)). assert (E : Rabs (real x - real y) = 0%R) by lra. apply Rabs_eq_R0 in E. lra.
Qed.
Lemma derived_doubles l m g : Forall2 (fun x y => in_place_of x y /\ derived x y g) l m -> of_doubles l -> (forall lb v, is_double v -> is_double (g lb v)) -> of_doubles m.
Proof.
  intros H D G. induction H as [|x y l m [_ Hd] H IH]; intros z lb v Hz Hv; [destruct Hz|]. destruct Hz as [<- |Hz].
  - apply Hd in Hv. destruct Hv as (w & Hw & ->). apply G. apply (D x lb w); [left; reflexivity|exact Hw].
  - apply (IH (fun q l1 w Hq Hw => D q l1 w (or_intror Hq) Hw) z lb v Hz Hv).
Qed.

(* Each value of the offset series is the double nearest to v + c; so is within 2^-53 of it, relatively; the order is kept; exact results are exact. *)
Theorem C95_offset : forall e s k, parses_units e -> healthy e s -> of_doubles (s_items s) -> (forall lb, is_double (setting k q0 lb)) ->
  exists r g, f_op_offset e s k = Ok r /\ healthy e r /\ of_doubles (s_items r) /\
    Forall2 (fun x y => in_place_of x y /\ derived x y g) (s_items s) (s_items r) /\
    forall lb v, is_double v -> closest (v + setting k q0 lb) (g lb v) /\
      (qabs (g lb v - (v + setting k q0 lb)) <= pow2 (-53) * qabs (v + setting k q0 lb))%Qc /\
      (is_double (v + setting k q0 lb) -> g lb v = (v + setting k q0 lb)%Qc) /\
      (forall w, is_double w -> (v <= w)%Qc -> (g lb v <= g lb w)%Qc).
Proof.
  intros e s k He (H & N & W) D Dk. destruct (pointwise_spec e s (f_offset_value k) (g_offset k) He H N W) as (r & R1 & R2 & R3 & R4 & R5).
  { intros lb v _. unfold g_offset. unfold f_offset_value. destruct k as [q|d]; [reflexivity|]. destruct (dget lb d); reflexivity. }
  assert (F : Forall2 (fun x y => in_place_of x y /\ derived x y (g_offset k)) (s_items s) (s_items r)).
  { revert R5. apply Forall2_impl. intros x y _ (S1 & S2 & Dv). split; [split; assumption|exact Dv]. }
  exists r, (g_offset k). split; [exact R1|split; [split; [apply fresh_history; assumption|auto]|split; [|split; [exact F|]]]].
  - apply (derived_doubles _ _ _ F D). intros lb v Hv. rewrite g_offset_eq by exact Hv. apply rnd_double.
  - intros lb v Hv. rewrite g_offset_eq by exact Hv. assert (C : closest (v + setting k q0 lb) (fadd v (setting k q0 lb))) by apply rnd_closest.
    split; [exact C|split; [apply add_err; [exact Hv|apply Dk]|split; [apply exact_of_closest, C|]]].
    intros w Hw L. rewrite g_offset_eq by exact Hw. apply fadd_mono, L.
Qed.
Print Assumptions C95_offset.

Theorem C95_rescale : forall e s k, parses_units e -> healthy e s -> of_doubles (s_items s) -> (forall lb, is_double (setting k q1 lb)) ->
  exists r g, f_op_rescale e s k = Ok r /\ healthy e r /\ of_doubles (s_items r) /\
    Forall2 (fun x y => in_place_of x y /\ derived x y g) (s_items s) (s_items r) /\
    forall lb v, is_double v -> closest (v * setting k q1 lb) (g lb v) /\
      (qabs (g lb v - v * setting k q1 lb) <= pow2 (-53) * qabs (v * setting k q1 lb) + pow2 (-1075))%Qc /\
      (is_double (v * setting k q1 lb) -> g lb v = (v * setting k q1 lb)%Qc) /\
      (forall w, is_double w -> (v <= w)%Qc -> ((q0 <= setting k q1 lb)%Qc -> (g lb v <= g lb w)%Qc) /\ ((setting k q1 lb <= q0)%Qc -> (g lb w <= g lb v)%Qc)).
Proof.
  intros e s k He (H & N & W) D Dk. destruct (pointwise_spec e s (f_rescale_value k) (g_rescale k) He H N W) as (r & R1 & R2 & R3 & R4 & R5).
  { intros lb v _. unfold g_rescale, f_rescale_value. destruct k as [q|d]; [reflexivity|]. destruct (dget lb d); reflexivity. }
  assert (F : Forall2 (fun x y => in_place_of x y /\ derived x y (g_rescale k)) (s_items s) (s_items r)).
  { revert R5. apply Forall2_impl. intros x y _ (S1 & S2 & Dv). split; [split; assumption|exact Dv]. }
  exists r, (g_rescale k). split; [exact R1|split; [split; [apply fresh_history; assumption|auto]|split; [|split; [exact F|]]]].
  - apply (derived_doubles _ _ _ F D). intros lb v Hv. rewrite g_rescale_eq by exact Hv. apply rnd_double.
  - intros lb v Hv. rewrite g_rescale_eq by exact Hv. assert (C : closest (v * setting k q1 lb) (fmul v (setting k q1 lb))) by apply rnd_closest.
    split; [exact C|split; [apply rnd_err|split; [apply exact_of_closest, C|]]].
    intros w Hw L. rewrite g_rescale_eq by exact Hw. split; intros Z; [apply fmul_mono; assumption|]. apply rnd_mono.
    apply real_le in L, Z. rewrite real_0 in Z. apply real_le. rewrite !real_mult. nra.
Qed.
Print Assumptions C95_rescale.

Lemma two_steps_vals (l m n : list item) g h :
  Forall2 (fun x y => in_place_of x y /\ derived x y g) l m -> Forall2 (fun x y => in_place_of x y /\ derived x y h) m n ->
  (forall x lb v, In x l -> has_value x lb v -> h lb (g lb v) = v) -> Forall2 same_contents l n.
Proof.
  intros H. revert n. induction H as [|x y l m [[T1 I1] D1] _ IH]; intros n H2 Hf; inversion H2 as [|? z ? n0 [[T2 I2] D2] H2']; subst; constructor.
  - split; [|split].
    + destruct T1 as (a1&a2&a3&a4&a5), T2 as (b1&b2&b3&b4&b5). repeat split; congruence.
    + congruence.
    + apply (derived_id x z (fun lb v => h lb (g lb v))); [apply (derived_compose x y z); assumption|]. intros. apply (Hf x); [left; reflexivity|assumption].
  - apply IH; [assumption|]. intros q lb v Hq. apply Hf. right. exact Hq.
Qed.

(* Rescaling by powers of two, and back, restores the values, unless they get too small. *)
Theorem C95_power_of_two_inverse : forall e s k1 k2 j, parses_units e -> healthy e s -> of_doubles (s_items s) -> (0 <= j <= 1074)%Z ->
  (forall lb, label_in (s_items s) lb -> setting k1 q1 lb = pow2 j /\ setting k2 q1 lb = pow2 (- j)) ->
  (forall lb, is_double (setting k1 q1 lb)) -> (forall lb, is_double (setting k2 q1 lb)) ->
  exists r1 r2, f_op_rescale e s k1 = Ok r1 /\ f_op_rescale e r1 k2 = Ok r2 /\ Forall2 same_contents (s_items s) (s_items r2).
Proof.
  intros e s k1 k2 j He Hh D Hj Hk D1 D2. destruct (C95_rescale e s k1 He Hh D D1) as (r1 & g1 & A1 & A2 & A3 & A4 & A5).
  destruct (C95_rescale e r1 k2 He A2 A3 D2) as (r2 & g2 & B1 & B2 & B3 & B4 & B5). exists r1, r2. split; [exact A1|split; [exact B1|]].
  apply (two_steps_vals _ _ _ _ _ A4 B4). intros x lb v Hx Hv. pose proof (D x lb v Hx Hv) as Dv.
  destruct (Hk lb) as (K1 & K2); [exists x; split; [exact Hx|exists v; exact Hv]|].
  assert (E1 : g1 lb v = (v * pow2 j)%Qc).
  { rewrite <- K1. apply (A5 lb v Dv). rewrite K1. destruct Dv as (m & q & Q1 & Q2 & ->). exists m, (q + j)%Z. split; [exact Q1|split; [lia|]].
    apply real_inj. rewrite !real_mult, !real_pow2, bpow_plus. ring. }
  rewrite E1. assert (Bk : (v * pow2 j * pow2 (- j))%Qc = v).
  { apply real_inj. rewrite !real_mult, !real_pow2, Rmult_assoc, <- bpow_plus. replace (j + - j)%Z with 0%Z by lia. cbn. ring. }
  assert (Dm : is_double (v * pow2 j)).
  { destruct Dv as (m & q & Q1 & Q2 & ->). exists m, (q + j)%Z. split; [exact Q1|split; [lia|]]. apply real_inj. rewrite !real_mult, !real_pow2, bpow_plus. ring. }
  destruct (B5 lb _ Dm) as (_ & _ & Ex & _). rewrite K2, Bk in Ex. apply Ex, Dv.
Qed.
Print Assumptions C95_power_of_two_inverse.

(* An offset and back restores the values, for multiples of a power of two. *)
Theorem C95_offset_inverse : forall e s k1 k2 j, parses_units e -> healthy e s -> of_doubles (s_items s) -> (-1074 <= j)%Z ->
  (forall lb, is_double (setting k1 q0 lb) /\ is_double (setting k2 q0 lb)) ->
  (forall x lb v, In x (s_items s) -> has_value x lb v -> multiple j v /\ multiple j (setting k1 q0 lb) /\
    (qabs (v + setting k1 q0 lb) < pow2 (53 + j))%Qc /\ (setting k1 q0 lb + setting k2 q0 lb)%Qc = q0) ->
  exists r1 r2, f_op_offset e s k1 = Ok r1 /\ f_op_offset e r1 k2 = Ok r2 /\ Forall2 same_contents (s_items s) (s_items r2).
Proof.
  intros e s k1 k2 j He Hh D Hj Hk Hv0. destruct (C95_offset e s k1 He Hh D (fun lb => proj1 (Hk lb))) as (r1 & g1 & A1 & A2 & A3 & A4 & A5).
  destruct (C95_offset e r1 k2 He A2 A3 (fun lb => proj2 (Hk lb))) as (r2 & g2 & B1 & B2 & B3 & B4 & B5). exists r1, r2. split; [exact A1|split; [exact B1|]].
  apply (two_steps_vals _ _ _ _ _ A4 B4). intros x lb v Hx Hv. pose proof (D x lb v Hx Hv) as Dv. destruct (Hv0 x lb v Hx Hv) as (M1 & M2 & L & Z).
  assert (Ds : is_double (v + setting k1 q0 lb)).
  { apply (multiple_double j); [exact Hj|apply multiple_plus; assumption|]. apply real_lt in L. rewrite real_abs, real_pow2 in L. exact L. }
  rewrite (proj1 (proj2 (proj2 (A5 lb v Dv))) Ds). assert (Bk : (v + setting k1 q0 lb + setting k2 q0 lb)%Qc = v) by (rewrite <- Qcplus_assoc, Z, q0_eq; ring).
  destruct (B5 lb _ Ds) as (_ & _ & Ex & _). rewrite Bk in Ex. apply Ex, Dv.
Qed.
Print Assumptions C95_offset_inverse.

(* In general it does not: 0.1 + 10^17 - 10^17 is 0, and 0.1 and 0.2 become the same value on the way ... *)
Fixpoint col_is (lb : string) (l : list item) (vs : list Qc) : bool :=
  match l, vs with
  | [], [] => true
  | x :: l, v :: vs => match i_data x with Some (DDict [(k, w)]) => String.eqb k lb && qeqb w v && col_is lb l vs | _ => false end
  | _, _ => false
  end.
Lemma col_is_ok lb l : forall vs, col_is lb l vs = true -> column lb l vs.
Proof.
  induction l as [|x l IH]; intros [|v vs] H; cbn [col_is] in H; try discriminate; [constructor|]. destruct (i_data x) as [[|[|[k w] [|]]]|] eqn:E; try discriminate.
  apply andb_prop in H. destruct H as [H H3]. apply andb_prop in H. destruct H as [H1 H2]. apply String.eqb_eq in H1. apply qeqb_eq in H2. subst. constructor; [|apply IH, H3].
  unfold has_value. rewrite E. left. reflexivity.
Qed.
Theorem C95_offset_inverse_refuted : let a := rnd (qfrac 1 10) in let b := rnd (qfrac 2 10) in let c := qz 100000000000000000 in
  is_double c /\ exists r1 r2, f_op_offset ideal_env (signal [a; b]) (KNum c) = Ok r1 /\ f_op_offset ideal_env r1 (KNum (- c)) = Ok r2 /\
    column "value" (s_items r1) [c; c] /\ column "value" (s_items r2) [q0; q0] /\ (a < b)%Qc.
Proof.
  intros a b c. split; [exists 762939453125%Z, 17%Z; split; [reflexivity|split; [discriminate|apply qeqb_eq; vm_compute; reflexivity]]|].
  set (x := f_op_offset ideal_env (signal [a; b]) (KNum c)). set (y := match x with Ok r1 => f_op_offset ideal_env r1 (KNum (- c)) | Err z => Err z end).
  assert (K1 : match x with Ok r1 => col_is "value" (s_items r1) [c; c] | Err _ => false end = true) by (vm_compute; reflexivity).
  assert (K2 : match y with Ok r1 => col_is "value" (s_items r1) [q0; q0] | Err _ => false end = true) by (vm_compute; reflexivity).
  unfold y in K2. clear y. destruct x as [r1|] eqn:X; [|discriminate]. destruct (f_op_offset ideal_env r1 (KNum (- c))) as [r2|] eqn:Y; [|discriminate].
  exists r1, r2. split; [reflexivity|split; [exact Y|split; [apply col_is_ok, K1|split; [apply col_is_ok, K2|apply qltb_lt; vm_compute; reflexivity]]]].
Qed.
Print Assumptions C95_offset_inverse_refuted.

(* ... and a factor is not undone by the nearest double to its inverse: 1 * 49 * (1/49) is below 1. *)
Theorem C95_rescale_inverse_refuted : let c := qz 49 in let d := rnd (1 / c) in
  exists r1 r2 w, f_op_rescale ideal_env (signal [qz 1; qz 5]) (KNum c) = Ok r1 /\ f_op_rescale ideal_env r1 (KNum d) = Ok r2 /\
    column "value" (s_items r1) [c; qz 245] /\ column "value" (s_items r2) [w; fmul (qz 245) d] /\ (w < q1)%Qc.
Proof.
  intros c d.
  set (x := f_op_rescale ideal_env (signal [qz 1; qz 5]) (KNum c)). set (y := match x with Ok r1 => f_op_rescale ideal_env r1 (KNum d) | Err z => Err z end).
  assert (K1 : match x with Ok r1 => col_is "value" (s_items r1) [c; qz 245] | Err _ => false end = true) by (vm_compute; reflexivity).
  assert (K2 : match y with Ok r1 => col_is "value" (s_items r1) [fmul c d; fmul (qz 245) d] | Err _ => false end = true) by (vm_compute; reflexivity).
  unfold y in K2. clear y. destruct x as [r1|] eqn:X; [|discriminate]. destruct (f_op_rescale ideal_env r1 (KNum d)) as [r2|] eqn:Y; [|discriminate].
  exists r1, r2, (fmul c d). split; [reflexivity|split; [exact Y|split; [apply col_is_ok, K1|split; [apply col_is_ok, K2|apply qltb_lt; vm_compute; reflexivity]]]].
Qed.
Print Assumptions C95_rescale_inverse_refuted.

Example C95_nonvacuous : let vs := [qz 3; qz 1; qz 4] in
  healthy ideal_env (signal vs) /\ of_doubles (s_items (signal vs)) /\
  (forall lb, is_double (setting (KDict [("value"%string, qz 4)]) q1 lb)) /\ (forall lb, label_in (s_items (signal vs)) lb -> setting (KDict [("value"%string, qz 4)]) q1 lb = pow2 2) /\
  (forall x lb v, In x (s_items (signal vs)) -> has_value x lb v -> multiple 0 v /\ multiple 0 (setting (KNum (qz 7)) q0 lb) /\ (qabs (v + setting (KNum (qz 7)) q0 lb) < pow2 (53 + 0))%Qc /\
     (setting (KNum (qz 7)) q0 lb + setting (KNum (qz (-7))) q0 lb)%Qc = q0).
Proof.
  intros vs. split; [apply signal_healthy; discriminate|split; [|split; [|split]]].
  - apply signal_doubles. constructor; [|constructor; [|constructor; [|constructor]]]; apply int_double; reflexivity.
  - intros lb. unfold setting. cbn [dget]. destruct (String.eqb _ _); [apply int_double; reflexivity|apply double_1].
  - intros lb (x & Hx & v & Hv). destruct (signal_new vs) as (_ & E). rewrite E in Hx. apply signal_in in Hx. destruct Hx as (? & v' & _ & _ & ->). destruct Hv as [Hv|[]]. injection Hv as <- _. apply qeqb_eq. vm_compute. reflexivity.
  - intros x lb v Hx Hv. destruct (signal_new vs) as (_ & E). rewrite E in Hx. apply signal_in in Hx. destruct Hx as (? & v' & _ & I1 & ->). destruct Hv as [Hv|[]].
    injection Hv as <- <-. assert (M : forall z, multiple 0 (qz z)) by (intros z; exists z; apply real_inj; rewrite real_mult, real_pow2; cbn; ring).
    destruct I1 as [<- |[<- |[<- |[]]]]; (split; [apply M|split; [apply M|split; [apply qltb_lt; vm_compute; reflexivity|apply qeqb_eq; vm_compute; reflexivity]]]).
Qed.
