(* PropFloat2.v -- property theorems C90 (sums and averages of floats). *)
From Coq Require Import Reals.
From Flocq Require Import Core.
From Verif Require Import Base BaseLemmas Items Series SpecSeries SpecAccess SpecOps SeriesProofs AccessProofs DictLemmas AccessProofs3 OpsProofs OpsProofs2 OpsProofs3 OpsProofs4 CsvProofs10 Float FloatOps SpecFloat FloatProofs FloatProofs2 FloatProofs3 FloatProofs4 FloatProofs5 Periodicity Witness PropTactics PropAccess PropOps PropOps2.
From Coq Require Import Lra.
Local Close Scope R_scope.
Local Open Scope nat_scope.

(* a series of points one minute apart with the given values under one label, for the examples *)
Fixpoint signal_items (t : Z) (vs : list Qc) : list item :=
  match vs with [] => [] | v :: r => ptd (60 * t) (DDict [("value"%string, v)]) :: signal_items (t + 1) r end.
Definition signal (vs : list Qc) : series := mk_s (signal_items 0 vs).

Lemma signal_in vs : forall t x, In x (signal_items t vs) -> exists z v, (t <= z)%Z /\ In v vs /\ x = ptd (60 * z) (DDict [("value"%string, v)]).
Proof.
  induction vs as [|v vs IH]; intros t x H; [destruct H|]. destruct H as [<-|H]; [exists t, v; split; [lia|split; [left; reflexivity|reflexivity]]|].
  destruct (IH _ _ H) as (z & w & A & B & C). exists z, w. split; [lia|split; [right; exact B|exact C]].
Qed.
Lemma signal_wf vs t : wf_points (signal_items t vs).
Proof.
  split; [|split].
  - intros x H. apply signal_in in H. destruct H as (z & v & _ & _ & ->). reflexivity.
  - apply sincr_consecutive. revert t. induction vs as [|v vs IH]; intros t [|i] a b; cbn -[Z.mul Z.add qz]; try discriminate.
    + destruct vs as [|w vs]; cbn -[Z.mul Z.add qz]; [discriminate|]. intros [= <-] [= <-]. apply real_lt. rewrite !real_qz. apply IZR_lt. change (60 * t < 60 * (t + 1))%Z. lia.
    + apply IH.
  - intros x y Hx Hy. apply signal_in in Hx, Hy. destruct Hx as (z & v & _ & _ & ->), Hy as (z' & v' & _ & _ & ->). split; [reflexivity|]. cbn. tauto.
Qed.
Lemma signal_new vs : ts_new ideal_env None (signal_items 0 vs) = Ok (signal vs) /\ s_items (signal vs) = signal_items 0 vs.
Proof.
  destruct (ts_of_items_ok ideal_env (signal_items 0 vs) ideal_parses (or_introl (signal_wf vs 0))) as (s & E & I).
  unfold signal, mk_s. unfold ts_of_items in E. rewrite E. split; [reflexivity|exact I].
Qed.
Lemma signal_numeric vs : vs <> [] -> numeric (s_items (signal vs)).
Proof.
  intros NE. destruct (signal_new vs) as (_ & ->). split; [destruct vs; [contradiction|discriminate]|split].
  - intros x H. apply signal_in in H. destruct H as (z & v & _ & _ & ->). split; [left; reflexivity|]. cbn. split; [discriminate|]. repeat constructor; cbn; tauto.
  - apply (signal_wf vs 0).
Qed.
Lemma signal_healthy vs : vs <> [] -> healthy ideal_env (signal vs).
Proof.
  intros NE. pose proof (signal_numeric vs NE) as N. destruct (signal_new vs) as (E & I). split; [apply built_history; [exists None; rewrite I; exact E|exact N]|split; [exact N|]].
  left. rewrite I. apply signal_wf.
Qed.
Lemma signal_column vs : column "value" (s_items (signal vs)) vs.
Proof.
  destruct (signal_new vs) as (_ & ->). unfold column. generalize 0%Z. induction vs as [|v vs IH]; intros t; cbn; constructor; [left; reflexivity|apply IH].
Qed.
Lemma signal_unweighted vs : vs <> [] -> forall ws, ~ weights (s_items (signal vs)) ws.
Proof.
  intros NE ws. destruct (signal_new vs) as (_ & ->). destruct vs; [contradiction|]. cbn. intros H. inversion H; subst. discriminate.
Qed.
Lemma signal_label vs : vs <> [] -> label_in (s_items (signal vs)) "value".
Proof.
  intros NE. pose proof (signal_column vs) as C. unfold column in C. destruct (s_items (signal vs)) as [|x l] eqn:E; [inversion C; subst; contradiction|].
  inversion C; subst. exists x. split; [left; reflexivity|]. eexists; eassumption.
Qed.
Lemma signal_unique vs ws : column "value" (s_items (signal vs)) ws -> ws = vs.
Proof.
  destruct (signal_new vs) as (_ & ->). unfold column. generalize 0%Z. revert ws. induction vs as [|v vs IH]; intros ws t H; cbn in H; inversion H; subst; [reflexivity|].
  f_equal; [|eapply IH; eassumption]. match goal with K : has_value _ _ _ |- _ => destruct K as [K|[]]; congruence end.
Qed.
Lemma signal_extremes vs v : In v vs ->
  ((forall w, In w vs -> (w <= v)%Qc) -> is_max "value" (s_items (signal vs)) v) /\
  ((forall w, In w vs -> (v <= w)%Qc) -> is_min "value" (s_items (signal vs)) v).
Proof.
  intros Hv. destruct (signal_new vs) as (_ & ->).
  assert (A : exists x, In x (signal_items 0 vs) /\ has_value x "value" v).
  { revert Hv. generalize 0%Z. induction vs as [|w vs IH]; intros t; [intros []|]. intros [->|H]; [eexists; split; [left; reflexivity|left; reflexivity]|].
    destruct (IH (t + 1)%Z H) as (x & P & Q). exists x. split; [right; exact P|exact Q]. }
  assert (B : forall x w, In x (signal_items 0 vs) -> has_value x "value" w -> In w vs).
  { intros x w Hx Hw. apply signal_in in Hx. destruct Hx as (z & w' & _ & I & ->). destruct Hw as [Hw|[]]. congruence. }
  split; intros H; (split; [exact A|]); intros x w Hx Hw; apply H; eapply B; eassumption.
Qed.

(* ===================== C90 ===================== *)
(* The sum of floats is the exact sum up to n-1 roundings, relatively to the sum of the absolute values ... *)
Theorem C90_sum_error : forall e s, from_history e s -> numeric (s_items s) ->
  exists m, f_op_sum s = Ok m /\
    by_label (s_items s) m (fun lb S => forall vs, column lb (s_items s) vs -> Forall is_double vs ->
      is_double S /\ (qabs (S - total vs) <= grow (length vs - 1) * total (map qabs vs))%Qc).
Proof.
  intros e s Hh Hn. destruct (f_sum_spec e s Hh Hn) as (m & E & L & B). exists m. split; [exact E|split; [exact L|]].
  intros lb S HS vs Hc D. rewrite (B lb S HS vs Hc). apply sum_err_q. exact D.
Qed.
Print Assumptions C90_sum_error.

(* ... which for any series that fits in a computer is at most n * 2^-52. *)
Theorem C90_error_is_small : forall n, (Z.of_nat n <= 2 ^ 52)%Z -> (grow n <= qn n * pow2 (-52))%Qc.
Proof. exact grow_small. Qed.
Print Assumptions C90_error_is_small.

(* The sum is exact for integers, and for multiples of any power of two, while the absolute values sum up to less than 2^53 units. *)
Theorem C90_sum_exact : forall e s k, from_history e s -> numeric (s_items s) -> (-1074 <= k)%Z ->
  exists m, f_op_sum s = Ok m /\
    by_label (s_items s) m (fun lb S => forall vs, column lb (s_items s) vs -> Forall (multiple k) vs ->
      (total (map qabs vs) < pow2 (53 + k))%Qc -> S = total vs).
Proof.
  intros e s k Hh Hn Hk. destruct (f_sum_spec e s Hh Hn) as (m & E & L & B). exists m. split; [exact E|split; [exact L|]].
  intros lb S HS vs Hc M T. rewrite (B lb S HS vs Hc), (exact_sum k vs Hk M q0 (multiple_0 k)).
  - apply Qcplus_0_l.
  - apply real_lt in T. rewrite real_pow2 in T. rewrite real_0, Rabs_R0. unfold absum. lra.
Qed.
Print Assumptions C90_sum_exact.

(* The average of floats is the exact mean up to n roundings (and the smallest float, when there is no room for more digits). *)
Theorem C90_avg_error : forall e s, from_history e s -> numeric (s_items s) -> (forall ws, ~ weights (s_items s) ws) ->
  exists m, f_op_avg s = Ok m /\
    by_label (s_items s) m (fun lb A => forall vs, column lb (s_items s) vs -> Forall is_double vs ->
      is_double A /\ (qabs (A - mean vs) <= grow (length vs) * mean (map qabs vs) + pow2 (-1075))%Qc).
Proof.
  intros e s Hh Hn Hw. destruct (f_avg_spec e s Hh Hn Hw) as (m & E & L & B). exists m. split; [exact E|split; [exact L|]].
  intros lb A HA vs Hc D. destruct (B lb A HA vs Hc) as (NE & ->). split; [apply rnd_double|]. apply avg_err_q; assumption.
Qed.
Print Assumptions C90_avg_error.

(* So the average is between the extremes up to that. *)
Theorem C90_avg_nearly_between : forall e s, from_history e s -> numeric (s_items s) -> (forall ws, ~ weights (s_items s) ws) ->
  exists m, f_op_avg s = Ok m /\
    forall lb A, dget lb m = Some A -> forall vs lo hi, column lb (s_items s) vs -> Forall is_double vs ->
      is_min lb (s_items s) lo -> is_max lb (s_items s) hi ->
      (lo - (grow (length vs) * mean (map qabs vs) + pow2 (-1075)) <= A)%Qc /\
      (A <= hi + (grow (length vs) * mean (map qabs vs) + pow2 (-1075)))%Qc.
Proof.
  intros e s Hh Hn Hw. destruct (f_avg_spec e s Hh Hn Hw) as (m & E & L & B). exists m. split; [exact E|].
  intros lb A HA vs lo hi Hc D Hlo Hhi. destruct (B lb A HA vs Hc) as (NE & ->). pose proof (avg_err_q vs D NE) as Er.
  destruct (mean_in vs lo hi NE (column_in _ _ _ _ _ Hc Hlo Hhi)) as (M1 & M2).
  set (X := (grow (length vs) * mean (map qabs vs) + pow2 (-1075))%Qc) in *. set (A := fdiv _ _) in *. clearbody X A.
  apply real_le in Er, M1, M2. rewrite real_abs, real_minus in Er. apply Rabs_le_inv in Er.
  split; apply real_le; rewrite ?real_minus, ?real_plus; lra.
Qed.
Print Assumptions C90_avg_nearly_between.

(* Where the sum is exact the average is the float nearest to the mean, and lies between the extremes. *)
Theorem C90_avg_exact : forall e s k, from_history e s -> numeric (s_items s) -> (forall ws, ~ weights (s_items s) ws) -> (-1074 <= k)%Z ->
  exists m, f_op_avg s = Ok m /\
    by_label (s_items s) m (fun lb A => forall vs, column lb (s_items s) vs -> Forall (multiple k) vs ->
      (total (map qabs vs) < pow2 (53 + k))%Qc ->
      closest (mean vs) A /\ (is_double (mean vs) -> A = mean vs) /\
      forall lo hi, is_min lb (s_items s) lo -> is_max lb (s_items s) hi -> (lo <= A)%Qc /\ (A <= hi)%Qc).
Proof.
  intros e s k Hh Hn Hw Hk. destruct (f_avg_spec e s Hh Hn Hw) as (m & E & L & B). exists m. split; [exact E|split; [exact L|]].
  intros lb A HA vs Hc M T. destruct (B lb A HA vs Hc) as (NE & ->). apply real_lt in T. rewrite real_pow2 in T.
  assert (S : fdiv (fold_left fadd vs q0) (qn (length vs)) = rnd (mean vs)).
  { rewrite (exact_sum k vs Hk M q0 (multiple_0 k)); [unfold fdiv, mean; rewrite Qcplus_0_l; reflexivity|]. rewrite real_0, Rabs_R0. unfold absum. lra. }
  rewrite S. split; [apply rnd_closest|split; [apply rnd_id|]].
  intros lo hi Hlo Hhi. pose proof (column_in _ _ _ _ _ Hc Hlo Hhi) as I. destruct (mean_in vs lo hi NE I) as (M1 & M2).
  assert (Dv : forall v, In v vs -> is_double v).
  { intros v Hv. rewrite Forall_forall in M. apply (multiple_double k); [exact Hk|apply M; exact Hv|].
    eapply Rle_lt_trans; [|exact T]. clear - Hv. induction vs as [|w vs IH]; [destruct Hv|]. pose proof (absum_pos vs). pose proof (Rabs_pos (real w)).
    fold (absum (w :: vs)). rewrite absum_cons. destruct Hv as [->|Hv]; [lra|]. specialize (IH Hv). fold (absum vs) in IH. lra. }
  assert (In_col : forall x v, In x (s_items s) -> has_value x lb v -> In v vs).
  { intros x v Hx Hv. rewrite (column_total _ _ _ Hn Hc). apply in_map_iff. exists x. split; [|exact Hx]. apply valof_spec; [apply Hn; exact Hx|exact Hv]. }
  destruct Hlo as ((x & Hx & Hv) & _). destruct Hhi as ((y & Hy & Hw') & _).
  assert (D1 : is_double lo) by (apply Dv; exact (In_col x lo Hx Hv)).
  assert (D2 : is_double hi) by (apply Dv; exact (In_col y hi Hy Hw')).
  split; [rewrite <- (rnd_id lo D1)|rewrite <- (rnd_id hi D2)]; apply rnd_mono; assumption.
Qed.
Print Assumptions C90_avg_exact.

(* In general it does not: the average of 0.1, 0.1 and 0.1 is above 0.1. *)
Theorem C90_avg_refuted : let v := rnd (qfrac 1 10) in
  exists m A, f_op_avg (signal [v; v; v]) = Ok m /\ dget "value" m = Some A /\
    is_max "value" (s_items (signal [v; v; v])) v /\ (v < A)%Qc.
Proof.
  intros v. assert (NE : [v; v; v] <> []) by discriminate. destruct (signal_healthy _ NE) as (H & N & _).
  destruct (f_avg_spec _ _ H N (signal_unweighted _ NE)) as (m & E & L & B).
  destruct (dget "value" m) as [A|] eqn:G.
  2:{ exfalso. pose proof (proj2 (L "value"%string) (signal_label _ NE)) as I. apply (proj1 (dget_None _ _) G). exact I. }
  exists m, A. split; [exact E|split; [exact G|split]].
  - apply (signal_extremes [v; v; v] v); [left; reflexivity|]. intros w [<-|[<-|[<-|[]]]]; apply Qcle_refl.
  - destruct (B _ _ G _ (signal_column _)) as (_ & ->). apply qltb_lt. vm_compute. reflexivity.
Qed.
Print Assumptions C90_avg_refuted.

(* And the sum depends on the order of the items: 10^16 + 1 - 10^16 is 0, 10^16 - 10^16 + 1 is 1. *)
Theorem C90_order_refuted : let a := qz 10000000000000000 in
  exists m m' S S', f_op_sum (signal [a; q1; Qcopp a]) = Ok m /\ f_op_sum (signal [a; Qcopp a; q1]) = Ok m' /\
    dget "value" m = Some S /\ dget "value" m' = Some S' /\ S = q0 /\ S' = q1.
Proof.
  intros a. assert (NE : [a; q1; Qcopp a] <> []) by discriminate. assert (NE' : [a; Qcopp a; q1] <> []) by discriminate.
  destruct (signal_healthy _ NE) as (H & N & _). destruct (signal_healthy _ NE') as (H' & N' & _).
  destruct (f_sum_spec _ _ H N) as (m & E & L & B). destruct (f_sum_spec _ _ H' N') as (m' & E' & L' & B').
  destruct (dget "value" m) as [S|] eqn:G.
  2:{ exfalso. pose proof (proj2 (L "value"%string) (signal_label _ NE)) as I. apply (proj1 (dget_None _ _) G). exact I. }
  destruct (dget "value" m') as [S'|] eqn:G'.
  2:{ exfalso. pose proof (proj2 (L' "value"%string) (signal_label _ NE')) as I. apply (proj1 (dget_None _ _) G'). exact I. }
  exists m, m', S, S'. split; [exact E|split; [exact E'|split; [exact G|split; [exact G'|split]]]].
  - rewrite (B _ _ G _ (signal_column _)). apply qeqb_eq. vm_compute. reflexivity.
  - rewrite (B' _ _ G' _ (signal_column _)). apply qeqb_eq. vm_compute. reflexivity.
Qed.
Print Assumptions C90_order_refuted.

Example C90_nonvacuous : healthy ideal_env (signal [qz 3; qz 1; qz 4]) /\ (forall ws, ~ weights (s_items (signal [qz 3; qz 1; qz 4])) ws) /\
  column "value" (s_items (signal [qz 3; qz 1; qz 4])) [qz 3; qz 1; qz 4] /\ Forall (multiple 0) [qz 3; qz 1; qz 4] /\ Forall is_double [qz 3; qz 1; qz 4] /\
  (total (map qabs [qz 3; qz 1; qz 4]) < pow2 (53 + 0))%Qc.
Proof.
  split; [apply signal_healthy; discriminate|split; [apply signal_unweighted; discriminate|split; [apply signal_column|split; [|split]]]].
  - constructor; [exists 3%Z|constructor; [exists 1%Z|constructor; [exists 4%Z|constructor]]]; apply qeqb_eq; vm_compute; reflexivity.
  - constructor; [|constructor; [|constructor; [|constructor]]]; apply int_double; reflexivity.
  - apply qltb_lt. vm_compute. reflexivity.
Qed.

(* ===================== C91 ===================== *)
Lemma f_normalize_none e s a b : parses_units e -> healthy e s -> of_doubles (s_items s) -> (forall lb, label_in (s_items s) lb -> varies (s_items s) lb) ->
  exists r, f_op_normalize e s (a, b) None = Ok r /\ healthy e r /\
    Forall2 (fun x y => same_time x y /\ i_idx y = i_idx x /\ derived x y (f_map (lo_of (s_items s)) (hi_of (s_items s)) a b)) (s_items s) (s_items r) /\
    (forall lb, label_in (s_items s) lb -> is_min lb (s_items s) (lo_of (s_items s) lb) /\ is_max lb (s_items s) (hi_of (s_items s) lb) /\
       is_double (lo_of (s_items s) lb) /\ is_double (hi_of (s_items s) lb) /\ (lo_of (s_items s) lb < hi_of (s_items s) lb)%Qc).
Proof.
  intros He (H & N & W) D Hv.
  assert (K : forall lb, label_in (s_items s) lb -> is_min lb (s_items s) (lo_of (s_items s) lb) /\ is_max lb (s_items s) (hi_of (s_items s) lb) /\
       is_double (lo_of (s_items s) lb) /\ is_double (hi_of (s_items s) lb) /\ (lo_of (s_items s) lb < hi_of (s_items s) lb)%Qc).
  { intros lb Hlb. destruct (lo_hi_spec (s_items s) lb N Hlb) as (A & B & C). split; [exact B|split; [exact C|split; [|split]]].
    - destruct B as ((x & Hx & Hxv) & _). exact (D x lb _ Hx Hxv).
    - destruct C as ((x & Hx & Hxv) & _). exact (D x lb _ Hx Hxv).
    - exact (varies_lt _ _ _ _ (Hv lb Hlb) B C). }
  destruct (f_normalize_gen e s a b None (lo_of (s_items s)) (hi_of (s_items s)) He H N W) as (r & R1 & R2 & R3 & R4 & R5).
  - intros lb Hlb. destruct (lo_hi_spec (s_items s) lb N Hlb) as (A & _ & _). destruct (K lb Hlb) as (_ & _ & K1 & K2 & K3). auto.
  - exists r. split; [exact R1|split; [split; [apply fresh_history; assumption|auto]|split; [exact R5|exact K]]].
Qed.

(* Values that are not all the same are normalised to [0, 1] without exceptions: the minimum becomes 0, the maximum 1, ... *)
Theorem C91_normalize_range : forall e s, parses_units e -> healthy e s -> of_doubles (s_items s) ->
  (forall lb, label_in (s_items s) lb -> varies (s_items s) lb) ->
  exists r, f_op_normalize e s (q0, q1) None = Ok r /\ healthy e r /\ of_doubles (s_items r) /\
    forall lb, label_in (s_items s) lb -> is_min lb (s_items r) q0 /\ is_max lb (s_items r) q1.
Proof.
  intros e s He Hh D Hv. destruct (f_normalize_none e s q0 q1 He Hh D Hv) as (r & R1 & R2 & R3 & K). exists r. split; [exact R1|split; [exact R2|split]].
  - intros y lb w Hy Hw. destruct (Forall2_In_l _ _ _ _ R3 Hy) as (x & Hx & _ & _ & Dv). apply Dv in Hw. destruct Hw as (v & _ & ->). apply rnd_double.
  - intros lb Hlb. destruct (K lb Hlb) as (((x & Hx & Hxv) & M1) & ((y & Hy & Hyv) & M2) & K1 & K2 & K3). split; split.
    + destruct (Forall2_In_r _ _ _ _ R3 Hx) as (x' & Hx' & _ & _ & Dv). exists x'. split; [exact Hx'|]. apply Dv. eexists. split; [exact Hxv|]. symmetry. apply unit_lo; assumption.
    + intros z w Hz Hw. destruct (Forall2_In_l _ _ _ _ R3 Hz) as (z0 & Hz0 & _ & _ & Dv). apply Dv in Hw. destruct Hw as (v & Hzv & ->). apply unit_range; try assumption; eauto.
    + destruct (Forall2_In_r _ _ _ _ R3 Hy) as (y' & Hy' & _ & _ & Dv). exists y'. split; [exact Hy'|]. apply Dv. eexists. split; [exact Hyv|]. symmetry. apply unit_hi; assumption.
    + intros z w Hz Hw. destruct (Forall2_In_l _ _ _ _ R3 Hz) as (z0 & Hz0 & _ & _ & Dv). apply Dv in Hw. destruct Hw as (v & Hzv & ->). apply unit_range; try assumption; eauto.
Qed.
Print Assumptions C91_normalize_range.

(* ... normalising again changes nothing, not even a bit, ... *)
Theorem C91_normalize_idempotent : forall e s, parses_units e -> healthy e s -> of_doubles (s_items s) ->
  (forall lb, label_in (s_items s) lb -> varies (s_items s) lb) ->
  exists r r2, f_op_normalize e s (q0, q1) None = Ok r /\ f_op_normalize e r (q0, q1) None = Ok r2 /\ Forall2 same_contents (s_items r) (s_items r2).
Proof.
  intros e s He Hh D Hv. destruct (C91_normalize_range e s He Hh D Hv) as (r & R1 & R2 & R3 & R4).
  destruct (f_normalize_none e s q0 q1 He Hh D Hv) as (r' & R1' & _ & R5 & _). rewrite R1 in R1'. injection R1' as <-.
  assert (HL : forall lb, label_in (s_items r) lb -> label_in (s_items s) lb).
  { intros lb. rewrite (label_in_derived (s_items s) (s_items r) (f_map (lo_of (s_items s)) (hi_of (s_items s)) q0 q1) lb); [auto|].
    revert R5. apply Forall2_impl. intros x y _ (_ & _ & Dv). exact Dv. }
  assert (Hv' : forall lb, label_in (s_items r) lb -> varies (s_items r) lb).
  { intros lb Hlb. destruct (R4 lb (HL lb Hlb)) as [[(x & Hx & Hxv) _] [(y & Hy & Hyv) _]]. exists x, y, q0, q1. split; [exact Hx|split; [exact Hy|split; [exact Hxv|split; [exact Hyv|]]]].
    apply qeqb_neq. reflexivity. }
  destruct (f_normalize_none e r q0 q1 He R2 R3 Hv') as (r2 & Q1 & Q2 & Q3 & Q4). exists r, r2. split; [exact R1|split; [exact Q1|]].
  revert Q3. apply Forall2_impl. intros x y Hx (S1 & S2 & Dv). split; [exact S1|split; [exact S2|]]. apply (derived_id x y _ Dv).
  intros lb v Hxv. assert (Hlb : label_in (s_items r) lb) by (exists x; split; [exact Hx|exists v; exact Hxv]).
  destruct (Q4 lb Hlb) as (B & C & _). destruct (R4 lb (HL lb Hlb)) as [B' C']. pose proof (R3 x lb v Hx Hxv) as Dx.
  change (f_unit (lo_of (s_items r) lb) (hi_of (s_items r) lb) v = v). rewrite (is_min_unique _ _ _ _ B B'), (is_max_unique _ _ _ _ C C').
  unfold f_unit. assert (Z : forall x, is_double x -> fsub x q0 = x).
  { intros z Dz. unfold fsub. replace (Qcminus z q0) with z; [apply rnd_id; exact Dz|]. apply real_inj. rewrite real_minus, real_0. ring. }
  rewrite (Z v Dx), (Z q1 double_1). unfold fdiv. replace (Qcdiv v q1) with v; [apply rnd_id; exact Dx|]. apply real_inj. rewrite real_div, real_1 by (apply qeqb_neq; reflexivity). field.
Qed.
Print Assumptions C91_normalize_idempotent.

(* ... and on any target range larger values do not become smaller, and every value is within a few roundings of its exact normalisation. *)
Theorem C91_normalize_order_and_error : forall e s a b, parses_units e -> healthy e s -> of_doubles (s_items s) -> is_double a -> is_double b ->
  (forall lb, label_in (s_items s) lb -> varies (s_items s) lb) ->
  exists r, f_op_normalize e s (a, b) None = Ok r /\ healthy e r /\
    Forall2 (fun x y => in_place_of x y /\ forall lb w, has_value y lb w -> exists v lo hi, has_value x lb v /\ is_min lb (s_items s) lo /\ is_max lb (s_items s) hi /\
      (qabs (w - mapped lo hi a b v) <= pow2 (-49) * (qabs a + qabs b) + pow2 (-1074))%Qc) (s_items s) (s_items r) /\
    ((a <= b)%Qc -> forall i j x x' y y' lb v w v' w', nth_error (s_items s) i = Some x -> nth_error (s_items r) i = Some y ->
       nth_error (s_items s) j = Some x' -> nth_error (s_items r) j = Some y' ->
       has_value x lb v -> has_value x' lb w -> has_value y lb v' -> has_value y' lb w' -> (v <= w)%Qc -> (v' <= w')%Qc).
Proof.
  intros e s a b He Hh D Da Db Hv. destruct (f_normalize_none e s a b He Hh D Hv) as (r & R1 & R2 & R3 & K). destruct Hh as (H & N & W). exists r. split; [exact R1|split; [exact R2|split]].
  - pose proof R3 as R3'. revert R3'. apply Forall2_impl. intros x y Hx (S1 & S2 & Dv). split; [split; assumption|]. intros lb w Hw. apply Dv in Hw. destruct Hw as (v & Hxv & ->).
    destruct (K lb (ex_intro _ x (conj Hx (ex_intro _ v Hxv)))) as (M1 & M2 & K1 & K2 & K3). exists v, (lo_of (s_items s) lb), (hi_of (s_items s) lb). split; [exact Hxv|split; [exact M1|split; [exact M2|]]].
    pose proof (f_map_err _ _ a b lb v K1 K2 (D x lb v Hx Hxv) Da Db K3 (proj2 M1 x v Hx Hxv) (proj2 M2 x v Hx Hxv)) as E.
    apply real_le. unfold mapped. rewrite real_abs, real_minus, !real_plus, !real_mult, real_plus, !real_abs, real_div, !real_minus, !real_pow2.
    + replace (bpow radix2 (-49)) with (16 * u)%R by (rewrite <- u_bpow; change (-49)%Z with (4 + -53)%Z; rewrite bpow_plus; reflexivity).
      replace (bpow radix2 (-1074)) with (2 * eta)%R by (unfold eta; change (-1074)%Z with (1 + -1075)%Z; rewrite bpow_plus; reflexivity). exact E.
    + intros Z. apply (f_equal real) in Z. rewrite real_minus, real_0 in Z. apply real_lt in K3. lra.
  - intros Hab i j x x' y y' lb v w v' w' Hx Hy Hx' Hy' Hvx Hwx Hvy Hwy L. destruct (Forall2_nth_inv _ _ _ R3) as [_ Hn].
    destruct (Hn i x y Hx Hy) as (_ & _ & D1). destruct (Hn j x' y' Hx' Hy') as (_ & _ & D2). apply nth_error_In in Hx, Hx'.
    assert (Nx : numeric_item x) by (apply N; exact Hx). assert (Nx' : numeric_item x') by (apply N; exact Hx').
    apply D1 in Hvy. destruct Hvy as (v0 & Hv0 & ->). apply D2 in Hwy. destruct Hwy as (w0 & Hw0 & ->).
    rewrite (has_value_fun x lb v v0 Nx Hvx Hv0), (has_value_fun x' lb w w0 Nx' Hwx Hw0) in L.
    destruct (K lb (ex_intro _ x (conj Hx (ex_intro _ v Hvx)))) as (_ & _ & K1 & K2 & K3). apply f_map_mono; assumption.
Qed.
Print Assumptions C91_normalize_order_and_error.

(* A label whose values are all the same is refused. *)
Theorem C91_constant_refused : forall e s a b lb, healthy e s -> of_doubles (s_items s) -> label_in (s_items s) lb -> ~ varies (s_items s) lb ->
  f_op_normalize e s (a, b) None = Err ZeroDivisionError.
Proof.
  intros e s a b lb (H & N & W) D Hlb Hc. unfold f_op_normalize. destruct (prep_ok e s H N) as (x & l & El & Hp). rewrite Hp. cbn [bind snd].
  assert (HL : forall lb, label_in (s_items s) lb <-> In lb (item_labels x)) by (intros lb0; eapply label_in_first; eassumption).
  rewrite (per_label_ok _ _ (fun lb => (lo_of (s_items s) lb, hi_of (s_items s) lb))); [|intros lb0 H0; apply lo_hi_spec; [exact N|apply HL; exact H0]]. cbn [bind].
  unfold pointwise. rewrite Hp. cbn [bind fst snd]. unfold pointwise_items.
  set (F := fun (y : item) (lb0 : string) => do v <- item_by_label y lb0; do r <- pick (map (fun lb1 => (lb1, (lo_of (s_items s) lb1, hi_of (s_items s) lb1))) (item_labels x)) lb0; f_norm_value (fst r) (snd r) (a, b) v).
  assert (P : forall y lb0 z, In y (s_items s) -> In lb0 (item_labels x) -> F y lb0 = Err z -> z = ZeroDivisionError).
  { intros y lb0 z Hy H0. unfold F. assert (Hy' : numeric_item y) by (apply N; exact Hy). assert (Hb : has_label y lb0) by (apply (proj2 (label_all _ _ _ N (proj2 (HL lb0) H0) Hy))).
    destruct (valof_ok y lb0 Hy' Hb) as (-> & _). cbn [bind]. unfold pick. rewrite dget_map_label by exact H0. cbn [bind fst snd]. unfold f_norm_value, f_div. destruct (qeqb _ q0); cbn [bind]; [congruence|]. destruct (_ && _); discriminate. }
  destruct (mapM_err (fun y => do vs <- mapM (F y) (item_labels x); Ok (rebuild x y (build_data x (fun lb => lb) (item_labels x) vs) (i_idx y))) (fun z => z = ZeroDivisionError) (s_items s)) as (z & Ez & ->).
  - intros y z Hy E. destruct (mapM (F y) (item_labels x)) as [vs|z'] eqn:E'; [discriminate|]. cbn [bind] in E. injection E as <-.
    destruct (mapM_err (F y) (fun z => z = ZeroDivisionError) (item_labels x) (fun lb0 z H0 => P y lb0 z Hy H0)) as (z & Ez & Pz); [|congruence].
    clearbody F. clear - E'. induction (item_labels x) as [|lb0 r IH]; [discriminate|]. cbn [mapM] in E'. destruct (F y lb0) as [v|e1] eqn:E1; [|exists lb0, e1; split; [left; reflexivity|exact E1]].
    cbn [bind] in E'. destruct (mapM (F y) r) as [vs|e2] eqn:E2; [discriminate|]. destruct IH as (lb1 & e1 & I1 & I2); [cbn [bind] in E'; congruence|]. exists lb1, e1. split; [right; exact I1|exact I2].
  - exists x, ZeroDivisionError. assert (Hx : In x (s_items s)) by (rewrite El; left; reflexivity). split; [exact Hx|].
    destruct (mapM_err (F x) (fun z => z = ZeroDivisionError) (item_labels x) (fun lb0 z H0 => P x lb0 z Hx H0)) as (z & Ez & ->); [|rewrite Ez; reflexivity].
    exists lb, ZeroDivisionError. split; [apply HL; exact Hlb|]. unfold F. assert (Hy' : numeric_item x) by (apply N; exact Hx). assert (Hb : has_label x lb) by (apply (proj2 (label_all _ _ _ N Hlb Hx))).
    destruct (valof_ok x lb Hy' Hb) as (-> & _). cbn [bind]. unfold pick. rewrite dget_map_label by (apply HL; exact Hlb). cbn [bind fst snd].
    assert (E : lo_of (s_items s) lb = hi_of (s_items s) lb).
    { destruct (lo_hi_spec (s_items s) lb N Hlb) as (_ & ((p & Hp1 & Hp2) & _) & ((q & Hq1 & Hq2) & _)).
      destruct (qeqb (lo_of (s_items s) lb) (hi_of (s_items s) lb)) eqn:E; [apply real_eqb; exact E|]. exfalso. apply Hc. exists p, q, (lo_of (s_items s) lb), (hi_of (s_items s) lb). split; [exact Hp1|split; [exact Hq1|split; [exact Hp2|split; [exact Hq2|]]]].
      apply qeqb_neq. exact E. }
    rewrite E. unfold f_norm_value. rewrite fsub_self. reflexivity.
  - exact (f_equal (fun r => bind r (fun l => ts_of_items e l)) Ez).
Qed.
Print Assumptions C91_constant_refused.

Lemma signal_varies vs v w : In v vs -> In w vs -> v <> w -> forall lb, label_in (s_items (signal vs)) lb -> varies (s_items (signal vs)) lb.
Proof.
  intros Hv Hw NE lb (x & Hx & z & Hz). destruct (signal_new vs) as (_ & E). rewrite E in *.
  assert (lb = "value"%string) as -> by (apply signal_in in Hx; destruct Hx as (? & ? & _ & _ & ->); destruct Hz as [Hz|[]]; congruence).
  assert (A : forall v, In v vs -> exists x, In x (signal_items 0 vs) /\ has_value x "value" v).
  { clear. intros v. generalize 0%Z. induction vs as [|w vs IH]; intros t; [intros []|]. intros [->|H]; [eexists; split; [left; reflexivity|left; reflexivity]|].
    destruct (IH (t + 1)%Z H) as (x & P & Q). exists x. split; [right; exact P|exact Q]. }
  destruct (A v Hv) as (p & P1 & P2). destruct (A w Hw) as (q & Q1 & Q2). exists p, q, v, w. auto.
Qed.
Lemma signal_doubles vs : Forall is_double vs -> of_doubles (s_items (signal vs)).
Proof.
  intros H x lb v Hx Hv. destruct (signal_new vs) as (_ & E). rewrite E in Hx. apply signal_in in Hx. destruct Hx as (z & w & _ & I & ->). destruct Hv as [Hv|[]].
  injection Hv as _ <-. rewrite Forall_forall in H. apply H. exact I.
Qed.
Lemma signal_mapped vs r g : Forall2 (fun x y => derived x y g) (s_items (signal vs)) (s_items r) -> column "value" (s_items r) (map (g "value"%string) vs).
Proof.
  destruct (signal_new vs) as (_ & ->). generalize 0%Z. unfold column. generalize (s_items r). induction vs as [|v vs IH]; intros l t H; inversion H; subst; [constructor|].
  cbn. constructor; [|eapply IH; eassumption]. match goal with K : derived _ _ _ |- _ => apply K end. exists v. split; [left; reflexivity|reflexivity].
Qed.

Lemma column_has lb l vs v : column lb l vs -> In v vs -> exists x, In x l /\ has_value x lb v.
Proof.
  unfold column. induction 1 as [|x w l vs H Hc IH]; [contradiction|]. intros [->|Hv]; [exists x; split; [left; reflexivity|exact H]|].
  destruct (IH Hv) as (y & A & B). exists y. split; [right; exact A|exact B].
Qed.

(* On the range [-1, 0.1] the maximum becomes more than 0.1. *)
Theorem C91_overshoot_refuted : let b := rnd (qfrac 1 10) in
  exists r y w, f_op_normalize ideal_env (signal [q0; q1]) (qz (-1), b) None = Ok r /\ In y (s_items r) /\ has_value y "value" w /\ (b < w)%Qc.
Proof.
  intros b. assert (NE : [q0; q1] <> []) by discriminate. assert (D : Forall is_double [q0; q1]) by (constructor; [apply double_0|constructor; [apply double_1|constructor]]).
  assert (N01 : q0 <> q1) by (apply qeqb_neq; reflexivity).
  destruct (f_normalize_none ideal_env (signal [q0; q1]) (qz (-1)) b ideal_parses (signal_healthy _ NE) (signal_doubles _ D) (signal_varies [q0; q1] q0 q1 (or_introl eq_refl) (or_intror (or_introl eq_refl)) N01)) as (r & R1 & R2 & R3 & K).
  assert (F : Forall2 (fun x y => derived x y (f_map (lo_of (s_items (signal [q0; q1]))) (hi_of (s_items (signal [q0; q1]))) (qz (-1)) b)) (s_items (signal [q0; q1])) (s_items r)) by (revert R3; apply Forall2_impl; intros x y _ (_ & _ & Dv); exact Dv).
  apply signal_mapped in F. set (g := f_map _ _ _ _) in F.
  destruct (column_has _ _ _ (g "value"%string q1) F (in_map (g "value"%string) [q0; q1] q1 (or_intror (or_introl eq_refl)))) as (y & Hy & Hw). unfold g in Hw.
  destruct (K "value"%string (signal_label _ NE)) as (M1 & M2 & _).
  destruct (signal_extremes [q0; q1] q0 (or_introl eq_refl)) as (_ & X1). destruct (signal_extremes [q0; q1] q1 (or_intror (or_introl eq_refl))) as (X2 & _).
  unfold f_map in Hw. rewrite (is_min_unique _ _ _ _ M1 (X1 ltac:(intros w [<-|[<-|[]]]; apply qleb_le; reflexivity))), (is_max_unique _ _ _ _ M2 (X2 ltac:(intros w [<-|[<-|[]]]; apply qleb_le; reflexivity))) in Hw.
  exists r, y. eexists. split; [exact R1|split; [exact Hy|split; [exact Hw|]]].
  apply qltb_lt. vm_compute. reflexivity.
Qed.
Print Assumptions C91_overshoot_refuted.

(* Different values may become the same: of -1, 2^-61, 2^-60 and 1 the two in the middle do. *)
Theorem C91_distinct_refuted : let vs := [qz (-1); pow2 (-61); pow2 (-60); q1] in
  exists r ws, f_op_normalize ideal_env (signal vs) (q0, q1) None = Ok r /\ (pow2 (-61) < pow2 (-60))%Qc /\
    column "value" (s_items r) ws /\ nth_error ws 1 = nth_error ws 2 /\ nth_error ws 1 <> None.
Proof.
  intros vs. assert (NE : vs <> []) by discriminate.
  assert (D : Forall is_double vs).
  { constructor; [apply int_double; reflexivity|constructor; [exists 1%Z, (-61)%Z; split; [reflexivity|split; [discriminate|apply qeqb_eq; vm_compute; reflexivity]]|constructor; [exists 1%Z, (-60)%Z; split; [reflexivity|split; [discriminate|apply qeqb_eq; vm_compute; reflexivity]]|constructor; [apply double_1|constructor]]]]. }
  assert (N01 : qz (-1) <> q1) by (apply qeqb_neq; reflexivity).
  destruct (f_normalize_none ideal_env (signal vs) q0 q1 ideal_parses (signal_healthy _ NE) (signal_doubles _ D) (signal_varies vs (qz (-1)) q1 (or_introl eq_refl) ltac:(do 3 right; left; reflexivity) N01)) as (r & R1 & R2 & R3 & K).
  assert (F : Forall2 (fun x y => derived x y (f_map (lo_of (s_items (signal vs))) (hi_of (s_items (signal vs))) q0 q1)) (s_items (signal vs)) (s_items r)) by (revert R3; apply Forall2_impl; intros x y _ (_ & _ & Dv); exact Dv).
  apply signal_mapped in F.
  destruct (K "value"%string (signal_label _ NE)) as (M1 & M2 & _).
  assert (Lo : forall w, In w vs -> (qz (-1) <= w)%Qc) by (intros w [<-|[<-|[<-|[<-|[]]]]]; apply qleb_le; vm_compute; reflexivity).
  assert (Hi : forall w, In w vs -> (w <= q1)%Qc) by (intros w [<-|[<-|[<-|[<-|[]]]]]; apply qleb_le; vm_compute; reflexivity).
  destruct (signal_extremes vs (qz (-1)) (or_introl eq_refl)) as (_ & X1). destruct (signal_extremes vs q1 ltac:(do 3 right; left; reflexivity)) as (X2 & _).
  eexists r, _. split; [exact R1|split; [apply qltb_lt; vm_compute; reflexivity|split; [exact F|]]].
  unfold vs. cbn [map nth_error]. fold vs. split; [|discriminate].
  unfold f_map. rewrite (is_min_unique _ _ _ _ M1 (X1 Lo)), (is_max_unique _ _ _ _ M2 (X2 Hi)). change (qeqb q0 q0 && qeqb q1 q1) with true. cbv iota.
  apply f_equal. apply qeqb_eq. vm_compute. reflexivity.
Qed.
Print Assumptions C91_distinct_refuted.

Example C91_nonvacuous : let vs := [qz 3; qz 1; qz 4] in
  healthy ideal_env (signal vs) /\ of_doubles (s_items (signal vs)) /\ (forall lb, label_in (s_items (signal vs)) lb -> varies (s_items (signal vs)) lb) /\
  label_in (s_items (signal vs)) "value" /\ ~ varies (s_items (signal [qz 3; qz 3])) "value".
Proof.
  intros vs. split; [apply signal_healthy; discriminate|split; [|split; [|split; [apply signal_label; discriminate|]]]].
  - apply signal_doubles. constructor; [|constructor; [|constructor; [|constructor]]]; apply int_double; reflexivity.
  - apply (signal_varies vs (qz 3) (qz 1)); [left; reflexivity|right; left; reflexivity|apply qeqb_neq; reflexivity].
  - intros (x & y & v & w & Hx & Hy & Hv & Hw & NE). destruct (signal_new [qz 3; qz 3]) as (_ & E). rewrite E in *. apply signal_in in Hx, Hy.
    destruct Hx as (? & v' & _ & I1 & ->), Hy as (? & w' & _ & I2 & ->). destruct Hv as [Hv|[]], Hw as [Hw|[]]. injection Hv as <-. injection Hw as <-.
    apply NE. destruct I1 as [<-|[<-|[]]], I2 as [<-|[<-|[]]]; reflexivity.
Qed.
