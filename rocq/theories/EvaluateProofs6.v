(* EvaluateProofs6.v -- the evaluation of the periodic average reconstructor (C77). *)
From Verif Require Import SpecAccess SeriesProofs3 SeriesProofs4 AccessProofs AccessProofs2 OpsProofs OpsProofs2 OpsProofs3 OpsProofs5 InterpProofs ReconProofs2 ReconProofs3 ReconProofs4 LstmProofs LstmProofs4 DictLemmas UtilsProofs PropTactics BaseLemmas.
From Verif Require Export EvaluateProofs5.
From Coq Require Import Lia.

Lemma pa_here e c dst f p d o lb s avgs shift from to : (0 < p)%Z -> ready e s -> single_label (s_items s) lb -> resolution s = Some (RUnit (UPhys d)) ->
  (forall x, In x (s_items s) -> exists n, on_grid o d (i_t x) n) -> (forall x n, In x (s_items s) -> on_grid o d (i_t x) n -> zget (n mod p)%Z avgs = Some (f (i_t x))) ->
  1 <= from -> from <= to -> S to < length (s_items s) ->
  (forall j x, from - 1 <= j <= S to -> nth_error (s_items s) j = Some x -> has_value x lb (Qcplus (f (i_t x)) shift)) ->
  exists vs, pa_predict c dst (mkPa p false avgs) s from to = Ok (PDict [(lb, vs)]) /\ holds s lb (S to - from) from vs.
Proof.
  intros Hp R Ls Us Sg Av Lf Lt Ln Sv. assert (Av1 : forall x, In x (s_items s) -> average_at c dst s p false (fun k => zget k avgs) x = Ok (f (i_t x))).
  { intros x Ix. unfold average_at. rewrite Us. destruct (Sg x Ix) as [n G]. rewrite (index_on_grid _ _ _ o d (i_t x) n p G Hp). cbn [bind]. rewrite (Av x n Ix G). reflexivity. }
  assert (Nth : forall j, j < length (s_items s) -> exists x, nth_error (s_items s) j = Some x) by (intros j J; destruct (nth_error (s_items s) j) as [x|] eqn:X; [eauto|apply nth_error_None in X; lia]).
  destruct (Nth (from - 1) ltac:(lia)) as [b Hb]. destruct (Nth (S to) ltac:(lia)) as [a Ha]. pose proof (nth_error_In _ _ Hb) as Ib. pose proof (nth_error_In _ _ Ha) as Ia.
  unfold pa_predict, pa_predict_with, check_window. cbn [pa_period pa_dst pa_averages]. destruct (Nat.ltb_spec from 1); [lia|]. destruct (Nat.ltb_spec (length (s_items s) - 1) (to + 1)); [lia|]. cbn [bind]. rewrite (labels_single e s lb R Ls). cbn [bind foldM].
  replace (Z.of_nat from - 1)%Z with (Z.of_nat (from - 1)) by lia. replace (Z.of_nat to + 1)%Z with (Z.of_nat (S to)) by lia. rewrite (ts_get_i_nat s _ b Hb), (ts_get_i_nat s _ a Ha). cbn [bind].
  rewrite (ready_value e s b lb _ R Ib (Sv (from - 1) b ltac:(lia) Hb)), (ready_value e s a lb _ R Ia (Sv (S to) a ltac:(lia) Ha)). cbn [bind]. rewrite (Av1 b Ib), (Av1 a Ia). cbn [bind].
  set (z := Qcdiv _ q2). assert (Z : z = shift). { unfold z. assert (Q2 : q2 = Qcplus 1 1) by (apply qeqb_eq; vm_compute; reflexivity). rewrite Q2, q0_eq. field. intros X. apply (f_equal (fun q => qeqb q q0)) in X. vm_compute in X. discriminate. }
  destruct (mapM_exists (fun j => do x <- ts_get_i s (Z.of_nat j); do a <- average_at c dst s p false (fun k => zget k avgs) x; Ok (Qcplus a z)) (fun j v => exists x, nth_error (s_items s) j = Some x /\ has_value x lb v) (seq from (S to - from))) as (vs & E & Lv & G).
  - intros j Hj. apply in_seq in Hj. destruct (Nth j ltac:(lia)) as [x Hx]. exists (Qcplus (f (i_t x)) z). rewrite (ts_get_i_nat s j x Hx). cbn [bind]. rewrite (Av1 x (nth_error_In _ _ Hx)). cbn [bind]. split; [reflexivity|]. exists x. split; [exact Hx|]. rewrite Z. apply (Sv j x); [lia|exact Hx].
  - rewrite E. cbn [bind]. rewrite seq_length in Lv. exists vs. split; [reflexivity|]. split; [exact Lv|]. intros j v V. assert (Lj : j < S to - from) by (rewrite <- Lv; apply nth_error_Some; rewrite V; discriminate). destruct (G j (from + j)) as (v' & V' & x & X & Hv); [apply seq_nth_error; exact Lj|]. rewrite V in V'. injection V' as <-. exists x. split; assumption.
Qed.
Lemma pa_rebuilds e c dst f p d o lb s avgs shift thr k i : (0 < p)%Z -> ready e s -> single_label (s_items s) lb -> resolution s = Some (RUnit (UPhys d)) ->
  samples (fun t => Qcplus (f t) shift) lb o d (fun x => ~ lossy thr x) (s_items s) -> (forall x n, In x (s_items s) -> on_grid o d (i_t x) n -> zget (n mod p)%Z avgs = Some (f (i_t x))) ->
  1 <= k -> usable thr 1 s k i -> exists vs, rebuilds (pa_reconstructor c dst (mkPa p false avgs)) s lb k i vs /\ holds s lb k i vs.
Proof.
  intros Hp R Ls Us Ss Av Lk (Li & Ln & Gd). destruct (pa_here e c dst f p d o lb s avgs shift i (i + k - 1) Hp R Ls Us (fun x Ix => proj1 (Ss x Ix)) Av Li) as (vs & P & H); [lia|lia| |].
  - intros j x J X. apply (Ss x (nth_error_In _ _ X)). apply (Gd j x); [lia|exact X].
  - exists vs. split; [|replace (S (i + k - 1) - i) with k in H by lia; exact H]. exists [(lb, vs)]. split; [exact P|]. cbn [dget]. rewrite String.eqb_refl. reflexivity.
Qed.
