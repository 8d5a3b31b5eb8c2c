(* PropRecon.v -- THEOREMS C52, C53, C59, C60: reconstructors and periodicity. *)
From Coq Require Import Qround.
From Verif Require Import SpecRecon BaseLemmas DictLemmas PropTactics Witness PropAccess PropOps PropTransform SeriesProofs2 AccessProofs OpsProofs InterpProofs ReconProofs ReconProofs2 ReconProofs3 ReconProofs4.

(* ===================== C52 ===================== *)

(* For any reconstructor (the prediction is arbitrary), in place or not. *)
Theorem C52_only_missing_data_changes : forall e predict thr s s',
  reconstructs e predict thr s s' ->
  length (s_items s') = length (s_items s) /\
  forall i x, nth_error (s_items s) i = Some x -> exists x', nth_error (s_items s') i = Some x' /\
    same_time x x' /\ i_weight x' = i_weight x /\
    (~ lossy thr x -> i_data x' = i_data x /\ flagged q0 x x') /\
    (lossy thr x -> flagged q1 x x').
Proof.
  intros e predict thr s s' H. assert (X : exists c, s_items c = s_items s /\ rec_apply_inplace predict thr c = (s', Ok tt)).
  { destruct H as [H|H]; [exists s; auto|apply (apply_out_of_place e) in H; exact H]. }
  destruct X as (c & E & A). destruct (apply_spec _ _ _ _ _ A) as [(_ & K & _) D]. rewrite <- E. split; [exact K|]. intros i x Hx. destruct (D eq_refl i x Hx) as (y & Hy & [S1 S2] & D0 & D1).
  exists y. split; [exact Hy|]. split; [exact S1|]. split; [exact S2|]. split; [exact D0|]. intros L. apply D1, L.
Qed.
Print Assumptions C52_only_missing_data_changes.

(* The new data of an item are what the reconstructor predicts for the maximal run of missing items it is in,
   looking at a series whose items are the original ones from the gap on, and have the original data where
   not missing before it. *)
Theorem C52_missing_runs_are_predicted : forall predict thr s s' i x,
  rec_apply_inplace predict thr s = (s', Ok tt) -> nth_error (s_items s) i = Some x -> lossy thr x ->
  exists x' from to sk pd d, nth_error (s_items s') i = Some x' /\ i_data x' = Some d /\
    maximal_run (lossy thr) (s_items s) from to /\ from <= i <= to /\
    so_far thr s sk from /\ predict sk from to = Ok pd /\ picked pd (i - from) d.
Proof.
  intros predict thr s s' i x A Hx L. destruct (apply_spec _ _ _ _ _ A) as [_ D]. destruct (D eq_refl i x Hx) as (y & Hy & _ & _ & D1).
  destruct (D1 L) as (_ & f1 & t1 & sk & pd & d & R1 & I1 & S1 & P1 & K & _ & Dy). exists y, f1, t1, sk, pd, d. repeat (split; [assumption|]). exact K.
Qed.
Print Assumptions C52_missing_runs_are_predicted.

(* Also when it raises half way, an application in place does not touch timestamps nor good data. *)
Theorem C52_any_outcome : forall predict thr s s' r,
  rec_apply_inplace predict thr s = (s', r) ->
  length (s_items s') = length (s_items s) /\
  forall i x, nth_error (s_items s) i = Some x -> exists x', nth_error (s_items s') i = Some x' /\
    same_time x x' /\ i_weight x' = i_weight x /\ (~ lossy thr x -> i_data x' = i_data x).
Proof.
  intros predict thr s s' r A. destruct (apply_spec _ _ _ _ _ A) as [(_ & K & D) _]. split; [exact K|]. intros i x Hx. destruct (D i x Hx) as (y & Hy & [S1 S2] & D0). eauto 10.
Qed.
Print Assumptions C52_any_outcome.

Definition ptl (t v l : Z) : item := set_idx (pt t v) [("data_loss"%string, Some (qz l))].
(* two good items, a gap of two, two good items *)
Definition gap6 : list item := [ptl 0 1 0; ptl 10 2 0; ptl 20 7 1; ptl 30 8 1; ptl 40 1 0; ptl 50 2 0].
Lemma gap6_items : s_items (ms gap6) = gap6.
Proof. vm_compute. reflexivity. Qed.
Lemma ptl_lossy t v l thr : lossy (qz thr) (ptl t v l) <-> (thr <= l)%Z.
Proof. unfold lossy, data_loss, ptl. cbn. split; [intros (x & E & L); injection E as <-; apply qz_le_iff; exact L|]. intros L. exists (qz l). split; [reflexivity|]. apply qz_le_iff. exact L. Qed.
Lemma gap6_run : maximal_run (lossy (qz 1)) (s_items (ms gap6)) 2 3.
Proof.
  rewrite gap6_items. split; [lia|]. split; [cbn; lia|]. split; [|split].
  - intros j x Hj Hx. assert (j = 2 \/ j = 3) as [-> | ->] by lia; injection Hx as <-; apply ptl_lossy; lia.
  - intros j x Hj Hx. injection Hj as ->. injection Hx as <-. rewrite ptl_lossy. lia.
  - intros x Hx. injection Hx as <-. rewrite ptl_lossy. lia.
Qed.
Lemma gap6_ready : ready ideal_env (ms gap6).
Proof.
  assert (E := gap6_items). assert (D : dict_points (ms gap6)) by (apply one_label_dict; rewrite E; [discriminate|one_label_tac|vm_compute; reflexivity]).
  split; [exists None; rewrite E; vm_compute; reflexivity|]. split; [apply D|]. split; [left; apply D|]. split; [apply D|]. cbn. discriminate.
Qed.
(* any prediction: here, all zeros *)
Definition zeros (s : series) (from to : nat) : result pdata := Ok (PDict [("value"%string, map (fun _ => q0) (seq from (S to - from)))]).
Example C52_nonvacuous : exists s', rec_apply_inplace zeros (qz 1) (ms gap6) = (s', Ok tt) /\ reconstructs ideal_env zeros (qz 1) (ms gap6) s' /\
  length (s_items s') = 6 /\ (exists x, nth_error (s_items (ms gap6)) 2 = Some x /\ lossy (qz 1) x) /\ (exists x, nth_error (s_items (ms gap6)) 1 = Some x /\ ~ lossy (qz 1) x) /\
  (exists x', nth_error (s_items s') 2 = Some x' /\ i_data x' = Some (DDict [("value"%string, q0)])) /\
  (exists x', nth_error (s_items s') 1 = Some x' /\ i_data x' = Some (d1 2)).
Proof.
  eexists. split; [vm_compute; reflexivity|]. split; [left; vm_compute; reflexivity|]. split; [reflexivity|]. rewrite gap6_items. split; [eexists; split; [reflexivity|apply ptl_lossy; lia]|].
  split; [eexists; split; [reflexivity|rewrite ptl_lossy; lia]|]. split; eexists; (split; [reflexivity|vm_compute; reflexivity]).
Qed.

(* ===================== C53 ===================== *)

(* The reconstructed items are on the straight line between the neighbours of the gap, for each label. *)
Theorem C53_on_the_line : forall e thr s s' from to i x,
  ready e s -> reconstructs e linear_predict thr s s' ->
  maximal_run (lossy thr) (s_items s) from to -> from <= i <= to -> nth_error (s_items s) i = Some x ->
  exists before after x', 1 <= from /\ nth_error (s_items s) (from - 1) = Some before /\ nth_error (s_items s) (S to) = Some after /\
    nth_error (s_items s') i = Some x' /\ i_t x' = i_t x /\ (forall lb, has_label x' lb <-> has_label x lb) /\
    forall lb v, has_value x' lb v -> exists vb va, has_value before lb vb /\ has_value after lb va /\
      on_line (i_t before) vb (i_t after) va (i_t x) v.
Proof.
  intros e thr s s' from to i x R A M Hi Hx. apply (ready_in_place e) in A; [|exact R]. assert (L : lossy thr x) by (apply M with i; assumption).
  destruct (linear_done e s s' thr R A i x Hx L from to M Hi) as (b & a & y & d & Hf & Hb & Ha & Hy & Sh & _ & Dy & I). exists b, a, y. split; [exact Hf|]. split; [exact Hb|]. split; [exact Ha|]. split; [exact Hy|].
  split; [apply Sh|]. unfold interpolated, data_by in I. destruct d as [|m]; [contradiction|]. destruct I as (_ & I2 & I3). split.
  - intros lb. transitivity (has_label b lb).
    + rewrite <- I3. unfold has_label, has_value. rewrite Dy. rewrite in_map_iff. split; [intros (v & H); exists (lb, v); auto|intros ((lb', v) & <- & H); eauto].
    + destruct R as (_ & N & _). split; apply (numeric_labels _ _ _ lb N); eapply nth_error_In; eassumption.
  - intros lb v Hv. apply I2. unfold has_value in Hv. rewrite Dy in Hv. exact Hv.
Qed.
Print Assumptions C53_on_the_line.

(* It reconstructs all the gaps, unless one of them touches an end of the series. *)
Theorem C53_succeeds_iff : forall e thr s, ready e s ->
  ((exists s', rec_apply e linear_predict thr s = Ok s') <->
   (forall x, nth_error (s_items s) 0 = Some x -> ~ lossy thr x) /\ (forall x, nth_error (s_items s) (length (s_items s) - 1) = Some x -> ~ lossy thr x)).
Proof.
  intros e thr s R. split.
  - intros (s' & H). apply (linear_ends s s' thr). apply (ready_in_place e); [exact R|right; exact H].
  - intros [F L]. destruct (linear_succeeds e s thr R F L) as [s' A]. exists s'. unfold rec_apply. rewrite (ready_duplicate e s R). cbn. rewrite A. reflexivity.
Qed.
Print Assumptions C53_succeeds_iff.

Example C53_nonvacuous : exists s', ready ideal_env (ms gap6) /\ rec_apply ideal_env linear_predict (qz 1) (ms gap6) = Ok s' /\ maximal_run (lossy (qz 1)) (s_items (ms gap6)) 2 3 /\
  (forall x, nth_error (s_items (ms gap6)) 0 = Some x -> ~ lossy (qz 1) x) /\
  (exists x' v, nth_error (s_items s') 2 = Some x' /\ i_data x' = Some (DDict [("value"%string, v)]) /\ qeqb v (qfrac 5 3) = true).
Proof.
  eexists. split; [apply gap6_ready|]. split; [vm_compute; reflexivity|]. split; [apply gap6_run|]. split; [rewrite gap6_items; intros x Hx; injection Hx as <-; rewrite ptl_lossy; lia|].
  eexists. eexists. split; [reflexivity|]. split; reflexivity.
Qed.

(* ===================== C59 ===================== *)

(* Whatever the item, the resolution and the DST setting. *)
Theorem C59_in_range : forall c dst tz t r p dst_affected k,
  (0 < p)%Z -> periodicity_index c dst tz t r p dst_affected = Ok k -> (0 <= k < p)%Z.
Proof. intros c dst tz t r p da k Hp H. eapply index_in_range; eassumption. Qed.
Print Assumptions C59_in_range.

(* On a regular grid (starting at the epoch, or aligned to it) the index advances by one at each step,
   modulo the periodicity; it is the same at a distance multiple of the period. *)
Theorem C59_advances_partial : forall c dst tz o d t n p,
  on_grid o d t n -> (0 < p)%Z ->
  exists k, periodicity_index c dst tz t (Some (RUnit (UPhys d))) p false = Ok k /\
    (forall m t', t' = Qcplus t (Qcmult (qz m) d) -> o = q0 \/ (0 <= n + m)%Z ->
       periodicity_index c dst tz t' (Some (RUnit (UPhys d))) p false = Ok ((k + m) mod p)%Z) /\
    (forall m t', t' = Qcplus t (Qcmult (qz (m * p)) d) -> o = q0 \/ (0 <= n + m * p)%Z ->
       periodicity_index c dst tz t' (Some (RUnit (UPhys d))) p false = Ok k).
Proof.
  intros c dst tz o d t n p G Hp. exists (n mod p)%Z. split; [apply (index_on_grid _ _ _ o); assumption|].
  assert (X : forall m t', t' = Qcplus t (Qcmult (qz m) d) -> o = q0 \/ (0 <= n + m)%Z -> periodicity_index c dst tz t' (Some (RUnit (UPhys d))) p false = Ok ((n + m) mod p)%Z).
  { intros m t' -> C. apply (index_on_grid _ _ _ o); [|exact Hp]. destruct G as (G1 & G2 & -> & _). split; [exact G1|]. split; [exact G2|]. split; [rewrite qz_plus; ring|exact C]. }
  split.
  - intros m t' E C. rewrite (X m t' E C). rewrite Z.add_mod_idemp_l by lia. reflexivity.
  - intros m t' E C. rewrite (X _ t' E C). rewrite Z.mod_add by lia. reflexivity.
Qed.
Print Assumptions C59_advances_partial.

(* With the DST taken into account it is the index of the local time. *)
Theorem C59_dst : forall c dst tz t d p, Qclt q0 d -> Qcle d (qz 3600) -> (0 <= dst tz t < 86400)%Z ->
  periodicity_index c dst tz t (Some (RUnit (UPhys d))) p true =
  periodicity_index c dst tz (Qcplus t (qz (dst tz t))) (Some (RUnit (UPhys d))) p false.
Proof.
  intros c dst tz t d p D L H. unfold periodicity_index. cbn [resolution_s unit_seconds bind]. destruct (Z.eqb_spec (dst tz t) 0) as [E|E].
  - rewrite E. cbn [Z.eqb]. replace (Qcplus t (qz 0)) with t; [reflexivity|]. change (qz 0) with q0. rewrite q0_eq. ring.
  - destruct (Z.ltb_spec (dst tz t) 0); [lia|]. destruct (Z.leb_spec 86400 (dst tz t)); [lia|]. cbn [orb]. rewrite qltb_false by exact L. reflexivity.
Qed.
Print Assumptions C59_dst.

(* Before the epoch, off the grid of the multiples of the resolution, two consecutive items have the same
   index (int() truncates towards zero); with a calendar resolution whose length changes, the index jumps. *)
Theorem C59_advances_refuted :
  (forall c dst tz, exists d t k, Qclt q0 d /\ periodicity_index c dst tz t (Some (RUnit (UPhys d))) 24 false = Ok k /\
     periodicity_index c dst tz (Qcplus t d) (Some (RUnit (UPhys d))) 24 false = Ok k) /\
  (exists c t k k', (forall x, cal_seconds c "1D" x = Ok (qz 86400) \/ cal_seconds c "1D" x = Ok (qz 82800)) /\
     periodicity_index c (fun _ _ => 0%Z) "Europe/Rome" t (Some (RUnit (UCal "1D"))) 7 false = Ok k /\
     periodicity_index c (fun _ _ => 0%Z) "Europe/Rome" (cal_shift c "1D" t 1) (Some (RUnit (UCal "1D"))) 7 false = Ok k' /\
     k' <> ((k + 1) mod 7)%Z).
Proof.
  split.
  - intros c dst tz. exists (qz 3600), (qz (-1800)), 0%Z. split; [apply qltb_lt; vm_compute; reflexivity|]. split; vm_compute; reflexivity.
  - set (day := qz 1553986800).  (* 2019-03-31 00:00 in Rome, 23 hours long *)
    exists (mkCal (fun _ x => if qeqb x day then Ok (qz 82800) else Ok (qz 86400)) (fun _ x n => if qeqb x day then Qcplus x (qz 82800) else Qcplus x (qz 86400))), day. eexists. eexists.
    split; [intros x; cbn; destruct (qeqb x day); auto|]. split; [vm_compute; reflexivity|]. split; [vm_compute; reflexivity|]. vm_compute. discriminate.
Qed.
Print Assumptions C59_advances_refuted.

Example C59_nonvacuous : forall c dst, on_grid (qz 100) (qz 3600) (qz 7300) 2 /\ periodicity_index c dst "UTC" (qz 7300) (Some (RUnit (UPhys (qz 3600)))) 24 false = Ok 2%Z.
Proof. intros c dst. split; [|vm_compute; reflexivity]. split; [apply qleb_le; vm_compute; reflexivity|]. split; [apply qltb_lt; vm_compute; reflexivity|]. split; [apply qeqb_eq; vm_compute; reflexivity|right; lia]. Qed.

(* ===================== C60 ===================== *)

(* Fitted on samples of a periodic signal, the reconstructor gives to the items of each gap of any other series, with the same
   label and resolution, the values of that signal, shifted by the mean of the two differences from it at the two sides of
   the gap; and leaves all the other values as they are. *)
Theorem C60_profile : forall e c dst auto f p d o lb limit thr offset_method train s,
  periodic f p d -> (0 < p)%Z ->
  ready e train -> single_label (s_items train) lb -> resolution train = Some (RUnit (UPhys d)) ->
  samples f lb o d (included limit) (s_items train) -> (forall x, In x (s_items train) -> loss_known x) ->
  (offset_method = "average"%string \/ offset_method = "extremes"%string) ->
  ready e s -> single_label (s_items s) lb -> resolution s = Some (RUnit (UPhys d)) ->
  (forall x, In x (s_items s) -> exists n, on_grid o d (i_t x) n) ->
  phases_seen p d (included limit) (s_items train) (s_items s) ->
  (forall x, nth_error (s_items s) 0 = Some x -> ~ lossy thr x) -> (forall x, nth_error (s_items s) (length (s_items s) - 1) = Some x -> ~ lossy thr x) ->
  exists m s', pa_fit c dst auto train (Some p) false offset_method limit = Ok m /\ rec_apply e (pa_predict c dst m) thr s = Ok s' /\
    length (s_items s') = length (s_items s) /\
    forall i x, nth_error (s_items s) i = Some x -> exists x', nth_error (s_items s') i = Some x' /\
      i_t x' = i_t x /\ (forall lb', has_label x' lb' <-> lb' = lb) /\
      (~ lossy thr x -> forall v, has_value x lb v -> has_value x' lb v) /\
      (lossy thr x -> exists from to before after vb va,
         maximal_run (lossy thr) (s_items s) from to /\ from <= i <= to /\
         nth_error (s_items s) (from - 1) = Some before /\ nth_error (s_items s) (S to) = Some after /\ has_value before lb vb /\ has_value after lb va /\
         has_value x' lb (Qcplus (f (i_t x)) (Qcdiv (Qcplus (Qcminus vb (f (i_t before))) (Qcminus va (f (i_t after)))) q2))).
Proof.
  intros e c dst auto f p d o lb limit thr om tr s Pf Hp Rt Lt Ut St Kt Ho R Ls Us Sg Ph F0 F1.
  destruct (pa_fit_ok e c dst f p d o lb limit tr Pf Hp Rt Lt Ut St Kt auto om Ho) as (avgs & E & Av). exists (mkPa p false avgs).
  destruct (pa_restores e c dst f p d o lb s thr avgs Hp R Ls Us Sg) as (s' & A & V); [|exact F0|exact F1|].
  - intros x n Ix G. apply Av; [exact G|]. destruct (Ph x Ix) as (y & k & Iy & Inc & Et). eauto.
  - exists s'. split; [exact E|]. split; [unfold rec_apply; rewrite (ready_duplicate e s R); cbn; rewrite A; reflexivity|]. split; [apply (C52_any_outcome _ _ _ _ _ A)|].
    intros i x Hx. destruct (V i x Hx) as (y & Hy & Sh & D0 & D1). exists y. split; [exact Hy|]. split; [apply Sh|]. pose proof (nth_error_In _ _ Hx) as Ix.
    assert (Dec : lossy thr x \/ ~ lossy thr x).
    { destruct (to_reconstruct thr x) as [b|] eqn:B; [apply to_reconstruct_spec in B; destruct B as [B _]; destruct b; [left; apply B; reflexivity|right; intros X; apply B in X; discriminate]|].
      exfalso. unfold to_reconstruct in B. destruct R as (_ & _ & _ & D & _). destruct (D x Ix) as [dx Q]. rewrite Q in B. discriminate. }
    split; [|split].
    + destruct Dec as [L|L].
      * destruct (D1 L) as (from & to & v & _ & _ & _ & Dy). intros lb'. unfold has_label, has_value. rewrite Dy. split; [intros (w & [Q|[]]); injection Q as <- _; reflexivity|intros ->; exists v; left; reflexivity].
      * intros lb'. unfold has_label, has_value. rewrite (D0 L). apply (Ls x Ix).
    + intros L v Hv. unfold has_value. rewrite (D0 L). exact Hv.
    + intros L. destruct (D1 L) as (from & to & v & M & I & (b & a & vb & va & Hb & Ha & Vb & Va & ->) & Dy). exists from, to, b, a, vb, va. repeat (split; [assumption|]). unfold has_value. rewrite Dy. left. reflexivity.
Qed.
Print Assumptions C60_profile.

(* In particular, in a series of samples of that signal, also if shifted by a constant, the signal is restored. *)
Theorem C60_restores : forall e c dst auto f p d o lb limit thr offset_method train s shift,
  periodic f p d -> (0 < p)%Z ->
  ready e train -> single_label (s_items train) lb -> resolution train = Some (RUnit (UPhys d)) ->
  samples f lb o d (included limit) (s_items train) -> (forall x, In x (s_items train) -> loss_known x) ->
  (offset_method = "average"%string \/ offset_method = "extremes"%string) ->
  ready e s -> single_label (s_items s) lb -> resolution s = Some (RUnit (UPhys d)) ->
  samples (fun t => Qcplus (f t) shift) lb o d (fun x => ~ lossy thr x) (s_items s) ->
  phases_seen p d (included limit) (s_items train) (s_items s) ->
  (forall x, nth_error (s_items s) 0 = Some x -> ~ lossy thr x) -> (forall x, nth_error (s_items s) (length (s_items s) - 1) = Some x -> ~ lossy thr x) ->
  exists m s', pa_fit c dst auto train (Some p) false offset_method limit = Ok m /\ rec_apply e (pa_predict c dst m) thr s = Ok s' /\
    length (s_items s') = length (s_items s) /\
    forall i x, nth_error (s_items s) i = Some x -> exists x', nth_error (s_items s') i = Some x' /\
      i_t x' = i_t x /\ (forall lb', has_label x' lb' <-> lb' = lb) /\ has_value x' lb (Qcplus (f (i_t x)) shift).
Proof.
  intros e c dst auto f p d o lb limit thr om tr s k Pf Hp Rt Lt Ut St Kt Ho R Ls Us Ss Ph F0 F1.
  destruct (C60_profile e c dst auto f p d o lb limit thr om tr s Pf Hp Rt Lt Ut St Kt Ho R Ls Us (fun x Ix => proj1 (Ss x Ix)) Ph F0 F1) as (m & s' & E & A & Ln & V).
  exists m, s'. split; [exact E|]. split; [exact A|]. split; [exact Ln|]. intros i x Hx. destruct (V i x Hx) as (y & Hy & Et & Lb & V0 & V1). exists y. split; [exact Hy|]. split; [exact Et|]. split; [exact Lb|].
  pose proof (nth_error_In _ _ Hx) as Ix.
  assert (Dec : lossy thr x \/ ~ lossy thr x).
  { destruct (to_reconstruct thr x) as [b|] eqn:B; [apply to_reconstruct_spec in B; destruct B as [B _]; destruct b; [left; apply B; reflexivity|right; intros X; apply B in X; discriminate]|].
    exfalso. unfold to_reconstruct in B. destruct R as (_ & _ & _ & D & _). destruct (D x Ix) as [dx Q]. rewrite Q in B. discriminate. }
  destruct Dec as [L|L]; [|apply V0; [exact L|apply (proj2 (Ss x Ix) L)]].
  destruct (V1 L) as (from & to & b & a & vb & va & M & I & Hb & Ha & Vb & Va & W).
  assert (Nf : from <> 0) by (intros ->; destruct M as (M1 & M2 & M3 & _); destruct (nth_error (s_items s) 0) as [x0|] eqn:X0; [apply (F0 x0 eq_refl), (M3 0 x0); [lia|exact X0]|apply nth_error_None in X0; lia]).
  assert (U : forall y v, In y (s_items s) -> ~ lossy thr y -> has_value y lb v -> v = Qcplus (f (i_t y)) k).
  { intros z v Iz Nl Hv. assert (Q : Ok v = Ok (Qcplus (f (i_t z)) k)); [|congruence]. rewrite <- (ready_value e s z lb v R Iz Hv). apply (ready_value e s z lb _ R Iz). apply (proj2 (Ss z Iz) Nl). }
  rewrite (U b vb (nth_error_In _ _ Hb)) in W; [|destruct M as (_ & _ & _ & M4 & _); apply (M4 (from - 1) b); [lia|exact Hb]|exact Vb].
  rewrite (U a va (nth_error_In _ _ Ha)) in W; [|destruct M as (_ & _ & _ & _ & M5); apply M5; exact Ha|exact Va].
  replace (Qcplus (f (i_t x)) k) with (Qcplus (f (i_t x)) (Qcdiv (Qcplus (Qcminus (Qcplus (f (i_t b)) k) (f (i_t b))) (Qcminus (Qcplus (f (i_t a)) k) (f (i_t a)))) q2)); [exact W|].
  assert (Q2 : q2 = Qcplus 1 1) by (apply qeqb_eq; vm_compute; reflexivity). rewrite Q2. field. intros X. apply (f_equal (fun q => qeqb q q0)) in X. vm_compute in X. discriminate.
Qed.
Print Assumptions C60_restores.

(* a signal which alternates between 1 and 2, every 10 seconds *)
Definition wave (t : Qc) : Qc := if Z.even (Qfloor (this (Qcdiv t (qz 10)))) then qz 1 else qz 2.
Lemma floor_shift x n : Qfloor (x + inject_Z n) = (Qfloor x + n)%Z.
Proof. destruct x as [a b]. unfold Qfloor, Qplus, inject_Z. cbn [Qnum Qden]. rewrite Z.mul_1_r, Pos.mul_1_r. apply Z.div_add. discriminate. Qed.
Lemma wave_periodic : periodic wave 2 (qz 10).
Proof.
  intros t. unfold wave. assert (E : Qcdiv (Qcplus t (Qcmult (qz 2) (qz 10))) (qz 10) = Qcplus (Qcdiv t (qz 10)) (qz 2)) by (field; intros X; apply qz_inj in X; discriminate).
  rewrite E. generalize (Qcdiv t (qz 10)). intros u. assert (F : Qfloor (this (Qcplus u (qz 2))) = (Qfloor (this u) + 2)%Z).
  { rewrite <- floor_shift. apply Qfloor_comp. unfold Qcplus, qz, Q2Qc. cbn [this]. rewrite !Qred_correct. reflexivity. }
  rewrite F, Z.even_add. cbn. destruct (Z.even (Qfloor (this u))); reflexivity.
Qed.
Definition unit_is (s : series) (d : Z) : bool := match resolution s with Some (RUnit (UPhys q)) => qeqb q (qz d) | _ => false end.
Lemma unit_is_eq s d : unit_is s d = true -> resolution s = Some (RUnit (UPhys (qz d))).
Proof. unfold unit_is. destruct (resolution s) as [[|[q|]]|]; try discriminate. intros H. apply qeqb_eq in H. rewrite H. reflexivity. Qed.
Example C60_nonvacuous : let s := ms gap6 in
  periodic wave 2 (qz 10) /\ ready ideal_env s /\ single_label (s_items s) "value" /\ resolution s = Some (RUnit (UPhys (qz 10))) /\
  samples wave "value" q0 (qz 10) (included (Some (qz 1))) (s_items s) /\ (forall x, In x (s_items s) -> loss_known x) /\
  samples wave "value" q0 (qz 10) (fun x => ~ lossy (qz 1) x) (s_items s) /\ phases_seen 2 (qz 10) (included (Some (qz 1))) (s_items s) (s_items s) /\
  (forall x, nth_error (s_items s) 0 = Some x -> ~ lossy (qz 1) x) /\ (forall x, nth_error (s_items s) (length (s_items s) - 1) = Some x -> ~ lossy (qz 1) x).
Proof.
  cbv zeta. pose proof gap6_ready as R. assert (E := gap6_items).
  assert (GR : forall t n, (t = n * 10)%Z -> on_grid q0 (qz 10) (qz t) n).
  { intros t n ->. split; [apply Qcle_refl|]. split; [apply qltb_lt; vm_compute; reflexivity|]. split; [rewrite qz_mult, q0_eq; ring|left; reflexivity]. }
  split; [exact wave_periodic|]. split; [exact R|]. rewrite E.
  split; [|split; [apply unit_is_eq; vm_compute; reflexivity|split; [|split; [|split; [|split; [|split]]]]]].
  - intros x Hx lb'. unfold gap6 in Hx. repeat (destruct Hx as [<-|Hx]; [unfold has_label, has_value; cbn; split; [intros (v & [X|[]]); injection X as <- _; reflexivity|intros ->; eauto]|]). destruct Hx.
  - intros x Hx. unfold gap6 in Hx. repeat (destruct Hx as [<-|Hx]; [split; [eexists; apply GR; cbn; match goal with |- (?a = _)%Z => let k := eval vm_compute in (a / 10)%Z in instantiate (1 := k); reflexivity end|
      intros I; first [left; f_equal; apply qeqb_eq; vm_compute; reflexivity | exfalso; specialize (I _ eq_refl _ eq_refl); apply (Qclt_not_le _ _ I); apply Qcle_refl]]|]). destruct Hx.
  - intros x Hx. unfold gap6 in Hx. repeat (destruct Hx as [<-|Hx]; [unfold loss_known; cbn; discriminate|]). destruct Hx.
  - intros x Hx. unfold gap6 in Hx. repeat (destruct Hx as [<-|Hx]; [split; [eexists; apply GR; cbn; match goal with |- (?a = _)%Z => let k := eval vm_compute in (a / 10)%Z in instantiate (1 := k); reflexivity end|
      rewrite ptl_lossy; intros I; first [left; f_equal; apply qeqb_eq; vm_compute; reflexivity | exfalso; apply I; lia]]|]). destruct Hx.
  - assert (S : forall t v, (t = 0 \/ t = 10)%Z -> In (ptl t v 0) gap6 -> forall n x, i_t x = qz (t + n * 20) -> exists y k, In y gap6 /\ included (Some (qz 1)) y /\ i_t x = Qcplus (i_t y) (Qcmult (qz (k * 2)) (qz 10))).
    { intros t v _ Iy n x Ex. exists (ptl t v 0), n. split; [exact Iy|]. split; [|rewrite Ex; cbn [ptl pt set_idx i_t]; rewrite <- qz_mult, <- qz_plus; f_equal; lia].
      intros l El w Ew. injection El as <-. injection Ew as <-. apply qltb_lt. vm_compute. reflexivity. }
    assert (I0 : In (ptl 0 1 0) gap6) by (left; reflexivity). assert (I1 : In (ptl 10 2 0) gap6) by (right; left; reflexivity).
    intros x Hx. unfold gap6 in Hx. destruct Hx as [<-|[<-|[<-|[<-|[<-|[<-|[]]]]]]].
    + apply (S 0%Z 1%Z (or_introl eq_refl) I0 0%Z). reflexivity.
    + apply (S 10%Z 2%Z (or_intror eq_refl) I1 0%Z). reflexivity.
    + apply (S 0%Z 1%Z (or_introl eq_refl) I0 1%Z). reflexivity.
    + apply (S 10%Z 2%Z (or_intror eq_refl) I1 1%Z). reflexivity.
    + apply (S 0%Z 1%Z (or_introl eq_refl) I0 2%Z). reflexivity.
    + apply (S 10%Z 2%Z (or_intror eq_refl) I1 2%Z). reflexivity.
  - intros x Hx. injection Hx as <-. rewrite ptl_lossy. lia.
  - intros x Hx. injection Hx as <-. rewrite ptl_lossy. lia.
Qed.

(* trained on values between 1 and 2, a gap between 6 and 7 is filled accordingly *)
Definition gap_up : list item := [ptl 0 6 0; ptl 10 7 0; ptl 20 0 1; ptl 30 0 1; ptl 40 6 0; ptl 50 7 0].
Example C60_nonvacuous_shifted : exists m s', pa_fit ex_cal (fun _ _ => 0%Z) (Err ValueError) (ms gap6) (Some 2%Z) false "average" (Some (qz 1)) = Ok m /\
  rec_apply ideal_env (pa_predict ex_cal (fun _ _ => 0%Z) m) (qz 1) (ms gap_up) = Ok s' /\
  map (fun x => match i_data x with Some (DDict [(_, v)]) => qtrunc v | _ => 0%Z end) (s_items s') = [6; 7; 6; 7; 6; 7]%Z.
Proof.
  destruct (pa_fit ex_cal (fun _ _ => 0%Z) (Err ValueError) (ms gap6) (Some 2%Z) false "average" (Some (qz 1))) as [m|] eqn:M; [|vm_compute in M; discriminate].
  destruct (rec_apply ideal_env (pa_predict ex_cal (fun _ _ => 0%Z) m) (qz 1) (ms gap_up)) as [s'|] eqn:A.
  - exists m, s'. split; [reflexivity|]. split; [exact A|]. vm_compute in M. injection M as <-. vm_compute in A. injection A as <-. vm_compute. reflexivity.
  - vm_compute in M. injection M as <-. vm_compute in A. discriminate.
Qed.
