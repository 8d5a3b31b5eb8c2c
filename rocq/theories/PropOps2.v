(* PropOps2.v -- property theorems C29-C35. *)
From Verif Require Import SpecOps BaseLemmas AccessProofs3 OpsProofs OpsProofs2 OpsProofs3 OpsProofs4 OpsProofs5 OpsProofs6 OpsProofs7 OpsProofs8 OpsProofs9 MergeProofs OpsProofs10 AliasProofs Witness PropTactics PropAccess PropOps.

(* ===================== C29 ===================== *)

Lemma varies_lt l lb lo hi : varies l lb -> is_min lb l lo -> is_max lb l hi -> Qclt lo hi.
Proof.
  intros (x & y & v & w & Hx & Hy & Hv & Hw & Hne) [_ Hlo] [_ Hhi].
  pose proof (Hlo x v Hx Hv). pose proof (Hhi x v Hx Hv). pose proof (Hlo y w Hy Hw). pose proof (Hhi y w Hy Hw).
  destruct (Qclt_le_dec lo hi) as [L|L]; [exact L|]. exfalso. apply Hne. qlra.
Qed.
Lemma normalize_none e s a b : parses_units e -> healthy e s -> (forall lb, label_in (s_items s) lb -> varies (s_items s) lb) ->
  exists r, op_normalize e s (a, b) None = Ok r /\ healthy e r /\
    Forall2 (fun x y => same_time x y /\ i_idx y = i_idx x /\ derived x y (norm_map (lo_of (s_items s)) (hi_of (s_items s)) a b)) (s_items s) (s_items r).
Proof.
  intros He (H & N & W) Hv. destruct (normalize_gen e s a b None (lo_of (s_items s)) (hi_of (s_items s)) He H N W) as (r & R1 & R2 & R3 & R4 & R5).
  - intros lb Hlb. destruct (lo_hi_spec (s_items s) lb N Hlb) as (A & B & C). split; [exact A|].
    pose proof (varies_lt _ _ _ _ (Hv lb Hlb) B C) as L. intros E. rewrite E in L. apply Qclt_not_eq in L. congruence.
  - exists r. split; [exact R1|]. split; [split; [apply fresh_history; assumption|auto]|exact R5].
Qed.

(* the exact values: each label is mapped linearly from its own range onto the target *)
Theorem C29_normalize_values : forall e s a b, parses_units e -> healthy e s ->
  (forall lb, label_in (s_items s) lb -> varies (s_items s) lb) ->
  exists r, op_normalize e s (a, b) None = Ok r /\ healthy e r /\
    Forall2 (fun x y => in_place_of x y /\
      forall lb w, has_value y lb w <-> exists v lo hi, has_value x lb v /\ is_min lb (s_items s) lo /\ is_max lb (s_items s) hi /\ w = mapped lo hi a b v)
      (s_items s) (s_items r).
Proof.
  intros e s a b He Hh Hv. destruct (normalize_none e s a b He Hh Hv) as (r & R1 & R2 & R3). destruct Hh as (H & N & W).
  exists r. split; [exact R1|split; [exact R2|]]. revert R3. apply Forall2_impl. intros x y Hx (S1 & S2 & D). split; [split; assumption|].
  intros lb w. rewrite (D lb w). split.
  - intros (v & Hxv & ->). destruct (lo_hi_spec (s_items s) lb N) as (_ & B & C); [exists x; split; [exact Hx|exists v; exact Hxv]|]. exists v, (lo_of (s_items s) lb), (hi_of (s_items s) lb). auto.
  - intros (v & lo & hi & Hxv & Hlo & Hhi & ->). exists v. split; [exact Hxv|].
    destruct (lo_hi_spec (s_items s) lb N) as (_ & B & C); [exists x; split; [exact Hx|exists v; exact Hxv]|].
    rewrite (is_min_unique _ _ _ _ Hlo B), (is_max_unique _ _ _ _ Hhi C). reflexivity.
Qed.
Print Assumptions C29_normalize_values.

Theorem C29_normalize_range_and_order : forall e s a b, parses_units e -> healthy e s -> Qclt a b ->
  (forall lb, label_in (s_items s) lb -> varies (s_items s) lb) ->
  exists r, op_normalize e s (a, b) None = Ok r /\
    (forall lb, label_in (s_items s) lb -> is_min lb (s_items r) a /\ is_max lb (s_items r) b) /\
    (forall i j x x' y y' lb u v u' v', nth_error (s_items s) i = Some x -> nth_error (s_items r) i = Some y ->
       nth_error (s_items s) j = Some x' -> nth_error (s_items r) j = Some y' ->
       has_value x lb u -> has_value x' lb v -> has_value y lb u' -> has_value y' lb v' -> (Qclt u v <-> Qclt u' v')).
Proof.
  intros e s a b He Hh Hab Hv. destruct (normalize_none e s a b He Hh Hv) as (r & R1 & R2 & R3). destruct Hh as (H & N & W).
  exists r. split; [exact R1|split].
  - intros lb Hlb. destruct (lo_hi_spec (s_items s) lb N Hlb) as (A & B & C).
    apply (normalized_extremes (s_items s) (s_items r) (lo_of (s_items s)) (hi_of (s_items s))); try assumption; [apply N|apply R2| |apply (varies_lt (s_items s) lb); auto].
    revert R3. apply Forall2_impl. intros x y _ (_ & _ & D). exact D.
  - intros i j x x' y y' lb u v u' v' Hx Hy Hx' Hy' Hu Hv0 Hu' Hv'. destruct (Forall2_nth_inv _ _ _ R3) as [_ Hn].
    destruct (Hn i x y Hx Hy) as (_ & _ & D). destruct (Hn j x' y' Hx' Hy') as (_ & _ & D').
    assert (Nx : numeric_item x) by (apply N; apply nth_error_In in Hx; exact Hx). assert (Nx' : numeric_item x') by (apply N; apply nth_error_In in Hx'; exact Hx').
    apply D in Hu'. destruct Hu' as (u0 & Hu0 & ->). apply D' in Hv'. destruct Hv' as (v0 & Hv1 & ->).
    rewrite (has_value_fun x lb u u0 Nx Hu Hu0), (has_value_fun x' lb v v0 Nx' Hv0 Hv1).
    assert (Hlb : label_in (s_items s) lb) by (exists x; split; [apply nth_error_In in Hx; exact Hx|exists u; exact Hu]).
    destruct (lo_hi_spec (s_items s) lb N Hlb) as (_ & B & C). pose proof (varies_lt _ _ _ _ (Hv lb Hlb) B C) as L. split.
    + apply norm_map_mono; assumption.
    + intros HL. destruct (Qclt_le_dec u0 v0) as [K|K]; [exact K|]. exfalso. destruct (Qcle_lt_or_eq _ _ K) as [K'|K'].
      * pose proof (norm_map_mono (lo_of (s_items s)) (hi_of (s_items s)) a b lb v0 u0 L Hab K') as F.
        apply (Qclt_not_le _ _ F). apply Qclt_le_weak. exact HL.
      * rewrite K' in HL. apply Qclt_not_eq in HL. congruence.
Qed.
Print Assumptions C29_normalize_range_and_order.

Theorem C29_normalize_idempotent : forall e s a b, parses_units e -> healthy e s -> Qclt a b ->
  (forall lb, label_in (s_items s) lb -> varies (s_items s) lb) ->
  exists r r2, op_normalize e s (a, b) None = Ok r /\ op_normalize e r (a, b) None = Ok r2 /\
    Forall2 same_contents (s_items r) (s_items r2).
Proof.
  intros e s a b He Hh Hab Hv. destruct (C29_normalize_range_and_order e s a b He Hh Hab Hv) as (r & R1 & R2 & _).
  destruct (normalize_none e s a b He Hh Hv) as (r' & R1' & R3 & R4). rewrite R1 in R1'. injection R1' as <-.
  assert (HL : forall lb, label_in (s_items r) lb -> label_in (s_items s) lb).
  { intros lb. rewrite (label_in_derived (s_items s) (s_items r) (norm_map (lo_of (s_items s)) (hi_of (s_items s)) a b) lb); [auto|].
    revert R4. apply Forall2_impl. intros x y _ (_ & _ & D). exact D. }
  assert (Hab' : a <> b) by (intros E; rewrite E in Hab; apply Qclt_not_eq in Hab; congruence).
  assert (Hv' : forall lb, label_in (s_items r) lb -> varies (s_items r) lb).
  { intros lb Hlb. destruct (R2 lb (HL lb Hlb)) as [[(x & Hx & Hxv) _] [(y & Hy & Hyv) _]]. exists x, y, a, b. auto. }
  destruct (normalize_none e r a b He R3 Hv') as (r2 & Q1 & Q2 & Q3). exists r, r2. split; [exact R1|split; [exact Q1|]].
  revert Q3. apply Forall2_impl. intros x y Hx (S1 & S2 & D). split; [exact S1|split; [exact S2|]]. apply (derived_id x y _ D).
  intros lb v Hxv. assert (Hlb : label_in (s_items r) lb) by (exists x; split; [exact Hx|exists v; exact Hxv]).
  destruct R3 as (H3 & N3 & W3). destruct (lo_hi_spec (s_items r) lb N3 Hlb) as (_ & B & C). destruct (R2 lb (HL lb Hlb)) as [B' C'].
  unfold norm_map. rewrite (is_min_unique _ _ _ _ B B'), (is_max_unique _ _ _ _ C C'). field. intros E. apply Hab'. qlra.
Qed.
Print Assumptions C29_normalize_idempotent.

(* with a given source range, which must have all the labels *)
Theorem C29_normalize_with_source_range : forall e s a b m (lo hi : string -> Qc), parses_units e -> healthy e s ->
  (forall lb, label_in (s_items s) lb -> dget lb m = Some (lo lb, hi lb) /\ lo lb <> hi lb) ->
  exists r, op_normalize e s (a, b) (Some m) = Ok r /\ healthy e r /\
    Forall2 (fun x y => in_place_of x y /\ derived x y (fun lb v => mapped (lo lb) (hi lb) a b v)) (s_items s) (s_items r).
Proof.
  intros e s a b m lo hi He (H & N & W) Hm. destruct (normalize_gen e s a b (Some m) lo hi He H N W) as (r & R1 & R2 & R3 & R4 & R5).
  - intros lb Hlb. destruct (Hm lb Hlb) as [A B]. split; [|exact B]. unfold norm_range. destruct m; [discriminate|]. rewrite A. reflexivity.
  - exists r. split; [exact R1|split; [split; [apply fresh_history; assumption|auto]|]]. revert R5. apply Forall2_impl. intros x y _ (S1 & S2 & D).
    split; [split; assumption|exact D].
Qed.
Print Assumptions C29_normalize_with_source_range.
Lemma duo_varies lb : label_in (s_items duo_s) lb -> varies (s_items duo_s) lb.
Proof.
  intros (x & Hx & v & Hv). exists (two 0 3 1), (two 10 1 4).
  assert (H : lb = "a"%string \/ lb = "b"%string).
  { vm_compute (s_items duo_s) in Hx. in_cases Hx; destruct Hv as [[= <- _]|[[= <- _]|[]]]; auto. }
  destruct H as [-> | ->].
  - exists (qz 3), (qz 1). split; [left; reflexivity|split; [right; left; reflexivity|split; [left; reflexivity|split; [left; reflexivity|]]]].
    apply qeqb_neq. reflexivity.
  - exists (qz 1), (qz 4). split; [left; reflexivity|split; [right; left; reflexivity|split; [right; left; reflexivity|split; [right; left; reflexivity|]]]].
    apply qeqb_neq. reflexivity.
Qed.
Example C29_nonvacuous : healthy ideal_env duo_s /\ (forall lb, label_in (s_items duo_s) lb -> varies (s_items duo_s) lb) /\ label_in (s_items duo_s) "b".
Proof. split; [exact duo_healthy|split; [exact duo_varies|]]. exists (two 0 3 1). split; [left; reflexivity|exists (qz 1); right; left; reflexivity]. Qed.

(* ===================== C30 ===================== *)

Lemma rescale_setting k lb v : rescale_value k lb v = Ok (Qcmult v (setting k q1 lb)).
Proof. unfold rescale_value, setting. destruct k as [q|d]; [reflexivity|]. destruct (dget lb d); [reflexivity|]. f_equal. rewrite q1_eq. ring. Qed.
Lemma offset_setting k lb v : offset_value k lb v = Ok (Qcplus v (setting k q0 lb)).
Proof. unfold offset_value, setting. destruct k as [q|d]; [reflexivity|]. destruct (dget lb d); [reflexivity|]. f_equal. rewrite q0_eq. ring. Qed.

Theorem C30_rescale : forall e s k, parses_units e -> healthy e s ->
  exists r, op_rescale e s k = Ok r /\ healthy e r /\
    Forall2 (fun x y => in_place_of x y /\ derived x y (fun lb v => Qcmult v (setting k q1 lb))) (s_items s) (s_items r).
Proof.
  intros e s k He (H & N & W). destruct (pointwise_spec e s (rescale_value k) (fun lb v => Qcmult v (setting k q1 lb)) He H N W) as (r & R1 & R2 & R3 & R4 & R5).
  - intros. apply rescale_setting.
  - exists r. split; [exact R1|split; [split; [apply fresh_history; assumption|auto]|]]. revert R5. apply Forall2_impl. intros x y _ (S1 & S2 & D).
    split; [split; assumption|exact D].
Qed.
Print Assumptions C30_rescale.
Theorem C30_offset : forall e s k, parses_units e -> healthy e s ->
  exists r, op_offset e s k = Ok r /\ healthy e r /\
    Forall2 (fun x y => in_place_of x y /\ derived x y (fun lb v => Qcplus v (setting k q0 lb))) (s_items s) (s_items r).
Proof.
  intros e s k He (H & N & W). destruct (pointwise_spec e s (offset_value k) (fun lb v => Qcplus v (setting k q0 lb)) He H N W) as (r & R1 & R2 & R3 & R4 & R5).
  - intros. apply offset_setting.
  - exists r. split; [exact R1|split; [split; [apply fresh_history; assumption|auto]|]]. revert R5. apply Forall2_impl. intros x y _ (S1 & S2 & D).
    split; [split; assumption|exact D].
Qed.
Print Assumptions C30_offset.

Lemma two_steps (l m n : list item) g h f :
  Forall2 (fun x y => in_place_of x y /\ derived x y g) l m -> Forall2 (fun x y => in_place_of x y /\ derived x y h) m n ->
  forall n', Forall2 (fun x y => in_place_of x y /\ derived x y f) l n' -> (forall lb v, h lb (g lb v) = f lb v) ->
  Forall2 same_contents n' n.
Proof.
  intros H. revert n. induction H as [|x y l m [[T1 I1] D1] _ IH]; intros n H2 n' H3 Hf; inversion H2 as [|? z ? n0 [[T2 I2] D2] H2']; inversion H3 as [|? z' ? n0' [[T3 I3] D3] H3']; subst; constructor.
  - split; [|split].
    + destruct T1 as (a1&a2&a3&a4&a5), T2 as (b1&b2&b3&b4&b5), T3 as (c1&c2&c3&c4&c5). repeat split; congruence.
    + congruence.
    + apply (derived_ext x z' z f (fun lb v => h lb (g lb v)) D3); [apply (derived_compose x y z); assumption|]. intros. symmetry. apply Hf.
  - apply IH; assumption.
Qed.
Lemma two_steps_id (l m n : list item) g h :
  Forall2 (fun x y => in_place_of x y /\ derived x y g) l m -> Forall2 (fun x y => in_place_of x y /\ derived x y h) m n ->
  (forall lb v, h lb (g lb v) = v) -> Forall2 same_contents l n.
Proof.
  intros H. revert n. induction H as [|x y l m [[T1 I1] D1] _ IH]; intros n H2 Hf; inversion H2 as [|? z ? n0 [[T2 I2] D2] H2']; subst; constructor.
  - split; [|split].
    + destruct T1 as (a1&a2&a3&a4&a5), T2 as (b1&b2&b3&b4&b5). repeat split; congruence.
    + congruence.
    + apply (derived_id x z (fun lb v => h lb (g lb v))); [apply (derived_compose x y z); assumption|]. intros. apply Hf.
  - apply IH; assumption.
Qed.

(* one after the other is the same as once with the product (for numbers or dictionaries) *)
Theorem C30_rescale_composes : forall e s k1 k2 k3, parses_units e -> healthy e s ->
  (forall lb, setting k3 q1 lb = Qcmult (setting k1 q1 lb) (setting k2 q1 lb)) ->
  exists r1 r2 r3, op_rescale e s k1 = Ok r1 /\ op_rescale e r1 k2 = Ok r2 /\ op_rescale e s k3 = Ok r3 /\
    Forall2 same_contents (s_items r3) (s_items r2).
Proof.
  intros e s k1 k2 k3 He Hh Hk. destruct (C30_rescale e s k1 He Hh) as (r1 & A1 & A2 & A3). destruct (C30_rescale e r1 k2 He A2) as (r2 & B1 & B2 & B3).
  destruct (C30_rescale e s k3 He Hh) as (r3 & C1 & C2 & C3). exists r1, r2, r3. split; [exact A1|split; [exact B1|split; [exact C1|]]].
  apply (two_steps _ _ _ _ _ _ A3 B3 _ C3). intros lb v. rewrite Hk. ring.
Qed.
Print Assumptions C30_rescale_composes.
Theorem C30_offset_composes : forall e s k1 k2 k3, parses_units e -> healthy e s ->
  (forall lb, setting k3 q0 lb = Qcplus (setting k1 q0 lb) (setting k2 q0 lb)) ->
  exists r1 r2 r3, op_offset e s k1 = Ok r1 /\ op_offset e r1 k2 = Ok r2 /\ op_offset e s k3 = Ok r3 /\
    Forall2 same_contents (s_items r3) (s_items r2).
Proof.
  intros e s k1 k2 k3 He Hh Hk. destruct (C30_offset e s k1 He Hh) as (r1 & A1 & A2 & A3). destruct (C30_offset e r1 k2 He A2) as (r2 & B1 & B2 & B3).
  destruct (C30_offset e s k3 He Hh) as (r3 & C1 & C2 & C3). exists r1, r2, r3. split; [exact A1|split; [exact B1|split; [exact C1|]]].
  apply (two_steps _ _ _ _ _ _ A3 B3 _ C3). intros lb v. rewrite Hk. ring.
Qed.
Print Assumptions C30_offset_composes.
Theorem C30_rescale_inverse : forall e s k1 k2, parses_units e -> healthy e s ->
  (forall lb, Qcmult (setting k1 q1 lb) (setting k2 q1 lb) = q1) ->
  exists r1 r2, op_rescale e s k1 = Ok r1 /\ op_rescale e r1 k2 = Ok r2 /\ Forall2 same_contents (s_items s) (s_items r2).
Proof.
  intros e s k1 k2 He Hh Hk. destruct (C30_rescale e s k1 He Hh) as (r1 & A1 & A2 & A3). destruct (C30_rescale e r1 k2 He A2) as (r2 & B1 & B2 & B3).
  exists r1, r2. split; [exact A1|split; [exact B1|]]. apply (two_steps_id _ _ _ _ _ A3 B3). intros lb v. rewrite <- Qcmult_assoc, Hk, q1_eq. ring.
Qed.
Print Assumptions C30_rescale_inverse.
Theorem C30_offset_inverse : forall e s k1 k2, parses_units e -> healthy e s ->
  (forall lb, Qcplus (setting k1 q0 lb) (setting k2 q0 lb) = q0) ->
  exists r1 r2, op_offset e s k1 = Ok r1 /\ op_offset e r1 k2 = Ok r2 /\ Forall2 same_contents (s_items s) (s_items r2).
Proof.
  intros e s k1 k2 He Hh Hk. destruct (C30_offset e s k1 He Hh) as (r1 & A1 & A2 & A3). destruct (C30_offset e r1 k2 He A2) as (r2 & B1 & B2 & B3).
  exists r1, r2. split; [exact A1|split; [exact B1|]]. apply (two_steps_id _ _ _ _ _ A3 B3). intros lb v. rewrite <- Qcplus_assoc, Hk, q0_eq. ring.
Qed.
Print Assumptions C30_offset_inverse.
Example C30_nonvacuous : healthy ideal_env duo_s /\ (forall lb, Qcmult (setting (KDict [("a"%string, qz 2)]) q1 lb) (setting (KDict [("a"%string, qfrac 1 2)]) q1 lb) = q1) /\
  match op_rescale ideal_env duo_s (KDict [("a"%string, qz 2)]) with Ok r => match nth_error (s_items r) 4 with Some y => has_value y "a" (qz 10) /\ has_value y "b" (qz 9) | None => False end | Err _ => False end.
Proof.
  split; [exact duo_healthy|split].
  - intros lb. unfold setting. cbn [dget]. destruct (String.eqb lb "a"); apply qeqb_eq; vm_compute; reflexivity.
  - vm_compute. split; [left; f_equal; apply qeqb_eq; vm_compute; reflexivity|right; left; f_equal; apply qeqb_eq; vm_compute; reflexivity].
Qed.

(* ===================== C31 ===================== *)

Theorem C31_filter : forall e s labels, parses_units e -> healthy e s ->
  (forall x, In x (s_items s) -> exists d, i_data x = Some (DDict d)) ->
  labels <> [] -> NoDup labels -> (forall lb, In lb labels -> label_in (s_items s) lb) ->
  exists r, op_filter e s labels = Ok r /\ numeric (s_items r) /\ wf_items (s_items r) /\
    Forall2 (fun x y => in_place_of x y /\ forall lb v, has_value y lb v <-> In lb labels /\ has_value x lb v) (s_items s) (s_items r).
Proof.
  intros e s labels He (H & N & W) Hd Hne Hnd Hl. destruct (filter_spec e s labels He H N W Hd Hne Hnd Hl) as (r & R1 & R2 & R3 & R4).
  exists r. split; [exact R1|split; [exact R2|split; [exact R3|]]]. revert R4. apply Forall2_impl. intros x y _ (S1 & S2 & D). split; [split; assumption|exact D].
Qed.
Print Assumptions C31_filter.
Example C31_nonvacuous : healthy ideal_env duo_s /\ (forall x, In x (s_items duo_s) -> exists d, i_data x = Some (DDict d)) /\
  (forall lb, In lb ["b"%string] -> label_in (s_items duo_s) lb).
Proof.
  split; [exact duo_healthy|split].
  - intros x Hx. vm_compute (s_items duo_s) in Hx. in_cases Hx; eexists; reflexivity.
  - intros lb [<-|[]]. exists (two 0 3 1). split; [left; reflexivity|exists (qz 1); right; left; reflexivity].
Qed.

(* ===================== C32 ===================== *)

(* Series of the same type and resolution, whose timestamps are contiguous parts of one time line with
   a common part.  Missing: misaligned series (refuted below). *)
Theorem C32_merge_partial : forall e u C ss, parses_units e -> ss <> [] -> (forall s, In s ss -> mergeable u C s) ->
  on_common_grid ss -> (exists t, common_time ss t) ->
  exists r, op_merge e ss = Ok r /\ wf_items (s_items r) /\ numeric (s_items r) /\
    (forall t, In t (times (s_items r)) <-> common_time ss t) /\
    forall y, In y (s_items r) -> exists xs, items_at ss (i_t y) xs /\ i_cls y = C /\
      (forall lb v, has_value y lb v <-> exists vs, collected lb xs vs /\ vs <> [] /\ v = mean vs) /\
      (forall ix v, dget ix (i_idx y) = Some (Some v) <-> exists vs, collected_idx ix xs vs /\ vs <> [] /\ v = mean vs).
Proof.
  intros e u C ss He Hne Hm Hg Hc. destruct (merge_spec e u C ss He Hne Hm Hg Hc) as (r & R1 & R2 & R3 & R4 & R5 & R6).
  exists r. split; [exact R1|split; [exact R2|split; [exact R3|split; [exact R5|exact R6]]]].
Qed.
Print Assumptions C32_merge_partial.

Definition sA : series := mk_s [pt 0 1; pt 10 2; pt 20 3].
Definition sB : series := mk_s [pt 5 1; pt 15 2; pt 25 3].
Definition sC : series := mk_s [pt 30 1; pt 40 2; pt 50 3].
(* the same with no common timestamps: an empty series *)
Theorem C32_merge_no_overlap : forall e u C ss, ss <> [] -> (forall s, In s ss -> mergeable u C s) ->
  on_common_grid ss -> (forall t, ~ common_time ss t) -> exists r, op_merge e ss = Ok r /\ s_items r = [].
Proof. intros e u C ss H1 H2 H3 H4. exists (empty_series None). split; [apply (merge_disjoint e u C); assumption|reflexivity]. Qed.
Print Assumptions C32_merge_no_overlap.
Example C32_no_overlap_nonvacuous : op_merge ideal_env [sA; sC] = Ok (empty_series None) /\ on_common_grid [sA; sC].
Proof.
  split; [vm_compute; reflexivity|]. exists [qz 0; qz 10; qz 20; qz 30; qz 40; qz 50]. split.
  - apply sincr_consecutive. intros [|[|[|[|[|[|i]]]]]] a b; cbn [nth_error]; try discriminate; intros [= <-] [= <-]; apply qltb_lt; vm_compute; reflexivity.
  - intros s [<-|[<-|[]]]; [exists [], [qz 30; qz 40; qz 50]|exists [qz 0; qz 10; qz 20], []]; vm_compute; reflexivity.
Qed.
(* misaligned series of the same resolution: an exception, where the intersection is empty *)
Theorem C32_merge_refuted : op_merge ideal_env [sA; sB] = Err KeyError /\ (forall t, ~ common_time [sA; sB] t).
Proof.
  split; [vm_compute; reflexivity|]. intros t H.
  pose proof (H sA (or_introl eq_refl)) as H1. pose proof (H sB (or_intror (or_introl eq_refl))) as H2.
  vm_compute in H1, H2. destruct H1 as [<-|[<-|[<-|[]]]]; destruct H2 as [E|[E|[E|[]]]]; apply qc_eq in E; discriminate E.
Qed.
Print Assumptions C32_merge_refuted.
Definition sD : series := mk_s [ptd 10 (d2 4 6); ptd 20 (d2 8 1)].
Lemma mk_mergeable l : let s := mk_s l in numeric (s_items s) -> wf_items (s_items s) -> s_res s = s_res sA ->
  forallb (fun x => match i_cls x, i_data x, i_idx x with CDataTimePoint, Some (DDict _), [] => true | _, _, _ => false end) (s_items s) = true ->
  exists u, s_res sA = Some (RUnit u) /\ mergeable u CDataTimePoint s.
Proof.
  intros s N W R F. exists (match s_res sA with Some (RUnit u) => u | _ => UPhys q0 end). split; [vm_compute; reflexivity|].
  split; [exact N|split; [exact W|split; [rewrite R; vm_compute; reflexivity|]]]. intros x Hx. rewrite forallb_forall in F. specialize (F x Hx).
  destruct (i_cls x); try discriminate. destruct (i_data x) as [[|d]|]; try discriminate. destruct (i_idx x); [|discriminate].
  split; [reflexivity|split; [eauto|constructor]].
Qed.
Example C32_nonvacuous : exists r, op_merge ideal_env [sA; mk_s [ptd 10 (d2 4 6); ptd 20 (d2 8 1); ptd 30 (d2 0 0)]] = Ok r /\ length (s_items r) = 2 /\
  (forall y, nth_error (s_items r) 0 = Some y -> qeqb (i_t y) (qz 10) = true /\ match i_data y with Some (DDict d) => dkeys d = ["value"%string; "a"%string; "b"%string] | _ => False end) /\
  on_common_grid [sA; mk_s [ptd 10 (d2 4 6); ptd 20 (d2 8 1); ptd 30 (d2 0 0)]].
Proof.
  eexists. split; [vm_compute; reflexivity|split; [reflexivity|split]].
  - intros y. cbn [s_items nth_error]. intros [= <-]. vm_compute. split; reflexivity.
  - exists [qz 0; qz 10; qz 20; qz 30]. split.
    + apply sincr_consecutive. intros [|[|[|[|i]]]] a b; cbn [nth_error]; try discriminate; intros [= <-] [= <-]; apply qltb_lt; vm_compute; reflexivity.
    + intros s [<-|[<-|[]]]; [exists [], [qz 30]|exists [qz 0], []]; vm_compute; reflexivity.
Qed.

(* ===================== C33 ===================== *)

Lemma split_at_first c a r : no_char c a -> split_at c (a ++ String c r)%string = a :: split_at c r.
Proof.
  induction a as [|x a IH]; cbn; intros H; [rewrite Ascii.eqb_refl; reflexivity|]. destruct H as [H1 H2].
  destruct (Ascii.eqb_spec x c) as [E|E]; [congruence|]. rewrite (IH H2). reflexivity.
Qed.
Lemma split_at_cons c r : exists w ws, split_at c r = w :: ws.
Proof.
  induction r as [|x r (w & ws & IH)]; cbn; [eauto|]. destruct (Ascii.eqb x c); [eauto|]. rewrite IH. eauto.
Qed.
Lemma split_at_none c a : no_char c a -> split_at c a = [a].
Proof.
  induction a as [|x a IH]; cbn; intros H; [reflexivity|]. destruct H as [H1 H2].
  destruct (Ascii.eqb_spec x c) as [E|E]; [congruence|]. rewrite (IH H2). reflexivity.
Qed.
Lemma contains_char c a r : str_contains (String c EmptyString) (a ++ String c r)%string = true.
Proof.
  induction a as [|x a IH]; cbn [append str_contains].
  - cbn [String.prefix]. destruct (ascii_dec c c) as [_|K]; [destruct r; reflexivity|congruence].
  - rewrite IH. apply orb_true_r.
Qed.
(* query: text, '=', number; no ' and ' in it.  The items matching, in order; None if there are none.
   Missing: conjunctions (refuted below). *)
Theorem C33_select_partial : forall pf e s a b lb v, healthy e s -> no_char "=" a -> no_char "=" b ->
  str_contains " and " (a ++ "=" ++ b)%string = false -> unquote (strip a) = lb -> pf b = Ok v -> label_in (s_items s) lb ->
  exists o, op_select pf s (a ++ "=" ++ b)%string = Ok o /\
    ((exists x, In x (s_items s) /\ has_value x lb v) -> exists r, o = Some r /\ filtered (fun x => has_value x lb v) (s_items s) r) /\
    ((forall x, In x (s_items s) -> ~ has_value x lb v) -> o = None).
Proof.
  intros pf e s a b lb v (H & N & W) Ha Hb Hand Hlb Hpf Hin. destruct (select_spec (s_items s) lb v N Hin) as (o & E & R). exists o. split; [|exact R].
  unfold op_select. destruct (prep_ok e s H N) as (x & l & El & Hp). rewrite Hp. cbn [bind]. rewrite Hand.
  change ("=" ++ b)%string with (String "=" b). rewrite contains_char. cbn [negb]. rewrite (split_at_first _ a b Ha), (split_at_none _ b Hb), Hpf. cbn [bind]. rewrite Hlb. exact E.
Qed.
Print Assumptions C33_select_partial.
Theorem C33_select_conjunction_refuted : forall pf e s q, healthy e s -> str_contains " and " q = true -> op_select pf s q = Err NotImplementedError.
Proof. intros pf e s q (H & N & W) Hq. unfold op_select. destruct (prep_ok e s H N) as (x & l & El & Hp). rewrite Hp. cbn [bind]. rewrite Hq. reflexivity. Qed.
Print Assumptions C33_select_conjunction_refuted.
Definition q_eq (a b : string) : string := (a ++ "=" ++ b)%string.
Example C33_nonvacuous : no_char "=" "a " /\ no_char "=" " 1" /\ str_contains " and " (q_eq "a " " 1") = false /\ unquote (strip "a ") = "a"%string /\
  match op_select (fun _ => Ok (qz 1)) duo_s (q_eq "a " " 1") with Ok (Some r) => length r = 2 | _ => False end.
Proof. repeat split; try discriminate; vm_compute; reflexivity. Qed.

(* ===================== C34 ===================== *)

Theorem C34_rescale_in_place : forall e s k, parses_units e -> healthy e s ->
  exists r r', op_rescale e s k = Ok r /\ inplace_rescale s k = Ok r' /\ Forall2 same_contents (s_items r) (s_items r').
Proof.
  intros e s k He (H & N & W). destruct (pointwise_spec e s (rescale_value k) (fun lb v => Qcmult v (setting k q1 lb)) He H N W) as (r & R1 & _ & _ & _ & R5).
  { intros. apply rescale_setting. }
  destruct (inplace_spec e s (rescale_value k) (fun lb v => Qcmult v (setting k q1 lb)) H N) as (r' & Q1 & _ & _ & Q4).
  { intros. apply rescale_setting. }
  exists r, r'. split; [exact R1|split; [exact Q1|]]. apply (inplace_agrees _ _ _ _ _ R5 Q4). reflexivity.
Qed.
Print Assumptions C34_rescale_in_place.
Theorem C34_offset_in_place : forall e s k, parses_units e -> healthy e s ->
  exists r r', op_offset e s k = Ok r /\ inplace_offset s k = Ok r' /\ Forall2 same_contents (s_items r) (s_items r').
Proof.
  intros e s k He (H & N & W). destruct (pointwise_spec e s (offset_value k) (fun lb v => Qcplus v (setting k q0 lb)) He H N W) as (r & R1 & _ & _ & _ & R5).
  { intros. apply offset_setting. }
  destruct (inplace_spec e s (offset_value k) (fun lb v => Qcplus v (setting k q0 lb)) H N) as (r' & Q1 & _ & _ & Q4).
  { intros. apply offset_setting. }
  exists r, r'. split; [exact R1|split; [exact Q1|]]. apply (inplace_agrees _ _ _ _ _ R5 Q4). reflexivity.
Qed.
Print Assumptions C34_offset_in_place.
Theorem C34_normalize_in_place : forall e s a b, parses_units e -> healthy e s ->
  (forall lb, label_in (s_items s) lb -> varies (s_items s) lb) ->
  exists r r', op_normalize e s (a, b) None = Ok r /\ inplace_normalize s (a, b) None = Ok r' /\ Forall2 same_contents (s_items r) (s_items r').
Proof.
  intros e s a b He Hh Hv. destruct (normalize_none e s a b He Hh Hv) as (r & R1 & R2 & R3). destruct Hh as (H & N & W).
  destruct (prep_ok e s H N) as (x & l & El & Hp).
  assert (HL : forall lb, label_in (s_items s) lb <-> In lb (item_labels x)) by (intros lb; eapply label_in_first; eassumption).
  assert (Hne : forall lb, label_in (s_items s) lb -> lo_of (s_items s) lb <> hi_of (s_items s) lb).
  { intros lb Hlb. destruct (lo_hi_spec (s_items s) lb N Hlb) as (_ & B & C). pose proof (varies_lt _ _ _ _ (Hv lb Hlb) B C) as L. intros E. rewrite E in L. apply Qclt_not_eq in L. congruence. }
  set (rs := map (fun lb => (lb, (lo_of (s_items s) lb, hi_of (s_items s) lb))) (item_labels x)).
  destruct (inplace_spec e s (fun lb v => do r <- pick rs lb; norm_value (fst r) (snd r) (a, b) v) (norm_map (lo_of (s_items s)) (hi_of (s_items s)) a b) H N) as (r' & Q1 & _ & _ & Q4).
  { intros lb v y Hy Hyv. assert (Hlb : label_in (s_items s) lb) by (exists y; split; [exact Hy|exists v; exact Hyv]).
    unfold pick, rs. rewrite dget_map_label by (apply HL, Hlb). cbn [bind fst snd]. apply norm_value_ok. apply Hne, Hlb. }
  exists r, r'. split; [exact R1|split].
  - unfold inplace_normalize. rewrite Hp. cbn [bind snd].
    rewrite (per_label_ok _ _ (fun lb => (lo_of (s_items s) lb, hi_of (s_items s) lb))); [|intros lb Hlb; apply (lo_hi_spec (s_items s) lb N), HL, Hlb]. exact Q1.
  - apply (inplace_agrees _ _ _ _ _ R3 Q4). reflexivity.
Qed.
Print Assumptions C34_normalize_in_place.

(* the labels are read again after adding the new ones: the cumulative sum in place adds labels the
   out-of-place one does not have, the derivative raises; and the derivative of list data reads values
   it has already replaced *)
Theorem C34_in_place_refuted :
  (exists r y w, inplace_integral no_cal duo_s false (KNum q0) (Err ValueError) = Ok r /\ nth_error (s_items r) 1 = Some y /\ has_value y "a_csum_csum" w) /\
  inplace_derivative no_cal duo_s true (Err ValueError) = Err KeyError /\
  let sl := mk_s [ptd 0 (DList [qz 0]); ptd 10 (DList [qz 10]); ptd 20 (DList [qz 30]); ptd 30 (DList [qz 60])] in
  exists r r' y y', op_derivative ideal_env no_cal sl (Err ValueError) = Ok r /\ inplace_derivative no_cal sl true (Err ValueError) = Ok r' /\
    nth_error (s_items r) 1 = Some y /\ nth_error (s_items r') 1 = Some y' /\
    (exists v w, has_value y "0" v /\ has_value y' "0" w /\ v <> w).
Proof.
  split; [|split; [vm_compute; reflexivity|]].
  - eexists. eexists. eexists. split; [vm_compute; reflexivity|split; [vm_compute; reflexivity|]]. right; right; right; left; reflexivity.
  - intros sl. eexists. eexists. eexists. eexists.
    split; [vm_compute; reflexivity|split; [vm_compute; reflexivity|split; [vm_compute; reflexivity|split; [vm_compute; reflexivity|]]]].
    eexists. eexists. split; [exists 0; split; reflexivity|split; [exists 0; split; reflexivity|]]. apply qeqb_neq. vm_compute. reflexivity.
Qed.
Print Assumptions C34_in_place_refuted.
Example C34_nonvacuous : healthy ideal_env duo_s /\ is_ok (inplace_normalize duo_s (q0, q1) None) = true.
Proof. split; [exact duo_healthy|vm_compute; reflexivity]. Qed.

(* ===================== C35 ===================== *)

(* Whatever an out-of-place operation computes, and wherever it takes the index dictionaries from:
   its source, and any other series, read the same after it. *)
Theorem C35_source_unchanged : forall F plan h s h' r other, sound h -> live h s -> live h other ->
  h_op F plan h s = Ok (h', r) -> read_series h' other = read_series h other.
Proof. exact h_op_source_unchanged. Qed.
Print Assumptions C35_source_unchanged.
(* and after changing the data of the result, or replacing its index dictionaries (or changing them in
   place, when the operation did not share them).  Missing: writing in a shared index dictionary. *)
Theorem C35_result_changes_partial : forall F plan h s h' r other w, sound h -> live h s -> live h other ->
  h_op F plan h s = Ok (h', r) ->
  match w with WData _ _ => True | WNewIdx _ _ => True | WIdx p _ => plan p = None end ->
  read_series (h_write h' r w) other = read_series h other.
Proof. exact h_write_safe. Qed.
Print Assumptions C35_result_changes_partial.

(* rescale shares the index dictionaries: writing in those of the result changes the source; so does
   changing an item of a slice *)
Definition lossy : item := mkItem CDataTimePoint q0 q0 (UPhys q0) "UTC" (Some (d1 5)) [("data_loss"%string, Some q0)] None.
Definition heap1 : heap := mkHeap [mkHItem lossy 0 0] [d1 5] [[("data_loss"%string, Some q0)]].
Definition rescale_items (k : konst) (l : list item) : result (list item) :=
  do s <- ts_new ideal_env None l; do r <- op_rescale ideal_env s k; Ok (s_items r).
Theorem C35_shared_indexes_refuted : exists h' r,
  h_op (rescale_items (KNum (qz 2))) (fun i => Some i) heap1 [0] = Ok (h', r) /\
  read_series (h_write h' r (WIdx 0 [("data_loss"%string, Some q1)])) [0] <> read_series heap1 [0] /\
  read_series (h_write heap1 (h_slice 0 1 [0]) (WData 0 (d1 6))) [0] <> read_series heap1 [0].
Proof.
  eexists. eexists. split; [vm_compute; reflexivity|split].
  - intros H. vm_compute in H. injection H as H. discriminate H.
  - intros H. vm_compute in H. injection H as H. discriminate H.
Qed.
Print Assumptions C35_shared_indexes_refuted.
Example C35_nonvacuous : sound heap1 /\ live heap1 [0].
Proof. split; [intros x [<-|[]]; split; cbn; lia|intros a [<-|[]]; cbn; lia]. Qed.
