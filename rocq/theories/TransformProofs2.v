(* TransformProofs2.v -- the extended view of a slot: weights, values, coverage. *)
From Verif Require Import SpecIntervals BaseLemmas AccessProofs AccessProofs3 DictLemmas OpsProofs OpsProofs2 OpsProofs3
  IntervalsProofs IntervalsProofs2 IntervalsProofs3 InterpProofs Transform TransformProofs.

Lemma nth_mid {A} (l1 : list A) x l2 : nth_error (l1 ++ x :: l2) (length l1) = Some x.
Proof. rewrite nth_error_app2, Nat.sub_diag; [reflexivity|lia]. Qed.
Lemma nth_right {A} (l1 : list A) x l2 k : nth_error (l1 ++ x :: l2) (length l1 + S k) = nth_error l2 k.
Proof. rewrite nth_error_app2 by lia. replace (length l1 + S k - length l1) with (S k) by lia. reflexivity. Qed.
Lemma placed_mid l1 x l2 : placed (l1 ++ x :: l2) ->
  (forall y, In y l1 -> Qcle (vp_to y) (vp_from x) /\ Qclt (tm y) (tm x)) /\ (forall y, In y l2 -> Qcle (vp_to x) (vp_from y) /\ Qclt (tm x) (tm y)).
Proof.
  intros (H1 & H2 & H3). split; intros y Hy; apply In_nth_error in Hy; destruct Hy as [k Hk].
  - assert (K : k < length l1) by (apply nth_error_Some; congruence). assert (E : nth_error (l1 ++ x :: l2) k = Some y) by (rewrite nth_error_app1 by exact K; exact Hk).
    split; [apply (H3 k (length l1)); [exact K|exact E|apply nth_mid]|]. apply (H1 k (length l1)); [exact K| |]; rewrite nth_error_map; [rewrite E|rewrite nth_mid]; reflexivity.
  - split; [apply (H3 (length l1) (length l1 + S k)); [lia|apply nth_mid|rewrite nth_right; exact Hk]|].
    apply (H1 (length l1) (length l1 + S k)); [lia| |]; rewrite nth_error_map; [rewrite nth_mid|rewrite nth_right, Hk]; reflexivity.
Qed.
Lemma placed_in pts p : placed pts -> In p pts -> vp_interp p = false /\ Qclt (vp_from p) (tm p) /\ Qclt (tm p) (vp_to p) /\ Qcle (vp_from p) (vp_to p).
Proof. intros (_ & H & _) Hp. destruct (H p Hp) as (A & B & C). split; [exact A|split; [exact B|split; [exact C|]]]. qlra. Qed.
Lemma placed_disjoint pts : placed pts -> disjoint_regions pts.
Proof. intros H. split; [intros p Hp; apply (placed_in pts); assumption|apply H]. Qed.
Lemma placed_measured pts : placed pts -> measured pts = pts.
Proof.
  intros (_ & H & _). unfold measured. induction pts as [|p l IH]; [reflexivity|]. cbn. destruct (H p (or_introl eq_refl)) as [-> _]. cbn. rewrite IH; auto using in_cons.
Qed.
Lemma placed_covered pts F T : placed pts -> covered_length pts F T = total (map (ov F T) pts).
Proof. intros H. unfold covered_length. rewrite placed_measured by exact H. reflexivity. Qed.

(* p is the last point not after F or before it, z the first one at or after T *)
Definition window (F T : Qc) (A : list vpoint) (p : vpoint) (r : list vpoint) (z : vpoint) (C : list vpoint) : Prop :=
  Qcle (tm p) F /\ (forall q, In q r -> Qcle F (tm q) /\ Qclt (tm q) T) /\ Qcle T (tm z).

Section Window.
Variables (pts : list vpoint) (F T : Qc) (A r C : list vpoint) (p z : vpoint).
Hypothesis HP : placed pts.
Hypothesis E : pts = A ++ p :: r ++ z :: C.
Hypothesis W : window F T A p r z C.
Hypothesis L : Qclt F T.

Lemma win_split : pts = (A ++ p :: r) ++ z :: C.
Proof. rewrite E, <- app_assoc. reflexivity. Qed.
Lemma win_in q : In q (A ++ p :: r ++ z :: C) <-> In q A \/ q = p \/ In q r \/ q = z \/ In q C.
Proof. rewrite in_app_iff. cbn. rewrite in_app_iff. cbn. intuition. Qed.
Lemma win_before q : In q A -> Qcle (vp_to q) F /\ Qcle (vp_to q) (vp_from p) /\ Qcle (vp_from p) F.
Proof.
  intros Hq. pose proof HP as H. rewrite E in H. destruct (placed_mid _ _ _ H) as [K _]. destruct (K q Hq) as [K1 _].
  assert (Hp : In p pts) by (rewrite E, win_in; auto). destruct (placed_in pts p HP Hp) as (_ & P1 & _). destruct W as (W1 & _). repeat split; [qlra|exact K1|qlra].
Qed.
Lemma win_after q : In q C -> Qcle T (vp_from q) /\ Qcle T (vp_to z) .
Proof.
  intros Hq. pose proof HP as H. rewrite win_split in H. destruct (placed_mid _ _ _ H) as [_ K]. destruct (K q Hq) as [K1 _].
  assert (Hz : In z pts) by (rewrite E, win_in; auto). destruct (placed_in pts z HP Hz) as (_ & P1 & P2 & _). destruct W as (_ & _ & W1). split; qlra.
Qed.
Lemma win_ov_A q : In q A -> ov F T q = q0.
Proof. intros H. apply overlap_outside. left. apply win_before. exact H. Qed.
Lemma win_ov_C q : In q C -> ov F T q = q0.
Proof. intros H. apply overlap_outside. right. apply win_after. exact H. Qed.
Lemma total_zero {B} (f : B -> Qc) l : (forall x, In x l -> f x = q0) -> total (map f l) = q0.
Proof. induction l as [|x l IH]; intros H; [reflexivity|]. cbn. rewrite H, IH by (auto using in_eq, in_cons). rewrite q0_eq. ring. Qed.
Lemma win_total (f : vpoint -> Qc) : (forall q, In q A -> f q = q0) -> (forall q, In q C -> f q = q0) ->
  total (map f pts) = total (map f (p :: r ++ [z])).
Proof.
  intros HA HC. rewrite E. change (A ++ p :: r ++ z :: C) with (A ++ (p :: r) ++ [z] ++ C). rewrite app_assoc. rewrite !map_app, !total_app.
  rewrite (total_zero f A HA), (total_zero f C HC). cbn [map total app]. rewrite map_app, total_app. cbn [map total]. rewrite q0_eq. ring.
Qed.
Lemma fills_app lb l1 x l2 : fills lb F T (l1 ++ x :: l2) = Qcplus (fills lb F T (l1 ++ [x])) (fills lb F T (x :: l2)).
Proof.
  induction l1 as [|a l1 IH]; [cbn [app]; change (fills lb F T [x]) with q0; rewrite q0_eq; ring|].
  destruct l1 as [|b l1].
  - cbn [app] in *. change (fills lb F T (a :: x :: l2)) with (Qcplus (fill lb F T a x) (fills lb F T (x :: l2))).
    change (fills lb F T [a; x]) with (Qcplus (fill lb F T a x) q0). rewrite q0_eq. ring.
  - change (fills lb F T ((a :: b :: l1) ++ x :: l2)) with (Qcplus (fill lb F T a b) (fills lb F T ((b :: l1) ++ x :: l2))). rewrite IH.
    change (fills lb F T ((a :: b :: l1) ++ [x])) with (Qcplus (fill lb F T a b) (fills lb F T ((b :: l1) ++ [x]))). ring.
Qed.
Lemma fills_zero lb l : (forall k a b, nth_error l k = Some a -> nth_error l (S k) = Some b -> overlap (vp_to a) (vp_from b) F T = q0) -> fills lb F T l = q0.
Proof.
  induction l as [|a l IH]; intros H; [reflexivity|]. destruct l as [|b l]; [reflexivity|]. change (fills lb F T (a :: b :: l)) with (Qcplus (fill lb F T a b) (fills lb F T (b :: l))).
  unfold fill. rewrite (H 0 a b eq_refl eq_refl), IH by (intros k x y Hx Hy; apply (H (S k)); assumption). rewrite q0_eq. ring.
Qed.
Lemma win_fills lb : fills lb F T pts = fills lb F T (p :: r ++ [z]).
Proof.
  rewrite E, fills_app. change (p :: r ++ z :: C) with ((p :: r) ++ z :: C). rewrite (fills_app lb (p :: r) z C).
  rewrite (fills_zero lb (A ++ [p])), (fills_zero lb (z :: C)).
  - change ((p :: r) ++ [z]) with (p :: r ++ [z]). rewrite q0_eq. ring.
  - intros k a b Ha Hb. apply overlap_outside. right. assert (Hz : Qcle T (vp_to z)).
    { assert (Hz : In z pts) by (rewrite E, win_in; auto). destruct (placed_in pts z HP Hz) as (_ & P1 & P2 & _). destruct W as (_ & _ & W1). qlra. }
    destruct k as [|k]; [injection Ha as <-; exact Hz|]. cbn in Ha. apply nth_error_In in Ha. pose proof (win_after a Ha) as [K _].
    assert (Hin : In a pts) by (rewrite E, win_in; auto). destruct (placed_in pts a HP Hin) as (_ & _ & _ & P). qlra.
  - intros k a b Ha Hb. apply overlap_outside. left. apply nth_error_In in Hb. apply in_app_iff in Hb. destruct Hb as [Hb|[<- |[]]].
    + destruct (win_before b Hb) as (K1 & _ & _). assert (Hin : In b pts) by (rewrite E, win_in; auto). destruct (placed_in pts b HP Hin) as (_ & _ & _ & P). qlra.
    + assert (Hp : In p pts) by (rewrite E, win_in; auto). destruct (placed_in pts p HP Hp) as (_ & P1 & _). destruct W as (W1 & _). qlra.
Qed.

(* consecutive points of the view *)
Lemma win_consec k a b : nth_error (p :: r ++ [z]) k = Some a -> nth_error (r ++ [z]) k = Some b ->
  nth_error pts (length A + k) = Some a /\ nth_error pts (length A + S k) = Some b /\
  Qclt (tm a) T /\ Qcle F (tm b) /\ Qclt (tm a) (tm b) /\ Qcle (vp_to a) (vp_from b).
Proof.
  intros Ha Hb. assert (E' : pts = A ++ (p :: r ++ [z]) ++ C) by (rewrite E; cbn; rewrite <- app_assoc; reflexivity).
  assert (K : k < length (r ++ [z])) by (apply nth_error_Some; congruence).
  assert (Na : nth_error pts (length A + k) = Some a) by (rewrite E', nth_error_app2 by lia; replace (length A + k - length A) with k by lia; rewrite nth_error_app1 by (cbn; lia); exact Ha).
  assert (Nb : nth_error pts (length A + S k) = Some b) by (rewrite E', nth_error_app2 by lia; replace (length A + S k - length A) with (S k) by lia; rewrite nth_error_app1 by (cbn; lia); exact Hb).
  split; [exact Na|split; [exact Nb|]]. destruct W as (W1 & W2 & W3). destruct HP as (P1 & P2 & P3). split; [|split; [|split]].
  - destruct k as [|k]; [injection Ha as <-; qlra|]. cbn in Ha. rewrite app_length in K. cbn in K. rewrite nth_error_app1 in Ha by lia. apply nth_error_In in Ha. apply W2. exact Ha.
  - apply nth_error_In in Hb. apply in_app_iff in Hb. destruct Hb as [Hb|[<- |[]]]; [apply W2; exact Hb|qlra].
  - apply (P1 (length A + k) (length A + S k)); [lia| |]; rewrite nth_error_map; [rewrite Na|rewrite Nb]; reflexivity.
  - apply (P3 (length A + k) (length A + S k)); [lia|exact Na|exact Nb].
Qed.
Lemma gap_mid_between a b : Qclt (tm a) T -> Qcle F (tm b) -> Qclt (tm a) (vp_to a) -> Qclt (vp_to a) (vp_from b) -> Qclt (vp_from b) (tm b) ->
  Qclt (tm a) (gap_mid F T a b) /\ Qclt (gap_mid F T a b) (tm b).
Proof.
  intros. unfold gap_mid, gap_from, gap_to, qhalf, q2. destruct (qltb_spec (vp_to a) F), (qltb_spec T (vp_from b)); split; qlra.
Qed.
Lemma win_sub : sub pts (length A) (S (length A + S (length r))) = p :: r ++ [z].
Proof.
  unfold sub. rewrite E, skipn_app, skipn_all, Nat.sub_diag. cbn [skipn app]. replace (S (length A + S (length r)) - length A) with (S (S (length r))) by lia.
  rewrite firstn_cons. f_equal. rewrite firstn_app. assert (K : S (length r) - length r = 1) by (clear; lia). rewrite K.
  rewrite firstn_all2 by (clear; lia). reflexivity.
Qed.
End Window.
