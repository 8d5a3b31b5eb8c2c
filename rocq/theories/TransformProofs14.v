(* TransformProofs14.v -- data loss of the new items, series without gaps. *)
From Verif Require Import SpecTransform BaseLemmas AccessProofs AccessProofs3 DictLemmas OpsProofs OpsProofs2 OpsProofs3
  IntervalsProofs IntervalsProofs2 IntervalsProofs3 InterpProofs TransformProofs TransformProofs2 TransformProofs3 TransformProofs4 TransformProofs5 TransformProofs6 TransformProofs7 TransformProofs8 TransformProofs9 TransformProofs10 TransformProofs11 TransformProofs12 TransformProofs13.

Lemma missing_bounds pts F T : disjoint_regions pts -> Qclt F T ->
  Qcle q0 (missing_fraction pts F T) /\ Qcle (missing_fraction pts F T) q1 /\
  ((forall x, Qclt F x -> Qclt x T -> covered pts x) -> missing_fraction pts F T = q0) /\
  ((forall x, covered pts x -> ~ (Qclt F x /\ Qclt x T)) -> missing_fraction pts F T = q1).
Proof.
  intros D L. destruct (disjoint_chain_ex pts D) as [lo C]. unfold missing_fraction. rewrite covered_length_olen. assert (LP : Qclt q0 (Qcminus T F)) by qlra.
  destruct (div_bounds (olen (ivs_of pts) F T) (Qcminus T F) LP) as [B1 B2]. { apply olen_nonneg. } { apply (olen_le _ lo); [exact C|apply Qclt_le_weak; exact L]. }
  split; [qlra|split; [qlra|split]].
  - intros H. replace (Qcdiv (olen (ivs_of pts) F T) (Qcminus T F)) with q1; [rewrite q1_eq, q0_eq; ring|]. symmetry. apply (div_one _ _ LP).
    apply (olen_full _ lo); [exact C|exact L|]. intros x L1 L2. apply ivs_inside. apply H; assumption.
  - intros H. rewrite olen_none.
    + assert (N : Qcminus T F <> q0) by (intros X; qlra). rewrite q0_eq, q1_eq in *. field. exact N.
    + intros a b Hab. unfold ivs_of, measured in Hab. apply in_map_iff in Hab. destruct Hab as (p & E & Hp). injection E as <- <-. apply filter_In in Hp. apply D. apply Hp.
    + intros x Hx. apply H. apply ivs_inside. exact Hx.
    + exact L.
Qed.
Lemma missing_zero pts F T : Qclt F T -> missing_fraction pts F T = q0 -> covered_length pts F T = Qcminus T F.
Proof.
  intros L H. unfold missing_fraction in H. assert (N : Qcminus T F <> q0) by (intros X; apply (Qclt_not_eq _ _ L); qlra).
  apply (mul_cancel _ _ (Qcdiv q1 (Qcminus T F))); [|assert (X : Qcdiv (covered_length pts F T) (Qcminus T F) = q1) by qlra; rewrite q1_eq in *; transitivity (Qcdiv (covered_length pts F T) (Qcminus T F)); [field; exact N|rewrite X; field; exact N]].
  intros X. assert (Y : Qcmult (Qcdiv q1 (Qcminus T F)) (Qcminus T F) = q1) by (rewrite q1_eq; field; exact N). rewrite X, q0_eq, Qcmult_0_l in Y. apply qc_eq in Y. vm_compute in Y. discriminate.
Qed.

(* ---------------- no gaps ---------------- *)
Lemma consecutive_cons {A} (R : A -> A -> Prop) x l : consecutive R (x :: l) -> consecutive R l /\ (forall y, nth_error l 0 = Some y -> R x y).
Proof. intros H. split; [intros i a b Ha Hb; apply (H (S i)); assumption|]. intros y Hy. apply (H 0); [reflexivity|exact Hy]. Qed.
Lemma consecutive_filter_block l F T si : strictly_increasing (times l) -> close si l -> close si (points_in l F T).
Proof.
  (* the points in [F, T) are consecutive points of the series *)
  intros H C. set (f := fun x => mkVp x q0 q0 false). assert (E : map vp_item (map f l) = l) by (rewrite map_map; apply map_id).
  assert (Et : map tm (map f l) = times l) by (rewrite map_map; reflexivity). destruct (inside_block F T (map f l)) as (A & B & EA); [rewrite Et; exact H|].
  assert (El : l = map vp_item A ++ points_in l F T ++ map vp_item B) by (rewrite <- E at 1; rewrite EA at 1; rewrite !map_app, inside_items, E; reflexivity).
  intros i a b Ha Hb. apply (C (length (map vp_item A) + i)).
  - rewrite El, nth_error_app2 by lia. replace (length (map vp_item A) + i - length (map vp_item A)) with i by lia. rewrite nth_error_app1; [exact Ha|]. apply nth_error_Some. congruence.
  - replace (S (length (map vp_item A) + i)) with (length (map vp_item A) + S i) by lia. rewrite El, nth_error_app2 by lia. replace (length (map vp_item A) + S i - length (map vp_item A)) with (S i) by lia. rewrite nth_error_app1; [exact Hb|]. apply nth_error_Some. congruence.
Qed.
(* an instant between the first and the last point has a point before it and the next one after it *)
Lemma bracket : forall l x t0 tl, first_time l t0 -> last_time l tl -> Qcle t0 x -> Qclt x tl ->
  exists i a b, nth_error l i = Some a /\ nth_error l (S i) = Some b /\ Qcle (i_t a) x /\ Qclt x (i_t b).
Proof.
  induction l as [|p l IH]; intros x t0 tl (y & Ey & Et0) (z & Ez & Etl) H1 H2; [discriminate|]. cbn in Ey. injection Ey as ->.
  destruct l as [|q l]; [cbn in Ez; injection Ez as ->; exfalso; qlra|].
  destruct (Qclt_le_dec x (i_t q)) as [K|K].
  - exists 0, y, q. split; [reflexivity|split; [reflexivity|]]. split; [rewrite Et0; exact H1|exact K].
  - destruct (IH x (i_t q) tl) as (i & a & b & A1 & A2 & A3 & A4); [exists q; auto| |exact K|exact H2|].
    + exists z. split; [|exact Etl]. cbn [length] in Ez |- *. replace (S (S (length l)) - 1) with (S (length l)) in Ez by lia. replace (S (length l) - 1) with (length l) by lia. exact Ez.
    + exists (S i), a, b. auto.
Qed.
Lemma close_covers si l pts t0 tl F T : with_regions si l pts -> close si l -> first_time l t0 -> last_time l tl -> Qcle t0 F -> Qcle T tl -> forall x, Qclt F x -> Qclt x T -> covered pts x.
Proof.
  intros HR C H1 H2 K1 K2 x X1 X2. destruct (bracket l x t0 tl H1 H2) as (i & a & b & Ea & Eb & La & Lb); [qlra|qlra|].
  pose proof HR as (E & I & T'). rewrite <- E, nth_error_map in Ea, Eb. destruct (nth_error pts i) as [p|] eqn:Ep; [|discriminate]. destruct (nth_error pts (S i)) as [q|] eqn:Eq; [|discriminate]. injection Ea as Ea. injection Eb as Eb.
  assert (Tch : Qcle (vp_from q) (vp_to p)).
  { apply (close_touch si l pts i p q HR Ep Eq). unfold tm. apply (C i); rewrite <- E, nth_error_map; [rewrite Ep|rewrite Eq]; reflexivity. }
  destruct T' as (_ & T1 & _). assert (Ip : In p pts) by (eapply nth_error_In; exact Ep). assert (Iq : In q pts) by (eapply nth_error_In; exact Eq).
  pose proof (T1 (reg_of p) (in_map reg_of _ _ Ip)) as (P1 & P2 & _). pose proof (T1 (reg_of q) (in_map reg_of _ _ Iq)) as (Q1 & Q2 & _). unfold reg_of in *. cbn in P1, P2, Q1, Q2. rewrite Ea in P1, P2. rewrite Eb in Q1, Q2.
  destruct (Qclt_le_dec (vp_to p) x) as [Y|Y].
  - exists q. split; [exact Iq|split; [apply I; exact Iq|split; qlra]].
  - exists p. split; [exact Ip|split; [apply I; exact Ip|split; qlra]].
Qed.
Lemma close_has_point si l t0 tl F T : strictly_increasing (times l) -> close si l -> first_time l t0 -> last_time l tl -> Qcle t0 F -> Qcle T tl -> Qcle (Qcplus F si) T -> Qclt q0 si -> has_point l F T.
Proof.
  intros H C H1 H2 K1 K2 K3 K4. destruct (Qcle_lt_or_eq _ _ K1) as [K|K].
  - destruct (bracket l F t0 tl H1 H2 K1) as (i & a & b & Ea & Eb & La & Lb); [qlra|]. pose proof (C i a b Ea Eb) as D.
    destruct (Qclt_le_dec (i_t b) T) as [Y|Y]; [exists b; split; [eapply nth_error_In; exact Eb|split; [qlra|exact Y]]|].
    exists a. split; [eapply nth_error_In; exact Ea|]. split; [qlra|qlra].
  - destruct H1 as (y & Ey & Et). exists y. split; [eapply nth_error_In; exact Ey|]. split; qlra.
Qed.
Lemma close_no_line si l pts F T vs : with_regions si l pts -> close si l -> line_in_gaps F T (combine pts vs) = q0.
Proof.
  intros HR C. assert (H : consecutive (fun p q => Qcle (vp_from q) (vp_to p)) pts).
  { intros i p q Hp Hq. apply (close_touch si l pts i p q HR Hp Hq). pose proof HR as (E & _). unfold tm. apply (C i); rewrite <- E, nth_error_map; [rewrite Hp|rewrite Hq]; reflexivity. }
  clear HR C. revert vs. induction pts as [|p r IH]; intros vs; [reflexivity|]. destruct vs as [|v vs]; [reflexivity|]. apply consecutive_cons in H. destruct H as [H1 H2]. specialize (IH H1 vs).
  destruct r as [|q r]; [reflexivity|]. destruct vs as [|w vs]; [reflexivity|]. cbn [combine] in *.
  change (line_in_gaps F T ((p, v) :: (q, w) :: combine r vs)) with (Qcplus (Qcmult (overlap (vp_to p) (vp_from q) F T) (line_value (i_t (vp_item p)) v (i_t (vp_item q)) w (midpoint (qmax (vp_to p) F) (qmin (vp_from q) T)))) (line_in_gaps F T ((q, w) :: combine r vs))).
  rewrite IH. assert (O : overlap (vp_to p) (vp_from q) F T = q0). { pose proof (H2 q eq_refl) as K. unfold overlap. clear - K. qmm; qlra. }
  rewrite O, q0_eq. ring.
Qed.
