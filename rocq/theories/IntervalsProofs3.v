(* IntervalsProofs3.v -- coverage and data loss against the specification. *)
From Verif Require Import SpecIntervals BaseLemmas AccessProofs3 OpsProofs IntervalsProofs IntervalsProofs2.

(* once a region starts at or after the end, so do all the measured ones after it *)
Definition stops (t : Qc) (l : list vpoint) : Prop :=
  forall i j p p', i < j -> nth_error l i = Some p -> nth_error l j = Some p' -> vp_interp p' = false ->
    Qcle t (vp_from p) -> Qcle t (vp_from p').
Lemma stops_tail t p l : stops t (p :: l) -> stops t l.
Proof. intros H i j x y L Hx Hy. apply (H (S i) (S j)); [lia|exact Hx|exact Hy]. Qed.
Lemma ivs_cons p l : ivs_of (p :: l) = if vp_interp p then ivs_of l else (vp_from p, vp_to p) :: ivs_of l.
Proof. unfold ivs_of, measured. simpl. destruct (vp_interp p); reflexivity. Qed.
Lemma olen_cons a b r f t : olen ((a, b) :: r) f t = Qcplus (overlap a b f t) (olen r f t).
Proof. reflexivity. Qed.
Lemma coverage_loop_olen f t : Qclt f t -> forall l acc,
  (forall p, In p l -> vp_interp p = false -> Qcle (vp_from p) (vp_to p)) -> stops t l ->
  coverage_loop f t acc l = Qcplus acc (olen (ivs_of l) f t).
Proof.
  intros L. induction l as [|p l IH]; intros acc Hab Hs; [unfold olen; simpl; qlra|].
  cbn [coverage_loop]. rewrite ivs_cons.
  assert (IH' : forall acc, coverage_loop f t acc l = Qcplus acc (olen (ivs_of l) f t)).
  { intros acc'. apply IH; [intros x Hx; apply Hab; right; exact Hx|apply (stops_tail t p l Hs)]. }
  destruct (qltb_spec (vp_to p) f) as [L1|L1].
  { rewrite IH'. destruct (vp_interp p) eqn:I; [reflexivity|]. rewrite olen_cons, overlap_outside by (left; apply Qclt_le_weak; exact L1).
    generalize (olen (ivs_of l) f t). intros; qlra. }
  destruct (qleb_spec t (vp_from p)) as [L2|L2].
  { assert (Z : olen (ivs_of l) f t = q0).
    { clear IH IH'. assert (K : forall q, In q l -> vp_interp q = false -> Qcle t (vp_from q)).
      { intros q Hq Iq. apply In_nth_error in Hq. destruct Hq as [n Hn]. apply (Hs 0 (S n) p q); [lia|reflexivity|exact Hn|exact Iq|exact L2]. }
      clear Hs Hab. induction l as [|q l IHl]; [reflexivity|]. rewrite ivs_cons. destruct (vp_interp q) eqn:I; [apply IHl; intros; apply K; [right; assumption|assumption]|].
      rewrite olen_cons, IHl by (intros; apply K; [right; assumption|assumption]). rewrite overlap_outside by (right; apply K; [left; reflexivity|exact I]). qlra. }
    destruct (vp_interp p) eqn:I; [rewrite Z; qlra|]. rewrite olen_cons, Z, overlap_outside by (right; exact L2). qlra. }
  destruct (vp_interp p) eqn:I; [apply IH'|].
  rewrite IH', olen_cons.
  assert (Hp : Qcle (vp_from p) (vp_to p)) by (apply Hab; [left; reflexivity|exact I]).
  generalize (olen (ivs_of l) f t). intros S. unfold overlap.
  destruct (qleb_spec f (vp_from p)); destruct (qltb_spec (vp_to p) t); qmm; qlra.
Qed.

Lemma disjoint_tail p l : disjoint_regions (p :: l) -> disjoint_regions l /\ (forall q, In q l -> Qcle (vp_to p) (vp_from q)) /\ Qcle (vp_from p) (vp_to p).
Proof.
  intros [H1 H2]. split; [split|split].
  - intros q Hq. apply H1. right. exact Hq.
  - intros i j x y L Hx Hy. apply (H2 (S i) (S j)); [lia|exact Hx|exact Hy].
  - intros q Hq. apply In_nth_error in Hq. destruct Hq as [n Hn]. apply (H2 0 (S n)); [lia|reflexivity|exact Hn].
  - apply H1. left. reflexivity.
Qed.
Lemma disjoint_chain : forall l lo, disjoint_regions l -> (forall p, In p l -> Qcle lo (vp_from p)) -> chain lo (ivs_of l).
Proof.
  induction l as [|p l IH]; intros lo D Hlo; [exact I|]. apply disjoint_tail in D. destruct D as (D & H1 & H2). rewrite ivs_cons. destruct (vp_interp p).
  - apply IH; [exact D|intros q Hq; apply Hlo; right; exact Hq].
  - simpl. split; [apply Hlo; left; reflexivity|split; [exact H2|apply IH; assumption]].
Qed.
Lemma disjoint_chain_ex l : disjoint_regions l -> exists lo, chain lo (ivs_of l).
Proof.
  intros D. destruct l as [|p l]; [exists q0; exact I|]. exists (vp_from p). apply disjoint_chain; [exact D|].
  intros q [<- | Hq]; [apply Qcle_refl|]. apply disjoint_tail in D. destruct D as (_ & H1 & H2). eapply Qcle_trans; [exact H2|]. apply H1. exact Hq.
Qed.
Lemma disjoint_stops t l : disjoint_regions l -> stops t l.
Proof.
  intros [H1 H2] i j p q L Hp Hq _ Ht. eapply Qcle_trans; [exact Ht|]. eapply Qcle_trans; [apply H1; apply nth_error_In in Hp; exact Hp|].
  apply (H2 i j p q); assumption.
Qed.
Lemma coverage_spec l f t : disjoint_regions l -> Qclt f t -> coverage l f t = Ok (Qcdiv (covered_length l f t) (Qcminus t f)).
Proof.
  intros D L. unfold coverage. rewrite qleb_false by exact L. destruct l as [|p l].
  - f_equal. unfold covered_length. simpl. rewrite q0_eq. field. intros E. apply (Qclt_not_eq _ _ L). qlra.
  - rewrite coverage_loop_olen; [|exact L|intros x Hx _; apply D; exact Hx|apply disjoint_stops; exact D].
    unfold qdiv. rewrite qeqb_false by (intros E; apply (Qclt_not_eq _ _ L); qlra). f_equal. rewrite covered_length_olen. f_equal. generalize (olen (ivs_of (p :: l)) f t). intros; qlra.
Qed.
Lemma coverage_error l f t : Qcle t f -> coverage l f t = Err ValueError.
Proof. intros H. unfold coverage. rewrite qleb_true by exact H. reflexivity. Qed.
Lemma ivs_inside l x : inside (ivs_of l) x <-> covered l x.
Proof.
  unfold ivs_of, measured. split.
  - intros (a & b & H & K). apply in_map_iff in H. destruct H as (p & E & Hp). injection E as <- <-. apply filter_In in Hp. destruct Hp as [Hp I].
    exists p. split; [exact Hp|split; [destruct (vp_interp p); [discriminate|reflexivity]|exact K]].
  - intros (p & Hp & I & K). exists (vp_from p), (vp_to p). split; [|exact K]. apply in_map_iff. exists p. split; [reflexivity|].
    apply filter_In. split; [exact Hp|]. rewrite I. reflexivity.
Qed.

(* ---- division ---- *)
Lemma div_bounds x d : Qclt q0 d -> Qcle q0 x -> Qcle x d -> Qcle q0 (Qcdiv x d) /\ Qcle (Qcdiv x d) q1.
Proof.
  intros D X1 X2. assert (E : Qcmult (Qcdiv x d) d = x) by (field; intros K; rewrite K in D; apply Qclt_not_eq in D; apply D; reflexivity).
  generalize dependent (Qcdiv x d). intros y E. split; qnra.
Qed.
Lemma div_one x d : Qclt q0 d -> (Qcdiv x d = q1 <-> x = d).
Proof.
  intros D. assert (E : Qcmult (Qcdiv x d) d = x) by (field; intros K; rewrite K in D; apply Qclt_not_eq in D; apply D; reflexivity).
  generalize dependent (Qcdiv x d). intros y E. split; intros H; [rewrite <- E, H; rewrite q1_eq; ring|].
  rewrite H in E. assert (Z : Qcmult (Qcminus y q1) d = q0) by (rewrite q1_eq, q0_eq; transitivity (Qcminus (Qcmult y d) d); [ring|rewrite E; ring]).
  apply Qcmult_integral in Z. destruct Z as [Z|Z]; [qlra|exfalso; rewrite Z in D; apply Qclt_not_eq in D; apply D; reflexivity].
Qed.

(* ---- data loss ---- *)
Lemma previous_losses_none si f t l : (forall p, In p l -> prior_loss p = q0) -> previous_losses si f t l = Ok q0.
Proof.
  unfold previous_losses. intros H. assert (G : forall a, foldM (fun a p => do c <- loss_contribution si f t p; Ok (Qcplus a c)) l a = Ok a).
  { induction l as [|p l IH]; intros a; [reflexivity|]. cbn [foldM]. assert (E : loss_contribution si f t p = Ok q0).
    { specialize (H p (or_introl eq_refl)). unfold prior_loss in H. unfold loss_contribution. destruct (data_loss (vp_item p)) as [d|]; [|reflexivity]. rewrite H, qeqb_refl. reflexivity. }
    rewrite E. cbn [bind]. rewrite IH by (intros; apply H; right; assumption). f_equal. qlra. }
  apply G.
Qed.
Lemma loss_contribution_full si f t p : Qclt q0 si -> Qclt f t -> Qcle si (Qcminus t f) ->
  vp_from p = Qcminus (i_t (vp_item p)) (Qcdiv si (qz 2)) -> vp_to p = Qcplus (i_t (vp_item p)) (Qcdiv si (qz 2)) ->
  loss_contribution si f t p = Ok (Qcdiv (Qcmult (prior_loss p) (overlap (vp_from p) (vp_to p) f t)) (Qcminus t f)).
Proof.
  intros Hs L Hl E1 E2. assert (Hd : Qcminus t f <> q0) by (intros E; apply (Qclt_not_eq _ _ L); qlra).
  unfold loss_contribution, prior_loss. destruct (data_loss (vp_item p)) as [d|].
  2:{ f_equal. rewrite q0_eq in *. field. exact Hd. }
  destruct (qeqb_spec d q0) as [->|Hn]. { f_equal. rewrite q0_eq in *. field. exact Hd. }
  unfold qhalf, q2. rewrite <- E1, <- E2.
  assert (Hab : Qcplus (vp_from p) si = vp_to p) by (rewrite E1, E2; qlra). clear E1 E2.
  destruct (qltb_spec (vp_to p) f) as [L1|L1].
  { rewrite overlap_outside by (left; apply Qclt_le_weak; exact L1). f_equal. rewrite q0_eq in *. field. exact Hd. }
  destruct (qleb_spec t (vp_from p)) as [L2|L2].
  { rewrite overlap_outside by (right; exact L2). f_equal. rewrite q0_eq in *. field. exact Hd. }
  assert (K : (if qltb (vp_from p) f then qabs (Qcminus f (vp_to p)) else if qleb t (vp_to p) then qabs (Qcminus t (vp_from p)) else si) = overlap (vp_from p) (vp_to p) f t).
  { unfold overlap, qabs. destruct (qltb_spec (vp_from p) f).
    - qcase; qmm; qlra.
    - destruct (qleb_spec t (vp_to p)); [qcase|]; qmm; qlra. }
  rewrite K. unfold qdiv. rewrite qeqb_false by exact Hd. cbn [bind]. f_equal. field. exact Hd.
Qed.
Lemma previous_losses_full si f t l : Qclt q0 si -> Qclt f t -> Qcle si (Qcminus t f) -> full_regions si l ->
  (forall p, In p l -> vp_interp p = true -> prior_loss p = q0) ->
  previous_losses si f t l = Ok (Qcdiv (lost_length l f t) (Qcminus t f)).
Proof.
  intros Hs L Hl Hf Hi. assert (Hd : Qcminus t f <> q0) by (intros E; apply (Qclt_not_eq _ _ L); qlra).
  unfold previous_losses.
  assert (G : forall a, foldM (fun a p => do c <- loss_contribution si f t p; Ok (Qcplus a c)) l a = Ok (Qcplus a (Qcdiv (lost_length l f t) (Qcminus t f)))).
  { induction l as [|p l IH]; intros a.
    - simpl. f_equal. unfold lost_length. simpl. rewrite q0_eq in *. field. exact Hd.
    - cbn [foldM]. specialize (IH (fun q Hq => Hf q (or_intror Hq)) (fun q Hq => Hi q (or_intror Hq))).
      unfold lost_length, measured. cbn [filter]. destruct (vp_interp p) eqn:I.
      + assert (E : loss_contribution si f t p = Ok q0).
        { specialize (Hi p (or_introl eq_refl) I). unfold prior_loss in Hi. unfold loss_contribution. destruct (data_loss (vp_item p)) as [d|]; [|reflexivity]. rewrite Hi, qeqb_refl. reflexivity. }
        rewrite E. cbn [bind negb]. rewrite IH. f_equal. unfold lost_length, measured. generalize (Qcdiv (total (map (fun p0 => Qcmult (prior_loss p0) (overlap (vp_from p0) (vp_to p0) f t)) (filter (fun p0 => negb (vp_interp p0)) l))) (Qcminus t f)). intros; qlra.
      + destruct (Hf p (or_introl eq_refl) I) as [E1 E2]. rewrite (loss_contribution_full si f t p Hs L Hl E1 E2). cbn [bind negb map total]. rewrite IH. f_equal.
        unfold lost_length, measured. field. exact Hd. }
  rewrite G. f_equal. generalize (Qcdiv (lost_length l f t) (Qcminus t f)). intros; qlra.
Qed.
Lemma lost_bounds l f t : (forall p, In p l -> Qcle q0 (prior_loss p) /\ Qcle (prior_loss p) q1) ->
  Qcle q0 (lost_length l f t) /\ Qcle (lost_length l f t) (covered_length l f t).
Proof.
  intros H. unfold lost_length, covered_length, measured. induction l as [|p l IH]; [split; apply Qcle_refl|]. simpl.
  destruct IH as [I1 I2]; [intros; apply H; right; assumption|]. destruct (vp_interp p); [split; assumption|]. simpl.
  destruct (H p (or_introl eq_refl)) as [P1 P2]. pose proof (overlap_nonneg (vp_from p) (vp_to p) f t) as O.
  generalize dependent (overlap (vp_from p) (vp_to p) f t). intros o O.
  assert (Qcle q0 (Qcmult (prior_loss p) o) /\ Qcle (Qcmult (prior_loss p) o) o) by (generalize dependent (prior_loss p); intros; split; qnra).
  match goal with |- context [total ?x] => generalize dependent (total x) end. intros. 
  match goal with |- context [total ?x] => generalize dependent (total x) | _ => idtac end. intros.
  generalize dependent (Qcmult (prior_loss p) o). intros z [Z1 Z2]. split; qlra.
Qed.
