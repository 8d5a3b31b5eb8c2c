(* PeriodicityProofs2.v -- lemmas on the peaks, their ranking and the one which is chosen. *)
From Verif Require Import SpecPeriodicity PropTactics BaseLemmas ReconProofs4 ReconProofs3 OpsProofs OpsProofs2 SeriesProofs SeriesProofs2 SamplingProofs PeriodicityProofs.
From Coq Require Import Lra Permutation.
Local Open Scope R_scope.

Lemma rltb_spec a b : rltb a b = true <-> a < b.
Proof. unfold rltb. destruct (Rlt_dec a b); split; intros; try assumption; try reflexivity; try discriminate. contradiction. Qed.
Lemma rltb_false a b : rltb a b = false <-> b <= a.
Proof. unfold rltb. destruct (Rlt_dec a b); split; intros; try reflexivity; try discriminate; lra. Qed.
Lemma reqb_spec a b : reqb a b = true <-> a = b.
Proof. unfold reqb. destruct (Req_EM_T a b); split; intros; try assumption; try reflexivity; try discriminate. contradiction. Qed.

(* ---- rounding ---- *)
Lemma half_q : qfrac 1 2 = Q2Qc (1 # 2). Proof. reflexivity. Qed.
Lemma floor_range x : let f := (Qnum (this x) / Zpos (Qden (this x)))%Z in Qcle (qz f) x /\ Qclt x (qz (f + 1)).
Proof.
  intros f. pose proof (Z.div_mod (Qnum (this x)) (Zpos (Qden (this x)))) as DM. pose proof (Z.mod_pos_bound (Qnum (this x)) (Zpos (Qden (this x)))) as MB. fold f in DM.
  split.
  - unfold Qcle, qz. cbn [this Q2Qc]. rewrite Qred_correct. unfold Qle. cbn [Qnum Qden inject_Z]. nia.
  - unfold Qclt, qz. cbn [this Q2Qc]. rewrite Qred_correct. unfold Qlt. cbn [Qnum Qden inject_Z]. nia.
Qed.
Lemma half_sum : Qcplus (qfrac 1 2) (qfrac 1 2) = qz 1.
Proof. apply qeqb_eq. vm_compute. reflexivity. Qed.
Lemma nearest_le x z : nearest x z -> Qcle (qz z) (Qcplus x (qfrac 1 2)) /\ Qcle x (Qcplus (qz z) (qfrac 1 2)).
Proof. intros [H _]. apply qabs_bound in H. destruct H as [H1 H2]. split; qlra. Qed.
Lemma round_even_nearest x : nearest x (round_even x).
Proof.
  unfold round_even. set (f := (Qnum (this x) / Zpos (Qden (this x)))%Z). destruct (floor_range x) as [A B]. fold f in A, B. cbv zeta. rewrite qz_plus in B.
  pose proof half_sum as HS. assert (H0 : Qclt q0 (qfrac 1 2)) by (apply qltb_lt; vm_compute; reflexivity). rewrite q0_eq in H0.
  destruct (qltb_spec (Qcminus x (qz f)) (qfrac 1 2)) as [L|L].
  - split; [apply qabs_bound; split; qlra|]. intros E. exfalso. assert (Q : Qcle (qabs (Qcminus x (qz f))) (Qcminus x (qz f))) by (apply qabs_bound; split; qlra). rewrite E in Q. qlra.
  - destruct (qltb_spec (qfrac 1 2) (Qcminus x (qz f))) as [G|G].
    + split; [rewrite qz_plus; apply qabs_bound; split; qlra|]. intros E. exfalso. rewrite qz_plus in E. assert (Q : Qcle (qabs (Qcminus x (Qcplus (qz f) (qz 1)))) (Qcminus (Qcplus (qz f) (qz 1)) x)) by (apply qabs_bound; split; qlra). rewrite E in Q. qlra.
    + assert (E : Qcminus x (qz f) = qfrac 1 2) by (apply Qcle_antisym; qlra). destruct (Z.even f) eqn:EV.
      * split; [apply qabs_bound; split; qlra|]. intros _. apply Z.even_spec. exact EV.
      * split; [rewrite qz_plus; apply qabs_bound; split; qlra|]. intros _. apply Z.even_spec. rewrite Z.even_add, EV. reflexivity.
Qed.
Lemma nearest_half x z : Qcminus x (qz z) = qfrac 1 2 \/ Qcminus (qz z) x = qfrac 1 2 -> qabs (Qcminus x (qz z)) = qfrac 1 2.
Proof.
  assert (H0 : Qclt q0 (qfrac 1 2)) by (apply qltb_lt; vm_compute; reflexivity). rewrite q0_eq in H0.
  intros H. assert (G : qabs (Qcminus x (qz z)) = Qcminus x (qz z) \/ qabs (Qcminus x (qz z)) = Qcopp (Qcminus x (qz z))). { unfold qabs. destruct (qltb _ _); [right|left]; reflexivity. }
  apply Qcle_antisym; [apply qabs_bound; destruct H as [H|H]; split; qlra|]. destruct G as [G|G]; destruct H as [H|H].
  - rewrite G. qlra.
  - assert (P : Qcle (Q2Qc 0) (qabs (Qcminus x (qz z)))) by apply SeriesProofs.qabs_nonneg. rewrite G in P. exfalso. qlra.
  - assert (P : Qcle (Q2Qc 0) (qabs (Qcminus x (qz z)))) by apply SeriesProofs.qabs_nonneg. rewrite G in P. exfalso. qlra.
  - rewrite G. qlra.
Qed.
Lemma nearest_unique x z z' : nearest x z -> nearest x z' -> z = z'.
Proof.
  assert (W : forall a b, nearest x a -> nearest x b -> (a < b)%Z -> False).
  { intros a b A B L. destruct (nearest_le _ _ A) as [A1 A2]. destruct (nearest_le _ _ B) as [B1 B2]. pose proof half_sum as HS.
    assert (L' : (a + 1 <= b)%Z) by lia. apply qz_le_iff in L'. rewrite qz_plus in L'.
    assert (E : b = (a + 1)%Z). { apply qz_inj. rewrite qz_plus. apply Qcle_antisym; qlra. }
    destruct A as [_ EA]. destruct B as [_ EB]. specialize (EA (nearest_half x a ltac:(left; rewrite E in *; rewrite qz_plus in *; apply Qcle_antisym; qlra))). specialize (EB (nearest_half x b ltac:(right; rewrite E in *; rewrite qz_plus in *; apply Qcle_antisym; qlra))).
    destruct EA as [i Hi]. destruct EB as [j Hj]. lia. }
  intros A B. destruct (Z.lt_trichotomy z z') as [H|[H|H]]; [exfalso; exact (W z z' A B H)|exact H|exfalso; exact (W z' z B A H)].
Qed.
Lemma nearest_mono x y z z' : Qclt x y -> nearest x z -> nearest y z' -> (z <= z')%Z.
Proof.
  intros L A B. destruct (Z.le_gt_cases z z') as [H|H]; [exact H|]. exfalso. assert (H' : (z' + 1 <= z)%Z) by lia. apply qz_le_iff in H'. rewrite qz_plus in H'. destruct (nearest_le _ _ A), (nearest_le _ _ B). pose proof half_sum as HS. qlra.
Qed.
Lemma nearest_z z : nearest (qz z) z.
Proof.
  assert (E : Qcminus (qz z) (qz z) = q0) by (rewrite q0_eq; ring). split; rewrite E; [apply qleb_le; vm_compute; reflexivity|]. intros H. exfalso. revert H. apply qeqb_neq. vm_compute. reflexivity.
Qed.

(* ---- peaks ---- *)
Lemma nth_map_seq (f : nat -> R) h j : (j < h)%nat -> nth j (map f (seq 0 h)) 0 = f j.
Proof. intros L. rewrite (nth_indep _ 0 (f 0%nat)) by (rewrite map_length, seq_length; exact L). rewrite map_nth, seq_nth by exact L. reflexivity. Qed.
Lemma plateau_spec (f : nat -> R) h a b : (1 <= a <= b)%nat -> (S b < h)%nat ->
  plateau (map f (seq 0 h)) a b = true <-> (forall j, (a <= j <= b)%nat -> f j = f a) /\ f (a - 1)%nat < f a /\ f (S b) < f a.
Proof.
  intros H1 H2. unfold plateau. rewrite !andb_true_iff, !rltb_spec, forallb_forall. rewrite !nth_map_seq by lia. split.
  - intros [[A B] C]. split; [|split; assumption]. intros j Hj. specialize (A j ltac:(apply in_seq; lia)). apply reqb_spec in A. rewrite !nth_map_seq in A by lia. exact A.
  - intros (A & B & C). split; [split|]; try assumption. intros j Hj. apply in_seq in Hj. apply reqb_spec. rewrite !nth_map_seq by lia. apply A. lia.
Qed.
Lemma peaks_spec (f : nat -> R) h i : In i (find_peaks (map f (seq 0 h))) <-> local_max f h i.
Proof.
  unfold find_peaks. rewrite filter_In, map_length, seq_length. unfold peak_at. rewrite existsb_exists, map_length, seq_length. split.
  - intros [_ (a & Ha & H)]. apply existsb_exists in H. destruct H as (b & Hb & H). apply andb_true_iff in H. destruct H as [E P]. apply Nat.eqb_eq in E. apply in_seq in Ha, Hb. apply plateau_spec in P; [|lia|lia]. exists a, b. split; [lia|]. split; [lia|]. split; [exact E|exact P].
  - intros (a & b & H1 & H2 & E & P). assert (I : (a <= i <= b)%nat) by (rewrite E; split; [apply Nat.div_le_lower_bound; lia|apply Nat.div_le_upper_bound; lia]). split; [apply in_seq; lia|]. exists a. split; [apply in_seq; lia|]. apply existsb_exists. exists b. split; [apply in_seq; lia|]. apply andb_true_iff. split; [apply Nat.eqb_eq; exact E|]. apply plateau_spec; [exact H1|exact H2|exact P].
Qed.
Lemma local_max_range f h i : local_max f h i -> (1 <= i)%nat /\ (i + 1 < h)%nat.
Proof. intros (a & b & H1 & H2 & E & _). assert (I : (a <= i <= b)%nat) by (rewrite E; split; [apply Nat.div_le_lower_bound; lia|apply Nat.div_le_upper_bound; lia]). lia. Qed.
Lemma local_max_pos f h i : (forall j, 0 <= f j) -> local_max f h i -> 0 < f i.
Proof. intros N (a & b & H1 & H2 & E & F & A & _). assert (I : (a <= i <= b)%nat) by (rewrite E; split; [apply Nat.div_le_lower_bound; lia|apply Nat.div_le_upper_bound; lia]). rewrite (F i I). pose proof (N (a - 1)%nat). lra. Qed.
Lemma local_max_ext f g h i : (forall j, (j < h)%nat -> f j = g j) -> local_max f h i -> local_max g h i.
Proof.
  intros E (a & b & H1 & H2 & EI & F & A & B). exists a, b. split; [exact H1|]. split; [exact H2|]. split; [exact EI|]. rewrite <- (E a) by lia. rewrite <- (E (a - 1)%nat) by lia. rewrite <- (E (S b)) by lia. split; [|split; assumption]. intros j Hj. rewrite <- E by lia. apply F. exact Hj.
Qed.

(* ---- ranking ---- *)
Definition asc (p q : nat * R) : Prop := snd p < snd q \/ (snd p = snd q /\ (fst p < fst q)%nat).
Lemma insert_In p l q : In q (insert_peak p l) <-> q = p \/ In q l.
Proof.
  induction l as [|x l IH]; cbn [insert_peak In]; [intuition|]. destruct (rltb _ _); cbn [In]; [rewrite IH|]; intuition.
Qed.
Lemma sort_In l q : In q (sort_peaks l) <-> In q l.
Proof. unfold sort_peaks. induction l as [|x l IH]; cbn [fold_right In]; [tauto|]. rewrite insert_In, IH. intuition. Qed.
Lemma insert_sorted p l : StronglySorted asc l -> (forall q, In q l -> (fst p < fst q)%nat) -> StronglySorted asc (insert_peak p l).
Proof.
  induction l as [|x l IH]; intros S1 H; cbn [insert_peak]; [repeat constructor|]. inversion S1 as [|? ? S2 F]; subst. destruct (rltb (snd x) (snd p)) eqn:E.
  - apply rltb_spec in E. constructor; [apply IH; [exact S2|intros q Hq; apply H; right; exact Hq]|]. apply Forall_forall. intros q Hq. apply insert_In in Hq. destruct Hq as [-> |Hq]; [left; exact E|]. rewrite Forall_forall in F. apply F. exact Hq.
  - apply rltb_false in E. constructor; [exact S1|]. assert (A : asc p x). { specialize (H x (or_introl eq_refl)). destruct (Rle_lt_or_eq_dec _ _ E) as [L|L]; [left; exact L|right; split; [exact L|exact H]]. }
    constructor; [exact A|]. rewrite Forall_forall in F |- *. intros q Hq. specialize (F q Hq). unfold asc in *. destruct A as [A|[A1 A2]], F as [F|[F1 F2]]; [left; lra|left; lra|left; lra|right; split; [lra|lia]].
Qed.
Lemma sort_sorted l : StronglySorted lt (map fst l) -> StronglySorted asc (sort_peaks l).
Proof.
  induction l as [|x l IH]; intros H; [constructor|]. cbn [map] in H. inversion H as [|? ? S2 F]; subst. unfold sort_peaks. cbn [fold_right]. apply insert_sorted; [apply IH; exact S2|]. intros q Hq. apply (proj1 (sort_In l q)) in Hq. rewrite Forall_forall in F. apply F. apply in_map. exact Hq.
Qed.
Lemma ss_app {A} (P : A -> A -> Prop) l m : StronglySorted P l -> StronglySorted P m -> (forall a b, In a l -> In b m -> P a b) -> StronglySorted P (l ++ m).
Proof.
  induction l as [|x l IH]; intros S1 S2 H; [exact S2|]. inversion S1 as [|? ? S3 F]; subst. cbn [app]. constructor; [apply IH; [exact S3|exact S2|intros a b Ha Hb; apply H; [right; exact Ha|exact Hb]]|]. apply Forall_app. split; [exact F|]. apply Forall_forall. intros b Hb. apply H; [left; reflexivity|exact Hb].
Qed.
Lemma ss_rev {A} (P : A -> A -> Prop) l : StronglySorted P l -> StronglySorted (fun a b => P b a) (rev l).
Proof.
  induction l as [|x l IH]; intros H; [constructor|]. inversion H as [|? ? S2 F]; subst. cbn [rev]. apply ss_app; [apply IH; exact S2|repeat constructor|]. intros a b Ha Hb. destruct Hb as [<- |[]]. apply in_rev in Ha. rewrite Forall_forall in F. apply F. exact Ha.
Qed.
Lemma ss_map {A B} (g : A -> B) (P : A -> A -> Prop) (Q : B -> B -> Prop) l : (forall a b, In a l -> In b l -> P a b -> Q (g a) (g b)) -> StronglySorted P l -> StronglySorted Q (map g l).
Proof.
  induction l as [|x l IH]; intros H S1; [constructor|]. inversion S1 as [|? ? S2 F]; subst. cbn [map]. constructor; [apply IH; [intros a b Ha Hb; apply H; right; assumption|exact S2]|]. apply Forall_forall. intros b Hb. apply in_map_iff in Hb. destruct Hb as (a & <- & Ha). rewrite Forall_forall in F. apply H; [left; reflexivity|right; exact Ha|apply F; exact Ha].
Qed.
Lemma ss_filter {A} (P : A -> A -> Prop) (t : A -> bool) l : StronglySorted P l -> StronglySorted P (filter t l).
Proof.
  induction l as [|x l IH]; intros H; [constructor|]. inversion H as [|? ? S2 F]; subst. cbn [filter]. destruct (t x); [|apply IH; exact S2]. constructor; [apply IH; exact S2|]. apply Forall_forall. intros y Hy. apply filter_In in Hy. rewrite Forall_forall in F. apply F. apply Hy.
Qed.
Lemma ss_seq a n : StronglySorted lt (seq a n).
Proof. revert a. induction n as [|n IH]; intros a; [constructor|]. cbn [seq]. constructor; [apply IH|]. apply Forall_forall. intros x Hx. apply in_seq in Hx. lia. Qed.
Lemma peaks_of_In l q : In q (peaks_of l) <-> In (fst q) (find_peaks l) /\ snd q = nth (fst q) l 0.
Proof.
  unfold peaks_of. rewrite <- in_rev, sort_In, in_map_iff. split; [intros (i & <- & H); split; [exact H|reflexivity]|]. intros [H E]. exists (fst q). split; [destruct q as [i r]; cbn in *; subst; reflexivity|exact H].
Qed.
Lemma peaks_of_sorted l : StronglySorted (fun p q => asc q p) (peaks_of l).
Proof. unfold peaks_of. apply ss_rev. apply sort_sorted. rewrite map_map. cbn [fst]. rewrite map_id. unfold find_peaks. apply ss_filter. apply ss_seq. Qed.

(* ---- the choice ---- *)
Lemma scan_some n : forall ps i f, f <> q0 -> scan_peaks n i (Some f) ps = Some f.
Proof. induction ps as [|p ps IH]; intros i f F; cbn [scan_peaks]; [reflexivity|]. destruct (set_aside n p ps); [apply IH; exact F|]. destruct (qeqb_spec f q0); [contradiction|]. destruct (Nat.ltb 10 i); [reflexivity|apply IH; exact F]. Qed.
Lemma period_pos n p : (1 <= n)%nat -> (1 <= fst p)%nat -> period_of n p <> q0.
Proof.
  intros N P. unfold period_of. pose proof (qn_pos n N) as A. pose proof (qn_pos (fst p) P) as B. intros E. assert (F : qn n = q0). { replace (qn n) with (Qcmult (Qcdiv (qn n) (qn (fst p))) (qn (fst p))). - rewrite E. rewrite q0_eq. ring. - field. intros Z. rewrite Z in B. rewrite q0_eq in B. qlra. } rewrite F in A. rewrite q0_eq in A. qlra.
Qed.
Lemma scan_spec n : (1 <= n)%nat -> forall ps i, (forall p, In p ps -> (1 <= fst p)%nat) ->
  (ps = [] /\ scan_peaks n i None ps = None) \/
  exists j p, nth_error ps j = Some p /\ scan_peaks n i None ps = Some (period_of n p) /\ set_aside n p (skipn (S j) ps) = false /\
    forall j' p', (j' < j)%nat -> nth_error ps j' = Some p' -> set_aside n p' (skipn (S j') ps) = true.
Proof.
  intros N. induction ps as [|p ps IH]; intros i H; [left; split; reflexivity|]. right. cbn [scan_peaks]. destruct (set_aside n p ps) eqn:E.
  - destruct (IH (S i)) as [[-> _]|(j & q & Q & R1 & A & B)]; [intros q Hq; apply H; right; exact Hq|discriminate E|]. exists (S j), q. split; [exact Q|]. split; [exact R1|]. split; [exact A|]. intros [|j'] p' L Hp; [injection Hp as <-; exact E|]. apply (B j' p'); [lia|exact Hp].
  - exists 0%nat, p. split; [reflexivity|]. split; [destruct (Nat.ltb 10 i); [reflexivity|apply scan_some; apply period_pos; [exact N|apply H; left; reflexivity]]|]. split; [exact E|]. intros j' p' L. lia.
Qed.
Lemma qn_pos_R a : (1 <= a)%nat -> Qclt (Q2Qc 0) (qn a).
Proof. intros H. pose proof (qn_pos a H) as P. rewrite q0_eq in P. exact P. Qed.
