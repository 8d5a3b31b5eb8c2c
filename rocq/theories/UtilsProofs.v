(* UtilsProofs.v -- proofs about error metrics, rescaling, unit strings (C64-C67). *)
From Verif Require Import SpecUtils BaseLemmas PropTactics OpsProofs OpsProofs2 SeriesProofs2 ReconProofs3.

(* ---------------- metrics ---------------- *)
Lemma map2M_ok (f : Qc -> Qc -> result Qc) g a : forall b, length a = length b -> (forall x y, In (x, y) (combine a b) -> f x y = Ok (g x y)) -> map2M f a b = Ok (map (fun xy => g (fst xy) (snd xy)) (combine a b)).
Proof.
  induction a as [|x a IH]; intros [|y b] L H; cbn [length] in L; try discriminate; cbn [map2M combine map]; [reflexivity|].
  rewrite (H x y) by (left; reflexivity). cbn [bind]. rewrite IH; [reflexivity|lia|intros; apply H; right; assumption].
Qed.
Lemma sum_acc l : forall a, fold_left Qcplus l a = Qcplus a (fold_left Qcplus l q0).
Proof. induction l as [|x l IH]; intros a; cbn [fold_left]; [rewrite q0_eq; ring|]. rewrite IH, (IH (Qcplus q0 x)). rewrite q0_eq. ring. Qed.
Lemma sum_sum2 g a : forall b, sum_of (map (fun xy => g (fst xy) (snd xy)) (combine a b)) = sum2 g a b.
Proof. unfold sum_of. induction a as [|x a IH]; intros [|y b]; try reflexivity. cbn [combine map fold_left sum2 fst snd]. rewrite sum_acc, IH. rewrite q0_eq. ring. Qed.
Lemma qn_len_pos {A} (l : list A) : l <> [] -> Qclt q0 (qn (length l)).
Proof. intros N. destruct l as [|x l]; [contradiction|]. apply qn_pos. cbn. lia. Qed.
Lemma mean_ok f g a b : length a = length b -> a <> [] -> (forall x y, In (x, y) (combine a b) -> f x y = Ok (g x y)) -> mean_error f a b = Ok (Qcdiv (sum2 g a b) (qn (length a))).
Proof.
  intros L N H. unfold mean_error, same_lengths. rewrite L, Nat.eqb_refl. cbn [bind]. rewrite (map2M_ok f g a b L H). cbn [bind]. rewrite sum_sum2, <- L. unfold qdiv. rewrite qeqb_false; [reflexivity|]. pose proof (qn_len_pos a N) as P. intros X. rewrite X in P. exact (Qclt_not_eq _ _ P eq_refl).
Qed.
Lemma lengths_checked f a b : length a <> length b -> mean_error f a b = Err ValueError /\ max_error f a b = Err ValueError.
Proof. intros L. unfold mean_error, max_error, same_lengths. destruct (Nat.eqb_spec (length a) (length b)); [contradiction|]. split; reflexivity. Qed.
Lemma sum2_nonneg g a : (forall x y, Qcle q0 (g x y)) -> forall b, Qcle q0 (sum2 g a b).
Proof. intros H. induction a as [|x a IH]; intros [|y b]; cbn [sum2]; try apply Qcle_refl. specialize (IH b). specialize (H x y). qlra. Qed.
Lemma sum2_zero g a : (forall x y, Qcle q0 (g x y)) -> forall b, length a = length b -> sum2 g a b = q0 -> forall x y, In (x, y) (combine a b) -> g x y = q0.
Proof.
  intros H. induction a as [|x a IH]; intros [|y b] L E u v I; cbn [combine] in I; try destruct I; cbn [length] in L; try discriminate; cbn [sum2] in E.
  - injection H0 as <- <-. pose proof (H x y). pose proof (sum2_nonneg g a H b). apply Qcle_antisym; qlra.
  - apply (IH b); [lia| |exact H0]. pose proof (H x y). pose proof (sum2_nonneg g a H b). apply Qcle_antisym; qlra.
Qed.
Lemma sum2_all_zero g a : forall b, (forall x y, In (x, y) (combine a b) -> g x y = q0) -> sum2 g a b = q0.
Proof. induction a as [|x a IH]; intros [|y b] H; cbn [sum2]; try reflexivity. rewrite (H x y) by (left; reflexivity). rewrite IH by (intros; apply H; right; assumption). rewrite q0_eq. ring. Qed.
Lemma combine_eq a : forall b : list Qc, length a = length b -> (forall x y, In (x, y) (combine a b) -> x = y) -> a = b.
Proof. induction a as [|x a IH]; intros [|y b] L H; cbn [length] in L; try discriminate; [reflexivity|]. f_equal; [apply H; left; reflexivity|]. apply IH; [lia|]. intros; apply H; right; assumption. Qed.
Lemma combine_same (a : list Qc) x y : In (x, y) (combine a a) -> x = y.
Proof. induction a as [|z a IH]; cbn; [intros []|]. intros [E|I]; [injection E as <- <-; reflexivity|auto]. Qed.
Lemma div_zero_iff a b : Qclt q0 b -> (Qcdiv a b = q0 <-> a = q0).
Proof.
  intros P. assert (N : b <> q0) by (intros X; rewrite X in P; exact (Qclt_not_eq _ _ P eq_refl)). split; intros E.
  - assert (Q : a = Qcmult (Qcdiv a b) b) by (field; rewrite q0_eq in N; exact N). rewrite Q, E. rewrite q0_eq. ring.
  - rewrite E. rewrite q0_eq in *. field. exact N.
Qed.
Lemma div_nonneg a b : Qclt q0 b -> Qcle q0 a -> Qcle q0 (Qcdiv a b).
Proof.
  intros P H. assert (N : b <> q0) by (intros X; rewrite X in P; exact (Qclt_not_eq _ _ P eq_refl)).
  destruct (Qclt_le_dec (Qcdiv a b) q0) as [L|L]; [|exact L]. exfalso. assert (Q : a = Qcmult (Qcdiv a b) b) by (field; rewrite q0_eq in N; exact N).
  pose proof (Qcmult_lt_compat_r _ _ _ P L) as M. rewrite <- Q in M. assert (Z : Qcmult q0 b = q0) by (rewrite q0_eq; ring). rewrite Z in M. exact (Qcle_not_lt _ _ H M).
Qed.
(* a mean of non-negative errors, which are zero exactly on equal values *)
Lemma mean_metric f g a b : (forall x y, Qcle q0 (g x y)) -> length a = length b -> a <> [] -> (forall x y, In (x, y) (combine a b) -> f x y = Ok (g x y) /\ (g x y = q0 <-> x = y)) ->
  exists v, mean_error f a b = Ok v /\ v = Qcdiv (sum2 g a b) (qn (length a)) /\ Qcle q0 v /\ (v = q0 <-> a = b).
Proof.
  intros P L N H. exists (Qcdiv (sum2 g a b) (qn (length a))). split; [apply mean_ok; [exact L|exact N|intros; apply H; assumption]|]. split; [reflexivity|]. pose proof (qn_len_pos a N) as PL.
  split; [apply div_nonneg; [exact PL|apply sum2_nonneg; exact P]|]. rewrite (div_zero_iff _ _ PL). split.
  - intros Z. apply combine_eq; [exact L|]. intros x y I. apply (H x y I). apply (sum2_zero g a P b L Z x y I).
  - intros <-. apply sum2_all_zero. intros x y I. apply (H x y I). apply combine_same in I. exact I.
Qed.
(* maximum *)
Lemma max_fold l : forall m, exists v, fold_left max_step l (Some m) = Some v /\ Qcle m v /\ (forall x, In x l -> Qcle x v) /\ (v = m \/ In v l).
Proof.
  induction l as [|x l IH]; intros m; cbn [fold_left].
  - exists m. split; [reflexivity|]. split; [apply Qcle_refl|]. split; [intros x []|left; reflexivity].
  - unfold max_step at 2. destruct (qltb_spec m x) as [E|E].
    + destruct (IH x) as (v & F & A & B & C). exists v. split; [exact F|]. split; [qlra|]. split; [intros y [<-|Hy]; auto|]. right. destruct C as [-> |C]; [left; reflexivity|right; exact C].
    + destruct (IH m) as (v & F & A & B & C). exists v. split; [exact F|]. split; [exact A|]. split; [|destruct C as [-> |C]; [left; reflexivity|right; right; exact C]].
      apply Qcnot_lt_le in E. intros y [<-|Hy]; [qlra|auto].
Qed.
Lemma combine_nth_iff (a b : list Qc) x y : In (x, y) (combine a b) <-> exists i, nth_error a i = Some x /\ nth_error b i = Some y.
Proof.
  revert b. induction a as [|u a IH]; intros [|v b]; cbn [combine].
  - split; [intros []|intros (i & H & _); destruct i; discriminate].
  - split; [intros []|intros (i & H & _); destruct i; discriminate].
  - split; [intros []|intros (i & _ & H); destruct i; discriminate].
  - cbn [In]. rewrite IH. split; [intros [E|(i & H1 & H2)]; [injection E as <- <-; exists 0; split; reflexivity|exists (S i); split; assumption]|]. intros ([|i] & H1 & H2); [left; cbn in H1, H2; injection H1 as ->; injection H2 as ->; reflexivity|right; exists i; split; assumption].
Qed.
Lemma max_metric f g a b : length a = length b -> a <> [] -> (forall x y, In (x, y) (combine a b) -> f x y = Ok (g x y)) -> exists v, max_error f a b = Ok (Some v) /\ greatest g a b v.
Proof.
  intros L N H. unfold max_error, same_lengths. rewrite L, Nat.eqb_refl. cbn [bind]. rewrite (map2M_ok f g a b L H). cbn [bind].
  destruct a as [|x a]; [contradiction|]. destruct b as [|y b]; [discriminate|]. cbn [combine map fold_left fst snd]. change (max_step None (g x y)) with (Some (g x y)).
  destruct (max_fold (map (fun xy => g (fst xy) (snd xy)) (combine a b)) (g x y)) as (v & F & A & B & C). exists v. rewrite F. split; [reflexivity|]. split.
  - destruct C as [-> |C]; [exists 0, x, y; split; [reflexivity|]; split; reflexivity|]. apply in_map_iff in C. destruct C as ([u w] & <- & I). apply combine_nth_iff in I. destruct I as (i & I1 & I2). exists (S i), u, w. split; [exact I1|]. split; [exact I2|reflexivity].
  - intros [|i] u w H1 H2; [cbn in H1, H2; injection H1 as <-; injection H2 as <-; exact A|]. apply B. apply in_map_iff. exists (u, w). split; [reflexivity|]. apply combine_nth_iff. exists i. split; assumption.
Qed.
Lemma sum2_le g m a : forall b, length a = length b -> (forall i x y, nth_error a i = Some x -> nth_error b i = Some y -> Qcle (g x y) m) -> Qcle (sum2 g a b) (Qcmult (qn (length a)) m).
Proof.
  induction a as [|x a IH]; intros [|y b] L H; try discriminate L; cbn [sum2 length] in *.
  - assert (Z : Qcmult (qn 0) m = q0) by (change (qn 0) with q0; rewrite q0_eq; ring). rewrite Z. apply Qcle_refl.
  - rewrite qn_S. assert (Z : Qcmult (Qcplus q1 (qn (length a))) m = Qcplus m (Qcmult (qn (length a)) m)) by (rewrite q1_eq; ring). rewrite Z.
    apply Qcplus_le_compat; [apply (H 0); reflexivity|]. apply IH; [lia|]. intros i u w. apply (H (S i)).
Qed.
Lemma div_le a b m : Qclt q0 b -> Qcle a (Qcmult b m) -> Qcle (Qcdiv a b) m.
Proof.
  intros P H. assert (N : b <> q0) by (intros X; rewrite X in P; exact (Qclt_not_eq _ _ P eq_refl)).
  destruct (Qclt_le_dec m (Qcdiv a b)) as [L|L]; [|exact L]. exfalso. assert (Q : a = Qcmult (Qcdiv a b) b) by (field; rewrite q0_eq in N; exact N).
  pose proof (Qcmult_lt_compat_r _ _ _ P L) as M. rewrite <- Q in M. rewrite Qcmult_comm in M. exact (Qcle_not_lt _ _ H M).
Qed.
(* the errors *)
Lemma qabs_nonneg x : Qcle q0 (qabs x).
Proof. unfold qabs. change (Q2Qc 0) with q0. destruct (qltb_spec x q0) as [E|E]; [qlra|apply Qcnot_lt_le in E; exact E]. Qed.
Lemma qabs_zero x : qabs x = q0 <-> x = q0.
Proof.
  unfold qabs. change (Q2Qc 0) with q0. destruct (qltb_spec x q0) as [E|E]; [|reflexivity]. split; intros H; [|rewrite H in E; exfalso; exact (Qclt_not_eq _ _ E eq_refl)].
  exfalso. assert (Q : x = Qcopp (Qcopp x)) by ring. rewrite H in Q. rewrite q0_eq in *. rewrite Q in E. vm_compute in E. discriminate.
Qed.
Lemma qabs_sym x y : qabs (Qcminus x y) = qabs (Qcminus y x).
Proof.
  unfold qabs. change (Q2Qc 0) with q0. destruct (qltb_spec (Qcminus x y) q0) as [E|E], (qltb_spec (Qcminus y x) q0) as [E'|E']; try ring.
  - exfalso. assert (H : Qclt q0 q0) by qlra. exact (Qclt_not_eq _ _ H eq_refl).
  - apply Qcnot_lt_le in E, E'. apply Qcle_antisym; qlra.
Qed.
Lemma minus_zero x y : Qcminus x y = q0 <-> x = y.
Proof. split; intros H; [|rewrite H, q0_eq; ring]. assert (Q : x = Qcplus (Qcminus x y) y) by ring. rewrite Q, H, q0_eq. ring. Qed.
Lemma square_nonneg x : Qcle q0 (Qcmult x x).
Proof. qnra. Qed.
Lemma square_zero x : Qcmult x x = q0 <-> x = q0.
Proof. rewrite q0_eq. split; [intros H; destruct (Qcmult_integral _ _ H); assumption|intros ->; ring]. Qed.

(* ---------------- rescale ---------------- *)
Lemma rescale_ok v sf st tf tt' : Qcle q0 sf -> Qclt sf st -> Qcle q0 tf -> Qcle q0 tt' -> Qcle sf v -> Qcle v st ->
  rescale v sf st tf tt' = Ok (Qcplus tf (Qcmult (Qcdiv (Qcminus v sf) (Qcminus st sf)) (Qcminus tt' tf))).
Proof.
  intros A B C D E F. unfold rescale. rewrite !qltb_false by qlra. assert (N : Qcminus st sf <> q0) by (intros X; apply (proj1 (minus_zero st sf)) in X; rewrite X in B; exact (Qclt_not_eq _ _ B eq_refl)).
  unfold qdiv. rewrite qeqb_false by exact N. cbn [bind]. destruct (qeqb_spec tf q0) as [Z|Z]; [destruct (qeqb_spec tt' q1) as [O|O]|]; cbn [andb]; f_equal.
  - rewrite Z, O, q0_eq, q1_eq. ring.
  - ring.
  - ring.
Qed.
Lemma ratio_bounds v sf st : Qclt sf st -> Qcle sf v -> Qcle v st -> Qcle q0 (Qcdiv (Qcminus v sf) (Qcminus st sf)) /\ Qcle (Qcdiv (Qcminus v sf) (Qcminus st sf)) q1.
Proof.
  intros B E F. assert (P : Qclt q0 (Qcminus st sf)) by qlra. split; [apply div_nonneg; [exact P|qlra]|]. apply div_le; [exact P|]. rewrite q1_eq. assert (Z : Qcmult (Qcminus st sf) 1%Qc = Qcminus st sf) by ring. rewrite Z. qlra.
Qed.
Lemma ratio_mono v w sf st : Qclt sf st -> Qclt v w -> Qclt (Qcdiv (Qcminus v sf) (Qcminus st sf)) (Qcdiv (Qcminus w sf) (Qcminus st sf)).
Proof.
  intros B L. assert (P : Qclt q0 (Qcminus st sf)) by qlra. assert (N : Qcminus st sf <> q0) by (intros X; rewrite X in P; exact (Qclt_not_eq _ _ P eq_refl)).
  apply Qcnot_le_lt. intros X. apply (Qcmult_le_compat_r _ _ (Qcminus st sf)) in X; [|rewrite q0_eq in P; apply Qclt_le_weak; exact P].
  assert (Q : forall z, Qcmult (Qcdiv (Qcminus z sf) (Qcminus st sf)) (Qcminus st sf) = Qcminus z sf) by (intros z; field; rewrite q0_eq in N; exact N). rewrite !Q in X. apply (Qcle_not_lt _ _ X). qlra.
Qed.

(* ---------------- unit strings ---------------- *)
Lemma digit_cases n : n < 10 -> In (digit n) ["0"; "1"; "2"; "3"; "4"; "5"; "6"; "7"; "8"; "9"]%char.
Proof. intros H. do 10 (destruct n as [|n]; [cbn; tauto|]). lia. Qed.
Lemma digit_inj n m : n < 10 -> m < 10 -> digit n = digit m -> n = m.
Proof. intros H K. do 10 (destruct n as [|n]; [do 10 (destruct m as [|m]; [try reflexivity; cbn; discriminate|]); lia|]). lia. Qed.
Lemma digit_not_dot n : n < 10 -> digit n <> "."%char.
Proof. intros H. do 10 (destruct n as [|n]; [cbn; discriminate|]). lia. Qed.
Lemma drop_digit n r : n < 10 -> drop_dot_zero (String (digit n) r) = String (digit n) (drop_dot_zero r).
Proof. intros H. do 10 (destruct n as [|n]; [reflexivity|]). lia. Qed.
Lemma drop_digits l r : are_digits l -> drop_dot_zero (digits l ++ r) = (digits l ++ drop_dot_zero r)%string.
Proof. intros H. induction H as [|n l Hn _ IH]; [reflexivity|]. cbn [digits append]. rewrite drop_digit by exact Hn. rewrite IH. reflexivity. Qed.
Lemma str_app_assoc a b c : ((a ++ b) ++ c = a ++ (b ++ c))%string.
Proof. induction a as [|x a IH]; [reflexivity|]. cbn. rewrite IH. reflexivity. Qed.
Lemma str_app_nil a : (a ++ "" = a)%string.
Proof. induction a as [|x a IH]; [reflexivity|]. cbn. rewrite IH. reflexivity. Qed.
Lemma digits_app a b : digits (a ++ b) = (digits a ++ digits b)%string.
Proof. induction a as [|n a IH]; [reflexivity|]. cbn. rewrite IH. reflexivity. Qed.
Lemma value_app a : forall acc b, value10 acc (a ++ b) = value10 (value10 acc a) b.
Proof. induction a as [|n a IH]; intros acc b; [reflexivity|]. cbn [app value10]. apply IH. Qed.
Lemma value_acc l : forall acc, value10 acc l = (acc * 10 ^ Z.of_nat (length l) + value10 0 l)%Z.
Proof.
  induction l as [|n l IH]; intros acc; [cbn; lia|]. cbn [value10 length]. rewrite IH, (IH (10 * 0 + Z.of_nat n)%Z). rewrite Nat2Z.inj_succ, Z.pow_succ_r by lia. ring.
Qed.
Lemma value_nonneg l : forall acc, (0 <= acc)%Z -> (0 <= value10 acc l)%Z.
Proof. induction l as [|n l IH]; intros acc H; [exact H|]. cbn [value10]. apply IH. lia. Qed.
(* one reading at most *)
Definition stops (s : string) : Prop := forall n r, n < 10 -> s <> String (digit n) r.
Lemma digits_read i : forall i' r r', are_digits i -> are_digits i' -> stops r -> stops r' -> (digits i ++ r = digits i' ++ r')%string -> i = i' /\ r = r'.
Proof.
  induction i as [|n i IH]; intros [|n' i'] r r' H H' S S' E; cbn [digits append] in E.
  - split; [reflexivity|exact E].
  - exfalso. inversion H'; subst. eapply S; [eassumption|reflexivity].
  - exfalso. inversion H; subst. eapply S'; [eassumption|reflexivity].
  - inversion H; inversion H'; subst. injection E as E1 E2. apply digit_inj in E1; [|assumption|assumption]. subst n'. destruct (IH i' r r') as [-> ->]; auto.
Qed.
Lemma letter_shape l k : letter_seconds l = Some k -> l = "s"%string /\ k = qz 1 \/ l = "m"%string /\ k = qz 60 \/ l = "h"%string /\ k = qz 3600.
Proof.
  unfold letter_seconds. destruct (String.eqb_spec l "s"); [intros E; injection E as <-; auto|]. destruct (String.eqb_spec l "m"); [intros E; injection E as <-; auto|]. destruct (String.eqb_spec l "h"); [intros E; injection E as <-; auto|discriminate].
Qed.
Lemma letter_stops l k : letter_seconds l = Some k -> stops l /\ forall r, l <> String "." r.
Proof.
  intros H. apply letter_shape in H. destruct H as [(-> & _)|[(-> & _)|(-> & _)]]; (split; [intros n r Hn E; do 10 (destruct n as [|n]; [discriminate E|]); lia|intros r E; discriminate E]).
Qed.
Lemma dot_stops r : stops (String "." r).
Proof. intros n r' Hn E. injection E as E _. symmetry in E. apply (digit_not_dot n Hn E). Qed.
Lemma lasts_unique s q q' : unit_string_lasts s q -> unit_string_lasts s q' -> q = q'.
Proof.
  intros (i & f & l & k & -> & Ni & Di & Df & Lk & ->) (i' & f' & l' & k' & E & Ni' & Di' & Df' & Lk' & ->).
  destruct (letter_stops _ _ Lk) as [Sl Nl]. destruct (letter_stops _ _ Lk') as [Sl' Nl'].
  assert (Q : i = i' /\ f = f' /\ l = l').
  { destruct f as [|d f], f' as [|d' f']; cbn [decimal_string] in E; rewrite ?str_app_assoc in E.
    - apply digits_read in E; try assumption. destruct E as [-> ->]. auto.
    - apply digits_read in E; [|assumption|assumption|assumption|apply dot_stops]. destruct E as [_ E]. exfalso. eapply Nl. exact E.
    - apply digits_read in E; [|assumption|assumption|apply dot_stops|assumption]. destruct E as [_ E]. exfalso. eapply Nl'. symmetry. exact E.
    - apply digits_read in E; [|assumption|assumption|apply dot_stops|apply dot_stops]. destruct E as [-> E]. assert (E1 : (digits (d :: f) ++ l = digits (d' :: f') ++ l')%string) by (cbn [append] in E; injection E; intros; cbn [digits append]; congruence).
      apply digits_read in E1; try assumption. destruct E1 as [X ->]. rewrite X. auto. }
  destruct Q as (-> & -> & ->). rewrite Lk in Lk'. injection Lk' as ->. reflexivity.
Qed.
