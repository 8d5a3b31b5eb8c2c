(* IntervalsProofs.v -- validity regions. *)
From Verif Require Import SpecIntervals BaseLemmas AccessProofs3.

Definition mid (a b : Qc) : Qc := qhalf (Qcplus a b).
Definition left_of (si : Qc) (prev : option Qc) (t : Qc) : Qc :=
  match prev with
  | Some p => if qltb (Qcminus t p) si then mid p t else Qcminus t (qhalf si)
  | None => Qcminus t (qhalf si)
  end.
Definition right_of (si : Qc) (t : Qc) (r : list Qc) : Qc :=
  match r with
  | n :: _ => if qltb (Qcminus n t) si then mid t n else Qcplus t (qhalf si)
  | [] => Qcplus t (qhalf si)
  end.
Fixpoint regs (si : Qc) (prev : option Qc) (ts : list Qc) : list region :=
  match ts with
  | [] => []
  | t :: r => mkRegion t (left_of si prev t) (right_of si t r) :: regs si (Some t) r
  end.

Lemma loop_regs si : forall l p f acc,
  regions_loop si None None false (mkRegion p f (Qcplus p (qhalf si)) :: acc) l =
  rev acc ++ mkRegion p f (right_of si p (map i_t l)) :: regs si (Some p) (map i_t l).
Proof.
  induction l as [|x l IH]; intros p f acc; simpl; [reflexivity|].
  unfold qhalf, mid, q2 in *.
  destruct (qltb_spec (Qcminus (i_t x) (Qcdiv si (qz 2))) (Qcplus p (Qcdiv si (qz 2)))) as [L|L];
  destruct (qltb_spec (Qcminus (i_t x) p) si) as [L'|L'];
  try (exfalso; qlra).
  - rewrite IH. simpl. rewrite <- app_assoc. simpl.
    assert (E : Qcdiv (Qcplus (Qcplus p (Qcdiv si (qz 2))) (Qcminus (i_t x) (Qcdiv si (qz 2)))) (qz 2) = qhalf (Qcplus p (i_t x))) by (unfold qhalf, q2; qlra).
    rewrite E. reflexivity.
  - rewrite IH. simpl. rewrite <- app_assoc. reflexivity.
Qed.
Lemma loop_regs0 si l : regions_loop si None None false [] l = regs si None (map i_t l).
Proof. destruct l as [|x l]; [reflexivity|]. simpl. rewrite loop_regs. reflexivity. Qed.

Lemma si_cons a l : strictly_increasing (a :: l) -> strictly_increasing l /\ (forall b, In b l -> Qclt a b).
Proof.
  intros H. split.
  - intros i j x y L Hx Hy. apply (H (S i) (S j) x y); [lia|exact Hx|exact Hy].
  - intros b Hb. apply In_nth_error in Hb. destruct Hb as [n Hn]. apply (H 0 (S n) a b); [lia|reflexivity|exact Hn].
Qed.
Lemma si_cons_inv a l : strictly_increasing l -> (forall b, In b l -> Qclt a b) -> strictly_increasing (a :: l).
Proof.
  intros H K i j x y L Hx Hy. destruct j as [|j]; [lia|]. destruct i as [|i].
  - injection Hx as <-. apply K. apply (nth_error_In l j). exact Hy.
  - apply (H i j); [lia|exact Hx|exact Hy].
Qed.

Lemma regs_t si : forall ts prev, map r_t (regs si prev ts) = ts.
Proof. induction ts; intros; simpl; [reflexivity|]. rewrite IHts. reflexivity. Qed.
Lemma regs_len si ts prev : length (regs si prev ts) = length ts.
Proof. rewrite <- (regs_t si ts prev) at 2. rewrite map_length. reflexivity. Qed.

Lemma regs_from_lb si : forall ts prev, Qclt q0 si -> strictly_increasing (match prev with Some p => p :: ts | None => ts end) ->
  forall r, In r (regs si prev ts) -> Qclt (r_from r) (r_t r) /\ Qclt (r_t r) (r_to r) /\
     Qcle (Qcminus (r_t r) (Qcdiv si (qz 2))) (r_from r) /\ Qcle (r_to r) (Qcplus (r_t r) (Qcdiv si (qz 2))).
Proof.
  induction ts as [|t ts IH]; intros prev Hs Hi r Hr; [destruct Hr|].
  assert (Ht : strictly_increasing (t :: ts)) by (destruct prev; [apply si_cons in Hi; apply Hi|exact Hi]).
  destruct Hr as [<- | Hr].
  - simpl. split; [|split; [|split]].
    + unfold left_of, mid, qhalf, q2. destruct prev as [p|]; [|qlra].
      assert (Qclt p t) by (apply si_cons in Hi; apply Hi; left; reflexivity).
      qcase; qlra.
    + unfold right_of, mid, qhalf, q2. destruct ts as [|n ts]; [qlra|].
      assert (Qclt t n) by (apply si_cons in Ht; apply Ht; left; reflexivity).
      qcase; qlra.
    + unfold left_of, mid, qhalf, q2. destruct prev as [p|]; [|qlra].
      qcase; qlra.
    + unfold right_of, mid, qhalf, q2. destruct ts as [|n ts]; [qlra|]. qcase; qlra.
  - apply (IH (Some t)); assumption.
Qed.
Lemma regs_consec si : forall ts prev, consecutive (fun r r' =>
    if qltb (Qcminus (r_t r') (r_t r)) si
    then r_to r = midpoint (r_t r) (r_t r') /\ r_from r' = midpoint (r_t r) (r_t r')
    else r_to r = Qcplus (r_t r) (Qcdiv si (qz 2)) /\ r_from r' = Qcminus (r_t r') (Qcdiv si (qz 2))) (regs si prev ts).
Proof.
  induction ts as [|t ts IH]; intros prev i a b Ha Hb.
  - destruct i; discriminate.
  - destruct i as [|i].
    + injection Ha as <-. destruct ts as [|n ts]; [discriminate|]. injection Hb as <-. simpl.
      destruct (qltb (Qcminus n t) si); split; reflexivity.
    + apply (IH (Some t) i); [exact Ha|exact Hb].
Qed.
Lemma regs_order si : forall ts prev, Qclt q0 si -> strictly_increasing (match prev with Some p => p :: ts | None => ts end) ->
  forall i j r r', i < j -> nth_error (regs si prev ts) i = Some r -> nth_error (regs si prev ts) j = Some r' -> Qcle (r_to r) (r_from r').
Proof.
  intros ts prev Hs Hi i j r r' L Hr Hr'.
  assert (G : forall k x, nth_error (regs si prev ts) (S i + k) = Some x -> Qcle (r_to r) (r_from x)).
  { induction k as [|k IH]; intros x Hx.
    - rewrite Nat.add_0_r in Hx. pose proof (regs_consec si ts prev i r x Hr Hx) as C. simpl in C.
      destruct (qltb_spec (Qcminus (r_t x) (r_t r)) si); destruct C as [-> ->]; unfold midpoint; qlra.
    - destruct (nth_error (regs si prev ts) (S i + k)) as [y|] eqn:Ey.
      2:{ apply nth_error_None in Ey. assert (S i + S k < length (regs si prev ts)) by (apply nth_error_Some; rewrite Hx; discriminate). lia. }
      specialize (IH y eq_refl).
      replace (S i + S k) with (S (S i + k)) in Hx by lia.
      pose proof (regs_consec si ts prev _ y x Ey Hx) as C. simpl in C.
      assert (Iy : In y (regs si prev ts)) by (apply nth_error_In in Ey; exact Ey).
      destruct (regs_from_lb si ts prev Hs Hi y Iy) as (B1 & B2 & _).
      destruct (qltb_spec (Qcminus (r_t x) (r_t y)) si); destruct C as [C1 C2]; rewrite C2; rewrite C1 in B2; unfold midpoint in *; qlra. }
  apply (G (j - S i)). replace (S i + (j - S i)) with j by lia. exact Hr'.
Qed.
Lemma regs_last si : forall ts prev r, nth_error (regs si prev ts) (length (regs si prev ts) - 1) = Some r -> r_to r = Qcplus (r_t r) (Qcdiv si (qz 2)).
Proof.
  induction ts as [|t ts IH]; intros prev r Hr; [discriminate|].
  destruct ts as [|n ts]; [injection Hr as <-; reflexivity|].
  apply (IH (Some t)). simpl in *. rewrite Nat.sub_0_r. exact Hr.
Qed.
Lemma regs_tile si ts : Qclt q0 si -> strictly_increasing ts -> tile si ts (regs si None ts).
Proof.
  intros Hs Hi. split; [apply regs_t|split; [apply regs_from_lb; assumption|split; [apply regs_order; assumption|split; [apply regs_consec|split; [|apply regs_last]]]]].
  intros r Hr. destruct ts as [|t ts]; [discriminate|]. injection Hr as <-. reflexivity.
Qed.

(* the window *)
Definition in_window (si : Qc) (from to : option Qc) (x : item) : bool :=
  negb (match from with Some a => qleb (Qcplus (i_t x) (qhalf si)) a | None => false end) &&
  negb (match to with Some b => qltb b (Qcminus (i_t x) (qhalf si)) | None => false end).
Lemma loop_window si from to : forall l acc, strictly_increasing (times l) ->
  regions_loop si from to false acc l = regions_loop si None None false acc (filter (in_window si from to) l).
Proof.
  induction l as [|x l IH]; intros acc Hi; [reflexivity|]. apply si_cons in Hi. destruct Hi as [Hi Hx].
  cbn [filter]. unfold in_window at 1.
  change (times (x :: l)) with (i_t x :: times l) in *.
  cbn [regions_loop]. destruct (match from with Some a => qleb (Qcplus (i_t x) (qhalf si)) a | None => false end) eqn:E1.
  - simpl. apply IH. exact Hi.
  - destruct (match to with Some b => qltb b (Qcminus (i_t x) (qhalf si)) | None => false end) eqn:E2; simpl.
    + destruct to as [b|]; [|discriminate]. assert (F : filter (in_window si from (Some b)) l = []).
      { clear IH. induction l as [|y l IHl]; [reflexivity|]. cbn [filter]. unfold in_window at 1.
        assert (qltb b (Qcminus (i_t y) (qhalf si)) = true) as ->.
        { apply qltb_true. destruct (qltb_spec b (Qcminus (i_t x) (qhalf si))); [|discriminate].
          assert (Qclt (i_t x) (i_t y)) by (apply Hx; left; reflexivity). unfold qhalf, q2 in *. qlra. }
        simpl. rewrite andb_false_r. apply IHl; [apply si_cons in Hi; apply Hi|intros z Hz; apply Hx; right; exact Hz]. }
      rewrite F. reflexivity.
    + destruct acc as [|p acc]; [apply IH; exact Hi|]. qcase; apply IH; exact Hi.
Qed.
Lemma filter_increasing (P : item -> bool) : forall l, strictly_increasing (times l) -> strictly_increasing (times (filter P l)).
Proof.
  induction l as [|x l IH]; intros H; [exact H|]. apply si_cons in H. destruct H as [H K]. simpl. destruct (P x); [|apply IH; exact H].
  apply si_cons_inv; [apply IH; exact H|]. intros b Hb. apply K. unfold times in *. apply in_map_iff in Hb. destruct Hb as (y & <- & Hy).
  apply in_map. apply filter_In in Hy. apply Hy.
Qed.
Lemma filter_filtered {A} (P : A -> bool) (Q : A -> Prop) : (forall x, P x = true <-> Q x) -> forall l, filtered Q l (filter P l).
Proof.
  intros H. induction l as [|x l IH]; simpl; [constructor|]. destruct (P x) eqn:E.
  - constructor; [apply H; exact E|exact IH].
  - constructor; [intros K; apply H in K; congruence|exact IH].
Qed.
