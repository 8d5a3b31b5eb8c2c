(* PeriodicityProofs3.v -- what the detection gives. *)
From Verif Require Import SpecPeriodicity PropTactics BaseLemmas ReconProofs4 ReconProofs3 OpsProofs OpsProofs2 SeriesProofs SeriesProofs2 SeriesProofs4 SamplingProofs LstmProofs AnomalyProofs4 PeriodicityProofs PeriodicityProofs2.
From Coq Require Import Lra.
Local Open Scope R_scope.

Definition half (n : nat) : nat := Z.to_nat (round_even (Qcdiv (qn n) q2)).
Lemma half_bounds n : (n <= 2 * half n + 1)%nat /\ (2 * half n <= n + 1)%nat.
Proof.
  pose proof (round_even_nearest (Qcdiv (qn n) q2)) as H. apply nearest_le in H. unfold half. set (z := round_even (Qcdiv (qn n) q2)) in *. destruct H as [H1 H2].
  assert (Q2 : q2 = Qcplus (qz 1) (qz 1)) by (apply qeqb_eq; vm_compute; reflexivity). assert (HH : Qcplus (qfrac 1 2) (qfrac 1 2) = qz 1) by apply half_sum.
  assert (E : Qcplus (Qcdiv (qn n) q2) (Qcdiv (qn n) q2) = qn n). { assert (D : Qcplus (Qcdiv (qn n) q2) (Qcdiv (qn n) q2) = Qcmult (qn n) (Qcdiv q2 q2)). { rewrite Q2 at 3. change (qz 1) with 1%Qc. unfold Qcdiv. ring. } rewrite D. replace (Qcdiv q2 q2) with 1%Qc; [ring|]. apply qeqb_eq. vm_compute. reflexivity. }
  set (y := Qcdiv (qn n) q2) in *. change (qn n) with (qz (Z.of_nat n)) in E.
  assert (A : (z + z <= Z.of_nat n + 1)%Z). { apply qz_le_iff. rewrite !qz_plus. rewrite <- E. qlra. }
  assert (B : (Z.of_nat n <= z + z + 1)%Z). { apply qz_le_iff. rewrite !qz_plus. rewrite <- E. qlra. }
  lia.
Qed.
Lemma half_nearest n : nearest (Qcdiv (qn n) q2) (Z.of_nat (half n)).
Proof.
  pose proof (round_even_nearest (Qcdiv (qn n) q2)) as H. unfold half. set (z := round_even (Qcdiv (qn n) q2)) in *. destruct (Z.le_gt_cases 0 z) as [A|A]; [rewrite Z2Nat.id by exact A; exact H|].
  exfalso. destruct (nearest_le _ _ H) as [_ H2]. assert (P : Qcle (Q2Qc 0) (Qcdiv (qn n) q2)). { unfold Qcdiv. assert (I : Qcle (Q2Qc 0) (Qcinv q2)) by (apply qleb_le; vm_compute; reflexivity). assert (N : Qcle (qn 0) (qn n)) by (apply qn_le; lia). change (qn 0) with (Q2Qc 0) in N. assert (M := Qcmult_le_compat_r _ _ _ N I). replace (Qcmult (Q2Qc 0) (/ q2)%Qc) with (Q2Qc 0) in M by ring. exact M. }
  assert (A' : (z <= -1)%Z) by lia. apply qz_le_iff in A'. assert (K : Qclt (Qcplus (qz (-1)) (qfrac 1 2)) (Q2Qc 0)) by (apply qltb_lt; vm_compute; reflexivity). qlra.
Qed.
Lemma half_spectrum_eq v : (1 <= length v)%nat -> half_spectrum (map real v) = map (strength v) (seq 0 (half (length v))).
Proof. intros L. unfold half_spectrum. rewrite map_length. apply map_ext. intros k. apply magnitude_strength. exact L. Qed.
Lemma candidate_iff v k : candidate v k <-> local_max (strength v) (half (length v)) k.
Proof.
  split; [|intros H; exists (half (length v)); split; [apply half_nearest|exact H]]. intros (h & N & H). assert (E : Z.of_nat h = Z.of_nat (half (length v))) by (apply (nearest_unique (Qcdiv (qn (length v)) q2)); [exact N|apply half_nearest]). apply Nat2Z.inj in E. subst h. exact H.
Qed.

Lemma pos_mult a b : Qclt (Q2Qc 0) a -> Qclt (Q2Qc 0) b -> Qclt (Q2Qc 0) (Qcmult a b).
Proof. intros A B. assert (M := Qcmult_lt_compat_r _ _ _ B A). replace (Qcmult (Q2Qc 0) b) with (Q2Qc 0) in M by ring. exact M. Qed.
Lemma pos_inv a : Qclt (Q2Qc 0) a -> Qcmult a (/ a)%Qc = 1%Qc /\ Qclt (Q2Qc 0) (/ a)%Qc.
Proof.
  intros A. assert (N : a <> Q2Qc 0) by (intros Z; rewrite Z in A; qlra). assert (I : Qcmult a (/ a)%Qc = 1%Qc) by (apply Qcmult_inv_r; exact N). split; [exact I|].
  destruct (Qclt_le_dec (Q2Qc 0) (/ a)%Qc) as [G|G]; [exact G|]. exfalso. assert (M := Qcmult_le_compat_r _ _ a G (Qclt_le_weak _ _ A)). rewrite (Qcmult_comm (/ a)%Qc a), I in M. replace (Qcmult (Q2Qc 0) a) with (Q2Qc 0) in M by ring. revert M. apply Qclt_not_le. apply qltb_lt. vm_compute. reflexivity.
Qed.

Section Chosen.
Variables (v : list Qc) (L : (1 <= length v)%nat).
Let ps := peaks_of (half_spectrum (map real v)).
Lemma ps_In q : In q ps <-> local_max (strength v) (half (length v)) (fst q) /\ snd q = strength v (fst q).
Proof.
  unfold ps. rewrite peaks_of_In, half_spectrum_eq by exact L. rewrite peaks_spec. split; intros [A B]; (split; [exact A|]); rewrite B; [|symmetry]; apply nth_map_seq; apply local_max_range in A; lia.
Qed.
Lemma ps_ranking : ranking v (map fst ps).
Proof.
  split.
  - apply (ss_map fst (fun p q => asc q p)); [|apply peaks_of_sorted]. intros a b Ha Hb H. apply (proj1 (ps_In a)) in Ha. apply (proj1 (ps_In b)) in Hb. unfold asc in H. destruct Ha as [_ Ha], Hb as [_ Hb]. rewrite Ha, Hb in H. exact H.
  - intros k. rewrite candidate_iff, in_map_iff. split.
    + intros (q & <- & H). apply (proj1 (ps_In q)) in H. apply H.
    + intros H. exists (k, strength v k). split; [reflexivity|]. apply (proj2 (ps_In (k, strength v k))). split; [exact H|reflexivity].
Qed.
Lemma period_cmp a b : (1 <= a)%nat -> (1 <= b)%nat ->
  qltb (Qcmult (period_of (length v) (b, 0)) (qz 10)) (period_of (length v) (a, 0)) = Nat.ltb (10 * a) b.
Proof.
  intros A B. unfold period_of. cbn [fst]. pose proof (qn_pos_R a A) as PA. pose proof (qn_pos_R b B) as PB. pose proof (qn_pos_R (length v) L) as PN.
  set (x := qn a) in *. set (y := qn b) in *. set (n := qn (length v)) in *.
  destruct (pos_inv x PA) as [XI PXI]. destruct (pos_inv y PB) as [YI PYI].
  assert (Q : Qclt (Qcmult (Qcdiv n y) (qz 10)) (Qcdiv n x) <-> Qclt (Qcmult (qz 10) x) y).
  { unfold Qcdiv. set (xi := (/ x)%Qc) in *. set (yi := (/ y)%Qc) in *. split; intros H.
    - destruct (Qclt_le_dec (Qcmult (qz 10) x) y) as [G|G]; [exact G|]. exfalso.
      assert (M : Qcle (Qcmult (Qcmult y xi) (Qcmult n yi)) (Qcmult (Qcmult (Qcmult (qz 10) x) xi) (Qcmult n yi))). { apply Qcmult_le_compat_r; [apply Qcmult_le_compat_r; [exact G|apply Qclt_le_weak; exact PXI]|]. apply Qclt_le_weak. apply pos_mult; assumption. }
      assert (E1 : Qcmult (Qcmult y xi) (Qcmult n yi) = Qcmult n xi) by (transitivity (Qcmult (Qcmult n xi) (Qcmult y yi)); [ring|rewrite YI; ring]).
      assert (E2 : Qcmult (Qcmult (Qcmult (qz 10) x) xi) (Qcmult n yi) = Qcmult (Qcmult n yi) (qz 10)) by (transitivity (Qcmult (Qcmult (Qcmult n yi) (qz 10)) (Qcmult x xi)); [ring|rewrite XI; ring]).
      rewrite E1, E2 in M. qlra.
    - destruct (Qclt_le_dec (Qcmult (Qcmult n yi) (qz 10)) (Qcmult n xi)) as [G|G]; [exact G|]. exfalso.
      assert (M : Qclt (Qcmult (Qcmult (Qcmult (qz 10) x) xi) (Qcmult n yi)) (Qcmult (Qcmult y xi) (Qcmult n yi))). { apply Qcmult_lt_compat_r; [apply pos_mult; assumption|]. apply Qcmult_lt_compat_r; [exact PXI|exact H]. }
      assert (E1 : Qcmult (Qcmult y xi) (Qcmult n yi) = Qcmult n xi) by (transitivity (Qcmult (Qcmult n xi) (Qcmult y yi)); [ring|rewrite YI; ring]).
      assert (E2 : Qcmult (Qcmult (Qcmult (qz 10) x) xi) (Qcmult n yi) = Qcmult (Qcmult n yi) (qz 10)) by (transitivity (Qcmult (Qcmult (Qcmult n yi) (qz 10)) (Qcmult x xi)); [ring|rewrite XI; ring]).
      rewrite E1, E2 in M. qlra. }
  assert (Z : Qclt (Qcmult (qz 10) x) y <-> (10 * a < b)%nat). { unfold x, y, qn. rewrite <- qz_mult, qz_lt_iff. lia. }
  destruct (qltb_spec (Qcmult (Qcdiv n y) (qz 10)) (Qcdiv n x)) as [H|H].
  - symmetry. apply Nat.ltb_lt. apply Z, Q. exact H.
  - symmetry. apply Nat.ltb_ge. destruct (Nat.lt_ge_cases (10 * a) b) as [G|G]; [|exact G]. exfalso. apply Z, Q in G. qlra.
Qed.
Lemma period_cmp2 a : (1 <= a)%nat -> qltb (Qcdiv (qn (length v)) (qz 10)) (period_of (length v) (a, 0)) = Nat.ltb a 10.
Proof.
  intros A. unfold period_of. cbn [fst]. pose proof (qn_pos_R a A) as PA. pose proof (qn_pos_R (length v) L) as PN. set (x := qn a) in *. set (n := qn (length v)) in *.
  destruct (pos_inv x PA) as [XI PXI]. set (xi := (/ x)%Qc) in *. assert (T : Qcmult (qz 10) (/ qz 10)%Qc = 1%Qc) by (apply qeqb_eq; vm_compute; reflexivity). unfold Qcdiv. fold xi. set (t := (/ qz 10)%Qc) in *. assert (PT : Qclt (Q2Qc 0) t) by (apply qltb_lt; vm_compute; reflexivity).
  assert (Q : Qclt (Qcmult n t) (Qcmult n xi) <-> Qclt x (qz 10)).
  { split; intros H.
    - destruct (Qclt_le_dec x (qz 10)) as [G|G]; [exact G|]. exfalso. assert (M : Qcle (Qcmult (qz 10) (Qcmult n (Qcmult xi t))) (Qcmult x (Qcmult n (Qcmult xi t)))). { apply Qcmult_le_compat_r; [exact G|]. apply Qclt_le_weak. apply pos_mult; [exact PN|apply pos_mult; assumption]. }
      assert (E1 : Qcmult (qz 10) (Qcmult n (Qcmult xi t)) = Qcmult n xi) by (transitivity (Qcmult (Qcmult n xi) (Qcmult (qz 10) t)); [ring|rewrite T; ring]). assert (E2 : Qcmult x (Qcmult n (Qcmult xi t)) = Qcmult n t) by (transitivity (Qcmult (Qcmult n t) (Qcmult x xi)); [ring|rewrite XI; ring]). rewrite E1, E2 in M. qlra.
    - assert (M : Qclt (Qcmult x (Qcmult n (Qcmult xi t))) (Qcmult (qz 10) (Qcmult n (Qcmult xi t)))). { apply Qcmult_lt_compat_r; [|exact H]. apply pos_mult; [exact PN|apply pos_mult; assumption]. }
      assert (E1 : Qcmult (qz 10) (Qcmult n (Qcmult xi t)) = Qcmult n xi) by (transitivity (Qcmult (Qcmult n xi) (Qcmult (qz 10) t)); [ring|rewrite T; ring]). assert (E2 : Qcmult x (Qcmult n (Qcmult xi t)) = Qcmult n t) by (transitivity (Qcmult (Qcmult n t) (Qcmult x xi)); [ring|rewrite XI; ring]). rewrite E1, E2 in M. exact M. }
  assert (Z : Qclt x (qz 10) <-> (a < 10)%nat) by (unfold x, qn; rewrite qz_lt_iff; lia).
  destruct (qltb_spec (Qcmult n t) (Qcmult n xi)) as [H|H]; symmetry; [apply Nat.ltb_lt; apply Z, Q; exact H|]. apply Nat.ltb_ge. destruct (Nat.lt_ge_cases a 10) as [G|G]; [|exact G]. exfalso. apply Z, Q in G. qlra.
Qed.
Lemma aside_discarded j p : nth_error ps j = Some p -> set_aside (length v) p (skipn (S j) ps) = true <-> discarded v (map fst ps) j.
Proof.
  intros P. assert (N0 : forall q, In q ps -> (1 <= fst q)%nat) by (intros q Hq; apply (proj1 (ps_In q)) in Hq; destruct Hq as [Hq _]; apply local_max_range in Hq; lia).
  assert (SK : forall k, nth_error (skipn (S j) ps) k = nth_error ps (S j + k)) by (intros k; apply AccessProofs2.nth_error_skipn). unfold discarded. rewrite !nth_error_map, P.
  pose proof (SK 0%nat) as K0. pose proof (SK 1%nat) as K1. replace (S j + 0)%nat with (j + 1)%nat in K0 by lia. replace (S j + 1)%nat with (j + 2)%nat in K1 by lia. rewrite <- K0, <- K1.
  assert (PI : In p ps) by (eapply nth_error_In; exact P).
  destruct (skipn (S j) ps) as [|q [|r l]] eqn:E; cbn [set_aside nth_error option_map].
  - split; [discriminate|]. intros (a & b & c & _ & H & _). discriminate H.
  - split; [discriminate|]. intros (a & b & c & _ & _ & H & _). discriminate H.
  - assert (QI : In q ps). { cbn [nth_error] in K0. eapply nth_error_In. symmetry. exact K0. } assert (RI : In r ps). { cbn [nth_error] in K1. eapply nth_error_In. symmetry. exact K1. }
    assert (C1 : qltb (Qcmult (period_of (length v) q) (qz 10)) (period_of (length v) p) = Nat.ltb (10 * fst p) (fst q)) by (apply (period_cmp (fst p) (fst q)); apply N0; assumption).
    assert (C2 : qltb (Qcdiv (qn (length v)) (qz 10)) (period_of (length v) p) = Nat.ltb (fst p) 10) by (apply (period_cmp2 (fst p)); apply N0; assumption).
    rewrite C1, C2, !andb_true_iff, rltb_spec, !Nat.ltb_lt. apply (proj1 (ps_In p)) in PI. apply (proj1 (ps_In q)) in QI. apply (proj1 (ps_In r)) in RI. destruct PI as [_ ->], QI as [_ ->], RI as [_ ->]. split.
    + intros [[H1 H2] H3]. exists (fst p), (fst q), (fst r). split; [reflexivity|]. split; [reflexivity|]. split; [reflexivity|]. split; [lra|]. split; assumption.
    + intros (a & b & c & A & B & C & H1 & H2 & H3). injection A as <-. injection B as <-. injection C as <-. split; [split|]; try assumption. lra.
Qed.
End Chosen.

Lemma signal_length e s v : signal e s v -> (1 <= length v)%nat /\ length v = length (s_items s).
Proof.
  intros (R & _ & lb & S1 & C). assert (E : length v = length (s_items s)) by (symmetry; eapply F2_len; exact C). split; [|exact E]. rewrite E. destruct R as (_ & [N _] & _). destruct (s_items s); [contradiction N; reflexivity|cbn; lia].
Qed.
Lemma detect_unfold e s v : signal e s v -> detect_periodicity s =
  match scan_peaks (length v) 0 None (peaks_of (half_spectrum (map real v))) with
  | None => Err ValueError
  | Some f => if qeqb f q0 then Err ValueError else Ok (Some (round_even f))
  end.
Proof.
  intros H. destruct (signal_length e s v H) as [L LE]. destruct H as (R & V & lb & S1 & C). unfold detect_periodicity. assert (NE : s_items s <> []) by (intros E; rewrite E in LE; cbn in LE; lia).
  assert (M : mapM (fun x => data_at x lb) (s_items s) = Ok v). { assert (G : forall l w, column lb l w -> (forall x, In x l -> In x (s_items s)) -> mapM (fun x => data_at x lb) l = Ok w). { intros l w F. induction F as [|x q l w V1 F IH]; intros I; [reflexivity|]. cbn [mapM]. rewrite (ready_value e s x lb q R); [|apply I; left; reflexivity|exact V1]. cbn [bind]. rewrite IH; [reflexivity|]. intros y Hy. apply I. right. exact Hy. } apply G; [exact C|auto]. }
  rewrite (labels_single e s lb R S1). cbn [bind]. rewrite M. cbn [bind]. destruct (s_items s) eqn:E; [contradiction NE; reflexivity|]. destruct (resolution s) as [[|u]|]; try reflexivity. contradiction V. reflexivity.
Qed.
Lemma detect_char e s v : signal e s v -> exists ks, ranking v ks /\
  ((ks = [] /\ detect_periodicity s = Err ValueError) \/
   exists i a p, nth_error ks i = Some a /\ (forall j, (j < i)%nat -> discarded v ks j) /\ ~ discarded v ks i /\ nearest (Qcdiv (qn (length v)) (qn a)) p /\ detect_periodicity s = Ok (Some p)).
Proof.
  intros H. rewrite (detect_unfold e s v H). destruct (signal_length e s v H) as [L _]. exists (map fst (peaks_of (half_spectrum (map real v)))). split; [apply ps_ranking; exact L|].
  assert (P1 : forall p, In p (peaks_of (half_spectrum (map real v))) -> (1 <= fst p)%nat) by (intros q Hq; apply (proj1 (ps_In v L q)) in Hq; destruct Hq as [Hq _]; apply local_max_range in Hq; lia).
  destruct (scan_spec (length v) L (peaks_of (half_spectrum (map real v))) 0 P1) as [[E S1]|(j & p & P & S1 & A & B)].
  - left. rewrite E, S1 in *. split; reflexivity.
  - right. exists j, (fst p), (round_even (period_of (length v) p)). rewrite S1. split; [rewrite nth_error_map, P; reflexivity|]. split; [|split; [|split]].
    + intros j' J. destruct (nth_error (peaks_of (half_spectrum (map real v))) j') as [p'|] eqn:E'; [|exfalso; apply nth_error_None in E'; assert (nth_error (peaks_of (half_spectrum (map real v))) j <> None) as NN by (rewrite P; discriminate); apply nth_error_Some in NN; lia]. apply (aside_discarded v L j' p' E'). apply (B j' p' J E').
    + intros D. apply (aside_discarded v L j p P) in D. rewrite D in A. discriminate.
    + apply round_even_nearest.
    + destruct (qeqb_spec (period_of (length v) p) q0) as [Z|Z]; [|reflexivity]. exfalso. apply (period_pos (length v) p L); [apply P1; eapply nth_error_In; exact P|exact Z].
Qed.
