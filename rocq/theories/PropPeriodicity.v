(* PropPeriodicity.v -- THEOREMS C83: the periodicity detected for a series. *)
From Verif Require Import SpecPeriodicity PropTactics BaseLemmas Witness Recon ReconProofs4 ReconProofs3 OpsProofs OpsProofs2 SeriesProofs SeriesProofs2 SamplingProofs LstmProofs PropTransform PeriodicityProofs PeriodicityProofs2 PeriodicityProofs3 PeriodicityProofs4 PeriodicityProofs5.
From Coq Require Import Lra.
Local Open Scope R_scope.

(* ===================== C83 ===================== *)

(* What is given: the period of the strongest oscillation which is not discarded; an error only if there is none at all. *)
Theorem C83_choice : forall e s v, signal e s v -> exists ks, ranking v ks /\
  ((ks = [] /\ detect_periodicity s = Err ValueError) \/
   exists i a p, nth_error ks i = Some a /\ (forall j, (j < i)%nat -> discarded v ks j) /\ ~ discarded v ks i /\ nearest (Qcdiv (qn (length v)) (qn a)) p /\ detect_periodicity s = Ok (Some p)).
Proof. exact detect_char. Qed.
Print Assumptions C83_choice.

(* The period is of two items at least, and it is not longer than the series. *)
Theorem C83_range : forall e s v r, signal e s v -> detect_periodicity s = Ok r -> exists p, r = Some p /\ (2 <= p <= Z.of_nat (length (s_items s)))%Z.
Proof.
  intros e s v r S1 D. destruct (signal_length e s v S1) as [L LE]. destruct (detect_char e s v S1) as (ks & K & [[_ H]|(i & a & p & A & _ & _ & N & H)]); [congruence|]. exists p. split; [congruence|]. rewrite <- LE.
  assert (C : candidate v a) by (apply K; eapply nth_error_In; exact A). destruct (candidate_range v a C) as [C1 C2]. destruct (pos_inv (qn a) (qn_pos_R a C1)) as [AI AP]. unfold Qcdiv in N. set (x := (/ qn a)%Qc) in *. set (n := length v) in *.
  assert (M1 : Qclt (qz 2) (Qcmult (qn n) x)). { assert (M : Qclt (Qcmult (Qcmult (qz 2) (qn a)) x) (Qcmult (qn n) x)) by (apply Qcmult_lt_compat_r; [exact AP|]; unfold qn; rewrite <- qz_mult; apply qz_lt_iff; lia). replace (Qcmult (Qcmult (qz 2) (qn a)) x) with (Qcmult (qz 2) (Qcmult (qn a) x)) in M by ring. rewrite AI in M. replace (Qcmult (qz 2) 1) with (qz 2) in M by ring. exact M. }
  assert (M2 : Qcle (Qcmult (qn n) x) (qn n)). { assert (M : Qcle (Qcmult (qn 1) x) (Qcmult (qn a) x)) by (apply Qcmult_le_compat_r; [apply qn_le; lia|apply Qclt_le_weak; exact AP]). rewrite AI in M. assert (M' : Qcle (Qcmult (Qcmult (qn 1) x) (qn n)) (Qcmult 1 (qn n))) by (apply Qcmult_le_compat_r; [exact M|apply Qclt_le_weak; apply qn_pos_R; lia]). change (qn 1) with 1%Qc in M'. replace (Qcmult (Qcmult 1 x) (qn n)) with (Qcmult (qn n) x) in M' by ring. replace (Qcmult 1 (qn n)) with (qn n) in M' by ring. exact M'. }
  split; [apply (nearest_mono _ _ 2%Z p M1); [apply nearest_z|exact N]|].
  destruct (Qc_eq_dec (Qcmult (qn n) x) (qn n)) as [E|E]; [rewrite E in N; rewrite (nearest_unique _ _ _ N (nearest_z (Z.of_nat n))); lia|].
  apply (nearest_mono (Qcmult (qn n) x) (qn n)); [|exact N|apply nearest_z]. apply Qcle_lt_or_eq in M2. destruct M2 as [M2|M2]; [exact M2|contradiction].
Qed.
Print Assumptions C83_range.

(* The values repeat themselves every p items, a whole number of times: what is detected is p or a fraction of it (rounded). *)
Theorem C83_periodic : forall e s v p r, signal e s v -> (1 <= p)%nat -> repeats p v -> Nat.divide p (length v) -> detect_periodicity s = Ok r ->
  exists j q, (1 <= j)%nat /\ (2 * j < p)%nat /\ nearest (Qcdiv (qn p) (qn j)) q /\ r = Some q.
Proof.
  intros e s v p r S1 P H D DT. destruct (signal_length e s v S1) as [L _]. destruct (detect_char e s v S1) as (ks & K & [[_ E]|(i & a & q & A & _ & _ & N & E)]); [congruence|].
  assert (C : candidate v a) by (apply K; eapply nth_error_In; exact A). destruct (candidate_multiple p v a P H D C) as (j & J1 & J2 & J3). exists j, q. split; [exact J1|]. split; [exact J2|]. destruct (candidate_range v a C) as [C1 _]. rewrite (div_eq (length v) a p j C1 J1 J3) in N. split; [exact N|congruence].
Qed.
Print Assumptions C83_periodic.

(* Hence a constant, or two values which alternate: no periodicity is detected. *)
Theorem C83_short_refused : forall e s v p, signal e s v -> (p = 1 \/ p = 2)%nat -> repeats p v -> Nat.divide p (length v) -> detect_periodicity s = Err ValueError.
Proof.
  intros e s v p S1 P H D. destruct (detect_char e s v S1) as (ks & K & [[_ E]|(i & a & q & A & _)]); [exact E|]. exfalso.
  assert (C : candidate v a) by (apply K; eapply nth_error_In; exact A). destruct (candidate_multiple p v a ltac:(lia) H D C) as (j & J1 & J2 & _). lia.
Qed.
Print Assumptions C83_short_refused.

(* A pattern of p values which is repeated q times and whose slowest oscillation is the strongest: the period is exactly p.
   There are at least ten repetitions, or the pattern is of at most 22 values. *)
Theorem C83_pattern : forall e s v p q, signal e s v -> length v = (q * p)%nat -> repeats p v -> (2 <= q)%nat -> (3 < q * (p - 2))%nat -> (10 <= q \/ p <= 22)%nat ->
  let w := firstn p v in 0 < strength w 1 -> (forall j, (2 <= j)%nat -> (2 * j < p)%nat -> strength w j < strength w 1) ->
  detect_periodicity s = Ok (Some (Z.of_nat p)).
Proof. intros e s v p q S1 L H Q PQ SM w POS DOM. apply (detect_pattern e s v p q); assumption. Qed.
Print Assumptions C83_pattern.

(* Fitting a periodic average reconstructor on it, without saying the periodicity, is the same as saying p. *)
Theorem C83_fit : forall e s v p q c dst other dst_affected offset_method limit, signal e s v -> length v = (q * p)%nat -> repeats p v -> (2 <= q)%nat -> (3 < q * (p - 2))%nat -> (10 <= q \/ p <= 22)%nat ->
  let w := firstn p v in 0 < strength w 1 -> (forall j, (2 <= j)%nat -> (2 * j < p)%nat -> strength w j < strength w 1) ->
  let auto := do o <- detect_periodicity s; match o with Some p => Ok p | None => Err TypeError end in
  pa_fit c dst auto s None dst_affected offset_method limit = pa_fit c dst other s (Some (Z.of_nat p)) dst_affected offset_method limit.
Proof.
  intros e s v p q c dst other da om limit S1 L H Q PQ SM w POS DOM auto. unfold auto. rewrite (detect_pattern e s v p q S1 Q PQ L H SM POS DOM). reflexivity.
Qed.
Print Assumptions C83_fit.

(* All the values are multiplied by the same number: the periodicity is the same. *)
Theorem C83_rescaled : forall e s v e' s' c, signal e s v -> signal e' s' (map (Qcmult c) v) -> c <> q0 -> detect_periodicity s' = detect_periodicity s.
Proof.
  intros e s v e' s' c S1 S2 C. symmetry. destruct (signal_length e s v S1) as [L _]. destruct (scaled_same c v L C) as [A B]. apply (detect_same e s v e' s' (map (Qcmult c) v)); [exact S1|exact S2|symmetry; apply map_length|exact A|intros ks i _; apply B].
Qed.
Print Assumptions C83_rescaled.

(* The same number is added to all the values: the periodicity is the same as long as the mean stays on the same side with respect to the
   strength of the oscillation as long as the series. *)
Theorem C83_shifted_partial : forall e s v e' s' c, let v' := map (Qcplus c) v in signal e s v -> signal e' s' v' ->
  (strength v 0 < strength v 1 <-> strength v' 0 < strength v' 1) -> detect_periodicity s' = detect_periodicity s.
Proof.
  intros e s v e' s' c v' S1 S2 D. symmetry. destruct (signal_length e s v S1) as [L _]. destruct (shifted_same c v L D) as [A B]. apply (detect_same e s v e' s' v'); [exact S1|exact S2|symmetry; apply map_length|exact A|exact B].
Qed.
Print Assumptions C83_shifted_partial.

(* The series which are refused. *)
Theorem C83_refused : forall s, (s_items s = [] -> detect_periodicity s = Err ValueError) /\
  (resolution s = Some RVar -> detect_periodicity s = Err ValueError) /\
  (forall a b ls, s_items s <> [] -> resolution s <> Some RVar -> labels_of s = Ok (a :: b :: ls) -> detect_periodicity s = Err NotImplementedError).
Proof.
  intros s. unfold detect_periodicity. split; [intros ->; reflexivity|]. split; [intros ->; destruct (s_items s); reflexivity|]. intros a b ls N V L. rewrite L. destruct (s_items s); [contradiction N; reflexivity|]. destruct (resolution s) as [[|u]|]; [contradiction V; reflexivity|reflexivity|reflexivity].
Qed.
Print Assumptions C83_refused.

(* ---- concrete series ---- *)
Fixpoint every10 (t : Z) (vs : list Z) : list item := match vs with [] => [] | v :: r => pt t v :: every10 (t + 10) r end.
Definition steps (vs : list Z) : series := ms (every10 0 vs).
Lemma every10_single : forall vs t lb x, In x (every10 t vs) -> (has_label x lb <-> lb = "value"%string).
Proof. induction vs as [|v vs IH]; intros t lb x H; [destruct H|]. destruct H as [<- |H]; [|apply (IH _ _ _ H)]. unfold has_label, has_value. cbn. split; [intros (w & [X|[]]); injection X as <- _; reflexivity|intros ->; eauto]. Qed.
Lemma every10_column : forall vs t, column "value" (every10 t vs) (map qz vs).
Proof. induction vs as [|v vs IH]; intros t; [constructor|]. cbn. constructor; [left; reflexivity|apply IH]. Qed.
Ltac steps_tac := match goal with |- signal ideal_env (steps ?l) _ =>
  let E := fresh in assert (E : s_items (steps l) = every10 0 l) by (vm_compute; reflexivity);
  let D := fresh in assert (D : dict_points (steps l)) by (apply one_label_dict; rewrite E; [discriminate|one_label_tac|vm_compute; reflexivity]);
  split; [split; [exists None; rewrite E; vm_compute; reflexivity|split; [apply D|split; [left; apply D|split; [apply D|cbn; discriminate]]]]|split; [vm_compute; discriminate|];
    exists "value"%string; rewrite E; split; [intros x Hx lb; apply (every10_single _ _ _ _ Hx)|apply every10_column]] end.

(* the pattern 1, 0, -1, 0, twice *)
Lemma real_qz z : real (qz z) = IZR z.
Proof. unfold real, qz. cbn [this Q2Qc]. rewrite (Qreals.Qeq_eqR _ _ (Qred_correct _)). unfold Q2R, inject_Z. cbn [Qnum Qden]. field. Qed.
Definition quarter : list Z := [1; 0; -1; 0; 1; 0; -1; 0]%Z.
Lemma quarter_strength : strength (firstn 4 (map qz quarter)) 1 = 2.
Proof.
  cbn [firstn map quarter]. unfold strength. cbn [length Nat.sub sum_f_R0 nth Nat.mul Nat.add INR]. rewrite !real_qz.
  replace (2 * PI * 0 / (1 + 1 + 1 + 1)) with 0 by field. replace (2 * PI * (1 + 1) / (1 + 1 + 1 + 1)) with PI by field. rewrite cos_0, sin_0, cos_PI, sin_PI.
  match goal with |- sqrt (Rsqr ?a + Rsqr ?b) = _ => replace a with 2 by lra; replace b with 0 by lra end. replace (Rsqr 2 + Rsqr 0) with (Rsqr 2) by (unfold Rsqr; lra). apply sqrt_Rsqr. lra.
Qed.
Example C83_nonvacuous : signal ideal_env (steps quarter) (map qz quarter) /\ repeats 4 (map qz quarter) /\ length (map qz quarter) = (2 * 4)%nat /\ 0 < strength (firstn 4 (map qz quarter)) 1 /\
  (forall j, (2 <= j)%nat -> (2 * j < 4)%nat -> strength (firstn 4 (map qz quarter)) j < strength (firstn 4 (map qz quarter)) 1) /\ detect_periodicity (steps quarter) = Ok (Some 4%Z).
Proof.
  assert (S1 : signal ideal_env (steps quarter) (map qz quarter)) by steps_tac. assert (RP : repeats 4 (map qz quarter)) by (intros m Hm; cbn in Hm; destruct m as [|[|[|[|m]]]]; [reflexivity..|lia]).
  assert (POS : 0 < strength (firstn 4 (map qz quarter)) 1) by (rewrite quarter_strength; lra). assert (DOM : forall j, (2 <= j)%nat -> (2 * j < 4)%nat -> strength (firstn 4 (map qz quarter)) j < strength (firstn 4 (map qz quarter)) 1) by (intros j A B; lia).
  split; [exact S1|]. split; [exact RP|]. split; [reflexivity|]. split; [exact POS|]. split; [exact DOM|]. apply (C83_pattern ideal_env (steps quarter) (map qz quarter) 4 2 S1 eq_refl RP); [lia|lia|lia|exact POS|exact DOM].
Qed.

(* Adding a number may hide the periodicity: here a wave as long as the series. *)
Definition long_wave : list Z := [1; 1; 0; -1; -1; 0]%Z.
Lemma six : INR 6 = 6. Proof. cbn [INR]. lra. Qed.
Lemma wave_strengths : strength (map qz long_wave) 0 = 0 /\ strength (map qz long_wave) 1 = sqrt 12 /\ strength (map qz long_wave) 2 = 0.
Proof.
  assert (C4 : cos (4 * (PI / 3)) = - (1 / 2)) by (replace (4 * (PI / 3)) with (PI / 3 + PI) by lra; rewrite neg_cos, cos_PI3; reflexivity).
  assert (S4 : sin (4 * (PI / 3)) = - (sqrt 3 / 2)) by (replace (4 * (PI / 3)) with (PI / 3 + PI) by lra; rewrite neg_sin, sin_PI3; reflexivity).
  assert (C8 : cos (8 * (PI / 3)) = cos (2 * (PI / 3))) by (replace (8 * (PI / 3)) with (2 * (PI / 3) + 2 * INR 1 * PI) by (cbn [INR]; lra); apply cos_period).
  assert (S8 : sin (8 * (PI / 3)) = sin (2 * (PI / 3))) by (replace (8 * (PI / 3)) with (2 * (PI / 3) + 2 * INR 1 * PI) by (cbn [INR]; lra); apply sin_period).
  assert (C6 : cos (6 * (PI / 3)) = 1) by (replace (6 * (PI / 3)) with (2 * PI) by lra; apply cos_2PI).
  assert (S6 : sin (6 * (PI / 3)) = 0) by (replace (6 * (PI / 3)) with (2 * PI) by lra; apply sin_2PI).
  assert (C2 : cos (2 * (PI / 3)) = - (1 / 2)) by (rewrite cos_2a_cos, cos_PI3; lra).
  assert (SQ3 : sqrt 3 * sqrt 3 = 3) by (apply sqrt_sqrt; lra).
  unfold strength, long_wave. cbn [map length Nat.sub sum_f_R0 nth Nat.mul Nat.add]. rewrite !real_qz.
  assert (A : forall k, 2 * PI * INR k / INR 6 = INR k * (PI / 3)) by (intros k; rewrite six; field). rewrite !A. split; [|split].
  - cbn [INR]. replace (0 * (PI / 3)) with 0 by lra. rewrite cos_0, sin_0. match goal with |- sqrt (Rsqr ?a + Rsqr ?b) = _ => replace a with 0 by lra; replace b with 0 by lra end. unfold Rsqr. rewrite Rmult_0_l, Rplus_0_l. apply sqrt_0.
  - replace (INR 0) with 0 by reflexivity. replace (INR 1) with 1 by reflexivity. replace (INR 3) with 3 by (cbn [INR]; lra). replace (INR 4) with 4 by (cbn [INR]; lra). replace (0 * (PI / 3)) with 0 by lra. replace (1 * (PI / 3)) with (PI / 3) by lra. rewrite C4, S4, cos_0, sin_0, cos_PI3, sin_PI3. replace (3 * (PI / 3)) with PI by lra. rewrite cos_PI, sin_PI.
    match goal with |- sqrt (Rsqr ?a + Rsqr ?b) = _ => replace a with 3 by lra; replace b with (sqrt 3) by lra end. f_equal. unfold Rsqr. lra.
  - replace (INR 0) with 0 by reflexivity. replace (INR 2) with 2 by (cbn [INR]; lra). replace (INR 6) with 6 by (cbn [INR]; lra). replace (INR 8) with 8 by (cbn [INR]; lra). replace (0 * (PI / 3)) with 0 by lra. rewrite C8, S8, C6, S6, C2, cos_0, sin_0.
    match goal with |- sqrt (Rsqr ?a + Rsqr ?b) = _ => replace a with 0 by lra; replace b with 0 by lra end. unfold Rsqr. rewrite Rmult_0_l, Rplus_0_l. apply sqrt_0.
Qed.
Theorem C83_shifted_refuted : exists s s' v, signal ideal_env s v /\ signal ideal_env s' (map (Qcplus (qz 10)) v) /\ detect_periodicity s = Ok (Some 6%Z) /\ detect_periodicity s' = Err ValueError.
Proof.
  exists (steps long_wave), (steps (map (fun z => 10 + z)%Z long_wave)), (map qz long_wave). assert (E : map (Qcplus (qz 10)) (map qz long_wave) = map qz (map (fun z => 10 + z)%Z long_wave)) by (rewrite !map_map; apply map_ext; intros z; rewrite qz_plus; reflexivity).
  assert (S1 : signal ideal_env (steps long_wave) (map qz long_wave)) by steps_tac. assert (S2 : signal ideal_env (steps (map (fun z => 10 + z)%Z long_wave)) (map qz (map (fun z => 10 + z)%Z long_wave))) by steps_tac.
  split; [exact S1|]. split; [rewrite E; exact S2|]. destruct wave_strengths as (W0 & W1 & W2). assert (P12 : 0 < sqrt 12) by (apply sqrt_lt_R0; lra). assert (L6 : length (map qz long_wave) = 6%nat) by reflexivity. assert (H6 : half 6 = 3%nat) by (vm_compute; reflexivity). split.
  - assert (C1 : candidate (map qz long_wave) 1). { apply candidate_iff. rewrite L6, H6. exists 1%nat, 1%nat. split; [lia|]. split; [lia|]. split; [reflexivity|]. split; [intros j Hj; f_equal; lia|]. change (1 - 1)%nat with 0%nat. rewrite W0, W1, W2. split; exact P12. }
    destruct (detect_char _ _ _ S1) as (ks & K & [[Z _]|(i & a & p & A & _ & _ & N & H)]); [apply K in C1; rewrite Z in C1; destruct C1|]. rewrite H. f_equal. f_equal. assert (CA : candidate (map qz long_wave) a) by (apply K; eapply nth_error_In; exact A). apply candidate_range in CA. rewrite L6 in CA, N. assert (a = 1)%nat by lia. subst a. rewrite div_one in N. apply (nearest_unique _ _ _ N). apply nearest_z.
  - destruct (detect_char _ _ _ S2) as (ks & K & [[_ H]|(i & a & p & A & _)]); [exact H|]. exfalso. assert (CA : candidate (map qz (map (fun z => 10 + z)%Z long_wave)) a) by (apply K; eapply nth_error_In; exact A). pose proof CA as CA'. apply candidate_range in CA'. replace (length (map qz (map (fun z => 10 + z)%Z long_wave))) with 6%nat in CA' by reflexivity. assert (a = 1)%nat by lia. subst a.
    apply candidate_iff in CA. replace (length (map qz (map (fun z => 10 + z)%Z long_wave))) with 6%nat in CA by reflexivity. rewrite H6 in CA. destruct CA as (x & y & X1 & X2 & _ & _ & F & _). assert (x = 1)%nat by lia. subst x. change (1 - 1)%nat with 0%nat in F. rewrite <- E in F. rewrite (strength_shifted (qz 10) (map qz long_wave) 1) in F by (rewrite ?L6; lia). rewrite W1 in F.
    assert (G : strength (map (Qcplus (qz 10)) (map qz long_wave)) 0 = 60). { rewrite E. unfold strength, long_wave. cbn [map length Nat.sub sum_f_R0 nth Nat.mul Nat.add]. rewrite !real_qz, !plus_IZR. replace (2 * PI * INR 0 / INR 6) with 0 by (rewrite six; cbn [INR]; field). rewrite cos_0, sin_0. match goal with |- sqrt (Rsqr ?a + Rsqr ?b) = _ => replace a with 60 by lra; replace b with 0 by lra end. replace (Rsqr 60 + Rsqr 0) with (Rsqr 60) by (unfold Rsqr; lra). apply sqrt_Rsqr. lra. }
    rewrite G in F. assert (Q : sqrt 12 * sqrt 12 = 12) by (apply sqrt_sqrt; lra). nra.
Qed.
Print Assumptions C83_shifted_refuted.
