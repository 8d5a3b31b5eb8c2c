(* PropFloat8.v -- THEOREMS C90, continued: weighted averages of floats. *)
From Coq Require Import Reals.
From Flocq Require Import Core.
From Verif Require Import Base BaseLemmas Items Series SpecSeries SpecAccess SpecOps OpsProofs OpsProofs2 Float FloatOps SpecFloat FloatProofs FloatProofs2 FloatProofs3 FloatProofs4 FloatProofs5 FloatProofs6 FloatProofs7 FloatProofs11 Periodicity Witness PropTactics PropAccess PropOps.
From Coq Require Import Lra.
Local Close Scope R_scope.
Local Open Scope nat_scope.

Lemma f_wsum_label_ok l lb : (forall x, In x l -> numeric_item x /\ has_label x lb) ->
  f_wsum_label lb l = Ok (fold_left fadd (map (fun x => fmul (valof x lb) (weight_of x)) l) q0).
Proof.
  intros H. unfold f_wsum_label. rewrite (foldM_total _ (fun a x => fadd a (fmul (valof x lb) (weight_of x)))).
  - f_equal. generalize q0. clear. induction l as [|x l IH]; intros a; cbn [fold_left map]; [reflexivity|]. apply IH.
  - intros a x Hx. destruct (H x Hx) as [H1 H2]. destruct (valof_ok x lb H1 H2) as [-> _]. reflexivity.
Qed.
Lemma f_total_weight_eq l : f_total_weight l = fold_left fadd (map weight_of l) q0.
Proof. unfold f_total_weight. generalize q0. induction l as [|x l IH]; intros a; cbn [fold_left map]; [reflexivity|apply IH]. Qed.
Lemma f_wavg_spec e s ws : from_history e s -> numeric (s_items s) -> weights (s_items s) ws -> fold_left fadd ws q0 <> q0 ->
  exists m, f_op_avg s = Ok m /\
    by_label (s_items s) m (fun lb A => forall vs, column lb (s_items s) vs -> length vs = length ws /\ A = fdiv (fold_left fadd (fprods (combine vs ws)) q0) (fold_left fadd ws q0)).
Proof.
  intros Hh Hn Hw Hne. unfold f_op_avg. set (l := s_items s) in *.
  assert (W : weighted l = true) by (apply weighted_iff; eauto). rewrite W.
  assert (T : f_total_weight l = fold_left fadd ws q0) by (rewrite f_total_weight_eq, (weights_of _ _ Hw); reflexivity). rewrite T.
  assert (HB : forall lb, label_in l lb -> f_wsum_label lb l = Ok (fold_left fadd (fprods (combine (map (fun x => valof x lb) l) ws)) q0)).
  { intros lb Hb. rewrite f_wsum_label_ok; [|intros x Hx; eapply label_all; eassumption].
    unfold fprods. rewrite <- (weights_of _ _ Hw), combine_map2. reflexivity. }
  assert (Le : length l = length ws) by (rewrite <- (weights_of _ _ Hw), map_length; reflexivity).
  destruct (qeqb_spec (fold_left fadd ws q0) q1) as [E1|E1].
  - eapply per_label_by; [exact Hh|exact Hn|]. intros lb Hb. eexists. split; [apply HB, Hb|].
    intros vs Hv. rewrite (column_total _ _ _ Hn Hv), map_length. split; [exact Le|]. rewrite E1. unfold fdiv. set (a := fold_left fadd (fprods _) q0).
    replace (a / q1)%Qc with a by (rewrite q1_eq; field; intros X; discriminate). symmetry. apply rnd_id. unfold a. destruct (combine _ ws) as [|p ps] using rev_ind; [exact double_0|].
    unfold fprods. rewrite map_app, fold_left_app. apply rnd_double.
  - eapply per_label_by; [exact Hh|exact Hn|]. intros lb Hb. eexists. split.
    + rewrite (HB lb Hb). cbn [bind]. unfold f_div. rewrite (qeqb_false _ _ Hne). reflexivity.
    + intros vs Hv. rewrite (column_total _ _ _ Hn Hv), map_length. split; [exact Le|reflexivity].
Qed.
Lemma aprods_eq vs ws : total (aprods (combine vs ws)) = wtotal (map qabs vs) ws.
Proof. unfold aprods, wtotal. revert ws. induction vs as [|v vs IH]; intros [|w ws]; cbn [map combine total fst snd]; try reflexivity. rewrite IH. reflexivity. Qed.

(* With weights which are not negative, and some which are positive, the average of floats is a float near the weighted average, for
   each label: the error is that of 4n + 2 roundings, but for products too small for the digits. *)
Theorem C90_weighted_error : forall e s ws, from_history e s -> numeric (s_items s) -> weights (s_items s) ws -> Forall is_double ws ->
  Forall (fun w => (q0 <= w)%Qc) ws -> (q0 < total ws)%Qc ->
  exists m, f_op_avg s = Ok m /\
    by_label (s_items s) m (fun lb A => forall vs, column lb (s_items s) vs -> Forall is_double vs -> let n := length vs in
      is_double A /\ (qabs (A - wtotal vs ws / total ws) <= grow (4 * n + 2) * (wtotal (map qabs vs) ws / total ws)
        + (q1 + (q1 + grow (3 * n + 1)) * (qn n / total ws)) * pow2 (-1075))%Qc).
Proof.
  intros e s ws Hh Hn Hw Dw W0 Wp. pose proof (pos_nz _ Wp) as Wn.
  assert (Fw : Forall (fun w => is_double w /\ (0 <= real w)%R) ws).
  { rewrite Forall_forall in *. intros w Iw. split; [apply Dw, Iw|]. specialize (W0 w Iw). apply real_le in W0. rewrite real_0 in W0. exact W0. }
  destruct (fold_low ws Fw q0 double_0) as [Low _]; [rewrite real_0; lra|]. rewrite real_0, Rplus_0_l in Low.
  assert (Rp : (0 < real (total ws))%R) by (apply real_lt in Wp; rewrite real_0 in Wp; exact Wp).
  assert (Sn : fold_left fadd ws q0 <> q0) by (intros E; rewrite E, real_0 in Low; lra).
  destruct (f_wavg_spec e s ws Hh Hn Hw Sn) as (m & E & L & B). exists m. split; [exact E|split; [exact L|]].
  intros lb A HA vs Hc Dv n. destruct (B lb A HA vs Hc) as (Le & ->). split; [apply rnd_double|].
  destruct (fold_err ws Dw q0 double_0) as [_ Ew]. rewrite real_0, Rplus_0_l, Rabs_R0, Rplus_0_l, (nonneg_absum ws W0), <- Le in Ew. fold n in Ew. rewrite <- Le in Low. fold n in Low.
  assert (Lc : length (combine vs ws) = n) by (rewrite combine_length; unfold n; lia).
  destruct (prods_err (combine vs ws)) as (P0 & P1 & P2 & P3).
  { apply Forall_forall. intros [v w] I. cbn [snd]. apply in_combine_r in I. rewrite Forall_forall in Fw. apply (Fw w I). }
  assert (Df : Forall is_double (fprods (combine vs ws))) by (unfold fprods; apply Forall_forall; intros z Z; apply in_map_iff in Z; destruct Z as (p & <- & _); apply rnd_double).
  destruct (fold_err _ Df q0 double_0) as [_ Es]. rewrite real_0, Rplus_0_l, Rabs_R0, Rplus_0_l in Es. unfold fprods in Es at 3. rewrite map_length, Lc in Es. rewrite Lc in P2, P3.
  rewrite aprods_eq in *. change (total (prods (combine vs ws))) with (wtotal vs ws) in *.
  set (S' := fold_left fadd (fprods (combine vs ws)) q0) in *. set (W' := fold_left fadd ws q0) in *.
  pose proof u_pos as U. pose proof eta_pos as Et. pose proof (pow_ge_1 n) as Gn. pose proof (pos_INR n) as N0.
  set (N := ((1 + u) ^ n * (INR n * eta))%R). assert (Np : (0 <= N)%R) by (unfold N; apply Rmult_le_pos; [lra|apply Rmult_le_pos; lra]).
  assert (Q := wavg_R n (real (wtotal vs ws)) (real (wtotal (map qabs vs) ws)) (real (total ws)) (real S') (real W') N P0 Rp P1 Np).
  assert (Hs : (Rabs (real S' - real (wtotal vs ws)) <= ((1 + u) ^ (n + 1) - 1) * real (wtotal (map qabs vs) ws) + N)%R).
  { rewrite pow_add. unfold N. set (g := ((1 + u) ^ n)%R) in *. set (z := (INR n * eta)%R) in *. set (T := real (wtotal (map qabs vs) ws)) in *.
    replace (real S' - real (wtotal vs ws))%R with ((real S' - real (total (fprods (combine vs ws)))) + (real (total (fprods (combine vs ws))) - real (wtotal vs ws)))%R by ring. eapply Rle_trans; [apply Rabs_triang|].
    assert (((g - 1) * absum (fprods (combine vs ws)) <= (g - 1) * ((1 + u) * T + z))%R) by (apply Rmult_le_compat_l; lra). cbn [pow]. lra. }
  specialize (Q Hs Ew Low). unfold fdiv. apply real_le. rewrite real_abs, real_minus, rnd_flocq, !real_div by (exact Wn || exact Sn).
  rewrite real_plus, !real_mult, !real_plus, !real_mult, real_plus, !real_grow, !real_1, !real_div, real_pow2 by exact Wn.
  assert (Rn : real (qn n) = INR n) by (unfold qn; rewrite real_qz, <- INR_IZR_INZ; reflexivity). rewrite Rn. change (bpow radix2 (-1075)) with eta.
  eapply Rle_trans; [exact Q|]. replace ((1 + u) ^ (3 * n + 1))%R with ((1 + u) ^ (2 * n + 1) * (1 + u) ^ n)%R by (rewrite <- pow_add; f_equal; lia).
  unfold N. apply Req_le. field. lra.
Qed.
Print Assumptions C90_weighted_error.

Definition heavy : series := mk_s [with_weight (pt 0 6) 1; with_weight (pt 10 9) 2].
Example C90_weighted_nonvacuous : let ws := [qz 1; qz 2] in from_history ideal_env heavy /\ numeric (s_items heavy) /\ weights (s_items heavy) ws /\ Forall is_double ws /\
  Forall (fun w => (q0 <= w)%Qc) ws /\ (q0 < total ws)%Qc /\ column "value" (s_items heavy) [qz 6; qz 9] /\ Forall is_double [qz 6; qz 9].
Proof.
  intros ws. assert (E : s_items heavy = [with_weight (pt 0 6) 1; with_weight (pt 10 9) 2]) by (vm_compute; reflexivity).
  assert (N : numeric (s_items heavy)).
  { rewrite E. split; [discriminate|split].
    - intros x H. in_cases H; (split; [left; reflexivity|]); cbn; (split; [discriminate|]); repeat constructor; cbn; intuition discriminate.
    - intros x y Hx Hy. in_cases Hx; in_cases Hy; split; try reflexivity; cbn; tauto. }
  split; [apply built_history; [exists None; vm_compute; reflexivity|exact N]|]. split; [exact N|]. rewrite E. split; [constructor; [reflexivity|constructor; [reflexivity|constructor]]|].
  split; [constructor; [apply (int_double 1); reflexivity|constructor; [apply (int_double 2); reflexivity|constructor]]|].
  split; [constructor; [apply qleb_le; vm_compute; reflexivity|constructor; [apply qleb_le; vm_compute; reflexivity|constructor]]|]. split; [apply qltb_lt; vm_compute; reflexivity|].
  split; [constructor; [left; reflexivity|constructor; [left; reflexivity|constructor]]|constructor; [apply (int_double 6); reflexivity|constructor; [apply (int_double 9); reflexivity|constructor]]].
Qed.
