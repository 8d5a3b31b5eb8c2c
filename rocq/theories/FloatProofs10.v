(* FloatProofs10.v -- the data losses that points already had, with floats (C93). *)
From Coq Require Import Reals.
From Flocq Require Import Core.
From Verif Require Import Base BaseLemmas Items Series SpecSeries SpecAccess SpecOps SpecIntervals OpsProofs IntervalsProofs IntervalsProofs2 IntervalsProofs3 Float FloatOps SpecFloat FloatProofs FloatProofs2 FloatProofs3 FloatProofs4 FloatProofs5 FloatProofs6 FloatProofs7 Periodicity.
From Coq Require Import Lra.
Open Scope R_scope.

Lemma fadd_id_0 x : is_double x -> fadd x q0 = x.
Proof. intros D. unfold fadd. replace (Qcplus x q0) with x by (rewrite q0_eq; ring). apply rnd_id, D. Qed.
(* a loss d over a piece o of an interval of length w *)
Definition share (d o w : Qc) : Qc := (d * o / w)%Qc.
Lemma share_err d o o' w w' : is_double d -> (q0 <= d)%Qc -> (d <= q1)%Qc -> (q0 <= o)%Qc -> (q0 < w)%Qc -> w' <> q0 ->
  Rabs (real o' - real o) <= u * real o -> Rabs (real w' - real w) <= u * real w ->
  Rabs (real (fmul d (fdiv o' w')) - real (share d o w)) <= ((1 + u) ^ 5 - 1) * real (share d o w) + 3 * eta.
Proof.
  intros Dd D0 D1 O0 W0 W' Ho Hw. pose proof (pos_nz _ W0) as Wn. apply real_le in D0, D1, O0. apply real_lt in W0. rewrite real_0 in *. rewrite real_1 in D1.
  set (q := fdiv o' w'). assert (Q : Rabs (real q - real o / real w) <= ((1 + u) ^ 4 - 1) * (real o / real w) + eta).
  { unfold q, fdiv. rewrite rnd_flocq, real_div by assumption. apply (ratio_err 1); [exact O0|exact W0| |exact Hw]. rewrite pow_1. replace (1 + u - 1) with u by ring. exact Ho. }
  unfold fmul, share. rewrite rnd_flocq, real_mult, real_div, real_mult by exact Wn. set (x := real o / real w) in *. replace (real d * real o / real w) with (real d * x) by (unfold x; field; lra).
  assert (X0 : 0 <= x) by (unfold x; apply Rmult_le_pos; [exact O0|left; apply Rinv_0_lt_compat; exact W0]).
  set (y := real q) in *. set (c := real d) in *. pose proof (err_R (c * y)) as E. pose proof u_pos as U. pose proof u_small as Us. pose proof eta_pos as Et. pose proof (pow_ge_1 4) as G4.
  assert (A : Rabs (c * y - c * x) <= ((1 + u) ^ 4 - 1) * (c * x) + eta).
  { replace (c * y - c * x) with (c * (y - x)) by ring. rewrite Rabs_mult, (Rabs_pos_eq c) by exact D0. eapply Rle_trans; [apply Rmult_le_compat_l; [exact D0|exact Q]|]. set (g := (1 + u) ^ 4) in *. nra. }
  replace (rndR (c * y) - c * x) with ((rndR (c * y) - c * y) + (c * y - c * x)) by ring. eapply Rle_trans; [apply Rabs_triang|].
  assert (C0 : 0 <= c * x) by nra. assert (B : Rabs (c * y) <= (1 + u) ^ 4 * (c * x) + eta).
  { replace (c * y) with ((c * y - c * x) + c * x) by ring. eapply Rle_trans; [apply Rabs_triang|]. rewrite (Rabs_pos_eq (c * x)) by exact C0. lra. }
  replace ((1 + u) ^ 5) with ((1 + u) ^ 4 * (1 + u)) by ring. set (g := (1 + u) ^ 4) in *. set (z := c * x) in *.
  assert (u * Rabs (c * y) <= u * (g * z + eta)) by (apply Rmult_le_compat_l; lra). assert (u * eta <= eta) by nra. nra.
Qed.
Lemma f_div_some x y : y <> q0 -> f_div x y = Ok (fdiv x y).
Proof. intros H. unfold f_div. rewrite qeqb_false by exact H. reflexivity. Qed.
(* the contribution of one point *)
Definition part (p : vpoint) (f t : Qc) : Qc := if vp_interp p then q0 else share (prior_loss p) (overlap (vp_from p) (vp_to p) f t) (t - f)%Qc.
Lemma share_0 o w : (q0 < w)%Qc -> share q0 o w = q0. Proof. intros W. pose proof (pos_nz _ W) as Wn. unfold share. rewrite q0_eq in *. field. exact Wn. Qed.
Lemma share_out d w : (q0 < w)%Qc -> share d q0 w = q0. Proof. intros W. pose proof (pos_nz _ W) as Wn. unfold share. rewrite q0_eq in *. field. exact Wn. Qed.
Lemma contribution_err si f t p : (q0 < si)%Qc -> (f < t)%Qc -> (si <= t - f)%Qc -> is_double f -> is_double t -> is_double si -> is_double (si / qz 2)%Qc ->
  is_double (vp_from p) -> is_double (vp_to p) -> is_double (prior_loss p) -> (q0 <= prior_loss p)%Qc -> (prior_loss p <= q1)%Qc ->
  (vp_interp p = true -> prior_loss p = q0) ->
  (vp_interp p = false -> vp_from p = (i_t (vp_item p) - si / qz 2)%Qc /\ vp_to p = (i_t (vp_item p) + si / qz 2)%Qc) ->
  exists v, f_loss_contribution si f t p = Ok v /\ is_double v /\ 0 <= real (part p f t) /\
    Rabs (real v - real (part p f t)) <= ((1 + u) ^ 5 - 1) * real (part p f t) + 3 * eta.
Proof.
  intros S0 L Ls Df Dt Ds Dh Da Db Dd D0 D1 Hi Hf. assert (W0 : (q0 < t - f)%Qc) by qlra. pose proof (fsub_pos f t Df Dt L) as W'. pose proof (pos_nz _ W') as Wn.
  assert (Dz : forall o, (q0 <= o)%Qc -> 0 <= real (share (prior_loss p) o (t - f)%Qc)).
  { intros o O. unfold share. rewrite real_div, real_mult by (apply pos_nz; exact W0). apply real_le in D0, O. apply real_lt in W0. rewrite real_0 in *. apply Rmult_le_pos; [nra|left; apply Rinv_0_lt_compat; exact W0]. }
  assert (Zero : part p f t = q0 -> f_loss_contribution si f t p = Ok q0 -> exists v, f_loss_contribution si f t p = Ok v /\ is_double v /\ 0 <= real (part p f t) /\
    Rabs (real v - real (part p f t)) <= ((1 + u) ^ 5 - 1) * real (part p f t) + 3 * eta).
  { intros E1 E2. exists q0. split; [exact E2|split; [apply double_0|]]. rewrite E1, real_0. split; [lra|]. rewrite Rminus_0_r, Rabs_R0. pose proof eta_pos. lra. }
  assert (NoLoss : prior_loss p = q0 -> f_loss_contribution si f t p = Ok q0).
  { intros E. unfold prior_loss in E. unfold f_loss_contribution. destruct (data_loss (vp_item p)) as [d|]; [|reflexivity]. rewrite E, qeqb_refl. reflexivity. }
  destruct (vp_interp p) eqn:I.
  { apply Zero; [unfold part; rewrite I; reflexivity|apply NoLoss, Hi; reflexivity]. }
  destruct (Hf eq_refl) as [E1 E2]. assert (P : part p f t = share (prior_loss p) (overlap (vp_from p) (vp_to p) f t) (t - f)%Qc) by (unfold part; rewrite I; reflexivity).
  destruct (qeqb_spec (prior_loss p) q0) as [Z|Nz].
  { apply Zero; [rewrite P, Z; apply share_0; exact W0|apply NoLoss, Z]. }
  assert (Dl : data_loss (vp_item p) = Some (prior_loss p)) by (unfold prior_loss in *; destruct (data_loss (vp_item p)); [reflexivity|contradiction]).
  assert (H2 : fdiv si q2 = (si / qz 2)%Qc) by (unfold fdiv; apply rnd_id; exact Dh).
  assert (F1 : fsub (i_t (vp_item p)) (fdiv si q2) = vp_from p) by (rewrite H2; unfold fsub; rewrite <- E1; apply rnd_id, Da).
  assert (F2 : fadd (i_t (vp_item p)) (fdiv si q2) = vp_to p) by (rewrite H2; unfold fadd; rewrite <- E2; apply rnd_id, Db).
  assert (Hab : (vp_from p + si)%Qc = vp_to p) by (rewrite E1, E2; qlra).
  unfold f_loss_contribution in *. rewrite Dl in *. rewrite qeqb_false in * by exact Nz. rewrite F1, F2 in *. clear F1 F2 E1 E2 H2.
  destruct (qltb_spec (vp_to p) f) as [L1|L1].
  { apply Zero; [|reflexivity]. rewrite P, overlap_outside by (left; apply Qclt_le_weak; exact L1). apply share_out; exact W0. }
  destruct (qleb_spec t (vp_from p)) as [L2|L2].
  { apply Zero; [|reflexivity]. rewrite P, overlap_outside by (right; exact L2). apply share_out; exact W0. }
  set (c := if qltb (vp_from p) f then qabs (fsub f (vp_to p)) else if qleb t (vp_to p) then qabs (fsub t (vp_from p)) else si).
  rewrite (f_div_some _ _ Wn). cbn [bind]. eexists. split; [reflexivity|]. split; [apply rnd_double|]. rewrite P. split; [apply Dz, overlap_nonneg|].
  assert (Sb : forall a b, is_double a -> is_double b -> Rabs (real (qabs (fsub a b)) - real (qabs (a - b))) <= u * real (qabs (a - b))%Qc).
  { intros a b A B. pose proof (sub_R a b A B) as E. rewrite !real_abs, real_minus. eapply Rle_trans; [apply Rabs_triang_inv2|exact E]. }
  apply share_err; try assumption; [apply overlap_nonneg| |].
  - unfold c. destruct (qltb_spec (vp_from p) f) as [L3|L3].
    + replace (overlap (vp_from p) (vp_to p) f t) with (qabs (f - vp_to p)); [apply Sb; assumption|]. unfold overlap, qabs. qcase; qmm; qlra.
    + destruct (qleb_spec t (vp_to p)) as [L4|L4].
      * replace (overlap (vp_from p) (vp_to p) f t) with (qabs (t - vp_from p)); [apply Sb; assumption|]. unfold overlap, qabs. qcase; qmm; qlra.
      * replace (overlap (vp_from p) (vp_to p) f t) with si; [|unfold overlap; qmm; qlra]. replace (real si - real si) with 0 by ring. rewrite Rabs_R0. apply real_lt in S0. rewrite real_0 in S0. pose proof u_pos. nra.
  - pose proof (sub_R t f Dt Df) as E. rewrite real_minus. apply real_lt in L. rewrite (Rabs_pos_eq (real t - real f)) in E by lra. exact E.
Qed.
(* the sum of the contributions *)
Lemma losses_fold si f t l : (forall p, In p l -> exists v, f_loss_contribution si f t p = Ok v /\ is_double v /\ 0 <= real (part p f t) /\
    Rabs (real v - real (part p f t)) <= ((1 + u) ^ 5 - 1) * real (part p f t) + 3 * eta) ->
  exists vs, f_previous_losses si f t l = Ok (fold_left fadd vs q0) /\ length vs = length l /\ Forall is_double vs /\ 0 <= real (total (map (fun p => part p f t) l)) /\
    Rabs (real (total vs) - real (total (map (fun p => part p f t) l))) <= ((1 + u) ^ 5 - 1) * real (total (map (fun p => part p f t) l)) + INR (length l) * (3 * eta) /\
    absum vs <= (1 + u) ^ 5 * real (total (map (fun p => part p f t) l)) + INR (length l) * (3 * eta).
Proof.
  intros H. unfold f_previous_losses. generalize q0 as a.
  induction l as [|p l IH]; intros a.
  - exists []. split; [reflexivity|]. split; [reflexivity|]. split; [constructor|]. cbn [map total length INR]. unfold absum. cbn [map total]. rewrite real_0. split; [lra|]. rewrite Rminus_0_r, Rabs_R0. split; lra.
  - destruct (H p (or_introl eq_refl)) as (v & V & Dv & P0 & Ev). destruct (IH (fun q Q => H q (or_intror Q)) (fadd a v)) as (vs & E & Le & Dvs & T0 & Et & Ab).
    exists (v :: vs). cbn [foldM]. rewrite V. cbn [bind]. split; [exact E|]. split; [cbn; lia|]. split; [constructor; assumption|].
    rewrite absum_cons. cbn [map total length]. rewrite !real_plus, S_INR. set (T := real (total (map (fun p => part p f t) l))) in *. set (x := real (part p f t)) in *. set (n := INR (length l)) in *. set (g := (1 + u) ^ 5) in *.
    split; [lra|]. split.
    + replace (real v + real (total vs) - (x + T)) with ((real v - x) + (real (total vs) - T)) by ring. eapply Rle_trans; [apply Rabs_triang|]. lra.
    + assert (B : Rabs (real v) <= g * x + 3 * eta). { replace (real v) with ((real v - x) + x) by ring. eapply Rle_trans; [apply Rabs_triang|]. rewrite (Rabs_pos_eq x) by exact P0. lra. } lra.
Qed.
Lemma losses_err si f t l : (forall p, In p l -> exists v, f_loss_contribution si f t p = Ok v /\ is_double v /\ 0 <= real (part p f t) /\
    Rabs (real v - real (part p f t)) <= ((1 + u) ^ 5 - 1) * real (part p f t) + 3 * eta) ->
  exists a, f_previous_losses si f t l = Ok a /\ is_double a /\ 0 <= real (total (map (fun p => part p f t) l)) /\
    Rabs (real a - real (total (map (fun p => part p f t) l))) <= ((1 + u) ^ (length l + 5) - 1) * real (total (map (fun p => part p f t) l)) + (1 + u) ^ length l * (INR (length l) * (3 * eta)).
Proof.
  intros H. destruct (losses_fold si f t l H) as (vs & E & Le & Dvs & T0 & Et & Ab). exists (fold_left fadd vs q0). destruct (fold_err vs Dvs q0 double_0) as [Da Ef]. rewrite real_0, Rplus_0_l, Rabs_R0, Rplus_0_l, Le in Ef.
  split; [exact E|]. split; [exact Da|]. split; [exact T0|]. set (T := real (total (map (fun p => part p f t) l))) in *. set (z := INR (length l) * (3 * eta)) in *.
  replace (real (fold_left fadd vs q0) - T) with ((real (fold_left fadd vs q0) - real (total vs)) + (real (total vs) - T)) by ring. eapply Rle_trans; [apply Rabs_triang|].
  pose proof (pow_ge_1 (length l)) as G. rewrite pow_add. set (g := (1 + u) ^ length l) in *. set (h := (1 + u) ^ 5) in *.
  assert ((g - 1) * absum vs <= (g - 1) * (h * T + z)) by (apply Rmult_le_compat_l; lra). nra.
Qed.
