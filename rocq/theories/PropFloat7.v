(* PropFloat7.v -- THEOREMS C93, continued: the data losses that points already had, with floats. *)
From Coq Require Import Reals.
From Flocq Require Import Core.
From Verif Require Import Base BaseLemmas Items Series SpecSeries SpecAccess SpecOps SpecIntervals OpsProofs IntervalsProofs IntervalsProofs2 IntervalsProofs3 Float FloatOps SpecFloat FloatProofs FloatProofs2 FloatProofs3 FloatProofs4 FloatProofs5 FloatProofs6 FloatProofs7 FloatProofs10 Periodicity Witness PropTactics PropIntervals.
From Coq Require Import Lra.
Local Close Scope R_scope.
Local Open Scope nat_scope.

Lemma real_qn n : real (qn n) = INR n.
Proof. unfold qn. rewrite real_qz, <- INR_IZR_INZ. reflexivity. Qed.
Lemma parts_total l f t : (f < t)%Qc -> total (map (fun p => part p f t) l) = (lost_length l f t / (t - f))%Qc.
Proof.
  intros L. pose proof (pos_nz _ (len_pos f t L)) as Wn. induction l as [|p l IH]; [unfold lost_length; cbn [map total measured filter]; rewrite q0_eq; field; exact Wn|].
  cbn [map total]. rewrite IH. unfold lost_length, measured, part. cbn [filter]. destruct (vp_interp p); cbn [negb map total]; unfold share; [|field; exact Wn].
  match goal with |- (q0 + ?a)%Qc = _ => generalize a end. intros; qlra.
Qed.
(* The data loss of points which already had one, each covering a whole sampling interval no longer than the part: the missing part
   and the lost part over the length, but for the roundings (n: the points). *)
Theorem C93_previous_losses_error : forall l has_res force f t si auto, disjoint_regions l -> full_regions si l ->
  (q0 < si)%Qc -> (f < t)%Qc -> (si <= t - f)%Qc -> has_res || force = true ->
  (forall p, In p l -> (q0 <= prior_loss p)%Qc /\ (prior_loss p <= q1)%Qc /\ is_double (prior_loss p)) -> (forall p, In p l -> vp_interp p = true -> prior_loss p = q0) ->
  (forall p, In p l -> is_double (vp_from p) /\ is_double (vp_to p)) -> is_double f -> is_double t -> is_double si -> is_double (si / qz 2)%Qc ->
  exists d, f_compute_data_loss l has_res force f t (Some si) auto = Ok d /\ is_double d /\
    (qabs (d - ((t - f) - covered_length l f t + lost_length l f t) / (t - f)) <=
      qz 2 * grow (length l + 6) + (q1 + grow (length l + 1)) * (qn (3 * length l + 2) * pow2 (-1075)))%Qc.
Proof.
  intros l has_res force f t si auto D F S0 L Ls Hr Hp Hi Dl Df Dt Dsi Dh. destruct (coverage_err l f t D L Dl Df Dt) as (c & E & Dc & C0 & B).
  destruct (losses_err si f t l) as (a & Ea & Da & T0 & Ba).
  { intros p P. destruct (Dl p P) as [D1 D2]. destruct (Hp p P) as (P0 & P1 & P2). apply contribution_err; try assumption; [apply Hi, P|intros I; apply F; assumption]. }
  rewrite (parts_total l f t L) in *. exists (fadd (fsub q1 c) a). unfold f_compute_data_loss, interval_or.
  rewrite qeqb_false by (apply pos_nz; exact S0). cbn [bind]. rewrite E. cbn [bind]. rewrite Hr, Ea. cbn [bind]. split; [reflexivity|]. split; [apply rnd_double|].
  pose proof (len_pos f t L) as W0. pose proof (pos_nz _ W0) as Wn. destruct (disjoint_chain_ex l D) as [lo C].
  assert (X : (q0 <= covered_length l f t / (t - f))%Qc /\ (covered_length l f t / (t - f) <= q1)%Qc).
  { rewrite covered_length_olen. apply div_bounds; [exact W0|apply olen_nonneg|]. apply (olen_le _ lo); [exact C|apply Qclt_le_weak; exact L]. }
  destruct (lost_bounds l f t) as [B1 B2]; [intros p P; destruct (Hp p P) as (P0 & P1 & _); split; assumption|].
  assert (Y : (lost_length l f t / (t - f) <= covered_length l f t / (t - f))%Qc).
  { apply real_le. rewrite !real_div by exact Wn. apply real_le in B2. apply real_lt in W0. rewrite real_0 in W0. apply Rmult_le_compat_r; [left; apply Rinv_0_lt_compat; exact W0|exact B2]. }
  replace (((t - f) - covered_length l f t + lost_length l f t) / (t - f))%Qc with (q1 - covered_length l f t / (t - f) + lost_length l f t / (t - f))%Qc by (rewrite q1_eq; field; exact Wn).
  set (x := (covered_length l f t / (t - f))%Qc) in *. set (s := (lost_length l f t / (t - f))%Qc) in *.
  destruct X as [X0 X1]. apply real_le in X0, X1, Y. rewrite real_0 in X0. rewrite real_1 in X1.
  assert (N : length (measured l) <= length l) by (unfold measured; clear; induction l as [|q l IH]; cbn [filter length]; [lia|destruct (negb (vp_interp q)); cbn [length]; lia]).
  assert (M := missing_err c x ((1 + u) ^ (length (measured l) + 3) - 1) Dc (conj X0 X1)). pose proof (pow_ge_1 (length (measured l) + 3)) as G. specialize (M ltac:(lra) B). clear B.
  assert (Gm : ((1 + (((1 + u) ^ (length (measured l) + 3) - 1))) * (1 + u) <= (1 + u) ^ (length l + 4))%R).
  { replace ((1 + ((1 + u) ^ (length (measured l) + 3) - 1)) * (1 + u))%R with ((1 + u) ^ (S (length (measured l) + 3)))%R by (cbn [pow]; ring). apply Rle_pow; [pose proof u_pos; lra|lia]. }
  pose proof (add_err (fsub q1 c) a (rnd_double _) Da) as A. apply real_le in A. rewrite real_abs, real_minus, real_plus, real_mult, real_abs, real_plus, real_pow2, u_bpow in A.
  apply real_le. rewrite real_abs, !real_minus, !real_plus, real_minus, !real_mult, !real_plus, !real_1, !real_grow, real_pow2, real_qz, real_qn. change (IZR 2) with 2%R.
  replace (INR (3 * length l + 2)) with (3 * INR (length l) + 2)%R by (rewrite plus_INR, mult_INR; cbn [INR]; ring).
  change (bpow radix2 (-1075)) with eta. set (n := INR (length l)) in *. assert (N0 : (0 <= n)%R) by apply pos_INR.
  replace (length l + 6) with (S (length l + 5)) by lia. replace (length l + 1) with (S (length l)) by lia. replace (length l + 4) with (length l + 4) in Gm by lia.
  assert (G4 : ((1 + u) ^ (length l + 4) <= (1 + u) ^ (length l + 5))%R) by (apply Rle_pow; [pose proof u_pos; lra|lia]). cbn [pow].
  pose proof (pow_ge_1 (length l)) as Gn. pose proof (pow_ge_1 (length l + 5)) as G5. set (g := ((1 + u) ^ (length l))%R) in *. set (h := ((1 + u) ^ (length l + 5))%R) in *.
  set (y := real (fsub q1 c)) in *. set (z := real a) in *. set (w := real (fadd (fsub q1 c) a)) in *. set (X := real x) in *. set (Z := real s) in *.
  pose proof u_pos as U. pose proof u_small as Us. pose proof eta_pos as Et.
  assert (K : (Rabs ((y + z) - (1 - X + Z)) <= (h - 1 + 2 * eta) + ((h - 1) * Z + g * (n * (3 * eta))))%R).
  { replace (y + z - (1 - X + Z))%R with ((y - (1 - X)) + (z - Z))%R by ring. eapply Rle_trans; [apply Rabs_triang|]. lra. }
  set (k := ((h - 1 + 2 * eta) + ((h - 1) * Z + g * (n * (3 * eta))))%R) in *.
  assert (K2 : (Rabs (y + z) <= 1 + k)%R). { replace (y + z)%R with ((y + z - (1 - X + Z)) + (1 - X + Z))%R by ring. eapply Rle_trans; [apply Rabs_triang|]. rewrite (Rabs_pos_eq (1 - X + Z)) by lra. lra. }
  replace (w - (1 - X + Z))%R with ((w - (y + z)) + ((y + z) - (1 - X + Z)))%R by ring. eapply Rle_trans; [apply Rabs_triang|].
  assert (K3 : (u * Rabs (y + z) <= u * (1 + k))%R) by (apply Rmult_le_compat_l; lra).
  assert (K4 : (k <= 2 * (h - 1) + (g * n * 3 + 2) * eta)%R) by (unfold k; nra).
  assert (K5 : ((1 + u) * k <= (1 + u) * (2 * (h - 1) + (g * n * 3 + 2) * eta))%R) by (apply Rmult_le_compat_l; lra).
  assert (K6 : ((1 + u) * ((g * n * 3 + 2) * eta) <= (1 + ((1 + u) * g - 1)) * ((3 * n + 2) * eta))%R).
  { replace ((1 + ((1 + u) * g - 1)) * ((3 * n + 2) * eta))%R with ((1 + u) * ((g * (3 * n + 2)) * eta))%R by ring. apply Rmult_le_compat_l; [lra|]. apply Rmult_le_compat_r; [lra|]. lra. }
  lra.
Qed.
Print Assumptions C93_previous_losses_error.

Definition two_lossy : list vpoint := [mkVp (lossy 0 1 (qfrac 1 2)) (qz (-5)) (qz 5) false; mkVp (lossy 10 1 (qfrac 1 4)) (qz 5) (qz 15) false].
Example C93_previous_losses_nonvacuous : disjoint_regions two_lossy /\ full_regions (qz 10) two_lossy /\ (q0 < qz 10)%Qc /\ (qz (-3) < qz 12)%Qc /\ (qz 10 <= qz 12 - qz (-3))%Qc /\
  (forall p, In p two_lossy -> (q0 <= prior_loss p)%Qc /\ (prior_loss p <= q1)%Qc /\ is_double (prior_loss p)) /\ (forall p, In p two_lossy -> vp_interp p = true -> prior_loss p = q0) /\
  (forall p, In p two_lossy -> is_double (vp_from p) /\ is_double (vp_to p)) /\ is_double (qz 10 / qz 2)%Qc /\ lost_length two_lossy (qz (-3)) (qz 12) = qfrac 23 4.
Proof.
  split; [|split; [|split; [apply qltb_lt; vm_compute; reflexivity|split; [apply qltb_lt; vm_compute; reflexivity|split; [apply qleb_le; vm_compute; reflexivity|split; [|split; [|split; [|split]]]]]]]].
  - split; [intros p [<- |[<- |[]]]; apply qleb_le; vm_compute; reflexivity|].
    intros [|[|i]] [|[|j]] p q L Hp Hq; try lia; try (destruct i; discriminate); try (destruct j; discriminate); injection Hp as <-; injection Hq as <-; apply qleb_le; vm_compute; reflexivity.
  - intros p [<- |[<- |[]]] _; split; apply qeqb_eq; vm_compute; reflexivity.
  - intros p [<- |[<- |[]]]; (split; [apply qleb_le; vm_compute; reflexivity|split; [apply qleb_le; vm_compute; reflexivity|]]).
    + exists 1%Z, (-1)%Z. split; [reflexivity|split; [discriminate|apply qeqb_eq; vm_compute; reflexivity]].
    + exists 1%Z, (-2)%Z. split; [reflexivity|split; [discriminate|apply qeqb_eq; vm_compute; reflexivity]].
  - intros p [<- |[<- |[]]]; discriminate.
  - intros p [<- |[<- |[]]]; split; apply int_double; reflexivity.
  - replace (qz 10 / qz 2)%Qc with (qz 5) by (apply qeqb_eq; vm_compute; reflexivity). apply int_double. reflexivity.
  - apply qeqb_eq; vm_compute; reflexivity.
Qed.
