(* PropFloat.v -- property theorems C89 (points whose times are floats). *)
From Coq Require Import Reals.
From Flocq Require Import Core.
From Verif Require Import Base Items Series SpecSeries SpecAccess SeriesProofs SeriesProofs4 Float SpecFloat FloatProofs FloatProofs2 FloatProofs3 Periodicity Utils SpecUtils Witness PropAccess PropTactics.
From Coq Require Import Lra.
Local Close Scope R_scope.
Local Open Scope nat_scope.

(* ===================== C89 ===================== *)

(* The rounding used here is the one of IEEE 754 double precision, as the Flocq library defines it ... *)
Theorem C89_rounding_is_ieee : forall x,
  real (rnd x) = round radix2 (FLT_exp (-1074) 53) ZnearestE (real x).
Proof. exact rnd_flocq. Qed.
Print Assumptions C89_rounding_is_ieee.

(* ... that is a double, no other is nearer, doubles are kept and the order too. *)
Theorem C89_rounding : forall x,
  closest x (rnd x) /\ (is_double x -> rnd x = x) /\ (forall y, (x <= y)%Qc -> (rnd x <= rnd y)%Qc).
Proof. intros x. split; [apply rnd_closest|split; [apply rnd_id|apply rnd_mono]]. Qed.
Print Assumptions C89_rounding.

(* The points accepted, and the exceptions, are the ones of exact arithmetic. *)
Theorem C89_same_points : forall e tz xs, parses_units e -> all_points xs ->
  match f_new e tz xs, ts_new e tz xs with
  | Ok s, Ok s' => s_items s = xs /\ s_items s' = xs
  | Err x, Err y => x = y
  | _, _ => False
  end.
Proof.
  intros e tz xs Pu Hp. pose proof (same_accepted e tz xs Pu Hp) as H.
  destruct (f_new e tz xs) as [s|] eqn:E1, (ts_new e tz xs) as [s'|] eqn:E2; auto.
  split; [apply (f_new_inv e tz xs s E1 Hp)|]. destruct H as (<- & _). apply (f_new_inv e tz xs s E1 Hp).
Qed.
Print Assumptions C89_same_points.

(* The resolution for any times: the one of the rounded distances if they are all the same, "variable" otherwise. *)
Theorem C89_resolution : forall e tz xs s, f_new e tz xs = Ok s -> all_points xs ->
  (length xs < 2 -> resolution s = None) /\
  (2 <= length xs ->
     (forall d, seems_spaced d (times xs) -> exists u, unit_of_s e (f_trunc7 d) = Ok u /\ resolution s = Some (RUnit u)) /\
     ((forall d, ~ seems_spaced d (times xs)) -> resolution s = Some RVar)).
Proof. exact f_resolution. Qed.
Print Assumptions C89_resolution.

(* Differences between times of the same age are exact: the distances the program sees are the ones between the stored times. *)
Theorem C89_same_age_exact : forall d l, Forall is_double l -> consecutive same_age l ->
  (seems_spaced d l <-> equally_spaced d l).
Proof.
  intros d l D H. apply exact_spaced. intros i a b Ha Hb. apply sterbenz_exact.
  - rewrite Forall_forall in D. apply D. eapply nth_error_In. exact Ha.
  - rewrite Forall_forall in D. apply D. eapply nth_error_In. exact Hb.
  - exact (H i a b Ha Hb).
Qed.
Print Assumptions C89_same_age_exact.

(* A series of points every d seconds has resolution d, when the times are multiples of 1/128 s (whole seconds, in particular),
   however far from 1970, and d is below 28 years. *)
Theorem C89_binary_times : forall e tz xs s d, f_new e tz xs = Ok s -> all_points xs -> 2 <= length xs ->
  Forall (multiple (-7)) (times xs) -> equally_spaced d (times xs) -> (d < qz 900000000)%Qc ->
  exists u, unit_of_s e d = Ok u /\ resolution s = Some (RUnit u).
Proof.
  intros e tz xs s d E Hp Hl M S B. destruct (f_resolution e tz xs s E Hp) as (_ & R). destruct (R Hl) as (R1 & _).
  assert (Acc : strictly_increasing (times xs)).
  { pose proof (f_new_order e tz xs s E Hp) as O. exact O. }
  assert (Hd : exists j, d = Qcmult (qz j) (pow2 (-7)) /\ (0 < j)%Z).
  { destruct xs as [|a [|b l]]; cbn in Hl; try lia. pose proof (S 0 (i_t a) (i_t b) eq_refl eq_refl) as D. pose proof (Acc 0 1 (i_t a) (i_t b) ltac:(lia) eq_refl eq_refl) as L. cbn in D.
    inversion M as [|? ? (x & Hx) M']; subst. inversion M' as [|? ? (y & Hy) _]; subst. exists (y - x)%Z. rewrite Hx, Hy in *.
    split; [apply real_inj; rewrite real_minus, !real_mult, !real_qz, minus_IZR; ring|].
    apply real_lt in L. rewrite !real_mult, !real_qz, !real_pow2 in L. apply Rmult_lt_reg_r in L; [|apply bpow_gt_0]. apply lt_IZR in L. lia. }
  destruct Hd as (j & -> & Hj).
  assert (Hb : (Z.abs j * 78125 < 2 ^ 53)%Z).
  { apply real_lt in B. rewrite real_mult, !real_qz, real_pow2 in B. cbn in B. assert (IZR j < IZR 115200000000)%R by lra. apply lt_IZR in H. lia. }
  destruct (R1 (Qcmult (qz j) (pow2 (-7)))) as (u & U1 & U2).
  { apply exact_spaced; [|exact S]. intros i a b Ha Hb'. specialize (S i a b Ha Hb'). cbn in S. rewrite S. apply rnd_id. exists j, (-7)%Z. split; [lia|split; [lia|reflexivity]]. }
  exists u. split; [|exact U2]. rewrite <- U1. symmetry. f_equal. apply f_trunc7_exact. exact Hb.
Qed.
Print Assumptions C89_binary_times.

(* In any case the number of seconds the resolution is made from is within a tenth of a microsecond (and four roundings) of the rounded distance ... *)
Theorem C89_truncation_error : forall d, (q0 <= d)%Qc -> (qabs (f_trunc7 d - d) <= qfrac 1 10000000 + pow2 (-51) * d)%Qc.
Proof. exact f_trunc7_err. Qed.
Print Assumptions C89_truncation_error.

(* ... and the rounded distance between stored times is within 2^-51 of the later time (a microsecond, in this century) of the intended one. *)
Theorem C89_distance_error : forall a b, (q0 <= a)%Qc -> (a <= b)%Qc -> (q1 <= b)%Qc ->
  (qabs (rnd (rnd b - rnd a) - (b - a)) <= pow2 (-51) * b)%Qc.
Proof. exact distance_err. Qed.
Print Assumptions C89_distance_error.

Definition at_time (t : Qc) (v : Z) : item :=
  mkItem CDataTimePoint (rnd t) (rnd t) (UPhys q0) "UTC" (Some (DDict [("value"%string, qz v)])) [] None.

(* Every tenth of a second from zero: the resolution is variable. *)
Theorem C89_tenths_refuted : exists ts xs s, equally_spaced (qfrac 1 10) ts /\ stored ts xs /\ length xs = 4 /\
  f_new ideal_env None xs = Ok s /\ resolution s = Some RVar.
Proof.
  exists [qfrac 0 10; qfrac 1 10; qfrac 2 10; qfrac 3 10], [at_time (qfrac 0 10) 1; at_time (qfrac 1 10) 2; at_time (qfrac 2 10) 3; at_time (qfrac 3 10) 4].
  destruct (f_new ideal_env None [at_time (qfrac 0 10) 1; at_time (qfrac 1 10) 2; at_time (qfrac 2 10) 3; at_time (qfrac 3 10) 4]) as [s|] eqn:E; [|vm_compute in E; discriminate].
  exists s. split; [|split; [|split; [|split]]].
  - unfold equally_spaced. rewrite !consecutive_cons. split; [|split; [|split; [|apply consecutive_one]]]; apply qeqb_eq; vm_compute; reflexivity.
  - unfold stored. constructor; [split; reflexivity|]. constructor; [split; reflexivity|]. constructor; [split; reflexivity|]. constructor; [split; reflexivity|]. constructor.
  - reflexivity.
  - reflexivity.
  - assert (R : match f_new ideal_env None [at_time (qfrac 0 10) 1; at_time (qfrac 1 10) 2; at_time (qfrac 2 10) 3; at_time (qfrac 3 10) 4] with Ok s => resolution s = Some RVar | Err _ => False end) by (vm_compute; reflexivity).
    rewrite E in R. exact R.
Qed.
Print Assumptions C89_tenths_refuted.

(* Two points at 0.2 and 0.3 seconds: the resolution is made from the double written 0.0999999, whose unit is the one of 999999 seconds. *)
Theorem C89_two_tenths_refuted : exists s u, f_new ideal_env None [at_time (qfrac 2 10) 1; at_time (qfrac 3 10) 2] = Ok s /\
  resolution s = Some (RUnit (UPhys u)) /\ u = rnd (decimal [0] [0; 9; 9; 9; 9; 9; 9]) /\
  decimal_string [0] [0; 9; 9; 9; 9; 9; 9] = "0.0999999"%string /\
  unit_string_lasts (to_time_unit_string "0.0999999" true) (qz 999999).
Proof.
  destruct (f_new ideal_env None [at_time (qfrac 2 10) 1; at_time (qfrac 3 10) 2]) as [s|] eqn:E; [|vm_compute in E; discriminate].
  assert (R : match f_new ideal_env None [at_time (qfrac 2 10) 1; at_time (qfrac 3 10) 2] with
              | Ok s => match resolution s with Some (RUnit (UPhys u)) => qeqb u (rnd (decimal [0] [0; 9; 9; 9; 9; 9; 9])) | _ => false end | Err _ => false end = true) by (vm_compute; reflexivity).
  rewrite E in R. exists s. destruct (resolution s) as [[|[u|]]|]; try discriminate R. exists u. split; [reflexivity|split; [reflexivity|split; [apply qeqb_eq; exact R|split; [reflexivity|]]]].
  exists [0; 9; 9; 9; 9; 9; 9], [], "s"%string, (qz 1). split; [reflexivity|split; [discriminate|split; [repeat constructor; lia|split; [constructor|split; [reflexivity|]]]]].
  apply Qc_is_canon. vm_compute. reflexivity.
Qed.
Print Assumptions C89_two_tenths_refuted.

(* The same now: a tenth of a second from 1600000000.1 is seen as 0.1000001 s. *)
Theorem C89_this_century_refuted : exists s u, f_new ideal_env None [at_time (qfrac 16000000001 10) 1; at_time (qfrac 16000000002 10) 2] = Ok s /\
  resolution s = Some (RUnit (UPhys u)) /\ u = rnd (qfrac 1000001 10000000).
Proof.
  destruct (f_new ideal_env None [at_time (qfrac 16000000001 10) 1; at_time (qfrac 16000000002 10) 2]) as [s|] eqn:E; [|vm_compute in E; discriminate].
  assert (R : match f_new ideal_env None [at_time (qfrac 16000000001 10) 1; at_time (qfrac 16000000002 10) 2] with
              | Ok s => match resolution s with Some (RUnit (UPhys u)) => qeqb u (rnd (qfrac 1000001 10000000)) | _ => false end | Err _ => false end = true) by (vm_compute; reflexivity).
  rewrite E in R. exists s. destruct (resolution s) as [[|[u|]]|]; try discriminate R. exists u. split; [reflexivity|split; [reflexivity|]]. apply qeqb_eq; exact R.
Qed.
Print Assumptions C89_this_century_refuted.

Example C89_nonvacuous : is_ok (f_new ideal_env None [pt 0 1; pt 60 2; pt 120 3]) = true /\ parses_units ideal_env /\ all_points [pt 0 1; pt 60 2; pt 120 3] /\
  Forall (multiple (-7)) (times [pt 0 1; pt 60 2; pt 120 3]) /\ equally_spaced (qz 60) (times [pt 0 1; pt 60 2; pt 120 3]) /\
  Forall is_double [qz 1600000000; qz 1600000060] /\ consecutive same_age [qz 1600000000; qz 1600000060].
Proof.
  split; [vm_compute; reflexivity|split; [exact ideal_parses|split; [|split; [|split; [|split]]]]].
  - intros x [<-|[<-|[<-|[]]]]; reflexivity.
  - constructor; [exists 0%Z; apply Qc_is_canon; vm_compute; reflexivity|constructor; [exists (60 * 128)%Z; apply Qc_is_canon; vm_compute; reflexivity|constructor; [exists (120 * 128)%Z; apply Qc_is_canon; vm_compute; reflexivity|constructor]]].
  - intros [|[|[|i]]] a b Ha Hb; try discriminate; cbn in Ha, Hb; injection Ha as <-; injection Hb as <-; apply Qc_is_canon; reflexivity.
  - repeat constructor; apply int_double; reflexivity.
  - intros [|[|i]] a b Ha Hb; try discriminate; cbn in Ha, Hb; injection Ha as <-; injection Hb as <-. split; apply qleb_le; vm_compute; reflexivity.
Qed.
