(* PropFloat3.v -- property theorems C92 (interpolation of floats) and C93 (coverage with float times). *)
From Coq Require Import Reals.
From Flocq Require Import Core.
From Verif Require Import Base BaseLemmas Items Series SpecSeries SpecAccess SpecOps SpecIntervals IntervalsProofs IntervalsProofs2 IntervalsProofs3 SeriesProofs AccessProofs DictLemmas AccessProofs3 OpsProofs OpsProofs2 OpsProofs3 InterpProofs Float FloatOps SpecFloat FloatProofs FloatProofs2 FloatProofs3 FloatProofs4 FloatProofs5 FloatProofs6 FloatProofs7 Periodicity Witness PropTactics PropAccess PropOps PropIntervals PropFloat2.
From Coq Require Import Lra.
Local Close Scope R_scope.
Local Open Scope nat_scope.

(* ===================== C92 ===================== *)
Lemma f_linear_value_ok s x y at_ lb : dict_points s -> In x (s_items s) -> In y (s_items s) -> is_double (i_t x) -> is_double (i_t y) -> Qclt (i_t x) (i_t y) -> has_label x lb ->
  f_linear_value x y at_ lb = Ok (f_line (i_t x) (i_t y) at_ (valof x lb) (valof y lb)).
Proof.
  intros (N & _ & D) Hx Hy Dx Dy L Hl. pose proof (numeric_labels _ x y lb N Hx Hy Hl) as Hl'.
  destruct N as (_ & N & _). destruct (valof_ok x lb (N x Hx) Hl) as [_ V]. destruct (valof_ok y lb (N y Hy) Hl') as [_ V'].
  destruct (D x Hx) as [dx Ex]. destruct (D y Hy) as [dy Ey]. unfold f_linear_value.
  rewrite (data_at_ok y lb _ dy (N y Hy) Ey V'), (data_at_ok x lb _ dx (N x Hx) Ex V). cbn [bind]. unfold f_div.
  rewrite qeqb_false; [reflexivity|]. apply pos_nz, fsub_pos; assumption.
Qed.
(* what the value is between two positions *)
Lemma f_linear_pair e s at_ i j x y : from_history e s -> dict_points s -> nth_error (s_items s) i = Some x -> nth_error (s_items s) j = Some y ->
  is_double (i_t x) -> is_double (i_t y) -> Qclt (i_t x) (i_t y) ->
  exists d, interp_data f_linear_value s at_ (Z.of_nat i) (Z.of_nat j) = Ok d /\
    data_by d x (fun lb v => exists a b, has_value x lb a /\ has_value y lb b /\ v = f_line (i_t x) (i_t y) at_ a b).
Proof.
  intros H D Hx Hy Dx Dy L. assert (Ix : In x (s_items s)) by (apply nth_error_In in Hx; exact Hx). assert (Iy : In y (s_items s)) by (apply nth_error_In in Hy; exact Hy).
  destruct (interp_data_ok e s f_linear_value at_ i j x y (fun lb => f_line (i_t x) (i_t y) at_ (valof x lb) (valof y lb)) H D Hx Hy) as (d & E & B).
  - intros lb Hlb. apply (f_linear_value_ok s); assumption.
  - exists d. split; [exact E|]. revert B. apply weaken. intros lb v (Hl & ->). exists (valof x lb), (valof y lb). destruct D as (N & _ & _).
    pose proof (numeric_labels _ x y lb N Ix Iy Hl) as Hl'. destruct N as (_ & N & _). split; [apply valof_ok; auto|split; [apply valof_ok; auto|reflexivity]].
Qed.
Lemma f_linear_search e s at_ i x y : from_history e s -> dict_points s -> nth_error (s_items s) i = Some x -> nth_error (s_items s) (S i) = Some y ->
  is_double (i_t x) -> is_double (i_t y) -> Qcle (i_t x) at_ -> Qclt at_ (i_t y) ->
  exists d, f_linear_evaluate s at_ None None = Ok d /\ ((i_t x < at_)%Qc -> f_linear_evaluate s at_ (Some (Z.of_nat i)) (Some (Z.of_nat (S i))) = Ok d) /\
    data_by d x (fun lb v => exists a b, has_value x lb a /\ has_value y lb b /\ v = f_line (i_t x) (i_t y) at_ a b).
Proof.
  intros H D Hx Hy Dx Dy L1 L2. unfold f_linear_evaluate. pose proof (proj1 (proj2 (proj1 (proj2 D)))) as I.
  destruct (f_linear_pair e s at_ i (S i) x y H D Hx Hy Dx Dy) as (d & E & B); [eapply Qcle_lt_trans; eassumption|]. exists d. split; [|split; [|exact B]].
  - rewrite (first_after_at at_ (s_items s) 0 (S i) y); [|  |exact Hy|exact L2].
    + replace (Z.of_nat (0 + S i) - 1)%Z with (Z.of_nat i) by lia. exact E.
    + intros j z Hj Hz. destruct (Nat.eq_dec j i) as [->|Nj]; [congruence|]. apply Qclt_le_weak. eapply Qclt_le_trans; [|exact L1].
      apply (I j i); [lia|apply times_nth; exact Hz|apply times_nth; exact Hx].
  - intros L3. rewrite (check_between_ok s at_ i (S i) x y) by assumption. exact E.
Qed.

(* Linear interpolation stays between the neighbours, unless the time is at the very end of the gap (its last 2^-49) or the difference of
   the values is so small that there are no digits for it. *)
Theorem C92_linear_between_partial : forall e s at_ i x y, from_history e s -> dict_points s -> of_doubles (s_items s) -> Forall is_double (times (s_items s)) -> is_double at_ ->
  nth_error (s_items s) i = Some x -> nth_error (s_items s) (S i) = Some y ->
  (i_t x <= at_)%Qc -> (pow2 (-49) * (i_t y - i_t x) <= i_t y - at_)%Qc ->
  exists d, f_linear_evaluate s at_ None None = Ok d /\ ((i_t x < at_)%Qc -> f_linear_evaluate s at_ (Some (Z.of_nat i)) (Some (Z.of_nat (S i))) = Ok d) /\
    data_by d x (fun lb v => exists a b, has_value x lb a /\ has_value y lb b /\
      (a = b \/ (pow2 (-1000) * (q1 + (i_t y - i_t x)) <= qabs (b - a))%Qc -> (qmin a b <= v)%Qc /\ (v <= qmax a b)%Qc)).
Proof.
  intros e s at_ i x y H D Dv Dt Da Hx Hy L1 L2. assert (Ix : In x (s_items s)) by (apply nth_error_In in Hx; exact Hx). assert (Iy : In y (s_items s)) by (apply nth_error_In in Hy; exact Hy).
  assert (L : (i_t x < i_t y)%Qc) by (apply (proj1 (proj2 (proj1 (proj2 D))) i (S i)); [lia|apply times_nth; exact Hx|apply times_nth; exact Hy]).
  rewrite Forall_forall in Dt. assert (Dx : is_double (i_t x)) by (apply Dt; apply in_map; exact Ix). assert (Dy : is_double (i_t y)) by (apply Dt; apply in_map; exact Iy).
  assert (L3 : (at_ < i_t y)%Qc).
  { apply real_lt. apply real_lt in L. apply real_le in L2. rewrite real_mult, !real_minus, real_pow2 in L2. pose proof (bpow_gt_0 radix2 (-49)) as P. nra. }
  destruct (f_linear_search e s at_ i x y H D Hx Hy Dx Dy L1 L3) as (d & E1 & E2 & B). exists d. split; [exact E1|split; [exact E2|]].
  revert B. apply weaken. intros lb v (a & b & Ha & Hb & ->). exists a, b. split; [exact Ha|split; [exact Hb|]]. intros K.
  apply line_between; try assumption; [eapply Dv; [exact Ix|exact Ha]|eapply Dv; [exact Iy|exact Hb]].
Qed.
Print Assumptions C92_linear_between_partial.

(* Everywhere, it is within a few roundings of the point on the straight line ... *)
Theorem C92_linear_error : forall e s at_ i x y, from_history e s -> dict_points s -> of_doubles (s_items s) -> Forall is_double (times (s_items s)) -> is_double at_ ->
  nth_error (s_items s) i = Some x -> nth_error (s_items s) (S i) = Some y -> (i_t x <= at_)%Qc -> (at_ < i_t y)%Qc ->
  exists d, f_linear_evaluate s at_ None None = Ok d /\ ((i_t x < at_)%Qc -> f_linear_evaluate s at_ (Some (Z.of_nat i)) (Some (Z.of_nat (S i))) = Ok d) /\
    data_by d x (fun lb v => exists a b w, has_value x lb a /\ has_value y lb b /\ on_line (i_t x) a (i_t y) b at_ w /\
      (qabs (v - w) <= pow2 (-49) * (qabs a + qabs b) + pow2 (-1073) * (q1 + (i_t y - i_t x)))%Qc).
Proof.
  intros e s at_ i x y H D Dv Dt Da Hx Hy L1 L2. assert (Ix : In x (s_items s)) by (apply nth_error_In in Hx; exact Hx). assert (Iy : In y (s_items s)) by (apply nth_error_In in Hy; exact Hy).
  assert (L : (i_t x < i_t y)%Qc) by (eapply Qcle_lt_trans; eassumption).
  rewrite Forall_forall in Dt. assert (Dx : is_double (i_t x)) by (apply Dt; apply in_map; exact Ix). assert (Dy : is_double (i_t y)) by (apply Dt; apply in_map; exact Iy).
  destruct (f_linear_search e s at_ i x y H D Hx Hy Dx Dy L1 L2) as (d & E1 & E2 & B). exists d. split; [exact E1|split; [exact E2|]].
  revert B. apply weaken. intros lb v (a & b & Ha & Hb & ->).
  assert (T : Qcminus (i_t y) (i_t x) <> q0) by (intros Z; apply (f_equal real) in Z; rewrite real_minus, real_0 in Z; apply real_lt in L; lra).
  exists a, b, (a + (at_ - i_t x) / (i_t y - i_t x) * (b - a))%Qc. split; [exact Ha|split; [exact Hb|split]].
  - unfold on_line. apply real_inj. rewrite !real_mult, !real_minus, real_plus, real_mult, real_div, !real_minus by exact T. field. apply real_lt in L. lra.
  - pose proof (line_err (i_t x) (i_t y) at_ a b Dx Dy Da (Dv _ _ _ Ix Ha) (Dv _ _ _ Iy Hb) L L1 (Qclt_le_weak _ _ L2)) as Er.
    apply real_le. rewrite real_abs, real_minus, !real_plus, !real_mult, !real_plus, !real_abs, real_div, !real_minus, !real_pow2, real_1 by exact T.
    replace (bpow radix2 (-49)) with (16 * u)%R by (rewrite <- u_bpow; change (-49)%Z with (4 + -53)%Z; rewrite bpow_plus; reflexivity).
    replace (bpow radix2 (-1073)) with (4 * eta)%R by (unfold eta; change (-1073)%Z with (2 + -1075)%Z; rewrite bpow_plus; reflexivity). lra.
Qed.
Print Assumptions C92_linear_error.

(* ... and exact on the points. *)
Theorem C92_exact_on_points : forall e s i x y, from_history e s -> dict_points s -> of_doubles (s_items s) -> Forall is_double (times (s_items s)) ->
  nth_error (s_items s) i = Some x -> nth_error (s_items s) (S i) = Some y ->
  exists d, f_linear_evaluate s (i_t x) None None = Ok d /\ data_by d x (fun lb v => has_value x lb v).
Proof.
  intros e s i x y H D Dv Dt Hx Hy. assert (Ix : In x (s_items s)) by (apply nth_error_In in Hx; exact Hx). assert (Iy : In y (s_items s)) by (apply nth_error_In in Hy; exact Hy).
  assert (L : (i_t x < i_t y)%Qc) by (apply (proj1 (proj2 (proj1 (proj2 D))) i (S i)); [lia|apply times_nth; exact Hx|apply times_nth; exact Hy]).
  rewrite Forall_forall in Dt. assert (Dx : is_double (i_t x)) by (apply Dt; apply in_map; exact Ix). assert (Dy : is_double (i_t y)) by (apply Dt; apply in_map; exact Iy).
  destruct (f_linear_search e s (i_t x) i x y H D Hx Hy Dx Dy (Qcle_refl _) L) as (d & E1 & _ & B). exists d. split; [exact E1|].
  revert B. apply weaken. intros lb v (a & b & Ha & Hb & ->). rewrite line_left; try assumption. eapply Dv; [exact Ix|exact Ha].
Qed.
Print Assumptions C92_exact_on_points.

(* The uniform interpolation always stays between the neighbours. *)
Theorem C92_uniform_between : forall e s at_ i x y, from_history e s -> dict_points s -> of_doubles (s_items s) ->
  nth_error (s_items s) i = Some x -> nth_error (s_items s) (S i) = Some y -> (i_t x < at_)%Qc -> (at_ < i_t y)%Qc ->
  exists d, f_uniform_evaluate s at_ (Z.of_nat i) (Z.of_nat (S i)) = Ok d /\
    data_by d x (fun lb v => exists a b, has_value x lb a /\ has_value y lb b /\ (qmin a b <= v)%Qc /\ (v <= qmax a b)%Qc).
Proof.
  intros e s at_ i x y H D Dv Hx Hy L1 L2. assert (Ix : In x (s_items s)) by (apply nth_error_In in Hx; exact Hx). assert (Iy : In y (s_items s)) by (apply nth_error_In in Hy; exact Hy).
  unfold f_uniform_evaluate. rewrite (check_between_ok s at_ i (S i) x y) by assumption. cbn [bind].
  destruct (interp_data_ok e s f_uniform_value at_ i (S i) x y (fun lb => f_half (valof x lb) (valof y lb)) H D Hx Hy) as (d & E & B).
  - intros lb Hl. destruct D as (N & _ & D). pose proof (numeric_labels _ x y lb N Ix Iy Hl) as Hl'. destruct N as (_ & N & _).
    destruct (valof_ok x lb (N x Ix) Hl) as [_ V]. destruct (valof_ok y lb (N y Iy) Hl') as [_ V']. destruct (D x Ix) as [dx Ex]. destruct (D y Iy) as [dy Ey].
    unfold f_uniform_value. rewrite (data_at_ok y lb _ dy (N y Iy) Ey V'), (data_at_ok x lb _ dx (N x Ix) Ex V). reflexivity.
  - exists d. split; [exact E|]. revert B. apply weaken. intros lb v (Hl & ->). exists (valof x lb), (valof y lb). destruct D as (N & _ & _).
    pose proof (numeric_labels _ x y lb N Ix Iy Hl) as Hl'. destruct N as (_ & N & _). destruct (valof_ok x lb (N x Ix) Hl) as [_ V]. destruct (valof_ok y lb (N y Iy) Hl') as [_ V'].
    split; [exact V|split; [exact V'|]]. apply half_between; [eapply Dv; [exact Ix|exact V]|eapply Dv; [exact Iy|exact V']].
Qed.
Print Assumptions C92_uniform_between.

Lemma signal_dict vs : vs <> [] -> dict_points (signal vs).
Proof.
  intros NE. split; [apply signal_numeric; exact NE|]. destruct (signal_new vs) as (_ & E). rewrite E. split; [apply signal_wf|].
  intros x Hx. apply signal_in in Hx. destruct Hx as (z & v & _ & _ & ->). eexists. reflexivity.
Qed.
Lemma signal_times vs : (Z.of_nat (length vs) < 2 ^ 40)%Z -> Forall is_double (times (s_items (signal vs))).
Proof.
  intros Hl. destruct (signal_new vs) as (_ & ->). assert (G : forall t, (0 <= t)%Z -> (t + Z.of_nat (length vs) < 2 ^ 41)%Z -> Forall is_double (times (signal_items t vs))).
  { clear Hl. induction vs as [|v vs IH]; intros t H0 H1; [constructor|]. cbn [length] in H1. constructor; [apply int_double; cbn [i_t ptd]; lia|apply IH; lia]. }
  apply G; lia.
Qed.
Lemma data_value d x v (f : string -> Qc -> Prop) : data_by d x f -> has_label x "value" -> (forall w, f "value"%string w -> w = v) ->
  exists m, d = DDict m /\ dget "value" m = Some v.
Proof.
  destruct d as [l|m]; [contradiction|]. intros (A & B & C) Hl Hf. exists m. split; [reflexivity|].
  apply C in Hl. destruct (dget "value" m) as [w|] eqn:G; [|apply dget_None in G; contradiction]. f_equal. apply Hf, B. apply dget_Some_In. exact G.
Qed.
(* the value between the first two points of a signal *)
Lemma signal_line a b at_ : is_double a -> is_double b -> (q0 <= at_)%Qc -> (at_ < qz 60)%Qc ->
  exists m, f_linear_evaluate (signal [a; b]) at_ None None = Ok (DDict m) /\ dget "value" m = Some (f_line (qz 0) (qz 60) at_ a b).
Proof.
  intros Da Db L1 L2. assert (NE : [a; b] <> []) by discriminate. destruct (signal_healthy _ NE) as (H & _). destruct (signal_new [a; b]) as (_ & E).
  destruct (f_linear_search _ (signal [a; b]) at_ 0 (ptd (60 * 0) (DDict [("value"%string, a)])) (ptd (60 * 1) (DDict [("value"%string, b)])) H (signal_dict _ NE)) as (d & E1 & _ & B); try (rewrite E; reflexivity); try (apply int_double; reflexivity); try assumption.
  destruct (data_value d _ (f_line (qz 0) (qz 60) at_ a b) _ B) as (m & -> & G).
  - exists a. left. reflexivity.
  - intros w (a' & b' & Ha & Hb & ->). destruct Ha as [Ha|[]], Hb as [Hb|[]]. injection Ha as <-. injection Hb as <-. reflexivity.
  - exists m. split; assumption.
Qed.

(* At the very end of the gap the value may pass the next one: between -2 and 0.1 it is 0.10000000000000009 at the last instant ... *)
Theorem C92_end_of_gap_refuted : let b := rnd (qfrac 1 10) in let at_ := (qz 60 - pow2 (-47))%Qc in is_double at_ /\ (at_ < qz 60)%Qc /\
  exists m v, f_linear_evaluate (signal [qz (-2); b]) at_ None None = Ok (DDict m) /\ dget "value" m = Some v /\ (b < v)%Qc.
Proof.
  intros b at_. split; [exists (60 * 2 ^ 47 - 1)%Z, (-47)%Z; split; [reflexivity|split; [discriminate|apply qeqb_eq; vm_compute; reflexivity]]|].
  assert (L : (at_ < qz 60)%Qc) by (apply qltb_lt; vm_compute; reflexivity). split; [exact L|].
  destruct (signal_line (qz (-2)) b at_ (int_double (-2) eq_refl) (rnd_double _)) as (m & E & G); [apply qleb_le; vm_compute; reflexivity|exact L|].
  exists m. eexists. split; [exact E|split; [exact G|]]. apply qltb_lt. vm_compute. reflexivity.
Qed.
Print Assumptions C92_end_of_gap_refuted.
(* ... and so may values with no digits. *)
Theorem C92_tiny_values_refuted : let b := (qz 31 * pow2 (-1074))%Qc in exists m v,
  f_linear_evaluate (signal [q0; b]) (qz 48) None None = Ok (DDict m) /\ dget "value" m = Some v /\ (b < v)%Qc.
Proof.
  intros b. assert (Db : is_double b) by (exists 31%Z, (-1074)%Z; split; [reflexivity|split; [discriminate|reflexivity]]).
  destruct (signal_line q0 b (qz 48) double_0 Db) as (m & E & G); try (apply qleb_le; reflexivity); try (apply qltb_lt; reflexivity).
  exists m. eexists. split; [exact E|split; [exact G|]]. apply qltb_lt. vm_compute. reflexivity.
Qed.
Print Assumptions C92_tiny_values_refuted.

Example C92_nonvacuous : let vs := [qz 3; qz 1; qz 4] in from_history ideal_env (signal vs) /\ dict_points (signal vs) /\ of_doubles (s_items (signal vs)) /\
  Forall is_double (times (s_items (signal vs))) /\ is_double (qz 70) /\
  exists x y, nth_error (s_items (signal vs)) 1 = Some x /\ nth_error (s_items (signal vs)) 2 = Some y /\ (i_t x < qz 70)%Qc /\ (qz 70 < i_t y)%Qc /\
    (pow2 (-49) * (i_t y - i_t x) <= i_t y - qz 70)%Qc /\ (pow2 (-1000) * (q1 + (i_t y - i_t x)) <= qabs (qz 4 - qz 1))%Qc.
Proof.
  intros vs. assert (NE : vs <> []) by discriminate. split; [apply (signal_healthy vs NE)|split; [apply signal_dict; exact NE|split; [|split; [apply signal_times; reflexivity|split; [apply int_double; reflexivity|]]]]].
  - apply signal_doubles. constructor; [|constructor; [|constructor; [|constructor]]]; apply int_double; reflexivity.
  - destruct (signal_new vs) as (_ & ->). exists (ptd (60 * 1) (DDict [("value"%string, qz 1)])), (ptd (60 * 2) (DDict [("value"%string, qz 4)])).
    split; [reflexivity|split; [reflexivity|split; [apply qltb_lt; vm_compute; reflexivity|split; [apply qltb_lt; vm_compute; reflexivity|split; apply qleb_le; vm_compute; reflexivity]]]].
Qed.

(* ===================== C93 ===================== *)

(* The coverage of floats is the covered fraction, but for n + 3 roundings (n: the measured points), and not negative. *)
Theorem C93_coverage_error : forall l f t, disjoint_regions l -> (f < t)%Qc ->
  (forall p, In p l -> is_double (vp_from p) /\ is_double (vp_to p)) -> is_double f -> is_double t ->
  exists c, f_coverage l f t = Ok c /\ is_double c /\ (q0 <= c)%Qc /\
    let x := (covered_length l f t / (t - f))%Qc in
    (qabs (c - x) <= grow (length (measured l) + 3) * x + pow2 (-1075))%Qc.
Proof.
  intros l f t D L Dl Df Dt. destruct (coverage_err l f t D L Dl Df Dt) as (c & E & Dc & C0 & B). exists c. split; [exact E|split; [exact Dc|split; [exact C0|]]].
  apply real_le. rewrite real_abs, real_minus, real_plus, real_mult, real_grow, real_pow2. exact B.
Qed.
Print Assumptions C93_coverage_error.

(* The data loss, of points without previous losses, is the missing fraction, but for n + 4 roundings. *)
Theorem C93_loss_error : forall l has_res force f t si auto, disjoint_regions l -> (f < t)%Qc ->
  (forall p, In p l -> is_double (vp_from p) /\ is_double (vp_to p)) -> is_double f -> is_double t -> si <> q0 ->
  (forall p, In p l -> prior_loss p = q0) ->
  exists d, f_compute_data_loss l has_res force f t (Some si) auto = Ok d /\ is_double d /\
    (qabs (d - (q1 - covered_length l f t / (t - f))) <= grow (length (measured l) + 4) + pow2 (-1074))%Qc.
Proof.
  intros l has_res force f t si auto D L Dl Df Dt Hs Hp. destruct (coverage_err l f t D L Dl Df Dt) as (c & E & Dc & C0 & B).
  eexists. split; [apply (f_loss_none _ _ _ _ _ _ _ c); assumption|split; [apply rnd_double|]].
  assert (X : (q0 <= covered_length l f t / (t - f))%Qc /\ (covered_length l f t / (t - f) <= q1)%Qc).
  { destruct (disjoint_chain_ex l D) as [lo C]. rewrite covered_length_olen. apply div_bounds; [apply len_pos; exact L|apply olen_nonneg|]. apply (olen_le _ lo); [exact C|apply Qclt_le_weak; exact L]. }
  destruct X as [X0 X1]. apply real_le in X0, X1. rewrite real_0 in X0. rewrite real_1 in X1.
  apply real_le. rewrite real_abs, !real_minus, real_plus, real_1, real_grow, real_pow2. eapply Rle_trans; [apply (missing_err c _ ((1 + u) ^ (length (measured l) + 3) - 1)%R); [exact Dc|split; assumption| |exact B]|].
  - pose proof (pow_ge_1 (length (measured l) + 3)). lra.
  - replace (length (measured l) + 4) with (S (length (measured l) + 3)) by lia. cbn [pow]. assert (K : bpow radix2 (-1074) = (2 * eta)%R) by (unfold eta; replace (-1074)%Z with (1 + -1075)%Z by lia; rewrite bpow_plus; reflexivity). rewrite K.
    apply Rplus_le_compat_r. apply Req_le. ring.
Qed.
Print Assumptions C93_loss_error.

(* When the times are multiples of a power of two (whole seconds, for instance) and the interval is shorter than 2^53 of it,
   the coverage is the float nearest to the covered fraction: between 0 and 1, 1 only if all is covered and 0 only if nothing is. *)
Theorem C93_coverage_exact : forall k l f t, (-1074 <= k)%Z -> disjoint_regions l -> (f < t)%Qc ->
  (forall p, In p l -> multiple k (vp_from p) /\ multiple k (vp_to p)) -> multiple k f -> multiple k t -> (t - f < pow2 (53 + k))%Qc ->
  exists c, f_coverage l f t = Ok c /\ closest (covered_length l f t / (t - f)) c /\ (q0 <= c)%Qc /\ (c <= q1)%Qc /\
    (c = q1 <-> (forall x, (f < x)%Qc -> (x < t)%Qc -> covered l x)) /\ (c = q0 <-> covered_length l f t = q0).
Proof.
  intros k l f t Hk D L Ml Mf Mt B. destruct (coverage_exact k l f t Hk D L Ml Mf Mt B) as (MC & C0 & CW & E). eexists. split; [exact E|split; [apply rnd_closest|]].
  destruct (fraction_extremes k (covered_length l f t) (t - f)%Qc MC (multiple_minus k t f Mt Mf) C0 CW (len_pos f t L) B) as (R0 & R1 & R2 & R3 & _).
  split; [exact R0|split; [exact R1|split; [|exact R3]]]. rewrite R2.
  destruct (C37_coverage_bounds_and_extremes l f t D L) as (c & Ec & _ & _ & Cx & _). rewrite coverage_spec in Ec by assumption.
  assert (Q : (covered_length l f t / (t - f))%Qc = c) by congruence. rewrite <- Cx, <- Q, (div_one _ _ (len_pos f t L)). reflexivity.
Qed.
Print Assumptions C93_coverage_exact.

Theorem C93_loss_exact : forall k l has_res force f t si auto, (-1074 <= k)%Z -> disjoint_regions l -> (f < t)%Qc ->
  (forall p, In p l -> multiple k (vp_from p) /\ multiple k (vp_to p)) -> multiple k f -> multiple k t -> (t - f < pow2 (53 + k))%Qc ->
  si <> q0 -> (forall p, In p l -> prior_loss p = q0) ->
  exists d, f_compute_data_loss l has_res force f t (Some si) auto = Ok d /\ (q0 <= d)%Qc /\ (d <= q1)%Qc /\
    (d = q0 <-> (forall x, (f < x)%Qc -> (x < t)%Qc -> covered l x)) /\ (d = q1 <-> covered_length l f t = q0).
Proof.
  intros k l has_res force f t si auto Hk D L Ml Mf Mt B Hs Hp. destruct (coverage_exact k l f t Hk D L Ml Mf Mt B) as (MC & C0 & CW & E).
  destruct (fraction_extremes k (covered_length l f t) (t - f)%Qc MC (multiple_minus k t f Mt Mf) C0 CW (len_pos f t L) B) as (R0 & R1 & _ & R3 & R4).
  destruct (C93_coverage_exact k l f t Hk D L Ml Mf Mt B) as (c & Ec & Cc & C1 & C2 & C3 & C4).
  assert (Q : rnd (covered_length l f t / (t - f)) = c) by congruence. rewrite Q in *. clear Q E.
  eexists. split; [apply (f_loss_none _ _ _ _ _ _ _ c); assumption|].
  destruct (missing_extremes c (proj1 Cc) C1 C2) as (M0 & M1 & M2 & M3); [intros N; apply R4; intros K; apply N, R3; exact K|].
  split; [exact M0|split; [exact M1|split]]; [rewrite M2; exact C3|rewrite M3; exact C4].
Qed.
Print Assumptions C93_loss_exact.

Theorem C93_empty_interval_rejected : forall l f t, (t <= f)%Qc -> f_coverage l f t = Err ValueError.
Proof. intros l f t H. unfold f_coverage. rewrite qleb_true by exact H. reflexivity. Qed.
Print Assumptions C93_empty_interval_rejected.

(* With other times an interval which is fully covered may have a coverage above 1, and a negative data loss:
   points at 0.2 and 0.5, covering [0.05, 0.35] and [0.35, 0.65], in [0.05, 0.65]. *)
Definition tenths : list vpoint :=
  [mkVp (pt 0 1) (rnd (qfrac 1 20)) (rnd (qfrac 7 20)) false; mkVp (pt 1 1) (rnd (qfrac 7 20)) (rnd (qfrac 13 20)) false].
Lemma tenths_disjoint : disjoint_regions tenths.
Proof.
  split; [intros p [<- |[<- |[]]]; apply qleb_le; vm_compute; reflexivity|].
  intros [|[|i]] [|[|j]] p q L Hp Hq; try lia; try (destruct i; discriminate); try (destruct j; discriminate); injection Hp as <-; injection Hq as <-; apply qleb_le; vm_compute; reflexivity.
Qed.
Theorem C93_negative_loss_refuted : disjoint_regions tenths /\
  (forall p, In p tenths -> is_double (vp_from p) /\ is_double (vp_to p)) /\
  exists c d, f_coverage tenths (rnd (qfrac 1 20)) (rnd (qfrac 13 20)) = Ok c /\ (q1 < c)%Qc /\
    f_compute_data_loss tenths true false (rnd (qfrac 1 20)) (rnd (qfrac 13 20)) (Some (rnd (qfrac 3 10))) (Err ValueError) = Ok d /\ (d < q0)%Qc.
Proof.
  split; [exact tenths_disjoint|split; [intros p [<- |[<- |[]]]; split; apply rnd_double|]].
  set (r := f_coverage tenths (rnd (qfrac 1 20)) (rnd (qfrac 13 20))). assert (K : match r with Ok c => qltb q1 c && qltb (fsub q1 c) q0 | _ => false end = true) by (vm_compute; reflexivity).
  destruct r as [c|] eqn:E; [|discriminate]. apply andb_prop in K. destruct K as [K1 K2]. exists c, (fsub q1 c). split; [reflexivity|split; [apply qltb_lt; exact K1|split; [|apply qltb_lt; exact K2]]].
  apply f_loss_none; [intros Q; assert (K : qeqb (rnd (qfrac 3 10)) q0 = true) by (rewrite Q; reflexivity); vm_compute in K; discriminate|intros p [<- |[<- |[]]]; reflexivity|exact E].
Qed.
Print Assumptions C93_negative_loss_refuted.

Example C93_nonvacuous : disjoint_regions vl3 /\ (forall p, In p vl3 -> multiple 0 (vp_from p) /\ multiple 0 (vp_to p)) /\ (forall p, In p vl3 -> prior_loss p = q0) /\
  (qz 25 - qz 0 < pow2 (53 + 0))%Qc /\ opt_is (match f_coverage vl3 (qz 0) (qz 25) with Ok c => Some c | _ => None end) (rnd (qfrac 2 5)) = true.
Proof.
  assert (M : forall z, multiple 0 (qz z)) by (intros z; exists z; apply real_inj; rewrite real_mult, real_pow2; cbn; ring).
  split; [exact vl3_disjoint|split; [intros p [<- |[<- |[<- |[]]]]; split; apply M|split; [intros p [<- |[<- |[<- |[]]]]; reflexivity|split; [apply qltb_lt; vm_compute; reflexivity|vm_compute; reflexivity]]]].
Qed.
