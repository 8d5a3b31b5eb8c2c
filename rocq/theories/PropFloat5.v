(* PropFloat5.v -- THEOREMS C102: the derivative of floats. *)
From Coq Require Import Reals.
From Flocq Require Import Core.
From Verif Require Import Base BaseLemmas Items Series SpecSeries SpecAccess SpecOps SpecIntervals SeriesProofs AccessProofs DictLemmas AccessProofs3 OpsProofs OpsProofs2 OpsProofs3 OpsProofs4 OpsProofs5 OpsProofs6 OpsProofs7 OpsProofs8 OpsProofs10 Float FloatOps SpecFloat FloatProofs FloatProofs2 FloatProofs3 FloatProofs4 FloatProofs5 FloatProofs6 FloatProofs7 FloatProofs8 Periodicity Witness PropTactics PropAccess PropOps PropFloat2 PropCalculus FloatCalc SpecFloatCalc FloatProofs9.
From Coq Require Import Lra.
Local Close Scope R_scope.
Local Open Scope nat_scope.

Definition f_slope (l : list item) (i : nat) (lb : string) (dt : Qc) : Qc := fdiv (fsub (nval l (S i) lb) (nval l i lb)) dt.
Definition f_gder (var : bool) (l : list item) (a : Qc) (i : nat) (lb : string) : Qc :=
  if Nat.eqb i 0 then f_slope l 0 lb a
  else if Nat.eqb i (length l - 1) then f_slope l (i - 1) lb a
  else if var then fdiv (fadd (f_slope l (i - 1) lb (fsub (tval l i) (tval l (i - 1)))) (f_slope l i lb (fsub (tval l (S i)) (tval l i)))) q2
  else fdiv (fdiv (fadd (fsub (nval l i lb) (nval l (i - 1) lb)) (fsub (nval l (S i) lb) (nval l i lb))) q2) a.
Lemma tval_double l i : Forall is_double (times l) -> i < length l -> is_double (tval l i).
Proof.
  intros H L. destruct (nth_ex l i L) as [x X]. rewrite (tval_ok _ _ _ X). rewrite Forall_forall in H. apply H. unfold times. apply in_map, nth_error_In in X || (apply nth_error_In in X; apply in_map; exact X).
Qed.
Lemma nval_double l i lb : numeric l -> label_in l lb -> of_doubles l -> i < length l -> is_double (nval l i lb).
Proof. intros N B D L. destruct (nth_ex l i L) as [x X]. apply (D x lb); [apply nth_error_In in X; exact X|]. apply nval_has; assumption. Qed.
Lemma f_derivative_values e c s auto a : parses_units e -> sampled e s auto a -> 2 <= length (s_items s) -> Forall is_double (times (s_items s)) ->
  exists r var, f_op_derivative e c s auto = Ok r /\ fresh e r /\ numeric (s_items r) /\ wf_items (s_items r) /\ length (s_items r) = length (s_items s) /\ times (s_items r) = times (s_items s) /\
    (var = false -> regular e s a) /\
    forall i x y, nth_error (s_items s) i = Some x -> nth_error (s_items r) i = Some y -> same_time x y /\ i_idx y = i_idx x /\ values_by x y "derivative" (fun lb w => w = f_gder var (s_items s) a i lb).
Proof.
  intros He Sa L Dt. destruct (sampled_all e s auto a Sa) as (B & (Hh & _) & N & W & P). assert (Pa : a <> q0) by (intros ->; qlra). pose proof (wf_items_times _ W) as Ti.
  destruct (prep_ok e s Hh N) as (x & l & El & Hp).
  assert (Va : exists var, op_interval c s x auto = Ok (var, a) /\ (var = false -> regular e s a)).
  { destruct Sa as [R|(_ & _ & _ & Rs & -> & _)].
    - exists false. unfold op_interval. rewrite (regular_res e s a R L). split; [reflexivity|]. intros _. exact R.
    - exists true. unfold op_interval. unfold resolution in Rs. rewrite Rs. split; [reflexivity|discriminate]. }
  destruct Va as (var & Ev & Rv).
  destruct (positional_series e s "derivative" (f_gder var (s_items s) a) i_idx 0 He N W x l El) as (r & Hr & H1 & H2 & H3 & H4 & H5 & H6); [lia|].
  exists r, var. split; [|split; [exact H1|split; [exact H2|split; [exact H3|split; [lia|split; [exact H5|split; [exact Rv|exact H6]]]]]]].
  unfold f_op_derivative. rewrite Hp. cbn [bind fst snd]. destruct (Nat.eqb_spec (length (s_items s)) 1); [lia|]. rewrite Ev. cbn [bind fst snd].
  unfold f_der_items. change (combine (seq 0 (length (s_items s))) (s_items s)) with (combine (seq 0 (length (skipn 0 (s_items s)))) (skipn 0 (s_items s))). rewrite (positional x (postfix "derivative") i_idx _ (f_gder var (s_items s) a)); [exact Hr|].
  intros i lb Hi Hlb. rewrite skipn_length in Hi. assert (Hb : label_in (s_items s) lb) by (eapply label_first; eassumption). unfold f_der_value, f_gder, f_slope. destruct (Nat.eqb_spec i 0) as [->|Hi0]; [rewrite !val_ok by (try assumption; lia); cbn [bind]; apply f_div_ok, Pa|].
  destruct (Nat.eqb_spec i (length (s_items s) - 1)); [rewrite !val_ok by (try assumption; lia); cbn [bind]; replace (S (i - 1)) with i by lia; apply f_div_ok, Pa|].
  rewrite !val_ok by (try assumption; lia). cbn [bind]. rewrite Nat.add_1_r. replace (S (i - 1)) with i by lia.
  destruct var; [|rewrite (f_div_ok _ _ q2_nz); cbn [bind]; apply f_div_ok, Pa].
  destruct (nth_ex (s_items s) (i - 1)) as [xa Xa]; [lia|]. destruct (nth_ex (s_items s) i) as [xb Xb]; [lia|]. destruct (nth_ex (s_items s) (S i)) as [xd Xd]; [lia|]. rewrite Xa, Xb, Xd.
  assert (Q1 := step_pos _ (i - 1) Ti). replace (S (i - 1)) with i in Q1 by lia. assert (Q2 := step_pos _ i Ti). specialize (Q1 ltac:(lia)). specialize (Q2 ltac:(lia)).
  apply fsub_pos in Q1; [|apply tval_double; [exact Dt|lia]|apply tval_double; [exact Dt|lia]]. apply fsub_pos in Q2; [|apply tval_double; [exact Dt|lia]|apply tval_double; [exact Dt|lia]].
  rewrite (tval_ok _ _ _ Xa), (tval_ok _ _ _ Xb) in *. rewrite (tval_ok _ _ _ Xd) in *. rewrite (f_div_ok _ _ (pos_nz _ Q1)), (f_div_ok _ _ (pos_nz _ Q2)). cbn [bind]. apply f_div_ok, q2_nz.
Qed.
Lemma sub_time t0 t1 : is_double t0 -> is_double t1 -> Qclt t0 t1 -> (Rabs (real (fsub t1 t0) - real (t1 - t0)%Qc) <= u * real (t1 - t0)%Qc)%R.
Proof.
  intros D0 D1 L. pose proof (sub_R t1 t0 D1 D0) as E. rewrite real_minus. apply real_lt in L. rewrite (Rabs_pos_eq (real t1 - real t0)) in E by lra. exact E.
Qed.

(* ---------------- C102 ---------------- *)
Theorem C102_derivative : forall e c s auto a, parses_units e -> sampled e s auto a -> 2 <= length (s_items s) -> of_doubles (s_items s) -> Forall is_double (times (s_items s)) ->
  exists r, f_op_derivative e c s auto = Ok r /\ healthy e r /\ of_doubles (s_items r) /\ times (s_items r) = times (s_items s) /\
    forall i x y, nth_error (s_items s) i = Some x -> nth_error (s_items r) i = Some y -> in_place_of x y /\ values_near x y "derivative" (near_derivative_at (s_items s) a i).
Proof.
  intros e c s auto a He Sa L Dv Dt. destruct (f_derivative_values e c s auto a He Sa L Dt) as (r & var & R1 & R2 & R3 & R4 & R5 & R6 & Rv & R7). destruct (sampled_all e s auto a Sa) as (_ & _ & N & W & P). pose proof (wf_items_times _ W) as Ti.
  assert (Dg : forall i lb, is_double (f_gder var (s_items s) a i lb)).
  { intros i lb. unfold f_gder, f_slope, fdiv. destruct (Nat.eqb i 0); [apply rnd_double|]. destruct (Nat.eqb i (length (s_items s) - 1)); [apply rnd_double|]. destruct var; apply rnd_double. }
  exists r. split; [exact R1|]. split; [split; [apply fresh_history; assumption|split; assumption]|]. split.
  { intros y lb w Y Hw. apply In_nth_error in Y. destruct Y as [i Y]. destruct (nth_ex (s_items s) i) as [x X]; [apply nth_error_Some_lt in Y; lia|]. destruct (R7 i x y X Y) as (_ & _ & (_ & V)). apply V in Hw. destruct Hw as (lb0 & _ & _ & ->). apply Dg. }
  split; [exact R6|]. intros i x y X Y. destruct (R7 i x y X Y) as (S1 & S2 & S3). split; [split; assumption|]. apply (near_of_by _ _ _ _ _ S3). intros lb Hl. split; [apply Dg|].
  assert (Hb : label_in (s_items s) lb) by (exists x; split; [apply nth_error_In in X; exact X|exact Hl]). apply nth_error_Some_lt in X.
  assert (Dn : forall j, j < length (s_items s) -> is_double (nval (s_items s) j lb)) by (intros j J; apply nval_double; assumption).
  assert (C : forall j, S j < length (s_items s) -> change (s_items s) j lb (Qcminus (nval (s_items s) (S j) lb) (nval (s_items s) j lb)) (Qcminus (tval (s_items s) (S j)) (tval (s_items s) j))) by (intros j J; apply change_ok; [exact N|exact Hb|exact J|split; reflexivity]).
  unfold f_gder. destruct (Nat.eqb_spec i 0) as [->|I0]; [|destruct (Nat.eqb_spec i (length (s_items s) - 1)) as [I1|I1]].
  - eexists. eexists. split; [apply (C 0); lia|]. apply slope_near_exact; [apply Dn; lia|apply Dn; lia|exact P].
  - eexists. eexists. split; [apply (C (i - 1)); lia|]. apply slope_near_exact; [apply Dn; lia|apply Dn; lia|exact P].
  - assert (C1 := C (i - 1) ltac:(lia)). assert (C2 := C i ltac:(lia)). assert (T1 := step_pos _ (i - 1) Ti ltac:(lia)). assert (T2 := step_pos _ i Ti ltac:(lia)). replace (S (i - 1)) with i in * by lia.
    assert (P1 : Qclt q0 (Qcminus (tval (s_items s) i) (tval (s_items s) (i - 1)))) by qlra. assert (P2 : Qclt q0 (Qcminus (tval (s_items s) (S i)) (tval (s_items s) i))) by qlra.
    destruct var.
    + eexists _, _, _, _, (f_slope (s_items s) (i - 1) lb (fsub (tval (s_items s) i) (tval (s_items s) (i - 1)))), (f_slope (s_items s) i lb (fsub (tval (s_items s) (S i)) (tval (s_items s) i))).
      split; [exact C1|]. split; [exact C2|]. unfold f_slope. replace (S (i - 1)) with i by lia. split; [apply slope_near; [apply Dn; lia|apply Dn; lia|exact P1|apply fsub_pos; [apply tval_double; [exact Dt|lia]|apply tval_double; [exact Dt|lia]|exact T1]|apply sub_time; [apply tval_double; [exact Dt|lia]|apply tval_double; [exact Dt|lia]|exact T1]]|].
      split; [apply slope_near; [apply Dn; lia|apply Dn; lia|exact P2|apply fsub_pos; [apply tval_double; [exact Dt|lia]|apply tval_double; [exact Dt|lia]|exact T2]|apply sub_time; [apply tval_double; [exact Dt|lia]|apply tval_double; [exact Dt|lia]|exact T2]]|]. apply mid_between; apply rnd_double.
    + pose proof (regular_spaced e s a (Rv eq_refl)) as Hs. assert (E1 := spaced_t _ _ (i - 1) Hs ltac:(lia)). assert (E2 := spaced_t _ _ i Hs ltac:(lia)). replace (S (i - 1)) with i in E1 by lia. rewrite E1 in C1. rewrite E2 in C2.
      eexists _, _, _, _, (f_slope (s_items s) (i - 1) lb a), (f_slope (s_items s) i lb a). split; [exact C1|]. split; [exact C2|]. unfold f_slope. replace (S (i - 1)) with i by lia.
      split; [apply slope_near_exact; [apply Dn; lia|apply Dn; lia|exact P]|]. split; [apply slope_near_exact; [apply Dn; lia|apply Dn; lia|exact P]|].
      set (u := fsub (nval (s_items s) i lb) (nval (s_items s) (i - 1) lb)). set (v := fsub (nval (s_items s) (S i) lb) (nval (s_items s) i lb)). destruct (mid_between u v) as [M1 M2]; [apply rnd_double|apply rnd_double|].
      set (m := fdiv (fadd u v) q2) in *. unfold qmin, qmax in M1, M2. assert (Mo : forall p q, Qcle p q -> Qcle (fdiv p a) (fdiv q a)) by (intros p q; apply div_mono, P). unfold qmin, qmax.
      destruct (qleb_spec u v) as [K|K].
      * destruct (qleb_spec (fdiv u a) (fdiv v a)) as [K'|K']; [split; apply Mo; assumption|]. exfalso. apply K', Mo, K.
      * apply Qcnot_le_lt in K. assert (K2 := Mo v u (Qclt_le_weak _ _ K)). destruct (qleb_spec (fdiv u a) (fdiv v a)) as [K'|K']; [|split; apply Mo; assumption].
        assert (EQ : fdiv u a = fdiv v a) by (apply Qcle_antisym; assumption). split; [rewrite EQ; apply Mo, M1|rewrite <- EQ; apply Mo, M2].
Qed.
Print Assumptions C102_derivative.

Lemma near_sign l a i lb w : near_derivative_at l a i lb w -> (forall j q dt, change l j lb q dt -> Qcle q0 q) -> Qcle q0 w.
Proof.
  intros (_ & H) M. destruct (Nat.eqb i 0); [|destruct (Nat.eqb i (length l - 1))].
  - destruct H as (q & dt & C & _ & _ & S1 & _). apply S1, (M _ _ _ C).
  - destruct H as (q & dt & C & _ & _ & S1 & _). apply S1, (M _ _ _ C).
  - destruct H as (q & dt & q' & dt' & x & y & C & C' & (_ & _ & S1 & _) & (_ & _ & S1' & _) & L & _). apply M in C, C'. specialize (S1 C). specialize (S1' C'). unfold qmin in L. destruct (qleb_spec x y); [exact (Qcle_trans _ _ _ S1 L)|exact (Qcle_trans _ _ _ S1' L)].
Qed.
Lemma near_sign' l a i lb w : near_derivative_at l a i lb w -> (forall j q dt, change l j lb q dt -> Qcle q q0) -> Qcle w q0.
Proof.
  intros (_ & H) M. destruct (Nat.eqb i 0); [|destruct (Nat.eqb i (length l - 1))].
  - destruct H as (q & dt & C & _ & _ & _ & S1). apply S1, (M _ _ _ C).
  - destruct H as (q & dt & C & _ & _ & _ & S1). apply S1, (M _ _ _ C).
  - destruct H as (q & dt & q' & dt' & x & y & C & C' & (_ & _ & _ & S1) & (_ & _ & _ & S1') & _ & L). apply M in C, C'. specialize (S1 C). specialize (S1' C'). unfold qmax in L. destruct (qleb_spec x y); [exact (Qcle_trans _ _ _ L S1')|exact (Qcle_trans _ _ _ L S1)].
Qed.
(* A label which never decreases has no negative derivative, one which never increases no positive one: of a constant label it is exactly 0. *)
Theorem C102_sign : forall e c s auto a, parses_units e -> sampled e s auto a -> 2 <= length (s_items s) -> of_doubles (s_items s) -> Forall is_double (times (s_items s)) ->
  forall r i x y lb w, f_op_derivative e c s auto = Ok r -> nth_error (s_items s) i = Some x -> nth_error (s_items r) i = Some y -> has_label x lb -> has_value y (named x "derivative" lb) w ->
    ((forall j q dt, change (s_items s) j lb q dt -> Qcle q0 q) -> Qcle q0 w) /\
    ((forall j q dt, change (s_items s) j lb q dt -> Qcle q q0) -> Qcle w q0) /\
    ((forall j q dt, change (s_items s) j lb q dt -> q = q0) -> w = q0).
Proof.
  intros e c s auto a He Sa L Dv Dt r i x y lb w R X Y Hl Hw. destruct (C102_derivative e c s auto a He Sa L Dv Dt) as (r' & R1 & _ & _ & _ & R7). rewrite R in R1. injection R1 as <-.
  destruct (R7 i x y X Y) as (_ & (_ & _ & V)). pose proof (V lb w Hl Hw) as K. split; [|split]; intros H.
  - exact (near_sign _ _ _ _ _ K H).
  - exact (near_sign' _ _ _ _ _ K H).
  - apply Qcle_antisym; [apply (near_sign' _ _ _ _ _ K)|apply (near_sign _ _ _ _ _ K)]; intros j q dt C; rewrite (H _ _ _ C); apply Qcle_refl.
Qed.
Print Assumptions C102_sign.

(* No rounding happens when the values and the times are multiples of two powers of two, with less than 53 bits between neighbours: then the derivative
   of a straight line is exactly its slope, if that is a double; at the ends too, if the resolution is constant. *)
Theorem C102_line_exact : forall e c s auto a m b lb k k', parses_units e -> sampled e s auto a -> 2 <= length (s_items s) -> of_doubles (s_items s) -> Forall is_double (times (s_items s)) ->
  (-1074 <= k)%Z -> (-1074 <= k')%Z -> is_double m ->
  (forall x v, In x (s_items s) -> has_value x lb v -> v = Qcplus (Qcmult m (i_t x)) b /\ multiple k v /\ multiple k' (i_t x)) ->
  (forall i q dt, change (s_items s) i lb q dt -> Qclt (qabs q) (pow2 (53 + k)) /\ Qclt (qabs dt) (pow2 (53 + k'))) ->
  forall r i x y w, f_op_derivative e c s auto = Ok r -> (regular e s a \/ 0 < i /\ S i < length (s_items s)) -> nth_error (s_items s) i = Some x -> nth_error (s_items r) i = Some y ->
    has_label x lb -> has_value y (named x "derivative" lb) w -> w = m.
Proof.
  intros e c s auto a m b lb k k' He Sa L Dv Dt K K' Dm Line Small r i x y w R Wh X Y Hl Hw. destruct (sampled_all e s auto a Sa) as (_ & _ & N & W & P). pose proof (wf_items_times _ W) as Ti.
  destruct (f_derivative_values e c s auto a He Sa L Dt) as (r' & var & R1 & _ & R3 & _ & R5 & R6 & Rv & R7). rewrite R in R1. injection R1 as <-.
  assert (Lb : label_in (s_items s) lb) by (exists x; split; [apply nth_error_In in X; exact X|exact Hl]).
  destruct (R7 i x y X Y) as (_ & _ & (_ & V)). apply V in Hw. destruct Hw as (lb0 & _ & E0 & ->). apply named_inj in E0. subst lb0. apply nth_error_Some_lt in X.
  set (l := s_items s) in *.
  assert (Vl : forall j, j < length l -> nval l j lb = Qcplus (Qcmult m (tval l j)) b /\ multiple k (nval l j lb) /\ multiple k' (tval l j)).
  { intros j J. destruct (nth_ex l j J) as [z Z]. rewrite (tval_ok _ _ _ Z). apply Line; [apply nth_error_In in Z; exact Z|apply nval_has; assumption]. }
  assert (C : forall j, S j < length l -> change l j lb (Qcminus (nval l (S j) lb) (nval l j lb)) (Qcminus (tval l (S j)) (tval l j))) by (intros j J; apply change_ok; [exact N|exact Lb|exact J|split; reflexivity]).
  assert (Dq : forall j, S j < length l -> fsub (nval l (S j) lb) (nval l j lb) = Qcmult m (Qcminus (tval l (S j)) (tval l j))).
  { intros j J. unfold fsub. destruct (Small _ _ _ (C j J)) as [B1 _]. destruct (Vl j ltac:(lia)) as (F1 & F2 & _). destruct (Vl (S j) J) as (G1 & G2 & _). rewrite (multiple_exact k _ _ K F2 G2 B1), F1, G1. ring. }
  assert (Dd : forall j, S j < length l -> fsub (tval l (S j)) (tval l j) = Qcminus (tval l (S j)) (tval l j)).
  { intros j J. unfold fsub. destruct (Small _ _ _ (C j J)) as [_ B2]. destruct (Vl j ltac:(lia)) as (_ & _ & F). destruct (Vl (S j) J) as (_ & _ & G). apply (multiple_exact k' _ _ K' F G B2). }
  assert (Sl : forall d, d <> q0 -> fdiv (Qcmult m d) d = m) by (intros d D; unfold fdiv; replace (Qcdiv (Qcmult m d) d) with m by (field; exact D); apply rnd_id, Dm).
  assert (Me : forall z, is_double z -> fdiv (fadd z z) q2 = z) by (intros z D; destruct (mid_up z z D D (Qcle_refl z)); apply Qcle_antisym; assumption).
  assert (Pa : a <> q0) by (intros ->; qlra).
  assert (Dst : forall j, S j < length l -> regular e s a -> Qcminus (tval l (S j)) (tval l j) = a) by (intros j J Rg; apply (spaced_t _ _ j (regular_spaced e s a Rg)), J).
  unfold f_gder, f_slope. destruct (Nat.eqb_spec i 0) as [->|I0]; [|destruct (Nat.eqb_spec i (length l - 1)) as [I1|I1]].
  - destruct Wh as [Rg|[? _]]; [|lia]. rewrite (Dq 0), (Dst 0) by (try assumption; lia). apply Sl, Pa.
  - destruct Wh as [Rg|[_ ?]]; [|lia]. rewrite (Dq (i - 1)), (Dst (i - 1)) by (try assumption; lia). apply Sl, Pa.
  - assert (E1 := Dq (i - 1) ltac:(lia)). assert (T1 := Dd (i - 1) ltac:(lia)). assert (N1 := step_ne _ (i - 1) Ti ltac:(lia)). assert (E2 := Dq i ltac:(lia)). assert (T2 := Dd i ltac:(lia)). assert (N2 := step_ne _ i Ti ltac:(lia)).
    replace (S (i - 1)) with i in * by lia. rewrite E1, E2. destruct var.
    + rewrite T1, T2, !Sl by assumption. apply Me, Dm.
    + assert (Rg := Rv eq_refl). assert (D1 := Dst (i - 1) ltac:(lia) Rg). assert (D2 := Dst i ltac:(lia) Rg). replace (S (i - 1)) with i in D1 by lia. rewrite D1, D2 in *. rewrite Me; [apply Sl, Pa|]. rewrite <- E2. apply rnd_double.
Qed.
Print Assumptions C102_line_exact.

(* In general that fails: the values 0.1, 0.2, 0.3, one minute apart, do not have the same derivative at the two ends. *)
Theorem C102_line_refuted : let vs := [rnd (qfrac 1 10); rnd (qfrac 2 10); rnd (qfrac 3 10)] in
  forall c, exists r y y' w w', f_op_derivative ideal_env c (signal vs) (Err NotImplementedError) = Ok r /\
    nth_error (s_items r) 0 = Some y /\ has_value y "value_derivative" w /\ nth_error (s_items r) 2 = Some y' /\ has_value y' "value_derivative" w' /\ Qclt w' w.
Proof.
  intros vs c. set (b := f_op_derivative ideal_env c (signal vs) (Err NotImplementedError)).
  assert (K : match b with Ok r => match s_items r with [y; _; y'] => match i_data y, i_data y' with Some (DDict [(lb, w)]), Some (DDict [(lb', w')]) => String.eqb lb "value_derivative" && String.eqb lb' "value_derivative" && qltb w' w | _, _ => false end | _ => false end | Err _ => false end = true) by (vm_compute; reflexivity).
  destruct b as [r|] eqn:B; [|discriminate]. destruct (s_items r) as [|y [|y1 [|y2 [|]]]] eqn:Ey; try discriminate. destruct (i_data y) as [[|[|[lb w] [|]]]|] eqn:Ed; try discriminate. destruct (i_data y2) as [[|[|[lb' w'] [|]]]|] eqn:Ed'; try discriminate.
  apply andb_prop in K. destruct K as [K K2]. apply andb_prop in K. destruct K as [K K1]. apply String.eqb_eq in K, K1. subst lb lb'.
  exists r, y, y2, w, w'. split; [reflexivity|]. rewrite Ey. split; [reflexivity|]. split; [unfold has_value; rewrite Ed; left; reflexivity|]. split; [reflexivity|]. split; [unfold has_value; rewrite Ed'; left; reflexivity|apply qltb_lt, K2].
Qed.
Print Assumptions C102_line_refuted.

(* The hypotheses hold for the uneven series of C101, whose values are its times. *)
Lemma int_dbl z : (Z.abs z < 2 ^ 53)%Z -> is_double (qz z). Proof. apply int_double. Qed.
Example C102_nonvacuous : sampled ideal_env uneven_s (Ok (qz 10)) (qz 10) /\ 2 <= length (s_items uneven_s) /\ of_doubles (s_items uneven_s) /\ Forall is_double (times (s_items uneven_s)) /\ is_double q1 /\
  (forall x v, In x (s_items uneven_s) -> has_value x "value" v -> v = Qcplus (Qcmult q1 (i_t x)) q0 /\ multiple 0 v /\ multiple 0 (i_t x)) /\
  (forall i q dt, change (s_items uneven_s) i "value" q dt -> Qclt (qabs q) (pow2 (53 + 0)) /\ Qclt (qabs dt) (pow2 (53 + 0))).
Proof.
  assert (E : s_items uneven_s = uneven) by (vm_compute; reflexivity). rewrite E. split; [exact uneven_sampled|]. split; [cbn; lia|].
  assert (Z : forall x v lb, In x uneven -> has_value x lb v -> exists z, v = qz z /\ i_t x = qz z /\ (0 <= z <= 50)%Z).
  { intros x v lb H Hv. in_cases H; destruct Hv as [Hv|[]]; apply (f_equal snd) in Hv; cbn [snd] in Hv; subst v; eexists; (split; [reflexivity|]); (split; [reflexivity|lia]). }
  split; [intros x lb v H Hv; destruct (Z x v lb H Hv) as (z & -> & _ & B); apply int_dbl; lia|]. split; [repeat constructor; apply int_dbl; lia|]. split; [apply (int_dbl 1); lia|]. split.
  - intros x v H Hv. destruct (Z x v _ H Hv) as (z & -> & -> & B). split; [rewrite q1_eq, q0_eq; ring|]. assert (M : multiple 0 (qz z)) by (exists z; change (pow2 0) with q1; rewrite q1_eq; ring). split; exact M.
  - intros i q dt (x & y & v & w & X & Y & V & W & -> & ->). apply nth_error_In in X, Y. destruct (Z x v _ X V) as (z & -> & -> & B). destruct (Z y w _ Y W) as (z' & -> & -> & B').
    assert (G : Qclt (qabs (Qcminus (qz z') (qz z))) (pow2 (53 + 0))); [|split; exact G].
    apply real_lt. rewrite real_abs, real_minus, !real_qz, real_pow2. apply Rle_lt_trans with 50%R; [|change (53 + 0)%Z with 53%Z; cbn; lra]. rewrite <- minus_IZR, <- abs_IZR. apply IZR_le. lia.
Qed.
