(* PropFloat6.v -- THEOREMS C103: the integral of floats. *)
From Coq Require Import Reals.
From Flocq Require Import Core.
From Verif Require Import Base BaseLemmas Items Series SpecSeries SpecAccess SpecOps SpecIntervals SeriesProofs AccessProofs DictLemmas AccessProofs3 OpsProofs OpsProofs2 OpsProofs3 OpsProofs4 OpsProofs5 OpsProofs6 OpsProofs7 OpsProofs8 OpsProofs10 Float FloatOps SpecFloat FloatProofs FloatProofs2 FloatProofs3 FloatProofs4 FloatProofs5 FloatProofs6 FloatProofs7 FloatProofs8 Periodicity Witness PropTactics PropAccess PropOps PropFloat2 PropCalculus FloatCalc SpecFloatCalc FloatProofs9 FloatInt PropFloat5.
From Coq Require Import Lra.
Local Close Scope R_scope.
Local Open Scope nat_scope.

Local Open Scope nat_scope.
Lemma nth_error_list {A} (l l' : list A) : (forall n, nth_error l n = nth_error l' n) -> l = l'.
Proof. revert l'. induction l as [|x l IH]; intros [|y l'] H; [reflexivity|specialize (H 0); discriminate|specialize (H 0); discriminate|]. f_equal; [specialize (H 0); cbn in H; congruence|apply IH; intros n; exact (H (S n))]. Qed.
Definition dt_of (l : list item) (i : nat) : Qc := Qcminus (tval l i) (tval l (i - 1)).
Lemma f_int_items_exact first lb var si k c l : numeric_item first -> item_labels first = [lb] -> (forall i, i < length l -> val l i lb = Ok (nval l i lb)) ->
  let y := fun i => nval l i lb in let G := fun i => Qcplus c (isum (dt_of l) y i) in
  is_double si -> (forall i, i < length l -> is_double (y i)) -> (forall i, i < length l -> is_double (G i)) ->
  (forall i, S i < length l -> is_double (lcomp y (S i)) /\ is_double (Qcminus (G (S i)) (G i)) /\ is_double (dt_of l (S i)) /\ (var = false -> dt_of l (S i) = si)) ->
  const_gives k lb c ->
  forall rest i st, length l = i + length rest ->
    match i with 0 => dget lb (it_last st) = None | S j => dget lb (it_last st) = Some (G j) /\ it_prc st = Some (lcomp y j) end ->
  f_int_items first [lb] var si k l i st rest = Ok (rebuilt_list first (postfix "integral") (fun i _ _ => G i) i_idx i rest).
Proof.
  intros Hf El Hv y G Ds Dy DG Dl Hk. induction rest as [|x rest IH]; intros i st Hlen Hst; cbn [f_int_items]; [reflexivity|]. cbn [length] in Hlen.
  assert (E : exists st', f_int_labels var si k l i st [lb] = Ok (st', [G i]) /\ dget lb (it_last st') = Some (G i) /\ it_prc st' = Some (lcomp y i)).
  { cbn [f_int_labels]. unfold f_int_label. destruct i as [|j].
    - cbn [Nat.eqb]. rewrite Hv by lia. cbn [bind]. assert (Z : (if var then Ok (fmul q0 si) else Ok (fmul q0 si)) = Ok q0).
      { assert (Z0 : fmul q0 si = q0) by (unfold fmul; replace (Qcmult q0 si) with q0 by (rewrite q0_eq; ring); apply rnd_id, double_0). rewrite Z0. destruct var; reflexivity. }
      rewrite Z. cbn [bind]. rewrite Hst. assert (K : f_add_konst q0 k lb = Ok (G 0)).
      { assert (D0 : is_double c). { assert (D := DG 0 ltac:(lia)). unfold G in D. cbn [isum] in D. replace (Qcplus c q0) with c in D by (rewrite q0_eq; ring). exact D. }
        assert (Fa : fadd q0 c = G 0) by (rewrite fadd_0 by exact D0; unfold G; cbn [isum]; rewrite q0_eq; ring). unfold f_add_konst, const_gives in *. destruct k; [subst; rewrite Fa; reflexivity|rewrite Hk, Fa; reflexivity]. }
      rewrite K. cbn [bind fst snd]. eexists. split; [reflexivity|]. cbn [it_last it_prc]. rewrite dget_dset, String.eqb_refl. split; reflexivity.
    - destruct Hst as [H1 H2]. cbn [Nat.eqb Nat.sub]. rewrite Nat.sub_0_r. rewrite Hv by lia. cbn [bind]. rewrite H2. cbn [bind].
      destruct (Dl j ltac:(lia)) as (L1 & L2 & L3 & L4). destruct (nth_ex l (S j)) as [xa Xa]; [lia|]. destruct (nth_ex l j) as [xb Xb]; [lia|]. rewrite Xa, Xb.
      assert (Lf : fsub (fmul (nval l j lb) q2) (lcomp y j) = lcomp y (S j)).
      { assert (M2 : fmul (nval l j lb) q2 = Qcmult (y j) q2). { unfold fmul. apply rnd_id. replace (Qcmult (y j) q2) with (Qcmult q2 (y j)) by ring. exact (double_twice _ (Dy j ltac:(lia))). }
        rewrite M2. unfold fsub. apply rnd_id. exact L1. }
      rewrite Lf. assert (GS : Qcminus (G (S j)) (G j) = Qcmult (lcomp y (S j)) (dt_of l (S j))) by (unfold G; cbn [isum]; ring).
      assert (Z : (if var then Ok (fmul (lcomp y (S j)) (fsub (i_t xa) (i_t xb))) else Ok (fmul (lcomp y (S j)) si)) = Ok (Qcminus (G (S j)) (G j))).
      { destruct var.
        - assert (DT : dt_of l (S j) = Qcminus (i_t xa) (i_t xb)). { unfold dt_of. cbn [Nat.sub]. rewrite Nat.sub_0_r, (tval_ok _ _ _ Xa), (tval_ok _ _ _ Xb). reflexivity. }
          assert (T : fsub (i_t xa) (i_t xb) = dt_of l (S j)). { unfold fsub. rewrite <- DT. apply rnd_id, L3. }
          rewrite T. unfold fmul. rewrite <- GS. rewrite rnd_id by exact L2. reflexivity.
        - rewrite <- (L4 eq_refl). unfold fmul. rewrite <- GS. rewrite rnd_id by exact L2. reflexivity. }
      rewrite Z. cbn [bind]. rewrite H1. cbn [bind fst snd].
      assert (Fa : fadd (G j) (Qcminus (G (S j)) (G j)) = G (S j)). { unfold fadd. replace (Qcplus (G j) (Qcminus (G (S j)) (G j))) with (G (S j)) by ring. exact (rnd_id _ (DG (S j) ltac:(lia))). }
      rewrite Fa. eexists. split; [reflexivity|]. cbn [it_last it_prc]. rewrite dget_dset, String.eqb_refl. split; reflexivity. }
  destruct E as (st' & E & Hst'). rewrite E. cbn [bind fst snd]. rewrite IH with (i := S i); [|lia|exact Hst'].
  cbn [bind]. unfold rebuilt_list. cbn [length seq combine map fst snd]. do 3 f_equal. unfold newdata. rewrite El. reflexivity.
Qed.

(* If every value, every integral, every slope and every change of the integral is a double, the floats compute the exact integral. *)
Theorem C103_integral_exact : forall e c s auto a k k0 x0 l0 lb r, parses_units e -> sampled e s auto a -> 2 <= length (s_items s) ->
  s_items s = x0 :: l0 -> (forall lb', has_label x0 lb' <-> lb' = lb) -> const_gives k lb k0 -> is_double a -> of_doubles (s_items s) ->
  op_integral e c s k (KNum q0) auto = Ok r -> of_doubles (s_items r) ->
  (forall i q dt, change (s_items r) i (named x0 "integral" lb) q dt -> is_double q /\ is_double dt /\ is_double (Qcdiv q dt)) ->
  f_op_integral e c s k auto = Ok r.
Proof.
  intros e c s auto a k k0 x0 l0 lb r He Sa L E One Hk Da Ds Hr Dr Dc. destruct (sampled_all e s auto a Sa) as (B & (Hh & _) & N & W & P).
  pose proof (one_named s x0 l0 lb N E One) as On. assert (Hlb : forall x, In x (s_items s) -> item_labels x = [lb]) by (intros x X; apply (On x X)).
  destruct (integral_values e c s auto a k k0 lb He Sa L Hlb Hk) as (r' & R1 & R2 & R3 & R4 & R5 & R6 & R7). rewrite Hr in R1. assert (r' = r) by congruence. subst r'. clear R1.
  set (G := fun i lb => Qcplus k0 (isum (fun i => Qcminus (tval (s_items s) i) (tval (s_items s) (i - 1))) (fun i => nval (s_items s) i lb) i)) in *.
  assert (Nm : forall x, In x (s_items s) -> named x "integral" lb = named x0 "integral" lb) by (intros x X; apply named_kind; symmetry; symmetry; apply On, X).
  assert (Ix0 : In x0 (s_items s)) by (rewrite E; left; reflexivity).
  assert (LI : label_in (s_items r) (named x0 "integral" lb)).
  { destruct (nth_ex (s_items r) 0) as [y Y]; [lia|]. exists y. split; [apply nth_error_In in Y; exact Y|]. destruct (R7 0 x0 y) as (_ & _ & (_ & V)); [rewrite E; reflexivity|exact Y|].
    exists (G 0 lb). apply V. exists lb. split; [apply One; reflexivity|]. split; reflexivity. }
  assert (Nv : forall i, i < length (s_items s) -> nval (s_items r) i (named x0 "integral" lb) = G i lb).
  { intros i I. destruct (nth_ex (s_items s) i I) as [x X]. rewrite <- (Nm x (nth_error_In _ _ X)). apply (nval_derived s r 0 "integral" G i x lb R3 N); [intros j u v U V; apply (R7 j u v U V)|lia|exact (nth_error_In _ _ X)|apply (proj1 (On x (nth_error_In _ _ X))); reflexivity|lia]. }
  assert (Tv : forall i, tval (s_items r) i = tval (s_items s) i).
  { intros i. unfold tval. assert (Q := f_equal (fun l => nth_error l i) R6). cbn beta in Q. unfold times in Q. rewrite !nth_error_map in Q. destruct (nth_error (s_items r) i), (nth_error (s_items s) i); cbn in Q; congruence. }
  assert (Va : exists var, op_interval c s x0 auto = Ok (var, a) /\ (var = false -> forall i, S i < length (s_items s) -> dt_of (s_items s) (S i) = a) /\ forall i, i < length (s_items s) -> 0 < i -> dstep var a (s_items s) i = Qcminus (tval (s_items s) i) (tval (s_items s) (i - 1))).
  { destruct Sa as [R|(_ & _ & _ & Rs & -> & _)].
    - pose proof (regular_spaced e s a R) as Hs. assert (Q : forall i, S i < length (s_items s) -> dt_of (s_items s) (S i) = a) by (intros i I; unfold dt_of; cbn [Nat.sub]; rewrite Nat.sub_0_r; apply (spaced_t _ _ i Hs I)).
      exists false. unfold op_interval. rewrite (regular_res e s a R L). cbn [unit_seconds bind]. split; [reflexivity|]. split; [intros _; exact Q|]. intros i I1 I2. unfold dstep. destruct i as [|i]; [lia|]. symmetry. exact (Q i I1).
    - exists true. unfold op_interval. unfold resolution in Rs. rewrite Rs. split; [reflexivity|]. split; [discriminate|]. intros i _ _. reflexivity. }
  destruct Va as (var & Ev & Ed & Es). destruct (prep_ok e s Hh N) as (x & l & El & Hp). assert (x = x0 /\ l = l0) as [-> ->] by (rewrite E in El; split; congruence).
  assert (Same : forall y i, i < length (s_items s) -> isum (dstep var a (s_items s)) y i = isum (fun i => Qcminus (tval (s_items s) i) (tval (s_items s) (i - 1))) y i).
  { intros y. induction i as [|i IH]; intros I; [reflexivity|]. cbn [isum]. rewrite IH, Es by lia. reflexivity. }
  assert (Vk : forall i, i < length (s_items s) -> val (s_items s) i lb = Ok (nval (s_items s) i lb)).
  { intros i I. apply val_ok; [exact N| |exact I]. eapply label_first; [exact N|exact E|]. rewrite (Hlb x0 Ix0). left; reflexivity. }
  assert (F : f_int_items x0 [lb] var a k (s_items s) 0 (mkInt [] None) (s_items s) = Ok (rebuilt_list x0 (postfix "integral") (fun i _ _ => G i lb) i_idx 0 (s_items s))).
  { apply (f_int_items_exact x0 lb var a k k0 (s_items s)); [apply N, Ix0|apply Hlb, Ix0|exact Vk|exact Da| | | |exact Hk|reflexivity|reflexivity].
    - intros i I. destruct (nth_ex (s_items s) i I) as [z Z]. apply (Ds z lb); [apply nth_error_In in Z; exact Z|]. apply nval_has; [exact N|exact Z|]. apply nth_error_In in Z. exists z. split; [exact Z|apply (proj1 (On z Z)); reflexivity].
    - intros i I. change (is_double (G i lb)). rewrite <- (Nv i I). destruct (nth_ex (s_items r) i) as [z Z]; [lia|]. apply (Dr z (named x0 "integral" lb)); [apply nth_error_In in Z; exact Z|]. apply nval_has; assumption.
    - intros i I. change (is_double (lcomp (fun i => nval (s_items s) i lb) (S i)) /\ is_double (Qcminus (G (S i) lb) (G i lb)) /\ is_double (dt_of (s_items s) (S i)) /\ (var = false -> dt_of (s_items s) (S i) = a)).
      assert (C : change (s_items r) i (named x0 "integral" lb) (Qcminus (G (S i) lb) (G i lb)) (dt_of (s_items s) (S i))).
      { apply change_ok; [exact R3|exact LI|lia|]. rewrite !Nv, !Tv by lia. split; [reflexivity|]. unfold dt_of. cbn [Nat.sub]. rewrite Nat.sub_0_r. reflexivity. }
      destruct (Dc _ _ _ C) as (C1 & C2 & C3). split; [|split; [exact C1|split; [exact C2|intros V; apply Ed; [exact V|exact I]]]].
      replace (lcomp (fun i => nval (s_items s) i lb) (S i)) with (Qcdiv (Qcminus (G (S i) lb) (G i lb)) (dt_of (s_items s) (S i))); [exact C3|].
      assert (Z := step_ne _ i (wf_items_times _ W) I). unfold G, dt_of. cbn [isum Nat.sub]. rewrite !Nat.sub_0_r. set (u := lcomp (fun i => nval (s_items s) i lb) (S i)). field. exact Z. }
  unfold f_op_integral. rewrite Hp. cbn [bind fst snd]. rewrite Ev. cbn [bind fst snd]. rewrite (Hlb x0 Ix0), F. cbn [bind].
  unfold op_integral, op_integral_gen in Hr. rewrite Hp in Hr. cbn [bind fst snd] in Hr. rewrite Ev in Hr. cbn [bind fst snd konst_truthy] in Hr. rewrite qeqb_refl in Hr. cbn [negb bind app] in Hr. rewrite (Hlb x0 Ix0) in Hr.
  rewrite (int_items_any x0 lb var a k k0 (s_items s)) in Hr; [|apply N, Ix0|apply Hlb, Ix0|exact Vk|reflexivity|].
  - cbn [bind] in Hr. rewrite <- Hr. f_equal. apply nth_error_list. intros n. rewrite !rebuilt_list_nth. destruct (nth_error (s_items s) n) as [z|] eqn:Z; [|reflexivity]. apply nth_error_Some_lt in Z.
    do 2 f_equal. unfold newdata. rewrite (Hlb x0 Ix0). unfold G. cbn [Nat.add map]. rewrite (Same _ n Z). reflexivity.
  - cbn [int_inv' it_last dget]. split; [reflexivity|]. intros v. unfold add_konst, const_gives in *. destruct k; [subst; reflexivity|rewrite Hk; reflexivity].
Qed.
Print Assumptions C103_integral_exact.

(* And if half the change over two steps is a double too, the derivative of floats of that integral gives the values back, but for the ends. *)
Theorem C103_derivative_of_integral : forall e c s auto a k k0 x0 l0 lb r auto' a', parses_units e -> sampled e s auto a -> 2 <= length (s_items s) ->
  s_items s = x0 :: l0 -> (forall lb', has_label x0 lb' <-> lb' = lb) -> const_gives k lb k0 -> is_double a -> of_doubles (s_items s) ->
  op_integral e c s k (KNum q0) auto = Ok r -> of_doubles (s_items r) ->
  (forall i q dt, change (s_items r) i (named x0 "integral" lb) q dt -> is_double q /\ is_double dt /\ is_double (Qcdiv q dt)) ->
  (forall i q dt q' dt', change (s_items r) i (named x0 "integral" lb) q dt -> change (s_items r) (S i) (named x0 "integral" lb) q' dt' -> is_double (Qcdiv (Qcplus q q') q2)) ->
  sampled e r auto' a' -> Forall is_double (times (s_items r)) ->
  forall r' i x y z v w, f_op_integral e c s k auto = Ok r /\ (f_op_derivative e c r auto' = Ok r' -> 0 < i -> S i < length (s_items s) ->
    nth_error (s_items s) i = Some x -> nth_error (s_items r) i = Some y -> nth_error (s_items r') i = Some z ->
    has_value x lb v -> has_value z (named y "derivative" (named x0 "integral" lb)) w -> w = v).
Proof.
  intros e c s auto a k k0 x0 l0 lb r auto' a' He Sa L E One Hk Da Ds Hr Dr Dc Dh Sr Dt r' i x y z v w.
  split; [exact (C103_integral_exact e c s auto a k k0 x0 l0 lb r He Sa L E One Hk Da Ds Hr Dr Dc)|]. intros R' I0 I1 X Y Z Hv Hw.
  destruct (C101_integral_partial e c s auto a k k0 x0 l0 lb He Sa L E One Hk) as (r1 & R1 & _ & Tm & F2 & _ & An). rewrite Hr in R1. assert (r1 = r) by congruence. subst r1. clear R1.
  assert (Ln : length (s_items r) = length (s_items s)) by (apply (f_equal (@length Qc)) in Tm; unfold times in Tm; rewrite !map_length in Tm; exact Tm).
  set (ln := named x0 "integral" lb) in *. destruct (sampled_all e r auto' a' Sr) as (_ & _ & N & W & P). pose proof (wf_items_times _ W) as Ti.
  destruct (f_derivative_values e c r auto' a' He Sr ltac:(lia) Dt) as (r1 & var & R1 & _ & _ & _ & _ & _ & Rv & R7). rewrite R' in R1. assert (r1 = r') by congruence. subst r1. clear R1.
  destruct (R7 i y z Y Z) as (_ & _ & (_ & V)). apply V in Hw. destruct Hw as (lb0 & Hl & E0 & ->). apply named_inj in E0. subst lb0.
  assert (Lb : label_in (s_items r) ln) by (exists y; split; [apply nth_error_In in Y; exact Y|exact Hl]).
  assert (Q := An i x v X Hv I1). destruct (Nat.eqb_spec i 0); [lia|]. destruct Q as (q & dt & q' & dt' & C1 & C2 & Ev).
  destruct (Dc _ _ _ C1) as (D1 & D2 & D3). destruct (Dc _ _ _ C2) as (D4 & D5 & D6). replace i with (S (i - 1)) in C2 by lia. assert (D7 := Dh _ _ _ _ _ C1 C2). replace (S (i - 1)) with i in C2 by lia.
  apply change_ok in C1; [|exact N|exact Lb|lia]. apply change_ok in C2; [|exact N|exact Lb|lia]. replace (S (i - 1)) with i in C1 by lia. destruct C1 as [Q1 T1], C2 as [Q2 T2].
  assert (Dv : is_double v) by (apply (Ds x lb); [apply nth_error_In in X; exact X|exact Hv]).
  assert (N1 := step_ne _ (i - 1) Ti ltac:(lia)). replace (S (i - 1)) with i in N1 by lia. rewrite <- T1 in N1. assert (N2 := step_ne _ i Ti ltac:(lia)). rewrite <- T2 in N2.
  unfold f_gder, f_slope. destruct (Nat.eqb_spec i 0); [lia|]. destruct (Nat.eqb_spec i (length (s_items r) - 1)); [lia|]. replace (S (i - 1)) with i by lia.
  unfold fsub, fadd, fdiv. rewrite <- Q1, <- Q2, (rnd_id q D1), (rnd_id q' D4). destruct var.
  - rewrite <- T1, <- T2, (rnd_id dt D2), (rnd_id dt' D5), (rnd_id _ D3), (rnd_id _ D6).
    replace (Qcplus (Qcdiv q dt) (Qcdiv q' dt')) with (Qcmult q2 v) by (rewrite Ev; field; repeat split; (exact q2_nz || exact N1 || exact N2)). rewrite (rnd_id _ (double_twice v Dv)). replace (Qcdiv (Qcmult q2 v) q2) with v by (field; exact q2_nz). apply rnd_id, Dv.
  - pose proof (regular_spaced e r a' (Rv eq_refl)) as Hs. assert (E1 := spaced_t _ _ (i - 1) Hs ltac:(lia)). assert (E2 := spaced_t _ _ i Hs ltac:(lia)). replace (S (i - 1)) with i in E1 by lia.
    rewrite <- T1 in E1. rewrite <- T2 in E2. rewrite E1, E2 in Ev. rewrite E1 in N1. assert (Dq : is_double (Qcplus q q')) by (replace (Qcplus q q') with (Qcmult q2 (Qcdiv (Qcplus q q') q2)) by (field; exact q2_nz); apply double_twice, D7).
    rewrite (rnd_id _ Dq), (rnd_id _ D7). assert (Ev' : Qcdiv (Qcdiv (Qcplus q q') q2) a' = v).
    { rewrite Ev. field. repeat split; (exact q2_nz || exact N1). }
    rewrite Ev'. apply rnd_id, Dv.
Qed.
Print Assumptions C103_derivative_of_integral.

(* In general that fails: the integral of the constant 0.7 over three minutes is not the double closest to the true one. *)
Theorem C103_closest_refuted : let vs := repeat (rnd (qfrac 7 10)) 4 in
  forall c, exists r r' y y' w w', f_op_integral ideal_env c (signal vs) (KNum q0) (Err NotImplementedError) = Ok r /\ op_integral ideal_env c (signal vs) (KNum q0) (KNum q0) (Err NotImplementedError) = Ok r' /\
    nth_error (s_items r) 3 = Some y /\ has_value y "value_integral" w /\ nth_error (s_items r') 3 = Some y' /\ has_value y' "value_integral" w' /\ ~ closest w' w.
Proof.
  intros vs c. set (b := f_op_integral ideal_env c (signal vs) (KNum q0) (Err NotImplementedError)). set (b' := op_integral ideal_env c (signal vs) (KNum q0) (KNum q0) (Err NotImplementedError)).
  assert (K : match b, b' with Ok r, Ok r' => match s_items r, s_items r' with [_; _; _; y], [_; _; _; y'] => match i_data y, i_data y' with Some (DDict [(lb, w)]), Some (DDict [(lb', w')]) =>
      String.eqb lb "value_integral" && String.eqb lb' "value_integral" && qltb (qabs (Qcminus w' (rnd w'))) (qabs (Qcminus w' w)) | _, _ => false end | _, _ => false end | _, _ => false end = true) by (vm_compute; reflexivity).
  destruct b as [r|] eqn:B; [|discriminate]. destruct b' as [r'|] eqn:B'; [|discriminate]. destruct (s_items r) as [|y0 [|y1 [|y2 [|y [|]]]]] eqn:Ey; try discriminate. destruct (s_items r') as [|z0 [|z1 [|z2 [|z [|]]]]] eqn:Ez; try discriminate.
  destruct (i_data y) as [[|[|[lb w] [|]]]|] eqn:Ed; try discriminate. destruct (i_data z) as [[|[|[lb' w'] [|]]]|] eqn:Ed'; try discriminate.
  apply andb_prop in K. destruct K as [K K2]. apply andb_prop in K. destruct K as [K K1]. apply String.eqb_eq in K, K1. subst lb lb'. apply qltb_lt in K2.
  exists r, r', y, z, w, w'. split; [reflexivity|]. split; [reflexivity|]. rewrite Ey, Ez. split; [reflexivity|]. split; [unfold has_value; rewrite Ed; left; reflexivity|]. split; [reflexivity|]. split; [unfold has_value; rewrite Ed'; left; reflexivity|].
  intros [_ M]. assert (Q := M (rnd w') (rnd_double w')). apply (Qclt_not_le _ _ K2). exact Q.
Qed.
Print Assumptions C103_closest_refuted.

(* The hypotheses hold for a series at 0, 10, 20 and 30 with values 5, 25, 45 and 65. *)
Example C103_nonvacuous : forall c, sampled ideal_env (mk_s lin3) (Err NotImplementedError) (qz 10) /\ 2 <= length (s_items (mk_s lin3)) /\ is_double (qz 10) /\ of_doubles (s_items (mk_s lin3)) /\
  exists r, op_integral ideal_env c (mk_s lin3) (KNum (qz 9)) (KNum q0) (Err NotImplementedError) = Ok r /\ of_doubles (s_items r) /\
    (forall i q dt, change (s_items r) i "value_integral" q dt -> is_double q /\ is_double dt /\ is_double (Qcdiv q dt)) /\
    (forall i q dt q' dt', change (s_items r) i "value_integral" q dt -> change (s_items r) (S i) "value_integral" q' dt' -> is_double (Qcdiv (Qcplus q q') q2)) /\
    sampled ideal_env r (Err NotImplementedError) (qz 10) /\ Forall is_double (times (s_items r)).
Proof.
  intros c. assert (E : s_items (mk_s lin3) = lin3) by (vm_compute; reflexivity). rewrite E. split; [left; exact lin3_regular|]. split; [cbn; lia|]. split; [apply (int_dbl 10); lia|]. split.
  - intros x lb v H Hv. in_cases H; destruct Hv as [Hv|[]]; apply (f_equal snd) in Hv; cbn [snd] in Hv; subst v; apply int_dbl; lia.
  - set (b := op_integral ideal_env c (mk_s lin3) (KNum (qz 9)) (KNum q0) (Err NotImplementedError)).
    assert (K : match b with Ok r => match s_items r with [y0; y1; y2; y3] => qeqb (i_t y0) (qz 0) && qeqb (i_t y1) (qz 10) && qeqb (i_t y2) (qz 20) && qeqb (i_t y3) (qz 30) &&
        match i_data y0, i_data y1, i_data y2, i_data y3 with Some (DDict [(_, w0)]), Some (DDict [(_, w1)]), Some (DDict [(_, w2)]), Some (DDict [(_, w3)]) => qeqb w0 (qz 9) && qeqb w1 (qz 59) && qeqb w2 (qz 509) && qeqb w3 (qz 959) | _, _, _, _ => false end
      | _ => false end | Err _ => false end = true) by (vm_compute; reflexivity).
    destruct b as [r|] eqn:B; [|discriminate]. exists r. split; [reflexivity|]. destruct (s_items r) as [|y0 [|y1 [|y2 [|y3 [|]]]]] eqn:Ey; try discriminate.
    apply andb_prop in K. destruct K as [K Ks]. apply andb_prop in K. destruct K as [K T3]. apply andb_prop in K. destruct K as [K T2]. apply andb_prop in K. destruct K as [T0 T1].
    destruct (i_data y0) as [[|[|[lb0 w0] [|]]]|] eqn:D0; try discriminate. destruct (i_data y1) as [[|[|[lb1 w1] [|]]]|] eqn:D1; try discriminate.
    destruct (i_data y2) as [[|[|[lb2 w2] [|]]]|] eqn:D2; try discriminate. destruct (i_data y3) as [[|[|[lb3 w3] [|]]]|] eqn:D3; try discriminate.
    apply andb_prop in Ks. destruct Ks as [Ks K3]. apply andb_prop in Ks. destruct Ks as [Ks K2]. apply andb_prop in Ks. destruct Ks as [K0 K1].
    apply qeqb_eq in T0, T1, T2, T3, K0, K1, K2, K3. subst w0 w1 w2 w3.
    assert (U : forall y lb0 w lb v, i_data y = Some (DDict [(lb0, w)]) -> has_value y lb v -> v = w) by (intros y lb0' w lb v D V; unfold has_value in V; rewrite D in V; destruct V as [V|[]]; congruence).
    assert (Ch : forall i q dt, change [y0; y1; y2; y3] i "value_integral" q dt -> i < 3 /\ q = qz (nth i [50; 450; 450]%Z 0%Z)).
    { intros i q dt (x & y & v & w & X & Y & V & W & -> & ->). assert (M : forall p q, Qcminus (qz p) (qz q) = qz (p - q)) by (intros p q; apply real_inj; rewrite real_minus, !real_qz, minus_IZR; reflexivity).
      destruct i as [|[|[|i]]]; cbn [nth_error] in X, Y; [| | |destruct i; discriminate].
      - assert (x = y0) by congruence. assert (y = y1) by congruence. subst x y. rewrite (U _ _ _ _ _ D0 V), (U _ _ _ _ _ D1 W), M. split; [lia|reflexivity].
      - assert (x = y1) by congruence. assert (y = y2) by congruence. subst x y. rewrite (U _ _ _ _ _ D1 V), (U _ _ _ _ _ D2 W), M. split; [lia|reflexivity].
      - assert (x = y2) by congruence. assert (y = y3) by congruence. subst x y. rewrite (U _ _ _ _ _ D2 V), (U _ _ _ _ _ D3 W), M. split; [lia|reflexivity]. }
    assert (HL : forall x, In x (s_items (mk_s lin3)) -> item_labels x = ["value"%string]) by (rewrite E; intros x H; in_cases H; reflexivity).
    destruct (integral_values ideal_env c (mk_s lin3) (Err NotImplementedError) (qz 10) (KNum (qz 9)) (qz 9) "value" ideal_parses (or_introl lin3_regular) ltac:(rewrite E; cbn; lia) HL eq_refl) as (r1 & R1 & F1 & N1 & W1 & _ & T1' & V1).
    fold b in R1. assert (r1 = r) by congruence. subst r1. rewrite <- Ey.
    split; [|split; [|split; [|split]]]; [rewrite Ey|rewrite Ey|rewrite Ey|left; apply (regular_sub ideal_env (mk_s lin3) r (qz 10) 0 lin3_regular F1 N1 W1 T1'); intros i x y X Y; exact (proj1 (V1 i x y X Y))|unfold times; rewrite Ey; cbn [map]; rewrite T0, T1, T2, T3; repeat constructor; apply int_dbl; lia].
    + intros x lb v H Hv. in_cases H; (rewrite (U _ _ _ _ _ D0 Hv) || rewrite (U _ _ _ _ _ D1 Hv) || rewrite (U _ _ _ _ _ D2 Hv) || rewrite (U _ _ _ _ _ D3 Hv)); apply int_dbl; lia.
    + { intros i q dt (x & y & v & w & X & Y & V & W & -> & ->). assert (G : forall z z' u, z = (u * z')%Z -> (0 < z' < 1000)%Z -> (0 <= u < 1000)%Z -> (0 <= z < 1000)%Z -> is_double (qz z) /\ is_double (qz z') /\ is_double (Qcdiv (qz z) (qz z'))).
      { intros z z' u -> H1 H2 H3. split; [apply int_dbl; lia|]. split; [apply int_dbl; lia|]. replace (Qcdiv (qz (u * z')) (qz z')) with (qz u); [apply int_dbl; lia|]. assert (Zn : qz z' <> q0) by (intros Q; apply (f_equal real) in Q; change q0 with (qz 0) in Q; rewrite !real_qz in Q; apply eq_IZR in Q; lia).
        replace (qz (u * z')) with (Qcmult (qz u) (qz z')); [field; exact Zn|]. apply real_inj. rewrite real_mult, !real_qz, mult_IZR. reflexivity. }
      assert (M : forall a b, Qcminus (qz a) (qz b) = qz (a - b)) by (intros p q; apply real_inj; rewrite real_minus, !real_qz, minus_IZR; reflexivity).
      destruct i as [|[|[|i]]]; cbn [nth_error] in X, Y; [| | |destruct i; discriminate].
      * assert (x = y0) by congruence. assert (y = y1) by congruence. subst x y. rewrite T0, T1, (U _ _ _ _ _ D0 V), (U _ _ _ _ _ D1 W), !M. apply (G 50%Z 10%Z 5%Z); lia.
      * assert (x = y1) by congruence. assert (y = y2) by congruence. subst x y. rewrite T1, T2, (U _ _ _ _ _ D1 V), (U _ _ _ _ _ D2 W), !M. apply (G 450%Z 10%Z 45%Z); lia.
      * assert (x = y2) by congruence. assert (y = y3) by congruence. subst x y. rewrite T2, T3, (U _ _ _ _ _ D2 V), (U _ _ _ _ _ D3 W), !M. apply (G 450%Z 10%Z 45%Z); lia. }
    + intros i q dt q' dt' C1 C2. apply Ch in C1, C2. destruct C1 as [I1 ->], C2 as [I2 ->]. destruct i as [|[|i]]; [| |lia]; cbn [nth].
      * replace (Qcdiv (Qcplus (qz 50) (qz 450)) q2) with (qz 250) by (apply qeqb_eq; vm_compute; reflexivity). apply int_dbl; lia.
      * replace (Qcdiv (Qcplus (qz 450) (qz 450)) q2) with (qz 450) by (apply qeqb_eq; vm_compute; reflexivity). apply int_dbl; lia.
Qed.
