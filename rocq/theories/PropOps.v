(* PropOps.v -- property theorems C21-C28 (statistics, differences, sums, derivatives, averages). *)
From Verif Require Import SpecOps BaseLemmas AccessProofs3 OpsProofs OpsProofs2 OpsProofs3 OpsProofs4 OpsProofs5 OpsProofs6 OpsProofs7 OpsProofs8 OpsProofs9 MergeProofs OpsProofs10 Witness PropTactics PropAccess.

(* concrete series for the examples: two labels, five points, 10 seconds apart; and slots *)
Definition two (t a b : Z) : item := ptd t (d2 a b).
Definition duo : list item := [two 0 3 1; two 10 1 4; two 20 4 1; two 30 1 5; two 40 5 9].
Definition mk_s (l : list item) : series := match ts_new ideal_env None l with Ok s => s | Err _ => empty_series None end.
Definition duo_s : series := mk_s duo.
Definition opt_is (o : option Qc) (q : Qc) : bool := match o with Some v => qeqb v q | None => false end.
Ltac in_cases H := repeat (destruct H as [<-|H]); [..|destruct H].
Lemma mk_built l s : ts_new ideal_env None l = Ok s -> s_items s = l -> built ideal_env s.
Proof. intros H <-. exists None. exact H. Qed.
Lemma duo_built : built ideal_env duo_s.
Proof. exists None. vm_compute. reflexivity. Qed.
Lemma duo_numeric : numeric (s_items duo_s).
Proof.
  vm_compute (s_items duo_s). split; [discriminate|split].
  - intros x H. in_cases H; (split; [left; reflexivity|]); cbn; (split; [discriminate|]); repeat constructor; cbn; intuition discriminate.
  - intros x y Hx Hy. in_cases Hx; in_cases Hy; split; try reflexivity; cbn; tauto.
Qed.
Lemma duo_wf : wf_points (s_items duo_s).
Proof.
  vm_compute (s_items duo_s). split; [|split].
  - intros x H. in_cases H; reflexivity.
  - apply sincr_consecutive. intros [|[|[|[|[|[|i]]]]]] a b; cbn; try discriminate;
      intros [= <-] [= <-]; apply qltb_lt; vm_compute; reflexivity.
  - intros x y Hx Hy. in_cases Hx; in_cases Hy; split; try reflexivity; cbn; tauto.
Qed.
Lemma duo_healthy : healthy ideal_env duo_s.
Proof. split; [apply built_history; [exact duo_built|exact duo_numeric]|split; [exact duo_numeric|left; exact duo_wf]]. Qed.
Lemma duo_regular : regular ideal_env duo_s (qz 10).
Proof.
  split; [exact duo_built|split; [exact duo_numeric|split; [apply qltb_lt; vm_compute; reflexivity|left]]].
  split; [exact duo_wf|split; [|split; [|reflexivity]]].
  - vm_compute (s_items duo_s). intros [|[|[|[|[|i]]]]] a b; cbn; try discriminate; intros [= <-] [= <-]; apply qeqb_eq; vm_compute; reflexivity.
  - exists 100000000%Z. apply qeqb_eq; vm_compute; reflexivity.
Qed.
Definition slots_s : series := mk_s slots3.
Lemma slots_numeric : numeric slots3.
Proof.
  split; [discriminate|split].
  - intros x H. in_cases H; (split; [right; reflexivity|]); cbn; (split; [discriminate|]); repeat constructor; cbn; intuition discriminate.
  - intros x y Hx Hy. in_cases Hx; in_cases Hy; split; try reflexivity; cbn; tauto.
Qed.
Lemma slots_regular : regular ideal_env slots_s (qz 10).
Proof.
  assert (E : s_items slots_s = slots3) by (vm_compute; reflexivity).
  split; [exists None; vm_compute; reflexivity|]. rewrite E. split; [exact slots_numeric|split; [apply qltb_lt; vm_compute; reflexivity|right]].
  split; [exact slots3_wf|]. intros x H. in_cases H; (split; [reflexivity|apply qeqb_eq; vm_compute; reflexivity]).
Qed.

(* ===================== C21 ===================== *)

Theorem C21_max : forall e s, from_history e s -> numeric (s_items s) ->
  exists m, op_max s = Ok m /\ by_label (s_items s) m (fun lb o => exists M, o = Some M /\ is_max lb (s_items s) M).
Proof. exact op_max_spec. Qed.
Print Assumptions C21_max.
Theorem C21_min : forall e s, from_history e s -> numeric (s_items s) ->
  exists m, op_min s = Ok m /\ by_label (s_items s) m (fun lb o => exists M, o = Some M /\ is_min lb (s_items s) M).
Proof. exact op_min_spec. Qed.
Print Assumptions C21_min.
Example C21_nonvacuous : from_history ideal_env duo_s /\ numeric (s_items duo_s) /\
  exists m, op_max duo_s = Ok m /\ dget "a" m = Some (Some (qz 5)) /\ dget "b" m = Some (Some (qz 9)).
Proof. split; [apply duo_healthy|split; [apply duo_numeric|]]. eexists. split; [vm_compute; reflexivity|split; vm_compute; reflexivity]. Qed.

(* ===================== C22 ===================== *)

Theorem C22_sum : forall e s, from_history e s -> numeric (s_items s) ->
  exists m, op_sum s = Ok m /\ by_label (s_items s) m (fun lb S => forall vs, column lb (s_items s) vs -> S = total vs).
Proof. exact op_sum_spec. Qed.
Print Assumptions C22_sum.

Lemma column_app lb l m vs ws : column lb l vs -> column lb m ws -> column lb (l ++ m) (vs ++ ws).
Proof. intros H1 H2. apply Forall2_app; assumption. Qed.
(* splitting the series in two parts, wherever *)
Theorem C22_sum_splits : forall e s s1 s2, from_history e s -> from_history e s1 -> from_history e s2 ->
  numeric (s_items s) -> s_items s1 <> [] -> s_items s2 <> [] -> s_items s = s_items s1 ++ s_items s2 ->
  exists m m1 m2, op_sum s = Ok m /\ op_sum s1 = Ok m1 /\ op_sum s2 = Ok m2 /\
    forall lb, label_in (s_items s) lb -> exists a b, dget lb m1 = Some a /\ dget lb m2 = Some b /\ dget lb m = Some (Qcplus a b).
Proof.
  intros e s s1 s2 H H1 H2 N Ne1 Ne2 E.
  assert (N1 : numeric (s_items s1)).
  { destruct N as (_ & A & B). split; [exact Ne1|split]; [intros x Hx; apply A|intros x y Hx Hy; apply B]; rewrite E; apply in_or_app; auto. }
  assert (N2 : numeric (s_items s2)).
  { destruct N as (_ & A & B). split; [exact Ne2|split]; [intros x Hx; apply A|intros x y Hx Hy; apply B]; rewrite E; apply in_or_app; auto. }
  destruct (op_sum_spec e s H N) as (m & M1 & M2 & M3). destruct (op_sum_spec e s1 H1 N1) as (m1 & A1 & A2 & A3).
  destruct (op_sum_spec e s2 H2 N2) as (m2 & B1 & B2 & B3). exists m, m1, m2. split; [exact M1|split; [exact A1|split; [exact B1|]]].
  intros lb Hlb.
  assert (Hl : forall x, In x (s_items s) -> numeric_item x /\ has_label x lb) by (intros x Hx; apply (label_all (s_items s)); assumption).
  assert (L1 : label_in (s_items s1) lb).
  { destruct (s_items s1) as [|x l] eqn:E1; [congruence|]. exists x. split; [left; reflexivity|]. apply Hl. rewrite E. left; reflexivity. }
  assert (L2 : label_in (s_items s2) lb).
  { destruct (s_items s2) as [|x l] eqn:E2; [congruence|]. exists x. split; [left; reflexivity|]. apply Hl. rewrite E. apply in_or_app; right; left; reflexivity. }
  assert (G : forall (d : dict Qc), In lb (map fst d) -> exists v, dget lb d = Some v).
  { induction d as [|[k v] d IH]; cbn; [tauto|]. destruct (String.eqb_spec lb k); [eauto|]. intros [?|?]; [congruence|auto]. }
  destruct (G m1 (proj2 (A2 lb) L1)) as (a & Ha). destruct (G m2 (proj2 (B2 lb) L2)) as (b & Hb). destruct (G m (proj2 (M2 lb) Hlb)) as (v & Hv).
  exists a, b. split; [exact Ha|split; [exact Hb|]]. rewrite Hv. f_equal.
  pose proof (column_map lb (s_items s1)) as C1. pose proof (column_map lb (s_items s2)) as C2.
  specialize (C1 (fun x Hx => proj1 (Hl x ltac:(rewrite E; apply in_or_app; auto))) (fun x Hx => proj2 (Hl x ltac:(rewrite E; apply in_or_app; auto)))).
  specialize (C2 (fun x Hx => proj1 (Hl x ltac:(rewrite E; apply in_or_app; auto))) (fun x Hx => proj2 (Hl x ltac:(rewrite E; apply in_or_app; auto)))).
  rewrite (A3 lb a Ha _ C1), (B3 lb b Hb _ C2), <- total_app. apply (M3 lb v Hv). rewrite E. apply column_app; assumption.
Qed.
Print Assumptions C22_sum_splits.
Example C22_nonvacuous : exists m, op_sum duo_s = Ok m /\ dget "a" m = Some (qz 14) /\ dget "b" m = Some (qz 20) /\
  s_items duo_s = s_items (mk_s (firstn 2 duo)) ++ s_items (mk_s (skipn 2 duo)).
Proof. eexists. split; [vm_compute; reflexivity|split; [vm_compute; reflexivity|split; vm_compute; reflexivity]]. Qed.

(* ===================== C23 ===================== *)

(* some item has no weight: arithmetic mean *)
Theorem C23_avg : forall e s, from_history e s -> numeric (s_items s) -> (forall ws, ~ weights (s_items s) ws) ->
  exists m, op_avg s = Ok m /\
    by_label (s_items s) m (fun lb A => forall vs, column lb (s_items s) vs -> A = mean vs).
Proof. exact op_avg_plain. Qed.
Print Assumptions C23_avg.
(* all the items have a weight: weighted mean *)
Theorem C23_avg_weighted : forall e s ws, from_history e s -> numeric (s_items s) -> weights (s_items s) ws -> total ws <> q0 ->
  exists m, op_avg s = Ok m /\
    by_label (s_items s) m (fun lb A => forall vs, column lb (s_items s) vs -> A = Qcdiv (wtotal vs ws) (total ws)).
Proof. exact op_avg_weighted. Qed.
Print Assumptions C23_avg_weighted.

Lemma between_div m M t w : Qclt q0 t -> Qcle (Qcmult m t) w -> Qcle w (Qcmult M t) -> Qcle m (Qcdiv w t) /\ Qcle (Qcdiv w t) M.
Proof.
  intros Ht H1 H2. assert (Hne : t <> q0) by (intros ->; qlra). assert (E : w = Qcmult (Qcdiv w t) t) by (field; exact Hne).
  rewrite E in H1, H2. split; apply (Qcmult_lt_0_le_reg_r _ _ t Ht); assumption.
Qed.
Lemma wtotal_ones vs : wtotal vs (map (fun _ => q1) vs) = total vs.
Proof.
  unfold wtotal. induction vs as [|v vs IH]; cbn; [reflexivity|]. f_equal; [unfold q1; apply Qcmult_1_r|exact IH].
Qed.
Lemma total_ones {A} (vs : list A) : total (map (fun _ => q1) vs) = qn (length vs).
Proof. induction vs as [|v vs IH]; [reflexivity|]. cbn [map total length]. rewrite IH, qn_S. reflexivity. Qed.
Theorem C23_avg_between_extremes : forall e s, from_history e s -> numeric (s_items s) ->
  (forall ws, weights (s_items s) ws -> (forall w, In w ws -> Qcle q0 w) /\ Qclt q0 (total ws)) ->
  exists m, op_avg s = Ok m /\
    forall lb A, dget lb m = Some A -> forall lo hi, is_min lb (s_items s) lo -> is_max lb (s_items s) hi -> Qcle lo A /\ Qcle A hi.
Proof.
  intros e s H N Hw.
  assert (Bd : forall lb vs lo hi, column lb (s_items s) vs -> is_min lb (s_items s) lo -> is_max lb (s_items s) hi ->
                forall v, In v vs -> Qcle lo v /\ Qcle v hi).
  { intros lb vs lo hi Hc [_ Hlo] [_ Hhi] v Hv. apply In_nth_error in Hv. destruct Hv as [i Hi].
    destruct (Forall2_nth_inv _ _ _ Hc) as [El Hn]. destruct (nth_error (s_items s) i) as [x|] eqn:Ex.
    - specialize (Hn i x v Ex Hi). apply nth_error_In in Ex. eauto.
    - apply nth_error_None in Ex. apply nth_error_Some_lt in Hi. lia. }
  destruct (weighted (s_items s)) eqn:Ew.
  - apply weighted_iff in Ew. destruct Ew as (ws & Ews). destruct (Hw ws Ews) as [Hpos Ht].
    destruct (op_avg_weighted e s ws H N Ews) as (m & M1 & M2 & M3); [intros Z; rewrite Z in Ht; qlra|]. exists m. split; [exact M1|].
    intros lb A HA lo hi Hlo Hhi. assert (Hl : label_in (s_items s) lb).
    { apply M2. clear - HA. induction m as [|[k v] m IH]; cbn in *; [discriminate|]. destruct (String.eqb_spec lb k); [left; congruence|right; auto]. }
    assert (Hc : column lb (s_items s) (map (fun x => valof x lb) (s_items s))).
    { apply column_map; intros x Hx; apply (label_all (s_items s) lb x N Hl Hx). }
    rewrite (M3 lb A HA _ Hc). apply between_div; [exact Ht| |];
      apply (wtotal_bounds _ ws lo hi); try exact Hpos; try (rewrite map_length; apply (Forall2_nth_inv _ _ _ Ews)); apply (Bd lb); assumption.
  - assert (Hno : forall ws, ~ weights (s_items s) ws) by (intros ws Hws; rewrite (proj2 (weighted_iff _) (ex_intro _ ws Hws)) in Ew; discriminate).
    destruct (op_avg_plain e s H N Hno) as (m & M1 & M2 & M3). exists m. split; [exact M1|].
    intros lb A HA lo hi Hlo Hhi. assert (Hl : label_in (s_items s) lb).
    { apply M2. clear - HA. induction m as [|[k v] m IH]; cbn in *; [discriminate|]. destruct (String.eqb_spec lb k); [left; congruence|right; auto]. }
    assert (Hc : column lb (s_items s) (map (fun x => valof x lb) (s_items s))).
    { apply column_map; intros x Hx; apply (label_all (s_items s) lb x N Hl Hx). }
    rewrite (M3 lb A HA _ Hc). set (vs := map (fun x => valof x lb) (s_items s)) in *. rewrite <- (wtotal_ones vs), <- (total_ones vs).
    apply between_div; [rewrite total_ones; apply qn_pos; unfold vs; rewrite map_length; destruct N as (Nn & _); destruct (s_items s); [congruence|cbn; lia]| |];
      apply (wtotal_bounds _ _ lo hi); try (apply (Bd lb); assumption); try (rewrite map_length; reflexivity);
      intros w Hwin; apply in_map_iff in Hwin; destruct Hwin as (_ & <- & _); discriminate.
Qed.
Print Assumptions C23_avg_between_extremes.
Definition with_weight (x : item) (w : Z) : item :=
  mkItem (i_cls x) (i_t x) (i_end x) (i_unit x) (i_tz x) (i_data x) (i_idx x) (Some (qz w)).
Example C23_nonvacuous : exists m, op_avg duo_s = Ok m /\ dget "a" m = Some (qfrac 14 5) /\
  (forall ws, ~ weights (s_items duo_s) ws) /\
  exists m', op_avg (mk_s [with_weight (pt 0 6) 1; with_weight (pt 10 9) 2]) = Ok m' /\ opt_is (dget "value" m') (qz 8) = true.
Proof.
  eexists. split; [vm_compute; reflexivity|split; [vm_compute; reflexivity|split]].
  - intros ws H. vm_compute (s_items duo_s) in H. inversion H as [|x w l l' Hw]. discriminate Hw.
  - eexists. split; vm_compute; reflexivity.
Qed.

(* ===================== C24 ===================== *)

(* diff of csum: the original values from the second item on, for any number of labels; the names
   get the two postfixes *)
Theorem C24_diff_of_csum : forall e c s, parses_units e -> built e s -> numeric (s_items s) -> wf_items (s_items s) ->
  resolution s <> Some RVar -> 2 <= length (s_items s) ->
  exists r1 r2, op_csum e c s (KNum q0) = Ok r1 /\ op_diff e c r1 = Ok r2 /\
    length (s_items r2) = length (s_items s) - 1 /\
    forall i x y, nth_error (s_items s) (1 + i) = Some x -> nth_error (s_items r2) i = Some y ->
      in_place_of x y /\
      forall lb' w, has_value y lb' w <-> exists lb, lb' = named x "diff" (named x "csum" lb) /\ has_value x lb w.
Proof.
  intros e c s H1 H2 H3 H4 H5 H6. destruct (diff_of_csum e c s H1 H2 H3 H4 H5 H6) as (r1 & r2 & A & B & C & D).
  exists r1, r2. split; [exact A|split; [exact B|split; [exact C|]]]. intros i x y Hx Hy. destruct (D i x y Hx Hy) as (D1 & D2 & D3).
  split; [split; assumption|exact D3].
Qed.
Print Assumptions C24_diff_of_csum.

(* csum of diff with the first values as offset: the whole series, at its timestamps.  Missing: two
   points only, a number as offset with list data (see the refutations), an offset of 0. *)
Theorem C24_csum_of_diff_partial : forall e c s d k x0 x1 l0, parses_units e -> regular e s d ->
  s_items s = x0 :: x1 :: l0 -> (is_point x0 = true -> l0 <> []) ->
  (forall lb v, has_value x0 lb v -> offset_gives k x0 (named x0 "diff" lb) v) ->
  exists r1 r2, op_diff e c s = Ok r1 /\ op_csum e c r1 k = Ok r2 /\
    Forall2 (fun x y => i_t y = i_t x /\ i_cls y = i_cls x /\ (is_slot x = true -> i_end y = i_end x) /\
       forall lb' w, has_value y lb' w <-> exists lb, lb' = named x "csum" (named x "diff" lb) /\ has_value x lb w)
      (s_items s) (s_items r2).
Proof.
  intros e c s d k x0 x1 l0 He R E Hp Hk. pose proof (regular_wf e s d R) as W. pose proof (regular_spaced e s d R) as Hsp.
  pose proof (regular_not_var e s d R) as Hv. pose proof R as (B & N & Hd & K).
  apply (csum_of_diff e c s k He B N W Hv x0 x1 l0 E Hk).
  - intros r1 Hr1 y Hy. destruct (diff_spec e c s He (proj1 (regular_healthy e s d R)) N W Hv) as (r & D1 & D2 & D3 & D4 & D5 & D6 & D7); [rewrite E; cbn; lia|].
    rewrite D1 in Hr1. injection Hr1 as <-.
    assert (Rr : regular e r d). { apply (regular_sub e s r d 1 R D2 D3 D4 D6). intros i x z Hx Hz. apply (D7 i x z Hx Hz). }
    assert (Ex1 : same_time x1 y). { destruct (D7 0 x1 y) as [S _]; [rewrite E; reflexivity|exact Hy|exact S]. }
    assert (Et : i_t x0 = Qcminus (i_t y) d).
    { destruct Ex1 as (_ & -> & _). rewrite E in Hsp. specialize (Hsp 0 (i_t x0) (i_t x1) eq_refl eq_refl). rewrite <- Hsp. ring. }
    rewrite Et. destruct (s_items r) as [|y' l'] eqn:Er; [discriminate|]. injection Hy as ->.
    apply (regular_before e c r d y l' Rr Er). intros Hpy. assert (is_point x0 = true).
    { unfold is_point in *. destruct Ex1 as (Ec & _). rewrite Ec in Hpy. destruct N as (_ & _ & Sh).
      destruct (Sh x0 x1) as [Ec' _]; [rewrite E; left; reflexivity|rewrite E; right; left; reflexivity|]. rewrite Ec'. exact Hpy. }
    specialize (Hp H). rewrite E in D5. cbn in D5. intros ->. destruct l0; [congruence|discriminate].
  - intros Hs. destruct K as [(Wp & _)|(Ws & _)].
    + rewrite slot_point in Hs. rewrite (proj1 Wp x0) in Hs; [discriminate|rewrite E; left; reflexivity].
    + destruct Ws as (_ & C & _). symmetry. apply (C 0); rewrite E; reflexivity.
Qed.
Print Assumptions C24_csum_of_diff_partial.

Definition no_cal : cal := mkCal (fun _ _ => Err NotImplementedError) (fun _ t _ => t).
(* two points: the differences have one point only, so no resolution, and the offset cannot be placed *)
Theorem C24_csum_of_diff_refuted : 
  let s := mk_s [pt 0 5; pt 10 7] in
  match resolution s with Some (RUnit (UPhys d)) => qeqb d (qz 10) = true | _ => False end /\
  exists r1, op_diff ideal_env no_cal s = Ok r1 /\ op_csum ideal_env no_cal r1 (KNum (qz 5)) = Err TypeError.
Proof. split; [vm_compute; reflexivity|]. eexists. split; [vm_compute; reflexivity|vm_compute; reflexivity]. Qed.
Print Assumptions C24_csum_of_diff_refuted.
(* a zero offset adds no item: the first item is lost; a number is refused with list data *)
Theorem C24_offset_zero_refuted :
  let s := mk_s [pt 0 0; pt 10 7; pt 20 9] in
  let sl := mk_s [ptd 0 (DList [qz 5]); ptd 10 (DList [qz 7]); ptd 20 (DList [qz 9])] in
  (exists r1 r2, op_diff ideal_env no_cal s = Ok r1 /\ op_csum ideal_env no_cal r1 (KNum q0) = Ok r2 /\ length (s_items r2) = 2) /\
  (exists r1, op_diff ideal_env no_cal sl = Ok r1 /\ op_csum ideal_env no_cal r1 (KNum (qz 5)) = Err TypeError).
Proof. split; [eexists; eexists; split; [vm_compute; reflexivity|split; [vm_compute; reflexivity|vm_compute; reflexivity]]|]. eexists. split; [vm_compute; reflexivity|vm_compute; reflexivity]. Qed.
Print Assumptions C24_offset_zero_refuted.

Example C24_nonvacuous : built ideal_env duo_s /\ wf_items (s_items duo_s) /\ resolution duo_s <> Some RVar /\ regular ideal_env duo_s (qz 10) /\
  (forall lb v, has_value (two 0 3 1) lb v ->
     offset_gives (KDict [("a_diff"%string, qz 3); ("b_diff"%string, qz 1)]) (two 0 3 1) (named (two 0 3 1) "diff" lb) v) /\
  match op_diff ideal_env no_cal duo_s with
  | Ok r1 => match op_csum ideal_env no_cal r1 (KDict [("a_diff"%string, qz 3); ("b_diff"%string, qz 1)]) with
             | Ok r2 => qlist_eqb (map i_t (s_items r2)) (map i_t duo) = true
             | Err _ => False
             end
  | Err _ => False
  end.
Proof.
  split; [exact duo_built|split; [left; exact duo_wf|split; [vm_compute; discriminate|split; [exact duo_regular|split]]]].
  - intros lb v [[= <- <-]|[[= <- <-]|[]]]; reflexivity.
  - vm_compute. reflexivity.
Qed.

(* ===================== C25 ===================== *)

Theorem C25_csum : forall e c s, parses_units e -> healthy e s -> resolution s <> Some RVar ->
  exists r, op_csum e c s (KNum q0) = Ok r /\ healthy e r /\ length (s_items r) = length (s_items s) /\
    forall i x y, nth_error (s_items s) i = Some x -> nth_error (s_items r) i = Some y ->
      in_place_of x y /\
      values_by x y "csum" (fun lb w => forall vs, column lb (firstn (S i) (s_items s)) vs -> w = total vs).
Proof.
  intros e c s He (H & N & W) Hv. destruct (csum_spec e c s He H N W Hv) as (r & R1 & R2 & R3 & R4 & R5 & R6 & R7).
  exists r. split; [exact R1|split; [split; [apply fresh_history; assumption|auto]|split; [exact R5|]]].
  intros i x y Hx Hy. destruct (R7 i x y Hx Hy) as (S1 & S2 & S3). split; [split; assumption|].
  apply (values_by_ext _ _ _ _ _ (fun lb w Hl => iff_sym (psum_column (s_items s) (S i) lb w N (numeric_label_in _ x lb (nth_error_In _ _ Hx) Hl))) S3).
Qed.
Print Assumptions C25_csum.

(* the last value is the sum of the series *)
Theorem C25_last_is_sum : forall e c s, parses_units e -> healthy e s -> resolution s <> Some RVar ->
  exists r m x y, op_csum e c s (KNum q0) = Ok r /\ op_sum s = Ok m /\
    last_item (s_items s) = Some x /\ last_item (s_items r) = Some y /\
    forall lb v, dget lb m = Some v -> has_value y (named x "csum" lb) v.
Proof.
  intros e c s He Hh Hv. destruct (C25_csum e c s He Hh Hv) as (r & R1 & R2 & R3 & R4). destruct Hh as (H & N & W).
  destruct (op_sum_spec e s H N) as (m & M1 & M2 & M3).
  assert (G : forall l : list item, l <> [] -> exists x, last_item l = Some x /\ nth_error l (length l - 1) = Some x).
  { intros l Hl. unfold last_item. destruct l as [|a l _] using rev_ind; [congruence|]. rewrite rev_unit. exists a. split; [reflexivity|].
    rewrite app_length. cbn. rewrite nth_error_app2 by lia. replace (length l + 1 - 1 - length l) with 0 by lia. reflexivity. }
  destruct (G (s_items s)) as (x & X1 & X2); [apply N|]. destruct (G (s_items r)) as (y & Y1 & Y2); [apply R2|].
  exists r, m, x, y. split; [exact R1|split; [exact M1|split; [exact X1|split; [exact Y1|]]]]. intros lb v Hm.
  rewrite R3 in Y2. destruct (R4 _ x y X2 Y2) as (_ & _ & V). apply V.
  assert (Hlb : label_in (s_items s) lb).
  { apply M2. clear - Hm. induction m as [|[k a] m IH]; cbn in *; [discriminate|]. destruct (String.eqb_spec lb k); [left; congruence|right; auto]. }
  exists lb. split; [apply (label_all _ lb x N Hlb (nth_error_In _ _ X2))|]. split; [reflexivity|].
  intros vs Hc. replace (firstn (S (length (s_items s) - 1)) (s_items s)) with (s_items s) in Hc; [apply (M3 lb v Hm vs Hc)|].
  symmetry. apply firstn_all2. lia.
Qed.
Print Assumptions C25_last_is_sum.

(* with an offset: one more item before the first, with the offset; all the values include it *)
Theorem C25_csum_offset : forall e c s d k x0 l0 (o : string -> Qc), parses_units e -> regular e s d ->
  s_items s = x0 :: l0 -> (is_point x0 = true -> l0 <> []) ->
  (forall lb, has_label x0 lb -> offset_gives k x0 lb (o lb)) ->
  exists r y0, op_csum e c s k = Ok r /\ healthy e r /\
    nth_error (s_items r) 0 = Some y0 /\ length (s_items r) = S (length (s_items s)) /\
    i_cls y0 = i_cls x0 /\ i_t y0 = Qcminus (i_t x0) d /\ i_end y0 = (if is_point x0 then i_t y0 else i_t x0) /\
    values_by x0 y0 "csum" (fun lb w => w = o lb) /\
    forall i x y, nth_error (s_items s) i = Some x -> nth_error (s_items r) (S i) = Some y ->
      in_place_of x y /\
      values_by x y "csum" (fun lb w => forall vs, column lb (firstn (S i) (s_items s)) vs -> w = Qcplus (o lb) (total vs)).
Proof.
  intros e c s d k x0 l0 o He R E Hp Ho. pose proof (regular_wf e s d R) as W. pose proof (regular_not_var e s d R) as Hv.
  pose proof (proj1 (regular_healthy e s d R)) as H. pose proof R as (B & N & Hd & _).
  destruct (csum_offset_spec e c s k (Qcminus (i_t x0) d) o He H N W Hv x0 l0 E Ho (regular_before e c s d x0 l0 R E Hp)) as
    (r & y0 & R1 & R2 & R3 & R4 & R5 & R6 & R7 & R8 & R9 & R10 & R11); [qlra|].
  exists r, y0. split; [exact R1|]. split; [split; [apply fresh_history; assumption|auto]|]. split; [exact R5|]. split; [exact R6|]. split; [exact R7|].
  split; [exact R8|]. split; [rewrite R8; exact R9|]. split; [exact R10|].
  intros i x y Hx Hy. destruct (R11 i x y Hx Hy) as (S1 & S2 & S3). split; [split; assumption|].
  refine (values_by_ext _ _ _ _ _ (fun lb w Hl => _) S3).
  pose proof (psum_column (s_items s) (S i) lb (Qcminus w (o lb)) N (numeric_label_in _ x lb (nth_error_In _ _ Hx) Hl)) as P.
  split.
  - intros -> vs Hc. f_equal. assert (Ew : Qcminus (Qcplus (o lb) (psum (s_items s) (S i) lb)) (o lb) = psum (s_items s) (S i) lb) by ring.
    rewrite <- Ew. apply (proj2 P Ew vs Hc).
  - intros Hc. rewrite <- (proj1 P); [ring|]. intros vs Hvs. rewrite (Hc vs Hvs). ring.
Qed.
Print Assumptions C25_csum_offset.
Example C25_nonvacuous : healthy ideal_env duo_s /\ resolution duo_s <> Some RVar /\ regular ideal_env slots_s (qz 10) /\
  match op_csum ideal_env no_cal slots_s (KNum (qz 100)) with
  | Ok r => length (s_items r) = 4 /\ match last_item (s_items r) with Some y => opt_is (match i_data y with Some (DDict d) => dget "value_csum" d | _ => None end) (qz 106) = true | None => False end
  | Err _ => False end.
Proof. split; [exact duo_healthy|split; [vm_compute; discriminate|split; [exact slots_regular|vm_compute; split; reflexivity]]]. Qed.

(* ===================== C26 ===================== *)

Theorem C26_derivative_of_linear : forall e c s d auto (a b : string -> Qc), parses_units e -> regular e s d -> 2 <= length (s_items s) ->
  (forall x lb v, In x (s_items s) -> has_value x lb v -> v = Qcplus (Qcmult (a lb) (i_t x)) (b lb)) ->
  exists r, op_derivative e c s auto = Ok r /\ healthy e r /\ times (s_items r) = times (s_items s) /\
    Forall2 (fun x y => in_place_of x y /\ values_by x y "derivative" (fun lb w => w = a lb)) (s_items s) (s_items r).
Proof.
  intros e c s d auto a b He R Hl Hlin. pose proof (regular_wf e s d R) as W. pose proof (proj1 (regular_healthy e s d R)) as H.
  pose proof (regular_res e s d R Hl) as Hr. pose proof (regular_spaced e s d R) as Hsp. pose proof R as (B & N & Hd & _).
  assert (Hdne : d <> q0) by (intros ->; qlra).
  destruct (derivative_spec e c s (UPhys d) d auto He H N W Hl Hr (fun x _ => eq_refl) Hdne) as (r & R1 & R2 & R3 & R4 & R5 & R6 & R7).
  exists r. split; [exact R1|split; [split; [apply fresh_history; assumption|auto]|split; [exact R6|]]].
  apply Forall2_nth; [symmetry; exact R5|]. intros i x y Hx Hy. destruct (R7 i x y Hx Hy) as (S1 & S2 & S3). split; [split; assumption|].
  refine (values_by_ext _ _ _ _ _ (fun lb w Hlb => _) S3).
  rewrite (slope_linear (s_items s) d lb (a lb) (b lb) Hl Hdne Hsp); [reflexivity| |apply nth_error_Some_lt in Hx; exact Hx].
  intros j z Hz. apply (Hlin z lb); [apply nth_error_In in Hz; exact Hz|]. apply nval_has; [exact N|exact Hz|].
  exists x. split; [apply nth_error_In in Hx; exact Hx|exact Hlb].
Qed.
Print Assumptions C26_derivative_of_linear.
Definition lin3 : list item := [pt 0 5; pt 10 25; pt 20 45; pt 30 65].
Lemma lin3_regular : regular ideal_env (mk_s lin3) (qz 10).
Proof.
  split; [exists None; vm_compute; reflexivity|]. vm_compute (s_items (mk_s lin3)). split; [|split; [apply qltb_lt; vm_compute; reflexivity|left]].
  - split; [discriminate|split].
    + intros x H. in_cases H; (split; [left; reflexivity|]); cbn; (split; [discriminate|]); repeat constructor; cbn; intuition discriminate.
    + intros x y Hx Hy. in_cases Hx; in_cases Hy; split; try reflexivity; cbn; tauto.
  - split; [split; [|split]|split; [|split; [|reflexivity]]].
    + intros x H. in_cases H; reflexivity.
    + apply sincr_consecutive. intros [|[|[|[|[|[|i]]]]]] a b; cbn; try discriminate;
      intros [= <-] [= <-]; apply qltb_lt; vm_compute; reflexivity.
    + intros x y Hx Hy. in_cases Hx; in_cases Hy; split; try reflexivity; cbn; tauto.
    + intros [|[|[|[|[|i]]]]] a b; cbn; try discriminate; intros [= <-] [= <-]; apply qeqb_eq; vm_compute; reflexivity.
    + exists 100000000%Z. apply qeqb_eq; vm_compute; reflexivity.
Qed.
Example C26_nonvacuous : regular ideal_env (mk_s lin3) (qz 10) /\ 2 <= length (s_items (mk_s lin3)) /\
  forall x lb v, In x (s_items (mk_s lin3)) -> has_value x lb v -> v = Qcplus (Qcmult (qz 2) (i_t x)) (qz 5).
Proof.
  split; [exact lin3_regular|split; [cbn; lia|]]. intros x lb v Hx Hv. vm_compute (s_items (mk_s lin3)) in Hx.
  in_cases Hx; cbn in Hv; destruct Hv as [[= <- <-]|[]]; apply qeqb_eq; vm_compute; reflexivity.
Qed.

(* ===================== C27 ===================== *)

(* one label: integrating the derivative with the first value as integration constant restores the
   series.  Missing: more labels (refuted below). *)
Theorem C27_integral_of_derivative_partial : forall e c s d k auto auto' x0 l0 lb v0, parses_units e -> regular e s d ->
  2 <= length (s_items s) -> s_items s = x0 :: l0 ->
  (forall lb', has_label x0 lb' <-> lb' = lb) -> has_value x0 lb v0 -> const_gives k (named x0 "derivative" lb) v0 ->
  exists r1 r2, op_derivative e c s auto = Ok r1 /\ op_integral e c r1 k (KNum q0) auto' = Ok r2 /\
    Forall2 (fun x y => in_place_of x y /\
       forall lb' w, has_value y lb' w <-> exists lb, lb' = named x "integral" (named x "derivative" lb) /\ has_value x lb w)
      (s_items s) (s_items r2).
Proof.
  intros e c s d k auto auto' x0 l0 lb v0 He R Hl E H1 Hv Hk. pose proof (regular_wf e s d R) as W.
  pose proof (regular_res e s d R Hl) as Hr. pose proof R as (B & N & Hd & _). assert (Hdne : d <> q0) by (intros ->; qlra).
  destruct (integral_of_derivative e c s (UPhys d) d k auto auto' He B N W Hl Hr (fun x _ => eq_refl) Hdne x0 l0 lb v0 E H1 Hv) as (r1 & r2 & A1 & A2 & A3).
  - intros v. unfold add_konst, const_gives in *. destruct k; [subst; reflexivity|rewrite Hk; reflexivity].
  - exists r1, r2. split; [exact A1|split; [exact A2|]]. revert A3. apply Forall2_impl. intros x y _ (B1 & B2 & B3). split; [split; assumption|exact B3].
Qed.
Print Assumptions C27_integral_of_derivative_partial.

(* two labels: the running component is shared among the labels, the second label is not restored *)
Theorem C27_two_labels_refuted :
  exists r1 r2 y, op_derivative ideal_env no_cal duo_s (Err ValueError) = Ok r1 /\
    op_integral ideal_env no_cal r1 (KDict [("a_derivative"%string, qz 3); ("b_derivative"%string, qz 1)]) (KNum q0) (Err ValueError) = Ok r2 /\
    nth_error (s_items r2) 1 = Some y /\ ~ has_value y "b_derivative_integral" (qz 4).
Proof.
  eexists. eexists. eexists. split; [vm_compute; reflexivity|split; [vm_compute; reflexivity|split; [vm_compute; reflexivity|]]].
  intros [H|[H|[]]]; [discriminate H|]. injection H as H. discriminate H.
Qed.
Print Assumptions C27_two_labels_refuted.
Example C27_nonvacuous : let s := mk_s lin3 in regular ideal_env s (qz 10) /\
  (forall lb', has_label (pt 0 5) lb' <-> lb' = "value"%string) /\ has_value (pt 0 5) "value" (qz 5) /\ const_gives (KNum (qz 5)) "value_derivative" (qz 5).
Proof.
  split; [exact lin3_regular|split; [|split; [left; reflexivity|reflexivity]]]. intros lb'. split.
  - intros (v & [[= <- _]|[]]). reflexivity.
  - intros ->. exists (qz 5). left; reflexivity.
Qed.

(* ===================== C28 ===================== *)

Theorem C28_moving_average : forall e s w, parses_units e -> healthy e s -> 1 <= w <= length (s_items s) ->
  exists r, op_mavg e s (Z.of_nat w) = Ok r /\ healthy e r /\ length (s_items r) = length (s_items s) - w + 1 /\
    forall i x y, nth_error (s_items s) (w - 1 + i) = Some x -> nth_error (s_items r) i = Some y ->
      same_time x y /\
      values_by x y ("mavg_" ++ nat_str w) (fun lb v => forall vs, column lb (firstn w (skipn i (s_items s))) vs -> v = mean vs).
Proof.
  intros e s w He (H & N & W) Hw. destruct (mavg_spec e s w He H N W Hw) as (r & R1 & R2 & R3 & R4 & R5 & R6 & R7).
  exists r. split; [exact R1|split; [split; [apply fresh_history; assumption|auto]|split; [lia|]]].
  intros i x y Hx Hy. destruct (R7 i x y Hx Hy) as (S1 & S2 & S3). split; [exact S1|].
  refine (values_by_ext _ _ _ _ _ (fun lb v Hlb => _) S3).
  assert (Hlt : w - 1 + i < length (s_items s)) by (apply nth_error_Some_lt in Hx; exact Hx).
  unfold window_total. rewrite map_nval_window by lia. unfold mean.
  assert (Hlin : label_in (s_items s) lb) by (exists x; split; [apply nth_error_In in Hx; exact Hx|exact Hlb]).
  assert (Hall : forall z, In z (firstn w (skipn i (s_items s))) -> In z (s_items s)) by (intros z Hz; apply In_firstn, In_skipn in Hz; exact Hz).
  assert (Hc : column lb (firstn w (skipn i (s_items s))) (map (fun x => valof x lb) (firstn w (skipn i (s_items s))))).
  { apply column_map; intros z Hz; apply (label_all _ lb z N Hlin (Hall z Hz)). }
  assert (Len : length (firstn w (skipn i (s_items s))) = w) by (rewrite firstn_length, skipn_length; lia).
  split.
  - intros -> vs Hvs. rewrite (column_fun lb _ vs (fun z Hz => proj1 (label_all _ lb z N Hlin (Hall z Hz))) Hvs), map_length, Len. reflexivity.
  - intros Hm. rewrite (Hm _ Hc), map_length, Len. reflexivity.
Qed.
Print Assumptions C28_moving_average.
Example C28_nonvacuous : healthy ideal_env duo_s /\ match op_mavg ideal_env duo_s 2 with Ok r => length (s_items r) = 4 | Err _ => False end.
Proof. split; [exact duo_healthy|vm_compute; reflexivity]. Qed.
