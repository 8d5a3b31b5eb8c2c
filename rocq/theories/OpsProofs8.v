(* OpsProofs8.v -- the integral of the derivative (one label, constant resolution). *)
From Verif Require Import BaseLemmas SeriesProofs SeriesProofs2 SeriesProofs3 SeriesProofs4
  AccessProofs AccessProofs2 DictLemmas AccessProofs3 PropTactics.
From Verif Require Export OpsProofs7.

(* the running "left component" and its sum *)
Fixpoint lcomp (y : nat -> Qc) (i : nat) : Qc :=
  match i with 0 => y 0 | S j => Qcminus (Qcmult (y j) q2) (lcomp y j) end.
Fixpoint lsum (y : nat -> Qc) (i : nat) : Qc :=
  match i with 0 => q0 | S j => Qcplus (lsum y j) (lcomp y (S j)) end.

Definition int_inv (k : konst) (lb : string) (c d : Qc) (y : nat -> Qc) (i : nat) (st : int_state) : Prop :=
  match i with
  | 0 => dget lb (it_last st) = None /\ (forall v, add_konst v k lb = Ok (Qcplus v c))
  | S j => dget lb (it_last st) = Some (Qcplus c (Qcmult d (lsum y j))) /\ it_prc st = Some (lcomp y j)
  end.

Lemma int_items_integral first lb d k c l : numeric_item first -> item_labels first = [lb] ->
  (forall i, i < length l -> val l i lb = Ok (nval l i lb)) ->
  forall rest i st, length l = i + length rest -> int_inv k lb c d (fun i => nval l i lb) i st ->
  int_items first [lb] true false d k l i st rest =
  Ok (rebuilt_list first (postfix "integral") (fun i _ lb => Qcplus c (Qcmult d (lsum (fun i => nval l i lb) i))) i_idx i rest).
Proof.
  intros Hf El Hv. induction rest as [|x rest IH]; intros i st Hlen Hst; cbn [int_items].
  - reflexivity.
  - cbn [length] in Hlen.
    set (w := Qcplus c (Qcmult d (lsum (fun i => nval l i lb) i))).
    assert (E : exists st', int_labels true false d k l i st [lb] = Ok (st', [w]) /\
                int_inv k lb c d (fun i => nval l i lb) (S i) st').
    { cbn [int_labels]. unfold int_label. destruct i as [|j].
      - destruct Hst as [H1 H2]. cbn [Nat.eqb]. rewrite Hv by lia. cbn [bind]. rewrite H1, H2. cbn [bind fst snd].
        eexists. split; [f_equal; f_equal; f_equal; unfold w; cbn [lsum]; qlra|].
        cbn [int_inv it_last it_prc]. rewrite dget_dset, String.eqb_refl. split; [f_equal; cbn [lsum]; qlra|reflexivity].
      - destruct Hst as [H1 H2]. cbn [Nat.eqb Nat.sub]. rewrite Nat.sub_0_r. rewrite Hv by lia. cbn [bind]. rewrite H2. cbn [bind].
        rewrite H1. cbn [bind fst snd].
        eexists. split; [f_equal; f_equal; f_equal; unfold w; cbn [lsum lcomp]; ring|].
        cbn [int_inv it_last it_prc]. rewrite dget_dset, String.eqb_refl. split; [f_equal; cbn [lsum lcomp]; ring|reflexivity]. }
    destruct E as (st' & E & Hst'). rewrite E. cbn [bind fst snd]. rewrite IH with (i := S i); [|lia|exact Hst'].
    cbn [bind]. unfold rebuilt_list. cbn [length seq combine map fst snd]. do 3 f_equal.
    unfold newdata. rewrite El. reflexivity.
Qed.

Lemma integral_one_label e c s u d k k0 lb auto : parses_units e -> from_history e s -> numeric (s_items s) -> wf_items (s_items s) ->
  s_res s = Some (RUnit u) -> (forall x, In x (s_items s) -> unit_seconds c u (i_t x) = Ok d) ->
  (forall x, In x (s_items s) -> item_labels x = [lb]) -> (forall v, add_konst v k lb = Ok (Qcplus v k0)) ->
  exists r, op_integral e c s k (KNum q0) auto = Ok r /\
    fresh e r /\ numeric (s_items r) /\ wf_items (s_items r) /\ length (s_items r) = length (s_items s) /\
    times (s_items r) = times (s_items s) /\
    forall i x y, nth_error (s_items s) i = Some x -> nth_error (s_items r) i = Some y ->
      same_time x y /\ i_idx y = i_idx x /\
      values_by x y "integral" (fun lb w => w = Qcplus k0 (Qcmult d (lsum (fun i => nval (s_items s) i lb) i))).
Proof.
  intros He Hh Hn Hw Hres Hd Hlb Hk. destruct (prep_ok e s Hh Hn) as (x & l & El & Hp).
  assert (Hx : In x (s_items s)) by (rewrite El; left; reflexivity).
  destruct (positional_series e s "integral" (fun i lb => Qcplus k0 (Qcmult d (lsum (fun i => nval (s_items s) i lb) i))) i_idx 0 He Hn Hw x l El)
    as (r & Hr & H1 & H2 & H3 & H4 & H5 & H6); [rewrite El; cbn; lia|].
  exists r. split; [|split; [exact H1|split; [exact H2|split; [exact H3|split; [lia|split; [exact H5|exact H6]]]]]].
  unfold op_integral, op_integral_gen. rewrite Hp. cbn [bind fst snd]. unfold op_interval. rewrite Hres, (Hd x Hx). cbn [bind fst snd konst_truthy].
  rewrite qeqb_refl. cbn [negb bind app]. rewrite (Hlb x Hx).
  rewrite (int_items_integral x lb d k k0 (s_items s)); [exact Hr|apply Hn, Hx|apply Hlb, Hx| |reflexivity|].
  - intros i Hi. apply val_ok; [exact Hn| |exact Hi]. eapply label_first; [exact Hn|exact El|]. rewrite (Hlb x Hx). left; reflexivity.
  - cbn [int_inv it_last dget]. split; [reflexivity|exact Hk].
Qed.

(* the left components of the slopes are the forward slopes *)
Lemma lcomp_slopes l d lb : d <> q0 -> 2 <= length l -> forall i, i < length l ->
  lcomp (fun i => slope_at l d i lb) i =
  match i with 0 => Qcdiv (Qcminus (nval l 1 lb) (nval l 0 lb)) d | S j => Qcdiv (Qcminus (nval l (S j) lb) (nval l j lb)) d end.
Proof.
  intros Hd Hlen. induction i as [|j IH]; intros Hi; [reflexivity|].
  cbn [lcomp]. rewrite IH by lia. destruct j as [|j].
  - unfold slope_at. cbn [Nat.eqb]. replace (Qcmult (Qcdiv (Qcminus (nval l 1 lb) (nval l 0 lb)) d) q2) with (Qcplus (Qcdiv (Qcminus (nval l 1 lb) (nval l 0 lb)) d) (Qcdiv (Qcminus (nval l 1 lb) (nval l 0 lb)) d)) by qlra. ring.
  - unfold slope_at. destruct (Nat.eqb_spec (S j) 0); [lia|]. destruct (Nat.eqb_spec (S j) (length l - 1)); [lia|].
    rewrite Nat.add_1_r. cbn [Nat.sub]. rewrite Nat.sub_0_r.
    field. split; [exact Hd|exact q2_neq_q0].
Qed.
Lemma lsum_slopes l d lb : d <> q0 -> 2 <= length l -> forall i, i < length l ->
  Qcmult d (lsum (fun i => slope_at l d i lb) i) = Qcminus (nval l i lb) (nval l 0 lb).
Proof.
  intros Hd Hlen. induction i as [|j IH]; intros Hi.
  - cbn [lsum]. change q0 with (Q2Qc 0). ring.
  - cbn [lsum]. rewrite Qcmult_plus_distr_r, IH by lia. rewrite lcomp_slopes by assumption. field. exact Hd.
Qed.

Lemma lsum_ext y z i : (forall j, j <= i -> y j = z j) -> lsum y i = lsum z i.
Proof.
  intros H. assert (L : forall j, j <= i -> lcomp y j = lcomp z j).
  { induction j as [|j IH]; intros Hj; cbn; [apply H; lia|]. rewrite H, IH by lia. reflexivity. }
  induction i as [|i IH]; cbn [lsum]; [reflexivity|]. rewrite IH, (L (S i)); auto.
Qed.

Lemma ts_new_slots_res' e tz l s : ts_new e tz l = Ok s -> all_slots l -> (forall x y, In x l -> In y l -> i_unit x = i_unit y) ->
  forall x l', l = x :: l' -> s_res s = Some (RUnit (i_unit x)).
Proof.
  revert s. induction l as [|x l IH] using rev_ind; intros s Hs Ha Hu y l' E; [discriminate|].
  unfold ts_new in Hs. fold (append_or_raise e) in Hs. rewrite foldM_app in Hs. cbn in Hs.
  destruct (foldM _ l _) as [s1|] eqn:E1; [|discriminate]. cbn in Hs.
  destruct (append_or_raise e s1 x) as [s2|] eqn:E2; [|discriminate]. cbn in Hs. injection Hs as ->.
  apply append_or_raise_ok in E2.
  assert (Hx : is_slot x = true) by (apply Ha, in_or_app; right; left; reflexivity).
  unfold ts_append in E2. rewrite point_slot, Hx in E2. cbn in E2. unfold append_slot in E2.
  destruct (match series_tz s1 with None => _ | Some _ => _ end) as [sa ra] eqn:Ea.
  assert (Hra : s_res sa = s_res s1).
  { destruct (series_tz s1); [destruct (s_tz s1); [destruct (String.eqb _ _)|]|]; injection Ea as <- <-; reflexivity. }
  destruct ra as [[]|]; [|discriminate]. destruct (check_unit e sa x) as [sb rb] eqn:Eb.
  destruct rb as [[]|]; [|discriminate]. destruct (series_append_fields _ _ _ _ E2) as (Hf & _). rewrite Hf. clear E2 Hf.
  unfold check_unit in Eb. rewrite Hra in Eb.
  destruct l as [|a l].
  - cbn in E1. injection E1 as <-. cbn in Eb, E. injection Eb as <-. injection E as <- <-. reflexivity.
  - cbn in E. injection E as <- <-.
    assert (Hres : s_res s1 = Some (RUnit (i_unit a))).
    { eapply (IH s1 E1); [| |reflexivity].
      - intros z Hz. apply Ha, in_or_app. left; exact Hz.
      - intros z w Hz Hw. apply Hu; apply in_or_app; left; assumption. }
    rewrite Hres in Eb. rewrite (Hu x a), tunit_eqb_refl in Eb; [injection Eb as <-; congruence|apply in_or_app; right; left; reflexivity|left; reflexivity].
Qed.
Lemma built_slots_res e s x l : built e s -> wf_slots (s_items s) -> s_items s = x :: l -> s_res s = Some (RUnit (i_unit x)).
Proof.
  intros (tz & Hs) (H1 & _ & _ & H4) E. apply (ts_new_slots_res' e tz (s_items s) s Hs H1) with (l' := l); [|exact E].
  intros a b Ha Hb. apply H4; assumption.
Qed.

(* items at the same times: the same resolution *)
Lemma same_res e s r : built e s -> built e r -> wf_items (s_items s) -> wf_items (s_items r) ->
  Forall2 same_time (s_items s) (s_items r) -> s_res r = s_res s.
Proof.
  intros Hs Hr Ws Wr HF. inversion HF as [E1 E2|x y l m Hxy HF' E1 E2].
  - destruct Hs as (tz & Hs), Hr as (tz' & Hr). rewrite <- E1 in Hs. rewrite <- E2 in Hr. cbn in Hs, Hr. injection Hs as <-. injection Hr as <-. reflexivity.
  - assert (Et : times (s_items r) = times (s_items s)).
    { unfold times. rewrite <- E1, <- E2 in HF. rewrite <- E1, <- E2. clear - HF. induction HF as [|a b l1 m1 H HF IH]; [reflexivity|].
      cbn. f_equal; [apply H|exact IH]. }
    assert (Hc : i_cls y = i_cls x) by apply Hxy.
    destruct (is_point x) eqn:Ex.
    + assert (Ps : all_points (s_items s)).
      { apply (proj1 (wf_nonempty_kind (s_items s) x Ws ltac:(rewrite <- E1; left; reflexivity)) Ex). }
      assert (Pr : all_points (s_items r)).
      { apply (proj1 (wf_nonempty_kind (s_items r) y Wr ltac:(rewrite <- E2; left; reflexivity))). unfold is_point in *. rewrite Hc. exact Ex. }
      destruct Hs as (tz & Hs), Hr as (tz' & Hr).
      destruct (resolution_points _ _ _ _ Hs Ps) as [A1 A2]. destruct (resolution_points _ _ _ _ Hr Pr) as [B1 B2]. unfold resolution in *.
      assert (El : length (s_items r) = length (s_items s)) by (rewrite <- (map_length i_t (s_items r)), <- (map_length i_t (s_items s)); unfold times in Et; rewrite Et; reflexivity).
      destruct (Nat.lt_ge_cases (length (s_items s)) 2) as [Hlt|Hge]; [rewrite A1, B1 by lia; reflexivity|].
      destruct (A2 Hge) as [A3 A4]. destruct (B2 ltac:(lia)) as [B3 B4]. rewrite Et in *.
      pose proof (ts_new_point_inv _ _ _ _ Hs Ps) as Hi. unfold point_inv in Hi.
      assert (Hdec : (exists d, equally_spaced d (times (s_items s))) \/ (forall d, ~ equally_spaced d (times (s_items s)))).
      { destruct (s_items s) as [|a [|b l0]]; [cbn in Hge; lia|cbn in Hge; lia|].
        destruct Hi as (_ & [(d & u & Hd & _)|(Hv & _)]); [left; eauto|right; exact Hv]. }
      destruct Hdec as [(d & Hd)|Hv].
      * destruct (A3 d Hd) as (u & U1 & U2). destruct (B3 d Hd) as (u' & U1' & U2'). congruence.
      * rewrite (A4 Hv), (B4 Hv). reflexivity.
    + assert (Sx : is_slot x = true) by (rewrite slot_point, Ex; reflexivity).
      assert (Sy : is_slot y = true) by (rewrite slot_point in *; unfold is_point in *; rewrite Hc; exact Sx).
      rewrite (built_slots_res e s x l Hs); [|apply (proj2 (wf_nonempty_kind (s_items s) x Ws ltac:(rewrite <- E1; left; reflexivity)) Sx)|auto].
      rewrite (built_slots_res e r y m Hr); [|apply (proj2 (wf_nonempty_kind (s_items r) y Wr ltac:(rewrite <- E2; left; reflexivity)) Sy)|auto].
      do 2 f_equal. apply Hxy.
Qed.

Lemma item_labels_one x lb : numeric_item x -> (forall lb', has_label x lb' <-> lb' = lb) -> item_labels x = [lb].
Proof.
  intros Hx H. pose proof (item_labels_NoDup x Hx) as Hnd.
  assert (HI : forall l, In l (item_labels x) <-> l = lb) by (intros l; rewrite item_labels_In; apply H).
  destruct (item_labels x) as [|a [|b l]].
  - destruct (proj2 (HI lb) eq_refl).
  - f_equal. apply HI. left; reflexivity.
  - exfalso. inversion Hnd as [|? ? N _]; subst. apply N. left. transitivity lb; [|symmetry]; apply HI; [right; left|left]; reflexivity.
Qed.

Lemma integral_of_derivative e c s u d k auto auto' : parses_units e -> built e s -> numeric (s_items s) -> wf_items (s_items s) ->
  2 <= length (s_items s) -> s_res s = Some (RUnit u) -> (forall x, In x (s_items s) -> unit_seconds c u (i_t x) = Ok d) -> d <> q0 ->
  forall x0 l0 lb v0, s_items s = x0 :: l0 -> (forall lb', has_label x0 lb' <-> lb' = lb) -> has_value x0 lb v0 ->
  (forall v, add_konst v k (named x0 "derivative" lb) = Ok (Qcplus v v0)) ->
  exists r1 r2, op_derivative e c s auto = Ok r1 /\ op_integral e c r1 k (KNum q0) auto' = Ok r2 /\
    Forall2 (fun x y => same_time x y /\ i_idx y = i_idx x /\
       forall lb' w, has_value y lb' w <-> exists lb, lb' = named x "integral" (named x "derivative" lb) /\ has_value x lb w)
      (s_items s) (s_items r2).
Proof.
  intros He Hb Hn Hw Hlen Hres Hd Hd0 x0 l0 lb v0 El Hone Hv0 Hk.
  destruct (derivative_spec e c s u d auto He (built_hist e s Hb Hn) Hn Hw Hlen Hres Hd Hd0) as (r1 & E1 & F1 & N1 & W1 & L1 & T1 & V1).
  assert (Hx0 : In x0 (s_items s)) by (rewrite El; left; reflexivity).
  assert (HF1 : Forall2 same_time (s_items s) (s_items r1)).
  { apply Forall2_nth; [lia|]. intros i x y Hx Hy. apply (V1 i x y Hx Hy). }
  assert (R1 : s_res r1 = Some (RUnit u)) by (rewrite (same_res e s r1); auto; exists None; exact F1).
  assert (Hk1 : forall x y i, nth_error (s_items s) i = Some x -> nth_error (s_items r1) i = Some y -> named x "derivative" lb = named x0 "derivative" lb).
  { intros x y i Hx _. apply named_kind. apply nth_error_In in Hx. destruct (proj2 (proj2 Hn) x x0 Hx Hx0) as [_ Hs]. unfold is_list.
    destruct (i_data x0) as [[]|], (i_data x) as [[]|]; cbn in Hs; try contradiction; reflexivity. }
  assert (Hone' : forall x, In x (s_items s) -> forall lb', has_label x lb' <-> lb' = lb).
  { intros x Hx lb'. rewrite <- Hone. apply same_shape_labels. apply Hn; assumption. }
  destruct (integral_one_label e c r1 u d k v0 (named x0 "derivative" lb) auto' He (fresh_history e r1 F1 N1) N1 W1 R1)
    as (r2 & E2 & F2 & N2 & W2 & L2 & T2 & V2).
  - intros y Hy. destruct (Forall2_In_l _ _ _ _ HF1 Hy) as (x & Hx & (_ & A & _)). rewrite A. apply Hd, Hx.
  - intros y Hy. apply item_labels_one; [apply N1, Hy|]. apply In_nth_error in Hy. destruct Hy as [i Hy].
    destruct (nth_ex (s_items s) i) as [x Hx]; [rewrite <- L1; eapply nth_error_Some_lt; exact Hy|].
    destruct (V1 i x y Hx Hy) as (_ & _ & (_ & D)). intros lb'. rewrite <- (Hk1 x y i Hx Hy). split.
    + intros (w & Hw'). apply D in Hw'. destruct Hw' as (lb1 & H1 & -> & _). apply (Hone' x (nth_error_In _ _ Hx)) in H1. subst. reflexivity.
    + intros ->. eexists. apply D. exists lb. split; [apply (Hone' x (nth_error_In _ _ Hx)); reflexivity|split; reflexivity].
  - exact Hk.
  - exists r1, r2. split; [exact E1|]. split; [exact E2|]. apply Forall2_nth; [lia|]. intros i x z Hx Hz.
    destruct (nth_ex (s_items r1) i) as [y Hy]; [rewrite L1; eapply nth_error_Some_lt; exact Hx|].
    destruct (V1 i x y Hx Hy) as (A1 & B1 & D1). destruct (V2 i y z Hy Hz) as (A2 & B2 & D2).
    split; [eapply same_time_trans; eassumption|]. split; [congruence|].
    intros lb' w. rewrite (values_by_compose x y z "derivative" "integral" _ _ D1 D2).
    assert (Hi : i < length (s_items s)) by (eapply nth_error_Some_lt; exact Hx).
    assert (Hin : In x (s_items s)) by (eapply nth_error_In; exact Hx).
    assert (Hval : forall lb1, has_label x lb1 ->
      Qcplus v0 (Qcmult d (lsum (fun i => nval (s_items r1) i (named x "derivative" lb1)) i)) = nval (s_items s) i lb1).
    { intros lb1 Hl. rewrite (lsum_ext _ (fun i => slope_at (s_items s) d i lb1)).
      - rewrite lsum_slopes by assumption. apply (Hone' x Hin) in Hl. subst lb1.
        rewrite <- (nval_value (s_items s) 0 x0 lb Hn ltac:(rewrite El; reflexivity) v0 Hv0). ring.
      - intros j Hj. apply (nval_derived s r1 0 "derivative" (fun i lb => slope_at (s_items s) d i lb)); auto; try lia.
        intros j' a b Ha Hb'. apply (V1 j' a b Ha Hb'). }
    split.
    + intros (lb1 & Hl & -> & ->). exists lb1. split; [reflexivity|]. rewrite (Hval lb1 Hl). apply nval_has; [exact Hn|exact Hx|].
      exists x. auto.
    + intros (lb1 & -> & Hv). exists lb1. assert (Hl : has_label x lb1) by (exists w; exact Hv).
      split; [exact Hl|]. split; [reflexivity|]. rewrite (Hval lb1 Hl). eapply nval_value; eassumption.
Qed.
