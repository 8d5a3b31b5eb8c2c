(* OpsProofs7.v -- differences and cumulative sums invert each other; integral of the derivative. *)
From Verif Require Import BaseLemmas SeriesProofs SeriesProofs2 SeriesProofs3 SeriesProofs4
  AccessProofs AccessProofs2 DictLemmas AccessProofs3 PropTactics.
From Verif Require Export OpsProofs6.

(* ---------------- resolutions of derived series ---------------- *)
Lemma fresh_slots_res e r x l : fresh e r -> wf_slots (s_items r) -> s_items r = x :: l -> s_res r = Some (RUnit (i_unit x)).
Proof.
  intros Hr Hw E. destruct (ts_new_slots_ok_st e _ Hw) as (s' & Hs' & Hst). unfold fresh in Hr. rewrite Hr in Hs'.
  injection Hs' as <-. destruct Hst as (_ & _ & H). rewrite E in H. apply H.
Qed.
Lemma const_spacing e s : built e s -> all_points (s_items s) -> s_res s <> Some RVar ->
  length (s_items s) < 2 \/ exists d, equally_spaced d (times (s_items s)).
Proof.
  intros (tz & H) Hp Hr. pose proof (ts_new_point_inv _ _ _ _ H Hp) as Hi. unfold point_inv in Hi.
  destruct (s_items s) as [|a [|b l]]; [left; cbn; lia|left; cbn; lia|]. right.
  destruct Hi as (_ & [(d & u & Hd & _)|(_ & Hv)]); [eauto|congruence].
Qed.
Lemma equally_spaced_skipn d k l : equally_spaced d l -> equally_spaced d (skipn k l).
Proof. intros H. apply (equally_spaced_sub d (firstn k l) (skipn k l) []). rewrite app_nil_r, firstn_skipn. exact H. Qed.

Lemma wf_nonempty_kind l x : wf_items l -> In x l -> (is_point x = true -> wf_points l) /\ (is_slot x = true -> wf_slots l).
Proof.
  intros [H|H] Hx; split; intros Hk; auto.
  - pose proof (proj1 H x Hx) as K. rewrite slot_point, K in Hk. discriminate.
  - pose proof (proj1 H x Hx) as K. rewrite point_slot, K in Hk. discriminate.
Qed.

Lemma const_res_sub e s r k : built e s -> wf_items (s_items s) -> s_res s <> Some RVar ->
  fresh e r -> wf_items (s_items r) -> times (s_items r) = skipn k (times (s_items s)) ->
  (forall x y, In x (s_items s) -> In y (s_items r) -> i_cls y = i_cls x) -> k < length (s_items s) ->
  s_res r <> Some RVar.
Proof.
  intros Hs Hw Hres Hr Hwr Ht Hc Hk.
  assert (Hl : length (s_items r) = length (s_items s) - k).
  { apply (f_equal (@length Qc)) in Ht. unfold times in Ht. rewrite skipn_length, !map_length in Ht. exact Ht. }
  destruct (s_items s) as [|x l] eqn:Es; [cbn in Hk; lia|]. destruct (s_items r) as [|y m] eqn:Er; [change (length (@nil item)) with 0 in Hl; lia|].
  assert (Hcl : i_cls y = i_cls x) by (apply Hc; left; reflexivity).
  destruct (is_point x) eqn:Ex.
  - assert (Ey : is_point y = true) by (unfold is_point in *; rewrite Hcl; exact Ex).
    assert (Pr : all_points (y :: m)) by (apply (proj1 (wf_nonempty_kind (y :: m) y Hwr (or_introl eq_refl)) Ey)).
    assert (Ps : all_points (x :: l)) by (apply (proj1 (wf_nonempty_kind (x :: l) x Hw (or_introl eq_refl)) Ex)).
    destruct (const_spacing e s Hs) as [Hshort|(d & Hd)]; [rewrite Es; exact Ps|exact Hres| |].
    + rewrite Es in Hshort. destruct (resolution_points e None (y :: m) r) as [H1 _]; [rewrite <- Er; exact Hr|exact Pr|].
      unfold resolution in H1. rewrite H1; [discriminate|]. cbn [length] in *. lia.
    + rewrite Es in Hd. assert (Hd' : equally_spaced d (times (y :: m))) by (rewrite Ht; apply equally_spaced_skipn, Hd).
      destruct (resolution_points e None (y :: m) r) as [H1 H2]; [rewrite <- Er; exact Hr|exact Pr|].
      destruct (Nat.lt_ge_cases (length (y :: m)) 2) as [Hlt|Hge].
      * unfold resolution in H1. rewrite (H1 Hlt). discriminate.
      * destruct (H2 Hge) as [H3 _]. destruct (H3 d Hd') as (u & _ & Hu). unfold resolution in Hu. rewrite Hu. discriminate.
  - assert (Ey : is_slot y = true) by (rewrite slot_point; unfold is_point in *; rewrite Hcl, Ex; reflexivity).
    rewrite (fresh_slots_res e r y m Hr); [discriminate| |exact Er].
    rewrite Er. apply (proj2 (wf_nonempty_kind (y :: m) y Hwr (or_introl eq_refl)) Ey).
Qed.

(* ---------------- reading computed values ---------------- *)
Lemma values_by_val x y p G lb : numeric_item y -> values_by x y p (fun lb w => w = G lb) -> has_label x lb ->
  valof y (named x p lb) = G lb /\ has_label y (named x p lb).
Proof.
  intros Hy [_ H] Hl. assert (Hv : has_value y (named x p lb) (G lb)) by (apply H; eauto).
  split; [apply valof_spec; assumption|]. exists (G lb). exact Hv.
Qed.
Lemma named_kind x y p lb : is_list y = is_list x -> named y p lb = named x p lb.
Proof. unfold is_list, named. destruct (i_data x) as [[]|], (i_data y) as [[]|]; intros; try discriminate; reflexivity. Qed.
Lemma values_by_compose x y z p q (G : string -> Qc) (H : string -> Qc) :
  values_by x y p (fun lb w => w = G lb) -> values_by y z q (fun lb w => w = H lb) ->
  forall lb' w, has_value z lb' w <-> exists lb, has_label x lb /\ lb' = named x q (named x p lb) /\ w = H (named x p lb).
Proof.
  intros [K1 H1] [K2 H2] lb' w. rewrite (H2 lb' w). split.
  - intros (lb1 & (v & Hv) & -> & ->). apply H1 in Hv. destruct Hv as (lb & Hl & -> & _). exists lb.
    split; [exact Hl|]. rewrite (named_kind x y q) by exact K1. split; reflexivity.
  - intros (lb & Hl & -> & ->). exists (named x p lb). rewrite (named_kind x y q) by exact K1. split; [|split; reflexivity].
    exists (G lb). apply H1. eauto.
Qed.
Lemma same_time_trans x y z : same_time x y -> same_time y z -> same_time x z.
Proof. unfold same_time. intros (A & B & C & D & E) (A' & B' & C' & D' & E'). repeat split; congruence. Qed.

Lemma nth_ex {A} (l : list A) i : i < length l -> exists x, nth_error l i = Some x.
Proof. intros H. destruct (nth_error l i) eqn:E; [eauto|]. apply nth_error_None in E. lia. Qed.

Lemma nval_derived s r k p G i x lb : numeric (s_items r) -> numeric (s_items s) ->
  (forall i x y, nth_error (s_items s) (k + i) = Some x -> nth_error (s_items r) i = Some y ->
      values_by x y p (fun lb w => w = G i lb)) ->
  length (s_items r) = length (s_items s) - k ->
  In x (s_items s) -> has_label x lb -> i < length (s_items r) -> nval (s_items r) i (named x p lb) = G i lb.
Proof.
  intros Hnr Hns H Hlen Hx Hl Hi. destruct (nth_ex (s_items r) i Hi) as [y Hy].
  destruct (nth_ex (s_items s) (k + i)) as [z Hz]; [lia|].
  unfold nval. rewrite Hy. pose proof (H i z y Hz Hy) as HV.
  assert (Hsh : same_item_shape x z) by (apply Hns; [exact Hx|eapply nth_error_In; exact Hz]).
  assert (named x p lb = named z p lb) as ->.
  { apply named_kind. unfold is_list. destruct Hsh as [_ Hsh]. destruct (i_data x) as [[]|], (i_data z) as [[]|]; cbn in Hsh; try contradiction; reflexivity. }
  apply values_by_val; [apply Hnr; eapply nth_error_In; exact Hy|exact HV|]. apply (same_shape_labels _ _ _ Hsh), Hl.
Qed.

Lemma built_hist e s : built e s -> numeric (s_items s) -> from_history e s.
Proof. exact (built_history e s). Qed.

Lemma diff_of_csum e c s : parses_units e -> built e s -> numeric (s_items s) -> wf_items (s_items s) ->
  s_res s <> Some RVar -> 2 <= length (s_items s) ->
  exists r1 r2, op_csum e c s (KNum q0) = Ok r1 /\ op_diff e c r1 = Ok r2 /\
    length (s_items r2) = length (s_items s) - 1 /\
    forall i x y, nth_error (s_items s) (1 + i) = Some x -> nth_error (s_items r2) i = Some y ->
      same_time x y /\ i_idx y = i_idx x /\
      forall lb' w, has_value y lb' w <-> exists lb, lb' = named x "diff" (named x "csum" lb) /\ has_value x lb w.
Proof.
  intros He Hb Hn Hw Hres Hlen.
  destruct (csum_spec e c s He (built_hist e s Hb Hn) Hn Hw Hres) as (r1 & E1 & F1 & N1 & W1 & L1 & T1 & V1).
  assert (R1 : s_res r1 <> Some RVar).
  { apply (const_res_sub e s r1 0); auto; [|lia]. intros x y Hx Hy. apply In_nth_error in Hy. destruct Hy as [i Hy].
    destruct (nth_ex (s_items s) i) as [z Hz]; [rewrite <- L1; eapply nth_error_Some_lt; exact Hy|].
    destruct (V1 i z y Hz Hy) as ((A & _) & _). rewrite A. apply Hn; [eapply nth_error_In; exact Hz|exact Hx]. }
  destruct (diff_spec e c r1 He (fresh_history e r1 F1 N1) N1 W1 R1) as (r2 & E2 & F2 & N2 & W2 & L2 & T2 & V2); [lia|].
  exists r1, r2. split; [exact E1|]. split; [exact E2|]. split; [lia|].
  intros i x y Hx Hy. destruct (nth_ex (s_items r1) (1 + i)) as [m Hm]; [rewrite L1; eapply nth_error_Some_lt; exact Hx|].
  destruct (V1 _ _ _ Hx Hm) as (A1 & B1 & D1). destruct (V2 _ _ _ Hm Hy) as (A2 & B2 & D2).
  split; [eapply same_time_trans; eassumption|]. split; [congruence|].
  assert (Hlt : 1 + i < length (s_items s)) by (eapply nth_error_Some_lt; exact Hx).
  assert (Hin : In x (s_items s)) by (eapply nth_error_In; exact Hx).
  assert (Hval : forall lb, has_label x lb ->
     Qcminus (nval (s_items r1) (1 + i) (named x "csum" lb)) (nval (s_items r1) i (named x "csum" lb)) = nval (s_items s) (1 + i) lb).
  { intros lb Hl.
    rewrite !(nval_derived s r1 0 "csum" (fun i lb => psum (s_items s) (S i) lb)); auto; try lia.
    - rewrite (psum_S (s_items s) (1 + i)) by lia. cbn [Nat.add]. ring.
    - intros j a b Ha Hb'. apply (V1 j a b Ha Hb').
    - intros j a b Ha Hb'. apply (V1 j a b Ha Hb'). }
  intros lb' w.
  rewrite (values_by_compose x m y "csum" "diff" _ (fun lb => Qcminus (nval (s_items r1) (1 + i) lb) (nval (s_items r1) i lb)) D1 D2).
  split.
  - intros (lb & Hl & -> & ->). exists lb. split; [reflexivity|]. rewrite (Hval lb Hl). apply nval_has; [exact Hn|exact Hx|].
    exists x. auto.
  - intros (lb & -> & Hv). exists lb. assert (Hl : has_label x lb) by (exists w; exact Hv).
    split; [exact Hl|]. split; [reflexivity|]. rewrite (Hval lb Hl). eapply nval_value; eassumption.
Qed.

(* sums of differences telescope *)
Lemma psum_diff s r x lb : numeric (s_items s) -> numeric (s_items r) -> length (s_items r) = length (s_items s) - 1 ->
  (forall i x y, nth_error (s_items s) (1 + i) = Some x -> nth_error (s_items r) i = Some y ->
     values_by x y "diff" (fun lb w => w = Qcminus (nval (s_items s) (1 + i) lb) (nval (s_items s) i lb))) ->
  In x (s_items s) -> has_label x lb ->
  forall i, i <= length (s_items r) -> psum (s_items r) i (named x "diff" lb) = Qcminus (nval (s_items s) i lb) (nval (s_items s) 0 lb).
Proof.
  intros Hns Hnr Hlen HV Hx Hl. induction i as [|i IH]; intros Hi.
  - unfold psum. cbn. unfold q0. change (qz 0) with (Q2Qc 0). ring.
  - rewrite psum_S by lia. rewrite IH by lia.
    rewrite (nval_derived s r 1 "diff" (fun i lb => Qcminus (nval (s_items s) (1 + i) lb) (nval (s_items s) i lb))); auto; try lia.
    cbn [Nat.add]. ring.
Qed.

Lemma csum_of_diff e c s k : parses_units e -> built e s -> numeric (s_items s) -> wf_items (s_items s) ->
  s_res s <> Some RVar ->
  forall x0 x1 l0, s_items s = x0 :: x1 :: l0 ->
  (forall lb v, has_value x0 lb v -> gives k x0 (named x0 "diff" lb) v) ->
  (forall r1, op_diff e c s = Ok r1 -> forall y, nth_error (s_items r1) 0 = Some y -> before c r1 y (i_t x0)) ->
  (is_slot x0 = true -> i_end x0 = i_t x1) ->
  exists r1 r2, op_diff e c s = Ok r1 /\ op_csum e c r1 k = Ok r2 /\
    Forall2 (fun x y => i_t y = i_t x /\ i_cls y = i_cls x /\ (is_slot x = true -> i_end y = i_end x) /\
       forall lb' w, has_value y lb' w <-> exists lb, lb' = named x "csum" (named x "diff" lb) /\ has_value x lb w)
      (s_items s) (s_items r2).
Proof.
  intros He Hb Hn Hw Hres x0 x1 l0 El Hg Hbef Hend.
  destruct (diff_spec e c s He (built_hist e s Hb Hn) Hn Hw Hres) as (r1 & E1 & F1 & N1 & W1 & L1 & T1 & V1); [rewrite El; cbn; lia|].
  assert (Hlen : length (s_items s) = 2 + length l0) by (rewrite El; reflexivity).
  destruct (nth_ex (s_items r1) 0) as [y0 Hy0]; [lia|].
  assert (Er : exists m, s_items r1 = y0 :: m) by (destruct (s_items r1); [discriminate|cbn in Hy0; injection Hy0 as ->; eauto]).
  destruct Er as (m & Er).
  assert (Hx1 : nth_error (s_items s) 1 = Some x1) by (rewrite El; reflexivity).
  destruct (V1 0 x1 y0 Hx1 Hy0) as (A0 & B0 & D0).
  assert (Hsh : same_item_shape x0 x1) by (apply Hn; rewrite El; [left|right; left]; reflexivity).
  assert (R1 : s_res r1 <> Some RVar).
  { apply (const_res_sub e s r1 1); auto; [|lia]. intros x y Hx Hy. apply In_nth_error in Hy. destruct Hy as [i Hy].
    destruct (nth_ex (s_items s) (1 + i)) as [z Hz]; [apply nth_error_Some_lt in Hy; lia|].
    destruct (V1 i z y Hz Hy) as ((A & _) & _). rewrite A. apply Hn; [eapply nth_error_In; exact Hz|exact Hx]. }
  assert (Hx0n : numeric_item x0) by (apply Hn; rewrite El; left; reflexivity).
  assert (Hlist : is_list y0 = is_list x0).
  { destruct D0 as [K _]. rewrite K. unfold is_list. destruct Hsh as [_ Hsh].
    destruct (i_data x0) as [[]|], (i_data x1) as [[]|]; cbn in Hsh; try contradiction; reflexivity. }
  assert (Hin0 : In x0 (s_items s)) by (rewrite El; left; reflexivity).
  (* the offset, by label of the differences *)
  set (o := fun lb' => match k with KNum q => q | KDict d => match dget lb' d with Some v => v | None => q0 end end).
  assert (Ho : forall lb v, has_value x0 lb v -> o (named x0 "diff" lb) = v).
  { intros lb v Hv. specialize (Hg lb v Hv). unfold gives in Hg. unfold o. destruct k; [symmetry; apply Hg|rewrite Hg; reflexivity]. }
  assert (Hlt : Qclt (i_t x0) (i_t y0)).
  { destruct A0 as (_ & A & _). rewrite A. apply wf_items_times in Hw. rewrite El in Hw. apply (Hw 0 1); [lia|reflexivity|reflexivity]. }
  destruct (csum_offset_spec e c r1 k (i_t x0) o He (fresh_history e r1 F1 N1) N1 W1 R1 y0 m Er)
    as (r2 & z0 & E2 & F2 & N2 & W2 & Z0 & L2 & C2 & T2 & En2 & V20 & V2).
  - intros lb' (w & Hw'). apply D0 in Hw'. destruct Hw' as (lb & Hl & -> & _).
    apply (same_shape_labels _ _ _ (same_item_shape_sym _ _ Hsh)) in Hl. destruct Hl as (v & Hv).
    assert (named x1 "diff" lb = named x0 "diff" lb) as ->.
    { apply named_kind. destruct D0 as [K _]. congruence. }
    rewrite (Ho lb v Hv). specialize (Hg lb v Hv). unfold gives in *. destruct k as [q|d]; [|exact Hg].
    destruct Hg as (G1 & (d & G2) & G3). split; [exact G1|]. split; [|exact G3].
    unfold is_list in Hlist. rewrite G2 in Hlist. destruct N1 as (_ & N1 & _). specialize (N1 y0 (nth_error_In _ _ Hy0)).
    destruct N1 as [_ N1]. destruct (i_data y0) as [[q'|d']|]; [discriminate|eauto|contradiction].
  - apply (Hbef r1 E1 y0 Hy0).
  - exact Hlt.
  - exists r1, r2. split; [exact E1|]. split; [exact E2|].
    assert (Hpt : is_point y0 = is_point x0).
    { unfold is_point. destruct A0 as (A & _). rewrite A. destruct Hsh as [Hsh _]. rewrite Hsh. reflexivity. }
    apply Forall2_nth; [lia|]. intros [|i] x z Hx Hz.
    + rewrite El in Hx. cbn in Hx. injection Hx as <-. assert (z = z0) as -> by congruence.
      split; [exact T2|]. split; [|split].
      * destruct A0 as (A & _). rewrite C2, A. symmetry. apply Hsh.
      * intros Hsl. rewrite En2, Hpt. rewrite point_slot, Hsl. cbn [negb]. rewrite (Hend Hsl). apply A0.
      * intros lb' w. destruct V20 as [K V20]. rewrite V20. split.
        -- intros (lb1 & (v & Hv) & -> & ->). apply D0 in Hv. destruct Hv as (lb & Hl & -> & _).
           apply (same_shape_labels _ _ _ (same_item_shape_sym _ _ Hsh)) in Hl. destruct Hl as (v' & Hv').
           assert (En : named x1 "diff" lb = named x0 "diff" lb) by (apply named_kind; destruct D0 as [K' _]; congruence).
           exists lb. rewrite En, (named_kind x0 y0 "csum") by exact Hlist. split; [reflexivity|]. rewrite (Ho lb v' Hv'). exact Hv'.
        -- intros (lb & -> & Hv). exists (named x0 "diff" lb). rewrite (named_kind x0 y0 "csum") by exact Hlist.
           split; [|split; [reflexivity|symmetry; apply Ho; exact Hv]].
           eexists. apply D0. exists lb. split; [apply (same_shape_labels _ _ _ Hsh); eexists; exact Hv|].
           split; [apply named_kind; destruct D0 as [K' _]; congruence|reflexivity].
    + destruct (nth_ex (s_items r1) i) as [y Hy]; [apply nth_error_Some_lt in Hx; lia|].
      change (S i) with (1 + i) in Hx. destruct (V1 i x y Hx Hy) as (A & B & D).
      destruct (V2 i y z Hy Hz) as (A' & B' & D').
      pose proof (same_time_trans _ _ _ A A') as (Q1 & Q2' & Q3 & _).
      split; [exact Q2'|]. split; [exact Q1|]. split; [intros _; exact Q3|].
      intros lb' w. rewrite (values_by_compose x y z "diff" "csum" _ _ D D'). 
      assert (Hin : In x (s_items s)) by (eapply nth_error_In; exact Hx).
      assert (Hval : forall lb, has_label x lb ->
         Qcplus (o (named x "diff" lb)) (psum (s_items r1) (S i) (named x "diff" lb)) = nval (s_items s) (1 + i) lb).
      { intros lb Hl. rewrite (psum_diff s r1 x lb); auto.
        - assert (Hl0 : has_label x0 lb) by (apply (same_shape_labels x x0); [apply Hn; assumption|exact Hl]).
          destruct Hl0 as (v0 & Hv0).
          assert (named x "diff" lb = named x0 "diff" lb) as ->.
          { apply named_kind. destruct (proj2 (proj2 Hn) x0 x Hin0 Hin) as [_ Hsx]. unfold is_list.
            destruct (i_data x0) as [[]|], (i_data x) as [[]|]; cbn in Hsx; try contradiction; reflexivity. }
          rewrite (Ho lb v0 Hv0).
          assert (Ev0 : v0 = nval (s_items s) 0 lb) by (apply (nval_value _ 0 x0); [exact Hn|rewrite El; reflexivity|exact Hv0]). rewrite <- Ev0. change (1 + i) with (S i). ring.
        - intros j a b Ha Hb'. apply (V1 j a b Ha Hb').
        - apply nth_error_Some_lt in Hy. lia. }
      split.
      * intros (lb & Hl & -> & ->). exists lb. split; [reflexivity|]. rewrite (Hval lb Hl). apply nval_has; [exact Hn|exact Hx|].
        exists x. auto.
      * intros (lb & -> & Hv). exists lb. assert (Hl : has_label x lb) by (exists w; exact Hv).
        split; [exact Hl|]. split; [reflexivity|]. rewrite (Hval lb Hl). eapply nval_value; eassumption.
Qed.
