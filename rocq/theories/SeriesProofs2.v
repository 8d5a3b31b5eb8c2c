(* SeriesProofs2.v -- units, timezones, data shapes, resolution, copies. *)
From Verif Require Export SeriesProofs.

(* ---------------- slots: unit and timezone ---------------- *)

Definition unit_compat (e : env) (u v : tunit) : Prop :=
  tunit_eqb u v = true \/ unit_close e u v = Ok true.

Lemma tunit_eqb_spec a b : reflect (a = b) (tunit_eqb a b).
Proof.
  destruct a as [x|x], b as [y|y]; simpl; try (constructor; congruence).
  - destruct (qeqb_spec x y); constructor; congruence.
  - destruct (String.eqb_spec x y); constructor; congruence.
Qed.

Definition slot_inv (e : env) (s : series) : Prop :=
  match s_items s with
  | [] => s_res s = None /\ s_res_s s = None /\ s_prev_t s = None
  | first :: _ =>
    if is_slot first then
      s_tz s = Some (i_tz first) /\ s_res s = Some (RUnit (i_unit first)) /\ s_res_s s = None /\
      (forall x, In x (s_items s) -> i_tz x = i_tz first /\ unit_compat e (i_unit first) (i_unit x))
    else True
  end.

Lemma series_append_fields s it s' r : series_append s it = (s', r) ->
  s_res s' = s_res s /\ s_res_s s' = s_res_s s /\ s_tz s' = s_tz s /\ s_prev_t s' = s_prev_t s.
Proof.
  unfold series_append. intros H.
  destruct (last_item (s_items s)) as [last|]; [destruct (item_type s) as [C|]|];
    try (injection H as <- <-; auto).
  destruct (negb (cls_isinstance (i_cls it) C)); [injection H as <- <-; auto|].
  destruct (negb (follows it last)); [injection H as <- <-; auto|].
  destruct (s_ref s) as [[ref|]|]; try (injection H as <- <-; auto).
  destruct (data_truthy ref); [|injection H as <- <-; auto].
  destruct (check_ref ref it); injection H as <- <-; auto.
Qed.

Lemma tunit_eqb_refl u : tunit_eqb u u = true.
Proof. destruct (tunit_eqb_spec u u); congruence. Qed.

Lemma point_slot x : is_point x = negb (is_slot x).
Proof. unfold is_slot, is_point, cls_is_slot. rewrite negb_involutive. reflexivity. Qed.
Lemma slot_point x : is_slot x = negb (is_point x).
Proof. reflexivity. Qed.

Lemma append_slot_inv e s it :
  (forall u v, unit_close e u v <> Err AttributeError) ->
  ord_inv (s_items s) -> slot_inv e s -> slot_inv e (fst (ts_append e s it)).
Proof.
  intros Hclose Hord Hinv. unfold slot_inv in Hinv.
  destruct (s_items s) as [|a l] eqn:El.
  - destruct Hinv as (Hr & Hrs & Hp).
    unfold ts_append. destruct (is_point it) eqn:Ek.
    + unfold append_point. rewrite Hp. unfold series_append, last_item. cbn [s_items set_prev]. rewrite El.
      cbn. unfold slot_inv. cbn. rewrite slot_point, Ek. exact I.
    + unfold append_slot.
      assert (Hgo : forall s1, s_items s1 = [] -> s_res s1 = None -> s_res_s s1 = None -> s_tz s1 = Some (i_tz it) ->
        slot_inv e (fst (let '(s2, r2) := check_unit e s1 it in
                         match r2 with Ok _ => series_append s2 it | Err x => (s2, Err x) end))).
      { intros s1 E1 E2 E3 E4. unfold check_unit. rewrite E2. unfold series_append, last_item. cbn [s_items set_res].
        rewrite E1. cbn. unfold slot_inv. cbn. rewrite slot_point, Ek. cbn.
        split; [exact E4|split; [reflexivity|split; [exact E3|]]]. intros x [<-|[]]. split; [reflexivity|].
        left. apply tunit_eqb_refl. }
      unfold series_tz. destruct (s_tz s) as [z|] eqn:Ez.
      * destruct (String.eqb_spec z (i_tz it)) as [Hz|Hz].
        -- apply Hgo; auto. congruence.
        -- cbn. unfold slot_inv. rewrite El. auto.
      * rewrite El. cbn [detect_tz]. apply Hgo; cbn; auto.
  - assert (Hlen : forall s', s_items s' = a :: l \/ s_items s' = (a :: l) ++ [it] ->
       is_slot a = false -> slot_inv e s').
    { intros s' [E|E] Ha; unfold slot_inv; rewrite E; simpl; rewrite Ha; exact I. }
    destruct (ts_append e s it) as [s' r] eqn:E. cbn [fst].
    assert (Hi : s_items s' = a :: l \/ s_items s' = (a :: l) ++ [it]).
    { destruct r as [[]|x].
      - right. rewrite (proj1 (ts_append_ok _ _ _ _ E)), El. reflexivity.
      - left. rewrite (ts_append_err _ _ _ _ _ E). exact El. }
    destruct (is_slot a) eqn:Ea; [|apply Hlen; auto].
    destruct Hinv as (Hz & Hr & Hrs & Hall).
    destruct (is_point it) eqn:Ek.
    + (* a point offered to a slot series: always rejected *)
      assert (Hrej : s_res s' = s_res s /\ s_res_s s' = s_res_s s /\ s_tz s' = s_tz s /\ s_items s' = a :: l).
      { unfold ts_append in E. rewrite Ek in E.
        assert (Hsa : forall s0 s1 r1, s_items s0 = a :: l -> series_append s0 it = (s1, r1) -> s1 = s0).
        { intros s0 s1 r1 E0. unfold series_append.
          destruct (last_item_cons a l) as [last Hlast]. rewrite E0, Hlast. unfold item_type. rewrite E0.
          assert (cls_isinstance (i_cls it) (i_cls a) = false) as ->.
          { destruct (cls_isinstance (i_cls it) (i_cls a)) eqn:EC; [|reflexivity].
            apply isinstance_kind in EC. unfold is_point in Ek. unfold is_slot, cls_is_slot in Ea.
            rewrite Ek in EC. rewrite <- EC in Ea. discriminate. }
          cbn. intros [= <- <-]. reflexivity. }
        unfold append_point in E. rewrite El in E.
        destruct (s_prev_t s) as [p|].
        - destruct (qltb (i_t it) p); [injection E as <- <-; cbn; auto|].
          destruct (qeqb (i_t it) p); [injection E as <- <-; cbn; auto|].
          rewrite Hr in E. rewrite Hrs in E. injection E as <- <-; cbn; auto.
        - apply Hsa in E; [|exact El]. subst s'. cbn. auto. }
      destruct Hrej as (E1 & E2 & E3 & E4). unfold slot_inv. rewrite E4, Ea, E1, E2, E3. auto.
    + unfold ts_append in E. rewrite Ek in E. unfold append_slot, series_tz in E. rewrite Hz in E.
      destruct (String.eqb_spec (i_tz a) (i_tz it)) as [Htz|Htz].
      2:{ injection E as <- <-. unfold slot_inv. rewrite El, Ea. auto. }
      destruct (check_unit e s it) as [s2 r2] eqn:E2. unfold check_unit in E2. rewrite Hr in E2.
      assert (Hs2 : (s2 = s /\ r2 = Ok tt /\ unit_compat e (i_unit a) (i_unit it)) \/ (exists x, s2 = s /\ r2 = Err x)).
      { unfold unit_compat. destruct (tunit_eqb (i_unit a) (i_unit it)) eqn:Eu; [injection E2 as <- <-; left; auto|].
        destruct (unit_close e (i_unit a) (i_unit it)) as [[]|x] eqn:Ec.
        - injection E2 as <- <-; left; auto.
        - injection E2 as <- <-; right; eauto.
        - destruct x; try (injection E2 as <- <-; right; eauto; fail). exfalso. apply (Hclose _ _ Ec). }
      destruct Hs2 as [(-> & -> & Hc)|(x & -> & ->)].
      * destruct (series_append_fields _ _ _ _ E) as (F1 & F2 & F3 & _).
        destruct Hi as [Hi|Hi]; unfold slot_inv; rewrite Hi; simpl; rewrite Ea, F1, F2, F3.
        -- auto.
        -- split; [auto|split; [auto|split; [auto|]]]. intros x [<-|Hx].
           ++ split; [reflexivity|left; apply tunit_eqb_refl].
           ++ apply in_app_or in Hx. destruct Hx as [Hx|[<-|[]]].
              ** apply Hall. right; exact Hx.
              ** auto.
      * injection E as <- <-. unfold slot_inv. rewrite El, Ea. auto.
Qed.

Lemma appends_slot_inv e s xs :
  (forall u v, unit_close e u v <> Err AttributeError) ->
  ord_inv (s_items s) -> slot_inv e s -> slot_inv e (appends e s xs).
Proof.
  intros Hc. revert s. induction xs as [|x xs IH]; intros s Ho H; [exact H|].
  unfold appends in *. cbn [fold_left]. apply IH; [apply append_ord_inv, Ho|apply append_slot_inv; assumption].
Qed.

(* On a grid of multiples of g, below 10^9 steps from the epoch, the tolerance is harmless. *)
Lemma qabs_bound x m : Qcle (qabs x) m <-> Qcle (Qcopp m) x /\ Qcle x m.
Proof. unfold qabs. destruct (qltb_spec x (Q2Qc 0)); (split; [intros H; split; qlra|intros [H1 H2]; qlra]). Qed.
Lemma qmax_lub_lt x y m : Qclt x m -> Qclt y m -> Qclt (qmax x y) m.
Proof. unfold qmax. destruct (qleb_spec x y); auto. Qed.

Lemma qz_le_iff a b : Qcle (qz a) (qz b) <-> (a <= b)%Z.
Proof. unfold Qcle. rewrite !this_qz. rewrite <- Zle_Qle. reflexivity. Qed.
Lemma qz_lt_iff a b : Qclt (qz a) (qz b) <-> (a < b)%Z.
Proof. unfold Qclt. rewrite !this_qz. rewrite <- Zlt_Qlt. reflexivity. Qed.

Lemma this_qz_sub a b : (this (qz (a - b)) == inject_Z a - inject_Z b)%Q.
Proof. rewrite this_qz. unfold inject_Z, Qminus, Qeq, Qplus, Qopp; simpl. lia. Qed.

Lemma tolerance_exact_on_grid g m n :
  Qclt q0 g -> (Z.abs m < 1000000000)%Z -> (Z.abs n < 1000000000)%Z ->
  within_tolerance (Qcmult (qz m) g) (Qcmult (qz n) g) -> m = n.
Proof.
  intros Hg Hm Hn H. unfold within_tolerance in H. 
  assert (Hb : forall z, (Z.abs z < 1000000000)%Z -> Qclt (qabs (Qcmult (qz z) g)) (Qcmult (qz 1000000000) g)).
  { intros z Hz. assert (Qclt (qz z) (qz 1000000000)) by (apply qz_lt_iff; lia).
    assert (Qclt (qz (-1000000000)) (qz z)) by (apply qz_lt_iff; lia).
    unfold qabs. destruct (qltb_spec (qz z * g)%Qc (Q2Qc 0)); qc_prep; nra. }
  pose proof (qmax_lub_lt _ _ _ (Hb m Hm) (Hb n Hn)) as Hmax.
  set (M := qmax _ _) in *.
  assert (Hlt : Qclt (qabs (qz m * g - qz n * g)%Qc) g).
  { set (A := qabs _) in *. clear Hb. clearbody A M. qlra. }
  assert (Hlt' : Qclt (qz m * g - qz n * g)%Qc g /\ Qclt (- g)%Qc (qz m * g - qz n * g)%Qc).
  { unfold qabs in Hlt. destruct (qltb_spec (qz m * g - qz n * g)%Qc (Q2Qc 0)); split; qlra. }
  destruct Hlt' as [H1 H2].
  assert (Qclt (qz m - qz n)%Qc (qz 1)).
  { destruct (qltb_spec (qz m - qz n)%Qc (qz 1)); [assumption|exfalso]. qc_prep. nra. }
  assert (Qclt (qz (-1)) (qz m - qz n)%Qc).
  { destruct (qltb_spec (qz (-1)) (qz m - qz n)%Qc); [assumption|exfalso]. qc_prep. nra. }
  assert (Qclt (qz (m - n)) (qz 1)).
  { unfold Qclt in *. rewrite this_qz_sub. rewrite this_sub, !this_qz in H0. rewrite this_qz. exact H0. }
  assert (Qclt (qz (-1)) (qz (m - n))).
  { unfold Qclt in *. rewrite this_qz_sub. rewrite this_sub, !this_qz in H3. rewrite this_qz. exact H3. }
  apply (proj1 (qz_lt_iff _ _)) in H4. apply (proj1 (qz_lt_iff _ _)) in H5. lia.
Qed.
