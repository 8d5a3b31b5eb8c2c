(* SeriesProofs4.v -- valid appends are accepted (C01), rejected appends (C04), copies (C16),
   insertions and removals (C06-C08). *)
From Verif Require Export SeriesProofs3.

(* ---------------- the reference data is the data of some item ---------------- *)
Definition ref_inv (s : series) : Prop :=
  s_items s = [] \/ exists y, In y (s_items s) /\ s_ref s = Some (i_data y).

Lemma series_append_ref_inv s it s' r : series_append s it = (s', r) -> ref_inv s -> ref_inv s'.
Proof.
  intros H Hinv. unfold series_append in H.
  assert (Hnew : forall s1, s1 = set_items (set_ref s (Some (i_data it))) (s_items s ++ [it]) -> ref_inv s1).
  { intros s1 ->. right. exists it. cbn. split; [apply in_or_app; right; left; reflexivity|reflexivity]. }
  assert (Hold : ref_inv (set_items s (s_items s ++ [it])) \/ s_items s = []).
  { destruct Hinv as [Hinv|(y & Hy & Hr)]; [right; exact Hinv|left]. right. exists y. cbn.
    split; [apply in_or_app; left; exact Hy|exact Hr]. }
  destruct (last_item (s_items s)) as [last|] eqn:El; [destruct (item_type s) as [C|]|];
    try (injection H as <- <-; apply Hnew; reflexivity).
  destruct (negb (cls_isinstance (i_cls it) C)); [injection H as <- <-; exact Hinv|].
  destruct (negb (follows it last)); [injection H as <- <-; exact Hinv|].
  destruct (s_ref s) as [[ref|]|]; try (injection H as <- <-; (exact Hinv || (apply Hnew; reflexivity))).
  destruct (data_truthy ref); [|injection H as <- <-; apply Hnew; reflexivity].
  destruct (check_ref ref it); injection H as <- <-; [|exact Hinv].
  destruct Hold as [Hold|Hold]; [exact Hold|]. rewrite Hold in El. discriminate.
Qed.
Lemma ts_append_ref_inv e s it : ref_inv s -> ref_inv (fst (ts_append e s it)).
Proof.
  intros Hinv. destruct (ts_append e s it) as [s' r] eqn:E. cbn.
  destruct (ts_append_ref _ _ _ _ _ E) as [(s0 & E1 & E2 & H)|(x & -> & E1 & E2)].
  - apply (series_append_ref_inv _ _ _ _ H). unfold ref_inv in *. rewrite E1, E2. exact Hinv.
  - unfold ref_inv in *. rewrite E1, E2. exact Hinv.
Qed.
Lemma foldM_append_ref_inv e xs s s' :
  foldM (append_or_raise e) xs s = Ok s' -> ref_inv s -> ref_inv s'.
Proof.
  revert s. induction xs as [|x xs IH]; intros s; cbn.
  - intros [= <-]; auto.
  - destruct (append_or_raise e s x) as [s1|] eqn:E; cbn; [|discriminate]. intros H Hi.
    apply (IH s1 H). apply append_or_raise_ok in E. pose proof (ts_append_ref_inv e s x Hi) as Hi'. rewrite E in Hi'. exact Hi'.
Qed.

Lemma isinstance_refl c : cls_isinstance c c = true.
Proof. destruct c; reflexivity. Qed.

Lemma series_append_accepts s it :
  ref_inv s -> (forall y, In y (s_items s) -> same_item_shape y it) ->
  (forall last, last_item (s_items s) = Some last -> follows it last = true) ->
  exists s', series_append s it = (s', Ok tt).
Proof.
  intros Hr Hs Hf. unfold series_append.
  destruct (last_item (s_items s)) as [last|] eqn:El; [|eauto].
  unfold item_type. destruct (s_items s) as [|a l] eqn:Ei; [eauto|].
  destruct (Hs a (or_introl eq_refl)) as [Hc _].
  rewrite <- Hc, isinstance_refl. cbn [negb]. rewrite (Hf last eq_refl). cbn [negb].
  destruct Hr as [Hr|(y & Hy & Hr)]; [congruence|]. rewrite Hr. rewrite Ei in Hy.
  destruct (i_data y) as [d|] eqn:Ed; [|eauto].
  destruct (data_truthy d); [|eauto].
  assert (check_ref d it = Ok tt) as ->; [|eauto].
  apply check_ref_ok. destruct (Hs y Hy) as [_ Hsh]. rewrite Ed in Hsh.
  destruct (i_data it) as [d'|]; [|contradiction]. eauto.
Qed.

Lemma append_accepts e tz xs s it :
  ts_new e tz xs = Ok s -> all_points xs -> is_point it = true ->
  (forall d, exists u, unit_of_s e d = Ok u) ->
  (forall y, In y xs -> same_item_shape y it) ->
  (forall y, In y xs -> Qclt (i_t y) (i_t it)) ->
  exists s', ts_append e s it = (s', Ok tt).
Proof.
  intros H Hp Hit Hu Hs Hlt.
  pose proof (ts_new_items _ _ _ _ H) as Hi. pose proof (ts_new_point_inv _ _ _ _ H Hp) as Hinv.
  assert (Hr : ref_inv s) by (apply (foldM_append_ref_inv e xs (empty_series tz) s H); left; reflexivity).
  rewrite <- Hi in *. 
  assert (Hacc : forall s0, s_items s0 = s_items s -> s_ref s0 = s_ref s -> exists s', series_append s0 it = (s', Ok tt)).
  { intros s0 E1 E2. apply series_append_accepts.
    - unfold ref_inv in *. rewrite E1, E2. exact Hr.
    - rewrite E1. exact Hs.
    - rewrite E1. intros last Hl. destruct (last_item_some _ _ Hl) as [l' El].
      unfold follows. rewrite slot_point, Hit. cbn. unfold point_gt. apply qltb_true, Hlt.
      rewrite El. apply in_or_app; right; left; reflexivity. }
  unfold ts_append. rewrite Hit. unfold append_point. unfold point_inv in Hinv.
  destruct (s_items s) as [|a l] eqn:El.
  - destruct Hinv as (E1 & E2 & E3). rewrite E1. apply Hacc; [exact El|reflexivity].
  - assert (Hprev : exists p, s_prev_t s = Some p /\ Qclt p (i_t it)).
    { destruct l as [|b l].
      - destruct Hinv as (E1 & _). exists (i_t a). split; [exact E1|]. apply Hlt; left; reflexivity.
      - destruct Hinv as (E1 & _). destruct (last_item_cons a (b :: l)) as [last Hl]. exists (i_t last).
        unfold last_t in E1. rewrite Hl in E1. split; [exact E1|]. apply Hlt.
        destruct (last_item_some _ _ Hl) as [l' ->]. apply in_or_app; right; left; reflexivity. }
    destruct Hprev as (p & Ep & Hpt). rewrite Ep.
    destruct (qltb_spec (i_t it) p); [exfalso; qlra|].
    destruct (qeqb_spec (i_t it) p) as [Heq|Heq]; [exfalso; qlra|].
    destruct (s_res s) as [[|u]|] eqn:Er.
    + apply Hacc; [exact El|reflexivity].
    + assert (exists d, s_res_s s = Some d) as [d Ed].
      { destruct l as [|b l]; [destruct Hinv as (_ & E2 & _); discriminate|].
        destruct Hinv as (_ & [(d & u' & _ & Hd & _)|(_ & Hx)]); [eauto|discriminate]. }
      rewrite Ed. destruct (negb (qeqb d (i_t it - p)%Qc)); apply Hacc; (exact El || reflexivity).
    + destruct (Hu (trunc7 (i_t it - p)%Qc)) as [u ->]. apply Hacc; [exact El|reflexivity].
Qed.

(* ---------------- copies of point series ---------------- *)

Definition patch (f s : series) : series :=
  mkSeries (s_items s) (s_prev_t s) (s_res f) (s_res_s f) (s_tz s) (s_ref s).

Lemma series_append_patch f s it s' r :
  series_append s it = (s', r) -> series_append (patch f s) it = (patch f s', r).
Proof.
  unfold series_append, item_type. cbn [s_items patch s_ref]. intros H.
  destruct (last_item (s_items s)) as [last|].
  - destruct (s_items s) as [|a l]; [injection H as <- <-; reflexivity|].
    destruct (negb (cls_isinstance (i_cls it) (i_cls a))); [injection H as <- <-; reflexivity|].
    destruct (negb (follows it last)); [injection H as <- <-; reflexivity|].
    destruct (s_ref s) as [[ref|]|]; try (injection H as <- <-; reflexivity).
    destruct (data_truthy ref); [|injection H as <- <-; reflexivity].
    destruct (check_ref ref it); injection H as <- <-; reflexivity.
  - injection H as <- <-; reflexivity.
Qed.

Lemma append_point_prev e s it s' : is_point it = true -> ts_append e s it = (s', Ok tt) ->
  s_prev_t s' = Some (i_t it) /\ s_tz s' = s_tz s.
Proof.
  intros Hp E. unfold ts_append in E. rewrite Hp in E. unfold append_point in E.
  destruct (s_prev_t s) as [p|].
  2:{ destruct (series_append_fields _ _ _ _ E) as (_ & _ & F3 & F4). split; [rewrite F4|rewrite F3]; reflexivity. }
  destruct (s_items s) as [|a l].
  { destruct (series_append_fields _ _ _ _ E) as (_ & _ & F3 & F4). split; [rewrite F4|rewrite F3]; reflexivity. }
  destruct (qltb (i_t it) p); [discriminate|]. destruct (qeqb (i_t it) p); [discriminate|].
  destruct (s_res s) as [[|u]|].
  - destruct (series_append_fields _ _ _ _ E) as (_ & _ & F3 & F4). split; [rewrite F4|rewrite F3]; reflexivity.
  - destruct (s_res_s s) as [d|]; [|discriminate].
    destruct (negb (qeqb d (i_t it - p)%Qc)); destruct (series_append_fields _ _ _ _ E) as (_ & _ & F3 & F4);
      (split; [rewrite F4|rewrite F3]; reflexivity).
  - destruct (unit_of_s e (trunc7 (i_t it - p)%Qc)); [|discriminate].
    destruct (series_append_fields _ _ _ _ E) as (_ & _ & F3 & F4). split; [rewrite F4|rewrite F3]; reflexivity.
Qed.

(* the series_append call inside an accepted append_point, on the patched state *)
Lemma append_point_inner e s it s' : is_point it = true -> ts_append e s it = (s', Ok tt) ->
  exists s0, series_append s0 it = (s', Ok tt) /\ s_items s0 = s_items s /\ s_ref s0 = s_ref s /\
             s_tz s0 = s_tz s /\ s_prev_t s0 = Some (i_t it).
Proof.
  intros Hp E. unfold ts_append in E. rewrite Hp in E. unfold append_point in E.
  destruct (s_prev_t s) as [p|]; [|eexists; split; [exact E|]; auto].
  destruct (s_items s) as [|a l] eqn:El; [eexists; split; [exact E|]; auto|].
  destruct (qltb (i_t it) p); [discriminate|]. destruct (qeqb (i_t it) p); [discriminate|].
  destruct (s_res s) as [[|u]|].
  - eexists; split; [exact E|]; auto.
  - destruct (s_res_s s) as [d|]; [|discriminate].
    destruct (negb (qeqb d (i_t it - p)%Qc)); eexists; (split; [exact E|]); auto.
  - destruct (unit_of_s e (trunc7 (i_t it - p)%Qc)); [|discriminate]. eexists; split; [exact E|]; auto.
Qed.

Lemma patch_cong f s s' : s_items s = s_items s' -> s_prev_t s = s_prev_t s' -> s_tz s = s_tz s' -> s_ref s = s_ref s' ->
  patch f s = patch f s'.
Proof. unfold patch. intros -> -> -> ->. reflexivity. Qed.

Lemma dup_point_step e f s it s' ys :
  is_point it = true -> ts_append e s it = (s', Ok tt) -> s_items s <> [] ->
  s_prev_t s = last_t (s_items s) -> point_inv e f -> s_items f = s_items s' ++ ys ->
  ts_append e (patch f s) it = (patch f s', Ok tt).
Proof.
  intros Hp E Hne Hprev Hf Hi.
  pose proof (proj1 (ts_append_ok _ _ _ _ E)) as Hi'.
  destruct (append_point_inner _ _ _ _ Hp E) as (s0 & Es & E1 & E2 & E3 & E4).
  assert (Hfin : series_append (set_prev (patch f s) (Some (i_t it))) it = (patch f s', Ok tt)).
  { replace (set_prev (patch f s) (Some (i_t it))) with (patch f s0).
    - apply series_append_patch, Es.
    - unfold patch, set_prev. cbn. congruence. }
  unfold ts_append in *. rewrite Hp in *. unfold append_point in *. cbn [s_prev_t patch s_items s_res s_res_s].
  destruct (s_items s) as [|a l] eqn:El; [contradiction|].
  destruct (last_item_cons a l) as [last Hl]. unfold last_t in Hprev. rewrite Hl in Hprev. cbn in Hprev.
  rewrite Hprev in *. 
  destruct (qltb (i_t it) (i_t last)); [discriminate|]. destruct (qeqb (i_t it) (i_t last)); [discriminate|].
  unfold point_inv in Hf.
  destruct (last_item_some _ _ Hl) as [l' El'].
  assert (Hfl : s_items f = l' ++ last :: it :: ys).
  { rewrite Hi, Hi', El', <- !app_assoc. reflexivity. }
  assert (exists x y r, s_items f = x :: y :: r) as (x & y & r & Hform).
  { rewrite Hfl. destruct l' as [|x0 [|y0 r0]]; cbn; eauto. }
  rewrite Hform in Hf. rewrite <- Hform in Hf. destruct Hf as (_ & [(d & u & Hsp & Hrs & _ & Hr)|(_ & Hr)]).
  - rewrite Hr, Hrs.
    assert (d = (i_t it - i_t last)%Qc) as ->.
    { symmetry. apply (Hsp (length l')); rewrite Hfl; unfold times; rewrite map_app; cbn [map];
        rewrite nth_error_app2; rewrite map_length; try lia;
        [rewrite Nat.sub_diag|replace (S (length l') - length l') with 1 by lia]; reflexivity. }
    rewrite qeqb_refl. cbn [negb]. exact Hfin.
  - rewrite Hr. exact Hfin.
Qed.

Lemma dup_point_steps e f ys s :
  foldM (append_or_raise e) ys s = Ok f -> all_points ys -> s_items s <> [] ->
  s_prev_t s = last_t (s_items s) -> point_inv e f -> foldM (append_or_raise e) ys (patch f s) = Ok f.
Proof.
  revert s. induction ys as [|x ys IH]; intros s; cbn.
  - intros [= ->] _ _ _ _. unfold patch. destruct f; reflexivity.
  - destruct (append_or_raise e s x) as [s1|] eqn:E; cbn; [|discriminate]. intros H Hp Hne Hprev Hf.
    apply append_or_raise_ok in E. assert (Hx : is_point x = true) by (apply Hp; left; reflexivity).
    pose proof (foldM_append_items _ _ _ _ H) as Hi.
    pose proof (dup_point_step e f s x s1 ys Hx E Hne Hprev Hf Hi) as Hstep.
    apply append_or_raise_ok in Hstep. rewrite Hstep. cbn. apply IH; auto.
    + intros y Hy. apply Hp; right; exact Hy.
    + rewrite (proj1 (ts_append_ok _ _ _ _ E)). destruct (s_items s); discriminate.
    + destruct (append_point_prev _ _ _ _ Hx E) as [-> _]. rewrite (proj1 (ts_append_ok _ _ _ _ E)).
      unfold last_t. rewrite last_item_snoc. reflexivity.
Qed.

Lemma duplicate_points e tz xs s :
  ts_new e tz xs = Ok s -> all_points xs -> ts_duplicate e s = Ok s.
Proof.
  intros H Hp. pose proof (ts_new_items _ _ _ _ H) as Hi. pose proof (ts_new_point_inv _ _ _ _ H Hp) as Hinv.
  unfold ts_duplicate. fold (append_or_raise e). rewrite Hi. destruct xs as [|x xs].
  - cbn. f_equal. destruct s; cbn in *; subst; reflexivity.
  - unfold ts_new in H. fold (append_or_raise e) in H. cbn in H |- *.
    destruct (append_or_raise e (empty_series tz) x) as [s1|] eqn:E; cbn in H; [|discriminate].
    apply append_or_raise_ok in E. assert (Hx : is_point x = true) by (apply Hp; left; reflexivity).
    assert (Hd : ts_append e (set_items s []) x = (patch s s1, Ok tt)).
    { assert (Htz : s_tz s = s_tz s1).
      { clear -H Hp. revert s1 H. assert (Hp' : all_points xs) by (intros y Hy; apply Hp; right; exact Hy). clear Hp.
        induction xs as [|y ys IH]; cbn; intros s1; [intros [= ->]; reflexivity|].
        destruct (append_or_raise e s1 y) as [s2|] eqn:E; cbn; [|discriminate]. intros H.
        apply append_or_raise_ok in E. rewrite (IH (fun z Hz => Hp' z (or_intror Hz)) s2 H).
        apply (append_point_prev e s1 y s2); [apply Hp'; left; reflexivity|exact E]. }
      unfold ts_append in *. rewrite Hx in *. unfold append_point in *. cbn in E |- *.
      destruct (s_prev_t s); cbn; unfold series_append in *; cbn in *; injection E as <-; cbn in *;
        unfold patch, set_items, set_ref, set_prev; cbn; rewrite Htz; reflexivity. }
    apply append_or_raise_ok in Hd. rewrite Hd. cbn. apply dup_point_steps; auto.
    + intros y Hy. apply Hp; right; exact Hy.
    + rewrite (proj1 (ts_append_ok _ _ _ _ E)). discriminate.
    + destruct (append_point_prev _ _ _ _ Hx E) as [-> _]. rewrite (proj1 (ts_append_ok _ _ _ _ E)).
      reflexivity.
Qed.

(* ---------------- copies of slot series ---------------- *)

Lemma append_slot_prev e s it s' : is_slot it = true -> ts_append e s it = (s', Ok tt) -> s_prev_t s' = s_prev_t s.
Proof.
  intros Hs E. unfold ts_append in E. rewrite point_slot, Hs in E. cbn in E. unfold append_slot in E.
  assert (Hu : forall s1 s2 r2, check_unit e s1 it = (s2, r2) -> s_prev_t s2 = s_prev_t s1).
  { intros s1 s2 r2. unfold check_unit. destruct (s_res s1) as [[|u]|]; try (intros [= <- <-]; reflexivity).
    destruct (tunit_eqb u (i_unit it)); [intros [= <- <-]; reflexivity|].
    destruct (unit_close e u (i_unit it)) as [[]|[]]; intros [= <- <-]; reflexivity. }
  assert (Hgo : forall s1, s_prev_t s1 = s_prev_t s -> 
      (let '(s2, r2) := check_unit e s1 it in
       match r2 with Err x => (s2, Err x) | Ok _ => series_append s2 it end) = (s', Ok tt) -> s_prev_t s' = s_prev_t s).
  { intros s1 E1 H. destruct (check_unit e s1 it) as [s2 r2] eqn:E2. specialize (Hu _ _ _ E2).
    destruct r2; [|discriminate]. destruct (series_append_fields _ _ _ _ H) as (_ & _ & _ & F). congruence. }
  destruct (series_tz s).
  - destruct (s_tz s) as [z|]; [|discriminate]. destruct (String.eqb z (i_tz it)); [|discriminate]. apply (Hgo s); auto.
  - apply (Hgo (set_tz s (Some (i_tz it)))); auto.
Qed.

Lemma duplicate_slots e tz xs s :
  (forall u v, unit_close e u v <> Err AttributeError) ->
  ts_new e tz xs = Ok s -> all_slots xs -> ts_duplicate e s = Ok s.
Proof.
  intros Hc H Hp. pose proof (ts_new_items _ _ _ _ H) as Hi.
  unfold ts_duplicate. fold (append_or_raise e). rewrite Hi. destruct xs as [|x xs].
  - cbn. f_equal. destruct s; cbn in *; subst; reflexivity.
  - unfold ts_new in H. fold (append_or_raise e) in H. cbn in H |- *.
    destruct (append_or_raise e (empty_series tz) x) as [s1|] eqn:E; cbn in H; [|discriminate].
    apply append_or_raise_ok in E. assert (Hx : is_slot x = true) by (apply Hp; left; reflexivity).
    assert (Hinv1 : slot_inv e s1).
    { pose proof (append_slot_inv e (empty_series tz) x Hc ord_inv_nil) as Hs. rewrite E in Hs. apply Hs. repeat split. }
    assert (Hi1 : s_items s1 = [x]) by exact (proj1 (ts_append_ok _ _ _ _ E)).
    assert (Hinv : slot_inv e s /\ s_prev_t s = s_prev_t s1).
    { assert (Ho1 : ord_inv (s_items s1)) by (rewrite Hi1; apply ord_inv_one).
      assert (Hp' : all_slots xs) by (intros y Hy; apply Hp; right; exact Hy).
      clear -H Hc Ho1 Hinv1 Hp'. revert s1 H Ho1 Hinv1.
      induction xs as [|y ys IH]; cbn; intros s1; [intros [= ->]; auto|].
      destruct (append_or_raise e s1 y) as [s2|] eqn:E; cbn; [|discriminate]. intros H Ho1 Hinv1.
      apply append_or_raise_ok in E.
      destruct (IH (fun z Hz => Hp' z (or_intror Hz)) s2 H) as [I1 I2].
      - pose proof (append_ord_inv e s1 y Ho1) as Ho. rewrite E in Ho. exact Ho.
      - pose proof (append_slot_inv e s1 y Hc Ho1 Hinv1) as Ho. rewrite E in Ho. exact Ho.
      - split; [exact I1|]. rewrite I2. apply (append_slot_prev e s1 y); [apply Hp'; left; reflexivity|exact E]. }
    destruct Hinv as [Hinv Hpr]. unfold slot_inv in Hinv, Hinv1. rewrite Hi in Hinv. rewrite Hi1 in Hinv1.
    cbn in Hinv, Hinv1. rewrite Hx in Hinv, Hinv1.
    destruct Hinv as (A1 & A2 & A3 & _). destruct Hinv1 as (B1 & B2 & B3 & _).
    assert (Hd : ts_append e (set_items s []) x = (s1, Ok tt)).
    { unfold ts_append. rewrite point_slot, Hx. cbn. unfold append_slot, series_tz. cbn. rewrite A1, String.eqb_refl.
      unfold check_unit. cbn. rewrite A2, tunit_eqb_refl. unfold series_append. cbn.
      unfold set_items, set_ref. cbn. f_equal. destruct s1 as [i1 p1 r1 rs1 z1 f1]. cbn in *.
      assert (f1 = Some (i_data x)) as ->.
      { clear -E Hx. unfold ts_append in E. rewrite point_slot, Hx in E. cbn in E.
        unfold append_slot, series_tz, check_unit, series_append in E. cbn in E.
        destruct tz as [z|]; [destruct (String.eqb z (i_tz x))|]; cbn in E; inversion E; reflexivity. }
      congruence. }
    apply append_or_raise_ok in Hd. rewrite Hd. cbn. exact H.
Qed.

(* ---------------- rejected appends ---------------- *)

Lemma rejected_slot_no_effect e s it s' x :
  (forall u v, unit_close e u v <> Err AttributeError) ->
  slot_inv e s -> all_slots (s_items s) -> s_items s <> [] -> is_slot it = true ->
  ts_append e s it = (s', Err x) -> s' = s.
Proof.
  intros Hc Hinv Hall Hne Hit E. unfold slot_inv in Hinv.
  destruct (s_items s) as [|a l] eqn:El; [contradiction|]. rewrite (Hall a (or_introl eq_refl)) in Hinv.
  destruct Hinv as (A1 & A2 & A3 & _).
  unfold ts_append in E. rewrite point_slot, Hit in E. cbn in E. unfold append_slot, series_tz in E. rewrite A1 in E.
  destruct (String.eqb (i_tz a) (i_tz it)); [|injection E as <- <-; reflexivity].
  unfold check_unit in E. rewrite A2 in E.
  assert (Hsa : forall y, series_append s it = (s', Err y) -> s' = s).
  { intros y Hy. destruct (series_append_items _ _ _ _ Hy) as [[H _]|(z & _ & H)]; [discriminate|exact H]. }
  destruct (tunit_eqb (i_unit a) (i_unit it)); [apply (Hsa x), E|].
  destruct (unit_close e (i_unit a) (i_unit it)) as [[]|y] eqn:Ec.
  - apply (Hsa x), E.
  - injection E as <- <-; reflexivity.
  - destruct y; try (injection E as <- <-; reflexivity). exfalso. exact (Hc _ _ Ec).
Qed.

Lemma rejected_duplicate_no_effect e tz xs s it s' x :
  ts_new e tz xs = Ok s -> all_points xs -> xs <> [] -> is_point it = true ->
  last_t xs = Some (i_t it) -> ts_append e s it = (s', Err x) -> s' = s.
Proof.
  intros H Hp Hne Hit Hl E.
  pose proof (ts_new_items _ _ _ _ H) as Hi. pose proof (ts_new_point_inv _ _ _ _ H Hp) as Hinv.
  unfold ts_append in E. rewrite Hit in E. unfold append_point in E. unfold point_inv in Hinv. rewrite Hi in Hinv, E.
  assert (Hpr : s_prev_t s = Some (i_t it)).
  { destruct xs as [|a [|b l]]; [contradiction| |].
    - destruct Hinv as (-> & _). cbn in Hl. congruence.
    - destruct Hinv as (-> & _). exact Hl. }
  rewrite Hpr in E. destruct xs as [|a l]; [contradiction|].
  assert (qltb (i_t it) (i_t it) = false) as Hlt by apply qltb_irrefl. rewrite Hlt, qeqb_refl in E.
  injection E as <- <-. unfold set_prev. rewrite <- Hpr. destruct s; reflexivity.
Qed.

(* ---------------- insertions and removals ---------------- *)

Lemma list_insert_0 {A} (l : list A) x : list_insert l 0 x = x :: l.
Proof. unfold list_insert. cbn. rewrite Z.min_l by lia. reflexivity. Qed.
Lemma list_insert_len {A} (l : list A) x : list_insert l (Z.of_nat (length l)) x = l ++ [x].
Proof.
  unfold list_insert. destruct (Z.ltb_spec (Z.of_nat (length l)) 0); [lia|].
  rewrite Z.min_l by lia. rewrite Nat2Z.id, firstn_all, skipn_all. reflexivity.
Qed.

Lemma skipn_nth_error {A} (l : list A) n y : nth_error l n = Some y -> skipn n l = y :: skipn (S n) l.
Proof.
  revert l. induction n as [|n IH]; intros [|a l]; cbn; try discriminate.
  - intros [= ->]. reflexivity.
  - intros E. apply IH in E. exact E.
Qed.
Lemma list_pop_spec {A} (l : list A) i x l' : list_pop l i = Ok (x, l') ->
  exists l1 l2, l = l1 ++ x :: l2 /\ l' = l1 ++ l2 /\
    Z.of_nat (length l1) = (if Z.ltb i 0 then i + Z.of_nat (length l) else i)%Z.
Proof.
  unfold list_pop. set (j := if Z.ltb i 0 then (i + Z.of_nat (length l))%Z else i).
  destruct (Z.leb_spec 0 j); cbn; [|discriminate].
  destruct (Z.ltb_spec j (Z.of_nat (length l))); [|discriminate].
  destruct (nth_error l (Z.to_nat j)) as [y|] eqn:E; [|discriminate]. intros [= <- <-].
  exists (firstn (Z.to_nat j) l), (skipn (S (Z.to_nat j)) l).
  split; [|split; [reflexivity|rewrite firstn_length; lia]].
  rewrite <- (firstn_skipn (Z.to_nat j) l) at 1. f_equal.
  apply skipn_nth_error, E.
Qed.

Lemma list_remove_spec l x l' : list_remove l x = Some l' ->
  exists l1 y l2, l = l1 ++ y :: l2 /\ l' = l1 ++ l2 /\ item_eqb y x = true /\ forall z, In z l1 -> item_eqb z x = false.
Proof.
  revert l'. induction l as [|y l IH]; cbn; intros l'; [discriminate|].
  destruct (item_eqb y x) eqn:E.
  - intros [= <-]. exists [], y, l. repeat split; auto. intros z [].
  - destruct (list_remove l x) as [r|]; [|discriminate]. intros [= <-].
    destruct (IH r eq_refl) as (l1 & y' & l2 & -> & -> & H1 & H2). exists (y :: l1), y', l2.
    repeat split; auto. intros z [<-|Hz]; auto.
Qed.

(* points only: removing elements in the middle *)
Lemma ord_inv_points_iff l : all_points l -> strictly_increasing (times l) -> ord_inv l.
Proof.
  intros Hp Hs. split.
  - intros x y Hx Hy. rewrite (Hp x Hx), (Hp y Hy). reflexivity.
  - intros i a b Ha Hb. unfold follows. rewrite slot_point, (Hp b (nth_error_In _ _ Hb)). cbn. unfold point_gt.
    apply qltb_true. apply (Hs i (S i)); [lia| |]; unfold times; rewrite nth_error_map; [rewrite Ha|rewrite Hb]; reflexivity.
Qed.
Lemma sincr_drop l1 a l2 : strictly_increasing (l1 ++ a :: l2) -> strictly_increasing (l1 ++ l2).
Proof.
  intros H. apply sincr_app in H. destruct H as (H1 & H2 & H3). apply sincr_cons in H2. destruct H2 as (_ & H2).
  apply sincr_app. repeat split; auto. intros x y Hx Hy. apply H3; [exact Hx|right; exact Hy].
Qed.
Lemma ord_inv_drop l1 a l2 : all_points (l1 ++ a :: l2) -> ord_inv (l1 ++ a :: l2) -> ord_inv (l1 ++ l2).
Proof.
  intros Hp Ho. apply ord_inv_points_iff.
  - intros x Hx. apply Hp. apply in_app_or in Hx. apply in_or_app. destruct Hx; [left|right; right]; assumption.
  - apply ord_inv_points in Ho; [|exact Hp]. unfold times in *. rewrite map_app in *. cbn [map] in Ho.
    eapply sincr_drop, Ho.
Qed.
Lemma ord_inv_sub l1 l2 l : ord_inv (l1 ++ l ++ l2) -> ord_inv l.
Proof.
  intros [H1 H2]. split.
  - intros x y Hx Hy. apply H1; apply in_or_app; right; apply in_or_app; left; assumption.
  - apply consecutive_app_r in H2. apply consecutive_app_l in H2. exact H2.
Qed.

Lemma pop_ord_inv s i : ord_inv (s_items s) -> ord_inv (s_items (fst (ts_pop s i))).
Proof.
  intros Ho. unfold ts_pop. destruct (s_items s) as [|a l] eqn:El; [cbn; rewrite El; exact Ho|].
  destruct (ord_inv_kind _ Ho) as [Hp|Hs].
  - assert (Hgo : forall j x l', list_pop (a :: l) j = Ok (x, l') -> ord_inv l').
    { intros j x l' Hj. destruct (list_pop_spec _ _ _ _ Hj) as (l1 & l2 & E1 & -> & _). rewrite E1 in *.
      eapply ord_inv_drop; eassumption. }
    destruct i as [j|].
    + destruct (negb (Z.eqb j 0 || Z.eqb j (Z.of_nat (length (a :: l)))) && is_slot a); [cbn; rewrite El; exact Ho|].
      destruct (list_pop (a :: l) j) as [[x l']|er] eqn:E; cbn; [eapply Hgo, E|rewrite El; exact Ho].
    + destruct (list_pop (a :: l) (-1)) as [[x l']|er] eqn:E; cbn; [eapply Hgo, E|rewrite El; exact Ho].
  - assert (Ha : is_slot a = true) by (apply Hs; left; reflexivity).
    destruct i as [j|].
    + rewrite Ha, andb_true_r.
      destruct (Z.eqb_spec j 0) as [->|Hj0]; cbn [orb negb].
      * destruct (list_pop (a :: l) 0) as [[x l']|er] eqn:E; cbn; [|rewrite El; exact Ho].
        destruct (list_pop_spec _ _ _ _ E) as (l1 & l2 & E1 & -> & E3). cbn in E3.
        destruct l1; [|cbn in E3; lia]. cbn in *. injection E1 as <- <-.
        apply (ord_inv_sub [a] [] l). rewrite app_nil_r. exact Ho.
      * destruct (Z.eqb_spec j (Z.of_nat (length (a :: l)))) as [->|Hj1]; cbn [negb]; [|cbn; rewrite El; exact Ho].
        destruct (list_pop (a :: l) (Z.of_nat (length (a :: l)))) as [[x l']|er] eqn:E; [|cbn; rewrite El; exact Ho].
        exfalso. destruct (list_pop_spec _ _ _ _ E) as (l1 & l2 & E1 & _ & E3).
        destruct (Z.ltb_spec (Z.of_nat (length (a :: l))) 0); [lia|].
        apply (f_equal (@length item)) in E1. rewrite app_length in E1. cbn [length] in *. lia.
    + destruct (list_pop (a :: l) (-1)) as [[x l']|er] eqn:E; cbn; [|rewrite El; exact Ho].
      destruct (list_pop_spec _ _ _ _ E) as (l1 & l2 & E1 & -> & E3). cbn [Z.ltb Z.compare] in E3.
      assert (l2 = []) as ->.
      { apply (f_equal (@length item)) in E1. rewrite app_length in E1. cbn [length] in *. destruct l2; [reflexivity|]. cbn [length] in *. lia. }
      rewrite app_nil_r. rewrite E1 in Ho. apply (ord_inv_sub [] [x] l1). exact Ho.
Qed.

Lemma remove_ord_inv s x : ord_inv (s_items s) -> ord_inv (s_items (fst (ts_remove s x))).
Proof.
  intros Ho. unfold ts_remove. destruct (s_items s) as [|a l] eqn:El; [cbn; rewrite El; exact Ho|].
  destruct (is_slot a) eqn:Ha; [cbn; rewrite El; exact Ho|].
  destruct (list_remove (a :: l) x) as [l'|] eqn:E; cbn; [|rewrite El; exact Ho].
  destruct (list_remove_spec _ _ _ E) as (l1 & y & l2 & E1 & -> & _).
  assert (Hp : all_points (a :: l)).
  { destruct (ord_inv_kind _ Ho) as [Hp|Hs]; [exact Hp|]. rewrite (Hs a (or_introl eq_refl)) in Ha. discriminate. }
  rewrite E1 in *. eapply ord_inv_drop; eassumption.
Qed.

Lemma follows_of_insert x y : is_point x = is_point y -> (if is_slot y then succeeds y x else point_gt y x) = follows y x.
Proof. reflexivity. Qed.

Lemma insert_end_ord_inv e s i x :
  ord_inv (s_items s) -> (i = 0%Z \/ i = Z.of_nat (length (s_items s))) ->
  ord_inv (s_items (fst (ts_insert e s i x))).
Proof.
  intros Ho Hi. unfold ts_insert. destruct (s_items s) as [|a l] eqn:El.
  { apply append_ord_inv. rewrite El. exact Ho. }
  destruct (cls_isinstance (i_cls x) (i_cls a)) eqn:Ec; cbn [negb]; [|cbn; rewrite El; exact Ho].
  apply isinstance_kind in Ec. fold (is_point x) (is_point a) in Ec.
  destruct (Z.eqb_spec i 0) as [->|Hi0].
  - rewrite list_insert_0.
    assert (Hgo : follows a x = true -> ord_inv (x :: a :: l)).
    { intros Hf. destruct Ho as [Hk Ho]. split.
      - assert (Hall : forall y, In y (x :: a :: l) -> is_point y = is_point a).
        { intros y [<-|Hy]; [exact Ec|]. apply Hk; [exact Hy|left; reflexivity]. }
        intros y z Hy Hz. rewrite (Hall y Hy), (Hall z Hz). reflexivity.
      - apply consecutive_cons. split; [exact Hf|exact Ho]. }
    unfold follows in Hgo. destruct (is_slot a).
    + destruct (succeeds a x); [apply Hgo; reflexivity|cbn; rewrite El; exact Ho].
    + destruct (point_gt a x); [apply Hgo; reflexivity|cbn; rewrite El; exact Ho].
  - destruct Hi as [Hi|Hi]; [contradiction|]. rewrite Hi, Z.eqb_refl.
    destruct (last_item_cons a l) as [last Hl]. rewrite Hl. rewrite list_insert_len.
    destruct (last_item_some _ _ Hl) as [l' El'].
    assert (Hgo : follows x last = true -> ord_inv ((a :: l) ++ [x])).
    { intros Hf. rewrite El' in *. apply ord_inv_snoc; [exact Ho| |exact Hf].
      rewrite Ec. destruct Ho as [Hk _]. apply Hk; [rewrite <- El'; left; reflexivity|apply in_or_app; right; left; reflexivity]. }
    unfold follows in Hgo. destruct (is_slot x).
    + destruct (succeeds x last); [apply Hgo; reflexivity|cbn; rewrite El; exact Ho].
    + destruct (point_gt x last); [apply Hgo; reflexivity|cbn; rewrite El; exact Ho].
Qed.

(* a history with no insertion strictly inside the series *)
Fixpoint no_middle_insert (e : env) (s : series) (os : list op) : Prop :=
  match os with
  | [] => True
  | o :: r =>
    match o with OInsert i _ => i = 0%Z \/ i = Z.of_nat (length (s_items s)) | _ => True end /\
    no_middle_insert e (fst (step e s o)) r
  end.

Lemma run_ord_inv e s os : ord_inv (s_items s) -> no_middle_insert e s os -> ord_inv (s_items (run e s os)).
Proof.
  revert s. induction os as [|o os IH]; intros s Ho Hn; [exact Ho|].
  unfold run in *. cbn [fold_left]. destruct Hn as [Hn1 Hn2]. apply IH; [|exact Hn2].
  destruct o as [x|i x|x|i| | | | |]; cbn [step].
  - apply append_ord_inv, Ho.
  - apply insert_end_ord_inv; assumption.
  - apply remove_ord_inv, Ho.
  - pose proof (pop_ord_inv s i Ho) as Hpop. destruct (ts_pop s i) as [s' r]. exact Hpop.
  - exact ord_inv_nil.
  - exact Ho.
  - exact Ho.
  - exact Ho.
  - exact Ho.
Qed.

Lemma insert_err_items e s i x s' er : ts_insert e s i x = (s', Err er) -> s_items s' = s_items s.
Proof.
  unfold ts_insert. destruct (s_items s) as [|a l] eqn:El.
  { intros H. apply ts_append_err in H. rewrite H. exact El. }
  destruct (negb (cls_isinstance (i_cls x) (i_cls a))); [intros [= <- <-]; exact El|].
  destruct (Z.eqb i 0).
  { destruct (is_slot a); [destruct (succeeds a x)|destruct (point_gt a x)]; intros [= <- <-]; exact El. }
  destruct (Z.eqb i (Z.of_nat (length (a :: l)))).
  { destruct (last_item (a :: l)); [|intros [= <- <-]; exact El].
    destruct (is_slot x); [destruct (succeeds x i0)|destruct (point_gt x i0)]; intros [= <- <-]; exact El. }
  destruct (is_slot a); [intros [= <- <-]; exact El|].
  destruct (ts_get_i s (i - 1)); [|intros [= <- <-]; exact El].
  destruct (point_gt x a0); [discriminate|]. destruct (ts_get_i s i); intros [= <- <-]; exact El.
Qed.

(* ---------------- statements used by PropSeries.v ---------------- *)

Lemma appends_order e tz xs :
  let l := s_items (appends e (empty_series tz) xs) in
  (all_points l /\ strictly_increasing (times l)) \/ all_slots l.
Proof.
  cbv zeta. pose proof (appends_ord_inv e (empty_series tz) xs ord_inv_nil) as H.
  destruct (ord_inv_kind _ H) as [Hp|Hs]; [left; split; [exact Hp|apply ord_inv_points; assumption]|right; exact Hs].
Qed.

Lemma append_effect e tz xs x s' r :
  let s := appends e (empty_series tz) xs in
  is_point x = true -> ts_append e s x = (s', r) ->
  (r = Ok tt /\ s_items s' = s_items s ++ [x] /\ forall y, In y (s_items s) -> Qclt (i_t y) (i_t x)) \/
  (exists er, r = Err er /\ s_items s' = s_items s).
Proof.
  cbv zeta. intros Hp E. pose proof (appends_ord_inv e (empty_series tz) xs ord_inv_nil) as Ho.
  set (s := appends e (empty_series tz) xs) in *. destruct r as [[]|er].
  - left. split; [reflexivity|]. destruct (ts_append_ok _ _ _ _ E) as [Hi Hf]. split; [exact Hi|].
    intros y Hy. pose proof (append_ord_inv e s x Ho) as Ho'. rewrite E in Ho'. cbn in Ho'. rewrite Hi in Ho'.
    assert (Hpl : all_points (s_items s ++ [x])).
    { destruct Ho' as [Hk _]. intros z Hz. rewrite <- Hp. apply Hk; [exact Hz|apply in_or_app; right; left; reflexivity]. }
    apply ord_inv_points in Ho'; [|exact Hpl]. unfold times in Ho'. rewrite map_app in Ho'.
    apply sincr_app in Ho'. destruct Ho' as (_ & _ & H). apply H; [apply in_map, Hy|left; reflexivity].
  - right. exists er. split; [reflexivity|]. apply (ts_append_err _ _ _ _ _ E).
Qed.

Lemma empty_slot_inv e tz : slot_inv e (empty_series tz).
Proof. repeat split. Qed.

Lemma appends_slots e tz xs :
  (forall u v, unit_close e u v <> Err AttributeError) ->
  let l := s_items (appends e (empty_series tz) xs) in
  all_slots l ->
  nearly_contiguous l /\
  (forall x y, In x l -> In y l -> i_tz x = i_tz y) /\
  (forall first rest x, l = first :: rest -> In x l ->
     i_unit x = i_unit first \/ unit_close e (i_unit first) (i_unit x) = Ok true).
Proof.
  cbv zeta. intros Hc Hs. pose proof (appends_ord_inv e (empty_series tz) xs ord_inv_nil) as Ho.
  pose proof (appends_slot_inv e (empty_series tz) xs Hc ord_inv_nil (empty_slot_inv e tz)) as Hi.
  unfold slot_inv in Hi. split; [apply ord_inv_slots; assumption|].
  destruct (s_items (appends e (empty_series tz) xs)) as [|a l] eqn:El.
  - split; [intros ? ? []|intros ? ? ? H; discriminate].
  - rewrite (Hs a (or_introl eq_refl)) in Hi. destruct Hi as (_ & _ & _ & Hall). split.
    + intros x y Hx Hy. rewrite (proj1 (Hall x Hx)), (proj1 (Hall y Hy)). reflexivity.
    + intros first rest x [= <- <-] Hx. destruct (proj2 (Hall x Hx)) as [H|H]; [left|right; exact H].
      destruct (tunit_eqb_spec (i_unit a) (i_unit x)); congruence.
Qed.

Lemma appends_subset e s xs x : In x (s_items (appends e s xs)) -> In x (s_items s) \/ In x xs.
Proof.
  revert s. induction xs as [|y xs IH]; intros s; [left; assumption|].
  unfold appends in *. cbn [fold_left]. intros H. apply IH in H. destruct H as [H|H]; [|right; right; exact H].
  destruct (ts_append e s y) as [s' [[]|er]] eqn:E; cbn in H.
  - rewrite (proj1 (ts_append_ok _ _ _ _ E)) in H. apply in_app_or in H. destruct H as [H|[<-|[]]]; [left; exact H|right; left; reflexivity].
  - rewrite (ts_append_err _ _ _ _ _ E) in H. left; exact H.
Qed.

Lemma appends_slots_grid e tz xs g :
  Qclt q0 g ->
  (forall x, In x xs -> exists m n, i_t x = Qcmult (qz m) g /\ i_end x = Qcmult (qz n) g /\
                                    (Z.abs m < 1000000000 /\ Z.abs n < 1000000000)%Z) ->
  let l := s_items (appends e (empty_series tz) xs) in
  all_slots l -> contiguous l.
Proof.
  cbv zeta. intros Hg Hgrid Hs. pose proof (appends_ord_inv e (empty_series tz) xs ord_inv_nil) as Ho.
  pose proof (ord_inv_slots _ Ho Hs) as Hn. intros i a b Ha Hb.
  destruct (Hn i a b Ha Hb) as [H|H]; [exact H|].
  destruct (appends_subset e (empty_series tz) xs a (nth_error_In _ _ Ha)) as [[]|Hin1].
  destruct (appends_subset e (empty_series tz) xs b (nth_error_In _ _ Hb)) as [[]|Hin2].
  destruct (Hgrid a Hin1) as (m1 & n1 & E1 & E2 & B1 & B2). destruct (Hgrid b Hin2) as (m2 & n2 & E3 & E4 & B3 & B4).
  rewrite E2, E3 in H. apply tolerance_exact_on_grid in H; auto. rewrite E2, E3, H. reflexivity.
Qed.

Lemma rejected_slot_history e tz xs x s' er :
  (forall u v, unit_close e u v <> Err AttributeError) ->
  let s := appends e (empty_series tz) xs in
  all_slots (s_items s) -> s_items s <> [] -> is_slot x = true ->
  ts_append e s x = (s', Err er) -> s' = s.
Proof.
  cbv zeta. intros Hc Hs Hne Hx E.
  apply (rejected_slot_no_effect e _ x s' er); auto.
  apply appends_slot_inv; auto using ord_inv_nil, empty_slot_inv.
Qed.

Lemma equally_spaced_unique d d' a b l :
  equally_spaced d (a :: b :: l) -> equally_spaced d' (a :: b :: l) -> d = d'.
Proof. intros H H'. rewrite <- (H 0 a b eq_refl eq_refl). apply (H' 0); reflexivity. Qed.

Lemma resolution_points e tz xs s :
  ts_new e tz xs = Ok s -> all_points xs ->
  (length xs < 2 -> resolution s = None) /\
  (2 <= length xs ->
     (forall d, equally_spaced d (times xs) ->
        exists u, unit_of_s e (trunc7 d) = Ok u /\ resolution s = Some (RUnit u)) /\
     ((forall d, ~ equally_spaced d (times xs)) -> resolution s = Some RVar)).
Proof.
  intros H Hp. pose proof (ts_new_items _ _ _ _ H) as Hi. pose proof (ts_new_point_inv _ _ _ _ H Hp) as Hinv.
  unfold point_inv in Hinv. rewrite Hi in Hinv. unfold resolution. split.
  - intros Hl. destruct xs as [|a [|b l]]; [apply Hinv|apply Hinv|cbn in Hl; lia].
  - intros Hl. destruct xs as [|a [|b l]]; [cbn in Hl; lia|cbn in Hl; lia|].
    destruct Hinv as (_ & [(d & u & Hsp & Hrs & Hu & Hr)|(Hv & Hr)]).
    + split.
      * intros d' Hd'. rewrite (equally_spaced_unique _ _ _ _ _ Hd' Hsp). eauto.
      * intros Hn. exfalso. apply (Hn d Hsp).
    + split; [|auto]. intros d' Hd'. exfalso. apply (Hv d' Hd').
Qed.

Lemma qtrunc_qz k : qtrunc (qz k) = k.
Proof.
  unfold qtrunc, qz, Q2Qc. cbn [this]. unfold inject_Z.
  rewrite Qred_identity; [apply Z.quot_1_r|]. cbn. rewrite Z.gcd_1_r. reflexivity.
Qed.
Lemma qz_neq_0 p : qz (Zpos p) <> Q2Qc 0.
Proof. intros H. apply qc_eq in H. rewrite this_qz in H. discriminate H. Qed.
Lemma trunc7_exact (k : Z) : trunc7 (Qcdiv (qz k) (qz 10000000)) = Qcdiv (qz k) (qz 10000000).
Proof.
  unfold trunc7. f_equal. replace (qz k / qz 10000000 * qz 10000000)%Qc with (qz k).
  - rewrite qtrunc_qz. reflexivity.
  - field. apply qz_neq_0.
Qed.

Lemma resolution_slots e tz xs first rest :
  (forall u v, unit_close e u v <> Err AttributeError) ->
  s_items (appends e (empty_series tz) xs) = first :: rest -> is_slot first = true ->
  resolution (appends e (empty_series tz) xs) = Some (RUnit (i_unit first)).
Proof.
  intros Hc El Hf. pose proof (appends_slot_inv e (empty_series tz) xs Hc ord_inv_nil (empty_slot_inv e tz)) as Hi.
  unfold slot_inv in Hi. rewrite El, Hf in Hi. apply Hi.
Qed.

Lemma insert_ok_items e s i x s' : ts_insert e s i x = (s', Ok tt) -> s_items s' = list_insert (s_items s) i x.
Proof.
  unfold ts_insert. destruct (s_items s) as [|a l] eqn:El.
  { intros H. rewrite (proj1 (ts_append_ok _ _ _ _ H)), El. unfold list_insert. cbn.
    destruct (Z.ltb i 0); rewrite firstn_nil, skipn_nil; reflexivity. }
  destruct (negb (cls_isinstance (i_cls x) (i_cls a))); [discriminate|].
  destruct (Z.eqb i 0).
  { destruct (is_slot a); [destruct (succeeds a x)|destruct (point_gt a x)]; try discriminate; intros [= <-]; reflexivity. }
  destruct (Z.eqb i (Z.of_nat (length (a :: l)))).
  { destruct (last_item (a :: l)) as [last|]; [|discriminate].
    destruct (is_slot x); [destruct (succeeds x last)|destruct (point_gt x last)]; try discriminate; intros [= <-]; reflexivity. }
  destruct (is_slot a); [discriminate|].
  destruct (ts_get_i s (i - 1)) as [p|]; [|discriminate].
  destruct (point_gt x p); [intros [= <-]; reflexivity|]. destruct (ts_get_i s i); discriminate.
Qed.

Lemma insert_facts e s i x s' r :
  ts_insert e s i x = (s', r) -> ord_inv (s_items s) ->
  (r <> Ok tt -> s_items s' = s_items s) /\
  (r = Ok tt -> s_items s' = list_insert (s_items s) i x) /\
  (i = 0%Z \/ i = Z.of_nat (length (s_items s)) -> ord_inv (s_items s')) /\
  (s_items s <> [] -> all_slots (s_items s) -> i <> 0%Z -> i <> Z.of_nat (length (s_items s)) -> r <> Ok tt).
Proof.
  intros E Ho. split; [|split; [|split]].
  - intros Hr. destruct r as [[]|er]; [congruence|]. apply (insert_err_items _ _ _ _ _ _ E).
  - intros ->. apply (insert_ok_items _ _ _ _ _ E).
  - intros Hi. pose proof (insert_end_ord_inv e s i x Ho Hi) as H. rewrite E in H. exact H.
  - intros Hne Hs Hi0 Hi1 ->. unfold ts_insert in E. destruct (s_items s) as [|a l]; [contradiction|].
    destruct (negb (cls_isinstance (i_cls x) (i_cls a))); [discriminate|].
    destruct (Z.eqb_spec i 0); [contradiction|]. destruct (Z.eqb_spec i (Z.of_nat (length (a :: l)))); [contradiction|].
    rewrite (Hs a (or_introl eq_refl)) in E. discriminate.
Qed.

Lemma ord_inv_meaning l : ord_inv l ->
  (all_points l /\ strictly_increasing (times l)) \/ (all_slots l /\ nearly_contiguous l).
Proof.
  intros H. destruct (ord_inv_kind _ H) as [Hp|Hs]; [left|right]; split; auto using ord_inv_points, ord_inv_slots.
Qed.

Lemma pop_facts s i s' r :
  ts_pop s i = (s', r) ->
  match r with
  | Ok x => exists l1 l2, s_items s = l1 ++ x :: l2 /\ s_items s' = l1 ++ l2 /\
      Z.of_nat (length l1) =
        (match i with
         | None => Z.of_nat (length (s_items s)) - 1
         | Some i => if Z.ltb i 0 then i + Z.of_nat (length (s_items s)) else i
         end)%Z
  | Err _ => s' = s
  end /\ (ord_inv (s_items s) -> ord_inv (s_items s')).
Proof.
  intros E. split.
  2:{ intros Ho. pose proof (pop_ord_inv s i Ho) as H. rewrite E in H. exact H. }
  unfold ts_pop in E. destruct (s_items s) as [|a l] eqn:El; [injection E as <- <-; reflexivity|].
  destruct i as [j|].
  - destruct (negb (Z.eqb j 0 || Z.eqb j (Z.of_nat (length (a :: l)))) && is_slot a); [injection E as <- <-; reflexivity|].
    destruct (list_pop (a :: l) j) as [[x l']|er] eqn:Ep; injection E as <- <-; [|reflexivity].
    apply list_pop_spec in Ep. exact Ep.
  - destruct (list_pop (a :: l) (-1)) as [[x l']|er] eqn:Ep; injection E as <- <-; [|reflexivity].
    apply list_pop_spec in Ep. destruct Ep as (l1 & l2 & H1 & H2 & H3). exists l1, l2. repeat split; auto.
Qed.

Lemma remove_facts s x s' r :
  ts_remove s x = (s', r) ->
  match r with
  | Ok _ => exists l1 y l2, s_items s = l1 ++ y :: l2 /\ s_items s' = l1 ++ l2 /\ item_eqb y x = true /\
              (forall z, In z l1 -> item_eqb z x = false)
  | Err _ => s' = s
  end /\ (ord_inv (s_items s) -> ord_inv (s_items s')).
Proof.
  intros E. split.
  2:{ intros Ho. pose proof (remove_ord_inv s x Ho) as H. rewrite E in H. exact H. }
  unfold ts_remove in E. destruct (s_items s) as [|a l] eqn:El; [injection E as <- <-; reflexivity|].
  destruct (is_slot a); [injection E as <- <-; reflexivity|].
  destruct (list_remove (a :: l) x) as [l'|] eqn:Ep; injection E as <- <-; [|reflexivity].
  apply list_remove_spec in Ep. exact Ep.
Qed.

Lemma clear_facts s : s_items (fst (ts_clear s)) = [] /\ snd (ts_clear s) = Ok tt.
Proof. split; reflexivity. Qed.

Lemma run_order e tz os :
  no_middle_insert e (empty_series tz) os ->
  let l := s_items (run e (empty_series tz) os) in
  (all_points l /\ strictly_increasing (times l)) \/ (all_slots l /\ nearly_contiguous l).
Proof. cbv zeta. intros H. apply ord_inv_meaning, run_ord_inv; [apply ord_inv_nil|exact H]. Qed.
