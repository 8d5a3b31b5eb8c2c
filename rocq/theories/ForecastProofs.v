(* ForecastProofs.v -- proofs: applying a forecaster (C54). *)
From Verif Require Import SpecForecast BaseLemmas DictLemmas PropTactics.
From Verif Require Import SeriesProofs SeriesProofs2 SeriesProofs3 SeriesProofs4 AccessProofs AccessProofs2 OpsProofs ReconProofs ReconProofs2.

Lemma mark_all_ok l : (forall x, In x l -> i_data x <> None) -> mark_all l = (map (mark q0) l, Ok tt).
Proof.
  induction l as [|x l IH]; intros H; cbn; [reflexivity|]. destruct (i_data x) eqn:E; [|exfalso; apply (H x (or_introl eq_refl)); exact E].
  rewrite IH by (intros y Hy; apply H; right; exact Hy). reflexivity.
Qed.
Lemma mark_was v x : as_it_was x (mark v x) /\ forecast_is v (mark v x).
Proof.
  split.
  - split; [repeat split|]. split; [reflexivity|]. intros k Hk. unfold mark, set_idx. cbn [i_idx]. rewrite dget_dset. apply String.eqb_neq in Hk. rewrite Hk. reflexivity.
  - unfold forecast_is, mark, set_idx. cbn [i_idx]. rewrite dget_dset. reflexivity.
Qed.
Lemma built_appends e tz l s : ts_new e tz l = Ok s -> s = appends e (empty_series tz) l.
Proof.
  unfold ts_new, appends. generalize (empty_series tz). induction l as [|x l IH]; cbn; intros s0 H; [injection H as ->; reflexivity|].
  destruct (ts_append e s0 x) as [s1 [[]|er]]; cbn in H; [|discriminate]. apply IH. exact H.
Qed.

Section Grow.
Variables (e : env) (c : cal) (u : tunit).

(* a series which can be continued *)
Definition growing (s : series) : Prop :=
  ref_inv s /\ s_items s <> [] /\ s_res s = Some (RUnit u) /\
  ((all_slots (s_items s) /\ exists z, s_tz s = Some z /\ forall x, In x (s_items s) -> i_tz x = z) \/
   (all_points (s_items s) /\ exists d p, u = UPhys d /\ Qclt q0 d /\ s_res_s s = Some d /\ s_prev_t s = Some p /\ last_t (s_items s) = Some p)).

Lemma growing_start s : ready e s -> steady s u -> growing s.
Proof.
  intros ((tz & B) & N & W & D & U) (Hr & Hk). assert (Hn : s_items s <> []) by apply N.
  assert (Hri : ref_inv s) by (apply (foldM_append_ref_inv e (s_items s) (empty_series tz) s B); left; reflexivity).
  split; [exact Hri|]. split; [exact Hn|]. split; [exact Hr|]. destruct Hk as [Ha|(Ha & L2 & d & -> & Sp)].
  - left. split; [exact Ha|]. pose proof (built_appends e tz (s_items s) s B) as E.
    pose proof (appends_slot_inv e (empty_series tz) (s_items s) U ord_inv_nil (empty_slot_inv e tz)) as I. rewrite <- E in I. unfold slot_inv in I.
    destruct (s_items s) as [|a l] eqn:El; [contradiction|]. rewrite (Ha a (or_introl eq_refl)) in I. destruct I as (I1 & _ & _ & I4). exists (i_tz a). split; [exact I1|]. intros x Hx. apply I4. exact Hx.
  - right. split; [exact Ha|]. pose proof (ts_new_point_inv _ _ _ _ B Ha) as I. unfold point_inv in I.
    destruct (s_items s) as [|a [|b l]] eqn:El; [cbn in L2; lia|cbn in L2; lia|]. destruct I as (I1 & I2). destruct I2 as [(d' & u' & Sp' & Rs & _ & _)|(I2 & _)]; [|exfalso; apply (I2 d); exact Sp].
    assert (d' = d) by (apply (equally_spaced_unique d' d _ _ _ Sp' Sp)). subst d'.
    destruct (last_item_cons a (b :: l)) as [la Hla]. unfold last_t in *. rewrite Hla in I1. exists d, (i_t la). split; [reflexivity|]. split.
    + destruct W as [W|W]; [|exfalso; destruct W as (W & _); specialize (W a (or_introl eq_refl)); specialize (Ha a (or_introl eq_refl)); rewrite slot_point, Ha in W; discriminate].
      destruct W as (_ & S & _). cbn in S. assert (Lt : Qclt (i_t a) (i_t b)) by (apply (S 0 1 (i_t a) (i_t b)); [lia|reflexivity|reflexivity]). pose proof (Sp 0 (i_t a) (i_t b) eq_refl eq_refl) as Ed. cbn in Ed. rewrite <- Ed. clear - Lt. qlra.
    + split; [exact Rs|]. split; [exact I1|rewrite Hla; reflexivity].
Qed.
Lemma growing_mark s : growing s -> growing (set_items s (map (mark q0) (s_items s))).
Proof.
  intros (R & N & Rs & K). split; [|split; [|split; [exact Rs|]]].
  - destruct R as [R|(y & Iy & Ry)]; [contradiction|]. right. exists (mark q0 y). split; [cbn; apply in_map; exact Iy|exact Ry].
  - cbn. intros H. apply map_eq_nil in H. contradiction.
  - cbn [s_items set_items s_tz s_res_s s_prev_t]. destruct K as [(A & z & Z & T)|(A & d & p & E & P & Rd & Pp & Lp)]; [left|right].
    + split; [intros x Hx; apply in_map_iff in Hx; destruct Hx as (y & <- & Hy); pose proof (A y Hy) as Q; exact Q|]. exists z. split; [exact Z|]. intros x Hx. apply in_map_iff in Hx. destruct Hx as (y & <- & Hy). pose proof (T y Hy) as Q. exact Q.
    + split; [intros x Hx; apply in_map_iff in Hx; destruct Hx as (y & <- & Hy); pose proof (A y Hy) as Q; exact Q|]. exists d, p. repeat (split; [assumption|]).
      unfold last_t in *. destruct (last_item (s_items s)) as [la|] eqn:El; [|discriminate]. apply last_item_some in El. destruct El as [l' ->]. rewrite map_app. cbn [map]. rewrite last_item_snoc. exact Lp.
Qed.

Lemma series_append_kinds s x er : snd (series_append s x) = Err er -> er <> NotImplementedError.
Proof.
  unfold series_append. destruct (last_item (s_items s)), (item_type s); cbn; try discriminate. destruct (negb _); cbn; [intros H; injection H as <-; discriminate|]. destruct (negb _); cbn; [intros H; injection H as <-; discriminate|].
  destruct (s_ref s) as [[r|]|]; cbn; try discriminate; [|intros H; injection H as <-; discriminate]. destruct (data_truthy r); cbn; [|discriminate]. destruct (check_ref r x) as [|y] eqn:E; cbn; [discriminate|].
  intros H. injection H as <-. unfold check_ref, item_data in E. destruct (i_data x) as [dd|]; cbn in E; [|injection E as <-; discriminate].
  destruct r, dd; try (injection E as <-; discriminate); [destruct (Nat.eqb _ _)|destruct (same_set _ _)]; try discriminate; injection E as <-; discriminate.
Qed.

(* adding the next item: it is added, or nothing is but some settings, with an exception of the others *)
Lemma grow_append s la x : growing s -> last_item (s_items s) = Some la -> right_after c u la x ->
  match ts_append e s x with
  | (s', Ok _) => growing s' /\ s_items s' = s_items s ++ [x]
  | (s', Err er) => s_items s' = s_items s /\ s_res s' = s_res s /\ er <> NotImplementedError
  end.
Proof.
  intros (R & N & Rs & K) La RA. destruct (ts_append e s x) as [s' r] eqn:E.
  assert (Il : In la (s_items s)) by (apply last_item_some in La; destruct La as [l' ->]; apply in_app_iff; right; left; reflexivity).
  unfold right_after in RA. destruct K as [(A & z & Z & T)|(A & d & p & Eu & P & Rd & Pp & Lp)].
  - rewrite (A la Il) in RA. destruct RA as (Sx & Tx & Ux & Ex & Zx). pose proof E as E0. unfold ts_append in E. rewrite point_slot, Sx in E. cbn [negb] in E. unfold append_slot, series_tz in E. rewrite Z in E.
    rewrite Zx, (T la Il), String.eqb_refl in E. unfold check_unit in E. rewrite Rs, Ux, tunit_eqb_refl in E.
    destruct (series_append_fields _ _ _ _ E) as (F1 & F2 & F3 & F4). destruct r as [[]|er].
    + pose proof (ts_append_ok _ _ _ _ E0) as (I' & _). split; [|exact I']. split; [|split; [|split]].
      * apply (series_append_ref_inv _ _ _ _ E R).
      * rewrite I'. intros C. apply app_eq_nil in C. destruct C as [_ C]. discriminate.
      * congruence.
      * left. rewrite I', F3. split; [intros y Hy; apply in_app_iff in Hy; destruct Hy as [Hy|[<-|[]]]; auto|]. exists z. split; [exact Z|]. intros y Hy. apply in_app_iff in Hy. destruct Hy as [Hy|[<-|[]]]; [auto|]. rewrite Zx. auto.
    + split; [apply (ts_append_err _ _ _ _ _ E0)|]. split; [exact F1|]. apply (series_append_kinds s x). rewrite E. reflexivity.
  - assert (Sl : is_slot la = false) by (rewrite slot_point, (A la Il); reflexivity). rewrite Sl in RA. destruct RA as (Px & d' & Eu' & Tx). rewrite Eu in Eu'. injection Eu' as <-.
    unfold last_t in Lp. rewrite La in Lp. injection Lp as Lp. pose proof E as E0. unfold ts_append in E. rewrite Px in E. unfold append_point in E. rewrite Pp in E. destruct (s_items s) as [|a l] eqn:El; [contradiction|]. rewrite <- El in *.
    assert (Lt : Qclt p (i_t x)) by (rewrite Tx, <- Lp; clear - P; qlra).
    rewrite qltb_false in E by (apply Qclt_le_weak; exact Lt). rewrite qeqb_false in E by (intros X; rewrite X in Lt; apply (Qclt_not_eq _ _ Lt); reflexivity). rewrite Rs, Rd in E.
    assert (Ed : qeqb d (Qcminus (i_t x) p) = true) by (assert (X : Qcminus (i_t x) p = d) by (rewrite Tx, <- Lp; ring); rewrite X; apply qeqb_refl). rewrite Ed in E. cbn [negb] in E.
    destruct (series_append_fields _ _ _ _ E) as (F1 & F2 & F3 & F4). cbn in F1, F2, F3, F4. destruct r as [[]|er].
    + pose proof (ts_append_ok _ _ _ _ E0) as (I' & _). split; [|exact I']. split; [|split; [|split]].
      * apply (series_append_ref_inv _ _ _ _ E). destruct R as [R|R]; [left; exact R|right; exact R].
      * rewrite I'. intros C. apply app_eq_nil in C. destruct C as [_ C]. discriminate.
      * congruence.
      * right. rewrite I'. split; [intros y Hy; apply in_app_iff in Hy; destruct Hy as [Hy|[<-|[]]]; auto|]. exists d, (i_t x). split; [exact Eu|]. split; [exact P|]. split; [congruence|]. split; [exact F4|]. unfold last_t. rewrite last_item_snoc. reflexivity.
    + split; [apply (ts_append_err _ _ _ _ _ E0)|]. split; [exact F1|]. apply (series_append_kinds (set_prev s (Some (i_t x))) x). rewrite E. reflexivity.
Qed.
(* ... and it is added if it has the right type and labels *)
Lemma grow_accepts s la x : growing s -> last_item (s_items s) = Some la -> right_after c u la x -> (forall y, In y (s_items s) -> same_item_shape y x) ->
  exists s', ts_append e s x = (s', Ok tt).
Proof.
  intros G La RA Sh. pose proof G as (R & N & Rs & K).
  assert (Il : In la (s_items s)) by (apply last_item_some in La; destruct La as [l' ->]; apply in_app_iff; right; left; reflexivity).
  assert (Fo : follows x la = true).
  { unfold follows, right_after in *. destruct K as [(A & z & Z & T)|(A & d & p & Eu & P & Rd & Pp & Lp)].
    - rewrite (A la Il) in RA. destruct RA as (Sx & Tx & _). rewrite Sx. unfold succeeds. rewrite Tx, qeqb_refl. reflexivity.
    - rewrite slot_point, (A la Il) in RA. cbn [negb] in RA. destruct RA as (Px & d' & Eu' & Tx). rewrite Eu in Eu'. injection Eu' as <-. rewrite slot_point, Px. cbn [negb]. unfold point_gt. apply qltb_true. rewrite Tx. clear - P. qlra. }
  assert (Acc : forall s0, s_items s0 = s_items s -> s_ref s0 = s_ref s -> exists s', series_append s0 x = (s', Ok tt)).
  { intros s0 E1 E2. apply series_append_accepts.
    - unfold ref_inv in *. rewrite E1, E2. exact R.
    - rewrite E1. exact Sh.
    - rewrite E1. intros l' E. rewrite La in E. injection E as <-. exact Fo. }
  unfold right_after in RA. destruct K as [(A & z & Z & T)|(A & d & p & Eu & P & Rd & Pp & Lp)].
  - rewrite (A la Il) in RA. destruct RA as (Sx & Tx & Ux & Ex & Zx). unfold ts_append. rewrite point_slot, Sx. cbn [negb]. unfold append_slot, series_tz. rewrite Z.
    rewrite Zx, (T la Il), String.eqb_refl. unfold check_unit. rewrite Rs, Ux, tunit_eqb_refl. apply Acc; reflexivity.
  - rewrite slot_point, (A la Il) in RA. cbn [negb] in RA. destruct RA as (Px & d' & Eu' & Tx). rewrite Eu in Eu'. injection Eu' as <-.
    unfold last_t in Lp. rewrite La in Lp. injection Lp as Lp. unfold ts_append. rewrite Px. unfold append_point. rewrite Pp. destruct (s_items s) as [|a l] eqn:El; [contradiction|].
    assert (Lt : Qclt p (i_t x)) by (rewrite Tx, <- Lp; clear - P; qlra).
    rewrite qltb_false by (apply Qclt_le_weak; exact Lt). rewrite qeqb_false by (intros X; rewrite X in Lt; apply (Qclt_not_eq _ _ Lt); reflexivity). rewrite Rs, Rd.
    assert (Ed : qeqb d (Qcminus (i_t x) p) = true) by (assert (X : Qcminus (i_t x) p = d) by (rewrite Tx, <- Lp; ring); rewrite X; apply qeqb_refl). rewrite Ed. cbn [negb]. apply Acc; [exact El|reflexivity].
Qed.
End Grow.

(* ---------------- the next items ---------------- *)
Lemma update_context k d d' : NoDup (map fst k) -> update_data d k = Ok d' -> in_context (Some k) d d'.
Proof.
  intros N. unfold update_data. destruct d as [l|m]; [discriminate|]. intros H. injection H as <-. exists m. eexists. split; [reflexivity|]. split; [reflexivity|]. revert m.
  induction k as [|[a v] k IH]; intros m lb; cbn [fold_left fst snd dget]; [reflexivity|]. cbn in N. inversion N as [|? ? Na Nk]; subst. rewrite IH by exact Nk. destruct (String.eqb_spec lb a) as [->|X].
  - assert (E : dget a k = None). { destruct (dget a k) eqn:E; [|reflexivity]. exfalso. apply Na. apply dget_In. rewrite E. discriminate. } rewrite E, dget_dset, String.eqb_refl. reflexivity.
  - destruct (dget lb k); [reflexivity|]. rewrite dget_dset. apply String.eqb_neq in X. rewrite X. reflexivity.
Qed.

Section Apply.
Variables (e : env) (c : cal) (nadd : string -> Qc -> result Qc) (u : tunit) (F : forecaster) (ctx : option (dict Qc)).
Hypothesis Hctx : forall k, ctx = Some k -> NoDup (map fst k).
Hypothesis HF : forall r, fc_res F = Some r -> r = Some (RUnit u).

Lemma get_last s la : last_item (s_items s) = Some la -> ts_get_i s (-1) = Ok la.
Proof.
  intros L. apply last_item_some in L. destruct L as [l' El]. rewrite ts_get_i_in_range by (rewrite El, app_length; cbn [length]; lia). unfold py_index. destruct (Z.leb_spec 0 (-1)); [lia|].
  destruct (Z.leb_spec 0 (-1 + Z.of_nat (length (s_items s)))) as [X|X]; [|rewrite El, app_length in X; cbn [length] in X; lia]. replace (Z.to_nat (-1 + Z.of_nat (length (s_items s)))) with (length l') by (rewrite El, app_length; cbn [length]; lia).
  rewrite El, nth_error_snoc, Nat.eqb_refl. reflexivity.
Qed.
Lemma get_first s x l : s_items s = x :: l -> ts_get_i s 0 = Ok x.
Proof. intros E. unfold ts_get_i. rewrite E. reflexivity. Qed.

(* same kind, and physical units for points *)
Definition suits (first : item) : Prop := is_slot first = false -> exists d, u = UPhys d.
Lemma growing_first s a l : growing u s -> s_items s = a :: l -> suits a.
Proof.
  intros (_ & _ & _ & K) E Sa. destruct K as [(A & _)|(_ & d & p & Eu & _)]; [|eauto]. rewrite (A a) in Sa by (rewrite E; left; reflexivity). discriminate.
Qed.
Lemma growing_kind s x y : growing u s -> In x (s_items s) -> In y (s_items s) -> is_slot x = is_slot y.
Proof. intros (_ & _ & _ & K) Ix Iy. destruct K as [(A & _)|(A & _)]; [rewrite !A by assumption; reflexivity|]. rewrite !slot_point, !A by assumption. reflexivity. Qed.
Lemma next_of_right s first la d x : next_of c nadd s (Some (RUnit u)) first la d = Ok x -> is_slot first = is_slot la -> suits first ->
  right_after c u la (mark q1 x) /\ is_slot x = is_slot la /\ i_data x = Some d /\ i_tz (mark q1 x) = i_tz x.
Proof.
  intros H K Su. unfold next_of in H. unfold right_after. destruct (is_slot first) eqn:E.
  - rewrite <- K. injection H as <-. cbn. repeat split.
  - rewrite <- K. destruct (Su E) as [q Eu]. cbn [number_plus] in H. rewrite Eu in H. cbn in H. injection H as <-. cbn. split; [|repeat split]. split; [reflexivity|]. exists q. split; [exact Eu|reflexivity].
Qed.
Lemma right_after_mark la x : right_after c u (mark q1 la) x <-> right_after c u la x.
Proof. reflexivity. Qed.
Lemma next_items_right s first : resolution s = Some (RUnit u) -> suits first -> forall ds la xs, next_items c nadd s first la ds = Ok xs -> is_slot first = is_slot la ->
  consecutive (right_after c u) (la :: map (mark q1) xs) /\ map i_data xs = map Some ds.
Proof.
  intros R Su. induction ds as [|d ds IH]; intros la xs H K; cbn in H; [injection H as <-; split; [apply consecutive_one|reflexivity]|]. rewrite R in H.
  destruct (next_of _ _ _ _ _ _ d) as [x|] eqn:E; cbn in H; [|discriminate]. destruct (next_items _ _ _ _ x ds) as [xs'|] eqn:E'; cbn in H; [|discriminate]. injection H as <-.
  destruct (next_of_right _ _ _ _ _ E K Su) as (Ra & Kx & Dx & _). destruct (IH x xs' E') as [C D]; [congruence|]. split.
  - cbn [map]. apply consecutive_cons. split; [exact Ra|]. intros i a b Ha Hb. destruct i as [|i]; [|apply (C (S i) a b); assumption]. cbn in Ha. injection Ha as <-. apply right_after_mark. apply (C 0 x b eq_refl). exact Hb.
  - cbn. rewrite Dx, D. reflexivity.
Qed.

(* s' is s with the forecasts fs *)
Definition grown (s : series) (fs : list item) (s' : series) : Prop :=
  s_items s' = s_items s ++ fs /\ s_res s' = s_res s /\ Forall (forecast_is q1) fs /\
  forall la, last_item (s_items s) = Some la -> consecutive (right_after c u) (la :: fs).
Lemma grown_nil s s' : s_items s' = s_items s -> s_res s' = s_res s -> grown s [] s'.
Proof. intros A B. split; [rewrite A, app_nil_r; reflexivity|]. split; [exact B|]. split; [constructor|]. intros. apply consecutive_one. Qed.
Lemma grown_cons s x s1 fs s' : s_items s1 = s_items s ++ [x] -> s_res s1 = s_res s -> forecast_is q1 x -> (forall la, last_item (s_items s) = Some la -> right_after c u la x) ->
  grown s1 fs s' -> grown s (x :: fs) s'.
Proof.
  intros I R Fx Ra (G1 & G2 & G3 & G4). split; [rewrite G1, I, <- app_assoc; reflexivity|]. split; [congruence|]. split; [constructor; assumption|]. intros la La. apply consecutive_cons. split; [apply Ra; exact La|].
  apply G4. rewrite I. apply last_item_snoc.
Qed.
Lemma append_all_grown : forall xs s la s' o, growing u s -> last_item (s_items s) = Some la -> consecutive (right_after c u) (la :: map (mark q1) xs) ->
  append_all e s xs = (s', o) -> exists k, grown s (map (mark q1) (firstn k xs)) s' /\ o <> Err NotImplementedError /\ (o = Ok tt -> growing u s' /\ k = length xs).
Proof.
  unfold append_all. induction xs as [|x xs IH]; intros s la s' o G La C H; cbn [forM] in H.
  - injection H as <- <-. exists 0. split; [apply grown_nil; reflexivity|]. split; [discriminate|]. intros _. split; [exact G|reflexivity].
  - cbn [map] in C. assert (Ra : right_after c u la (mark q1 x)) by (apply (C 0); reflexivity). pose proof (grow_append e c u s la _ G La Ra) as A. destruct (ts_append e s (mark q1 x)) as [s1 [[]|er]].
    + destruct A as (G1 & I1). destruct (IH s1 (mark q1 x) s' o G1) as (k & K1 & K2 & K3); [rewrite I1; apply last_item_snoc|intros i a b Ha Hb; apply (C (S i) a b Ha Hb)|exact H|].
      exists (S k). split; [cbn [firstn map]; apply (grown_cons s _ s1); [exact I1| |apply mark_was| |exact K1]|split; [exact K2|intros E; destruct (K3 E) as [X ->]; split; [exact X|reflexivity]]].
      * destruct G as (_ & _ & R & _), G1 as (_ & _ & R1 & _). congruence.
      * intros l0 E0. rewrite La in E0. injection E0 as <-. exact Ra.
    + injection H as <- <-. destruct A as (I1 & R1 & N). exists 0. split; [apply grown_nil; assumption|]. split; [intros E; injection E as ->; apply N; reflexivity|discriminate].
Qed.

Lemma forecast_one s la steps : growing u s -> last_item (s_items s) = Some la -> forall x, forecast c nadd F s steps ctx = Ok (IOne x) ->
  right_after c u la (mark q1 x) /\ exists d d', fc_predict F s steps ctx = Ok (FOne d) /\ in_context ctx d d' /\ i_data x = Some d'.
Proof.
  intros G La x H. unfold forecast in H. destruct (check_targets F s ctx) as [[]|]; cbn in H; [|discriminate]. destruct (fc_predict F s steps ctx) as [pd|] eqn:P; cbn in H; [|discriminate].
  rewrite (get_last s la La) in H. cbn in H. destruct (s_items s) as [|a l] eqn:El; [discriminate|].
  assert (Ila : In la (s_items s)) by (rewrite <- El in La; apply last_item_some in La; destruct La as [l' ->]; apply in_app_iff; right; left; reflexivity).
  assert (Kd : is_slot a = is_slot la) by (apply (growing_kind s); [exact G|rewrite El; left; reflexivity|exact Ila]). pose proof (growing_first s a l G El) as Su.
  destruct pd as [d|ds].
  - destruct (match ctx with Some k => update_data d k | None => Ok d end) as [d'|] eqn:U; cbn in H; [|discriminate]. rewrite (get_first s a l El) in H. cbn in H.
    assert (Er : (if is_slot a then Ok (resolution s) else match fc_res F with Some r => Ok r | None => Err KeyError end) = Ok (Some (RUnit u)) \/ (if is_slot a then Ok (resolution s) else match fc_res F with Some r => Ok r | None => Err KeyError end) = Err KeyError).
    { destruct (is_slot a); [left; f_equal; apply G|]. destruct (fc_res F) as [r|] eqn:EF; [left; rewrite (HF r eq_refl); reflexivity|right; reflexivity]. }
    destruct Er as [Er|Er]; rewrite Er in H; cbn [bind] in H; [|discriminate]. destruct (next_of _ _ _ _ a la d') as [x'|] eqn:Ex; cbn in H; [|discriminate]. injection H as ->.
    destruct (next_of_right _ _ _ _ _ Ex Kd Su) as (Ra & _ & Dx & _). split; [exact Ra|]. exists d, d'. split; [reflexivity|]. split; [|exact Dx].
    destruct ctx as [k|] eqn:Ek; [apply update_context; [apply Hctx; reflexivity|exact U]|]. injection U as <-. reflexivity.
  - destruct ctx; [discriminate|]. destruct ds; [discriminate|]. destruct (ts_get_i s 0) as [b|]; cbn [bind] in H; [|discriminate]. destruct (next_items c nadd s b la (d :: ds)); cbn [bind] in H; discriminate.
Qed.
Lemma forecast_list s la steps : growing u s -> last_item (s_items s) = Some la -> forall xs, forecast c nadd F s steps ctx = Ok (IList xs) ->
  consecutive (right_after c u) (la :: map (mark q1) xs) /\ exists ds, fc_predict F s steps ctx = Ok (FList ds) /\ map i_data xs = map Some ds.
Proof.
  intros G La xs H. unfold forecast in H. destruct (check_targets F s ctx) as [[]|]; cbn in H; [|discriminate]. destruct (fc_predict F s steps ctx) as [pd|] eqn:P; cbn in H; [|discriminate].
  rewrite (get_last s la La) in H. cbn in H. destruct (s_items s) as [|a l] eqn:El; [discriminate|].
  assert (Ila : In la (s_items s)) by (rewrite <- El in La; apply last_item_some in La; destruct La as [l' ->]; apply in_app_iff; right; left; reflexivity).
  assert (Kd : is_slot a = is_slot la) by (apply (growing_kind s); [exact G|rewrite El; left; reflexivity|exact Ila]). pose proof (growing_first s a l G El) as Su.
  destruct pd as [d|ds].
  - exfalso. destruct (match ctx with Some k => update_data d k | None => Ok d end); cbn in H; [|discriminate]. rewrite (get_first s a l El) in H. cbn in H.
    destruct (if is_slot a then _ else _) as [r|]; cbn in H; [|discriminate]. destruct (next_of _ _ _ _ _ _ _); cbn in H; discriminate.
  - destruct ctx; [discriminate|]. destruct ds as [|d0 ds]; [injection H as <-; split; [apply consecutive_one|exists []; split; reflexivity]|]. rewrite (get_first s a l El) in H. cbn [bind] in H.
    destruct (next_items c nadd s a la (d0 :: ds)) as [xs'|] eqn:En; cbn [bind] in H; [|discriminate]. injection H as <-. destruct (next_items_right s a (proj1 (proj2 (proj2 G))) Su _ _ _ En Kd) as [C D]. split; [exact C|]. eauto.
Qed.
Lemma forecast_refused s steps : forecast c nadd F s steps ctx = Err NotImplementedError -> growing u s -> (forall s', check_targets F s' ctx <> Err NotImplementedError) ->
  fc_predict F s steps ctx = Err NotImplementedError \/ exists ds, ctx <> None /\ fc_predict F s steps ctx = Ok (FList ds).
Proof.
  intros H G T. unfold forecast in H. destruct (check_targets F s ctx) as [[]|x] eqn:Et; cbn in H; [|exfalso; injection H as ->; apply (T s); exact Et]. destruct (fc_predict F s steps ctx) as [pd|x] eqn:P; cbn in H; [|left; injection H as ->; reflexivity].
  assert (Hl : exists la, last_item (s_items s) = Some la) by (destruct (s_items s) as [|a l] eqn:El; [destruct G as (_ & N & _); contradiction|apply last_item_cons]). destruct Hl as [la La].
  rewrite (get_last s la La) in H. cbn in H. destruct (s_items s) as [|a l] eqn:El; [discriminate|]. assert (Ila : In la (s_items s)) by (rewrite <- El in La; apply last_item_some in La; destruct La as [l' ->]; apply in_app_iff; right; left; reflexivity).
  assert (Kd : is_slot a = is_slot la) by (apply (growing_kind s); [exact G|rewrite El; left; reflexivity|exact Ila]). pose proof (growing_first s a l G El) as Su.
  assert (Nx : forall b d y, is_slot b = is_slot a -> next_of c nadd s (Some (RUnit u)) a b d = Err y -> False).
  { intros b d y _. unfold next_of. destruct (is_slot a) eqn:Ea; [discriminate|]. destruct (Su Ea) as [q ->]. discriminate. }
  destruct pd as [d|ds].
  - exfalso. destruct ctx as [k|]; cbn in H.
    + destruct d as [l0|m]; cbn in H; [discriminate|]. rewrite (get_first s a l El) in H. cbn [bind] in H. destruct (is_slot a) eqn:Ea.
      * cbn [bind] in H. rewrite (proj1 (proj2 (proj2 G)) : resolution s = _) in H. destruct (next_of _ _ _ _ _ _ _) eqn:En; cbn in H; [discriminate|]. eapply Nx; [|exact En]. congruence.
      * destruct (fc_res F) as [r|] eqn:EF; cbn [bind] in H; [|discriminate]. rewrite (HF r eq_refl) in H. destruct (next_of _ _ _ _ _ _ _) eqn:En; cbn in H; [discriminate|]. eapply Nx; [|exact En]. congruence.
    + rewrite (get_first s a l El) in H. cbn [bind] in H. destruct (is_slot a) eqn:Ea.
      * cbn [bind] in H. rewrite (proj1 (proj2 (proj2 G)) : resolution s = _) in H. destruct (next_of _ _ _ _ _ _ _) eqn:En; cbn in H; [discriminate|]. eapply Nx; [|exact En]. congruence.
      * destruct (fc_res F) as [r|] eqn:EF; cbn [bind] in H; [|discriminate]. rewrite (HF r eq_refl) in H. destruct (next_of _ _ _ _ _ _ _) eqn:En; cbn in H; [discriminate|]. eapply Nx; [|exact En]. congruence.
  - destruct ctx; [right; exists ds; split; [discriminate|reflexivity]|]. exfalso. destruct ds as [|d0 ds]; [discriminate|]. rewrite (get_first s a l El) in H. cbn [bind] in H.
    assert (E : forall ds b, is_slot b = is_slot a -> exists xs, next_items c nadd s a b ds = Ok xs).
    { induction ds0 as [|d1 ds0 IH]; intros b Kb; cbn; [eauto|]. rewrite (proj1 (proj2 (proj2 G)) : resolution s = _). destruct (next_of c nadd s (Some (RUnit u)) a b d1) as [y|y] eqn:Ey; [|exfalso; apply (Nx b d1 y Kb Ey)]. cbn.
      destruct (next_of_right _ _ _ _ _ Ey (eq_sym Kb) Su) as (_ & Ky & _). destruct (IH y) as [xs ->]; [congruence|]. cbn. eauto. }
    destruct (E (d0 :: ds) la (eq_sym Kd)) as [xs Ex]. rewrite Ex in H. discriminate.
Qed.

Lemma one_steps : forall n a s s' o, growing u s -> forM (fun s _ => one_step e c nadd F ctx s) (seq a n) s = (s', o) ->
  exists fs, grown s fs s' /\ (o = Ok tt -> length fs = n /\ growing u s') /\
    forall k x, nth_error fs k = Some x -> exists sk d d', s_items sk = s_items s ++ firstn k fs /\ fc_predict F sk 1 ctx = Ok (FOne d) /\ in_context ctx d d' /\ i_data x = Some d'.
Proof.
  induction n as [|n IH]; intros a s s' o G H; cbn in H.
  - injection H as <- <-. exists []. split; [apply grown_nil; reflexivity|]. split; [auto|]. intros [|k] x Hx; discriminate.
  - assert (Hl : exists la, last_item (s_items s) = Some la) by (destruct (s_items s) as [|b l] eqn:El; [destruct G as (_ & N & _); contradiction|apply last_item_cons]). destruct Hl as [la La].
    assert (Z : forall er, one_step e c nadd F ctx s = (s, Err er) -> exists fs, grown s fs s' /\ (o = Ok tt -> length fs = S n /\ growing u s') /\
       forall k x, nth_error fs k = Some x -> exists sk d d', s_items sk = s_items s ++ firstn k fs /\ fc_predict F sk 1 ctx = Ok (FOne d) /\ in_context ctx d d' /\ i_data x = Some d').
    { intros er E. rewrite E in H. injection H as <- <-. exists []. split; [apply grown_nil; reflexivity|]. split; [discriminate|]. intros [|k] x Hx; discriminate. }
    unfold one_step in H, Z at 1. destruct (forecast c nadd F s 1 ctx) as [[x|l]|er] eqn:Ef; [|apply (Z AttributeError); reflexivity|apply (Z er); reflexivity]. clear Z.
    destruct (forecast_one s la 1 G La x Ef) as (Ra & d & d' & Pd & Cd & Dx). pose proof (grow_append e c u s la _ G La Ra) as A. destruct (ts_append e s (mark q1 x)) as [s1 [[]|er]].
    + destruct A as (G1 & I1). destruct (IH (S a) s1 s' o G1 H) as (fs & K1 & K2 & K3). exists (mark q1 x :: fs). split; [|split].
      * apply (grown_cons s _ s1); [exact I1| |apply mark_was| |exact K1].
        -- destruct G as (_ & _ & R & _), G1 as (_ & _ & R1 & _). congruence.
        -- intros l0 E0. rewrite La in E0. injection E0 as <-. exact Ra.
      * intros E. destruct (K2 E) as [L G']. cbn. split; [lia|exact G'].
      * intros [|k] y Hy; cbn in Hy.
        -- injection Hy as <-. exists s, d, d'. rewrite app_nil_r. auto.
        -- destruct (K3 k y Hy) as (sk & d1 & d1' & S1 & S2). exists sk, d1, d1'. split; [rewrite S1, I1, <- app_assoc; reflexivity|exact S2].
    + injection H as <- <-. destruct A as (I1 & R1 & N). exists []. split; [apply grown_nil; assumption|]. split; [discriminate|]. intros [|k] y Hy; discriminate.
Qed.
End Apply.
