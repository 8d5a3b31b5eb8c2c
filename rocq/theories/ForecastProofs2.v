(* ForecastProofs2.v -- proofs: applying a forecaster, outcomes (C54). *)
From Verif Require Import SpecForecast BaseLemmas DictLemmas PropTactics.
From Verif Require Import SeriesProofs SeriesProofs2 SeriesProofs3 SeriesProofs4 AccessProofs AccessProofs2 AccessProofs3 OpsProofs OpsProofs2 OpsProofs3 OpsProofs8 InterpProofs ReconProofs ReconProofs2 ForecastProofs.

Lemma targets_kinds F s ctx : check_targets F s ctx <> Err NotImplementedError.
Proof.
  unfold check_targets, labels_of, ts_data_labels, item_data. destruct (fc_targets F) as [t|]; [|discriminate]. destruct (s_items s) as [|x l]; cbn; [discriminate|]. destruct (ref_missing s); cbn; [discriminate|].
  destruct (i_data x); cbn; [|discriminate]. destruct (same_set _ _); [discriminate|]. destruct ctx; discriminate.
Qed.

Section Outcome.
Variables (e : env) (c : cal) (nadd : string -> Qc -> result Qc) (u : tunit) (F : forecaster) (ctx : option (dict Qc)) (s : series) (steps : nat).
Hypothesis R : ready e s.
Hypothesis S : steady s u.
Hypothesis HR : fitted_like F s.
Hypothesis Hctx : forall k, ctx = Some k -> NoDup (map fst k).
Notation s1 := (set_items s (map (mark q0) (s_items s))).

Lemma HF' : forall r, fc_res F = Some r -> r = Some (RUnit u).
Proof. intros r E. rewrite (HR r E). apply S. Qed.
Lemma G1 : growing u s1.
Proof. apply growing_mark, (growing_start e); assumption. Qed.
Lemma has_data : forall x, In x (s_items s) -> i_data x <> None.
Proof. intros x Hx. destruct R as (_ & _ & _ & D & _). destruct (D x Hx) as [d ->]. discriminate. Qed.
Lemma last1 la : last_item (s_items s) = Some la -> last_item (s_items s1) = Some (mark q0 la).
Proof. intros L. apply last_item_some in L. destruct L as [l' E]. cbn [s_items set_items]. rewrite E, map_app. apply last_item_snoc. Qed.

Lemma apply_any s' o : fc_apply_inplace e c nadd F s steps ctx = (s', o) ->
  (s' = s /\ o <> Ok tt) \/
  exists fs, grown c u s1 fs s' /\ (o = Ok tt -> length fs = steps /\ predicted F steps ctx s1 fs).
Proof.
  intros H. unfold fc_apply_inplace in H. destruct (check_targets F s ctx) as [[]|x]; [|injection H as <- <-; left; split; [reflexivity|discriminate]].
  rewrite mark_all_ok in H by exact has_data. right.
  assert (Hl : exists la, last_item (s_items s1) = Some la) by (destruct (s_items s1) as [|b l] eqn:El; [destruct G1 as (_ & N & _); rewrite El in N; contradiction|apply last_item_cons]). destruct Hl as [la La].
  assert (Fin : forall fs s2 o2 (P : Prop), grown c u s1 fs s2 -> (o2 = Ok tt -> P) ->
    (match o2 with Err x => (s2, Err x) | Ok _ => if Nat.eqb (length (s_items s) + steps) (length (s_items s2)) then (s2, Ok tt) else (s2, Err ValueError) end) = (s', o) ->
    grown c u s1 fs s' /\ (o = Ok tt -> length fs = steps /\ P)).
  { intros fs s2 o2 P Gr HP E. destruct o2 as [[]|x]; [|injection E as <- <-; split; [exact Gr|discriminate]].
    assert (Ls : length (s_items s2) = length (s_items s) + length fs) by (destruct Gr as (I & _); rewrite I, app_length; cbn; rewrite map_length; reflexivity).
    destruct (Nat.eqb_spec (length (s_items s) + steps) (length (s_items s2))); injection E as <- <-; (split; [exact Gr|]); [|discriminate]. intros _. split; [lia|apply HP; reflexivity]. }
  destruct (forecast c nadd F s1 steps ctx) as [[x|xs]|er] eqn:Ef.
  - destruct (forecast_one c nadd u F ctx Hctx HF' s1 la steps G1 La x Ef) as (Ra & d & d' & Pd & Cd & Dx). pose proof (grow_append e c u s1 la _ G1 La Ra) as A. destruct (ts_append e s1 (mark q1 x)) as [s2 [[]|er]].
    + destruct A as (G2 & I2). exists [mark q1 x].
      assert (Gr : grown c u s1 [mark q1 x] s2).
      { apply (grown_cons c u s1 _ s2); [exact I2| |apply mark_was| |apply grown_nil; reflexivity]; [destruct G1 as (_ & _ & R1 & _), G2 as (_ & _ & R2 & _); congruence|]. intros l0 E0. rewrite La in E0. injection E0 as <-. exact Ra. }
      refine (Fin _ s2 (Ok tt) _ Gr _ H). intros _. right. left. exists d, d', (mark q1 x). auto.
    + destruct A as (I2 & R2 & N2). exists []. assert (H' : (s2, Err er) = (s', o)) by (destruct er; try exact H; exfalso; apply N2; reflexivity). injection H' as <- <-. split; [apply grown_nil; assumption|discriminate].
  - destruct (forecast_list c nadd u F ctx Hctx s1 la steps G1 La xs Ef) as (C & ds & Pd & Dd). destruct (append_all e s1 xs) as [s2 o2] eqn:Ea.
    destruct (append_all_grown e c u xs s1 la s2 o2 G1 La C Ea) as (k & Gr & N2 & Ok2). exists (map (mark q1) (firstn k xs)).
    refine (Fin _ s2 o2 _ Gr _ _).
    + intros E. destruct (Ok2 E) as [_ ->]. left. exists ds. split; [exact Pd|]. rewrite firstn_all, map_map. exact Dd.
    + destruct o2 as [|er]; [exact H|]. destruct er; try exact H. exfalso. apply N2. reflexivity.
  - assert (Z : er <> NotImplementedError -> exists fs, grown c u s1 fs s' /\ (o = Ok tt -> length fs = steps /\ predicted F steps ctx s1 fs)).
    { intros N. exists []. assert (H' : (s1, Err er) = (s', o)) by (destruct er; try exact H; exfalso; apply N; reflexivity). injection H' as <- <-. split; [apply grown_nil; reflexivity|discriminate]. }
    destruct er; try (apply Z; discriminate). clear Z. cbn beta iota in H.
    destruct (forM (fun s _ => one_step e c nadd F ctx s) (seq 0 steps) s1) as [s2 o2] eqn:Ef2. destruct (one_steps e c nadd u F ctx Hctx HF' steps 0 s1 s2 o2 G1 Ef2) as (fs & Gr & L2 & P2). exists fs.
    refine (Fin _ s2 o2 _ Gr _ H). intros _. right. right. split; [|exact P2]. apply (forecast_refused c nadd u F ctx Hctx HF' s1 steps Ef G1). intros s0. apply targets_kinds.
Qed.

(* the same, in the words of the specification *)
Lemma grown_meaning fs s' : grown c u s1 fs s' ->
  exists before, s_items s' = before ++ fs /\ Forall2 (fun x y => as_it_was x y /\ forecast_is q0 y) (s_items s) before /\ resolution s' = resolution s /\
    Forall (forecast_is q1) fs /\ forall la, last_item (s_items s) = Some la -> consecutive (right_after c u) (la :: fs).
Proof.
  intros (I & Rs & Fm & C). exists (map (mark q0) (s_items s)). split; [exact I|]. split; [|split; [exact Rs|split; [exact Fm|]]].
  - generalize (s_items s). induction l as [|x l IH]; constructor; [apply mark_was|exact IH].
  - intros la La. specialize (C _ (last1 la La)). intros i a b Ha Hb. destruct i as [|i]; [cbn in Ha; injection Ha as <-; apply (C 0 (mark q0 la) b eq_refl Hb)|apply (C (Datatypes.S i) a b Ha Hb)].
Qed.

(* ---------------- success ---------------- *)
Hypothesis HT : check_targets F s None = Ok tt.
Definition fit_in (y : item) : Prop := exists d, i_data y = Some d /\ labelled s d /\ (i_cls y = CDataTimePoint \/ i_cls y = CDataTimeSlot).
Lemma labelled_data d x : In x (s_items s) -> i_data x = Some (DDict d) -> labelled s (DDict d).
Proof.
  intros Ix Dx. exists d. split; [reflexivity|]. intros y lb Iy. destruct R as (_ & N & _ & D & _). destruct (D y Iy) as [dy Hy].
  assert (Sh : same_item_shape x y) by (apply N; assumption). destruct Sh as (_ & Sh). rewrite Dx, Hy in Sh. cbn in Sh. unfold dkeys. rewrite Sh. unfold has_label, has_value. rewrite Hy. split.
  - intros Hk. apply in_map_iff in Hk. destruct Hk as ([a v] & <- & Hv). exists v. exact Hv.
  - intros [v Hv]. apply in_map_iff. exists (lb, v). auto.
Qed.
Lemma fit_in_start y : In y (s_items s1) -> fit_in y.
Proof.
  intros Hy. cbn in Hy. apply in_map_iff in Hy. destruct Hy as (x & <- & Ix). pose proof R as (_ & N & _ & D & _). destruct (D x Ix) as [d Hd]. exists (DDict d). split; [exact Hd|]. split; [apply (labelled_data d x Ix Hd)|]. destruct N as (_ & N & _). destruct (N x Ix) as (Q & _). exact Q.
Qed.
Lemma fit_in_shape y z : fit_in y -> fit_in z -> is_slot y = is_slot z -> same_item_shape y z.
Proof.
  intros (d & Dy & (m & -> & Lm) & Cy) (d' & Dz & (m' & -> & Lm') & Cz) K. split.
  - unfold is_slot in K. destruct Cy as [Cy|Cy], Cz as [Cz|Cz]; rewrite Cy, Cz in *; try reflexivity; discriminate.
  - rewrite Dy, Dz. cbn. intros k. destruct R as (_ & N & _). destruct (s_items s) as [|x l]; [destruct N as (N & _); contradiction|].
    unfold dkeys in Lm, Lm'. rewrite (Lm x k (or_introl eq_refl)), (Lm' x k (or_introl eq_refl)). reflexivity.
Qed.
Lemma next_fits sk r a la d x : next_of c nadd sk r a la d = Ok x -> labelled s d -> fit_in x /\ (is_slot x = is_slot a).
Proof.
  unfold next_of. destruct (is_slot a) eqn:Ea; intros H L.
  - destruct r as [[|u']|]; try discriminate. injection H as <-. split; [|reflexivity]. exists d. split; [reflexivity|]. split; [exact L|right; reflexivity].
  - destruct (number_plus nadd (i_t la) r) as [t|]; cbn in H; [|discriminate]. injection H as <-. split; [|reflexivity]. exists d. split; [reflexivity|]. split; [exact L|left; reflexivity].
Qed.
Lemma fits_accept sk la x : growing u sk -> (forall y, In y (s_items sk) -> fit_in y) -> last_item (s_items sk) = Some la -> right_after c u la x -> fit_in x ->
  exists s', ts_append e sk x = (s', Ok tt) /\ growing u s' /\ s_items s' = s_items sk ++ [x] /\ (forall y, In y (s_items s') -> fit_in y).
Proof.
  intros G Fi La Ra Fx. destruct (grow_accepts e c u sk la x G La Ra) as [s' E].
  - intros y Hy. apply fit_in_shape; [apply Fi; exact Hy|exact Fx|]. assert (Il : In la (s_items sk)) by (apply last_item_some in La; destruct La as [l' ->]; apply in_app_iff; right; left; reflexivity).
    rewrite (growing_kind u sk y la G Hy Il). unfold right_after in Ra. destruct (is_slot la) eqn:El; [destruct Ra as (-> & _); reflexivity|]. destruct Ra as (Px & _). rewrite slot_point, Px. reflexivity.
  - exists s'. pose proof (grow_append e c u sk la x G La Ra) as A. rewrite E in A. destruct A as (G' & I'). split; [exact E|]. split; [exact G'|]. split; [exact I'|]. intros y Hy. rewrite I' in Hy. apply in_app_iff in Hy. destruct Hy as [Hy|[<-|[]]]; auto.
Qed.
Lemma next_of_ok sk a la d : suits u a -> exists x, next_of c nadd sk (Some (RUnit u)) a la d = Ok x.
Proof. intros Su. unfold next_of. destruct (is_slot a) eqn:Ea; [eauto|]. destruct (Su Ea) as [q ->]. cbn. eauto. Qed.
Lemma fit_mark v x : fit_in x -> fit_in (mark v x).
Proof. intros H. exact H. Qed.
Lemma next_items_ok sk a : resolution sk = Some (RUnit u) -> suits u a -> forall ds la, (forall d, In d ds -> labelled s d) -> exists xs, next_items c nadd sk a la ds = Ok xs /\ length xs = length ds /\ forall x, In x xs -> fit_in x.
Proof.
  intros Rs Su. induction ds as [|d ds IH]; intros la L; cbn [next_items]; [exists []; repeat split; intros x []|]. rewrite Rs.
  destruct (next_of_ok sk a la d Su) as [x Ex]. rewrite Ex. cbn [bind]. destruct (IH x) as (xs & -> & Ln & Fi); [intros d0 H0; apply L; right; exact H0|]. cbn [bind]. exists (x :: xs). split; [reflexivity|]. split; [cbn; lia|].
  intros y [<-|Hy]; [|apply Fi; exact Hy]. apply (next_fits _ _ _ _ _ _ Ex). apply L. left. reflexivity.
Qed.
Lemma append_all_ok : forall xs sk la, growing u sk -> (forall y, In y (s_items sk) -> fit_in y) -> last_item (s_items sk) = Some la -> consecutive (right_after c u) (la :: map (mark q1) xs) -> (forall x, In x xs -> fit_in x) ->
  exists s', append_all e sk xs = (s', Ok tt) /\ length (s_items s') = length (s_items sk) + length xs.
Proof.
  unfold append_all. induction xs as [|x xs IH]; intros sk la G Fi La C Fx; cbn [forM].
  - exists sk. split; [reflexivity|]. cbn. lia.
  - cbn [map] in C. assert (Ra : right_after c u la (mark q1 x)) by (apply (C 0); reflexivity). destruct (fits_accept sk la (mark q1 x) G Fi La Ra) as (s' & E & G' & I' & F'); [apply fit_mark, Fx; left; reflexivity|]. rewrite E.
    destruct (IH s' (mark q1 x) G' F') as (s'' & E'' & L''); [rewrite I'; apply last_item_snoc|intros i y z Hy Hz; apply (C (Datatypes.S i) y z Hy Hz)|intros y Hy; apply Fx; right; exact Hy|].
    exists s''. split; [exact E''|]. rewrite L'', I', app_length. cbn. lia.
Qed.
Lemma targets_same sk : s_items sk <> [] -> (forall y, In y (s_items sk) -> fit_in y) -> growing u sk -> nth_error (s_items sk) 0 = nth_error (s_items s1) 0 -> check_targets F sk None = Ok tt.
Proof.
  intros Nn Fi G E0. unfold check_targets in *. destruct (fc_targets F) as [t|]; [|reflexivity].
  destruct (s_items sk) as [|a l] eqn:El; [contradiction|]. cbn [nth_error] in E0. destruct (s_items s) as [|x r] eqn:Es; [discriminate|]. cbn in E0. injection E0 as ->.
  assert (RM : ref_missing sk = false).
  { destruct G as ([Gr|(y & Iy & Gr)] & _); [congruence|]. unfold ref_missing. rewrite El, Gr. rewrite El in Iy. destruct (Fi y Iy) as (d & -> & (m & -> & Lm) & _). cbn. destruct m as [|kv m]; [|reflexivity]. exfalso.
    destruct R as (_ & (_ & Ni & _) & _ & D & _). rewrite Es in *. specialize (Ni x (or_introl eq_refl)). destruct (D x (or_introl eq_refl)) as [dx Hx]. destruct Ni as (_ & Ni). rewrite Hx in Ni. destruct Ni as (Ni & _). destruct dx as [|[k v] dx]; [contradiction|].
    apply (Lm x k); [try rewrite Es; left; reflexivity|]. exists v. unfold has_value. rewrite Hx. left. reflexivity. }
  assert (Ls : labels_of sk = labels_of s).
  { unfold labels_of, ts_data_labels. rewrite El, Es, RM. assert (RS : ref_missing s = false).
    { destruct R as ((tz & B) & N & _). apply (history_ref e); [apply built_history; [exists tz; exact B|exact N]|exact N]. }
    rewrite RS. reflexivity. }
  rewrite Ls. exact HT.
Qed.
Lemma succeeds_list ds : fc_predict F s1 steps None = Ok (FList ds) -> length ds = steps -> (forall d, In d ds -> labelled s d) -> exists s', fc_apply_inplace e c nadd F s steps None = (s', Ok tt).
Proof.
  intros P L Lb. unfold fc_apply_inplace. rewrite HT. rewrite mark_all_ok by exact has_data.
  assert (Hl : exists la, last_item (s_items s1) = Some la) by (destruct (s_items s1) as [|b l] eqn:El; [destruct G1 as (_ & N & _); rewrite El in N; contradiction|apply last_item_cons]). destruct Hl as [la La].
  assert (El : exists a l, s_items s1 = a :: l) by (destruct (s_items s1) as [|b l]; [discriminate|eauto]). destruct El as (a & l & El).
  assert (Ila : In la (s_items s1)) by (apply last_item_some in La; destruct La as [l' ->]; apply in_app_iff; right; left; reflexivity).
  assert (Kd : is_slot a = is_slot la) by (apply (growing_kind u s1); [exact G1|rewrite El; left; reflexivity|exact Ila]). pose proof (growing_first u s1 a l G1 El) as Su.
  assert (Fc : exists xs, forecast c nadd F s1 steps None = Ok (IList xs) /\ length xs = steps /\ (forall x, In x xs -> fit_in x)).
  { unfold forecast. rewrite (targets_same s1); [|rewrite El; discriminate|exact fit_in_start|exact G1|reflexivity]. cbn [bind]. rewrite P. cbn [bind]. rewrite (get_last s1 la La). cbn [bind]. destruct ds as [|d0 ds]; [exists []; split; [reflexivity|]; split; [exact L|intros x []]|].
    rewrite (get_first s1 a l El). cbn [bind]. destruct (next_items_ok s1 a (proj1 (proj2 (proj2 G1))) Su (d0 :: ds) la Lb) as (xs & -> & Ln & Fi). cbn [bind]. exists xs. split; [reflexivity|]. split; [congruence|exact Fi]. }
  destruct Fc as (xs & Ef & Lx & Fx). rewrite Ef. destruct (forecast_list c nadd u F None (fun k E => ltac:(discriminate)) s1 la steps G1 La xs Ef) as (C & _).
  destruct (append_all_ok xs s1 la G1 fit_in_start La C Fx) as (s2 & E2 & L2). rewrite E2. rewrite L2. cbn [s_items set_items]. rewrite map_length, Lx, Nat.eqb_refl. eauto.
Qed.
Hypothesis Hone : forall sk, (exists fs, s_items sk = s_items s1 ++ fs) -> exists d, fc_predict F sk 1 None = Ok (FOne d) /\ labelled s d.
Hypothesis Hres : fc_res F <> None \/ all_slots (s_items s).
Lemma one_forecast sk fs : s_items sk = s_items s1 ++ fs -> growing u sk -> (forall y, In y (s_items sk) -> fit_in y) -> forall la, last_item (s_items sk) = Some la ->
  exists x, forecast c nadd F sk 1 None = Ok (IOne x) /\ fit_in x.
Proof.
  intros Ik G Fi la La. destruct (Hone sk (ex_intro _ fs Ik)) as (d & P & Ld). assert (Ne : s_items sk <> []) by apply G. destruct (s_items sk) as [|a l] eqn:El; [contradiction|]. rewrite <- El in *.
  assert (H0 : nth_error (s_items sk) 0 = nth_error (s_items s1) 0).
  { rewrite Ik. destruct (s_items s1) as [|b r] eqn:E1; [destruct G1 as (_ & N & _); rewrite E1 in N; contradiction|reflexivity]. }
  unfold forecast. rewrite (targets_same sk Ne Fi G H0). cbn [bind]. rewrite P. cbn [bind]. rewrite (get_last sk la La). cbn [bind]. rewrite (get_first sk a l El). cbn [bind].
  pose proof (growing_first u sk a l G El) as Su. destruct (next_of_ok sk a la d Su) as [x Ex]. exists x.
  assert (E : (if is_slot a then Ok (resolution sk) else match fc_res F with Some r => Ok r | None => Err KeyError end) = Ok (Some (RUnit u))).
  { destruct (is_slot a) eqn:Ea; [f_equal; apply G|]. destruct (fc_res F) as [r|] eqn:EF; [rewrite (HF' r EF); reflexivity|]. exfalso. destruct Hres as [Hr|Hs]; [apply Hr; reflexivity|].
    rewrite El in H0. cbn in H0. destruct (s_items s) as [|x0 r0] eqn:Es; [discriminate|]. cbn in H0. injection H0 as ->. specialize (Hs x0 (or_introl eq_refl)). unfold is_slot in Ea, Hs. cbn in Ea. congruence. }
  rewrite E. cbn [bind]. rewrite Ex. cbn [bind]. split; [reflexivity|]. apply (next_fits _ _ _ _ _ _ Ex Ld).
Qed.
Lemma one_steps_ok : forall n a sk fs, s_items sk = s_items s1 ++ fs -> growing u sk -> (forall y, In y (s_items sk) -> fit_in y) ->
  exists s', forM (fun s _ => one_step e c nadd F None s) (seq a n) sk = (s', Ok tt) /\ length (s_items s') = length (s_items sk) + n.
Proof.
  induction n as [|n IH]; intros a sk fs Ik G Fi; cbn [seq forM]; [exists sk; split; [reflexivity|lia]|].
  assert (Hl : exists la, last_item (s_items sk) = Some la) by (destruct (s_items sk) as [|b l] eqn:El; [destruct G as (_ & N & _); contradiction|apply last_item_cons]). destruct Hl as [la La].
  destruct (one_forecast sk fs Ik G Fi la La) as (x & Ef & Fx). unfold one_step at 1. rewrite Ef. destruct (forecast_one c nadd u F None (fun k E => ltac:(discriminate)) HF' sk la 1 G La x Ef) as (Ra & _).
  destruct (fits_accept sk la (mark q1 x) G Fi La Ra (fit_mark q1 x Fx)) as (s' & E & G' & I' & F'). rewrite E. destruct (IH (Datatypes.S a) s' (fs ++ [mark q1 x])) as (s'' & E'' & L''); [rewrite I', Ik, <- app_assoc; reflexivity|exact G'|exact F'|].
  exists s''. split; [exact E''|]. rewrite L'', I', app_length. cbn. lia.
Qed.
Lemma succeeds_one : steps = 1 \/ fc_predict F s1 steps None = Err NotImplementedError -> exists s', fc_apply_inplace e c nadd F s steps None = (s', Ok tt).
Proof.
  intros C. unfold fc_apply_inplace. rewrite HT. rewrite mark_all_ok by exact has_data.
  assert (Hl : exists la, last_item (s_items s1) = Some la) by (destruct (s_items s1) as [|b l] eqn:El; [destruct G1 as (_ & N & _); rewrite El in N; contradiction|apply last_item_cons]). destruct Hl as [la La].
  assert (I0 : s_items s1 = s_items s1 ++ []) by (rewrite app_nil_r; reflexivity).
  assert (D : (steps = 1 /\ exists x, forecast c nadd F s1 steps None = Ok (IOne x) /\ fit_in x) \/ forecast c nadd F s1 steps None = Err NotImplementedError).
  { destruct C as [C|C]; [left; split; [exact C|rewrite C; apply (one_forecast s1 [] I0 G1 fit_in_start la La)]|right]. unfold forecast. rewrite (targets_same s1); [cbn [bind]; rewrite C; reflexivity|apply G1|exact fit_in_start|exact G1|reflexivity]. }
  destruct D as [(-> & x & Ef & Fx)|Ef]; rewrite Ef.
  - destruct (forecast_one c nadd u F None (fun k E => ltac:(discriminate)) HF' s1 la 1 G1 La x Ef) as (Ra & _). destruct (fits_accept s1 la (mark q1 x) G1 fit_in_start La Ra (fit_mark q1 x Fx)) as (s' & E & _ & I' & _). rewrite E.
    rewrite I', app_length. cbn [s_items set_items length]. rewrite map_length, Nat.eqb_refl. eauto.
  - cbn beta iota. destruct (one_steps_ok steps 0 s1 [] I0 G1 fit_in_start) as (s' & E & L). rewrite E. rewrite L. cbn [s_items set_items]. rewrite map_length, Nat.eqb_refl. eauto.
Qed.
End Outcome.
