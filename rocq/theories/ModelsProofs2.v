(* ModelsProofs2.v -- proofs for the cross validation. *)
From Verif Require Import SpecModels BaseLemmas ModelsProofs.

Lemma mrun_app {P A} (L : logic P A) m h h' : mrun L m (h ++ h') = mrun L (mrun L m h) h'.
Proof. unfold mrun. apply fold_left_app. Qed.

Lemma firstn_S_nth {X} : forall (l : list X) i x, nth_error l i = Some x -> firstn (S i) l = firstn i l ++ [x].
Proof. induction l as [|y l IH]; intros [|i] x H; try discriminate; cbn in H; [injection H as ->; reflexivity|]. cbn [firstn app]. f_equal. apply IH. exact H. Qed.
Lemma nth_error_skipn {X} : forall n (l : list X) i, nth_error (skipn n l) i = nth_error l (n + i).
Proof. induction n as [|n IH]; intros [|x l] i; try reflexivity; [destruct i; reflexivity|apply IH]. Qed.

(* ---- a cross validation is a sequence of calls ---- *)
Section History.
Context {P A : Type} (L : logic P A) (window : option nat).
Lemma fit_eq m a m' o : do_fit L m a = (m', o) -> m' = mrun L m [MFit a].
Proof. intros H. cbn. rewrite H. reflexivity. Qed.
Lemma call_eq m k a g m' o : do_call L m k a g = (m', o) -> m' = mrun L m [MCall k a g].
Proof. intros H. cbn. rewrite H. reflexivity. Qed.
Lemma cv_round_history s rounds m i m' r : cv_round L None window s rounds m i = (m', r) ->
  exists h, m' = mrun L m h /\ (is_ok r = true -> m_fitted m' = false).
Proof.
  unfold cv_round. destruct (do _ <- _; _); [|intros H; injection H as <- <-; exists []; split; [reflexivity|discriminate]].
  destruct (round_fits (length (s_items s)) rounds i window) as [f g]. destruct (do_fit L m (AView s (fst f) (snd f))) as [m1 o1] eqn:E1. pose proof (fit_eq _ _ _ _ E1) as H1.
  destruct o1 as [x|[u|x]]; [intros H; injection H as <- <-; eexists; split; [exact H1|discriminate]| |intros H; injection H as <- <-; eexists; split; [exact H1|discriminate]].
  replace (match g with Some g0 => do_update L None m1 (AView s (fst g0) (snd g0)) | None => (m1, Ok tt) end) with (m1, @Ok unit tt) by (destruct g; reflexivity).
  destruct (do_call L m1 KEvaluate _ false) as [m2 o2] eqn:E2. pose proof (call_eq _ _ _ _ _ _ E2) as H2. rewrite H1 in H2. rewrite <- mrun_app in H2.
  destruct o2 as [x|[v|x]]; intros H; injection H as <- <-.
  - eexists; split; [exact H2|discriminate].
  - eexists (_ ++ [MUnset]). rewrite mrun_app. split; [rewrite <- H2; reflexivity|intros _; reflexivity].
  - eexists; split; [exact H2|discriminate].
Qed.
Lemma cv_rounds_history s rounds : forall is m m' r, cv_rounds L None window s rounds m is = (m', r) ->
  exists h, m' = mrun L m h /\ (m_fitted m = false -> is_ok r = true -> m_fitted m' = false).
Proof.
  induction is as [|i is IH]; intros m m' r H; cbn in H; [injection H as <- <-; exists []; split; [reflexivity|congruence]|].
  destruct (cv_round L None window s rounds m i) as [m1 [v|x]] eqn:E; apply cv_round_history in E; destruct E as (h1 & E1 & F1).
  - destruct (cv_rounds L None window s rounds m1 is) as [m2 vs] eqn:E2. apply IH in E2. destruct E2 as (h2 & E2 & F2). injection H as <- <-. exists (h1 ++ h2). rewrite mrun_app, <- E1. split; [exact E2|].
    intros _ K. apply F2; [apply F1; reflexivity|destruct vs; [reflexivity|discriminate]].
  - injection H as <- <-. exists h1. split; [exact E1|discriminate].
Qed.
Lemma cv_history m a rounds m' r : cross_validate L None window m a rounds = (m', r) ->
  exists h, m' = mrun L m h /\ (is_ok r = true -> m_fitted m' = false).
Proof.
  unfold cross_validate. destruct (m_fitted m) eqn:F; [intros H; injection H as <- <-; exists []; split; [reflexivity|discriminate]|].
  destruct (check_series a); [|intros H; injection H as <- <-; exists []; split; [reflexivity|discriminate]].
  destruct a as [s|s x y|]; try (intros H; injection H as <- <-; exists []; split; [reflexivity|discriminate]).
  destruct (Nat.eqb rounds 0); [intros H; injection H as <- <-; exists []; split; [reflexivity|discriminate]|]. intros H. apply cv_rounds_history in H. destruct H as (h & H1 & H2). exists h. auto.
Qed.
End History.

(* ---- what the logic is called on ---- *)
Section Spy.
Context {P A : Type} (L : logic P A) (update : option (P -> arg -> P * result unit)) (window : option nat).
Notation SL := (spy L).
Notation SU := (option_map spy_update update).
Notation logof m := (snd (m_params m)).
Definition round_log (n rounds i : nat) : list event :=
  let '(f, g) := round_fits n rounds i window in
  EvFit (fst f) (snd f) :: (match g, update with Some g, Some _ => [EvUpdate (fst g) (snd g)] | _, _ => [] end) ++ [EvEval (validate_from n rounds i) (validate_to n rounds i)].

Lemma fit_ran_ref {Q} (M : logic Q A) m a m' r : do_fit M m a = (m', Ran r) -> exists s, check_series a = Ok s /\ forall Q' (x : model Q'), snd (set_reference x s) = Ok tt.
Proof.
  unfold do_fit. destruct (check_series a) as [s|]; [|discriminate]. intros H. exists s. split; [reflexivity|]. intros Q' x. unfold set_reference in *. destruct (ts_data_labels s) as [l|[]]; try reflexivity; discriminate.
Qed.
Lemma reference_params {Q} (m : model Q) s : m_params (fst (set_reference m s)) = m_params m.
Proof. unfold set_reference. destruct (ts_data_labels s) as [l|[]]; reflexivity. Qed.
Lemma spy_fit m s x y m' o : do_fit SL m (AView s x y) = (m', o) -> match o with Refused _ => logof m' = logof m | Ran _ => logof m' = logof m ++ [EvFit x y] end.
Proof.
  unfold do_fit. destruct (check_series _) as [t|]; [|intros H; injection H as <- <-; reflexivity]. pose proof (reference_params m t) as R. destruct (set_reference m t) as [m0 [[]|e]]; cbn [fst] in R; [|intros H; injection H as <- <-; rewrite R; reflexivity].
  rewrite R. cbn. destruct (lg_fit L (fst (m_params m)) (AView s x y)) as [p [u|e]]; intros H; injection H as <- <-; reflexivity.
Qed.
Lemma spy_upd f m s x y m' r t : update = Some f -> check_series (AView s x y) = Ok t -> snd (set_reference m t) = Ok tt ->
  do_update SL SU m (AView s x y) = (m', r) -> logof m' = logof m ++ [EvUpdate x y].
Proof.
  intros E C T. rewrite E. cbn. unfold do_fit. rewrite C. pose proof (reference_params m t) as R. destruct (set_reference m t) as [m0 o]. cbn [fst snd] in *. subst o. rewrite R. cbn.
  unfold spy_update. destruct (f (fst (m_params m)) (AView s x y)) as [p [u|e]]; cbn; [intros H; injection H as <- <-; reflexivity|]. destruct e; intros H; injection H as <- <-; reflexivity.
Qed.
Lemma spy_eval m s x y m' o : do_call SL m KEvaluate (AView s x y) false = (m', o) -> match o with Refused _ => logof m' = logof m | Ran _ => logof m' = logof m ++ [EvEval x y] end.
Proof.
  unfold do_call. destruct (m_fit m && negb (m_fitted m)); [intros H; injection H as <- <-; reflexivity|]. destruct (do t <- _; _); [|intros H; injection H as <- <-; reflexivity].
  cbn. destruct (lg_call L KEvaluate (fst (m_params m)) (AView s x y)) as [p r]. intros H; injection H as <- <-. reflexivity.
Qed.
Lemma spy_round s rounds m i m' r : cv_round SL SU window s rounds m i = (m', r) ->
  exists pre rest, logof m' = logof m ++ pre /\ round_log (length (s_items s)) rounds i = pre ++ rest /\ (is_ok r = true -> rest = []).
Proof.
  unfold cv_round, round_log. destruct (do _ <- _; _); [|intros H; injection H as <- <-; exists []; eexists; rewrite app_nil_r; split; [reflexivity|split; [reflexivity|discriminate]]].
  destruct (round_fits (length (s_items s)) rounds i window) as [f g]. destruct (do_fit SL m (AView s (fst f) (snd f))) as [m1 o1] eqn:E1. pose proof (spy_fit _ _ _ _ _ _ E1) as H1.
  destruct o1 as [x|[u|x]].
  - intros H; injection H as <- <-; exists []; eexists; rewrite app_nil_r; split; [exact H1|split; [reflexivity|discriminate]].
  - destruct (fit_ran_ref _ _ _ _ _ E1) as (t & T1 & T2).
    assert (U : forall m2 r2, (match g with Some g0 => do_update SL SU m1 (AView s (fst g0) (snd g0)) | None => (m1, Ok tt) end) = (m2, r2) ->
                logof m2 = logof m1 ++ match g, update with Some g0, Some _ => [EvUpdate (fst g0) (snd g0)] | _, _ => [] end).
    { intros m2 r2 H. destruct g as [g|]; [|injection H as <- <-; rewrite app_nil_r; reflexivity]. destruct update as [fu|] eqn:Eu; [|cbn in H; injection H as <- <-; rewrite app_nil_r; reflexivity].
      apply (spy_upd fu m1 s (fst g) (snd g) m2 r2 t); [exact Eu|exact T1|apply T2|rewrite Eu; exact H]. }
    destruct (match g with Some g0 => do_update SL SU m1 (AView s (fst g0) (snd g0)) | None => (m1, Ok tt) end) as [m2 r2]. specialize (U m2 r2 eq_refl). rewrite H1 in U. rewrite <- app_assoc in U.
    destruct r2 as [u2|x]; [|intros H; injection H as <- <-; eexists; eexists; split; [exact U|split; [cbn [app]; reflexivity|discriminate]]].
    destruct (do_call SL m2 KEvaluate _ false) as [m3 o3] eqn:E3. pose proof (spy_eval _ _ _ _ _ _ E3) as H3. destruct o3 as [x|[v|x]]; intros H; injection H as <- <-; rewrite U in H3.
    + eexists; eexists; split; [exact H3|split; [cbn [app]; reflexivity|discriminate]].
    + rewrite <- app_assoc in H3. eexists; exists []; split; [exact H3|split; [rewrite app_nil_r; reflexivity|reflexivity]].
    + rewrite <- app_assoc in H3. eexists; exists []; split; [exact H3|split; [rewrite app_nil_r; reflexivity|reflexivity]].
  - intros H; injection H as <- <-. eexists; eexists; split; [exact H1|split; [cbn [app]; reflexivity|discriminate]].
Qed.
Lemma spy_rounds s rounds : forall is m m' r, cv_rounds SL SU window s rounds m is = (m', r) ->
  exists pre rest, logof m' = logof m ++ pre /\ concat (map (round_log (length (s_items s)) rounds) is) = pre ++ rest /\ (is_ok r = true -> rest = []).
Proof.
  induction is as [|i is IH]; intros m m' r H; cbn [cv_rounds] in H; [injection H as <- <-; exists [], []; rewrite app_nil_r; auto|]. cbn [map concat].
  destruct (cv_round SL SU window s rounds m i) as [m1 r1] eqn:E. apply spy_round in E. destruct E as (p1 & q1' & E1 & E2 & E3).
  destruct r1 as [v|x].
  - specialize (E3 eq_refl). subst q1'. rewrite app_nil_r in E2. destruct (cv_rounds SL SU window s rounds m1 is) as [m2 vs] eqn:F. apply IH in F. destruct F as (p2 & q2' & F1 & F2 & F3). injection H as <- <-.
    exists (p1 ++ p2), q2'. rewrite F1, E1, E2, F2, !app_assoc. split; [reflexivity|split; [reflexivity|]]. intros K. apply F3. destruct vs; [reflexivity|discriminate].
  - injection H as <- <-. exists p1, (q1' ++ concat (map (round_log (length (s_items s)) rounds) is)). split; [exact E1|]. rewrite E2, app_assoc. split; [reflexivity|discriminate].
Qed.
Lemma spy_cv m a rounds m' r : cross_validate SL SU window m a rounds = (m', r) -> logof m = [] ->
  exists n rest, (forall s, arg_series a = Some s -> length (s_items s) = n) /\
    concat (map (round_log n rounds) (seq 0 rounds)) = logof m' ++ rest /\ (is_ok r = true -> rest = []).
Proof.
  intros H E0. set (n := match arg_series a with Some s => length (s_items s) | None => 0 end). exists n.
  assert (Hn : forall s, arg_series a = Some s -> length (s_items s) = n) by (intros s Hs; unfold n; rewrite Hs; reflexivity).
  assert (T : forall e, (m', r) = (m, Err e) -> exists rest, (forall s, arg_series a = Some s -> length (s_items s) = n) /\
    concat (map (round_log n rounds) (seq 0 rounds)) = logof m' ++ rest /\ (is_ok r = true -> rest = [])).
  { intros e X. injection X as -> ->. eexists. split; [exact Hn|]. rewrite E0. split; [reflexivity|discriminate]. }
  unfold cross_validate in H. destruct (m_fitted m); [symmetry in H; apply (T _ H)|]. destruct (check_series a) as [t|]; [|symmetry in H; apply (T _ H)].
  destruct a as [s|s x y|]; try (symmetry in H; apply (T _ H)). destruct (Nat.eqb rounds 0); [symmetry in H; apply (T _ H)|].
  apply spy_rounds in H. destruct H as (pre & rest & H1 & H2 & H3). exists rest. split; [exact Hn|]. rewrite E0 in H1. cbn [app] in H1. rewrite H1. split; [exact H2|exact H3].
Qed.

(* ---- the properties of the full log ---- *)
Lemma round_disjoint n rounds i f g : round_fits n rounds i window = (f, g) ->
  disjoint_ranges f (validate_from n rounds i, validate_to n rounds i) /\ (forall x, g = Some x -> disjoint_ranges x (validate_from n rounds i, validate_to n rounds i)).
Proof.
  unfold round_fits, disjoint_ranges. set (a := validate_from n rounds i). set (b := validate_to n rounds i).
  destruct (Nat.eqb a 0); [intros H; injection H as <- <-; cbn; split; [lia|discriminate]|]. destruct (Nat.leb n b); [intros H; injection H as <- <-; cbn; split; [lia|discriminate]|].
  destruct (Nat.ltb (n - b) a); intros H; injection H as <- <-; cbn; (split; [lia|]); intros x; destruct (match window with Some w => _ | None => false end); intros X; try discriminate; injection X as <-; cbn; lia.
Qed.
Lemma never_prefix : forall l fits rest, never_on_training fits (l ++ rest) -> never_on_training fits l.
Proof. induction l as [|e l IH]; intros fits rest H; [exact I|]. destruct e; cbn in *; [eapply IH; exact H|eapply IH; exact H|split; [apply H|eapply IH; apply H]|exact H]. Qed.
Lemma never_rounds n rounds : forall is, never_on_training [] (concat (map (round_log n rounds) is)).
Proof.
  induction is as [|i is IH]; [exact I|]. cbn [map concat]. unfold round_log at 1. destruct (round_fits n rounds i window) as [f g] eqn:E. destruct (round_disjoint n rounds i f g E) as [D1 D2].
  destruct g as [g|]; [destruct update|]; cbn; (split; [|exact IH]); intros x Hx; repeat destruct Hx as [<- |Hx]; try destruct Hx; destruct f; try destruct g; auto.
Qed.
Lemma evaluated_rounds n rounds : forall is, evaluated (concat (map (round_log n rounds) is)) = map (fun i => (validate_from n rounds i, validate_to n rounds i)) is.
Proof.
  induction is as [|i is IH]; [reflexivity|]. cbn [map concat]. unfold evaluated in *. rewrite flat_map_app, IH. unfold round_log. destruct (round_fits n rounds i window) as [f g]. destruct g, update; reflexivity.
Qed.
End Spy.
