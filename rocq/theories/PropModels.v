(* PropModels.v -- THEOREMS C48 and C50: the protocol of the models. *)
From Verif Require Import SpecModels BaseLemmas PropTactics Witness PropAccess PropOps PropTransform ModelsProofs ModelsProofs2.

(* ===================== C48 ===================== *)

(* The logic is called only after a successful fit, not undone since. *)
Theorem C48_fit_before_use : forall P A (L : logic P A) m h k a given m' r,
  m_fit m = true -> m_fitted m = false ->
  do_call L (mrun L m h) k a given = (m', Ran r) ->
  exists i b, fit_succeeds L m h i b /\ forall j, i < j -> nth_error h j <> Some MUnset.
Proof.
  intros P A L m h k a given m' r F0 F H. destruct (call_ran L _ _ _ _ _ _ H) as [G _]. destruct (run_keeps L h m) as (E & _). rewrite E, F0 in G. cbn in G. apply negb_false_iff in G. apply (fitted_why L h m F G).
Qed.
Print Assumptions C48_fit_before_use.

(* ... and only on series compatible with the last one a fit was tried on. *)
Theorem C48_compatible_series_partial : forall P A (L : logic P A) m h k a given m' r,
  m_fit m = true -> m_fitted m = false -> m_parametric m = true ->
  (forall b s, In (MFit b) h -> arg_series b = Some s -> exists l, ts_data_labels s = Ok l) ->
  do_call L (mrun L m h) k a given = (m', Ran r) ->
  exists i b, nth_error h i = Some (MFit b) /\ usable b /\ compatible b a /\
    (forall j c, i < j -> nth_error h j = Some (MFit c) -> ~ usable c).
Proof.
  intros P A L m h k a given m' r F0 F Pm HD H. destruct (C48_fit_before_use P A L m h k a given m' r F0 F H) as (i & b & Hf & _). pose proof (fit_succeeds_usable L m h i b Hf) as U.
  destruct (last_fit h i b (proj1 Hf) U) as (j & c & _ & Hj & Uc & HN). exists j, c. split; [exact Hj|split; [exact Uc|split; [|exact HN]]].
  pose proof (run_records L h m j c Hj Uc HN) as R. destruct (call_ran L _ _ _ _ _ _ H) as (_ & s & Hs & Hc). apply check_series_ok in Hs. destruct Hs as (Hs & _).
  apply (accepted_compatible (mrun L m h) c s a R); [destruct (run_keeps L h m) as (_ & -> & _); exact Pm|exact Hs|exact Hc|].
  destruct Uc as (t & Ht & _). destruct (HD c t) as [l Hl]; [eapply nth_error_In; exact Hj|exact Ht|]. exists t, l. auto.
Qed.
Print Assumptions C48_compatible_series_partial.

(* If all the fits after the successful one were on unusable series, that is the one. *)
Theorem C48_after_fit_exactly_compatible : forall P A (L : logic P A) m h i b k a given,
  m_fit m = true -> m_parametric m = true ->
  fit_succeeds L m h i b -> (forall s, arg_series b = Some s -> exists l, ts_data_labels s = Ok (Some l)) ->
  (forall j c, i < j -> nth_error h j = Some (MFit c) -> ~ usable c) -> (forall j, i < j -> nth_error h j <> Some MUnset) ->
  (k = KPredict -> given = m_context m) ->
  ((exists m' r, do_call L (mrun L m h) k a given = (m', Ran r)) <-> usable a /\ compatible b a).
Proof.
  intros P A L m h i b k a given F0 Pm Hf HL HN HU HC. pose proof (fit_succeeds_usable L m h i b Hf) as U. pose proof (run_records L h m i b (proj1 Hf) U HN) as R.
  destruct (run_keeps L h m) as (K1 & K2 & K3). destruct (arg_series b) as [t|] eqn:Eb; [|destruct U as (s & X & _); congruence]. destruct (HL t eq_refl) as [l Hl].
  split.
  - intros (m' & r & H). destruct (call_ran L _ _ _ _ _ _ H) as (_ & s & Hs & Hc). split; [apply check_usable; eauto|]. apply check_series_ok in Hs. apply (accepted_compatible (mrun L m h) b s a R); [congruence|apply Hs|exact Hc|exists t; eauto].
  - intros (Ua & t' & s & l' & Et & Es & Er & El & El'). assert (t' = t) by congruence. subst t'. assert (l' = l) by congruence. subst l'.
    assert (Fd : m_fitted (mrun L m h) = true).
    { (* fitted from i on *)
      destruct Hf as [Hi Hr]. rewrite <- (firstn_skipn (S i) h), mrun_app.
      assert (X : m_fitted (mrun L m (firstn (S i) h)) = true).
      { rewrite (firstn_S_nth h i _ Hi), mrun_app. unfold before in Hr. cbn. destruct (do_fit L (mrun L m (firstn i h)) b) as [m1 o] eqn:E. cbn in *. subst o. unfold do_fit in E. destruct (check_series b); [|discriminate]. destruct (set_reference _ _) as [m0 [[]|]]; [|discriminate]. destruct (lg_fit L (m_params m0) b) as [p [u|e]]; [injection E as <-; reflexivity|discriminate]. }
      assert (Y : forall j, nth_error (skipn (S i) h) j <> Some MUnset) by (intros j; rewrite nth_error_skipn; apply HU; lia).
      clear - X Y. revert X Y. generalize (mrun L m (firstn (S i) h)) (skipn (S i) h). intros m0 h0. revert m0. induction h0 as [|o h0 IH]; intros m0 X Y; [exact X|]. change (m_fitted (mrun L (mstep L m0 o) h0) = true). apply IH; [|intros j; apply (Y (S j))].
      destruct o as [c|k c g|]; cbn [mstep]; [| |exfalso; apply (Y 0); reflexivity].
      - unfold do_fit. destruct (check_series c) as [s|]; [|exact X]. destruct (reference_cases m0 s) as [(l & _ & ->)|(e & _ & [-> | ->])]; cbn; try exact X; destruct (lg_fit L (m_params m0) c) as [p [u|x]]; try reflexivity; exact X.
      - destruct (call_keeps L m0 k c g) as [p ->]. exact X. }
    unfold do_call. rewrite Fd. rewrite andb_false_r. apply check_usable in Ua. destruct Ua as [s' Hs']. assert (s' = s) by (apply check_series_ok in Hs'; destruct Hs'; congruence). subst s'. rewrite Hs'. cbn [bind].
    assert (C : check_model (mrun L m h) s = Ok tt).
    { unfold check_model. rewrite K2, Pm. destruct R as (t' & R1 & R2 & R3). assert (t' = t) by congruence. subst t'. rewrite R2. cbn. rewrite (proj2 (same_resolution_eq _ _) Er), (R3 _ Hl). cbn. apply check_labels_ok. eauto. }
    rewrite C. assert (X : match k with KPredict => xorb given (m_context (mrun L m h)) | _ => false end = false) by (destruct k; try reflexivity; rewrite K3, HC by reflexivity; apply xorb_nilpotent). rewrite X.
    destruct (lg_call L k (m_params (mrun L m h)) a) as [p r]. eauto.
Qed.
Print Assumptions C48_after_fit_exactly_compatible.

(* A refused call leaves the model as it was. *)
Theorem C48_refused_unchanged : forall P A (L : logic P A) m k a given m' e,
  do_call L m k a given = (m', Refused e) -> m' = m.
Proof. intros P A L m k a given m' e H. apply (call_refused L _ _ _ _ _ _ H). Qed.
Print Assumptions C48_refused_unchanged.
Theorem C48_unusable_fit_unchanged : forall P A (L : logic P A) m a, ~ usable a -> exists e, do_fit L m a = (m, Refused e).
Proof. intros P A L m a H. destruct (fit_unusable L m a H) as [E [e He]]. exists e. destruct (do_fit L m a). cbn in *. congruence. Qed.
Print Assumptions C48_unusable_fit_unchanged.

(* A cross validation is a sequence of such calls, and leaves the model not fitted. *)
Theorem C48_cross_validation : forall P A (L : logic P A) window m a rounds m' r,
  cross_validate L None window m a rounds = (m', r) ->
  exists h, m' = mrun L m h /\ (is_ok r = true -> m_fitted m' = false).
Proof. intros P A L window m a rounds m' r H. apply (cv_history L window m a rounds m' r H). Qed.
Print Assumptions C48_cross_validation.

(* A failing fit of a fitted model changes it: it is still fitted, but takes the series it could not be fitted
   on, and no longer those it was fitted on.  The same for the cross validation when an evaluation fails: the
   model stays fitted. *)
Definition pick_logic : logic unit unit :=
  mkLogic (fun p a => (p, match arg_series a with Some s => if Nat.eqb (length (s_items s)) 2 then Ok tt else Err GenericException | None => Ok tt end)) (fun _ p _ => (p, Ok tt)).
Definition s2 : series := ms [pt 0 1; pt 60 2].
Definition s3 : series := ms [pt 0 1; pt 10 2; pt 20 2].
Theorem C48_failed_fit_refuted : exists (L : logic unit unit) (m : model unit) (a b : arg),
  m_fit m = true /\ m_fitted m = false /\ usable a /\ usable b /\ ~ compatible a b /\
  snd (do_fit L m a) = Ran (Ok tt) /\
  snd (do_fit L (mrun L m [MFit a]) b) = Ran (Err GenericException) /\
  snd (do_call L (mrun L m [MFit a]) KPredict a false) = Ran (Ok tt) /\
  snd (do_call L (mrun L m [MFit a; MFit b]) KPredict a false) = Refused ValueError /\
  snd (do_call L (mrun L m [MFit a; MFit b]) KPredict b false) = Ran (Ok tt).
Proof.
  exists pick_logic, (new_model true false false tt), (ASeries s2), (ASeries s3).
  split; [reflexivity|]. split; [reflexivity|]. split; [|split; [|split; [|vm_compute; auto 6]]].
  - apply check_usable. eexists. vm_compute. reflexivity.
  - apply check_usable. eexists. vm_compute. reflexivity.
  - intros (x & y & l & E1 & E2 & E3 & _). injection E1 as <-. injection E2 as <-. assert (H : same_resolution (resolution s2) (resolution s3) = true) by (apply same_resolution_eq; exact E3). vm_compute in H. discriminate.
Qed.
Print Assumptions C48_failed_fit_refuted.

Definition easy : logic unit unit := mkLogic (fun p _ => (p, Ok tt)) (fun _ p _ => (p, Ok tt)).
Example C48_nonvacuous : let m := new_model true false false tt in let h := [MCall KPredict (ASeries s2) false; MFit (ASeries s2); MFit AOther] in
  m_fit m = true /\ m_parametric m = true /\ fit_succeeds easy m h 1 (ASeries s2) /\ ~ usable AOther /\ usable (ASeries s2) /\ compatible (ASeries s2) (ASeries s2) /\
  snd (do_call easy m KPredict (ASeries s2) false) = Refused NotFittedError /\
  snd (do_call easy (mrun easy m h) KPredict (ASeries s2) false) = Ran (Ok tt) /\
  snd (do_call easy (mrun easy m h) KApply (ASeries s3) false) = Refused ValueError.
Proof.
  cbv zeta. split; [reflexivity|split; [reflexivity|split; [split; [reflexivity|vm_compute; reflexivity]|split; [|split; [|split; [|vm_compute; auto]]]]]].
  - intros (s & H & _). discriminate.
  - apply check_usable. eexists. vm_compute. reflexivity.
  - exists s2, s2. eexists. repeat split; vm_compute; reflexivity.
Qed.

(* ===================== C50 ===================== *)

(* The log of the calls to the logic, for any logic: the items evaluated were not used to fit. *)
Theorem C50_never_on_training_data : forall P A (L : logic P A) update window m a rounds m' r,
  snd (m_params m) = [] ->
  cross_validate (spy L) (option_map spy_update update) window m a rounds = (m', r) ->
  never_on_training [] (snd (m_params m')).
Proof.
  intros P A L update window m a rounds m' r E H. destruct (spy_cv L update window m a rounds m' r H E) as (n & rest & _ & H1 & _).
  eapply never_prefix. rewrite <- H1. apply never_rounds.
Qed.
Print Assumptions C50_never_on_training_data.

(* The rounds evaluate disjoint parts of the same length, one after the other; only the remainder of the
   division is left out. *)
Theorem C50_validation_parts : forall P A (L : logic P A) update window m s rounds m' r,
  snd (m_params m) = [] -> rounds <> 0 ->
  cross_validate (spy L) (option_map spy_update update) window m (ASeries s) rounds = (m', r) ->
  let len := length (s_items s) / rounds in
  (forall i x y, nth_error (evaluated (snd (m_params m'))) i = Some (x, y) -> i < rounds /\ x = len * i /\ y = len * S i /\ y <= length (s_items s)) /\
  (is_ok r = true -> length (evaluated (snd (m_params m'))) = rounds).
Proof.
  intros P A L update window m s rounds m' r E R H len. destruct (spy_cv L update window m (ASeries s) rounds m' r H E) as (n & rest & Hn & H1 & H2). specialize (Hn s eq_refl). subst n.
  apply (f_equal evaluated) in H1. rewrite evaluated_rounds in H1. unfold evaluated in H1 at 1. rewrite flat_map_app in H1. fold (evaluated (snd (m_params m'))) in H1. split.
  - intros i x y Hi. assert (Hi' : nth_error (map (fun i => (validate_from (length (s_items s)) rounds i, validate_to (length (s_items s)) rounds i)) (seq 0 rounds)) i = Some (x, y)).
    { rewrite H1. rewrite nth_error_app1; [exact Hi|apply nth_error_Some; congruence]. }
    assert (Li : i < rounds) by (rewrite <- (seq_length rounds 0), <- (map_length (fun i => (validate_from (length (s_items s)) rounds i, validate_to (length (s_items s)) rounds i))); apply nth_error_Some; congruence).
    rewrite nth_error_map in Hi'. rewrite (nth_error_nth' (seq 0 rounds) 0) in Hi' by (rewrite seq_length; exact Li). rewrite seq_nth in Hi' by exact Li. cbn in Hi'. injection Hi' as <- <-. unfold validate_from, validate_to, round_items. fold len.
    split; [exact Li|split; [reflexivity|split; [lia|]]]. pose proof (Nat.mul_div_le (length (s_items s)) rounds R) as D. fold len in D. nia.
  - intros K. specialize (H2 K). subst rest. cbn in H1. rewrite app_nil_r in H1. rewrite <- H1, map_length, seq_length. reflexivity.
Qed.
Print Assumptions C50_validation_parts.

(* Exactly what a cross validation does, round after round; if it fails, up to there. *)
Lemma round_expected {P : Type} (update : option (P -> arg -> P * result unit)) window n rounds i :
  expected_round n window (match update with Some _ => true | None => false end) (validate_from n rounds i) (validate_to n rounds i) (round_log update window n rounds i).
Proof.
  unfold round_log, round_fits, expected_round. set (a := validate_from n rounds i). set (b := validate_to n rounds i).
  assert (a <= b) by (unfold a, b, validate_from, validate_to; lia).
  destruct (Nat.eqb_spec a 0) as [A|A]; [|destruct (Nat.leb_spec n b) as [B|B]; [|destruct (Nat.ltb_spec (n - b) a) as [C|C]]].
  - exists (b, n), (0, a). split; [auto|]. unfold part_size. cbn [fst snd]. split; [lia|]. right. split; [right; left; lia|]. destruct update; reflexivity.
  - exists (0, a), (b, n). split; [auto|]. unfold part_size. cbn [fst snd]. split; [lia|]. right. split; [right; left; lia|]. destruct update; reflexivity.
  - exists (0, a), (b, n). split; [auto|]. unfold part_size. cbn [fst snd]. split; [lia|]. destruct update as [f|]; [|right; split; [auto|destruct window as [w|]; [destruct (negb (Nat.eqb w 0) && _)%bool|]; reflexivity]].
    destruct window as [w|]; [|left; repeat split; try lia; discriminate]. destruct (Nat.eqb_spec w 0) as [W|W]; cbn [negb andb].
    + left. repeat split; try lia. intros v [= <-]. lia.
    + destruct (Nat.ltb_spec (n - b) w); [right; split; [right; right; exists w; auto|reflexivity]|]. left. repeat split; try lia. intros v [= <-]. lia.
  - exists (b, n), (0, a). split; [auto|]. unfold part_size. cbn [fst snd]. split; [lia|]. destruct update as [f|]; [|right; split; [auto|destruct window as [w|]; [destruct (negb (Nat.eqb w 0) && _)%bool|]; reflexivity]].
    destruct window as [w|]; [|left; repeat split; try lia; discriminate]. destruct (Nat.eqb_spec w 0) as [W|W]; cbn [negb andb].
    + left. repeat split; try lia. intros v [= <-]. lia.
    + destruct (Nat.ltb_spec a w); [right; split; [right; right; exists w; split; [reflexivity|lia]|reflexivity]|]. left. repeat split; try lia. intros v [= <-]. lia.
Qed.
Theorem C50_rounds : forall P A (L : logic P A) update window m s rounds m' r,
  snd (m_params m) = [] ->
  cross_validate (spy L) (option_map spy_update update) window m (ASeries s) rounds = (m', r) ->
  let n := length (s_items s) in
  exists logs rest, concat logs = snd (m_params m') ++ rest /\ (is_ok r = true -> rest = []) /\ length logs = rounds /\
    forall i log, nth_error logs i = Some log ->
      expected_round n window (match update with Some _ => true | None => false end) (n / rounds * i) (n / rounds * S i) log.
Proof.
  intros P A L update window m s rounds m' r E H n. destruct (spy_cv L update window m (ASeries s) rounds m' r H E) as (k & rest & Hn & H1 & H2). specialize (Hn s eq_refl). subst k. fold n in H1.
  exists (map (round_log update window n rounds) (seq 0 rounds)), rest. split; [exact H1|split; [exact H2|split; [rewrite map_length, seq_length; reflexivity|]]].
  intros i log Hi. assert (Li : i < rounds) by (rewrite <- (seq_length rounds 0), <- (map_length (round_log update window n rounds)); apply nth_error_Some; congruence).
  rewrite nth_error_map, (nth_error_nth' (seq 0 rounds) 0) in Hi by (rewrite seq_length; exact Li). rewrite seq_nth in Hi by exact Li. cbn in Hi. injection Hi as <-.
  pose proof (round_expected update window n rounds i) as R. unfold validate_from, validate_to, round_items in R. replace (n / rounds * S i) with (n / rounds * i + n / rounds) by lia. exact R.
Qed.
Print Assumptions C50_rounds.

(* With a model which can update its fit, all the other items are used to fit. *)
Lemma everything_prefix n : forall l fits rest, on_everything n fits (l ++ rest) -> on_everything n fits l.
Proof. induction l as [|e l IH]; intros fits rest H; [exact I|]. destruct e; cbn in *; [eapply IH; exact H|eapply IH; exact H|split; [apply H|eapply IH; apply H]|exact H]. Qed.
Theorem C50_fits_on_the_rest_partial : forall P A (L : logic P A) f m s rounds m' r,
  snd (m_params m) = [] ->
  cross_validate (spy L) (Some (spy_update f)) None m (ASeries s) rounds = (m', r) ->
  on_everything (length (s_items s)) [] (snd (m_params m')).
Proof.
  intros P A L f m s rounds m' r E H. destruct (spy_cv L (Some f) None m (ASeries s) rounds m' r H E) as (n & rest & Hn & H1 & _). specialize (Hn s eq_refl). subst n.
  eapply everything_prefix. rewrite <- H1. clear. generalize (seq 0 rounds). intros is. induction is as [|i is IH]; [exact I|]. cbn [map concat]. unfold round_log at 1, round_fits.
  set (n := length (s_items s)) in *. set (a := validate_from n rounds i). set (b := validate_to n rounds i).
  destruct (Nat.eqb_spec a 0); [|destruct (Nat.leb_spec n b); [|destruct (Nat.ltb_spec (n - b) a)]]; cbn; (split; [|exact IH]); intros k Hk; assert (a <= b) by (unfold a, b, validate_from, validate_to; lia);
    (destruct (Nat.lt_ge_cases k a); [right|destruct (Nat.lt_ge_cases k b); [left; lia|right]]); try lia.
  - exists (b, n). cbn. split; [auto|lia].
  - exists (0, a). cbn. split; [auto|lia].
  - exists (0, a). cbn. split; [auto|lia].
  - exists (b, n). cbn. split; [auto|lia].
  - exists (0, a). cbn. split; [auto|lia].
  - exists (b, n). cbn. split; [auto|lia].
Qed.
Print Assumptions C50_fits_on_the_rest_partial.

(* No model of the library can: then, in the rounds in the middle, a part of the series is not used at all. *)
Definition s6 : series := ms [pt 0 1; pt 10 1; pt 20 1; pt 30 1; pt 40 1; pt 50 1].
Theorem C50_fits_on_the_rest_refuted : exists (L : logic unit unit) m s rounds m' l,
  fresh ideal_env s /\ snd (m_params m) = [] /\
  cross_validate (spy L) None None m (ASeries s) rounds = (m', Ok l) /\ ~ on_everything (length (s_items s)) [] (snd (m_params m')).
Proof.
  exists easy, (new_model true false false (tt, [])), s6, 3. eexists. eexists. split; [unfold fresh; vm_compute; reflexivity|split; [reflexivity|split; [vm_compute; reflexivity|]]].
  vm_compute. intros (_ & H & _). destruct (H 0) as [X|(f & [<- |[]] & X & _)]; [lia|lia|]. cbn in X. lia.
Qed.
Print Assumptions C50_fits_on_the_rest_refuted.

Example C50_nonvacuous : exists m' l, cross_validate (spy easy) None None (new_model true false false (tt, [])) (ASeries s6) 3 = (m', Ok l) /\
  snd (m_params m') = [EvFit 2 6; EvEval 0 2; EvFit 4 6; EvEval 2 4; EvFit 0 4; EvEval 4 6] /\ length l = 3.
Proof. eexists. eexists. split; [vm_compute; reflexivity|split; vm_compute; reflexivity]. Qed.
