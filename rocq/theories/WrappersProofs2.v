(* WrappersProofs2.v -- proofs for C78: the forecasts of Prophet. *)
From Verif Require Import SpecWrappers BaseLemmas PropTactics DictLemmas SeriesProofs2 SeriesProofs3 OpsProofs InterpProofs ReconProofs ReconProofs2 ReconProofs3 ReconProofs4 LstmProofs LstmProofs3 LstmProofs4 LstmProofs5 ForecastProofs ForecastProofs2 ForecastProofs3 AccessProofs2 SeriesProofs4 PropForecast EvaluateProofs2 EvaluateProofs3 EvaluateProofs5 AnomalyProofs AnomalyProofs2 WrappersProofs.
From Coq Require Import Lia.

Lemma shift_phys c d t : unit_shift c (UPhys d) t 1 = Qcplus t d.
Proof. cbn. change (qz 1) with q1. rewrite q1_eq. ring. Qed.
Lemma after_step c u : forall fs la, consecutive (right_after c u) (la :: fs) -> (is_slot la = true -> i_end la = unit_shift c u (i_t la) 1) -> forall k x, nth_error (la :: fs) k = Some x ->
  i_t x = slot_step c u (i_t la) k /\ (is_slot x = true -> i_end x = unit_shift c u (i_t x) 1).
Proof.
  intros fs la C L. induction k as [|k IH]; intros x Hx; [cbn in Hx; injection Hx as <-; split; [reflexivity|exact L]|].
  assert (Hk : k < length (la :: fs)) by (apply nth_lt in Hx; lia). destruct (lt_nth _ _ Hk) as [p Hp]. destruct (IH p Hp) as [T E]. pose proof (C k p x Hp Hx) as A. unfold right_after in A.
  cbn [slot_step]. rewrite <- T. destruct (is_slot p).
  - destruct A as (A1 & A2 & A3 & A4 & _). rewrite A2. split; [apply E; reflexivity|]. intros _. exact A4.
  - destruct A as (A1 & d & -> & A2). split; [rewrite shift_phys; exact A2|]. intros X. rewrite point_slot, X in A1. discriminate.
Qed.
Lemma times_ok c clock la u steps : prophet_times c clock la (Some (RUnit u)) steps = Ok (map (fun k => clock (i_tz la) (slot_step c u (i_t la) k)) (seq 1 steps)).
Proof. unfold prophet_times. apply mapM_total. reflexivity. Qed.
Lemma F2_rev {A B} (R : A -> B -> Prop) l l' : Forall2 R l l' -> Forall2 R (rev l) (rev l').
Proof. induction 1 as [|x y l l' H F IH]; [constructor|]. cbn [rev]. apply Forall2_app; [exact IH|]. constructor; [exact H|constructor]. Qed.
Lemma last_F2 (R : item -> item -> Prop) l l' la : Forall2 R l l' -> last_item l = Some la -> exists lb, last_item l' = Some lb /\ R la lb.
Proof.
  intros F H. unfold last_item in *. apply F2_rev in F. destruct (rev l) as [|x r]; [discriminate|]. injection H as ->. inversion F as [|? y ? r' Hy F' E1 E2]; subst. exists y. split; [reflexivity|exact Hy].
Qed.
Lemma last_get s la : last_item (s_items s) = Some la -> ts_get_i s (-1) = Ok la.
Proof. apply get_last. Qed.
Lemma skipn_exact {A} (a b : list A) : skipn (length a) (a ++ b) = b.
Proof. induction a; [reflexivity|assumption]. Qed.
Lemma last_In l la : last_item l = Some la -> In la l.
Proof. unfold last_item. intros H. apply in_rev. destruct (rev l) as [|x r]; [discriminate|]. injection H as ->. left. reflexivity. Qed.

(* what a successful application of a forecaster which gives lists appends *)
Lemma list_forecasts e c nadd F s u steps s' : ready e s -> steady s u -> fitted_like F s -> 0 < steps -> (forall s1 n d, fc_predict F s1 n None <> Ok (FOne d)) -> forecasts e c nadd F s steps None s' ->
  exists fs s1 ds, appended s s' = fs /\ length fs = steps /\ (forall la, last_item (s_items s) = Some la -> consecutive (right_after c u) (la :: fs) /\ exists la1, last_item (s_items s1) = Some la1 /\ i_t la1 = i_t la /\ i_tz la1 = i_tz la) /\
    resolution s1 = resolution s /\ fc_predict F s1 steps None = Ok (FList ds) /\ map i_data fs = map Some ds.
Proof.
  intros R S HF Hs NoOne H. destruct (C54_apply e c nadd F s u steps None s' R S HF) as (before & fs & s1 & I & L & Rs & F2 & _ & C & I1 & R1 & P); [discriminate|exact H|].
  exists fs, s1. assert (X : exists ds, fc_predict F s1 steps None = Ok (FList ds) /\ map i_data fs = map Some ds).
  { destruct P as [X|[(d & d' & x & E & _)|[_ P]]]; [exact X|exfalso; apply (NoOne s1 steps d E)|]. exfalso. destruct fs as [|x fs]; [cbn in L; lia|]. destruct (P 0 x eq_refl) as (sk & d & d' & _ & E & _). apply (NoOne sk 1 d E). }
  destruct X as (ds & E & D). exists ds. split; [unfold appended; rewrite I, (F2_len _ _ _ F2); apply skipn_exact|]. split; [exact L|]. split; [|split; [exact R1|split; [exact E|exact D]]].
  intros la Hla. split; [apply C, Hla|]. rewrite I1. destruct (last_F2 _ _ _ la F2 Hla) as (la1 & H1 & (Sh & _) & _). exists la1. split; [exact H1|]. destruct Sh as ((_ & T & _ & _ & Z) & _). split; [exact T|exact Z].
Qed.
Lemma mapM_answers (lb : string) : forall n a (ys : list Qc) (l : list (dict Qc)), mapM (fun i => do y <- answer_at ys i; Ok [(lb, y)]) (seq a n) = Ok l -> length l = n /\ forall k d, nth_error l k = Some d -> exists y, nth_error ys (a + k) = Some y /\ d = [(lb, y)].
Proof.
  induction n as [|n IH]; intros a ys l H; cbn [seq mapM] in H; [injection H as <-; split; [reflexivity|intros [|k] d; discriminate]|].
  destruct (answer_at ys a) as [y|] eqn:A; cbn [bind] in H; [|discriminate]. destruct (mapM _ (seq (S a) n)) as [r|] eqn:M; cbn [bind] in H; [|discriminate]. injection H as <-. destruct (IH _ _ _ M) as [L N]. split; [cbn; lia|].
  intros [|k] d Hd; cbn in Hd.
  - injection Hd as <-. exists y. rewrite Nat.add_0_r. split; [|reflexivity]. unfold answer_at in A. destruct (nth_error ys a); [congruence|discriminate].
  - destruct (N k d Hd) as (z & Hz & E). exists z. replace (a + S k) with (S a + k) by lia. auto.
Qed.
Lemma prophet_appends e c nadd clock m s u steps s' la : ready e s -> steady s u -> unit_long c u (s_items s) -> 0 < steps -> forecasts e c nadd (prophet_forecaster c clock m (resolution s)) s steps None s' -> last_item (s_items s) = Some la ->
  length (appended s s') = steps /\ exists ys, pr_ask m (map (fun x => clock (i_tz la) (i_t x)) (appended s s')) = Ok ys /\
  forall k x, nth_error (appended s s') k = Some x -> i_t x = slot_step c u (i_t la) (S k) /\ exists y, nth_error ys k = Some y /\ i_data x = Some (DDict [(pr_label m, y)]).
Proof.
  intros R S La Hs H Hla. destruct (list_forecasts e c nadd (prophet_forecaster c clock m (resolution s)) s u steps s' R S) as (fs & s1 & ds & -> & L & C & R1 & P & D); [| | |exact H|].
  - intros r Hr. injection Hr as <-. reflexivity.
  - exact Hs.
  - intros z n d E. cbn in E. destruct (ts_get_i z (-1)) as [i|]; cbn [bind] in E; [|discriminate]. destruct (prophet_predict c clock m i (resolution z) n); discriminate.
  - destruct (C la Hla) as (Co & la1 & H1 & T & Z). cbn [fc_predict prophet_forecaster] in P. rewrite (last_get s1 la1 H1) in P. cbn [bind] in P. destruct S as (Rs & S'). rewrite R1, Rs in P. unfold prophet_predict in P. rewrite times_ok in P. cbn [bind] in P.
    destruct (pr_ask m _) as [ys|] eqn:A; cbn [bind] in P; [|discriminate]. destruct (mapM _ (seq 0 steps)) as [l|] eqn:M; cbn [bind] in P; [|discriminate]. injection P as P. destruct (mapM_answers _ _ _ _ _ M) as [Ll Nl].
    assert (St : forall k x, nth_error fs k = Some x -> i_t x = slot_step c u (i_t la) (Datatypes.S k)).
    { intros k x Hx. apply (after_step c u fs la Co) with (k := Datatypes.S k); [|exact Hx]. intros Sl. apply La; [apply last_In; exact Hla|exact Sl]. }
    split; [exact L|]. exists ys. split.
    + rewrite <- A. f_equal. rewrite T, Z. clear - L St. apply ext_list.
      intros k. rewrite !nth_error_map. destruct (nth_error fs k) as [x|] eqn:Hx.
      * assert (k < steps) by (apply nth_lt in Hx; lia). rewrite seq_nth_error by lia. cbn [option_map]. rewrite (St k x Hx). reflexivity.
      * apply nth_error_None in Hx. rewrite (proj2 (nth_error_None _ _)) by (rewrite seq_length; lia). reflexivity.
    + intros k x Hx. split; [apply St; exact Hx|]. assert (Dk : nth_error (map i_data fs) k = Some (i_data x)) by (rewrite nth_error_map, Hx; reflexivity). rewrite D, <- P, !nth_error_map in Dk. destruct (lt_nth l k) as [d Hd]; [apply nth_lt in Hx; eapply Nat.lt_le_trans; [exact Hx|]; rewrite L; exact (Nat.eq_le_incl _ _ (eq_sym Ll))|].
      pose proof (eq_trans (eq_sym (f_equal (fun o => option_map Some (option_map DDict o)) Hd)) Dk) as Dx. injection Dx as Dx. symmetry in Dx. destruct (Nl k d Hd) as (y & Hy & ->). exists y. split; [exact Hy|exact Dx].
Qed.

(* with a library which answers point by point *)
Lemma predict_points c clock m g la u steps : answers (pr_ask m) g -> prophet_predict c clock m la (Some (RUnit u)) steps = Ok (map (fun k => [(pr_label m, g (clock (i_tz la) (slot_step c u (i_t la) k)))]) (seq 1 steps)).
Proof.
  intros A. unfold prophet_predict. rewrite times_ok. cbn [bind]. rewrite A. cbn [bind]. rewrite map_map.
  assert (X : forall n a ys, (forall k, k < n -> nth_error ys (a + k) = Some (g (clock (i_tz la) (slot_step c u (i_t la) (S (a + k)))))) ->
    mapM (fun i => do y <- answer_at ys i; Ok [(pr_label m, y)]) (seq a n) = Ok (map (fun k => [(pr_label m, g (clock (i_tz la) (slot_step c u (i_t la) k)))]) (seq (S a) n))).
  { induction n as [|n IH]; intros a ys H; [reflexivity|]. cbn [seq mapM map]. unfold answer_at at 1. pose proof (H 0 ltac:(lia)) as H0. rewrite Nat.add_0_r in H0. rewrite H0. cbn [bind]. rewrite (IH (S a)); [reflexivity|]. intros k Hk. specialize (H (S k) ltac:(lia)). replace (S a + k) with (a + S k) by lia. exact H. }
  apply X. intros k Hk. rewrite nth_error_map. rewrite seq_nth_error by lia. reflexivity.
Qed.
Lemma prophet_succeeds e c nadd clock m g lb s u steps : ready e s -> single_label (s_items s) lb -> pr_label m = lb -> steady s u -> answers (pr_ask m) g ->
  exists s', fc_apply e c nadd (prophet_forecaster c clock m (resolution s)) s steps None = Ok s' /\ fc_apply_inplace e c nadd (prophet_forecaster c clock m (resolution s)) s steps None = (s', Ok tt).
Proof.
  intros R Ls El S A. set (F := prophet_forecaster c clock m (resolution s)). assert (La : exists la, last_item (s_items s) = Some la).
  { destruct R as (_ & (Nn & _) & _). unfold last_item. destruct (rev (s_items s)) as [|x r] eqn:E; [|eauto]. exfalso. apply Nn. rewrite <- (rev_involutive (s_items s)), E. reflexivity. }
  destruct La as [la Hla]. destruct (succeeds_list e c nadd u F s steps R S) with (ds := map (fun k => DDict [(lb, g (clock (i_tz la) (slot_step c u (i_t la) k)))]) (seq 1 steps)) as [s' E].
  - reflexivity.
  - cbn [fc_predict F prophet_forecaster]. assert (H1 : last_item (s_items (set_items s (map (mark q0) (s_items s)))) = Some (mark q0 la)) by (cbn; unfold last_item in *; rewrite <- map_rev; destruct (rev (s_items s)); [discriminate|]; injection Hla as ->; reflexivity).
    rewrite (last_get _ _ H1). cbn [bind]. assert (E : resolution (set_items s (map (mark q0) (s_items s))) = Some (RUnit u)) by (destruct S as (Rs & _); rewrite <- Rs; reflexivity). rewrite E.
    rewrite (predict_points c clock m g _ u steps A). cbn [bind]. rewrite map_map, El. reflexivity.
  - rewrite map_length, seq_length. reflexivity.
  - intros d Hd. apply in_map_iff in Hd. destruct Hd as (k & <- & _). eexists. split; [reflexivity|]. intros x lb' Hx. rewrite (Ls x Hx lb'). cbn. split; [intros [<-|[]]; reflexivity|intros ->; left; reflexivity].
  - exists s'. split; [apply inplace_apply; assumption|exact E].
Qed.

(* ---------------- evaluation ---------------- *)
Lemma view_before s i x : nth_error (s_items s) i = Some x -> view_get (mkView s 0 (Z.of_nat (S i))) (-1) = Ok x.
Proof.
  intros H. unfold view_get. cbn [v_series v_to]. destruct (s_items s) eqn:E; [destruct i; discriminate|]. cbn [Z.leb Z.compare]. rewrite <- E in H. replace (Z.of_nat (S i) - Z.abs (-1))%Z with (Z.of_nat i) by lia. apply ts_get_i_nat. exact H.
Qed.
Lemma view_empty s la : last_item (s_items s) = Some la -> view_get (mkView s 0 (Z.of_nat 0)) (-1) = Ok la.
Proof. intros H. unfold view_get. cbn [v_series v_to]. destruct (s_items s) eqn:E; [discriminate|]. rewrite <- E in H. apply (last_get s la H). Qed.

Lemma prophet_foresees c clock m g lb s u i la v : answers (pr_ask m) g -> pr_label m = lb -> resolution s = Some (RUnit u) -> view_get (mkView s 0 (Z.of_nat i)) (-1) = Ok la ->
  (foresees (prophet_evaluated c clock m) s i lb v <-> v = g (clock (i_tz la) (unit_shift c u (i_t la) 1))).
Proof.
  intros A El Rs V. unfold foresees. cbn [ev_context ev_predict prophet_evaluated v_series]. rewrite V. cbn [bind]. rewrite Rs, (predict_points c clock m g la u 1 A). cbn [bind seq map slot_step]. rewrite El. split.
  - intros (p & G & E). apply EvaluateProofs5.ok_inj in E. subst p. destruct G as (d & r & E & D). injection E as <- <-. cbn in D. rewrite String.eqb_refl in D. congruence.
  - intros ->. eexists. split; [|reflexivity]. eexists. eexists. split; [reflexivity|]. cbn. rewrite String.eqb_refl. reflexivity.
Qed.
