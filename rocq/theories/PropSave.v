(* PropSave.v -- THEOREMS C49: saving and loading models. *)
From Verif Require Import SpecSave SpecRecon BaseLemmas PropTactics DictLemmas OpsProofs OpsProofs3 InterpProofs SaveProofs SaveProofs2 SaveProofs3 ReconProofs3 Witness.

(* A refused save changes neither the model nor the files: a model without parameters, one which is still to be fitted, an
   empty path, a path which is already there. *)
Theorem C49_refused : forall ut d m p f,
  (c_parametric (pm_class m) = false -> save ut d m p f = (m, f, Err TypeError)) /\
  (c_parametric (pm_class m) = true -> c_fit (pm_class m) = true -> pm_fitted m = false -> save ut d m p f = (m, f, Err NotFittedError)) /\
  (savable m -> p = [] \/ f p <> None -> save ut d m p f = (m, f, Err ValueError)).
Proof.
  intros ut d m p f. split; [intros H; unfold save; rewrite H; reflexivity|]. split; [intros A B C; unfold save; rewrite A, B, C; reflexivity|].
  intros [A B] C. unfold save. rewrite A. assert (X : c_fit (pm_class m) && negb (pm_fitted m) = false) by (destruct (c_fit (pm_class m)); [rewrite (B eq_refl)|]; reflexivity). cbn [negb]. rewrite X.
  destruct p as [|x p]; [reflexivity|]. destruct C as [C|C]; [discriminate|]. destruct (f (x :: p)); [reflexivity|contradiction].
Qed.
Print Assumptions C49_refused.

(* Whatever the outcome, also if the disk fails: the model is as before (also its resolution, which is a string in the
   meanwhile), no file or directory is changed, and only the directories of the path and its data file can be added. *)
Theorem C49_save_changes_nothing_else : forall ut d m p f, tree f -> exists f' r, save ut d m p f = (m, f', r) /\
  (forall q n, f q = Some n -> f' q = Some n) /\
  (forall q, f' q <> f q -> (exists s, q <> [] /\ p = q ++ s) \/ q = p ++ ["data.json"%string]).
Proof.
  intros ut d m p f T. pose proof (save_model ut d m p f) as M. pose proof (fun q n => save_keeps ut d m p f q n T) as K. pose proof (save_adds ut d m p f) as A.
  destruct (save ut d m p f) as [[m' f'] r]. cbn [fst snd] in *. subst m'. exists f', r. split; [reflexivity|]. split; [exact K|exact A].
Qed.
Print Assumptions C49_save_changes_nothing_else.

(* A fitted model with data that JSON can represent is saved in any free place, and loading it gives a fitted model with the
   same data, which answers every call as the saved one. *)
Theorem C49_round_trip : forall ut m p f, savable m -> c_buildable (pm_class m) = true -> storable_data ut (pm_data m) -> tree f -> free f p ->
  exists f' m', save ut DFine m p f = (m, f', Ok tt) /\ load ut (pm_class m) f' p = Ok m' /\
    pm_data m' = pm_data m /\ pm_class m' = pm_class m /\ pm_fitted m' = true /\ (pm_fitted m = true -> m' = m) /\
    forall A (L : logic (dict pv) A) k a given, snd (do_call L (as_model m') k a given) = snd (do_call L (as_model m) k a given).
Proof.
  intros ut m p f S B St T F. destruct (save_ok ut m p f (pm_data m) S T F (proj1 St) (storable_kept ut _ St)) as (f' & Sv & _ & _ & L).
  exists f', (mkPModel (pm_class m) true (pm_data m)). split; [exact Sv|]. split; [apply L; [exact B|reflexivity]|]. split; [reflexivity|]. split; [reflexivity|]. split; [reflexivity|].
  split; [intros H; destruct m as [c b d]; cbn in *; rewrite H; reflexivity|].
  intros A Lg k a given. destruct S as [_ S]. destruct m as [c b d]. cbn [pm_class pm_fitted pm_data] in *. unfold do_call, as_model, check_model. cbn [m_fit m_fitted m_parametric m_res m_labels m_context m_params pm_class pm_fitted pm_data].
  assert (X : c_fit c && negb b = c_fit c && negb true) by (destruct (c_fit c); [rewrite (S eq_refl)|]; reflexivity). rewrite X.
  destruct (c_fit c && negb true); [reflexivity|]. destruct (do s <- check_series a; _) as [u|]; [|reflexivity]. destruct (match k with KPredict => _ | _ => false end); [reflexivity|]. destruct (lg_call Lg k d a) as [d' r]. reflexivity.
Qed.
Print Assumptions C49_round_trip.

(* A model with context labels among its data predicts only with context data, and one without them (no such key, null, or an
   empty list) only without. *)
Theorem C49_context_required : forall m A (L : logic (dict pv) A) a given m' r, do_call L (as_model m) KPredict a given = (m', Ran r) ->
  ((exists lb ls, dget "context_data_labels" (pm_data m) = Some (VList (lb :: ls))) -> given = true) /\
  (dget "context_data_labels" (pm_data m) = None \/ dget "context_data_labels" (pm_data m) = Some VNull \/ dget "context_data_labels" (pm_data m) = Some (VList []) -> given = false).
Proof.
  intros m A Lg a given m' r H. unfold do_call in H. destruct (m_fit (as_model m) && negb (m_fitted (as_model m))); [discriminate|]. destruct (do s <- check_series a; _) as [u|]; [|discriminate].
  destruct (xorb given (m_context (as_model m))) eqn:X; [discriminate|]. clear H. unfold as_model in X. cbn [m_context] in X. split.
  - intros (lb & ls & E). rewrite E in X. cbn [truthy] in X. destruct given; [reflexivity|discriminate].
  - intros [E|[E|E]]; rewrite E in X; cbn [truthy] in X; destruct given; (reflexivity || discriminate).
Qed.
Print Assumptions C49_context_required.

(* And if the disk may fail: when the save is reported as done, the model can be loaded. *)
Theorem C49_reported_as_saved : forall ut d m p f f', storable_data ut (pm_data m) -> c_buildable (pm_class m) = true -> save ut d m p f = (m, f', Ok tt) ->
  load ut (pm_class m) f' p = Ok (mkPModel (pm_class m) true (pm_data m)).
Proof.
  intros ut d m p f f' St B Sv. destruct (data_round_trip ut _ _ (proj1 St) (storable_kept ut _ St)) as (j & d1 & D & L & R).
  destruct (save_fs ut d m p f) as (f1 & f2 & r & E & C). rewrite Sv in E. injection E as <- <-. destruct C as [[_ X]|(_ & _ & _ & _ & _ & [(y & _ & _ & X)|(_ & -> & X)])]; [contradiction|discriminate|].
  rewrite D in *. apply (load_file ut _ _ p j d1 (pm_data m) B); [|exact L|exact R]. destruct d; cbn [write_data fst snd] in *; try discriminate; apply fs_set_same.
Qed.
Print Assumptions C49_reported_as_saved.

(* A fitted PeriodicAverageForecaster comes back exactly as it was (the integer keys of its averages are restored), and its
   data determine its parameters, thus its forecasts. *)
Lemma labels_distinct e s ls : built e s -> numeric (s_items s) -> labels_of s = Ok ls -> NoDup ls.
Proof.
  intros B N L. assert (RM : ref_missing s = false) by (apply (history_ref e); [apply built_history; assumption|exact N]).
  destruct (labels_of_ok s RM N) as (x & l & E & L'). rewrite L in L'. injection L' as ->. apply item_labels_NoDup. apply N. rewrite E. left. reflexivity.
Qed.
Theorem C49_periodic_forecaster : forall e ut c dst detect s w p da limit m ls u id at_ cls pth f,
  built e s -> numeric (s_items s) -> pf_fit c dst detect s w p da limit = Ok m -> labels_of s = Ok ls -> readable ut u ->
  c_parametric cls = true -> c_buildable cls = true -> tree f -> free f pth ->
  let model := mkPModel cls true (pf_data id at_ u ls m) in
  exists f', save ut DFine model pth f = (model, f', Ok tt) /\ pf_load ut cls f' pth = Ok model.
Proof.
  intros e ut c dst detect s w p da limit m ls u id at_ cls pth f B N H L R Cp Cb T F. cbn zeta. destruct (fit_keys _ _ _ _ _ _ _ _ _ H) as (ls' & L' & K & A). rewrite L in L'. injection L' as <-.
  assert (ND : NoDup (dkeys (pf_labels m))) by (rewrite K; apply (labels_distinct e s); assumption).
  destruct (save_ok ut (mkPModel cls true (pf_data id at_ u ls m)) pth f (pf_read id at_ u ls m)) as (f' & Sv & _ & _ & Ld).
  - split; [exact Cp|intros _; reflexivity].
  - exact T.
  - exact F.
  - apply data_names.
  - apply pf_kept; assumption.
  - exists f'. split; [exact Sv|]. apply pf_load_read. apply Ld; [exact Cb|reflexivity].
Qed.
Print Assumptions C49_periodic_forecaster.
Lemma avg_dict_inj a : forall b, avg_dict a = avg_dict b -> a = b.
Proof. unfold avg_dict. induction a as [|[k v] a IH]; intros [|[k' v'] b] H; try discriminate; [reflexivity|]. cbn [map fst snd] in H. injection H as -> -> H. f_equal. apply IH. exact H. Qed.
Definition num_of (v : pv) : Qc := match v with VNum q => q | _ => q0 end.
Definition entries (v : option pv) : list (key * pv) := match v with Some (VDict d) => d | _ => [] end.
Theorem C49_data_determine_the_forecaster : forall id at_ u ls m id' at_' u' ls' m', pf_data id at_ u ls m = pf_data id' at_' u' ls' m' -> m = m'.
Proof.
  intros id at_ u ls [l w d] id' at_' u' ls' [l' w' d'] H. pose proof (f_equal (fun x => entries (dget "periodicities" x)) H) as P. pose proof (f_equal (fun x => entries (dget "windows" x)) H) as W. pose proof (f_equal (fun x => entries (dget "averages" x)) H) as A.
  pose proof (f_equal (dget "dst_affected") H) as D. pose proof (f_equal (fun x => match dget "window" x with Some v => num_of v | None => q0 end) H) as Wd. clear H. unfold pf_data in *. cbn [dget String.eqb Ascii.eqb Bool.eqb pf_labels pf_window pf_dst entries num_of] in *. apply qz_inj in Wd. injection D as <-. subst w'. f_equal. clear -P W A.
  revert l' P W A. induction l as [|[k [[p0 w0] a0]] l IH]; intros [|[k' [[p1 w1] a1]] l'] P W A; try discriminate; [reflexivity|]. cbn [map fst snd] in P, W, A.
  pose proof (f_equal (fun x => match x with (_, v) :: _ => num_of v | _ => q0 end) P) as P0. pose proof (f_equal (fun x => match x with (_, v) :: _ => num_of v | _ => q0 end) W) as W0. pose proof (f_equal (fun x => match x with (KS s, _) :: _ => s | _ => EmptyString end) P) as K0. pose proof (f_equal (fun x => match x with (_, v) :: _ => entries (Some v) | _ => [] end) A) as A0.
  apply (f_equal (@tl _)) in P. apply (f_equal (@tl _)) in W. apply (f_equal (@tl _)) in A. cbn [tl num_of entries] in *. apply qz_inj in P0. apply qz_inj in W0. apply avg_dict_inj in A0. subst. f_equal. apply IH; assumption.
Qed.
Print Assumptions C49_data_determine_the_forecaster.

(* NOT so for the PeriodicAverageReconstructor: it is saved and loaded, but its averages have strings as keys after that, and
   every prediction that works before fails with a KeyError. *)
Lemma pa_predict_ext c dst p da avg avg' s from to : (forall k, avg k = avg' k) -> pa_predict_with c dst p da avg s from to = pa_predict_with c dst p da avg' s from to.
Proof.
  intros H. assert (A : forall x, average_at c dst s p da avg x = average_at c dst s p da avg' x) by (intros x; unfold average_at; destruct (periodicity_index c dst (i_tz x) (i_t x) (resolution s) p da); [cbn [bind]; rewrite H|]; reflexivity).
  unfold pa_predict_with. destruct (check_window s from to) as [[]|]; [cbn [bind]|reflexivity]. destruct (labels_of s) as [[|lb ls]|]; cbn [bind]; try reflexivity. cbn [foldM].
  assert (M : forall l g, mapM (fun j => do x <- ts_get_i s (Z.of_nat j); do a <- average_at c dst s p da avg x; Ok (Qcplus a (Qcdiv g q2))) l = mapM (fun j => do x <- ts_get_i s (Z.of_nat j); do a <- average_at c dst s p da avg' x; Ok (Qcplus a (Qcdiv g q2))) l).
  { intros l g. induction l as [|j l IH]; [reflexivity|]. cbn [mapM]. rewrite IH. destruct (ts_get_i s (Z.of_nat j)) as [x|]; [cbn [bind]; rewrite A|]; reflexivity. }
  destruct (ts_get_i s (Z.of_nat from - 1)) as [x|]; cbn [bind]; [|reflexivity]. destruct (data_at x lb) as [v|]; cbn [bind]; [|reflexivity]. rewrite A. destruct (average_at c dst s p da avg' x) as [a|]; cbn [bind]; [|reflexivity].
  destruct (ts_get_i s (Z.of_nat to + 1)) as [y|]; cbn [bind]; [|reflexivity]. destruct (data_at y lb) as [v'|]; cbn [bind]; [|reflexivity]. rewrite A. destruct (average_at c dst s p da avg' y) as [a'|]; cbn [bind]; [|reflexivity]. rewrite M. reflexivity.
Qed.
Theorem C49_periodic_reconstructor_refuted : forall ut c dst auto s per da om limit m u ls id at_ cls pth f,
  pa_fit c dst auto s per da om limit = Ok m -> readable ut u -> c_parametric cls = true -> c_buildable cls = true -> tree f -> free f pth ->
  let model := mkPModel cls true (pa_data id at_ u ls m) in
  exists f' model', save ut DFine model pth f = (model, f', Ok tt) /\ load ut cls f' pth = Ok model' /\
    (forall g from to, pa_predict_data c dst (pa_period m) (pa_dst m) (pm_data model) g from to = pa_predict c dst m g from to) /\
    forall g from to r, pa_predict c dst m g from to = Ok r -> pa_predict_data c dst (pa_period m) (pa_dst m) (pm_data model') g from to = Err KeyError.
Proof.
  intros ut c dst auto s per da om limit m u ls id at_ cls pth f H R Cp Cb T F. cbn zeta.
  assert (A : NoDup (map fst (pa_averages m))).
  { unfold pa_fit in H. destruct (negb _); [discriminate|]. destruct (labels_of s) as [[|lb [|? ?]]|]; cbn [bind] in H; try discriminate. destruct (match per with Some p => Ok p | None => auto end); cbn [bind] in H; [|discriminate].
    destruct (period_sums _ limit lb (s_items s)) as [sums|] eqn:S; cbn [bind] in H; [|discriminate]. injection H as <-. cbn [pa_averages]. exact (averages_NoDup _ _ _ _ _ S). }
  destruct (save_ok ut (mkPModel cls true (pa_data id at_ u ls m)) pth f (pa_read id at_ u ls m)) as (f' & Sv & _ & _ & Ld).
  - split; [exact Cp|intros _; reflexivity].
  - exact T.
  - exact F.
  - apply pa_names.
  - apply pa_kept; assumption.
  - exists f', (mkPModel cls true (pa_read id at_ u ls m)). split; [exact Sv|]. split; [apply Ld; [exact Cb|reflexivity]|]. cbn [pm_data]. split.
    + intros g from to. apply pa_predict_ext. intros k. apply average_saved.
    + intros g from to r P. eapply predict_without_averages; [|exact P]. intros k. apply average_loaded.
Qed.
Print Assumptions C49_periodic_reconstructor_refuted.

(* NOT so for a model fitted on a series of one point: its resolution is saved as 'None', which is not the string of a unit. *)
Theorem C49_single_point_refuted : forall ut m p f x, savable m -> NoDup (dkeys (pm_data m)) -> dget "resolution" (pm_data m) = Some VNull ->
  (forall k v, In (k, v) (pm_data m) -> k = "resolution"%string \/ storable v) -> ut_parse ut "None" = Err x -> tree f -> free f p -> c_buildable (pm_class m) = true ->
  exists f', save ut DFine m p f = (m, f', Ok tt) /\ load ut (pm_class m) f' p = Err x.
Proof.
  intros ut m p f x S N G St P T F B.
  (* as with the string in its place *)
  assert (Q : reads_back (VDict (map (fun kv => (KS (fst kv), snd kv)) (data1 ut (pm_data m)))) (VDict (map (fun kv => (KS (fst kv), snd kv)) (data1 ut (pm_data m))))).
  { apply storable_reads. unfold data1. rewrite G. cbn [res_str]. rewrite dset_as_map; [|exact N|eexists; exact G]. constructor.
    - rewrite !map_map. rewrite (map_ext _ (fun kv => KS (fst kv))) by (intros [k v]; cbn [fst]; destruct (String.eqb k "resolution"); reflexivity). rewrite <- (map_map fst KS). apply FinFun.Injective_map_NoDup; [intros a b E; injection E as ->; reflexivity|exact N].
    - intros k v I. apply in_map_iff in I. destruct I as ([k' v'] & E & I). apply in_map_iff in I. destruct I as ([k2 v2] & E2 & I). cbn [fst snd] in *. injection E as <- <-. split; [eexists; reflexivity|].
      destruct (String.eqb_spec k2 "resolution") as [->|Nk]; injection E2 as <- <-; [constructor|]. destruct (St _ _ I) as [X|X]; [contradiction|exact X]. }
  destruct Q as (j & D & L). fold (dump_data (data1 ut (pm_data m))) in D.
  destruct F as (Np & Nf & Fr). destruct (makedirs_ok p f [] (fun r s E Nr => Fr r s E Nr)) as [MO _]. destruct (save_fs ut DFine m p f) as (f1 & f2 & r & E & C).
  destruct C as [[-> X]|(_ & _ & _ & _ & -> & [(y & X & _)|(_ & -> & ->)])].
  - exfalso. unfold save in E. destruct S as [S1 S2]. rewrite S1 in E. cbn [negb] in E. assert (Y : c_fit (pm_class m) && negb (pm_fitted m) = false) by (destruct (c_fit (pm_class m)); [rewrite (S2 eq_refl)|]; reflexivity). rewrite Y in E. destruct p as [|y p]; [contradiction|]. rewrite Nf in E.
    destruct (makedirs f [] (y :: p)) as [f1' o]. cbn [snd] in MO. subst o. fold (data1 ut (pm_data m)) in E. rewrite D in E. cbn in E. apply X. congruence.
  - rewrite MO in X. discriminate.
  - rewrite D in E. cbn [write_data fst snd] in E. eexists. split; [exact E|]. unfold load, read_json. rewrite B. cbn [negb]. fold (data_file p). rewrite fs_set_same. cbn [bind]. rewrite L, string_keys_map. unfold data1. rewrite G, dget_dset, String.eqb_refl. cbn [res_str]. rewrite P. reflexivity.
Qed.
Print Assumptions C49_single_point_refuted.

(* NOT harmless: a save which fails because of something JSON cannot represent (such as a function) leaves the directory with
   an empty file behind: nothing can be saved there any more, nor loaded. *)
Lemma dumps_type_error v : forall x, dumps v = Err x -> x = TypeError.
Proof.
  induction v using pv_ind'; intros y E; try discriminate E; try (injection E as <-; reflexivity).
  - rewrite dumps_list in E. assert (Q : exists z, mapM dumps l = Err z /\ z = y) by (destruct (mapM dumps l); [discriminate|injection E as <-; eauto]). destruct Q as (z & Q & <-). clear E. induction l as [|v l IH]; [discriminate|]. cbn [mapM] in Q. destruct (dumps v) eqn:D; cbn [bind] in Q; [|injection Q as <-; exact (H v (or_introl eq_refl) _ D)].
    destruct (mapM dumps l); [discriminate|]. apply IH; [intros w I; exact (H w (or_intror I))|]. cbn [bind] in Q. congruence.
  - rewrite dumps_dict in E. set (g := fun kv : key * pv => do j <- dumps (snd kv); Ok (key_str (fst kv), j)) in *. assert (Q : exists z, mapM g d = Err z /\ z = y) by (destruct (mapM g d); [discriminate|injection E as <-; eauto]). destruct Q as (z & Q & <-). clear E. induction d as [|[k v] d IH]; [discriminate|]. cbn [mapM] in Q. unfold g at 1 in Q. cbn [fst snd] in Q. destruct (dumps v) eqn:D; cbn [bind] in Q; [|injection Q as <-; exact (H k v (or_introl eq_refl) _ D)].
    destruct (mapM g d); [discriminate|]. apply IH; [intros k' w I; exact (H k' w (or_intror I))|]. cbn [bind] in Q. congruence.
Qed.
Lemma dumps_other d k : In (k, VOther) d -> dumps (VDict d) = Err TypeError.
Proof.
  intros I. destruct (dumps (VDict d)) as [j|x] eqn:E; [exfalso|f_equal; apply (dumps_type_error _ _ E)]. rewrite dumps_dict in E. set (g := fun kv : key * pv => do j <- dumps (snd kv); Ok (key_str (fst kv), j)) in *.
  assert (Q : exists js, mapM g d = Ok js) by (destruct (mapM g d); [eauto|discriminate]). destruct Q as [js Q]. clear E. revert js Q. induction d as [|[k' v] d IH]; intros js Q; [destruct I|]. cbn [mapM] in Q. unfold g at 1 in Q. cbn [fst snd] in Q. destruct I as [I|I].
  - injection I as -> ->. discriminate.
  - destruct (dumps v); cbn [bind] in Q; [|discriminate]. destruct (mapM g d) as [t|]; [|discriminate]. exact (IH I t eq_refl).
Qed.
Theorem C49_failed_save_refuted : forall ut m p f k, savable m -> NoDup (dkeys (pm_data m)) -> In (k, VOther) (pm_data m) -> k <> "resolution"%string -> tree f -> free f p ->
  exists f', save ut DFine m p f = (m, f', Err TypeError) /\ f' p = Some NDir /\
    (forall d m2, savable m2 -> save ut d m2 p f' = (m2, f', Err ValueError)) /\ forall c, load ut c f' p = Err ValueError.
Proof.
  intros ut m p f k S ND I Nk T (Np & Nf & Fr). assert (D : dump_data (data1 ut (pm_data m)) = Err TypeError).
  { apply dumps_other with (k := KS k). apply in_map_iff. exists (k, VOther). split; [reflexivity|]. unfold data1. destruct (dget "resolution" (pm_data m)) as [v|] eqn:G; [|exact I]. rewrite dset_as_map; [|exact ND|eexists; exact G]. apply in_map_iff. exists (k, VOther). split; [|exact I]. cbn [fst]. destruct (String.eqb_spec k "resolution"); [contradiction|reflexivity]. }
  destruct (makedirs_ok p f [] (fun r s E Nr => Fr r s E Nr)) as [MO MD]. destruct (save_fs ut DFine m p f) as (f1 & f2 & r & E & C).
  destruct C as [[-> X]|(_ & _ & _ & _ & -> & [(y & X & _)|(_ & -> & ->)])].
  - exfalso. pose proof E as E0. unfold save in E. destruct S as [S1 S2]. rewrite S1 in E. cbn [negb] in E. assert (Y : c_fit (pm_class m) && negb (pm_fitted m) = false) by (destruct (c_fit (pm_class m)); [rewrite (S2 eq_refl)|]; reflexivity). rewrite Y in E. destruct p as [|y p]; [contradiction|]. rewrite Nf in E.
    destruct (makedirs f [] (y :: p)) as [f1' o] eqn:MK. cbn [snd] in MO. subst o. fold (data1 ut (pm_data m)) in E. rewrite D in E. cbn [write_data] in E. injection E as _ E _. assert (Z : f (y :: p) = Some NDir).
    { rewrite <- E. rewrite fs_set_other; [|intros W; symmetry in W; exact (snoc_neq (y :: p) _ W)]. specialize (MD (y :: p) [] ltac:(rewrite app_nil_r; reflexivity) ltac:(discriminate)). exact MD. } rewrite Nf in Z. discriminate.
  - rewrite MO in X. discriminate.
  - rewrite D in E. cbn [write_data fst snd] in E. eexists. split; [exact E|]. assert (Z : fs_set (fst (makedirs f [] p)) (data_file p) (NFile None) p = Some NDir).
    { rewrite fs_set_other; [apply (MD p []); [rewrite app_nil_r; reflexivity|exact Np]|]. intros W. symmetry in W. exact (snoc_neq _ _ W). }
    split; [exact Z|]. split.
    + intros d m2 S2. apply (proj2 (proj2 (C49_refused ut d m2 p _))); [exact S2|]. right. rewrite Z. discriminate.
    + intros c. unfold load. destruct (c_buildable c); cbn [negb]; [|reflexivity]. unfold read_json. fold (data_file p). rewrite fs_set_same. reflexivity.
Qed.
Print Assumptions C49_failed_save_refuted.

(* Nested models: an anomaly detector is saved with its model (or with the ones of its labels) inside, and loaded back with
   all of them. *)
Lemma storable_restores ut ci m : pm_class m = ci -> c_buildable ci = true -> savable m -> storable_data ut (pm_data m) -> restores ut (load ut ci) m.
Proof.
  intros E B S St. split; [exact S|]. intros p f T F. destruct (save_ok ut m p f (pm_data m) S T F (proj1 St) (storable_kept ut _ St)) as (f' & Sv & T' & D & L). exists f'. split; [exact Sv|]. split; [exact T'|]. split; [exact D|].
  intros f2 H. rewrite E. apply L; [exact B|exact H].
Qed.
Lemma data_there ut m p f f' : save ut DFine m p f = (m, f', Ok tt) -> f' (data_file p) <> None.
Proof.
  intros Sv E. destruct (save_fs ut DFine m p f) as (g1 & g2 & r & Eq & C). rewrite Sv in Eq. injection Eq as <- <-. destruct C as [[_ X]|(_ & _ & _ & _ & _ & [(y & _ & _ & X)|(_ & -> & X)])]; [contradiction|discriminate|].
  destruct (dump_data (data1 ut (pm_data m))); cbn [write_data fst snd] in *; [|discriminate]. rewrite fs_set_same in E. discriminate.
Qed.
Lemma inside_free ut m p f f' x : tree f -> f p = None -> p <> [] -> save ut DFine m p f = (m, f', Ok tt) -> x <> "data.json"%string -> f' (p ++ [x]) = None.
Proof.
  intros T N Np Sv Nx. assert (F : f (p ++ [x]) = None) by (destruct (f (p ++ [x])) eqn:E; [|reflexivity]; destruct (T p x) as [X|X]; [rewrite E; discriminate|contradiction|rewrite N in X; discriminate]).
  destruct (f' (p ++ [x])) eqn:E; [|reflexivity]. exfalso. pose proof (save_adds ut DFine m p f (p ++ [x])) as Q. rewrite Sv in Q. cbn [fst snd] in Q. destruct Q as [(r & _ & Q)|Q]; [rewrite E, F; discriminate| |].
  - symmetry in Q. apply prefix_length in Q. rewrite app_length in Q. cbn in Q. lia.
  - unfold data_file in Q. apply app_inv_head in Q. injection Q as Q. contradiction.
Qed.
Lemma all_strings_map ls : all_strings (map VStr ls) = Some ls.
Proof. induction ls as [|s ls IH]; [reflexivity|]. cbn [map all_strings]. rewrite IH. reflexivity. Qed.
Definition same_state (m : pmodel) : pmodel := mkPModel (pm_class m) true (pm_data m).
Theorem C49_nested : forall ut t p f ci (ctx : bool) ls,
  savable (dt_self t) -> storable_data ut (pm_data (dt_self t)) -> c_buildable (pm_class (dt_self t)) = true -> c_buildable ci = true ->
  dget "with_context" (pm_data (dt_self t)) = Some (VBool ctx) -> dget "data_labels" (pm_data (dt_self t)) = Some (VList (map VStr ls)) ->
  (if ctx then dkeys (dt_models t) = ls /\ NoDup ls /\ (forall lb m, In (lb, m) (dt_models t) -> pm_class m = ci /\ savable m /\ storable_data ut (pm_data m))
   else pm_class (dt_one t) = ci /\ savable (dt_one t) /\ storable_data ut (pm_data (dt_one t))) ->
  tree f -> free f p ->
  exists f', save_detector ut DFine t p f = (f', Ok tt) /\
    load_detector ut (pm_class (dt_self t)) (load ut ci) f' p =
      Ok (same_state (dt_self t), if ctx then ModelOf (map (fun kv => (fst kv, same_state (snd kv))) (dt_models t)) else OneModel (same_state (dt_one t))).
Proof.
  intros ut t p f ci ctx ls S St B Bi Wc Dl In_ T F. destruct (storable_restores ut _ _ eq_refl B S St) as [_ R]. destruct (R p f T F) as (f1 & Sv & T1 & D1 & L1). destruct F as (Np & N & Fr).
  assert (Fin : forall f', (forall q n, f1 q = Some n -> f' q = Some n) -> load ut (pm_class (dt_self t)) f' p = Ok (same_state (dt_self t))).
  { intros f' K. apply L1. pose proof (data_there _ _ _ _ _ Sv) as Q. destruct (f1 (data_file p)) as [n|] eqn:E; [|contradiction]. apply K. exact E. }
  unfold save_detector, load_detector. rewrite Sv, Wc. destruct ctx; cbn [truthy].
  - destruct In_ as (K & Nd & Im). set (l := map (fun kv => ((fst kv ++ "_model")%string, snd kv)) (dt_models t)).
    destruct (save_inner_all ut (load ut ci) p Np l f1 T1 D1) as (f' & Sa & Kf & Lf).
    + intros x m I. apply in_map_iff in I. destruct I as ([lb m'] & E & I). cbn [fst snd] in E. injection E as <- <-. destruct (Im lb m' I) as (E & Si & Sti). split; [apply storable_restores; assumption|]. split; [|apply not_data_json]. eapply inside_free; [exact T|exact N|exact Np|exact Sv|apply not_data_json].
    + unfold l. rewrite map_map. cbn [fst]. rewrite <- (map_map fst (fun x => (x ++ "_model")%string)). apply FinFun.Injective_map_NoDup; [intros a b E; exact (app_str_inj _ _ _ E)|]. unfold dkeys in K. rewrite K. exact Nd.
    + exists f'. split.
      * rewrite <- Sa. f_equal. unfold l, inner_path. rewrite map_map. apply map_ext. intros [lb m]. reflexivity.
      * rewrite (Fin f' Kf). cbn [bind same_state pm_data]. rewrite Wc. cbn [truthy]. rewrite Dl. cbn [the_labels]. rewrite all_strings_map.
        assert (M : mapM (fun lb => do i <- load ut ci f' (inner_path p lb); Ok (lb, i)) ls = Ok (map (fun kv => (fst kv, same_state (snd kv))) (dt_models t))).
        { rewrite <- K. assert (X : forall lb m, In (lb, m) (dt_models t) -> load ut ci f' (inner_path p lb) = Ok (same_state m)).
          { intros lb m I. apply (Lf (lb ++ "_model")%string m); [|reflexivity]. unfold l. apply in_map_iff. exists (lb, m). split; [reflexivity|exact I]. }
          clear - X. unfold dkeys. induction (dt_models t) as [|[lb m] r IH]; [reflexivity|]. cbn [map fst snd mapM]. rewrite (X lb m (or_introl eq_refl)). cbn [bind]. rewrite IH by (intros lb' m' I; exact (X lb' m' (or_intror I))). reflexivity. }
        rewrite M. cbn [bind]. do 3 f_equal. apply dict_of_NoDup. unfold dkeys. rewrite map_map. cbn [fst]. unfold dkeys in K. change (NoDup (map fst (dt_models t))). rewrite K. exact Nd.
  - destruct In_ as (E & Si & Sti). destruct (save_inner_all ut (load ut ci) p Np [("model"%string, dt_one t)] f1 T1 D1) as (f' & Sa & Kf & Lf).
    + intros x m [I|[]]. injection I as <- <-. split; [apply storable_restores; assumption|]. split; [|discriminate]. eapply inside_free; [exact T|exact N|exact Np|exact Sv|discriminate].
    + constructor; [intros []|constructor].
    + exists f'. split; [exact Sa|]. rewrite (Fin f' Kf). cbn [bind same_state pm_data]. rewrite Wc. cbn [truthy]. rewrite (Lf "model"%string (dt_one t) (or_introl eq_refl) f' eq_refl). reflexivity.
Qed.
Print Assumptions C49_nested.
(* NOT so if the class of the inner model is an argument of the detector: it cannot be loaded at all. *)
Theorem C49_model_class_argument_refuted : forall ut c li f p, c_buildable c = false -> load_detector ut c li f p = Err ValueError.
Proof. intros ut c li f p H. unfold load_detector, load. rewrite H. reflexivity. Qed.
Print Assumptions C49_model_class_argument_refuted.

(* The hypotheses can be met: a disk with a directory and a file, a fitted model with a resolution of one hour. *)
Definition hours : unit_text := mkUnitText (fun u => match u with UPhys q => if qeqb q (qz 3600) then "1h" else "?" | UCal n => n end)%string
  (fun s => if String.eqb s "1h" then Ok (UPhys (qz 3600)) else Err ValueError).
Definition a_disk : fs := fun q => if path_eqb q ["home"%string] then Some NDir else if path_eqb q ["home"; "notes.txt"]%string then Some (NFile None) else None.
Lemma a_disk_tree : tree a_disk.
Proof.
  intros q x H. unfold a_disk in H. destruct (path_eqb_spec (q ++ [x]) ["home"%string]) as [E|_].
  - left. change ["home"%string] with ([] ++ ["home"%string]) in E. apply app_inj_tail in E. apply E.
  - destruct (path_eqb_spec (q ++ [x]) ["home"; "notes.txt"]%string) as [E|_]; [|contradiction H; reflexivity]. change ["home"; "notes.txt"]%string with (["home"%string] ++ ["notes.txt"%string]) in E. apply app_inj_tail in E. right. rewrite (proj1 E). reflexivity.
Qed.
Example C49_nonvacuous : exists m, savable m /\ c_fit (pm_class m) = true /\ c_buildable (pm_class m) = true /\ storable_data hours (pm_data m) /\ tree a_disk /\ free a_disk ["home"; "models"; "m1"]%string /\ readable hours (UPhys (qz 3600)) /\
  a_disk ["home"; "notes.txt"]%string <> None.
Proof.
  exists (mkPModel (mkClass true true true) true [("id", VStr "x"); ("resolution", VUnit (UPhys (qz 3600))); ("data_labels", VList [VStr "a"; VStr "b"]); ("max", VDict [(KS "a", VNum (qz 4)); (KS "b", VNull)])]%string).
  split; [split; reflexivity|]. split; [reflexivity|]. split; [reflexivity|]. split; [|split; [exact a_disk_tree|split; [|split; [|discriminate]]]].
  - split; [cbn; repeat constructor; cbn; intuition discriminate|]. intros k v [E|[E|[E|[E|[]]]]]; injection E as <- <-; cbn.
    + constructor.
    + exists (UPhys (qz 3600)). split; reflexivity.
    + constructor. intros x [<-|[<-|[]]]; constructor.
    + constructor; [cbn; repeat constructor; cbn; intuition discriminate|]. intros k x [E|[E|[]]]; injection E as <- <-; (split; [eexists; reflexivity|constructor]).
  - split; [discriminate|]. split; [reflexivity|]. intros q r E Nq. destruct q as [|a q]; [contradiction|]. injection E as <- E. destruct q as [|b q]; [right; reflexivity|]. injection E as <- E. destruct q as [|c q]; [left; reflexivity|]. injection E as <- E. destruct q; [left; reflexivity|discriminate].
  - reflexivity.
Qed.
(* A detector with a model for each of two labels; a model holding a function; one fitted on a single point. *)
Lemma free_home x : x <> "notes.txt"%string -> free a_disk ["home"%string; x].
Proof.
  intros N. split; [discriminate|]. split.
  - unfold a_disk. destruct (path_eqb_spec ["home"%string; x] ["home"%string]) as [E|_]; [discriminate|]. destruct (path_eqb_spec ["home"%string; x] ["home"; "notes.txt"]%string) as [E|_]; [injection E as E; contradiction|reflexivity].
  - intros q r E Nq. destruct q as [|a q]; [contradiction|]. injection E as <- E. destruct q as [|b q]; [right; reflexivity|]. injection E as <- E. destruct q; [|discriminate]. left. unfold a_disk.
    destruct (path_eqb_spec ["home"%string; x] ["home"%string]) as [E'|_]; [discriminate|]. destruct (path_eqb_spec ["home"%string; x] ["home"; "notes.txt"]%string) as [E'|_]; [injection E' as E'; contradiction|reflexivity].
Qed.
Definition small (name : string) : pmodel := mkPModel (mkClass true true true) true [("id", VStr name); ("resolution", VUnit (UPhys (qz 3600)))]%string.
Lemma small_storable name : storable_data hours (pm_data (small name)).
Proof. split; [cbn; repeat constructor; cbn; intuition discriminate|]. intros k v [E|[E|[]]]; injection E as <- <-; cbn; [constructor|]. exists (UPhys (qz 3600)). split; reflexivity. Qed.
Definition a_detector : detector :=
  mkDetector (mkPModel (mkClass true true true) true [("id", VStr "d"); ("data_labels", VList [VStr "a"; VStr "b"]); ("with_context", VBool true)]%string) (small "unused") [("a", small "ma"); ("b", small "mb")]%string.
Example C49_nested_nonvacuous :
  savable (dt_self a_detector) /\ storable_data hours (pm_data (dt_self a_detector)) /\ dget "with_context" (pm_data (dt_self a_detector)) = Some (VBool true) /\
  dget "data_labels" (pm_data (dt_self a_detector)) = Some (VList (map VStr ["a"; "b"]%string)) /\ dkeys (dt_models a_detector) = ["a"; "b"]%string /\ NoDup ["a"; "b"]%string /\
  (forall lb m, In (lb, m) (dt_models a_detector) -> pm_class m = mkClass true true true /\ savable m /\ storable_data hours (pm_data m)) /\ free a_disk ["home"; "detector"]%string.
Proof.
  split; [split; reflexivity|]. split; [|split; [reflexivity|split; [reflexivity|split; [reflexivity|split; [repeat constructor; cbn; intuition discriminate|split; [|apply free_home; discriminate]]]]]].
  - split; [cbn; repeat constructor; cbn; intuition discriminate|]. intros k v [E|[E|[E|[]]]]; injection E as <- <-; cbn; constructor. intros x [<-|[<-|[]]]; constructor.
  - intros lb m [E|[E|[]]]; injection E as <- <-; (split; [reflexivity|]; split; [split; reflexivity|apply small_storable]).
Qed.
Example C49_refuted_nonvacuous :
  (exists m, savable m /\ NoDup (dkeys (pm_data m)) /\ In ("error_metric"%string, VOther) (pm_data m)) /\
  (exists m, savable m /\ NoDup (dkeys (pm_data m)) /\ dget "resolution" (pm_data m) = Some VNull /\ forall k v, In (k, v) (pm_data m) -> k = "resolution"%string \/ storable v) /\ ut_parse hours "None" = Err ValueError.
Proof.
  split; [|split; [|reflexivity]].
  - exists (mkPModel (mkClass true true true) true [("id", VStr "x"); ("error_metric", VOther)]%string). split; [split; reflexivity|]. split; [cbn; repeat constructor; cbn; intuition discriminate|]. right. left. reflexivity.
  - exists (mkPModel (mkClass true true true) true [("id", VStr "x"); ("resolution", VNull)]%string). split; [split; reflexivity|]. split; [cbn; repeat constructor; cbn; intuition discriminate|]. split; [reflexivity|]. intros k v [E|[E|[]]]; injection E as <- <-; [right; constructor|left; reflexivity].
Qed.
