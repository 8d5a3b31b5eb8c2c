(* PropForecast.v -- THEOREMS C54, C55: forecasters. *)
From Verif Require Import SpecForecast BaseLemmas DictLemmas PropTactics Witness PropAccess PropOps PropTransform PropRecon.
From Verif Require Import SeriesProofs2 AccessProofs AccessProofs3 OpsProofs OpsProofs2 OpsProofs3 InterpProofs ReconProofs ReconProofs2 ReconProofs3 ReconProofs4 ForecastProofs ForecastProofs2 ForecastProofs3.

(* ===================== C54 ===================== *)

Lemma forecasts_inplace e c nadd F s steps ctx s' : ready e s -> forecasts e c nadd F s steps ctx s' -> fc_apply_inplace e c nadd F s steps ctx = (s', Ok tt).
Proof.
  intros R [H|H]; [exact H|]. unfold fc_apply in H. destruct (check_targets F s ctx) as [[]|]; cbn [bind] in H; [|discriminate]. rewrite (ready_duplicate e s R) in H. cbn [bind] in H.
  destruct (fc_apply_inplace e c nadd F s steps ctx) as [z [[]|x]]; cbn in H; [injection H as ->; reflexivity|discriminate].
Qed.
Lemma inplace_apply e c nadd F s steps ctx s' : ready e s -> fc_apply_inplace e c nadd F s steps ctx = (s', Ok tt) -> fc_apply e c nadd F s steps ctx = Ok s'.
Proof.
  intros R H. unfold fc_apply. rewrite (ready_duplicate e s R). destruct (check_targets F s ctx) as [[]|] eqn:E; cbn [bind]; [rewrite H; reflexivity|]. unfold fc_apply_inplace in H. rewrite E in H. discriminate.
Qed.

(* Whatever the predictor, with or without context data, in place or not: the original items (marked with
   forecast 0), followed by exactly `steps` items marked with forecast 1, each right after the one before,
   with the predicted data. *)
Theorem C54_apply : forall e c nadd F s u steps ctx s',
  ready e s -> steady s u -> fitted_like F s -> (forall k, ctx = Some k -> NoDup (map fst k)) ->
  forecasts e c nadd F s steps ctx s' ->
  exists before fs s1, s_items s' = before ++ fs /\ length fs = steps /\ resolution s' = resolution s /\
    Forall2 (fun x y => as_it_was x y /\ forecast_is q0 y) (s_items s) before /\ Forall (forecast_is q1) fs /\
    (forall la, last_item (s_items s) = Some la -> consecutive (right_after c u) (la :: fs)) /\
    s_items s1 = before /\ resolution s1 = resolution s /\ predicted F steps ctx s1 fs.
Proof.
  intros e c nadd F s u steps ctx s' R S HF Hc H. apply forecasts_inplace in H; [|exact R].
  destruct (apply_any e c nadd u F ctx s steps R S HF Hc s' (Ok tt) H) as [[_ X]|(fs & G & P)]; [contradiction|]. destruct (P eq_refl) as [L Pr].
  destruct (grown_meaning c u s fs s' G) as (before & I & F2 & Rs & F1 & C). assert (Eb : before = map (mark q0) (s_items s)).
  { destruct G as (I' & _). rewrite I in I'. cbn [s_items set_items] in I'. assert (Lb : length before = length (map (mark q0) (s_items s))) by (rewrite map_length; clear - F2; induction F2; cbn; [reflexivity|f_equal; assumption]).
    clear - I' Lb. revert Lb I'. generalize (map (mark q0) (s_items s)). induction before as [|b l IH]; intros [|b' l'] Lb I'; cbn in *; try discriminate; [reflexivity|]. injection I' as -> I'. f_equal. apply IH; [lia|exact I']. }
  exists before, fs, (set_items s (map (mark q0) (s_items s))). do 6 (split; [assumption|]). split; [symmetry; exact Eb|]. split; [reflexivity|exact Pr].
Qed.
Print Assumptions C54_apply.

(* On failure in place: the original items are still there, and whatever was appended are marked forecasts,
   each right after the one before. *)
Theorem C54_any_outcome : forall e c nadd F s u steps ctx s' o,
  ready e s -> steady s u -> fitted_like F s -> (forall k, ctx = Some k -> NoDup (map fst k)) ->
  fc_apply_inplace e c nadd F s steps ctx = (s', o) ->
  s' = s \/
  exists before fs, s_items s' = before ++ fs /\ resolution s' = resolution s /\
    Forall2 (fun x y => as_it_was x y /\ forecast_is q0 y) (s_items s) before /\ Forall (forecast_is q1) fs /\
    (forall la, last_item (s_items s) = Some la -> consecutive (right_after c u) (la :: fs)).
Proof.
  intros e c nadd F s u steps ctx s' o R S HF Hc H. destruct (apply_any e c nadd u F ctx s steps R S HF Hc s' o H) as [[X _]|(fs & G & P)]; [left; exact X|right].
  destruct (grown_meaning c u s fs s' G) as (before & I & F2 & Rs & F1 & C). exists before, fs. auto.
Qed.
Print Assumptions C54_any_outcome.

(* It does succeed when the predictor gives data with the labels of the series: for all the steps at once... *)
Theorem C54_succeeds_at_once : forall e c nadd F s u steps,
  ready e s -> steady s u -> fitted_like F s -> fc_targets F = None ->
  (forall s1, Forall2 (fun x y => as_it_was x y /\ forecast_is q0 y) (s_items s) (s_items s1) ->
     exists ds, fc_predict F s1 steps None = Ok (FList ds) /\ length ds = steps /\ forall d, In d ds -> labelled s d) ->
  exists s', fc_apply e c nadd F s steps None = Ok s' /\ fc_apply_inplace e c nadd F s steps None = (s', Ok tt).
Proof.
  intros e c nadd F s u steps R S HF HT H. destruct (H (set_items s (map (mark q0) (s_items s)))) as (ds & P & L & Lb).
  - cbn. generalize (s_items s). induction l as [|x l IH]; constructor; [apply mark_was|exact IH].
  - destruct (succeeds_list e c nadd u F s steps R S) with (ds := ds) as [s' E]; [unfold check_targets; rewrite HT; reflexivity|exact P|exact L|exact Lb|]. exists s'. split; [apply inplace_apply; assumption|exact E].
Qed.
Print Assumptions C54_succeeds_at_once.

(* ...or one at a time. *)
Theorem C54_succeeds_one_at_a_time : forall e c nadd F s u steps,
  ready e s -> steady s u -> fitted_like F s -> fc_res F <> None -> fc_targets F = None ->
  (forall s1, Forall2 (fun x y => as_it_was x y /\ forecast_is q0 y) (s_items s) (s_items s1) -> fc_predict F s1 steps None = Err NotImplementedError) ->
  (forall sk before fs, s_items sk = before ++ fs -> Forall2 (fun x y => as_it_was x y /\ forecast_is q0 y) (s_items s) before ->
     exists d, fc_predict F sk 1 None = Ok (FOne d) /\ labelled s d) ->
  exists s', fc_apply e c nadd F s steps None = Ok s' /\ fc_apply_inplace e c nadd F s steps None = (s', Ok tt).
Proof.
  intros e c nadd F s u steps R S HF Hr HT H H1.
  assert (M : Forall2 (fun x y => as_it_was x y /\ forecast_is q0 y) (s_items s) (map (mark q0) (s_items s))) by (generalize (s_items s); induction l as [|x l IH]; constructor; [apply mark_was|exact IH]).
  destruct (succeeds_one e c nadd u F s steps R S HF) as [s' E]; [unfold check_targets; rewrite HT; reflexivity| |left; exact Hr|right; apply H; exact M|].
  - intros sk (fs & I). apply (H1 sk _ fs I M).
  - exists s'. split; [apply inplace_apply; assumption|exact E].
Qed.
Print Assumptions C54_succeeds_one_at_a_time.

(* witnesses: a predictor for all the steps, and one for a single step, on points and on slots *)
Definition const_all (s : series) (n : nat) (_ : option (dict Qc)) : result fdata := Ok (FList (map (fun k => d1 (Z.of_nat k)) (seq 0 n))).
Definition const_one (s : series) (n : nat) (_ : option (dict Qc)) : result fdata := if Nat.eqb n 1 then Ok (FOne (d1 (Z.of_nat (length (s_items s))))) else Err NotImplementedError.
Definition f_all (s : series) : forecaster := mkForecaster None (Some (resolution s)) const_all.
Definition f_one (s : series) : forecaster := mkForecaster None (Some (resolution s)) const_one.
Definition ex_nadd (n : string) (t : Qc) : result Qc := Err ValueError.
Definition slots3 : list item := [slot 0 10 1; slot 10 10 2; slot 20 10 3].
Lemma slots3_items : s_items (ms slots3) = slots3.
Proof. vm_compute. reflexivity. Qed.
Lemma d1_labelled l v : (forall x, In x l -> exists w, i_data x = Some (d1 w)) -> forall s, s_items s = l -> labelled s (d1 v).
Proof.
  intros H s E. exists [("value"%string, qz v)]. split; [reflexivity|]. intros x lb Hx. rewrite E in Hx. destruct (H x Hx) as [w Hw]. unfold has_label, has_value. rewrite Hw. cbn.
  split; [intros [<-|[]]; eauto|]. intros (q & [X|[]]). left. injection X as -> _. reflexivity.
Qed.
Lemma gap6_steady : steady (ms gap6) (UPhys (qz 10)).
Proof.
  split; [apply unit_is_eq; vm_compute; reflexivity|]. right. rewrite gap6_items. split; [intros x Hx; repeat (destruct Hx as [<-|Hx]; [reflexivity|]); destruct Hx|]. split; [cbn; lia|]. exists (qz 10). split; [reflexivity|].
  intros i a b Ha Hb. do 6 (destruct i as [|i]; [cbn in Ha, Hb; try discriminate; injection Ha as <-; injection Hb as <-; apply qeqb_eq; vm_compute; reflexivity|]). destruct i; discriminate.
Qed.
Lemma slots3_steady : steady (ms slots3) (UPhys (qz 10)).
Proof. split; [apply unit_is_eq; vm_compute; reflexivity|]. left. rewrite slots3_items. intros x Hx. repeat (destruct Hx as [<-|Hx]; [reflexivity|]). destruct Hx. Qed.
Lemma slots3_ready : ready ideal_env (ms slots3).
Proof.
  assert (E := slots3_items). split; [exists None; rewrite E; vm_compute; reflexivity|]. rewrite E.
  assert (Sh : forall x y, In x slots3 -> In y slots3 -> same_item_shape x y /\ i_unit x = i_unit y /\ i_tz x = i_tz y).
  { intros x y Hx Hy. unfold slots3 in Hx, Hy. repeat (destruct Hx as [<-|Hx]; [repeat (destruct Hy as [<-|Hy]; [split; [split; [reflexivity|cbn; intros k; reflexivity]|split; reflexivity]|]); destruct Hy|]). destruct Hx. }
  split; [|split; [right|split; [|cbn; discriminate]]].
  - split; [discriminate|]. split; [|intros x y Hx Hy; apply (Sh x y Hx Hy)]. intros x Hx. unfold slots3 in Hx. repeat (destruct Hx as [<-|Hx]; [split; [right; reflexivity|]; cbn; split; [discriminate|repeat constructor; intros []]|]). destruct Hx.
  - split; [intros x Hx; unfold slots3 in Hx; repeat (destruct Hx as [<-|Hx]; [reflexivity|]); destruct Hx|]. split; [|split; [|exact Sh]].
    + intros i a b Ha Hb. do 3 (destruct i as [|i]; [cbn in Ha, Hb; try discriminate; injection Ha as <-; injection Hb as <-; reflexivity|]). destruct i; discriminate.
    + intros x Hx. unfold slots3 in Hx. repeat (destruct Hx as [<-|Hx]; [apply qltb_lt; vm_compute; reflexivity|]). destruct Hx.
  - intros x Hx. unfold slots3 in Hx. repeat (destruct Hx as [<-|Hx]; [eexists; reflexivity|]). destruct Hx.
Qed.
Lemma was_d1 l l1 : (forall x, In x l -> exists w, i_data x = Some (d1 w)) -> Forall2 (fun x y => as_it_was x y /\ forecast_is q0 y) l l1 -> forall x, In x l1 -> exists w, i_data x = Some (d1 w).
Proof. intros H F. induction F as [|x y l l1 [(_ & D & _) _] F IH]; intros z Hz; [destruct Hz|]. destruct Hz as [<-|Hz]; [rewrite D; apply H; left; reflexivity|]. apply IH; [intros w Hw; apply H; right; exact Hw|exact Hz]. Qed.
Lemma gap6_d1 x : In x gap6 -> exists w, i_data x = Some (d1 w).
Proof. intros Hx. unfold gap6 in Hx. repeat (destruct Hx as [<-|Hx]; [eexists; reflexivity|]). destruct Hx. Qed.
Lemma slots3_d1 x : In x slots3 -> exists w, i_data x = Some (d1 w).
Proof. intros Hx. unfold slots3 in Hx. repeat (destruct Hx as [<-|Hx]; [eexists; reflexivity|]). destruct Hx. Qed.
(* the hypotheses of all the theorems above, on points and on slots, for any number of steps *)
Example C54_nonvacuous : forall n,
  (ready ideal_env (ms gap6) /\ steady (ms gap6) (UPhys (qz 10)) /\ fitted_like (f_all (ms gap6)) (ms gap6) /\
   exists s', fc_apply ideal_env ex_cal ex_nadd (f_all (ms gap6)) (ms gap6) n None = Ok s' /\ forecasts ideal_env ex_cal ex_nadd (f_all (ms gap6)) (ms gap6) n None s') /\
  (ready ideal_env (ms slots3) /\ steady (ms slots3) (UPhys (qz 10)) /\ fitted_like (f_one (ms slots3)) (ms slots3) /\
   (n <> 1 -> exists s', fc_apply ideal_env ex_cal ex_nadd (f_one (ms slots3)) (ms slots3) n None = Ok s')).
Proof.
  intros n. split.
  - split; [apply gap6_ready|]. split; [apply gap6_steady|]. assert (L : fitted_like (f_all (ms gap6)) (ms gap6)) by (intros r E; injection E as <-; reflexivity). split; [exact L|].
    destruct (C54_succeeds_at_once ideal_env ex_cal ex_nadd (f_all (ms gap6)) (ms gap6) (UPhys (qz 10)) n gap6_ready gap6_steady L eq_refl) as (s' & E & E').
    + intros s1 H1. eexists. split; [reflexivity|]. split; [rewrite map_length, seq_length; reflexivity|]. intros d Hd. apply in_map_iff in Hd. destruct Hd as (k & <- & _). apply (d1_labelled gap6); [exact gap6_d1|exact gap6_items].
    + exists s'. split; [exact E|left; exact E'].
  - split; [apply slots3_ready|]. split; [apply slots3_steady|]. assert (L : fitted_like (f_one (ms slots3)) (ms slots3)) by (intros r E; injection E as <-; reflexivity). split; [exact L|]. intros N1.
    destruct (C54_succeeds_one_at_a_time ideal_env ex_cal ex_nadd (f_one (ms slots3)) (ms slots3) (UPhys (qz 10)) n slots3_ready slots3_steady L) as (s' & E & E'); [cbn; discriminate|reflexivity| | |exists s'; exact E].
    + intros s1 _. cbn. unfold const_one. destruct (Nat.eqb_spec n 1); [contradiction|reflexivity].
    + intros sk before fs _ _. eexists. split; [reflexivity|]. apply (d1_labelled slots3); [exact slots3_d1|exact slots3_items].
Qed.
(* concretely: times, data and marks of 3 forecasts *)
Example C54_example : exists s' x y, fc_apply ideal_env ex_cal ex_nadd (f_one (ms slots3)) (ms slots3) 3 None = Ok s' /\ length (s_items s') = 6 /\
  nth_error (s_items s') 2 = Some x /\ dget "forecast" (i_idx x) = Some (Some q0) /\
  nth_error (s_items s') 5 = Some y /\ i_t y = qz 50 /\ i_data y = Some (d1 5) /\ dget "forecast" (i_idx y) = Some (Some q1).
Proof. eexists. eexists. eexists. split; [vm_compute; reflexivity|]. split; [reflexivity|]. split; [reflexivity|]. split; [reflexivity|]. split; [reflexivity|]. split; [apply qeqb_eq; vm_compute; reflexivity|]. split; vm_compute; reflexivity. Qed.

(* The hypothesis that the resolution of points is their distance cannot be dropped.  It is computed through a
   string: utilities.py 956-971 removes '.0' from it wherever it is, so 1.05 seconds give '15s'.  The forecast
   is then put 15 seconds after the last point, and the resulting series has no constant resolution. *)
Definition odd_env : env := mkEnv (fun a b => Ok (tunit_eqb a b)) (fun x => Ok (UPhys (if qeqb x (qfrac 105 100) then qz 15 else x))).
Definition odd_points : list item := map (fun kv => mkItem CDataTimePoint (fst kv) (fst kv) (UPhys q0) "UTC" (Some (d1 (snd kv))) [] None) [(q0, 1%Z); (qfrac 105 100, 2%Z); (qfrac 210 100, 3%Z)].
Lemma f_one_fitted s : fitted_like (f_one s) s.
Proof. intros r X. injection X as <-. reflexivity. Qed.
Theorem C54_spacing_refuted : exists e s s' x, built e s /\ numeric (s_items s) /\ equally_spaced (qfrac 105 100) (times (s_items s)) /\ fitted_like (f_one s) s /\
  fc_apply_inplace e ex_cal ex_nadd (f_one s) s 1 None = (s', Ok tt) /\ nth_error (s_items s') 3 = Some x /\
  i_t x = Qcplus (qfrac 210 100) (qz 15) /\ resolution s' = Some RVar.
Proof.
  set (s := match ts_new odd_env None odd_points with Ok s => s | Err _ => empty_series None end). assert (E : s_items s = odd_points) by (vm_compute; reflexivity).
  exists odd_env, s. eexists. eexists. split; [exists None; rewrite E; vm_compute; reflexivity|]. split; [|split; [|split; [|split; [vm_compute; reflexivity|split; [reflexivity|split; [apply qeqb_eq; vm_compute; reflexivity|reflexivity]]]]]].
  - rewrite E. split; [discriminate|]. split.
    + intros x Hx. unfold odd_points in Hx. cbn [map] in Hx. repeat (destruct Hx as [<-|Hx]; [split; [left; reflexivity|]; cbn; split; [discriminate|repeat constructor; intros []]|]). destruct Hx.
    + intros x y Hx Hy. unfold odd_points in Hx, Hy. cbn [map] in Hx, Hy. repeat (destruct Hx as [<-|Hx]; [repeat (destruct Hy as [<-|Hy]; [split; [reflexivity|cbn; intros k; reflexivity]|]); destruct Hy|]). destruct Hx.
  - rewrite E. intros i a b Ha Hb. do 3 (destruct i as [|i]; [cbn in Ha, Hb; try discriminate; injection Ha as <-; injection Hb as <-; apply qeqb_eq; vm_compute; reflexivity|]). destruct i; discriminate.
  - apply f_one_fitted.
Qed.
Print Assumptions C54_spacing_refuted.

(* ===================== C55 ===================== *)

Lemma ready_labels e s ls : ready e s -> has_labels ls (s_items s) -> exists lbs, labels_of s = Ok lbs /\ NoDup lbs /\ lbs <> [] /\ forall lb, In lb lbs <-> In lb ls.
Proof.
  intros ((tz & B) & N & _) [_ H]. assert (RM : ref_missing s = false) by (apply (history_ref e); [apply built_history; [exists tz; exact B|exact N]|exact N]).
  destruct (labels_of_ok s RM N) as (x & l & E & L). exists (item_labels x). assert (Nx : numeric_item x) by (apply N; rewrite E; left; reflexivity).
  split; [exact L|]. split; [apply item_labels_NoDup; exact Nx|]. split; [apply item_labels_nonempty; exact Nx|]. intros lb. rewrite item_labels_In. apply H. rewrite E. left. reflexivity.
Qed.
Lemma fit_detected c dst detect tr p da limit lb lbs : labels_of tr = Ok (lb :: lbs) -> detect lb = Ok p -> pf_fit c dst detect tr None None da limit = pf_fit c dst detect tr None (Some p) da limit.
Proof. intros L D. unfold pf_fit. rewrite L. cbn [bind pf_fit_labels]. rewrite D. reflexivity. Qed.

(* Fitted on a signal of period p (at least 2) of which it has seen all the phases - the periodicity being given
   or detected - the forecaster applied to a series with the same signal shifted by a constant, at least p items long,
   continues the signal, for all the steps and all the labels, but for a wrong shift: the sum of the p differences is divided
   by p - 1. *)
Theorem C55_shifted_signal : forall e c nadd dst detect f ls p d o limit periodicity train s steps shift,
  (forall lb, In lb ls -> periodic (f lb) p d) -> (2 <= p)%Z ->
  (periodicity = Some p \/ periodicity = None /\ forall lb, In lb ls -> detect lb = Ok p) ->
  ready e train -> has_labels ls (s_items train) -> resolution train = Some (RUnit (UPhys d)) ->
  signals f ls o d (included limit) (s_items train) -> (forall x, In x (s_items train) -> loss_known x) -> all_phases o d p (included limit) (s_items train) ->
  ready e s -> has_labels ls (s_items s) -> steady s (UPhys d) -> exact_slots d (s_items s) ->
  signals (fun lb t => Qcplus (f lb t) (shift lb)) ls o d (fun _ => True) (s_items s) -> (p <= Z.of_nat (length (s_items s)))%Z ->
  exists m lbs s', pf_fit c dst detect train None periodicity false limit = Ok m /\ labels_of train = Ok lbs /\
    fc_apply e c nadd (pf_forecaster c dst m lbs (resolution train)) s steps None = Ok s' /\
    length (s_items s') = length (s_items s) + steps /\
    forall la k, last_item (s_items s) = Some la -> k < steps -> exists x, nth_error (s_items s') (length (s_items s) + k) = Some x /\
      i_t x = Qcplus (i_t la) (Qcmult (qn (S k)) d) /\ forall lb, In lb ls -> has_value x lb (Qcplus (f lb (i_t x)) (Qcdiv (Qcmult (qz p) (shift lb)) (qz (p - 1)))).
Proof.
  intros e c nadd dst detect f ls p d o limit pd train s steps sh Pf Hp Hd Rt Lt Ut St Kt At R Ls S Ex Ss Lp.
  destruct (ready_labels e train ls Rt Lt) as (lbs & El & Nd & Ne & Eq). destruct (ready_labels e s ls R Ls) as (lbs' & El' & _ & Ne' & Eq').
  assert (I0 : exists lb, In lb ls) by (destruct lbs as [|lb r]; [contradiction|]; exists lb; apply Eq; left; reflexivity). destruct I0 as [lb0 Il0].
  assert (Ht : exists x n, In x (s_items train) /\ on_grid o d (i_t x) n).
  { destruct Rt as (_ & (Nn & _) & _). destruct (s_items train) as [|x l] eqn:Et; [contradiction|]. rewrite <- Et in *. assert (Ix : In x (s_items train)) by (rewrite Et; left; reflexivity). destruct (St lb0 Il0 x Ix) as [[n G] _]. eauto. }
  destruct (pf_fit_good e c dst f p d o lbs) with (limit := limit) (tr := train) (detect := detect) as (ps & Ef & Mp & Gp); [intros lb H; apply Pf, Eq, H|exact Hp|exact Rt|exact Ut|intros lb H; apply St, Eq, H|exact Kt|exact At|exact Ht|exact Ne|exact El|].
  assert (Ef' : pf_fit c dst detect train None pd false limit = Ok (mkPf ps p false)).
  { destruct Hd as [-> | [-> Hd]]; [exact Ef|]. destruct lbs as [|lb r]; [contradiction|]. rewrite (fit_detected c dst detect train p false limit lb r El); [exact Ef|]. apply Hd, Eq. left. reflexivity. }
  set (F := pf_forecaster c dst (mkPf ps p false) lbs (resolution train)). set (s1 := set_items s (map (mark q0) (s_items s))).
  assert (HF : fitted_like F s) by (intros r X; injection X as <-; rewrite Ut; symmetry; apply S).
  assert (Hl : exists la, last_item (s_items s) = Some la) by (destruct (s_items s) as [|b l] eqn:Es; [destruct R as (_ & (N & _) & _); rewrite Es in N; contradiction|apply last_item_cons]). destruct Hl as [la La].
  assert (Ila : In la (s_items s)) by (apply last_item_some in La; destruct La as [l' ->]; apply in_app_iff; right; left; reflexivity).
  assert (Pg : exists l, pf_predict c dst (mkPf ps p false) lbs s1 steps = Ok (FList l) /\ length l = steps /\
    forall k, k < steps -> exists m, nth_error l k = Some (DDict m) /\ NoDup (map fst m) /\ (forall lb, In lb (map fst m) <-> In lb lbs) /\ forall lb, In lb lbs -> dget lb m = Some (Qcplus (f lb (Qcplus (i_t la) (Qcmult (qn (Datatypes.S k)) d))) (off p sh lb))).
  { assert (Es : exists x0 l0, s_items s = x0 :: l0) by (destruct (s_items s) as [|x0 l0]; [destruct Ila|eauto]). destruct Es as (x0 & l0 & Es).
    apply (predict_good c dst f p d o lbs Hp ps s1 (mark q0 la) (mark q0 x0) sh Mp Nd Gp).
    - apply S.
    - intros x lb Hx Hl. cbn in Hx. apply in_map_iff in Hx. destruct Hx as (y & <- & Hy). apply Eq in Hl. pose proof (ready_value e s y lb (Qcplus (f lb (i_t y)) (sh lb)) R Hy (proj2 (Ss lb Hl y Hy) I)) as Q. exact Q.
    - intros x Hx. cbn in Hx. apply in_map_iff in Hx. destruct Hx as (y & <- & Hy). pose proof (proj1 (Ss lb0 Il0 y Hy)) as Q. exact Q.
    - cbn. rewrite map_length. exact Lp.
    - apply last1. exact La.
    - apply (get_first s1 (mark q0 x0) (map (mark q0) l0)). cbn. rewrite Es. reflexivity.
    - assert (Ix : In x0 (s_items s)) by (rewrite Es; left; reflexivity). destruct R as (_ & (_ & _ & N) & _). destruct (N x0 la Ix Ila) as [Cl _]. unfold is_slot. cbn. rewrite Cl. reflexivity.
    - intros Sl. apply (Ex la Ila). exact Sl. }
  destruct Pg as (ds & Pp & Ld & Vd).
  destruct (succeeds_list e c nadd (UPhys d) F s steps R S eq_refl ds) as [s' A]; [exact Pp|exact Ld| |].
  { intros dd Hdd. apply In_nth_error in Hdd. destruct Hdd as [k Hk]. assert (Lk : k < steps) by (rewrite <- Ld; apply nth_error_Some; congruence). destruct (Vd k Lk) as (m & Hm & _ & Km & _). rewrite Hm in Hk. injection Hk as <-. exists m. split; [reflexivity|].
    intros x lb Hx. unfold dkeys. rewrite Km, Eq. symmetry. apply Ls. exact Hx. }
  exists (mkPf ps p false), lbs, s'. split; [exact Ef'|]. split; [exact El|]. split; [apply inplace_apply; assumption|].
  destruct (apply_any e c nadd (UPhys d) F None s steps R S HF (fun k E => ltac:(discriminate)) s' (Ok tt) A) as [[_ X]|(fs & G & P)]; [contradiction|]. destruct (P eq_refl) as [Lf Pr].
  destruct (grown_meaning c (UPhys d) s fs s' G) as (before & I & F2 & Rs & F1 & C). assert (Lb : length before = length (s_items s)) by (clear - F2; induction F2; cbn; [reflexivity|f_equal; assumption]).
  split; [rewrite I, app_length, Lb, Lf; reflexivity|]. intros la' k La' Hk. rewrite La in La'. injection La' as <-.
  destruct (nth_error fs k) as [x|] eqn:Ek; [|apply nth_error_None in Ek; lia]. exists x. split; [rewrite I, nth_error_app2 by lia; replace (length (s_items s) + k - length before) with k by lia; exact Ek|].
  destruct (forecast_times c d fs la (C la La) (Ex la Ila) k x Ek) as [T _]. split; [exact T|]. intros lb Hlb.
  assert (Md : map i_data fs = map Some ds).
  { destruct Pr as [(ds' & P' & M')|[(a & b & y & P' & _)|[[P'|(ds' & P' & _)] _]]].
    - change (fc_predict F s1 steps None = Ok (FList ds')) in P'. cbn in P'. rewrite Pp in P'. injection P' as <-. exact M'.
    - change (fc_predict F s1 steps None = Ok (FOne a)) in P'. cbn in P'. rewrite Pp in P'. discriminate.
    - change (fc_predict F s1 steps None = Err NotImplementedError) in P'. cbn in P'. rewrite Pp in P'. discriminate.
    - contradiction. }
  destruct (Vd k Hk) as (m & Hm & Nm & _ & Vm). assert (Dx : i_data x = Some (DDict m)).
  { assert (Q : nth_error (map i_data fs) k = Some (i_data x)) by (rewrite nth_error_map, Ek; reflexivity). rewrite Md, nth_error_map, Hm in Q. cbn in Q. congruence. }
  unfold has_value. rewrite Dx. apply Eq in Hlb. rewrite T. apply dget_Some_In. apply Vm. exact Hlb.
Qed.
Print Assumptions C55_shifted_signal.
(* If it is not shifted the signal is continued exactly. *)
Theorem C55_continues_the_signal : forall e c nadd dst detect f ls p d o limit periodicity train s steps,
  (forall lb, In lb ls -> periodic (f lb) p d) -> (2 <= p)%Z ->
  (periodicity = Some p \/ periodicity = None /\ forall lb, In lb ls -> detect lb = Ok p) ->
  ready e train -> has_labels ls (s_items train) -> resolution train = Some (RUnit (UPhys d)) ->
  signals f ls o d (included limit) (s_items train) -> (forall x, In x (s_items train) -> loss_known x) -> all_phases o d p (included limit) (s_items train) ->
  ready e s -> has_labels ls (s_items s) -> steady s (UPhys d) -> exact_slots d (s_items s) ->
  signals f ls o d (fun _ => True) (s_items s) -> (p <= Z.of_nat (length (s_items s)))%Z ->
  exists m lbs s', pf_fit c dst detect train None periodicity false limit = Ok m /\ labels_of train = Ok lbs /\
    fc_apply e c nadd (pf_forecaster c dst m lbs (resolution train)) s steps None = Ok s' /\
    length (s_items s') = length (s_items s) + steps /\
    forall la k, last_item (s_items s) = Some la -> k < steps -> exists x, nth_error (s_items s') (length (s_items s) + k) = Some x /\
      i_t x = Qcplus (i_t la) (Qcmult (qn (S k)) d) /\ forall lb, In lb ls -> has_value x lb (f lb (i_t x)).
Proof.
  intros e c nadd dst detect f ls p d o limit pd train s steps Pf Hp Hd Rt Lt Ut St Kt At R Ls S Ex Ss Lp.
  destruct (C55_shifted_signal e c nadd dst detect f ls p d o limit pd train s steps (fun _ => q0) Pf Hp Hd Rt Lt Ut St Kt At R Ls S Ex) as (m & lbs & s' & A & B & D & L & V); [|exact Lp|].
  - intros lb Hl x Hx. destruct (Ss lb Hl x Hx) as [G W]. split; [exact G|]. intros _. replace (Qcplus (f lb (i_t x)) q0) with (f lb (i_t x)) by (rewrite q0_eq; ring). apply W, I.
  - exists m, lbs, s'. repeat (split; [assumption|]). intros la k Hla Hk. destruct (V la k Hla Hk) as (x & Hx & T & W). exists x. split; [exact Hx|]. split; [exact T|]. intros lb Hl. specialize (W lb Hl).
    replace (f lb (i_t x)) with (Qcplus (f lb (i_t x)) (Qcdiv (Qcmult (qz p) q0) (qz (p - 1)))); [exact W|]. assert (N : qz (p - 1) <> q0) by (intros X; apply (qz_inj _ 0) in X; lia). rewrite q0_eq in *. field. exact N.
Qed.
Print Assumptions C55_continues_the_signal.

(* the items of such a series are one step from each other *)
Lemma steady_times e s d : ready e s -> steady s (UPhys d) -> exact_slots d (s_items s) -> forall k x0 x, nth_error (s_items s) 0 = Some x0 -> nth_error (s_items s) k = Some x -> i_t x = Qcplus (i_t x0) (Qcmult (qn k) d).
Proof.
  intros R S Ex k x0. assert (Next : forall j a b, nth_error (s_items s) j = Some a -> nth_error (s_items s) (Datatypes.S j) = Some b -> i_t b = Qcplus (i_t a) d).
  { intros j a b Ha Hb. destruct S as (_ & [Sl|(_ & _ & d' & Ed & Sp)]).
    - assert (Ia : In a (s_items s)) by (eapply nth_error_In; exact Ha). rewrite <- (Ex a Ia (Sl a Ia)). destruct R as (_ & _ & [W|W] & _); [destruct W as (Ap & _); specialize (Ap a Ia); specialize (Sl a Ia); rewrite slot_point, Ap in Sl; discriminate|].
      destruct W as (_ & Co & _). apply (Co j a b Ha Hb).
    - injection Ed as <-. assert (Q : Qcminus (i_t b) (i_t a) = d) by (apply (Sp j); unfold times; rewrite nth_error_map; [rewrite Ha|rewrite Hb]; reflexivity). rewrite <- Q. ring. }
  induction k as [|k IH]; intros x H0 Hx.
  - rewrite H0 in Hx. injection Hx as <-. change (qn 0) with q0. rewrite q0_eq. ring.
  - destruct (nth_error (s_items s) k) as [y|] eqn:Ey; [|apply nth_error_None in Ey; assert (Lx : Datatypes.S k < length (s_items s)) by (apply nth_error_Some; congruence); lia].
    rewrite (Next k y x Ey Hx), (IH y H0 eq_refl), qn_succ. ring.
Qed.
Lemma steady_phases e s d o p f ls lb : ready e s -> steady s (UPhys d) -> exact_slots d (s_items s) -> signals f ls o d (fun _ => True) (s_items s) -> In lb ls -> (0 < p)%Z -> (p <= Z.of_nat (length (s_items s)))%Z -> all_phases o d p (included None) (s_items s).
Proof.
  intros R S Ex Ss Il Hp Lp t n On. assert (Es : exists x0 l0, s_items s = x0 :: l0) by (destruct (s_items s) as [|x0 l0]; [cbn in Lp; lia|eauto]). destruct Es as (x0 & l0 & Es).
  assert (H0 : nth_error (s_items s) 0 = Some x0) by (rewrite Es; reflexivity). destruct (Ss lb Il x0) as [[n0 G0] _]; [rewrite Es; left; reflexivity|].
  pose proof (Z.mod_pos_bound (n - n0) p Hp) as B. pose proof (Z.div_mod (n - n0) p) as Dm. set (j := ((n - n0) mod p)%Z) in *. set (k := ((n - n0) / p)%Z) in *.
  destruct (nth_error (s_items s) (Z.to_nat j)) as [y|] eqn:Ey; [|apply nth_error_None in Ey; lia]. exists y, k. split; [eapply nth_error_In; exact Ey|]. split; [intros l X; discriminate|].
  rewrite (steady_times e s d R S Ex (Z.to_nat j) x0 y H0 Ey). destruct On as (_ & _ & -> & _), G0 as (_ & _ & -> & _). unfold qn. rewrite Z2Nat.id by lia. replace n with (n0 + j + k * p)%Z by lia. rewrite !qz_plus. ring.
Qed.
(* In particular: fitted on a series which is such a signal, at least one period long, and applied to it. *)
Theorem C55_on_its_own_history : forall e c nadd dst detect f ls p d o s steps,
  (forall lb, In lb ls -> periodic (f lb) p d) -> (2 <= p)%Z ->
  ready e s -> has_labels ls (s_items s) -> steady s (UPhys d) -> exact_slots d (s_items s) ->
  signals f ls o d (fun _ => True) (s_items s) -> (p <= Z.of_nat (length (s_items s)))%Z -> (forall x, In x (s_items s) -> loss_known x) ->
  exists m lbs s', pf_fit c dst detect s None (Some p) false None = Ok m /\ labels_of s = Ok lbs /\
    fc_apply e c nadd (pf_forecaster c dst m lbs (resolution s)) s steps None = Ok s' /\
    length (s_items s') = length (s_items s) + steps /\
    forall la k, last_item (s_items s) = Some la -> k < steps -> exists x, nth_error (s_items s') (length (s_items s) + k) = Some x /\
      i_t x = Qcplus (i_t la) (Qcmult (qn (S k)) d) /\ forall lb, In lb ls -> has_value x lb (f lb (i_t x)).
Proof.
  intros e c nadd dst detect f ls p d o s steps Pf Hp R Ls S Ex Ss Lp Kn.
  assert (Hlb : exists lb, In lb ls). { destruct (ready_labels e s ls R Ls) as (lbs & _ & _ & Ne & Eq). destruct lbs as [|lb r]; [contradiction|]. exists lb. apply Eq. left. reflexivity. }
  destruct Hlb as [lb Il]. apply C55_continues_the_signal with (p := p) (o := o); try assumption.
  - left. reflexivity.
  - apply S.
  - intros l Hl x Hx. destruct (Ss l Hl x Hx) as [G V]. split; [exact G|]. intros _. apply V. exact I.
  - apply (steady_phases e s d o p f ls lb); try assumption. lia.
Qed.
Print Assumptions C55_on_its_own_history.

(* a signal of period 2 in slots, over three items *)
Definition wave_slots : list item := [slot 0 10 1; slot 10 10 2; slot 20 10 1].
Lemma wave_items : s_items (ms wave_slots) = wave_slots.
Proof. vm_compute. reflexivity. Qed.
Example C55_nonvacuous : let s := ms wave_slots in let f := fun _ : string => wave in let ls := ["value"%string] in
  (forall lb, In lb ls -> periodic (f lb) 2 (qz 10)) /\ ready ideal_env s /\ has_labels ls (s_items s) /\ steady s (UPhys (qz 10)) /\ exact_slots (qz 10) (s_items s) /\
  signals f ls q0 (qz 10) (fun _ => True) (s_items s) /\ (2 <= Z.of_nat (length (s_items s)))%Z /\ (forall x, In x (s_items s) -> loss_known x).
Proof.
  cbv zeta. assert (E := wave_items). split; [intros lb _; exact wave_periodic|]. split; [|rewrite E; split; [|split; [|split; [|split; [|split]]]]].
  - split; [exists None; rewrite E; vm_compute; reflexivity|]. rewrite E.
    assert (Sh : forall x y, In x wave_slots -> In y wave_slots -> same_item_shape x y /\ i_unit x = i_unit y /\ i_tz x = i_tz y).
    { intros x y Hx Hy. unfold wave_slots in Hx, Hy. repeat (destruct Hx as [<-|Hx]; [repeat (destruct Hy as [<-|Hy]; [split; [split; [reflexivity|cbn; intros k; reflexivity]|split; reflexivity]|]); destruct Hy|]). destruct Hx. }
    split; [|split; [right|split; [|cbn; discriminate]]].
    + split; [discriminate|]. split; [|intros x y Hx Hy; apply (Sh x y Hx Hy)]. intros x Hx. unfold wave_slots in Hx. repeat (destruct Hx as [<-|Hx]; [split; [right; reflexivity|]; cbn; split; [discriminate|repeat constructor; intros []]|]). destruct Hx.
    + split; [intros x Hx; unfold wave_slots in Hx; repeat (destruct Hx as [<-|Hx]; [reflexivity|]); destruct Hx|]. split; [|split; [|exact Sh]].
      * intros i a b Ha Hb. do 3 (destruct i as [|i]; [cbn in Ha, Hb; try discriminate; injection Ha as <-; injection Hb as <-; reflexivity|]). destruct i; discriminate.
      * intros x Hx. unfold wave_slots in Hx. repeat (destruct Hx as [<-|Hx]; [apply qltb_lt; vm_compute; reflexivity|]). destruct Hx.
    + intros x Hx. unfold wave_slots in Hx. repeat (destruct Hx as [<-|Hx]; [eexists; reflexivity|]). destruct Hx.
  - split; [repeat constructor; intros []|]. intros x lb Hx. unfold wave_slots in Hx. repeat (destruct Hx as [<-|Hx]; [unfold has_label, has_value; cbn; split; [intros (v & [X|[]]); injection X as <- _; left; reflexivity|intros [<-|[]]; eauto]|]). destruct Hx.
  - split; [apply unit_is_eq; vm_compute; reflexivity|]. left. rewrite E. intros x Hx. unfold wave_slots in Hx. repeat (destruct Hx as [<-|Hx]; [reflexivity|]). destruct Hx.
  - intros x Hx _. unfold wave_slots in Hx. repeat (destruct Hx as [<-|Hx]; [apply qeqb_eq; vm_compute; reflexivity|]). destruct Hx.
  - assert (GR : forall t n, (t = n * 10)%Z -> on_grid q0 (qz 10) (qz t) n).
    { intros t n ->. split; [apply Qcle_refl|]. split; [apply qltb_lt; vm_compute; reflexivity|]. split; [rewrite qz_mult, q0_eq; ring|left; reflexivity]. }
    intros lb [<-|[]] x Hx. unfold wave_slots in Hx. repeat (destruct Hx as [<-|Hx]; [split; [eexists; apply GR; cbn; match goal with |- (?a = _)%Z => let k := eval vm_compute in (a / 10)%Z in instantiate (1 := k); reflexivity end|intros _; left; f_equal; apply qeqb_eq; vm_compute; reflexivity]|]). destruct Hx.
  - cbn. lia.
  - intros x Hx. unfold wave_slots in Hx. repeat (destruct Hx as [<-|Hx]; [unfold loss_known; cbn; discriminate|]). destruct Hx.
Qed.

(* It does not work for a constant signal of period 1 (the offset is divided by the window minus one), and with
   an explicit window it cannot be fitted at all. *)
Theorem C55_period_one_refuted : exists s m, ready ideal_env s /\ steady s (UPhys (qz 10)) /\ (forall x, In x (s_items s) -> i_data x = Some (d1 7)) /\ (forall t, periodic (fun _ : Qc => t) 1 (qz 10)) /\
  pf_fit ex_cal (fun _ _ => 0%Z) (fun _ => Err ValueError) s None (Some 1%Z) false None = Ok m /\
  fc_apply ideal_env ex_cal ex_nadd (pf_forecaster ex_cal (fun _ _ => 0%Z) m ["value"%string] (resolution s)) s 1 None = Err ZeroDivisionError.
Proof.
  set (l := [pt 0 7; pt 10 7; pt 20 7]). assert (E : s_items (ms l) = l) by (vm_compute; reflexivity).
  assert (D : dict_points (ms l)) by (apply one_label_dict; rewrite E; [discriminate|one_label_tac|vm_compute; reflexivity]).
  exists (ms l), (match pf_fit ex_cal (fun _ _ => 0%Z) (fun _ => Err ValueError) (ms l) None (Some 1%Z) false None with Ok m => m | Err _ => mkPf [] 0 false end).
  split; [|split; [|split; [|split; [intros t x; reflexivity|split; vm_compute; reflexivity]]]].
  - split; [exists None; rewrite E; vm_compute; reflexivity|]. split; [apply D|]. split; [left; apply D|]. split; [apply D|]. cbn. discriminate.
  - split; [apply unit_is_eq; vm_compute; reflexivity|]. right. rewrite E. split; [intros x Hx; repeat (destruct Hx as [<-|Hx]; [reflexivity|]); destruct Hx|]. split; [cbn; lia|]. exists (qz 10). split; [reflexivity|].
    intros i a b Ha Hb. do 3 (destruct i as [|i]; [cbn in Ha, Hb; try discriminate; injection Ha as <-; injection Hb as <-; apply qeqb_eq; vm_compute; reflexivity|]). destruct i; discriminate.
  - rewrite E. intros x Hx. repeat (destruct Hx as [<-|Hx]; [reflexivity|]). destruct Hx.
Qed.
Print Assumptions C55_period_one_refuted.
(* A signal which alternates between 6 and 7, forecast with the profile of one which alternates between 1 and 2: the next
   value is 12 instead of 7. *)
Definition wave_up : list item := [slot 0 10 6; slot 10 10 7; slot 20 10 6].
Theorem C55_moved_signal_overshoots : exists m s', pf_fit ex_cal (fun _ _ => 0%Z) (fun _ => Err ValueError) (ms wave_slots) None (Some 2%Z) false None = Ok m /\
  fc_apply ideal_env ex_cal ex_nadd (pf_forecaster ex_cal (fun _ _ => 0%Z) m ["value"%string] (resolution (ms wave_slots))) (ms wave_up) 1 None = Ok s' /\
  map (fun x => match i_data x with Some (DDict [(_, v)]) => qtrunc v | _ => 0%Z end) (s_items s') = [6; 7; 6; 12]%Z.
Proof.
  destruct (pf_fit ex_cal (fun _ _ => 0%Z) (fun _ => Err ValueError) (ms wave_slots) None (Some 2%Z) false None) as [m|] eqn:M; [|vm_compute in M; discriminate].
  destruct (fc_apply ideal_env ex_cal ex_nadd (pf_forecaster ex_cal (fun _ _ => 0%Z) m ["value"%string] (resolution (ms wave_slots))) (ms wave_up) 1 None) as [s'|] eqn:A.
  - exists m, s'. split; [reflexivity|]. split; [exact A|]. vm_compute in M. injection M as <-. vm_compute in A. injection A as <-. vm_compute. reflexivity.
  - vm_compute in M. injection M as <-. vm_compute in A. discriminate.
Qed.
Print Assumptions C55_moved_signal_overshoots.
Theorem C55_explicit_window_refuted : forall e c dst detect s w p dst_affected limit,
  ready e s -> pf_fit c dst detect s (Some w) (Some p) dst_affected limit = Err UnboundLocalError.
Proof.
  intros e c dst detect s w p da limit ((tz & B) & N & _). assert (RM : ref_missing s = false) by (apply (history_ref e); [apply built_history; [exists tz; exact B|exact N]|exact N]).
  destruct (labels_of_ok s RM N) as (x & l & E & L). unfold pf_fit. rewrite L. cbn [bind]. assert (Ne : item_labels x <> []) by (apply item_labels_nonempty, N; rewrite E; left; reflexivity). destruct (item_labels x); [contradiction|]. reflexivity.
Qed.
Print Assumptions C55_explicit_window_refuted.
