(* AnomalyProofs3.v -- application of an anomaly detector: outcome, causality, pre-processing, fit (C57, C69, C70). *)
From Verif Require Import SeriesProofs3 AccessProofs AccessProofs2 AccessProofs3 OpsProofs OpsProofs2 InterpProofs ReconProofs2 LstmProofs LstmProofs2 UtilsProofs PropTactics.
From Verif Require Export AnomalyProofs2.
From Coq Require Import Lia.

Lemma ready_labels_known e s : ready e s -> exists x l, s_items s = x :: l /\ labels_of s = Ok (item_labels x).
Proof. intros (B & N & _). apply labels_of_ok; [apply (history_ref e); [apply built_history; assumption|exact N]|exact N]. Qed.
Lemma no_store D s i ls : faithful D None s i ls.
Proof. intros lb p _ H. exact H. Qed.
Lemma ranges_ok lg D A ls gs : mapM (fun lb => do g <- range_of lg D (aa_type A) (aa_tuple A) (aa_start A) (aa_end A) lb; Ok (lb, g)) ls = Ok gs ->
  map fst gs = ls /\ forall lb g, In (lb, g) gs -> range_ok lg D A lb g.
Proof. intros H. destruct (mapM_keys _ _ _ H) as [H1 H2]. split; [exact H1|]. intros lb g I1. apply range_of_ok. apply H2. exact I1. Qed.

Lemma apply_ok e lg D A pre s s' : (forall ls i, labels_of s = Ok ls -> In i (positions (an_inner D) (an_window D) (length (s_items s))) -> faithful D pre s i ls) ->
  (forall x, In x (s_items s) -> exists d, i_data x = Some (DDict d)) -> an_apply e lg D A pre s = Ok s' ->
  exists ls, labels_of s = Ok ls /\ (forall k y, nth_error (s_items s') k = Some y -> out_item lg D A s ls (S (an_window D) + k) y) /\
    (length (s_items s') <= length (s_items s) - S (an_window D) - (if is_reconstructor (an_inner D) then an_window D else 0)) /\
    (is_reconstructor (an_inner D) = false -> length (s_items s') = length (s_items s) - S (an_window D)).
Proof.
  intros Fa Dt H. unfold an_apply in H. assert (X : (do ls <- labels_of s; do gs <- mapM (fun lb => do g <- range_of lg D (aa_type A) (aa_tuple A) (aa_start A) (aa_end A) lb; Ok (lb, g)) ls;
    apply_loop e lg D A pre s gs (positions (an_inner D) (an_window D) (length (s_items s))) (empty_series None)) = Ok s') by (destruct (an_metric D); (exact H || discriminate)). clear H.
  destruct (labels_of s) as [ls|] eqn:L; cbn [bind] in X; [|discriminate]. destruct (mapM _ ls) as [gs|] eqn:G; cbn [bind] in X; [|discriminate]. destruct (ranges_ok _ _ _ _ _ G) as [G1 G2].
  destruct (loop_spec e lg D A pre s ls gs L G1 G2 Dt (positions (an_inner D) (an_window D) (length (s_items s)))) with (out := empty_series None) (out' := s') as (ys & E & F & Ln).
  - intros i Ii. split; [rewrite positions_seq in Ii; apply in_seq in Ii; lia|apply (Fa ls i eq_refl Ii)].
  - exact X.
  - exists ls. split; [reflexivity|]. cbn [s_items empty_series app] in E. rewrite E. rewrite positions_seq in F, Ln. rewrite seq_length in Ln.
    assert (Le : length ys <= length (seq (S (an_window D)) (length (s_items s) - S (an_window D) - (if is_reconstructor (an_inner D) then an_window D else 0)))).
    { assert (Q : length (firstn (length ys) (seq (S (an_window D)) (length (s_items s) - S (an_window D) - (if is_reconstructor (an_inner D) then an_window D else 0)))) = length ys) by (clear - F; induction F; cbn; congruence). rewrite firstn_length in Q. lia. }
    split; [|split; [rewrite seq_length in Le; exact Le|intros C; rewrite (Ln C), C; lia]].
    intros k y Y. assert (K : k < length ys) by (apply nth_error_Some; congruence). rewrite seq_length in Le.
    assert (P : nth_error (firstn (length ys) (seq (S (an_window D)) (length (s_items s) - S (an_window D) - (if is_reconstructor (an_inner D) then an_window D else 0)))) k = Some (S (an_window D) + k)).
    { rewrite nth_error_firstn. destruct (Nat.ltb_spec k (length ys)); [|lia]. apply seq_nth_error. lia. }
    destruct (F2_get_r _ _ _ F k y Y) as (i & E1 & O). rewrite P in E1. injection E1 as <-. exact O.
Qed.

(* ---------------- the loop as a map ---------------- *)
Definition step (lg : Qc -> Qc) (D : detector_model) (A : apply_args) (pre : option stored) (s : series) (gs : list (string * range)) (i : nat) : result (option item) :=
  do f <- fate_of D (aa_loss A) s i;
  match f with
  | Stop => Ok None
  | AsItIs => do x <- ts_get_i s (Z.of_nat i); Ok (Some x)
  | Go => do x <- item_index lg D A pre s gs i; Ok (Some x)
  end.
Lemma loop_step e lg D A pre s gs i r out : apply_loop e lg D A pre s gs (i :: r) out =
  do o <- step lg D A pre s gs i; match o with None => Ok out | Some x => do out <- append_to e out x; apply_loop e lg D A pre s gs r out end.
Proof.
  cbn [apply_loop]. unfold step. destruct (fate_of D (aa_loss A) s i) as [f|]; [|reflexivity]. cbn [bind]. destruct f; [| |reflexivity].
  - destruct (item_index lg D A pre s gs i); reflexivity.
  - destruct (ts_get_i s (Z.of_nat i)); reflexivity.
Qed.
Lemma loop_agree e lg D A pre pre' s s' gs gs' is : (forall i, In i is -> step lg D A pre s gs i = step lg D A pre' s' gs' i) -> forall out,
  apply_loop e lg D A pre s gs is out = apply_loop e lg D A pre' s' gs' is out.
Proof.
  induction is as [|i is IH]; intros H out; [reflexivity|]. rewrite !loop_step, (H i (or_introl eq_refl)). destruct (step lg D A pre' s' gs' i) as [[x|]|]; cbn [bind]; try reflexivity.
  destruct (append_to e out x) as [out1|]; cbn [bind]; [|reflexivity]. apply IH. intros j J. apply H. right. exact J.
Qed.
Lemma step_goes lg D A pre s gs i o : is_reconstructor (an_inner D) = false -> step lg D A pre s gs i = Ok o -> exists x, o = Some x.
Proof.
  intros Nr H. unfold step in H. destruct (fate_of D (aa_loss A) s i) as [f|] eqn:F; cbn [bind] in H; [|discriminate]. destruct f.
  - destruct (item_index _ _ _ _ _ _ _) as [x|]; cbn in H; [|discriminate]. injection H as <-. exists x. reflexivity.
  - destruct (ts_get_i _ _) as [x|]; cbn in H; [|discriminate]. injection H as <-. exists x. reflexivity.
  - exfalso. unfold fate_of in F. destruct (lossy_at _ _ _) as [[]|]; cbn [bind] in F; try discriminate. destruct (any_lossy _ _ _) as [[]|]; cbn [bind] in F; try discriminate. rewrite Nr in F. discriminate.
Qed.
Lemma loop_app e lg D A pre s gs : is_reconstructor (an_inner D) = false -> forall is js out,
  apply_loop e lg D A pre s gs (is ++ js) out = do mid <- apply_loop e lg D A pre s gs is out; apply_loop e lg D A pre s gs js mid.
Proof.
  intros Nr. induction is as [|i is IH]; intros js out; [reflexivity|]. change ((i :: is) ++ js) with (i :: (is ++ js)). rewrite !loop_step. destruct (step lg D A pre s gs i) as [o|] eqn:S1; cbn [bind]; [|reflexivity].
  destruct (step_goes _ _ _ _ _ _ _ _ Nr S1) as [x ->]. destruct (append_to e out x) as [out1|]; cbn [bind]; [|reflexivity]. apply IH.
Qed.
Lemma loop_grows e lg D A pre s gs is : forall out out', apply_loop e lg D A pre s gs is out = Ok out' -> exists ys, s_items out' = s_items out ++ ys.
Proof.
  induction is as [|i is IH]; intros out out' H; [injection H as <-; exists []; rewrite app_nil_r; reflexivity|]. rewrite loop_step in H. destruct (step lg D A pre s gs i) as [[x|]|]; cbn [bind] in H; [| |discriminate].
  - destruct (append_to e out x) as [out1|] eqn:Ap; cbn [bind] in H; [|discriminate]. apply append_to_items in Ap. destruct (IH _ _ H) as [ys E]. exists (x :: ys). rewrite E, Ap, <- app_assoc. reflexivity.
  - injection H as <-. exists []. rewrite app_nil_r. reflexivity.
Qed.
Lemma loop_length e lg D A pre s gs is : is_reconstructor (an_inner D) = false -> forall out out', apply_loop e lg D A pre s gs is out = Ok out' -> length (s_items out') = length (s_items out) + length is.
Proof.
  intros Nr. induction is as [|i is IH]; intros out out' H; [injection H as <-; cbn; lia|]. rewrite loop_step in H. destruct (step lg D A pre s gs i) as [o|] eqn:S1; cbn [bind] in H; [|discriminate].
  destruct (step_goes _ _ _ _ _ _ _ _ Nr S1) as [x ->]. destruct (append_to e out x) as [out1|] eqn:Ap; cbn [bind] in H; [|discriminate]. apply append_to_items in Ap. rewrite (IH _ _ H), Ap, app_length. cbn. lia.
Qed.

(* ---------------- only the past matters ---------------- *)
Definition agree (n : nat) (s s' : series) : Prop := firstn n (s_items s) = firstn n (s_items s') /\ n <= length (s_items s) /\ n <= length (s_items s') /\ s_res s = s_res s'.
Lemma agree_nth n s s' i : agree n s s' -> i < n -> nth_error (s_items s) i = nth_error (s_items s') i.
Proof. intros (E & _) L. assert (H := f_equal (fun l => nth_error l i) E). cbn beta in H. rewrite !nth_error_firstn in H. destruct (Nat.ltb_spec i n); [exact H|lia]. Qed.
Lemma agree_get n s s' i : agree n s s' -> i < n -> ts_get_i s (Z.of_nat i) = ts_get_i s' (Z.of_nat i).
Proof.
  intros G L. assert (E := agree_nth _ _ _ _ G L). destruct G as (_ & L1 & L2 & _). destruct (nth_error (s_items s) i) as [x|] eqn:X; [|apply nth_error_None in X; lia].
  rewrite (ts_get_i_nat _ _ _ X), (ts_get_i_nat s' i x); [reflexivity|symmetry; exact E].
Qed.
Lemma agree_view n s s' i : agree n s s' -> i <= n -> view_items (mkView s 0 (Z.of_nat i)) = view_items (mkView s' 0 (Z.of_nat i)).
Proof.
  intros (E & L1 & L2 & _) L. assert (Wd : forall t, n <= length (s_items t) -> in_window (mkView t 0 (Z.of_nat i))) by (intros t Lt; split; cbn [v_from v_to v_series]; lia).
  rewrite (view_items_ok _ (Wd s L1)), (view_items_ok _ (Wd s' L2)), (window_eq _ (Wd s L1)), (window_eq _ (Wd s' L2)). cbn [v_from v_to v_series]. rewrite Z.sub_0_r, Nat2Z.id. cbn [Z.to_nat skipn].
  f_equal. assert (F : forall l : list item, firstn i l = firstn i (firstn n l)) by (intros l; rewrite firstn_firstn, Nat.min_l by exact L; reflexivity). rewrite (F (s_items s)), (F (s_items s')), E. reflexivity.
Qed.
Lemma agree_predicted n s s' i m lb : agree n s s' -> i < n -> reads_past m -> predicted_of m s i lb = predicted_of m s' i lb.
Proof.
  intros G L R. assert (V := agree_view _ _ _ i G ltac:(lia)). assert (Gi := agree_get _ _ _ _ G L). assert (Rs : s_res s = s_res s') by apply G. unfold predicted_of. destruct m as [f|fs|f|]; try destruct R.
  - rewrite (R (mkView s 0 (Z.of_nat i)) (mkView s' 0 (Z.of_nat i)) V Rs). reflexivity.
  - destruct (dget lb fs) as [f|] eqn:F; [|reflexivity]. cbn [bind]. rewrite Gi. destruct (ts_get_i s' (Z.of_nat i)) as [x|]; [|reflexivity]. cbn [bind]. destruct (item_data x) as [d|]; [|reflexivity]. cbn [bind].
    rewrite (R lb f d (dget_Some_In _ _ _ F) (mkView s 0 (Z.of_nat i)) (mkView s' 0 (Z.of_nat i)) V Rs). reflexivity.
Qed.
Lemma agree_lossy n s s' thr i : agree n s s' -> i < n -> lossy_at thr s i = lossy_at thr s' i.
Proof. intros G L. unfold lossy_at. rewrite (agree_get _ _ _ _ G L). reflexivity. Qed.
Lemma agree_any n s s' thr is : agree n s s' -> (forall i, In i is -> i < n) -> any_lossy thr s is = any_lossy thr s' is.
Proof.
  intros G. induction is as [|i is IH]; intros L; [reflexivity|]. cbn [any_lossy]. rewrite (agree_lossy _ _ _ thr i G (L i (or_introl eq_refl))). destruct (lossy_at thr s' i) as [[]|]; cbn [bind]; try reflexivity.
  apply IH. intros j J. apply L. right. exact J.
Qed.
Lemma foldM_ext {A B} (f g : B -> A -> result B) l : (forall b a, In a l -> f b a = g b a) -> forall b, foldM f l b = foldM g l b.
Proof.
  induction l as [|a l IH]; intros H b; [reflexivity|]. cbn [foldM]. rewrite (H b a (or_introl eq_refl)). destruct (g b a); cbn [bind]; [|reflexivity]. apply IH. intros b' a' I1. apply H. right. exact I1.
Qed.
Lemma item_index_agree lg D A pre pre' s s' gs i : ts_get_i s (Z.of_nat i) = ts_get_i s' (Z.of_nat i) ->
  (forall lb, In lb (map fst gs) -> prediction_of D pre s i lb = prediction_of D pre' s' i lb) -> item_index lg D A pre s gs i = item_index lg D A pre' s' gs i.
Proof.
  intros E H. unfold item_index. rewrite E. destruct (ts_get_i s' (Z.of_nat i)) as [x|] eqn:X; cbn [bind]; [|reflexivity]. rewrite (foldM_ext (label_step lg D A pre s i) (label_step lg D A pre' s' i) gs); [reflexivity|].
  intros st [lb g] I1. unfold label_step, actual_of. rewrite E, X, (H lb (in_map fst _ _ I1)). reflexivity.
Qed.
Lemma step_agree n lg D A s s' gs i : agree n s s' -> i < n -> reads_past (an_inner D) -> step lg D A None s gs i = step lg D A None s' gs i.
Proof.
  intros G L R. unfold step. assert (Nr : is_reconstructor (an_inner D) = false) by (destruct (an_inner D); try reflexivity; destruct R).
  assert (F : fate_of D (aa_loss A) s i = fate_of D (aa_loss A) s' i).
  { unfold fate_of. rewrite (agree_lossy _ _ _ _ i G L), Nr. destruct (lossy_at _ s' i) as [[]|]; cbn [bind]; try reflexivity. rewrite (agree_any n s s' _ _ G); [reflexivity|]. intros j J. apply in_map_iff in J. destruct J as (k & <- & _). lia. }
  rewrite F, (agree_get _ _ _ _ G L). rewrite (item_index_agree lg D A None None s s' gs i (agree_get _ _ _ _ G L)); [reflexivity|]. intros lb _. apply (agree_predicted n); assumption.
Qed.
Lemma agree_labels e n s s' : ready e s -> ready e s' -> agree n s s' -> 0 < n -> labels_of s = labels_of s'.
Proof.
  intros R R' (E & _) L. destruct (ready_labels_known e s R) as (x & l & X & ->). destruct (ready_labels_known e s' R') as (x' & l' & X' & ->). rewrite X, X' in E. destruct n as [|n]; [lia|]. cbn [firstn] in E. injection E as -> _. reflexivity.
Qed.
Lemma an_apply_unfold e lg D A pre s out : an_apply e lg D A pre s = Ok out -> exists ls gs, an_metric D <> MSle /\ an_metric D <> MUnknown /\ labels_of s = Ok ls /\
  mapM (fun lb => do g <- range_of lg D (aa_type A) (aa_tuple A) (aa_start A) (aa_end A) lb; Ok (lb, g)) ls = Ok gs /\
  apply_loop e lg D A pre s gs (positions (an_inner D) (an_window D) (length (s_items s))) (empty_series None) = Ok out.
Proof.
  intros H. unfold an_apply in H. assert (X : (an_metric D <> MSle /\ an_metric D <> MUnknown) /\ (do ls <- labels_of s; do gs <- mapM (fun lb => do g <- range_of lg D (aa_type A) (aa_tuple A) (aa_start A) (aa_end A) lb; Ok (lb, g)) ls;
    apply_loop e lg D A pre s gs (positions (an_inner D) (an_window D) (length (s_items s))) (empty_series None)) = Ok out) by (destruct (an_metric D); (split; [split; discriminate|exact H]) || discriminate). clear H. destruct X as [[M1 M2] X].
  destruct (labels_of s) as [ls|] eqn:L; cbn [bind] in X; [|discriminate]. destruct (mapM _ ls) as [gs|] eqn:G; cbn [bind] in X; [|discriminate]. exists ls, gs. repeat split; assumption.
Qed.
Lemma an_apply_fold e lg D A pre s ls gs : an_metric D <> MSle -> an_metric D <> MUnknown -> labels_of s = Ok ls ->
  mapM (fun lb => do g <- range_of lg D (aa_type A) (aa_tuple A) (aa_start A) (aa_end A) lb; Ok (lb, g)) ls = Ok gs ->
  an_apply e lg D A pre s = apply_loop e lg D A pre s gs (positions (an_inner D) (an_window D) (length (s_items s))) (empty_series None).
Proof. intros M1 M2 L G. unfold an_apply. rewrite L. cbn [bind]. rewrite G. cbn [bind]. destruct (an_metric D); try reflexivity; congruence. Qed.

(* the application to the first n items *)
Lemma apply_prefix e lg D A s s' out' : ready e s -> ready e s' -> agree (length (s_items s)) s s' -> reads_past (an_inner D) -> an_apply e lg D A None s' = Ok out' ->
  exists out, an_apply e lg D A None s = Ok out /\ s_items out = firstn (length (s_items s) - S (an_window D)) (s_items out').
Proof.
  intros R R' G Rp H. assert (Nr : is_reconstructor (an_inner D) = false) by (destruct (an_inner D); try reflexivity; destruct Rp). destruct (an_apply_unfold _ _ _ _ _ _ _ H) as (ls & gs & M1 & M2 & L & Gs & Lo).
  assert (P0 : 0 < length (s_items s)). { destruct (ready_labels_known e s R) as (x & l & X & _). rewrite X. cbn. lia. }
  rewrite <- (agree_labels e _ s s' R R' G P0) in L. rewrite (an_apply_fold e lg D A None s ls gs M1 M2 L Gs). rewrite positions_seq, Nr, Nat.sub_0_r in *.
  assert (Le : length (s_items s) <= length (s_items s')) by apply G. set (w := an_window D) in *. set (n := length (s_items s)) in *. set (n' := length (s_items s')) in *.
  assert (Sp : seq (S w) (n' - S w) = seq (S w) (n - S w) ++ seq (S w + (n - S w)) (n' - S w - (n - S w))) by (rewrite <- seq_app; f_equal; lia).
  rewrite Sp, (loop_app e lg D A None s' gs Nr) in Lo. destruct (apply_loop e lg D A None s' gs (seq (S w) (n - S w)) (empty_series None)) as [mid|] eqn:M; cbn [bind] in Lo; [|discriminate].
  exists mid. split.
  - rewrite <- M. apply loop_agree. intros i Ii. apply in_seq in Ii. apply (step_agree n); [exact G|lia|exact Rp].
  - destruct (loop_grows _ _ _ _ _ _ _ _ _ _ Lo) as [ys E]. assert (Ln := loop_length e lg D A None s' gs _ Nr _ _ M). cbn [s_items empty_series length] in Ln. rewrite seq_length in Ln. rewrite E, firstn_app, firstn_all2 by lia.
    replace (n - S w - length (s_items mid)) with 0 by lia. cbn [firstn]. rewrite app_nil_r. reflexivity.
Qed.
Lemma apply_agree e lg D A n s s' out out' : ready e s -> ready e s' -> agree n s s' -> reads_past (an_inner D) -> an_apply e lg D A None s = Ok out -> an_apply e lg D A None s' = Ok out' ->
  firstn (n - S (an_window D)) (s_items out) = firstn (n - S (an_window D)) (s_items out').
Proof.
  intros R R' G Rp H H'. destruct (Nat.le_gt_cases n (S (an_window D))) as [C|C]; [replace (n - S (an_window D)) with 0 by lia; reflexivity|].
  assert (Nr : is_reconstructor (an_inner D) = false) by (destruct (an_inner D); try reflexivity; destruct Rp).
  destruct (an_apply_unfold _ _ _ _ _ _ _ H) as (ls & gs & M1 & M2 & L & Gs & Lo). destruct (an_apply_unfold _ _ _ _ _ _ _ H') as (ls' & gs' & _ & _ & L' & Gs' & Lo').
  assert (El := agree_labels e _ s s' R R' G ltac:(lia)). rewrite El, L' in L. injection L as <-. rewrite Gs' in Gs. injection Gs as <-. rewrite positions_seq, Nr, Nat.sub_0_r in Lo, Lo'.
  assert (G0 := G). destruct G0 as (_ & L1 & L2 & _). set (w := an_window D) in *.
  assert (Sp : forall t : nat, n <= t -> seq (S w) (t - S w) = seq (S w) (n - S w) ++ seq (S w + (n - S w)) (t - S w - (n - S w))) by (intros t Lt; rewrite <- seq_app; f_equal; lia).
  rewrite (Sp _ L1), (loop_app e lg D A None s gs' Nr) in Lo. rewrite (Sp _ L2), (loop_app e lg D A None s' gs' Nr) in Lo'.
  rewrite (loop_agree e lg D A None None s s' gs' gs') in Lo by (intros i Ii; apply in_seq in Ii; apply (step_agree n); [exact G|lia|exact Rp]).
  destruct (apply_loop e lg D A None s' gs' (seq (S w) (n - S w)) (empty_series None)) as [mid|] eqn:M; cbn [bind] in Lo, Lo'; [|discriminate].
  destruct (loop_grows _ _ _ _ _ _ _ _ _ _ Lo) as [ys E]. destruct (loop_grows _ _ _ _ _ _ _ _ _ _ Lo') as [ys' E']. assert (Ln := loop_length e lg D A None s' gs' _ Nr _ _ M). cbn [s_items empty_series length] in Ln. rewrite seq_length in Ln.
  rewrite E, E', !firstn_app. replace (n - S w - length (s_items mid)) with 0 by lia. reflexivity.
Qed.

(* ---------------- pre-processing ---------------- *)
Lemma nget_mapM (f : nat -> result (nat * dict Qc)) : (forall i q, f i = Ok q -> fst q = i) -> forall is P, mapM f is = Ok P -> forall i, In i is -> exists d, f i = Ok (i, d) /\ nget i P = Some d.
Proof.
  intros Fk. induction is as [|j is IH]; intros P H i Ii; [destruct Ii|]. cbn [mapM] in H. destruct (f j) as [[j' d]|] eqn:Fj; cbn [bind] in H; [|discriminate]. assert (E := Fk _ _ Fj). cbn in E. subst j'.
  destruct (mapM f is) as [P'|] eqn:M; cbn [bind] in H; [|discriminate]. injection H as <-. cbn [nget]. destruct (Nat.eqb_spec i j) as [->|N]; [exists d; split; [exact Fj|reflexivity]|].
  destruct Ii as [<-|Ii]; [congruence|]. exact (IH P' eq_refl i Ii).
Qed.
Lemma preprocess_same e lg D A s P : an_preprocess D s = Ok P -> an_apply e lg D A (Some P) s = an_apply e lg D A None s.
Proof.
  intros H. unfold an_apply. destruct (labels_of s) as [ls|] eqn:L; [|reflexivity]. cbn [bind]. destruct (mapM _ ls) as [gs|] eqn:G; [|reflexivity]. cbn [bind].
  assert (K := proj1 (ranges_ok _ _ _ _ _ G)).
  assert (Hp : forall i lb, In i (positions (an_inner D) (an_window D) (length (s_items s))) -> In lb ls -> prediction_of D (Some P) s i lb = prediction_of D None s i lb).
  { clear G. intros i lb Ii Il. unfold an_preprocess in H. set (f := fun i => do ls <- labels_of s; do d <- mapM (fun lb => do p <- predicted_of (an_inner D) s i lb; Ok (lb, p)) ls; Ok (i, d)) in H.
    assert (Fk : forall i q, f i = Ok q -> fst q = i). { intros j q. unfold f. rewrite L. cbn [bind]. destruct (mapM _ ls); cbn [bind]; [intros Q; injection Q as <-; reflexivity|discriminate]. }
    destruct (nget_mapM f Fk _ _ H i Ii) as (d & Fd & Nd). cbn [prediction_of]. rewrite Nd. unfold f in Fd. rewrite L in Fd. cbn [bind] in Fd. destruct (mapM _ ls) as [d0|] eqn:M; cbn [bind] in Fd; [|discriminate]. injection Fd as ->. destruct (mapM_keys _ _ _ M) as [K1 K2].
    destruct (dget lb d) as [p|] eqn:Dp; [|apply (proj1 (dget_None lb d)) in Dp; destruct Dp; unfold dkeys; rewrite K1; exact Il]. unfold by_key. rewrite Dp. symmetry. apply K2, dget_Some_In. exact Dp. }
  assert (Hl : apply_loop e lg D A (Some P) s gs (positions (an_inner D) (an_window D) (length (s_items s))) (empty_series None) = apply_loop e lg D A None s gs (positions (an_inner D) (an_window D) (length (s_items s))) (empty_series None)).
  { apply loop_agree. intros i Ii. unfold step. rewrite (item_index_agree lg D A (Some P) None s s gs i eq_refl); [reflexivity|]. intros lb Il. rewrite K in Il. apply Hp; assumption. }
  destruct (an_metric D); (reflexivity || exact Hl).
Qed.
