(* AnomalyProofs4.v -- when the application succeeds, and what fit stores (C57). *)
From Verif Require Import SeriesProofs3 SeriesProofs4 AccessProofs AccessProofs2 AccessProofs3 OpsProofs OpsProofs2 OpsProofs5 InterpProofs ReconProofs2 ReconProofs4 LstmProofs LstmProofs2 UtilsProofs PropTactics.
From Verif Require Export AnomalyProofs3.
From Coq Require Import Lia.

(* ---------------- items which differ in the indexes only ---------------- *)
Definition reindexed (x y : item) : Prop := same_time x y /\ i_data y = i_data x.
Lemma reindexed_wf l l' : Forall2 reindexed l l' -> wf_items l -> wf_items l'.
Proof.
  intros F W.
  assert (Sh : forall x y x' y', reindexed x x' -> reindexed y y' -> same_item_shape x y -> same_item_shape x' y').
  { intros x y x' y' ((C1 & _) & D1) ((C2 & _) & D2) H. unfold same_item_shape in *. rewrite C1, C2, D1, D2. exact H. }
  assert (In' : forall y, In y l' -> exists x, In x l /\ reindexed x y). { intros y Y. apply In_nth_error in Y. destruct Y as [k Y]. destruct (F2_get_r _ _ _ F k y Y) as (x & X & R). exists x. split; [apply nth_error_In in X; exact X|exact R]. }
  destruct W as [(W1 & W2 & W3)|(W1 & W2 & W3 & W4)].
  - left. split; [|split].
    + intros y Y. destruct (In' y Y) as (x & X & (C & _) & _). specialize (W1 x X). unfold is_point in *. rewrite C. exact W1.
    + assert (T : times l' = times l). { clear - F. unfold times. induction F as [|x y l l' ((_ & T & _) & _) F IH]; [reflexivity|]. cbn [map]. rewrite T, IH. reflexivity. } rewrite T. exact W2.
    + intros y y' Y Y'. destruct (In' y Y) as (x & X & R), (In' y' Y') as (x' & X' & R'). apply (Sh x x' y y' R R'). apply W3; assumption.
  - right. split; [|split; [|split]].
    + intros y Y. destruct (In' y Y) as (x & X & (C & _) & _). specialize (W1 x X). unfold is_slot in *. rewrite C. exact W1.
    + intros i a b Ha Hb. destruct (F2_get_r _ _ _ F i a Ha) as (x & X & (_ & _ & Ex & _) & _). destruct (F2_get_r _ _ _ F (S i) b Hb) as (x' & X' & (_ & Tx & _) & _). rewrite Ex, Tx. apply (W2 i x x' X X').
    + intros y Y. destruct (In' y Y) as (x & X & (_ & T & E & _) & _). rewrite T, E. apply W3. exact X.
    + intros y y' Y Y'. destruct (In' y Y) as (x & X & R), (In' y' Y') as (x' & X' & R'). destruct (W4 x x' X X') as (S1 & U & Z). split; [apply (Sh x x' y y' R R' S1)|]. destruct R as ((_ & _ & _ & U1 & Z1) & _), R' as ((_ & _ & _ & U2 & Z2) & _). rewrite U1, U2, Z1, Z2. split; assumption.
Qed.

(* ---------------- the ranges ---------------- *)
Lemma lmax_some a l : exists M, lmax (a :: l) = Ok M. Proof. eexists. reflexivity. Qed.
Lemma lavg_some l : l <> [] -> exists M, lavg l = Ok M.
Proof.
  intros N. unfold lavg, qdiv. destruct (qeqb_spec (qn (length l)) q0) as [E|E]; [|eexists; reflexivity]. exfalso. assert (L : Qclt q0 (qn (length l))) by (apply qn_pos; destruct l; [congruence|cbn; lia]). rewrite E in L. qlra.
Qed.
Lemma bound_some D lb b x al es d tuple : bound_is D lb b x -> an_errors D = Some al -> dget lb al = Some es -> dget lb (an_dists D) = Some d -> (tuple = true -> exists q, b = BNum q) ->
  bound_of D lb d (map qabs es) tuple b = Ok x.
Proof.
  intros Bi E1 E2 E3 T. assert (X : exists y, bound_of D lb d (map qabs es) tuple b = Ok y).
  { assert (Bi0 := Bi). destruct Bi0 as (al' & es' & d' & A1 & A2 & A3 & H). rewrite E1 in A1. injection A1 as <-. rewrite E2 in A2. injection A2 as <-. rewrite E3 in A3. injection A3 as <-. unfold bound_of.
    destruct b as [q| | |q|q|]; [exists q; reflexivity| | | | |destruct H].
    all: assert (Tf : tuple = false) by (destruct tuple; [destruct (T eq_refl) as [q' C]; discriminate|reflexivity]); rewrite Tf.
    - destruct H as [(a & Ia & _) _]. destruct es as [|a0 es]; [destruct Ia|]. destruct (lmax_some (qabs a0) (map qabs es)) as [M HM]. exists M. cbn [map]. rewrite HM. reflexivity.
    - destruct H as [N _]. destruct (lavg_some (map qabs es)) as [M HM]; [destruct es; [congruence|discriminate]|]. exists M. rewrite HM. reflexivity.
    - destruct H as (sd & S1 & _). unfold by_key. rewrite S1. eexists. reflexivity.
    - destruct H as [N F]. unfold np_div. destruct (qeqb_spec q q0) as [C|C]; [contradiction|]. cbn [bind]. rewrite F. eexists. reflexivity. }
  destruct X as [y Y]. rewrite Y. f_equal. apply (bound_unique D lb b); [apply (bound_ok _ _ _ _ _ _ _ _ E1 E2 E3 Y)|exact Bi].
Qed.
Lemma log10_some lg y : Qclt q0 y -> log10 lg y = Ok (lg y).
Proof. intros L. unfold log10. destruct (qleb_spec y q0) as [C|C]; [exfalso; qlra|reflexivity]. Qed.
Lemma range_some lg D A ls lb : bounded D A ls -> In lb ls -> exists g, range_of lg D (aa_type A) (aa_tuple A) (aa_start A) (aa_end A) lb = Ok g.
Proof.
  intros [T B] Il. destruct (B lb Il) as (xs & xe & d & Dd & B0 & B1 & Lg). assert (C0 := B0). destruct C0 as (al & es & d' & E1 & E2 & E3 & _). rewrite Dd in E3. injection E3 as <-.
  unfold range_of. rewrite E1. cbn [bind]. unfold by_key. rewrite E2. cbn [bind]. rewrite Dd. cbn [bind].
  rewrite (bound_some D lb (aa_start A) xs al es d (aa_tuple A) B0 E1 E2 Dd) by (intros Q; destruct (T Q) as (a & b & Ea & Eb); eauto). cbn [bind].
  rewrite (bound_some D lb (aa_end A) xe al es d (aa_tuple A) B1 E1 E2 Dd) by (intros Q; destruct (T Q) as (a & b & Ea & Eb); eauto). cbn [bind].
  destruct (aa_type A) eqn:Ty; [eexists; reflexivity| |eexists; reflexivity|eexists; reflexivity]. destruct (Lg eq_refl) as [P0 P1]. rewrite (log10_some lg _ P0), (log10_some lg _ P1). eexists. reflexivity.
Qed.
Lemma mapM_some {A B} (f : A -> result B) l : (forall a, In a l -> exists b, f a = Ok b) -> exists bs, mapM f l = Ok bs.
Proof.
  induction l as [|a l IH]; intros H; [eexists; reflexivity|]. destruct (H a (or_introl eq_refl)) as [b Hb]. destruct IH as [bs Hbs]; [intros x X; apply H; right; exact X|]. exists (b :: bs). cbn [mapM]. rewrite Hb. cbn [bind]. rewrite Hbs. reflexivity.
Qed.

(* ---------------- the index of an item ---------------- *)
Lemma minus_nz' a b : a <> b -> qeqb (Qcminus a b) q0 = false.
Proof. intros N. destruct (qeqb_spec (Qcminus a b) q0) as [E|E]; [|reflexivity]. exfalso. apply N. apply minus_zero. exact E. Qed.
Lemma index_some lg D A lb g x : range_ok lg D A lb g -> proper lg (aa_type A) (r_dist g) (r_xs g) (r_xe g) -> aa_type A = ILin \/ aa_type A = ILog -> exists v, index_at lg (aa_type A) g x = Ok v.
Proof.
  intros (R1 & R2 & R3 & R4 & R5 & R6 & R7) P T. unfold index_at. destruct (qleb_spec x (r_xs g)) as [L|L]; [eexists; reflexivity|]. destruct (qleb_spec (r_xe g) x) as [L2|L2]; [eexists; reflexivity|].
  apply Qcnot_le_lt in L. apply Qcnot_le_lt in L2. assert (X : Qclt (r_xs g) (r_xe g)) by qlra. specialize (P X). destruct T as [T|T]; rewrite T in *.
  - destruct P as [_ P]. unfold np_div. rewrite R4, R5, minus_nz' by (intros C; rewrite C in P; qlra). eexists. reflexivity.
  - destruct P as (Dc & Ps & Mo & Lt). destruct (R7 eq_refl) as (R8 & _ & _). assert (D1 := Dc x (r_xe g) ltac:(qlra) ltac:(qlra) ltac:(apply Qcle_refl)).
    rewrite (log10_some lg (pdf (r_dist g) x)) by qlra. cbn [bind]. unfold qdiv. rewrite R8, R4, R5. cbn [fst snd]. rewrite minus_nz' by (intros C; rewrite C in Lt; qlra). eexists. reflexivity.
Qed.
Lemma overall_some st vs : standard st -> vs <> [] -> exists v, overall st vs = Ok v.
Proof.
  intros S1 N. destruct vs as [|a [|b r]]; [congruence|eexists; reflexivity|]. destruct st; [eexists; reflexivity|eexists; reflexivity|apply lavg_some; discriminate|destruct S1].
Qed.
Section TOTAL.
Variables (e : env) (lg : Qc -> Qc) (D : detector_model) (A : apply_args) (s : series) (ls : list string) (gs : list (string * range)).
Hypotheses (Rd : ready e s) (L : labels_of s = Ok ls) (K : map fst gs = ls) (G : forall lb g, In (lb, g) gs -> range_ok lg D A lb g).
Hypotheses (Pr : proper_ranges lg D A ls) (Ty : aa_type A = ILin \/ aa_type A = ILog) (St : standard (aa_strategy A)) (Dt : aa_details A = DNone).

Lemma label_step_some i lb g st : In (lb, g) gs -> (exists err, item_error D s i lb err) -> exists v, label_step lg D A None s i st (lb, g) = Ok (fst st, snd st ++ [v]).
Proof.
  intros Ig (err & x & a & p & X & Va & Pd & Er). unfold label_step, actual_of. rewrite (ts_get_i_nat _ _ _ X). cbn [bind]. rewrite (ready_value e s x lb a Rd (nth_error_In _ _ X) Va). cbn [bind].
  cbn [prediction_of]. rewrite (proj2 (predicted_iff _ _ _ _ _) Pd). cbn [bind]. rewrite (proj2 (error_iff _ _ _ _) Er). cbn [bind]. assert (R := G lb g Ig).
  destruct (index_some lg D A lb g (fold_error (r_dist g) err) R) as [v V]; [apply (Pr lb); [rewrite <- K; apply (in_map fst _ _ Ig)|apply R|apply R|apply R]|exact Ty|].
  rewrite V. cbn [bind]. rewrite Dt. cbn [add_details bind]. eexists. reflexivity.
Qed.
Lemma labels_some i : (forall lb, In lb ls -> exists err, item_error D s i lb err) -> forall gs', (forall q, In q gs' -> In q gs) -> forall st, exists vs, foldM (label_step lg D A None s i) gs' st = Ok (fst st, snd st ++ vs) /\ length vs = length gs'.
Proof.
  intros H. induction gs' as [|[lb g] gs' IH]; intros Sub st; [exists []; rewrite app_nil_r; destruct st; split; reflexivity|]. assert (Ig := Sub _ (or_introl eq_refl)). cbn [foldM].
  destruct (label_step_some i lb g st Ig) as [v V]; [apply H; rewrite <- K; apply (in_map fst _ _ Ig)|]. rewrite V. cbn [bind]. destruct (IH (fun q Q => Sub q (or_intror Q)) (fst st, snd st ++ [v])) as (vs & E & Ln). exists (v :: vs). rewrite E. cbn [fst snd length]. rewrite <- app_assoc. split; [reflexivity|]. rewrite Ln. reflexivity.
Qed.
Lemma item_index_some i x : nth_error (s_items s) i = Some x -> (forall lb, In lb ls -> exists err, item_error D s i lb err) -> exists v, item_index lg D A None s gs i = Ok (set_anomaly x v).
Proof.
  intros X H. unfold item_index. rewrite (ts_get_i_nat _ _ _ X). cbn [bind]. destruct (labels_some i H gs (fun q Q => Q) (x, [])) as (vs & E & Ln). rewrite E. cbn [bind fst snd app].
  assert (Ne : vs <> []). { destruct (ready_labels_known e s Rd) as (y & l & Y & Ly). rewrite L in Ly. injection Ly as El. intros ->. destruct gs as [|q gs']; [|discriminate]. cbn in K. rewrite <- K in El.
    assert (Ny : numeric_item y) by (apply Rd; rewrite Y; left; reflexivity). apply (item_labels_nonempty y Ny). symmetry. exact El. }
  destruct (overall_some (aa_strategy A) vs St Ne) as [v V]. rewrite V. exists v. reflexivity.
Qed.
Lemma lossy_some thr i x : nth_error (s_items s) i = Some x -> exists b, lossy_at thr s i = Ok b.
Proof. intros X. unfold lossy_at. rewrite (ts_get_i_nat _ _ _ X). eexists. reflexivity. Qed.
Lemma any_some thr is : (forall i, In i is -> i < length (s_items s)) -> exists b, any_lossy thr s is = Ok b.
Proof.
  induction is as [|i is IH]; intros H; [eexists; reflexivity|]. cbn [any_lossy]. destruct (nth_error (s_items s) i) as [x|] eqn:X; [|apply nth_error_None in X; specialize (H i (or_introl eq_refl)); lia].
  destruct (lossy_some thr i x X) as [b B]. rewrite B. cbn [bind]. destruct b; [eexists; reflexivity|]. apply IH. intros j J. apply H. right. exact J.
Qed.
Hypotheses (Nr : is_reconstructor (an_inner D) = false) (Pd : predictable D (aa_loss A) s ls).
Lemma step_some i : an_window D < i < length (s_items s) -> exists x y, nth_error (s_items s) i = Some x /\ step lg D A None s gs i = Ok (Some y) /\ reindexed x y.
Proof.
  intros [W Li]. destruct (nth_error (s_items s) i) as [x|] eqn:X; [|apply nth_error_None in X; lia]. exists x. unfold step.
  assert (F : exists f, fate_of D (aa_loss A) s i = Ok f). { unfold fate_of. destruct (lossy_some (aa_loss A) i x X) as [b B]. rewrite B. cbn [bind]. destruct b; [eexists; reflexivity|].
    destruct (any_some (aa_loss A) (map (fun j => i - j - 1) (seq 0 (an_window D)))) as [b B2]; [intros j J; apply in_map_iff in J; destruct J as (k & <- & _); lia|]. rewrite B2. cbn [bind]. destruct b; [eexists; reflexivity|]. rewrite Nr. eexists. reflexivity. }
  destruct F as [f F]. rewrite F. cbn [bind]. apply (fate_ok _ _ _ _ _ W) in F. destruct f.
  - destruct (item_index_some i x X) as [v V]; [intros lb Il; apply Pd; [lia|exact F|exact Il]|]. rewrite V. cbn [bind]. exists (set_anomaly x v). split; [reflexivity|]. split; [reflexivity|]. destruct x. unfold reindexed, same_time. cbn. repeat split.
  - rewrite (ts_get_i_nat _ _ _ X). cbn [bind]. exists x. split; [reflexivity|]. split; [reflexivity|]. unfold reindexed, same_time. repeat split.
  - destruct F as [_ F]. congruence.
Qed.
Lemma loop_as_new is : forall ys out, Forall2 (fun i y => step lg D A None s gs i = Ok (Some y)) is ys -> apply_loop e lg D A None s gs is out = foldM (append_to e) ys out.
Proof.
  induction is as [|i is IH]; intros ys out F; inversion F as [|i' y is' ys' S1 F']; subst; [reflexivity|]. rewrite loop_step, S1. cbn [bind foldM]. destruct (append_to e out y) as [out1|]; cbn [bind]; [|reflexivity]. apply IH. exact F'.
Qed.
Lemma apply_some : parses_units e -> exists out, apply_loop e lg D A None s gs (positions (an_inner D) (an_window D) (length (s_items s))) (empty_series None) = Ok out /\ fresh e out.
Proof.
  intros Pu. rewrite positions_seq, Nr, Nat.sub_0_r. set (n := length (s_items s)). set (w := an_window D).
  assert (X : forall m k, w < k -> k + m <= n -> exists ys, Forall2 (fun i y => step lg D A None s gs i = Ok (Some y)) (seq k m) ys /\ Forall2 reindexed (firstn m (skipn k (s_items s))) ys).
  { induction m as [|m IH]; intros k Wk Lk; [exists []; split; constructor|]. destruct (step_some k) as (x & y & X & S1 & R); [fold w n; lia|]. destruct (IH (S k) ltac:(lia) ltac:(lia)) as (ys & F1 & F2). exists (y :: ys). split; [constructor; assumption|].
    rewrite (skipn_nth_error _ _ _ X). cbn [firstn]. constructor; assumption. }
  destruct (Nat.le_gt_cases n (S w)) as [C|C].
  - replace (n - S w) with 0 by lia. exists (empty_series None). split; reflexivity.
  - destruct (X (n - S w) (S w) ltac:(lia) ltac:(lia)) as (ys & F1 & F2). rewrite (loop_as_new _ ys _ F1). rewrite firstn_all2 in F2 by (rewrite skipn_length; fold n; lia).
    assert (Wy : wf_items ys) by (apply (reindexed_wf _ _ F2), skipn_wf; apply Rd). destruct (ts_of_items_ok e ys Pu Wy) as (out & O & Oi). exists out. split; [exact O|]. unfold fresh. rewrite Oi. exact O.
Qed.
End TOTAL.

Lemma apply_total e lg D A s ls : parses_units e -> ready e s -> labels_of s = Ok ls -> is_reconstructor (an_inner D) = false -> an_metric D <> MSle -> an_metric D <> MUnknown ->
  (aa_type A = ILin \/ aa_type A = ILog) -> standard (aa_strategy A) -> aa_details A = DNone -> bounded D A ls -> proper_ranges lg D A ls -> predictable D (aa_loss A) s ls ->
  exists out, an_apply e lg D A None s = Ok out /\ fresh e out.
Proof.
  intros Pu Rd L Nr M1 M2 Ty St Dt B Pr Pd.
  destruct (mapM_some (fun lb => do g <- range_of lg D (aa_type A) (aa_tuple A) (aa_start A) (aa_end A) lb; Ok (lb, g)) ls) as [gs G]; [intros lb Il; destruct (range_some lg D A ls lb B Il) as [g ->]; eexists; reflexivity|].
  destruct (ranges_ok _ _ _ _ _ G) as [K R]. destruct (apply_some e lg D A s ls gs Rd L K R Pr Ty St Dt Nr Pd Pu) as (out & O & Fr). exists out. split; [|exact Fr]. rewrite (an_apply_fold e lg D A None s ls gs M1 M2 L G). exact O.
Qed.

(* ---------------- fit ---------------- *)
Lemma mapM_F2 {A B} (f : A -> result B) : forall l bs, mapM f l = Ok bs -> Forall2 (fun a b => f a = Ok b) l bs.
Proof.
  induction l as [|a l IH]; intros bs H; cbn [mapM] in H; [injection H as <-; constructor|]. destruct (f a) as [b|] eqn:F; cbn [bind] in H; [|discriminate]. destruct (mapM f l) as [bs'|]; cbn [bind] in H; [|discriminate]. injection H as <-. constructor; [exact F|apply IH; reflexivity].
Qed.
Lemma fit_unfold m w k store fd sd s D : an_fit m w k store fd sd s = Ok D -> exists ls es, labels_of s = Ok ls /\ map fst es = ls /\ (forall lb l, In (lb, l) es -> errors_of m w k s lb = Ok l) /\
  an_inner D = m /\ an_window D = w /\ an_metric D = k /\ an_errors D = (if store then Some es else None) /\ map fst (an_dists D) = ls /\ map fst (an_stdevs D) = ls /\
  (forall lb d, In (lb, d) (an_dists D) -> exists l, In (lb, l) es /\ fd l = Ok d) /\ (forall lb q, In (lb, q) (an_stdevs D) -> exists l, In (lb, l) es /\ sd l = Ok q).
Proof.
  intros H. unfold an_fit in H.
  assert (X : (do ls <- labels_of s; do es <- mapM (fun lb => do l <- errors_of m w k s lb; Ok (lb, l)) ls;
    do ds <- mapM (fun e => do d <- fd (snd e); do sd <- sd (snd e); Ok (fst e, (d, sd))) es;
    Ok (mkDetector m w k (if store then Some es else None) (map (fun x => (fst x, snd (snd x))) ds) (map (fun x => (fst x, fst (snd x))) ds))) = Ok D) by (destruct k; (exact H || discriminate)). clear H.
  destruct (labels_of s) as [ls|]; cbn [bind] in X; [|discriminate]. destruct (mapM _ ls) as [es|] eqn:E; cbn [bind] in X; [|discriminate]. destruct (mapM _ es) as [ds|] eqn:E2; cbn [bind] in X; [|discriminate]. injection X as <-.
  destruct (mapM_keys _ _ _ E) as [K1 K2]. exists ls, es. cbn [an_inner an_window an_metric an_errors an_dists an_stdevs]. split; [reflexivity|]. split; [exact K1|]. split; [exact K2|]. do 4 (split; [reflexivity|]).
  apply mapM_F2 in E2. assert (Kd : map fst ds = map fst es). { clear - E2. induction E2 as [|x y l l' H F IH]; [reflexivity|]. cbn [map]. rewrite IH. f_equal. destruct (fd (snd x)); cbn [bind] in H; [|discriminate]. destruct (sd (snd x)); cbn [bind] in H; [|discriminate]. injection H as <-. reflexivity. }
  split; [rewrite map_map; cbn [fst]; change (map (fun x : string * (dist * Qc) => fst x) ds) with (map fst ds); congruence|]. split; [rewrite map_map; cbn [fst]; change (map (fun x : string * (dist * Qc) => fst x) ds) with (map fst ds); congruence|].
  assert (Q : forall y, In y ds -> exists x, In x es /\ fst y = fst x /\ fd (snd x) = Ok (fst (snd y)) /\ sd (snd x) = Ok (snd (snd y))).
  { intros y Y. apply In_nth_error in Y. destruct Y as [n Y]. destruct (F2_get_r _ _ _ E2 n y Y) as (x & X & H). exists x. split; [apply nth_error_In in X; exact X|]. destruct (fd (snd x)); cbn [bind] in H; [|discriminate]. destruct (sd (snd x)); cbn [bind] in H; [|discriminate]. injection H as <-. repeat split. }
  split.
  - intros lb d I1. apply in_map_iff in I1. destruct I1 as (y & Ey & Y). destruct (Q y Y) as ([lb' l] & X & E1 & E3 & E4). injection Ey as <- <-. exists l. cbn in E1, E3, E4. subst lb'. split; [exact X|exact E3].
  - intros lb d I1. apply in_map_iff in I1. destruct I1 as (y & Ey & Y). destruct (Q y Y) as ([lb' l] & X & E1 & E3 & E4). injection Ey as <- <-. exists l. cbn in E1, E3, E4. subst lb'. split; [exact X|exact E4].
Qed.
Lemma errors_are m w k s lb l D : an_inner D = m -> an_window D = w -> an_metric D = k -> errors_of m w k s lb = Ok l -> Forall2 (fun i err => item_error D s i lb err) (positions m w (length (s_items s))) l.
Proof.
  intros <- <- <- H. apply mapM_F2 in H. refine (F2_impl _ _ _ _ _ H). cbn beta. intros i err E. destruct (actual_of s i lb) as [a|] eqn:Ea; cbn [bind] in E; [|discriminate]. destruct (predicted_of (an_inner D) s i lb) as [p|] eqn:Ep; cbn [bind] in E; [|discriminate].
  destruct (actual_ok _ _ _ _ Ea) as (x & X & Dx). exists x, a, p. split; [exact X|]. split; [apply data_at_value; exact Dx|]. split; [apply predicted_iff; exact Ep|apply error_iff; exact E].
Qed.
