(* AnomalyProofs.v -- the model of the anomaly detectors and its specification (C57). *)
From Verif Require Import SeriesProofs3 OpsProofs OpsProofs2 OpsProofs3 InterpProofs ReconProofs2 ReconProofs3 ReconProofs4 LstmProofs LstmProofs2 UtilsProofs AccessProofs2.
From Verif Require Export SpecAnomaly DictLemmas.
From Coq Require Import Lia.

(* ---------------- positions ---------------- *)
Lemma filter_seq w : forall n k, filter (fun i => negb (Nat.leb i w)) (seq k n) = seq (Nat.max k (S w)) (k + n - Nat.max k (S w)).
Proof.
  induction n as [|n IH]; intros k; [cbn; replace (k + 0 - Nat.max k (S w)) with 0 by lia; reflexivity|].
  cbn [seq filter]. rewrite IH. destruct (Nat.leb_spec k w) as [L|L]; cbn [negb].
  - replace (Nat.max k (S w)) with (S w) by lia. replace (Nat.max (S k) (S w)) with (S w) by lia. f_equal. lia.
  - replace (Nat.max k (S w)) with k by lia. replace (Nat.max (S k) (S w)) with (S k) by lia. replace (k + S n - k) with (S n) by lia. cbn [seq]. f_equal. f_equal. lia.
Qed.
Lemma take_while_seq (b : Z) : forall n k, take_while (fun i => negb (Z.ltb b (Z.of_nat i))) (seq k n) = seq k (Nat.min n (Z.to_nat (b + 1 - Z.of_nat k))).
Proof.
  induction n as [|n IH]; intros k; [reflexivity|]. cbn [seq take_while]. destruct (Z.ltb_spec b (Z.of_nat k)) as [L|L]; cbn [negb].
  - replace (Z.to_nat (b + 1 - Z.of_nat k)) with 0 by lia. rewrite Nat.min_0_r. reflexivity.
  - rewrite IH. replace (Z.to_nat (b + 1 - Z.of_nat k)) with (S (Z.to_nat (b + 1 - Z.of_nat (S k)))) by lia. cbn [Nat.min seq]. reflexivity.
Qed.
Lemma positions_seq m w n : positions m w n = seq (S w) (n - S w - (if is_reconstructor m then w else 0)).
Proof.
  unfold positions. rewrite filter_seq. cbn [Nat.max Nat.add]. destruct (is_reconstructor m).
  - rewrite take_while_seq. f_equal. lia.
  - f_equal. lia.
Qed.

(* ---------------- the pieces ---------------- *)
Lemma predicted_value_iff p lb v : predicted_value p lb = Ok v <-> gives p lb v.
Proof.
  destruct p as [[|d r]|d|]; cbn.
  - split; [discriminate|]. intros (d & r & X & _). discriminate.
  - split; [destruct (dget lb d) eqn:E; [|discriminate]; intros H; injection H as ->; exists d, r; split; [reflexivity|exact E]|].
    intros (d' & r' & X & Y). injection X as <- <-. rewrite Y. reflexivity.
  - split.
    + destruct (dget lb d) as [[q|[|q l]]|] eqn:E; intros H; try discriminate; injection H as ->; [left; reflexivity|right; eexists; reflexivity].
    + intros [X|[r X]]; rewrite X; reflexivity.
  - split; [discriminate|tauto].
Qed.
Lemma predicted_iff m s i lb v : predicted_of m s i lb = Ok v <-> predicts m s i lb v.
Proof.
  unfold predicted_of, predicts. destruct m as [f|fs|f|].
  - destruct (f _) as [p|]; cbn; [|split; [discriminate|intros (p & _ & X); discriminate]]. rewrite predicted_value_iff. split; [intros H; exists p; split; [exact H|reflexivity]|intros (p' & H & X); injection X as <-; exact H].
  - split.
    + destruct (dget lb fs) as [f|] eqn:F; cbn; [|discriminate]. destruct (ts_get_i s (Z.of_nat i)) as [x|] eqn:X; cbn; [|discriminate]. unfold item_data. destruct (i_data x) as [d|] eqn:Dx; cbn; [|discriminate].
      destruct (f _ d) as [p|] eqn:P; cbn; [|discriminate]. rewrite predicted_value_iff. intros H. exists p. split; [exact H|]. exists f, x, d. split; [reflexivity|]. split; [apply get_nat; exact X|]. split; [exact Dx|exact P].
    + intros (p & G & f & x & d & F & X & Dx & P). rewrite F. cbn. rewrite (ts_get_i_nat _ _ _ X). cbn. unfold item_data. rewrite Dx. cbn. rewrite P. cbn. apply predicted_value_iff. exact G.
  - destruct (f s i i) as [p|]; cbn; [|split; [discriminate|intros (p & _ & X); discriminate]]. rewrite predicted_value_iff. split; [intros H; exists p; split; [exact H|reflexivity]|intros (p' & H & X); injection X as <-; exact H].
  - split; [discriminate|intros (p & _ & [])].
Qed.
Lemma error_iff k a p err : error_of k a p = Ok err <-> error_is k a p err.
Proof.
  unfold error_of, error_is. destruct k; try (split; [discriminate|tauto]).
  - split; [intros H; injection H as <-; reflexivity|intros ->; reflexivity].
  - split; [intros H; injection H as <-; reflexivity|intros ->; reflexivity].
  - unfold qdiv. destruct (qeqb_spec a q0) as [E|E]; [split; [discriminate|tauto]|]. split; [intros H; injection H as <-; split; [exact E|reflexivity]|intros [_ ->]; reflexivity].
  - unfold qdiv. destruct (qeqb_spec a q0) as [E|E]; cbn; [split; [discriminate|tauto]|]. split; [intros H; injection H as <-; split; [exact E|reflexivity]|intros [_ ->]; reflexivity].
Qed.

Lemma fold_max r : forall a, In (fold_left (fun a b => if qltb a b then b else a) r a) (a :: r) /\
  Qcle a (fold_left (fun a b => if qltb a b then b else a) r a) /\ forall w, In w r -> Qcle w (fold_left (fun a b => if qltb a b then b else a) r a).
Proof.
  induction r as [|b r IH]; intros a; cbn [fold_left]; [split; [left; reflexivity|split; [apply Qcle_refl|intros w []]]|].
  destruct (IH (if qltb a b then b else a)) as (H1 & H2 & H3). split; [|split].
  - destruct H1 as [H1|H1]; [|right; right; exact H1]. rewrite <- H1. destruct (qltb_spec a b); [right; left; reflexivity|left; reflexivity].
  - destruct (qltb_spec a b) as [L|L]; [apply Qcle_trans with b; [apply Qclt_le_weak; exact L|exact H2]|exact H2].
  - intros w [<-|W]; [|apply H3; exact W]. destruct (qltb_spec a b) as [L|L]; [exact H2|apply Qcle_trans with a; [apply Qcnot_lt_le; exact L|exact H2]].
Qed.
Lemma lmax_ok l M : lmax l = Ok M -> In M l /\ forall w, In w l -> Qcle w M.
Proof.
  destruct l as [|a r]; cbn; [discriminate|]. intros H. injection H as <-. destruct (fold_max r a) as (H1 & H2 & H3). split; [exact H1|]. intros w [<-|W]; [exact H2|apply H3; exact W].
Qed.
Lemma fold_min r : forall a, In (fold_left (fun a b => if qltb b a then b else a) r a) (a :: r) /\
  Qcle (fold_left (fun a b => if qltb b a then b else a) r a) a /\ forall w, In w r -> Qcle (fold_left (fun a b => if qltb b a then b else a) r a) w.
Proof.
  induction r as [|b r IH]; intros a; cbn [fold_left]; [split; [left; reflexivity|split; [apply Qcle_refl|intros w []]]|].
  destruct (IH (if qltb b a then b else a)) as (H1 & H2 & H3). split; [|split].
  - destruct H1 as [H1|H1]; [|right; right; exact H1]. rewrite <- H1. destruct (qltb_spec b a); [right; left; reflexivity|left; reflexivity].
  - destruct (qltb_spec b a) as [L|L]; [apply Qcle_trans with b; [exact H2|apply Qclt_le_weak; exact L]|exact H2].
  - intros w [<-|W]; [|apply H3; exact W]. destruct (qltb_spec b a) as [L|L]; [exact H2|apply Qcle_trans with a; [exact H2|apply Qcnot_lt_le; exact L]].
Qed.
Lemma lmin_ok l M : lmin l = Ok M -> In M l /\ forall w, In w l -> Qcle M w.
Proof.
  destruct l as [|a r]; cbn; [discriminate|]. intros H. injection H as <-. destruct (fold_min r a) as (H1 & H2 & H3). split; [exact H1|]. intros w [<-|W]; [exact H2|apply H3; exact W].
Qed.
Lemma lsum_total l : lsum l = total l.
Proof. unfold lsum. assert (H := fold_plus_total (fun x => x) l q0). rewrite map_id in H. transitivity (fold_left (fun a x => Qcplus a x) l q0); [reflexivity|]. rewrite H, q0_eq. ring. Qed.
Lemma lavg_ok l v : lavg l = Ok v -> l <> [] /\ Qcmult v (qn (length l)) = total l.
Proof.
  unfold lavg, qdiv. rewrite lsum_total. destruct (qeqb_spec (qn (length l)) q0) as [E|E]; [discriminate|]. intros H. injection H as <-. split; [intros ->; apply E; reflexivity|].
  unfold Qcdiv. rewrite <- Qcmult_assoc, (Qcmult_comm (Qcinv _)), Qcmult_inv_r, Qcmult_1_r; [reflexivity|]. rewrite <- q0_eq. exact E.
Qed.
Lemma overall_ok st vs v : overall st vs = Ok v -> combines st vs v.
Proof.
  unfold overall, combines. destruct vs as [|a [|b r]].
  - intros H. right. split; [discriminate|]. destruct st; [apply lmin_ok; exact H|apply lmax_ok; exact H|apply lavg_ok; exact H|exact H].
  - intros H. injection H as ->. left. reflexivity.
  - intros H. right. split; [discriminate|]. destruct st; [apply lmin_ok; exact H|apply lmax_ok; exact H|apply lavg_ok; exact H|exact H].
Qed.

Lemma by_key_ok {V} (d : dict V) k v : by_key d k = Ok v <-> dget k d = Some v.
Proof. unfold by_key. destruct (dget k d); split; intros H; congruence. Qed.

Lemma bound_ok D lb d all es tuple b x : an_errors D = Some all -> dget lb all = Some es -> dget lb (an_dists D) = Some d ->
  bound_of D lb d (map qabs es) tuple b = Ok x -> bound_is D lb b x.
Proof.
  intros E1 E2 E3 H. exists all, es, d. split; [exact E1|]. split; [exact E2|]. split; [exact E3|]. unfold bound_of in H. destruct b as [q| | |q|q|].
  - congruence.
  - destruct (lmax (map qabs es)) as [M|] eqn:L; cbn in H; [|discriminate]. destruct tuple; [discriminate|]. injection H as <-. apply lmax_ok in L. destruct L as [L1 L2]. split.
    + apply in_map_iff in L1. destruct L1 as (e & <- & I1). exists e. split; [exact I1|reflexivity].
    + intros e I1. apply L2. apply in_map. exact I1.
  - destruct (lavg (map qabs es)) as [M|] eqn:L; cbn in H; [|discriminate]. destruct tuple; [discriminate|]. injection H as <-. apply lavg_ok in L. destruct L as [L1 L2]. rewrite map_length in L2. split; [|exact L2]. intros ->. apply L1. reflexivity.
  - destruct (by_key (an_stdevs D) lb) as [sd|] eqn:L; cbn in H; [|discriminate]. destruct tuple; [discriminate|]. injection H as <-. exists sd. split; [apply by_key_ok; exact L|reflexivity].
  - unfold np_div in H. destruct (qeqb_spec q q0) as [E|E]; cbn in H; [discriminate|]. destruct (find_x d _) as [y|] eqn:F; cbn in H; [|discriminate]. destruct tuple; [discriminate|]. injection H as <-. split; [exact E|first [exact F|reflexivity]].
  - discriminate.
Qed.

(* the range g is the one of the label *)
Definition range_ok (lg : Qc -> Qc) (D : detector_model) (A : apply_args) (lb : string) (g : range) : Prop :=
  dget lb (an_dists D) = Some (r_dist g) /\ bound_is D lb (aa_start A) (r_xs g) /\ bound_is D lb (aa_end A) (r_xe g) /\
  r_ys g = pdf (r_dist g) (r_xs g) /\ r_ye g = pdf (r_dist g) (r_xe g) /\ r_ymax g = pdf (r_dist g) (loc (r_dist g)) /\
  (aa_type A = ILog -> r_log g = (lg (r_ys g), lg (r_ye g)) /\ Qclt q0 (r_ys g) /\ Qclt q0 (r_ye g)).
Lemma log10_ok lg y v : log10 lg y = Ok v -> Qclt q0 y /\ v = lg y.
Proof. unfold log10. destruct (qleb_spec y q0) as [L|L]; [discriminate|]. intros H. injection H as <-. split; [apply Qcnot_le_lt; exact L|reflexivity]. Qed.
Lemma range_of_ok lg D A lb g : range_of lg D (aa_type A) (aa_tuple A) (aa_start A) (aa_end A) lb = Ok g -> range_ok lg D A lb g.
Proof.
  unfold range_of. destruct (an_errors D) as [all|] eqn:E1; cbn [bind]; [|discriminate]. destruct (by_key all lb) as [es|] eqn:E2; cbn [bind]; [|discriminate]. apply by_key_ok in E2.
  destruct (by_key (an_dists D) lb) as [d|] eqn:E3; cbn [bind]; [|discriminate]. apply by_key_ok in E3.
  destruct (bound_of D lb d (map qabs es) (aa_tuple A) (aa_start A)) as [xs|] eqn:B0; cbn [bind]; [|discriminate]. destruct (bound_of D lb d (map qabs es) (aa_tuple A) (aa_end A)) as [xe|] eqn:B1; cbn [bind]; [|discriminate].
  assert (P0 := bound_ok _ _ _ _ _ _ _ _ E1 E2 E3 B0). assert (P1 := bound_ok _ _ _ _ _ _ _ _ E1 E2 E3 B1). intros H. unfold range_ok.
  destruct (aa_type A) eqn:T; [| |injection H as <-; cbn; repeat (split; [assumption || reflexivity|]); discriminate|injection H as <-; cbn; repeat (split; [assumption || reflexivity|]); discriminate].
  - injection H as <-. cbn. repeat (split; [assumption || reflexivity|]). discriminate.
  - destruct (log10 lg (pdf d xs)) as [a|] eqn:L1; cbn [bind] in H; [|discriminate]. destruct (log10 lg (pdf d xe)) as [b|] eqn:L2; cbn [bind] in H; [|discriminate]. injection H as <-. cbn.
    apply log10_ok in L1. apply log10_ok in L2. destruct L1 as [L1 ->], L2 as [L2 ->]. do 6 (split; [assumption || reflexivity|]). intros _. split; [reflexivity|]. split; [exact L1|exact L2].
Qed.

Lemma minus_nz a b : Qcminus a b <> q0 -> a <> b.
Proof. intros H E. apply H. subst. rewrite q0_eq. ring. Qed.
Lemma index_grade lg D A lb g x v : range_ok lg D A lb g -> index_at lg (aa_type A) g x = Ok v -> grade lg (aa_type A) (r_dist g) (r_xs g) (r_xe g) x v.
Proof.
  intros (R1 & R2 & R3 & R4 & R5 & R6 & R7). unfold index_at, grade. destruct (qleb_spec x (r_xs g)) as [L|L]; [intros H; injection H as <-; left; split; [exact L|reflexivity]|].
  destruct (qleb_spec (r_xe g) x) as [L2|L2]; [intros H; injection H as <-; right; left; split; [apply Qcnot_le_lt; exact L|split; [exact L2|reflexivity]]|].
  intros H. right. right. split; [apply Qcnot_le_lt; exact L|]. split; [apply Qcnot_le_lt; exact L2|]. destruct (aa_type A) eqn:T.
  - unfold np_div in H. destruct (qeqb_spec (Qcminus (r_ys g) (r_ye g)) q0) as [E|E]; cbn in H; [discriminate|]. injection H as <-. rewrite <- R4, <- R5. split; [apply minus_nz; exact E|].
    rewrite q1_eq. rewrite q0_eq in E. field. intros C. apply E. rewrite <- C. ring.
  - destruct (R7 eq_refl) as (R8 & P1 & P2). destruct (log10 lg (pdf (r_dist g) x)) as [l|] eqn:Lx; cbn [bind] in H; [|discriminate]. apply log10_ok in Lx. destruct Lx as [_ ->].
    unfold qdiv in H. rewrite R8 in H. cbn [fst snd] in H. destruct (qeqb_spec (Qcminus (lg (r_ye g)) (lg (r_ys g))) q0) as [E|E]; [discriminate|]. injection H as <-. rewrite <- R4, <- R5.
    split; [intros C; apply (minus_nz _ _ E); symmetry; exact C|]. rewrite q0_eq in E. field. intros C. apply E. rewrite <- C. ring.
  - rewrite R4, R5 in H. exact H.
  - discriminate.
Qed.

(* ---------------- the labels of an item ---------------- *)
Lemma actual_ok s i lb a : actual_of s i lb = Ok a -> exists x, nth_error (s_items s) i = Some x /\ data_at x lb = Ok a.
Proof. unfold actual_of. destruct (ts_get_i s (Z.of_nat i)) as [x|] eqn:X; cbn; [|discriminate]. intros H. exists x. split; [apply get_nat; exact X|exact H]. Qed.

(* only details have been added *)
Definition detailed (ls : list string) (x y : item) : Prop :=
  same_shell x y /\ i_idx y = i_idx x /\ (exists d d', i_data x = Some (DDict d) /\ i_data y = Some (DDict d') /\ forall k, ~ detail_name ls k -> dget k d' = dget k d).
Lemma same_shell_refl x : same_shell x x.
Proof. unfold same_shell, same_time. repeat split. Qed.
Lemma same_shell_trans x y z : same_shell x y -> same_shell y z -> same_shell x z.
Proof. unfold same_shell, same_time. intuition congruence. Qed.
Lemma set_value_ok x k v y : set_value x k v = Ok y -> same_shell x y /\ i_idx y = i_idx x /\ exists d d', i_data x = Some (DDict d) /\ i_data y = Some (DDict d') /\ d' = dset k v d.
Proof.
  unfold set_value. destruct x as [c t en u tz [[l|d]|] ix w]; cbn; try discriminate. intros H. injection H as <-. unfold same_shell, same_time. cbn. split; [repeat split|]. split; [reflexivity|]. eauto 6.
Qed.
Lemma set_if_ok b x k v y ls : set_if b x k v = Ok y -> (b = true -> detail_name ls k) -> (exists d, i_data x = Some (DDict d)) -> detailed ls x y.
Proof.
  unfold set_if. destruct b; [|intros H _ (d & E); injection H as <-; split; [apply same_shell_refl|split; [reflexivity|exists d, d; split; [exact E|split; [exact E|reflexivity]]]]].
  destruct v as [v|]; cbn; [|discriminate]. intros H N _. apply set_value_ok in H. destruct H as (H1 & H2 & d & d' & E & E' & ->). split; [exact H1|]. split; [exact H2|]. exists d, (dset k v d). split; [exact E|]. split; [exact E'|].
  intros k' N'. rewrite dget_dset. destruct (String.eqb_spec k' k) as [->|C]; [destruct (N' (N eq_refl))|reflexivity].
Qed.
Lemma detailed_trans ls x y z : detailed ls x y -> detailed ls y z -> detailed ls x z.
Proof.
  intros (H1 & H2 & d & d' & E & E' & F) (K1 & K2 & c & c' & G & G' & F'). split; [eapply same_shell_trans; eassumption|]. split; [congruence|]. exists d, c'. split; [exact E|]. split; [exact G'|].
  intros k N. rewrite (F' k N). rewrite E' in G. injection G as <-. apply F. exact N.
Qed.
Lemma detailed_dict ls x y : detailed ls x y -> exists d, i_data y = Some (DDict d).
Proof. intros (_ & _ & d & d' & _ & E & _). eauto. Qed.
Lemma add_details_ok dt x lb p err adh y ls : add_details dt x lb p err adh = Ok y -> In lb ls -> (exists d, i_data x = Some (DDict d)) -> detailed ls x y /\ (dt = DNone -> y = x).
Proof.
  intros H L E. assert (N : forall sfx, (sfx = "_pred" \/ sfx = "_err" \/ sfx = "_adh" \/ sfx = "_adh)")%string -> detail_name ls (lb ++ sfx)%string).
  { intros sfx C. exists lb. split; [exact L|]. destruct C as [->|[->|[->| ->]]]; tauto. }
  destruct dt as [| |b1 b2 b3|]; cbn [add_details] in H; [| | |discriminate].
  - injection H as <-. split; [|reflexivity]. destruct E as [d E]. split; [apply same_shell_refl|]. split; [reflexivity|]. exists d, d. repeat split; assumption.
  - split; [|discriminate]. destruct (set_if true x (lb ++ "_pred") (Ok p)) as [x1|] eqn:X1; cbn [bind] in H; [|discriminate]. destruct (set_if true x1 (lb ++ "_err") (Ok err)) as [x2|] eqn:X2; cbn [bind] in H; [|discriminate].
    assert (D1 := set_if_ok _ _ _ _ _ ls X1 (fun _ => N _ (or_introl eq_refl)) E). assert (D2 := set_if_ok _ _ _ _ _ ls X2 (fun _ => N _ (or_intror (or_introl eq_refl))) (detailed_dict _ _ _ D1)).
    assert (D3 := set_if_ok _ _ _ _ _ ls H (fun _ => N _ (or_intror (or_intror (or_introl eq_refl)))) (detailed_dict _ _ _ D2)). eapply detailed_trans; [exact D1|]. eapply detailed_trans; eassumption.
  - split; [|discriminate]. destruct (set_if b1 x (lb ++ "_pred") (Ok p)) as [x1|] eqn:X1; cbn [bind] in H; [|discriminate]. destruct (set_if b2 x1 (lb ++ "_err") (Ok err)) as [x2|] eqn:X2; cbn [bind] in H; [|discriminate].
    assert (D1 := set_if_ok _ _ _ _ _ ls X1 (fun _ => N _ (or_introl eq_refl)) E). assert (D2 := set_if_ok _ _ _ _ _ ls X2 (fun _ => N _ (or_intror (or_introl eq_refl))) (detailed_dict _ _ _ D1)).
    assert (D3 := set_if_ok _ _ _ _ _ ls H (fun _ => N _ (or_intror (or_intror (or_intror eq_refl)))) (detailed_dict _ _ _ D2)). eapply detailed_trans; [exact D1|]. eapply detailed_trans; eassumption.
Qed.

Lemma fold_error_cases d err : (Qcle (loc d) err /\ fold_error d err = err) \/ (Qclt err (loc d) /\ fold_error d err = Qcplus (qabs err) (loc d)).
Proof. unfold fold_error. destruct (qltb_spec err (loc d)) as [L|L]; [right|left]; (split; [|reflexivity]); [exact L|apply Qcnot_lt_le; exact L]. Qed.
Lemma cut_cases thr g : match thr with None => cut thr g = g | Some t => (Qclt g t /\ cut thr g = q0) \/ (Qcle t g /\ cut thr g = q1) end.
Proof. destruct thr as [t|]; [|reflexivity]. cbn. destruct (qltb_spec g t) as [L|L]; [left|right]; (split; [|reflexivity]); [exact L|apply Qcnot_lt_le; exact L]. Qed.

(* the stored predictions are those of the model *)
Definition faithful (D : detector_model) (pre : option stored) (s : series) (i : nat) (ls : list string) : Prop :=
  forall lb p, In lb ls -> prediction_of D pre s i lb = Ok p -> predicted_of (an_inner D) s i lb = Ok p.

Lemma label_step_ok lg D A pre s i ls st lb g st' : faithful D pre s i ls -> In lb ls -> range_ok lg D A lb g -> (exists d, i_data (fst st) = Some (DDict d)) ->
  label_step lg D A pre s i st (lb, g) = Ok st' ->
  exists v, snd st' = snd st ++ [v] /\ label_index lg D A s i lb v /\ detailed ls (fst st) (fst st') /\ (aa_details A = DNone -> fst st' = fst st).
Proof.
  intros Fa Il R Ed H. unfold label_step in H. destruct (actual_of s i lb) as [a|] eqn:Ea; cbn [bind] in H; [|discriminate]. destruct (prediction_of D pre s i lb) as [p|] eqn:Ep; cbn [bind] in H; [|discriminate].
  destruct (error_of (an_metric D) a p) as [err|] eqn:Ee; cbn [bind] in H; [|discriminate]. destruct (index_at lg (aa_type A) g (fold_error (r_dist g) err)) as [v|] eqn:Ev; cbn [bind] in H; [|discriminate].
  destruct (add_details _ _ _ _ _ _) as [it|] eqn:Ei; cbn [bind] in H; [|discriminate]. injection H as <-. exists (cut (aa_threshold A) v). split; [reflexivity|].
  destruct (add_details_ok _ _ _ _ _ _ _ ls Ei Il Ed) as [D1 D2]. split; [|split; [exact D1|exact D2]].
  destruct (actual_ok _ _ _ _ Ea) as (x & X & Dx). exists (r_dist g), (r_xs g), (r_xe g), (fold_error (r_dist g) err), v.
  split; [apply R|]. split; [apply R|]. split; [apply R|]. split; [|split; [apply (index_grade lg D A lb); assumption|apply cut_cases]].
  exists (r_dist g), err. split; [apply R|]. split; [|apply fold_error_cases]. exists x, a, p. split; [exact X|]. split; [apply data_at_value; exact Dx|]. split; [apply predicted_iff, (Fa lb p Il Ep)|apply error_iff; exact Ee].
Qed.
Lemma labels_fold_ok lg D A pre s i ls : faithful D pre s i ls -> forall gs, (forall lb g, In (lb, g) gs -> In lb ls /\ range_ok lg D A lb g) -> forall st st', (exists d, i_data (fst st) = Some (DDict d)) ->
  foldM (label_step lg D A pre s i) gs st = Ok st' ->
  exists vs, snd st' = snd st ++ vs /\ Forall2 (label_index lg D A s i) (map fst gs) vs /\ detailed ls (fst st) (fst st') /\ (aa_details A = DNone -> fst st' = fst st).
Proof.
  intros Fa. induction gs as [|[lb g] gs IH]; intros R st st' Ed H; cbn [foldM] in H.
  - injection H as <-. exists []. rewrite app_nil_r. split; [reflexivity|]. split; [constructor|]. split; [|reflexivity]. destruct Ed as [d Ed]. split; [apply same_shell_refl|]. split; [reflexivity|]. exists d, d. repeat split; assumption.
  - destruct (label_step lg D A pre s i st (lb, g)) as [st1|] eqn:E1; cbn [bind] in H; [|discriminate]. destruct (R lb g (or_introl eq_refl)) as [Il Rg].
    destruct (label_step_ok _ _ _ _ _ _ ls _ _ _ _ Fa Il Rg Ed E1) as (v & V & L & D1 & D2). destruct (IH (fun lb g I0 => R lb g (or_intror I0)) st1 st' (detailed_dict _ _ _ D1) H) as (vs & V' & L' & D1' & D2').
    exists (v :: vs). split; [rewrite V', V, <- app_assoc; reflexivity|]. split; [constructor; assumption|]. split; [eapply detailed_trans; eassumption|]. intros C. rewrite (D2' C). apply D2. exact C.
Qed.

Lemma set_anomaly_idx x v : dget "anomaly" (i_idx (set_anomaly x v)) = Some (Some v) /\ forall k, k <> "anomaly"%string -> dget k (i_idx (set_anomaly x v)) = dget k (i_idx x).
Proof. destruct x. unfold set_anomaly, set_idx. cbn. rewrite dget_dset. split; [reflexivity|]. intros k N. rewrite dget_dset, (proj2 (String.eqb_neq _ _) N). reflexivity. Qed.

Lemma item_index_ok lg D A pre s ls gs i y : labels_of s = Ok ls -> map fst gs = ls -> (forall lb g, In (lb, g) gs -> range_ok lg D A lb g) -> faithful D pre s i ls ->
  (forall x, In x (s_items s) -> exists d, i_data x = Some (DDict d)) -> item_index lg D A pre s gs i = Ok y ->
  exists x v, nth_error (s_items s) i = Some x /\ item_index_is lg D A s i v /\ dget "anomaly" (i_idx y) = Some (Some v) /\ with_details ls x y /\ (aa_details A = DNone -> i_data y = i_data x).
Proof.
  intros L G R Fa Dt H. unfold item_index in H. destruct (ts_get_i s (Z.of_nat i)) as [x|] eqn:X; cbn [bind] in H; [|discriminate]. apply get_nat in X.
  destruct (foldM _ _ _) as [st|] eqn:F; cbn [bind] in H; [|discriminate]. destruct (overall _ _) as [v|] eqn:O; cbn [bind] in H; [|discriminate]. injection H as <-.
  destruct (labels_fold_ok lg D A pre s i ls Fa gs) with (st := (x, @nil Qc)) (st' := st) as (vs & V & F2 & D1 & D2).
  - intros lb g I1. split; [rewrite <- G; apply (in_map fst _ _ I1)|apply R; exact I1].
  - apply Dt. apply nth_error_In in X. exact X.
  - exact F.
  - cbn [fst snd app] in *. rewrite G in F2. exists x, v. split; [exact X|]. split; [exists ls, vs; split; [exact L|split; [exact F2|apply overall_ok; rewrite <- V; exact O]]|].
    destruct (set_anomaly_idx (fst st) v) as [S1 S2]. split; [exact S1|]. destruct D1 as (T1 & T2 & d & d' & E & E' & K). split.
    + split; [destruct st as [it w]; destruct it; unfold same_shell, same_time in *; exact T1|]. split; [intros k N; rewrite (S2 k N), T2; reflexivity|]. exists d, d'. split; [exact E|]. split; [destruct st as [it w]; destruct it; exact E'|exact K].
    + intros C. rewrite <- (D2 C). destruct st as [it w]; destruct it; reflexivity.
Qed.

(* ---------------- what happens to an item ---------------- *)
Lemma lossy_at_ok thr s i b : lossy_at thr s i = Ok b -> exists x, nth_error (s_items s) i = Some x /\ (b = true <-> lossy thr x).
Proof.
  unfold lossy_at. destruct (ts_get_i s (Z.of_nat i)) as [x|] eqn:X; cbn; [|discriminate]. intros H. injection H as <-. exists x. split; [apply get_nat; exact X|]. unfold lossy. destruct (data_loss x) as [v|].
  - destruct (qleb_spec thr v) as [L|L]; split; intros H; try discriminate; [exists v; split; [reflexivity|exact L]|reflexivity|]. destruct H as (l & E & Q). injection E as <-. contradiction.
  - split; [discriminate|]. intros (l & E & _). discriminate.
Qed.
Lemma any_lossy_ok thr s is b : any_lossy thr s is = Ok b -> if b then exists i x, In i is /\ nth_error (s_items s) i = Some x /\ lossy thr x else forall i x, In i is -> nth_error (s_items s) i = Some x -> ~ lossy thr x.
Proof.
  revert b. induction is as [|i r IH]; intros b H; cbn in H; [injection H as <-; intros i x []|]. destruct (lossy_at thr s i) as [c|] eqn:L; cbn in H; [|discriminate].
  apply lossy_at_ok in L. destruct L as (x & X & L). destruct c.
  - injection H as <-. exists i, x. split; [left; reflexivity|]. split; [exact X|]. apply L. reflexivity.
  - specialize (IH b H). destruct b.
    + destruct IH as (j & y & I1 & R). exists j, y. split; [right; exact I1|exact R].
    + intros j y [<-|I1] Y; [|apply (IH j y I1 Y)]. rewrite X in Y. injection Y as <-. intros C. apply L in C. discriminate.
Qed.
Lemma window_before w i : w < i -> forall j, In j (map (fun j => i - j - 1) (seq 0 w)) <-> i <= j + w /\ j < i.
Proof.
  intros W j. rewrite in_map_iff. split.
  - intros (k & <- & K). apply in_seq in K. lia.
  - intros [H1 H2]. exists (i - j - 1). split; [lia|]. apply in_seq. lia.
Qed.
Lemma fate_ok D thr s i f : an_window D < i -> fate_of D thr s i = Ok f ->
  match f with AsItIs => skipped D thr s i | Go => ~ skipped D thr s i | Stop => ~ skipped D thr s i /\ is_reconstructor (an_inner D) = true end.
Proof.
  intros W H. unfold fate_of in H. destruct (lossy_at thr s i) as [b|] eqn:L; cbn [bind] in H; [|discriminate]. apply lossy_at_ok in L. destruct L as (x & X & L). destruct b.
  - injection H as <-. exists i, x. split; [lia|]. split; [lia|]. split; [exact X|]. apply L. reflexivity.
  - destruct (any_lossy thr s _) as [b|] eqn:L2; cbn [bind] in H; [|discriminate]. apply any_lossy_ok in L2. destruct b.
    + injection H as <-. destruct L2 as (j & y & J & Y & Ly). apply (window_before _ _ W) in J. exists j, y. split; [lia|]. split; [lia|]. split; [exact Y|exact Ly].
    + assert (NS : ~ skipped D thr s i). { intros (j & y & J1 & J2 & Y & Ly). destruct (Nat.eq_dec j i) as [->|C]; [rewrite X in Y; injection Y as <-; apply L in Ly; discriminate|]. apply (L2 j y); [apply (window_before _ _ W); lia|exact Y|exact Ly]. }
      destruct (is_reconstructor (an_inner D)) eqn:Rc; [|injection H as <-; exact NS]. destruct (an_window D) as [|j]; [discriminate|]. destruct (ts_get_i s (Z.of_nat (i - j - 1))) as [z|]; cbn [bind] in H; [|discriminate].
      destruct (data_loss z); [|injection H as <-; exact NS]. destruct (ts_get_i s (Z.of_nat (i + j + 1))) as [z'|]; cbn [bind] in H; [|discriminate]. destruct (data_loss z') as [q'|]; [|discriminate]. injection H as <-. destruct (qleb thr q'); [split; [exact NS|reflexivity]|exact NS].
Qed.

(* ---------------- the loop ---------------- *)
(* what the output item for position i is *)
Definition out_item (lg : Qc -> Qc) (D : detector_model) (A : apply_args) (s : series) (ls : list string) (i : nat) (y : item) : Prop :=
  exists x, nth_error (s_items s) i = Some x /\
  ((skipped D (aa_loss A) s i /\ y = x) \/
   (~ skipped D (aa_loss A) s i /\ with_details ls x y /\ (aa_details A = DNone -> i_data y = i_data x) /\ exists v, item_index_is lg D A s i v /\ dget "anomaly" (i_idx y) = Some (Some v))).
Lemma append_to_items e s x s' : append_to e s x = Ok s' -> s_items s' = s_items s ++ [x].
Proof. intros H. assert (F : foldM (append_or_raise e) [x] s = Ok s') by (cbn; unfold append_or_raise; unfold append_to in H; rewrite H; reflexivity). exact (foldM_append_items e [x] s s' F). Qed.
Lemma loop_spec e lg D A pre s ls gs : labels_of s = Ok ls -> map fst gs = ls -> (forall lb g, In (lb, g) gs -> range_ok lg D A lb g) ->
  (forall x, In x (s_items s) -> exists d, i_data x = Some (DDict d)) ->
  forall is, (forall i, In i is -> an_window D < i /\ faithful D pre s i ls) -> forall out out', apply_loop e lg D A pre s gs is out = Ok out' ->
  exists ys, s_items out' = s_items out ++ ys /\ Forall2 (out_item lg D A s ls) (firstn (length ys) is) ys /\
    (is_reconstructor (an_inner D) = false -> length ys = length is).
Proof.
  intros L G R Dt. induction is as [|i is IH]; intros W out out' H; cbn [apply_loop] in H.
  - injection H as <-. exists []. rewrite app_nil_r. split; [reflexivity|]. split; [constructor|reflexivity].
  - destruct (W i (or_introl eq_refl)) as [Wi Fi]. assert (W' : forall i, In i is -> an_window D < i /\ faithful D pre s i ls) by (intros j J; apply W; right; exact J).
    destruct (fate_of D (aa_loss A) s i) as [f|] eqn:F; cbn [bind] in H; [|discriminate]. apply (fate_ok _ _ _ _ _ Wi) in F. destruct f.
    + destruct (item_index lg D A pre s gs i) as [y|] eqn:Y; cbn [bind] in H; [|discriminate]. destruct (append_to e out y) as [out1|] eqn:Ap; cbn [bind] in H; [|discriminate]. apply append_to_items in Ap.
      destruct (IH W' out1 out' H) as (ys & E & F2 & Ln). exists (y :: ys). split; [rewrite E, Ap, <- app_assoc; reflexivity|]. split; [|intros C; cbn; f_equal; apply Ln; exact C]. cbn [length firstn]. constructor; [|exact F2].
      destruct (item_index_ok _ _ _ _ _ ls _ _ _ L G R Fi Dt Y) as (x & v & X & V & Dv & Wd & Nd). exists x. split; [exact X|]. right. split; [exact F|]. split; [exact Wd|]. split; [exact Nd|]. exists v. split; [exact V|exact Dv].
    + destruct (ts_get_i s (Z.of_nat i)) as [x|] eqn:X; cbn [bind] in H; [|discriminate]. apply get_nat in X. destruct (append_to e out x) as [out1|] eqn:Ap; cbn [bind] in H; [|discriminate]. apply append_to_items in Ap.
      destruct (IH W' out1 out' H) as (ys & E & F2 & Ln). exists (x :: ys). split; [rewrite E, Ap, <- app_assoc; reflexivity|]. split; [|intros C; cbn; f_equal; apply Ln; exact C]. cbn [length firstn]. constructor; [|exact F2].
      exists x. split; [exact X|]. left. split; [exact F|reflexivity].
    + injection H as <-. exists []. rewrite app_nil_r. split; [reflexivity|]. split; [constructor|]. intros C. destruct F as [_ F]. congruence.
Qed.
