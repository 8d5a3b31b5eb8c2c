(* OpsProofs2.v -- scalars, rebuilt series, point-wise operations. *)
From Verif Require Import BaseLemmas SeriesProofs SeriesProofs2 SeriesProofs3 SeriesProofs4
  AccessProofs AccessProofs2 DictLemmas AccessProofs3.
From Verif Require Export OpsProofs.

Lemma per_label_ok {A} labels (f : string -> result A) (g : string -> A) :
  (forall lb, In lb labels -> f lb = Ok (g lb)) ->
  per_label labels f = Ok (map (fun lb => (lb, g lb)) labels).
Proof.
  intros H. unfold per_label. rewrite (mapM_total _ (fun lb => (lb, g lb))); [reflexivity|].
  intros lb Hl. rewrite (H lb Hl). reflexivity.
Qed.
Lemma dget_map_label {A} labels (g : string -> A) lb : In lb labels -> dget lb (map (fun lb => (lb, g lb)) labels) = Some (g lb).
Proof.
  induction labels as [|a l IH]; cbn; [tauto|]. destruct (String.eqb_spec lb a); [subst; reflexivity|].
  intros [->|H]; [congruence|auto].
Qed.
Lemma dkeys_map_label {A} labels (g : string -> A) : map fst (map (fun lb => (lb, g lb)) labels) = labels.
Proof. rewrite map_map. cbn. apply map_id. Qed.

Lemma label_in_first l x l' lb : numeric l -> l = x :: l' -> label_in l lb <-> In lb (item_labels x).
Proof.
  intros Hn ->. rewrite item_labels_In. split.
  - intros (y & Hy & Hl). eapply numeric_labels; [exact Hn|exact Hy|left; reflexivity|exact Hl].
  - intros H. exists x. split; [left; reflexivity|exact H].
Qed.
Lemma label_all l lb x : numeric l -> label_in l lb -> In x l -> numeric_item x /\ has_label x lb.
Proof.
  intros Hn (y & Hy & Hl) Hx. split; [apply (proj1 (proj2 Hn)), Hx|exact (numeric_labels _ _ _ _ Hn Hy Hx Hl)].
Qed.

(* ---------------- scalars ---------------- *)
Lemma scan_spec (better : Qc -> Qc -> bool) (R : Qc -> Qc -> Prop) lb l : (* R v a: v is not better than a *)
  (forall v a, better v a = false -> R v a) -> (forall v a, better v a = true -> R a v) ->
  (forall a, R a a) -> (forall a b c, R a b -> R b c -> R a c) ->
  (forall x, In x l -> numeric_item x /\ has_label x lb) ->
  forall a, exists M, scan better lb (Some a) l = Ok (Some M) /\ R a M /\
    (M = a \/ exists x, In x l /\ valof x lb = M) /\ (forall x, In x l -> R (valof x lb) M).
Proof.
  intros H1 H2 H3 H4. induction l as [|x l IH]; cbn; intros Hl a.
  - exists a. split; [reflexivity|]. split; [apply H3|]. split; [auto|intros x []].
  - destruct (Hl x (or_introl eq_refl)) as [Hn Hb]. destruct (valof_ok x lb Hn Hb) as [-> _]. cbn.
    assert (Hl' : forall x, In x l -> numeric_item x /\ has_label x lb) by auto.
    destruct (better (valof x lb) a) eqn:E.
    + destruct (IH Hl' (valof x lb)) as (M & E1 & E2 & E3 & E4). exists M. split; [exact E1|]. split; [|split].
      * eapply H4; [apply (H2 _ _ E)|exact E2].
      * right. destruct E3 as [->|(y & Hy & <-)]; eauto.
      * intros y [<-|Hy]; auto.
    + destruct (IH Hl' a) as (M & E1 & E2 & E3 & E4). exists M. split; [exact E1|]. split; [exact E2|split].
      * destruct E3 as [->|(y & Hy & <-)]; eauto.
      * intros y [<-|Hy]; auto. eapply H4; [apply (H1 _ _ E)|exact E2].
Qed.
Lemma scan_start better lb x l : numeric_item x -> has_label x lb ->
  scan better lb None (x :: l) = scan better lb (Some (valof x lb)) l.
Proof. intros H1 H2. cbn. destruct (valof_ok x lb H1 H2) as [-> _]. reflexivity. Qed.

Lemma scan_max l lb : numeric l -> label_in l lb ->
  exists M, scan (fun v a => qltb a v) lb None l = Ok (Some M) /\ is_max lb l M.
Proof.
  intros Hn Hb. assert (Hall : forall x, In x l -> numeric_item x /\ has_label x lb) by (intros; eapply label_all; eassumption).
  destruct l as [|x l]; [destruct Hn; congruence|]. destruct (Hall x (or_introl eq_refl)) as [Hx Hxl].
  rewrite (scan_start _ _ _ _ Hx Hxl).
  destruct (scan_spec (fun v a => qltb a v) Qcle lb l) with (a := valof x lb) as (M & E1 & E2 & E3 & E4).
  - intros v a H. destruct (qltb_spec a v); [discriminate|]. apply Qcnot_lt_le. assumption.
  - intros v a H. destruct (qltb_spec a v); [|discriminate]. apply Qclt_le_weak. assumption.
  - apply Qcle_refl.
  - intros a b c. apply Qcle_trans.
  - auto using in_cons.
  - exists M. split; [exact E1|]. split.
    + destruct E3 as [->|(y & Hy & <-)].
      * exists x. split; [left; reflexivity|]. apply valof_ok; assumption.
      * exists y. split; [right; exact Hy|]. destruct (Hall y (or_intror Hy)). apply valof_ok; assumption.
    + intros y v Hy Hv. rewrite <- (valof_spec y lb v); [|apply Hall, Hy|exact Hv]. destruct Hy as [<-|Hy]; auto.
Qed.
Lemma scan_min l lb : numeric l -> label_in l lb ->
  exists M, scan (fun v a => qltb v a) lb None l = Ok (Some M) /\ is_min lb l M.
Proof.
  intros Hn Hb. assert (Hall : forall x, In x l -> numeric_item x /\ has_label x lb) by (intros; eapply label_all; eassumption).
  destruct l as [|x l]; [destruct Hn; congruence|]. destruct (Hall x (or_introl eq_refl)) as [Hx Hxl].
  rewrite (scan_start _ _ _ _ Hx Hxl).
  destruct (scan_spec (fun v a => qltb v a) (fun a b => Qcle b a) lb l) with (a := valof x lb) as (M & E1 & E2 & E3 & E4).
  - intros v a H. destruct (qltb_spec v a); [discriminate|]. apply Qcnot_lt_le. assumption.
  - intros v a H. destruct (qltb_spec v a); [|discriminate]. apply Qclt_le_weak. assumption.
  - apply Qcle_refl.
  - intros a b c H1 H2. eapply Qcle_trans; eassumption.
  - auto using in_cons.
  - exists M. split; [exact E1|]. split.
    + destruct E3 as [->|(y & Hy & <-)].
      * exists x. split; [left; reflexivity|]. apply valof_ok; assumption.
      * exists y. split; [right; exact Hy|]. destruct (Hall y (or_intror Hy)). apply valof_ok; assumption.
    + intros y v Hy Hv. rewrite <- (valof_spec y lb v); [|apply Hall, Hy|exact Hv]. destruct Hy as [<-|Hy]; auto.
Qed.

Lemma per_label_by {A} e s (f : string -> result A) (P : string -> A -> Prop) :
  from_history e s -> numeric (s_items s) ->
  (forall lb, label_in (s_items s) lb -> exists a, f lb = Ok a /\ P lb a) ->
  exists m, (do p <- op_prep s; per_label (snd p) f) = Ok m /\ by_label (s_items s) m P.
Proof.
  intros Hh Hn Hf. destruct (prep_ok e s Hh Hn) as (x & l & El & ->). cbn [bind snd].
  assert (HL : forall lb, label_in (s_items s) lb <-> In lb (item_labels x)) by (intros lb; eapply label_in_first; eassumption).
  assert (Hm : exists m, per_label (item_labels x) f = Ok m /\ map fst m = item_labels x /\ (forall lb a, dget lb m = Some a -> P lb a)).
  { assert (Hf' : forall lb, In lb (item_labels x) -> exists a, f lb = Ok a /\ P lb a) by (intros lb H; apply Hf, HL, H).
    clear - Hf'. induction (item_labels x) as [|lb ls IH]; cbn.
    - exists []. split; [reflexivity|]. split; [reflexivity|]. intros lb a H; discriminate H.
    - destruct (Hf' lb (or_introl eq_refl)) as (a & Ha & HP). unfold per_label in *. cbn. rewrite Ha. cbn.
      destruct IH as (m & Hm & Hk & Hp); [auto using in_cons|]. rewrite Hm. cbn. exists ((lb, a) :: m). split; [reflexivity|].
      cbn. split; [congruence|]. intros lb' a'. destruct (String.eqb_spec lb' lb); [intros [= <-]; subst; exact HP|apply Hp]. }
  destruct Hm as (m & Hm & Hk & Hp). exists m. split; [exact Hm|]. split; [|exact Hp]. intros lb. rewrite Hk, HL. reflexivity.
Qed.

Lemma op_max_spec e s : from_history e s -> numeric (s_items s) ->
  exists m, op_max s = Ok m /\ by_label (s_items s) m (fun lb o => exists M, o = Some M /\ is_max lb (s_items s) M).
Proof.
  intros Hh Hn. eapply per_label_by; [exact Hh|exact Hn|]. intros lb Hb.
  destruct (scan_max _ _ Hn Hb) as (M & E & H). eauto.
Qed.
Lemma op_min_spec e s : from_history e s -> numeric (s_items s) ->
  exists m, op_min s = Ok m /\ by_label (s_items s) m (fun lb o => exists M, o = Some M /\ is_min lb (s_items s) M).
Proof.
  intros Hh Hn. eapply per_label_by; [exact Hh|exact Hn|]. intros lb Hb.
  destruct (scan_min _ _ Hn Hb) as (M & E & H). eauto.
Qed.

Lemma total_app a b : total (a ++ b) = Qcplus (total a) (total b).
Proof. induction a as [|x a IH]; cbn; [symmetry; apply Qcplus_0_l|]. rewrite IH. ring. Qed.
Lemma fold_plus_total {A} (g : A -> Qc) l a : fold_left (fun a x => Qcplus a (g x)) l a = Qcplus a (total (map g l)).
Proof.
  revert a. induction l as [|x l IH]; cbn; intros a.
  - rewrite Qcplus_comm. symmetry. apply Qcplus_0_l.
  - rewrite IH. ring.
Qed.
Lemma q0_plus x : Qcplus q0 x = x. Proof. apply Qcplus_0_l. Qed.
Lemma sum_label_ok l lb : (forall x, In x l -> numeric_item x /\ has_label x lb) ->
  sum_label lb l = Ok (total (map (fun x => valof x lb) l)).
Proof.
  intros H. unfold sum_label. rewrite (foldM_total _ (fun a x => Qcplus a (valof x lb))).
  - rewrite fold_plus_total, q0_plus. reflexivity.
  - intros a x Hx. destruct (H x Hx) as [H1 H2]. destruct (valof_ok x lb H1 H2) as [-> _]. reflexivity.
Qed.
Lemma column_total l lb vs : numeric l -> column lb l vs -> vs = map (fun x => valof x lb) l.
Proof. intros Hn. apply column_fun. apply Hn. Qed.
Lemma op_sum_spec e s : from_history e s -> numeric (s_items s) ->
  exists m, op_sum s = Ok m /\ by_label (s_items s) m (fun lb S => forall vs, column lb (s_items s) vs -> S = total vs).
Proof.
  intros Hh Hn. eapply per_label_by; [exact Hh|exact Hn|]. intros lb Hb.
  exists (total (map (fun x => valof x lb) (s_items s))). split.
  - apply sum_label_ok. intros x Hx. eapply label_all; eassumption.
  - intros vs Hv. apply column_total in Hv; [congruence|exact Hn].
Qed.

(* averages *)
Lemma weighted_iff l : weighted l = true <-> exists ws, weights l ws.
Proof.
  unfold weights. induction l as [|x l IH]; cbn.
  - split; [intros _; exists []; constructor|reflexivity].
  - destruct (i_weight x) as [w|] eqn:E; cbn.
    + rewrite IH. split; intros (ws & H); [exists (w :: ws); constructor; assumption|inversion H; subst; eauto].
    + split; [discriminate|]. intros (ws & H). inversion H; congruence.
Qed.
Lemma weights_of l ws : weights l ws -> map weight_of l = ws.
Proof. induction 1 as [|x w l ws H _ IH]; cbn; [reflexivity|]. unfold weight_of at 1. rewrite H. congruence. Qed.
Lemma wsum_ok l lb : (forall x, In x l -> numeric_item x /\ has_label x lb) ->
  wsum_label lb l = Ok (total (map (fun x => Qcmult (valof x lb) (weight_of x)) l)).
Proof.
  intros H. unfold wsum_label. rewrite (foldM_total _ (fun a x => Qcplus a (Qcmult (valof x lb) (weight_of x)))).
  - rewrite fold_plus_total, q0_plus. reflexivity.
  - intros a x Hx. destruct (H x Hx) as [H1 H2]. destruct (valof_ok x lb H1 H2) as [-> _]. reflexivity.
Qed.
Lemma total_weight_eq l : total_weight l = total (map weight_of l).
Proof. unfold total_weight. rewrite fold_plus_total. apply q0_plus. Qed.
Lemma combine_map2 {A B C D} (f : A -> B) (g : A -> C) (h : B * C -> D) (l : list A) :
  map h (combine (map f l) (map g l)) = map (fun x => h (f x, g x)) l.
Proof. induction l as [|x l IH]; cbn; congruence. Qed.

Lemma op_avg_weighted e s ws : from_history e s -> numeric (s_items s) -> weights (s_items s) ws -> total ws <> q0 ->
  exists m, op_avg s = Ok m /\
    by_label (s_items s) m (fun lb A => forall vs, column lb (s_items s) vs -> A = Qcdiv (wtotal vs ws) (total ws)).
Proof.
  intros Hh Hn Hw Hne. unfold op_avg. set (l := s_items s) in *.
  assert (W : weighted l = true) by (apply weighted_iff; eauto). rewrite W.
  assert (T : total_weight l = total ws) by (rewrite total_weight_eq, (weights_of _ _ Hw); reflexivity). rewrite T.
  assert (HB : forall lb, label_in l lb -> wsum_label lb l = Ok (wtotal (map (fun x => valof x lb) l) ws)).
  { intros lb Hb. rewrite wsum_ok; [|intros x Hx; eapply label_all; eassumption].
    unfold wtotal. rewrite <- (weights_of _ _ Hw), combine_map2. reflexivity. }
  destruct (qeqb_spec (total ws) q1) as [E1|E1].
  - eapply per_label_by; [exact Hh|exact Hn|]. intros lb Hb. eexists. split; [apply HB, Hb|].
    intros vs Hv. rewrite (column_total _ _ _ Hn Hv), E1. unfold q1, Qcdiv. 
    replace (Qcinv (qz 1)) with q1 by (apply qc_eq; reflexivity). unfold q1. change (qz 1) with (Q2Qc 1). ring.
  - eapply per_label_by; [exact Hh|exact Hn|]. intros lb Hb. eexists. split.
    + rewrite (HB lb Hb). cbn. unfold qdiv. rewrite (qeqb_false _ _ Hne). reflexivity.
    + intros vs Hv. rewrite (column_total _ _ _ Hn Hv). reflexivity.
Qed.
Lemma qn_pos n : 0 < n -> Qclt q0 (qn n).
Proof. intros H. unfold qn, q0. apply qz_lt_iff. lia. Qed.
Lemma qn_S n : qn (S n) = Qcplus q1 (qn n).
Proof. unfold qn, q1. apply qc_eq. rewrite this_add, !this_qz. rewrite Nat2Z.inj_succ, <- inject_Z_plus. f_equiv. lia. Qed.
Lemma op_avg_plain e s : from_history e s -> numeric (s_items s) -> (forall ws, ~ weights (s_items s) ws) ->
  exists m, op_avg s = Ok m /\
    by_label (s_items s) m (fun lb A => forall vs, column lb (s_items s) vs -> A = Qcdiv (total vs) (qn (length vs))).
Proof.
  intros Hh Hn Hw. unfold op_avg. set (l := s_items s) in *.
  destruct (weighted l) eqn:W; [apply weighted_iff in W; destruct W as (ws & W); destruct (Hw ws W)|].
  eapply per_label_by; [exact Hh|exact Hn|]. intros lb Hb. eexists. split.
  - fold l. rewrite sum_label_ok; [|intros x Hx; eapply label_all; eassumption]. cbn. unfold qdiv.
    rewrite qeqb_false; [reflexivity|]. intros E. assert (H : Qclt q0 (qn (length l))).
    { apply qn_pos. destruct Hn as (Hne & _). fold l in Hne. destruct l; [congruence|cbn; lia]. }
    rewrite E in H. apply Qclt_not_eq in H. congruence.
  - intros vs Hv. rewrite (column_total _ _ _ Hn Hv), map_length. reflexivity.
Qed.

(* a weighted mean is between the bounds *)
Lemma wtotal_bounds vs ws m M : length vs = length ws -> (forall w, In w ws -> Qcle q0 w) ->
  (forall v, In v vs -> Qcle m v /\ Qcle v M) ->
  Qcle (Qcmult m (total ws)) (wtotal vs ws) /\ Qcle (wtotal vs ws) (Qcmult M (total ws)).
Proof.
  unfold wtotal. revert ws. induction vs as [|v vs IH]; intros [|w ws]; cbn; intros Hl Hw Hv; try discriminate.
  - split; qlra.
  - destruct (IH ws) as [H1 H2]; [lia|auto|auto|]. pose proof (Hw w (or_introl eq_refl)) as Hw0.
    destruct (Hv v (or_introl eq_refl)) as [H3 H4]. fold total.
    assert (A : Qcle (Qcmult m w) (Qcmult v w)) by (apply Qcmult_le_compat_r; assumption).
    assert (B : Qcle (Qcmult v w) (Qcmult M w)) by (apply Qcmult_le_compat_r; assumption).
    split.
    + rewrite Qcmult_plus_distr_r. apply Qcplus_le_compat; assumption.
    + rewrite Qcmult_plus_distr_r. apply Qcplus_le_compat; assumption.
Qed.
