(* OpsProofs4.v -- normalize, filter, select. *)
From Verif Require Import BaseLemmas SeriesProofs SeriesProofs2 SeriesProofs3 SeriesProofs4
  AccessProofs AccessProofs2 DictLemmas AccessProofs3 PropTactics.
From Verif Require Export OpsProofs3.

Definition lo_of (l : list item) (lb : string) : Qc :=
  match scan (fun v a => qltb v a) lb None l with Ok (Some m) => m | _ => q0 end.
Definition hi_of (l : list item) (lb : string) : Qc :=
  match scan (fun v a => qltb a v) lb None l with Ok (Some m) => m | _ => q0 end.
Lemma lo_hi_spec l lb : numeric l -> label_in l lb ->
  norm_range l None lb = Ok (lo_of l lb, hi_of l lb) /\ is_min lb l (lo_of l lb) /\ is_max lb l (hi_of l lb).
Proof.
  intros Hn Hb. destruct (scan_min _ _ Hn Hb) as (m & E1 & H1). destruct (scan_max _ _ Hn Hb) as (M & E2 & H2).
  unfold norm_range, lo_of, hi_of. rewrite E1, E2. auto.
Qed.

Definition norm_map (lo hi : string -> Qc) (a b : Qc) (lb : string) (v : Qc) : Qc :=
  Qcplus a (Qcmult (Qcdiv (Qcminus v (lo lb)) (Qcminus (hi lb) (lo lb))) (Qcminus b a)).
Lemma norm_value_ok lo hi a b lb v : lo lb <> hi lb -> norm_value (lo lb) (hi lb) (a, b) v = Ok (norm_map lo hi a b lb v).
Proof.
  intros H. unfold norm_value, qdiv. rewrite qeqb_false.
  - cbn [bind fst snd]. destruct (qeqb_spec a q0); cbn [andb].
    + destruct (qeqb_spec b q1).
      * f_equal. unfold norm_map. subst. unfold q0, q1. change (qz 1) with (Q2Qc 1). change (qz 0) with (Q2Qc 0). ring.
      * f_equal. unfold norm_map. ring.
    + f_equal. unfold norm_map. ring.
  - intros E. apply H. qlra.
Qed.

Lemma normalize_gen e s a b source lo hi : parses_units e -> from_history e s -> numeric (s_items s) -> wf_items (s_items s) ->
  (forall lb, label_in (s_items s) lb -> norm_range (s_items s) source lb = Ok (lo lb, hi lb) /\ lo lb <> hi lb) ->
  exists r, op_normalize e s (a, b) source = Ok r /\ fresh e r /\ numeric (s_items r) /\ wf_items (s_items r) /\
    Forall2 (fun x y => same_time x y /\ i_idx y = i_idx x /\ derived x y (norm_map lo hi a b)) (s_items s) (s_items r).
Proof.
  intros He Hh Hn Hw Hr. unfold op_normalize. destruct (prep_ok e s Hh Hn) as (x & l & El & Hp). rewrite Hp. cbn [bind snd].
  assert (HL : forall lb, label_in (s_items s) lb <-> In lb (item_labels x)) by (intros lb; eapply label_in_first; eassumption).
  rewrite (per_label_ok _ _ (fun lb => (lo lb, hi lb))); [|intros lb Hlb; apply Hr, HL, Hlb]. cbn [bind].
  apply pointwise_spec; try assumption. intros lb y Hy Hb.
  unfold pick. rewrite dget_map_label by (apply HL, Hb). cbn [bind fst snd]. apply norm_value_ok. apply Hr, Hb.
Qed.

(* the normalising map *)
Lemma norm_map_mono lo hi a b lb u v : Qclt (lo lb) (hi lb) -> Qclt a b -> Qclt u v ->
  Qclt (norm_map lo hi a b lb u) (norm_map lo hi a b lb v).
Proof.
  intros H1 H2 H3. unfold norm_map. set (d := Qcminus (hi lb) (lo lb)).
  assert (Hd : Qclt (Q2Qc 0) (Qcinv d)).
  { unfold Qclt. rewrite this_inv. apply Qinv_lt_0_compat. unfold d. rewrite this_sub. unfold Qclt in H1. cbn. lra. }
  assert (A : Qclt (Qcdiv (Qcminus u (lo lb)) d) (Qcdiv (Qcminus v (lo lb)) d)).
  { unfold Qcdiv. apply Qcmult_lt_compat_r; [exact Hd|]. qlra. }
  assert (B : Qclt (Qcmult (Qcdiv (Qcminus u (lo lb)) d) (Qcminus b a)) (Qcmult (Qcdiv (Qcminus v (lo lb)) d) (Qcminus b a))).
  { apply Qcmult_lt_compat_r; [|exact A]. qlra. }
  revert B. generalize (Qcmult (Qcdiv (Qcminus u (lo lb)) d) (Qcminus b a)) (Qcmult (Qcdiv (Qcminus v (lo lb)) d) (Qcminus b a)).
  intros p q B. qlra.
Qed.
Lemma norm_map_lo lo hi a b lb : lo lb <> hi lb -> norm_map lo hi a b lb (lo lb) = a.
Proof. intros H. unfold norm_map. field. intros E. apply H. qlra. Qed.
Lemma norm_map_hi lo hi a b lb : lo lb <> hi lb -> norm_map lo hi a b lb (hi lb) = b.
Proof. intros H. unfold norm_map. field. intros E. apply H. qlra. Qed.

Lemma Forall2_In_r {A B} (R : A -> B -> Prop) l l' x : Forall2 R l l' -> In x l -> exists y, In y l' /\ R x y.
Proof. induction 1 as [|a b l l' H _ IH]; cbn; [tauto|]. intros [->|Hx]; [eauto|]. destruct (IH Hx) as (y & Hy & Hr). eauto. Qed.

Lemma normalized_extremes l l' lo hi a b lb : (forall x, In x l -> numeric_item x) -> (forall x, In x l' -> numeric_item x) ->
  Forall2 (fun x y => derived x y (norm_map lo hi a b)) l l' ->
  is_min lb l (lo lb) -> is_max lb l (hi lb) -> Qclt (lo lb) (hi lb) -> Qclt a b ->
  is_min lb l' a /\ is_max lb l' b.
Proof.
  intros Hn Hn' HF ((x & Hx & Hv) & Hmin) ((y & Hy & Hu) & Hmax) Hlt Hab.
  assert (Hne : lo lb <> hi lb) by (intros E; rewrite E in Hlt; apply Qclt_not_eq in Hlt; congruence).
  assert (Hmono : forall u v, Qcle u v -> Qcle (norm_map lo hi a b lb u) (norm_map lo hi a b lb v)).
  { intros u v Huv. destruct (Qcle_lt_or_eq _ _ Huv) as [H|<-]; [|apply Qcle_refl]. apply Qclt_le_weak, norm_map_mono; assumption. }
  split.
  - destruct (Forall2_In_r _ _ _ _ HF Hx) as (x' & Hx' & D). split.
    + exists x'. split; [exact Hx'|]. apply D. exists (lo lb). split; [exact Hv|]. symmetry. apply norm_map_lo, Hne.
    + intros z w Hz Hw. destruct (Forall2_In_l _ _ _ _ HF Hz) as (z0 & Hz0 & D0). apply D0 in Hw. destruct Hw as (v & Hv0 & ->).
      pose proof (Hmono _ _ (Hmin _ _ Hz0 Hv0)) as K. rewrite (norm_map_lo lo hi a b lb Hne) in K. exact K.
  - destruct (Forall2_In_r _ _ _ _ HF Hy) as (y' & Hy' & D). split.
    + exists y'. split; [exact Hy'|]. apply D. exists (hi lb). split; [exact Hu|]. symmetry. apply norm_map_hi, Hne.
    + intros z w Hz Hw. destruct (Forall2_In_l _ _ _ _ HF Hz) as (z0 & Hz0 & D0). apply D0 in Hw. destruct Hw as (v & Hv0 & ->).
      pose proof (Hmono _ _ (Hmax _ _ Hz0 Hv0)) as K. rewrite (norm_map_hi lo hi a b lb Hne) in K. exact K.
Qed.
Lemma is_min_unique lb l m m' : is_min lb l m -> is_min lb l m' -> m = m'.
Proof.
  intros ((x & Hx & Hv) & H) ((y & Hy & Hw) & H'). apply Qcle_antisym; [exact (H _ _ Hy Hw)|exact (H' _ _ Hx Hv)].
Qed.
Lemma is_max_unique lb l m m' : is_max lb l m -> is_max lb l m' -> m = m'.
Proof.
  intros ((x & Hx & Hv) & H) ((y & Hy & Hw) & H'). apply Qcle_antisym; [exact (H' _ _ Hx Hv)|exact (H _ _ Hy Hw)].
Qed.
Lemma label_in_derived l l' g lb : Forall2 (fun x y => derived x y g) l l' -> label_in l lb <-> label_in l' lb.
Proof.
  intros HF. split.
  - intros (x & Hx & (v & Hv)). destruct (Forall2_In_r _ _ _ _ HF Hx) as (y & Hy & D). exists y. split; [exact Hy|].
    exists (g lb v). apply D. eauto.
  - intros (y & Hy & (w & Hw)). destruct (Forall2_In_l _ _ _ _ HF Hy) as (x & Hx & D). exists x. split; [exact Hx|].
    apply D in Hw. destruct Hw as (v & Hv & _). exists v. exact Hv.
Qed.

(* ---------------- filter ---------------- *)
Lemma filter_spec e s labels : parses_units e -> from_history e s -> numeric (s_items s) -> wf_items (s_items s) ->
  (forall x, In x (s_items s) -> exists d, i_data x = Some (DDict d)) ->
  labels <> [] -> NoDup labels -> (forall lb, In lb labels -> label_in (s_items s) lb) ->
  exists r, op_filter e s labels = Ok r /\ numeric (s_items r) /\ wf_items (s_items r) /\
    Forall2 (fun x y => same_time x y /\ i_idx y = i_idx x /\
       forall lb v, has_value y lb v <-> In lb labels /\ has_value x lb v) (s_items s) (s_items r).
Proof.
  intros He Hh Hn Hw Hd Hne Hnd Hl. unfold op_filter.
  destruct (prep_ok e s Hh Hn) as (x & l & El & Hp). rewrite Hp. cbn [bind fst].
  destruct (Hd x) as (d & Ed); [rewrite El; left; reflexivity|]. rewrite Ed.
  set (mk := fun y => set_data y (Some (DDict (map (fun lb => (lb, valof y lb)) labels)))).
  rewrite (mapM_total _ mk).
  2:{ intros y Hy. rewrite (mapM_total _ (valof y)).
      - cbn [bind]. unfold mk. do 3 f_equal. rewrite <- (map_id labels) at 1. rewrite combine_maps. f_equal.
        apply dict_of_NoDup. rewrite map_map. cbn. rewrite map_id. exact Hnd.
      - intros lb Hlb. destruct (label_all _ _ _ Hn (Hl lb Hlb) Hy). apply valof_ok; assumption. }
  cbn [bind].
  assert (Hshape : forall a b, In a (map mk (s_items s)) -> In b (map mk (s_items s)) -> same_item_shape a b).
  { intros a b Ha Hb. apply in_map_iff in Ha, Hb. destruct Ha as (a0 & <- & Ha), Hb as (b0 & <- & Hb). split.
    - cbn. apply (proj2 (proj2 Hn) a0 b0 Ha Hb).
    - cbn. rewrite !map_map. reflexivity. }
  assert (Hw' : wf_items (map mk (s_items s))).
  { destruct Hw as [(H1 & H2 & H3)|(H1 & H2 & H3 & H4)]; [left|right].
    - split; [|split; [|exact Hshape]].
      + intros y Hy. apply in_map_iff in Hy. destruct Hy as (z & <- & Hz). exact (H1 z Hz).
      + unfold times. rewrite map_map. exact H2.
    - split; [|split; [|split]].
      + intros y Hy. apply in_map_iff in Hy. destruct Hy as (z & <- & Hz). exact (H1 z Hz).
      + intros i a b Ha Hb. rewrite nth_error_map in Ha, Hb.
        destruct (nth_error (s_items s) i) eqn:E1; [|discriminate]. destruct (nth_error (s_items s) (S i)) eqn:E2; [|discriminate].
        injection Ha as <-. injection Hb as <-. exact (H2 i _ _ E1 E2).
      + intros y Hy. apply in_map_iff in Hy. destruct Hy as (z & <- & Hz). exact (H3 z Hz).
      + intros a b Ha Hb. split; [apply Hshape; assumption|].
        apply in_map_iff in Ha, Hb. destruct Ha as (a0 & <- & Ha), Hb as (b0 & <- & Hb). cbn. apply H4; assumption. }
  destruct (ts_of_items_ok e _ He Hw') as (r & Hr & Er). rewrite Hr. cbn [bind]. exists (reset_ref r). split; [reflexivity|].
  rewrite reset_ref_items, Er. split; [|split; [exact Hw'|]].
  - split; [|split; [|exact Hshape]].
    + rewrite El. discriminate.
    + intros y Hy. apply in_map_iff in Hy. destruct Hy as (z & <- & Hz). split; [apply (proj1 (proj2 Hn) z Hz)|].
      cbn. split; [destruct labels; [congruence|discriminate]|]. rewrite map_map. cbn. rewrite map_id. exact Hnd.
  - apply Forall2_nth; [symmetry; apply map_length|]. intros i a b Ha Hb. rewrite nth_error_map, Ha in Hb. injection Hb as <-.
    apply nth_error_In in Ha. split; [|split].
    + repeat split; reflexivity.
    + reflexivity.
    + intros lb v. unfold has_value at 1. cbn [i_data set_data mk]. rewrite in_map_iff. split.
      * intros (lb0 & [= <- <-] & Hlb). split; [exact Hlb|]. destruct (label_all _ _ _ Hn (Hl lb0 Hlb) Ha). apply valof_ok; assumption.
      * intros [Hlb Hv]. exists lb. split; [|exact Hlb]. f_equal. apply valof_spec; [apply Hn, Ha|exact Hv].
Qed.

(* ---------------- select ---------------- *)
Lemma select_spec l lb v : numeric l -> label_in l lb ->
  exists o, select_items lb v l = Ok o /\
    ((exists x, In x l /\ has_value x lb v) -> exists r, o = Some r /\ filtered (fun x => has_value x lb v) l r) /\
    ((forall x, In x l -> ~ has_value x lb v) -> o = None).
Proof.
  intros Hn Hb. assert (Hall : forall x, In x l -> numeric_item x /\ has_label x lb) by (intros; eapply label_all; eassumption).
  clear Hn Hb. unfold select_items.
  match goal with |- context [foldM ?f _ _] => set (st := f) end.
  assert (Hst : forall acc x, numeric_item x -> has_label x lb ->
    st acc x = if qeqb (valof x lb) v then match acc with None => Ok (Some [x]) | Some a => Ok (Some (a ++ [x])) end else Ok acc).
  { intros acc x H1 H2. unfold st. destruct (valof_ok x lb H1 H2) as [-> _]. reflexivity. }
  clearbody st.
  assert (G : forall acc, exists o, foldM st l acc = Ok o /\
     exists r, filtered (fun x => has_value x lb v) l r /\
       o = match acc, r with None, [] => None | None, _ => Some r | Some a, _ => Some (a ++ r) end).
  { induction l as [|x l IH]; intros acc; cbn.
    - exists acc. split; [reflexivity|]. exists []. split; [constructor|]. destruct acc; [rewrite app_nil_r|]; reflexivity.
    - destruct (Hall x (or_introl eq_refl)) as [H1 H2]. destruct (valof_ok x lb H1 H2) as [_ Hx]. rewrite (Hst _ _ H1 H2).
      assert (Hall' : forall x, In x l -> numeric_item x /\ has_label x lb) by auto using in_cons.
      destruct (qeqb_spec (valof x lb) v) as [E|E].
      + destruct acc as [a|]; cbn [bind].
        * destruct (IH Hall' (Some (a ++ [x]))) as (o & -> & r & Hr & ->). eexists; split; [reflexivity|].
          exists (x :: r). split; [constructor; [rewrite <- E; exact Hx|exact Hr]|]. rewrite <- app_assoc. reflexivity.
        * destruct (IH Hall' (Some [x])) as (o & -> & r & Hr & ->). eexists; split; [reflexivity|].
          exists (x :: r). split; [constructor; [rewrite <- E; exact Hx|exact Hr]|]. reflexivity.
      + cbn [bind]. destruct (IH Hall' acc) as (o & -> & r & Hr & ->). eexists; split; [reflexivity|].
        exists r. split; [|reflexivity]. constructor; [|exact Hr]. intros Hv. apply E. apply valof_spec; assumption. }
  destruct (G None) as (o & E & r & Hr & ->). exists (match r with [] => None | _ :: _ => Some r end). split; [exact E|]. split.
  - intros (x & Hx & Hv). destruct r as [|y r]; [|exists (y :: r); split; [reflexivity|exact Hr]].
    exfalso. clear - Hr Hx Hv. remember [] as r. induction Hr; [destruct Hx|discriminate|].
    destruct Hx as [->|Hx]; [contradiction|auto].
  - intros H. destruct r as [|y r]; [reflexivity|]. exfalso. clear - Hr H. remember (y :: r) as q. revert y r Heqq.
    induction Hr; intros y r Heqq; [discriminate|apply (H x); [left; reflexivity|assumption]|].
    apply (IHHr ltac:(auto using in_cons) y r Heqq).
Qed.
