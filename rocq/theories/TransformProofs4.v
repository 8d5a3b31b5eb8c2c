(* TransformProofs4.v -- computing a new item. *)
From Verif Require Import SpecTransform SpecIntervals BaseLemmas AccessProofs AccessProofs3 DictLemmas OpsProofs OpsProofs2 OpsProofs3
  IntervalsProofs IntervalsProofs2 IntervalsProofs3 InterpProofs Transform TransformProofs TransformProofs2 TransformProofs3.

Definition unweigh (p : vpoint) : vpoint := vp_set p (set_weight (vp_item p) None).
Lemma unweigh_weigh F T p : unweigh (weigh F T p) = unweigh p.
Proof. reflexivity. Qed.
Lemma weigh_weight F T p : weight_of (vp_item (weigh F T p)) = point_weight F T p.
Proof. reflexivity. Qed.
Lemma weigh_valof F T p lb : valof (vp_item (weigh F T p)) lb = valof (vp_item p) lb.
Proof. reflexivity. Qed.

Lemma view_ref l : numeric (map vp_item l) -> ref_missing (view_series l) = false.
Proof.
  intros (N & H & _). destruct l as [|p l]; [destruct N; reflexivity|]. unfold view_series, ref_missing. cbn.
  destruct (numeric_truthy (vp_item p) (H _ (or_introl eq_refl))) as (d & -> & K). rewrite K. reflexivity.
Qed.
Definition like (p x : vpoint) : Prop := numeric_item (vp_item x) /\ (forall lb, has_label (vp_item x) lb <-> has_label (vp_item p) lb) /\
  i_cls (vp_item x) = i_cls (vp_item p) /\ exists d, i_data (vp_item x) = Some (DDict d).
Lemma dict_label x d lb : i_data x = Some (DDict d) -> (has_label x lb <-> In lb (map fst d)).
Proof.
  intros E. unfold has_label, has_value. rewrite E. split; [intros (v & H); apply (in_map fst) in H; exact H|].
  intros H. apply in_map_iff in H. destruct H as ((k & v) & E1 & H). cbn in E1. subst. exists v. exact H.
Qed.
Lemma like_numeric p l : l <> [] -> (forall x, In x l -> like p x) -> numeric (map vp_item l).
Proof.
  intros N H. split; [destruct l; [destruct N; reflexivity|discriminate]|split].
  - intros x Hx. apply in_map_iff in Hx. destruct Hx as (q & <- & Hq). apply H. exact Hq.
  - intros x y Hx Hy. apply in_map_iff in Hx, Hy. destruct Hx as (a & <- & Ha), Hy as (b & <- & Hb).
    destruct (H a Ha) as (_ & A1 & A2 & (da & A3)), (H b Hb) as (_ & B1 & B2 & (db & B3)).
    split; [congruence|]. rewrite A3, B3. intros k. rewrite <- (dict_label _ _ k A3), <- (dict_label _ _ k B3). rewrite A1, B1. reflexivity.
Qed.
Lemma like_weigh F T p l : (forall x, In x l -> like p x) -> forall x, In x (map (weigh F T) l) -> like p x.
Proof. intros H x Hx. apply in_map_iff in Hx. destruct Hx as (q & <- & Hq). exact (H q Hq). Qed.

Lemma op_avg_view F T p l : (forall x, In x (p :: l) -> like p x) -> total (map (point_weight F T) (p :: l)) = q1 ->
  op_avg (view_series (map (weigh F T) (p :: l))) =
  Ok (map (fun lb => (lb, total (map (fun x => Qcmult (valof (vp_item x) lb) (point_weight F T x)) (p :: l)))) (item_labels (vp_item p))).
Proof.
  intros H Hw. assert (N : numeric (map vp_item (map (weigh F T) (p :: l)))) by (apply (like_numeric p); [discriminate|apply like_weigh; exact H]).
  destruct (prep_ref (view_series (map (weigh F T) (p :: l)))) as (x & l' & E & Pp & _); [apply view_ref; exact N|exact N|].
  unfold op_avg. rewrite Pp. cbn [bind snd]. cbn [s_items view_series] in *.
  assert (W : weighted (map vp_item (map (weigh F T) (p :: l))) = true).
  { unfold weighted. apply forallb_forall. intros y Hy. apply in_map_iff in Hy. destruct Hy as (q & <- & Hq). apply in_map_iff in Hq. destruct Hq as (q' & <- & _). reflexivity. }
  rewrite W. assert (TW : total_weight (map vp_item (map (weigh F T) (p :: l))) = q1).
  { rewrite total_weight_eq, !map_map. exact Hw. }
  rewrite TW, qeqb_refl. cbn [map] in E. injection E as <- _.
  apply per_label_ok. intros lb Hlb. rewrite wsum_ok.
  - rewrite !map_map. reflexivity.
  - intros y Hy. split; [apply N; exact Hy|]. apply in_map_iff in Hy. destruct Hy as (q & <- & Hq). apply (like_weigh F T p (p :: l) H) in Hq. destruct Hq as (_ & Q & _).
    apply Q. apply item_labels_In in Hlb. exact Hlb.
Qed.

Lemma dget_new_indexes names l loss : dget "data_loss" (new_indexes names l loss) = Some (Some loss).
Proof.
  unfold new_indexes. assert (H : forall d, dget "data_loss" d = Some (Some loss) -> dget "data_loss" (fold_left (fun d ix => if String.eqb ix "data_loss" then d else dset ix (index_value ix l) d) names d) = Some (Some loss)).
  { induction names as [|n names IH]; intros d Hd; [exact Hd|]. cbn [fold_left]. apply IH. destruct (String.eqb_spec n "data_loss") as [K|K]; [exact Hd|]. rewrite dget_dset. destruct (String.eqb_spec "data_loss" n) as [K2|K2]; [congruence|exact Hd]. }
  apply H. reflexivity.
Qed.

(* ---- the indexes ---- *)
Definition ix_num (ix : string) (w : vpoint -> Qc) (p : vpoint) : Qc := match index_value_of ix (vp_item p) with Some v => Qcmult v (w p) | None => q0 end.
Definition ix_den (ix : string) (w : vpoint -> Qc) (p : vpoint) : Qc := match index_value_of ix (vp_item p) with Some _ => w p | None => q0 end.
Lemma index_mean_eq ix F T pts : index_mean ix F T pts =
  if qltb q0 (total (map (ix_den ix (ov F T)) pts)) then Some (Qcdiv (total (map (ix_num ix (ov F T)) pts)) (total (map (ix_den ix (ov F T)) pts))) else None.
Proof.
  unfold index_mean. cbv zeta. set (have := flat_map _ pts).
  assert (A : total (map snd have) = total (map (ix_den ix (ov F T)) pts)).
  { unfold have. induction pts as [|p l IH]; [reflexivity|]. cbn [flat_map map total]. rewrite map_app, total_app, IH. unfold ix_den at 2, ov at 2. destruct (index_value_of ix (vp_item p)); cbn [map total snd]; rewrite ?q0_eq; ring. }
  assert (B : total (map (fun vw => Qcmult (fst vw) (snd vw)) have) = total (map (ix_num ix (ov F T)) pts)).
  { unfold have. clear A. induction pts as [|p l IH]; [reflexivity|]. cbn [flat_map map total]. rewrite map_app, total_app, IH. unfold ix_num at 2, ov at 2. destruct (index_value_of ix (vp_item p)); cbn [map total fst snd]; rewrite ?q0_eq; ring. }
  rewrite A, B. reflexivity.
Qed.
Lemma index_sums_eq ix l : index_sums ix l = (total (map (ix_num ix (fun p => weight_of (vp_item p))) l), total (map (ix_den ix (fun p => weight_of (vp_item p))) l)).
Proof.
  unfold index_sums. assert (K : forall a b, fold_left (fun a p => match dget ix (i_idx (vp_item p)) with
      | Some (Some v) => (Qcplus (fst a) (Qcmult v (weight_of (vp_item p))), Qcplus (snd a) (weight_of (vp_item p))) | _ => a end) l (a, b) =
      (Qcplus a (total (map (ix_num ix (fun p => weight_of (vp_item p))) l)), Qcplus b (total (map (ix_den ix (fun p => weight_of (vp_item p))) l)))).
  { induction l as [|p l IH]; intros a b; [cbn; rewrite q0_eq; f_equal; ring|]. cbn [fold_left map total]. unfold ix_num at 1, ix_den at 1, index_value_of at 1 2. destruct (dget ix (i_idx (vp_item p))) as [[v|]|]; cbn [fst snd]; rewrite IH; f_equal; rewrite ?q0_eq; ring. }
  rewrite K. rewrite q0_eq. f_equal; ring.
Qed.
Lemma dget_new_indexes_other names l loss ix : ix <> "data_loss"%string -> (In ix names -> dget ix (new_indexes names l loss) = Some (index_value ix l)) /\ (~ In ix names -> dget ix (new_indexes names l loss) = None).
Proof.
  intros N. unfold new_indexes. set (f := fun d k => if String.eqb k "data_loss" then d else dset k (index_value k l) d).
  assert (K : forall ns d, ~ In ix ns -> dget ix (fold_left f ns d) = dget ix d).
  { induction ns as [|n ns IH]; intros d H; [reflexivity|]. cbn [fold_left]. rewrite IH by (intros X; apply H; right; exact X). unfold f. destruct (String.eqb n "data_loss"); [reflexivity|]. rewrite dget_dset. destruct (String.eqb_spec ix n) as [->|]; [destruct H; left; reflexivity|reflexivity]. }
  assert (K2 : forall ns d, dget ix d = Some (index_value ix l) -> dget ix (fold_left f ns d) = Some (index_value ix l)).
  { induction ns as [|n ns IH]; intros d H; [exact H|]. cbn [fold_left]. apply IH. unfold f. destruct (String.eqb n "data_loss"); [exact H|]. rewrite dget_dset. destruct (String.eqb_spec ix n) as [->|]; [reflexivity|exact H]. }
  split.
  - generalize [("data_loss"%string, Some loss)]. induction names as [|n ns IH]; intros d H; [destruct H|]. cbn [fold_left]. destruct H as [->|H]; [|exact (IH _ H)]. apply K2. unfold f. destruct (String.eqb_spec ix "data_loss"); [contradiction|]. rewrite dget_dset, String.eqb_refl. reflexivity.
  - intros H. rewrite K by exact H. cbn [dget]. destruct (String.eqb_spec ix "data_loss"); [contradiction|reflexivity].
Qed.
Lemma index_value_eq ix l l' : map (fun p => (i_idx (vp_item p), i_weight (vp_item p))) l = map (fun p => (i_idx (vp_item p), i_weight (vp_item p))) l' -> index_value ix l = index_value ix l'.
Proof.
  intros H. unfold index_value. rewrite !index_sums_eq.
  assert (X : forall h : dict (option Qc) * option Qc -> Qc, map (fun p => h (i_idx (vp_item p), i_weight (vp_item p))) l = map (fun p => h (i_idx (vp_item p), i_weight (vp_item p))) l').
  { intros h. rewrite <- (map_map (fun p => (i_idx (vp_item p), i_weight (vp_item p))) h l), H, map_map. reflexivity. }
  set (h1 := fun iw : dict (option Qc) * option Qc => match (match dget ix (fst iw) with Some v => v | None => None end) with Some v => Qcmult v (match snd iw with Some w => w | None => q0 end) | None => q0 end).
  set (h2 := fun iw : dict (option Qc) * option Qc => match (match dget ix (fst iw) with Some v => v | None => None end) with Some v => (match snd iw with Some w => w | None => q0 end) | None => q0 end).
  assert (N : forall k, map (ix_num ix (fun p => weight_of (vp_item p))) k = map (fun p => h1 (i_idx (vp_item p), i_weight (vp_item p))) k) by reflexivity.
  assert (D : forall k, map (ix_den ix (fun p => weight_of (vp_item p))) k = map (fun p => h2 (i_idx (vp_item p), i_weight (vp_item p))) k) by reflexivity.
  rewrite !N, !D, (X h1), (X h2). reflexivity.
Qed.
Lemma pair_div a b (w : Qc) : w <> q0 -> Qclt q0 w -> (if qltb q0 (Qcdiv b w) then Some (Qcdiv (Qcdiv a w) (Qcdiv b w)) else None) = (if qltb q0 b then Some (Qcdiv a b) else None).
Proof.
  intros N P. assert (Eb : Qcmult (Qcdiv b w) w = b) by (field; exact N). assert (S1 : Qclt q0 b <-> Qclt q0 (Qcdiv b w)).
  { rewrite <- Eb at 1. generalize (Qcdiv b w). intros x. rewrite q0_eq in *. split; intros H; [destruct (Qclt_le_dec (Q2Qc 0) x) as [Y|Y]; [exact Y|exfalso; qnra]|qnra]. }
  destruct (qltb_spec q0 b) as [B|B].
  - rewrite qltb_true by (apply S1; exact B). f_equal. field. split; [|exact N]. intros X. subst b. apply (Qcle_not_lt _ _ (Qcle_refl _)) in B. exact B.
  - destruct (qltb_spec q0 (Qcdiv b w)) as [B'|]; [|reflexivity]. exfalso. apply B. apply S1. exact B'.
Qed.

Lemma loss_contribution_ok si F T p : Qclt F T -> exists c, loss_contribution si F T p = Ok c.
Proof.
  intros L. unfold loss_contribution, qdiv. destruct (data_loss (vp_item p)) as [d|]; [|eexists; reflexivity].
  destruct (qeqb d q0); [eexists; reflexivity|]. destruct (qltb _ F); [eexists; reflexivity|]. destruct (qleb T _); [eexists; reflexivity|].
  rewrite (qeqb_false (Qcminus T F) q0) by (intros X; apply (Qclt_not_eq _ _ L); qlra). eexists; reflexivity.
Qed.
Lemma previous_losses_ok si F T l : Qclt F T -> exists c, previous_losses si F T l = Ok c.
Proof.
  intros L. unfold previous_losses. generalize q0. induction l as [|p l IH]; intros a; [eexists; reflexivity|]. cbn [foldM].
  destruct (loss_contribution_ok si F T p L) as (c & ->). cbn [bind]. apply IH.
Qed.
Definition loss_of (pts : list vpoint) (F T : Qc) : Qc := Qcminus q1 (Qcdiv (covered_length pts F T) (Qcminus T F)).
Lemma data_loss_view pts ext F T si has force auto : Qclt F T -> Qclt q0 si -> coverage ext F T = Ok (Qcdiv (covered_length pts F T) (Qcminus T F)) ->
  exists loss, compute_data_loss ext has force F T (Some si) auto = Ok loss /\ ((forall x, In x ext -> prior_loss x = q0) -> loss = loss_of pts F T).
Proof.
  intros L S Co. unfold compute_data_loss, interval_or. rewrite qeqb_false by (intros X; rewrite X in S; apply Qclt_not_eq in S; apply S; reflexivity). cbn [bind]. rewrite Co. cbn [bind].
  destruct (has || force)%bool.
  - destruct (previous_losses_ok si F T ext L) as (c & Ec). rewrite Ec. cbn [bind]. eexists. split; [reflexivity|]. intros H. rewrite previous_losses_none in Ec by exact H. injection Ec as <-. unfold loss_of. rewrite q0_eq. ring.
  - cbn [bind]. eexists. split; [reflexivity|]. intros _. unfold loss_of. rewrite q0_eq. ring.
Qed.

Definition signal_mean (lb : string) (F T : Qc) (pts : list vpoint) : Qc :=
  Qcdiv (Qcplus (total (map (fun x => Qcmult (valof (vp_item x) lb) (ov F T x)) pts)) (fills lb F T pts)) (Qcminus T F).

Lemma put_back_weigh F T A p r z C (pts ext : list vpoint) : pts = A ++ p :: r ++ z :: C ->
  filter (fun p => negb (vp_interp p)) ext = p :: r ++ [z] ->
  put_back pts (length A) (S (length A + S (length r))) (map (weigh F T) ext) = A ++ map (weigh F T) (p :: r ++ [z]) ++ C.
Proof.
  intros E H. unfold put_back. rewrite E, firstn_app, firstn_all, Nat.sub_diag. cbn [firstn]. rewrite app_nil_r. f_equal. f_equal.
  - rewrite <- H. clear. induction ext as [|x l IH]; [reflexivity|]. cbn [map filter]. change (vp_interp (weigh F T x)) with (vp_interp x). destruct (negb (vp_interp x)); cbn [map]; rewrite IH; reflexivity.
  - change (p :: r ++ z :: C) with ((p :: r) ++ z :: C). change (z :: C) with ([z] ++ C). rewrite !app_assoc. rewrite skipn_app, skipn_all2 by (rewrite !app_length; cbn; lia).
    replace (S (length A + S (length r)) - length ((A ++ p :: r) ++ [z])) with 0 by (rewrite !app_length; cbn [length]; lia). reflexivity.
Qed.

Definition tz_of (s : series) : string := match series_tz s with Some z => z | None => "UTC"%string end.

Lemma combine_labels {V} (g : string -> V) ls : combine ls (map g ls) = map (fun lb => (lb, g lb)) ls.
Proof. rewrite <- (map_id ls) at 1. rewrite combine_maps. reflexivity. Qed.

Section IndexExt.
Variables (F T : Qc) (pts A r C : list vpoint) (p z : vpoint).
Hypothesis HP : placed pts.
Hypothesis E : pts = A ++ p :: r ++ z :: C.
Hypothesis W : window F T A p r z C.
Hypothesis L : Qclt F T.
Variable out : list vpoint.
Hypothesis D : dense F T p (r ++ [z]) out.
Lemma index_ext ix : index_value ix (map (weigh F T) (p :: out)) = index_mean ix F T pts.
Proof.
  assert (P0 : Qclt q0 (Qcminus T F)) by (rewrite q0_eq; qlra). assert (N0 : Qcminus T F <> q0) by (intros X; rewrite X in P0; exact (Qcle_not_lt _ _ (Qcle_refl _) P0)).
  pose proof (ext_measured pts F T A r C p z HP E out D) as Em.
  assert (Gap : forall x, In x (p :: out) -> vp_interp x = true -> i_idx (vp_item x) = []).
  { intros x [<-|Hx] I; [exfalso|].
    - assert (M : In p (filter (fun p => negb (vp_interp p)) (p :: out))) by (rewrite Em; left; reflexivity). apply filter_In in M. rewrite I in M. destruct M. discriminate.
    - destruct (dense_in F T p (r ++ [z]) out D x Hx) as [K|(k & a & b & d & _ & _ & _ & _ & ->)]; [|reflexivity]. assert (M : In x (filter (fun p => negb (vp_interp p)) (p :: out))) by (rewrite Em; right; exact K). apply filter_In in M. rewrite I in M. destruct M. discriminate. }
  assert (X : forall (g f : vpoint -> Qc), (forall x, In x (p :: out) -> vp_interp x = true -> g x = q0) -> (forall x, In x pts -> g x = Qcdiv (f x) (Qcminus T F)) -> (forall x, ov F T x = q0 -> f x = q0) -> total (map g (p :: out)) = Qcdiv (total (map f pts)) (Qcminus T F)).
  { intros g f G0 Gf F0. rewrite (win_total pts A r C p z E f).
    - rewrite <- Em. assert (In0 : forall x, In x (p :: out) -> vp_interp x = false -> In x pts).
      { intros x Hx I. apply (ext_in pts A r C p z E). rewrite <- Em. apply filter_In. split; [exact Hx|]. rewrite I. reflexivity. }
      revert G0 In0. generalize (p :: out). intros l G0 In0. induction l as [|x l IH]; [cbn; rewrite q0_eq; field; rewrite <- q0_eq; exact N0|]. cbn [map total filter]. rewrite IH by (intros; (apply G0 || apply In0); try right; assumption).
      destruct (vp_interp x) eqn:I; cbn [negb].
      + rewrite (G0 x (or_introl eq_refl) I), q0_eq. ring.
      + cbn [map total]. rewrite (Gf x (In0 x (or_introl eq_refl) I)). field. exact N0.
    - intros q Q. apply F0, (win_ov_A pts F T A r C p z HP E W q Q).
    - intros q Q. apply F0, (win_ov_C pts F T A r C p z HP E W q Q). }
  unfold index_value. rewrite index_sums_eq, index_mean_eq, !map_map.
  assert (I : forall x, index_value_of ix (vp_item (weigh F T x)) = index_value_of ix (vp_item x)) by reflexivity.
  assert (Z : forall x, i_idx (vp_item x) = [] -> index_value_of ix (vp_item x) = None) by (intros x H; unfold index_value_of; rewrite H; reflexivity).
  assert (O : forall x, In x pts -> point_weight F T x = Qcdiv (ov F T x) (Qcminus T F)) by (intros x H; apply point_weight_ov; [exact L|apply (placed_in pts); assumption]).
  rewrite (X (fun x => ix_num ix (fun p => weight_of (vp_item p)) (weigh F T x)) (ix_num ix (ov F T))), (X (fun x => ix_den ix (fun p => weight_of (vp_item p)) (weigh F T x)) (ix_den ix (ov F T))).
  - apply pair_div; assumption.
  - intros x Hx Ix. unfold ix_den. rewrite I, (Z x (Gap x Hx Ix)). reflexivity.
  - intros x Hx. unfold ix_den. rewrite I, weigh_weight, (O x Hx). destruct (index_value_of ix (vp_item x)); [reflexivity|]. rewrite q0_eq. field. rewrite <- q0_eq. exact N0.
  - intros x H. unfold ix_den. rewrite H. destruct (index_value_of ix (vp_item x)); reflexivity.
  - intros x Hx Ix. unfold ix_num. rewrite I, (Z x (Gap x Hx Ix)). reflexivity.
  - intros x Hx. unfold ix_num. rewrite I, weigh_weight, (O x Hx). destruct (index_value_of ix (vp_item x)); [field; exact N0|]. rewrite q0_eq. field. rewrite <- q0_eq. exact N0.
  - intros x H. unfold ix_num. rewrite H. destruct (index_value_of ix (vp_item x)); [rewrite q0_eq; ring|reflexivity].
Qed.
End IndexExt.

Section ComputePoint.
Variables (P : tparams) (s : series) (names : list string) (auto : result Qc) (si : Qc) (force : bool).
Variables (pts : list vpoint) (F T : Qc) (A r C : list vpoint) (p z : vpoint).
Hypothesis HI : tp_interp P = linear_interp.
Hypothesis HS : Qclt q0 si.
Hypothesis HP : placed pts.
Hypothesis G : good pts.
Hypothesis E : pts = A ++ p :: r ++ z :: C.
Hypothesis W : window F T A p r z C.
Hypothesis L : Qclt F T.

Lemma compute_point first last prev : tp_target P = TPoints ->
  (match prev with Some i => Some i | None => first end) = Some (length A) ->
  exists pts' x loss, compute_new P s names auto si force pts F T first last prev (length A + S (length r)) = Ok (pts', x) /\
    map unweigh pts' = map unweigh pts /\
    i_cls x = CDataTimePoint /\ i_t x = Qcplus F (qhalf (Qcminus T F)) /\ i_end x = i_t x /\ i_tz x = tz_of s /\
    (exists d, i_data x = Some (DDict d) /\ NoDup (map fst d) /\
       forall lb v, In (lb, v) d <-> has_label (vp_item p) lb /\ v = signal_mean lb F T pts) /\
    data_loss x = Some (match tp_force P with Some f => f | None => loss end) /\
    ((forall q, In q pts -> prior_loss q = q0) -> loss = loss_of pts F T) /\ indexes_are names F T pts x.
Proof.
  intros Ht Hprev. unfold compute_new. rewrite Hprev, Ht, HI. clear Hprev.
  destruct (labels_of_ok (src_series s pts)) as (x0 & l0 & E0 & Lb); [apply src_ref, G|rewrite src_items; apply G|]. rewrite Lb. cbn [bind].
  destruct (ext_view_ok s pts F T A r C p z HP G E W L) as (out & Eo & D). rewrite Eo. cbn [bind].
  assert (Hlike : forall x, In x (p :: out) -> like p x) by (intros x Hx; apply (ext_items pts F T A r C p z G E out D x Hx)).
  destruct (data_loss_view pts (p :: out) F T si (match s_res s with Some _ => true | None => false end) force auto L HS) as (loss & El & Hl).
  { apply (ext_coverage pts F T A r C p z HP E W L out D). }
  rewrite El. cbn [bind]. rewrite (op_avg_view F T p out Hlike) by (apply (ext_weights pts F T A r C p z HP E W L out D)). cbn [bind].
  rewrite src_items in E0. assert (Hx0 : In x0 (map vp_item pts)) by (rewrite E0; left; reflexivity).
  apply in_map_iff in Hx0. destruct Hx0 as (q0' & Eq0 & Hq0).
  assert (Hlab : forall lb, In lb (item_labels x0) <-> has_label (vp_item p) lb).
  { intros lb. rewrite item_labels_In, <- Eq0. assert (Hp : In p pts) by (rewrite E; apply in_app_iff; right; left; reflexivity). split; apply (good_labels pts); assumption. }
  rewrite (mapM_total _ (fun lb => signal_mean lb F T pts)).
  2:{ intros lb Hlb. unfold pick. rewrite dget_map_label by (apply item_labels_In, Hlab, Hlb). f_equal.
      assert (N : Qcminus T F <> q0) by (intros X; apply (Qclt_not_eq _ _ L); qlra).
      apply (mul_cancel _ _ (Qcminus T F)); [exact N|]. rewrite (ext_values pts F T A r C p z HP G E W L out D lb) by (apply Hlab, Hlb). unfold signal_mean. field. exact N. }
  cbn [bind]. eexists _, _, loss. split; [reflexivity|]. split; [|split; [reflexivity|split; [reflexivity|split; [reflexivity|split; [reflexivity|split; [|split; [|split]]]]]]].
  - rewrite (put_back_weigh F T A p r z C) by (try assumption; apply (ext_measured pts F T A r C p z HP E out D)). rewrite E. rewrite !map_app, map_map. f_equal.
    change (map unweigh (p :: r ++ z :: C)) with (map unweigh ((p :: r) ++ [z] ++ C)). rewrite (app_assoc (p :: r)). rewrite (map_app _ ((p :: r) ++ [z]) C). reflexivity.
  - assert (ND : NoDup (item_labels x0)) by (apply item_labels_NoDup; rewrite <- Eq0; apply (good_numeric pts); assumption).
    eexists. split; [reflexivity|]. rewrite combine_labels, dict_of_NoDup by (rewrite dkeys_map_label; exact ND). rewrite dkeys_map_label. split; [exact ND|].
    intros lb v. rewrite in_map_iff. rewrite <- Hlab. split; [intros (k & K1 & K2); injection K1 as -> <-; split; [exact K2|reflexivity]|intros [K1 ->]; exists lb; split; [reflexivity|exact K1]].
  - unfold data_loss. cbn [i_idx]. rewrite dget_new_indexes. reflexivity.
  - intros Hpr. apply Hl. intros x Hx. destruct Hx as [<- |Hx]; [apply Hpr; rewrite E; apply in_app_iff; right; left; reflexivity|].
    destruct (dense_in F T p (r ++ [z]) out D x Hx) as [K|(k & a & b & d & _ & _ & _ & _ & ->)]; [|reflexivity]. apply Hpr. apply (ext_in pts A r C p z E). right. exact K.
  - intros ix N. destruct (dget_new_indexes_other names (map (weigh F T) (p :: out)) (match tp_force P with Some f => f | None => loss end) ix N) as [N1 N2]. cbn [i_idx]. split; [|exact N2]. intros I. rewrite (N1 I). f_equal. apply (index_ext F T pts A r C p z HP E W L out D).
Qed.
End ComputePoint.
