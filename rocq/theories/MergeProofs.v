(* MergeProofs.v -- merge of series on a common time line. *)
From Verif Require Import BaseLemmas SeriesProofs SeriesProofs2 SeriesProofs3 SeriesProofs4
  AccessProofs AccessProofs2 DictLemmas AccessProofs3 PropTactics.
From Verif Require Export OpsProofs9.

(* ---------------- sums and counts by key ---------------- *)
Definition key_vals (k : string) (ps : list (string * Qc)) : list Qc :=
  map snd (filter (fun kv => String.eqb k (fst kv)) ps).
Lemma key_vals_app k a b : key_vals k (a ++ b) = key_vals k a ++ key_vals k b.
Proof. unfold key_vals. rewrite filter_app, map_app. reflexivity. Qed.
Lemma acc_spec ps k : dget k (fold_left acc_add ps []) =
  match key_vals k ps with [] => None | vs => Some (total vs, length vs) end.
Proof.
  induction ps as [|[a b] ps IH] using rev_ind; [reflexivity|]. rewrite fold_left_app. cbn [fold_left].
  rewrite key_vals_app. unfold acc_add at 1. cbn [fst snd]. unfold key_vals at 2. cbn [filter fst].
  assert (G : dget k (match dget a (fold_left acc_add ps []) with
      | None => dset a (b, 1) (fold_left acc_add ps [])
      | Some (s, n) => dset a (Qcplus s b, S n) (fold_left acc_add ps []) end) =
      if String.eqb k a then Some (match dget a (fold_left acc_add ps []) with None => (b, 1) | Some (s, n) => (Qcplus s b, S n) end)
      else dget k (fold_left acc_add ps [])).
  { destruct (dget a (fold_left acc_add ps [])) as [[s n]|]; rewrite dget_dset; reflexivity. }
  rewrite G. destruct (String.eqb_spec k a) as [->|Hne]; cbn [map snd].
  - rewrite IH. destruct (key_vals a ps) as [|v vs] eqn:E; cbn [app].
    + cbn [total length]. f_equal. f_equal. rewrite Qcplus_comm. symmetry. apply q0_plus.
    + f_equal. change (v :: vs ++ [b]) with ((v :: vs) ++ [b]). rewrite total_app, app_length. cbn [length total]. f_equal; [|lia].
      f_equal. rewrite Qcplus_comm. symmetry. apply q0_plus.
  - rewrite app_nil_r. exact IH.
Qed.
Lemma acc_NoDup ps : NoDup (dkeys (fold_left acc_add ps [])).
Proof.
  induction ps as [|kv ps IH] using rev_ind; [constructor|]. rewrite fold_left_app. cbn [fold_left]. unfold acc_add at 1.
  destruct (dget (fst kv) _) as [[s n]|]; apply dset_NoDup, IH.
Qed.
Lemma acc_avg_keys d : dkeys (acc_avg d) = dkeys d.
Proof. unfold acc_avg, dkeys. rewrite map_map. reflexivity. Qed.
Lemma acc_avg_get d k : dget k (acc_avg d) = match dget k d with Some (s, n) => Some (Qcdiv s (qn n)) | None => None end.
Proof.
  induction d as [|[a [s n]] d IH]; cbn; [reflexivity|]. destruct (String.eqb k a); [reflexivity|exact IH].
Qed.
Lemma acc_In ps k v : In (k, v) (acc_avg (fold_left acc_add ps [])) <-> key_vals k ps <> [] /\ v = mean (key_vals k ps).
Proof.
  assert (H : In (k, v) (acc_avg (fold_left acc_add ps [])) <-> dget k (acc_avg (fold_left acc_add ps [])) = Some v).
  { split; [|apply dget_Some_In]. apply dget_NoDup. rewrite acc_avg_keys. apply acc_NoDup. }
  rewrite H, acc_avg_get, acc_spec. destruct (key_vals k ps) as [|a l]; [split; [discriminate|intros [? _]; congruence]|].
  unfold mean. split; [intros [= <-]; split; [discriminate|reflexivity]|intros [_ ->]; reflexivity].
Qed.

(* ---------------- data and indexes of the items ---------------- *)
Definition dict_item (x : item) : Prop := numeric_item x /\ exists d, i_data x = Some (DDict d).
Definition pairs_of (x : item) : list (string * Qc) := match i_data x with Some (DDict d) => d | _ => [] end.
Lemma data_pairs_ok x : dict_item x -> data_pairs x = Ok (pairs_of x).
Proof. intros [_ (d & E)]. unfold data_pairs, pairs_of. rewrite E. reflexivity. Qed.
Lemma key_vals_dict k (d : dict Qc) : NoDup (map fst d) -> key_vals k d = match dget k d with Some v => [v] | None => [] end.
Proof.
  unfold key_vals. induction d as [|[a b] d IH]; cbn; intros H; [reflexivity|]. inversion H as [|? ? N1 N2]; subst.
  destruct (String.eqb_spec k a) as [->|Hne]; cbn; [|apply IH, N2]. rewrite IH by exact N2.
  destruct (dget a d) eqn:E; [|reflexivity]. exfalso. apply N1. apply dget_Some_In in E. apply (in_map fst) in E. exact E.
Qed.
Lemma collected_vals lb xs : (forall x, In x xs -> dict_item x) -> collected lb xs (key_vals lb (concat (map pairs_of xs))).
Proof.
  induction xs as [|x xs IH]; intros H; cbn [map concat]; [constructor|]. rewrite key_vals_app.
  destruct (H x (or_introl eq_refl)) as [Hn (d & Ed)]. assert (Hd : NoDup (map fst d)) by (destruct Hn as [_ Hn]; rewrite Ed in Hn; apply Hn).
  unfold pairs_of at 1. rewrite Ed, key_vals_dict by exact Hd. destruct (dget lb d) as [v|] eqn:E; cbn [app].
  - apply col_has; [unfold has_value; rewrite Ed; apply dget_Some_In, E|apply IH; auto using in_cons].
  - apply col_none; [|apply IH; auto using in_cons]. intros (v & Hv). unfold has_value in Hv. rewrite Ed in Hv.
    rewrite (dget_NoDup _ _ _ Hd Hv) in E. discriminate.
Qed.
Lemma collected_fun lb xs vs ws : (forall x, In x xs -> numeric_item x) -> collected lb xs vs -> collected lb xs ws -> vs = ws.
Proof.
  intros Hn H. revert ws. induction H as [|x l v vs Hv H IH|x l vs Hv H IH]; intros ws Hw; inversion Hw as [|? ? w ws' Hw1 Hw2|? ? ws' Hw1 Hw2]; subst.
  - reflexivity.
  - f_equal; [eapply has_value_fun; eauto using in_eq|apply IH; auto using in_cons].
  - exfalso. apply Hw1. exists v. exact Hv.
  - exfalso. apply Hv. exists w. exact Hw1.
  - apply IH; auto using in_cons.
Qed.
Lemma idx_pairs_vals k x : NoDup (dkeys (i_idx x)) ->
  key_vals k (idx_pairs x) = match dget k (i_idx x) with Some (Some v) => [v] | _ => [] end.
Proof.
  unfold key_vals, idx_pairs. generalize (i_idx x). induction d as [|[a o] d IH]; cbn; intros H; [reflexivity|].
  inversion H as [|? ? N1 N2]; subst. rewrite filter_app, map_app, IH by exact N2. destruct (String.eqb_spec k a) as [->|Hne].
  - assert (E : dget a d = None) by (apply dget_None, N1). rewrite E. destruct o as [v|]; cbn; [rewrite String.eqb_refl|]; reflexivity.
  - destruct o as [v|]; cbn; [destruct (String.eqb_spec k a); [contradiction|]|]; reflexivity.
Qed.
Lemma collected_idx_vals k xs : (forall x, In x xs -> NoDup (dkeys (i_idx x))) ->
  collected_idx k xs (key_vals k (flat_map idx_pairs xs)).
Proof.
  induction xs as [|x xs IH]; intros H; cbn [flat_map]; [constructor|]. rewrite key_vals_app, idx_pairs_vals by (apply H; left; reflexivity).
  destruct (dget k (i_idx x)) as [[v|]|] eqn:E; cbn [app]; [apply coli_has|apply coli_none|apply coli_none]; auto using in_cons; rewrite ?E; try discriminate.
Qed.

(* ---------------- the merged item ---------------- *)
Definition merged (like0 rf x : item) (xs : list item) : item :=
  mkItem (i_cls like0) (i_t x) (i_end x) (if is_slot rf then i_unit rf else i_unit x) (if is_slot rf then i_tz x else i_tz like0)
    (Some (DDict (acc_avg (fold_left acc_add (concat (map pairs_of xs)) []))))
    (map (fun kv => (fst kv, Some (snd kv))) (acc_avg (fold_left acc_add (flat_map idx_pairs xs) []))) None.
Lemma merge_item_ok like0 rf x xs : (forall y, In y xs -> dict_item y) -> merge_item like0 rf x xs = Ok (merged like0 rf x xs).
Proof. intros H. unfold merge_item. rewrite (mapM_total _ pairs_of); [reflexivity|]. intros y Hy. apply data_pairs_ok, H, Hy. Qed.

Lemma merged_value like0 rf x xs lb v : (forall y, In y xs -> dict_item y) ->
  has_value (merged like0 rf x xs) lb v <-> exists vs, collected lb xs vs /\ vs <> [] /\ v = mean vs.
Proof.
  intros H. unfold has_value. cbn [i_data merged]. rewrite acc_In. split.
  - intros [H1 H2]. eexists. split; [apply collected_vals, H|]. auto.
  - intros (vs & H1 & H2 & ->). rewrite <- (collected_fun lb xs vs _ ltac:(intros y Hy; apply H, Hy) H1 (collected_vals lb xs H)). auto.
Qed.
Lemma dget_map_some k (d : dict Qc) : dget k (map (fun kv => (fst kv, Some (snd kv))) d) = match dget k d with Some v => Some (Some v) | None => None end.
Proof. induction d as [|[a b] d IH]; cbn; [reflexivity|]. destruct (String.eqb k a); [reflexivity|exact IH]. Qed.
Lemma merged_idx like0 rf x xs ix v : (forall y, In y xs -> NoDup (dkeys (i_idx y))) ->
  dget ix (i_idx (merged like0 rf x xs)) = Some (Some v) <-> exists vs, collected_idx ix xs vs /\ vs <> [] /\ v = mean vs.
Proof.
  intros H. cbn [i_idx merged]. rewrite dget_map_some, acc_avg_get, acc_spec.
  assert (Hfun : forall vs ws, collected_idx ix xs vs -> collected_idx ix xs ws -> vs = ws).
  { clear. induction xs as [|x xs IH]; intros vs ws H1 H2; inversion H1; inversion H2; subst; try reflexivity.
    - f_equal; [congruence|auto].
    - exfalso. match goal with H : forall v, dget ix (i_idx x) <> _ |- _ => eapply H; eassumption end.
    - exfalso. match goal with H : forall v, dget ix (i_idx x) <> _ |- _ => eapply H; eassumption end.
    - auto. }
  split.
  - destruct (key_vals ix (flat_map idx_pairs xs)) as [|a l] eqn:E; [discriminate|]. intros [= <-]. exists (a :: l).
    split; [rewrite <- E; apply collected_idx_vals, H|]. split; [discriminate|reflexivity].
  - intros (vs & H1 & H2 & ->). rewrite <- (Hfun _ _ H1 (collected_idx_vals ix xs H)). destruct vs; [congruence|reflexivity].
Qed.

(* ---------------- maxima and minima of lists ---------------- *)
Lemma fold_max l a : let m := fold_left (fun m t => if qltb m t then t else m) l a in
  In m (a :: l) /\ forall t, In t (a :: l) -> Qcle t m.
Proof.
  cbn zeta. revert a. induction l as [|b l IH]; intros a; cbn [fold_left].
  - split; [left; reflexivity|]. intros t [<-|[]]. apply Qcle_refl.
  - destruct (IH (if qltb a b then b else a)) as [H1 H2]. split.
    + destruct H1 as [H1|H1]; [|right; right; exact H1]. rewrite <- H1. destruct (qltb a b); [right; left|left]; reflexivity.
    + intros t Ht. destruct (qltb_spec a b) as [Hab|Hab].
      * destruct Ht as [<-|[<-|Ht]]; [eapply Qcle_trans; [apply Qclt_le_weak, Hab|apply H2; left; reflexivity]|apply H2; left; reflexivity|apply H2; right; exact Ht].
      * apply Qcnot_lt_le in Hab. destruct Ht as [<-|[<-|Ht]]; [apply H2; left; reflexivity|eapply Qcle_trans; [exact Hab|apply H2; left; reflexivity]|apply H2; right; exact Ht].
Qed.
Lemma fold_min l a : let m := fold_left (fun m t => if qltb t m then t else m) l a in
  In m (a :: l) /\ forall t, In t (a :: l) -> Qcle m t.
Proof.
  cbn zeta. revert a. induction l as [|b l IH]; intros a; cbn [fold_left].
  - split; [left; reflexivity|]. intros t [<-|[]]. apply Qcle_refl.
  - destruct (IH (if qltb b a then b else a)) as [H1 H2]. split.
    + destruct H1 as [H1|H1]; [|right; right; exact H1]. rewrite <- H1. destruct (qltb b a); [right; left|left]; reflexivity.
    + intros t Ht. destruct (qltb_spec b a) as [Hab|Hab].
      * destruct Ht as [<-|[<-|Ht]]; [eapply Qcle_trans; [apply H2; left; reflexivity|apply Qclt_le_weak, Hab]|apply H2; left; reflexivity|apply H2; right; exact Ht].
      * apply Qcnot_lt_le in Hab. destruct Ht as [<-|[<-|Ht]]; [apply H2; left; reflexivity|eapply Qcle_trans; [apply H2; left; reflexivity|exact Hab]|apply H2; right; exact Ht].
Qed.

(* ---------------- positions on the common time line ---------------- *)
Lemma sincr_le_pos G i j a b : strictly_increasing G -> nth_error G i = Some a -> nth_error G j = Some b -> (Qcle a b <-> i <= j).
Proof.
  intros HG Ha Hb. split.
  - intros Hab. destruct (Nat.lt_ge_cases j i) as [Hlt|]; [|assumption]. exfalso.
    pose proof (HG j i b a Hlt Hb Ha). eapply Qclt_not_le; eassumption.
  - intros Hij. destruct (Nat.eq_dec i j) as [->|]; [assert (a = b) as -> by congruence; apply Qcle_refl|].
    apply Qclt_le_weak. apply (HG i j); [lia|exact Ha|exact Hb].
Qed.
Definition chunk (G : list Qc) (l : list item) (A : nat) : Prop :=
  forall j x, nth_error l j = Some x -> nth_error G (A + j) = Some (i_t x).
Lemma chunk_of G l : (exists before after, G = before ++ times l ++ after) -> exists A, chunk G l A.
Proof.
  intros (b & a & ->). exists (length b). intros j x Hx. rewrite nth_error_app2 by lia.
  replace (length b + j - length b) with j by lia.
  rewrite nth_error_app1 by (unfold times; rewrite map_length; eapply nth_error_Some_lt; exact Hx).
  unfold times. rewrite nth_error_map, Hx. reflexivity.
Qed.
Lemma sincr_inj G i j a : strictly_increasing G -> nth_error G i = Some a -> nth_error G j = Some a -> i = j.
Proof.
  intros HG Hi Hj. apply Nat.le_antisymm; [apply (sincr_le_pos G i j a a HG Hi Hj)|apply (sincr_le_pos G j i a a HG Hj Hi)]; apply Qcle_refl.
Qed.

Lemma find_t_some l t i0 : In t (times l) -> exists o x, find_t l t i0 = Some (i0 + o) /\ nth_error l o = Some x /\ i_t x = t.
Proof.
  revert i0. induction l as [|x l IH]; cbn; intros i0 H; [destruct H|].
  destruct (qeqb_spec (i_t x) t) as [E|E].
  - exists 0, x. rewrite Nat.add_0_r. auto.
  - destruct H as [H|H]; [congruence|]. destruct (IH (S i0) H) as (o & y & H1 & H2 & H3). exists (S o), y.
    split; [rewrite H1; f_equal; lia|]. auto.
Qed.

Definition item_at (l : list item) (t : Qc) : list item :=
  match find (fun y => qeqb (i_t y) t) l with Some y => [y] | None => [] end.
Definition all_at (lists : list (list item)) (t : Qc) : list item := flat_map (fun l => item_at l t) lists.
Lemma item_at_unique l y t : strictly_increasing (times l) -> In y l -> i_t y = t -> item_at l t = [y].
Proof.
  intros Hs Hy Ht. unfold item_at. destruct (find _ l) as [z|] eqn:E.
  - apply find_some in E. destruct E as [Hz Hzt]. apply qeqb_eq in Hzt. f_equal. apply (sincr_unique l); auto. congruence.
  - apply (find_none _ _ E) in Hy. rewrite Ht, qeqb_refl in Hy. discriminate.
Qed.

Fixpoint tw (end_t : Qc) (l : list item) : list item :=
  match l with [] => [] | x :: r => if qltb end_t (i_t x) then [] else x :: tw end_t r end.
Lemma tw_prefix e l : exists r, l = tw e l ++ r.
Proof. induction l as [|x l [r IH]]; [exists []; reflexivity|]. cbn. destruct (qltb e (i_t x)); [exists (x :: l); reflexivity|exists r; cbn; congruence]. Qed.
Lemma tw_In e l x : strictly_increasing (times l) -> In x (tw e l) <-> In x l /\ Qcle (i_t x) e.
Proof.
  induction l as [|y l IH]; intros Hs; cbn; [tauto|]. unfold times in Hs. cbn in Hs. apply sincr_cons in Hs. destruct Hs as [H1 H2].
  destruct (qltb_spec e (i_t y)) as [H|H].
  - split; [intros []|]. intros [[->|Hx] Hle]; [eapply Qclt_not_le; eassumption|].
    specialize (H1 (i_t x) (in_map i_t _ _ Hx)). eapply Qclt_not_le; [|exact Hle]. eapply Qclt_trans; eassumption.
  - apply Qcnot_lt_le in H. cbn. rewrite (IH H2). split; [intros [->|[Hx Hle]]; auto|intros [[->|Hx] Hle]; auto].
Qed.

Lemma mapM_at (getter : list item -> result item) (lists : list (list item)) t :
  (forall l, In l lists -> exists y, getter l = Ok y /\ item_at l t = [y]) -> mapM getter lists = Ok (all_at lists t).
Proof.
  induction lists as [|l lists IH]; intros H; cbn; [reflexivity|]. destruct (H l (or_introl eq_refl)) as (y & -> & ->). cbn.
  rewrite IH by auto using in_cons. reflexivity.
Qed.
Lemma combine_map_r {A B} (f : A -> B) l : combine l (map f l) = map (fun x => (x, f x)) l.
Proof. induction l as [|x l IH]; cbn; congruence. Qed.
Lemma mapM_map {A B C} (g : A -> B) (f : B -> result C) l : mapM f (map g l) = mapM (fun x => f (g x)) l.
Proof. induction l as [|x l IH]; cbn; [reflexivity|]. rewrite IH. reflexivity. Qed.

Lemma merge_loop_ok like0 rf lists (off : list item -> option nat) end_t : 
  (forall l x, In l lists -> In x l -> dict_item x) ->
  forall rest i,
  (forall j x, nth_error rest j = Some x -> Qcle (i_t x) end_t ->
     forall l, In l lists -> exists o y, off l = Some o /\ nth_error l (i + j + o) = Some y /\ item_at l (i_t x) = [y]) ->
  merge_loop like0 rf lists (map off lists) end_t i rest =
  Ok (map (fun x => merged like0 rf x (all_at lists (i_t x))) (tw end_t rest)).
Proof.
  intros Hd. induction rest as [|x rest IH]; intros i H; cbn [merge_loop tw]; [reflexivity|].
  destruct (qltb_spec end_t (i_t x)) as [Hlt|Hge]; [reflexivity|]. apply Qcnot_lt_le in Hge.
  rewrite combine_map_r, mapM_map. cbn [fst snd].
  rewrite (mapM_at _ lists (i_t x)).
  - cbn [bind]. rewrite merge_item_ok.
    + cbn [bind]. rewrite IH; [reflexivity|]. intros j y Hy Hle l Hl. destruct (H (S j) y Hy Hle l Hl) as (o & z & A & B & D).
      exists o, z. split; [exact A|]. split; [|exact D]. replace (S i + j + o) with (i + S j + o) by lia. exact B.
    + intros y Hy. unfold all_at in Hy. apply in_flat_map in Hy. destruct Hy as (l & Hl & Hy). unfold item_at in Hy.
      destruct (find _ l) eqn:E; [|destruct Hy]. destruct Hy as [<-|[]]. apply find_some in E. apply (Hd l); [exact Hl|apply E].
  - intros l Hl. destruct (H 0 x eq_refl Hge l Hl) as (o & y & A & B & D). exists y. rewrite A. rewrite Nat.add_0_r in B. rewrite B. auto.
Qed.

Lemma last_item_nth l x : last_item l = Some x -> nth_error l (length l - 1) = Some x.
Proof.
  intros H. apply last_item_some in H. destruct H as (l' & ->). rewrite app_length. cbn. rewrite Nat.add_sub.
  rewrite nth_error_app2, Nat.sub_diag by lia. reflexivity.
Qed.
Lemma last_item_ex l : l <> [] -> exists x, last_item l = Some x.
Proof.
  intros H. destruct (last_item l) eqn:E; [eauto|]. exfalso. destruct (exists_last H) as (l' & x & ->).
  unfold last_item in E. rewrite rev_app_distr in E. discriminate.
Qed.

Definition mergeable (u : tunit) (C : icls) (s : series) : Prop :=
  numeric (s_items s) /\ wf_items (s_items s) /\ s_res s = Some (RUnit u) /\
  forall x, In x (s_items s) -> i_cls x = C /\ (exists d, i_data x = Some (DDict d)) /\ NoDup (dkeys (i_idx x)).

Lemma same_resolutions_all e u l : (forall r, In r l -> r = Some (RUnit u)) -> forall ref, ref = None \/ ref = Some (RUnit u) ->
  same_resolutions e ref l = true.
Proof.
  induction l as [|r l IH]; intros H ref Hr; cbn; [reflexivity|]. rewrite (H r (or_introl eq_refl)).
  assert (H' : forall r, In r l -> r = Some (RUnit u)) by auto using in_cons.
  destruct Hr as [-> | ->]; [apply IH; auto|]. unfold res_compatible, res_eqb. rewrite tunit_eqb_refl. cbn. apply IH; auto.
Qed.
Lemma all_at_items_at ss t : (forall s, In s ss -> strictly_increasing (times (s_items s))) ->
  common_time ss t -> items_at ss t (all_at (map s_items ss) t).
Proof.
  induction ss as [|s ss IH]; intros Hs Hc; cbn; [constructor|].
  assert (Ht : In t (times (s_items s))) by (apply Hc; left; reflexivity).
  unfold times in Ht. apply in_map_iff in Ht. destruct Ht as (y & Hy & Hin).
  rewrite (item_at_unique _ y) by (auto using in_eq). cbn. constructor; [auto|]. apply IH; [auto using in_cons|].
  intros s' Hs'. apply Hc. right; exact Hs'.
Qed.
Lemma items_at_unique ss t xs ys : (forall s, In s ss -> strictly_increasing (times (s_items s))) ->
  items_at ss t xs -> items_at ss t ys -> xs = ys.
Proof.
  intros Hs H. revert ys. induction H as [|s x ss xs [H1 H2] H IH]; intros ys Hy; inversion Hy as [|? y ? ys' [H3 H4] Hy']; subst; [reflexivity|].
  f_equal; [|apply IH; auto using in_cons]. apply (sincr_unique (s_items s)); auto using in_eq.
Qed.
Lemma collected_ex lb xs : (forall x, In x xs -> dict_item x) ->
  ((exists v vs, collected lb xs (v :: vs)) <-> exists x, In x xs /\ has_label x lb).
Proof.
  induction xs as [|x xs IH]; intros H.
  - split; [intros (v & vs & Hc); inversion Hc|intros (x & [] & _)].
  - assert (H' : forall x, In x xs -> dict_item x) by auto using in_cons. split.
    + intros (v & vs & Hc). inversion Hc as [|? ? ? ? Hv Hc'|? ? ? Hv Hc']; subst.
      * exists x. split; [left; reflexivity|]. exists v. exact Hv.
      * destruct (proj1 (IH H') ltac:(eauto)) as (y & Hy & Hl). exists y. split; [right; exact Hy|exact Hl].
    + intros (y & Hy & Hl). destruct (H x (or_introl eq_refl)) as [Hn _].
      destruct (in_dec string_dec lb (item_labels x)) as [Hx|Hx].
      * apply item_labels_In in Hx. destruct Hx as (v & Hv). exists v. eexists. apply col_has; [exact Hv|]. apply collected_vals, H'.
      * assert (Hno : ~ has_label x lb) by (rewrite <- item_labels_In; exact Hx).
        destruct Hy as [->|Hy]; [contradiction|]. destruct (proj2 (IH H') ltac:(eauto)) as (v & vs & Hc).
        exists v, vs. apply col_none; assumption.
Qed.

Lemma merge_spec e u C ss : parses_units e -> ss <> [] -> (forall s, In s ss -> mergeable u C s) ->
  on_common_grid ss -> (exists t, common_time ss t) ->
  exists r, op_merge e ss = Ok r /\ wf_items (s_items r) /\ numeric (s_items r) /\ fresh e r /\
    (forall t, In t (times (s_items r)) <-> common_time ss t) /\
    forall y, In y (s_items r) -> exists xs, items_at ss (i_t y) xs /\ i_cls y = C /\
      (forall lb v, has_value y lb v <-> exists vs, collected lb xs vs /\ vs <> [] /\ v = mean vs) /\
      (forall ix v, dget ix (i_idx y) = Some (Some v) <-> exists vs, collected_idx ix xs vs /\ vs <> [] /\ v = mean vs).
Proof.
  intros He Hne Hss (G & HG & Hgrid) (t0 & Ht0).
  assert (Hsi : forall s, In s ss -> strictly_increasing (times (s_items s))) by (intros s Hs; apply wf_items_times, (Hss s Hs)).
  assert (Hnn : forall s, In s ss -> s_items s <> []) by (intros s Hs; apply (Hss s Hs)).
  assert (Hdict : forall l x, In l (map s_items ss) -> In x l -> dict_item x).
  { intros l x Hl Hx. apply in_map_iff in Hl. destruct Hl as (s & <- & Hs). destruct (Hss s Hs) as (Hn & _ & _ & Hx').
    split; [apply Hn, Hx|apply Hx', Hx]. }
  assert (Hchunk : forall l, In l (map s_items ss) -> exists A, chunk G l A).
  { intros l Hl. apply in_map_iff in Hl. destruct Hl as (s & <- & Hs). apply chunk_of, Hgrid, Hs. }
  unfold op_merge. destruct ss as [|s0 ss']; [contradiction|]. set (ss := s0 :: ss') in *.
  assert (Hs0 : In s0 ss) by (left; reflexivity).
  (* the checks *)
  assert (E1 : existsb (fun s => match s_items s with [] => true | _ => false end) ss = false).
  { apply not_true_iff_false. intros E. apply existsb_exists in E. destruct E as (s & Hs & E). pose proof (Hnn s Hs). destruct (s_items s); congruence. }
  rewrite E1.
  assert (E2 : existsb (fun s => match s_res s with Some RVar => true | _ => false end) ss = false).
  { apply not_true_iff_false. intros E. apply existsb_exists in E. destruct E as (s & Hs & E). destruct (Hss s Hs) as (_ & _ & Hr & _). rewrite Hr in E. discriminate. }
  rewrite E2. rewrite (same_resolutions_all e u) with (ref := None);
    [|intros r Hr; apply in_map_iff in Hr; destruct Hr as (s & <- & Hs); apply (Hss s Hs)|left; reflexivity].
  cbn [negb]. cbv zeta. set (lists := map s_items ss).
  (* starts and ends *)
  set (starts := flat_map (fun l : list item => match l with x :: _ => [i_t x] | [] => [] end) lists).
  set (ends := flat_map (fun l : list item => match last_item l with Some x => [i_t x] | None => [] end) lists).
  assert (Hstarts : forall t, In t starts <-> exists s x l, In s ss /\ s_items s = x :: l /\ i_t x = t).
  { intros t. unfold starts, lists. rewrite in_flat_map. split.
    - intros (l & Hl & Ht). apply in_map_iff in Hl. destruct Hl as (s & <- & Hs). destruct (s_items s) as [|x l] eqn:E; [destruct Ht|].
      destruct Ht as [Ht|[]]. exists s, x, l. auto.
    - intros (s & x & l & Hs & E & Ht). exists (s_items s). split; [apply in_map, Hs|]. rewrite E. left; exact Ht. }
  assert (Hends : forall t, In t ends <-> exists s x, In s ss /\ last_item (s_items s) = Some x /\ i_t x = t).
  { intros t. unfold ends, lists. rewrite in_flat_map. split.
    - intros (l & Hl & Ht). apply in_map_iff in Hl. destruct Hl as (s & <- & Hs). destruct (last_item (s_items s)) as [x|] eqn:E; [|destruct Ht].
      destruct Ht as [Ht|[]]. exists s, x. auto.
    - intros (s & x & Hs & E & Ht). exists (s_items s). split; [apply in_map, Hs|]. rewrite E. left; exact Ht. }
  destruct (s_items s0) as [|like0 l0] eqn:El0; [destruct (Hnn s0 Hs0 El0)|].
  assert (Hst0 : exists a starts', starts = a :: starts').
  { assert (In (i_t like0) starts) by (apply Hstarts; exists s0, like0, l0; auto). destruct starts; [contradiction|eauto]. }
  destruct Hst0 as (a & starts' & Est). rewrite Est.
  assert (Hen0 : exists b ends', ends = b :: ends').
  { destruct (last_item_ex (s_items s0)) as (z & Hz); [apply Hnn, Hs0|].
    assert (In (i_t z) ends) by (apply Hends; exists s0, z; auto). destruct ends; [contradiction|eauto]. }
  destruct Hen0 as (b & ends' & Een). rewrite Een.
  pose proof (fold_max starts' a) as Hmax. pose proof (fold_min ends' b) as Hmin. cbv zeta in Hmax, Hmin.
  set (start_t := fold_left _ starts' a) in *. set (end_t := fold_left _ ends' b) in *.
  rewrite <- Est in Hmax. rewrite <- Een in Hmin. destruct Hmax as [Hm1 Hm2], Hmin as [Hn1 Hn2].
  (* the common time is between start and end *)
  assert (Hbounds : forall t, common_time ss t -> Qcle start_t t /\ Qcle t end_t).
  { intros t Ht. split.
    - apply Hstarts in Hm1. destruct Hm1 as (s & x & l & Hs & E & <-). specialize (Ht s Hs). pose proof (Hsi s Hs) as Hsi'.
      rewrite E in Ht, Hsi'. unfold times in Ht, Hsi'. cbn in Ht, Hsi'. destruct Ht as [->|Ht]; [apply Qcle_refl|].
      apply sincr_cons in Hsi'. apply Qclt_le_weak, Hsi', Ht.
    - apply Hends in Hn1. destruct Hn1 as (s & x & Hs & E & <-). specialize (Ht s Hs). pose proof (Hsi s Hs) as Hsi'.
      apply last_item_some in E. destruct E as (l' & E). rewrite E in Ht, Hsi'. unfold times in Ht, Hsi'. rewrite map_app in Ht, Hsi'. cbn in Ht, Hsi'.
      eapply sincr_last; eassumption. }
  (* start_t is a common time *)
  assert (Hcs : forall s t, In s ss -> In t G -> Qcle start_t t -> Qcle t end_t -> In t (times (s_items s))).
  { intros s t Hs Ht Hlo Hhi. destruct (Hchunk (s_items s)) as (A & HA); [apply in_map, Hs|].
    apply In_nth_error in Ht. destruct Ht as (k & Hk).
    destruct (s_items s) as [|x l] eqn:E; [destruct (Hnn s Hs E)|].
    assert (Hx0 : nth_error G A = Some (i_t x)) by (rewrite <- (Nat.add_0_r A); apply HA; reflexivity).
    destruct (last_item_ex (x :: l)) as (z & Hz); [discriminate|].
    pose proof (HA _ _ (last_item_nth _ _ Hz)) as Hz'.
    assert (Qcle (i_t x) t). { eapply Qcle_trans; [|exact Hlo]. apply Hm2, Hstarts. exists s, x, l. auto. }
    assert (Qcle t (i_t z)). { eapply Qcle_trans; [exact Hhi|]. apply Hn2, Hends. exists s, z. rewrite E. auto. }
    assert (A <= k) by (eapply sincr_le_pos; eassumption).
    assert (k <= A + (length (x :: l) - 1)) by (eapply sincr_le_pos; eassumption).
    destruct (nth_ex (x :: l) (k - A)) as (y & Hy); [cbn in *; lia|]. pose proof (HA _ _ Hy) as Hy'.
    replace (A + (k - A)) with k in Hy' by lia. unfold times. apply in_map_iff. exists y. split; [congruence|]. eapply nth_error_In; exact Hy. }
  assert (Hse : Qcle start_t end_t) by (destruct (Hbounds t0 Ht0); eapply Qcle_trans; eassumption).
  assert (HsG : In start_t G).
  { apply Hstarts in Hm1. destruct Hm1 as (s & x & l & Hs & E & <-). destruct (Hchunk (s_items s)) as (A & HA); [apply in_map, Hs|].
    eapply nth_error_In, (HA 0). rewrite E. reflexivity. }
  assert (Hstart_common : common_time ss start_t) by (intros s Hs; apply Hcs; auto using Qcle_refl).
  (* the reference series *)
  assert (Href : exists rf rl, find (fun l : list item => match l with x :: _ => qeqb (i_t x) start_t | [] => false end) (rev lists) = Some (rf :: rl) /\
                  In (rf :: rl) lists /\ i_t rf = start_t).
  { destruct (find _ (rev lists)) as [l|] eqn:E.
    - apply find_some in E. destruct E as [H1 H2]. destruct l as [|rf rl]; [discriminate|]. exists rf, rl.
      split; [reflexivity|]. split; [apply in_rev, H1|apply qeqb_eq, H2].
    - exfalso. apply Hstarts in Hm1. destruct Hm1 as (s & x & l & Hs & E' & Ht).
      assert (Hl : In (s_items s) (rev lists)) by (apply -> in_rev; apply in_map, Hs).
      pose proof (find_none _ _ E _ Hl) as H. cbv beta in H. rewrite E' in H. rewrite Ht, qeqb_refl in H. discriminate. }
  destruct Href as (rf & rl & -> & Hrin & Hrt).
  assert (Hrs : exists sr, In sr ss /\ s_items sr = rf :: rl) by (unfold lists in Hrin; apply in_map_iff in Hrin; destruct Hrin as (s & H1 & H2); eauto).
  destruct Hrs as (sr & Hsr & Esr).
  set (ref := rf :: rl) in *. destruct (Hchunk ref Hrin) as (R & HR).
  rewrite (merge_loop_ok like0 rf lists (fun l => find_t l start_t 0) end_t Hdict).
  2:{ intros j x Hx Hle l Hl. assert (Hl' := Hl). unfold lists in Hl'. apply in_map_iff in Hl'. destruct Hl' as (s & <- & Hs).
      destruct (find_t_some (s_items s) start_t 0 (Hstart_common s Hs)) as (o & y & F1 & F2 & F3).
      destruct (Hchunk _ Hl) as (A & HA). exists o.
      assert (EAo : A + o = R). { apply (sincr_inj G _ _ start_t HG); [rewrite (HA o y F2); congruence|].
        rewrite <- (Nat.add_0_r R). rewrite (HR 0 rf eq_refl). congruence. }
      destruct (last_item_ex (s_items s)) as (z & Hz); [apply Hnn, Hs|]. pose proof (HA _ _ (last_item_nth _ _ Hz)) as Hz'.
      assert (R + j <= A + (length (s_items s) - 1)).
      { eapply (sincr_le_pos G); [exact HG|exact (HR j x Hx)|exact Hz'|]. eapply Qcle_trans; [exact Hle|]. apply Hn2, Hends. exists s, z. auto. }
      assert (Hpos : 0 < length (s_items s)) by (pose proof (Hnn s Hs); destruct (s_items s); [congruence|cbn; lia]).
      destruct (nth_ex (s_items s) (j + o)) as (w & Hw); [lia|]. exists w. split; [exact F1|]. split; [exact Hw|].
      apply item_at_unique; [apply Hsi, Hs|eapply nth_error_In; exact Hw|]. pose proof (HA _ _ Hw) as Hw'.
      replace (A + (j + o)) with (R + j) in Hw' by lia. rewrite (HR j x Hx) in Hw'. congruence. }
  cbn [bind]. set (L := map _ (tw end_t ref)).
  (* the items of L *)
  assert (Hrefsi : strictly_increasing (times ref)) by (rewrite <- Esr; apply Hsi, Hsr).
  assert (HL : forall y, In y L <-> exists x, In x ref /\ Qcle (i_t x) end_t /\ y = merged like0 rf x (all_at lists (i_t x))).
  { intros y. unfold L. rewrite in_map_iff. split.
    - intros (x & <- & Hx). apply (tw_In _ _ _ Hrefsi) in Hx. exists x. tauto.
    - intros (x & Hx & Hle & ->). exists x. split; [reflexivity|]. apply tw_In; auto. }
  assert (Hct : forall x, In x ref -> Qcle (i_t x) end_t -> common_time ss (i_t x)).
  { intros x Hx Hle s Hs. apply Hcs; auto.
    - apply In_nth_error in Hx. destruct Hx as (j & Hx). eapply nth_error_In, HR, Hx.
    - apply In_nth_error in Hx. destruct Hx as (j & Hx). eapply (sincr_le_pos G R (R + j)); [exact HG| |apply HR, Hx|lia].
      rewrite <- Hrt. rewrite <- (Nat.add_0_r R). apply HR. reflexivity. }
  assert (Hlabels : forall x lb, In x ref -> Qcle (i_t x) end_t ->
     has_label (merged like0 rf x (all_at lists (i_t x))) lb <-> exists s, In s ss /\ label_in (s_items s) lb).
  { intros x lb Hx Hle. pose proof (all_at_items_at ss (i_t x) Hsi (Hct x Hx Hle)) as Hat. fold lists in Hat.
    assert (Hd : forall y, In y (all_at lists (i_t x)) -> dict_item y).
    { intros y Hy. destruct (Forall2_In_l _ _ _ _ Hat Hy) as (s & Hs & H1 & _). apply (Hdict (s_items s)); [apply in_map, Hs|exact H1]. }
    transitivity (exists y, In y (all_at lists (i_t x)) /\ has_label y lb).
    - rewrite <- (collected_ex lb _ Hd). split.
      + intros (v & Hv). apply (merged_value _ _ _ _ _ _ Hd) in Hv. destruct Hv as (vs & H1 & H2 & _). destruct vs; [congruence|eauto].
      + intros (v & vs & H1). exists (mean (v :: vs)). apply (merged_value _ _ _ _ _ _ Hd). exists (v :: vs). split; [exact H1|]. split; [discriminate|reflexivity].
    - split.
      + intros (y & Hy & Hl). destruct (Forall2_In_l _ _ _ _ Hat Hy) as (s & Hs & H1 & _). exists s. split; [exact Hs|]. exists y. auto.
      + intros (s & Hs & Hl). destruct (Forall2_In_r _ _ _ _ Hat Hs) as (y & Hy & H1 & _). exists y. split; [exact Hy|].
        destruct (label_all _ _ y (proj1 (Hss s Hs)) Hl H1). assumption. }
  assert (Hshape : forall y z, In y L -> In z L -> same_item_shape y z).
  { intros y z Hy Hz. apply HL in Hy, Hz. destruct Hy as (x & Hx & Hle & ->), Hz as (x' & Hx' & Hle' & ->).
    split; [reflexivity|]. cbn [i_data merged same_shape]. intros k.
    assert (HK : forall (w : item) (q : dict Qc), i_data w = Some (DDict q) -> (In k (map fst q) <-> has_label w k)).
    { intros w q E. unfold has_label, has_value. rewrite E. rewrite in_map_iff. split.
      - intros ([k' v] & Ek & H). cbn in Ek. subst. eauto.
      - intros (v & H). exists (k, v). auto. }
    rewrite (HK (merged like0 rf x (all_at lists (i_t x))) _ eq_refl), (HK (merged like0 rf x' (all_at lists (i_t x'))) _ eq_refl).
    rewrite !Hlabels by assumption. reflexivity. }
  assert (Hnum : forall y, In y L -> numeric_item y /\ i_cls y = C).
  { intros y Hy. apply HL in Hy. destruct Hy as (x & Hx & Hle & ->).
    assert (Hc0 : i_cls like0 = C). { apply (Hss s0 Hs0). rewrite El0. left; reflexivity. }
    split; [|exact Hc0]. split.
    - cbn. destruct (proj1 (Hss s0 Hs0)) as (_ & Hn0 & _). destruct (Hn0 like0); [rewrite El0; left; reflexivity|assumption].
    - cbn [i_data merged]. split; [|change (map fst) with (@dkeys Qc); rewrite acc_avg_keys; apply acc_NoDup].
      intros E. destruct (proj1 (Hss s0 Hs0)) as (_ & Hn0 & _). assert (Hin0 : In like0 (s_items s0)) by (rewrite El0; left; reflexivity).
      pose proof (item_labels_nonempty like0 (Hn0 like0 Hin0)) as Hne0. destruct (item_labels like0) as [|lb lbs] eqn:Elb; [congruence|].
      assert (Hl : has_label (merged like0 rf x (all_at lists (i_t x))) lb).
      { apply Hlabels; [exact Hx|exact Hle|]. exists s0. split; [exact Hs0|]. exists like0. split; [exact Hin0|].
        apply item_labels_In. rewrite Elb. left; reflexivity. }
      destruct Hl as (v & Hv). unfold has_value in Hv. cbn [i_data merged] in Hv. rewrite E in Hv. destruct Hv. }
  destruct (tw_prefix end_t ref) as (rest & Erest).
  assert (Hwtw : wf_items (tw end_t ref)).
  { apply (wf_items_sub [] (tw end_t ref) rest). rewrite app_nil_l. rewrite <- Erest, <- Esr. apply (Hss sr Hsr). }
  assert (Hcls : forall x, In x ref -> i_cls x = C) by (intros x Hx; apply (Hss sr Hsr); rewrite Esr; exact Hx).
  assert (Hin_tw : forall x, In x (tw end_t ref) -> In x ref) by (intros x Hx; rewrite Erest; apply in_or_app; left; exact Hx).
  assert (HtimesL : times L = times (tw end_t ref)) by (unfold L, times; rewrite map_map; reflexivity).
  assert (HL0 : exists y, In y L).
  { eexists. apply HL. exists rf. split; [left; reflexivity|]. split; [rewrite Hrt; exact Hse|reflexivity]. }
  assert (Hwf : wf_items L).
  { destruct Hwtw as [(P1 & P2 & P3)|(P1 & P2 & P3 & P4)]; [left|right].
    - split; [|split; [|exact Hshape]].
      + intros y Hy. unfold L in Hy. apply in_map_iff in Hy. destruct Hy as (x & <- & Hx). specialize (P1 x Hx).
        unfold is_point in *. cbn. rewrite <- P1. f_equal. rewrite (Hcls x (Hin_tw x Hx)). apply (Hss s0 Hs0). rewrite El0. left; reflexivity.
      + rewrite HtimesL. exact P2.
    - assert (Hrf : In rf (tw end_t ref)) by (apply tw_In; [exact Hrefsi|]; split; [left; reflexivity|rewrite Hrt; exact Hse]).
      assert (Hsl : is_slot rf = true) by (apply P1, Hrf).
      split; [|split; [|split]].
      + intros y Hy. unfold L in Hy. apply in_map_iff in Hy. destruct Hy as (x & <- & Hx). specialize (P1 x Hx).
        unfold is_slot in *. cbn. rewrite <- P1. f_equal. rewrite (Hcls x (Hin_tw x Hx)). apply (Hss s0 Hs0). rewrite El0. left; reflexivity.
      + intros i x y Hx Hy. unfold L in Hx, Hy. rewrite nth_error_map in Hx, Hy.
        destruct (nth_error (tw end_t ref) i) eqn:Ex; [|discriminate]. destruct (nth_error (tw end_t ref) (S i)) eqn:Ey; [|discriminate].
        injection Hx as <-. injection Hy as <-. exact (P2 i _ _ Ex Ey).
      + intros y Hy. unfold L in Hy. apply in_map_iff in Hy. destruct Hy as (x & <- & Hx). exact (P3 x Hx).
      + intros y z Hy Hz. split; [apply Hshape; assumption|]. unfold L in Hy, Hz. apply in_map_iff in Hy, Hz.
        destruct Hy as (x & <- & Hx), Hz as (x' & <- & Hx'). cbn. rewrite Hsl. split; [reflexivity|]. apply (P4 x x' Hx Hx'). }
  destruct (ts_of_items_ok e L He Hwf) as (r & Hr & Er). exists r. split; [exact Hr|]. rewrite Er.
  split; [exact Hwf|]. split; [|split; [apply (of_items_built _ _ _ Hr)|split]].
  - split; [destruct HL0 as (y & Hy); intros E; rewrite E in Hy; destruct Hy|]. split; [intros y Hy; apply Hnum, Hy|exact Hshape].
  - intros t. rewrite HtimesL. unfold times. rewrite in_map_iff. split.
    + intros (x & <- & Hx). apply (tw_In _ _ _ Hrefsi) in Hx. apply Hct; apply Hx.
    + intros Ht. destruct (Hbounds t Ht) as [_ Hle]. specialize (Ht sr Hsr). rewrite Esr in Ht. unfold times in Ht. apply in_map_iff in Ht.
      destruct Ht as (x & <- & Hx). exists x. split; [reflexivity|]. apply tw_In; auto.
  - intros y Hy. pose proof (proj2 (Hnum y Hy)) as Hcy. apply HL in Hy. destruct Hy as (x & Hx & Hle & ->).
    pose proof (all_at_items_at ss (i_t x) Hsi (Hct x Hx Hle)) as Hat. fold lists in Hat. exists (all_at lists (i_t x)).
    split; [exact Hat|]. split; [exact Hcy|].
    assert (Hd : forall y, In y (all_at lists (i_t x)) -> dict_item y /\ NoDup (dkeys (i_idx y))).
    { intros y Hy. destruct (Forall2_In_l _ _ _ _ Hat Hy) as (s & Hs & H1 & _). split; [apply (Hdict (s_items s)); [apply in_map, Hs|exact H1]|].
      apply (Hss s Hs), H1. }
    split; [intros lb v; apply merged_value; intros z Hz; apply Hd, Hz|intros ix v; apply merged_idx; intros z Hz; apply Hd, Hz].
Qed.

(* no common timestamp: the result is the empty series *)
Lemma merge_disjoint e u C ss : ss <> [] -> (forall s, In s ss -> mergeable u C s) ->
  on_common_grid ss -> (forall t, ~ common_time ss t) -> op_merge e ss = Ok (empty_series None).
Proof.
  intros Hne Hss (G & HG & Hgrid) Hnone.
  assert (Hsi : forall s, In s ss -> strictly_increasing (times (s_items s))) by (intros s Hs; apply wf_items_times, (Hss s Hs)).
  assert (Hnn : forall s, In s ss -> s_items s <> []) by (intros s Hs; apply (Hss s Hs)).
  assert (Hdict : forall l x, In l (map s_items ss) -> In x l -> dict_item x).
  { intros l x Hl Hx. apply in_map_iff in Hl. destruct Hl as (s & <- & Hs). destruct (Hss s Hs) as (Hn & _ & _ & Hx').
    split; [apply Hn, Hx|apply Hx', Hx]. }
  assert (Hchunk : forall l, In l (map s_items ss) -> exists A, chunk G l A).
  { intros l Hl. apply in_map_iff in Hl. destruct Hl as (s & <- & Hs). apply chunk_of, Hgrid, Hs. }
  unfold op_merge. destruct ss as [|s0 ss']; [contradiction|]. set (ss := s0 :: ss') in *.
  assert (Hs0 : In s0 ss) by (left; reflexivity).
  (* the checks *)
  assert (E1 : existsb (fun s => match s_items s with [] => true | _ => false end) ss = false).
  { apply not_true_iff_false. intros E. apply existsb_exists in E. destruct E as (s & Hs & E). pose proof (Hnn s Hs). destruct (s_items s); congruence. }
  rewrite E1.
  assert (E2 : existsb (fun s => match s_res s with Some RVar => true | _ => false end) ss = false).
  { apply not_true_iff_false. intros E. apply existsb_exists in E. destruct E as (s & Hs & E). destruct (Hss s Hs) as (_ & _ & Hr & _). rewrite Hr in E. discriminate. }
  rewrite E2. rewrite (same_resolutions_all e u) with (ref := None);
    [|intros r Hr; apply in_map_iff in Hr; destruct Hr as (s & <- & Hs); apply (Hss s Hs)|left; reflexivity].
  cbn [negb]. cbv zeta. set (lists := map s_items ss).
  (* starts and ends *)
  set (starts := flat_map (fun l : list item => match l with x :: _ => [i_t x] | [] => [] end) lists).
  set (ends := flat_map (fun l : list item => match last_item l with Some x => [i_t x] | None => [] end) lists).
  assert (Hstarts : forall t, In t starts <-> exists s x l, In s ss /\ s_items s = x :: l /\ i_t x = t).
  { intros t. unfold starts, lists. rewrite in_flat_map. split.
    - intros (l & Hl & Ht). apply in_map_iff in Hl. destruct Hl as (s & <- & Hs). destruct (s_items s) as [|x l] eqn:E; [destruct Ht|].
      destruct Ht as [Ht|[]]. exists s, x, l. auto.
    - intros (s & x & l & Hs & E & Ht). exists (s_items s). split; [apply in_map, Hs|]. rewrite E. left; exact Ht. }
  assert (Hends : forall t, In t ends <-> exists s x, In s ss /\ last_item (s_items s) = Some x /\ i_t x = t).
  { intros t. unfold ends, lists. rewrite in_flat_map. split.
    - intros (l & Hl & Ht). apply in_map_iff in Hl. destruct Hl as (s & <- & Hs). destruct (last_item (s_items s)) as [x|] eqn:E; [|destruct Ht].
      destruct Ht as [Ht|[]]. exists s, x. auto.
    - intros (s & x & Hs & E & Ht). exists (s_items s). split; [apply in_map, Hs|]. rewrite E. left; exact Ht. }
  destruct (s_items s0) as [|like0 l0] eqn:El0; [destruct (Hnn s0 Hs0 El0)|].
  assert (Hst0 : exists a starts', starts = a :: starts').
  { assert (In (i_t like0) starts) by (apply Hstarts; exists s0, like0, l0; auto). destruct starts; [contradiction|eauto]. }
  destruct Hst0 as (a & starts' & Est). rewrite Est.
  assert (Hen0 : exists b ends', ends = b :: ends').
  { destruct (last_item_ex (s_items s0)) as (z & Hz); [apply Hnn, Hs0|].
    assert (In (i_t z) ends) by (apply Hends; exists s0, z; auto). destruct ends; [contradiction|eauto]. }
  destruct Hen0 as (b & ends' & Een). rewrite Een.
  pose proof (fold_max starts' a) as Hmax. pose proof (fold_min ends' b) as Hmin. cbv zeta in Hmax, Hmin.
  set (start_t := fold_left _ starts' a) in *. set (end_t := fold_left _ ends' b) in *.
  rewrite <- Est in Hmax. rewrite <- Een in Hmin. destruct Hmax as [Hm1 Hm2], Hmin as [Hn1 Hn2].
  (* start_t is a common time *)
  assert (Hcs : forall s t, In s ss -> In t G -> Qcle start_t t -> Qcle t end_t -> In t (times (s_items s))).
  { intros s t Hs Ht Hlo Hhi. destruct (Hchunk (s_items s)) as (A & HA); [apply in_map, Hs|].
    apply In_nth_error in Ht. destruct Ht as (k & Hk).
    destruct (s_items s) as [|x l] eqn:E; [destruct (Hnn s Hs E)|].
    assert (Hx0 : nth_error G A = Some (i_t x)) by (rewrite <- (Nat.add_0_r A); apply HA; reflexivity).
    destruct (last_item_ex (x :: l)) as (z & Hz); [discriminate|].
    pose proof (HA _ _ (last_item_nth _ _ Hz)) as Hz'.
    assert (Qcle (i_t x) t). { eapply Qcle_trans; [|exact Hlo]. apply Hm2, Hstarts. exists s, x, l. auto. }
    assert (Qcle t (i_t z)). { eapply Qcle_trans; [exact Hhi|]. apply Hn2, Hends. exists s, z. rewrite E. auto. }
    assert (A <= k) by (eapply sincr_le_pos; eassumption).
    assert (k <= A + (length (x :: l) - 1)) by (eapply sincr_le_pos; eassumption).
    destruct (nth_ex (x :: l) (k - A)) as (y & Hy); [cbn in *; lia|]. pose proof (HA _ _ Hy) as Hy'.
    replace (A + (k - A)) with k in Hy' by lia. unfold times. apply in_map_iff. exists y. split; [congruence|]. eapply nth_error_In; exact Hy. }
  assert (HsG : In start_t G).
  { apply Hstarts in Hm1. destruct Hm1 as (s & x & l & Hs & E & <-). destruct (Hchunk (s_items s)) as (A & HA); [apply in_map, Hs|].
    eapply nth_error_In, (HA 0). rewrite E. reflexivity. }
  assert (Hse : Qclt end_t start_t).
  { destruct (Qclt_le_dec end_t start_t) as [K|K]; [exact K|]. exfalso. apply (Hnone start_t). intros s Hs. apply Hcs; auto using Qcle_refl. }
  (* the reference series *)
  assert (Href : exists rf rl, find (fun l : list item => match l with x :: _ => qeqb (i_t x) start_t | [] => false end) (rev lists) = Some (rf :: rl) /\
                  In (rf :: rl) lists /\ i_t rf = start_t).
  { destruct (find _ (rev lists)) as [l|] eqn:E.
    - apply find_some in E. destruct E as [H1 H2]. destruct l as [|rf rl]; [discriminate|]. exists rf, rl.
      split; [reflexivity|]. split; [apply in_rev, H1|apply qeqb_eq, H2].
    - exfalso. apply Hstarts in Hm1. destruct Hm1 as (s & x & l & Hs & E' & Ht).
      assert (Hl : In (s_items s) (rev lists)) by (apply -> in_rev; apply in_map, Hs).
      pose proof (find_none _ _ E _ Hl) as H. cbv beta in H. rewrite E' in H. rewrite Ht, qeqb_refl in H. discriminate. }
  destruct Href as (rf & rl & -> & Hrin & Hrt).
  assert (Hrs : exists sr, In sr ss /\ s_items sr = rf :: rl) by (unfold lists in Hrin; apply in_map_iff in Hrin; destruct Hrin as (s & H1 & H2); eauto).
  destruct Hrs as (sr & Hsr & Esr).
  cbn [merge_loop]. rewrite Hrt, (qltb_true _ _ Hse). reflexivity.
Qed.
