(* AccessProofs3.v -- dictionary round trip, labels and indexes. *)
From Verif Require Export AccessProofs2 DictLemmas.

(* ---------------- to_dict / from_dict ---------------- *)

Lemma dt_set_new t tz d m : (forall x, In x m -> de_t x <> t) -> dt_set t tz d m = m ++ [mkEntry t tz d].
Proof.
  induction m as [|x m IH]; intros H; [reflexivity|]. cbn. rewrite qeqb_false by (apply H; left; reflexivity).
  f_equal. apply IH. intros y Hy. apply H. right; exact Hy.
Qed.

Definition entry_of (x : item) : dentry :=
  mkEntry (i_t x) (i_tz x) (match i_data x with Some d => d | None => DList [] end).

Lemma to_dict_ok k s :
  strictly_increasing (times (s_items s)) -> (forall x, In x (s_items s) -> i_data x <> None /\ dt_epoch k (i_t x) = i_t x) ->
  ts_to_dict k s = Ok (map entry_of (s_items s)).
Proof.
  unfold ts_to_dict. intros Hs Hd.
  assert (G : forall l m, (forall x, In x l -> i_data x <> None /\ dt_epoch k (i_t x) = i_t x) ->
     strictly_increasing (map de_t m ++ times l) ->
     foldM (fun m x => do d <- item_data x; Ok (dt_set (dt_epoch k (i_t x)) (i_tz x) d m)) l m = Ok (m ++ map entry_of l)).
  { induction l as [|x l IH]; intros m Hl Hm; cbn; [rewrite app_nil_r; reflexivity|].
    destruct (Hl x (or_introl eq_refl)) as [Hx Ex]. unfold item_data. destruct (i_data x) as [d|] eqn:Ed; [|congruence]. cbn.
    rewrite Ex, dt_set_new.
    - rewrite IH.
      + unfold entry_of at 2. rewrite Ed, <- app_assoc. reflexivity.
      + intros y Hy. apply Hl. right; exact Hy.
      + rewrite map_app, <- app_assoc. exact Hm.
    - intros y Hy E. cbn in Hm. apply sincr_app in Hm. destruct Hm as (_ & _ & Hm).
      specialize (Hm (de_t y) (i_t x) (in_map _ _ _ Hy) (or_introl eq_refl)). rewrite E in Hm. exfalso. qlra. }
  rewrite G; [reflexivity|exact Hd|exact Hs].
Qed.

Lemma map_entry_item k u l x : In x (map (entry_item k u) (map entry_of l)) ->
  exists y, In y l /\ x = entry_item k u (entry_of y).
Proof. rewrite map_map. intros H. apply in_map_iff in H. destruct H as (y & <- & Hy). eauto. Qed.

Lemma round_trip_points e k s :
  parses_units e -> wf_points (s_items s) ->
  (forall x, In x (s_items s) -> i_data x <> None) ->
  (forall x, In x (s_items s) -> dt_epoch k (i_t x) = i_t x) ->
  exists m s', ts_to_dict k s = Ok m /\ ts_from_dict e k m None = Ok s' /\
    times (s_items s') = times (s_items s) /\ map i_data (s_items s') = map i_data (s_items s) /\
    map i_tz (s_items s') = map i_tz (s_items s) /\ all_points (s_items s').
Proof.
  intros He Hw Hd Ht. pose proof Hw as (H1 & H2 & H3).
  exists (map entry_of (s_items s)). rewrite to_dict_ok; [|exact H2|auto].
  set (l := s_items s) in *.
  assert (Hw' : wf_points (map (entry_item k None) (map entry_of l))).
  { split; [|split].
    - intros x Hx. apply map_entry_item in Hx. destruct Hx as (y & _ & ->). reflexivity.
    - unfold times. rewrite !map_map. exact H2.
    - intros x y Hx Hy. apply map_entry_item in Hx, Hy. destruct Hx as (x' & Hx & ->), Hy as (y' & Hy & ->).
      split; [reflexivity|]. cbn. destruct (H3 x' y' Hx Hy) as [_ Hsh]. pose proof (Hd x' Hx). pose proof (Hd y' Hy).
      destruct (i_data x'), (i_data y'); solve [congruence | exact Hsh]. }
  destruct (ts_of_items_ok e _ He (or_introl Hw')) as (s' & Hs' & Hi).
  exists s'. split; [reflexivity|]. split; [exact Hs'|]. rewrite Hi. unfold times. rewrite !map_map.
  repeat split; try reflexivity.
  - apply map_ext_in. intros x Hx. cbn. specialize (Hd x Hx). destruct (i_data x); congruence.
  - intros x Hx. rewrite <- map_map in Hx. apply map_entry_item in Hx. destruct Hx as (y & _ & ->). reflexivity.
Qed.

Lemma round_trip_slots e k s u :
  parses_units e -> wf_slots (s_items s) ->
  (forall x, In x (s_items s) -> i_data x <> None) ->
  (forall x, In x (s_items s) -> dt_epoch k (i_t x) = i_t x) ->
  (forall x, In x (s_items s) -> i_unit x = u /\ slot_end k (i_t x) u = i_end x) ->
  exists m s', ts_to_dict k s = Ok m /\ ts_from_dict e k m (Some u) = Ok s' /\
    times (s_items s') = times (s_items s) /\ map i_end (s_items s') = map i_end (s_items s) /\
    map i_data (s_items s') = map i_data (s_items s) /\ map i_unit (s_items s') = map i_unit (s_items s).
Proof.
  intros He Hw Hd Ht Hu. pose proof Hw as (H1 & H2 & H3 & H4). pose proof (wf_slots_sorted _ Hw) as [Hso _].
  exists (map entry_of (s_items s)). rewrite to_dict_ok; [|exact Hso|auto].
  set (l := s_items s) in *.
  assert (Hends : map i_end (map (entry_item k (Some u)) (map entry_of l)) = map i_end l).
  { rewrite !map_map. apply map_ext_in. intros x Hx. cbn. apply Hu, Hx. }
  assert (Htimes : map i_t (map (entry_item k (Some u)) (map entry_of l)) = map i_t l).
  { rewrite !map_map. reflexivity. }
  assert (Hw' : wf_slots (map (entry_item k (Some u)) (map entry_of l))).
  { split; [|split; [|split]].
    - intros x Hx. apply map_entry_item in Hx. destruct Hx as (y & _ & ->). reflexivity.
    - intros i a b Ha Hb.
      rewrite !map_map, nth_error_map in Ha, Hb.
      destruct (nth_error l i) as [x|] eqn:Ex; [|discriminate]. destruct (nth_error l (S i)) as [y|] eqn:Ey; [|discriminate].
      cbn in Ha, Hb. injection Ha as <-. injection Hb as <-. cbn.
      rewrite (proj2 (Hu x (nth_error_In _ _ Ex))). exact (H2 i x y Ex Ey).
    - intros x Hx. apply map_entry_item in Hx. destruct Hx as (y & Hy & ->). cbn.
      rewrite (proj2 (Hu y Hy)). apply H3, Hy.
    - intros x y Hx Hy. apply map_entry_item in Hx, Hy. destruct Hx as (x' & Hx & ->), Hy as (y' & Hy & ->).
      destruct (H4 x' y' Hx Hy) as ([_ Hsh] & _ & Htz).
      split; [|split; [reflexivity|exact Htz]].
      split; [reflexivity|]. cbn. pose proof (Hd x' Hx). pose proof (Hd y' Hy).
      destruct (i_data x'), (i_data y'); solve [congruence | exact Hsh]. }
  destruct (ts_of_items_ok e _ He (or_intror Hw')) as (s' & Hs' & Hi).
  exists s'. split; [reflexivity|]. split; [exact Hs'|]. rewrite Hi. unfold times.
  repeat split; [exact Htimes|exact Hends| |].
  - rewrite !map_map. apply map_ext_in. intros x Hx. cbn. specialize (Hd x Hx). destruct (i_data x); congruence.
  - rewrite !map_map. apply map_ext_in. intros x Hx. cbn. symmetry. apply Hu, Hx.
Qed.

(* ---------------- labels ---------------- *)

Lemma with_items_items s l : s_items (with_items s l) = l.
Proof. unfold with_items. rewrite reset_ref_items. reflexivity. Qed.

Lemma Forall2_In_l {A B} (R : A -> B -> Prop) l l' y : Forall2 R l l' -> In y l' -> exists x, In x l /\ R x y.
Proof.
  induction 1 as [|a b l l' H Hl IH]; [intros []|]. intros [<-|Hy]; [exists a; split; [left; reflexivity|exact H]|].
  destruct (IH Hy) as (x & Hx & Hr). exists x. split; [right; exact Hx|exact Hr].
Qed.
Lemma Forall2_impl {A B} (R S : A -> B -> Prop) l l' : (forall x y, In x l -> R x y -> S x y) -> Forall2 R l l' -> Forall2 S l l'.
Proof.
  intros H F. induction F as [|a b l l' H1 Hl IH]; [constructor|]. constructor; [apply H; [left; reflexivity|exact H1]|].
  apply IH. intros x y Hx. apply H. right; exact Hx.
Qed.

Lemma rename_items s old new s' : ts_rename_label s old new = Ok s' ->
  Forall2 (fun x y => exists d v, i_data x = Some (DDict d) /\ dget old d = Some v /\
                       y = set_data x (Some (DDict (dset new v (ddel old d))))) (s_items s) (s_items s').
Proof.
  unfold ts_rename_label. destruct (ref_missing s); [discriminate|].
  destruct (mapM _ (s_items s)) as [l|] eqn:E; [|discriminate]. cbn. intros [= <-].
  rewrite with_items_items. apply mapM_map in E. eapply Forall2_impl; [|exact E].
  intros x y _ H. cbn in H. unfold item_data in H. destruct (i_data x) as [[l0|d]|]; cbn in H; try discriminate.
  destruct (dget old d) as [v|] eqn:Ev; cbn in H; [|discriminate]. injection H as <-. eauto.
Qed.
Lemma rename_succeeds s old new :
  (forall x, In x (s_items s) -> exists d v, i_data x = Some (DDict d) /\ dget old d = Some v) ->
  ref_missing s = false -> exists s', ts_rename_label s old new = Ok s'.
Proof.
  intros H Hr. unfold ts_rename_label. rewrite Hr.
  assert (G : forall l, (forall x, In x l -> exists d v, i_data x = Some (DDict d) /\ dget old d = Some v) ->
    exists ys, mapM (fun x => do d <- item_data x; do d' <- rename_data old new d; Ok (set_data x (Some d'))) l = Ok ys).
  { induction l as [|x l IH]; intros Hl; [eexists; reflexivity|]. cbn.
    destruct (Hl x (or_introl eq_refl)) as (d & v & Hd & Hv). unfold item_data at 1. rewrite Hd. cbn. rewrite Hv. cbn.
    destruct IH as [ys ->]; [intros y Hy; apply Hl; right; exact Hy|]. eexists; reflexivity. }
  destruct (G _ H) as [ys ->]. eexists; reflexivity.
Qed.

Lemma remove_label_items s label s' : ts_remove_label s label = Ok s' ->
  Forall2 (fun x y => exists d, i_data x = Some (DDict d) /\ y = set_data x (Some (DDict (ddel label d)))) (s_items s) (s_items s').
Proof.
  unfold ts_remove_label. destruct (ref_missing s); [discriminate|].
  destruct (mapM _ (s_items s)) as [l|] eqn:E; [|discriminate]. cbn. intros [= <-].
  rewrite with_items_items. apply mapM_map in E. eapply Forall2_impl; [|exact E].
  intros x y _ H. cbn in H. unfold item_data in H. destruct (i_data x) as [[l0|d]|]; cbn in H; try discriminate.
  injection H as <-. eauto.
Qed.
Lemma remove_index_items s k s' : ts_remove_index s k = Ok s' ->
  s_items s' = map (fun x => set_idx x (ddel k (i_idx x))) (s_items s).
Proof. unfold ts_remove_index. destruct (ref_missing s); [discriminate|]. intros [= <-]. apply with_items_items. Qed.
