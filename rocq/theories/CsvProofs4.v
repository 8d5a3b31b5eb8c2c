(* CsvProofs4.v -- the series built from the rows. *)
From Verif Require Import SpecCsv SpecIntervals BaseLemmas DictLemmas PropTactics SeriesProofs2 SeriesProofs3 AccessProofs AccessProofs2 OpsProofs OpsProofs3 SamplingProofs CsvProofs CsvProofs2 CsvProofs3.

(* ---- a row as an item ---- *)
Definition loaded_data (ls : list string) (x : item) : data := DDict (map (fun l => (l, valof x l)) ls).
Definition loaded_idx (ix : list string) (x : item) : dict (option Qc) := map (fun i => (i, idxof x i)) ix.
Lemma not_index l : (forall r, l <> ("__" ++ r)%string) -> is_index_label l = false.
Proof.
  intros H. destruct (is_index_label l) eqn:E; [exfalso|reflexivity]. unfold is_index_label in E. destruct l as [|a [|b r]]; try discriminate.
  - destruct a as [[] [] [] [] [] [] [] []]; discriminate.
  - apply (H r). destruct a as [[] [] [] [] [] [] [] []]; try discriminate. destruct b as [[] [] [] [] [] [] [] []]; try discriminate. reflexivity.
Qed.
Lemma split_row_of ls ix x : columns_ok ls ix -> split_row (snd (row_of ls ix x)) = (loaded_data ls x, loaded_idx ix x).
Proof.
  intros (_ & _ & _ & A & _). unfold row_of, split_row. cbn [snd]. rewrite !flat_map_app. unfold loaded_data, loaded_idx.
  assert (L1 : forall l, (forall a, In a l -> forall r, a <> ("__" ++ r)%string) -> flat_map (fun kv : string * option Qc => if is_index_label (fst kv) then [] else match snd kv with Some q => [(fst kv, q)] | None => [] end) (map (fun a => (a, Some (valof x a))) l) = map (fun a => (a, valof x a)) l).
  { induction l as [|a l IH]; intros H; [reflexivity|]. cbn [map flat_map fst snd]. rewrite (not_index a (H a (or_introl eq_refl))). cbn [app]. f_equal. apply IH. intros b B. apply H. right. exact B. }
  assert (L2 : forall l, (forall a, In a l -> forall r, a <> ("__" ++ r)%string) -> flat_map (fun kv : string * option Qc => if is_index_label (fst kv) then [(index_name (fst kv), snd kv)] else []) (map (fun a => (a, Some (valof x a))) l) = []).
  { induction l as [|a l IH]; intros H; [reflexivity|]. cbn [map flat_map fst snd]. rewrite (not_index a (H a (or_introl eq_refl))). cbn [app]. apply IH. intros b B. apply H. right. exact B. }
  assert (L3 : forall l, flat_map (fun kv : string * option Qc => if is_index_label (fst kv) then [] else match snd kv with Some q => [(fst kv, q)] | None => [] end) (map (fun i => (("__" ++ i)%string, idxof x i)) l) = []).
  { induction l as [|a l IH]; [reflexivity|]. cbn [map flat_map fst snd append is_index_label app]. exact IH. }
  assert (L4 : forall l, flat_map (fun kv : string * option Qc => if is_index_label (fst kv) then [(index_name (fst kv), snd kv)] else []) (map (fun i => (("__" ++ i)%string, idxof x i)) l) = map (fun i => (i, idxof x i)) l).
  { induction l as [|a l IH]; [reflexivity|]. cbn [map flat_map fst snd append is_index_label index_name app]. f_equal. exact IH. }
  rewrite L1, L2, L3, L4 by (intros a Ha; apply (A a Ha)). rewrite app_nil_r. reflexivity.
Qed.

Lemma loaded_value ls x lb v : numeric_item x -> (forall l, In l ls <-> has_label x l) -> In (lb, v) (map (fun l => (l, valof x l)) ls) <-> has_value x lb v.
Proof.
  intros N H. rewrite in_map_iff. split.
  - intros (l & E & Hl). injection E as -> <-. apply valof_ok; [exact N|apply H, Hl].
  - intros Hv. exists lb. split; [rewrite (valof_spec x lb v N Hv); reflexivity|]. apply H. exists v. exact Hv.
Qed.
Lemma loaded_index ix x i : NoDup ix -> (forall j, In j ix <-> In j (dkeys (i_idx x))) -> dget i (loaded_idx ix x) = dget i (i_idx x).
Proof.
  intros N H. unfold loaded_idx. destruct (dget i (i_idx x)) as [v|] eqn:E.
  - assert (I : In i ix) by (apply H, dget_In; rewrite E; discriminate). apply dget_NoDup; [unfold dkeys; rewrite map_map; cbn [fst]; rewrite map_id; exact N|]. apply in_map_iff. exists i. split; [unfold idxof; rewrite E; reflexivity|exact I].
  - apply dget_None. unfold dkeys. rewrite map_map. cbn [fst]. rewrite map_id. intros I. apply H in I. apply dget_In in I. contradiction.
Qed.

(* ---- sorting ---- *)
Lemma sort_rows_sorted l : strictly_increasing (map fst l) -> sort_rows l = l.
Proof.
  induction l as [|x l IH]; intros H; [reflexivity|]. unfold sort_rows. cbn [fold_right]. fold (sort_rows l). rewrite IH.
  - destruct l as [|y l]; [reflexivity|]. cbn [insert_row]. assert (L : Qclt (fst x) (fst y)) by (apply (H 0 1); [lia|reflexivity|reflexivity]).
    assert (Q : qleb (fst x) (fst y) = true) by (apply qleb_true; apply Qclt_le_weak; exact L). rewrite Q. reflexivity.
  - intros i j a b Hij Ha Hb. apply (H (S i) (S j)); [lia|exact Ha|exact Hb].
Qed.

(* ---- building ---- *)
Lemma build_points_ok e tz skip l s s' : foldM (append_or_raise e) (map (row_point tz) l) s = Ok s' -> build_points e tz skip s l = Ok s'.
Proof.
  revert s. induction l as [|x l IH]; intros s H; [exact H|]. cbn [map foldM] in H. cbn [build_points]. destruct (append_or_raise e s (row_point tz x)) as [s1|] eqn:A; [|discriminate]. cbn [bind] in H.
  apply append_or_raise_ok in A. rewrite A. exact (IH s1 H).
Qed.
Lemma build_slots_ok fuel k e c u tz final prev l s s' :
  foldM (append_or_raise e) (map (fun x => new_slot c u tz (fst x) (fst (split_row (snd x))) (snd (split_row (snd x)))) l) s = Ok s' -> build_slots fuel k e c u tz final prev s l = Ok s'.
Proof.
  revert s prev. induction l as [|x l IH]; intros s prev H; [exact H|]. cbn [map foldM] in H. cbn [build_slots]. destruct (append_or_raise e s _) as [s1|] eqn:A; [|discriminate]. cbn [bind] in H.
  apply append_or_raise_ok in A. rewrite A. cbn [bind]. apply IH, H.
Qed.

(* ---- the sample ---- *)
Lemma time_points_wf ts : strictly_increasing ts -> wf_points (map time_point ts).
Proof.
  intros H. split; [|split].
  - intros x X. apply in_map_iff in X. destruct X as (t & <- & _). reflexivity.
  - unfold times. rewrite map_map. cbn [time_point i_t]. rewrite map_id. exact H.
  - intros x y X Y. apply in_map_iff in X. destruct X as (t & <- & _). apply in_map_iff in Y. destruct Y as (t' & <- & _). split; reflexivity.
Qed.
Lemma sample_items e (l : list (Qc * raw)) : parses_units e -> strictly_increasing (map fst l) -> s_items (sample e (empty_series None) l) = map time_point (firstn 11 (map fst l)).
Proof.
  intros He Hi.
  assert (G : forall todo done s, done ++ map fst todo = map fst l -> length done <= 10 -> foldM (append_or_raise e) (map time_point done) (empty_series None) = Ok s ->
    s_items (sample e s todo) = map time_point (firstn 11 (map fst l))).
  { induction todo as [|x todo IH]; intros done s E L F.
    - cbn [sample]. rewrite (foldM_append_items _ _ _ _ F). cbn [empty_series s_items app]. rewrite <- E. cbn [map]. rewrite app_nil_r, firstn_all2 by lia. reflexivity.
    - cbn [sample]. assert (W : wf_points (map time_point (done ++ [fst x]))).
      { apply time_points_wf. rewrite <- E in Hi. cbn [map] in Hi. replace (done ++ fst x :: map fst todo) with ((done ++ [fst x]) ++ map fst todo) in Hi by (rewrite <- app_assoc; reflexivity).
        intros i j a b Hij Ha Hb. apply (Hi i j); [exact Hij| |]; rewrite nth_error_app1; try assumption; apply nth_error_Some; congruence. }
      destruct (ts_new_points_ok e None _ He W) as (s2 & N2). unfold ts_new in N2. rewrite map_app in N2. cbn [map] in N2.
      assert (A : ts_append e s (time_point (fst x)) = (s2, Ok tt)).
      { change (foldM (append_or_raise e) (map time_point done ++ [time_point (fst x)]) (empty_series None) = Ok s2) in N2. rewrite foldM_app in N2. rewrite F in N2. cbn [bind foldM] in N2. destruct (append_or_raise e s (time_point (fst x))) as [s3|] eqn:A; [|discriminate]. cbn [bind] in N2. injection N2 as <-. apply append_or_raise_ok, A. }
      rewrite A. cbn [fst].
      assert (F2 : foldM (append_or_raise e) (map time_point (done ++ [fst x])) (empty_series None) = Ok s2) by (rewrite map_app, foldM_app, F; cbn [bind foldM map]; rewrite (proj2 (append_or_raise_ok _ _ _ _) A); reflexivity).
      assert (I2 : s_items s2 = map time_point (done ++ [fst x])) by (rewrite (foldM_append_items _ _ _ _ F2); reflexivity).
      rewrite I2, map_length, app_length. cbn [length]. destruct (Nat.ltb_spec 10 (length done + 1)) as [Q|Q].
      + rewrite I2. f_equal. rewrite <- E. cbn [map]. replace (done ++ fst x :: map fst todo) with ((done ++ [fst x]) ++ map fst todo) by (rewrite <- app_assoc; reflexivity).
        rewrite firstn_app, firstn_all2 by (rewrite app_length; cbn [length]; lia). rewrite app_length. cbn [length]. replace (11 - (length done + 1)) with 0 by lia. cbn [firstn]. rewrite app_nil_r. reflexivity.
      + apply (IH (done ++ [fst x]) s2); [rewrite <- app_assoc; exact E|rewrite app_length; cbn [length]; lia|exact F2]. }
  apply (G l [] (empty_series None)); [reflexivity|cbn; lia|reflexivity].
Qed.
Lemma diffs_length l : length (diffs_of l) = length l - 1.
Proof. induction l as [|a [|b l] IH]; [reflexivity|reflexivity|]. change (diffs_of (a :: b :: l)) with (Qcminus b a :: diffs_of (b :: l)). cbn [length] in *. rewrite IH. lia. Qed.
Lemma detected_ok ts : ts <> [] -> length ts <= 11 -> detected (map time_point ts) = Ok (fst (most_common (count_all (diffs_of ts)))).
Proof.
  intros Hn Hl. unfold detected. rewrite map_length, map_map. cbn [time_point i_t]. rewrite map_id.
  assert (A : almost_equal (length (count_all (diffs_of ts))) (length ts) = Ok false).
  { assert (L : length (count_all (diffs_of ts)) <= length ts - 1) by (pose proof (distinct_length _ _ (count_keys_distinct (diffs_of ts))) as X; rewrite map_length, diffs_length in X; exact X).
    assert (0 < length ts) by (destruct ts; [contradiction|cbn; lia]). rewrite almost_equal_spec by lia. f_equal. apply Nat.ltb_ge. lia. }
  unfold spread_loop. rewrite A. reflexivity.
Qed.
Lemma detected_in ts : diffs_of ts <> [] -> exists d, fst (most_common (count_all (diffs_of ts))) = Some d /\ In d (diffs_of ts).
Proof.
  intros H. destruct (most_common_spec (count_all (diffs_of ts))) as (d & n & E & I & _).
  - intros kv. apply counts_pos.
  - intros X. destruct (diffs_of ts) as [|d ds] eqn:D; [contradiction|]. assert (Y : In d (map fst (count_all (d :: ds)))) by (apply count_all_keys; left; reflexivity). rewrite X in Y. exact Y.
  - exists d. rewrite E. split; [reflexivity|]. apply count_all_keys. apply in_map_iff. exists (d, n). split; [reflexivity|exact I].
Qed.
Lemma diffs_In ts d : In d (diffs_of ts) -> exists i a b, nth_error ts i = Some a /\ nth_error ts (S i) = Some b /\ d = Qcminus b a.
Proof.
  induction ts as [|a [|b l] IH]; [intros []|intros []|]. change (diffs_of (a :: b :: l)) with (Qcminus b a :: diffs_of (b :: l)). intros [<-|H].
  - exists 0, a, b. repeat split.
  - destruct (IH H) as (i & x & y & X & Y & E). exists (S i), x, y. repeat split; assumption.
Qed.
(* The detected interval of some rows. *)
Lemma sampled e (l : list (Qc * raw)) : parses_units e -> strictly_increasing (map fst l) -> l <> [] ->
  exists si, detected (s_items (sample e (empty_series None) l)) = Ok si /\
    (length l = 1 /\ si = None \/ 2 <= length l /\ exists d, si = Some d /\ exists i a b, nth_error (firstn 11 (map fst l)) i = Some a /\ nth_error (firstn 11 (map fst l)) (S i) = Some b /\ d = Qcminus b a).
Proof.
  intros He Hi Hn. rewrite (sample_items e l He Hi). set (ts := firstn 11 (map fst l)). assert (Nt : ts <> []) by (unfold ts; destruct l; [contradiction|discriminate]).
  assert (Lt : length ts = Nat.min 11 (length l)) by (unfold ts; rewrite firstn_length, map_length; reflexivity).
  rewrite detected_ok by (exact Nt || lia). eexists. split; [reflexivity|]. destruct (Nat.eq_dec (length l) 1) as [E|E].
  - left. split; [exact E|]. assert (L1 : length ts = 1) by lia. destruct ts as [|a [|b r]]; try discriminate. reflexivity.
  - right. assert (Hl : 2 <= length l) by (destruct l as [|x [|y r]]; [contradiction|contradiction|cbn [length]; lia]). split; [exact Hl|].
    destruct (detected_in ts) as (d & D1 & D2); [intros X; pose proof (diffs_length ts) as Y; rewrite X in Y; cbn [length] in Y; lia|]. exists d. split; [exact D1|]. apply diffs_In, D2.
Qed.
