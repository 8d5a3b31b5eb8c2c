(* CsvProofs6.v -- filling the gaps between the slots of a file. *)
From Verif Require Import SpecCsv SpecIntervals BaseLemmas DictLemmas PropTactics SeriesProofs SeriesProofs2 SeriesProofs3 SeriesProofs4 AccessProofs AccessProofs2 OpsProofs OpsProofs2 OpsProofs3 InterpProofs SamplingProofs CsvProofs CsvProofs2 CsvProofs3 CsvProofs4 CsvProofs5.

Section filling.
Variables (c : cal) (u : tunit) (tz : string) (ls : list string).
Hypothesis Adv : forall t, Qclt t (unit_shift c u t 1).

Lemma steps_S n t : steps c u (S n) t = steps c u n (unit_shift c u t 1).
Proof. induction n as [|n IH]; [reflexivity|]. cbn [steps] in *. rewrite IH. reflexivity. Qed.
Lemma steps_lt n t : Qclt t (steps c u (S n) t).
Proof. induction n as [|n IH]; [apply Adv|]. eapply Qclt_trans; [exact IH|]. apply Adv. Qed.
Lemma missing_ok n : forall fuel t, n <= fuel -> missing_times fuel c u t (steps c u (S n) t) = Ok (map (fun j => steps c u (S j) t) (seq 0 n)).
Proof.
  induction n as [|n IH]; intros fuel t Hf.
  - destruct fuel; cbn [missing_times steps]; rewrite qleb_refl; reflexivity.
  - destruct fuel as [|fuel]; [lia|]. cbn [missing_times]. rewrite (steps_S (S n) t).
    assert (L : qleb (steps c u (S n) (unit_shift c u t 1)) (unit_shift c u t 1) = false).
    { pose proof (steps_lt n (unit_shift c u t 1)) as Q. destruct (qleb_spec (steps c u (S n) (unit_shift c u t 1)) (unit_shift c u t 1)) as [X|X]; [exfalso; apply (Qclt_not_le _ _ Q X)|reflexivity]. }
    rewrite L, IH by lia. cbn [bind seq map]. f_equal. f_equal. rewrite <- seq_shift, map_map. apply map_ext. intros j. rewrite (steps_S (S j) t). reflexivity.
Qed.

(* The slots read: all of the same unit, timezone and labels. *)
Definition uniform (y : item) : Prop := exists t d ix, y = Csv.new_slot c u tz t (DDict d) ix /\ dkeys d = ls.
Lemma uniform_wf l : (forall y, In y l -> uniform y) -> contiguous l -> wf_slots l.
Proof.
  intros U C. split; [|split; [exact C|split]].
  - intros y Y. destruct (U y Y) as (t & d & ix & -> & _). reflexivity.
  - intros y Y. destruct (U y Y) as (t & d & ix & -> & _). apply Adv.
  - intros y z Y Z. destruct (U y Y) as (t & d & ix & -> & K). destruct (U z Z) as (t' & d' & ix' & -> & K'). split; [|split; reflexivity]. split; [reflexivity|]. cbn. intros k. change (In k (dkeys d) <-> In k (dkeys d')). rewrite K, K'. reflexivity.
Qed.
Lemma contiguous_snoc l y : contiguous l -> (forall z, last_item l = Some z -> i_t y = i_end z) -> contiguous (l ++ [y]).
Proof.
  intros C H i a b A B. rewrite nth_error_snoc in B. destruct (Nat.eqb_spec (S i) (length l)) as [E|E].
  - injection B as <-. rewrite nth_error_snoc in A. destruct (Nat.eqb_spec i (length l)); [lia|]. apply H. unfold last_item.
    destruct l as [|x l] using rev_ind; [cbn in E; discriminate|]. rewrite rev_app_distr. cbn [rev app]. rewrite app_length in E. cbn [length] in E. assert (i = length l) by lia. subst i. rewrite nth_error_snoc, Nat.eqb_refl in A. congruence.
  - assert (S i < length l) by (apply nth_error_Some; congruence). rewrite nth_error_snoc in A. destruct (Nat.eqb_spec i (length l)); [lia|]. exact (C i a b A B).
Qed.
Lemma last_item_snoc l (y : item) : last_item (l ++ [y]) = Some y.
Proof. unfold last_item. rewrite rev_app_distr. reflexivity. Qed.

Lemma new_app e l y s : ts_new e None l = Ok s -> ts_new e None (l ++ [y]) = append_or_raise e s y.
Proof. intros H. unfold ts_new in *. rewrite foldM_app, H. cbn [bind foldM]. unfold append_or_raise. destruct (ts_append e s y) as [s' [[]|x]]; reflexivity. Qed.

(* A slot which does not follow the last one is refused, and nothing changes. *)
Lemma refused e l s z y : l <> [] -> wf_slots l -> (forall x, In x l -> uniform x) -> ts_new e None l = Ok s -> last_item l = Some z -> uniform y -> i_t y <> i_end z -> ~ within_tolerance (i_end z) (i_t y) -> ts_append e s y = (s, Err ValueError).
Proof.
  intros Nn W U B L Uy Ne Tol. destruct (ts_new_slots_ok_st e l W) as (s0 & B0 & (Hi & Hr & Hst)). rewrite B in B0. injection B0 as <-.
  destruct l as [|x l]; [contradiction|]. destruct Hst as [Ht Hres]. destruct (U x (or_introl eq_refl)) as (t & d & ix & -> & K). destruct Uy as (t' & d' & ix' & -> & K'). cbn [Csv.new_slot i_t i_tz i_unit] in *.
  unfold ts_append, append_slot, series_tz, check_unit. cbn [is_point cls_is_point Csv.new_slot i_cls i_tz i_unit]. rewrite Ht, String.eqb_refl, Hres, tunit_eqb_refl.
  unfold series_append. rewrite Hi, L. unfold item_type. rewrite Hi. cbn [i_cls cls_isinstance negb].
  assert (F : follows (Csv.new_slot c u tz t' (DDict d') ix') z = false).
  { unfold follows. cbn [is_slot cls_is_slot i_cls Csv.new_slot]. unfold succeeds, Csv.new_slot. cbn [i_t]. apply orb_false_iff. split; [destruct (qeqb_spec (i_end z) t'); [exfalso; apply Ne; congruence|reflexivity]|]. destruct (is_close (i_end z) t') eqn:Q; [|reflexivity]. apply is_close_spec in Q. contradiction. }
  rewrite F. reflexivity.
Qed.

(* The data of the missing slots *)
Definition line (a b : item) (n j : nat) : dict Qc := map (fun l => (l, Qcplus (Qcmult (Qcdiv (Qcminus (valof b l) (valof a l)) (Qcplus (qn n) q1)) (Qcplus (qn j) q1)) (valof a l))) ls.
Lemma line_keys a b n j : dkeys (line a b n j) = ls.
Proof. unfold line, dkeys. rewrite map_map. apply map_id. Qed.
Lemma loaded_keys x : exists d, loaded_data ls x = DDict d /\ dkeys d = ls.
Proof. eexists. split; [reflexivity|]. unfold dkeys. rewrite map_map. apply map_id. Qed.
Lemma fill_ok a b n j : NoDup ls -> fill_data ls (loaded_data ls a) (loaded_data ls b) n j = Ok (DDict (line a b n j)).
Proof.
  intros Nd. unfold fill_data, loaded_data, raw_item, data_item.
  assert (G : forall x l, In l ls -> dget l (map (fun l => (l, valof x l)) ls) = Some (valof x l)).
  { intros x l Hl. apply dget_NoDup; [unfold dkeys; rewrite map_map, map_id; exact Nd|]. apply in_map_iff. exists l. split; [reflexivity|exact Hl]. }
  rewrite (mapM_total _ (fun l => (l, Qcplus (Qcmult (Qcdiv (Qcminus (valof b l) (valof a l)) (Qcplus (qn n) q1)) (Qcplus (qn j) q1)) (valof a l)))); [reflexivity|].
  intros l Hl. rewrite (G b l Hl), (G a l Hl). cbn [bind]. unfold qdiv.
  assert (Q : qeqb (Qcplus (qn n) q1) q0 = false).
  { destruct (qeqb_spec (Qcplus (qn n) q1) q0) as [X|X]; [|reflexivity]. exfalso. rewrite Qcplus_comm, <- qn_S in X. pose proof (qn_pos (S n) ltac:(lia)) as P. rewrite X in P. apply Qclt_not_eq in P. apply P. reflexivity. }
  rewrite Q. reflexivity.
Qed.

Definition gap_slot (a b : item) (n j : nat) : item := Csv.new_slot c u tz (steps c u (S j) (i_t a)) (DDict (line a b n j)) [("data_loss"%string, Some q1)].
Lemma gap_fold e a b n ts s : NoDup ls -> 
  foldM (fun s jt => do d <- fill_data ls (loaded_data ls a) (loaded_data ls b) n (fst jt); append_raise e s (Csv.new_slot c u tz (snd jt) d [("data_loss"%string, Some q1)])) ts s =
  foldM (append_or_raise e) (map (fun jt => Csv.new_slot c u tz (snd jt) (DDict (line a b n (fst jt))) [("data_loss"%string, Some q1)]) ts) s.
Proof.
  intros Nd. revert s. induction ts as [|[j t] ts IH]; intros s; [reflexivity|]. cbn [foldM map fst snd]. rewrite fill_ok by exact Nd. cbn [bind]. unfold append_raise at 1, append_or_raise at 1.
  destruct (ts_append e s _) as [s' [[]|x]]; cbn [bind]; [apply IH|reflexivity].
Qed.
Lemma combine_seq (f : nat -> Qc) n : forall i, combine (seq i n) (map f (seq i n)) = map (fun j => (j, f j)) (seq i n).
Proof. induction n as [|n IH]; intros i; [reflexivity|]. cbn [seq map combine]. rewrite IH. reflexivity. Qed.

Lemma gaps_contiguous a b n : forall m acc, (forall z, last_item acc = Some z -> i_end z = unit_shift c u (i_t a) 1) -> acc <> [] -> contiguous acc ->
  contiguous (acc ++ map (gap_slot a b n) (seq 0 m)) /\ (forall z, last_item (acc ++ map (gap_slot a b n) (seq 0 m)) = Some z -> i_end z = steps c u (S m) (i_t a)).
Proof.
  induction m as [|m IH]; intros acc L Nn C; [cbn [seq map]; rewrite app_nil_r; split; [exact C|exact L]|].
  rewrite seq_S, map_app, app_assoc. cbn [map Nat.add]. destruct (IH acc L Nn C) as [C' L']. split.
  - apply contiguous_snoc; [exact C'|]. intros z Z. rewrite (L' z Z). reflexivity.
  - intros z Z. rewrite last_item_snoc in Z. injection Z as <-. reflexivity.
Qed.

Definition row_slot (ix : dict (option Qc)) (x : item) : item := Csv.new_slot c u tz (i_t x) (loaded_data ls x) ix.
Lemma row_uniform ix x : uniform (row_slot ix x).
Proof. destruct (loaded_keys x) as (d & D & K). unfold row_slot. rewrite D. exists (i_t x), d, ix. split; [reflexivity|exact K]. Qed.
Lemma gap_uniform a b n j : uniform (gap_slot a b n j).
Proof. eexists. eexists. eexists. split; [reflexivity|apply line_keys]. Qed.

(* What is between a row and the next *)
Inductive filled : item -> list item -> list item -> Prop :=
| filled_nil a : filled a [] []
| filled_cons a b l n ix out : i_t b = steps c u (S n) (i_t a) -> (forall v, dget "data_loss" ix = Some v -> v = None) -> filled b l out -> filled a (b :: l) (map (gap_slot a b n) (seq 0 n) ++ row_slot ix b :: out).

Lemma build_filled fuel k e final l : columns_ok ls [] -> row_keys (snd final) = ls -> forall a acc s, (forall x, In x (a :: l) -> ce_epoch k (i_t x) = i_t x) -> rows_on_grid c u fuel (a :: l) ->
  acc <> [] -> (forall y, In y acc -> uniform y) -> contiguous acc -> (forall z, last_item acc = Some z -> i_t z = i_t a) -> ts_new e None acc = Ok s ->
  exists out s', build_slots fuel k e c u tz final (row_of ls [] a) s (map (row_of ls []) l) = Ok s' /\ ts_new e None (acc ++ out) = Ok s' /\ filled a l out /\ contiguous (acc ++ out) /\ (forall y, In y out -> uniform y).
Proof.
  intros Co Fk. induction l as [|b l IH]; intros a acc s Ep G Na U C L B.
  - exists [], s. rewrite app_nil_r. split; [reflexivity|]. split; [exact B|]. split; [constructor|]. split; [exact C|intros y []].
  - destruct (G 0 a b eq_refl eq_refl) as (n & Hn & Eb & Tol).
    assert (G' : rows_on_grid c u fuel (b :: l)) by (intros i x y X Y; exact (G (S i) x y X Y)).
    assert (Ep' : forall x, In x (b :: l) -> ce_epoch k (i_t x) = i_t x) by (intros x X; apply Ep; right; exact X).
    assert (Le : forall z, last_item acc = Some z -> i_end z = unit_shift c u (i_t a) 1).
    { intros z Z. rewrite <- (L z Z). pose proof Z as Z'. apply last_item_some in Z'. destruct Z' as (acc' & ->). destruct (U z) as (t & d & ix & -> & _); [apply in_or_app; right; left; reflexivity|reflexivity]. }
    set (w := wf_slots) in *.
    assert (Step : forall ix, (forall v, dget "data_loss" ix = Some v -> v = None) -> exists s1, ts_new e None ((acc ++ map (gap_slot a b n) (seq 0 n)) ++ [row_slot ix b]) = Ok s1 /\
       contiguous ((acc ++ map (gap_slot a b n) (seq 0 n)) ++ [row_slot ix b]) /\ (forall y, In y ((acc ++ map (gap_slot a b n) (seq 0 n)) ++ [row_slot ix b]) -> uniform y)).
    { intros ix _. destruct (gaps_contiguous a b n n acc Le Na C) as [C1 L1].
      assert (C2 : contiguous ((acc ++ map (gap_slot a b n) (seq 0 n)) ++ [row_slot ix b])) by (apply contiguous_snoc; [exact C1|]; intros z Z; rewrite (L1 z Z); exact Eb).
      assert (U2 : forall y, In y ((acc ++ map (gap_slot a b n) (seq 0 n)) ++ [row_slot ix b]) -> uniform y).
      { intros y Y. apply in_app_or in Y. destruct Y as [Y|[<-|[]]]; [|apply row_uniform]. apply in_app_or in Y. destruct Y as [Y|Y]; [apply U, Y|]. apply in_map_iff in Y. destruct Y as (j & <- & _). apply gap_uniform. }
      destruct (ts_new_slots_ok_st e _ (uniform_wf _ U2 C2)) as (s1 & B1 & _). exists s1. split; [exact B1|]. split; assumption. }
    assert (Rec : forall ix s1, (forall v, dget "data_loss" ix = Some v -> v = None) -> ts_new e None ((acc ++ map (gap_slot a b n) (seq 0 n)) ++ [row_slot ix b]) = Ok s1 ->
       exists out s', build_slots fuel k e c u tz final (row_of ls [] b) s1 (map (row_of ls []) l) = Ok s' /\ ts_new e None (acc ++ out) = Ok s' /\ filled a (b :: l) out /\ contiguous (acc ++ out) /\ (forall y, In y out -> uniform y)).
    { intros ix s1 Hix B1. destruct (Step ix Hix) as (s1' & _ & C2 & U2).
      destruct (IH b ((acc ++ map (gap_slot a b n) (seq 0 n)) ++ [row_slot ix b]) s1 Ep' G') as (out & s' & R1 & R2 & R3 & R4 & R5); [destruct (acc ++ map (gap_slot a b n) (seq 0 n)); discriminate|exact U2|exact C2|intros z Z; rewrite last_item_snoc in Z; injection Z as <-; reflexivity|exact B1|].
      exists (map (gap_slot a b n) (seq 0 n) ++ row_slot ix b :: out), s'. split; [exact R1|].
      assert (Eo : acc ++ map (gap_slot a b n) (seq 0 n) ++ row_slot ix b :: out = ((acc ++ map (gap_slot a b n) (seq 0 n)) ++ [row_slot ix b]) ++ out) by (rewrite <- !app_assoc; reflexivity).
      rewrite Eo. split; [exact R2|]. split; [constructor; assumption|]. split; [exact R4|]. intros y Y. apply in_app_or in Y. destruct Y as [Y|[<-|Y]]; [|apply row_uniform|apply R5, Y]. apply in_map_iff in Y. destruct Y as (j & <- & _). apply gap_uniform. }
    cbn [map build_slots]. rewrite (split_row_of ls [] b Co). cbn [fst snd loaded_idx map].
    assert (Rk : row_keys (snd (row_of ls [] b)) = ls) by (cbn [row_of snd row_keys map]; rewrite app_nil_r; unfold dkeys; rewrite map_map; apply map_id).
    set (keys := match map (row_of ls []) l with [] => match loaded_data ls b with DDict d => dkeys d | DList _ => [] end | _ :: _ => row_keys (snd final) end).
    assert (Ek : keys = ls). { unfold keys. destruct (map (row_of ls []) l); [|exact Fk]. cbn [loaded_data]. unfold dkeys. rewrite map_map. apply map_id. }
    destruct n as [|n].
    + cbn [seq map] in *. rewrite app_nil_r in *. destruct (Step [] ltac:(discriminate)) as (s1 & B1 & _). pose proof B1 as A1. rewrite (new_app e acc (row_slot [] b) s B) in A1. apply append_or_raise_ok in A1. unfold row_slot in A1. cbn [row_of fst].
      rewrite A1. cbn [bind]. apply (Rec [] s1); [discriminate|exact B1].
    + destruct Tol as [Tol|Tol]; [discriminate|].
      assert (exists z, last_item acc = Some z) as (z & Z) by (destruct acc as [|y0 acc0] using rev_ind; [contradiction|]; eexists; apply last_item_snoc).
      assert (Rf : ts_append e s (row_slot [] b) = (s, Err ValueError)).
      { apply (refused e acc s z (row_slot [] b) Na (uniform_wf acc U C) U B Z (row_uniform _ _)).
        - rewrite (Le z Z). cbn [row_slot Csv.new_slot i_t]. rewrite Eb. intros X. pose proof (steps_lt n (unit_shift c u (i_t a) 1)) as V. rewrite <- (steps_S (S n)) in V. rewrite X in V. apply Qclt_not_eq in V. apply V. reflexivity.
        - rewrite (Le z Z). cbn [row_slot Csv.new_slot i_t]. exact Tol. }
      cbn [row_of fst]. unfold row_slot in Rf. rewrite Rf. unfold fill_gap. rewrite (split_row_of ls [] b Co), (split_row_of ls [] a Co). cbn [fst snd row_of]. rewrite (Ep a (or_introl eq_refl)), Eb, missing_ok by exact Hn. cbn [bind].
      rewrite Ek, map_length, seq_length, gap_fold by apply Co. rewrite combine_seq, map_map. cbn [fst snd].
      destruct (Step [("data_loss"%string, None)] ltac:(intros v V; injection V as <-; reflexivity)) as (s2 & B2 & _ & _).
      assert (P1 : exists s1, ts_new e None (acc ++ map (gap_slot a b (S n)) (seq 0 (S n))) = Ok s1).
      { destruct (gaps_contiguous a b (S n) (S n) acc Le Na C) as [C1 _]. destruct (ts_new_slots_ok_st e (acc ++ map (gap_slot a b (S n)) (seq 0 (S n)))) as (s1 & B1 & _); [|exists s1; exact B1]. apply uniform_wf; [|exact C1].
        intros y Y. apply in_app_or in Y. destruct Y as [Y|Y]; [apply U, Y|]. apply in_map_iff in Y. destruct Y as (j & <- & _). apply gap_uniform. }
      destruct P1 as (s1 & B1). pose proof B1 as F1. unfold ts_new in F1. rewrite foldM_app in F1. unfold ts_new in B. rewrite B in F1. cbn [bind] in F1.
      change (fun x => Csv.new_slot c u tz (steps c u (S x) (i_t a)) (DDict (line a b (S n) x)) [("data_loss"%string, Some q1)]) with (gap_slot a b (S n)).
      change (foldM (append_or_raise e) (map (gap_slot a b (S n)) (seq 0 (S n))) s) with (foldM (fun s x => let '(s', r) := ts_append e s x in do _ <- r; Ok s') (map (gap_slot a b (S n)) (seq 0 (S n))) s). rewrite F1. cbn [bind].
      pose proof B2 as A2. rewrite (new_app e _ (row_slot [("data_loss"%string, None)] b) s1 B1) in A2. apply append_or_raise_ok in A2. unfold append_raise. rewrite <- Eb. unfold row_slot in A2. rewrite A2. cbn [bind].
      change (i_t b, RDict (map (fun l0 => (l0, Some (valof b l0))) ls ++ [])) with (row_of ls [] b).
      apply (Rec [("data_loss"%string, None)] s2); [intros v V; injection V as <-; reflexivity|exact B2].
Qed.
End filling.

Lemma grid_increasing c u most l : (forall t, Qclt t (unit_shift c u t 1)) -> rows_on_grid c u most l -> strictly_increasing (times l).
Proof.
  intros Adv G. apply sincr_consecutive. intros i a b A B. unfold times in A, B. rewrite nth_error_map in A, B. destruct (nth_error l i) as [x|] eqn:X; [|discriminate]. destruct (nth_error l (S i)) as [y|] eqn:Y; [|discriminate]. cbn [option_map] in *. injection A as <-. injection B as <-.
  destruct (G i x y X Y) as (n & _ & -> & _). apply steps_lt, Adv.
Qed.
(* The series made of rows with gaps. *)
Lemma make_filled fuel k e c o st st' ls l x0 u : (forall t, Qclt t (unit_shift c u t 1)) -> parses_units e -> 1 <= length l -> columns_ok ls [] -> same_settings st st' -> slots_read k o st (x0 :: l) u ->
  rows_on_grid c u fuel (x0 :: l) -> (forall x, In x (x0 :: l) -> ce_epoch k (i_t x) = i_t x) ->
  exists out s', make_series fuel k e c o st' (map (row_of ls []) (x0 :: l)) = Ok s' /\ s_items s' = row_slot c u (csv_tz st o) ls [] x0 :: out /\ filled c u (csv_tz st o) ls x0 l out /\ wf_slots (s_items s').
Proof.
  intros Adv He Nl C Sm R G Ep. unfold make_series. cbn [map].
  pose proof (grid_increasing c u fuel _ Adv G) as Inc.
  assert (Hs : (if st_sort st' then sort_rows (row_of ls [] x0 :: map (row_of ls []) l) else row_of ls [] x0 :: map (row_of ls []) l) = row_of ls [] x0 :: map (row_of ls []) l).
  { destruct (st_sort st'); [|reflexivity]. apply sort_rows_sorted. change (row_of ls [] x0 :: map (row_of ls []) l) with (map (row_of ls []) (x0 :: l)). rewrite rows_times. exact Inc. }
  rewrite Hs, (asked_same o st st' Sm), (tz_same o st st' Sm).
  destruct (unit_read k e o st ls [] (x0 :: l) u He Inc ltac:(cbn; lia) R) as (u0 & U & Eu). cbn [map] in U. rewrite U. cbn [bind]. rewrite Eu.
  set (tz := csv_tz st o). set (final := last (row_of ls [] x0 :: map (row_of ls []) l) (q0, RList [])).
  assert (Fk : row_keys (snd final) = ls).
  { assert (exists x, final = row_of ls [] x) as (x & ->).
    { unfold final. change (row_of ls [] x0 :: map (row_of ls []) l) with (map (row_of ls []) (x0 :: l)). destruct (exists_last (l := x0 :: l) ltac:(discriminate)) as (l' & x & E). rewrite E, map_app. cbn [map]. rewrite last_last. exists x. reflexivity. }
    cbn [row_of snd row_keys map]. rewrite app_nil_r. unfold dkeys. rewrite map_map. apply map_id. }
  cbn [build_slots]. rewrite (split_row_of ls [] x0 C). cbn [fst snd loaded_idx map row_of].
  assert (U1 : forall y, In y [row_slot c u tz ls [] x0] -> uniform c u tz ls y) by (intros y [<-|[]]; apply row_uniform).
  assert (C1 : contiguous [row_slot c u tz ls [] x0]) by (intros i a b A B; destruct i; [discriminate B|destruct i; discriminate A]).
  destruct (ts_new_slots_ok_st e _ (uniform_wf c u tz ls Adv _ U1 C1)) as (s1 & B1 & _).
  pose proof B1 as A1. change (ts_new e None ([] ++ [row_slot c u tz ls [] x0]) = Ok s1) in A1. rewrite (new_app e [] (row_slot c u tz ls [] x0) (empty_series None) eq_refl) in A1. apply append_or_raise_ok in A1. unfold row_slot in A1. rewrite A1. cbn [bind].
  change (i_t x0, RDict (map (fun l0 => (l0, Some (valof x0 l0))) ls ++ [])) with (row_of ls [] x0).
  destruct (build_filled c u tz ls Adv fuel k e final l C Fk x0 [row_slot c u tz ls [] x0] s1) as (out & s' & R1 & R2 & R3 & R4 & R5);
    [exact Ep|exact G|discriminate|exact U1|exact C1|intros z Z; injection Z as <-; reflexivity|exact B1|].
  exists out, s'. split; [exact R1|]. rewrite (ts_new_items _ _ _ _ R2). cbn [app] in *. split; [reflexivity|]. split; [exact R3|]. apply (uniform_wf c u tz ls Adv); [|exact R4]. intros y [<-|Y]; [apply row_uniform|apply R5, Y].
Qed.

(* What filled means for the values. *)
Lemma filled_rows c u tz ls a l out x : filled c u tz ls a l out -> In x l -> exists ix, In (row_slot c u tz ls ix x) out /\ (forall v, dget "data_loss" ix = Some v -> v = None).
Proof.
  intros F. induction F as [a|a b l n ix out E Hix F IH]; [intros []|]. intros [<-|H].
  - exists ix. split; [apply in_or_app; right; left; reflexivity|exact Hix].
  - destruct (IH H) as (ix' & I & H'). exists ix'. split; [apply in_or_app; right; right; exact I|exact H'].
Qed.
Lemma filled_slots c u tz ls a l out y : filled c u tz ls a l out -> In y out ->
  (exists x ix, In x l /\ y = row_slot c u tz ls ix x /\ (forall v, dget "data_loss" ix = Some v -> v = None)) \/
  (exists i p q n j, nth_error (a :: l) i = Some p /\ nth_error (a :: l) (S i) = Some q /\ i_t q = steps c u (S n) (i_t p) /\ j < n /\ y = gap_slot c u tz ls p q n j).
Proof.
  intros F. induction F as [a|a b l n ix out E Hix F IH]; [intros []|]. intros H. apply in_app_or in H. destruct H as [H|[<-|H]].
  - right. apply in_map_iff in H. destruct H as (j & <- & J). apply in_seq in J. exists 0, a, b, n, j. split; [reflexivity|]. split; [reflexivity|]. split; [exact E|]. split; [lia|reflexivity].
  - left. exists b, ix. split; [left; reflexivity|]. split; [reflexivity|exact Hix].
  - destruct (IH H) as [(x & ix' & Ix & Y & H')|(i & p & q & m & j & P & Q & R)]; [left; exists x, ix'; split; [right; exact Ix|split; [exact Y|exact H']]|right; exists (S i), p, q, m, j; split; [exact P|split; [exact Q|exact R]]].
Qed.
Lemma gap_fills c u tz ls p q n j : numeric_item p -> numeric_item q -> (forall lb, In lb ls <-> has_label p lb) -> (forall lb, In lb ls <-> has_label q lb) -> i_t q = steps c u (S n) (i_t p) -> j < n ->
  fills c u p q n (S j) (gap_slot c u tz ls p q n j).
Proof.
  intros Np Nq Lp Lq E J. split; [exact E|]. split; [lia|]. split; [reflexivity|]. split; [reflexivity|]. intros lb v. unfold has_value at 1. cbn [gap_slot Csv.new_slot i_data]. unfold line.
  assert (A : forall l, Qcplus (Qcmult (Qcdiv (Qcminus (valof q l) (valof p l)) (Qcplus (qn n) q1)) (Qcplus (qn j) q1)) (valof p l) = Qcplus (valof p l) (Qcmult (Qcminus (valof q l) (valof p l)) (Qcdiv (qn (S j)) (qn (S n))))).
  { intros l. rewrite !qn_S, (Qcplus_comm (qn n) q1), (Qcplus_comm (qn j) q1). unfold Qcdiv. ring. }
  split.
  - intros H. apply in_map_iff in H. destruct H as (l & Q & Hl). injection Q as <- <-. exists (valof p l), (valof q l). split; [apply valof_ok; [exact Np|apply Lp, Hl]|]. split; [apply valof_ok; [exact Nq|apply Lq, Hl]|]. apply A.
  - intros (va & vb & Va & Vb & ->). rewrite <- (valof_spec _ _ _ Np Va), <- (valof_spec _ _ _ Nq Vb). apply in_map_iff. exists lb. split; [rewrite A; reflexivity|]. apply Lp. exists va. exact Va.
Qed.
