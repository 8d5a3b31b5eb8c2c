(* PropEvents.v -- THEOREMS C58: mark_events. *)
From Verif Require Import SpecEvents BaseLemmas PropTactics DictLemmas SeriesProofs2 OpsProofs ReconProofs2 EventsProofs Witness PropTransform PropRecon.
From Coq Require Import Lia.

Lemma at_step_marked l E l' M : at_step l (length l) E l' -> marks E (length l) M -> marked_where M "anomaly_event" l l'.
Proof.
  intros H K. split; [apply (at_step_length _ _ _ _ H)|]. intros i x y X Y. rewrite (H i), X in Y. cbn [option_map] in Y.
  assert (L : i < length l) by (apply nth_error_Some; congruence). destruct (Nat.ltb_spec i (length l)); [|lia]. injection Y as <-.
  split; [apply set_event_same_but|]. destruct (K i L) as [[Mi V]|[Mi V]]; rewrite V; split; intros C; try contradiction; apply set_event_is.
Qed.
Lemma replaced l : (forall x, In x l -> NoDup (dkeys (i_idx x)) /\ exists v, dget "anomaly_event" (i_idx x) = Some v) ->
  exists l', mapM replace_anomaly l = Ok l' /\ Forall2 (fun x y => same_shell x y /\ i_data y = i_data x /\ dget "anomaly" (i_idx y) = dget "anomaly_event" (i_idx x) /\ dget "anomaly_event" (i_idx y) = None /\
    forall k, k <> "anomaly"%string -> k <> "anomaly_event"%string -> dget k (i_idx y) = dget k (i_idx x)) l l'.
Proof.
  induction l as [|x l IH]; intros H; [exists []; split; [reflexivity|constructor]|]. destruct IH as (l' & X & F); [intros y Y; apply H; right; exact Y|].
  destruct (H x (or_introl eq_refl)) as (D & v & V). cbn [mapM]. unfold replace_anomaly at 1. rewrite V, X. cbn [bind]. eexists. split; [reflexivity|]. constructor; [|exact F].
  destruct x. unfold set_idx, same_shell, same_time. cbn in *. split; [repeat split|]. split; [reflexivity|]. split; [rewrite dget_dset, String.eqb_refl; symmetry; exact V|].
  split; [rewrite dget_dset, (dget_ddel _ _ _ D); reflexivity|]. intros k N1 N2. rewrite dget_dset, (dget_ddel _ _ _ D), (proj2 (String.eqb_neq _ _) N1), (proj2 (String.eqb_neq _ _) N2). reflexivity.
Qed.
Lemma mark_items_no_replace thr p g l : mark_items thr p g false l = (do st <- foldM (event_step thr p g) (seq 0 (length l)) (l, None); last_event thr p (fst st) (snd st)).
Proof. unfold mark_items. destruct (foldM _ _ _) as [st|]; cbn [bind]; [|reflexivity]. destruct (last_event _ _ _ _); reflexivity. Qed.

(* What is marked, everywhere in the series: the events which are over before its end (more than max_gap items follow) and have
   at least min_persistence items; and the one still open at its end if it has MORE than min_persistence items. *)
Definition marked_by_code (A : nat -> Prop) (n gap : nat) (p : Z) (i : nat) : Prop :=
  exists a b, event A n gap a b /\ a <= i <= b /\ (over n gap b -> (p <= Z.of_nat b - Z.of_nat a + 1)%Z) /\ (~ over n gap b -> a < b /\ (p <= Z.of_nat b - Z.of_nat a)%Z).

Lemma marked_series e s thr p gap inplace : ready e s -> (forall x, In x (s_items s) -> with_anomaly x) ->
  ~ alone_at_end thr p gap (s_items s) ->
  exists s', mark_events e thr p gap false inplace s = Ok s' /\ s' = set_items s (s_items s') /\
    marked_where (marked_by_code (anomalous thr (s_items s)) (length (s_items s)) gap p) "anomaly_event" (s_items s) (s_items s').
Proof.
  intros R K N. destruct (proj1 (end_ok thr p gap (s_items s) K) N) as (l & E & X & H & M).
  exists (set_items s l). unfold mark_events. assert (D : (if inplace then Ok s else ts_duplicate e s) = Ok s) by (destruct inplace; [reflexivity|apply ready_duplicate; exact R]).
  rewrite D. cbn [bind]. rewrite mark_items_no_replace, X. cbn [bind]. split; [reflexivity|]. split; [destruct s; reflexivity|].
  replace (s_items (set_items s l)) with l by (destruct s; reflexivity). apply (at_step_marked _ E); [exact H|exact M].
Qed.

(* If no event is still open at the end of the series (the last max_gap + 1 items are not anomalous), the items marked are
   exactly those of the maximal runs of at least min_persistence items, everywhere; nothing else is changed, and there are no errors. *)
Theorem C58_marks_the_events_partial : forall e s thr p gap inplace, ready e s -> (forall x, In x (s_items s) -> with_anomaly x) ->
  (forall i, i < length (s_items s) -> length (s_items s) <= i + gap + 1 -> ~ anomalous thr (s_items s) i) ->
  exists s', mark_events e thr p gap false inplace s = Ok s' /\ s' = set_items s (s_items s') /\
    marked_where (in_event (anomalous thr (s_items s)) (length (s_items s)) gap p) "anomaly_event" (s_items s) (s_items s').
Proof.
  intros e s thr p gap inplace R K N. assert (O : forall a b, event (anomalous thr (s_items s)) (length (s_items s)) gap a b -> over (length (s_items s)) gap b).
  { intros a b (L & _ & Ab & _). unfold over. destruct (Nat.lt_ge_cases (b + gap + 1) (length (s_items s))) as [C|C]; [exact C|]. destruct (N b); [lia|lia|exact Ab]. }
  destruct (marked_series e s thr p gap inplace R K) as (s' & X & Y & Z & W).
  - intros (a & Ea & Na & _). destruct (Na (O a a Ea)).
  - exists s'. split; [exact X|]. split; [exact Y|]. split; [exact Z|]. intros i x y Xi Yi. destruct (W i x y Xi Yi) as (W1 & W2 & W3). split; [exact W1|].
    assert (Q : marked_by_code (anomalous thr (s_items s)) (length (s_items s)) gap p i <-> in_event (anomalous thr (s_items s)) (length (s_items s)) gap p i).
    { split; intros (a & b & Ev & B).
      - exists a, b. split; [exact Ev|]. split; [apply B|]. apply (proj1 (proj2 B)), (O a b Ev).
      - exists a, b. split; [exact Ev|]. split; [apply B|]. split; [intros _; apply B|intros C; destruct (C (O a b Ev))]. }
    split; intros C; [apply W2|apply W3]; tauto.
Qed.
Print Assumptions C58_marks_the_events_partial.

(* In general, the event open at the end of the series is only marked if it has more than min_persistence items: what is
   missing from the full property is exactly this. *)
Theorem C58_everywhere_partial : forall e s thr p gap inplace, ready e s -> (forall x, In x (s_items s) -> with_anomaly x) ->
  (forall a, event (anomalous thr (s_items s)) (length (s_items s)) gap a a -> over (length (s_items s)) gap a \/ (Z.of_nat (length (s_items s)) - Z.of_nat a < p)%Z) ->
  exists s', mark_events e thr p gap false inplace s = Ok s' /\ s' = set_items s (s_items s') /\
    marked_where (marked_by_code (anomalous thr (s_items s)) (length (s_items s)) gap p) "anomaly_event" (s_items s) (s_items s').
Proof.
  intros e s thr p gap inplace R K N. apply marked_series; [exact R|exact K|]. intros (a & Ea & Na & P). destruct (N a Ea) as [O|O]; [exact (Na O)|lia].
Qed.
Print Assumptions C58_everywhere_partial.

(* An event of exactly min_persistence items which is still open at the end of the series is not marked. *)
Theorem C58_end_of_series_refuted : forall e s thr p gap inplace a b, ready e s -> (forall x, In x (s_items s) -> with_anomaly x) ->
  event (anomalous thr (s_items s)) (length (s_items s)) gap a b -> a < b -> ~ over (length (s_items s)) gap b -> p = (Z.of_nat b - Z.of_nat a + 1)%Z ->
  in_event (anomalous thr (s_items s)) (length (s_items s)) gap p a /\
  exists s' y, mark_events e thr p gap false inplace s = Ok s' /\ nth_error (s_items s') a = Some y /\ index_is "anomaly_event" q0 y.
Proof.
  intros e s thr p gap inplace a b R K Ev L NO P. split; [exists a, b; split; [exact Ev|split; [lia|lia]]|].
  destruct (marked_series e s thr p gap inplace R K) as (s' & X & Y & Z & W).
  - intros (c & Ec & Nc & _). destruct (event_apart thr gap (s_items s) _ _ _ _ Ev Ec) as [[C1 C2]|[C|C]]; [lia| |].
    + unfold over in *. destruct Ev as (_ & _ & _ & _ & _ & Rt), Ec as (Lc & Ac & _). apply (Rt c); [lia|lia|lia|exact Ac].
    + unfold over in *. destruct Ec as (_ & _ & _ & _ & _ & Rt), Ev as (Lc & Ac & _). apply (Rt a); [lia|lia|lia|exact Ac].
  - assert (La : a < length (s_items s)) by (destruct Ev; lia). destruct (nth_error (s_items s) a) as [x|] eqn:Xa; [|apply nth_error_None in Xa; lia].
    destruct (nth_error (s_items s') a) as [y|] eqn:Ya; [|apply nth_error_None in Ya; lia]. exists s', y. split; [exact X|]. split; [exact Ya|].
    apply (proj2 (proj2 (W a x y Xa Ya))). intros (c & d & Ec & Bc & O1 & O2). destruct (event_apart thr gap (s_items s) _ _ _ _ Ev Ec) as [[C1 C2]|[C|C]]; [subst c d|lia|lia]. destruct (O2 NO) as [_ Q]. lia.
Qed.
Print Assumptions C58_end_of_series_refuted.

(* A single anomalous item which is an event on its own and still open at the end of the series makes mark_events fail, if
   the items from it to the end are at least min_persistence. *)
Theorem C58_terminates_refuted : forall e s thr p gap replace inplace a, ready e s -> (forall x, In x (s_items s) -> with_anomaly x) ->
  event (anomalous thr (s_items s)) (length (s_items s)) gap a a -> ~ over (length (s_items s)) gap a -> (p <= Z.of_nat (length (s_items s)) - Z.of_nat a)%Z ->
  mark_events e thr p gap replace inplace s = Err IndexError.
Proof.
  intros e s thr p gap replace inplace a R K Ev NO P. assert (X := proj2 (end_ok thr p gap (s_items s) K) (ex_intro _ a (conj Ev (conj NO P)))).
  unfold mark_events. assert (D : (if inplace then Ok s else ts_duplicate e s) = Ok s) by (destruct inplace; [reflexivity|apply ready_duplicate; exact R]). rewrite D. cbn [bind].
  unfold mark_items. destruct (foldM _ _ _) as [st|]; cbn [bind] in X |- *; [|congruence]. rewrite X. reflexivity.
Qed.
Print Assumptions C58_terminates_refuted.

(* With replace_index the same marks take the place of the anomaly index, and no other index is added or changed. *)
Theorem C58_replace_index : forall e s thr p gap inplace s', ready e s -> (forall x, In x (s_items s) -> with_anomaly x) ->
  (forall x, In x (s_items s) -> NoDup (dkeys (i_idx x)) /\ dget "anomaly_event" (i_idx x) = None) ->
  mark_events e thr p gap false inplace s = Ok s' ->
  exists s2, mark_events e thr p gap true inplace s = Ok s2 /\ s2 = set_items s (s_items s2) /\ length (s_items s2) = length (s_items s) /\
    forall i x y z, nth_error (s_items s) i = Some x -> nth_error (s_items s') i = Some y -> nth_error (s_items s2) i = Some z ->
      same_but "anomaly" x z /\ dget "anomaly" (i_idx z) = dget "anomaly_event" (i_idx y).
Proof.
  intros e s thr p gap inplace s' R K ND H. unfold mark_events in *. assert (D : (if inplace then Ok s else ts_duplicate e s) = Ok s) by (destruct inplace; [reflexivity|apply ready_duplicate; exact R]).
  rewrite D in *. cbn [bind] in *. rewrite mark_items_no_replace in H. unfold mark_items.
  destruct (end_ok thr p gap (s_items s) K) as [EO EE].
  assert (NA : ~ alone_at_end thr p gap (s_items s)) by (intros C; rewrite (EE C) in H; discriminate). destruct (EO NA) as (l & E & X & St & M).
  rewrite X in H. cbn [bind] in H. assert (Hs : s' = set_items s l) by congruence. subst s'.
  destruct (foldM _ _ _) as [st|]; cbn [bind] in X |- *; [|discriminate]. rewrite X. cbn [bind].
  assert (B : forall i x y, nth_error (s_items s) i = Some x -> nth_error l i = Some y -> y = set_event (E i) x).
  { intros i x y Xi Yi. rewrite (St i), Xi in Yi. cbn [option_map] in Yi. assert (L : i < length (s_items s)) by (apply nth_error_Some; congruence). destruct (Nat.ltb_spec i (length (s_items s))); [|lia]. congruence. }
  assert (Ll := at_step_length _ _ _ _ St).
  assert (Q : forall y, In y l -> exists i x, nth_error (s_items s) i = Some x /\ y = set_event (E i) x).
  { intros y Y. destruct (In_nth_error _ _ Y) as [i Yi]. destruct (nth_error (s_items s) i) as [x|] eqn:Xi; [exists i, x; split; [exact Xi|apply (B i x y Xi Yi)]|].
    apply nth_error_None in Xi. assert (i < length l) by (apply nth_error_Some; congruence). lia. }
  destruct (replaced l) as (l2 & X2 & F).
  - intros y Y. destruct (Q y Y) as (i & x & Xi & ->). destruct (ND x (nth_error_In _ _ Xi)) as [Nx _]. split; [destruct x; apply dset_NoDup; exact Nx|]. exists (Some (E i)). apply set_event_is.
  - rewrite X2. cbn [bind]. assert (Ln : length l2 = length l) by (clear - F; induction F; cbn; congruence).
    exists (set_items s l2). split; [reflexivity|]. split; [destruct s; reflexivity|]. replace (s_items (set_items s l2)) with l2 by (destruct s; reflexivity). replace (s_items (set_items s l)) with l by (destruct s; reflexivity). split; [congruence|].
    intros i x y z Xi Yi Zi. assert (G : forall l l2, Forall2 (fun x y => same_shell x y /\ i_data y = i_data x /\ dget "anomaly" (i_idx y) = dget "anomaly_event" (i_idx x) /\ dget "anomaly_event" (i_idx y) = None /\
      forall k, k <> "anomaly"%string -> k <> "anomaly_event"%string -> dget k (i_idx y) = dget k (i_idx x)) l l2 -> forall i y z, nth_error l i = Some y -> nth_error l2 i = Some z -> same_shell y z /\ i_data z = i_data y /\ dget "anomaly" (i_idx z) = dget "anomaly_event" (i_idx y) /\ dget "anomaly_event" (i_idx z) = None /\
      forall k, k <> "anomaly"%string -> k <> "anomaly_event"%string -> dget k (i_idx z) = dget k (i_idx y)).
    { clear. intros l l2 F. induction F as [|a b l l2 H F IH]; intros [|i] y z Y Z; cbn in Y, Z; try discriminate; [injection Y as <-; injection Z as <-; exact H|exact (IH i y z Y Z)]. }
    destruct (G l l2 F i y z Yi Zi) as (G1 & G2 & G3 & G4 & G5). rewrite (B i x y Xi Yi) in *. destruct (set_event_same_but (E i) x) as (S1 & S2 & S3).
    split; [|exact G3]. split; [destruct x, z; unfold same_shell, same_time, set_event, set_idx in *; cbn in *; intuition congruence|]. split; [congruence|].
    intros k Nk. destruct (String.eqb_spec k "anomaly_event") as [->|C]; [rewrite G4; symmetry; apply (ND x (nth_error_In _ _ Xi))|]. rewrite (G5 k Nk C). apply S3. exact C.
Qed.
Print Assumptions C58_replace_index.

(* An item without anomaly index (the detector gives none to those with too much data loss) is a KeyError. *)
Theorem C58_needs_the_index : forall e s thr p gap replace inplace x, ready e s -> nth_error (s_items s) 0 = Some x -> dget "anomaly" (i_idx x) = None ->
  mark_events e thr p gap replace inplace s = Err KeyError.
Proof.
  intros e s thr p gap replace inplace x R X N. unfold mark_events. assert (D : (if inplace then Ok s else ts_duplicate e s) = Ok s) by (destruct inplace; [reflexivity|apply ready_duplicate; exact R]). rewrite D. cbn [bind].
  destruct (s_items s) as [|x' r] eqn:I0; [discriminate|]. cbn in X. injection X as ->. unfold mark_items. cbn [length seq foldM]. unfold event_step at 1, event_at, item_at. cbn.
  unfold anomaly_of. destruct R as (_ & _ & _ & Dt & _). destruct (Dt x) as [d Dx]; [rewrite I0; left; reflexivity|]. cbn. rewrite Dx. rewrite dget_dset. cbn. rewrite N. reflexivity.
Qed.
Print Assumptions C58_needs_the_index.

(* A series with its anomaly index. *)
Definition pta (t a : Z) : item := set_idx (pt t 5) [("anomaly"%string, Some (qz a))].
Definition anomalies (l : list Z) : list item := map (fun ia => pta (10 * Z.of_nat (fst ia)) (snd ia)) (combine (seq 0 (length l)) l).
Lemma anomalies_at thr l i : anomalous (qz thr) (anomalies l) i <-> exists a, nth_error l i = Some a /\ (thr <= a)%Z.
Proof.
  assert (X : forall l k i, nth_error (map (fun ia => pta (10 * Z.of_nat (fst ia)) (snd ia)) (combine (seq k (length l)) l)) i = option_map (fun a => pta (10 * Z.of_nat (k + i)) a) (nth_error l i)).
  { clear. induction l as [|a l IH]; intros k [|i]; cbn [length seq combine map nth_error option_map fst snd]; [reflexivity|reflexivity|rewrite Nat.add_0_r; reflexivity|]. rewrite IH. rewrite Nat.add_succ_r. reflexivity. }
  unfold anomalous, anomalies. rewrite (X l 0 i). split.
  - intros (x & v & N & V & L). destruct (nth_error l i) as [a|]; [|discriminate]. cbn [option_map] in N. injection N as <-. cbn in V. injection V as <-. exists a. split; [reflexivity|]. apply qz_le_iff. exact L.
  - intros (a & -> & L). eexists _, (qz a). split; [reflexivity|]. split; [reflexivity|]. apply qz_le_iff. exact L.
Qed.
Definition run9 : list Z := [0; 1; 1; 0; 1; 0; 0; 1; 0; 0]%Z.
Lemma run9_items : s_items (ms (anomalies run9)) = anomalies run9.
Proof. vm_compute. reflexivity. Qed.
Lemma run9_ready : ready ideal_env (ms (anomalies run9)).
Proof.
  assert (E := run9_items). assert (D : dict_points (ms (anomalies run9))) by (apply one_label_dict; rewrite E; [discriminate|one_label_tac|vm_compute; reflexivity]).
  split; [exists None; rewrite E; vm_compute; reflexivity|]. split; [apply D|]. split; [left; apply D|]. split; [apply D|]. cbn. discriminate.
Qed.
Lemma anomalies_known l x : In x (anomalies l) -> with_anomaly x.
Proof. intros H. apply in_map_iff in H. destruct H as ([i a] & <- & _). split; [discriminate|eexists; reflexivity]. Qed.
(* from the second to the fifth item: an event, with a gap of one item; the eighth is on its own *)
Example C58_nonvacuous : ready ideal_env (ms (anomalies run9)) /\ (forall x, In x (s_items (ms (anomalies run9))) -> with_anomaly x) /\
  (forall i, i < 10 -> 10 <= i + 1 + 1 -> ~ anomalous q1 (s_items (ms (anomalies run9))) i) /\
  event (anomalous q1 (s_items (ms (anomalies run9)))) 10 1 1 4 /\
  exists s', mark_events ideal_env q1 2 1 false false (ms (anomalies run9)) = Ok s' /\
    map (fun x => dget "anomaly_event" (i_idx x)) (s_items s') = map (fun z => Some (Some (qz z))) [0; 1; 1; 1; 1; 0; 0; 0; 0; 0]%Z.
Proof.
  rewrite run9_items. split; [exact run9_ready|]. split; [apply anomalies_known|]. unfold q1. split; [|split; [|eexists; split; vm_compute; reflexivity]].
  - intros i L1 L2. rewrite (anomalies_at 1 run9 i). intros (a & N & A). assert (i = 8 \/ i = 9) as [-> | ->] by lia; injection N as <-; lia.
  - split; [lia|]. split; [apply anomalies_at; exists 1%Z; split; [reflexivity|lia]|]. split; [apply anomalies_at; exists 1%Z; split; [reflexivity|lia]|]. split; [|split].
    + intros k L1 L2. assert (k = 1 \/ k = 2 \/ k = 3) as [-> | [-> | ->]] by lia; [exists 1|exists 2|exists 4]; (split; [lia|apply anomalies_at; exists 1%Z; split; [reflexivity|lia]]).
    + intros j L1 L2. assert (j = 0) as -> by lia. rewrite (anomalies_at 1 run9 0). intros (a & N & A). injection N as <-. lia.
    + intros j L1 L2 L3. assert (j = 5 \/ j = 6) as [-> | ->] by lia; rewrite (anomalies_at 1 run9 _); intros (a & N & A); injection N as <-; lia.
Qed.
(* two anomalous items at the end: an event of two items which is not marked *)
Definition run4 : list Z := [0; 0; 1; 1]%Z.
Example C58_end_of_series_example : exists s', mark_events ideal_env q1 2 0 false false (ms (anomalies run4)) = Ok s' /\
  map (fun x => dget "anomaly_event" (i_idx x)) (s_items s') = map (fun z => Some (Some (qz z))) [0; 0; 0; 0]%Z.
Proof. eexists. split; vm_compute; reflexivity. Qed.
(* one anomalous item before the last one, with the default arguments *)
Definition run5 : list Z := [0; 0; 0; 1; 0]%Z.
Example C58_terminates_example : mark_events ideal_env q1 2 2 false false (ms (anomalies run5)) = Err IndexError.
Proof. vm_compute. reflexivity. Qed.
Example C58_replace_example : exists s', mark_events ideal_env q1 2 1 true false (ms (anomalies run9)) = Ok s' /\
  map (fun x => i_idx x) (s_items s') = map (fun z => [("anomaly"%string, Some (qz z))]) [0; 1; 1; 1; 1; 0; 0; 0; 0; 0]%Z.
Proof. eexists. split; vm_compute; reflexivity. Qed.
Example C58_needs_the_index_example : mark_events ideal_env q1 2 2 false false (ms gap6) = Err KeyError.
Proof. vm_compute. reflexivity. Qed.
