(* EventsProofs.v -- mark_events marks the events (C58). *)
From Verif Require Import SeriesProofs3 OpsProofs ReconProofs2 SaveProofs.
From Verif Require Export SpecEvents DictLemmas.
From Coq Require Import Lia.

Lemma dset_dset {V} k (v w : V) d : dset k v (dset k w d) = dset k v d.
Proof.
  induction d as [|[k' x] r IH]; cbn.
  - rewrite String.eqb_refl. reflexivity.
  - destruct (String.eqb k k') eqn:E; cbn; rewrite E; [reflexivity|f_equal; exact IH].
Qed.
Lemma set_event_twice v w x : set_event v (set_event w x) = set_event v x.
Proof. destruct x. unfold set_event, set_idx. cbn. rewrite dset_dset. reflexivity. Qed.
Lemma set_event_same_but v x : same_but "anomaly_event" x (set_event v x).
Proof.
  destruct x. unfold set_event, set_idx, same_but, same_shell, same_time. cbn. repeat split.
  intros k N. rewrite dget_dset. rewrite (proj2 (String.eqb_neq _ _) N). reflexivity.
Qed.
Lemma set_event_is v x : index_is "anomaly_event" v (set_event v x).
Proof. destruct x. unfold set_event, set_idx, index_is. cbn. rewrite dget_dset. reflexivity. Qed.
Lemma anomaly_of_set v x : anomaly_of (set_event v x) = anomaly_of x.
Proof. destruct x. unfold set_event, set_idx, anomaly_of. cbn. rewrite dget_dset. reflexivity. Qed.

(* The items before the position i have been given the event index E; the others are as they were. *)
Definition at_step (l0 : list item) (i : nat) (E : nat -> Qc) (l : list item) : Prop :=
  forall j, nth_error l j = option_map (fun x => if Nat.ltb j i then set_event (E j) x else x) (nth_error l0 j).
Definition upd (E : nat -> Qc) (k : nat) (v : Qc) (j : nat) : Qc := if Nat.eqb j k then v else E j.

Lemma at_step_length l0 i E l : at_step l0 i E l -> length l = length l0.
Proof.
  intros H. destruct (Nat.lt_trichotomy (length l) (length l0)) as [L|[L|L]]; [|exact L|].
  - assert (X := H (length l)). rewrite (proj2 (nth_error_None l (length l)) (le_n _)) in X.
    destruct (nth_error l0 (length l)) eqn:Y; [discriminate|]. apply nth_error_None in Y. lia.
  - assert (X := H (length l0)). rewrite (proj2 (nth_error_None l0 (length l0)) (le_n _)) in X. cbn in X. apply nth_error_None in X. lia.
Qed.
Lemma at_step_ext l0 i E E' l : (forall j, j < i -> E j = E' j) -> at_step l0 i E l -> at_step l0 i E' l.
Proof. intros X H j. rewrite (H j). destruct (Nat.ltb_spec j i) as [L|L]; [rewrite (X j L)|]; reflexivity. Qed.

Lemma event_at_nth v l j l' : event_at v l j = Ok l' ->
  forall k, nth_error l' k = if Nat.eqb k j then option_map (set_event v) (nth_error l j) else nth_error l k.
Proof.
  unfold event_at, item_at. destruct (nth_error l j) as [x|] eqn:N; cbn; [|discriminate]. intros H. injection H as <-. intros k.
  assert (L : j < length l) by (apply nth_error_Some; rewrite N; discriminate).
  assert (F : length (firstn j l) = j) by (rewrite firstn_length; lia).
  destruct (Nat.eqb_spec k j) as [->|NE].
  - rewrite nth_error_app2 by lia. rewrite F, Nat.sub_diag. reflexivity.
  - destruct (Nat.lt_ge_cases k j) as [K|K].
    + rewrite nth_error_app1 by lia. rewrite <- (firstn_skipn j l) at 2. rewrite nth_error_app1 by lia. reflexivity.
    + rewrite nth_error_app2 by lia. rewrite F. destruct (k - j) as [|d] eqn:D; [lia|]. cbn.
      rewrite <- (firstn_skipn (S j) l) at 2. assert (F2 : length (firstn (S j) l) = S j) by (rewrite firstn_length; lia).
      rewrite nth_error_app2 by lia. rewrite F2. f_equal. lia.
Qed.
Lemma event_at_defined v l j : j < length l -> exists l', event_at v l j = Ok l'.
Proof.
  intros L. unfold event_at, item_at. destruct (nth_error l j) eqn:N; cbn; [eauto|]. apply nth_error_None in N. lia.
Qed.
Lemma event_at_before l0 i E l v j : at_step l0 i E l -> j < i -> j < length l0 -> exists l', event_at v l j = Ok l' /\ at_step l0 i (upd E j v) l'.
Proof.
  intros H J L. destruct (event_at_defined v l j) as [l' X]; [rewrite (at_step_length _ _ _ _ H); exact L|]. exists l'. split; [exact X|].
  intros k. rewrite (event_at_nth _ _ _ _ X k). unfold upd. destruct (Nat.eqb_spec k j) as [->|NE].
  - rewrite (H j). destruct (nth_error l0 j); cbn [option_map]; [|reflexivity]. destruct (Nat.ltb_spec j i); [|lia]. rewrite set_event_twice. reflexivity.
  - rewrite (H k). reflexivity.
Qed.
Lemma event_at_here l0 i E l v : at_step l0 i E l -> i < length l0 -> exists l', event_at v l i = Ok l' /\ at_step l0 (S i) (upd E i v) l'.
Proof.
  intros H L. destruct (event_at_defined v l i) as [l' X]; [rewrite (at_step_length _ _ _ _ H); exact L|]. exists l'. split; [exact X|].
  intros k. rewrite (event_at_nth _ _ _ _ X k). unfold upd. destruct (Nat.eqb_spec k i) as [->|NE].
  - rewrite (H i). destruct (nth_error l0 i); cbn [option_map]; [|reflexivity]. destruct (Nat.ltb_spec i (S i)); [|lia]. destruct (Nat.ltb_spec i i); [lia|]. reflexivity.
  - rewrite (H k). destruct (nth_error l0 k); cbn [option_map]; [|reflexivity]. destruct (Nat.ltb_spec k (S i)), (Nat.ltb_spec k i); try lia; reflexivity.
Qed.
Lemma mark_range_ok l0 i : i <= length l0 -> forall m s E l, at_step l0 i E l -> s + m <= i ->
  exists l', mark_range l s m = Ok l' /\ at_step l0 i (fun j => if Nat.leb s j && Nat.ltb j (s + m) then q1 else E j) l'.
Proof.
  intros I0. induction m as [|m IH]; intros s E l H B.
  - exists l. split; [reflexivity|]. apply (at_step_ext _ _ E); [|exact H]. intros j _. destruct (Nat.leb_spec s j), (Nat.ltb_spec j (s + 0)); try lia; reflexivity.
  - destruct (event_at_before l0 i E l q1 s H) as (l1 & X & H1); [lia|lia|]. destruct (IH (S s) _ l1 H1) as (l2 & Y & H2); [lia|].
    exists l2. split.
    + unfold mark_range in *. cbn [seq foldM]. rewrite X. exact Y.
    + apply (at_step_ext _ _ _ _ _ (fun j L => eq_refl)) in H2. revert H2. apply at_step_ext. intros j _. unfold upd.
      destruct (Nat.leb_spec (S s) j), (Nat.ltb_spec j (S s + m)), (Nat.leb_spec s j), (Nat.ltb_spec j (s + S m)), (Nat.eqb_spec j s); cbn; try lia; reflexivity.
Qed.
Lemma mark_range_past l s m : s < length l < s + m -> mark_range l s m = Err IndexError.
Proof.
  revert l s. induction m as [|m IH]; intros l s [B1 B2]; [lia|]. destruct (event_at_defined q1 l s B1) as [l1 X].
  unfold mark_range in *. cbn [seq foldM]. rewrite X. cbn [bind].
  assert (L : length l1 = length l). { unfold event_at, item_at in X. destruct (nth_error l s) eqn:N; cbn [bind] in X; [|discriminate]. match type of X with Ok ?a = _ => assert (Y : l1 = a) by congruence end. rewrite Y.
    rewrite app_length. cbn [length]. rewrite firstn_length, skipn_length. lia. }
  destruct (Nat.eq_dec (length l) (S s)) as [Q|Q].
  - destruct m as [|m]; [lia|]. cbn [seq foldM]. unfold event_at, item_at. rewrite (proj2 (nth_error_None l1 (S s))) by lia. reflexivity.
  - apply IH. lia.
Qed.

(* ---------------- the steps of the loop ---------------- *)
Section Loop.
Variables (thr : Qc) (p : Z) (g : nat) (l0 : list item).
Hypothesis known : forall x, In x l0 -> with_anomaly x.
Let A := anomalous thr l0.
Let n := length l0.

Lemma value_at i E l j : at_step l0 i E l -> j < n -> exists v, (do y <- item_at l j; anomaly_of y) = Ok v /\ (Qcle thr v <-> A j).
Proof.
  intros H L. destruct (nth_error l0 j) as [x|] eqn:N; [|apply nth_error_None in N; unfold n in L; lia].
  destruct (known x (nth_error_In _ _ N)) as (D & v & V). exists v. split.
  - unfold item_at. rewrite (H j), N. cbn [option_map bind]. assert (X : anomaly_of x = Ok v). { unfold anomaly_of. destruct (i_data x); [|congruence]. rewrite V. reflexivity. }
    destruct (Nat.ltb j i); [rewrite anomaly_of_set|]; exact X.
  - split.
    + intros Q. exists x, v. repeat split; assumption.
    + intros (x' & v' & N' & V' & Q). rewrite N in N'. injection N' as <-. rewrite V in V'. injection V' as <-. exact Q.
Qed.
Lemma A_dec j : A j \/ ~ A j.
Proof.
  destruct (Nat.lt_ge_cases j n) as [L|L].
  - destruct (value_at 0 (fun _ => q0) l0 j) as (v & _ & X); [intros k; cbn; destruct (nth_error l0 k); reflexivity|exact L|].
    destruct (qleb_spec thr v) as [Q|Q]; [left; apply X; exact Q|right; intros Y; apply Q, X, Y].
  - right. intros (x & v & N & _). apply nth_error_None in L. congruence.
Qed.
Lemma A_lt j : A j -> j < n.
Proof. intros (x & v & N & _). apply nth_error_Some. congruence. Qed.

Lemma window_values i E l from m : at_step l0 i E l -> from + m <= n ->
  exists vs, mapM (fun j => do y <- item_at l j; anomaly_of y) (seq from m) = Ok vs /\ (existsb (qleb thr) vs = true <-> exists j, from <= j < from + m /\ A j).
Proof.
  intros H. revert from. induction m as [|m IH]; intros from B; cbn [seq mapM].
  - exists []. split; [reflexivity|]. split; [discriminate|]. intros (j & J & _). lia.
  - destruct (value_at i E l from H) as (v & X & Y); [lia|]. rewrite X. cbn [bind]. destruct (IH (S from)) as (vs & X' & Y'); [lia|]. rewrite X'. cbn [bind].
    exists (v :: vs). split; [reflexivity|]. cbn. rewrite Bool.orb_true_iff, Y'. split.
    + intros [Q|(j & J & Z)]; [|exists j; split; [lia|exact Z]]. destruct (qleb_spec thr v) as [Q'|]; [|discriminate]. exists from. split; [lia|apply Y; exact Q'].
    + intros (j & J & Z). destruct (Nat.eq_dec j from) as [->|NE]; [left; destruct (qleb_spec thr v) as [|Q']; [reflexivity|exfalso; apply Q', Y, Z]|right; exists j; split; [lia|exact Z]].
Qed.

(* The events which were over before the position k. *)
Definition closed (k j : nat) : Prop := exists a b, event A n g a b /\ b + g + 1 < k /\ (p <= Z.of_nat b - Z.of_nat a + 1)%Z /\ a <= j <= b.
Definition marks (E : nat -> Qc) (k : nat) (M : nat -> Prop) : Prop := forall j, j < k -> (M j /\ E j = q1) \/ (~ M j /\ E j = q0).
Definition suspect (k : nat) (start : option nat) : Prop :=
  match start with
  | None => forall j, j < k -> k <= j + g + 1 -> ~ A j
  | Some s => s < k /\ A s /\ (forall j, j < s -> s <= j + g + 1 -> ~ A j) /\ (forall t, s <= t -> t + g < k -> exists j, t <= j <= t + g /\ A j)
  end.

Lemma start_unique a a' b : event A n g a b -> event A n g a' b -> a = a'.
Proof.
  assert (X : forall a a', event A n g a b -> event A n g a' b -> a < a' -> False).
  { intros c c' (L & Ac & _ & W & _) (L' & _ & _ & _ & Left & _) C.
    destruct (Nat.le_gt_cases c' (c + g + 1)) as [D|D]; [exact (Left c C D Ac)|].
    destruct (W (c' - g - 1)) as (j & J & Y); [lia|lia|]. apply (Left j); [lia|lia|exact Y]. }
  intros E1 E2. destruct (Nat.lt_trichotomy a a') as [C|[C|C]]; [destruct (X a a' E1 E2 C)|exact C|destruct (X a' a E2 E1 C)].
Qed.

Lemma marks_iff E k M M' : (forall j, j < k -> (M j <-> M' j)) -> marks E k M -> marks E k M'.
Proof. intros X H j J. specialize (X j J). destruct (H j J) as [[Y Z]|[Y Z]]; [left|right]; split; tauto. Qed.

(* nothing closes at k: the new item carries no mark *)
Lemma marks_next E k : marks E k (closed k) -> (forall a b, event A n g a b -> b + g + 1 = k -> False) -> marks (upd E k q0) (S k) (closed (S k)).
Proof.
  intros H X j J. unfold upd. destruct (Nat.eqb_spec j k) as [->|NE].
  - right. split; [|reflexivity]. intros (a & b & _ & C & _ & B). lia.
  - assert (L : j < k) by lia. assert (Y : closed (S k) j <-> closed k j).
    { split; intros (a & b & Ev & C & P); exists a, b; (split; [exact Ev|split; [|exact P]]); [|lia]. destruct (Nat.eq_dec (b + g + 1) k) as [Q|Q]; [destruct (X a b Ev Q)|lia]. }
    destruct (H j L) as [[M V]|[M V]]; [left|right]; (split; [tauto|exact V]).
Qed.

Lemma step_ok k E l start : k < n -> at_step l0 k E l -> marks E k (closed k) -> suspect k start ->
  exists l' start' E', event_step thr p g (l, start) k = Ok (l', start') /\ at_step l0 (S k) E' l' /\ marks E' (S k) (closed (S k)) /\ suspect (S k) start'.
Proof.
  intros K H M Sp. unfold event_step. cbn [fst snd].
  destruct (event_at_here l0 k E l q0 H K) as (l1 & X1 & H1). rewrite X1. cbn [bind].
  destruct (value_at (S k) _ l1 k H1 K) as (v & X2 & Av). unfold item_at in X2 |- *. destruct (nth_error l1 k) as [x|]; cbn [bind] in X2 |- *; [|discriminate]. rewrite X2. cbn [bind].
  destruct (qleb_spec thr v) as [Q|Q].
  - (* anomalous *)
    assert (Ak : A k) by (apply Av; exact Q).
    assert (Q' : qltb v thr = false). { unfold qltb. fold (qleb thr v). destruct (qleb_spec thr v); [reflexivity|contradiction]. }
    assert (NC : forall a b, event A n g a b -> b + g + 1 = k -> False). { intros a b (_ & _ & _ & _ & _ & R) C. apply (R k); [lia|lia|exact K|exact Ak]. }
    destruct start as [s|].
    + rewrite Q'. exists l1, (Some s), (upd E k q0). split; [reflexivity|]. split; [exact H1|]. split; [apply marks_next; assumption|].
      destruct Sp as (S1 & S2 & S3 & S4). split; [lia|]. split; [exact S2|]. split; [exact S3|]. intros t T1 T2.
      destruct (Nat.eq_dec (t + g) k) as [C|C]; [exists k; split; [lia|exact Ak]|apply S4; lia].
    + rewrite Q'. exists l1, (Some k), (upd E k q0). split; [reflexivity|]. split; [exact H1|]. split; [apply marks_next; assumption|].
      split; [lia|]. split; [exact Ak|]. split; [|intros t T1 T2; exists k; split; [lia|exact Ak]]. intros j J1 J2. apply Sp; lia.
  - (* not anomalous *)
    assert (NA : ~ A k) by (intros Y; apply Q, Av, Y).
    assert (Q' : qltb v thr = true). { unfold qltb. fold (qleb thr v). destruct (qleb_spec thr v); [contradiction|reflexivity]. }
    destruct start as [s|].
    + rewrite Q'. destruct Sp as (S1 & S2 & S3 & S4). destruct (window_values (S k) _ l1 (k - g) (S k - (k - g)) H1) as (vs & X3 & Wv); [unfold n in *; lia|].
      unfold item_at in X3. rewrite X3. cbn [bind]. destruct (existsb (qleb thr) vs) eqn:Ex.
      * exists l1, (Some s), (upd E k q0). destruct (proj1 Wv eq_refl) as (j & J & Aj).
        assert (NC : forall a b, event A n g a b -> b + g + 1 = k -> False). { intros a b (_ & _ & _ & _ & _ & R) C. apply (R j); [lia|lia|lia|exact Aj]. }
        split; [reflexivity|]. split; [exact H1|]. split; [apply marks_next; assumption|]. split; [lia|]. split; [exact S2|]. split; [exact S3|].
        intros t T1 T2. destruct (Nat.eq_dec (t + g) k) as [C|C]; [exists j; split; [lia|exact Aj]|apply S4; lia].
      * assert (NW : forall j, k - g <= j <= k -> ~ A j). { intros j J Aj. assert (T : false = true) by (apply Wv; exists j; split; [lia|exact Aj]). discriminate. }
        assert (SK : s < k - g). { destruct (Nat.lt_ge_cases s (k - g)) as [C|C]; [exact C|]. destruct (NW s); [lia|exact S2]. }
        assert (Ab : A (k - g - 1)). { destruct (S4 (k - g - 1)) as (j & J & Aj); [lia|lia|]. destruct (Nat.eq_dec j (k - g - 1)) as [->|C]; [exact Aj|]. destruct (NW j); [lia|exact Aj]. }
        assert (Ev : event A n g s (k - g - 1)). { split; [lia|]. split; [exact S2|]. split; [exact Ab|]. split; [intros t T1 T2; apply S4; lia|]. split; [exact S3|]. intros j J1 J2 _. apply NW. lia. }
        assert (Sp' : suspect (S k) None) by (intros j J1 J2; apply NW; lia).
        destruct (Z.ltb_spec (Z.of_nat k - Z.of_nat g - Z.of_nat s) p) as [P|P].
        -- exists l1, None, (upd E k q0). split; [reflexivity|]. split; [exact H1|]. split; [|exact Sp'].
           intros j J. unfold upd. destruct (Nat.eqb_spec j k) as [->|NE].
           ++ right. split; [|reflexivity]. intros (a & b & _ & C & _ & B). lia.
           ++ assert (L : j < k) by lia. assert (Y : closed (S k) j <-> closed k j).
              { split; intros (a & b & Ev' & C & P' & B); exists a, b; (split; [exact Ev'|split; [|split; [exact P'|exact B]]]); [|lia]. destruct (Nat.eq_dec (b + g + 1) k) as [C'|C']; [|lia].
                assert (b = k - g - 1) by lia. subst b. rewrite (start_unique s a _ Ev Ev') in P. lia. }
              destruct (M j L) as [[M' V]|[M' V]]; [left|right]; (split; [tauto|exact V]).
        -- destruct (mark_range_ok l0 (S k) K (k - g - s) s _ l1 H1) as (l2 & X4 & H2); [lia|]. rewrite X4. cbn [bind].
           exists l2, None. eexists. split; [reflexivity|]. split; [exact H2|]. split; [|exact Sp']. cbn beta.
           intros j J. destruct (Nat.leb_spec s j) as [J1|J1]; cbn [andb]; [destruct (Nat.ltb_spec j (s + (k - g - s))) as [J2|J2]|].
           ++ left. split; [|reflexivity]. exists s, (k - g - 1). split; [exact Ev|]. split; [lia|]. split; [lia|lia].
           ++ unfold upd. destruct (Nat.eqb_spec j k) as [->|NE]; [right; split; [|reflexivity]; intros (a & b & _ & C & _ & B); lia|].
              right. split; [intros (a & b & _ & C & _ & B); lia|]. destruct (M j) as [[(a & b & _ & C & _ & B) _]|[_ V]]; [lia|lia|exact V].
           ++ unfold upd. destruct (Nat.eqb_spec j k) as [->|NE]; [lia|]. assert (L : j < k) by lia. assert (Y : closed (S k) j <-> closed k j).
              { split; intros (a & b & Ev' & C & P' & B); exists a, b; (split; [exact Ev'|split; [|split; [exact P'|exact B]]]); [|lia]. destruct (Nat.eq_dec (b + g + 1) k) as [C'|C']; [|lia].
                assert (b = k - g - 1) by lia. subst b. rewrite (start_unique s a _ Ev Ev') in J1. lia. }
              destruct (M j L) as [[M' V]|[M' V]]; [left|right]; (split; [tauto|exact V]).
    + exists l1, None, (upd E k q0). split; [reflexivity|]. split; [exact H1|]. split.
      * apply marks_next; [exact M|]. intros a b (_ & _ & Ab & _) C. apply (Sp b); [lia|lia|exact Ab].
      * intros j J1 J2. destruct (Nat.eq_dec j k) as [->|C]; [exact NA|apply Sp; lia].
Qed.

Lemma loop_ok : forall k, k <= n -> exists l start E, foldM (event_step thr p g) (seq 0 k) (l0, None) = Ok (l, start) /\ at_step l0 k E l /\ marks E k (closed k) /\ suspect k start.
Proof.
  induction k as [|k IH]; intros K.
  - exists l0, None, (fun _ => q0). split; [reflexivity|]. split; [intros j; cbn; destruct (nth_error l0 j); reflexivity|]. split; [intros j J; lia|intros j J; lia].
  - destruct IH as (l & start & E & X & H & M & Sp); [lia|]. destruct (step_ok k E l start K H M Sp) as (l' & start' & E' & X' & R).
    exists l', start', E'. split; [|exact R]. rewrite seq_S, foldM_app, X. cbn [bind Nat.add foldM]. rewrite X'. reflexivity.
Qed.

(* ---------------- the last event ---------------- *)
Lemma last_anomalous_ok E l d from : at_step l0 n E l -> forall m, from + m <= n ->
  exists b, last_anomalous thr l (rev (seq from m)) d = Ok b /\
    ((from <= b < from + m /\ A b /\ forall j, b < j < from + m -> ~ A j) \/ (b = d /\ forall j, from <= j < from + m -> ~ A j)).
Proof.
  intros H. induction m as [|m IH]; intros B.
  - exists d. split; [reflexivity|]. right. split; [reflexivity|]. intros j J. lia.
  - rewrite seq_S, rev_app_distr. cbn [rev app last_anomalous]. destruct (value_at n E l (from + m) H) as (v & X & Av); [lia|].
    destruct (item_at l (from + m)) as [x|]; cbn [bind] in X |- *; [|discriminate]. rewrite X. cbn [bind]. destruct (qleb_spec thr v) as [Q|Q].
    + exists (from + m). split; [reflexivity|]. left. split; [lia|]. split; [apply Av; exact Q|]. intros j J. lia.
    + destruct IH as (b & Y & Z); [lia|]. exists b. split; [exact Y|]. assert (NA : ~ A (from + m)) by (intros C; apply Q, Av, C).
      destruct Z as [(Z1 & Z2 & Z3)|(Z1 & Z2)]; [left|right].
      * split; [lia|]. split; [exact Z2|]. intros j J. destruct (Nat.eq_dec j (from + m)) as [->|C]; [exact NA|apply Z3; lia].
      * split; [exact Z1|]. intros j J. destruct (Nat.eq_dec j (from + m)) as [->|C]; [exact NA|apply Z2; lia].
Qed.

(* the marks at the end: those of the events over before the end, and those of the last one if it has more items than needed *)
Definition marked (j : nat) : Prop :=
  exists a b, event A n g a b /\ a <= j <= b /\ (over n g b -> (p <= Z.of_nat b - Z.of_nat a + 1)%Z) /\ (~ over n g b -> a < b /\ (p <= Z.of_nat b - Z.of_nat a)%Z).
(* the last item is the only one of an event, and the rest of the series is not shorter than the persistence *)
Definition alone_at_end : Prop := exists a, event A n g a a /\ ~ over n g a /\ (p <= Z.of_nat n - Z.of_nat a)%Z.

Lemma event_apart a b a' b' : event A n g a b -> event A n g a' b' -> (a = a' /\ b = b') \/ b < a' \/ b' < a.
Proof.
  intros E1 E2. assert (X : forall c d c' d', event A n g c d -> event A n g c' d' -> c' <= d -> d < d' -> False).
  { intros c d c' d' F1 F2 C D. destruct F1 as (_ & _ & Ad & _ & _ & R). destruct F2 as (L & _ & Ad' & W & _).
    destruct (Nat.le_gt_cases d' (d + g + 1)) as [B|B]; [apply (R d'); [lia|lia|lia|exact Ad']|].
    destruct (W (d + 1)) as (j & J & Y); [lia|lia|]. apply (R j); [lia|lia|lia|exact Y]. }
  destruct (Nat.lt_ge_cases b a') as [C|C]; [tauto|]. destruct (Nat.lt_ge_cases b' a) as [D|D]; [tauto|].
  destruct (Nat.lt_trichotomy b b') as [B|[B|B]]; [destruct (X a b a' b' E1 E2 C B)| |destruct (X a' b' a b E2 E1 D B)].
  subst b'. left. split; [apply (start_unique a a' b E1 E2)|reflexivity].
Qed.

Lemma end_ok : (~ alone_at_end -> exists l E, (do st <- foldM (event_step thr p g) (seq 0 n) (l0, None); last_event thr p (fst st) (snd st)) = Ok l /\ at_step l0 n E l /\ marks E n marked) /\
  (alone_at_end -> (do st <- foldM (event_step thr p g) (seq 0 n) (l0, None); last_event thr p (fst st) (snd st)) = Err IndexError).
Proof.
  destruct (loop_ok n (le_n n)) as (l & start & E & X & H & M & Sp). rewrite X. cbn [bind fst snd]. unfold last_event.
  destruct start as [s|].
  - destruct Sp as (S1 & S2 & S3 & S4). destruct (last_anomalous_ok E l (length l) (S s) H (length l - S s)) as (b & Y & Z); [rewrite (at_step_length _ _ _ _ H); fold n; lia|].
    rewrite Y. cbn [bind]. assert (L := at_step_length _ _ _ _ H). fold n in L. rewrite L in Z.
    replace (S s + (n - S s)) with n in Z by lia. destruct Z as [(Z1 & Z2 & Z3)|(Z1 & Z2)].
    + assert (NO : ~ over n g b). { intros O. unfold over in O. destruct (S4 (b + 1)) as (j & J & Aj); [lia|lia|]. apply (Z3 j); [lia|exact Aj]. }
      assert (Ev : event A n g s b). { split; [lia|]. split; [exact S2|]. split; [exact Z2|]. split; [intros t T1 T2; apply S4; lia|]. split; [exact S3|]. intros j J1 J2 J3. apply Z3. lia. }
      assert (NL : ~ alone_at_end). { intros (a & Ea & Na & _). destruct (event_apart _ _ _ _ Ev Ea) as [C|[C|C]]; [lia|unfold over in *; destruct Ea as (? & Aa & _); apply (Z3 a); [lia|exact Aa]|unfold over in *].
        destruct Ev as (_ & As & _), Ea as (_ & _ & _ & _ & _ & R). apply (R s); [lia|lia|lia|exact As]. }
      split; [intros _|intros C; contradiction].
      assert (PC : forall j, closed n j -> marked j). { intros j (a & c & Ec & C & P & B). exists a, c. split; [exact Ec|]. split; [exact B|]. split; [intros _; exact P|intros O; destruct (O C)]. }
      assert (SB : forall a c, event A n g a c -> (c + g + 1 < n) \/ (a = s /\ c = b)).
      { intros a c Ec. destruct (event_apart _ _ _ _ Ev Ec) as [[C1 C2]|[C|C]]; [right; split; congruence| |].
        - destruct Ec as (? & Aa & _). exfalso. apply (Z3 a); [lia|exact Aa].
        - left. destruct Ec as (_ & _ & _ & _ & _ & R). destruct (Nat.lt_ge_cases (c + g + 1) n) as [D|D]; [exact D|]. exfalso. apply (R s); [lia|lia|lia|exact S2]. }
      destruct (Z.ltb_spec (Z.of_nat b - Z.of_nat s) p) as [P|P].
      * exists l, E. split; [reflexivity|]. split; [exact H|]. revert M. apply marks_iff. intros j J. split; [apply PC|].
        intros (a & c & Ec & B & O1 & O2). destruct (SB a c Ec) as [C|[-> ->]]; [exists a, c; split; [exact Ec|split; [exact C|split; [apply O1; exact C|exact B]]]|]. destruct (O2 NO) as [_ P']. lia.
      * destruct (mark_range_ok l0 n (le_n n) (S b - s) s E l H) as (l2 & X4 & H2); [lia|]. exists l2. eexists. split; [exact X4|]. split; [exact H2|]. cbn beta.
        intros j J. destruct (Nat.leb_spec s j) as [J1|J1]; cbn [andb]; [destruct (Nat.ltb_spec j (s + (S b - s))) as [J2|J2]|].
        -- left. split; [|reflexivity]. exists s, b. split; [exact Ev|]. split; [lia|]. split; [intros O; contradiction|]. intros _. split; lia.
        -- assert (Q : closed n j <-> marked j). { split; [apply PC|]. intros (a & c & Ec & B & O1 & O2). destruct (SB a c Ec) as [C|[-> ->]]; [exists a, c; split; [exact Ec|split; [exact C|split; [apply O1; exact C|exact B]]]|lia]. }
           destruct (M j J) as [[M' V]|[M' V]]; [left|right]; (split; [tauto|exact V]).
        -- assert (Q : closed n j <-> marked j). { split; [apply PC|]. intros (a & c & Ec & B & O1 & O2). destruct (SB a c Ec) as [C|[-> ->]]; [exists a, c; split; [exact Ec|split; [exact C|split; [apply O1; exact C|exact B]]]|lia]. }
           destruct (M j J) as [[M' V]|[M' V]]; [left|right]; (split; [tauto|exact V]).
    + subst b. assert (Ev : event A n g s s). { split; [lia|]. split; [exact S2|]. split; [exact S2|]. split; [intros t T1 T2; exists s; split; [lia|exact S2]|]. split; [exact S3|]. intros j J1 J2 J3. apply Z2. lia. }
      assert (NO : ~ over n g s). { intros O. unfold over in O. destruct (S4 (s + 1)) as (j & J & Aj); [lia|lia|]. apply (Z2 j); [lia|exact Aj]. }
      assert (PC : forall j, closed n j -> marked j). { intros j (a & c & Ec & C & P & B). exists a, c. split; [exact Ec|]. split; [exact B|]. split; [intros _; exact P|intros O; destruct (O C)]. }
      assert (SB : forall a c, event A n g a c -> (c + g + 1 < n) \/ (a = s /\ c = s)).
      { intros a c Ec. destruct (event_apart _ _ _ _ Ev Ec) as [[C1 C2]|[C|C]]; [right; split; congruence| |].
        - destruct Ec as (? & Aa & _). exfalso. apply (Z2 a); [lia|exact Aa].
        - left. destruct Ec as (_ & _ & _ & _ & _ & R). destruct (Nat.lt_ge_cases (c + g + 1) n) as [D|D]; [exact D|]. exfalso. apply (R s); [lia|lia|lia|exact S2]. }
      destruct (Z.ltb_spec (Z.of_nat n - Z.of_nat s) p) as [P|P].
      * split.
        -- intros _. exists l, E. split; [reflexivity|]. split; [exact H|]. revert M. apply marks_iff. intros j J. split; [apply PC|].
           intros (a & c & Ec & B & O1 & O2). destruct (SB a c Ec) as [C|[-> ->]]; [exists a, c; split; [exact Ec|split; [exact C|split; [apply O1; exact C|exact B]]]|]. destruct (O2 NO) as [C _]. lia.
        -- intros (a & Ea & Na & Pa). destruct (SB a a Ea) as [C|[-> _]]; [destruct (Na C)|lia].
      * split.
        -- intros NL. destruct NL. exists s. split; [exact Ev|]. split; [exact NO|exact P].
        -- intros _. apply mark_range_past. lia.
  - assert (SB : forall a b, event A n g a b -> over n g b). { intros a b (L & _ & Ab & _). destruct (Nat.lt_ge_cases (b + g + 1) n) as [D|D]; [exact D|]. exfalso. apply (Sp b); [lia|lia|exact Ab]. }
    split.
    + intros _. exists l, E. split; [reflexivity|]. split; [exact H|]. revert M. apply marks_iff. intros j J. split.
      * intros (a & c & Ec & C & P & B). exists a, c. split; [exact Ec|]. split; [exact B|]. split; [intros _; exact P|intros O; destruct (O C)].
      * intros (a & c & Ec & B & O1 & O2). exists a, c. split; [exact Ec|]. assert (O := SB a c Ec). split; [exact O|]. split; [apply O1; exact O|exact B].
    + intros (a & Ea & Na & _). destruct (Na (SB a a Ea)).
Qed.
End Loop.
