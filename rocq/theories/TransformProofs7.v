(* TransformProofs7.v -- the loop of the process. *)
From Verif Require Import SpecIntervals BaseLemmas AccessProofs AccessProofs3 DictLemmas OpsProofs OpsProofs2 OpsProofs3
  IntervalsProofs IntervalsProofs2 IntervalsProofs3 InterpProofs Transform TransformProofs TransformProofs2 TransformProofs3 TransformProofs4 TransformProofs5 TransformProofs6.

Fixpoint grid (c : cal) (u : tunit) (from : Qc) (k : nat) : Qc :=
  match k with 0 => from | S j => unit_shift c u (grid c u from j) 1 end.

Section Loop.
Variables (P : tparams) (s : series) (names : list string) (auto : result Qc) (si from to : Qc) (ts : list Qc).
Let g := grid (tp_cal P) (tp_unit P) from.
Hypothesis Hinc : forall t, Qclt t (unit_shift (tp_cal P) (tp_unit P) t 1).
Hypothesis Hsi : strictly_increasing ts.
Hypothesis H0 : forall t, nth_error ts 0 = Some t -> Qcle t from.
Variable Kmax : nat.
Hypothesis Hreach : forall t, In t ts -> Qclt t (g Kmax).
Variable Same : list vpoint -> Prop.
Variable R : nat -> item -> Prop.
Hypothesis Same_times : forall pts, Same pts -> map tm pts = ts.

(* closing slot k when point i arrives *)
Definition at_slot (k : nat) (prev : option nat) (i : nat) : Prop :=
  (exists t, nth_error ts i = Some t /\ Qcle (g (S k)) t) /\
  (forall j t, j < i -> nth_error ts j = Some t -> Qclt t (g (S k))) /\
  match prev with
  | Some j => j < i /\ (forall t, nth_error ts j = Some t -> Qclt t (g k)) /\ (forall j' t, j < j' < i -> nth_error ts j' = Some t -> Qcle (g k) t)
  | None => k = 0 /\ 0 < i /\ (forall j t, j < i -> nth_error ts j = Some t -> Qcle (g k) t)
  end.
Hypothesis EMIT : forall pts k prev i first, Same pts -> at_slot k prev i ->
  exists fl pts' x, slot_bounds pts (g k) (g (S k)) prev i = Ok fl /\
    compute_new P s names auto si first pts (g k) (g (S k)) (fst fl) (snd fl) prev i = Ok (pts', x) /\ Same pts' /\ R k x.
Hypothesis OUT : forall xs, (forall j x, nth_error xs j = Some x -> R j x) -> exists o, ts_new (tp_env P) None xs = Ok o.

Lemma g_step k : Qclt (g k) (g (S k)).
Proof. apply Hinc. Qed.
Lemma g_mono j k : j < k -> Qclt (g j) (g k).
Proof. intros H. induction H as [|k H IH]; [apply g_step|]. pose proof (g_step k). qlra. Qed.
Lemma g_le j k : j <= k -> Qcle (g j) (g k).
Proof. intros H. apply Nat.le_lteq in H. destruct H as [H| ->]; [apply Qclt_le_weak, g_mono, H|apply Qcle_refl]. Qed.
Lemma g_lt_inv j k : Qclt (g j) (g k) -> j < k.
Proof. intros H. destruct (Nat.lt_ge_cases j k) as [K|K]; [exact K|]. apply g_le in K. exfalso. qlra. Qed.

Definition outs_ok (o : series) (k : nat) : Prop :=
  ts_new (tp_env P) None (s_items o) = Ok o /\ length (s_items o) = k /\ forall j x, nth_error (s_items o) j = Some x -> R j x.
Lemma append_ok o k x : outs_ok o k -> R k x -> exists o', ts_append (tp_env P) o x = (o', Ok tt) /\ outs_ok o' (S k).
Proof.
  intros (E & Ek & Er) Hx. destruct (OUT (s_items o ++ [x])) as (o' & Eo').
  { intros j y Hy. destruct (Nat.lt_ge_cases j (length (s_items o))) as [K|K].
    - rewrite nth_error_app1 in Hy by exact K. apply Er. exact Hy.
    - rewrite nth_error_app2 in Hy by exact K. destruct (j - length (s_items o)) as [|n] eqn:En; [|destruct n; discriminate]. cbn in Hy. injection Hy as <-. replace j with k by lia. exact Hx. }
  pose proof Eo' as Eo2. unfold ts_new in Eo2. fold (append_or_raise (tp_env P)) in Eo2. rewrite foldM_app in Eo2. unfold ts_new in E. fold (append_or_raise (tp_env P)) in E. rewrite E in Eo2. cbn in Eo2.
  unfold append_or_raise in Eo2. destruct (ts_append (tp_env P) o x) as [o1 [[]|er]] eqn:Ea; cbn in Eo2; [|discriminate]. injection Eo2 as ->. exists o'. split; [reflexivity|].
  pose proof (ts_new_items _ _ _ _ Eo') as Ei. unfold outs_ok. rewrite Ei. split; [exact Eo'|split; [rewrite app_length; cbn; lia|]].
  intros j y Hy. destruct (Nat.lt_ge_cases j (length (s_items o))) as [K|K].
  - rewrite nth_error_app1 in Hy by exact K. apply Er. exact Hy.
  - rewrite nth_error_app2 in Hy by exact K. destruct (j - length (s_items o)) as [|n] eqn:En; [|destruct n; discriminate]. cbn in Hy. injection Hy as <-. replace j with k by lia. exact Hx.
Qed.

Definition prev_ok (k i : nat) (prev : option nat) : Prop :=
  match prev with
  | Some j => j < i /\ (forall t, nth_error ts j = Some t -> Qclt t (g k)) /\ (forall j' t, j < j' < i -> nth_error ts j' = Some t -> Qcle (g k) t)
  | None => k = 0 /\ (forall j t, j < i -> nth_error ts j = Some t -> Qcle (g k) t)
  end.
(* slot k is open, the points before i have been seen *)
Definition running (k i : nat) (st : tstate) : Prop :=
  st_start st = Some (g k) /\ st_end st = g (S k) /\ outs_ok (st_out st) k /\ Same (st_pts st) /\
  (forall j t, j < i -> nth_error ts j = Some t -> Qclt t (g (S k))) /\ prev_ok k i (st_prev st).
Definition before (i : nat) (st : tstate) : Prop :=
  st_start st = None /\ st_end st = from /\ outs_ok (st_out st) 0 /\ Same (st_pts st) /\ st_ended st = false /\
  (forall j t, j < i -> nth_error ts j = Some t -> Qclt t from) /\ st_prev st = match i with 0 => None | S j => Some j end.

Lemma nth_times pts j p : Same pts -> nth_error pts j = Some p -> nth_error ts j = Some (tm p).
Proof. intros S H. rewrite <- (Same_times pts S), nth_error_map, H. reflexivity. Qed.
Lemma times_nth_inv pts j t : Same pts -> nth_error ts j = Some t -> exists p, nth_error pts j = Some p /\ tm p = t.
Proof. intros S H. rewrite <- (Same_times pts S), nth_error_map in H. destruct (nth_error pts j) as [p|]; [|discriminate]. injection H as <-. eauto. Qed.

Lemma spin_ok i t : nth_error ts i = Some t -> forall n fuel k st, Kmax - k = n -> n < fuel -> running k i st -> (0 < i \/ Qclt t (g (S k))) ->
  exists st' k', spin fuel P s names auto si i t st = Ok st' /\ running k' i st' /\ Qclt t (g (S k')) /\ st_ended st' = st_ended st /\ (k' = k \/ Qcle (g k') t).
Proof.
  intros Ht. induction n as [n IH] using lt_wf_ind. intros fuel k st Hn Hf HR Hi. destruct HR as (R1 & R2 & R3 & R4 & R5 & R6).
  destruct fuel as [|fuel]; [lia|]. cbn [spin]. rewrite R2. destruct (qleb_spec (g (S k)) t) as [K|K].
  - rewrite R1. destruct Hi as [Hi|Hi]; [|exfalso; qlra].
    assert (AS : at_slot k (st_prev st) i).
    { split; [exists t; auto|split; [exact R5|]]. unfold prev_ok in R6. destruct (st_prev st) as [j|]; [exact R6|]. destruct R6 as [R6 R7]. auto. }
    destruct (EMIT (st_pts st) k (st_prev st) i (st_first st) R4 AS) as (fl & pts' & x & E1 & E2 & E3 & E4).
    unfold close_slot. rewrite R2, E1. cbn [bind]. rewrite E2. cbn [bind fst snd]. destruct (append_ok (st_out st) k x R3 E4) as (o' & Ea & Ho'). rewrite Ea. cbn [bind].
    assert (Kk : k < Kmax). { apply g_lt_inv. pose proof (Hreach t (nth_error_In _ _ Ht)). pose proof (g_step k). qlra. }
    destruct i as [|i]; [lia|].
    assert (Hti : exists ti, nth_error ts i = Some ti) by (destruct (nth_error ts i) eqn:X; [eauto|]; apply nth_error_None in X; assert (Y : nth_error ts (S i) <> None) by congruence; apply nth_error_Some in Y; lia).
    destruct Hti as (ti & Hti). destruct (times_nth_inv pts' i ti E3 Hti) as (pi & Hpi & Epi).
    destruct (IH (Kmax - S k)) with (fuel := fuel) (k := S k) (st := spin_slot P (S i) (mkSt pts' (Some (g k)) (st_end st) (st_prev st) (st_ended st) false o')) as (st' & k' & F1 & F2 & F3 & F4 & F5).
    + lia.
    + reflexivity.
    + lia.
    + unfold spin_slot. cbn [st_pts st_end st_start st_prev st_ended st_first st_out]. rewrite R2, Hpi. fold (tm pi). rewrite Epi.
      rewrite qltb_true by (apply (R5 i); [lia|exact Hti]). split; [reflexivity|split; [reflexivity|split; [exact Ho'|split; [exact E3|split]]]].
      * intros j tj Hj Hjt. pose proof (R5 j tj Hj Hjt). pose proof (g_step (S k)). qlra.
      * cbn [st_prev prev_ok]. split; [lia|split; [intros t' Ht'; apply (R5 i); [lia|exact Ht']|intros j' t' X; lia]].
    + left. lia.
    + rewrite R2 in F1. exists st', k'. split; [exact F1|split; [exact F2|split; [exact F3|split; [exact F4|]]]]. right. destruct F5 as [-> |F5]; [exact K|exact F5].
  - exists st, k. split; [reflexivity|]. split; [repeat split; try assumption; apply R3|]. split; [apply Qcnot_le_lt; exact K|]. auto.
Qed.

(* the state after the points before i0; the others did not change it, as the end was reached *)
Definition ended_at (k i0 : nat) : Prop := exists j t, j < i0 /\ nth_error ts j = Some t /\ Qcle to t /\ Qcle (g k) t /\
  (forall j' t', j' < j -> nth_error ts j' = Some t' -> Qclt t' from \/ exists k', Qclt (g k') to /\ Qclt t' (g (S k'))).
Definition good_state (i0 : nat) (st : tstate) : Prop :=
  before i0 st \/ exists k, running k i0 st /\ (exists j t, j < i0 /\ nth_error ts j = Some t /\ Qcle (g k) t) /\
    (Qcle to (g k) -> st_ended st = true) /\ (st_ended st = true -> ended_at k i0).
Definition inv (i : nat) (st : tstate) : Prop := exists i0, i0 <= i /\ good_state i0 st /\ (i0 = i \/ st_ended st = true).

Lemma ended_to i0 st : good_state i0 st -> st_ended st = true -> exists j t, j < i0 /\ nth_error ts j = Some t /\ Qcle to t.
Proof. intros [B|(k & _ & _ & _ & H)] E; [destruct B as (_ & _ & _ & _ & X & _); congruence|]. destruct (H E) as (j & t & H1 & H2 & H3 & _). eauto. Qed.

Lemma process_ok fuel i t st : Kmax + 1 < fuel -> nth_error ts i = Some t -> inv i st ->
  exists st', process_point fuel P s names auto si from to st (i, t) = Ok st' /\ inv (S i) st'.
Proof.
  intros Hf Ht (i0 & Hi0 & G & C). unfold process_point.
  assert (Frozen : st_ended st = true -> qltb t from = false /\ qleb to t = true).
  { intros E. destruct (ended_to i0 st G E) as (j & tj & K1 & K2 & K3). assert (L : Qclt tj t) by (apply (Hsi j i); [lia|exact K2|exact Ht]). split; [|apply qleb_true; qlra].
    apply qltb_false. destruct G as [B|(k & Rk & (j2 & t2 & K4 & K5 & K6) & _)]; [destruct B as (_ & _ & _ & _ & X & _); congruence|].
    assert (L2 : Qclt t2 t) by (apply (Hsi j2 i); [lia|exact K5|exact Ht]). pose proof (g_le 0 k (Nat.le_0_l k)) as X. change (g 0) with from in X. qlra. }
  destruct (st_ended st) eqn:Ee.
  { destruct (Frozen eq_refl) as [-> ->]. cbn [andb]. exists st. split; [reflexivity|]. exists i0. split; [lia|]. split; [exact G|right; exact Ee]. }
  destruct C as [-> |C]; [|congruence]. rewrite andb_false_r.
  destruct (qltb_spec t from) as [L|L].
  - (* before the start *)
    eexists. split; [reflexivity|]. exists (S i). split; [lia|]. split; [|left; reflexivity].
    destruct G as [(B1 & B2 & B3 & B4 & B5 & B6 & B7)|(k & Rk & (j & tj & K4 & K5 & K6) & _)].
    + left. cbn [st_start st_end st_out st_pts st_ended st_prev]. split; [exact B1|split; [exact B2|split; [exact B3|split; [exact B4|split; [reflexivity|split; [|reflexivity]]]]]].
      intros j tj Hj Hjt. destruct (Nat.eq_dec j i) as [-> |N]; [congruence|]. apply (B6 j); [lia|exact Hjt].
    + exfalso. assert (L2 : Qclt tj t) by (apply (Hsi j i); [lia|exact K5|exact Ht]). pose proof (g_le 0 k (Nat.le_0_l k)) as X. change (g 0) with from in X. qlra.
  - assert (Spun : forall k st1 st', running k i st1 -> (0 < i \/ Qclt t (g (S k))) ->
       (forall j' t', j' < i -> nth_error ts j' = Some t' -> Qclt t' from \/ exists k', Qclt (g k') to /\ Qclt t' (g (S k'))) ->
       st_ended st1 = false -> Qcle (g k) t -> spin fuel P s names auto si i t st1 = Ok st' ->
       inv (S i) (mkSt (st_pts st') (st_start st') (st_end st') (st_prev st') (st_ended st' || qleb to t) (st_first st') (st_out st'))).
    { intros k st1 st' HR Hi Hbef He Hkt Hs.
      destruct (spin_ok i t Ht (Kmax - k) fuel k st1 eq_refl) as (st2 & k' & F1 & F2 & F3 & F4 & F5); [lia|exact HR|exact Hi|]. rewrite Hs in F1. injection F1 as <-.
      assert (Kt : Qcle (g k') t) by (destruct F5 as [-> |F5]; assumption).
      exists (S i). split; [lia|]. split; [|left; reflexivity]. right. exists k'. destruct F2 as (R1 & R2 & R3 & R4 & R5 & R6). cbn [st_start st_end st_out st_pts st_ended st_prev].
      split; [split; [exact R1|split; [exact R2|split; [exact R3|split; [exact R4|split]]]]|split; [|split]].
      - intros j tj Hj Hjt. destruct (Nat.eq_dec j i) as [-> |N]; [congruence|]. apply (R5 j); [lia|exact Hjt].
      - cbn [st_prev]. unfold prev_ok in *. destruct (st_prev st') as [j|].
        + destruct R6 as (Q1 & Q2 & Q3). split; [lia|split; [exact Q2|]]. intros j' tj' Hj' Hjt'. destruct (Nat.eq_dec j' i) as [-> |N]; [congruence|]. apply (Q3 j'); [lia|exact Hjt'].
        + destruct R6 as (Q1 & Q2). split; [exact Q1|]. intros j' tj' Hj' Hjt'. destruct (Nat.eq_dec j' i) as [-> |N]; [congruence|]. apply (Q2 j'); [lia|exact Hjt'].
      - exists i, t. split; [lia|auto].
      - intros X. apply orb_true_iff. right. apply qleb_true. qlra.
      - rewrite F4, He. cbn [orb]. intros X. destruct (qleb_spec to t) as [Y|Y]; [|discriminate]. exists i, t. split; [lia|split; [exact Ht|split; [exact Y|split; [exact Kt|exact Hbef]]]]. }
    destruct G as [(B1 & B2 & B3 & B4 & B5 & B6 & B7)|(k & Rk & HX & HE & HD)].
    + (* the first point not before the start *)
      rewrite B2. rewrite qleb_true by (apply Qcnot_lt_le; exact L).
      assert (Hi : 0 < i \/ Qclt t (g 1)).
      { destruct i as [|i]; [|left; lia]. right. pose proof (H0 t Ht). pose proof (g_step 0) as X. change (g 0) with from in X. qlra. }
      assert (HR : running 0 i (spin_slot P i st)).
      { unfold spin_slot. rewrite B2. split; [reflexivity|split; [reflexivity|]]. cbn [st_out st_pts st_prev]. split; [exact B3|split; [exact B4|split]].
        - intros j tj Hj Hjt. pose proof (B6 j tj Hj Hjt). pose proof (g_step 0) as X. change (g 0) with from in X. qlra.
        - destruct i as [|i]; cbn [st_prev].
          + rewrite B7. cbn. split; [reflexivity|]. intros j tj X. lia.
          + assert (Hti : exists ti, nth_error ts i = Some ti) by (destruct (nth_error ts i) eqn:X; [eauto|]; apply nth_error_None in X; assert (Y : nth_error ts (S i) <> None) by congruence; apply nth_error_Some in Y; lia).
            destruct Hti as (ti & Hti). destruct (times_nth_inv (st_pts st) i ti B4 Hti) as (pi & Hpi & Epi). rewrite Hpi. fold (tm pi). rewrite Epi.
            rewrite qltb_true by (apply (B6 i); [lia|exact Hti]). cbn. split; [lia|split; [intros t' Ht'; apply (B6 i); [lia|exact Ht']|intros j' t' X; lia]]. }
      destruct (spin_ok i t Ht (Kmax - 0) (fuel - 1) 0 (spin_slot P i st) eq_refl) as (st2 & k' & F1 & F2 & F3 & F4 & F5); [lia|exact HR|exact Hi|].
      assert (Es : spin fuel P s names auto si i t st = Ok st2).
      { destruct fuel as [|fuel]; [lia|]. cbn [spin]. rewrite B2, B1. rewrite qleb_true by (apply Qcnot_lt_le; exact L). cbn [bind]. replace (S fuel - 1) with fuel in F1 by lia. exact F1. }
      rewrite Es. cbn [bind]. eexists. split; [reflexivity|]. 
      assert (Es2 : spin fuel P s names auto si i t (spin_slot P i st) = Ok st2).
      { destruct (spin_ok i t Ht (Kmax - 0) fuel 0 (spin_slot P i st) eq_refl) as (st3 & k3 & F31 & _); [lia|exact HR|exact Hi|]. rewrite F31. f_equal.
        clear - F1 F31 Hf. assert (M : forall f st a, spin f P s names auto si i t st = Ok a -> spin (S f) P s names auto si i t st = Ok a).
        { induction f as [|f IHf]; intros st1 a X; cbn [spin] in *.
          - destruct (qleb (st_end st1) t); [discriminate|exact X].
          - destruct (qleb (st_end st1) t); [|exact X]. destruct (match st_start st1 with Some a0 => close_slot P s names auto si i st1 a0 | None => Ok st1 end) as [st4|]; [|discriminate]. cbn [bind] in *. apply IHf. exact X. }
        destruct fuel as [|fuel]; [lia|]. replace (S fuel - 1) with fuel in F1 by lia. apply M in F1. congruence. }
      apply (Spun 0 (spin_slot P i st) st2 HR Hi).
      * intros j' t' Hj' Hjt'. left. apply (B6 j'); assumption.
      * cbn. exact B5.
      * change (g 0) with from. qlra.
      * exact Es2.
    + pose proof Rk as (R1 & R2 & R3 & R4 & R5 & R6). rewrite R2. destruct (qleb_spec (g (S k)) t) as [K|K].
      * destruct HX as (jx & tx & HX1 & HX2 & HX3). assert (Hi : 0 < i \/ Qclt t (g (S k))) by (left; lia).
        destruct (spin_ok i t Ht (Kmax - k) fuel k st eq_refl) as (st2 & k' & F1 & F2 & F3 & F4 & F5); [lia|exact Rk|exact Hi|].
        rewrite F1. cbn [bind]. eexists. split; [reflexivity|]. apply (Spun k st st2 Rk Hi).
        -- intros j' t' Hj' Hjt'. right. exists k. split; [|apply (R5 j'); assumption]. apply Qcnot_le_lt. intros X. specialize (HE X). congruence.
        -- exact Ee.
        -- pose proof (g_step k). qlra.
        -- exact F1.
      * exists st. split; [reflexivity|]. exists (S i). split; [lia|]. split; [|left; reflexivity]. right. exists k. destruct HX as (jx & tx & HX1 & HX2 & HX3). split; [|split; [exists jx, tx; split; [lia|auto]|split; [exact HE|intros X; congruence]]].
        split; [exact R1|split; [exact R2|split; [exact R3|split; [exact R4|split]]]].
        -- intros j tj Hj Hjt. destruct (Nat.eq_dec j i) as [-> |N]; [assert (tj = t) by congruence; subst; apply Qcnot_le_lt; exact K|]. apply (R5 j); [lia|exact Hjt].
        -- assert (Lt : Qcle (g k) t) by (assert (L2 : Qclt tx t) by (apply (Hsi jx i); [lia|exact HX2|exact Ht]); qlra). unfold prev_ok in *. destruct (st_prev st) as [j|].
           ++ destruct R6 as (Q1 & Q2 & Q3). split; [lia|split; [exact Q2|]]. intros j' tj' Hj' Hjt'. destruct (Nat.eq_dec j' i) as [-> |N]; [congruence|]. apply (Q3 j'); [lia|exact Hjt'].
           ++ destruct R6 as (Q1 & Q2). split; [exact Q1|]. intros j' tj' Hj' Hjt'. destruct (Nat.eq_dec j' i) as [-> |N]; [congruence|]. apply (Q2 j'); [lia|exact Hjt'].
Qed.

Lemma fold_ok fuel : Kmax + 1 < fuel -> forall l i st, (forall j x, nth_error l j = Some x -> nth_error ts (i + j) = Some (snd x) /\ fst x = i + j) -> inv i st ->
  exists st', foldM (process_point fuel P s names auto si from to) l st = Ok st' /\ inv (i + length l) st'.
Proof.
  intros Hf. induction l as [|[n t] l IH]; intros i st H I; [exists st; rewrite Nat.add_0_r; auto|]. cbn [foldM].
  destruct (H 0 (n, t) eq_refl) as [A B]. rewrite Nat.add_0_r in A, B. cbn in A, B. subst n.
  destruct (process_ok fuel i t st Hf A I) as (st1 & E1 & I1). rewrite E1. cbn [bind].
  destruct (IH (S i) st1) as (st' & E' & I'); [|exact I1|].
  - intros j x Hx. destruct (H (S j) x Hx) as [C D]. replace (S i + j) with (i + S j) by lia. auto.
  - exists st'. split; [exact E'|]. cbn [length]. replace (i + S (length l)) with (S i + length l) by lia. exact I'.
Qed.

Lemma loop_ok fuel pts : Kmax + 1 < fuel -> Same pts ->
  exists st', foldM (process_point fuel P s names auto si from to) (indexed pts) (init_state pts from) = Ok st' /\ inv (length ts) st'.
Proof.
  intros Hf S. pose proof (Same_times pts S) as Et. destruct (fold_ok fuel Hf (indexed pts) 0 (init_state pts from)) as (st' & E' & I').
  - intros j x Hx. unfold indexed in Hx. change (fun p => i_t (vp_item p)) with tm in Hx. rewrite Et in Hx.
    assert (Lp : length pts = length ts) by (rewrite <- Et, map_length; reflexivity). rewrite Lp in Hx. clear - Hx.
    assert (G : forall (l : list Qc) k j x, nth_error (combine (seq k (length l)) l) j = Some x -> nth_error l j = Some (snd x) /\ fst x = k + j).
    { induction l as [|a l IH]; intros k [|j'] y Hy; cbn in Hy; try discriminate; [injection Hy as <-; cbn; split; [reflexivity|lia]|].
      destruct (IH (S k) j' y Hy) as [A B]. split; [exact A|]. rewrite B. lia. }
    apply (G ts 0 j x Hx).
  - exists 0. split; [lia|]. split; [|left; reflexivity]. left. split; [reflexivity|split; [reflexivity|split; [|split; [exact S|split; [reflexivity|split; [intros j t X; lia|reflexivity]]]]]].
    split; [reflexivity|split; [reflexivity|]]. intros j x Hx. destruct j; discriminate.
  - exists st'. split; [exact E'|]. assert (Li : length (indexed pts) = length ts) by (unfold indexed; rewrite combine_length, seq_length, map_length; rewrite <- Et, map_length; lia).
    rewrite Li in I'. exact I'.
Qed.

(* how many items *)
Lemma inv_result st : inv (length ts) st -> exists K, outs_ok (st_out st) K /\ Same (st_pts st) /\
  (forall tl, nth_error ts (length ts - 1) = Some tl -> Qcle tl to -> forall k, k < K <-> Qcle (g (S k)) tl) /\
  (forall K0 t, to = g K0 -> In t ts -> Qcle (g K0) t -> Qclt t (g (S K0)) -> K = K0).
Proof.
  intros (i0 & Hi0 & G & C).
  destruct G as [(B1 & B2 & B3 & B4 & B5 & B6 & B7)|(k & (R1 & R2 & R3 & R4 & R5 & R6) & (jx & tx & HX1 & HX2 & HX3) & HE & HD)].
  - destruct C as [-> |C]; [|congruence]. exists 0. split; [exact B3|split; [exact B4|split]].
    + intros tl Htl _ k. split; [lia|]. intros X. exfalso. assert (Ln : 0 < length ts) by (destruct ts; [discriminate|cbn; lia]). pose proof (B6 (length ts - 1) tl ltac:(lia) Htl) as Y. pose proof (g_le 0 (S k) (Nat.le_0_l _)) as Z. change (g 0) with from in Z. qlra.
    + intros K0 t -> Ht X _. exfalso. apply In_nth_error in Ht. destruct Ht as [j Hj]. assert (j < length ts) by (apply nth_error_Some; congruence). pose proof (B6 j t H Hj). pose proof (g_le 0 K0 (Nat.le_0_l _)) as Z. change (g 0) with from in Z. qlra.
  - exists k. split; [exact R3|split; [exact R4|split]].
    + intros tl Htl Hto. assert (Last : forall j t, nth_error ts j = Some t -> Qcle t tl).
      { intros j t Hj. assert (Lj : j < length ts) by (apply nth_error_Some; congruence). destruct (Nat.eq_dec j (length ts - 1)) as [-> |N]; [replace t with tl by congruence; apply Qcle_refl|]. apply Qclt_le_weak. apply (Hsi j (length ts - 1)); [lia|exact Hj|exact Htl]. }
      assert (Hend : i0 = length ts).
      { destruct C as [C|C]; [exact C|]. destruct (HD C) as (j & t & K1 & K2 & K3 & _). destruct (Nat.eq_dec j (length ts - 1)) as [-> |N]; [lia|].
        exfalso. assert (Qclt t tl) by (apply (Hsi j (length ts - 1)); [lia|exact K2|exact Htl]). qlra. }
      subst i0. intros k'. assert (Ln : 0 < length ts) by lia. pose proof (R5 (length ts - 1) tl ltac:(lia) Htl) as Y. pose proof (Last jx tx HX2) as Z. split.
      * intros X. pose proof (g_le (S k') k X). qlra.
      * intros X. assert (Qclt (g (S k')) (g (S k))) by qlra. apply g_lt_inv in H. lia.
    + intros K0 t Eto Ht T1 T2. apply In_nth_error in Ht. destruct Ht as [m Hm]. assert (Lm : m < length ts) by (apply nth_error_Some; congruence).
      destruct (st_ended st) eqn:Ee.
      * destruct (HD eq_refl) as (j & tj & D1 & D2 & D3 & D4 & D5). rewrite Eto in D3. destruct (Nat.lt_ge_cases m j) as [Lmj|Lmj].
        -- exfalso. destruct (D5 m t Lmj Hm) as [X|(k' & X1 & X2)]; [pose proof (g_le 0 K0 (Nat.le_0_l _)) as Z; change (g 0) with from in Z; qlra|].
           rewrite Eto in X1. apply g_lt_inv in X1. pose proof (g_le (S k') K0 X1). qlra.
        -- assert (Le : Qcle tj t) by (apply Nat.le_lteq in Lmj; destruct Lmj as [Lmj|Lmj]; [apply Qclt_le_weak; apply (Hsi j m); assumption|subst; replace t with tj by congruence; apply Qcle_refl]).
           pose proof (R5 j tj D1 D2) as Y. assert (A1 : Qclt (g k) (g (S K0))) by qlra. assert (A2 : Qclt (g K0) (g (S k))) by qlra. apply g_lt_inv in A1, A2. lia.
      * destruct C as [-> |C]; [|congruence]. exfalso. assert (X : Qclt (g k) to) by (apply Qcnot_le_lt; intros X; specialize (HE X); congruence). rewrite Eto in X. apply g_lt_inv in X.
        pose proof (R5 m t Lm Hm). pose proof (g_le (S k) K0 X). qlra.
Qed.
End Loop.
