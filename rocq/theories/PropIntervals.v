(* PropIntervals.v -- property theorems C36-C41. *)
From Coq Require Import Permutation.
From Verif Require Import SpecIntervals BaseLemmas AccessProofs3 OpsProofs OpsProofs2 IntervalsProofs IntervalsProofs2 IntervalsProofs3 SamplingProofs InterpProofs Witness PropTactics PropAccess PropOps.

(* ===================== C36 ===================== *)

Theorem C36_validity_regions_tile : forall l si auto, strictly_increasing (times l) -> Qclt q0 si ->
  exists rs, validity_regions l None None (Some si) auto false = Ok rs /\ tile si (times l) rs.
Proof.
  intros l si auto Hi Hs. exists (regs si None (times l)). split; [|apply regs_tile; assumption].
  unfold validity_regions, interval_or. rewrite andb_false_r, qeqb_false by (intros E; rewrite E in Hs; apply Qclt_not_eq in Hs; apply Hs; reflexivity).
  cbn [bind]. rewrite loop_regs0. reflexivity.
Qed.
Print Assumptions C36_validity_regions_tile.

(* in a time window: the same, for exactly the points whose half intervals reach into the window *)
Theorem C36_validity_regions_in_window : forall l si from to auto, strictly_increasing (times l) -> Qclt q0 si ->
  exists rs l', validity_regions l from to (Some si) auto false = Ok rs /\ tile si (times l') rs /\
    filtered (fun x => (forall a, from = Some a -> Qclt a (Qcplus (i_t x) (Qcdiv si (qz 2)))) /\
                       (forall b, to = Some b -> Qcle (Qcminus (i_t x) (Qcdiv si (qz 2))) b)) l l'.
Proof.
  intros l si from to auto Hi Hs. exists (regs si None (times (filter (in_window si from to) l))), (filter (in_window si from to) l). split; [|split].
  - unfold validity_regions, interval_or. rewrite andb_false_r, qeqb_false by (intros E; rewrite E in Hs; apply Qclt_not_eq in Hs; apply Hs; reflexivity).
    cbn [bind]. rewrite loop_window by exact Hi. rewrite loop_regs0. reflexivity.
  - apply regs_tile; [exact Hs|]. apply filter_increasing. exact Hi.
  - apply filter_filtered. intros x. unfold in_window, qhalf, q2. rewrite andb_true_iff, !negb_true_iff. split.
    + intros [A B]. split.
      * intros a ->. destruct (qleb_spec (Qcplus (i_t x) (Qcdiv si (qz 2))) a) as [K|K]; [discriminate|]. apply Qcnot_le_lt. exact K.
      * intros b ->. destruct (qltb_spec b (Qcminus (i_t x) (Qcdiv si (qz 2)))) as [K|K]; [discriminate|]. apply Qcnot_lt_le. exact K.
    + intros [A B]. split.
      * destruct from as [a|]; [|reflexivity]. apply qleb_false. apply A. reflexivity.
      * destruct to as [b|]; [|reflexivity]. apply qltb_false. apply B. reflexivity.
Qed.
Print Assumptions C36_validity_regions_in_window.
Example C36_nonvacuous : strictly_increasing (times [pt 0 1; pt 4 2; pt 30 3]) /\
  match validity_regions [pt 0 1; pt 4 2; pt 30 3] None None (Some (qz 10)) (Err ValueError) false with
  | Ok [a; b; c] => (qeqb (r_from a) (qz (-5)) && qeqb (r_to a) (qz 2) && qeqb (r_from b) (qz 2) && qeqb (r_to b) (qz 9) && qeqb (r_from c) (qz 25) && qeqb (r_to c) (qz 35))%bool = true
  | _ => False end.
Proof.
  split; [|vm_compute; reflexivity]. intros i j a b L Ha Hb.
  destruct i as [|[|[|i]]], j as [|[|[|j]]]; try lia; try (destruct i; discriminate); try (destruct j; discriminate); injection Ha as <-; injection Hb as <-; apply qltb_lt; vm_compute; reflexivity.
Qed.

(* ===================== C37 ===================== *)

Lemma len_pos f t : Qclt f t -> Qclt q0 (Qcminus t f). Proof. intros; qlra. Qed.
Theorem C37_coverage_is_covered_fraction : forall l f t, disjoint_regions l -> Qclt f t ->
  coverage l f t = Ok (Qcdiv (covered_length l f t) (Qcminus t f)).
Proof. exact coverage_spec. Qed.
Print Assumptions C37_coverage_is_covered_fraction.

Theorem C37_coverage_bounds_and_extremes : forall l f t, disjoint_regions l -> Qclt f t ->
  exists c, coverage l f t = Ok c /\ Qcle q0 c /\ Qcle c q1 /\
    (c = q1 <-> (forall x, Qclt f x -> Qclt x t -> covered l x)) /\
    ((forall x, covered l x -> ~ (Qclt f x /\ Qclt x t)) -> c = q0).
Proof.
  intros l f t D L. eexists. split; [apply coverage_spec; assumption|]. destruct (disjoint_chain_ex l D) as [lo C].
  rewrite covered_length_olen. destruct (div_bounds (olen (ivs_of l) f t) (Qcminus t f) (len_pos f t L)) as [B1 B2].
  { apply olen_nonneg. } { apply (olen_le _ lo); [exact C|apply Qclt_le_weak; exact L]. }
  split; [exact B1|split; [exact B2|split]].
  - rewrite (div_one _ _ (len_pos f t L)). split.
    + intros E x L1 L2. apply ivs_inside. destruct (Qclt_le_dec (olen (ivs_of l) f t) (Qcminus t f)) as [K|K]; [rewrite E in K; apply Qclt_not_eq in K; congruence|].
      assert (H : {inside (ivs_of l) x} + {~ inside (ivs_of l) x}).
      { clear. induction (ivs_of l) as [|[a b] r IH]; [right; intros (? & ? & [] & _)|]. destruct IH as [IH|IH]; [left; apply inside_cons; right; exact IH|].
        destruct (Qclt_le_dec x a) as [K|K]; [right; intros G; apply inside_cons in G; destruct G as [[G _]|G]; [qlra|auto]|].
        destruct (Qclt_le_dec b x) as [K'|K']; [right; intros G; apply inside_cons in G; destruct G as [[_ G]|G]; [qlra|auto]|]. left. apply inside_cons. left. auto. }
      destruct H as [H|H]; [exact H|]. exfalso.
      pose proof (olen_missing (ivs_of l) lo f t x C (Qclt_le_weak _ _ L1) (Qclt_le_weak _ _ L2) L H) as M. apply (Qclt_not_le _ _ M). exact K.
    + intros H. apply (olen_full _ lo); [exact C|exact L|]. intros x L1 L2. apply ivs_inside. apply H; assumption.
  - intros H. rewrite olen_none.
    + rewrite q0_eq. field. intros E. apply (Qclt_not_eq _ _ L). qlra.
    + intros a b Hab. unfold ivs_of, measured in Hab. apply in_map_iff in Hab. destruct Hab as (p & E & Hp). injection E as <- <-. apply filter_In in Hp. apply D. apply Hp.
    + intros x Hx. apply H. apply ivs_inside. exact Hx.
    + exact L.
Qed.
Print Assumptions C37_coverage_bounds_and_extremes.

(* a measure: the coverage of an interval is the average of those of its parts *)
Theorem C37_coverage_additive : forall l f m t, disjoint_regions l -> Qclt f m -> Qclt m t ->
  exists c c1 c2, coverage l f t = Ok c /\ coverage l f m = Ok c1 /\ coverage l m t = Ok c2 /\
    Qcmult c (Qcminus t f) = Qcplus (Qcmult c1 (Qcminus m f)) (Qcmult c2 (Qcminus t m)).
Proof.
  intros l f m t D L1 L2. assert (L : Qclt f t) by (eapply Qclt_trans; eassumption).
  do 3 eexists. split; [apply coverage_spec; assumption|split; [apply coverage_spec; assumption|split; [apply coverage_spec; assumption|]]].
  rewrite !covered_length_olen, (olen_split (ivs_of l) f m t (Qclt_le_weak _ _ L1) (Qclt_le_weak _ _ L2)).
  field. split; [|split]; intros E; [apply (Qclt_not_eq _ _ L2)|apply (Qclt_not_eq _ _ L1)|apply (Qclt_not_eq _ _ L)]; qlra.
Qed.
Print Assumptions C37_coverage_additive.
Theorem C37_empty_interval_rejected : forall l f t, Qcle t f -> coverage l f t = Err ValueError.
Proof. exact coverage_error. Qed.
Print Assumptions C37_empty_interval_rejected.

Definition vpt (t a b : Z) : vpoint := mkVp (pt t 1) (qz a) (qz b) false.
Definition vl3 : list vpoint := [vpt 0 (-5) 5; mkVp (pt 12 1) (qz 5) (qz 20) true; vpt 25 20 30].
Lemma vl3_disjoint : disjoint_regions vl3.
Proof.
  split; [intros p [<- |[<- |[<- |[]]]]; apply qleb_le; vm_compute; reflexivity|].
  intros [|[|[|i]]] [|[|[|j]]] p q L Hp Hq; try lia; try (destruct i; discriminate); try (destruct j; discriminate); injection Hp as <-; injection Hq as <-; apply qleb_le; vm_compute; reflexivity.
Qed.
Example C37_nonvacuous : disjoint_regions vl3 /\ opt_is (match coverage vl3 (qz 0) (qz 25) with Ok c => Some c | _ => None end) (qfrac 2 5) = true /\ covered vl3 (qz 3).
Proof.
  split; [exact vl3_disjoint|split; [vm_compute; reflexivity|]]. exists (vpt 0 (-5) 5). split; [left; reflexivity|split; [reflexivity|]]. split; apply qleb_le; vm_compute; reflexivity.
Qed.

(* ===================== C38 ===================== *)

Theorem C38_data_loss_is_missing_fraction : forall l has_res force f t si auto, disjoint_regions l -> Qclt f t -> si <> q0 ->
  (forall p, In p l -> prior_loss p = q0) ->
  exists c d, coverage l f t = Ok c /\ compute_data_loss l has_res force f t (Some si) auto = Ok d /\ d = Qcminus q1 c /\ Qcle q0 d /\ Qcle d q1.
Proof.
  intros l has_res force f t si auto D L Hs Hp. destruct (C37_coverage_bounds_and_extremes l f t D L) as (c & E & B1 & B2 & _).
  exists c. eexists. split; [exact E|]. unfold compute_data_loss, interval_or. rewrite qeqb_false by exact Hs. cbn [bind]. rewrite E. cbn [bind].
  assert (P : (if has_res || force then previous_losses si f t l else Ok q0) = Ok q0) by (destruct (has_res || force); [apply previous_losses_none; exact Hp|reflexivity]).
  rewrite P. cbn [bind]. split; [reflexivity|]. split; [qlra|split; qlra].
Qed.
Print Assumptions C38_data_loss_is_missing_fraction.

(* Missing: slots shorter than the sampling interval and points closer than it (both refuted below). *)
Theorem C38_previous_losses_weighted_partial : forall l has_res force f t si auto, disjoint_regions l -> full_regions si l ->
  Qclt q0 si -> Qclt f t -> Qcle si (Qcminus t f) -> has_res || force = true ->
  (forall p, In p l -> Qcle q0 (prior_loss p) /\ Qcle (prior_loss p) q1) -> (forall p, In p l -> vp_interp p = true -> prior_loss p = q0) ->
  exists d, compute_data_loss l has_res force f t (Some si) auto = Ok d /\ Qcle q0 d /\ Qcle d q1 /\
    Qcmult d (Qcminus t f) = Qcplus (Qcminus (Qcminus t f) (covered_length l f t)) (lost_length l f t).
Proof.
  intros l has_res force f t si auto D F Hs L Hl Hr Hb Hi. eexists.
  assert (Hd : Qcminus t f <> q0) by (intros E; apply (Qclt_not_eq _ _ L); qlra).
  unfold compute_data_loss, interval_or. rewrite qeqb_false by (intros E; rewrite E in Hs; apply Qclt_not_eq in Hs; apply Hs; reflexivity).
  cbn [bind]. rewrite (coverage_spec l f t D L). cbn [bind]. rewrite Hr, (previous_losses_full si f t l Hs L Hl F Hi). cbn [bind]. split; [reflexivity|].
  destruct (disjoint_chain_ex l D) as [lo C]. pose proof (olen_le _ lo f t C (Qclt_le_weak _ _ L)) as B. rewrite <- covered_length_olen in B.
  destruct (lost_bounds l f t Hb) as [B1 B2].
  assert (E : Qcmult (Qcplus (Qcminus q1 (Qcdiv (covered_length l f t) (Qcminus t f))) (Qcdiv (lost_length l f t) (Qcminus t f))) (Qcminus t f) =
              Qcplus (Qcminus (Qcminus t f) (covered_length l f t)) (lost_length l f t)) by (rewrite q1_eq in *; field; exact Hd).
  pose proof (len_pos f t L) as P.
  generalize dependent (Qcplus (Qcminus q1 (Qcdiv (covered_length l f t) (Qcminus t f))) (Qcdiv (lost_length l f t) (Qcminus t f))).
  intros d E. split; [|split; [|exact E]]; generalize dependent (lost_length l f t); generalize dependent (covered_length l f t); generalize dependent (Qcminus t f); intros; qnra.
Qed.
Print Assumptions C38_previous_losses_weighted_partial.

Definition lossy (t v : Z) (loss : Qc) : item :=
  mkItem CDataTimePoint (qz t) (qz t) (UPhys q0) "UTC" (Some (d1 v)) [("data_loss"%string, Some loss)] None.
(* a slot of 2 seconds inside the region of a point with interval 10 and loss 1/2: the data loss is 3/2 *)
Theorem C38_shorter_slots_refuted : let l := [mkVp (lossy 0 1 (qfrac 1 2)) (qz (-5)) (qz 5) false] in
  disjoint_regions l /\ full_regions (qz 10) l /\
  exists d, compute_data_loss l true false (qz (-1)) (qz 1) (Some (qz 10)) (Err ValueError) = Ok d /\ Qclt q1 d.
Proof.
  cbv zeta. split; [|split].
  - split; [intros p [<- |[]]; apply qleb_le; vm_compute; reflexivity|]. intros [|i] [|j] p q L Hp Hq; try lia; destruct j; discriminate.
  - intros p [<- |[]] _. split; apply qeqb_eq; vm_compute; reflexivity.
  - eexists. split; [vm_compute; reflexivity|]. apply qltb_lt. vm_compute. reflexivity.
Qed.
Print Assumptions C38_shorter_slots_refuted.
(* points closer than the interval: full losses on a covered slot add up to more than one *)
Theorem C38_closer_points_refuted : let l := [mkVp (lossy 0 1 q1) (qz (-5)) (qz 1) false; mkVp (lossy 2 1 q1) (qz 1) (qz 3) false; mkVp (lossy 4 1 q1) (qz 3) (qz 9) false] in
  validity_regions (map vp_item l) None None (Some (qz 10)) (Err ValueError) false = Ok (map (fun p => mkRegion (i_t (vp_item p)) (vp_from p) (vp_to p)) l) /\
  exists d, compute_data_loss l true false (qz (-5)) (qz 9) (Some (qz 10)) (Err ValueError) = Ok d /\ Qclt (qz 2) d.
Proof.
  cbv zeta. split.
  - unfold validity_regions, interval_or. simpl. repeat f_equal; try (apply qeqb_eq; vm_compute; reflexivity).
  - eexists. split; [vm_compute; reflexivity|]. apply qltb_lt. vm_compute. reflexivity.
Qed.
Print Assumptions C38_closer_points_refuted.
Example C38_nonvacuous : let l := [mkVp (lossy 0 1 (qfrac 1 2)) (qz (-5)) (qz 5) false; vpt 20 15 25] in
  disjoint_regions l /\ full_regions (qz 10) l /\
  opt_is (match compute_data_loss l true false (qz (-5)) (qz 25) (Some (qz 10)) (Err ValueError) with Ok d => Some d | _ => None end) (qfrac 1 2) = true.
Proof.
  cbv zeta. split; [|split; [|vm_compute; reflexivity]].
  - split; [intros p [<- |[<- |[]]]; apply qleb_le; vm_compute; reflexivity|].
    intros [|[|i]] [|[|j]] p q L Hp Hq; try lia; try (destruct i; discriminate); try (destruct j; discriminate). injection Hp as <-; injection Hq as <-; apply qleb_le; vm_compute; reflexivity.
  - intros p [<- |[<- |[]]] _; split; apply qeqb_eq; vm_compute; reflexivity.
Qed.

(* ===================== C39 ===================== *)

(* Missing: series whose distances are (nearly) all different, where the distances are rounded to
   seconds first, if the detection terminates at all (theorems below). *)
Theorem C39_most_frequent_partial : forall l ds ks, spacings (times l) ds -> ds <> [] -> distinct_values ds ks -> 20 * length ks <= 19 * length l ->
  exists d c, (forall fuel, detect_interval fuel l = Some (Ok (Some d, c))) /\ In d ds /\ (forall x, occurrences x ds <= occurrences d ds) /\ Qcle q0 c /\ Qcle c q1.
Proof.
  intros l ds ks Hs Hn Hk Hc. destruct (verdict_spec ds Hn) as (d & c & E & A & B & C1 & C2 & _). exists d, c. split; [|auto].
  intros fuel. rewrite (detect_plain fuel l ds ks Hs Hn Hk Hc), E. reflexivity.
Qed.
Print Assumptions C39_most_frequent_partial.
Lemma distinct_exists ds : exists ks, distinct_values ds ks.
Proof. exists (map fst (count_all ds)). apply count_keys_distinct. Qed.
(* up to twenty points, always *)
Theorem C39_up_to_twenty_points_partial : forall l ds, spacings (times l) ds -> ds <> [] -> length l <= 20 ->
  exists d c, (forall fuel, detect_interval fuel l = Some (Ok (Some d, c))) /\ In d ds /\ (forall x, occurrences x ds <= occurrences d ds) /\ Qcle q0 c /\ Qcle c q1.
Proof.
  intros l ds Hs Hn Hl. destruct (distinct_exists ds) as [ks Hk]. apply (C39_most_frequent_partial l ds ks); try assumption.
  pose proof (distinct_length ds ks Hk). destruct Hs as [Hs _]. unfold times in Hs. rewrite map_length in Hs. lia.
Qed.
Print Assumptions C39_up_to_twenty_points_partial.
Theorem C39_constant_resolution : forall l d, 2 <= length l -> equally_spaced d (times l) ->
  forall fuel, detect_interval fuel l = Some (Ok (Some d, q1)).
Proof.
  intros l d Hl He fuel. assert (Hne : times l <> []) by (destruct l; [simpl in Hl; lia|discriminate]).
  pose proof (diffs_spacings (times l) Hne) as Hs. set (ds := diffs_of (times l)) in *.
  assert (Hlen : length l = S (length ds)) by (destruct Hs as [Hs _]; unfold times in Hs; rewrite map_length in Hs; exact Hs).
  assert (Hd : forall x, In x ds -> x = d).
  { intros x Hx. apply In_nth_error in Hx. destruct Hx as [n Hn]. destruct Hs as [Hs1 Hs2].
    assert (Ln : n < length ds) by (apply nth_error_Some; rewrite Hn; discriminate).
    destruct (nth_error (times l) n) as [a|] eqn:Ea; [|apply nth_error_None in Ea; lia].
    destruct (nth_error (times l) (S n)) as [b|] eqn:Eb; [|apply nth_error_None in Eb; lia].
    rewrite (Hs2 n a b x Ea Eb Hn). apply (He n a b Ea Eb). }
  assert (Hn : ds <> []) by (intros F; rewrite F in Hlen; simpl in Hlen; lia).
  assert (Hk : distinct_values ds [d]).
  { split; [constructor; [intros []|constructor]|]. intros x. split; [intros [<- |[]]|intros Hx; left; symmetry; apply Hd; exact Hx].
    destruct ds as [|y ds']; [congruence|]. left. apply Hd. left. reflexivity. }
  destruct (verdict_spec ds Hn) as (d' & c & E & A & B & C1 & C2 & C3). rewrite (detect_plain fuel l ds [d] Hs Hn Hk) by (simpl; lia).
  rewrite E, (Hd d' A), C3; [reflexivity|]. rewrite (keys_length ds [d] Hk). reflexivity.
Qed.
Print Assumptions C39_constant_resolution.
(* the other case, when it terminates: the most frequent among the distances, each taken once, rounded to seconds *)
Theorem C39_rounded_partial : forall l ds ks zs rs, spacings (times l) ds -> ds <> [] -> distinct_values ds ks -> 19 * length l < 20 * length ks ->
  Forall2 nearest_even ks zs -> distinct_values (map qz zs) rs -> 20 * length rs <= 19 * length l ->
  exists d c, (forall fuel, 0 < fuel -> detect_interval fuel l = Some (Ok (Some d, c))) /\ In d rs /\
    (forall x, occurrences x (map qz zs) <= occurrences d (map qz zs)) /\ Qcle q0 c /\ Qcle c q1.
Proof.
  intros l ds ks zs rs Hs Hn Hk Hc Hz Hr Hrc. rewrite (nearest_round ks zs Hz) in *. destruct (detect_rounded 0 l ds ks rs Hs Hn Hk Hc Hr Hrc) as (ks' & Hp & _).
  assert (Hn' : rounded (map fst (count_all ds)) <> []).
  { intros F. apply map_eq_nil in F. destruct ds as [|x ds']; [congruence|]. assert (K : In x (map fst (count_all (x :: ds')))) by (apply count_all_keys; left; reflexivity). rewrite F in K. destruct K. }
  destruct (verdict_spec (rounded (map fst (count_all ds))) Hn') as (d & c & E & A & B & C1 & C2 & _).
  assert (P : Permutation (rounded (map fst (count_all ds))) (rounded ks)) by (apply Permutation_map; apply (distinct_perm ds); [apply count_keys_distinct|exact Hk]).
  exists d, c. split; [|split; [|split; [|auto]]].
  - intros fuel Hf. destruct fuel as [|fuel]; [lia|]. rewrite detect_unfold, (diffs_eq l ds Hs).
    pose proof (detect_rounded fuel l ds ks rs Hs Hn Hk Hc Hr Hrc) as (ks2 & P2 & E2). clear P2 E2 ks2.
    pose proof (distinct_length ds ks Hk) as Lk. destruct Hs as [Hl _]. unfold times in Hl. rewrite map_length in Hl. cbn [spread_loop].
    rewrite (keys_length ds ks Hk), almost_equal_spec by lia. rewrite (proj2 (Nat.ltb_lt _ _)) by exact Hc. rewrite rounded_counts.
    assert (Len : length (count_all (rounded (map fst (count_all ds)))) = length rs).
    { apply keys_length. split; [apply Hr|]. intros x. rewrite (proj2 Hr x). split; intros K; [apply (Permutation_in x (Permutation_sym P)); exact K|apply (Permutation_in x P); exact K]. }
    assert (Lr : length rs <= length ks) by (rewrite <- (map_length (fun k => qz (qround k)) ks); apply distinct_length; exact Hr).
    assert (AE : almost_equal (length (count_all (rounded (map fst (count_all ds))))) (length l) = Ok false).
    { rewrite Len, almost_equal_spec by lia. f_equal. apply Nat.ltb_ge. exact Hrc. }
    destruct fuel; cbn [spread_loop]; rewrite AE, E; reflexivity.
  - apply (proj2 Hr). apply (Permutation_in d P). exact A.
  - intros x. specialize (B x). rewrite !(occurrences_perm _ _ _ P) in B. exact B.
Qed.
Print Assumptions C39_rounded_partial.

(* 21 points at 0, 1, 3, 6, 10, ...: all the distances are different also when rounded, and the
   detection never returns *)
Definition triangular : list item := map (fun k => pt (Z.of_nat (k * (k + 1) / 2)) 1) (seq 0 21).
Theorem C39_detection_terminates_refuted :
  strictly_increasing (times triangular) /\ length triangular = 21 /\ forall fuel, detect_interval fuel triangular = None.
Proof.
  split; [|split; [reflexivity|]].
  - assert (G : forallb (fun p => qltb (fst p) (snd p)) (combine (times triangular) (tl (times triangular))) = true) by (vm_compute; reflexivity).
    revert G. generalize (times triangular). clear. intros l. induction l as [|a l IH]; intros G; [intros [|i] [|j] x y L Hx Hy; discriminate|].
    destruct l as [|b l]; [intros [|i] [|j] x y L Hx Hy; try lia; destruct j; discriminate|].
    cbn [tl combine forallb fst snd] in G. apply andb_true_iff in G. destruct G as [G1 G2]. apply qltb_lt in G1. specialize (IH G2).
    apply si_cons_inv; [exact IH|]. intros c [<- |Hc]; [exact G1|]. apply si_cons in IH. destruct IH as [_ IH]. eapply Qclt_trans; [exact G1|apply IH; exact Hc].
  - assert (Hs : spacings (times triangular) (diffs_of (times triangular))) by (apply diffs_spacings; discriminate).
    set (ds := diffs_of (times triangular)) in *.
    assert (Eint : rounded (map fst (count_all ds)) = map fst (count_all ds)).
    { unfold rounded. rewrite <- (map_id (map fst (count_all ds))) at 2. apply map_ext_in. intros x Hx. apply qeqb_eq.
      assert (Q : forallb (fun x => qeqb (qz (qround x)) x) (map fst (count_all ds)) = true) by (vm_compute; reflexivity).
      rewrite forallb_forall in Q. apply Q. exact Hx. }
    intros fuel. apply (detect_never triangular ds (map fst (count_all ds)) (map fst (count_all ds))).
    + exact Hs.
    + discriminate.
    + apply count_keys_distinct.
    + rewrite map_length. apply Nat.ltb_lt. vm_compute. reflexivity.
    + rewrite Eint. split; [apply count_all_nodup|tauto].
    + rewrite map_length. apply Nat.ltb_lt. vm_compute. reflexivity.
Qed.
Print Assumptions C39_detection_terminates_refuted.
Example C39_nonvacuous : spacings (times [pt 0 1; pt 10 1; pt 20 1; pt 45 1]) [Qcminus (qz 10) (qz 0); Qcminus (qz 20) (qz 10); Qcminus (qz 45) (qz 20)] /\
  match detect_interval 0 [pt 0 1; pt 10 1; pt 20 1; pt 45 1] with Some (Ok (Some d, c)) => (qeqb d (qz 10) && qeqb c (qfrac 1 2))%bool = true | _ => False end.
Proof.
  split; [split; [reflexivity|]|vm_compute; reflexivity].
  intros [|[|[|[|i]]]] a b d Ha Hb Hd; try discriminate; try (injection Ha as <-; injection Hb as <-; injection Hd as <-; reflexivity); destruct i; discriminate.
Qed.

(* 21 points about a second apart, with 20 distances all different, which are all 1 when rounded *)
Definition jitter : list item :=
  map (fun k => let t := qfrac (Z.of_nat (k * 1000 + k * k)) 1000 in mkItem CDataTimePoint t t (UPhys q0) "UTC" (Some (DList [q1])) [] None) (seq 0 21).
Example C39_rounded_nonvacuous : let ds := diffs_of (times jitter) in spacings (times jitter) ds /\ ds <> [] /\ distinct_values ds ds /\
  19 * length jitter < 20 * length ds /\ Forall2 nearest_even ds (map (fun _ => 1%Z) ds) /\
  distinct_values (map qz (map (fun _ => 1%Z) ds)) [qz 1] /\ 20 * length [qz 1] <= 19 * length jitter.
Proof.
  cbv zeta. split; [apply diffs_spacings; discriminate|]. split; [discriminate|]. split; [split; [|intros; reflexivity]|].
  - assert (G : forallb (fun p => qltb (fst p) (snd p)) (combine (diffs_of (times jitter)) (tl (diffs_of (times jitter)))) = true) by (vm_compute; reflexivity).
    revert G. generalize (diffs_of (times jitter)). intros l G. 
    assert (H : NoDup l /\ forall x, match l with [] => True | a :: _ => Qclt x a -> ~ In x l end).
    { induction l as [|a l IH]; [split; [constructor|intros; exact I]|]. destruct l as [|b l].
      - split; [constructor; [intros []|constructor]|]. intros x L [E|[]]. subst. apply (Qclt_not_le _ _ L). apply Qcle_refl.
      - cbn [tl combine forallb fst snd] in G. apply andb_true_iff in G. destruct G as [G1 G2]. apply qltb_lt in G1. destruct (IH G2) as [N K].
        split; [constructor; [apply K; exact G1|exact N]|]. intros x L [E|M]; [subst; apply (Qclt_not_le _ _ L); apply Qcle_refl|].
        apply (K x); [eapply Qclt_trans; eassumption|exact M]. }
    apply H.
  - split; [vm_compute; lia|]. split; [|split; [|vm_compute; lia]].
    + assert (G : forallb (fun d => qltb (qabs (Qcminus d (qz 1))) (qfrac 1 2)) (diffs_of (times jitter)) = true) by (vm_compute; reflexivity).
      revert G. generalize (diffs_of (times jitter)). induction l as [|a l IH]; intros G; [constructor|]. cbn [forallb] in G. apply andb_true_iff in G. destruct G as [G1 G2].
      cbn [map]. constructor; [left; apply qltb_lt; exact G1|apply IH; exact G2].
    + split; [constructor; [intros []|constructor]|]. intros x. split; [intros [<- |[]]; left; reflexivity|].
      intros H. apply in_map_iff in H. destruct H as (z & <- & H). apply in_map_iff in H. destruct H as (y & <- & _). left. reflexivity.
Qed.

(* ===================== C40 ===================== *)

Theorem C40_linear_on_straight_line : forall e s at_ i x y, from_history e s -> dict_points s ->
  nth_error (s_items s) i = Some x -> nth_error (s_items s) (S i) = Some y -> Qcle (i_t x) at_ -> Qclt at_ (i_t y) ->
  exists d, linear_evaluate s at_ None None = Ok d /\
    data_by d x (fun lb v => exists a b, has_value x lb a /\ has_value y lb b /\ on_line (i_t x) a (i_t y) b at_ v).
Proof. intros e s at_ i x y. exact (linear_search e s at_ i x y). Qed.
Print Assumptions C40_linear_on_straight_line.
Theorem C40_linear_with_positions : forall e s at_ i j x y, from_history e s -> dict_points s ->
  nth_error (s_items s) i = Some x -> nth_error (s_items s) j = Some y -> Qclt (i_t x) at_ -> Qclt at_ (i_t y) ->
  exists d, linear_evaluate s at_ (Some (Z.of_nat i)) (Some (Z.of_nat j)) = Ok d /\
    data_by d x (fun lb v => exists a b, has_value x lb a /\ has_value y lb b /\ on_line (i_t x) a (i_t y) b at_ v).
Proof. intros e s at_ i j x y. exact (linear_given e s at_ i j x y). Qed.
Print Assumptions C40_linear_with_positions.

Lemma weaken d x (f g : string -> Qc -> Prop) : (forall lb v, f lb v -> g lb v) -> data_by d x f -> data_by d x g.
Proof. intros H. destruct d as [d|d]; [auto|]. intros (A & B & C). split; [exact A|split; [|exact C]]. intros lb v Hv. apply H, B, Hv. Qed.
Theorem C40_bounded_by_neighbours : forall e s at_ i x y, from_history e s -> dict_points s ->
  nth_error (s_items s) i = Some x -> nth_error (s_items s) (S i) = Some y -> Qcle (i_t x) at_ -> Qclt at_ (i_t y) ->
  exists d, linear_evaluate s at_ None None = Ok d /\
    data_by d x (fun lb v => exists a b, has_value x lb a /\ has_value y lb b /\ Qcle (qmin a b) v /\ Qcle v (qmax a b)).
Proof.
  intros e s at_ i x y H D Hx Hy L1 L2. destruct (linear_search e s at_ i x y H D Hx Hy L1 L2) as (d & E & B). exists d. split; [exact E|].
  revert B. apply weaken. intros lb v (a & b & A1 & A2 & O). exists a, b. split; [exact A1|split; [exact A2|]].
  apply (on_line_between (i_t x) a (i_t y) b at_ v); try assumption; [eapply Qcle_lt_trans; eassumption|apply Qclt_le_weak; exact L2].
Qed.
Print Assumptions C40_bounded_by_neighbours.
Theorem C40_exact_on_points : forall e s i x y, from_history e s -> dict_points s ->
  nth_error (s_items s) i = Some x -> nth_error (s_items s) (S i) = Some y ->
  exists d, linear_evaluate s (i_t x) None None = Ok d /\ data_by d x (fun lb v => has_value x lb v).
Proof.
  intros e s i x y H D Hx Hy. assert (L : Qclt (i_t x) (i_t y)).
  { pose proof (proj1 (proj2 (proj1 (proj2 D)))) as I. apply (I i (S i)); [lia|apply times_nth; exact Hx|apply times_nth; exact Hy]. }
  destruct (linear_search e s (i_t x) i x y H D Hx Hy (Qcle_refl _) L) as (d & E & B). exists d. split; [exact E|].
  revert B. apply weaken. intros lb v (a & b & A1 & A2 & O). rewrite (on_line_left (i_t x) a (i_t y) b v L O). exact A1.
Qed.
Print Assumptions C40_exact_on_points.
Theorem C40_reproduces_linear_signals : forall e s at_ i x y (k q : string -> Qc), from_history e s -> dict_points s ->
  (forall z lb v, In z (s_items s) -> has_value z lb v -> v = Qcplus (Qcmult (k lb) (i_t z)) (q lb)) ->
  nth_error (s_items s) i = Some x -> nth_error (s_items s) (S i) = Some y -> Qcle (i_t x) at_ -> Qclt at_ (i_t y) ->
  exists d, linear_evaluate s at_ None None = Ok d /\ data_by d x (fun lb v => v = Qcplus (Qcmult (k lb) at_) (q lb)).
Proof.
  intros e s at_ i x y k q H D Hlin Hx Hy L1 L2. destruct (linear_search e s at_ i x y H D Hx Hy L1 L2) as (d & E & B). exists d. split; [exact E|].
  revert B. apply weaken. intros lb v (a & b & A1 & A2 & O).
  rewrite (Hlin x lb a (nth_error_In _ _ Hx) A1), (Hlin y lb b (nth_error_In _ _ Hy) A2) in O. apply (on_line_linear (i_t x) (i_t y)); [eapply Qcle_lt_trans; eassumption|exact O].
Qed.
Print Assumptions C40_reproduces_linear_signals.
(* on the last point (and after it) there is no value *)
Theorem C40_last_point_refuted : forall s at_, (forall x, In x (s_items s) -> Qcle (i_t x) at_) -> linear_evaluate s at_ None None = Err ValueError.
Proof. intros s at_ H. unfold linear_evaluate. rewrite first_after_none by exact H. reflexivity. Qed.
Print Assumptions C40_last_point_refuted.
(* Positions which are not around the time are refused, as one without the other. *)
Theorem C40_outside_refused : forall s at_,
  (forall i j x y, nth_error (s_items s) i = Some x -> nth_error (s_items s) j = Some y -> Qcle at_ (i_t x) \/ Qcle (i_t y) at_ ->
     linear_evaluate s at_ (Some (Z.of_nat i)) (Some (Z.of_nat j)) = Err ValueError) /\
  (forall i, linear_evaluate s at_ (Some i) None = Err ValueError /\ linear_evaluate s at_ None (Some i) = Err ValueError).
Proof.
  intros s at_. split; [|intros i; split; reflexivity]. intros i j x y Hx Hy H. unfold linear_evaluate, check_between.
  rewrite (ts_get_i_nat s i x Hx), (ts_get_i_nat s j y Hy). cbn [bind]. destruct H as [H|H]; [rewrite qltb_false by exact H; reflexivity|].
  destruct (qltb (i_t x) at_); [|reflexivity]. rewrite qltb_false by exact H. reflexivity.
Qed.
Print Assumptions C40_outside_refused.

(* Refuted: a time before the first point is not refused; the value is the one on the line through the LAST point and the first one. *)
Lemma get_minus_one s z : last_item (s_items s) = Some z -> exists k, nth_error (s_items s) k = Some z /\ ts_get_i s (-1) = ts_get_i s (Z.of_nat k) /\ S k = length (s_items s).
Proof.
  intros H. assert (exists l, s_items s = l ++ [z]) as (l & E).
  { unfold last_item in H. destruct (rev (s_items s)) as [|a r] eqn:E; [discriminate|]. injection H as ->. exists (rev r). rewrite <- (rev_involutive (s_items s)), E. reflexivity. }
  exists (length l). split; [rewrite E, nth_error_app2, Nat.sub_diag by lia; reflexivity|]. assert (Len : S (length l) = length (s_items s)) by (rewrite E, app_length; cbn; lia). split; [|exact Len].
  unfold ts_get_i. destruct (s_items s) as [|b m]; [reflexivity|]. change (Z.ltb (-1) 0) with true. change (Z.abs (-1)) with 1%Z. destruct (Z.ltb_spec (Z.of_nat (length l)) 0); [lia|]. cbv iota zeta. f_equal. lia.
Qed.
Lemma linear_value_any s x y at_ lb : dict_points s -> In x (s_items s) -> In y (s_items s) -> i_t x <> i_t y -> has_label x lb ->
  linear_value x y at_ lb = Ok (line x y at_ lb).
Proof.
  intros (N & _ & D) Hx Hy L Hl. pose proof (numeric_labels _ x y lb N Hx Hy Hl) as Hl'.
  destruct N as (_ & N & _). destruct (valof_ok x lb (N x Hx) Hl) as [_ V]. destruct (valof_ok y lb (N y Hy) Hl') as [_ V'].
  destruct (D x Hx) as [dx Dx]. destruct (D y Hy) as [dy Dy]. unfold linear_value.
  rewrite (data_at_ok y lb _ dy (N y Hy) Dy V'), (data_at_ok x lb _ dx (N x Hx) Dx V). cbn [bind]. unfold qdiv.
  rewrite qeqb_false; [reflexivity|]. intros E. apply L. qlra.
Qed.
Theorem C40_before_refuted : forall e s at_ x l z, from_history e s -> dict_points s -> s_items s = x :: l -> l <> [] -> last_item (s_items s) = Some z -> Qclt at_ (i_t x) ->
  exists d, linear_evaluate s at_ None None = Ok d /\
    data_by d z (fun lb v => exists a b, has_value z lb a /\ has_value x lb b /\ on_line (i_t z) a (i_t x) b at_ v).
Proof.
  intros e s at_ x l z H D E Nl Z L. destruct (get_minus_one s z Z) as (k & K1 & K2 & K3). assert (H0 : nth_error (s_items s) 0 = Some x) by (rewrite E; reflexivity).
  assert (Lt : Qclt (i_t x) (i_t z)).
  { pose proof (proj1 (proj2 (proj1 (proj2 D)))) as I. apply (I 0 k); [|apply times_nth; exact H0|apply times_nth; exact K1]. rewrite E in K3. destruct l; [contradiction|cbn in K3; lia]. }
  assert (Iz : In z (s_items s)) by (apply nth_error_In in K1; exact K1). assert (Ix : In x (s_items s)) by (rewrite E; left; reflexivity).
  assert (Ne : i_t z <> i_t x) by (intros Q; rewrite Q in Lt; exact (Qclt_not_eq _ _ Lt eq_refl)).
  destruct (interp_data_ok e s linear_value at_ k 0 z x (fun lb => line z x at_ lb) H D K1 H0) as (d & Ed & B).
  { intros lb Hl. apply (linear_value_any s); assumption. }
  exists d. split.
  - unfold linear_evaluate. rewrite E. cbn [first_after]. rewrite qltb_true by exact L. change (Z.of_nat 0 - 1)%Z with (-1)%Z. unfold interp_data in *. rewrite K2. exact Ed.
  - revert B. apply weaken. intros lb v [Hl ->]. exists (valof z lb), (valof x lb). destruct D as (N & _ & _). pose proof (numeric_labels _ z x lb N Iz Ix Hl) as Hl'. destruct N as (_ & N & _).
    split; [apply (valof_ok z lb (N z Iz) Hl)|split; [apply (valof_ok x lb (N x Ix) Hl')|]]. unfold on_line, line. field. intros Q. apply Ne. qlra.
Qed.
Print Assumptions C40_before_refuted.
Lemma duo_dict : dict_points duo_s.
Proof. split; [exact duo_numeric|split; [exact duo_wf|]]. vm_compute (s_items duo_s). intros x Hx. in_cases Hx; eexists; reflexivity. Qed.
Example C40_nonvacuous : dict_points duo_s /\ from_history ideal_env duo_s /\
  match linear_evaluate duo_s (qz 15) None None with Ok (DDict d) => (opt_is (dget "a" d) (qfrac 5 2) && opt_is (dget "b" d) (qfrac 5 2))%bool = true | _ => False end /\
  linear_evaluate duo_s (qz 40) None None = Err ValueError.
Proof. split; [exact duo_dict|split; [apply duo_healthy|split; vm_compute; reflexivity]]. Qed.

(* ===================== C41 ===================== *)

(* Missing: the search of the neighbours (refuted below). *)
Theorem C41_mean_of_given_neighbours_partial : forall e s at_ i x y, from_history e s -> dict_points s ->
  nth_error (s_items s) i = Some x -> nth_error (s_items s) (S i) = Some y -> Qclt (i_t x) at_ -> Qclt at_ (i_t y) ->
  exists d, uniform_evaluate s at_ (Some (Z.of_nat i)) (Some (Z.of_nat (S i))) = Ok d /\
    data_by d x (fun lb v => exists a b, has_value x lb a /\ has_value y lb b /\ v = midpoint a b /\ Qcle (qmin a b) v /\ Qcle v (qmax a b)).
Proof.
  intros e s at_ i x y H D Hx Hy L1 L2. unfold uniform_evaluate.
  assert (G : exists d, interp_data uniform_value s at_ (Z.of_nat i) (Z.of_nat (S i)) = Ok d /\
    data_by d x (fun lb v => exists a b, has_value x lb a /\ has_value y lb b /\ v = midpoint a b /\ Qcle (qmin a b) v /\ Qcle v (qmax a b))).
  { assert (Ix : In x (s_items s)) by (apply nth_error_In in Hx; exact Hx). assert (Iy : In y (s_items s)) by (apply nth_error_In in Hy; exact Hy).
    destruct (interp_data_ok e s uniform_value at_ i (S i) x y (fun lb => Qcplus (valof x lb) (Qcdiv (Qcminus (valof y lb) (valof x lb)) q2)) H D Hx Hy) as (d & E & B).
    - intros lb Hlb. apply (uniform_value_ok s); assumption.
    - exists d. split; [exact E|]. revert B. apply weaken. intros lb v [Hl ->]. exists (valof x lb), (valof y lb).
      destruct D as (N & _ & _). pose proof (numeric_labels _ x y lb N Ix Iy Hl) as Hl'. destruct N as (_ & N & _).
      split; [apply valof_ok; auto|split; [apply valof_ok; auto|]]. unfold midpoint, q2, qmin, qmax. split; [qlra|]. split; qcase; qlra. }
  destruct i as [|i].
  - cbn [zero_or_none negb andb Z.of_nat Z.eqb]. destruct (s_items s) as [|z l] eqn:El; [discriminate|]. injection Hx as ->.
    replace (zero_or_none (Some (Z.of_nat 1))) with false by reflexivity. cbn [negb andb].
    rewrite qltb_false by (apply Qclt_le_weak; exact L1). exact G.
  - assert (Z1 : zero_or_none (Some (Z.of_nat (S i))) = false) by (apply Z.eqb_neq; lia).
    assert (Z2 : zero_or_none (Some (Z.of_nat (S (S i)))) = false) by (apply Z.eqb_neq; lia).
    rewrite Z1, Z2. cbn [negb andb]. rewrite (check_between_ok s at_ (S i) (S (S i)) x y Hx Hy L1 L2). exact G.
Qed.
Print Assumptions C41_mean_of_given_neighbours_partial.
(* whatever the series, any time from its start on is refused if the positions are not given *)
Theorem C41_search_always_fails_refuted : forall s x l at_, s_items s = x :: l -> Qcle (i_t x) at_ -> uniform_evaluate s at_ None None = Err ValueError.
Proof. intros s x l at_ E L. unfold uniform_evaluate. cbn [zero_or_none negb andb]. rewrite E, qltb_false by exact L. reflexivity. Qed.
Print Assumptions C41_search_always_fails_refuted.
(* Positions which are not around the time are refused, as one (which is not 0) without the other. *)
Theorem C41_outside_refused : forall s at_,
  (forall i j x y, nth_error (s_items s) (S i) = Some x -> nth_error (s_items s) j = Some y -> Qcle at_ (i_t x) \/ Qcle (i_t y) at_ ->
     uniform_evaluate s at_ (Some (Z.of_nat (S i))) (Some (Z.of_nat j)) = Err ValueError) /\
  (forall i, i <> 0%Z -> uniform_evaluate s at_ (Some i) None = Err ValueError /\ uniform_evaluate s at_ None (Some i) = Err ValueError).
Proof.
  intros s at_. split.
  - intros i j x y Hx Hy H. unfold uniform_evaluate, check_between. cbn [zero_or_none]. destruct (Z.eqb_spec (Z.of_nat (S i)) 0); [lia|]. cbn [negb andb]. rewrite andb_false_r.
    rewrite (ts_get_i_nat s (S i) x Hx), (ts_get_i_nat s j y Hy). cbn [bind]. destruct H as [H|H]; [rewrite qltb_false by exact H; reflexivity|].
    destruct (qltb (i_t x) at_); [|reflexivity]. rewrite qltb_false by exact H. reflexivity.
  - intros i Hi. unfold uniform_evaluate. cbn [zero_or_none]. destruct (Z.eqb_spec i 0); [contradiction|]. split; reflexivity.
Qed.
Print Assumptions C41_outside_refused.
(* Refuted: from the first position (which counts as missing) nothing is checked, and the half way between the two values is given for any time from the first one on,
   before or after the second one. *)
Theorem C41_first_position_refuted : forall e s at_ x y j, from_history e s -> dict_points s -> nth_error (s_items s) 0 = Some x -> nth_error (s_items s) j = Some y -> Qcle (i_t x) at_ ->
  exists d, uniform_evaluate s at_ (Some 0%Z) (Some (Z.of_nat j)) = Ok d /\
    data_by d x (fun lb v => exists a b, has_value x lb a /\ has_value y lb b /\ v = midpoint a b).
Proof.
  intros e s at_ x y j H D Hx Hy L. assert (Ix : In x (s_items s)) by (apply nth_error_In in Hx; exact Hx). assert (Iy : In y (s_items s)) by (apply nth_error_In in Hy; exact Hy).
  destruct (interp_data_ok e s uniform_value at_ 0 j x y (fun lb => Qcplus (valof x lb) (Qcdiv (Qcminus (valof y lb) (valof x lb)) q2)) H D Hx Hy) as (d & E & B).
  - intros lb Hlb. apply (uniform_value_ok s); assumption.
  - exists d. split.
    + unfold uniform_evaluate. cbn [zero_or_none Z.eqb negb andb]. rewrite andb_false_r. destruct (s_items s) as [|x0 l] eqn:Es; [discriminate|]. injection Hx as ->. rewrite qltb_false by exact L. exact E.
    + revert B. apply weaken. intros lb v [Hl ->]. exists (valof x lb), (valof y lb). destruct D as (N & _ & _). pose proof (numeric_labels _ x y lb N Ix Iy Hl) as Hl'. destruct N as (_ & N & _).
      split; [apply (valof_ok x lb (N x Ix) Hl)|split; [apply (valof_ok y lb (N y Iy) Hl')|]]. unfold midpoint, q2. qlra.
Qed.
Print Assumptions C41_first_position_refuted.
Example C41_nonvacuous : match uniform_evaluate duo_s (qz 3) (Some 0%Z) (Some 1%Z) with Ok (DDict d) => opt_is (dget "a" d) (qz 2) = true | _ => False end.
Proof. vm_compute. reflexivity. Qed.
