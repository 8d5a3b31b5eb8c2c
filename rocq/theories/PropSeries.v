(* PropSeries.v -- property theorems C01-C08 and C16 (the container). *)
From Verif Require Import SeriesProofs4 Witness PropTactics.

(* ===================== C01 ===================== *)

(* Any history of appends, accepted or rejected, of points and even of slots: as long as
   the series contains points, they are in strict time order. *)
Theorem C01_append_keeps_order : forall e tz xs,
  let l := s_items (appends e (empty_series tz) xs) in
  (all_points l /\ strictly_increasing (times l)) \/ all_slots l.
Proof. exact appends_order. Qed.
Print Assumptions C01_append_keeps_order.

(* A point is accepted only if it is later than all the items; acceptance adds exactly
   that item at the end, rejection leaves the items alone. *)
Theorem C01_append_effect : forall e tz xs x s' r,
  let s := appends e (empty_series tz) xs in
  is_point x = true -> ts_append e s x = (s', r) ->
  (r = Ok tt /\ s_items s' = s_items s ++ [x] /\ forall y, In y (s_items s) -> Qclt (i_t y) (i_t x)) \/
  (exists er, r = Err er /\ s_items s' = s_items s).
Proof. exact append_effect. Qed.
Print Assumptions C01_append_effect.

(* Conversely, on a series built with accepted appends, a later point of the same shape is accepted. *)
Theorem C01_later_point_accepted : forall e tz xs s x,
  ts_new e tz xs = Ok s -> all_points xs -> is_point x = true ->
  (forall d, exists u, unit_of_s e d = Ok u) ->
  (forall y, In y xs -> same_item_shape y x) ->
  (forall y, In y xs -> Qclt (i_t y) (i_t x)) ->
  exists s', ts_append e s x = (s', Ok tt).
Proof. exact append_accepts. Qed.
Print Assumptions C01_later_point_accepted.

Example C01_nonvacuous :
  let l := s_items (appends ideal_env (empty_series None) [pt 10 1; pt 5 2; pt 20 3; pt 20 4; pt 30 5]) in
  length l = 3 /\ is_ok (ts_new ideal_env None [pt 10 1; pt 20 3; pt 30 5]) = true.
Proof. split; vm_compute; reflexivity. Qed.

(* ===================== C02 ===================== *)

(* The full property (exact succession) fails: at today's epochs the relative tolerance is
   above one second, and the very same one-second slot is accepted twice. *)
Theorem C02_slots_contiguous_refuted : exists xs,
  match ts_new ideal_env None xs with
  | Ok s => all_slots (s_items s) /\ ~ contiguous (s_items s) /\
            exists x, s_items s = [x; x]
  | Err _ => False
  end.
Proof.
  exists [slot 1700000000 1 1; slot 1700000000 1 1].
  vm_compute (ts_new _ _ _). split; [|split].
  - intros x [<-|[<-|[]]]; reflexivity.
  - intros H. specialize (H 0 _ _ eq_refl eq_refl). qc_discriminate H.
  - eexists; reflexivity.
Qed.
Print Assumptions C02_slots_contiguous_refuted.

(* What holds for every history: same timezone, units equal (or judged close by the unit
   library), and succession up to one part in 10^9.  Missing: exact succession. *)
Theorem C02_slots_partial : forall e tz xs,
  (forall u v, unit_close e u v <> Err AttributeError) ->
  let l := s_items (appends e (empty_series tz) xs) in
  all_slots l ->
  nearly_contiguous l /\
  (forall x y, In x l -> In y l -> i_tz x = i_tz y) /\
  (forall first rest x, l = first :: rest -> In x l ->
     i_unit x = i_unit first \/ unit_close e (i_unit first) (i_unit x) = Ok true).
Proof. exact appends_slots. Qed.
Print Assumptions C02_slots_partial.

(* Exact succession on any grid whose step is not below 1/10^9 of the epoch. *)
Theorem C02_slots_on_grid_partial : forall e tz xs g,
  Qclt q0 g ->
  (forall x, In x xs -> exists m n, i_t x = Qcmult (qz m) g /\ i_end x = Qcmult (qz n) g /\
                                    (Z.abs m < 1000000000 /\ Z.abs n < 1000000000)%Z) ->
  let l := s_items (appends e (empty_series tz) xs) in
  all_slots l -> contiguous l.
Proof. exact appends_slots_grid. Qed.
Print Assumptions C02_slots_on_grid_partial.

Example C02_nonvacuous :
  length (s_items (appends ideal_env (empty_series None)
    [slot 0 3600 1; slot 3600 3600 2; slot 3600 3600 9; slot 7200 1800 9; slot 7200 3600 3])) = 3.
Proof. vm_compute. reflexivity. Qed.

(* ===================== C03 ===================== *)

(* If the first item carries some (non-empty) data, every accepted item has the same type
   and the same data shape.  Missing: first items with empty or no data. *)
Theorem C03_same_shape_partial : forall e tz xs first rest,
  s_items (appends e (empty_series tz) xs) = first :: rest ->
  (i_cls first = CDataTimePoint \/ i_cls first = CDataTimeSlot) ->
  (exists d, i_data first = Some d /\ data_truthy d = true) ->
  forall x y, In x (first :: rest) -> In y (first :: rest) -> same_item_shape x y.
Proof. exact appends_shape. Qed.
Print Assumptions C03_same_shape_partial.

Example C03_nonvacuous :
  let xs := [ptd 0 (d2 1 2); ptd 1 (d1 3); ptd 2 (DDict [("b"%string, qz 1); ("a"%string, qz 7)])] in
  length (s_items (appends ideal_env (empty_series None) xs)) = 2.
Proof. vm_compute. reflexivity. Qed.

(* With an empty first data the labels of the following items are not checked against it. *)
Theorem C03_same_shape_refuted : exists xs,
  match ts_new ideal_env None xs with
  | Ok s => exists x y, In x (s_items s) /\ In y (s_items s) /\ ~ same_item_shape x y
  | Err _ => False
  end.
Proof.
  exists [ptd 0 (DDict []); ptd 1 (DList [qz 1])].
  vm_compute (ts_new _ _ _). eexists. eexists. split; [left; reflexivity|].
  split; [right; left; reflexivity|]. intros [_ H]. exact H.
Qed.
Print Assumptions C03_same_shape_refuted.

(* The item type is not always the same either: a DataTimePoint is accepted among TimePoints. *)
Theorem C03_same_type_refuted : exists xs,
  match ts_new ideal_env None xs with
  | Ok s => exists x y, In x (s_items s) /\ In y (s_items s) /\ i_cls x <> i_cls y
  | Err _ => False
  end.
Proof.
  exists [tpt 0; pt 1 1]. vm_compute (ts_new _ _ _).
  eexists. eexists. split; [left; reflexivity|]. split; [right; left; reflexivity|]. discriminate.
Qed.
Print Assumptions C03_same_type_refuted.

(* ===================== C04 ===================== *)

(* A rejected append never changes the items... *)
Theorem C04_rejected_append_keeps_items : forall e s x s' er,
  ts_append e s x = (s', Err er) -> s_items s' = s_items s.
Proof. exact ts_append_err. Qed.
Print Assumptions C04_rejected_append_keeps_items.

(* ...but it changes what follows.  (1) A rejected late point with the wrong labels makes
   a following valid point be rejected, twice. *)
Theorem C04_rejected_append_no_effect_refuted : exists a bad b,
  let s := appends ideal_env (empty_series None) [a] in
  snd (ts_append ideal_env s b) = Ok tt /\
  is_ok (snd (ts_append ideal_env s bad)) = false /\
  let s' := fst (ts_append ideal_env s bad) in
  is_ok (snd (ts_append ideal_env s' b)) = false /\
  let s'' := fst (ts_append ideal_env s' b) in
  is_ok (snd (ts_append ideal_env s'' b)) = false.
Proof.
  exists (pt 10 1), (ptd 30 (d2 1 2)), (pt 20 2). repeat split; vm_compute; reflexivity.
Qed.
Print Assumptions C04_rejected_append_no_effect_refuted.

(* (2) A rejected out-of-order point makes an equally spaced series 'variable'. *)
Theorem C04_rejected_append_resolution_refuted : exists a b c bad,
  resolution (appends ideal_env (empty_series None) [a; b; c]) <> Some RVar /\
  is_ok (snd (ts_append ideal_env (appends ideal_env (empty_series None) [a; b]) bad)) = false /\
  resolution (appends ideal_env (empty_series None) [a; b; bad; c]) = Some RVar.
Proof.
  exists (pt 10 1), (pt 20 2), (pt 30 3), (pt 5 4). repeat split; try (vm_compute; reflexivity).
  vm_compute. discriminate.
Qed.
Print Assumptions C04_rejected_append_resolution_refuted.

(* What holds: for slot series the rejection has no effect at all; for point series this is
   so for a duplicate of the last timestamp.  Missing: other rejected points. *)
Theorem C04_rejected_slot_no_effect_partial : forall e tz xs x s' er,
  (forall u v, unit_close e u v <> Err AttributeError) ->
  let s := appends e (empty_series tz) xs in
  all_slots (s_items s) -> s_items s <> [] -> is_slot x = true ->
  ts_append e s x = (s', Err er) -> s' = s.
Proof. exact rejected_slot_history. Qed.
Print Assumptions C04_rejected_slot_no_effect_partial.

Theorem C04_rejected_duplicate_no_effect_partial : forall e tz xs s x s' er,
  ts_new e tz xs = Ok s -> all_points xs -> xs <> [] -> is_point x = true ->
  last_t xs = Some (i_t x) -> ts_append e s x = (s', Err er) -> s' = s.
Proof. exact rejected_duplicate_no_effect. Qed.
Print Assumptions C04_rejected_duplicate_no_effect_partial.

Example C04_nonvacuous :
  is_ok (snd (ts_append ideal_env (appends ideal_env (empty_series None) [slot 0 60 1; slot 60 60 2]) (slot 180 60 3))) = false /\
  is_ok (snd (ts_append ideal_env (appends ideal_env (empty_series None) [pt 0 1; pt 60 2]) (pt 60 3))) = false.
Proof. split; vm_compute; reflexivity. Qed.

(* ===================== C05 ===================== *)

Theorem C05_resolution_of_points : forall e tz xs s,
  ts_new e tz xs = Ok s -> all_points xs ->
  (length xs < 2 -> resolution s = None) /\
  (2 <= length xs ->
     (forall d, equally_spaced d (times xs) ->
        exists u, unit_of_s e (trunc7 d) = Ok u /\ resolution s = Some (RUnit u)) /\
     ((forall d, ~ equally_spaced d (times xs)) -> resolution s = Some RVar)).
Proof. exact resolution_points. Qed.
Print Assumptions C05_resolution_of_points.

(* and the seconds given to the unit parser are the common distance itself, for distances
   with at most seven decimals *)
Theorem C05_resolution_truncation_exact : forall k : Z,
  trunc7 (Qcdiv (qz k) (qz 10000000)) = Qcdiv (qz k) (qz 10000000).
Proof. exact trunc7_exact. Qed.
Print Assumptions C05_resolution_truncation_exact.

Theorem C05_resolution_of_slots : forall e tz xs first rest,
  (forall u v, unit_close e u v <> Err AttributeError) ->
  s_items (appends e (empty_series tz) xs) = first :: rest -> is_slot first = true ->
  resolution (appends e (empty_series tz) xs) = Some (RUnit (i_unit first)).
Proof. exact resolution_slots. Qed.
Print Assumptions C05_resolution_of_slots.

Example C05_nonvacuous :
  is_ok (ts_new ideal_env None [pt 0 1; pt 60 2; pt 120 3; pt 180 1]) = true /\
  equally_spaced (qz 60) (times [pt 0 1; pt 60 2; pt 120 3; pt 180 1]) /\
  match ts_new ideal_env None [pt 0 1; pt 60 2; pt 121 3; pt 181 3] with
  | Ok s => resolution s = Some RVar | Err _ => False end.
Proof.
  split; [vm_compute; reflexivity|split; [|vm_compute; reflexivity]].
  intros [|[|[|[|i]]]] a b Ha Hb; try discriminate; cbn in Ha, Hb;
    injection Ha as <-; injection Hb as <-; apply Qc_is_canon; reflexivity.
Qed.

(* ===================== C06 ===================== *)

(* Inserting in the middle only checks the previous item: the order can be broken. *)
Theorem C06_insert_order_refuted : exists a b i x,
  match ts_new ideal_env None [a; b] with
  | Ok s => snd (ts_insert ideal_env s i x) = Ok tt /\
            ~ strictly_increasing (times (s_items (fst (ts_insert ideal_env s i x))))
  | Err _ => False
  end.
Proof.
  exists (pt 10 1), (pt 20 2), 1%Z, (pt 30 3).
  vm_compute (ts_new _ _ _). split; [vm_compute; reflexivity|].
  vm_compute (ts_insert _ _ _ _). intros H. specialize (H 1 2 _ _ (le_n 2) eq_refl eq_refl). qc_discriminate H.
Qed.
Print Assumptions C06_insert_order_refuted.

(* What holds: a rejected insertion leaves the items alone; insertions at the two ends
   preserve the order (points) and the succession (slots); the middle of a slot series is
   refused; an accepted insertion puts the item where list.insert would.
   Missing: order for accepted insertions in the middle of a point series. *)
Theorem C06_insert_partial : forall e s i x s' r,
  ts_insert e s i x = (s', r) -> ord_inv (s_items s) ->
  (r <> Ok tt -> s_items s' = s_items s) /\
  (r = Ok tt -> s_items s' = list_insert (s_items s) i x) /\
  (i = 0%Z \/ i = Z.of_nat (length (s_items s)) -> ord_inv (s_items s')) /\
  (s_items s <> [] -> all_slots (s_items s) -> i <> 0%Z -> i <> Z.of_nat (length (s_items s)) -> r <> Ok tt).
Proof. exact insert_facts. Qed.
Print Assumptions C06_insert_partial.

(* An accepted insertion puts the item at the given position, counted from the end when it is negative. *)
Theorem C06_insert_position : forall e s i x s', ts_insert e s i x = (s', Ok tt) -> ord_inv (s_items s) -> with_item_at (s_items s) i x (s_items s').
Proof.
  intros e s i x s' H O. destruct (C06_insert_partial e s i x s' (Ok tt) H O) as (_ & E & _). rewrite (E eq_refl). clear E.
  set (l := s_items s). unfold list_insert. set (n := Z.of_nat (length l)). set (j := if Z.ltb i 0 then Z.max 0 (i + n) else Z.min i n).
  exists (firstn (Z.to_nat j) l), (skipn (Z.to_nat j) l). split; [symmetry; apply firstn_skipn|]. split; [reflexivity|].
  assert (J : (0 <= j <= n)%Z) by (unfold j, n; destruct (Z.ltb_spec i 0); lia).
  split; [|split; [|split]].
  - intros K. rewrite firstn_length_le by lia. unfold j, n in *. destruct (Z.ltb_spec i 0); lia.
  - intros K1 K2. rewrite skipn_length. unfold j, n in *. destruct (Z.ltb_spec i 0); lia.
  - intros K. apply length_zero_iff_nil. rewrite skipn_length. unfold j, n in *. destruct (Z.ltb_spec i 0); lia.
  - intros K1 K2. apply length_zero_iff_nil. rewrite firstn_length_le by lia. unfold j, n in *. destruct (Z.ltb_spec i 0); lia.
Qed.
Print Assumptions C06_insert_position.

Lemma get_nat s i x : nth_error (s_items s) i = Some x -> ts_get_i s (Z.of_nat i) = Ok x.
Proof.
  intros H. unfold ts_get_i. destruct (s_items s) as [|a l] eqn:E; [destruct i; discriminate|]. rewrite <- E in *. destruct (Z.ltb_spec (Z.of_nat i) 0); [lia|].
  assert (L : i < length (s_items s)) by (apply nth_error_Some; congruence). unfold list_get. destruct (Z.ltb_spec (Z.of_nat i) 0); [lia|]. destruct (Z.leb_spec 0 (Z.of_nat i)); [|lia]. destruct (Z.ltb_spec (Z.of_nat i) (Z.of_nat (length (s_items s)))); [|lia]. cbn [andb]. rewrite Nat2Z.id, H. reflexivity.
Qed.
Lemma firstn_snoc {A} i (l : list A) a : nth_error l i = Some a -> firstn (S i) l = firstn i l ++ [a].
Proof. revert i. induction l as [|b l IH]; intros [|i] H; try discriminate; cbn in *; [congruence|]. f_equal. apply IH, H. Qed.
(* Exactly what happens in the middle of a series of points: an item is accepted if it follows the one which is before the position, and then the order
   holds iff it also comes before the one which is at the position. *)
Theorem C06_insert_middle : forall e s i x prev next, all_points (s_items s) -> strictly_increasing (times (s_items s)) ->
  (forall y, In y (s_items s) -> i_cls y = i_cls x) -> nth_error (s_items s) i = Some prev -> nth_error (s_items s) (S i) = Some next ->
  exists s' r, ts_insert e s (Z.of_nat (S i)) x = (s', r) /\
    (r = Ok tt <-> Qclt (i_t prev) (i_t x)) /\
    (r = Ok tt -> (strictly_increasing (times (s_items s')) <-> Qclt (i_t x) (i_t next))).
Proof.
  intros e s i x prev next P O K X Y. destruct (ts_insert e s (Z.of_nat (S i)) x) as [s' r] eqn:E. exists s', r. split; [reflexivity|].
  assert (L : S i < length (s_items s)) by (apply nth_error_Some; congruence).
  assert (Q : ts_insert e s (Z.of_nat (S i)) x = if point_gt x prev then (set_items s (list_insert (s_items s) (Z.of_nat (S i)) x), Ok tt) else (s, Err ValueError)).
  { unfold ts_insert. destruct (s_items s) as [|f l] eqn:El; [cbn in L; lia|]. rewrite <- El in *.
    assert (If : In f (s_items s)) by (rewrite El; left; reflexivity).
    assert (C : cls_isinstance (i_cls x) (i_cls f) = true) by (rewrite (K f If); destruct (i_cls x); reflexivity). rewrite C. cbn [negb].
    destruct (Z.eqb_spec (Z.of_nat (S i)) 0); [lia|]. destruct (Z.eqb_spec (Z.of_nat (S i)) (Z.of_nat (length (s_items s)))); [lia|].
    assert (Sl : is_slot f = false) by (pose proof (P f If) as Pf; unfold is_slot, is_point in *; destruct (i_cls f); try discriminate; reflexivity). rewrite Sl.
    replace (Z.of_nat (S i) - 1)%Z with (Z.of_nat i) by lia. rewrite (get_nat s i prev X), (get_nat s (S i) next Y). reflexivity. }
  assert (LI : list_insert (s_items s) (Z.of_nat (S i)) x = firstn (S i) (s_items s) ++ x :: skipn (S i) (s_items s)).
  { unfold list_insert. destruct (Z.ltb_spec (Z.of_nat (S i)) 0); [lia|]. rewrite Z.min_l by lia. rewrite Nat2Z.id. reflexivity. }
  rewrite LI in Q. clear LI. rewrite Q in E. clear Q. unfold point_gt in E. split.
  - destruct (qltb (i_t prev) (i_t x)) eqn:G; inversion E; subst; split; intros H; try reflexivity; try discriminate.
    + apply qltb_lt, G.
    + apply qltb_true in H. congruence.
  - intros ->. destruct (qltb (i_t prev) (i_t x)) eqn:G; [|discriminate]. apply qltb_lt in G. assert (Es : s' = set_items s (firstn (S i) (s_items s) ++ x :: skipn (S i) (s_items s))) by congruence. clear E. subst s'. destruct s as [l sp sr ss sz sf]. unfold set_items. cbn [s_items] in *.
    rewrite <- (firstn_skipn (S i) l) in O. unfold times in *. rewrite map_app in *. cbn [map]. apply sincr_app in O. destruct O as (O1 & O2 & O3).
    assert (Sk : skipn (S i) l = next :: skipn (S (S i)) l) by (apply skipn_nth_error; exact Y).
    split.
    + intros H. apply sincr_app in H. destruct H as (_ & H & _). apply sincr_cons in H. apply (proj1 H). rewrite Sk. left. reflexivity.
    + intros N. apply sincr_app. split; [exact O1|]. split.
      * apply sincr_cons. split; [|exact O2]. intros t T. rewrite Sk in T, O2. cbn [map] in T, O2. destruct T as [<-|T]; [exact N|]. apply sincr_cons in O2. eapply Qclt_trans; [exact N|apply O2, T].
      * intros a b A [<-|Hb]; [|apply O3; assumption].
        assert (F : firstn (S i) l = firstn i l ++ [prev]) by (rewrite (firstn_snoc i l prev X); reflexivity). rewrite F, map_app in A, O1. cbn [map] in A, O1. eapply Qcle_lt_trans; [exact (sincr_last _ _ _ O1 A)|exact G].
Qed.
Print Assumptions C06_insert_middle.

(* what ord_inv means, in terms of the specification *)
Theorem C06_order_meaning : forall l, ord_inv l ->
  (all_points l /\ strictly_increasing (times l)) \/ (all_slots l /\ nearly_contiguous l).
Proof. exact ord_inv_meaning. Qed.
Print Assumptions C06_order_meaning.

Example C06_nonvacuous :
  snd (ts_insert ideal_env (appends ideal_env (empty_series None) [pt 10 1; pt 20 2]) 0 (pt 5 3)) = Ok tt /\
  snd (ts_insert ideal_env (appends ideal_env (empty_series None) [pt 10 1; pt 20 2]) 1 (pt 15 3)) = Ok tt /\
  is_ok (snd (ts_insert ideal_env (appends ideal_env (empty_series None) [pt 10 1; pt 20 2]) 1 (pt 5 3))) = false.
Proof. repeat split; vm_compute; reflexivity. Qed.
Example C06_insert_middle_nonvacuous : let s := appends ideal_env (empty_series None) [pt 10 1; pt 20 2] in
  all_points (s_items s) /\ strictly_increasing (times (s_items s)) /\ (forall y, In y (s_items s) -> i_cls y = i_cls (pt 15 3)) /\
  nth_error (s_items s) 0 = Some (pt 10 1) /\ nth_error (s_items s) 1 = Some (pt 20 2).
Proof.
  cbv zeta. assert (E : s_items (appends ideal_env (empty_series None) [pt 10 1; pt 20 2]) = [pt 10 1; pt 20 2]) by (vm_compute; reflexivity). rewrite E.
  split; [intros y [<-|[<-|[]]]; reflexivity|]. split; [apply sincr_consecutive; intros [|[|i]] a b; cbn; try discriminate; intros [= <-] [= <-]; apply qltb_lt; vm_compute; reflexivity|]. split; [intros y [<-|[<-|[]]]; reflexivity|]. split; reflexivity.
Qed.

(* ===================== C07 ===================== *)

Theorem C07_pop : forall s i s' r,
  ts_pop s i = (s', r) ->
  match r with
  | Ok x => exists l1 l2, s_items s = l1 ++ x :: l2 /\ s_items s' = l1 ++ l2 /\
      Z.of_nat (length l1) =
        (match i with
         | None => Z.of_nat (length (s_items s)) - 1
         | Some i => if Z.ltb i 0 then i + Z.of_nat (length (s_items s)) else i
         end)%Z
  | Err _ => s' = s
  end /\ (ord_inv (s_items s) -> ord_inv (s_items s')).
Proof. exact pop_facts. Qed.
Print Assumptions C07_pop.

Theorem C07_remove : forall s x s' r,
  ts_remove s x = (s', r) ->
  match r with
  | Ok _ => exists l1 y l2, s_items s = l1 ++ y :: l2 /\ s_items s' = l1 ++ l2 /\ item_eqb y x = true /\
              (forall z, In z l1 -> item_eqb z x = false)
  | Err _ => s' = s
  end /\ (ord_inv (s_items s) -> ord_inv (s_items s')).
Proof. exact remove_facts. Qed.
Print Assumptions C07_remove.

Theorem C07_clear : forall s, s_items (fst (ts_clear s)) = [] /\ snd (ts_clear s) = Ok tt.
Proof. exact clear_facts. Qed.
Print Assumptions C07_clear.

(* After popping the last point, it cannot be put back. *)
Theorem C07_usable_after_pop_refuted : exists a b,
  match ts_new ideal_env None [a; b] with
  | Ok s => match ts_pop s None with
            | (s', Ok x) => x = b /\ s_items s' = [a] /\ Qclt (i_t a) (i_t b) /\
                            is_ok (snd (ts_append ideal_env s' x)) = false
            | (_, Err _) => False
            end
  | Err _ => False
  end.
Proof.
  exists (pt 10 1), (pt 20 2). vm_compute (ts_new _ _ _). vm_compute (ts_pop _ _).
  split; [reflexivity|split; [reflexivity|split; [|vm_compute; reflexivity]]]. apply qltb_lt. reflexivity.
Qed.
Print Assumptions C07_usable_after_pop_refuted.

(* After clear, the old resolution still decides which slots are accepted. *)
Theorem C07_clear_is_fresh_refuted : exists a b x,
  match ts_new ideal_env None [a; b] with
  | Ok s => s_items (fst (ts_clear s)) = [] /\
            is_ok (snd (ts_append ideal_env (fst (ts_clear s)) x)) = false /\
            is_ok (snd (ts_append ideal_env (empty_series None) x)) = true
  | Err _ => False
  end.
Proof.
  exists (slot 0 60 1), (slot 60 60 2), (slot 0 3600 1). repeat split; vm_compute; reflexivity.
Qed.
Print Assumptions C07_clear_is_fresh_refuted.

Example C07_nonvacuous :
  is_ok (snd (ts_pop (appends ideal_env (empty_series None) [pt 10 1; pt 20 2; pt 30 3]) (Some 1%Z))) = true /\
  is_ok (snd (ts_remove (appends ideal_env (empty_series None) [pt 10 1; pt 20 2]) (pt 10 1))) = true.
Proof. split; vm_compute; reflexivity. Qed.

(* ===================== C08 ===================== *)

Theorem C08_no_mutation_breaks_order_refuted : exists os,
  let l := s_items (run ideal_env (empty_series None) os) in
  all_points l /\ ~ strictly_increasing (times l).
Proof.
  exists [OAppend (pt 10 1); OAppend (pt 20 2); OInsert 1 (pt 30 3)].
  vm_compute (run _ _ _). split.
  - intros x [<-|[<-|[<-|[]]]]; reflexivity.
  - intros H. specialize (H 1 2 _ _ (le_n 2) eq_refl eq_refl). qc_discriminate H.
Qed.
Print Assumptions C08_no_mutation_breaks_order_refuted.

(* Every other mutation preserves it, in any combination, whatever the outcomes. *)
Theorem C08_mutations_keep_order_partial : forall e tz os,
  no_middle_insert e (empty_series tz) os ->
  let l := s_items (run e (empty_series tz) os) in
  (all_points l /\ strictly_increasing (times l)) \/ (all_slots l /\ nearly_contiguous l).
Proof. exact run_order. Qed.
Print Assumptions C08_mutations_keep_order_partial.

Example C08_nonvacuous :
  let os := [OAppend (pt 10 1); OInsert 0 (pt 5 2); OSort; OAppend (pt 20 3); OPop None; OAppend (pt 20 3);
             OAppend (pt 40 1); ORemove (pt 5 2); OInsert 2 (pt 50 1); OPop (Some (-2)%Z); OReverse] in
  no_middle_insert ideal_env (empty_series None) os /\ length (s_items (run ideal_env (empty_series None) os)) = 2.
Proof. split; [repeat split; cbn; auto|vm_compute; reflexivity]. Qed.

(* ===================== C16 ===================== *)

(* duplicate() succeeds and gives an identical series (items, resolution, reference data,
   timezone): in particular any later call behaves the same on the copy. *)
Theorem C16_duplicate_points : forall e tz xs s,
  ts_new e tz xs = Ok s -> all_points xs -> ts_duplicate e s = Ok s.
Proof. exact duplicate_points. Qed.
Print Assumptions C16_duplicate_points.

Theorem C16_duplicate_slots : forall e tz xs s,
  (forall u v, unit_close e u v <> Err AttributeError) ->
  ts_new e tz xs = Ok s -> all_slots xs -> ts_duplicate e s = Ok s.
Proof. exact duplicate_slots. Qed.
Print Assumptions C16_duplicate_slots.

Example C16_nonvacuous :
  is_ok (ts_new ideal_env None [pt 0 1; pt 60 2; pt 130 3]) = true /\
  is_ok (ts_new ideal_env None [slot 0 60 1; slot 60 60 2]) = true /\
  (forall u v, unit_close ideal_env u v <> Err AttributeError).
Proof. split; [vm_compute; reflexivity|split; [vm_compute; reflexivity|]]. intros u v. discriminate. Qed.

(* A series whose order was broken by an insertion cannot be duplicated. *)
Theorem C16_duplicate_after_insert_refuted : exists os,
  is_ok (ts_duplicate ideal_env (run ideal_env (empty_series None) os)) = false.
Proof. exists [OAppend (pt 10 1); OAppend (pt 20 2); OInsert 1 (pt 30 3)]. vm_compute. reflexivity. Qed.
Print Assumptions C16_duplicate_after_insert_refuted.
