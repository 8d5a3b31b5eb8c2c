(* PropAccess.v -- property theorems C09-C15 and C17-C20. *)
From Verif Require Import AccessProofs3 Witness PropTactics.

(* a small healthy series used by the examples *)
Definition five : list item := [pt 0 1; pt 10 2; pt 20 3; pt 30 4; pt 40 5].
Definition five_s : series := match ts_new ideal_env None five with Ok s => s | Err _ => empty_series None end.
Definition slots3 : list item := [slot 0 10 1; slot 10 10 2; slot 20 10 3].
Lemma five_wf : wf_points (s_items five_s).
Proof.
  vm_compute (s_items five_s). split; [|split].
  - intros x [<-|[<-|[<-|[<-|[<-|[]]]]]]; reflexivity.
  - apply sincr_consecutive. intros [|[|[|[|[|[|i]]]]]] a b; cbn; try discriminate;
      intros [= <-] [= <-]; apply qltb_lt; vm_compute; reflexivity.
  - intros x y [<-|[<-|[<-|[<-|[<-|[]]]]]] [<-|[<-|[<-|[<-|[<-|[]]]]]]; split; try reflexivity; cbn; tauto.
Qed.
Lemma slots3_wf : wf_slots slots3.
Proof.
  split; [|split; [|split]].
  - intros x [<-|[<-|[<-|[]]]]; reflexivity.
  - intros [|[|[|[|i]]]] a b; cbn; try discriminate; intros [= <-] [= <-]; reflexivity.
  - intros x [<-|[<-|[<-|[]]]]; apply qltb_lt; vm_compute; reflexivity.
  - intros x y [<-|[<-|[<-|[]]]] [<-|[<-|[<-|[]]]]; repeat split; try reflexivity; cbn; tauto.
Qed.
Lemma ideal_parses : parses_units ideal_env.
Proof. intros d. eexists. reflexivity. Qed.

(* ===================== C09 ===================== *)

(* Within one length from the end, and for any non negative position, as a Python list. *)
Theorem C09_get_by_position_partial : forall s i,
  (- Z.of_nat (length (s_items s)) <= i)%Z ->
  ts_get_i s i = match py_index (s_items s) i with Some x => Ok x | None => Err IndexError end.
Proof. exact ts_get_i_in_range. Qed.
Print Assumptions C09_get_by_position_partial.

Example C09_nonvacuous : exists x, ts_get_i five_s (-2) = Ok x /\ i_t x = qz 30 /\ ts_get_i five_s 5 = Err IndexError.
Proof. eexists. split; [vm_compute; reflexivity|split; vm_compute; reflexivity]. Qed.

(* Too negative positions wrap a second time instead of raising. *)
Theorem C09_get_by_position_refuted : exists i x,
  (i < - Z.of_nat (length (s_items five_s)))%Z /\ ts_get_i five_s i = Ok x.
Proof. exists (-6)%Z. eexists. split; [vm_compute; reflexivity|vm_compute; reflexivity]. Qed.
Print Assumptions C09_get_by_position_refuted.

(* ===================== C10 ===================== *)

Theorem C10_get_by_time : forall s t,
  s_items s <> [] -> strictly_increasing (times (s_items s)) ->
  (exists x, ts_get_t s t = Ok x /\ In x (s_items s) /\ i_t x = t /\
             forall y, In y (s_items s) -> i_t y = t -> y = x) \/
  (ts_get_t s t = Err ValueError /\ forall x, In x (s_items s) -> i_t x <> t).
Proof.
  intros s t Hne Hs. unfold ts_get_t. destruct (s_items s) as [|a l] eqn:E; [congruence|]. rewrite <- E in *.
  destruct (item_by_t (s_items s) t) as [x|er] eqn:Ex.
  - left. exists x. apply item_by_t_ok in Ex. destruct Ex as [Hx Ht]. split; [reflexivity|]. split; [exact Hx|split; [exact Ht|]].
    intros y Hy Hyt. apply (sincr_unique (s_items s)); [exact Hs|exact Hy|exact Hx|congruence].
  - right. apply item_by_t_err in Ex. destruct Ex as [-> H]. auto.
Qed.
Print Assumptions C10_get_by_time.

Example C10_nonvacuous : is_ok (ts_get_t five_s (qz 20)) = true /\ is_ok (ts_get_t five_s (qz 21)) = false.
Proof. split; vm_compute; reflexivity. Qed.

(* ===================== C11 ===================== *)

Theorem C11_slice_by_position : forall e s from to,
  parses_units e -> wf_items (s_items s) -> s_items s <> [] ->
  exists r, ts_slice_i e s from to = Ok r /\ s_items r = py_slice (s_items s) from to.
Proof. exact slice_i_spec. Qed.
Print Assumptions C11_slice_by_position.

(* the square brackets, with at least one integer bound *)
Theorem C11_brackets : forall e s a b,
  parses_units e -> wf_items (s_items s) -> s_items s <> [] -> (a <> None \/ b <> None) ->
  exists r, ts_brackets e s (match a with Some i => BInt i | None => BNone end)
                            (match b with Some i => BInt i | None => BNone end) = Ok r /\
            s_items r = py_slice (s_items s) a b.
Proof.
  intros e s a b He Hw Hne Hab. destruct (slice_i_spec e s a b He Hw Hne) as (r & Hr & Hi). exists r. split; [|exact Hi].
  unfold ts_brackets. destruct (s_items s) eqn:E; [congruence|].
  destruct a, b; cbn; try exact Hr. destruct Hab; congruence.
Qed.
Print Assumptions C11_brackets.

(* head and tail are the first and the last n items, for n not above... any positive n *)
Theorem C11_head_tail : forall e s n,
  parses_units e -> wf_items (s_items s) -> s_items s <> [] -> (0 < n)%Z ->
  ts_head e s n = Ok (firstn (Z.to_nat n) (s_items s)) /\
  ts_tail e s n = Ok (skipn (length (s_items s) - Z.to_nat n) (s_items s)).
Proof.
  intros e s n He Hw Hne Hn. unfold ts_head, ts_tail. split.
  - destruct (C11_brackets e s (Some 0%Z) (Some n) He Hw Hne) as (r & Hr & Hi); [left; discriminate|].
    rewrite Hr. cbn [bind]. rewrite Hi. f_equal. unfold py_slice, py_clamp. cbv zeta.
    destruct (Z.ltb_spec 0 0); [lia|]. destruct (Z.ltb_spec n 0); [lia|].
    replace (Z.to_nat (Z.min 0 (Z.of_nat (length (s_items s))))) with 0 by lia. cbn [skipn].
    destruct (Nat.le_ge_cases (Z.to_nat n) (length (s_items s))).
    + f_equal. lia.
    + rewrite !firstn_all2 by lia. reflexivity.
  - destruct (C11_brackets e s (Some (- n)%Z) None He Hw Hne) as (r & Hr & Hi); [left; discriminate|].
    rewrite Hr. cbn [bind]. rewrite Hi. f_equal. unfold py_slice, py_clamp. cbv zeta.
    destruct (Z.ltb_spec (- n) 0); [|lia].
    rewrite firstn_all2 by (rewrite skipn_length; lia). f_equal. lia.
Qed.
Print Assumptions C11_head_tail.

Example C11_nonvacuous :
  match ts_slice_i ideal_env five_s (Some (-3)%Z) (Some 100%Z) with
  | Ok r => map i_t (s_items r) = [qz 20; qz 30; qz 40]
  | Err _ => False
  end /\ s_items five_s <> [] /\ wf_items (s_items five_s) /\ parses_units ideal_env.
Proof.
  split; [vm_compute; reflexivity|]. split; [vm_compute; discriminate|].
  split; [left; exact five_wf|exact ideal_parses].
Qed.

(* series[:] , with no bound at all, raises instead of giving the whole series. *)
Theorem C11_no_bounds_refuted : ts_brackets ideal_env five_s BNone BNone = Err ValueError.
Proof. reflexivity. Qed.
Print Assumptions C11_no_bounds_refuted.

(* tail(0) is the whole series and not the empty list. *)
Theorem C11_tail_zero_refuted : ts_tail ideal_env five_s 0 = Ok (s_items five_s) /\ s_items five_s <> [].
Proof. split; [vm_compute; reflexivity|vm_compute; discriminate]. Qed.
Print Assumptions C11_tail_zero_refuted.

(* ===================== C12 ===================== *)

(* Exactly the items inside the interval, in the original order; it never raises. *)
Theorem C12_slice_by_time : forall e s from to,
  parses_units e -> wf_items (s_items s) -> s_items s <> [] ->
  exists r, ts_slice_t e s from to = Ok r /\
            filtered (in_interval from to) (s_items s) (s_items r).
Proof. intros e s a b He Hw Hne. destruct (slice_t_spec e s a b He Hw Hne) as (r & H1 & H2 & _). eauto. Qed.
Print Assumptions C12_slice_by_time.

Example C12_nonvacuous :
  match ts_slice_t ideal_env five_s (Some (qz 5)) (Some (qz 30)) with
  | Ok r => map i_t (s_items r) = [qz 10; qz 20]
  | Err _ => False
  end /\
  match ts_new ideal_env None slots3 with
  | Ok s => s_items s = slots3 /\
            match ts_slice_t ideal_env s (Some (qz 5)) (Some (qz 29)) with
            | Ok r => map i_t (s_items r) = [qz 10] | Err _ => False end
  | Err _ => False
  end /\ wf_items slots3.
Proof. split; [vm_compute; reflexivity|]. split; [vm_compute; split; reflexivity|right; exact slots3_wf]. Qed.

(* ===================== C13 ===================== *)

Theorem C13_time_slices_partition : forall e s t,
  parses_units e -> wf_points (s_items s) -> s_items s <> [] ->
  exists before after,
    ts_slice_t e s None (Some t) = Ok before /\ ts_slice_t e s (Some t) None = Ok after /\
    s_items before ++ s_items after = s_items s.
Proof. exact slice_t_partition. Qed.
Print Assumptions C13_time_slices_partition.

Example C13_nonvacuous : parses_units ideal_env /\ wf_points (s_items five_s) /\ s_items five_s <> [].
Proof. split; [exact ideal_parses|split; [exact five_wf|vm_compute; discriminate]]. Qed.

(* ===================== C14 ===================== *)

Theorem C14_slice_is_well_formed : forall e s from to r,
  parses_units e -> wf_items (s_items s) -> s_items s <> [] ->
  (forall i j, from = inl i -> to = inl j -> ts_slice_i e s i j = Ok r -> wf_items (s_items r)) /\
  (forall a b, from = inr a -> to = inr b -> ts_slice_t e s a b = Ok r -> wf_items (s_items r)).
Proof.
  intros e s from to r He Hw Hne. split; intros a b _ _ H.
  - destruct (slice_i_spec e s a b He Hw Hne) as (r' & Hr & Hi). rewrite H in Hr. injection Hr as <-.
    rewrite Hi. destruct (py_slice_sub (s_items s) a b) as (l1 & l2 & E). rewrite E in Hw. eapply wf_items_sub, Hw.
  - destruct (slice_t_spec e s a b He Hw Hne) as (r' & Hr & _ & l1 & l2 & E). rewrite H in Hr. injection Hr as <-.
    rewrite E in Hw. eapply wf_items_sub, Hw.
Qed.
Print Assumptions C14_slice_is_well_formed.

(* A slice of two points at least of a series with a constant resolution has the same one. *)
Theorem C14_slice_resolution_by_position : forall e tz xs s i j r u,
  parses_units e -> ts_new e tz xs = Ok s -> wf_points xs ->
  resolution s = Some (RUnit u) -> ts_slice_i e s i j = Ok r -> 2 <= length (s_items r) ->
  resolution r = Some (RUnit u).
Proof.
  intros e tz xs s i j r u He Hs Hw Hu Hr Hl. pose proof (ts_new_items _ _ _ _ Hs) as Hi.
  destruct (slice_i_new _ _ _ _ _ Hr) as (r' & Hn & Hres); [intros E; rewrite E in Hl; cbn in Hl; lia|].
  unfold resolution in *. rewrite Hres.
  destruct (slice_i_spec e s i j He) as (r2 & Hr2 & Hi2); [rewrite Hi; left; exact Hw|intros E; unfold ts_slice_i in Hr; rewrite E in Hr; discriminate|].
  rewrite Hr in Hr2. injection Hr2 as <-. destruct (py_slice_sub (s_items s) i j) as (l1 & l2 & E). rewrite <- Hi2, Hi in E.
  apply (sub_resolution_points e tz None xs (s_items r) s r' u l1 l2); auto. apply Hw.
Qed.
Print Assumptions C14_slice_resolution_by_position.

Theorem C14_slice_resolution_by_time : forall e tz xs s a b r u,
  parses_units e -> ts_new e tz xs = Ok s -> wf_points xs ->
  resolution s = Some (RUnit u) -> ts_slice_t e s a b = Ok r -> 2 <= length (s_items r) ->
  resolution r = Some (RUnit u).
Proof.
  intros e tz xs s a b r u He Hs Hw Hu Hr Hl. pose proof (ts_new_items _ _ _ _ Hs) as Hi.
  destruct (slice_t_new _ _ _ _ _ Hr) as (r' & Hn & Hres); [intros E; rewrite E in Hl; cbn in Hl; lia|].
  unfold resolution in *. rewrite Hres.
  destruct (slice_t_spec e s a b He) as (r2 & Hr2 & _ & l1 & l2 & E); [rewrite Hi; left; exact Hw|intros E; unfold ts_slice_t in Hr; rewrite E in Hr; discriminate|].
  rewrite Hr in Hr2. injection Hr2 as <-. rewrite Hi in E.
  apply (sub_resolution_points e tz None xs (s_items r) s r' u l1 l2); auto. apply Hw.
Qed.
Print Assumptions C14_slice_resolution_by_time.

Example C14_nonvacuous :
  match ts_new ideal_env None five with
  | Ok s => (exists u, resolution s = Some (RUnit u) /\ tunit_eqb u (UPhys (qz 10)) = true) /\
            match ts_slice_i ideal_env s (Some 1%Z) (Some 3%Z) with
            | Ok r => length (s_items r) = 2 | Err _ => False end
  | Err _ => False end.
Proof. vm_compute. split; [|reflexivity]. eexists. split; reflexivity. Qed.

(* ===================== C15 ===================== *)

(* A window inside the series: the length, the iteration and the materialised copy. *)
Theorem C15_view_contents : forall e v,
  parses_units e -> wf_items (s_items (v_series v)) -> s_items (v_series v) <> [] ->
  (0 <= v_from v <= v_to v)%Z -> (v_to v <= Z.of_nat (length (s_items (v_series v))))%Z ->
  let sub := py_slice (s_items (v_series v)) (Some (v_from v)) (Some (v_to v)) in
  view_len v = Z.of_nat (length sub) /\ view_items v = Ok sub /\
  exists r, view_materialize e v = Ok r /\ s_items r = sub.
Proof.
  intros e v He Hw Hne H1 H2 sub. assert (H : in_window v) by (split; assumption).
  split; [|split].
  - change sub with (window v). rewrite window_length by exact H. clear sub.
    unfold view_len. destruct (s_items (v_series v)); [congruence|reflexivity].
  - apply view_items_ok, H.
  - unfold view_materialize. rewrite (view_items_ok v H). cbn.
    apply ts_of_items_ok; [exact He|]. destruct (py_slice_sub (s_items (v_series v)) (Some (v_from v)) (Some (v_to v))) as (l1 & l2 & E).
    rewrite E in Hw. eapply wf_items_sub, Hw.
Qed.
Print Assumptions C15_view_contents.

(* Positional access and slices with bounds inside the window.  Missing: positions outside of
   the window (see the refutation). *)
Theorem C15_view_access_partial : forall v i,
  (0 <= v_from v <= v_to v)%Z -> (v_to v <= Z.of_nat (length (s_items (v_series v))))%Z ->
  (- (v_to v - v_from v) <= i < v_to v - v_from v)%Z ->
  exists x, py_index (py_slice (s_items (v_series v)) (Some (v_from v)) (Some (v_to v))) i = Some x /\
            view_get v i = Ok x.
Proof. intros v i H1 H2 Hi. apply (view_get_ok v i (conj H1 H2) Hi). Qed.
Print Assumptions C15_view_access_partial.

Theorem C15_view_slice_partial : forall e v a b,
  parses_units e -> wf_items (s_items (v_series v)) -> s_items (v_series v) <> [] ->
  (0 <= v_from v <= v_to v)%Z -> (v_to v <= Z.of_nat (length (s_items (v_series v))))%Z ->
  (forall i, a = Some i \/ b = Some i -> (- (v_to v - v_from v) <= i <= v_to v - v_from v)%Z) ->
  exists r, view_slice e v a b = Ok r /\
            s_items r = py_slice (py_slice (s_items (v_series v)) (Some (v_from v)) (Some (v_to v))) a b.
Proof.
  intros e v a b He Hw Hne H1 H2 H. apply (view_slice_ok e v a b He Hw Hne (conj H1 H2)); intros i Hi; apply H; auto.
Qed.
Print Assumptions C15_view_slice_partial.

Example C15_nonvacuous :
  let v := mkView five_s 1 4 in
  view_len v = 3%Z /\ (exists x, view_get v (-3) = Ok x /\ i_t x = qz 10) /\
  match view_slice ideal_env v (Some (-2)%Z) None with Ok r => map i_t (s_items r) = [qz 20; qz 30] | Err _ => False end.
Proof. split; [reflexivity|]. split; [eexists; split; vm_compute; reflexivity|vm_compute; reflexivity]. Qed.

(* Outside of the window a view does not raise: it leaks the items of the whole series. *)
Theorem C15_view_access_refuted : exists v i x,
  v_from v = 1%Z /\ v_to v = 3%Z /\ v_series v = five_s /\ i = 2%Z /\
  view_get v i = Ok x /\ ~ In x (py_slice (s_items five_s) (Some 1%Z) (Some 3%Z)).
Proof.
  exists (mkView five_s 1 3), 2%Z. eexists. do 4 (split; [reflexivity|]). split; [vm_compute; reflexivity|].
  vm_compute (py_slice _ _ _). intros [H|[H|[]]]; apply (f_equal i_t) in H; cbn in H; qc_discriminate H.
Qed.
Print Assumptions C15_view_access_refuted.

(* ===================== C17 ===================== *)

Definition same_but_tz (x y : item) : Prop :=
  i_cls x = i_cls y /\ i_t x = i_t y /\ i_end x = i_end y /\ i_unit x = i_unit y /\
  i_data x = i_data y /\ i_idx x = i_idx y.

Theorem C17_change_tz_partial : forall s tz s',
  s_items s <> [] -> ts_change_tz s tz = (s', Ok tt) ->
  series_tz s' = Some tz /\ (forall x, In x (s_items s') -> i_tz x = tz) /\
  Forall2 same_but_tz (s_items s) (s_items s') /\ resolution s' = resolution s.
Proof.
  intros s tz s' Hne. unfold ts_change_tz. destruct (s_items s) as [|a l] eqn:E; [congruence|]. rewrite <- E. intros [= <-].
  repeat split.
  - cbn. intros x Hx. apply in_map_iff in Hx. destruct Hx as (y & <- & _). reflexivity.
  - cbn. clear. induction (s_items s); constructor; [repeat split|assumption].
Qed.
Print Assumptions C17_change_tz_partial.

(* as_tz of a series built with points: a series on the new timezone with the same items. *)
Theorem C17_as_tz_partial : forall e tz0 xs s tz,
  ts_new e tz0 xs = Ok s -> all_points xs -> xs <> [] ->
  exists s', ts_as_tz e s tz = Ok s' /\ series_tz s' = Some tz /\
    (forall x, In x (s_items s') -> i_tz x = tz) /\ Forall2 same_but_tz (s_items s) (s_items s') /\
    resolution s' = resolution s.
Proof.
  intros e tz0 xs s tz Hs Hp Hne. unfold ts_as_tz. rewrite (duplicate_points _ _ _ _ Hs Hp). cbn.
  pose proof (ts_new_items _ _ _ _ Hs) as Hi.
  destruct (ts_change_tz s tz) as [s' r] eqn:E.
  assert (r = Ok tt) as ->. { unfold ts_change_tz in E. rewrite Hi in E. destruct xs; [congruence|]. congruence. }
  exists s'. split; [reflexivity|]. apply (C17_change_tz_partial s tz s'); [congruence|exact E].
Qed.
Print Assumptions C17_as_tz_partial.

Example C17_nonvacuous : is_ok (ts_as_tz ideal_env five_s "Europe/Rome") = true.
Proof. vm_compute. reflexivity. Qed.

(* On an empty series change_tz raises (an unbound variable). *)
Theorem C17_change_tz_empty_refuted : exists s tz er, snd (ts_change_tz s tz) = Err er.
Proof. exists (empty_series None), "UTC"%string, UnboundLocalError. reflexivity. Qed.
Print Assumptions C17_change_tz_empty_refuted.

(* ===================== C18 ===================== *)

Theorem C18_timezone_summary : forall e xs,
  all_points xs ->
  let s := appends e (empty_series None) xs in
  (s_items s = [] -> series_tz s = None) /\
  (forall z, s_items s <> [] -> (forall x, In x (s_items s) -> i_tz x = z) -> series_tz s = Some z) /\
  (forall x y, In x (s_items s) -> In y (s_items s) -> i_tz x <> i_tz y -> series_tz s = Some "UTC"%string).
Proof.
  intros e xs Hp s. assert (Ht : s_tz s = None) by (unfold s; rewrite appends_points_tz by exact Hp; reflexivity).
  unfold series_tz. rewrite Ht. destruct (s_items s) as [|a l].
  - repeat split; [congruence|intros ? ? []].
  - split; [discriminate|]. split.
    + intros z _ H. cbn. rewrite (H a (or_introl eq_refl)). apply detect_tz_some. intros x Hx. apply H. right; exact Hx.
    + intros x y Hx Hy Hne. cbn. apply detect_tz_diff.
      destruct (String.eqb_spec (i_tz x) (i_tz a)) as [E|E].
      * exists y. split; [|congruence]. destruct Hy as [<-|Hy]; [congruence|exact Hy].
      * exists x. split; [|exact E]. destruct Hx as [<-|Hx]; [congruence|exact Hx].
Qed.
Print Assumptions C18_timezone_summary.

Example C18_nonvacuous :
  series_tz (appends ideal_env (empty_series None) [ptz 0 "Europe/Rome"; ptz 1 "Europe/Rome"]) = Some "Europe/Rome"%string /\
  series_tz (appends ideal_env (empty_series None) [ptz 0 "Europe/Rome"; ptz 1 "Asia/Tokyo"]) = Some "UTC"%string.
Proof. split; vm_compute; reflexivity. Qed.

(* ===================== C19 ===================== *)

(* Missing: epochs that a datetime does not represent exactly (see the refutation). *)
Theorem C19_dict_round_trip_points_partial : forall e k s,
  parses_units e -> wf_points (s_items s) ->
  (forall x, In x (s_items s) -> i_data x <> None) ->
  (forall x, In x (s_items s) -> dt_epoch k (i_t x) = i_t x) ->
  exists m s', ts_to_dict k s = Ok m /\ ts_from_dict e k m None = Ok s' /\
    times (s_items s') = times (s_items s) /\ map i_data (s_items s') = map i_data (s_items s) /\
    map i_tz (s_items s') = map i_tz (s_items s) /\ all_points (s_items s').
Proof. exact round_trip_points. Qed.
Print Assumptions C19_dict_round_trip_points_partial.

Theorem C19_dict_round_trip_slots_partial : forall e k s u,
  parses_units e -> wf_slots (s_items s) ->
  (forall x, In x (s_items s) -> i_data x <> None) ->
  (forall x, In x (s_items s) -> dt_epoch k (i_t x) = i_t x) ->
  (forall x, In x (s_items s) -> i_unit x = u /\ slot_end k (i_t x) u = i_end x) ->
  exists m s', ts_to_dict k s = Ok m /\ ts_from_dict e k m (Some u) = Ok s' /\
    times (s_items s') = times (s_items s) /\ map i_end (s_items s') = map i_end (s_items s) /\
    map i_data (s_items s') = map i_data (s_items s) /\ map i_unit (s_items s') = map i_unit (s_items s).
Proof. exact round_trip_slots. Qed.
Print Assumptions C19_dict_round_trip_slots_partial.

(* datetimes keep microseconds; physical units add seconds *)
Definition micro_dt : dtenv :=
  mkDtenv (fun x => Qcdiv (qz (qtrunc (Qcmult x (qz 1000000)))) (qz 1000000))
          (fun t u => match u with UPhys s => Qcplus t s | UCal _ => t end).
Example C19_nonvacuous :
  (match ts_to_dict micro_dt five_s with
   | Ok m => match ts_from_dict ideal_env micro_dt m None with Ok s' => items_same (s_items s') five = true | Err _ => False end
   | Err _ => False end) /\
  (forall x, In x (s_items five_s) -> dt_epoch micro_dt (i_t x) = i_t x).
Proof.
  split; [vm_compute; reflexivity|]. vm_compute (s_items five_s).
  intros x [<-|[<-|[<-|[<-|[<-|[]]]]]]; apply qeqb_eq; vm_compute; reflexivity.
Qed.

(* Two points in the same microsecond come back as one. *)
Theorem C19_dict_round_trip_refuted : exists a b,
  match ts_new ideal_env None [a; b] with
  | Ok s => match ts_to_dict micro_dt s with
            | Ok m => match ts_from_dict ideal_env micro_dt m None with
                      | Ok s' => length (s_items s) = 2 /\ length (s_items s') = 1 | Err _ => False end
            | Err _ => False end
  | Err _ => False end.
Proof.
  exists (mkItem CDataTimePoint (qfrac 1 10000000) (qfrac 1 10000000) (UPhys q0) "UTC" (Some (d1 1)) [] None),
         (mkItem CDataTimePoint (qfrac 2 10000000) (qfrac 2 10000000) (UPhys q0) "UTC" (Some (d1 2)) [] None).
  vm_compute. split; reflexivity.
Qed.
Print Assumptions C19_dict_round_trip_refuted.

(* ===================== C20 ===================== *)

(* Everything but the data is the same. *)
Definition same_but_data (x y : item) : Prop :=
  i_cls x = i_cls y /\ i_t x = i_t y /\ i_end x = i_end y /\ i_unit x = i_unit y /\ i_tz x = i_tz y /\ i_idx x = i_idx y.

(* The value under the old label is found under the new one, all the others are as before. *)
Theorem C20_rename_label_partial : forall s old new s',
  (forall x d, In x (s_items s) -> i_data x = Some (DDict d) -> NoDup (map fst d)) ->
  (* missing: a new label already in use *)
  (forall x d, In x (s_items s) -> i_data x = Some (DDict d) -> new <> old -> dget new d = None) ->
  ts_rename_label s old new = Ok s' ->
  Forall2 (fun x y => same_but_data x y /\
    exists d d', i_data x = Some (DDict d) /\ i_data y = Some (DDict d') /\
      dget new d' = dget old d /\ (new <> old -> dget old d' = None) /\
      (forall k, k <> old -> k <> new -> dget k d' = dget k d) /\ length d' = length d)
   (s_items s) (s_items s').
Proof.
  intros s old new s' Hnd Hnew H. apply rename_items in H. eapply Forall2_impl; [|exact H].
  intros x y Hx (d & v & Hd & Hv & ->). split; [repeat split|].
  exists d, (dset new v (ddel old d)). split; [exact Hd|]. split; [reflexivity|].
  specialize (Hnd x d Hx Hd). split; [|split; [|split]].
  - rewrite dget_dset, String.eqb_refl. congruence.
  - intros Hno. rewrite dget_dset. destruct (String.eqb_spec old new); [congruence|].
    rewrite dget_ddel, String.eqb_refl by exact Hnd. reflexivity.
  - intros k H1 H2. rewrite dget_dset. destruct (String.eqb_spec k new); [contradiction|].
    rewrite dget_ddel by exact Hnd. destruct (String.eqb_spec k old); [contradiction|reflexivity].
  - assert (Hl : length (ddel old d) + 1 = length d).
    { clear - Hv. induction d as [|[k w] d IH]; [discriminate|]. cbn in *. destruct (String.eqb old k); [lia|].
      cbn. rewrite <- IH by exact Hv. lia. }
    assert (Hg : dget new (ddel old d) = None).
    { rewrite dget_ddel by exact Hnd. destruct (String.eqb_spec new old); [reflexivity|]. apply (Hnew x); assumption. }
    rewrite <- Hl.
    pose proof (dkeys_dset new v (ddel old d)) as Hk. unfold dmem in Hk. rewrite Hg in Hk.
    apply (f_equal (@length string)) in Hk. unfold dkeys in Hk. rewrite app_length, !map_length in Hk. exact Hk.
Qed.
Print Assumptions C20_rename_label_partial.

(* It always succeeds on items with that label. *)
Theorem C20_rename_label_succeeds : forall s old new,
  (forall x, In x (s_items s) -> exists d v, i_data x = Some (DDict d) /\ dget old d = Some v) ->
  (exists d, s_ref s = Some (Some d) /\ data_truthy d = true) ->
  exists s', ts_rename_label s old new = Ok s'.
Proof.
  intros s old new H (d & Hd & Ht). apply rename_succeeds; [exact H|]. unfold ref_missing.
  destruct (s_items s); [reflexivity|]. rewrite Hd, Ht. reflexivity.
Qed.
Print Assumptions C20_rename_label_succeeds.

Theorem C20_remove_label : forall s label s',
  (forall x d, In x (s_items s) -> i_data x = Some (DDict d) -> NoDup (map fst d)) ->
  ts_remove_label s label = Ok s' ->
  Forall2 (fun x y => same_but_data x y /\
    exists d d', i_data x = Some (DDict d) /\ i_data y = Some (DDict d') /\
      dget label d' = None /\ (forall k, k <> label -> dget k d' = dget k d))
   (s_items s) (s_items s').
Proof.
  intros s label s' Hnd H. apply remove_label_items in H. eapply Forall2_impl; [|exact H].
  intros x y Hx (d & Hd & ->). split; [repeat split|]. exists d, (ddel label d). split; [exact Hd|]. split; [reflexivity|].
  specialize (Hnd x d Hx Hd). split.
  - rewrite dget_ddel, String.eqb_refl by exact Hnd. reflexivity.
  - intros k Hk. rewrite dget_ddel by exact Hnd. destruct (String.eqb_spec k label); [contradiction|reflexivity].
Qed.
Print Assumptions C20_remove_label.

Theorem C20_remove_index : forall s index s',
  (forall x, In x (s_items s) -> NoDup (map fst (i_idx x))) ->
  ts_remove_index s index = Ok s' ->
  Forall2 (fun x y => i_cls x = i_cls y /\ i_t x = i_t y /\ i_end x = i_end y /\ i_tz x = i_tz y /\ i_data x = i_data y /\
    dget index (i_idx y) = None /\ (forall k, k <> index -> dget k (i_idx y) = dget k (i_idx x)))
   (s_items s) (s_items s').
Proof.
  intros s index s' Hnd H. apply remove_index_items in H. rewrite H. clear H.
  induction (s_items s) as [|x l IH]; [constructor|]. cbn. constructor.
  - cbn. repeat split.
    + rewrite dget_ddel, String.eqb_refl by (apply Hnd; left; reflexivity). reflexivity.
    + intros k Hk. rewrite dget_ddel by (apply Hnd; left; reflexivity). destruct (String.eqb_spec k index); [contradiction|reflexivity].
  - apply IH. intros y Hy. apply Hnd. right; exact Hy.
Qed.
Print Assumptions C20_remove_index.

Theorem C20_remove_data_loss : forall s s',
  (forall x, In x (s_items s) -> NoDup (map fst (i_idx x))) ->
  ts_remove_data_loss s = Ok s' ->
  map i_data (s_items s') = map i_data (s_items s) /\ times (s_items s') = times (s_items s) /\
  forall y, In y (s_items s') -> data_loss y = None.
Proof.
  intros s s' Hnd H. apply remove_index_items in H. rewrite H. unfold times. rewrite !map_map.
  split; [reflexivity|]. split; [reflexivity|].
  intros y Hy. apply in_map_iff in Hy. destruct Hy as (x & <- & Hx). unfold data_loss. cbn [i_idx set_idx].
  rewrite dget_ddel by (apply Hnd, Hx). reflexivity.
Qed.
Print Assumptions C20_remove_data_loss.

Example C20_nonvacuous :
  match ts_new ideal_env None [ptd 0 (d2 1 2); ptd 1 (d2 3 4)] with
  | Ok s => match ts_rename_label s "a" "c" with
            | Ok s' => map i_data (s_items s') =
                       [Some (DDict [("b"%string, qz 2); ("c"%string, qz 1)]); Some (DDict [("b"%string, qz 4); ("c"%string, qz 3)])]
            | Err _ => False end
  | Err _ => False end.
Proof. vm_compute. reflexivity. Qed.

(* Renaming onto a label in use destroys the data of that label. *)
Theorem C20_rename_onto_existing_refuted :
  match ts_new ideal_env None [ptd 0 (d2 1 2); ptd 1 (d2 3 4)] with
  | Ok s => match ts_rename_label s "a" "b" with
            | Ok s' => map i_data (s_items s') = [Some (DDict [("b"%string, qz 1)]); Some (DDict [("b"%string, qz 3)])]
            | Err _ => False end
  | Err _ => False end.
Proof. vm_compute. reflexivity. Qed.
Print Assumptions C20_rename_onto_existing_refuted.
