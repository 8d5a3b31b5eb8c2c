(* AccessProofs2.v -- lemmas on partitions, resolutions of slices, views, timezones,
   dictionaries and labels. *)
From Verif Require Export AccessProofs.

Lemma sel_t_all l : sel_t None None l = l.
Proof. induction l as [|x l IH]; [reflexivity|]. cbn. rewrite IH. reflexivity. Qed.

Lemma sel_t_partition l t : wf_points l -> sel_t None (Some t) l ++ sel_t (Some t) None l = l.
Proof.
  induction l as [|x l IH]; intros Hw; [reflexivity|].
  assert (Hw' : wf_points l). { apply (wf_points_sub [x] l []). cbn. rewrite app_nil_r. exact Hw. }
  destruct Hw as (H1 & H2 & _). cbn in H2. apply sincr_cons in H2. destruct H2 as [H2 _].
  cbn [sel_t]. rewrite slot_point, (H1 x) by (left; reflexivity). cbn [negb].
  destruct (qleb_spec t (i_t x)) as [H|H].
  - rewrite (qltb_false (i_t x) t) by exact H. cbn. rewrite sel_t_above, sel_t_all; [reflexivity|].
    intros a y [= <-] Hy. specialize (H2 _ (in_map i_t _ _ Hy)). qlra.
  - rewrite (qltb_true (i_t x) t) by qlra. cbn. f_equal. apply IH, Hw'.
Qed.

Lemma slice_t_items e s a b r : ts_slice_t e s a b = Ok r -> a = None \/ b = None -> s_items r = sel_t a b (s_items s).
Proof.
  unfold ts_slice_t. destruct (s_items s) as [|x l]; [discriminate|]. intros H Hab.
  assert (E : (do r <- ts_of_items e (sel_t a b (x :: l)); Ok (reset_ref r)) = Ok r) by (destruct Hab as [->| ->]; [|destruct a]; exact H).
  destruct (ts_of_items e _) as [r'|] eqn:Er; [|discriminate]. cbn in E. injection E as <-.
  rewrite reset_ref_items. eapply ts_new_items, Er.
Qed.

Lemma slice_t_partition e s t :
  parses_units e -> wf_points (s_items s) -> s_items s <> [] ->
  exists a b, ts_slice_t e s None (Some t) = Ok a /\ ts_slice_t e s (Some t) None = Ok b /\
              s_items a ++ s_items b = s_items s.
Proof.
  intros He Hw Hne.
  destruct (slice_t_spec e s None (Some t) He (or_introl Hw) Hne) as (a & Ha & _).
  destruct (slice_t_spec e s (Some t) None He (or_introl Hw) Hne) as (b & Hb & _).
  exists a, b. repeat split; try assumption.
  rewrite (slice_t_items _ _ _ _ _ Ha), (slice_t_items _ _ _ _ _ Hb) by auto. apply sel_t_partition, Hw.
Qed.

(* ---------------- resolutions ---------------- *)

Lemma equally_spaced_sub d l1 l l2 : equally_spaced d (l1 ++ l ++ l2) -> equally_spaced d l.
Proof. unfold equally_spaced. intros H. apply consecutive_app_r in H. apply consecutive_app_l in H. exact H. Qed.

Lemma sub_resolution_points e tz tz' xs ys s r u l1 l2 :
  ts_new e tz xs = Ok s -> ts_new e tz' ys = Ok r -> all_points xs -> xs = l1 ++ ys ++ l2 ->
  2 <= length ys -> s_res s = Some (RUnit u) -> s_res r = Some (RUnit u).
Proof.
  intros Hs Hr Hp E Hlen Hu.
  assert (Hp' : all_points ys). { intros x Hx. apply Hp. rewrite E, !in_app_iff. auto. }
  pose proof (ts_new_point_inv _ _ _ _ Hs Hp) as Is. pose proof (ts_new_point_inv _ _ _ _ Hr Hp') as Ir.
  pose proof (ts_new_items _ _ _ _ Hs) as Es. pose proof (ts_new_items _ _ _ _ Hr) as Er.
  unfold point_inv in *. rewrite Es in Is. rewrite Er in Ir.
  destruct ys as [|y1 [|y2 ys]]; [cbn in Hlen; lia|cbn in Hlen; lia|].
  assert (Is' : exists d, equally_spaced d (times xs) /\ unit_of_s e (trunc7 d) = Ok u).
  { destruct xs as [|x1 [|x2 xs]]; [destruct Is as (_ & Is & _); congruence|destruct Is as (_ & Is & _); congruence|].
    destruct Is as [_ [(d & u' & H1 & _ & H3 & H4)|[_ H4]]]; [|congruence]. exists d. split; [exact H1|congruence]. }
  destruct Is' as (d & Hd & Hud). rewrite E in Hd. unfold times in Hd. rewrite !map_app in Hd. apply equally_spaced_sub in Hd.
  destruct Ir as [_ [(d' & u' & H1 & _ & H3 & H4)|[Hn _]]]; [|exfalso; exact (Hn d Hd)].
  rewrite H4. f_equal. f_equal.
  assert (d' = d) as -> by (transitivity (i_t y2 - i_t y1)%Qc; [symmetry; apply (H1 0); reflexivity|apply (Hd 0); reflexivity]).
  congruence.
Qed.

Lemma slice_i_new e s a b r : ts_slice_i e s a b = Ok r -> s_items r <> [] ->
  exists r', ts_new e None (s_items r) = Ok r' /\ s_res r = s_res r'.
Proof.
  unfold ts_slice_i. destruct (s_items s) as [|x l]; [discriminate|]. intros H Hne.
  match type of H with context [do r <- ?X; Ok (reset_ref r)] => set (go := X) in * end.
  assert (E : (do r <- go; Ok (reset_ref r)) = Ok r).
  { destruct a, b; cbn in H; try exact H. destruct (_ <=? _)%Z; [injection H as <-; cbn in Hne; congruence|exact H]. }
  unfold go in E. destruct (ts_of_items e _) as [r'|] eqn:Er; [|discriminate]. cbn in E. injection E as <-.
  exists r'. rewrite reset_ref_items, reset_ref_res, (ts_new_items _ _ _ _ Er). split; [exact Er|reflexivity].
Qed.
Lemma slice_t_new e s a b r : ts_slice_t e s a b = Ok r -> s_items r <> [] ->
  exists r', ts_new e None (s_items r) = Ok r' /\ s_res r = s_res r'.
Proof.
  unfold ts_slice_t. destruct (s_items s) as [|x l]; [discriminate|]. intros H Hne.
  match type of H with context [do r <- ?X; Ok (reset_ref r)] => set (go := X) in * end.
  assert (E : (do r <- go; Ok (reset_ref r)) = Ok r).
  { destruct a, b; cbn in H; try exact H. destruct (qleb _ _); [injection H as <-; cbn in Hne; congruence|exact H]. }
  unfold go in E. destruct (ts_of_items e _) as [r'|] eqn:Er; [|discriminate]. cbn in E. injection E as <-.
  exists r'. rewrite reset_ref_items, reset_ref_res, (ts_new_items _ _ _ _ Er). split; [exact Er|reflexivity].
Qed.

Lemma ts_new_slots_res e tz l s : (forall u v, unit_close e u v <> Err AttributeError) ->
  ts_new e tz l = Ok s -> all_slots l -> forall x l', l = x :: l' -> s_res s = Some (RUnit (i_unit x)).
Proof.
  intros Hc. revert s. induction l as [|x l IH] using rev_ind; intros s Hs Ha y l' E; [discriminate|].
  unfold ts_new in Hs. fold (append_or_raise e) in Hs. rewrite foldM_app in Hs. cbn in Hs.
  destruct (foldM _ l _) as [s1|] eqn:E1; [|discriminate]. cbn in Hs.
  destruct (append_or_raise e s1 x) as [s2|] eqn:E2; [|discriminate]. cbn in Hs. injection Hs as ->.
  apply append_or_raise_ok in E2.
  assert (Hx : is_slot x = true) by (apply Ha, in_or_app; right; left; reflexivity).
  pose proof (foldM_append_items _ _ _ _ E1) as Hi. cbn in Hi.
  unfold ts_append in E2. rewrite point_slot, Hx in E2. cbn in E2. unfold append_slot in E2.
  destruct (match series_tz s1 with None => _ | Some _ => _ end) as [sa ra] eqn:Ea.
  assert (Hra : s_res sa = s_res s1).
  { destruct (series_tz s1); [destruct (s_tz s1); [destruct (String.eqb _ _)|]|]; injection Ea as <- <-; reflexivity. }
  destruct ra as [[]|]; [|discriminate]. destruct (check_unit e sa x) as [sb rb] eqn:Eb.
  destruct rb as [[]|]; [|discriminate]. destruct (series_append_fields _ _ _ _ E2) as (Hf & _). rewrite Hf. clear E2 Hf.
  unfold check_unit in Eb. rewrite Hra in Eb.
  destruct l as [|a l].
  - cbn in E1. injection E1 as <-. cbn in Eb, E. injection Eb as <-. injection E as <- <-. reflexivity.
  - cbn in E. injection E as <- <-.
    assert (Hres : s_res s1 = Some (RUnit (i_unit a))).
    { eapply (IH s1 E1); [|reflexivity]. intros z Hz. apply Ha, in_or_app. left; exact Hz. }
    rewrite Hres in Eb. destruct (tunit_eqb _ _); [injection Eb as <-; congruence|].
    destruct (unit_close e _ _) as [[]|er] eqn:Eu; [injection Eb as <-; congruence|discriminate|].
    pose proof (Hc (i_unit a) (i_unit x)). destruct er; try discriminate. congruence.
Qed.

(* ---------------- views ---------------- *)

Lemma nth_error_firstn {A} (l : list A) n i : nth_error (firstn n l) i = if i <? n then nth_error l i else None.
Proof.
  revert n i. induction l as [|x l IH]; intros [|n] [|i]; cbn; try reflexivity.
  - match goal with |- context [if ?b then _ else _] => destruct b end; reflexivity.
  - rewrite IH. reflexivity.
Qed.
Lemma nth_error_skipn {A} (l : list A) n i : nth_error (skipn n l) i = nth_error l (n + i).
Proof. revert n. induction l as [|x l IH]; intros [|n]; cbn; try reflexivity; [destruct i; reflexivity|apply IH]. Qed.

Definition in_window (v : view) : Prop :=
  (0 <= v_from v <= v_to v)%Z /\ (v_to v <= Z.of_nat (length (s_items (v_series v))))%Z.
Definition window (v : view) : list item := py_slice (s_items (v_series v)) (Some (v_from v)) (Some (v_to v)).

Lemma window_eq v : in_window v ->
  window v = firstn (Z.to_nat (v_to v - v_from v)) (skipn (Z.to_nat (v_from v)) (s_items (v_series v))).
Proof.
  intros [H1 H2]. unfold window, py_slice, py_clamp. cbv zeta.
  destruct (Z.ltb_spec (v_from v) 0), (Z.ltb_spec (v_to v) 0); try lia. do 2 f_equal; lia.
Qed.
Lemma window_length v : in_window v -> Z.of_nat (length (window v)) = (v_to v - v_from v)%Z.
Proof. intros H. rewrite window_eq by exact H. destruct H as [H1 H2]. rewrite firstn_length, skipn_length. lia. Qed.
Lemma window_nth v i : in_window v -> (0 <= i < v_to v - v_from v)%Z ->
  nth_error (window v) (Z.to_nat i) = nth_error (s_items (v_series v)) (Z.to_nat (v_from v + i)).
Proof.
  intros H Hi. rewrite window_eq by exact H. destruct H as [H1 H2].
  rewrite nth_error_firstn. destruct (Nat.ltb_spec (Z.to_nat i) (Z.to_nat (v_to v - v_from v))); [|lia].
  rewrite nth_error_skipn. f_equal. lia.
Qed.

Lemma mapM_map {A B} (f : A -> result B) l ys : mapM f l = Ok ys <-> Forall2 (fun x y => f x = Ok y) l ys.
Proof.
  revert ys. induction l as [|x l IH]; intros ys; cbn.
  - split; [intros [= <-]; constructor|intros H; inversion H; reflexivity].
  - split.
    + destruct (f x) as [y|] eqn:E; [|discriminate]. cbn. destruct (mapM f l) as [zs|]; [|discriminate]. cbn.
      intros [= <-]. constructor; [exact E|]. apply IH. reflexivity.
    + intros H. inversion H as [|? y ? zs Hx Hl]; subst. rewrite Hx. cbn. apply IH in Hl. rewrite Hl. reflexivity.
Qed.

Lemma view_items_ok v : in_window v -> view_items v = Ok (window v).
Proof.
  intros H. pose proof H as [H1 H2]. unfold view_items.
  destruct (s_items (v_series v)) as [|x l] eqn:E.
  { rewrite window_eq by exact H. rewrite E, skipn_nil, firstn_nil. reflexivity. }
  rewrite <- E in *. clear x l E. apply mapM_map.
  unfold zrange. rewrite window_eq by exact H.
  set (f := v_from v) in *. set (L := s_items (v_series v)) in *.
  assert (G : forall m k, (f + Z.of_nat k + Z.of_nat m <= Z.of_nat (length L))%Z ->
    Forall2 (fun x y => ts_get_i (v_series v) x = Ok y)
      (map (fun k => (f + Z.of_nat k)%Z) (seq k m)) (firstn m (skipn (Z.to_nat f + k) L))).
  { induction m as [|m IH]; intros k Hk; [constructor|]. cbn [seq map].
    destruct (nth_error L (Z.to_nat f + k)) as [y|] eqn:Ey.
    2:{ apply nth_error_None in Ey. lia. }
    rewrite (skipn_nth_error _ _ _ Ey). cbn [firstn]. constructor.
    - rewrite ts_get_i_in_range by lia. unfold py_index. destruct (Z.leb_spec 0 (f + Z.of_nat k)); [|lia].
      fold L. replace (Z.to_nat (f + Z.of_nat k)) with (Z.to_nat f + k) by lia. rewrite Ey. reflexivity.
    - replace (S (Z.to_nat f + k)) with (Z.to_nat f + S k) by lia. apply IH. lia. }
  specialize (G (Z.to_nat (v_to v - f)) 0). rewrite Nat.add_0_r in G. apply G. lia.
Qed.

Lemma view_get_ok v i : in_window v -> (- (v_to v - v_from v) <= i < v_to v - v_from v)%Z ->
  exists x, py_index (window v) i = Some x /\ view_get v i = Ok x.
Proof.
  intros H Hi. pose proof H as [H1 H2]. pose proof (window_length v H) as Hl.
  unfold view_get. destruct (s_items (v_series v)) as [|x l] eqn:E; [cbn in H2; lia|].
  rewrite <- E in *. clear x l E. unfold py_index.
  assert (G : forall j, (0 <= j < v_to v - v_from v)%Z ->
     exists x, nth_error (window v) (Z.to_nat j) = Some x /\ ts_get_i (v_series v) (v_from v + j) = Ok x).
  { intros j Hj. rewrite window_nth by assumption.
    destruct (nth_error (s_items (v_series v)) (Z.to_nat (v_from v + j))) as [y|] eqn:Ey.
    2:{ apply nth_error_None in Ey. lia. }
    exists y. split; [reflexivity|]. rewrite ts_get_i_in_range by lia. unfold py_index.
    destruct (Z.leb_spec 0 (v_from v + j)); [|lia]. rewrite Ey. reflexivity. }
  destruct (Z.leb_spec 0 i).
  - apply G. lia.
  - destruct (G (i + (v_to v - v_from v))%Z) as (x & Hx & Hg); [lia|].
    exists x. split.
    + destruct (Z.leb_spec 0 (i + Z.of_nat (length (window v)))); [|lia]. rewrite <- Hx. f_equal. lia.
    + rewrite <- Hg. f_equal. lia.
Qed.

(* slices of a view with bounds inside of the window *)
Definition bound_in (n : Z) (b : option Z) : Prop := forall i, b = Some i -> (- n <= i <= n)%Z.

Lemma skipn_skipn2 {A} (l : list A) a b : skipn b (skipn a l) = skipn (a + b) l.
Proof. revert l. induction a as [|a IH]; intros [|x l]; cbn; [reflexivity|reflexivity|apply skipn_nil|apply IH]. Qed.
Lemma firstn_skipn_comm2 {A} (l : list A) a n b m :
  b + m <= n ->
  firstn m (skipn b (firstn n (skipn a l))) = firstn m (skipn (a + b) l).
Proof.
  intros H. rewrite skipn_firstn_comm, firstn_firstn, skipn_skipn2. f_equal. lia.
Qed.

Lemma view_slice_ok e v a b : parses_units e -> wf_items (s_items (v_series v)) ->
  s_items (v_series v) <> [] -> in_window v ->
  bound_in (v_to v - v_from v) a -> bound_in (v_to v - v_from v) b ->
  exists r, view_slice e v a b = Ok r /\ s_items r = py_slice (window v) a b.
Proof.
  intros He Hw Hne H Ha Hb. pose proof H as [H1 H2]. pose proof (window_length v H) as Hl.
  unfold view_slice, ts_brackets. destruct (s_items (v_series v)) as [|x l] eqn:E; [congruence|].
  rewrite <- E in *. clear x l E. cbn [bound_i bind].
  match goal with |- context [ts_slice_i e _ (Some ?A) (Some ?B)] => set (A' := A); set (B' := B) end.
  destruct (slice_i_spec e (v_series v) (Some A') (Some B') He Hw Hne) as (r & Hr & Hi).
  exists r. split; [exact Hr|]. rewrite Hi. unfold py_slice at 2. cbv zeta. rewrite Hl.
  rewrite window_eq by exact H. set (n := (v_to v - v_from v)%Z) in *.
  set (a1 := match a with Some i => py_clamp n i | None => 0%Z end).
  set (b1 := match b with Some i => py_clamp n i | None => n end).
  assert (Ea : A' = (v_from v + a1)%Z /\ (0 <= a1 <= n)%Z).
  { unfold A', a1. destruct a as [a|]; [|lia]. specialize (Ha a eq_refl). unfold py_clamp.
    destruct (Z.leb_spec 0 a), (Z.ltb_spec a 0); lia. }
  assert (Eb : B' = (v_from v + b1)%Z /\ (0 <= b1 <= n)%Z).
  { unfold B', b1. destruct b as [b|]; [|lia]. specialize (Hb b eq_refl). unfold py_clamp.
    destruct (Z.leb_spec 0 b), (Z.ltb_spec b 0); lia. }
  destruct Ea as [EA Ia], Eb as [EB Ib]. clearbody A' B' a1 b1. clear Ha Hb.
  unfold py_slice. cbv zeta. unfold py_clamp. rewrite EA, EB.
  destruct (Z.ltb_spec (v_from v + a1) 0); [lia|]. destruct (Z.ltb_spec (v_from v + b1) 0); [lia|].
  rewrite !Z.min_l by lia.
  destruct (Z.le_gt_cases b1 a1).
  - replace (Z.to_nat (v_from v + b1 - (v_from v + a1))) with 0 by lia.
    replace (Z.to_nat (b1 - a1)) with 0 by lia. reflexivity.
  - rewrite firstn_skipn_comm2 by lia. f_equal; [lia|]. f_equal. lia.
Qed.

(* ---------------- timezones ---------------- *)

Lemma detect_tz_some l z : (forall x, In x l -> i_tz x = z) -> detect_tz (Some z) l = Some z.
Proof.
  induction l as [|x l IH]; intros H; [reflexivity|]. cbn. rewrite (H x (or_introl eq_refl)), String.eqb_refl.
  apply IH. intros y Hy. apply H. right; exact Hy.
Qed.
Lemma detect_tz_diff l z : (exists x, In x l /\ i_tz x <> z) -> detect_tz (Some z) l = Some "UTC"%string.
Proof.
  induction l as [|x l IH]; intros (y & Hy & Hz); [destruct Hy|]. cbn.
  destruct (String.eqb_spec (i_tz x) z); [|reflexivity]. apply IH. destruct Hy as [<-|Hy]; [contradiction|eauto].
Qed.

Lemma point_append_tz e s it : is_point it = true -> s_tz (fst (ts_append e s it)) = s_tz s.
Proof.
  intros Hp. unfold ts_append. rewrite Hp. unfold append_point.
  assert (H : forall s1, s_tz s1 = s_tz s -> s_tz (fst (series_append s1 it)) = s_tz s).
  { intros s1 E. destruct (series_append s1 it) as [s2 r] eqn:Es. destruct (series_append_fields _ _ _ _ Es) as (_ & _ & F & _).
    cbn. rewrite F. exact E. }
  destruct (s_prev_t s); [|apply H; reflexivity]. destruct (s_items s); [apply H; reflexivity|].
  destruct (qltb _ _); [reflexivity|]. destruct (qeqb _ _); [reflexivity|].
  destruct (s_res s) as [[|u]|]; [apply H; reflexivity| |].
  - destruct (s_res_s s); [|reflexivity]. destruct (negb _); apply H; reflexivity.
  - destruct (unit_of_s e _); [apply H; reflexivity|reflexivity].
Qed.
Lemma appends_points_tz e s xs : all_points xs -> s_tz (appends e s xs) = s_tz s.
Proof.
  revert s. induction xs as [|x xs IH]; intros s H; [reflexivity|]. unfold appends in *. cbn.
  rewrite IH; [apply point_append_tz, H; left; reflexivity|]. intros y Hy. apply H. right; exact Hy.
Qed.
