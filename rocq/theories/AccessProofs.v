(* AccessProofs.v -- lemmas on access, slicing and views. *)
From Verif Require Export Access SpecAccess SeriesProofs4.

(* ---------------- building a series from healthy items ---------------- *)

Lemma ts_new_snoc e tz l x s s' :
  ts_new e tz l = Ok s -> ts_append e s x = (s', Ok tt) -> ts_new e tz (l ++ [x]) = Ok s'.
Proof.
  unfold ts_new. fold (append_or_raise e). intros H1 H2. rewrite foldM_app, H1. cbn.
  unfold append_or_raise. rewrite H2. reflexivity.
Qed.

Lemma wf_points_sub l1 l l2 : wf_points (l1 ++ l ++ l2) -> wf_points l.
Proof.
  intros (H1 & H2 & H3). split; [|split].
  - intros x Hx. apply H1. rewrite !in_app_iff. auto.
  - unfold times in *. rewrite !map_app in H2. apply sincr_app in H2. destruct H2 as (_ & H2 & _).
    apply sincr_app in H2. apply H2.
  - intros x y Hx Hy. apply H3; rewrite !in_app_iff; auto.
Qed.
Lemma wf_points_prefix l l2 : wf_points (l ++ l2) -> wf_points l.
Proof. exact (wf_points_sub [] l l2). Qed.

Lemma wf_slots_sub l1 l l2 : wf_slots (l1 ++ l ++ l2) -> wf_slots l.
Proof.
  intros (H1 & H2 & H3 & H4). split; [|split; [|split]].
  - intros x Hx. apply H1. rewrite !in_app_iff. auto.
  - apply consecutive_app_r in H2. apply consecutive_app_l in H2. exact H2.
  - intros x Hx. apply H3. rewrite !in_app_iff. auto.
  - intros x y Hx Hy. apply H4; rewrite !in_app_iff; auto.
Qed.
Lemma wf_slots_prefix l l2 : wf_slots (l ++ l2) -> wf_slots l.
Proof. exact (wf_slots_sub [] l l2). Qed.
Lemma wf_items_sub l1 l l2 : wf_items (l1 ++ l ++ l2) -> wf_items l.
Proof. intros [H|H]; [left; eapply wf_points_sub, H|right; eapply wf_slots_sub, H]. Qed.

Lemma ts_new_points_ok e tz l :
  parses_units e -> wf_points l -> exists s, ts_new e tz l = Ok s.
Proof.
  intros He. induction l as [|x l IH] using rev_ind; intros Hw.
  - eexists; reflexivity.
  - destruct (IH (wf_points_prefix _ _ Hw)) as [s Hs]. destruct Hw as (H1 & H2 & H3).
    destruct (append_accepts e tz l s x Hs) as [s' Hs'].
    + intros y Hy. apply H1, in_or_app. auto.
    + apply H1, in_or_app. right; left; reflexivity.
    + exact He.
    + intros y Hy. apply H3; apply in_or_app; [left; exact Hy|right; left; reflexivity].
    + intros y Hy. unfold times in H2. rewrite map_app in H2. apply sincr_app in H2.
      apply H2; [apply in_map, Hy|left; reflexivity].
    + exists s'. eapply ts_new_snoc; eassumption.
Qed.

(* state of a slot series with equal units *)
Definition slots_state (s : series) (l : list item) : Prop :=
  s_items s = l /\ ref_inv s /\
  match l with
  | [] => s_tz s = None /\ s_res s = None
  | x :: _ => s_tz s = Some (i_tz x) /\ s_res s = Some (RUnit (i_unit x))
  end.

Lemma series_append_frame s it s' r : series_append s it = (s', r) ->
  s_tz s' = s_tz s /\ s_res s' = s_res s.
Proof. intros H. destruct (series_append_fields _ _ _ _ H) as (A & _ & B & _). split; assumption. Qed.

Lemma ts_new_slots_ok_st e l :
  wf_slots l -> exists s, ts_new e None l = Ok s /\ slots_state s l.
Proof.
  induction l as [|x l IH] using rev_ind; intros Hw.
  - eexists; split; [reflexivity|]. repeat split; left; reflexivity.
  - destruct (IH (wf_slots_prefix _ _ Hw)) as (s & Hs & (Hi & Hr & Hst)). destruct Hw as (H1 & H2 & H3 & H4).
    assert (Hx : is_slot x = true) by (apply H1, in_or_app; right; left; reflexivity).
    assert (Happ : exists s', ts_append e s x = (s', Ok tt) /\
       s_tz s' = Some (i_tz x) /\ s_res s' = Some (RUnit (i_unit x))).
    { unfold ts_append. rewrite point_slot, Hx. cbn [negb]. unfold append_slot, series_tz, check_unit.
      destruct l as [|a l].
      - destruct Hst as [Ht Hres]. rewrite Ht, Hi. cbn [detect_tz set_tz s_res]. rewrite Hres.
        unfold series_append, set_res, set_tz. cbn [s_items]. rewrite Hi. cbn. eexists; repeat split; reflexivity.
      - destruct Hst as [Ht Hres]. rewrite Ht.
        destruct (H4 a x) as (Hsh & Hu & Htz); [left; reflexivity|apply in_or_app; right; left; reflexivity|].
        rewrite Htz, String.eqb_refl, Hres, Hu, tunit_eqb_refl.
        destruct (series_append_accepts s x Hr) as [s' Hs'].
        + intros y Hy. rewrite Hi in Hy. apply H4; apply in_or_app; [left; exact Hy|right; left; reflexivity].
        + intros last Hl. rewrite Hi in Hl. apply last_item_some in Hl. destruct Hl as [l' El].
          unfold follows. rewrite Hx. unfold succeeds. apply orb_true_iff. left. rewrite El in H2.
          assert (i_t x = i_end last) as ->; [|apply qeqb_refl].
          apply (H2 (length l')).
          * rewrite nth_error_app1; [|rewrite app_length; cbn; lia]. rewrite nth_error_snoc, Nat.eqb_refl. reflexivity.
          * rewrite nth_error_snoc, app_length. cbn. rewrite Nat.add_1_r, Nat.eqb_refl. reflexivity.
        + exists s'. split; [exact Hs'|]. destruct (series_append_frame _ _ _ _ Hs') as [-> ->].
          rewrite Ht, Hres, Hu, Htz. split; reflexivity. }
    destruct Happ as (s' & Hs' & Ht' & Hr').
    exists s'. split; [eapply ts_new_snoc; eassumption|]. split; [|split].
    + rewrite (proj1 (ts_append_ok _ _ _ _ Hs')), Hi. reflexivity.
    + pose proof (ts_append_ref_inv e s x Hr) as H. rewrite Hs' in H. exact H.
    + destruct l as [|a l]; cbn; [split; assumption|].
      destruct (H4 a x) as (Hsh & Hu & Htz); [left; reflexivity|apply in_or_app; right; left; reflexivity|].
      rewrite Hu, Htz. split; assumption.
Qed.

Lemma ts_of_items_ok e l :
  parses_units e -> wf_items l -> exists s, ts_of_items e l = Ok s /\ s_items s = l.
Proof.
  intros He [Hw|Hw].
  - destruct (ts_new_points_ok e None l He Hw) as [s Hs]. exists s. split; [exact Hs|]. eapply ts_new_items, Hs.
  - destruct (ts_new_slots_ok_st e l Hw) as (s & Hs & Hst). exists s. split; [exact Hs|apply Hst].
Qed.

Lemma reset_ref_items s : s_items (reset_ref s) = s_items s.
Proof. unfold reset_ref. destruct (s_items s) as [|x l] eqn:E; [exact E|]. destruct (i_data x); exact E. Qed.
Lemma reset_ref_res s : s_res (reset_ref s) = s_res s.
Proof. unfold reset_ref. destruct (s_items s) as [|x l]; [reflexivity|]. destruct (i_data x); reflexivity. Qed.

(* ---------------- positional access ---------------- *)

Lemma list_get_nth {A} (l : list A) (i : Z) :
  list_get l i = match py_index l i with Some x => Ok x | None => Err IndexError end.
Proof.
  unfold list_get, py_index.
  destruct (Z.ltb_spec i 0) as [Hi|Hi].
  - destruct (Z.leb_spec 0 i); [lia|]. destruct (Z.leb_spec 0 (i + Z.of_nat (length l))); cbn; [|reflexivity].
    destruct (Z.ltb_spec (i + Z.of_nat (length l)) (Z.of_nat (length l))); [reflexivity|lia].
  - destruct (Z.leb_spec 0 i); [|lia]. cbn. destruct (Z.ltb_spec i (Z.of_nat (length l))); [reflexivity|].
    destruct (nth_error l (Z.to_nat i)) eqn:E; [|reflexivity].
    assert (nth_error l (Z.to_nat i) <> None) by congruence. apply nth_error_Some in H1. lia.
Qed.

Lemma ts_get_i_in_range s i :
  (- Z.of_nat (length (s_items s)) <= i)%Z ->
  ts_get_i s i = match py_index (s_items s) i with Some x => Ok x | None => Err IndexError end.
Proof.
  intros H. unfold ts_get_i.
  assert (Hgo : list_get (s_items s) (if (i <? 0)%Z then (Z.of_nat (length (s_items s)) - Z.abs i)%Z else i) =
                match py_index (s_items s) i with Some x => Ok x | None => Err IndexError end).
  { rewrite list_get_nth. unfold py_index. destruct (Z.ltb_spec i 0) as [Hi|Hi]; [|reflexivity].
    destruct (Z.leb_spec 0 i); [lia|].
    replace (Z.of_nat (length (s_items s)) - Z.abs i)%Z with (i + Z.of_nat (length (s_items s)))%Z by lia.
    destruct (Z.leb_spec 0 (i + Z.of_nat (length (s_items s)))); [reflexivity|lia]. }
  destruct (s_items s) as [|x l] eqn:E; [|exact Hgo].
  unfold py_index. cbn. destruct (Z.leb_spec 0 i).
  - destruct (Z.to_nat i); reflexivity.
  - destruct (Z.leb_spec 0 (i + 0)); [lia|reflexivity].
Qed.

(* ---------------- access by time ---------------- *)

Lemma item_by_t_ok l t x : item_by_t l t = Ok x -> In x l /\ i_t x = t.
Proof.
  induction l as [|y l IH]; cbn; [discriminate|]. destruct (qeqb_spec (i_t y) t).
  - intros [= <-]. auto.
  - intros H. destruct (IH H). auto.
Qed.
Lemma item_by_t_err l t er : item_by_t l t = Err er -> er = ValueError /\ forall x, In x l -> i_t x <> t.
Proof.
  induction l as [|y l IH]; cbn; [intros [= <-]; split; [reflexivity|intros _ []]|].
  destruct (qeqb_spec (i_t y) t); [discriminate|]. intros H. destruct (IH H) as [-> H']. split; [reflexivity|].
  intros x [<-|Hx]; auto.
Qed.
Lemma sincr_unique l x y : strictly_increasing (times l) -> In x l -> In y l -> i_t x = i_t y -> x = y.
Proof.
  intros Hs Hx Hy E. apply In_nth_error in Hx, Hy. destruct Hx as [i Hi], Hy as [j Hj].
  destruct (Nat.lt_trichotomy i j) as [H|[H|H]].
  - assert (Qclt (i_t x) (i_t y)) by (apply (Hs i j); [lia| |]; unfold times; rewrite nth_error_map; [rewrite Hi|rewrite Hj]; reflexivity).
    exfalso. qlra.
  - subst. congruence.
  - assert (Qclt (i_t y) (i_t x)) by (apply (Hs j i); [lia| |]; unfold times; rewrite nth_error_map; [rewrite Hj|rewrite Hi]; reflexivity).
    exfalso. qlra.
Qed.

(* ---------------- slices by position ---------------- *)

Lemma sel_i_shift l : forall i (a b : option Z),
  sel_i a b i l = sel_i (option_map (fun z => z - i)%Z a) (option_map (fun z => z - i)%Z b) 0 l.
Proof.
  assert (G : forall i k a b, sel_i a b (i + k) l = sel_i (option_map (fun z => z - i)%Z a) (option_map (fun z => z - i)%Z b) k l).
  { induction l as [|x l IH]; intros i k a b; [reflexivity|]. cbn.
    assert (E : (i + k + 1 = i + (k + 1))%Z) by lia. rewrite E, IH.
    assert (Ea : match a with Some a => (i + k <? a)%Z | None => false end =
                 match option_map (fun z => z - i)%Z a with Some a => (k <? a)%Z | None => false end).
    { destruct a; cbn; [|reflexivity]. destruct (Z.ltb_spec (i + k) z), (Z.ltb_spec k (z - i)); auto; lia. }
    assert (Eb : match b with Some b => (b <=? i + k)%Z | None => false end =
                 match option_map (fun z => z - i)%Z b with Some b => (b <=? k)%Z | None => false end).
    { destruct b; cbn; [|reflexivity]. destruct (Z.leb_spec z (i + k)), (Z.leb_spec (z - i) k); auto; lia. }
    rewrite Ea, Eb. reflexivity. }
  intros i a b. rewrite <- (Z.add_0_r i) at 1. apply G.
Qed.

Lemma sel_i_spec l : forall (a b : option Z),
  sel_i a b 0 l =
  let n := Z.of_nat (length l) in
  let a' := match a with Some a => Z.min n (Z.max 0 a) | None => 0%Z end in
  let b' := match b with Some b => Z.min n (Z.max 0 b) | None => n end in
  firstn (Z.to_nat (b' - a')) (skipn (Z.to_nat a') l).
Proof.
  cbv zeta.
  induction l as [|x l IH]; intros a b.
  - cbn. rewrite skipn_nil, firstn_nil. reflexivity.
  - cbn [sel_i]. rewrite sel_i_shift, IH. cbn [length]. rewrite Nat2Z.inj_succ. unfold Z.succ.
    assert (Hn : (0 <= Z.of_nat (length l))%Z) by lia.
    set (n := Z.of_nat (length l)) in *. change (0 + 1)%Z with 1%Z.
    destruct a as [a|]; cbn [option_map].
    + destruct (Z.ltb_spec 0 a) as [Ha|Ha].
      * replace (Z.to_nat (Z.min (n + 1) (Z.max 0 a))) with (S (Z.to_nat (Z.min n (Z.max 0 (a - 1))))) by lia.
        cbn [skipn]. f_equal. destruct b as [b|]; cbn [option_map]; lia.
      * replace (Z.to_nat (Z.min (n + 1) (Z.max 0 a))) with 0 by lia. cbn [skipn].
        replace (Z.to_nat (Z.min n (Z.max 0 (a - 1)))) with 0 by lia. cbn [skipn].
        destruct b as [b|]; cbn [option_map].
        -- destruct (Z.leb_spec b 0).
           ++ replace (Z.to_nat (Z.min (n + 1) (Z.max 0 b) - Z.min (n + 1) (Z.max 0 a))) with 0 by lia. reflexivity.
           ++ replace (Z.to_nat (Z.min (n + 1) (Z.max 0 b) - Z.min (n + 1) (Z.max 0 a))) with
                (S (Z.to_nat (Z.min n (Z.max 0 (b - 1)) - Z.min n (Z.max 0 (a - 1))))) by lia. reflexivity.
        -- replace (Z.to_nat (n + 1 - Z.min (n + 1) (Z.max 0 a))) with (S (Z.to_nat (n - Z.min n (Z.max 0 (a - 1))))) by lia.
           reflexivity.
    + change (Z.to_nat 0) with 0. cbn [skipn]. destruct b as [b|]; cbn [option_map].
      * destruct (Z.leb_spec b 0).
        -- replace (Z.to_nat (Z.min (n + 1) (Z.max 0 b) - 0)) with 0 by lia. reflexivity.
        -- replace (Z.to_nat (Z.min (n + 1) (Z.max 0 b) - 0)) with (S (Z.to_nat (Z.min n (Z.max 0 (b - 1)) - 0))) by lia.
           reflexivity.
      * replace (Z.to_nat (n + 1 - 0)) with (S (Z.to_nat (n - 0))) by lia. reflexivity.
Qed.

Lemma sel_i_py l a b :
  sel_i (option_map (norm_i (length l)) a) (option_map (norm_i (length l)) b) 0 l = py_slice l a b.
Proof.
  rewrite sel_i_spec. unfold py_slice. cbv zeta.
  assert (E : forall i, Z.min (Z.of_nat (length l)) (Z.max 0 (norm_i (length l) i)) = py_clamp (Z.of_nat (length l)) i).
  { intros i. unfold norm_i, py_clamp. destruct (Z.ltb_spec i 0); lia. }
  destruct a as [a|], b as [b|]; cbn [option_map]; rewrite ?E; reflexivity.
Qed.

Lemma py_slice_sub {A} (l : list A) a b : exists l1 l2, l = l1 ++ py_slice l a b ++ l2.
Proof.
  unfold py_slice. cbv zeta.
  match goal with |- context [firstn ?m (skipn ?k l)] => exists (firstn k l), (skipn m (skipn k l)) end.
  rewrite firstn_skipn, firstn_skipn. reflexivity.
Qed.

Lemma slice_i_spec e s a b :
  parses_units e -> wf_items (s_items s) -> s_items s <> [] ->
  exists r, ts_slice_i e s a b = Ok r /\ s_items r = py_slice (s_items s) a b.
Proof.
  intros He Hw Hne. unfold ts_slice_i. destruct (s_items s) as [|x l] eqn:El; [congruence|].
  set (L := x :: l) in *. clearbody L. clear Hne El.
  assert (Hgo : exists r, (do r <- ts_of_items e (sel_i (option_map (norm_i (length L)) a) (option_map (norm_i (length L)) b) 0 L); Ok (reset_ref r)) = Ok r /\
                s_items r = py_slice L a b).
  { rewrite sel_i_py. destruct (py_slice_sub L a b) as (l1 & l2 & E). rewrite E in Hw. apply wf_items_sub in Hw.
    destruct (ts_of_items_ok e _ He Hw) as (r & Hr & Hi). rewrite Hr. cbn. exists (reset_ref r).
    split; [reflexivity|]. rewrite reset_ref_items. exact Hi. }
  destruct a as [a|], b as [b|]; cbn [option_map] in *; try exact Hgo.
  destruct (Z.leb_spec (norm_i (length L) b) (norm_i (length L) a)); [|exact Hgo].
  eexists. split; [reflexivity|]. cbn. unfold py_slice. cbv zeta.
  replace (Z.to_nat _) with 0; [reflexivity|].
  unfold norm_i, py_clamp in *. destruct (Z.ltb_spec a 0), (Z.ltb_spec b 0); lia.
Qed.

(* ---------------- slices by time ---------------- *)

Definition keeps (from to : option Qc) (x : item) : Prop := in_interval from to x.

Lemma sel_t_none_prefix to l : exists l2, l = sel_t None to l ++ l2.
Proof.
  induction l as [|x l [l2 IH]]; [exists []; reflexivity|]. cbn.
  destruct to as [b|]; [|exists l2; cbn; f_equal; exact IH].
  destruct (if is_slot x then _ else _); [exists (x :: l); reflexivity|]. exists l2. cbn. f_equal. exact IH.
Qed.
Lemma sel_t_above from to l : (forall a x, from = Some a -> In x l -> Qcle a (i_t x)) ->
  sel_t from to l = sel_t None to l.
Proof.
  induction l as [|x l IH]; intros H; [reflexivity|]. cbn.
  assert (match from with Some a => qltb (i_t x) a | None => false end = false) as ->.
  { destruct from as [a|]; [|reflexivity]. apply qltb_false, (H a); [reflexivity|left; reflexivity]. }
  rewrite IH; [reflexivity|]. intros a y Ha Hy. apply (H a); [exact Ha|right; exact Hy].
Qed.

(* starts and stops of healthy items *)
Lemma wf_slots_sorted l : wf_slots l -> strictly_increasing (times l) /\ strictly_increasing (map i_end l).
Proof.
  intros (H1 & H2 & H3 & _). split; apply sincr_consecutive; intros i a b Ha Hb;
    unfold times in *; rewrite nth_error_map in Ha, Hb;
    destruct (nth_error l i) as [x|] eqn:Ex; try discriminate; destruct (nth_error l (S i)) as [y|] eqn:Ey; try discriminate;
    cbn in Ha, Hb; injection Ha as <-; injection Hb as <-; specialize (H2 i x y Ex Ey); cbn in H2;
    pose proof (H3 x (nth_error_In _ _ Ex)); pose proof (H3 y (nth_error_In _ _ Ey)); qlra.
Qed.
Lemma wf_items_times l : wf_items l -> strictly_increasing (times l).
Proof. intros [H|H]; [apply H|apply wf_slots_sorted, H]. Qed.

(* what the loop compares with the upper bound *)
Definition upper (b : Qc) (x : item) : bool := if is_slot x then qltb b (i_end x) else qleb b (i_t x).
Lemma upper_mono l x y b : wf_items (x :: l) -> In y l -> upper b x = true -> upper b y = true.
Proof.
  intros [Hw|Hw] Hy Hx; unfold upper in *.
  - destruct Hw as (H1 & H2 & _). rewrite slot_point, (H1 x) in Hx by (left; reflexivity).
    rewrite slot_point, (H1 y) by (right; exact Hy). cbn in *.
    apply sincr_cons in H2. destruct H2 as [H2 _]. specialize (H2 _ (in_map i_t _ _ Hy)).
    destruct (qleb_spec b (i_t x)); [|discriminate]. apply qleb_true. qlra.
  - pose proof (wf_slots_sorted _ Hw) as [_ H2]. destruct Hw as (H1 & _).
    rewrite (H1 x) in Hx by (left; reflexivity). rewrite (H1 y) by (right; exact Hy).
    cbn in H2. apply sincr_cons in H2. destruct H2 as [H2 _]. specialize (H2 _ (in_map i_end _ _ Hy)).
    destruct (qltb_spec b (i_end x)); [|discriminate]. apply qltb_true. qlra.
Qed.

Lemma filtered_none {A} (P : A -> Prop) l : (forall x, In x l -> ~ P x) -> filtered P l [].
Proof.
  induction l as [|x l IH]; intros H; [constructor|]. apply filt_drop; [apply H; left; reflexivity|].
  apply IH. intros y Hy. apply H. right; exact Hy.
Qed.

Lemma upper_iff b x : upper b x = false <-> (if is_slot x then Qcle (i_end x) b else Qclt (i_t x) b).
Proof.
  unfold upper. destruct (is_slot x).
  - destruct (qltb_spec b (i_end x)); split; try congruence; intros; try reflexivity; try (exfalso; qlra). qlra.
  - destruct (qleb_spec b (i_t x)); split; try congruence; intros; try reflexivity; try (exfalso; qlra). qlra.
Qed.

Lemma wf_items_tail x l : wf_items (x :: l) -> wf_items l.
Proof. intros H. apply (wf_items_sub [x] l []). cbn. rewrite app_nil_r. exact H. Qed.

Lemma sel_t_filtered from to l : wf_items l -> filtered (in_interval from to) l (sel_t from to l).
Proof.
  induction l as [|x l IH]; intros Hw; [constructor|].
  pose proof (IH (wf_items_tail _ _ Hw)) as IH'. cbn [sel_t].
  destruct from as [a|].
  - destruct (qltb_spec (i_t x) a) as [Ha|Ha].
    + apply filt_drop; [|exact IH']. intros [H _]. specialize (H a eq_refl). qlra.
    + destruct to as [b|].
      * fold (upper b x). destruct (upper b x) eqn:Eu.
        -- apply filtered_none. intros y [<-|Hy] [_ H]; specialize (H b eq_refl); apply upper_iff in H.
           ++ congruence.
           ++ pose proof (upper_mono l x y b Hw Hy Eu). congruence.
        -- apply filt_keep; [|exact IH']. split; intros c [= <-]; [qlra|apply upper_iff, Eu].
      * apply filt_keep; [|exact IH']. split; intros c; [intros [= <-]; qlra|discriminate].
  - destruct to as [b|].
    + fold (upper b x). destruct (upper b x) eqn:Eu.
      * apply filtered_none. intros y [<-|Hy] [_ H]; specialize (H b eq_refl); apply upper_iff in H.
        -- congruence.
        -- pose proof (upper_mono l x y b Hw Hy Eu). congruence.
      * apply filt_keep; [|exact IH']. split; intros c; [discriminate|intros [= <-]; apply upper_iff, Eu].
    + apply filt_keep; [|exact IH']. split; intros c; discriminate.
Qed.

Lemma sel_t_sub from to l : strictly_increasing (times l) -> exists l1 l2, l = l1 ++ sel_t from to l ++ l2.
Proof.
  induction l as [|x l IH]; intros Hs; [exists [], []; reflexivity|].
  cbn in Hs. apply sincr_cons in Hs. destruct Hs as [Hx Hs]. destruct (IH Hs) as (l1 & l2 & E).
  destruct from as [a|].
  - destruct (qltb_spec (i_t x) a) as [Ha|Ha].
    + cbn [sel_t]. rewrite (qltb_true _ _ Ha). exists (x :: l1), l2. cbn. f_equal. exact E.
    + rewrite sel_t_above.
      * destruct (sel_t_none_prefix to (x :: l)) as [l3 E3]. exists [], l3. exact E3.
      * intros a' y [= <-] [<-|Hy]; [qlra|]. specialize (Hx _ (in_map i_t _ _ Hy)). qlra.
  - destruct (sel_t_none_prefix to (x :: l)) as [l3 E3]. exists [], l3. exact E3.
Qed.

Lemma slice_t_spec e s a b :
  parses_units e -> wf_items (s_items s) -> s_items s <> [] ->
  exists r, ts_slice_t e s a b = Ok r /\ filtered (in_interval a b) (s_items s) (s_items r) /\
            exists l1 l2, s_items s = l1 ++ s_items r ++ l2.
Proof.
  intros He Hw Hne. unfold ts_slice_t. destruct (s_items s) as [|x l] eqn:El; [congruence|].
  set (L := x :: l) in *. clearbody L. clear Hne El.
  assert (Hgo : exists r, (do r <- ts_of_items e (sel_t a b L); Ok (reset_ref r)) = Ok r /\
                filtered (in_interval a b) L (s_items r) /\ exists l1 l2, L = l1 ++ s_items r ++ l2).
  { destruct (sel_t_sub a b L (wf_items_times _ Hw)) as (l1 & l2 & E). pose proof Hw as Hw'. rewrite E in Hw'. apply wf_items_sub in Hw'.
    destruct (ts_of_items_ok e _ He Hw') as (r & Hr & Hi). rewrite Hr. cbn. exists (reset_ref r).
    split; [reflexivity|]. rewrite reset_ref_items, Hi. split; [apply sel_t_filtered, Hw|eauto]. }
  destruct a as [a|], b as [b|]; try exact Hgo.
  destruct (qleb_spec b a) as [Hba|]; [|exact Hgo].
  eexists. split; [reflexivity|]. cbn. split; [|exists L, []; rewrite app_nil_r; reflexivity].
  apply filtered_none. intros y Hy [H1 H2]. specialize (H1 a eq_refl). specialize (H2 b eq_refl).
  destruct Hw as [Hw|Hw].
  - destruct Hw as (Hp & _). rewrite slot_point, (Hp y Hy) in H2. cbn in H2. qlra.
  - destruct Hw as (Hp & _ & Hl & _). rewrite (Hp y Hy) in H2. specialize (Hl y Hy). qlra.
Qed.

Lemma filtered_unique {A} (P : A -> Prop) l l1 l2 : filtered P l l1 -> filtered P l l2 -> l1 = l2.
Proof.
  intros H. revert l2. induction H as [|x l l' Hx H IH|x l l' Hx H IH]; intros l2 H2; inversion H2; subst; try contradiction; auto.
  f_equal. auto.
Qed.
