(* SeriesProofs3.v -- data shapes (C03), resolution (C05), copies (C16). *)
From Verif Require Export SeriesProofs2.

(* ---------------- data shapes ---------------- *)

Lemma str_mem_In k l : str_mem k l = true <-> In k l.
Proof.
  unfold str_mem. rewrite existsb_exists. split.
  - intros (x & Hx & Hk). apply String.eqb_eq in Hk. subst. exact Hx.
  - intros H. exists k. split; [exact H|apply String.eqb_refl].
Qed.
Lemma same_set_spec a b : same_set a b = true <-> (forall k, In k a <-> In k b).
Proof.
  unfold same_set. rewrite andb_true_iff, !forallb_forall. split.
  - intros [H1 H2] k. split; intros Hk; [specialize (H1 k Hk)|specialize (H2 k Hk)]; apply str_mem_In; assumption.
  - intros H. split; intros k Hk; apply str_mem_In, H, Hk.
Qed.

Lemma same_shape_sym a b : same_shape a b -> same_shape b a.
Proof. destruct a, b; simpl; intros H; try contradiction; [congruence|]. intros k. symmetry. apply H. Qed.
Lemma same_shape_trans a b c : same_shape a b -> same_shape b c -> same_shape a c.
Proof. destruct a, b, c; simpl; intros H1 H2; try contradiction; [congruence|]. intros k. rewrite H1. apply H2. Qed.
Lemma same_shape_refl a : same_shape a a.
Proof. destruct a; simpl; [reflexivity|tauto]. Qed.
Lemma same_item_shape_sym x y : same_item_shape x y -> same_item_shape y x.
Proof.
  unfold same_item_shape. intros [H1 H2]. split; [congruence|].
  destruct (i_data x), (i_data y); auto using same_shape_sym.
Qed.
Lemma same_item_shape_trans x y z : same_item_shape x y -> same_item_shape y z -> same_item_shape x z.
Proof.
  unfold same_item_shape. intros [H1 H2] [H3 H4]. split; [congruence|].
  destruct (i_data x), (i_data y), (i_data z); try contradiction; eauto using same_shape_trans.
Qed.

Lemma check_ref_ok ref it : check_ref ref it = Ok tt <-> exists d, i_data it = Some d /\ same_shape ref d.
Proof.
  unfold check_ref, item_data. destruct (i_data it) as [d|]; simpl.
  - destruct ref as [a|a], d as [b|b]; simpl.
    + destruct (Nat.eqb_spec (length a) (length b)) as [E|E].
      * split; [eauto|reflexivity].
      * split; [discriminate|]. intros (d & [= <-] & H). simpl in H. contradiction.
    + split; [discriminate|]. intros (d & [= <-] & H). contradiction.
    + split; [discriminate|]. intros (d & [= <-] & H). contradiction.
    + destruct (same_set (dkeys a) (dkeys b)) eqn:E.
      * split; [|reflexivity]. intros _. exists (DDict b). split; [reflexivity|]. apply same_set_spec, E.
      * split; [discriminate|]. intros (d & [= <-] & H). apply same_set_spec in H. unfold dkeys in E. congruence.
  - split; [discriminate|]. intros (d & H & _). discriminate.
Qed.

(* with a first item that has (non-empty) data *)
Definition shape_inv (s : series) : Prop :=
  match s_items s with
  | [] => True
  | first :: _ =>
    (exists r, s_ref s = Some r) /\
    forall d, i_data first = Some d -> data_truthy d = true ->
      s_ref s = Some (Some d) /\
      (cls_isinstance CDataTimePoint (i_cls first) = true \/ True) /\
      forall x, In x (s_items s) -> exists d', i_data x = Some d' /\ same_shape d d' /\ cls_isinstance (i_cls x) (i_cls first) = true
  end.

Lemma series_append_ref s it s' r : series_append s it = (s', r) -> s_items s <> [] ->
  (exists rf, s_ref s = Some rf) ->
  (exists x, r = Err x /\ s' = s) \/
  (r = Ok tt /\ exists rf, s_ref s' = Some rf /\
    (forall d, s_ref s = Some (Some d) -> data_truthy d = true -> s_ref s' = s_ref s /\ check_ref d it = Ok tt)).
Proof.
  intros H Hne (rf & Hrf). unfold series_append in H.
  destruct (s_items s) as [|a l] eqn:El; [contradiction|].
  destruct (last_item_cons a l) as [last Hl]. rewrite Hl in H. unfold item_type in H. rewrite El in H.
  destruct (negb (cls_isinstance (i_cls it) (i_cls a))); [injection H as <- <-; left; eauto|].
  destruct (negb (follows it last)); [injection H as <- <-; left; eauto|].
  rewrite Hrf in H. destruct rf as [ref|].
  - destruct (data_truthy ref) eqn:Et.
    + destruct (check_ref ref it) as [[]|x] eqn:Ec; injection H as <- <-; [right|left; eauto].
      split; [reflexivity|]. exists (Some ref). cbn. split; [exact Hrf|]. rewrite Hrf. intros d [= ->] _. split; [reflexivity|exact Ec].
    + injection H as <- <-. right. split; [reflexivity|]. exists (i_data it). split; [reflexivity|].
      rewrite Hrf. intros d [= ->] Hd. congruence.
  - injection H as <- <-. right. split; [reflexivity|]. exists (i_data it). split; [reflexivity|].
    rewrite Hrf. intros d Hd. discriminate.
Qed.

Lemma ts_append_ref e s it s' r : ts_append e s it = (s', r) ->
  (exists s0, s_items s0 = s_items s /\ s_ref s0 = s_ref s /\ series_append s0 it = (s', r)) \/
  (exists x, r = Err x /\ s_items s' = s_items s /\ s_ref s' = s_ref s).
Proof.
  unfold ts_append. destruct (is_point it).
  - unfold append_point. intros H.
    destruct (s_prev_t s) as [p|]; [|left; eexists; split; [|split; [|exact H]]; reflexivity].
    destruct (s_items s) as [|a l] eqn:El; [left; eexists; split; [|split; [|exact H]]; [exact El|reflexivity]|].
    destruct (qltb (i_t it) p); [injection H as <- <-; right; eexists; split; [reflexivity|split; [exact El|reflexivity]]|].
    destruct (qeqb (i_t it) p); [injection H as <- <-; right; eexists; split; [reflexivity|split; [exact El|reflexivity]]|].
    destruct (s_res s) as [[|u]|].
    + left; eexists; split; [|split; [|exact H]]; [exact El|reflexivity].
    + destruct (s_res_s s) as [r0|].
      * destruct (negb (qeqb r0 (i_t it - p)%Qc)); left; eexists; (split; [|split; [|exact H]]); (exact El || reflexivity).
      * injection H as <- <-; right; eexists; split; [reflexivity|split; [exact El|reflexivity]].
    + destruct (unit_of_s e (trunc7 (i_t it - p)%Qc)) as [u|x].
      * left; eexists; split; [|split; [|exact H]]; [exact El|reflexivity].
      * injection H as <- <-; right; eexists; split; [reflexivity|split; [exact El|reflexivity]].
  - unfold append_slot. intros H.
    assert (Hu : forall s1 s2 r2, check_unit e s1 it = (s2, r2) -> s_items s2 = s_items s1 /\ s_ref s2 = s_ref s1).
    { intros s1 s2 r2. unfold check_unit.
      destruct (s_res s1) as [[|u]|]; try (intros [= <- <-]; split; reflexivity).
      destruct (tunit_eqb u (i_unit it)); [intros [= <- <-]; split; reflexivity|].
      destruct (unit_close e u (i_unit it)) as [[]|[]]; intros [= <- <-]; split; reflexivity. }
    assert (Hgo : forall s1, s_items s1 = s_items s -> s_ref s1 = s_ref s ->
      (let '(s2, r2) := check_unit e s1 it in
       match r2 with Err x => (s2, Err x) | Ok _ => series_append s2 it end) = (s', r) ->
      (exists s0, s_items s0 = s_items s /\ s_ref s0 = s_ref s /\ series_append s0 it = (s', r)) \/
      (exists x, r = Err x /\ s_items s' = s_items s /\ s_ref s' = s_ref s)).
    { intros s1 E1 E1' H1. destruct (check_unit e s1 it) as [s2 r2] eqn:E2. destruct (Hu _ _ _ E2) as [Hu1 Hu2].
      destruct r2 as [?|x].
      - left. exists s2. repeat split; [congruence|congruence|exact H1].
      - injection H1 as <- <-. right. exists x. repeat split; congruence. }
    destruct (series_tz s).
    + destruct (s_tz s) as [z|].
      * destruct (String.eqb z (i_tz it)).
        -- apply (Hgo s); auto.
        -- injection H as <- <-. right; eauto.
      * injection H as <- <-. right; eauto.
    + apply (Hgo (set_tz s (Some (i_tz it)))); auto.
Qed.

Lemma append_shape_inv e s it : shape_inv s -> shape_inv (fst (ts_append e s it)).
Proof.
  intros Hinv. destruct (ts_append e s it) as [s' r] eqn:E. cbn [fst].
  destruct (ts_append_ref _ _ _ _ _ E) as [(s0 & E1 & E2 & H)|(x & -> & E1 & E2)].
  2:{ unfold shape_inv in *. rewrite E1, E2. exact Hinv. }
  unfold shape_inv in Hinv.
  destruct (s_items s) as [|a l] eqn:El.
  - unfold series_append, last_item in H. rewrite E1 in H. cbn in H. injection H as <- <-.
    unfold shape_inv. cbn. split; [eauto|]. intros d Hd Ht. rewrite Hd. split; [reflexivity|].
    split; [right; exact I|]. intros x [<-|[]]. exists d. split; [exact Hd|split; [apply same_shape_refl|]].
    destruct (i_cls it); reflexivity.
  - destruct Hinv as ((rf & Hrf) & Hinv).
    assert (Hne : s_items s0 <> []) by (rewrite E1; discriminate).
    assert (Hex : exists rf, s_ref s0 = Some rf) by (rewrite E2; eauto).
    destruct (series_append_ref _ _ _ _ H Hne Hex) as [(x & -> & ->)|(-> & rf' & Hrf' & Hsame)].
    + unfold shape_inv. rewrite E1, E2. split; [eauto|]. exact Hinv.
    + destruct (series_append_ok _ _ _ H) as [Hi Hf]. unfold shape_inv. rewrite Hi, E1. cbn [app].
      split; [eauto|]. intros d Hd Ht. destruct (Hinv d Hd Ht) as (Hr & Hor & Hall).
      rewrite E2 in Hsame. destruct (Hsame d Hr Ht) as [Hs Hc].
      split; [congruence|split; [exact Hor|]].
      intros x [<-|Hx]; [apply Hall; left; reflexivity|].
      apply in_app_or in Hx. destruct Hx as [Hx|[<-|[]]]; [apply Hall; right; exact Hx|].
      apply check_ref_ok in Hc. destruct Hc as (d' & Hd' & Hsh). exists d'. split; [exact Hd'|split; [exact Hsh|]].
      destruct (last_item_cons a l) as [last Hl].
      apply (Hf last (i_cls a)); [rewrite E1; exact Hl|unfold item_type; rewrite E1; reflexivity].
Qed.

Lemma appends_shape_inv e s xs : shape_inv s -> shape_inv (appends e s xs).
Proof.
  revert s. induction xs as [|x xs IH]; intros s H; [exact H|].
  unfold appends in *. cbn [fold_left]. apply IH, append_shape_inv, H.
Qed.

Lemma appends_shape e tz xs first rest :
  s_items (appends e (empty_series tz) xs) = first :: rest ->
  (i_cls first = CDataTimePoint \/ i_cls first = CDataTimeSlot) ->
  (exists d, i_data first = Some d /\ data_truthy d = true) ->
  forall x y, In x (first :: rest) -> In y (first :: rest) -> same_item_shape x y.
Proof.
  intros E Hc (d & Hd & Ht). pose proof (appends_shape_inv e (empty_series tz) xs I) as H.
  unfold shape_inv in H. rewrite E in H. destruct H as [_ H]. destruct (H d Hd Ht) as (_ & _ & Hall).
  assert (Hf : forall x, In x (first :: rest) -> same_item_shape first x).
  { intros x Hx. destruct (Hall x Hx) as (d' & Hd' & Hs & Hi). unfold same_item_shape.
    rewrite Hd, Hd'. split; [|exact Hs].
    destruct Hc as [Hc|Hc]; rewrite Hc in *; destruct (i_cls x); simpl in Hi; congruence. }
  intros x y Hx Hy. apply same_item_shape_trans with first; [apply same_item_shape_sym|]; apply Hf; assumption.
Qed.

(* ---------------- resolution ---------------- *)

Definition last_t (l : list item) : option Qc := option_map i_t (last_item l).

(* every append accepted so far, only points *)
Definition point_inv (e : env) (s : series) : Prop :=
  match s_items s with
  | [] => s_prev_t s = None /\ s_res s = None /\ s_res_s s = None
  | [x] => s_prev_t s = Some (i_t x) /\ s_res s = None /\ s_res_s s = None
  | _ => s_prev_t s = last_t (s_items s) /\
    ((exists d u, equally_spaced d (times (s_items s)) /\ s_res_s s = Some d /\
                  unit_of_s e (trunc7 d) = Ok u /\ s_res s = Some (RUnit u)) \/
     ((forall d, ~ equally_spaced d (times (s_items s))) /\ s_res s = Some RVar))
  end.

Lemma equally_spaced_snoc d l y x :
  equally_spaced d ((l ++ [y]) ++ [x]) <-> equally_spaced d (l ++ [y]) /\ Qcminus x y = d.
Proof.
  unfold equally_spaced. split.
  - intros H. split; [apply consecutive_app_l in H; exact H|].
    apply (H (length l)).
    + rewrite nth_error_app1; [|rewrite app_length; simpl; lia]. rewrite nth_error_snoc, Nat.eqb_refl. reflexivity.
    + rewrite nth_error_snoc, app_length. replace (length l + length [y]) with (S (length l)) by (simpl; lia).
      rewrite Nat.eqb_refl. reflexivity.
  - intros [H1 H2]. apply consecutive_snoc; assumption.
Qed.

Lemma append_point_inv e s it s' :
  point_inv e s -> is_point it = true -> ts_append e s it = (s', Ok tt) -> point_inv e s'.
Proof.
  intros Hinv Hp E. pose proof (proj1 (ts_append_ok _ _ _ _ E)) as Hi.
  unfold ts_append in E. rewrite Hp in E. unfold append_point in E. unfold point_inv in Hinv.
  destruct (s_items s) as [|a l] eqn:El.
  - destruct Hinv as (H1 & H2 & H3). rewrite H1 in E.
    destruct (series_append_fields _ _ _ _ E) as (F1 & F2 & _ & F4). unfold point_inv. rewrite Hi. cbn.
    cbn in F1, F2, F4. repeat split; congruence.
  - destruct l as [|b l].
    + destruct Hinv as (H1 & H2 & H3). rewrite H1 in E.
      destruct (qltb_spec (i_t it) (i_t a)); [discriminate|].
      destruct (qeqb_spec (i_t it) (i_t a)); [discriminate|]. rewrite H2 in E.
      destruct (unit_of_s e (trunc7 (i_t it - i_t a)%Qc)) as [u|x] eqn:Eu; [|discriminate].
      destruct (series_append_fields _ _ _ _ E) as (F1 & F2 & _ & F4). unfold point_inv. rewrite Hi. cbn [app].
      cbn in F1, F2, F4. split; [exact F4|]. left. exists (i_t it - i_t a)%Qc, u. repeat split; auto.
      unfold equally_spaced, times; cbn [map]. apply consecutive_cons. split; [reflexivity|apply consecutive_one].
    + destruct Hinv as (H1 & H2). 
      destruct (last_item_cons a (b :: l)) as [last Hl].
      unfold last_t in H1. rewrite Hl in H1. cbn in H1. rewrite H1 in E.
      destruct (last_item_some _ _ Hl) as [l' El'].
      assert (Hform : exists x y r, s_items s' = x :: y :: r).
      { rewrite Hi. cbn. eauto. }
      destruct Hform as (x0 & y0 & r0 & Hform).
      assert (Hlast : last_t (s_items s') = Some (i_t it)) by (unfold last_t; rewrite Hi, last_item_snoc; reflexivity).
      assert (Hspaced : forall d, equally_spaced d (times (s_items s')) <->
                equally_spaced d (times (a :: b :: l)) /\ (i_t it - i_t last)%Qc = d).
      { intros d. rewrite Hi, El'. unfold times. rewrite !map_app. cbn [map]. apply equally_spaced_snoc. }
      destruct (qltb_spec (i_t it) (i_t last)) as [Hlt|Hlt]; [discriminate|].
      destruct (qeqb_spec (i_t it) (i_t last)) as [Heq|Heq]; [discriminate|].
      unfold point_inv. rewrite Hform. rewrite <- Hform. rewrite Hlast.
      destruct H2 as [(d & u & Hs & Hrs & Hu & Hr)|(Hv & Hr)].
      * rewrite Hr, Hrs in E. destruct (qeqb_spec d (i_t it - i_t last)%Qc) as [Hd|Hd]; cbn [negb] in E.
        -- destruct (series_append_fields _ _ _ _ E) as (F1 & F2 & _ & F4). cbn in F1, F2, F4.
           split; [exact F4|]. left. exists d, u. split; [apply Hspaced; split; [exact Hs|congruence]|]. repeat split; congruence.
        -- destruct (series_append_fields _ _ _ _ E) as (F1 & F2 & _ & F4). cbn in F1, F2, F4.
           split; [exact F4|]. right. split; [|exact F1]. intros d' Hd'. apply Hspaced in Hd'. destruct Hd' as [Hd1 Hd2].
           apply Hd. rewrite Hd2.
           transitivity (i_t b - i_t a)%Qc.
           ++ symmetry. apply (Hs 0); reflexivity.
           ++ apply (Hd1 0); reflexivity.
      * rewrite Hr in E. destruct (series_append_fields _ _ _ _ E) as (F1 & F2 & _ & F4). cbn in F1, F2, F4.
        split; [exact F4|]. right. split; [|congruence]. intros d' Hd'. apply Hspaced in Hd'. apply (Hv d'), Hd'.
Qed.

Lemma foldM_app {A B} (f : A -> B -> result A) l1 l2 a :
  foldM f (l1 ++ l2) a = do a' <- foldM f l1 a; foldM f l2 a'.
Proof.
  revert a. induction l1 as [|x l1 IH]; intros a; [reflexivity|].
  cbn. destruct (f a x); cbn; [apply IH|reflexivity].
Qed.

Definition append_or_raise (e : env) (s : series) (x : item) : result series :=
  let '(s', r) := ts_append e s x in do _ <- r; Ok s'.
Lemma append_or_raise_ok e s x s' : append_or_raise e s x = Ok s' <-> ts_append e s x = (s', Ok tt).
Proof.
  unfold append_or_raise. destruct (ts_append e s x) as [s1 [[]|er]]; cbn; split; intros H; inversion H; reflexivity.
Qed.

(* accepted histories: the items are exactly the ones given *)
Lemma foldM_append_items e xs s s' :
  foldM (append_or_raise e) xs s = Ok s' -> s_items s' = s_items s ++ xs.
Proof.
  revert s. induction xs as [|x xs IH]; intros s; cbn.
  - intros [= <-]. rewrite app_nil_r. reflexivity.
  - destruct (append_or_raise e s x) as [s1|] eqn:E; cbn; [|discriminate]. intros H.
    apply append_or_raise_ok in E. apply IH in H. rewrite H.
    destruct (ts_append_ok _ _ _ _ E) as [-> _]. rewrite <- app_assoc. reflexivity.
Qed.
Lemma ts_new_items e tz xs s : ts_new e tz xs = Ok s -> s_items s = xs.
Proof. intros H. apply (foldM_append_items e xs (empty_series tz)) in H. exact H. Qed.

Lemma foldM_append_ord e xs s s' :
  foldM (append_or_raise e) xs s = Ok s' -> ord_inv (s_items s) -> ord_inv (s_items s').
Proof.
  revert s. induction xs as [|x xs IH]; intros s; cbn.
  - intros [= <-]; auto.
  - destruct (append_or_raise e s x) as [s1|] eqn:E; cbn; [|discriminate]. intros H Ho.
    apply (IH s1 H). apply append_or_raise_ok in E. pose proof (append_ord_inv e s x Ho) as Ho'. rewrite E in Ho'. exact Ho'.
Qed.
Lemma foldM_append_point_inv e xs s s' :
  foldM (append_or_raise e) xs s = Ok s' -> all_points xs -> point_inv e s -> point_inv e s'.
Proof.
  revert s. induction xs as [|x xs IH]; intros s; cbn.
  - intros [= <-]; auto.
  - destruct (append_or_raise e s x) as [s1|] eqn:E; cbn; [|discriminate]. intros H Hp Hi.
    apply append_or_raise_ok in E. apply (IH s1 H).
    + intros y Hy. apply Hp. right; exact Hy.
    + apply (append_point_inv e s x); auto. apply Hp. left; reflexivity.
Qed.
Lemma ts_new_point_inv e tz xs s : ts_new e tz xs = Ok s -> all_points xs -> point_inv e s.
Proof.
  intros H Hp. apply (foldM_append_point_inv e xs (empty_series tz) s H Hp). repeat split; reflexivity.
Qed.
