(* SeriesProofs.v -- lemmas about the container state machine. *)
From Verif Require Export BaseLemmas Series SpecSeries.
From Coq Require Import Sorting.Sorted.

(* ---------------- lists ---------------- *)

Lemma nth_error_snoc {A} (l : list A) x i :
  nth_error (l ++ [x]) i =
  if Nat.eqb i (length l) then Some x else nth_error l i.
Proof.
  destruct (Nat.eqb_spec i (length l)) as [->|Hne].
  - rewrite nth_error_app2, Nat.sub_diag; [reflexivity|lia].
  - destruct (Nat.lt_ge_cases i (length l)) as [H|H].
    + rewrite nth_error_app1; auto.
    + rewrite nth_error_app2 by lia.
      destruct (i - length l) as [|k] eqn:E; [lia|].
      simpl. rewrite (proj2 (nth_error_None l i)) by lia. destruct k; reflexivity.
Qed.

Lemma last_item_snoc l x : last_item (l ++ [x]) = Some x.
Proof. unfold last_item. rewrite rev_app_distr. reflexivity. Qed.
Lemma last_item_nil l : last_item l = None -> l = [].
Proof.
  unfold last_item. destruct (rev l) as [|y r] eqn:E; [|discriminate]. intros _.
  apply (f_equal (@rev item)) in E. rewrite rev_involutive in E. exact E.
Qed.
Lemma last_item_some l x : last_item l = Some x -> exists l', l = l' ++ [x].
Proof.
  unfold last_item. destruct (rev l) as [|y r] eqn:E; [discriminate|]. intros [= ->].
  exists (rev r). apply (f_equal (@rev item)) in E. rewrite rev_involutive in E. exact E.
Qed.
Lemma last_item_cons x l : exists y, last_item (x :: l) = Some y.
Proof.
  destruct (last_item (x :: l)) eqn:E; [eauto|]. apply last_item_nil in E. discriminate.
Qed.

Lemma consecutive_nil {A} (R : A -> A -> Prop) : consecutive R [].
Proof. intros i a b H. destruct i; discriminate H. Qed.
Lemma consecutive_one {A} (R : A -> A -> Prop) x : consecutive R [x].
Proof. intros i a b H1 H2. destruct i; simpl in H2; [|destruct i]; discriminate H2. Qed.
Lemma consecutive_cons {A} (R : A -> A -> Prop) x y l :
  consecutive R (x :: y :: l) <-> R x y /\ consecutive R (y :: l).
Proof.
  split.
  - intros H. split; [apply (H 0); reflexivity|]. intros i a b H1 H2. apply (H (S i)); assumption.
  - intros [H1 H2] [|i] a b Ha Hb; [simpl in Ha, Hb; injection Ha as <-; injection Hb as <-; exact H1|]. apply (H2 i); assumption.
Qed.
Lemma consecutive_snoc {A} (R : A -> A -> Prop) l y x :
  consecutive R (l ++ [y]) -> R y x -> consecutive R ((l ++ [y]) ++ [x]).
Proof.
  intros H Hx i a b Ha Hb. rewrite nth_error_snoc in Ha, Hb.
  rewrite app_length in Ha, Hb. cbn [length] in Ha, Hb.
  destruct (Nat.eqb_spec (S i) (length l + 1)) as [E|E].
  - destruct (Nat.eqb_spec i (length l + 1)); [lia|].
    assert (i = length l) as -> by lia.
    rewrite nth_error_snoc, Nat.eqb_refl in Ha. injection Ha as <-. injection Hb as <-. exact Hx.
  - destruct (Nat.eqb_spec i (length l + 1)) as [E'|E'].
    + assert (nth_error (l ++ [y]) (S i) = None) as Hn by (apply nth_error_None; rewrite app_length; simpl; lia).
      congruence.
    + apply (H i); assumption.
Qed.
Lemma consecutive_app_l {A} (R : A -> A -> Prop) l l' : consecutive R (l ++ l') -> consecutive R l.
Proof.
  intros H i a b Ha Hb. apply (H i); rewrite nth_error_app1; auto; apply nth_error_Some; congruence.
Qed.
Lemma consecutive_app_r {A} (R : A -> A -> Prop) l l' : consecutive R (l ++ l') -> consecutive R l'.
Proof.
  intros H i a b Ha Hb. apply (H (length l + i)).
  - rewrite nth_error_app2 by lia. replace (length l + i - length l) with i by lia. exact Ha.
  - rewrite nth_error_app2 by lia. replace (S (length l + i) - length l) with (S i) by lia. exact Hb.
Qed.

(* strictly increasing, three equivalent forms *)
Lemma sincr_nil : strictly_increasing [].
Proof. intros i j a b _ H. destruct i; discriminate H. Qed.
Lemma sincr_consecutive l : consecutive Qclt l <-> strictly_increasing l.
Proof.
  split.
  - intros H i j a b Hij. revert a b. induction Hij as [|j Hij IH]; intros a b Ha Hb.
    + apply (H i); assumption.
    + destruct (nth_error l j) as [c|] eqn:Hc.
      * apply Qclt_trans with c; [apply IH; auto|]. apply (H j); assumption.
      * apply nth_error_None in Hc. assert (nth_error l (S j) = None) by (apply nth_error_None; lia). congruence.
  - intros H i a b Ha Hb. apply (H i (S i)); auto.
Qed.
Lemma sincr_cons x l : strictly_increasing (x :: l) <-> (forall y, In y l -> Qclt x y) /\ strictly_increasing l.
Proof.
  split.
  - intros H. split.
    + intros y Hy. apply In_nth_error in Hy. destruct Hy as [n Hn]. apply (H 0 (S n)); [lia|reflexivity|exact Hn].
    + intros i j a b Hij Ha Hb. apply (H (S i) (S j)); [lia|assumption|assumption].
  - intros [H1 H2] [|i] [|j] a b Hij Ha Hb; try lia.
    + simpl in Ha. injection Ha as <-. apply H1. apply nth_error_In with j. exact Hb.
    + apply (H2 i j); [lia|assumption|assumption].
Qed.
Lemma sincr_StronglySorted l : StronglySorted Qclt l <-> strictly_increasing l.
Proof.
  induction l as [|x l IH].
  - split; [intros _; apply sincr_nil|constructor].
  - rewrite sincr_cons. split.
    + intros H. inversion H as [|? ? HS HF]; subst. split; [|apply IH; assumption]. apply Forall_forall, HF.
    + intros [H1 H2]. constructor; [apply IH, H2|apply Forall_forall, H1].
Qed.
Lemma sincr_snoc l x : strictly_increasing l -> (forall y, In y l -> Qclt y x) -> strictly_increasing (l ++ [x]).
Proof.
  intros Hs Hx. induction l as [|y l IH]; simpl.
  - apply sincr_cons. split; [intros z []|apply sincr_nil].
  - apply sincr_cons in Hs. destruct Hs as [Hy Hl]. apply sincr_cons. split.
    + intros z Hz. apply in_app_or in Hz. destruct Hz as [Hz|[<-|[]]]; [apply Hy; exact Hz|apply Hx; left; reflexivity].
    + apply IH; [exact Hl|]. intros z Hz. apply Hx. right; exact Hz.
Qed.
Lemma sincr_app l l' : strictly_increasing (l ++ l') <->
  strictly_increasing l /\ strictly_increasing l' /\ (forall x y, In x l -> In y l' -> Qclt x y).
Proof.
  induction l as [|a l IH]; simpl.
  - split; [intros H; repeat split; auto using sincr_nil; intros ? ? []|intros (_ & H & _); exact H].
  - rewrite !sincr_cons, IH. split.
    + intros (H1 & H2 & H3 & H4). split; [|split].
      * split; auto. intros y Hy. apply H1, in_or_app; auto.
      * exact H3.
      * intros x y [<-|Hx] Hy; [apply H1, in_or_app; auto|auto].
    + intros ((H1 & H2) & H3 & H4). split; [|split; [|split]]; auto.
      intros y Hy. apply in_app_or in Hy. destruct Hy; auto.
Qed.
Lemma sincr_last l x y : strictly_increasing (l ++ [x]) -> In y (l ++ [x]) -> Qcle y x.
Proof.
  intros H Hy. apply sincr_app in H. destruct H as (_ & _ & H). apply in_app_or in Hy.
  destruct Hy as [Hy|[<-|[]]]; [|apply Qcle_refl]. apply Qclt_le_weak, H; [exact Hy|left; reflexivity].
Qed.

(* ---------------- single appends ---------------- *)

Lemma series_append_items s it s' r :
  series_append s it = (s', r) ->
  (r = Ok tt /\ s_items s' = s_items s ++ [it]) \/ (exists x, r = Err x /\ s' = s).
Proof.
  unfold series_append. intros H.
  destruct (last_item (s_items s)) as [last|]; [destruct (item_type s) as [C|]|];
    try (injection H as <- <-; left; split; reflexivity).
  destruct (negb (cls_isinstance (i_cls it) C)); [injection H as <- <-; right; eauto|].
  destruct (negb (follows it last)); [injection H as <- <-; right; eauto|].
  destruct (s_ref s) as [[ref|]|]; try (injection H as <- <-; (left; split; reflexivity) || (right; eauto)).
  destruct (data_truthy ref); [|injection H as <- <-; left; split; reflexivity].
  destruct (check_ref ref it); injection H as <- <-; [left; split; reflexivity|right; eauto].
Qed.

Lemma series_append_ok s it s' :
  series_append s it = (s', Ok tt) ->
  s_items s' = s_items s ++ [it] /\
  forall last C, last_item (s_items s) = Some last -> item_type s = Some C ->
    cls_isinstance (i_cls it) C = true /\ follows it last = true.
Proof.
  intros H. split.
  - destruct (series_append_items _ _ _ _ H) as [[_ Hi]|(x & Hx & _)]; [exact Hi|discriminate].
  - intros last C Hl HC. unfold series_append in H. rewrite Hl, HC in H.
    destruct (cls_isinstance (i_cls it) C); [|discriminate].
    destruct (follows it last); [|discriminate]. auto.
Qed.

Lemma ts_append_cases e s it s' r :
  ts_append e s it = (s', r) ->
  (exists s0, s_items s0 = s_items s /\ series_append s0 it = (s', r)) \/
  (exists x, r = Err x /\ s_items s' = s_items s).
Proof.
  unfold ts_append. destruct (is_point it).
  - unfold append_point. intros H.
    destruct (s_prev_t s) as [p|]; [|left; eexists; split; [|exact H]; reflexivity].
    destruct (s_items s) as [|a l] eqn:El; [left; eexists; split; [|exact H]; exact El|].
    destruct (qltb (i_t it) p); [injection H as <- <-; right; eexists; split; [reflexivity|exact El]|].
    destruct (qeqb (i_t it) p); [injection H as <- <-; right; eexists; split; [reflexivity|exact El]|].
    destruct (s_res s) as [[|u]|].
    + left; eexists; split; [|exact H]; exact El.
    + destruct (s_res_s s) as [r0|].
      * destruct (negb (qeqb r0 (i_t it - p)%Qc)); left; eexists; (split; [|exact H]); exact El.
      * injection H as <- <-; right; eexists; split; [reflexivity|exact El].
    + destruct (unit_of_s e (trunc7 (i_t it - p)%Qc)) as [u|x].
      * left; eexists; split; [|exact H]; exact El.
      * injection H as <- <-; right; eexists; split; [reflexivity|exact El].
  - unfold append_slot. intros H.
    assert (Hu : forall s1 s2 r2, check_unit e s1 it = (s2, r2) -> s_items s2 = s_items s1).
    { intros s1 s2 r2. unfold check_unit.
      destruct (s_res s1) as [[|u]|]; try (intros [= <- <-]; reflexivity).
      destruct (tunit_eqb u (i_unit it)); [intros [= <- <-]; reflexivity|].
      destruct (unit_close e u (i_unit it)) as [[]|[]]; intros [= <- <-]; reflexivity. }
    assert (Hgo : forall s1, s_items s1 = s_items s ->
      (let '(s2, r2) := check_unit e s1 it in
       match r2 with Err x => (s2, Err x) | Ok _ => series_append s2 it end) = (s', r) ->
      (exists s0, s_items s0 = s_items s /\ series_append s0 it = (s', r)) \/
      (exists x, r = Err x /\ s_items s' = s_items s)).
    { intros s1 E1 H1. destruct (check_unit e s1 it) as [s2 r2] eqn:E2. specialize (Hu _ _ _ E2).
      destruct r2 as [?|x].
      - left. exists s2. split; [congruence|exact H1].
      - injection H1 as <- <-. right. exists x. split; [reflexivity|congruence]. }
    destruct (series_tz s).
    + destruct (s_tz s) as [z|].
      * destruct (String.eqb z (i_tz it)).
        -- apply (Hgo s); auto.
        -- injection H as <- <-. right; eauto.
      * injection H as <- <-. right; eauto.
    + apply (Hgo (set_tz s (Some (i_tz it)))); auto.
Qed.

(* Accepted: exactly one item more, at the end, following the last one.
   Rejected: same items. *)
Lemma ts_append_ok e s it s' :
  ts_append e s it = (s', Ok tt) ->
  s_items s' = s_items s ++ [it] /\
  forall last C, last_item (s_items s) = Some last -> item_type s = Some C ->
    cls_isinstance (i_cls it) C = true /\ follows it last = true.
Proof.
  intros H. destruct (ts_append_cases _ _ _ _ _ H) as [(s0 & E0 & H0)|(x & Hx & _)]; [|discriminate].
  destruct (series_append_ok _ _ _ H0) as [H1 H2]. unfold item_type in *. rewrite E0 in H1, H2. auto.
Qed.
Lemma ts_append_err e s it s' x :
  ts_append e s it = (s', Err x) -> s_items s' = s_items s.
Proof.
  intros H. destruct (ts_append_cases _ _ _ _ _ H) as [(s0 & E0 & H0)|(y & Hy & Hi)]; [|exact Hi].
  destruct (series_append_items _ _ _ _ H0) as [[Hr _]|(y & _ & ->)]; [discriminate|exact E0].
Qed.
Lemma ts_append_unit e s it s' u : ts_append e s it = (s', Ok u) -> u = tt.
Proof. destruct u; reflexivity. Qed.

(* ---------------- the ordering invariant ---------------- *)

(* All the items are instances of the class of the first one, and each follows the previous. *)
Definition ord_inv (l : list item) : Prop :=
  (forall x y, In x l -> In y l -> is_point x = is_point y) /\
  consecutive (fun a b => follows b a = true) l.

Lemma isinstance_kind c C : cls_isinstance c C = true -> cls_is_point c = cls_is_point C.
Proof. destruct c, C; simpl; congruence. Qed.

Lemma ord_inv_nil : ord_inv [].
Proof. split; [intros ? ? []|apply consecutive_nil]. Qed.
Lemma ord_inv_one x : ord_inv [x].
Proof. split; [intros a b [<-|[]] [<-|[]]; reflexivity|apply consecutive_one]. Qed.

Lemma ord_inv_snoc l last it :
  ord_inv (l ++ [last]) -> is_point it = is_point last -> follows it last = true ->
  ord_inv ((l ++ [last]) ++ [it]).
Proof.
  intros [H1 H2] Hk Hf. split.
  - assert (Hall : forall x, In x ((l ++ [last]) ++ [it]) -> is_point x = is_point last).
    { intros x Hx. apply in_app_or in Hx. destruct Hx as [Hx|[<-|[]]]; [|exact Hk].
      apply H1; [exact Hx|apply in_or_app; right; left; reflexivity]. }
    intros x y Hx Hy. rewrite (Hall x Hx), (Hall y Hy). reflexivity.
  - apply consecutive_snoc; [exact H2|exact Hf].
Qed.

Lemma append_ord_inv e s it : ord_inv (s_items s) -> ord_inv (s_items (fst (ts_append e s it))).
Proof.
  intros Hinv. destruct (ts_append e s it) as [s' [u|x]] eqn:E; simpl.
  - destruct u. destruct (ts_append_ok _ _ _ _ E) as [Hi Hf]. rewrite Hi.
    destruct (s_items s) as [|a l] eqn:El; [apply ord_inv_one|].
    destruct (last_item_cons a l) as [last Hlast]. rewrite <- El in *.
    destruct (Hf last (i_cls a)) as [HC HF]; [exact Hlast|unfold item_type; rewrite El; reflexivity|].
    destruct (last_item_some _ _ Hlast) as [l' El']. rewrite El' in *.
    apply ord_inv_snoc; [exact Hinv| |exact HF].
    transitivity (is_point a); [apply isinstance_kind, HC|].
    destruct Hinv as [Hk _]. apply Hk; [|apply in_or_app; right; left; reflexivity].
    rewrite El. left; reflexivity.
  - rewrite (ts_append_err _ _ _ _ _ E). exact Hinv.
Qed.

Lemma appends_ord_inv e s xs : ord_inv (s_items s) -> ord_inv (s_items (appends e s xs)).
Proof.
  revert s. induction xs as [|x xs IH]; intros s H; [exact H|].
  unfold appends in *. cbn [fold_left]. apply IH, append_ord_inv, H.
Qed.

Lemma ord_inv_points l : ord_inv l -> all_points l -> strictly_increasing (times l).
Proof.
  intros [_ H] Hp. apply sincr_consecutive. intros i a b Ha Hb. unfold times in *.
  rewrite nth_error_map in Ha, Hb.
  destruct (nth_error l i) as [x|] eqn:Ex; [|discriminate].
  destruct (nth_error l (S i)) as [y|] eqn:Ey; [|discriminate].
  injection Ha as <-. injection Hb as <-. specialize (H i x y Ex Ey).
  unfold follows in H. assert (is_slot y = false) as Hs.
  { unfold is_slot, cls_is_slot. specialize (Hp y (nth_error_In _ _ Ey)). unfold is_point in Hp. rewrite Hp. reflexivity. }
  rewrite Hs in H. unfold point_gt in H. destruct (qltb_spec (i_t x) (i_t y)); [assumption|discriminate].
Qed.

Lemma ord_inv_kind l : ord_inv l -> all_points l \/ all_slots l.
Proof.
  intros [H _]. destruct l as [|a l]; [left; intros ? []|].
  destruct (is_point a) eqn:E.
  - left. intros x Hx. rewrite <- E. apply H; [exact Hx|left; reflexivity].
  - right. intros x Hx. unfold is_slot, cls_is_slot. fold (is_point x). 
    assert (is_point x = false) as -> by (rewrite <- E; apply H; [exact Hx|left; reflexivity]). reflexivity.
Qed.

Lemma qmax_0_r x : Qcle (Q2Qc 0) x -> qmax x q0 = x.
Proof. intros H. unfold qmax. destruct (qleb_spec x q0); [|reflexivity]. qlra. Qed.
Lemma qabs_nonneg x : Qcle (Q2Qc 0) (qabs x).
Proof. unfold qabs. destruct (qltb_spec x (Q2Qc 0)); qlra. Qed.
Lemma qmax_ge_l x y : Qcle x (qmax x y).
Proof. unfold qmax. destruct (qleb_spec x y); [assumption|apply Qcle_refl]. Qed.
Lemma qmax_ge_r x y : Qcle y (qmax x y).
Proof. unfold qmax. destruct (qleb_spec x y); [apply Qcle_refl|qlra]. Qed.

Lemma is_close_spec a b : is_close a b = true <-> within_tolerance a b.
Proof.
  unfold is_close, within_tolerance. rewrite qmax_0_r.
  - destruct (qleb_spec (qabs (a - b)%Qc) (qfrac 1 1000000000 * qmax (qabs a) (qabs b))%Qc); split; try congruence; auto.
  - pose proof (qabs_nonneg a). pose proof (qmax_ge_l (qabs a) (qabs b)).
    set (m := qmax (qabs a) (qabs b)) in *. set (aa := qabs a) in *. qlra.
Qed.

Lemma ord_inv_slots l : ord_inv l -> all_slots l -> nearly_contiguous l.
Proof.
  intros [_ H] Hp i x y Ex Ey. specialize (H i x y Ex Ey). unfold follows in H.
  rewrite (Hp y (nth_error_In _ _ Ey)) in H. unfold succeeds in H.
  apply orb_true_iff in H. destruct H as [H|H].
  - left. destruct (qeqb_spec (i_end x) (i_t y)); [congruence|discriminate].
  - right. apply is_close_spec, H.
Qed.
