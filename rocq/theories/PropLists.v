(* PropLists.v -- property theorem C86 (a series used as a list). *)
From Verif Require Import ListsProofs SeriesProofs SeriesProofs2 SeriesProofs3 AccessProofs PropAccess Witness PropTactics.

(* What a sequence is: points in strict time order or slots in succession. *)
Theorem C86_sequence_meaning : forall l,
  in_sequence l <-> (all_points l /\ strictly_increasing (times l)) \/ (all_slots l /\ nearly_contiguous l).
Proof. exact seq_meaning. Qed.
Print Assumptions C86_sequence_meaning.

(* Any history of calls, list operations included, each of which is harmless when it is made, leaves the items in sequence. *)
Theorem C86_history : forall e s os,
  in_sequence (s_items s) -> all_harmless e s os -> in_sequence (s_items (lrun e s os)).
Proof. exact lrun_seq. Qed.
Print Assumptions C86_history.

(* series[i] = x replaces exactly that item, whatever it is, and the items stay in sequence iff it fits there. *)
Theorem C86_assign : forall s i x b y a,
  in_sequence (s_items s) -> at_position (s_items s) i b y a ->
  ts_set_item s i x = (set_items s (b ++ x :: a), Ok tt) /\
  (in_sequence (s_items (fst (ts_set_item s i x))) <-> fits b [x] a).
Proof.
  intros s i x b y a H P. assert (E : ts_set_item s i x = (set_items s (b ++ x :: a), Ok tt)).
  { unfold ts_set_item. rewrite (list_set_at _ _ _ _ _ x P). reflexivity. }
  split; [exact E|]. rewrite E. cbn. destruct P as (P & _). rewrite P in H. apply seq_middle in H. rewrite seq_middle. tauto.
Qed.
Print Assumptions C86_assign.

(* del series[i] takes away exactly that item, and the items stay in sequence iff its neighbours fit: for points, always. *)
Theorem C86_delete : forall s i b y a,
  in_sequence (s_items s) -> at_position (s_items s) i b y a ->
  ts_del_item s i = (set_items s (b ++ a), Ok tt) /\
  (in_sequence (s_items (fst (ts_del_item s i))) <-> fits b a []) /\
  (all_points (s_items s) -> fits b a []).
Proof.
  intros s i b y a H P. assert (E : ts_del_item s i = (set_items s (b ++ a), Ok tt)).
  { unfold ts_del_item. rewrite (list_pop_at _ _ _ _ _ P). reflexivity. }
  assert (G : in_sequence (b ++ a) <-> fits b a []).
  { destruct P as (P & _). rewrite P in H. apply seq_middle in H. rewrite sequence_app. tauto. }
  split; [exact E|]. rewrite E. cbn. split; [exact G|]. intros Hp. apply G. destruct P as (P & _). rewrite P in H, Hp.
  apply seq_ord. apply seq_ord in H. eapply ord_inv_drop; eassumption.
Qed.
Print Assumptions C86_delete.

(* Outside the series: IndexError, and nothing changes. *)
Theorem C86_outside : forall s i x,
  (forall b y a, ~ at_position (s_items s) i b y a) ->
  ts_set_item s i x = (s, Err IndexError) /\ ts_del_item s i = (s, Err IndexError).
Proof.
  intros s i x H. destruct (no_position _ _ H x) as (E1 & E2). unfold ts_set_item, ts_del_item. rewrite E1, E2. split; reflexivity.
Qed.
Print Assumptions C86_outside.

(* series += items adds them with no check: the result is in sequence iff they are, and follow the last one. *)
Theorem C86_extend : forall s l,
  in_sequence (s_items s) ->
  ts_iadd s l = (set_items s (s_items s ++ l), Ok tt) /\
  (in_sequence (s_items (fst (ts_iadd s l))) <-> in_sequence l /\ fits (s_items s) l []).
Proof. intros s l H. split; [reflexivity|]. cbn. rewrite sequence_app. tauto. Qed.
Print Assumptions C86_extend.

(* series *= n: no items for n <= 0, the same series for 1; a series of points repeated is never in order. *)
Theorem C86_repeat : forall s n,
  ((n <= 0)%Z -> s_items (fst (ts_imul s n)) = []) /\ (n = 1%Z -> s_items (fst (ts_imul s n)) = s_items s) /\
  ((2 <= n)%Z -> all_points (s_items s) -> s_items s <> [] -> ~ in_sequence (s_items (fst (ts_imul s n)))).
Proof.
  intros s n. split; [|split].
  - intros H. cbn. destruct n; [reflexivity|lia|reflexivity].
  - intros ->. cbn. apply app_nil_r.
  - intros H Hp Hn. apply repeat_points; assumption.
Qed.
Print Assumptions C86_repeat.

(* x in series: true iff an equal item is there, for every item on a series of points, and for slots like those of the series. *)
Theorem C86_contains : forall s x,
  Forall well_keyed (s_items s) -> well_keyed x -> (forall y, In y (s_items s) -> is_point y = true \/ comparable y x) ->
  exists b, ts_contains s x = Ok b /\ (b = true <-> exists y, In y (s_items s) /\ same_thing y x).
Proof. intros s x. apply contains_ok. Qed.
Print Assumptions C86_contains.

(* Asked for a point, a series of slots says no unless one of them has the very same data: then there is an exception. *)
Theorem C86_point_in_slots : forall s x d, i_data x = Some d -> is_point x = true -> Forall well_keyed (s_items s) -> well_keyed x ->
  (forall y, In y (s_items s) -> is_point y = false /\ exists d', i_data y = Some d') ->
  ((forall y d', In y (s_items s) -> i_data y = Some d' -> ~ same_data d' d) -> ts_contains s x = Ok false) /\
  ((exists y d', In y (s_items s) /\ i_data y = Some d' /\ same_data d' d) -> ts_contains s x = Err AttributeError).
Proof.
  intros s x d D P K Kx. unfold ts_contains. unfold well_keyed in Kx. rewrite D in Kx. induction K as [|y l Ky K IH]; intros Hs; cbn [list_contains].
  - split; [reflexivity|intros (y & _ & [] & _)].
  - destruct (Hs y (or_introl eq_refl)) as [Py (d' & Dy)]. destruct (IH (fun z Z => Hs z (or_intror Z))) as [IH1 IH2]. unfold item_eq. rewrite Py, P, Dy, D. unfold well_keyed in Ky. rewrite Dy in Ky.
    pose proof (data_eqb_same d' d Ky Kx) as E. split.
    + intros H. destruct (data_eqb d' d); [exfalso; apply (H y d' (or_introl eq_refl) Dy), E; reflexivity|]. cbn [bind]. apply IH1. intros z dz Z. apply H. right. exact Z.
    + intros (z & dz & Z & Dz & Sd). destruct (data_eqb d' d) eqn:Q; [reflexivity|]. cbn [bind]. destruct Z as [<-|Z]; [|apply IH2; exists z, dz; split; [exact Z|]; split; assumption].
      assert (dz = d') by congruence. subst dz. apply E in Sd. congruence.
Qed.
Print Assumptions C86_point_in_slots.

(* ---------------- what does not hold ---------------- *)

(* A position is never returned by index(): with no bounds (the default) there is an exception, and otherwise no value. *)
Theorem C86_index_refuted :
  (forall s x a b k, ts_index s x a b <> Ok (Some k)) /\
  (forall s x a b, a = None \/ b = None -> ts_index s x a b = Err TypeError) /\
  exists s x, s_items s = [x] /\ ts_contains s x = Ok true /\ ts_index s x None None = Err TypeError /\ ts_index s x (Some 0%Z) (Some 1%Z) = Ok None.
Proof.
  split; [|split].
  - intros s x a b k E. apply index_never in E. discriminate.
  - exact index_bounds.
  - exists (set_items (empty_series None) [pt 0 1]), (pt 0 1). repeat split; vm_compute; reflexivity.
Qed.
Print Assumptions C86_index_refuted.

(* A copy, or a sum, is never a series, but a plain list. *)
Theorem C86_copy_refuted :
  (forall s, exists l, ts_copy s = PlainList l /\ l = s_items s) /\ (forall s s', ts_copy s <> ASeries s') /\
  (forall s l s', ts_add s l <> ASeries s').
Proof. split; [intros s; exists (s_items s); split; reflexivity|]. split; intros; intros E; discriminate E. Qed.
Print Assumptions C86_copy_refuted.

Definition points3 : series := match ts_new ideal_env None [pt 0 1; pt 10 2; pt 20 3] with Ok s => s | Err _ => empty_series None end.
Definition slots3_s : series := match ts_new ideal_env None slots3 with Ok s => s | Err _ => empty_series None end.
Definition in_sequenceb (l : list item) : bool := forallb (fun p => follows (snd p) (fst p) && Bool.eqb (is_point (fst p)) (is_point (snd p)))%bool (combine l (tl l)).
Lemma in_sequenceb_ok l : in_sequenceb l = true -> in_sequence l.
Proof.
  unfold in_sequenceb. intros H i a b Ha Hb. rewrite forallb_forall in H. specialize (H (a, b)). cbn in H.
  assert (G : In (a, b) (combine l (tl l))).
  { clear H. revert l Ha Hb. induction i as [|i IH]; intros [|x [|y l]] Ha Hb; try discriminate.
    - injection Ha as ->. injection Hb as ->. left. reflexivity.
    - right. apply (IH (y :: l)); assumption. }
  specialize (H G). apply andb_true_iff in H. destruct H as (H1 & H2). apply follows_can; [|exact H1].
  apply Bool.eqb_prop in H2. exact H2.
Qed.
Lemma disordered l i a b : nth_error l i = Some a -> nth_error l (S i) = Some b -> follows b a = false -> ~ in_sequence l.
Proof.
  intros Ha Hb F H. specialize (H i a b Ha Hb). pose proof (can_follow_kind _ _ H) as K. apply follows_can in H; [|exact K]. congruence.
Qed.
Lemma points3_seq : in_sequence (s_items points3).
Proof. apply in_sequenceb_ok. vm_compute. reflexivity. Qed.
Lemma slots3_seq : in_sequence (s_items slots3_s).
Proof. apply in_sequenceb_ok. vm_compute. reflexivity. Qed.

(* So the promise of the class ("guaranteed to be of the same type and in order or succession") does not hold of list operations: all of them are accepted
   and the items end up out of order, with an overlap or a hole, of another kind, with other labels. *)
Theorem C86_unchecked_refuted :
  (exists s x, in_sequence (s_items s) /\ snd (ts_set_item s 1 x) = Ok tt /\ ~ in_sequence (s_items (fst (ts_set_item s 1 x)))) /\
  (exists s, in_sequence (s_items s) /\ all_slots (s_items s) /\ snd (ts_del_item s 1) = Ok tt /\ ~ in_sequence (s_items (fst (ts_del_item s 1)))) /\
  (exists s x, in_sequence (s_items s) /\ snd (ts_iadd s [x]) = Ok tt /\ ~ in_sequence (s_items (fst (ts_iadd s [x])))) /\
  (exists s x y, in_sequence (s_items s) /\ is_point y = true /\ is_slot x = true /\ In y (s_items (fst (ts_set_item s 0 x))) /\ In x (s_items (fst (ts_set_item s 0 x)))) /\
  (exists s x, in_sequence (s_items (fst (ts_set_item s 0 x))) /\ exists y, In y (s_items (fst (ts_set_item s 0 x))) /\ ~ same_item_shape x y).
Proof.
  split; [|split; [|split; [|split]]].
  - exists points3, (pt 30 5). split; [exact points3_seq|]. split; [vm_compute; reflexivity|].
    apply (disordered _ 1 (pt 30 5) (pt 20 3)); vm_compute; reflexivity.
  - exists slots3_s. split; [exact slots3_seq|]. split.
    { vm_compute (s_items slots3_s). intros x [<-|[<-|[<-|[]]]]; reflexivity. }
    split; [vm_compute; reflexivity|]. apply (disordered _ 0 (slot 0 10 1) (slot 20 10 3)); vm_compute; reflexivity.
  - exists points3, (pt 5 5). split; [exact points3_seq|]. split; [reflexivity|].
    apply (disordered _ 2 (pt 20 3) (pt 5 5)); vm_compute; reflexivity.
  - exists points3, (slot 0 10 1), (pt 10 2). split; [exact points3_seq|]. split; [reflexivity|]. split; [reflexivity|].
    split; [right; left; vm_compute; reflexivity|left; reflexivity].
  - exists points3, (ptd 0 (d2 1 2)). split; [apply in_sequenceb_ok; vm_compute; reflexivity|].
    exists (pt 10 2). split; [right; left; vm_compute; reflexivity|]. intros (_ & H). cbn in H.
    destruct (proj1 (H "a"%string)) as [E|[]]; [left; reflexivity|discriminate].
Qed.
Print Assumptions C86_unchecked_refuted.

(* And what the series knows of itself does not follow its items. *)
Theorem C86_stale_refuted :
  exists s d, in_sequence (s_items s) /\ map i_t (s_items s) = [qz 0; qz 10; qz 20] /\ resolution s = Some (RUnit (UPhys d)) /\ d = qz 10 /\
    let s' := fst (ts_del_item s 1) in
    map i_t (s_items s') = [qz 0; qz 20] /\ resolution s' = Some (RUnit (UPhys d)).
Proof.
  exists points3. eexists. split; [exact points3_seq|]. split; [vm_compute; reflexivity|]. split; [vm_compute; reflexivity|].
  split; [apply qeqb_eq; vm_compute; reflexivity|]. cbn zeta. split; vm_compute; reflexivity.
Qed.
Print Assumptions C86_stale_refuted.

(* ---------------- the hypotheses can be met ---------------- *)
Example C86_example :
  all_harmless ideal_env points3 [LSet (-1) (pt 25 7); LDel 1; LIadd [pt 30 8; pt 40 9]; LCall (OInsert 0 (pt (-10) 1)); LImul 1; LCall (OPop None)] /\
  map i_t (s_items (lrun ideal_env points3 [LSet (-1) (pt 25 7); LDel 1; LIadd [pt 30 8; pt 40 9]; LCall (OInsert 0 (pt (-10) 1)); LImul 1; LCall (OPop None)])) =
    map qz [-10; 0; 25; 30]%Z.
Proof.
  split.
  2:{ vm_compute. reflexivity. }
  cbn [all_harmless]. split; [|split; [|split; [|split; [|split; [|split]]]]].
  - intros b y a P. destruct (at_unique _ _ _ _ _ [pt 0 1; pt 10 2] (pt 20 3) [] P) as (-> & -> & ->); [split; vm_compute; reflexivity|].
    apply (seq_middle [pt 0 1; pt 10 2] (pt 25 7) []). apply in_sequenceb_ok. vm_compute. reflexivity.
  - left. intros x [<-|[<-|[<-|[]]]]; reflexivity.
  - split; [apply in_sequenceb_ok; vm_compute; reflexivity|].
    apply sequence_app. apply in_sequenceb_ok. vm_compute. reflexivity.
  - left. reflexivity.
  - left. lia.
  - exact Logic.I.
  - exact Logic.I.
Qed.
Example C86_position : at_position (s_items slots3_s) (-2) [slot 0 10 1] (slot 10 10 2) [slot 20 10 3].
Proof. split; vm_compute; reflexivity. Qed.
Example C86_contains_example : Forall well_keyed (s_items slots3_s) /\ well_keyed (slot 10 10 2) /\
  (forall y, In y (s_items slots3_s) -> is_point y = true \/ comparable y (slot 10 10 2)) /\
  ts_contains slots3_s (slot 10 10 2) = Ok true /\ ts_contains slots3_s (slot 10 10 5) = Ok false /\ ts_contains slots3_s (tpt 0) = Err AttributeError.
Proof.
  assert (W : forall a b c, well_keyed (slot a b c)) by (intros a b c; cbn; constructor; [intros []|constructor]).
  split; [|split; [apply W|split; [|repeat split; vm_compute; reflexivity]]].
  - vm_compute (s_items slots3_s). repeat constructor; intros [].
  - vm_compute (s_items slots3_s). intros y [<-|[<-|[<-|[]]]]; right; right; repeat split; discriminate.
Qed.
Example C86_point_in_slots_example : Forall well_keyed (s_items slots3_s) /\ well_keyed (pt 10 2) /\ is_point (pt 10 2) = true /\
  (forall y, In y (s_items slots3_s) -> is_point y = false /\ exists d', i_data y = Some d') /\
  ts_contains slots3_s (pt 10 5) = Ok false /\ ts_contains slots3_s (pt 77 2) = Err AttributeError.
Proof.
  split; [apply C86_contains_example|]. split; [cbn; constructor; [intros []|constructor]|]. split; [reflexivity|]. split; [|split; vm_compute; reflexivity].
  vm_compute (s_items slots3_s). intros y [<-|[<-|[<-|[]]]]; (split; [reflexivity|eexists; reflexivity]).
Qed.
