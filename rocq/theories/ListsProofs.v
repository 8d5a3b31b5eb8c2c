(* ListsProofs.v -- proofs for SpecLists.v (C86). *)
From Verif Require Export SpecLists SeriesProofs4 DictLemmas.
From Verif Require Import BaseLemmas SeriesProofs SeriesProofs2 PropTactics.

Lemma qeqb_same x y : x = y -> qeqb x y = true.
Proof. intros ->. destruct (qeqb_spec y y); [reflexivity|congruence]. Qed.
Lemma follows_can a b : is_point a = is_point b -> (follows b a = true <-> can_follow a b).
Proof.
  intros K. unfold follows, can_follow, succeeds, point_gt. rewrite !slot_point, K.
  destruct (is_point b) eqn:P; cbn [negb].
  - split.
    + intros H. left. split; [reflexivity|split; [reflexivity|apply qltb_lt, H]].
    + intros [(_ & _ & H)|(H & _)]; [apply qltb_true, H|discriminate].
  - split.
    + intros H. right. split; [reflexivity|split; [reflexivity|]]. apply orb_true_iff in H. destruct H as [H|H].
      * left. symmetry. apply qeqb_eq, H.
      * right. apply is_close_spec, H.
    + intros [(H & _)|(_ & _ & [H|H])]; [discriminate| |].
      * apply orb_true_iff. left. apply qeqb_same. symmetry. exact H.
      * apply orb_true_iff. right. apply is_close_spec, H.
Qed.
Lemma can_follow_kind a b : can_follow a b -> is_point a = is_point b.
Proof. intros [(P & Q & _)|(P & Q & _)]; [congruence|]. rewrite (point_slot a), (point_slot b). congruence. Qed.

Lemma consecutive_tail {A} (R : A -> A -> Prop) x l : consecutive R (x :: l) -> consecutive R l.
Proof. apply (consecutive_app_r R [x] l). Qed.

Lemma seq_kind l x y : in_sequence l -> In x l -> In y l -> is_point x = is_point y.
Proof.
  intros H. assert (G : forall a r, l = a :: r -> forall z, In z l -> is_point z = is_point a).
  { revert H. induction l as [|b l IH]; intros H a r E z Hz; [discriminate|]. injection E as <- <-.
    destruct Hz as [<-|Hz]; [reflexivity|]. destruct l as [|c l]; [destruct Hz|].
    unfold in_sequence in H. apply consecutive_cons in H. destruct H as (H1 & H2).
    rewrite (IH H2 c l eq_refl z Hz). symmetry. apply can_follow_kind, H1. }
  destruct l as [|a r]; [intros []|]. intros Hx Hy. rewrite (G a r eq_refl x Hx), (G a r eq_refl y Hy). reflexivity.
Qed.
Lemma seq_ord l : in_sequence l <-> ord_inv l.
Proof.
  split.
  - intros H. split; [intros x y Hx Hy; eapply seq_kind; eauto|]. intros i a b Ha Hb. apply follows_can.
    + apply can_follow_kind. apply (H i a b Ha Hb).
    + apply (H i a b Ha Hb).
  - intros (K & H) i a b Ha Hb. apply follows_can; [apply K; eapply nth_error_In; eassumption|]. apply (H i a b Ha Hb).
Qed.
Lemma seq_meaning l : in_sequence l <-> (all_points l /\ strictly_increasing (times l)) \/ (all_slots l /\ nearly_contiguous l).
Proof.
  split.
  - intros H. apply ord_inv_meaning. apply seq_ord, H.
  - intros [(P & H)|(P & H)].
    + apply seq_ord. apply ord_inv_points_iff; assumption.
    + intros i a b Ha Hb. right. split; [apply P; eapply nth_error_In; eassumption|]. split; [apply P; eapply nth_error_In; eassumption|].
      apply (H i a b Ha Hb).
Qed.

(* joining lists *)
Lemma sequence_app b a : in_sequence (b ++ a) <-> in_sequence b /\ in_sequence a /\ fits b a [].
Proof.
  unfold in_sequence. split.
  - intros H. split; [eapply consecutive_app_l, H|]. split; [eapply consecutive_app_r, H|].
    intros u x v y r r' r'' r'''. split; [|discriminate]. intros -> ->.
    apply (H (length r) u x).
    + rewrite <- app_assoc. rewrite nth_error_app2, Nat.sub_diag; [reflexivity|lia].
    + rewrite <- app_assoc. rewrite nth_error_app2 by lia. replace (S (length r) - length r) with 1 by lia. reflexivity.
  - intros (H1 & H2 & H3) i u v Hu Hv.
    destruct (Nat.lt_ge_cases (S i) (length b)) as [Hl|Hl].
    + rewrite nth_error_app1 in Hu, Hv by lia. apply (H1 i); assumption.
    + destruct (Nat.eq_dec (S i) (length b)) as [He|He].
      * rewrite nth_error_app1 in Hu by lia. rewrite nth_error_app2 in Hv by lia. rewrite He, Nat.sub_diag in Hv.
        destruct a as [|x a]; [discriminate|]. injection Hv as ->.
        destruct (exists_last (l := b)) as (r & w & ->); [intros ->; cbn in He; lia|].
        rewrite app_length in *. cbn [length] in *. assert (i = length r) as -> by lia.
        rewrite nth_error_app2, Nat.sub_diag in Hu by lia. injection Hu as ->.
        apply (proj1 (H3 u v v v r a [] [])); reflexivity.
      * rewrite nth_error_app2 in Hu, Hv by lia. apply (H2 (i - length b)); [exact Hu|]. rewrite <- Hv. f_equal. lia.
Qed.
Lemma fits_nil b a : fits b [] a.
Proof. intros u x v y r r' r'' r'''. split; [discriminate|]. intros _ H. destruct r'''; discriminate H. Qed.
Lemma fits_split b l a : l <> [] -> (fits b l a <-> fits b l [] /\ fits l a []).
Proof.
  intros Hl. split.
  - intros H. split.
    + intros u x v y r r' r'' r'''. split; [|discriminate]. apply (proj1 (H u x v y r r' r'' r''')).
    + intros u x v y r r' r'' r'''. split; [|discriminate]. intros E1 E2. apply (proj2 (H u x x u r r' r' r)); assumption.
  - intros (H1 & H2) u x v y r r' r'' r'''. split; [apply (proj1 (H1 u x v y r r' [] r'''))|].
    intros E1 E2. apply (proj1 (H2 y v u x r''' r'' [] [])); assumption.
Qed.
Lemma seq_middle b x a : in_sequence (b ++ x :: a) <-> in_sequence b /\ in_sequence a /\ fits b [x] a.
Proof.
  rewrite sequence_app. change (x :: a) with ([x] ++ a). rewrite (sequence_app [x] a). rewrite (fits_split b [x] a) by discriminate.
  split.
  - intros (H1 & (H2 & H3 & H4) & H5). split; [exact H1|]. split; [exact H3|]. split; [|exact H4].
    intros u w v y r r' r'' r3. split; [|discriminate].
    intros E1 E2. injection E2 as <- <-. apply (proj1 (H5 u x v y r a r'' r3)); [exact E1|reflexivity].
  - intros (H1 & H2 & H3 & H4). split; [exact H1|]. split; [split; [apply consecutive_one|split; assumption]|].
    intros u w v y r r' r'' r'''. split; [|discriminate]. intros E1 E2. injection E2 as <- <-.
    apply (proj1 (H3 u x v y r [] r'' r''')); [exact E1|reflexivity].
Qed.

(* positions *)
Lemma list_set_spec {A} (l : list A) i x l' : list_set l i x = Ok l' ->
  exists l1 y l2, l = l1 ++ y :: l2 /\ l' = l1 ++ x :: l2 /\
    Z.of_nat (length l1) = (if Z.ltb i 0 then i + Z.of_nat (length l) else i)%Z.
Proof.
  unfold list_set. set (j := if Z.ltb i 0 then (i + Z.of_nat (length l))%Z else i).
  destruct (Z.leb_spec 0 j); cbn [andb]; [|discriminate].
  destruct (Z.ltb_spec j (Z.of_nat (length l))); [|discriminate]. intros [= <-].
  destruct (nth_error l (Z.to_nat j)) as [y|] eqn:E; [|apply nth_error_None in E; lia].
  exists (firstn (Z.to_nat j) l), y, (skipn (S (Z.to_nat j)) l).
  split; [|split; [reflexivity|rewrite firstn_length; lia]].
  rewrite <- (firstn_skipn (Z.to_nat j) l) at 1. f_equal. apply skipn_nth_error, E.
Qed.
Lemma at_in l i b y a : at_position l i b y a ->
  let j := (if Z.ltb i 0 then i + Z.of_nat (length l) else i)%Z in (0 <= j < Z.of_nat (length l))%Z /\ Z.to_nat j = length b.
Proof.
  intros (E & H). cbn zeta. rewrite <- H. rewrite Nat2Z.id. split; [|reflexivity].
  rewrite E, app_length. cbn [length]. lia.
Qed.
Lemma at_unique l i b y a b' y' a' : at_position l i b y a -> at_position l i b' y' a' -> b = b' /\ y = y' /\ a = a'.
Proof.
  intros (E & H) (E' & H'). rewrite <- H in H'. apply Nat2Z.inj in H'.
  subst l. revert b' H' E'. clear. induction b as [|u b IH]; intros [|u' b'] L E; cbn in *; try discriminate.
  - injection E as <- <-. auto.
  - injection E as <- E. injection L as L. destruct (IH b' L E) as (-> & -> & ->). auto.
Qed.
Lemma list_set_at l i b y a x : at_position l i b y a -> list_set l i x = Ok (b ++ x :: a).
Proof.
  intros H. pose proof (at_in _ _ _ _ _ H) as (H1 & H2). cbn zeta in *.
  destruct (list_set l i x) as [l'|er] eqn:E.
  - destruct (list_set_spec _ _ _ _ E) as (l1 & z & l2 & E1 & -> & E3).
    destruct (at_unique l i b y a l1 z l2 H (conj E1 E3)) as (-> & -> & ->). reflexivity.
  - exfalso. unfold list_set in E. destruct (Z.leb_spec 0 (if Z.ltb i 0 then i + Z.of_nat (length l) else i)); [|lia].
    destruct (Z.ltb_spec (if Z.ltb i 0 then i + Z.of_nat (length l) else i)%Z (Z.of_nat (length l))); [discriminate|lia].
Qed.
Lemma list_pop_at l i b y a : at_position l i b y a -> list_pop l i = Ok (y, b ++ a).
Proof.
  intros H. pose proof (at_in _ _ _ _ _ H) as (H1 & H2). cbn zeta in *.
  destruct (list_pop l i) as [[z l']|er] eqn:E.
  - destruct (list_pop_spec _ _ _ _ E) as (l1 & l2 & E1 & -> & E3).
    destruct (at_unique l i b y a l1 z l2 H (conj E1 E3)) as (-> & -> & ->). reflexivity.
  - exfalso. unfold list_pop in E. destruct (Z.leb_spec 0 (if Z.ltb i 0 then i + Z.of_nat (length l) else i)); [|lia].
    destruct (Z.ltb_spec (if Z.ltb i 0 then i + Z.of_nat (length l) else i)%Z (Z.of_nat (length l))); [|lia].
    cbn [andb] in E. destruct H as (H & _). rewrite H2 in E. rewrite H in E. rewrite nth_error_app2, Nat.sub_diag in E by lia. discriminate E.
Qed.
Lemma no_position l i : (forall b y a, ~ at_position l i b y a) -> forall x, list_set l i x = Err IndexError /\ list_pop l i = Err IndexError.
Proof.
  intros H x. split.
  - destruct (list_set l i x) as [l'|er] eqn:E.
    + destruct (list_set_spec _ _ _ _ E) as (l1 & z & l2 & E1 & -> & E3). destruct (H l1 z l2). split; assumption.
    + unfold list_set in E. destruct (_ && _)%bool; [discriminate|congruence].
  - destruct (list_pop l i) as [[z l']|er] eqn:E.
    + destruct (list_pop_spec _ _ _ _ E) as (l1 & l2 & E1 & -> & E3). destruct (H l1 z l2). split; assumption.
    + unfold list_pop in E. destruct (_ && _)%bool; [|congruence].
      destruct (nth_error _ _); [discriminate|congruence].
Qed.

(* histories *)
Lemma lstep_seq e s o : in_sequence (s_items s) -> harmless s o -> in_sequence (s_items (fst (lstep e s o))).
Proof.
  intros H Hh. destruct o as [o|i x|i|l|n].
  - apply seq_ord. apply seq_ord in H. cbn [lstep]. destruct o as [x|i x|x|i| | | | |]; cbn [step harmless fst] in *; try exact H.
    + apply append_ord_inv, H.
    + apply insert_end_ord_inv; assumption.
    + apply remove_ord_inv, H.
    + pose proof (pop_ord_inv s i H) as G. destruct (ts_pop s i) as [s' r]. exact G.
    + apply ord_inv_nil.
  - cbn [lstep]. unfold ts_set_item. destruct (list_set (s_items s) i x) as [l'|er] eqn:E; [|exact H]. cbn.
    destruct (list_set_spec _ _ _ _ E) as (b & y & a & E1 & -> & E3). cbn in Hh. specialize (Hh b y a (conj E1 E3)).
    rewrite E1 in H. apply seq_middle in H. destruct H as (H1 & H2 & _). apply seq_middle. auto.
  - cbn [lstep]. unfold ts_del_item. destruct (list_pop (s_items s) i) as [[y l']|er] eqn:E; [|exact H]. cbn.
    destruct (list_pop_spec _ _ _ _ E) as (b & a & E1 & -> & E3). cbn in Hh.
    destruct Hh as [Hp|Hh].
    + rewrite E1 in *. apply seq_ord. apply seq_ord in H. eapply ord_inv_drop; eassumption.
    + rewrite E1 in H. apply seq_middle in H. destruct H as (H1 & H2 & _).
      destruct (Hh b y a (conj E1 E3)) as [-> | ->]; [exact H2|]. rewrite app_nil_r. exact H1.
  - cbn. destruct Hh as (H1 & H2). apply sequence_app. auto.
  - cbn. destruct Hh as [Hn|E].
    + destruct (Z.to_nat n) as [|[|k]] eqn:Z; [apply consecutive_nil|cbn; rewrite app_nil_r; exact H|lia].
    + rewrite E. assert (G : forall k, concat (repeat (@nil item) k) = []) by (induction k; [reflexivity|assumption]). rewrite G. apply consecutive_nil.
Qed.
Lemma lrun_seq e s os : in_sequence (s_items s) -> all_harmless e s os -> in_sequence (s_items (lrun e s os)).
Proof.
  revert s. induction os as [|o os IH]; intros s H Hh; [exact H|]. destruct Hh as (Ho & Hr).
  unfold lrun in *. cbn [fold_left]. apply IH; [|exact Hr]. apply lstep_seq; assumption.
Qed.

(* comparisons *)
Lemma qlist_eqb_eq a b : qlist_eqb a b = true <-> a = b.
Proof.
  revert b. induction a as [|x a IH]; intros [|y b]; cbn; try (split; [discriminate|discriminate]); [split; reflexivity|].
  rewrite andb_true_iff, IH. split.
  - intros (H & ->). apply qeqb_eq in H. congruence.
  - intros [= -> ->]. split; [apply qeqb_same; reflexivity|reflexivity].
Qed.
Lemma dict_eqb_eq (a b : dict Qc) : NoDup (dkeys a) -> NoDup (dkeys b) -> (dict_eqb a b = true <-> forall k, dget k a = dget k b).
Proof.
  intros Na Nb. unfold dict_eqb. rewrite andb_true_iff. rewrite Nat.eqb_eq, forallb_forall.
  assert (Hin : forall k v, In (k, v) a -> dget k a = Some v) by (intros k v; apply dget_NoDup, Na).
  split.
  - intros (L & H). 
    assert (Hab : forall k v, dget k a = Some v -> dget k b = Some v).
    { intros k v E. apply dget_Some_In in E. specialize (H (k, v) E). cbn in H. destruct (dget k b) as [w|]; [|discriminate]. apply qeqb_eq in H. congruence. }
    assert (Hinc : incl (dkeys b) (dkeys a)).
    { apply NoDup_length_incl; [exact Na| |].
      - unfold dkeys. rewrite !map_length. lia.
      - intros k Hk. unfold dkeys in Hk. apply in_map_iff in Hk. destruct Hk as ((k', v) & <- & Hk). cbn.
        pose proof (Hab _ _ (Hin _ _ Hk)) as E. apply dget_Some_In in E. apply (in_map fst) in E. exact E. }
    intros k. destruct (dget k a) as [v|] eqn:E; [symmetry; apply Hab, E|].
    destruct (dget k b) as [w|] eqn:E2; [|reflexivity]. apply dget_Some_In in E2. apply (in_map fst) in E2. cbn in E2. apply Hinc in E2.
    unfold dkeys in E2. apply in_map_iff in E2. destruct E2 as ((k', v) & Ek & Hk). cbn in Ek. subst k'. rewrite (Hin _ _ Hk) in E. discriminate.
  - intros H. split.
    + assert (P : forall k, In k (dkeys a) <-> In k (dkeys b)).
      { assert (G : forall d : dict Qc, forall k, In k (dkeys d) <-> exists v, dget k d = Some v).
        { intros d k. rewrite <- dget_In. destruct (dget k d) as [v|]; [split; [exists v; reflexivity|discriminate]|split; [congruence|intros (v & E); discriminate E]]. }
        intros k. rewrite !G, H. reflexivity. }
      unfold dkeys in *. rewrite <- (map_length fst a), <- (map_length fst b).
      apply Nat.le_antisymm; apply NoDup_incl_length; auto; intros k Hk; apply P, Hk.
    + intros (k, v) Hk. cbn. rewrite <- H, (Hin _ _ Hk). apply qeqb_same. reflexivity.
Qed.

Lemma data_eqb_same a b : (match a with DDict d => NoDup (dkeys d) | _ => True end) -> (match b with DDict d => NoDup (dkeys d) | _ => True end) ->
  (data_eqb a b = true <-> same_data a b).
Proof.
  destruct a as [x|x], b as [y|y]; cbn; intros Ha Hb; try (split; [discriminate|intros []]).
  - apply qlist_eqb_eq.
  - apply dict_eqb_eq; assumption.
Qed.
Lemma item_eqb_same x y : well_keyed x -> well_keyed y -> is_point x = is_point y -> (item_eqb x y = true <-> same_thing x y).
Proof.
  intros Wx Wy K. unfold item_eqb, same_thing, well_keyed in *. rewrite !andb_true_iff.
  assert (D : match i_data x, i_data y with Some a, Some b => data_eqb a b | _, _ => true end = true <->
    (forall a b, i_data x = Some a -> i_data y = Some b -> same_data a b)).
  { destruct (i_data x) as [a|], (i_data y) as [b|]; try (split; [intros _ ? ?; discriminate|reflexivity]).
    rewrite (data_eqb_same a b) by (destruct a, b; assumption). split; [intros H ? ? [= <-] [= <-]; exact H|intros H; apply H; reflexivity]. }
  rewrite D. split.
  - intros ((H & H1) & H2). repeat split; [exact K|apply qeqb_eq, H1|apply qeqb_eq, H2|exact H].
  - intros (_ & H1 & H2 & H). repeat split; [exact H|apply qeqb_same, H1|apply qeqb_same, H2].
Qed.
Lemma item_eq_ok x y : well_keyed x -> well_keyed y -> is_point x = true \/ comparable x y ->
  exists b, item_eq x y = Ok b /\ (b = true <-> same_thing x y).
Proof.
  intros Wx Wy H. unfold item_eq. destruct (is_point x) eqn:Px.
  - destruct (is_point y) eqn:Py.
    + exists (item_eqb x y). split; [reflexivity|]. apply item_eqb_same; auto. congruence.
    + exists false. split; [reflexivity|]. split; [discriminate|]. intros (K & _). congruence.
  - destruct H as [H|[(H & _)|(_ & H & D)]]; [discriminate|congruence|]. rewrite slot_point in H. destruct (is_point y) eqn:Py; [discriminate|].
    assert (Bool.eqb (has_data x) (has_data y) = true) as ->.
    { unfold has_data. destruct (i_data x), (i_data y); try reflexivity; [discriminate (proj2 D eq_refl)|discriminate (proj1 D eq_refl)]. }
    exists (item_eqb x y). split; [reflexivity|]. apply item_eqb_same; auto. congruence.
Qed.
Lemma contains_ok l x : Forall well_keyed l -> well_keyed x -> (forall y, In y l -> is_point y = true \/ comparable y x) ->
  exists b, list_contains l x = Ok b /\ (b = true <-> exists y, In y l /\ same_thing y x).
Proof.
  intros Wl Wx. induction Wl as [|y l Wy Wl IH]; intros H.
  - exists false. split; [reflexivity|]. split; [discriminate|]. intros (? & [] & _).
  - destruct (item_eq_ok y x Wy Wx (H y (or_introl eq_refl))) as (b & E & B). cbn [list_contains]. rewrite E. cbn [bind]. destruct b.
    + exists true. split; [reflexivity|]. split; [|reflexivity]. intros _. exists y. split; [left; reflexivity|apply B; reflexivity].
    + destruct IH as (c & Ec & C); [intros z Hz; apply H; right; exact Hz|]. exists c. split; [exact Ec|]. rewrite C. split.
      * intros (z & Hz & S). exists z. split; [right; exact Hz|exact S].
      * intros (z & [<-|Hz] & S); [apply B in S; discriminate|]. exists z. auto.
Qed.
Lemma index_never s x a b r : ts_index s x a b = Ok r -> r = None.
Proof. unfold ts_index. destruct (list_index (s_items s) x a b); cbn; [congruence|discriminate]. Qed.
Lemma index_bounds s x a b : a = None \/ b = None -> ts_index s x a b = Err TypeError.
Proof. unfold ts_index, list_index. destruct a, b; intros [H|H]; try discriminate; reflexivity. Qed.

Lemma repeat_points s n : all_points (s_items s) -> s_items s <> [] -> (2 <= n)%Z -> ~ in_sequence (s_items (fst (ts_imul s n))).
Proof.
  intros P N L H. cbn in H. destruct (Z.to_nat n) as [|[|k]] eqn:Z; [lia|lia|]. cbn [repeat concat] in H. rewrite app_assoc in H.
  apply sequence_app in H. destruct H as (H & _). apply seq_meaning in H.
  destruct (s_items s) as [|a l] eqn:E; [congruence|].
  destruct H as [(_ & H)|(H & _)].
  - assert (Qclt (i_t a) (i_t a)); [|qlra].
    apply (H 0 (length (a :: l))); [cbn; lia|reflexivity|]. unfold times. rewrite nth_error_map, nth_error_app2, Nat.sub_diag by lia. reflexivity.
  - assert (is_slot a = true) by (apply H; left; reflexivity). rewrite slot_point, (P a) in H0 by (left; reflexivity). discriminate.
Qed.
