(* OpsProofs.v -- proofs about the operations: labels and values, histories, rebuilt series. *)
From Verif Require Import BaseLemmas SeriesProofs SeriesProofs2 SeriesProofs3 SeriesProofs4
  AccessProofs AccessProofs2 DictLemmas AccessProofs3.
From Verif Require Export SpecOps.

(* ---------------- decimal labels ---------------- *)
Lemma digit_val_str d : d < 10 -> exists c, digit_str d = String c EmptyString /\ digit_val c = Some d.
Proof.
  intros H. do 10 (destruct d as [|d]; [eexists; split; reflexivity|]). lia.
Qed.
Lemma parse_nat_aux_app s c d : forall acc, digit_val c = Some d ->
  parse_nat_aux acc (s ++ String c EmptyString) = match parse_nat_aux acc s with Some a => Some (a * 10 + d) | None => None end.
Proof.
  induction s as [|x s IH]; intros acc Hc; cbn [parse_nat_aux String.append].
  - rewrite Hc. reflexivity.
  - destruct (digit_val x); [apply IH, Hc|reflexivity].
Qed.
Lemma parse_nat_str_aux f n : n < f -> parse_nat_aux 0 (nat_str_fuel f n) = Some n /\ nat_str_fuel f n <> EmptyString.
Proof.
  revert n. induction f as [|f IH]; intros n H; [lia|]. cbn [nat_str_fuel].
  destruct (Nat.ltb_spec n 10).
  - destruct (digit_val_str n H0) as (c & -> & Hc). cbn. rewrite Hc. split; [reflexivity|discriminate].
  - assert (Hd : n / 10 < f) by (pose proof (Nat.div_lt n 10); lia).
    destruct (digit_val_str (n mod 10)) as (c & -> & Hc); [apply Nat.mod_upper_bound; lia|].
    rewrite (parse_nat_aux_app _ _ _ 0 Hc). destruct (IH _ Hd) as [-> Hne]. split.
    + f_equal. rewrite Nat.mul_comm. symmetry. apply Nat.div_mod. lia.
    + destruct (nat_str_fuel f (n / 10)); discriminate.
Qed.
Lemma parse_nat_str n : parse_nat (nat_str n) = Some n.
Proof.
  unfold nat_str, parse_nat. destruct (parse_nat_str_aux (S n) n (Nat.lt_succ_diag_r n)) as [H Hne].
  destruct (nat_str_fuel (S n) n); [congruence|exact H].
Qed.
Lemma nat_str_inj a b : nat_str a = nat_str b -> a = b.
Proof. intros H. pose proof (parse_nat_str a) as E. rewrite H, parse_nat_str in E. congruence. Qed.

(* ---------------- sorting ---------------- *)
Lemma str_insert_In x y l : In y (str_insert x l) <-> y = x \/ In y l.
Proof.
  induction l as [|z l IH]; cbn; [intuition congruence|].
  destruct (str_leb x z); cbn; [|rewrite IH]; intuition congruence.
Qed.
Lemma str_sort_In y l : In y (str_sort l) <-> In y l.
Proof. induction l as [|x l IH]; cbn; [tauto|]. fold (str_sort l). rewrite str_insert_In, IH. intuition congruence. Qed.
Lemma str_insert_NoDup x l : NoDup l -> ~ In x l -> NoDup (str_insert x l).
Proof.
  induction l as [|z l IH]; cbn; intros Hn Hx; [constructor; auto|].
  inversion Hn as [|? ? H1 H2]; subst. destruct (str_leb x z).
  - constructor; auto.
  - constructor; [rewrite str_insert_In; intuition congruence|]. apply IH; intuition.
Qed.
Lemma str_sort_NoDup l : NoDup l -> NoDup (str_sort l).
Proof.
  induction l as [|x l IH]; cbn; intros H; [constructor|]. fold (str_sort l). inversion H; subst.
  apply str_insert_NoDup; [auto|rewrite str_sort_In; assumption].
Qed.

(* ---------------- labels and values ---------------- *)
Lemma has_value_get x lb v : numeric_item x -> has_value x lb v -> item_by_label x lb = Ok v.
Proof.
  intros [_ H]. unfold has_value, item_by_label, item_data, data_by_label.
  destruct (i_data x) as [[l|d]|]; [| |tauto]; cbn [bind].
  - intros (n & -> & Hn). rewrite parse_nat_str, Hn. reflexivity.
  - intros Hv. rewrite (dget_NoDup _ _ _ (proj2 H) Hv). reflexivity.
Qed.
Lemma has_value_fun x lb v w : numeric_item x -> has_value x lb v -> has_value x lb w -> v = w.
Proof. intros H Hv Hw. apply (has_value_get _ _ _ H) in Hv, Hw. congruence. Qed.

Definition item_labels (x : item) : list string :=
  match i_data x with Some d => data_labels_of d | None => [] end.
Lemma item_labels_In x lb : In lb (item_labels x) <-> has_label x lb.
Proof.
  unfold item_labels, has_label, has_value. destruct (i_data x) as [[l|d]|]; cbn [data_labels_of].
  - rewrite in_map_iff. split.
    + intros (n & <- & Hn). apply in_seq in Hn. destruct (nth_error l n) eqn:E; [eauto|]. apply nth_error_None in E. lia.
    + intros (v & n & -> & Hn). exists n. split; [reflexivity|]. apply in_seq.
      assert (n < length l) by (apply nth_error_Some; congruence). lia.
  - rewrite str_sort_In. unfold dkeys. rewrite in_map_iff. split.
    + intros ([k v] & <- & H). eauto.
    + intros (v & H). exists (lb, v). auto.
  - split; [intros []|intros (v & [])].
Qed.
Lemma item_labels_NoDup x : numeric_item x -> NoDup (item_labels x).
Proof.
  intros [_ H]. unfold item_labels. destruct (i_data x) as [[l|d]|]; cbn [data_labels_of].
  - apply FinFun.Injective_map_NoDup; [exact nat_str_inj|apply seq_NoDup].
  - apply str_sort_NoDup. apply H.
  - constructor.
Qed.
Lemma item_labels_nonempty x : numeric_item x -> item_labels x <> [].
Proof.
  intros [_ H] E. assert (F : forall lb, ~ has_label x lb) by (intros lb HF; apply item_labels_In in HF; rewrite E in HF; exact HF).
  unfold has_label, has_value in F. destruct (i_data x) as [[[|a l]|[|[k v] d]]|]; try tauto; try (destruct H; congruence).
  - apply (F (nat_str 0)). exists a, 0. split; reflexivity.
  - apply (F k). exists v. left; reflexivity.
Qed.
Lemma same_shape_labels x y lb : same_item_shape x y -> has_label x lb <-> has_label y lb.
Proof.
  intros [_ H]. unfold has_label, has_value. destruct (i_data x) as [[l|d]|], (i_data y) as [[l'|d']|]; cbn in H; try tauto.
  - split; intros (v & n & -> & Hn).
    + destruct (nth_error l' n) eqn:E; [eauto|]. apply nth_error_None in E. rewrite <- H in E. apply nth_error_None in E. congruence.
    + destruct (nth_error l n) eqn:E; [eauto|]. apply nth_error_None in E. rewrite H in E. apply nth_error_None in E. congruence.
  - assert (HK : forall q : dict Qc, (exists v, In (lb, v) q) <-> In lb (map fst q)).
    { intros q. rewrite in_map_iff. split; [intros (v & Hv); exists (lb, v); auto|intros ([k v] & E & Hv); cbn in E; subst; eauto]. }
    rewrite !HK. apply H.
Qed.

(* the value as a function *)
Definition valof (x : item) (lb : string) : Qc := match item_by_label x lb with Ok v => v | Err _ => q0 end.
Lemma valof_spec x lb v : numeric_item x -> has_value x lb v -> valof x lb = v.
Proof. intros H Hv. unfold valof. rewrite (has_value_get _ _ _ H Hv). reflexivity. Qed.
Lemma valof_ok x lb : numeric_item x -> has_label x lb -> item_by_label x lb = Ok (valof x lb) /\ has_value x lb (valof x lb).
Proof. intros H (v & Hv). rewrite (valof_spec _ _ _ H Hv). split; [apply has_value_get; assumption|exact Hv]. Qed.

Lemma mapM_total {A B} (f : A -> result B) (g : A -> B) l : (forall x, In x l -> f x = Ok (g x)) -> mapM f l = Ok (map g l).
Proof.
  induction l as [|x l IH]; cbn; intros H; [reflexivity|]. rewrite (H x (or_introl eq_refl)). cbn.
  rewrite IH; [reflexivity|]. intros y Hy. apply H. right; exact Hy.
Qed.
Lemma foldM_total {A B} (f : A -> B -> result A) (g : A -> B -> A) l : (forall a x, In x l -> f a x = Ok (g a x)) ->
  forall a, foldM f l a = Ok (fold_left g l a).
Proof.
  induction l as [|x l IH]; cbn; intros H a; [reflexivity|]. rewrite (H a x (or_introl eq_refl)). cbn.
  apply IH. intros b y Hy. apply H. right; exact Hy.
Qed.
Lemma column_map lb l : (forall x, In x l -> numeric_item x) -> (forall x, In x l -> has_label x lb) ->
  column lb l (map (fun x => valof x lb) l).
Proof.
  intros H1 H2. induction l as [|x l IH]; cbn; constructor.
  - apply valof_ok; auto using in_eq.
  - apply IH; auto using in_cons.
Qed.
Lemma column_fun lb l vs : (forall x, In x l -> numeric_item x) -> column lb l vs -> vs = map (fun x => valof x lb) l.
Proof.
  intros H1 H2. induction H2 as [|x v l vs Hv H2 IH]; cbn; [reflexivity|]. f_equal.
  - symmetry. apply valof_spec; auto using in_eq.
  - apply IH. auto using in_cons.
Qed.

(* ---------------- histories keep a data reference ---------------- *)
Definition truthy_ref (s : series) : Prop :=
  s_items s = [] \/ exists d, s_ref s = Some (Some d) /\ data_truthy d = true.
Lemma numeric_truthy x : numeric_item x -> exists d, i_data x = Some d /\ data_truthy d = true.
Proof.
  intros [_ H]. destruct (i_data x) as [[[|a l]|[|a d]]|]; try tauto; try (destruct H; congruence); eexists; split; reflexivity.
Qed.
Lemma series_append_truthy s x s' r : numeric_item x -> truthy_ref s -> series_append s x = (s', r) -> truthy_ref s'.
Proof.
  intros Hx Hs H. destruct (numeric_truthy x Hx) as (d & Hd & Ht).
  assert (Hnew : forall l, truthy_ref (set_items (set_ref s (Some (i_data x))) l)).
  { intros l. right. exists d. cbn. rewrite Hd. auto. }
  unfold series_append in H. destruct (last_item (s_items s)) eqn:El.
  2:{ injection H as <- <-. apply Hnew. }
  destruct (item_type s) eqn:Et; [|injection H as <- <-; apply Hnew].
  destruct (negb _); [injection H as <- <-; exact Hs|].
  destruct (negb _); [injection H as <- <-; exact Hs|].
  destruct Hs as [Hs|(d0 & Hr & H0)]; [unfold item_type in Et; rewrite Hs in Et; discriminate|].
  rewrite Hr, H0 in H. destruct (check_ref d0 x) as [[]|]; injection H as <- <-; right; exists d0; cbn; auto.
Qed.
Lemma append_truthy_ref e s x : numeric_item x -> truthy_ref s -> truthy_ref (fst (ts_append e s x)).
Proof.
  intros Hx Hs. destruct (ts_append e s x) as [s' r] eqn:E. cbn.
  destruct (ts_append_ref e s x s' r E) as [(s0 & H1 & H2 & H3)|(er & _ & H1 & H2)].
  - eapply series_append_truthy; [exact Hx| |exact H3]. unfold truthy_ref. rewrite H1, H2. exact Hs.
  - unfold truthy_ref. rewrite H1, H2. exact Hs.
Qed.
Lemma set_items_truthy s l : truthy_ref s -> s_items s <> [] -> truthy_ref (set_items s l).
Proof. intros [H|H] Hne; [contradiction|]. right. exact H. Qed.
Lemma step_truthy_ref e s o : numeric_op o -> truthy_ref s -> truthy_ref (fst (step e s o)).
Proof.
  intros Ho Hs. destruct o; cbn in *; try exact Hs.
  - apply append_truthy_ref; assumption.
  - unfold ts_insert. destruct (s_items s) as [|a l] eqn:El; [apply append_truthy_ref; assumption|].
    assert (Hd : forall m, truthy_ref (set_items s m)) by (intros m; apply set_items_truthy; [exact Hs|congruence]).
    repeat match goal with |- context [if ?b then _ else _] => destruct b | |- context [match ?b with _ => _ end] => destruct b end;
      cbn; solve [exact Hs | apply Hd].
  - unfold ts_remove. destruct (s_items s) as [|a l] eqn:El; [exact Hs|].
    destruct (is_slot a); [exact Hs|]. destruct (list_remove _ _); cbn; [|exact Hs]. apply set_items_truthy; [exact Hs|congruence].
  - unfold ts_pop. destruct (s_items s) as [|a l] eqn:El; [exact Hs|].
    assert (Hd : forall m, truthy_ref (set_items s m)) by (intros m; apply set_items_truthy; [exact Hs|congruence]).
    destruct i as [i|].
    + destruct (_ && _); [exact Hs|]. destruct (list_pop _ _) as [[? ?]|]; cbn; [apply Hd|exact Hs].
    + destruct (list_pop _ _) as [[? ?]|]; cbn; [apply Hd|exact Hs].
  - left. reflexivity.
Qed.
Lemma history_truthy e s : from_history e s -> truthy_ref s.
Proof.
  intros (tz & os & -> & Ho). unfold run.
  assert (H : truthy_ref (empty_series tz)) by (left; reflexivity). revert H. generalize (empty_series tz).
  induction os as [|o os IH]; cbn; intros s Hs; [exact Hs|].
  apply IH; [auto using in_cons|]. apply step_truthy_ref; auto using in_eq.
Qed.
Lemma built_history e s : built e s -> numeric (s_items s) -> from_history e s.
Proof.
  intros (tz & H) (_ & Hn & _). exists tz, (map OAppend (s_items s)). split.
  - unfold run. unfold ts_new in H. remember (s_items s) as l eqn:El. clear El. revert H. generalize (empty_series tz).
    induction l as [|x l IH]; cbn; intros s0 H; [congruence|].
    destruct (ts_append e s0 x) as [s1 r] eqn:E. destruct r; [|discriminate]. cbn in H. cbn. apply IH; auto using in_cons.
  - intros o Ho. apply in_map_iff in Ho. destruct Ho as (x & <- & Hx). exact (Hn x Hx).
Qed.

(* the checks succeed; the labels are those of the first item *)
Lemma prep_ok e s : from_history e s -> numeric (s_items s) ->
  exists x l, s_items s = x :: l /\ op_prep s = Ok (x, item_labels x).
Proof.
  intros Hh (Hne & Hn & Hs). destruct (s_items s) as [|x l] eqn:El; [contradiction|]. exists x, l. split; [reflexivity|].
  pose proof (Hn x (or_introl eq_refl)) as Hx. unfold op_prep, ts_data_labels, ref_missing. rewrite El.
  destruct (history_truthy _ _ Hh) as [H|(d & Hr & Ht)]; [congruence|]. rewrite Hr, Ht. cbn [negb].
  destruct (numeric_truthy x Hx) as (d0 & Hd & _). unfold item_data, item_labels. rewrite Hd. cbn.
  destruct Hx as [[-> | ->] _]; reflexivity.
Qed.
Lemma numeric_labels l x y lb : numeric l -> In x l -> In y l -> has_label x lb -> has_label y lb.
Proof. intros (_ & _ & Hs) Hx Hy. apply same_shape_labels, Hs; assumption. Qed.
