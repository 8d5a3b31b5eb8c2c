(* OpsProofs5.v -- positional operations: differences, derivative, moving average. *)
From Verif Require Import BaseLemmas SeriesProofs SeriesProofs2 SeriesProofs3 SeriesProofs4
  AccessProofs AccessProofs2 DictLemmas AccessProofs3 PropTactics.
From Verif Require Export OpsProofs4.

Definition nval (l : list item) (i : nat) (lb : string) : Qc :=
  match nth_error l i with Some x => valof x lb | None => q0 end.
Lemma val_ok l i lb : numeric l -> label_in l lb -> i < length l -> val l i lb = Ok (nval l i lb).
Proof.
  intros Hn Hb Hi. unfold val, nval. destruct (nth_error l i) as [x|] eqn:E; [|apply nth_error_None in E; lia].
  apply nth_error_In in E. destruct (label_all _ _ _ Hn Hb E). apply valof_ok; assumption.
Qed.
Lemma nval_value l i x lb : numeric l -> nth_error l i = Some x -> forall v, has_value x lb v -> v = nval l i lb.
Proof.
  intros Hn E v Hv. unfold nval. rewrite E. symmetry. apply valof_spec; [apply Hn; apply nth_error_In in E; exact E|exact Hv].
Qed.
Lemma nval_has l i x lb : numeric l -> nth_error l i = Some x -> label_in l lb -> has_value x lb (nval l i lb).
Proof.
  intros Hn E Hb. unfold nval. rewrite E. apply nth_error_In in E. destruct (label_all _ _ _ Hn Hb E). apply valof_ok; assumption.
Qed.

Lemma filter_from {A} k (l : list A) : forall j, filter (fun ix => negb (Nat.ltb (fst ix) k)) (combine (seq j (length l)) l) =
  combine (seq (j + (k - j)) (length l - (k - j))) (skipn (k - j) l).
Proof.
  induction l as [|x l IH]; intros j; cbn [length seq combine filter fst].
  - rewrite skipn_nil. cbn [Nat.sub seq combine]. reflexivity.
  - destruct (Nat.ltb_spec j k); cbn [negb].
    + rewrite IH. replace (k - j) with (S (k - S j)) by lia. cbn [skipn length]. rewrite Nat.sub_succ. f_equal. f_equal. lia.
    + replace (k - j) with 0 by lia. rewrite Nat.add_0_r, Nat.sub_0_r. cbn [skipn seq combine length]. f_equal.
      rewrite IH. replace (k - S j) with 0 by lia. rewrite Nat.add_0_r, Nat.sub_0_r. reflexivity.
Qed.
Lemma filter_from0 {A} k (l : list A) : filter (fun ix => negb (Nat.ltb (fst ix) k)) (combine (seq 0 (length l)) l) =
  combine (seq k (length (skipn k l))) (skipn k l).
Proof. rewrite filter_from, Nat.sub_0_r, skipn_length. reflexivity. Qed.

Lemma positional first keyf ixf (F : nat -> string -> result Qc) (G : nat -> string -> Qc) k l :
  (forall i lb, k <= i < k + length l -> In lb (item_labels first) -> F i lb = Ok (G i lb)) ->
  mapM (fun ix => let '(i, x) := ix in
          do vs <- mapM (F i) (item_labels first);
          Ok (rebuild first x (build_data first keyf (item_labels first) vs) (ixf x))) (combine (seq k (length l)) l) =
  Ok (rebuilt_list first keyf (fun i _ => G i) ixf k l).
Proof.
  intros H. unfold rebuilt_list. apply mapM_total. intros [i x] Hix. apply in_combine_l in Hix. apply in_seq in Hix.
  rewrite (mapM_total _ (G i)); [reflexivity|]. intros lb Hlb. apply H; [lia|exact Hlb].
Qed.

Lemma named_outl first x p lb : same_item_shape first x -> outl first (postfix p) lb = named x p lb.
Proof.
  intros [_ H]. unfold outl, named. destruct (i_data first) as [[]|], (i_data x) as [[]|]; cbn in H; try contradiction; reflexivity.
Qed.

Lemma rebuilt_kind first x keyf g ix z : same_item_shape first z -> is_list (rebuild first x (newdata first keyf g) ix) = is_list z.
Proof.
  intros [_ H]. unfold is_list, rebuild, newdata, build_data. cbn [i_data].
  destruct (i_data first) as [[]|], (i_data z) as [[]|]; cbn in H; try contradiction; reflexivity.
Qed.
(* what a rebuilt list gives, item by item *)
Lemma rebuilt_list_items first p G ixf k l i x y : numeric_item first -> same_item_shape first x ->
  nth_error l i = Some x -> nth_error (rebuilt_list first (postfix p) (fun i _ => G i) ixf k l) i = Some y ->
  same_time x y /\ i_idx y = ixf x /\ values_by x y p (fun lb w => w = G (k + i) lb).
Proof.
  intros Hf Hs Hx Hy. rewrite rebuilt_list_nth, Hx in Hy. injection Hy as <-. split; [|split].
  - apply same_cls_time; assumption.
  - reflexivity.
  - split; [exact (rebuilt_kind first x (postfix p) _ _ x Hs)|].
    intros lb w. rewrite (rebuilt_value _ _ _ _ _ _ _ Hf (postfix_inj p)). split.
    + intros (lb0 & H1 & H2 & H3). exists lb0. rewrite <- (named_outl first x p lb0 Hs). split; [|auto].
      apply (same_shape_labels _ _ _ Hs), H1.
    + intros (lb0 & H1 & H2 & H3). exists lb0. rewrite (named_outl first x p lb0 Hs). split; [|auto].
      apply (same_shape_labels _ _ _ Hs), H1.
Qed.

Lemma skipn_wf k l : wf_items l -> wf_items (skipn k l).
Proof. intros H. apply (wf_items_sub (firstn k l) (skipn k l) []). rewrite app_nil_r, firstn_skipn. exact H. Qed.

Lemma positional_series e s p G ixf k : parses_units e -> numeric (s_items s) -> wf_items (s_items s) ->
  forall first l, s_items s = first :: l -> k < length (s_items s) ->
  exists r, ts_of_items e (rebuilt_list first (postfix p) (fun i _ => G i) ixf k (skipn k (s_items s))) = Ok r /\
    fresh e r /\ numeric (s_items r) /\ wf_items (s_items r) /\ length (s_items r) = length (s_items s) - k /\
    times (s_items r) = skipn k (times (s_items s)) /\
    forall i x y, nth_error (s_items s) (k + i) = Some x -> nth_error (s_items r) i = Some y ->
      same_time x y /\ i_idx y = ixf x /\ values_by x y p (fun lb w => w = G (k + i) lb).
Proof.
  intros He Hn Hw first l El Hk.
  assert (Hf : numeric_item first) by (apply Hn; rewrite El; left; reflexivity).
  assert (Hs : forall y, In y (s_items s) -> same_item_shape first y).
  { intros y Hy. apply Hn; [rewrite El; left; reflexivity|exact Hy]. }
  set (l' := rebuilt_list _ _ _ _ _ _).
  assert (Hsk : forall y, In y (skipn k (s_items s)) -> In y (s_items s)).
  { intros y Hy. rewrite <- (firstn_skipn k). apply in_or_app. auto. }
  assert (Hw' : wf_items l') by (apply rebuilt_list_wf; auto using postfix_inj, skipn_wf).
  destruct (ts_of_items_ok e l' He Hw') as (r & Hr & Er). exists r. split; [exact Hr|].
  destruct (of_items_built _ _ _ Hr) as [Hb _]. split; [exact Hb|]. rewrite Er.
  assert (Hlen : length l' = length (s_items s) - k) by (unfold l'; rewrite rebuilt_list_length, skipn_length; reflexivity).
  split; [|split; [exact Hw'|split; [exact Hlen|split]]].
  - apply rebuilt_list_numeric; [exact Hf|apply postfix_inj|]. intros E. apply (f_equal (@length item)) in E.
    rewrite skipn_length in E. cbn in E. lia.
  - unfold l'. rewrite rebuilt_list_times. unfold times. symmetry. apply skipn_map.
  - intros i x y Hx Hy. unfold l' in Hy.
    assert (Hx' : nth_error (skipn k (s_items s)) i = Some x) by (rewrite nth_error_skipn; exact Hx).
    apply (rebuilt_list_items first p G ixf k (skipn k (s_items s)) i x y Hf); [|exact Hx'|exact Hy].
    apply Hs. apply nth_error_In in Hx. exact Hx.
Qed.

(* ---------------- differences ---------------- *)
Lemma label_first s x l lb : numeric (s_items s) -> s_items s = x :: l -> In lb (item_labels x) -> label_in (s_items s) lb.
Proof. intros Hn El H. eapply label_in_first; eassumption. Qed.

Lemma filter_diffs {A} (l : list A) :
  filter (fun ix => negb (true && Nat.eqb (fst ix) 0)) (combine (seq 0 (length l)) l) = combine (seq 1 (length (skipn 1 l))) (skipn 1 l).
Proof.
  rewrite <- filter_from0. apply filter_ext. intros [i x]. cbn. destruct i; reflexivity.
Qed.
Lemma filter_all {A} (l : list A) :
  filter (fun ix => negb (false && Nat.eqb (fst ix) 0)) (combine (seq 0 (length l)) l) = combine (seq 0 (length (skipn 0 l))) (skipn 0 l).
Proof. rewrite <- filter_from0. apply filter_ext. intros [i x]. reflexivity. Qed.

Lemma diff_spec e c s : parses_units e -> from_history e s -> numeric (s_items s) -> wf_items (s_items s) ->
  s_res s <> Some RVar -> 2 <= length (s_items s) ->
  exists r, op_diff e c s = Ok r /\
    fresh e r /\ numeric (s_items r) /\ wf_items (s_items r) /\ length (s_items r) = length (s_items s) - 1 /\
    times (s_items r) = skipn 1 (times (s_items s)) /\
    forall i x y, nth_error (s_items s) (1 + i) = Some x -> nth_error (s_items r) i = Some y ->
      same_time x y /\ i_idx y = i_idx x /\
      values_by x y "diff" (fun lb w => w = Qcminus (nval (s_items s) (1 + i) lb) (nval (s_items s) i lb)).
Proof.
  intros He Hh Hn Hw Hres Hlen. destruct (prep_ok e s Hh Hn) as (x & l & El & Hp).
  destruct (positional_series e s "diff" (fun i lb => Qcminus (nval (s_items s) i lb) (nval (s_items s) (i - 1) lb)) i_idx 1 He Hn Hw x l El)
    as (r & Hr & H); [lia|].
  exists r. split.
  - unfold op_diff. rewrite El at 1.
    assert (E : op_derivative_gen e c s false true (Err NotImplementedError) = Ok r).
    { unfold op_derivative_gen. rewrite Hp. cbn [bind fst snd]. destruct (Nat.eqb_spec (length (s_items s)) 1); [lia|].
      unfold der_items. rewrite filter_diffs.
      rewrite (positional x (postfix "diff") i_idx _ (fun i lb => Qcminus (nval (s_items s) i lb) (nval (s_items s) (i - 1) lb))); [exact Hr|].
      intros i lb Hi Hlb. rewrite skipn_length in Hi. unfold der_value.
      rewrite !val_ok; [reflexivity|exact Hn|eapply label_first; eassumption|lia|exact Hn|eapply label_first; eassumption|lia]. }
    destruct (s_res s) as [[|u]|]; [congruence|exact E|exact E].
  - destruct H as (H1 & H2 & H3 & H4 & H5 & H6). split; [exact H1|]. split; [exact H2|]. split; [exact H3|].
    split; [exact H4|]. split; [exact H5|]. intros i a b Ha Hb. destruct (H6 i a b Ha Hb) as (A & B & D).
    split; [exact A|]. split; [exact B|]. cbn [Nat.add Nat.sub] in *. rewrite Nat.sub_0_r in D. exact D.
Qed.

(* ---------------- derivative ---------------- *)
Definition slope_at (l : list item) (d : Qc) (i : nat) (lb : string) : Qc :=
  if Nat.eqb i 0 then Qcdiv (Qcminus (nval l 1 lb) (nval l 0 lb)) d
  else if Nat.eqb i (length l - 1) then Qcdiv (Qcminus (nval l i lb) (nval l (i - 1) lb)) d
  else Qcdiv (Qcdiv (Qcplus (Qcminus (nval l i lb) (nval l (i - 1) lb)) (Qcminus (nval l (i + 1) lb) (nval l i lb))) q2) d.

Lemma qdiv_ok x y : y <> q0 -> qdiv x y = Ok (Qcdiv x y).
Proof. intros H. unfold qdiv. rewrite (qeqb_false _ _ H). reflexivity. Qed.

Lemma derivative_spec e c s u d auto : parses_units e -> from_history e s -> numeric (s_items s) -> wf_items (s_items s) ->
  2 <= length (s_items s) -> s_res s = Some (RUnit u) -> (forall x, In x (s_items s) -> unit_seconds c u (i_t x) = Ok d) -> d <> q0 ->
  exists r, op_derivative e c s auto = Ok r /\
    fresh e r /\ numeric (s_items r) /\ wf_items (s_items r) /\ length (s_items r) = length (s_items s) /\
    times (s_items r) = times (s_items s) /\
    forall i x y, nth_error (s_items s) i = Some x -> nth_error (s_items r) i = Some y ->
      same_time x y /\ i_idx y = i_idx x /\ values_by x y "derivative" (fun lb w => w = slope_at (s_items s) d i lb).
Proof.
  intros He Hh Hn Hw Hlen Hres Hd Hd0. destruct (prep_ok e s Hh Hn) as (x & l & El & Hp).
  destruct (positional_series e s "derivative" (slope_at (s_items s) d) i_idx 0 He Hn Hw x l El)
    as (r & Hr & H1 & H2 & H3 & H4 & H5 & H6); [lia|].
  exists r. split; [|split; [exact H1|split; [exact H2|split; [exact H3|split; [lia|split; [exact H5|exact H6]]]]]].
  unfold op_derivative, op_derivative_gen. rewrite Hp. cbn [bind fst snd].
  destruct (Nat.eqb_spec (length (s_items s)) 1); [lia|]. unfold op_interval. rewrite Hres.
  rewrite (Hd x) by (rewrite El; left; reflexivity). cbn [bind fst snd].
  unfold der_items. rewrite filter_all.
  rewrite (positional x (postfix "derivative") i_idx _ (slope_at (s_items s) d)); [exact Hr|].
  intros i lb Hi Hlb. rewrite skipn_length in Hi. assert (Hb : label_in (s_items s) lb) by (eapply label_first; eassumption).
  unfold der_value, slope_at. destruct (Nat.eqb_spec i 0) as [->|Hi0].
  - rewrite !val_ok by (try assumption; lia). cbn [bind]. apply qdiv_ok, Hd0.
  - destruct (Nat.eqb_spec i (length (s_items s) - 1)).
    + rewrite !val_ok by (try assumption; lia). cbn [bind]. apply qdiv_ok, Hd0.
    + rewrite !val_ok by (try assumption; lia). cbn [bind]. rewrite (qdiv_ok _ q2 q2_neq_q0). cbn [bind]. apply qdiv_ok, Hd0.
Qed.

(* a linear signal on an equally spaced grid *)
Lemma slope_linear l d lb a b : 2 <= length l -> d <> q0 -> equally_spaced d (times l) ->
  (forall i x, nth_error l i = Some x -> nval l i lb = Qcplus (Qcmult a (i_t x)) b) ->
  forall i, i < length l -> slope_at l d i lb = a.
Proof.
  intros Hlen Hd Hsp Hlin i Hi.
  assert (Hnth : forall j, j < length l -> exists x, nth_error l j = Some x).
  { intros j Hj. destruct (nth_error l j) eqn:E; [eauto|]. apply nth_error_None in E. lia. }
  assert (Hstep : forall j, S j < length l -> Qcminus (nval l (S j) lb) (nval l j lb) = Qcmult a d).
  { intros j Hj. destruct (Hnth j) as [x Hx]; [lia|]. destruct (Hnth (S j) Hj) as [y Hy].
    rewrite (Hlin _ _ Hx), (Hlin _ _ Hy). assert (E : Qcminus (i_t y) (i_t x) = d).
    { apply (Hsp j); unfold times; rewrite nth_error_map; [rewrite Hx|rewrite Hy]; reflexivity. }
    rewrite <- E. ring. }
  unfold slope_at. destruct (Nat.eqb_spec i 0) as [->|H0].
  - rewrite (Hstep 0) by lia. field. exact Hd.
  - assert (Ei : i = S (i - 1)) by lia. destruct (Nat.eqb_spec i (length l - 1)).
    + rewrite Ei at 1. rewrite (Hstep (i - 1)) by lia. field. exact Hd.
    + rewrite Nat.add_1_r, (Hstep i) by lia. rewrite Ei at 1. rewrite (Hstep (i - 1)) by lia.
      replace (Qcplus (Qcmult a d) (Qcmult a d)) with (Qcmult q2 (Qcmult a d)) by qlra.
      field. split; [exact q2_neq_q0|exact Hd].
Qed.

(* ---------------- moving average ---------------- *)
Definition window_total (l : list item) (from w : nat) (lb : string) : Qc :=
  total (map (fun j => nval l j lb) (seq from w)).
Lemma window_sum_ok l lb from w : numeric l -> label_in l lb -> from + w <= length l ->
  window_sum l lb from w = Ok (window_total l from w lb).
Proof.
  intros Hn Hb Hi. unfold window_sum. rewrite (foldM_total _ (fun a j => Qcplus a (nval l j lb))).
  - rewrite fold_plus_total, q0_plus. reflexivity.
  - intros a j Hj. apply in_seq in Hj. rewrite val_ok; [reflexivity|exact Hn|exact Hb|lia].
Qed.
Lemma mavg_spec e s w : parses_units e -> from_history e s -> numeric (s_items s) -> wf_items (s_items s) ->
  1 <= w <= length (s_items s) ->
  exists r, op_mavg e s (Z.of_nat w) = Ok r /\
    fresh e r /\ numeric (s_items r) /\ wf_items (s_items r) /\ length (s_items r) = length (s_items s) - (w - 1) /\
    times (s_items r) = skipn (w - 1) (times (s_items s)) /\
    forall i x y, nth_error (s_items s) (w - 1 + i) = Some x -> nth_error (s_items r) i = Some y ->
      same_time x y /\ i_idx y = [] /\
      values_by x y ("mavg_" ++ nat_str w) (fun lb v => v = Qcdiv (window_total (s_items s) i w lb) (qn w)).
Proof.
  intros He Hh Hn Hw Hlen. destruct (prep_ok e s Hh Hn) as (x & l & El & Hp).
  destruct (positional_series e s ("mavg_" ++ nat_str w) (fun i lb => Qcdiv (window_total (s_items s) (i + 1 - w) w lb) (qn w)) (fun _ => []) (w - 1) He Hn Hw x l El)
    as (r & Hr & H1 & H2 & H3 & H4 & H5 & H6); [lia|].
  exists r. split; [|split; [exact H1|split; [exact H2|split; [exact H3|split; [lia|split; [exact H5|]]]]]].
  - unfold op_mavg. rewrite Hp. cbn [bind fst snd]. destruct (Z.ltb_spec (Z.of_nat w) 1); [lia|]. rewrite Nat2Z.id.
    rewrite filter_from0.
    rewrite (positional x (postfix ("mavg_" ++ nat_str w)) (fun _ => []) _ (fun i lb => Qcdiv (window_total (s_items s) (i + 1 - w) w lb) (qn w))); [exact Hr|].
    intros i lb Hi Hlb. rewrite skipn_length in Hi.
    rewrite window_sum_ok; [|exact Hn|eapply label_first; eassumption|lia]. cbn [bind]. apply qdiv_ok.
    intros E. assert (Hpos : Qclt q0 (qn w)) by (apply qn_pos; lia). apply Qclt_not_eq in Hpos. apply Hpos. symmetry. exact E.
  - intros i a b Ha Hb. destruct (H6 i a b Ha Hb) as (A & B & D). split; [exact A|]. split; [exact B|].
    replace (w - 1 + i + 1 - w) with i in D by lia. exact D.
Qed.
