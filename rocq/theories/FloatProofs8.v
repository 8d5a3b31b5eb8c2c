(* FloatProofs8.v -- differences, cumulative sums and moving averages of floats (C94). *)
From Coq Require Import Reals.
From Flocq Require Import Core.
From Verif Require Import Base BaseLemmas Items Series SpecSeries SpecAccess SpecOps SpecIntervals SeriesProofs AccessProofs DictLemmas AccessProofs3 OpsProofs OpsProofs2 OpsProofs3 OpsProofs4 OpsProofs5 OpsProofs6 OpsProofs10 Float FloatOps SpecFloat FloatProofs FloatProofs2 FloatProofs3 FloatProofs4 FloatProofs5 Periodicity.
From Coq Require Import Lra.
Local Close Scope R_scope.
Local Open Scope nat_scope.

Lemma named_inj like p a b : named like p a = named like p b -> a = b.
Proof. unfold named. destruct (i_data like) as [[?|?]|]; intros H; try exact H; apply (postfix_inj p); exact H. Qed.
Lemma near_of_by like y p G (f : string -> Qc -> Prop) : values_by like y p (fun lb w => w = G lb) -> (forall lb, has_label like lb -> f lb (G lb)) -> values_near like y p f.
Proof.
  intros (A & B) H. split; [exact A|split].
  - intros lb. split.
    + intros (w & Hw). apply B in Hw. destruct Hw as (lb0 & H1 & H2 & _). exists lb0. split; assumption.
    + intros (lb0 & H1 & ->). exists (G lb0). apply B. exists lb0. split; [exact H1|split; reflexivity].
  - intros lb w Hl Hw. apply B in Hw. destruct Hw as (lb0 & H1 & H2 & ->). apply named_inj in H2. subst lb0. apply H. exact Hl.
Qed.

(* ---------------- differences ---------------- *)
Lemma f_diff_spec e s : parses_units e -> from_history e s -> numeric (s_items s) -> wf_items (s_items s) ->
  s_res s <> Some RVar -> 2 <= length (s_items s) ->
  exists r, f_op_diff e s = Ok r /\
    fresh e r /\ numeric (s_items r) /\ wf_items (s_items r) /\ length (s_items r) = length (s_items s) - 1 /\
    forall i x y, nth_error (s_items s) (1 + i) = Some x -> nth_error (s_items r) i = Some y ->
      same_time x y /\ i_idx y = i_idx x /\
      values_by x y "diff" (fun lb w => w = fsub (nval (s_items s) (1 + i) lb) (nval (s_items s) i lb)).
Proof.
  intros He Hh Hn Hw Hres Hlen. destruct (prep_ok e s Hh Hn) as (x & l & El & Hp).
  destruct (positional_series e s "diff" (fun i lb => fsub (nval (s_items s) i lb) (nval (s_items s) (i - 1) lb)) i_idx 1 He Hn Hw x l El)
    as (r & Hr & H); [lia|].
  exists r. split.
  - unfold f_op_diff. rewrite El at 1.
    assert (E : (do p <- op_prep s; if Nat.eqb (length (s_items s)) 1 then Err ValueError else do l <- f_diff_items (fst p) (snd p) (s_items s); ts_of_items e l) = Ok r).
    { rewrite Hp. cbn [bind fst snd]. destruct (Nat.eqb_spec (length (s_items s)) 1); [lia|].
      unfold f_diff_items. rewrite filter_diffs.
      rewrite (positional x (postfix "diff") i_idx _ (fun i lb => fsub (nval (s_items s) i lb) (nval (s_items s) (i - 1) lb))); [exact Hr|].
      intros i lb Hi Hlb. rewrite skipn_length in Hi.
      rewrite !val_ok; [reflexivity|exact Hn|eapply label_first; eassumption|lia|exact Hn|eapply label_first; eassumption|lia]. }
    destruct (s_res s) as [[|u]|]; [congruence|exact E|exact E].
  - destruct H as (H1 & H2 & H3 & H4 & H5 & H6). split; [exact H1|]. split; [exact H2|]. split; [exact H3|].
    split; [exact H4|]. intros i a b Ha Hb. destruct (H6 i a b Ha Hb) as (A & B & D).
    split; [exact A|]. split; [exact B|]. cbn [Nat.add Nat.sub] in *. rewrite Nat.sub_0_r in D. exact D.
Qed.

(* ---------------- cumulative sums ---------------- *)
Definition f_psum (l : list item) (i : nat) (lb : string) : Qc := fold_left fadd (map (fun x => valof x lb) (firstn i l)) q0.
Lemma f_psum_S l i lb : i < length l -> f_psum l (S i) lb = fadd (f_psum l i lb) (nval l i lb).
Proof.
  intros Hi. unfold f_psum, nval. destruct (nth_error l i) as [x|] eqn:E; [|apply nth_error_None in E; lia].
  assert (firstn (S i) l = firstn i l ++ [x]) as ->.
  { revert i Hi E. induction l as [|y l IH]; intros [|i] Hi E; cbn in *; try discriminate; [congruence|]. f_equal. apply IH; [lia|exact E]. }
  rewrite map_app, fold_left_app. reflexivity.
Qed.
Definition f_starts (last : dict Qc) (lb : string) (b : Qc) : Prop := match dget lb last with Some p => p = b | None => b = q0 end.
Lemma f_csum_labels_ok l i labels (b : string -> Qc) : NoDup labels ->
  (forall lb, In lb labels -> val l i lb = Ok (nval l i lb)) ->
  forall last, (forall lb, In lb labels -> f_starts last lb (b lb)) ->
  exists last', f_csum_labels l i last labels = Ok (last', map (fun lb => fadd (b lb) (nval l i lb)) labels) /\
    (forall lb, In lb labels -> dget lb last' = Some (fadd (b lb) (nval l i lb))) /\
    (forall lb, ~ In lb labels -> dget lb last' = dget lb last).
Proof.
  induction labels as [|lb labels IH]; intros Hnd Hv last Hst; cbn [f_csum_labels map].
  - exists last. split; [reflexivity|]. split; [intros lb []|reflexivity].
  - inversion Hnd as [|? ? Hn1 Hn2]; subst. rewrite (Hv lb (or_introl eq_refl)). cbn [bind].
    set (w := fadd (b lb) (nval l i lb)).
    assert (E : match dget lb last with Some p => fadd p (nval l i lb) | None => fadd (nval l i lb) q0 end = w).
    { pose proof (Hst lb (or_introl eq_refl)) as H. unfold f_starts in H. destruct (dget lb last).
      - subst. reflexivity.
      - unfold w. rewrite H. unfold fadd. f_equal. apply Qcplus_comm. }
    rewrite E.
    destruct (IH Hn2) with (last := dset lb w last) as (last' & E' & H1 & H2).
    + auto using in_cons.
    + intros lb' Hlb'. pose proof (Hst lb' (or_intror Hlb')) as H. unfold f_starts in *.
      rewrite dget_dset. destruct (String.eqb_spec lb' lb); [subst; contradiction|exact H].
    + rewrite E'. cbn [bind fst snd]. exists last'. split; [reflexivity|]. split.
      * intros lb' [<-|Hlb']; [|auto]. rewrite (H2 lb Hn1), dget_dset, String.eqb_refl. reflexivity.
      * intros lb' Hlb'. rewrite H2 by (intros K; apply Hlb'; right; exact K). rewrite dget_dset.
        destruct (String.eqb_spec lb' lb); [subst; exfalso; apply Hlb'; left; reflexivity|reflexivity].
Qed.
Lemma f_csum_items_ok first labels l : labels = item_labels first -> numeric_item first ->
  (forall i lb, i < length l -> In lb labels -> val l i lb = Ok (nval l i lb)) ->
  forall rest i last, length l = i + length rest ->
  (forall lb, In lb labels -> f_starts last lb (f_psum l i lb)) ->
  f_csum_items first labels l i last rest =
  Ok (rebuilt_list first (postfix "csum") (fun i _ lb => f_psum l (S i) lb) i_idx i rest).
Proof.
  intros El Hf Hv. induction rest as [|x rest IH]; intros i last Hlen Hst; cbn [f_csum_items].
  - reflexivity.
  - cbn in Hlen. destruct (f_csum_labels_ok l i labels (f_psum l i)) with (last := last) as (last' & E & H1 & H2).
    + subst. apply item_labels_NoDup, Hf.
    + intros lb Hlb. apply Hv; [lia|exact Hlb].
    + exact Hst.
    + rewrite E. cbn [bind fst snd]. rewrite IH with (i := S i).
      * cbn [bind]. unfold rebuilt_list. cbn [length seq combine map fst snd]. do 3 f_equal.
        unfold newdata. rewrite <- El. f_equal. apply map_ext. intros lb. rewrite f_psum_S by lia. reflexivity.
      * lia.
      * intros lb Hlb. unfold f_starts. rewrite (H1 lb Hlb), f_psum_S by lia. reflexivity.
Qed.
Lemma f_csum_spec e s : parses_units e -> from_history e s -> numeric (s_items s) -> wf_items (s_items s) ->
  s_res s <> Some RVar ->
  exists r, f_op_csum e s = Ok r /\
    fresh e r /\ numeric (s_items r) /\ wf_items (s_items r) /\ length (s_items r) = length (s_items s) /\ times (s_items r) = times (s_items s) /\
    forall i x y, nth_error (s_items s) i = Some x -> nth_error (s_items r) i = Some y ->
      same_time x y /\ i_idx y = i_idx x /\ values_by x y "csum" (fun lb w => w = f_psum (s_items s) (S i) lb).
Proof.
  intros He Hh Hn Hw Hres. destruct (prep_ok e s Hh Hn) as (x & l & El & Hp).
  destruct (positional_series e s "csum" (fun i lb => f_psum (s_items s) (S i) lb) i_idx 0 He Hn Hw x l El)
    as (r & Hr & H1 & H2 & H3 & H4 & H5 & H6); [rewrite El; cbn; lia|].
  exists r. split; [|split; [exact H1|split; [exact H2|split; [exact H3|split; [lia|split; [exact H5|exact H6]]]]]].
  unfold f_op_csum. rewrite El at 1.
  assert (E : (do p <- op_prep s; do l <- f_csum_items (fst p) (snd p) (s_items s) 0 [] (s_items s); ts_of_items e l) = Ok r).
  { rewrite Hp. cbn [bind fst snd].
    rewrite (f_csum_items_ok x (item_labels x) (s_items s)); [cbn [bind skipn] in *; exact Hr|reflexivity| | |reflexivity|].
    - apply Hn. rewrite El. left; reflexivity.
    - intros i lb Hi Hlb. apply val_ok; [exact Hn|eapply label_first; eassumption|exact Hi].
    - intros lb Hlb. reflexivity. }
  destruct (s_res s) as [[|u]|]; [congruence|exact E|exact E].
Qed.

(* ---------------- moving averages ---------------- *)
Definition f_window (l : list item) (from w : nat) (lb : string) : Qc := fold_left fadd (map (fun j => nval l j lb) (seq from w)) q0.
Lemma f_window_sum_ok l lb from w : numeric l -> label_in l lb -> from + w <= length l -> f_window_sum l lb from w = Ok (f_window l from w lb).
Proof.
  intros Hn Hb Hi. unfold f_window_sum. rewrite (foldM_total _ (fun a j => fadd a (nval l j lb))).
  - f_equal. unfold f_window. generalize q0. generalize (seq from w). clear. induction l0 as [|j js IH]; intros a; cbn [fold_left map]; [reflexivity|apply IH].
  - intros a j Hj. apply in_seq in Hj. rewrite val_ok; [reflexivity|exact Hn|exact Hb|lia].
Qed.
Lemma f_mavg_spec e s w : parses_units e -> from_history e s -> numeric (s_items s) -> wf_items (s_items s) ->
  1 <= w <= length (s_items s) ->
  exists r, f_op_mavg e s (Z.of_nat w) = Ok r /\
    fresh e r /\ numeric (s_items r) /\ wf_items (s_items r) /\ length (s_items r) = length (s_items s) - (w - 1) /\
    forall i x y, nth_error (s_items s) (w - 1 + i) = Some x -> nth_error (s_items r) i = Some y ->
      same_time x y /\ i_idx y = [] /\
      values_by x y ("mavg_" ++ nat_str w) (fun lb v => v = fdiv (f_window (s_items s) i w lb) (qn w)).
Proof.
  intros He Hh Hn Hw Hlen. destruct (prep_ok e s Hh Hn) as (x & l & El & Hp).
  destruct (positional_series e s ("mavg_" ++ nat_str w) (fun i lb => fdiv (f_window (s_items s) (i + 1 - w) w lb) (qn w)) (fun _ => []) (w - 1) He Hn Hw x l El)
    as (r & Hr & H1 & H2 & H3 & H4 & H5 & H6); [lia|].
  exists r. split; [|split; [exact H1|split; [exact H2|split; [exact H3|split; [lia|]]]]].
  - unfold f_op_mavg. rewrite Hp. cbn [bind fst snd]. destruct (Z.ltb_spec (Z.of_nat w) 1); [lia|]. rewrite Nat2Z.id.
    rewrite filter_from0.
    rewrite (positional x (postfix ("mavg_" ++ nat_str w)) (fun _ => []) _ (fun i lb => fdiv (f_window (s_items s) (i + 1 - w) w lb) (qn w))); [exact Hr|].
    intros i lb Hi Hlb. rewrite skipn_length in Hi.
    rewrite f_window_sum_ok; [|exact Hn|eapply label_first; eassumption|lia]. cbn [bind]. unfold f_div. change (qz (Z.of_nat w)) with (qn w).
    rewrite qeqb_false; [reflexivity|apply qn_nz; lia].
  - intros i a b Ha Hb. destruct (H6 i a b Ha Hb) as (A & B & D). split; [exact A|]. split; [exact B|].
    replace (w - 1 + i + 1 - w) with i in D by lia. exact D.
Qed.
