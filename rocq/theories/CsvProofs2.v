(* CsvProofs2.v -- the text written by put, and its rows read by get. *)
From Verif Require Import SpecCsv BaseLemmas DictLemmas PropTactics OpsProofs OpsProofs3 CsvProofs.

Lemma str_app_nil s : (s ++ "")%string = s.
Proof. induction s as [|c s IH]; cbn [append]; [reflexivity|f_equal; exact IH]. Qed.
Lemma str_assoc a b c : ((a ++ b) ++ c = a ++ (b ++ c))%string.
Proof. induction a as [|x a IH]; cbn [append]; [reflexivity|f_equal; exact IH]. Qed.
Lemma join_cons sep x l : l <> [] -> join sep (x :: l) = (x ++ sep ++ join sep l)%string.
Proof. destruct l; [contradiction|reflexivity]. Qed.
Lemma join_app sep a b : a <> [] -> b <> [] -> join sep (a ++ b) = (join sep a ++ sep ++ join sep b)%string.
Proof.
  induction a as [|x a IH]; [contradiction|]. intros _ Hb. destruct a as [|y a]; [cbn [app]; apply join_cons; exact Hb|].
  cbn [app]. rewrite (join_cons sep x (y :: a ++ b)), (join_cons sep x (y :: a)) by discriminate. change (y :: a ++ b) with ((y :: a) ++ b). rewrite IH by (exact Hb || discriminate). rewrite !str_assoc. reflexivity.
Qed.

(* The value of an index, None also if it is missing. *)
Definition idxof (x : item) (ix : string) : option Qc := match dget ix (i_idx x) with Some v => v | None => None end.
Definition fields_of (nt : num_text) (ls ix : list string) (x : item) : list string :=
  nt_str nt (i_t x) :: map (fun l => nt_str nt (valof x l)) ls ++ map (fun i => str_opt nt (idxof x i)) ix.
Definition header_of (ls ix : list string) : list string := "epoch"%string :: ls ++ map (fun i => "__" ++ i)%string ix.
Definition line_of (nt : num_text) (ls ix : list string) (x : item) : string := join "," (fields_of nt ls ix x).

Lemma put_row_ok nt as_list ls ix x : numeric_item x -> ls <> [] -> (forall l, In l ls -> has_label x l) ->
  as_list = match i_data x with Some (DList _) => true | _ => false end -> (forall i, In i ix -> In i (dkeys (i_idx x))) ->
  put_row nt as_list ls ix x = Ok (line_of nt ls ix x ++ end_line)%string.
Proof.
  intros N Nl Hl Ha Hi. unfold put_row. destruct (i_data x) as [d|] eqn:Ed; [|destruct N as [_ N]; rewrite Ed in N; contradiction].
  unfold item_data. rewrite Ed. cbn [bind].
  rewrite (mapM_total _ (fun l => nt_str nt (valof x l))).
  2:{ intros l Il. destruct (valof_ok x l N (Hl l Il)) as [V _]. unfold item_by_label, item_data in V. rewrite Ed in V. cbn [bind] in V. rewrite Ha. destruct d as [d|d]; [rewrite V; reflexivity|]. cbn [data_item]. cbn [data_by_label] in V. rewrite V. reflexivity. }
  cbn [bind]. rewrite (mapM_total _ (fun i => str_opt nt (idxof x i))).
  2:{ intros i Ii. unfold idxof. apply Hi in Ii. apply dget_In in Ii. destruct (dget i (i_idx x)); [reflexivity|contradiction]. }
  cbn [bind]. f_equal. unfold line_of, fields_of.
  assert (M : map (fun l => nt_str nt (valof x l)) ls <> []) by (destruct ls; [contradiction|discriminate]).
  destruct ix as [|i ix].
  - cbn [map]. rewrite app_nil_r, join_cons by exact M. rewrite !str_assoc. reflexivity.
  - rewrite join_cons by (destruct ls; [contradiction|discriminate]). rewrite join_app by (exact M || discriminate). rewrite !str_assoc. reflexivity.
Qed.

Lemma put_rows_ok nt as_list ls ix l : ls <> [] ->
  (forall x, In x l -> numeric_item x /\ (forall lb, In lb ls -> has_label x lb) /\ as_list = match i_data x with Some (DList _) => true | _ => false end /\ (forall i, In i ix -> In i (dkeys (i_idx x)))) ->
  put_rows nt as_list ls ix l = (join "" (map (fun x => line_of nt ls ix x ++ end_line)%string l), Ok tt).
Proof.
  intros Nl. induction l as [|x l IH]; intros H; [reflexivity|]. cbn [put_rows]. destruct (H x (or_introl eq_refl)) as (A & B & C & D).
  rewrite (put_row_ok nt as_list ls ix x A Nl B C D). rewrite IH by (intros y Y; apply H; right; exact Y). f_equal.
  change (x :: l) with ([x] ++ l). rewrite map_app, join_empty_app. reflexivity.
Qed.

(* What put writes for a series of items with the same labels and the same indexes. *)
Definition lines_written (nt : num_text) (comments ls ix : list string) (l : list item) : list string :=
  map (fun t => "# " ++ t)%string comments ++ join "," (header_of ls ix) :: map (line_of nt ls ix) l.
Lemma put_text_ok nt comments s x0 r ls ix : s_items s = x0 :: r -> (forall x, In x (s_items s) -> numeric_item x) -> labels_of s = Ok ls -> ls <> [] -> ix = all_indexes (s_items s) ->
  (forall x, In x (s_items s) -> (forall lb, In lb ls -> has_label x lb) /\ (match i_data x with Some (DList _) => true | _ => false end = match i_data x0 with Some (DList _) => true | _ => false end) /\ (forall i, In i ix -> In i (dkeys (i_idx x)))) ->
  put_text nt comments s = (join "" (map (fun s => s ++ end_line)%string (lines_written nt comments ls ix (s_items s))), Ok tt).
Proof.
  intros E N L Nl Eix H. unfold put_text.
  assert (P : put_rows nt (match i_data x0 with Some (DList _) => true | _ => false end) ls ix (s_items s) = (join "" (map (fun x => line_of nt ls ix x ++ end_line)%string (s_items s)), Ok tt)).
  { apply put_rows_ok; [exact Nl|]. intros x Ix. destruct (H x Ix) as (A & B & C). split; [exact (N x Ix)|]. split; [exact A|]. split; [symmetry; exact B|exact C]. }
  assert (C : i_cls x0 = CDataTimePoint \/ i_cls x0 = CDataTimeSlot) by (apply N; rewrite E; left; reflexivity).
  assert (T : (join "" (map (fun t => "# " ++ t ++ end_line)%string comments) ++
      (match ix with [] => "epoch," ++ join "," ls ++ end_line | _ => "epoch," ++ join "," ls ++ "," ++ join "," (map (fun i => "__" ++ i)%string ix) ++ end_line end) ++
      join "" (map (fun x => line_of nt ls ix x ++ end_line)%string (s_items s)))%string = join "" (map (fun s => s ++ end_line)%string (lines_written nt comments ls ix (s_items s)))).
  { unfold lines_written. rewrite map_app, join_empty_app, map_map. f_equal.
    cbn [map]. change (?a :: ?b) with ([a] ++ b) at 1. rewrite join_empty_app, map_map. f_equal. cbn [join]. unfold header_of. destruct ix as [|i ix'].
    - cbn [map]. rewrite app_nil_r, join_cons by exact Nl. rewrite !str_assoc. reflexivity.
    - rewrite join_cons by (destruct ls; [contradiction|discriminate]). rewrite join_app by (exact Nl || discriminate). rewrite !str_assoc. reflexivity. }
  rewrite E in *. rewrite L, <- Eix. destruct C as [C|C]; rewrite C, P; rewrite <- T; reflexivity.
Qed.

(* ---- all_indexes ---- *)
Lemma add_names_In acc names k : In k (add_names acc names) <-> In k acc \/ In k names.
Proof.
  unfold add_names. revert acc. induction names as [|n names IH]; intros acc; cbn [fold_left In]; [tauto|]. rewrite IH.
  destruct (str_mem n acc) eqn:M; [apply str_mem_iff in M; intuition (subst; auto)|]. rewrite in_app_iff. cbn [In]. intuition auto.
Qed.
Lemma add_names_NoDup acc names : NoDup acc -> NoDup (add_names acc names).
Proof.
  unfold add_names. revert acc. induction names as [|n names IH]; intros acc H; cbn [fold_left]; [exact H|]. apply IH.
  destruct (str_mem n acc) eqn:M; [exact H|]. apply NoDup_rev in H. rewrite <- (rev_involutive (acc ++ [n])). apply NoDup_rev. rewrite rev_app_distr. cbn [rev app]. constructor; [|exact H].
  intros X. apply in_rev in X. apply str_mem_iff in X. congruence.
Qed.
Lemma names_In l : forall acc k, In k (fold_left (fun a x => add_names a (dkeys (i_idx x))) l acc) <-> In k acc \/ exists x, In x l /\ In k (dkeys (i_idx x)).
Proof.
  induction l as [|x l IH]; intros acc k; cbn [fold_left]; [split; [auto|intros [H|(x & [] & _)]; exact H]|]. rewrite IH, add_names_In. split.
  - intros [[H|H]|(y & Y & K)]; [left; exact H|right; exists x; split; [left; reflexivity|exact H]|right; exists y; split; [right; exact Y|exact K]].
  - intros [H|(y & [<-|Y] & K)]; [left; left; exact H|left; right; exact K|right; exists y; split; assumption].
Qed.
Lemma names_NoDup l : forall acc, NoDup acc -> NoDup (fold_left (fun a x => add_names a (dkeys (i_idx x))) l acc).
Proof. induction l as [|x l IH]; intros acc H; cbn [fold_left]; [exact H|]. apply IH, add_names_NoDup, H. Qed.
Lemma all_indexes_In l k : In k (all_indexes l) <-> exists x, In x l /\ In k (dkeys (i_idx x)).
Proof.
  unfold all_indexes. cbv zeta. set (names := fold_left _ l []). assert (E : In k names <-> exists x, In x l /\ In k (dkeys (i_idx x))) by (unfold names; rewrite names_In; cbn [In]; tauto).
  rewrite <- E. rewrite in_app_iff, str_sort_In, !filter_In. rewrite str_mem_iff.
  set (legacy := ["data_reconstructed"; "data_loss"; "anomaly"; "forecast"]%string). split; [intros [H|H]; apply H|]. intros H.
  destruct (str_mem k legacy) eqn:M; [left|right; split; [exact H|reflexivity]]. split; [apply str_mem_iff; exact M|exact H].
Qed.
Lemma NoDup_app_disjoint {A} (a b : list A) : NoDup a -> NoDup b -> (forall x, In x a -> In x b -> False) -> NoDup (a ++ b).
Proof.
  intros Ha Hb D. induction a as [|x a IH]; [exact Hb|]. inversion Ha; subst. cbn [app]. constructor; [|apply IH; [assumption|intros y Y Z; exact (D y (or_intror Y) Z)]].
  intros X. apply in_app_iff in X. destruct X as [X|X]; [contradiction|exact (D x (or_introl eq_refl) X)].
Qed.
Lemma all_indexes_NoDup l : NoDup (all_indexes l).
Proof.
  unfold all_indexes. cbv zeta. set (names := fold_left _ l []). assert (N : NoDup names) by (apply names_NoDup; constructor).
  set (legacy := ["data_reconstructed"; "data_loss"; "anomaly"; "forecast"]%string). apply NoDup_app_disjoint.
  - apply NoDup_filter. unfold legacy. repeat constructor; cbn [In]; intuition discriminate.
  - apply str_sort_NoDup, NoDup_filter, N.
  - intros k A B. apply filter_In in A. apply str_sort_In, filter_In in B. destruct A as [A _]. destruct B as [_ B]. apply str_mem_iff in A. rewrite A in B. discriminate.
Qed.

(* ---- reading the rows ---- *)
(* The state after the header, and after the first row. *)
Record reading (nt : num_text) (ls ix : list string) (r : rstate) : Prop := mkReading {
  rd_cols : default_columns (r_st r);
  rd_labels : r_labels r = Some (header_of ls ix);
  rd_time : r_time r = None; rd_date : r_date r = None;
  rd_phase : (r_ts r = None /\ r_ci r = seq 0 (S (length ls + length ix)) /\ r_di r = None /\ r_dtype r = None) \/
             (r_ts r = Some 0 /\ r_ci r = seq 1 (length ls + length ix) /\ r_di r = Some (seq 1 (length ls + length ix)) /\ r_dtype r = Some TDict) }.

Definition row_of (ls ix : list string) (x : item) : Qc * raw :=
  (i_t x, RDict (map (fun l => (l, Some (valof x l))) ls ++ map (fun i => (("__" ++ i)%string, idxof x i)) ix)).

Lemma nth_map_seq {A B} (f : A -> result B) (g : nat -> result B) (l : list A) (pre : list A) :
  (forall i a, nth_error (pre ++ l) i = Some a -> g i = f a) -> mapM g (seq (length pre) (length l)) = mapM f l.
Proof.
  revert pre. induction l as [|a l IH]; intros pre H; [reflexivity|]. cbn [length seq mapM].
  assert (N : nth_error (pre ++ a :: l) (length pre) = Some a) by (rewrite nth_error_app2 by lia; rewrite Nat.sub_diag; reflexivity).
  rewrite (H _ _ N). destruct (f a) as [b|]; [|reflexivity]. cbn [bind].
  specialize (IH (pre ++ [a])). rewrite app_length in IH. cbn [length] in IH. rewrite Nat.add_1_r in IH. rewrite IH; [reflexivity|].
  intros i b' X. apply H. rewrite <- app_assoc in X. exact X.
Qed.
