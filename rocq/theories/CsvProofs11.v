(* CsvProofs11.v -- the points made of the rows of a table. *)
From Coq Require Import Permutation.
From Verif Require Import SpecCsv SpecIntervals BaseLemmas DictLemmas PropTactics SeriesProofs2 SeriesProofs3 AccessProofs AccessProofs2 OpsProofs OpsProofs3 TransformProofs5 SamplingProofs CsvProofs CsvProofs2 CsvProofs3 CsvProofs4 CsvProofs5 CsvProofs7 CsvProofs8 CsvProofs9 CsvProofs10.

(* ---- sorting ---- *)
Lemma increasing_app_lt (a b : list Qc) x : strictly_increasing (a ++ x :: b) -> (forall y, In y a -> Qclt y x) /\ (forall y, In y b -> Qclt x y) /\ strictly_increasing (a ++ b).
Proof.
  intros H. split; [|split].
  - intros y Y. apply In_nth_error in Y. destruct Y as (i & Y). assert (L : i < length a) by (apply nth_error_Some; congruence). apply (H i (length a)); [exact L|rewrite nth_error_app1 by exact L; exact Y|rewrite nth_error_app2, Nat.sub_diag by lia; reflexivity].
  - intros y Y. apply In_nth_error in Y. destruct Y as (i & Y). apply (H (length a) (length a + S i)); [lia|rewrite nth_error_app2, Nat.sub_diag by lia; reflexivity|]. rewrite nth_error_app2 by lia. replace (length a + S i - length a) with (S i) by lia. exact Y.
  - intros i j u v Hij U V. assert (G : forall k w, nth_error (a ++ b) k = Some w -> nth_error (a ++ x :: b) (if Nat.ltb k (length a) then k else S k) = Some w).
    { intros k w W. destruct (Nat.ltb_spec k (length a)); [rewrite nth_error_app1 in * by lia; exact W|]. rewrite nth_error_app2 in * by lia. replace (S k - length a) with (S (k - length a)) by lia. exact W. }
    apply G in U, V. apply (H _ _ u v) with (2 := U) (3 := V). destruct (Nat.ltb_spec i (length a)), (Nat.ltb_spec j (length a)); lia.
Qed.
Lemma insert_between x (a b : list (Qc * raw)) : (forall y, In y a -> Qclt (fst y) (fst x)) -> (forall y, In y b -> Qclt (fst x) (fst y)) -> insert_row x (a ++ b) = a ++ x :: b.
Proof.
  intros Ha Hb. induction a as [|y a IH]; cbn [app insert_row].
  - destruct b as [|z b]; [reflexivity|]. cbn [insert_row]. assert (Q : qleb (fst x) (fst z) = true) by (apply qleb_true, Qclt_le_weak, Hb; left; reflexivity). rewrite Q. reflexivity.
  - assert (Q : qleb (fst x) (fst y) = false) by (apply qleb_false; apply Ha; left; reflexivity). rewrite Q, IH; [reflexivity|]. intros z Z. apply Ha. right. exact Z.
Qed.
Lemma sort_rows_perm l l' : Permutation l l' -> strictly_increasing (map fst l') -> sort_rows l = l'.
Proof.
  revert l'. induction l as [|x l IH]; intros l' P H; [apply Permutation_nil in P; subst; reflexivity|].
  assert (I : In x l') by (apply (Permutation_in x P); left; reflexivity). apply in_split in I. destruct I as (a & b & ->). apply Permutation_cons_app_inv in P.
  rewrite map_app in H. cbn [map] in H. destruct (increasing_app_lt _ _ _ H) as (H1 & H2 & H3). unfold sort_rows. cbn [fold_right]. fold (sort_rows l). rewrite (IH (a ++ b) P) by (rewrite map_app; exact H3).
  apply insert_between; [intros y Y; apply H1, in_map, Y|intros y Y; apply H2, in_map, Y].
Qed.

(* ---- a row as a point ---- *)
Lemma row_entries nt names di fields k v : NoDup names -> (forall j, In j di -> j < length names) ->
  In (k, v) (dict_of (map (fun j => (nameof names j, cellv nt fields j)) di)) <-> exists j, In j di /\ nth_error names j = Some k /\ cellv nt fields j = v.
Proof.
  intros N Hd. destruct (dict_of_spec (map (fun j => (nameof names j, cellv nt fields j)) di)) as (D1 & D2 & D3).
  assert (Nm : forall j, In j di -> nth_error names j = Some (nameof names j)) by (intros j J; apply nth_error_nth'; apply Hd, J).
  split.
  - intros H. apply D3 in H. apply in_map_iff in H. destruct H as (j & E & J). injection E as <- <-. exists j. split; [exact J|]. split; [apply Nm, J|reflexivity].
  - intros (j & J & E & <-). assert (K : In k (map fst (dict_of (map (fun j => (nameof names j, cellv nt fields j)) di)))).
    { apply D2. rewrite map_map. apply in_map_iff. exists j. cbn [fst]. split; [apply nameof_ok, E|exact J]. }
    apply in_map_iff in K. destruct K as ((k' & v') & Ek & K). cbn [fst] in Ek. subst k'. pose proof (D3 _ _ K) as X. apply in_map_iff in X. destruct X as (j' & E' & J'). injection E' as E1 E2.
    assert (j' = j) by (pose proof (Nm j' J') as Z; rewrite E1 in Z; pose proof (index_of_nth names j' k N Z) as Z1; rewrite (index_of_nth names j k N E) in Z1; congruence). subst j'. rewrite E2. exact K.
Qed.
Lemma index_name_inj a b : is_index_label a = true -> is_index_label b = true -> index_name a = index_name b -> a = b.
Proof. intros A B. apply index_label_iff in A, B. destruct A as (x & ->). destruct B as (y & ->). cbn [append index_name]. intros ->. reflexivity. Qed.

Lemma table_point nt st o f names js di tz fields t : table_ok nt st o names js di -> tz = csv_tz st o -> good_row nt st o f names js fields t ->
  point_of_row nt st o names js fields t (row_point tz (t, table_row nt names di fields)).
Proof.
  intros To -> G. destruct To as [_ N _ _ _ _ Q _]. assert (Hd : forall j, In j di -> j < length names) by (intros j J; apply Q in J; exact (read_column_lt _ _ _ _ _ J)).
  set (d := dict_of (map (fun j => (nameof names j, cellv nt fields j)) di)).
  assert (Ent : forall k v, In (k, v) d <-> exists j, In j di /\ nth_error names j = Some k /\ cellv nt fields j = v) by (intros k v; apply row_entries; assumption).
  assert (Nk : NoDup (map fst d)) by apply dict_of_spec.
  split; [reflexivity|]. split; [reflexivity|]. split; [reflexivity|]. split.
  - intros l v. unfold has_value, row_point, table_row. cbn [i_data snd split_row fst]. fold d. rewrite in_flat_map. split.
    + intros ((k & w) & K & H). cbn [fst snd] in H. destruct (is_index_label k) eqn:E; [destruct H|]. destruct w as [w|]; [|destruct H]. destruct H as [H|[]]. injection H as -> ->. apply Ent in K. destruct K as (j & J & K & V).
      exists j. split; [apply Q, J|]. split; [exact K|]. split; [intros X; apply index_label_iff in X; congruence|apply cellv_iff, V].
    + intros (j & J & K & Ni & V). exists (l, Some v). split; [apply Ent; exists j; split; [apply Q, J|]; split; [exact K|apply cellv_iff, V]|]. cbn [fst snd]. destruct (is_index_label l) eqn:E; [exfalso; apply Ni, index_label_iff, E|]. left. reflexivity.
  - intros i v. unfold row_point, table_row. cbn [i_idx snd split_row]. fold d. set (ix := flat_map _ d).
    assert (Ni : NoDup (dkeys ix)).
    { unfold ix. clear Ent ix. induction d as [|[k w] d' IH]; [constructor|]. cbn [map fst] in Nk. inversion Nk as [|? ? N1 N2]; subst. cbn [flat_map fst snd]. destruct (is_index_label k) eqn:E; [|apply IH, N2]. cbn [app]. unfold dkeys. cbn [map fst]. constructor; [|apply IH, N2].
      intros X. apply N1. apply in_map_iff in X. destruct X as ((k' & w') & Ek & X). cbn [fst] in Ek. apply in_flat_map in X. destruct X as ((k2 & w2) & X1 & X2). cbn [fst snd] in X2. destruct (is_index_label k2) eqn:E2; [|destruct X2]. destruct X2 as [X2|[]]. injection X2 as <- <-.
      rewrite (index_name_inj k k2 E E2) by congruence. apply in_map_iff. exists (k2, w2). split; [reflexivity|exact X1]. }
    assert (Hi : forall w, In (i, w) ix <-> In (("__" ++ i)%string, w) d).
    { intros w. unfold ix. rewrite in_flat_map. split.
      - intros ((k & u) & K & H). cbn [fst snd] in H. destruct (is_index_label k) eqn:E; [|destruct H]. destruct H as [H|[]]. injection H as H <-. apply index_label_iff in E. destruct E as (r & ->). cbn [append index_name] in H. subst r. exact K.
      - intros K. exists (("__" ++ i)%string, w). split; [exact K|]. cbn [fst snd append is_index_label index_name]. left. reflexivity. }
    split.
    + intros H. apply dget_Some_In in H. apply Hi, Ent in H. destruct H as (j & J & K & V). exists j. split; [apply Q, J|]. split; [exact K|]. destruct v as [q|]; [apply cellv_iff, V|]. intros q C. apply cellv_iff in C. congruence.
    + intros (j & J & K & V). apply dget_NoDup; [exact Ni|]. apply Hi, Ent. exists j. split; [apply Q, J|]. split; [exact K|]. destruct v as [q|]; [apply cellv_iff, V|]. destruct (cellv nt fields j) as [q|] eqn:E; [exfalso; apply (V q), cellv_iff, E|reflexivity].
Qed.

(* Two rows with the same columns have data of the same shape. *)
Lemma table_shape nt st o f names js di tz a b ta tb : table_ok nt st o names js di -> good_row nt st o f names js a ta -> good_row nt st o f names js b tb ->
  same_item_shape (row_point tz (ta, table_row nt names di a)) (row_point tz (tb, table_row nt names di b)).
Proof.
  intros To Ga Gb. split; [reflexivity|]. unfold row_point, table_row. cbn [i_data fst snd split_row same_shape]. intros k.
  assert (G : forall x tx, good_row nt st o f names js x tx -> In k (map fst (flat_map (fun kv : string * option Qc => if is_index_label (fst kv) then [] else match snd kv with Some q => [(fst kv, q)] | None => [] end) (dict_of (map (fun j => (nameof names j, cellv nt x j)) di)))) <->
     exists j, In j di /\ nth_error names j = Some k /\ ~ index_label k).
  { clear Ga Gb. intros x tx [_ G]. destruct To as [_ N _ _ _ _ Q _]. assert (Hd : forall j, In j di -> j < length names) by (intros j J; apply Q in J; exact (read_column_lt _ _ _ _ _ J)). rewrite in_map_iff. split.
    - intros ((k' & q) & Ek & H). cbn [fst] in Ek. subst k'. apply in_flat_map in H. destruct H as ((k' & w) & K & H). cbn [fst snd] in H. destruct (is_index_label k') eqn:E; [destruct H|]. destruct w as [w|]; [|destruct H]. destruct H as [H|[]]. injection H as -> ->.
      apply (row_entries nt names di x k _ N Hd) in K. destruct K as (j & J & K & _). exists j. split; [exact J|]. split; [exact K|]. intros X. apply index_label_iff in X. congruence.
    - intros (j & J & K & Ni). destruct (G j k (proj1 (Q j) J) K) as (_ & [X|(q & X)]); [contradiction|]. exists (k, q). split; [reflexivity|]. apply in_flat_map. exists (k, Some q). split.
      + apply row_entries; [exact N|exact Hd|]. exists j. split; [exact J|]. split; [exact K|apply cellv_iff, X].
      + cbn [fst snd]. destruct (is_index_label k) eqn:E; [exfalso; apply Ni, index_label_iff, E|]. left. reflexivity. }
  rewrite (G a ta Ga), (G b tb Gb). reflexivity.
Qed.

Lemma rows_unit e k o st (l : list (Qc * raw)) : parses_units e -> strictly_increasing (map fst l) -> l <> [] -> rows_as_points o st (map fst l) ->
  (match asked o st with StPoints => Ok None | StUnknown => Err ValueError | _ => do si <- detected (s_items (sample e (empty_series None) l)); auto_unit k (match asked o st with StSlots => true | _ => false end) si end) = Ok None.
Proof.
  intros He Hi Hn [R|[R D]]; rewrite R; [reflexivity|]. destruct (sampled e l He Hi Hn) as (si & Dt & Q). rewrite Dt. cbn [bind]. destruct Q as [(_ & ->)|(_ & d & -> & i & t1 & t2 & A & B & ->)]; [reflexivity|].
  rewrite auto_unit_other; [reflexivity|]. exact (D i t1 t2 A B).
Qed.

(* entries : the rows of the file, in its order; xs : the good ones with their times, in time order *)
Lemma table_read fuel nt k e c o st f header names js entries xs :
  parses_units e -> o_limit o = 0 -> o_points o && o_slots o = false -> st_sep st <> newline -> st_dtype st = TAuto \/ st_dtype st = TDict ->
  header_says nt st o header names -> time_in st names js -> columns_found st o names js ->
  (forall x, In x entries -> entry_ok nt st o f names js x) ->
  xs <> [] -> strictly_increasing (map fst xs) -> rows_as_points o st (map fst xs) ->
  (let good := flat_map (fun x : entry => match snd x with Some t => [(t, fst x)] | None => [] end) entries in if st_sort st then Permutation good xs else good = xs) ->
  exists st' s', csv_get fuel nt k e c o st (Some (file_of (line_text st header :: map (fun x => line_text st (fst x)) entries))) = (st', Ok s') /\
    Forall2 (fun tx y => point_of_row nt st o names js (snd tx) (fst tx) y) xs (s_items s').
Proof.
  intros He Ol Hb Ns Dt Hh Ti Cf En Nx Inc Rp Ord. destruct (positions_exist st o names js (proj1 (proj2 (proj2 Hh))) Cf) as (di & Ca & Nd & Q).
  assert (Nn : names <> []) by (destruct Hh as (_ & _ & _ & l & Hl & _); intros ->; destruct Hl).
  assert (To : table_ok nt st o names js di) by (split; try assumption; apply Hh).
  destruct (table_file nt st o f header names js di entries To Ns Hh En) as (r' & R & A & I).
  set (good := flat_map (fun x : entry => match snd x with Some t => [(t, fst x)] | None => [] end) entries) in *. cbv zeta in Ord.
  set (mk := fun tx : Qc * list string => (fst tx, table_row nt names di (snd tx))).
  assert (Ig : entry_rows nt names di entries = map mk good) by (unfold good, mk, entry_rows; clear; induction entries as [|[fs [t|]] l IH]; [reflexivity| |]; cbn [flat_map fst snd]; [cbn [app map fst snd]; rewrite IH; reflexivity|exact IH]).
  assert (Gd : forall t fs, In (t, fs) xs -> good_row nt st o f names js fs t).
  { intros t fs H. assert (H' : In (t, fs) good) by (destruct (st_sort st); [apply (Permutation_in _ (Permutation_sym Ord)), H|rewrite Ord; exact H]).
    unfold good in H'. apply in_flat_map in H'. destruct H' as ((fs' & [t'|]) & X & H'); [|destruct H']. cbn [fst snd] in H'. destruct H' as [H'|[]]. injection H' as -> ->. destruct (En _ X) as (_ & G). exact G. }
  assert (So : (if st_sort (r_st r') then sort_rows (map mk good) else map mk good) = map mk xs).
  { rewrite (tb_sort _ _ _ _ _ _ A). destruct (st_sort st); [|rewrite Ord; reflexivity]. apply sort_rows_perm; [apply Permutation_map, Ord|]. rewrite map_map. exact Inc. }
  unfold csv_get. rewrite Hb, R. cbn [bind]. rewrite I, Ig. unfold make_series.
  assert (Ng : exists a b, map mk good = a :: b).
  { destruct good as [|g good'] eqn:Eg; [|eexists; eexists; reflexivity]. exfalso. apply Nx. destruct (st_sort st); [apply Permutation_nil in Ord; exact Ord|symmetry; exact Ord]. }
  destruct Ng as (a & b & Ng). rewrite Ng. rewrite <- Ng. rewrite So.
  assert (As : (if o_points o then StPoints else if o_slots o then StSlots else st_stype (r_st r')) = asked o st) by (unfold asked; rewrite (tb_stype _ _ _ _ _ _ A); reflexivity). rewrite As.
  assert (Fs : map fst (map mk xs) = map fst xs) by (rewrite map_map; reflexivity).
  rewrite (rows_unit e k o st (map mk xs) He); [|rewrite Fs; exact Inc|destruct xs; [contradiction|discriminate]|rewrite Fs; exact Rp]. cbn [bind]. rewrite (csv_tz_same st (r_st r') o (tb_tz _ _ _ _ _ _ A)).
  assert (Wf : wf_points (map (row_point (csv_tz st o)) (map mk xs))).
  { split; [|split].
    - intros y Y. apply in_map_iff in Y. destruct Y as (x & <- & _). reflexivity.
    - unfold times. rewrite map_map. replace (map (fun x => i_t (row_point (csv_tz st o) x)) (map mk xs)) with (map fst (map mk xs)) by reflexivity. rewrite Fs. exact Inc.
    - intros y z Y Z. rewrite map_map in Y, Z. apply in_map_iff in Y. destruct Y as ((ta & fa) & <- & Y). apply in_map_iff in Z. destruct Z as ((tb & fb) & <- & Z). unfold mk. cbn [fst snd]. apply (table_shape nt st o f names js di); [exact To|apply Gd, Y|apply Gd, Z]. }
  destruct (ts_new_points_ok e None _ He Wf) as (s' & N'). exists (r_st r'), s'. split; [f_equal; apply build_points_ok; exact N'|].
  rewrite (ts_new_items _ _ _ _ N'), map_map. assert (G : forall l, (forall tx, In tx l -> In tx xs) -> Forall2 (fun tx y => point_of_row nt st o names js (snd tx) (fst tx) y) l (map (fun x => row_point (csv_tz st o) (mk x)) l)).
  { induction l as [|[t fs] l IH]; intros H; [constructor|]. cbn [map]. constructor; [|apply IH; intros x X; apply H; right; exact X]. apply (table_point nt st o f); [exact To|reflexivity|]. apply Gd, H. left. reflexivity. }
  apply G. auto.
Qed.
