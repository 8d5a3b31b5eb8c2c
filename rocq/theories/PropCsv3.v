(* PropCsv3.v -- THEOREMS C96: CSV files without a header, and columns by position. *)
From Verif Require Import SpecCsv SpecIntervals BaseLemmas DictLemmas PropTactics SeriesProofs2 SeriesProofs3 AccessProofs AccessProofs2 OpsProofs OpsProofs3 InterpProofs SamplingProofs CsvProofs CsvProofs2 CsvProofs3 CsvProofs4 CsvProofs5 CsvProofs6 CsvProofs7 CsvProofs8 CsvProofs9 CsvProofs10 CsvProofs11 CsvProofs12 CsvProofs13 Save SaveProofs SpecRecon ModelsProofs LstmProofs PropAccess PropOps PropTransform PropLstm PropCsv PropCsv2 Witness.

(* ---------------- C96: lists ---------------- *)

(* A table without a header, or one with a header of which some columns are asked for by position, or where lists are
   asked for: what is read has a point for each good row, at its time, with the list of the numbers of the columns, in the
   order of the file (or in that in which they were asked for); the bad rows are left out, if errors are skipped. *)
Theorem C96_lists : forall fuel nt k e c o st f header width js di (rows : list (list string * option Qc)) xs,
  parses_units e -> o_limit o = 0 -> o_points o && o_slots o = false -> st_sep st <> newline ->
  starts nt st o header (map fst rows) width js -> listed_columns st o header width js di -> as_lists st o header ->
  (forall fields t, In (fields, Some t) rows -> splits st fields /\ good_list nt st o f js di fields t) ->
  (forall fields, In (fields, None) rows -> splits st fields /\ bad_list nt st o f js di fields /\ st_skip st = true) ->
  in_order st rows xs -> xs <> [] -> strictly_increasing (map fst xs) -> rows_as_points o st (map fst xs) ->
  exists st' s', csv_get fuel nt k e c o st (Some (file_of (header_line st header ++ map (fun x => line_text st (fst x)) rows))) = (st', Ok s') /\
    Forall2 (fun tx y => list_of_row nt st o di (snd tx) (fst tx) y) xs (s_items s').
Proof.
  intros fuel nt k e c o st f header width js di rows xs He Ol Hb Ns Hs Lc Al Gd Bd Ord Nx Inc Rp.
  apply (list_read fuel nt k e c o st f header width js di rows xs); try assumption.
  intros [fs [t|]] I; split; cbn [fst snd]; [apply Gd with t, I|apply Gd, I|apply Bd, I|]. destruct (Bd fs I) as (_ & B & S). split; assumption.
Qed.
Print Assumptions C96_lists.

(* If errors are not skipped the first bad row (which can be the first of all) makes the reading fail, whatever follows. *)
Theorem C96_bad_row : forall fuel nt k e c o st f header width js di rows fields rest,
  o_limit o = 0 -> st_sep st <> newline ->
  starts nt st o header (rows ++ [fields]) width js -> listed_columns st o header width js di -> as_lists st o header ->
  (forall fs, In fs rows -> splits st fs /\ exists t, good_list nt st o f js di fs t) ->
  splits st fields -> bad_list nt st o f js di fields -> st_skip st = false -> (forall s, In s rest -> no_newline s) ->
  exists st' x, csv_get fuel nt k e c o st (Some (file_of (header_line st header ++ map (line_text st) rows ++ line_text st fields :: rest))) = (st', Err x).
Proof.
  intros fuel nt k e c o st f header width js di rows fields rest Ol Ns Hs Lc Al Gd Sf Bf Sk Hr.
  pose proof (list_ok_of nt st o header _ width js di Ol Hs Lc Al) as Lo.
  unfold csv_get. destruct (o_points o && o_slots o); [eexists; eexists; reflexivity|]. unfold file_of. rewrite lines_join.
  2:{ intros s I. rewrite app_assoc in I. apply in_app_iff in I. destruct I as [I|[<-|I]]; [|apply join_no_newline2; [exact Ns|]; intros g G; apply Sf, G|apply Hr, I].
      apply (lines_clean nt st o header (rows ++ [fields]) width js Ns Hs); [|apply in_app_iff in I; destruct I as [I|I]; apply in_app_iff; [left; exact I|right; rewrite map_app; apply in_app_iff; left; exact I]].
      intros fs F. apply in_app_iff in F. destruct F as [F|[<-|[]]]; [apply Gd, F|exact Sf]. }
  destruct (list_stops nt st o f header width js di rows fields rest Lo Hs Gd Sf Bf Sk) as (r' & x & R). rewrite R. eexists. eexists. reflexivity.
Qed.
Print Assumptions C96_bad_row.

(* Without a header there are no labels to look for: reading fails if the timestamps are asked for by label or, once a row with
   a timestamp is found first, if some data are, or dictionaries. *)
Theorem C96_no_labels : forall fuel nt k e c o st first rest,
  st_sep st <> newline -> splits st first -> only_values nt st o first -> (forall s, In s rest -> no_newline s) ->
  (exists l, st_cols st = TsCol (ColL l)) \/
  (exists f js t, time_at st (length first) js /\ row_time nt (csv_tz st o) st f js first t /\
     ((exists cs l, chosen_columns st o = WCols cs /\ In (ColL l) cs) \/
      (chosen_columns st o = WAll /\ st_dtype st = TDict /\ length js < length first))) ->
  exists st' x, csv_get fuel nt k e c o st (Some (file_of (line_text st first :: rest))) = (st', Err x).
Proof.
  intros fuel nt k e c o st first rest Ns Sf V Hr H.
  unfold csv_get. destruct (o_points o && o_slots o); [eexists; eexists; reflexivity|]. unfold file_of. rewrite lines_join.
  2:{ intros s [<-|I]; [apply join_no_newline2; [exact Ns|]; intros g G; apply Sf, G|apply Hr, I]. }
  cbn [rows]. rewrite (not_skipped st (r_st (rs_start st)) first Sf eq_refl eq_refl).
  assert (X : exists r' x, row nt o (rs_start st) (line_text st first) = (r', Err x)); [|destruct X as (r' & x & X); unfold sbind; rewrite X; cbn [fst snd bind]; eexists; eexists; reflexivity].
  destruct H as [(l & El)|(f & js & t & T & Rt & H)].
  - destruct (list_first nt st o FAuto first [] [] Sf V) as (-> & _). unfold data_row, sbind. set (r := rs_columns (rs_start st) _ _).
    assert (Q : time_columns r = (r, Err TypeError)) by (unfold time_columns, r; cbn [rs_columns rs_start r_st r_ts r_labels]; rewrite El; reflexivity). rewrite Q. cbn [fst snd]. eexists. eexists. reflexivity.
  - destruct (list_first nt st o f first js [] Sf V) as (-> & A). set (r := rs_columns (rs_start st) _ _) in *. unfold data_row.
    destruct (list_times st f (None, length first) js [] r T A) as (r1 & Q & A1 & P1). unfold sbind at 1. rewrite Q. cbn [fst snd]. rewrite (csv_tz_same st (r_st r) o (ls_tz _ _ _ _ _ _ A)).
    destruct (list_time nt (csv_tz st o) st f _ js [] r1 first t A1 P1 Rt) as (s & st2 & S & P & A2). rewrite S, P.
    assert (Di : r_di (rs_st r1 st2) = None /\ r_dtype (rs_st r1 st2) = None).
    { assert (E : r_di r1 = r_di r /\ r_dtype r1 = r_dtype r); [|split; [exact (proj1 E)|exact (proj2 E)]].
      clear - Q. unfold time_columns in Q. destruct (st_cols (r_st r)) as [|c|a b].
      - destruct (r_ts r); [injection Q as <-; auto|]. destruct (r_labels r) as [ls|]; [destruct (index_of "timestamp" ls); [|destruct (index_of "epoch" ls)]|]; injection Q as <-; auto.
      - destruct (r_ts r); [injection Q as <-; auto|]. destruct (find_col (r_labels r) c); [injection Q as <-; auto|discriminate].
      - destruct (find_part (r_labels r) (r_time r) a) as [x|]; [|discriminate]. destruct (find_part (r_labels r) (r_date r) b) as [y|]; [|discriminate]. destruct x, y; try discriminate; injection Q as <-; auto. }
    assert (Lb : r_labels (rs_st r1 st2) = None) by (exact (ls_labels _ _ _ _ _ _ A2)).
    unfold sbind, data_columns. rewrite (proj1 Di), Lb.
    assert (Ch : match o_filter o with [] => st_labels (r_st (rs_st r1 st2)) | f => WCols f end = chosen_columns st o) by (unfold chosen_columns; rewrite (ls_wanted _ _ _ _ _ _ A2); reflexivity). rewrite Ch.
    destruct H as [(cs & l & -> & I)|(-> & Dt & Wd)].
    + assert (Oi : only_ints cs = None).
      { clear - I. induction cs as [|[i|lb] cs IH]; [destruct I| |reflexivity]. cbn [only_ints]. destruct I as [I|I]; [discriminate|]. rewrite (IH I). reflexivity. }
      rewrite Oi. cbn [fst snd]. eexists. eexists. reflexivity.
    + assert (Ci : r_ci (rs_st r1 st2) = seq 0 (length first)).
      { destruct (ls_data _ _ _ _ _ _ A2) as [(F & _)|(_ & _ & F)]; [rewrite (proj1 Di) in F; discriminate|exact F]. }
      rewrite Ci. pose proof (table_removed st js _ _ _ (length first) (proj1 T) (proj1 (proj2 T)) P1) as Rm. change (r_ts (rs_st r1 st2)) with (r_ts r1). change (r_time (rs_st r1 st2)) with (r_time r1). change (r_date (rs_st r1 st2)) with (r_date r1). rewrite Rm. cbn [fst snd].
      assert (Ne : filter (not_in js) (seq 0 (length first)) <> []).
      { intros F. assert (Lq : length (seq 0 (length first)) <= length js); [|rewrite seq_length in Lq; lia]. apply NoDup_incl_length; [apply seq_NoDup|]. intros j J.
        destruct (not_in js j) eqn:Z; [assert (In j (filter (not_in js) (seq 0 (length first)))) as K by (apply filter_In; auto); rewrite F in K; destruct K|].
        unfold not_in in Z. apply negb_false_iff, existsb_exists in Z. destruct Z as (y & Y & Z). apply Nat.eqb_eq in Z. subst. exact Y. }
      assert (Sd : set_data_type (rs_data (rs_st r1 st2) (filter (not_in js) (seq 0 (length first))) (Some (filter (not_in js) (seq 0 (length first)))) false) =
                   rs_dtype (rs_data (rs_st r1 st2) (filter (not_in js) (seq 0 (length first))) (Some (filter (not_in js) (seq 0 (length first)))) false) (Some TDict)).
      { unfold set_data_type, rs_data. cbn [r_dtype r_st r_names]. rewrite (proj2 Di). pose proof (ls_dtype _ _ _ _ _ _ A2 (proj2 Di)) as E. rewrite E, Dt. reflexivity. }
      rewrite Sd. unfold row_data, rs_dtype, rs_data. cbn [r_dtype r_di r_labels]. rewrite Lb. destruct (filter (not_in js) (seq 0 (length first))) as [|j l]; [contradiction|]. cbn [mapM row_value bind]. eexists. eexists. reflexivity.
Qed.
Print Assumptions C96_no_labels.

(* ---- examples ---- *)
(* Without a header, separated by semicolons, with dates; the third row is bad *)
Definition plain_rows : list (list string * option Qc) :=
  [(["2021-03-01"; "18"; "5"]%string, Some (qz (epoch_day 2021 3 1 * 86400)));
   (["2021-03-03"; "20,5"; "'3'"]%string, Some (qz (epoch_day 2021 3 3 * 86400)));
   (["2021-03-04"; "warm"; "7"]%string, None);
   (["2021-03-06"; "17"; "6"]%string, Some (qz (epoch_day 2021 3 6 * 86400)))].
Definition listed_seen (p : storage * result series) : list (Z * list (Z * positive)) :=
  match snd p with
  | Ok s => map (fun x => (qtrunc (i_t x), match i_data x with Some (DList l) => map (fun v => (Qnum (this v), Qden (this v))) l | _ => [] end)) (s_items s)
  | Err _ => []
  end.
Ltac plain_good := split; [eexists; split; [eexists; split; reflexivity|split; [right; reflexivity|split; [vm_compute; reflexivity|reflexivity]]]|
  let J := fresh in intros ? J; destruct J as [<-|[<-|[]]]; number_tac].
Example C96_nonvacuous :
  starts date_text weather points_only None (map fst plain_rows) 3 [0] /\ listed_columns weather points_only None 3 [0] [1; 2] /\ as_lists weather points_only None /\
  (forall fields t, In (fields, Some t) plain_rows -> splits weather fields /\ good_list date_text weather points_only FIso [0] [1; 2] fields t) /\
  (forall fields, In (fields, None) plain_rows -> splits weather fields /\ bad_list date_text weather points_only FIso [0] [1; 2] fields /\ st_skip weather = true) /\
  (exists xs, in_order weather plain_rows xs /\ xs <> [] /\ strictly_increasing (map fst xs) /\ rows_as_points points_only weather (map fst xs)) /\
  listed_seen (csv_get 10 date_text seconds_env ideal_env day_cal points_only weather (Some (file_of (header_line weather None ++ map (fun x => line_text weather (fst x)) plain_rows)))) =
    [(1614556800, [(18, 1%positive); (5, 1%positive)]); (1614729600, [(41, 2%positive); (3, 1%positive)]); (1614988800, [(17, 1%positive); (6, 1%positive)])]%Z.
Proof.
  split; [|split; [|split; [|split; [|split; [|split]]]]].
  - eexists. eexists. split; [reflexivity|]. split; [|split; [reflexivity|]].
    + intros a A. repeat (destruct A as [<-|A]; [eexists; split; [vm_compute; reflexivity|split; [discriminate|first [left; vm_compute; discriminate|right; vm_compute; discriminate]]]|]). destruct A.
    + split; [repeat (constructor; [not_in|]); constructor|]. split; [intros j [<-|[]]; lia|reflexivity].
  - split; [discriminate|]. split; [intros j [<-|[<-|[]]]; lia|reflexivity].
  - right. right. split; reflexivity.
  - intros fields t H. repeat (destruct H as [H|H]; [injection H as <- <-; split; [splits_tac|plain_good] || discriminate H|]). destruct H.
  - intros fields H. repeat (destruct H as [H|H]; [discriminate H || injection H as <-|]); [..|destruct H]; (split; [splits_tac|split; [|reflexivity]]).
    right. split; [eexists; eexists; split; [eexists; split; reflexivity|split; [right; reflexivity|split; [vm_compute; reflexivity|reflexivity]]]|].
    exists 1. split; [left; reflexivity|]. intros q (s & (a & A & B) & D). cbn in A. injection A as <-. vm_compute in B. injection B as <-. vm_compute in D. discriminate.
  - exists [(qz (epoch_day 2021 3 1 * 86400), ["2021-03-01"; "18"; "5"]%string); (qz (epoch_day 2021 3 3 * 86400), ["2021-03-03"; "20,5"; "'3'"]%string); (qz (epoch_day 2021 3 6 * 86400), ["2021-03-06"; "17"; "6"]%string)].
    split; [apply Permutation_refl|]. split; [discriminate|]. split; [|left; reflexivity]. apply sortedb_ok. vm_compute. reflexivity.
  - vm_compute. reflexivity.
Qed.

(* With a header and two of the columns asked for by position, in another order *)
Definition by_position : options := mkOptions 0 [ColI 2; ColI 1] None true false None.
Example C96_nonvacuous_positions :
  starts plain_text csv_storage by_position (Some (["epoch"; "a"; "b"], ["epoch"; "a"; "b"])%string) [["0e1"; "1e1"; "2e1"]%string] 3 [0] /\
  listed_columns csv_storage by_position (Some (["epoch"; "a"; "b"], ["epoch"; "a"; "b"])%string) 3 [0] [2; 1] /\ as_lists csv_storage by_position (Some (["epoch"; "a"; "b"], ["epoch"; "a"; "b"])%string) /\
  good_list plain_text csv_storage by_position FEpoch [0] [2; 1] ["0e1"; "1e1"; "2e1"]%string q0 /\
  listed_seen (reads by_position csv_storage ["epoch,a,b"; "0e1,1e1,2e1"]%string) = [(0, [(2, 1%positive); (1, 1%positive)])]%Z.
Proof.
  split; [|split; [|split; [|split]]].
  - split; [|split; [reflexivity|]].
    + split; [splits_tac|]. split; [repeat (constructor; [split; [vm_compute; reflexivity|discriminate]|]); constructor|]. split; [repeat (constructor; [not_in|]); constructor|].
      exists "a"%string. split; [right; left; reflexivity|]. split; vm_compute; reflexivity.
    + split; [repeat (constructor; [not_in|]); constructor|]. exists 0. split; [reflexivity|]. right. left. split; [not_in|]. split; [cbn; lia|reflexivity].
  - split; [discriminate|]. split; [intros j [<-|[<-|[]]]; lia|]. left. reflexivity.
  - right. left. exists [2; 1]. reflexivity.
  - split; [eexists; split; [eexists; split; reflexivity|split; [right; reflexivity|vm_compute; reflexivity]]|]. intros j [<-|[<-|[]]]; number_tac.
  - vm_compute. reflexivity.
Qed.

(* A first row with a decimal comma, or with a missing value, is taken for a header: it is lost, and its values become the labels. *)
Definition labels_seen (p : storage * result series) : list (Z * list string) :=
  match snd p with Ok s => map (fun x => (qtrunc (i_t x), match i_data x with Some (DDict d) => map fst d | _ => [] end)) (s_items s) | Err _ => [] end.
Theorem C96_first_row_refuted :
  (let read lines := csv_get 10 date_text seconds_env ideal_env day_cal points_only weather (Some (file_of lines)) in
   listed_seen (read ["0;18"; "60;20,5"; "120;17"]%string) = [(0, [(18, 1%positive)]); (60, [(41, 2%positive)]); (120, [(17, 1%positive)])]%Z /\
   labels_seen (read ["60;20,5"; "120;17"]%string) = [(120, ["20,5"%string])]%Z) /\
  (st_skip late = true /\ listed_seen (reads points_only late ["0e1,1e1,2e1"; "60e1,,4e1"]%string) = [(0, [(1, 1%positive); (2, 1%positive)])]%Z /\
   snd (reads points_only late ["60e1,,4e1"; "120e1,5e1,6e1"]%string) = Err IndexError).
Proof. repeat split; vm_compute; reflexivity. Qed.
Print Assumptions C96_first_row_refuted.

(* Asking once for some columns by position changes the storage for good: from then on all that is read has lists, not labels. *)
Theorem C96_positions_stick_refuted : let lines := ["epoch,a,b"; "0e1,1e1,2e1"]%string in
  labels_seen (reads points_only csv_storage lines) = [(0, ["a"; "b"]%string)]%Z /\
  (let st := fst (reads by_position csv_storage lines) in
   labels_seen (reads points_only st lines) = [(0, [])]%Z /\ listed_seen (reads points_only st lines) = [(0, [(1, 1%positive); (2, 1%positive)])]%Z).
Proof. repeat split; vm_compute; reflexivity. Qed.
Print Assumptions C96_positions_stick_refuted.
