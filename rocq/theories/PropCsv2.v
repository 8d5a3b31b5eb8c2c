(* PropCsv2.v -- THEOREMS C72-C75: reading CSV files. *)
From Verif Require Import SpecCsv SpecIntervals BaseLemmas DictLemmas PropTactics SeriesProofs2 SeriesProofs3 AccessProofs AccessProofs2 OpsProofs OpsProofs3 InterpProofs SamplingProofs CsvProofs CsvProofs2 CsvProofs3 CsvProofs4 CsvProofs5 CsvProofs6 CsvProofs7 CsvProofs8 CsvProofs9 CsvProofs10 CsvProofs11 Save SaveProofs SpecRecon ModelsProofs LstmProofs PropAccess PropOps PropTransform PropLstm PropCsv Witness.

(* ---------------- C72: reading again ---------------- *)

(* A storage remembers what it has detected (columns, format, type of the data); reading the same file again, with the same
   options, has nevertheless the same outcome, and it remembers nothing more: for any file, storage and options. *)
Theorem C72_reading_again : forall fuel nt k e c o st file st1 r,
  csv_get fuel nt k e c o st file = (st1, r) -> csv_get fuel nt k e c o st1 file = (st1, r).
Proof. exact get_again. Qed.
Print Assumptions C72_reading_again.

Definition reads (o : options) (st : storage) (lines : list string) : storage * result series :=
  csv_get 10 plain_text seconds_env ideal_env day_cal o st (Some (file_of lines)).
Definition table1 : list string := ["timestamp,a,b"; "0e1,1e1,2e1"; "60e1,3e1,4e1"]%string.
Definition all_seen (p : storage * result series) : list (Z * option Z * list Z) := match snd p with Ok s => map seen (s_items s) | Err _ => [] end.
Example C72_nonvacuous : fst (reads no_options csv_storage table1) <> csv_storage /\ all_seen (reads no_options csv_storage table1) = [(0, None, [1; 2]); (60, None, [3; 4])]%Z /\
  reads no_options (fst (reads no_options csv_storage table1)) table1 = reads no_options csv_storage table1.
Proof.
  split; [|split; [vm_compute; reflexivity|]].
  - intros H. apply (f_equal st_cols) in H. vm_compute in H. discriminate.
  - destruct (reads no_options csv_storage table1) as [st1 r] eqn:R. cbn [fst]. unfold reads in *. apply C72_reading_again with (st := csv_storage). exact R.
Qed.

(* But what it remembers changes what other calls do: after the columns have been chosen by position, the data are lists; *)
Theorem C72_other_options_differ : exists o lines, let st1 := fst (reads o csv_storage lines) in
  (exists s x d, snd (reads no_options csv_storage lines) = Ok s /\ In x (s_items s) /\ i_data x = Some (DDict d)) /\
  (exists s, snd (reads no_options st1 lines) = Ok s /\ s_items s <> [] /\ forall x, In x (s_items s) -> exists l, i_data x = Some (DList l)).
Proof.
  exists (mkOptions 0 [ColI 1] None false false None), table1. split.
  - destruct (snd (reads no_options csv_storage table1)) as [s|] eqn:R; vm_compute in R; [|discriminate]. injection R as <-. eexists. eexists. eexists. split; [reflexivity|]. split; [left; reflexivity|reflexivity].
  - destruct (snd (reads no_options (fst (reads (mkOptions 0 [ColI 1] None false false None) csv_storage table1)) table1)) as [s|] eqn:R; vm_compute in R; [|discriminate]. injection R as <-. eexists. split; [reflexivity|]. split; [discriminate|].
    intros x H. cbn [s_items] in H. repeat (destruct H as [<-|H]; [eexists; reflexivity|]). destruct H.
Qed.
Print Assumptions C72_other_options_differ.

(* after a file with a column named timestamp has been read, what is put in its place by the storage itself cannot be read
   (though it can by a new one). *)
Theorem C72_after_put_differs : exists s lines, healthy ideal_env s /\ writable (s_items s) /\ written s /\
  let st1 := fst (reads no_options csv_storage lines) in
  (exists s', snd (reads no_options csv_storage lines) = Ok s') /\
  (exists s', snd (read_back no_options csv_storage s) = Ok s') /\
  snd (read_back no_options st1 s) = Err GenericException.
Proof.
  exists (ms lp6), table1. split; [apply ready_healthy, lp6_ready|]. split; [exact lp6_writable|]. split; [vm_compute; reflexivity|]. split; [|split].
  - destruct (snd (reads no_options csv_storage table1)) as [s|] eqn:R; vm_compute in R; [|discriminate]. eexists. reflexivity.
  - destruct (snd (read_back no_options csv_storage (ms lp6))) as [s|] eqn:R; vm_compute in R; [|discriminate]. eexists. reflexivity.
  - vm_compute. reflexivity.
Qed.
Print Assumptions C72_after_put_differs.

(* put always writes commas: what it writes cannot be read by a storage with another separator. *)
Definition semicolons : storage := mkStorage TsAuto FAuto "UTC" WAll TAuto StAuto false ";" ["#"]%char false.
Theorem C61_separator_refuted : exists s, healthy ideal_env s /\ writable (s_items s) /\ written s /\ snd (read_back no_options semicolons s) = Err GenericException.
Proof. exists (ms lp6). split; [apply ready_healthy, lp6_ready|]. split; [exact lp6_writable|]. split; vm_compute; reflexivity. Qed.
Print Assumptions C61_separator_refuted.

(* ---------------- C73: limits ---------------- *)

(* If points are asked for, without sorting or skipping of errors, what is read with a limit is the beginning of what is
   read without: for any file, columns and formats. *)
Theorem C73_limit : forall fuel nt k e c o st txt n st1 s,
  o_limit o = 0 -> 0 < n -> asked o st = StPoints -> st_sort st = false -> st_skip st = false ->
  csv_get fuel nt k e c o st (Some txt) = (st1, Ok s) ->
  exists st2 s', csv_get fuel nt k e c (with_limit o n) st (Some txt) = (st2, Ok s') /\ s_items s' = firstn n (s_items s).
Proof. exact get_limit. Qed.
Print Assumptions C73_limit.
Definition points_only : options := mkOptions 0 [] None true false None.
Definition table2 : list string := ["epoch,a"; "0e1,1e1"; "60e1,3e1"; "# comment"; "120e1,5e1"; "180e1,7e1"]%string.
Example C73_nonvacuous : asked points_only csv_storage = StPoints /\
  all_seen (reads points_only csv_storage table2) = [(0, None, [1]); (60, None, [3]); (120, None, [5]); (180, None, [7])]%Z /\
  all_seen (reads (with_limit points_only 3) csv_storage table2) = [(0, None, [1]); (60, None, [3]); (120, None, [5])]%Z.
Proof. repeat split; vm_compute; reflexivity. Qed.

(* The limit is on the rows of the file: it does not give the first ones if they are sorted, or if some are skipped as
   repeated; and with few rows the type of the series may not be detected. *)
Definition sorting (skip : bool) : storage := mkStorage TsAuto FAuto "UTC" WAll TAuto StAuto (negb skip) "," ["#"; ";"]%char skip.
Definition table3 : list string := ["epoch,a"; "120e1,1e1"; "60e1,3e1"; "0e1,5e1"]%string.
Definition table4 : list string := ["epoch,a"; "0e1,1e1"; "0e1,3e1"; "60e1,5e1"]%string.
Definition table5 : list string := ["epoch,a"; "0e1,1e1"; "86400e1,3e1"; "172800e1,5e1"]%string.
Definition types_read (p : storage * result series) : list icls := match snd p with Ok s => map i_cls (s_items s) | Err _ => [] end.
Theorem C73_why_unsorted_points :
  (all_seen (reads points_only (sorting false) table3) = [(0, None, [5]); (60, None, [3]); (120, None, [1])]%Z /\
   all_seen (reads (with_limit points_only 1) (sorting false) table3) = [(120, None, [1])]%Z) /\
  (all_seen (reads points_only (sorting true) table4) = [(0, None, [1]); (60, None, [5])]%Z /\
   all_seen (reads (with_limit points_only 2) (sorting true) table4) = [(0, None, [1])]%Z) /\
  (types_read (reads no_options csv_storage table5) = [CDataTimeSlot; CDataTimeSlot; CDataTimeSlot] /\
   types_read (reads (with_limit no_options 1) csv_storage table5) = [CDataTimePoint]).
Proof. repeat split; vm_compute; reflexivity. Qed.
Print Assumptions C73_why_unsorted_points.

(* ---------------- C74: what is not data ---------------- *)

(* Empty lines, comments and lines without the separator can be anywhere, also before the header: they change nothing,
   neither what is read nor the errors nor what the storage remembers. *)
Theorem C74_ignored : forall fuel nt k e c o st l1 junk l2,
  (forall s, In s (l1 ++ junk :: l2) -> no_newline s) -> ignored st junk ->
  csv_get fuel nt k e c o st (Some (file_of (l1 ++ junk :: l2))) = csv_get fuel nt k e c o st (Some (file_of (l1 ++ l2))).
Proof. exact get_ignored. Qed.
Print Assumptions C74_ignored.

Lemma split_chars_end acc l : split_chars newline acc (l ++ [newline]) = split_chars newline acc l ++ [EmptyString].
Proof. revert acc. induction l as [|c l IH]; intros acc; cbn [app split_chars]; [reflexivity|]. destruct (Ascii.eqb c newline); [rewrite IH; reflexivity|apply IH]. Qed.
(* The last line can be without the newline. *)
Theorem C74_last_newline : forall fuel nt k e c o st txt,
  csv_get fuel nt k e c o st (Some (txt ++ end_line)%string) = csv_get fuel nt k e c o st (Some txt).
Proof.
  intros fuel nt k e c o st txt. unfold csv_get. destruct (o_points o && o_slots o); [reflexivity|].
  assert (R : rows nt o (rs_start st) (lines_of (txt ++ end_line)%string) = rows nt o (rs_start st) (lines_of txt)); [|rewrite R; reflexivity].
  unfold lines_of, split_on. rewrite chars_app. change (chars end_line) with [newline]. rewrite split_chars_end, rev_app_distr. cbn [rev app]. rewrite rev_involutive.
  destruct (rev (split_chars newline [] (chars txt))) as [|[|a s] r] eqn:V; [reflexivity| |reflexivity].
  apply (f_equal (@rev string)) in V. rewrite rev_involutive in V. cbn [rev] in V. rewrite V.
  rewrite (rows_ignored nt o (rev r) EmptyString [] (rs_start st)); [rewrite app_nil_r; reflexivity|left; reflexivity].
Qed.
Print Assumptions C74_last_newline.
Example C74_nonvacuous : ignored csv_storage "" /\ ignored csv_storage "# 1,2" /\ ignored csv_storage "no separators" /\
  all_seen (reads no_options csv_storage ("; a,b,c"%string :: ""%string :: table1 ++ ["end"%string])) = all_seen (reads no_options csv_storage table1) /\
  all_seen (csv_get 10 plain_text seconds_env ideal_env day_cal no_options csv_storage (Some ("epoch,a" ++ end_line ++ "0e1,7e1")%string)) = [(0, None, [7])]%Z.
Proof.
  split; [left; reflexivity|]. split; [right; left; exists "#"%char, " 1,2"%string; split; [reflexivity|left; reflexivity]|]. split; [|split; vm_compute; reflexivity].
  right; right. cbn. intros H. repeat (destruct H as [H|H]; [discriminate|]). exact H.
Qed.

(* ---------------- C75: tables ---------------- *)

(* A table with a header and rows, with any separator, quotes and spaces around the cells and commas for the decimals, where
   the time is in one column as a number or a date, or in two columns: what is read has a point for each good row, at its
   time, with the numbers of the columns (all of them, or those asked for) under their labels and the indexes apart; in the
   order of the file, or sorted by time if so asked; the bad rows are left out, if errors are skipped. *)
Theorem C75_table : forall fuel nt k e c o st f header names js (rows : list (list string * option Qc)) xs,
  parses_units e -> o_limit o = 0 -> o_points o && o_slots o = false -> st_sep st <> newline -> st_dtype st = TAuto \/ st_dtype st = TDict ->
  header_says nt st o header names -> time_in st names js -> columns_found st o names js ->
  (forall fields t, In (fields, Some t) rows -> splits st fields /\ good_row nt st o f names js fields t) ->
  (forall fields, In (fields, None) rows -> splits st fields /\ bad_row nt st o f names js fields /\ st_skip st = true) ->
  in_order st rows xs -> xs <> [] -> strictly_increasing (map fst xs) -> rows_as_points o st (map fst xs) ->
  exists st' s', csv_get fuel nt k e c o st (Some (file_of (line_text st header :: map (fun x => line_text st (fst x)) rows))) = (st', Ok s') /\
    Forall2 (fun tx y => point_of_row nt st o names js (snd tx) (fst tx) y) xs (s_items s').
Proof.
  intros fuel nt k e c o st f header names js rows xs He Ol Hb Ns Dt Hh Ti Cf Gd Bd Ord Nx Inc Rp.
  apply (table_read fuel nt k e c o st f header names js rows xs); try assumption.
  intros [fs [t|]] I; split; cbn [fst snd]; [apply Gd with t, I|apply Gd, I|apply Bd, I|]. destruct (Bd fs I) as (_ & B & S). split; assumption.
Qed.
Print Assumptions C75_table.

(* If errors are not skipped the first bad row makes the reading fail, whatever follows. *)
Theorem C75_bad_row : forall fuel nt k e c o st f header names js rows fields rest,
  o_limit o = 0 -> st_sep st <> newline -> st_dtype st = TAuto \/ st_dtype st = TDict ->
  header_says nt st o header names -> time_in st names js -> columns_found st o names js ->
  (forall fs, In fs rows -> splits st fs /\ exists t, good_row nt st o f names js fs t) ->
  splits st fields -> bad_row nt st o f names js fields -> st_skip st = false -> (forall s, In s rest -> no_newline s) ->
  exists st' x, csv_get fuel nt k e c o st (Some (file_of (line_text st header :: map (line_text st) rows ++ line_text st fields :: rest))) = (st', Err x).
Proof.
  intros fuel nt k e c o st f header names js rows fields rest Ol Ns Dt Hh Ti Cf Gd Sf Bf Sk Hr.
  destruct (positions_exist st o names js (proj1 (proj2 (proj2 Hh))) Cf) as (di & Ca & Nd & Q).
  assert (Nn : names <> []) by (destruct Hh as (_ & _ & _ & l & Hl & _); intros ->; destruct Hl).
  assert (To : table_ok nt st o names js di) by (split; try assumption; apply Hh).
  assert (X : exists l1, map fst l1 = rows /\ forall x, In x l1 -> entry_ok nt st o f names js x).
  { clear - Gd. induction rows as [|fs rows IH]; [exists []; split; [reflexivity|intros x []]|]. destruct IH as (l1 & M & H); [intros g G; apply Gd; right; exact G|].
    destruct (Gd fs (or_introl eq_refl)) as (S & t & G). exists ((fs, Some t) :: l1). split; [cbn [map fst]; rewrite M; reflexivity|]. intros x [<-|I]; [split; assumption|apply H, I]. }
  destruct X as (l1 & <- & H). rewrite map_map. unfold csv_get. destruct (o_points o && o_slots o); [eexists; eexists; reflexivity|].
  destruct (table_stops nt st o f header names js di l1 fields rest To Ns Hh H Sf Bf Sk Hr) as (r' & x & R). rewrite R. eexists. eexists. reflexivity.
Qed.
Print Assumptions C75_bad_row.

(* ---- examples ---- *)
(* Decimal numbers, dates as 2021-03-01 (in any timezone) and, for the formats used below, 01/03/2021 12:30 *)
Definition decimal (s : string) : option Qc :=
  match split_on "." s with
  | [a] => match str_int a with Ok z => Some (qz z) | _ => None end
  | [a; b] => match str_int a, str_int b with
              | Ok z, Ok f => if (0 <=? z)%Z then Some (Qcplus (qz z) (qfrac f (Z.to_pos (10 ^ Z.of_nat (String.length b))))) else None
              | _, _ => None
              end
  | _ => None
  end.
Definition epoch_day (y m d : Z) : Z :=
  let y' := if (m <=? 2)%Z then (y - 1)%Z else y in
  let yoe := (y' mod 400)%Z in
  let doy := ((153 * (m + (if (m <=? 2)%Z then 9 else -3)) + 2) / 5 + d - 1)%Z in
  (y' / 400 * 146097 + yoe * 365 + yoe / 4 - yoe / 100 + doy - 719468)%Z.
Definition ymd (y m d : string) : option Z := match str_int y, str_int m, str_int d with Ok y, Ok m, Ok d => Some (epoch_day y m d * 86400)%Z | _, _, _ => None end.
Definition date_text : num_text :=
  mkNumText (fun _ => "0"%string) decimal
    (fun _ s => match split_on "-" s with [y; m; d] => option_map qz (ymd y m d) | _ => None end)
    (fun g _ s => match split_on "009" s with
                  | [a; b] => if negb (String.eqb g ("%d/%m/%Y" ++ tab ++ "%H:%M")) then None else match split_on "/" a, split_on ":" b with
                              | [d; m; y], [h; n] => match ymd y m d, str_int h, str_int n with Some z, Ok h, Ok n => Some (qz (z + h * 3600 + n * 60)) | _, _, _ => None end
                              | _, _ => None
                              end
                  | _ => None
                  end).

(* A table separated by semicolons, with dates, quotes, commas for the decimals and an index, not sorted, with two bad rows *)
Definition weather : storage := mkStorage TsAuto FAuto "UTC" WAll TAuto StAuto true ";" ["#"]%char true.
Definition weather_header : list string := ["day"; """temp"""; " wind"; "__loss"]%string.
Definition weather_names : list string := ["day"; "temp"; "wind"; "__loss"]%string.
Definition weather_rows : list (list string * option Qc) :=
  [(["2021-03-03"; "20,5"; "'3'"; "0"]%string, Some (qz (epoch_day 2021 3 3 * 86400)));
   (["2021-03-01"; " 18 "; "5"; "nan"]%string, Some (qz (epoch_day 2021 3 1 * 86400)));
   (["2021-03-04"; "warm"; "7"; "0"]%string, None);
   (["soon"; "19"; "7"; "0"]%string, None);
   (["2021-03-06"; "17"; "6"; "1"]%string, Some (qz (epoch_day 2021 3 6 * 86400)))].
Definition dated (p : storage * result series) : list (Z * list (option Z) * list (string * Z * positive)) :=
  match snd p with
  | Ok s => map (fun x => (qtrunc (i_t x), map (fun kv => option_map qtrunc (snd kv)) (i_idx x), match i_data x with Some (DDict d) => map (fun kv => (fst kv, Qnum (this (snd kv)), Qden (this (snd kv)))) d | _ => [] end)) (s_items s)
  | Err _ => []
  end.
Ltac not_in := let H := fresh in cbn; intros H; repeat (destruct H as [H|H]; [discriminate|]); exact H.
Ltac splits_tac := split; [cbn; lia|split; [let H := fresh in intros ? H; repeat (destruct H as [<-|H]; [split; [not_in|unfold no_newline; not_in]|]); destruct H|
  let H := fresh in intros H; apply ignored_skipped in H; vm_compute in H; discriminate]].
Lemma weather_columns j : read_column weather points_only weather_names [0] j -> j = 1 \/ j = 2 \/ j = 3.
Proof. intros [H N]. cbn in H, N. assert (j <> 0) by (intros ->; apply N; left; reflexivity). lia. Qed.
Ltac number_tac := eexists; eexists; split; [eexists; split; [reflexivity|vm_compute; reflexivity]|vm_compute; reflexivity].
Ltac weather_good := split; [eexists; split; [eexists; split; reflexivity|split; [right; reflexivity|split; [vm_compute; reflexivity|reflexivity]]]|
  let C := fresh in let L := fresh in intros ? ? C L; apply weather_columns in C; destruct C as [->|[->| ->]]; cbn in L; injection L as <-; (split; [cbn; lia|]);
  [right; number_tac|right; number_tac|left; exists "loss"%string; reflexivity]].
Example C75_nonvacuous :
  header_says date_text weather points_only weather_header weather_names /\ time_in weather weather_names [0] /\ columns_found weather points_only weather_names [0] /\
  (forall fields t, In (fields, Some t) weather_rows -> splits weather fields /\ good_row date_text weather points_only FIso weather_names [0] fields t) /\
  (forall fields, In (fields, None) weather_rows -> splits weather fields /\ bad_row date_text weather points_only FIso weather_names [0] fields /\ st_skip weather = true) /\
  (exists xs, in_order weather weather_rows xs /\ xs <> [] /\ strictly_increasing (map fst xs) /\ rows_as_points points_only weather (map fst xs)) /\
  dated (csv_get 10 date_text seconds_env ideal_env day_cal points_only weather (Some (file_of (line_text weather weather_header :: map (fun x => line_text weather (fst x)) weather_rows)))) =
    [(1614556800, [None], [("temp"%string, 18, 1%positive); ("wind"%string, 5, 1%positive)]);
     (1614729600, [Some 0], [("temp"%string, 41, 2%positive); ("wind"%string, 3, 1%positive)]);
     (1614988800, [Some 1], [("temp"%string, 17, 1%positive); ("wind"%string, 6, 1%positive)])]%Z.
Proof.
  split; [|split; [|split; [|split; [|split; [|split]]]]].
  - split; [splits_tac|]. split; [repeat (constructor; [split; [vm_compute; reflexivity|discriminate]|]); constructor|]. split; [repeat (constructor; [not_in|]); constructor|].
    exists "day"%string. split; [left; reflexivity|]. split; vm_compute; reflexivity.
  - split; [repeat (constructor; [not_in|]); constructor|]. exists 0. split; [reflexivity|]. right. right. split; [not_in|]. split; [not_in|reflexivity].
  - split; [exists 1; split; [cbn; lia|intros [H|[]]; discriminate]|exact I].
  - intros fields t H. repeat (destruct H as [H|H]; [injection H as <- <-; split; [splits_tac|weather_good] || discriminate H|]). destruct H.
  - intros fields H. repeat (destruct H as [H|H]; [discriminate H || injection H as <-|]); [..|destruct H]; (split; [splits_tac|split; [|reflexivity]]).
    + right. split; [eexists; eexists; split; [eexists; split; reflexivity|split; [right; reflexivity|split; [vm_compute; reflexivity|reflexivity]]]|].
      exists 1, "temp"%string. split; [split; [cbn; lia|intros [H|[]]; discriminate]|]. split; [reflexivity|]. right. split; [intros (r & R); discriminate|]. intros q (s & (a & A & B) & D). cbn in A. injection A as <-. vm_compute in B. injection B as <-. vm_compute in D. discriminate.
    + left. exists 0. eexists. split; [reflexivity|]. split; [reflexivity|]. split; [exact I|]. intros s S. vm_compute in S. injection S as <-. split; [vm_compute; reflexivity|]. split; [vm_compute; reflexivity|]. intros g. vm_compute. reflexivity.
  - exists [(qz (epoch_day 2021 3 1 * 86400), ["2021-03-01"; " 18 "; "5"; "nan"]%string); (qz (epoch_day 2021 3 3 * 86400), ["2021-03-03"; "20,5"; "'3'"; "0"]%string); (qz (epoch_day 2021 3 6 * 86400), ["2021-03-06"; "17"; "6"; "1"]%string)].
    split; [apply perm_swap|]. split; [discriminate|]. split; [|left; reflexivity].
    apply sortedb_ok. vm_compute. reflexivity.
  - vm_compute. reflexivity.
Qed.

(* Time and date in two columns, only one of the labels asked for *)
Definition station : storage := mkStorage (TsParts (Some (ColL "hour", "%H:%M")) (Some (ColI 1, "%d/%m/%Y")))%string FAuto "UTC" WAll TAuto StAuto false "|" ["#"]%char false.
Definition only_temp : options := mkOptions 0 [ColL "temp"] None true false None.
Definition station_names : list string := ["hour"; "date"; "wind"; "temp"]%string.
Definition station_row : list string := ["12:30"; "01/03/2021"; "calm"; "21"]%string.
Definition station_bad : list string := ["12:40"; "01/03/2021"; "5"]%string.
Example C75_nonvacuous2 : header_says date_text station only_temp station_names station_names /\ time_in station station_names [0; 1] /\ columns_found station only_temp station_names [0; 1] /\
  splits station station_row /\ good_row date_text station only_temp FAuto station_names [0; 1] station_row (qz (epoch_day 2021 3 1 * 86400 + 12 * 3600 + 30 * 60)) /\
  splits station station_bad /\ bad_row date_text station only_temp FAuto station_names [0; 1] station_bad /\ st_skip station = false /\
  dated (csv_get 10 date_text seconds_env ideal_env day_cal only_temp station (Some (file_of (map (line_text station) [station_names; station_row])))) = [(1614601800, [], [("temp"%string, 21, 1%positive)])]%Z /\
  snd (csv_get 10 date_text seconds_env ideal_env day_cal only_temp station (Some (file_of (map (line_text station) [station_names; station_row; station_bad])))) = Err GenericException.
Proof.
  split; [|split; [|split; [|split; [|split; [|split; [|split; [|split; [|split]]]]]]]].
  - split; [splits_tac|]. split; [repeat (constructor; [split; [vm_compute; reflexivity|discriminate]|]); constructor|]. split; [repeat (constructor; [not_in|]); constructor|].
    exists "temp"%string. split; [right; right; right; left; reflexivity|]. split; vm_compute; reflexivity.
  - split; [repeat (constructor; [not_in|]); constructor|]. exists 0, 1. split; [reflexivity|]. split; [split; [cbn; lia|reflexivity]|split; [cbn; lia|reflexivity]].
  - split; [exists 3, "temp"%string; split; [left; reflexivity|reflexivity]|]. intros d [<-|[]]. exists "temp"%string. split; [reflexivity|right; right; right; left; reflexivity].
  - splits_tac.
  - split; [eexists; eexists; split; [eexists; split; reflexivity|split; [eexists; split; reflexivity|vm_compute; reflexivity]]|].
    intros j l (lb & [H|[]] & C) L. injection H as <-. destruct j as [|[|[|[|j]]]]; [discriminate|discriminate|discriminate| |destruct j; discriminate C]. cbn in L. injection L as <-. split; [cbn; lia|]. right. number_tac.
  - splits_tac.
  - right. split; [eexists; eexists; eexists; split; [eexists; split; reflexivity|split; [eexists; split; reflexivity|vm_compute; reflexivity]]|]. exists 3, "temp"%string. split; [exists "temp"%string; split; [left; reflexivity|reflexivity]|]. split; [reflexivity|]. left. cbn. lia.
  - reflexivity.
  - vm_compute. reflexivity.
  - vm_compute. reflexivity.
Qed.

(* Not all the bad rows can be skipped: one without the cell of the timestamp raises anyway. *)
Definition late : storage := mkStorage TsAuto FAuto "UTC" WAll TAuto StAuto false "," ["#"]%char true.
Theorem C75_short_row_refuted : st_skip late = true /\
  all_seen (reads points_only late ["a,b,timestamp"; "1e1,2e1,0e1"; "5e1,6e1,60e1"]%string) = [(0, None, [1; 2]); (60, None, [5; 6])]%Z /\
  snd (reads points_only late ["a,b,timestamp"; "1e1,2e1,0e1"; "3e1,4e1"; "5e1,6e1,60e1"]%string) = Err IndexError.
Proof. repeat split; vm_compute; reflexivity. Qed.
Print Assumptions C75_short_row_refuted.

(* If a column has no label, the labels of those which follow are taken for the columns before: the wrong numbers are read
   if some are asked for, or else reading fails. *)
Definition ask_for (l : string) : options := mkOptions 0 [ColL l] None true false None.
Theorem C75_no_label_refuted : let lines := ["epoch,,a,b"; "0e1,5e1,7e1,8e1"]%string in
  all_seen (reads (ask_for "a") csv_storage lines) = [(0, None, [5])]%Z /\
  all_seen (reads (ask_for "b") csv_storage lines) = [(0, None, [7])]%Z /\
  snd (reads points_only csv_storage lines) = Err IndexError.
Proof. repeat split; vm_compute; reflexivity. Qed.
Print Assumptions C75_no_label_refuted.

(* A number of days which is not one of those of the months makes a difference: the 29 days of February do not make months,
   and neither do the 366 days of the leap years make years (the code has 886400 seconds for their days). *)
Definition unit_days (u : string) : Z := if String.eqb u "1Y" then 365 else if String.eqb u "1M" then 31 else 1.
Definition rough_cal : cal := mkCal (fun u _ => Ok (days (unit_days u))) (fun u t k => Qcplus t (Qcmult (qz k) (days (unit_days u)))).
Definition type_of (lines : list string) : list icls := types_read (csv_get 10 plain_text seconds_env ideal_env rough_cal no_options csv_storage (Some (file_of lines))).
Theorem C75_leap_refuted :
  type_of ["epoch,a"; "0e1,1e1"; "2678400e1,2e1"]%string = [CDataTimeSlot; CDataTimeSlot] /\
  type_of ["epoch,a"; "0e1,1e1"; "2505600e1,2e1"]%string = [CDataTimePoint; CDataTimePoint] /\
  type_of ["epoch,a"; "0e1,1e1"; "31536000e1,2e1"]%string = [CDataTimeSlot; CDataTimeSlot] /\
  type_of ["epoch,a"; "0e1,1e1"; "31622400e1,2e1"]%string = [CDataTimePoint; CDataTimePoint].
Proof. repeat split; vm_compute; reflexivity. Qed.
Print Assumptions C75_leap_refuted.
