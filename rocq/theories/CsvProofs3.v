(* CsvProofs3.v -- get reads the rows written by put. *)
From Verif Require Import SpecCsv BaseLemmas DictLemmas PropTactics OpsProofs OpsProofs3 CsvProofs CsvProofs2.

(* Labels and indexes which can be written. *)
Definition columns_ok (ls ix : list string) : Prop :=
  ls <> [] /\ NoDup ls /\ NoDup ix /\ (forall l, In l ls -> plain_label l /\ l <> "timestamp"%string /\ (forall r, l <> ("__" ++ r)%string)) /\ (forall i, In i ix -> plain_label ("__" ++ i)).

(* The fields of the storage that no reading changes. *)
Definition same_settings (a b : storage) : Prop :=
  st_tz b = st_tz a /\ st_stype b = st_stype a /\ st_sort b = st_sort a /\ st_skip b = st_skip a.

Definition body (nt : num_text) (ls ix : list string) (x : item) : list (string * string) :=
  map (fun l => (l, nt_str nt (valof x l))) ls ++ map (fun i => (("__" ++ i)%string, str_opt nt (idxof x i))) ix.
Lemma body_header nt ls ix x : header_of ls ix = "epoch"%string :: map fst (body nt ls ix x).
Proof. unfold header_of, body. rewrite map_app, !map_map. cbn [fst]. rewrite map_id. reflexivity. Qed.
Lemma body_fields nt ls ix x : fields_of nt ls ix x = nt_str nt (i_t x) :: map snd (body nt ls ix x).
Proof. unfold fields_of, body. rewrite map_app, !map_map. reflexivity. Qed.
Lemma body_length nt ls ix x : length (body nt ls ix x) = length ls + length ix.
Proof. unfold body. rewrite app_length, !map_length. reflexivity. Qed.

Lemma fields_plain nt ls ix x s : exact_text nt -> In s (fields_of nt ls ix x) -> plain_label s.
Proof.
  intros E [<-|H]; [apply nt_plain, E|]. apply in_app_iff in H. destruct H as [H|H]; apply in_map_iff in H; destruct H as (y & <- & _); [apply nt_plain, E|apply str_opt_plain, E].
Qed.
Lemma header_plain ls ix s : columns_ok ls ix -> In s (header_of ls ix) -> plain_label s.
Proof.
  intros (_ & _ & _ & A & B) [<-|H]; [apply epoch_plain|]. apply in_app_iff in H. destruct H as [H|H]; [apply (A s H)|]. apply in_map_iff in H. destruct H as (i & <- & H). exact (B i H).
Qed.
Lemma line_split nt ls ix x : exact_text nt -> split_on "," (line_of nt ls ix x) = fields_of nt ls ix x.
Proof. intros E. apply split_join; [discriminate|]. intros s H. apply plain_no_comma, (fields_plain nt ls ix x s E H). Qed.
Lemma header_split ls ix : columns_ok ls ix -> split_on "," (join "," (header_of ls ix)) = header_of ls ix.
Proof. intros E. apply split_join; [discriminate|]. intros s H. apply plain_no_comma, (header_plain ls ix s E H). Qed.
Lemma join_chars sep l c : In c (chars (join sep l)) -> In c (chars sep) \/ exists s, In s l /\ In c (chars s).
Proof.
  induction l as [|x l IH]; [intros []|]. destruct l as [|y l]; [intros H; right; exists x; split; [left; reflexivity|exact H]|].
  rewrite join_cons by discriminate. rewrite !chars_app, !in_app_iff. intros [H|[H|H]]; [right; exists x; split; [left; reflexivity|exact H]|left; exact H|].
  destruct (IH H) as [X|(s & S & X)]; [left; exact X|right; exists s; split; [right; exact S|exact X]].
Qed.
Lemma join_no_newline l : (forall s, In s l -> plain_label s) -> no_newline (join "," l).
Proof. intros H X. apply join_chars in X. destruct X as [[X|[]]|(s & S & X)]; [discriminate|]. exact (plain_no_newline s (H s S) X). Qed.

Lemma columns_body_NoDup nt ls ix x : columns_ok ls ix -> NoDup (map fst (body nt ls ix x)).
Proof.
  intros (_ & A & B & C & _). unfold body. rewrite map_app, !map_map. cbn [fst]. rewrite map_id. apply NoDup_app_disjoint; [exact A| |].
  - apply FinFun.Injective_map_NoDup; [intros a b H; injection H as H; exact H|exact B].
  - intros l L H. apply in_map_iff in H. destruct H as (i & <- & _). apply (proj2 (proj2 (C _ L)) i). reflexivity.
Qed.

Lemma index_of_None x l : ~ In x l -> index_of x l = None.
Proof.
  induction l as [|y l IH]; intros H; [reflexivity|]. cbn [index_of]. destruct (String.eqb_spec x y) as [->|_]; [exfalso; apply H; left; reflexivity|]. rewrite IH; [reflexivity|]. intros X. apply H. right. exact X.
Qed.
Lemma no_timestamp ls ix : columns_ok ls ix -> index_of "timestamp" (header_of ls ix) = None.
Proof.
  intros (_ & _ & _ & A & _). apply index_of_None. intros [H|H]; [discriminate|]. apply in_app_iff in H. destruct H as [H|H]; [exact (proj1 (proj2 (A _ H)) eq_refl)|].
  apply in_map_iff in H. destruct H as (i & H & _). discriminate.
Qed.

Lemma dc_not_parts st : default_columns st -> exists a, (st_cols st = TsAuto /\ a = true) \/ (st_cols st = TsCol (ColL "epoch") /\ a = false).
Proof. intros ([H|H] & _); [exists true; left|exists false; right]; split; auto. Qed.

Lemma time_columns_ok nt ls ix r : columns_ok ls ix -> reading nt ls ix r -> exists st, time_columns r = (rs_times (rs_st r st) (Some 0) None None, Ok tt) /\ default_columns st /\ same_settings (r_st r) st /\ st_format st = st_format (r_st r).
Proof.
  intros C R. destruct R as [Dc Lb Ti Da Ph]. unfold time_columns.
  assert (Same : forall i, r_ts r = Some i -> i = 0 -> rs_times (rs_st r (r_st r)) (Some 0) None None = r) by (intros i H ->; unfold rs_times, rs_st; destruct r; cbn in *; congruence).
  pose proof Dc as ([E|E] & Dc2).
  - rewrite E. destruct Ph as [(Ts & _)|(Ts & _)]; rewrite Ts.
    + rewrite Lb, (no_timestamp ls ix C). cbn [header_of index_of String.eqb Ascii.eqb Bool.eqb]. exists (set_cols (r_st r) (TsCol (ColL "epoch"))). rewrite Ti, Da. split; [reflexivity|].
      split; [split; [right; reflexivity|exact Dc2]|]. split; [repeat split; reflexivity|reflexivity].
    + exists (r_st r). rewrite (Same 0 Ts eq_refl). split; [reflexivity|]. split; [exact Dc|]. split; [repeat split; reflexivity|reflexivity].
  - rewrite E. destruct Ph as [(Ts & _)|(Ts & _)]; rewrite Ts.
    + rewrite Lb. cbn [find_col header_of index_of String.eqb Ascii.eqb Bool.eqb]. rewrite Ti, Da. exists (r_st r). split; [destruct r; reflexivity|]. split; [exact Dc|]. split; [repeat split; reflexivity|reflexivity].
    + exists (r_st r). rewrite (Same 0 Ts eq_refl). split; [reflexivity|]. split; [exact Dc|]. split; [repeat split; reflexivity|reflexivity].
Qed.

Lemma parse_time_ok nt tz st q : exact_text nt -> default_columns st -> exists st', parse_time nt tz st (Some (nt_str nt q)) = (st', Some q) /\ default_columns st' /\ same_settings st st'.
Proof.
  intros E D. unfold parse_time. destruct D as (A & B & C). exists (match st_format st with FAuto => set_format st FEpoch | _ => st end).
  destruct A as [A|A]; rewrite A; destruct B as [B|B]; rewrite B; rewrite (proj1 E q); (split; [reflexivity|]); (split; [|repeat split; reflexivity]).
  all: unfold default_columns; cbn; rewrite ?A, ?B; tauto.
Qed.

Lemma seq_remove n : nat_remove 0 (seq 0 (S n)) = Ok (seq 1 n).
Proof. reflexivity. Qed.

Lemma data_columns_ok nt o ls ix r st2 : whole o -> columns_ok ls ix -> reading nt ls ix r -> default_columns st2 ->
  exists nm, data_columns o (rs_st (rs_times r (Some 0) None None) st2) =
     (mkRs st2 (seq 1 (length ls + length ix)) (Some (header_of ls ix)) (Some 0) None None (Some (seq 1 (length ls + length ix))) nm (r_dtype r) (r_items r) (r_count r), Ok tt) /\
     (r_dtype r = None -> nm = true).
Proof.
  intros (Ol & Of) C R D2. destruct R as [Dc Lb Ti Da Ph]. destruct Ph as [(_ & Hci & Hdi & Hdt)|(_ & Hci & Hdi & Hdt)]; unfold data_columns; unfold rs_st, rs_times; cbn [r_di]; rewrite Hdi.
  - exists true. split; [|reflexivity]. rewrite Of. cbn [r_st]. rewrite (proj1 (proj2 (proj2 D2))). cbn [r_ts r_ci r_time r_date]. rewrite Hci. unfold remove_opt. rewrite seq_remove. cbn [bind]. cbn [r_labels]. rewrite Lb.
    unfold header_of at 1. fold (header_of ls ix).
    assert (M : mapM (fun i => match nth_error (header_of ls ix) i with Some l => Ok l | None => Err IndexError end) (seq 1 (length ls + length ix)) = Ok (ls ++ map (fun i => ("__" ++ i)%string) ix)).
    { replace (length ls + length ix) with (length (ls ++ map (fun i => ("__" ++ i)%string) ix)) by (rewrite app_length, map_length; reflexivity).
      rewrite (nth_map_seq Ok _ _ ["epoch"%string]); [rewrite (mapM_total Ok (fun l => l)) by reflexivity; rewrite map_id; reflexivity|]. intros i a H. unfold header_of. cbn [app] in H. rewrite H. reflexivity. }
    change ("epoch"%string :: ls ++ map (fun i => ("__" ++ i)%string) ix) with (header_of ls ix). rewrite M.
    assert (Nn : ls <> []) by apply C. destruct ls; [contradiction|]. reflexivity.
  - exists (r_names r). rewrite Hdt. split; [|discriminate]. rewrite ?Hci, ?Hdi, ?Lb, ?Hdt. reflexivity.
Qed.

Lemma row_data_ok nt ls ix r x : exact_text nt -> columns_ok ls ix -> r_labels r = Some (header_of ls ix) -> r_di r = Some (seq 1 (length ls + length ix)) -> r_dtype r = Some TDict ->
  row_data nt r (fields_of nt ls ix x) = Ok (snd (row_of ls ix x)).
Proof.
  intros E C Lb Di Dt. unfold row_data. rewrite Dt, Di. rewrite <- (body_length nt ls ix x).
  rewrite (nth_map_seq (fun kv => do v <- to_float nt (snd kv) (Some (fst kv)); Ok (fst kv, v)) _ (body nt ls ix x) [("epoch"%string, nt_str nt (i_t x))]).
  2:{ intros i a H. cbn [app] in H. unfold row_value. rewrite Lb, (body_header nt ls ix x), body_fields.
      change ("epoch"%string :: map fst (body nt ls ix x)) with (map fst (("epoch"%string, nt_str nt (i_t x)) :: body nt ls ix x)). rewrite nth_error_map, H. cbn [option_map].
      unfold field. change (nt_str nt (i_t x) :: map snd (body nt ls ix x)) with (map snd (("epoch"%string, nt_str nt (i_t x)) :: body nt ls ix x)). rewrite nth_error_map, H. reflexivity. }
  assert (M : mapM (fun kv => do v <- to_float nt (snd kv) (Some (fst kv)); Ok (fst kv, v)) (body nt ls ix x) = Ok (map (fun l => (l, Some (valof x l))) ls ++ map (fun i => (("__" ++ i)%string, idxof x i)) ix)).
  { unfold body. assert (A : forall l, mapM (fun kv => do v <- to_float nt (snd kv) (Some (fst kv)); Ok (fst kv, v)) (map (fun i => (("__" ++ i)%string, str_opt nt (idxof x i))) l) = Ok (map (fun i => (("__" ++ i)%string, idxof x i)) l)).
    { induction l as [|i l IH]; [reflexivity|]. cbn [map mapM fst snd]. rewrite (to_float_index nt _ i E). cbn [bind]. rewrite IH. reflexivity. }
    clear C Lb Di. induction ls as [|l ls IH]; cbn [map app]; [apply A|]. cbn [mapM fst snd]. rewrite (to_float_number nt _ _ E). cbn [bind]. rewrite IH. reflexivity. }
  rewrite M. cbn [bind]. rewrite dict_of_NoDup; [reflexivity|]. pose proof (columns_body_NoDup nt ls ix x C) as N. unfold body in N. rewrite map_app, !map_map in *. exact N.
Qed.

Lemma row_reads nt o ls ix r x : exact_text nt -> whole o -> columns_ok ls ix -> reading nt ls ix r ->
  exists r', row nt o r (line_of nt ls ix x) = (r', Ok false) /\ reading nt ls ix r' /\ r_items r' = r_items r ++ [row_of ls ix x] /\ same_settings (r_st r) (r_st r').
Proof.
  intros E W C R. unfold row. pose proof (rd_cols _ _ _ _ R) as Dc. rewrite (proj1 (proj2 (proj2 (proj2 (proj2 Dc))))). rewrite (line_split nt ls ix x E).
  assert (Ci : exists c0 c1, r_ci r = c0 :: c1).
  { destruct (rd_phase _ _ _ _ R) as [(_ & H & _)|(_ & H & _)]; rewrite H; [eexists; eexists; reflexivity|]. destruct C as [C _]. destruct ls as [|l0 ls]; [contradiction|]. eexists; eexists; reflexivity. }
  destruct Ci as (c0 & c1 & Ci). rewrite Ci. unfold data_row.
  destruct (time_columns_ok nt ls ix r C R) as (st1 & T & D1 & S1 & _). unfold sbind at 1. rewrite T. cbn [fst snd].
  unfold timestamp_text, rs_times. cbn [r_ts]. rewrite body_fields. cbn [part field nth_error bind].
  rewrite (sanitize_plain _ (nt_plain nt (i_t x) E)). unfold rs_st at 1 2. cbn [r_st].
  destruct (parse_time_ok nt (csv_tz (r_st r) o) st1 (i_t x) E D1) as (st2 & P & D2 & S2). rewrite P.
  destruct (data_columns_ok nt o ls ix r st2 W C R D2) as (nm & DC & Hnm).
  unfold sbind. match goal with |- context [data_columns o ?a] => replace a with (rs_st (rs_times r (Some 0) None None) st2) by reflexivity end. rewrite DC. cbn [fst snd].
  set (r3 := mkRs st2 _ _ _ _ _ _ _ _ _ _).
  assert (Dt : r_dtype (set_data_type r3) = Some TDict).
  { unfold set_data_type, r3. cbn [r_dtype]. destruct (rd_phase _ _ _ _ R) as [(_ & _ & _ & H)|(_ & _ & _ & H)]; rewrite H; [|reflexivity]. cbn [rs_dtype r_dtype r_st r_names]. rewrite (Hnm H). destruct D2 as (_ & _ & _ & TA & _). rewrite TA. reflexivity. }
  assert (S3 : r_labels (set_data_type r3) = Some (header_of ls ix) /\ r_di (set_data_type r3) = Some (seq 1 (length ls + length ix)) /\ r_st (set_data_type r3) = st2 /\ r_items (set_data_type r3) = r_items r /\
               r_ci (set_data_type r3) = seq 1 (length ls + length ix) /\ r_ts (set_data_type r3) = Some 0 /\ r_time (set_data_type r3) = None /\ r_date (set_data_type r3) = None).
  { unfold set_data_type, r3. cbn [r_dtype]. destruct (r_dtype r); repeat split. }
  destruct S3 as (X1 & X2 & X3 & X4 & X5 & X6 & X7 & X8).
  rewrite <- (body_fields nt ls ix x). rewrite (row_data_ok nt ls ix (set_data_type r3) x E C X1 X2 Dt). rewrite (proj1 W). cbn [Nat.eqb negb andb].
  eexists. split; [reflexivity|]. unfold rs_item. split; [|split; [cbn [r_items]; rewrite X4; reflexivity|]].
  - split; cbn [r_st r_labels r_time r_date r_ts r_ci r_di r_dtype]; [rewrite X3; exact D2|exact X1|exact X7|exact X8|right; repeat split; assumption].
  - cbn [r_st]. rewrite X3. destruct S1 as (A1 & A2 & A3 & A4). destruct S2 as (B1 & B2 & B3 & B4). repeat split; congruence.
Qed.

(* Comments are skipped, the lines of put are not. *)
Lemma comment_skipped st t : default_columns st -> skipped st ("# " ++ t) = true.
Proof. intros (_ & _ & _ & _ & _ & H). unfold skipped. cbn [append]. rewrite H. reflexivity. Qed.
Lemma has_comma a l : l <> [] -> char_in "," (join "," (a :: l)) = true.
Proof. intros H. apply char_in_iff. rewrite join_cons by exact H. rewrite !chars_app, !in_app_iff. right. left. left. reflexivity. Qed.
Lemma line_not_skipped st nt ls ix x : default_columns st -> exact_text nt -> ls <> [] -> skipped st (line_of nt ls ix x) = false.
Proof.
  intros (_ & _ & _ & _ & Sp & Cm) E Nl. assert (Hc : char_in "," (line_of nt ls ix x) = true) by (apply has_comma; destruct ls; [contradiction|discriminate]).
  assert (L : exists c r, line_of nt ls ix x = String c r /\ number_char c).
  { unfold line_of, fields_of. rewrite join_cons by (destruct ls; [contradiction|discriminate]). destruct (nt_first nt (i_t x) E) as (c & r & -> & N). exists c. eexists. split; [reflexivity|exact N]. }
  destruct L as (c & r & L & N). unfold skipped. rewrite Sp, Cm, Hc, L. cbn [negb]. rewrite orb_false_r. cbn [existsb].
  pose proof (number_char_all (fun c => negb (Ascii.eqb c "#" || (Ascii.eqb c ";" || false))) eq_refl c N) as X. cbv beta in X. destruct (Ascii.eqb c "#" || (Ascii.eqb c ";" || false)); [discriminate|reflexivity].
Qed.
Lemma header_not_skipped st ls ix : default_columns st -> ls <> [] -> skipped st (join "," (header_of ls ix)) = false.
Proof.
  intros (_ & _ & _ & _ & Sp & Cm) Nl. assert (Hc : char_in "," (join "," (header_of ls ix)) = true) by (apply has_comma; destruct ls; [contradiction|discriminate]).
  assert (L : exists r, join "," (header_of ls ix) = String "e" r) by (unfold header_of; rewrite join_cons by (destruct ls; [contradiction|discriminate]); eexists; reflexivity).
  destruct L as (r & L). unfold skipped. rewrite Sp, Cm, Hc, L. reflexivity.
Qed.

Lemma labels_in_plain l : (forall s, In s l -> plain_label s) -> labels_in l = l.
Proof.
  induction l as [|s l IH]; intros H; [reflexivity|]. unfold labels_in. cbn [flat_map]. fold (labels_in l). rewrite (sanitize_plain s (H s (or_introl eq_refl))).
  destruct (H s (or_introl eq_refl)) as [N _]. destruct (String.eqb_spec s ""); [contradiction|]. rewrite IH by (intros t T; apply H; right; exact T). reflexivity.
Qed.
Lemma filter_all {A} (f : A -> bool) l : (forall a, In a l -> f a = true) -> filter f l = l.
Proof. induction l as [|a l IH]; intros H; [reflexivity|]. cbn [filter]. rewrite (H a (or_introl eq_refl)), IH; [reflexivity|]. intros b B. apply H. right. exact B. Qed.
Lemma with_content_plain l : (forall s, In s l -> plain_label s) -> with_content l = seq 0 (length l).
Proof.
  intros H. unfold with_content. apply filter_all. intros i Hi. apply in_seq in Hi.
  destruct (nth_error l i) eqn:N; [apply content_plain, H; eapply nth_error_In, N|apply nth_error_None in N; lia].
Qed.
Lemma header_reads nt o ls ix st : exact_text nt -> columns_ok ls ix -> default_columns st ->
  exists r, row nt o (rs_start st) (join "," (header_of ls ix)) = (r, Ok false) /\ reading nt ls ix r /\ r_items r = [] /\ r_st r = st.
Proof.
  intros E C D. unfold row. cbn [rs_start r_st r_ci]. rewrite (proj1 (proj2 (proj2 (proj2 (proj2 D))))), (header_split ls ix C).
  assert (X : existsb (not_converted nt (csv_tz st o)) (header_of ls ix) = true).
  { unfold header_of. cbn [existsb]. apply orb_true_intro. left. unfold not_converted. rewrite (sanitize_plain _ epoch_plain). destruct E as (_ & _ & _ & N & T). rewrite N, T. reflexivity. }
  rewrite X. eexists. split; [reflexivity|]. rewrite with_content_plain, labels_in_plain by (intros s; apply (header_plain ls ix s C)).
  split; [|split; reflexivity]. split; try reflexivity; [exact D|]. left. cbn. rewrite app_length, map_length. repeat split.
Qed.

Lemma rows_read nt o ls ix l : exact_text nt -> whole o -> columns_ok ls ix -> forall r, reading nt ls ix r ->
  exists r', rows nt o r (map (line_of nt ls ix) l) = (r', Ok tt) /\ r_items r' = r_items r ++ map (row_of ls ix) l /\ same_settings (r_st r) (r_st r') /\ default_columns (r_st r').
Proof.
  intros E W C. induction l as [|x l IH]; intros r R; cbn [map rows].
  - exists r. rewrite app_nil_r. split; [reflexivity|]. split; [reflexivity|]. split; [repeat split|apply (rd_cols _ _ _ _ R)].
  - rewrite (line_not_skipped (r_st r) nt ls ix x (rd_cols _ _ _ _ R) E (proj1 C)). destruct (row_reads nt o ls ix r x E W C R) as (r1 & Hr & R1 & I1 & S1). unfold sbind. rewrite Hr. cbn [fst snd].
    destruct (IH r1 R1) as (r2 & H2 & I2 & S2 & D2). exists r2. split; [exact H2|]. split; [rewrite I2, I1, <- app_assoc; reflexivity|]. split; [|exact D2].
    destruct S1 as (A1 & A2 & A3 & A4). destruct S2 as (B1 & B2 & B3 & B4). repeat split; congruence.
Qed.
Lemma file_read nt o comments ls ix l st : exact_text nt -> whole o -> columns_ok ls ix -> default_columns st -> (forall t, In t comments -> no_newline t) ->
  exists r', rows nt o (rs_start st) (lines_of (join "" (map (fun s => s ++ end_line)%string (lines_written nt comments ls ix l)))) = (r', Ok tt) /\
    r_items r' = map (row_of ls ix) l /\ same_settings st (r_st r') /\ default_columns (r_st r').
Proof.
  intros E W C D Hc. rewrite lines_join.
  2:{ intros s H. apply in_app_iff in H. destruct H as [H|[<-|H]].
      - apply in_map_iff in H. destruct H as (t & <- & T). intros X. cbn [append chars] in X. destruct X as [X|[X|X]]; [discriminate|discriminate|exact (Hc t T X)].
      - apply join_no_newline. intros s. apply (header_plain ls ix s C).
      - apply in_map_iff in H. destruct H as (x & <- & _). apply join_no_newline. intros s. apply (fields_plain nt ls ix x s E). }
  unfold lines_written. clear Hc. induction comments as [|t comments IH]; cbn [map app].
  - cbn [rows rs_start r_st]. rewrite (header_not_skipped st ls ix D (proj1 C)). destruct (header_reads nt o ls ix st E C D) as (r & Hr & R & I0 & S0). unfold sbind. rewrite Hr. cbn [fst snd].
    destruct (rows_read nt o ls ix l E W C r R) as (r' & H' & I' & S' & D'). exists r'. rewrite I0 in I'. rewrite S0 in S'. split; [exact H'|]. split; [exact I'|]. split; assumption.
  - cbn [rows]. cbn [rs_start r_st] in *. rewrite (comment_skipped st t D). exact IH.
Qed.
