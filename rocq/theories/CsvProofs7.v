(* CsvProofs7.v -- reading again, through the storage left by a reading, gives the same. *)
From Verif Require Import SpecCsv.

(* What a reading can still change in the storage: the time column until it is set, the format while it is automatic, the
   type of the data until the columns are set. *)
Record leads (r : rstate) (F : storage) : Prop := mkLeads {
  ld_cols : st_cols F = st_cols (r_st r) \/ (st_cols (r_st r) = TsAuto /\ r_ts r = None /\ exists l, st_cols F = TsCol (ColL l));
  ld_format : st_format F = st_format (r_st r) \/ (st_format (r_st r) = FAuto /\ (st_format F = FEpoch \/ st_format F = FIso));
  ld_dtype : st_dtype F = st_dtype (r_st r) \/ r_di r = None;
  ld_tz : st_tz F = st_tz (r_st r); ld_labels : st_labels F = st_labels (r_st r); ld_stype : st_stype F = st_stype (r_st r);
  ld_sort : st_sort F = st_sort (r_st r); ld_sep : st_sep F = st_sep (r_st r); ld_comments : st_comments F = st_comments (r_st r);
  ld_skip : st_skip F = st_skip (r_st r) }.
Lemma leads_refl r : leads r (r_st r).
Proof. split; auto. Qed.
(* Only these fields count. *)
Lemma leads_same r r' F : r_st r' = r_st r -> r_ts r' = r_ts r -> r_di r' = r_di r -> leads r F -> leads r' F.
Proof. intros A B C [? ? ? ? ? ? ? ? ? ?]. split; rewrite ?A, ?B, ?C; assumption. Qed.
Lemma rs_st_st r F G : rs_st (rs_st r F) G = rs_st r G. Proof. reflexivity. Qed.
Lemma rs_st_same r : rs_st r (r_st r) = r. Proof. destruct r; reflexivity. Qed.
Lemma storage_eq a b : st_cols a = st_cols b -> st_format a = st_format b -> st_tz a = st_tz b -> st_labels a = st_labels b -> st_dtype a = st_dtype b -> st_stype a = st_stype b ->
  st_sort a = st_sort b -> st_sep a = st_sep b -> st_comments a = st_comments b -> st_skip a = st_skip b -> a = b.
Proof. destruct a, b. cbn. intros. subst. reflexivity. Qed.

Lemma time_columns_again r r1 res F : time_columns r = (r1, res) -> leads r1 F -> time_columns (rs_st r F) = (rs_st r1 F, res) /\ leads r F.
Proof.
  intros T L. unfold time_columns in T. unfold time_columns at 1. cbn [rs_st r_st r_ts r_labels r_time r_date].
  destruct (st_cols (r_st r)) as [|c|ti da] eqn:Ec.
  - destruct (r_ts r) as [i|] eqn:Et.
    + injection T as <- <-. destruct (ld_cols _ _ L) as [X|(_ & X & _)]; [|congruence]. rewrite X, Ec. split; [reflexivity|exact L].
    + assert (Set_ : forall l i, r1 = rs_times (rs_st r (set_cols (r_st r) (TsCol (ColL l)))) (Some i) (r_time r) (r_date r) -> st_cols F = TsCol (ColL l) /\ leads r F).
      { intros l i ->. unfold rs_times, rs_st in L. destruct L as [A1 A2 A3 A4 A5 A6 A7 A8 A9 A10]. cbn [r_st r_ts r_di set_cols st_cols st_format st_dtype st_tz st_labels st_stype st_sort st_sep st_comments st_skip] in *.
        destruct A1 as [A1|(_ & A1 & _)]; [|discriminate]. split; [exact A1|]. split; try assumption. right. split; [exact Ec|]. split; [exact Et|]. exists l. exact A1. }
      assert (Unset : r1 = rs_times r (Some 0) (r_time r) (r_date r) -> st_cols F = TsAuto /\ leads r F).
      { intros ->. destruct L as [A1 A2 A3 A4 A5 A6 A7 A8 A9 A10]. unfold rs_times in *. cbn [r_st r_ts r_di] in *. destruct A1 as [A1|(_ & A1 & _)]; [|discriminate]. rewrite Ec in A1. split; [exact A1|]. split; try assumption. left. congruence. }
      destruct (r_labels r) as [ls|] eqn:El.
      * destruct (index_of "timestamp" ls) as [i|] eqn:I1; [|destruct (index_of "epoch" ls) as [i|] eqn:I2].
        -- injection T as <- <-. destruct (Set_ _ _ eq_refl) as [-> Q]. cbn [find_col]. rewrite I1. split; [reflexivity|exact Q].
        -- injection T as <- <-. destruct (Set_ _ _ eq_refl) as [-> Q]. cbn [find_col]. rewrite I2. split; [reflexivity|exact Q].
        -- injection T as <- <-. destruct (Unset eq_refl) as [-> Q]. split; [reflexivity|exact Q].
      * injection T as <- <-. destruct (Unset eq_refl) as [-> Q]. split; [reflexivity|exact Q].
  - assert (K : r_st r1 = r_st r /\ r_di r1 = r_di r) by (destruct (r_ts r); [|destruct (find_col (r_labels r) c)]; injection T as <- _; split; reflexivity).
    destruct K as [K1 K2]. destruct L as [A1 A2 A3 A4 A5 A6 A7 A8 A9 A10]. rewrite K1, ?K2 in *. destruct A1 as [A1|(A1 & _)]; [|congruence]. rewrite A1, Ec.
    split; [|split; auto]. destruct (r_ts r) eqn:Et; [injection T as <- <-; reflexivity|]. destruct (find_col (r_labels r) c); injection T as <- <-; reflexivity.
  - assert (K : r_st r1 = r_st r /\ r_di r1 = r_di r) by (destruct (find_part (r_labels r) (r_time r) ti) as [a|]; [destruct (find_part (r_labels r) (r_date r) da) as [b|]; [destruct a, b|]|]; injection T as <- _; split; reflexivity).
    destruct K as [K1 K2]. destruct L as [A1 A2 A3 A4 A5 A6 A7 A8 A9 A10]. rewrite K1, ?K2 in *. destruct A1 as [A1|(A1 & _)]; [|congruence]. rewrite A1, Ec.
    split; [|split; auto]. destruct (find_part (r_labels r) (r_time r) ti) as [a|]; [destruct (find_part (r_labels r) (r_date r) da) as [b|]; [destruct a, b|]|]; injection T as <- <-; reflexivity.
Qed.

Lemma parse_time_again nt tz r s st' t F : parse_time nt tz (r_st r) s = (st', t) -> leads (rs_st r st') F -> r_ts r <> None \/ st_cols (r_st r) <> TsAuto ->
  parse_time nt tz F s = (F, t) /\ leads r F.
Proof.
  intros P L Hts. destruct L as [A1 A2 A3 A4 A5 A6 A7 A8 A9 A10]. unfold rs_st in *. cbn [r_st r_ts r_di] in *. unfold parse_time in P.
  destruct s as [s|]; [|injection P as <- <-; split; [reflexivity|split; auto]].
  assert (C : st_cols st' = st_cols (r_st r)) by (destruct (st_cols (r_st r)) as [| |[[]|] [[]|]] eqn:Ec; destruct (st_format (r_st r)); try destruct (nt_float nt s); try destruct (nt_dt nt tz s); injection P as <- _; try exact Ec; cbn [set_format st_cols]; exact Ec).
  rewrite C in A1. assert (A1' : st_cols F = st_cols (r_st r)) by (destruct A1 as [A1|(X & Y & _)]; [exact A1|destruct Hts; contradiction]).
  assert (K : st_tz st' = st_tz (r_st r) /\ st_labels st' = st_labels (r_st r) /\ st_stype st' = st_stype (r_st r) /\ st_sort st' = st_sort (r_st r) /\ st_sep st' = st_sep (r_st r) /\ st_comments st' = st_comments (r_st r) /\ st_skip st' = st_skip (r_st r) /\ st_dtype st' = st_dtype (r_st r)).
  { destruct (st_cols (r_st r)) as [| |[[]|] [[]|]]; destruct (st_format (r_st r)); try destruct (nt_float nt s); try destruct (nt_dt nt tz s); injection P as <- _; repeat split. }
  destruct K as (K1 & K2 & K3 & K4 & K5 & K6 & K7 & K8). rewrite K1, K2, K3, K4, K5, K6, K7, K8 in *.
  assert (Fm : forall f, f = st_format (r_st r) ->
    match f with
    | FAuto => match nt_float nt s with Some t => (set_format (r_st r) FEpoch, Some t) | None => match nt_dt nt tz s with Some t => (set_format (r_st r) FIso, Some t) | None => (r_st r, None) end end
    | FEpoch => (r_st r, nt_float nt s) | FIso => (r_st r, nt_dt nt tz s) | FCustom f => (r_st r, nt_strp nt f tz s) end = (st', t) ->
    (match st_format F with
     | FAuto => match nt_float nt s with Some t => (set_format F FEpoch, Some t) | None => match nt_dt nt tz s with Some t => (set_format F FIso, Some t) | None => (F, None) end end
     | FEpoch => (F, nt_float nt s) | FIso => (F, nt_dt nt tz s) | FCustom f => (F, nt_strp nt f tz s) end = (F, t)) /\ leads r F).
  { intros f -> Q. destruct (st_format (r_st r)) as [| | |f] eqn:Ef.
    - destruct (nt_float nt s) as [v|] eqn:N1; [|destruct (nt_dt nt tz s) as [v|] eqn:N2].
      + injection Q as <- <-. cbn [set_format st_format] in A2. destruct A2 as [A2|(X & _)]; [|discriminate]. rewrite A2, ?N1. split; [reflexivity|]. split; auto.
      + injection Q as <- <-. cbn [set_format st_format] in A2. destruct A2 as [A2|(X & _)]; [|discriminate]. rewrite A2, ?N2. split; [reflexivity|]. split; auto.
      + injection Q as <- <-. rewrite Ef in A2. split; [|split; auto; rewrite Ef; exact A2]. destruct A2 as [A2|(_ & [A2|A2])]; rewrite A2, ?N1, ?N2; reflexivity.
    - injection Q as <- <-. rewrite Ef in A2. destruct A2 as [A2|(X & _)]; [|discriminate]. rewrite A2. split; [reflexivity|]. split; auto. left. congruence.
    - injection Q as <- <-. rewrite Ef in A2. destruct A2 as [A2|(X & _)]; [|discriminate]. rewrite A2. split; [reflexivity|]. split; auto. left. congruence.
    - injection Q as <- <-. rewrite Ef in A2. destruct A2 as [A2|(X & _)]; [|discriminate]. rewrite A2. split; [reflexivity|]. split; auto. left. congruence. }
  unfold parse_time. rewrite A1'. destruct (st_cols (r_st r)) as [|c|[[tc tf]|] [[dc df]|]] eqn:Ec.
  - apply (Fm (st_format (r_st r))); [reflexivity|exact P].
  - apply (Fm (st_format (r_st r))); [reflexivity|exact P].
  - injection P as <- <-. split; [reflexivity|]. split; auto. left. congruence.
  - injection P as <- <-. split; [reflexivity|]. split; auto. left. congruence.
  - injection P as <- <-. split; [reflexivity|]. split; auto. left. congruence.
  - apply (Fm (st_format (r_st r))); [reflexivity|exact P].
Qed.

Lemma time_columns_set r r1 : time_columns r = (r1, Ok tt) -> r_ts r1 <> None \/ st_cols (r_st r1) <> TsAuto.
Proof.
  unfold time_columns. destruct (st_cols (r_st r)) as [|c|ti da] eqn:Ec.
  - destruct (r_ts r) as [i|] eqn:Et; [intros H; injection H as <-; left; rewrite Et; discriminate|].
    intros H. left. destruct (r_labels r) as [ls|]; [destruct (index_of "timestamp" ls); [|destruct (index_of "epoch" ls)]|]; injection H as <-; unfold rs_times; cbn [r_ts]; discriminate.
  - intros H. right. destruct (r_ts r); [|destruct (find_col (r_labels r) c); [|discriminate]]; injection H as <-; unfold rs_times; cbn [r_st]; rewrite Ec; discriminate.
  - intros H. right. destruct (find_part (r_labels r) (r_time r) ti) as [a|]; [|discriminate]. destruct (find_part (r_labels r) (r_date r) da) as [b|]; [|discriminate].
    destruct a, b; try discriminate; injection H as <-; unfold rs_times; cbn [r_st]; rewrite Ec; discriminate.
Qed.

Lemma set_dtype_same F : st_dtype F = TList -> set_dtype F TList = F.
Proof. destruct F. cbn. intros ->. reflexivity. Qed.
Lemma data_columns_again o r r1 res F : data_columns o r = (r1, res) -> leads r1 F -> data_columns o (rs_st r F) = (rs_st r1 F, res) /\ leads r F.
Proof.
  intros T L. unfold data_columns in T |- *. cbn [rs_st r_st r_ts r_labels r_time r_date r_ci r_di]. rewrite !rs_st_st.
  destruct (r_di r) as [di0|] eqn:Ed; [injection T as <- <-; split; [reflexivity|exact L]|].
  assert (Lr : forall r', leads r' F -> r_ts r' = r_ts r -> (r_st r' = r_st r \/ r_st r' = set_dtype (r_st r) TList) -> leads r F).
  { intros r' [A1 A2 A3 A4 A5 A6 A7 A8 A9 A10] B [E|E]; rewrite E, ?B in *; cbn [set_dtype st_cols st_format st_tz st_labels st_stype st_sort st_sep st_comments st_skip] in *; split; auto. }
  assert (Lb : st_labels F = st_labels (r_st r)).
  { assert (X : st_labels (r_st r1) = st_labels (r_st r)); [|rewrite (ld_labels _ _ L); exact X].
    destruct (match o_filter o with [] => st_labels (r_st r) | f => WCols f end) as [|l]; [|destruct (only_ints l)].
    - destruct (do a <- remove_opt (r_ts r) (r_ci r); do b <- remove_opt (r_time r) a; remove_opt (r_date r) b) as [di|]; [|injection T as <- _; reflexivity].
      destruct (r_labels r) as [[|h0 ls]|]; [|destruct (mapM _ di)|]; injection T as <- _; reflexivity.
    - unfold rs_st in T. cbn [r_labels] in T. destruct (r_labels r) as [[|h0 ls]|]; [|destruct (mapM _ _)|]; injection T as <- _; reflexivity.
    - destruct (r_labels r) as [[|h0 ls]|]; [injection T as <- _; reflexivity| |injection T as <- _; reflexivity]. destruct (mapM (label_position (h0 :: ls)) l) as [di|]; [|injection T as <- _; reflexivity]. destruct (mapM _ di); injection T as <- _; reflexivity. }
  rewrite Lb. destruct (match o_filter o with [] => st_labels (r_st r) | f => WCols f end) as [|l].
  - destruct (do a <- remove_opt (r_ts r) (r_ci r); do b <- remove_opt (r_time r) a; remove_opt (r_date r) b) as [di|]; [|injection T as <- <-; split; [reflexivity|exact L]].
    destruct (r_labels r) as [[|h0 ls]|]; [|destruct (mapM _ di)|]; injection T as <- <-; (split; [reflexivity|]); eapply Lr; [exact L|reflexivity|left; reflexivity|exact L|reflexivity|left; reflexivity|exact L|reflexivity|left; reflexivity|exact L|reflexivity|left; reflexivity].
  - destruct (only_ints l) as [is|].
    + assert (Dt : st_dtype F = TList /\ leads r F).
      { assert (X : r_st r1 = set_dtype (r_st r) TList /\ r_di r1 <> None /\ r_ts r1 = r_ts r).
        { unfold rs_st in T. cbn [r_labels] in T. destruct (r_labels r) as [[|h0 ls]|]; [|destruct (mapM _ _)|]; injection T as <- _; (split; [reflexivity|split; [discriminate|reflexivity]]). }
        destruct X as (X1 & X2 & X3). split; [|apply (Lr r1 L X3); right; exact X1]. destruct (ld_dtype _ _ L) as [Y|Y]; [rewrite Y, X1; reflexivity|contradiction]. }
      destruct Dt as [Dt Lf]. split; [|exact Lf]. rewrite (set_dtype_same F Dt). unfold rs_st in T |- *. cbn [r_labels] in *. destruct (r_labels r) as [[|h0 ls]|]; [|destruct (mapM _ _)|]; injection T as <- <-; reflexivity.
    + destruct (r_labels r) as [[|h0 ls]|]; [injection T as <- <-; split; [reflexivity|exact L]| |injection T as <- <-; split; [reflexivity|exact L]].
      destruct (mapM (label_position (h0 :: ls)) l) as [di|]; [|injection T as <- <-; split; [reflexivity|exact L]].
      destruct (mapM _ di); injection T as <- <-; (split; [reflexivity|]); eapply Lr; [exact L|reflexivity|left; reflexivity|exact L|reflexivity|left; reflexivity].
Qed.

Lemma data_columns_done o r r1 : data_columns o r = (r1, Ok tt) -> exists di, r_di r1 = Some di.
Proof.
  unfold data_columns. destruct (r_di r) as [di|] eqn:E; [intros H; injection H as <-; exists di; exact E|].
  destruct (match o_filter o with [] => st_labels (r_st r) | f => WCols f end) as [|l].
  - destruct (do a <- remove_opt (r_ts r) (r_ci r); do b <- remove_opt (r_time r) a; remove_opt (r_date r) b) as [di|]; [|discriminate].
    destruct (r_labels r) as [[|h0 ls]|]; [|destruct (mapM _ di)|]; intros H; try discriminate; injection H as <-; exists di; reflexivity.
  - destruct (only_ints l) as [is|].
    + unfold rs_st. cbn [r_labels]. destruct (r_labels r) as [[|h0 ls]|]; [|destruct (mapM _ _)|]; intros H; try discriminate; injection H as <-; exists is; reflexivity.
    + destruct (r_labels r) as [[|h0 ls]|]; [discriminate| |discriminate]. destruct (mapM (label_position (h0 :: ls)) l) as [di|]; [|discriminate]. destruct (mapM _ di); intros H; try discriminate; injection H as <-; exists di; reflexivity.
Qed.
Lemma data_row_again nt o r fields r' res F : data_row nt o r fields = (r', res) -> leads r' F -> data_row nt o (rs_st r F) fields = (rs_st r' F, res) /\ leads r F.
Proof.
  intros D L. unfold data_row in D |- *. unfold sbind in D at 1. unfold sbind at 1.
  destruct (time_columns r) as [r1 rt] eqn:T. cbn [fst snd] in D.
  assert (Tz : forall x, st_tz F = st_tz x -> csv_tz F o = csv_tz x o) by (intros x H; unfold csv_tz; destruct (o_tz o); [reflexivity|exact H]).
  assert (Z1 : st_tz (r_st r1) = st_tz (r_st r)).
  { unfold time_columns in T. destruct (st_cols (r_st r)) as [|c|ti da].
    - destruct (r_ts r); [injection T as <- _; reflexivity|]. destruct (r_labels r) as [ls|]; [destruct (index_of "timestamp" ls); [|destruct (index_of "epoch" ls)]|]; injection T as <- _; reflexivity.
    - destruct (r_ts r); [|destruct (find_col (r_labels r) c)]; injection T as <- _; reflexivity.
    - destruct (find_part (r_labels r) (r_time r) ti) as [a|]; [destruct (find_part (r_labels r) (r_date r) da) as [b|]; [destruct a, b|]|]; injection T as <- _; reflexivity. }
  destruct rt as [[]|x]; [|injection D as <- <-; destruct (time_columns_again r r1 _ F T L) as [-> Q]; split; [reflexivity|exact Q]].
  destruct (timestamp_text r1 fields) as [s|x] eqn:Tx.
  2:{ injection D as <- <-. destruct (time_columns_again r r1 _ F T L) as [-> Q]. cbn [fst snd]. replace (timestamp_text (rs_st r1 F) fields) with (timestamp_text r1 fields) by reflexivity. rewrite Tx. split; [reflexivity|exact Q]. }
  destruct (parse_time nt (csv_tz (r_st r) o) (r_st r1) s) as [st' t] eqn:P.
  (* it is enough to go back from the state after the timestamp *)
  assert (G' : leads (rs_st r1 st') F -> parse_time nt (csv_tz (r_st (rs_st r F)) o) (r_st (rs_st r1 F)) s = (F, t) /\ time_columns (rs_st r F) = (rs_st r1 F, Ok tt) /\ leads r F).
  { intros L1. destruct (parse_time_again nt _ r1 s st' t F P L1 (time_columns_set r r1 T)) as [P' L']. destruct (time_columns_again r r1 _ F T L') as [Q3 Q4].
    split; [|split; [exact Q3|exact Q4]]. cbn [rs_st r_st]. rewrite (Tz (r_st r)) by (rewrite <- Z1; exact (ld_tz _ _ L')). exact P'. }
  assert (Sk : forall r0, leads r0 F -> r_st r0 = st' -> st_skip F = st_skip st') by (intros r0 L0 <-; exact (ld_skip _ _ L0)).
  destruct t as [t|].
  2:{ assert (L1 : leads (rs_st r1 st') F) by (destruct (st_skip st'); injection D as <- _; exact L).
      destruct (G' L1) as (Q1 & Q2 & Q3). rewrite Q2. cbn [fst snd]. replace (timestamp_text (rs_st r1 F) fields) with (timestamp_text r1 fields) by reflexivity. rewrite Tx, Q1.
      rewrite (Sk _ L1 eq_refl). split; [|exact Q3]. destruct (st_skip st'); injection D as <- <-; reflexivity. }
  unfold sbind in D. destruct (data_columns o (rs_st r1 st')) as [r3 rd] eqn:C. cbn [fst snd] in D.
  assert (G2 : leads r3 F -> (data_columns o (rs_st r1 F) = (rs_st r3 F, rd)) /\ parse_time nt (csv_tz (r_st (rs_st r F)) o) (r_st (rs_st r1 F)) s = (F, Some t) /\ time_columns (rs_st r F) = (rs_st r1 F, Ok tt) /\ leads r F).
  { intros L3. destruct (data_columns_again o _ r3 rd F C L3) as [Q1 Q2]. split; [exact Q1|]. exact (G' Q2). }
  assert (L3 : leads r3 F).
  { destruct rd as [[]|]; [|injection D as <- _; exact L]. assert (E : r_st r' = r_st r3 /\ r_ts r' = r_ts r3 /\ r_di r' = r_di r3).
    { assert (E4 : r_st (set_data_type r3) = r_st r3 /\ r_ts (set_data_type r3) = r_ts r3 /\ r_di (set_data_type r3) = r_di r3) by (unfold set_data_type; destruct (r_dtype r3); repeat split).
      destruct (row_data nt (set_data_type r3) fields) as [d|x]; [injection D as <- _; exact E4|]. destruct x; try (injection D as <- _; exact E4); destruct (st_skip (r_st (set_data_type r3))); injection D as <- _; exact E4. }
    destruct E as (E1 & E2 & E3). apply (leads_same r' r3); [symmetry; exact E1|symmetry; exact E2|symmetry; exact E3|exact L]. }
  destruct (G2 L3) as (Q1 & Q2 & Q3 & Q4). split; [|exact Q4]. rewrite Q3. cbn [fst snd]. replace (timestamp_text (rs_st r1 F) fields) with (timestamp_text r1 fields) by reflexivity. rewrite Tx, Q2.
  unfold sbind. rewrite rs_st_st, Q1. cbn [fst snd]. destruct rd as [[]|x]; [|injection D as <- <-; reflexivity].
  destruct (data_columns_done o (rs_st r1 st') r3 C) as [di Hdi].
  assert (S4 : set_data_type (rs_st r3 F) = rs_st (set_data_type r3) F).
  { unfold set_data_type. cbn [rs_st r_dtype]. destruct (r_dtype r3) eqn:Dt; [reflexivity|]. cbn [rs_st r_st r_names]. destruct (ld_dtype _ _ L3) as [X|X]; [|congruence]. rewrite X. reflexivity. }
  rewrite S4. replace (row_data nt (rs_st (set_data_type r3) F) fields) with (row_data nt (set_data_type r3) fields) by reflexivity.
  assert (Sk4 : st_skip (r_st (rs_st (set_data_type r3) F)) = st_skip (r_st (set_data_type r3))) by (cbn [rs_st r_st]; rewrite (ld_skip _ _ L3); unfold set_data_type; destruct (r_dtype r3); reflexivity).
  rewrite Sk4. destruct (row_data nt (set_data_type r3) fields) as [d|x]; [injection D as <- <-; reflexivity|]. destruct x; try (injection D as <- <-; reflexivity); destruct (st_skip (r_st (set_data_type r3))); injection D as <- <-; reflexivity.
Qed.

Lemma row_again nt o r l r' res F : row nt o r l = (r', res) -> leads r' F -> row nt o (rs_st r F) l = (rs_st r' F, res) /\ leads r F.
Proof.
  intros D L. unfold row in D |- *. cbn [rs_st r_st r_ci r_labels].
  destruct (r_ci r) as [|c0 c1] eqn:Ci; [|destruct (data_row_again nt o r _ r' res F D L) as [Q1 Q2]; rewrite (ld_sep _ _ Q2); split; [exact Q1|exact Q2]].
  assert (Tz : leads r F -> csv_tz F o = csv_tz (r_st r) o) by (intros H; unfold csv_tz; destruct (o_tz o); [reflexivity|exact (ld_tz _ _ H)]).
  destruct (existsb (not_converted nt (csv_tz (r_st r) o)) (split_on (st_sep (r_st r)) l)) eqn:Ex.
  - injection D as <- <-. assert (Lr : leads r F) by (apply (leads_same _ r F) in L; [exact L| | |]; reflexivity). rewrite (ld_sep _ _ Lr), (Tz Lr), Ex. split; [reflexivity|exact Lr].
  - destruct (data_row_again nt o _ _ r' res F D L) as [Q1 Q2]. assert (Lr : leads r F) by (apply (leads_same _ r F) in Q2; [exact Q2| | |]; reflexivity). rewrite (ld_sep _ _ Lr), (Tz Lr), Ex. split; [exact Q1|exact Lr].
Qed.

Lemma rows_again nt o ls r r' res : rows nt o r ls = (r', res) -> rows nt o (rs_st r (r_st r')) ls = (r', res) /\ leads r (r_st r').
Proof.
  revert r. induction ls as [|l ls IH]; intros r H; cbn [rows] in H |- *.
  - injection H as <- <-. rewrite rs_st_same. split; [reflexivity|apply leads_refl].
  - assert (Sk : leads r (r_st r') -> skipped (r_st (rs_st r (r_st r'))) l = skipped (r_st r) l) by (intros L; unfold skipped; cbn [rs_st r_st]; rewrite (ld_comments _ _ L), (ld_sep _ _ L); reflexivity).
    destruct (skipped (r_st r) l).
    + destruct (IH r H) as [Q1 Q2]. rewrite (Sk Q2). split; [exact Q1|exact Q2].
    + unfold sbind in H. destruct (row nt o r l) as [r1 [stop|x]] eqn:R; cbn [fst snd] in H.
      * destruct stop.
        -- injection H as <- <-. destruct (row_again nt o r l r1 _ _ R (leads_refl r1)) as [Q1 Q2]. rewrite (Sk Q2). unfold sbind. rewrite Q1. cbn [fst snd]. rewrite rs_st_same. split; [reflexivity|exact Q2].
        -- destruct (IH r1 H) as [I1 I2]. destruct (row_again nt o r l r1 _ _ R I2) as [Q1 Q2]. rewrite (Sk Q2). unfold sbind. rewrite Q1. cbn [fst snd]. split; [exact I1|exact Q2].
      * injection H as <- <-. destruct (row_again nt o r l r1 _ _ R (leads_refl r1)) as [Q1 Q2]. rewrite (Sk Q2). unfold sbind. rewrite Q1. cbn [fst snd]. rewrite rs_st_same. split; [reflexivity|exact Q2].
Qed.
Lemma get_again fuel nt k e c o st file st1 r : csv_get fuel nt k e c o st file = (st1, r) -> csv_get fuel nt k e c o st1 file = (st1, r).
Proof.
  unfold csv_get. destruct (o_points o && o_slots o); [intros H; injection H as <- <-; reflexivity|]. destruct file as [txt|]; [|intros H; injection H as <- <-; reflexivity].
  destruct (rows nt o (rs_start st) (lines_of txt)) as [r' res] eqn:R. intros H. injection H as <- <-. destruct (rows_again nt o _ _ r' res R) as [Q _].
  change (rs_start (r_st r')) with (rs_st (rs_start st) (r_st r')). rewrite Q. reflexivity.
Qed.
