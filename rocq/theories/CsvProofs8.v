(* CsvProofs8.v -- reading with a limit, and the lines which are ignored. *)
From Verif Require Import SpecCsv BaseLemmas SeriesProofs3 AccessProofs OpsProofs CsvProofs CsvProofs4 CsvProofs7.

(* ---- the rows are only added ---- *)
Lemma time_columns_items r r1 res : time_columns r = (r1, res) -> r_items r1 = r_items r /\ r_count r1 = r_count r.
Proof.
  unfold time_columns. destruct (st_cols (r_st r)) as [|c|ti da].
  - destruct (r_ts r); [intros T; injection T as <- _; split; reflexivity|]. intros T. destruct (r_labels r) as [ls|]; [destruct (index_of "timestamp" ls); [|destruct (index_of "epoch" ls)]|]; injection T as <- _; split; reflexivity.
  - intros T. destruct (r_ts r); [|destruct (find_col (r_labels r) c)]; injection T as <- _; split; reflexivity.
  - intros T. destruct (find_part (r_labels r) (r_time r) ti) as [a|]; [destruct (find_part (r_labels r) (r_date r) da) as [b|]; [destruct a, b|]|]; injection T as <- _; split; reflexivity.
Qed.
Lemma data_columns_items o r r1 res : data_columns o r = (r1, res) -> r_items r1 = r_items r /\ r_count r1 = r_count r.
Proof.
  unfold data_columns. intros T. destruct (r_di r); [injection T as <- _; split; reflexivity|].
  destruct (match o_filter o with [] => st_labels (r_st r) | f => WCols f end) as [|l].
  - destruct (do a <- remove_opt (r_ts r) (r_ci r); do b <- remove_opt (r_time r) a; remove_opt (r_date r) b) as [di|]; [|injection T as <- _; split; reflexivity].
    destruct (r_labels r) as [[|h0 ls]|]; [|destruct (mapM _ di)|]; injection T as <- _; split; reflexivity.
  - destruct (only_ints l) as [is|].
    + unfold rs_st in T. cbn [r_labels] in T. destruct (r_labels r) as [[|h0 ls]|]; [|destruct (mapM _ _)|]; injection T as <- _; split; reflexivity.
    + destruct (r_labels r) as [[|h0 ls]|]; [injection T as <- _; split; reflexivity| |injection T as <- _; split; reflexivity]. destruct (mapM (label_position (h0 :: ls)) l) as [di|]; [|injection T as <- _; split; reflexivity]. destruct (mapM _ di); injection T as <- _; split; reflexivity.
Qed.
Lemma set_data_type_items r : r_items (set_data_type r) = r_items r /\ r_count (set_data_type r) = r_count r.
Proof. unfold set_data_type. destruct (r_dtype r); split; reflexivity. Qed.

(* A row adds nothing, or an item; it tells to stop only in the second case and if there is a limit, which changes nothing else. *)
Lemma data_row_limit nt o n r fields r' b : data_row nt o r fields = (r', Ok b) ->
  exists l, r_items r' = r_items r ++ l /\ r_count r' = r_count r + length l /\ (o_limit o = 0 -> b = false) /\
    (0 < n -> data_row nt (with_limit o n) r fields = (r', Ok (match l with [] => false | _ => Nat.leb n (r_count r') end))).
Proof.
  intros D. unfold data_row in D |- *. change (csv_tz (r_st r) (with_limit o n)) with (csv_tz (r_st r) o). unfold sbind in D at 1. unfold sbind at 1.
  destruct (time_columns r) as [r1 [[]|x]] eqn:T; cbn [fst snd] in D |- *; [|discriminate]. destruct (time_columns_items r r1 _ T) as [I1 C1].
  destruct (timestamp_text r1 fields) as [s|x]; [|discriminate]. destruct (parse_time nt (csv_tz (r_st r) o) (r_st r1) s) as [st' [t|]].
  2:{ destruct (st_skip st'); [|discriminate]. injection D as <- <-. exists []. rewrite app_nil_r, Nat.add_0_r. cbn [rs_st r_items r_count]. repeat split; auto. }
  change (data_columns (with_limit o n) (rs_st r1 st')) with (data_columns o (rs_st r1 st')). unfold sbind in D |- *.
  destruct (data_columns o (rs_st r1 st')) as [r3 [[]|x]] eqn:C; cbn [fst snd] in D |- *; [|discriminate]. destruct (data_columns_items o _ r3 _ C) as [I3 C3]. cbn [rs_st r_items r_count] in I3, C3.
  destruct (set_data_type_items r3) as [I4 C4]. destruct (row_data nt (set_data_type r3) fields) as [d|x].
  - injection D as <- <-. exists [(t, d)]. unfold rs_item. cbn [r_items r_count length]. rewrite I4, C4, I3, C3, I1, C1. split; [reflexivity|]. split; [lia|].
    split; [intros ->; reflexivity|]. intros Hn. cbn [with_limit o_limit]. destruct (Nat.eqb_spec n 0); [lia|]. reflexivity.
  - assert (Q : (if st_skip (r_st (set_data_type r3)) then (set_data_type r3, Ok false) else (set_data_type r3, Err GenericException)) = (r', Ok b) -> exists l, r_items r' = r_items r ++ l /\ r_count r' = r_count r + length l /\ (o_limit o = 0 -> b = false) /\
      (0 < n -> (if st_skip (r_st (set_data_type r3)) then (set_data_type r3, Ok false) else (set_data_type r3, Err GenericException)) = (r', Ok (match l with [] => false | _ => Nat.leb n (r_count r') end)))).
    { destruct (st_skip (r_st (set_data_type r3))); [|discriminate]. intros X. injection X as <- <-. exists []. rewrite app_nil_r, Nat.add_0_r, I4, C4, I3, C3, I1, C1. repeat split; auto. }
    destruct x; try discriminate; apply Q, D.
Qed.
Lemma row_limit nt o n r l r' b : row nt o r l = (r', Ok b) ->
  exists l', r_items r' = r_items r ++ l' /\ r_count r' = r_count r + length l' /\ (o_limit o = 0 -> b = false) /\
    (0 < n -> row nt (with_limit o n) r l = (r', Ok (match l' with [] => false | _ => Nat.leb n (r_count r') end))).
Proof.
  unfold row. destruct (r_ci r) as [|c0 c1]; [|apply data_row_limit]. change (csv_tz (r_st r) (with_limit o n)) with (csv_tz (r_st r) o). destruct (existsb _ _).
  - intros D. injection D as <- <-. exists []. rewrite app_nil_r, Nat.add_0_r. repeat split; auto.
  - intros D. apply (data_row_limit nt o n) in D. exact D.
Qed.
Lemma rows_grow nt o ls r r' res : rows nt o r ls = (r', res) -> exists l, r_items r' = r_items r ++ l.
Proof.
  revert r. induction ls as [|l ls IH]; intros r H; cbn [rows] in H; [injection H as <- _; exists []; rewrite app_nil_r; reflexivity|]. destruct (skipped (r_st r) l); [exact (IH r H)|].
  unfold sbind in H. destruct (row nt o r l) as [r1 [stop|x]] eqn:R; cbn [fst snd] in H.
  - destruct (row_limit nt o 0 r l r1 stop R) as (l1 & I1 & _). destruct stop; [injection H as <- _; exists l1; exact I1|]. destruct (IH r1 H) as (l2 & I2). exists (l1 ++ l2). rewrite I2, I1, app_assoc. reflexivity.
  - injection H as <- _. clear IH. unfold row in R.
    assert (G : forall r fields r1, data_row nt o r fields = (r1, Err x) -> r_items r1 = r_items r).
    { clear. intros r fields r' D. unfold data_row in D. unfold sbind in D at 1.
      destruct (time_columns r) as [r1 [[]|y]] eqn:T; cbn [fst snd] in D; destruct (time_columns_items r r1 _ T) as [I1 C1]; [|injection D as <- _; exact I1].
      destruct (timestamp_text r1 fields) as [s|y]; [|injection D as <- _; exact I1]. destruct (parse_time nt (csv_tz (r_st r) o) (r_st r1) s) as [st' [t|]]; [|destruct (st_skip st'); [discriminate|injection D as <- _; exact I1]].
      unfold sbind in D. destruct (data_columns o (rs_st r1 st')) as [r3 [[]|y]] eqn:C; cbn [fst snd] in D; destruct (data_columns_items o _ r3 _ C) as [I3 C3]; cbn [rs_st r_items] in I3; [|injection D as <- _; congruence].
      destruct (set_data_type_items r3) as [I4 _]. destruct (row_data nt (set_data_type r3) fields) as [d|y]; [discriminate|]. destruct y; try (injection D as <- _; congruence); destruct (st_skip (r_st (set_data_type r3))); try discriminate; injection D as <- _; congruence. }
    exists []. rewrite app_nil_r. destruct (r_ci r); [|exact (G _ _ _ R)]. destruct (existsb _ _); [discriminate|]. exact (G _ _ _ R).
Qed.
Lemma rows_limit nt o n ls r rz : o_limit o = 0 -> r_count r = length (r_items r) -> r_count r < n -> rows nt o r ls = (rz, Ok tt) ->
  exists r', rows nt (with_limit o n) r ls = (r', Ok tt) /\ r_items r' = firstn n (r_items rz) /\ leads r (r_st r').
Proof.
  intros Ol. revert r. induction ls as [|l ls IH]; intros r Cn Hn H; cbn [rows] in H |- *.
  - injection H as <-. exists r. split; [reflexivity|]. split; [|apply leads_refl]. rewrite firstn_all2; [reflexivity|lia].
  - destruct (skipped (r_st r) l); [exact (IH r Cn Hn H)|].
    unfold sbind in H |- *. destruct (row nt o r l) as [r1 [stop|x]] eqn:R; cbn [fst snd] in H; [|discriminate].
    destruct (row_limit nt o n r l r1 stop R) as (l1 & I1 & C1 & B1 & E1). rewrite (B1 Ol) in *. rewrite (E1 ltac:(lia)). cbn [fst snd].
    assert (Ld : forall F, leads r1 F -> leads r F) by (intros F; apply (row_again nt o r l r1 _ F R)).
    assert (Cn1 : r_count r1 = length (r_items r1)) by (rewrite I1, app_length, C1, Cn; reflexivity).
    assert (G : (r_count r1 < n) -> exists r', rows nt (with_limit o n) r1 ls = (r', Ok tt) /\ r_items r' = firstn n (r_items rz) /\ leads r (r_st r')).
    { intros Hl. destruct (IH r1 Cn1 Hl H) as (r' & A & B & D). exists r'. split; [exact A|]. split; [exact B|]. apply Ld, D. }
    destruct l1 as [|x l1]; [apply G; cbn [length] in C1; lia|]. destruct (Nat.leb_spec n (r_count r1)) as [Q|Q]; [|apply G, Q].
    exists r1. split; [reflexivity|]. split; [|apply Ld, leads_refl]. destruct (rows_grow nt o ls r1 rz _ H) as (l2 & I2). rewrite I2.
    assert (Hl : n = length (r_items r1)).
    { rewrite I1, app_length in Cn1. assert (length (x :: l1) = 1); [|rewrite I1, app_length; lia]. clear - R I1. unfold row in R.
      assert (G : forall r fields r1, data_row nt o r fields = (r1, Ok false) -> r_items r1 = r_items r \/ exists y, r_items r1 = r_items r ++ [y]).
      { clear. intros r fields r' D. unfold data_row in D. unfold sbind in D at 1.
        destruct (time_columns r) as [r1 [[]|y]] eqn:T; cbn [fst snd] in D; destruct (time_columns_items r r1 _ T) as [I1 C1]; [|discriminate].
        destruct (timestamp_text r1 fields) as [s|y]; [|discriminate]. destruct (parse_time nt (csv_tz (r_st r) o) (r_st r1) s) as [st' [t|]]; [|destruct (st_skip st'); [injection D as <-; left; exact I1|discriminate]].
        unfold sbind in D. destruct (data_columns o (rs_st r1 st')) as [r3 [[]|y]] eqn:C; cbn [fst snd] in D; destruct (data_columns_items o _ r3 _ C) as [I3 C3]; cbn [rs_st r_items] in I3; [|discriminate].
        destruct (set_data_type_items r3) as [I4 _]. destruct (row_data nt (set_data_type r3) fields) as [d|y]; [injection D as <- _; right; exists (t, d); unfold rs_item; cbn [r_items]; congruence|]. destruct y; try discriminate; destruct (st_skip (r_st (set_data_type r3))); try discriminate; injection D as <-; left; congruence. }
      assert (Y : r_items r1 = r_items r \/ exists y, r_items r1 = r_items r ++ [y]) by (destruct (r_ci r); [destruct (existsb _ _); [injection R as <-; left; reflexivity|exact (G _ _ _ R)]|exact (G _ _ _ R)]).
      rewrite I1 in Y. destruct Y as [Y|(y & Y)]; [rewrite <- app_nil_r in Y; apply app_inv_head in Y; discriminate|]. apply app_inv_head in Y. rewrite Y. reflexivity. }
    rewrite firstn_app, Hl, Nat.sub_diag, firstn_all. cbn [firstn]. rewrite app_nil_r. reflexivity.
Qed.

Lemma build_points_firstn e tz l s s' n : build_points e tz false s l = Ok s' -> exists s'', build_points e tz false s (firstn n l) = Ok s'' /\ s_items s'' = s_items s ++ map (row_point tz) (firstn n l).
Proof.
  revert s n. induction l as [|x l IH]; intros s n H.
  - rewrite firstn_nil. exists s. split; [reflexivity|]. cbn [map]. rewrite app_nil_r. reflexivity.
  - destruct n as [|n]; [exists s; split; [reflexivity|cbn [firstn map]; rewrite app_nil_r; reflexivity]|]. cbn [firstn build_points map] in *. destruct (ts_append e s (row_point tz x)) as [s1 [[]|err]] eqn:A; [|discriminate].
    destruct (IH s1 n H) as (s2 & B & I). exists s2. split; [exact B|]. rewrite I. assert (A' : append_or_raise e s (row_point tz x) = Ok s1) by (apply append_or_raise_ok; exact A).
    rewrite (foldM_append_items e [row_point tz x] s s1) by (cbn [foldM]; rewrite A'; reflexivity). rewrite <- app_assoc. reflexivity.
Qed.
Lemma build_points_items e tz l s s' : build_points e tz false s l = Ok s' -> s_items s' = s_items s ++ map (row_point tz) l.
Proof. intros H. destruct (build_points_firstn e tz l s s' (length l) H) as (s2 & B & I). rewrite firstn_all in *. rewrite H in B. injection B as <-. exact I. Qed.

Lemma get_limit fuel nt k e c o st txt n st1 s : o_limit o = 0 -> 0 < n -> asked o st = StPoints -> st_sort st = false -> st_skip st = false ->
  csv_get fuel nt k e c o st (Some txt) = (st1, Ok s) -> exists st2 s', csv_get fuel nt k e c (with_limit o n) st (Some txt) = (st2, Ok s') /\ s_items s' = firstn n (s_items s).
Proof.
  intros Ol Hn As So Sk G. unfold csv_get in G |- *. change (o_points (with_limit o n) && o_slots (with_limit o n)) with (o_points o && o_slots o). destruct (o_points o && o_slots o); [discriminate|].
  destruct (rows nt o (rs_start st) (lines_of txt)) as [rz [[]|x]] eqn:R; [|discriminate]. injection G as <- M. cbn [bind] in M.
  destruct (rows_again nt o _ _ rz _ R) as [_ Lz]. destruct (rows_limit nt o n _ (rs_start st) rz Ol eq_refl Hn R) as (r' & R' & I' & L'). rewrite R'. cbn [rs_start r_st] in *.
  exists (r_st r'). cbn [bind]. rewrite I'.
  assert (P : forall F o', leads (rs_start st) F -> o' = o \/ o' = with_limit o n -> forall l, l <> [] -> make_series fuel k e c o' F l = build_points e (csv_tz st o) false (empty_series None) l).
  { intros F o' LF Ho l Nl. unfold make_series. destruct l as [|a l]; [contradiction|]. rewrite (ld_sort _ _ LF), (ld_skip _ _ LF), (ld_stype _ _ LF). cbn [rs_start r_st]. rewrite So, Sk.
    assert (T : csv_tz F o' = csv_tz st o) by (unfold csv_tz; rewrite (ld_tz _ _ LF); destruct Ho as [-> | ->]; reflexivity). rewrite T.
    assert (A : (if o_points o' then StPoints else if o_slots o' then StSlots else st_stype st) = StPoints) by (destruct Ho as [-> | ->]; exact As). rewrite A. reflexivity. }
  assert (Nz : r_items rz <> []) by (intros Q; rewrite Q in M; discriminate). rewrite (P _ o Lz (or_introl eq_refl) _ Nz) in M.
  rewrite (P _ (with_limit o n) L' (or_intror eq_refl)) by (destruct (r_items rz); [contradiction|]; destruct n; [lia|discriminate]).
  destruct (build_points_firstn e (csv_tz st o) _ _ s n M) as (s' & B & I). exists s'. split; [rewrite B; reflexivity|]. rewrite I, (build_points_items _ _ _ _ _ M). cbn [empty_series s_items app]. rewrite firstn_map. reflexivity.
Qed.

(* ---- ignored lines ---- *)
Lemma ignored_skipped st l : ignored st l <-> skipped st l = true.
Proof.
  unfold ignored, skipped. destruct l as [|c r]; [split; auto|]. rewrite orb_true_iff, existsb_exists, negb_true_iff. split.
  - intros [H|[(c' & r' & H & I)|H]]; [discriminate|left; injection H as <- <-; exists c; split; [exact I|apply Ascii.eqb_refl]|right].
    destruct (char_in (st_sep st) (String c r)) eqn:E; [|reflexivity]. exfalso. apply H. unfold char_in in E. apply existsb_exists in E. destruct E as (x & X & Q). apply Ascii.eqb_eq in Q. subst x. exact X.
  - intros [(x & X & Q)|H]; [right; left; apply Ascii.eqb_eq in Q; subst x; exists c, r; split; [reflexivity|exact X]|right; right]. intros X. unfold char_in in H. assert (E : existsb (Ascii.eqb (st_sep st)) (chars (String c r)) = true) by (apply existsb_exists; exists (st_sep st); split; [exact X|apply Ascii.eqb_refl]). rewrite E in H. discriminate.
Qed.
Lemma rows_ignored nt o l1 junk l2 r : ignored (r_st r) junk -> rows nt o r (l1 ++ junk :: l2) = rows nt o r (l1 ++ l2).
Proof.
  revert r. induction l1 as [|l l1 IH]; intros r H; cbn [app rows].
  - apply ignored_skipped in H. rewrite H. reflexivity.
  - destruct (skipped (r_st r) l); [apply IH, H|]. unfold sbind. destruct (row nt o r l) as [r1 [stop|x]] eqn:R; cbn [fst snd]; [|reflexivity]. destruct stop; [reflexivity|]. apply IH.
    destruct (row_again nt o r l r1 _ _ R (leads_refl r1)) as [_ L]. unfold ignored in *. rewrite (ld_comments _ _ L), (ld_sep _ _ L). exact H.
Qed.
Lemma get_ignored fuel nt k e c o st l1 junk l2 : (forall s, In s (l1 ++ junk :: l2) -> no_newline s) -> ignored st junk ->
  csv_get fuel nt k e c o st (Some (file_of (l1 ++ junk :: l2))) = csv_get fuel nt k e c o st (Some (file_of (l1 ++ l2))).
Proof.
  intros N H. unfold csv_get, file_of. destruct (o_points o && o_slots o); [reflexivity|]. rewrite !lines_join.
  - rewrite rows_ignored by exact H. reflexivity.
  - intros s I. apply N. apply in_app_iff in I. apply in_app_iff. destruct I as [I|I]; [left; exact I|right; right; exact I].
  - exact N.
Qed.
