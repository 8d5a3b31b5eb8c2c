(* CsvProofs10.v -- the rows of a table, and the series made of them. *)
From Coq Require Import Permutation.
From Verif Require Import SpecCsv SpecIntervals BaseLemmas DictLemmas PropTactics SeriesProofs2 SeriesProofs3 AccessProofs AccessProofs2 OpsProofs OpsProofs3 TransformProofs5 SamplingProofs CsvProofs CsvProofs2 CsvProofs3 CsvProofs4 CsvProofs5 CsvProofs7 CsvProofs8 CsvProofs9.

(* ---- the data of a row ---- *)
Definition cellv (nt : num_text) (fields : list string) (j : nat) : option Qc :=
  match nth_error fields j with Some a => match sanitize a with Some s => nt_float nt (comma_to_dot s) | None => None end | None => None end.
Lemma cellv_iff nt fields j q : cellv nt fields j = Some q <-> cell_number nt fields j q.
Proof.
  unfold cellv, cell_number, cell_text. split.
  - destruct (nth_error fields j) as [a|]; [|discriminate]. destruct (sanitize a) as [s|] eqn:S; [|discriminate]. intros H. exists s. split; [exists a; split; [reflexivity|exact S]|exact H].
  - intros (s & (a & -> & ->) & H). exact H.
Qed.
Definition nameof (names : list string) (j : nat) : string := nth j names EmptyString.
Lemma nameof_ok names j l : nth_error names j = Some l -> nameof names j = l.
Proof. intros H. unfold nameof. apply nth_error_nth. exact H. Qed.
Definition table_row (nt : num_text) (names : list string) (di : list nat) (fields : list string) : raw := RDict (dict_of (map (fun j => (nameof names j, cellv nt fields j)) di)).

Lemma row_value_cases nt names fields j l : nth_error names j = Some l ->
  row_value nt (Some names) fields j =
    match nth_error fields j with
    | None => Err IndexError
    | Some _ => match cellv nt fields j with Some q => Ok (l, Some q) | None => if is_index_label l then Ok (l, None) else Err GenericException end
    end.
Proof.
  intros H. unfold row_value, cellv, field. rewrite H. destruct (nth_error fields j) as [a|]; [|reflexivity]. cbn [bind]. unfold to_float. destruct (sanitize a) as [s|]; [destruct (nt_float nt (comma_to_dot s))|]; try reflexivity; destruct (is_index_label l); reflexivity.
Qed.
Lemma table_data nt st o f names js di r fields t : r_labels r = Some names -> r_di r = Some di -> r_dtype r = Some TDict -> (forall j, In j di <-> read_column st o names js j) ->
  good_row nt st o f names js fields t -> row_data nt r fields = Ok (table_row nt names di fields).
Proof.
  intros L D T Q [_ G]. unfold row_data. rewrite T, D, L. assert (M : mapM (row_value nt (Some names) fields) di = Ok (map (fun j => (nameof names j, cellv nt fields j)) di)).
  { assert (H : forall j, In j di -> row_value nt (Some names) fields j = Ok (nameof names j, cellv nt fields j)).
    { intros j J. apply Q in J. pose proof (read_column_lt _ _ _ _ _ J) as Lt. destruct (nth_error names j) as [l|] eqn:E; [|apply nth_error_None in E; lia]. destruct (G j l J E) as (Lf & V).
      rewrite (row_value_cases nt names fields j l E), (nameof_ok names j l E). destruct (nth_error fields j) as [a|] eqn:Ea; [|apply nth_error_None in Ea; lia].
      destruct (cellv nt fields j) as [q|] eqn:Ec; [reflexivity|]. destruct V as [V|(q & V)]; [apply index_label_iff in V; rewrite V; reflexivity|]. apply cellv_iff in V. congruence. }
    clear Q D. induction di as [|j di IH]; [reflexivity|]. cbn [mapM map]. rewrite (H j (or_introl eq_refl)). cbn [bind]. rewrite IH by (intros i I; apply H; right; exact I). reflexivity. }
  rewrite M. reflexivity.
Qed.
Lemma mapM_err {A B} (f : A -> result B) (P : exc -> Prop) l : (forall a x, In a l -> f a = Err x -> P x) -> (exists a x, In a l /\ f a = Err x) -> exists x, mapM f l = Err x /\ P x.
Proof.
  induction l as [|a l IH]; intros H (b & x & I & E); [destruct I|]. cbn [mapM]. destruct (f a) as [y|z] eqn:Ea; cbn [bind].
  - destruct I as [<-|I]; [congruence|]. destruct IH as (w & M & W); [intros c v C; apply H; right; exact C|exists b, x; auto|]. rewrite M. exists w. split; [reflexivity|exact W].
  - exists z. split; [reflexivity|]. apply (H a z (or_introl eq_refl) Ea).
Qed.
Lemma table_no_data nt st o names js di r fields j l : r_labels r = Some names -> r_di r = Some di -> r_dtype r = Some TDict -> (forall j, In j di <-> read_column st o names js j) ->
  read_column st o names js j -> nth_error names j = Some l -> (length fields <= j \/ (~ index_label l /\ forall q, ~ cell_number nt fields j q)) ->
  exists x, row_data nt r fields = Err x /\ (x = IndexError \/ x = GenericException).
Proof.
  intros L D T Q J E B. unfold row_data. rewrite T, D, L. destruct (mapM_err (row_value nt (Some names) fields) (fun x => x = IndexError \/ x = GenericException) di) as (x & M & X).
  - intros i x I H. apply Q in I. pose proof (read_column_lt _ _ _ _ _ I) as Lt. destruct (nth_error names i) as [l'|] eqn:E'; [|apply nth_error_None in E'; lia]. rewrite (row_value_cases nt names fields i l' E') in H.
    destruct (nth_error fields i); [|injection H as <-; left; reflexivity]. destruct (cellv nt fields i); [discriminate|]. destruct (is_index_label l'); [discriminate|injection H as <-; right; reflexivity].
  - exists j. rewrite (row_value_cases nt names fields j l E). destruct (nth_error fields j) as [a|] eqn:Ea.
    + destruct B as [B|(B1 & B2)]; [exfalso; assert (nth_error fields j = None) by (apply nth_error_None; exact B); congruence|]. destruct (cellv nt fields j) as [q|] eqn:Ec; [exfalso; apply (B2 q), cellv_iff, Ec|].
      destruct (is_index_label l) eqn:Ei; [exfalso; apply B1, index_label_iff, Ei|]. exists GenericException. split; [apply Q, J|reflexivity].
    + exists IndexError. split; [apply Q, J|reflexivity].
  - rewrite M. exists x. split; [reflexivity|exact X].
Qed.

(* ---- a row ---- *)
Record table_ok (nt : num_text) (st : storage) (o : options) (names : list string) (js di : list nat) : Prop := mkTable {
  to_limit : o_limit o = 0; to_nodup : NoDup names; to_some : names <> []; to_time : time_in st names js; to_cols : columns_are st o names js di; to_di : di <> [];
  to_read : forall j, In j di <-> read_column st o names js j; to_dtype : st_dtype st = TAuto \/ st_dtype st = TDict }.
Lemma splits_back st fields : splits st fields -> split_on (st_sep st) (line_text st fields) = fields.
Proof. intros (L & H & _). unfold line_text. apply split_join; [destruct fields; [cbn in L; lia|discriminate]|]. intros s S. apply H, S. Qed.
Lemma csv_tz_same st st' o : st_tz st' = st_tz st -> csv_tz st' o = csv_tz st o.
Proof. intros H. unfold csv_tz. rewrite H. reflexivity. Qed.
Lemma table_item st0 f names js di r x : at_table st0 f names js di r -> at_table st0 f names js di (rs_item r x).
Proof. intros [A1 A2 A3 A4 A5 A6 A7 A8 K L C Tm F D]. unfold rs_item. split; cbn [r_st r_labels r_ci r_ts r_time r_date r_di r_dtype]; auto. Qed.
Lemma table_line nt st0 o f names js di r fields : splits st0 fields -> at_table st0 f names js di r -> row nt o r (line_text st0 fields) = data_row nt o r fields.
Proof. intros S A. unfold row. rewrite (tb_sep _ _ _ _ _ _ A), (splits_back st0 fields S). pose proof (tb_ci _ _ _ _ _ _ A) as C. destruct (r_ci r); [contradiction|reflexivity]. Qed.
Lemma data_row_good nt st0 o f names js di r fields t : table_ok nt st0 o names js di -> at_table st0 f names js di r -> good_row nt st0 o f names js fields t ->
  exists r', data_row nt o r fields = (r', Ok false) /\ at_table st0 f names js di r' /\ r_items r' = r_items r ++ [(t, table_row nt names di fields)].
Proof.
  intros [Ol N Nn Ti Ca Nd Q Dt] A G. unfold data_row. destruct (table_times st0 f names js di r N Ti A) as (r1 & T & A1 & P1). unfold sbind at 1. rewrite T. cbn [fst snd].
  rewrite (csv_tz_same st0 (r_st r) o (tb_tz _ _ _ _ _ _ A)).
  destruct (table_time nt (csv_tz st0 o) st0 f names js di r1 fields t A1 P1 (proj1 G)) as (s & st2 & S & P & A2). rewrite S, P.
  destruct (table_columns st0 o f names js di (rs_st r1 st2) N Nn Ti Ca Nd Q Dt A2 P1) as (r3 & C & A3 & D3 & T3). unfold sbind. rewrite C. cbn [fst snd].
  rewrite (table_data nt st0 o f names js di (set_data_type r3) fields t (tb_labels _ _ _ _ _ _ A3) D3 T3 Q G). rewrite Ol. cbn [Nat.eqb negb andb].
  eexists. split; [reflexivity|]. split; [apply table_item, A3|]. unfold rs_item. cbn [r_items]. f_equal.
  destruct (set_data_type_items r3) as [-> _]. destruct (data_columns_items o _ r3 _ C) as [-> _]. cbn [rs_st r_items]. apply (time_columns_items r r1 _ T).
Qed.
Lemma data_row_bad nt st0 o f names js di r fields : table_ok nt st0 o names js di -> at_table st0 f names js di r -> bad_row nt st0 o f names js fields ->
  exists r', (data_row nt o r fields = (r', if st_skip st0 then Ok false else Err ValueError) \/ data_row nt o r fields = (r', if st_skip st0 then Ok false else Err GenericException)) /\ at_table st0 f names js di r' /\ r_items r' = r_items r.
Proof.
  intros [Ol N Nn Ti Ca Nd Q Dt] A B. unfold data_row. destruct (table_times st0 f names js di r N Ti A) as (r1 & T & A1 & P1). unfold sbind at 1 3. rewrite T. cbn [fst snd].
  rewrite (csv_tz_same st0 (r_st r) o (tb_tz _ _ _ _ _ _ A)).
  destruct B as [(p & a & Ej & Na & Kd & Un)|((t & Rt) & j & l & J & El & B)].
  - destruct (table_no_time nt (csv_tz st0 o) st0 f names js di r1 fields p a A1 P1 Ej Na Kd Un) as (s & S & P). rewrite S, P, (tb_skip _ _ _ _ _ _ A1). exists (rs_st r1 (r_st r1)).
    split; [left; destruct (st_skip st0); reflexivity|]. split; [apply table_same, A1|]. cbn [rs_st r_items]. apply (time_columns_items r r1 _ T).
  - destruct (table_time nt (csv_tz st0 o) st0 f names js di r1 fields t A1 P1 Rt) as (s & st2 & S & P & A2). rewrite S, P.
    destruct (table_columns st0 o f names js di (rs_st r1 st2) N Nn Ti Ca Nd Q Dt A2 P1) as (r3 & C & A3 & D3 & T3). unfold sbind. rewrite C. cbn [fst snd].
    destruct (table_no_data nt st0 o names js di (set_data_type r3) fields j l (tb_labels _ _ _ _ _ _ A3) D3 T3 Q J El B) as (x & X & Xc). rewrite X, (tb_skip _ _ _ _ _ _ A3).
    exists (set_data_type r3). split; [right; destruct Xc as [-> | ->]; destruct (st_skip st0); reflexivity|]. split; [exact A3|].
    destruct (set_data_type_items r3) as [-> _]. destruct (data_columns_items o _ r3 _ C) as [-> _]. cbn [rs_st r_items]. apply (time_columns_items r r1 _ T).
Qed.

(* ---- the header ---- *)
Lemma header_starts nt st o f header names js di : names <> [] -> header_says nt st o header names -> exists r, row nt o (rs_start st) (line_text st header) = (r, Ok false) /\ at_table st f names js di r /\ r_items r = [].
Proof.
  intros Nn (S & F & N & l & Hl & U1 & U2). unfold row. cbn [rs_start r_st r_ci]. rewrite (splits_back st header S).
  assert (X : existsb (not_converted nt (csv_tz st o)) header = true).
  { apply existsb_exists. assert (E : exists h, In h header /\ sanitize h = Some l) by (clear - F Hl; induction F as [|h n hs ns [A _] F IH]; [destruct Hl|]; destruct Hl as [->|Hl]; [exists h; split; [left; reflexivity|exact A]|]; destruct (IH Hl) as (h' & I & E); exists h'; split; [right; exact I|exact E]).
    destruct E as (h & I & E). exists h. split; [exact I|]. unfold not_converted. rewrite E, U1, U2. reflexivity. }
  rewrite X. eexists. split; [reflexivity|]. split; [|reflexivity].
  assert (Ci : with_content header = seq 0 (length names)).
  { assert (Ln : length header = length names) by (clear - F; induction F; cbn; congruence). unfold with_content. rewrite Ln. apply filter_all. intros i Hi. apply in_seq in Hi. destruct (nth_error header i) as [h|] eqn:E; [|apply nth_error_None in E; lia].
    assert (E' : exists n, sanitize h = Some n /\ n <> EmptyString) by (clear - F E; revert i E; induction F as [|h' n hs ns A F IH]; intros [|i] E; cbn in E; try discriminate; [injection E as <-; exists n; exact A|exact (IH i E)]).
    destruct E' as (n & E1 & E2). unfold content. rewrite E1. destruct (String.eqb_spec n ""); [contradiction|reflexivity]. }
  assert (Lb : labels_in header = names).
  { clear - F. unfold labels_in. induction F as [|h n hs ns [A B] F IH]; [reflexivity|]. cbn [flat_map]. rewrite A. destruct (String.eqb_spec n ""); [contradiction|]. cbn [app]. rewrite IH. reflexivity. }
  rewrite Ci, Lb. unfold rs_columns. split; cbn [rs_start r_st r_labels r_ci r_ts r_time r_date r_di r_dtype]; auto.
  - destruct (st_cols st); auto.
  - destruct names; [contradiction|discriminate].
Qed.

(* ---- all the rows ---- *)
(* the rows with their time, and the bad ones *)
Definition entry := (list string * option Qc)%type.
Definition entry_ok (nt : num_text) (st : storage) (o : options) (f : tformat) (names : list string) (js : list nat) (x : entry) : Prop :=
  splits st (fst x) /\ match snd x with Some t => good_row nt st o f names js (fst x) t | None => st_skip st = true /\ bad_row nt st o f names js (fst x) end.
Definition entry_rows (nt : num_text) (names : list string) (di : list nat) (l : list entry) : list (Qc * raw) :=
  flat_map (fun x => match snd x with Some t => [(t, table_row nt names di (fst x))] | None => [] end) l.
Lemma table_rows nt st0 o f names js di l r : table_ok nt st0 o names js di -> at_table st0 f names js di r -> (forall x, In x l -> entry_ok nt st0 o f names js x) ->
  exists r', rows nt o r (map (fun x => line_text st0 (fst x)) l) = (r', Ok tt) /\ at_table st0 f names js di r' /\ r_items r' = r_items r ++ entry_rows nt names di l.
Proof.
  intros To. revert r. induction l as [|x l IH]; intros r A H.
  - exists r. split; [reflexivity|]. split; [exact A|]. rewrite app_nil_r. reflexivity.
  - cbn [map rows]. destruct (H x (or_introl eq_refl)) as (S & E).
    assert (Sk : skipped (r_st r) (line_text st0 (fst x)) = false).
    { destruct (skipped (r_st r) (line_text st0 (fst x))) eqn:Q; [|reflexivity]. exfalso. apply ignored_skipped in Q. apply (proj2 (proj2 S)). unfold ignored in *. rewrite (tb_sep _ _ _ _ _ _ A), (tb_comments _ _ _ _ _ _ A) in Q. exact Q. }
    rewrite Sk. unfold sbind. rewrite (table_line nt st0 o f names js di r (fst x) S A). unfold entry_rows. cbn [flat_map]. fold (entry_rows nt names di l). destruct x as [fields [t|]]; cbn [fst snd] in *.
    + destruct (data_row_good nt st0 o f names js di r fields t To A E) as (r1 & R & A1 & I1). rewrite R. cbn [fst snd].
      destruct (IH r1 A1) as (r2 & R2 & A2 & I2); [intros y Y; apply H; right; exact Y|]. exists r2. split; [exact R2|]. split; [exact A2|]. rewrite I2, I1, <- app_assoc. reflexivity.
    + destruct E as [Sp E]. destruct (data_row_bad nt st0 o f names js di r fields To A E) as (r1 & R & A1 & I1). rewrite Sp in R. assert (R' : data_row nt o r fields = (r1, Ok false)) by (destruct R; assumption). rewrite R'. cbn [fst snd].
      destruct (IH r1 A1) as (r2 & R2 & A2 & I2); [intros y Y; apply H; right; exact Y|]. exists r2. split; [exact R2|]. split; [exact A2|]. rewrite I2, I1. reflexivity.
Qed.
Lemma join_no_newline2 st fields : st_sep st <> newline -> (forall f, In f fields -> no_newline f) -> no_newline (line_text st fields).
Proof. intros N H X. unfold line_text in X. apply join_chars in X. destruct X as [[X|[]]|(s & S & X)]; [apply N; exact X|]. exact (H s S X). Qed.
Lemma table_file nt st o f header names js di l : table_ok nt st o names js di -> st_sep st <> newline -> header_says nt st o header names -> (forall x, In x l -> entry_ok nt st o f names js x) ->
  exists r', rows nt o (rs_start st) (lines_of (file_of (line_text st header :: map (fun x => line_text st (fst x)) l))) = (r', Ok tt) /\ at_table st f names js di r' /\ r_items r' = entry_rows nt names di l.
Proof.
  intros To Ns Hh H. unfold file_of. rewrite lines_join.
  2:{ intros s [<-|S]; [apply join_no_newline2; [exact Ns|]; intros h Hi; apply (proj1 Hh), Hi|]. apply in_map_iff in S. destruct S as (x & <- & X). apply join_no_newline2; [exact Ns|]. intros g G. destruct (H x X) as ((_ & S & _) & _). apply S, G. }
  cbn [rows]. destruct (header_starts nt st o f header names js di (to_some _ _ _ _ _ _ To) Hh) as (r & R & A & I0).
  assert (Sk : skipped (r_st (rs_start st)) (line_text st header) = false).
  { destruct (skipped (r_st (rs_start st)) (line_text st header)) eqn:Q; [|reflexivity]. exfalso. apply ignored_skipped in Q. apply (proj2 (proj2 (proj1 Hh))). exact Q. }
  rewrite Sk. unfold sbind. rewrite R. cbn [fst snd]. destruct (table_rows nt st o f names js di l r To A H) as (r' & R' & A' & I'). exists r'. rewrite I0 in I'. split; [exact R'|]. split; [exact A'|exact I'].
Qed.
(* The first bad row, without skipping the errors *)
Lemma table_stops nt st o f header names js di l1 fields rest : table_ok nt st o names js di -> st_sep st <> newline -> header_says nt st o header names -> (forall x, In x l1 -> entry_ok nt st o f names js x) ->
  splits st fields -> bad_row nt st o f names js fields -> st_skip st = false -> (forall s, In s rest -> no_newline s) ->
  exists r' x, rows nt o (rs_start st) (lines_of (file_of (line_text st header :: map (fun x => line_text st (fst x)) l1 ++ line_text st fields :: rest))) = (r', Err x).
Proof.
  intros To Ns Hh H Sf B Sp Hr. unfold file_of. rewrite lines_join.
  2:{ intros s [<-|S]; [apply join_no_newline2; [exact Ns|]; intros h Hi; apply (proj1 Hh), Hi|]. apply in_app_iff in S. destruct S as [S|[<-|S]]; [|apply join_no_newline2; [exact Ns|]; intros g G; apply Sf, G|apply Hr, S].
      apply in_map_iff in S. destruct S as (x & <- & X). apply join_no_newline2; [exact Ns|]. intros g G. destruct (H x X) as ((_ & S & _) & _). apply S, G. }
  assert (App : forall a b r r1, rows nt o r a = (r1, Ok tt) -> (o_limit o = 0) -> rows nt o r (a ++ b) = rows nt o r1 b).
  { intros a b r r1 Ra Ol. revert r Ra. induction a as [|s a IH]; intros r Ra; cbn [rows app] in *; [injection Ra as <-; reflexivity|]. destruct (skipped (r_st r) s); [exact (IH r Ra)|]. unfold sbind in *. destruct (row nt o r s) as [r2 [stop|x]] eqn:R; cbn [fst snd] in *; [|discriminate].
    destruct (row_limit nt o 0 r s r2 stop R) as (_ & _ & _ & Z & _). rewrite (Z Ol) in *. exact (IH r2 Ra). }
  cbn [rows]. destruct (header_starts nt st o f header names js di (to_some _ _ _ _ _ _ To) Hh) as (r & R & A & I0).
  assert (Sk : skipped (r_st (rs_start st)) (line_text st header) = false).
  { destruct (skipped (r_st (rs_start st)) (line_text st header)) eqn:Q; [|reflexivity]. exfalso. apply ignored_skipped in Q. apply (proj2 (proj2 (proj1 Hh))). exact Q. }
  rewrite Sk. unfold sbind. rewrite R. cbn [fst snd]. destruct (table_rows nt st o f names js di l1 r To A H) as (r1 & R1 & A1 & _). rewrite (App _ _ r r1 R1 (to_limit _ _ _ _ _ _ To)).
  cbn [rows]. assert (Sk1 : skipped (r_st r1) (line_text st fields) = false).
  { destruct (skipped (r_st r1) (line_text st fields)) eqn:Q; [|reflexivity]. exfalso. apply ignored_skipped in Q. apply (proj2 (proj2 Sf)). unfold ignored in *. rewrite (tb_sep _ _ _ _ _ _ A1), (tb_comments _ _ _ _ _ _ A1) in Q. exact Q. }
  rewrite Sk1. unfold sbind. rewrite (table_line nt st o f names js di r1 fields Sf A1). destruct (data_row_bad nt st o f names js di r1 fields To A1 B) as (r2 & D & _). rewrite Sp in D. destruct D as [D|D]; rewrite D; cbn [fst snd]; eexists; eexists; reflexivity.
Qed.
