(* CsvProofs13.v -- files with the data as lists. *)
From Coq Require Import Permutation.
From Verif Require Import SpecCsv SpecIntervals BaseLemmas DictLemmas PropTactics SeriesProofs2 SeriesProofs3 AccessProofs AccessProofs2 OpsProofs OpsProofs3 TransformProofs5 SamplingProofs CsvProofs CsvProofs2 CsvProofs3 CsvProofs4 CsvProofs5 CsvProofs7 CsvProofs8 CsvProofs9 CsvProofs10 CsvProofs11 CsvProofs12.

Lemma list_header nt st o f header names js di : names <> [] -> header_says nt st o header names -> exists r, row nt o (rs_start st) (line_text st header) = (r, Ok false) /\ at_list st f (Some names, length names) js di r /\ r_items r = [].
Proof.
  intros Nn (S & F & N & l & Hl & U1 & U2). unfold row. cbn [rs_start r_st r_ci]. rewrite (splits_back st header S).
  assert (X : existsb (not_converted nt (csv_tz st o)) header = true).
  { apply existsb_exists. assert (E : exists h, In h header /\ sanitize h = Some l) by (clear - F Hl; induction F as [|h n hs ns [A _] F IH]; [destruct Hl|]; destruct Hl as [->|Hl]; [exists h; split; [left; reflexivity|exact A]|]; destruct (IH Hl) as (h' & I & E); exists h'; split; [right; exact I|exact E]).
    destruct E as (h & I & E). exists h. split; [exact I|]. unfold not_converted. rewrite E, U1, U2. reflexivity. }
  rewrite X. eexists. split; [reflexivity|]. split; [|reflexivity].
  assert (Ci : with_content header = seq 0 (length names)).
  { assert (Ln : length header = length names) by (clear - F; induction F; cbn; congruence). unfold with_content. rewrite Ln. apply filter_all. intros i Hi. apply in_seq in Hi. destruct (nth_error header i) as [h|] eqn:E; [|apply nth_error_None in E; lia].
    assert (E' : exists n, sanitize h = Some n /\ n <> EmptyString) by (clear - F E; revert i E; induction F as [|h' n hs ns A F IH]; intros [|i] E; cbn in E; try discriminate; [injection E as <-; exists n; exact A|exact (IH i E)]).
    destruct E' as (n & E1 & E2). unfold content. rewrite E1. destruct (String.eqb_spec n ""); [contradiction|reflexivity]. }
  assert (Lb : labels_in header = names).
  { clear - F. unfold labels_in. induction F as [|h n hs ns [A B] F IH]; [reflexivity|]. cbn [flat_map]. rewrite A. destruct (String.eqb_spec n ""); [contradiction|]. cbn [app]. rewrite IH. reflexivity. }
  rewrite Ci, Lb. unfold rs_columns. split; cbn [rs_start r_st r_labels r_ci r_ts r_time r_date r_di r_dtype]; auto.
  - destruct (st_cols st); auto.
  - destruct names; [contradiction|discriminate].
Qed.
Lemma list_first nt st o f fields js di : splits st fields -> only_values nt st o fields ->
  row nt o (rs_start st) (line_text st fields) = data_row nt o (rs_columns (rs_start st) (seq 0 (length fields)) None) fields /\
  at_list st f (None, length fields) js di (rs_columns (rs_start st) (seq 0 (length fields)) None).
Proof.
  intros S V. split.
  - unfold row. cbn [rs_start r_st r_ci r_labels]. rewrite (splits_back st fields S).
    assert (X : existsb (not_converted nt (csv_tz st o)) fields = false).
    { destruct (existsb (not_converted nt (csv_tz st o)) fields) eqn:E; [|reflexivity]. exfalso. apply existsb_exists in E. destruct E as (a & A & E). destruct (V a A) as (s & Hs & _ & N). unfold not_converted in E. rewrite Hs in E.
      destruct (nt_float nt s); [discriminate|]. destruct (nt_dt nt (csv_tz st o) s); [discriminate|]. destruct N as [N|N]; apply N; reflexivity. }
    rewrite X. replace (with_content fields) with (seq 0 (length fields)); [reflexivity|]. symmetry. apply filter_all. intros i Hi. apply in_seq in Hi. destruct (nth_error fields i) as [h|] eqn:E; [|apply nth_error_None in E; lia].
    destruct (V h (nth_error_In _ _ E)) as (s & Hs & Ne & _). unfold content. rewrite Hs. destruct (String.eqb_spec s ""); [contradiction|reflexivity].
  - unfold rs_columns. split; cbn [rs_start r_st r_labels r_ci r_ts r_time r_date r_di r_dtype fst snd]; auto.
    + destruct (st_cols st); auto.
    + destruct S as (L & _). destruct fields; [cbn in L; lia|discriminate].
Qed.

Definition labels_of (header : option (list string * list string)) (width : nat) : lw := (match header with Some (_, names) => Some names | None => None end, width).
Lemma only_ints_map l : only_ints (map ColI l) = Some l.
Proof. induction l as [|i l IH]; [reflexivity|]. cbn [map only_ints]. rewrite IH. reflexivity. Qed.
Lemma list_ok_of nt st o header rows width js di : o_limit o = 0 -> starts nt st o header rows width js -> listed_columns st o header width js di -> as_lists st o header ->
  list_ok st o (labels_of header width) js di.
Proof.
  intros Ol S (Nd & Lt & Li) Ma. assert (Tk : times_known st (labels_of header width) js).
  { unfold times_known, labels_of. cbn [fst snd]. destruct header as [[h names]|].
    - destruct S as ((_ & _ & N & l & Hl & _) & -> & T). split; [exact N|]. split; [intros ->; destruct Hl|]. split; [reflexivity|exact T].
    - destruct S as (first & rest & _ & _ & _ & T). exact T. }
  split; [exact Ol|exact Tk| |].
  - split; [exact Nd|]. split; [exact Lt|]. destruct (chosen_columns st o) as [|l]; [exact Li|].
    destruct Li as [->|(h & names & ls & -> & -> & F)]; [left; apply only_ints_map|]. right. unfold times_known, labels_of in Tk. cbn [fst snd] in Tk. destruct Tk as (N & Nn & _).
    split; [destruct ls as [|lb ls]; [inversion F; subst; contradiction|reflexivity]|]. destruct names as [|n names]; [contradiction|]. exists n, names. split; [reflexivity|].
    clear Nd Lt Ma S. induction F as [|lb j ls di F1 F IH]; [reflexivity|]. cbn [map mapM label_position]. rewrite (index_of_nth (n :: names) j lb N F1). cbn [bind]. rewrite IH. reflexivity.
  - destruct Ma as [Ma|[(l & Ma)|[Ma ->]]]; [left; exact Ma|right; left|right; right; split; [exact Ma|reflexivity]].
    exists (map ColI l). split; [exact Ma|]. rewrite Ma in Li. destruct Li as [Li|(h & names & ls & _ & Li & F)].
    + rewrite Li. apply only_ints_map.
    + destruct l as [|i l]; [destruct ls; [inversion F; subst; contradiction|discriminate]|destruct ls; discriminate].
Qed.

Lemma rows_app nt o a b r r1 : rows nt o r a = (r1, Ok tt) -> o_limit o = 0 -> rows nt o r (a ++ b) = rows nt o r1 b.
Proof.
  intros Ra Ol. revert r Ra. induction a as [|s a IH]; intros r Ra; cbn [rows app] in *; [injection Ra as <-; reflexivity|]. destruct (skipped (r_st r) s); [exact (IH r Ra)|]. unfold sbind in *. destruct (row nt o r s) as [r2 [stop|x]] eqn:R; cbn [fst snd] in *; [|discriminate].
  destruct (row_limit nt o 0 r s r2 stop R) as (_ & _ & _ & Z & _). rewrite (Z Ol) in *. exact (IH r2 Ra).
Qed.
Lemma list_lines nt st o f header width js di (l : list entry) : list_ok st o (labels_of header width) js di -> starts nt st o header (map fst l) width js ->
  (forall x, In x l -> lentry_ok nt st o f js di x) ->
  exists r', rows nt o (rs_start st) (header_line st header ++ map (fun x => line_text st (fst x)) l) = (r', Ok tt) /\ at_list st f (labels_of header width) js di r' /\ r_items r' = lentry_rows nt di l.
Proof.
  intros Lo S H. destruct header as [[h names]|]; cbn [header_line app].
  - destruct S as (Hh & -> & T). assert (Nn : names <> []) by (destruct Hh as (_ & _ & _ & l0 & Hl & _); intros ->; destruct Hl).
    cbn [rows]. rewrite (not_skipped st (r_st (rs_start st)) h (proj1 Hh) eq_refl eq_refl). destruct (list_header nt st o f h names js di Nn Hh) as (r & R & A & I0). unfold sbind. rewrite R. cbn [fst snd].
    destruct (list_rows nt st o f _ js di l r Lo A H) as (r' & R' & A' & I'). exists r'. split; [exact R'|]. split; [exact A'|]. rewrite I', I0. reflexivity.
  - destruct S as (first & rest & El & V & -> & T). destruct l as [|x l]; [discriminate|]. cbn [map] in El. injection El as Ef Er. subst first. cbn [map rows]. pose proof (H x (or_introl eq_refl)) as Hx.
    rewrite (not_skipped st (r_st (rs_start st)) (fst x) (proj1 Hx) eq_refl eq_refl). destruct (list_first nt st o f (fst x) js di (proj1 Hx) V) as (R & A). unfold sbind. rewrite R.
    destruct (list_entry nt st o f _ js di _ x Lo A Hx) as (r1 & R1 & A1 & I1). rewrite R1. cbn [fst snd]. destruct (list_rows nt st o f _ js di l r1 Lo A1) as (r' & R' & A' & I'); [intros y Y; apply H; right; exact Y|].
    exists r'. split; [exact R'|]. split; [exact A'|]. rewrite I', I1. unfold lentry_rows. cbn [flat_map rs_columns rs_start r_items app]. rewrite app_nil_r. reflexivity.
Qed.
Lemma lines_clean nt st o header rows width js : st_sep st <> newline -> starts nt st o header rows width js -> (forall fs, In fs rows -> splits st fs) ->
  forall s, In s (header_line st header ++ map (line_text st) rows) -> no_newline s.
Proof.
  intros Ns S H s I. apply in_app_iff in I. destruct I as [I|I].
  - destruct header as [[h names]|]; [|destruct I]. destruct I as [<-|[]]. destruct S as (Hh & _). apply join_no_newline2; [exact Ns|]. intros g G. apply (proj1 Hh), G.
  - apply in_map_iff in I. destruct I as (fs & <- & I). apply join_no_newline2; [exact Ns|]. intros g G. apply (H fs I), G.
Qed.
(* the first bad row, without skipping the errors *)
Lemma list_stops nt st o f header width js di rows0 fields rest : list_ok st o (labels_of header width) js di -> starts nt st o header (rows0 ++ [fields]) width js ->
  (forall fs, In fs rows0 -> splits st fs /\ exists t, good_list nt st o f js di fs t) -> splits st fields -> bad_list nt st o f js di fields -> st_skip st = false ->
  exists r' x, rows nt o (rs_start st) (header_line st header ++ map (line_text st) rows0 ++ line_text st fields :: rest) = (r', Err x).
Proof.
  intros Lo S Gd Sf Bf Sk.
  assert (X : exists l1 : list entry, map fst l1 = rows0 /\ forall x, In x l1 -> lentry_ok nt st o f js di x).
  { clear - Gd. induction rows0 as [|fs rows IH]; [exists []; split; [reflexivity|intros x []]|]. destruct IH as (l1 & M & H); [intros g G; apply Gd; right; exact G|].
    destruct (Gd fs (or_introl eq_refl)) as (S & t & G). exists ((fs, Some t) :: l1). split; [cbn [map fst]; rewrite M; reflexivity|]. intros x [<-|I]; [split; assumption|apply H, I]. }
  destruct X as (l1 & M & H). rewrite app_assoc.
  assert (Fin : forall r, at_list st f (labels_of header width) js di r -> exists r' x, data_row nt o r fields = (r', Err x)).
  { intros r A. destruct (list_row_bad nt st o f _ js di r fields Lo A Bf) as (r2 & D & _). rewrite Sk in D. destruct D as [D|D]; rewrite D; eexists; eexists; reflexivity. }
  destruct (match header, l1 with None, [] => true | _, _ => false end) eqn:Ec.
  - destruct header as [[h names]|]; [discriminate|]. destruct l1 as [|x l1]; [|discriminate]. cbn [map] in M. subst rows0. cbn [header_line map app rows]. destruct S as (first & rest' & El & V & -> & T). cbn [app] in El. injection El as <- <-.
    rewrite (not_skipped st (r_st (rs_start st)) fields Sf eq_refl eq_refl). destruct (list_first nt st o f fields js di Sf V) as (R & A). unfold sbind. rewrite R. destruct (Fin _ A) as (r' & x & E). rewrite E. cbn [fst snd]. eexists. eexists. reflexivity.
  - assert (S1 : starts nt st o header (map fst l1) width js).
    { rewrite M. destruct header as [[h names]|]; [exact S|]. destruct l1 as [|x l1]; [discriminate|]. cbn [map] in M. destruct S as (first & rest' & El & V & W & T). rewrite <- M in El |- *. cbn [app] in El. injection El as -> _. exists first, (map fst l1). split; [reflexivity|]. split; [exact V|]. split; [exact W|exact T]. }
    destruct (list_lines nt st o f header width js di l1 Lo S1 H) as (r1 & R1 & A1 & _). rewrite <- M, map_map, (rows_app _ _ _ _ _ r1 R1 (lo_limit _ _ _ _ _ Lo)).
    cbn [rows]. rewrite (not_skipped st (r_st r1) fields Sf (ls_sep _ _ _ _ _ _ A1) (ls_comments _ _ _ _ _ _ A1)). unfold sbind. rewrite (list_line nt st o f _ js di r1 fields Sf A1). destruct (Fin _ A1) as (r' & x & E). rewrite E. cbn [fst snd]. eexists. eexists. reflexivity.
Qed.

Lemma list_point nt st o f js di tz fields t : tz = csv_tz st o -> good_list nt st o f js di fields t -> list_of_row nt st o di fields t (row_point tz (t, list_row nt di fields)).
Proof.
  intros -> [_ G]. split; [reflexivity|]. split; [reflexivity|]. split; [reflexivity|]. split; [reflexivity|]. exists (map (fun j => match cellv nt fields j with Some q => q | None => q0 end) di). split; [reflexivity|].
  induction di as [|j di IH]; [constructor|]. cbn [map]. constructor; [|apply IH; intros i I; apply G; right; exact I]. destruct (G j (or_introl eq_refl)) as (q & Q). rewrite (proj2 (cellv_iff _ _ _ _) Q). exact Q.
Qed.
Lemma list_read fuel nt k e c o st f header width js di entries xs :
  parses_units e -> o_limit o = 0 -> o_points o && o_slots o = false -> st_sep st <> newline ->
  starts nt st o header (map fst entries) width js -> listed_columns st o header width js di -> as_lists st o header ->
  (forall x, In x entries -> lentry_ok nt st o f js di x) ->
  xs <> [] -> strictly_increasing (map fst xs) -> rows_as_points o st (map fst xs) -> in_order st entries xs ->
  exists st' s', csv_get fuel nt k e c o st (Some (file_of (header_line st header ++ map (fun x => line_text st (fst x)) entries))) = (st', Ok s') /\
    Forall2 (fun tx y => list_of_row nt st o di (snd tx) (fst tx) y) xs (s_items s').
Proof.
  intros He Ol Hb Ns Hs Lc Al En Nx Inc Rp Ord. pose proof (list_ok_of nt st o header _ width js di Ol Hs Lc Al) as Lo.
  destruct (list_lines nt st o f header width js di entries Lo Hs En) as (r' & R & A & I).
  assert (Cl : forall s, In s (header_line st header ++ map (fun x : entry => line_text st (fst x)) entries) -> no_newline s).
  { assert (E : map (fun x : entry => line_text st (fst x)) entries = map (line_text st) (map fst entries)) by (rewrite map_map; reflexivity). rewrite E. apply (lines_clean nt st o header _ width js Ns Hs). intros fs F. apply in_map_iff in F. destruct F as (x & <- & X). apply (En x X). }
  unfold in_order in Ord. cbv zeta in Ord. change (list string * option Qc)%type with entry in Ord. set (good := flat_map (fun x : entry => match snd x with Some t => [(t, fst x)] | None => [] end) entries) in *.
  set (mk := fun tx : Qc * list string => (fst tx, list_row nt di (snd tx))).
  assert (Ig : lentry_rows nt di entries = map mk good) by (unfold good, mk, lentry_rows; clear; induction entries as [|[fs [t|]] l IH]; [reflexivity| |]; cbn [flat_map fst snd]; [cbn [app map fst snd]; rewrite IH; reflexivity|exact IH]).
  assert (Gd : forall t fs, In (t, fs) xs -> good_list nt st o f js di fs t).
  { intros t fs H. assert (H' : In (t, fs) good) by (destruct (st_sort st); [apply (Permutation_in _ (Permutation_sym Ord)), H|rewrite Ord; exact H]).
    unfold good in H'. apply in_flat_map in H'. destruct H' as ((fs' & [t'|]) & X & H'); [|destruct H']. cbn [fst snd] in H'. destruct H' as [H'|[]]. injection H' as -> ->. destruct (En _ X) as (_ & G). exact G. }
  assert (So : (if st_sort (r_st r') then sort_rows (map mk good) else map mk good) = map mk xs).
  { rewrite (ls_sort _ _ _ _ _ _ A). destruct (st_sort st); [|rewrite Ord; reflexivity]. apply sort_rows_perm; [apply Permutation_map, Ord|]. rewrite map_map. exact Inc. }
  unfold csv_get. rewrite Hb. unfold file_of. rewrite lines_join by exact Cl. rewrite R. cbn [bind]. rewrite I, Ig. unfold make_series.
  assert (Ng : exists a b, map mk good = a :: b).
  { destruct good as [|g good'] eqn:Eg; [|eexists; eexists; reflexivity]. exfalso. apply Nx. destruct (st_sort st); [apply Permutation_nil in Ord; exact Ord|symmetry; exact Ord]. }
  destruct Ng as (a & b & Ng). rewrite Ng. rewrite <- Ng. rewrite So.
  assert (As : (if o_points o then StPoints else if o_slots o then StSlots else st_stype (r_st r')) = asked o st) by (unfold asked; rewrite (ls_stype _ _ _ _ _ _ A); reflexivity). rewrite As.
  assert (Fs : map fst (map mk xs) = map fst xs) by (rewrite map_map; reflexivity).
  rewrite (rows_unit e k o st (map mk xs) He); [|rewrite Fs; exact Inc|destruct xs; [contradiction|discriminate]|rewrite Fs; exact Rp]. cbn [bind]. rewrite (csv_tz_same st (r_st r') o (ls_tz _ _ _ _ _ _ A)).
  assert (Wf : wf_points (map (row_point (csv_tz st o)) (map mk xs))).
  { split; [|split].
    - intros y Y. apply in_map_iff in Y. destruct Y as (x & <- & _). reflexivity.
    - unfold times. rewrite map_map. replace (map (fun x => i_t (row_point (csv_tz st o) x)) (map mk xs)) with (map fst (map mk xs)) by reflexivity. rewrite Fs. exact Inc.
    - intros y z Y Z. rewrite map_map in Y, Z. apply in_map_iff in Y. destruct Y as ((ta & fa) & <- & Y). apply in_map_iff in Z. destruct Z as ((tb & fb) & <- & Z). unfold mk. cbn [fst snd]. unfold row_point, list_row. cbn [i_data snd split_row fst]. split; [reflexivity|]. cbn [i_data same_shape]. rewrite !map_length. reflexivity. }
  destruct (ts_new_points_ok e None _ He Wf) as (s' & N'). exists (r_st r'), s'. split; [f_equal; apply build_points_ok; exact N'|].
  rewrite (ts_new_items _ _ _ _ N'), map_map. assert (G : forall l, (forall tx, In tx l -> In tx xs) -> Forall2 (fun tx y => list_of_row nt st o di (snd tx) (fst tx) y) l (map (fun x => row_point (csv_tz st o) (mk x)) l)).
  { induction l as [|[t fs] l IH]; intros H; [constructor|]. cbn [map]. constructor; [|apply IH; intros x X; apply H; right; exact X]. apply (list_point nt st o f js); [reflexivity|]. apply Gd, H. left. reflexivity. }
  apply G. auto.
Qed.
