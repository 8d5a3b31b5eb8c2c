(* CsvProofs12.v -- reading tables with the data as lists: without a header, or by position. *)
From Coq Require Import Permutation.
From Verif Require Import SpecCsv SpecIntervals BaseLemmas DictLemmas PropTactics SeriesProofs2 SeriesProofs3 AccessProofs AccessProofs2 OpsProofs OpsProofs3 TransformProofs5 SamplingProofs CsvProofs CsvProofs2 CsvProofs3 CsvProofs4 CsvProofs5 CsvProofs7 CsvProofs8 CsvProofs9 CsvProofs10 CsvProofs11.

Definition lw := (option (list string) * nat)%type.
Record at_list (st0 : storage) (f : tformat) (names : lw) (js di : list nat) (r : rstate) : Prop := mkAl {
  ls_tz : st_tz (r_st r) = st_tz st0; ls_wanted : st_labels (r_st r) = st_labels st0; ls_dtype : r_dtype r = None -> st_dtype (r_st r) = st_dtype st0;
  ls_stype : st_stype (r_st r) = st_stype st0; ls_sort : st_sort (r_st r) = st_sort st0; ls_sep : st_sep (r_st r) = st_sep st0;
  ls_comments : st_comments (r_st r) = st_comments st0; ls_skip : st_skip (r_st r) = st_skip st0;
  ls_kind : match st_cols st0 with TsParts a b => st_cols (r_st r) = TsParts a b | _ => match st_cols (r_st r) with TsParts _ _ => False | _ => True end end;
  ls_labels : r_labels r = fst names;
  ls_ci : r_ci r <> [];
  ls_time : tpos_ok st0 js (r_ts r) (r_time r) (r_date r) \/ (r_ts r = None /\ r_time r = None /\ r_date r = None /\ st_cols (r_st r) = st_cols st0);
  ls_format : st_format (r_st r) = st_format st0 \/ (st_format st0 = FAuto /\ st_format (r_st r) = f);
  ls_data : (r_di r = Some di /\ r_dtype r = Some TList) \/ (r_di r = None /\ r_dtype r = None /\ r_ci r = seq 0 (snd names)) }.

Lemma list_times_named st0 f names w js di r : NoDup names -> time_in st0 names js -> at_list st0 f (Some names, w) js di r ->
  exists r1, time_columns r = (r1, Ok tt) /\ at_list st0 f (Some names, w) js di r1 /\ tpos_ok st0 js (r_ts r1) (r_time r1) (r_date r1).
Proof.
  intros N [Nj T] A. unfold time_columns. destruct A as [A1 A2 A3 A4 A5 A6 A7 A8 K L C Tm F D]. cbn [fst] in L. rewrite L.
  destruct Tm as [P|(Ts & Ti & Da & Ec)].
  - exists r. assert (X : time_columns r = (r, Ok tt)); [|unfold time_columns in X; rewrite L in X; rewrite X; split; [reflexivity|]; split; [|exact P]; split; auto].
    unfold time_columns. unfold tpos_ok in P. destruct (st_cols st0) as [|c|ti da] eqn:E0.
    + destruct P as (p & _ & P & _). destruct (st_cols (r_st r)) as [|c|]; [rewrite P; reflexivity|rewrite P; reflexivity|contradiction].
    + destruct P as (p & _ & P & _). destruct (st_cols (r_st r)) as [|c'|]; [rewrite P; reflexivity|rewrite P; reflexivity|contradiction].
    + rewrite K. destruct ti as [[c tf]|]; destruct da as [[d df]|]; [destruct P as (p & q & _ & P1 & P2 & P3)|destruct P as (p & _ & P1 & P2 & P3)|destruct P as (p & _ & P1 & P2 & P3)|contradiction];
        rewrite P2, P3; cbn [find_part]; unfold rs_times; rewrite P1; destruct r; cbn in *; subst; reflexivity.
  - rewrite Ec. unfold tpos_ok. destruct (st_cols st0) as [|c|ti da] eqn:E0.
    + rewrite Ts, Ti, Da. destruct T as (p & -> & [[Hp Ht]|[(Nt & Hp & Ht)|(Nt & Ne & ->)]]).
      * rewrite (index_of_nth names p _ N Ht). eexists. split; [reflexivity|]. unfold rs_times, rs_st. cbn [r_st r_ts r_time r_date]. split; [|exists p; repeat split].
        split; cbn [r_st r_labels r_ci r_ts r_time r_date r_di r_dtype set_cols st_cols st_tz st_labels st_dtype st_stype st_sort st_sep st_comments st_skip st_format]; auto; [rewrite E0; exact I|]. left. unfold tpos_ok. rewrite E0. exists p. repeat split.
      * rewrite (index_of_None _ _ Nt), (index_of_nth names p _ N Ht). eexists. split; [reflexivity|]. unfold rs_times, rs_st. cbn [r_st r_ts r_time r_date]. split; [|exists p; repeat split].
        split; cbn [r_st r_labels r_ci r_ts r_time r_date r_di r_dtype set_cols st_cols st_tz st_labels st_dtype st_stype st_sort st_sep st_comments st_skip st_format]; auto; [rewrite E0; exact I|]. left. unfold tpos_ok. rewrite E0. exists p. repeat split.
      * rewrite (index_of_None _ _ Nt), (index_of_None _ _ Ne). eexists. split; [reflexivity|]. unfold rs_times. cbn [r_st r_ts r_time r_date]. split; [|exists 0; repeat split].
        split; cbn [r_st r_labels r_ci r_ts r_time r_date r_di r_dtype]; auto; [rewrite E0; exact K|]. left. unfold tpos_ok. rewrite E0. exists 0. repeat split.
    + rewrite Ts, Ti, Da. destruct T as (p & -> & Hp). rewrite (column_found names c p N Hp). eexists. split; [reflexivity|]. unfold rs_times. cbn [r_st r_ts r_time r_date]. split; [|exists p; repeat split].
      split; cbn [r_st r_labels r_ci r_ts r_time r_date r_di r_dtype]; auto; [rewrite E0; exact K|]. left. unfold tpos_ok. rewrite E0. exists p. repeat split.
    + rewrite Ti, Da. destruct ti as [[c tf]|]; destruct da as [[d df]|]; cbn [find_part].
      * destruct T as (p & q & -> & Hp & Hq). rewrite (column_found names c p N Hp), (column_found names d q N Hq). cbn [bind]. eexists. split; [reflexivity|]. unfold rs_times. cbn [r_st r_ts r_time r_date]. split; [|exists p, q; auto].
        split; cbn [r_st r_labels r_ci r_ts r_time r_date r_di r_dtype]; auto; [rewrite E0; exact K|]. left. unfold tpos_ok. rewrite E0. exists p, q. auto.
      * destruct T as (p & -> & Hp). rewrite (column_found names c p N Hp). cbn [bind]. eexists. split; [reflexivity|]. unfold rs_times. cbn [r_st r_ts r_time r_date]. split; [|exists p; auto].
        split; cbn [r_st r_labels r_ci r_ts r_time r_date r_di r_dtype]; auto; [rewrite E0; exact K|]. left. unfold tpos_ok. rewrite E0. exists p. auto.
      * destruct T as (p & -> & Hp). rewrite (column_found names d p N Hp). cbn [bind]. eexists. split; [reflexivity|]. unfold rs_times. cbn [r_st r_ts r_time r_date]. split; [|exists p; auto].
        split; cbn [r_st r_labels r_ci r_ts r_time r_date r_di r_dtype]; auto; [rewrite E0; exact K|]. left. unfold tpos_ok. rewrite E0. exists p. auto.
      * contradiction.
Qed.
Lemma list_times_plain st0 f w js di r : time_at st0 w js -> at_list st0 f (None, w) js di r ->
  exists r1, time_columns r = (r1, Ok tt) /\ at_list st0 f (None, w) js di r1 /\ tpos_ok st0 js (r_ts r1) (r_time r1) (r_date r1).
Proof.
  intros (Nj & Lt & T) A. unfold time_columns. destruct A as [A1 A2 A3 A4 A5 A6 A7 A8 K L C Tm F D]. cbn [fst] in L. rewrite L.
  destruct Tm as [P|(Ts & Ti & Da & Ec)].
  - exists r. assert (X : time_columns r = (r, Ok tt)); [|unfold time_columns in X; rewrite L in X; rewrite X; split; [reflexivity|]; split; [|exact P]; split; auto].
    unfold time_columns. unfold tpos_ok in P. destruct (st_cols st0) as [|c|ti da] eqn:E0.
    + destruct P as (p & _ & P & _). destruct (st_cols (r_st r)) as [|c|]; [rewrite P; reflexivity|rewrite P; reflexivity|contradiction].
    + destruct P as (p & _ & P & _). destruct (st_cols (r_st r)) as [|c'|]; [rewrite P; reflexivity|rewrite P; reflexivity|contradiction].
    + rewrite K. destruct ti as [[c tf]|]; destruct da as [[d df]|]; [destruct P as (p & q & _ & P1 & P2 & P3)|destruct P as (p & _ & P1 & P2 & P3)|destruct P as (p & _ & P1 & P2 & P3)|contradiction];
        rewrite P2, P3; cbn [find_part]; unfold rs_times; rewrite P1; destruct r; cbn in *; subst; reflexivity.
  - rewrite Ec. unfold tpos_ok. destruct (st_cols st0) as [|c|ti da] eqn:E0.
    + rewrite Ts, Ti, Da. subst js. eexists. split; [reflexivity|]. unfold rs_times. cbn [r_st r_ts r_time r_date]. split; [|exists 0; repeat split].
      split; cbn [r_st r_labels r_ci r_ts r_time r_date r_di r_dtype]; auto; [rewrite E0; exact K|]. left. unfold tpos_ok. rewrite E0. exists 0. repeat split.
    + rewrite Ts, Ti, Da. destruct c as [p|]; [|contradiction]. subst js. cbn [find_col]. eexists. split; [reflexivity|]. unfold rs_times. cbn [r_st r_ts r_time r_date]. split; [|exists p; repeat split].
      split; cbn [r_st r_labels r_ci r_ts r_time r_date r_di r_dtype]; auto; [rewrite E0; exact K|]. left. unfold tpos_ok. rewrite E0. exists p. repeat split.
    + rewrite Ti, Da. destruct ti as [[[p|] tf]|]; destruct da as [[[q|] df]|]; try contradiction; subst js; cbn [find_part find_col bind].
      * eexists. split; [reflexivity|]. unfold rs_times. cbn [r_st r_ts r_time r_date]. split; [|exists p, q; auto].
        split; cbn [r_st r_labels r_ci r_ts r_time r_date r_di r_dtype]; auto; [rewrite E0; exact K|]. left. unfold tpos_ok. rewrite E0. exists p, q. auto.
      * eexists. split; [reflexivity|]. unfold rs_times. cbn [r_st r_ts r_time r_date]. split; [|exists p; auto].
        split; cbn [r_st r_labels r_ci r_ts r_time r_date r_di r_dtype]; auto; [rewrite E0; exact K|]. left. unfold tpos_ok. rewrite E0. exists p. auto.
      * eexists. split; [reflexivity|]. unfold rs_times. cbn [r_st r_ts r_time r_date]. split; [|exists q; auto].
        split; cbn [r_st r_labels r_ci r_ts r_time r_date r_di r_dtype]; auto; [rewrite E0; exact K|]. left. unfold tpos_ok. rewrite E0. exists q. auto.
Qed.
Lemma list_format st0 f names js di r g : at_list st0 f names js di r -> st_format st0 = FAuto /\ g = f -> at_list st0 f names js di (rs_st r (set_format (r_st r) g)).
Proof.
  intros [A1 A2 A3 A4 A5 A6 A7 A8 K L C Tm F D] [E ->]. unfold rs_st. split; cbn [r_st r_labels r_ci r_ts r_time r_date r_di r_dtype set_format st_cols st_tz st_labels st_dtype st_stype st_sort st_sep st_comments st_skip st_format]; auto.
Qed.
Lemma list_same st0 f names js di r : at_list st0 f names js di r -> at_list st0 f names js di (rs_st r (r_st r)).
Proof. intros H. rewrite rs_st_same. exact H. Qed.
Lemma list_time nt tz st0 f names js di r1 fields t : at_list st0 f names js di r1 -> tpos_ok st0 js (r_ts r1) (r_time r1) (r_date r1) -> row_time nt tz st0 f js fields t ->
  exists s st2, timestamp_text r1 fields = Ok s /\ parse_time nt tz (r_st r1) s = (st2, Some t) /\ at_list st0 f names js di (rs_st r1 st2).
Proof.
  intros A P R. pose proof (ls_kind _ _ _ _ _ _ A) as K. pose proof (ls_format _ _ _ _ _ _ A) as F. unfold row_time, tpos_ok in *. unfold timestamp_text, parse_time.
  assert (One : forall p, js = [p] -> r_ts r1 = Some p -> match st_cols (r_st r1) with TsParts _ _ => False | _ => True end -> (exists a, cell_text fields p a /\ time_read nt tz st0 f a t) ->
    exists s st2, match r_ts r1 with Some i => part fields (Some i) | None => do ti <- part fields (r_time r1); do da <- part fields (r_date r1); Ok (match ti, da with Some t, Some d => Some (d ++ tab ++ t)%string | t, None => t | None, d => d end) end = Ok s /\ parse_time nt tz (r_st r1) s = (st2, Some t) /\ at_list st0 f names js di (rs_st r1 st2)).
  { intros p -> Ts Kd (a & Ca & Q1 & Q2). rewrite Ts, (part_text fields p a Ca). exists (Some a). unfold parse_time.
    assert (G : exists st2, match st_format (r_st r1) with
        | FAuto => match nt_float nt a with Some t => (set_format (r_st r1) FEpoch, Some t) | None => match nt_dt nt tz a with Some t => (set_format (r_st r1) FIso, Some t) | None => (r_st r1, None) end end
        | FEpoch => (r_st r1, nt_float nt a) | FIso => (r_st r1, nt_dt nt tz a) | FCustom f => (r_st r1, nt_strp nt f tz a) end = (st2, Some t) /\ at_list st0 f names [p] di (rs_st r1 st2)).
    { destruct (st_format st0) as [| | |g0] eqn:E0.
      - destruct f as [| | |g]; [contradiction| | |destruct Q2; discriminate].
        + assert (F' : st_format (r_st r1) = FAuto \/ st_format (r_st r1) = FEpoch) by (destruct F as [F|[_ F]]; [left|right]; exact F).
          destruct F' as [F'|F']; rewrite F', Q2; [eexists; split; [reflexivity|apply list_format; [exact A|split; [exact E0|reflexivity]]]|eexists; split; [reflexivity|apply list_same, A]].
        + destruct Q2 as [Q2 Q3]. assert (F' : st_format (r_st r1) = FAuto \/ st_format (r_st r1) = FIso) by (destruct F as [F|[_ F]]; [left|right]; exact F).
          destruct F' as [F'|F']; rewrite F', ?(Q3 eq_refl), Q2; [eexists; split; [reflexivity|apply list_format; [exact A|split; [exact E0|reflexivity]]]|eexists; split; [reflexivity|apply list_same, A]].
      - assert (F' : st_format (r_st r1) = FEpoch) by (destruct F as [F|[F _]]; [exact F|discriminate]). rewrite F'. destruct Q1 as [<-|Q1]; [|discriminate]. rewrite Q2. eexists. split; [reflexivity|apply list_same, A].
      - assert (F' : st_format (r_st r1) = FIso) by (destruct F as [F|[F _]]; [exact F|discriminate]). rewrite F'. destruct Q1 as [<-|Q1]; [|discriminate]. rewrite (proj1 Q2). eexists. split; [reflexivity|apply list_same, A].
      - assert (F' : st_format (r_st r1) = FCustom g0) by (destruct F as [F|[F _]]; [exact F|discriminate]). rewrite F'. destruct Q1 as [<-|Q1]; [|discriminate]. rewrite (proj2 Q2). eexists. split; [reflexivity|apply list_same, A]. }
    destruct G as (st2 & G1 & G2). exists st2. split; [reflexivity|]. split; [|exact G2]. destruct (st_cols (r_st r1)) as [| |]; [exact G1|exact G1|contradiction]. }
  destruct (st_cols st0) as [|c|ti da] eqn:E0.
  - destruct P as (p & -> & Ts & _). exact (One p eq_refl Ts K R).
  - destruct P as (p & -> & Ts & _). exact (One p eq_refl Ts K R).
  - clear One. rewrite K. destruct ti as [[c tf]|]; destruct da as [[d df]|].
    + destruct P as (p & q & -> & -> & -> & ->). destruct R as (a & b & Ca & Cb & R). rewrite (part_text _ _ _ Ca), (part_text _ _ _ Cb). cbn [bind]. eexists. eexists. split; [reflexivity|]. split; [rewrite R; reflexivity|apply list_same, A].
    + destruct P as (p & -> & -> & -> & ->). destruct R as (a & Ca & R). rewrite (part_text _ _ _ Ca). cbn [bind part]. eexists. eexists. split; [reflexivity|]. cbv beta iota. split; [rewrite R; reflexivity|apply list_same, A].
    + destruct P as (p & -> & -> & -> & ->). destruct R as (a & Ca & R). rewrite (part_text _ _ _ Ca). cbn [bind part]. eexists. eexists. split; [reflexivity|]. cbv beta iota. split; [rewrite R; reflexivity|apply list_same, A].
    + contradiction.
Qed.
Lemma list_no_time nt tz st0 f names js di r1 fields p a : at_list st0 f names js di r1 -> tpos_ok st0 js (r_ts r1) (r_time r1) (r_date r1) ->
  js = [p] -> nth_error fields p = Some a -> match st_cols st0 with TsParts _ _ => False | _ => True end ->
  (forall s, sanitize a = Some s -> nt_float nt s = None /\ nt_dt nt tz s = None /\ forall g, nt_strp nt g tz s = None) ->
  exists s, timestamp_text r1 fields = Ok s /\ parse_time nt tz (r_st r1) s = (r_st r1, None).
Proof.
  intros A P -> Na Kd Un. pose proof (ls_kind _ _ _ _ _ _ A) as K. unfold tpos_ok in P.
  assert (Ts : r_ts r1 = Some p) by (destruct (st_cols st0); [| |contradiction]; destruct P as (p' & Q & P & _); injection Q as <-; exact P).
  assert (K' : match st_cols (r_st r1) with TsParts _ _ => False | _ => True end) by (destruct (st_cols st0); [exact K|exact K|contradiction]).
  unfold timestamp_text. rewrite Ts. unfold part, field. rewrite Na. cbn [bind]. exists (sanitize a). split; [reflexivity|]. unfold parse_time. destruct (sanitize a) as [s|]; [|reflexivity]. destruct (Un s eq_refl) as (U1 & U2 & U3).
  assert (X : match st_format (r_st r1) with
        | FAuto => match nt_float nt s with Some t => (set_format (r_st r1) FEpoch, Some t) | None => match nt_dt nt tz s with Some t => (set_format (r_st r1) FIso, Some t) | None => (r_st r1, None) end end
        | FEpoch => (r_st r1, nt_float nt s) | FIso => (r_st r1, nt_dt nt tz s) | FCustom f => (r_st r1, nt_strp nt f tz s) end = (r_st r1, None)) by (destruct (st_format (r_st r1)); rewrite ?U1, ?U2, ?U3; reflexivity).
  destruct (st_cols (r_st r1)) as [| |]; [exact X|exact X|contradiction].
Qed.

(* where the time columns are: known *)
Definition times_known (st0 : storage) (names : lw) (js : list nat) : Prop :=
  match fst names with Some ns => NoDup ns /\ ns <> [] /\ snd names = length ns /\ time_in st0 ns js | None => time_at st0 (snd names) js end.
Lemma list_times st0 f names js di r : times_known st0 names js -> at_list st0 f names js di r ->
  exists r1, time_columns r = (r1, Ok tt) /\ at_list st0 f names js di r1 /\ tpos_ok st0 js (r_ts r1) (r_time r1) (r_date r1).
Proof.
  destruct names as [[ns|] w]; unfold times_known; cbn [fst snd].
  - intros (N & _ & _ & T) A. apply list_times_named; assumption.
  - intros T A. apply list_times_plain; assumption.
Qed.
Lemma times_known_in st0 names js : times_known st0 names js -> NoDup js /\ forall j, In j js -> j < snd names.
Proof.
  destruct names as [[ns|] w]; unfold times_known; cbn [fst snd].
  - intros (N & Nn & -> & T). split; [apply T|]. intros j. apply (time_in_lt st0); assumption.
  - intros (N & Lt & _). split; assumption.
Qed.

(* the data columns, and that they make lists *)
Definition listed (st0 : storage) (o : options) (names : lw) (js di : list nat) : Prop :=
  di <> [] /\ (forall j, In j di -> j < snd names) /\
  match chosen_columns st0 o with
  | WAll => di = filter (not_in js) (seq 0 (snd names))
  | WCols l => only_ints l = Some di \/ (only_ints l = None /\ exists n ns, fst names = Some (n :: ns) /\ mapM (label_position (n :: ns)) l = Ok di)
  end.
Definition lists_made (st0 : storage) (o : options) (names : lw) (di : list nat) : Prop :=
  st_dtype st0 = TList \/ (exists l, chosen_columns st0 o = WCols l /\ only_ints l = Some di) \/ (st_dtype st0 = TAuto /\ fst names = None).
Lemma list_columns st0 o f names js di r : times_known st0 names js -> listed st0 o names js di -> lists_made st0 o names di ->
  at_list st0 f names js di r -> tpos_ok st0 js (r_ts r) (r_time r) (r_date r) ->
  exists r3, data_columns o r = (r3, Ok tt) /\ at_list st0 f names js di (set_data_type r3) /\ r_di (set_data_type r3) = Some di /\ r_dtype (set_data_type r3) = Some TList.
Proof.
  intros T (Nd & Hw & Li) Lm A P. destruct A as [A1 A2 A3 A4 A5 A6 A7 A8 K L C Tm F D]. unfold data_columns.
  destruct D as [(D1 & D2)|(D1 & D2 & D3)].
  - rewrite D1. exists r. split; [reflexivity|]. unfold set_data_type. rewrite D2. split; [split; auto|split; assumption].
  - rewrite D1. assert (Ch : match o_filter o with [] => st_labels (r_st r) | f => WCols f end = chosen_columns st0 o) by (unfold chosen_columns; rewrite A2; reflexivity). rewrite Ch.
    (* whatever the names, what follows is the same *)
    assert (G : forall st' ci nm, ci <> [] -> st_tz st' = st_tz st0 -> st_labels st' = st_labels st0 -> st_stype st' = st_stype st0 -> st_sort st' = st_sort st0 -> st_sep st' = st_sep st0 -> st_comments st' = st_comments st0 -> st_skip st' = st_skip st0 -> st_cols st' = st_cols (r_st r) -> st_format st' = st_format (r_st r) ->
      (st_dtype st' = TList \/ (st_dtype st' = TAuto /\ nm = false)) ->
      at_list st0 f names js di (set_data_type (rs_data (rs_st r st') ci (Some di) nm)) /\ r_di (set_data_type (rs_data (rs_st r st') ci (Some di) nm)) = Some di /\ r_dtype (set_data_type (rs_data (rs_st r st') ci (Some di) nm)) = Some TList).
    { intros st' ci nm B0 B1 B2 B3 B4 B5 B6 B7 B8 B9 Bd. unfold set_data_type, rs_data, rs_st. cbn [r_dtype r_st r_names]. rewrite D2.
      assert (Td : match st_dtype st' with TAuto => if nm then TDict else TList | t => t end = TList) by (destruct Bd as [-> |[-> ->]]; reflexivity). rewrite Td. unfold rs_dtype. cbn [r_di r_dtype]. split; [|split; reflexivity].
      split; cbn [r_st r_labels r_ci r_ts r_time r_date r_di r_dtype]; rewrite ?B8, ?B9; auto. discriminate. }
    assert (Nm : forall ns, fst names = Some ns -> exists nm, mapM (fun i => match nth_error ns i with Some l => Ok l | None => Err IndexError end) di = Ok nm).
    { intros ns En. destruct (names_found ns di) as (nm & M & _); [|exists nm; exact M]. intros j J. unfold times_known in T. rewrite En in T. destruct T as (_ & _ & <- & _). apply Hw, J. }
    assert (Nn : forall ns, fst names = Some ns -> exists n ns', ns = n :: ns').
    { intros ns En. unfold times_known in T. rewrite En in T. destruct T as (_ & Q & _). destruct ns as [|n ns]; [contradiction|]. exists n, ns. reflexivity. }
    specialize (A3 D2). destruct (times_known_in _ _ _ T) as (Nj & Lj). unfold lists_made in Lm. rewrite L.
    destruct (chosen_columns st0 o) as [|l].
    + rewrite D3, (table_removed st0 js _ _ _ (snd names) Nj Lj P), <- Li. destruct Lm as [Lm|[(l & Lm & _)|[Lm Ln]]]; [|discriminate|].
      * destruct (fst names) as [ns|] eqn:En.
        { destruct (Nn ns eq_refl) as (n & ns' & ->). destruct (Nm _ eq_refl) as (nm & ->). eexists. split; [reflexivity|]. specialize (G (r_st r) di (match nm with [] => false | _ => true end) Nd). rewrite rs_st_same in G. apply G; auto. left. congruence. }
        eexists. split; [reflexivity|]. specialize (G (r_st r) di false Nd). rewrite rs_st_same in G. apply G; auto. left. congruence.
      * rewrite Ln. eexists. split; [reflexivity|]. specialize (G (r_st r) di false Nd). rewrite rs_st_same in G. apply G; auto. right. split; [congruence|reflexivity].
    + destruct Li as [Li|(Li & n & ns & En & Mp)].
      * rewrite Li. assert (Sd : forall nm, at_list st0 f names js di (set_data_type (rs_data (rs_st r (set_dtype (r_st r) TList)) (r_ci r) (Some di) nm)) /\ r_di (set_data_type (rs_data (rs_st r (set_dtype (r_st r) TList)) (r_ci r) (Some di) nm)) = Some di /\ r_dtype (set_data_type (rs_data (rs_st r (set_dtype (r_st r) TList)) (r_ci r) (Some di) nm)) = Some TList).
        { intros nm. apply G; auto. }
        unfold rs_st at 1. cbn [r_labels]. rewrite L. destruct (fst names) as [ns|] eqn:En.
        { destruct (Nn ns eq_refl) as (n & ns' & ->). destruct (Nm _ eq_refl) as (nm & ->). eexists. split; [reflexivity|]. apply Sd. }
        eexists. split; [reflexivity|]. apply Sd.
      * rewrite Li, En, Mp. destruct (Nm _ En) as (nm & ->). eexists. split; [reflexivity|]. specialize (G (r_st r) (r_ci r) (match nm with [] => false | _ => true end) C). rewrite rs_st_same in G. apply G; auto.
        left. destruct Lm as [Lm|[(l' & Lm & Lo)|[_ Ln]]]; [congruence| |congruence]. injection Lm as <-. congruence.
Qed.

(* ---- a row ---- *)
Definition list_row (nt : num_text) (di : list nat) (fields : list string) : raw := RList (map (fun j => match cellv nt fields j with Some q => q | None => q0 end) di).
Lemma list_data nt r di fields : r_di r = Some di -> r_dtype r = Some TList -> (forall j, In j di -> exists q, cell_number nt fields j q) -> row_data nt r fields = Ok (list_row nt di fields).
Proof.
  intros D T G. unfold row_data, list_row. rewrite T, D. match goal with |- context [mapM ?h di] => set (g := h) end.
  assert (M : mapM g di = Ok (map (fun j => match cellv nt fields j with Some q => q | None => q0 end) di)); [|rewrite M; reflexivity].
  clear D. induction di as [|j di IH]; [reflexivity|]. cbn [mapM map]. destruct (G j (or_introl eq_refl)) as (q & Q). pose proof (proj2 (cellv_iff _ _ _ _) Q) as Ec. rewrite Ec.
  destruct Q as (s & (a & A & B) & V). assert (E : g j = Ok q) by (unfold g, field; rewrite A; cbn [bind]; unfold to_float; rewrite B, V; reflexivity).
  rewrite E. cbn [bind]. rewrite IH by (intros i I; apply G; right; exact I). reflexivity.
Qed.
Lemma list_no_data nt r di fields j : r_di r = Some di -> r_dtype r = Some TList -> In j di -> (forall q, ~ cell_number nt fields j q) ->
  exists x, row_data nt r fields = Err x /\ (x = IndexError \/ x = GenericException).
Proof.
  intros D T J B. unfold row_data. rewrite T, D. match goal with |- context [mapM ?h di] => set (g := h) end.
  assert (E : forall i, (exists x, g i = Err x /\ (x = IndexError \/ x = GenericException)) \/ exists q, cell_number nt fields i q).
  { intros i. unfold g, field. destruct (nth_error fields i) as [a|] eqn:A; [|left; exists IndexError; auto]. cbn [bind]. unfold to_float. destruct (sanitize a) as [s|] eqn:S; [|left; exists GenericException; auto].
    destruct (nt_float nt (comma_to_dot s)) as [q|] eqn:V; [right; exists q, s; split; [exists a; auto|exact V]|left; exists GenericException; auto]. }
  destruct (mapM_err g (fun x => x = IndexError \/ x = GenericException) di) as (x & M & X).
  - intros i x I H. unfold g, field in H. destruct (nth_error fields i) as [a|]; [|injection H as <-; left; reflexivity]. cbn [bind] in H. unfold to_float in H. destruct (sanitize a) as [s|]; [destruct (nt_float nt (comma_to_dot s))|]; cbn [bind] in H; [discriminate|injection H as <-; right; reflexivity|injection H as <-; right; reflexivity].
  - destruct (E j) as [(x & X & _)|(q & Q)]; [exists j, x; auto|exfalso; exact (B q Q)].
  - rewrite M. exists x. split; [reflexivity|exact X].
Qed.
Record list_ok (st : storage) (o : options) (names : lw) (js di : list nat) : Prop := mkListOk {
  lo_limit : o_limit o = 0; lo_time : times_known st names js; lo_cols : listed st o names js di; lo_made : lists_made st o names di }.
Lemma list_item st0 f names js di r x : at_list st0 f names js di r -> at_list st0 f names js di (rs_item r x).
Proof. intros [A1 A2 A3 A4 A5 A6 A7 A8 K L C Tm F D]. unfold rs_item. split; cbn [r_st r_labels r_ci r_ts r_time r_date r_di r_dtype]; auto. Qed.
Lemma list_line nt st0 o f names js di r fields : splits st0 fields -> at_list st0 f names js di r -> row nt o r (line_text st0 fields) = data_row nt o r fields.
Proof. intros S A. unfold row. rewrite (ls_sep _ _ _ _ _ _ A), (splits_back st0 fields S). pose proof (ls_ci _ _ _ _ _ _ A) as C. destruct (r_ci r); [contradiction|reflexivity]. Qed.
Lemma list_row_good nt st0 o f names js di r fields t : list_ok st0 o names js di -> at_list st0 f names js di r -> good_list nt st0 o f js di fields t ->
  exists r', data_row nt o r fields = (r', Ok false) /\ at_list st0 f names js di r' /\ r_items r' = r_items r ++ [(t, list_row nt di fields)].
Proof.
  intros [Ol Ti Co Ma] A G. unfold data_row. destruct (list_times st0 f names js di r Ti A) as (r1 & T & A1 & P1). unfold sbind at 1. rewrite T. cbn [fst snd].
  rewrite (csv_tz_same st0 (r_st r) o (ls_tz _ _ _ _ _ _ A)).
  destruct (list_time nt (csv_tz st0 o) st0 f names js di r1 fields t A1 P1 (proj1 G)) as (s & st2 & S & P & A2). rewrite S, P.
  destruct (list_columns st0 o f names js di (rs_st r1 st2) Ti Co Ma A2 P1) as (r3 & C & A3 & D3 & T3). unfold sbind. rewrite C. cbn [fst snd].
  rewrite (list_data nt (set_data_type r3) di fields D3 T3 (proj2 G)). rewrite Ol. cbn [Nat.eqb negb andb].
  eexists. split; [reflexivity|]. split; [apply list_item, A3|]. unfold rs_item. cbn [r_items]. f_equal.
  destruct (set_data_type_items r3) as [-> _]. destruct (data_columns_items o _ r3 _ C) as [-> _]. cbn [rs_st r_items]. apply (time_columns_items r r1 _ T).
Qed.
Lemma list_row_bad nt st0 o f names js di r fields : list_ok st0 o names js di -> at_list st0 f names js di r -> bad_list nt st0 o f js di fields ->
  exists r', (data_row nt o r fields = (r', if st_skip st0 then Ok false else Err ValueError) \/ data_row nt o r fields = (r', if st_skip st0 then Ok false else Err GenericException)) /\ at_list st0 f names js di r' /\ r_items r' = r_items r.
Proof.
  intros [Ol Ti Co Ma] A B. unfold data_row. destruct (list_times st0 f names js di r Ti A) as (r1 & T & A1 & P1). unfold sbind at 1 3. rewrite T. cbn [fst snd].
  rewrite (csv_tz_same st0 (r_st r) o (ls_tz _ _ _ _ _ _ A)).
  destruct B as [(p & a & Ej & Na & Kd & Un)|((t & Rt) & j & J & B)].
  - destruct (list_no_time nt (csv_tz st0 o) st0 f names js di r1 fields p a A1 P1 Ej Na Kd Un) as (s & S & P). rewrite S, P, (ls_skip _ _ _ _ _ _ A1). exists (rs_st r1 (r_st r1)).
    split; [left; destruct (st_skip st0); reflexivity|]. split; [apply list_same, A1|]. cbn [rs_st r_items]. apply (time_columns_items r r1 _ T).
  - destruct (list_time nt (csv_tz st0 o) st0 f names js di r1 fields t A1 P1 Rt) as (s & st2 & S & P & A2). rewrite S, P.
    destruct (list_columns st0 o f names js di (rs_st r1 st2) Ti Co Ma A2 P1) as (r3 & C & A3 & D3 & T3). unfold sbind. rewrite C. cbn [fst snd].
    destruct (list_no_data nt (set_data_type r3) di fields j D3 T3 J B) as (x & X & Xc). rewrite X, (ls_skip _ _ _ _ _ _ A3).
    exists (set_data_type r3). split; [right; destruct Xc as [-> | ->]; destruct (st_skip st0); reflexivity|]. split; [exact A3|].
    destruct (set_data_type_items r3) as [-> _]. destruct (data_columns_items o _ r3 _ C) as [-> _]. cbn [rs_st r_items]. apply (time_columns_items r r1 _ T).
Qed.

(* ---- all the rows ---- *)
Definition lentry_ok (nt : num_text) (st : storage) (o : options) (f : tformat) (js di : list nat) (x : entry) : Prop :=
  splits st (fst x) /\ match snd x with Some t => good_list nt st o f js di (fst x) t | None => st_skip st = true /\ bad_list nt st o f js di (fst x) end.
Definition lentry_rows (nt : num_text) (di : list nat) (l : list entry) : list (Qc * raw) :=
  flat_map (fun x => match snd x with Some t => [(t, list_row nt di (fst x))] | None => [] end) l.
Lemma not_skipped st st' fields : splits st fields -> st_sep st' = st_sep st -> st_comments st' = st_comments st -> skipped st' (line_text st fields) = false.
Proof.
  intros S E1 E2. destruct (skipped st' (line_text st fields)) eqn:Q; [|reflexivity]. exfalso. apply ignored_skipped in Q. apply (proj2 (proj2 S)). unfold ignored in *. rewrite E1, E2 in Q. exact Q.
Qed.
Lemma list_entry nt st0 o f names js di r x : list_ok st0 o names js di -> at_list st0 f names js di r -> lentry_ok nt st0 o f js di x ->
  exists r1, data_row nt o r (fst x) = (r1, Ok false) /\ at_list st0 f names js di r1 /\ r_items r1 = r_items r ++ lentry_rows nt di [x].
Proof.
  intros To A (S & E). destruct x as [fields [t|]]; cbn [fst snd] in *; unfold lentry_rows; cbn [flat_map fst snd app].
  - exact (list_row_good nt st0 o f names js di r fields t To A E).
  - destruct E as [Sp E]. destruct (list_row_bad nt st0 o f names js di r fields To A E) as (r1 & R & A1 & I1). rewrite Sp in R. exists r1. split; [destruct R; assumption|]. split; [exact A1|]. rewrite app_nil_r. exact I1.
Qed.
Lemma list_rows nt st0 o f names js di l r : list_ok st0 o names js di -> at_list st0 f names js di r -> (forall x, In x l -> lentry_ok nt st0 o f js di x) ->
  exists r', rows nt o r (map (fun x => line_text st0 (fst x)) l) = (r', Ok tt) /\ at_list st0 f names js di r' /\ r_items r' = r_items r ++ lentry_rows nt di l.
Proof.
  intros To. revert r. induction l as [|x l IH]; intros r A H.
  - exists r. split; [reflexivity|]. split; [exact A|]. rewrite app_nil_r. reflexivity.
  - cbn [map rows]. pose proof (H x (or_introl eq_refl)) as Hx. rewrite (not_skipped st0 (r_st r) (fst x) (proj1 Hx) (ls_sep _ _ _ _ _ _ A) (ls_comments _ _ _ _ _ _ A)).
    unfold sbind. rewrite (list_line nt st0 o f names js di r (fst x) (proj1 Hx) A). destruct (list_entry nt st0 o f names js di r x To A Hx) as (r1 & R & A1 & I1). rewrite R. cbn [fst snd].
    destruct (IH r1 A1) as (r2 & R2 & A2 & I2); [intros y Y; apply H; right; exact Y|]. exists r2. split; [exact R2|]. split; [exact A2|]. rewrite I2, I1, <- app_assoc. f_equal.
    unfold lentry_rows. cbn [flat_map]. rewrite app_nil_r. reflexivity.
Qed.
