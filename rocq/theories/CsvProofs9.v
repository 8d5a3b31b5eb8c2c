(* CsvProofs9.v -- reading tables: a header, and rows. *)
From Coq Require Import Permutation.
From Verif Require Import SpecCsv SpecIntervals BaseLemmas DictLemmas PropTactics SeriesProofs2 SeriesProofs3 AccessProofs AccessProofs2 OpsProofs OpsProofs3 TransformProofs5 SamplingProofs CsvProofs CsvProofs2 CsvProofs3 CsvProofs4 CsvProofs5 CsvProofs7 CsvProofs8.

(* ---- labels and positions ---- *)
Lemma index_of_nth names j l : NoDup names -> nth_error names j = Some l -> index_of l names = Some j.
Proof.
  revert j. induction names as [|n names IH]; intros [|j] N H; cbn in H; try discriminate.
  - injection H as ->. cbn [index_of]. rewrite String.eqb_refl. reflexivity.
  - inversion N as [|? ? N1 N2]; subst. cbn [index_of]. destruct (String.eqb_spec l n) as [->|_]; [exfalso; apply N1; eapply nth_error_In, H|]. rewrite (IH j N2 H). reflexivity.
Qed.
Lemma column_found names c j : NoDup names -> column_is names c j -> find_col (Some names) c = Ok j.
Proof. intros N [L H]. destruct c as [i|l]; cbn [find_col]; [rewrite H; reflexivity|]. rewrite (index_of_nth names j l N H). reflexivity. Qed.
Lemma index_label_iff l : is_index_label l = true <-> index_label l.
Proof.
  split.
  - intros H. destruct (is_index_label l) eqn:E; [|discriminate]. destruct l as [|a [|b r]]; [discriminate| |].
    + destruct a as [[] [] [] [] [] [] [] []]; discriminate.
    + exists r. unfold is_index_label in E. destruct a as [[] [] [] [] [] [] [] []]; try discriminate. destruct b as [[] [] [] [] [] [] [] []]; try discriminate. reflexivity.
  - intros (r & ->). reflexivity.
Qed.

(* ---- the time columns ---- *)
Definition tpos_ok (st : storage) (js : list nat) (ts ti da : option nat) : Prop :=
  match st_cols st with
  | TsParts (Some _) (Some _) => exists p q, js = [p; q] /\ ts = None /\ ti = Some p /\ da = Some q
  | TsParts (Some _) None => exists p, js = [p] /\ ts = None /\ ti = Some p /\ da = None
  | TsParts None (Some _) => exists p, js = [p] /\ ts = None /\ ti = None /\ da = Some p
  | TsParts None None => False
  | _ => exists p, js = [p] /\ ts = Some p /\ ti = None /\ da = None
  end.
Record at_table (st0 : storage) (f : tformat) (names : list string) (js di : list nat) (r : rstate) : Prop := mkAt {
  tb_tz : st_tz (r_st r) = st_tz st0; tb_wanted : st_labels (r_st r) = st_labels st0; tb_dtype : st_dtype (r_st r) = st_dtype st0;
  tb_stype : st_stype (r_st r) = st_stype st0; tb_sort : st_sort (r_st r) = st_sort st0; tb_sep : st_sep (r_st r) = st_sep st0;
  tb_comments : st_comments (r_st r) = st_comments st0; tb_skip : st_skip (r_st r) = st_skip st0;
  tb_kind : match st_cols st0 with TsParts a b => st_cols (r_st r) = TsParts a b | _ => match st_cols (r_st r) with TsParts _ _ => False | _ => True end end;
  tb_labels : r_labels r = Some names;
  tb_ci : r_ci r <> [];
  tb_time : tpos_ok st0 js (r_ts r) (r_time r) (r_date r) \/ (r_ts r = None /\ r_time r = None /\ r_date r = None /\ st_cols (r_st r) = st_cols st0);
  tb_format : st_format (r_st r) = st_format st0 \/ (st_format st0 = FAuto /\ st_format (r_st r) = f);
  tb_data : (r_di r = Some di /\ r_dtype r = Some TDict) \/ (r_di r = None /\ r_dtype r = None /\ r_ci r = seq 0 (length names)) }.

Lemma table_times st0 f names js di r : NoDup names -> time_in st0 names js -> at_table st0 f names js di r ->
  exists r1, time_columns r = (r1, Ok tt) /\ at_table st0 f names js di r1 /\ tpos_ok st0 js (r_ts r1) (r_time r1) (r_date r1).
Proof.
  intros N [Nj T] A. unfold time_columns. destruct A as [A1 A2 A3 A4 A5 A6 A7 A8 K L C Tm F D]. rewrite L.
  destruct Tm as [P|(Ts & Ti & Da & Ec)].
  - exists r. assert (X : time_columns r = (r, Ok tt)); [|unfold time_columns in X; rewrite L in X; rewrite X; split; [reflexivity|]; split; [|exact P]; split; auto].
    unfold time_columns. unfold tpos_ok in P. destruct (st_cols st0) as [|c|ti da] eqn:E0.
    + destruct P as (p & _ & P & _). destruct (st_cols (r_st r)) as [|c|]; [rewrite P; reflexivity|rewrite P; reflexivity|contradiction].
    + destruct P as (p & _ & P & _). destruct (st_cols (r_st r)) as [|c'|]; [rewrite P; reflexivity|rewrite P; reflexivity|contradiction].
    + rewrite K. destruct ti as [[c tf]|]; destruct da as [[d df]|]; [destruct P as (p & q & _ & P1 & P2 & P3)|destruct P as (p & _ & P1 & P2 & P3)|destruct P as (p & _ & P1 & P2 & P3)|contradiction];
        rewrite P2, P3; cbn [find_part]; unfold rs_times; rewrite P1; destruct r; cbn in *; subst; reflexivity.
  - rewrite Ec. unfold tpos_ok. destruct (st_cols st0) as [|c|ti da] eqn:E0.
    + rewrite Ts, Ti, Da. destruct T as (p & -> & [[Hp Ht]|[(Nt & Hp & Ht)|(Nt & Ne & ->)]]).
      * rewrite (index_of_nth names p _ N Ht). eexists. split; [reflexivity|]. unfold rs_times, rs_st. cbn [r_st r_ts r_time r_date]. split; [|exists p; repeat split].
        split; cbn [r_st r_labels r_ci r_ts r_time r_date r_di r_dtype set_cols st_cols st_tz st_labels st_dtype st_stype st_sort st_sep st_comments st_skip st_format]; auto; [rewrite E0; exact I|]. left. unfold tpos_ok. rewrite E0. exists p. repeat split.
      * rewrite (index_of_None _ _ Nt), (index_of_nth names p _ N Ht). eexists. split; [reflexivity|]. unfold rs_times, rs_st. cbn [r_st r_ts r_time r_date]. split; [|exists p; repeat split].
        split; cbn [r_st r_labels r_ci r_ts r_time r_date r_di r_dtype set_cols st_cols st_tz st_labels st_dtype st_stype st_sort st_sep st_comments st_skip st_format]; auto; [rewrite E0; exact I|]. left. unfold tpos_ok. rewrite E0. exists p. repeat split.
      * rewrite (index_of_None _ _ Nt), (index_of_None _ _ Ne). eexists. split; [reflexivity|]. unfold rs_times. cbn [r_st r_ts r_time r_date]. split; [|exists 0; repeat split].
        split; cbn [r_st r_labels r_ci r_ts r_time r_date r_di r_dtype]; auto; [rewrite E0; exact K|]. left. unfold tpos_ok. rewrite E0. exists 0. repeat split.
    + rewrite Ts, Ti, Da. destruct T as (p & -> & Hp). rewrite (column_found names c p N Hp). eexists. split; [reflexivity|]. unfold rs_times. cbn [r_st r_ts r_time r_date]. split; [|exists p; repeat split].
      split; cbn [r_st r_labels r_ci r_ts r_time r_date r_di r_dtype]; auto; [rewrite E0; exact K|]. left. unfold tpos_ok. rewrite E0. exists p. repeat split.
    + rewrite Ti, Da. destruct ti as [[c tf]|]; destruct da as [[d df]|]; cbn [find_part].
      * destruct T as (p & q & -> & Hp & Hq). rewrite (column_found names c p N Hp), (column_found names d q N Hq). cbn [bind]. eexists. split; [reflexivity|]. unfold rs_times. cbn [r_st r_ts r_time r_date]. split; [|exists p, q; auto].
        split; cbn [r_st r_labels r_ci r_ts r_time r_date r_di r_dtype]; auto; [rewrite E0; exact K|]. left. unfold tpos_ok. rewrite E0. exists p, q. auto.
      * destruct T as (p & -> & Hp). rewrite (column_found names c p N Hp). cbn [bind]. eexists. split; [reflexivity|]. unfold rs_times. cbn [r_st r_ts r_time r_date]. split; [|exists p; auto].
        split; cbn [r_st r_labels r_ci r_ts r_time r_date r_di r_dtype]; auto; [rewrite E0; exact K|]. left. unfold tpos_ok. rewrite E0. exists p. auto.
      * destruct T as (p & -> & Hp). rewrite (column_found names d p N Hp). cbn [bind]. eexists. split; [reflexivity|]. unfold rs_times. cbn [r_st r_ts r_time r_date]. split; [|exists p; auto].
        split; cbn [r_st r_labels r_ci r_ts r_time r_date r_di r_dtype]; auto; [rewrite E0; exact K|]. left. unfold tpos_ok. rewrite E0. exists p. auto.
      * contradiction.
Qed.

(* The storage with another format is still that of the table. *)
Lemma table_format st0 f names js di r g : at_table st0 f names js di r -> st_format st0 = FAuto /\ g = f -> at_table st0 f names js di (rs_st r (set_format (r_st r) g)).
Proof.
  intros [A1 A2 A3 A4 A5 A6 A7 A8 K L C Tm F D] [E ->]. unfold rs_st. split; cbn [r_st r_labels r_ci r_ts r_time r_date r_di r_dtype set_format st_cols st_tz st_labels st_dtype st_stype st_sort st_sep st_comments st_skip st_format]; auto.
Qed.
Lemma table_same st0 f names js di r : at_table st0 f names js di r -> at_table st0 f names js di (rs_st r (r_st r)).
Proof. intros H. rewrite rs_st_same. exact H. Qed.

Lemma part_text fields p a : cell_text fields p a -> part fields (Some p) = Ok (Some a).
Proof. intros (x & X & S). unfold part, field. rewrite X. cbn [bind]. rewrite S. reflexivity. Qed.

Lemma table_time nt tz st0 f names js di r1 fields t : at_table st0 f names js di r1 -> tpos_ok st0 js (r_ts r1) (r_time r1) (r_date r1) -> row_time nt tz st0 f js fields t ->
  exists s st2, timestamp_text r1 fields = Ok s /\ parse_time nt tz (r_st r1) s = (st2, Some t) /\ at_table st0 f names js di (rs_st r1 st2).
Proof.
  intros A P R. pose proof (tb_kind _ _ _ _ _ _ A) as K. pose proof (tb_format _ _ _ _ _ _ A) as F. unfold row_time, tpos_ok in *. unfold timestamp_text, parse_time.
  assert (One : forall p, js = [p] -> r_ts r1 = Some p -> match st_cols (r_st r1) with TsParts _ _ => False | _ => True end -> (exists a, cell_text fields p a /\ time_read nt tz st0 f a t) ->
    exists s st2, match r_ts r1 with Some i => part fields (Some i) | None => do ti <- part fields (r_time r1); do da <- part fields (r_date r1); Ok (match ti, da with Some t, Some d => Some (d ++ tab ++ t)%string | t, None => t | None, d => d end) end = Ok s /\ parse_time nt tz (r_st r1) s = (st2, Some t) /\ at_table st0 f names js di (rs_st r1 st2)).
  { intros p -> Ts Kd (a & Ca & Q1 & Q2). rewrite Ts, (part_text fields p a Ca). exists (Some a). unfold parse_time.
    assert (G : exists st2, match st_format (r_st r1) with
        | FAuto => match nt_float nt a with Some t => (set_format (r_st r1) FEpoch, Some t) | None => match nt_dt nt tz a with Some t => (set_format (r_st r1) FIso, Some t) | None => (r_st r1, None) end end
        | FEpoch => (r_st r1, nt_float nt a) | FIso => (r_st r1, nt_dt nt tz a) | FCustom f => (r_st r1, nt_strp nt f tz a) end = (st2, Some t) /\ at_table st0 f names [p] di (rs_st r1 st2)).
    { destruct (st_format st0) as [| | |g0] eqn:E0.
      - destruct f as [| | |g]; [contradiction| | |destruct Q2; discriminate].
        + assert (F' : st_format (r_st r1) = FAuto \/ st_format (r_st r1) = FEpoch) by (destruct F as [F|[_ F]]; [left|right]; exact F).
          destruct F' as [F'|F']; rewrite F', Q2; [eexists; split; [reflexivity|apply table_format; [exact A|split; [exact E0|reflexivity]]]|eexists; split; [reflexivity|apply table_same, A]].
        + destruct Q2 as [Q2 Q3]. assert (F' : st_format (r_st r1) = FAuto \/ st_format (r_st r1) = FIso) by (destruct F as [F|[_ F]]; [left|right]; exact F).
          destruct F' as [F'|F']; rewrite F', ?(Q3 eq_refl), Q2; [eexists; split; [reflexivity|apply table_format; [exact A|split; [exact E0|reflexivity]]]|eexists; split; [reflexivity|apply table_same, A]].
      - assert (F' : st_format (r_st r1) = FEpoch) by (destruct F as [F|[F _]]; [exact F|discriminate]). rewrite F'. destruct Q1 as [<-|Q1]; [|discriminate]. rewrite Q2. eexists. split; [reflexivity|apply table_same, A].
      - assert (F' : st_format (r_st r1) = FIso) by (destruct F as [F|[F _]]; [exact F|discriminate]). rewrite F'. destruct Q1 as [<-|Q1]; [|discriminate]. rewrite (proj1 Q2). eexists. split; [reflexivity|apply table_same, A].
      - assert (F' : st_format (r_st r1) = FCustom g0) by (destruct F as [F|[F _]]; [exact F|discriminate]). rewrite F'. destruct Q1 as [<-|Q1]; [|discriminate]. rewrite (proj2 Q2). eexists. split; [reflexivity|apply table_same, A]. }
    destruct G as (st2 & G1 & G2). exists st2. split; [reflexivity|]. split; [|exact G2]. destruct (st_cols (r_st r1)) as [| |]; [exact G1|exact G1|contradiction]. }
  destruct (st_cols st0) as [|c|ti da] eqn:E0.
  - destruct P as (p & -> & Ts & _). exact (One p eq_refl Ts K R).
  - destruct P as (p & -> & Ts & _). exact (One p eq_refl Ts K R).
  - clear One. rewrite K. destruct ti as [[c tf]|]; destruct da as [[d df]|].
    + destruct P as (p & q & -> & -> & -> & ->). destruct R as (a & b & Ca & Cb & R). rewrite (part_text _ _ _ Ca), (part_text _ _ _ Cb). cbn [bind]. eexists. eexists. split; [reflexivity|]. split; [rewrite R; reflexivity|apply table_same, A].
    + destruct P as (p & -> & -> & -> & ->). destruct R as (a & Ca & R). rewrite (part_text _ _ _ Ca). cbn [bind part]. eexists. eexists. split; [reflexivity|]. cbv beta iota. split; [rewrite R; reflexivity|apply table_same, A].
    + destruct P as (p & -> & -> & -> & ->). destruct R as (a & Ca & R). rewrite (part_text _ _ _ Ca). cbn [bind part]. eexists. eexists. split; [reflexivity|]. cbv beta iota. split; [rewrite R; reflexivity|apply table_same, A].
    + contradiction.
Qed.
Lemma table_no_time nt tz st0 f names js di r1 fields p a : at_table st0 f names js di r1 -> tpos_ok st0 js (r_ts r1) (r_time r1) (r_date r1) ->
  js = [p] -> nth_error fields p = Some a -> match st_cols st0 with TsParts _ _ => False | _ => True end ->
  (forall s, sanitize a = Some s -> nt_float nt s = None /\ nt_dt nt tz s = None /\ forall g, nt_strp nt g tz s = None) ->
  exists s, timestamp_text r1 fields = Ok s /\ parse_time nt tz (r_st r1) s = (r_st r1, None).
Proof.
  intros A P -> Na Kd Un. pose proof (tb_kind _ _ _ _ _ _ A) as K. unfold tpos_ok in P.
  assert (Ts : r_ts r1 = Some p) by (destruct (st_cols st0); [| |contradiction]; destruct P as (p' & Q & P & _); injection Q as <-; exact P).
  assert (K' : match st_cols (r_st r1) with TsParts _ _ => False | _ => True end) by (destruct (st_cols st0); [exact K|exact K|contradiction]).
  unfold timestamp_text. rewrite Ts. unfold part, field. rewrite Na. cbn [bind]. exists (sanitize a). split; [reflexivity|]. unfold parse_time. destruct (sanitize a) as [s|]; [|reflexivity]. destruct (Un s eq_refl) as (U1 & U2 & U3).
  assert (X : match st_format (r_st r1) with
        | FAuto => match nt_float nt s with Some t => (set_format (r_st r1) FEpoch, Some t) | None => match nt_dt nt tz s with Some t => (set_format (r_st r1) FIso, Some t) | None => (r_st r1, None) end end
        | FEpoch => (r_st r1, nt_float nt s) | FIso => (r_st r1, nt_dt nt tz s) | FCustom f => (r_st r1, nt_strp nt f tz s) end = (r_st r1, None)) by (destruct (st_format (r_st r1)); rewrite ?U1, ?U2, ?U3; reflexivity).
  destruct (st_cols (r_st r1)) as [| |]; [exact X|exact X|contradiction].
Qed.

(* ---- the data columns ---- *)
Definition not_in (js : list nat) (j : nat) : bool := negb (existsb (Nat.eqb j) js).
Lemma not_in_iff js j : not_in js j = true <-> ~ In j js.
Proof.
  unfold not_in. rewrite negb_true_iff. split.
  - intros H I. assert (E : existsb (Nat.eqb j) js = true) by (apply existsb_exists; exists j; split; [exact I|apply Nat.eqb_refl]). congruence.
  - intros H. destruct (existsb (Nat.eqb j) js) eqn:E; [|reflexivity]. exfalso. apply H. apply existsb_exists in E. destruct E as (x & X & Q). apply Nat.eqb_eq in Q. subst. exact X.
Qed.
Definition columns_are (st : storage) (o : options) (names : list string) (js di : list nat) : Prop :=
  match chosen_columns st o with
  | WAll => di = filter (not_in js) (seq 0 (length names))
  | WCols l => only_ints l = None /\ mapM (label_position names) l = Ok di
  end.
Lemma positions_exist st o names js : NoDup names -> columns_found st o names js ->
  exists di, columns_are st o names js di /\ di <> [] /\ forall j, In j di <-> read_column st o names js j.
Proof.
  intros N [(j0 & J0) Cf]. unfold columns_are, read_column in *. destruct (chosen_columns st o) as [|l].
  - exists (filter (not_in js) (seq 0 (length names))). assert (Q : forall j, In j (filter (not_in js) (seq 0 (length names))) <-> j < length names /\ ~ In j js) by (intros j; rewrite filter_In, in_seq, not_in_iff; split; intros [A B]; (split; [lia|exact B])).
    split; [reflexivity|]. split; [|exact Q]. intros E. apply Q in J0. rewrite E in J0. destruct J0.
  - assert (M : exists di, mapM (label_position names) l = Ok di /\ forall j, In j di <-> exists lb, In (ColL lb) l /\ nth_error names j = Some lb).
    { clear J0. induction l as [|c l IH]; [exists []; split; [reflexivity|intros j; split; [intros []|intros (lb & [] & _)]]|]. destruct IH as (di & M & Q); [intros c' H; apply Cf; right; exact H|].
      destruct (Cf c (or_introl eq_refl)) as (lb & -> & Hl). apply In_nth_error in Hl. destruct Hl as (i & Hi). exists (i :: di). cbn [mapM label_position]. rewrite (index_of_nth names i lb N Hi). cbn [bind]. rewrite M. split; [reflexivity|].
      intros j. cbn [In]. rewrite Q. split.
      - intros [->|(l' & L1 & L2)]; [exists lb; auto|exists l'; auto].
      - intros (l' & [E|L1] & L2); [left; injection E as <-; apply (index_of_nth names j lb N) in L2; rewrite (index_of_nth names i lb N Hi) in L2; congruence|right; exists l'; auto]. }
    destruct M as (di & M & Q). exists di. split; [|split; [|exact Q]].
    + split; [|exact M]. destruct J0 as (lb & L & _). destruct l as [|c l]; [destruct L|]. destruct (Cf c (or_introl eq_refl)) as (l' & -> & _). reflexivity.
    + intros E. apply Q in J0. rewrite E in J0. destruct J0.
Qed.
Lemma nat_remove_filter i l : NoDup l -> In i l -> nat_remove i l = Ok (filter (not_in [i]) l).
Proof.
  induction l as [|j l IH]; intros N H; [destruct H|]. cbn [nat_remove filter]. unfold not_in at 1. cbn [existsb]. rewrite (Nat.eqb_sym j i). destruct (Nat.eqb_spec i j) as [->|Ne]; cbn [orb negb].
  - f_equal. symmetry. apply filter_all. intros x X. apply not_in_iff. intros [->|[]]. inversion N; contradiction.
  - destruct H as [H|H]; [congruence|]. inversion N; subst. rewrite IH by assumption. reflexivity.
Qed.
Lemma filter_filter {A} (f g : A -> bool) l : filter f (filter g l) = filter (fun x => g x && f x) l.
Proof. induction l as [|a l IH]; [reflexivity|]. cbn [filter]. destruct (g a); cbn [filter andb]; [destruct (f a)|]; rewrite IH; reflexivity. Qed.
Lemma table_removed st0 js ts ti da n : NoDup js -> (forall j, In j js -> j < n) -> tpos_ok st0 js ts ti da ->
  (do a <- remove_opt ts (seq 0 n); do b <- remove_opt ti a; remove_opt da b) = Ok (filter (not_in js) (seq 0 n)).
Proof.
  intros N H P. unfold tpos_ok in P. assert (Ns : NoDup (seq 0 n)) by apply seq_NoDup.
  assert (One : forall p, js = [p] -> nat_remove p (seq 0 n) = Ok (filter (not_in js) (seq 0 n))) by (intros p ->; apply nat_remove_filter; [exact Ns|apply in_seq; specialize (H p (or_introl eq_refl)); lia]).
  destruct (st_cols st0) as [|c|[[c tf]|] [[d df]|]]; [destruct P as (p & E & -> & -> & ->)|destruct P as (p & E & -> & -> & ->)|destruct P as (p & q & E & -> & -> & ->)|destruct P as (p & E & -> & -> & ->)|destruct P as (p & E & -> & -> & ->)|contradiction]; cbn [remove_opt bind].
  - rewrite (One p E). reflexivity.
  - rewrite (One p E). reflexivity.
  - subst js. rewrite nat_remove_filter; [|exact Ns|apply in_seq; specialize (H p (or_introl eq_refl)); lia]. cbn [bind]. inversion N as [|? ? N1 N2]; subst.
    rewrite nat_remove_filter; [|apply NoDup_filter, Ns|apply filter_In; split; [apply in_seq; specialize (H q (or_intror (or_introl eq_refl))); lia|apply not_in_iff; intros [->|[]]; apply N1; left; reflexivity]].
    rewrite filter_filter. f_equal. apply filter_ext. intros x. unfold not_in. cbn [existsb]. destruct (Nat.eqb x p), (Nat.eqb x q); reflexivity.
  - rewrite (One p E). reflexivity.
  - apply One, E.
Qed.

Lemma names_found (names : list string) (di : list nat) : (forall j, In j di -> j < length names) -> exists nm, mapM (fun i => match nth_error names i with Some l => Ok l | None => Err IndexError end) di = Ok nm /\ length nm = length di.
Proof.
  induction di as [|j di IH]; intros H; [exists []; split; reflexivity|]. destruct IH as (nm & M & L); [intros i I; apply H; right; exact I|].
  destruct (nth_error names j) as [l|] eqn:E; [|exfalso; apply nth_error_None in E; specialize (H j (or_introl eq_refl)); lia]. exists (l :: nm). cbn [mapM]. rewrite E. cbn [bind]. rewrite M. split; [reflexivity|cbn [length]; rewrite L; reflexivity].
Qed.
Lemma read_column_lt st o names js j : read_column st o names js j -> j < length names.
Proof. unfold read_column. destruct (chosen_columns st o); [intros [H _]; exact H|]. intros (lb & _ & H). apply nth_error_Some. congruence. Qed.
Lemma time_in_lt st names js j : names <> [] -> time_in st names js -> In j js -> j < length names.
Proof.
  intros Nn [_ T]. assert (L0 : 0 < length names) by (destruct names; [contradiction|cbn; lia]). destruct (st_cols st) as [|c|[[c tf]|] [[d df]|]].
  - destruct T as (p & -> & [[H _]|[(_ & H & _)|(_ & _ & ->)]]); intros [<-|[]]; assumption.
  - destruct T as (p & -> & [H _]). intros [<-|[]]. exact H.
  - destruct T as (p & q & -> & [H _] & [H' _]). intros [<-|[<-|[]]]; assumption.
  - destruct T as (p & -> & [H _]). intros [<-|[]]. exact H.
  - destruct T as (p & -> & [H _]). intros [<-|[]]. exact H.
  - contradiction.
Qed.
Lemma table_columns st0 o f names js di r : NoDup names -> names <> [] -> time_in st0 names js -> columns_are st0 o names js di -> di <> [] -> (forall j, In j di <-> read_column st0 o names js j) ->
  st_dtype st0 = TAuto \/ st_dtype st0 = TDict -> at_table st0 f names js di r -> tpos_ok st0 js (r_ts r) (r_time r) (r_date r) ->
  exists r3, data_columns o r = (r3, Ok tt) /\ at_table st0 f names js di (set_data_type r3) /\ r_di (set_data_type r3) = Some di /\ r_dtype (set_data_type r3) = Some TDict.
Proof.
  intros N Nn T Ca Nd Q Dt A P. destruct A as [A1 A2 A3 A4 A5 A6 A7 A8 K L C Tm F D]. unfold data_columns.
  destruct D as [(D1 & D2)|(D1 & D2 & D3)].
  - rewrite D1. exists r. split; [reflexivity|]. unfold set_data_type. rewrite D2. split; [split; auto|split; assumption].
  - rewrite D1. assert (Ch : match o_filter o with [] => st_labels (r_st r) | f => WCols f end = chosen_columns st0 o) by (unfold chosen_columns; rewrite A2; reflexivity). rewrite Ch. unfold columns_are in Ca.
    destruct (names_found names di) as (nm & M & Ln); [intros j J; apply Q in J; exact (read_column_lt _ _ _ _ _ J)|]. assert (Nm : nm <> []) by (intros ->; destruct di; [contradiction|discriminate]).
    assert (G : forall r', r' = rs_data r (r_ci r) (Some di) (match nm with [] => false | _ => true end) \/ r' = rs_data r di (Some di) (match nm with [] => false | _ => true end) ->
      at_table st0 f names js di (set_data_type r') /\ r_di (set_data_type r') = Some di /\ r_dtype (set_data_type r') = Some TDict).
    { intros r' Hr. assert (E : r_dtype r' = None /\ r_names r' = true /\ r_di r' = Some di /\ r_ci r' <> [] /\ r_st r' = r_st r /\ r_labels r' = r_labels r /\ r_ts r' = r_ts r /\ r_time r' = r_time r /\ r_date r' = r_date r).
      { destruct nm; [contradiction|]. destruct Hr as [-> | ->]; unfold rs_data; cbn [r_dtype r_names r_di r_ci r_st r_labels r_ts r_time r_date]; repeat split; auto. }
      destruct E as (E1 & E2 & E3 & E4 & E5 & E6 & E7 & E8 & E9). unfold set_data_type. rewrite E1, E5, A3, E2.
      assert (Td : match st_dtype st0 with TAuto => if true then TDict else TList | t => t end = TDict) by (destruct Dt as [-> | ->]; reflexivity). rewrite Td. unfold rs_dtype. cbn [r_di r_dtype]. split; [|split; [exact E3|reflexivity]].
      split; cbn [r_st r_labels r_ci r_ts r_time r_date r_di r_dtype]; rewrite ?E5, ?E6, ?E7, ?E8, ?E9; auto. }
    rewrite L. destruct (chosen_columns st0 o) as [|l].
    + rewrite D3, (table_removed st0 js _ _ _ (length names) (proj1 T) (fun j => time_in_lt st0 names js j Nn T) P). rewrite <- Ca. destruct names as [|n0 names]; [contradiction|]. rewrite M. eexists. split; [reflexivity|]. apply G. right. reflexivity.
    + destruct Ca as [Ci Cm]. rewrite Ci. destruct names as [|n0 names]; [contradiction|]. rewrite Cm, M. eexists. split; [reflexivity|]. apply G. left. reflexivity.
Qed.
