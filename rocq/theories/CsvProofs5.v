(* CsvProofs5.v -- the round trip. *)
From Verif Require Import SpecCsv SpecIntervals BaseLemmas DictLemmas PropTactics SeriesProofs2 SeriesProofs3 AccessProofs AccessProofs2 OpsProofs OpsProofs3 InterpProofs SamplingProofs CsvProofs CsvProofs2 CsvProofs3 CsvProofs4.

Lemma one_of_iff q l : one_of q l = true <-> exists z, In z l /\ q = qz z.
Proof.
  unfold one_of. rewrite existsb_exists. split; intros (z & Z1 & Z2); exists z; (split; [exact Z1|]); [apply qeqb_eq, Z2|subst q; apply qeqb_refl].
Qed.
Lemma one_of_false q l : (forall z, In z l -> q <> qz z) -> one_of q l = false.
Proof. intros H. destruct (one_of q l) eqn:E; [|reflexivity]. apply one_of_iff in E. destruct E as (z & Z1 & Z2). exfalso. exact (H z Z1 Z2). Qed.
Lemma auto_unit_other k b q : ~ calendar_long q -> auto_unit k b (Some q) = if negb b then Ok None else if one_of q [3600; 1800; 900; 600; 300; 60]%Z then Ok (Some (UPhys q)) else do u <- ce_secs k q; Ok (Some u).
Proof.
  intros H. unfold auto_unit. rewrite (one_of_false q [86400*365; 886400*366]%Z), (one_of_false q [86400*31; 86400*30; 86400*28]%Z), (one_of_false q [3600*24; 3600*23; 3600*25]%Z); [reflexivity| | |].
  - intros z Hz ->. apply H. left. destruct Hz as [<-|[<-|[<-|[]]]]; [right; left|left|right; right]; reflexivity.
  - intros z Hz ->. apply H. right; left. destruct Hz as [<-|[<-|[<-|[]]]]; [right; right|right; left|left]; reflexivity.
  - intros z Hz ->. apply H. right; right. destruct Hz as [<-|[<-|[]]]; [left|right]; reflexivity.
Qed.
Lemma auto_unit_usual k q : ~ calendar_long q -> usual_length q \/ ce_secs k q = Ok (UPhys q) -> auto_unit k true (Some q) = Ok (Some (UPhys q)).
Proof.
  intros H U. rewrite auto_unit_other by exact H. cbn [negb]. destruct (one_of q _) eqn:E; [reflexivity|]. destruct U as [U|U]; [exfalso|rewrite U; reflexivity].
  assert (X : one_of q [3600; 1800; 900; 600; 300; 60]%Z = true); [|congruence]. apply one_of_iff.
  unfold usual_length in U. destruct U as [<-|[<-|[<-|[<-|[<-|[<-|[]]]]]]]; eexists; (split; [|reflexivity]); cbn [In]; tauto.
Qed.
Lemma auto_unit_day k b q : day_long q -> auto_unit k b (Some q) = Ok (Some (UCal "1D")).
Proof. intros [-> | [-> | ->]]; destruct b; vm_compute; reflexivity. Qed.
Lemma auto_unit_month k b q : month_long q -> auto_unit k b (Some q) = Ok (Some (UCal "1M")).
Proof. intros [-> | [-> | ->]]; destruct b; vm_compute; reflexivity. Qed.
Lemma auto_unit_year k b q : year_long q -> auto_unit k b (Some q) = Ok (Some (UCal "1Y")).
Proof. intros [-> | ->]; destruct b; vm_compute; reflexivity. Qed.
Lemma auto_unit_total k q : (forall d, exists u, ce_secs k d = Ok u) -> exists u, auto_unit k true (Some q) = Ok (Some u).
Proof.
  intros H. unfold auto_unit. destruct (one_of q _); [eexists; reflexivity|]. destruct (one_of q _); [eexists; reflexivity|]. destruct (one_of q _); [eexists; reflexivity|]. cbn [negb].
  destruct (one_of q _); [eexists; reflexivity|]. destruct (H q) as [u ->]. eexists; reflexivity.
Qed.

Lemma first_dist l P i a b : first_distances l P -> nth_error (firstn 11 (map i_t l)) i = Some a -> nth_error (firstn 11 (map i_t l)) (S i) = Some b -> P (Qcminus b a).
Proof.
  intros H A B. rewrite firstn_map in A, B. rewrite nth_error_map in A, B. unfold first_distances, consecutive in H.
  destruct (nth_error (firstn 11 l) i) as [x|] eqn:X; [|discriminate]. destruct (nth_error (firstn 11 l) (S i)) as [y|] eqn:Y; [|discriminate]. cbn [option_map] in *. injection A as <-. injection B as <-. exact (H i x y X Y).
Qed.

(* The labels and the indexes of a series which can be written. *)
Lemma series_columns e s : healthy e s -> writable (s_items s) -> exists ls ix x0 r, s_items s = x0 :: r /\ labels_of s = Ok ls /\ ix = all_indexes (s_items s) /\ columns_ok ls ix /\
  (forall x, In x (s_items s) -> numeric_item x /\ (forall l, In l ls <-> has_label x l) /\ (forall i, In i ix <-> In i (dkeys (i_idx x))) /\
     (match i_data x with Some (DList _) => true | _ => false end = match i_data x0 with Some (DList _) => true | _ => false end)).
Proof.
  intros (Hh & N & Wf) (W1 & W2 & W3 & W4). destruct (labels_of_ok s (history_ref e s Hh N) N) as (x0 & r & E & L).
  assert (I0 : In x0 (s_items s)) by (rewrite E; left; reflexivity). pose proof N as (_ & Ni & Sh).
  assert (Lab : forall x l, In x (s_items s) -> (In l (item_labels x0) <-> has_label x l)).
  { intros x l Ix. rewrite item_labels_In. pose proof (Sh x0 x I0 Ix) as [_ Q]. pose proof (Ni x0 I0) as [_ N0]. pose proof (Ni x Ix) as [_ Nx]. unfold has_label, has_value.
    destruct (i_data x0) as [[a|a]|]; destruct (i_data x) as [[b|b]|]; try contradiction; cbn [same_shape] in Q.
    - split; intros (v & n & -> & Hn); assert (n < length a) by (first [apply nth_error_Some; congruence|rewrite Q; apply nth_error_Some; congruence]).
      + destruct (nth_error b n) as [w|] eqn:B; [exists w, n; split; [reflexivity|exact B]|apply nth_error_None in B; lia].
      + destruct (nth_error a n) as [w|] eqn:B; [exists w, n; split; [reflexivity|exact B]|apply nth_error_None in B; lia].
    - split; intros (v & Hv); apply (in_map fst) in Hv; apply Q in Hv; apply in_map_iff in Hv; destruct Hv as ([k w] & K & Hv); cbn [fst] in K; subst k; exists w; exact Hv. }
  exists (item_labels x0), (all_indexes (s_items s)), x0, r. split; [exact E|]. split; [exact L|]. split; [reflexivity|].
  assert (Idx : forall x i, In x (s_items s) -> (In i (all_indexes (s_items s)) <-> In i (dkeys (i_idx x)))).
  { intros x i Ix. rewrite all_indexes_In. split; [intros (y & Iy & Hy); exact (W4 y x i Iy Ix Hy)|intros H; exists x; split; assumption]. }
  split.
  - split; [apply item_labels_nonempty, Ni, I0|]. split; [apply item_labels_NoDup, Ni, I0|]. split; [apply all_indexes_NoDup|]. split.
    + intros l Hl. apply item_labels_In in Hl. exact (W1 x0 l I0 Hl).
    + intros i Hi. apply (Idx x0 i I0) in Hi. exact (W2 x0 i I0 Hi).
  - intros x Ix. split; [apply Ni, Ix|]. split; [intros l; apply Lab, Ix|]. split; [intros i; apply Idx, Ix|].
    pose proof (Sh x0 x I0 Ix) as [_ Q]. destruct (i_data x0) as [[a|a]|]; destruct (i_data x) as [[b|b]|]; try contradiction; reflexivity.
Qed.

Lemma put_ok nt comments ow s p f t : place_for f p -> f p = None \/ ow = true -> put_text nt comments s = (t, Ok tt) -> (forall x, In x (s_items s) -> numeric_item x) ->
  csv_put nt comments CFine ow s p f = (cfs_set f p (CFile t), Ok tt).
Proof.
  intros (Pd & Pn) Po T N. unfold csv_put.
  assert (X : (match f p with Some (CFile _) => true | _ => false end) && negb ow = false) by (destruct Po as [-> | ->]; [reflexivity|apply andb_false_r]). rewrite X.
  assert (Y : forallb has_indexes (s_items s) = true) by (apply forallb_forall; intros x Ix; destruct (N x Ix) as [[C|C] _]; unfold has_indexes; rewrite C; reflexivity). rewrite Y. cbn [negb].
  rewrite Pd, T. destruct (f p) as [[|t']|]; [contradiction|reflexivity|reflexivity].
Qed.
Lemma strings_eqb_refl a : strings_eqb a a = true.
Proof. induction a as [|x a IH]; [reflexivity|]. cbn [strings_eqb]. rewrite String.eqb_refl, IH. reflexivity. Qed.
Lemma file_at_set f p t : file_at (cfs_set f p (CFile t)) p = Some t.
Proof. unfold file_at, cfs_set. rewrite strings_eqb_refl. reflexivity. Qed.

(* Writing and then reading the rows. *)
Lemma rows_back nt e o st comments s : exact_text nt -> healthy e s -> writable (s_items s) -> (forall t, In t comments -> no_newline t) -> default_columns st -> whole o -> o_points o && o_slots o = false ->
  exists ls ix t st', put_text nt comments s = (t, Ok tt) /\ columns_ok ls ix /\ s_items s <> [] /\
    (forall x, In x (s_items s) -> numeric_item x /\ (forall l, In l ls <-> has_label x l) /\ (forall i, In i ix <-> In i (dkeys (i_idx x)))) /\
    default_columns st' /\ same_settings st st' /\
    forall fuel k c, csv_get fuel nt k e c o st (Some t) = (st', make_series fuel k e c o st' (map (row_of ls ix) (s_items s))).
Proof.
  intros E H W Hc D Wo Hb. destruct (series_columns e s H W) as (ls & ix & x0 & r & Es & L & Eix & C & P).
  assert (T : put_text nt comments s = (join "" (map (fun s => s ++ end_line)%string (lines_written nt comments ls ix (s_items s))), Ok tt)).
  { apply (put_text_ok nt comments s x0 r ls ix Es); [intros x Ix; apply P, Ix|exact L|apply C|exact Eix|]. intros x Ix. destruct (P x Ix) as (_ & A & B & G). split; [intros l; apply A|]. split; [exact G|intros i; apply B]. }
  destruct (file_read nt o comments ls ix (s_items s) st E Wo C D Hc) as (r' & R & I & S & D').
  exists ls, ix, (join "" (map (fun s => s ++ end_line)%string (lines_written nt comments ls ix (s_items s)))), (r_st r'). split; [exact T|]. split; [exact C|]. split; [rewrite Es; discriminate|].
  split; [intros x Ix; destruct (P x Ix) as (A1 & A2 & A3 & _); split; [exact A1|split; assumption]|]. split; [exact D'|]. split; [exact S|].
  intros fuel k c. unfold csv_get. rewrite Hb, R. cbn [bind]. rewrite I. reflexivity.
Qed.

Lemma asked_same o st st' : same_settings st st' -> (if o_points o then StPoints else if o_slots o then StSlots else st_stype st') = asked o st.
Proof. intros (_ & H & _). unfold asked. rewrite H. reflexivity. Qed.
Lemma tz_same o st st' : same_settings st st' -> csv_tz st' o = csv_tz st o.
Proof. intros (H & _). unfold csv_tz. rewrite H. reflexivity. Qed.
Lemma rows_times ls ix l : map fst (map (row_of ls ix) l) = times l.
Proof. rewrite map_map. reflexivity. Qed.

Lemma make_points nt fuel k e c o st st' ls ix l : exact_text nt -> parses_units e -> wf_points l -> l <> [] -> columns_ok ls ix -> same_settings st st' -> points_read o st l ->
  (forall x, In x l -> numeric_item x /\ (forall lb, In lb ls <-> has_label x lb) /\ (forall i, In i ix <-> In i (dkeys (i_idx x)))) ->
  exists s', make_series fuel k e c o st' (map (row_of ls ix) l) = Ok s' /\ s_items s' = map (fun x => row_point (csv_tz st o) (row_of ls ix x)) l.
Proof.
  intros E He Wf Nl C S R P. unfold make_series.
  assert (Nm : exists a b, map (row_of ls ix) l = a :: b) by (destruct l; [contradiction|eexists; eexists; reflexivity]). destruct Nm as (a & b & Nm).
  assert (Hs : (if st_sort st' then sort_rows (map (row_of ls ix) l) else map (row_of ls ix) l) = map (row_of ls ix) l).
  { destruct (st_sort st'); [|reflexivity]. apply sort_rows_sorted. rewrite rows_times. apply Wf. }
  rewrite Nm. rewrite <- Nm. rewrite Hs, (asked_same o st st' S), (tz_same o st st' S).
  assert (Unit : (match asked o st with StPoints => Ok None | StUnknown => Err ValueError | _ => do si <- detected (s_items (sample e (empty_series None) (map (row_of ls ix) l))); auto_unit k (match asked o st with StSlots => true | _ => false end) si end) = Ok None).
  { destruct R as [R|[R Dst]]; rewrite R; [reflexivity|]. destruct (sampled e (map (row_of ls ix) l) He) as (si & D & Q).
    - rewrite rows_times. apply Wf.
    - rewrite Nm. discriminate.
    - rewrite D. cbn [bind]. destruct Q as [(_ & ->)|(_ & d & -> & i & t1 & t2 & A & B & ->)]; [reflexivity|]. rewrite rows_times in A, B. rewrite auto_unit_other; [reflexivity|].
      exact (first_dist l (fun d => ~ calendar_long d) i t1 t2 Dst A B). }
  rewrite Unit. cbn [bind].
  assert (Wf' : wf_points (map (row_point (csv_tz st o)) (map (row_of ls ix) l))).
  { rewrite map_map. split; [|split].
    - intros y Y. apply in_map_iff in Y. destruct Y as (x & <- & _). reflexivity.
    - unfold times. rewrite map_map. cbn [row_point i_t row_of fst]. apply Wf.
    - intros y z Y Z. apply in_map_iff in Y. destruct Y as (x & <- & X). apply in_map_iff in Z. destruct Z as (x' & <- & X'). split; [reflexivity|]. unfold row_point. cbn [i_data]. rewrite !split_row_of by exact C. cbn [fst]. unfold loaded_data. cbn [same_shape]. intros kk. rewrite !map_map. reflexivity. }
  destruct (ts_new_points_ok e None _ He Wf') as (s' & N'). exists s'. split.
  - apply build_points_ok. exact N'.
  - rewrite (ts_new_items _ _ _ _ N'), map_map. reflexivity.
Qed.

Lemma unit_read k e o st ls ix l u : parses_units e -> strictly_increasing (times l) -> 2 <= length l -> slots_read k o st l u ->
  exists u0, (match asked o st with StPoints => Ok None | StUnknown => Err ValueError | _ => do si <- detected (s_items (sample e (empty_series None) (map (row_of ls ix) l))); auto_unit k (match asked o st with StSlots => true | _ => false end) si end) = Ok (Some u0) /\ match o_unit o with Some u' => u' | None => u0 end = u.
Proof.
  intros He Inc Nl R. destruct (sampled e (map (row_of ls ix) l) He) as (si & D & Q); [rewrite rows_times; exact Inc|destruct l; [cbn in Nl; lia|discriminate]|]. rewrite map_length in Q.
    destruct Q as [(Q & _)|(_ & d & -> & i & t1 & t2 & A & B & Ed)]; [lia|]. rewrite rows_times in A, B. rewrite D. cbn [bind]. destruct R as (Ask & [(F & Ou)|(As & Ou & Tot)]).
    - exists u. split; [|destruct Ou as [-> | ->]; reflexivity].
      destruct F as [(-> & F)|[(-> & F)|[(-> & F)|(As & q & -> & Nc & F & Us)]]]; pose proof (first_dist l _ i t1 t2 F A B) as X; cbv beta in X; rewrite <- Ed in X.
      + destruct Ask as [-> | ->]; apply auto_unit_day, X.
      + destruct Ask as [-> | ->]; apply auto_unit_month, X.
      + destruct Ask as [-> | ->]; apply auto_unit_year; left; exact X.
      + rewrite As, X. apply auto_unit_usual; assumption.
    - rewrite As. destruct (auto_unit_total k d Tot) as (u0 & U0). exists u0. split; [exact U0|]. rewrite Ou. reflexivity.
Qed.
Lemma make_slots nt fuel k e c o st st' ls ix l u : exact_text nt -> parses_units e -> wf_slots l -> 2 <= length l -> columns_ok ls ix -> same_settings st st' -> slots_read k o st l u ->
  (forall x, In x l -> i_end x = unit_shift c u (i_t x) 1) ->
  (forall x, In x l -> numeric_item x /\ (forall lb, In lb ls <-> has_label x lb) /\ (forall i, In i ix <-> In i (dkeys (i_idx x)))) ->
  exists s', make_series fuel k e c o st' (map (row_of ls ix) l) = Ok s' /\ s_items s' = map (fun x => new_slot c u (csv_tz st o) (i_t x) (loaded_data ls x) (loaded_idx ix x)) l.
Proof.
  intros E He Wf Nl C Sm R Hend P. unfold make_series.
  assert (Nm : exists a b, map (row_of ls ix) l = a :: b) by (destruct l; [cbn in Nl; lia|eexists; eexists; reflexivity]). destruct Nm as (a & b & Nm).
  assert (Inc : strictly_increasing (times l)).
  { apply wf_slots_sorted, Wf. }
  assert (Hs : (if st_sort st' then sort_rows (map (row_of ls ix) l) else map (row_of ls ix) l) = map (row_of ls ix) l).
  { destruct (st_sort st'); [|reflexivity]. apply sort_rows_sorted. rewrite rows_times. exact Inc. }
  rewrite Nm. rewrite <- Nm. rewrite Hs, (asked_same o st st' Sm), (tz_same o st st' Sm).
  assert (Unit : exists u0, (match asked o st with StPoints => Ok None | StUnknown => Err ValueError | _ => do si <- detected (s_items (sample e (empty_series None) (map (row_of ls ix) l))); auto_unit k (match asked o st with StSlots => true | _ => false end) si end) = Ok (Some u0) /\ match o_unit o with Some u' => u' | None => u0 end = u).
  { apply unit_read; assumption. }
  destruct Unit as (u0 & U & Eu). rewrite U. cbn [bind]. rewrite Eu.
  assert (Em : map (fun x : Qc * raw => Csv.new_slot c u (csv_tz st o) (fst x) (fst (split_row (snd x))) (snd (split_row (snd x)))) (map (row_of ls ix) l) = map (fun x => Csv.new_slot c u (csv_tz st o) (i_t x) (loaded_data ls x) (loaded_idx ix x)) l).
  { rewrite map_map. apply map_ext. intros x. rewrite (split_row_of ls ix x C). reflexivity. }
  assert (Wf' : wf_slots (map (fun x => Csv.new_slot c u (csv_tz st o) (i_t x) (loaded_data ls x) (loaded_idx ix x)) l)).
  { destruct Wf as (_ & Ct & Ps & _). split; [|split; [|split]].
    - intros y Y. apply in_map_iff in Y. destruct Y as (x & <- & _). reflexivity.
    - intros i y z Y Z. rewrite nth_error_map in Y, Z. destruct (nth_error l i) as [x|] eqn:X; [|discriminate]. destruct (nth_error l (S i)) as [x'|] eqn:X'; [|discriminate]. cbn [option_map] in *. injection Y as <-. injection Z as <-.
      cbn [Csv.new_slot i_t i_end]. rewrite (Ct i x x' X X'). apply Hend. eapply nth_error_In, X.
    - intros y Y. apply in_map_iff in Y. destruct Y as (x & <- & X). cbn [Csv.new_slot i_t i_end]. rewrite <- (Hend x X). apply Ps, X.
    - intros y z Y Z. apply in_map_iff in Y. destruct Y as (x & <- & X). apply in_map_iff in Z. destruct Z as (x' & <- & X'). split; [|split; reflexivity]. split; [reflexivity|]. cbn [Csv.new_slot i_data loaded_data same_shape]. intros kk. rewrite !map_map. reflexivity. }
  destruct (ts_new_slots_ok_st e _ Wf') as (s' & N' & _). exists s'. split.
  - apply build_slots_ok. rewrite Em. exact N'.
  - exact (ts_new_items _ _ _ _ N').
Qed.

Lemma loaded_same ls ix x y : numeric_item x -> (forall l, In l ls <-> has_label x l) -> NoDup ix -> (forall i, In i ix <-> In i (dkeys (i_idx x))) ->
  i_cls y = i_cls x -> i_t y = i_t x -> (is_slot x = true -> i_end y = i_end x /\ i_unit y = i_unit x) -> i_data y = Some (loaded_data ls x) -> i_idx y = loaded_idx ix x -> same_content x y.
Proof.
  intros N L Nd I A B C D E. split; [exact A|]. split; [exact B|]. split; [exact C|]. split.
  - intros lb v. unfold has_value at 1. rewrite D. cbn [loaded_data]. apply loaded_value; assumption.
  - intros i. rewrite E. apply loaded_index; assumption.
Qed.
