(* PropMarks.v -- THEOREMS C98: where the plots draw the items and the mark. *)
From Verif Require Import SpecMarks BaseLemmas PropTactics SeriesProofs4 CsvProofs ReconProofs3 PeriodicityProofs2 Witness PropTransform PropAccess PropOps PropPlots.
From Coq Require Import Lia.

(* ---- texts ---- *)
Definition digits (l : list ascii) : Prop := forall c, In c l -> In c (chars "0123456789").
Lemma digit_digits n : digits (chars (digit_str n)).
Proof. do 9 (destruct n as [|n]; [intros c [<-|[]]; vm_compute; tauto|]). intros c [<-|[]]. vm_compute. tauto. Qed.
Lemma pad_digits k n : digits (chars (pad k n)).
Proof. revert n. induction k as [|k IH]; intros n c I; [destruct I|]. cbn [pad] in I. rewrite chars_app in I. apply in_app_or in I. destruct I as [I|I]; [exact (IH _ c I)|exact (digit_digits _ c I)]. Qed.
Lemma clock_plus c : ~ In "+"%char (chars (clock_str c)).
Proof.
  assert (P : forall k n, ~ In "+"%char (chars (pad k n))) by (intros k n I; apply pad_digits in I; vm_compute in I; intuition discriminate).
  unfold clock_str. rewrite !chars_app. intros I. repeat (apply in_app_or in I; destruct I as [I|I]); try (exact (P _ _ I)); try (vm_compute in I; intuition discriminate).
  destruct (Nat.eqb (c_micro c) 0); [destruct I|]. destruct I as [I|I]; [discriminate|exact (P _ _ I)].
Qed.
Lemma first_part sep a r : ~ In sep (chars a) -> hd EmptyString (split_on sep (a ++ String sep r)) = a.
Proof. intros N. unfold split_on. rewrite chars_app. cbn [chars]. rewrite split_piece by exact N. cbn [rev app hd]. apply text_chars. Qed.

(* ---- the fake time ---- *)
Lemma fake_ahead K c o : (0 <= o)%Z -> read_back K c -> utc_fake_s K (mkDtime c (Some o)) = Ok (clock_seconds c).
Proof.
  intros O R. unfold utc_fake_s, dt_str. cbn [d_clock d_offset]. unfold offset_str. destruct (Z.ltb_spec o 0); [lia|].
  set (r := (pad 2 _ ++ ":" ++ pad 2 _)%string). change ("+" ++ r)%string with (String "+"%char r).
  assert (I : char_in "+" (clock_str c ++ String "+" r) = true) by (apply char_in_iff; rewrite chars_app; apply in_or_app; right; left; reflexivity). rewrite I, first_part by apply clock_plus.
  unfold read_back, dt_str in R. cbn [d_clock d_offset] in R. change (offset_str 0) with "+00:00"%string in R. rewrite R. cbn [bind]. unfold s_from_dt. cbn [d_offset d_clock]. f_equal. rewrite Z.mul_0_r. change (qz 0) with q0. rewrite q0_eq. ring.
Qed.
Lemma instant_clock d t o : instant d t o -> exists c, d = mkDtime c (Some o) /\ clock_seconds c = Qcplus t (qz (60 * o)).
Proof.
  intros [E S0]. destruct d as [c o']. cbn [d_offset] in E. subst o'. exists c. split; [reflexivity|]. unfold s_from_dt in S0. cbn [d_offset d_clock] in S0.
  assert (T : Qcminus (clock_seconds c) (qz (60 * o)) = t) by congruence. rewrite <- T. ring.
Qed.
Lemma fake_behind K d t o : (o < 0)%Z -> needs_a_time K -> instant d t o -> exists x, utc_fake_s K d = Err x.
Proof.
  intros O N E. apply instant_clock in E. destruct E as (c & -> & _). unfold utc_fake_s, dt_str. cbn [d_clock d_offset]. unfold offset_str. destruct (Z.ltb_spec o 0); [|lia].
  set (r := (pad 2 _ ++ ":" ++ pad 2 _)%string). assert (Pd : forall k n x, In x (chars (pad k n)) -> In x (chars "0123456789")) by (intros k n; apply pad_digits).
  assert (I : char_in "+" (clock_str c ++ "-" ++ r) = false).
  { destruct (char_in "+" _) eqn:F; [|reflexivity]. apply char_in_iff in F. rewrite !chars_app in F. unfold r in F. rewrite !chars_app in F. repeat (apply in_app_or in F; destruct F as [F|F]); try (apply Pd in F); try (vm_compute in F; intuition discriminate). exact (False_rect _ (clock_plus c F)). }
  rewrite I. assert (J : char_in "-" (clock_str c ++ "-" ++ r) = true) by (apply char_in_iff; rewrite chars_app; apply in_or_app; right; left; reflexivity). rewrite J.
  assert (H1 : hd EmptyString (split_on "-" (clock_str c ++ "-" ++ r)) = pad 4 (c_year c)).
  { unfold clock_str. assert (A : forall a b x, ((a ++ b) ++ x = a ++ (b ++ x))%string) by (intros a b x; induction a as [|q a IH]; [reflexivity|cbn; rewrite IH; reflexivity]).
    rewrite A. set (z := (("-" ++ pad 2 (c_month c) ++ _) ++ "-" ++ r)%string). assert (Z0 : exists z', z = String "-"%char z') by (eexists; reflexivity). destruct Z0 as [z' ->]. apply first_part. intros F. apply Pd in F. vm_compute in F. intuition discriminate. }
  rewrite H1. destruct (N (pad 4 (c_year c) ++ "+00:00")%string) as [x ->]; [| |exists x; reflexivity]; rewrite chars_app; intros F; apply in_app_or in F; (destruct F as [F|F]; [apply Pd in F|]); vm_compute in F; intuition discriminate.
Qed.
Lemma drawn d : real_clock d -> whole_ms d -> date_utc (dg_args d) = Qcmult (qz 1000) (clock_seconds (d_clock d)).
Proof.
  intros M [n W]. unfold real_clock in M. unfold date_utc, dg_args. destruct (d_clock d) as [y mo da h mi s us]. cbn [c_month c_micro] in M, W. cbn [c_year c_month c_day c_hour c_minute c_second c_micro].
  assert (M1 : Qcminus (qn mo) q1 = qz (Z.of_nat mo - 1)). { unfold qn. rewrite q1_eq. change (Q2Qc 1) with (qz 1). replace (Z.of_nat mo) with ((Z.of_nat mo - 1) + 1)%Z at 1 by lia. rewrite qz_plus. ring. }
  assert (F : Qcmult (qz 1000) (qfrac (Z.of_nat us) 1000000) = qz (Z.of_nat n)).
  { rewrite W. apply Qc_is_canon. unfold qz, qfrac, Qcmult, Q2Qc, this. rewrite !Qred_correct. unfold Qeq, Qmult, inject_Z. cbn [Qnum Qden]. rewrite Nat2Z.inj_mul. change (Z.of_nat 1000) with 1000%Z. lia. }
  assert (X : nth 6 (if Nat.eqb us 0 then [qn y; Qcminus (qn mo) q1; qn da; qn h; qn mi; qn s] else [qn y; Qcminus (qn mo) q1; qn da; qn h; qn mi; qn s] ++ [Qcdiv (qn us) (qz 1000)]) q0 = qz (Z.of_nat n)).
  { destruct (Nat.eqb_spec us 0) as [E|E]; cbn [app nth]; [assert (n = 0) by lia; subst n; reflexivity|]. rewrite W. unfold qn. rewrite Nat2Z.inj_mul, qz_mult. change (Z.of_nat 1000) with 1000%Z. field. intros Z0. apply (f_equal qtrunc) in Z0. vm_compute in Z0. discriminate. }
  unfold clock_seconds. cbn [c_year c_month c_day c_hour c_minute c_second c_micro]. rewrite Qcmult_plus_distr_r, F. cbv zeta. rewrite X, qtrunc_qz.
  assert (L : forall k v, nth_error [qn y; Qcminus (qn mo) q1; qn da; qn h; qn mi; qn s] k = Some v -> nth k (if Nat.eqb us 0 then [qn y; Qcminus (qn mo) q1; qn da; qn h; qn mi; qn s] else [qn y; Qcminus (qn mo) q1; qn da; qn h; qn mi; qn s] ++ [Qcdiv (qn us) (qz 1000)]) q0 = v).
  { intros k v E. destruct (Nat.eqb us 0); do 6 (destruct k as [|k]; [cbn in E |- *; congruence|]); cbn in E; rewrite nth_error_nil in E || destruct k; discriminate. }
  rewrite (L 0 _ eq_refl), (L 1 _ eq_refl), (L 2 _ eq_refl), (L 3 _ eq_refl), (L 4 _ eq_refl), (L 5 _ eq_refl), M1. unfold qn. rewrite !qtrunc_qz. rewrite <- qz_mult, <- qz_plus. f_equal. replace (Z.of_nat mo - 1 + 1)%Z with (Z.of_nat mo) by lia. reflexivity.
Qed.

(* ---------------- C98 ---------------- *)
(* A row is drawn where the clock of its timezone is. *)
Theorem C98_rows : forall K w d o, k_from_s K (w_t w) (w_tz w) = Ok d -> instant d (w_t w) o -> real_clock d -> whole_ms d ->
  forall x, drawn_at K w x <-> x = Qcmult (qz 1000) (Qcplus (w_t w) (qz (60 * o))).
Proof.
  intros K w d o E I R W x. destruct (instant_clock d _ o I) as (c & -> & C). unfold drawn_at, row_args. rewrite E. cbn [bind]. rewrite <- C. change c with (d_clock (mkDtime c (Some o))). rewrite <- (drawn _ R W). split.
  - intros (l & L & ->). injection L as <-. reflexivity.
  - intros ->. eexists. split; reflexivity.
Qed.
Print Assumptions C98_rows.

(* The start and the end of the mark are drawn where the clocks of their timezones are, if these are not behind UTC; the mark changes nothing else. *)
Theorem C98_mark : forall K T s labels indexes ag ab h vr p from_ to_ ta tb oa ob,
  plot T s labels indexes ag ab h vr = Ok p -> (forall w, In w (p_rows p) -> exists d, k_from_s K (w_t w) (w_tz w) = Ok d) ->
  instant from_ ta oa -> instant to_ tb ob -> (0 <= oa)%Z -> (0 <= ob)%Z -> read_back K (d_clock from_) -> read_back K (d_clock to_) ->
  exists m, plot_marked K T s labels indexes ag ab h vr from_ to_ = Ok m /\ m_plot m = p /\ Forall2 (fun w l => row_args K w = Ok l) (p_rows p) (m_dates m) /\
    m_start m = Qcmult (qz 1000) (Qcplus ta (qz (60 * oa))) /\ m_end m = Qcmult (qz 1000) (Qcplus tb (qz (60 * ob))).
Proof.
  intros K T s ls ix ag ab h vr p a b ta tb oa ob P R Ia Ib Oa Ob Ra Rb. unfold plot_marked. rewrite (proj2 Ia), (proj2 Ib), P. cbn [bind].
  destruct (instant_clock a ta oa Ia) as (ca & -> & Ca). destruct (instant_clock b tb ob Ib) as (cb & -> & Cb). cbn [d_clock] in Ra, Rb.
  assert (X : exists ds, mapM (row_args K) (p_rows p) = Ok ds /\ Forall2 (fun w l => row_args K w = Ok l) (p_rows p) ds).
  { revert R. generalize (p_rows p). intros l. induction l as [|w l IH]; intros R; [exists []; split; [reflexivity|constructor]|]. destruct IH as (ds & E & F); [intros z Z; apply R; right; exact Z|]. destruct (R w (or_introl eq_refl)) as [d D].
    assert (RW : row_args K w = Ok (dg_args d)) by (unfold row_args; rewrite D; reflexivity). exists (dg_args d :: ds). cbn [mapM]. rewrite RW. cbn [bind]. rewrite E. cbn [bind]. split; [reflexivity|constructor; assumption]. }
  destruct X as (ds & E & F). rewrite E. cbn [bind]. rewrite (fake_ahead K ca oa Oa Ra), (fake_ahead K cb ob Ob Rb). cbn [bind]. eexists. split; [reflexivity|]. cbn [m_plot m_dates m_start m_end]. rewrite Ca, Cb. split; [reflexivity|]. split; [exact F|]. split; ring.
Qed.
Print Assumptions C98_mark.

(* So what is highlighted are the rows from the start to the end of the mark, if they all are as much ahead of UTC. *)
Lemma thousand x y : Qcle (Qcmult (qz 1000) x) (Qcmult (qz 1000) y) <-> Qcle x y.
Proof.
  assert (P : Qclt (Q2Qc 0) (qz 1000)) by (apply qltb_lt; vm_compute; reflexivity). revert P. generalize (qz 1000). intros k P. split; intros H.
  - destruct (Qclt_le_dec y x) as [L|L]; [|exact L]. exfalso. qnra.
  - qnra.
Qed.
Theorem C98_highlights_partial : forall K T s labels indexes ag ab h vr m from_ to_ ta tb o w d x,
  plot_marked K T s labels indexes ag ab h vr from_ to_ = Ok m -> instant from_ ta o -> instant to_ tb o -> (0 <= o)%Z -> read_back K (d_clock from_) -> read_back K (d_clock to_) ->
  In w (p_rows (m_plot m)) -> k_from_s K (w_t w) (w_tz w) = Ok d -> instant d (w_t w) o -> real_clock d -> whole_ms d -> drawn_at K w x ->
  (Qcle (m_start m) x /\ Qcle x (m_end m) <-> Qcle ta (w_t w) /\ Qcle (w_t w) tb).
Proof.
  intros K T s ls ix ag ab h vr m a b ta tb o w d x P Ia Ib O Ra Rb _ E I R W D. apply (C98_rows K w d o E I R W) in D. subst x. unfold plot_marked in P. rewrite (proj2 Ia), (proj2 Ib) in P. cbn [bind] in P.
  destruct (plot T s ls ix ag ab h vr) as [p|]; [|discriminate]. cbn [bind] in P. destruct (mapM (row_args K) (p_rows p)) as [ds|]; [|discriminate]. cbn [bind] in P.
  destruct (instant_clock a ta o Ia) as (ca & -> & Ca). destruct (instant_clock b tb o Ib) as (cb & -> & Cb). cbn [d_clock] in Ra, Rb.
  rewrite (fake_ahead K ca o O Ra), (fake_ahead K cb o O Rb) in P. cbn [bind] in P. assert (M : m = mkMarked p ds (Qcmult (clock_seconds ca) (qz 1000)) (Qcmult (clock_seconds cb) (qz 1000))) by congruence. subst m. cbn [m_start m_end].
  rewrite (Qcmult_comm (clock_seconds ca)), (Qcmult_comm (clock_seconds cb)), !thousand, Ca, Cb. generalize (qz (60 * o)). intros q. split; intros [L1 L2]; split; qlra.
Qed.
Print Assumptions C98_highlights_partial.

(* A mark which starts or ends in a timezone behind UTC cannot be drawn, and neither can one without a timezone. *)
Theorem C98_behind_utc_refused : forall K T s labels indexes ag ab h vr from_ to_ ta tb oa ob, needs_a_time K ->
  instant from_ ta oa -> instant to_ tb ob -> (oa < 0)%Z \/ (ob < 0)%Z -> exists x, plot_marked K T s labels indexes ag ab h vr from_ to_ = Err x.
Proof.
  intros K T s ls ix ag ab h vr a b ta tb oa ob N Ia Ib O. unfold plot_marked. rewrite (proj2 Ia), (proj2 Ib). cbn [bind]. destruct (plot T s ls ix ag ab h vr) as [p|x]; [|exists x; reflexivity]. cbn [bind].
  destruct (mapM (row_args K) (p_rows p)) as [ds|x]; [|exists x; reflexivity]. cbn [bind]. destruct O as [O|O].
  - destruct (fake_behind K a ta oa O N Ia) as [x ->]. exists x. reflexivity.
  - destruct (utc_fake_s K a) as [q|x]; [|exists x; reflexivity]. cbn [bind]. destruct (fake_behind K b tb ob O N Ib) as [x ->]. exists x. reflexivity.
Qed.
Print Assumptions C98_behind_utc_refused.
Theorem C98_no_timezone_refused : forall K T s labels indexes ag ab h vr from_ to_, d_offset from_ = None \/ d_offset to_ = None -> exists x, plot_marked K T s labels indexes ag ab h vr from_ to_ = Err x.
Proof.
  intros K T s ls ix ag ab h vr a b O. unfold plot_marked. destruct (s_from_dt a) as [q|x] eqn:A; [|exists x; reflexivity]. cbn [bind]. destruct (s_from_dt b) as [q'|x] eqn:B; [|exists x; reflexivity]. exfalso.
  unfold s_from_dt in A, B. destruct O as [O|O]; rewrite O in *; discriminate.
Qed.
Print Assumptions C98_no_timezone_refused.

(* ---- examples: three points by the clock of a timezone one hour ahead of UTC, at 00:00:00, 00:00:10 and 00:00:20 UTC ---- *)
Definition rome (second : nat) : dtime := mkDtime (mkClock 2019 3 1 1 0 second 0) (Some 60%Z).
Definition utc (second : nat) : dtime := mkDtime (mkClock 2019 3 1 0 0 second 0) (Some 0%Z).
Definition t0 : Z := 1551398400.
Definition some_clocks : clocks := mkClocks
  (fun t => if String.eqb t "2019-03-01T01:00:00+00:00" then Ok (mkDtime (d_clock (rome 0)) (Some 0%Z)) else if String.eqb t "2019-03-01T01:00:10+00:00" then Ok (mkDtime (d_clock (rome 10)) (Some 0%Z))
            else if String.eqb t "2019-03-01T00:00:00+00:00" then Ok (utc 0) else if String.eqb t "2019-03-01T00:00:10+00:00" then Ok (utc 10) else Err ValueError)
  (fun t _ => if qeqb t (qz t0) then Ok (rome 0) else if qeqb t (qz (t0 + 10)) then Ok (rome 10) else if qeqb t (qz (t0 + 20)) then Ok (rome 20) else Err ValueError).
Definition three : series := mk_s [pt t0 1; pt (t0 + 10) 2; pt (t0 + 20) 3].
Lemma some_clocks_need : needs_a_time some_clocks.
Proof.
  intros t N _. exists ValueError. unfold some_clocks. cbn [k_parse]. repeat match goal with |- context [String.eqb t ?u] => destruct (String.eqb_spec t u) as [->|_]; [exfalso; apply N; vm_compute; tauto|] end. reflexivity.
Qed.
Lemma is_instant d t o : d_offset d = Some o -> match s_from_dt d with Ok q => qeqb q t | _ => false end = true -> instant d t o.
Proof. intros E H. split; [exact E|]. destruct (s_from_dt d) as [q|]; [|discriminate]. apply qeqb_eq in H. rewrite H. reflexivity. Qed.
Example C98_nonvacuous :
  (exists p, plot 10 three All All None None None None = Ok p /\ map w_t (p_rows p) = [qz t0; qz (t0 + 10); qz (t0 + 20)] /\ (forall w, In w (p_rows p) -> exists d, k_from_s some_clocks (w_t w) (w_tz w) = Ok d)) /\
  instant (rome 0) (qz t0) 60 /\ instant (rome 10) (qz (t0 + 10)) 60 /\ read_back some_clocks (d_clock (rome 0)) /\ read_back some_clocks (d_clock (rome 10)) /\
  k_from_s some_clocks (qz (t0 + 10)) "Europe/Rome" = Ok (rome 10) /\ real_clock (rome 10) /\ whole_ms (rome 10) /\ needs_a_time some_clocks /\ instant (mkDtime (mkClock 2019 2 28 19 0 0 0) (Some (-300)%Z)) (qz t0) (-300) /\
  dt_str (mkDtime (mkClock 2019 2 28 19 0 0 1500) (Some (-300)%Z)) = "2019-02-28T19:00:00.001500-05:00"%string.
Proof.
  split; [eexists; split; [vm_compute; reflexivity|]; split; [vm_compute; reflexivity|]; intros w [<-|[<-|[<-|[]]]]; eexists; vm_compute; reflexivity|].
  split; [apply is_instant; vm_compute; reflexivity|]. split; [apply is_instant; vm_compute; reflexivity|]. do 3 (split; [vm_compute; reflexivity|]). split; [vm_compute; lia|]. split; [exists 0; reflexivity|]. split; [exact some_clocks_need|]. split; [apply is_instant; vm_compute; reflexivity|]. vm_compute. reflexivity.
Qed.

(* A mark whose start and end are in another timezone than the items highlights others: here one from the first to the second, in UTC, highlights
   none of them. *)
Theorem C98_other_timezone_refuted : ~ (forall K T s labels indexes ag ab h vr m from_ to_ ta tb oa ob o w d x,
  plot_marked K T s labels indexes ag ab h vr from_ to_ = Ok m -> instant from_ ta oa -> instant to_ tb ob -> (0 <= oa)%Z -> (0 <= ob)%Z -> read_back K (d_clock from_) -> read_back K (d_clock to_) ->
  In w (p_rows (m_plot m)) -> k_from_s K (w_t w) (w_tz w) = Ok d -> instant d (w_t w) o -> real_clock d -> whole_ms d -> drawn_at K w x ->
  (Qcle (m_start m) x /\ Qcle x (m_end m) <-> Qcle ta (w_t w) /\ Qcle (w_t w) tb)).
Proof.
  intros H. destruct (plot_marked some_clocks 10 three All All None None None None (utc 0) (utc 10)) as [m|] eqn:E; [|vm_compute in E; discriminate].
  destruct (nth_error (p_rows (m_plot m)) 0) as [w|] eqn:N; [|vm_compute in E; injection E as <-; discriminate].
  assert (Ew : w_t w = qz t0) by (vm_compute in E; injection E as <-; injection N as <-; apply qeqb_eq; vm_compute; reflexivity).
  assert (Em : m_end m = Qcmult (qz 1000) (qz (t0 + 10))) by (vm_compute in E; injection E as <-; apply qeqb_eq; vm_compute; reflexivity).
  assert (F : k_from_s some_clocks (w_t w) (w_tz w) = Ok (rome 0)) by (rewrite Ew; vm_compute; reflexivity).
  assert (I : instant (rome 0) (w_t w) 60) by (rewrite Ew; apply is_instant; vm_compute; reflexivity).
  assert (D : drawn_at some_clocks w (date_utc (dg_args (rome 0)))) by (unfold drawn_at, row_args; rewrite F; eexists; split; reflexivity).
  assert (R : real_clock (rome 0)) by (vm_compute; lia). assert (W : whole_ms (rome 0)) by (exists 0; reflexivity).
  assert (Ia : instant (utc 0) (qz t0) 0) by (apply is_instant; vm_compute; reflexivity). assert (Ib : instant (utc 10) (qz (t0 + 10)) 0) by (apply is_instant; vm_compute; reflexivity).
  assert (Ra : read_back some_clocks (d_clock (utc 0))) by (vm_compute; reflexivity). assert (Rb : read_back some_clocks (d_clock (utc 10))) by (vm_compute; reflexivity).
  destruct (H _ _ _ _ _ _ _ _ _ _ _ _ _ _ _ _ _ w _ _ E Ia Ib (Z.le_refl 0) (Z.le_refl 0) Ra Rb (nth_error_In _ _ N) F I R W D) as [_ G]. destruct G as [_ G].
  - rewrite Ew. split; apply qleb_le; vm_compute; reflexivity.
  - rewrite Em in G. apply (Qcle_not_lt _ _ G). apply qltb_lt. vm_compute. reflexivity.
Qed.
Print Assumptions C98_other_timezone_refuted.
