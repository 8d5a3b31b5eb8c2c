(* WrappersProofs.v -- proofs for C78 (Prophet): the fit, and the reconstructions. *)
From Verif Require Import SpecWrappers BaseLemmas PropTactics DictLemmas SeriesProofs2 SeriesProofs3 OpsProofs InterpProofs ReconProofs ReconProofs2 ReconProofs3 ReconProofs4 LstmProofs LstmProofs3 LstmProofs4 LstmProofs5.
From Coq Require Import Lia.

Lemma mapM_with {A B} (f : A -> result B) (Q : A -> B -> Prop) : forall l, (forall x, In x l -> exists y, f x = Ok y /\ Q x y) -> exists ys, mapM f l = Ok ys /\ Forall2 Q l ys.
Proof.
  induction l as [|x l IH]; intros H; [exists []; split; [reflexivity|constructor]|]. destruct (H x (or_introl eq_refl)) as (y & E & Qy). destruct IH as (ys & Es & F); [intros z Hz; apply H; right; exact Hz|].
  exists (y :: ys). cbn [mapM]. rewrite E. cbn [bind]. rewrite Es. split; [reflexivity|constructor; assumption].
Qed.
(* ---------------- the fit ---------------- *)
Lemma one_value x lb d : numeric_item x -> i_data x = Some (DDict d) -> (forall lb', has_label x lb' <-> lb' = lb) -> exists v, d = [(lb, v)].
Proof.
  intros [_ N] D H. unfold has_label, has_value in H. rewrite D in *. cbn in N. destruct N as [Nn Nd].
  destruct d as [|[k v] d]; [exfalso; apply Nn; reflexivity|]. assert (k = lb) by (apply H; exists v; left; reflexivity). subst k. destruct d as [|[k w] d]; [eauto|]. exfalso.
  assert (k = lb) by (apply H; exists w; right; left; reflexivity). subst k. cbn in Nd. inversion Nd as [|? ? Ni _]; subst. apply Ni. left. reflexivity.
Qed.
Lemma ready_first e s : ready e s -> exists x l, s_items s = x :: l /\ ts_get_i s 0 = Ok x.
Proof. intros (_ & (Nn & _) & _). destruct (s_items s) as [|x l] eqn:E; [contradiction|]. exists x, l. split; [reflexivity|]. apply (ts_get_i_nat s 0 x). rewrite E. reflexivity. Qed.

Lemma rows_ok clock e s lb : ready e s -> single_label (s_items s) lb -> exists rows, prophet_rows clock s = Ok rows /\ rows_of clock lb (s_items s) rows.
Proof.
  intros R S1. destruct (ready_first e s R) as (x0 & l & El & G0). pose proof R as (_ & N & _ & D & _). unfold prophet_rows. rewrite G0. cbn [bind].
  destruct (D x0) as [d0 E0]; [rewrite El; left; reflexivity|]. rewrite E0. cbn [bind].
  destruct (mapM_with (fun x => do v <- first_value false x; Ok (clock (i_tz x) (i_t x), v)) (fun x r => fst r = clock (i_tz x) (i_t x) /\ has_value x lb (snd r)) (s_items s)) as (rows & E & F).
  - intros x Hx. destruct (D x Hx) as [d Ed]. destruct (one_value x lb d) as [v ->]; [apply N; exact Hx|exact Ed|apply S1; exact Hx|]. exists (clock (i_tz x) (i_t x), v). unfold first_value. rewrite Ed. split; [reflexivity|]. split; [reflexivity|]. unfold has_value. rewrite Ed. left. reflexivity.
  - exists rows. split; [exact E|exact F].
Qed.
Lemma fit_ok refused clock train e s lb : ready e s -> single_label (s_items s) lb ->
  exists rows, rows_of clock lb (s_items s) rows /\ prophet_fit refused clock train s = match train rows with Ok ask => Ok (mkProphet lb ask) | Err x => Err x end.
Proof.
  intros R S1. destruct (rows_ok clock e s lb R S1) as (rows & E & F). exists rows. split; [exact F|]. unfold prophet_fit. rewrite (labels_single e s lb R S1). cbn [bind]. rewrite E. cbn [bind]. destruct (train rows); reflexivity.
Qed.
Lemma fit_many refused clock train e s : ready e s -> many_labels (s_items s) -> prophet_fit refused clock train s = Err refused.
Proof.
  intros R (a & b & Nab & H). pose proof R as ((tz & B) & N & _). assert (RM : ref_missing s = false) by (apply (history_ref e); [apply built_history; [exists tz; exact B|exact N]|exact N]).
  destruct (labels_of_ok s RM N) as (x & l & E & L). unfold prophet_fit. rewrite L. cbn [bind]. assert (I : In x (s_items s)) by (rewrite E; left; reflexivity). destruct (H x I) as [Ha Hb]. apply item_labels_In in Ha, Hb.
  destruct (item_labels x) as [|p [|q r]]; [destruct Ha| |reflexivity]. exfalso. destruct Ha as [<-|[]]. destruct Hb as [<-|[]]. apply Nab. reflexivity.
Qed.
Lemma rows_samples clock g lb l rows : rows_of clock lb l rows -> local_signal clock g lb (fun _ => True) l -> (forall x, In x l -> exists d, i_data x = Some (DDict d) /\ NoDup (map fst d)) -> forall t y, In (t, y) rows -> y = g t.
Proof.
  intros F L D t y I. destruct (F2_In_r _ _ _ _ F I) as (x & Ix & E1 & E2). cbn in *. subst t. pose proof (L x Ix Logic.I) as V. destruct (D x Ix) as (d & Ed & Nd). unfold has_value in *. rewrite Ed in *.
  apply (NoDup_fst_eq d lb _ _ Nd); assumption.
Qed.
Lemma learned refused clock train g e s lb : learns train g -> ready e s -> single_label (s_items s) lb -> two_times clock (s_items s) -> local_signal clock g lb (fun _ => True) (s_items s) ->
  exists ask, prophet_fit refused clock train s = Ok (mkProphet lb ask) /\ answers ask g.
Proof.
  intros T R S1 (x & y & Ix & Iy & Nt) L. destruct (fit_ok refused clock train e s lb R S1) as (rows & F & E). pose proof R as (_ & N & _ & D & _). destruct (T rows) as (ask & Et & A).
  - destruct (F2_In_l _ _ _ _ F Ix) as (r & Ir & Er & _). destruct (F2_In_l _ _ _ _ F Iy) as (r' & Ir' & Er' & _). exists r, r'. split; [exact Ir|]. split; [exact Ir'|]. rewrite Er, Er'. exact Nt.
  - apply (rows_samples clock g lb _ _ F L). intros z Hz. destruct (D z Hz) as [d Ed]. exists d. split; [exact Ed|]. destruct N as (_ & N & _). destruct (N z Hz) as [_ Nx]. rewrite Ed in Nx. apply Nx.
  - exists ask. split; [rewrite E, Et; reflexivity|exact A].
Qed.

(* ---------------- reconstruction, for a predictor which answers point by point ---------------- *)
Section Pointwise.
Variables (predict : series -> nat -> nat -> result pdata) (thr : Qc) (lb : string) (h : Qc -> Qc) (e : env) (s0 : series).
Notation l0 := (s_items s0).
Hypothesis R0 : ready e s0.
Hypothesis S0 : single_label l0 lb.
Hypothesis P0 : forall sk from to, labels_of sk = Ok [lb] -> length (s_items sk) = length l0 -> (forall j x, nth_error l0 j = Some x -> exists y, nth_error (s_items sk) j = Some y /\ i_t y = i_t x) -> from <= to < length l0 ->
  exists vs, predict sk from to = Ok (PDict [(lb, vs)]) /\ forall j x, nth_error l0 (from + j) = Some x -> j <= to - from -> nth_error vs j = Some (h (i_t x)).
Notation value x := (DDict [(lb, h (i_t x))]).

Definition upto (b : nat) (s : series) : Prop :=
  ref_missing s = false /\ length (s_items s) = length l0 /\
  forall j x, nth_error l0 j = Some x -> exists y, nth_error (s_items s) j = Some y /\ same_shell x y /\ (b <= j -> y = x) /\ (~ lossy thr x -> i_data y = i_data x) /\ (lossy thr x -> j < b -> i_data y = Some (value x)).

Lemma lossy_dec x : In x l0 -> lossy thr x \/ ~ lossy thr x.
Proof.
  intros Ix. destruct (to_reconstruct thr x) as [b|] eqn:B; [apply to_reconstruct_spec in B; destruct B as [B _]; destruct b; [left; apply B; reflexivity|right; intros X; apply B in X; discriminate]|].
  exfalso. unfold to_reconstruct in B. destruct R0 as (_ & _ & _ & D & _). destruct (D x Ix) as [dx Q]. rewrite Q in B. discriminate.
Qed.
Lemma upto_labels b s : upto b s -> labels_of s = Ok [lb].
Proof.
  intros (RM & Len & H). pose proof R0 as (_ & N & _ & D & _). destruct N as (Nn & N1 & _). destruct l0 as [|x0 r0] eqn:El; [contradiction|]. assert (Ix : In x0 l0) by (rewrite El; left; reflexivity).
  destruct (H 0 x0 eq_refl) as (y & Hy & _ & U & NL & LL). destruct (s_items s) as [|y0 r] eqn:Es; [discriminate|]. cbn in Hy. injection Hy as ->.
  assert (X : exists v, i_data y = Some (DDict [(lb, v)])).
  { destruct (D x0 (or_introl eq_refl)) as [d Ed]. destruct (one_value x0 lb d) as [v ->]; [apply N1; left; reflexivity|exact Ed|apply S0; left; reflexivity|].
    destruct (lossy_dec x0 Ix) as [L|L]; [|exists v; rewrite (NL L); exact Ed]. destruct b as [|b]; [rewrite (U ltac:(lia)); eauto|]. eexists. apply (LL L). lia. }
  destruct X as [v Ev]. rewrite (labels_of_first s y r Es RM) by (rewrite Ev; discriminate). unfold item_labels. rewrite Ev. reflexivity.
Qed.
Lemma upto_set b s z x : upto b s -> nth_error l0 b = Some x -> same_shell x z -> (~ lossy thr x -> i_data z = i_data x) -> (lossy thr x -> i_data z = Some (value x)) -> upto (S b) (set_nth s b z).
Proof.
  intros (RM & Len & H) Hx Sh NL LL. pose proof (nth_lt _ _ _ Hx) as Lb. unfold upto, set_nth. cbn [s_items set_items]. split; [|split; [rewrite replace_nth_length; exact Len|]].
  - unfold ref_missing in *. cbn [s_items set_items s_ref]. destruct (s_items s) as [|a k]; [cbn in Len; lia|]. destruct b; exact RM.
  - intros j y Hy. destruct (Nat.eq_dec j b) as [->|Nj].
    + assert (y = x) by congruence. subst y. exists z. split; [apply replace_nth_same; lia|]. split; [exact Sh|]. split; [lia|]. split; [exact NL|]. intros L _. apply LL, L.
    + destruct (H j y Hy) as (w & Hw & S1 & U & A & B). exists w. split; [rewrite replace_nth_other by lia; exact Hw|]. split; [exact S1|]. split; [intros; apply U; lia|]. split; [exact A|]. intros L Hj. apply B; [exact L|lia].
Qed.
Lemma upto_le b b' s : upto b s -> b' <= b -> (forall j x, b' <= j < b -> nth_error l0 j = Some x -> False) -> upto b' s.
Proof. intros (RM & Len & H) L E. split; [exact RM|]. split; [exact Len|]. intros j x Hx. destruct (H j x Hx) as (y & Hy & S1 & U & A & B). exists y. split; [exact Hy|]. split; [exact S1|]. split; [intros Hj; apply U; destruct (le_lt_dec b j); [assumption|exfalso; apply (E j x); [lia|exact Hx]]|]. split; [exact A|]. intros Lx Hj. apply B; [exact Lx|lia]. Qed.

Lemma gap_done vs g : forall n a s, (forall j x, nth_error l0 (g + j) = Some x -> g + j < a + n -> nth_error vs j = Some (h (i_t x))) -> g <= a -> a + n <= length l0 -> (forall j x, a <= j < a + n -> nth_error l0 j = Some x -> lossy thr x) -> upto a s ->
  exists s', forM (fun s j => match gap_data s (PDict [(lb, vs)]) (j - g) with
                     | Err e => (s, Err e)
                     | Ok d => match nth_error (s_items s) j with
                               | None => (s, Err IndexError)
                               | Some x => (set_nth s j (flag q1 (set_data x (Some d))), Ok tt)
                               end
                     end) (seq a n) s = (s', Ok tt) /\ upto (a + n) s'.
Proof.
  induction n as [|n IH]; intros a s V Ha Hn Ls U; [exists s; rewrite Nat.add_0_r; split; [reflexivity|exact U]|].
  cbn [seq forM]. unfold gap_data. rewrite (upto_labels a s U). cbn [bind mapM dget]. rewrite String.eqb_refl. destruct (lt_nth l0 a) as [x Hx]; [lia|].
  rewrite (V (a - g) x) by (try lia; replace (g + (a - g)) with a by lia; exact Hx). cbn [bind]. pose proof U as (RM & Len & H). destruct (H a x Hx) as (y & Hy & Sh & Ux & _). rewrite Hy. specialize (Ux (Nat.le_refl a)). subst y.
  cbn [combine]. destruct (IH (S a) (set_nth s a (flag q1 (set_data x (Some (DDict (dict_of [(lb, h (i_t x))]))))))) as (s' & E & U').
  - intros j z Hz Hj. apply (V j z Hz). lia.
  - lia.
  - lia.
  - intros j z Hj. apply Ls. lia.
  - apply (upto_set a s _ x U Hx); [repeat split|intros X; exfalso; apply X; apply (Ls a x); [lia|exact Hx]|reflexivity].
  - exists s'. split; [exact E|]. replace (a + S n) with (S a + n) by lia. exact U'.
Qed.
Lemma reconstruct_done g t s : g <= t < length l0 -> (forall j x, g <= j <= t -> nth_error l0 j = Some x -> lossy thr x) -> upto g s -> exists s', reconstruct predict s g t = (s', Ok tt) /\ upto (S t) s'.
Proof.
  intros Hg Ls U. unfold reconstruct. pose proof U as (_ & Len & H). destruct (P0 s g t (upto_labels g s U) Len) as (vs & E & V); [|exact Hg|].
  - intros j x Hx. destruct (H j x Hx) as (y & Hy & (St & _) & _). exists y. split; [exact Hy|apply St].
  - rewrite E. destruct (gap_done vs g (S t - g) g s) as (s' & F & U').
    + intros j x Hx Hj. apply V; [exact Hx|lia].
    + lia.
    + lia.
    + intros j x Hj. apply Ls. lia.
    + exact U.
    + exists s'. split; [exact F|]. replace (S t) with (g + (S t - g)) by lia. exact U'.
Qed.
Definition state (i : nat) (gap : option nat) (s : series) : Prop :=
  match gap with None => upto i s | Some g => g < i /\ upto g s /\ forall j x, g <= j < i -> nth_error l0 j = Some x -> lossy thr x end.
Lemma loop_done : forall m i gap s, i + m = length l0 -> state i gap s -> exists s' g, rec_loop predict thr (seq i m) gap s = (s', Ok g) /\ state (length l0) g s'.
Proof.
  induction m as [|m IH]; intros i gap s Hm St; [exists s, gap; replace (length l0) with i by lia; split; [reflexivity|exact St]|].
  cbn [seq rec_loop]. destruct (lt_nth l0 i) as [x Hx]; [lia|].
  assert (Hs : nth_error (s_items s) i = Some x).
  { destruct gap as [g|]; cbn [state] in St; [destruct St as (Hg & (_ & _ & H) & _)|destruct St as (_ & _ & H)]; destruct (H i x Hx) as (y & Hy & _ & U & _); rewrite U in Hy by lia; exact Hy. }
  rewrite Hs. pose proof (nth_error_In _ _ Hx) as Ix. assert (T : exists b, to_reconstruct thr x = Ok b /\ (b = true <-> lossy thr x)).
  { unfold to_reconstruct. destruct R0 as (_ & _ & _ & D & _). destruct (D x Ix) as [dx Q]. destruct (to_reconstruct thr x) as [b|] eqn:B; [|unfold to_reconstruct in B; rewrite Q in B; discriminate]. exists b. split; [exact B|]. apply to_reconstruct_spec in B. apply B. }
  destruct T as (b & -> & Hb). destruct b.
  - apply (IH (S i)); [lia|]. assert (L : lossy thr x) by (apply Hb; reflexivity). destruct gap as [g|]; cbn [state] in *.
    + destruct St as (Hg & U & Ls). split; [lia|]. split; [exact U|]. intros j y Hj Hy. destruct (Nat.eq_dec j i) as [->|]; [assert (y = x) by congruence; subst y; exact L|apply (Ls j y); [lia|exact Hy]].
    + split; [lia|]. split; [exact St|]. intros j y Hj Hy. assert (j = i) by lia. subst j. assert (y = x) by congruence. subst y. exact L.
  - assert (L : ~ lossy thr x) by (intros X; apply Hb in X; discriminate). destruct gap as [g|]; cbn [state] in St.
    + destruct St as (Hg & U & Ls). destruct (reconstruct_done g (i - 1) s) as (s' & E & U'); [lia|intros j y Hj; apply Ls; lia|exact U|]. rewrite E. replace (S (i - 1)) with i in U' by lia.
      pose proof U' as (_ & _ & H). destruct (H i x Hx) as (y & Hy & _ & Uy & _). rewrite Uy in Hy by lia. rewrite Hy. apply (IH (S i)); [lia|]. apply (upto_set i s' _ x U' Hx); [repeat split|reflexivity|contradiction].
    + apply (IH (S i)); [lia|]. apply (upto_set i s _ x St Hx); [repeat split|reflexivity|contradiction].
Qed.
Lemma pointwise_done : exists s', rec_apply_inplace predict thr s0 = (s', Ok tt) /\ upto (length l0) s'.
Proof.
  assert (U0 : upto 0 s0).
  { pose proof R0 as ((tz & B) & N & _). split; [apply (history_ref e); [apply built_history; [exists tz; exact B|exact N]|exact N]|]. split; [reflexivity|]. intros j x Hx. exists x. split; [exact Hx|]. split; [repeat split|]. split; [reflexivity|]. split; [reflexivity|lia]. }
  unfold rec_apply_inplace. destruct (loop_done (length l0) 0 None s0 eq_refl U0) as (s1 & g & E & St). rewrite E. destruct g as [g|]; cbn [state] in St; [|eauto].
  destruct St as (Hg & U & Ls). destruct (reconstruct_done g (length l0 - 1) s1) as (s' & E' & U'); [lia|intros j y Hj; apply Ls; lia|exact U|]. exists s'. split; [exact E'|]. replace (S (length l0 - 1)) with (length l0) in U' by lia. exact U'.
Qed.
End Pointwise.

Lemma answers_at (g : Qc -> Qc) (ts : list Qc) n : n <= length ts -> mapM (answer_at (map g ts)) (seq 0 n) = Ok (map g (firstn n ts)).
Proof.
  intros H. assert (X : forall n a, a + n <= length ts -> mapM (answer_at (map g ts)) (seq a n) = Ok (map g (firstn n (skipn a ts)))).
  { clear. induction n as [|n IH]; intros a L; [reflexivity|]. cbn [seq mapM]. unfold answer_at at 1. rewrite nth_error_map. destruct (lt_nth ts a) as [t Ht]; [lia|]. rewrite Ht. cbn [option_map bind]. rewrite IH by lia. cbn [bind].
    f_equal. assert (E : skipn a ts = t :: skipn (S a) ts). { clear - Ht. revert ts Ht. induction a as [|a IH]; intros [|u ts] Ht; cbn in *; try discriminate; [injection Ht as ->; reflexivity|apply IH; exact Ht]. } rewrite E. reflexivity. }
  apply (X n 0 H).
Qed.
Lemma prophet_points clock m g lb s0 : answers (pr_ask m) g -> forall sk from to, labels_of sk = Ok [lb] -> length (s_items sk) = length (s_items s0) -> (forall j x, nth_error (s_items s0) j = Some x -> exists y, nth_error (s_items sk) j = Some y /\ i_t y = i_t x) -> from <= to < length (s_items s0) ->
  exists vs, prophet_rec_predict clock m sk from to = Ok (PDict [(lb, vs)]) /\ length vs = S to - from /\ forall j x, nth_error (s_items s0) (from + j) = Some x -> j <= to - from -> nth_error vs j = Some (g (clock "UTC"%string (i_t x))).
Proof.
  intros A sk from to Lb Len Ht Hf. unfold prophet_rec_predict. rewrite Lb. cbn [bind].
  destruct (mapM_with (fun j => ts_get_i sk (Z.of_nat j)) (fun j y => nth_error (s_items sk) j = Some y) (seq from (S to - from))) as (xs & E & F).
  - intros j Hj. apply in_seq in Hj. destruct (lt_nth (s_items sk) j) as [y Hy]; [lia|]. exists y. split; [|exact Hy]. apply ts_get_i_nat. exact Hy.
  - rewrite E. cbn [bind]. rewrite (A _). cbn [bind]. pose proof (F2_len _ _ _ F) as Lx. rewrite seq_length in Lx. rewrite (answers_at g _ (S to - from)) by (rewrite map_length; lia). cbn [bind]. eexists. split; [reflexivity|].
    rewrite firstn_all2 by (rewrite map_length; lia). split; [rewrite !map_length; lia|]. intros j x Hx Hj. rewrite !nth_error_map. assert (Hy : nth_error (seq from (S to - from)) j = Some (from + j)) by (apply seq_nth_error; lia).
    destruct (F2_get _ _ _ F _ _ Hy) as (y & Hxs & Hys). rewrite Hxs. cbn. destruct (Ht _ _ Hx) as (y' & Hy' & T). assert (y' = y) by congruence. subst y'. rewrite T. reflexivity.
Qed.
