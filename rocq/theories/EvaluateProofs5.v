(* EvaluateProofs5.v -- the evaluation of a reconstructor: the result, exact predictions, success (C77). *)
From Verif Require Import SpecAccess SeriesProofs3 SeriesProofs4 AccessProofs AccessProofs2 OpsProofs OpsProofs2 OpsProofs3 OpsProofs5 InterpProofs ReconProofs2 ReconProofs4 LstmProofs LstmProofs4 LstmProofs5 AnomalyProofs AnomalyProofs2 AnomalyProofs3 AnomalyProofs4 AnomalyProofs5 DictLemmas UtilsProofs PropTactics BaseLemmas.
From Verif Require Export EvaluateProofs4.
From Coq Require Import Lia.

Lemma dget_app {V} k (a b : dict V) : dget k (a ++ b) = match dget k a with Some v => Some v | None => dget k b end.
Proof. induction a as [|[k' v] a IH]; [reflexivity|]. cbn [app dget]. destruct (String.eqb k k'); [reflexivity|exact IH]. Qed.
Lemma overalls_get metrics ml avg m : dget m (overalls metrics ml avg) = if str_mem m ml && str_mem m metrics then Some (avg m) else None.
Proof.
  induction ml as [|n ml IH]; [reflexivity|]. unfold overalls in *. cbn [flat_map]. rewrite dget_app, IH. assert (E : str_mem m (n :: ml) = String.eqb m n || str_mem m ml) by reflexivity. rewrite E. destruct (String.eqb_spec m n) as [->|Ne].
  - destruct (str_mem n metrics) eqn:M; cbn [dget]; [rewrite String.eqb_refl; reflexivity|]. rewrite !andb_false_r. reflexivity.
  - destruct (str_mem n metrics); cbn [dget]; [destruct (String.eqb_spec m n); [contradiction|]|]; reflexivity.
Qed.
Lemma names_nodup : NoDup rec_names.
Proof. repeat constructor; cbn; intuition discriminate. Qed.
Lemma foldM_one {A B} (f : A -> B -> result A) x a : foldM f [x] a = f a x.
Proof. cbn [foldM]. destruct (f a x); reflexivity. Qed.
Lemma ok_inj {A} (a b : A) : Ok a = Ok b -> a = b.
Proof. congruence. Qed.
(* both forms of the result *)
Lemma rec_evaluate_unfold e sq R s st limit thr metrics details sc lb : ready e s -> single_label (s_items s) lb -> rec_evaluate sq R s st limit thr metrics details = Ok sc ->
  exists ks sc0 avg, (forall k, In k ks <-> round R st k) /\ score_inv sq R thr limit metrics s lb ks sc0 /\
    (forall m, In m rec_names -> In m metrics -> overall_score sq R st thr limit s lb m (avg m)) /\
    rec_evaluate sq R s st limit thr metrics true = Ok (sc0 ++ overalls metrics rec_names avg) /\
    sc = (if details then sc0 else []) ++ overalls metrics rec_names avg.
Proof.
  intros Rd Sl H. unfold rec_evaluate in *. rewrite (labels_single e s lb Rd Sl) in *. cbn [bind] in *. change ["RMSE"; "MAE"; "MAPE"]%string with rec_names in *. rewrite !foldM_one in *. destruct (foldM (rec_round sq R thr limit metrics s lb) (rounds_of R st) []) as [sc0|] eqn:E; cbn [bind] in *; [|discriminate].
  assert (I0 : score_inv sq R thr limit metrics s lb [] []) by (split; [constructor|]; split; [intros k v D; discriminate D|intros m k _ _ []]).
  destruct (rec_rounds_ok e sq R thr limit metrics s lb Rd _ _ _ _ I0 E) as (ks & K & I1). destruct (foldM (rec_overall metrics) rec_names sc0) as [sc1|] eqn:O; cbn [bind] in *; [|discriminate].
  assert (Hs : forall k, In k (map fst sc0) -> ~ In k rec_names). { intros k J N. apply dget_In in J. destruct (dget k sc0) as [v|] eqn:D; [|contradiction]. destruct I1 as (_ & I1 & _). destruct (I1 k v D) as (m & j & Nm & _ & _ & -> & _). exact (score_not_name m _ j Nm N eq_refl). }
  destruct (overall_loop metrics sc0 Hs rec_names [] [] sc1 eq_refl names_nodup) as (avg & -> & Av); [intros k []|rewrite app_nil_r; exact O|]. cbn [app] in *. assert (Ek : forall k, In k ks <-> round R st k) by (intros k; rewrite round_iff, K; cbn [In]; tauto).
  exists ks, sc0, avg. split; [exact Ek|]. split; [exact I1|]. split; [intros m Nm Mm; apply (overall_average sq R st thr limit metrics s lb ks sc0 m (avg m) I1 Ek Nm Mm), Av; assumption|]. split; [reflexivity|]. destruct details; apply ok_inj in H; subst sc; [reflexivity|]. cbn [app].
  assert (Eq : forall m, In m rec_names -> (if str_mem m metrics then match dget m (sc0 ++ overalls metrics rec_names avg) with Some v => [(m, v)] | None => [] end else []) = (if str_mem m metrics then [(m, avg m)] else [])).
  { intros m N. destruct (str_mem m metrics) eqn:M; [|reflexivity]. rewrite dget_app. destruct (dget m sc0) as [v|] eqn:D; [exfalso; apply (Hs m); [apply dget_In; rewrite D; discriminate|exact N]|]. rewrite overalls_get, M. rewrite (proj2 (str_mem_In m rec_names) N). reflexivity. }
  change (overalls metrics rec_names avg) with (flat_map (fun m => if str_mem m metrics then [(m, avg m)] else []) rec_names). set (sc2 := sc0 ++ _) in *. clearbody sc2. clear -Eq. induction rec_names as [|m l IH]; [reflexivity|]. cbn [flat_map]. rewrite (Eq m (or_introl eq_refl)), IH; [reflexivity|]. intros n N. apply Eq. right. exact N.
Qed.

(* ---------------- exact predictions ---------------- *)
Lemma concat_same {A} (k : nat) : forall ps qs : list (list A), length ps = length qs -> Forall (fun p => length p = k) ps -> Forall (fun q => length q = k) qs -> concat ps = concat qs -> ps = qs.
Proof.
  induction ps as [|p ps IH]; intros [|q qs] L Fp Fq E; try discriminate L; [reflexivity|]. inversion Fp as [|? ? P1 P2]; subst. inversion Fq as [|? ? Q1 Q2]; subst. cbn [concat] in E. assert (Ep : p = q). { assert (H := f_equal (firstn (length p)) E). rewrite firstn_app, Nat.sub_diag, firstn_all, firstn_O, app_nil_r, firstn_app, <- Q1, Nat.sub_diag, firstn_all, firstn_O, app_nil_r in H. exact H. } subst q. f_equal. apply app_inv_head in E. apply IH; [cbn in L; lia|exact P2|exact Q2|exact E].
Qed.

Lemma holds_unique e s lb k i a b : ready e s -> holds s lb k i a -> holds s lb k i b -> a = b.
Proof.
  intros Rd [La Ha] [Lb Hb]. apply combine_eq; [lia|]. intros u v I. apply combine_nth_iff in I. destruct I as (j & A & B). destruct (Ha j u A) as (x & X & U). destruct (Hb j v B) as (y & Y & V).
  assert (Q1 := proj2 (actual_iff e s (i + j) lb u Rd) (ex_intro _ x (conj X U))). assert (Q2 := proj2 (actual_iff e s (i + j) lb v Rd) (ex_intro _ y (conj Y V))). congruence.
Qed.
Lemma rebuilds_unique R s lb k i a b : rebuilds R s lb k i a -> rebuilds R s lb k i b -> a = b.
Proof. intros (d & P & D) (d' & P' & D'). rewrite P in P'. injection P' as <-. congruence. Qed.
Definition enough (R : reconstructor) (s : series) (lb : string) (k : nat) (is : list nat) : Prop := forall i p, In i is -> rebuilds R s lb k i p -> length p = k.
Lemma rebuilt_exact e R thr limit s lb k is preds acts : ready e s -> used thr (rm_window R) limit s k is -> enough R s lb k is -> rebuilt R s lb k is preds acts -> (preds = acts <-> exact_round R thr limit s lb k).
Proof.
  intros Rd U En (ps & qs & Fp & Fq & -> & ->). split.
  - intros E. assert (Epq : ps = qs). { apply (concat_same k); [rewrite <- (F2_len _ _ _ Fp); apply (F2_len _ _ _ Fq)| | |exact E]; apply Forall_forall; [intros p P; apply In_nth_error in P; destruct P as [n P]; destruct (F2_get_r _ _ _ Fp n p P) as (i & I & H); apply (En i p (nth_error_In _ _ I) H)|intros q Q; apply In_nth_error in Q; destruct Q as [n Q]; destruct (F2_get_r _ _ _ Fq n q Q) as (i & I & H); apply H]. }
    subst qs. intros is' i vs U' I V. apply used_iff in U, U'. rewrite <- U in U'. subst is'. apply In_nth_error in I. destruct I as [n I]. destruct (F2_get _ _ _ Fp n i I) as (p & P & H1). destruct (F2_get _ _ _ Fq n i I) as (q & Q & H2). assert (p = q) as -> by congruence. rewrite (holds_unique e s lb k i vs q Rd V H2). exact H1.
  - intros E. f_equal. apply ext_list. intros n. destruct (nth_error is n) as [i|] eqn:I.
    + destruct (F2_get _ _ _ Fp n i I) as (p & P & H1). destruct (F2_get _ _ _ Fq n i I) as (q & Q & H2). rewrite P, Q. f_equal. apply (rebuilds_unique R s lb k i); [exact H1|]. apply (E is i q U); [apply nth_error_In with n; exact I|exact H2].
    + apply nth_error_None in I. rewrite (proj2 (nth_error_None ps n)) by (rewrite <- (F2_len _ _ _ Fp); exact I). rewrite (proj2 (nth_error_None qs n)) by (rewrite <- (F2_len _ _ _ Fq); exact I). reflexivity.
Qed.
Lemma rec_scored_zero sq p a m v : sqrt_like sq -> length p = length a -> p <> [] -> rec_scored sq p a m v -> Qcle q0 v /\ (v = q0 <-> p = a).
Proof.
  intros Sq L N H. assert (Nn : forall x y, Qcle q0 (distance x y)) by (intros; apply qabs_nonneg). assert (Ns : forall x y, Qcle q0 (squared x y)) by (intros; apply square_nonneg). assert (Nr : forall x y, Qcle q0 (relative x y)) by (intros; apply qabs_nonneg).
  destruct H as [| |Z].
  - destruct (Sq _ (mean_nonneg squared p a Ns N)) as [A B]. split; [exact A|]. rewrite B. apply mean_zero; [exact Ns|apply squared_zero'|exact L|exact N].
  - split; [apply mean_nonneg; assumption|]. apply mean_zero; [exact Nn|apply distance_zero'|exact L|exact N].
  - split; [apply mean_nonneg; assumption|]. apply mean_zero; [exact Nr|apply relative_zero'; exact Z|exact L|exact N].
Qed.
Lemma used_usable thr w limit s k is i : used thr w limit s k is -> In i is -> usable thr w s k i.
Proof. intros (all & _ & H & ->) I. apply H. destruct limit as [n|]; [|exact I]. rewrite <- (firstn_skipn n all). apply in_or_app. left. exact I. Qed.
Lemma round_score_zero e sq R thr limit s lb m k v : sqrt_like sq -> ready e s -> returns_all R thr s lb k -> round_score sq R thr limit s lb m k v -> Qcle q0 v /\ (v = q0 <-> exact_round R thr limit s lb k).
Proof.
  intros Sq Rd En (is & p & a & U & Rb & L & N & Sc). destruct (rec_scored_zero sq p a m v Sq L N Sc) as [A B]. split; [exact A|]. rewrite B. apply (rebuilt_exact e R thr limit s lb k is p a Rd U); [|exact Rb]. intros i q I. apply En. exact (used_usable _ _ _ _ _ _ _ U I).
Qed.
Lemma total_zero vs : Forall (Qcle q0) vs -> Qcle q0 (total vs) /\ (total vs = q0 <-> Forall (fun v => v = q0) vs).
Proof.
  induction 1 as [|v vs H F [A B]]; cbn [total]; [split; [apply Qcle_refl|split; [constructor|reflexivity]]|]. split; [rewrite q0_eq in *; qlra|]. split.
  - intros E. assert (v = q0) by (rewrite q0_eq in *; apply Qcle_antisym; qlra). assert (total vs = q0) by (rewrite q0_eq in *; apply Qcle_antisym; qlra). constructor; [assumption|]. apply B. assumption.
  - intros Fz. inversion Fz as [|? ? V W]; subst. rewrite (proj2 B W). rewrite q0_eq. ring.
Qed.
Lemma overall_zero e sq R st thr limit s lb m v : sqrt_like sq -> ready e s -> (forall k, round R st k -> returns_all R thr s lb k) -> (exists k, round R st k) -> overall_score sq R st thr limit s lb m v ->
  Qcle q0 v /\ (v = q0 <-> forall k, round R st k -> exact_round R thr limit s lb k).
Proof.
  intros Sq Rd En [k0 K0] (ks & vs & Nd & Ek & F2 & ->). assert (Fz : Forall (Qcle q0) vs). { apply Forall_forall. intros w W. apply In_nth_error in W. destruct W as [n W]. destruct (F2_get_r _ _ _ F2 n w W) as (k & K & Sc). apply (round_score_zero e sq R thr limit s lb m k w Sq Rd); [|exact Sc]. apply En, Ek. exact (nth_error_In _ _ K). }
  destruct (total_zero vs Fz) as [A B]. assert (Nk : ks <> []) by (intros ->; apply Ek in K0; destruct K0). pose proof (qn_len_pos ks Nk) as P. split; [apply div_nonneg; [exact P|exact A]|]. rewrite div_zero_iff by exact P. rewrite B. split.
  - intros Z k K. apply Ek in K. apply In_nth_error in K. destruct K as [n K]. destruct (F2_get _ _ _ F2 n k K) as (w & W & Sc). rewrite Forall_forall in Z. apply (round_score_zero e sq R thr limit s lb m k w Sq Rd); [apply En, Ek; exact (nth_error_In _ _ K)|exact Sc|]. apply Z. exact (nth_error_In _ _ W).
  - intros Z. apply Forall_forall. intros w W. apply In_nth_error in W. destruct W as [n W]. destruct (F2_get_r _ _ _ F2 n w W) as (k & K & Sc). assert (Rk : round R st k) by (apply Ek; exact (nth_error_In _ _ K)). apply (round_score_zero e sq R thr limit s lb m k w Sq Rd (En k Rk) Sc). apply Z, Rk.
Qed.

(* ---------------- success ---------------- *)
Lemma holds_total e s lb k i : ready e s -> single_label (s_items s) lb -> i + k <= length (s_items s) -> exists a, holds s lb k i a.
Proof.
  intros Rd Sl L. destruct (mapM_exists (fun j => actual_of s j lb) (fun _ _ => True) (seq i k)) as (a & A & La & _).
  - intros j J. apply in_seq in J. destruct (nth_error (s_items s) j) as [x|] eqn:X; [|apply nth_error_None in X; lia]. destruct (proj2 (Sl x (nth_error_In _ _ X) lb) eq_refl) as [v V]. exists v. split; [|exact Logic.I]. apply (actual_iff e s j lb v Rd). exists x. split; [exact X|exact V].
  - exists a. apply mapM_F2 in A. split; [rewrite La, seq_length; reflexivity|]. intros j v V. destruct (F2_get_r _ _ _ A j v V) as (n & N & E). assert (Lj : j < length (seq i k)) by (apply nth_error_Some; rewrite N; discriminate). rewrite seq_length in Lj. rewrite seq_nth_error in N by exact Lj. injection N as <-. apply (actual_iff e s (i + j) lb v Rd). exact E.
Qed.
Lemma rec_round_total e sq R thr limit metrics s lb k sc : ready e s -> single_label (s_items s) lb -> 1 <= k -> limit <> Some 0 -> (exists i, usable thr (rm_window R) s k i) ->
  (forall i, usable thr (rm_window R) s k i -> exists p, rebuilds R s lb k i p /\ length p = k /\ (In "MAPE"%string metrics -> ~ In q0 p)) ->
  exists sc', rec_round sq R thr limit metrics s lb sc k = Ok sc'.
Proof.
  intros Rd Sl Lk Nl [i0 U0] H. unfold rec_round.
  destruct (foldM_total (fun st : nat * list Qc * list Qc => length (snd (fst st)) = length (snd st) /\ (In "MAPE"%string metrics -> ~ In q0 (snd (fst st)))) (rec_step R thr limit s lb k) (seq 0 (length (s_items s)))) with (st := (0, @nil Qc, @nil Qc)) as (st & E & I1 & I2).
  - intros [[n p] a] i I [J1 J2]. cbn [fst snd] in *. apply in_seq in I. unfold rec_step. destruct (match limit with Some l => Nat.leb l n | None => false end); [eexists; split; [reflexivity|split; assumption]|].
    destruct (good_area_ok thr (rm_window R) s i k ltac:(lia)) as (b & G & Gu). rewrite G. cbn [bind]. destruct b; [|eexists; split; [reflexivity|split; assumption]]. pose proof (proj1 Gu eq_refl) as U. destruct (H i U) as (q & Rq & Lq & Zq). destruct (holds_total e s lb k i Rd Sl) as [a1 Ha]; [destruct U as (_ & U & _); lia|].
    rewrite (proj2 (gap_values_ok e R s lb i k q a1 Rd) (conj Rq Ha)). cbn [bind fst snd]. eexists. split; [reflexivity|]. cbn [fst snd]. rewrite !app_length. destruct Ha as [La _]. split; [lia|]. intros M Z. apply in_app_or in Z. destruct Z as [Z|Z]; [exact (J2 M Z)|exact (Zq M Z)].
  - cbn [fst snd]. split; [reflexivity|]. intros _ [].
  - rewrite E. cbn [bind]. destruct (rec_loop_ok e R thr limit s lb k st Rd E) as (is & U & Rb). destruct st as [[n preds] acts]. cbn [fst snd] in *.
    assert (Np : preds <> []). { destruct Rb as (ps & qs & Fp & _ & -> & _). apply used_iff in U. destruct (all_good_spec thr (rm_window R) s k) as [_ Ag]. assert (Is : exists i r, is = i :: r). { apply Ag in U0. destruct (all_good thr (rm_window R) s k) as [|i r]; [destruct U0|]. subst is. destruct limit as [[|n']|]; [contradiction| |]; cbn [up_to firstn]; eauto. }
      destruct Is as (i & r & Ei). assert (Ui : usable thr (rm_window R) s k i) by (apply (used_usable thr (rm_window R) limit s k is); [apply used_iff; exact U|rewrite Ei; left; reflexivity]). rewrite Ei in Fp. inversion Fp as [|? p ? ps' Hp Fp' E1 E2]; subst. destruct (H i Ui) as (q & Rq & Lq & _). rewrite (rebuilds_unique R s lb k i p q Hp Rq). destruct q as [|q0' q]; [cbn in Lq; lia|]. discriminate. }
    destruct preds as [|p0 preds0]; [contradiction|]. set (preds := p0 :: preds0) in *. clearbody preds. clear p0 preds0.
    destruct (foldM_total (fun _ : dict Qc => True) (fun sc m => if str_mem (fst m) metrics then do v <- snd m preds acts; Ok (dset (score_key (fst m) k) v sc) else Ok sc) (rec_metrics sq)) with (st := sc) as (sc' & E' & _); [|exact Logic.I|exists sc'; exact E'].
    intros sc1 [m f] I _. cbn [fst snd]. destruct (str_mem m metrics) eqn:M; [|eexists; split; [reflexivity|exact Logic.I]]. apply str_mem_In in M. assert (Ef : exists v, f preds acts = Ok v).
    { assert (Ms : forall f g, (forall x y, In (x, y) (combine preds acts) -> f x y = Ok (g x y)) -> exists v, mean_error f preds acts = Ok v) by (intros f0 g Hf; eexists; apply (mean_ok f0 g); assumption).
      destruct I as [Ei|[Ei|[Ei|[]]]]; injection Ei as <- <-.
      - destruct (Ms sq_err squared) as [v V]; [reflexivity|]. assert (Q : mse preds acts = Ok v) by (destruct preds; [contradiction|exact V]). rewrite Q. eexists. reflexivity.
      - destruct (Ms abs_err distance) as [v V]; [reflexivity|]. exists v. destruct preds; [contradiction|exact V].
      - apply (Ms perc_err relative). intros x y J. unfold perc_err, qdiv. apply in_combine_l in J. rewrite qeqb_false; [reflexivity|]. intros ->. exact (I2 M J). }
    destruct Ef as [v ->]. cbn [bind]. eexists. split; [reflexivity|exact Logic.I].
Qed.
Lemma rec_evaluate_total e sq R s st limit thr metrics details lb : ready e s -> single_label (s_items s) lb -> limit <> Some 0 -> (exists k, round R st k) ->
  (forall k, round R st k -> 1 <= k /\ (exists i, usable thr (rm_window R) s k i) /\ forall i, usable thr (rm_window R) s k i -> exists p, rebuilds R s lb k i p /\ length p = k /\ (In "MAPE"%string metrics -> ~ In q0 p)) ->
  exists sc, rec_evaluate sq R s st limit thr metrics details = Ok sc.
Proof.
  intros Rd Sl Nl [k0 K0] H. unfold rec_evaluate. rewrite (labels_single e s lb Rd Sl). cbn [bind]. rewrite foldM_one. change ["RMSE"; "MAE"; "MAPE"]%string with rec_names.
  destruct (foldM_total (fun _ : dict Qc => True) (rec_round sq R thr limit metrics s lb) (rounds_of R st)) with (st := @nil (string * Qc)) as (sc0 & E & _); [|exact Logic.I|].
  { intros sc k I _. apply round_iff in I. destruct (H k I) as (Lk & Uk & Pk). destruct (rec_round_total e sq R thr limit metrics s lb k sc Rd Sl Lk Nl Uk Pk) as [sc' Es]. exists sc'. split; [exact Es|exact Logic.I]. }
  match goal with |- context [bind ?a _] => assert (Ea : a = Ok sc0) by exact E; rewrite Ea end. cbn [bind].
  assert (I0 : score_inv sq R thr limit metrics s lb [] []) by (split; [constructor|]; split; [intros k v D; discriminate D|intros m k _ _ []]). destruct (rec_rounds_ok e sq R thr limit metrics s lb Rd _ _ _ _ I0 E) as (ks & K & I1). clear I0.
  destruct (foldM_total (fun sc : dict Qc => forall m, In m rec_names -> In m metrics -> exists v, In (score_key m k0, v) sc) (rec_overall metrics) rec_names) with (st := sc0) as (sc1 & O & _).
  - intros sc m Nm I. unfold rec_overall. destruct (str_mem m metrics) eqn:M; [|exists sc; split; [reflexivity|exact I]]. apply str_mem_In in M. destruct (I m Nm M) as [v V].
    assert (Nz : qn (length (map snd (filter (fun kv => prefix (m ++ "_") (fst kv)) sc))) <> q0). { rewrite map_length. assert (J : In (score_key m k0, v) (filter (fun kv => prefix (m ++ "_") (fst kv)) sc)) by (apply filter_In; split; [exact V|]; cbn [fst]; apply prefix_score; [exact Nm|exact Nm|reflexivity]). destruct (filter _ sc) as [|x l]; [destruct J|]. pose proof (qn_len_pos (x :: l) ltac:(discriminate)) as P. intros Z. rewrite Z in P. exact (Qclt_not_eq _ _ P eq_refl). }
    unfold qdiv. rewrite qeqb_false by exact Nz. cbn [bind]. eexists. split; [reflexivity|]. intros m' N' M'. destruct (I m' N' M') as [w W]. exists w. clear -W Nm N'. assert (Ne : score_key m' k0 <> m) by (apply score_not_name; assumption). match goal with |- In _ (dset _ ?q _) => generalize q; intros q' end. induction sc as [|[a b] sc IH]; [destruct W|]. cbn [dset]. destruct (String.eqb_spec m a) as [->|Na].
    + destruct W as [W|W]; [injection W as W _; congruence|right; exact W].
    + destruct W as [W|W]; [left; exact W|right; apply IH; exact W].
  - intros m Nm M. destruct I1 as (_ & _ & Al). destruct (Al m k0 Nm M) as [v V]; [apply K; left; apply round_iff; exact K0|]. exists v. apply dget_Some_In. exact V.
  - match goal with |- context [bind ?a _] => assert (Eb : a = Ok sc1) by exact O; rewrite Eb end. cbn [bind]. destruct details; eexists; reflexivity.
Qed.
