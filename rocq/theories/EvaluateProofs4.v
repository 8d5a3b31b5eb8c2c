(* EvaluateProofs4.v -- the evaluation of a reconstructor (C77). *)
From Verif Require Import SpecAccess SeriesProofs3 SeriesProofs4 AccessProofs AccessProofs2 OpsProofs OpsProofs2 OpsProofs5 InterpProofs ReconProofs2 ReconProofs4 LstmProofs LstmProofs4 LstmProofs5 AnomalyProofs AnomalyProofs2 AnomalyProofs3 AnomalyProofs4 AnomalyProofs5 DictLemmas UtilsProofs PropTactics BaseLemmas.
From Verif Require Export EvaluateProofs3.
From Coq Require Import Lia.

(* ---------------- good areas ---------------- *)
Lemma any_lossy_total thr s is : (forall i, In i is -> i < length (s_items s)) -> exists b, any_lossy thr s is = Ok b.
Proof.
  induction is as [|i r IH]; intros L; cbn [any_lossy]; [eexists; reflexivity|]. destruct (nth_error (s_items s) i) as [x|] eqn:X; [|apply nth_error_None in X; specialize (L i (or_introl eq_refl)); lia].
  unfold lossy_at. rewrite (ts_get_i_nat _ _ _ X). cbn [bind]. destruct (match data_loss x with Some l => qleb thr l | None => false end); [eexists; reflexivity|]. apply IH. intros j J. apply L. right. exact J.
Qed.
Lemma good_area_ok thr w s i k : i < length (s_items s) -> exists b, good_area thr w s i k = Ok b /\ (b = true <-> usable thr w s k i).
Proof.
  intros Li. unfold good_area, usable. destruct (Nat.ltb_spec i w) as [Lw|Lw]; [exists false; split; [reflexivity|split; [discriminate|intros (A & _); lia]]|].
  destruct (any_lossy_total thr s (seq (i - w) w)) as [b1 B1]; [intros j J; apply in_seq in J; lia|]. rewrite B1. cbn [bind]. apply any_lossy_ok in B1. destruct b1.
  { exists false. split; [reflexivity|]. split; [discriminate|]. intros (_ & _ & H). destruct B1 as (j & x & J & X & Ls). apply in_seq in J. exfalso. apply (H j x); [lia|exact X|exact Ls]. }
  destruct (Nat.leb_spec (length (s_items s)) (i + k + w)) as [Ln|Ln]; [exists false; split; [reflexivity|split; [discriminate|intros (_ & A & _); lia]]|].
  destruct (any_lossy_total thr s (seq (i + k) w)) as [b2 B2]; [intros j J; apply in_seq in J; lia|]. rewrite B2. cbn [bind]. apply any_lossy_ok in B2. destruct b2.
  { exists false. split; [reflexivity|]. split; [discriminate|]. intros (_ & _ & H). destruct B2 as (j & x & J & X & Ls). apply in_seq in J. exfalso. apply (H j x); [lia|exact X|exact Ls]. }
  destruct (any_lossy_total thr s (seq i k)) as [b3 B3]; [intros j J; apply in_seq in J; lia|]. rewrite B3. cbn [bind]. apply any_lossy_ok in B3. exists (negb b3). split; [reflexivity|]. destruct b3; cbn [negb].
  - split; [discriminate|]. intros (_ & _ & H). destruct B3 as (j & x & J & X & Ls). apply in_seq in J. exfalso. apply (H j x); [lia|exact X|exact Ls].
  - split; [|reflexivity]. intros _. split; [exact Lw|]. split; [exact Ln|]. intros j x J X. destruct (Nat.lt_ge_cases j i) as [C|C]; [apply (B1 j x); [apply in_seq; lia|exact X]|].
    destruct (Nat.lt_ge_cases j (i + k)) as [D|D]; [apply (B3 j x); [apply in_seq; lia|exact X]|apply (B2 j x); [apply in_seq; lia|exact X]].
Qed.
Definition goodb (thr : Qc) (w : nat) (s : series) (k i : nat) : bool := match good_area thr w s i k with Ok b => b | Err _ => false end.
Definition all_good (thr : Qc) (w : nat) (s : series) (k : nat) : list nat := filter (goodb thr w s k) (seq 0 (length (s_items s))).
Definition up_to {A} (limit : option nat) (l : list A) : list A := match limit with None => l | Some n => firstn n l end.
Lemma filter_sorted (f : nat -> bool) l : StronglySorted lt l -> StronglySorted lt (filter f l).
Proof.
  induction 1 as [|x l S1 IH F]; cbn [filter]; [constructor|]. destruct (f x); [constructor; [exact IH|]|exact IH]. apply Forall_forall. intros y Y. apply filter_In in Y. rewrite Forall_forall in F. apply F, Y.
Qed.
Lemma seq_ssorted a n : StronglySorted lt (seq a n).
Proof. revert a. induction n as [|n IH]; intros a; cbn [seq]; constructor; [apply IH|]. apply Forall_forall. intros y Y. apply in_seq in Y. lia. Qed.
Lemma all_good_spec thr w s k : StronglySorted lt (all_good thr w s k) /\ forall i, In i (all_good thr w s k) <-> usable thr w s k i.
Proof.
  split; [apply filter_sorted, seq_ssorted|]. intros i. unfold all_good. rewrite filter_In, in_seq. unfold goodb. split.
  - intros [L G]. destruct (good_area_ok thr w s i k ltac:(lia)) as (b & E & H). rewrite E in G. apply H, G.
  - intros U. assert (L : i < length (s_items s)) by (destruct U as (_ & U & _); lia). split; [lia|]. destruct (good_area_ok thr w s i k L) as (b & E & H). rewrite E. apply H, U.
Qed.
Lemma sorted_same (l l' : list nat) : StronglySorted lt l -> StronglySorted lt l' -> (forall i, In i l <-> In i l') -> l = l'.
Proof.
  revert l'. induction l as [|x l IH]; intros l' S1 S2 E.
  - destruct l' as [|y l']; [reflexivity|]. exfalso. apply (E y). left. reflexivity.
  - destruct l' as [|y l']; [exfalso; apply (E x); left; reflexivity|]. inversion S1 as [|? ? A1 B1]; subst. inversion S2 as [|? ? A2 B2]; subst. rewrite Forall_forall in B1, B2.
    assert (x = y) as ->. { destruct (proj1 (E x) (or_introl eq_refl)) as [X|X]; [congruence|]. destruct (proj2 (E y) (or_introl eq_refl)) as [Y|Y]; [congruence|]. specialize (B1 _ Y). specialize (B2 _ X). lia. }
    f_equal. apply IH; [assumption|assumption|]. intros i. specialize (E i). cbn [In] in E. split; intros I; [destruct (proj1 E (or_intror I)) as [Z|Z]|destruct (proj2 E (or_intror I)) as [Z|Z]]; try exact Z; subst i; [specialize (B1 _ I)|specialize (B2 _ I)]; lia.
Qed.
Lemma used_iff thr w limit s k is : used thr w limit s k is <-> is = up_to limit (all_good thr w s k).
Proof.
  destruct (all_good_spec thr w s k) as [S1 H1]. split.
  - intros (all & S2 & H2 & ->). rewrite (sorted_same all (all_good thr w s k)); [reflexivity|exact S2|exact S1|]. intros i. rewrite H1, H2. reflexivity.
  - intros ->. exists (all_good thr w s k). split; [exact S1|]. split; [exact H1|]. reflexivity.
Qed.

(* ---------------- the values ---------------- *)
Lemma F2_mapM {A B} (f : A -> result B) l bs : Forall2 (fun a b => f a = Ok b) l bs -> mapM f l = Ok bs.
Proof. induction 1 as [|a b l bs H F IH]; cbn [mapM]; [reflexivity|]. rewrite H. cbn [bind]. rewrite IH. reflexivity. Qed.
Lemma gap_values_ok e R s lb i k p a : ready e s -> (gap_values R s lb i k = Ok (p, a) <-> rebuilds R s lb k i p /\ holds s lb k i a).
Proof.
  intros Rd. unfold gap_values, rebuilds, holds. assert (Ma : mapM (fun j => actual_of s j lb) (seq i k) = Ok a <-> length a = k /\ (forall j v, nth_error a j = Some v -> exists x, nth_error (s_items s) (i + j) = Some x /\ has_value x lb v)).
  { split.
    - intros H. apply mapM_F2 in H. split; [rewrite <- (F2_len _ _ _ H), seq_length; reflexivity|]. intros j v V. destruct (F2_get_r _ _ _ H j v V) as (n & N & E). assert (Lj : j < length (seq i k)) by (apply nth_error_Some; rewrite N; discriminate). rewrite seq_length in Lj. rewrite seq_nth_error in N by exact Lj. injection N as <-. apply (actual_iff e s (i + j) lb v Rd). exact E.
    - intros [La H]. apply F2_mapM. apply Forall2_nth; [rewrite seq_length; lia|]. intros j n v N V. assert (Lj : j < length (seq i k)) by (apply nth_error_Some; rewrite N; discriminate). rewrite seq_length in Lj. rewrite seq_nth_error in N by exact Lj. injection N as <-. apply (actual_iff e s (i + j) lb v Rd). apply H. exact V. }
  split.
  - intros H. destruct (rm_predict R s i (i + k - 1)) as [pd|]; cbn [bind] in H; [|discriminate]. destruct (mapM _ _) as [acts|] eqn:A; cbn [bind] in H; [|discriminate]. destruct pd as [d|l]; cbn [bind] in H; [|discriminate]. destruct (dget lb d) as [l|] eqn:D; cbn [bind] in H; [|discriminate]. injection H as <- <-. split; [exists d; split; [reflexivity|exact D]|]. apply Ma. reflexivity.
  - intros [(d & -> & D) H]. apply Ma in H. cbn [bind]. rewrite H. cbn [bind]. rewrite D. reflexivity.
Qed.

(* ---------------- the loop on the positions ---------------- *)
Lemma rec_loop e R thr limit s lb k : ready e s -> forall l st st', (forall i, In i l -> i < length (s_items s)) -> foldM (rec_step R thr limit s lb k) l st = Ok st' ->
  exists ps qs, let is := match limit with None => filter (goodb thr (rm_window R) s k) l | Some n => firstn (n - fst (fst st)) (filter (goodb thr (rm_window R) s k) l) end in
    Forall2 (rebuilds R s lb k) is ps /\ Forall2 (holds s lb k) is qs /\ snd (fst st') = snd (fst st) ++ concat ps /\ snd st' = snd st ++ concat qs.
Proof.
  intros Rd. induction l as [|i l IH]; intros [[n p] a] st' L H.
  - cbn [foldM] in H. injection H as <-. exists [], []. cbn [filter fst snd concat]. rewrite !app_nil_r. destruct limit; [rewrite firstn_nil|]; (split; [constructor|split; [constructor|split; reflexivity]]).
  - cbn [foldM] in H. destruct (rec_step R thr limit s lb k (n, p, a) i) as [st1|] eqn:E; cbn [bind] in H; [|discriminate]. destruct (IH st1 st' (fun j J => L j (or_intror J)) H) as (ps & qs & IHs). clear IH. unfold rec_step in E. cbn [fst snd].
    destruct (match limit with Some l0 => Nat.leb l0 n | None => false end) eqn:Lim.
    + injection E as <-. cbn [fst snd] in IHs. destruct limit as [m|]; [|discriminate]. apply Nat.leb_le in Lim. replace (m - n) with 0 in * by lia. exists ps, qs. cbn [firstn] in *. exact IHs.
    + destruct (good_area_ok thr (rm_window R) s i k (L i (or_introl eq_refl))) as (b & G & _). rewrite G in E. cbn [bind] in E. assert (Gb : goodb thr (rm_window R) s k i = b) by (unfold goodb; rewrite G; reflexivity). cbn [filter]. rewrite Gb. destruct b.
      * destruct (gap_values R s lb i k) as [[p1 a1]|] eqn:V; cbn [bind fst snd] in E; [|discriminate]. injection E as <-. apply (gap_values_ok e R s lb i k p1 a1 Rd) in V. destruct V as [V1 V2]. cbn [fst snd] in IHs. exists (p1 :: ps), (a1 :: qs). cbn [concat]. rewrite !app_assoc.
        destruct limit as [m|]; [apply Nat.leb_gt in Lim; replace (m - n) with (S (m - S n)) by lia; cbn [firstn]|]; destruct IHs as (A & B & C & D); (split; [constructor; [exact V1|exact A]|split; [constructor; [exact V2|exact B]|split; [exact C|exact D]]]).
      * injection E as <-. exists ps, qs. exact IHs.
Qed.
Lemma rec_loop_ok e R thr limit s lb k st : ready e s -> foldM (rec_step R thr limit s lb k) (seq 0 (length (s_items s))) (0, [], []) = Ok st ->
  exists is, used thr (rm_window R) limit s k is /\ rebuilt R s lb k is (snd (fst st)) (snd st).
Proof.
  intros Rd H. assert (L : forall i, In i (seq 0 (length (s_items s))) -> i < length (s_items s)) by (intros i I; apply in_seq in I; lia). destruct (rec_loop e R thr limit s lb k Rd _ _ _ L H) as (ps & qs & A & B & C & D). cbn [fst snd app] in *. eexists. split; [apply used_iff; reflexivity|]. exists ps, qs. unfold all_good, up_to. destruct limit as [n|]; [rewrite Nat.sub_0_r in A, B|]; (split; [exact A|split; [exact B|split; [exact C|exact D]]]).
Qed.
(* ---------------- the scores of a round ---------------- *)
Definition rec_names : list string := ["RMSE"; "MAE"; "MAPE"]%string.
Lemma rec_metric_scored sq m f p a v : In (m, f) (rec_metrics sq) -> p <> [] -> f p a = Ok v -> length p = length a /\ rec_scored sq p a m v.
Proof.
  intros I N H. assert (Len : forall g, mean_error g p a = Ok v \/ (exists w, mean_error g p a = Ok w) -> length p = length a).
  { intros g [G|[w G]]; unfold mean_error, same_lengths in G; destruct (Nat.eqb_spec (length p) (length a)) as [L|L]; try discriminate; exact L. }
  destruct I as [E|[E|[E|[]]]]; injection E as <- <-.
  - destruct (mse p a) as [w|] eqn:M; cbn [bind] in H; [|discriminate]. injection H as <-. assert (L : length p = length a) by (apply (Len sq_err); right; exists w; destruct p; [contradiction|exact M]). destruct (mse_inv p a w L M) as [_ ->]. split; [exact L|constructor].
  - assert (L : length p = length a) by (apply (Len abs_err); left; destruct p; [contradiction|exact H]). destruct (mae_inv p a v L H) as [_ ->]. split; [exact L|constructor].
  - assert (L : length p = length a) by (apply (Len perc_err); left; exact H). destruct (mean_inv _ _ _ _ _ perc_err_is H) as (_ & -> & D). split; [exact L|]. constructor. exact (no_zero p a L D).
Qed.
Lemma suffix_steps a b : (a ++ "_steps" = b ++ "_steps")%string -> a = b.
Proof. apply app_same_length. Qed.
Lemma score_key_inj m m' k k' : In m rec_names -> In m' rec_names -> score_key m k = score_key m' k' -> m = m' /\ k = k'.
Proof.
  intros I I' E. unfold score_key in E. assert (K : forall m, In m rec_names -> m = "RMSE"%string \/ m = "MAE"%string \/ m = "MAPE"%string) by (intros x [<-|[<-|[<-|[]]]]; tauto).
  destruct (K m I) as [-> | [-> | ->]], (K m' I') as [-> | [-> | ->]]; cbn [append] in E; try discriminate E; (split; [reflexivity|]); repeat (injection E as E); apply nat_str_inj, suffix_steps; exact E.
Qed.
(* what a dictionary of scores says *)
Definition score_inv (sq : Qc -> Qc) (R : reconstructor) (thr : Qc) (limit : option nat) (metrics : list string) (s : series) (lb : string) (ks : list nat) (sc : dict Qc) : Prop :=
  NoDup (map fst sc) /\
  (forall key v, dget key sc = Some v -> exists m k, In m rec_names /\ In m metrics /\ In k ks /\ key = score_key m k /\ round_score sq R thr limit s lb m k v) /\
  (forall m k, In m rec_names -> In m metrics -> In k ks -> exists v, dget (score_key m k) sc = Some v).
Lemma rec_round_ok e sq R thr limit metrics s lb ks sc k sc' : ready e s -> score_inv sq R thr limit metrics s lb ks sc -> rec_round sq R thr limit metrics s lb sc k = Ok sc' ->
  score_inv sq R thr limit metrics s lb (k :: ks) sc'.
Proof.
  intros Rd I0 H. unfold rec_round in H. destruct (foldM (rec_step R thr limit s lb k) _ _) as [[[n preds] acts]|] eqn:F; cbn [bind] in H; [|discriminate]. destruct (rec_loop_ok e R thr limit s lb k _ Rd F) as (is & U & Rb). cbn [fst snd] in Rb. destruct preds as [|p0 preds]; [discriminate|]. set (P := p0 :: preds) in *. assert (NP : P <> []) by discriminate. clearbody P. clear p0 preds F.
  (* the loop on the metrics *)
  assert (Loop : forall ml sc1 sc2, (forall x, In x ml -> In x (rec_metrics sq)) -> NoDup (map fst sc1) -> foldM (fun sc m => if str_mem (fst m) metrics then do v <- snd m P acts; Ok (dset (score_key (fst m) k) v sc) else Ok sc) ml sc1 = Ok sc2 ->
      NoDup (map fst sc2) /\ (forall key v, dget key sc2 = Some v -> dget key sc1 = Some v \/ exists m, In m rec_names /\ In m metrics /\ key = score_key m k /\ round_score sq R thr limit s lb m k v) /\
      (forall key, dget key sc1 <> None -> dget key sc2 <> None) /\ (forall m, In m (map fst ml) -> In m metrics -> dget (score_key m k) sc2 <> None)).
  { clear H. induction ml as [|[m f] ml IH]; intros sc1 sc2 Sub Nd H; cbn [foldM] in H.
    - injection H as <-. split; [exact Nd|]. split; [tauto|]. split; [tauto|]. intros m [].
    - cbn [fst snd] in H. assert (Im : In (m, f) (rec_metrics sq)) by (apply Sub; left; reflexivity). assert (Nm : In m rec_names) by (change rec_names with (map fst (rec_metrics sq)); apply in_map_iff; exists (m, f); split; [reflexivity|exact Im]). destruct (str_mem m metrics) eqn:Sm.
      + destruct (f P acts) as [v|] eqn:Fv; cbn [bind] in H; [|discriminate]. apply str_mem_In in Sm. destruct (rec_metric_scored sq m f P acts v Im NP Fv) as [Ln Sc]. destruct (IH (dset (score_key m k) v sc1) sc2) as (A & B & C & D); [intros x X; apply Sub; right; exact X|apply dset_NoDup; exact Nd|exact H|].
        split; [exact A|]. split; [|split].
        * intros key w W. destruct (B key w W) as [W'|W']; [|right; exact W']. rewrite dget_dset in W'. destruct (String.eqb_spec key (score_key m k)) as [->|Ne]; [|left; exact W']. injection W' as <-. right. exists m. split; [exact Nm|]. split; [exact Sm|]. split; [reflexivity|]. exists is, P, acts. split; [exact U|]. split; [exact Rb|]. split; [exact Ln|]. split; [exact NP|exact Sc].
        * intros key K. apply C. rewrite dget_dset. destruct (String.eqb key (score_key m k)); [discriminate|exact K].
        * intros m' [<-|I'] M'; [|apply D; assumption]. cbn [fst]. apply C. rewrite dget_dset, String.eqb_refl. discriminate.
      + cbn [bind] in H. destruct (IH sc1 sc2) as (A & B & C & D); [intros x X; apply Sub; right; exact X|exact Nd|exact H|]. split; [exact A|]. split; [exact B|]. split; [exact C|]. intros m' [<-|I'] M'; [|apply D; assumption]. cbn [fst] in M'. apply str_mem_In in M'. congruence. }
  destruct I0 as (Nd & Ks & Al). destruct (Loop (rec_metrics sq) sc sc' (fun x X => X) Nd H) as (A & B & C & D). split; [exact A|]. split.
  - intros key v V. destruct (B key v V) as [V'|(m & M1 & M2 & -> & Sc)].
    + destruct (Ks key v V') as (m & k' & M1 & M2 & K & -> & Sc). exists m, k'. split; [exact M1|]. split; [exact M2|]. split; [right; exact K|]. split; [reflexivity|exact Sc].
    + exists m, k. split; [exact M1|]. split; [exact M2|]. split; [left; reflexivity|]. split; [reflexivity|exact Sc].
  - intros m k' M1 M2 [<-|K].
    + destruct (dget (score_key m k) sc') as [v|] eqn:V; [exists v; reflexivity|]. exfalso. exact (D m M1 M2 V).
    + destruct (Al m k' M1 M2 K) as [v V]. destruct (dget (score_key m k') sc') as [w|] eqn:W; [exists w; reflexivity|]. exfalso. apply (C (score_key m k')); [rewrite V; discriminate|exact W].
Qed.
Lemma rec_rounds_ok e sq R thr limit metrics s lb : ready e s -> forall l ks sc sc', score_inv sq R thr limit metrics s lb ks sc -> foldM (rec_round sq R thr limit metrics s lb) l sc = Ok sc' ->
  exists ks', (forall k, In k ks' <-> In k l \/ In k ks) /\ score_inv sq R thr limit metrics s lb ks' sc'.
Proof.
  intros Rd. induction l as [|k l IH]; intros ks sc sc' I H; cbn [foldM] in H; [injection H as <-; exists ks; split; [cbn [In]; tauto|exact I]|].
  destruct (rec_round sq R thr limit metrics s lb sc k) as [sc1|] eqn:E; cbn [bind] in H; [|discriminate]. destruct (IH (k :: ks) sc1 sc' (rec_round_ok e _ _ _ _ _ _ _ _ _ _ _ Rd I E) H) as (ks' & K & I'). exists ks'. split; [|exact I']. intros j. rewrite K. cbn [In]. tauto.
Qed.
Lemma round_iff R st k : round R st k <-> In k (rounds_of R st).
Proof.
  unfold round, rounds_of. destruct st as [|l|n]; [destruct (rm_period R); cbn [In]; [intuition congruence|intuition lia]|reflexivity|rewrite in_seq; lia].
Qed.

(* ---------------- the overall scores ---------------- *)
Definition average_of (m : string) (sc : dict Qc) : result Qc := let vs := map snd (filter (fun kv => prefix (m ++ "_") (fst kv)) sc) in qdiv (sum_of vs) (qn (length vs)).
Definition overalls (metrics ml : list string) (avg : string -> Qc) : dict Qc := flat_map (fun m => if str_mem m metrics then [(m, avg m)] else []) ml.
Lemma names_cases m : In m rec_names -> m = "RMSE"%string \/ m = "MAE"%string \/ m = "MAPE"%string.
Proof. intros [<-|[<-|[<-|[]]]]; tauto. Qed.
Lemma prefix_score m m' k : In m rec_names -> In m' rec_names -> (prefix (m ++ "_") (score_key m' k) = true <-> m = m').
Proof. intros I I'. destruct (names_cases m I) as [-> | [-> | ->]], (names_cases m' I') as [-> | [-> | ->]]; unfold score_key; generalize (nat_str k ++ "_steps")%string; intros z; (split; [intros E; first [reflexivity|change (false = true) in E; discriminate E]|intros E; first [discriminate E|destruct z; reflexivity]]). Qed.
Lemma prefix_name m m' : In m rec_names -> In m' rec_names -> prefix (m ++ "_") m' = false.
Proof. intros I I'. destruct (names_cases m I) as [-> | [-> | ->]], (names_cases m' I') as [-> | [-> | ->]]; reflexivity. Qed.
Lemma score_not_name m m' k : In m rec_names -> In m' rec_names -> score_key m k <> m'.
Proof. intros I I'. destruct (names_cases m I) as [-> | [-> | ->]], (names_cases m' I') as [-> | [-> | ->]]; unfold score_key; cbn [append]; discriminate. Qed.
Lemma filter_none {A} (f : A -> bool) l : (forall x, In x l -> f x = false) -> filter f l = [].
Proof. induction l as [|x l IH]; intros H; [reflexivity|]. cbn [filter]. rewrite (H x (or_introl eq_refl)). apply IH. intros y Y. apply H. right. exact Y. Qed.
Lemma average_app m sc ex : In m rec_names -> (forall k, In k (map fst ex) -> In k rec_names) -> average_of m (sc ++ ex) = average_of m sc.
Proof.
  intros I H. unfold average_of. rewrite filter_app, (filter_none _ ex), app_nil_r; [reflexivity|]. intros [k v] X. cbn [fst]. apply prefix_name; [exact I|]. apply H. apply in_map_iff. exists (k, v). split; [reflexivity|exact X].
Qed.
(* the three overall scores are added at the end *)
Lemma overall_loop metrics sc : (forall k, In k (map fst sc) -> ~ In k rec_names) -> forall ml done ex sc', rec_names = done ++ ml -> NoDup rec_names ->
  (forall k, In k (map fst ex) -> In k done) -> foldM (rec_overall metrics) ml (sc ++ ex) = Ok sc' ->
  exists avg, sc' = sc ++ ex ++ overalls metrics ml avg /\ forall m, In m ml -> In m metrics -> average_of m sc = Ok (avg m).
Proof.
  intros Hs. induction ml as [|m ml IH]; intros dn ex sc' E Nd Hx H; cbn [foldM] in H.
  - injection H as <-. exists (fun _ => q0). cbn [overalls flat_map]. rewrite app_nil_r. split; [reflexivity|intros m []].
  - assert (Im : In m rec_names) by (rewrite E; apply in_or_app; right; left; reflexivity). assert (Hn : forall k, In k (map fst ex) -> In k rec_names) by (intros k K; rewrite E; apply in_or_app; left; apply Hx, K).
    assert (E' : rec_names = (dn ++ [m]) ++ ml) by (rewrite <- app_assoc; exact E). unfold rec_overall in H at 1. destruct (str_mem m metrics) eqn:Sm.
    + fold (average_of m (sc ++ ex)) in H. rewrite (average_app m sc ex Im Hn) in H. destruct (average_of m sc) as [v|] eqn:A; cbn [bind] in H; [|discriminate].
      assert (Fr : ~ In m (map fst (sc ++ ex))). { rewrite map_app. intros K. apply in_app_or in K. destruct K as [K|K]; [exact (Hs m K Im)|]. apply Hx in K. rewrite E in Nd. apply NoDup_remove_2 in Nd. apply Nd. apply in_or_app. left. exact K. }
      rewrite (dset_fresh m v (sc ++ ex) Fr), <- app_assoc in H. destruct (IH (dn ++ [m]) (ex ++ [(m, v)]) sc' E' Nd) as (avg & -> & Av); [intros k K; rewrite map_app in K; apply in_app_or in K; apply in_or_app; destruct K as [K|K]; [left; apply Hx, K|right; exact K]|exact H|].
      exists (fun n => if String.eqb n m then v else avg n). rewrite E in Nd. apply NoDup_remove_2 in Nd. assert (Nm : forall n, In n ml -> String.eqb n m = false) by (intros n N; apply String.eqb_neq; intros ->; apply Nd; apply in_or_app; right; exact N). split.
      * cbn [overalls flat_map]. rewrite Sm, String.eqb_refl. rewrite <- !app_assoc. cbn [app]. do 3 f_equal. unfold overalls. clear -Nm. induction ml as [|n ml IH]; [reflexivity|]. cbn [flat_map]. rewrite (Nm n (or_introl eq_refl)), IH; [reflexivity|]. intros x X. apply Nm. right. exact X.
      * intros n [<-|N] Mn; [rewrite String.eqb_refl; exact A|]. rewrite (Nm n N). apply Av; assumption.
    + cbn [bind] in H. destruct (IH (dn ++ [m]) ex sc' E' Nd) as (avg & -> & Av); [intros k K; apply in_or_app; left; apply Hx, K|exact H|]. exists avg. split; [cbn [overalls flat_map]; rewrite Sm; reflexivity|]. intros n [<-|N] Mn; [apply str_mem_In in Mn; congruence|apply Av; assumption].
Qed.
Lemma sum_total vs : sum_of vs = total vs.
Proof.
  unfold sum_of. assert (H : forall l a, fold_left Qcplus l a = Qcplus a (total l)). { induction l as [|x l IH]; intros a; cbn [fold_left total]; [rewrite q0_eq; ring|]. rewrite IH. ring. } rewrite H, q0_eq. ring.
Qed.
Lemma overall_average sq R st thr limit metrics s lb ks sc m v : score_inv sq R thr limit metrics s lb ks sc -> (forall k, In k ks <-> round R st k) -> In m rec_names -> In m metrics -> average_of m sc = Ok v -> overall_score sq R st thr limit s lb m v.
Proof.
  intros (Nd & Ks & Al) Ek Nm Mm H. unfold average_of in H. set (F := filter (fun kv => prefix (m ++ "_") (fst kv)) sc) in *.
  assert (Fa : Forall (fun kv => exists k, fst kv = score_key m k /\ In k ks /\ round_score sq R thr limit s lb m k (snd kv)) F).
  { apply Forall_forall. intros [key w] I. apply filter_In in I. destruct I as [I P]. cbn [fst snd] in *. destruct (Ks key w) as (m' & k & M1 & M2 & K & -> & Sc); [apply dget_NoDup; [exact Nd|exact I]|]. apply (prefix_score m m' k Nm M1) in P. subst m'. exists k. split; [reflexivity|]. split; [exact K|exact Sc]. }
  assert (NF : NoDup (map fst F)). { clear -Nd. unfold F. induction sc as [|kv sc IH]; [constructor|]. cbn [map] in Nd. inversion Nd as [|? ? A B]; subst. cbn [filter]. destruct (prefix _ _); [|apply IH; exact B]. cbn [map]. constructor; [|apply IH; exact B]. intros X. apply A. apply in_map_iff in X. destruct X as (y & <- & Y). apply filter_In in Y. apply in_map_iff. exists y. split; [reflexivity|apply Y]. }
  assert (Cf : forall k, In k ks -> exists w, In (score_key m k, w) F). { intros k K. destruct (Al m k Nm Mm K) as [w W]. exists w. apply filter_In. split; [apply dget_Some_In; exact W|]. cbn [fst]. apply prefix_score; [exact Nm|exact Nm|reflexivity]. }
  clearbody F. assert (Ex : exists js, map (score_key m) js = map fst F /\ Forall2 (round_score sq R thr limit s lb m) js (map snd F) /\ forall k, In k js -> In k ks).
  { clear -Fa. induction F as [|[key w] F IH]; [exists []; split; [reflexivity|]; split; [constructor|intros k []]|]. inversion Fa as [|? ? A B]; subst. destruct (IH B) as (js & E & F2 & Sub). destruct A as (k & Ak & K & Sc). cbn [fst snd] in *. exists (k :: js). split; [cbn [map fst]; rewrite E, Ak; reflexivity|]. split; [constructor; [exact Sc|exact F2]|]. intros j [<-|J]; [exact K|apply Sub, J]. }
  destruct Ex as (js & E & F2 & Sub). exists js, (map snd F). split; [rewrite <- E in NF; apply NoDup_map_inv in NF; exact NF|]. split.
  - intros k. rewrite <- Ek. split; [apply Sub|]. intros K. destruct (Cf k K) as [w W]. assert (X : In (score_key m k) (map (score_key m) js)) by (rewrite E; apply in_map_iff; exists (score_key m k, w); split; [reflexivity|exact W]). apply in_map_iff in X. destruct X as (j & Ej & J). apply score_key_inj in Ej; [|exact Nm|exact Nm]. destruct Ej as [_ ->]. exact J.
  - split; [exact F2|]. rewrite sum_total in H. apply F2_len in F2. rewrite F2. unfold qdiv in H. destruct (qeqb _ _); [discriminate|]. injection H as <-. reflexivity.
Qed.
