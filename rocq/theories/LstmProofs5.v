(* LstmProofs5.v -- predict on what the network was fitted on, and when a fit succeeds. *)
From Verif Require Import SpecLstm BaseLemmas PropTactics DictLemmas AccessProofs2 OpsProofs OpsProofs2 OpsProofs3 InterpProofs ReconProofs2 ReconProofs3 ReconProofs4 SeriesProofs2 LstmProofs LstmProofs2 LstmProofs3 LstmProofs4.

(* ---------------- features depend on the data only by label ---------------- *)
Definition alike (x y : item) : Prop := i_t y = i_t x /\ i_tz y = i_tz x /\ forall lb, data_at y lb = data_at x lb.
Lemma alike_refl x : alike x x. Proof. repeat split. Qed.
Lemma mapM_ext {A B} (f g : A -> result B) l : (forall x, In x l -> f x = g x) -> mapM f l = mapM g l.
Proof. induction l as [|x l IH]; intros H; cbn [mapM]; [reflexivity|]. rewrite (H x (or_introl eq_refl)), IH; [reflexivity|]. intros y I. apply H. right. exact I. Qed.
Lemma alike_nth win win' : Forall2 alike win win' -> forall k, (exists x y, nth_item win k = Ok x /\ nth_item win' k = Ok y /\ alike x y) \/ (nth_item win k = Err IndexError /\ nth_item win' k = Err IndexError).
Proof.
  intros F k. unfold nth_item. destruct (nth_error win k) as [x|] eqn:X.
  - destruct (F2_get _ _ _ F k x X) as (y & Y & A). rewrite Y. left. exists x, y. repeat split; apply A.
  - rewrite (proj2 (nth_error_None win' k)); [right; split; reflexivity|]. apply nth_error_None in X. rewrite <- (F2_len _ _ _ F). exact X.
Qed.
Lemma alike_pair win win' a b lb (g : Qc -> Qc -> result Qc) : Forall2 alike win win' ->
  (do y' <- nth_item win b; do y <- data_at y' lb; do x' <- nth_item win a; do x <- data_at x' lb; g y x) = (do y' <- nth_item win' b; do y <- data_at y' lb; do x' <- nth_item win' a; do x <- data_at x' lb; g y x).
Proof.
  intros F. destruct (alike_nth _ _ F b) as [(x & y & -> & -> & A)|[-> ->]]; [|reflexivity]. cbn [bind]. rewrite (proj2 (proj2 A) lb). destruct (data_at x lb); [|reflexivity]. cbn [bind].
  destruct (alike_nth _ _ F a) as [(x' & y' & -> & -> & A')|[-> ->]]; [|reflexivity]. cbn [bind]. rewrite (proj2 (proj2 A') lb). reflexivity.
Qed.
Lemma alike_features hour features labels win win' k : Forall2 alike win win' -> item_features hour features labels win k = item_features hour features labels win' k.
Proof.
  intros F. unfold item_features. destruct (alike_nth _ _ F k) as [(x & y & -> & -> & A)|[-> ->]]; [|reflexivity]. cbn [bind]. destruct A as (A1 & A2 & A3). rewrite A1, A2.
  rewrite (mapM_ext (fun lb => or_zero (data_at y lb)) (fun lb => or_zero (data_at x lb))) by (intros lb _; rewrite A3; reflexivity).
  rewrite (mapM_ext (diff_at win k) (diff_at win' k)); [reflexivity|]. intros lb _. unfold diff_at. rewrite <- (F2_len _ _ _ F). f_equal.
  destruct (Nat.eqb k 0); [|destruct (Nat.eqb k (length win - 1))]; f_equal.
  - rewrite (alike_pair win win' 0 1 lb (fun y x => Ok (Qcminus y x)) F). reflexivity.
  - rewrite (alike_pair win win' (length win - 2) (length win - 1) lb (fun y x => Ok (Qcminus y x)) F). reflexivity.
  - rewrite (alike_pair win win' (k - 1) (k + 1) lb (fun y x => Ok (Qcdiv (Qcminus y x) q2)) F). reflexivity.
Qed.
Lemma alike_context hour c win labels r features d d' : NoDup (map fst d) -> NoDup (map fst d') -> (forall lb v, In (lb, v) d <-> In (lb, v) d') ->
  window_features hour c win labels r features (Some d) = window_features hour c win labels r features (Some d').
Proof.
  intros N N' E. unfold window_features. destruct (forallb _ features); [|reflexivity]. destruct d as [|kv d].
  { destruct d' as [|[k v] d']; [reflexivity|]. exfalso. apply (proj2 (E k v)). left. reflexivity. }
  destruct d' as [|kv' d']. { exfalso. destruct kv as [k v]. apply (proj1 (E k v)). left. reflexivity. }
  assert (G : forall lb, dget lb (kv :: d) = dget lb (kv' :: d')).
  { intros lb. destruct (dget lb (kv :: d)) as [v|] eqn:X.
    - apply dget_Some_In in X. apply E in X. symmetry. apply dget_NoDup; assumption.
    - destruct (dget lb (kv' :: d')) as [v|] eqn:Y; [|reflexivity]. apply dget_Some_In in Y. apply E in Y. rewrite (dget_NoDup lb _ v N Y) in X. discriminate. }
  unfold with_context_item. destruct win as [|y win]; [reflexivity|]. destruct (nth_item (y :: win) _) as [x|]; [|reflexivity]. cbn [bind]. destruct r as [[|u]|]; [reflexivity| |reflexivity]. destruct (is_slot x); [reflexivity|]. cbn [bind].
  rewrite !app_length. cbn [length]. apply mapM_ext. intros k _. apply alike_features. apply Forall2_app; [|constructor; [|constructor]].
  - generalize (y :: win). intros l. induction l; constructor; [apply alike_refl|assumption].
  - split; [reflexivity|]. split; [reflexivity|]. intros lb. unfold data_at, item_data. cbn [i_data bind data_item]. rewrite G. reflexivity.
Qed.

Lemma last_items_app {A} n (pre win : list A) : length win = n -> 0 < n -> last_items n (pre ++ win) = win.
Proof. intros L P. unfold last_items. destruct n as [|n]; [lia|]. rewrite app_length, L. replace (length pre + S n - S n) with (length pre) by lia. rewrite skipn_app, skipn_all, Nat.sub_diag. reflexivity. Qed.
Lemma ext_list {A} : forall (l l' : list A), (forall k, nth_error l k = nth_error l' k) -> l = l'.
Proof. induction l as [|x l IH]; intros [|y l'] H; [reflexivity|specialize (H 0); discriminate|specialize (H 0); discriminate|]. pose proof (H 0) as Q. injection Q as <-. f_equal. apply IH. intros k. apply (H (S k)). Qed.
Lemma window_unique w l i win win' : window_before w l i win -> window_before w l i win' -> win = win'.
Proof.
  intros [L N] [L' N']. apply ext_list. intros k. destruct (Nat.lt_ge_cases k w) as [H|H]; [rewrite (N k H), (N' k H); reflexivity|].
  rewrite (proj2 (nth_error_None win k)), (proj2 (nth_error_None win' k)); [reflexivity|lia|lia].
Qed.

(* normalising the window and the context gives those of the training *)
Lemma normalized_window mins maxs l items w i win win' : mapM (normalize_item mins maxs) l = Ok items -> w <= i <= length l -> window_before w l i win -> window_before w items i win' -> mapM (normalize_item mins maxs) win = Ok win'.
Proof.
  intros M Hi [L N] [L' N']. apply mapM_map in M. apply mapM_map. apply Forall2_nth; [congruence|]. intros k x y X Y. assert (K : k < w) by (rewrite <- L; apply nth_error_Some; congruence).
  rewrite (N k K) in X. rewrite (N' k K) in Y. destruct (F2_get _ _ _ M _ x X) as (y' & Y' & E). congruence.
Qed.
Lemma rescaled_value lo hi x y lb v : rescaled lo hi x y -> with_dict y -> has_value x lb v -> lo lb <> hi lb -> forall u, normalize (lo lb) (hi lb) v = Ok u <-> has_value y lb u.
Proof.
  intros (_ & _ & L & V) (d & Hd & N) H D u. destruct (normalize_ok _ _ v D) as (z & Z & Q). assert (Zu : has_value y lb z).
  { destruct (proj2 (L lb) (ex_intro _ v H)) as (u' & U). pose proof (V lb v u' H U) as P. replace z with u'; [exact U|]. apply (mult_cancel u' z (Qcminus (hi lb) (lo lb))); [intros X; apply D; symmetry; exact (proj1 (minus_eq _ _) X)|congruence]. }
  rewrite Z. split; [intros X; injection X as <-; exact Zu|]. intros U. unfold has_value in *. rewrite Hd in *. rewrite (NoDup_fst_eq d lb z u N Zu U). reflexivity.
Qed.
Lemma normalized_context mins maxs l items ls i d d1 : mapM (normalize_item mins maxs) l = Ok items -> (forall x, In x l -> with_dict x) ->
  own_context ls l i d -> own_context ls items i d1 -> exists d2, normalize_data mins maxs d = Ok d2 /\ NoDup (map fst d2) /\ NoDup (map fst d1) /\ forall lb v, In (lb, v) d2 <-> In (lb, v) d1.
Proof.
  intros M D (x & X & N & K & V) (y & Y & N1 & K1 & V1). apply mapM_map in M. destruct (F2_get _ _ _ M i x X) as (y' & Y' & E). rewrite Y in Y'. injection Y' as <-.
  assert (Ix : In x l) by (apply nth_error_In in X; exact X). destruct (normalize_item_spec mins maxs x y (D x Ix) E) as (R & Dy & F).
  destruct (mapM_exists (normalize_entry mins maxs) (fun kv kv' => fst kv' = fst kv /\ normalize (factor mins (fst kv)) (factor maxs (fst kv)) (snd kv) = Ok (snd kv')) d) as (d2 & E2 & L2 & P2).
  { intros [k v] I. pose proof (V k v I) as Hv. destruct (F k (ex_intro _ v Hv)) as (Dk & Mk & Mk'). destruct (normalize_ok _ _ v Dk) as (u & U & _). exists (k, u). cbn [fst snd]. split; [|split; [reflexivity|exact U]].
    unfold normalize_entry, pick, factor, dmem in *. cbn [fst snd]. destruct (dget k mins); [|discriminate]. destruct (dget k maxs); [|discriminate]. cbn [bind]. rewrite U. reflexivity. }
  assert (F2' : Forall2 (fun kv kv' => fst kv' = fst kv /\ normalize (factor mins (fst kv)) (factor maxs (fst kv)) (snd kv) = Ok (snd kv')) d d2).
  { apply Forall2_nth; [congruence|]. intros j a b A B. destruct (P2 j a A) as (b' & B' & Q). rewrite B in B'. injection B' as <-. exact Q. }
  exists d2. split; [exact E2|]. assert (Kd : map fst d2 = map fst d) by (revert F2'; apply F2_keys; intros a b Q; apply Q). split; [rewrite Kd; exact N|]. split; [exact N1|].
  assert (T : forall lb v, In (lb, v) d2 -> has_value y lb v).
  { intros lb v I. destruct (F2_In_r _ _ _ _ F2' I) as ([k w] & J & Q & Z). cbn [fst snd] in *. subst k. apply (rescaled_value _ _ x y lb w R Dy (V lb w J)); [apply F; exists w; apply V; exact J|exact Z]. }
  assert (U : forall lb a b, has_value y lb a -> has_value y lb b -> a = b) by (intros lb a b A B; destruct Dy as (dy & Hd & Ny); unfold has_value in *; rewrite Hd in *; apply (NoDup_fst_eq dy lb); assumption).
  assert (In_key : forall (z : dict Qc) lb v, In (lb, v) z -> In lb (map fst z)) by (intros z lb v I; apply in_map_iff; exists (lb, v); split; [reflexivity|exact I]).
  assert (Key_In : forall (z : dict Qc) lb, In lb (map fst z) -> exists v, In (lb, v) z) by (intros z lb I; apply in_map_iff in I; destruct I as ([k v] & <- & I); exists v; exact I).
  intros lb v. split; intros I.
  - destruct (Key_In d1 lb) as (w & J); [apply K1; apply K; unfold dkeys; rewrite <- Kd; apply (In_key d2 lb v I)|]. replace v with w; [exact J|]. apply (U lb); [apply V1; exact J|apply T; exact I].
  - destruct (Key_In d2 lb) as (w & J); [rewrite Kd; apply K; apply K1; apply (In_key d1 lb v I)|]. replace v with w; [exact J|]. apply (U lb); [apply T; exact J|apply V1; exact I].
Qed.

Definition read_out (norm : option (dict Qc * dict Qc)) (y : list Qc) (il : nat * string) : result (string * Qc) :=
  do v <- match nth_error y (fst il) with Some v => Ok v | None => Err IndexError end;
  match norm with
  | None => Ok (snd il, v)
  | Some (mins, maxs) => do lo <- pick mins (snd il); do hi <- pick maxs (snd il); Ok (snd il, denormalize lo hi v)
  end.
Lemma read_out_ok norm (P : string -> Qc -> Prop) : forall targets y pre, Forall2 (fun lb u => match norm with
     | None => P lb u
     | Some (mins, maxs) => dmem lb mins = true /\ dmem lb maxs = true /\ P lb (denormalize (factor mins lb) (factor maxs lb) u) end) targets y ->
  exists vs, mapM (read_out norm (pre ++ y)) (combine (seq (length pre) (length targets)) targets) = Ok vs /\ map fst vs = targets /\ forall lb v, In (lb, v) vs -> P lb v.
Proof.
  intros targets y pre F. revert pre. induction F as [|lb u targets y H F IH]; intros pre; cbn [length seq combine mapM].
  - exists []. split; [reflexivity|]. split; [reflexivity|]. intros lb v [].
  - destruct (IH (pre ++ [u])) as (vs & M & K & V). rewrite app_length in M. cbn [length] in M. rewrite Nat.add_1_r in M. rewrite <- app_assoc in M. cbn [app] in M.
    assert (X : exists v, read_out norm (pre ++ u :: y) (length pre, lb) = Ok (lb, v) /\ P lb v).
    { unfold read_out. cbn [fst snd]. rewrite nth_error_app2 by lia. rewrite Nat.sub_diag. cbn [nth_error bind]. destruct norm as [[mins maxs]|]; [|exists u; split; [reflexivity|exact H]].
      destruct H as (A & B & C). unfold pick, factor, dmem in *. destruct (dget lb mins); [|discriminate]. destruct (dget lb maxs); [|discriminate]. cbn [bind]. eexists. split; [reflexivity|exact C]. }
    destruct X as (v & E & Pv). rewrite E. cbn [bind]. rewrite M. cbn [bind]. exists ((lb, v) :: vs). split; [reflexivity|]. split; [cbn [map fst]; rewrite K; reflexivity|]. intros lb' v' [Q|I]; [injection Q as <- <-; exact Pv|apply V; exact I].
Qed.
Lemma has_value_unique x lb a b : with_dict x -> has_value x lb a -> has_value x lb b -> a = b.
Proof. intros (d & Hd & N) A B. unfold has_value in *. rewrite Hd in *. apply (NoDup_fst_eq d lb); assumption. Qed.

Lemma predict_trained e hour c train m s norm t wc limit m' i x s' win pre ctx :
  ready e s -> lstm_fit e hour c train m s norm t wc limit = Ok m' -> norm = true \/ lm_norm m = None -> 0 < lm_window m ->
  trainable limit (lm_window m) (s_items s) i -> nth_error (s_items s) i = Some x ->
  window_before (lm_window m) (s_items s) i win -> s_items s' = pre ++ win -> resolution s' = resolution s ->
  match lm_context m' with None => ctx = None | Some ls => exists d, ctx = Some d /\ own_context ls (s_items s) i d end ->
  exists fs ts k f y, lm_net m' = train fs ts /\ nth_error fs k = Some f /\ nth_error ts k = Some y /\
    (lm_net m' f = y -> exists d, lstm_predict hour c m' s' 1 ctx = Ok d /\ forall lb v, dget lb d = Some v <-> In lb (lm_targets m') /\ has_value x lb v).
Proof.
  intros R Fit NM W0 Tr X WB S' RES CT. destruct (fit_inv _ _ _ _ _ _ _ _ _ _ _ R Fit) as (items & W & T & C & fs & F).
  destruct (fit_rows _ _ _ _ _ _ _ _ _ _ _ _ _ _ _ _ R F) as (ps & P1 & _ & P2 & P3 & P4 & P5 & P6).
  pose proof (proj2 (P2 i) Tr) as I. apply In_nth_error in I. destruct I as (k & Ek).
  destruct (F2_get _ _ _ P6 k i Ek) as (f & Ef & win' & ctx' & WB' & CX & WF). destruct (F2_get _ _ _ P4 k i Ek) as (y & Ey & yi & Yi & Ty).
  exists fs, T, k, f, y. split; [apply (ff_net _ _ _ _ _ _ _ _ _ _ _ _ _ _ _ _ F)|]. split; [exact Ef|]. split; [exact Ey|]. intros Net.
  assert (Ix : In x (s_items s)) by (apply nth_error_In in X; exact X).
  pose proof (ff_labels _ _ _ _ _ _ _ _ _ _ _ _ _ _ _ _ F) as L. destruct (ready_labels_of e s _ R L) as [NL HL].
  pose proof (choose_spec _ _ _ _ _ NL (ff_choice _ _ _ _ _ _ _ _ _ _ _ _ _ _ _ _ F)) as (N1 & N2 & C0 & C1).
  pose proof (ff_window _ _ _ _ _ _ _ _ _ _ _ _ _ _ _ _ F) as FW. pose proof (ff_kinds _ _ _ _ _ _ _ _ _ _ _ _ _ _ _ _ F) as FK. destruct WB as [LW NW].
  assert (LAST : last_items (lm_window m') (s_items s') = win) by (rewrite FW, S'; apply last_items_app; [exact LW|exact W0]).
  unfold lstm_predict. assert (LEN : Nat.ltb (length (s_items s')) (lm_window m') = false) by (apply Nat.ltb_ge; rewrite S', app_length, FW; lia). rewrite LEN. cbn [Nat.ltb Nat.leb]. rewrite LAST, RES, FK.
  pose proof (ff_norm _ _ _ _ _ _ _ _ _ _ _ _ _ _ _ _ F) as FN.
  assert (FIN : forall P : string -> Qc -> Prop, (forall lb a b, P lb a -> P lb b -> a = b) -> forall vs, map fst vs = lm_targets m' -> (forall lb v, In (lb, v) vs -> P lb v) -> forall lb v, dget lb (dict_of vs) = Some v <-> In lb (lm_targets m') /\ P lb v).
  { intros P U vs K V lb v. rewrite dict_of_NoDup by (rewrite K; exact N1). split.
    - intros G. apply dget_Some_In in G. split; [rewrite <- K; apply in_map_iff; exists (lb, v); split; [reflexivity|exact G]|apply V; exact G].
    - intros [J Pv]. rewrite <- K in J. apply in_map_iff in J. destruct J as ([k' w] & <- & J). cbn [fst] in *. rewrite (U k' v w Pv (V k' w J)). apply dget_NoDup; [unfold dkeys; rewrite K; exact N1|exact J]. }
  specialize (FIN (has_value x) (fun lb a b => has_value_unique x lb a b (ready_dict e s x R Ix))).
  assert (GOAL : forall wc', (match lm_norm m' with None => Ok (win, ctx) | Some (mins, maxs) => do w' <- mapM (normalize_item mins maxs) win;
        do ctx'' <- match ctx with Some (kv :: d) => do d' <- normalize_data mins maxs (kv :: d); Ok (Some d') | _ => Ok ctx end; Ok (w', ctx'') end) = Ok wc' ->
     window_features hour c (fst wc') (lm_labels m') (resolution s) (lm_features m) (snd wc') = Ok f ->
     Forall2 (fun lb u => match lm_norm m' with None => has_value x lb u | Some (mins, maxs) => dmem lb mins = true /\ dmem lb maxs = true /\ has_value x lb (denormalize (factor mins lb) (factor maxs lb) u) end) (lm_targets m') y ->
     exists d, (do wc0 <- (match lm_norm m' with None => Ok (win, ctx) | Some (mins, maxs) => do w' <- mapM (normalize_item mins maxs) win;
        do ctx'' <- match ctx with Some (kv :: d) => do d' <- normalize_data mins maxs (kv :: d); Ok (Some d') | _ => Ok ctx end; Ok (w', ctx'') end);
        do f <- window_features hour c (fst wc0) (lm_labels m') (resolution s) (lm_features m) (snd wc0);
        do vs <- mapM (read_out (lm_norm m') (lm_net m' f)) (combine (seq 0 (length (lm_targets m'))) (lm_targets m')); Ok (dict_of vs)) = Ok d /\ forall lb v, dget lb d = Some v <-> In lb (lm_targets m') /\ has_value x lb v).
  { intros wc' E1 E2 E3. rewrite E1. cbn [bind]. rewrite E2. cbn [bind]. rewrite Net. destruct (read_out_ok (lm_norm m') (has_value x) (lm_targets m') y [] E3) as (vs & M & K & V). cbn [app length] in M. rewrite M. cbn [bind].
    exists (dict_of vs). split; [reflexivity|]. apply FIN; assumption. }
  unfold read_out in GOAL. destruct norm.
  - destruct FN as (mins & maxs & LN & M & DM & RG). rewrite LN in *. destruct Tr as [Hi _].
    assert (Wn : mapM (normalize_item mins maxs) win = Ok win') by (apply (normalized_window mins maxs (s_items s) items (lm_window m) i); [exact M|lia|split; assumption|exact WB']).
    pose proof M as M2. apply mapM_map in M2. destruct (F2_get _ _ _ M2 i x X) as (yi' & Yi' & En). rewrite Yi in Yi'. injection Yi' as <-.
    destruct (normalize_item_spec mins maxs x yi (ready_dict e s x R Ix) En) as (Rs & Dy & Fy).
    assert (E3 : Forall2 (fun lb u => dmem lb mins = true /\ dmem lb maxs = true /\ has_value x lb (denormalize (factor mins lb) (factor maxs lb) u)) (lm_targets m') y).
    { revert Ty. apply F2_impl. intros lb u U. destruct Rs as (_ & _ & Ls & Vs). destruct (proj1 (Ls lb) (ex_intro _ u U)) as (v & V). destruct (Fy lb (ex_intro _ v V)) as (_ & A & B). split; [exact A|]. split; [exact B|].
      rewrite (denormalize_back _ _ v u (Vs lb v u V U)). exact V. }
    destruct (lm_context m') as [ls|].
    + destruct CT as (d & -> & O). destruct CX as (d1 & -> & O1). destruct (normalized_context mins maxs (s_items s) items ls i d d1 M (fun z => ready_dict e s z R) O O1) as (d2 & E2 & ND2 & ND1 & Q).
      destruct d as [|kv d].
      * cbn in E2. injection E2 as <-. apply (GOAL (win', Some [])); [rewrite Wn; reflexivity| |exact E3]. cbn [fst snd]. rewrite <- WF. apply alike_context; assumption.
      * apply (GOAL (win', Some d2)); [rewrite Wn; cbn [bind]; rewrite E2; reflexivity| |exact E3]. cbn [fst snd]. rewrite <- WF. apply alike_context; assumption.
    + subst ctx ctx'. apply (GOAL (win', None)); [rewrite Wn; reflexivity|exact WF|exact E3].
  - destruct FN as [-> LN]. destruct NM as [NM|NM]; [discriminate|]. rewrite LN, NM in *. rewrite X in Yi. injection Yi as <-.
    assert (win' = win) as -> by (apply (window_unique (lm_window m) (s_items s) i); [exact WB'|split; assumption]).
    apply (GOAL (win, ctx)); [reflexivity| |exact Ty]. cbn [fst snd]. rewrite <- WF. destruct (lm_context m') as [ls|].
    + destruct CT as (d & -> & O). destruct CX as (d1 & -> & O1). destruct O as (z & Z & Nd & Kd & Vd). destruct O1 as (z' & Z' & Nd' & Kd' & Vd'). rewrite Z in Z'. injection Z' as <-.
      assert (Dz : with_dict z) by (apply (ready_dict e s z R); apply nth_error_In in Z; exact Z).
      assert (In_key : forall (q : dict Qc) lb v, In (lb, v) q -> In lb (map fst q)) by (intros q lb v J; apply in_map_iff; exists (lb, v); split; [reflexivity|exact J]).
      assert (Key_In : forall (q : dict Qc) lb, In lb (map fst q) -> exists v, In (lb, v) q) by (intros q lb J; apply in_map_iff in J; destruct J as ([k' v] & <- & J); exists v; exact J).
      apply alike_context; [exact Nd|exact Nd'|]. intros lb v. split; intros J.
      * destruct (Key_In d1 lb) as (w & J'); [apply Kd'; apply Kd; apply (In_key d lb v J)|]. rewrite (has_value_unique z lb v w Dz (Vd lb v J) (Vd' lb w J')). exact J'.
      * destruct (Key_In d lb) as (w & J'); [apply Kd; apply Kd'; apply (In_key d1 lb v J)|]. rewrite (has_value_unique z lb v w Dz (Vd' lb v J) (Vd lb w J')). exact J'.
    + subst. reflexivity.
Qed.
