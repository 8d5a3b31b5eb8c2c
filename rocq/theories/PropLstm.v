(* PropLstm.v -- THEOREMS C51 and C56: windows, features and normalisation of the LSTM forecaster. *)
From Verif Require Import SpecLstm BaseLemmas PropTactics DictLemmas AccessProofs2 OpsProofs OpsProofs2 OpsProofs3 InterpProofs ReconProofs2 ReconProofs3 ReconProofs4 SeriesProofs2 TransformProofs PropTransform PropRecon
  LstmProofs LstmProofs2 LstmProofs3 LstmProofs4 LstmProofs5 LstmProofs6 Witness.

(* ===================== C51 ===================== *)

(* The rows of the matrix are, in order, those of all and only the items with a whole window before them and no left out item
   from the start of the window to the item: each window is made of the items before the target, each target has its own
   values, each context its own values. *)
Theorem C51_rows : forall s w ctx targets limit W T C, (forall ls, ctx = Some ls -> NoDup ls) -> to_matrix s w 1 ctx targets limit = Ok (W, T, C) ->
  exists ps, StronglySorted lt ps /\ (forall i, In i ps <-> trainable limit w (s_items s) i) /\
    Forall2 (window_before w (s_items s)) ps W /\ Forall2 (own_values targets (s_items s)) ps T /\
    match ctx with None => C = [] | Some ls => Forall2 (own_context ls (s_items s)) ps C end.
Proof. exact to_matrix_spec. Qed.
Print Assumptions C51_rows.
(* It is built for all the items with the labels and a known data loss; more steps are refused. *)
Theorem C51_built : forall s w ctx targets limit, (forall x, In x (s_items s) -> with_dict x /\ loss_known x /\ forall lb, In lb targets \/ (exists ls, ctx = Some ls /\ In lb ls) -> has_label x lb) ->
  (exists r, to_matrix s w 1 ctx targets limit = Ok r) /\ forall n, 1 < n -> to_matrix s w n ctx targets limit = Err NotImplementedError.
Proof. intros s w ctx targets limit H. split; [exact (to_matrix_ok s w ctx targets limit H)|]. intros n N. unfold to_matrix. destruct (Nat.ltb_spec 1 n); [reflexivity|lia]. Qed.
Print Assumptions C51_built.
(* The features of each item of the window: values, slopes and hour; the context, if any, is one more item. *)
Theorem C51_features : forall hour c win labels r features ctx, known_features features -> (forall x, In x win -> with_dict x) -> (forall d, ctx = Some d -> NoDup (dkeys d)) ->
  (has_feature "diffs" features = true -> 2 <= length win) ->
  (ctx = None \/ ctx = Some [] \/ exists u, r = Some (RUnit u) /\ win <> [] /\ forall x, In x win -> is_slot x = false) ->
  exists win' rows, with_context_after c r ctx win win' /\ window_features hour c win labels r features ctx = Ok rows /\ length rows = length win' /\
    forall k, k < length win' -> exists row, nth_error rows k = Some row /\ features_of hour features labels win' k row.
Proof.
  intros hour c win labels r features ctx K D N L X. destruct (with_context_ok c win r ctx X) as (win' & E & A). exists win'.
  assert (P : (forall x, In x win' -> with_dict x) /\ length win <= length win').
  { unfold with_context_after in A. destruct ctx as [[|kv d]|]; [subst; split; [exact D|lia]| |subst; split; [exact D|lia]]. destruct A as (u & last & z & _ & _ & _ & -> & _ & _ & Dz).
    split; [|rewrite app_length; lia]. intros y Iy. apply in_app_iff in Iy. destruct Iy as [Iy|[<-|[]]]; [apply D; exact Iy|]. exists (kv :: d). split; [exact Dz|apply N; reflexivity]. }
  destruct P as [P1 P2]. destruct (window_features_ok hour c win labels r features ctx win' K E P1) as (rows & F & Ln & R); [intros H; specialize (L H); lia|].
  exists rows. split; [exact A|]. split; [exact F|]. split; [exact Ln|exact R].
Qed.
Print Assumptions C51_features.
(* What the network is fitted on: for each item with a whole window before it and no left out item (and only for those, in
   order), the features of its window -- which do not include the item, but for the context: the labels of that are
   not targets -- and, as targets, its own values. *)
Theorem C51_fit : forall e hour c train m s norm t wc limit m', ready e s -> lstm_fit e hour c train m s norm t wc limit = Ok m' ->
  exists items ps fs ts,
    (if norm then exists lo hi, ranges (s_items s) lo hi /\ Forall2 (rescaled lo hi) (s_items s) items else items = s_items s) /\
    lm_net m' = train fs ts /\ StronglySorted lt ps /\ ps <> [] /\ (forall i, In i ps <-> trainable limit (lm_window m) (s_items s) i) /\
    Forall2 (own_values (lm_targets m') items) ps ts /\
    Forall2 (fun i f => exists win ctx, window_before (lm_window m) items i win /\
        match lm_context m' with None => ctx = None | Some ls => exists d, ctx = Some d /\ own_context ls items i d end /\
        window_features hour c win (lm_labels m') (resolution s) (lm_features m) ctx = Ok f) ps fs /\
    (forall x lb, In x (s_items s) -> (has_label x lb <-> In lb (lm_labels m'))) /\
    (forall ls lb, lm_context m' = Some ls -> In lb ls -> ~ In lb (lm_targets m')) /\
    (wc = true -> exists ls, lm_context m' = Some ls /\ forall lb, In lb (lm_labels m') -> In lb ls \/ In lb (lm_targets m')) /\
    match t with TAll => lm_targets m' = lm_labels m' | TLabel lb => lm_targets m' = [lb] | TLabels _ => False end.
Proof.
  intros e hour c train m s norm t wc limit m' R Fit. destruct (fit_inv _ _ _ _ _ _ _ _ _ _ _ R Fit) as (items & W & T & C & fs & F).
  destruct (fit_rows _ _ _ _ _ _ _ _ _ _ _ _ _ _ _ _ R F) as (ps & P1 & P0 & P2 & P3 & P4 & P5 & P6). exists items, ps, fs, T.
  pose proof (ff_labels _ _ _ _ _ _ _ _ _ _ _ _ _ _ _ _ F) as L. destruct (ready_labels_of e s _ R L) as [NL HL]. pose proof (ff_choice _ _ _ _ _ _ _ _ _ _ _ _ _ _ _ _ F) as CH.
  pose proof (choose_spec _ _ _ _ _ NL CH) as (N1 & N2 & C0 & C1).
  split. { pose proof (ff_norm _ _ _ _ _ _ _ _ _ _ _ _ _ _ _ _ F) as H. destruct norm; [|apply H]. destruct H as (mins & maxs & _ & M & _ & RG). exists (factor mins), (factor maxs). split; [exact RG|]. apply mapM_map in M. revert M. apply AccessProofs3.Forall2_impl. intros x y I E. apply (normalize_item_spec mins maxs x y (ready_dict e s x R I) E). }
  split; [apply (ff_net _ _ _ _ _ _ _ _ _ _ _ _ _ _ _ _ F)|]. split; [exact P1|]. split; [exact P0|]. split; [exact P2|]. split; [exact P4|]. split; [exact P6|]. split; [exact HL|].
  split. { intros ls lb E I. destruct wc; [|rewrite (C0 eq_refl) in E; discriminate]. destruct (C1 eq_refl) as (ls' & E' & _ & Q). rewrite E in E'. injection E' as <-. apply Q. exact I. }
  split. { intros ->. destruct (C1 eq_refl) as (ls & E & _ & Q). exists ls. split; [exact E|]. intros lb I. destruct (in_dec String.string_dec lb (lm_targets m')) as [J|J]; [right; exact J|left; apply Q; split; assumption]. }
  unfold choose_labels in CH. destruct t as [|lb|ls]; [destruct wc; [discriminate|]; injection CH as E _; symmetry; exact E| |discriminate]. destruct (existsb (String.eqb lb) (lm_labels m')); [|discriminate]. injection CH as E _. symmetry. exact E.
Qed.
Print Assumptions C51_fit.
(* It can be fitted on every series with at least one such item, if no label is constant. *)
Theorem C51_fit_succeeds : forall e hour c train m s norm t wc limit i labels, ready e s -> labels_of s = Ok labels -> valid_target labels t wc -> known_features (lm_features m) ->
  (norm = true -> forall lb, label_in (s_items s) lb -> varies (s_items s) lb) ->
  (forall x, In x (s_items s) -> loss_known x) -> trainable limit (lm_window m) (s_items s) i ->
  (has_feature "diffs" (lm_features m) = true -> 2 <= lm_window m) ->
  (wc = true -> 0 < lm_window m /\ (forall x, In x (s_items s) -> is_slot x = false) /\ exists u, resolution s = Some (RUnit u)) ->
  exists m', lstm_fit e hour c train m s norm t wc limit = Ok m'.
Proof. exact fit_succeeds. Qed.
Print Assumptions C51_fit_succeeds.

(* five points with two labels; the last but one is lost *)
Definition lp (t v w loss : Z) : item := mkItem CDataTimePoint (qz t) (qz t) (UPhys q0) "UTC" (Some (d2 v w)) [("data_loss"%string, Some (qz loss))] None.
Definition lp6 : list item := [lp 0 1 5 0; lp 10 2 6 0; lp 20 4 9 0; lp 30 8 7 0; lp 40 0 0 1; lp 50 3 1 0].
Lemma lp6_items : s_items (ms lp6) = lp6. Proof. vm_compute. reflexivity. Qed.
Definition two_labels (l : list item) : Prop := forall x, In x l -> i_cls x = CDataTimePoint /\ exists v w, i_data x = Some (d2 v w).
Lemma two_labels_dict s : s_items s <> [] -> two_labels (s_items s) -> sortedb (times (s_items s)) = true -> dict_points s.
Proof.
  intros N F H. assert (SS : forall x y, In x (s_items s) -> In y (s_items s) -> same_item_shape x y).
  { intros x y Hx Hy. destruct (F x Hx) as (Cx & v & w & Dx), (F y Hy) as (Cy & v' & w' & Dy). split; [congruence|]. rewrite Dx, Dy. cbn. intros k. reflexivity. }
  split; [|split].
  - split; [exact N|]. split; [|exact SS]. intros x Hx. destruct (F x Hx) as (Cx & v & w & Dx). split; [left; exact Cx|]. rewrite Dx. split; [discriminate|]. cbn. repeat constructor; cbn; intuition discriminate.
  - split; [|split; [apply sortedb_ok; exact H|exact SS]]. intros x Hx. destruct (F x Hx) as (Cx & v & w & Dx). unfold is_point; rewrite Cx. reflexivity.
  - intros x Hx. destruct (F x Hx) as (Cx & v & w & Dx). eexists. exact Dx.
Qed.
Ltac two_labels_tac := intros ? Hw; repeat destruct Hw as [<- |Hw]; try destruct Hw; (split; [reflexivity|eexists; eexists; reflexivity]).
Lemma two_labels_ready l : s_items (ms l) = l -> l <> [] -> two_labels l -> sortedb (times l) = true -> ts_new ideal_env None l = Ok (ms l) -> ready ideal_env (ms l).
Proof.
  intros E N T S B. assert (D : dict_points (ms l)) by (apply two_labels_dict; rewrite E; assumption).
  split; [exists None; rewrite E; exact B|]. split; [apply D|]. split; [left; apply D|]. split; [apply D|]. cbn. discriminate.
Qed.
Lemma lp6_ready : ready ideal_env (ms lp6).
Proof. apply two_labels_ready; [exact lp6_items|discriminate|two_labels_tac|vm_compute; reflexivity|vm_compute; reflexivity]. Qed.
Definition lstm0 (w : nat) (features : list string) : lstm := mkLstm w features [] [] None None (fun _ => []).
(* a network which remembers the first target *)
Definition remember (fs : list (list (list Qc))) (ts : list (list Qc)) : network := fun _ => match ts with y :: _ => y | [] => [] end.
Definition noon (tz : string) (t : Qc) : Z := 12.
Lemma lp6_trainable : forall i, trainable (Some q1) 2 (s_items (ms lp6)) i <-> i = 2 \/ i = 3.
Proof.
  rewrite lp6_items. intros i. unfold trainable, included. cbn [lp6 length]. split.
  - intros [H T]. destruct (Nat.le_gt_cases i 3) as [L|L]; [lia|]. exfalso. specialize (T 4 (lp 40 0 0 1) ltac:(lia) eq_refl q1 eq_refl (qz 1) eq_refl). apply qltb_lt in T || (destruct (qltb_spec (qz 1) q1) as [Q|Q]; [|contradiction]; vm_compute in Q; discriminate).
  - intros H. split; [lia|]. intros j x Hj X l Hl v Hv. injection Hl as <-. do 4 (destruct j as [|j]; [cbn in X; injection X as <-; cbn in Hv; injection Hv as <-; apply qltb_lt; vm_compute; reflexivity|]). lia.
Qed.
Lemma lp6_varies : forall lb, label_in (s_items (ms lp6)) lb -> varies (s_items (ms lp6)) lb.
Proof.
  rewrite lp6_items. intros lb (x & Hx & v & V). assert (lb = "a"%string \/ lb = "b"%string) as [-> | ->].
  { unfold lp6 in Hx. repeat (destruct Hx as [<- |Hx]; [destruct V as [V|[V|[]]]; injection V as <- _; [left|right]; reflexivity|]). destruct Hx. }
  - exists (lp 0 1 5 0), (lp 10 2 6 0), (qz 1), (qz 2). split; [left; reflexivity|]. split; [right; left; reflexivity|]. split; [left; reflexivity|]. split; [left; reflexivity|]. apply qeqb_neq. vm_compute. reflexivity.
  - exists (lp 0 1 5 0), (lp 10 2 6 0), (qz 5), (qz 6). split; [left; reflexivity|]. split; [right; left; reflexivity|]. split; [right; left; reflexivity|]. split; [right; left; reflexivity|]. apply qeqb_neq. vm_compute. reflexivity.
Qed.
Example C51_nonvacuous : ready ideal_env (ms lp6) /\ labels_of (ms lp6) = Ok ["a"; "b"]%string /\ valid_target ["a"; "b"]%string (TLabel "a") true /\ known_features ["values"; "diffs"; "hours"]%string /\
  (forall lb, label_in (s_items (ms lp6)) lb -> varies (s_items (ms lp6)) lb) /\ (forall x, In x (s_items (ms lp6)) -> loss_known x) /\ (forall i, trainable (Some q1) 2 (s_items (ms lp6)) i <-> i = 2 \/ i = 3) /\
  (forall x, In x (s_items (ms lp6)) -> is_slot x = false) /\ resolution (ms lp6) = Some (RUnit (UPhys (qz 10))) /\
  exists m', lstm_fit ideal_env noon ex_cal remember (lstm0 2 ["values"; "diffs"; "hours"]%string) (ms lp6) true (TLabel "a") true (Some q1) = Ok m'.
Proof.
  split; [exact lp6_ready|]. assert (L : labels_of (ms lp6) = Ok ["a"; "b"]%string) by (vm_compute; reflexivity). split; [exact L|]. assert (V : valid_target ["a"; "b"]%string (TLabel "a") true) by (left; reflexivity). split; [exact V|].
  assert (K : known_features ["values"; "diffs"; "hours"]%string) by (intros f [<-|[<-|[<-|[]]]]; tauto). split; [exact K|]. split; [exact lp6_varies|].
  assert (LK : forall x, In x (s_items (ms lp6)) -> loss_known x). { rewrite lp6_items. intros x Hx. unfold lp6 in Hx. repeat (destruct Hx as [<- |Hx]; [discriminate|]). destruct Hx. } split; [exact LK|]. split; [exact lp6_trainable|].
  assert (NS : forall x, In x (s_items (ms lp6)) -> is_slot x = false). { rewrite lp6_items. intros x Hx. unfold lp6 in Hx. repeat (destruct Hx as [<- |Hx]; [reflexivity|]). destruct Hx. } split; [exact NS|].
  assert (RS : resolution (ms lp6) = Some (RUnit (UPhys (qz 10)))) by (apply unit_is_eq; vm_compute; reflexivity). split; [exact RS|].
  apply (C51_fit_succeeds _ _ _ _ _ _ _ _ _ _ 2 ["a"; "b"]%string); try assumption.
  - exact lp6_ready.
  - intros _. exact lp6_varies.
  - apply lp6_trainable. left. reflexivity.
  - intros _. cbn. lia.
  - intros _. split; [cbn; lia|]. split; [exact NS|]. eexists. exact RS.
Qed.

(* What cannot be fitted: more than one label as a list, slots with a context, differences in a window of one item. *)
Theorem C51_target_list_refuted : forall e hour c train m s norm ls wc limit, ready e s -> lstm_fit e hour c train m s norm (TLabels ls) wc limit = Err UnboundLocalError.
Proof.
  intros e hour c train m s norm ls wc limit R. unfold lstm_fit. pose proof R as ((tz & B) & N & _). assert (RM : ref_missing s = false) by (apply (history_ref e); [apply built_history; [exists tz; exact B|exact N]|exact N]).
  destruct (labels_of_ok s RM N) as (x & l & E & L). rewrite L. reflexivity.
Qed.
Print Assumptions C51_target_list_refuted.
Theorem C51_context_slots_refuted : forall hour c x win labels r u features kv d, known_features features -> r = Some (RUnit u) -> (forall y, In y (x :: win) -> is_slot y = true) ->
  window_features hour c (x :: win) labels r features (Some (kv :: d)) = Err AttributeError.
Proof.
  intros hour c x win labels r u features kv d K -> S. unfold window_features. rewrite (proj1 (features_known features) K). unfold with_context_item, nth_item.
  destruct (get_lt (x :: win) (length (x :: win) - 1)) as (y & Y & I); [cbn [length]; lia|]. rewrite Y. cbn [bind]. rewrite (S y I). reflexivity.
Qed.
Print Assumptions C51_context_slots_refuted.
Theorem C51_single_item_differences_refuted : forall hour c x labels r, with_dict x -> labels <> [] -> window_features hour c [x] labels r ["diffs"%string] None = Err IndexError.
Proof. intros hour c x labels r D N. destruct labels as [|lb labels]; [contradiction|]. reflexivity. Qed.
Print Assumptions C51_single_item_differences_refuted.

(* ===================== C56 ===================== *)

(* The two are the inverse of each other, and keep the order. *)
Theorem C56_inverse : forall lo hi, lo <> hi ->
  (forall v, exists y, normalize lo hi v = Ok y /\ denormalize lo hi y = v) /\
  (forall y, normalize lo hi (denormalize lo hi y) = Ok y).
Proof.
  intros lo hi N. split; [|intros y; apply normalize_back; exact N]. intros v. destruct (normalize_ok lo hi v N) as (y & E & H). exists y. split; [exact E|]. apply denormalize_back. exact H.
Qed.
Print Assumptions C56_inverse.
Theorem C56_range : forall lo hi v w y z, Qclt lo hi -> normalize lo hi v = Ok y -> normalize lo hi w = Ok z ->
  (Qcle lo v <-> Qcle q0 y) /\ (Qcle v hi <-> Qcle y q1) /\ (v = lo <-> y = q0) /\ (v = hi <-> y = q1) /\ (Qclt v w <-> Qclt y z).
Proof.
  intros lo hi v w y z H Ey Ez. apply normalize_inv in Ey. apply normalize_inv in Ez. destruct Ey as [_ Ey]. destruct Ez as [_ Ez].
  assert (P : Qclt q0 (Qcminus hi lo)) by exact (proj1 (range_pos lo hi) H). set (r := Qcminus hi lo) in *.
  assert (Mono : forall a b, Qclt a b <-> Qclt (Qcmult a r) (Qcmult b r)).
  { intros a b. split; [intros L; apply Qcmult_lt_compat_r; [rewrite <- q0_eq; exact P|exact L]|]. intros L. destruct (Qclt_le_dec a b) as [Q|Q]; [exact Q|]. exfalso. apply (Qclt_not_le _ _ L). apply Qcmult_le_compat_r; [exact Q|]. rewrite <- q0_eq. apply Qclt_le_weak. exact P. }
  assert (MonoL : forall a b, Qcle a b <-> Qcle (Qcmult a r) (Qcmult b r)).
  { intros a b. split; intros L; apply Qcnot_lt_le; intros Q; apply Mono in Q || apply (proj1 (Mono _ _)) in Q; apply (Qclt_not_le _ _ Q); exact L. }
  assert (R1 : Qcmult q1 r = r) by (rewrite q1_eq; ring). assert (R0 : Qcmult q0 r = q0) by (rewrite q0_eq; ring).
  assert (C : forall a b, Qcmult a r = Qcmult b r -> a = b) by (intros a b; apply mult_cancel; intros Z; rewrite Z in P; apply (Qclt_not_eq _ _ P); reflexivity).
  split; [|split; [|split; [|split]]].
  - rewrite (MonoL q0 y), R0, Ey. split; intros L; qlra.
  - rewrite (MonoL y q1), R1, Ey. unfold r. split; intros L; qlra.
  - split; [intros ->; apply C; rewrite Ey, R0; apply minus_eq; reflexivity|]. intros ->. rewrite R0 in Ey. symmetry in Ey. exact (proj1 (minus_eq _ _) Ey).
  - split; [intros ->; apply C; rewrite Ey, R1; reflexivity|]. intros ->. rewrite R1 in Ey. unfold r in Ey. clear - Ey. replace v with (Qcplus (Qcminus v lo) lo) by ring. rewrite <- Ey. ring.
  - rewrite (Mono y z), Ey, Ez. split; intros L; qlra.
Qed.
Print Assumptions C56_range.
(* The factors of a fit are the minimum and the maximum of each label, all different, and every value it was fitted on is
   normalised to the range 0 to 1. *)
Theorem C56_factors : forall e hour c train m s t wc limit m', ready e s -> lstm_fit e hour c train m s true t wc limit = Ok m' ->
  exists mins maxs, lm_norm m' = Some (mins, maxs) /\
    forall lb, label_in (s_items s) lb -> exists lo hi, dget lb mins = Some lo /\ dget lb maxs = Some hi /\ is_min lb (s_items s) lo /\ is_max lb (s_items s) hi /\ Qclt lo hi /\
      forall x v, In x (s_items s) -> has_value x lb v -> exists y, normalize lo hi v = Ok y /\ Qcle q0 y /\ Qcle y q1.
Proof.
  intros e hour c train m s t wc limit m' R Fit. destruct (fit_inv _ _ _ _ _ _ _ _ _ _ _ R Fit) as (items & W & T & C & fs & F).
  destruct (ff_norm _ _ _ _ _ _ _ _ _ _ _ _ _ _ _ _ F) as (mins & maxs & LN & M & DM & RG). exists mins, maxs. split; [exact LN|]. intros lb L. destruct (DM lb L) as [D1 D2]. destruct (RG lb L) as [G1 G2].
  assert (NE : factor mins lb <> factor maxs lb).
  { destruct L as (x & Ix & Lx). apply mapM_map in M. destruct (F2_In_l _ _ _ _ M Ix) as (y & _ & E). apply (normalize_item_spec mins maxs x y (ready_dict e s x R Ix) E). exact Lx. }
  unfold factor, dmem in *. destruct (dget lb mins) as [lo|]; [|discriminate]. destruct (dget lb maxs) as [hi|]; [|discriminate]. exists lo, hi. split; [reflexivity|]. split; [reflexivity|]. split; [exact G1|]. split; [exact G2|].
  assert (LT : Qclt lo hi). { destruct G1 as [(x & Ix & Vx) _]. destruct G2 as [_ B]. specialize (B x lo Ix Vx). destruct (Qcle_lt_or_eq _ _ B) as [Q|Q]; [exact Q|contradiction]. }
  split; [exact LT|]. intros x v Ix Vx. destruct (normalize_ok lo hi v NE) as (y & E & _). exists y. split; [exact E|]. destruct (C56_range lo hi v v y y LT E E) as (A & B & _). split; [apply A; apply (proj2 G1 x v Ix Vx)|apply B; apply (proj2 G2 x v Ix Vx)].
Qed.
Print Assumptions C56_factors.
(* Predicting after what the network was fitted on (with the same context) computes exactly the features of that row: if the
   network gives back the targets of the row, the prediction has the original values. *)
Theorem C56_consistent : forall e hour c train m s norm t wc limit m' i x s' win pre ctx,
  ready e s -> lstm_fit e hour c train m s norm t wc limit = Ok m' -> norm = true \/ lm_norm m = None -> 0 < lm_window m ->
  trainable limit (lm_window m) (s_items s) i -> nth_error (s_items s) i = Some x ->
  window_before (lm_window m) (s_items s) i win -> s_items s' = pre ++ win -> resolution s' = resolution s ->
  match lm_context m' with None => ctx = None | Some ls => exists d, ctx = Some d /\ own_context ls (s_items s) i d end ->
  exists fs ts k f y, lm_net m' = train fs ts /\ nth_error fs k = Some f /\ nth_error ts k = Some y /\
    (lm_net m' f = y -> exists d, lstm_predict hour c m' s' 1 ctx = Ok d /\ forall lb v, dget lb d = Some v <-> In lb (lm_targets m') /\ has_value x lb v).
Proof. exact predict_trained. Qed.
Print Assumptions C56_consistent.
(* the network which remembers the first target gives it back: window 2, the first target is the third item *)
Example C56_nonvacuous : let m := lstm0 2 ["values"; "diffs"; "hours"]%string in exists m' d, ready ideal_env (ms lp6) /\
  lstm_fit ideal_env noon ex_cal remember m (ms lp6) true (TLabel "a") true (Some q1) = Ok m' /\ trainable (Some q1) 2 (s_items (ms lp6)) 2 /\
  window_before 2 (s_items (ms lp6)) 2 (s_items (ms [lp 0 1 5 0; lp 10 2 6 0])) /\ resolution (ms [lp 0 1 5 0; lp 10 2 6 0]) = resolution (ms lp6) /\
  lm_context m' = Some ["b"%string] /\ own_context ["b"%string] (s_items (ms lp6)) 2 [("b"%string, qz 9)] /\
  lstm_predict noon ex_cal m' (ms [lp 0 1 5 0; lp 10 2 6 0]) 1 (Some [("b"%string, qz 9)]) = Ok d /\ dget "a" d = Some (qz 4).
Proof.
  cbv zeta. destruct (lstm_fit ideal_env noon ex_cal remember (lstm0 2 ["values"; "diffs"; "hours"]%string) (ms lp6) true (TLabel "a") true (Some q1)) as [m'|] eqn:F; [|exfalso; revert F; vm_compute; discriminate].
  assert (P : exists d, lstm_predict noon ex_cal m' (ms [lp 0 1 5 0; lp 10 2 6 0]) 1 (Some [("b"%string, qz 9)]) = Ok d /\ dget "a" d = Some (qz 4)).
  { assert (Q : match lstm_fit ideal_env noon ex_cal remember (lstm0 2 ["values"; "diffs"; "hours"]%string) (ms lp6) true (TLabel "a") true (Some q1) with
                | Ok m' => match lstm_predict noon ex_cal m' (ms [lp 0 1 5 0; lp 10 2 6 0]) 1 (Some [("b"%string, qz 9)]) with Ok d => match dget "a" d with Some v => qeqb v (qz 4) | None => false end | Err _ => false end | Err _ => false end = true) by (vm_compute; reflexivity).
    rewrite F in Q. destruct (lstm_predict _ _ _ _ _ _) as [d|]; [|discriminate]. exists d. split; [reflexivity|]. destruct (dget "a" d) as [v|]; [|discriminate]. apply qeqb_eq in Q. subst. reflexivity. }
  destruct P as (d & P1 & P2). exists m', d. split; [exact lp6_ready|]. split; [reflexivity|]. split; [apply lp6_trainable; left; reflexivity|].
  assert (E2 : s_items (ms [lp 0 1 5 0; lp 10 2 6 0]) = [lp 0 1 5 0; lp 10 2 6 0]) by (vm_compute; reflexivity). rewrite E2, lp6_items.
  split; [split; [reflexivity|intros [|[|k]] Hk; [reflexivity|reflexivity|lia]]|]. split; [apply (eq_trans (y := Some (RUnit (UPhys (qz 10))))); [apply unit_is_eq; vm_compute; reflexivity|symmetry; apply unit_is_eq; vm_compute; reflexivity]|].
  split. { assert (Q : match lstm_fit ideal_env noon ex_cal remember (lstm0 2 ["values"; "diffs"; "hours"]%string) (ms lp6) true (TLabel "a") true (Some q1) with Ok m' => lm_context m' | Err _ => None end = Some ["b"%string]) by (vm_compute; reflexivity). rewrite F in Q. exact Q. }
  split; [|split; assumption]. exists (lp 20 4 9 0). split; [reflexivity|]. split; [repeat constructor; intros []|]. split; [intros lb; reflexivity|]. intros lb v [Q|[]]. injection Q as <- <-. right. left. reflexivity.
Qed.

(* With a constant label it cannot be fitted (the range is zero). *)
Theorem C56_constant_label_refuted : forall e hour c train m s t wc limit labels, ready e s -> labels_of s = Ok labels -> valid_target labels t wc ->
  (exists lb, label_in (s_items s) lb /\ ~ varies (s_items s) lb) -> lstm_fit e hour c train m s true t wc limit = Err ZeroDivisionError.
Proof.
  intros e hour c train m s t wc limit labels R L VT (lb & LI & NV). unfold lstm_fit. rewrite L. cbn [bind]. destruct (choose_ok labels t wc VT) as (tg & cx & CH). rewrite CH. cbn [bind fst snd].
  rewrite (normalize_series_ok e s R). destruct (factors_ok e s R) as (mins & maxs & m1 & m2 & -> & -> & E1 & E2 & F1 & F2 & _). cbn [bind]. rewrite E1. cbn [bind]. rewrite E2. cbn [bind].
  assert (EQ : factor mins lb = factor maxs lb).
  { destruct (F2 lb LI) as [[(x & Ix & Vx) _] [(y & Iy & Vy) _]]. destruct (Qc_eq_dec (factor mins lb) (factor maxs lb)) as [Q|Q]; [exact Q|]. exfalso. apply NV. exists x, y, (factor mins lb), (factor maxs lb). repeat split; assumption. }
  enough (Z : mapM (normalize_item mins maxs) (s_items s) = Err ZeroDivisionError) by (rewrite Z; reflexivity).
  destruct (s_items s) as [|x l] eqn:El; [destruct LI as (? & [] & _)|]. cbn [mapM]. assert (Ix : In x (s_items s)) by (rewrite El; left; reflexivity).
  assert (Lx : has_label x lb). { destruct LI as (y & Iy & Ly). apply (same_labels e s y x lb R); [rewrite El; exact Iy|exact Ix|exact Ly]. }
  enough (Z : normalize_item mins maxs x = Err ZeroDivisionError) by (rewrite Z; reflexivity). destruct (ready_dict e s x R Ix) as (d & Hd & N). unfold normalize_item, item_data. rewrite Hd. cbn [bind].
  enough (Z : normalize_data mins maxs d = Err ZeroDivisionError) by (rewrite Z; reflexivity).
  assert (K : forall k v, In (k, v) d -> dmem k mins = true /\ dmem k maxs = true) by (intros k v I; apply F1; exists x; split; [left; reflexivity|exists v; unfold has_value; rewrite Hd; exact I]).
  assert (I : exists v, In (lb, v) d) by (destruct Lx as (v & V); exists v; unfold has_value in V; rewrite Hd in V; exact V). clear - EQ K I. unfold normalize_data. induction d as [|[k v] d IH]; [destruct I as (? & [])|]. cbn [mapM].
  assert (X : normalize_entry mins maxs (k, v) = Err ZeroDivisionError \/ (k <> lb /\ exists z, normalize_entry mins maxs (k, v) = Ok z)).
  { destruct (K k v (or_introl eq_refl)) as [A B]. unfold normalize_entry, pick, factor, dmem in *. cbn [fst snd]. destruct (String.string_dec k lb) as [->|NE].
    - destruct (dget lb mins) as [a|]; [|discriminate]. destruct (dget lb maxs) as [b|]; [|discriminate]. cbn [bind]. subst b. rewrite normalize_fail. left. reflexivity.
    - destruct (dget k mins) as [a|]; [|discriminate]. destruct (dget k maxs) as [b|]; [|discriminate]. cbn [bind]. unfold normalize, qdiv. destruct (qeqb (Qcminus b a) q0); [left; reflexivity|]. right. split; [exact NE|]. eexists. reflexivity. }
  destruct X as [X|[NE (z & X)]]; rewrite X; cbn [bind]; [reflexivity|]. rewrite IH; [reflexivity|intros k' v' J; apply (K k' v'); right; exact J|]. destruct I as (w & [Q|J]); [injection Q as <- _; contradiction|exists w; exact J].
Qed.
Print Assumptions C56_constant_label_refuted.
(* Fitted again without normalisation, it still uses the factors of the previous fit: the network gives back exactly the target
   it was fitted on, and the prediction is another value. *)
Theorem C56_stale_factors_refuted : exists m1 m2 d, let m := lstm0 2 ["values"%string] in
  lstm_fit ideal_env noon ex_cal remember m (ms lp6) true TAll false (Some q1) = Ok m1 /\
  lstm_fit ideal_env noon ex_cal remember m1 (ms lp6) false TAll false (Some q1) = Ok m2 /\
  lm_norm m2 = lm_norm m1 /\ (forall f, lm_net m2 f = [qz 4; qz 9]) /\
  lstm_predict noon ex_cal m2 (ms [lp 0 1 5 0; lp 10 2 6 0]) 1 None = Ok d /\ dget "a" d = Some (qz 32) /\ has_value (lp 20 4 9 0) "a" (qz 4).
Proof.
  destruct (lstm_fit ideal_env noon ex_cal remember (lstm0 2 ["values"%string]) (ms lp6) true TAll false (Some q1)) as [m1|] eqn:F1; [|exfalso; revert F1; vm_compute; discriminate].
  destruct (lstm_fit ideal_env noon ex_cal remember m1 (ms lp6) false TAll false (Some q1)) as [m2|] eqn:F2.
  2:{ exfalso. assert (Q : match lstm_fit ideal_env noon ex_cal remember (lstm0 2 ["values"%string]) (ms lp6) true TAll false (Some q1) with Ok m1 => match lstm_fit ideal_env noon ex_cal remember m1 (ms lp6) false TAll false (Some q1) with Ok _ => true | Err _ => false end | Err _ => false end = true) by (vm_compute; reflexivity). rewrite F1, F2 in Q. discriminate. }
  assert (Q : match lstm_fit ideal_env noon ex_cal remember (lstm0 2 ["values"%string]) (ms lp6) true TAll false (Some q1) with Ok m1 => match lstm_fit ideal_env noon ex_cal remember m1 (ms lp6) false TAll false (Some q1) with
     Ok m2 => match lstm_predict noon ex_cal m2 (ms [lp 0 1 5 0; lp 10 2 6 0]) 1 None with Ok d => match dget "a" d with Some v => qeqb v (qz 32) | None => false end | Err _ => false end | Err _ => false end | Err _ => false end = true) by (vm_compute; reflexivity).
  assert (N : match lstm_fit ideal_env noon ex_cal remember (lstm0 2 ["values"%string]) (ms lp6) true TAll false (Some q1) with Ok m1 => match lstm_fit ideal_env noon ex_cal remember m1 (ms lp6) false TAll false (Some q1) with
     Ok m2 => forall f, lm_net m2 f = [qz 4; qz 9] | Err _ => False end | Err _ => False end) by (vm_compute; intros; reflexivity).
  rewrite F1, F2 in Q, N. destruct (lstm_predict noon ex_cal m2 (ms [lp 0 1 5 0; lp 10 2 6 0]) 1 None) as [d|] eqn:P; [|discriminate].
  exists m1, m2, d. cbv zeta. split; [exact F1|]. split; [exact F2|]. split; [|split; [exact N|split; [exact P|split]]].
  - destruct (fit_inv _ _ _ _ _ _ _ _ _ _ _ lp6_ready F2) as (items & W & T & C & fs & FF). apply (ff_norm _ _ _ _ _ _ _ _ _ _ _ _ _ _ _ _ FF).
  - destruct (dget "a" d) as [v|]; [|discriminate]. apply qeqb_eq in Q. subst. reflexivity.
  - left. reflexivity.
Qed.
Print Assumptions C56_stale_factors_refuted.
