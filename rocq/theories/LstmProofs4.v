(* LstmProofs4.v -- proofs about fit and predict. *)
From Verif Require Import SpecLstm BaseLemmas PropTactics DictLemmas AccessProofs2 OpsProofs OpsProofs2 OpsProofs3 InterpProofs ReconProofs2 ReconProofs3 ReconProofs4 SeriesProofs2 LstmProofs LstmProofs2 LstmProofs3.

Lemma normalize_series_ok e s : ready e s -> normalize_series e s =
  do m1 <- op_min s; do m2 <- op_max s; do mins <- numbers m1; do maxs <- numbers m2; do items <- mapM (normalize_item mins maxs) (s_items s); Ok (set_items s items, mins, maxs).
Proof. intros R. unfold normalize_series. rewrite (ready_duplicate e s R). reflexivity. Qed.

(* What a fit did. *)
Record fit_facts (e : env) (hour : string -> Qc -> Z) (c : cal) (train : list (list (list Qc)) -> list (list Qc) -> network) (m : lstm) (s : series) (norm : bool) (t : target) (wc : bool) (limit : option Qc) (m' : lstm)
  (items : list item) (W : list (list item)) (T : list (list Qc)) (C : list (dict Qc)) (fs : list (list (list Qc))) : Prop := {
  ff_labels : labels_of s = Ok (lm_labels m');
  ff_choice : choose_labels (lm_labels m') t wc = Ok (lm_targets m', lm_context m');
  ff_norm : if norm then exists mins maxs, lm_norm m' = Some (mins, maxs) /\ mapM (normalize_item mins maxs) (s_items s) = Ok items /\
                (forall lb, label_in (s_items s) lb -> dmem lb mins = true /\ dmem lb maxs = true) /\ ranges (s_items s) (factor mins) (factor maxs)
            else items = s_items s /\ lm_norm m' = lm_norm m;
  ff_matrix : to_matrix (set_items s items) (lm_window m) 1 (lm_context m') (lm_targets m') limit = Ok (W, T, C);
  ff_some : W <> [];
  ff_features : features_matrix hour c (lm_labels m') (resolution s) (lm_features m) wc C 0 W = Ok fs;
  ff_net : lm_net m' = train fs T;
  ff_window : lm_window m' = lm_window m;
  ff_kinds : lm_features m' = lm_features m }.
Lemma set_items_same s : set_items s (s_items s) = s. Proof. destruct s. reflexivity. Qed.
Lemma fit_inv e hour c train m s norm t wc limit m' : ready e s -> lstm_fit e hour c train m s norm t wc limit = Ok m' ->
  exists items W T C fs, fit_facts e hour c train m s norm t wc limit m' items W T C fs.
Proof.
  intros R. unfold lstm_fit. destruct (labels_of s) as [labels|] eqn:L; cbn [bind]; [|discriminate]. destruct (choose_labels labels t wc) as [[tg cx]|] eqn:CH; cbn [bind]; [|discriminate]. cbn [fst snd].
  rewrite (normalize_series_ok e s R). destruct norm.
  - destruct (factors_ok e s R) as (mins & maxs & m1 & m2 & -> & -> & E1 & E2 & F1 & F2 & _). cbn [bind]. rewrite E1. cbn [bind]. rewrite E2. cbn [bind].
    destruct (mapM (normalize_item mins maxs) (s_items s)) as [items|] eqn:I; cbn [bind fst snd]; [|discriminate].
    destruct (to_matrix _ _ _ _ _ _) as [[[W T] C]|] eqn:M; cbn [bind]; [|discriminate]. destruct W as [|w W]; [discriminate|].
    destruct (features_matrix _ _ _ _ _ _ _ _ _) as [fs|] eqn:F; cbn [bind]; [|discriminate]. intros H. injection H as <-.
    exists items, (w :: W), T, C, fs. constructor; cbn [lm_labels lm_targets lm_context lm_norm lm_net lm_window lm_features]; try reflexivity; try assumption; try discriminate.
    exists mins, maxs. split; [reflexivity|]. split; [exact I|]. split; [exact F1|exact F2].
  - cbn [bind fst snd]. destruct (to_matrix _ _ _ _ _ _) as [[[W T] C]|] eqn:M; cbn [bind]; [|discriminate]. destruct W as [|w W]; [discriminate|].
    destruct (features_matrix _ _ _ _ _ _ _ _ _) as [fs|] eqn:F; cbn [bind]; [|discriminate]. intros H. injection H as <-.
    exists (s_items s), (w :: W), T, C, fs. constructor; cbn [lm_labels lm_targets lm_context lm_norm lm_net lm_window lm_features]; rewrite ?set_items_same; try reflexivity; try assumption; try discriminate.
    split; reflexivity.
Qed.
Lemma features_matrix_nth hour c labels r features wc cs : forall ws k fs, features_matrix hour c labels r features wc cs k ws = Ok fs ->
  length fs = length ws /\ forall j w, nth_error ws j = Some w -> exists ctx f, nth_error fs j = Some f /\ context_at wc cs (k + j) = Ok ctx /\ window_features hour c w labels r features ctx = Ok f.
Proof.
  induction ws as [|w ws IH]; intros k fs; cbn [features_matrix].
  - intros H. injection H as <-. split; [reflexivity|]. intros [|j] w; discriminate.
  - destruct (context_at wc cs k) as [ctx|] eqn:X; cbn [bind]; [|discriminate]. destruct (window_features hour c w labels r features ctx) as [f|] eqn:F; cbn [bind]; [|discriminate].
    destruct (features_matrix hour c labels r features wc cs (S k) ws) as [fs'|] eqn:E; cbn [bind]; [|discriminate]. intros H. injection H as <-. destruct (IH (S k) fs' E) as [L N].
    split; [cbn [length]; congruence|]. intros [|j] w' Hj; cbn [nth_error] in *.
    + injection Hj as <-. exists ctx, f. split; [reflexivity|]. rewrite Nat.add_0_r. split; [exact X|exact F].
    + destruct (N j w' Hj) as (ctx' & f' & A & B & D). exists ctx', f'. split; [exact A|]. replace (k + S j) with (S k + j) by lia. split; [exact B|exact D].
Qed.
Lemma features_matrix_ok hour c labels r features wc cs : forall ws k, (forall j w, nth_error ws j = Some w -> exists ctx f, context_at wc cs (k + j) = Ok ctx /\ window_features hour c w labels r features ctx = Ok f) ->
  exists fs, features_matrix hour c labels r features wc cs k ws = Ok fs.
Proof.
  induction ws as [|w ws IH]; intros k H; cbn [features_matrix]; [eexists; reflexivity|]. destruct (H 0 w eq_refl) as (ctx & f & A & B). rewrite Nat.add_0_r in A. rewrite A. cbn [bind]. rewrite B. cbn [bind].
  destruct (IH (S k)) as (fs & E). { intros j w' Hj. replace (S k + j) with (k + S j) by lia. apply (H (S j) w' Hj). } rewrite E. cbn [bind]. eexists. reflexivity.
Qed.
Lemma choose_spec labels t wc tg cx : NoDup labels -> choose_labels labels t wc = Ok (tg, cx) ->
  NoDup tg /\ (forall lb, In lb tg -> In lb labels) /\
  (wc = false -> cx = None) /\ (wc = true -> exists ls, cx = Some ls /\ NoDup ls /\ forall lb, In lb ls <-> In lb labels /\ ~ In lb tg).
Proof.
  intros N. unfold choose_labels. destruct t as [|lb|ls].
  - destruct wc; [discriminate|]. intros H. injection H as <- <-. split; [exact N|]. split; [auto|]. split; [reflexivity|discriminate].
  - destruct (existsb (String.eqb lb) labels) eqn:E; [|discriminate]. intros H. injection H as <- <-. apply existsb_exists in E. destruct E as (x & I & Q). apply String.eqb_eq in Q. subst x.
    split; [constructor; [intros []|constructor]|]. split; [intros z [<-|[]]; exact I|]. destruct wc; (split; [intros Q|intros Q]); try discriminate; try reflexivity.
    eexists. split; [reflexivity|]. split; [apply NoDup_filter; exact N|]. intros z. rewrite filter_In. cbn [existsb In]. destruct (String.eqb_spec z lb) as [->|Q2]; cbn; split.
    + intros [_ D]; discriminate.
    + intros [_ D]. exfalso. apply D. left. reflexivity.
    + intros [A _]. split; [exact A|]. intros [B|[]]. congruence.
    + intros [A _]. split; [exact A|reflexivity].
  - discriminate.
Qed.
Lemma ready_labels_of e s labels : ready e s -> labels_of s = Ok labels -> NoDup labels /\ forall x lb, In x (s_items s) -> (has_label x lb <-> In lb labels).
Proof.
  intros R L. pose proof R as ((tz & B) & N & _). assert (RM : ref_missing s = false) by (apply (history_ref e); [apply built_history; [exists tz; exact B|exact N]|exact N]).
  destruct (labels_of_ok s RM N) as (x & l & E & L'). rewrite L in L'. injection L' as ->. assert (I : In x (s_items s)) by (rewrite E; left; reflexivity). split; [apply item_labels_NoDup; apply N; exact I|].
  intros y lb Iy. rewrite item_labels_In. split; apply (same_labels e s); assumption.
Qed.
(* The normalised items are like the original ones. *)
Lemma fit_items e hour c train m s norm t wc limit m' items W T C fs : ready e s -> fit_facts e hour c train m s norm t wc limit m' items W T C fs ->
  length items = length (s_items s) /\ forall i, match nth_error (s_items s) i, nth_error items i with
    | Some x, Some y => same_shell x y /\ i_idx y = i_idx x /\ with_dict y /\ forall lb, has_label y lb <-> has_label x lb
    | None, None => True | _, _ => False end.
Proof.
  intros R F. pose proof (ff_norm _ _ _ _ _ _ _ _ _ _ _ _ _ _ _ _ F) as H. destruct norm.
  - destruct H as (mins & maxs & _ & M & _). apply mapM_map in M. pose proof (F2_len _ _ _ M) as L. split; [congruence|]. intros i. destruct (nth_error (s_items s) i) as [x|] eqn:X.
    + destruct (F2_get _ _ _ M i x X) as (y & Y & E). rewrite Y. assert (I : In x (s_items s)) by (apply nth_error_In in X; exact X). destruct (normalize_item_spec mins maxs x y (ready_dict e s x R I) E) as ((A & B & D & _) & K & _).
      split; [exact A|]. split; [exact B|]. split; [exact K|exact D].
    + apply nth_error_None in X. rewrite (proj2 (nth_error_None items i)); [exact I|lia].
  - destruct H as [-> _]. split; [reflexivity|]. intros i. destruct (nth_error (s_items s) i) as [x|] eqn:X; [|exact I]. split; [repeat split|]. split; [reflexivity|]. split; [apply (ready_dict e s x R); apply nth_error_In in X; exact X|reflexivity].
Qed.
Lemma trainable_same limit w l l' i : length l' = length l -> (forall j x y, nth_error l j = Some x -> nth_error l' j = Some y -> i_idx y = i_idx x) -> trainable limit w l i -> trainable limit w l' i.
Proof.
  intros L H [A B]. split; [lia|]. intros j y Hj Y. destruct (get_lt l j) as (x & X & _); [lia|]. specialize (B j x Hj X). unfold included in *. rewrite (H j x y X Y). exact B.
Qed.
Lemma fit_rows e hour c train m s norm t wc limit m' items W T C fs : ready e s -> fit_facts e hour c train m s norm t wc limit m' items W T C fs ->
  exists ps, StronglySorted lt ps /\ ps <> [] /\ (forall i, In i ps <-> trainable limit (lm_window m) (s_items s) i) /\
    Forall2 (window_before (lm_window m) items) ps W /\
    Forall2 (own_values (lm_targets m') items) ps T /\
    match lm_context m' with None => C = [] | Some ls => Forall2 (own_context ls items) ps C end /\
    Forall2 (fun i f => exists win ctx, window_before (lm_window m) items i win /\
        match lm_context m' with None => ctx = None | Some ls => exists d, ctx = Some d /\ own_context ls items i d end /\
        window_features hour c win (lm_labels m') (resolution s) (lm_features m) ctx = Ok f) ps fs.
Proof.
  intros R F. pose proof (ff_labels _ _ _ _ _ _ _ _ _ _ _ _ _ _ _ _ F) as L. destruct (ready_labels_of e s _ R L) as [NL HL].
  pose proof (choose_spec _ _ _ _ _ NL (ff_choice _ _ _ _ _ _ _ _ _ _ _ _ _ _ _ _ F)) as (N1 & N2 & C0 & C1).
  destruct (to_matrix_spec (set_items s items) (lm_window m) (lm_context m') (lm_targets m') limit W T C) as (ps & P1 & P2 & P3 & P4 & P5).
  { intros ls E. destruct wc; [destruct (C1 eq_refl) as (ls' & E' & N & _); congruence|rewrite (C0 eq_refl) in E; discriminate]. } { apply (ff_matrix _ _ _ _ _ _ _ _ _ _ _ _ _ _ _ _ F). }
  cbn [set_items s_items] in *. destruct (fit_items _ _ _ _ _ _ _ _ _ _ _ _ _ _ _ _ R F) as [Li Hi].
  exists ps. split; [exact P1|]. split; [intros ->; inversion P3; subst; apply (ff_some _ _ _ _ _ _ _ _ _ _ _ _ _ _ _ _ F); reflexivity|]. split.
  { intros i. rewrite P2. split; apply trainable_same; try congruence.
    - intros j x y X Y. specialize (Hi j). rewrite X, Y in Hi. destruct Hi as (_ & Q & _). congruence.
    - intros j x y X Y. specialize (Hi j). rewrite X, Y in Hi. apply Hi. }
  split; [exact P3|]. split; [exact P4|]. split; [exact P5|].
  destruct (features_matrix_nth _ _ _ _ _ _ _ _ _ _ (ff_features _ _ _ _ _ _ _ _ _ _ _ _ _ _ _ _ F)) as [Lf Nf]. pose proof (F2_len _ _ _ P3) as LW.
  apply Forall2_nth; [congruence|]. intros j i f Pi Pf. destruct (F2_get _ _ _ P3 j i Pi) as (win & Wj & WB). destruct (Nf j win Wj) as (ctx & f' & Ff & X & WF). rewrite Pf in Ff. injection Ff as <-. cbn [Nat.add] in X.
  exists win, ctx. split; [exact WB|]. split; [|exact WF]. destruct wc.
  - destruct (C1 eq_refl) as (ls & E & _). rewrite E in *. destruct (F2_get _ _ _ P5 j i Pi) as (d & Dj & O). unfold context_at in X. rewrite Dj in X. injection X as <-. exists d. split; [reflexivity|exact O].
  - rewrite (C0 eq_refl). cbn in X. injection X as <-. reflexivity.
Qed.
