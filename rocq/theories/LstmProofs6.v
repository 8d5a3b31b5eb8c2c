(* LstmProofs6.v -- when a fit succeeds. *)
From Verif Require Import SpecLstm BaseLemmas PropTactics DictLemmas AccessProofs2 OpsProofs OpsProofs2 OpsProofs3 InterpProofs ReconProofs2 ReconProofs3 ReconProofs4 SeriesProofs2 LstmProofs LstmProofs2 LstmProofs3 LstmProofs4 LstmProofs5.

Lemma ranges_differ l lo hi lb : ranges l lo hi -> varies l lb -> lo lb <> hi lb.
Proof.
  intros R (x & y & vx & vy & Ix & Iy & Vx & Vy & N) E. destruct (R lb) as [[_ A] [_ B]]; [exists x; split; [exact Ix|exists vx; exact Vx]|].
  apply N. rewrite <- E in B. apply Qcle_antisym; [apply Qcle_trans with (lo lb); [apply (B x); assumption|apply (A y); assumption]|apply Qcle_trans with (lo lb); [apply (B y); assumption|apply (A x); assumption]].
Qed.
Lemma choose_ok labels t wc : valid_target labels t wc -> exists tg cx, choose_labels labels t wc = Ok (tg, cx).
Proof.
  unfold valid_target, choose_labels. destruct t as [|lb|ls]; [intros ->; eauto| |intros []]. intros I. rewrite (proj2 (existsb_exists (String.eqb lb) labels)); [eauto|]. exists lb. split; [exact I|apply String.eqb_refl].
Qed.
Lemma fit_succeeds e hour c train m s norm t wc limit i labels : ready e s -> labels_of s = Ok labels -> valid_target labels t wc -> known_features (lm_features m) ->
  (norm = true -> forall lb, label_in (s_items s) lb -> varies (s_items s) lb) ->
  (forall x, In x (s_items s) -> loss_known x) -> trainable limit (lm_window m) (s_items s) i ->
  (has_feature "diffs" (lm_features m) = true -> 2 <= lm_window m) ->
  (wc = true -> 0 < lm_window m /\ (forall x, In x (s_items s) -> is_slot x = false) /\ exists u, resolution s = Some (RUnit u)) ->
  exists m', lstm_fit e hour c train m s norm t wc limit = Ok m'.
Proof.
  intros R L VT KF V LK TR DF CX. unfold lstm_fit. rewrite L. cbn [bind]. destruct (choose_ok labels t wc VT) as (tg & cx & CH). rewrite CH. cbn [bind fst snd].
  destruct (ready_labels_of e s labels R L) as [NL HL]. destruct (choose_spec labels t wc tg cx NL CH) as (N1 & N2 & C0 & C1).
  assert (Q : exists items nf, (if norm then do q <- normalize_series e s; Ok (fst (fst q), Some (snd (fst q), snd q)) else Ok (s, lm_norm m)) = Ok (set_items s items, nf) /\
     length items = length (s_items s) /\ forall j, match nth_error (s_items s) j, nth_error items j with
     | Some x, Some y => same_shell x y /\ i_idx y = i_idx x /\ with_dict y /\ (forall lb, has_label y lb <-> has_label x lb) | None, None => True | _, _ => False end).
  { destruct norm.
    - rewrite (normalize_series_ok e s R). destruct (factors_ok e s R) as (mins & maxs & m1 & m2 & -> & -> & E1 & E2 & F1 & F2 & _). cbn [bind]. rewrite E1. cbn [bind]. rewrite E2. cbn [bind].
      destruct (mapM_exists (normalize_item mins maxs) (fun x y => same_shell x y /\ i_idx y = i_idx x /\ with_dict y /\ (forall lb, has_label y lb <-> has_label x lb)) (s_items s)) as (items & M & Ln & P).
      { intros x Ix. pose proof (ready_dict e s x R Ix) as Dx. destruct (normalize_item_ok mins maxs x Dx) as (y & Y).
        { intros lb Hlb. assert (LI : label_in (s_items s) lb) by (exists x; split; assumption). split; [apply F1; exact LI|]. split; [apply F1; exact LI|]. apply (ranges_differ (s_items s)); [exact F2|apply V; [reflexivity|exact LI]]. }
        exists y. split; [exact Y|]. destruct (normalize_item_spec mins maxs x y Dx Y) as ((A & B & D & _) & K & _). split; [exact A|]. split; [exact B|]. split; [exact K|exact D]. }
      rewrite M. cbn [bind fst snd]. exists items, (Some (mins, maxs)). split; [reflexivity|]. split; [exact Ln|]. intros j. destruct (nth_error (s_items s) j) as [x|] eqn:X.
      + destruct (P j x X) as (y & Y & H). rewrite Y. exact H.
      + apply nth_error_None in X. rewrite (proj2 (nth_error_None items j)); [exact I|lia].
    - exists (s_items s), (lm_norm m). rewrite set_items_same. split; [reflexivity|]. split; [reflexivity|]. intros j. destruct (nth_error (s_items s) j) as [x|] eqn:X; [|exact I]. split; [repeat split|]. split; [reflexivity|]. split; [apply (ready_dict e s x R); apply nth_error_In in X; exact X|reflexivity]. }
  destruct Q as (items & nf & QE & Li & Hi). rewrite QE. cbn [bind fst snd].
  assert (BACK : forall y, In y items -> exists x, In x (s_items s) /\ same_shell x y /\ i_idx y = i_idx x /\ with_dict y /\ (forall lb, has_label y lb <-> has_label x lb)).
  { intros y Iy. apply In_nth_error in Iy. destruct Iy as (j & Y). specialize (Hi j). rewrite Y in Hi. destruct (nth_error (s_items s) j) as [x|] eqn:X; [|contradiction]. exists x. split; [apply nth_error_In in X; exact X|exact Hi]. }
  destruct (to_matrix_ok (set_items s items) (lm_window m) cx tg limit) as ([[W T] C] & M).
  { cbn [set_items s_items]. intros y Iy. destruct (BACK y Iy) as (x & Ix & _ & Ex & Dy & Lx). split; [exact Dy|]. split; [unfold loss_known; rewrite Ex; apply LK; exact Ix|]. intros lb Hlb. apply Lx. apply HL; [exact Ix|]. destruct Hlb as [Hlb|(ls & -> & Hlb)]; [apply N2; exact Hlb|].
    destruct wc; [destruct (C1 eq_refl) as (ls' & E & _ & Q); injection E as <-; apply Q; exact Hlb|specialize (C0 eq_refl); discriminate C0]. }
  rewrite M. cbn [bind].
  destruct (to_matrix_spec (set_items s items) (lm_window m) cx tg limit W T C) as (ps & P1 & P2 & P3 & P4 & P5); [|exact M|].
  { intros ls E. destruct wc; [destruct (C1 eq_refl) as (ls' & E' & N & _); congruence|rewrite (C0 eq_refl) in E; discriminate]. }
  cbn [set_items s_items] in *. assert (TI : In i ps). { apply P2. apply (trainable_same limit _ (s_items s)); [exact Li| |exact TR]. intros j x y X Y. specialize (Hi j). rewrite X, Y in Hi. apply Hi. }
  destruct W as [|w0 W]; [inversion P3; subst; destruct TI|].
  destruct (features_matrix_ok hour c labels (resolution (set_items s items)) (lm_features m) wc C (w0 :: W) 0) as (fs & FS); [|rewrite FS; cbn [bind]; eexists; reflexivity].
  intros j win Wj. cbn [Nat.add]. change (resolution (set_items s items)) with (resolution s). destruct (F2_get_r _ _ _ P3 j win Wj) as (p & Pj & WB). assert (TP : trainable limit (lm_window m) items p) by (apply P2; apply nth_error_In in Pj; exact Pj).
  assert (WI : forall y, In y win -> In y items). { intros y Iy. apply In_nth_error in Iy. destruct Iy as (k & Y). destruct WB as [LW NW]. rewrite NW in Y by (rewrite <- LW; apply nth_error_Some; congruence). apply nth_error_In in Y. exact Y. }
  assert (CTX : exists ctx, context_at wc C j = Ok ctx /\ (ctx = None \/ exists d, wc = true /\ ctx = Some d /\ NoDup (dkeys d))).
  { destruct wc.
    - destruct (C1 eq_refl) as (ls & -> & _). destruct (F2_get _ _ _ P5 j p Pj) as (d & Dj & O). exists (Some d). unfold context_at. rewrite Dj. split; [reflexivity|]. right. exists d. split; [reflexivity|]. split; [reflexivity|]. destruct O as (z & _ & Nd & _). exact Nd.
    - exists None. split; [reflexivity|left; reflexivity]. }
  destruct CTX as (ctx & CA & CC). exists ctx.
  assert (WC : exists win', with_context_item c win (resolution s) ctx = Ok win' /\ (forall y, In y win' -> with_dict y) /\ length win <= length win').
  { destruct CC as [->|(d & -> & -> & Nd)].
    - exists win. split; [reflexivity|]. split; [|lia]. intros y Iy. destruct (BACK y (WI y Iy)) as (x & _ & _ & _ & D & _). exact D.
    - destruct (CX eq_refl) as (W0 & NS & u & RU). destruct (with_context_ok c win (resolution s) (Some d)) as (win' & E & A).
      { right. right. exists u. split; [exact RU|]. split; [intros ->; destruct WB as [LW _]; cbn in LW; lia|]. intros y Iy. destruct (BACK y (WI y Iy)) as (x & Ix & [(Ec & _) _] & _). unfold is_slot in *. rewrite Ec. apply NS. exact Ix. }
      exists win'. split; [exact E|]. unfold with_context_after in A. destruct d as [|kv d].
      + subst win'. split; [|lia]. intros y Iy. destruct (BACK y (WI y Iy)) as (x & _ & _ & _ & D & _). exact D.
      + destruct A as (u' & last & z & _ & _ & _ & -> & _ & _ & Dz). split; [|rewrite app_length; lia]. intros y Iy. apply in_app_iff in Iy. destruct Iy as [Iy|[<-|[]]]; [destruct (BACK y (WI y Iy)) as (x & _ & _ & _ & D & _); exact D|].
        exists (kv :: d). split; [exact Dz|exact Nd]. }
  destruct WC as (win' & WE & WD & WL). destruct (window_features_ok hour c win labels (resolution s) (lm_features m) ctx win' KF WE WD) as (f & Ff & _).
  { intros H. specialize (DF H). destruct WB as [LW _]. lia. }
  exists f. split; [exact CA|exact Ff].
Qed.
