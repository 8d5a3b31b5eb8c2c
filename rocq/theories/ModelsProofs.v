(* ModelsProofs.v -- proofs for the model protocol. *)
From Verif Require Import SpecModels BaseLemmas.

Lemma strings_eqb_eq : forall a b, strings_eqb a b = true <-> a = b.
Proof.
  induction a as [|x a IH]; intros [|y b]; cbn; split; intros H; try discriminate; try reflexivity.
  - apply andb_prop in H. destruct H as [H1 H2]. apply String.eqb_eq in H1. apply IH in H2. congruence.
  - injection H as -> ->. rewrite String.eqb_refl. apply IH. reflexivity.
Qed.
Lemma tunit_eqb_eq u v : tunit_eqb u v = true <-> u = v.
Proof.
  destruct u as [a|a], v as [b|b]; cbn; split; intros H; try discriminate.
  - destruct (qeqb_spec a b); [congruence|discriminate].
  - injection H as ->. apply qeqb_refl.
  - apply String.eqb_eq in H. congruence.
  - injection H as ->. apply String.eqb_refl.
Qed.
Lemma same_resolution_eq a b : same_resolution a b = true <-> a = b.
Proof.
  destruct a as [[|u]|], b as [[|v]|]; cbn; split; intros H; try discriminate; try reflexivity.
  - apply tunit_eqb_eq in H. congruence.
  - apply tunit_eqb_eq. congruence.
Qed.
Lemma check_series_ok a s : check_series a = Ok s <-> arg_series a = Some s /\ s_items s <> [] /\ resolution s <> Some RVar.
Proof.
  unfold check_series. destruct (arg_series a) as [t|]; [|split; [discriminate|intros (H & _); discriminate]].
  destruct (s_items t) as [|x l] eqn:E; [split; [discriminate|intros (H & N & _); injection H as ->; congruence]|].
  destruct (resolution t) as [[|u]|] eqn:R; split; intros H; try discriminate.
  - destruct H as (H & _ & N). injection H as ->. congruence.
  - injection H as <-. split; [reflexivity|]. rewrite E, R. split; discriminate.
  - destruct H as (H & _). injection H as ->. reflexivity.
  - injection H as <-. split; [reflexivity|]. rewrite E, R. split; discriminate.
  - destruct H as (H & _). injection H as ->. reflexivity.
Qed.
Lemma check_usable a : usable a <-> exists s, check_series a = Ok s.
Proof. split; intros (s & H); exists s; apply check_series_ok; exact H. Qed.
Lemma check_unusable a e : check_series a = Err e -> ~ usable a.
Proof. intros H U. apply check_usable in U. destruct U. congruence. Qed.
Lemma check_labels_ok s l : check_labels s l = Ok tt <-> exists x, l = Some x /\ ts_data_labels s = Ok (Some x).
Proof.
  unfold check_labels. destruct (ts_data_labels s) as [[a|]|e]; cbn; split.
  - destruct l as [b|]; [|discriminate]. destruct (strings_eqb a b) eqn:E; [|discriminate]. intros _. apply strings_eqb_eq in E. subst. eauto.
  - intros (x & -> & H). injection H as ->. rewrite (proj2 (strings_eqb_eq x x) eq_refl). reflexivity.
  - discriminate.
  - intros (x & _ & H). discriminate.
  - discriminate.
  - intros (x & _ & H). discriminate.
Qed.

Lemma reference_cases {P} (m : model P) s :
  (exists l, ts_data_labels s = Ok l /\ set_reference m s = (set_mlabels (set_mres m (resolution s)) l, Ok tt)) \/
  (exists e, ts_data_labels s = Err e /\ (set_reference m s = (set_mres m (resolution s), Ok tt) \/ set_reference m s = (set_mres m (resolution s), Err e))).
Proof. unfold set_reference. destruct (ts_data_labels s) as [l|e]; [left; eauto|right; exists e; split; [reflexivity|]]. destruct e; auto. Qed.

Section Protocol.
Context {P A : Type} (L : logic P A).

(* what never changes *)
Lemma fit_keeps m a : m_fit (fst (do_fit L m a)) = m_fit m /\ m_parametric (fst (do_fit L m a)) = m_parametric m /\ m_context (fst (do_fit L m a)) = m_context m.
Proof.
  unfold do_fit. destruct (check_series a) as [s|]; [|auto].
  destruct (reference_cases m s) as [(l & _ & ->)|(e & _ & [-> | ->])]; cbn; auto; destruct (lg_fit L (m_params m) a) as [p [u|x]]; auto.
Qed.
Lemma call_keeps m k a g : exists p, fst (do_call L m k a g) = set_params m p.
Proof.
  assert (S : m = set_params m (m_params m)) by (destruct m; reflexivity).
  unfold do_call. destruct (m_fit m && negb (m_fitted m)); [exists (m_params m); exact S|].
  destruct (do s <- check_series a; check_model m s); [|exists (m_params m); exact S].
  destruct (match k with KPredict => xorb g (m_context m) | _ => false end); [exists (m_params m); exact S|].
  destruct (lg_call L k (m_params m) a) as [p r]. exists p. reflexivity.
Qed.
Lemma run_keeps h : forall m, m_fit (mrun L m h) = m_fit m /\ m_parametric (mrun L m h) = m_parametric m /\ m_context (mrun L m h) = m_context m.
Proof.
  induction h as [|o h IH]; intros m; [auto|]. cbn [mrun fold_left]. fold (mrun L (mstep L m o) h). destruct (IH (mstep L m o)) as (-> & -> & ->). destruct o as [a|k a g|]; cbn [mstep].
  - apply fit_keeps.
  - destruct (call_keeps m k a g) as [p ->]. auto.
  - auto.
Qed.
Lemma call_ran m k a g m' r : do_call L m k a g = (m', Ran r) -> m_fit m && negb (m_fitted m) = false /\ exists s, check_series a = Ok s /\ check_model m s = Ok tt.
Proof.
  unfold do_call. destruct (m_fit m && negb (m_fitted m)); [discriminate|]. intros H. split; [reflexivity|].
  destruct (check_series a) as [s|e] eqn:E; cbn in H; [|discriminate]. destruct (check_model m s) as [[]|] eqn:E2; [|discriminate]. eauto.
Qed.
Lemma call_refused m k a g m' e : do_call L m k a g = (m', Refused e) -> m' = m.
Proof.
  unfold do_call. destruct (m_fit m && negb (m_fitted m)); [congruence|]. destruct (do s <- check_series a; check_model m s); [|congruence].
  destruct (match k with KPredict => xorb g (m_context m) | _ => false end); [congruence|]. destruct (lg_call L k (m_params m) a). discriminate.
Qed.
Lemma fit_unusable m a : ~ usable a -> fst (do_fit L m a) = m /\ exists e, snd (do_fit L m a) = Refused e.
Proof.
  intros H. unfold do_fit. destruct (check_series a) as [s|e] eqn:E; [exfalso; apply H, check_usable; eauto|]. cbn. eauto.
Qed.

(* the fitted flag *)
Lemma fitted_why : forall h m, m_fitted m = false -> m_fitted (mrun L m h) = true ->
  exists i a, fit_succeeds L m h i a /\ forall j, i < j -> nth_error h j <> Some MUnset.
Proof.
  induction h as [|o h IH] using rev_ind; intros m F H; [cbn in H; congruence|].
  unfold mrun in H. rewrite fold_left_app in H. cbn [fold_left] in H. fold (mrun L m h) in H.
  assert (Keep : m_fitted (mrun L m h) = true -> o <> MUnset -> exists i a, fit_succeeds L m (h ++ [o]) i a /\ (forall j, i < j -> nth_error (h ++ [o]) j <> Some MUnset)).
  { intros F' N. destruct (IH m F F') as (i & a & (E1 & E2) & E3). assert (Li : i < length h) by (apply nth_error_Some; congruence). exists i, a. split.
    - split; [rewrite nth_error_app1 by exact Li; exact E1|]. unfold before in *. rewrite firstn_app. replace (i - length h) with 0 by lia. rewrite app_nil_r. exact E2.
    - intros j Lj. destruct (Nat.lt_ge_cases j (length h)); [rewrite nth_error_app1 by assumption; apply E3; exact Lj|]. rewrite nth_error_app2 by assumption. destruct (j - length h) as [|[|x]]; cbn; congruence. }
  destruct o as [a|k a g|]; cbn [mstep] in H.
  - destruct (m_fitted (mrun L m h)) eqn:F'; [apply Keep; [reflexivity|discriminate]|].
    exists (length h), a. split.
    + split; [rewrite nth_error_app2 by lia; rewrite Nat.sub_diag; reflexivity|]. unfold before. rewrite firstn_app, Nat.sub_diag, firstn_all, app_nil_r.
      unfold do_fit in H |- *. destruct (check_series a) as [s|]; [|cbn in H; congruence].
      destruct (reference_cases (mrun L m h) s) as [(l & _ & R)|(e & _ & [R|R])]; rewrite R in *; cbn in H |- *; try congruence; destruct (lg_fit L (m_params (mrun L m h)) a) as [p [[]|x]]; try reflexivity; cbn in H; congruence.
    + intros j Lj. rewrite nth_error_app2 by lia. destruct (j - length h) eqn:E; [lia|]. destruct n; discriminate.
  - destruct (call_keeps (mrun L m h) k a g) as [p Hp]. rewrite Hp in H. apply Keep; [exact H|discriminate].
  - discriminate.
Qed.

(* resolution and labels come from the last usable series the model was fitted on *)
Definition recorded (m : model P) (a : arg) : Prop :=
  exists s, arg_series a = Some s /\ m_res m = Some (resolution s) /\ (forall l, ts_data_labels s = Ok l -> m_labels m = Some l).
Lemma fit_records m a : usable a -> recorded (fst (do_fit L m a)) a.
Proof.
  intros U. apply check_usable in U. destruct U as [s Hs]. exists s. split; [apply check_series_ok in Hs; apply Hs|].
  unfold do_fit. rewrite Hs. destruct (reference_cases m s) as [(l & El & ->)|(e & El & [-> | ->])]; rewrite El; cbn.
  - destruct (lg_fit L (m_params m) a) as [p [u|x]]; (split; [reflexivity|intros l' E; injection E as <-; reflexivity]).
  - destruct (lg_fit L (m_params m) a) as [p [u|x]]; (split; [reflexivity|intros l' E; discriminate]).
  - split; [reflexivity|intros; discriminate].
Qed.
Lemma run_records : forall h m i a, nth_error h i = Some (MFit a) -> usable a -> (forall j b, i < j -> nth_error h j = Some (MFit b) -> ~ usable b) -> recorded (mrun L m h) a.
Proof.
  induction h as [|o h IH] using rev_ind; intros m i a Hi U HN; [destruct i; discriminate|].
  unfold mrun. rewrite fold_left_app. cbn [fold_left]. fold (mrun L m h).
  assert (Li : i < length (h ++ [o])) by (apply nth_error_Some; congruence). rewrite app_length in Li. cbn in Li.
  destruct (Nat.eq_dec i (length h)) as [->|N].
  - rewrite nth_error_app2, Nat.sub_diag in Hi by lia. injection Hi as ->. apply fit_records. exact U.
  - assert (R : recorded (mrun L m h) a).
    { apply (IH m i a); [rewrite nth_error_app1 in Hi by lia; exact Hi|exact U|]. intros j b Lj Hj. apply (HN j b Lj). rewrite nth_error_app1; [exact Hj|apply nth_error_Some; congruence]. }
    destruct o as [b|k b g|]; cbn [mstep].
    + assert (NU : ~ usable b) by (apply (HN (length h)); [lia|rewrite nth_error_app2, Nat.sub_diag by lia; reflexivity]). rewrite (proj1 (fit_unusable (mrun L m h) b NU)). exact R.
    + destruct (call_keeps (mrun L m h) k b g) as [p ->]. exact R.
    + exact R.
Qed.
(* the last usable fit after a given one *)
Lemma last_fit : forall h i a, nth_error h i = Some (MFit a) -> usable a ->
  exists j b, i <= j /\ nth_error h j = Some (MFit b) /\ usable b /\ forall k c, j < k -> nth_error h k = Some (MFit c) -> ~ usable c.
Proof.
  intros h i a Hi U. remember (length h - i) as n eqn:En. revert i a Hi U En. induction n as [n IH] using lt_wf_ind. intros i a Hi U ->.
  assert (Li : i < length h) by (apply nth_error_Some; congruence).
  assert (D : (exists k c, i < k /\ nth_error h k = Some (MFit c) /\ usable c) \/ (forall k c, i < k -> nth_error h k = Some (MFit c) -> ~ usable c)).
  { clear - h. assert (D : forall n, (exists k c, i < k < n /\ nth_error h k = Some (MFit c) /\ usable c) \/ (forall k c, i < k < n -> nth_error h k = Some (MFit c) -> ~ usable c)).
    { induction n as [|n [ (k & c & K1 & K2) |IH]]; [right; intros; lia|left; exists k, c; split; [lia|exact K2]|].
      destruct (nth_error h n) as [[b|kk aa gg|]|] eqn:E; try (right; intros k c K1 K2; destruct (Nat.eq_dec k n) as [->|]; [congruence|apply (IH k c); [lia|exact K2]]).
      destruct (check_series b) as [s|e] eqn:C.
      - destruct (Nat.ltb i n) eqn:O; [apply Nat.ltb_lt in O; left; exists n, b; split; [lia|split; [exact E|apply check_usable; eauto]]|apply Nat.ltb_ge in O; right; intros; lia].
      - right. intros k c K1 K2. destruct (Nat.eq_dec k n) as [->|]; [assert (c = b) by congruence; subst; apply (check_unusable b e C)|apply (IH k c); [lia|exact K2]]. }
    destruct (D (length h)) as [ (k & c & K1 & K2) |D']; [left; exists k, c; split; [lia|exact K2]|right]. intros k c K1 K2. apply (D' k c); [|exact K2]. split; [exact K1|]. apply nth_error_Some. congruence. }
  destruct D as [ (k & c & K1 & K2 & K3) |D]; [|exists i, a; auto].
  assert (Lk : k < length h) by (apply nth_error_Some; congruence).
  destruct (IH (length h - k) ltac:(lia) k c K2 K3 eq_refl) as (j & b & J1 & J2). exists j, b. split; [lia|exact J2].
Qed.
Lemma fit_succeeds_usable m h i a : fit_succeeds L m h i a -> usable a.
Proof.
  intros (_ & H). destruct (check_series a) as [s|e] eqn:E; [apply check_usable; eauto|]. unfold do_fit in H. rewrite E in H. discriminate.
Qed.
Lemma accepted_compatible m a s b : recorded m a -> m_parametric m = true -> arg_series b = Some s -> check_model m s = Ok tt ->
  (exists t l, arg_series a = Some t /\ ts_data_labels t = Ok l) -> compatible a b.
Proof.
  intros (t & Ha & Hr & Hl) Pm Hb H (t' & l & Ha' & Hl'). assert (t' = t) by congruence. subst t'. unfold check_model in H. rewrite Pm, Hr in H. cbn in H.
  destruct (same_resolution (resolution t) (resolution s)) eqn:R; [|discriminate]. rewrite (Hl l Hl') in H. cbn in H. apply check_labels_ok in H. destruct H as (x & -> & Hx). apply same_resolution_eq in R.
  exists t, s, x. auto.
Qed.
End Protocol.
