(* FloatProofs2.v -- appending points with float times (C89). *)
From Coq Require Import Reals.
From Flocq Require Import Core Relative Sterbenz Plus_error.
From Verif Require Import Base BaseLemmas Items Series SpecSeries SpecAccess SeriesProofs SeriesProofs2 SeriesProofs3 SeriesProofs4 Float SpecFloat FloatProofs Periodicity.
From Coq Require Import Lra.
Local Close Scope R_scope.
Local Close Scope Z_scope.
Local Open Scope nat_scope.

Lemma seems_spaced_snoc d l y x :
  seems_spaced d ((l ++ [y]) ++ [x]) <-> seems_spaced d (l ++ [y]) /\ fsub x y = d.
Proof.
  unfold seems_spaced. split.
  - intros H. split; [apply consecutive_app_l in H; exact H|].
    apply (H (length l)).
    + rewrite nth_error_app1; [|rewrite app_length; simpl; lia]. rewrite nth_error_snoc, Nat.eqb_refl. reflexivity.
    + rewrite nth_error_snoc, app_length. replace (length l + length [y]) with (S (length l)) by (simpl; lia).
      rewrite Nat.eqb_refl. reflexivity.
  - intros [H1 H2]. apply consecutive_snoc; assumption.
Qed.

Definition f_inv (e : env) (s : series) : Prop :=
  match s_items s with
  | [] => s_prev_t s = None /\ s_res s = None /\ s_res_s s = None
  | [x] => s_prev_t s = Some (i_t x) /\ s_res s = None /\ s_res_s s = None
  | _ => s_prev_t s = last_t (s_items s) /\
    ((exists d u, seems_spaced d (times (s_items s)) /\ s_res_s s = Some d /\
                  unit_of_s e (f_trunc7 d) = Ok u /\ s_res s = Some (RUnit u)) \/
     ((forall d, ~ seems_spaced d (times (s_items s))) /\ s_res s = Some RVar))
  end.

Lemma f_append_items e s it s' : is_point it = true -> f_append e s it = (s', Ok tt) -> s_items s' = s_items s ++ [it].
Proof.
  unfold f_append. intros ->. unfold f_append_point. set (fin := fun s => set_prev s (Some (i_t it))).
  assert (K : forall s0, s_items s0 = s_items s -> series_append (fin s0) it = (s', Ok tt) -> s_items s' = s_items s ++ [it]).
  { intros s0 E0 H. destruct (series_append_ok _ _ _ H) as [H1 _]. cbn in H1. rewrite E0 in H1. exact H1. }
  destruct (s_prev_t s) as [p|]; [|apply (K s eq_refl)]. destruct (s_items s) as [|a l] eqn:El; [apply (K s El)|].
  destruct (qltb (i_t it) p); [discriminate|]. destruct (qeqb (i_t it) p); [discriminate|].
  destruct (s_res s) as [[|u]|].
  - apply (K s El).
  - destruct (s_res_s s) as [r|]; [|discriminate]. destruct (negb _); [apply (K (set_res (set_res_s s None) (Some RVar)) El)|apply (K s El)].
  - destruct (unit_of_s e _) as [u|]; [|discriminate]. apply (K (set_res (set_res_s s _) (Some (RUnit u))) El).
Qed.

Lemma f_append_inv e s it s' :
  f_inv e s -> is_point it = true -> f_append e s it = (s', Ok tt) -> f_inv e s'.
Proof.
  intros Hinv Hp E. pose proof (f_append_items _ _ _ _ Hp E) as Hi.
  unfold f_append in E. rewrite Hp in E. unfold f_append_point in E. unfold f_inv in Hinv.
  destruct (s_items s) as [|a l] eqn:El.
  - destruct Hinv as (H1 & H2 & H3). rewrite H1 in E.
    destruct (series_append_fields _ _ _ _ E) as (F1 & F2 & _ & F4). unfold f_inv. rewrite Hi. cbn.
    cbn in F1, F2, F4. repeat split; congruence.
  - destruct l as [|b l].
    + destruct Hinv as (H1 & H2 & H3). rewrite H1 in E.
      destruct (qltb_spec (i_t it) (i_t a)); [discriminate|].
      destruct (qeqb_spec (i_t it) (i_t a)); [discriminate|]. rewrite H2 in E.
      destruct (unit_of_s e (f_trunc7 (fsub (i_t it) (i_t a)))) as [u|x] eqn:Eu; [|discriminate].
      destruct (series_append_fields _ _ _ _ E) as (F1 & F2 & _ & F4). unfold f_inv. rewrite Hi. cbn [app].
      cbn in F1, F2, F4. split; [exact F4|]. left. exists (fsub (i_t it) (i_t a)), u. split; [|repeat split; assumption].
      unfold seems_spaced, times; cbn [map]. apply consecutive_cons. split; [reflexivity|apply consecutive_one].
    + destruct Hinv as (H1 & H2). 
      destruct (last_item_cons a (b :: l)) as [last Hl].
      unfold last_t in H1. rewrite Hl in H1. cbn in H1. rewrite H1 in E.
      destruct (last_item_some _ _ Hl) as [l' El'].
      assert (Hform : exists x y r, s_items s' = x :: y :: r).
      { rewrite Hi. cbn. eauto. }
      destruct Hform as (x0 & y0 & r0 & Hform).
      assert (Hlast : last_t (s_items s') = Some (i_t it)) by (unfold last_t; rewrite Hi, last_item_snoc; reflexivity).
      assert (Hspaced : forall d, seems_spaced d (times (s_items s')) <->
                seems_spaced d (times (a :: b :: l)) /\ fsub (i_t it) (i_t last) = d).
      { intros d. rewrite Hi, El'. unfold times. rewrite !map_app. cbn [map]. apply seems_spaced_snoc. }
      destruct (qltb_spec (i_t it) (i_t last)) as [Hlt|Hlt]; [discriminate|].
      destruct (qeqb_spec (i_t it) (i_t last)) as [Heq|Heq]; [discriminate|].
      unfold f_inv. rewrite Hform. rewrite <- Hform. rewrite Hlast.
      destruct H2 as [(d & u & Hs & Hrs & Hu & Hr)|(Hv & Hr)].
      * rewrite Hr, Hrs in E. destruct (qeqb_spec d (fsub (i_t it) (i_t last))) as [Hd|Hd]; cbn [negb] in E.
        -- destruct (series_append_fields _ _ _ _ E) as (F1 & F2 & _ & F4). cbn in F1, F2, F4.
           split; [exact F4|]. left. exists d, u. split; [apply Hspaced; split; [exact Hs|congruence]|]. repeat split; congruence.
        -- destruct (series_append_fields _ _ _ _ E) as (F1 & F2 & _ & F4). cbn in F1, F2, F4.
           split; [exact F4|]. right. split; [|exact F1]. intros d' Hd'. apply Hspaced in Hd'. destruct Hd' as [Hd1 Hd2].
           apply Hd. rewrite Hd2.
           transitivity (fsub (i_t b) (i_t a)).
           ++ symmetry. apply (Hs 0); reflexivity.
           ++ apply (Hd1 0); reflexivity.
      * rewrite Hr in E. destruct (series_append_fields _ _ _ _ E) as (F1 & F2 & _ & F4). cbn in F1, F2, F4.
        split; [exact F4|]. right. split; [|congruence]. intros d' Hd'. apply Hspaced in Hd'. apply (Hv d'), Hd'.
Qed.

Definition f_or_raise (e : env) (s : series) (x : item) : result series :=
  let '(s', r) := f_append e s x in do _ <- r; Ok s'.
Lemma f_or_raise_ok e s x s' : f_or_raise e s x = Ok s' <-> f_append e s x = (s', Ok tt).
Proof.
  unfold f_or_raise. destruct (f_append e s x) as [s1 [[]|er]]; cbn; split; intros H; inversion H; reflexivity.
Qed.
Lemma f_new_inv e tz xs s : f_new e tz xs = Ok s -> all_points xs -> f_inv e s /\ s_items s = xs.
Proof.
  change (foldM (f_or_raise e) xs (empty_series tz) = Ok s -> all_points xs -> f_inv e s /\ s_items s = xs).
  assert (G : forall s0, foldM (f_or_raise e) xs s0 = Ok s -> all_points xs -> f_inv e s0 -> f_inv e s /\ s_items s = s_items s0 ++ xs).
  { induction xs as [|x xs IH]; intros s0; cbn [foldM].
    - intros [= <-] _ H. split; [exact H|symmetry; apply app_nil_r].
    - destruct (f_or_raise e s0 x) as [s1|] eqn:E; cbn [bind]; [|discriminate]. intros H Hp Hi. apply f_or_raise_ok in E.
      assert (Px : is_point x = true) by (apply Hp; left; reflexivity).
      destruct (IH s1 H) as (A & B); [intros y Hy; apply Hp; right; exact Hy|apply (f_append_inv e s0 x); auto|].
      split; [exact A|]. rewrite B, (f_append_items _ _ _ _ Px E), <- app_assoc. reflexivity. }
  intros H Hp. apply (G (empty_series tz) H Hp). repeat split; reflexivity.
Qed.

(* the resolution, for any float times *)
Lemma f_resolution e tz xs s : f_new e tz xs = Ok s -> all_points xs ->
  (length xs < 2 -> resolution s = None) /\
  (2 <= length xs ->
     (forall d, seems_spaced d (times xs) -> exists u, unit_of_s e (f_trunc7 d) = Ok u /\ resolution s = Some (RUnit u)) /\
     ((forall d, ~ seems_spaced d (times xs)) -> resolution s = Some RVar)).
Proof.
  intros H Hp. destruct (f_new_inv e tz xs s H Hp) as (Hinv & Hi). unfold f_inv in Hinv. rewrite Hi in Hinv. unfold resolution. split.
  - intros Hl. destruct xs as [|a [|b l]]; [apply Hinv|apply Hinv|cbn in Hl; lia].
  - intros Hl. destruct xs as [|a [|b l]]; [cbn in Hl; lia|cbn in Hl; lia|].
    destruct Hinv as (_ & [(d & u & Hsp & Hrs & Hu & Hr)|(Hv & Hr)]).
    + split.
      * intros d' Hd'. assert (d' = d) as ->; [|eauto].
        transitivity (fsub (i_t b) (i_t a)); [symmetry; apply (Hd' 0); reflexivity|apply (Hsp 0); reflexivity].
      * intros Hn. exfalso. apply (Hn d Hsp).
    + split; [|auto]. intros d' Hd'. exfalso. apply (Hv d' Hd').
Qed.

(* ---- the same items are accepted as with exact times ---- *)
Definition usable_res (s : series) : Prop := forall u, s_res s = Some (RUnit u) -> s_res_s s <> None.
Definition sim (s s' : series) : Prop :=
  s_items s = s_items s' /\ s_prev_t s = s_prev_t s' /\ s_tz s = s_tz s' /\ s_ref s = s_ref s' /\ (s_res s = None <-> s_res s' = None) /\ usable_res s /\ usable_res s'.

Lemma sim_append s s' it : sim s s' ->
  snd (series_append s it) = snd (series_append s' it) /\ sim (fst (series_append s it)) (fst (series_append s' it)).
Proof.
  intros (E1 & E2 & E3 & E4 & E5 & E6 & E7). unfold series_append, item_type. rewrite E1, E4.
  assert (K : forall r l, sim (set_items (set_ref s r) l) (set_items (set_ref s' r) l)) by (intros r l; repeat split; cbn; auto; apply E5).
  assert (K' : forall l, sim (set_items s l) (set_items s' l)) by (intros l; repeat split; cbn; auto; apply E5).
  assert (K0 : sim s s') by (repeat split; auto; apply E5).
  destruct (last_item (s_items s')); [|cbn; auto]. destruct (match s_items s' with [] => None | x :: _ => Some (i_cls x) end); [|cbn; auto].
  destruct (negb _); [cbn; auto|]. destruct (negb _); [cbn; auto|]. destruct (s_ref s') as [[ref|]|]; [|cbn; auto|cbn; auto].
  destruct (data_truthy ref); [|cbn; auto]. destruct (check_ref ref it); cbn; auto.
Qed.

Lemma sim_step e s s' it : parses_units e -> is_point it = true -> sim s s' ->
  snd (f_append e s it) = snd (ts_append e s' it) /\ sim (fst (f_append e s it)) (fst (ts_append e s' it)).
Proof.
  intros Pu Hp S. pose proof S as (E1 & E2 & E3 & E4 & E5 & E6 & E7).
  unfold f_append, ts_append. rewrite Hp. unfold f_append_point, append_point. rewrite E1, E2.
  destruct (s_prev_t s') as [p|] eqn:P1; [|apply sim_append; repeat split; cbn; auto; try congruence; apply E5].
  destruct (s_items s') as [|a l] eqn:I1; [apply sim_append; repeat split; cbn; auto; try congruence; apply E5|].
  destruct (qltb (i_t it) p); [split; [reflexivity|]; repeat split; cbn; auto; try congruence; apply E5|].
  destruct (qeqb (i_t it) p); [split; [reflexivity|]; repeat split; cbn; auto; try congruence; apply E5|].
  destruct (s_res s) as [rr|] eqn:R; [|assert (R' : s_res s' = None) by (apply E5; reflexivity)].
  - assert (R' : s_res s' <> None) by (intros C; apply E5 in C; discriminate).
    assert (M : forall (x y : option res) (z w : option Qc), x <> None -> y <> None -> (forall u, x = Some (RUnit u) -> z <> None) -> (forall u, y = Some (RUnit u) -> w <> None) ->
       sim (set_prev (set_res (set_res_s s z) x) (Some (i_t it))) (set_prev (set_res (set_res_s s' w) y) (Some (i_t it)))).
    { intros x y z w X Y Z W. repeat split; cbn; auto; try congruence; intros; congruence. }
    assert (Es : forall z, set_prev s z = set_prev (set_res (set_res_s s (s_res_s s)) (s_res s)) z) by (intros; destruct s; reflexivity).
    assert (Es' : forall z, set_prev s' z = set_prev (set_res (set_res_s s' (s_res_s s')) (s_res s')) z) by (intros; destruct s'; reflexivity).
    destruct rr as [|u], (s_res s') as [[|u']|] eqn:Rs'; try contradiction.
    + rewrite Es, Es'. apply sim_append, M; congruence.
    + destruct (s_res_s s') as [r'|] eqn:Q'; [|exfalso; apply (E7 u' Rs'); exact Q'].
      destruct (negb _); rewrite Es; [|rewrite Es']; apply sim_append, M; congruence.
    + destruct (s_res_s s) as [r|] eqn:Q; [|exfalso; apply (E6 u R); exact Q].
      destruct (negb _); rewrite Es'; [|rewrite Es]; apply sim_append, M; congruence.
    + destruct (s_res_s s) as [r|] eqn:Q; [|exfalso; apply (E6 u R); exact Q].
      destruct (s_res_s s') as [r'|] eqn:Q'; [|exfalso; apply (E7 u' Rs'); exact Q'].
      destruct (negb (qeqb r _)), (negb (qeqb r' _)); rewrite ?Es, ?Es'; apply sim_append, M; congruence.
  - rewrite R'. destruct (Pu (f_trunc7 (fsub (i_t it) p))) as [u ->]. destruct (Pu (trunc7 (i_t it - p)%Qc)) as [u' ->].
    apply sim_append. repeat split; cbn; auto; try discriminate; try congruence; intros; congruence.
Qed.

Lemma same_accepted e tz xs : parses_units e -> all_points xs ->
  match f_new e tz xs, ts_new e tz xs with
  | Ok s, Ok s' => s_items s = s_items s' /\ s_tz s = s_tz s' /\ s_prev_t s = s_prev_t s'
  | Err x, Err y => x = y
  | _, _ => False
  end.
Proof.
  intros Pu. unfold f_new, ts_new.
  assert (G : forall s s', sim s s' -> all_points xs ->
     match foldM (fun s x => let '(s', r) := f_append e s x in do _ <- r; Ok s') xs s, foldM (fun s x => let '(s', r) := ts_append e s x in do _ <- r; Ok s') xs s' with
     | Ok s, Ok s' => sim s s' | Err x, Err y => x = y | _, _ => False end).
  { induction xs as [|x xs IH]; intros s s' S Hp; cbn [foldM]; [exact S|].
    assert (Px : is_point x = true) by (apply Hp; left; reflexivity).
    destruct (sim_step e s s' x Pu Px S) as (A & B). destruct (f_append e s x) as [s1 r1], (ts_append e s' x) as [s1' r1']. cbn [fst snd] in A, B. subst r1'.
    destruct r1 as [[]|er]; cbn [bind]; [|reflexivity]. apply IH; [exact B|]. intros y Hy; apply Hp; right; exact Hy. }
  intros Hp. specialize (G (empty_series tz) (empty_series tz)). 
  assert (S0 : sim (empty_series tz) (empty_series tz)) by (repeat split; cbn; auto; intros u; discriminate).
  specialize (G S0 Hp). destruct (foldM _ xs _), (foldM _ xs _); auto. destruct G as (A & B & C & _). auto.
Qed.

(* ---- when the differences are exact ---- *)
Lemma sterbenz_exact a b : is_double a -> is_double b -> same_age a b -> rnd (Qcminus b a) = Qcminus b a.
Proof.
  intros Ha Hb (L & U). apply rnd_id. apply double_iff. rewrite real_minus.
  apply double_iff in Ha. apply double_iff in Hb. apply real_le in L. apply real_le in U. rewrite real_mult in U. change (real q2) with (real (qz 2)) in U. rewrite real_qz in U.
  apply sterbenz; auto; [apply FLT_exp_valid; exact prec53|apply FLT_exp_monotone|lra].
Qed.

Lemma multiple_exact k a b : (-1074 <= k)%Z -> multiple k a -> multiple k b -> (qabs (Qcminus b a) < pow2 (53 + k))%Qc -> rnd (Qcminus b a) = Qcminus b a.
Proof.
  intros Hk (x & ->) (y & ->) Hb. apply rnd_id. exists (y - x)%Z, k.
  assert (E : Qcminus (Qcmult (qz y) (pow2 k)) (Qcmult (qz x) (pow2 k)) = Qcmult (qz (y - x)) (pow2 k)).
  { apply real_inj. rewrite real_minus, !real_mult, !real_qz, minus_IZR. ring. }
  rewrite E in *. split; [|split; [exact Hk|reflexivity]].
  apply real_lt in Hb. rewrite real_abs, real_mult, real_qz, !real_pow2, Rabs_mult, bpow_plus in Hb.
  rewrite (Rabs_pos_eq (bpow radix2 k)) in Hb by apply bpow_ge_0. apply Rmult_lt_reg_r in Hb; [|apply bpow_gt_0].
  rewrite <- abs_IZR in Hb. rewrite <- two_IZR in Hb by lia. apply lt_IZR in Hb. exact Hb.
Qed.

Lemma exact_spaced d l : consecutive (fun a b => rnd (Qcminus b a) = Qcminus b a) l -> (seems_spaced d l <-> equally_spaced d l).
Proof.
  intros H. split; intros G i a b Ha Hb; specialize (H i a b Ha Hb); specialize (G i a b Ha Hb); cbn in *; congruence.
Qed.

Lemma f_append_order e s it s' : f_inv e s -> is_point it = true -> f_append e s it = (s', Ok tt) ->
  consecutive Qclt (times (s_items s)) -> consecutive Qclt (times (s_items s')).
Proof.
  intros Hinv Hp E O. rewrite (f_append_items _ _ _ _ Hp E).
  destruct (s_items s) as [|a l] eqn:El; [apply consecutive_one|].
  destruct (last_item_cons a l) as [last Hl]. destruct (last_item_some _ _ Hl) as [l' El'].
  assert (Pv : s_prev_t s = Some (i_t last)).
  { unfold f_inv in Hinv. rewrite El in Hinv. destruct l as [|b l]; [destruct Hinv as (-> & _); cbn in Hl; injection Hl as <-; reflexivity|].
    destruct Hinv as (-> & _). unfold last_t. rewrite Hl. reflexivity. }
  unfold f_append in E. rewrite Hp in E. unfold f_append_point in E. rewrite Pv, El in E.
  destruct (qltb_spec (i_t it) (i_t last)) as [Hlt|Hlt]; [discriminate|].
  destruct (qeqb_spec (i_t it) (i_t last)) as [Heq|Heq]; [discriminate|].
  rewrite El' in *. unfold times in *. rewrite !map_app in *. cbn [map] in *.
  apply consecutive_snoc; [exact O|]. apply Qcnot_lt_le in Hlt. apply Qcle_lt_or_eq in Hlt. destruct Hlt as [Hlt|Hlt]; [exact Hlt|congruence].
Qed.
Lemma f_new_order e tz xs s : f_new e tz xs = Ok s -> all_points xs -> strictly_increasing (times xs).
Proof.
  intros E0 Hp0. apply sincr_consecutive. rewrite <- (proj2 (f_new_inv _ _ _ _ E0 Hp0)). revert E0 Hp0.
  change (foldM (f_or_raise e) xs (empty_series tz) = Ok s -> all_points xs -> consecutive Qclt (times (s_items s))).
  assert (G : forall s0, foldM (f_or_raise e) xs s0 = Ok s -> all_points xs -> f_inv e s0 -> consecutive Qclt (times (s_items s0)) -> consecutive Qclt (times (s_items s))).
  { induction xs as [|x xs IH]; intros s0; cbn [foldM].
    - intros [= <-] _ _ O. exact O.
    - destruct (f_or_raise e s0 x) as [s1|] eqn:E; cbn [bind]; [|discriminate]. intros H Hp Hi O. apply f_or_raise_ok in E.
      assert (Px : is_point x = true) by (apply Hp; left; reflexivity).
      apply (IH s1 H); [intros y Hy; apply Hp; right; exact Hy|apply (f_append_inv e s0 x); auto|]. eapply f_append_order; eauto. }
  intros H Hp. apply (G (empty_series tz) H Hp); [repeat split; reflexivity|]. apply consecutive_nil.
Qed.
