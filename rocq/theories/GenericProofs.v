(* GenericProofs.v -- proofs for SpecGeneric.v (C88). *)
From Verif Require Export SpecGeneric ListsProofs.
From Verif Require Import BaseLemmas SeriesProofs SeriesProofs2 SeriesProofs3 OpsProofs OpsProofs2 PropTactics.

Lemma consecutive_split {A} (R : A -> A -> Prop) b a : consecutive R (b ++ a) <->
  consecutive R b /\ consecutive R a /\ (forall u x r r', b = r ++ [u] -> a = x :: r' -> R u x).
Proof.
  split.
  - intros H. split; [eapply consecutive_app_l, H|]. split; [eapply consecutive_app_r, H|].
    intros u x r r' -> ->. apply (H (length r) u x).
    + rewrite <- app_assoc. rewrite nth_error_app2, Nat.sub_diag; [reflexivity|lia].
    + rewrite <- app_assoc. rewrite nth_error_app2 by lia. replace (S (length r) - length r) with 1 by lia. reflexivity.
  - intros (H1 & H2 & H3) i u v Hu Hv.
    destruct (Nat.lt_ge_cases (S i) (length b)) as [Hl|Hl].
    + rewrite nth_error_app1 in Hu, Hv by lia. apply (H1 i); assumption.
    + destruct (Nat.eq_dec (S i) (length b)) as [He|He].
      * rewrite nth_error_app1 in Hu by lia. rewrite nth_error_app2 in Hv by lia. rewrite He, Nat.sub_diag in Hv.
        destruct a as [|x a]; [discriminate|]. injection Hv as ->.
        destruct (exists_last (l := b)) as (r & w & ->); [intros ->; cbn in He; lia|].
        rewrite app_length in *. cbn [length] in *. assert (i = length r) as -> by lia.
        rewrite nth_error_app2, Nat.sub_diag in Hu by lia. injection Hu as ->.
        apply (H3 u v r a); reflexivity.
      * rewrite nth_error_app2 in Hu, Hv by lia. apply (H2 (i - length b)); [exact Hu|]. rewrite <- Hv. f_equal. lia.
Qed.

Lemma kind_slot x y : g_kind x = g_kind y -> g_slot x = g_slot y.
Proof. unfold g_kind, g_slot. destruct (g_cls x), (g_cls y); cbn; congruence. Qed.
Lemma isinstance_gkind x y : g_isinstance (g_cls x) (g_cls y) = true -> g_kind x = g_kind y.
Proof. unfold g_kind. destruct (g_cls x), (g_cls y); cbn; congruence. Qed.

Lemma g_gt_iff x y : g_wf x -> g_wf y -> g_kind x = g_kind y -> g_slot x = false -> (g_gt x y = Ok true <-> exists u v, g_value y u /\ g_value x v /\ Qclt u v).
Proof.
  intros (Nx & Lx & _) (Ny & Ly & _) K S. unfold g_gt, g_value, g_point, g_slot, g_kind in *.
  assert (Hx : cls_point (g_cls x) = false -> length (g_at x) = 1) by (intros P; apply Lx; destruct (g_cls x); cbn in *; try discriminate; auto).
  assert (Hy : cls_point (g_cls y) = false -> length (g_at y) = 1).
  { intros P; apply Ly. destruct (g_cls x), (g_cls y); cbn in *; try discriminate; auto. }
  destruct (g_at x) as [|a rx] eqn:Ex; [congruence|]. destruct (g_at y) as [|b ry] eqn:Ey; [congruence|].
  destruct rx as [|a2 rx].
  - cbn [length]. rewrite andb_false_r. destruct ry as [|b2 ry].
    + cbn [length]. rewrite andb_false_r. split.
      * intros [= H]. exists b, a. repeat split. apply qltb_lt, H.
      * intros (u & v & [= <-] & [= <-] & H). rewrite (qltb_true _ _ H). reflexivity.
    + destruct (cls_point (g_cls y)) eqn:P; [|specialize (Hy eq_refl); cbn in Hy; lia]. cbn. split; [discriminate|]. intros (u & v & H & _). discriminate.
  - destruct (cls_point (g_cls x)) eqn:P; [|specialize (Hx eq_refl); cbn in Hx; lia]. cbn. split; [discriminate|]. intros (u & v & _ & H & _). discriminate.
Qed.
Lemma g_follows_iff x y : g_wf x -> g_wf y -> g_kind x = g_kind y -> (g_follows x y = Ok true <-> g_can_follow y x).
Proof.
  intros Wx Wy K. unfold g_follows, g_can_follow. destruct (g_slot x) eqn:S.
  - unfold g_succeeds. split.
    + intros [= H]. apply qlist_eqb_eq in H. split; auto.
    + intros (_ & H). f_equal. apply qlist_eqb_eq. auto.
  - rewrite (g_gt_iff x y Wx Wy K S). split; [intros H; split; auto|tauto].
Qed.
Lemma g_follow_total x y : g_wf x -> g_wf y -> exists r, g_follows x y = r /\ (r = Ok true \/ r = Ok false \/ r = Err ValueError).
Proof.
  intros (Nx & _) (Ny & _). exists (g_follows x y). split; [reflexivity|]. unfold g_follows, g_gt, g_succeeds.
  destruct (g_slot x); [destruct (qlist_eqb _ _); auto|]. destruct (_ && _)%bool; [auto|]. destruct (_ && _)%bool; [auto|].
  destruct (g_at x); [congruence|]. destruct (g_at y); [congruence|]. destruct (qltb _ _); auto.
Qed.

Lemma g_last_snoc l x : g_last (l ++ [x]) = Some x.
Proof. unfold g_last. rewrite rev_app_distr. reflexivity. Qed.
Lemma g_last_spec l x : g_last l = Some x -> exists r, l = r ++ [x].
Proof. destruct l as [|a l]; [discriminate|]. destruct (@exists_last gitem (a :: l)) as (r & y & E); [discriminate|]. rewrite E, g_last_snoc. intros [= ->]. exists r. reflexivity. Qed.
Lemma g_last_cons a l : exists x, g_last (a :: l) = Some x.
Proof. destruct (@exists_last gitem (a :: l)) as (r & x & E); [discriminate|]. rewrite E, g_last_snoc. exists x. reflexivity. Qed.

Lemma g_seq_kind l x y : g_sequence l -> In x l -> In y l -> g_kind x = g_kind y.
Proof.
  intros H. assert (G : forall a r, l = a :: r -> forall z, In z l -> g_kind z = g_kind a).
  { revert H. induction l as [|b l IH]; intros H a r E z Hz; [discriminate|]. injection E as <- <-.
    destruct Hz as [<-|Hz]; [reflexivity|]. destruct l as [|c l]; [destruct Hz|].
    unfold g_sequence in H. apply consecutive_cons in H. destruct H as (H1 & H2).
    rewrite (IH H2 c l eq_refl z Hz). symmetry. apply H1. }
  destruct l as [|a r]; [intros []|]. intros Hx Hy. rewrite (G a r eq_refl x Hx), (G a r eq_refl y Hy). reflexivity.
Qed.
Lemma g_follow_trans a b c : g_slot c = false -> g_can_follow a b -> g_can_follow b c -> g_can_follow a c.
Proof.
  intros S (K1 & H1) (K2 & H2). rewrite (kind_slot b c K2), S in H1. rewrite S in H2. split; [congruence|]. rewrite S.
  destruct H1 as (u & v & Hu & Hv & L1). destruct H2 as (v' & w & Hv' & Hw & L2). unfold g_value in *. exists u, w. repeat split; auto.
  assert (v' = v) by congruence. subst. qlra.
Qed.
Lemma g_seq_drop b y a : g_slot y = false -> g_sequence (b ++ y :: a) -> g_sequence (b ++ a).
Proof.
  intros S H. assert (K : forall z, In z (b ++ y :: a) -> g_slot z = false).
  { intros z Hz. rewrite <- S. apply kind_slot. apply (g_seq_kind _ _ _ H Hz). apply in_or_app. right. left. reflexivity. }
  unfold g_sequence in *. apply consecutive_split in H. destruct H as (H1 & H2 & H3).
  apply consecutive_split. split; [exact H1|]. split; [apply (consecutive_app_r _ [y] a), H2|].
  intros u x r r' E1 E2. subst a. apply consecutive_cons in H2. destruct H2 as (H2 & _).
  apply (g_follow_trans u y x); [|eapply H3; [exact E1|reflexivity]|exact H2].
  apply K. apply in_or_app. right. right. left. reflexivity.
Qed.

Lemma g_append_facts s x s' r : g_append s x = (s', r) ->
  match r with
  | Ok _ => gs_items s' = gs_items s ++ [x] /\ (forall a l last, gs_items s = a :: l -> g_last (a :: l) = Some last -> g_kind x = g_kind a /\ g_follows x last = Ok true)
  | Err _ => s' = s
  end.
Proof.
  unfold g_append. destruct (gs_items s) as [|a l] eqn:E.
  - intros [= <- <-]. split; [reflexivity|discriminate].
  - destruct (g_last_cons a l) as (last & El). rewrite El.
    destruct (g_isinstance (g_cls x) (g_cls a)) eqn:I; cbn [negb]; [|intros [= <- <-]; reflexivity].
    destruct (g_follows x last) as [[|]|er] eqn:F; [|intros [= <- <-]; reflexivity|intros [= <- <-]; reflexivity].
    assert (G : forall ref, gs_items (mkGS ((a :: l) ++ [x]) ref) = (a :: l) ++ [x] /\
      (forall a0 l0 last0, a :: l = a0 :: l0 -> g_last (a0 :: l0) = Some last0 -> g_kind x = g_kind a0 /\ g_follows x last0 = Ok true)).
    { intros ref. split; [reflexivity|]. intros a0 l0 last0 [= <- <-] E0. rewrite El in E0. injection E0 as <-. split; [apply isinstance_gkind, I|exact F]. }
    destruct (gs_ref s) as [[ref|]|].
    + destruct (data_truthy ref).
      * destruct (g_check_ref ref x); [|intros [= <- <-]; reflexivity]. intros [= <- <-]. apply G.
      * intros [= <- <-]. apply G.
    + intros [= <- <-]. apply G.
    + intros [= <- <-]. reflexivity.
Qed.
Definition g_inv (s : gseries) : Prop := Forall g_wf (gs_items s) /\ g_sequence (gs_items s).
Lemma g_seq_snoc l a r last x : l = a :: r -> g_last l = Some last -> g_sequence l -> Forall g_wf l -> g_wf x -> g_kind x = g_kind a -> g_follows x last = Ok true -> g_sequence (l ++ [x]).
Proof.
  intros E El H W Wx K F. destruct (g_last_spec _ _ El) as (r' & E').
  assert (In last l) by (rewrite E'; apply in_or_app; right; left; reflexivity).
  assert (Kl : g_kind x = g_kind last) by (rewrite K; apply (g_seq_kind l); auto; rewrite E; left; reflexivity).
  apply (g_follows_iff x last Wx) in F; [|eapply Forall_forall; eassumption|exact Kl].
  apply consecutive_split. split; [exact H|]. split; [apply consecutive_one|]. intros u y r1 r2 E1 E2. injection E2 as <- <-.
  rewrite E1 in E'. apply app_inj_tail in E'. destruct E' as (_ & ->). exact F.
Qed.
Lemma g_append_inv s x : g_inv s -> g_wf x -> g_inv (fst (g_append s x)).
Proof.
  intros (W & H) Wx. destruct (g_append s x) as [s' r] eqn:E. apply g_append_facts in E. cbn. destruct r as [u|er]; [|subst; split; assumption].
  destruct E as (E & F). unfold g_inv. rewrite E. split.
  - apply Forall_app. auto.
  - destruct (gs_items s) as [|a l] eqn:Es; [apply consecutive_one|]. destruct (g_last_cons a l) as (last & El).
    destruct (F a l last eq_refl El) as (K & G). eapply g_seq_snoc; eauto.
Qed.
Lemma g_remove_spec l x l' : g_list_remove l x = Some l' -> exists b y a, l = b ++ y :: a /\ l' = b ++ a /\ g_eq y x = true.
Proof.
  revert l'. induction l as [|y l IH]; cbn; intros l'; [discriminate|].
  destruct (g_eq y x) eqn:E.
  - intros [= <-]. exists [], y, l. auto.
  - destruct (g_list_remove l x) as [r|]; [|discriminate]. intros [= <-].
    destruct (IH r eq_refl) as (l1 & y' & l2 & -> & -> & H1). exists (y :: l1), y', l2. auto.
Qed.
Lemma Forall_drop {A} (P : A -> Prop) b y a : Forall P (b ++ y :: a) -> Forall P (b ++ a).
Proof. rewrite !Forall_app. intros (H1 & H2). inversion H2; subst. auto. Qed.
Lemma g_pop_inv s i : g_inv s -> g_inv (fst (g_pop s i)).
Proof.
  intros (W & H). unfold g_pop. destruct (gs_items s) as [|a l] eqn:E; [unfold g_inv; cbn; rewrite E; split; assumption|].
  assert (Hgo : forall j, (g_slot a = true -> j = 0%Z \/ j = (-1)%Z \/ j = Z.of_nat (length (a :: l))) ->
    g_inv (fst (match list_pop (a :: l) j with Ok (x, l) => (mkGS l (gs_ref s), Ok x) | Err er => (s, Err er) end))).
  { intros j Hj. destruct (list_pop (a :: l) j) as [[x l']|er] eqn:P; cbn [fst]; [|unfold g_inv; rewrite E; split; assumption].
    destruct (list_pop_spec _ _ _ _ P) as (b & r & E1 & -> & E3). unfold g_inv. cbn [gs_items]. rewrite E1 in W, H. split; [eapply Forall_drop, W|].
    destruct (g_slot a) eqn:Sa.
    - unfold g_sequence in *. apply consecutive_split in H. destruct H as (H1 & H2 & _). apply (consecutive_app_r _ [x] r) in H2.
      destruct (Hj eq_refl) as [->|[->| ->]].
      + cbn in E3. destruct b; [exact H2|cbn in E3; lia].
      + cbn [Z.ltb Z.compare] in E3. assert (r = []) as ->.
        { apply (f_equal (@length gitem)) in E1. rewrite app_length in E1. cbn [length] in *. destruct r; [reflexivity|]. cbn [length] in *. lia. }
        rewrite app_nil_r. exact H1.
      + exfalso. destruct (Z.ltb_spec (Z.of_nat (length (a :: l))) 0); [lia|].
        apply (f_equal (@length gitem)) in E1. rewrite app_length in E1. cbn [length] in *. lia.
    - eapply g_seq_drop; [|exact H]. rewrite <- Sa. apply kind_slot. apply (g_seq_kind _ _ _ H).
      + apply in_or_app. right. left. reflexivity.
      + rewrite <- E1. left. reflexivity. }
  destruct i as [j|]; [|apply Hgo; auto].
  destruct (Z.eqb_spec j 0); cbn [orb negb andb]; [apply Hgo; auto|].
  destruct (Z.eqb_spec j (Z.of_nat (length (a :: l)))); cbn [orb negb andb]; [apply Hgo; auto|].
  destruct (g_slot a) eqn:Sa; [unfold g_inv; cbn; rewrite E; split; assumption|]. apply Hgo. congruence.
Qed.
Lemma g_insert_inv s i x : g_inv s -> g_wf x -> (i = 0%Z \/ i = Z.of_nat (length (gs_items s))) -> g_inv (fst (g_insert s i x)).
Proof.
  intros Hi Wx Hp. unfold g_insert. destruct (gs_items s) as [|a l] eqn:E; [apply g_append_inv; assumption|].
  destruct (g_last_cons a l) as (last & El). rewrite El. destruct Hi as (W & H).
  assert (Hs : g_inv s) by (split; assumption).
  destruct (g_isinstance (g_cls x) (g_cls a)) eqn:I; cbn [negb]; [|exact Hs]. apply isinstance_gkind in I.
  destruct (Z.eqb_spec i 0) as [->|Hi0].
  - destruct (g_follows a x) as [[|]|er] eqn:F; [|exact Hs|exact Hs]. cbn [fst]. unfold g_inv. cbn [gs_items]. rewrite list_insert_0. rewrite E in *.
    split; [constructor; assumption|]. inversion W; subst. apply consecutive_cons. split; [|exact H]. apply g_follows_iff in F; auto.
  - destruct Hp as [Hp|Hp]; [contradiction|]. rewrite Hp, Z.eqb_refl.
    destruct (g_follows x last) as [[|]|er] eqn:F; [|exact Hs|exact Hs]. cbn [fst]. unfold g_inv. cbn [gs_items]. rewrite list_insert_len. rewrite E in *.
    split; [apply Forall_app; auto|]. eapply g_seq_snoc; eauto.
Qed.
Lemma g_step_inv s o : g_inv s -> (forall x, g_new_item o x -> g_wf x) -> (forall i x, o = GInsert i x -> i = 0%Z \/ i = Z.of_nat (length (gs_items s))) -> g_inv (fst (g_step s o)).
Proof.
  intros Hi Hw He. destruct o as [x|i x|x|i| |]; cbn [g_step].
  - apply g_append_inv; [exact Hi|]. apply Hw. left. reflexivity.
  - apply g_insert_inv; [exact Hi| |apply (He i x eq_refl)]. apply Hw. right. exists i. reflexivity.
  - unfold g_remove. destruct (gs_items s) as [|a l] eqn:E; [exact Hi|]. destruct (g_slot a) eqn:Sa; [exact Hi|].
    destruct (g_list_remove (a :: l) x) as [l'|] eqn:R; [|exact Hi]. destruct (g_remove_spec _ _ _ R) as (b & y & r & E1 & -> & _).
    destruct Hi as (W & H). rewrite E, E1 in W, H. split; cbn [fst gs_items]; [eapply Forall_drop, W|]. eapply g_seq_drop; [|exact H].
    rewrite <- Sa. apply kind_slot. apply (g_seq_kind _ _ _ H); [apply in_or_app; right; left; reflexivity|rewrite <- E1; left; reflexivity].
  - pose proof (g_pop_inv s i Hi) as G. destruct (g_pop s i) as [s' r]. exact G.
  - split; [constructor|apply consecutive_nil].
  - exact Hi.
Qed.
Lemma g_run_inv s os : g_inv s -> (forall o x, In o os -> g_new_item o x -> g_wf x) -> g_at_ends s os -> g_inv (g_run s os).
Proof.
  revert s. induction os as [|o os IH]; intros s Hi Hw He; [exact Hi|]. destruct He as (He & Hr). unfold g_run in *. cbn [fold_left]. apply IH; [|intros; eapply Hw; [right; eassumption|eassumption]|exact Hr].
  apply g_step_inv; [exact Hi| |exact He]. intros x Hx. apply (Hw o x); [left; reflexivity|exact Hx].
Qed.

(* meaning *)
Lemma g_meaning l : Forall g_wf l -> g_sequence l -> length l <= 1 \/
  ((forall x, In x l -> g_slot x = true) /\ consecutive (fun a b => g_at b = g_to a) l) \/
  (exists vs, Forall2 g_value l vs /\ strictly_increasing vs /\ forall x, In x l -> g_slot x = false).
Proof.
  intros W H. destruct l as [|a [|b l]]; [left; cbn; lia|left; cbn; lia|]. right.
  assert (K : forall z, In z (a :: b :: l) -> g_slot z = g_slot a).
  { intros z Hz. apply kind_slot. apply (g_seq_kind _ _ _ H Hz). left. reflexivity. }
  destruct (g_slot a) eqn:Sl.
  - left. split; [exact K|]. intros i u v Hu Hv. specialize (H i u v Hu Hv). destruct H as (_ & H). rewrite (K v) in H; [exact H|eapply nth_error_In, Hv].
  - right.
    assert (V : forall z, In z (a :: b :: l) -> exists v, g_value z v).
    { intros z Hz. apply In_nth_error in Hz. destruct Hz as (i & Hz). destruct i as [|i].
      - injection Hz as ->. specialize (H 0 z b eq_refl eq_refl). destruct H as (_ & H). rewrite (K b) in H by (right; left; reflexivity).
        destruct H as (u & v & Hu & _). exists u. exact Hu.
      - destruct (nth_error (a :: b :: l) i) as [y|] eqn:Ey.
        + specialize (H i y z Ey Hz). destruct H as (_ & H). rewrite (K z) in H by (eapply nth_error_In, Hz). destruct H as (u & v & _ & Hv & _). exists v. exact Hv.
        + apply nth_error_None in Ey. assert (nth_error (a :: b :: l) (S i) = None) by (apply nth_error_None; lia). congruence. }
    assert (E : exists vs, Forall2 g_value (a :: b :: l) vs).
    { clear -V. induction (a :: b :: l) as [|z r IH]; [exists []; constructor|]. destruct (V z (or_introl eq_refl)) as (v & Hv).
      destruct IH as (vs & Hvs); [intros y Hy; apply V; right; exact Hy|]. exists (v :: vs). constructor; assumption. }
    destruct E as (vs & F). exists vs. split; [exact F|]. split; [|exact K]. apply sincr_consecutive. intros i u v Hu Hv.
    assert (G : forall j w, nth_error vs j = Some w -> exists z, nth_error (a :: b :: l) j = Some z /\ g_value z w).
    { clear -F. induction F as [|z w r ws Hz F IH]; intros [|j] w' E; try discriminate; [injection E as <-; exists z; auto|]. apply IH. exact E. }
    destruct (G i u Hu) as (x & Ex & Vx). destruct (G (S i) v Hv) as (y & Ey & Vy). specialize (H i x y Ex Ey). destruct H as (_ & H).
    rewrite (K y) in H by (eapply nth_error_In, Ey). destruct H as (u' & v' & Hu' & Hv' & L). unfold g_value in *. assert (u = u') by congruence. assert (v = v') by congruence. subst. exact L.
Qed.
