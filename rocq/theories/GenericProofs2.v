(* GenericProofs2.v -- proofs for SpecGeneric.v (C88): what is accepted, slots and their lengths. *)
From Verif Require Export GenericProofs.
From Verif Require Import BaseLemmas SeriesProofs SeriesProofs2 SeriesProofs3 OpsProofs OpsProofs2 PropTactics.

Lemma shape_ref a b : same_shape a b -> forall x, g_data x = Some b -> g_check_ref a x = Ok tt.
Proof.
  intros H x Hx. unfold g_check_ref. rewrite Hx. destruct a as [a|a], b as [b|b]; cbn in H; try contradiction.
  - rewrite H, Nat.eqb_refl. reflexivity.
  - assert (G : forall u v : dict Qc, (forall k, In k (dkeys u) -> In k (dkeys v)) -> forallb (fun k => str_mem k (dkeys v)) (dkeys u) = true).
    { intros u v Huv. apply forallb_forall. intros k Hk. apply str_mem_In. apply Huv, Hk. }
    rewrite !G; [reflexivity| |]; intros k Hk; apply H; exact Hk.
Qed.
(* a series whose reference is the data of an item like x *)
Definition ref_of (s : gseries) : Prop := gs_items s = [] \/ exists y, In y (gs_items s) /\ gs_ref s = Some (g_data y).
Lemma g_accept s x : ref_of s -> Forall g_wf (gs_items s) -> g_sequence (gs_items s) -> g_wf x -> (forall y, In y (gs_items s) -> g_alike y x) ->
  ((exists s', g_append s x = (s', Ok tt)) <-> forall last, g_last_of (gs_items s) last -> g_can_follow last x).
Proof.
  intros R W H Wx A. unfold g_append. destruct (gs_items s) as [|a l] eqn:E.
  - split; [|eexists; reflexivity]. intros _ last (r & C). destruct r; discriminate C.
  - destruct (g_last_cons a l) as (last & El). rewrite El. destruct (g_last_spec _ _ El) as (r & Er).
    assert (Hin : In last (a :: l)) by (rewrite Er; apply in_or_app; right; left; reflexivity).
    assert (Hc : forall y, In y (a :: l) -> g_kind x = g_kind y) by (intros y Hy; destruct (A y Hy) as (C & _); unfold g_kind; rewrite C; reflexivity).
    assert (g_isinstance (g_cls x) (g_cls a) = true) as ->.
    { destruct (A a (or_introl eq_refl)) as (C & _). rewrite C. destruct (g_cls x); reflexivity. }
    cbn [negb].
    assert (Wl : g_wf last) by (eapply Forall_forall; eassumption).
    pose proof (g_follows_iff x last Wx Wl (Hc last Hin)) as F.
    assert (L : (forall z, g_last_of (a :: l) z -> g_can_follow z x) <-> g_can_follow last x).
    { split; [intros G; apply G; exists r; exact Er|]. intros G z (r' & Ez). rewrite Er in Ez. apply app_inj_tail in Ez. destruct Ez as (_ & <-). exact G. }
    rewrite L, <- F. split.
    + intros (s' & G). destruct (g_follows x last) as [[|]|]; [reflexivity|discriminate G|discriminate G].
    + intros G. rewrite G. destruct R as [R|(y & Hy & R)]; [congruence|]. rewrite E in Hy. rewrite R.
      destruct (A y Hy) as (_ & Sh). destruct (g_data y) as [d|]; [|eexists; reflexivity].
      destruct (data_truthy d); [|eexists; reflexivity]. destruct (g_data x) as [d'|] eqn:Ed; [|contradiction].
      rewrite (shape_ref d d' Sh x Ed). eexists. reflexivity.
Qed.
Lemma g_append_ref s x s' : ref_of s -> g_append s x = (s', Ok tt) -> ref_of s'.
Proof.
  intros R. unfold g_append. destruct (gs_items s) as [|a l] eqn:E.
  - intros [= <-]. right. exists x. split; [left; reflexivity|reflexivity].
  - destruct (g_last_cons a l) as (last & El). rewrite El. destruct R as [R|(y & Hy & R)]; [congruence|]. rewrite E in Hy.
    destruct (g_isinstance _ _); cbn [negb]; [|discriminate]. destruct (g_follows x last) as [[|]|]; try discriminate. rewrite R.
    assert (G1 : ref_of (mkGS ((a :: l) ++ [x]) (Some (g_data x)))) by (right; exists x; split; [apply in_or_app; right; left; reflexivity|reflexivity]).
    assert (G2 : ref_of (mkGS ((a :: l) ++ [x]) (Some (g_data y)))) by (right; exists y; split; [apply in_or_app; left; exact Hy|reflexivity]).
    destruct (g_data y) as [d|]; [|intros [= <-]; exact G1]. destruct (data_truthy d); [|intros [= <-]; exact G1].
    destruct (g_check_ref d x); [|discriminate]. intros [= <-]. exact G2.
Qed.

Definition g_extend (s : gseries) (l : list gitem) : result gseries := foldM (fun s x => let '(s', r) := g_append s x in do _ <- r; Ok s') l s.
Lemma g_extend_items s l s' : g_extend s l = Ok s' -> gs_items s' = gs_items s ++ l.
Proof.
  revert s. induction l as [|x l IH]; intros s; cbn; [intros [= <-]; symmetry; apply app_nil_r|].
  destruct (g_append s x) as [s1 [u|er]] eqn:E; cbn [bind]; [|discriminate]. intros H. apply IH in H. apply g_append_facts in E. destruct E as (E & _).
  rewrite H, E, <- app_assoc. reflexivity.
Qed.
Lemma g_extend_inv s l s' : g_inv s -> Forall g_wf l -> g_extend s l = Ok s' -> g_inv s'.
Proof.
  revert s. induction l as [|x l IH]; intros s Hi W; cbn; [intros [= <-]; exact Hi|]. inversion W; subst.
  pose proof (g_append_inv s x Hi H1) as G. destruct (g_append s x) as [s1 [u|er]] eqn:E; cbn [bind]; [|discriminate]. intros H. apply (IH s1 G); assumption.
Qed.
Lemma g_extend_ok s l : ref_of s -> Forall g_wf (gs_items s) -> Forall g_wf l -> (forall x y, In x (gs_items s ++ l) -> In y (gs_items s ++ l) -> g_alike x y) ->
  g_sequence (gs_items s ++ l) -> exists s', g_extend s l = Ok s'.
Proof.
  revert s. induction l as [|x l IH]; intros s R Ws W A H; [exists s; reflexivity|]. inversion W; subst. cbn.
  assert (E : exists s1, g_append s x = (s1, Ok tt)).
  { apply g_accept; auto.
    - unfold g_sequence in *. apply consecutive_app_l in H. exact H.
    - intros y Hy. apply A; [apply in_or_app; left; exact Hy|apply in_or_app; right; left; reflexivity].
    - intros last (r & Er). unfold g_sequence in H. apply consecutive_split in H. destruct H as (_ & _ & H). eapply H; [exact Er|reflexivity]. }
  destruct E as (s1 & E). rewrite E. cbn [bind]. pose proof (g_append_ref _ _ _ R E) as R1. apply g_append_facts in E. destruct E as (E & _).
  apply IH; auto; rewrite E.
  - apply Forall_app. auto.
  - rewrite <- app_assoc. exact A.
  - rewrite <- app_assoc. exact H.
Qed.
Lemma g_new_iff l : Forall g_wf l -> (forall x y, In x l -> In y l -> g_alike x y) -> ((exists s, g_new l = Ok s /\ gs_items s = l) <-> g_sequence l).
Proof.
  intros W A. split.
  - intros (s & E & El). assert (g_inv s) as (_ & H); [|rewrite El in H; exact H].
    apply (g_extend_inv g_empty l s); [split; [constructor|apply consecutive_nil]|exact W|exact E].
  - intros H. destruct (g_extend_ok g_empty l) as (s & E); auto; [left; reflexivity|constructor|]. exists s. split; [exact E|]. apply (g_extend_items g_empty l s E).
Qed.

(* slots *)
Lemma g_slot_iff same a x : g_new_slot same a = Ok x <-> exists s e u, slot_says same a s e u /\ x = mkG GSlot s e None u.
Proof.
  split.
  - destruct a as [[start e] u]. cbn [g_new_slot]. destruct start as [|sd s|]; try discriminate. destruct e as [|ed e|]; [| |discriminate].
    + destruct u as [|u|]; try discriminate. destruct (Nat.ltb 1 (length s)); [discriminate|]. unfold start_plus.
      destruct u as [v|]; [|discriminate]. destruct s as [|y [|]]; try discriminate. destruct sd; [discriminate|]. cbn [bind]. intros [= <-].
      exists [y], [(y + v)%Qc], (Some (GVal v)). split; [constructor|]. rewrite (Qcplus_comm y v). reflexivity.
    + assert (G : u <> GJunkUnit -> (do e0 <- (if negb (Nat.eqb (length s) (length e)) then Err ValueError
                  else if (qlist_eqb s e && (if (sd && ed)%bool then same else true))%bool then Err ValueError else Ok e);
                  Ok (mkG GSlot s e0 None (match u with GUnit u => Some u | _ => None end))) = Ok x ->
        exists s0 e0 u0, slot_says same (GGiven sd s, GGiven ed e, u) s0 e0 u0 /\ x = mkG GSlot s0 e0 None u0).
      { intros Hu. destruct (Nat.eqb_spec (length s) (length e)) as [L|]; cbn [negb]; [|discriminate].
        destruct (qlist_eqb s e && (if (sd && ed)%bool then same else true))%bool eqn:Q; [discriminate|]. cbn [bind]. intros [= <-].
        exists s, e, (match u with GUnit u => Some u | _ => None end). split; [|reflexivity]. constructor; auto.
        destruct (qlist_eqb s e) eqn:Q2; [right|left].
        - destruct sd, ed, same; cbn in Q; try discriminate; auto.
        - intros E. apply qlist_eqb_eq in E. congruence. }
      destruct u; [apply G; discriminate|apply G; discriminate|discriminate].
  - intros (s & e & u & H & ->). destruct H as [sd s ed e u L D Hu|y v].
    + cbn. destruct u as [|u|]; [| |congruence].
      all: rewrite L, Nat.eqb_refl; cbn [negb]; destruct (qlist_eqb s e) eqn:Q; cbn [andb bind]; [|reflexivity].
      all: apply qlist_eqb_eq in Q; destruct D as [D|(-> & -> & ->)]; [congruence|reflexivity].
    + cbn. rewrite (Qcplus_comm y v). reflexivity.
Qed.

(* lengths *)
Lemma fold_plus l : forall a, fold_left Qcplus l a = (a + fold_right Qcplus q0 l)%Qc.
Proof. induction l as [|x l IH]; intros a; cbn; [rewrite ?q0_eq; ring|]. rewrite IH. ring. Qed.
Lemma qsum_right l : qsum l = fold_right Qcplus q0 l.
Proof. unfold qsum. rewrite fold_plus. rewrite ?q0_eq. ring. Qed.
Lemma qn_neq n : n <> 0 -> qn n <> q0.
Proof. intros H E. assert (L : 0 < n) by lia. pose proof (qn_pos n L) as P. rewrite E in P. qlra. Qed.
Lemma g_length_mean x : g_at x <> [] -> mean_difference (g_at x) (g_to x) (g_length x).
Proof.
  intros N. exists (g_diffs (g_at x) (g_to x)). split.
  - unfold g_diffs. induction (combine (g_at x) (g_to x)); cbn; constructor; auto.
  - unfold g_length. rewrite qsum_right. field. apply qn_neq. destruct (g_at x); [congruence|discriminate].
Qed.
Lemma mean_unique a b m m' : a <> [] -> mean_difference a b m -> mean_difference a b m' -> m = m'.
Proof.
  intros N (ds & F & E) (ds' & F' & E'). assert (ds = ds') as <-.
  { clear -F F'. revert ds' F'. induction F as [|p d ps ds Hd F IH]; intros ds' F'; inversion F'; subst; [reflexivity|]. f_equal. apply IH. assumption. }
  rewrite <- E in E'. assert (Q : qn (length a) <> q0) by (apply qn_neq; destruct a; [congruence|discriminate]).
  assert (((m' * qn (length a)) / qn (length a))%Qc = ((m * qn (length a)) / qn (length a))%Qc) by congruence.
  replace ((m' * qn (length a)) / qn (length a))%Qc with m' in H by (field; exact Q).
  replace ((m * qn (length a)) / qn (length a))%Qc with m in H by (field; exact Q). congruence.
Qed.
Lemma diffs_add a b c : length a = length b -> length b = length c -> (qsum (g_diffs a b) + qsum (g_diffs b c))%Qc = qsum (g_diffs a c).
Proof.
  rewrite !qsum_right. revert b c. induction a as [|x a IH]; intros [|y b] [|z c] L1 L2; cbn in *; try discriminate; [rewrite ?q0_eq; ring|].
  injection L1 as L1. injection L2 as L2. specialize (IH b c L1 L2). unfold g_diffs in *. rewrite <- IH. ring.
Qed.
Lemma total_of l : forall a r z, l = a :: r -> g_last_of l z -> Forall g_wf l -> (forall x, In x l -> g_slot x = true) -> g_sequence l ->
  length (g_at a) = length (g_to z) /\ total_length l = (qsum (g_diffs (g_at a) (g_to z)) / qn (length (g_at a)))%Qc.
Proof.
  induction l as [|b l IH]; intros a r z E Z W S H; [discriminate|]. injection E as <- <-. inversion W as [|? ? Wb Wl]; subst.
  destruct Wb as (Nb & _ & Lb). specialize (Lb (S b (or_introl eq_refl))).
  destruct l as [|c l].
  - destruct Z as (r' & Z). destruct r' as [|? [|]]; cbn in Z; try discriminate. injection Z as <-. split; [auto|]. cbn. unfold g_length. rewrite ?q0_eq. ring.
  - assert (Z' : g_last_of (c :: l) z).
    { destruct Z as (r' & Z). destruct r' as [|w r']; [discriminate|]. injection Z as <- Z. exists r'. exact Z. }
    unfold g_sequence in H. apply consecutive_cons in H. destruct H as (Hbc & H).
    destruct (IH c l z eq_refl Z' Wl) as (L & T); [intros y Hy; apply S; right; exact Hy|exact H|].
    destruct Hbc as (_ & Hbc). rewrite (S c) in Hbc by (right; left; reflexivity). rewrite Hbc in T, L. rewrite Lb in T, L. split; [congruence|].
    change (total_length (b :: c :: l)) with (g_length b + total_length (c :: l))%Qc. rewrite T. unfold g_length.
    rewrite <- (diffs_add (g_at b) (g_to b) (g_to z)); [|congruence|congruence]. field. apply qn_neq. destruct (g_at b); [congruence|discriminate].
Qed.

(* slices *)
Lemma mapM_nth l ps r : mapM (fun i => match nth_error l i with Some x => Ok x | None => Err IndexError end) ps = Ok r -> Forall2 (fun i (x : gitem) => nth_error l i = Some x) ps r.
Proof.
  revert r. induction ps as [|i ps IH]; cbn; intros r; [intros [= <-]; constructor|]. destruct (nth_error l i) as [x|] eqn:E; [|discriminate]. cbn [bind].
  destruct (mapM _ ps) as [r'|]; [|discriminate]. cbn. intros [= <-]. constructor; auto.
Qed.
Lemma nth_mapM l ps r : Forall2 (fun i (x : gitem) => nth_error l i = Some x) ps r -> mapM (fun i => match nth_error l i with Some x => Ok x | None => Err IndexError end) ps = Ok r.
Proof. intros F. induction F as [|i x ps r E F IH]; cbn; [reflexivity|]. rewrite E. cbn [bind]. rewrite IH. reflexivity. Qed.
Lemma far_follow l i j x y : g_sequence l -> i < j -> nth_error l i = Some x -> nth_error l j = Some y -> g_slot y = false -> g_can_follow x y.
Proof.
  intros H. revert y. induction j as [|j IH]; intros y L Ex Ey Sy; [lia|].
  destruct (Nat.eq_dec i j) as [<-|N]; [apply (H i); assumption|].
  assert (exists z, nth_error l j = Some z) as (z & Ez).
  { destruct (nth_error l j) eqn:E; [eauto|]. apply nth_error_None in E. assert (nth_error l (S j) = None) by (apply nth_error_None; lia). congruence. }
  pose proof (H j z y Ez Ey) as F. eapply g_follow_trans; [exact Sy| |exact F]. apply IH; [lia|exact Ex|exact Ez|].
  rewrite <- Sy. apply kind_slot. apply F.
Qed.

(* removals *)
Lemma g_eq_same y x : g_slot y = false -> g_slot x = false -> (g_eq y x = true <-> g_same y x).
Proof.
  intros Sy Sx. unfold g_eq, g_same. rewrite Sy, Sx, !andb_true_iff. rewrite qlist_eqb_eq.
  assert (D : match g_data y, g_data x with Some a, Some b => data_eqb a b | _, _ => true end = true <->
    (forall a b, g_data y = Some a -> g_data x = Some b -> data_eqb a b = true)).
  { destruct (g_data y) as [a|], (g_data x) as [b|]; try (split; [intros _ ? ?; discriminate|reflexivity]).
    split; [intros H ? ? [= <-] [= <-]; exact H|intros H; apply H; reflexivity]. }
  rewrite D. split.
  - intros ((H1 & H2) & H3). apply Bool.eqb_prop in H1. auto.
  - intros (H1 & H2 & H3). rewrite H1. rewrite Bool.eqb_reflx. auto.
Qed.
Lemma g_remove_some l x : (forall y, In y l -> g_slot y = false) -> g_slot x = false ->
  match g_list_remove l x with
  | Some l' => exists b y a, l = b ++ y :: a /\ l' = b ++ a /\ g_same y x /\ (forall z, In z b -> ~ g_same z x)
  | None => forall z, In z l -> ~ g_same z x
  end.
Proof.
  intros Hl Hx. induction l as [|y l IH]; cbn; [intros z []|].
  pose proof (g_eq_same y x (Hl y (or_introl eq_refl)) Hx) as E. destruct (g_eq y x).
  - exists [], y, l. repeat split; auto; try (apply E; reflexivity).
  - assert (Hy : ~ g_same y x) by (intros H; apply E in H; discriminate).
    specialize (IH (fun z Hz => Hl z (or_intror Hz))). destruct (g_list_remove l x) as [r|].
    + destruct IH as (b & y' & a & -> & -> & H1 & H2). exists (y :: b), y', a. repeat split; auto; try apply H1. intros z [<-|Hz]; auto.
    + intros z [<-|Hz]; auto.
Qed.

Lemma g_accept_any s x : ref_of s -> gs_items s <> [] -> Forall g_wf (gs_items s) -> Forall g_plain (gs_items s) -> g_wf x -> (forall y, In y (gs_items s) -> g_kind x = g_kind y) ->
  ((exists s', g_append s x = (s', Ok tt)) <-> forall last, g_last_of (gs_items s) last -> g_can_follow last x).
Proof.
  intros R NE W P Wx Hc. unfold g_append. destruct (gs_items s) as [|a l] eqn:E; [contradiction|].
  destruct (g_last_cons a l) as (last & El). rewrite El. destruct (g_last_spec _ _ El) as (r & Er).
  assert (Hin : In last (a :: l)) by (rewrite Er; apply in_or_app; right; left; reflexivity).
  assert (g_isinstance (g_cls x) (g_cls a) = true) as ->.
  { pose proof (Hc a (or_introl eq_refl)) as K. inversion P as [|? ? (_ & P1 & P2) _]; subst. unfold g_kind in K. destruct (g_cls x), (g_cls a); try reflexivity; try discriminate K; contradiction. }
  cbn [negb].
  assert (Wl : g_wf last) by (eapply Forall_forall; eassumption).
  pose proof (g_follows_iff x last Wx Wl (Hc last Hin)) as F.
  assert (L : (forall z, g_last_of (a :: l) z -> g_can_follow z x) <-> g_can_follow last x).
  { split; [intros G; apply G; exists r; exact Er|]. intros G z (r' & Ez). rewrite Er in Ez. apply app_inj_tail in Ez. destruct Ez as (_ & <-). exact G. }
  rewrite L, <- F. split.
  - intros (s' & G). destruct (g_follows x last) as [[|]|]; [reflexivity|discriminate G|discriminate G].
  - intros G. rewrite G. destruct R as [R|(y & Hy & R)]; [congruence|]. rewrite E in Hy. rewrite R.
    rewrite Forall_forall in P. destruct (P y Hy) as (Dy & _). rewrite Dy. eexists. reflexivity.
Qed.
Lemma g_new_ref l s : g_new l = Ok s -> ref_of s.
Proof.
  unfold g_new. assert (G : forall s0, ref_of s0 -> forall s, foldM (fun s x => let '(s', r) := g_append s x in do _ <- r; Ok s') l s0 = Ok s -> ref_of s).
  { induction l as [|x l IH]; intros s0 R s1; cbn [foldM]; [intros [= <-]; exact R|].
    destruct (g_append s0 x) as [s2 [[]|er]] eqn:E; cbn [bind]; [|discriminate]. apply IH. exact (g_append_ref _ _ _ R E). }
  apply G. left. reflexivity.
Qed.
