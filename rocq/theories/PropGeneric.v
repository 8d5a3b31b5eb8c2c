(* PropGeneric.v -- property theorem C88 (generic points, slots and series, in any number of dimensions). *)
From Verif Require Import GenericProofs2 SeriesProofs SeriesProofs2 SeriesProofs3 OpsProofs2 Witness PropTactics.

(* Any history of appends, insertions at the two ends, removals, pops and clears, accepted or refused, leaves items one after another. *)
Theorem C88_history : forall os,
  (forall o x, In o os -> g_new_item o x -> g_wf x) -> g_at_ends g_empty os -> g_sequence (gs_items (g_run g_empty os)).
Proof. intros os W E. apply (g_run_inv g_empty os); auto. split; [constructor|apply consecutive_nil]. Qed.
Print Assumptions C88_history.

(* What one after another means: at most one item; or slots each starting exactly where the previous one ends; or increasing values. *)
Theorem C88_sequence_meaning : forall l, Forall g_wf l -> g_sequence l ->
  length l <= 1 \/
  ((forall x, In x l -> g_slot x = true) /\ consecutive (fun a b => g_at b = g_to a) l) \/
  (exists vs, Forall2 g_value l vs /\ strictly_increasing vs /\ forall x, In x l -> g_slot x = false).
Proof. exact g_meaning. Qed.
Print Assumptions C88_sequence_meaning.

(* A series is made of alike items exactly when they are one after another, and it holds those items. *)
Theorem C88_new : forall l, Forall g_wf l -> (forall x y, In x l -> In y l -> g_alike x y) ->
  ((exists s, g_new l = Ok s /\ gs_items s = l) <-> g_sequence l).
Proof. exact g_new_iff. Qed.
Print Assumptions C88_new.

(* An item is appended at the end, or nothing changes. *)
Theorem C88_append : forall s x s' r, g_append s x = (s', r) ->
  (r = Ok tt /\ gs_items s' = gs_items s ++ [x]) \/ (exists er, r = Err er /\ s' = s).
Proof.
  intros s x s' r E. apply g_append_facts in E. destruct r as [[]|er]; [left; split; [reflexivity|apply E]|right; exists er; auto].
Qed.
Print Assumptions C88_append.

(* Among items without data, an item of the same kind -- with data or without -- is accepted exactly when it can follow the last one. *)
Theorem C88_append_among_plain : forall l s x, g_new l = Ok s -> l <> [] -> Forall g_wf l -> Forall g_plain l -> g_wf x -> (forall y, In y l -> g_kind x = g_kind y) ->
  ((exists s', g_append s x = (s', Ok tt)) <-> forall last, g_last_of l last -> g_can_follow last x).
Proof.
  intros l s x E NE W P Wx K. assert (I : gs_items s = l) by exact (g_extend_items g_empty l s E).
  rewrite <- I in *. apply g_accept_any; auto. exact (g_new_ref _ _ E).
Qed.
Print Assumptions C88_append_among_plain.

(* Among items with data (of which the first one has at least a value), an item of the same class is accepted exactly when it can follow the last one and its data
   has the same shape: as many values, or the same labels. All the items have data of the same shape. *)
Lemma ref_shape a x : g_check_ref a x = Ok tt -> exists b, g_data x = Some b /\ same_shape a b.
Proof.
  unfold g_check_ref. destruct (g_data x) as [b|]; [|discriminate]. intros H. exists b. split; [reflexivity|]. destruct a as [a|a], b as [b|b]; try discriminate H; cbn.
  - destruct (Nat.eqb_spec (length a) (length b)); [assumption|discriminate H].
  - destruct (forallb (fun k => str_mem k (dkeys b)) (dkeys a)) eqn:E1; [|discriminate H]. destruct (forallb (fun k => str_mem k (dkeys a)) (dkeys b)) eqn:E2; [|discriminate H].
    rewrite forallb_forall in E1, E2. intros k. split; intros Hk; [apply E1 in Hk|apply E2 in Hk]; apply str_mem_In in Hk; exact Hk.
Qed.
Lemma extend_shape d : data_truthy d = true -> forall l s s', gs_items s <> [] -> gs_ref s = Some (Some d) -> g_extend s l = Ok s' ->
  gs_ref s' = Some (Some d) /\ forall x, In x l -> exists b, g_data x = Some b /\ same_shape d b.
Proof.
  intros T. induction l as [|x l IH]; intros s s' NE R E; cbn in E; [injection E as <-; split; [exact R|intros ? []]|].
  destruct (g_append s x) as [s1 [[]|er]] eqn:A; cbn [bind] in E; [|discriminate]. unfold g_append in A. destruct (gs_items s) as [|a m] eqn:I; [contradiction|].
  destruct (g_last_cons a m) as (last & El). rewrite El in A. destruct (g_isinstance _ _); cbn [negb] in A; [|discriminate]. destruct (g_follows x last) as [[|]|]; try discriminate.
  rewrite R, T in A. destruct (g_check_ref d x) as [[]|] eqn:K; [|discriminate]. injection A as <-.
  apply IH in E; [|cbn; discriminate|reflexivity]. destruct E as (E1 & E2). split; [exact E1|]. intros y [<-|Hy]; [apply ref_shape, K|apply E2, Hy].
Qed.
Theorem C88_data_alike : forall l s first rest d, g_new l = Ok s -> l = first :: rest -> g_data first = Some d -> d <> DList [] -> d <> DDict [] ->
  forall x, In x l -> exists b, g_data x = Some b /\ same_shape d b.
Proof.
  intros l s first rest d E -> D N1 N2. assert (T : data_truthy d = true) by (destruct d as [[|]|[|]]; try reflexivity; contradiction).
  unfold g_new in E. cbn [foldM] in E. unfold g_append at 1 in E. cbn [gs_items g_empty bind] in E.
  apply (extend_shape d T rest (mkGS ([] ++ [first]) (Some (g_data first)))) in E; [|discriminate|cbn; congruence].
  intros x [<-|Hx]; [|apply E, Hx]. exists d. split; [exact D|]. destruct d; cbn; [reflexivity|tauto].
Qed.
Print Assumptions C88_data_alike.
Theorem C88_append_data : forall l s first rest d x, g_new l = Ok s -> l = first :: rest -> Forall g_wf l -> g_wf x ->
  g_data first = Some d -> d <> DList [] -> d <> DDict [] -> g_cls x = g_cls first ->
  ((exists s', g_append s x = (s', Ok tt)) <-> (forall last, g_last_of l last -> g_can_follow last x) /\ exists b, g_data x = Some b /\ same_shape d b).
Proof.
  intros l s first rest d x E -> W Wx D N1 N2 C. assert (T : data_truthy d = true) by (destruct d as [[|]|[|]]; try reflexivity; contradiction).
  assert (I : gs_items s = first :: rest) by exact (g_extend_items g_empty _ s E).
  assert (R : gs_ref s = Some (Some d)).
  { unfold g_new in E. cbn [foldM] in E. unfold g_append at 1 in E. cbn [gs_items g_empty bind] in E.
    apply (extend_shape d T rest (mkGS ([] ++ [first]) (Some (g_data first)))) in E; [apply E|discriminate|cbn; congruence]. }
  assert (Sq : g_sequence (first :: rest)). { rewrite <- I. apply (g_extend_inv g_empty (first :: rest) s); [split; [constructor|apply consecutive_nil]|exact W|exact E]. }
  destruct (g_last_cons first rest) as (last & El). destruct (g_last_spec _ _ El) as (r & Er).
  assert (Hin : In last (first :: rest)) by (rewrite Er; apply in_or_app; right; left; reflexivity).
  assert (K : g_kind x = g_kind last) by (rewrite <- (g_seq_kind _ first last Sq (or_introl eq_refl) Hin); unfold g_kind; rewrite C; reflexivity).
  assert (L : (forall z, g_last_of (first :: rest) z -> g_can_follow z x) <-> g_can_follow last x).
  { split; [intros G; apply G; exists r; exact Er|]. intros G z (r' & Ez). rewrite Er in Ez. apply app_inj_tail in Ez. destruct Ez as (_ & <-). exact G. }
  rewrite L, <- (g_follows_iff x last Wx (proj1 (Forall_forall _ _) W last Hin) K).
  unfold g_append. rewrite I, El, R, T. assert (g_isinstance (g_cls x) (g_cls first) = true) as -> by (rewrite C; destruct (g_cls first); reflexivity). cbn [negb].
  split.
  - intros (s' & A). destruct (g_follows x last) as [[|]|]; try discriminate A. split; [reflexivity|]. destruct (g_check_ref d x) as [[]|] eqn:Q; [apply ref_shape, Q|discriminate A].
  - intros (-> & b & Hb & Sh). rewrite (shape_ref d b Sh x Hb). eexists. reflexivity.
Qed.
Print Assumptions C88_append_data.

(* An item of another kind, or one without data when the first one has data, is a type error and nothing changes. *)
Theorem C88_append_type : forall l s x first rest, g_new l = Ok s -> l = first :: rest ->
  g_kind x <> g_kind first \/ ((g_cls first = GDataPoint \/ g_cls first = GDataSlot) /\ g_plain x) ->
  g_append s x = (s, Err TypeError).
Proof.
  intros l s x first rest E -> H. assert (I : gs_items s = first :: rest) by exact (g_extend_items g_empty _ s E).
  unfold g_append. rewrite I. destruct (g_last_cons first rest) as (last & El). rewrite El.
  assert (g_isinstance (g_cls x) (g_cls first) = false) as ->; [|reflexivity].
  destruct (g_isinstance (g_cls x) (g_cls first)) eqn:B; [|reflexivity]. exfalso. pose proof (isinstance_gkind _ _ B) as K.
  destruct H as [H|([H|H] & _ & P1 & P2)]; [exact (H K)| |]; rewrite H in B; destruct (g_cls x); try discriminate B; contradiction.
Qed.
Print Assumptions C88_append_type.

(* Comparing points: in one dimension by their value, in more than one it is always an error. *)
Theorem C88_compare : forall x y, g_point x = true -> g_point y = true ->
  (forall u v, g_value x u -> g_value y v -> exists b, g_gt x y = Ok b /\ (b = true <-> Qclt v u)) /\
  (1 < length (g_at x) \/ 1 < length (g_at y) -> g_gt x y = Err ValueError).
Proof.
  intros x y Px Py. unfold g_gt, g_value. rewrite Px, Py. cbn [andb]. split.
  - intros u v -> ->. cbn. exists (qltb v u). split; [reflexivity|]. split; [apply qltb_lt|apply BaseLemmas.qltb_true].
  - intros H. destruct (Nat.ltb_spec 1 (length (g_at x))); [reflexivity|]. destruct (Nat.ltb_spec 1 (length (g_at y))); [reflexivity|]. lia.
Qed.
Print Assumptions C88_compare.

(* A slot is made exactly when its arguments say a start and a different end, and it goes from one to the other. *)
Theorem C88_slot : forall same a x, g_new_slot same a = Ok x <-> exists s e u, slot_says same a s e u /\ x = mkG GSlot s e None u.
Proof. exact g_slot_iff. Qed.
Print Assumptions C88_slot.

(* The length of a slot is the mean of the differences of the coordinates, and there is only one such number. *)
Theorem C88_length : forall x m, g_at x <> [] -> (m = g_length x <-> mean_difference (g_at x) (g_to x) m).
Proof.
  intros x m N. split; [intros ->; apply g_length_mean, N|]. intros H. eapply mean_unique; [exact N|exact H|apply g_length_mean, N].
Qed.
Print Assumptions C88_length.

(* The lengths of slots one after another add up to the one from the first start to the last end. *)
Theorem C88_lengths_add_up : forall l a r z, l = a :: r -> g_last_of l z -> Forall g_wf l -> (forall x, In x l -> g_slot x = true) -> g_sequence l ->
  mean_difference (g_at a) (g_to z) (total_length l).
Proof.
  intros l a r z E Z W S H. destruct (total_of l a r z E Z W S H) as (L & T). rewrite T.
  assert (N : g_at a <> []) by (rewrite E in W; inversion W as [|? ? Wa]; subst; apply Wa).
  pose proof (g_length_mean (mkG GSlot (g_at a) (g_to z) None None) N) as M. unfold g_length in M. cbn [g_at g_to] in M. exact M.
Qed.
Print Assumptions C88_lengths_add_up.

(* Removing: the first equal number or point and nothing else, or an error and nothing; a slot is never removed. *)
Theorem C88_remove : forall s x,
  ((forall y, In y (gs_items s) -> g_slot y = false) -> g_slot x = false ->
   (exists b y a, gs_items s = b ++ y :: a /\ g_same y x /\ (forall z, In z b -> ~ g_same z x) /\ g_remove s x = (mkGS (b ++ a) (gs_ref s), Ok tt)) \/
   ((forall z, In z (gs_items s) -> ~ g_same z x) /\ g_remove s x = (s, Err ValueError))) /\
  (forall a l, gs_items s = a :: l -> g_slot a = true -> g_remove s x = (s, Err NotImplementedError)).
Proof.
  intros s x. split.
  - intros Hl Hx. unfold g_remove. pose proof (g_remove_some (gs_items s) x Hl Hx) as R. destruct (gs_items s) as [|a l]; [right; split; [intros z []|reflexivity]|].
    rewrite (Hl a (or_introl eq_refl)). destruct (g_list_remove (a :: l) x) as [l'|].
    + destruct R as (b & y & r & E1 & -> & H1 & H2). left. exists b, y, r. auto.
    + right. auto.
  - intros a l E S. unfold g_remove. rewrite E, S. reflexivity.
Qed.
Print Assumptions C88_remove.

(* Popping: the item at that position (the last one by default) is returned and taken away, and nothing else; from slots only the first and the last one. *)
Theorem C88_pop : forall s i b x a, g_position (gs_items s) (match i with Some i => i | None => -1 end)%Z b x a ->
  ((exists y, In y (gs_items s) /\ g_slot y = true) -> g_sequence (gs_items s) -> i <> None -> i <> Some 0%Z -> g_pop s i = (s, Err IndexError)) /\
  ((forall y, In y (gs_items s) -> g_slot y = false) \/ i = None \/ i = Some 0%Z -> g_pop s i = (mkGS (b ++ a) (gs_ref s), Ok x)).
Proof.
  intros s i b x a (E & P). set (j := match i with Some i => i | None => (-1)%Z end) in *.
  assert (L : list_pop (gs_items s) j = Ok (x, b ++ a)).
  { assert (B : (0 <= (if Z.ltb j 0 then j + Z.of_nat (length (gs_items s)) else j) < Z.of_nat (length (gs_items s)))%Z).
    { rewrite <- P. rewrite E, app_length. cbn [length]. lia. }
    unfold list_pop. rewrite <- P in *. destruct (Z.leb_spec 0 (Z.of_nat (length b))); [|lia]. destruct (Z.ltb_spec (Z.of_nat (length b)) (Z.of_nat (length (gs_items s)))); [|lia].
    cbn [andb]. rewrite Nat2Z.id. rewrite E. rewrite nth_error_app2, Nat.sub_diag by lia. cbn [nth_error]. do 2 f_equal.
    rewrite firstn_app, Nat.sub_diag, firstn_all. cbn [firstn]. rewrite app_nil_r. f_equal.
    rewrite skipn_app. rewrite skipn_all2 by lia. replace (S (length b) - length b) with 1 by lia. reflexivity. }
  assert (N : j <> Z.of_nat (length (gs_items s))).
  { intros C. rewrite C in P. destruct (Z.ltb_spec (Z.of_nat (length (gs_items s))) 0); [lia|]. rewrite E, app_length in P. cbn [length] in P. lia. }
  unfold g_pop. destruct (gs_items s) as [|f l] eqn:Es; [destruct b; discriminate|]. split.
  - intros (y & Hy & Sy) H N1 N2. destruct i as [i|]; [|congruence]. subst j.
    assert (g_slot f = true) as -> by (rewrite <- Sy; apply kind_slot; apply (g_seq_kind _ _ _ H); [left; reflexivity|exact Hy]).
    destruct (Z.eqb_spec i 0); [congruence|]. destruct (Z.eqb_spec i (Z.of_nat (length (f :: l)))); [congruence|]. reflexivity.
  - intros H. destruct i as [i|]; subst j; [|rewrite L; reflexivity].
    assert (G : (negb (Z.eqb i 0 || Z.eqb i (Z.of_nat (length (f :: l)))) && g_slot f)%bool = false).
    { destruct H as [H|[H|[= ->]]]; [|discriminate|reflexivity]. rewrite (H f (or_introl eq_refl)). apply andb_false_r. }
    rewrite G, L. reflexivity.
Qed.
Print Assumptions C88_pop.

(* A slice with increasing positions of a series of numbers or points holds the items at those positions; and whatever the positions, a slice which is made holds them. *)
Theorem C88_slice : forall s ps xs, Forall g_wf (gs_items s) -> (forall x y, In x (gs_items s) -> In y (gs_items s) -> g_alike x y) -> g_sequence (gs_items s) ->
  Forall2 (fun i x => nth_error (gs_items s) i = Some x) ps xs ->
  (consecutive lt ps -> (forall x, In x (gs_items s) -> g_slot x = false) -> exists s', g_slice s ps = Ok s' /\ gs_items s' = xs) /\
  (forall s', g_slice s ps = Ok s' -> gs_items s' = xs /\ g_sequence xs).
Proof.
  intros s ps xs W A H F.
  assert (Hin : forall x, In x xs -> In x (gs_items s)).
  { intros x Hx. clear -F Hx. induction F as [|i y ps xs E F IH]; [destruct Hx|]. destruct Hx as [<-|Hx]; [eapply nth_error_In, E|auto]. }
  assert (Wx : Forall g_wf xs) by (apply Forall_forall; intros x Hx; eapply Forall_forall; [exact W|auto]).
  assert (Ax : forall x y, In x xs -> In y xs -> g_alike x y) by auto.
  unfold g_slice. rewrite (nth_mapM _ _ _ F). cbn [bind]. split.
  - intros L S. apply g_new_iff; auto. intros k x y Ex Ey.
    assert (G : forall j z, nth_error xs j = Some z -> exists i, nth_error ps j = Some i /\ nth_error (gs_items s) i = Some z).
    { clear -F. induction F as [|i y ps xs E F IH]; intros [|j] z Ez; try discriminate; [injection Ez as <-; exists i; auto|]. apply IH, Ez. }
    destruct (G k x Ex) as (i & Ei & Fi). destruct (G (Datatypes.S k) y Ey) as (j & Ej & Fj).
    eapply far_follow; [exact H| |exact Fi|exact Fj|]; [eapply L; eassumption|]. apply S. eapply nth_error_In, Fj.
  - intros s' E. assert (El : gs_items s' = xs) by (apply (g_extend_items g_empty xs s' E)). split; [exact El|].
    apply g_new_iff; auto. exists s'. auto.
Qed.
Print Assumptions C88_slice.

(* ---------------- what does not hold ---------------- *)
Definition gp (c : list Z) : gitem := mkG GPoint (map qz c) [] None None.
Definition gi (z : Z) : gitem := mkG GInt [qz z] [] None None.
Definition gf (z : Z) : gitem := mkG GFloat [qfrac z 2] [] None None.
Definition gsl (a b : list Z) : gitem := mkG GSlot (map qz a) (map qz b) None None.

(* Points in more than one dimension cannot be put in a series, beyond the first one. *)
Theorem C88_dimensions_refuted : forall s x y, In x (gs_items s) -> g_point x = true -> g_point y = true -> g_sequence (gs_items s) -> Forall g_wf (gs_items s) ->
  1 < length (g_at y) -> exists er, g_append s y = (s, Err er).
Proof.
  intros s x y Hx Px Py H W L. unfold g_append. destruct (gs_items s) as [|a l] eqn:E; [destruct Hx|].
  destruct (g_last_cons a l) as (last & El). rewrite El. destruct (g_isinstance (g_cls y) (g_cls a)) eqn:I; cbn [negb]; [|eexists; reflexivity].
  assert (Kl : g_point last = true).
  { destruct (g_last_spec _ _ El) as (r & Er). assert (In last (a :: l)) by (rewrite Er; apply in_or_app; right; left; reflexivity).
    pose proof (g_seq_kind _ _ _ H Hx H0) as K. clear -Px K. unfold g_point, g_kind in *. destruct (g_cls x), (g_cls last); cbn in *; congruence. }
  unfold g_follows. assert (g_slot y = false) as -> by (clear -Py; unfold g_point, g_slot in *; destruct (g_cls y); cbn in *; congruence).
  rewrite (proj2 (C88_compare y last Py Kl) (or_introl L)). eexists. reflexivity.
Qed.
Print Assumptions C88_dimensions_refuted.

(* Numbers in order are refused if some are integers and some are not; slots which end before they start are accepted, and slots of no length with a unit of zero;
   a slice of slots with a step, or of points backwards, raises; a unit cannot be added to a start with data. *)
Theorem C88_limits_refuted :
  (exists x y, g_gt y x = Ok true /\ g_new [x; y] = Err TypeError /\ g_value x (qz 1) /\ g_value y (qfrac 5 2)) /\
  (exists x, g_new_slot true (GGiven false [qz 5], GGiven false [qz 2], GNoUnit) = Ok x /\ Qclt (g_length x) q0) /\
  (exists x, g_new_slot true (GGiven false [qz 5], GNone, GUnit (GVal q0)) = Ok x /\ g_length x = q0) /\
  (exists s, g_new [gsl [0]%Z [1]%Z; gsl [1]%Z [2]%Z; gsl [2]%Z [3]%Z] = Ok s /\ g_slice s [0; 2] = Err ValueError) /\
  (exists s, g_new [gp [0]%Z; gp [1]%Z] = Ok s /\ g_slice s [1; 0] = Err ValueError) /\
  (forall same c u, exists er, g_new_slot same (GGiven true c, GNone, GUnit u) = Err er).
Proof.
  split; [|split; [|split; [|split; [|split]]]].
  - exists (gi 1), (gf 5). repeat split; vm_compute; reflexivity.
  - eexists. split; [vm_compute; reflexivity|]. apply qltb_lt. vm_compute. reflexivity.
  - eexists. split; [vm_compute; reflexivity|]. apply qeqb_eq. vm_compute. reflexivity.
  - eexists. split; vm_compute; reflexivity.
  - eexists. split; vm_compute; reflexivity.
  - intros same c u. cbn [g_new_slot]. destruct (Nat.ltb 1 (length c)); [eexists; reflexivity|]. unfold start_plus.
    destruct u; [|eexists; reflexivity]. destruct c as [|? [|]]; eexists; reflexivity.
Qed.
Print Assumptions C88_limits_refuted.

(* An item inserted in the middle is only compared with the one before. *)
Theorem C88_insert_refuted : exists s x, g_new [gi 1; gi 5] = Ok s /\ snd (g_insert s 1 x) = Ok tt /\ ~ g_sequence (gs_items (fst (g_insert s 1 x))).
Proof.
  eexists. exists (gi 9). split; [vm_compute; reflexivity|]. split; [vm_compute; reflexivity|]. intros H.
  specialize (H 1 (gi 9) (gi 5) eq_refl eq_refl). destruct H as (_ & u & v & Hu & Hv & L).
  assert (E1 : u = qz 9) by (cbv [g_value gi g_at] in Hu; congruence). assert (E2 : v = qz 5) by (cbv [g_value gi g_at] in Hv; congruence). subst.
  apply BaseLemmas.qltb_true in L. vm_compute in L. discriminate.
Qed.
Print Assumptions C88_insert_refuted.

(* ---------------- the hypotheses can be met ---------------- *)
Lemma gp_wf c : c <> [] -> g_wf (gp c).
Proof. intros N. split; [destruct c; [congruence|discriminate]|]. split; [intros [H|H]; discriminate|discriminate]. Qed.
Lemma gsl_wf a b : a <> [] -> length b = length a -> g_wf (gsl a b).
Proof. intros N L. split; [destruct a; [congruence|discriminate]|]. split; [intros [H|H]; discriminate|]. intros _. cbn. rewrite !map_length. exact L. Qed.
Definition plane : list gitem := [gsl [0; 0]%Z [1; 3]%Z; gsl [1; 3]%Z [2; 2]%Z; gsl [2; 2]%Z [5; 8]%Z].
Example C88_plane : Forall g_wf plane /\ (forall x y, In x plane -> In y plane -> g_alike x y) /\ g_sequence plane /\
  (exists s, g_new plane = Ok s) /\ total_length plane = qfrac 13 2 /\
  g_at_ends g_empty (map GAppend plane ++ [GPop None; GInsert 0 (gsl [5; 5]%Z [0; 0]%Z)]) /\
  map g_at (gs_items (g_run g_empty (map GAppend plane ++ [GPop None; GInsert 0 (gsl [5; 5]%Z [0; 0]%Z)]))) = map (map qz) [[5; 5]; [0; 0]; [1; 3]]%Z.
Proof.
  assert (S : exists s, g_new plane = Ok s) by (eexists; vm_compute; reflexivity).
  assert (W : Forall g_wf plane) by (repeat constructor; try discriminate; intros [H|H]; discriminate).
  assert (A : forall x y, In x plane -> In y plane -> g_alike x y) by (intros x y [<-|[<-|[<-|[]]]] [<-|[<-|[<-|[]]]]; split; reflexivity).
  split; [exact W|]. split; [exact A|]. split.
  - apply g_new_iff; auto. destruct S as (s & E). exists s. split; [exact E|]. apply (g_extend_items g_empty plane s E).
  - split; [exact S|]. split; [apply qeqb_eq; vm_compute; reflexivity|]. split; [|vm_compute; reflexivity].
    cbn [map plane app g_at_ends]. repeat split; try discriminate. intros i x [= <- <-]. left. reflexivity.
Qed.
Example C88_numbers : exists s s', g_new [gi 1; gi 4; gi 5; gi 9] = Ok s /\ g_slice s [0; 2; 3] = Ok s' /\ map g_at (gs_items s') = [[qz 1]; [qz 5]; [qz 9]].
Proof. eexists. eexists. split; [vm_compute; reflexivity|]. split; vm_compute; reflexivity. Qed.

Example C88_append_type_nonvacuous :
  is_ok (g_new [gp [1]; gp [2]]%Z) = true /\ Forall g_wf [gp [1]; gp [2]]%Z /\ Forall g_plain [gp [1]; gp [2]]%Z /\ g_wf (gp [3]%Z) /\ g_kind (gi 3) <> g_kind (gp [1]%Z).
Proof.
  split; [vm_compute; reflexivity|split; [|split; [|split]]].
  1,2,3: repeat constructor; cbn; intros; try discriminate; try reflexivity; try (destruct H; discriminate).
  cbn. discriminate.
Qed.
Definition gdp (t : Z) (d : data) : gitem := mkG GDataPoint [qz t] [] (Some d) None.
Example C88_append_data_nonvacuous :
  let a := gdp 1 (DDict [("a"%string, q0); ("b"%string, q1)]) in let b := gdp 2 (DDict [("b"%string, q0); ("a"%string, q1)]) in
  is_ok (g_new [a]) = true /\ Forall g_wf [a] /\ g_wf b /\
  is_ok (snd (g_append (mkGS [a] (Some (g_data a))) b)) = true /\
  snd (g_append (mkGS [a] (Some (g_data a))) (gdp 2 (DDict [("a"%string, q0)]))) = Err ValueError.
Proof. intros a b. split; [vm_compute; reflexivity|split; [|split; [|split; vm_compute; reflexivity]]]; repeat constructor; cbn; intros; try discriminate; try reflexivity; try (destruct H; discriminate). Qed.
