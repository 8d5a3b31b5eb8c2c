(* TransformProofs6.v -- computing a new slot. *)
From Verif Require Import SpecTransform SpecIntervals BaseLemmas AccessProofs AccessProofs3 DictLemmas OpsProofs OpsProofs2 OpsProofs3
  IntervalsProofs IntervalsProofs2 IntervalsProofs3 InterpProofs Transform TransformProofs TransformProofs2 TransformProofs3 TransformProofs4 TransformProofs5.

(* ---------------- points with the same place and labels ---------------- *)
Definition skel (p : vpoint) : vpoint :=
  mkVp (mkItem (i_cls (vp_item p)) (i_t (vp_item p)) (i_end (vp_item p)) (i_unit (vp_item p)) (i_tz (vp_item p)) None (i_idx (vp_item p)) None) (vp_from p) (vp_to p) (vp_interp p).
Definition keeps (p' p : vpoint) : Prop := skel p' = skel p /\
  exists d d', i_data (vp_item p) = Some (DDict d) /\ i_data (vp_item p') = Some (DDict d') /\ map fst d' = map fst d.
Lemma skel_eq p' p : skel p' = skel p -> i_cls (vp_item p') = i_cls (vp_item p) /\ tm p' = tm p /\ vp_from p' = vp_from p /\ vp_to p' = vp_to p /\ vp_interp p' = vp_interp p /\ i_idx (vp_item p') = i_idx (vp_item p).
Proof. intros H. injection H as H1 H2 H3 H4 H5 H6 H7 H8 H9. unfold tm. auto 10. Qed.
Lemma keeps_refl p : (exists d, i_data (vp_item p) = Some (DDict d)) -> keeps p p.
Proof. intros (d & E). split; [reflexivity|]. exists d, d. auto. Qed.
Lemma keeps_trans a b c : keeps a b -> keeps b c -> keeps a c.
Proof.
  intros (A1 & da & da' & A2 & A3 & A4) (B1 & db & db' & B2 & B3 & B4). split; [congruence|]. exists db, da'. split; [exact B2|split; [exact A3|]]. congruence.
Qed.
Lemma keeps_unweigh p' p : unweigh p' = unweigh p -> (exists d, i_data (vp_item p) = Some (DDict d)) -> keeps p' p.
Proof.
  intros H (d & E). destruct p' as [[c t e u z da ix w] f o n], p as [[c2 t2 e2 u2 z2 da2 ix2 w2] f2 o2 n2]. unfold unweigh, vp_set, set_weight in H. cbn in *. injection H as -> -> -> -> -> -> -> -> -> ->.
  split; [reflexivity|]. exists d, d. cbn. auto.
Qed.
Lemma keeps_weigh F T p : (exists d, i_data (vp_item p) = Some (DDict d)) -> keeps (weigh F T p) p.
Proof. apply keeps_unweigh. reflexivity. Qed.
Lemma keeps_label p' p lb : keeps p' p -> (has_label (vp_item p') lb <-> has_label (vp_item p) lb).
Proof. intros (_ & d & d' & E & E' & K). rewrite (dict_label _ _ lb E), (dict_label _ _ lb E'), K. reflexivity. Qed.
Lemma keeps_numeric p' p : keeps p' p -> numeric_item (vp_item p) -> numeric_item (vp_item p').
Proof.
  intros (S & d & d' & E & E' & K) (C & D). apply skel_eq in S. destruct S as (S1 & _). split; [rewrite S1; exact C|]. rewrite E in D. rewrite E', K. destruct D as [D1 D2]. split; [|exact D2].
  intros ->. destruct d; [apply D1; reflexivity|discriminate].
Qed.
Lemma keeps_prior p' p : keeps p' p -> prior_loss p' = prior_loss p.
Proof. intros (S & _). apply skel_eq in S. destruct S as (_ & _ & _ & _ & _ & S). unfold prior_loss, data_loss. rewrite S. reflexivity. Qed.

Lemma F2_nth {A B} (R : A -> B -> Prop) l' l i x : Forall2 R l' l -> nth_error l' i = Some x -> exists y, nth_error l i = Some y /\ R x y.
Proof. intros H. revert i. induction H as [|a b l' l Hab H IH]; intros [|i] E; cbn in *; try discriminate; [injection E as <-; eauto|auto]. Qed.
Lemma F2_in {A B} (R : A -> B -> Prop) l' l x : Forall2 R l' l -> In x l' -> exists y, In y l /\ R x y.
Proof. intros H Hx. apply In_nth_error in Hx. destruct Hx as [i Hi]. destruct (F2_nth R l' l i x H Hi) as (y & Hy & Rxy). exists y. split; [apply nth_error_In in Hy; exact Hy|exact Rxy]. Qed.
Lemma F2_in2 {A B} (R : A -> B -> Prop) l' l y : Forall2 R l' l -> In y l -> exists x, In x l' /\ R x y.
Proof. intros H. induction H as [|a b l' l Hab H IH]; intros Hy; [destruct Hy|]. destruct Hy as [<- |Hy]; [exists a; split; [left; reflexivity|exact Hab]|]. destruct (IH Hy) as (x & Hx & Rx). exists x. split; [right; exact Hx|exact Rx]. Qed.
Lemma F2_times pts' pts : Forall2 keeps pts' pts -> map tm pts' = map tm pts.
Proof. induction 1 as [|a b l l' H F IH]; [reflexivity|]. cbn. rewrite IH. destruct H as (H & _). apply skel_eq in H. destruct H as (_ & -> & _). reflexivity. Qed.
Lemma keeps_placed pts' pts : Forall2 keeps pts' pts -> placed pts -> placed pts'.
Proof.
  intros H (P1 & P2 & P3). split; [rewrite (F2_times _ _ H); exact P1|split].
  - intros p Hp. destruct (F2_in _ _ _ _ H Hp) as (q & Hq & (S & _)). apply skel_eq in S. destruct S as (_ & S1 & S2 & S3 & S4 & _). rewrite S1, S2, S3, S4. apply P2. exact Hq.
  - intros i j p q K Hp Hq. destruct (F2_nth _ _ _ _ _ H Hp) as (p0 & Hp0 & (Sp & _)). destruct (F2_nth _ _ _ _ _ H Hq) as (r0 & Hq0 & (Sq & _)).
    apply skel_eq in Sp, Sq. destruct Sp as (_ & _ & _ & -> & _), Sq as (_ & _ & -> & _). apply (P3 i j); assumption.
Qed.
Lemma keeps_good pts' pts : Forall2 keeps pts' pts -> good pts -> good pts'.
Proof.
  intros H (G1 & G2 & G3). assert (B : forall x, In x (map vp_item pts') -> exists p' p, x = vp_item p' /\ In p pts /\ keeps p' p).
  { intros x Hx. apply in_map_iff in Hx. destruct Hx as (p' & <- & Hp'). destruct (F2_in _ _ _ _ H Hp') as (p & Hp & K). exists p', p. auto. }
  assert (SS : forall x y, In x (map vp_item pts') -> In y (map vp_item pts') -> same_item_shape x y).
  { intros x y Hx Hy. destruct (B x Hx) as (p' & p & -> & Hp & Kp), (B y Hy) as (r' & r & -> & Hr & Kr). destruct G1 as (_ & _ & S).
    specialize (S _ _ (in_map vp_item _ _ Hp) (in_map vp_item _ _ Hr)). destruct S as [S1 S2].
    destruct Kp as (A & dp & dp' & A1 & A2 & A3), Kr as (C & dr & dr' & C1 & C2 & C3). apply skel_eq in A, C. destruct A as (A & _), C as (C & _). split; [congruence|].
    rewrite A1, C1 in S2. rewrite A2, C2. cbn in *. rewrite A3, C3. exact S2. }
  split; [split; [|split]|split; [split; [|split]|]].
  - destruct G1 as (N & _). intros X. apply N. destruct pts as [|q l]; [reflexivity|]. inversion H; subst. discriminate.
  - intros x Hx. destruct (B x Hx) as (p' & p & -> & Hp & Kp). apply (keeps_numeric p' p Kp). apply G1. apply in_map. exact Hp.
  - exact SS.
  - intros x Hx. destruct (B x Hx) as (p' & p & -> & Hp & Kp). destruct Kp as (A & _). apply skel_eq in A. destruct A as (A & _). unfold is_point. rewrite A. apply (proj1 G2 (vp_item p)). apply in_map. exact Hp.
  - unfold times. rewrite map_map. change (fun x => i_t (vp_item x)) with tm. rewrite (F2_times _ _ H). destruct G2 as (_ & G2 & _). unfold times in G2. rewrite map_map in G2. exact G2.
  - exact SS.
  - intros p Hp. destruct (F2_in _ _ _ _ H Hp) as (q & _ & (_ & d & d' & _ & E & _)). exists d'. exact E.
Qed.
Lemma F2_refl pts : good pts -> Forall2 keeps pts pts.
Proof. intros (_ & _ & G). induction pts as [|p l IH]; constructor; [apply keeps_refl, G; left; reflexivity|apply IH; intros; apply G; right; assumption]. Qed.
Lemma F2_trans a : forall b c, Forall2 keeps a b -> Forall2 keeps b c -> Forall2 keeps a c.
Proof. induction a as [|x a IH]; intros b c H1 H2; inversion H1; subst; inversion H2; subst; constructor; [eapply keeps_trans; eassumption|eapply IH; eassumption]. Qed.
Lemma unweigh_F2 : forall pts' pts, map unweigh pts' = map unweigh pts -> good pts -> Forall2 keeps pts' pts.
Proof.
  intros pts' pts H (_ & _ & G). revert pts' H. induction pts as [|p l IH]; intros [|p' l'] H; try discriminate; [constructor|]. pose proof (f_equal (@tl _) H) as H4. pose proof (f_equal (hd (unweigh p)) H) as X. cbn [map hd tl] in H4, X. clear H.
  constructor; [apply keeps_unweigh; [exact X|apply G; left; reflexivity]|apply IH; [intros; apply G; right; assumption|exact H4]].
Qed.

(* ---------------- the branch which changes the data ---------------- *)
Lemma inflate_data_ok w : forall ls d, (forall lb, In lb ls -> In lb (map fst d)) -> exists d', foldM (inflate_label w) ls (DDict d) = Ok (DDict d') /\ map fst d' = map fst d.
Proof.
  induction ls as [|lb ls IH]; intros d H; [exists d; auto|]. cbn [foldM]. unfold inflate_label at 1. unfold data_item.
  assert (Hlb : In lb (dkeys d)) by (apply H; left; reflexivity). destruct (dget lb d) as [v|] eqn:Ev; [|apply dget_None in Ev; contradiction]. cbn [bind].
  assert (K : map fst (dset lb (Qcplus v (Qcmult v w)) d) = map fst d).
  { change (dkeys (dset lb (Qcplus v (Qcmult v w)) d) = dkeys d). rewrite dkeys_dset. unfold dmem. rewrite Ev. reflexivity. }
  destruct (IH (dset lb (Qcplus v (Qcmult v w)) d)) as (d' & E & E'); [rewrite K; intros; apply H; right; assumption|]. exists d'. split; [exact E|congruence].
Qed.
Lemma inflate_ok labels p : (exists d, i_data (vp_item p) = Some (DDict d)) -> (forall lb, In lb labels -> has_label (vp_item p) lb) ->
  exists p', inflate labels p = Ok p' /\ keeps p' p /\ i_weight (vp_item p') = i_weight (vp_item p).
Proof.
  intros (d & E) H. unfold inflate, item_data. rewrite E. cbn [bind].
  destruct (inflate_data_ok (weight_of (vp_item p)) labels d) as (d' & E1 & E2); [intros lb Hlb; apply (dict_label _ _ lb E), H, Hlb|].
  rewrite E1. cbn [bind]. eexists. split; [reflexivity|]. split; [|reflexivity]. split; [reflexivity|]. exists d, d'. auto.
Qed.
Lemma inflate_all labels l : (forall p, In p l -> (exists d, i_data (vp_item p) = Some (DDict d)) /\ (forall lb, In lb labels -> has_label (vp_item p) lb)) ->
  exists l', mapM (inflate labels) l = Ok l' /\ Forall2 keeps l' l /\ map (fun p => i_weight (vp_item p)) l' = map (fun p => i_weight (vp_item p)) l.
Proof.
  induction l as [|p l IH]; intros H; [exists []; auto|]. destruct (H p (or_introl eq_refl)) as [H1 H2]. destruct (inflate_ok labels p H1 H2) as (p' & E & K & W).
  destruct IH as (l' & E' & K' & W'); [auto using in_cons|]. cbn [mapM]. rewrite E, E'. cbn [bind]. eexists. split; [reflexivity|]. split; [constructor; assumption|]. cbn. congruence.
Qed.

Lemma F2_filter l' l : Forall2 keeps l' l -> Forall2 keeps (filter (fun p => negb (vp_interp p)) l') (filter (fun p => negb (vp_interp p)) l).
Proof.
  induction 1 as [|a b l' l H F IH]; [constructor|]. cbn. destruct H as (S & H). destruct (skel_eq _ _ S) as (_ & _ & _ & _ & -> & _). destruct (negb (vp_interp b)); [constructor; [split; assumption|exact IH]|exact IH].
Qed.
Lemma put_back_F2 A C l l' m ext : Forall2 keeps l' l -> filter (fun p => negb (vp_interp p)) ext = l' -> length l = m ->
  put_back (A ++ l ++ C) (length A) (length A + m) ext = A ++ l' ++ C.
Proof.
  intros H <- E. unfold put_back. rewrite firstn_app, firstn_all, Nat.sub_diag. cbn [firstn]. rewrite app_nil_r. f_equal. f_equal.
  rewrite skipn_app, skipn_all2 by lia. cbn [app]. replace (length A + m - length A) with m by lia. rewrite <- E. rewrite skipn_app, skipn_all, Nat.sub_diag. reflexivity.
Qed.

(* ---------------- the view of the points inside the slot ---------------- *)
Lemma inner_view s pts F T A q l C A1 C1 : placed pts -> good pts -> Qclt F T -> pts = A ++ (q :: l) ++ C -> length A1 = length A ->
  (forall x, In x (q :: l) -> Qcle F (tm x) /\ Qclt (tm x) T) ->
  exists out, dense_view (fun t pi ni => linear_interp (src_series s pts) t pi ni) F T (A1 ++ map (weigh F T) (q :: l) ++ C1) (length A) (length A + S (length l)) = Ok (weigh F T q :: out) /\
    dense F T (weigh F T q) (map (weigh F T) l) out.
Proof.
  intros HP G L E EA H. unfold dense_view. assert (Es : sub (A1 ++ map (weigh F T) (q :: l) ++ C1) (length A) (length A + S (length l)) = weigh F T q :: map (weigh F T) l).
  { unfold sub. rewrite <- EA, skipn_app, skipn_all, Nat.sub_diag. cbn [skipn app]. replace (length A1 + S (length l) - length A1) with (S (length l)) by lia.
    cbn [map app]. rewrite firstn_cons. f_equal. rewrite firstn_app, map_length, Nat.sub_diag. rewrite firstn_all2 by (rewrite map_length; lia). cbn [firstn]. apply app_nil_r. }
  rewrite Es. assert (N : forall k x, nth_error (q :: l) k = Some x -> nth_error pts (length A + k) = Some x).
  { intros k x Hx. rewrite E, nth_error_app2 by lia. replace (length A + k - length A) with k by lia. rewrite nth_error_app1; [exact Hx|]. apply nth_error_Some. congruence. }
  destruct (dense_rest_ok (fun t pi ni => linear_interp (src_series s pts) t pi ni) F T (map (weigh F T) l) (weigh F T q) (length A)) as (out & Eo & D).
  - intros k a' b' Ha' Hb' Lg'. change (weigh F T q :: map (weigh F T) l) with (map (weigh F T) (q :: l)) in Ha'. rewrite nth_error_map in Ha', Hb'.
    destruct (nth_error (q :: l) k) as [a|] eqn:Ha; [|discriminate]. destruct (nth_error l k) as [b|] eqn:Hb; [|discriminate]. injection Ha' as <-. injection Hb' as <-.
    assert (Lg : Qclt (vp_to a) (vp_from b)) by exact Lg'. clear Lg'.
    assert (Na := N k a Ha). assert (Nb := N (S k) b Hb). pose proof (nth_error_In _ _ Ha) as Ia. pose proof (nth_error_In (q :: l) (S k) Hb) as Ib.
    destruct (H a Ia) as [_ K1], (H b Ib) as [K2 _].
    destruct (placed_in pts a HP (nth_error_In _ _ Na)) as (_ & _ & K5 & _). destruct (placed_in pts b HP (nth_error_In _ _ Nb)) as (_ & K6 & _ & _).
    destruct (gap_mid_between F T L a b K1 K2 K5 Lg K6) as [M1 M2].
    destruct (linear_given_ref (src_series s pts) (gap_mid F T a b) (length A + k) (length A + S k) (vp_item a) (vp_item b)) as (d & Ed & I).
    + apply src_ref. apply G.
    + apply src_dict. exact G.
    + rewrite src_items, nth_error_map, Na. reflexivity.
    + rewrite src_items, nth_error_map, Nb. reflexivity.
    + exact M1.
    + exact M2.
    + exists d. split; [|exact I]. unfold linear_interp. rewrite <- Ed. f_equal; f_equal; lia.
  - exists out. rewrite Eo. split; [reflexivity|exact D].
Qed.
Lemma dense_like pts F T q l out : good pts -> (forall x, In x (q :: l) -> In x pts) -> dense F T q l out -> like_all q out.
Proof.
  intros G H D. assert (CP : forall x, In x pts -> i_cls (vp_item x) = CDataTimePoint).
  { intros x Hx. destruct (good_numeric pts x G Hx) as [[K|K] _]; [exact K|]. destruct G as (_ & (G2 & _) & _). specialize (G2 (vp_item x) (in_map _ _ _ Hx)). unfold is_point in G2. rewrite K in G2. discriminate. }
  assert (Hq : In q pts) by (apply H; left; reflexivity).
  assert (K : forall x, In x pts -> like q x).
  { intros x Hx. split; [apply (good_numeric pts); assumption|split; [intros lb; split; apply (good_labels pts); assumption|split; [rewrite !CP by assumption; reflexivity|apply G; exact Hx]]]. }
  intros x [<- |Hx]; [apply K; exact Hq|]. destruct (dense_in F T q l out D x Hx) as [Hl|(k & a & b & d & Ha & Hb & Lg & I & ->)]; [apply K, H; right; exact Hl|].
  apply nth_error_In in Ha. apply H in Ha. destruct (K a Ha) as (K1 & K2 & K3 & K4).
  destruct (gap_item_numeric (vp_item a) (vp_item b) (gap_mid F T a b) d (gap_from F a) (gap_to T b) K1 I) as (M1 & M2 & (m & ->)).
  split; [exact M1|split; [intros lb; rewrite M2; apply K2|split; [rewrite (CP q Hq); reflexivity|eexists; reflexivity]]].
Qed.

Section ComputeSlot.
Variables (P : tparams) (s : series) (names : list string) (auto : result Qc) (si : Qc) (force : bool).
Variables (pts : list vpoint) (F T : Qc) (A r C : list vpoint) (p z : vpoint).
Hypothesis HI : tp_interp P = linear_interp.
Hypothesis HT : tp_target P = TSlots.
Hypothesis OF : forall o, In o (tp_ops P) -> op_fine o.
Hypothesis ON : tp_ops P <> [].
Hypothesis HS : Qclt q0 si.
Hypothesis HP : placed pts.
Hypothesis G : good pts.
Hypothesis E : pts = A ++ p :: r ++ z :: C.
Hypothesis W : window F T A p r z C.
Hypothesis L : Qclt F T.

(* the points of the slot: none, or those from position first to position last *)
Definition slot_case (first last prev : option nat) (ins : list vpoint) : Prop :=
  (first = None /\ last = None /\ prev = Some (length A) /\ ins = [] /\ r = [] /\ forall q, In q pts -> prior_loss q = q0) \/
  (prev = None /\ first = Some (length A) /\ last = Some (length A + length r) /\ ins = p :: r /\ Qcle F (tm p)) \/
  (prev = Some (length A) /\ first = Some (S (length A)) /\ last = Some (length A + length r) /\ ins = r /\ r <> []).

(* the values are computed on the points as they are *)
Definition clean (ins : list vpoint) : Prop := ins <> [] \/ covered_length pts F T = q0.
(* what the operations with weights, and the others, are applied to *)
Definition views (ins ext view : list vpoint) : Prop :=
  (exists out, ext = map (weigh F T) (p :: out) /\ dense F T p (r ++ [z]) out /\
     (ins = [] -> exists d, interpolated (vp_item p) (vp_item z) (gap_mid F T p z) d /\ Qclt (vp_to p) (vp_from z) /\
                    view = [weigh F T (gap_point (gap_mid F T p z) d (gap_from F p) (gap_to T z))])) /\
  (ins <> [] -> exists q l out, ins = q :: l /\ view = weigh F T q :: out /\ dense F T (weigh F T q) (map (weigh F T) l) out).

Lemma like_self q : In q pts -> like q q.
Proof. intros H. split; [apply (good_numeric pts); assumption|split; [reflexivity|split; [reflexivity|apply G; exact H]]]. Qed.
Lemma point_weights_sum l : total_weight (map vp_item (map (weigh F T) l)) = total (map (point_weight F T) l).
Proof. rewrite total_weight_eq, !map_map. reflexivity. Qed.
Lemma point_weights_all l : weighted (map vp_item (map (weigh F T) l)) = true.
Proof. unfold weighted. apply forallb_forall. intros y Hy. apply in_map_iff in Hy. destruct Hy as (q & <- & Hq). apply in_map_iff in Hq. destruct Hq as (q' & <- & _). reflexivity. Qed.
Lemma loss_one : loss_of pts F T = q1 <-> covered_length pts F T = q0.
Proof.
  assert (N : Qcminus T F <> q0) by (intros X; apply (Qclt_not_eq _ _ L); qlra). unfold loss_of. split.
  - intros H. assert (K : Qcdiv (covered_length pts F T) (Qcminus T F) = q0) by qlra. apply (mul_cancel _ _ (Qcdiv q1 (Qcminus T F))).
    + intros X. assert (Y : Qcmult (Qcdiv q1 (Qcminus T F)) (Qcminus T F) = q1) by (field; exact N). rewrite X in Y. rewrite q0_eq, q1_eq in Y. apply (q1_neq_q0). rewrite q1_eq, q0_eq, <- Y. ring.
    + transitivity (Qcdiv (covered_length pts F T) (Qcminus T F)); [rewrite q1_eq; field; exact N|]. rewrite K, q0_eq. ring.
  - intros ->. rewrite q0_eq, q1_eq. field. exact N.
Qed.

Lemma zero_item_like labels lbs tz t : NoDup labels -> labels <> [] -> lbs = dict_of (map (fun lb => (lb, q0)) labels) ->
  let v := mkVp (mkItem CDataTimePoint t t (UPhys q0) tz (Some (DDict lbs)) [] None) t t false in
  like_all v [] /\ forall lb, has_label (vp_item v) lb <-> In lb labels.
Proof.
  intros N N0 El v. assert (K : map fst lbs = labels).
  { rewrite El, dict_of_NoDup; rewrite map_map; cbn [fst]; rewrite map_id; [reflexivity|exact N]. }
  clear El. split.
  - intros x [<- |[]]. split; [|split; [reflexivity|split; [reflexivity|exists lbs; reflexivity]]]. split; [left; reflexivity|]. cbn. split; [|rewrite K; exact N].
    intros X. rewrite X in K. cbn in K. congruence.
  - intros lb. rewrite (dict_label (vp_item v) lbs lb eq_refl). rewrite K. reflexivity.
Qed.

Lemma slot_points_ok ev labels tz loss first last prev ins out :
  ev = (fun t pi ni => linear_interp (src_series s pts) t pi ni) ->
  slot_case first last prev ins -> dense F T p (r ++ [z]) out -> NoDup labels -> (forall lb, In lb labels <-> has_label (vp_item p) lb) ->
  ((forall q, In q pts -> prior_loss q = q0) -> loss = loss_of pts F T) ->
  exists ext2 v0 view', slot_points ev F T labels tz loss (A ++ map (weigh F T) (p :: r ++ [z]) ++ C) (map (weigh F T) (p :: out)) first last = Ok (ext2, v0 :: view') /\
    Forall2 keeps ext2 (map (weigh F T) (p :: out)) /\ map (fun p => i_weight (vp_item p)) ext2 = map (fun p => i_weight (vp_item p)) (map (weigh F T) (p :: out)) /\
    like_all v0 view' /\ (forall lb, has_label (vp_item v0) lb <-> has_label (vp_item p) lb) /\
    (clean ins -> ext2 = map (weigh F T) (p :: out) /\ views ins (map (weigh F T) (p :: out)) (v0 :: view')).
Proof.
  intros Eev SC D ND Hlab Hloss.
  assert (N : Qcminus T F <> q0) by (intros X; apply (Qclt_not_eq _ _ L); qlra).
  assert (Hlike : forall x, In x (p :: out) -> like p x) by (intros x Hx; apply (ext_items pts F T A r C p z G E out D x Hx)).
  assert (Hlike1 : forall x, In x (map (weigh F T) (p :: out)) -> like p x) by (apply like_weigh; exact Hlike).
  assert (F2self : Forall2 keeps (map (weigh F T) (p :: out)) (map (weigh F T) (p :: out))).
  { assert (K : forall l, (forall x, In x l -> like p x) -> Forall2 keeps l l) by (induction l as [|x l IH]; intros Hl; constructor; [apply keeps_refl; apply (Hl x); left; reflexivity|apply IH; intros; apply Hl; right; assumption]). apply K. exact Hlike1. }
  assert (In_ext : forall q, In q (p :: r ++ [z]) -> In q pts) by (apply (ext_in pts A r C p z E)).
  assert (Hz : In z pts) by (apply In_ext; right; apply in_app_iff; right; left; reflexivity).
  destruct SC as [(-> & -> & -> & -> & Er & Hpr)|SC].
  - specialize (Hloss Hpr). cbn [slot_points]. destruct (qeqb_spec loss q1) as [K1|K1].
    + (* the slot is in a gap *)
      assert (Cov : covered_length pts F T = q0) by (apply loss_one; congruence).
      pose proof (ext_weights pts F T A r C p z HP E W L out D) as TW.
      pose proof (ext_coverage pts F T A r C p z HP E W L out D) as _.
      pose proof D as D2. rewrite Er in D2. cbn [app] in D2. inversion D2 as [|p1 q1' r1 d out1 Lg I D3|p1 q1' r1 out1 Lg D3]; subst.
      * inversion D3; subst. cbn [map filter].
        destruct (placed_in _ p HP (In_ext p (or_introl eq_refl))) as (Ip & _). destruct (placed_in _ z HP Hz) as (Iz & _).
        cbn [vp_interp weigh vp_set gap_point]. rewrite Ip, Iz. cbv iota. eexists _, _, _. split; [reflexivity|]. split; [exact F2self|split; [reflexivity|]].
        assert (Hin : In (weigh F T (gap_point (gap_mid F T p z) d (gap_from F p) (gap_to T z))) (map (weigh F T) [p; gap_point (gap_mid F T p z) d (gap_from F p) (gap_to T z); z])) by (right; left; reflexivity).
        pose proof (Hlike1 _ Hin) as (Q1 & Q2 & Q3 & Q4).
        split; [intros x [<- |[]]; split; [exact Q1|split; [reflexivity|split; [reflexivity|exact Q4]]]|]. split; [exact Q2|].
        intros _. split; [reflexivity|]. split; [|congruence]. exists [gap_point (gap_mid F T p z) d (gap_from F p) (gap_to T z); z]. split; [reflexivity|]. split; [exact D|]. intros _. exists d. split; [exact I|split; [exact Lg|reflexivity]].
      * exfalso. inversion D3; subst. cbn [map total] in TW.
        rewrite placed_covered in Cov by exact HP. rewrite (win_total _ A [] C p z eq_refl (ov F T)) in Cov.
        2: apply (win_ov_A _ F T A [] C p z HP eq_refl W). 2: apply (win_ov_C _ F T A [] C p z HP eq_refl W). cbn [map total app] in Cov.
        destruct (placed_in _ p HP (In_ext p (or_introl eq_refl))) as (_ & _ & _ & Pp). destruct (placed_in _ z HP Hz) as (_ & _ & _ & Pz).
        rewrite !point_weight_ov in TW by assumption. apply q1_neq_q0. rewrite <- TW.
        transitivity (Qcdiv (Qcplus (ov F T p) (Qcplus (ov F T z) q0)) (Qcminus T F)); [rewrite q0_eq; field; exact N|]. rewrite Cov. rewrite q0_eq. field. exact N.
    + destruct (inflate_all labels (map (weigh F T) (p :: out))) as (l' & El & Kl & Wl).
      { intros x Hx. destruct (Hlike1 x Hx) as (_ & Q2 & _ & Q4). split; [exact Q4|]. intros lb Hlb. apply Q2, Hlab, Hlb. }
      rewrite El. cbn [bind]. eexists l', _, _. split; [reflexivity|]. split; [exact Kl|split; [exact Wl|]].
      destruct (zero_item_like labels (dict_of (map (fun lb : string => (lb, q0)) labels)) tz (qhalf (Qcminus T F)) ND) as [Z1 Z2]; [|reflexivity|].
      { intros ->. pose proof (item_labels_nonempty (vp_item p)) as X. assert (Np : numeric_item (vp_item p)) by (apply (good_numeric pts); [exact G|apply In_ext; left; reflexivity]).
        specialize (X Np). destruct (item_labels (vp_item p)) as [|lb ls] eqn:El2; [congruence|]. apply (proj2 (Hlab lb)). apply item_labels_In. rewrite El2. left. reflexivity. }
      split; [exact Z1|split; [intros lb; rewrite Z2; apply Hlab|]]. intros [X|X]; [congruence|]. exfalso. apply K1. rewrite Hloss. apply loss_one. exact X.
  - (* with points *)
    assert (Hinner : exists f A' q l C', first = Some f /\ last = Some (f + length l) /\ ins = q :: l /\ pts = A' ++ (q :: l) ++ C' /\ f = length A' /\
        (exists A1 C1, A ++ map (weigh F T) (p :: r ++ [z]) ++ C = A1 ++ map (weigh F T) (q :: l) ++ C1 /\ length A1 = length A') /\ (forall x, In x (q :: l) -> Qcle F (tm x) /\ Qclt (tm x) T)).
    { destruct W as (W1 & W2 & W3). destruct SC as [(_ & -> & -> & -> & Fp)|(_ & -> & -> & -> & Nr)].
      - exists (length A), A, p, r, (z :: C). split; [reflexivity|split; [reflexivity|split; [reflexivity|split; [rewrite E; cbn; reflexivity|split; [reflexivity|split]]]]].
        + exists A, (weigh F T z :: C). split; [|reflexivity]. cbn [map app]. rewrite map_app, <- app_assoc. reflexivity.
        + intros x [<- |Hx]; [split; [exact Fp|qlra]|apply W2; exact Hx].
      - destruct r as [|q l]; [congruence|]. exists (S (length A)), (A ++ [p]), q, l, (z :: C). split; [reflexivity|split; [cbn [length]; f_equal; lia|split; [reflexivity|split; [rewrite E, <- app_assoc; reflexivity|split; [rewrite app_length; cbn; lia|split]]]]].
        + exists (A ++ [weigh F T p]), (weigh F T z :: C). split; [|rewrite !app_length; reflexivity]. cbn [map app]. rewrite map_app, <- !app_assoc. reflexivity.
        + exact W2. }
    destruct Hinner as (f & A' & q & l & C' & -> & -> & -> & Ep & -> & (A1 & C1 & Ew & Ea) & Hin). cbn [slot_points].
    rewrite Ew, Eev. destruct (inner_view s pts F T A' q l C' A1 C1 HP G L Ep Ea Hin) as (o2 & Eo2 & D2).
    replace (S (length A' + length l)) with (length A' + S (length l)) by lia. rewrite Eo2. cbn [bind]. eexists _, _, _. split; [reflexivity|]. split; [exact F2self|split; [reflexivity|]].
    assert (Hq : In q pts) by (rewrite Ep; apply in_app_iff; right; left; reflexivity). assert (Hp : In p pts) by (apply In_ext; left; reflexivity).
    split.
    + apply (dense_like (A1 ++ map (weigh F T) (q :: l) ++ C1) F T (weigh F T q) (map (weigh F T) l) o2).
      * rewrite <- Ew. apply (keeps_good _ pts); [|exact G]. apply unweigh_F2; [|exact G]. rewrite E. rewrite !map_app, map_map. f_equal.
        change (map unweigh (p :: r ++ z :: C)) with (map unweigh ((p :: r) ++ [z] ++ C)). rewrite (app_assoc (p :: r)). rewrite (map_app _ ((p :: r) ++ [z]) C). reflexivity.
      * intros x Hx. apply in_app_iff. right. apply in_app_iff. left. exact Hx.
      * exact D2.
    + split; [intros lb; split; [exact (good_labels pts q p lb G Hq Hp)|exact (good_labels pts p q lb G Hp Hq)]|]. intros _. split; [reflexivity|]. split; [|intros _; exists q, l, o2; auto].
      exists out. split; [reflexivity|split; [exact D|]]. intros X. discriminate X.
Qed.

Lemma compute_slot first last prev ins : slot_case first last prev ins ->
  exists pts' x loss d, compute_new P s names auto si force pts F T first last prev (length A + S (length r)) = Ok (pts', x) /\
    Forall2 keeps pts' pts /\ (clean ins -> map unweigh pts' = map unweigh pts) /\
    x = mkItem CDataTimeSlot F T (tp_unit P) (tz_of s) (Some (DDict d)) (i_idx x) None /\
    d <> [] /\ NoDup (map fst d) /\ (forall k, In k (map fst d) <-> exists lb o, has_label (vp_item p) lb /\ In o (tp_ops P) /\ k = slot_key lb o) /\
    data_loss x = Some (match tp_force P with Some f => f | None => loss end) /\
    ((forall q, In q pts -> prior_loss q = q0) -> loss = loss_of pts F T) /\
    (tp_fill P = None -> clean ins -> exists ext view, views ins ext view /\ forall k v, In (k, v) d -> exists o lb rd, In o (tp_ops P) /\ k = slot_key lb o /\
       o_run o (view_series (if o_weights o then ext else view)) = Ok (ODict rd) /\ In (lb, v) rd) /\ indexes_are names F T pts x.
Proof.
  intros SC. unfold compute_new. rewrite HI, HT.
  assert (Hfrom : (match prev with Some i => Some i | None => first end) = Some (length A)) by (destruct SC as [(-> & -> & -> & _)|[(-> & -> & _)|(-> & -> & _)]]; reflexivity).
  rewrite Hfrom. clear Hfrom.
  destruct (labels_of_ok (src_series s pts)) as (x0 & l0 & E0 & Lb); [apply src_ref, G|rewrite src_items; apply G|]. rewrite Lb. cbn [bind].
  destruct (ext_view_ok s pts F T A r C p z HP G E W L) as (out & Eo & D). rewrite Eo. cbn [bind].
  assert (Hlike : forall x, In x (p :: out) -> like p x) by (intros x Hx; apply (ext_items pts F T A r C p z G E out D x Hx)).
  destruct (data_loss_view pts (p :: out) F T si (match s_res s with Some _ => true | None => false end) force auto L HS) as (loss & El & Hl).
  { apply (ext_coverage pts F T A r C p z HP E W L out D). }
  rewrite El. cbn [bind].
  assert (Hloss : (forall q, In q pts -> prior_loss q = q0) -> loss = loss_of pts F T).
  { intros Hpr. apply Hl. intros x Hx. destruct Hx as [<- |Hx]; [apply Hpr; rewrite E; apply in_app_iff; right; left; reflexivity|].
    destruct (dense_in F T p (r ++ [z]) out D x Hx) as [K|(k & a & b & d & _ & _ & _ & _ & ->)]; [|reflexivity]. apply Hpr. apply (ext_in pts A r C p z E). right. exact K. }
  rewrite src_items in E0. assert (Hx0 : In x0 (map vp_item pts)) by (rewrite E0; left; reflexivity).
  apply in_map_iff in Hx0. destruct Hx0 as (q0' & Eq0 & Hq0).
  assert (Hp : In p pts) by (rewrite E; apply in_app_iff; right; left; reflexivity).
  assert (Hlab : forall lb, In lb (item_labels x0) <-> has_label (vp_item p) lb).
  { intros lb. rewrite item_labels_In, <- Eq0. split; apply (good_labels pts); assumption. }
  assert (ND : NoDup (item_labels x0)) by (apply item_labels_NoDup; rewrite <- Eq0; apply (good_numeric pts); assumption).
  pose proof (ext_measured pts F T A r C p z HP E out D) as Em.
  rewrite (put_back_weigh F T A p r z C) by assumption.
  destruct (slot_points_ok (fun t pi ni => linear_interp (src_series s pts) t pi ni) (item_labels x0) (tz_of s) loss first last prev ins out eq_refl SC D ND Hlab Hloss)
    as (ext2 & v0 & view' & Es & K2 & W2 & Lv & Hv & Cl).
  fold (tz_of s). rewrite Es. cbn [bind].
  assert (Ext2 : exists p2 e2, ext2 = p2 :: e2 /\ keeps p2 (weigh F T p)) by (cbn [map] in K2; inversion K2; subst; eauto). destruct Ext2 as (p2 & e2 & Ee2 & Kp2).
  assert (Hlike1 : forall x, In x (map (weigh F T) (p :: out)) -> like p x) by (apply like_weigh; exact Hlike).
  assert (Lab2 : forall lb, has_label (vp_item p2) lb <-> has_label (vp_item p) lb) by (intros lb; rewrite (keeps_label _ _ lb Kp2); reflexivity).
  destruct (slot_data_ok (tp_ops P) (item_labels x0) ext2 (v0 :: view') p2 v0 e2 view' OF Ee2 eq_refl) with (fill := tp_fill P) (loss := loss) as (d & Ed & Dn & Dnd & Dk & Dv).
  - intros x Hx. rewrite <- Ee2 in Hx. destruct (F2_in _ _ _ _ K2 Hx) as (y & Hy & Kxy). destruct (Hlike1 y Hy) as (Q1 & Q2 & Q3 & Q4).
    split; [apply (keeps_numeric x y Kxy Q1)|split; [intros lb; rewrite (keeps_label _ _ lb Kxy), Q2, Lab2; reflexivity|split]].
    + destruct Kxy as (S1 & _). destruct Kp2 as (S2 & _). apply skel_eq in S1, S2. destruct S1 as (-> & _), S2 as (-> & _). exact Q3.
    + destruct Kxy as (_ & d1 & d2 & _ & X & _). exists d2. exact X.
  - exact Lv.
  - split.
    + unfold weighted. assert (X : forall l' l, map (fun p => i_weight (vp_item p)) l' = map (fun p => i_weight (vp_item p)) l -> weighted (map vp_item l) = true -> weighted (map vp_item l') = true).
      { induction l' as [|a l' IH]; intros [|b l] X1 X2; try discriminate; [reflexivity|]. cbn in X1. injection X1 as X1 X3. cbn in *. rewrite X1. apply andb_true_iff in X2. destruct X2 as [X2 X4]. rewrite X2. cbn. apply (IH l); assumption. }
      apply (X _ _ W2). apply point_weights_all.
    + rewrite total_weight_eq, map_map. rewrite <- (ext_weights pts F T A r C p z HP E W L out D). rewrite <- point_weights_sum, total_weight_eq, map_map. f_equal.
      assert (X : forall l, map (fun x => weight_of (vp_item x)) l = map (fun w => match w with Some w => w | None => q0 end) (map (fun p => i_weight (vp_item p)) l)) by (intros l; rewrite map_map; reflexivity).
      rewrite !X, W2. reflexivity.
  - intros lb. rewrite Hlab. symmetry. apply Lab2.
  - intros lb. rewrite Hv, Lab2. reflexivity.
  - exact ON.
  - rewrite Ed. cbn [bind]. destruct d as [|dd d]; [congruence|]. set (D0 := dd :: d) in *.
    assert (K3 : Forall2 keeps (filter (fun p => negb (vp_interp p)) ext2) (p :: r ++ [z])).
    { rewrite <- Em. apply F2_filter in K2. eapply F2_trans; [exact K2|]. clear - Hlike.
      assert (K : forall l, (forall x, In x l -> like p x) -> Forall2 keeps (map (weigh F T) l) l) by (induction l as [|x l IH]; intros Hl; constructor; [apply keeps_weigh; apply (Hl x); left; reflexivity|apply IH; intros; apply Hl; right; assumption]).
      apply F2_filter. apply K. exact Hlike. }
    assert (Hput : put_back (A ++ map (weigh F T) (p :: r ++ [z]) ++ C) (length A) (S (length A + S (length r))) ext2 = A ++ filter (fun p => negb (vp_interp p)) ext2 ++ C).
    { replace (S (length A + S (length r))) with (length A + S (S (length r))) by lia. unfold put_back. rewrite firstn_app, firstn_all, Nat.sub_diag. cbn [firstn]. rewrite app_nil_r. f_equal. f_equal.
      rewrite skipn_app, skipn_all2 by lia. cbn [app]. replace (length A + S (S (length r)) - length A) with (S (S (length r))) by lia.
      rewrite skipn_app, skipn_all2 by (rewrite map_length; cbn [length]; rewrite app_length; cbn; lia). rewrite map_length. cbn [length]. rewrite app_length. cbn [length]. replace (S (S (length r)) - S (length r + 1)) with 0 by lia. reflexivity. }
    eexists _, _, loss, D0. split; [reflexivity|]. rewrite Hput. split; [|split; [|split; [reflexivity|split; [exact Dn|split; [exact Dnd|split; [|split; [|split; [exact Hloss|split]]]]]]]].
    + rewrite E. apply Forall2_app; [|change (p :: r ++ z :: C) with ((p :: r) ++ [z] ++ C); rewrite app_assoc; apply Forall2_app; [exact K3|]].
      * assert (GA : forall x, In x A -> exists d, i_data (vp_item x) = Some (DDict d)) by (intros x Hx; apply G; rewrite E; apply in_app_iff; left; exact Hx).
        clear - GA. induction A as [|x l IH]; constructor; [apply keeps_refl, GA; left; reflexivity|apply IH; intros; apply GA; right; assumption].
      * assert (GC : forall x, In x C -> exists d, i_data (vp_item x) = Some (DDict d)) by (intros x Hx; apply G; rewrite E; apply in_app_iff; right; right; apply in_app_iff; right; right; exact Hx).
        clear - GC. induction C as [|x l IH]; constructor; [apply keeps_refl, GC; left; reflexivity|apply IH; intros; apply GC; right; assumption].
    + intros Hc. destruct (Cl Hc) as [-> _].
      assert (X : filter (fun p => negb (vp_interp p)) (map (weigh F T) (p :: out)) = map (weigh F T) (p :: r ++ [z])).
      { rewrite <- Em. clear. induction (p :: out) as [|x l IH]; [reflexivity|]. cbn [map filter]. change (vp_interp (weigh F T x)) with (vp_interp x). destruct (negb (vp_interp x)); cbn [map]; rewrite IH; reflexivity. }
      rewrite X, E. rewrite !map_app, map_map. f_equal.
      change (map unweigh (p :: r ++ z :: C)) with (map unweigh ((p :: r) ++ [z] ++ C)). rewrite (app_assoc (p :: r)). rewrite (map_app _ ((p :: r) ++ [z]) C). reflexivity.
    + intros k. rewrite Dk. split; intros (lb & o & X1 & X2); exists lb, o; (split; [apply Hlab; exact X1|exact X2]).
    + unfold data_loss. cbn [i_idx]. rewrite dget_new_indexes. reflexivity.
    + intros Hf Hc. destruct (Cl Hc) as [E2 V]. exists ext2, (v0 :: view'). split; [rewrite E2; exact V|]. intros k v Hkv. exact (Dv Hf k v Hkv).
    + intros ix N. destruct (dget_new_indexes_other names ext2 (match tp_force P with Some f => f | None => loss end) ix N) as [N1 N2]. cbn [i_idx]. split; [|exact N2]. intros Ii. rewrite (N1 Ii). f_equal.
      rewrite <- (index_ext F T pts A r C p z HP E W L out D ix). apply index_value_eq. clear - K2 W2. revert W2. induction K2 as [|a b l l' [Sk _] K2 IH]; intros W2; [reflexivity|]. cbn [map] in W2 |- *. injection W2 as W0 W2. rewrite (IH W2), W0. apply skel_eq in Sk. destruct Sk as (_ & _ & _ & _ & _ & ->). reflexivity.
Qed.
End ComputeSlot.
