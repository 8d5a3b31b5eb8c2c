(* TransformProofs9.v -- the items of an aggregation. *)
From Verif Require Import SpecTransform SpecIntervals BaseLemmas AccessProofs AccessProofs3 DictLemmas OpsProofs OpsProofs2 OpsProofs3
  IntervalsProofs IntervalsProofs2 IntervalsProofs3 InterpProofs Transform TransformProofs TransformProofs2 TransformProofs3 TransformProofs4 TransformProofs5 TransformProofs6 TransformProofs7 TransformProofs8.

Section Values.
Variables (pts : list vpoint) (F T : Qc) (A r C : list vpoint) (p z : vpoint).
Hypothesis HP : placed pts.
Hypothesis G : good pts.
Hypothesis E : pts = A ++ p :: r ++ z :: C.
Hypothesis W : window F T A p r z C.
Hypothesis L : Qclt F T.

Lemma win_points q : In q pts -> Qcle F (tm q) -> Qclt (tm q) T -> q = p \/ In q r.
Proof.
  intros Hq H1 H2. destruct W as (W1 & W2 & W3). rewrite E in Hq. apply win_in in Hq. destruct Hq as [Hq|[Hq|[Hq|[Hq|Hq]]]]; auto; exfalso.
  - pose proof HP as H. rewrite E in H. destruct (placed_mid _ _ _ H) as [K _]. destruct (K q Hq) as [_ K1]. qlra.
  - subst. qlra.
  - pose proof HP as H. rewrite (win_split pts A r C p z E) in H. destruct (placed_mid _ _ _ H) as [_ K]. destruct (K q Hq) as [_ K1]. qlra.
Qed.
Definition inside_slot (q : vpoint) : bool := (qleb F (tm q) && qltb (tm q) T)%bool.
Lemma filter_none {B} (f : B -> bool) l : (forall x, In x l -> f x = false) -> filter f l = [].
Proof. induction l as [|x l IH]; intros H; [reflexivity|]. cbn. rewrite (H x (or_introl eq_refl)). apply IH. auto using in_cons. Qed.
Lemma filter_all {B} (f : B -> bool) l : (forall x, In x l -> f x = true) -> filter f l = l.
Proof. induction l as [|x l IH]; intros H; [reflexivity|]. cbn. rewrite (H x (or_introl eq_refl)). f_equal. apply IH. auto using in_cons. Qed.
Lemma inside_points : filter inside_slot pts = (if qleb F (tm p) then [p] else []) ++ r.
Proof.
  destruct W as (W1 & W2 & W3). assert (HA : forall q, In q A -> inside_slot q = false).
  { intros q Hq. unfold inside_slot. pose proof HP as H. rewrite E in H. destruct (placed_mid _ _ _ H) as [K _]. destruct (K q Hq) as [_ K1]. rewrite qleb_false by qlra. reflexivity. }
  assert (HC : forall q, In q (z :: C) -> inside_slot q = false).
  { intros q Hq. unfold inside_slot. rewrite andb_comm. rewrite qltb_false; [reflexivity|]. destruct Hq as [<- |Hq]; [exact W3|].
    pose proof HP as H. rewrite (win_split pts A r C p z E) in H. destruct (placed_mid _ _ _ H) as [_ K]. destruct (K q Hq) as [_ K1]. qlra. }
  rewrite E, filter_app, (filter_none inside_slot A HA). cbn [app filter]. rewrite filter_app, (filter_none inside_slot (z :: C) HC), app_nil_r.
  rewrite (filter_all inside_slot r) by (intros x Hx; unfold inside_slot; destruct (W2 x Hx) as [Q1 Q2]; rewrite qleb_true, qltb_true by assumption; reflexivity).
  unfold inside_slot. rewrite (qltb_true (tm p) T) by qlra. rewrite andb_true_r. destruct (qleb F (tm p)); reflexivity.
Qed.
End Values.

Lemma dense_nogap F T q l out : dense F T q l out -> (forall k a b, nth_error (q :: l) k = Some a -> nth_error l k = Some b -> Qcle (vp_from b) (vp_to a)) -> out = l.
Proof.
  intros D. induction D as [p|p q r d out Lq I D IH|p q r out Lq D IH]; intros H; [reflexivity| |].
  - exfalso. pose proof (H 0 p q eq_refl eq_refl). qlra.
  - f_equal. apply IH. intros k a b Ha Hb. apply (H (S k)); assumption.
Qed.

(* results which do not depend on the weights *)
Definition weightless (R : string -> list item -> Qc -> Prop) : Prop :=
  forall lb l l' v, map (fun x => set_weight x None) l = map (fun x => set_weight x None) l' -> R lb l v -> R lb l' v.
Lemma map_set_weight_in l l' x' : map (fun x => set_weight x None) l = map (fun x => set_weight x None) l' -> In x' l' -> exists x, In x l /\ set_weight x None = set_weight x' None.
Proof. intros E H. apply (in_map (fun x => set_weight x None)) in H. rewrite <- E in H. apply in_map_iff in H. destruct H as (x & H1 & H2). eauto. Qed.
Lemma weightless_max : weightless is_max.
Proof.
  intros lb l l' v E ((x & Hx & Hv) & H). split.
  - destruct (map_set_weight_in l' l x (eq_sym E) Hx) as (x' & Hx' & Ex). exists x'. split; [exact Hx'|]. apply (set_weight_value x x'); [symmetry; exact Ex|exact Hv].
  - intros x' w Hx' Hw. destruct (map_set_weight_in l l' x' E Hx') as (y & Hy & Ey). apply (H y w Hy). apply (set_weight_value x' y); [symmetry; exact Ey|exact Hw].
Qed.
Lemma weightless_min : weightless is_min.
Proof.
  intros lb l l' v E ((x & Hx & Hv) & H). split.
  - destruct (map_set_weight_in l' l x (eq_sym E) Hx) as (x' & Hx' & Ex). exists x'. split; [exact Hx'|]. apply (set_weight_value x x'); [symmetry; exact Ex|exact Hv].
  - intros x' w Hx' Hw. destruct (map_set_weight_in l l' x' E Hx') as (y & Hy & Ey). apply (H y w Hy). apply (set_weight_value x' y); [symmetry; exact Ey|exact Hw].
Qed.
Lemma weightless_sum : weightless is_total.
Proof.
  intros lb l l' v E ->. unfold is_total. f_equal. assert (X : forall l, map (fun x => valof x lb) l = map (fun x => valof x lb) (map (fun x => set_weight x None) l)) by (intros; rewrite map_map; reflexivity). rewrite (X l), (X l'), E. reflexivity.
Qed.

Definition inside_list (F T : Qc) (pts : list vpoint) : list vpoint := filter (inside_slot F T) pts.
(* no gap between consecutive points of the slot *)
Definition no_gap_in (F T : Qc) (pts : list vpoint) : Prop :=
  forall k a b, nth_error (inside_list F T pts) k = Some a -> nth_error (inside_list F T pts) (S k) = Some b -> Qcle (vp_from b) (vp_to a).
Definition slot_value (pts : list vpoint) (F T : Qc) (o : operation) (lb : string) (v : Qc) : Prop :=
  (o = agg_avg -> v = signal_mean lb F T pts) /\
  (o = agg_avg \/ o = agg_min \/ o = agg_max -> forall m M, bounds_on pts lb m M -> Qcle m v /\ Qcle v M) /\
  (forall R, op_exact o R -> o_weights o = false -> weightless R -> inside_list F T pts <> [] -> no_gap_in F T pts -> R lb (map vp_item (inside_list F T pts)) v).

Section Views.
Variables (pts : list vpoint) (F T : Qc) (A r C : list vpoint) (p z : vpoint).
Hypothesis HP : placed pts.
Hypothesis G : good pts.
Hypothesis E : pts = A ++ p :: r ++ z :: C.
Hypothesis W : window F T A p r z C.
Hypothesis L : Qclt F T.

Lemma dense_bounds q l out lb m M : dense F T q l out -> (forall x, In x (q :: l) -> numeric_item (vp_item x)) ->
  (forall k a b, nth_error (q :: l) k = Some a -> nth_error l k = Some b -> Qclt (tm a) (tm b) /\ Qclt (tm a) T /\ Qcle F (tm b) /\ Qclt (tm a) (vp_to a) /\ Qclt (vp_from b) (tm b)) ->
  bounds_on (q :: l) lb m M -> bounds_on (q :: out) lb m M.
Proof.
  intros D N H B x v [<- |Hx] Hv; [apply (B q); [left; reflexivity|exact Hv]|].
  destruct (dense_in F T q l out D x Hx) as [Hl|(k & a & b & d & Ha & Hb & Lg & I & ->)]; [apply (B x); [right; exact Hl|exact Hv]|].
  destruct (H k a b Ha Hb) as (K1 & K2 & K3 & K4 & K5). destruct (gap_mid_between F T L a b K2 K3 K4 Lg K5) as [M1 M2].
  unfold interpolated, data_by in I. unfold has_value in Hv. cbn in Hv. destruct d as [dl|d]; [destruct I|]. destruct I as (_ & I & _). destruct (I lb v Hv) as (va & vb & Ja & Jb & O).
  destruct (on_line_between _ _ _ _ _ _ K1 (Qclt_le_weak _ _ M1) (Qclt_le_weak _ _ M2) O) as [O1 O2]. apply nth_error_In in Ha, Hb.
  destruct (B a va Ha Ja) as [B1 B2]. destruct (B b vb (or_intror Hb) Jb) as [B3 B4]. split; qmm; qlra.
Qed.

Lemma view_value ins ext view o lb rd v : views F T r p z ins ext view -> inside_list F T pts = ins -> (forall q, In q ins -> In q (p :: r)) ->
  (forall k a b, nth_error ins k = Some a -> nth_error ins (S k) = Some b -> Qclt (tm a) (tm b)) ->
  o_run o (view_series (if o_weights o then ext else view)) = Ok (ODict rd) -> In (lb, v) rd -> slot_value pts F T o lb v.
Proof.
  intros ((out & Eext & D & Vgap) & Vin) Eins Hins Hord Er Hv.
  assert (Hlike : forall x, In x (p :: out) -> like p x) by (intros x Hx; apply (ext_items pts F T A r C p z G E out D x Hx)).
  assert (Wx : total (map (point_weight F T) (p :: out)) = q1) by (apply (ext_weights pts F T A r C p z HP E W L out D)).
  assert (Avg : o = agg_avg -> v = signal_mean lb F T pts /\ has_label (vp_item p) lb).
  { intros ->. cbn [o_weights agg_avg] in Er. rewrite Eext in Er. cbn [o_run agg_avg] in Er. rewrite (op_avg_view F T p out Hlike Wx) in Er. cbn [bind] in Er. injection Er as <-.
    apply in_map_iff in Hv. destruct Hv as (lb' & E1 & E2). injection E1 as -> <-. apply item_labels_In in E2. split; [|exact E2]. apply (ext_mean pts F T A r C p z HP G E W L out D lb E2). }
  assert (Hpts : forall q, In q (p :: r ++ [z]) -> In q pts) by (apply (ext_in pts A r C p z E)).
  assert (Hp : In p pts) by (apply Hpts; left; reflexivity).
  assert (NP : forall q, In q pts -> numeric_item (vp_item q)) by (intros; apply (good_numeric pts); assumption).
  (* the view of the points: dense, like the points, within their bounds *)
  assert (View : exists v0 view', view = v0 :: view' /\ like_all v0 view' /\ (forall lb' m M, bounds_on pts lb' m M -> bounds_on view lb' m M) /\
     (ins <> [] -> no_gap_in F T pts -> map (fun x => set_weight x None) (map vp_item view) = map (fun x => set_weight x None) (map vp_item ins))).
  { destruct ins as [|q l].
    - destruct (Vgap eq_refl) as (d & I & Lg & ->). exists (weigh F T (gap_point (gap_mid F T p z) d (gap_from F p) (gap_to T z))), []. split; [reflexivity|].
      destruct (placed_in pts p HP Hp) as (_ & _ & P2 & _). assert (Hz : In z pts) by (apply Hpts; right; apply in_app_iff; right; left; reflexivity). destruct (placed_in pts z HP Hz) as (_ & Z1 & _ & _).
      destruct (gap_item_numeric (vp_item p) (vp_item z) (gap_mid F T p z) d (gap_from F p) (gap_to T z) (NP p Hp) I) as (M1 & M2 & (m & ->)).
      split; [intros x [<- |[]]; split; [exact M1|split; [reflexivity|split; [reflexivity|eexists; reflexivity]]]|]. split; [|congruence].
      intros lb' m' M' B x w [<- |[]] Hw. destruct W as (W1 & _ & W3). destruct (gap_mid_between F T L p z) as [G1 G2]; try assumption; try qlra.
      destruct I as (_ & I & _). destruct (I lb' w Hw) as (va & vb & Ja & Jb & O).
      assert (Lpz : Qclt (tm p) (tm z)) by qlra. destruct (on_line_between _ _ _ _ _ _ Lpz (Qclt_le_weak _ _ G1) (Qclt_le_weak _ _ G2) O) as [O1 O2].
      destruct (B p va Hp Ja) as [B1 B2]. destruct (B z vb Hz Jb) as [B3 B4]. split; qmm; qlra.
    - destruct (Vin ltac:(discriminate)) as (q1' & l1 & o2 & Eq & -> & D2). injection Eq as <- <-. exists (weigh F T q), o2. split; [reflexivity|].
      assert (Iq : forall x, In x (q :: l) -> In x pts /\ Qcle F (tm x) /\ Qclt (tm x) T).
      { intros x Hx. split; [apply Hpts; destruct (Hins x Hx) as [K|K]; [left; exact K|right; apply in_app_iff; left; exact K]|]. rewrite <- Eins in Hx. unfold inside_list in Hx. apply filter_In in Hx. destruct Hx as [_ Hx]. unfold inside_slot in Hx. apply andb_true_iff in Hx.
        destruct Hx as [X1 X2]. destruct (qleb_spec F (tm x)); [|discriminate]. destruct (qltb_spec (tm x) T); [|discriminate]. auto. }
      assert (Lw : like_all (weigh F T q) o2).
      { assert (Gw : good (map (weigh F T) pts)) by (apply (keeps_good _ pts); [|exact G]; apply unweigh_F2; [rewrite map_map; reflexivity|exact G]).
        apply (dense_like (map (weigh F T) pts) F T (weigh F T q) (map (weigh F T) l) o2 Gw); [|exact D2]. change (weigh F T q :: map (weigh F T) l) with (map (weigh F T) (q :: l)).
        intros x Hx. apply in_map_iff in Hx. destruct Hx as (y & <- & Hy). apply in_map. apply Iq. exact Hy. }
      split; [exact Lw|]. split.
      + intros lb' m M B. apply (dense_bounds (weigh F T q) (map (weigh F T) l) o2); [exact D2| | |].
        * change (weigh F T q :: map (weigh F T) l) with (map (weigh F T) (q :: l)). intros x Hx. apply in_map_iff in Hx. destruct Hx as (y & <- & Hy). apply (NP y). apply Iq. exact Hy.
        * intros k a' b' Ha Hb. change (weigh F T q :: map (weigh F T) l) with (map (weigh F T) (q :: l)) in Ha. rewrite nth_error_map in Ha, Hb.
          destruct (nth_error (q :: l) k) as [a|] eqn:Ea; [|discriminate]. destruct (nth_error l k) as [b|] eqn:Eb; [|discriminate]. injection Ha as <-. injection Hb as <-.
          pose proof (Hord k a b Ea Eb) as K1. apply nth_error_In in Ea, Eb. destruct (Iq a Ea) as (A1 & A2 & A3), (Iq b (or_intror Eb)) as (B1 & B2 & B3).
          destruct (placed_in pts a HP A1) as (_ & _ & P2 & _). destruct (placed_in pts b HP B1) as (_ & P3 & _). exact (conj K1 (conj A3 (conj B2 (conj P2 P3)))).
        * change (weigh F T q :: map (weigh F T) l) with (map (weigh F T) (q :: l)). intros x w Hx Hw. apply in_map_iff in Hx. destruct Hx as (y & <- & Hy). apply (B y w); [apply Iq; exact Hy|exact Hw].
      + intros _ NG. assert (Eo : o2 = map (weigh F T) l).
        { apply (dense_nogap F T (weigh F T q)); [exact D2|]. intros k a' b' Ha Hb. change (weigh F T q :: map (weigh F T) l) with (map (weigh F T) (q :: l)) in Ha. rewrite nth_error_map in Ha, Hb.
          destruct (nth_error (q :: l) k) as [a|] eqn:Ea; [|discriminate]. destruct (nth_error l k) as [b|] eqn:Eb; [|discriminate]. injection Ha as <-. injection Hb as <-. unfold no_gap_in in NG. rewrite Eins in NG. exact (NG k a b Ea Eb). }
        rewrite Eo. change (weigh F T q :: map (weigh F T) l) with (map (weigh F T) (q :: l)). rewrite !map_map. reflexivity. }
  destruct View as (v0 & view' & Ev & Lv & Bv & Xv).
  split; [intros Ho; apply Avg; exact Ho|split].
  - intros [Ho|[Ho|Ho]] m M B.
    + destruct (Avg Ho) as [-> Hl]. apply (mean_bounds pts F T A r C p z HP G E W L out D lb m M Hl B).
    + subst o. destruct (min_exact v0 view' Lv) as (d & Ed & _ & _ & Rd); [discriminate|]. cbn [o_weights agg_min] in Er. rewrite Ev in Er. rewrite Ed in Er. injection Er as ->.
      destruct (Rd lb v Hv) as ((x & Hx & Hxv) & _). apply in_map_iff in Hx. destruct Hx as (y & <- & Hy). rewrite <- Ev in Hy. apply (Bv lb m M B y v Hy Hxv).
    + subst o. destruct (max_exact v0 view' Lv) as (d & Ed & _ & _ & Rd); [discriminate|]. cbn [o_weights agg_max] in Er. rewrite Ev in Er. rewrite Ed in Er. injection Er as ->.
      destruct (Rd lb v Hv) as ((x & Hx & Hxv) & _). apply in_map_iff in Hx. destruct Hx as (y & <- & Hy). rewrite <- Ev in Hy. apply (Bv lb m M B y v Hy Hxv).
  - intros R XR Wo WR Ni NG. rewrite Wo, Ev in Er. destruct (XR v0 view' Lv) as (d & Ed & _ & _ & Rd); [intros X; congruence|]. rewrite Ed in Er. injection Er as ->.
    specialize (Rd lb v Hv). rewrite <- Ev in Rd. rewrite Eins in *. apply (WR lb (map vp_item view)); [|exact Rd]. apply Xv; assumption.
Qed.
End Views.

Section Slots.
Variables (P : tparams) (s : series) (names : list string) (auto : result Qc) (si from : Qc) (pts0 : list vpoint).
Let g := grid (tp_cal P) (tp_unit P) from.
Let ts := map tm pts0.
Hypothesis HI : tp_interp P = linear_interp.
Hypothesis HT : tp_target P = TSlots.
Hypothesis OF : forall o, In o (tp_ops P) -> op_fine o.
Hypothesis ON : tp_ops P <> [].
Hypothesis Hinc : forall t, Qclt t (unit_shift (tp_cal P) (tp_unit P) t 1).
Hypothesis HS : Qclt q0 si.
Hypothesis HP : placed pts0.
Hypothesis G : good pts0.
Hypothesis H0 : forall t, nth_error ts 0 = Some t -> Qcle t from.

Definition point_in (k : nat) : Prop := exists q, In q pts0 /\ Qcle (g k) (tm q) /\ Qclt (tm q) (g (S k)).
Hypothesis NP : (forall q, In q pts0 -> prior_loss q = q0) \/ (forall k prev i, at_slot P from ts k prev i -> point_in k).
Definition clean_all : Prop := forall k prev i, at_slot P from ts k prev i -> point_in k \/ covered_length pts0 (g k) (g (S k)) = q0.
Definition same_slots (pts : list vpoint) : Prop := Forall2 keeps pts pts0 /\ (clean_all -> map unweigh pts = map unweigh pts0).
Definition new_slot (k : nat) (x : item) : Prop :=
  exists d ix, x = mkItem CDataTimeSlot (g k) (g (S k)) (tp_unit P) (tz_of s) (Some (DDict d)) ix None /\ d <> [] /\ NoDup (map fst d) /\
    (forall p key, In p pts0 -> In key (map fst d) <-> exists lb o, has_label (vp_item p) lb /\ In o (tp_ops P) /\ key = slot_key lb o) /\
    (exists loss, data_loss x = Some (match tp_force P with Some f => f | None => loss end) /\ ((forall q, In q pts0 -> prior_loss q = q0) -> loss = loss_of pts0 (g k) (g (S k)))) /\
    (tp_fill P = None -> clean_all -> forall key v, In (key, v) d -> exists o lb, In o (tp_ops P) /\ key = slot_key lb o /\ slot_value pts0 (g k) (g (S k)) o lb v) /\
    indexes_are names (g k) (g (S k)) pts0 x.

Lemma same_slots_times pts : same_slots pts -> map tm pts = ts.
Proof. intros [H _]. apply F2_times. exact H. Qed.
Lemma inside_unweigh F T l : map unweigh (inside_list F T l) = inside_list F T (map unweigh l).
Proof. unfold inside_list. induction l as [|x l IH]; [reflexivity|]. cbn [map filter]. change (inside_slot F T (unweigh x)) with (inside_slot F T x). destruct (inside_slot F T x); cbn [map]; rewrite IH; reflexivity. Qed.
Lemma slot_value_unweigh a b F T o lb v : map unweigh a = map unweigh b -> slot_value a F T o lb v -> slot_value b F T o lb v.
Proof.
  intros H (V1 & V2 & V3). assert (Hi : map unweigh (inside_list F T a) = map unweigh (inside_list F T b)) by (rewrite !inside_unweigh, H; reflexivity). split; [|split].
  - intros Ho. rewrite (V1 Ho). apply same_unweigh_mean. exact H.
  - intros Ho m M B. apply (V2 Ho). apply (bounds_unweigh b a); [symmetry; exact H|exact B].
  - intros R XR Wo WR Ni NG. apply (WR lb (map vp_item (inside_list F T a))).
    + assert (X : forall l, map (fun x => set_weight x None) (map vp_item l) = map vp_item (map unweigh l)) by (intros; rewrite !map_map; reflexivity). rewrite !X, Hi. reflexivity.
    + apply (V3 R XR Wo WR).
      * intros X. apply Ni. rewrite X in Hi. cbn in Hi. destruct (inside_list F T b); [reflexivity|discriminate].
      * intros k x y Hx Hy. assert (N : forall j w, nth_error (inside_list F T a) j = Some w -> exists w', nth_error (inside_list F T b) j = Some w' /\ vp_from w' = vp_from w /\ vp_to w' = vp_to w).
        { intros j w Hw. assert (X : nth_error (map unweigh (inside_list F T a)) j = Some (unweigh w)) by (rewrite nth_error_map, Hw; reflexivity). rewrite Hi, nth_error_map in X. destruct (nth_error (inside_list F T b) j) as [w'|] eqn:Ew; [|discriminate].
          injection X as _ X2 X3. exists w'. auto. }
        destruct (N k x Hx) as (x' & Hx' & _ & <-), (N (S k) y Hy) as (y' & Hy' & <- & _). apply (NG k); assumption.
Qed.

Lemma emit_slot pts k prev i first : same_slots pts -> at_slot P from ts k prev i ->
  exists fl pts' x, slot_bounds pts (g k) (g (S k)) prev i = Ok fl /\
    compute_new P s names auto si first pts (g k) (g (S k)) (fst fl) (snd fl) prev i = Ok (pts', x) /\ same_slots pts' /\ new_slot k x.
Proof.
  intros [F2 Hu] HA. pose proof (same_slots_times pts (conj F2 Hu)) as Et.
  assert (HP' : placed pts) by (apply (keeps_placed _ pts0); assumption). assert (G' : good pts) by (apply (keeps_good _ pts0); assumption).
  pose proof HA as HA0. rewrite <- Et in HA. destruct (around P from pts) with (k := k) (prev := prev) (i := i) as (A & p & r & z & C & E & -> & W & D); [rewrite Et; exact H0|exact HA|].
  fold g in W, D. assert (Hp : In p pts) by (rewrite E; apply in_app_iff; right; left; reflexivity).
  assert (Lk : Qclt (g k) (g (S k))) by apply Hinc.
  assert (PI : point_in k -> exists q, In q pts /\ Qcle (g k) (tm q) /\ Qclt (tm q) (g (S k))).
  { intros (q & Hq & K1 & K2). destruct (F2_in2 _ _ _ _ F2 Hq) as (q' & Hq' & (S & _)). apply skel_eq in S. destruct S as (_ & S & _). exists q'. rewrite S. auto. }
  assert (Cov : covered_length pts (g k) (g (S k)) = covered_length pts0 (g k) (g (S k))) by (apply covered_keeps; exact F2).
  assert (Main : forall fl ins, slot_bounds pts (g k) (g (S k)) prev (length A + S (length r)) = Ok fl -> slot_case pts (g k) A r p (fst fl) (snd fl) prev ins ->
     inside_list (g k) (g (S k)) pts = ins -> (forall q, In q ins -> In q (p :: r)) -> (point_in k -> ins <> []) ->
     exists fl pts' x, slot_bounds pts (g k) (g (S k)) prev (length A + S (length r)) = Ok fl /\
     compute_new P s names auto si first pts (g k) (g (S k)) (fst fl) (snd fl) prev (length A + S (length r)) = Ok (pts', x) /\ same_slots pts' /\ new_slot k x).
  { intros fl ins Es SC Eins Hins Hpi.
    destruct (compute_slot P s names auto si first pts (g k) (g (S k)) A r C p z HI HT OF ON HS HP' G' E W Lk (fst fl) (snd fl) prev ins SC)
      as (pts' & x & loss & d & Ec & K1 & K2 & X1 & X2 & X3 & X4 & X5 & X6 & X7 & X8).
    assert (CL : clean_all -> clean pts (g k) (g (S k)) ins).
    { intros CA. destruct (CA k prev _ HA0) as [X|X]; [left; apply Hpi; exact X|right; rewrite Cov; exact X]. }
    exists fl, pts', x. split; [exact Es|split; [exact Ec|split; [split|]]].
    - eapply F2_trans; eassumption.
    - intros CA. rewrite (K2 (CL CA)). apply Hu. exact CA.
    - exists d, (i_idx x). split; [exact X1|split; [exact X2|split; [exact X3|split; [|split; [|split; [|exact (indexes_keep names _ _ pts pts0 x F2 X8)]]]]]].
      + intros q key Hq. destruct (F2_in2 _ _ _ _ F2 Hq) as (q' & Hq' & Kq). rewrite X4. split; intros (lb & o & Y1 & Y2); exists lb, o; (split; [|exact Y2]).
        * apply (keeps_label _ _ lb Kq). apply (good_labels pts p q'); assumption.
        * apply (good_labels pts q' p); try assumption. apply (keeps_label _ _ lb Kq). exact Y1.
      + exists loss. split; [exact X5|]. intros Hpr. rewrite X6; [|apply (prior_keeps pts pts0); assumption]. unfold loss_of. rewrite Cov. reflexivity.
      + intros Hf CA key v Hkv. destruct (X7 Hf (CL CA)) as (ext & view & V & Hd). destruct (Hd key v Hkv) as (o & lb & rd & Y1 & Y2 & Y3 & Y4).
        exists o, lb. split; [exact Y1|split; [exact Y2|]]. apply (slot_value_unweigh pts pts0); [apply Hu; exact CA|].
        apply (view_value pts (g k) (g (S k)) A r C p z HP' G' E W Lk ins ext view o lb rd v V Eins Hins); [|exact Y3|exact Y4].
        assert (Sub : forall j a, nth_error ins j = Some a -> nth_error (p :: r) (j + (if Nat.eqb (length ins) (length r) then 1 else 0)) = Some a).
        { destruct SC as [(_ & _ & _ & Z & Zr & _)|[(_ & _ & _ & Z & _)|(_ & _ & _ & Z & _)]]; intros j a Ha.
          - rewrite Z in Ha. destruct j; discriminate.
          - rewrite Z. replace (Nat.eqb (length (p :: r)) (length r)) with false by (symmetry; apply Nat.eqb_neq; cbn; lia). rewrite Nat.add_0_r, <- Z. exact Ha.
          - rewrite Z, Nat.eqb_refl, Nat.add_1_r. rewrite Z in Ha. exact Ha. }
        intros j a b Ha Hb. apply Sub in Ha, Hb. set (o1 := if Nat.eqb (length ins) (length r) then 1 else 0) in *.
        assert (Np : forall m w, nth_error (p :: r) m = Some w -> nth_error pts (length A + m) = Some w).
        { intros m w Hw. rewrite E, nth_error_app2 by lia. replace (length A + m - length A) with m by lia. change (p :: r ++ z :: C) with ((p :: r) ++ z :: C). rewrite nth_error_app1; [exact Hw|]. apply nth_error_Some. congruence. }
        apply Np in Ha, Hb. apply (proj1 HP' (length A + (j + o1)) (length A + (S j + o1))); [lia| |]; rewrite nth_error_map; [rewrite Ha|rewrite Hb]; reflexivity. }
  pose proof (inside_points pts (g k) (g (S k)) A r C p z HP' E W Lk) as IP. unfold inside_list in Main.
  destruct D as [(-> & Es)|(-> & -> & -> & Fp & Es)].
  - assert (Lp : Qclt (tm p) (g k)).
    { destruct HA as (_ & _ & (_ & Q & _)). apply (Q (tm p)). rewrite nth_error_map, E, nth_mid. reflexivity. }
    rewrite (qleb_false (g k) (tm p) Lp) in IP. cbn [app] in IP. destruct r as [|q l].
    + apply (Main _ [] Es); [left|exact IP|intros ? []|].
      * cbn [fst snd]. split; [reflexivity|split; [reflexivity|split; [reflexivity|split; [reflexivity|split; [reflexivity|]]]]].
        destruct NP as [NP'|NP']; [apply (prior_keeps pts pts0); assumption|]. exfalso. destruct (PI (NP' k _ _ HA0)) as (q & Hq & K1 & K2).
        assert (Hin : In q (filter (inside_slot (g k) (g (S k))) pts)) by (apply filter_In; split; [exact Hq|]; unfold inside_slot; rewrite qleb_true, qltb_true by assumption; reflexivity). rewrite IP in Hin. destruct Hin.
      * intros X. exfalso. destruct (PI X) as (q & Hq & K1 & K2).
        assert (Hin : In q (filter (inside_slot (g k) (g (S k))) pts)) by (apply filter_In; split; [exact Hq|]; unfold inside_slot; rewrite qleb_true, qltb_true by assumption; reflexivity). rewrite IP in Hin. destruct Hin.
    + apply (Main _ (q :: l) Es); [right; right|exact IP|intros ? ?; right; assumption|discriminate]. cbn [fst snd]. split; [reflexivity|split; [reflexivity|split; [reflexivity|split; [reflexivity|discriminate]]]].
  - rewrite (qleb_true (g 0) (tm p) Fp) in IP. cbn [app] in IP. apply (Main _ (p :: r) Es); [right; left|exact IP|auto|discriminate].
    cbn [fst snd length]. split; [reflexivity|split; [reflexivity|split; [reflexivity|split; [reflexivity|exact Fp]]]].
Qed.

Lemma out_slots xs : (forall j x, nth_error xs j = Some x -> new_slot j x) -> wf_slots xs /\ exists o, ts_new (tp_env P) None xs = Ok o.
Proof.
  intros H. assert (Wf : wf_slots xs); [|split; [exact Wf|destruct (ts_new_slots_ok_st (tp_env P) xs Wf) as (o & Eo & _); eauto]].
  split; [|split; [|split]].
  - intros x Hx. apply In_nth_error in Hx. destruct Hx as [j Hj]. destruct (H j x Hj) as (d & ix & -> & _). reflexivity.
  - intros j x y Hx Hy. destruct (H j x Hx) as (d & ix & -> & _), (H (S j) y Hy) as (d2 & ix2 & -> & _). reflexivity.
  - intros x Hx. apply In_nth_error in Hx. destruct Hx as [j Hj]. destruct (H j x Hj) as (d & ix & -> & _). cbn. apply Hinc.
  - intros x y Hx Hy. apply In_nth_error in Hx, Hy. destruct Hx as [i Hx], Hy as [j Hy]. destruct (H i x Hx) as (d1 & ix1 & -> & _ & _ & L1 & _), (H j y Hy) as (d2 & ix2 & -> & _ & _ & L2 & _).
    split; [|split; reflexivity]. split; [reflexivity|]. cbn. intros k. assert (X : exists p0, In p0 pts0) by (clear - G; destruct pts0 as [|p0 l0]; [destruct G as ((N & _) & _); destruct N; reflexivity|]; exists p0; left; reflexivity).
    destruct X as (p0 & X). rewrite (L1 p0 k X), (L2 p0 k X). reflexivity.
Qed.
End Slots.
