(* TransformProofs3.v -- facts about the extended view. *)
From Verif Require Import SpecIntervals BaseLemmas AccessProofs AccessProofs3 DictLemmas OpsProofs OpsProofs2 OpsProofs3
  IntervalsProofs IntervalsProofs2 IntervalsProofs3 InterpProofs Transform TransformProofs TransformProofs2.

Definition good (pts : list vpoint) : Prop :=
  numeric (map vp_item pts) /\ wf_points (map vp_item pts) /\ forall p, In p pts -> exists d, i_data (vp_item p) = Some (DDict d).

Lemma src_items s pts : s_items (src_series s pts) = map vp_item pts.
Proof. unfold src_series, with_items. rewrite reset_ref_items. reflexivity. Qed.
Lemma src_ref s pts : numeric (map vp_item pts) -> ref_missing (src_series s pts) = false.
Proof.
  intros (N & H & _). destruct pts as [|p l]; [destruct N; reflexivity|]. unfold src_series, with_items, reset_ref, ref_missing. cbn [map set_items s_items].
  destruct (numeric_truthy (vp_item p) (H _ (or_introl eq_refl))) as (d & -> & K). cbn. rewrite K. reflexivity.
Qed.
Lemma src_dict s pts : good pts -> dict_points (src_series s pts).
Proof.
  intros (G1 & G2 & G3). unfold dict_points. rewrite src_items. split; [exact G1|split; [exact G2|]]. intros x Hx. apply in_map_iff in Hx. destruct Hx as (p & <- & Hp). exact (G3 p Hp).
Qed.
Lemma good_numeric pts p : good pts -> In p pts -> numeric_item (vp_item p).
Proof. intros (G & _) H. apply G. apply in_map. exact H. Qed.
Lemma good_labels pts p q lb : good pts -> In p pts -> In q pts -> has_label (vp_item p) lb -> has_label (vp_item q) lb.
Proof. intros (G & _) Hp Hq. apply (numeric_labels (map vp_item pts)); auto using in_map. Qed.

Lemma stops_cons t p l : (forall q, In q l -> vp_interp q = false -> Qcle t (vp_from p) -> Qcle t (vp_from q)) -> stops t l -> stops t (p :: l).
Proof.
  intros H S i j x y K Hx Hy Iy. destruct j as [|j]; [lia|]. cbn in Hy. destruct i as [|i].
  - injection Hx as <-. apply H; [apply nth_error_In in Hy; exact Hy|exact Iy].
  - apply (S i j); [lia|exact Hx|exact Hy|exact Iy].
Qed.
Lemma dense_stops F T p l out : dense F T p l out -> Qclt F T -> (forall q, In q l -> vp_interp q = false /\ Qcle (vp_from q) (vp_to q)) ->
  (forall i j a b, i < j -> nth_error (p :: l) i = Some a -> nth_error (p :: l) j = Some b -> Qcle (vp_to a) (vp_from b)) -> stops T out.
Proof.
  intros D L. induction D as [p|p q r d out Lq I D IH|p q r out Lq D IH]; intros H1 H2; [intros i j x y _ Hx; destruct i; discriminate| |];
  assert (H1' : forall q, In q r -> vp_interp q = false /\ Qcle (vp_from q) (vp_to q)) by (intros; apply H1; right; assumption);
  (assert (H2' : forall i j a b, i < j -> nth_error (q :: r) i = Some a -> nth_error (q :: r) j = Some b -> Qcle (vp_to a) (vp_from b))
    by (intros i j a b K Ha Hb; apply (H2 (S i) (S j)); [lia|exact Ha|exact Hb]));
  (assert (M : forall x, In x out -> vp_interp x = false -> In x r)
    by (intros x Hx Ix; destruct (dense_in _ _ _ _ _ D x Hx) as [K|(k & a & b & d' & _ & _ & _ & _ & ->)]; [exact K|discriminate]));
  (assert (S1 : stops T (q :: out))).
  1, 3: apply stops_cons; [|apply IH; assumption]; intros x Hx Ix K; specialize (M x Hx Ix); apply In_nth_error in M; destruct M as [k Hk];
    pose proof (H2' 0 (S k) q x (Nat.lt_0_succ k) eq_refl Hk); pose proof (proj2 (H1 q (or_introl eq_refl))); qlra.
  - apply stops_cons; [|exact S1]. cbn [vp_from gap_point]. unfold gap_from. intros x Hx Ix K.
    assert (G : Qcle T (vp_to p)) by (destruct (qltb_spec (vp_to p) F); [qlra|exact K]).
    assert (Hin : In x (q :: r)) by (destruct Hx as [<- |Hx]; [left; reflexivity|right; apply M; assumption]). apply In_nth_error in Hin. destruct Hin as [k Hk].
    pose proof (H2 0 (S k) p x (Nat.lt_0_succ k) eq_refl Hk). qlra.
  - exact S1.
Qed.

Section Ext.
Variables (s : series) (pts : list vpoint) (F T : Qc) (A r C : list vpoint) (p z : vpoint).
Hypothesis HP : placed pts.
Hypothesis G : good pts.
Hypothesis E : pts = A ++ p :: r ++ z :: C.
Hypothesis W : window F T A p r z C.
Hypothesis L : Qclt F T.
Let l := r ++ [z].

Lemma ext_in q : In q (p :: l) -> In q pts.
Proof. rewrite E, win_in. unfold l. intros [<- |H]; [auto|]. apply in_app_iff in H. destruct H as [H|[<- |[]]]; auto. Qed.
Lemma ext_view_ok : exists out, dense_view (fun t pi ni => linear_interp (src_series s pts) t pi ni) F T pts (length A) (S (length A + S (length r))) = Ok (p :: out) /\ dense F T p l out.
Proof.
  unfold dense_view. rewrite (win_sub pts A r C p z E). fold l.
  destruct (dense_rest_ok (fun t pi ni => linear_interp (src_series s pts) t pi ni) F T l p (length A)) as (out & Eo & D).
  - intros k a b Ha Hb Lg. destruct (win_consec pts F T A r C p z HP E W L k a b Ha Hb) as (Na & Nb & K1 & K2 & K3 & K4).
    destruct (placed_in pts a HP (nth_error_In _ _ Na)) as (_ & _ & K5 & _). destruct (placed_in pts b HP (nth_error_In _ _ Nb)) as (_ & K6 & _ & _).
    destruct (gap_mid_between F T L a b K1 K2 K5 Lg K6) as [M1 M2].
    destruct (linear_given_ref (src_series s pts) (gap_mid F T a b) (length A + k) (length A + S k) (vp_item a) (vp_item b)) as (d & Ed & I).
    + apply src_ref. apply G.
    + apply src_dict. exact G.
    + rewrite src_items, nth_error_map, Na. reflexivity.
    + rewrite src_items, nth_error_map, Nb. reflexivity.
    + exact M1.
    + exact M2.
    + exists d. split; [|exact I]. unfold linear_interp. rewrite <- Ed. do 2 f_equal; lia.
  - exists out. rewrite Eo. split; [reflexivity|exact D].
Qed.

Variable out : list vpoint.
Hypothesis D : dense F T p l out.
Let ext := p :: out.

Lemma ext_consec k a b : nth_error (p :: l) k = Some a -> nth_error l k = Some b -> Qclt (tm a) (tm b) /\ Qcle (vp_to a) (vp_from b).
Proof. intros Ha Hb. destruct (win_consec pts F T A r C p z HP E W L k a b Ha Hb) as (_ & _ & _ & _ & K1 & K2). split; assumption. Qed.
Lemma ext_order i j a b : i < j -> nth_error (p :: l) i = Some a -> nth_error (p :: l) j = Some b -> Qcle (vp_to a) (vp_from b).
Proof.
  intros K Ha Hb. assert (E' : pts = A ++ (p :: l) ++ C) by (rewrite E; unfold l; cbn; rewrite <- app_assoc; reflexivity).
  assert (N : forall k x, nth_error (p :: l) k = Some x -> nth_error pts (length A + k) = Some x).
  { intros k x Hx. rewrite E', nth_error_app2 by lia. replace (length A + k - length A) with k by lia. rewrite nth_error_app1; [exact Hx|]. apply nth_error_Some. congruence. }
  apply (proj2 (proj2 HP) (length A + i) (length A + j)); [lia|apply N; exact Ha|apply N; exact Hb].
Qed.
Lemma ext_measured : filter (fun p => negb (vp_interp p)) ext = p :: r ++ [z].
Proof.
  unfold ext. cbn [filter]. destruct (placed_in pts p HP (ext_in p (or_introl eq_refl))) as (-> & _). cbn [negb]. f_equal.
  apply (dense_measured F T p). { exact D. } intros q Hq. apply (placed_in pts); [exact HP|apply ext_in; right; exact Hq].
Qed.
Lemma ext_weights : total (map (point_weight F T) ext) = q1.
Proof.
  assert (N : Qcminus T F <> q0) by (intros X; apply (Qclt_not_eq _ _ L); qlra).
  apply (mul_cancel _ _ (Qcminus T F)); [exact N|]. unfold ext. cbn [map total].
  pose proof (dense_weights F T p l out D L) as H. rewrite Qcmult_plus_distr_l, H; clear H.
  - destruct (placed_in pts p HP (ext_in p (or_introl eq_refl))) as (_ & P1 & P2 & P3).
    assert (Hz : In z pts) by (apply ext_in; right; unfold l; apply in_app_iff; right; left; reflexivity). destruct (placed_in pts z HP Hz) as (_ & Z1 & Z2 & Z3).
    rewrite point_weight_ov by assumption. unfold l. rewrite last_last. destruct W as (W1 & _ & W3).
    assert (O : Qcle (vp_to p) (vp_to z)).
    { assert (K : Qcle (vp_to p) (vp_from z)); [|qlra]. apply (ext_order 0 (S (length r))); [lia|reflexivity|]. cbn. unfold l. rewrite nth_error_app2, Nat.sub_diag by lia. reflexivity. }
    transitivity (Qcplus (overlap (vp_from p) (vp_to p) F T) (overlap (vp_to p) (vp_to z) F T)); [unfold ov; field; exact N|].
    rewrite overlap_join by (try assumption; qlra). unfold overlap. rewrite q1_eq. qmm; qlra.
  - intros q Hq. apply (placed_in pts); [exact HP|apply ext_in; right; exact Hq].
  - intros k a b Ha Hb. apply (ext_consec k); assumption.
Qed.
Lemma ext_weight_nonneg x : In x ext -> Qcle q0 (point_weight F T x).
Proof.
  assert (N : Qclt q0 (Qcminus T F)) by qlra. assert (K : forall y, Qcle q0 y -> Qcle q0 (Qcdiv y (Qcminus T F))).
  { intros y Hy. assert (X : Qcmult (Qcdiv y (Qcminus T F)) (Qcminus T F) = y) by (field; intros X; rewrite X in N; apply Qclt_not_eq in N; apply N; reflexivity).
    generalize dependent (Qcdiv y (Qcminus T F)). generalize dependent (Qcminus T F). intros d Hd w X. qnra. }
  intros [<- |Hx].
  - rewrite point_weight_ov; [apply K, overlap_nonneg|exact L|]. apply (placed_in pts); [exact HP|]. apply ext_in. left. reflexivity.
  - destruct (dense_in F T p l out D x Hx) as [Hl|(k & a & b & d & Ha & Hb & Lg & I & ->)].
    + rewrite point_weight_ov; [apply K, overlap_nonneg|exact L|]. apply (placed_in pts); [exact HP|apply ext_in; right; exact Hl].
    + rewrite gap_weight by assumption. apply K, overlap_nonneg.
Qed.
Lemma ext_values lb : has_label (vp_item p) lb ->
  Qcmult (total (map (fun x => Qcmult (valof (vp_item x) lb) (point_weight F T x)) ext)) (Qcminus T F) =
  Qcplus (total (map (fun x => Qcmult (valof (vp_item x) lb) (ov F T x)) pts)) (fills lb F T pts).
Proof.
  intros Hlb. assert (N : Qcminus T F <> q0) by (intros X; apply (Qclt_not_eq _ _ L); qlra).
  rewrite (win_fills pts F T A r C p z HP E W lb).
  rewrite (win_total pts A r C p z E (fun x => Qcmult (valof (vp_item x) lb) (ov F T x))).
  2:{ intros q Hq. rewrite (win_ov_A pts F T A r C p z HP E W q Hq). rewrite q0_eq. ring. }
  2:{ intros q Hq. rewrite (win_ov_C pts F T A r C p z HP E W q Hq). rewrite q0_eq. ring. }
  unfold ext. cbn [map total]. rewrite Qcmult_plus_distr_l. rewrite (dense_values F T lb p l out D L).
  - rewrite point_weight_ov; [|exact L|apply (placed_in pts); [exact HP|apply ext_in; left; reflexivity]]. unfold l.
    set (X := total _). set (Y := fills _ _ _ _). transitivity (Qcplus (Qcmult (valof (vp_item p) lb) (ov F T p)) (Qcplus X Y)); [f_equal; field; exact N|]. ring.
  - intros q Hq. split; [apply (placed_in pts); [exact HP|apply ext_in; exact Hq]|split; [apply (good_numeric pts); [exact G|apply ext_in; exact Hq]|]].
    apply (good_labels pts p); [exact G|apply ext_in; left; reflexivity|apply ext_in; exact Hq|exact Hlb].
  - apply ext_consec.
Qed.
Lemma ext_coverage : coverage ext F T = Ok (Qcdiv (covered_length pts F T) (Qcminus T F)).
Proof.
  unfold coverage. rewrite qleb_false by exact L. unfold ext at 1. rewrite coverage_loop_olen.
  - unfold qdiv. rewrite qeqb_false by (intros X; apply (Qclt_not_eq _ _ L); qlra). do 2 f_equal.
    rewrite placed_covered by exact HP. rewrite (win_total pts A r C p z E (ov F T)).
    + unfold olen, ivs_of. rewrite map_map. unfold measured. rewrite ext_measured. cbn [fst snd]. change (fun x => overlap (vp_from x) (vp_to x) F T) with (ov F T). rewrite q0_eq. ring.
    + apply (win_ov_A pts F T A r C p z HP E W).
    + apply (win_ov_C pts F T A r C p z HP E W).
  - exact L.
  - intros x Hx Ix. apply (placed_in pts); [exact HP|]. destruct Hx as [<- |Hx]; [apply ext_in; left; reflexivity|].
    destruct (dense_in F T p l out D x Hx) as [Hl|(k & a & b & d & Ha & Hb & Lg & I & ->)]; [apply ext_in; right; exact Hl|discriminate].
  - apply stops_cons.
    + intros x Hx Ix K. destruct (dense_in F T p l out D x Hx) as [Hl|(k & a & b & d & Ha & Hb & Lg & I & ->)]; [|discriminate].
      apply In_nth_error in Hl. destruct Hl as [k Hk]. pose proof (ext_order 0 (S k) p x (Nat.lt_0_succ k) eq_refl Hk).
      destruct (placed_in pts p HP (ext_in p (or_introl eq_refl))) as (_ & _ & _ & P). qlra.
    + apply (dense_stops F T p l); [exact D|exact L| |apply ext_order].
      intros q Hq. destruct (placed_in pts q HP (ext_in q (or_intror Hq))) as (Q1 & _ & _ & Q2). split; assumption.
Qed.
Lemma ext_items x : In x ext -> numeric_item (vp_item x) /\ (forall lb, has_label (vp_item x) lb <-> has_label (vp_item p) lb) /\
  i_cls (vp_item x) = i_cls (vp_item p) /\ exists d, i_data (vp_item x) = Some (DDict d).
Proof.
  assert (Hp : In p pts) by (apply ext_in; left; reflexivity).
  assert (CP : forall q, In q pts -> i_cls (vp_item q) = CDataTimePoint).
  { intros q Hq. destruct (good_numeric pts q G Hq) as [[K|K] _]; [exact K|]. destruct G as (_ & (G2 & _) & _). specialize (G2 (vp_item q) (in_map _ _ _ Hq)). unfold is_point in G2. rewrite K in G2. discriminate. }
  assert (K : forall q, In q pts -> numeric_item (vp_item q) /\ (forall lb, has_label (vp_item q) lb <-> has_label (vp_item p) lb) /\ i_cls (vp_item q) = i_cls (vp_item p) /\ exists d, i_data (vp_item q) = Some (DDict d)).
  { intros q Hq. split; [apply (good_numeric pts); assumption|split; [intros lb; split; apply (good_labels pts); assumption|split; [rewrite !CP by assumption; reflexivity|apply G; exact Hq]]]. }
  intros [<- |Hx]; [apply K; exact Hp|]. destruct (dense_in F T p l out D x Hx) as [Hl|(k & a & b & d & Ha & Hb & Lg & I & ->)]; [apply K, ext_in; right; exact Hl|].
  apply nth_error_In in Ha. apply ext_in in Ha. destruct (K a Ha) as (K1 & K2 & K3 & K4).
  destruct (gap_item_numeric (vp_item a) (vp_item b) (gap_mid F T a b) d (gap_from F a) (gap_to T b) K1 I) as (M1 & M2 & (m & ->)).
  split; [exact M1|split; [intros lb; rewrite M2; apply K2|split; [rewrite (CP p Hp); reflexivity|eexists; reflexivity]]].
Qed.
Lemma ext_bounds lb m M : (forall q v, In q pts -> has_value (vp_item q) lb v -> Qcle m v /\ Qcle v M) ->
  forall x v, In x ext -> has_value (vp_item x) lb v -> Qcle m v /\ Qcle v M.
Proof.
  intros B x v [<- |Hx] Hv; [apply (B p); [apply ext_in; left; reflexivity|exact Hv]|].
  destruct (dense_in F T p l out D x Hx) as [Hl|(k & a & b & d & Ha & Hb & Lg & I & ->)]; [apply (B x); [apply ext_in; right; exact Hl|exact Hv]|].
  destruct (win_consec pts F T A r C p z HP E W L k a b Ha Hb) as (Na & Nb & K1 & K2 & K3 & K4). apply nth_error_In in Na, Nb.
  destruct (placed_in pts a HP Na) as (_ & _ & K5 & _). destruct (placed_in pts b HP Nb) as (_ & K6 & _ & _).
  destruct (gap_mid_between F T L a b K1 K2 K5 Lg K6) as [M1 M2].
  unfold interpolated, data_by in I. unfold has_value in Hv. cbn in Hv. destruct d as [dl|d]; [destruct I|]. destruct I as (_ & I & _). destruct (I lb v Hv) as (va & vb & Ja & Jb & O).
  destruct (on_line_between _ _ _ _ _ _ K3 (Qclt_le_weak _ _ M1) (Qclt_le_weak _ _ M2) O) as [O1 O2].
  destruct (B a va Na Ja) as [B1 B2]. destruct (B b vb Nb Jb) as [B3 B4]. split; qmm; qlra.
Qed.
End Ext.
