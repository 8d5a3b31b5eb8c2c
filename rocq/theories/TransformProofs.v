(* TransformProofs.v -- the dense view and the weights. *)
From Verif Require Import SpecIntervals BaseLemmas AccessProofs AccessProofs3 DictLemmas OpsProofs OpsProofs2 OpsProofs3
  IntervalsProofs IntervalsProofs2 IntervalsProofs3 InterpProofs Transform.

Definition tm (p : vpoint) : Qc := i_t (vp_item p).
(* measured points in order, each inside its region, regions not overlapping *)
Definition placed (pts : list vpoint) : Prop :=
  strictly_increasing (map tm pts) /\
  (forall p, In p pts -> vp_interp p = false /\ Qclt (vp_from p) (tm p) /\ Qclt (tm p) (vp_to p)) /\
  (forall i j p q, i < j -> nth_error pts i = Some p -> nth_error pts j = Some q -> Qcle (vp_to p) (vp_from q)).

Definition ov (F T : Qc) (p : vpoint) : Qc := overlap (vp_from p) (vp_to p) F T.
Definition gap_mid (F T : Qc) (p q : vpoint) : Qc := Qcplus (gap_from F p) (qhalf (Qcminus (gap_to T q) (gap_from F p))).
Definition fill (lb : string) (F T : Qc) (p q : vpoint) : Qc :=
  Qcmult (overlap (vp_to p) (vp_from q) F T) (line (vp_item p) (vp_item q) (gap_mid F T p q) lb).
Fixpoint fills (lb : string) (F T : Qc) (l : list vpoint) : Qc :=
  match l with
  | p :: ((q :: _) as r) => Qcplus (fill lb F T p q) (fills lb F T r)
  | _ => q0
  end.

Lemma point_weight_ov F T p : Qclt F T -> Qcle (vp_from p) (vp_to p) -> point_weight F T p = Qcdiv (ov F T p) (Qcminus T F).
Proof.
  intros L H. unfold point_weight, ov, overlap.
  assert (D : Qcminus T F <> q0) by (intros E; apply (Qclt_not_eq _ _ L); qlra).
  destruct (qltb_spec (vp_to p) F) as [A|A].
  - replace (qmax q0 (Qcminus (qmin (vp_to p) T) (qmax (vp_from p) F))) with q0 by (qmm; qlra). rewrite q0_eq. field. exact D.
  - destruct (qleb_spec T (vp_from p)) as [B|B].
    + replace (qmax q0 (Qcminus (qmin (vp_to p) T) (qmax (vp_from p) F))) with q0 by (qmm; qlra). rewrite q0_eq. field. exact D.
    + f_equal. destruct (qleb_spec F (vp_from p)), (qltb_spec (vp_to p) T); qmm; qlra.
Qed.
Lemma gap_weight F T p q t d : Qclt F T -> Qclt (vp_to p) (vp_from q) ->
  point_weight F T (gap_point t d (gap_from F p) (gap_to T q)) = Qcdiv (overlap (vp_to p) (vp_from q) F T) (Qcminus T F).
Proof.
  intros L H. unfold point_weight, overlap, gap_point, gap_from, gap_to. cbn [vp_from vp_to].
  assert (D : Qcminus T F <> q0) by (intros E; apply (Qclt_not_eq _ _ L); qlra).
  destruct (qltb_spec (vp_to p) F) as [A|A], (qltb_spec T (vp_from q)) as [B|B].
  - rewrite (qltb_false T F), (qleb_false T F), qleb_refl, qltb_irrefl; try qlra. f_equal. qmm; qlra.
  - destruct (qltb_spec (vp_from q) F) as [C|C].
    + replace (qmax q0 (Qcminus (qmin (vp_from q) T) (qmax (vp_to p) F))) with q0 by (qmm; qlra). rewrite q0_eq. field. exact D.
    + rewrite (qleb_false T F), qleb_refl by qlra. f_equal. destruct (qltb_spec (vp_from q) T); qmm; qlra.
  - rewrite (qltb_false T F), qltb_irrefl by qlra. destruct (qleb_spec T (vp_to p)) as [C|C].
    + replace (qmax q0 (Qcminus (qmin (vp_from q) T) (qmax (vp_to p) F))) with q0 by (qmm; qlra). rewrite q0_eq. field. exact D.
    + f_equal. destruct (qleb_spec F (vp_to p)); qmm; qlra.
  - rewrite (qltb_false (vp_from q) F) by qlra. destruct (qleb_spec T (vp_to p)) as [C|C].
    + replace (qmax q0 (Qcminus (qmin (vp_from q) T) (qmax (vp_to p) F))) with q0 by (qmm; qlra). rewrite q0_eq. field. exact D.
    + f_equal. destruct (qleb_spec F (vp_to p)), (qltb_spec (vp_from q) T); qmm; qlra.
Qed.
Lemma overlap_join a b c F T : Qcle F T -> Qcle a b -> Qcle b c -> Qcplus (overlap a b F T) (overlap b c F T) = overlap a c F T.
Proof. intros. unfold overlap. qmm; qlra. Qed.

(* how the view is made: the points, with a filling point in each gap *)
Inductive dense (F T : Qc) : vpoint -> list vpoint -> list vpoint -> Prop :=
| dn_nil p : dense F T p [] []
| dn_gap p q r d out : Qclt (vp_to p) (vp_from q) -> interpolated (vp_item p) (vp_item q) (gap_mid F T p q) d -> dense F T q r out ->
    dense F T p (q :: r) (gap_point (gap_mid F T p q) d (gap_from F p) (gap_to T q) :: q :: out)
| dn_next p q r out : Qcle (vp_from q) (vp_to p) -> dense F T q r out -> dense F T p (q :: r) (q :: out).

Lemma dense_rest_ok ev F T : forall l prev i,
  (forall k p q, nth_error (prev :: l) k = Some p -> nth_error l k = Some q -> Qclt (vp_to p) (vp_from q) ->
     exists d, ev (gap_mid F T p q) (Z.of_nat (S i + k) - 1)%Z (Z.of_nat (S i + k)) = Ok d /\ interpolated (vp_item p) (vp_item q) (gap_mid F T p q) d) ->
  exists out, dense_rest ev F T (S i) prev l = Ok out /\ dense F T prev l out.
Proof.
  induction l as [|q r IH]; intros prev i H; [exists []; split; [reflexivity|constructor]|]. cbn [dense_rest].
  destruct (IH q (S i)) as (out & E & D).
  { intros k p0 q0 H1 H2 H3. destruct (H (S k) p0 q0 H1 H2 H3) as (d & E & I). exists d. split; [|exact I]. rewrite <- E. f_equal; lia. }
  destruct (qltb_spec (vp_to prev) (vp_from q)) as [L|L].
  - destruct (H 0 prev q eq_refl eq_refl L) as (d & Ed & I). rewrite Nat.add_0_r in Ed. fold (gap_mid F T prev q). rewrite Ed. cbn [bind]. rewrite E. cbn [bind].
    eexists. split; [reflexivity|]. apply dn_gap; assumption.
  - cbn [bind]. rewrite E. cbn [bind]. eexists. split; [reflexivity|]. apply dn_next; [apply Qcnot_lt_le; exact L|exact D].
Qed.

Lemma dense_measured F T p l out : dense F T p l out -> (forall q, In q l -> vp_interp q = false) -> filter (fun p => negb (vp_interp p)) out = l.
Proof.
  induction 1 as [p|p q r d out L I D IH|p q r out L D IH]; intros H; [reflexivity| |]; cbn [filter]; unfold gap_point; cbn [vp_interp negb];
  rewrite (H q (or_introl eq_refl)); cbn [negb]; rewrite IH; auto using in_cons.
Qed.
Lemma dense_in F T p l out : dense F T p l out -> forall x, In x out -> In x l \/
  exists k a b d, nth_error (p :: l) k = Some a /\ nth_error l k = Some b /\ Qclt (vp_to a) (vp_from b) /\ interpolated (vp_item a) (vp_item b) (gap_mid F T a b) d /\
    x = gap_point (gap_mid F T a b) d (gap_from F a) (gap_to T b).
Proof.
  induction 1 as [p|p q r d out L I D IH|p q r out L D IH]; intros x Hx; [destruct Hx| |].
  - destruct Hx as [<- |[<- |Hx]]; [right; exists 0, p, q, d; auto 7|left; left; reflexivity|]. destruct (IH x Hx) as [K|(k & a & b & d' & K1 & K2 & K)]; [left; right; exact K|].
    right. exists (S k), a, b, d'. auto.
  - destruct Hx as [<- |Hx]; [left; left; reflexivity|]. destruct (IH x Hx) as [K|(k & a & b & d' & K1 & K2 & K)]; [left; right; exact K|].
    right. exists (S k), a, b, d'. auto.
Qed.

Lemma last_cons_eq {A} : forall l (q p : A), last (q :: l) p = last l q.
Proof. induction l as [|a l IH]; intros q p; [reflexivity|]. cbn [last] in *. rewrite (IH a p), <- (IH a q). reflexivity. Qed.
Definition wsum (f : vpoint -> Qc) (F T : Qc) (l : list vpoint) : Qc := total (map (fun p => Qcmult (point_weight F T p) (f p)) l).
Lemma dense_weights F T p l out : dense F T p l out -> Qclt F T ->
  (forall q, In q l -> Qcle (vp_from q) (vp_to q)) -> (forall k a b, nth_error (p :: l) k = Some a -> nth_error l k = Some b -> Qcle (vp_to a) (vp_from b)) ->
  Qcmult (total (map (point_weight F T) out)) (Qcminus T F) = overlap (vp_to p) (vp_to (last l p)) F T.
Proof.
  intros D L. assert (N : Qcminus T F <> q0) by (intros E; apply (Qclt_not_eq _ _ L); qlra).
  assert (LE : forall l (p : vpoint), (forall q, In q l -> Qcle (vp_from q) (vp_to q)) -> (forall k a b, nth_error (p :: l) k = Some a -> nth_error l k = Some b -> Qcle (vp_to a) (vp_from b)) -> Qcle (vp_to p) (vp_to (last l p))).
  { clear. induction l as [|q l IH]; intros p H1 H2; [apply Qcle_refl|]. rewrite last_cons_eq. eapply Qcle_trans; [exact (H2 0 p q eq_refl eq_refl)|]. eapply Qcle_trans; [exact (H1 q (or_introl eq_refl))|].
    apply IH; [intros; apply H1; right; assumption|intros k a b Ha Hb; exact (H2 (S k) a b Ha Hb)]. }
  induction D as [p|p q r d out Lq I D IH|p q r out Lq D IH]; intros H1 H2.
  - cbn. unfold overlap. rewrite q0_eq. qmm; qlra.
  - cbn [map total]. rewrite gap_weight, point_weight_ov by (try assumption; apply H1; left; reflexivity).
    pose proof (IH (fun q Hq => H1 q (or_intror Hq)) (fun k a b Ha Hb => H2 (S k) a b Ha Hb)) as E.
    rewrite last_cons_eq. pose proof (LE r q (fun q Hq => H1 q (or_intror Hq)) (fun k a b Ha Hb => H2 (S k) a b Ha Hb)) as M.
    pose proof (H1 q (or_introl eq_refl)) as Q. assert (FT : Qcle F T) by (apply Qclt_le_weak; exact L). assert (PQ : Qcle (vp_to p) (vp_from q)) by (apply Qclt_le_weak; exact Lq).
    rewrite <- (overlap_join (vp_to p) (vp_to q) (vp_to (last r q)) F T FT (Qcle_trans _ _ _ PQ Q) M), <- (overlap_join (vp_to p) (vp_from q) (vp_to q) F T FT PQ Q).
    unfold ov. rewrite <- E. field. exact N.
  - cbn [map total]. rewrite point_weight_ov by (try assumption; apply H1; left; reflexivity).
    pose proof (IH (fun q Hq => H1 q (or_intror Hq)) (fun k a b Ha Hb => H2 (S k) a b Ha Hb)) as E.
    rewrite last_cons_eq. pose proof (LE r q (fun q Hq => H1 q (or_intror Hq)) (fun k a b Ha Hb => H2 (S k) a b Ha Hb)) as M.
    pose proof (H1 q (or_introl eq_refl)) as Q. pose proof (H2 0 p q eq_refl eq_refl) as P. assert (Eq : vp_to p = vp_from q) by (apply Qcle_antisym; assumption).
    rewrite <- (overlap_join (vp_to p) (vp_to q) (vp_to (last r q)) F T (Qclt_le_weak _ _ L) (Qcle_trans _ _ _ P Q) M).
    rewrite Eq. unfold ov. rewrite <- E. field. exact N.
Qed.

Lemma data_by_labels d x P y : data_by d x P -> i_data y = Some d -> forall lb, has_label y lb <-> has_label x lb.
Proof.
  unfold data_by. intros H E lb. destruct d as [l|d]; [destruct H|]. destruct H as (_ & _ & H). rewrite <- H. unfold has_label, has_value. rewrite E.
  split; [intros (v & Hv); apply (in_map fst) in Hv; exact Hv|]. intros K. apply in_map_iff in K. destruct K as ((k & v) & E1 & K). exists v. cbn in E1. subst. exact K.
Qed.
Lemma gap_item_numeric x y t d a b : numeric_item x -> interpolated x y t d -> numeric_item (vp_item (gap_point t d a b)) /\
  (forall lb, has_label (vp_item (gap_point t d a b)) lb <-> has_label x lb) /\ exists m, d = DDict m.
Proof.
  intros N I. unfold interpolated in I. assert (L : forall lb, has_label (vp_item (gap_point t d a b)) lb <-> has_label x lb) by (eapply data_by_labels; [exact I|reflexivity]).
  assert (M : exists m, d = DDict m) by (unfold data_by in I; destruct d as [l|d]; [destruct I|exists d; reflexivity]).
  split; [|split; [exact L|exact M]]. destruct M as [m ->]. split; [left; reflexivity|]. cbn. destruct I as (I1 & _). split; [|exact I1].
  intros E. destruct (item_labels x) as [|lb ls] eqn:El; [apply item_labels_nonempty in El; [destruct El|exact N]|].
  assert (K : has_label x lb) by (apply item_labels_In; rewrite El; left; reflexivity). apply L in K. destruct K as (v & K). unfold has_value in K. cbn in K. rewrite E in K. destruct K.
Qed.
Lemma gap_value x y t d a b lb : numeric_item x -> numeric_item y -> Qclt (i_t x) (i_t y) -> has_label x lb -> interpolated x y t d ->
  valof (vp_item (gap_point t d a b)) lb = line x y t lb.
Proof.
  intros Nx Ny L Hl I. destruct (gap_item_numeric x y t d a b Nx I) as (N & Lb & (m & ->)).
  apply Lb in Hl. destruct Hl as (v & Hv). rewrite (valof_spec _ _ _ N Hv). unfold has_value in Hv. cbn in Hv.
  destruct I as (_ & I & _). destruct (I lb v Hv) as (va & vb & Ha & Hb & O). unfold line. rewrite (valof_spec x lb va Nx Ha), (valof_spec y lb vb Ny Hb).
  unfold on_line in O. apply (mul_cancel _ _ (Qcminus (i_t y) (i_t x))); [intros E; apply (Qclt_not_eq _ _ L); qlra|].
  transitivity (Qcplus (Qcmult (Qcminus v va) (Qcminus (i_t y) (i_t x))) (Qcmult va (Qcminus (i_t y) (i_t x)))); [ring|]. rewrite O. field. intros E; apply (Qclt_not_eq _ _ L); qlra.
Qed.

Lemma dense_values F T lb p l out : dense F T p l out -> Qclt F T ->
  (forall q, In q (p :: l) -> Qcle (vp_from q) (vp_to q) /\ numeric_item (vp_item q) /\ has_label (vp_item q) lb) ->
  (forall k a b, nth_error (p :: l) k = Some a -> nth_error l k = Some b -> Qclt (tm a) (tm b) /\ Qcle (vp_to a) (vp_from b)) ->
  Qcmult (total (map (fun x => Qcmult (valof (vp_item x) lb) (point_weight F T x)) out)) (Qcminus T F) =
  Qcplus (total (map (fun x => Qcmult (valof (vp_item x) lb) (ov F T x)) l)) (fills lb F T (p :: l)).
Proof.
  intros D L. assert (N : Qcminus T F <> q0) by (intros E; apply (Qclt_not_eq _ _ L); qlra).
  induction D as [p|p q r d out Lq I D IH|p q r out Lq D IH]; intros H1 H2.
  - cbn. rewrite q0_eq. ring.
  - destruct (H1 q (or_intror (or_introl eq_refl))) as (Q1 & Q2 & Q3). destruct (H1 p (or_introl eq_refl)) as (P1 & P2 & P3). destruct (H2 0 p q eq_refl eq_refl) as [T1 T2].
    change (fills lb F T (p :: q :: r)) with (Qcplus (fill lb F T p q) (fills lb F T (q :: r))).
    cbn [map total]. rewrite gap_weight, point_weight_ov by assumption.
    rewrite (gap_value (vp_item p) (vp_item q)) by assumption.
    pose proof (IH (fun q Hq => H1 q (or_intror Hq)) (fun k a b Ha Hb => H2 (S k) a b Ha Hb)) as E.
    unfold fill.
    set (X := total (map (fun x => Qcmult (valof (vp_item x) lb) (point_weight F T x)) out)) in *.
    set (Y := total (map (fun x => Qcmult (valof (vp_item x) lb) (ov F T x)) r)) in *. set (Z := fills lb F T (q :: r)) in *. clearbody X Y Z.
    transitivity (Qcplus (Qcplus (Qcmult (line (vp_item p) (vp_item q) (gap_mid F T p q) lb) (overlap (vp_to p) (vp_from q) F T)) (Qcmult (valof (vp_item q) lb) (ov F T q))) (Qcmult X (Qcminus T F))); [field; exact N|].
    rewrite E. ring.
  - destruct (H1 q (or_intror (or_introl eq_refl))) as (Q1 & Q2 & Q3). destruct (H1 p (or_introl eq_refl)) as (P1 & P2 & P3). destruct (H2 0 p q eq_refl eq_refl) as [T1 T2].
    change (fills lb F T (p :: q :: r)) with (Qcplus (fill lb F T p q) (fills lb F T (q :: r))).
    assert (Z0 : fill lb F T p q = q0).
    { unfold fill. replace (overlap (vp_to p) (vp_from q) F T) with q0; [rewrite q0_eq; ring|]. assert (E : vp_to p = vp_from q) by (apply Qcle_antisym; assumption). rewrite E. unfold overlap. qmm; qlra. }
    rewrite Z0. cbn [map total]. rewrite point_weight_ov by assumption.
    pose proof (IH (fun q Hq => H1 q (or_intror Hq)) (fun k a b Ha Hb => H2 (S k) a b Ha Hb)) as E.
    set (X := total (map (fun x => Qcmult (valof (vp_item x) lb) (point_weight F T x)) out)) in *.
    set (Y := total (map (fun x => Qcmult (valof (vp_item x) lb) (ov F T x)) r)) in *. set (Z := fills lb F T (q :: r)) in *. clearbody X Y Z.
    transitivity (Qcplus (Qcmult (valof (vp_item q) lb) (ov F T q)) (Qcmult X (Qcminus T F))); [field; exact N|].
    rewrite E, q0_eq. ring.
Qed.
