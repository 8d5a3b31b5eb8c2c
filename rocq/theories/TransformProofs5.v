(* TransformProofs5.v -- the operations on a view, the data of a slot, changes of the points. *)
From Verif Require Import SpecIntervals BaseLemmas AccessProofs AccessProofs3 DictLemmas OpsProofs OpsProofs2 OpsProofs3
  IntervalsProofs IntervalsProofs2 IntervalsProofs3 InterpProofs Transform TransformProofs TransformProofs2 TransformProofs3 TransformProofs4.

(* ---------------- operations ---------------- *)
Definition like_all (p : vpoint) (l : list vpoint) : Prop := forall x, In x (p :: l) -> like p x.
Definition unit_weights (l : list vpoint) : Prop := weighted (map vp_item l) = true /\ total_weight (map vp_item l) = q1.
(* the operation gives a value for each label, whatever the view *)
Definition op_fine (o : operation) : Prop := forall p l, like_all p l -> (o_weights o = true -> unit_weights (p :: l)) ->
  exists d, o_run o (view_series (p :: l)) = Ok (ODict d) /\ NoDup (map fst d) /\ forall lb, In lb (map fst d) <-> has_label (vp_item p) lb.

Lemma per_label_ref {A} s (f : string -> result A) (P : string -> A -> Prop) :
  ref_missing s = false -> numeric (s_items s) ->
  (forall lb, label_in (s_items s) lb -> exists a, f lb = Ok a /\ P lb a) ->
  exists m, (do p <- op_prep s; per_label (snd p) f) = Ok m /\ NoDup (map fst m) /\ by_label (s_items s) m P.
Proof.
  intros Hh Hn Hf. destruct (prep_ref s Hh Hn) as (x & l & El & -> & _). cbn [bind snd].
  assert (HL : forall lb, label_in (s_items s) lb <-> In lb (item_labels x)) by (intros lb; eapply label_in_first; eassumption).
  assert (Hm : exists m, per_label (item_labels x) f = Ok m /\ map fst m = item_labels x /\ (forall lb a, dget lb m = Some a -> P lb a)).
  { assert (Hf' : forall lb, In lb (item_labels x) -> exists a, f lb = Ok a /\ P lb a) by (intros lb H; apply Hf, HL, H).
    clear - Hf'. induction (item_labels x) as [|lb ls IH]; cbn.
    - exists []. split; [reflexivity|]. split; [reflexivity|]. intros lb a H; discriminate H.
    - destruct (Hf' lb (or_introl eq_refl)) as (a & Ha & HP). unfold per_label in *. cbn. rewrite Ha. cbn.
      destruct IH as (m & Hm & Hk & Hp); [auto using in_cons|]. rewrite Hm. cbn. exists ((lb, a) :: m). split; [reflexivity|].
      cbn. split; [congruence|]. intros lb' a'. destruct (String.eqb_spec lb' lb); [intros [= <-]; subst; exact HP|apply Hp]. }
  destruct Hm as (m & Hm & Hk & Hp). exists m. split; [exact Hm|]. split; [rewrite Hk; apply item_labels_NoDup, Hn; rewrite El; left; reflexivity|].
  split; [|exact Hp]. intros lb. rewrite Hk, HL. reflexivity.
Qed.
Lemma like_label_in p l lb : like_all p l -> (label_in (map vp_item (p :: l)) lb <-> has_label (vp_item p) lb).
Proof.
  intros H. split.
  - intros (x & Hx & Hl). apply in_map_iff in Hx. destruct Hx as (q & <- & Hq). apply (H q Hq). exact Hl.
  - intros Hl. exists (vp_item p). split; [left; reflexivity|exact Hl].
Qed.
Lemma view_items l : s_items (view_series l) = map vp_item l.
Proof. reflexivity. Qed.
Lemma dict_values_by (P : string -> Qc -> Prop) (m : dict (option Qc)) :
  NoDup (map fst m) -> (forall lb o, dget lb m = Some o -> exists v, o = Some v /\ P lb v) ->
  map fst (dict_values m) = map fst m /\ (forall lb v, In (lb, v) (dict_values m) -> P lb v).
Proof.
  intros N H. assert (H' : forall lb o, In (lb, o) m -> exists v, o = Some v /\ P lb v) by (intros lb o Hi; apply H, dget_NoDup; assumption). clear N H.
  induction m as [|[k o] m IH]; [split; [reflexivity|intros ? ? []]|]. destruct IH as [I1 I2]; [intros; apply H'; right; assumption|].
  destruct (H' k o (or_introl eq_refl)) as (v & -> & Pv). unfold dict_values. cbn. split; [f_equal; exact I1|].
  intros lb w [K|K]; [injection K as <- <-; exact Pv|apply I2; exact K].
Qed.

Definition op_exact (o : operation) (R : string -> list item -> Qc -> Prop) : Prop := forall p l, like_all p l -> (o_weights o = true -> unit_weights (p :: l)) ->
  exists d, o_run o (view_series (p :: l)) = Ok (ODict d) /\ NoDup (map fst d) /\ (forall lb, In lb (map fst d) <-> has_label (vp_item p) lb) /\
    forall lb v, In (lb, v) d -> R lb (map vp_item (p :: l)) v.
Lemma exact_fine o R : op_exact o R -> op_fine o.
Proof. intros H p l H1 H2. destruct (H p l H1 H2) as (d & A & B & C & _). exists d. auto. Qed.
Lemma like_num p l : like_all p l -> numeric (map vp_item (p :: l)).
Proof. intros H. apply (like_numeric p); [discriminate|exact H]. Qed.

Lemma max_exact : op_exact agg_max is_max.
Proof.
  intros p l H _. pose proof (like_num p l H) as N. cbn [o_run agg_max]. unfold op_max.
  destruct (per_label_ref (view_series (p :: l)) (fun lb => scan (fun v a => qltb a v) lb None (s_items (view_series (p :: l)))) (fun lb o => exists M, o = Some M /\ is_max lb (map vp_item (p :: l)) M)) as (m & Em & Nm & B1 & B2).
  - apply view_ref. exact N.
  - exact N.
  - intros lb Hl. destruct (scan_max _ _ N Hl) as (M & E & K). eauto.
  - rewrite Em. cbn [bind]. destruct (dict_values_by (fun lb v => is_max lb (map vp_item (p :: l)) v) m Nm) as [K1 K2].
    { intros lb o Ho. destruct (B2 lb o Ho) as (M & -> & K). eauto. }
    exists (dict_values m). split; [reflexivity|]. rewrite K1. split; [exact Nm|split; [|exact K2]]. intros lb. rewrite B1. apply like_label_in. exact H.
Qed.
Lemma min_exact : op_exact agg_min is_min.
Proof.
  intros p l H _. pose proof (like_num p l H) as N. cbn [o_run agg_min]. unfold op_min.
  destruct (per_label_ref (view_series (p :: l)) (fun lb => scan (fun v a => qltb v a) lb None (s_items (view_series (p :: l)))) (fun lb o => exists M, o = Some M /\ is_min lb (map vp_item (p :: l)) M)) as (m & Em & Nm & B1 & B2).
  - apply view_ref. exact N.
  - exact N.
  - intros lb Hl. destruct (scan_min _ _ N Hl) as (M & E & K). eauto.
  - rewrite Em. cbn [bind]. destruct (dict_values_by (fun lb v => is_min lb (map vp_item (p :: l)) v) m Nm) as [K1 K2].
    { intros lb o Ho. destruct (B2 lb o Ho) as (M & -> & K). eauto. }
    exists (dict_values m). split; [reflexivity|]. rewrite K1. split; [exact Nm|split; [|exact K2]]. intros lb. rewrite B1. apply like_label_in. exact H.
Qed.
Definition is_total (lb : string) (l : list item) (v : Qc) : Prop := v = total (map (fun x => valof x lb) l).
Lemma sum_exact : op_exact agg_sum is_total.
Proof.
  intros p l H _. pose proof (like_num p l H) as N. cbn [o_run agg_sum]. unfold op_sum.
  destruct (per_label_ref (view_series (p :: l)) (fun lb => sum_label lb (s_items (view_series (p :: l)))) (fun lb o => is_total lb (map vp_item (p :: l)) o)) as (m & Em & Nm & B1 & B2).
  - apply view_ref. exact N.
  - exact N.
  - intros lb Hl. exists (total (map (fun x => valof x lb) (map vp_item (p :: l)))). split; [|reflexivity].
    apply sum_label_ok. intros x Hx. eapply label_all; [exact N|exact Hl|exact Hx].
  - rewrite Em. cbn [bind]. exists m. split; [reflexivity|split; [exact Nm|split]].
    + intros lb. rewrite B1. apply like_label_in. exact H.
    + intros lb v Hv. apply B2, dget_NoDup; assumption.
Qed.
Definition is_weighted_mean (lb : string) (l : list item) (v : Qc) : Prop := v = total (map (fun x => Qcmult (valof x lb) (weight_of x)) l).
Lemma avg_exact : op_exact agg_avg is_weighted_mean.
Proof.
  intros p l H Hw. destruct (Hw eq_refl) as [W TW]. pose proof (like_num p l H) as N. cbn [o_run agg_avg].
  destruct (prep_ref (view_series (p :: l))) as (x & l' & E & Pp & _); [apply view_ref; exact N|exact N|].
  unfold op_avg. rewrite Pp. cbn [bind snd]. rewrite view_items in *. rewrite W, TW, qeqb_refl. cbn [map] in E. injection E as <- _.
  rewrite (per_label_ok _ _ (fun lb => total (map (fun x => Qcmult (valof x lb) (weight_of x)) (map vp_item (p :: l))))).
  - cbn [bind]. eexists. split; [reflexivity|]. rewrite dkeys_map_label. split; [apply item_labels_NoDup, N; left; reflexivity|split].
    + intros lb. rewrite item_labels_In. reflexivity.
    + intros lb v Hv. apply in_map_iff in Hv. destruct Hv as (k & K & _). injection K as -> <-. reflexivity.
  - intros lb Hlb. apply wsum_ok. intros y Hy. eapply label_all; [exact N| |exact Hy]. apply (like_label_in p l lb H). apply item_labels_In. exact Hlb.
Qed.

(* ---------------- the data of a slot ---------------- *)
Lemma dict_of_snoc {V} (l : list (string * V)) k v : dict_of (l ++ [(k, v)]) = dset k v (dict_of l).
Proof. unfold dict_of. rewrite fold_left_app. reflexivity. Qed.
Lemma dict_of_spec {V} (l : list (string * V)) : NoDup (map fst (dict_of l)) /\ (forall k, In k (map fst (dict_of l)) <-> In k (map fst l)) /\
  (forall k v, In (k, v) (dict_of l) -> In (k, v) l).
Proof.
  induction l as [|[k v] l IH] using rev_ind; [split; [constructor|split; [intros k; reflexivity|intros k v []]]|].
  destruct IH as (I1 & I2 & I3). rewrite dict_of_snoc. split; [apply dset_NoDup; exact I1|split].
  - intros k'. change (map fst (dset k v (dict_of l))) with (dkeys (dset k v (dict_of l))). rewrite dkeys_dset_In, map_app, in_app_iff. cbn. unfold dkeys. rewrite I2. intuition.
  - intros k' v' Hv. apply dget_NoDup in Hv; [|apply dset_NoDup; exact I1]. rewrite dget_dset in Hv. apply in_app_iff.
    destruct (String.eqb_spec k' k) as [-> |K]; [injection Hv as ->; right; left; reflexivity|]. left. apply I3, dget_Some_In. exact Hv.
Qed.

Definition slot_key (lb : string) (o : operation) : string := (lb ++ "_" ++ o_name o)%string.
Section SlotData.
Variables (ops : list operation) (labels : list string) (ext view : list vpoint) (p v0 : vpoint) (ext' view' : list vpoint).
Hypothesis OF : forall o, In o ops -> op_fine o.
Hypothesis Eext : ext = p :: ext'.
Hypothesis Eview : view = v0 :: view'.
Hypothesis Hext : like_all p ext'.
Hypothesis Hview : like_all v0 view'.
Hypothesis Hw : unit_weights ext.
Hypothesis Hlab : forall lb, In lb labels <-> has_label (vp_item p) lb.
Hypothesis Hsame : forall lb, has_label (vp_item v0) lb <-> has_label (vp_item p) lb.

Definition op_input (o : operation) : list vpoint := if o_weights o then ext else view.
Lemma op_entry_ok o : In o ops -> exists rd, o_run o (view_series (op_input o)) = Ok (ODict rd) /\ forall lb, In lb (map fst rd) <-> In lb labels.
Proof.
  intros Ho. unfold op_input. destruct (o_weights o) eqn:Ew.
  - rewrite Eext. destruct (OF o Ho p ext' Hext) as (rd & E & _ & K); [intros _; rewrite <- Eext; exact Hw|]. exists rd. split; [exact E|]. intros lb. rewrite K, Hlab. reflexivity.
  - rewrite Eview. destruct (OF o Ho v0 view' Hview) as (rd & E & _ & K); [intros X; rewrite Ew in X; discriminate|]. exists rd. split; [exact E|]. intros lb. rewrite K, Hlab. apply Hsame.
Qed.
Lemma op_entries_ok : forall os, (forall o, In o os -> In o ops) ->
  exists rs, mapM (fun o => do r <- o_run o (view_series (if o_weights o then ext else view)); Ok (op_entries labels o r)) os = Ok rs /\
    (forall k, In k (map fst (concat rs)) <-> exists lb o, In lb labels /\ In o os /\ k = slot_key lb o) /\
    (forall k v, In (k, v) (concat rs) -> exists o lb rd, In o os /\ k = slot_key lb o /\ o_run o (view_series (op_input o)) = Ok (ODict rd) /\ In (lb, v) rd).
Proof.
  induction os as [|o os IH]; intros Ho.
  - exists []. split; [reflexivity|]. split; [|intros k v []]. intros k. split; [intros []|intros (lb & o & _ & [] & _)].
  - destruct (op_entry_ok o (Ho o (or_introl eq_refl))) as (rd & E & K). destruct IH as (rs & Er & R1 & R2); [auto using in_cons|].
    cbn [mapM]. unfold op_input in E at 1. rewrite E. cbn [bind]. rewrite Er. cbn [bind op_entries]. eexists. split; [reflexivity|]. cbn [concat]. split.
    + intros k. rewrite map_app, in_app_iff, R1, map_map. cbn [fst]. split.
      * intros [H|(lb & o' & H1 & H2 & H3)]; [|exists lb, o'; auto using in_cons].
        apply in_map_iff in H. destruct H as ((lb & v) & <- & Hv). exists lb, o. split; [apply K; apply (in_map fst) in Hv; exact Hv|split; [left; reflexivity|reflexivity]].
      * intros (lb & o' & H1 & [<- |H2] & H3); [left|right; exists lb, o'; auto]. apply K in H1. apply in_map_iff in H1. destruct H1 as ((lb' & v) & H1 & H4). cbn in H1. subst lb'.
        apply in_map_iff. exists (lb, v). split; [rewrite H3; reflexivity|exact H4].
    + intros k v Hv. apply in_app_iff in Hv. destruct Hv as [Hv|Hv].
      * apply in_map_iff in Hv. destruct Hv as ((lb & w) & H1 & H2). cbn in H1. injection H1 as <- <-. exists o, lb, rd. split; [left; reflexivity|split; [reflexivity|split; [exact E|exact H2]]].
      * destruct (R2 k v Hv) as (o' & lb & rd' & H1 & H2). exists o', lb, rd'. split; [right; exact H1|exact H2].
Qed.
Lemma slot_data_ok fill loss : ops <> [] ->
  exists d, slot_data ops labels fill loss ext view = Ok d /\ d <> [] /\ NoDup (map fst d) /\
    (forall k, In k (map fst d) <-> exists lb o, In lb labels /\ In o ops /\ k = slot_key lb o) /\
    (fill = None -> forall k v, In (k, v) d -> exists o lb rd, In o ops /\ k = slot_key lb o /\ o_run o (view_series (op_input o)) = Ok (ODict rd) /\ In (lb, v) rd).
Proof.
  intros No. destruct (op_entries_ok ops) as (rs & Er & R1 & R2); [auto|].
  assert (Nl : exists lb, In lb labels).
  { destruct (Hext p (or_introl eq_refl)) as ((_ & Kd) & _ & _ & (m & Em)). rewrite Em in Kd. destruct m as [|[lb v] m]; [destruct Kd as [X _]; destruct X; reflexivity|].
    exists lb. apply Hlab. apply (dict_label _ ((lb, v) :: m)); [exact Em|left; reflexivity]. }
  assert (G : forall L : list (string * Qc), (forall k, In k (map fst L) <-> exists lb o, In lb labels /\ In o ops /\ k = slot_key lb o) ->
    dict_of L <> [] /\ NoDup (map fst (dict_of L)) /\ (forall k, In k (map fst (dict_of L)) <-> exists lb o, In lb labels /\ In o ops /\ k = slot_key lb o)).
  { intros L HL. destruct (dict_of_spec L) as (D1 & D2 & D3). split; [|split; [exact D1|intros k; rewrite D2; apply HL]].
    destruct Nl as (lb & Hlb). destruct ops as [|o os]; [congruence|]. intros X.
    assert (K : In (slot_key lb o) (map fst (dict_of L))) by (apply D2, HL; exists lb, o; split; [exact Hlb|split; [left; reflexivity|reflexivity]]). rewrite X in K. destruct K. }
  assert (N : exists d, (do rs <- mapM (fun o => do r <- o_run o (view_series (if o_weights o then ext else view)); Ok (op_entries labels o r)) ops; Ok (dict_of (concat rs))) = Ok d /\ d <> [] /\ NoDup (map fst d) /\
    (forall k, In k (map fst d) <-> exists lb o, In lb labels /\ In o ops /\ k = slot_key lb o) /\
    (forall k v, In (k, v) d -> exists o lb rd, In o ops /\ k = slot_key lb o /\ o_run o (view_series (op_input o)) = Ok (ODict rd) /\ In (lb, v) rd)).
  { rewrite Er. cbn [bind]. eexists. split; [reflexivity|]. destruct (G (concat rs) R1) as (G1 & G2 & G3). split; [exact G1|split; [exact G2|split; [exact G3|]]].
    intros k v Hv. apply R2. apply dict_of_spec in Hv. exact Hv. }
  destruct N as (d & E & N1 & N2 & N3 & N4). unfold slot_data. destruct fill as [w|]; [|exists d; auto]. destruct (qeqb loss q1 && negb (qeqb w q0))%bool; [|exists d; split; [exact E|split; [exact N1|split; [exact N2|split; [exact N3|intros X; discriminate]]]]].
  eexists. split; [reflexivity|]. match goal with |- dict_of ?L <> [] /\ _ => destruct (G L) as (G1 & G2 & G3) end.
  - intros k. rewrite in_map_iff. split.
    + intros ((k' & v) & <- & H). apply in_flat_map in H. destruct H as (lb & H1 & H2). apply in_map_iff in H2. destruct H2 as (o & H2 & H3). injection H2 as <- <-. exists lb, o. auto.
    + intros (lb & o & H1 & H2 & ->). exists (slot_key lb o, w). split; [reflexivity|]. apply in_flat_map. exists lb. split; [exact H1|]. apply in_map_iff. exists o. auto.
  - split; [exact G1|split; [exact G2|split; [exact G3|intros X; discriminate]]].
Qed.
End SlotData.
