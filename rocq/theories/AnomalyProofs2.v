(* AnomalyProofs2.v -- the anomaly index is in the unit interval and follows the deviations (C57). *)
From Verif Require Import OpsProofs OpsProofs2 LstmProofs LstmProofs3 UtilsProofs PropTactics.
From Verif Require Export AnomalyProofs.
From Coq Require Import Lia.

Lemma scaled_range v k t : Qclt q0 k -> Qcmult v k = t -> Qcle q0 t -> Qcle t k -> Qcle q0 v /\ Qcle v q1.
Proof. rewrite q0_eq, q1_eq. intros K E L1 L2. split; apply Qcnot_lt_le; intros C; qnra. Qed.
Lemma scaled_mono v w k t u : Qclt q0 k -> Qcmult v k = t -> Qcmult w k = u -> Qcle t u -> Qcle v w.
Proof. rewrite q0_eq. intros K E1 E2 L. apply Qcnot_lt_le. intros C. qnra. Qed.
Lemma zero_le_one : Qcle q0 q1. Proof. apply qleb_le. vm_compute. reflexivity. Qed.
Lemma qle_refl x : Qcle x x. Proof. apply Qcle_refl. Qed.

Lemma grade_range lg it d xs xe x v : proper lg it d xs xe -> grade lg it d xs xe x v -> Qcle q0 v /\ Qcle v q1.
Proof.
  intros P [[L ->]|[(L1 & L2 & ->)|(L1 & L2 & G)]]; [split; [apply qle_refl|apply zero_le_one]|split; [apply zero_le_one|apply qle_refl]|].
  assert (X : Qclt xs xe) by qlra. specialize (P X). destruct it as [| |f|].
  - destruct P as [Dc Lt]. destruct G as [_ G]. assert (A1 := Dc xs x (qle_refl xs) ltac:(qlra) ltac:(qlra)). assert (A2 := Dc x xe ltac:(qlra) ltac:(qlra) (qle_refl xe)).
    apply (scaled_range v (Qcminus (pdf d xs) (pdf d xe)) (Qcminus (pdf d xs) (pdf d x))); [rewrite q0_eq; qlra|rewrite G; ring|rewrite q0_eq; qlra|qlra].
  - destruct P as (Dc & Ps & Mo & Lt). destruct G as [_ G]. assert (A1 := Dc xs x (qle_refl xs) ltac:(qlra) ltac:(qlra)). assert (A2 := Dc x xe ltac:(qlra) ltac:(qlra) (qle_refl xe)).
    assert (B1 := Mo (pdf d x) (pdf d xs) ltac:(qlra) A1). assert (B2 := Mo (pdf d xe) (pdf d x) Ps A2).
    apply (scaled_range v (Qcminus (lg (pdf d xs)) (lg (pdf d xe))) (Qcminus (lg (pdf d xs)) (lg (pdf d x)))); [rewrite q0_eq; qlra|rewrite G; ring|rewrite q0_eq; qlra|qlra].
  - destruct P as [P _]. exact (P x v L1 L2 G).
  - destruct P.
Qed.
Lemma grade_mono lg it d xs xe x x' v v' : proper lg it d xs xe -> Qcle x x' -> grade lg it d xs xe x v -> grade lg it d xs xe x' v' -> Qcle v v'.
Proof.
  intros P Lx G G'. assert (R := grade_range _ _ _ _ _ _ _ P G). assert (R' := grade_range _ _ _ _ _ _ _ P G').
  destruct G as [[L ->]|[(L1 & L2 & ->)|(L1 & L2 & G)]]; [apply R'| |].
  - destruct G' as [[L ->]|[(L1' & L2' & ->)|(L1' & L2' & G')]]; [exfalso; qlra|apply qle_refl|exfalso; qlra].
  - destruct G' as [[L ->]|[(L1' & L2' & ->)|(L1' & L2' & G')]]; [exfalso; qlra|apply R|].
    assert (X : Qclt xs xe) by qlra. specialize (P X). destruct it as [| |f|].
    + destruct P as [Dc Lt]. destruct G as [_ G], G' as [_ G']. assert (A1 := Dc x x' ltac:(qlra) Lx ltac:(qlra)).
      apply (scaled_mono v v' (Qcminus (pdf d xs) (pdf d xe)) (Qcminus (pdf d xs) (pdf d x)) (Qcminus (pdf d xs) (pdf d x'))); [rewrite q0_eq; qlra|rewrite G; ring|rewrite G'; ring|qlra].
    + destruct P as (Dc & Ps & Mo & Lt). destruct G as [_ G], G' as [_ G']. assert (A1 := Dc x x' ltac:(qlra) Lx ltac:(qlra)). assert (A2 := Dc x' xe ltac:(qlra) ltac:(qlra) (qle_refl xe)).
      assert (B := Mo (pdf d x') (pdf d x) ltac:(qlra) A1).
      apply (scaled_mono v v' (Qcminus (lg (pdf d xs)) (lg (pdf d xe))) (Qcminus (lg (pdf d xs)) (lg (pdf d x))) (Qcminus (lg (pdf d xs)) (lg (pdf d x')))); [rewrite q0_eq; qlra|rewrite G; ring|rewrite G'; ring|qlra].
    + destruct P as [_ P]. exact (P x x' v v' L1 Lx L2' G G').
    + destruct P.
Qed.

(* ---------------- combining ---------------- *)
Lemma total_le vs ws : Forall2 Qcle vs ws -> Qcle (total vs) (total ws).
Proof. induction 1 as [|v w vs ws H F IH]; cbn [total]; [apply qle_refl|qlra]. Qed.
Lemma total_const (c : Qc) vs : (forall v, In v vs -> v = c) -> total vs = Qcmult c (qn (length vs)).
Proof.
  induction vs as [|v vs IH]; intros H; [cbn [total length]; rewrite q0_eq; unfold qn; cbn; change (qz 0) with q0; rewrite q0_eq; ring|].
  cbn [total length]. rewrite (IH (fun w W => H w (or_intror W))), (H v (or_introl eq_refl)), qn_S, q1_eq. ring.
Qed.
Lemma Forall2_const (R : Qc -> Qc -> Prop) c vs : (forall v, In v vs -> R v c) -> Forall2 R vs (map (fun _ => c) vs).
Proof. induction vs as [|v vs IH]; intros H; constructor; [apply H; left; reflexivity|apply IH; intros w W; apply H; right; exact W]. Qed.
Lemma Forall2_const_l (R : Qc -> Qc -> Prop) c vs : (forall v, In v vs -> R c v) -> Forall2 R (map (fun _ => c) vs) vs.
Proof. induction vs as [|v vs IH]; intros H; constructor; [apply H; left; reflexivity|apply IH; intros w W; apply H; right; exact W]. Qed.
Lemma F2_In (R : Qc -> Qc -> Prop) vs ws : Forall2 R vs ws -> (forall v, In v vs -> exists w, In w ws /\ R v w) /\ (forall w, In w ws -> exists v, In v vs /\ R v w).
Proof.
  induction 1 as [|v w vs ws H F [I1 I2]]; [split; intros x []|]. split.
  - intros x [<-|X]; [exists w; split; [left; reflexivity|exact H]|]. destruct (I1 x X) as (y & Y & Z). exists y. split; [right; exact Y|exact Z].
  - intros x [<-|X]; [exists v; split; [left; reflexivity|exact H]|]. destruct (I2 x X) as (y & Y & Z). exists y. split; [right; exact Y|exact Z].
Qed.
Lemma combines_mono st vs ws v w : standard st -> Forall2 Qcle vs ws -> combines st vs v -> combines st ws w -> Qcle v w.
Proof.
  intros St F C C'. assert (Ln : length vs = length ws) by (clear - F; induction F; cbn; congruence). destruct (F2_In _ _ _ F) as [I1 I2].
  destruct C as [->|[N C]].
  - destruct C' as [->|[N' _]]; [|cbn in Ln; lia]. inversion F; subst. assumption.
  - destruct C' as [->|[N' C']]; [cbn in Ln; lia|]. destruct st as [| | |f].
    + destruct C as [_ C], C' as [C' _]. destruct (I2 w C') as (a & Ia & La). apply Qcle_trans with a; [apply C; exact Ia|exact La].
    + destruct C as [C _], C' as [_ C']. destruct (I1 v C) as (a & Ia & La). apply Qcle_trans with a; [exact La|apply C'; exact Ia].
    + destruct C as [Ne C], C' as [_ C']. rewrite Ln in C. assert (K : Qclt q0 (qn (length ws))) by (apply qn_pos; destruct vs; [congruence|cbn in Ln; lia]).
      apply (scaled_mono v w (qn (length ws)) _ _ K C C'). apply total_le. exact F.
    + destruct St.
Qed.
Lemma combines_const st vs v c : standard st -> (forall w, In w vs -> w = c) -> combines st vs v -> v = c.
Proof.
  intros St H [->|[N C]]; [apply H; left; reflexivity|]. destruct st as [| | |f].
  - apply H, C.
  - apply H, C.
  - destruct C as [Ne C]. rewrite (total_const c vs H) in C. assert (K : qn (length vs) <> q0). { intros E. assert (L : Qclt q0 (qn (length vs))) by (apply qn_pos; destruct vs; [congruence|cbn; lia]). rewrite E in L. qlra. }
    apply (mult_cancel v c (qn (length vs)) K C).
  - destruct St.
Qed.
Lemma combines_range st vs v : standard st -> (forall w, In w vs -> Qcle q0 w /\ Qcle w q1) -> combines st vs v -> Qcle q0 v /\ Qcle v q1.
Proof.
  intros St H C. destruct C as [->|[N C]]; [apply H; left; reflexivity|]. destruct st as [| | |f].
  - apply H, C.
  - apply H, C.
  - destruct C as [Ne C]. assert (K : Qclt q0 (qn (length vs))) by (apply qn_pos; destruct vs; [congruence|cbn; lia]). apply (scaled_range v _ _ K C).
    + assert (T := total_le _ _ (Forall2_const_l Qcle q0 vs (fun w W => proj1 (H w W)))). rewrite (total_const q0 (map (fun _ => q0) vs)) in T by (intros w W; apply in_map_iff in W; destruct W as (? & <- & _); reflexivity). rewrite q0_eq in T |- *. rewrite Qcmult_0_l in T. exact T.
    + assert (T := total_le _ _ (Forall2_const Qcle q1 vs (fun w W => proj2 (H w W)))). rewrite (total_const q1 (map (fun _ => q1) vs)) in T by (intros w W; apply in_map_iff in W; destruct W as (? & <- & _); reflexivity). rewrite map_length, q1_eq, Qcmult_1_l in T. exact T.
  - destruct St.
Qed.

(* ---------------- uniqueness ---------------- *)
Lemma gives_unique p lb v w : gives p lb v -> gives p lb w -> v = w.
Proof. rewrite <- !predicted_value_iff. congruence. Qed.
Lemma predicts_unique m s i lb v w : predicts m s i lb v -> predicts m s i lb w -> v = w.
Proof. rewrite <- !predicted_iff. congruence. Qed.
Lemma error_unique k a p v w : error_is k a p v -> error_is k a p w -> v = w.
Proof. rewrite <- !error_iff. congruence. Qed.
Lemma dict_value_unique x d lb a b : i_data x = Some (DDict d) -> NoDup (map fst d) -> has_value x lb a -> has_value x lb b -> a = b.
Proof.
  unfold has_value. intros -> N H1 H2. assert (E1 := dget_NoDup lb d a N H1). assert (E2 := dget_NoDup lb d b N H2). congruence.
Qed.
(* dictionary data with distinct labels *)
Definition dicts (s : series) : Prop := forall x, In x (s_items s) -> exists d, i_data x = Some (DDict d) /\ NoDup (map fst d).
Lemma ready_dicts e s : ready e s -> dicts s.
Proof.
  intros (_ & (_ & N & _) & _ & Dt & _) x X. destruct (Dt x X) as [d Dx]. exists d. split; [exact Dx|]. destruct (N x X) as [_ H]. rewrite Dx in H. apply H.
Qed.
Lemma item_error_unique D s i lb v w : dicts s -> item_error D s i lb v -> item_error D s i lb w -> v = w.
Proof.
  intros Ds (x & a & p & X & H & P & E) (x' & a' & p' & X' & H' & P' & E'). rewrite X in X'. injection X' as <-. destruct (Ds x (nth_error_In _ _ X)) as (d & Dx & N).
  rewrite (dict_value_unique x d lb a' a Dx N H' H), (predicts_unique _ _ _ _ _ _ P' P) in E'. apply (error_unique _ _ _ _ _ E E').
Qed.
Lemma deviates_unique D s i lb v w : dicts s -> deviates D s i lb v -> deviates D s i lb w -> v = w.
Proof.
  intros Ds (d & e & Dd & E & C) (d' & e' & Dd' & E' & C'). rewrite Dd in Dd'. injection Dd' as <-. rewrite (item_error_unique _ _ _ _ _ _ Ds E' E) in C'.
  destruct C as [[L ->]|[L ->]], C' as [[L' ->]|[L' ->]]; try reflexivity; exfalso; qlra.
Qed.
Lemma bound_unique D lb b x y : bound_is D lb b x -> bound_is D lb b y -> x = y.
Proof.
  intros (al & es & d & A1 & A2 & A3 & H) (al' & es' & d' & B1 & B2 & B3 & H'). rewrite A1 in B1. injection B1 as <-. rewrite A2 in B2. injection B2 as <-. rewrite A3 in B3. injection B3 as <-.
  destruct b as [q| | |q|q|].
  - congruence.
  - destruct H as [(a & Ia & ->) L], H' as [(b & Ib & ->) L']. apply Qcle_antisym; [apply L'; exact Ia|apply L; exact Ib].
  - destruct H as [Ne H], H' as [_ H']. assert (K : qn (length es) <> q0). { intros E. assert (L : Qclt q0 (qn (length es))) by (apply qn_pos; destruct es; [congruence|cbn; lia]). rewrite E in L. qlra. }
    apply (mult_cancel x y (qn (length es)) K). congruence.
  - destruct H as (sd & S1 & ->), H' as (sd' & S2 & ->). congruence.
  - destruct H as [_ H], H' as [_ H']. congruence.
  - destruct H.
Qed.
Lemma avg_le_max D lb x y : bound_is D lb BAvgErr x -> bound_is D lb BMaxErr y -> Qcle x y.
Proof.
  intros (al & es & d & A1 & A2 & A3 & Ne & H) (al' & es' & d' & B1 & B2 & B3 & _ & H'). rewrite A1 in B1. injection B1 as <-. rewrite A2 in B2. injection B2 as <-.
  assert (K : Qclt q0 (qn (length es))) by (apply qn_pos; destruct es; [congruence|cbn; lia]).
  apply (scaled_mono x y (qn (length es)) (total (map qabs es)) (total (map (fun _ => y) (map qabs es))) K H).
  - rewrite (total_const y (map (fun _ => y) (map qabs es))) by (intros w W; apply in_map_iff in W; destruct W as (? & <- & _); reflexivity). rewrite !map_length. reflexivity.
  - apply total_le, Forall2_const. intros v V. apply in_map_iff in V. destruct V as (e & <- & E). apply H'. exact E.
Qed.

(* ---------------- the index of a label ---------------- *)
Lemma cut_mono thr g g' v v' : Qcle g g' ->
  match thr with None => v = g | Some t => (Qclt g t /\ v = q0) \/ (Qcle t g /\ v = q1) end ->
  match thr with None => v' = g' | Some t => (Qclt g' t /\ v' = q0) \/ (Qcle t g' /\ v' = q1) end -> Qcle v v'.
Proof.
  intros L. destruct thr as [t|]; [|intros -> ->; exact L]. intros [[A ->]|[A ->]] [[B ->]|[B ->]]; [apply qle_refl|apply zero_le_one|exfalso; qlra|apply qle_refl].
Qed.
Lemma label_range lg D A s i lb v ls : proper_ranges lg D A ls -> In lb ls -> label_index lg D A s i lb v -> Qcle q0 v /\ Qcle v q1.
Proof.
  intros P Il (d & xs & xe & x & g & Dd & B0 & B1 & Dv & G & C). assert (R := grade_range _ _ _ _ _ _ _ (P lb d xs xe Il Dd B0 B1) G).
  destruct (aa_threshold A) as [t|]; [|subst; exact R]. destruct C as [[_ ->]|[_ ->]]; [split; [apply qle_refl|apply zero_le_one]|split; [apply zero_le_one|apply qle_refl]].
Qed.
Lemma label_mono lg D A s i s' i' lb v v' ls : proper_ranges lg D A ls -> In lb ls -> label_index lg D A s i lb v -> label_index lg D A s' i' lb v' ->
  (forall x x', deviates D s i lb x -> deviates D s' i' lb x' -> Qcle x x') -> Qcle v v'.
Proof.
  intros P Il (d & xs & xe & x & g & Dd & B0 & B1 & Dv & G & C) (d' & xs' & xe' & x' & g' & Dd' & B0' & B1' & Dv' & G' & C') L.
  rewrite Dd in Dd'. injection Dd' as <-. rewrite (bound_unique _ _ _ _ _ B0' B0), (bound_unique _ _ _ _ _ B1' B1) in G'.
  apply (cut_mono (aa_threshold A) g g'); [|exact C|exact C']. apply (grade_mono lg (aa_type A) d xs xe x x'); [apply (P lb d xs xe Il Dd B0 B1)|apply L; assumption|exact G|exact G'].
Qed.
Lemma label_zero lg D A s i lb v : label_index lg D A s i lb v -> (forall t, aa_threshold A = Some t -> Qclt q0 t) ->
  (forall x xs, deviates D s i lb x -> bound_is D lb (aa_start A) xs -> Qcle x xs) -> v = q0.
Proof.
  intros (d & xs & xe & x & g & Dd & B0 & B1 & Dv & G & C) T L. specialize (L x xs Dv B0). assert (E : g = q0). { destruct G as [[_ E]|[(C1 & _)|(C1 & _)]]; [exact E|exfalso; qlra|exfalso; qlra]. }
  subst g. destruct (aa_threshold A) as [t|]; [|exact C]. specialize (T t eq_refl). destruct C as [[_ E]|[C _]]; [exact E|exfalso; qlra].
Qed.
Lemma label_one lg D A s i lb v : label_index lg D A s i lb v -> (forall t, aa_threshold A = Some t -> Qcle t q1) ->
  (forall x xs xe, deviates D s i lb x -> bound_is D lb (aa_start A) xs -> bound_is D lb (aa_end A) xe -> Qclt xs x /\ Qcle xe x) -> v = q1.
Proof.
  intros (d & xs & xe & x & g & Dd & B0 & B1 & Dv & G & C) T L. destruct (L x xs xe Dv B0 B1) as [L1 L2]. assert (E : g = q1). { destruct G as [[C1 _]|[(_ & _ & E)|(_ & C1 & _)]]; [exfalso; qlra|exact E|exfalso; qlra]. }
  subst g. destruct (aa_threshold A) as [t|]; [|exact C]. specialize (T t eq_refl). destruct C as [[C _]|[_ E]]; [exfalso; qlra|exact E].
Qed.

(* ---------------- the index of an item ---------------- *)
Lemma item_range lg D A s i v ls : labels_of s = Ok ls -> proper_ranges lg D A ls -> standard (aa_strategy A) -> item_index_is lg D A s i v -> Qcle q0 v /\ Qcle v q1.
Proof.
  intros L P St (ls' & vs & L' & F & C). rewrite L in L'. injection L' as <-. apply (combines_range _ vs v St); [|exact C].
  intros w W. assert (X : exists lb, In lb ls /\ label_index lg D A s i lb w). { clear - F W. induction F as [|lb v ls vs H F IH]; [destruct W|]. destruct W as [<-|W]; [exists lb; split; [left; reflexivity|exact H]|]. destruct (IH W) as (k & K & R). exists k. split; [right; exact K|exact R]. }
  destruct X as (lb & Il & X). apply (label_range _ _ _ _ _ _ _ ls P Il X).
Qed.
Lemma F2_mono {A} (R R' : A -> Qc -> Prop) : forall l vs vs', (forall a v v', In a l -> R a v -> R' a v' -> Qcle v v') -> Forall2 R l vs -> Forall2 R' l vs' -> Forall2 Qcle vs vs'.
Proof.
  induction l as [|a l IH]; intros vs vs' H F F'; inversion F; inversion F'; subst; constructor; [apply (H a); [left; reflexivity|assumption|assumption]|].
  apply IH; [intros b w w' Ib; apply H; right; exact Ib|assumption|assumption].
Qed.
Lemma F2_all {A} (R : A -> Qc -> Prop) (c : Qc) l vs : (forall a v, In a l -> R a v -> v = c) -> Forall2 R l vs -> forall v, In v vs -> v = c.
Proof.
  intros H F. induction F as [|a v l vs Hv F IH]; intros w W; [destruct W|]. destruct W as [<-|W]; [apply (H a v); [left; reflexivity|exact Hv]|apply IH; [intros b u Ib; apply H; right; exact Ib|exact W]].
Qed.
Lemma item_mono lg D A s i s' i' v v' ls : labels_of s = Ok ls -> labels_of s' = Ok ls -> proper_ranges lg D A ls -> standard (aa_strategy A) -> item_index_is lg D A s i v -> item_index_is lg D A s' i' v' ->
  (forall lb x x', In lb ls -> deviates D s i lb x -> deviates D s' i' lb x' -> Qcle x x') -> Qcle v v'.
Proof.
  intros L L' P St (l1 & vs & L1 & F & C) (l2 & vs' & L2 & F' & C') H. rewrite L in L1. injection L1 as <-. rewrite L' in L2. injection L2 as <-.
  apply (combines_mono _ vs vs' v v' St); [|exact C|exact C']. apply (F2_mono (label_index lg D A s i) (label_index lg D A s' i') ls); [|exact F|exact F'].
  intros lb a a' Il H1 H2. apply (label_mono lg D A s i s' i' lb a a' ls P Il H1 H2). intros x x'. apply H. exact Il.
Qed.
Lemma item_zero lg D A s i v ls : labels_of s = Ok ls -> standard (aa_strategy A) -> item_index_is lg D A s i v -> (forall t, aa_threshold A = Some t -> Qclt q0 t) ->
  (forall lb x xs, In lb ls -> deviates D s i lb x -> bound_is D lb (aa_start A) xs -> Qcle x xs) -> v = q0.
Proof.
  intros L St (l1 & vs & L1 & F & C) T H. rewrite L in L1. injection L1 as <-. apply (combines_const _ vs v q0 St); [|exact C].
  apply (F2_all (label_index lg D A s i) q0 ls); [|exact F]. intros lb a Il H1. apply (label_zero lg D A s i lb a H1 T). intros x xs. apply H. exact Il.
Qed.
Lemma item_one lg D A s i v ls : labels_of s = Ok ls -> standard (aa_strategy A) -> item_index_is lg D A s i v -> (forall t, aa_threshold A = Some t -> Qcle t q1) ->
  (forall lb x xs xe, In lb ls -> deviates D s i lb x -> bound_is D lb (aa_start A) xs -> bound_is D lb (aa_end A) xe -> Qclt xs x /\ Qcle xe x) -> v = q1.
Proof.
  intros L St (l1 & vs & L1 & F & C) T H. rewrite L in L1. injection L1 as <-. apply (combines_const _ vs v q1 St); [|exact C].
  apply (F2_all (label_index lg D A s i) q1 ls); [|exact F]. intros lb a Il H1. apply (label_one lg D A s i lb a H1 T). intros x xs xe. apply H. exact Il.
Qed.
