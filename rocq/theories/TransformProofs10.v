(* TransformProofs10.v -- the whole process. *)
From Verif Require Import SpecTransform BaseLemmas AccessProofs AccessProofs3 DictLemmas OpsProofs OpsProofs2 OpsProofs3
  IntervalsProofs IntervalsProofs2 IntervalsProofs3 InterpProofs TransformProofs TransformProofs2 TransformProofs3 TransformProofs4 TransformProofs5 TransformProofs6 TransformProofs7 TransformProofs8 TransformProofs9.

Definition reg_of (p : vpoint) : region := mkRegion (i_t (vp_item p)) (vp_from p) (vp_to p).

(* ---------------- more fuel does not change the result ---------------- *)
Lemma spin_mono P s names auto si i t : forall f st a, spin f P s names auto si i t st = Ok a -> spin (S f) P s names auto si i t st = Ok a.
Proof.
  induction f as [|f IHf]; intros st1 a X; cbn [spin] in *.
  - destruct (qleb (st_end st1) t); [discriminate|exact X].
  - destruct (qleb (st_end st1) t); [|exact X]. destruct (match st_start st1 with Some a0 => close_slot P s names auto si i st1 a0 | None => Ok st1 end) as [st4|]; [|discriminate]. cbn [bind] in *. apply IHf. exact X.
Qed.
Lemma process_mono P s names auto si from to f st x a : process_point f P s names auto si from to st x = Ok a -> process_point (S f) P s names auto si from to st x = Ok a.
Proof.
  unfold process_point. destruct x as [i t]. destruct (qltb t from); [auto|]. destruct (qleb to t && st_ended st)%bool; [auto|]. destruct (qleb (st_end st) t); [|auto].
  destruct (spin f P s names auto si i t st) as [st'|] eqn:E; [|discriminate]. rewrite (spin_mono _ _ _ _ _ _ _ _ _ _ E). auto.
Qed.
Lemma foldM_mono {A B} (f g : A -> B -> result A) : (forall a b c, f a b = Ok c -> g a b = Ok c) -> forall l a c, foldM f l a = Ok c -> foldM g l a = Ok c.
Proof.
  intros H. induction l as [|x l IH]; intros a c E; [exact E|]. cbn in *. destruct (f a x) as [b|] eqn:Eb; [|discriminate]. rewrite (H _ _ _ Eb). cbn in *. apply IH. exact E.
Qed.
Lemma process_fuel P s names auto si from to l st a f f' : f <= f' -> foldM (process_point f P s names auto si from to) l st = Ok a -> foldM (process_point f' P s names auto si from to) l st = Ok a.
Proof. intros H. induction H as [|f' H IH]; [auto|]. intros E. apply (foldM_mono (process_point f' P s names auto si from to)); [intros; apply process_mono; assumption|auto]. Qed.

(* ---------------- the points with their regions ---------------- *)
Lemma find_region rs : strictly_increasing (map r_t rs) -> forall r, In r rs -> find (fun r' => qeqb (r_t r') (r_t r)) rs = Some r.
Proof.
  induction rs as [|a rs IH]; intros H r Hr; [destruct Hr|]. cbn [find]. cbn [map] in H. apply si_cons in H. destruct H as [H1 H2].
  destruct Hr as [<- |Hr]; [rewrite qeqb_refl; reflexivity|]. destruct (qeqb_spec (r_t a) (r_t r)) as [E|_]; [|apply IH; assumption].
  exfalso. pose proof (H2 (r_t r) (in_map _ _ _ Hr)) as L. rewrite E in L. apply (Qclt_not_eq _ _ L). reflexivity.
Qed.
Definition attach_all (l : list item) (rs : list region) : list vpoint := map (fun xr => mkVp (fst xr) (r_from (snd xr)) (r_to (snd xr)) false) (combine l rs).
Lemma attach_map rs0 : strictly_increasing (map r_t rs0) -> forall l rs, (forall r, In r rs -> In r rs0) -> map r_t rs = times l -> mapM (attach rs0) l = Ok (attach_all l rs).
Proof.
  intros H. induction l as [|x l IH]; intros rs Hr E; [reflexivity|]. destruct rs as [|r rs]; [discriminate|]. cbn [times map] in E. injection E as Er E.
  cbn [mapM]. unfold attach at 1. rewrite <- Er. rewrite (find_region rs0 H r) by (apply Hr; left; reflexivity). cbn [bind]. rewrite (IH rs); [reflexivity|intros; apply Hr; right; assumption|exact E].
Qed.
Lemma attach_all_items l rs : length rs = length l -> map vp_item (attach_all l rs) = l.
Proof. revert rs. induction l as [|x l IH]; intros [|r rs] E; try discriminate; [reflexivity|]. cbn. f_equal. apply IH. cbn in E. lia. Qed.
Lemma attach_all_regions l rs : map r_t rs = times l -> map reg_of (attach_all l rs) = rs.
Proof. revert rs. induction l as [|x l IH]; intros [|r rs] E; try discriminate; [reflexivity|]. cbn in *. injection E as E1 E2. unfold reg_of at 1. cbn. rewrite <- E1. destruct r; cbn. f_equal. apply IH. exact E2. Qed.
Lemma attach_ok l si auto : strictly_increasing (times l) -> Qclt q0 si ->
  exists rs pts, validity_regions l None None (Some si) auto false = Ok rs /\ mapM (attach rs) l = Ok pts /\ with_regions si l pts.
Proof.
  intros H L. exists (regs si None (times l)), (attach_all l (regs si None (times l))). pose proof (regs_tile si (times l) L H) as T. assert (E : map r_t (regs si None (times l)) = times l) by apply T.
  split; [|split].
  - unfold validity_regions. rewrite andb_false_r. unfold interval_or. destruct (qeqb_spec si q0) as [->|_]; [exfalso; apply (Qclt_not_eq _ _ L); reflexivity|]. cbn [bind]. rewrite loop_regs0. reflexivity.
  - apply attach_map; [rewrite E; exact H|auto|exact E].
  - split; [apply attach_all_items; rewrite regs_len; unfold times; rewrite map_length; reflexivity|]. split.
    + intros p Hp. unfold attach_all in Hp. apply in_map_iff in Hp. destruct Hp as (y & <- & _). reflexivity.
    + fold reg_of. rewrite (attach_all_regions l _ E). exact T.
Qed.
Lemma nth_error_ext {A} (l l' : list A) : (forall n, nth_error l n = nth_error l' n) -> l = l'.
Proof.
  revert l'. induction l as [|x l IH]; intros [|y l'] H; [reflexivity|discriminate (H 0)|discriminate (H 0)|]. f_equal; [specialize (H 0); cbn in H; congruence|]. apply IH. intros n. apply (H (S n)).
Qed.
(* the regions are determined *)
Lemma regions_unique si l pts pts' : with_regions si l pts -> with_regions si l pts' -> pts = pts'.
Proof.
  intros (E1 & I1 & T1) (E2 & I2 & T2). assert (R : map reg_of pts = map reg_of pts').
  { fold reg_of in T1, T2. apply nth_error_ext. intros n. destruct T1 as (A1 & _ & _ & C1 & F1 & L1), T2 as (A2 & _ & _ & C2 & F2 & L2).
    assert (LL : length (map reg_of pts) = length (map reg_of pts')) by (rewrite <- (map_length r_t (map reg_of pts)), <- (map_length r_t (map reg_of pts')), A1, A2; reflexivity).
    destruct (nth_error (map reg_of pts) n) as [r|] eqn:Er; [|apply nth_error_None in Er; symmetry; apply nth_error_None; lia].
    destruct (nth_error (map reg_of pts') n) as [r'|] eqn:Er'; [|apply nth_error_None in Er'; assert (X : nth_error (map reg_of pts) n <> None) by congruence; apply nth_error_Some in X; lia].
    assert (Et : forall m a b, nth_error (map reg_of pts) m = Some a -> nth_error (map reg_of pts') m = Some b -> r_t a = r_t b).
    { intros m a b Ha Hb. assert (X : nth_error (map r_t (map reg_of pts)) m = nth_error (map r_t (map reg_of pts')) m) by congruence. rewrite (nth_error_map r_t), (nth_error_map r_t), Ha, Hb in X. injection X as X. exact X. }
    pose proof (Et n r r' Er Er') as E. f_equal. destruct r as [t f o], r' as [t' f' o']. cbn in E. subst t'. f_equal.
    - destruct n as [|n]; [pose proof (F1 _ Er) as Y1; pose proof (F2 _ Er') as Y2; cbn in Y1, Y2; congruence|].
      destruct (nth_error (map reg_of pts) n) as [b|] eqn:Eb; [|apply nth_error_None in Eb; assert (X : nth_error (map reg_of pts) (S n) <> None) by congruence; apply nth_error_Some in X; lia].
      destruct (nth_error (map reg_of pts') n) as [b'|] eqn:Eb'; [|apply nth_error_None in Eb'; assert (X : nth_error (map reg_of pts') (S n) <> None) by congruence; apply nth_error_Some in X; lia].
      pose proof (C1 n _ _ Eb Er) as K1. pose proof (C2 n _ _ Eb' Er') as K2. cbn [r_t r_from r_to] in K1, K2. rewrite (Et n b b' Eb Eb') in K1. destruct (qltb (Qcminus t (r_t b')) si); destruct K1 as [_ K1], K2 as [_ K2]; congruence.
    - destruct (Nat.eq_dec n (length (map reg_of pts) - 1)) as [En|En].
      + assert (En' : n = length (map reg_of pts') - 1) by lia. rewrite En in Er. rewrite En' in Er'. pose proof (L1 _ Er). pose proof (L2 _ Er'). cbn in *. congruence.
      + assert (X : n < length (map reg_of pts)) by (apply nth_error_Some; congruence).
        destruct (nth_error (map reg_of pts) (S n)) as [b|] eqn:Eb; [|apply nth_error_None in Eb; lia].
        destruct (nth_error (map reg_of pts') (S n)) as [b'|] eqn:Eb'; [|apply nth_error_None in Eb'; lia].
        pose proof (C1 n _ _ Er Eb) as K1. pose proof (C2 n _ _ Er' Eb') as K2. cbn [r_t r_from r_to] in K1, K2. rewrite (Et (S n) b b' Eb Eb') in K1. destruct (qltb (Qcminus (r_t b') t) si); destruct K1 as [K1 _], K2 as [K2 _]; congruence. }
  rewrite <- E2 in E1. clear - E1 I1 I2 R. revert pts' E1 I2 R. induction pts as [|p l IH]; intros [|p' l'] E1 I2 R; try discriminate; [reflexivity|].
  cbn in *. injection E1 as E1 E1'. assert (R0 : reg_of p = reg_of p') by congruence. assert (R1 : map reg_of l = map reg_of l') by congruence. f_equal; [|apply IH; auto].
  pose proof (I1 p (or_introl eq_refl)). pose proof (I2 p' (or_introl eq_refl)). assert (F : vp_from p = vp_from p') by (change (r_from (reg_of p) = r_from (reg_of p')); congruence).
  assert (T : vp_to p = vp_to p') by (change (r_to (reg_of p) = r_to (reg_of p')); congruence). destruct p, p'; cbn in *. congruence.
Qed.
Lemma regions_placed si l pts : with_regions si l pts -> strictly_increasing (times l) -> placed pts.
Proof.
  intros (E & I & T) H. fold reg_of in T. destruct T as (_ & T1 & T2 & _). split; [|split].
  - rewrite <- E in H. unfold times in H. rewrite map_map in H. exact H.
  - intros p Hp. split; [apply I; exact Hp|]. destruct (T1 (reg_of p) (in_map _ _ _ Hp)) as (A & B & _). split; assumption.
  - intros i j p q L Hp Hq. apply (T2 i j (reg_of p) (reg_of q) L); rewrite nth_error_map; [rewrite Hp|rewrite Hq]; reflexivity.
Qed.
Lemma regions_good si s pts : with_regions si (s_items s) pts -> dict_points s -> good pts.
Proof.
  intros (E & _) (D1 & D2 & D3). unfold good. rewrite E. split; [exact D1|split; [exact D2|]]. intros p Hp. apply D3. rewrite <- E. apply in_map. exact Hp.
Qed.
Lemma points_increasing s : dict_points s -> strictly_increasing (times (s_items s)).
Proof. intros (_ & (_ & H & _) & _). exact H. Qed.

(* ---------------- the boundaries of the slots ---------------- *)
Lemma lasting_inc c u : lasting c u -> forall t, Qclt t (unit_shift c u t 1).
Proof. intros (m & Hm & H) t. pose proof (H t). qlra. Qed.
Lemma lasting_grid c u m from : (forall t, Qcle (Qcplus t m) (unit_shift c u t 1)) -> forall k, Qcle (Qcplus from (Qcmult (qn k) m)) (grid c u from k).
Proof.
  intros H. induction k as [|k IH]; [cbn [grid]; change (qn 0) with q0; rewrite q0_eq, Qcmult_0_l, Qcplus_0_r; apply Qcle_refl|].
  cbn [grid]. pose proof (H (grid c u from k)) as X. rewrite qn_S. rewrite q1_eq, Qcmult_plus_distr_l, Qcmult_1_l. qlra.
Qed.
Lemma archimedes a m : Qclt q0 m -> exists k, Qclt a (Qcmult (qn k) m).
Proof.
  intros Hm. exists (Z.to_nat (Qnum (this (Qcdiv a m))) + 1). assert (N : m <> q0) by (intros E; apply (Qclt_not_eq _ _ Hm); congruence).
  assert (K : Qclt (Qcdiv a m) (qn (Z.to_nat (Qnum (this (Qcdiv a m))) + 1))).
  { generalize (Qcdiv a m). intros x. unfold Qclt, qn, qz, Q2Qc. cbn [this]. rewrite Qred_correct. unfold Qlt. cbn. nia. }
  revert K. generalize (qn (Z.to_nat (Qnum (this (Qcdiv a m))) + 1)). intros z K.
  apply (Qcmult_lt_compat_r _ _ m Hm) in K. replace (Qcmult (Qcdiv a m) m) with a in K by (field; exact N). exact K.
Qed.
Lemma lasting_reach c u from : lasting c u -> forall ts, exists Kmax, forall t, In t ts -> Qclt t (grid c u from Kmax).
Proof.
  intros H. pose proof (lasting_inc c u H) as Hinc. destruct H as (m & Hm & H). induction ts as [|a ts [K IH]]; [exists 0; intros ? []|].
  destruct (archimedes (Qcminus a from) m Hm) as [k Hk]. exists (k + K). 
  assert (Mono : forall j n, Qcle (grid c u from j) (grid c u from (n + j))).
  { intros j. induction n as [|n IHn]; [apply Qcle_refl|]. cbn. pose proof (Hinc (grid c u from (n + j))). qlra. }
  intros t [<- |Ht].
  - pose proof (lasting_grid c u m from H k) as X. pose proof (Mono k K) as Y. rewrite Nat.add_comm. set (w := Qcmult (qn k) m) in *. clearbody w. qlra.
  - pose proof (IH t Ht) as X. pose proof (Mono K k) as Y. qlra.
Qed.
Lemma phys_lasting c d : Qclt q0 d -> lasting c (UPhys d).
Proof. intros H. exists d. split; [exact H|]. intros t. cbn. change (qz 1) with q1. rewrite q1_eq, Qcmult_1_l. apply Qcle_refl. Qed.
Lemma grid_after c u t k : grid c u t k = units_after c u t k.
Proof. induction k as [|k IH]; [reflexivity|]. cbn. rewrite IH. reflexivity. Qed.
Lemma phys_after c d t k : units_after c (UPhys d) t k = Qcplus t (Qcmult (qn k) d).
Proof.
  induction k as [|k IH]; [cbn [units_after]; change (qn 0) with q0; rewrite q0_eq, Qcmult_0_l, Qcplus_0_r; reflexivity|].
  cbn [units_after]. rewrite IH. cbn [unit_shift]. rewrite qn_S. change (qz 1) with q1. ring.
Qed.

(* ---------------- the mean ---------------- *)
Definition valued (lb : string) (pts : list vpoint) : list (vpoint * Qc) := map (fun p => (p, valof (vp_item p) lb)) pts.
Lemma overlap_nonzero a b F T : overlap a b F T <> q0 -> Qclt (qmax a F) (qmin b T).
Proof. intros E. apply Qcnot_le_lt. intros X. apply E. clear E. unfold overlap. qmm; qlra. Qed.
Lemma fills_gaps lb F T pts : Qclt F T -> placed pts -> fills lb F T pts = line_in_gaps F T (valued lb pts).
Proof.
  intros L. induction pts as [|p l IH]; intros H; [reflexivity|]. destruct l as [|q l]; [reflexivity|].
  change (line_in_gaps F T (valued lb (p :: q :: l))) with (Qcplus (Qcmult (overlap (vp_to p) (vp_from q) F T)
                   (line_value (i_t (vp_item p)) (valof (vp_item p) lb) (i_t (vp_item q)) (valof (vp_item q) lb) (midpoint (qmax (vp_to p) F) (qmin (vp_from q) T)))) (line_in_gaps F T (valued lb (q :: l)))).
  change (fills lb F T (p :: q :: l)) with (Qcplus (fill lb F T p q) (fills lb F T (q :: l))). rewrite IH.
  - f_equal. unfold fill. destruct (qeqb_spec (overlap (vp_to p) (vp_from q) F T) q0) as [E|E]; [rewrite E, q0_eq, !Qcmult_0_l; reflexivity|]. f_equal.
    destruct H as (H1 & H2 & H3). assert (G : gap_mid F T p q = midpoint (qmax (vp_to p) F) (qmin (vp_from q) T)).
    { apply overlap_nonzero in E. unfold gap_mid, gap_from, gap_to, midpoint, overlap. clear - E L.
      destruct (qltb_spec (vp_to p) F), (qltb_spec T (vp_from q)); unfold qhalf, q2 in *; revert E; qmm; intros; qlra. }
    rewrite G. unfold line, line_value. f_equal. assert (N : Qcminus (i_t (vp_item q)) (i_t (vp_item p)) <> q0).
    { intros X. assert (Y : Qclt (tm p) (tm q)) by (apply (H1 0 1); [lia|reflexivity|reflexivity]). unfold tm in Y. qlra. }
    field. exact N.
  - destruct H as (H1 & H2 & H3). split; [cbn in H1; apply si_cons in H1; apply H1|]. split; [auto using in_cons|]. intros i j x y K Hx Hy. apply (H3 (S i) (S j)); [lia|exact Hx|exact Hy].
Qed.
Lemma mean_signal lb F T pts : Qclt F T -> placed pts -> signal_mean lb F T pts = mean_over F T (valued lb pts).
Proof. intros L H. unfold signal_mean, mean_over. rewrite fills_gaps by assumption. unfold valued at 2. rewrite map_map. reflexivity. Qed.
Lemma column_valued lb pts vs : numeric (map vp_item pts) -> column lb (map vp_item pts) vs -> combine pts vs = valued lb pts.
Proof.
  intros (_ & N & _). revert vs. assert (N' : forall p, In p pts -> numeric_item (vp_item p)) by (intros p Hp; apply N; apply in_map; exact Hp). clear N. induction pts as [|p l IH]; intros vs H; inversion H; subst; [reflexivity|].
  cbn. f_equal; [f_equal; symmetry; apply valof_spec; [apply N'; left; reflexivity|assumption]|]. apply IH; [auto using in_cons|assumption].
Qed.
