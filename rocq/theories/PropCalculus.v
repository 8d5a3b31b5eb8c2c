(* PropCalculus.v -- THEOREMS C101: derivatives and integrals of series with any sampling. *)
From Verif Require Import SpecCalculus BaseLemmas AccessProofs AccessProofs2 DictLemmas AccessProofs3 OpsProofs OpsProofs2 OpsProofs3 OpsProofs4 OpsProofs5 OpsProofs6 OpsProofs7 OpsProofs8 OpsProofs9 MergeProofs OpsProofs10 Witness PropTactics PropAccess PropOps.

Definition tval (l : list item) (i : nat) : Qc := match nth_error l i with Some x => i_t x | None => q0 end.
Lemma tval_ok l i x : nth_error l i = Some x -> tval l i = i_t x.
Proof. intros H. unfold tval. rewrite H. reflexivity. Qed.
Lemma step_pos l i : strictly_increasing (times l) -> S i < length l -> Qclt (tval l i) (tval l (S i)).
Proof.
  intros H L. destruct (nth_ex l i) as [x X]; [lia|]. destruct (nth_ex l (S i)) as [y Y]; [lia|]. rewrite (tval_ok _ _ _ X), (tval_ok _ _ _ Y).
  apply (H i (S i)); [lia| |]; unfold times; rewrite nth_error_map; [rewrite X|rewrite Y]; reflexivity.
Qed.
Lemma step_ne l i : strictly_increasing (times l) -> S i < length l -> Qcminus (tval l (S i)) (tval l i) <> q0.
Proof. intros H L E. pose proof (step_pos l i H L) as P. assert (Qclt (tval l i) (tval l i)); [|qlra]. assert (tval l (S i) = tval l i) by qlra. congruence. Qed.
Lemma change_ok l i lb q dt : numeric l -> label_in l lb -> S i < length l -> (change l i lb q dt <-> q = Qcminus (nval l (S i) lb) (nval l i lb) /\ dt = Qcminus (tval l (S i)) (tval l i)).
Proof.
  intros N B L. destruct (nth_ex l i) as [x X]; [lia|]. destruct (nth_ex l (S i)) as [y Y]; [lia|]. rewrite (tval_ok _ _ _ X), (tval_ok _ _ _ Y). split.
  - intros (x' & y' & v & w & X' & Y' & V & W & -> & ->). rewrite X in X'. rewrite Y in Y'. injection X' as <-. injection Y' as <-.
    rewrite (nval_value l i x lb N X v V), (nval_value l (S i) y lb N Y w W). split; reflexivity.
  - intros [-> ->]. exists x, y, (nval l i lb), (nval l (S i) lb). split; [exact X|]. split; [exact Y|]. split; [apply nval_has; assumption|]. split; [apply nval_has; assumption|]. split; reflexivity.
Qed.
Definition gder (l : list item) (a : Qc) (i : nat) (lb : string) : Qc :=
  if Nat.eqb i 0 then Qcdiv (Qcminus (nval l 1 lb) (nval l 0 lb)) a
  else if Nat.eqb i (length l - 1) then Qcdiv (Qcminus (nval l i lb) (nval l (i - 1) lb)) a
  else Qcdiv (Qcplus (Qcdiv (Qcminus (nval l i lb) (nval l (i - 1) lb)) (Qcminus (tval l i) (tval l (i - 1)))) (Qcdiv (Qcminus (nval l (S i) lb) (nval l i lb)) (Qcminus (tval l (S i)) (tval l i)))) q2.
Lemma gder_spec l a i lb w : numeric l -> label_in l lb -> 2 <= length l -> i < length l -> (derivative_at l a i lb w <-> w = gder l a i lb).
Proof.
  intros N B L I. unfold derivative_at, gder. destruct (Nat.eqb_spec i 0) as [->|I0]; [|destruct (Nat.eqb_spec i (length l - 1)) as [I1|I1]].
  - split; [intros (q & dt & C & ->); apply change_ok in C; [|assumption|assumption|lia]; destruct C as [-> _]; reflexivity|]. intros ->. eexists. eexists. split; [apply change_ok; [assumption|assumption|lia|split; reflexivity]|reflexivity].
  - assert (E : S (i - 1) = i) by lia. split.
    + intros (q & dt & C & ->). apply change_ok in C; [|assumption|assumption|lia]. destruct C as [-> _]. rewrite E. reflexivity.
    + intros ->. eexists. eexists. split; [apply change_ok; [assumption|assumption|lia|split; reflexivity]|]. rewrite E. reflexivity.
  - assert (E : S (i - 1) = i) by lia. split.
    + intros (q & dt & q' & dt' & C & C' & ->). apply change_ok in C; [|assumption|assumption|lia]. apply change_ok in C'; [|assumption|assumption|lia]. destruct C as [-> ->], C' as [-> ->]. rewrite E. reflexivity.
    + intros ->. do 4 eexists. split; [apply change_ok; [assumption|assumption|lia|split; reflexivity]|]. split; [apply change_ok; [assumption|assumption|lia|split; reflexivity]|]. rewrite E. reflexivity.
Qed.
Lemma spaced_t l d i : equally_spaced d (times l) -> S i < length l -> Qcminus (tval l (S i)) (tval l i) = d.
Proof.
  intros H L. destruct (nth_ex l i) as [x X]; [lia|]. destruct (nth_ex l (S i)) as [y Y]; [lia|]. rewrite (tval_ok _ _ _ X), (tval_ok _ _ _ Y).
  apply (H i); unfold times; rewrite nth_error_map; [rewrite X|rewrite Y]; reflexivity.
Qed.
Lemma sampled_all e s auto a : sampled e s auto a -> built e s /\ healthy e s /\ numeric (s_items s) /\ wf_items (s_items s) /\ Qclt q0 a.
Proof.
  intros [R|(B & N & W & _ & _ & P)].
  - pose proof R as (B & N & P & _). split; [exact B|]. split; [exact (regular_healthy e s a R)|]. split; [exact N|]. split; [exact (regular_wf e s a R)|exact P].
  - split; [exact B|]. split; [split; [apply built_history; assumption|split; assumption]|]. split; [exact N|]. split; [exact W|exact P].
Qed.
Lemma derivative_values e c s auto a : parses_units e -> sampled e s auto a -> 2 <= length (s_items s) ->
  exists r, op_derivative e c s auto = Ok r /\ fresh e r /\ numeric (s_items r) /\ wf_items (s_items r) /\ length (s_items r) = length (s_items s) /\ times (s_items r) = times (s_items s) /\
    forall i x y, nth_error (s_items s) i = Some x -> nth_error (s_items r) i = Some y -> same_time x y /\ i_idx y = i_idx x /\ values_by x y "derivative" (fun lb w => w = gder (s_items s) a i lb).
Proof.
  intros He Sa L. destruct (sampled_all e s auto a Sa) as (B & (Hh & _) & N & W & P). assert (Pa : a <> q0) by (intros ->; qlra). pose proof (wf_items_times _ W) as Ti.
  destruct Sa as [R|(_ & _ & _ & Rs & -> & _)].
  - pose proof (regular_res e s a R L) as Hr. pose proof (regular_spaced e s a R) as Hs.
    destruct (derivative_spec e c s (UPhys a) a auto He Hh N W L Hr (fun x _ => eq_refl) Pa) as (r & R1 & R2 & R3 & R4 & R5 & R6 & R7). exists r. do 6 (split; [assumption|]). intros i x y X Y. destruct (R7 i x y X Y) as (S1 & S2 & S3). split; [exact S1|]. split; [exact S2|].
    refine (values_by_ext _ _ _ _ _ (fun lb w _ => _) S3). assert (E : slope_at (s_items s) a i lb = gder (s_items s) a i lb); [|rewrite E; reflexivity]. unfold slope_at, gder. destruct (Nat.eqb_spec i 0); [reflexivity|]. destruct (Nat.eqb_spec i (length (s_items s) - 1)); [reflexivity|].
    apply nth_error_Some_lt in X. assert (Q1 := spaced_t _ _ (i - 1) Hs). replace (S (i - 1)) with i in Q1 by lia. rewrite Q1, (spaced_t _ _ i Hs), Nat.add_1_r by lia. field. split; [exact Pa|exact q2_neq_q0].
  - unfold resolution in Rs. destruct (prep_ok e s Hh N) as (x & l & El & Hp).
    destruct (positional_series e s "derivative" (gder (s_items s) a) i_idx 0 He N W x l El) as (r & Hr & H1 & H2 & H3 & H4 & H5 & H6); [lia|].
    exists r. split; [|split; [exact H1|split; [exact H2|split; [exact H3|split; [lia|split; [exact H5|exact H6]]]]]].
    unfold op_derivative, op_derivative_gen. rewrite Hp. cbn [bind fst snd]. destruct (Nat.eqb_spec (length (s_items s)) 1); [lia|]. unfold op_interval. rewrite Rs. cbn [bind fst snd].
    unfold der_items. rewrite filter_all. rewrite (positional x (postfix "derivative") i_idx _ (gder (s_items s) a)); [exact Hr|].
    intros i lb Hi Hlb. rewrite skipn_length in Hi. assert (Hb : label_in (s_items s) lb) by (eapply label_first; eassumption). unfold der_value, gder. destruct (Nat.eqb_spec i 0) as [->|Hi0]; [rewrite !val_ok by (try assumption; lia); cbn [bind]; apply qdiv_ok, Pa|].
    destruct (Nat.eqb_spec i (length (s_items s) - 1)); [rewrite !val_ok by (try assumption; lia); cbn [bind]; apply qdiv_ok, Pa|].
    rewrite !val_ok by (try assumption; lia). cbn [bind]. rewrite Nat.add_1_r. destruct (nth_ex (s_items s) (i - 1)) as [xa Xa]; [lia|]. destruct (nth_ex (s_items s) i) as [xb Xb]; [lia|]. destruct (nth_ex (s_items s) (S i)) as [xd Xd]; [lia|]. rewrite Xa, Xb, Xd.
    assert (Q1 := step_ne _ (i - 1) Ti). replace (S (i - 1)) with i in Q1 by lia. assert (Q2 := step_ne _ i Ti). rewrite (tval_ok _ _ _ Xa), (tval_ok _ _ _ Xb) in *. rewrite (tval_ok _ _ _ Xd) in *.
    rewrite (qdiv_ok _ _ (Q1 ltac:(lia))), (qdiv_ok _ _ (Q2 ltac:(lia))). cbn [bind]. apply qdiv_ok, q2_neq_q0.
Qed.

(* ---------------- C101 ---------------- *)
Theorem C101_derivative : forall e c s auto a, parses_units e -> sampled e s auto a -> 2 <= length (s_items s) ->
  exists r, op_derivative e c s auto = Ok r /\ healthy e r /\ times (s_items r) = times (s_items s) /\
    forall i x y, nth_error (s_items s) i = Some x -> nth_error (s_items r) i = Some y -> in_place_of x y /\ values_by x y "derivative" (derivative_at (s_items s) a i).
Proof.
  intros e c s auto a He Sa L. destruct (derivative_values e c s auto a He Sa L) as (r & R1 & R2 & R3 & R4 & R5 & R6 & R7). destruct (sampled_all e s auto a Sa) as (_ & _ & N & _).
  exists r. split; [exact R1|]. split; [split; [apply fresh_history; assumption|split; assumption]|]. split; [exact R6|]. intros i x y X Y. destruct (R7 i x y X Y) as (S1 & S2 & S3). split; [split; assumption|].
  refine (values_by_ext _ _ _ _ _ (fun lb w Hl => _) S3). symmetry. apply gder_spec; [exact N| |exact L|apply nth_error_Some_lt in X; exact X]. exists x. split; [apply nth_error_In in X; exact X|exact Hl].
Qed.
Print Assumptions C101_derivative.

(* ---- the integral, for one label ---- *)
Definition dstep (var : bool) (si : Qc) (l : list item) (i : nat) : Qc := if var then Qcminus (tval l i) (tval l (i - 1)) else si.
Fixpoint isum (dt : nat -> Qc) (y : nat -> Qc) (i : nat) : Qc := match i with 0 => q0 | S j => Qcplus (isum dt y j) (Qcmult (lcomp y (S j)) (dt (S j))) end.
Definition int_inv' (k : konst) (lb : string) (c : Qc) (dt y : nat -> Qc) (i : nat) (st : int_state) : Prop :=
  match i with
  | 0 => dget lb (it_last st) = None /\ (forall v, add_konst v k lb = Ok (Qcplus v c))
  | S j => dget lb (it_last st) = Some (Qcplus c (isum dt y j)) /\ it_prc st = Some (lcomp y j)
  end.
Lemma int_items_any first lb var si k c l : numeric_item first -> item_labels first = [lb] -> (forall i, i < length l -> val l i lb = Ok (nval l i lb)) ->
  forall rest i st, length l = i + length rest -> int_inv' k lb c (dstep var si l) (fun i => nval l i lb) i st ->
  int_items first [lb] true var si k l i st rest = Ok (rebuilt_list first (postfix "integral") (fun i _ lb => Qcplus c (isum (dstep var si l) (fun i => nval l i lb) i)) i_idx i rest).
Proof.
  intros Hf El Hv. induction rest as [|x rest IH]; intros i st Hlen Hst; cbn [int_items]; [reflexivity|]. cbn [length] in Hlen.
  set (w := Qcplus c (isum (dstep var si l) (fun i => nval l i lb) i)).
  assert (E : exists st', int_labels true var si k l i st [lb] = Ok (st', [w]) /\ int_inv' k lb c (dstep var si l) (fun i => nval l i lb) (S i) st').
  { cbn [int_labels]. unfold int_label. destruct i as [|j].
    - destruct Hst as [H1 H2]. cbn [Nat.eqb]. rewrite Hv by lia. cbn [bind]. assert (Z : (if var then Ok (Qcmult q0 si) else Ok (Qcmult q0 si)) = Ok (Qcmult q0 si)) by (destruct var; reflexivity). rewrite Z. cbn [bind]. rewrite H1, H2. cbn [bind fst snd].
      eexists. split; [f_equal; f_equal; f_equal; unfold w; cbn [isum]; rewrite q0_eq; ring|]. cbn [int_inv' it_last it_prc]. rewrite dget_dset, String.eqb_refl. split; [f_equal; cbn [isum]; rewrite q0_eq; ring|reflexivity].
    - destruct Hst as [H1 H2]. cbn [Nat.eqb Nat.sub]. rewrite Nat.sub_0_r. rewrite Hv by lia. cbn [bind]. rewrite H2. cbn [bind].
      destruct (nth_ex l (S j)) as [xa Xa]; [lia|]. destruct (nth_ex l j) as [xb Xb]; [lia|]. rewrite Xa, Xb.
      assert (Z : (if var then Ok (Qcmult (Qcminus (Qcmult (nval l j lb) q2) (lcomp (fun i => nval l i lb) j)) (Qcminus (i_t xa) (i_t xb))) else Ok (Qcmult (Qcminus (Qcmult (nval l j lb) q2) (lcomp (fun i => nval l i lb) j)) si)) = Ok (Qcmult (lcomp (fun i => nval l i lb) (S j)) (dstep var si l (S j)))).
      { unfold dstep. cbn [Nat.sub]. rewrite Nat.sub_0_r, (tval_ok _ _ _ Xa), (tval_ok _ _ _ Xb). destruct var; reflexivity. }
      rewrite Z. cbn [bind]. rewrite H1. cbn [bind fst snd].
      eexists. split; [f_equal; f_equal; f_equal; unfold w; cbn [isum]; ring|]. cbn [int_inv' it_last it_prc]. rewrite dget_dset, String.eqb_refl. split; [f_equal; cbn [isum]; ring|reflexivity]. }
  destruct E as (st' & E & Hst'). rewrite E. cbn [bind fst snd]. rewrite IH with (i := S i); [|lia|exact Hst'].
  cbn [bind]. unfold rebuilt_list. cbn [length seq combine map fst snd]. do 3 f_equal. unfold newdata. rewrite El. reflexivity.
Qed.
Lemma integral_values e c s auto a k k0 lb : parses_units e -> sampled e s auto a -> 2 <= length (s_items s) -> (forall x, In x (s_items s) -> item_labels x = [lb]) -> const_gives k lb k0 ->
  exists r, op_integral e c s k (KNum q0) auto = Ok r /\ fresh e r /\ numeric (s_items r) /\ wf_items (s_items r) /\ length (s_items r) = length (s_items s) /\ times (s_items r) = times (s_items s) /\
    forall i x y, nth_error (s_items s) i = Some x -> nth_error (s_items r) i = Some y -> same_time x y /\ i_idx y = i_idx x /\
      values_by x y "integral" (fun lb w => w = Qcplus k0 (isum (fun i => Qcminus (tval (s_items s) i) (tval (s_items s) (i - 1))) (fun i => nval (s_items s) i lb) i)).
Proof.
  intros He Sa L Hlb Hk. destruct (sampled_all e s auto a Sa) as (B & (Hh & _) & N & W & P). destruct (prep_ok e s Hh N) as (x & l & El & Hp). assert (Hx : In x (s_items s)) by (rewrite El; left; reflexivity).
  assert (Va : exists var, op_interval c s x auto = Ok (var, a) /\ forall i, i < length (s_items s) -> 0 < i -> dstep var a (s_items s) i = Qcminus (tval (s_items s) i) (tval (s_items s) (i - 1))).
  { destruct Sa as [R|(_ & _ & _ & Rs & -> & _)].
    - exists false. unfold op_interval. rewrite (regular_res e s a R L). cbn [unit_seconds bind]. split; [reflexivity|]. intros i I1 I2. unfold dstep. pose proof (regular_spaced e s a R) as Hs. assert (Q := spaced_t _ _ (i - 1) Hs). replace (S (i - 1)) with i in Q by lia. rewrite Q by lia. reflexivity.
    - exists true. unfold op_interval. unfold resolution in Rs. rewrite Rs. split; [reflexivity|]. intros i _ _. reflexivity. }
  destruct Va as (var & Ev & Ed).
  assert (Same : forall y i, i < length (s_items s) -> isum (dstep var a (s_items s)) y i = isum (fun i => Qcminus (tval (s_items s) i) (tval (s_items s) (i - 1))) y i).
  { intros y. induction i as [|i IH]; intros I; [reflexivity|]. cbn [isum]. rewrite IH, Ed by lia. reflexivity. }
  destruct (positional_series e s "integral" (fun i lb => Qcplus k0 (isum (dstep var a (s_items s)) (fun i => nval (s_items s) i lb) i)) i_idx 0 He N W x l El) as (r & Hr & H1 & H2 & H3 & H4 & H5 & H6); [rewrite El; cbn; lia|].
  exists r. split; [|split; [exact H1|split; [exact H2|split; [exact H3|split; [lia|split; [exact H5|]]]]]].
  - unfold op_integral, op_integral_gen. rewrite Hp. cbn [bind fst snd]. rewrite Ev. cbn [bind fst snd konst_truthy]. rewrite qeqb_refl. cbn [negb bind app]. rewrite (Hlb x Hx).
    rewrite (int_items_any x lb var a k k0 (s_items s)); [exact Hr|apply N, Hx|apply Hlb, Hx| |reflexivity|].
    + intros i Hi. apply val_ok; [exact N| |exact Hi]. eapply label_first; [exact N|exact El|]. rewrite (Hlb x Hx). left; reflexivity.
    + cbn [int_inv' it_last dget]. split; [reflexivity|]. intros v. unfold add_konst, const_gives in *. destruct k; [subst; reflexivity|rewrite Hk; reflexivity].
  - intros i z y Z Y. destruct (H6 i z y Z Y) as (S1 & S2 & S3). split; [exact S1|]. split; [exact S2|]. refine (values_by_ext _ _ _ _ _ (fun lb' w _ => _) S3). cbn [plus]. apply nth_error_Some_lt in Z. rewrite (Same _ i Z). reflexivity.
Qed.
Lemma one_named (s : series) x0 l0 lb : numeric (s_items s) -> s_items s = x0 :: l0 -> (forall lb', has_label x0 lb' <-> lb' = lb) -> forall x, In x (s_items s) -> (forall lb', has_label x lb' <-> lb' = lb) /\ item_labels x = [lb] /\ is_list x = is_list x0.
Proof.
  intros N E H x X. assert (X0 : In x0 (s_items s)) by (rewrite E; left; reflexivity). assert (K : forall lb', has_label x lb' <-> lb' = lb) by (intros lb'; rewrite <- H; apply same_shape_labels, N; assumption).
  split; [exact K|]. split; [apply item_labels_one; [apply N, X|exact K]|]. destruct (proj2 (proj2 N) x x0 X X0) as [_ Hs]. unfold is_list. destruct (i_data x0) as [[]|], (i_data x) as [[]|]; cbn in Hs; try contradiction; reflexivity.
Qed.

(* The integral starts from the constant, and its slopes are such that their mean at each inner item is the value there.  Missing: several
   labels (refuted below). *)
Theorem C101_integral_partial : forall e c s auto a k k0 x0 l0 lb, parses_units e -> sampled e s auto a -> 2 <= length (s_items s) ->
  s_items s = x0 :: l0 -> (forall lb', has_label x0 lb' <-> lb' = lb) -> const_gives k lb k0 ->
  exists r, op_integral e c s k (KNum q0) auto = Ok r /\ healthy e r /\ times (s_items r) = times (s_items s) /\
    Forall2 (fun x y => in_place_of x y /\ forall lb', has_label y lb' <-> lb' = named x0 "integral" lb) (s_items s) (s_items r) /\
    (exists y0, nth_error (s_items r) 0 = Some y0 /\ has_value y0 (named x0 "integral" lb) k0) /\
    antiderivative (s_items s) (s_items r) lb (named x0 "integral" lb).
Proof.
  intros e c s auto a k k0 x0 l0 lb He Sa L E One Hk. destruct (sampled_all e s auto a Sa) as (B & _ & N & W & P). pose proof (one_named s x0 l0 lb N E One) as On.
  destruct (integral_values e c s auto a k k0 lb He Sa L (fun x X => proj1 (proj2 (On x X))) Hk) as (r & R1 & R2 & R3 & R4 & R5 & R6 & R7).
  set (G := fun i lb => Qcplus k0 (isum (fun i => Qcminus (tval (s_items s) i) (tval (s_items s) (i - 1))) (fun i => nval (s_items s) i lb) i)) in *.
  assert (Nm : forall x, In x (s_items s) -> named x "integral" lb = named x0 "integral" lb) by (intros x X; apply named_kind; symmetry; symmetry; apply On, X).
  exists r. split; [exact R1|]. split; [split; [apply fresh_history; assumption|split; assumption]|]. split; [exact R6|].
  assert (Lab : forall i x y, nth_error (s_items s) i = Some x -> nth_error (s_items r) i = Some y -> forall lb', has_label y lb' <-> lb' = named x0 "integral" lb).
  { intros i x y X Y lb'. destruct (R7 i x y X Y) as (_ & _ & (_ & V)). pose proof (nth_error_In _ _ X) as Ix. unfold has_label. split.
    - intros (w & Hw). apply V in Hw. destruct Hw as (lb1 & H1 & -> & _). apply (proj1 (On x Ix)) in H1. subst lb1. apply Nm, Ix.
    - intros ->. eexists. apply V. exists lb. split; [apply (proj1 (On x Ix)); reflexivity|]. split; [symmetry; apply Nm, Ix|reflexivity]. }
  assert (LI : label_in (s_items r) (named x0 "integral" lb)).
  { destruct (nth_ex (s_items r) 0) as [y Y]; [lia|]. exists y. split; [apply nth_error_In in Y; exact Y|]. apply (Lab 0 x0 y); [rewrite E; reflexivity|exact Y|reflexivity]. }
  assert (Nv : forall i, i < length (s_items s) -> nval (s_items r) i (named x0 "integral" lb) = G i lb).
  { intros i I. destruct (nth_ex (s_items s) i I) as [x X]. rewrite <- (Nm x (nth_error_In _ _ X)). apply (nval_derived s r 0 "integral" G i x lb R3 N); [intros j u v U V; apply (R7 j u v U V)|lia|exact (nth_error_In _ _ X)|apply (proj1 (On x (nth_error_In _ _ X))); reflexivity|lia]. }
  assert (Tv : forall i, tval (s_items r) i = tval (s_items s) i).
  { intros i. unfold tval. assert (Q := f_equal (fun l => nth_error l i) R6). cbn beta in Q. unfold times in Q. rewrite !nth_error_map in Q. destruct (nth_error (s_items r) i), (nth_error (s_items s) i); cbn in Q; congruence. }
  split; [apply Forall2_nth; [lia|]; intros i x y X Y; destruct (R7 i x y X Y) as (S1 & S2 & _); split; [split; assumption|exact (Lab i x y X Y)]|]. split.
  - destruct (nth_ex (s_items r) 0) as [y Y]; [lia|]. exists y. split; [exact Y|]. assert (Z : nval (s_items r) 0 (named x0 "integral" lb) = k0) by (rewrite Nv by lia; unfold G; cbn [isum]; rewrite q0_eq; ring). rewrite <- Z. apply nval_has; assumption.
  - intros i x v X V Li. rewrite (nval_value _ _ _ _ N X v V). pose proof (wf_items_times _ W) as Ti. set (y := fun i => nval (s_items s) i lb).
    assert (St : forall j, S j < length (s_items s) -> Qcdiv (Qcminus (nval (s_items r) (S j) (named x0 "integral" lb)) (nval (s_items r) j (named x0 "integral" lb))) (Qcminus (tval (s_items r) (S j)) (tval (s_items r) j)) = lcomp y (S j)).
    { intros j J. rewrite !Nv, !Tv by lia. unfold G. cbn [isum Nat.sub]. rewrite Nat.sub_0_r. fold y. field. apply step_ne; assumption. }
    assert (C : forall j, S j < length (s_items s) -> exists q dt, change (s_items r) j (named x0 "integral" lb) q dt /\ Qcdiv q dt = lcomp y (S j)).
    { intros j J. eexists. eexists. split; [apply change_ok; [exact R3|exact LI|lia|split; reflexivity]|]. apply St, J. }
    destruct (Nat.eqb_spec i 0) as [->|I0].
    + destruct (C 0 ltac:(lia)) as (q & dt & C1 & C2). exists q, dt. split; [exact C1|]. rewrite C2. cbn [lcomp]. unfold y. change q2 with (Qcplus q1 q1). rewrite q1_eq. ring.
    + destruct (C (i - 1) ltac:(lia)) as (q & dt & C1 & C2). destruct (C i Li) as (q' & dt' & C3 & C4). exists q, dt, q', dt'. split; [exact C1|]. split; [exact C3|]. rewrite C2, C4. destruct i as [|i]; [congruence|]. cbn [Nat.sub]. rewrite Nat.sub_0_r.
      change (lcomp y (S (S i))) with (Qcminus (Qcmult (y (S i)) q2) (lcomp y (S i))). fold (y (S i)). field. exact q2_neq_q0.
Qed.
Print Assumptions C101_integral_partial.

(* A label that grows along a straight line has that slope as derivative at every inner item, whatever the sampling. *)
Theorem C101_straight_line : forall e c s auto a m b lb, parses_units e -> sampled e s auto a ->
  (forall x v, In x (s_items s) -> has_value x lb v -> v = Qcplus (Qcmult m (i_t x)) b) ->
  forall r i x y w, op_derivative e c s auto = Ok r -> 0 < i -> S i < length (s_items s) -> nth_error (s_items s) i = Some x -> nth_error (s_items r) i = Some y ->
    has_label x lb -> has_value y (named x "derivative" lb) w -> w = m.
Proof.
  intros e c s auto a m b lb He Sa Line r i x y w R I0 I1 X Y Hl Hw. destruct (sampled_all e s auto a Sa) as (B & _ & N & W & P). pose proof (wf_items_times _ W) as Ti.
  destruct (derivative_values e c s auto a He Sa) as (r' & R1 & _ & R3 & _ & R5 & R6 & R7); [lia|]. rewrite R in R1. injection R1 as <-.
  assert (Lb : label_in (s_items s) lb) by (exists x; split; [apply nth_error_In in X; exact X|exact Hl]).
  destruct (R7 i x y X Y) as (_ & _ & (V1 & V2)). assert (Hv : has_value y (named x "derivative" lb) (gder (s_items s) a i lb)) by (apply V2; exists lb; split; [exact Hl|]; split; reflexivity).
  assert (E : w = gder (s_items s) a i lb) by (apply (has_value_fun y (named x "derivative" lb)); [apply R3; apply nth_error_In in Y; exact Y|exact Hw|exact Hv]).
  rewrite E. unfold gder. destruct (Nat.eqb_spec i 0); [lia|]. destruct (Nat.eqb_spec i (length (s_items s) - 1)); [lia|].
  assert (Nv : forall j, j < length (s_items s) -> nval (s_items s) j lb = Qcplus (Qcmult m (tval (s_items s) j)) b).
  { intros j J. destruct (nth_ex (s_items s) j J) as [z Z]. rewrite (tval_ok _ _ _ Z). apply (Line z); [apply nth_error_In in Z; exact Z|]. apply nval_has; assumption. }
  rewrite !Nv by lia. assert (Q1 := step_ne _ (i - 1) Ti). replace (S (i - 1)) with i in Q1 by lia. assert (Q2 := step_ne _ i Ti). specialize (Q1 ltac:(lia)). specialize (Q2 ltac:(lia)).
  assert (E2 : q2 = Qcplus 1 1) by (apply qeqb_eq; vm_compute; reflexivity). pose proof q2_neq_q0 as N2. rewrite E2 in *. field. repeat split; assumption.
Qed.
Print Assumptions C101_straight_line.

(* At the ends that is false when the resolution is variable: there the change is divided by the detected sampling interval, not by the time
   it took.  Here every value equals its epoch, and the last derivative is 3 instead of 1. *)
Definition uneven : list item := [pt 0 0; pt 10 10; pt 20 20; pt 50 50].
Definition uneven_s : series := mk_s uneven.
Lemma uneven_sampled : sampled ideal_env uneven_s (Ok (qz 10)) (qz 10).
Proof.
  right. split; [exists None; vm_compute; reflexivity|]. vm_compute (s_items uneven_s). split; [|split; [left|split; [vm_compute; reflexivity|split; [reflexivity|apply qltb_lt; vm_compute; reflexivity]]]].
  - split; [discriminate|split].
    + intros x H. in_cases H; (split; [left; reflexivity|]); cbn; (split; [discriminate|]); repeat constructor; cbn; intuition discriminate.
    + intros x y Hx Hy. in_cases Hx; in_cases Hy; split; try reflexivity; cbn; tauto.
  - split; [|split].
    + intros x H. in_cases H; reflexivity.
    + apply sincr_consecutive. intros [|[|[|[|[|i]]]]] a b; cbn; try discriminate; intros [= <-] [= <-]; apply qltb_lt; vm_compute; reflexivity.
    + intros x y Hx Hy. in_cases Hx; in_cases Hy; split; try reflexivity; cbn; tauto.
Qed.
Theorem C101_ends_refuted : exists e s auto a, sampled e s auto a /\ (forall x v, In x (s_items s) -> has_value x "value" v -> v = i_t x) /\
  forall c, exists r y, op_derivative e c s auto = Ok r /\ nth_error (s_items r) (length (s_items s) - 1) = Some y /\ has_value y "value_derivative" (qz 3).
Proof.
  exists ideal_env, uneven_s, (Ok (qz 10)), (qz 10). split; [exact uneven_sampled|]. split.
  - vm_compute (s_items uneven_s). intros x v H Hv. in_cases H; destruct Hv as [[= <-]|[]]; apply qeqb_eq; vm_compute; reflexivity.
  - intros c. destruct (derivative_values ideal_env c uneven_s (Ok (qz 10)) (qz 10) ideal_parses uneven_sampled) as (r & R1 & _ & R3 & _ & R5 & _ & R7); [vm_compute; lia|].
    destruct (nth_ex (s_items r) 3) as [y Y]; [rewrite R5; vm_compute; lia|]. exists r, y. split; [exact R1|]. split; [exact Y|].
    assert (X : nth_error (s_items uneven_s) 3 = Some (pt 50 50)) by (vm_compute; reflexivity).
    destruct (R7 3 _ y X Y) as (_ & _ & (_ & V)). apply V. exists "value"%string. split; [exists (qz 50); left; reflexivity|]. split; [reflexivity|]. symmetry. apply qeqb_eq. vm_compute. reflexivity.
Qed.
Print Assumptions C101_ends_refuted.

(* With several labels the integrals are not antiderivatives: the slope found for a label is used for the next one.  Here both labels of the
   five items are integrated wrongly (the first value of "a" is 3 and its integral goes from 0 to 50 in 10 seconds, a slope of 5). *)
Definition only_value (s : series) (i : nat) (lb : string) (v : Qc) : bool :=
  match nth_error (s_items s) i with Some x => match i_data x with Some (DDict d) => forallb (fun p => negb (String.eqb (fst p) lb) || qeqb (snd p) v) d | _ => false end | None => false end.
Lemma only_value_ok s i lb v : only_value s i lb v = true -> forall x w, nth_error (s_items s) i = Some x -> has_value x lb w -> w = v.
Proof.
  unfold only_value. intros H x w X Hw. rewrite X in H. unfold has_value in Hw. destruct (i_data x) as [[|d]|]; try discriminate. rewrite forallb_forall in H. specialize (H _ Hw). cbn [fst snd] in H. rewrite String.eqb_refl in H. apply qeqb_eq, H.
Qed.
Theorem C101_several_labels_refuted : exists e s a, regular e s a /\
  forall c, exists r, op_integral e c s (KNum q0) (KNum q0) (Err NotImplementedError) = Ok r /\
    ~ antiderivative (s_items s) (s_items r) "a" "a_integral" /\ ~ antiderivative (s_items s) (s_items r) "b" "b_integral".
Proof.
  exists ideal_env, duo_s, (qz 10). split; [exact duo_regular|]. intros c.
  assert (K : match op_integral ideal_env c duo_s (KNum q0) (KNum q0) (Err NotImplementedError) with
    | Ok r => only_value r 0 "a_integral" q0 && only_value r 1 "a_integral" (qz 50) && only_value r 0 "b_integral" q0 && only_value r 1 "b_integral" (qz (-30)) && qeqb (Qcminus (tval (s_items r) 1) (tval (s_items r) 0)) (qz 10) | Err _ => false end = true) by (vm_compute; reflexivity).
  destruct (op_integral ideal_env c duo_s (KNum q0) (KNum q0) (Err NotImplementedError)) as [r|]; [|discriminate]. exists r. split; [reflexivity|].
  apply andb_prop in K as [K Td]. apply andb_prop in K as [K B1]. apply andb_prop in K as [K B0]. apply andb_prop in K as [A0 A1]. apply qeqb_eq in Td.
  assert (F : forall lb v w, only_value r 0 lb v = true -> only_value r 1 lb w = true -> forall q dt, change (s_items r) 0 lb q dt -> q = Qcminus w v /\ dt = qz 10).
  { intros lb v w V W q dt (x & y & v' & w' & X & Y & V' & W' & -> & ->). rewrite <- (tval_ok _ _ _ X), <- (tval_ok _ _ _ Y). rewrite (only_value_ok _ _ _ _ V x v' X V'), (only_value_ok _ _ _ _ W y w' Y W'). split; [reflexivity|exact Td]. }
  assert (X : nth_error (s_items duo_s) 0 = Some (two 0 3 1)) by (vm_compute; reflexivity). assert (L : 1 < length (s_items duo_s)) by (vm_compute; lia). split; intros H.
  - destruct (H 0 _ (qz 3) X (or_introl eq_refl) L) as (q & dt & C & E). destruct (F _ _ _ A0 A1 q dt C) as [-> ->]. apply (f_equal (fun q => qeqb q (qz 3))) in E. vm_compute in E. discriminate.
  - destruct (H 0 _ (qz 1) X (or_intror (or_introl eq_refl)) L) as (q & dt & C & E). destruct (F _ _ _ B0 B1 q dt C) as [-> ->]. apply (f_equal (fun q => qeqb q (qz 1))) in E. vm_compute in E. discriminate.
Qed.
Print Assumptions C101_several_labels_refuted.

(* The hypotheses hold for an uneven series (variable resolution) and for a regular one, and the derivative and the integral of the uneven one are
   what one computes by hand: 1 at the inner items; 0, 0, 200, 800 (slopes 0, 20, 20). *)
Definition opt_val (r : result series) (i : nat) (lb : string) (v : Z) : bool := match r with Ok s => only_value s i lb (qz v) && Nat.eqb (length (s_items s)) 4 | Err _ => false end.
Example C101_nonvacuous : parses_units ideal_env /\ sampled ideal_env uneven_s (Ok (qz 10)) (qz 10) /\ sampled ideal_env (mk_s lin3) (Err NotImplementedError) (qz 10) /\
  resolution uneven_s = Some RVar /\ (forall x, In x (s_items uneven_s) -> item_labels x = ["value"%string]) /\
  forall c, opt_val (op_derivative ideal_env c uneven_s (Ok (qz 10))) 1 "value_derivative" 1 = true /\ opt_val (op_derivative ideal_env c uneven_s (Ok (qz 10))) 2 "value_derivative" 1 = true /\
    opt_val (op_integral ideal_env c uneven_s (KNum q0) (KNum q0) (Ok (qz 10))) 1 "value_integral" 0 = true /\ opt_val (op_integral ideal_env c uneven_s (KNum q0) (KNum q0) (Ok (qz 10))) 2 "value_integral" 200 = true /\
    opt_val (op_integral ideal_env c uneven_s (KNum q0) (KNum q0) (Ok (qz 10))) 3 "value_integral" 800 = true.
Proof.
  split; [exact ideal_parses|]. split; [exact uneven_sampled|]. split; [left; exact lin3_regular|]. split; [vm_compute; reflexivity|]. split; [vm_compute (s_items uneven_s); intros x H; in_cases H; reflexivity|].
  intros c. repeat split; vm_compute; reflexivity.
Qed.
