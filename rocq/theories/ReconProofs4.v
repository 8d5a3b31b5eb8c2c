(* ReconProofs4.v -- proofs: the periodic average reconstructor (C60). *)
From Verif Require Import BaseLemmas DictLemmas PropTactics.
From Verif Require Import SeriesProofs2 SeriesProofs3 SeriesProofs4 AccessProofs AccessProofs2 OpsProofs OpsProofs2 OpsProofs3 OpsProofs8 InterpProofs TransformProofs5 ReconProofs ReconProofs2 ReconProofs3.

Lemma mapM_exists {A B} (f : A -> result B) (Q : A -> B -> Prop) : forall l, (forall x, In x l -> exists y, f x = Ok y /\ Q x y) ->
  exists ys, mapM f l = Ok ys /\ length ys = length l /\ forall i x, nth_error l i = Some x -> exists y, nth_error ys i = Some y /\ Q x y.
Proof.
  induction l as [|x l IH]; intros H.
  - exists []. split; [reflexivity|]. split; [reflexivity|]. intros [|i] x Hx; discriminate.
  - destruct (H x (or_introl eq_refl)) as (y & E & Hy). destruct IH as (ys & Es & L & N); [intros z Hz; apply H; right; exact Hz|].
    exists (y :: ys). cbn [mapM]. rewrite E. cbn [bind]. rewrite Es. cbn. split; [reflexivity|]. split; [lia|]. intros [|i] z Hz; cbn in *; [injection Hz as <-; eauto|eauto].
Qed.
Lemma labels_single e s lb : ready e s -> single_label (s_items s) lb -> labels_of s = Ok [lb].
Proof.
  intros ((tz & B) & N & _) S1. assert (RM : ref_missing s = false) by (apply (history_ref e); [apply built_history; [exists tz; exact B|exact N]|exact N]).
  destruct (labels_of_ok s RM N) as (x & l & E & L). rewrite L. f_equal. apply item_labels_one; [apply N; rewrite E; left; reflexivity|]. apply S1. rewrite E. left. reflexivity.
Qed.
Lemma ready_value e s x lb v : ready e s -> In x (s_items s) -> has_value x lb v -> data_at x lb = Ok v.
Proof. intros (_ & N & _ & D & _) I V. destruct (D x I) as [d Hd]. apply (data_at_ok x lb v d); [apply N; exact I|exact Hd|exact V]. Qed.
Lemma grid_value f p d o t n : periodic f p d -> (0 < p)%Z -> on_grid o d t n -> f t = f (Qcplus o (Qcmult (qz (n mod p)) d)).
Proof. intros P Hp (_ & _ & -> & _). apply periodic_grid; assumption. Qed.
Lemma grid_phase o d t n t' n' p k : on_grid o d t n -> on_grid o d t' n' -> t = Qcplus t' (Qcmult (qz (k * p)) d) -> (0 < p)%Z -> (n mod p = n' mod p)%Z.
Proof.
  intros (O1 & O2 & -> & _) (_ & _ & -> & _) E Hp. assert (D : d <> q0) by (intros X; subst d; apply (Qcle_not_lt _ _ O1); exact O2).
  assert (Q : Qcmult (qz n) d = Qcmult (qz (n' + k * p)) d).
  { rewrite qz_plus. assert (X : Qcmult (Qcplus (qz n') (qz (k * p))) d = Qcplus (Qcmult (qz n') d) (Qcmult (qz (k * p)) d)) by ring. rewrite X.
    generalize dependent (Qcmult (qz (k * p)) d). generalize (Qcmult (qz n') d) (Qcmult (qz n) d). clear. intros; qlra. }
  apply mul_cancel in Q; [|exact D]. apply qz_inj in Q. subst n. apply Z.mod_add. lia.
Qed.

Section Periodic.
Variables (e : env) (c : cal) (dst : string -> Qc -> Z) (f : Qc -> Qc) (p : Z) (d o : Qc) (lb : string) (limit : option Qc) (tr : series).
Hypothesis Pf : periodic f p d.
Hypothesis Hp : (0 < p)%Z.
Hypothesis Rt : ready e tr.
Hypothesis Lt : single_label (s_items tr) lb.
Hypothesis Ut : resolution tr = Some (RUnit (UPhys d)).
Hypothesis St : samples f lb o d (included limit) (s_items tr).
Hypothesis Kt : forall x, In x (s_items tr) -> loss_known x.
Notation idx := (fun x => periodicity_index c dst (i_tz x) (i_t x) (Some (RUnit (UPhys d))) p false).

Lemma train_averages : exists sums, period_sums idx limit lb (s_items tr) = Ok sums /\
  forall t n, on_grid o d t n -> (exists y k, In y (s_items tr) /\ included limit y /\ t = Qcplus (i_t y) (Qcmult (qz (k * p)) d)) ->
    zget (n mod p)%Z (averages_of sums) = Some (f t).
Proof.
  destruct (averages_ok idx limit lb (fun k => f (Qcplus o (Qcmult (qz k) d))) (s_items tr)) as (sums & E & V & X).
  - intros x Ix. destruct (St x Ix) as [[n G] Sx]. split; [|split; [apply Kt; exact Ix|]].
    + destruct Rt as (_ & _ & _ & D & _). destruct (D x Ix) as [m ->]. discriminate.
    + intros Inc. exists (n mod p)%Z. split; [apply (index_on_grid _ _ _ o); assumption|]. rewrite <- (grid_value f p d o (i_t x) n Pf Hp G). apply (ready_value e tr x lb); [exact Rt|exact Ix|apply Sx, Inc].
  - exists sums. split; [exact E|]. intros t n G (y & k & Iy & Inc & Et). destruct (St y Iy) as [[n' G'] Sy].
    assert (Q : (n mod p = n' mod p)%Z) by (apply (grid_phase o d t n (i_t y) n' p k G G' Et Hp)).
    assert (N : zget (n mod p)%Z (averages_of sums) <> None).
    { apply X. exists y. split; [exact Iy|]. split; [exact Inc|]. rewrite Q. apply (index_on_grid _ _ _ o); assumption. }
    destruct (zget (n mod p)%Z (averages_of sums)) as [v|] eqn:Ev; [|contradiction]. f_equal. rewrite (V _ _ Ev). symmetry. apply (grid_value f p d o t n Pf Hp G).
Qed.

Lemma pa_fit_ok auto om : om = "average"%string \/ om = "extremes"%string -> exists avgs, pa_fit c dst auto tr (Some p) false om limit = Ok (mkPa p false avgs) /\
  forall t n, on_grid o d t n -> (exists y k, In y (s_items tr) /\ included limit y /\ t = Qcplus (i_t y) (Qcmult (qz (k * p)) d)) ->
    zget (n mod p)%Z avgs = Some (f t).
Proof.
  intros Ho. destruct train_averages as (sums & E & A). exists (averages_of sums). split; [|exact A]. unfold pa_fit.
  assert (B : negb (String.eqb om "average" || String.eqb om "extremes") = false) by (destruct Ho as [-> | ->]; reflexivity). rewrite B.
  rewrite (labels_single e tr lb Rt Lt). cbn [bind]. rewrite Ut. rewrite E. reflexivity.
Qed.

Variables (s : series) (thr : Qc) (avgs : list (Z * Qc)).
Hypothesis R : ready e s.
Hypothesis Ls : single_label (s_items s) lb.
Hypothesis Us : resolution s = Some (RUnit (UPhys d)).
Hypothesis Sg : forall x, In x (s_items s) -> exists n, on_grid o d (i_t x) n.
Hypothesis Av : forall x n, In x (s_items s) -> on_grid o d (i_t x) n -> zget (n mod p)%Z avgs = Some (f (i_t x)).
Notation l := (s_items s).
Notation m := (mkPa p false avgs).
Hypothesis F0 : forall x, nth_error l 0 = Some x -> ~ lossy thr x.

Lemma sk_labels sk : keeps thr s sk \/ (exists from, so_far thr s sk from) -> labels_of sk = Ok [lb].
Proof.
  intros H. pose proof R as ((tz & B) & N & W & D & U). assert (RM : ref_missing s = false) by (apply (history_ref e); [apply built_history; [exists tz; exact B|exact N]|exact N]).
  assert (Hs : exists x0 r0, l = x0 :: r0) by (destruct N as (Nn & _); destruct l as [|x0 r0]; [contradiction|eauto]). destruct Hs as (x0 & r0 & El). assert (H0 : nth_error l 0 = Some x0) by (rewrite El; reflexivity).
  assert (X : ref_missing sk = false /\ exists y, nth_error (s_items sk) 0 = Some y /\ i_data y = i_data x0).
  { destruct H as [(K1 & K2 & K3)|(from & S)].
    - split.
      + unfold ref_missing in *. assert (E : s_ref sk = s_ref s) by (rewrite K1; reflexivity). rewrite E. destruct (s_items sk) as [|a ka]; [reflexivity|]. rewrite El in RM. exact RM.
      + destruct (K3 0 x0 H0) as (y & Hy & _ & Dy). exists y. split; [exact Hy|]. apply Dy, F0. exact H0.
    - split; [rewrite (so_far_ref thr s sk from S); exact RM|]. destruct (so_far_twin thr s sk from 0 x0 S H0 (F0 x0 H0)) as (y & Hy & _ & _ & T). eauto. }
  destruct X as (RK & y & Hy & Dy). destruct (s_items sk) as [|y0 ry] eqn:Ek; [discriminate|]. cbn in Hy. injection Hy as ->.
  assert (Ix : In x0 l) by (rewrite El; left; reflexivity). destruct (D x0 Ix) as [d0 Hd0]. rewrite (labels_of_first sk y ry Ek RK) by (rewrite Dy, Hd0; discriminate).
  f_equal. unfold item_labels. rewrite Dy. apply (item_labels_one x0); [apply N; exact Ix|apply Ls; exact Ix].
Qed.

Lemma sk_average sk from j x : so_far thr s sk from -> In x l -> i_t j = i_t x -> average_at c dst sk p false (fun k => zget k avgs) j = Ok (f (i_t x)).
Proof.
  intros S Ix Et. unfold average_at. assert (E : resolution sk = Some (RUnit (UPhys d))) by (destruct S as (S1 & _); rewrite S1; exact Us). rewrite E, Et. destruct (Sg x Ix) as [n G].
  rewrite (index_on_grid _ _ _ o d (i_t x) n p G Hp). cbn [bind]. rewrite (Av x n Ix G). reflexivity.
Qed.

(* what is restored: the profile, shifted by the mean of the differences at the two sides *)
Definition restored (from to : nat) (x : item) (v : Qc) : Prop :=
  exists b a vb va, nth_error l (from - 1) = Some b /\ nth_error l (S to) = Some a /\ has_value b lb vb /\ has_value a lb va /\
    v = Qcplus (f (i_t x)) (Qcdiv (Qcplus (Qcminus vb (f (i_t b))) (Qcminus va (f (i_t a)))) q2).
Lemma pa_gap sk from to : maximal_run (lossy thr) l from to -> so_far thr s sk from -> S to < length l ->
  exists vs, pa_predict c dst m sk from to = Ok (PDict [(lb, vs)]) /\ length vs = S to - from /\
    forall k, k <= to - from -> exists x v, nth_error l (from + k) = Some x /\ nth_error vs k = Some v /\ restored from to x v.
Proof.
  intros M S Ht. pose proof M as (M1 & M2 & M3 & M4 & M5). assert (Hf : 1 <= from).
  { destruct from; [|lia]. exfalso. destruct (lt_nth l 0) as [x Hx]; [lia|]. apply (F0 x Hx). apply (M3 0 x); [lia|exact Hx]. }
  destruct (lt_nth l (from - 1)) as [b Hb]; [lia|]. destruct (lt_nth l (Datatypes.S to)) as [a Ha]; [lia|].
  assert (Nb : ~ lossy thr b) by (apply (M4 (from - 1) b); [lia|exact Hb]).
  destruct (so_far_twin thr s sk from _ _ S Hb Nb) as (b' & Hb' & Tb). destruct (so_far_twin thr s sk from _ _ S Ha (M5 _ Ha)) as (a' & Ha' & Ta).
  pose proof S as (S1 & S2 & S3 & S4). pose proof (nth_error_In _ _ Hb) as Ib. pose proof (nth_error_In _ _ Ha) as Ia.
  assert (Hvb : exists vb, has_value b lb vb) by (apply (Ls b Ib); reflexivity). assert (Hva : exists va, has_value a lb va) by (apply (Ls a Ia); reflexivity). destruct Hvb as (vb & Hvb), Hva as (va & Hva).
  unfold pa_predict, pa_predict_with, check_window. cbn [pa_period pa_dst pa_averages]. rewrite S2.
  destruct (Nat.ltb_spec from 1); [lia|]. destruct (Nat.ltb_spec (length l - 1) (to + 1)); [lia|]. cbn [bind]. rewrite (sk_labels sk) by (right; eauto). cbn [bind foldM].
  replace (Z.of_nat from - 1)%Z with (Z.of_nat (from - 1)) by lia. replace (Z.of_nat to + 1)%Z with (Z.of_nat (Datatypes.S to)) by lia.
  rewrite (ts_get_i_nat sk _ b' Hb'), (ts_get_i_nat sk _ a' Ha'). cbn [bind].
  assert (Vb : data_at b' lb = Ok vb) by (destruct Tb as (_ & _ & T); unfold data_at, item_data; rewrite T; apply (ready_value e s b lb _ R Ib Hvb)).
  assert (Va : data_at a' lb = Ok va) by (destruct Ta as (_ & _ & T); unfold data_at, item_data; rewrite T; apply (ready_value e s a lb _ R Ia Hva)).
  rewrite Vb, Va. cbn [bind]. rewrite (sk_average sk from b' b S Ib) by apply Tb. cbn [bind]. rewrite (sk_average sk from a' a S Ia) by apply Ta. cbn [bind].
  set (z := Qcdiv _ q2). assert (Z : z = Qcdiv (Qcplus (Qcminus vb (f (i_t b))) (Qcminus va (f (i_t a)))) q2) by (unfold z; rewrite q0_eq; f_equal; ring).
  destruct (mapM_exists (fun j => do x <- ts_get_i sk (Z.of_nat j); do a <- average_at c dst sk p false (fun k => zget k avgs) x; Ok (Qcplus a z)) (fun j v => exists x, nth_error l j = Some x /\ restored from to x v) (seq from (Datatypes.S to - from))) as (vs & E & Ln & G).
  - intros j Hj. apply in_seq in Hj. destruct (lt_nth l j) as [x Hx]; [lia|]. exists (Qcplus (f (i_t x)) z). rewrite (ts_get_i_nat sk j x) by (rewrite S3 by lia; exact Hx). cbn [bind].
    rewrite (sk_average sk from x x S (nth_error_In _ _ Hx) eq_refl). cbn [bind]. split; [reflexivity|]. exists x. split; [exact Hx|]. exists b, a, vb, va. rewrite Z. auto.
  - rewrite E. cbn [bind]. rewrite seq_length in Ln. exists vs. split; [reflexivity|]. split; [exact Ln|]. intros k Hk. destruct (G k (from + k)) as (v & Hv & x & Hx & Rv); [apply seq_nth_error; lia|]. exists x, v. auto.
Qed.
End Periodic.

Lemma pa_refuses c dst m sk from to pd : pa_predict c dst m sk from to = Ok pd -> 1 <= from /\ S to < length (s_items sk).
Proof.
  unfold pa_predict, pa_predict_with, check_window. destruct (Nat.ltb_spec from 1); [discriminate|]. destruct (Nat.ltb_spec (length (s_items sk) - 1) (to + 1)); [discriminate|]. lia.
Qed.

Section Periodic2.
Variables (e : env) (c : cal) (dst : string -> Qc -> Z) (f : Qc -> Qc) (p : Z) (d o : Qc) (lb : string) (s : series) (thr : Qc) (avgs : list (Z * Qc)).
Hypothesis Pf : periodic f p d.
Hypothesis Hp : (0 < p)%Z.
Hypothesis R : ready e s.
Hypothesis Ls : single_label (s_items s) lb.
Hypothesis Us : resolution s = Some (RUnit (UPhys d)).
Hypothesis Sg : forall x, In x (s_items s) -> exists n, on_grid o d (i_t x) n.
Hypothesis Av : forall x n, In x (s_items s) -> on_grid o d (i_t x) n -> zget (n mod p)%Z avgs = Some (f (i_t x)).
Notation l := (s_items s).
Notation m := (mkPa p false avgs).
Hypothesis F0 : forall x, nth_error l 0 = Some x -> ~ lossy thr x.
Hypothesis F1 : forall x, nth_error l (length l - 1) = Some x -> ~ lossy thr x.

Lemma run_inside from to : maximal_run (lossy thr) l from to -> S to < length l.
Proof.
  intros (M1 & M2 & M3 & _). destruct (Nat.eq_dec (S to) (length l)) as [E|E]; [|lia]. exfalso. destruct (lt_nth l to M2) as [x Hx].
  apply (F1 x); [replace (length l - 1) with to by lia; exact Hx|]. apply (M3 to x); [lia|exact Hx].
Qed.
Lemma pa_restores : exists s', rec_apply_inplace (pa_predict c dst m) thr s = (s', Ok tt) /\
  forall i x, nth_error l i = Some x -> exists y, nth_error (s_items s') i = Some y /\ same_shell x y /\ (~ lossy thr x -> i_data y = i_data x) /\
    (lossy thr x -> exists from to v, maximal_run (lossy thr) l from to /\ from <= i <= to /\ restored f lb s from to x v /\ i_data y = Some (DDict [(lb, v)])).
Proof.
  destruct (apply_ok (pa_predict c dst m) thr s) as [s' A].
  - intros x Hx. destruct R as (_ & _ & _ & D & _). destruct (D x Hx) as [dx ->]. discriminate.
  - intros from to sk M S. destruct (pa_gap e c dst f p d o lb Hp s thr avgs R Ls Us Sg Av F0 sk from to M S (run_inside from to M)) as (vs & P & Ln & G).
    exists (PDict [(lb, vs)]). split; [exact P|]. intros sj k K Hk. destruct (G k Hk) as (x & v & _ & Hv & _). unfold gap_data. rewrite (sk_labels e f p d o lb s thr avgs R Ls Sg Av F0 sj (or_introl K)). cbn [bind mapM].
    cbn [dget]. rewrite String.eqb_refl, Hv. cbn. eauto.
  - exists s'. split; [exact A|]. intros i x Hx. destruct (apply_spec _ _ _ _ _ A) as [_ H]. destruct (H eq_refl i x Hx) as (y & Hy & Sh & D0 & D1). exists y. split; [exact Hy|]. split; [exact Sh|].
    split; [intros L; apply D0, L|]. intros L. destruct (D1 L) as (_ & from & to & sk & pd & dd & M & I & S & P & _ & G & Dy). pose proof (pa_refuses _ _ _ _ _ _ _ P) as [Hf _].
    destruct (pa_gap e c dst f p d o lb Hp s thr avgs R Ls Us Sg Av F0 sk from to M S (run_inside from to M)) as (vs & P' & Ln & V). rewrite P' in P. injection P as <-. specialize (G ltac:(lia)).
    destruct (V (i - from) ltac:(lia)) as (x' & v & Hx' & Hv & Rv). replace (from + (i - from)) with i in Hx' by lia. assert (x' = x) by congruence. subst x'.
    unfold gap_data in G. rewrite (sk_labels e f p d o lb s thr avgs R Ls Sg Av F0 sk) in G by (right; eauto). cbn [bind mapM dget] in G. rewrite String.eqb_refl, Hv in G. cbn in G. injection G as <-.
    exists from, to, v. auto.
Qed.
End Periodic2.
