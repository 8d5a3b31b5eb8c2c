(* ForecastProofs3.v -- proofs: the periodic average forecaster (C55). *)
From Verif Require Import SpecForecast BaseLemmas DictLemmas PropTactics.
From Verif Require Import SeriesProofs SeriesProofs2 SeriesProofs3 SeriesProofs4 AccessProofs AccessProofs2 AccessProofs3 OpsProofs OpsProofs2 OpsProofs3 OpsProofs8 InterpProofs TransformProofs5 ReconProofs ReconProofs2 ReconProofs3 ReconProofs4 ForecastProofs ForecastProofs2.

Lemma on_grid_next o d t n k : on_grid o d t n -> on_grid o d (Qcplus t (Qcmult (qn k) d)) (n + Z.of_nat k).
Proof.
  intros (O1 & O2 & -> & C). split; [exact O1|]. split; [exact O2|]. split; [rewrite qz_plus; unfold qn; ring|]. destruct C as [C|C]; [left; exact C|right; lia].
Qed.
Lemma qn_succ k d : Qcmult (qn (S k)) d = Qcplus d (Qcmult (qn k) d).
Proof. rewrite qn_S, q1_eq. ring. Qed.

Lemma forecast_times c d : forall fs la, consecutive (right_after c (UPhys d)) (la :: fs) -> (is_slot la = true -> i_end la = Qcplus (i_t la) d) ->
  forall k x, nth_error fs k = Some x -> i_t x = Qcplus (i_t la) (Qcmult (qn (S k)) d) /\ (is_slot x = true -> i_end x = Qcplus (i_t x) d).
Proof.
  induction fs as [|y fs IH]; intros la C E k x Hx; [destruct k; discriminate|].
  assert (A : i_t y = Qcplus (i_t la) d /\ (is_slot y = true -> i_end y = Qcplus (i_t y) d)).
  { pose proof (C 0 la y eq_refl eq_refl) as R. unfold right_after in R. destruct (is_slot la) eqn:Sl.
    - destruct R as (_ & T & _ & Ey & _). cbn [unit_shift] in Ey. rewrite T. split; [apply E; reflexivity|]. intros _. rewrite Ey. f_equal. change (qz 1) with q1. rewrite q1_eq. ring.
    - destruct R as (Py & d' & Ed & T). injection Ed as <-. split; [exact T|]. intros Sy. rewrite slot_point, Py in Sy. discriminate. }
  destruct A as [A1 A2]. destruct k as [|k]; cbn in Hx.
  - injection Hx as <-. split; [rewrite A1; f_equal; change (qn 1) with q1; rewrite q1_eq; ring|exact A2].
  - destruct (IH y) with (k := k) (x := x) as [B1 B2]; [intros i a b Ha Hb; apply (C (S i) a b Ha Hb)|exact A2|exact Hx|]. split; [|exact B2]. rewrite B1, A1, (qn_succ (S k)). ring.
Qed.
Lemma slot_step_time c d t k : slot_step c (UPhys d) t k = Qcplus t (Qcmult (qn k) d).
Proof.
  induction k as [|k IH]; cbn [slot_step].
  - change (qn 0) with q0. rewrite q0_eq. ring.
  - rewrite IH. cbn [unit_shift]. rewrite qn_succ. change (qz 1) with q1. rewrite q1_eq. ring.
Qed.

Section Periodic.
Variables (e : env) (c : cal) (dst : string -> Qc -> Z) (f : string -> Qc -> Qc) (p : Z) (d o : Qc) (ls : list string).
Hypothesis Pf : forall lb, In lb ls -> periodic (f lb) p d.
Hypothesis Hp : (2 <= p)%Z.

(* ---------------- fit ---------------- *)
Definition good_averages (avgs : list (Z * Qc)) (lb : string) : Prop := forall t n, on_grid o d t n -> zget (n mod p)%Z avgs = Some (f lb t).
Section Fit.
Variables (limit : option Qc) (tr : series) (detect : string -> result Z).
Hypothesis Rt : ready e tr.
Hypothesis Ut : resolution tr = Some (RUnit (UPhys d)).
Hypothesis St : signals f ls o d (included limit) (s_items tr).
Hypothesis Kt : forall x, In x (s_items tr) -> loss_known x.
Hypothesis At : all_phases o d p (included limit) (s_items tr).
Hypothesis Ht : exists x n, In x (s_items tr) /\ on_grid o d (i_t x) n.

Lemma fit_labels : forall ks, (forall lb, In lb ks -> In lb ls) -> exists ps,
  pf_fit_labels c dst detect tr None false limit (Some p) ks = Ok ps /\ map fst ps = ks /\
  forall lb pw, In (lb, pw) ps -> exists avgs, pw = (p, p, avgs) /\ good_averages avgs lb.
Proof.
  induction ks as [|lb ks IH]; intros Sub; cbn [pf_fit_labels].
  - exists []. split; [reflexivity|]. split; [reflexivity|]. intros lb pw [].
  - destruct (train_averages e c dst (f lb) p d o lb limit tr) as (sums & E & V); [apply Pf, Sub; left; reflexivity|lia|exact Rt|apply St, Sub; left; reflexivity|exact Kt|].
    cbn [bind]. rewrite Ut, E. cbn [bind]. destruct IH as (ps & Ep & Mp & Gp); [intros k Hk; apply Sub; right; exact Hk|].
    assert (Ga : good_averages (averages_of sums) lb) by (intros t n G; apply (V t n G), (At t n G)).
    destruct sums as [|kv sums].
    + exfalso. destruct Ht as (x & n & _ & G). specialize (Ga _ _ G). discriminate.
    + rewrite Ep. cbn [bind]. eexists. split; [reflexivity|]. split; [cbn; rewrite Mp; reflexivity|]. intros k pw [X|X]; [injection X as <- <-; eauto|eauto].
Qed.
Lemma pf_fit_good : ls <> [] -> labels_of tr = Ok ls -> exists ps, pf_fit c dst detect tr None (Some p) false limit = Ok (mkPf ps p false) /\ map fst ps = ls /\
  forall lb pw, In (lb, pw) ps -> exists avgs, pw = (p, p, avgs) /\ good_averages avgs lb.
Proof.
  intros Ne Lt. unfold pf_fit. rewrite Lt. cbn [bind]. destruct (fit_labels ls) as (ps & -> & M & G); [auto|]. cbn [bind]. exists ps.
  assert (W : forall w, In w (map (fun kv : string * (Z * Z * list (Z * Qc)) => snd (fst (snd kv))) ps) -> w = p).
  { intros w Hw. apply in_map_iff in Hw. destruct Hw as ([lb pw] & <- & Hw). destruct (G lb pw Hw) as (avgs & -> & _). reflexivity. }
  destruct (map (fun kv : string * (Z * Z * list (Z * Qc)) => snd (fst (snd kv))) ps) as [|w ws] eqn:Em.
  - exfalso. apply map_eq_nil in Em. subst ps. apply Ne. symmetry. exact M.
  - split; [|split; assumption]. do 2 f_equal. assert (Ew : w = p) by (apply W; left; reflexivity). subst w. assert (Ws : forall w, In w ws -> w = p) by (intros w Hw; apply W; right; exact Hw). clear - Ws. induction ws as [|w ws IH]; cbn; [reflexivity|]. rewrite (Ws w (or_introl eq_refl)), Z.max_id. apply IH. intros v Hv. apply Ws. right. exact Hv.
Qed.
End Fit.

(* ---------------- predict ---------------- *)
Variables (ps : dict (Z * Z * list (Z * Qc))) (sk : series) (la first : item) (sh : string -> Qc).
Hypothesis Mp : map fst ps = ls.
Hypothesis Nd : NoDup ls.
Hypothesis Gp : forall lb pw, In (lb, pw) ps -> exists avgs, pw = (p, p, avgs) /\ good_averages avgs lb.
Hypothesis Uk : resolution sk = Some (RUnit (UPhys d)).
Hypothesis Vk : forall x lb, In x (s_items sk) -> In lb ls -> data_at x lb = Ok (Qcplus (f lb (i_t x)) (sh lb)).
Hypothesis Ok_ : forall x, In x (s_items sk) -> exists n, on_grid o d (i_t x) n.
Hypothesis Lk : (p <= Z.of_nat (length (s_items sk)))%Z.
Hypothesis La : last_item (s_items sk) = Some la.
Hypothesis Fi : ts_get_i sk 0 = Ok first.
Hypothesis Kd : is_slot first = is_slot la.
Hypothesis Ex : is_slot la = true -> i_end la = Qcplus (i_t la) d.

Lemma get_in i : (- Z.of_nat (length (s_items sk)) <= i < Z.of_nat (length (s_items sk)))%Z -> exists x, ts_get_i sk i = Ok x /\ In x (s_items sk).
Proof.
  intros H. rewrite ts_get_i_in_range by lia. unfold py_index. destruct (Z.leb_spec 0 i) as [L|L].
  - destruct (nth_error (s_items sk) (Z.to_nat i)) as [x|] eqn:E; [exists x; split; [reflexivity|apply nth_error_In in E; exact E]|]. apply nth_error_None in E. lia.
  - destruct (Z.leb_spec 0 (i + Z.of_nat (length (s_items sk)))) as [L'|L']; [|lia]. destruct (nth_error (s_items sk) (Z.to_nat (i + Z.of_nat (length (s_items sk))))) as [x|] eqn:E; [exists x; split; [reflexivity|apply nth_error_In in E; exact E]|]. apply nth_error_None in E. lia.
Qed.
Lemma average_good avgs lb x : good_averages avgs lb -> In x (s_items sk) -> average_at c dst sk p false (fun k => zget k avgs) x = Ok (f lb (i_t x)).
Proof.
  intros G Ix. destruct (Ok_ x Ix) as [n On]. unfold average_at. rewrite Uk, (index_on_grid c dst (i_tz x) o d (i_t x) n p On) by lia. cbn [bind]. rewrite (G _ _ On). reflexivity.
Qed.
(* the p differences, divided by p - 1 *)
Definition off (lb : string) : Qc := Qcdiv (Qcmult (qz p) (sh lb)) (qz (p - 1)).
Lemma offset_shift avgs lb : In lb ls -> good_averages avgs lb -> pf_offset c dst sk false lb p p (fun k => zget k avgs) = Ok (off lb).
Proof.
  intros Il G. unfold pf_offset. assert (S : forall js a, (forall j, In j js -> (j < Z.to_nat p)%nat) ->
    foldM (fun acc j => do x <- ts_get_i sk (Z.of_nat (length (s_items sk)) - 1 - p + Z.of_nat j)%Z; do v <- data_at x lb; do b <- average_at c dst sk p false (fun k => zget k avgs) x; Ok (Qcplus acc (Qcminus v b))) js a = Ok (Qcplus a (Qcmult (qn (length js)) (sh lb)))).
  { induction js as [|j js IH]; intros a Hj; cbn [foldM length].
    - f_equal. change (qn 0) with q0. rewrite q0_eq. ring.
    - destruct (get_in (Z.of_nat (length (s_items sk)) - 1 - p + Z.of_nat j)%Z) as (x & Gx & Ix); [specialize (Hj j (or_introl eq_refl)); lia|].
      rewrite Gx. cbn [bind]. rewrite (Vk x lb Ix Il). cbn [bind]. rewrite (average_good avgs lb x G Ix). cbn [bind]. rewrite IH by (intros i Hi; apply Hj; right; exact Hi).
      f_equal. rewrite qn_succ. ring. }
  rewrite S by (intros j Hj; apply in_seq in Hj; lia). cbn [bind]. destruct (Z.leb_spec p 0); [lia|]. unfold qdiv. rewrite qeqb_false.
  - f_equal. unfold off. rewrite seq_length. unfold qn. rewrite Z2Nat.id by lia. f_equal. rewrite q0_eq. ring.
  - intros X. apply qz_inj in X. lia.
Qed.
Lemma step_time_ok k : step_time c sk first la k = Ok (Qcplus (i_t la) (Qcmult (qn (S k)) d)).
Proof.
  unfold step_time. rewrite Kd, Uk. destruct (is_slot la) eqn:Sl.
  - rewrite (Ex eq_refl) in *. destruct k as [|k].
    + f_equal. f_equal. change (qn 1) with q1. rewrite q1_eq. ring.
    + rewrite slot_step_time. f_equal. rewrite (qn_succ (S k)). ring.
  - f_equal. ring.
Qed.
Lemma labels_entry lb : In lb ls -> exists avgs, dget lb ps = Some (p, p, avgs) /\ good_averages avgs lb.
Proof.
  intros Il. assert (Ik : In lb (map fst ps)) by (rewrite Mp; exact Il). destruct (dget lb ps) as [pw|] eqn:E.
  - assert (Ip : In (lb, pw) ps) by (apply dget_Some_In; exact E). destruct (Gp lb pw Ip) as (avgs & -> & G). eauto.
  - exfalso. apply (proj2 (dget_In lb ps) Ik). exact E.
Qed.
Lemma predict_good steps : exists l, pf_predict c dst (mkPf ps p false) ls sk steps = Ok (FList l) /\ length l = steps /\
  forall k, k < steps -> exists m, nth_error l k = Some (DDict m) /\ NoDup (map fst m) /\ (forall lb, In lb (map fst m) <-> In lb ls) /\
    forall lb, In lb ls -> dget lb m = Some (Qcplus (f lb (Qcplus (i_t la) (Qcmult (qn (S k)) d))) (off lb)).
Proof.
  unfold pf_predict. cbn [pf_window pf_labels pf_dst]. destruct (Z.ltb_spec (Z.of_nat (length (s_items sk))) p); [lia|]. rewrite (get_last sk la La). cbn [bind].
  assert (Ila : In la (s_items sk)) by (apply last_item_some in La; destruct La as [l' ->]; apply in_app_iff; right; left; reflexivity). destruct (Ok_ la Ila) as [n On].
  match goal with |- context [mapM ?g (seq 0 steps)] => destruct (mapM_exists g (fun k dd => exists m, dd = DDict m /\ NoDup (map fst m) /\ (forall lb, In lb (map fst m) <-> In lb ls) /\
    forall lb, In lb ls -> dget lb m = Some (Qcplus (f lb (Qcplus (i_t la) (Qcmult (qn (S k)) d))) (off lb))) (seq 0 steps)) as (l & E & Ln & Nl) end.
  - intros k Hk. rewrite Fi. cbn [bind]. rewrite step_time_ok. cbn [bind]. set (t := Qcplus (i_t la) (Qcmult (qn (S k)) d)).
    assert (Ot : on_grid o d t (n + Z.of_nat (S k))) by (apply on_grid_next; exact On).
    rewrite (mapM_total _ (fun lb => Qcplus (f lb t) (off lb))).
    + cbn [bind]. eexists. split; [reflexivity|]. assert (Ec : combine ls (map (fun lb => Qcplus (f lb t) (off lb)) ls) = map (fun lb => (lb, Qcplus (f lb t) (off lb))) ls) by (clear; induction ls; cbn; [reflexivity|f_equal; assumption]). rewrite Ec.
      destruct (dict_of_spec (map (fun lb => (lb, Qcplus (f lb t) (off lb))) ls)) as (N1 & N2 & N3). eexists. split; [reflexivity|]. split; [exact N1|].
      assert (Nm : NoDup (map fst (map (fun lb => (lb, Qcplus (f lb t) (off lb))) ls))) by (rewrite map_map; cbn; rewrite map_id; exact Nd).
      split; [intros lb; rewrite N2, map_map; cbn; rewrite map_id; reflexivity|]. intros lb Il. rewrite dict_of_NoDup by exact Nm. apply (dget_map_label ls (fun lb => Qcplus (f lb t) (off lb)) lb Il).
    + intros lb Il. destruct (labels_entry lb Il) as (avgs & -> & Ga). rewrite (offset_shift avgs lb Il Ga). cbn [bind]. rewrite Uk, (index_on_grid c dst (i_tz la) o d t _ p Ot) by lia. cbn [bind]. rewrite (Ga _ _ Ot). reflexivity.
  - rewrite E. cbn [bind]. exists l. split; [reflexivity|]. rewrite seq_length in Ln. split; [exact Ln|]. intros k Hk. destruct (Nl k k) as (dd & Hd & m & -> & Q); [rewrite seq_nth_error by exact Hk; reflexivity|]. exists m. split; [exact Hd|exact Q].
Qed.
End Periodic.
