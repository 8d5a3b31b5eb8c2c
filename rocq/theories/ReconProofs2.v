(* ReconProofs2.v -- proofs: when apply succeeds, and the linear reconstructor (C53). *)
From Verif Require Import BaseLemmas DictLemmas PropTactics.
From Verif Require Import SeriesProofs3 SeriesProofs4 AccessProofs AccessProofs2 OpsProofs OpsProofs3 InterpProofs TransformProofs5 ReconProofs.

Lemma run_unique P l a b c d j : maximal_run P l a b -> maximal_run P l c d -> a <= j <= b -> c <= j <= d -> a = c /\ b = d.
Proof.
  intros (A1 & A2 & A3 & A4 & A5) (C1 & C2 & C3 & C4 & C5) Ha Hc.
  assert (a = c).
  { destruct (lt_eq_lt_dec a c) as [[L|L]|L]; [|exact L|].
    - destruct (lt_nth l (c - 1)) as [x Hx]; [lia|]. exfalso. apply (C4 (c - 1) x); [lia|exact Hx|]. apply (A3 (c - 1) x); [lia|exact Hx].
    - destruct (lt_nth l (a - 1)) as [x Hx]; [lia|]. exfalso. apply (A4 (a - 1) x); [lia|exact Hx|]. apply (C3 (a - 1) x); [lia|exact Hx]. }
  split; [assumption|]. destruct (lt_eq_lt_dec b d) as [[L|L]|L]; [|exact L|].
  - destruct (lt_nth l (S b)) as [x Hx]; [lia|]. exfalso. apply (A5 x Hx). apply (C3 (S b) x); [lia|exact Hx].
  - destruct (lt_nth l (S d)) as [x Hx]; [lia|]. exfalso. apply (C5 x Hx). apply (A3 (S d) x); [lia|exact Hx].
Qed.

(* ---------------- when apply succeeds ---------------- *)
Section Succeeds.
Variables (predict : series -> nat -> nat -> result pdata) (thr : Qc) (s0 : series).
Notation l0 := (s_items s0).
Hypothesis D0 : forall x, In x l0 -> i_data x <> None.
Hypothesis P0 : forall from to sk, maximal_run (lossy thr) l0 from to -> so_far thr s0 sk from -> exists pd, predict sk from to = Ok pd /\
  forall sj k, keeps thr s0 sj -> k <= to - from -> exists d, gap_data sj pd k = Ok d.

Lemma reconstruct_ok s g t : g <= t -> t < length l0 -> (forall j x, g <= j <= t -> nth_error l0 j = Some x -> lossy thr x) ->
  keeps thr s0 s -> forall pd, predict s g t = Ok pd -> (forall sj k, keeps thr s0 sj -> k <= t - g -> exists d, gap_data sj pd k = Ok d) ->
  exists s', reconstruct predict s g t = (s', Ok tt).
Proof.
  intros Hg Ht Hl K pd P G. unfold reconstruct. rewrite P.
  assert (X : forall n a s, keeps thr s0 s -> g <= a -> a + n = S t -> exists s', forM (fun s j => match gap_data s pd (j - g) with
                     | Err e => (s, Err e)
                     | Ok d => match nth_error (s_items s) j with
                               | None => (s, Err IndexError)
                               | Some x => (set_nth s j (flag q1 (set_data x (Some d))), Ok tt)
                               end
                     end) (seq a n) s = (s', Ok tt)).
  { induction n as [|n IH]; intros a z Kz Ha Hn; [cbn; eauto|]. cbn [seq forM]. destruct (G z (a - g) Kz ltac:(lia)) as [d ->].
    destruct (lt_nth l0 a) as [x Hx]; [lia|]. pose proof Kz as (Z1 & Z2 & Z3). destruct (Z3 a x Hx) as (y & Hy & S & _). rewrite Hy. apply IH; [|lia|lia].
    unfold keeps, set_nth. cbn [s_items set_items]. split; [rewrite Z1 at 1; reflexivity|]. split; [rewrite replace_nth_length; exact Z2|].
    intros j u Hu. destruct (Nat.eq_dec j a) as [->|Nj].
    - assert (u = x) by congruence. subst u. eexists. split; [apply replace_nth_same; rewrite Z2; lia|]. split; [destruct S as [(S1 & S2 & S3 & S4 & S5) S6]; repeat split; cbn; assumption|].
      intros N. exfalso. apply N. apply (Hl a x); [lia|exact Hx].
    - rewrite replace_nth_other by lia. apply Z3. exact Hu. }
  apply X; [exact K|lia|lia].
Qed.

Lemma to_reconstruct_total x : In x l0 -> exists b, to_reconstruct thr x = Ok b /\ (b = true <-> lossy thr x).
Proof.
  intros H. destruct (to_reconstruct thr x) as [b|] eqn:E.
  - exists b. split; [reflexivity|]. apply to_reconstruct_spec in E. apply E.
  - unfold to_reconstruct in E. pose proof (D0 x H). destruct (i_data x); [discriminate|contradiction].
Qed.

Lemma close_ok i g s : inv predict thr s0 i (Some g) s -> (forall x, nth_error l0 i = Some x -> ~ lossy thr x) -> exists s', reconstruct predict s g (i - 1) = (s', Ok tt).
Proof.
  intros I Hn. pose proof I as (I1 & I2 & I3 & I4 & I5 & I6 & I7 & I8). cbn [begin_of] in *.
  assert (M : maximal_run (lossy thr) l0 g (i - 1)).
  { split; [lia|]. split; [lia|]. split; [intros j x Hj; apply I8; lia|]. split; [exact I6|]. intros x Hx. replace (S (i - 1)) with i in Hx by lia. apply Hn, Hx. }
  destruct (P0 _ _ _ M (inv_so_far _ _ _ _ _ _ I)) as (pd & P & G). apply (reconstruct_ok s g (i - 1)) with (pd := pd); [lia|lia| |apply (inv_keeps _ _ _ _ _ _ I)|exact P|exact G].
  intros j x Hj. apply I8. lia.
Qed.

Lemma loop_ok : forall m i gap s, i + m = length l0 -> inv predict thr s0 i gap s -> exists s' g, rec_loop predict thr (seq i m) gap s = (s', Ok g).
Proof.
  induction m as [|m IH]; intros i gap s Hm I; [cbn; eauto|]. cbn [seq rec_loop]. pose proof I as (I1 & I2 & I3 & I4 & I5 & I6 & I7). destruct (lt_nth l0 i) as [x Hx]; [lia|].
  assert (Hs : nth_error (s_items s) i = Some x) by (rewrite I4; [exact Hx|destruct gap; cbn in *; lia]).
  rewrite Hs. destruct (to_reconstruct_total x (nth_error_In _ _ Hx)) as (b & -> & B). destruct b.
  - apply IH; [lia|]. assert (L : lossy thr x) by (apply B; reflexivity). destruct gap as [g|]; unfold inv; cbn [begin_of] in *.
    + split; [exact I1|]. split; [exact I2|]. split; [lia|]. split; [exact I4|]. split; [exact I5|]. split; [exact I6|]. split; [lia|]. intros j y Hj Hy.
      destruct (Nat.eq_dec j i) as [->|Nj]; [congruence|]. apply (proj2 I7 j y); [lia|exact Hy].
    + split; [exact I1|]. split; [exact I2|]. split; [lia|]. split; [exact I4|]. split; [exact I5|]. split; [exact I6|]. split; [lia|]. intros j y Hj Hy. replace j with i in Hy by lia. congruence.
  - assert (L : ~ lossy thr x) by (intros X; apply B in X; discriminate). assert (L' : forall y, nth_error l0 i = Some y -> ~ lossy thr y) by (intros y Hy; replace y with x by congruence; exact L). destruct gap as [g|].
    + destruct (close_ok i g s I L') as [s1 R]. rewrite R. destruct (inv_close _ _ _ _ _ _ _ _ I L' R) as [_ C]. destruct (C eq_refl) as (C1 & C2 & C3 & C4). rewrite C3 by lia. rewrite Hx.
      apply IH; [lia|]. apply inv_step; assumption.
    + apply IH; [lia|]. apply inv_step; assumption.
Qed.

Lemma apply_ok : exists s', rec_apply_inplace predict thr s0 = (s', Ok tt).
Proof.
  unfold rec_apply_inplace.
  assert (I0 : inv predict thr s0 0 None s0).
  { unfold inv. cbn. split; [destruct s0; reflexivity|]. split; [reflexivity|]. split; [lia|]. split; [reflexivity|]. split; [intros; lia|]. split; [intros; lia|exact Logic.I]. }
  destruct (loop_ok (length l0) 0 None s0 eq_refl I0) as (s1 & g & R). rewrite R. destruct (loop_spec predict thr s0 (length l0) 0 None s0 s1 (Ok g) eq_refl I0 R) as [_ S]. specialize (S _ eq_refl).
  destruct g as [g|]; [|eauto]. apply (close_ok _ _ _ S). intros x Hx. exfalso. apply nth_lt in Hx. lia.
Qed.
End Succeeds.

(* ---------------- in place or not ---------------- *)
Lemma ready_duplicate e s : ready e s -> ts_duplicate e s = Ok s.
Proof.
  intros ((tz & B) & N & W & _ & U). destruct W as [W|W]; [apply (duplicate_points e tz (s_items s) s B); apply W|apply (duplicate_slots e tz (s_items s) s U B); apply W].
Qed.
Lemma ready_in_place e predict thr s s' : ready e s -> reconstructs e predict thr s s' -> rec_apply_inplace predict thr s = (s', Ok tt).
Proof.
  intros R [H|H]; [exact H|]. unfold rec_apply in H. rewrite (ready_duplicate e s R) in H. cbn in H. destruct (rec_apply_inplace predict thr s) as [z [[]|x]]; cbn in H; [injection H as ->; reflexivity|discriminate].
Qed.
Lemma duplicate_items e s c : ts_duplicate e s = Ok c -> s_items c = s_items s.
Proof. unfold ts_duplicate. fold (append_or_raise e). intros H. apply foldM_append_items in H. exact H. Qed.
Lemma apply_out_of_place e predict thr s s' : rec_apply e predict thr s = Ok s' -> exists c, s_items c = s_items s /\ rec_apply_inplace predict thr c = (s', Ok tt).
Proof.
  unfold rec_apply. destruct (ts_duplicate e s) as [c|] eqn:D; cbn; [|discriminate]. destruct (rec_apply_inplace predict thr c) as [z [[]|x]] eqn:R; cbn; [|discriminate].
  intros H. injection H as ->. exists c. split; [apply (duplicate_items e _ _ D)|exact R].
Qed.

(* ---------------- linear interpolation ---------------- *)
Lemma labels_of_first s f r : s_items s = f :: r -> ref_missing s = false -> i_data f <> None -> labels_of s = Ok (item_labels f).
Proof.
  intros E R D. unfold labels_of, ts_data_labels. rewrite E, R. unfold item_data, item_labels. destruct (i_data f); [reflexivity|contradiction].
Qed.
Lemma linear_between s at_ i j f r x y : s_items s = f :: r -> ref_missing s = false -> nth_error (s_items s) i = Some x -> nth_error (s_items s) j = Some y ->
  numeric [f; x; y] -> (forall z, In z [f; x; y] -> exists d, i_data z = Some (DDict d)) -> Qclt (i_t x) at_ -> Qclt at_ (i_t y) ->
  exists d, linear_evaluate s at_ (Some (Z.of_nat i)) (Some (Z.of_nat j)) = Ok d /\ interpolated x y at_ d.
Proof.
  intros E R Hx Hy N D L1 L2. unfold linear_evaluate. rewrite (check_between_ok s at_ i j x y) by assumption. cbn [bind].
  assert (L : Qclt (i_t x) (i_t y)) by (eapply Qclt_trans; eassumption).
  unfold interp_data. rewrite (ts_get_i_nat s i x Hx), (ts_get_i_nat s j y Hy). cbn [bind].
  pose proof N as (_ & N1 & N2). assert (If : In f [f; x; y]) by (left; reflexivity). assert (Ix : In x [f; x; y]) by (right; left; reflexivity). assert (Iy : In y [f; x; y]) by (right; right; left; reflexivity).
  destruct (D f If) as [df Df]. rewrite (labels_of_first s f r E R) by congruence. cbn [bind].
  assert (Hl : forall lb, In lb (item_labels f) <-> has_label x lb).
  { intros lb. rewrite item_labels_In. apply same_shape_labels. apply N2; assumption. }
  rewrite (mapM_total _ (line x y at_)).
  2:{ intros lb Hlb. apply Hl in Hlb. pose proof (numeric_labels _ x y lb N Ix Iy Hlb) as Hl'. destruct (valof_ok x lb (N1 x Ix) Hlb) as [_ V]. destruct (valof_ok y lb (N1 y Iy) Hl') as [_ V'].
      destruct (D x Ix) as [dx Dx]. destruct (D y Iy) as [dy Dy]. unfold linear_value. rewrite (data_at_ok y lb _ dy (N1 y Iy) Dy V'), (data_at_ok x lb _ dx (N1 x Ix) Dx V). cbn [bind]. unfold qdiv.
      rewrite qeqb_false; [reflexivity|]. intros F. apply (Qclt_not_eq _ _ L). qlra. }
  cbn [bind]. assert (Nf : NoDup (item_labels f)) by (apply item_labels_NoDup, N1, If). eexists. split; [reflexivity|].
  assert (C : combine (item_labels f) (map (line x y at_) (item_labels f)) = map (fun lb => (lb, line x y at_ lb)) (item_labels f)).
  { rewrite <- (map_id (item_labels f)) at 1. rewrite combine_maps. reflexivity. }
  rewrite C, dict_of_NoDup by (rewrite dkeys_map_label; exact Nf). unfold interpolated, data_by. rewrite dkeys_map_label. split; [exact Nf|split; [|exact Hl]].
  intros lb v Hin. apply in_map_iff in Hin. destruct Hin as (k & E2 & K). injection E2 as -> <-. apply Hl in K. pose proof (numeric_labels _ x y lb N Ix Iy K) as K'.
  exists (valof x lb), (valof y lb). split; [apply valof_ok; auto|split; [apply valof_ok; auto|]]. apply line_on_line. exact L.
Qed.

Definition twin (x y : item) : Prop := i_cls y = i_cls x /\ i_t y = i_t x /\ i_data y = i_data x.
Lemma twin_shape x x' y y' : twin x x' -> twin y y' -> same_item_shape x y -> same_item_shape x' y'.
Proof. unfold twin, same_item_shape. intros (A1 & A2 & A3) (B1 & B2 & B3). rewrite A1, B1, A3, B3. auto. Qed.
Lemma twin_numeric x x' : twin x x' -> numeric_item x -> numeric_item x'.
Proof. unfold twin, numeric_item. intros (A1 & A2 & A3). rewrite A1, A3. auto. Qed.
Lemma twin_interpolated x x' y y' t d : twin x x' -> twin y y' -> interpolated x' y' t d -> interpolated x y t d.
Proof.
  unfold twin, interpolated, data_by. intros (A1 & A2 & A3) (B1 & B2 & B3). destruct d as [|m]; [auto|]. intros (H1 & H2 & H3). split; [exact H1|split].
  - intros lb v Hv. destruct (H2 lb v Hv) as (a & b & Ha & Hb & O). exists a, b. unfold has_value in *. rewrite A3 in Ha. rewrite B3 in Hb. rewrite A2, B2 in O. auto.
  - intros lb. rewrite H3. unfold has_label, has_value. rewrite A3. reflexivity.
Qed.
Lemma twin_numeric3 l f x y f' x' y' : numeric l -> In f l -> In x l -> In y l -> twin f f' -> twin x x' -> twin y y' -> numeric [f'; x'; y'].
Proof.
  intros (_ & N1 & N2) If Ix Iy Tf Tx Ty.
  assert (A : forall z', In z' [f'; x'; y'] -> exists z, In z l /\ twin z z') by (intros z' [<-|[<-|[<-|[]]]]; eauto).
  split; [discriminate|]. split.
  - intros z' Hz. destruct (A z' Hz) as (z & Iz & Tz). apply (twin_numeric z z' Tz). auto.
  - intros z' w' Hz Hw. destruct (A z' Hz) as (z & Iz & Tz). destruct (A w' Hw) as (w & Iw & Tw). apply (twin_shape z z' w w'); auto.
Qed.
Lemma so_far_twin thr s sk from j x : so_far thr s sk from -> nth_error (s_items s) j = Some x -> ~ lossy thr x -> exists y, nth_error (s_items sk) j = Some y /\ twin x y.
Proof.
  intros (_ & S2 & _ & S4) Hx N. destruct (lt_nth (s_items sk) j) as [y Hy]; [rewrite S2; apply (nth_lt _ _ _ Hx)|]. exists y. split; [exact Hy|].
  destruct (S4 j x y Hx Hy) as ((T1 & T2 & _) & D). split; [exact T1|split; [exact T2|apply D, N]].
Qed.
Lemma so_far_ref thr s sk from : so_far thr s sk from -> ref_missing sk = ref_missing s.
Proof.
  intros (S1 & S2 & _). unfold ref_missing. assert (E : s_ref sk = s_ref s) by (rewrite S1; reflexivity). rewrite E.
  destruct (s_items sk) as [|a ka]; destruct (s_items s) as [|b kb]; cbn in S2; try discriminate; reflexivity.
Qed.
Lemma seq_nth_error a n k : k < n -> nth_error (seq a n) k = Some (a + k).
Proof. revert a k. induction n as [|n IH]; intros a [|k] H; [lia|lia|cbn; f_equal; lia|]. cbn [seq nth_error]. rewrite IH by lia. f_equal. lia. Qed.

Section Linear.
Variables (e : env) (s : series) (thr : Qc).
Hypothesis R : ready e s.
Notation l := (s_items s).
Hypothesis F0 : forall x, nth_error l 0 = Some x -> ~ lossy thr x.

Lemma linear_gap sk from to : maximal_run (lossy thr) l from to -> so_far thr s sk from -> S to < length l ->
  exists b a, 1 <= from /\ nth_error l (from - 1) = Some b /\ nth_error l (S to) = Some a /\ exists ds, linear_predict sk from to = Ok (PList ds) /\
    length ds = S to - from /\ forall k, k <= to - from -> exists x d, nth_error l (from + k) = Some x /\ nth_error ds k = Some d /\ interpolated b a (i_t x) d.
Proof.
  intros M S Ht. pose proof R as ((tz & B) & N & W & D & U). assert (RM : ref_missing s = false) by (apply (history_ref e); [apply built_history; [exists tz; exact B|exact N]|exact N]).
  pose proof M as (M1 & M2 & M3 & M4 & M5). assert (Hf : 1 <= from).
  { destruct from; [|lia]. exfalso. destruct (lt_nth l 0) as [x Hx]; [lia|]. apply (F0 x Hx). apply (M3 0 x); [lia|exact Hx]. }
  destruct (lt_nth l (from - 1)) as [b Hb]; [lia|]. destruct (lt_nth l (Datatypes.S to)) as [a Ha]; [lia|]. destruct (lt_nth l 0) as [f Hf0]; [lia|].
  exists b, a. split; [exact Hf|]. split; [exact Hb|]. split; [exact Ha|].
  assert (Nb : ~ lossy thr b) by (apply (M4 (from - 1) b); [lia|exact Hb]).
  destruct (so_far_twin thr s sk from _ _ S Hb Nb) as (b' & Hb' & Tb). destruct (so_far_twin thr s sk from _ _ S Ha (M5 _ Ha)) as (a' & Ha' & Ta). destruct (so_far_twin thr s sk from _ _ S Hf0 (F0 f Hf0)) as (f' & Hf' & Tf).
  pose proof S as (S1 & S2 & S3 & S4). pose proof (wf_items_times _ W) as ST.
  assert (G : forall i x, from <= i <= to -> nth_error l i = Some x -> exists d, linear_evaluate sk (i_t x) (Some (Z.of_nat from - 1)%Z) (Some (Z.of_nat to + 1)%Z) = Ok d /\ interpolated b a (i_t x) d).
  { intros i x Hi Hx. replace (Z.of_nat from - 1)%Z with (Z.of_nat (from - 1)) by lia. replace (Z.of_nat to + 1)%Z with (Z.of_nat (Datatypes.S to)) by lia.
    destruct (s_items sk) as [|f1 r1] eqn:Esk; [discriminate|]. cbn in Hf'. injection Hf' as ->. rewrite <- Esk in Hb', Ha'.
    destruct (linear_between sk (i_t x) (from - 1) (Datatypes.S to) f' r1 b' a' Esk) as (d & Hd & I); try assumption.
    - rewrite (so_far_ref thr s sk from S). exact RM.
    - apply (twin_numeric3 l f b a); try assumption; eapply nth_error_In; eassumption.
    - intros z [<-|[<-|[<-|[]]]]; [destruct Tf as (_ & _ & ->)|destruct Tb as (_ & _ & ->)|destruct Ta as (_ & _ & ->)]; apply D; eapply nth_error_In; eassumption.
    - destruct Tb as (_ & -> & _). apply (ST (from - 1) i); [lia|apply times_nth; exact Hb|apply times_nth; exact Hx].
    - destruct Ta as (_ & -> & _). apply (ST i (Datatypes.S to)); [lia|apply times_nth; exact Hx|apply times_nth; exact Ha].
    - exists d. split; [exact Hd|]. apply (twin_interpolated b b' a a'); assumption. }
  assert (TM : exists ds, mapM (fun i => do x <- ts_get_i sk (Z.of_nat i); linear_evaluate sk (i_t x) (Some (Z.of_nat from - 1)%Z) (Some (Z.of_nat to + 1)%Z)) (seq from (Datatypes.S to - from)) = Ok ds).
  { assert (X : forall is, (forall i, In i is -> from <= i <= to) -> exists ds, mapM (fun i => do x <- ts_get_i sk (Z.of_nat i); linear_evaluate sk (i_t x) (Some (Z.of_nat from - 1)%Z) (Some (Z.of_nat to + 1)%Z)) is = Ok ds).
    { induction is as [|i is IH]; intros Hi; [cbn; eauto|]. cbn [mapM]. destruct (lt_nth l i) as [x Hx]; [specialize (Hi i (or_introl eq_refl)); lia|].
      rewrite (ts_get_i_nat sk i x) by (rewrite S3; [exact Hx|apply Hi; left; reflexivity]). cbn [bind]. destruct (G i x (Hi i (or_introl eq_refl)) Hx) as (d & -> & _). cbn [bind].
      destruct (IH (fun j Hj => Hi j (or_intror Hj))) as [ds ->]. cbn. eauto. }
    apply X. intros i Hi. apply in_seq in Hi. lia. }
  destruct TM as [ds TM]. exists ds. unfold linear_predict, check_window. rewrite S2.
  destruct (Nat.ltb_spec from 1); [lia|]. destruct (Nat.ltb_spec (length l - 1) (to + 1)); [lia|]. cbn [bind]. rewrite TM. cbn [bind]. split; [reflexivity|].
  destruct (mapM_nth _ _ _ TM) as [LM NM]. rewrite seq_length in LM. split; [exact LM|]. intros k Hk. destruct (lt_nth l (from + k)) as [x Hx]; [lia|].
  destruct (NM k (from + k)) as (d & Hd & E); [apply seq_nth_error; lia|]. rewrite (ts_get_i_nat sk (from + k) x) in E by (rewrite S3; [exact Hx|lia]). cbn [bind] in E.
  destruct (G (from + k) x ltac:(lia) Hx) as (d' & E' & I). exists x, d. split; [exact Hx|]. split; [exact Hd|]. congruence.
Qed.
End Linear.

Lemma linear_refuses sk from to pd : linear_predict sk from to = Ok pd -> 1 <= from /\ S to < length (s_items sk).
Proof.
  unfold linear_predict, check_window. destruct (Nat.ltb_spec from 1); [discriminate|]. destruct (Nat.ltb_spec (length (s_items sk) - 1) (to + 1)); [discriminate|]. lia.
Qed.

Section Linear2.
Variables (e : env) (s s' : series) (thr : Qc).
Hypothesis R : ready e s.
Notation l := (s_items s).
Hypothesis A : rec_apply_inplace linear_predict thr s = (s', Ok tt).

Lemma linear_ends : (forall x, nth_error l 0 = Some x -> ~ lossy thr x) /\ (forall x, nth_error l (length l - 1) = Some x -> ~ lossy thr x).
Proof.
  destruct (apply_spec _ _ _ _ _ A) as [_ H]. specialize (H eq_refl). split; intros x Hx L; destruct (H _ x Hx) as (y & Hy & _ & _ & D); destruct (D L) as (_ & from & to & sk & pd & d & M & I & S & P & _); apply linear_refuses in P.
  - lia.
  - destruct S as (_ & S2 & _). apply nth_lt in Hx. lia.
Qed.
Lemma linear_done i x : nth_error l i = Some x -> lossy thr x -> forall from to, maximal_run (lossy thr) l from to -> from <= i <= to ->
  exists b a y d, 1 <= from /\ nth_error l (from - 1) = Some b /\ nth_error l (S to) = Some a /\ nth_error (s_items s') i = Some y /\
    same_shell x y /\ flagged q1 x y /\ i_data y = Some d /\ interpolated b a (i_t x) d.
Proof.
  intros Hx L from to M Hi. destruct (apply_spec _ _ _ _ _ A) as [_ H]. destruct (H eq_refl i x Hx) as (y & Hy & Sh & _ & D). destruct (D L) as (F & from' & to' & sk & pd & d & M' & I & S & P & K & _ & Dy).
  destruct (run_unique _ _ _ _ _ _ i M' M I Hi) as [-> ->]. pose proof (linear_refuses _ _ _ _ P) as [_ Lt]. assert (Lt' : Datatypes.S to < length l) by (destruct S as (_ & S2 & _); lia).
  destruct (linear_gap e s thr R (proj1 linear_ends) sk from to M S Lt') as (b & a & H1 & Hb & Ha & ds & P' & Ln & G). rewrite P' in P. injection P as <-. cbn in K.
  destruct (G (i - from) ltac:(lia)) as (x' & d' & Hx' & Hd & I'). replace (from + (i - from)) with i in Hx' by lia. assert (x' = x) by congruence. subst x'. assert (d' = d) by congruence. subst d'.
  exists b, a, y, d. auto 10.
Qed.
End Linear2.

Lemma linear_succeeds e s thr : ready e s -> (forall x, nth_error (s_items s) 0 = Some x -> ~ lossy thr x) -> (forall x, nth_error (s_items s) (length (s_items s) - 1) = Some x -> ~ lossy thr x) ->
  exists s', rec_apply_inplace linear_predict thr s = (s', Ok tt).
Proof.
  intros R F L. apply apply_ok.
  - intros x Hx. destruct R as (_ & _ & _ & D & _). destruct (D x Hx) as [d ->]. discriminate.
  - intros from to sk M S. assert (Ht : Datatypes.S to < length (s_items s)).
    { destruct M as (M1 & M2 & M3 & _). destruct (Nat.eq_dec (Datatypes.S to) (length (s_items s))) as [E|E]; [|lia]. exfalso. destruct (lt_nth (s_items s) to M2) as [x Hx].
      apply (L x); [replace (length (s_items s) - 1) with to by lia; exact Hx|]. apply (M3 to x); [lia|exact Hx]. }
    destruct (linear_gap e s thr R F sk from to M S Ht) as (b & a & _ & _ & _ & ds & P & Ln & G). exists (PList ds). split; [exact P|]. intros sj k _ Hk. destruct (G k Hk) as (x & d & _ & Hd & _). exists d. cbn. rewrite Hd. reflexivity.
Qed.
