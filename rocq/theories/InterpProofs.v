(* InterpProofs.v -- the interpolators. *)
From Verif Require Import SpecIntervals BaseLemmas AccessProofs AccessProofs3 DictLemmas OpsProofs OpsProofs2 OpsProofs3 IntervalsProofs.

Lemma ts_get_i_nat s i x : nth_error (s_items s) i = Some x -> ts_get_i s (Z.of_nat i) = Ok x.
Proof. intros H. rewrite ts_get_i_in_range by lia. unfold py_index. destruct (Z.leb_spec 0 (Z.of_nat i)); [|lia]. rewrite Nat2Z.id, H. reflexivity. Qed.
Lemma history_ref e s : from_history e s -> numeric (s_items s) -> ref_missing s = false.
Proof.
  intros Hh Hn. unfold ref_missing. destruct (s_items s) as [|x l] eqn:El; [reflexivity|].
  destruct (history_truthy _ _ Hh) as [H|(d & Hr & Ht)]; [congruence|]. rewrite Hr, Ht. reflexivity.
Qed.
Lemma prep_ref s : ref_missing s = false -> numeric (s_items s) -> exists x l, s_items s = x :: l /\ op_prep s = Ok (x, item_labels x) /\ labels_of s = Ok (item_labels x).
Proof.
  intros Hr (Hne & Hn & Hs). destruct (s_items s) as [|x l] eqn:El; [contradiction|]. exists x, l. split; [reflexivity|].
  pose proof (Hn x (or_introl eq_refl)) as Hx. unfold op_prep, labels_of, ts_data_labels. rewrite El, Hr.
  destruct (numeric_truthy x Hx) as (d0 & Hd & _). unfold item_data, item_labels. rewrite Hd. cbn.
  destruct Hx as [[-> | ->] _]; split; reflexivity.
Qed.
Lemma labels_of_ok s : ref_missing s = false -> numeric (s_items s) -> exists x l, s_items s = x :: l /\ labels_of s = Ok (item_labels x).
Proof. intros H N. destruct (prep_ref s H N) as (x & l & E & _ & P). exists x, l. split; assumption. Qed.
Lemma data_at_ok x lb v d : numeric_item x -> i_data x = Some (DDict d) -> has_value x lb v -> data_at x lb = Ok v.
Proof.
  intros [_ N] E H. unfold data_at, item_data, has_value in *. rewrite E in *. cbn. rewrite (dget_NoDup lb d v); [reflexivity|apply N|exact H].
Qed.
Lemma interp_data_ref s value at_ i j x y (g : string -> Qc) :
  ref_missing s = false -> dict_points s -> nth_error (s_items s) i = Some x -> nth_error (s_items s) j = Some y ->
  (forall lb, has_label x lb -> value x y at_ lb = Ok (g lb)) ->
  exists d, interp_data value s at_ (Z.of_nat i) (Z.of_nat j) = Ok d /\ data_by d x (fun lb v => has_label x lb /\ v = g lb).
Proof.
  intros H (N & W & D) Hx Hy Hv. destruct (labels_of_ok s H N) as (f & l & E & L). unfold interp_data.
  rewrite (ts_get_i_nat s i x Hx), (ts_get_i_nat s j y Hy). cbn [bind]. rewrite L. cbn [bind].
  assert (Inx : In x (s_items s)) by (apply nth_error_In in Hx; exact Hx).
  assert (Inf : In f (s_items s)) by (rewrite E; left; reflexivity).
  assert (Hl : forall lb, In lb (item_labels f) <-> has_label x lb).
  { intros lb. rewrite item_labels_In. apply same_shape_labels. apply N; assumption. }
  rewrite (mapM_total _ g) by (intros lb Hlb; apply Hv, Hl, Hlb). cbn [bind].
  assert (Nf : NoDup (item_labels f)) by (apply item_labels_NoDup, N, Inf).
  eexists. split; [reflexivity|].
  assert (C : combine (item_labels f) (map g (item_labels f)) = map (fun lb => (lb, g lb)) (item_labels f)).
  { rewrite <- (map_id (item_labels f)) at 1. rewrite combine_maps. reflexivity. }
  rewrite C, dict_of_NoDup by (rewrite dkeys_map_label; exact Nf). unfold data_by. rewrite dkeys_map_label. split; [exact Nf|split].
  - intros lb v Hin. apply in_map_iff in Hin. destruct Hin as (k & E2 & K). injection E2 as -> <-. split; [apply Hl; exact K|reflexivity].
  - intros lb. apply Hl.
Qed.

Lemma first_after_at at_ : forall l k i y, (forall j x, j < i -> nth_error l j = Some x -> Qcle (i_t x) at_) -> nth_error l i = Some y -> Qclt at_ (i_t y) ->
  first_after at_ k l = Some (k + i).
Proof.
  induction l as [|x l IH]; intros k i y Hb Hy Hl; [destruct i; discriminate|]. simpl. destruct i as [|i].
  - injection Hy as ->. rewrite qltb_true by exact Hl. f_equal. lia.
  - rewrite qltb_false by (apply (Hb 0); [lia|reflexivity]). rewrite (IH (S k) i y); [f_equal; lia| |exact Hy|exact Hl].
    intros j z Hj Hz. apply (Hb (S j)); [lia|exact Hz].
Qed.
Lemma first_after_none at_ : forall l k, (forall x, In x l -> Qcle (i_t x) at_) -> first_after at_ k l = None.
Proof. induction l as [|x l IH]; intros k H; [reflexivity|]. simpl. rewrite qltb_false by (apply H; left; reflexivity). apply IH. intros; apply H; right; assumption. Qed.
Lemma times_nth l i x : nth_error l i = Some x -> nth_error (times l) i = Some (i_t x).
Proof. intros H. unfold times. rewrite nth_error_map, H. reflexivity. Qed.

Definition line (x y : item) (at_ : Qc) (lb : string) : Qc :=
  Qcplus (valof x lb) (Qcmult (Qcminus at_ (i_t x)) (Qcdiv (Qcminus (valof y lb) (valof x lb)) (Qcminus (i_t y) (i_t x)))).
Lemma linear_value_ok s x y at_ lb : dict_points s -> In x (s_items s) -> In y (s_items s) -> Qclt (i_t x) (i_t y) -> has_label x lb ->
  linear_value x y at_ lb = Ok (line x y at_ lb).
Proof.
  intros (N & _ & D) Hx Hy L Hl. pose proof (numeric_labels _ x y lb N Hx Hy Hl) as Hl'.
  destruct N as (_ & N & _). destruct (valof_ok x lb (N x Hx) Hl) as [_ V]. destruct (valof_ok y lb (N y Hy) Hl') as [_ V'].
  destruct (D x Hx) as [dx Dx]. destruct (D y Hy) as [dy Dy]. unfold linear_value.
  rewrite (data_at_ok y lb _ dy (N y Hy) Dy V'), (data_at_ok x lb _ dx (N x Hx) Dx V). cbn [bind]. unfold qdiv.
  rewrite qeqb_false; [reflexivity|]. intros E. apply (Qclt_not_eq _ _ L). qlra.
Qed.
Lemma line_on_line x y at_ lb : Qclt (i_t x) (i_t y) -> on_line (i_t x) (valof x lb) (i_t y) (valof y lb) at_ (line x y at_ lb).
Proof. intros L. unfold on_line, line. field. intros E. apply (Qclt_not_eq _ _ L). qlra. Qed.
Lemma uniform_value_ok s x y at_ lb : dict_points s -> In x (s_items s) -> In y (s_items s) -> has_label x lb ->
  uniform_value x y at_ lb = Ok (Qcplus (valof x lb) (Qcdiv (Qcminus (valof y lb) (valof x lb)) q2)).
Proof.
  intros (N & _ & D) Hx Hy Hl. pose proof (numeric_labels _ x y lb N Hx Hy Hl) as Hl'.
  destruct N as (_ & N & _). destruct (valof_ok x lb (N x Hx) Hl) as [_ V]. destruct (valof_ok y lb (N y Hy) Hl') as [_ V'].
  destruct (D x Hx) as [dx Dx]. destruct (D y Hy) as [dy Dy]. unfold uniform_value.
  rewrite (data_at_ok y lb _ dy (N y Hy) Dy V'), (data_at_ok x lb _ dx (N x Hx) Dx V). reflexivity.
Qed.

(* the value between two positions *)
Definition interpolated (x y : item) (at_ : Qc) (d : data) : Prop :=
  data_by d x (fun lb v => exists a b, has_value x lb a /\ has_value y lb b /\ on_line (i_t x) a (i_t y) b at_ v).
Lemma linear_pair s at_ i j x y : ref_missing s = false -> dict_points s -> nth_error (s_items s) i = Some x -> nth_error (s_items s) j = Some y ->
  Qclt (i_t x) (i_t y) -> exists d, interp_data linear_value s at_ (Z.of_nat i) (Z.of_nat j) = Ok d /\ interpolated x y at_ d.
Proof.
  intros H D Hx Hy L. assert (Ix : In x (s_items s)) by (apply nth_error_In in Hx; exact Hx). assert (Iy : In y (s_items s)) by (apply nth_error_In in Hy; exact Hy).
  destruct (interp_data_ref s linear_value at_ i j x y (line x y at_) H D Hx Hy) as (d & E & B).
  - intros lb Hlb. apply (linear_value_ok s); assumption.
  - exists d. split; [exact E|]. unfold interpolated. destruct D as (N & _ & _). destruct d as [d|d]; [exact B|]. destruct B as (B1 & B2 & B3). split; [exact B1|split; [|exact B3]].
    intros lb v Hv. destruct (B2 lb v Hv) as [Hl ->]. exists (valof x lb), (valof y lb).
    pose proof (numeric_labels _ x y lb N Ix Iy Hl) as Hl'. destruct N as (_ & N & _).
    split; [apply valof_ok; auto|split; [apply valof_ok; auto|]]. apply line_on_line. exact L.
Qed.
Lemma linear_search_ref s at_ i x y : ref_missing s = false -> dict_points s -> nth_error (s_items s) i = Some x -> nth_error (s_items s) (S i) = Some y ->
  Qcle (i_t x) at_ -> Qclt at_ (i_t y) -> exists d, linear_evaluate s at_ None None = Ok d /\ interpolated x y at_ d.
Proof.
  intros H D Hx Hy L1 L2. unfold linear_evaluate. pose proof (proj1 (proj2 (proj1 (proj2 D)))) as I.
  rewrite (first_after_at at_ (s_items s) 0 (S i) y); [|  |exact Hy|exact L2].
  - replace (Z.of_nat (0 + S i) - 1)%Z with (Z.of_nat i) by lia. apply (linear_pair s); try assumption. eapply Qcle_lt_trans; eassumption.
  - intros j z Hj Hz. destruct (Nat.eq_dec j i) as [->|Nj]; [congruence|]. apply Qclt_le_weak. eapply Qclt_le_trans; [|exact L1].
    apply (I j i); [lia|apply times_nth; exact Hz|apply times_nth; exact Hx].
Qed.
Lemma check_between_ok s at_ i j x y : nth_error (s_items s) i = Some x -> nth_error (s_items s) j = Some y -> Qclt (i_t x) at_ -> Qclt at_ (i_t y) ->
  check_between s at_ (Z.of_nat i) (Z.of_nat j) = Ok tt.
Proof.
  intros Hx Hy L1 L2. unfold check_between. rewrite (ts_get_i_nat s i x Hx), (ts_get_i_nat s j y Hy). cbn [bind]. rewrite !qltb_true by assumption. reflexivity.
Qed.
Lemma linear_given_ref s at_ i j x y : ref_missing s = false -> dict_points s -> nth_error (s_items s) i = Some x -> nth_error (s_items s) j = Some y ->
  Qclt (i_t x) at_ -> Qclt at_ (i_t y) -> exists d, linear_evaluate s at_ (Some (Z.of_nat i)) (Some (Z.of_nat j)) = Ok d /\ interpolated x y at_ d.
Proof.
  intros H D Hx Hy L1 L2. unfold linear_evaluate. rewrite (check_between_ok s at_ i j x y) by assumption. cbn [bind].
  apply (linear_pair s); try assumption. eapply Qclt_trans; eassumption.
Qed.
Lemma on_line_between t0 v0 t1 v1 x v : Qclt t0 t1 -> Qcle t0 x -> Qcle x t1 -> on_line t0 v0 t1 v1 x v ->
  Qcle (qmin v0 v1) v /\ Qcle v (qmax v0 v1).
Proof.
  unfold on_line, qmin, qmax. intros L L1 L2 E. destruct (qleb_spec v0 v1) as [K|K].
  - split.
    + destruct (Qclt_le_dec v v0) as [C|C]; [|exact C]. exfalso. qnra.
    + destruct (Qclt_le_dec v1 v) as [C|C]; [|exact C]. exfalso. qnra.
  - apply Qcnot_le_lt in K. split.
    + destruct (Qclt_le_dec v v1) as [C|C]; [|exact C]. exfalso. qnra.
    + destruct (Qclt_le_dec v0 v) as [C|C]; [|exact C]. exfalso. qnra.
Qed.
Lemma mul_cancel a b d : d <> q0 -> Qcmult a d = Qcmult b d -> a = b.
Proof.
  intros D E. assert (Z : Qcmult (Qcminus a b) d = q0) by (rewrite q0_eq; transitivity (Qcminus (Qcmult a d) (Qcmult b d)); [ring|rewrite E; ring]).
  apply Qcmult_integral in Z. destruct Z as [Z|Z]; [qlra|exfalso; apply D; exact Z].
Qed.
Lemma on_line_linear t0 t1 x v k q : Qclt t0 t1 -> on_line t0 (Qcplus (Qcmult k t0) q) t1 (Qcplus (Qcmult k t1) q) x v -> v = Qcplus (Qcmult k x) q.
Proof.
  unfold on_line. intros L E. apply (mul_cancel _ _ (Qcminus t1 t0)); [intros F; apply (Qclt_not_eq _ _ L); qlra|].
  assert (G : Qcmult v (Qcminus t1 t0) = Qcplus (Qcmult (Qcminus v (Qcplus (Qcmult k t0) q)) (Qcminus t1 t0)) (Qcmult (Qcplus (Qcmult k t0) q) (Qcminus t1 t0))) by ring.
  rewrite G, E. ring.
Qed.
Lemma on_line_left t0 v0 t1 v1 v : Qclt t0 t1 -> on_line t0 v0 t1 v1 t0 v -> v = v0.
Proof.
  unfold on_line. intros L E. apply (mul_cancel _ _ (Qcminus t1 t0)); [intros F; apply (Qclt_not_eq _ _ L); qlra|].
  assert (G : Qcmult v (Qcminus t1 t0) = Qcplus (Qcmult (Qcminus v v0) (Qcminus t1 t0)) (Qcmult v0 (Qcminus t1 t0))) by ring. rewrite G, E. ring.
Qed.

Lemma linear_given e s at_ i j x y : from_history e s -> dict_points s -> nth_error (s_items s) i = Some x -> nth_error (s_items s) j = Some y ->
  Qclt (i_t x) at_ -> Qclt at_ (i_t y) -> exists d, linear_evaluate s at_ (Some (Z.of_nat i)) (Some (Z.of_nat j)) = Ok d /\ interpolated x y at_ d.
Proof. intros H D. apply linear_given_ref; [apply (history_ref e); [exact H|apply D]|exact D]. Qed.
Lemma linear_search e s at_ i x y : from_history e s -> dict_points s -> nth_error (s_items s) i = Some x -> nth_error (s_items s) (S i) = Some y ->
  Qcle (i_t x) at_ -> Qclt at_ (i_t y) -> exists d, linear_evaluate s at_ None None = Ok d /\ interpolated x y at_ d.
Proof. intros H D. apply linear_search_ref; [apply (history_ref e); [exact H|apply D]|exact D]. Qed.
Lemma interp_data_ok e s value at_ i j x y (g : string -> Qc) :
  from_history e s -> dict_points s -> nth_error (s_items s) i = Some x -> nth_error (s_items s) j = Some y ->
  (forall lb, has_label x lb -> value x y at_ lb = Ok (g lb)) ->
  exists d, interp_data value s at_ (Z.of_nat i) (Z.of_nat j) = Ok d /\ data_by d x (fun lb v => has_label x lb /\ v = g lb).
Proof. intros H D. apply interp_data_ref; [apply (history_ref e); [exact H|apply D]|exact D]. Qed.
