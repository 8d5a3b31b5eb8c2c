(* AnomalyProofs5.v -- the details added by the application of an anomaly detector (C71). *)
From Verif Require Import SeriesProofs3 SeriesProofs4 AccessProofs AccessProofs2 AccessProofs3 OpsProofs OpsProofs2 InterpProofs ReconProofs2 LstmProofs LstmProofs2 DictLemmas UtilsProofs PropTactics.
From Verif Require Export AnomalyProofs4.
From Coq Require Import Lia.

(* ---------------- names ---------------- *)
Fixpoint last_char (s : string) : option Ascii.ascii := match s with EmptyString => None | String c EmptyString => Some c | String _ r => last_char r end.
Lemma last_app a c r : last_char (a ++ String c r) = last_char (String c r).
Proof. induction a as [|x a IH]; [reflexivity|]. cbn [append]. destruct a as [|y a]; [reflexivity|]. cbn [append] in *. cbn [last_char]. cbn [last_char] in IH. exact IH. Qed.
Lemma app_same_length a b t : (a ++ t = b ++ t)%string -> a = b.
Proof.
  assert (Len : forall x y : string, String.length (x ++ y) = String.length x + String.length y) by (induction x as [|c x IH]; intros y; cbn; [reflexivity|rewrite IH; reflexivity]).
  intros E. assert (Ln : String.length a = String.length b) by (assert (H := f_equal String.length E); rewrite !Len in H; lia). revert b E Ln. induction a as [|c a IH]; intros [|c' b] E Ln; try discriminate; [reflexivity|]. cbn in E. injection E as -> E. cbn in Ln. f_equal. apply IH; [exact E|lia].
Qed.
Definition is_suffix (t : string) : Prop := (t = "_pred" \/ t = "_err" \/ t = "_adh" \/ t = "_adh)")%string.
Lemma suffix_inj a b t u : is_suffix t -> is_suffix u -> (a ++ t = b ++ u)%string -> a = b /\ t = u.
Proof.
  intros T U E. assert (L := f_equal last_char E). destruct T as [->|[->|[->| ->]]], U as [->|[->|[->| ->]]]; rewrite !last_app in L; try discriminate L; split; try reflexivity; apply app_same_length in E; exact E.
Qed.
Lemma no_detail ls lb t : is_suffix t -> ~ In lb ls -> ~ detail_name ls (lb ++ t).
Proof.
  intros T N (lb' & I1 & C). assert (X : exists u, is_suffix u /\ (lb ++ t = lb' ++ u)%string) by (unfold is_suffix; destruct C as [C|[C|[C|C]]]; eexists; (split; [|exact C]); tauto). destruct X as (u & U & E). apply (suffix_inj _ _ _ _ T U) in E. destruct E as [-> _]. contradiction.
Qed.

(* ---------------- one label ---------------- *)
Definition value_of (y : item) (k : string) (v : Qc) : Prop := exists d, i_data y = Some (DDict d) /\ dget k d = Some v.
Lemma value_has y k v : value_of y k v -> has_value y k v.
Proof. intros (d & E & H). unfold has_value. rewrite E. apply dget_Some_In. exact H. Qed.
Lemma set_if_sets x k (v : result Qc) y : set_if true x k v = Ok y -> exists q, v = Ok q /\ value_of y k q.
Proof.
  unfold set_if. destruct v as [q|]; cbn [bind]; [|discriminate]. intros H. exists q. split; [reflexivity|]. apply set_value_ok in H. destruct H as (_ & _ & d & d' & _ & E & ->). exists (dset k q d). split; [exact E|]. rewrite dget_dset, String.eqb_refl. reflexivity.
Qed.
Lemma set_if_keeps b x k v y k' q : set_if b x k v = Ok y -> k' <> k -> value_of x k' q -> value_of y k' q.
Proof.
  unfold set_if. destruct b; [|intros H _ V; injection H as <-; exact V]. destruct v as [v|]; cbn [bind]; [|discriminate]. intros H N (d & E & V). apply set_value_ok in H. destruct H as (_ & _ & d0 & d' & E0 & E' & ->). rewrite E in E0. injection E0 as <-.
  exists (dset k v d). split; [exact E'|]. rewrite dget_dset, (proj2 (String.eqb_neq _ _) N). exact V.
Qed.
Lemma sfx a t u : is_suffix t -> is_suffix u -> t <> u -> (a ++ t <> a ++ u)%string.
Proof. intros T U N E. apply (suffix_inj _ _ _ _ T U) in E. destruct E as [_ E]. contradiction. Qed.
Definition adh_name (dt : details) (lb : string) : string := match dt with DAll => (lb ++ "_adh")%string | _ => (lb ++ "_adh)")%string end.
Lemma add_details_sets dt x lb p err adh y : add_details dt x lb p err adh = Ok y ->
  (wants_pred dt -> value_of y (lb ++ "_pred") p) /\ (wants_err dt -> value_of y (lb ++ "_err") err) /\ (wants_adh dt -> exists q, adh = Ok q /\ value_of y (adh_name dt lb) q).
Proof.
  assert (S1 : is_suffix "_pred") by (left; reflexivity). assert (S2 : is_suffix "_err") by (right; left; reflexivity). assert (S3 : is_suffix "_adh") by (right; right; left; reflexivity). assert (S4 : is_suffix "_adh)") by (right; right; right; reflexivity).
  destruct dt as [| |b1 b2 b3|]; cbn [add_details wants_pred wants_err wants_adh adh_name]; intros H.
  - split; [intros []|split; intros []].
  - destruct (set_if true x (lb ++ "_pred") (Ok p)) as [x1|] eqn:X1; cbn [bind] in H; [|discriminate]. destruct (set_if true x1 (lb ++ "_err") (Ok err)) as [x2|] eqn:X2; cbn [bind] in H; [|discriminate].
    apply set_if_sets in X1. destruct X1 as (q & Q & V1). injection Q as <-. assert (V1' := set_if_keeps _ _ _ _ _ _ _ X2 (sfx lb _ _ S1 S2 ltac:(discriminate)) V1). apply set_if_sets in X2. destruct X2 as (q & Q & V2). injection Q as <-.
    split; [intros _; exact (set_if_keeps _ _ _ _ _ _ _ H (sfx lb _ _ S1 S3 ltac:(discriminate)) V1')|]. split; [intros _; exact (set_if_keeps _ _ _ _ _ _ _ H (sfx lb _ _ S2 S3 ltac:(discriminate)) V2)|]. intros _. exact (set_if_sets _ _ _ _ H).
  - destruct (set_if b1 x (lb ++ "_pred") (Ok p)) as [x1|] eqn:X1; cbn [bind] in H; [|discriminate]. destruct (set_if b2 x1 (lb ++ "_err") (Ok err)) as [x2|] eqn:X2; cbn [bind] in H; [|discriminate]. split; [|split].
    + intros ->. apply set_if_sets in X1. destruct X1 as (q & Q & V1). injection Q as <-. apply (set_if_keeps _ _ _ _ _ _ _ H (sfx lb _ _ S1 S4 ltac:(discriminate))). exact (set_if_keeps _ _ _ _ _ _ _ X2 (sfx lb _ _ S1 S2 ltac:(discriminate)) V1).
    + intros ->. apply set_if_sets in X2. destruct X2 as (q & Q & V1). injection Q as <-. apply (set_if_keeps _ _ _ _ _ _ _ H (sfx lb _ _ S2 S4 ltac:(discriminate))). exact V1.
    + intros ->. exact (set_if_sets _ _ _ _ H).
  - discriminate.
Qed.
Definition detailed_label (D : detector_model) (A : apply_args) (s : series) (i : nat) (y : item) (lb : string) : Prop :=
  (wants_pred (aa_details A) -> exists p, predicts (an_inner D) s i lb p /\ value_of y (lb ++ "_pred") p) /\
  (wants_err (aa_details A) -> exists x, deviates D s i lb x /\ value_of y (lb ++ "_err") x) /\
  (wants_adh (aa_details A) -> exists a, adheres D s i lb a /\ value_of y (adh_name (aa_details A) lb) a).
Lemma label_step_details lg D A s i st lb g st' : range_ok lg D A lb g -> label_step lg D A None s i st (lb, g) = Ok st' -> detailed_label D A s i (fst st') lb.
Proof.
  intros R H. unfold label_step in H. destruct (actual_of s i lb) as [a|] eqn:Ea; cbn [bind] in H; [|discriminate]. cbn [prediction_of] in H. destruct (predicted_of (an_inner D) s i lb) as [p|] eqn:Ep; cbn [bind] in H; [|discriminate].
  destruct (error_of (an_metric D) a p) as [err|] eqn:Ee; cbn [bind] in H; [|discriminate]. destruct (index_at lg (aa_type A) g (fold_error (r_dist g) err)) as [v|] eqn:Ev; cbn [bind] in H; [|discriminate].
  destruct (add_details _ _ _ _ _ _) as [it|] eqn:Ei; cbn [bind] in H; [|discriminate]. injection H as <-. cbn [fst]. destruct (actual_ok _ _ _ _ Ea) as (x & X & Dx).
  assert (Dv : deviates D s i lb (fold_error (r_dist g) err)). { exists (r_dist g), err. split; [apply R|]. split; [|apply fold_error_cases]. exists x, a, p. split; [exact X|]. split; [apply data_at_value; exact Dx|]. split; [apply predicted_iff; exact Ep|apply error_iff; exact Ee]. }
  destruct (add_details_sets _ _ _ _ _ _ _ Ei) as (W1 & W2 & W3). split; [|split].
  - intros W. exists p. split; [apply predicted_iff; exact Ep|exact (W1 W)].
  - intros W. eexists. split; [exact Dv|exact (W2 W)].
  - intros W. destruct (W3 W) as (q & Q & V). exists q. split; [|exact V]. exists (r_dist g), (fold_error (r_dist g) err). split; [apply R|]. split; [exact Dv|]. destruct R as (_ & _ & _ & _ & _ & R6 & _). unfold np_div in Q. rewrite R6 in Q.
    destruct (qeqb_spec (pdf (r_dist g) (loc (r_dist g))) q0) as [E|E]; [discriminate|]. injection Q as <-. split; [exact E|]. rewrite q0_eq in E. field. exact E.
Qed.
Lemma detailed_keeps ls x y k q : detailed ls x y -> ~ detail_name ls k -> value_of x k q -> value_of y k q.
Proof. intros (_ & _ & d & d' & E & E' & K) N (d0 & E0 & V). rewrite E in E0. injection E0 as <-. exists d'. split; [exact E'|]. rewrite (K k N). exact V. Qed.
Lemma labels_fold_details lg D A s i : forall gs, NoDup (map fst gs) -> (forall lb g, In (lb, g) gs -> range_ok lg D A lb g) -> forall st st', (exists d, i_data (fst st) = Some (DDict d)) ->
  foldM (label_step lg D A None s i) gs st = Ok st' -> forall lb, In lb (map fst gs) -> detailed_label D A s i (fst st') lb.
Proof.
  induction gs as [|[lb g] gs IH]; intros Nd R st st' Ed H lb' Il; [destruct Il|]. cbn [foldM] in H. destruct (label_step lg D A None s i st (lb, g)) as [st1|] eqn:E1; cbn [bind] in H; [|discriminate]. cbn [map fst] in Nd, Il. inversion Nd as [|? ? N1 N2]; subst.
  assert (R1 := R lb g (or_introl eq_refl)). destruct (label_step_ok lg D A None s i [lb] st lb g st1 (no_store D s i [lb]) (or_introl eq_refl) R1 Ed E1) as (v & _ & _ & D1 & _). assert (Ed1 := detailed_dict _ _ _ D1).
  destruct Il as [<-|Il]; [|apply (IH N2 (fun a b C => R a b (or_intror C)) st1 st' Ed1 H lb' Il)].
  assert (Q := label_step_details _ _ _ _ _ _ _ _ _ R1 E1). destruct (labels_fold_ok lg D A None s i (map fst gs) (no_store D s i _) gs (fun a b C => conj (in_map fst _ _ C) (R a b (or_intror C))) st1 st' Ed1 H) as (vs & _ & _ & D2 & _).
  assert (Kp : forall t q, is_suffix t -> value_of (fst st1) (lb ++ t) q -> value_of (fst st') (lb ++ t) q) by (intros t q T V; apply (detailed_keeps _ _ _ _ _ D2); [apply no_detail; assumption|exact V]).
  destruct Q as (Q1 & Q2 & Q3). split; [|split].
  - intros W. destruct (Q1 W) as (p & P & V). exists p. split; [exact P|]. apply Kp; [left; reflexivity|exact V].
  - intros W. destruct (Q2 W) as (p & P & V). exists p. split; [exact P|]. apply Kp; [right; left; reflexivity|exact V].
  - intros W. destruct (Q3 W) as (p & P & V). exists p. split; [exact P|]. unfold adh_name in *. destruct (aa_details A); (apply Kp; [unfold is_suffix; tauto|exact V]).
Qed.
Lemma item_index_details lg D A s ls gs i y : map fst gs = ls -> NoDup ls -> (forall lb g, In (lb, g) gs -> range_ok lg D A lb g) ->
  (forall x, In x (s_items s) -> exists d, i_data x = Some (DDict d)) -> item_index lg D A None s gs i = Ok y -> forall lb, In lb ls -> detailed_label D A s i y lb.
Proof.
  intros K Nd R Dt H lb Il. unfold item_index in H. destruct (ts_get_i s (Z.of_nat i)) as [x|] eqn:X; cbn [bind] in H; [|discriminate]. apply get_nat in X.
  destruct (foldM _ _ _) as [st|] eqn:F; cbn [bind] in H; [|discriminate]. destruct (overall _ _) as [v|] eqn:O; cbn [bind] in H; [|discriminate]. injection H as <-.
  assert (Q := labels_fold_details lg D A s i gs ltac:(rewrite K; exact Nd) R (x, []) st (Dt x (nth_error_In _ _ X)) F lb ltac:(rewrite K; exact Il)).
  assert (E : forall k q, value_of (fst st) k q -> value_of (set_anomaly (fst st) v) k q) by (intros k q (d & E & V); exists d; split; [destruct (fst st); exact E|exact V]).
  destruct Q as (Q1 & Q2 & Q3). split; [|split].
  - intros W. destruct (Q1 W) as (p & P & V). eauto.
  - intros W. destruct (Q2 W) as (p & P & V). eauto.
  - intros W. destruct (Q3 W) as (p & P & V). eauto.
Qed.

(* every output item is the outcome of its step *)
Lemma loop_items e lg D A pre s gs is : forall out out', apply_loop e lg D A pre s gs is out = Ok out' -> exists ys, s_items out' = s_items out ++ ys /\ Forall2 (fun i y => step lg D A pre s gs i = Ok (Some y)) (firstn (length ys) is) ys.
Proof.
  induction is as [|i is IH]; intros out out' H; [injection H as <-; exists []; rewrite app_nil_r; split; [reflexivity|constructor]|]. rewrite loop_step in H. destruct (step lg D A pre s gs i) as [[x|]|] eqn:S1; cbn [bind] in H; [| |discriminate].
  - destruct (append_to e out x) as [out1|] eqn:Ap; cbn [bind] in H; [|discriminate]. apply append_to_items in Ap. destruct (IH _ _ H) as (ys & E & F). exists (x :: ys). split; [rewrite E, Ap, <- app_assoc; reflexivity|]. cbn [length firstn]. constructor; assumption.
  - injection H as <-. exists []. rewrite app_nil_r. split; [reflexivity|constructor].
Qed.
Lemma apply_details e lg D A s s' ls : labels_of s = Ok ls -> NoDup ls -> (forall x, In x (s_items s) -> exists d, i_data x = Some (DDict d)) -> an_apply e lg D A None s = Ok s' ->
  forall k y, nth_error (s_items s') k = Some y -> ~ skipped D (aa_loss A) s (S (an_window D) + k) -> forall lb, In lb ls -> detailed_label D A s (S (an_window D) + k) y lb.
Proof.
  intros L Nd Dt H k y Y Ns lb Il. destruct (an_apply_unfold _ _ _ _ _ _ _ H) as (ls' & gs & _ & _ & L' & Gs & Lo). rewrite L in L'. injection L' as <-. destruct (ranges_ok _ _ _ _ _ Gs) as [K R].
  destruct (loop_items _ _ _ _ _ _ _ _ _ _ Lo) as (ys & E & F). cbn [s_items empty_series app] in E. rewrite E in Y. rewrite positions_seq in F. assert (Q := F2_get_r _ _ _ F k y Y). destruct Q as (i & I1 & S1).
  rewrite nth_error_firstn in I1. destruct (Nat.ltb_spec k (length ys)); [|discriminate]. assert (Ii := I1). apply nth_error_In in Ii. apply in_seq in Ii. assert (Ei : i = S (an_window D) + k).
  { assert (Lk : k < length (seq (S (an_window D)) (length (s_items s) - S (an_window D) - (if is_reconstructor (an_inner D) then an_window D else 0)))) by (apply nth_error_Some; congruence). rewrite seq_length in Lk. rewrite (seq_nth_error _ _ _ Lk) in I1. congruence. }
  subst i. unfold step in S1. destruct (fate_of D (aa_loss A) s (S (an_window D) + k)) as [f|] eqn:Ff; cbn [bind] in S1; [|discriminate]. apply fate_ok in Ff; [|lia]. destruct f; [|contradiction|discriminate].
  destruct (item_index lg D A None s gs (S (an_window D) + k)) as [z|] eqn:Z; cbn [bind] in S1; [|discriminate]. injection S1 as <-. apply (item_index_details lg D A s ls gs _ _ K Nd R Dt Z lb Il).
Qed.
