(* LstmProofs.v -- proofs about the matrix representation. *)
From Verif Require Import SpecLstm BaseLemmas PropTactics DictLemmas AccessProofs2 OpsProofs OpsProofs3 InterpProofs ReconProofs3 ReconProofs4 SeriesProofs2.

Lemma F2_get {A B} (R : A -> B -> Prop) l l' : Forall2 R l l' -> forall k x, nth_error l k = Some x -> exists y, nth_error l' k = Some y /\ R x y.
Proof. induction 1 as [|x y l l' H F IH]; intros [|k] z E; try discriminate; [injection E as <-; exists y; split; [reflexivity|exact H]|apply IH; exact E]. Qed.
Lemma F2_get_r {A B} (R : A -> B -> Prop) l l' : Forall2 R l l' -> forall k y, nth_error l' k = Some y -> exists x, nth_error l k = Some x /\ R x y.
Proof. induction 1 as [|x y l l' H F IH]; intros [|k] z E; try discriminate; [injection E as <-; exists x; split; [reflexivity|exact H]|apply IH; exact E]. Qed.
Lemma F2_len {A B} (R : A -> B -> Prop) l l' : Forall2 R l l' -> length l = length l'.
Proof. induction 1; cbn [length]; congruence. Qed.
Lemma F2_impl {A B} (R S : A -> B -> Prop) l l' : (forall x y, R x y -> S x y) -> Forall2 R l l' -> Forall2 S l l'.
Proof. intros H. induction 1; constructor; auto. Qed.
Lemma data_at_value x lb v : data_at x lb = Ok v -> has_value x lb v.
Proof.
  unfold data_at, item_data, has_value. destruct (i_data x) as [[l|d]|]; cbn; try discriminate.
  destruct (dget lb d) eqn:E; [|discriminate]. intros H. injection H as ->. apply dget_Some_In in E. exact E.
Qed.
Lemma left_out_included limit x b : left_out limit x = Ok b -> (b = false <-> included limit x).
Proof.
  unfold left_out, included. destruct limit as [l|]; [|intros H; injection H as <-; split; [discriminate|reflexivity]].
  destruct (i_data x); [|discriminate]. destruct (dget "data_loss" (i_idx x)) as [[v|]|]; intros H; [|discriminate|injection H as <-; split; [discriminate|reflexivity]].
  injection H as <-. destruct (qleb_spec l v) as [L|L]; split; intros H; try discriminate; try reflexivity.
  - exfalso. specialize (H l eq_refl v eq_refl). apply (Qclt_not_le _ _ H). exact L.
  - intros l' E v' E'. injection E as <-. injection E' as <-. destruct (Qclt_le_dec v l); [assumption|contradiction].
Qed.
Lemma get_nat s i x : ts_get_i s (Z.of_nat i) = Ok x -> nth_error (s_items s) i = Some x.
Proof.
  intros H. destruct (nth_error (s_items s) i) as [y|] eqn:E; [rewrite (ts_get_i_nat s i y E) in H; injection H as ->; reflexivity|].
  apply nth_error_None in E. unfold ts_get_i in H. destruct (s_items s) as [|z l] eqn:L; [discriminate|]. rewrite <- L in *. clear L.
  destruct (Z.ltb_spec (Z.of_nat i) 0); [lia|]. unfold list_get in H.
  destruct (Z.ltb_spec (Z.of_nat i) 0); [lia|]. repeat match type of H with context [if ?b then _ else _] => destruct b eqn:? end; try discriminate;
  rewrite ?Nat2Z.id in H; try (rewrite (proj2 (nth_error_None _ _) E) in H; discriminate); lia.
Qed.

Lemma gather_spec s limit start : forall js r, gather s limit start js = Ok r ->
  match r with
  | Some w => Forall2 (fun j x => ts_get_i s (start + Z.of_nat j)%Z = Ok x /\ included limit x) js w
  | None => exists j x, In j js /\ ts_get_i s (start + Z.of_nat j)%Z = Ok x /\ ~ included limit x
  end.
Proof.
  induction js as [|j js IH]; intros r; cbn [gather].
  - intros H. injection H as <-. constructor.
  - destruct (ts_get_i s (start + Z.of_nat j)%Z) as [x|] eqn:G; cbn [bind]; [|discriminate]. destruct (left_out limit x) as [b|] eqn:L; cbn [bind]; [|discriminate].
    pose proof (left_out_included limit x b L) as I. destruct b.
    + intros H. injection H as <-. exists j, x. split; [left; reflexivity|]. split; [exact G|]. intros Q. apply I in Q. discriminate.
    + destruct (gather s limit start js) as [o|] eqn:E; cbn [bind]; [|discriminate]. specialize (IH o eq_refl). intros H. injection H as <-. destruct o as [w|].
      * constructor; [|exact IH]. split; [exact G|]. apply I. reflexivity.
      * destruct IH as (j' & x' & A & B & C). exists j', x'. split; [right; exact A|]. split; [exact B|exact C].
Qed.
Lemma gather_ok s limit start : forall js, (forall j, In j js -> exists x, ts_get_i s (start + Z.of_nat j)%Z = Ok x /\ i_data x <> None /\ loss_known x) ->
  exists r, gather s limit start js = Ok r.
Proof.
  induction js as [|j js IH]; intros H; cbn [gather]; [eauto|]. destruct (H j (or_introl eq_refl)) as (x & G & D & K). rewrite G. cbn [bind].
  destruct (left_out_ok limit x D K) as (b & L & _). rewrite L. cbn [bind]. destruct b; [eauto|]. destruct IH as (r & E); [intros j' Hj; apply H; right; exact Hj|]. rewrite E. cbn [bind]. eauto.
Qed.

Lemma mapM_keys {A} (g : string -> result A) ls vs : mapM (fun lb => do v <- g lb; Ok (lb, v)) ls = Ok vs -> map fst vs = ls /\ forall lb v, In (lb, v) vs -> g lb = Ok v.
Proof.
  revert vs. induction ls as [|lb ls IH]; intros vs; cbn [mapM].
  - intros H. injection H as <-. split; [reflexivity|]. intros lb v [].
  - destruct (g lb) as [v|] eqn:G; cbn [bind]; [|discriminate]. destruct (mapM _ ls) as [ys|] eqn:E; cbn [bind]; [|discriminate].
    intros H. injection H as <-. destruct (IH ys eq_refl) as (M & N). split; [cbn; rewrite M; reflexivity|]. intros lb' v' [I|I]; [injection I as <- <-; exact G|apply N; exact I].
Qed.

(* The rows of the matrix. *)
Definition row_spec (l : list item) (w : nat) (ctx : option (list string)) (targets : list string) (i : nat) (r : list item * list Qc * option (dict Qc)) : Prop :=
  window_before w l i (fst (fst r)) /\ own_values targets l i (snd (fst r)) /\
  match ctx with None => snd r = None | Some ls => exists d, snd r = Some d /\ own_context ls l i d end.

Lemma window_included s limit w i win : w <= i -> Forall2 (fun j x => ts_get_i s (Z.of_nat i - Z.of_nat w + Z.of_nat j)%Z = Ok x /\ included limit x) (seq 0 w) win ->
  window_before w (s_items s) i win /\ forall j x, i - w <= j < i -> nth_error (s_items s) j = Some x -> included limit x.
Proof.
  intros Hi F. assert (P : forall k, k < w -> exists x, nth_error win k = Some x /\ nth_error (s_items s) (i - w + k) = Some x /\ included limit x).
  { intros k Hk. destruct (F2_get _ _ _ F k k) as (x & E & G & I); [rewrite (nth_error_nth' _ 0) by (rewrite seq_length; exact Hk); rewrite seq_nth by exact Hk; reflexivity|].
    exists x. split; [exact E|]. split; [|exact I]. apply get_nat. rewrite <- G. f_equal. lia. }
  split; [split; [pose proof (F2_len _ _ _ F) as Q; rewrite seq_length in Q; lia|]|].
  - intros k Hk. destruct (P k Hk) as (x & A & B & _). rewrite A, B. reflexivity.
  - intros j x Hj E. destruct (P (j - (i - w)) ltac:(lia)) as (y & _ & B & I). replace (i - w + (j - (i - w))) with j in B by lia. rewrite E in B. injection B as <-. exact I.
Qed.

Lemma matrix_row_spec s w ctx targets limit i r : w <= i < length (s_items s) -> (forall ls, ctx = Some ls -> NoDup ls) -> matrix_row s w ctx targets limit i = Ok r ->
  match r with
  | Some row => trainable limit w (s_items s) i /\ row_spec (s_items s) w ctx targets i row
  | None => ~ trainable limit w (s_items s) i
  end.
Proof.
  intros Hi ND. unfold matrix_row. destruct (gather s limit _ (seq 0 w)) as [o|] eqn:G; cbn [bind]; [|discriminate]. apply gather_spec in G. destruct o as [win|].
  - destruct (window_included s limit w i win (proj1 Hi) G) as [W I]. destruct (ts_get_i s (Z.of_nat i)) as [x|] eqn:X; cbn [bind]; [|discriminate]. apply get_nat in X.
    destruct (left_out limit x) as [b|] eqn:L; cbn [bind]; [|discriminate]. apply left_out_included in L. destruct b.
    + intros H. injection H as <-. intros [_ T]. specialize (T i x ltac:(lia) X). apply L in T. discriminate.
    + destruct (mapM (data_at x) targets) as [ts|] eqn:T; cbn [bind]; [|discriminate].
      assert (TR : trainable limit w (s_items s) i).
      { split; [exact Hi|]. intros j y Hj E. destruct (Nat.eq_dec j i) as [->|N]; [rewrite X in E; injection E as <-; apply L; reflexivity|]. apply (I j y); [lia|exact E]. }
      assert (OV : own_values targets (s_items s) i ts).
      { exists x. split; [exact X|]. apply mapM_map in T. revert T. apply F2_impl. intros lb v H. apply data_at_value. exact H. }
      destruct ctx as [ls|].
      * destruct (mapM _ ls) as [vs|] eqn:C; cbn [bind]; [|discriminate]. intros H. injection H as <-. apply mapM_keys in C. destruct C as [M N].
        split; [exact TR|]. split; [exact W|]. split; [exact OV|]. exists (dict_of vs). split; [reflexivity|]. rewrite dict_of_NoDup by (rewrite M; apply ND; reflexivity).
        exists x. split; [exact X|]. unfold dkeys. rewrite M. split; [apply ND; reflexivity|]. split; [reflexivity|]. intros lb v H. apply data_at_value. apply N. exact H.
      * cbn [bind]. intros H. injection H as <-. split; [exact TR|]. split; [exact W|]. split; [exact OV|reflexivity].
  - intros H. injection H as <-. destruct G as (j & x & J & E & N). intros [_ T]. apply N. apply in_seq in J. apply (T (i - w + j) x); [lia|]. apply get_nat. rewrite <- E. f_equal. lia.
Qed.

Lemma keep_positions {A} (P : nat -> Prop) (Q : nat -> A -> Prop) js os : Forall2 (fun i o => match o with Some r => P i /\ Q i r | None => ~ P i end) js os ->
  exists ps, Forall2 Q ps (keep_some os) /\ (forall i, In i ps <-> In i js /\ P i) /\ (StronglySorted lt js -> StronglySorted lt ps).
Proof.
  induction 1 as [|i o js os H F IH].
  - exists []. split; [constructor|]. split; [intros i; cbn; tauto|]. auto.
  - destruct IH as (ps & A1 & A2 & A3). destruct o as [r|]; cbn [keep_some].
    + exists (i :: ps). split; [constructor; [apply H|exact A1]|]. split.
      * intros k. cbn [In]. rewrite A2. split; [intros [<-|[B C]]; [split; [left; reflexivity|apply H]|split; [right; exact B|exact C]]|].
        intros [[<-|B] C]; [left; reflexivity|right; split; assumption].
      * intros S. inversion S as [|? ? S1 S2]; subst. constructor; [apply A3; exact S1|]. rewrite Forall_forall in *. intros k K. apply S2. apply A2. exact K.
    + exists ps. split; [exact A1|]. split.
      * intros k. rewrite A2. cbn [In]. split; [intros [B C]; split; [right; exact B|exact C]|]. intros [[<-|B] C]; [contradiction|split; assumption].
      * intros S. inversion S; subst. apply A3. assumption.
Qed.
Lemma seq_sorted n : forall a, StronglySorted lt (seq a n).
Proof. induction n as [|n IH]; intros a; cbn [seq]; constructor; [apply IH|]. apply Forall_forall. intros k K. apply in_seq in K. lia. Qed.

Lemma to_matrix_spec s w ctx targets limit W T C : (forall ls, ctx = Some ls -> NoDup ls) -> to_matrix s w 1 ctx targets limit = Ok (W, T, C) ->
  exists ps, StronglySorted lt ps /\ (forall i, In i ps <-> trainable limit w (s_items s) i) /\
    Forall2 (window_before w (s_items s)) ps W /\ Forall2 (own_values targets (s_items s)) ps T /\
    match ctx with None => C = [] | Some ls => Forall2 (own_context ls (s_items s)) ps C end.
Proof.
  intros ND. unfold to_matrix. cbn [Nat.ltb Nat.leb]. destruct (mapM _ _) as [rows|] eqn:M; cbn [bind]; [|discriminate]. intros H. injection H as <- <- <-.
  apply mapM_map in M. assert (F : Forall2 (fun i o => match o with Some r => trainable limit w (s_items s) i /\ row_spec (s_items s) w ctx targets i r | None => ~ trainable limit w (s_items s) i end) (seq w (length (s_items s) - w)) rows).
  { revert M. apply AccessProofs3.Forall2_impl. intros i o I H. apply in_seq in I. pose proof (matrix_row_spec s w ctx targets limit i o ltac:(lia) ND H) as R. destruct o; exact R. }
  destruct (keep_positions _ _ _ _ F) as (ps & A1 & A2 & A3). exists ps. split; [apply A3; apply seq_sorted|]. split.
  { intros i. rewrite A2, in_seq. split; [tauto|]. intros Q. split; [|exact Q]. destruct Q as [Q _]. lia. }
  clear - A1. split; [|split].
  - induction A1 as [|i r ps rs R F IH]; cbn [map]; constructor; [apply R|exact IH].
  - induction A1 as [|i r ps rs R F IH]; cbn [map]; constructor; [apply R|exact IH].
  - destruct ctx as [ls|].
    + induction A1 as [|i r ps rs R F IH]; cbn [map keep_some]; [constructor|]. destruct R as (_ & _ & d & E & O). rewrite E. constructor; [exact O|exact IH].
    + induction A1 as [|i r ps rs R F IH]; cbn [map keep_some]; [reflexivity|]. destruct R as (_ & _ & E). rewrite E. exact IH.
Qed.
Lemma to_matrix_ok s w ctx targets limit : (forall x, In x (s_items s) -> with_dict x /\ loss_known x /\ forall lb, In lb targets \/ (exists ls, ctx = Some ls /\ In lb ls) -> has_label x lb) ->
  exists r, to_matrix s w 1 ctx targets limit = Ok r.
Proof.
  intros H. pose proof I as I0. unfold to_matrix. cbn [Nat.ltb Nat.leb].
  assert (V : forall x lb, In x (s_items s) -> has_label x lb -> exists v, data_at x lb = Ok v).
  { intros x lb I (v & L). destruct (H x I) as ((d & Hd & N) & _ & _). exists v. unfold data_at, item_data, has_value in *. rewrite Hd in *. cbn. rewrite (dget_NoDup lb d v N L). reflexivity. }
  destruct (mapM_exists (matrix_row s w ctx targets limit) (fun _ _ => True) (seq w (length (s_items s) - w))) as (ys & E & _).
  2:{ rewrite E. cbn [bind]. eexists. reflexivity. }
  intros i I. apply in_seq in I. assert (L : forall j, j < length (s_items s) -> exists x, nth_error (s_items s) j = Some x /\ In x (s_items s)).
  { intros j Hj. destruct (nth_error (s_items s) j) as [x|] eqn:E; [exists x; split; [reflexivity|apply nth_error_In in E; exact E]|apply nth_error_None in E; lia]. }
  unfold matrix_row. destruct (gather_ok s limit (Z.of_nat i - Z.of_nat w)%Z (seq 0 w)) as (o & G).
  { intros j J. apply in_seq in J. destruct (L (i - w + j) ltac:(lia)) as (x & X & Ix). exists x. split.
    - replace (Z.of_nat i - Z.of_nat w + Z.of_nat j)%Z with (Z.of_nat (i - w + j)) by lia. apply ts_get_i_nat. exact X.
    - destruct (H x Ix) as ((d & Hd & _) & K & _). split; [congruence|exact K]. }
  rewrite G. cbn [bind]. destruct o as [win|]; [|eexists; split; [reflexivity|exact I0]]. destruct (L i ltac:(lia)) as (x & X & Ix). rewrite (ts_get_i_nat s i x X). cbn [bind].
  destruct (H x Ix) as ((d & Hd & N) & K & HL). destruct (left_out_ok limit x ltac:(congruence) K) as (b & B & _). rewrite B. cbn [bind]. destruct b; [eexists; split; [reflexivity|exact I0]|].
  destruct (mapM_exists (data_at x) (fun _ _ => True) targets) as (ts & T & _).
  { intros lb Il. destruct (V x lb Ix (HL lb (or_introl Il))) as (v & Ev). exists v. split; [exact Ev|exact I0]. }
  rewrite T. cbn [bind]. destruct ctx as [ls|]; [|eexists; split; [reflexivity|exact I0]]. destruct (mapM_exists (fun lb => do v <- data_at x lb; Ok (lb, v)) (fun _ _ => True) ls) as (vs & Vs & _).
  { intros lb Il. destruct (V x lb Ix (HL lb (or_intror (ex_intro _ ls (conj eq_refl Il))))) as (v & Ev). rewrite Ev. cbn [bind]. eexists; split; [reflexivity|exact I0]. }
  rewrite Vs. cbn [bind]. eexists; split; [reflexivity|exact I0].
Qed.

(* ---------------- features ---------------- *)

Lemma data_at_dict x lb : with_dict x -> (exists v, data_at x lb = Ok v /\ has_value x lb v) \/ (data_at x lb = Err KeyError /\ ~ has_label x lb).
Proof.
  intros (d & Hd & N). unfold data_at, item_data, has_label, has_value. rewrite Hd. cbn. destruct (dget lb d) as [v|] eqn:E.
  - left. exists v. split; [reflexivity|]. apply dget_Some_In in E. exact E.
  - right. split; [reflexivity|]. intros (v & I). rewrite (dget_NoDup lb d v N I) in E. discriminate.
Qed.
Lemma value_feature_ok win k x labels : nth_error win k = Some x -> with_dict x -> exists vs, mapM (fun lb => or_zero (data_at x lb)) labels = Ok vs /\ Forall2 (value_feature win k) labels vs.
Proof.
  intros E D. induction labels as [|lb labels IH]; cbn [mapM]; [exists []; split; [reflexivity|constructor]|]. destruct IH as (vs & M & F).
  destruct (data_at_dict x lb D) as [(v & A & B)|[A B]]; rewrite A; cbn [or_zero bind]; rewrite M; cbn [bind].
  - exists (v :: vs). split; [reflexivity|]. constructor; [|exact F]. exists x. split; [exact E|left; exact B].
  - exists (q0 :: vs). split; [reflexivity|]. constructor; [|exact F]. exists x. split; [exact E|right; split; [exact B|reflexivity]].
Qed.
