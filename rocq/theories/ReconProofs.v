(* ReconProofs.v -- proofs: what apply does (C52). *)
From Verif Require Import BaseLemmas DictLemmas PropTactics.
From Verif Require Import AccessProofs2 OpsProofs.
From Verif Require Import TransformProofs5.
From Verif Require Export SpecRecon.

Lemma replace_nth_length {A} (x : A) : forall l i, length (replace_nth i x l) = length l.
Proof. induction l as [|y l IH]; intros [|i]; cbn; auto. Qed.
Lemma replace_nth_same {A} (x : A) : forall l i, i < length l -> nth_error (replace_nth i x l) i = Some x.
Proof. induction l as [|y l IH]; intros [|i] H; cbn in *; [lia|lia|reflexivity|apply IH; lia]. Qed.
Lemma replace_nth_other {A} (x : A) : forall l i j, i <> j -> nth_error (replace_nth i x l) j = nth_error l j.
Proof. induction l as [|y l IH]; intros [|i] [|j] H; cbn; try reflexivity; try lia. apply IH. lia. Qed.
Lemma nth_lt {A} (l : list A) i x : nth_error l i = Some x -> i < length l.
Proof. intros H. apply nth_error_Some. rewrite H. discriminate. Qed.
Lemma lt_nth {A} (l : list A) i : i < length l -> exists x, nth_error l i = Some x.
Proof. intros H. apply nth_error_Some in H. destruct (nth_error l i) as [x|]; [eauto|contradiction]. Qed.
Lemma set_items_twice s a b : set_items (set_items s a) b = set_items s b.
Proof. reflexivity. Qed.

Lemma mapM_nth {A B} (f : A -> result B) : forall l ys, mapM f l = Ok ys ->
  length ys = length l /\ forall i x, nth_error l i = Some x -> exists y, nth_error ys i = Some y /\ f x = Ok y.
Proof.
  induction l as [|x l IH]; cbn; intros ys H; [injection H as <-; split; [reflexivity|intros [|i] x Hx; discriminate]|].
  destruct (f x) as [y|] eqn:E; cbn in H; [|discriminate]. destruct (mapM f l) as [zs|] eqn:F; cbn in H; [|discriminate]. injection H as <-.
  destruct (IH zs eq_refl) as [L N]. split; [cbn; lia|]. intros [|i] z Hz; cbn in *; [injection Hz as <-; eauto|eauto].
Qed.
Lemma combine_nth_in {A B} : forall (l : list A) (m : list B) a b, In (a, b) (combine l m) -> exists i, nth_error l i = Some a /\ nth_error m i = Some b.
Proof.
  induction l as [|x l IH]; intros [|y m] a b H; cbn in H; try contradiction. destruct H as [E|H].
  - injection E as <- <-. exists 0. auto.
  - destruct (IH m a b H) as [i Hi]. exists (S i). exact Hi.
Qed.

Lemma gap_data_picked s pd k d : gap_data s pd k = Ok d -> picked pd k d.
Proof.
  unfold gap_data, picked. destruct pd as [p|l].
  - destruct (labels_of s) as [ls|]; cbn; [|discriminate]. destruct (mapM _ ls) as [vs|] eqn:E; cbn; [|discriminate]. intros H. injection H as <-.
    eexists. split; [reflexivity|]. destruct (dict_of_spec (combine ls vs)) as (N & _ & I). split; [exact N|]. intros lb v Hv. apply I, combine_nth_in in Hv.
    destruct Hv as (i & H1 & H2). destruct (mapM_nth _ _ _ E) as [_ M]. destruct (M i lb H1) as (y & Hy & F). rewrite H2 in Hy. injection Hy as <-.
    destruct (dget lb p) as [l|]; [|discriminate]. exists l. split; [reflexivity|]. destruct (nth_error l k); [injection F as <-; reflexivity|discriminate].
  - destruct (nth_error l k); [|discriminate]. intros H. injection H as <-. reflexivity.
Qed.

Definition rebuilt (x : item) (d : data) : item := flag q1 (set_data x (Some d)).

Lemma gap_data_labels s s' pd k : labels_of s = labels_of s' -> gap_data s pd k = gap_data s' pd k.
Proof. intros E. unfold gap_data. rewrite E. reflexivity. Qed.
Lemma labels_set_nth s a x : 0 < a -> labels_of (set_nth s a x) = labels_of s.
Proof. intros H. unfold labels_of, ts_data_labels, ref_missing, set_nth. cbn [s_items set_items s_ref]. destruct (s_items s) as [|y l]; [destruct a; reflexivity|]. destruct a as [|a]; [lia|]. reflexivity. Qed.

Section Gap.
Variables (pd : pdata) (g : nat).
Notation body := (fun s j => match gap_data s pd (j - g) with
                     | Err e => (s, Err e)
                     | Ok d => match nth_error (s_items s) j with
                               | None => (s, Err IndexError)
                               | Some x => (set_nth s j (flag q1 (set_data x (Some d))), Ok tt)
                               end
                     end).
Lemma gap_loop : forall n a s s' o, forM body (seq a n) s = (s', o) ->
  s' = set_items s (s_items s') /\ length (s_items s') = length (s_items s) /\
  (forall j, j < a \/ a + n <= j -> nth_error (s_items s') j = nth_error (s_items s) j) /\
  (forall j x, nth_error (s_items s) j = Some x -> a <= j < a + n ->
     nth_error (s_items s') j = Some x \/ exists d, picked pd (j - g) d /\ nth_error (s_items s') j = Some (rebuilt x d)) /\
  (o = Ok tt -> forall j x, nth_error (s_items s) j = Some x -> a <= j < a + n -> exists d, picked pd (j - g) d /\ (0 < a -> gap_data s pd (j - g) = Ok d) /\ nth_error (s_items s') j = Some (rebuilt x d)).
Proof.
  induction n as [|n IH]; intros a s s' o H.
  - cbn in H. injection H as <- <-. split; [destruct s; reflexivity|]. split; [reflexivity|]. split; [reflexivity|]. split; [intros; lia|intros; lia].
  - cbn [seq forM] in H. destruct (gap_data s pd (a - g)) as [d|e] eqn:Ed.
    2:{ injection H as <- <-. split; [destruct s; reflexivity|]. split; [reflexivity|]. split; [reflexivity|]. split; [auto|discriminate]. }
    destruct (nth_error (s_items s) a) as [x|] eqn:Ex.
    2:{ injection H as <- <-. split; [destruct s; reflexivity|]. split; [reflexivity|]. split; [reflexivity|]. split; [auto|discriminate]. }
    pose proof (gap_data_picked _ _ _ _ Ed) as Ep. pose proof (nth_lt _ _ _ Ex) as La. destruct (IH _ _ _ _ H) as (I1 & I2 & I3 & I4 & I5). unfold set_nth in *. cbn [s_items set_items] in *.
    split; [exact I1|]. split; [rewrite I2; apply replace_nth_length|]. split; [|split].
    + intros j Hj. rewrite I3 by lia. apply replace_nth_other. lia.
    + intros j y Hy Hj. destruct (Nat.eq_dec j a) as [->|Nj].
      * right. exists d. split; [exact Ep|]. rewrite I3 by lia. rewrite replace_nth_same by exact La. replace y with x by congruence. reflexivity.
      * apply I4; [rewrite replace_nth_other by lia; exact Hy|lia].
    + intros Ho j y Hy Hj. destruct (Nat.eq_dec j a) as [->|Nj].
      * exists d. split; [exact Ep|]. split; [intros _; exact Ed|]. rewrite I3 by lia. rewrite replace_nth_same by exact La. replace y with x by congruence. reflexivity.
      * destruct (I5 Ho j y) as (d' & P' & L' & N'); [rewrite replace_nth_other by lia; exact Hy|lia|]. exists d'. split; [exact P'|]. split; [|exact N']. intros Ha.
        rewrite <- (L' ltac:(lia)). apply gap_data_labels. symmetry. apply labels_set_nth. exact Ha.
Qed.
End Gap.

Lemma reconstruct_spec predict s g t s' o : reconstruct predict s g t = (s', o) -> g <= t ->
  s' = set_items s (s_items s') /\ length (s_items s') = length (s_items s) /\
  (forall j, j < g \/ t < j -> nth_error (s_items s') j = nth_error (s_items s) j) /\
  (forall j x, nth_error (s_items s) j = Some x -> exists y, nth_error (s_items s') j = Some y /\ (y = x \/ exists d, y = rebuilt x d)) /\
  (o = Ok tt -> exists pd, predict s g t = Ok pd /\ forall j x, nth_error (s_items s) j = Some x -> g <= j <= t ->
     exists d, picked pd (j - g) d /\ (0 < g -> gap_data s pd (j - g) = Ok d) /\ nth_error (s_items s') j = Some (rebuilt x d)).
Proof.
  unfold reconstruct. intros H Hg. destruct (predict s g t) as [pd|e] eqn:E.
  - destruct (gap_loop pd g _ _ _ _ _ H) as (I1 & I2 & I3 & I4 & I5). split; [exact I1|]. split; [exact I2|]. split; [intros j Hj; apply I3; lia|]. split.
    + intros j x Hx. destruct (le_lt_dec g j) as [L|L].
      * destruct (le_lt_dec j t) as [K|K].
        -- destruct (I4 j x Hx ltac:(lia)) as [F|(d & _ & F)]; eauto.
        -- exists x. split; [rewrite I3 by lia; exact Hx|auto].
      * exists x. split; [rewrite I3 by lia; exact Hx|auto].
    + intros ->. exists pd. split; [reflexivity|]. intros j x Hx Hj. apply (I5 eq_refl j x Hx). lia.
  - injection H as <- <-. split; [destruct s; reflexivity|]. split; [reflexivity|]. split; [reflexivity|]. split; [eauto|discriminate].
Qed.

Lemma to_reconstruct_spec thr x b : to_reconstruct thr x = Ok b -> (b = true <-> lossy thr x) /\ i_data x <> None.
Proof.
  unfold to_reconstruct, lossy. destruct (i_data x); [|discriminate]. intros H. injection H as <-. split; [|discriminate]. destruct (data_loss x) as [l|].
  - destruct (qleb_spec thr l) as [L|L]; split; eauto; try discriminate. intros (l' & E & L'). injection E as <-. contradiction.
  - split; [discriminate|intros (l & E & _); discriminate].
Qed.
Lemma flag_flagged v x : flagged v x (flag v x).
Proof. unfold flagged, flag, set_idx. cbn. split; [rewrite dget_dset; reflexivity|]. intros k Hk. rewrite dget_dset. apply String.eqb_neq in Hk. rewrite Hk. reflexivity. Qed.

Section Apply.
Variables (predict : series -> nat -> nat -> result pdata) (thr : Qc) (s0 : series).
Notation l0 := (s_items s0).

(* what holds of a series in the making, whatever the outcome *)
Definition keeps (s : series) : Prop :=
  s = set_items s0 (s_items s) /\ length (s_items s) = length l0 /\
  forall j x, nth_error l0 j = Some x -> exists y, nth_error (s_items s) j = Some y /\ same_shell x y /\ (~ lossy thr x -> i_data y = i_data x).
(* what holds of the items already treated *)
Definition done (j : nat) (x y : item) : Prop :=
  same_shell x y /\
  (~ lossy thr x -> i_data y = i_data x /\ flagged q0 x y) /\
  (lossy thr x -> flagged q1 x y /\ exists from to sk pd d,
     maximal_run (lossy thr) l0 from to /\ from <= j <= to /\ so_far thr s0 sk from /\ predict sk from to = Ok pd /\ picked pd (j - from) d /\ (0 < from -> gap_data sk pd (j - from) = Ok d) /\ i_data y = Some d).
Definition begin_of (i : nat) (gap : option nat) : nat := match gap with None => i | Some g => g end.
Definition inv (i : nat) (gap : option nat) (s : series) : Prop :=
  s = set_items s0 (s_items s) /\ length (s_items s) = length l0 /\ i <= length l0 /\
  (forall j, begin_of i gap <= j -> nth_error (s_items s) j = nth_error l0 j) /\
  (forall j x, j < begin_of i gap -> nth_error l0 j = Some x -> exists y, nth_error (s_items s) j = Some y /\ done j x y) /\
  (forall j x, S j = begin_of i gap -> nth_error l0 j = Some x -> ~ lossy thr x) /\
  match gap with None => True | Some g => g < i /\ forall j x, g <= j < i -> nth_error l0 j = Some x -> lossy thr x end.

Lemma shell_refl x : same_shell x x.
Proof. repeat split. Qed.
Lemma inv_keeps i gap s : inv i gap s -> keeps s.
Proof.
  intros (I1 & I2 & I3 & I4 & I5 & _). split; [exact I1|]. split; [exact I2|]. intros j x Hx. destruct (le_lt_dec (begin_of i gap) j) as [L|L].
  - exists x. split; [rewrite I4 by exact L; exact Hx|]. split; [apply shell_refl|reflexivity].
  - destruct (I5 j x L Hx) as (y & Hy & D1 & D2 & _). exists y. split; [exact Hy|]. split; [exact D1|]. intros N. apply D2, N.
Qed.
Lemma inv_so_far i gap s : inv i gap s -> so_far thr s0 s (begin_of i gap).
Proof.
  intros I. pose proof (inv_keeps _ _ _ I) as (_ & _ & K). destruct I as (I1 & I2 & I3 & I4 & _). split; [exact I1|]. split; [exact I2|]. split; [exact I4|].
  intros j x y Hx Hy. destruct (K j x Hx) as (z & Hz & S & D). rewrite Hy in Hz. injection Hz as <-. split; [apply S|exact D].
Qed.

(* closing a gap *)
Lemma inv_close i g s s' o : inv i (Some g) s -> (forall x, nth_error l0 i = Some x -> ~ lossy thr x) -> reconstruct predict s g (i - 1) = (s', o) ->
  keeps s' /\ (o = Ok tt ->
    s' = set_items s0 (s_items s') /\ length (s_items s') = length l0 /\
    (forall j, i <= j -> nth_error (s_items s') j = nth_error l0 j) /\
    (forall j x, j < i -> nth_error l0 j = Some x -> exists y, nth_error (s_items s') j = Some y /\ done j x y)).
Proof.
  intros I Hn R. pose proof I as (I1 & I2 & I3 & I4 & I5 & I6 & I7 & I8). cbn [begin_of] in *. destruct (reconstruct_spec _ _ _ _ _ _ R) as (R1 & R2 & R3 & R4 & R5); [lia|].
  pose proof (inv_keeps _ _ _ I) as (_ & _ & K).
  assert (E1 : s' = set_items s0 (s_items s')) by (rewrite R1 at 1; rewrite I1 at 1; reflexivity).
  split.
  - split; [exact E1|]. split; [congruence|]. intros j x Hx. destruct (K j x Hx) as (y & Hy & S & D). destruct (le_lt_dec g j) as [L|L].
    + destruct (le_lt_dec i j) as [L'|L'].
      * exists y. split; [rewrite R3 by lia; exact Hy|]. auto.
      * destruct (R4 j y Hy) as (z & Hz & [-> | (d & ->)]); [exists y; auto|]. exists (rebuilt y d). split; [exact Hz|]. split; [destruct S as [(S1 & S2 & S3 & S4 & S5) S6]; repeat split; cbn; assumption|].
        intros N. exfalso. apply N. apply (I8 j x); [lia|exact Hx].
    + exists y. split; [rewrite R3 by lia; exact Hy|]. auto.
  - intros Ho. destruct (R5 Ho) as (pd & P & Q). split; [exact E1|]. split; [congruence|]. split.
    + intros j Hj. rewrite R3 by lia. apply I4. lia.
    + intros j x Hj Hx. destruct (le_lt_dec g j) as [L|L].
      * assert (Hs : nth_error (s_items s) j = Some x) by (rewrite I4 by lia; exact Hx). destruct (Q j x Hs ltac:(lia)) as (d & Pd & Gd & Hd). exists (rebuilt x d). split; [exact Hd|].
        split; [repeat split|]. assert (Lx : lossy thr x) by (apply (I8 j x); [lia|exact Hx]). split; [intros N; contradiction|]. intros _. split.
        -- unfold rebuilt. destruct (flag_flagged q1 (set_data x (Some d))) as [F1 F2]. split; [exact F1|exact F2].
        -- exists g, (i - 1), s, pd, d. split; [|split; [lia|split; [apply (inv_so_far _ _ _ I)|split; [exact P|split; [exact Pd|split; [exact Gd|reflexivity]]]]]].
           split; [lia|]. split; [lia|]. split; [intros k z Hk Hz; apply (I8 k z); [lia|exact Hz]|]. split; [intros k z Hk Hz; apply (I6 k z Hk Hz)|].
           intros z Hz. replace (S (i - 1)) with i in Hz by lia. apply Hn, Hz.
      * destruct (I5 j x L Hx) as (y & Hy & D). exists y. split; [rewrite R3 by lia; exact Hy|exact D].
Qed.

(* treating an item which is not lossy *)
Lemma inv_step i s x : s = set_items s0 (s_items s) -> length (s_items s) = length l0 ->
  (forall j, i <= j -> nth_error (s_items s) j = nth_error l0 j) ->
  (forall j x, j < i -> nth_error l0 j = Some x -> exists y, nth_error (s_items s) j = Some y /\ done j x y) ->
  nth_error l0 i = Some x -> ~ lossy thr x -> inv (S i) None (set_nth s i (flag q0 x)).
Proof.
  intros I1 I2 I3 I4 Hx N. pose proof (nth_lt _ _ _ Hx) as L. unfold inv, set_nth. cbn [s_items set_items begin_of].
  split; [rewrite I1 at 1; reflexivity|]. split; [rewrite replace_nth_length; exact I2|]. split; [lia|]. split; [|split; [|split; [|exact Logic.I]]].
  - intros j Hj. rewrite replace_nth_other by lia. apply I3. lia.
  - intros j y Hj Hy. destruct (Nat.eq_dec j i) as [->|Nj].
    + assert (y = x) by congruence. subst y. exists (flag q0 x). split; [apply replace_nth_same; congruence|]. split; [repeat split|]. split; [intros _; split; [reflexivity|apply flag_flagged]|contradiction].
    + rewrite replace_nth_other by lia. apply I4; [lia|exact Hy].
  - intros j y Hj Hy. injection Hj as ->. replace y with x by congruence. exact N.
Qed.

Lemma loop_spec : forall m i gap s s' o, i + m = length l0 -> inv i gap s -> rec_loop predict thr (seq i m) gap s = (s', o) ->
  keeps s' /\ forall g', o = Ok g' -> inv (length l0) g' s'.
Proof.
  induction m as [|m IH]; intros i gap s s' o Hm I H.
  - cbn in H. injection H as <- <-. split; [apply (inv_keeps _ _ _ I)|]. intros g' E. injection E as <-. replace (length l0) with i by lia. exact I.
  - cbn [seq rec_loop] in H. pose proof I as (I1 & I2 & I3 & I4 & I5 & I6 & I7). destruct (lt_nth l0 i) as [x Hx]; [lia|].
    assert (Hs : nth_error (s_items s) i = Some x).
    { rewrite I4; [exact Hx|]. destruct gap; cbn in *; lia. }
    rewrite Hs in H. destruct (to_reconstruct thr x) as [b|e] eqn:B.
    2:{ injection H as <- <-. split; [apply (inv_keeps _ _ _ I)|discriminate]. }
    apply to_reconstruct_spec in B. destruct B as [B _]. destruct b.
    + assert (L : lossy thr x) by (apply B; reflexivity). apply (IH (S i) _ _ _ _ ltac:(lia)) in H; [exact H|]. destruct gap as [g|]; unfold inv; cbn [begin_of] in *.
      * split; [exact I1|]. split; [exact I2|]. split; [lia|]. split; [exact I4|]. split; [exact I5|]. split; [exact I6|]. split; [lia|]. intros j y Hj Hy.
        destruct (Nat.eq_dec j i) as [->|Nj]; [congruence|]. apply (proj2 I7 j y); [lia|exact Hy].
      * split; [exact I1|]. split; [exact I2|]. split; [lia|]. split; [exact I4|]. split; [exact I5|]. split; [exact I6|]. split; [lia|]. intros j y Hj Hy. replace j with i in Hy by lia. congruence.
    + assert (L : ~ lossy thr x) by (intros X; apply B in X; discriminate). destruct gap as [g|].
      * destruct (reconstruct predict s g (i - 1)) as [s1 r] eqn:R. destruct (inv_close _ _ _ _ _ I (fun y Hy => eq_ind x (fun z => ~ lossy thr z) L y ltac:(congruence)) R) as [K C].
        destruct r as [[]|e]; [|injection H as <- <-; split; [exact K|discriminate]]. destruct (C eq_refl) as (C1 & C2 & C3 & C4). rewrite (C3 i) in H by lia. rewrite Hx in H.
        apply (IH (S i) _ _ _ _ ltac:(lia)) in H; [exact H|]. apply inv_step; assumption.
      * apply (IH (S i) _ _ _ _ ltac:(lia)) in H; [exact H|]. apply inv_step; assumption.
Qed.

Lemma apply_spec s' o : rec_apply_inplace predict thr s0 = (s', o) ->
  keeps s' /\ (o = Ok tt -> forall i x, nth_error l0 i = Some x -> exists y, nth_error (s_items s') i = Some y /\ done i x y).
Proof.
  unfold rec_apply_inplace. intros H. destruct (rec_loop predict thr (seq 0 (length l0)) None s0) as [s1 r] eqn:R.
  assert (I0 : inv 0 None s0).
  { unfold inv. cbn. split; [destruct s0; reflexivity|]. split; [reflexivity|]. split; [lia|]. split; [reflexivity|]. split; [intros; lia|]. split; [intros; lia|exact Logic.I]. }
  destruct (loop_spec (length l0) 0 None s0 s1 r eq_refl I0 R) as [K S]. destruct r as [[g|]|e].
  - specialize (S _ eq_refl). destruct (inv_close _ _ _ _ _ S (fun x Hx => False_ind _ (Nat.lt_irrefl _ (nth_lt _ _ _ Hx))) H) as [K' C]. split; [exact K'|].
    intros Ho i x Hx. destruct (C Ho) as (_ & _ & _ & C4). apply C4; [apply (nth_lt _ _ _ Hx)|exact Hx].
  - injection H as <- <-. split; [exact K|]. intros _ i x Hx. destruct (S _ eq_refl) as (_ & _ & _ & _ & I5 & _). apply I5; [apply (nth_lt _ _ _ Hx)|exact Hx].
  - injection H as <- <-. split; [exact K|discriminate].
Qed.
End Apply.
