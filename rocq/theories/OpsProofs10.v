(* OpsProofs10.v -- the results of the operations in the vocabulary of SpecOps. *)
From Verif Require Import BaseLemmas AccessProofs3 OpsProofs9 MergeProofs.

Lemma healthy_wf e s : healthy e s -> from_history e s /\ numeric (s_items s) /\ wf_items (s_items s).
Proof. exact (fun H => H). Qed.

Lemma trunc7_seven d : seven_decimals d -> trunc7 d = d.
Proof. intros (k & ->). apply trunc7_exact. Qed.
Lemma regular_wf e s d : regular e s d -> wf_items (s_items s).
Proof. intros (_ & _ & _ & [[W _]|[W _]]); [left|right]; exact W. Qed.
Lemma regular_healthy e s d : regular e s d -> healthy e s.
Proof. intros H. pose proof (regular_wf _ _ _ H). destruct H as (B & N & _). split; [apply built_history; assumption|auto]. Qed.
Lemma regular_res e s d : regular e s d -> 2 <= length (s_items s) -> s_res s = Some (RUnit (UPhys d)).
Proof.
  intros (B & N & Hd & [(W & Hs & H7 & Hu)|(W & Hu)]) Hl.
  - destruct B as (tz & B). destruct (resolution_points _ _ _ _ B (proj1 W)) as [_ A]. destruct (A Hl) as [A1 _].
    destruct (A1 d Hs) as (u & U1 & U2). rewrite (trunc7_seven d H7), Hu in U1. injection U1 as <-. exact U2.
  - destruct (s_items s) as [|x l] eqn:E; [cbn in Hl; lia|]. rewrite (built_slots_res e s x l B); [|rewrite E; exact W|exact E].
    destruct (Hu x (or_introl eq_refl)) as [-> _]. reflexivity.
Qed.
Lemma regular_not_var e s d : regular e s d -> s_res s <> Some RVar.
Proof.
  intros H. destruct (Nat.lt_ge_cases (length (s_items s)) 2) as [Hl|Hl]; [|rewrite (regular_res e s d H Hl); discriminate].
  destruct H as (B & N & Hd & [(W & Hs & H7 & Hu)|(W & Hu)]).
  - destruct B as (tz & B). destruct (resolution_points _ _ _ _ B (proj1 W)) as [A _]. unfold resolution in A. rewrite (A Hl). discriminate.
  - destruct (s_items s) as [|x l] eqn:E; [destruct N; congruence|]. rewrite (built_slots_res e s x l B); [|rewrite E; exact W|exact E]. discriminate.
Qed.
Lemma regular_spaced e s d : regular e s d -> equally_spaced d (times (s_items s)).
Proof.
  intros (B & N & Hd & [(W & Hs & H7 & Hu)|(W & Hu)]); [exact Hs|].
  intros i a b Ha Hb. unfold times in *. rewrite nth_error_map in Ha, Hb.
  destruct (nth_error (s_items s) i) as [x|] eqn:Ex; [|discriminate]. destruct (nth_error (s_items s) (S i)) as [y|] eqn:Ey; [|discriminate].
  cbn in Ha, Hb. injection Ha as <-. injection Hb as <-. destruct W as (_ & C & _). rewrite (C i x y Ex Ey).
  destruct (Hu x (nth_error_In _ _ Ex)) as [_ ->]. qlra.
Qed.

Lemma values_by_ext x y p f g : (forall lb w, has_label x lb -> (f lb w <-> g lb w)) -> values_by x y p f -> values_by x y p g.
Proof.
  intros H [A B]. split; [exact A|]. intros lb w. rewrite B. split; intros (k & K1 & K2 & K3); exists k; (split; [exact K1|]); (split; [exact K2|]); apply (H k w K1); exact K3.
Qed.

Lemma numeric_label_in l x lb : In x l -> has_label x lb -> label_in l lb.
Proof. intros H1 H2. exists x. auto. Qed.
Lemma sub_column l m lb w : numeric l -> (forall x, In x m -> In x l) -> label_in l lb ->
  (forall vs, column lb m vs -> w = total vs) <-> w = total (map (fun x => valof x lb) m).
Proof.
  intros Hn Hm Hl. assert (Hc : column lb m (map (fun x => valof x lb) m)).
  { apply column_map; intros x Hx; destruct (label_all l lb x Hn Hl (Hm x Hx)); assumption. }
  split; [intros H; apply H, Hc|]. intros -> vs Hv. f_equal. symmetry. apply column_fun; [|exact Hv].
  intros x Hx. apply (label_all l lb x Hn Hl (Hm x Hx)).
Qed.
Lemma In_firstn {A} (l : list A) n x : In x (firstn n l) -> In x l.
Proof. intros H. rewrite <- (firstn_skipn n l). apply in_or_app. left; exact H. Qed.
Lemma In_skipn {A} (l : list A) n x : In x (skipn n l) -> In x l.
Proof. intros H. rewrite <- (firstn_skipn n l). apply in_or_app. right; exact H. Qed.
Lemma psum_column l i lb w : numeric l -> label_in l lb ->
  (forall vs, column lb (firstn i l) vs -> w = total vs) <-> w = psum l i lb.
Proof. intros Hn Hl. unfold psum. apply sub_column with (l := l); auto. intros x. apply In_firstn. Qed.
Lemma map_nval_window l lb w : forall i, i + w <= length l -> map (fun j => nval l j lb) (seq i w) = map (fun x => valof x lb) (firstn w (skipn i l)).
Proof.
  induction w as [|w IH]; intros i H; [reflexivity|]. cbn [seq map].
  assert (E : exists x, nth_error l i = Some x /\ skipn i l = x :: skipn (S i) l).
  { clear IH. revert i H. induction l as [|a l IHl]; intros i H; [cbn in H; lia|]. destruct i as [|i]; [exists a; auto|].
    cbn in H. destruct (IHl i ltac:(lia)) as (x & X1 & X2). exists x. split; [exact X1|exact X2]. }
  destruct E as (x & X1 & X2). rewrite X2. cbn [firstn map]. f_equal; [unfold nval; rewrite X1; reflexivity|]. apply IH. lia.
Qed.
Lemma nval_iff l i x lb w : numeric l -> nth_error l i = Some x -> label_in l lb -> w = nval l i lb <-> has_value x lb w.
Proof.
  intros Hn Hx Hl. split; [intros ->; apply nval_has; assumption|]. intros H. apply (nval_value l i x lb Hn Hx w H).
Qed.

Lemma kind_points l x : wf_items l -> In x l -> is_point x = true -> wf_points l.
Proof. intros W Hx Hp. apply (proj1 (wf_nonempty_kind l x W Hx) Hp) || (destruct W as [W|W]; [exact W|]; destruct W as [S _]; specialize (S x Hx); rewrite slot_point, Hp in S; discriminate). Qed.
Lemma kind_slots l x : wf_items l -> In x l -> is_slot x = true -> wf_slots l.
Proof. intros W Hx Hp. destruct W as [W|W]; [|exact W]. destruct W as [S _]. specialize (S x Hx). rewrite slot_point, S in Hp. discriminate. Qed.
Lemma consecutive_skipn {A} (R : A -> A -> Prop) k l : consecutive R l -> consecutive R (skipn k l).
Proof.
  intros H i a b Ha Hb. assert (G : forall j, nth_error (skipn k l) j = nth_error l (k + j)).
  { clear. revert l. induction k as [|k IH]; intros [|x l] j; cbn; auto. destruct j; reflexivity. }
  rewrite G in Ha, Hb. apply (H (k + i)); [exact Ha|]. rewrite <- Hb. f_equal. lia.
Qed.

(* an operation keeping times from position k on gives a series with the same interval *)
Lemma regular_sub e s r d k : regular e s d -> fresh e r -> numeric (s_items r) -> wf_items (s_items r) ->
  times (s_items r) = skipn k (times (s_items s)) ->
  (forall i x y, nth_error (s_items s) (k + i) = Some x -> nth_error (s_items r) i = Some y -> same_time x y) ->
  regular e r d.
Proof.
  intros H F N W Et Hst. pose proof (regular_spaced e s d H) as Hsp. destruct H as (B & Ns & Hd & K).
  split; [apply fresh_built; exact F|split; [exact N|split; [exact Hd|]]].
  assert (Hfind : forall y, In y (s_items r) -> exists x, In x (s_items s) /\ same_time x y).
  { intros y Hy. apply In_nth_error in Hy. destruct Hy as [i Hi].
    assert (Hlt : k + i < length (s_items s)).
    { assert (L : length (s_items r) = length (s_items s) - k).
      { apply (f_equal (@length Qc)) in Et. unfold times in Et. rewrite skipn_length, !map_length in Et. exact Et. }
      apply nth_error_Some_lt in Hi. lia. }
    destruct (nth_error (s_items s) (k + i)) as [x|] eqn:Ex; [|apply nth_error_None in Ex; lia].
    exists x. split; [apply nth_error_In in Ex; exact Ex|]. apply (Hst i x y Ex Hi). }
  destruct K as [(Wp & Hs & H7 & Hu)|(Ws & Hu)].
  - left. split.
    + destruct (s_items r) as [|y l] eqn:E; [destruct N; congruence|]. destruct (Hfind y (or_introl eq_refl)) as (x & Hx & Hxy).
      apply (kind_points _ y W (or_introl eq_refl)). unfold is_point. destruct Hxy as (-> & _). apply (proj1 Wp x Hx).
    + split; [rewrite Et; apply consecutive_skipn; exact Hs|auto].
  - right. split.
    + destruct (s_items r) as [|y l] eqn:E; [destruct N; congruence|]. destruct (Hfind y (or_introl eq_refl)) as (x & Hx & Hxy).
      apply (kind_slots _ y W (or_introl eq_refl)). unfold is_slot. destruct Hxy as (-> & _). apply (proj1 Ws x Hx).
    + intros y Hy. destruct (Hfind y Hy) as (x & Hx & (S1 & S2 & S3 & S4 & S5)). rewrite S4, S3, S2. apply Hu, Hx.
Qed.
Lemma regular_before e c s d x0 l0 : regular e s d -> s_items s = x0 :: l0 -> (is_point x0 = true -> l0 <> []) ->
  before c s x0 (Qcminus (i_t x0) d).
Proof.
  intros H E Hl. unfold before. assert (Hsh : forall t, Qcminus t d = unit_shift c (UPhys d) t (-1)).
  { intros t. unfold unit_shift. replace (qz (-1)) with (Qcopp q1) by (apply Qc_is_canon; reflexivity).
    rewrite q1_eq. ring. }
  destruct (is_point x0) eqn:Ex.
  - exists (UPhys d). split; [|apply Hsh]. apply (regular_res e s d H). rewrite E. destruct l0; [destruct (Hl eq_refl eq_refl)|cbn; lia].
  - destruct H as (_ & _ & _ & [(W & _)|(_ & Hu)]).
    + destruct W as [P _]. rewrite (P x0) in Ex; [discriminate|]. rewrite E. left; reflexivity.
    + destruct (Hu x0) as [-> _]; [rewrite E; left; reflexivity|apply Hsh].
Qed.
