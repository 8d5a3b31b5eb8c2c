(* AliasProofs.v -- what operations share with their source. *)
From Verif Require Import BaseLemmas OpsProofs9.
From Verif Require Export Alias.

(* every reference of the series leads to objects of the heap *)
Definition live_item (h : heap) (x : hitem) : Prop := hi_data x < length (hp_datas h) /\ hi_idx x < length (hp_idxs h).
Definition sound (h : heap) : Prop := forall x, In x (hp_items h) -> live_item h x.
Definition live (h : heap) (s : hseries) : Prop := forall a, In a s -> a < length (hp_items h).
(* the objects of h are still there, the same, in h' *)
Definition extends (h h' : heap) : Prop :=
  exists a b c, hp_items h' = hp_items h ++ a /\ hp_datas h' = hp_datas h ++ b /\ hp_idxs h' = hp_idxs h ++ c.

Lemma extends_refl h : extends h h.
Proof. exists [], [], []. rewrite !app_nil_r. auto. Qed.
Lemma extends_trans h1 h2 h3 : extends h1 h2 -> extends h2 h3 -> extends h1 h3.
Proof.
  intros (a & b & c & A & B & D) (a' & b' & c' & A' & B' & D'). exists (a ++ a'), (b ++ b'), (c ++ c').
  rewrite A', B', D', A, B, D, !app_assoc. auto.
Qed.
Lemma alloc_extends h x sh : extends h (fst (alloc_item h x sh)).
Proof.
  unfold alloc_item. destruct sh as [a|]; cbn.
  - eexists _, _, (@nil _). split; [reflexivity|split; [reflexivity|cbn; symmetry; apply app_nil_r]].
  - eexists _, _, _. split; [reflexivity|split; reflexivity].
Qed.
Lemma alloc_all_extends l : forall h, extends h (fst (alloc_all h l)).
Proof.
  induction l as [|[x sh] l IH]; intros h; cbn; [apply extends_refl|].
  destruct (alloc_item h x sh) as [h1 a] eqn:E1. destruct (alloc_all h1 l) as [h2 s] eqn:E2. cbn.
  apply (extends_trans _ h1); [pose proof (alloc_extends h x sh) as H; rewrite E1 in H; exact H|].
  specialize (IH h1). rewrite E2 in IH. exact IH.
Qed.
Lemma extends_read h h' a : extends h h' -> sound h -> a < length (hp_items h) -> read_item h' a = read_item h a.
Proof.
  intros (x & y & z & A & B & D) Hs Ha. unfold read_item. rewrite A, B, D. rewrite nth_error_app1 by exact Ha.
  destruct (nth_error (hp_items h) a) as [i|] eqn:E; [|reflexivity]. destruct (Hs i (nth_error_In _ _ E)) as [H1 H2].
  rewrite !nth_error_app1 by assumption. reflexivity.
Qed.
Lemma extends_read_series h h' s : extends h h' -> sound h -> live h s -> read_series h' s = read_series h s.
Proof. intros He Hs Hl. unfold read_series. apply map_ext_in. intros a Ha. apply extends_read; auto. Qed.

Definition shares_ok (h : heap) (l : list (item * option nat)) : Prop := forall x a, In (x, Some a) l -> a < length (hp_idxs h).
Lemma alloc_sound h x sh : sound h -> (forall a, sh = Some a -> a < length (hp_idxs h)) -> sound (fst (alloc_item h x sh)).
Proof.
  intros Hs Hsh y Hy. unfold alloc_item in *. unfold live_item. destruct sh as [a|]; cbn in *; apply in_app_or in Hy; rewrite ?app_length; cbn.
  - destruct Hy as [Hy|[<-|[]]]; [destruct (Hs y Hy); lia|]. cbn. specialize (Hsh a eq_refl). lia.
  - destruct Hy as [Hy|[<-|[]]]; [destruct (Hs y Hy); lia|]. cbn. lia.
Qed.
Lemma alloc_all_spec l : forall h, sound h -> shares_ok h l ->
  let '(h', s) := alloc_all h l in
  sound h' /\ live h' s /\ length s = length l /\
  (forall j a i, nth_error s j = Some a -> nth_error (hp_items h') a = Some i ->
     length (hp_items h) <= a /\ length (hp_datas h) <= hi_data i /\
     forall x sh, nth_error l j = Some (x, sh) ->
       hi_static i = x /\ match sh with Some b => hi_idx i = b | None => length (hp_idxs h) <= hi_idx i /\ nth_error (hp_idxs h') (hi_idx i) = Some (i_idx x) end /\
       nth_error (hp_datas h') (hi_data i) = Some (match i_data x with Some d => d | None => DDict [] end)) /\
  (forall j k a b i i', nth_error s j = Some a -> nth_error s k = Some b -> nth_error (hp_items h') a = Some i -> nth_error (hp_items h') b = Some i' ->
     j <> k -> hi_data i <> hi_data i').
Proof.
  induction l as [|[x sh] l IH]; intros h Hs Hsh; cbn.
  - split; [exact Hs|]. split; [intros a []|]. split; [reflexivity|]. split; intros j *; destruct j; discriminate.
  - destruct (alloc_item h x sh) as [h1 a] eqn:E1. destruct (alloc_all h1 l) as [h2 s] eqn:E2.
    pose proof (alloc_extends h x sh) as X1. rewrite E1 in X1. cbn in X1.
    assert (S1 : sound h1).
    { pose proof (alloc_sound h x sh Hs) as H. rewrite E1 in H. apply H. intros b ->. apply (Hsh x b). left; reflexivity. }
    pose proof (alloc_all_extends l h1) as X2. rewrite E2 in X2. cbn in X2.
    assert (Hsh1 : shares_ok h1 l).
    { intros y b Hb. destruct X1 as (? & ? & c & _ & _ & D). rewrite D, app_length. specialize (Hsh y b (or_intror Hb)). lia. }
    specialize (IH h1 S1 Hsh1). rewrite E2 in IH. destruct IH as (I1 & I2 & I3 & I4 & I5).
    assert (F : a = length (hp_items h) /\ exists i, nth_error (hp_items h1) a = Some i /\ hi_static i = x /\ hi_data i = length (hp_datas h) /\
              match sh with Some b => hi_idx i = b | None => length (hp_idxs h) <= hi_idx i /\ nth_error (hp_idxs h1) (hi_idx i) = Some (i_idx x) end /\
              nth_error (hp_datas h1) (hi_data i) = Some (match i_data x with Some d => d | None => DDict [] end) /\
              length (hp_items h1) = S (length (hp_items h)) /\ length (hp_datas h1) = S (length (hp_datas h)) /\
              length (hp_idxs h) <= length (hp_idxs h1)).
    { unfold alloc_item in E1. destruct sh as [b|]; injection E1 as <- <-; (split; [reflexivity|]); cbn; eexists;
        (split; [rewrite nth_error_app2 by lia; rewrite Nat.sub_diag; reflexivity|]); cbn; rewrite ?app_length; cbn;
        (split; [reflexivity|]); (split; [reflexivity|]).
      - split; [reflexivity|]. split; [rewrite nth_error_app2 by lia; rewrite Nat.sub_diag; reflexivity|]. lia.
      - split; [split; [lia|rewrite nth_error_app2 by lia; rewrite Nat.sub_diag; reflexivity]|].
        split; [rewrite nth_error_app2 by lia; rewrite Nat.sub_diag; reflexivity|]. lia. }
    destruct F as (Ea & i0 & F1 & F2 & F3 & F4 & F5 & F6 & F7 & F8).
    assert (F1' : nth_error (hp_items h2) a = Some i0).
    { destruct X2 as (q & ? & ? & A & _ & _). rewrite A, nth_error_app1; [exact F1|]. rewrite F6. lia. }
    split; [exact I1|]. split; [|split; [cbn; lia|split]].
    + intros b [<-|Hb]; [|apply I2, Hb]. eapply nth_error_Some_lt; exact F1'.
    + intros [|j] b i Hb Hi; cbn in Hb.
      * injection Hb as <-. assert (i = i0) as -> by congruence. split; [lia|]. split; [lia|].
        intros y sh' [= <- <-]. split; [exact F2|]. destruct X2 as (q & b & c & A & B & D). split.
        -- destruct sh; [exact F4|]. destruct F4 as [G1 G2]. split; [exact G1|]. rewrite D, nth_error_app1; [exact G2|]. eapply nth_error_Some_lt; exact G2.
        -- rewrite B, nth_error_app1; [exact F5|]. eapply nth_error_Some_lt; exact F5.
      * destruct (I4 j b i Hb Hi) as (G1 & G2 & G3). split; [lia|]. split; [lia|]. intros y sh' Hy. destruct (G3 y sh' Hy) as (K1 & K2 & K3).
        split; [exact K1|]. split; [|exact K3]. destruct sh'; [exact K2|]. destruct K2. split; [lia|assumption].
    + intros [|j] [|k] b b' i i' Hb Hb' Hi Hi' Hjk; cbn in Hb, Hb'; try congruence.
      * injection Hb as <-. assert (i = i0) as -> by congruence. destruct (I4 k b' i' Hb' Hi') as (_ & G2 & _). lia.
      * injection Hb' as <-. assert (i' = i0) as -> by congruence. destruct (I4 j b i Hb Hi) as (_ & G2 & _). lia.
      * apply (I5 j k b b'); auto.
Qed.

Lemma h_op_shares (F : list item -> result (list item)) plan h s : sound h -> live h s ->
  forall out, shares_ok h (map (fun jx : nat * item => (snd jx, match plan (fst jx) with
                                             | Some p => match nth_error s p with Some a => idx_addr h a | None => None end
                                             | None => None
                                             end)) (combine (seq 0 (length out)) out)).
Proof.
  intros Hs Hl out x a Ha. apply in_map_iff in Ha. destruct Ha as ([j y] & E & _). cbn in E. injection E as <- E.
  destruct (plan j) as [p|]; [|discriminate]. destruct (nth_error s p) as [b|] eqn:Eb; [|discriminate]. unfold idx_addr in E.
  destruct (nth_error (hp_items h) b) as [i|] eqn:Ei; [|discriminate]. injection E as <-. apply (Hs i), (nth_error_In _ _ Ei).
Qed.

(* 1. no operation changes its source (nor any other series) *)
Theorem h_op_source_unchanged F plan h s h' r other : sound h -> live h s -> live h other -> h_op F plan h s = Ok (h', r) ->
  read_series h' other = read_series h other.
Proof.
  intros Hs Hl Ho H. unfold h_op in H. destruct (all_some _) as [l|]; [|discriminate]. destruct (F l) as [out|]; [|discriminate]. cbn in H.
  injection H as H. match type of H with alloc_all _ ?L = _ => pose proof (alloc_all_extends L h) as X; rewrite H in X end.
  apply extends_read_series; assumption.
Qed.

(* reading after writing an object the items of the other series do not refer to *)
Lemma read_write_data h a d n : (forall i, nth_error (hp_items h) a = Some i -> hi_data i <> n) ->
  n < length (hp_datas h) ->
  read_item (mkHeap (hp_items h) (list_update (hp_datas h) n d) (hp_idxs h)) a = read_item h a.
Proof.
  intros H Hn. unfold read_item. cbn. destruct (nth_error (hp_items h) a) as [i|] eqn:E; [|reflexivity].
  rewrite nth_error_update by exact Hn. destruct (Nat.eqb_spec (hi_data i) n) as [K|K]; [|reflexivity]. destruct (H i eq_refl K).
Qed.
Lemma read_write_idx h a ix n : (forall i, nth_error (hp_items h) a = Some i -> hi_idx i <> n) ->
  n < length (hp_idxs h) ->
  read_item (mkHeap (hp_items h) (hp_datas h) (list_update (hp_idxs h) n ix)) a = read_item h a.
Proof.
  intros H Hn. unfold read_item. cbn. destruct (nth_error (hp_items h) a) as [i|] eqn:E; [|reflexivity].
  rewrite nth_error_update by exact Hn. destruct (Nat.eqb_spec (hi_idx i) n) as [K|K]; [|reflexivity]. destruct (H i eq_refl K).
Qed.

(* 2. writing in the data of the result never changes the source; neither does giving its items
      new index dictionaries; writing in the indexes is harmless if they are not shared *)
Definition harmless (plan : nat -> option nat) (w : hwrite) : Prop :=
  match w with WData _ _ => True | WNewIdx _ _ => True | WIdx p _ => plan p = None end.
Lemma h_write_safe F plan h s h' r other w : sound h -> live h s -> live h other ->
  h_op F plan h s = Ok (h', r) -> harmless plan w ->
  read_series (h_write h' r w) other = read_series h other.
Proof.
  intros Hs Hl Ho H Hw. rewrite <- (h_op_source_unchanged F plan h s h' r other Hs Hl Ho H).
  unfold h_op in H. destruct (all_some _) as [l|]; [|discriminate]. destruct (F l) as [out|]; [|discriminate]. cbn in H. injection H as H.
  pose proof (alloc_all_spec _ h Hs (h_op_shares F plan h s Hs Hl out)) as SP.
  match type of H with alloc_all _ ?L = _ => pose proof (alloc_all_extends L h) as X end. rewrite H in SP, X. cbn [fst] in X.
  destruct SP as (S1 & S2 & S3 & S4 & _).
  assert (Hlow : forall a i, In a other -> nth_error (hp_items h') a = Some i -> hi_data i < length (hp_datas h) /\ hi_idx i < length (hp_idxs h) /\ a < length (hp_items h)).
  { intros a i Ha Hi. destruct X as (x & y & z & A & _ & _). specialize (Ho a Ha). rewrite A, nth_error_app1 in Hi by exact Ho.
    destruct (Hs i (nth_error_In _ _ Hi)). auto. }
  unfold h_write. destruct w as [p d|p ix|p ix].
  - destruct (nth_error r p) as [a|] eqn:Ea; [|reflexivity]. destruct (nth_error (hp_items h') a) as [i|] eqn:Ei; [|reflexivity].
    destruct (S4 p a i Ea Ei) as (K1 & K2 & _). destruct (S1 i (nth_error_In _ _ Ei)) as [L1 L2].
    unfold read_series. apply map_ext_in. intros b Hb. apply read_write_data; [|exact L1]. intros i' Hi'. destruct (Hlow b i' Hb Hi'). lia.
  - destruct (nth_error r p) as [a|] eqn:Ea; [|reflexivity]. destruct (nth_error (hp_items h') a) as [i|] eqn:Ei; [|reflexivity].
    destruct (S4 p a i Ea Ei) as (K1 & K2 & K3). destruct (S1 i (nth_error_In _ _ Ei)) as [L1 L2].
    unfold read_series. apply map_ext_in. intros b Hb. apply read_write_idx; [|exact L2]. intros i' Hi'. destruct (Hlow b i' Hb Hi') as (_ & M & _).
    assert (Hp : p < length r) by (eapply nth_error_Some_lt; exact Ea). rewrite S3 in Hp.
    match type of Hp with _ < length ?L => destruct (nth_ex L p Hp) as ([x sh] & Hx) end.
    destruct (K3 x sh Hx) as (_ & K & _). rewrite nth_error_map in Hx.
    destruct (nth_error (combine (seq 0 (length out)) out) p) as [[j y]|] eqn:Ec; [|discriminate]. cbn in Hx. injection Hx as <- <-.
    assert (j = p) as ->.
    { rewrite <- (firstn_skipn p (combine _ out)) in Ec. clear - Ec. rewrite firstn_skipn in Ec. revert Ec. 
      assert (G : forall (l : list item) k p j y, nth_error (combine (seq k (length l)) l) p = Some (j, y) -> j = k + p).
      { induction l as [|z l IH]; intros k q j' y'; destruct q; cbn; intros E; try discriminate; [injection E as <- <-; lia|].
        apply IH in E. lia. }
      intros E. apply G in E. exact E. }
    unfold harmless in Hw. rewrite Hw in K. destruct K as [K _]. lia.
  - destruct (nth_error r p) as [a|] eqn:Ea; [|reflexivity]. destruct (nth_error (hp_items h') a) as [i|] eqn:Ei; [|reflexivity].
    destruct (S4 p a i Ea Ei) as (K1 & K2 & _).
    unfold read_series. apply map_ext_in. intros b Hb. unfold read_item. cbn [hp_items hp_datas hp_idxs].
    rewrite nth_error_update by (eapply nth_error_Some_lt; exact Ei).
    destruct (Nat.eqb_spec b a) as [E|E].
    + subst. specialize (Ho a Hb). lia.
    + destruct (nth_error (hp_items h') b) as [i'|] eqn:Eb; [|reflexivity]. destruct (S1 i' (nth_error_In _ _ Eb)) as [L1 L2].
      rewrite nth_error_app1 by exact L2. reflexivity.
Qed.

(* 3. the result reads as the value-level operation says *)
Lemma h_op_reads F plan h s h' r l out : sound h -> live h s -> h_op F plan h s = Ok (h', r) ->
  all_some (read_series h s) = Some l -> F l = Ok out ->
  (forall j y, nth_error out j = Some y -> exists d, i_data y = Some d) ->
  (forall j p x y, nth_error out j = Some y -> plan j = Some p -> nth_error l p = Some x -> i_idx y = i_idx x) ->
  (forall j p, plan j = Some p -> j < length out -> p < length l) ->
  read_series h' r = map Some out.
Proof.
  intros Hs Hl H El Ef Hd Hix Hp. unfold h_op in H. rewrite El, Ef in H. cbn in H. injection H as H.
  pose proof (alloc_all_spec _ h Hs (h_op_shares F plan h s Hs Hl out)) as SP.
  match type of H with alloc_all _ ?L = _ => pose proof (alloc_all_extends L h) as X end. rewrite H in SP, X. cbn [fst] in X.
  destruct SP as (S1 & S2 & S3 & S4 & _). rewrite map_length, combine_length, seq_length, Nat.min_id in S3.
  assert (G : forall (l : list item) k q, nth_error (combine (seq k (length l)) l) q = match nth_error l q with Some y => Some (k + q, y) | None => None end).
  { induction l0 as [|z l0 IH]; intros k q; destruct q; cbn; try reflexivity; [rewrite Nat.add_0_r; reflexivity|].
    rewrite IH. destruct (nth_error l0 q); [rewrite Nat.add_succ_r|]; reflexivity. }
  assert (Hall : forall q, nth_error (map Some l) q = nth_error (read_series h s) q).
  { clear - El. revert El. generalize (read_series h s) as m. intros m. revert l. induction m as [|[x|] m IH]; intros l E q; cbn in E; try discriminate.
    - injection E as <-. reflexivity.
    - destruct (all_some m) as [l'|] eqn:E'; [|discriminate]. injection E as <-. destruct q; cbn; [reflexivity|]. apply IH. reflexivity. }
  apply list_ext. intros j. unfold read_series. rewrite !nth_error_map.
  destruct (nth_error out j) as [y|] eqn:Ey; cbn.
  - destruct (nth_ex r j) as (a & Ea); [rewrite S3; eapply nth_error_Some_lt; exact Ey|]. rewrite Ea. cbn. f_equal.
    destruct (nth_ex (hp_items h') a) as (i & Ei); [apply S2; eapply nth_error_In; exact Ea|].
    destruct (S4 j a i Ea Ei) as (_ & _ & K). specialize (K y (match plan j with Some p => match nth_error s p with Some a => idx_addr h a | None => None end | None => None end)).
    destruct K as (K1 & K2 & K3). { rewrite nth_error_map, G, Ey. reflexivity. }
    unfold read_item. rewrite Ei, K3, K1. destruct (Hd j y Ey) as (d & Ed). rewrite Ed.
    assert (Eix : nth_error (hp_idxs h') (hi_idx i) = Some (i_idx y)).
    { destruct (plan j) as [p|] eqn:Epl; [|apply K2].
      assert (Hpl : p < length l) by (eapply Hp; [exact Epl|eapply nth_error_Some_lt; exact Ey]).
      destruct (nth_ex l p Hpl) as (x & Hx). pose proof (Hall p) as Hq. rewrite nth_error_map, Hx in Hq. unfold read_series in Hq.
      rewrite nth_error_map in Hq. destruct (nth_error s p) as [b|] eqn:Eb; [|discriminate]. cbn in Hq. injection Hq as Hq.
      unfold idx_addr in K2. unfold read_item in Hq. destruct (nth_error (hp_items h) b) as [ib|] eqn:Eib; [|discriminate].
      destruct (nth_error (hp_datas h) (hi_data ib)) as [db|]; [|discriminate]. destruct (nth_error (hp_idxs h) (hi_idx ib)) as [xb|] eqn:Exb; [|discriminate].
      injection Hq as ->. rewrite K2. destruct X as (qa & qb & qc & _ & _ & D). rewrite D, nth_error_app1 by (eapply nth_error_Some_lt; exact Exb).
      rewrite Exb. f_equal. symmetry. rewrite (Hix j p _ y Ey Epl Hx). reflexivity. }
    rewrite Eix. f_equal. destruct y; cbn in *. rewrite Ed. reflexivity.
  - assert (nth_error r j = None) as -> by (apply nth_error_None; rewrite S3; apply nth_error_None, Ey). reflexivity.
Qed.
