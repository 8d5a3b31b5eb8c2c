(* OpsProofs9.v -- in-place operations. *)
From Verif Require Import BaseLemmas SeriesProofs SeriesProofs2 SeriesProofs3 SeriesProofs4
  AccessProofs AccessProofs2 DictLemmas AccessProofs3 PropTactics.
From Verif Require Export OpsProofs8.

Lemma dset_keys_present {V} k (v : V) d : In k (map fst d) -> map fst (dset k v d) = map fst d.
Proof.
  induction d as [|[k' v'] d IH]; cbn; intros H; [destruct H|]. destruct (String.eqb_spec k k'); cbn; [reflexivity|].
  f_equal. apply IH. destruct H; [congruence|assumption].
Qed.
Lemma dset_In {V} k (v : V) d k' w : NoDup (map fst d) -> In k (map fst d) ->
  In (k', w) (dset k v d) <-> (k' = k /\ w = v) \/ (k' <> k /\ In (k', w) d).
Proof.
  induction d as [|[a b] d IH]; cbn; intros Hnd Hk; [destruct Hk|]. inversion Hnd as [|? ? N1 N2]; subst.
  destruct (String.eqb_spec k a) as [->|Hne]; cbn.
  - split.
    + intros [[= <- <-]|H]; [left; auto|]. right. split; [|right; exact H]. intros ->. apply N1. apply (in_map fst) in H. exact H.
    + intros [[-> ->]|[H1 [[= -> ->]|H2]]]; [left; reflexivity|congruence|right; exact H2].
  - destruct Hk as [Hk|Hk]; [congruence|]. rewrite (IH N2 Hk). split.
    + intros [[= <- <-]|[H|[H1 H2]]]; [right; split; [congruence|left; reflexivity]|left; exact H|right; split; [exact H1|right; exact H2]].
    + intros [[-> ->]|[H1 [[= -> ->]|H2]]]; [right; left; auto|left; reflexivity|right; right; auto].
Qed.

Lemma nth_error_update {A} (l : list A) i x j : i < length l ->
  nth_error (list_update l i x) j = if Nat.eqb j i then Some x else nth_error l j.
Proof.
  intros Hi. unfold list_update. destruct (Nat.eqb_spec j i) as [->|Hne].
  - rewrite nth_error_app2 by (rewrite firstn_length; lia). rewrite firstn_length, Nat.min_l by lia. rewrite Nat.sub_diag. reflexivity.
  - destruct (Nat.lt_ge_cases j i).
    + rewrite nth_error_app1 by (rewrite firstn_length; lia). rewrite nth_error_firstn. destruct (Nat.ltb_spec j i); [reflexivity|lia].
    + rewrite nth_error_app2 by (rewrite firstn_length; lia). rewrite firstn_length, Nat.min_l by lia.
      destruct (j - i) as [|k] eqn:E; [lia|]. cbn [nth_error]. rewrite nth_error_skipn. f_equal. lia.
Qed.
Lemma list_update_length {A} (l : list A) i x : i < length l -> length (list_update l i x) = length l.
Proof. intros Hi. unfold list_update. rewrite app_length, firstn_length. cbn [length]. rewrite skipn_length. lia. Qed.
Lemma list_ext {A} (l m : list A) : (forall j, nth_error l j = nth_error m j) -> l = m.
Proof.
  revert m. induction l as [|x l IH]; intros [|y m] H; [reflexivity|discriminate (H 0)|discriminate (H 0)|].
  f_equal; [specialize (H 0); cbn in H; congruence|]. apply IH. intros j. exact (H (S j)).
Qed.
Lemma list_update_twice {A} (l : list A) i x y : i < length l -> list_update (list_update l i x) i y = list_update l i y.
Proof.
  intros Hi. apply list_ext. intros j. rewrite !nth_error_update by (rewrite ?list_update_length; assumption).
  destruct (Nat.eqb j i); reflexivity.
Qed.
Lemma list_update_same {A} (l : list A) i x : nth_error l i = Some x -> list_update l i x = l.
Proof.
  intros H. apply list_ext. intros j. rewrite nth_error_update by (eapply nth_error_Some_lt; exact H).
  destruct (Nat.eqb_spec j i) as [->|]; [congruence|reflexivity].
Qed.

Lemma same_item_shape_refl x : same_item_shape x x.
Proof. split; [reflexivity|]. destruct (i_data x) as [[l|d]|]; cbn; try reflexivity; auto. Qed.

(* one assignment *)
Lemma set_value_ok x lb w : numeric_item x -> has_label x lb ->
  exists x', set_value x (fun k => k) lb w = Ok x' /\ numeric_item x' /\ item_labels x' = item_labels x /\
    same_item_shape x x' /\ same_time x x' /\ i_idx x' = i_idx x /\ i_weight x' = i_weight x /\
    forall lb' v, has_value x' lb' v <-> (lb' = lb /\ v = w) \/ (lb' <> lb /\ has_value x lb' v).
Proof.
  intros Hx Hl. unfold set_value. destruct Hx as [Hc Hx]. destruct Hl as (v0 & Hv0). unfold has_value in *.
  destruct (i_data x) as [[l|d]|] eqn:Ed; [| |contradiction].
  - destruct Hv0 as (n & -> & Hn). rewrite parse_nat_str. pose proof (nth_error_Some_lt _ _ _ Hn) as Hlt.
    destruct (Nat.ltb_spec n (length l)); [|lia]. change (firstn n l ++ w :: skipn (S n) l) with (list_update l n w).
    eexists. split; [reflexivity|]. split; [|split; [|split; [|split; [|split; [reflexivity|split; [reflexivity|]]]]]].
    + split; [exact Hc|]. cbn. intros E. apply (f_equal (@length Qc)) in E. rewrite list_update_length in E by exact Hlt. cbn in E. lia.
    + unfold item_labels. cbn. rewrite Ed. cbn. rewrite list_update_length by exact Hlt. reflexivity.
    + split; [reflexivity|]. rewrite Ed. cbn. rewrite list_update_length by exact Hlt. reflexivity.
    + repeat split; reflexivity.
    + intros lb' v. cbn [i_data set_data]. split.
      * intros (m & -> & Hm). rewrite nth_error_update in Hm by exact Hlt. destruct (Nat.eqb_spec m n) as [E|Hne].
        -- left. subst m. split; [reflexivity|congruence].
        -- right. split; [intros E; apply nat_str_inj in E; contradiction|]. exists m. auto.
      * intros [[-> ->]|(Hne & m & -> & Hm)].
        -- exists n. split; [reflexivity|]. rewrite nth_error_update, Nat.eqb_refl by exact Hlt. reflexivity.
        -- exists m. split; [reflexivity|]. rewrite nth_error_update by exact Hlt. destruct (Nat.eqb_spec m n) as [E|]; [subst m; congruence|exact Hm].
  - assert (Hk : In lb (map fst d)) by (apply in_map_iff; exists (lb, v0); auto).
    eexists. split; [reflexivity|]. split; [|split; [|split; [|split; [|split; [reflexivity|split; [reflexivity|]]]]]].
    + split; [exact Hc|]. cbn. rewrite dset_keys_present by exact Hk. split; [|apply Hx].
      intros E. pose proof (dset_keys_present lb w d Hk) as K. rewrite E in K. destruct d; [destruct Hk|discriminate].
    + unfold item_labels. cbn. rewrite Ed. cbn. unfold dkeys. rewrite dset_keys_present by exact Hk. reflexivity.
    + split; [reflexivity|]. rewrite Ed. cbn. rewrite dset_keys_present by exact Hk. reflexivity.
    + repeat split; reflexivity.
    + intros lb' v. cbn. apply dset_In; [apply Hx|exact Hk].
Qed.

(* the loop over the labels of item i *)
Lemma inner_loop f (g : string -> Qc -> Qc) i labels : NoDup labels ->
  forall l x, nth_error l i = Some x -> numeric_item x -> (forall lb, In lb labels -> has_label x lb) ->
  (forall lb v, In lb labels -> has_value x lb v -> f lb v = Ok (g lb v)) ->
  exists x', foldM (fun l lb =>
              match nth_error l i with
              | None => Err IndexError
              | Some x => do v <- item_by_label x lb; do w <- f lb v;
                          do x' <- set_value x (fun k => k) lb w; Ok (list_update l i x')
              end) labels l = Ok (list_update l i x') /\
    numeric_item x' /\ item_labels x' = item_labels x /\ same_item_shape x x' /\ same_time x x' /\ i_idx x' = i_idx x /\
    forall lb v, has_value x' lb v <-> exists v0, has_value x lb v0 /\ v = if existsb (String.eqb lb) labels then g lb v0 else v0.
Proof.
  induction labels as [|lb labels IH]; intros Hnd l x Hi Hx Hl Hf; cbn [foldM].
  - exists x. rewrite (list_update_same l i x Hi). split; [reflexivity|]. split; [exact Hx|]. split; [reflexivity|].
    split; [apply same_item_shape_refl|]. split; [repeat split; reflexivity|]. split; [reflexivity|].
    intros lb v. cbn. split; [intros H; eauto|intros (v0 & H & ->); exact H].
  - inversion Hnd as [|? ? N1 N2]; subst. rewrite Hi.
    destruct (valof_ok x lb Hx (Hl lb (or_introl eq_refl))) as [-> Hv]. cbn [bind].
    rewrite (Hf lb _ (or_introl eq_refl) Hv). cbn [bind].
    destruct (set_value_ok x lb (g lb (valof x lb)) Hx (Hl lb (or_introl eq_refl))) as (x1 & -> & Hx1 & Hl1 & Hs1 & Ht1 & Hix1 & _ & HV1).
    cbn [bind]. pose proof (nth_error_Some_lt _ _ _ Hi) as Hlt.
    destruct (IH N2 (list_update l i x1) x1) as (x2 & E & Hx2 & Hl2 & Hs2 & Ht2 & Hix2 & HV2).
    + rewrite nth_error_update, Nat.eqb_refl by exact Hlt. reflexivity.
    + exact Hx1.
    + intros lb' Hlb'. apply (same_shape_labels _ _ _ Hs1), Hl. right; exact Hlb'.
    + intros lb' v Hlb' Hv'. apply HV1 in Hv'. destruct Hv' as [[-> _]|[_ Hv']]; [contradiction|]. apply Hf; [right; exact Hlb'|exact Hv'].
    + rewrite list_update_twice in E by exact Hlt. exists x2. split; [exact E|]. split; [exact Hx2|]. split; [congruence|].
      split; [eapply same_item_shape_trans; eassumption|]. split; [eapply same_time_trans; eassumption|]. split; [congruence|].
      intros lb' v. rewrite HV2. cbn [existsb]. destruct (String.eqb_spec lb' lb) as [->|Hne]; cbn [orb].
      * assert (En : existsb (String.eqb lb) labels = false).
        { destruct (existsb (String.eqb lb) labels) eqn:En; [|reflexivity]. apply existsb_exists in En. destruct En as (z & Hz & Ez).
          apply String.eqb_eq in Ez. subst. contradiction. }
        rewrite En. split.
        -- intros (v0 & H1 & ->). apply HV1 in H1. destruct H1 as [[_ ->]|[H1 _]]; [|congruence]. eauto.
        -- intros (v0 & H1 & ->). exists (g lb v0). split; [|reflexivity]. apply HV1. left. split; [reflexivity|].
           rewrite (valof_spec x lb v0 Hx H1). reflexivity.
      * split; intros (v0 & H1 & H2); exists v0; (split; [|exact H2]); [apply HV1 in H1; destruct H1 as [[-> _]|[_ H1]]; [congruence|exact H1]|].
        apply HV1. right. auto.
Qed.

Lemma numeric_item_labels_first l x lb : numeric l -> In x l -> (In lb (item_labels x) <-> label_in l lb).
Proof.
  intros Hn Hx. rewrite item_labels_In. split; [intros H; exists x; auto|]. intros (y & Hy & H). eapply numeric_labels; eassumption.
Qed.

Lemma inplace_spec e s f (g : string -> Qc -> Qc) : from_history e s -> numeric (s_items s) ->
  (forall lb v x, In x (s_items s) -> has_value x lb v -> f lb v = Ok (g lb v)) ->
  exists r, inplace_pointwise f s = Ok r /\ s_res r = s_res s /\ s_tz r = s_tz s /\
    Forall2 (fun x y => same_time x y /\ i_idx y = i_idx x /\ derived x y g) (s_items s) (s_items r).
Proof.
  intros Hh Hn Hf. destruct (prep_ok e s Hh Hn) as (x0 & l0 & El & Hp). unfold inplace_pointwise. rewrite Hp. cbn [bind].
  match goal with |- context [foldM ?F (seq 0 _) _] => set (step := F) end.
  set (L0 := s_items s) in *.
  set (INV := fun k (l : list item) => length l = length L0 /\
     forall j x y, nth_error L0 j = Some x -> nth_error l j = Some y ->
       numeric_item y /\ item_labels y = item_labels x /\ same_item_shape x y /\ same_time x y /\ i_idx y = i_idx x /\
       (if j <? k then derived x y g else y = x)).
  assert (G : forall n k l, k + n = length L0 -> INV k l -> exists l', foldM step (seq k n) l = Ok l' /\ INV (k + n) l').
  { induction n as [|n IH]; intros k l Hk HI; cbn [seq foldM].
    - exists l. rewrite Nat.add_0_r. auto.
    - destruct HI as [Hlen HI]. destruct (nth_ex L0 k) as [x Hx]; [lia|]. destruct (nth_ex l k) as [y Hy]; [lia|].
      destruct (HI k x y Hx Hy) as (A1 & A2 & A3 & A4 & A5 & A6). rewrite Nat.ltb_irrefl in A6. subst y.
      assert (HL : cur_labels l = Ok (item_labels x0)).
      { destruct (nth_ex l 0) as [y0 Hy0]; [lia|]. assert (H0 : nth_error L0 0 = Some x0) by (rewrite El; reflexivity).
        destruct (HI 0 x0 y0 H0 Hy0) as (B1 & B2 & _). destruct l as [|z l]; [discriminate|]. cbn in Hy0. injection Hy0 as ->.
        cbn. rewrite <- B2. unfold item_labels, item_data. destruct B1 as [_ B1]. destruct (i_data y0); [reflexivity|contradiction]. }
      assert (Hst : step l k = foldM (fun l lb =>
              match nth_error l k with
              | None => Err IndexError
              | Some x => do v <- item_by_label x lb; do w <- f lb v;
                          do x' <- set_value x (fun k => k) lb w; Ok (list_update l k x')
              end) (item_labels x0) l) by (unfold step; rewrite HL; reflexivity).
      assert (Hin : In x L0) by (eapply nth_error_In; exact Hx). assert (Hin0 : In x0 L0) by (rewrite El; left; reflexivity).
      destruct (inner_loop f g k (item_labels x0) (item_labels_NoDup _ (proj1 (proj2 Hn) x0 Hin0)) l x Hy) as (x' & E & C1 & C2 & C3 & C4 & C5 & C6).
      + apply Hn, Hin.
      + intros lb Hlb. apply item_labels_In. apply (numeric_item_labels_first _ _ _ Hn Hin). apply (numeric_item_labels_first _ _ _ Hn Hin0), Hlb.
      + intros lb v _ Hv. eapply Hf; [exact Hin|exact Hv].
      + rewrite Hst, E. cbn [bind]. destruct (IH (S k) (list_update l k x')) as (l' & E' & HI'); [lia| |].
        * split; [rewrite list_update_length by lia; exact Hlen|]. intros j a b Ha Hb. rewrite nth_error_update in Hb by lia.
          destruct (Nat.eqb_spec j k) as [->|Hne].
          -- injection Hb as <-. assert (a = x) as -> by congruence. destruct (Nat.ltb_spec k (S k)); [|lia].
             split; [exact C1|]. split; [exact C2|]. split; [exact C3|]. split; [exact C4|]. split; [exact C5|].
             intros lb w. rewrite C6. split; intros (v & Hv & ->); exists v; (split; [exact Hv|]).
             ++ assert (Hb : existsb (String.eqb lb) (item_labels x0) = true).
                { apply existsb_exists. exists lb. split; [|apply String.eqb_refl]. apply (numeric_item_labels_first _ _ _ Hn Hin0).
                  exists x. split; [exact Hin|exists v; exact Hv]. }
                rewrite Hb. reflexivity.
             ++ assert (Hb : existsb (String.eqb lb) (item_labels x0) = true).
                { apply existsb_exists. exists lb. split; [|apply String.eqb_refl]. apply (numeric_item_labels_first _ _ _ Hn Hin0).
                  exists x. split; [exact Hin|exists v; exact Hv]. }
                rewrite Hb. reflexivity.
          -- destruct (HI j a b Ha Hb) as (B1 & B2 & B3 & B4 & B5 & B6). repeat (split; [assumption|]).
             destruct (Nat.ltb_spec j k), (Nat.ltb_spec j (S k)); try lia; exact B6.
        * exists l'. split; [exact E'|]. replace (k + S n) with (S k + n) by lia. exact HI'. }
  destruct (G (length L0) 0 L0 eq_refl) as (l' & E & Hlen & HI).
  - split; [reflexivity|]. intros j x y Hx Hy. assert (y = x) as -> by congruence.
    split; [apply Hn; eapply nth_error_In; exact Hx|]. split; [reflexivity|]. split; [apply same_item_shape_refl|].
    split; [repeat split; reflexivity|]. split; reflexivity.
  - rewrite E. cbn [bind]. exists (set_items s l'). split; [reflexivity|]. split; [reflexivity|]. split; [reflexivity|].
    cbn [s_items set_items]. apply Forall2_nth; [symmetry; exact Hlen|]. intros j x y Hx Hy.
    destruct (HI j x y Hx Hy) as (_ & _ & _ & A & B & D). cbn [Nat.add] in D.
    assert (Hj : j < length L0) by (eapply nth_error_Some_lt; exact Hx). destruct (Nat.ltb_spec j (length L0)); [|lia]. auto.
Qed.

(* the same data in place and out of place *)
Lemma inplace_agrees s f g r r' :
  Forall2 (fun x y => same_time x y /\ i_idx y = i_idx x /\ derived x y g) (s_items s) (s_items r) ->
  Forall2 (fun x y => same_time x y /\ i_idx y = i_idx x /\ derived x y f) (s_items s) (s_items r') ->
  (forall lb v, f lb v = g lb v) -> Forall2 same_contents (s_items r) (s_items r').
Proof.
  intros H1 H2 Hfg. revert H2. generalize (s_items r'). induction H1 as [|x y l m (A & B & D) H1 IH]; intros m' H2; inversion H2 as [|? z ? m2 (A' & B' & D') H2']; subst; constructor.
  - split; [|split].
    + destruct A as (a1 & a2 & a3 & a4 & a5), A' as (b1 & b2 & b3 & b4 & b5). repeat split; congruence.
    + congruence.
    + intros lb v. rewrite (D lb v), (D' lb v). split; intros (v0 & H & ->); exists v0; rewrite Hfg; auto.
  - apply IH, H2'.
Qed.
