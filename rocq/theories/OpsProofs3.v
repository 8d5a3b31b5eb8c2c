(* OpsProofs3.v -- rebuilt series: labels, shapes, well-formedness; point-wise operations. *)
From Verif Require Import BaseLemmas SeriesProofs SeriesProofs2 SeriesProofs3 SeriesProofs4
  AccessProofs AccessProofs2 DictLemmas AccessProofs3.
From Verif Require Export OpsProofs2.

Lemma dset_fresh {V} k (v : V) d : ~ In k (map fst d) -> dset k v d = d ++ [(k, v)].
Proof.
  induction d as [|[k' v'] d IH]; cbn; intros H; [reflexivity|].
  destruct (String.eqb_spec k k'); [subst; intuition|]. rewrite IH; [reflexivity|intuition].
Qed.
Lemma dict_of_NoDup {V} (l : list (string * V)) : NoDup (map fst l) -> dict_of l = l.
Proof.
  unfold dict_of. induction l as [|[k v] l IH] using rev_ind; intros H; [reflexivity|].
  rewrite fold_left_app. cbn. rewrite map_app in H. cbn in H.
  pose proof (NoDup_remove_1 _ _ _ H) as H1. pose proof (NoDup_remove_2 _ _ _ H) as H2. rewrite app_nil_r in H1, H2.
  rewrite IH by exact H1. apply dset_fresh, H2.
Qed.

Lemma nth_error_Some_lt {A} (l : list A) n v : nth_error l n = Some v -> n < length l.
Proof. intros H. apply nth_error_Some. congruence. Qed.

Definition outl (first : item) (keyf : string -> string) (lb : string) : string :=
  match i_data first with Some (DList _) => lb | _ => keyf lb end.
Definition inj (f : string -> string) : Prop := forall a b, f a = f b -> a = b.
Lemma str_app_inj_r a b c : (a ++ c)%string = (b ++ c)%string -> a = b.
Proof.
  intros H. assert (L : forall a b, String.length (a ++ b)%string = String.length a + String.length b) by
    (induction a0; cbn; intros; [reflexivity|rewrite IHa0; reflexivity]).
  revert b H. induction a as [|x a IH]; intros [|y b] H; cbn in H.
  - reflexivity.
  - apply (f_equal String.length) in H. cbn in H. rewrite L in H. lia.
  - apply (f_equal String.length) in H. cbn in H. rewrite L in H. lia.
  - injection H as -> H. f_equal. apply IH, H.
Qed.
Lemma postfix_inj p : inj (postfix p).
Proof. intros a b H. unfold postfix in H. exact (str_app_inj_r _ _ _ H). Qed.
Lemma id_inj : inj (fun x => x). Proof. intros a b H. exact H. Qed.

Definition newdata (first : item) (keyf : string -> string) (g : string -> Qc) : data :=
  build_data first keyf (item_labels first) (map g (item_labels first)).

Lemma map_fst_combine {A B} (l : list A) (m : list B) : length l = length m -> map fst (combine l m) = l.
Proof. revert m. induction l as [|x l IH]; intros [|y m]; cbn; intros H; try discriminate; [reflexivity|]. rewrite IH; [reflexivity|lia]. Qed.
Lemma inj_NoDup keyf l : inj keyf -> NoDup l -> NoDup (map keyf l).
Proof. intros Hi. apply FinFun.Injective_map_NoDup. exact Hi. Qed.
Lemma combine_maps {A B C} (f : A -> B) (g : A -> C) l : combine (map f l) (map g l) = map (fun x => (f x, g x)) l.
Proof. induction l as [|x l IH]; cbn; congruence. Qed.

Lemma newdata_dict first d keyf g : numeric_item first -> i_data first = Some (DDict d) -> inj keyf ->
  newdata first keyf g = DDict (map (fun lb => (keyf lb, g lb)) (item_labels first)).
Proof.
  intros Hn Hd Hi. unfold newdata, build_data. rewrite Hd. f_equal. rewrite combine_maps. apply dict_of_NoDup.
  rewrite map_map. cbn. apply inj_NoDup; [exact Hi|]. apply item_labels_NoDup, Hn.
Qed.
Lemma newdata_list first l keyf g : i_data first = Some (DList l) ->
  newdata first keyf g = DList (map (fun n => g (nat_str n)) (seq 0 (length l))).
Proof.
  intros Hd. unfold newdata, build_data, item_labels. rewrite Hd. f_equal. cbn [data_labels_of]. apply map_map.
Qed.

(* the values of a rebuilt item *)
Lemma rebuilt_value first x keyf g ix lb' w : numeric_item first -> inj keyf ->
  has_value (rebuild first x (newdata first keyf g) ix) lb' w <->
  exists lb, has_label first lb /\ lb' = outl first keyf lb /\ w = g lb.
Proof.
  intros Hn Hi. unfold has_value. cbn [i_data rebuild].
  destruct (i_data first) as [[l|d]|] eqn:Ed; [| |destruct Hn as [_ Hn]; rewrite Ed in Hn; contradiction].
  - rewrite (newdata_list _ _ _ _ Ed). unfold outl. rewrite Ed. split.
    + intros (n & -> & Hw). exists (nat_str n).
      assert (Hlt : n < length l) by (apply nth_error_Some_lt in Hw; rewrite map_length, seq_length in Hw; exact Hw).
      rewrite nth_error_map in Hw. rewrite (nth_error_nth' _ 0) in Hw by (rewrite seq_length; exact Hlt).
      rewrite seq_nth in Hw by exact Hlt. cbn [option_map Nat.add] in Hw. split; [|split; [reflexivity|congruence]].
      apply item_labels_In. unfold item_labels. rewrite Ed. cbn [data_labels_of]. apply in_map, in_seq. lia.
    + intros (lb & Hlb & -> & ->). apply item_labels_In in Hlb. unfold item_labels in Hlb. rewrite Ed in Hlb.
      cbn [data_labels_of] in Hlb. apply in_map_iff in Hlb. destruct Hlb as (n & <- & Hs). apply in_seq in Hs.
      exists n. split; [reflexivity|]. rewrite nth_error_map, (nth_error_nth' _ 0) by (rewrite seq_length; lia).
      rewrite seq_nth by lia. reflexivity.
  - rewrite (newdata_dict _ _ _ _ Hn Ed Hi). unfold outl. rewrite Ed. rewrite in_map_iff. split.
    + intros (lb & [= <- <-] & Hlb). exists lb. split; [apply item_labels_In, Hlb|split; reflexivity].
    + intros (lb & Hlb & -> & ->). exists lb. split; [reflexivity|apply item_labels_In, Hlb].
Qed.

Lemma rebuilt_numeric first x keyf g ix : numeric_item first -> inj keyf ->
  numeric_item (rebuild first x (newdata first keyf g) ix).
Proof.
  intros Hn Hi. pose proof (item_labels_nonempty _ Hn) as Hne. split; [exact (proj1 Hn)|]. cbn [i_data rebuild].
  destruct (i_data first) as [[l|d]|] eqn:Ed; [| |destruct Hn as [_ Hn]; rewrite Ed in Hn; contradiction].
  - rewrite (newdata_list _ _ _ _ Ed). destruct Hn as [_ Hn]. rewrite Ed in Hn. destruct l; [congruence|discriminate].
  - rewrite (newdata_dict _ _ _ _ Hn Ed Hi). split.
    + destruct (item_labels first); [congruence|discriminate].
    + rewrite map_map. cbn. apply inj_NoDup; [exact Hi|apply item_labels_NoDup, Hn].
Qed.
Lemma rebuilt_shape first x y keyf g h ix iy : numeric_item first -> inj keyf ->
  same_item_shape (rebuild first x (newdata first keyf g) ix) (rebuild first y (newdata first keyf h) iy).
Proof.
  intros Hn Hi. split; [reflexivity|]. cbn [i_data rebuild].
  destruct (i_data first) as [[l|d]|] eqn:Ed; [| |destruct Hn as [_ Hn]; rewrite Ed in Hn; contradiction].
  - rewrite !(newdata_list _ _ _ _ Ed). cbn. rewrite !map_length. reflexivity.
  - rewrite !(newdata_dict _ _ _ _ Hn Ed Hi). cbn. rewrite !map_map. reflexivity.
Qed.

(* a list of rebuilt items *)
Definition rebuilt (first : item) (keyf : string -> string) (g : item -> string -> Qc) (ixf : item -> dict (option Qc)) (x : item) : item :=
  rebuild first x (newdata first keyf (g x)) (ixf x).

Section Rebuilt.
Variables (first : item) (keyf : string -> string).
Hypothesis Hfirst : numeric_item first.
Hypothesis Hinj : inj keyf.

Lemma same_cls_time x g ix : same_item_shape first x -> same_time x (rebuild first x (newdata first keyf g) ix).
Proof. intros [H _]. unfold same_time. cbn. rewrite H. repeat split. Qed.

(* positions matter for some operations: the values of item i may depend on i *)
Definition rebuilt_list (g : nat -> item -> string -> Qc) (ixf : item -> dict (option Qc)) (k : nat) (l : list item) : list item :=
  map (fun ix => rebuild first (snd ix) (newdata first keyf (g (fst ix) (snd ix))) (ixf (snd ix))) (combine (seq k (length l)) l).

Lemma rebuilt_list_nth g ixf k l i : nth_error (rebuilt_list g ixf k l) i =
  match nth_error l i with Some x => Some (rebuild first x (newdata first keyf (g (k + i) x)) (ixf x)) | None => None end.
Proof.
  unfold rebuilt_list. rewrite nth_error_map. revert k i. induction l as [|x l IH]; intros k [|i]; cbn; try reflexivity.
  - rewrite Nat.add_0_r. reflexivity.
  - rewrite IH. rewrite Nat.add_succ_comm. reflexivity.
Qed.
Lemma rebuilt_list_length g ixf k l : length (rebuilt_list g ixf k l) = length l.
Proof. unfold rebuilt_list. rewrite map_length, combine_length, seq_length. lia. Qed.
Lemma rebuilt_list_In g ixf k l y : In y (rebuilt_list g ixf k l) ->
  exists i x, nth_error l i = Some x /\ y = rebuild first x (newdata first keyf (g (k + i) x)) (ixf x).
Proof.
  intros H. apply In_nth_error in H. destruct H as [i H]. rewrite rebuilt_list_nth in H.
  destruct (nth_error l i) as [x|] eqn:E; [|discriminate]. exists i, x. split; [exact E|congruence].
Qed.
Lemma rebuilt_list_map {B} (f : item -> B) (Hf : forall x d ix, In x [] \/ f (rebuild first x d ix) = f x) g ixf k l :
  map f (rebuilt_list g ixf k l) = map f l.
Proof.
  unfold rebuilt_list. rewrite map_map. revert k. induction l as [|x l IH]; cbn; intros k; [reflexivity|].
  rewrite IH. f_equal. destruct (Hf x (newdata first keyf (g k x)) (ixf x)) as [[]|H]; exact H.
Qed.
Lemma rebuilt_list_times g ixf k l : times (rebuilt_list g ixf k l) = times l.
Proof. unfold times. apply rebuilt_list_map. intros; right; reflexivity. Qed.

Lemma rebuilt_list_wf g ixf k l : (forall x, In x l -> same_item_shape first x) -> wf_items l ->
  wf_items (rebuilt_list g ixf k l).
Proof.
  intros Hs Hw.
  assert (Hshape : forall x y, In x (rebuilt_list g ixf k l) -> In y (rebuilt_list g ixf k l) -> same_item_shape x y).
  { intros x y Hx Hy. apply rebuilt_list_In in Hx, Hy. destruct Hx as (i & x0 & _ & ->), Hy as (j & y0 & _ & ->).
    apply rebuilt_shape; assumption. }
  assert (Hcls : forall x, In x l -> i_cls x = i_cls first) by (intros x Hx; symmetry; apply (Hs x Hx)).
  destruct Hw as [(H1 & H2 & H3)|(H1 & H2 & H3 & H4)]; [left|right].
  - split; [|split].
    + intros y Hy. apply rebuilt_list_In in Hy. destruct Hy as (i & x & Hx & ->). apply nth_error_In in Hx.
      unfold is_point. cbn. rewrite <- (Hcls x Hx). apply H1, Hx.
    + rewrite rebuilt_list_times. exact H2.
    + exact Hshape.
  - split; [|split; [|split]].
    + intros y Hy. apply rebuilt_list_In in Hy. destruct Hy as (i & x & Hx & ->). apply nth_error_In in Hx.
      unfold is_slot. cbn. rewrite <- (Hcls x Hx). apply H1, Hx.
    + intros i a b Ha Hb. rewrite rebuilt_list_nth in Ha, Hb.
      destruct (nth_error l i) as [x|] eqn:E1; [|discriminate]. destruct (nth_error l (S i)) as [y|] eqn:E2; [|discriminate].
      injection Ha as <-. injection Hb as <-. cbn. exact (H2 i x y E1 E2).
    + intros y Hy. apply rebuilt_list_In in Hy. destruct Hy as (i & x & Hx & ->). apply nth_error_In in Hx. exact (H3 x Hx).
    + intros y z Hy Hz. split; [apply Hshape; assumption|].
      apply rebuilt_list_In in Hy, Hz. destruct Hy as (i & x & Hx & ->), Hz as (j & x' & Hx' & ->).
      apply nth_error_In in Hx, Hx'. cbn. apply H4; assumption.
Qed.
Lemma rebuilt_list_numeric g ixf k l : l <> [] -> numeric (rebuilt_list g ixf k l).
Proof.
  intros Hne. split; [|split].
  - intros E. apply (f_equal (@length item)) in E. rewrite rebuilt_list_length in E. destruct l; [congruence|discriminate].
  - intros x Hx. apply rebuilt_list_In in Hx. destruct Hx as (i & y & _ & ->). apply rebuilt_numeric; assumption.
  - intros x y Hx Hy. apply rebuilt_list_In in Hx, Hy. destruct Hx as (i & x0 & _ & ->), Hy as (j & y0 & _ & ->).
    apply rebuilt_shape; assumption.
Qed.
End Rebuilt.

Lemma of_items_built e l s : ts_of_items e l = Ok s -> fresh e s /\ s_items s = l.
Proof. intros H. pose proof (ts_new_items _ _ _ _ H) as E. split; [unfold fresh; rewrite E; exact H|exact E]. Qed.
Lemma fresh_built e s : fresh e s -> built e s.
Proof. intros H. exists None. exact H. Qed.

Lemma mapM_nth_total {A B} (f : A -> result B) (g : A -> B) l : (forall x, In x l -> f x = Ok (g x)) -> mapM f l = Ok (map g l).
Proof. exact (mapM_total f g l). Qed.
Lemma Forall2_nth {A B} (R : A -> B -> Prop) l l' : length l = length l' ->
  (forall i x y, nth_error l i = Some x -> nth_error l' i = Some y -> R x y) -> Forall2 R l l'.
Proof.
  revert l'. induction l as [|x l IH]; intros [|y l'] Hl H; try discriminate; constructor.
  - apply (H 0); reflexivity.
  - apply IH; [cbn in Hl; lia|]. intros i a b Ha Hb. apply (H (S i)); assumption.
Qed.
Lemma Forall2_nth_inv {A B} (R : A -> B -> Prop) l l' : Forall2 R l l' -> length l = length l' /\
    (forall i x y, nth_error l i = Some x -> nth_error l' i = Some y -> R x y).
Proof.
  induction 1 as [|x y l l' H _ [IH1 IH2]]; cbn; split; auto.
  - intros [|i] x y Hx; discriminate.
  - intros [|i] a b Ha Hb; cbn in *; [congruence|eauto].
Qed.

(* ---------------- point-wise operations ---------------- *)
Lemma combine_seq_map {A B} (f : A -> B) k (l : list A) : map (fun ix => f (snd ix)) (combine (seq k (length l)) l) = map f l.
Proof. revert k. induction l as [|x l IH]; cbn; intros k; [reflexivity|]. rewrite IH. reflexivity. Qed.

Lemma pointwise_eq e s f g : from_history e s -> numeric (s_items s) ->
  (forall lb x, In x (s_items s) -> label_in (s_items s) lb -> f lb (valof x lb) = Ok (g lb (valof x lb))) ->
  exists x l, s_items s = x :: l /\
    pointwise e f s = ts_of_items e (rebuilt_list x (fun lb => lb) (fun _ y lb => g lb (valof y lb)) i_idx 0 (s_items s)).
Proof.
  intros Hh Hn Hf. destruct (prep_ok e s Hh Hn) as (x & l & El & Hp). exists x, l. split; [exact El|].
  unfold pointwise. rewrite Hp. cbn [bind fst snd]. unfold pointwise_items.
  rewrite (mapM_total _ (fun y => rebuild x y (newdata x (fun lb => lb) (fun lb => g lb (valof y lb))) (i_idx y))).
  - cbn [bind]. f_equal. unfold rebuilt_list. symmetry. apply (combine_seq_map (fun y => rebuild x y (newdata x (fun lb => lb) (fun lb => g lb (valof y lb))) (i_idx y))).
  - intros y Hy.
    rewrite (mapM_total _ (fun lb => g lb (valof y lb))); [reflexivity|].
    intros lb Hlb. assert (Hb : label_in (s_items s) lb) by (eapply label_in_first; eassumption).
    destruct (label_all _ _ _ Hn Hb Hy) as [H1 H2]. destruct (valof_ok y lb H1 H2) as [-> _]. cbn. apply Hf; assumption.
Qed.

Lemma derived_rebuilt first x g ix : numeric_item first -> numeric_item x -> same_item_shape first x ->
  derived x (rebuild first x (newdata first (fun lb => lb) (fun lb => g lb (valof x lb))) ix) g.
Proof.
  intros Hf Hx Hs lb w. rewrite (rebuilt_value _ _ _ _ _ _ _ Hf id_inj).
  assert (Ho : forall lb, outl first (fun lb => lb) lb = lb) by (intros z; unfold outl; destruct (i_data first) as [[]|]; reflexivity).
  split.
  - intros (lb0 & Hl & -> & ->). rewrite Ho. apply (same_shape_labels _ _ _ Hs) in Hl.
    exists (valof x lb0). split; [apply valof_ok; assumption|reflexivity].
  - intros (v & Hv & ->). exists lb. split; [|split].
    + apply (same_shape_labels _ _ _ Hs). exists v. exact Hv.
    + rewrite Ho. reflexivity.
    + rewrite (valof_spec _ _ _ Hx Hv). reflexivity.
Qed.

Lemma pointwise_spec e s f g : parses_units e -> from_history e s -> numeric (s_items s) -> wf_items (s_items s) ->
  (forall lb x, In x (s_items s) -> label_in (s_items s) lb -> f lb (valof x lb) = Ok (g lb (valof x lb))) ->
  exists r, pointwise e f s = Ok r /\ fresh e r /\ numeric (s_items r) /\ wf_items (s_items r) /\
    Forall2 (fun x y => same_time x y /\ i_idx y = i_idx x /\ derived x y g) (s_items s) (s_items r).
Proof.
  intros He Hh Hn Hw Hf. destruct (pointwise_eq e s f g Hh Hn Hf) as (x & l & El & Hp).
  assert (Hx : numeric_item x) by (apply Hn; rewrite El; left; reflexivity).
  assert (Hs : forall y, In y (s_items s) -> same_item_shape x y).
  { intros y Hy. apply Hn; [rewrite El; left; reflexivity|exact Hy]. }
  rewrite Hp. set (l' := rebuilt_list _ _ _ _ _ _).
  assert (Hw' : wf_items l') by (apply rebuilt_list_wf; auto using id_inj).
  destruct (ts_of_items_ok e l' He Hw') as (r & Hr & Er). exists r. split; [exact Hr|].
  destruct (of_items_built _ _ _ Hr) as [Hb _]. rewrite Er.
  split; [exact Hb|]. split; [apply rebuilt_list_numeric; [exact Hx|exact id_inj|apply Hn]|]. split; [exact Hw'|].
  apply Forall2_nth; [symmetry; apply rebuilt_list_length|].
  intros i a b Ha Hb'. unfold l' in Hb'. rewrite rebuilt_list_nth, Ha in Hb'. injection Hb' as <-.
  apply nth_error_In in Ha. split; [|split].
  - apply same_cls_time; auto.
  - reflexivity.
  - apply derived_rebuilt; [exact Hx|apply Hn, Ha|apply Hs, Ha].
Qed.

Lemma fresh_history e r : fresh e r -> numeric (s_items r) -> from_history e r.
Proof. intros H. apply built_history, fresh_built, H. Qed.

(* composition of two rebuilt series *)
Lemma derived_compose x y z g h : derived x y g -> derived y z h -> derived x z (fun lb v => h lb (g lb v)).
Proof.
  intros H1 H2 lb w. rewrite (H2 lb w). split.
  - intros (v & Hv & ->). apply H1 in Hv. destruct Hv as (u & Hu & ->). eauto.
  - intros (v & Hv & ->). exists (g lb v). split; [apply H1; eauto|reflexivity].
Qed.
Lemma derived_id x y g : derived x y g -> (forall lb v, has_value x lb v -> g lb v = v) -> forall lb v, has_value x lb v <-> has_value y lb v.
Proof.
  intros H Hg lb v. rewrite (H lb v). split.
  - intros Hv. exists v. split; [exact Hv|]. symmetry. apply Hg, Hv.
  - intros (u & Hu & ->). rewrite (Hg lb u Hu). exact Hu.
Qed.
Lemma derived_ext x y z g h : derived x y g -> derived x z h -> (forall lb v, g lb v = h lb v) -> forall lb v, has_value y lb v <-> has_value z lb v.
Proof.
  intros H1 H2 He lb v. rewrite (H1 lb v), (H2 lb v). split; intros (u & Hu & ->); exists u; (split; [exact Hu|]); congruence.
Qed.
