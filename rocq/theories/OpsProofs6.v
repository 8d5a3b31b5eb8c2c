(* OpsProofs6.v -- cumulative sums and integrals. *)
From Verif Require Import BaseLemmas SeriesProofs SeriesProofs2 SeriesProofs3 SeriesProofs4
  AccessProofs AccessProofs2 DictLemmas AccessProofs3 PropTactics.
From Verif Require Export OpsProofs5.

(* what the next value of the label starts from: the last value or the constant *)
Definition starts_from (k : konst) (st : int_state) (lb : string) (b : Qc) : Prop :=
  match dget lb (it_last st) with Some last => last = b | None => forall v, add_konst v k lb = Ok (Qcplus v b) end.

Lemma int_labels_csum si k l i labels (nv b : string -> Qc) : NoDup labels ->
  (forall lb, In lb labels -> val l i lb = Ok (nv lb)) ->
  forall st, (forall lb, In lb labels -> starts_from k st lb (b lb)) ->
  exists st', int_labels false false si k l i st labels = Ok (st', map (fun lb => Qcplus (b lb) (nv lb)) labels) /\
    (forall lb, In lb labels -> dget lb (it_last st') = Some (Qcplus (b lb) (nv lb))) /\
    (forall lb, ~ In lb labels -> dget lb (it_last st') = dget lb (it_last st)).
Proof.
  induction labels as [|lb labels IH]; intros Hnd Hv st Hst; cbn.
  - exists st. split; [reflexivity|]. split; [intros lb []|reflexivity].
  - inversion Hnd as [|? ? Hn1 Hn2]; subst. unfold int_label. rewrite (Hv lb (or_introl eq_refl)). cbn [bind].
    set (w := Qcplus (b lb) (nv lb)).
    assert (E : match dget lb (it_last st) with Some last => Ok (Qcplus last (nv lb)) | None => add_konst (nv lb) k lb end = Ok w).
    { pose proof (Hst lb (or_introl eq_refl)) as H. unfold starts_from in H. destruct (dget lb (it_last st)).
      - subst. reflexivity.
      - rewrite (H (nv lb)). unfold w. f_equal. ring. }
    rewrite E. cbn [bind fst snd].
    destruct (IH Hn2) with (st := mkInt (dset lb w (it_last st)) (it_prc st)) as (st' & E' & H1 & H2).
    + auto using in_cons.
    + intros lb' Hlb'. pose proof (Hst lb' (or_intror Hlb')) as H. unfold starts_from in *. cbn [it_last].
      rewrite dget_dset. destruct (String.eqb_spec lb' lb); [subst; contradiction|exact H].
    + rewrite E'. cbn [bind fst snd]. exists st'. split; [reflexivity|]. split.
      * intros lb' [<-|Hlb']; [|auto]. rewrite (H2 lb Hn1). cbn [it_last]. rewrite dget_dset, String.eqb_refl. reflexivity.
      * intros lb' Hlb'. rewrite H2 by intuition. cbn [it_last]. rewrite dget_dset.
        destruct (String.eqb_spec lb' lb); [subst; exfalso; apply Hlb'; left; reflexivity|reflexivity].
Qed.

(* sum of the first i values *)
Definition psum (l : list item) (i : nat) (lb : string) : Qc := total (map (fun x => valof x lb) (firstn i l)).
Lemma psum_S l i lb : i < length l -> psum l (S i) lb = Qcplus (psum l i lb) (nval l i lb).
Proof.
  intros Hi. unfold psum, nval. destruct (nth_error l i) as [x|] eqn:E; [|apply nth_error_None in E; lia].
  assert (firstn (S i) l = firstn i l ++ [x]) as ->.
  { revert i Hi E. induction l as [|y l IH]; intros [|i] Hi E; cbn in *; try discriminate; [congruence|]. f_equal. apply IH; [lia|exact E]. }
  rewrite map_app, total_app. cbn. f_equal. rewrite Qcplus_comm. apply Qcplus_0_l.
Qed.

Lemma int_items_csum first labels si k l (b : string -> Qc) : labels = item_labels first -> numeric_item first ->
  (forall i lb, i < length l -> In lb labels -> val l i lb = Ok (nval l i lb)) ->
  forall rest i st, length l = i + length rest ->
  (forall lb, In lb labels -> starts_from k st lb (Qcplus (b lb) (psum l i lb))) ->
  int_items first labels false false si k l i st rest =
  Ok (rebuilt_list first (postfix "csum") (fun i _ lb => Qcplus (b lb) (psum l (S i) lb)) i_idx i rest).
Proof.
  intros El Hf Hv. induction rest as [|x rest IH]; intros i st Hlen Hst; cbn [int_items].
  - reflexivity.
  - cbn in Hlen. destruct (int_labels_csum si k l i labels (nval l i) (fun lb => Qcplus (b lb) (psum l i lb))) with (st := st)
      as (st' & E & H1 & H2).
    + subst. apply item_labels_NoDup, Hf.
    + intros lb Hlb. apply Hv; [lia|exact Hlb].
    + exact Hst.
    + rewrite E. cbn [bind fst snd]. rewrite IH with (i := S i).
      * cbn [bind]. unfold rebuilt_list. cbn [length seq combine map fst snd]. do 3 f_equal.
        unfold newdata. rewrite <- El. f_equal. apply map_ext. intros lb. rewrite psum_S by lia. ring.
      * lia.
      * intros lb Hlb. unfold starts_from. rewrite (H1 lb Hlb). rewrite psum_S by lia. ring.
Qed.

Lemma rebuilt_list_ext first keyf g h ixf k l : (forall i x lb, g i x lb = h i x lb) -> rebuilt_list first keyf g ixf k l = rebuilt_list first keyf h ixf k l.
Proof.
  intros H. unfold rebuilt_list. apply map_ext. intros [i x]. cbn. f_equal. unfold newdata. f_equal. apply map_ext. intros lb. apply H.
Qed.

Lemma csum_spec e c s : parses_units e -> from_history e s -> numeric (s_items s) -> wf_items (s_items s) ->
  s_res s <> Some RVar ->
  exists r, op_csum e c s (KNum q0) = Ok r /\
    fresh e r /\ numeric (s_items r) /\ wf_items (s_items r) /\ length (s_items r) = length (s_items s) /\
    times (s_items r) = times (s_items s) /\
    forall i x y, nth_error (s_items s) i = Some x -> nth_error (s_items r) i = Some y ->
      same_time x y /\ i_idx y = i_idx x /\ values_by x y "csum" (fun lb w => w = psum (s_items s) (S i) lb).
Proof.
  intros He Hh Hn Hw Hres. destruct (prep_ok e s Hh Hn) as (x & l & El & Hp).
  destruct (positional_series e s "csum" (fun i lb => psum (s_items s) (S i) lb) i_idx 0 He Hn Hw x l El)
    as (r & Hr & H1 & H2 & H3 & H4 & H5 & H6); [rewrite El; cbn; lia|].
  exists r. split; [|split; [exact H1|split; [exact H2|split; [exact H3|split; [lia|split; [exact H5|exact H6]]]]]].
  unfold op_csum. rewrite El at 1.
  assert (E : op_integral_gen e c s false (KNum q0) (KNum q0) (Err NotImplementedError) = Ok r).
  { unfold op_integral_gen. rewrite Hp. cbn [bind fst snd konst_truthy]. rewrite qeqb_refl. cbn [negb bind app].
    rewrite (int_items_csum x (item_labels x) q0 (KNum q0) (s_items s) (fun _ => q0)); [|reflexivity| | |reflexivity|].
    - cbn [bind]. rewrite <- Hr. f_equal. cbn [skipn]. apply rebuilt_list_ext. intros i y lb. apply q0_plus.
    - apply Hn. rewrite El. left; reflexivity.
    - intros i lb Hi Hlb. apply val_ok; [exact Hn|eapply label_first; eassumption|exact Hi].
    - intros lb Hlb. unfold starts_from. cbn [it_last dget]. intros v. cbn. f_equal. }
  destruct (s_res s) as [[|u]|]; [congruence|exact E|exact E].
Qed.

(* ---------------- with an offset ---------------- *)

(* what the offset gives for a label *)
Definition gives (k : konst) (like : item) (lb : string) (o : Qc) : Prop :=
  match k with
  | KNum q => q <> q0 /\ (exists d, i_data like = Some (DDict d)) /\ o = q
  | KDict d => dget lb d = Some o
  end.
Lemma gives_truthy k like lb o : gives k like lb o -> konst_truthy k = true.
Proof.
  destruct k as [q|d]; cbn.
  - intros (H & _). rewrite qeqb_false by exact H. reflexivity.
  - destruct d; [discriminate|reflexivity].
Qed.
Lemma gives_add k like lb o v : gives k like lb o -> add_konst v k lb = Ok (Qcplus v o).
Proof. destruct k as [q|d]; cbn; [intros (_ & _ & ->); reflexivity|intros ->; reflexivity]. Qed.

(* the item before the first one *)
Definition before (c : cal) (s : series) (first : item) (t : Qc) : Prop :=
  if is_point first then exists u, s_res s = Some (RUnit u) /\ t = unit_shift c u (i_t first) (-1)
  else t = unit_shift c (i_unit first) (i_t first) (-1).
Definition leading (first : item) (t : Qc) : item :=
  mkItem (i_cls first) t (if is_point first then t else i_t first) (i_unit first) (i_tz first) None [] None.

Lemma offset_item_ok c s first t (o : string -> Qc) k : before c s first t ->
  (forall lb, In lb (item_labels first) -> gives k first lb (o lb)) ->
  offset_item c s first (item_labels first) false k =
  Ok (rebuild first (leading first t) (newdata first (postfix "csum") o) [("data_loss"%string, Some q0)]).
Proof.
  intros Hb Hg. unfold offset_item. rewrite (mapM_total _ o).
  - cbn [bind]. unfold before in Hb. unfold leading, rebuild, newdata. destruct (is_point first) eqn:Ep.
    + destruct Hb as (u & Hu & ->). rewrite Hu. reflexivity.
    + rewrite <- Hb. reflexivity.
  - intros lb Hlb. specialize (Hg lb Hlb). unfold gives in Hg. destruct k as [q|d].
    + destruct Hg as (_ & (d & ->) & ->). reflexivity.
    + rewrite Hg. reflexivity.
Qed.

Lemma wf_lead first keyf t o ixl g ixf l : numeric_item first -> inj keyf -> (forall x, In x (first :: l) -> same_item_shape first x) ->
  wf_items (first :: l) -> Qclt t (i_t first) ->
  wf_items (rebuild first (leading first t) (newdata first keyf o) ixl :: rebuilt_list first keyf g ixf 0 (first :: l)).
Proof.
  intros Hf Hi Hs Hw Ht. pose proof (rebuilt_list_wf first keyf Hf Hi g ixf 0 _ Hs Hw) as Hw'.
  set (ld := rebuild _ _ _ _). set (L := rebuilt_list _ _ _ _ _ _) in *.
  assert (Hsh : forall y, In y L -> same_item_shape ld y).
  { intros y Hy. apply rebuilt_list_In in Hy. destruct Hy as (i & x & _ & ->). apply rebuilt_shape; assumption. }
  assert (Hshape : forall a b, In a (ld :: L) -> In b (ld :: L) -> same_item_shape a b).
  { intros a b [<-|Ha] [<-|Hb]; auto using same_item_shape_sym. - apply rebuilt_shape; assumption.
    - destruct Hw' as [(_ & _ & H)|(_ & _ & _ & H)]; apply H; assumption. }
  assert (HL : exists L', L = rebuild first first (newdata first keyf (g 0 first)) (ixf first) :: L') by (unfold L, rebuilt_list; cbn; eauto).
  destruct HL as (L' & EL).
  destruct Hw' as [(H1 & H2 & H3)|(H1 & H2 & H3 & H4)]; [left|right].
  - split; [|split; [|exact Hshape]].
    + intros y [<-|Hy]; [|auto]. unfold is_point, ld. cbn. specialize (H1 (rebuild first first (newdata first keyf (g 0 first)) (ixf first))).
      rewrite EL in H1. apply H1. left; reflexivity.
    + unfold times in *. cbn [map]. apply sincr_cons. split; [|exact H2]. intros z Hz. rewrite EL in Hz, H2. cbn [map] in Hz, H2.
      apply sincr_cons in H2. destruct H2 as [H2 _]. destruct Hz as [<-|Hz]; cbn.
      * exact Ht.
      * apply (Qclt_trans _ (i_t first)); [exact Ht|]. apply (H2 z Hz).
  - assert (Hsl : is_slot first = true).
    { specialize (H1 (rebuild first first (newdata first keyf (g 0 first)) (ixf first))). rewrite EL in H1. apply H1. left; reflexivity. }
    assert (Hnp : is_point first = false) by (rewrite point_slot, Hsl; reflexivity).
    split; [|split; [|split]].
    + intros y [<-|Hy]; [exact Hsl|auto].
    + unfold contiguous in *. rewrite EL in *. apply consecutive_cons. split; [|exact H2].
      cbn. rewrite Hnp. reflexivity.
    + intros y [<-|Hy]; [|auto]. cbn. rewrite Hnp. exact Ht.
    + assert (Hu : forall y, In y L -> i_unit ld = i_unit y /\ i_tz ld = i_tz y).
      { intros y Hy. destruct (H4 (rebuild first first (newdata first keyf (g 0 first)) (ixf first)) y) as (_ & A & B);
          [rewrite EL; left; reflexivity|exact Hy|]. split; [exact A|exact B]. }
      intros a b Ha Hb. split; [apply Hshape; assumption|].
      destruct Ha as [<-|Ha], Hb as [<-|Hb].
      * split; reflexivity.
      * apply Hu, Hb.
      * destruct (Hu a Ha) as [A B]. rewrite A, B. split; reflexivity.
      * apply H4; assumption.
Qed.

Lemma csum_offset_spec e c s k t (o : string -> Qc) : parses_units e -> from_history e s -> numeric (s_items s) -> wf_items (s_items s) ->
  s_res s <> Some RVar ->
  forall x0 l0, s_items s = x0 :: l0 ->
  (forall lb, has_label x0 lb -> gives k x0 lb (o lb)) -> before c s x0 t -> Qclt t (i_t x0) ->
  exists r y0, op_csum e c s k = Ok r /\ fresh e r /\ numeric (s_items r) /\ wf_items (s_items r) /\
    nth_error (s_items r) 0 = Some y0 /\ length (s_items r) = S (length (s_items s)) /\
    i_cls y0 = i_cls x0 /\ i_t y0 = t /\ i_end y0 = (if is_point x0 then t else i_t x0) /\
    values_by x0 y0 "csum" (fun lb w => w = o lb) /\
    forall i x y, nth_error (s_items s) i = Some x -> nth_error (s_items r) (S i) = Some y ->
      same_time x y /\ i_idx y = i_idx x /\ values_by x y "csum" (fun lb w => w = Qcplus (o lb) (psum (s_items s) (S i) lb)).
Proof.
  intros He Hh Hn Hw Hres x0 l0 El Hg Hb Ht. destruct (prep_ok e s Hh Hn) as (x & l & El' & Hp).
  assert (x = x0 /\ l = l0) as [-> ->] by (rewrite El in El'; injection El' as -> ->; split; reflexivity). clear El'.
  assert (Hf : numeric_item x0) by (apply Hn; rewrite El; left; reflexivity).
  assert (Hs : forall y, In y (s_items s) -> same_item_shape x0 y).
  { intros y Hy. apply Hn; [rewrite El; left; reflexivity|exact Hy]. }
  assert (Hk : konst_truthy k = true).
  { pose proof (item_labels_nonempty _ Hf). destruct (item_labels x0) as [|lb ls] eqn:E; [congruence|].
    apply (gives_truthy k x0 lb (o lb)). apply Hg. apply item_labels_In. rewrite E. left; reflexivity. }
  set (ld := rebuild x0 (leading x0 t) (newdata x0 (postfix "csum") o) [("data_loss"%string, Some q0)]).
  set (L := rebuilt_list x0 (postfix "csum") (fun i (_ : item) lb => Qcplus (o lb) (psum (s_items s) (S i) lb)) i_idx 0 (s_items s)).
  assert (HL : int_items x0 (item_labels x0) false false q0 k (s_items s) 0 (mkInt [] None) (s_items s) = Ok L).
  { apply (int_items_csum x0 (item_labels x0) q0 k (s_items s) o); [reflexivity|exact Hf| |reflexivity|].
    - intros i lb Hi Hlb. apply val_ok; [exact Hn|eapply label_first; eassumption|exact Hi].
    - intros lb Hlb. unfold starts_from. cbn [it_last dget]. intros v.
      rewrite (gives_add k x0 lb (o lb) v) by (apply Hg, item_labels_In, Hlb). f_equal. unfold psum. cbn.
      rewrite (Qcplus_comm (o lb)), q0_plus. reflexivity. }
  assert (Hwf : wf_items (ld :: L)).
  { unfold L. rewrite El. unfold ld. apply wf_lead; [exact Hf|apply postfix_inj|rewrite <- El; exact Hs|rewrite <- El; exact Hw|exact Ht]. }
  destruct (ts_of_items_ok e _ He Hwf) as (r & Hr & Er). destruct (of_items_built _ _ _ Hr) as [Hbu _].
  exists r, ld. split; [|split; [exact Hbu|]].
  - unfold op_csum. rewrite El at 1.
    assert (E : op_integral_gen e c s false (KNum q0) k (Err NotImplementedError) = Ok r).
    { unfold op_integral_gen. rewrite Hp. cbn [bind fst snd]. rewrite Hk.
      rewrite (offset_item_ok c s x0 t o k Hb) by (intros lb Hlb; apply Hg, item_labels_In, Hlb). cbn [bind].
      rewrite HL. cbn [bind app]. exact Hr. }
    destruct (s_res s) as [[|u]|]; [congruence|exact E|exact E].
  - rewrite Er. split; [|split; [exact Hwf|]].
    + split; [discriminate|]. split.
      * intros y [<-|Hy]; [apply rebuilt_numeric; [exact Hf|apply postfix_inj]|].
        apply rebuilt_list_In in Hy. destruct Hy as (i & z & _ & ->). apply rebuilt_numeric; [exact Hf|apply postfix_inj].
      * destruct Hwf as [(_ & _ & H)|(_ & _ & _ & H)]; intros a b Ha Hb'; apply H; assumption.
    + split; [reflexivity|]. split; [cbn; f_equal; apply rebuilt_list_length|]. split; [reflexivity|]. split; [reflexivity|]. split; [reflexivity|].
      split.
      * split; [apply rebuilt_kind; apply Hs; rewrite El; left; reflexivity|]. intros lb w. unfold ld. rewrite (rebuilt_value _ _ _ _ _ _ _ Hf (postfix_inj _)).
        split; intros (lb0 & A & B & D); exists lb0; (split; [exact A|]); (split; [|exact D]); rewrite B; [|symmetry];
          apply named_outl; apply Hs; rewrite El; left; reflexivity.
      * intros i a b Ha Hb'. cbn [nth_error] in Hb'. unfold L in Hb'.
        exact (rebuilt_list_items x0 "csum" (fun i lb => Qcplus (o lb) (psum (s_items s) (S i) lb)) i_idx 0 (s_items s) i a b Hf
                 (Hs a (nth_error_In _ _ Ha)) Ha Hb').
Qed.
