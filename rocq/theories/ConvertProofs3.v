(* ConvertProofs3.v -- JSON documents and data frames which are read back. *)
From Verif Require Import SpecConvert SeriesProofs SeriesProofs2 SeriesProofs3 AccessProofs DictLemmas OpsProofs OpsProofs3 InterpProofs AnomalyProofs4 SpecRecon ReconProofs4 LstmProofs LstmProofs3 LstmProofs4 LstmProofs5 SaveProofs ConvertProofs ConvertProofs2.

Lemma F2_times (R : item -> item -> Prop) l l' : (forall x y, R x y -> i_t y = i_t x) -> Forall2 R l l' -> times l' = times l.
Proof. intros H. induction 1 as [|x y l l' X F IH]; [reflexivity|]. unfold times in *. cbn. rewrite IH, (H x y X). reflexivity. Qed.
Lemma points_copied l l' : wf_points l -> Forall2 (fun x y => i_t y = i_t x /\ i_cls y = CDataTimePoint) l l' -> (forall x y, In x l' -> In y l' -> same_item_shape x y) -> wf_points l'.
Proof.
  intros (_ & SI & _) F SH. split; [|split; [|exact SH]].
  - intros y Hy. destruct (F2_In_r _ _ _ y F Hy) as (x & _ & _ & C). unfold is_point. rewrite C. reflexivity.
  - rewrite (F2_times _ l l' (fun x y H => proj1 H) F). exact SI.
Qed.
Lemma slots_copied l l' u tz : wf_slots l -> Forall2 (fun x y => i_t y = i_t x /\ i_end y = i_end x /\ i_cls y = CDataTimeSlot /\ i_unit y = u /\ i_tz y = tz) l l' -> (forall x y, In x l' -> In y l' -> same_item_shape x y) -> wf_slots l'.
Proof.
  intros (_ & CO & PO & _) F SH. split; [|split; [|split]].
  - intros y Hy. destruct (F2_In_r _ _ _ y F Hy) as (x & _ & _ & _ & C & _). unfold is_slot. rewrite C. reflexivity.
  - intros i a b A B. destruct (F2_get_r _ _ _ F _ _ A) as (a' & A' & T & E & _). destruct (F2_get_r _ _ _ F _ _ B) as (b' & B' & T' & _). rewrite T', E. apply (CO i); assumption.
  - intros y Hy. destruct (F2_In_r _ _ _ y F Hy) as (x & Hx & T & E & _). rewrite T, E. apply PO. exact Hx.
  - intros x y Hx Hy. split; [apply SH; assumption|]. destruct (F2_In_r _ _ _ x F Hx) as (x' & _ & _ & _ & _ & U & Z). destruct (F2_In_r _ _ _ y F Hy) as (y' & _ & _ & _ & _ & U' & Z'). split; congruence.
Qed.
Lemma with_data x : labels_once x -> exists d, i_data x = Some d.
Proof. unfold labels_once. destruct (i_data x) as [d|]; [eauto|tauto]. Qed.

(* ---- JSON ---- *)
Definition back (w : dates) (unit : option tunit) (x : item) : item := make_item w unit "UTC" (i_t x) (match i_data x with Some d => d | None => DList [] end).
Lemma shapes_back w unit l : (forall x, In x l -> labels_once x) -> (forall x y, In x l -> In y l -> same_item_shape x y) -> forall x y, In x (map (back w unit) l) -> In y (map (back w unit) l) -> same_item_shape x y.
Proof.
  intros LO SH x y Hx Hy. apply in_map_iff in Hx. destruct Hx as (a & <- & Ha). apply in_map_iff in Hy. destruct Hy as (b & <- & Hb). destruct (SH a b Ha Hb) as [_ S]. destruct (with_data a (LO a Ha)) as [d D]. destruct (with_data b (LO b Hb)) as [d' D']. rewrite D, D' in S. unfold same_item_shape, back. rewrite D, D'. destruct unit; cbn; (split; [reflexivity|exact S]).
Qed.
Lemma json_back e w ut s unit a : parses_units e -> wf_items (s_items s) -> strictly_increasing (times (s_items s)) -> (forall x, In x (s_items s) -> readable_date w x /\ labels_once x) -> asks_unit ut a unit -> wf_items (map (back w unit) (s_items s)) ->
  exists j s', to_json w s = Ok j /\ from_json e w ut j a = Ok s' /\ s_items s' = map (back w unit) (s_items s).
Proof.
  intros P W SI R U W'. destruct (json_object w s SI R) as (j & J & L). pose proof (json_items w unit (s_items s) R) as F. destruct (from_dict_total e w ut _ a unit _ U P W' F) as (s' & E & I). exists j, s'. split; [exact J|]. split; [|exact I]. unfold from_json. rewrite L. exact E.
Qed.
Lemma back_is w unit x d : i_data x = Some d -> is_item w unit "UTC" (i_t x) d (back w unit x).
Proof. intros D. unfold back. rewrite D. apply make_item_is. Qed.

(* ---- data frames ---- *)
Lemma values_row e s labels x : ready e s -> labels_of s = Ok labels -> In x (s_items s) -> exists vs, mapM (data_at x) labels = Ok vs /\ Forall2 (has_value x) labels vs.
Proof.
  intros R L I. destruct (ready_labels_of e s labels R L) as [_ HL]. assert (T : forall lb, In lb labels -> exists v, data_at x lb = Ok v /\ has_value x lb v). { intros lb Hlb. apply (HL x lb I) in Hlb. destruct Hlb as [v V]. exists v. split; [apply (ready_value e s); assumption|exact V]. }
  clear HL L. induction labels as [|lb labels IH]; [exists []; split; [reflexivity|constructor]|]. destruct (T lb (or_introl eq_refl)) as (v & V & HV). destruct IH as (vs & M & F); [intros q Hq; apply T; right; exact Hq|]. exists (v :: vs). split; [cbn [mapM]; rewrite V; cbn [bind]; rewrite M; reflexivity|constructor; assumption].
Qed.
Lemma alike_apart l : losses_alike l -> losses_apart l.
Proof. intros [H|H] x y Hx Hy L; [rewrite (H x Hx) in L; congruence|apply (H y Hy)]. Qed.
Lemma told_unique e s x lb a b : ready e s -> losses_apart (s_items s) -> In x (s_items s) -> told x lb a -> told x lb b -> a = b.
Proof.
  intros R LA I A B. assert (W := ready_dict e s x R I). destruct A as [A|[E A]], B as [B|[E' B]]; [apply (has_value_unique x lb); assumption| | |congruence].
  - exfalso. apply (LA x x I I); [congruence|]. exists a. subst lb. exact A.
  - exfalso. apply (LA x x I I); [congruence|]. exists b. subst lb. exact B.
Qed.
(* the frame of a series *)
Lemma frame_of e w infer s : ready e s -> losses_apart (s_items s) -> (forall x, In x (s_items s) -> w_epoch w (i_t x) = i_t x) ->
  exists df, to_df w infer s = Ok df /\ NoDup (fr_columns df) /\ fr_freq df = infer (map (fun x => Aware (i_tz x) (i_t x)) (s_items s)) /\ (forall lb, In lb (fr_columns df) <-> exists x v, In x (s_items s) /\ told x lb v) /\
  Forall2 (fun x r => fst r = Aware (i_tz x) (i_t x) /\ Forall2 (fun lb c => forall v, c = Some v <-> told x lb v) (fr_columns df) (snd r)) (s_items s) (fr_rows df).
Proof.
  intros R LA EP. pose proof R as ((tz & B) & N & _). assert (RM : ref_missing s = false) by (apply (history_ref e); [apply built_history; [exists tz; exact B|exact N]|exact N]). destruct (labels_of_ok s RM N) as (x0 & l0 & E0 & L). destruct (ready_labels_of e s _ R L) as [ND HL]. assert (I0 : In x0 (s_items s)) by (rewrite E0; left; reflexivity).
  set (labels := item_labels x0) in *. unfold to_df. rewrite L. cbn [bind]. set (dump := existsb has_loss (s_items s)). set (row := fun x => do vs <- mapM (data_at x) labels; Ok (Aware (i_tz x) (w_epoch w (i_t x)), map Some vs ++ (if dump then [data_loss x] else []))). set (cols := labels ++ (if dump then ["data_loss"%string] else [])).
  assert (DU : dump = true -> exists x v, In x (s_items s) /\ data_loss x = Some v). { intros D. unfold dump in D. apply existsb_exists in D. destruct D as (y & Iy & H). unfold has_loss in H. destruct (data_loss y) as [v|] eqn:V; [|discriminate]. exists y, v. auto. }
  assert (DN : dump = false -> forall x, In x (s_items s) -> data_loss x = None). { intros D x I. destruct (data_loss x) as [v|] eqn:E; [|reflexivity]. exfalso. assert (X : dump = true) by (unfold dump; apply existsb_exists; exists x; split; [exact I|unfold has_loss; rewrite E; reflexivity]). congruence. }
  assert (NI : dump = true -> ~ In "data_loss"%string labels). { intros D X. destruct (DU D) as (y & v & Iy & V). apply (LA y x0 Iy I0); [congruence|]. apply (HL x0 _ I0). exact X. }
  assert (RO : forall x, In x (s_items s) -> exists cs, row x = Ok (Aware (i_tz x) (i_t x), cs) /\ Forall2 (fun lb c => forall v, c = Some v <-> told x lb v) cols cs).
  { intros x I. destruct (values_row e s labels x R L I) as (vs & M & F). unfold row. rewrite M, (EP x I). cbn [bind]. eexists. split; [reflexivity|].
    assert (FV : Forall2 (fun lb c => forall v, c = Some v <-> told x lb v) labels (map Some vs)).
    { clear - F R LA I. induction F as [|lb v0 ls vs V F IH]; cbn [map]; [constructor|]. constructor; [|exact IH]. intros v. split; [intros E; injection E as <-; left; exact V|]. intros T. f_equal. apply (told_unique e s x lb); [exact R|exact LA|exact I|left; exact V|exact T]. }
    unfold cols. apply Forall2_app; [exact FV|]. destruct dump eqn:D; [|constructor]. constructor; [|constructor]. intros v. split; [intros E; right; auto|]. intros [V|[_ V]]; [|exact V]. exfalso. apply (NI eq_refl). apply (HL x _ I). exists v. exact V. }
  assert (M : exists rows, mapM row (s_items s) = Ok rows /\ map fst rows = map (fun x => Aware (i_tz x) (i_t x)) (s_items s) /\ Forall2 (fun x r => fst r = Aware (i_tz x) (i_t x) /\ Forall2 (fun lb c => forall v, c = Some v <-> told x lb v) cols (snd r)) (s_items s) rows).
  { clearbody row cols. clear - RO. induction (s_items s) as [|x l IH]; [exists []; split; [reflexivity|split; [reflexivity|constructor]]|]. destruct (RO x (or_introl eq_refl)) as (cs & E & F). destruct IH as (rows & M & A & B); [intros y Hy; apply RO; right; exact Hy|]. exists ((Aware (i_tz x) (i_t x), cs) :: rows). split; [cbn [mapM]; rewrite E; cbn [bind]; rewrite M; reflexivity|]. split; [cbn; f_equal; exact A|]. constructor; [|exact B]. cbn. auto. }
  destruct M as (rows & M & A & F). rewrite M. cbn [bind]. eexists. split; [reflexivity|]. cbn [fr_columns fr_freq fr_rows]. fold cols. split; [|split; [rewrite A; reflexivity|split; [|exact F]]].
  - unfold cols. destruct dump eqn:D; [|rewrite app_nil_r; exact ND]. specialize (NI eq_refl). clear - ND NI. induction labels as [|a l IH]; [cbn; constructor; [intros []|constructor]|]. cbn. inversion ND as [|? ? NA ND']; subst. constructor; [|apply IH; [exact ND'|intros X; apply NI; right; exact X]]. intros X. apply in_app_or in X. destruct X as [X|[X|[]]]; [contradiction|]. apply NI. left. symmetry. exact X.
  - intros lb. unfold cols. rewrite in_app_iff. split.
    + intros [X|X]; [apply (HL x0 lb I0) in X; destruct X as [v V]; exists x0, v; split; [exact I0|left; exact V]|]. destruct dump eqn:D; [|destruct X]. destruct X as [<-|[]]. destruct (DU eq_refl) as (y & v & Iy & V). exists y, v. split; [exact Iy|right; auto].
    + intros (x & v & I & [V|[-> V]]); [left; apply (HL x lb I); exists v; exact V|]. right. destruct dump eqn:D; [left; reflexivity|]. rewrite (DN eq_refl x I) in V. discriminate.
Qed.
(* all the items have the same labels, also with the data loss *)
Lemma alike_cells e s x cols cs : ready e s -> losses_alike (s_items s) -> In x (s_items s) -> (forall lb, In lb cols <-> exists x v, In x (s_items s) /\ told x lb v) ->
  Forall2 (fun lb c => forall v, c = Some v <-> told x lb v) cols cs -> exists qs, cs = map Some qs /\ Forall2 (told x) cols qs.
Proof.
  intros R LA I HC F. assert (T : forall lb, In lb cols -> exists v, told x lb v). { intros lb X. apply HC in X. destruct X as (y & v & Iy & [V|[-> V]]).
    - destruct (same_labels e s y x lb R Iy I (ex_intro _ v V)) as [v' V']. exists v'. left. exact V'.
    - destruct LA as [LA|LA]; [rewrite (LA y Iy) in V; discriminate|]. destruct (LA x I) as [[v' V'] _]. exists v'. right. auto. }
  clear HC. induction F as [|lb c cols cs H F IH]; [exists []; split; [reflexivity|constructor]|]. destruct IH as (qs & -> & G); [intros q Hq; apply T; right; exact Hq|]. destruct (T lb (or_introl eq_refl)) as [v V]. exists (v :: qs). split; [cbn; f_equal; apply H; exact V|constructor; assumption].
Qed.
Lemma frame_back e w ut infer s a unit f : parses_units e -> ready e s -> losses_alike (s_items s) -> (forall x, In x (s_items s) -> w_epoch w (i_t x) = i_t x) ->
  infer (map (fun x => Aware (i_tz x) (i_t x)) (s_items s)) = Ok f -> decided ut f a = Ok unit ->
  match unit with None => wf_points (s_items s) | Some u => wf_slots (s_items s) /\ forall x, In x (s_items s) -> w_end w (i_tz x) u (i_t x) = i_end x end ->
  exists df s', to_df w infer s = Ok df /\ from_df e w ut df a = Ok s' /\
  Forall2 (fun x y => (exists d, is_item w unit (i_tz x) (i_t x) d y) /\ forall lb v, has_value y lb v <-> told x lb v) (s_items s) (s_items s').
Proof.
  intros P R LA EP INF D K. pose proof (alike_apart _ LA) as LX. destruct (frame_of e w infer s R LX EP) as (df & E & ND & FR & HC & F0). exists df.
  assert (F : Forall2 (fun x r => fst r = Aware (i_tz x) (i_t x) /\ exists qs, snd r = map Some qs /\ Forall2 (told x) (fr_columns df) qs) (s_items s) (fr_rows df)).
  { assert (G : forall x r, In x (s_items s) -> Forall2 (fun lb c => forall v, c = Some v <-> told x lb v) (fr_columns df) r -> exists qs, r = map Some qs /\ Forall2 (told x) (fr_columns df) qs) by (intros x r I H; apply (alike_cells e s x (fr_columns df) r R LA I HC H)). clear - F0 G. induction F0 as [|x r l rows [A H] F IH]; [constructor|]. constructor; [split; [exact A|apply G; [left; reflexivity|exact H]]|apply IH; intros a b Ha; apply G; right; exact Ha]. }
  assert (M : exists l, mapM (row_item w unit (fr_columns df)) (fr_rows df) = Ok l /\ Forall2 (fun x y => exists qs, y = make_item w unit (i_tz x) (i_t x) (DDict (combine (fr_columns df) qs)) /\ Forall2 (told x) (fr_columns df) qs) (s_items s) l).
  { clear - F ND. induction F as [|x r l rows (A & qs & B & T) F IH]; [exists []; split; [reflexivity|constructor]|]. destruct IH as (l' & M & G). exists (make_item w unit (i_tz x) (i_t x) (DDict (combine (fr_columns df) qs)) :: l'). split; [|constructor; [exists qs; auto|exact G]]. cbn [mapM]. unfold row_item at 1, row_data. rewrite A, B. cbn [stamp_time bind fst snd]. rewrite (proj2 (cells_ok (map Some qs) qs) eq_refl). cbn [bind]. rewrite dict_of_NoDup by (rewrite combine_fst; [exact ND|apply (F2_len _ _ _ T)]). rewrite M. reflexivity. }
  destruct M as (l & M & G). assert (SH : forall x y, In x l -> In y l -> same_item_shape x y). { intros x y Hx Hy. destruct (F2_In_r _ _ _ x G Hx) as (x' & _ & qs & -> & T). destruct (F2_In_r _ _ _ y G Hy) as (y' & _ & qs' & -> & T'). unfold same_item_shape, make_item. destruct unit; cbn; (split; [reflexivity|]); rewrite !combine_fst by (eapply F2_len; eassumption); reflexivity. }
  assert (W : wf_items l). { destruct unit as [u|].
    - right. destruct K as [K KE]. destruct (s_items s) as [|x1 l1] eqn:EI; [destruct R as (_ & (NE & _) & _); congruence|]. apply (slots_copied (x1 :: l1) l u (i_tz x1)); [exact K| |exact SH]. assert (G' : Forall2 (fun x y => In x (x1 :: l1) /\ exists qs, y = make_item w (Some u) (i_tz x) (i_t x) (DDict (combine (fr_columns df) qs))) (x1 :: l1) l). { assert (X : forall m, incl m (x1 :: l1) -> forall m', Forall2 (fun x y => exists qs, y = make_item w (Some u) (i_tz x) (i_t x) (DDict (combine (fr_columns df) qs)) /\ Forall2 (told x) (fr_columns df) qs) m m' -> Forall2 (fun x y => In x (x1 :: l1) /\ exists qs, y = make_item w (Some u) (i_tz x) (i_t x) (DDict (combine (fr_columns df) qs))) m m'). { intros m IN m' H. induction H as [|x y m m' (qs & Y & _) H IH]; [constructor|]. constructor; [split; [apply IN; left; reflexivity|eauto]|apply IH; intros z Hz; apply IN; right; exact Hz]. } apply (X _ (incl_refl _) _ G). }
      eapply F2_impl; [|exact G']. intros x y (I & qs & ->). cbn. split; [reflexivity|]. split; [apply KE; exact I|]. split; [reflexivity|]. split; [reflexivity|]. destruct K as (_ & _ & _ & K). apply (K x x1 I (or_introl eq_refl)).
    - left. apply (points_copied (s_items s) l K); [|exact SH]. eapply F2_impl; [|exact G]. intros x y (qs & -> & _). cbn. auto. }
  destruct (ts_of_items_ok e l P W) as (s' & E' & I'). exists s'. split; [exact E|]. split; [rewrite from_df_unfold, FR, INF; cbn [bind]; rewrite D; cbn [bind]; rewrite M; exact E'|]. rewrite I'.
  assert (GI : forall x y, In x (s_items s) -> (exists qs, y = make_item w unit (i_tz x) (i_t x) (DDict (combine (fr_columns df) qs)) /\ Forall2 (told x) (fr_columns df) qs) -> (exists d, is_item w unit (i_tz x) (i_t x) d y) /\ forall lb v, has_value y lb v <-> told x lb v).
  { intros x y I (qs & -> & T). split; [eexists; apply make_item_is|]. intros lb v. assert (HD : has_value (make_item w unit (i_tz x) (i_t x) (DDict (combine (fr_columns df) qs))) lb v <-> In (lb, v) (combine (fr_columns df) qs)) by (unfold has_value, make_item; destruct unit; cbn; reflexivity). rewrite HD, combine_nth. split.
    - intros (i & A & B). destruct (F2_get _ _ _ T i lb A) as (v' & B' & V). rewrite B in B'. injection B' as <-. exact V.
    - intros V. assert (C : In lb (fr_columns df)) by (apply HC; exists x, v; auto). apply In_nth_error in C. destruct C as [i A]. destruct (F2_get _ _ _ T i lb A) as (v' & B & V'). exists i. split; [exact A|]. rewrite (told_unique e s x lb v v' R LX I V V'). exact B. }
  clear - G GI. induction G as [|x y l l' H G IH]; [constructor|]. constructor; [apply GI; [left; reflexivity|exact H]|apply IH; intros a b Ha; apply GI; right; exact Ha].
Qed.
