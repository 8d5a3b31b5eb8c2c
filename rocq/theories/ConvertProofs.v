(* ConvertProofs.v -- lemmas on the conversions from dictionaries and JSON. *)
From Verif Require Import SpecConvert SeriesProofs SeriesProofs2 SeriesProofs3 AccessProofs DictLemmas OpsProofs3 AnomalyProofs4 SaveProofs.

Definition entry_item (w : dates) (unit : option tunit) (kv : ckey * pv) : result item :=
  do k <- key_time w (fst kv); do d <- value_data (snd kv); Ok (make_item w unit (fst k) (snd k) d).
Lemma dict_new_ok e w unit m l : mapM (entry_item w unit) m = Ok l -> forall s, foldM (add_entry e w unit) m s = foldM (fun s x => let '(s', r) := ts_append e s x in do _ <- r; Ok s') l s.
Proof.
  revert l. induction m as [|kv m IH]; intros l H s; cbn [mapM] in H; [injection H as <-; reflexivity|]. destruct (entry_item w unit kv) as [x|] eqn:E; cbn [bind] in H; [|discriminate]. destruct (mapM (entry_item w unit) m) as [xs|] eqn:M; cbn [bind] in H; [|discriminate]. injection H as <-. cbn [foldM].
  assert (A : add_entry e w unit s kv = let '(s', r) := ts_append e s x in do _ <- r; Ok s'). { unfold add_entry. unfold entry_item in E. destruct (key_time w (fst kv)) as [k|]; cbn [bind] in E |- *; [|discriminate]. destruct (value_data (snd kv)) as [d|]; cbn [bind] in E |- *; [|discriminate]. injection E as <-. reflexivity. }
  rewrite A. destruct (ts_append e s x) as [s1 [u|er]]; cbn [bind]; [|reflexivity]. apply (IH xs eq_refl).
Qed.
Lemma dict_new e w unit m : forall s s', foldM (add_entry e w unit) m s = Ok s' -> exists l, mapM (entry_item w unit) m = Ok l.
Proof.
  induction m as [|kv m IH]; intros s s' H; [exists []; reflexivity|]. cbn [foldM] in H. destruct (add_entry e w unit s kv) as [s1|] eqn:A; cbn [bind] in H; [|discriminate]. destruct (IH _ _ H) as [l L]. cbn [mapM]. unfold add_entry in A. unfold entry_item.
  destruct (key_time w (fst kv)) as [k|]; cbn [bind] in A |- *; [|discriminate]. destruct (value_data (snd kv)) as [d|]; cbn [bind] in A |- *; [|discriminate]. fold (entry_item w unit). rewrite L. cbn [bind]. eexists. reflexivity.
Qed.
Lemma key_time_iff w k tz t : key_time w k = Ok (tz, t) <-> says_time w k tz t.
Proof.
  destruct k as [z x|x|s|]; cbn.
  - split; [intros H; injection H as -> ->; auto|intros [-> ->]; reflexivity].
  - split; [intros H; injection H as <- <-; auto|intros [-> ->]; reflexivity].
  - destruct (w_float w s) as [q|].
    + split; [intros H; injection H as <- <-; auto|]. intros [-> [H|[H _]]]; [injection H as ->; reflexivity|discriminate].
    + destruct (w_read w s) as [q|]; cbn.
      * split; [intros H; injection H as <- <-; auto|]. intros [-> [H|[_ H]]]; [discriminate|injection H as ->; reflexivity].
      * split; [discriminate|]. intros [_ [H|[_ H]]]; discriminate.
  - split; [discriminate|tauto].
Qed.
Lemma numbers_iff l qs : mapM number_of l = Ok qs <-> l = map VNum qs.
Proof.
  revert qs. induction l as [|v l IH]; intros qs; cbn [mapM].
  - split; [intros H; injection H as <-; reflexivity|]. destruct qs; [reflexivity|discriminate].
  - destruct v; cbn [number_of bind]; try (split; [discriminate|destruct qs; discriminate]). destruct (mapM number_of l) as [xs|] eqn:M; cbn [bind].
    + split; [intros H; injection H as <-; cbn [map]; f_equal; apply IH; reflexivity|]. destruct qs as [|y ys]; [discriminate|]. cbn [map]. intros H. injection H as -> ->. f_equal. f_equal. assert (G : mapM number_of (map VNum ys) = Ok ys) by (clear; induction ys as [|y ys IH]; [reflexivity|cbn; rewrite IH; reflexivity]). congruence.
    + split; [discriminate|]. destruct qs as [|y ys]; [discriminate|]. cbn [map]. intros H. injection H as -> ->. assert (G : mapM number_of (map VNum ys) = Ok ys) by (clear; induction ys as [|y ys IH]; [reflexivity|cbn; rewrite IH; reflexivity]). congruence.
Qed.
Lemma pairs_ok (d : list (string * Qc)) : mapM entry_of_pair (map (fun kv => (KS (fst kv), VNum (snd kv))) d) = Ok d.
Proof. induction d as [|[k q] d IH]; [reflexivity|]. cbn. rewrite IH. reflexivity. Qed.
Lemma pairs_iff l qs : mapM entry_of_pair l = Ok qs <-> l = map (fun kv => (KS (fst kv), VNum (snd kv))) qs.
Proof.
  split; [|intros ->; apply pairs_ok]. revert qs. induction l as [|[k v] l IH]; intros qs; cbn [mapM]; [intros H; injection H as <-; reflexivity|].
  unfold entry_of_pair at 1. cbn [fst snd]. destruct v; cbn [number_of bind]; try discriminate. destruct k; cbn [bind]; [|discriminate]. destruct (mapM entry_of_pair l) as [xs|] eqn:M; cbn [bind]; [|discriminate]. intros H. injection H as <-. cbn [map fst snd]. f_equal. apply IH. reflexivity.
Qed.
Lemma value_data_iff v d : value_data v = Ok d <-> says_data v d.
Proof.
  destruct v; cbn [value_data number_of bind].
  - split; [discriminate|]. destruct d as [l|m]; cbn; [discriminate|]. intros [H|(q & H & _)]; discriminate.
  - split; [discriminate|]. destruct d as [l|m]; cbn; [discriminate|]. intros [H|(q & H & _)]; discriminate.
  - split; [intros H; injection H as <-; cbn; right; eauto|]. destruct d as [l|m]; cbn; [discriminate|]. intros [H|(q0 & H & ->)]; [discriminate|]. injection H as ->. reflexivity.
  - split; [discriminate|]. destruct d as [l|m]; cbn; [discriminate|]. intros [H|(q & H & _)]; discriminate.
  - destruct (mapM number_of l) as [qs|] eqn:M; cbn [bind].
    + apply numbers_iff in M. subst l. split; [intros H; injection H as <-; reflexivity|]. destruct d as [l|m]; cbn; [|intros [H|(q & H & _)]; discriminate]. intros H. injection H as H. f_equal. f_equal. revert l H. induction qs as [|a qs IH]; intros [|b l] H; try discriminate; [reflexivity|]. cbn in H. injection H as -> H. f_equal. apply IH. exact H.
    + split; [discriminate|]. destruct d as [l'|m]; cbn; [|intros [H|(q & H & _)]; discriminate]. intros H. injection H as ->. assert (G := proj2 (numbers_iff (map VNum l') l') eq_refl). congruence.
  - destruct (mapM entry_of_pair d0) as [qs|] eqn:M; cbn [bind].
    + apply pairs_iff in M. subst d0. split; [intros H; injection H as <-; left; reflexivity|]. destruct d as [l|m]; cbn; [discriminate|]. intros [H|(q & H & _)]; [|discriminate]. injection H as H. f_equal. f_equal. revert m H. induction qs as [|[a x] qs IH]; intros [|[b y] m] H; try discriminate; [reflexivity|]. cbn in H. injection H as -> -> H. f_equal. apply IH. exact H.
    + split; [discriminate|]. destruct d as [l'|m]; cbn; [discriminate|]. intros [H|(q & H & _)]; [|discriminate]. injection H as ->. rewrite pairs_ok in M. discriminate.
  - split; [discriminate|]. destruct d as [l|m]; cbn; [discriminate|]. intros [H|(q & H & _)]; discriminate.
  - split; [discriminate|]. destruct d as [l|m]; cbn; [discriminate|]. intros [H|(q & H & _)]; discriminate.
Qed.
Lemma make_item_is w unit tz t d : is_item w unit tz t d (make_item w unit tz t d).
Proof. destruct unit; cbn; repeat split; reflexivity. Qed.
Lemma unit_given_iff ut a unit : unit_given ut a = Ok unit <-> asks_unit ut a unit.
Proof.
  destruct a as [|u|s]; cbn.
  - split; [intros H; injection H as <-; reflexivity|intros ->; reflexivity].
  - split; [intros H; injection H as <-; reflexivity|intros ->; reflexivity].
  - destruct (String.eqb_spec s "") as [E|E].
    + split; [intros H; injection H as <-; auto|]. intros [[_ ->]|[N _]]; [reflexivity|contradiction].
    + destruct (ut_parse ut s) as [u|]; cbn [bind].
      * split; [intros H; injection H as <-; right; eauto|]. intros [[X _]|(_ & v & H & ->)]; [contradiction|]. injection H as ->. reflexivity.
      * split; [discriminate|]. intros [[X _]|(_ & v & H & _)]; [contradiction|discriminate].
Qed.
(* the items made *)
Lemma from_dict_items e w ut m a s : from_dict e w ut m a = Ok s -> exists unit, asks_unit ut a unit /\ ts_new e None (s_items s) = Ok s /\
  Forall2 (fun kv x => exists tz t d, says_time w (fst kv) tz t /\ says_data (snd kv) d /\ is_item w unit tz t d x) m (s_items s).
Proof.
  unfold from_dict. destruct (unit_given ut a) as [unit|] eqn:U; cbn [bind]; [|discriminate]. intros H. exists unit. split; [apply unit_given_iff; exact U|]. destruct (dict_new e w unit m _ _ H) as [l L]. rewrite (dict_new_ok e w unit m l L) in H. change (ts_new e None l = Ok s) in H. pose proof (ts_new_items e None l s H) as I. rewrite I. split; [exact H|].
  apply mapM_F2 in L. eapply LstmProofs.F2_impl; [|exact L]. intros kv x E. unfold entry_item in E. destruct (key_time w (fst kv)) as [[tz t]|] eqn:K; cbn [bind] in E; [|discriminate]. destruct (value_data (snd kv)) as [d|] eqn:V; cbn [bind] in E; [|discriminate]. injection E as <-. exists tz, t, d. split; [apply key_time_iff; exact K|]. split; [apply value_data_iff; exact V|]. apply make_item_is.
Qed.
Lemma from_dict_total e w ut m a unit l : asks_unit ut a unit -> parses_units e -> wf_items l ->
  Forall2 (fun kv x => exists tz t d, says_time w (fst kv) tz t /\ says_data (snd kv) d /\ x = make_item w unit tz t d) m l -> exists s, from_dict e w ut m a = Ok s /\ s_items s = l.
Proof.
  intros U P W F. unfold from_dict. rewrite (proj2 (unit_given_iff ut a unit) U). cbn [bind].
  assert (M : mapM (entry_item w unit) m = Ok l). { clear - F. induction F as [|kv x m l (tz & t & d & K & V & ->) F IH]; [reflexivity|]. cbn [mapM]. unfold entry_item at 1. rewrite (proj2 (key_time_iff w (fst kv) tz t) K), (proj2 (value_data_iff (snd kv) d) V). cbn [bind fst snd]. rewrite IH. reflexivity. }
  rewrite (dict_new_ok e w unit m l M). destruct (ts_of_items_ok e l P W) as (s & E & I). exists s. split; [exact E|exact I].
Qed.

(* ---- JSON ---- *)
Lemma dumps_data d : exists j, dumps (data_value d) = Ok j /\ (match d with DDict m => NoDup (map fst m) | DList _ => True end -> loads j = data_value d).
Proof.
  destruct d as [l|m]; cbn [data_value].
  - exists (JArr (map JNum l)). split.
    + cbn [dumps]. assert (G : (fix go l := match l with [] => Ok [] | x :: r => do j <- dumps x; do js <- go r; Ok (j :: js) end) (map VNum l) = Ok (map JNum l)) by (induction l as [|q l IH]; [reflexivity|cbn [map dumps bind]; rewrite IH; reflexivity]). rewrite G. reflexivity.
    + intros _. cbn [loads]. rewrite map_map. reflexivity.
  - exists (JObj (map (fun kv => (fst kv, JNum (snd kv))) m)). split.
    + cbn [dumps]. assert (G : (fix go d := match d with [] => Ok [] | (k, x) :: r => do j <- dumps x; do js <- go r; Ok ((key_str k, j) :: js) end) (map (fun kv : string * Qc => (KS (fst kv), VNum (snd kv))) m) = Ok (map (fun kv => (fst kv, JNum (snd kv))) m)) by (induction m as [|[k q] m IH]; [reflexivity|cbn [map dumps bind fst snd key_str]; rewrite IH; reflexivity]). rewrite G. reflexivity.
    + intros N. cbn [loads]. rewrite map_map. cbn [fst snd loads]. rewrite dict_of_NoDup; [rewrite map_map; reflexivity|]. rewrite map_map. exact N.
Qed.
Lemma dumps_dict (m : list (string * data)) : exists js, dumps (VDict (map (fun kv => (KS (fst kv), data_value (snd kv))) m)) = Ok (JObj js) /\
  (NoDup (map fst m) -> (forall kv, In kv m -> match snd kv with DDict d => NoDup (map fst d) | DList _ => True end) -> loads (JObj js) = VDict (map (fun kv => (KS (fst kv), data_value (snd kv))) m)).
Proof.
  assert (H : exists js, (fix go d := match d with [] => Ok [] | (k, x) :: r => do j <- dumps x; do js <- go r; Ok ((key_str k, j) :: js) end) (map (fun kv : string * data => (KS (fst kv), data_value (snd kv))) m) = Ok js /\ ((forall kv, In kv m -> match snd kv with DDict d => NoDup (map fst d) | DList _ => True end) -> map (fun kv => (fst kv, loads (snd kv))) js = map (fun kv => (fst kv, data_value (snd kv))) m)).
  { induction m as [|[k d] m IH]; [exists []; split; reflexivity|]. destruct IH as (js & E & L). destruct (dumps_data d) as (j & J & LJ). exists ((k, j) :: js). cbn [map fst snd]. rewrite J. cbn [bind]. rewrite E. cbn [bind key_str]. split; [reflexivity|]. intros N. cbn [map fst snd]. rewrite LJ by (apply (N (k, d)); left; reflexivity). f_equal. apply L. intros kv Hkv. apply N. right. exact Hkv. }
  destruct H as (js & E & L). exists js. split; [cbn [dumps]; rewrite E; reflexivity|]. intros N A. cbn [loads]. rewrite (L A). rewrite dict_of_NoDup; [rewrite map_map; reflexivity|]. rewrite map_map. exact N.
Qed.
Lemma json_object w s : strictly_increasing (times (s_items s)) -> (forall x, In x (s_items s) -> readable_date w x /\ labels_once x) ->
  exists j, to_json w s = Ok j /\ loads j = VDict (map (fun x => (KS (w_text w (i_tz x) (i_t x)), data_value (match i_data x with Some d => d | None => DList [] end))) (s_items s)).
Proof.
  intros SI H. unfold to_json. set (l := s_items s) in *. set (f := fun m x => do d <- item_data x; Ok (dset (w_text w (i_tz x) (w_epoch w (i_t x))) (data_value d) m)).
  set (name := fun x => w_text w (i_tz x) (i_t x)). set (dat := fun x => match i_data x with Some d => d | None => DList [] end).
  assert (INJ : forall x y, In x l -> In y l -> name x = name y -> i_t x = i_t y). { intros x y Hx Hy E. destruct (H x Hx) as [(_ & _ & A) _]. destruct (H y Hy) as [(_ & _ & B) _]. fold (name x) in A. fold (name y) in B. congruence. }
  assert (ND : NoDup (map name l)). { clear - SI INJ. unfold times in SI. induction l as [|x l IH]; [constructor|]. cbn [map] in *. constructor; [|apply IH; [apply (sincr_app [i_t x] (map i_t l)) in SI; apply SI|intros a b Ha Hb; apply INJ; right; assumption]]. intros I. apply in_map_iff in I. destruct I as (y & E & Hy). assert (T : i_t y = i_t x) by (apply INJ; [right; exact Hy|left; reflexivity|exact E]). apply (sincr_app [i_t x] (map i_t l)) in SI. destruct SI as (_ & _ & SI). specialize (SI (i_t x) (i_t y) (or_introl eq_refl) (in_map i_t _ _ Hy)). rewrite T in SI. exfalso. qlra. }
  assert (G : forall a b, l = a ++ b -> foldM f b (map (fun x => (name x, data_value (dat x))) a) = Ok (map (fun x => (name x, data_value (dat x))) l)).
  { intros a b. revert a. induction b as [|x b IH]; intros a E; [rewrite app_nil_r in E; rewrite E; reflexivity|]. cbn [foldM]. assert (Ix : In x l) by (rewrite E; apply in_or_app; right; left; reflexivity). destruct (H x Ix) as [(EP & _ & _) LO]. unfold f at 1, item_data. destruct (i_data x) as [d|] eqn:D; [|unfold labels_once in LO; rewrite D in LO; destruct LO]. cbn [bind]. rewrite EP. fold (name x).
    rewrite dset_fresh.
    - assert (EX : map (fun x0 => (name x0, data_value (dat x0))) a ++ [(name x, data_value d)] = map (fun x0 => (name x0, data_value (dat x0))) (a ++ [x])) by (rewrite map_app; cbn [map]; unfold dat at 3; rewrite D; reflexivity). rewrite EX. apply IH. rewrite <- app_assoc. exact E.
    - rewrite map_map. cbn [fst]. intros I. rewrite E, map_app in ND. cbn [map] in ND. apply NoDup_remove_2 in ND. apply ND. apply in_or_app. left. exact I. }
  assert (G0 := G [] l eq_refl). cbn [map] in G0. fold f. rewrite G0. cbn [bind]. rewrite map_map. cbn [fst snd].
  destruct (dumps_dict (map (fun x => (name x, dat x)) l)) as (js & E & L). rewrite map_map in E, L. cbn [fst snd] in E, L. rewrite E. exists (JObj js). split; [reflexivity|]. rewrite map_map in L. cbn [fst] in L. rewrite L; [reflexivity|exact ND|]. intros kv Hkv. apply in_map_iff in Hkv. destruct Hkv as (x & <- & Hx). cbn [snd]. destruct (H x Hx) as [_ LO]. unfold labels_once in LO. unfold dat. destruct (i_data x) as [[q|q]|]; [exact Logic.I|exact LO|destruct LO].
Qed.
Lemma json_items w unit l : (forall x, In x l -> readable_date w x /\ labels_once x) ->
  Forall2 (fun kv x => exists tz t d, says_time w (fst kv) tz t /\ says_data (snd kv) d /\ x = make_item w unit tz t d)
    (map (fun kv => (json_key (fst kv), snd kv)) (map (fun x => (KS (w_text w (i_tz x) (i_t x)), data_value (match i_data x with Some d => d | None => DList [] end))) l))
    (map (fun x => make_item w unit "UTC" (i_t x) (match i_data x with Some d => d | None => DList [] end)) l).
Proof.
  intros H. induction l as [|x l IH]; [constructor|]. cbn [map fst snd json_key]. constructor; [|apply IH; intros y Hy; apply H; right; exact Hy]. destruct (H x (or_introl eq_refl)) as [(_ & A & B) LO]. eexists. eexists. eexists. split; [|split; [|reflexivity]].
  - cbn [says_time]. split; [reflexivity|]. right. split; assumption.
  - unfold labels_once in LO. destruct (i_data x) as [[q|q]|]; [reflexivity|left; reflexivity|destruct LO].
Qed.
