(* SaveProofs3.v -- periodic averages and nested models, saved and loaded. *)
From Verif Require Import SpecSave BaseLemmas PropTactics DictLemmas SaveProofs SaveProofs2.

(* ---------------- the keys of fitted averages ---------------- *)

Lemma zset_keys {V} k (v : V) d : map fst (zset k v d) = if existsb (Z.eqb k) (map fst d) then map fst d else map fst d ++ [k].
Proof. induction d as [|[a x] d IH]; [reflexivity|]. cbn [zset map fst existsb]. destruct (Z.eqb_spec k a) as [->|N]; cbn [map fst orb]; [reflexivity|]. rewrite IH. destruct (existsb (Z.eqb k) (map fst d)); reflexivity. Qed.
Lemma zset_NoDup {V} k (v : V) d : NoDup (map fst d) -> NoDup (map fst (zset k v d)).
Proof.
  intros N. rewrite zset_keys. destruct (existsb (Z.eqb k) (map fst d)) eqn:E; [exact N|]. apply NoDup_app_comm || idtac.
  assert (Q : ~ In k (map fst d)) by (intros I; assert (X : existsb (Z.eqb k) (map fst d) = true) by (apply existsb_exists; exists k; split; [exact I|apply Z.eqb_refl]); rewrite X in E; discriminate).
  clear E. induction (map fst d) as [|a l IH]; cbn [app]; [constructor; [intros []|constructor]|]. inversion N as [|? ? N1 N2]; subst. constructor; [|apply IH; [exact N2|intros I; apply Q; right; exact I]]. intros I. apply in_app_iff in I. destruct I as [I|[I|[]]]; [contradiction|]. apply Q. left. symmetry. exact I.
Qed.
Lemma sums_NoDup idx limit lb l : forall acc r, NoDup (map fst acc) -> foldM (add_to_sums idx limit lb) l acc = Ok r -> NoDup (map fst r).
Proof.
  induction l as [|x l IH]; intros acc r N H; cbn [foldM] in H; [injection H as <-; exact N|]. unfold add_to_sums at 1 in H. destruct (left_out limit x) as [[|]|]; cbn [bind] in H; [exact (IH _ _ N H)| |discriminate].
  destruct (idx x) as [k|]; cbn [bind] in H; [|discriminate]. destruct (data_at x lb) as [v|]; cbn [bind] in H; [|discriminate]. destruct (zget k acc) as [[t n]|]; (eapply IH; [|exact H]); apply zset_NoDup; exact N.
Qed.
Lemma averages_NoDup idx limit lb l r : period_sums idx limit lb l = Ok r -> NoDup (map fst (averages_of r)).
Proof. intros H. unfold averages_of. rewrite map_map. cbn [fst]. apply (sums_NoDup idx limit lb l [] r); [constructor|exact H]. Qed.
Lemma fit_labels_keys c dst detect s w da limit : forall ls p ps, pf_fit_labels c dst detect s w da limit p ls = Ok ps ->
  dkeys ps = ls /\ forall kv, In kv ps -> NoDup (map fst (snd (snd kv))).
Proof.
  induction ls as [|lb ls IH]; intros p ps H; cbn [pf_fit_labels] in H; [injection H as <-; split; [reflexivity|intros ? []]|].
  destruct (match p with Some p => Ok p | None => detect lb end) as [p'|]; cbn [bind] in H; [|discriminate]. destruct w; [discriminate|].
  destruct (period_sums _ limit lb (s_items s)) as [sums|] eqn:S; cbn [bind] in H; [|discriminate]. apply averages_NoDup in S. destruct sums as [|a sums]; [discriminate|].
  destruct (pf_fit_labels c dst detect s None da limit (Some p') ls) as [t|] eqn:E; cbn [bind] in H; [|discriminate]. injection H as <-. destruct (IH _ _ E) as [K N]. split; [unfold dkeys in *; cbn [map fst]; rewrite K; reflexivity|].
  intros kv [<-|I]; [exact S|apply N; exact I].
Qed.
Lemma fit_keys c dst detect s w p da limit m : pf_fit c dst detect s w p da limit = Ok m ->
  exists ls, labels_of s = Ok ls /\ dkeys (pf_labels m) = ls /\ forall kv, In kv (pf_labels m) -> NoDup (map fst (snd (snd kv))).
Proof.
  unfold pf_fit. intros H. destruct (labels_of s) as [ls|]; cbn [bind] in H; [|discriminate]. destruct (pf_fit_labels c dst detect s w da limit p ls) as [ps|] eqn:E; cbn [bind] in H; [|discriminate].
  destruct (map (fun kv => snd (fst (snd kv))) ps) as [|w0 ws]; [discriminate|]. injection H as <-. exists ls. split; [reflexivity|]. exact (fit_labels_keys _ _ _ _ _ _ _ _ _ _ E).
Qed.

(* ---------------- their data, read back ---------------- *)

Definition avg_read (a : list (Z * Qc)) : list (key * pv) := map (fun kv => (KS (int_str (fst kv)), VNum (snd kv))) a.
Lemma reads_avg a : NoDup (map fst a) -> reads_back (VDict (avg_dict a)) (VDict (avg_read a)).
Proof.
  intros N. apply reads_dict.
  - unfold avg_dict. rewrite map_map. cbn [fst key_str]. rewrite <- (map_map fst int_str). apply FinFun.Injective_map_NoDup; [exact int_str_inj|exact N].
  - unfold avg_dict, avg_read. clear N. induction a as [|[k v] a IH]; [constructor|]. cbn [map fst snd]. constructor; [|exact IH]. cbn [fst snd key_str]. split; [reflexivity|exists (JNum v); split; reflexivity].
Qed.
Lemma zkeys_read a : zkeys (avg_read a) = Ok (avg_dict a).
Proof. unfold avg_read, avg_dict. induction a as [|[k v] a IH]; [reflexivity|]. cbn [map fst snd zkeys]. rewrite str_int_str. cbn [bind]. rewrite IH. reflexivity. Qed.
Lemma zkeys_all_read l : zkeys_all (map (fun kv : string * (Z * Z * list (Z * Qc)) => (KS (fst kv), VDict (avg_read (snd (snd kv))))) l) = Ok (map (fun kv => (KS (fst kv), VDict (avg_dict (snd (snd kv))))) l).
Proof. induction l as [|[k v] l IH]; [reflexivity|]. cbn [map fst snd zkeys_all]. rewrite zkeys_read. cbn [bind]. rewrite IH. reflexivity. Qed.
Lemma reads_same_dict {A} (g : A -> pv) (l : list (string * A)) : NoDup (map fst l) -> (forall x, storable (g x)) -> storable (VDict (map (fun kv => (KS (fst kv), g (snd kv))) l)).
Proof.
  intros N H. constructor.
  - rewrite map_map. cbn [fst]. rewrite <- (map_map fst KS). apply FinFun.Injective_map_NoDup; [intros a b E; injection E as ->; reflexivity|exact N].
  - intros k x I. apply in_map_iff in I. destruct I as ([k' y] & E & _). injection E as <- <-. split; [eexists; reflexivity|apply H].
Qed.
Lemma storable_strings ls : storable (VList (map VStr ls)).
Proof. constructor. intros x I. apply in_map_iff in I. destruct I as (s & <- & _). constructor. Qed.

Definition pf_read (id : string) (at_ : Qc) (u : tunit) (labels : list string) (m : pf_params) : dict pv :=
  dset "averages" (VDict (map (fun kv => (KS (fst kv), VDict (avg_read (snd (snd kv))))) (pf_labels m))) (pf_data id at_ u labels m).
Lemma data_names id at_ u labels m : NoDup (dkeys (pf_data id at_ u labels m)).
Proof. cbn. repeat constructor; intros H; cbn in H; repeat (destruct H as [H|H]; [discriminate|]); exact H. Qed.
Lemma pf_kept ut id at_ u labels m : readable ut u -> NoDup (dkeys (pf_labels m)) -> (forall kv, In kv (pf_labels m) -> NoDup (map fst (snd (snd kv)))) ->
  Forall2 (kept ut) (pf_data id at_ u labels m) (pf_read id at_ u labels m).
Proof.
  intros R N A. unfold pf_read, pf_data. cbn [dset String.eqb Ascii.eqb Bool.eqb]. unfold kept.
  repeat (apply Forall2_cons; [cbn [fst snd String.eqb Ascii.eqb Bool.eqb]; (split; [reflexivity|])|]); try apply Forall2_nil; try (apply storable_reads).
  - constructor.
  - exists u. repeat split; exact R.
  - apply storable_strings.
  - apply (reads_same_dict (fun x : Z * Z * list (Z * Qc) => VNum (qz (fst (fst x))))); [exact N|intros; constructor].
  - apply (reads_same_dict (fun x : Z * Z * list (Z * Qc) => VNum (qz (snd (fst x))))); [exact N|intros; constructor].
  - apply reads_dict; [rewrite map_map; cbn [fst key_str]; exact N|]. clear N. induction (pf_labels m) as [|[k v] l IH]; [constructor|]. cbn [map fst snd]. constructor; [|apply IH; intros kv I; apply A; right; exact I].
    cbn [fst snd key_str]. split; [reflexivity|]. apply reads_avg. exact (A _ (or_introl eq_refl)).
  - constructor.
  - constructor.
  - constructor.
Qed.
Lemma pf_load_read ut c f p id at_ u labels m : load ut c f p = Ok (mkPModel c true (pf_read id at_ u labels m)) -> pf_load ut c f p = Ok (mkPModel c true (pf_data id at_ u labels m)).
Proof.
  intros L. unfold pf_load. rewrite L. cbn [bind pm_data pm_fitted]. unfold pf_read. rewrite dget_dset, String.eqb_refl, zkeys_all_read. cbn [bind]. rewrite dset_restore by reflexivity. reflexivity.
Qed.

Definition pa_read (id : string) (at_ : Qc) (u : tunit) (labels : list string) (m : pa_params) : dict pv :=
  dset "averages" (VDict (avg_read (pa_averages m))) (pa_data id at_ u labels m).
Lemma pa_names id at_ u labels m : NoDup (dkeys (pa_data id at_ u labels m)).
Proof. cbn. repeat constructor; intros H; cbn in H; repeat (destruct H as [H|H]; [discriminate|]); exact H. Qed.
Lemma pa_kept ut id at_ u labels m : readable ut u -> NoDup (map fst (pa_averages m)) ->
  Forall2 (kept ut) (pa_data id at_ u labels m) (pa_read id at_ u labels m).
Proof.
  intros R N. unfold pa_read, pa_data. cbn [dset String.eqb Ascii.eqb Bool.eqb]. unfold kept.
  repeat (apply Forall2_cons; [cbn [fst snd String.eqb Ascii.eqb Bool.eqb]; (split; [reflexivity|])|]); try apply Forall2_nil; try (apply storable_reads).
  - constructor.
  - exists u. repeat split; exact R.
  - apply storable_strings.
  - constructor.
  - constructor.
  - apply reads_avg. exact N.
  - constructor.
Qed.
Lemma no_average a k : kget (KI k) (avg_read a) = None.
Proof. unfold avg_read. induction a as [|[z v] a IH]; [reflexivity|]. cbn [map fst snd kget key_eqb]. exact IH. Qed.
Lemma average_saved id at_ u labels m k : average_in (pa_data id at_ u labels m) k = zget k (pa_averages m).
Proof. unfold average_in. cbn [pa_data dget String.eqb Ascii.eqb Bool.eqb]. unfold avg_dict. induction (pa_averages m) as [|[z v] a IH]; [reflexivity|]. cbn [map fst snd kget key_eqb zget]. destruct (Z.eqb k z); [reflexivity|exact IH]. Qed.
Lemma average_loaded id at_ u labels m k : average_in (pa_read id at_ u labels m) k = None.
Proof. unfold average_in, pa_read. rewrite dget_dset, String.eqb_refl, no_average. reflexivity. Qed.
(* A reconstruction that works, with no averages at all *)
Lemma predict_without_averages c dst p da avg avg' s from to r : (forall k, avg' k = None) -> pa_predict_with c dst p da avg s from to = Ok r -> pa_predict_with c dst p da avg' s from to = Err KeyError.
Proof.
  intros N H. unfold pa_predict_with in *. destruct (check_window s from to); cbn [bind] in *; [|discriminate]. destruct (labels_of s) as [[|lb ls]|]; cbn [bind] in *; [discriminate| |discriminate].
  cbn [foldM] in *. destruct (ts_get_i s (Z.of_nat from - 1)) as [x|]; cbn [bind] in *; [|discriminate]. destruct (data_at x lb) as [v|]; cbn [bind] in *; [|discriminate]. unfold average_at at 1 in H. unfold average_at at 1.
  destruct (periodicity_index c dst (i_tz x) (i_t x) (resolution s) p da) as [k|]; cbn [bind] in *; [|discriminate]. rewrite N. reflexivity.
Qed.

(* ---------------- nested models ---------------- *)

Lemma app_str_inj (s : string) : forall a b, (a ++ s)%string = (b ++ s)%string -> a = b.
Proof.
  assert (L : forall a b, String.length (a ++ b)%string = String.length a + String.length b) by (induction a as [|x a IH]; intros b; cbn; [reflexivity|rewrite IH; reflexivity]).
  induction a as [|x a IH]; intros [|y b] H; [reflexivity| | |].
  - exfalso. apply (f_equal String.length) in H. cbn in H. rewrite L in H. lia.
  - exfalso. apply (f_equal String.length) in H. cbn in H. rewrite L in H. lia.
  - cbn in H. injection H as -> H. f_equal. apply IH. exact H.
Qed.
Lemma not_data_json a : (a ++ "_model")%string <> "data.json"%string.
Proof.
  intros H. do 4 (destruct a as [|? a]; [discriminate H|]; cbn [append] in H; injection H as _ H).
  do 6 (destruct a as [|? a]; [discriminate H|]; cbn [append] in H; try discriminate H; injection H as _ H).
Qed.

(* the loader gets the model back, whatever happened elsewhere *)
Definition restores (ut : unit_text) (li : fs -> path -> result pmodel) (m : pmodel) : Prop :=
  savable m /\ forall p f, tree f -> free f p -> exists f', save ut DFine m p f = (m, f', Ok tt) /\ tree f' /\ f' p = Some NDir /\
    forall f2, f2 (data_file p) = f' (data_file p) -> li f2 p = Ok (mkPModel (pm_class m) true (pm_data m)).

Lemma free_inside f p x : tree f -> f p = Some NDir -> p <> [] -> f (p ++ [x]) = None -> free f (p ++ [x]).
Proof.
  intros T D Np N. split; [destruct p; discriminate|]. split; [exact N|]. intros q r E Nq. destruct r as [|y r _] using rev_ind.
  - rewrite app_nil_r in E. rewrite <- E. left. exact N.
  - rewrite app_assoc in E. apply app_inj_tail in E. destruct E as [E _]. right. revert q Nq E. induction r as [|z r IH] using rev_ind; intros q Nq E; [rewrite app_nil_r in E; rewrite <- E; exact D|].
    assert (G : f (q ++ r) = Some NDir \/ q ++ r = []).
    { rewrite app_assoc in E. destruct (T (q ++ r) z) as [X|X]; [rewrite <- E, D; discriminate|right; exact X|left; exact X]. }
    clear IH. destruct G as [G|G]; [|destruct q; [contradiction|discriminate]]. clear E D N.
    revert G. induction r as [|w r IH] using rev_ind; intros G; [rewrite app_nil_r in G; exact G|]. apply IH. rewrite app_assoc in G. destruct (T (q ++ r) w) as [X|X]; [rewrite G; discriminate|destruct q; [contradiction|discriminate]|exact X].
Qed.

Lemma save_inner_all ut li p : p <> [] -> forall l f, tree f -> f p = Some NDir ->
  (forall x m, In (x, m) l -> restores ut li m /\ f (p ++ [x]) = None /\ x <> "data.json"%string) -> NoDup (map fst l) ->
  exists f', save_all ut DFine (map (fun xm => (p ++ [fst xm], snd xm)) l) f = (f', Ok tt) /\
    (forall q n, f q = Some n -> f' q = Some n) /\
    forall x m, In (x, m) l -> forall f2, f2 (data_file (p ++ [x])) = f' (data_file (p ++ [x])) -> li f2 (p ++ [x]) = Ok (mkPModel (pm_class m) true (pm_data m)).
Proof.
  intros Np. induction l as [|[x m] l IH]; intros f T D H N; cbn [map save_all fst snd].
  - exists f. split; [reflexivity|]. split; [auto|]. intros ? ? [].
  - destruct (H x m (or_introl eq_refl)) as ([S Rm] & Fx & Nx). destruct (Rm (p ++ [x]) f T (free_inside f p x T D Np Fx)) as (f1 & Sv & T1 & D1 & L1). rewrite Sv.
    assert (Kp : forall q n, f q = Some n -> f1 q = Some n) by (intros q n Hq; pose proof (save_keeps ut DFine m (p ++ [x]) f q n T Hq) as Q; rewrite Sv in Q; exact Q).
    inversion N as [|? ? N1 N2]; subst. destruct (IH f1 T1) as (f' & Sa & Kf & Lf); [apply Kp; exact D| |exact N2|].
    + intros y my I. destruct (H y my (or_intror I)) as (Ry & Fy & Ny). split; [exact Ry|]. split; [|exact Ny]. destruct (f1 (p ++ [y])) as [n|] eqn:E; [|reflexivity]. exfalso.
      pose proof (save_adds ut DFine m (p ++ [x]) f (p ++ [y])) as Q. rewrite Sv in Q. cbn [fst snd] in Q. destruct Q as [(r & _ & Q)|Q]; [rewrite E, Fy; discriminate| |].
      * assert (r = []) as -> by (apply (f_equal (@length string)) in Q; rewrite !app_length in Q; cbn in Q; destruct r; [reflexivity|cbn in Q; lia]). rewrite app_nil_r in Q. apply app_inv_head in Q. injection Q as ->. apply N1. apply in_map_iff. exists (y, my). split; [reflexivity|exact I].
      * unfold data_file in Q. apply (f_equal (@length string)) in Q. rewrite !app_length in Q. cbn in Q. lia.
    + exists f'. split; [exact Sa|]. split; [intros q n Hq; apply Kf, Kp; exact Hq|]. intros y my [E|I] f2 F2; [|exact (Lf y my I f2 F2)].
      injection E as <- <-. apply L1. rewrite F2. specialize (L1 f1 eq_refl).
      destruct (f1 (data_file (p ++ [x]))) as [n|] eqn:E; [apply Kf; exact E|]. exfalso.
      (* a file which is not there is not written by the others *)
      clear - Sv E S Rm T. destruct (save_fs ut DFine m (p ++ [x]) f) as (g1 & g2 & r & Eq & C). rewrite Sv in Eq. injection Eq as <- <-. destruct C as [[_ X]|(_ & _ & _ & _ & _ & [(y & _ & _ & X)|(_ & -> & X)])]; [contradiction|discriminate|].
      destruct (dump_data (data1 ut (pm_data m))); cbn [write_data fst snd] in *; [|discriminate]. rewrite fs_set_same in E. discriminate.
Qed.
