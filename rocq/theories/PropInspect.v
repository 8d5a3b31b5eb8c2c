(* PropInspect.v -- THEOREMS C99: the inspection of an anomaly detector. *)
From Verif Require Import SpecInspect BaseLemmas PropTactics DictLemmas SeriesProofs3 OpsProofs ReconProofs2 LstmProofs AnomalyProofs AnomalyProofs2 AnomalyProofs4 Witness PropTransform PropAnomaly.
From Coq Require Import Lia.

(* ---- the loop ---- *)
Definition shown (e : env) (F : fitted_detector) (all : dict (list Qc)) (plot sr : bool) (lb : string) (p : panel) : Prop :=
  pn_label p = lb /\ exists es, dget lb all = Some es /\ lavg (map qabs es) = Ok (pn_avg p) /\ lmin (map qabs es) = Ok (pn_min p) /\ lmax (map qabs es) = Ok (pn_max p) /\
    (plot = false -> pn_range p = None) /\ if sr then exists fs, fit_series e F all = Ok fs /\ pn_series p = Some fs else pn_series p = None.
Lemma by_key_ok {V} (d : dict V) k v : by_key d k = Ok v -> dget k d = Some v.
Proof. unfold by_key. destruct (dget k d); [congruence|discriminate]. Qed.
Lemma loop_ok e F all plot sr : an_errors (fd_model F) = Some all -> forall ls a b ps, inspect_loop e F plot sr a b ls = Ok ps -> Forall2 (shown e F all plot sr) ls ps.
Proof.
  intros Al ls. induction ls as [|lb ls IH]; intros a b ps H; cbn [inspect_loop] in H; [injection H as <-; constructor|]. rewrite Al in H. cbn [bind] in H.
  destruct (by_key all lb) as [es|] eqn:K; cbn [bind] in H; [|discriminate]. destruct (lavg _) as [avg|] eqn:A1; cbn [bind] in H; [|discriminate]. destruct (lmin (map _ _)) as [lo|] eqn:A2; cbn [bind] in H; [|discriminate]. destruct (lmax (map _ _)) as [hi|] eqn:A3; cbn [bind] in H; [|discriminate].
  destruct (if plot then _ else _) as [lim|] eqn:A4; cbn [bind] in H; [|discriminate]. destruct (if sr then _ else _) as [fs|] eqn:A5; cbn [bind] in H; [|discriminate]. destruct (inspect_loop _ _ _ _ _ _ ls) as [more|] eqn:M; cbn [bind] in H; [|discriminate]. injection H as <-.
  constructor; [|exact (IH _ _ _ M)]. split; [reflexivity|]. exists es. cbn [pn_avg pn_min pn_max pn_range pn_series]. split; [apply by_key_ok, K|]. do 3 (split; [assumption|]). split.
  - intros ->. injection A4 as <-. reflexivity.
  - destruct sr; [|injection A5 as <-; reflexivity]. destruct (fit_series e F all) as [x|]; [|discriminate]. exists x. split; [reflexivity|]. injection A5 as <-. reflexivity.
Qed.
Lemma loop_range_given e F sr lo hi : forall ls ps p, inspect_loop e F true sr (Some lo) (Some hi) ls = Ok ps -> In p ps -> pn_range p = Some (lo, hi).
Proof.
  intros ls. induction ls as [|lb ls IH]; intros ps p H I; cbn [inspect_loop] in H; [injection H as <-; destruct I|].
  do 5 match type of H with bind ?x _ = Ok _ => destruct x; cbn [bind] in H; [|discriminate] end. cbn [or_auto bind fst snd] in H. destruct (if sr then _ else _) as [fs|]; cbn [bind] in H; [|discriminate].
  destruct (inspect_loop _ _ _ _ _ _ ls) as [more|] eqn:M; cbn [bind] in H; [|discriminate]. injection H as <-. destruct I as [<-|I]; [reflexivity|exact (IH _ _ eq_refl I)].
Qed.
Lemma loop_range e F all sr a b lb0 ls ps : an_errors (fd_model F) = Some all -> inspect_loop e F true sr a b (lb0 :: ls) = Ok ps ->
  exists es lo hi, dget lb0 all = Some es /\ or_auto a (lmin es) = Ok lo /\ or_auto b (lmax es) = Ok hi /\ forall p, In p ps -> pn_range p = Some (lo, hi).
Proof.
  intros Al H. cbn [inspect_loop] in H. rewrite Al in H. cbn [bind] in H. destruct (by_key all lb0) as [es|] eqn:K; cbn [bind] in H; [|discriminate].
  do 3 match type of H with bind ?x _ = Ok _ => destruct x; cbn [bind] in H; [|discriminate] end. destruct (or_auto a (lmin es)) as [lo|] eqn:A1; cbn [bind] in H; [|discriminate]. destruct (or_auto b (lmax es)) as [hi|] eqn:A2; cbn [bind fst snd] in H; [|discriminate].
  destruct (if sr then _ else _) as [fs|]; cbn [bind] in H; [|discriminate]. destruct (inspect_loop _ _ _ _ _ _ ls) as [more|] eqn:M; cbn [bind] in H; [|discriminate]. injection H as <-. exists es, lo, hi. split; [apply by_key_ok, K|]. do 2 (split; [assumption|]).
  intros p [<-|I]; [reflexivity|exact (loop_range_given e F sr lo hi ls more p M I)].
Qed.
(* ---- the fit ---- *)
Lemma stored_unfold m w k st fd sd s F : an_fit_stored m w k st fd sd s = Ok F -> an_fit m w k st fd sd s = Ok (fd_model F) /\ exists ls, labels_of s = Ok ls /\
  mapM (stored_values (actual_of s) (positions m w (length (s_items s)))) ls = Ok (fd_actual F) /\ mapM (stored_values (predicted_of m s) (positions m w (length (s_items s)))) ls = Ok (fd_predicted F).
Proof.
  unfold an_fit_stored. intros H. destruct (an_fit m w k st fd sd s) as [D|]; cbn [bind] in H; [|discriminate]. destruct (labels_of s) as [ls|]; cbn [bind] in H; [|discriminate]. destruct (mapM (stored_values (actual_of s) _) ls) as [av|] eqn:A; cbn [bind] in H; [|discriminate].
  destruct (mapM (stored_values (predicted_of m s) _) ls) as [pv|] eqn:P; cbn [bind] in H; [|discriminate]. injection H as <-. cbn. split; [reflexivity|]. exists ls. repeat split; assumption.
Qed.
Lemma keys_of_dists m w k st fd sd s D ls : an_fit m w k st fd sd s = Ok D -> labels_of s = Ok ls -> dkeys (an_dists D) = ls.
Proof. intros H L. destruct (fit_unfold _ _ _ _ _ _ _ _ H) as (ls' & es & L' & _ & _ & _ & _ & _ & _ & Q & _). rewrite L in L'. injection L' as <-. exact Q. Qed.
Lemma mean_avg l v : lavg l = Ok v -> v = mean l.
Proof.
  intros H. apply lavg_ok in H. destruct H as [N E]. unfold mean. rewrite <- E. assert (P : qn (length l) <> Q2Qc 0).
  { intros Q. assert (G := UtilsProofs.qn_len_pos l N). rewrite Q in G. vm_compute in G. discriminate. }
  field. exact P.
Qed.

(* ---------------- C99 ---------------- *)
(* For every label, in the order of the series of the fit, the mean, the least and the greatest of the absolute values of its errors on
   that series. *)
Theorem C99_details : forall e m w k fit_dist stdev s F ls plot x_min x_max series_ ps, an_fit_stored m w k true fit_dist stdev s = Ok F -> labels_of s = Ok ls -> NoDup ls ->
  an_inspect e F plot x_min x_max series_ = Ok ps -> map pn_label ps = ls /\ forall p, In p ps -> exists es, errors_from (fd_model F) s w (pn_label p) es /\
    pn_avg p = mean (map qabs es) /\ least (map qabs es) (pn_min p) /\ greatest (map qabs es) (pn_max p) /\ (plot = false -> pn_range p = None) /\ (series_ = false -> pn_series p = None).
Proof.
  intros e m w k fd sd s F ls plot a b sr ps H L Nd I. destruct (stored_unfold _ _ _ _ _ _ _ _ H) as [Hf _]. destruct (C57_fit_stores_the_errors m w k fd sd s (fd_model F) ls Hf L Nd) as (E1 & _ & _ & al & Al & Fe).
  unfold an_inspect in I. rewrite (keys_of_dists _ _ _ _ _ _ _ _ _ Hf L) in I. apply (loop_ok e F al plot sr Al) in I. split.
  - clear - I. induction I as [|lb p ls ps [Q _] I IH]; [reflexivity|]. cbn [map]. rewrite Q, IH. reflexivity.
  - intros p Ip. apply In_nth_error in Ip. destruct Ip as [n Ip]. destruct (F2_get_r _ _ _ I n p Ip) as (lb & Lb & Q & es & De & A1 & A2 & A3 & A4 & A5). rewrite Q. destruct (Fe lb (nth_error_In _ _ Lb)) as (es' & d & q & G & _ & _ & _ & _ & Ln & Er). rewrite De in G. injection G as <-.
    exists es. split; [split; [rewrite E1; exact Ln|exact Er]|]. split; [apply mean_avg, A1|]. split; [exact (lmin_ok _ _ A2)|]. split; [exact (lmax_ok _ _ A3)|]. split; [exact A4|]. intros ->. exact A5.
Qed.
Print Assumptions C99_details.

(* The plots go from the given limits or, if these are not given, from the least to the greatest of the errors of the first label. *)
Theorem C99_range : forall e m w k fit_dist stdev s F lb0 ls x_min x_max series_ ps, an_fit_stored m w k true fit_dist stdev s = Ok F -> labels_of s = Ok (lb0 :: ls) -> NoDup (lb0 :: ls) ->
  an_inspect e F true x_min x_max series_ = Ok ps -> exists lo hi es, errors_from (fd_model F) s w lb0 es /\ (forall p, In p ps -> pn_range p = Some (lo, hi)) /\
    match x_min with Some q => lo = q | None => least es lo end /\ match x_max with Some q => hi = q | None => greatest es hi end.
Proof.
  intros e m w k fd sd s F lb0 ls a b sr ps H L Nd I. destruct (stored_unfold _ _ _ _ _ _ _ _ H) as [Hf _]. destruct (C57_fit_stores_the_errors m w k fd sd s (fd_model F) _ Hf L Nd) as (E1 & _ & _ & al & Al & Fe).
  unfold an_inspect in I. rewrite (keys_of_dists _ _ _ _ _ _ _ _ _ Hf L) in I. destruct (loop_range e F al sr a b lb0 ls ps Al I) as (es & lo & hi & De & A1 & A2 & R). destruct (Fe lb0 (or_introl eq_refl)) as (es' & d & q & G & _ & _ & _ & _ & Ln & Er). rewrite De in G. injection G as <-.
  exists lo, hi, es. split; [split; [rewrite E1; exact Ln|exact Er]|]. split; [exact R|]. split.
  - destruct a; cbn [or_auto] in A1; [congruence|exact (lmin_ok _ _ A1)].
  - destruct b; cbn [or_auto] in A2; [congruence|exact (lmax_ok _ _ A2)].
Qed.
Print Assumptions C99_range.

(* It can always be inspected if there was some error to store, *)
Theorem C99_succeeds : forall e m w k fit_dist stdev s F ls plot x_min x_max, an_fit_stored m w k true fit_dist stdev s = Ok F -> labels_of s = Ok ls -> NoDup ls ->
  w + 1 + (if is_reconstructor m then w else 0) < length (s_items s) -> exists ps, an_inspect e F plot x_min x_max false = Ok ps.
Proof.
  intros e m w k fd sd s F ls plot a b H L Nd N. destruct (stored_unfold _ _ _ _ _ _ _ _ H) as [Hf _]. destruct (C57_fit_stores_the_errors m w k fd sd s (fd_model F) ls Hf L Nd) as (E1 & _ & _ & al & Al & Fe).
  unfold an_inspect. rewrite (keys_of_dists _ _ _ _ _ _ _ _ _ Hf L). assert (G : forall lb, In lb ls -> exists x es, dget lb al = Some (x :: es)).
  { intros lb Il. destruct (Fe lb Il) as (es & d & q & De & _ & _ & _ & _ & Ln & _). destruct es as [|x es]; [cbn [length] in Ln; lia|exists x, es; exact De]. }
  clear - Al G. revert a b. induction ls as [|lb ls IH]; intros a b; [exists []; reflexivity|]. destruct (G lb (or_introl eq_refl)) as (x & es & De). cbn [inspect_loop]. rewrite Al. cbn [bind]. unfold by_key. rewrite De. cbn [bind].
  destruct (lavg_some (map qabs (x :: es)) ltac:(discriminate)) as [avg ->]. cbn [bind map]. destruct (lmax_some (qabs x) (map qabs es)) as [hi ->]. destruct (lmax_some x es) as [h2 Q2].
  assert (M : forall y l, exists v, lmin (y :: l) = Ok v) by (intros y l; eexists; reflexivity). destruct (M (qabs x) (map qabs es)) as [lo ->]. destruct (M x es) as [l2 Q1]. cbn [bind]. rewrite Q1, Q2.
  assert (X : exists lim, (if plot then do a0 <- or_auto a (Ok l2); do b0 <- or_auto b (Ok h2); Ok (Some (a0, b0)) else Ok None) = Ok lim) by (destruct plot, a, b; cbn; eexists; reflexivity). destruct X as [lim ->]. cbn [bind].
  destruct (IH (fun lb I => G lb (or_intror I)) (match lim with Some l => Some (fst l) | None => a end) (match lim with Some l => Some (snd l) | None => b end)) as [ps ->]. eexists. reflexivity.
Qed.
Print Assumptions C99_succeeds.
(* and never, whatever is asked for, if the errors were not stored. *)
Theorem C99_not_stored : forall e m w k fit_dist stdev s F lb ls plot x_min x_max series_, an_fit_stored m w k false fit_dist stdev s = Ok F -> labels_of s = Ok (lb :: ls) -> an_inspect e F plot x_min x_max series_ = Err KeyError.
Proof.
  intros e m w k fd sd s F lb ls plot a b sr H L. destruct (stored_unfold _ _ _ _ _ _ _ _ H) as [Hf _]. unfold an_inspect. rewrite (keys_of_dists _ _ _ _ _ _ _ _ _ Hf L). cbn [inspect_loop].
  destruct (fit_unfold _ _ _ _ _ _ _ _ Hf) as (ls' & es & _ & _ & _ & _ & _ & _ & Q & _). rewrite Q. reflexivity.
Qed.
Print Assumptions C99_not_stored.

(* ---- the series ---- *)
Lemma sfx_inj t a b : (a ++ t = b ++ t)%string -> a = b.
Proof.
  revert b. induction a as [|x a IH]; intros b H.
  - destruct b as [|y b]; [reflexivity|]. exfalso. apply (f_equal String.length) in H. cbn in H. assert (L : forall u v, String.length (u ++ v)%string = String.length u + String.length v) by (intros u v; induction u as [|c u IH]; [reflexivity|cbn; rewrite IH; reflexivity]). rewrite L in H. lia.
  - destruct b as [|y b]; [exfalso; apply (f_equal String.length) in H; cbn in H; assert (L : forall u v, String.length (u ++ v)%string = String.length u + String.length v) by (intros u v; induction u as [|c u IHu]; [reflexivity|cbn; rewrite IHu; reflexivity]); rewrite L in H; lia|].
    cbn in H. injection H as <- H. f_equal. apply IH, H.
Qed.
Lemma last_char (c : ascii) (a : string) : forall b, (a ++ String c EmptyString)%string = b -> List.last (list_ascii_of_string b) "0"%char = c.
Proof. intros b <-. induction a as [|x a IH]; [reflexivity|]. cbn [append list_ascii_of_string]. destruct (list_ascii_of_string (a ++ String c EmptyString)%string) eqn:E; [destruct a; discriminate|]. exact IH. Qed.
Lemma pred_not_err a b : (a ++ "_pred")%string <> (b ++ "_err")%string.
Proof.
  intros H. assert (A : forall u v w, ((u ++ v) ++ w = u ++ (v ++ w))%string) by (intros u v w; induction u as [|q u IH]; [reflexivity|cbn; rewrite IH; reflexivity]).
  change "_pred"%string with ("_pre" ++ "d")%string in H. change "_err"%string with ("_er" ++ "r")%string in H. rewrite <- !A in H.
  assert (P := last_char "d" _ _ H). assert (Q := last_char "r" _ _ eq_refl : List.last (list_ascii_of_string ((b ++ "_er") ++ "r")%string) "0"%char = "r"%char). rewrite Q in P. discriminate.
Qed.
Lemma at_index_ok {A} (l : list A) i v : at_index l i = Ok v -> nth_error l i = Some v.
Proof. unfold at_index. destruct (nth_error l i); [congruence|discriminate]. Qed.
Definition third (D : dict (list Qc)) (lb : string) (i : nat) (v : Qc) : Prop := exists l, dget lb D = Some l /\ nth_error l i = Some v.
Lemma data_fold F es i : forall av acc d, NoDup (map fst av) -> own_names (map fst av) ->
  foldM (fun d p => let lb := fst p in
    do a <- at_index (snd p) i; do q <- (do l <- by_key (fd_predicted F) lb; at_index l i); do r <- (do l <- by_key es lb; at_index l i);
    Ok (dset (lb ++ "_err")%string r (dset (lb ++ "_pred")%string q (dset lb a d)))) av acc = Ok d ->
  (forall k, (forall lb, In lb (map fst av) -> k <> lb /\ k <> (lb ++ "_pred")%string /\ k <> (lb ++ "_err")%string) -> dget k d = dget k acc) /\
  (forall lb l, In (lb, l) av -> exists a q r, nth_error l i = Some a /\ third (fd_predicted F) lb i q /\ third es lb i r /\ dget lb d = Some a /\ dget (lb ++ "_pred")%string d = Some q /\ dget (lb ++ "_err")%string d = Some r).
Proof.
  intros av. induction av as [|[lb0 l0] av IH]; intros acc d Nd Ow H; cbn [foldM] in H; [injection H as <-; split; [reflexivity|intros lb l []]|].
  cbn [fst snd] in H. destruct (at_index l0 i) as [a|] eqn:A1; cbn [bind] in H; [|discriminate]. destruct (by_key (fd_predicted F) lb0) as [lp|] eqn:A2; cbn [bind] in H; [|discriminate]. destruct (at_index lp i) as [q|] eqn:A3; cbn [bind] in H; [|discriminate].
  destruct (by_key es lb0) as [le|] eqn:A4; cbn [bind] in H; [|discriminate]. destruct (at_index le i) as [r|] eqn:A5; cbn [bind] in H; [|discriminate]. cbn [map fst] in Nd, Ow. inversion Nd as [|? ? Ni Nd']. subst.
  destruct (IH _ _ Nd' (fun x y X Y => Ow x y (or_intror X) (or_intror Y)) H) as [K1 K2]. clear IH.
  assert (Diff : forall x y, x <> y -> String.eqb x y = false) by (intros x y; apply String.eqb_neq). split.
  - intros k Nk. destruct (Nk lb0 (or_introl eq_refl)) as (N1 & N2 & N3). rewrite K1 by (intros lb I0; apply Nk; right; exact I0). rewrite !dget_dset, !Diff by assumption. reflexivity.
  - intros lb l [E|I0]; [|exact (K2 lb l I0)]. injection E as <- <-. exists a, q, r. split; [apply at_index_ok, A1|]. split; [exists lp; split; [apply by_key_ok, A2|apply at_index_ok, A3]|]. split; [exists le; split; [apply by_key_ok, A4|apply at_index_ok, A5]|].
    assert (Nx : forall x, In x (map fst av) -> lb0 <> x) by (intros x X ->; apply Ni, X). assert (L0 : In lb0 (lb0 :: map fst av)) by (left; reflexivity).
    assert (Pe : forall x, x <> (x ++ "_pred")%string /\ x <> (x ++ "_err")%string).
    { intros x. assert (L : forall u v, String.length (u ++ v)%string = String.length u + String.length v) by (intros u v; induction u as [|c u IHu]; [reflexivity|cbn; rewrite IHu; reflexivity]). split; intros Q; apply (f_equal String.length) in Q; rewrite L in Q; cbn [String.length] in Q; lia. }
    split; [|split].
    + rewrite K1; [rewrite !dget_dset, (Diff lb0 _ (proj2 (Pe lb0))), (Diff lb0 _ (proj1 (Pe lb0))), String.eqb_refl; reflexivity|]. intros x X. split; [exact (Nx x X)|]. exact (Ow lb0 x L0 (or_intror X)).
    + rewrite K1; [rewrite !dget_dset, (Diff _ _ (pred_not_err lb0 lb0)), String.eqb_refl; reflexivity|]. intros x X. split; [intros Q; apply (proj1 (Ow x lb0 (or_intror X) L0)); congruence|]. split; [intros Q; apply sfx_inj in Q; exact (Nx x X Q)|apply pred_not_err].
    + rewrite K1; [rewrite !dget_dset, String.eqb_refl; reflexivity|]. intros x X. split; [intros Q; apply (proj2 (Ow x lb0 (or_intror X) L0)); congruence|]. split; [intros Q; symmetry in Q; exact (pred_not_err _ _ Q)|intros Q; apply sfx_inj in Q; exact (Nx x X Q)].
Qed.
Lemma stored_at (f : nat -> string -> result Qc) is ls av lb l : mapM (stored_values f is) ls = Ok av -> In (lb, l) av -> mapM (fun i => f i lb) is = Ok l.
Proof. intros H I0. destruct (mapM_keys (fun lb => mapM (fun i => f i lb) is) ls av H) as [_ K]. exact (K lb l I0). Qed.
Lemma stored_keys (f : nat -> string -> result Qc) is ls av : mapM (stored_values f is) ls = Ok av -> map fst av = ls.
Proof. intros H. exact (proj1 (mapM_keys (fun lb => mapM (fun i => f i lb) is) ls av H)). Qed.
Lemma mapM_nth {A B} (f : A -> result B) l r j y : mapM f l = Ok r -> nth_error r j = Some y -> exists x, nth_error l j = Some x /\ f x = Ok y.
Proof. intros H Y. apply mapM_F2 in H. destruct (F2_get_r _ _ _ H j y Y) as (x & X & E). exists x. split; assumption. Qed.

(* The series has a point for every item which had a prediction, in their order, at 0, 1, 2, ..., with what the item had for every label,
   what was predicted for it and the error. *)
Theorem C99_series : forall e m w k fit_dist stdev s F ls plot x_min x_max ps, an_fit_stored m w k true fit_dist stdev s = Ok F -> labels_of s = Ok ls -> NoDup ls -> own_names ls ->
  an_inspect e F plot x_min x_max true = Ok ps -> forall p, In p ps -> exists fs, pn_series p = Some fs /\ length (s_items fs) = length (s_items s) - (w + 1) - (if is_reconstructor m then w else 0) /\
  forall j x, nth_error (s_items fs) j = Some x -> i_t x = qn j /\ is_slot x = false /\ forall lb, In lb ls -> exists y a q r, nth_error (s_items s) (w + 1 + j) = Some y /\
    has_value y lb a /\ predicts m s (w + 1 + j) lb q /\ item_error (fd_model F) s (w + 1 + j) lb r /\ has_value x lb a /\ has_value x (lb ++ "_pred") q /\ has_value x (lb ++ "_err") r.
Proof.
  intros e m w k fd sd s F ls plot a0 b0 ps H L Nd Ow I0 p Ip. destruct (stored_unfold _ _ _ _ _ _ _ _ H) as [Hf (ls' & L' & Av & Pv)]. rewrite L in L'. injection L' as <-.
  destruct (C57_fit_stores_the_errors m w k fd sd s (fd_model F) ls Hf L Nd) as (E1 & _ & _ & al & Al & Fe). assert (I1 := I0). unfold an_inspect in I1. rewrite (keys_of_dists _ _ _ _ _ _ _ _ _ Hf L) in I1. apply (loop_ok e F al plot true Al) in I1.
  apply In_nth_error in Ip. destruct Ip as [n Ip]. destruct (F2_get_r _ _ _ I1 n p Ip) as (lb0 & _ & _ & es0 & _ & _ & _ & _ & _ & fs & Fs & Ps). exists fs. split; [exact Ps|]. clear I0 I1 Ip Ps es0 lb0 n.
  assert (Ka := stored_keys _ _ _ _ Av). unfold fit_series in Fs. destruct (fd_actual F) as [|[lb1 l1] av] eqn:Ea; [discriminate|]. cbn [bind] in Fs. rewrite <- Ea in *. destruct (mapM (fit_point F al) (seq 0 (length l1))) as [pts|] eqn:P; cbn [bind] in Fs; [|discriminate].
  assert (It := ts_new_items e None pts fs Fs). rewrite It. assert (L1 : length l1 = length (s_items s) - (w + 1) - (if is_reconstructor m then w else 0)).
  { assert (Q := stored_at _ _ _ _ lb1 l1 Av ltac:(rewrite Ea; left; reflexivity)). apply mapM_F2, F2_len in Q. rewrite positions_seq, seq_length in Q. lia. }
  split; [assert (Q := F2_len _ _ _ (mapM_F2 _ _ _ P)); rewrite seq_length in Q; lia|]. intros j x X. destruct (mapM_nth _ _ _ j x P X) as (i & Ji & Ex).
  assert (Lj : j < length l1) by (assert (Q : nth_error (seq 0 (length l1)) j <> None) by congruence; apply nth_error_Some in Q; rewrite seq_length in Q; exact Q). rewrite (seq_nth_error _ _ _ Lj) in Ji. injection Ji as <-. cbn [Nat.add] in Ex.
  unfold fit_point in Ex. destruct (fit_data F al j) as [d|] eqn:Fd; cbn [bind] in Ex; [|discriminate]. injection Ex as <-. cbn [i_t]. split; [reflexivity|]. split; [reflexivity|]. intros lb Il.
  destruct (data_fold F al j (fd_actual F) [] d) as [_ K]; [rewrite Ka; exact Nd|rewrite Ka; exact Ow|exact Fd|]. rewrite <- Ka in Il. apply in_map_iff in Il. destruct Il as ([lb' l] & Q & Il). cbn [fst] in Q. subst lb'.
  assert (Ils : In lb ls) by (rewrite <- Ka; apply in_map_iff; exists (lb, l); split; [reflexivity|exact Il]). destruct (K lb l Il) as (a & q & r & A1 & (lp & Gp & A2) & (le & Ge & A3) & G1 & G2 & G3).
  assert (Pos : forall i, nth_error (positions m w (length (s_items s))) j = Some i -> i = w + 1 + j).
  { intros i. rewrite positions_seq. intros Ji. assert (Q : nth_error (seq (S w) (length (s_items s) - S w - (if is_reconstructor m then w else 0))) j <> None) by congruence. apply nth_error_Some in Q. rewrite seq_length in Q. rewrite (seq_nth_error _ _ _ Q) in Ji. injection Ji as <-. lia. }
  destruct (mapM_nth _ _ _ j a (stored_at _ _ _ _ lb l Av Il) A1) as (ia & Ja & Fa). rewrite (Pos ia Ja) in Fa. destruct (actual_ok _ _ _ _ Fa) as (y & Y & Dy).
  destruct (mapM_nth _ _ _ j q (stored_at _ _ _ _ lb lp Pv (dget_Some_In _ _ _ Gp)) A2) as (ip & Jp & Fp). rewrite (Pos ip Jp) in Fp.
  destruct (Fe lb Ils) as (es & d' & sd' & Ge' & _ & _ & _ & _ & _ & Er). rewrite Ge in Ge'. injection Ge' as <-.
  exists y, a, q, r. split; [exact Y|]. split; [apply data_at_value, Dy|]. split; [apply predicted_iff, Fp|]. split; [exact (Er j r A3)|]. unfold has_value. cbn [i_data]. split; [apply dget_Some_In, G1|]. split; apply dget_Some_In; assumption.
Qed.
Print Assumptions C99_series.

(* ---- examples: errors 1, 2, -3 and 0 for the first label, and ten times as much for the second ---- *)
Definition two_of (t v : Z) : item := mkItem CDataTimePoint (qz t) (qz t) (UPhys q0) "UTC" (Some (DDict [("a"%string, qz v); ("b"%string, qz (10 * v))])) [] None.
Definition twos : series := ms [two_of 0 5; two_of 10 0; two_of 20 1; two_of 30 2; two_of 40 (-3); two_of 50 0].
Definition zeros (v : view) : result prediction := Ok (PrList [[("a"%string, q0); ("b"%string, q0)]]).
Definition fitted_twos : result fitted_detector := an_fit_stored (IForecaster zeros) 1 ME true (fun _ => Ok (slope q0)) (fun _ => Ok q1) twos.
Definition opt_qs (o : option (Qc * Qc)) : list Qc := match o with Some (a, b) => [a; b] | None => [] end.
Fixpoint qs_eqb (l r : list Qc) : bool := match l, r with [], [] => true | x :: l, y :: r => qeqb x y && qs_eqb l r | _, _ => false end.
Definition sizes (ps : result (list panel)) : list nat := match ps with Ok ps => map (fun p => match pn_series p with Some s => length (s_items s) | None => 0 end) ps | Err _ => [] end.
Lemma twos_own : own_names ["a"; "b"]%string.
Proof. intros a b A B. destruct A as [<-|[<-|[]]]; destruct B as [<-|[<-|[]]]; split; discriminate. Qed.
Example C99_nonvacuous : exists F ps, fitted_twos = Ok F /\ labels_of twos = Ok ["a"; "b"]%string /\ NoDup ["a"; "b"]%string /\ own_names ["a"; "b"]%string /\ 1 + 1 + 0 < length (s_items twos) /\ an_inspect ideal_env F true None None true = Ok ps /\
  qs_eqb (flat_map (fun p => [pn_avg p; pn_min p; pn_max p] ++ opt_qs (pn_range p)) ps) [qfrac 3 2; q0; qz 3; qz (-3); q2; qz 15; q0; qz 30; qz (-3); q2] = true /\ sizes (Ok ps) = [4; 4].
Proof.
  destruct fitted_twos as [F|] eqn:E; [|vm_compute in E; discriminate]. destruct (an_inspect ideal_env F true None None true) as [ps|] eqn:I0; [|vm_compute in E; injection E as <-; vm_compute in I0; discriminate]. exists F, ps.
  split; [reflexivity|]. split; [vm_compute; reflexivity|]. split; [repeat constructor; cbn; intuition discriminate|]. split; [exact twos_own|]. split; [vm_compute; lia|]. split; [exact I0|]. vm_compute in E. injection E as <-. vm_compute in I0. injection I0 as <-. split; vm_compute; reflexivity.
Qed.

(* The automatic limits are not those of the errors of each label: the errors of the second are out of its plot. *)
Theorem C99_own_range_refuted : ~ (forall e m w k fit_dist stdev s F ls series_ ps p, an_fit_stored m w k true fit_dist stdev s = Ok F -> labels_of s = Ok ls -> NoDup ls ->
  an_inspect e F true None None series_ = Ok ps -> In p ps -> exists lo hi es, errors_from (fd_model F) s w (pn_label p) es /\ pn_range p = Some (lo, hi) /\ least es lo /\ greatest es hi).
Proof.
  intros H. destruct C99_nonvacuous as (F & ps & Ef & L & Nd & _ & _ & I0 & Q & _).
  destruct (C99_details ideal_env (IForecaster zeros) 1 ME (fun _ => Ok (slope q0)) (fun _ => Ok q1) twos F _ true None None true ps Ef L Nd I0) as [Lb _].
  destruct ps as [|p1 [|p2 [|p3 ps]]]; try discriminate. cbn [map] in Lb. injection Lb as _ Lb.
  destruct (H ideal_env (IForecaster zeros) 1 ME (fun _ => Ok (slope q0)) (fun _ => Ok q1) twos F _ true [p1; p2] p2 Ef L Nd I0 (or_intror (or_introl eq_refl))) as (lo & hi & es & [Ln Er] & R & _ & [_ G]).
  assert (Hh : hi = q2). { apply qeqb_eq. cbn [flat_map app] in Q. rewrite R in Q. cbn [opt_qs app] in Q. destruct (pn_range p1) as [[x y]|]; cbn [opt_qs app qs_eqb] in Q; rewrite ?andb_true_iff in Q; intuition (try discriminate). }
  rewrite Lb in Er. assert (Ln4 : length es = 4) by (rewrite Ln; cbn; vm_compute in Ef; injection Ef as <-; vm_compute; reflexivity). destruct es as [|e0 [|e1 [|e2 es]]]; try discriminate.
  assert (X := Er 0 e0 eq_refl). destruct X as (x & a & p & X & V & P & E). assert (E0 : e0 = qz 10).
  { assert (Qf : an_inner (fd_model F) = IForecaster zeros /\ an_metric (fd_model F) = ME). { destruct (stored_unfold _ _ _ _ _ _ _ _ Ef) as [Hf _]. destruct (C57_fit_stores_the_errors _ _ _ _ _ _ _ _ Hf L Nd) as (A & _ & B & _). split; assumption. }
    destruct Qf as [Q1 Q2]. rewrite Q1 in P. rewrite Q2 in E. apply predicted_iff in P. change (1 + 1 + 0) with 2 in *. vm_compute in P. assert (P0 : p = q0) by (injection P as <-; apply qeqb_eq; vm_compute; reflexivity). subst p.
    vm_compute in X. injection X as <-. vm_compute in V. destruct V as [V|[V|[]]]; [discriminate|]. injection V as <-. cbn [error_is] in E. rewrite E. apply qeqb_eq. vm_compute. reflexivity. }
  specialize (G e0 (or_introl eq_refl)). rewrite E0, Hh in G. apply (Qcle_not_lt _ _ G). apply qltb_lt. vm_compute. reflexivity.
Qed.
Print Assumptions C99_own_range_refuted.
