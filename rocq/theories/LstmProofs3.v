(* LstmProofs3.v -- proofs about the normalisation and the fit. *)
From Verif Require Import SpecLstm BaseLemmas PropTactics DictLemmas AccessProofs2 OpsProofs OpsProofs2 OpsProofs3 InterpProofs ReconProofs2 ReconProofs3 ReconProofs4 SeriesProofs2 LstmProofs LstmProofs2.

Definition factor (d : dict Qc) (lb : string) : Qc := match dget lb d with Some v => v | None => q0 end.

(* ---------------- one value ---------------- *)
Lemma range_pos lo hi : Qclt lo hi <-> Qclt q0 (Qcminus hi lo).
Proof. split; intros H; qlra. Qed.
Lemma normalize_ok lo hi v : lo <> hi -> exists y, normalize lo hi v = Ok y /\ Qcmult y (Qcminus hi lo) = Qcminus v lo.
Proof.
  intros H. unfold normalize, qdiv. destruct (qeqb_spec (Qcminus hi lo) q0) as [E|E].
  - exfalso. apply H. symmetry. exact (proj1 (minus_eq hi lo) E).
  - eexists. split; [reflexivity|]. field. rewrite <- q0_eq. exact E.
Qed.
Lemma normalize_inv lo hi v y : normalize lo hi v = Ok y -> lo <> hi /\ Qcmult y (Qcminus hi lo) = Qcminus v lo.
Proof.
  unfold normalize, qdiv. destruct (qeqb_spec (Qcminus hi lo) q0) as [E|E]; [discriminate|]. intros H. injection H as <-. split.
  - intros ->. apply E. apply minus_eq. reflexivity.
  - field. rewrite <- q0_eq. exact E.
Qed.
Lemma normalize_fail lo v : normalize lo lo v = Err ZeroDivisionError.
Proof. unfold normalize, qdiv. destruct (qeqb_spec (Qcminus lo lo) q0) as [E|E]; [reflexivity|]. exfalso. apply E. apply minus_eq. reflexivity. Qed.
Lemma mult_cancel a b c : c <> q0 -> Qcmult a c = Qcmult b c -> a = b.
Proof. rewrite q0_eq. intros N E. replace a with (Qcmult (Qcmult a c) (Qcinv c)) by (field; exact N). rewrite E. field. exact N. Qed.
Lemma denormalize_back lo hi v y : Qcmult y (Qcminus hi lo) = Qcminus v lo -> denormalize lo hi y = v.
Proof. intros H. unfold denormalize. rewrite H. ring. Qed.
Lemma normalize_back lo hi y : lo <> hi -> normalize lo hi (denormalize lo hi y) = Ok y.
Proof.
  intros N. destruct (normalize_ok lo hi (denormalize lo hi y) N) as (z & E & H). rewrite E. f_equal. apply (mult_cancel z y (Qcminus hi lo)); [intros Z; apply N; symmetry; exact (proj1 (minus_eq hi lo) Z)|].
  rewrite H. unfold denormalize. ring.
Qed.

(* ---------------- an item ---------------- *)
Lemma normalize_data_spec mins maxs : forall d d', normalize_data mins maxs d = Ok d' -> Forall2 (fun kv kv' => fst kv' = fst kv /\ dmem (fst kv) mins = true /\ dmem (fst kv) maxs = true /\ normalize (factor mins (fst kv)) (factor maxs (fst kv)) (snd kv) = Ok (snd kv')) d d'.
Proof.
  intros d d' H. apply mapM_map in H. revert H. apply F2_impl. intros [k v] [k' v']. unfold normalize_entry, pick, factor, dmem. cbn [fst snd].
  destruct (dget k mins) as [lo|]; cbn [bind]; [|discriminate]. destruct (dget k maxs) as [hi|]; cbn [bind]; [|discriminate]. destruct (normalize lo hi v) as [y|] eqn:E; cbn [bind]; [|discriminate].
  intros H. injection H as <- <-. split; [reflexivity|]. split; [reflexivity|]. split; [reflexivity|]. first [exact E | reflexivity].
Qed.
Lemma F2_keys {A B} (R : string * A -> string * B -> Prop) d d' : (forall a b, R a b -> fst b = fst a) -> Forall2 R d d' -> map fst d' = map fst d.
Proof. intros H. induction 1 as [|a b d d' X F IH]; cbn [map]; [reflexivity|]. rewrite IH, (H a b X). reflexivity. Qed.
Lemma F2_In_l {A B} (R : A -> B -> Prop) l l' x : Forall2 R l l' -> In x l -> exists y, In y l' /\ R x y.
Proof. induction 1 as [|a b l l' H F IH]; [intros []|]. intros [<-|I]; [exists b; split; [left; reflexivity|exact H]|]. destruct (IH I) as (y & Y & R'). exists y. split; [right; exact Y|exact R']. Qed.
Lemma F2_In_r {A B} (R : A -> B -> Prop) l l' y : Forall2 R l l' -> In y l' -> exists x, In x l /\ R x y.
Proof. induction 1 as [|a b l l' H F IH]; [intros []|]. intros [<-|I]; [exists a; split; [left; reflexivity|exact H]|]. destruct (IH I) as (x & X & R'). exists x. split; [right; exact X|exact R']. Qed.
Lemma NoDup_fst_eq {A} (d : dict A) k v v' : NoDup (map fst d) -> In (k, v) d -> In (k, v') d -> v = v'.
Proof. intros N I I'. pose proof (dget_NoDup k d v N I) as A1. rewrite (dget_NoDup k d v' N I') in A1. congruence. Qed.

Lemma normalize_item_spec mins maxs x y : with_dict x -> normalize_item mins maxs x = Ok y ->
  rescaled (factor mins) (factor maxs) x y /\ with_dict y /\ forall lb, has_label x lb -> factor mins lb <> factor maxs lb /\ dmem lb mins = true /\ dmem lb maxs = true.
Proof.
  intros (d & Hd & N) H. unfold normalize_item, item_data in H. rewrite Hd in H. cbn [bind] in H. destruct (normalize_data mins maxs d) as [d'|] eqn:E; cbn [bind] in H; [|discriminate].
  injection H as <-. apply normalize_data_spec in E. assert (K : map fst d' = map fst d) by (revert E; apply F2_keys; intros a b Q; apply Q).
  assert (L : forall lb, (exists v, In (lb, v) d') <-> exists v, In (lb, v) d).
  { intros lb. assert (X : forall (z : dict Qc), (exists v, In (lb, v) z) <-> In lb (map fst z)). { intros z. rewrite in_map_iff. split; [intros (v & I); exists (lb, v); split; [reflexivity|exact I]|intros ([k v] & <- & I); exists v; exact I]. } rewrite !X, K. reflexivity. }
  split; [|split].
  - unfold rescaled, same_shell, same_time, has_label, has_value. cbn [set_data i_cls i_t i_end i_unit i_tz i_data i_idx i_weight]. rewrite Hd. split; [repeat split|]. split; [reflexivity|]. split; [exact L|].
    intros lb v u I I'. destruct (F2_In_l _ _ _ _ E I) as ([k w] & J & Q & _ & _ & Z). cbn [fst snd] in *. subst k. assert (w = u) as -> by (apply (NoDup_fst_eq d' lb); [rewrite K; exact N|exact J|exact I']). apply normalize_inv in Z. apply Z.
  - exists d'. split; [reflexivity|]. unfold dkeys. rewrite K. exact N.
  - intros lb (v & V). unfold has_value in V. rewrite Hd in V. destruct (F2_In_l _ _ _ _ E V) as (kv & _ & _ & M1 & M2 & Z). cbn [fst snd] in *. apply normalize_inv in Z. split; [apply Z|split; assumption].
Qed.
Lemma normalize_item_ok mins maxs x : with_dict x -> (forall lb, has_label x lb -> dmem lb mins = true /\ dmem lb maxs = true /\ factor mins lb <> factor maxs lb) -> exists y, normalize_item mins maxs x = Ok y.
Proof.
  intros (d & Hd & N) H. unfold normalize_item, item_data. rewrite Hd. cbn [bind].
  destruct (mapM_exists (normalize_entry mins maxs) (fun _ _ => True) d) as (d' & E & _); [|unfold normalize_data; rewrite E; cbn [bind]; eexists; reflexivity].
  intros [k v] I. destruct (H k) as (A & B & C); [exists v; unfold has_value; rewrite Hd; exact I|]. unfold normalize_entry, pick, factor, dmem in *. cbn [fst snd].
  destruct (dget k mins) as [lo|]; [|discriminate]. destruct (dget k maxs) as [hi|]; [|discriminate]. cbn [bind]. destruct (normalize_ok lo hi v C) as (y & Y & _). rewrite Y. cbn [bind]. eexists. split; [reflexivity|exact Logic.I].
Qed.

(* ---------------- the factors ---------------- *)
Lemma numbers_spec d d' : numbers d = Ok d' -> map fst d' = map fst d /\ forall lb v, In (lb, v) d' -> In (lb, Some v) d.
Proof.
  unfold numbers. intros H. apply mapM_map in H. split.
  - revert H. apply F2_keys. intros [k [v|]] [k' v'] E; cbn in *; [injection E as <- <-; reflexivity|discriminate].
  - intros lb v I. destruct (F2_In_r _ _ _ _ H I) as ([k [w|]] & J & E); cbn in E; [injection E as <- <-; exact J|discriminate].
Qed.
Lemma numbers_ok d : (forall lb o, In (lb, o) d -> exists v, o = Some v) -> exists d', numbers d = Ok d'.
Proof.
  intros H. unfold numbers. destruct (mapM_exists (fun kv : string * option Qc => match snd kv with Some v => Ok (fst kv, v) | None => Err TypeError end) (fun _ _ => True) d) as (d' & E & _); [|eexists; exact E].
  intros [k o] I. destruct (H k o I) as (v & ->). cbn. eexists. split; [reflexivity|exact Logic.I].
Qed.
Lemma op_keys {A} e s (f : string -> result A) m : from_history e s -> numeric (s_items s) -> (do p <- op_prep s; per_label (snd p) f) = Ok m -> NoDup (map fst m).
Proof.
  intros Hh Hn. destruct (prep_ok e s Hh Hn) as (x & l & El & ->). cbn [bind snd]. intros H. apply mapM_keys in H. destruct H as [-> _]. apply item_labels_NoDup. apply Hn. rewrite El. left. reflexivity.
Qed.
Lemma numbers_factor {P : string -> Qc -> Prop} l m : NoDup (map fst m) -> by_label l m (fun lb o => exists M, o = Some M /\ P lb M) ->
  exists d, numbers m = Ok d /\ NoDup (map fst d) /\ (forall lb, In lb (map fst d) <-> label_in l lb) /\ forall lb, label_in l lb -> dmem lb d = true /\ P lb (factor d lb).
Proof.
  intros N [B1 B2]. destruct (numbers_ok m) as (d & E). { intros lb o I. destruct (B2 lb o (dget_NoDup lb m o N I)) as (M & -> & _). eexists. reflexivity. }
  exists d. split; [exact E|]. destruct (numbers_spec m d E) as [K V]. assert (Nd : NoDup (map fst d)) by (rewrite K; exact N). split; [exact Nd|]. split; [intros lb; rewrite K; apply B1|].
  intros lb L. apply B1 in L. rewrite <- K in L. apply in_map_iff in L. destruct L as ([k v] & <- & I). cbn [fst]. unfold dmem, factor. rewrite (dget_NoDup k d v Nd I). split; [reflexivity|].
  apply V in I. destruct (B2 k _ (dget_NoDup k m _ N I)) as (M & Q & H). injection Q as ->. exact H.
Qed.
Lemma factors_ok e s : ready e s -> exists mins maxs m1 m2, op_min s = Ok m1 /\ op_max s = Ok m2 /\ numbers m1 = Ok mins /\ numbers m2 = Ok maxs /\
  (forall lb, label_in (s_items s) lb -> dmem lb mins = true /\ dmem lb maxs = true) /\ ranges (s_items s) (factor mins) (factor maxs) /\
  NoDup (map fst mins) /\ NoDup (map fst maxs) /\ (forall lb, In lb (map fst mins) <-> label_in (s_items s) lb) /\ (forall lb, In lb (map fst maxs) <-> label_in (s_items s) lb).
Proof.
  intros (B & N & _). pose proof (built_history e s B N) as H. destruct (op_min_spec e s H N) as (m1 & E1 & B1). destruct (op_max_spec e s H N) as (m2 & E2 & B2).
  pose proof (op_keys e s _ m1 H N E1) as N1. pose proof (op_keys e s _ m2 H N E2) as N2.
  destruct (numbers_factor (s_items s) m1 N1 B1) as (mins & D1 & K1 & A1 & F1). destruct (numbers_factor (s_items s) m2 N2 B2) as (maxs & D2 & K2 & A2 & F2).
  exists mins, maxs, m1, m2. split; [exact E1|]. split; [exact E2|]. split; [exact D1|]. split; [exact D2|].
  split; [intros lb L; split; [apply F1; exact L|apply F2; exact L]|]. split; [intros lb L; split; [apply F1; exact L|apply F2; exact L]|].
  split; [exact K1|]. split; [exact K2|]. split; [exact A1|exact A2].
Qed.
Lemma ready_dict e s x : ready e s -> In x (s_items s) -> with_dict x.
Proof. intros (_ & N & _ & D & _) I. destruct (D x I) as (d & Hd). exists d. split; [exact Hd|]. destruct N as (_ & N & _). destruct (N x I) as [_ Q]. rewrite Hd in Q. apply Q. Qed.
Lemma same_labels e s x y lb : ready e s -> In x (s_items s) -> In y (s_items s) -> has_label x lb -> has_label y lb.
Proof.
  intros R Ix Iy H. destruct R as (B & N & _). pose proof (built_history e s B N) as Hh. destruct (prep_ok e s Hh N) as (z & l & El & _).
  assert (L : label_in (s_items s) lb) by (exists x; split; assumption).
  destruct N as (_ & Ni & Sh). pose proof (Sh x y Ix Iy) as [_ Q]. pose proof (Ni x Ix) as [_ Nx]. pose proof (Ni y Iy) as [_ Ny].
  unfold has_label, has_value in *. destruct (i_data x) as [[a|a]|], (i_data y) as [[b|b]|]; try contradiction; cbn in Q.
  - destruct H as (v & n & -> & E). assert (n < length b) by (rewrite <- Q; apply nth_error_Some; congruence). destruct (get_lt b n H) as (w & Ew & _). exists w, n. split; [reflexivity|exact Ew].
  - destruct H as (v & I). assert (J : In lb (map fst a)) by (apply in_map_iff; exists (lb, v); split; [reflexivity|exact I]). apply Q in J. apply in_map_iff in J. destruct J as ([k w] & <- & J). exists w. exact J.
Qed.
