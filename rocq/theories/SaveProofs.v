(* SaveProofs.v -- lemmas on JSON documents, files and saving. *)
From Verif Require Import SpecSave BaseLemmas PropTactics DictLemmas OpsProofs3 TransformProofs5.
From Coq Require Import DecimalString DecimalZ DecimalFacts.

Lemma pv_ind' (P : pv -> Prop) :
  P VNull -> (forall b, P (VBool b)) -> (forall q, P (VNum q)) -> (forall s, P (VStr s)) ->
  (forall l, (forall x, In x l -> P x) -> P (VList l)) -> (forall d, (forall k x, In (k, x) d -> P x) -> P (VDict d)) ->
  (forall u, P (VUnit u)) -> P VOther -> forall v, P v.
Proof.
  intros A B C D E F G H. fix IH 1. intros [|b|q|s|l|d|u|]; [exact A|apply B|apply C|apply D| | |apply G|exact H].
  - apply E. induction l as [|y l IHl]; intros x I; [destruct I|]. destruct I as [<-|I]; [apply IH|apply IHl; exact I].
  - apply F. induction d as [|[k' y] d IHd]; intros k x I; [destruct I|]. destruct I as [I|I]; [injection I as _ <-; apply IH|exact (IHd k x I)].
Qed.

(* What is read back after writing a value. *)
Definition reads_back (v w : pv) : Prop := exists j, dumps v = Ok j /\ loads j = w.

Lemma dumps_list l : dumps (VList l) = do js <- mapM dumps l; Ok (JArr js).
Proof. cbn [dumps]. f_equal. induction l as [|x l IH]; [reflexivity|]. cbn [mapM]. rewrite IH. destruct (dumps x); [|reflexivity]. cbn [bind]. destruct (mapM dumps l); reflexivity. Qed.
Lemma dumps_dict d : dumps (VDict d) = do js <- mapM (fun kv => do j <- dumps (snd kv); Ok (key_str (fst kv), j)) d; Ok (JObj js).
Proof.
  cbn [dumps]. f_equal. induction d as [|[k x] d IH]; [reflexivity|]. cbn [mapM fst snd]. rewrite IH. destruct (dumps x); [|reflexivity]. cbn [bind].
  destruct (mapM (fun kv => do j <- dumps (snd kv); Ok (key_str (fst kv), j)) d); reflexivity.
Qed.
Lemma reads_list l l' : Forall2 reads_back l l' -> reads_back (VList l) (VList l').
Proof.
  intros H. assert (Q : exists js, mapM dumps l = Ok js /\ map loads js = l').
  { induction H as [|x y l l' (j & D & L) H IH]; [exists []; split; reflexivity|]. destruct IH as (js & E & M). exists (j :: js). cbn [mapM map]. rewrite D, E, L, M. split; reflexivity. }
  destruct Q as (js & E & M). exists (JArr js). rewrite dumps_list, E. cbn [bind loads]. rewrite M. split; reflexivity.
Qed.
Lemma reads_dict d d' : NoDup (map (fun kv => key_str (fst kv)) d) ->
  Forall2 (fun a b => fst b = KS (key_str (fst a)) /\ reads_back (snd a) (snd b)) d d' -> reads_back (VDict d) (VDict d').
Proof.
  intros N H. assert (Q : exists js, mapM (fun kv => do j <- dumps (snd kv); Ok (key_str (fst kv), j)) d = Ok js /\ map fst js = map (fun kv => key_str (fst kv)) d /\ map (fun kv => (KS (fst kv), snd kv)) (map (fun kv => (fst kv, loads (snd kv))) js) = d').
  { clear N. induction H as [|[k x] [k' y] d d' [K (j & D & L)] H IH]; [exists []; repeat split; reflexivity|]. cbn [fst snd] in *. destruct IH as (js & E & F & M). exists ((key_str k, j) :: js). cbn [mapM map fst snd]. rewrite D. cbn [bind]. rewrite E. cbn [bind]. split; [reflexivity|]. split; [f_equal; exact F|]. rewrite M, L, K. reflexivity. }
  destruct Q as (js & E & F & M). exists (JObj js). rewrite dumps_dict, E. split; [reflexivity|]. cbn [loads]. rewrite dict_of_NoDup; [rewrite M; reflexivity|]. unfold dkeys. rewrite map_map. change (NoDup (map fst js)). rewrite F. exact N.
Qed.
Lemma Forall2_same {A} (R : A -> A -> Prop) l : (forall x, In x l -> R x x) -> Forall2 R l l.
Proof. induction l as [|x l IH]; intros H; constructor; [apply H; left; reflexivity|apply IH; intros y I; apply H; right; exact I]. Qed.
Lemma storable_reads v : storable v -> reads_back v v.
Proof.
  induction v using pv_ind'; intros S; inversion S; subst.
  - exists JNull; split; reflexivity.
  - exists (JBool b); split; reflexivity.
  - exists (JNum q); split; reflexivity.
  - exists (JStr s); split; reflexivity.
  - apply reads_list. apply Forall2_same. intros x I. apply H; [exact I|]. match goal with Q : forall x, In x l -> storable x |- _ => exact (Q x I) end.
  - match goal with Q : forall k x, In (k, x) d -> _ |- _ => rename Q into T end. match goal with Q : NoDup (map fst d) |- _ => rename Q into N end.
    assert (K : forall k x, In (k, x) d -> k = KS (key_str k)) by (intros k x I; destruct (T k x I) as [[s ->] _]; reflexivity).
    apply reads_dict.
    + clear S H T. induction d as [|[k x] d IH]; [constructor|]. cbn [map fst] in *. inversion N as [|? ? N1 N2]; subst. constructor; [|apply IH; [exact N2|intros k' x' I; exact (K k' x' (or_intror I))]].
      intros I. apply N1. apply in_map_iff in I. destruct I as ([k' x'] & E & I). cbn [fst] in E. assert (k' = k) as <- by (rewrite (K k' x' (or_intror I)), (K k x (or_introl eq_refl)), E; reflexivity). apply in_map_iff. exists (k', x'). split; [reflexivity|exact I].
    + apply Forall2_same. intros [k x] I. split; [exact (K k x I)|]. exact (H k x I (proj2 (T k x I))).
Qed.

(* ---------------- integers as keys ---------------- *)

Lemma str_int_str z : str_int (int_str z) = Ok z.
Proof.
  unfold str_int, int_str. rewrite NilZero.isi.
  - rewrite DecimalZ.of_to. reflexivity.
  - destruct z as [|p|p]; cbn; try discriminate. intros X. injection X as X. exact (DecimalPos.Unsigned.to_uint_nonnil _ X).
  - destruct z as [|p|p]; cbn; try discriminate. intros X. injection X as X. exact (DecimalPos.Unsigned.to_uint_nonnil _ X).
Qed.
Lemma int_str_inj a b : int_str a = int_str b -> a = b.
Proof. intros H. assert (Q : str_int (int_str a) = str_int (int_str b)) by (rewrite H; reflexivity). rewrite !str_int_str in Q. injection Q as ->. reflexivity. Qed.

(* ---------------- the data of a model ---------------- *)

Lemma dset_restore {V} k (v w : V) d : dget k d = Some v -> dset k v (dset k w d) = d.
Proof. induction d as [|[a x] d IH]; cbn [dget dset]; [discriminate|]. destruct (String.eqb_spec k a) as [->|N]; intros H. - injection H as ->. cbn [dset]. rewrite String.eqb_refl. reflexivity. - cbn [dset]. destruct (String.eqb_spec k a) as [E|_]; [contradiction|]. rewrite IH by exact H. reflexivity. Qed.
Lemma dset_as_map {V} k (w : V) d : NoDup (dkeys d) -> (exists v, dget k d = Some v) -> dset k w d = map (fun kv => if String.eqb (fst kv) k then (fst kv, w) else kv) d.
Proof.
  induction d as [|[a x] d IH]; intros N [v H]; cbn [dget dset map fst] in *; [discriminate|]. inversion N as [|? ? N1 N2]; subst. destruct (String.eqb_spec k a) as [->|E].
  - rewrite String.eqb_refl. f_equal. clear - N1. induction d as [|[b y] d IH]; [reflexivity|]. cbn [map fst]. destruct (String.eqb_spec b a) as [->|E]; [exfalso; apply N1; left; reflexivity|]. f_equal. apply IH. intros I. apply N1. right. exact I.
  - destruct (String.eqb_spec a k) as [E'|_]; [exfalso; apply E; symmetry; exact E'|]. f_equal. apply IH; [exact N2|exists v; exact H].
Qed.
Lemma map_untouched {V} k (w : V) d : dget k d = None -> map (fun kv => if String.eqb (fst kv) k then (fst kv, w) else kv) d = d.
Proof. induction d as [|[a x] d IH]; intros H; cbn [dget map fst] in *; [reflexivity|]. destruct (String.eqb_spec k a) as [->|E]; [discriminate|]. destruct (String.eqb_spec a k) as [E'|_]; [exfalso; apply E; symmetry; exact E'|]. rewrite IH by exact H. reflexivity. Qed.

Definition kept (ut : unit_text) (a b : string * pv) : Prop :=
  fst b = fst a /\ if String.eqb (fst a) "resolution" then exists u, snd a = VUnit u /\ snd b = VUnit u /\ readable ut u else reads_back (snd a) (snd b).
Definition data1 (ut : unit_text) (d : dict pv) : dict pv :=
  match dget "resolution" d with Some v => dset "resolution" (VStr (res_str ut v)) d | None => d end.

Lemma string_keys_map d : string_keys (map (fun kv => (KS (fst kv), snd kv)) d) = Some d.
Proof. induction d as [|[k v] d IH]; [reflexivity|]. cbn [map string_keys fst snd]. rewrite IH. reflexivity. Qed.

Lemma kept_keys ut d d' : Forall2 (kept ut) d d' -> dkeys d' = dkeys d.
Proof. induction 1 as [|[k v] [k' v'] d d' [K _] _ IH]; [reflexivity|]. cbn [dkeys map fst] in *. unfold dkeys in IH. rewrite K, IH. reflexivity. Qed.
Lemma kept_get ut d d' : Forall2 (kept ut) d d' -> forall v, dget "resolution" d = Some v -> exists u, v = VUnit u /\ dget "resolution" d' = Some (VUnit u) /\ readable ut u.
Proof.
  induction 1 as [|[k v] [k' v'] d d' [K R] _ IH]; intros w H; cbn [dget fst snd] in *; [discriminate|]. subst k'. destruct (String.eqb_spec "resolution" k) as [<-|E].
  - injection H as ->. rewrite String.eqb_refl in R. destruct R as (u & -> & -> & R). exists u. repeat split; exact R.
  - apply IH. exact H.
Qed.
Lemma kept_none ut d d' : Forall2 (kept ut) d d' -> dget "resolution" d = None -> dget "resolution" d' = None.
Proof. induction 1 as [|[k v] [k' v'] d d' [K R] _ IH]; intros H; cbn [dget fst snd] in *; [reflexivity|]. subst k'. destruct (String.eqb_spec "resolution" k) as [<-|E]; [discriminate|]. apply IH. exact H. Qed.

(* Writing the data (with the string of the resolution), reading them and making the unit again *)
Lemma data_round_trip ut d d' : NoDup (dkeys d) -> Forall2 (kept ut) d d' ->
  exists j d1, dump_data (data1 ut d) = Ok j /\ loads j = VDict (map (fun kv => (KS (fst kv), snd kv)) d1) /\
    ((dget "resolution" d1 = None /\ d1 = d') \/ (exists s u, dget "resolution" d1 = Some (VStr s) /\ ut_parse ut s = Ok u /\ dset "resolution" (VUnit u) d1 = d')).
Proof.
  intros N F. pose proof (kept_keys _ _ _ F) as KK. unfold data1.
  destruct (dget "resolution" d) as [v|] eqn:G.
  - destruct (kept_get _ _ _ F _ G) as (u & -> & G' & R). cbn [res_str]. set (s := ut_str ut u).
    assert (Q : reads_back (VDict (map (fun kv => (KS (fst kv), snd kv)) (dset "resolution" (VStr s) d))) (VDict (map (fun kv => (KS (fst kv), snd kv)) (dset "resolution" (VStr s) d')))).
    { rewrite !dset_as_map; [|rewrite KK; exact N|eexists; exact G'|exact N|eexists; exact G]. apply reads_dict.
      - rewrite !map_map. erewrite map_ext; [exact N|]. intros [k x]. cbn [fst]. destruct (String.eqb k "resolution"); reflexivity.
      - clear - F. induction F as [|[k v] [k' v'] d d' [K R] _ IH]; [constructor|]. cbn [map fst snd] in *. subst k'. constructor; [|exact IH]. destruct (String.eqb k "resolution"); cbn [fst snd key_str]; (split; [reflexivity|]); [exists (JStr s); split; reflexivity|exact R]. }
    destruct Q as (j & D & L). exists j, (dset "resolution" (VStr s) d'). split; [exact D|]. split; [exact L|]. right. exists s, u.
    split; [rewrite dget_dset; rewrite String.eqb_refl; reflexivity|]. split; [exact R|]. apply dset_restore. exact G'.
  - assert (Q : reads_back (VDict (map (fun kv => (KS (fst kv), snd kv)) d)) (VDict (map (fun kv => (KS (fst kv), snd kv)) d'))).
    { apply reads_dict; [rewrite map_map; cbn [key_str fst]; exact N|]. clear - F G. induction F as [|[k v] [k' v'] d d' [K R] _ IH]; [constructor|]. cbn [map fst snd dget] in *. subst k'. destruct (String.eqb_spec "resolution" k) as [<-|E]; [discriminate|]. constructor; [|apply IH; exact G]. cbn [fst snd key_str]. split; [reflexivity|]. destruct (String.eqb_spec k "resolution") as [E'|_]; [exfalso; apply E; symmetry; exact E'|exact R]. }
    destruct Q as (j & D & L). exists j, d'. split; [exact D|]. split; [exact L|]. left. split; [apply (kept_none _ _ _ F G)|reflexivity].
Qed.
Lemma storable_kept ut d : storable_data ut d -> Forall2 (kept ut) d d.
Proof.
  intros [_ H]. apply Forall2_same. intros [k v] I. specialize (H k v I). split; [reflexivity|]. cbn [fst snd] in *. destruct (String.eqb k "resolution"); [destruct H as (u & -> & R); exists u; repeat split; exact R|apply storable_reads; exact H].
Qed.

(* ---------------- files ---------------- *)

Lemma path_eqb_spec a b : reflect (a = b) (path_eqb a b).
Proof.
  unfold path_eqb. revert b. induction a as [|x a IH]; intros [|y b]; cbn [strings_eqb]; try (constructor; congruence).
  destruct (String.eqb_spec x y) as [->|N]; cbn [andb]; [|constructor; congruence]. destruct (IH b) as [->|N]; constructor; congruence.
Qed.
Lemma fs_set_same f p n : fs_set f p n p = Some n.
Proof. unfold fs_set. destruct (path_eqb_spec p p); [reflexivity|contradiction]. Qed.
Lemma fs_set_other f p n q : q <> p -> fs_set f p n q = f q.
Proof. intros N. unfold fs_set. destruct (path_eqb_spec q p); [contradiction|reflexivity]. Qed.

(* Making directories: what was there is left, all the directories up to the one are there, nothing else appears. *)
Lemma makedirs_keeps todo : forall f done q n, f q = Some n -> fst (makedirs f done todo) q = Some n.
Proof.
  induction todo as [|x todo IH]; intros f done q n H; cbn [makedirs]; [exact H|]. destruct (f (done ++ [x])) as [[|c]|] eqn:E; [apply IH; exact H|exact H|]. apply IH. rewrite fs_set_other; [exact H|]. intros ->. rewrite E in H. discriminate.
Qed.
Lemma makedirs_adds todo : forall f done q, fst (makedirs f done todo) q <> f q -> exists r s, r <> [] /\ r ++ s = todo /\ q = done ++ r.
Proof.
  induction todo as [|x todo IH]; intros f done q H; cbn [makedirs] in H; [contradiction|]. destruct (f (done ++ [x])) as [[|c]|] eqn:E.
  - destruct (IH _ _ _ H) as (r & s & N & R & ->). exists (x :: r), s. split; [discriminate|]. split; [cbn; rewrite R; reflexivity|]. rewrite <- app_assoc. reflexivity.
  - contradiction.
  - destruct (path_eqb_spec q (done ++ [x])) as [->|N].
    + exists [x], todo. split; [discriminate|]. split; reflexivity.
    + destruct (IH (fs_set f (done ++ [x]) NDir) (done ++ [x]) q) as (r & s & N' & R & ->); [rewrite (fs_set_other f _ _ q N); exact H|]. exists (x :: r), s. split; [discriminate|]. split; [cbn; rewrite R; reflexivity|]. rewrite <- app_assoc. reflexivity.
Qed.
Lemma makedirs_ok todo : forall f done, (forall r s, todo = r ++ s -> r <> [] -> f (done ++ r) = None \/ f (done ++ r) = Some NDir) ->
  snd (makedirs f done todo) = Ok tt /\ forall r s, todo = r ++ s -> r <> [] -> fst (makedirs f done todo) (done ++ r) = Some NDir.
Proof.
  induction todo as [|x todo IH]; intros f done H; cbn [makedirs].
  - split; [reflexivity|]. intros r s E N. symmetry in E. apply app_eq_nil in E. destruct E as [-> _]. contradiction.
  - assert (D : forall f', (f' (done ++ [x]) = Some NDir) -> (forall q, q <> done ++ [x] -> f' q = f q) ->
      snd (makedirs f' (done ++ [x]) todo) = Ok tt /\ forall r s, x :: todo = r ++ s -> r <> [] -> fst (makedirs f' (done ++ [x]) todo) (done ++ r) = Some NDir).
    { intros f' A B. destruct (IH f' (done ++ [x])) as [P Q].
      - intros r s E N. rewrite <- app_assoc. cbn [app]. rewrite B; [apply (H (x :: r) s); [rewrite E; reflexivity|discriminate]|]. intros X. apply app_inv_head in X. injection X as X. contradiction.
      - split; [exact P|]. intros r s E N. destruct r as [|y r]; [contradiction|]. injection E as <- E. destruct r as [|z r]; [apply makedirs_keeps; exact A|]. specialize (Q (z :: r) s E ltac:(discriminate)). rewrite <- app_assoc in Q. exact Q. }
    destruct (H [x] todo eq_refl ltac:(discriminate)) as [E|E]; rewrite E.
    + apply D; [apply fs_set_same|intros q N; apply fs_set_other; exact N].
    + apply D; [exact E|reflexivity].
Qed.
