(* SaveProofs2.v -- lemmas on saving and loading. *)
From Verif Require Import SpecSave BaseLemmas PropTactics DictLemmas SaveProofs.

Definition data_file (p : path) : path := p ++ ["data.json"%string].

(* whatever happens, the model is as before *)
Lemma save_model ut d m p f : fst (fst (save ut d m p f)) = m.
Proof.
  unfold save. destruct (negb (c_parametric (pm_class m))); [reflexivity|]. destruct (c_fit (pm_class m) && negb (pm_fitted m)); [reflexivity|]. destruct p as [|x p]; [reflexivity|]. destruct (f (x :: p)); [reflexivity|].
  destruct (match d with DNoDir => (f, Err GenericException) | _ => makedirs f [] (x :: p) end) as [f1 [o|]]; [|reflexivity].
  destruct (write_data d f1 ((x :: p) ++ ["data.json"%string]) _) as [f2 r]. cbn [fst]. destruct m as [c b data]. cbn [pm_class pm_fitted pm_data]. f_equal. unfold dmem. destruct (dget "resolution" data) as [v|] eqn:G.
  - rewrite dget_dset, String.eqb_refl. apply dset_restore. exact G.
  - rewrite G. reflexivity.
Qed.

Lemma write_keeps d f p j q n : f p = None -> f q = Some n -> fst (write_data d f p j) q = Some n.
Proof.
  intros N H. assert (Q : q <> p) by (intros ->; rewrite N in H; discriminate). unfold write_data. destruct d, j; cbn [fst]; try exact H; rewrite fs_set_other by exact Q; exact H.
Qed.
Lemma write_adds d f p j q : fst (write_data d f p j) q <> f q -> q = p.
Proof. intros H. destruct (path_eqb_spec q p) as [E|N]; [exact E|]. exfalso. apply H. unfold write_data. destruct d, j; cbn [fst]; try reflexivity; apply fs_set_other; exact N. Qed.

Lemma save_fs ut d m p f : exists f1 f2 r, save ut d m p f = (m, f2, r) /\
  (f2 = f /\ r <> Ok tt \/
   savable m /\ p <> [] /\ f p = None /\ d <> DNoDir /\ f1 = fst (makedirs f [] p) /\
   ((exists x, snd (makedirs f [] p) = Err x /\ f2 = f1 /\ r = Err x) \/
    snd (makedirs f [] p) = Ok tt /\ f2 = fst (write_data d f1 (data_file p) (dump_data (data1 ut (pm_data m)))) /\ r = snd (write_data d f1 (data_file p) (dump_data (data1 ut (pm_data m)))))).
Proof.
  pose proof (save_model ut d m p f) as M. unfold save in *. destruct (c_parametric (pm_class m)) eqn:C; cbn [negb] in *; [|exists f, f, (Err TypeError); split; [reflexivity|left; split; [reflexivity|discriminate]]].
  destruct (c_fit (pm_class m) && negb (pm_fitted m)) eqn:C2; [exists f, f, (Err NotFittedError); split; [reflexivity|left; split; [reflexivity|discriminate]]|].
  destruct p as [|x p]; [exists f, f, (Err ValueError); split; [reflexivity|left; split; [reflexivity|discriminate]]|].
  destruct (f (x :: p)) as [n|] eqn:E; [exists f, f, (Err ValueError); split; [reflexivity|left; split; [reflexivity|discriminate]]|].
  assert (Q : d = DNoDir \/ d <> DNoDir) by (destruct d; [right|left|right|right]; congruence). destruct Q as [->|Nd]; [exists f, f, (Err GenericException); split; [reflexivity|left; split; [reflexivity|discriminate]]|].
  assert (S : savable m) by (split; [exact C|intros Y; rewrite Y in C2; cbn [andb] in C2; destruct (pm_fitted m); [reflexivity|discriminate]]).
  set (r0 := match d with DNoDir => (f, Err GenericException) | _ => makedirs f [] (x :: p) end) in *.
  assert (R : r0 = makedirs f [] (x :: p)) by (destruct d; [reflexivity|contradiction|reflexivity|reflexivity]). rewrite R in *. clear R r0. destruct (makedirs f [] (x :: p)) as [f1 [[]|e]] eqn:MD.
  - cbn zeta in *. fold (data1 ut (pm_data m)) in *. fold (data_file (x :: p)) in *. destruct (write_data d f1 (data_file (x :: p)) (dump_data (data1 ut (pm_data m)))) as [f2 r] eqn:W. cbn [fst] in M. rewrite M. exists f1, f2, r. split; [reflexivity|]. right. split; [exact S|]. split; [discriminate|]. split; [reflexivity|]. split; [exact Nd|]. split; [reflexivity|]. right. split; [reflexivity|]. rewrite W. split; reflexivity.
  - exists f1, f1, (Err e). split; [reflexivity|]. right. split; [exact S|]. split; [discriminate|]. split; [reflexivity|]. split; [exact Nd|]. split; [reflexivity|]. left. exists e. repeat split; reflexivity.
Qed.

Lemma snoc_neq {A} (p : list A) x : p ++ [x] <> p.
Proof. intros E. apply (f_equal (@length A)) in E. rewrite app_length in E. cbn in E. lia. Qed.
Lemma prefix_length {A} (q r p : list A) : q ++ r = p -> length q <= length p.
Proof. intros <-. rewrite app_length. lia. Qed.
Lemma makedirs_file f p x : tree f -> f p = None -> p <> [] -> fst (makedirs f [] p) (p ++ [x]) = None.
Proof.
  intros T N Np. assert (F : f (p ++ [x]) = None).
  { destruct (f (p ++ [x])) eqn:E; [|reflexivity]. destruct (T p x) as [X|X]; [rewrite E; discriminate|contradiction|rewrite N in X; discriminate]. }
  destruct (fst (makedirs f [] p) (p ++ [x])) as [n|] eqn:E; [|reflexivity]. exfalso. destruct (makedirs_adds p f [] (p ++ [x])) as (r & s & _ & R & Q); [rewrite E, F; discriminate|]. cbn [app] in Q. apply prefix_length in R. rewrite <- Q, app_length in R. cbn in R. lia.
Qed.
(* what was there is left *)
Lemma save_keeps ut d m p f q n : tree f -> f q = Some n -> snd (fst (save ut d m p f)) q = Some n.
Proof.
  intros T H. destruct (save_fs ut d m p f) as (f1 & f2 & r & E & C). rewrite E. cbn [fst snd]. destruct C as [[-> _]|(S & Np & N & Nd & -> & [(x & _ & -> & _)|(_ & -> & _)])]; [exact H|apply makedirs_keeps; exact H|].
  apply write_keeps; [apply makedirs_file; assumption|]. apply makedirs_keeps. exact H.
Qed.
(* what is added *)
Lemma save_adds ut d m p f q : snd (fst (save ut d m p f)) q <> f q -> (exists s, q <> [] /\ p = q ++ s) \/ q = data_file p.
Proof.
  destruct (save_fs ut d m p f) as (f1 & f2 & r & E & C). rewrite E. cbn [fst snd]. intros H.
  assert (A : fst (makedirs f [] p) q <> f q -> (exists s, q <> [] /\ p = q ++ s) \/ q = data_file p).
  { intros X. destruct (makedirs_adds _ _ _ _ X) as (a & b & Na & R & Q). cbn [app] in Q. subst q. left. exists b. split; [exact Na|symmetry; exact R]. }
  destruct C as [[-> _]|(S & Np & N & Nd & -> & [(x & _ & -> & _)|(_ & -> & _)])]; [contradiction|apply A; exact H|].
  destruct (path_eqb_spec q (data_file p)) as [->|X]; [right; reflexivity|]. apply A. intros Y. apply X. eapply write_adds. intros Z. apply H. rewrite Z. exact Y.
Qed.

(* a successful save, and the load *)
Lemma load_file ut c f p j d1 d' : c_buildable c = true -> f (data_file p) = Some (NFile (Some j)) -> loads j = VDict (map (fun kv => (KS (fst kv), snd kv)) d1) ->
  ((dget "resolution" d1 = None /\ d1 = d') \/ (exists s u, dget "resolution" d1 = Some (VStr s) /\ ut_parse ut s = Ok u /\ dset "resolution" (VUnit u) d1 = d')) ->
  load ut c f p = Ok (mkPModel c true d').
Proof.
  intros B F L C. unfold load. rewrite B. cbn [negb]. unfold read_json. fold (data_file p). rewrite F. cbn [bind]. rewrite L, string_keys_map. destruct C as [[G ->]|(s & u & G & P & <-)]; rewrite G; [reflexivity|]. rewrite P. reflexivity.
Qed.
Lemma save_ok ut m p f d' : savable m -> tree f -> free f p -> NoDup (dkeys (pm_data m)) -> Forall2 (kept ut) (pm_data m) d' ->
  exists f', save ut DFine m p f = (m, f', Ok tt) /\ tree f' /\ f' p = Some NDir /\
    forall c f2, c_buildable c = true -> f2 (data_file p) = f' (data_file p) -> load ut c f2 p = Ok (mkPModel c true d').
Proof.
  intros [C Fi] T (Np & N & Fr) ND K. destruct (data_round_trip ut _ _ ND K) as (j & d1 & D & L & R).
  destruct (makedirs_ok p f [] (fun r s E Nr => Fr r s E Nr)) as [MO MD]. destruct (save_fs ut DFine m p f) as (f1 & f2 & r & E & Q).
  destruct Q as [[-> X]|(_ & _ & _ & _ & -> & [(x & X & _)|(_ & -> & ->)])].
  - exfalso. unfold save in E. rewrite C in E. cbn [negb] in E. assert (Y : c_fit (pm_class m) && negb (pm_fitted m) = false) by (destruct (c_fit (pm_class m)); [rewrite (Fi eq_refl)|]; reflexivity). rewrite Y in E. destruct p as [|y p]; [contradiction|]. rewrite N in E.
    destruct (makedirs f [] (y :: p)) as [f1' o] eqn:M. cbn [snd] in MO. subst o. fold (data1 ut (pm_data m)) in E. rewrite D in E. cbn in E. apply X. congruence.
  - rewrite MO in X. discriminate.
  - rewrite D in *. cbn [write_data snd fst] in E. eexists. split; [rewrite E; reflexivity|]. set (g := fst (makedirs f [] p)) in *.
    assert (Gp : forall q s, p = q ++ s -> q <> [] -> fs_set g (data_file p) (NFile (Some j)) q = Some NDir).
    { intros q s Eq Nq. rewrite fs_set_other; [apply (MD q s Eq Nq)|]. intros ->. symmetry in Eq. apply prefix_length in Eq. unfold data_file in Eq. rewrite app_length in Eq. cbn in Eq. lia. }
    split; [|split].
    + intros q x Hq. destruct (path_eqb_spec (q ++ [x]) (data_file p)) as [Eq|Nq].
      * unfold data_file in Eq. apply app_inj_tail in Eq. destruct Eq as [-> _]. right. apply (Gp p []); [rewrite app_nil_r; reflexivity|exact Np].
      * rewrite fs_set_other in Hq by exact Nq. destruct (f (q ++ [x])) as [n|] eqn:F.
        -- destruct (T q x) as [X|X]; [rewrite F; discriminate|left; exact X|]. right. rewrite fs_set_other; [apply makedirs_keeps; exact X|]. intros Y. assert (Z : f (data_file p) = None).
           { destruct (f (data_file p)) eqn:W; [|reflexivity]. destruct (T p "data.json"%string) as [U|U]; [unfold data_file in W; rewrite W; discriminate|contradiction|rewrite N in U; discriminate]. } rewrite <- Y, X in Z. discriminate.
        -- destruct (makedirs_adds p f [] (q ++ [x])) as (a & b & Na & Ra & Qa); [rewrite F; exact Hq|]. cbn [app] in Qa. destruct q as [|z q]; [left; reflexivity|]. right. apply (Gp (z :: q) ([x] ++ b)); [|discriminate]. rewrite <- Ra, <- Qa, <- app_assoc. reflexivity.
    + apply (Gp p []); [rewrite app_nil_r; reflexivity|exact Np].
    + intros c f2 B F. apply (load_file ut c f2 p j d1 d' B); [rewrite F; apply fs_set_same|exact L|exact R].
Qed.
