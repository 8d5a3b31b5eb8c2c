(* PropCache.v -- THEOREMS C81 (the sampling interval and the resolution guessed for a series). *)
From Verif Require Import SpecCache BaseLemmas PropTactics SeriesProofs3 SamplingProofs AccessProofs2 Witness PropAccess PropTransform PropIntervals.
From Coq Require Import Lia.

Lemma ask_series fuel k : k_series (fst (ask fuel k)) = k_series k.
Proof. unfold ask. destruct (is_points (k_series k)) as [[|]|]; try reflexivity. destruct (k_interval k); [reflexivity|]. destruct (detect_interval fuel (s_items (k_series k))) as [[|]|]; reflexivity. Qed.
Lemma guess_series fuel e k : k_series (fst (guess fuel e k)) = k_series k.
Proof.
  unfold guess. destruct (is_points (k_series k)) as [[|]|]; try reflexivity. destruct (Nat.leb _ 1); [reflexivity|]. destruct (resolution (k_series k)) as [[|u]|]; try reflexivity. cbv zeta.
  set (k1 := match k_guess k with Some _ => k | None => _ end). assert (E : k_series k1 = k_series k). { unfold k1. destruct (k_guess k); [reflexivity|]. destruct (snd (ask fuel k)) as [v|]; [|apply ask_series]. destruct (unit_of_interval e (fst v)); [cbn [k_series]|]; apply ask_series. }
  destruct (k_guess k1); cbn [fst]; [rewrite ask_series|]; exact E.
Qed.
Lemma describe_series fuel e k : k_series (fst (describe fuel e k)) = k_series k.
Proof. unfold describe. destruct (s_items (k_series k)); [reflexivity|]. destruct (is_points (k_series k)) as [[|]|]; try reflexivity. destruct (resolution (k_series k)) as [[|]|]; try reflexivity. cbn [fst]. apply ask_series. Qed.

(* ===================== C81 ===================== *)
(* Asking changes nothing of the series: its items, resolution and all the rest are those it has if the questions are left out. *)
Theorem C81_questions_change_nothing : forall fuel e cs k, k_series (kruns fuel e k cs) = k_series (kruns fuel e k (filter (fun c => negb (question c)) cs)).
Proof.
  intros fuel e cs. enough (G : forall k k', k_series k = k_series k' -> k_series (kruns fuel e k cs) = k_series (kruns fuel e k' (filter (fun c => negb (question c)) cs))) by (intros k; apply G; reflexivity).
  induction cs as [|c cs IH]; intros k k' E; [exact E|]. unfold kruns. cbn [fold_left filter]. fold (kruns fuel e (kstep fuel e k c) cs). destruct c as [o| | | |]; cbn [question negb fold_left].
  - fold (kruns fuel e (kstep fuel e k' (Change o)) (filter (fun c => negb (question c)) cs)). apply IH. cbn [kstep change k_series]. rewrite E. reflexivity.
  - apply IH. cbn [kstep]. rewrite ask_series. exact E.
  - apply IH. cbn [kstep]. rewrite guess_series. exact E.
  - apply IH. cbn [kstep]. rewrite describe_series. exact E.
  - fold (kruns fuel e (kstep fuel e k' Duplicate) (filter (fun c => negb (question c)) cs)). apply IH. cbn [kstep duplicate]. unfold duplicate. rewrite E. destruct (ts_duplicate e (k_series k')) as [s|]; cbn [bind k_series]; [reflexivity|exact E].
Qed.
Print Assumptions C81_questions_change_nothing.

(* What is kept stays, whatever the calls. *)
Lemma ask_kept fuel k : (forall v, k_interval k = Some v -> k_interval (fst (ask fuel k)) = Some v) /\ k_guess (fst (ask fuel k)) = k_guess k.
Proof. unfold ask. destruct (is_points (k_series k)) as [[|]|]; try (split; [auto|reflexivity]). destruct (k_interval k) eqn:V; [split; [cbn [fst]; rewrite V; auto|reflexivity]|]. destruct (detect_interval fuel (s_items (k_series k))) as [[|]|]; (split; [discriminate|reflexivity]). Qed.
Lemma guess_kept fuel e k : (forall v, k_interval k = Some v -> k_interval (fst (guess fuel e k)) = Some v) /\ (forall u, k_guess k = Some u -> k_guess (fst (guess fuel e k)) = Some u).
Proof.
  unfold guess. destruct (is_points (k_series k)) as [[|]|]; try (now split). destruct (Nat.leb _ 1); [now split|]. destruct (resolution (k_series k)) as [[|u0]|]; try (now split). cbv zeta.
  destruct (k_guess k) as [u|] eqn:G.
  - rewrite G. cbn [fst]. destruct (ask_kept fuel k) as [A B]. split; [exact A|]. intros w W. rewrite B. congruence.
  - split; [|discriminate]. intros v V. destruct (ask_kept fuel k) as [A B]. specialize (A v V). destruct (snd (ask fuel k)) as [w|]; [destruct (unit_of_interval e (fst w))|]; cbn [k_guess k_interval k_series].
    + cbn [fst]. apply ask_kept. exact A.
    + rewrite B, G. exact A.
    + rewrite B, G. exact A.
Qed.
Lemma describe_kept fuel e k : (forall v, k_interval k = Some v -> k_interval (fst (describe fuel e k)) = Some v) /\ k_guess (fst (describe fuel e k)) = k_guess k.
Proof. unfold describe. destruct (s_items (k_series k)); [split; [auto|reflexivity]|]. destruct (is_points (k_series k)) as [[|]|]; try (split; [auto|reflexivity]). destruct (resolution (k_series k)) as [[|]|]; try (split; [auto|reflexivity]). cbn [fst]. apply ask_kept. Qed.
Lemma kept_stays fuel e cs k v u : k_interval k = Some v -> k_guess k = Some u -> k_interval (kruns fuel e k cs) = Some v /\ k_guess (kruns fuel e k cs) = Some u.
Proof.
  revert k. induction cs as [|c cs IH]; intros k V U; [split; assumption|]. unfold kruns. cbn [fold_left]. apply IH; destruct c as [o| | | |]; cbn [kstep change k_interval k_guess]; try assumption.
  - apply ask_kept. exact V.
  - apply guess_kept. exact V.
  - apply describe_kept. exact V.
  - unfold duplicate. destruct (ts_duplicate e (k_series k)); exact V.
  - rewrite (proj2 (ask_kept fuel k)). exact U.
  - apply guess_kept. exact U.
  - rewrite (proj2 (describe_kept fuel e k)). exact U.
  - unfold duplicate. destruct (ts_duplicate e (k_series k)); exact U.
Qed.
Lemma ask_ok fuel k k' v : ask fuel k = (k', Ok v) -> k_interval k' = Some v /\ k_guess k' = k_guess k /\ is_points (k_series k) = Ok true.
Proof.
  unfold ask. destruct (is_points (k_series k)) as [[|]|]; try discriminate. destruct (k_interval k) eqn:V; [intros [= <- <-]; auto|]. destruct (detect_interval fuel (s_items (k_series k))) as [[|]|]; try discriminate. intros [= <- <-]. cbn. auto.
Qed.
Lemma guess_ok fuel e k k' u c : guess fuel e k = (k', Ok (u, c)) -> k_guess k' = Some u /\ exists d, k_interval k' = Some (d, c).
Proof.
  unfold guess. destruct (is_points (k_series k)) as [[|]|]; try discriminate. destruct (Nat.leb _ 1); [discriminate|]. destruct (resolution (k_series k)) as [[|u0]|]; try discriminate. cbv zeta. set (k1 := match k_guess k with Some _ => k | None => _ end).
  destruct (k_guess k1) as [w|] eqn:W; [|discriminate]. destruct (ask fuel k1) as [k2 [[d c']|]] eqn:A; cbn [fst snd bind]; [|discriminate]. intros [= <- <- <-]. destruct (ask_ok fuel k1 k2 (d, c') A) as (V & G & _). split; [congruence|]. exists d. exact V.
Qed.
(* Once guessed, the resolution and its confidence are the same for ever: also after adding and removing items, and in duplicates. *)
Theorem C81_kept_for_ever : forall fuel e k k1 u c, guess fuel e k = (k1, Ok (u, c)) ->
  forall cs k2 r, guess fuel e (kruns fuel e k1 cs) = (k2, Ok r) -> r = (u, c).
Proof.
  intros fuel e k k1 u c G cs k2 [u' c'] R. destruct (guess_ok _ _ _ _ _ _ G) as (Gu & d & Gv). destruct (kept_stays fuel e cs k1 (d, c) u Gv Gu) as [V U]. destruct (guess_ok _ _ _ _ _ _ R) as (Gu' & d' & Gv').
  pose proof (guess_kept fuel e (kruns fuel e k1 cs)) as [A B]. rewrite R in A, B. cbn [fst] in A, B. specialize (A _ V). specialize (B _ U). congruence.
Qed.
Print Assumptions C81_kept_for_ever.

(* The first time it is asked for, the resolution guessed is the unit of a distance between neighbours which is the most frequent.
   Missing: series where the distances are almost all different, for which the detection may not even end (C39). *)
Lemma no_questions fuel e s cs : (forall c, In c cs -> question c = false) -> kruns fuel e (nothing_kept s) cs = nothing_kept (k_series (kruns fuel e (nothing_kept s) cs)).
Proof.
  revert s. induction cs as [|c cs IH]; intros s Q; [reflexivity|]. unfold kruns. cbn [fold_left]. fold (kruns fuel e (kstep fuel e (nothing_kept s) c) cs). assert (X : exists s', kstep fuel e (nothing_kept s) c = nothing_kept s').
  { pose proof (Q c (or_introl eq_refl)) as Qc. destruct c as [o| | | |]; try discriminate; cbn [kstep].
    - eexists. reflexivity.
    - unfold duplicate. cbn [k_series nothing_kept]. destruct (ts_duplicate e s); cbn [bind]; eexists; reflexivity. }
  destruct X as [s' ->]. apply IH. intros z Hz. apply Q. right. exact Hz.
Qed.
Lemma of_points_ok s : of_points (s_items s) -> is_points s = Ok true.
Proof. intros (x & Hx & Sx). unfold is_points, item_type. destruct (s_items s) as [|y l]; [discriminate|]. injection Hx as ->. unfold is_slot in Sx. destruct (i_cls x); try reflexivity; discriminate. Qed.
Theorem C81_first_time_partial : forall fuel e s cs, (forall c, In c cs -> question c = false) -> let k := kruns fuel e (nothing_kept s) cs in let l := s_items (k_series k) in
  of_points l -> 2 <= length l -> resolution (k_series k) = Some RVar -> some_repeated l ->
  exists d c, most_frequent l d /\ Qcle q0 c /\ Qcle c q1 /\ snd (ask fuel k) = Ok (Some d, c) /\ forall u, unit_of_s e d = Ok u -> snd (guess fuel e k) = Ok (u, c).
Proof.
  intros fuel e s cs Q k l P L R (ds & ks & Hs & Hk & Hc). unfold l, k in *. clear l k. rewrite (no_questions fuel e s cs Q) in *. set (s1 := k_series (kruns fuel e (nothing_kept s) cs)) in *. cbn [k_series nothing_kept] in *.
  assert (Nd : ds <> []). { intros ->. destruct Hs as [Hs _]. unfold times in Hs. rewrite map_length in Hs. cbn in Hs. lia. }
  destruct (C39_most_frequent_partial (s_items s1) ds ks Hs Nd Hk Hc) as (d & c & D & A & B & C1 & C2). exists d, c. assert (Ask : ask fuel (nothing_kept s1) = (mkKept s1 (Some (Some d, c)) None, Ok (Some d, c))) by (unfold ask; cbn [k_series nothing_kept k_interval k_guess]; rewrite (of_points_ok s1 P), D; reflexivity).
  split; [exists ds; auto|]. split; [exact C1|]. split; [exact C2|]. split; [rewrite Ask; reflexivity|]. intros u U. unfold guess. cbn [k_series nothing_kept]. rewrite (of_points_ok s1 P). destruct (Nat.leb_spec (length (s_items s1)) 1) as [F|_]; [lia|]. rewrite R. cbn [k_guess nothing_kept]. rewrite Ask. cbn [fst snd unit_of_interval k_series k_interval]. rewrite U. cbn [k_guess].
  unfold ask. cbn [k_series k_interval]. rewrite (of_points_ok s1 P). reflexivity.
Qed.
Print Assumptions C81_first_time_partial.

(* As long as the series is not changed after the first question, what is kept is the interval of its points, and resampling gives the
   same with and without questions. *)
Lemma questions_only fuel e s cs k : (forall c, In c cs -> question c = true) -> k_series k = s -> (forall v, k_interval k = Some v -> is_points s = Ok true /\ detect_interval fuel (s_items s) = Some (Ok v)) ->
  k_series (kruns fuel e k cs) = s /\ (forall v, k_interval (kruns fuel e k cs) = Some v -> is_points s = Ok true /\ detect_interval fuel (s_items s) = Some (Ok v)).
Proof.
  revert k. induction cs as [|c cs IH]; intros k Q E V; [split; assumption|]. unfold kruns. cbn [fold_left].
  assert (AskV : forall k, k_series k = s -> (forall v, k_interval k = Some v -> is_points s = Ok true /\ detect_interval fuel (s_items s) = Some (Ok v)) -> forall v, k_interval (fst (ask fuel k)) = Some v -> is_points s = Ok true /\ detect_interval fuel (s_items s) = Some (Ok v)).
  { clear. intros k E V v. unfold ask. rewrite E. destruct (is_points s) as [[|]|] eqn:P; try (cbn [fst]; intros H; apply V; exact H). destruct (k_interval k) eqn:K; [cbn [fst]; rewrite K; intros H; apply V; exact H|]. destruct (detect_interval fuel (s_items s)) as [[w|]|]; cbn [fst k_interval]; rewrite ?K; try discriminate. intros [= <-]. auto. }
  apply IH.
  - intros z Hz. apply Q. right. exact Hz.
  - destruct c as [o| | | |]; cbn [kstep]; [discriminate (Q _ (or_introl eq_refl))|rewrite ask_series; exact E|rewrite guess_series; exact E|rewrite describe_series; exact E|discriminate (Q _ (or_introl eq_refl))].
  - destruct c as [o| | | |]; cbn [kstep]; [discriminate (Q _ (or_introl eq_refl))|apply AskV; assumption| | |discriminate (Q _ (or_introl eq_refl))].
    + unfold guess. destruct (is_points (k_series k)) as [[|]|] eqn:P; try exact V. destruct (Nat.leb _ 1); [exact V|]. destruct (resolution (k_series k)) as [[|u0]|]; try exact V. cbv zeta. set (k1 := match k_guess k with Some _ => k | None => _ end).
      assert (K1 : k_series k1 = s /\ forall v, k_interval k1 = Some v -> is_points s = Ok true /\ detect_interval fuel (s_items s) = Some (Ok v)).
      { unfold k1. destruct (k_guess k); [split; assumption|]. pose proof (AskV k E V) as Av. pose proof (ask_series fuel k) as As. rewrite E in As. destruct (snd (ask fuel k)) as [w|]; [destruct (unit_of_interval e (fst w))|]; cbn [k_series k_interval]; split; assumption. }
      destruct K1 as [K1 K2]. destruct (k_guess k1); cbn [fst]; [apply AskV; assumption|exact K2].
    + unfold describe. destruct (s_items (k_series k)); [exact V|]. destruct (is_points (k_series k)) as [[|]|]; try exact V. destruct (resolution (k_series k)) as [[|]|]; try exact V. cbn [fst]. apply AskV; assumption.
Qed.
Theorem C81_unchanged_partial : forall fuel e s cs qs, (forall c, In c cs -> question c = false) -> (forall c, In c qs -> question c = true) ->
  let k := kruns fuel e (nothing_kept s) cs in let k' := kruns fuel e k qs in
  up_to_date k' /\ snd (ask fuel k') = snd (ask fuel k) /\ (forall c rd u start stop validity, kresample fuel e c rd u k' start stop validity = kresample fuel e c rd u k start stop validity).
Proof.
  intros fuel e s cs qs Q1 Q2 k k'. assert (Ek : k = nothing_kept (k_series k)) by (apply no_questions; exact Q1). destruct (questions_only fuel e (k_series k) qs k Q2 eq_refl) as [A B]; [rewrite Ek; discriminate|]. fold k' in A, B.
  assert (Same : snd (ask fuel k') = snd (ask fuel k)). { unfold ask. rewrite A. replace (k_interval k) with (@None (option Qc * Qc)) by (rewrite Ek; reflexivity). destruct (is_points (k_series k)) as [[|]|]; try reflexivity. destruct (k_interval k') as [v|] eqn:V; [destruct (B v eq_refl) as [_ ->]; reflexivity|]. destruct (detect_interval fuel (s_items (k_series k))) as [[|]|]; reflexivity. }
  split; [|split; [exact Same|]].
  - intros v V. exists fuel. rewrite A. apply B. exact V.
  - intros. unfold kresample. rewrite Same, A. reflexivity.
Qed.
Print Assumptions C81_unchanged_partial.

(* What cannot be guessed, whatever is kept. *)
Theorem C81_refused : forall fuel e k, let s := k_series k in
  (s_items s = [] -> snd (guess fuel e k) = Err TypeError /\ snd (ask fuel k) = Err TypeError) /\
  (forall x l, s_items s = x :: l -> is_slot x = true -> snd (guess fuel e k) = Err NotImplementedError /\ snd (ask fuel k) = Err NotImplementedError) /\
  (of_points (s_items s) -> length (s_items s) = 1 \/ (exists u, resolution s = Some (RUnit u)) -> snd (guess fuel e k) = Err ValueError).
Proof.
  intros fuel e k s. split; [|split].
  - intros E. unfold guess, ask, is_points, item_type. fold s. rewrite E. split; reflexivity.
  - intros x l E X. assert (P : is_points s = Ok false) by (unfold is_points, item_type; rewrite E; unfold is_slot in X; destruct (i_cls x); try reflexivity; discriminate). unfold guess, ask. fold s. rewrite P. split; reflexivity.
  - intros P H. unfold guess. fold s. rewrite (of_points_ok s P). destruct H as [H|[u H]]; [rewrite H; reflexivity|]. rewrite H. destruct (Nat.leb _ 1); reflexivity.
Qed.
Print Assumptions C81_refused.

(* ---- but it is not kept up to date ---- *)
Definition minutes : list item := [pt 0 1; pt 10 1; pt 20 1; pt 50 1].
Definition more : list item := [pt 80 2; pt 110 3; pt 140 1; pt 170 2].
(* The series has changed: the guess is the one for the old points. *)
Theorem C81_changed_refuted : exists s k1 u c k2 w d, ts_new ideal_env None minutes = Ok s /\ guess 10 ideal_env (nothing_kept s) = (k1, Ok (u, c)) /\ k2 = kruns 10 ideal_env k1 (map (fun x => Change (OAppend x)) more) /\ s_items (k_series k2) = minutes ++ more /\
  snd (guess 10 ideal_env k2) = Ok (u, c) /\ snd (guess 10 ideal_env (nothing_kept (k_series k2))) = Ok (w, d) /\ w <> u.
Proof.
  destruct (ts_new ideal_env None minutes) as [s|] eqn:E; [|vm_compute in E; discriminate]. destruct (guess 10 ideal_env (nothing_kept s)) as [k1 [[u c]|]] eqn:G; [| vm_compute in E; injection E as <-; vm_compute in G; discriminate].
  exists s, k1, u, c, (kruns 10 ideal_env k1 (map (fun x => Change (OAppend x)) more)). vm_compute in E. injection E as <-. vm_compute in G. injection G as <- <- <-. eexists. eexists. split; [reflexivity|]. split; [reflexivity|]. split; [reflexivity|]. split; [vm_compute; reflexivity|]. split; [vm_compute; reflexivity|]. split; [vm_compute; reflexivity|]. intros F. discriminate F.
Qed.
Print Assumptions C81_changed_refuted.
(* Writing the series as text is a question: it changes what a later resampling gives. *)
Definition total_loss (r : result (series * list item)) : Qc := match r with Ok (s, _) => fold_left (fun a x => match dget "data_loss"%string (i_idx x) with Some (Some v) => Qcplus a v | _ => a end) (s_items s) q0 | Err _ => qz (-1) end.
Theorem C81_printed_refuted : exists s, ts_new ideal_env None minutes = Ok s /\
  let grow := map (fun x => Change (OAppend x)) more in let r cs := kresample 50 ideal_env ex_cal ex_round (UPhys (qz 10)) (kruns 50 ideal_env (nothing_kept s) cs) None None None in
  (exists a b, r grow = Ok a /\ r (Describe :: grow) = Ok b) /\ total_loss (r grow) <> total_loss (r (Describe :: grow)).
Proof.
  destruct (ts_new ideal_env None minutes) as [s|] eqn:E; [|vm_compute in E; discriminate]. exists s. split; [reflexivity|]. vm_compute in E. injection E as <-. cbv zeta. split; [eexists; eexists; split; vm_compute; reflexivity|]. apply qeqb_neq. vm_compute. reflexivity.
Qed.
Print Assumptions C81_printed_refuted.
Example C81_nonvacuous : exists s, s = ms minutes /\ let cs := map (fun x => Change (OAppend x)) more ++ [Duplicate] in let k := kruns 10 ideal_env (nothing_kept s) cs in
  (forall c, In c cs -> question c = false) /\ of_points (s_items (k_series k)) /\ length (s_items (k_series k)) = 8 /\ resolution (k_series k) = Some RVar /\ some_repeated (s_items (k_series k)) /\
  match snd (ask 10 k) with Ok (Some d, c) => qeqb d (qz 30) && qeqb c (qfrac 3 5) | _ => false end = true.
Proof.
  exists (ms minutes). split; [reflexivity|]. cbv zeta. split; [intros c H; repeat destruct H as [<- |H]; try destruct H; reflexivity|]. split; [eexists; split; [vm_compute; reflexivity|reflexivity]|]. split; [vm_compute; reflexivity|]. split; [vm_compute; reflexivity|]. split; [|vm_compute; reflexivity].
  assert (E : s_items (k_series (kruns 10 ideal_env (nothing_kept (ms minutes)) (map (fun x => Change (OAppend x)) more ++ [Duplicate]))) = minutes ++ more) by (vm_compute; reflexivity). rewrite E.
  exists (diffs_of (times (minutes ++ more))), (map fst (count_all (diffs_of (times (minutes ++ more))))). split; [apply diffs_spacings; discriminate|]. split; [apply count_keys_distinct|]. apply Nat.leb_le. vm_compute. reflexivity.
Qed.
