(* EvaluateProofs.v -- the values and the columns written by the evaluation of a forecaster (C76). *)
From Verif Require Import SeriesProofs3 SeriesProofs4 AccessProofs AccessProofs2 OpsProofs OpsProofs2 OpsProofs5 InterpProofs ReconProofs2 LstmProofs LstmProofs4 LstmProofs5 AnomalyProofs AnomalyProofs2 AnomalyProofs5 DictLemmas UtilsProofs PropTactics BaseLemmas.
From Verif Require Export SpecEvaluate.
From Coq Require Import Lia.

(* ---------------- names ---------------- *)
Fixpoint no_underscore (s : string) : bool := match s with EmptyString => true | String c r => negb (Ascii.eqb c "_") && no_underscore r end.
Lemma str_app_assoc' a b c : ((a ++ b) ++ c = a ++ (b ++ c))%string.
Proof. induction a as [|x a IH]; cbn; [reflexivity|rewrite IH; reflexivity]. Qed.
Lemma no_under_in u a r : no_underscore u = true -> u = (a ++ String "_" r)%string -> False.
Proof. revert a. induction u as [|c u IH]; intros a N E; destruct a as [|x a]; cbn in E; try discriminate; injection E as -> E; cbn in N; [discriminate|]. apply andb_prop in N. exact (IH a (proj2 N) E). Qed.
Lemma key_inj lb m lb' m' : no_underscore m = true -> no_underscore m' = true -> key lb m = key lb' m' -> lb = lb' /\ m = m'.
Proof.
  unfold key. cbn [append]. revert lb'. induction lb as [|c lb IH]; intros [|c' lb'] N N' E; cbn [append] in E.
  - injection E as ->. split; reflexivity.
  - injection E as <- E. exfalso. exact (no_under_in _ _ _ N E).
  - injection E as -> E. exfalso. symmetry in E. exact (no_under_in _ _ _ N' E).
  - injection E as -> E. destruct (IH lb' N N' E) as [-> ->]. split; reflexivity.
Qed.

(* ---------------- written values ---------------- *)
Definition functional {V} (W : list (string * V)) : Prop := forall k v v', In (k, v) W -> In (k, v') W -> v = v'.
Definition put {V} (W : list (string * V)) (d d' : dict V) : Prop :=
  (forall k v, In (k, v) W -> dget k d' = Some v) /\ (forall k, ~ In k (map fst W) -> dget k d' = dget k d).
Lemma put_app {V} (W1 W2 : list (string * V)) d d1 d2 : put W1 d d1 -> put W2 d1 d2 -> functional (W1 ++ W2) -> put (W1 ++ W2) d d2.
Proof.
  intros [A1 B1] [A2 B2] F. split.
  - intros k v I. apply in_app_or in I. destruct I as [I|I]; [|exact (A2 k v I)].
    destruct (in_dec string_dec k (map fst W2)) as [J|J]; [|rewrite (B2 k J); exact (A1 k v I)].
    apply in_map_iff in J. destruct J as ([k' v'] & E & J). cbn in E. subst k'. rewrite (A2 k v' J). f_equal. apply (F k); apply in_or_app; [right; exact J|left; exact I].
  - intros k N. rewrite map_app in N. rewrite B2, B1; [reflexivity| |]; intros J; apply N, in_or_app; [left|right]; exact J.
Qed.
Definition with_data (x : item) : Prop := exists d, i_data x = Some (DDict d).
(* the columns W are written in the items l, which become l' *)
Definition put_item (W : list (string * list Qc)) (i : nat) (x y : item) : Prop :=
  same_shell x y /\ i_idx y = i_idx x /\ exists d d', i_data x = Some (DDict d) /\ i_data y = Some (DDict d') /\
    (forall k vs v, In (k, vs) W -> nth_error vs i = Some v -> dget k d' = Some v) /\ (forall k, ~ In k (map fst W) -> dget k d' = dget k d).
Definition put_items (W : list (string * list Qc)) (l l' : list item) : Prop :=
  length l' = length l /\ forall i x, nth_error l i = Some x -> exists y, nth_error l' i = Some y /\ put_item W i x y.
Lemma same_shell_trans x y z : same_shell x y -> same_shell y z -> same_shell x z.
Proof. unfold same_shell, same_time. intros (A & B) (C & D). repeat split; try congruence; destruct A as (A1 & A2 & A3 & A4 & A5), C as (C1 & C2 & C3 & C4 & C5); congruence. Qed.
Lemma put_items_app W1 W2 l l1 l2 : put_items W1 l l1 -> put_items W2 l1 l2 -> functional (W1 ++ W2) -> put_items (W1 ++ W2) l l2.
Proof.
  intros [L1 H1] [L2 H2] F. split; [congruence|]. intros i x X. destruct (H1 i x X) as (y & Y & S1 & I1 & d & d1 & D & D1 & A1 & B1). destruct (H2 i y Y) as (z & Z & S2 & I2 & d1' & d2 & D1' & D2 & A2 & B2).
  rewrite D1 in D1'. injection D1' as <-. exists z. split; [exact Z|]. split; [exact (same_shell_trans _ _ _ S1 S2)|]. split; [congruence|]. exists d, d2. split; [exact D|]. split; [exact D2|]. split.
  - intros k vs v I V. apply in_app_or in I. destruct I as [I|I]; [|exact (A2 k vs v I V)].
    destruct (in_dec string_dec k (map fst W2)) as [J|J]; [|rewrite (B2 k J); exact (A1 k vs v I V)].
    apply in_map_iff in J. destruct J as ([k' v'] & E & J). cbn in E. subst k'. apply (A2 k v' v J). rewrite (F k v' vs); [exact V| |]; apply in_or_app; [right; exact J|left; exact I].
  - intros k N. rewrite map_app in N. rewrite B2, B1; [reflexivity| |]; intros J; apply N, in_or_app; [left|right]; exact J.
Qed.
Lemma same_shell_refl x : same_shell x x.
Proof. unfold same_shell, same_time. repeat split; reflexivity. Qed.
Lemma put_nothing l : Forall with_data l -> put_items [] l l.
Proof.
  intros A. split; [reflexivity|]. intros i x X. exists x. split; [exact X|]. split; [apply same_shell_refl|]. split; [reflexivity|]. rewrite Forall_forall in A. destruct (A x (nth_error_In _ _ X)) as [d D]. exists d, d. split; [exact D|]. split; [exact D|]. split; [intros k vs v []|reflexivity].
Qed.
Lemma set_column_put name : forall vs l l', Forall with_data l -> set_column name vs l = Ok l' -> put_items [(name, vs)] l l'.
Proof.
  intros vs. induction vs as [|v vs IH]; intros l l' A H; cbn [set_column] in H.
  - injection H as <-. split; [reflexivity|]. intros i x X. exists x. split; [exact X|]. split; [apply same_shell_refl|]. split; [reflexivity|]. rewrite Forall_forall in A. destruct (A x (nth_error_In _ _ X)) as [d D]. exists d, d. split; [exact D|]. split; [exact D|]. split; [|reflexivity].
    intros k vs' v [E|[]] V. injection E as _ <-. destruct i; discriminate.
  - destruct l as [|x l]; [discriminate|]. destruct (Anomaly.set_value x name v) as [y|] eqn:Y; cbn [bind] in H; [|discriminate]. destruct (set_column name vs l) as [r|] eqn:R; cbn [bind] in H; [|discriminate]. injection H as <-.
    inversion A as [|x' l0 Ax Al]; subst. destruct (IH l r Al R) as [L P]. split; [cbn [length]; lia|]. intros [|i] z Z; cbn [nth_error] in *.
    + injection Z as <-. exists y. split; [reflexivity|]. apply set_value_ok in Y. destruct Y as (S1 & I1 & d & d' & D & D' & ->). split; [exact S1|]. split; [exact I1|]. exists d, (dset name v d). split; [exact D|]. split; [exact D'|]. split.
      * intros k vs' w [E|[]] V. injection E as <- <-. cbn in V. injection V as <-. rewrite dget_dset, String.eqb_refl. reflexivity.
      * intros k N. rewrite dget_dset. destruct (String.eqb_spec k name) as [->|E]; [exfalso; apply N; left; reflexivity|reflexivity].
    + destruct (P i z Z) as (y' & Y' & S1 & I1 & d & d' & D & D' & A1 & B1). exists y'. split; [exact Y'|]. split; [exact S1|]. split; [exact I1|]. exists d, d'. split; [exact D|]. split; [exact D'|]. split; [|exact B1].
      intros k vs' w [E|[]] V. injection E as <- <-. cbn in V. apply (A1 name vs w); [left; reflexivity|exact V].
Qed.
Lemma put_with_data W l l' : put_items W l l' -> Forall with_data l'.
Proof.
  intros [L P]. apply Forall_forall. intros y I. apply In_nth_error in I. destruct I as [i Y]. assert (X : i < length l) by (rewrite <- L; apply nth_error_Some; congruence). apply nth_error_Some in X. destruct (nth_error l i) as [x|] eqn:E; [|contradiction].
  destruct (P i x E) as (y' & Y' & _ & _ & d & d' & _ & D' & _). rewrite Y in Y'. injection Y' as <-. exists d'. exact D'.
Qed.

(* ---------------- steps ---------------- *)
Section Moves.
Variable Os : string -> option Qc -> Prop.
Variable Ow : string -> list Qc -> Prop.
Hypothesis Fs : forall k v v', Os k v -> Os k v' -> v = v'.
Hypothesis Fw : forall k v v', Ow k v -> Ow k v' -> v = v'.
Let state := (dict (option Qc) * option (list item))%type.
Definition data_state (st : state) : Prop := forall l, snd st = Some l -> Forall with_data l.
Definition moves (Ks Kw : list string) (st st' : state) : Prop :=
  data_state st -> exists SW W, (forall k v, In (k, v) SW -> Os k v) /\ (forall k v, In (k, v) W -> Ow k v) /\ map fst SW = Ks /\ put SW (fst st) (fst st') /\
  match snd st, snd st' with
  | None, None => True
  | Some l, Some l' => map fst W = Kw /\ put_items W l l'
  | _, _ => False
  end.
Lemma moves_data Ks Kw st st' : moves Ks Kw st st' -> data_state st -> data_state st'.
Proof.
  intros M D. destruct (M D) as (SW & W & _ & _ & _ & _ & P). intros l E. rewrite E in P. destruct (snd st) as [l0|]; [|contradiction]. destruct P as [_ P]. exact (put_with_data _ _ _ P).
Qed.
Lemma moves_none st : moves [] [] st st.
Proof.
  intros D. exists [], []. split; [intros k v []|]. split; [intros k v []|]. split; [reflexivity|]. split; [split; [intros k v []|reflexivity]|]. destruct (snd st) as [l|] eqn:E; [|exact Logic.I]. split; [reflexivity|]. apply put_nothing, D, E.
Qed.
Lemma moves_trans K1 L1 K2 L2 st st1 st2 : moves K1 L1 st st1 -> moves K2 L2 st1 st2 -> moves (K1 ++ K2) (L1 ++ L2) st st2.
Proof.
  intros M1 M2 D. assert (D1 := moves_data _ _ _ _ M1 D). destruct (M1 D) as (S1 & W1 & OS1 & OW1 & KS1 & P1 & Q1). destruct (M2 D1) as (S2 & W2 & OS2 & OW2 & KS2 & P2 & Q2).
  assert (OS : forall k v, In (k, v) (S1 ++ S2) -> Os k v) by (intros k v I; apply in_app_or in I; destruct I as [I|I]; [exact (OS1 k v I)|exact (OS2 k v I)]).
  assert (OW : forall k v, In (k, v) (W1 ++ W2) -> Ow k v) by (intros k v I; apply in_app_or in I; destruct I as [I|I]; [exact (OW1 k v I)|exact (OW2 k v I)]).
  exists (S1 ++ S2), (W1 ++ W2). split; [exact OS|]. split; [exact OW|]. split; [rewrite map_app; congruence|]. split.
  - apply (put_app S1 S2 _ _ _ P1 P2). intros k v v' I J. exact (Fs k v v' (OS k v I) (OS k v' J)).
  - destruct (snd st) as [l|], (snd st1) as [l1|], (snd st2) as [l2|]; try contradiction; try exact Logic.I. destruct Q1 as [E1 Q1], Q2 as [E2 Q2]. split; [rewrite map_app; congruence|]. apply (put_items_app W1 W2 _ _ _ Q1 Q2). intros k v v' I J. exact (Fw k v v' (OW k v I) (OW k v' J)).
Qed.
Lemma moves_fold {A} (f : state -> A -> result state) (K L : A -> list string) : forall l, (forall x st st', In x l -> f st x = Ok st' -> moves (K x) (L x) st st') ->
  forall st st', foldM f l st = Ok st' -> moves (flat_map K l) (flat_map L l) st st'.
Proof.
  intros l. induction l as [|x l IH]; intros H st st' E; cbn [foldM] in E.
  - injection E as <-. apply moves_none.
  - destruct (f st x) as [st1|] eqn:E1; cbn [bind] in E; [|discriminate]. cbn [flat_map]. apply (moves_trans _ _ _ _ _ st1); [apply H; [left; reflexivity|exact E1]|]. apply IH; [intros y s1 s2 I; apply H; right; exact I|exact E].
Qed.
Lemma column_moves name g a p (st : state) l : add_column name g a p (snd st) = Ok l -> (forall vs, map2M g a p = Ok vs -> Ow name vs) -> moves [] [name] st (fst st, l).
Proof.
  intros H O D. unfold add_column in H. destruct st as [sc [l0|]]; cbn [fst snd] in *.
  - destruct (map2M g a p) as [vs|] eqn:V; cbn [bind] in H; [|discriminate]. destruct (set_column name vs l0) as [l1|] eqn:C; cbn [bind] in H; [|discriminate]. injection H as <-.
    exists [], [(name, vs)]. split; [intros k v []|]. split; [intros k v [E|[]]; injection E as <- <-; apply O; reflexivity|]. split; [reflexivity|]. split; [split; [intros k v []|reflexivity]|]. split; [reflexivity|]. apply set_column_put; [apply D; reflexivity|exact C].
  - injection H as <-. exists [], []. split; [intros k v []|]. split; [intros k v []|]. split; [reflexivity|]. split; [split; [intros k v []|reflexivity]|exact Logic.I].
Qed.
Lemma score_moves name v (st : state) : Os name v -> moves [name] [] st (dset name v (fst st), snd st).
Proof.
  intros O D. exists [(name, v)], []. split; [intros k w [E|[]]; injection E as <- <-; exact O|]. split; [intros k w []|]. split; [reflexivity|]. split.
  - split; [intros k w [E|[]]; injection E as <- <-; cbn [fst]; rewrite dget_dset, String.eqb_refl; reflexivity|]. intros k N. cbn [fst]. rewrite dget_dset. destruct (String.eqb_spec k name) as [->|E]; [exfalso; apply N; left; reflexivity|reflexivity].
  - cbn [snd]. destruct (snd st) as [l|] eqn:E; [|exact Logic.I]. split; [reflexivity|apply put_nothing, D, E].
Qed.
End Moves.

(* ---------------- the labels ---------------- *)
Section Labels.
Variables (sq lg : Qc -> Qc) (metrics punctual : list string).
Definition wanted (name : string) (l : list string) : list string := if str_mem name l then [name] else [].
(* the columns of a label *)
Definition columns : list (string * (Qc -> Qc -> result Qc)) :=
  ("pred"%string, fun _ p => Ok p) ::
  flat_map (fun m : string * (list Qc -> list Qc -> result (option Qc)) * option (string * (Qc -> Qc -> result Qc)) => match m with (name, _, Some c) => if str_mem name metrics then [c] else [] | _ => [] end) (aggregates sq lg) ++
  filter (fun m => str_mem (fst m) punctual) (punctuals lg).
Definition score_origin (lps : list (string * list (Qc * Qc))) (k : string) (v : option Qc) : Prop :=
  exists lb l m f col, In (lb, l) lps /\ In (m, f, col) (aggregates sq lg) /\ str_mem m metrics = true /\ k = key lb m /\ f (map fst l) (map snd l) = Ok v.
Definition column_origin (lps : list (string * list (Qc * Qc))) (k : string) (vs : list Qc) : Prop :=
  exists lb l suffix g, In (lb, l) lps /\ In (suffix, g) columns /\ k = key lb suffix /\ map2M g (map fst l) (map snd l) = Ok vs.
Definition score_keys (lb : string) : list string := map (key lb) (filter (fun m => str_mem m metrics) metric_names).
Definition column_keys (lb : string) : list string := map (fun c => key lb (fst c)) columns.

Lemma names_plain m f col : In (m, f, col) (aggregates sq lg) -> no_underscore m = true /\ In m metric_names.
Proof. unfold aggregates. intros I. repeat (destruct I as [I|I]; [injection I as <- <- <-; split; [reflexivity|cbn; tauto]|]). destruct I. Qed.
Lemma aggregate_det m f col f' col' : In (m, f, col) (aggregates sq lg) -> In (m, f', col') (aggregates sq lg) -> f = f'.
Proof.
  unfold aggregates. intros I J. repeat (destruct I as [I|I]; [injection I as <- <- <-; repeat (destruct J as [J|J]; [try discriminate J; injection J as <- <-; reflexivity|]); destruct J|]). destruct I.
Qed.
Lemma column_in c g : In (c, g) columns -> In (c, g) [("pred"%string, fun _ p => Ok p); ("AE"%string, abs_err); ("APE"%string, perc_err); ("ALE"%string, log_err lg);
   ("E"%string, fun a p => Ok (Qcminus a p)); ("PE"%string, fun a p => qdiv (Qcminus a p) a); ("LE"%string, fun a p => do q <- qdiv a p; if qleb q q0 then Err ValueError else Ok (lg q))].
Proof.
  unfold columns. intros [I|I]; [left; exact I|]. apply in_app_or in I. destruct I as [I|I].
  - unfold aggregates in I. cbn [flat_map app] in I. repeat (rewrite in_app_iff in I). destruct (str_mem "MAE" metrics), (str_mem "MAPE" metrics), (str_mem "MALE" metrics); cbn [In] in I; cbn [In]; tauto.
  - apply filter_In in I. destruct I as [I _]. unfold punctuals in I. cbn [In] in I |- *. tauto.
Qed.
Lemma columns_plain c g : In (c, g) columns -> no_underscore c = true.
Proof. intros I. apply column_in in I. repeat (destruct I as [I|I]; [injection I as <- <-; reflexivity|]). destruct I. Qed.
Lemma column_det c g g' : In (c, g) columns -> In (c, g') columns -> g = g'.
Proof.
  intros I J. apply column_in in I, J. repeat (destruct I as [I|I]; [injection I as <- <-; repeat (destruct J as [J|J]; [try discriminate J; injection J as <-; reflexivity|]); destruct J|]). destruct I.
Qed.

Variable lps : list (string * list (Qc * Qc)).
Hypothesis one : functional lps.
Lemma score_functional k v v' : score_origin lps k v -> score_origin lps k v' -> v = v'.
Proof.
  intros (lb & l & m & f & col & I & J & _ & E & V) (lb' & l' & m' & f' & col' & I' & J' & _ & E' & V'). rewrite E in E'. destruct (key_inj _ _ _ _ (proj1 (names_plain _ _ _ J)) (proj1 (names_plain _ _ _ J')) E') as [<- <-].
  rewrite (one lb l' l I' I) in V'. rewrite (aggregate_det _ _ _ _ _ J' J) in V'. congruence.
Qed.
Lemma column_functional k v v' : column_origin lps k v -> column_origin lps k v' -> v = v'.
Proof.
  intros (lb & l & m & f & I & J & E & V) (lb' & l' & m' & f' & I' & J' & E' & V'). rewrite E in E'. destruct (key_inj _ _ _ _ (columns_plain _ _ J) (columns_plain _ _ J') E') as [<- <-].
  rewrite (one lb l' l I' I) in V'. rewrite (column_det _ _ _ J' J) in V'. congruence.
Qed.
Notation goes := (moves (score_origin lps) (column_origin lps)).
Lemma label_moves lb l st st' : In (lb, l) lps -> ev_label sq lg metrics punctual st (lb, l) = Ok st' -> goes (score_keys lb) (column_keys lb) st st'.
Proof.
  intros I H. unfold ev_label in H. cbn [fst snd] in H. destruct (add_column (key lb "pred") (fun _ p => Ok p) (map fst l) (map snd l) (snd st)) as [l1|] eqn:P; cbn [bind] in H; [|discriminate].
  destruct (foldM (ev_aggregate metrics lb (map fst l) (map snd l)) (aggregates sq lg) (fst st, l1)) as [st2|] eqn:A; cbn [bind] in H; [|discriminate].
  assert (M1 : goes [] [key lb "pred"] st (fst st, l1)).
  { apply (column_moves _ _ _ _ _ _ _ _ P). intros vs V. exists lb, l, "pred"%string, (fun _ p => Ok p). split; [exact I|]. split; [left; reflexivity|]. split; [reflexivity|exact V]. }
  set (KA := fun m : string * (list Qc -> list Qc -> result (option Qc)) * option (string * (Qc -> Qc -> result Qc)) => if str_mem (fst (fst m)) metrics then [key lb (fst (fst m))] else []).
  set (LA := fun m : string * (list Qc -> list Qc -> result (option Qc)) * option (string * (Qc -> Qc -> result Qc)) => match m with (name, _, Some c) => if str_mem name metrics then [key lb (fst c)] else [] | _ => [] end).
  set (LP := fun m : string * (Qc -> Qc -> result Qc) => if str_mem (fst m) punctual then [key lb (fst m)] else []).
  assert (M2 : goes (flat_map KA (aggregates sq lg)) (flat_map LA (aggregates sq lg)) (fst st, l1) st2).
  { apply (moves_fold _ _ score_functional column_functional _ KA LA _) with (2 := A). intros [[m f] col] s1 s2 J E. unfold ev_aggregate in E. unfold KA, LA. cbn [fst]. destruct (str_mem m metrics) eqn:Mm; [|injection E as <-; destruct col; apply moves_none].
    destruct (f (map fst l) (map snd l)) as [v|] eqn:V; cbn [bind] in E; [|discriminate].
    assert (Sc : forall s, goes [key lb m] [] s (dset (key lb m) v (fst s), snd s)) by (intros s; apply score_moves; exists lb, l, m, f, col; split; [exact I|]; split; [exact J|]; split; [exact Mm|]; split; [reflexivity|exact V]).
    destruct col as [[sfx g]|]; cbn [bind fst].
    - destruct (add_column (key lb sfx) g (map fst l) (map snd l) (snd s1)) as [l2|] eqn:C; cbn [bind] in E; [|discriminate]. injection E as <-.
      assert (Co : goes [] [key lb sfx] s1 (fst s1, l2)).
      { apply (column_moves _ _ _ _ _ _ _ _ C). intros vs V'. exists lb, l, sfx, g. split; [exact I|]. split; [|split; [reflexivity|exact V']]. right. apply in_or_app. left. apply in_flat_map. exists (m, f, Some (sfx, g)). split; [exact J|]. rewrite Mm. left. reflexivity. }
      exact (moves_trans _ _ score_functional column_functional _ _ _ _ _ _ _ Co (Sc (fst s1, l2))).
    - injection E as <-. exact (Sc s1). }
  assert (M3 : goes (flat_map (fun _ => []) (punctuals lg)) (flat_map LP (punctuals lg)) st2 st').
  { apply (moves_fold _ _ score_functional column_functional _ (fun _ => []) LP _) with (2 := H). intros [m g] s1 s2 J E. unfold ev_punctual in E. unfold LP. cbn [fst snd] in *. destruct (str_mem m punctual) eqn:Mm; [|injection E as <-; apply moves_none].
    destruct (add_column (key lb m) g (map fst l) (map snd l) (snd s1)) as [l2|] eqn:C; cbn [bind] in E; [|discriminate]. injection E as <-. apply (column_moves _ _ _ _ _ _ _ _ C). intros vs V. exists lb, l, m, g. split; [exact I|]. split; [|split; [reflexivity|exact V]].
    right. apply in_or_app. right. apply filter_In. split; [exact J|exact Mm]. }
  assert (T := moves_trans _ _ score_functional column_functional _ _ _ _ _ _ _ M1 (moves_trans _ _ score_functional column_functional _ _ _ _ _ _ _ M2 M3)).
  match type of T with moves _ _ ?a ?b _ _ => assert (Ea : a = score_keys lb); [|assert (Eb : b = column_keys lb)] end.
  - unfold KA, score_keys, metric_names, aggregates, punctuals. cbn [flat_map app fst filter]. destruct (str_mem "MSE" metrics), (str_mem "RMSE" metrics), (str_mem "MAE" metrics), (str_mem "HAE" metrics), (str_mem "MAPE" metrics), (str_mem "HAPE" metrics), (str_mem "MALE" metrics), (str_mem "HALE" metrics); reflexivity.
  - unfold LA, LP, column_keys, columns, aggregates, punctuals. cbn [flat_map app fst filter map]. destruct (str_mem "MAE" metrics), (str_mem "MAPE" metrics), (str_mem "MALE" metrics), (str_mem "E" punctual), (str_mem "PE" punctual), (str_mem "LE" punctual); reflexivity.
  - rewrite Ea, Eb in T. exact T.
Qed.
Lemma labels_moves st st' : foldM (ev_label sq lg metrics punctual) lps st = Ok st' -> goes (flat_map (fun lp => score_keys (fst lp)) lps) (flat_map (fun lp => column_keys (fst lp)) lps) st st'.
Proof. apply moves_fold; [exact score_functional|exact column_functional|]. intros [lb l] s1 s2 I H. exact (label_moves lb l s1 s2 I H). Qed.
End Labels.
