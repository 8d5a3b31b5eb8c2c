(* PropCsv.v -- THEOREMS C61-C63: the CSV storage. *)
From Coq Require Import DecimalString.
From Verif Require Import SpecCsv SpecIntervals BaseLemmas DictLemmas PropTactics SeriesProofs2 SeriesProofs3 AccessProofs AccessProofs2 OpsProofs OpsProofs3 InterpProofs SamplingProofs CsvProofs CsvProofs2 CsvProofs3 CsvProofs4 CsvProofs5 CsvProofs6 Save SaveProofs SpecRecon ModelsProofs LstmProofs PropAccess PropOps PropTransform PropLstm Witness.

(* ---------------- numbers as text, for the examples ---------------- *)

(* 3/4 is written as 3e4: any exact text will do. *)
Definition plain_text : num_text :=
  mkNumText (fun q => int_str (Qnum (this q)) ++ "e" ++ int_str (Zpos (Qden (this q))))%string
    (fun s => match split_on "e" s with
              | [a; b] => match str_int a, str_int b with Ok z, Ok (Zpos p) => Some (Q2Qc (z # p)) | _, _ => None end
              | _ => None
              end)
    (fun _ _ => None) (fun _ _ _ => None).
Definition digit_char (c : ascii) : Prop := In c (chars "0123456789-").
Lemma uint_digits d : Forall digit_char (chars (NilEmpty.string_of_uint d)).
Proof. induction d; cbn [NilEmpty.string_of_uint chars]; constructor; try assumption; unfold digit_char; cbn [chars In]; tauto. Qed.
Lemma int_digits z : Forall digit_char (chars (int_str z)) /\ int_str z <> EmptyString.
Proof.
  assert (U : forall d, Forall digit_char (chars (NilZero.string_of_uint d)) /\ NilZero.string_of_uint d <> EmptyString).
  { intros d. unfold NilZero.string_of_uint. destruct d; [|split; [exact (uint_digits _)|discriminate] ..]. split; [constructor; [unfold digit_char; cbn [chars In]; tauto|constructor]|discriminate]. }
  unfold int_str, NilZero.string_of_int. destruct (Z.to_int z) as [d|d]; [apply U|]. split; [|discriminate]. cbn [chars]. constructor; [unfold digit_char; cbn [chars In]; tauto|apply U].
Qed.
Lemma plain_exact : exact_text plain_text.
Proof.
  unfold exact_text. cbn [nt_str nt_float nt_dt plain_text]. split; [|split; [|split; [vm_compute; reflexivity|split; [vm_compute; reflexivity|reflexivity]]]].
  - intros q. assert (J : forall a b, (a ++ "e" ++ b)%string = join (String "e" EmptyString) [a; b]) by (intros a b; reflexivity).
    rewrite J, split_join; [|discriminate|].
    + rewrite !str_int_str. f_equal. apply Qc_is_canon. destruct q as [[n d] C]. cbn [this Qnum Qden Q2Qc]. apply Qred_correct.
    + assert (D : forall z, ~ In "e"%char (chars (int_str z))) by (intros z H; pose proof (proj1 (int_digits z)) as F; rewrite Forall_forall in F; apply F in H; unfold digit_char in H; cbn [chars In] in H; repeat (destruct H as [H|H]; [discriminate|]); exact H).
      intros s [<-|[<-|[]]]; apply D.
  - intros q. split; [intros H; apply (f_equal chars) in H; rewrite !chars_app in H; apply app_eq_nil in H; destruct H as [_ H]; cbn in H; discriminate|].
    assert (D : forall z, Forall number_char (chars (int_str z))).
    { intros z. eapply Forall_impl; [|apply int_digits]. intros c H. unfold digit_char in H. unfold number_char. cbn [chars In] in H |- *. repeat (destruct H as [<-|H]; [tauto|]). destruct H. }
    rewrite !chars_app. apply Forall_app. split; [apply D|]. apply Forall_app. split; [|apply D]. cbn [chars]. constructor; [|constructor]. unfold number_char. cbn [chars In]. tauto.
Qed.

Lemma F2_map {A B} (R : A -> B -> Prop) (g : A -> B) l : (forall x, In x l -> R x (g x)) -> Forall2 R l (map g l).
Proof. induction l as [|a l IH]; intros H; [constructor|]. cbn [map]. constructor; [apply H; left; reflexivity|apply IH; intros x I; apply H; right; exact I]. Qed.

(* ---------------- C61: the round trip ---------------- *)

(* A series of points is written and, read as points, comes back: same timestamps, labels, data and indexes, in the timezone
   asked for. This is for any timezone, sorting and handling of the errors, with the type of the series given or detected,
   and any storage which finds the columns by itself; which can be used to read again. *)
Theorem C61_points : forall nt fuel k e c o st comments ow s p f,
  exact_text nt -> parses_units e -> healthy e s -> all_points (s_items s) -> writable (s_items s) -> (forall t, In t comments -> no_newline t) ->
  default_columns st -> whole o -> o_points o && o_slots o = false -> points_read o st (s_items s) ->
  place_for f p -> f p = None \/ ow = true ->
  exists f' st' s', csv_put nt comments CFine ow s p f = (f', Ok tt) /\ csv_get fuel nt k e c o st (file_at f' p) = (st', Ok s') /\
    Forall2 same_content (s_items s) (s_items s') /\ (forall y, In y (s_items s') -> i_tz y = csv_tz st o) /\ default_columns st'.
Proof.
  intros nt fuel k e c o st comments ow s p f E He H Hp W Hc D Wo Hb R Pl Po.
  destruct (rows_back nt e o st comments s E H W Hc D Wo Hb) as (ls & ix & t & st' & T & C & Nn & P & D' & S & G).
  assert (Wf : wf_points (s_items s)).
  { destruct H as (_ & _ & [X|X]); [exact X|]. destruct X as [X _]. destruct (s_items s) as [|x l]; [contradiction|]. pose proof (Hp x (or_introl eq_refl)) as Y. pose proof (X x (or_introl eq_refl)) as Z. unfold is_point, is_slot in *. destruct (i_cls x); discriminate. }
  destruct (make_points nt fuel k e c o st st' ls ix (s_items s) E He Wf Nn C S R P) as (s' & M & I).
  exists (cfs_set f p (CFile t)), st', s'. split; [apply put_ok; [exact Pl|exact Po|exact T|intros x Ix; apply P, Ix]|].
  split; [rewrite file_at_set, G, M; reflexivity|]. rewrite I. split; [|split; [|exact D']].
  - apply F2_map. intros x Ix. destruct (P x Ix) as (Nx & L & Ixx). assert (Px : is_point x = true) by (apply Hp, Ix).
    apply (loaded_same ls ix); [exact Nx|exact L|apply C|exact Ixx| |reflexivity| | |].
    + destruct Nx as [[Q|Q] _]; [rewrite Q; reflexivity|]. unfold is_point in Px. rewrite Q in Px. discriminate.
    + intros Q. unfold is_point, is_slot in *. destruct (i_cls x); discriminate.
    + unfold row_point. cbn [i_data]. rewrite (split_row_of ls ix x C). reflexivity.
    + unfold row_point. cbn [i_idx]. rewrite (split_row_of ls ix x C). reflexivity.
  - intros y Y. apply in_map_iff in Y. destruct Y as (x & <- & _). reflexivity.
Qed.
Print Assumptions C61_points.

(* A series of two slots or more comes back, if its unit is found or given: calendar days, months and years are found from
   the distances, the other lengths only if slots are asked for. *)
Theorem C61_slots : forall nt fuel k e c o st comments ow s p f u,
  exact_text nt -> parses_units e -> healthy e s -> all_slots (s_items s) -> writable (s_items s) -> (forall t, In t comments -> no_newline t) ->
  default_columns st -> whole o -> o_points o && o_slots o = false -> 2 <= length (s_items s) ->
  (forall x, In x (s_items s) -> i_unit x = u /\ i_end x = unit_shift c u (i_t x) 1) -> slots_read k o st (s_items s) u ->
  place_for f p -> f p = None \/ ow = true ->
  exists f' st' s', csv_put nt comments CFine ow s p f = (f', Ok tt) /\ csv_get fuel nt k e c o st (file_at f' p) = (st', Ok s') /\
    Forall2 same_content (s_items s) (s_items s') /\ (forall y, In y (s_items s') -> i_tz y = csv_tz st o) /\ default_columns st'.
Proof.
  intros nt fuel k e c o st comments ow s p f u E He H Hp W Hc D Wo Hb Nl U R Pl Po.
  destruct (rows_back nt e o st comments s E H W Hc D Wo Hb) as (ls & ix & t & st' & T & C & Nn & P & D' & S & G).
  assert (Wf : wf_slots (s_items s)).
  { destruct H as (_ & _ & [X|X]); [|exact X]. destruct X as [X _]. destruct (s_items s) as [|x l]; [contradiction|]. pose proof (Hp x (or_introl eq_refl)) as Y. pose proof (X x (or_introl eq_refl)) as Z. unfold is_point, is_slot in *. destruct (i_cls x); discriminate. }
  destruct (make_slots nt fuel k e c o st st' ls ix (s_items s) u E He Wf Nl C S R (fun x Ix => proj2 (U x Ix)) P) as (s' & M & I).
  exists (cfs_set f p (CFile t)), st', s'. split; [apply put_ok; [exact Pl|exact Po|exact T|intros x Ix; apply P, Ix]|].
  split; [rewrite file_at_set, G, M; reflexivity|]. rewrite I. split; [|split; [|exact D']].
  - apply F2_map. intros x Ix. destruct (P x Ix) as (Nx & L & Ixx). assert (Px : is_slot x = true) by (apply Hp, Ix).
    apply (loaded_same ls ix); [exact Nx|exact L|apply C|exact Ixx| |reflexivity| |reflexivity|reflexivity].
    + destruct Nx as [[Q|Q] _]; [|rewrite Q; reflexivity]. unfold is_slot in Px. rewrite Q in Px. discriminate.
    + intros _. destruct (U x Ix) as [-> ->]. split; reflexivity.
  - intros y Y. apply in_map_iff in Y. destruct Y as (x & <- & _). reflexivity.
Qed.
Print Assumptions C61_slots.

(* ---- examples ---- *)
Definition label_charb (c : ascii) : bool := Nat.leb 32 (nat_of_ascii c) && Nat.leb (nat_of_ascii c) 126 && negb (Ascii.eqb c ",").
Definition good_endb (c : ascii) : bool := negb (Ascii.eqb c " ") && negb (Ascii.eqb c "'") && negb (Ascii.eqb c """").
Fixpoint single_spacesb (l : list ascii) : bool :=
  match l with a :: (b :: _) as r => negb (Ascii.eqb a " " && Ascii.eqb b " ") && single_spacesb r | _ => true end.
Definition plainb (s : string) : bool :=
  match chars s, rev (chars s) with
  | a :: _, z :: _ => forallb label_charb (chars s) && single_spacesb (chars s) && good_endb a && good_endb z && negb (str_mem (text (drop_dots (lower (chars s)))) ["na"; "nan"; "null"; "nd"; "undef"]%string)
  | _, _ => false
  end.
Lemma good_endb_ok c : good_endb c = true -> good_end c.
Proof. unfold good_endb. intros H. apply andb_prop in H. destruct H as [H C]. apply andb_prop in H. destruct H as [A B]. repeat split; intros ->; discriminate. Qed.
Lemma plainb_ok s : plainb s = true -> plain_label s.
Proof.
  unfold plainb. destruct (chars s) as [|a r] eqn:E; [discriminate|]. destruct (rev (a :: r)) as [|z r'] eqn:F; [discriminate|]. intros H.
  apply andb_prop in H. destruct H as [H K]. apply andb_prop in H. destruct H as [H G2]. apply andb_prop in H. destruct H as [H G1]. apply andb_prop in H. destruct H as [L Sp].
  split; [intros ->; discriminate E|]. rewrite E. split; [|split; [|split; [|split]]].
  - apply Forall_forall. intros c Ic. rewrite forallb_forall in L. specialize (L c Ic). unfold label_charb in L. apply andb_prop in L. destruct L as [L L3]. apply andb_prop in L. destruct L as [L1 L2]. apply Nat.leb_le in L1, L2. split; [lia|]. intros ->. discriminate.
  - clear - Sp. revert Sp. generalize (a :: r). intros l. induction l as [|x [|y l] IH]; intros H; [exact I|exact I|]. cbn [single_spacesb single_spaces] in *. apply andb_prop in H. destruct H as [H1 H2]. split; [|apply IH, H2]. intros [-> ->]. discriminate.
  - intros c r0 Q. injection Q as <- _. apply good_endb_ok, G1.
  - intros c r0 Q. rewrite Q, rev_app_distr in F. injection F as -> _. apply good_endb_ok, G2.
  - intros Hin. apply str_mem_iff in Hin. unfold placeholders in Hin. rewrite Hin in K. discriminate.
Qed.
Definition file : list string := ["tmp"; "data.csv"]%string.
Definition tmp_only : cfs := fun q => match q with [] | ["tmp"%string] => Some CDir | _ => None end.
Lemma tmp_place : place_for tmp_only file. Proof. split; [reflexivity|discriminate]. Qed.
Definition seconds_env : cenv := mkCenv (fun t => t) (fun q => Ok (UPhys q)).
(* a calendar where all the units are of a day *)
Definition day_cal : cal := mkCal (fun _ _ => Ok (days 1)) (fun _ t k => Qcplus t (Qcmult (qz k) (days 1))).
(* what is read of a series which was written in a new file *)
Definition read_back (o : options) (st : storage) (s : series) : storage * result series :=
  csv_get 10 plain_text seconds_env ideal_env day_cal o st (file_at (fst (csv_put plain_text ["some comment"%string] CFine false s file tmp_only)) file).
Definition written (s : series) : Prop := snd (csv_put plain_text ["some comment"%string] CFine false s file tmp_only) = Ok tt.

Lemma ready_healthy e s : ready e s -> healthy e s.
Proof. intros (B & N & W & _). split; [apply built_history; assumption|split; assumption]. Qed.
Ltac plain_tac := apply plainb_ok; vm_compute; reflexivity.
Ltac in_list H := repeat (destruct H as [<-|H]; [|]); [..|destruct H].
(* the labels a and b, and the indexes ix for all the items *)
Lemma two_labels_writable l ix : two_labels l -> NoDup ix -> (forall x, In x l -> dkeys (i_idx x) = ix) -> forallb (fun i => plainb ("__" ++ i)) ix = true -> writable l.
Proof.
  intros T N H P. split; [|split; [|split]].
  - intros x lb Hx (v & V). destruct (T x Hx) as (_ & a & b & D). unfold has_value in V. rewrite D in V. destruct V as [V|[V|[]]]; apply (f_equal fst) in V; cbn [fst] in V; subst lb; (split; [plain_tac|split; [discriminate|intros r; discriminate]]).
  - intros x i Hx Hi. rewrite (H x Hx) in Hi. rewrite forallb_forall in P. apply plainb_ok, P, Hi.
  - intros x Hx. rewrite (H x Hx). exact N.
  - intros x y i Hx Hy Hi. rewrite (H y Hy). rewrite (H x Hx) in Hi. exact Hi.
Qed.
Lemma lp6_writable : writable (s_items (ms lp6)).
Proof.
  rewrite lp6_items. apply (two_labels_writable _ ["data_loss"%string]); [two_labels_tac|repeat constructor; intros []| |vm_compute; reflexivity].
  intros x Hx. unfold lp6 in Hx. repeat (destruct Hx as [<- |Hx]; [reflexivity|]). destruct Hx.
Qed.
Example C61_points_nonvacuous : exact_text plain_text /\ parses_units ideal_env /\ healthy ideal_env (ms lp6) /\ all_points (s_items (ms lp6)) /\ writable (s_items (ms lp6)) /\
  default_columns csv_storage /\ whole no_options /\ points_read no_options csv_storage (s_items (ms lp6)) /\ place_for tmp_only file /\
  match read_back no_options csv_storage (ms lp6) with
  | (_, Ok s') => length (s_items s') = 6 /\ Forall2 same_content (s_items (ms lp6)) (s_items s')
  | _ => False
  end.
Proof.
  assert (AP : all_points (s_items (ms lp6))) by (rewrite lp6_items; intros x Hx; unfold lp6 in Hx; repeat (destruct Hx as [<- |Hx]; [reflexivity|]); destruct Hx).
  assert (PR : points_read no_options csv_storage (s_items (ms lp6))).
  { right. split; [reflexivity|]. rewrite lp6_items. intros i a b A B. do 5 (destruct i as [|i]; [cbn in A, B; injection A as <-; injection B as <-; unfold calendar_long, day_long, month_long, year_long; intros H; repeat (destruct H as [H|H]; try destruct H as [H|H]); revert H; apply qeqb_neq; vm_compute; reflexivity|]). destruct i as [|i]; [discriminate B|]. destruct i; discriminate A. }
  assert (DC : default_columns csv_storage) by (repeat split; left; reflexivity). assert (WO : whole no_options) by (split; reflexivity).
  split; [exact plain_exact|]. split; [exact ideal_parses|]. split; [apply ready_healthy, lp6_ready|]. split; [exact AP|]. split; [exact lp6_writable|]. split; [exact DC|]. split; [exact WO|]. split; [exact PR|]. split; [exact tmp_place|].
  destruct (C61_points plain_text 10 seconds_env ideal_env day_cal no_options csv_storage ["some comment"%string] false (ms lp6) file tmp_only) as (f' & st' & s' & P & G & F & _);
    [exact plain_exact|exact ideal_parses|apply ready_healthy, lp6_ready|exact AP|exact lp6_writable| |exact DC|exact WO|reflexivity|exact PR|exact tmp_place|left; reflexivity|].
  { intros t [<-|[]] H. vm_compute in H. repeat (destruct H as [H|H]; [discriminate|]). exact H. }
  unfold read_back. rewrite P. cbn [fst]. rewrite G. split; [|exact F]. rewrite <- (F2_len _ _ _ F), lp6_items. reflexivity.
Qed.

(* some slots with the labels a and b *)
Definition slot2 (u : tunit) (t len v w : Z) : item := mkItem CDataTimeSlot (qz t) (qz (t + len)) u "UTC" (Some (d2 v w)) [("data_loss"%string, Some (qz 0)); ("forecast"%string, None)] None.
Definition two_labels_slots (u : tunit) (l : list item) : Prop := forall x, In x l -> i_cls x = CDataTimeSlot /\ i_unit x = u /\ i_tz x = "UTC"%string /\ exists v w, i_data x = Some (d2 v w).
Definition contiguousb (l : list item) : bool := forallb (fun p => qeqb (i_t (snd p)) (i_end (fst p))) (combine l (skipn 1 l)).
Lemma contiguousb_ok l : contiguousb l = true -> contiguous l.
Proof.
  intros H i a b A B. unfold contiguousb in H. rewrite forallb_forall in H. apply qeqb_eq. apply (H (a, b)).
  revert l H A B. induction i as [|i IH]; intros [|x [|y l]] H A B; cbn in A, B; try discriminate.
  - injection A as ->. injection B as ->. left. reflexivity.
  - right. change (skipn 1 (x :: y :: l)) with (y :: l). cbn [combine]. assert (G : In (a, b) (combine (y :: l) (skipn 1 (y :: l)))) by (apply IH; [|exact A|exact B]; intros p Hp; apply H; right; exact Hp). exact G.
Qed.
Lemma two_labels_slots_healthy u l : l <> [] -> two_labels_slots u l -> contiguousb l = true -> forallb (fun x => qltb (i_t x) (i_end x)) l = true ->
  s_items (ms l) = l -> ts_new ideal_env None l = Ok (ms l) -> healthy ideal_env (ms l) /\ all_slots l.
Proof.
  intros Nn T C P E B. assert (SS : forall x y, In x l -> In y l -> same_item_shape x y /\ i_unit x = i_unit y /\ i_tz x = i_tz y).
  { intros x y Hx Hy. destruct (T x Hx) as (Cx & Ux & Zx & v & w & Dx), (T y Hy) as (Cy & Uy & Zy & v' & w' & Dy). split; [split; [congruence|]; rewrite Dx, Dy; cbn; intros k; reflexivity|split; congruence]. }
  assert (N : numeric l).
  { split; [exact Nn|]. split; [|intros x y Hx Hy; apply SS; assumption]. intros x Hx. destruct (T x Hx) as (Cx & _ & _ & v & w & Dx). split; [right; exact Cx|]. rewrite Dx. split; [discriminate|]. cbn. repeat constructor; cbn; intuition discriminate. }
  assert (A : all_slots l) by (intros x Hx; destruct (T x Hx) as (Cx & _); unfold is_slot; rewrite Cx; reflexivity). split; [|exact A].
  split; [apply built_history; rewrite ?E; [exists None; rewrite E; exact B|exact N]|]. rewrite E. split; [exact N|]. right. split; [exact A|]. split; [apply contiguousb_ok, C|]. split; [|exact SS].
  intros x Hx. rewrite forallb_forall in P. apply qltb_lt, P, Hx.
Qed.
Lemma two_labels_slots_writable u l : two_labels_slots u l -> (forall x, In x l -> dkeys (i_idx x) = ["data_loss"; "forecast"]%string) -> writable l.
Proof.
  intros T H. split; [|split; [|split]].
  - intros x lb Hx (v & V). destruct (T x Hx) as (_ & _ & _ & a & b & D). unfold has_value in V. rewrite D in V. destruct V as [V|[V|[]]]; apply (f_equal fst) in V; cbn [fst] in V; subst lb; (split; [plain_tac|split; [discriminate|intros r; discriminate]]).
  - intros x i Hx Hi. rewrite (H x Hx) in Hi. destruct Hi as [<-|[<-|[]]]; plain_tac.
  - intros x Hx. rewrite (H x Hx). repeat constructor; cbn; intuition discriminate.
  - intros x y i Hx Hy Hi. rewrite (H y Hy). rewrite (H x Hx) in Hi. exact Hi.
Qed.
Definition hourly : list item := [slot2 (UPhys (qz 3600)) 0 3600 1 2; slot2 (UPhys (qz 3600)) 3600 3600 3 4; slot2 (UPhys (qz 3600)) 7200 3600 5 6].
Definition daily : list item := [slot2 (UCal "1D") 0 86400 1 2; slot2 (UCal "1D") 86400 86400 3 4; slot2 (UCal "1D") 172800 86400 5 6].
Lemma hourly_items : s_items (ms hourly) = hourly. Proof. vm_compute. reflexivity. Qed.
Lemma daily_items : s_items (ms daily) = daily. Proof. vm_compute. reflexivity. Qed.
Ltac slots_tac := intros ? Hw; repeat destruct Hw as [<- |Hw]; try destruct Hw; (split; [reflexivity|split; [reflexivity|split; [reflexivity|eexists; eexists; reflexivity]]]).
Lemma hourly_healthy : healthy ideal_env (ms hourly) /\ all_slots hourly.
Proof. apply (two_labels_slots_healthy (UPhys (qz 3600))); [discriminate|slots_tac|vm_compute; reflexivity|vm_compute; reflexivity|exact hourly_items|vm_compute; reflexivity]. Qed.
Lemma daily_healthy : healthy ideal_env (ms daily) /\ all_slots daily.
Proof. apply (two_labels_slots_healthy (UCal "1D")); [discriminate|slots_tac|vm_compute; reflexivity|vm_compute; reflexivity|exact daily_items|vm_compute; reflexivity]. Qed.
Lemma hourly_writable : writable (s_items (ms hourly)).
Proof. rewrite hourly_items. apply (two_labels_slots_writable (UPhys (qz 3600))); [slots_tac|]. intros x Hx. repeat (destruct Hx as [<- |Hx]; [reflexivity|]). destruct Hx. Qed.
Lemma daily_writable : writable (s_items (ms daily)).
Proof. rewrite daily_items. apply (two_labels_slots_writable (UCal "1D")); [slots_tac|]. intros x Hx. repeat (destruct Hx as [<- |Hx]; [reflexivity|]). destruct Hx. Qed.
Definition as_slots : options := mkOptions 0 [] None false true None.
Definition as_points : options := mkOptions 0 [] None true false None.
Example C61_slots_nonvacuous : healthy ideal_env (ms daily) /\ all_slots (s_items (ms daily)) /\ writable (s_items (ms daily)) /\ 2 <= length (s_items (ms daily)) /\
  (forall x, In x (s_items (ms daily)) -> i_unit x = UCal "1D" /\ i_end x = unit_shift day_cal (UCal "1D") (i_t x) 1) /\ slots_read seconds_env no_options csv_storage (s_items (ms daily)) (UCal "1D") /\
  slots_read seconds_env as_slots csv_storage (s_items (ms hourly)) (UPhys (qz 3600)) /\
  match read_back no_options csv_storage (ms daily), read_back as_slots csv_storage (ms hourly) with
  | (_, Ok s), (_, Ok s') => Forall2 same_content (s_items (ms daily)) (s_items s) /\ Forall2 same_content (s_items (ms hourly)) (s_items s')
  | _, _ => False
  end.
Proof.
  assert (SD : slots_read seconds_env no_options csv_storage (s_items (ms daily)) (UCal "1D")).
  { split; [left; reflexivity|]. left. split; [|left; reflexivity]. left. split; [reflexivity|]. rewrite daily_items. intros i a b A B.
    do 2 (destruct i as [|i]; [cbn in A, B; injection A as <-; injection B as <-; right; left; apply qeqb_eq; vm_compute; reflexivity|]). destruct i as [|i]; [discriminate B|]. destruct i; discriminate A. }
  assert (SH : slots_read seconds_env as_slots csv_storage (s_items (ms hourly)) (UPhys (qz 3600))).
  { split; [right; reflexivity|]. left. split; [|left; reflexivity]. right; right; right. split; [reflexivity|]. exists (qz 3600). split; [reflexivity|]. split; [|split; [|left; left; reflexivity]].
    - unfold calendar_long, day_long, month_long, year_long. intros H. repeat (destruct H as [H|H]; try destruct H as [H|H]); revert H; apply qeqb_neq; vm_compute; reflexivity.
    - rewrite hourly_items. intros i a b A B. do 2 (destruct i as [|i]; [cbn in A, B; injection A as <-; injection B as <-; apply qeqb_eq; vm_compute; reflexivity|]). destruct i as [|i]; [discriminate B|]. destruct i; discriminate A. }
  assert (UD : forall x, In x (s_items (ms daily)) -> i_unit x = UCal "1D" /\ i_end x = unit_shift day_cal (UCal "1D") (i_t x) 1).
  { rewrite daily_items. intros x Hx. repeat (destruct Hx as [<- |Hx]; [split; [reflexivity|apply qeqb_eq; vm_compute; reflexivity]|]). destruct Hx. }
  assert (UH : forall x, In x (s_items (ms hourly)) -> i_unit x = UPhys (qz 3600) /\ i_end x = unit_shift day_cal (UPhys (qz 3600)) (i_t x) 1).
  { rewrite hourly_items. intros x Hx. repeat (destruct Hx as [<- |Hx]; [split; [reflexivity|apply qeqb_eq; vm_compute; reflexivity]|]). destruct Hx. }
  assert (DC : default_columns csv_storage) by (repeat split; left; reflexivity).
  assert (NC : forall t, In t ["some comment"%string] -> no_newline t) by (intros t [<-|[]] H; vm_compute in H; repeat (destruct H as [H|H]; [discriminate|]); exact H).
  split; [apply daily_healthy|]. split; [rewrite daily_items; apply daily_healthy|]. split; [exact daily_writable|]. split; [rewrite daily_items; cbn; lia|]. split; [exact UD|]. split; [exact SD|]. split; [exact SH|].
  destruct (C61_slots plain_text 10 seconds_env ideal_env day_cal no_options csv_storage ["some comment"%string] false (ms daily) file tmp_only (UCal "1D")) as (f1 & st1 & s1 & P1 & G1 & F1 & _);
    [exact plain_exact|exact ideal_parses|apply daily_healthy|rewrite daily_items; apply daily_healthy|exact daily_writable|exact NC|exact DC|split; reflexivity|reflexivity|rewrite daily_items; cbn; lia|exact UD|exact SD|exact tmp_place|left; reflexivity|].
  destruct (C61_slots plain_text 10 seconds_env ideal_env day_cal as_slots csv_storage ["some comment"%string] false (ms hourly) file tmp_only (UPhys (qz 3600))) as (f2 & st2 & s2 & P2 & G2 & F2 & _);
    [exact plain_exact|exact ideal_parses|apply hourly_healthy|rewrite hourly_items; apply hourly_healthy|exact hourly_writable|exact NC|exact DC|split; reflexivity|reflexivity|rewrite hourly_items; cbn; lia|exact UH|exact SH|exact tmp_place|left; reflexivity|].
  unfold read_back. rewrite P1, P2. cbn [fst]. rewrite G1, G2. split; assumption.
Qed.

(* The type is written in a comment of the file, but it is not read: points a day apart come back as slots, hourly slots
   come back as points, a single slot cannot be read as a slot. *)
Definition daily_points : list item := [lp 0 1 5 0; lp 86400 2 6 0; lp 172800 4 9 0].
Definition single_slot : list item := [slot2 (UPhys (qz 3600)) 0 3600 1 2].
Theorem C61_type_is_not_kept_refuted :
  (exists s, healthy ideal_env s /\ all_points (s_items s) /\ writable (s_items s) /\ written s /\
     match read_back no_options csv_storage s with (_, Ok s') => length (s_items s') = 3 /\ all_slots (s_items s') | _ => False end) /\
  (exists s, healthy ideal_env s /\ all_slots (s_items s) /\ writable (s_items s) /\ written s /\
     match read_back no_options csv_storage s with (_, Ok s') => length (s_items s') = 3 /\ all_points (s_items s') | _ => False end) /\
  (exists s, healthy ideal_env s /\ all_slots (s_items s) /\ writable (s_items s) /\ written s /\ snd (read_back as_slots csv_storage s) = Err ValueError).
Proof.
  split; [|split].
  - exists (ms daily_points). assert (E : s_items (ms daily_points) = daily_points) by (vm_compute; reflexivity).
    split; [apply ready_healthy, two_labels_ready; [exact E|discriminate|two_labels_tac|vm_compute; reflexivity|vm_compute; reflexivity]|]. rewrite E. split; [intros x Hx; repeat (destruct Hx as [<- |Hx]; [reflexivity|]); destruct Hx|].
    split; [apply (two_labels_writable _ ["data_loss"%string]); [two_labels_tac|repeat constructor; intros []| |vm_compute; reflexivity]; intros x Hx; repeat (destruct Hx as [<- |Hx]; [reflexivity|]); destruct Hx|].
    split; [vm_compute; reflexivity|]. vm_compute. split; [reflexivity|]. intros x Hx. repeat (destruct Hx as [<- |Hx]; [reflexivity|]). destruct Hx.
  - exists (ms hourly). split; [apply hourly_healthy|]. split; [rewrite hourly_items; apply hourly_healthy|]. split; [exact hourly_writable|].
    split; [vm_compute; reflexivity|]. vm_compute. split; [reflexivity|]. intros x Hx. repeat (destruct Hx as [<- |Hx]; [reflexivity|]). destruct Hx.
  - exists (ms single_slot). assert (E : s_items (ms single_slot) = single_slot) by (vm_compute; reflexivity). rewrite E.
    assert (H : healthy ideal_env (ms single_slot) /\ all_slots single_slot) by (apply (two_labels_slots_healthy (UPhys (qz 3600))); [discriminate|slots_tac|vm_compute; reflexivity|vm_compute; reflexivity|exact E|vm_compute; reflexivity]).
    split; [apply H|]. split; [apply H|]. split; [apply (two_labels_slots_writable (UPhys (qz 3600))); [slots_tac|]; intros x Hx; repeat (destruct Hx as [<- |Hx]; [reflexivity|]); destruct Hx|]. split; vm_compute; reflexivity.
Qed.
Print Assumptions C61_type_is_not_kept_refuted.

(* Labels which are not plain. With a label "timestamp" its values become the timestamps; a label with a comma becomes two,
   and the rows no longer have enough columns; with a label "na", which is taken as missing, the positions of the others are
   no longer those of the columns. *)
Definition duo_of (a b : string) (v w : Z) : data := DDict [(a, qz v); (b, qz w)].
Definition duo_points (a b : string) : list item := [ptd 0 (duo_of a b 7 1); ptd 10 (duo_of a b 8 1)].
Lemma duo_points_healthy a b : a <> b -> s_items (ms (duo_points a b)) = duo_points a b -> ts_new ideal_env None (duo_points a b) = Ok (ms (duo_points a b)) -> healthy ideal_env (ms (duo_points a b)) /\ all_points (s_items (ms (duo_points a b))).
Proof.
  intros Nab E B. assert (SS : forall x y, In x (duo_points a b) -> In y (duo_points a b) -> same_item_shape x y).
  { intros x y Hx Hy. destruct Hx as [<-|[<-|[]]]; destruct Hy as [<-|[<-|[]]]; (split; [reflexivity|]); cbn; intros k; reflexivity. }
  assert (N : numeric (duo_points a b)).
  { split; [discriminate|]. split; [|exact SS]. intros x Hx. destruct Hx as [<-|[<-|[]]]; (split; [left; reflexivity|]); cbn; (split; [discriminate|]); (constructor; [intros [X|[]]; apply Nab; congruence|constructor; [intros []|constructor]]). }
  assert (A : all_points (duo_points a b)) by (intros x Hx; destruct Hx as [<-|[<-|[]]]; reflexivity). rewrite E. split; [|exact A].
  split; [apply built_history; [exists None; rewrite E; exact B|rewrite E; exact N]|]. rewrite E. split; [exact N|]. left. split; [exact A|]. split; [|exact SS]. apply sortedb_ok. vm_compute. reflexivity.
Qed.
Theorem C61_other_labels_refuted :
  (exists s, healthy ideal_env s /\ all_points (s_items s) /\ written s /\
     match read_back no_options csv_storage s with (_, Ok s') => exists x y, hd_error (s_items s) = Some x /\ hd_error (s_items s') = Some y /\ i_t x = qz 0 /\ has_value x "timestamp" (qz 7) /\ i_t y = qz 7 /\ has_value y "epoch" (qz 0) | _ => False end) /\
  (exists s, healthy ideal_env s /\ all_points (s_items s) /\ written s /\ label_in (s_items s) "a,c" /\ snd (read_back no_options csv_storage s) = Err GenericException) /\
  (exists s, healthy ideal_env s /\ all_points (s_items s) /\ written s /\ label_in (s_items s) "na" /\ snd (read_back no_options csv_storage s) = Err IndexError).
Proof.
  split; [|split].
  - exists (ms (duo_points "timestamp" "v")). destruct (duo_points_healthy "timestamp" "v") as [H A]; [discriminate|vm_compute; reflexivity|vm_compute; reflexivity|]. split; [exact H|]. split; [exact A|]. split; [vm_compute; reflexivity|].
    destruct (read_back no_options csv_storage (ms (duo_points "timestamp" "v"))) as [st r] eqn:R. vm_compute in R. injection R as _ <-.
    eexists. eexists. split; [reflexivity|]. split; [reflexivity|]. split; [reflexivity|]. split; [left; reflexivity|]. split; [apply qeqb_eq; reflexivity|]. left. reflexivity.
  - exists (ms (duo_points "a,c" "v")). destruct (duo_points_healthy "a,c" "v") as [H A]; [discriminate|vm_compute; reflexivity|vm_compute; reflexivity|]. split; [exact H|]. split; [exact A|]. split; [vm_compute; reflexivity|]. split; [|vm_compute; reflexivity].
    exists (ptd 0 (duo_of "a,c" "v" 7 1)). split; [left; reflexivity|]. exists (qz 7). left. reflexivity.
  - exists (ms (duo_points "na" "v")). destruct (duo_points_healthy "na" "v") as [H A]; [discriminate|vm_compute; reflexivity|vm_compute; reflexivity|]. split; [exact H|]. split; [exact A|]. split; [vm_compute; reflexivity|]. split; [|vm_compute; reflexivity].
    exists (ptd 0 (duo_of "na" "v" 7 1)). split; [left; reflexivity|]. exists (qz 7). left. reflexivity.
Qed.
Print Assumptions C61_other_labels_refuted.

(* If the items do not have the same indexes, the put fails, also if it succeeds in writing some of the rows; the file it
   leaves is read as the series of these. *)
Definition uneven : list item := [lp 0 1 5 0; ptd 10 (d2 2 6)].
Theorem C61_uneven_indexes_refuted : exists s, healthy ideal_env s /\ all_points (s_items s) /\ length (s_items s) = 2 /\
  snd (csv_put plain_text ["some comment"%string] CFine false s file tmp_only) = Err KeyError /\
  match read_back no_options csv_storage s with (_, Ok s') => exists x y, nth_error (s_items s) 0 = Some x /\ s_items s' = [y] /\ i_t y = i_t x | _ => False end.
Proof.
  exists (ms uneven). assert (E : s_items (ms uneven) = uneven) by (vm_compute; reflexivity).
  split; [apply ready_healthy, two_labels_ready; [exact E|discriminate|two_labels_tac|vm_compute; reflexivity|vm_compute; reflexivity]|]. rewrite E. split; [intros x Hx; repeat (destruct Hx as [<- |Hx]; [reflexivity|]); destruct Hx|].
  split; [reflexivity|]. split; [vm_compute; reflexivity|]. destruct (read_back no_options csv_storage (ms uneven)) as [st r] eqn:R. vm_compute in R. injection R as _ <-.
  eexists. eexists. split; [reflexivity|]. split; [reflexivity|]. apply qeqb_eq. reflexivity.
Qed.
Print Assumptions C61_uneven_indexes_refuted.

(* Lists come back as dictionaries. *)
Definition list_points : list item := [ptd 0 (DList [qz 4; qz 5]); ptd 10 (DList [qz 6; qz 7])].
Theorem C61_lists_refuted : exists s, healthy ideal_env s /\ all_points (s_items s) /\ writable (s_items s) /\ written s /\
  match read_back no_options csv_storage s with
  | (_, Ok s') => length (s_items s') = 2 /\ (forall x, In x (s_items s) -> exists l, i_data x = Some (DList l)) /\ (forall x, In x (s_items s') -> exists d, i_data x = Some (DDict d))
  | _ => False
  end.
Proof.
  exists (ms list_points). assert (E : s_items (ms list_points) = list_points) by (vm_compute; reflexivity). rewrite E.
  assert (SS : forall x y, In x list_points -> In y list_points -> same_item_shape x y) by (intros x y Hx Hy; destruct Hx as [<-|[<-|[]]]; destruct Hy as [<-|[<-|[]]]; split; reflexivity).
  assert (N : numeric list_points).
  { split; [discriminate|]. split; [|exact SS]. intros x Hx. destruct Hx as [<-|[<-|[]]]; (split; [left; reflexivity|]); cbn; discriminate. }
  assert (A : all_points list_points) by (intros x Hx; destruct Hx as [<-|[<-|[]]]; reflexivity).
  split; [split; [apply built_history; [exists None; rewrite E; vm_compute; reflexivity|rewrite E; exact N]|]; rewrite E; split; [exact N|]; left; split; [exact A|]; split; [|exact SS]; apply sortedb_ok; vm_compute; reflexivity|].
  split; [exact A|]. split.
  { split; [|split; [|split]].
    - intros x lb Hx (v & V). assert (exists n, lb = nat_str n /\ n < 2) as (n & -> & Hn) by (destruct Hx as [<-|[<-|[]]]; destruct V as (n & -> & V); exists n; (split; [reflexivity|]); destruct n as [|[|n]]; [lia|lia|destruct n; discriminate|lia|lia|destruct n; discriminate]). destruct n as [|[|n]]; [| |lia]; (split; [plain_tac|split; [discriminate|intros r; discriminate]]).
    - intros x i Hx Hi. destruct Hx as [<-|[<-|[]]]; destruct Hi.
    - intros x Hx. destruct Hx as [<-|[<-|[]]]; constructor.
    - intros x y i Hx Hy Hi. destruct Hx as [<-|[<-|[]]]; destruct Hi. }
  split; [vm_compute; reflexivity|]. destruct (read_back no_options csv_storage (ms list_points)) as [st r] eqn:R. vm_compute in R. injection R as _ <-.
  split; [reflexivity|]. split; [intros x Hx; destruct Hx as [<-|[<-|[]]]; eexists; reflexivity|]. intros x Hx; destruct Hx as [<-|[<-|[]]]; eexists; reflexivity.
Qed.
Print Assumptions C61_lists_refuted.

(* ---------------- C62: existing files ---------------- *)

(* Without overwrite a file which exists is not touched, whatever the series and the disk. *)
Theorem C62_refused : forall nt comments d s p f t, f p = Some (CFile t) -> csv_put nt comments d false s p f = (f, Err GenericException).
Proof. intros nt comments d s p f t H. unfold csv_put. rewrite H. reflexivity. Qed.
Print Assumptions C62_refused.

(* With overwrite, what is in the file at the end, and the outcome, do not depend on what was there: they are those of
   writing a new file (also if the disk fails, or the series cannot be written). *)
Theorem C62_overwrite : forall nt comments d ow s p f t g, f (removelast p) = Some CDir -> f p = Some (CFile t) -> place_for g p -> g p = None ->
  snd (csv_put nt comments d true s p f) = snd (csv_put nt comments d ow s p g) /\
  (file_at (fst (csv_put nt comments d ow s p g)) p <> None -> file_at (fst (csv_put nt comments d true s p f)) p = file_at (fst (csv_put nt comments d ow s p g)) p) /\
  (file_at (fst (csv_put nt comments d ow s p g)) p = None -> fst (csv_put nt comments d true s p f) = f).
Proof.
  intros nt comments d ow s p f t g Fd Fp (Gd & _) Gn. unfold csv_put. rewrite Fd, Fp, Gd, Gn. cbn [andb negb].
  destruct (forallb has_indexes (s_items s)); cbn [negb fst snd]; [|split; [reflexivity|split; [intros H; exfalso; apply H; unfold file_at; rewrite Gn; reflexivity|reflexivity]]].
  destruct d as [| |n].
  - destruct (put_text nt comments s) as [x r]. cbn [fst snd]. rewrite !file_at_set. split; [reflexivity|split; [reflexivity|discriminate]].
  - cbn [fst snd]. split; [reflexivity|split; [intros H; exfalso; apply H; unfold file_at; rewrite Gn; reflexivity|reflexivity]].
  - destruct (put_text nt comments s) as [x r]. cbn [fst snd]. rewrite !file_at_set. split; [reflexivity|split; [reflexivity|discriminate]].
Qed.
Print Assumptions C62_overwrite.

(* Nothing else changes, and no directory becomes a file, whatever the outcome. *)
Theorem C62_nothing_else : forall nt comments d ow s p f q, q <> p \/ f q = Some CDir -> fst (csv_put nt comments d ow s p f) q = f q.
Proof.
  intros nt comments d ow s p f q H.
  assert (K : forall n, q <> p -> cfs_set f p n q = f q) by (intros n N; unfold cfs_set; destruct (strings_eqb q p) eqn:E; [apply strings_eqb_eq in E; contradiction|reflexivity]).
  unfold csv_put. destruct (_ && _); [reflexivity|]. destruct (negb _); [reflexivity|].
  destruct (f p) as [[|t]|] eqn:P.
  - reflexivity.
  - assert (N : q <> p) by (destruct H as [H|H]; [exact H|intros ->; congruence]). destruct (f (removelast p)) as [[|t']|]; [|reflexivity|reflexivity]. destruct d; [destruct (put_text nt comments s); apply K, N|reflexivity|destruct (put_text nt comments s); apply K, N].
  - assert (N : q <> p) by (destruct H as [H|H]; [exact H|intros ->; congruence]). destruct (f (removelast p)) as [[|t']|]; [|reflexivity|reflexivity]. destruct d; [destruct (put_text nt comments s); apply K, N|reflexivity|destruct (put_text nt comments s); apply K, N].
Qed.
Print Assumptions C62_nothing_else.

(* If the disk gets full at any point, what is in the file is the beginning of what would have been written; a put which is
   reported as done has written all of it. *)
Theorem C62_beginning : forall nt comments n ow s p f, exists t, 
  (fst (csv_put nt comments (CFull n) ow s p f) = f \/ file_at (fst (csv_put nt comments (CFull n) ow s p f)) p = Some t) /\
  (forall txt, file_at (fst (csv_put nt comments CFine ow s p f)) p = Some txt -> fst (csv_put nt comments (CFull n) ow s p f) <> f -> exists r, txt = (t ++ r)%string) /\
  (snd (csv_put nt comments (CFull n) ow s p f) = Ok tt -> csv_put nt comments (CFull n) ow s p f = csv_put nt comments CFine ow s p f).
Proof.
  intros nt comments n ow s p f.
  assert (Pre : forall m x, exists r, x = (str_take m x ++ r)%string).
  { intros m. induction m as [|m IH]; intros x; [exists x; reflexivity|]. destruct x as [|a x]; [exists EmptyString; reflexivity|]. destruct (IH x) as (r & R). exists r. cbn [str_take append]. rewrite <- R. reflexivity. }
  assert (All : forall m x, String.length x <= m -> str_take m x = x).
  { intros m. induction m as [|m IH]; intros [|a x] L; cbn [String.length] in L; [reflexivity|lia|reflexivity|]. cbn [str_take]. rewrite IH by lia. reflexivity. }
  exists (str_take n (fst (put_text nt comments s))).
  unfold csv_put. destruct (_ && _); [cbn; split; [left; reflexivity|split; [intros ? ? X; contradiction|discriminate]]|]. destruct (negb _); [cbn; split; [left; reflexivity|split; [intros ? ? X; contradiction|discriminate]]|].
  assert (G : forall T U, (T = let '(t, res) := put_text nt comments s in (cfs_set f p (CFile (str_take n t)), if Nat.leb (String.length t) n then res else Err GenericException)) -> (U = let '(t, res) := put_text nt comments s in (cfs_set f p (CFile t), res)) ->
    (fst T = f \/ file_at (fst T) p = Some (str_take n (fst (put_text nt comments s)))) /\ (forall txt, file_at (fst U) p = Some txt -> fst T <> f -> exists r, txt = (str_take n (fst (put_text nt comments s)) ++ r)%string) /\ (snd T = Ok tt -> T = U)).
  { intros T U -> ->. destruct (put_text nt comments s) as [x r]. cbn [fst snd]. rewrite !file_at_set. split; [right; reflexivity|]. split; [intros txt Q _; injection Q as <-; apply Pre|]. destruct (Nat.leb_spec (String.length x) n) as [L|L]; [|discriminate]. intros _. rewrite (All n x L). reflexivity. }
  destruct (f p) as [[|t]|].
  - cbn. split; [left; reflexivity|split; [intros ? ? X; contradiction|discriminate]].
  - destruct (f (removelast p)) as [[|t']|]; [apply G; reflexivity| |]; cbn; (split; [left; reflexivity|split; [intros ? ? X; contradiction|discriminate]]).
  - destruct (f (removelast p)) as [[|t']|]; [apply G; reflexivity| |]; cbn; (split; [left; reflexivity|split; [intros ? ? X; contradiction|discriminate]]).
Qed.
Print Assumptions C62_beginning.

(* The old content is lost before the new one is written: if the put fails there is neither. *)
Definition with_file (t : string) : cfs := cfs_set tmp_only file (CFile t).
Theorem C62_failed_overwrite_refuted :
  (exists s, healthy ideal_env s /\ snd (csv_put plain_text [] CFine true s file (with_file "precious")) = Err KeyError /\
     file_at (fst (csv_put plain_text [] CFine true s file (with_file "precious"))) file <> Some "precious"%string) /\
  (exists s, healthy ideal_env s /\ writable (s_items s) /\ snd (csv_put plain_text [] (CFull 0) true s file (with_file "precious")) = Err GenericException /\
     file_at (fst (csv_put plain_text [] (CFull 0) true s file (with_file "precious"))) file = Some EmptyString) /\
  snd (csv_put plain_text [] CFine true (empty_series None) file (with_file "precious")) = Err TypeError /\
  file_at (fst (csv_put plain_text [] CFine true (empty_series None) file (with_file "precious"))) file = Some EmptyString.
Proof.
  split; [|split; [|split; vm_compute; reflexivity]].
  - exists (ms uneven). split; [apply ready_healthy, two_labels_ready; [vm_compute; reflexivity|discriminate|two_labels_tac|vm_compute; reflexivity|vm_compute; reflexivity]|]. split; [vm_compute; reflexivity|]. vm_compute. discriminate.
  - exists (ms lp6). split; [apply ready_healthy, lp6_ready|]. split; [exact lp6_writable|]. split; vm_compute; reflexivity.
Qed.
Print Assumptions C62_failed_overwrite_refuted.
Example C62_nonvacuous : with_file "old" (removelast file) = Some CDir /\ with_file "old" file = Some (CFile "old") /\
  file_at (fst (csv_put plain_text [] CFine true (ms lp6) file (with_file "old"))) file = file_at (fst (csv_put plain_text [] CFine false (ms lp6) file tmp_only)) file /\
  file_at (fst (csv_put plain_text [] (CFull 9) true (ms lp6) file (with_file "old"))) file = Some "epoch,a,b"%string.
Proof. repeat split; vm_compute; reflexivity. Qed.

(* ---------------- C63: gaps ---------------- *)

(* The rows of a file (here those of a series of points), read as slots: if the timestamps are all on the grid of the unit,
   with any number of slots missing between them, the series which is read is contiguous, has a slot with the same values
   for each row, and for each of the missing ones a slot on the straight line between the rows around it, with full data
   loss; and nothing else. *)
Theorem C63_filled : forall nt fuel k e c o st comments ow s p f u,
  exact_text nt -> parses_units e -> healthy e s -> writable (s_items s) -> (forall x, In x (s_items s) -> i_idx x = []) -> (forall t, In t comments -> no_newline t) ->
  default_columns st -> whole o -> o_points o && o_slots o = false -> 2 <= length (s_items s) -> slots_read k o st (s_items s) u ->
  (forall t, Qclt t (unit_shift c u t 1)) -> (forall x, In x (s_items s) -> ce_epoch k (i_t x) = i_t x) -> rows_on_grid c u fuel (s_items s) ->
  place_for f p -> f p = None \/ ow = true ->
  exists f' st' s', csv_put nt comments CFine ow s p f = (f', Ok tt) /\ csv_get fuel nt k e c o st (file_at f' p) = (st', Ok s') /\
    contiguous (s_items s') /\
    (forall y, In y (s_items s') -> i_cls y = CDataTimeSlot /\ i_unit y = u /\ i_end y = unit_shift c u (i_t y) 1 /\ i_tz y = csv_tz st o) /\
    (forall x, In x (s_items s) -> exists y, In y (s_items s') /\ i_t y = i_t x /\ data_loss y = None /\ forall lb v, has_value y lb v <-> has_value x lb v) /\
    (forall y, In y (s_items s') -> (exists x, In x (s_items s) /\ i_t y = i_t x) \/
       exists i a b n j, nth_error (s_items s) i = Some a /\ nth_error (s_items s) (S i) = Some b /\ fills c u a b n j y).
Proof.
  intros nt fuel k e c o st comments ow s p f u E He H W Hi Hc D Wo Hb Nl R Adv Ep G Pl Po.
  destruct (rows_back nt e o st comments s E H W Hc D Wo Hb) as (ls & ix & t & st' & T & C & Nn & P & D' & Sm & Gt).
  destruct (s_items s) as [|x0 l] eqn:Es; [contradiction|].
  assert (ix = []) as -> by (destruct ix as [|i ix]; [reflexivity|]; exfalso; destruct (P x0 (or_introl eq_refl)) as (_ & _ & Q); specialize (proj1 (Q i) (or_introl eq_refl)); rewrite (Hi x0 (or_introl eq_refl)); intros []).
  destruct (make_filled fuel k e c o st st' ls l x0 u Adv He ltac:(cbn in Nl; lia) C Sm R G Ep) as (out & s' & M & I & F & Wf).
  assert (Hrow : forall x ix, In x (x0 :: l) -> (forall v, dget "data_loss" ix = Some v -> v = None) -> i_t (row_slot c u (csv_tz st o) ls ix x) = i_t x /\ data_loss (row_slot c u (csv_tz st o) ls ix x) = None /\ forall lb v, has_value (row_slot c u (csv_tz st o) ls ix x) lb v <-> has_value x lb v).
  { intros x ix Ix Hix. split; [reflexivity|]. split; [unfold data_loss; cbn [row_slot Csv.new_slot i_idx]; destruct (dget "data_loss" ix) as [v|] eqn:V; [apply Hix, eq_refl|reflexivity]|]. intros lb v. unfold has_value at 1. cbn [row_slot Csv.new_slot i_data loaded_data]. destruct (P x Ix) as (N & L & _). apply loaded_value; assumption. }
  exists (cfs_set f p (CFile t)), st', s'. split; [apply put_ok; [exact Pl|exact Po|exact T|rewrite Es; intros x Ix; apply P, Ix]|]. split; [rewrite file_at_set, Gt, M; reflexivity|].
  split; [apply Wf|]. rewrite I. split; [|split].
  - assert (K : forall y, In y out -> exists t d ix, y = Csv.new_slot c u (csv_tz st o) t d ix).
    { intros y Y. destruct (filled_slots _ _ _ _ _ _ _ y F Y) as [(x & ix & _ & -> & _)|(i & a & b & n & j & _ & _ & _ & _ & ->)]; eexists; eexists; eexists; reflexivity. }
    intros y [<-|Y]; [repeat split|]. destruct (K y Y) as (t' & d & ix & ->). repeat split.
  - intros x [<-|Ix]; [exists (row_slot c u (csv_tz st o) ls [] x0); split; [left; reflexivity|]; apply Hrow; [left; reflexivity|discriminate]|].
    destruct (filled_rows _ _ _ _ _ _ _ x F Ix) as (ix & I' & Hix). exists (row_slot c u (csv_tz st o) ls ix x). split; [right; exact I'|]. apply Hrow; [right; exact Ix|exact Hix].
  - intros y [<-|Y]; [left; exists x0; split; [left; reflexivity|reflexivity]|]. destruct (filled_slots _ _ _ _ _ _ _ y F Y) as [(x & ix & Ix & -> & _)|(i & a & b & n & j & A & B & Eb & J & ->)].
    + left. exists x. split; [right; exact Ix|reflexivity].
    + right. exists i, a, b, n, (S j). split; [exact A|]. split; [exact B|]. assert (Ia : In a (x0 :: l)) by (eapply nth_error_In, A). assert (Ib : In b (x0 :: l)) by (eapply nth_error_In, B). apply gap_fills; [apply P, Ia|apply P, Ib|apply P, Ia|apply P, Ib|exact Eb|exact J].
Qed.
Print Assumptions C63_filled.

(* Rows at 0, 1, 2, 5 and 6 hours *)
Definition gappy : list item := [pt 0 1; pt 3600 2; pt 7200 3; pt 18000 9; pt 21600 4].
Lemma gappy_items : s_items (ms gappy) = gappy. Proof. vm_compute. reflexivity. Qed.
Definition hour_slots : options := mkOptions 0 [] None false true (Some (UPhys (qz 3600))).
(* what is seen of a slot: when, the data loss, the values *)
Definition seen (x : item) : Z * option Z * list Z := (qtrunc (i_t x), option_map qtrunc (data_loss x), match i_data x with Some (DDict d) => map (fun kv => qtrunc (snd kv)) d | _ => [] end).
Example C63_nonvacuous : healthy ideal_env (ms gappy) /\ writable (s_items (ms gappy)) /\ (forall x, In x (s_items (ms gappy)) -> i_idx x = []) /\ slots_read seconds_env hour_slots csv_storage (s_items (ms gappy)) (UPhys (qz 3600)) /\
  (forall t, Qclt t (unit_shift day_cal (UPhys (qz 3600)) t 1)) /\ rows_on_grid day_cal (UPhys (qz 3600)) 10 (s_items (ms gappy)) /\
  match read_back hour_slots csv_storage (ms gappy) with
  | (_, Ok s') => map seen (s_items s') = [(0, None, [1]); (3600, None, [2]); (7200, None, [3]); (10800, Some 1, [5]); (14400, Some 1, [7]); (18000, None, [9]); (21600, None, [4])]%Z
  | _ => False
  end.
Proof.
  assert (PT : forall x, In x gappy -> exists t v, x = pt t v) by (intros x Hx; repeat (destruct Hx as [<- |Hx]; [eexists; eexists; reflexivity|]); destruct Hx).
  assert (DP : dict_points (ms gappy)) by (apply one_label_dict; rewrite gappy_items; [discriminate|one_label_tac|vm_compute; reflexivity]). destruct DP as (N & Wf & _).
  split; [split; [apply built_history; [exists None; rewrite gappy_items; vm_compute; reflexivity|exact N]|split; [exact N|left; exact Wf]]|]. rewrite gappy_items.
  split.
  { split; [|split; [|split]].
    - intros x lb Hx (v & V). destruct (PT x Hx) as (t & w & ->). destruct V as [V|[]]. apply (f_equal fst) in V. cbn [fst] in V. subst lb. split; [plain_tac|split; [discriminate|intros r; discriminate]].
    - intros x i Hx Hi. destruct (PT x Hx) as (t & w & ->). destruct Hi.
    - intros x Hx. destruct (PT x Hx) as (t & w & ->). constructor.
    - intros x y i Hx Hy Hi. destruct (PT x Hx) as (t & w & ->). destruct Hi. }
  split; [intros x Hx; destruct (PT x Hx) as (t & w & ->); reflexivity|].
  split; [split; [right; reflexivity|]; right; split; [reflexivity|]; split; [reflexivity|]; intros d; eexists; reflexivity|].
  split; [intros t; cbn [unit_shift]; assert (P : Qclt q0 (qz 3600)) by (apply qltb_lt; vm_compute; reflexivity); assert (Q : Qclt (Qcplus t q0) (Qcplus t (Qcmult (qz 1) (qz 3600)))); [replace (Qcmult (qz 1) (qz 3600)) with (qz 3600) by (apply qeqb_eq; vm_compute; reflexivity); qlra|replace (Qcplus t q0) with t in Q by (rewrite q0_eq; ring); exact Q]|].
  split; [|vm_compute; reflexivity].
  intros i a b A B. destruct i as [|[|[|[|i]]]]; cbn in A, B; [| | | |destruct i; [discriminate B|destruct i; discriminate B]]; injection A as <-; injection B as <-.
  - exists 0. split; [lia|]. split; [apply qeqb_eq; vm_compute; reflexivity|left; reflexivity].
  - exists 0. split; [lia|]. split; [apply qeqb_eq; vm_compute; reflexivity|left; reflexivity].
  - exists 2. split; [lia|]. split; [apply qeqb_eq; vm_compute; reflexivity|right]. intros Q. apply is_close_spec in Q. vm_compute in Q. discriminate.
  - exists 0. split; [lia|]. split; [apply qeqb_eq; vm_compute; reflexivity|left; reflexivity].
Qed.

(* With columns for the indexes a gap which is not before the last row cannot be filled; before the last row it is, but the
   indexes of the row are lost. *)
Definition lossy_rows (ts : list Z) : list item := map (fun t => lp t 1 5 0) ts.
Lemma lossy_rows_healthy ts : ts <> [] -> s_items (ms (lossy_rows ts)) = lossy_rows ts -> ts_new ideal_env None (lossy_rows ts) = Ok (ms (lossy_rows ts)) -> sortedb (times (lossy_rows ts)) = true -> healthy ideal_env (ms (lossy_rows ts)) /\ writable (s_items (ms (lossy_rows ts))).
Proof.
  intros Nn E B Hs. assert (T : two_labels (lossy_rows ts)) by (intros x Hx; apply in_map_iff in Hx; destruct Hx as (t & <- & _); split; [reflexivity|eexists; eexists; reflexivity]).
  split; [apply ready_healthy, two_labels_ready; [exact E|destruct ts; [contradiction|discriminate]|exact T|exact Hs|exact B]|]. rewrite E.
  apply (two_labels_writable _ ["data_loss"%string]); [exact T|repeat constructor; intros []| |vm_compute; reflexivity]. intros x Hx. apply in_map_iff in Hx. destruct Hx as (t & <- & _). reflexivity.
Qed.
Theorem C63_index_columns_refuted :
  (exists s, healthy ideal_env s /\ writable (s_items s) /\ written s /\ map (fun x => qtrunc (i_t x)) (s_items s) = [0; 3600; 10800; 14400]%Z /\ snd (read_back hour_slots csv_storage s) = Err KeyError) /\
  (exists s, healthy ideal_env s /\ writable (s_items s) /\ written s /\
     match read_back hour_slots csv_storage s with
     | (_, Ok s') => exists x y, last_item (s_items s) = Some x /\ last_item (s_items s') = Some y /\ i_t y = i_t x /\ data_loss x = Some (qz 0) /\ data_loss y = None
     | _ => False
     end).
Proof.
  split.
  - exists (ms (lossy_rows [0; 3600; 10800; 14400]%Z)). destruct (lossy_rows_healthy [0; 3600; 10800; 14400]%Z) as [H W]; [discriminate|vm_compute; reflexivity|vm_compute; reflexivity|vm_compute; reflexivity|].
    split; [exact H|]. split; [exact W|]. split; [vm_compute; reflexivity|]. split; vm_compute; reflexivity.
  - exists (ms (lossy_rows [0; 3600; 10800]%Z)). destruct (lossy_rows_healthy [0; 3600; 10800]%Z) as [H W]; [discriminate|vm_compute; reflexivity|vm_compute; reflexivity|vm_compute; reflexivity|].
    split; [exact H|]. split; [exact W|]. split; [vm_compute; reflexivity|]. destruct (read_back hour_slots csv_storage (ms (lossy_rows [0; 3600; 10800]%Z))) as [st r] eqn:R. vm_compute in R. injection R as _ <-.
    eexists. eexists. split; [reflexivity|]. split; [reflexivity|]. split; [apply qeqb_eq; reflexivity|]. split; [reflexivity|reflexivity].
Qed.
Print Assumptions C63_index_columns_refuted.

(* With slots of a second, in 2023, a missing one is within the tolerance for two slots in succession: it is not filled, and
   the series which is read has a hole. *)
Definition second_slots : options := mkOptions 0 [] None false true (Some (UPhys (qz 1))).
Definition seconds3 : list item := [pt 1700000000 1; pt 1700000001 2; pt 1700000003 3].
Theorem C63_seconds_refuted : exists s, healthy ideal_env s /\ written s /\ map (fun x => qtrunc (i_t x)) (s_items s) = [1700000000; 1700000001; 1700000003]%Z /\
  match read_back second_slots csv_storage s with (_, Ok s') => length (s_items s') = 3 /\ ~ contiguous (s_items s') | _ => False end.
Proof.
  exists (ms seconds3). assert (E : s_items (ms seconds3) = seconds3) by (vm_compute; reflexivity).
  assert (DP : dict_points (ms seconds3)) by (apply one_label_dict; rewrite E; [discriminate|one_label_tac|vm_compute; reflexivity]). destruct DP as (N & Wf & _).
  split; [split; [apply built_history; [exists None; rewrite E; vm_compute; reflexivity|exact N]|split; [exact N|left; exact Wf]]|]. split; [vm_compute; reflexivity|]. split; [vm_compute; reflexivity|].
  destruct (read_back second_slots csv_storage (ms seconds3)) as [st r] eqn:R. vm_compute in R. injection R as _ <-. split; [reflexivity|]. intros H. specialize (H 1 _ _ eq_refl eq_refl). revert H. apply qeqb_neq. vm_compute. reflexivity.
Qed.
Print Assumptions C63_seconds_refuted.
