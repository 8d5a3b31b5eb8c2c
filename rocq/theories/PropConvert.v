(* PropConvert.v -- THEOREMS C84, C85: the conversions from dictionaries, JSON documents and data frames, and back. *)
From Verif Require Import SpecConvert SpecCsv PropTactics BaseLemmas Witness Recon SpecRecon SeriesProofs SeriesProofs2 SeriesProofs3 AccessProofs DictLemmas OpsProofs OpsProofs3 InterpProofs AnomalyProofs4 ReconProofs4 LstmProofs LstmProofs3 LstmProofs4 LstmProofs5 SaveProofs ConvertProofs ConvertProofs2 ConvertProofs3 PropAccess PropTransform PropLstm PropCsv PropLoad.

(* ===================== C84 ===================== *)

(* One item for each entry of the dictionary, in the same order, with the instant, the timezone and the data of the entry. *)
Theorem C84_dict : forall e w ut m a s, from_dict e w ut m a = Ok s -> exists unit, asks_unit ut a unit /\ fresh e s /\
  Forall2 (fun kv x => exists tz t d, says_time w (fst kv) tz t /\ says_data (snd kv) d /\ is_item w unit tz t d x) m (s_items s).
Proof. exact from_dict_items. Qed.
Print Assumptions C84_dict.

(* All the dictionaries which describe points in order, or slots in succession, are accepted. *)
Theorem C84_accepts : forall e w ut m a unit l, parses_units e -> asks_unit ut a unit ->
  Forall2 (fun kv x => exists tz t d, says_time w (fst kv) tz t /\ says_data (snd kv) d /\ is_item w unit tz t d x) m l -> wf_items l ->
  exists s, from_dict e w ut m a = Ok s /\ Forall2 (fun x y => exists tz t d, is_item w unit tz t d x /\ is_item w unit tz t d y) l (s_items s).
Proof.
  intros e w ut m a unit l P U F W.
  assert (M : exists l', Forall2 (fun kv x => exists tz t d, says_time w (fst kv) tz t /\ says_data (snd kv) d /\ x = make_item w unit tz t d) m l' /\ Forall2 (fun x y => exists tz t d, is_item w unit tz t d x /\ y = make_item w unit tz t d) l l').
  { clear W. induction F as [|kv x m l (tz & t & d & A & B & C) F (l' & G & H)]; [exists []; split; constructor|]. exists (make_item w unit tz t d :: l'). split; constructor; eauto 10. }
  destruct M as (l' & G & H).
  assert (SH : forall x y, In x l' -> In y l' -> same_item_shape x y).
  { intros x y Hx Hy. destruct (F2_In_r _ _ _ x H Hx) as (x' & Ix & tz & t & d & (_ & _ & D & _ & K) & ->). destruct (F2_In_r _ _ _ y H Hy) as (y' & Iy & tz' & t' & d' & (_ & _ & D' & _ & K') & ->).
    assert (S : same_item_shape x' y') by (destruct W as [(_ & _ & W)|(_ & _ & _ & W)]; apply W; assumption). destruct S as [_ S]. rewrite D, D' in S. unfold same_item_shape, make_item. destruct unit; cbn; (split; [reflexivity|exact S]). }
  assert (W' : wf_items l'). { destruct unit as [u|].
    - destruct W as [W|W].
      + destruct l as [|x0 l0]; [inversion H; left; split; [intros ? []|split; [intros [|i] j ? ? ? ?; discriminate|intros ? ? []]]|]. exfalso. destruct W as (AP & _). inversion H as [|? y ? ? (tz & t & d & (_ & _ & _ & _ & C & _) & _)]; subst. specialize (AP x0 (or_introl eq_refl)). unfold is_point in AP. rewrite C in AP. discriminate.
      + right. destruct l as [|x0 l0]; [inversion H; subst; exact W|]. apply (slots_copied (x0 :: l0) l' u (i_tz x0) W); [|exact SH].
        assert (Z : forall x, In x (x0 :: l0) -> i_tz x = i_tz x0) by (destruct W as (_ & _ & _ & W); intros x Hx; apply (W x x0 Hx (or_introl eq_refl))). clear - H Z. set (z := i_tz x0) in *. clearbody z. induction H as [|x y l l' (tz & t & d & (T & TZ & _ & _ & _ & U & EN) & ->) H IH]; [constructor|]. constructor; [|apply IH; intros q Hq; apply Z; right; exact Hq]. cbn. specialize (Z x (or_introl eq_refl)). repeat split; congruence.
    - left. destruct W as [W|W].
      + apply (points_copied l l' W); [|exact SH]. eapply F2_impl; [|exact H]. intros x y (tz & t & d & I & ->). destruct I as (T & _). cbn. auto.
      + destruct l as [|x0 l0]; [inversion H; split; [intros ? []|split; [intros [|i] j ? ? ? ?; discriminate|intros ? ? []]]|]. exfalso. destruct W as (AP & _). inversion H as [|? y ? ? (tz & t & d & (_ & _ & _ & _ & C) & _)]; subst. specialize (AP x0 (or_introl eq_refl)). unfold is_slot in AP. rewrite C in AP. discriminate. }
  destruct (from_dict_total e w ut m a unit l' U P W' G) as (s & E & I). exists s. split; [exact E|]. rewrite I. eapply F2_impl; [|exact H]. intros x y (tz & t & d & A & ->). exists tz, t, d. split; [exact A|apply make_item_is].
Qed.
Print Assumptions C84_accepts.

(* Keys which are neither instants nor texts are refused. *)
Theorem C84_refused : forall e w ut m v rest a s, from_dict e w ut m a = Ok s -> from_dict e w ut (m ++ (CKOther, v) :: rest) a = Err ValueError.
Proof.
  intros e w ut m v rest a s. unfold from_dict. destruct (unit_given ut a) as [unit|]; cbn [bind]; [|discriminate]. generalize (empty_series None). induction m as [|kv m IH]; intros s0 H; cbn [app foldM] in *; [reflexivity|]. destruct (add_entry e w unit s0 kv) as [s1|]; cbn [bind] in *; [|discriminate]. apply IH. exact H.
Qed.
Print Assumptions C84_refused.

(* What is written as JSON is read back: points.. *)
Theorem C84_json_points : forall e w ut s, parses_units e -> wf_points (s_items s) -> (forall x, In x (s_items s) -> readable_date w x /\ labels_once x) ->
  exists j s', to_json w s = Ok j /\ from_json e w ut j NoUnit = Ok s' /\
  Forall2 (fun x y => exists d, i_data x = Some d /\ is_item w None "UTC" (i_t x) d y) (s_items s) (s_items s').
Proof.
  intros e w ut s P W R. assert (LO : forall x, In x (s_items s) -> labels_once x) by (intros x Hx; apply R; exact Hx).
  assert (W' : wf_items (map (back w None) (s_items s))). { left. apply (points_copied (s_items s)); [exact W| |apply shapes_back; [exact LO|apply W]]. clear. induction (s_items s) as [|x l IH]; cbn [map]; constructor; [cbn; auto|exact IH]. }
  destruct (json_back e w ut s None NoUnit P (or_introl W) (proj1 (proj2 W)) R eq_refl W') as (j & s' & J & E & I). exists j, s'. split; [exact J|]. split; [exact E|]. rewrite I. clear - LO. induction (s_items s) as [|x l IH]; cbn [map]; constructor; [|apply IH; intros q Hq; apply LO; right; exact Hq]. destruct (with_data x (LO x (or_introl eq_refl))) as [d D]. exists d. split; [exact D|apply back_is; exact D].
Qed.
Print Assumptions C84_json_points.

(* ..and slots, if the unit is given and their ends are the same in UTC. *)
Theorem C84_json_slots : forall e w ut s a u, parses_units e -> wf_slots (s_items s) -> (forall x, In x (s_items s) -> readable_date w x /\ labels_once x) ->
  asks_unit ut a (Some u) -> (forall x, In x (s_items s) -> w_end w "UTC" u (i_t x) = i_end x) ->
  exists j s', to_json w s = Ok j /\ from_json e w ut j a = Ok s' /\
  Forall2 (fun x y => exists d, i_data x = Some d /\ is_item w (Some u) "UTC" (i_t x) d y /\ i_end y = i_end x) (s_items s) (s_items s').
Proof.
  intros e w ut s a u P W R U EN. assert (LO : forall x, In x (s_items s) -> labels_once x) by (intros x Hx; apply R; exact Hx).
  assert (W' : wf_items (map (back w (Some u)) (s_items s))). { right. apply (slots_copied (s_items s) _ u "UTC"); [exact W| |apply shapes_back; [exact LO|intros x y Hx Hy; apply W; assumption]]. clear - EN. induction (s_items s) as [|x l IH]; cbn [map]; constructor; [cbn; repeat split; apply EN; left; reflexivity|apply IH; intros q Hq; apply EN; right; exact Hq]. }
  assert (SI : strictly_increasing (times (s_items s))) by (apply wf_items_times; right; exact W).
  destruct (json_back e w ut s (Some u) a P (or_intror W) SI R U W') as (j & s' & J & E & I). exists j, s'. split; [exact J|]. split; [exact E|]. rewrite I. clear - LO EN. induction (s_items s) as [|x l IH]; cbn [map]; constructor; [|apply IH; intros q Hq; [apply EN|apply LO]; right; exact Hq]. destruct (with_data x (LO x (or_introl eq_refl))) as [d D]. exists d. split; [exact D|]. split; [apply back_is; exact D|]. cbn. apply EN. left. reflexivity.
Qed.
Print Assumptions C84_json_slots.

(* Some dates: every day is of 24 hours, but the second one in Rome is of 23. *)
Definition date_text (tz : string) (t : Qc) : string := (tz ++ " " ++ nat_str (Z.to_nat (qtrunc t)))%string.
Definition some_dates : list (string * Qc) := list_prod ["UTC"; "Europe/Rome"]%string (map qz [0; 10; 20; 30; 3600; 7200; 86400; 169200; 172800]%Z).
Definition clock : dates := mkDates (fun t => t)
  (fun tz u t => match u with UPhys d => Qcplus t d | UCal _ => if String.eqb tz "UTC" || negb (qeqb t (qz 86400)) then Qcplus t (qz 86400) else Qcplus t (qz 82800) end)
  (fun s => if String.eqb s "10" then Some (qz 10) else None)
  (fun s => match find (fun p => String.eqb (date_text (fst p) (snd p)) s) some_dates with Some p => Ok (snd p) | None => Err ValueError end)
  date_text.
Ltac readable_tac := let x := fresh in let Hx := fresh in intros x Hx; repeat (destruct Hx as [<- |Hx]; [split; [split; [reflexivity|split; [vm_compute; reflexivity|vm_compute; reflexivity]]|repeat constructor; cbn; intuition discriminate]|]); destruct Hx.
(* data a day, given with dates as texts, numbers, and datetimes *)
Definition mixed_keys : list (ckey * pv) :=
  [(CKNum (qz 0), VNum (qz 1)); (CKText "10", VNum (qz 2)); (CKText "Europe/Rome 20", VDict [(KS "value"%string, VNum (qz 4))]); (CKDate "Europe/Rome" (qz 30), VNum (qz 8))].
Example C84_dict_nonvacuous :
  (match from_dict ideal_env clock units3 mixed_keys NoUnit with
   | Ok s => map (fun x => (i_tz x, qtrunc (i_t x))) (s_items s) = [("UTC", 0%Z); ("UTC", 10%Z); ("UTC", 20%Z); ("Europe/Rome", 30%Z)]%string
   | Err _ => False end) /\
  (match from_dict ideal_env clock units3 [(CKNum (qz 0), VList [VNum (qz 1)]); (CKNum (qz 3600), VList [VNum (qz 2)])] (NamedUnit "1h") with
   | Ok s => all_slots (s_items s) /\ length (s_items s) = 2 | Err _ => False end) /\
  from_dict ideal_env clock units3 [(CKNum (qz 10), VNum (qz 1)); (CKNum (qz 0), VNum (qz 2))] NoUnit = Err ValueError /\
  from_dict ideal_env clock units3 [(CKNum (qz 10), VNum (qz 1)); (CKText "tomorrow", VNum (qz 2))] NoUnit = Err ValueError.
Proof. split; [vm_compute; reflexivity|]. split; [|split; vm_compute; reflexivity]. vm_compute. split; [|reflexivity]. intros x Hx. repeat (destruct Hx as [<- |Hx]; [reflexivity|]). destruct Hx. Qed.
Example C84_accepts_nonvacuous : exists l, wf_items l /\ Forall2 (fun kv x => exists tz t d, says_time clock (fst kv) tz t /\ says_data (snd kv) d /\ is_item clock None tz t d x) mixed_keys l.
Proof.
  set (l := [pt 0 1; pt 10 2; pt 20 4; mkItem CDataTimePoint (qz 30) (qz 30) (UPhys q0) "Europe/Rome" (Some (d1 8)) [] None]). assert (E : s_items (ms l) = l) by (vm_compute; reflexivity). exists l. split.
  - assert (D : dict_points (ms l)) by (apply one_label_dict; rewrite E; [discriminate|one_label_tac|vm_compute; reflexivity]). left. rewrite <- E. apply D.
  - repeat constructor; eexists; eexists; eexists; (split; [|split; [|repeat split; reflexivity]]); try (right; eexists; split; reflexivity); try (left; reflexivity); try (split; reflexivity).
    + split; [reflexivity|left; reflexivity].
    + split; [reflexivity|right; split; vm_compute; reflexivity].
Qed.
Example C84_json_nonvacuous :
  (wf_points (s_items (ms lp6)) /\ exists s, wf_points (s_items s) /\ length (s_items s) = 3 /\ forall x, In x (s_items s) -> readable_date clock x /\ labels_once x) /\
  (wf_slots (s_items (ms daily)) /\ (forall x, In x (s_items (ms daily)) -> readable_date clock x /\ labels_once x) /\ asks_unit units3 (NamedUnit "1D") (Some (UCal "1D")) /\
   forall x, In x (s_items (ms daily)) -> w_end clock "UTC" (UCal "1D") (i_t x) = i_end x).
Proof.
  assert (W6 : wf_points (s_items (ms lp6))). { destruct lp6_ready as (_ & _ & [W|W] & _); [exact W|]. destruct W as (A & _). exfalso. rewrite lp6_items in A. specialize (A _ (or_introl eq_refl)). discriminate. }
  split; [split; [exact W6|]|split; [|split; [|split]]].
  - exists (ms daily_points). assert (E : s_items (ms daily_points) = daily_points) by (vm_compute; reflexivity). rewrite E. split; [|split; [reflexivity|readable_tac]].
    assert (R : ready ideal_env (ms daily_points)) by (apply two_labels_ready; [exact E|discriminate|two_labels_tac|vm_compute; reflexivity|vm_compute; reflexivity]). destruct R as (_ & _ & [W|W] & _); [rewrite E in W; exact W|]. exfalso. destruct W as (A & _). rewrite E in A. specialize (A _ (or_introl eq_refl)). discriminate.
  - destruct (proj1 daily_healthy) as (_ & _ & [W|W]); [|exact W]. exfalso. destruct W as (A & _). rewrite daily_items in A. specialize (A _ (or_introl eq_refl)). discriminate.
  - rewrite daily_items. readable_tac.
  - right. split; [discriminate|]. exists (UCal "1D"). split; reflexivity.
  - rewrite daily_items. intros x Hx. repeat (destruct Hx as [<- |Hx]; [apply qeqb_eq; vm_compute; reflexivity|]). destruct Hx.
Qed.

(* The timezone is lost: all comes back in UTC.. *)
Definition rome_point (t v : Z) : item := mkItem CDataTimePoint (qz t) (qz t) (UPhys q0) "Europe/Rome" (Some (d1 v)) [] None.
Theorem C84_timezone_refuted : exists s, wf_points (s_items s) /\ (forall x, In x (s_items s) -> readable_date clock x /\ labels_once x) /\
  (forall x, In x (s_items s) -> i_tz x = "Europe/Rome"%string) /\
  match to_json clock s with
  | Ok j => match from_json ideal_env clock units3 j NoUnit with Ok s' => length (s_items s') = 3 /\ forall x, In x (s_items s') -> i_tz x = "UTC"%string | Err _ => False end
  | Err _ => False
  end.
Proof.
  exists (ms [rome_point 0 1; rome_point 10 2; rome_point 20 3]). assert (E : s_items (ms [rome_point 0 1; rome_point 10 2; rome_point 20 3]) = [rome_point 0 1; rome_point 10 2; rome_point 20 3]) by (vm_compute; reflexivity). rewrite E.
  assert (D : dict_points (ms [rome_point 0 1; rome_point 10 2; rome_point 20 3])) by (apply one_label_dict; rewrite E; [discriminate|one_label_tac|vm_compute; reflexivity]).
  split; [rewrite <- E; apply D|]. split; [readable_tac|]. split; [intros x Hx; repeat (destruct Hx as [<- |Hx]; [reflexivity|]); destruct Hx|]. vm_compute. split; [reflexivity|]. intros x Hx. repeat (destruct Hx as [<- |Hx]; [reflexivity|]). destruct Hx.
Qed.
Print Assumptions C84_timezone_refuted.

(* ..and for this reason days of Rome around a change of the hour cannot be read back as days. *)
Definition rome_day (t len v : Z) : item := mkItem CDataTimeSlot (qz t) (qz (t + len)) (UCal "1D") "Europe/Rome" (Some (d1 v)) [] None.
Definition rome_days : list item := [rome_day 0 86400 1; rome_day 86400 82800 2; rome_day 169200 86400 3].
Theorem C84_daylight_saving_refuted : exists s, fresh ideal_env s /\ wf_slots (s_items s) /\ (forall x, In x (s_items s) -> readable_date clock x /\ labels_once x) /\
  (forall x, In x (s_items s) -> i_end x = w_end clock (i_tz x) (UCal "1D") (i_t x)) /\
  match to_json clock s with Ok j => from_json ideal_env clock units3 j (NamedUnit "1D") = Err ValueError | Err _ => False end.
Proof.
  exists (ms rome_days). assert (E : s_items (ms rome_days) = rome_days) by (vm_compute; reflexivity). split; [unfold fresh; rewrite E; vm_compute; reflexivity|]. rewrite E. split; [|split; [readable_tac|split]].
  - split; [intros x Hx; repeat (destruct Hx as [<- |Hx]; [reflexivity|]); destruct Hx|]. split; [apply contiguousb_ok; vm_compute; reflexivity|]. split; [intros x Hx; repeat (destruct Hx as [<- |Hx]; [apply qltb_lt; vm_compute; reflexivity|]); destruct Hx|].
    intros x y Hx Hy. repeat (destruct Hx as [<- |Hx]; [repeat (destruct Hy as [<- |Hy]; [split; [split; [reflexivity|cbn; tauto]|split; reflexivity]|]); destruct Hy|]). destruct Hx.
  - intros x Hx. repeat (destruct Hx as [<- |Hx]; [apply qeqb_eq; vm_compute; reflexivity|]). destruct Hx.
  - vm_compute. reflexivity.
Qed.
Print Assumptions C84_daylight_saving_refuted.

(* ===================== C85 ===================== *)

(* One item for each row, in the same order, with the instant of the row (in UTC without a timezone) and the values of its cells. *)
Theorem C85_rows : forall e w ut df a s, rectangular df -> from_df e w ut df a = Ok s -> exists unit, fresh e s /\
  Forall2 (fun r x => exists tz t d, row_at (fst r) tz t /\ row_is (fr_columns df) (snd r) d /\ is_item w unit tz t d x) (fr_rows df) (s_items s).
Proof. intros e w ut df a s R H. destruct (from_df_items e w ut df a s R H) as (f & unit & _ & _ & B & F). exists unit. split; assumption. Qed.
Print Assumptions C85_rows.

(* With a frequency of days, months or years the items are slots of that unit; points are refused. *)
Theorem C85_calendar : forall e w ut df name s, rectangular df -> freq_is calendar_names (fr_freq df) name ->
  from_df e w ut df WantPoints = Err ValueError /\
  forall a, from_df e w ut df a = Ok s -> exists u, ut_parse ut name = Ok u /\
    Forall2 (fun r x => exists tz t d, row_at (fst r) tz t /\ row_is (fr_columns df) (snd r) d /\ is_item w (Some u) tz t d x) (fr_rows df) (s_items s).
Proof.
  intros e w ut df name s R (n & nm & letter & D & I & F & ->). split; [rewrite from_df_unfold, F; cbn [bind]; rewrite (decided_calendar ut n nm letter _ D I); reflexivity|]. intros a H. destruct (from_df_items e w ut df a s R H) as (f & unit & F' & DE & _ & FA). rewrite F in F'. injection F' as <-. rewrite (decided_calendar ut n nm letter a D I) in DE.
  destruct (ut_parse ut (times_of_unit n ++ letter)%string) as [u|] eqn:U; cbn [bind] in DE; [|destruct a; discriminate]. exists u. split; [reflexivity|]. destruct a; try discriminate; injection DE as <-; exact FA.
Qed.
Print Assumptions C85_calendar.

(* With a frequency of hours, minutes or seconds they are points, or slots of that unit if these are asked for. *)
Theorem C85_physical : forall e w ut df name s a, rectangular df -> freq_is physical_names (fr_freq df) name -> from_df e w ut df a = Ok s ->
  exists unit, (a <> WantSlots -> unit = None) /\ (a = WantSlots -> exists u, ut_parse ut name = Ok u /\ unit = Some u) /\
    Forall2 (fun r x => exists tz t d, row_at (fst r) tz t /\ row_is (fr_columns df) (snd r) d /\ is_item w unit tz t d x) (fr_rows df) (s_items s).
Proof.
  intros e w ut df name s a R (n & nm & letter & D & I & F & ->) H. destruct (from_df_items e w ut df a s R H) as (f & unit & F' & DE & _ & FA). rewrite F in F'. injection F' as <-. rewrite (decided_physical ut n nm letter a D I) in DE. exists unit. split; [|split; [|exact FA]].
  - intros NA. destruct a; [injection DE as <-; reflexivity|injection DE as <-; reflexivity|congruence].
  - intros ->. destruct (ut_parse ut (times_of_unit n ++ letter)%string) as [u|]; cbn [bind] in DE; [|discriminate]. exists u. split; [reflexivity|]. injection DE as <-. reflexivity.
Qed.
Print Assumptions C85_physical.

(* Without a frequency they are points; slots cannot be made, and the error does not say why. *)
Theorem C85_no_frequency : forall e w ut df s, rectangular df -> fr_freq df = Ok None ->
  from_df e w ut df WantSlots = Err UnboundLocalError /\
  forall a, from_df e w ut df a = Ok s ->
    Forall2 (fun r x => exists tz t d, row_at (fst r) tz t /\ row_is (fr_columns df) (snd r) d /\ is_item w None tz t d x) (fr_rows df) (s_items s).
Proof.
  intros e w ut df s R F. split; [rewrite from_df_unfold, F; reflexivity|]. intros a H. destruct (from_df_items e w ut df a s R H) as (f & unit & F' & DE & _ & FA). rewrite F in F'. injection F' as <-. destruct a; [injection DE as <-; exact FA|injection DE as <-; exact FA|discriminate].
Qed.
Print Assumptions C85_no_frequency.

(* The index has to be of dates. *)
Theorem C85_dates_only : forall e w ut df a r, rectangular df -> In r (fr_rows df) -> fst r = NoDate -> exists er, from_df e w ut df a = Err er.
Proof.
  intros e w ut df a r R I N. destruct (from_df e w ut df a) as [s|er] eqn:E; [|eauto]. exfalso. destruct (C85_rows e w ut df a s R E) as (unit & _ & F). destruct (F2_In_l _ _ _ r F I) as (x & _ & tz & t & d & A & _). rewrite N in A. exact A.
Qed.
Print Assumptions C85_dates_only.

(* The frame of a series: a row for each item, at its time, with its values (and its data loss, if any item has one) under the names of the labels. *)
Theorem C85_frame : forall e w infer s, ready e s -> losses_apart (s_items s) -> (forall x, In x (s_items s) -> w_epoch w (i_t x) = i_t x) ->
  exists df, to_df w infer s = Ok df /\ rectangular df /\ (forall lb, In lb (fr_columns df) <-> exists x v, In x (s_items s) /\ told x lb v) /\
  Forall2 (fun x r => fst r = Aware (i_tz x) (i_t x) /\ forall lb v, told x lb v <-> exists i, nth_error (fr_columns df) i = Some lb /\ nth_error (snd r) i = Some (Some v)) (s_items s) (fr_rows df).
Proof.
  intros e w infer s R LA EP. destruct (frame_of e w infer s R LA EP) as (df & E & ND & _ & HC & F). exists df. split; [exact E|]. split; [|split; [exact HC|]].
  - split; [exact ND|]. intros r Hr. destruct (F2_In_r _ _ _ r F Hr) as (x & _ & _ & T). symmetry. apply (F2_len _ _ _ T).
  - assert (G : forall x r, In x (s_items s) -> (fst r = Aware (i_tz x) (i_t x) /\ Forall2 (fun lb c => forall v, c = Some v <-> told x lb v) (fr_columns df) (snd r)) -> fst r = Aware (i_tz x) (i_t x) /\ forall lb v, told x lb v <-> exists i, nth_error (fr_columns df) i = Some lb /\ nth_error (snd r) i = Some (Some v)).
    { intros x r I (A & T). split; [exact A|]. intros lb v. split.
      - intros V. assert (C : In lb (fr_columns df)) by (apply HC; exists x, v; auto). apply In_nth_error in C. destruct C as [i C]. exists i. split; [exact C|]. destruct (F2_get _ _ _ T i lb C) as (c & Q & H). rewrite Q. f_equal. apply H. exact V.
      - intros (i & C & Q). destruct (F2_get _ _ _ T i lb C) as (c & Q' & H). rewrite Q' in Q. injection Q as ->. apply H. reflexivity. }
    clear - F G. induction F as [|x r l rows H F IH]; [constructor|]. constructor; [apply G; [left; reflexivity|exact H]|apply IH; intros a b Ha; apply G; right; exact Ha].
Qed.
Print Assumptions C85_frame.

(* Points which are not days, months or years apart come back.. *)
Theorem C85_points : forall e w ut infer s a, parses_units e -> ready e s -> all_points (s_items s) -> losses_alike (s_items s) -> (forall x, In x (s_items s) -> w_epoch w (i_t x) = i_t x) ->
  (infer (map (fun x => Aware (i_tz x) (i_t x)) (s_items s)) = Ok None \/ exists name, freq_is physical_names (infer (map (fun x => Aware (i_tz x) (i_t x)) (s_items s))) name) -> a <> WantSlots ->
  exists df s', to_df w infer s = Ok df /\ from_df e w ut df a = Ok s' /\
  Forall2 (fun x y => (exists d, is_item w None (i_tz x) (i_t x) d y) /\ forall lb v, has_value y lb v <-> told x lb v) (s_items s) (s_items s').
Proof.
  intros e w ut infer s a P R AP LA EP INF NA. assert (W : wf_points (s_items s)). { destruct R as (_ & (NE & _) & [W|W] & _); [exact W|]. exfalso. destruct W as (AS & _). destruct (s_items s) as [|x l]; [congruence|]. specialize (AS x (or_introl eq_refl)). specialize (AP x (or_introl eq_refl)). unfold is_slot, is_point in *. destruct (i_cls x); discriminate. }
  destruct INF as [INF|(name & n & nm & letter & D & I & INF & _)]; (eapply (frame_back e w ut infer s a None); [exact P|exact R|exact LA|exact EP|exact INF| |exact W]).
  - destruct a; [reflexivity|reflexivity|congruence].
  - rewrite (decided_physical ut n nm letter a D I). destruct a; [reflexivity|reflexivity|congruence].
Qed.
Print Assumptions C85_points.

(* ..and so do slots of days, months or years (and other slots, if slots are asked for). *)
Theorem C85_slots : forall e w ut infer s a name u, parses_units e -> ready e s -> all_slots (s_items s) -> losses_alike (s_items s) -> (forall x, In x (s_items s) -> w_epoch w (i_t x) = i_t x) ->
  (forall x, In x (s_items s) -> w_end w (i_tz x) u (i_t x) = i_end x) -> ut_parse ut name = Ok u ->
  ((a <> WantPoints /\ freq_is calendar_names (infer (map (fun x => Aware (i_tz x) (i_t x)) (s_items s))) name) \/
   (a = WantSlots /\ freq_is physical_names (infer (map (fun x => Aware (i_tz x) (i_t x)) (s_items s))) name)) ->
  exists df s', to_df w infer s = Ok df /\ from_df e w ut df a = Ok s' /\
  Forall2 (fun x y => (exists d, is_item w (Some u) (i_tz x) (i_t x) d y) /\ forall lb v, has_value y lb v <-> told x lb v) (s_items s) (s_items s').
Proof.
  intros e w ut infer s a name u P R AS LA EP EN PA INF. assert (W : wf_slots (s_items s)). { destruct R as (_ & (NE & _) & [W|W] & _); [|exact W]. exfalso. destruct W as (AP & _). destruct (s_items s) as [|x l]; [congruence|]. specialize (AS x (or_introl eq_refl)). specialize (AP x (or_introl eq_refl)). unfold is_slot, is_point in *. destruct (i_cls x); discriminate. }
  destruct INF as [[NA (n & nm & letter & D & I & INF & ->)]|[-> (n & nm & letter & D & I & INF & ->)]]; (eapply (frame_back e w ut infer s _ (Some u)); [exact P|exact R|exact LA|exact EP|exact INF| |split; [exact W|exact EN]]).
  - rewrite (decided_calendar ut n nm letter a D I), PA. destruct a; [reflexivity|congruence|reflexivity].
  - rewrite (decided_physical ut n nm letter _ D I), PA. reflexivity.
Qed.
Print Assumptions C85_slots.

(* Some frequencies of Pandas. *)
Definition instants (l : list stamp) : list Z := map (fun x => match x with Aware _ t | Naive t => qtrunc t | NoDate => 0%Z end) l.
Definition infers (l : list stamp) : result (option string) :=
  match instants l with
  | a :: b :: _ :: _ => if Z.eqb (b - a) 86400 then Ok (Some "D"%string) else if Z.eqb (b - a) 3600 then Ok (Some "H"%string) else if Z.eqb (b - a) 10 then Ok (Some "10S"%string) else if Z.leb 31536000 (b - a) then Ok (Some "AS-JAN"%string) else Ok None
  | _ => Ok None
  end.
Lemma ready_of e s : (forall u v, unit_close e u v <> Err AttributeError) -> healthy e s -> built e s -> (forall x, In x (s_items s) -> exists d, i_data x = Some (DDict d)) -> ready e s.
Proof. intros C (_ & N & W) B D. split; [exact B|]. split; [exact N|]. split; [exact W|]. split; [exact D|exact C]. Qed.
Ltac dicts_tac := let x := fresh in let Hx := fresh in intros x Hx; repeat (destruct Hx as [<- |Hx]; [eexists; reflexivity|]); destruct Hx.
Lemma daily_ready : ready ideal_env (ms daily).
Proof. apply ready_of; [cbn; discriminate|apply daily_healthy|exists None; rewrite daily_items; vm_compute; reflexivity|rewrite daily_items; dicts_tac]. Qed.
Lemma hourly_ready : ready ideal_env (ms hourly).
Proof. apply ready_of; [cbn; discriminate|apply hourly_healthy|exists None; rewrite hourly_items; vm_compute; reflexivity|rewrite hourly_items; dicts_tac]. Qed.
Lemma daily_points_ready : ready ideal_env (ms daily_points).
Proof. assert (E : s_items (ms daily_points) = daily_points) by (vm_compute; reflexivity). apply two_labels_ready; [exact E|discriminate|two_labels_tac|vm_compute; reflexivity|vm_compute; reflexivity]. Qed.
Lemma d2_loss l : (forall x, In x l -> exists v a b, data_loss x = Some v /\ i_data x = Some (d2 a b)) -> losses_alike l.
Proof. intros H. right. intros x Hx. destruct (H x Hx) as (v & a & b & V & D). split; [eauto|]. intros [q Q]. unfold has_value in Q. rewrite D in Q. destruct Q as [Q|[Q|[]]]; apply (f_equal fst) in Q; discriminate. Qed.
Ltac loss_tac := apply d2_loss; let x := fresh in let Hx := fresh in intros x Hx; repeat (destruct Hx as [<- |Hx]; [eexists; eexists; eexists; split; reflexivity|]); destruct Hx.
Example C85_points_nonvacuous : ready ideal_env (ms lp6) /\ all_points (s_items (ms lp6)) /\ losses_alike (s_items (ms lp6)) /\
  (exists name, freq_is physical_names (infers (map (fun x => Aware (i_tz x) (i_t x)) (s_items (ms lp6)))) name) /\
  match to_df clock infers (ms lp6) with
  | Ok df => fr_columns df = ["a"; "b"; "data_loss"]%string /\ match from_df ideal_env clock units3 df AutoItems with Ok s => length (s_items s) = 6 /\ all_points (s_items s) | Err _ => False end
  | Err _ => False
  end.
Proof.
  split; [exact lp6_ready|]. split; [rewrite lp6_items; intros x Hx; repeat (destruct Hx as [<- |Hx]; [reflexivity|]); destruct Hx|]. split; [rewrite lp6_items; loss_tac|].
  split; [exists "10s"%string, "10"%string, "S"%string, "s"%string; split; [cbn; tauto|split; [cbn; tauto|split; [vm_compute; reflexivity|reflexivity]]]|]. vm_compute. split; [reflexivity|]. split; [reflexivity|]. intros x Hx. repeat (destruct Hx as [<- |Hx]; [reflexivity|]). destruct Hx.
Qed.
Example C85_slots_nonvacuous : ready ideal_env (ms daily) /\ all_slots (s_items (ms daily)) /\ losses_alike (s_items (ms daily)) /\
  (forall x, In x (s_items (ms daily)) -> w_end clock (i_tz x) (UCal "1D") (i_t x) = i_end x) /\ ut_parse units3 "1D" = Ok (UCal "1D") /\
  freq_is calendar_names (infers (map (fun x => Aware (i_tz x) (i_t x)) (s_items (ms daily)))) "1D" /\
  match to_df clock infers (ms daily), to_df clock infers (ms hourly) with
  | Ok df, Ok df' => match from_df ideal_env clock units3 df AutoItems, from_df ideal_env clock units3 df' WantSlots with Ok s, Ok s' => all_slots (s_items s) /\ length (s_items s) = 3 /\ all_slots (s_items s') /\ length (s_items s') = 3 | _, _ => False end
  | _, _ => False
  end.
Proof.
  split; [exact daily_ready|]. split; [rewrite daily_items; apply daily_healthy|]. split; [rewrite daily_items; loss_tac|]. split; [rewrite daily_items; intros x Hx; repeat (destruct Hx as [<- |Hx]; [apply qeqb_eq; vm_compute; reflexivity|]); destruct Hx|]. split; [reflexivity|].
  split; [exists ""%string, "D"%string, "D"%string; split; [cbn; tauto|split; [cbn; tauto|split; [vm_compute; reflexivity|reflexivity]]]|]. vm_compute. split; [|split; [reflexivity|split; [|reflexivity]]]; intros x Hx; repeat (destruct Hx as [<- |Hx]; [reflexivity|]); destruct Hx.
Qed.
Definition some_losses : list item := [ptd 0 (d1 1); set_idx (ptd 10 (d1 2)) [("data_loss"%string, Some q1)]; ptd 20 (d1 3)].
Example C85_frame_nonvacuous : ready ideal_env (ms some_losses) /\ losses_apart (s_items (ms some_losses)) /\ ~ losses_alike (s_items (ms some_losses)).
Proof.
  assert (E : s_items (ms some_losses) = some_losses) by (vm_compute; reflexivity). assert (D : dict_points (ms some_losses)) by (apply one_label_dict; rewrite E; [discriminate|one_label_tac|vm_compute; reflexivity]).
  split; [|rewrite E; split].
  - split; [exists None; rewrite E; vm_compute; reflexivity|]. split; [apply D|]. split; [left; apply D|]. split; [apply D|]. cbn. discriminate.
  - intros x y _ Hy _ [v V]. unfold has_value in V. repeat (destruct Hy as [<- |Hy]; [cbn in V; destruct V as [V|[]]; apply (f_equal fst) in V; discriminate|]). destruct Hy.
  - intros [H|H]; [specialize (H _ (or_intror (or_introl eq_refl))); discriminate|]. destruct (H _ (or_introl eq_refl)) as [[v V] _]. discriminate.
Qed.
Definition naive_frame : frame := mkFrame (Ok (Some "D"%string)) ["a"; "b"]%string [(Naive (qz 0), [Some (qz 1); Some (qz 2)]); (Naive (qz 86400), [Some (qz 3); Some (qz 4)])].
Example C85_rows_nonvacuous : rectangular naive_frame /\ freq_is calendar_names (fr_freq naive_frame) "1D" /\
  match from_df ideal_env clock units3 naive_frame AutoItems with Ok s => map i_tz (s_items s) = ["UTC"; "UTC"]%string | Err _ => False end.
Proof.
  split; [split; [repeat constructor; cbn; intuition discriminate|intros r [<-|[<-|[]]]; reflexivity]|]. split; [exists ""%string, "D"%string, "D"%string; split; [cbn; tauto|split; [cbn; tauto|split; reflexivity]]|]. vm_compute. reflexivity.
Qed.

(* The type does not survive: points a day apart come back as slots (and they cannot be asked for), hourly slots come back as points. *)
Theorem C85_type_is_not_kept_refuted :
  (exists s, ready ideal_env s /\ all_points (s_items s) /\
     match to_df clock infers s with
     | Ok df => from_df ideal_env clock units3 df WantPoints = Err ValueError /\ match from_df ideal_env clock units3 df AutoItems with Ok s' => length (s_items s') = 3 /\ all_slots (s_items s') | Err _ => False end
     | Err _ => False end) /\
  (exists s, ready ideal_env s /\ all_slots (s_items s) /\
     match to_df clock infers s with
     | Ok df => match from_df ideal_env clock units3 df AutoItems with Ok s' => length (s_items s') = 3 /\ all_points (s_items s') | Err _ => False end
     | Err _ => False end).
Proof.
  split.
  - exists (ms daily_points). split; [exact daily_points_ready|]. split; [assert (E : s_items (ms daily_points) = daily_points) by (vm_compute; reflexivity); rewrite E; intros x Hx; repeat (destruct Hx as [<- |Hx]; [reflexivity|]); destruct Hx|]. vm_compute. split; [reflexivity|]. split; [reflexivity|]. intros x Hx. repeat (destruct Hx as [<- |Hx]; [reflexivity|]). destruct Hx.
  - exists (ms hourly). split; [exact hourly_ready|]. split; [rewrite hourly_items; apply hourly_healthy|]. vm_compute. split; [reflexivity|]. intros x Hx. repeat (destruct Hx as [<- |Hx]; [reflexivity|]). destruct Hx.
Qed.
Print Assumptions C85_type_is_not_kept_refuted.

(* Pandas names the years with the month they start or end in: their frames are taken for points, and slots are of an unknown unit. *)
Theorem C85_years_refuted : forall e w ut df, rectangular df -> In (fr_freq df) [Ok (Some "AS-JAN"); Ok (Some "A-DEC")]%string ->
  (forall s, from_df e w ut df AutoItems = Ok s -> forall x, In x (s_items s) -> i_cls x = CDataTimePoint) /\
  (forall er, ut_parse ut "Y-JYN" = Err er -> ut_parse ut "Y-DEC" = Err er -> from_df e w ut df WantSlots = Err er).
Proof.
  intros e w ut df R F. split.
  - intros s H x Hx. destruct (from_df_items e w ut df AutoItems s R H) as (f & unit & F' & DE & _ & FA). assert (U : unit = None). { destruct F as [F|[F|[]]]; rewrite <- F in F'; injection F' as <-; vm_compute in DE; injection DE as <-; reflexivity. } subst unit. destruct (F2_In_r _ _ _ x FA Hx) as (r & _ & tz & t & d & _ & _ & I). apply I.
  - intros er A B. rewrite from_df_unfold. destruct F as [F|[F|[]]]; rewrite <- F; cbn [bind].
    + unfold decided, frame_unit. replace (unit_name "AS-JAN") with "Y-JYN"%string by (vm_compute; reflexivity). cbn. rewrite A. reflexivity.
    + unfold decided, frame_unit. replace (unit_name "A-DEC") with "Y-DEC"%string by (vm_compute; reflexivity). cbn. rewrite B. reflexivity.
Qed.
Print Assumptions C85_years_refuted.
