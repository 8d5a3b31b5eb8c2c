(* ConvertProofs2.v -- lemmas on the conversions to and from data frames. *)
From Verif Require Import SpecConvert SeriesProofs SeriesProofs2 SeriesProofs3 AccessProofs DictLemmas OpsProofs OpsProofs3 InterpProofs AnomalyProofs4 SpecRecon ReconProofs4 LstmProofs LstmProofs3 LstmProofs4 LstmProofs5 SaveProofs ConvertProofs.

Lemma combine_nth {A B} (a : list A) (b : list B) x y : In (x, y) (combine a b) <-> exists i, nth_error a i = Some x /\ nth_error b i = Some y.
Proof.
  revert b. induction a as [|p a IH]; intros [|q b]; cbn [combine].
  - split; [intros []|intros ([|i] & H & _); discriminate].
  - split; [intros []|intros ([|i] & H & _); discriminate].
  - split; [intros []|intros ([|i] & _ & H); discriminate].
  - cbn [In]. rewrite IH. split.
    + intros [E|(i & H1 & H2)]; [injection E as -> ->; exists 0; auto|exists (Datatypes.S i); auto].
    + intros ([|i] & H1 & H2); [left; cbn in *; congruence|right; exists i; auto].
Qed.
Lemma combine_fst {A B} (a : list A) (b : list B) : length a = length b -> map fst (combine a b) = a.
Proof. revert b. induction a as [|x a IH]; intros [|y b] H; try discriminate; [reflexivity|]. cbn. f_equal. apply IH. injection H. auto. Qed.
Lemma cells_ok cells qs : mapM cell cells = Ok qs <-> cells = map Some qs.
Proof.
  revert qs. induction cells as [|c cells IH]; intros qs; cbn [mapM].
  - split; [intros H; injection H as <-; reflexivity|destruct qs; [reflexivity|discriminate]].
  - destruct c as [q|]; cbn [cell bind]; [|split; [discriminate|destruct qs; discriminate]]. destruct (mapM cell cells) as [xs|] eqn:M; cbn [bind].
    + split; [intros H; injection H as <-; cbn; f_equal; apply IH; reflexivity|]. destruct qs as [|y qs]; [discriminate|]. cbn. intros H. injection H as -> H. apply IH in H. injection H as ->. reflexivity.
    + split; [discriminate|]. destruct qs as [|y qs]; [discriminate|]. cbn. intros H. injection H as -> H. apply IH in H. discriminate.
Qed.
Lemma row_data_is labels cells d : NoDup labels -> length cells = length labels -> row_data labels cells = Ok d -> row_is labels cells d.
Proof.
  intros N L. unfold row_data. destruct (mapM cell cells) as [qs|] eqn:M; cbn [bind]; [|discriminate]. intros H. injection H as <-. apply cells_ok in M. subst cells. rewrite map_length in L.
  assert (F : map fst (combine labels qs) = labels) by (apply combine_fst; symmetry; exact L). assert (ND : NoDup (map fst (combine labels qs))) by (rewrite F; exact N).
  rewrite (dict_of_NoDup _ ND). exists (combine labels qs). split; [reflexivity|]. split; [exact ND|]. intros lb q. rewrite combine_nth. split; intros (i & A & B); exists i; (split; [exact A|]).
  - rewrite nth_error_map, B. reflexivity.
  - rewrite nth_error_map in B. destruct (nth_error qs i) as [v|]; cbn in B; [injection B as ->; reflexivity|discriminate].
Qed.
Lemma stamp_time_iff x tz t : stamp_time x = Ok (tz, t) <-> row_at x tz t.
Proof.
  destruct x as [z u|u|]; cbn.
  - split; [intros H; injection H as -> ->; auto|intros [-> ->]; reflexivity].
  - split; [intros H; injection H as <- <-; auto|intros [-> ->]; reflexivity].
  - split; [discriminate|tauto].
Qed.

(* the unit of the slots which are made, or None for points *)
Definition decided (ut : unit_text) (f : option string) (a : wanted_items) : result (option tunit) :=
  do slots <- make_slots f a; if slots : bool then do u <- frame_unit ut f; Ok (Some u) else Ok None.
Lemma from_df_unfold e w ut df a : from_df e w ut df a = do f <- fr_freq df; do unit <- decided ut f a; do l <- mapM (row_item w unit (fr_columns df)) (fr_rows df); ts_new e None l.
Proof. unfold from_df, decided. destruct (fr_freq df) as [f|]; cbn [bind]; [|reflexivity]. destruct (make_slots f a) as [[|]|]; cbn [bind]; [|reflexivity|reflexivity]. destruct (frame_unit ut f); reflexivity. Qed.
Lemma from_df_items e w ut df a s : rectangular df -> from_df e w ut df a = Ok s -> exists f unit, fr_freq df = Ok f /\ decided ut f a = Ok unit /\ ts_new e None (s_items s) = Ok s /\
  Forall2 (fun r x => exists tz t d, row_at (fst r) tz t /\ row_is (fr_columns df) (snd r) d /\ is_item w unit tz t d x) (fr_rows df) (s_items s).
Proof.
  intros [N L]. rewrite from_df_unfold. destruct (fr_freq df) as [f|]; cbn [bind]; [|discriminate]. destruct (decided ut f a) as [unit|] eqn:D; cbn [bind]; [|discriminate]. destruct (mapM (row_item w unit (fr_columns df)) (fr_rows df)) as [l|] eqn:M; cbn [bind]; [|discriminate]. intros H. exists f, unit. split; [reflexivity|]. split; [exact D|]. pose proof (ts_new_items e None l s H) as I. rewrite I. split; [exact H|].
  apply mapM_F2 in M. clear H I s. revert L. induction M as [|r x rows l E M IH]; intros L; [constructor|]. constructor; [|apply IH; intros q Hq; apply L; right; exact Hq]. unfold row_item in E. destruct (stamp_time (fst r)) as [[tz t]|] eqn:T; cbn [bind] in E; [|discriminate]. destruct (row_data (fr_columns df) (snd r)) as [d|] eqn:R; cbn [bind] in E; [|discriminate]. injection E as <-. exists tz, t, d. split; [apply stamp_time_iff; exact T|]. split; [apply row_data_is; [exact N|apply L; left; reflexivity|exact R]|]. apply make_item_is.
Qed.

(* ---- the frequencies ---- *)
Lemma replace_digits a r new n w : digits n -> digit a = false -> str_replace (String a r) new (n ++ w) = (n ++ str_replace (String a r) new w)%string.
Proof.
  intros D A. unfold str_replace. induction n as [|b n IH]; [reflexivity|]. destruct D as [Db D]. change ((String b n ++ w)%string) with (String b (n ++ w)). cbn [replace_from prefix].
  destruct (ascii_dec a b) as [->|_]; [congruence|]. cbn [append]. f_equal. apply IH. exact D.
Qed.
Lemma length_append a b : String.length (a ++ b) = String.length a + String.length b.
Proof. induction a as [|x a IH]; cbn; [reflexivity|rewrite IH; reflexivity]. Qed.
Lemma letters_digits n w : digits n -> unit_letters (n ++ w) = (n ++ unit_letters w)%string.
Proof. intros D. unfold unit_letters. rewrite !replace_digits by (assumption || reflexivity). reflexivity. Qed.
Lemma drop_digits_app n w : digits n -> drop_digits (n ++ w) = drop_digits w.
Proof. intros D. induction n as [|b n IH]; [reflexivity|]. destruct D as [Db D]. cbn. rewrite Db. apply IH. exact D. Qed.
Lemma name_of n w letter : digits n -> unit_letters w = letter -> String.length letter = 1 -> unit_name (n ++ w) = (times_of_unit n ++ letter)%string.
Proof.
  intros D L L1. unfold unit_name. rewrite (letters_digits n w D), L, length_append, L1. unfold times_of_unit. destruct n as [|b n]; [reflexivity|]. cbn [String.length]. destruct (Nat.eqb_spec (S (String.length n) + 1) 1) as [E|_]; [lia|]. reflexivity.
Qed.
Lemma times_digits n : digits n -> digits (times_of_unit n).
Proof. intros D. unfold times_of_unit. destruct (String.eqb n ""); [cbn; auto|exact D]. Qed.
Lemma nonempty n w : w <> ""%string -> exists a r, (n ++ w)%string = String a r.
Proof. intros W. destruct n as [|b n]; [destruct w as [|b w]; [congruence|cbn; eauto]|cbn; eauto]. Qed.
Lemma calendar_freq n name letter : digits n -> In (name, letter) calendar_names -> unit_name (n ++ name) = (times_of_unit n ++ letter)%string /\ is_calendar (n ++ name) = true /\ name <> ""%string.
Proof.
  intros D I. assert (H : unit_letters name = letter /\ String.length letter = 1 /\ str_mem (drop_digits letter) ["Y"; "M"; "D"]%string = true /\ name <> ""%string).
  { unfold calendar_names in I. repeat destruct I as [E|I]; try (injection E as <- <-; (split; [reflexivity|split; [reflexivity|split; [reflexivity|discriminate]]])). destruct I. }
  destruct H as (A & B & C & E). pose proof (name_of n name letter D A B) as N. split; [exact N|]. split; [|exact E]. unfold is_calendar. rewrite N, drop_digits_app by (apply times_digits; exact D). exact C.
Qed.
Lemma physical_freq n name letter : digits n -> In (name, letter) physical_names -> unit_name (n ++ name) = (times_of_unit n ++ letter)%string /\ is_calendar (n ++ name) = false /\ name <> ""%string.
Proof.
  intros D I. assert (H : unit_letters name = letter /\ String.length letter = 1 /\ str_mem (drop_digits letter) ["Y"; "M"; "D"]%string = false /\ name <> ""%string).
  { unfold physical_names in I. repeat destruct I as [E|I]; try (injection E as <- <-; (split; [reflexivity|split; [reflexivity|split; [reflexivity|discriminate]]])). destruct I. }
  destruct H as (A & B & C & E). pose proof (name_of n name letter D A B) as N. split; [exact N|]. split; [|exact E]. unfold is_calendar. rewrite N, drop_digits_app by (apply times_digits; exact D). exact C.
Qed.
Lemma decided_calendar ut n name letter a : digits n -> In (name, letter) calendar_names -> decided ut (Some (n ++ name)%string) a = match a with WantPoints => Err ValueError | _ => do u <- ut_parse ut (times_of_unit n ++ letter)%string; Ok (Some u) end.
Proof.
  intros D I. destruct (calendar_freq n name letter D I) as (N & C & E). destruct (nonempty n name E) as (b & r & S). unfold decided, make_slots, frame_unit. rewrite <- N. rewrite S in *. rewrite C. destruct a; reflexivity.
Qed.
Lemma decided_physical ut n name letter a : digits n -> In (name, letter) physical_names -> decided ut (Some (n ++ name)%string) a = match a with WantSlots => do u <- ut_parse ut (times_of_unit n ++ letter)%string; Ok (Some u) | _ => Ok None end.
Proof.
  intros D I. destruct (physical_freq n name letter D I) as (N & C & E). destruct (nonempty n name E) as (b & r & S). unfold decided, make_slots, frame_unit. rewrite <- N. rewrite S in *. rewrite C. destruct a; reflexivity.
Qed.
