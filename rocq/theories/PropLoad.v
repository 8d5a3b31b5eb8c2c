(* PropLoad.v -- THEOREMS C82 (saving and loading a series). *)
From Verif Require Import SpecLoad BaseLemmas PropTactics DictLemmas AccessProofs3 InterpProofs LstmProofs CsvProofs CsvProofs2 CsvProofs3 CsvProofs4 CsvProofs5 Witness PropAccess PropTransform PropLstm PropCsv.
From Coq Require Import Lia.
Local Open Scope string_scope.
Local Open Scope list_scope.

Lemma after_app a s : after a (a ++ s)%string = Some s.
Proof. induction a as [|c a IH]; [destruct s; reflexivity|]. cbn [append after]. rewrite Ascii.eqb_refl. exact IH. Qed.
Lemma after_some a s t : after a s = Some t -> s = (a ++ t)%string.
Proof.
  revert s. induction a as [|c a IH]; intros s H; [destruct s; cbn in *; congruence|]. destruct s as [|d s]; [discriminate|]. cbn [after] in H. destruct (Ascii.eqb_spec c d) as [-> |]; [|discriminate]. cbn [append]. f_equal. apply IH. exact H.
Qed.
Lemma quotable_no_newline s : quotable s -> no_newline s.
Proof. intros Q H. unfold quotable in Q. rewrite Forall_forall in Q. specialize (Q newline H). cbn in Q. lia. Qed.
Lemma chars_app a b : chars (a ++ b)%string = chars a ++ chars b.
Proof. induction a as [|c a IH]; [reflexivity|]. cbn [append]. change (c :: chars (a ++ b)%string = c :: chars a ++ chars b). rewrite IH. reflexivity. Qed.
Lemma no_newline_app a b : no_newline a -> no_newline b -> no_newline (a ++ b)%string.
Proof. intros A B. unfold no_newline. rewrite chars_app. intros H. apply in_app_or in H. destruct H; [apply A|apply B]; assumption. Qed.
Ltac lit_newline := let H := fresh in intros H; vm_compute in H; repeat (destruct H as [H|H]; [discriminate|]); exact H.
Lemma extra_no_newline a b c : no_newline a -> no_newline b -> no_newline c -> no_newline (extra_text a b c).
Proof. intros A B C. unfold extra_text. repeat (first [apply no_newline_app; [first [assumption|lit_newline]|]]). lit_newline. Qed.

(* The parameters in a file written by save. *)
Definition kind_text (s : series) : string := match s_items s with x :: _ => if is_slot x then "slots" else "points" | [] => "points" end.
Lemma comments_fine ut now more s : no_newline now -> no_newline (more s) -> quotable (tz_text s) -> quotable (resolution_text ut (resolution s)) -> forall t, In t (comments_of ut now more s) -> no_newline t.
Proof.
  intros N M Z R t [<-|[<-|[<-|[]]]].
  - apply no_newline_app; [lit_newline|exact N].
  - apply no_newline_app; [lit_newline|exact M].
  - apply no_newline_app; [lit_newline|]. apply extra_no_newline; [destruct (s_items s) as [|x l]; [|destruct (is_slot x)]; lit_newline|apply quotable_no_newline; exact Z|apply quotable_no_newline; exact R].
Qed.
Lemma kind_quotable s : quotable (kind_text s).
Proof. unfold kind_text, quotable. destruct (s_items s) as [|x l]; [|destruct (is_slot x)]; cbn; repeat constructor; cbn; try lia; try discriminate. Qed.
Lemma parameters_written jl ut now more s rest : reads_json jl -> quotable (tz_text s) -> quotable (resolution_text ut (resolution s)) -> (forall t r, rest <> String "#" t :: r) ->
  parameters jl (map (fun t => "# " ++ t)%string (comments_of ut now more s) ++ rest) None = Ok (Some [("type", kind_text s); ("tz", tz_text s); ("resolution", resolution_text ut (resolution s))]).
Proof.
  intros J Z R Nr. unfold comments_of. cbn [map app]. set (ex := extra_text _ _ _). cbn [append parameters after Ascii.eqb Bool.eqb]. 
  assert (E : jl ex = Ok [("type", kind_text s); ("tz", tz_text s); ("resolution", resolution_text ut (resolution s))]) by (apply J; [apply kind_quotable|exact Z|exact R]). cbn [bind]. rewrite E. cbn [bind].
  destruct rest as [|l r]; [reflexivity|]. cbn [parameters]. destruct l as [|c l]; [reflexivity|]. cbn [after]. destruct (Ascii.eqb_spec "#" c) as [<- |]; [exfalso; apply (Nr l r); reflexivity|]. reflexivity.
Qed.
Lemma written_lines nt e s comments : exact_text nt -> healthy e s -> writable (s_items s) -> (forall t, In t comments -> no_newline t) ->
  exists t rest, put_text nt comments s = (t, Ok tt) /\ lines_of t = map (fun t => "# " ++ t)%string comments ++ rest /\ (forall z r, rest <> String "#" z :: r).
Proof.
  intros E H W Hc. destruct (series_columns e s H W) as (ls & ix & x0 & r & Es & L & Eix & C & P).
  exists (join "" (map (fun s => s ++ end_line)%string (lines_written nt comments ls ix (s_items s)))). eexists. split; [apply (put_text_ok nt comments s x0 r ls ix Es); [intros x Ix; apply P, Ix|exact L|apply C|exact Eix|]; intros x Ix; destruct (P x Ix) as (_ & A & B & G); split; [intros l; apply A|]; split; [exact G|intros i; apply B]|].
  split; [rewrite lines_join; [reflexivity|]|].
  - intros z Hz. unfold lines_written in Hz. apply in_app_or in Hz. destruct Hz as [Hz|[<-|Hz]].
    + apply in_map_iff in Hz. destruct Hz as (t & <- & It). apply no_newline_app; [lit_newline|apply Hc; exact It].
    + apply join_no_newline. intros y. apply (header_plain ls ix y C).
    + apply in_map_iff in Hz. destruct Hz as (x & <- & _). apply join_no_newline. intros y. apply (fields_plain nt ls ix x y E).
  - intros z r' F. injection F as F _. unfold header_of in F. cbn in F. destruct (ls ++ _) in F; discriminate.
Qed.
Lemma tz_text_is s z : s_items s <> [] -> tz_is s z -> tz_text s = z.
Proof.
  intros N ->. unfold tz_text. assert (X : exists w, series_tz s = Some w). { unfold series_tz. destruct (s_tz s); [eauto|]. destruct (s_items s) as [|x l]; [contradiction|]. cbn [detect_tz]. generalize (i_tz x). induction l as [|y l IH]; intros w; [exists w; reflexivity|]. cbn [detect_tz]. destruct (String.eqb (i_tz y) w); [apply IH; discriminate|eexists; reflexivity]. }
  destruct X as [w ->]. reflexivity.
Qed.
Lemma load_written jl ut fuel nt k e c s p f ow now more : reads_json jl -> exact_text nt -> healthy e s -> writable (s_items s) -> no_newline now -> no_newline (more s) -> quotable (tz_text s) -> quotable (resolution_text ut (resolution s)) ->
  place_for f p -> f p = None \/ ow = true ->
  exists t, save_series nt ut now more CFine ow s p f = (cfs_set f p (CFile t), Ok tt) /\ forall own, load_series jl ut fuel nt k e c own (Some t) =
    do u <- (if String.eqb (kind_text s) "slots" then do u <- ut_parse ut (resolution_text ut (resolution s)); Ok (Some u) else Ok None);
    do s' <- snd (csv_get fuel nt k e c (mkOptions 0 [] (Some (tz_text s)) (String.eqb (kind_text s) "points") (String.eqb (kind_text s) "slots") u) csv_storage (Some t));
    if own then Ok (Some s') else Ok None.
Proof.
  intros J E H W N M Z R Pl Po. pose proof (comments_fine ut now more s N M Z R) as Hc. destruct (written_lines nt e s (comments_of ut now more s) E H W Hc) as (t & rest & T & L & Nr). exists t. split.
  - apply put_ok; [exact Pl|exact Po|exact T|]. intros x Ix. destruct H as (_ & (_ & Ni & _) & _). apply Ni. exact Ix.
  - intros own. unfold load_series. rewrite L, (parameters_written jl ut now more s rest J Z R Nr). cbn [bind]. set (m := [_; _; _]). assert (K1 : key_of m "type" = Ok (kind_text s)) by reflexivity. assert (K2 : key_of m "tz" = Ok (tz_text s)) by reflexivity. assert (K3 : key_of m "resolution" = Ok (resolution_text ut (resolution s))) by reflexivity. unfold m at 1; cbv beta iota; fold m. rewrite K1. cbn [bind]. rewrite K2. cbn [bind]. rewrite K3. cbn [bind]. destruct (String.eqb (kind_text s) "slots"); cbn [bind]; [|reflexivity]. destruct (ut_parse ut (resolution_text ut (resolution s))); reflexivity.
Qed.

(* ===================== C82 ===================== *)
(* A series of points which is saved is the one loaded: same times, values and indexes, on the timezone of the series. *)
Theorem C82_points : forall jl ut fuel nt k e c s z p f ow now more,
  reads_json jl -> exact_text nt -> parses_units e -> healthy e s -> all_points (s_items s) -> writable (s_items s) -> tz_is s z -> quotable z -> quotable (resolution_text ut (resolution s)) -> no_newline now -> no_newline (more s) ->
  place_for f p -> f p = None \/ ow = true ->
  exists f' s', save_series nt ut now more CFine ow s p f = (f', Ok tt) /\ load_series jl ut fuel nt k e c true (file_at f' p) = Ok (Some s') /\
    Forall2 same_content (s_items s) (s_items s') /\ (forall y, In y (s_items s') -> i_tz y = z).
Proof.
  intros jl ut fuel nt k e c s z p f ow now more J E He H Hp W Tz Qz R N M Pl Po. assert (Ne : s_items s <> []) by (destruct H as (_ & (Ne & _) & _); exact Ne). pose proof (tz_text_is s z Ne Tz) as Et.
  assert (Kd : kind_text s = "points"%string). { unfold kind_text. destruct (s_items s) as [|x l] eqn:El; [contradiction|]. pose proof (Hp x (or_introl eq_refl)) as Px. unfold is_point, is_slot in *. destruct (i_cls x); try discriminate; reflexivity. }
  rewrite <- Et in Qz. destruct (load_written jl ut fuel nt k e c s p f ow now more J E H W N M Qz R Pl Po) as (t & S & L). set (o := mkOptions 0 [] (Some z) true false None).
  destruct (C61_points nt fuel k e c o csv_storage (comments_of ut now more s) ow s p f E He H Hp W (comments_fine ut now more s N M Qz R)) as (f' & st' & s' & P & G & F & T & _); [repeat split; left; reflexivity|split; reflexivity|reflexivity|left; reflexivity|exact Pl|exact Po|].
  exists f', s'. split; [exact P|]. unfold save_series in S. rewrite S in P. injection P as <-. rewrite file_at_set in *. split; [|split; [exact F|exact T]]. rewrite L, Kd. cbn [String.eqb Ascii.eqb Bool.eqb bind]. rewrite Et. fold o. rewrite G. reflexivity.
Qed.
Print Assumptions C82_points.
(* So is a series of two slots or more, of the same unit. *)
Theorem C82_slots : forall jl ut fuel nt k e c s u z p f ow now more,
  reads_json jl -> exact_text nt -> parses_units e -> healthy e s -> all_slots (s_items s) -> 2 <= length (s_items s) -> writable (s_items s) -> tz_is s z -> quotable z -> no_newline now -> no_newline (more s) ->
  resolution s = Some (RUnit u) -> readable ut u -> quotable (ut_str ut u) -> (forall x, In x (s_items s) -> i_unit x = u /\ i_end x = unit_shift c u (i_t x) 1) -> (forall d, exists w, ce_secs k d = Ok w) ->
  place_for f p -> f p = None \/ ow = true ->
  exists f' s', save_series nt ut now more CFine ow s p f = (f', Ok tt) /\ load_series jl ut fuel nt k e c true (file_at f' p) = Ok (Some s') /\
    Forall2 same_content (s_items s) (s_items s') /\ (forall y, In y (s_items s') -> i_tz y = z).
Proof.
  intros jl ut fuel nt k e c s u z p f ow now more J E He H Hp Nl W Tz Qz N M Ru Rd R U K Pl Po. assert (Ne : s_items s <> []) by (destruct H as (_ & (Ne & _) & _); exact Ne). pose proof (tz_text_is s z Ne Tz) as Et.
  assert (Kd : kind_text s = "slots"%string). { unfold kind_text. destruct (s_items s) as [|x l] eqn:El; [contradiction|]. pose proof (Hp x (or_introl eq_refl)) as Px. unfold is_slot in *. rewrite Px. reflexivity. }
  assert (R' : quotable (resolution_text ut (resolution s))) by (rewrite Ru; exact R). rewrite <- Et in Qz. destruct (load_written jl ut fuel nt k e c s p f ow now more J E H W N M Qz R' Pl Po) as (t & S & L). set (o := mkOptions 0 [] (Some z) false true (Some u)).
  destruct (C61_slots nt fuel k e c o csv_storage (comments_of ut now more s) ow s p f u E He H Hp W (comments_fine ut now more s N M Qz R')) as (f' & st' & s' & P & G & F & T & _); [repeat split; left; reflexivity|split; reflexivity|reflexivity|exact Nl|exact U| |exact Pl|exact Po|].
  { split; [right; reflexivity|]. right. split; [reflexivity|]. split; [reflexivity|exact K]. }
  exists f', s'. split; [exact P|]. unfold save_series in S. rewrite S in P. injection P as <-. rewrite file_at_set in *. split; [|split; [exact F|exact T]]. rewrite L, Kd, Ru. cbn [String.eqb Ascii.eqb Bool.eqb bind resolution_text]. rewrite Rd. cbn [bind]. rewrite Et. fold o. rewrite G. reflexivity.
Qed.
Print Assumptions C82_slots.
(* Files without the parameters of the series are refused. *)
Theorem C82_other_files : forall jl ut fuel nt k e c own t, no_parameters (lines_of t) -> load_series jl ut fuel nt k e c own (Some t) = Err ValueError.
Proof.
  intros jl ut fuel nt k e c own t (cs & rest & L & Hc & Hr). unfold load_series. assert (P : parameters jl (lines_of t) None = Ok None).
  { rewrite L. clear L. induction cs as [|l cs IH]; cbn [app].
    - destruct rest as [|l r]; [reflexivity|]. cbn [parameters]. destruct (after "#" l) as [w|] eqn:A; [|reflexivity]. apply after_some in A. exfalso. apply (Hr w r). rewrite A. reflexivity.
    - destruct (Hc l (or_introl eq_refl)) as (w & El & Nl). cbn [parameters]. destruct (after "#" l); [|reflexivity]. destruct (after "# Extra parameters:" l) as [v|] eqn:A; [apply after_some in A; exfalso; apply (Nl v); exact A|]. apply IH. intros z Hz. apply Hc. right. exact Hz. }
  rewrite P. reflexivity.
Qed.
Print Assumptions C82_other_files.
(* Saving over a file needs permission, and otherwise the file is as before. *)
Theorem C82_no_overwrite : forall nt ut now more d s p f t, f p = Some (CFile t) -> save_series nt ut now more d false s p f = (f, Err GenericException).
Proof. intros nt ut now more d s p f t H. unfold save_series, csv_put. rewrite H. reflexivity. Qed.
Print Assumptions C82_no_overwrite.
(* On a class derived from the one of the series nothing is ever returned. *)
Theorem C82_derived_returns_nothing : forall jl ut fuel nt k e c file s, load_series jl ut fuel nt k e c false file <> Ok (Some s).
Proof.
  intros jl ut fuel nt k e c file s. unfold load_series. destruct file as [t|]; [|discriminate]. destruct (parameters jl (lines_of t) None) as [[[|m ms]|]|]; cbn [bind]; try discriminate. destruct (key_of (m :: ms) "type"); cbn [bind]; [|discriminate]. destruct (key_of (m :: ms) "tz"); cbn [bind]; [|discriminate].
  destruct (if (a =? "slots")%string then _ else _); cbn [bind]; [|discriminate]. destruct (snd (csv_get fuel nt k e c _ csv_storage (Some t))); cbn [bind]; discriminate.
Qed.
Print Assumptions C82_derived_returns_nothing.

(* ---- examples ---- *)
(* a reader for the objects of three texts *)
Definition flat_json (t : string) : result (dict string) :=
  match split_on """"%char t with
  | [_; k1; _; v1; _; k2; _; v2; _; k3; _; v3; _] => Ok [(k1, v1); (k2, v2); (k3, v3)]
  | _ => Err ValueError
  end.
Lemma flat_reads : reads_json flat_json.
Proof.
  intros a b c A B C. unfold flat_json.
  assert (X : (" {""type"": """ ++ a ++ """, ""tz"": """ ++ b ++ """, ""resolution"": """ ++ c ++ """}")%string = join """" [" {"; "type"; ": "; a; ", "; "tz"; ": "; b; ", "; "resolution"; ": "; c; "}"]) by (cbn [join append]; reflexivity).
  rewrite X, split_join; [reflexivity|discriminate|]. assert (Q : forall s, quotable s -> ~ In """"%char (chars s)) by (intros s Qs I; unfold quotable in Qs; rewrite Forall_forall in Qs; destruct (Qs _ I) as (_ & F & _); apply F; reflexivity).
  intros s I. repeat (destruct I as [<- |I]; [first [apply Q; assumption|let F := fresh in intros F; vm_compute in F; repeat (destruct F as [F|F]; [discriminate|]); exact F]|]). destruct I.
Qed.
(* hours, days and seconds *)
Definition units3 : unit_text := mkUnitText (fun u => match u with UCal n => n | UPhys q => if qeqb q (qz 3600) then "1h" else "10s" end) (fun t => if String.eqb t "1h" then Ok (UPhys (qz 3600)) else if String.eqb t "1D" then Ok (UCal "1D") else Err ValueError).
Definition some_text (s : series) : string := "3 items".
Definition saved (s : series) : cfs := fst (save_series plain_text units3 "2020-01-01" some_text CFine false s file tmp_only).
Definition loaded (s : series) : result (option series) := load_series flat_json units3 10 plain_text seconds_env ideal_env day_cal true (file_at (saved s) file).
Ltac quote_tac := unfold quotable; vm_compute; repeat constructor; try lia; try discriminate.
(* A single slot can be saved, but not loaded. *)
Theorem C82_single_slot_not_loaded : exists s, healthy ideal_env s /\ all_slots (s_items s) /\ writable (s_items s) /\ resolution s = Some (RUnit (UPhys (qz 3600))) /\ readable units3 (UPhys (qz 3600)) /\
  snd (save_series plain_text units3 "2020-01-01" some_text CFine false s file tmp_only) = Ok tt /\ loaded s = Err ValueError.
Proof.
  exists (ms single_slot). assert (E : s_items (ms single_slot) = single_slot) by (vm_compute; reflexivity).
  assert (H : healthy ideal_env (ms single_slot) /\ all_slots single_slot) by (apply (two_labels_slots_healthy (UPhys (qz 3600))); [discriminate|slots_tac|vm_compute; reflexivity|vm_compute; reflexivity|exact E|vm_compute; reflexivity]).
  split; [apply H|]. rewrite E. split; [apply H|]. split; [apply (two_labels_slots_writable (UPhys (qz 3600))); [slots_tac|]; intros x Hx; repeat (destruct Hx as [<- |Hx]; [reflexivity|]); destruct Hx|]. split; [vm_compute; reflexivity|]. split; [vm_compute; reflexivity|]. split; vm_compute; reflexivity.
Qed.
Print Assumptions C82_single_slot_not_loaded.
(* Points a day apart and hourly slots, for which the type is found wrong when it is not written in the file, come back as they are. *)
Example C82_nonvacuous : reads_json flat_json /\ exact_text plain_text /\ parses_units ideal_env /\
  (healthy ideal_env (ms daily_points) /\ all_points (s_items (ms daily_points)) /\ writable (s_items (ms daily_points)) /\ tz_is (ms daily_points) "UTC" /\ quotable "UTC" /\ quotable (resolution_text units3 (resolution (ms daily_points)))) /\
  (healthy ideal_env (ms hourly) /\ all_slots (s_items (ms hourly)) /\ writable (s_items (ms hourly)) /\ tz_is (ms hourly) "UTC" /\ resolution (ms hourly) = Some (RUnit (UPhys (qz 3600))) /\ readable units3 (UPhys (qz 3600)) /\ quotable (ut_str units3 (UPhys (qz 3600))) /\
   (forall x, In x (s_items (ms hourly)) -> i_unit x = UPhys (qz 3600) /\ i_end x = unit_shift day_cal (UPhys (qz 3600)) (i_t x) 1)) /\ no_newline "2020-01-01" /\ no_newline (some_text (ms hourly)) /\ place_for tmp_only file /\
  match loaded (ms daily_points), loaded (ms hourly) with Ok (Some a), Ok (Some b) => all_points (s_items a) /\ length (s_items a) = 3 /\ all_slots (s_items b) /\ length (s_items b) = 3 | _, _ => False end /\
  no_parameters (lines_of (file_of ["# Time series"; "epoch,a"; "0,1"])).
Proof.
  assert (E : s_items (ms daily_points) = daily_points) by (vm_compute; reflexivity).
  split; [exact flat_reads|]. split; [exact plain_exact|]. split; [exact ideal_parses|]. split; [|split; [|split; [lit_newline|split; [lit_newline|split; [exact tmp_place|split]]]]].
  - split; [apply ready_healthy, two_labels_ready; [exact E|discriminate|two_labels_tac|vm_compute; reflexivity|vm_compute; reflexivity]|]. rewrite E. split; [intros x Hx; repeat (destruct Hx as [<- |Hx]; [reflexivity|]); destruct Hx|].
    split; [apply (two_labels_writable _ ["data_loss"%string]); [two_labels_tac|repeat constructor; intros []| |vm_compute; reflexivity]; intros x Hx; repeat (destruct Hx as [<- |Hx]; [reflexivity|]); destruct Hx|]. split; [vm_compute; reflexivity|]. split; quote_tac.
  - split; [apply hourly_healthy|]. split; [rewrite hourly_items; apply hourly_healthy|]. split; [exact hourly_writable|]. split; [vm_compute; reflexivity|]. split; [vm_compute; reflexivity|]. split; [vm_compute; reflexivity|]. split; [quote_tac|].
    rewrite hourly_items. intros x Hx. repeat (destruct Hx as [<- |Hx]; [split; [reflexivity|apply qeqb_eq; vm_compute; reflexivity]|]). destruct Hx.
  - vm_compute. split; [|split; [reflexivity|split; [|reflexivity]]]; intros x Hx; repeat (destruct Hx as [<- |Hx]; [reflexivity|]); destruct Hx.
  - exists ["# Time series"], ["epoch,a"; "0,1"]. split; [vm_compute; reflexivity|]. split; [|discriminate]. intros l [<-|[]]. eexists. split; [reflexivity|]. discriminate.
Qed.
