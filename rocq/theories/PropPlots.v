(* PropPlots.v -- THEOREMS C80 (what the plots show). *)
From Verif Require Import SpecPlots BaseLemmas PropTactics DictLemmas SeriesProofs3 OpsProofs OpsProofs2 InterpProofs AccessProofs AccessProofs2 ReconProofs LstmProofs AnomalyProofs4 CsvProofs CsvProofs2 PlotsProofs Witness PropTransform PropAccess PropOps.
From Coq Require Import Lia.

(* ---- what is chosen ---- *)
Lemma mapM_id {A} (f : A -> result A) l r : (forall x y, f x = Ok y -> y = x) -> mapM f l = Ok r -> r = l /\ forall x, In x l -> f x = Ok x.
Proof.
  intros H. revert r. induction l as [|x l IH]; intros r E; cbn [mapM] in E; [injection E as <-; split; [reflexivity|intros x []]|]. destruct (f x) as [y|] eqn:F; cbn [bind] in E; [|discriminate]. destruct (mapM f l) as [t|]; cbn [bind] in E; [|discriminate]. injection E as <-. destruct (IH t eq_refl) as [-> K]. pose proof (H x y F) as ->. split; [reflexivity|].
  intros z [<-|Hz]; [exact F|apply K; exact Hz].
Qed.
Lemma chosen_picks c av (P : string -> Prop) l : (forall a, av = Ok a -> NoDup a /\ forall k, In k a <-> P k) -> chosen c av = Ok l -> picks c P l.
Proof.
  intros H E. destruct c as [| |m]; cbn [chosen picks] in *; [apply H; exact E|congruence|]. apply mapM_id in E.
  - destruct E as [-> K]. split; [reflexivity|]. intros k Ik. specialize (K k Ik). cbn beta in K. destruct av as [a|]; cbn [bind] in K; [|discriminate]. destruct (str_mem k a) eqn:M; [|discriminate]. apply str_mem_In in M. apply (H a eq_refl). exact M.
  - intros x y X. destruct av as [a|]; cbn [bind] in X; [|discriminate]. destruct (str_mem x a); congruence.
Qed.
Lemma picks_chosen c a (P : string -> Prop) : NoDup a -> (forall k, In k a <-> P k) -> (forall m k, c = These m -> In k m -> P k) -> exists l, chosen c (Ok a) = Ok l /\ picks c P l.
Proof.
  intros N H K. assert (X : exists l, chosen c (Ok a) = Ok l). { destruct c as [| |m]; cbn [chosen]; eauto. exists m. specialize (K m). assert (K' : forall k, In k m -> P k) by (intros k; apply K; reflexivity). clear K. induction m as [|k m IH]; [reflexivity|]. cbn [mapM bind] in *. assert (M : str_mem k a = true) by (apply str_mem_In, H, K'; left; reflexivity). rewrite M. cbn [bind]. rewrite IH; [reflexivity|intros z Hz; apply K'; right; exact Hz]. }
  destruct X as [l E]. exists l. split; [exact E|]. apply (chosen_picks c (Ok a) P l); [|exact E]. intros b Eb. injection Eb as <-. split; assumption.
Qed.
Lemma series_labels e s : from_history e s -> numeric (s_items s) -> exists a, labels_of s = Ok a /\ NoDup a /\ a <> [] /\ (forall k, In k a <-> label_in (s_items s) k).
Proof.
  intros H N. destruct (labels_of_ok s (history_ref e s H N) N) as (x & l & E & L). exists (item_labels x). assert (Ix : In x (s_items s)) by (rewrite E; left; reflexivity). destruct N as (Ne & Nu & Sh). split; [exact L|]. split; [apply item_labels_NoDup, Nu, Ix|].
  split; [apply item_labels_nonempty, Nu, Ix|]. intros k. rewrite item_labels_In. split; [intros K; exists x; split; assumption|]. intros (y & Iy & Ky). apply (same_shape_labels x y k (Sh x y Ix Iy)). exact Ky.
Qed.
Lemma label_everywhere l k x : numeric l -> label_in l k -> In x l -> has_label x k.
Proof. intros (_ & _ & Sh) (y & Iy & Ky) Ix. apply (same_shape_labels y x k (Sh y x Iy Ix)). exact Ky. Qed.
Lemma picks_known c l ls : numeric l -> picks c (label_in l) ls -> known ls l.
Proof. intros N P x Ix. split; [apply N; exact Ix|]. intros lb Il. apply (label_everywhere l lb x N); [|exact Ix]. destruct c as [| |m]; cbn in P; [apply P; exact Il|subst ls; destruct Il|destruct P as [-> P]; apply P; exact Il]. Qed.
Lemma same_slots l x y : numeric l -> In x l -> In y l -> is_slot x = is_slot y.
Proof. intros (_ & _ & Sh) Ix Iy. destruct (Sh x y Ix Iy) as (C & _). unfold is_slot. rewrite C. reflexivity. Qed.

(* ---- the plot, as a whole ---- *)
Lemma plot_ok T s e ls_c ix_c ag ab h vr p : from_history e s -> numeric (s_items s) -> plot T s ls_c ix_c ag ab h vr = Ok p ->
  exists ls ix r, picks ls_c (label_in (s_items s)) ls /\ picks ix_c (index_in (s_items s)) ix /\ ls <> [] /\
    p_columns p = column_names (match s_items s with x0 :: _ => match i_data x0 with Some (DList _) => true | _ => false end | [] => false end) ls ix /\
    extremes r (all_values ls (s_items s)) /\ plot_range r h vr = Ok (p_range p) /\
    match aggregation T (length (s_items s)) ag ab with
    | Some (S n) => length (p_rows p) = Nat.div (length (s_items s)) (S n) /\ forall k w, nth_error (p_rows p) k = Some w -> shows_group ls ix (nth_group (S n) k (s_items s)) w
    | _ => p_rows p = map (fun x => mkRow (i_t x) (i_tz x) (map CNum (map (valof x) ls) ++ map (index_cell x) ix)) (s_items s)
    end.
Proof.
  intros H N E. unfold plot in E. destruct (s_items s) as [|x0 l0] eqn:El; [discriminate|]. rewrite <- El in *. destruct (chosen ls_c (labels_of s)) as [ls|] eqn:C1; cbn [bind] in E; [|discriminate]. destruct (chosen ix_c (Ok (all_indexes (s_items s)))) as [ix|] eqn:C2; cbn [bind] in E; [|discriminate].
  destruct (plot_rows ls ix _ (is_slot x0) (s_items s)) as [[rows r]|] eqn:R; cbn [bind fst snd] in E; [|discriminate]. destruct (plot_range r h vr) as [rg|] eqn:G; cbn [bind] in E; [|discriminate]. injection E as <-.
  assert (P1 : picks ls_c (label_in (s_items s)) ls). { apply (chosen_picks _ _ _ _) with (2 := C1). intros a Ea. destruct (series_labels e s H N) as (a' & Ea' & Nd & _ & K). rewrite Ea in Ea'. injection Ea' as <-. split; assumption. }
  assert (P2 : picks ix_c (index_in (s_items s)) ix). { apply (chosen_picks _ _ _ _) with (2 := C2). intros a Ea. injection Ea as <-. split; [apply all_indexes_NoDup|]. intros k. apply all_indexes_In. }
  pose proof (picks_known _ _ _ N P1) as K. assert (Nl : ls <> []) by (intros ->; discriminate). exists ls, ix, r. split; [exact P1|]. split; [exact P2|]. split; [exact Nl|]. cbn [p_columns p_rows p_range]. split; [first [reflexivity|rewrite El; reflexivity]|].
  assert (X0 : extremes (None, None) []) by reflexivity. unfold plot_rows in R. destruct ls as [|l1 ls']; [contradiction|]. set (ls := l1 :: ls') in *.
  destruct (aggregation T (length (s_items s)) ag ab) as [[|n]|].
  - destruct (plain_ok ls ix (s_items s) _ _ K X0) as (g' & R' & E'). rewrite R in R'. injection R' as -> ->. split; [exact E'|]. split; [exact G|reflexivity].
  - assert (Ix0 : In x0 (s_items s)) by (rewrite El; left; reflexivity). destruct (grouped_ok (is_slot x0) (S n) ls ix ltac:(lia) (s_items s) 0 [] (new_group ls ix) (None, None) [] K) as (rows' & r' & R' & Lr & Wr & E'); [intros x Ix; apply (same_slots _ _ _ N Ix Ix0)|symmetry; apply Nat.mod_0_l; lia|reflexivity|exact X0|]. rewrite R in R'. injection R' as -> ->. split; [exact E'|]. split; [exact G|]. split; assumption.
  - destruct (plain_ok ls ix (s_items s) _ _ K X0) as (g' & R' & E'). rewrite R in R'. injection R' as -> ->. split; [exact E'|]. split; [exact G|reflexivity].
Qed.

Lemma digit_length n : n < 10 -> String.length (digit_str n) = 1.
Proof. intros H. do 10 (destruct n as [|n]; [reflexivity|]). lia. Qed.
Lemma nat_str_digits f n : n < f -> 1 <= n -> 10 ^ (pred (String.length (nat_str_fuel f n))) <= n < 10 ^ String.length (nat_str_fuel f n) /\ 1 <= String.length (nat_str_fuel f n).
Proof.
  revert n. induction f as [|f IH]; intros n Hn H1; [lia|]. cbn [nat_str_fuel]. destruct (Nat.ltb_spec n 10) as [L|L].
  - assert (D : String.length (digit_str n) = 1) by (apply digit_length; exact L). rewrite D. cbn. lia.
  - assert (D : String.length (nat_str_fuel f (n / 10) ++ digit_str (n mod 10))%string = S (String.length (nat_str_fuel f (n / 10)))). { generalize (nat_str_fuel f (n / 10)) as w. induction w as [|c w IHw]; [apply digit_length, Nat.mod_upper_bound; lia|cbn [append String.length]; rewrite IHw; reflexivity]. }
    rewrite D. pose proof (Nat.div_mod n 10 ltac:(lia)) as Dm. pose proof (Nat.mod_upper_bound n 10 ltac:(lia)) as Mb. destruct (IH (n / 10) ltac:(lia) ltac:(lia)) as ([A B] & C). destruct (String.length (nat_str_fuel f (n / 10))) as [|k]; [lia|]. cbn [pred] in *. rewrite (Nat.pow_succ_r' 10 (S k)). split; [|lia]. split; [rewrite Nat.pow_succ_r'; lia|lia].
Qed.
Lemma pow10_unique a b q : 10 ^ a <= q < 10 ^ S a -> 10 ^ b <= q < 10 ^ S b -> a = b.
Proof. intros [A1 A2] [B1 B2]. assert (10 ^ a < 10 ^ S b) by lia. assert (10 ^ b < 10 ^ S a) by lia. apply Nat.pow_lt_mono_r_iff in H, H0; lia. Qed.
Lemma single_ok T n ag ab : single T n ag ab -> aggregation T n ag ab = None \/ aggregation T n ag ab = Some 0.
Proof.
  unfold aggregation. intros [-> |[-> |[-> H]]]; [left; reflexivity|destruct ag as [[|]|]; auto|]. destruct (Nat.ltb_spec T n); [lia|]. left. destruct ag as [[|]|]; reflexivity.
Qed.
Lemma grouped_by_ok T n ag ab m : 0 < T -> grouped_by T n ag ab m -> aggregation T n ag ab = Some m.
Proof.
  intros HT (Ha & Hm & H). unfold aggregation. assert (X : match ab with Some k => Some k | None => if Nat.ltb T n then Some (10 ^ String.length (nat_str (Nat.div n T))) else None end = Some m).
  { destruct H as [-> |(-> & L & d & E & D)]; [reflexivity|]. destruct (Nat.ltb_spec T n); [|lia]. f_equal. assert (Q1 : 1 <= n / T) by (apply Nat.div_le_lower_bound; lia). destruct (nat_str_digits (S (n / T)) (n / T) ltac:(lia) Q1) as (D' & C). fold (nat_str (n / T)) in D', C. destruct (String.length (nat_str (n / T))) as [|k]; [lia|]. cbn [pred] in D'. rewrite E in *. rewrite (pow10_unique k d _ D' D). reflexivity. }
  rewrite X. destruct ag as [[|]|]; [reflexivity|contradiction|reflexivity].
Qed.

(* ===================== C80 ===================== *)
(* Not aggregated, the plot has one row for each item, in order, with its time, its values and its indexes. *)
Theorem C80_items : forall e T s labels indexes ag ab h vr p, from_history e s -> numeric (s_items s) -> plot T s labels indexes ag ab h vr = Ok p ->
  single T (length (s_items s)) ag ab ->
  exists ls ix, picks labels (label_in (s_items s)) ls /\ picks indexes (index_in (s_items s)) ix /\ Forall2 (shows_item ls ix) (s_items s) (p_rows p).
Proof.
  intros e T s labels indexes ag ab h vr p H N E G. destruct (plot_ok T s e labels indexes ag ab h vr p H N E) as (ls & ix & r & P1 & P2 & Nl & _ & _ & _ & R). exists ls, ix. split; [exact P1|]. split; [exact P2|].
  assert (R' : p_rows p = map (fun x => mkRow (i_t x) (i_tz x) (map CNum (map (valof x) ls) ++ map (index_cell x) ix)) (s_items s)) by (destruct (single_ok _ _ _ _ G) as [Z|Z]; rewrite Z in R; exact R). rewrite R'.
  pose proof (picks_known _ _ _ N P1) as K. clear - K. induction (s_items s) as [|x l IH]; [constructor|]. constructor; [|apply IH; intros y Hy; apply K; right; exact Hy]. destruct (K x (or_introl eq_refl)) as [Nx Kx].
  split; [reflexivity|]. split; [reflexivity|]. eexists. eexists. split; [reflexivity|]. split.
  - clear - Kx Nx. induction ls as [|lb ls IH]; [constructor|]. constructor; [|apply IH; intros k Ik; apply Kx; right; exact Ik]. exists (valof x lb). split; [reflexivity|]. apply (valof_ok x lb Nx). apply Kx. left. reflexivity.
  - clear. induction ix as [|k ix IH]; [constructor|]. constructor; [|exact IH]. unfold shows_index, index_cell. destruct (dget k (i_idx x)) as [[v|]|]; [left; exists v; split; reflexivity|right; split; [reflexivity|discriminate]|right; split; [reflexivity|discriminate]].
Qed.
Print Assumptions C80_items.
(* Aggregated by n, it has one row for each n items, in order: the items after the last whole group are not shown. *)
Theorem C80_groups : forall e T s labels indexes ag ab h vr p n, from_history e s -> numeric (s_items s) -> plot T s labels indexes ag ab h vr = Ok p ->
  0 < T -> grouped_by T (length (s_items s)) ag ab n ->
  exists ls ix, picks labels (label_in (s_items s)) ls /\ picks indexes (index_in (s_items s)) ix /\ length (p_rows p) = Nat.div (length (s_items s)) n /\
  forall k w, nth_error (p_rows p) k = Some w -> shows_group ls ix (nth_group n k (s_items s)) w /\ length (nth_group n k (s_items s)) = n.
Proof.
  intros e T s labels indexes ag ab h vr p n H N E HT G'. assert (Hn : 0 < n) by apply G'. pose proof (grouped_by_ok _ _ _ _ _ HT G') as G. destruct (plot_ok T s e labels indexes ag ab h vr p H N E) as (ls & ix & r & P1 & P2 & _ & _ & _ & _ & R). exists ls, ix. split; [exact P1|]. split; [exact P2|]. rewrite G in R. destruct n as [|n]; [lia|]. destruct R as [L R]. split; [exact L|].
  intros k w Hw. split; [apply R; exact Hw|]. apply nth_lt in Hw. rewrite L in Hw. unfold nth_group. rewrite firstn_length, skipn_length. pose proof (Nat.mul_div_le (length (s_items s)) (S n) ltac:(lia)). nia.
Qed.
Print Assumptions C80_groups.

(* All the values of the labels shown are within the range of the plot, unless it is given, or they are all the same negative number. *)
Theorem C80_range : forall e T s labels indexes ag ab p ls, from_history e s -> numeric (s_items s) -> plot T s labels indexes ag ab None None = Ok p -> picks labels (label_in (s_items s)) ls ->
  (forall lo, (forall x lb v, In x (s_items s) -> In lb ls -> has_value x lb v -> v = lo) -> Qcle q0 lo) ->
  forall x lb v, In x (s_items s) -> In lb ls -> has_value x lb v -> Qcle (fst (p_range p)) v /\ Qcle v (snd (p_range p)).
Proof.
  intros e T s labels indexes ag ab p ls H N E P Neg x lb v Ix Il Hv. destruct (plot_ok T s e labels indexes ag ab None None p H N E) as (ls' & ix & r & P1 & P2 & _ & _ & X & R & _). pose proof (picks_known _ _ _ N P) as K.
  assert (Same : forall k, In k ls' <-> In k ls). { intros k. destruct labels as [| |m]; cbn in P, P1; [rewrite (proj2 P), (proj2 P1); reflexivity|subst; reflexivity|destruct P as [-> _], P1 as [-> _]; reflexivity]. }
  assert (V : forall z k w, In z (s_items s) -> In k ls -> has_value z k w -> In w (all_values ls' (s_items s))).
  { intros z k w Iz Ik Hw. unfold all_values. apply in_concat. exists (map (valof z) ls'). split; [apply in_map_iff; exists z; split; [reflexivity|exact Iz]|]. destruct (K z Iz) as [Nz Kz]. pose proof (has_value_get z k w Nz Hw) as A. destruct (valof_ok z k Nz (Kz k Ik)) as [B _]. assert (w = valof z k) as -> by congruence. apply in_map. apply Same. exact Ik. }
  assert (W : forall w, In w (all_values ls' (s_items s)) -> exists z k, In z (s_items s) /\ In k ls /\ has_value z k w).
  { intros w Hw. unfold all_values in Hw. apply in_concat in Hw. destruct Hw as (vs & Hvs & Hw). apply in_map_iff in Hvs. destruct Hvs as (z & <- & Iz). apply in_map_iff in Hw. destruct Hw as (k & <- & Ik). apply Same in Ik. exists z, k. split; [exact Iz|]. split; [exact Ik|]. destruct (K z Iz) as [Nz Kz]. apply (valof_ok z k Nz (Kz k Ik)). }
  specialize (V x lb v Ix Il Hv) as Vx. destruct r as [[lo|] [hi|]]; cbn [extremes] in X; try contradiction; [|rewrite X in Vx; destruct Vx]. destruct X as (Ilo & Ihi & B). destruct (B v Vx) as [B1 B2]. unfold plot_range in R. cbn [fst snd] in R.
  destruct (qeqb_spec hi lo) as [Q|Q]; injection R as R; rewrite <- R; cbn [fst snd].
  - subst hi. assert (Ev : v = lo) by qlra. assert (P0 : Qcle q0 lo). { apply Neg. intros z k w Iz Ik Hw. destruct (B w (V z k w Iz Ik Hw)). qlra. } subst v.
    assert (Q1 : Qcplus (qfrac 99 100) (qfrac 1 100) = 1%Qc) by (apply qeqb_eq; vm_compute; reflexivity). assert (Q3 : Qcplus (qfrac 101 100) (Qcopp (qfrac 1 100)) = 1%Qc) by (apply qeqb_eq; vm_compute; reflexivity). assert (Qp : Qcle q0 (qfrac 1 100)) by (apply qleb_le; vm_compute; reflexivity).
    assert (Pr : Qcle q0 (Qcmult lo (qfrac 1 100))) by (rewrite q0_eq in *; apply Qcmult_le_0_compat || qnra; assumption).
    assert (E1 : Qcmult lo (qfrac 99 100) = Qcminus lo (Qcmult lo (qfrac 1 100))) by (transitivity (Qcminus (Qcmult lo (Qcplus (qfrac 99 100) (qfrac 1 100))) (Qcmult lo (qfrac 1 100))); [ring|rewrite Q1; ring]).
    assert (E2 : Qcmult lo (qfrac 101 100) = Qcplus lo (Qcmult lo (qfrac 1 100))) by (transitivity (Qcplus (Qcmult lo (Qcplus (qfrac 101 100) (Qcopp (qfrac 1 100)))) (Qcmult lo (qfrac 1 100))); [ring|rewrite Q3; ring]).
    rewrite E1, E2. split; qlra.
  - assert (Pt : Qcle q0 tenth) by (apply qleb_le; vm_compute; reflexivity). assert (D : Qcle q0 (Qcminus hi lo)) by (destruct (B lo Ilo); qlra). assert (Pr : Qcle q0 (Qcmult (Qcminus hi lo) tenth)) by (rewrite q0_eq in *; apply Qcmult_le_0_compat || qnra; assumption). split; qlra.
Qed.
Print Assumptions C80_range.

(* The columns: the names of the labels and of the indexes, one for each of the cells of a row, if no name has a comma. *)
Theorem C80_columns : forall e T s labels indexes ag ab h vr p, from_history e s -> numeric (s_items s) -> plot T s labels indexes ag ab h vr = Ok p ->
  (forall k, label_in (s_items s) k \/ index_in (s_items s) k -> no_comma k) ->
  exists ls ix names, picks labels (label_in (s_items s)) ls /\ picks indexes (index_in (s_items s)) ix /\ p_columns p = "Timestamp"%string :: names ++ ix /\ length names = length ls /\
  ((exists x d, In x (s_items s) /\ i_data x = Some (DDict d)) -> names = ls) /\ forall w, In w (p_rows p) -> S (length (w_cells w)) = length (p_columns p).
Proof.
  intros e T s labels indexes ag ab h vr p H N E C. destruct (plot_ok T s e labels indexes ag ab h vr p H N E) as (ls & ix & r & P1 & P2 & Nl & Ec & _ & _ & R). exists ls, ix.
  set (lists := match s_items s with x0 :: _ => match i_data x0 with Some (DList _) => true | _ => false end | [] => false end) in Ec.
  assert (Cl : forall k, In k ls -> no_comma k). { intros k Ik. apply C. left. destruct labels as [| |m]; cbn in P1; [apply P1; exact Ik|subst ls; contradiction|destruct P1 as [-> P1]; apply P1; exact Ik]. }
  assert (Ci : forall k, In k ix -> no_comma k). { intros k Ik. apply C. right. destruct indexes as [| |m]; cbn in P2; [apply P2; exact Ik|subst ix; contradiction|destruct P2 as [-> P2]; apply P2; exact Ik]. }
  set (names := match ls with [] => ["value"%string] | [l] => [if lists then "value"%string else l] | _ => map (fun l => if lists then ("value " ++ l)%string else l) ls end). exists names.
  assert (Ln : length names = length ls) by (unfold names; destruct ls as [|a [|b ls]]; [contradiction|reflexivity|apply map_length]). split; [exact P1|]. split; [exact P2|].
  assert (Ecn : p_columns p = "Timestamp"%string :: names ++ ix).
  { rewrite Ec. unfold column_names. f_equal. change (split_on "," (join "," (names ++ ix)) = names ++ ix). apply split_join.
    - intros Z. apply app_eq_nil in Z. destruct Z as [Z _]. rewrite Z in Ln. destruct ls; [contradiction|discriminate].
    - intros k Ik. apply in_app_or in Ik. destruct Ik as [Ik|Ik]; [|apply Ci; exact Ik]. assert (Vc : no_comma "value") by (unfold no_comma; cbn; intuition discriminate).
      unfold names in Ik. destruct ls as [|a [|b ls']]; [contradiction| |].
      + destruct Ik as [<-|[]]. destruct lists; [exact Vc|apply Cl; left; reflexivity].
      + apply in_map_iff in Ik. destruct Ik as (l & <- & Il). specialize (Cl l Il). destruct lists; [|exact Cl]. cbn [chars append]. unfold no_comma in Cl. cbn. intuition discriminate. }
  split; [exact Ecn|]. split; [exact Ln|]. split.
  - intros (x & d & Ix & Dx). assert (lists = false) as Lf. { unfold lists. destruct (s_items s) as [|x0 l]; [reflexivity|]. destruct N as (_ & _ & Sh). destruct (Sh x x0 Ix (or_introl eq_refl)) as (_ & S3). clear - S3 Dx. rewrite Dx in S3. destruct (i_data x0) as [[|]|]; [|reflexivity|reflexivity]. cbn in S3. intuition (try discriminate; try contradiction). }
    unfold names. rewrite Lf. destruct ls as [|a [|b ls]]; [contradiction|reflexivity|apply map_id].
  - intros w Iw. rewrite Ecn. cbn [length]. f_equal. rewrite app_length, Ln. destruct (aggregation T (length (s_items s)) ag ab) as [[|n]|].
    + rewrite R in Iw. apply in_map_iff in Iw. destruct Iw as (x & <- & _). cbn [w_cells]. rewrite app_length, !map_length. reflexivity.
    + destruct R as [_ R]. apply In_nth_error in Iw. destruct Iw as [k Hk]. destruct (R k w Hk) as (_ & cs & ks & -> & Fc & Fk). rewrite app_length, <- (F2_len _ _ _ Fc), <- (F2_len _ _ _ Fk). reflexivity.
    + rewrite R in Iw. apply in_map_iff in Iw. destruct Iw as (x & <- & _). cbn [w_cells]. rewrite app_length, !map_length. reflexivity.
Qed.
Print Assumptions C80_columns.

(* A series with data can be plotted, with all of its labels or some of them, and all or some of its indexes. *)
Theorem C80_succeeds : forall e T s labels indexes ag ab h vr, from_history e s -> numeric (s_items s) ->
  labels <> Nothing -> labels <> These [] -> (forall m k, labels = These m -> In k m -> label_in (s_items s) k) -> (forall m k, indexes = These m -> In k m -> index_in (s_items s) k) ->
  exists p, plot T s labels indexes ag ab h vr = Ok p.
Proof.
  intros e T s labels indexes ag ab h vr H N L0 L1 Kl Ki. destruct (series_labels e s H N) as (a & Ea & Nd & Na & Ka). destruct (picks_chosen labels a (label_in (s_items s)) Nd Ka Kl) as (ls & C1 & P1). destruct (picks_chosen indexes (all_indexes (s_items s)) (index_in (s_items s)) (all_indexes_NoDup _) ltac:(intros k; apply all_indexes_In) Ki) as (ix & C2 & P2).
  assert (Nl : ls <> []). { destruct labels as [| |m]; cbn in C1, P1; [congruence|contradiction|destruct P1 as [-> _]; congruence]. }
  pose proof (picks_known _ _ _ N P1) as K. assert (Ne : s_items s <> []) by apply N. unfold plot. destruct (s_items s) as [|x0 l0] eqn:El; [contradiction|]. rewrite <- El in *. rewrite Ea, C1, C2. cbn [bind]. assert (X0 : extremes (None, None) []) by reflexivity.
  assert (Rng : forall r, extremes r (all_values ls (s_items s)) -> exists g, plot_range r h vr = Ok g).
  { intros r X. unfold plot_range. destruct r as [[lo|] [hi|]]; cbn [extremes fst snd] in *; [eauto|contradiction|contradiction|]. exfalso. rewrite El in X. destruct ls as [|b ls']; [contradiction|]. discriminate X. }
  assert (R : exists rows r, plot_rows ls ix (aggregation T (length (s_items s)) ag ab) (is_slot x0) (s_items s) = Ok (rows, r) /\ extremes r (all_values ls (s_items s))).
  { unfold plot_rows. destruct ls as [|b ls']; [contradiction|]. set (ls := b :: ls') in *. assert (Pl : exists rows r, plain_rows ls ix (s_items s) (None, None) = Ok (rows, r) /\ extremes r (all_values ls (s_items s))). { destruct (plain_ok ls ix (s_items s) _ _ K X0) as (g' & R' & E'). eauto. }
    destruct (aggregation T (length (s_items s)) ag ab) as [[|n]|]; [exact Pl| |exact Pl]. assert (Ix0 : In x0 (s_items s)) by (rewrite El; left; reflexivity).
    destruct (grouped_ok (is_slot x0) (S n) ls ix ltac:(lia) (s_items s) 0 [] (new_group ls ix) (None, None) [] K) as (rows' & r' & R' & Lr & Wr & E'); [intros x Ix; apply (same_slots _ _ _ N Ix Ix0)|symmetry; apply Nat.mod_0_l; lia|reflexivity|exact X0|]. eauto. }
  destruct R as (rows & r & -> & X). cbn [bind fst snd]. destruct (Rng r X) as [g ->]. cbn [bind]. eauto.
Qed.
Print Assumptions C80_succeeds.

(* What cannot be plotted: a series without items, with a label or an index it does not have, without labels. *)
Theorem C80_refused : forall e T s labels indexes ag ab h vr, from_history e s ->
  (s_items s = [] -> plot T s labels indexes ag ab h vr = Err GenericException) /\
  (numeric (s_items s) -> (forall m k, labels = These m -> In k m -> label_in (s_items s) k) -> (exists m k, indexes = These m /\ In k m /\ ~ index_in (s_items s) k) -> plot T s labels indexes ag ab h vr = Err ValueError) /\
  (numeric (s_items s) -> (exists m k, labels = These m /\ In k m /\ ~ label_in (s_items s) k) -> plot T s labels indexes ag ab h vr = Err ValueError) /\
  (numeric (s_items s) -> labels = Nothing \/ labels = These [] -> (forall m k, indexes = These m -> In k m -> index_in (s_items s) k) -> plot T s labels indexes ag ab h vr = Err TypeError).
Proof.
  intros e T s labels indexes ag ab h vr H.
  assert (Unk : forall a m k, In k m -> ~ In k a -> mapM (fun k => do a <- Ok a; if str_mem k a then Ok k else Err ValueError) m = Err ValueError).
  { intros a m k Ik Na. induction m as [|z m IH]; [destruct Ik|]. cbn [mapM bind] in *. destruct (str_mem z a) eqn:Z; [|reflexivity]. cbn [bind]. rewrite IH; [reflexivity|]. destruct Ik as [->|Ik]; [apply str_mem_In in Z; contradiction|exact Ik]. }
  split; [intros Z; unfold plot; rewrite Z; reflexivity|]. split; [|split].
  - intros N Kl (m & k & -> & Ik & Nk). destruct (series_labels e s H N) as (a & Ea & Nd & Na & Ka). destruct (picks_chosen labels a (label_in (s_items s)) Nd Ka Kl) as (ls & C1 & _). unfold plot. destruct (s_items s) as [|x0 l0] eqn:El; [destruct N as (N & _); contradiction|]. rewrite <- El in *. rewrite Ea, C1. cbn [bind chosen]. pose proof (Unk (all_indexes (s_items s)) m k Ik) as U. cbn [bind] in U. rewrite U; [reflexivity|]. rewrite all_indexes_In. exact Nk.
  - intros N (m & k & -> & Ik & Nk). destruct (series_labels e s H N) as (a & Ea & Nd & Na & Ka). unfold plot. destruct (s_items s) as [|x0 l0] eqn:El; [destruct N as (N & _); contradiction|]. rewrite <- El in *. rewrite Ea. cbn [chosen]. rewrite (Unk a m k Ik); [reflexivity|]. rewrite Ka. exact Nk.
  - intros N L Ki. destruct (series_labels e s H N) as (a & Ea & Nd & Na & Ka). destruct (picks_chosen indexes (all_indexes (s_items s)) (index_in (s_items s)) (all_indexes_NoDup _) ltac:(intros k; apply all_indexes_In) Ki) as (ix & C2 & _). unfold plot. destruct (s_items s) as [|x0 l0] eqn:El; [destruct N as (N & _); contradiction|]. rewrite <- El in *. rewrite Ea, C2. destruct L as [-> | ->]; reflexivity.
Qed.
Print Assumptions C80_refused.

(* Above the threshold T, a series is aggregated so that there are less than T rows, and not less than a tenth of it. *)
Theorem C80_default_size : forall e T s labels indexes ag h vr p, from_history e s -> numeric (s_items s) -> plot T s labels indexes ag None h vr = Ok p ->
  0 < T -> ag <> Some false ->
  (length (s_items s) <= T -> length (p_rows p) = length (s_items s)) /\ (T < length (s_items s) -> length (p_rows p) < T /\ Nat.div T 10 <= length (p_rows p)).
Proof.
  intros e T s labels indexes ag h vr p H N E HT Ha. destruct (plot_ok T s e labels indexes ag None h vr p H N E) as (ls & ix & r & _ & _ & _ & _ & _ & _ & R). unfold aggregation in R. split; intros Hn.
  - destruct (Nat.ltb_spec T (length (s_items s))); [lia|]. assert (R' : p_rows p = map (fun x => mkRow (i_t x) (i_tz x) (map CNum (map (valof x) ls) ++ map (index_cell x) ix)) (s_items s)) by (destruct ag as [[|]|]; exact R). rewrite R'. apply map_length.
  - destruct (Nat.ltb_spec T (length (s_items s))) as [L|]; [|lia]. set (n := length (s_items s)) in *. pose proof (Nat.div_mod n T ltac:(lia)) as Dm. pose proof (Nat.mod_upper_bound n T ltac:(lia)) as Mb. assert (Q1 : 1 <= n / T) by (apply Nat.div_le_lower_bound; lia).
    destruct (nat_str_digits (S (n / T)) (n / T) ltac:(lia) Q1) as ([A B] & C). fold (nat_str (n / T)) in A, B, C. set (d := String.length (nat_str (n / T))) in *. destruct d as [|d']; [lia|]. cbn [pred] in A.
    assert (R' : length (p_rows p) = n / 10 ^ S d'). { destruct (10 ^ S d') as [|m] eqn:Ed; [pose proof (Nat.pow_nonzero 10 (S d') ltac:(lia)); contradiction|]. destruct ag as [[|]|]; [apply R|contradiction|apply R]. }
    rewrite R'. clear R R'. pose proof (Nat.pow_nonzero 10 (S d') ltac:(lia)) as Nz. set (q := n / T) in *. rewrite Nat.pow_succ_r' in *. set (z := 10 ^ d') in *. split; [apply Nat.div_lt_upper_bound; nia|]. apply Nat.div_le_lower_bound; [exact Nz|]. pose proof (Nat.mul_div_le T 10 ltac:(lia)). nia.
Qed.
Print Assumptions C80_default_size.

(* ---- what differs ---- *)
Definition by_position (t v w : Z) : item := ptd t (DList [qz v; qz w]).
Definition commas (t : Z) : item := ptd t (DDict [("a,b"%string, qz 1)]).
Ltac numeric_tac := split; [discriminate|split; [intros x H; in_cases H; (split; [first [left; reflexivity|right; reflexivity]|]); cbn; (first [discriminate|split; [discriminate|]; repeat constructor; cbn; intuition discriminate])|intros x y Hx Hy; in_cases Hx; in_cases Hy; split; try reflexivity; cbn; tauto]].
Ltac made_tac l := assert (E : s_items (mk_s l) = l) by (vm_compute; reflexivity); assert (N : numeric (s_items (mk_s l))) by (rewrite E; numeric_tac); assert (H : from_history ideal_env (mk_s l)) by (apply built_history; [exists None; vm_compute; reflexivity|exact N]).
(* If all the values are the same negative number, the range is upside down: from above it to below it. *)
Theorem C80_negative_inverted : exists s p x v, from_history ideal_env s /\ numeric (s_items s) /\ plot 10 s All All None None None None = Ok p /\ In x (s_items s) /\ has_value x "value" v /\ Qclt v (fst (p_range p)) /\ Qclt (snd (p_range p)) v.
Proof.
  made_tac [pt 0 (-5); pt 10 (-5)]. eexists (mk_s [pt 0 (-5); pt 10 (-5)]). eexists. exists (pt 0 (-5)), (qz (-5)). split; [exact H|]. split; [exact N|]. split; [vm_compute; reflexivity|]. split; [rewrite E; left; reflexivity|]. split; [left; reflexivity|]. split; apply qltb_lt; vm_compute; reflexivity.
Qed.
Print Assumptions C80_negative_inverted.
(* A name with a comma makes two columns. *)
Theorem C80_comma_splits : exists s p w, from_history ideal_env s /\ numeric (s_items s) /\ plot 10 s All All None None None None = Ok p /\ In w (p_rows p) /\ length (w_cells w) = 1 /\ length (p_columns p) = 3.
Proof.
  made_tac [commas 0; commas 10]. exists (mk_s [commas 0; commas 10]). destruct (plot 10 (mk_s [commas 0; commas 10]) All All None None None None) as [p|] eqn:P; [|vm_compute in P; discriminate]. vm_compute in P. injection P as <-. eexists. eexists. split; [exact H|]. split; [exact N|]. split; [reflexivity|]. split; [left; reflexivity|split; reflexivity].
Qed.
Print Assumptions C80_comma_splits.
(* Aggregated, the last items may not be shown at all, though they are the only ones with some values. *)
Theorem C80_leftover_not_shown : exists s p, from_history ideal_env s /\ numeric (s_items s) /\ plot 10 s All All None (Some 2) None None = Ok p /\ (exists x, In x (s_items s) /\ has_value x "value" (qz 100)) /\
  forall w c, In w (p_rows p) -> In c (w_cells w) -> match c with CBand lo mid hi => Qclt hi (qz 100) | CNum v => Qclt v (qz 100) | CNull => True end.
Proof.
  made_tac [pt 0 1; pt 10 2; pt 20 100]. exists (mk_s [pt 0 1; pt 10 2; pt 20 100]). destruct (plot 10 (mk_s [pt 0 1; pt 10 2; pt 20 100]) All All None (Some 2) None None) as [p|] eqn:P; [|vm_compute in P; discriminate]. vm_compute in P. injection P as <-. eexists. split; [exact H|]. split; [exact N|]. split; [reflexivity|]. split; [exists (pt 20 100); split; [rewrite E; right; right; left; reflexivity|left; reflexivity]|].
  cbn [p_rows]. intros w c [<-|[]] Ic. cbn [w_cells] in Ic. repeat (destruct Ic as [<- |Ic]); try destruct Ic; apply qltb_lt; vm_compute; reflexivity.
Qed.
Print Assumptions C80_leftover_not_shown.

(* ---- examples ---- *)
Definition with_loss (t v : Z) (loss : option Qc) : item := set_idx (pt t v) [("data_loss"%string, loss)].
Definition positions3 : list item := [by_position 0 1 5; by_position 10 3 4; by_position 20 2 6].
Definition cell_is (c d : cell) : bool := match c, d with CNum a, CNum b => qeqb a b | CNull, CNull => true | CBand a b c, CBand x y z => qeqb a x && qeqb b y && qeqb c z | _, _ => false end.
Fixpoint cells_are (l r : list cell) : bool := match l, r with [], [] => true | a :: l, b :: r => cell_is a b && cells_are l r | _, _ => false end.
Example C80_example :
  (from_history ideal_env (mk_s positions3) /\ numeric (s_items (mk_s positions3)) /\ exists p, plot 10 (mk_s positions3) All Nothing None None None None = Ok p /\ p_columns p = ["Timestamp"; "value 0"; "value 1"]%string /\ length (p_rows p) = 3 /\ qeqb (fst (p_range p)) (qfrac 1 2) && qeqb (snd (p_range p)) (qfrac 13 2) = true) /\
  (exists p w, plot 2 duo_s (These ["b"%string]) All None None None None = Ok p /\ p_rows p = [] /\ plot 4 duo_s (These ["b"%string]) All None (Some 2) None None = Ok w /\ p_columns w = ["Timestamp"; "b"]%string /\ match p_rows w with [r1; r2] => qeqb (w_t r1) (qz 5) && qeqb (w_t r2) (qz 25) && cells_are (firstn 1 (w_cells r1)) [CBand (qz 1) (qfrac 5 2) (qz 4)] && cells_are (firstn 1 (w_cells r2)) [CBand (qz 1) (qz 3) (qz 5)] | _ => false end = true) /\
  (from_history ideal_env (mk_s slots3) /\ numeric (s_items (mk_s slots3)) /\ exists w, plot 10 (mk_s slots3) All Nothing None (Some 3) None None = Ok w /\ match p_rows w with [r1] => qeqb (w_t r1) (qz 15) && cells_are (w_cells r1) [CBand (qz 1) (qz 2) (qz 3)] | _ => false end = true) /\
  (let l := [with_loss 0 1 (Some (qfrac 1 2)); with_loss 10 2 None; pt 20 3] in from_history ideal_env (mk_s l) /\ numeric (s_items (mk_s l)) /\ exists p w, plot 10 (mk_s l) All All None None None None = Ok p /\ plot 10 (mk_s l) All (These ["data_loss"%string]) None (Some 3) None None = Ok w /\ p_columns p = ["Timestamp"; "value"; "data_loss"]%string /\
     match p_rows p with [r1; r2; r3] => cells_are (w_cells r1) [CNum (qz 1); CNum (qfrac 1 2)] && cells_are (w_cells r2) [CNum (qz 2); CNull] && cells_are (w_cells r3) [CNum (qz 3); CNull] | _ => false end = true /\
     match p_rows w with [r1] => cells_are (w_cells r1) [CBand (qz 1) (qz 2) (qz 3); CBand q0 (qfrac 1 6) (qfrac 1 6)] | _ => false end = true).
Proof.
  split; [|split; [|split]].
  - made_tac positions3. split; [exact H|]. split; [exact N|]. eexists. split; [vm_compute; reflexivity|]. repeat split; vm_compute; reflexivity.
  - eexists. eexists. split; [vm_compute; reflexivity|]. split; [reflexivity|]. split; [vm_compute; reflexivity|]. split; vm_compute; reflexivity.
  - made_tac slots3. split; [exact H|]. split; [exact N|]. eexists. split; [vm_compute; reflexivity|]. vm_compute. reflexivity.
  - cbv zeta. made_tac [with_loss 0 1 (Some (qfrac 1 2)); with_loss 10 2 None; pt 20 3]. split; [exact H|]. split; [exact N|]. eexists. eexists. split; [vm_compute; reflexivity|]. split; [vm_compute; reflexivity|]. repeat split; vm_compute; reflexivity.
Qed.
