(* PlotsProofs.v -- lemmas for C80. *)
From Verif Require Import SpecPlots BaseLemmas PropTactics DictLemmas OpsProofs OpsProofs2 InterpProofs AccessProofs AccessProofs2 ReconProofs LstmProofs AnomalyProofs4 UtilsProofs.
From Coq Require Import Lia.

(* ---- all_values ---- *)
Lemma values_ok x ls : numeric_item x -> (forall lb, In lb ls -> has_label x lb) -> mapM (item_by_label x) ls = Ok (map (valof x) ls).
Proof.
  intros N. induction ls as [|lb ls IH]; intros H; [reflexivity|]. cbn [mapM map]. destruct (valof_ok x lb N (H lb (or_introl eq_refl))) as [-> _]. cbn [bind]. rewrite IH; [reflexivity|intros k I; apply H; right; exact I].
Qed.
Lemma zip_map {A B C} (f : A -> B -> C) (F : string -> A) (G : string -> B) l : zip_with f (map F l) (map G l) = map (fun k => f (F k) (G k)) l.
Proof. induction l as [|x l IH]; [reflexivity|]. cbn. rewrite IH. reflexivity. Qed.
Lemma zip_id {B C} (f : string -> B -> C) (G : string -> B) l : zip_with f l (map G l) = map (fun k => f k (G k)) l.
Proof. induction l as [|x l IH]; [reflexivity|]. cbn. rewrite IH. reflexivity. Qed.

(* ---- ranges ---- *)
Definition extremes (g : vrange) (seen : list Qc) : Prop :=
  match g with
  | (Some lo, Some hi) => In lo seen /\ In hi seen /\ forall v, In v seen -> Qcle lo v /\ Qcle v hi
  | (None, None) => seen = []
  | _ => False
  end.
Lemma keep_ok g seen v : extremes g seen -> extremes (keep g v) (seen ++ [v]).
Proof.
  unfold keep. destruct g as [[lo|] [hi|]]; cbn [fst snd extremes keep_min keep_max]; try contradiction.
  - intros (A & B & H). destruct (qltb_spec v lo) as [L|L]; destruct (qltb_spec hi v) as [R|R]; cbn [extremes]; (split; [apply in_or_app; first [left; assumption|right; left; reflexivity]|]; split; [apply in_or_app; first [left; assumption|right; left; reflexivity]|]); intros w Hw; apply in_app_or in Hw; destruct Hw as [Hw|[<-|[]]]; try (destruct (H w Hw)); try (destruct (H lo A)); split; qlra.
  - intros ->. cbn. split; [left; reflexivity|]. split; [left; reflexivity|]. intros w [<-|[]]. split; apply Qcle_refl.
Qed.
Lemma keeps_ok vs : forall g seen, extremes g seen -> extremes (fold_left keep vs g) (seen ++ vs).
Proof. induction vs as [|v vs IH]; intros g seen H; cbn [fold_left]; [rewrite app_nil_r; exact H|]. change (v :: vs) with ([v] ++ vs). rewrite app_assoc. apply IH, keep_ok, H. Qed.

(* ---- without aggregation ---- *)
Definition all_values (ls : list string) (l : list item) : list Qc := concat (map (fun x => map (valof x) ls) l).
Definition known (ls : list string) (l : list item) : Prop := forall x, In x l -> numeric_item x /\ forall lb, In lb ls -> has_label x lb.
Lemma known_tl ls x l : known ls (x :: l) -> known ls l.
Proof. intros H y Hy. apply H. right. exact Hy. Qed.
Lemma plain_ok ls ix : forall l g seen, known ls l -> extremes g seen -> exists g', plain_rows ls ix l g = Ok (map (fun x => mkRow (i_t x) (i_tz x) (map CNum (map (valof x) ls) ++ map (index_cell x) ix)) l, g') /\ extremes g' (seen ++ all_values ls l).
Proof.
  induction l as [|x l IH]; intros g seen K E; cbn [plain_rows map]; [exists g; split; [reflexivity|rewrite app_nil_r; exact E]|]. destruct (K x (or_introl eq_refl)) as [N H]. unfold plain_row. rewrite (values_ok x ls N H). cbn [bind fst snd].
  destruct (IH (fold_left keep (map (valof x) ls) g) (seen ++ map (valof x) ls) (known_tl _ _ _ K) (keeps_ok _ _ _ E)) as (g' & -> & E'). cbn [bind fst snd]. exists g'. split; [reflexivity|]. unfold all_values in *. cbn [map concat]. rewrite app_assoc. exact E'.
Qed.

(* ---- with aggregation ---- *)
Definition group_is (ls ix : list string) (g : group) (pre : list item) : Prop :=
  g = mkGroup (option_map i_t (nth_error pre 0)) (map (fun lb => fold_left (fun a x => Qcplus a (valof x lb)) pre q0) ls)
        (map (fun lb => fold_left (fun a x => keep_min a (valof x lb)) pre None) ls) (map (fun lb => fold_left (fun a x => keep_max a (valof x lb)) pre None) ls)
        (map (fun k => fold_left (fun a x => index_add x k a) pre q0) ix).
Lemma group_add_ok ls ix g pre x : group_is ls ix g pre -> numeric_item x -> (forall lb, In lb ls -> has_label x lb) -> exists g', group_add ls ix g x = Ok (g', map (valof x) ls) /\ group_is ls ix g' (pre ++ [x]).
Proof.
  intros -> N H. unfold group_add. rewrite (values_ok x ls N H). cbn [bind g_first g_sums g_mins g_maxs g_idx]. eexists. split; [reflexivity|]. unfold group_is. rewrite !zip_map, zip_id. f_equal; try (apply map_ext; intros k; rewrite fold_left_app; reflexivity). destruct pre; reflexivity.
Qed.
Lemma nonempty_min lb (pre : list item) : pre <> [] -> exists v, fold_left (fun a x => keep_min a (valof x lb)) pre None = Some v /\ (exists x, In x pre /\ v = valof x lb) /\ forall x, In x pre -> Qcle v (valof x lb).
Proof.
  induction pre as [|x pre IH] using rev_ind; [intros X; contradiction|]. intros _. rewrite fold_left_app. cbn [fold_left]. destruct pre as [|y pre]; [cbn; exists (valof x lb); split; [reflexivity|]; split; [exists x; split; [left; reflexivity|reflexivity]|]; intros z [<-|[]]; apply Qcle_refl|].
  destruct IH as (v & -> & (z & Iz & Ez) & B); [discriminate|]. cbn [keep_min]. destruct (qltb_spec (valof x lb) v) as [L|L]; eexists; (split; [reflexivity|]); split.
  - exists x. split; [apply in_or_app; right; left; reflexivity|reflexivity].
  - intros w Hw. apply in_app_or in Hw. destruct Hw as [Hw|[<-|[]]]; [specialize (B w Hw); qlra|apply Qcle_refl].
  - exists z. split; [apply in_or_app; left; exact Iz|exact Ez].
  - intros w Hw. apply in_app_or in Hw. destruct Hw as [Hw|[<-|[]]]; [apply B; exact Hw|qlra].
Qed.
Lemma nonempty_max lb (pre : list item) : pre <> [] -> exists v, fold_left (fun a x => keep_max a (valof x lb)) pre None = Some v /\ (exists x, In x pre /\ v = valof x lb) /\ forall x, In x pre -> Qcle (valof x lb) v.
Proof.
  induction pre as [|x pre IH] using rev_ind; [intros X; contradiction|]. intros _. rewrite fold_left_app. cbn [fold_left]. destruct pre as [|y pre]; [cbn; exists (valof x lb); split; [reflexivity|]; split; [exists x; split; [left; reflexivity|reflexivity]|]; intros z [<-|[]]; apply Qcle_refl|].
  destruct IH as (v & -> & (z & Iz & Ez) & B); [discriminate|]. cbn [keep_max]. destruct (qltb_spec v (valof x lb)) as [L|L]; eexists; (split; [reflexivity|]); split.
  - exists x. split; [apply in_or_app; right; left; reflexivity|reflexivity].
  - intros w Hw. apply in_app_or in Hw. destruct Hw as [Hw|[<-|[]]]; [specialize (B w Hw); qlra|apply Qcle_refl].
  - exists z. split; [apply in_or_app; left; exact Iz|exact Ez].
  - intros w Hw. apply in_app_or in Hw. destruct Hw as [Hw|[<-|[]]]; [apply B; exact Hw|qlra].
Qed.
Lemma fold_total {A} (f : A -> Qc) l : forall a, fold_left (fun a x => Qcplus a (f x)) l a = Qcplus a (total (map f l)).
Proof. induction l as [|x l IH]; intros a; cbn [fold_left map total]; [change q0 with (0:Qc) || rewrite q0_eq; ring|]. rewrite IH. ring. Qed.
Lemma qn_nz n : 0 < n -> qn n <> q0.
Proof. intros H X. pose proof (qn_pos n H) as P. rewrite X in P. exact (Qclt_not_eq _ _ P eq_refl). Qed.
Lemma bands_ok n ls pre : 0 < n -> length pre = n -> (forall x lb, In x pre -> In lb ls -> numeric_item x /\ has_label x lb) ->
  exists cs, bands n (map (fun lb => fold_left (fun a x => keep_min a (valof x lb)) pre None) ls) (map (fun lb => fold_left (fun a x => Qcplus a (valof x lb)) pre q0) ls) (map (fun lb => fold_left (fun a x => keep_max a (valof x lb)) pre None) ls) = Ok cs /\ Forall2 (shows_band pre) ls cs.
Proof.
  intros Hn Ln. assert (Ne : pre <> []) by (intros ->; cbn in Ln; lia). induction ls as [|lb ls IH]; intros K; [exists []; split; [reflexivity|constructor]|]. cbn [map bands].
  destruct (nonempty_min lb pre Ne) as (lo & -> & (x & Ix & Elo) & Blo). destruct (nonempty_max lb pre Ne) as (hi & -> & (y & Iy & Ehi) & Bhi). rewrite (fold_total (fun x => valof x lb) pre q0). unfold band, qdiv. rewrite (qeqb_false _ _ (qn_nz n Hn)). cbn [bind].
  destruct IH as (cs & -> & F); [intros z k Iz Ik; apply K; [exact Iz|right; exact Ik]|]. cbn [bind]. eexists. split; [reflexivity|]. constructor; [|exact F].
  assert (V : forall z, In z pre -> has_value z lb (valof z lb)) by (intros z Iz; destruct (K z lb Iz (or_introl eq_refl)) as [N L]; apply (valof_ok z lb N L)).
  assert (U : forall z v, In z pre -> has_value z lb v -> v = valof z lb). { intros z v Iz Hv. destruct (K z lb Iz (or_introl eq_refl)) as [N L]. pose proof (has_value_get z lb v N Hv) as A. destruct (valof_ok z lb N L) as [B _]. congruence. }
  exists lo, hi, (map (fun x => valof x lb) pre). split; [|split; [|split]].
  - unfold mean. rewrite map_length, Ln. f_equal. f_equal. rewrite q0_eq. ring.
  - split; [exists x; split; [exact Ix|rewrite Elo; apply V; exact Ix]|]. intros z v Iz Hv. rewrite (U z v Iz Hv). apply Blo; exact Iz.
  - split; [exists y; split; [exact Iy|rewrite Ehi; apply V; exact Iy]|]. intros z v Iz Hv. rewrite (U z v Iz Hv). apply Bhi; exact Iz.
  - clear - V. unfold column. induction pre as [|z pre IH]; [constructor|]. constructor; [apply V; left; reflexivity|apply IH; intros w Iw; apply V; right; exact Iw].
Qed.
Definition or_zero_of (k : string) (x : item) : Qc := match dget k (i_idx x) with Some (Some v) => v | _ => q0 end.
Lemma index_add_plus x k a : index_add x k a = Qcplus a (or_zero_of k x).
Proof. unfold index_add, or_zero_of. destruct (dget k (i_idx x)) as [[v|]|]; try reflexivity; rewrite q0_eq; ring. Qed.
Lemma index_bands_ok n ix (pre : list item) : 0 < n -> length pre = n -> exists ks, mapM (index_band n) (map (fun k => fold_left (fun a x => index_add x k a) pre q0) ix) = Ok ks /\ Forall2 (shows_index_band pre) ix ks.
Proof.
  intros Hn Ln. induction ix as [|k ix IH]; [exists []; split; [reflexivity|constructor]|]. destruct IH as (ks & E & F). cbn [map mapM]. unfold index_band at 1. unfold qdiv. rewrite (qeqb_false _ _ (qn_nz n Hn)). cbn [bind]. rewrite E. cbn [bind]. eexists. split; [reflexivity|]. constructor; [|exact F].
  exists (map (or_zero_of k) pre). split.
  - assert (S : fold_left (fun a x => index_add x k a) pre q0 = total (map (or_zero_of k) pre)).
    { transitivity (fold_left (fun a x => Qcplus a (or_zero_of k x)) pre q0); [|rewrite (fold_total (or_zero_of k)), q0_eq; ring]. generalize q0. clear. induction pre as [|x l IH]; intros a; [reflexivity|]. cbn [fold_left]. rewrite index_add_plus. apply IH. }
    rewrite S. unfold mean. rewrite map_length, Ln. reflexivity.
  - clear. induction pre as [|x pre IH]; [constructor|]. constructor; [|exact IH]. unfold index_or_zero, or_zero_of. destruct (dget k (i_idx x)) as [[v|]|]; [left; reflexivity|right; split; [reflexivity|discriminate]|right; split; [reflexivity|discriminate]].
Qed.
Lemma group_row_ok slots n ls ix g pre x : 0 < n -> group_is ls ix g (pre ++ [x]) -> length (pre ++ [x]) = n -> known ls (pre ++ [x]) -> is_slot x = slots ->
  exists w, group_row slots n g x = Ok w /\ shows_group ls ix (pre ++ [x]) w.
Proof.
  intros Hn -> Ln K Sl. unfold group_row. cbn [g_first g_sums g_mins g_maxs g_idx]. destruct (bands_ok n ls (pre ++ [x]) Hn Ln) as (cs & -> & F); [intros z lb Iz Il; destruct (K z Iz) as [N L]; split; [exact N|apply L; exact Il]|]. destruct (index_bands_ok n ix (pre ++ [x]) Hn Ln) as (ks & -> & F').
  destruct (nth_error (pre ++ [x]) 0) as [a|] eqn:E0; [|apply nth_error_None in E0; lia]. cbn [option_map bind]. eexists. split; [reflexivity|]. split.
  - exists a, x. split; [exact E0|]. split; [unfold last_item; rewrite rev_app_distr; reflexivity|]. split; [|reflexivity]. cbn [w_t]. unfold finish, qhalf. rewrite Sl. assert (Q2 : q2 = Qcplus 1 1) by (apply qeqb_eq; vm_compute; reflexivity). destruct slots; rewrite Q2; field; discriminate.
  - exists cs, ks. split; [reflexivity|]. split; assumption.
Qed.
Lemma nth_group_S n k (a l : list item) : length a = n -> nth_group n (S k) (a ++ l) = nth_group n k l.
Proof. intros L. unfold nth_group. f_equal. cbn [Nat.mul]. rewrite <- skipn_skipn2. f_equal. rewrite skipn_app, <- L, skipn_all, Nat.sub_diag. reflexivity. Qed.

Lemma grouped_ok slots n ls ix : 0 < n -> forall l i pre g r seen, known ls (pre ++ l) -> (forall x, In x l -> is_slot x = slots) -> length pre = Nat.modulo i n -> group_is ls ix g pre -> extremes r seen ->
  exists rows r', grouped_rows slots n ls ix i g l r = Ok (rows, r') /\ length rows = Nat.div (length (pre ++ l)) n /\ (forall k w, nth_error rows k = Some w -> shows_group ls ix (nth_group n k (pre ++ l)) w) /\ extremes r' (seen ++ all_values ls l).
Proof.
  intros Hn. induction l as [|x l IH]; intros i pre g r seen K Sl Lp G E; cbn [grouped_rows].
  - exists [], r. split; [reflexivity|]. split; [rewrite app_nil_r, Lp; symmetry; apply Nat.div_small, Nat.mod_upper_bound; lia|]. split; [intros [|k] w; discriminate|]. rewrite app_nil_r. exact E.
  - assert (Ix : In x (pre ++ x :: l)) by (apply in_or_app; right; left; reflexivity). destruct (K x Ix) as [N L]. destruct (group_add_ok ls ix g pre x G N L) as (g' & -> & G'). cbn [bind fst snd]. pose proof (keeps_ok (map (valof x) ls) r seen E) as E'.
    assert (Ev : seen ++ all_values ls (x :: l) = (seen ++ map (valof x) ls) ++ all_values ls l) by (unfold all_values; cbn [map concat]; apply app_assoc).
    assert (Ea : pre ++ x :: l = (pre ++ [x]) ++ l) by (rewrite <- app_assoc; reflexivity). pose proof (Nat.mod_upper_bound i n) as Mi. pose proof (Nat.div_mod i n) as Di. pose proof (Nat.div_mod (S i) n) as Ds. pose proof (Nat.mod_upper_bound (S i) n) as Ms.
    destruct (Nat.eqb_spec (Nat.modulo (S i) n) 0) as [Z|Z].
    + assert (Lg : length (pre ++ [x]) = n). { rewrite app_length, Lp. cbn [length]. rewrite Z in Ds. assert (S (Nat.modulo i n) <= n) by lia. destruct (Nat.eq_dec (S (Nat.modulo i n)) n) as [Q|Q]; [lia|]. exfalso. assert (X : Nat.modulo (S i) n = S (Nat.modulo i n)) by (symmetry; apply (Nat.mod_unique (S i) n (Nat.div i n)); lia). lia. }
      destruct (group_row_ok slots n ls ix g' pre x Hn G' Lg) as (w & -> & W); [intros z Iz; apply K; rewrite Ea; apply in_or_app; left; exact Iz|apply Sl; left; reflexivity|]. cbn [bind].
      assert (Kl : known ls ([] ++ l)) by (intros z Iz; apply K; apply in_or_app; right; right; exact Iz). destruct (IH (S i) [] (new_group ls ix) (fold_left keep (map (valof x) ls) r) (seen ++ map (valof x) ls) Kl (fun z Iz => Sl z (or_intror Iz)) ltac:(cbn [length]; lia) eq_refl E') as (rows & r' & -> & Lr & Wr & Er). cbn [bind fst snd]. eexists. exists r'. split; [reflexivity|]. cbn [app] in *. rewrite Ea.
      split; [cbn [length]; rewrite Lr, app_length, Lg; replace (n + length l) with (length l + 1 * n) by lia; rewrite Nat.div_add by lia; lia|]. split; [|rewrite Ev; exact Er]. intros [|k] z Hz; [cbn in Hz; injection Hz as <-|cbn in Hz; rewrite (nth_group_S n k _ _ Lg); apply Wr; exact Hz].
      unfold nth_group. cbn [Nat.mul skipn]. rewrite firstn_app. replace (n - length (pre ++ [x])) with 0 by lia. rewrite firstn_all2 by lia. cbn [firstn]. rewrite app_nil_r. exact W.
    + assert (Lg : length (pre ++ [x]) = Nat.modulo (S i) n). { rewrite app_length, Lp. cbn [length]. assert (X : S (Nat.modulo i n) < n). { destruct (Nat.eq_dec (S (Nat.modulo i n)) n) as [Q|Q]; [|lia]. exfalso. apply Z. symmetry. apply (Nat.mod_unique (S i) n (S (Nat.div i n))); nia. } rewrite Nat.add_1_r. apply (Nat.mod_unique (S i) n (Nat.div i n)); lia. }
      destruct (IH (S i) (pre ++ [x]) g' _ _ ltac:(rewrite <- Ea; exact K) (fun z Iz => Sl z (or_intror Iz)) Lg G' E') as (rows & r' & -> & Lr & Wr & Er). exists rows, r'. rewrite Ea. split; [reflexivity|]. split; [exact Lr|]. split; [exact Wr|]. rewrite Ev. exact Er.
Qed.
